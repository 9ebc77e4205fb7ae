(** Splitting all cells of a row. *)
From Coq Require Import Permutation.
From Verif Require Import Base BaseLemmas FloatModel FloatProofs UndoModel UndoSpec UndoProofs ActionModel ActionSpec ActionProofs
  MeshModel MeshSpec MeshProofs MeshAdj MeshConstruct MeshUndo MeshEdits MeshEdits2 MeshFacts
  FaceModel FaceSpec FaceUseModel FaceUseSpec FaceUse SplitModel SplitSpec SplitProofs SplitMain SplitEffect.

Lemma perm_step {A} (new F G P Q : list A) : Permutation new (F ++ G) -> Permutation (new ++ P ++ Q) ((F ++ P) ++ G ++ Q).
Proof. intros H. rewrite H. rewrite <- !app_assoc. apply Permutation_app_head. rewrite !app_assoc. apply Permutation_app_tail, Permutation_app_comm. Qed.
Lemma place_nth : forall C k c, NoDup C -> nth_error C k = Some c -> place c C = Some k.
Proof.
  induction C as [|a C IH]; intros [|k] c N H; try discriminate; cbn in *.
  - injection H as ->. now rewrite Nat.eqb_refl.
  - apply NoDup_cons_iff in N as (N1 & N2). destruct (Nat.eqb_spec c a) as [->|_]; [contradiction N1; eapply nth_error_In; eauto|]. rewrite (IH k c N2 H). reflexivity.
Qed.
Lemma place_none c C : ~ In c C -> place c C = None.
Proof. induction C as [|a C IH]; cbn; auto. intros H. destruct (Nat.eqb_spec c a) as [->|_]; [tauto|]. rewrite IH by tauto. reflexivity. Qed.
Lemma firstn_snoc {A} (l : list A) k x : nth_error l k = Some x -> firstn (S k) l = firstn k l ++ [x].
Proof. revert l. induction k as [|k IH]; intros [|a l] H; try discriminate; cbn in *; [injection H as ->; reflexivity|]. f_equal. now apply IH. Qed.

Section Loop.
  Variable order : list point -> list edge -> nat -> list (option nat) -> list (option nat).
  Hypothesis order_perm : forall nodes edges n row, Permutation row (order nodes edges n row).
  Notation tree_ok := (recC (restore_leaf order) (commit_leaf order) mesh_le).
  Notation list_ok := (recC_all (restore_leaf order) (commit_leaf order) mesh_le).
  Variable m : mesh.
  Variable f : faces.
  Hypothesis Hc : consistent m.
  Hypothesis U : usable m f.
  Hypothesis D : distinct_edges f.
  Hypothesis E2 : two_ends m f.
  Local Notation N := (length (m_nodes m)).
  Local Notation ed l t := (nth t l 0).

  Variables d l : list nat.
  Hypothesis SS : strip f d l.
  Local Notation n := (length l).
  Lemma strip_cell k : k < n -> opposite_in f (ed l k) (ed d k) (ed d (S k)).
  Proof. intros H. now apply SS. Qed.
  Lemma strip_back k : 0 < k < n -> beyond f (ed d k) (ed l k) (Some (ed l (k - 1))).
  Proof.
    intros H. destruct (proj2 (proj2 SS) (k - 1) ltac:(lia)) as (A & B). replace (S (k - 1)) with k in * by lia. split; [exact A|].
    pose proof (strip_cell (k - 1) ltac:(lia)) as O. replace (S (k - 1)) with k in O by lia. apply (opposite_with m f U _ _ _ O).
  Qed.
  Lemma strip_quad k : k < n -> four_edges f (ed l k).
  Proof. intros H. apply (opposite_with m f U _ _ _ (strip_cell k H)). Qed.
  Lemma strip_on k : S k < n -> beyond f (ed d (S k)) (ed l k) (Some (ed l (S k))).
  Proof. intros H. destruct (proj2 (proj2 SS) k H) as (A & B). split; [auto|exact B]. Qed.

  Variables z top : nat.
  Hypothesis Hz : z <= 1.
  Hypothesis Hn : 1 <= n.
  Hypothesis Ht : n <= top <= n + 1.
  Definition cuts : list nat := skipn z (firstn top d).
  Hypothesis ND : NoDup cuts.
  Local Notation C := cuts.

  Lemma cuts_length : length C = top - z.
  Proof. unfold cuts. rewrite skipn_length, firstn_length. pose proof SS as (L & _). lia. Qed.
  Lemma cuts_nth t : z <= t -> t < top -> nth_error C (t - z) = Some (ed d t).
  Proof.
    intros H1 H2. unfold cuts. rewrite nth_error_skipn, nth_error_firstn by lia. replace (z + (t - z)) with t by lia. apply nth_error_nth'. pose proof SS as (L & _). lia.
  Qed.
  Lemma cuts_mid t : z <= t -> t < top -> mid m C (ed d t) = Some (N + (t - z)).
  Proof. intros H1 H2. unfold mid. now rewrite (place_nth C (t - z) (ed d t) ND (cuts_nth t H1 H2)). Qed.
  Lemma cuts_halves t : z <= t -> t < top -> halves m C (ed d t) = to_ends m (ed d t) (N + (t - z)).
  Proof. intros. unfold halves. now rewrite cuts_mid. Qed.

  Definition done (k : nat) : nat := if k =? 0 then 0 else Nat.min (S k) top - z.
  Definition ins (t : nat) : list (nat * nat) := inside m C (ed d t) (ed d (S t)).
  Definition inv (k : nat) (nn : option nat) (s : splitting) : Prop :=
    exists new, grown order m (firstn (done k) C) new s /\ Permutation new (flat_map (halves m C) (firstn (done k) C) ++ flat_map ins (seq 0 k)) /\
      (0 < k < n -> nn = Some (N + (k - z))).
  Lemma done_len k : length (firstn (done k) C) = done k.
  Proof. rewrite firstn_length, cuts_length. unfold done. destruct (k =? 0); lia. Qed.
  Lemma flat_seq k : flat_map ins (seq 0 (S k)) = flat_map ins (seq 0 k) ++ ins k.
  Proof. rewrite seq_S, flat_map_app. cbn. now rewrite app_nil_r. Qed.
  Lemma flat_firstn k c : nth_error C k = Some c -> flat_map (halves m C) (firstn (S k) C) = flat_map (halves m C) (firstn k C) ++ halves m C c.
  Proof. intros H. rewrite (firstn_snoc C k c H), flat_map_app. cbn. now rewrite app_nil_r. Qed.

  (** A cell behind another one *)
  Lemma step_on k nn s y : 0 < k < n -> inv k nn s -> beyond f (ed d (S k)) (ed l k) y -> open_to f y -> S k < top ->
    exists nn' s', split_element order f (ed l k) (ed d k) nn s = Ok (nn', s') /\ inv (S k) nn' s'.
  Proof.
    intros Hk (new & G & P & Hv) By Oy Hu. rewrite (Hv Hk). assert (Dk : done k = S k - z) by (unfold done; rewrite (proj2 (Nat.eqb_neq k 0)) by lia; lia).
    assert (Dk' : done (S k) = S (S k) - z) by (unfold done; cbn [Nat.eqb]; lia).
    destruct (cell_on order m f Hc U D E2 (ed l k) (ed d k) (ed d (S k)) (Some (ed l (k - 1))) y (strip_cell k ltac:(lia)) (strip_back k Hk) By (firstn (done k) C) new s (N + (k - z)) (ed l (k - 1)) G eq_refl)
      as (s' & Hs & G'); [apply strip_quad; lia|lia|rewrite done_len; lia|exact Oy|].
    rewrite Hs. rewrite done_len in *. assert (Nk : nth_error C (done k) = Some (ed d (S k))) by (rewrite Dk; apply cuts_nth; lia).
    exists (Some (N + done k)), s'. split; [reflexivity|]. exists (new ++ to_ends m (ed d (S k)) (N + done k) ++ [(N + (k - z), N + done k)]).
    replace (done (S k)) with (S (done k)) by lia. rewrite (firstn_snoc C _ _ Nk). split; [exact G'|]. split.
    - rewrite flat_map_app. cbn [flat_map]. rewrite app_nil_r, flat_seq.
      replace (ins k) with [(N + (k - z), N + done k)] by (unfold ins, inside; rewrite (cuts_mid k), (cuts_mid (S k)) by lia; rewrite Dk; reflexivity).
      rewrite (cuts_halves (S k)) by lia. rewrite <- Dk. now apply perm_step.
    - intros _. do 2 f_equal. lia.
  Qed.

  Lemma get_l k : k < n -> vget l k = Ok (ed l k).
  Proof. intros H. apply vget_ok. now apply nth_error_nth'. Qed.
  Lemma get_d k : k <= n -> vget d k = Ok (ed d k).
  Proof. intros H. apply vget_ok. apply nth_error_nth'. destruct SS as (L & _). lia. Qed.

  (** *** Open rows *)
  Section Open.
    Hypothesis NDd : NoDup d.
    Hypothesis First : (z = 0 /\ beyond f (ed d 0) (ed l 0) None) \/ (z = 1 /\ exists j, beyond f (ed d 0) (ed l 0) (Some j) /\ ~ four_edges f j).
    Hypothesis Last : (top = n + 1 /\ beyond f (ed d n) (ed l (n - 1)) None) \/ (top = n /\ exists j, beyond f (ed d n) (ed l (n - 1)) (Some j) /\ ~ four_edges f j).

    Lemma not_cut t : t < length d -> t < z \/ top <= t -> mid m C (ed d t) = None.
    Proof.
      intros L H. unfold mid. rewrite place_none; [reflexivity|]. intros X. apply (In_nth_error C) in X as (k & X). assert (K : k < top - z) by (rewrite <- cuts_length; apply nth_error_Some; congruence).
      replace k with (k + z - z) in X by lia. rewrite cuts_nth in X by lia. injection X as X. apply (proj1 (NoDup_nth d 0) NDd) in X; [lia|destruct SS as (L' & _); lia|exact L].
    Qed.
    Lemma after k : k < n -> exists y, beyond f (ed d (S k)) (ed l k) y /\ (if S k <? top then open_to f y else ~ open_to f y).
    Proof.
      intros H. destruct (Nat.ltb_spec (S k) n) as [K|K].
      - exists (Some (ed l (S k))). split; [now apply strip_on|]. rewrite (proj2 (Nat.ltb_lt _ _)) by lia. cbn. now apply strip_quad.
      - assert (n = S k) by lia. replace (S k) with n by lia. replace k with (n - 1) by lia. destruct Last as [(E & B)|(E & j & B & Q)].
        + exists None. split; [exact B|]. rewrite (proj2 (Nat.ltb_lt _ _)) by lia. exact I.
        + exists (Some j). split; [exact B|]. rewrite (proj2 (Nat.ltb_ge _ _)) by lia. exact Q.
    Qed.
    Lemma open_step k nn s : k < n -> inv k nn s -> exists nn' s', split_element order f (ed l k) (ed d k) nn s = Ok (nn', s') /\ inv (S k) nn' s'.
    Proof.
      intros Hk I. destruct (after k Hk) as (y & By & Oy). pose proof SS as (Ld & _). destruct (Nat.eq_dec k 0) as [->|K].
      - destruct I as (new & G & P & _). cbn [done Nat.eqb firstn flat_map seq app] in G, P. apply Permutation_sym, Permutation_nil in P. subst new.
        assert (D1 : done 1 = Nat.min 2 top - z) by reflexivity.
        assert (I1 : forall nn' s', (exists new, grown order m (firstn (done 1) C) new s' /\ Permutation new (flat_map (halves m C) (firstn (done 1) C) ++ ins 0) /\ (1 < n -> nn' = Some (N + (1 - z)))) -> inv 1 nn' s').
        { intros nn' s' (new & A & B & H). exists new. split; [exact A|]. split; [cbn [seq flat_map]; rewrite app_nil_r; exact B|]. intros X. apply H. lia. }
        destruct First as [(Z & Bx)|(Z & j & Bx & Qx)]; destruct (Nat.ltb_spec 1 top) as [T|T].
        + destruct (cell_both order m f Hc U D E2 _ _ _ None y (strip_cell 0 Hk) Bx By [] [] s nn G eq_refl Oy) as (s' & Hs & G'). rewrite Hs. do 2 eexists. split; [reflexivity|]. apply I1.
          cbn [length app] in *. rewrite Nat.add_0_r in *. assert (N0 : nth_error C 0 = Some (ed d 0)) by (replace 0 with (0 - z) at 1 by lia; apply cuts_nth; lia). assert (N1 : nth_error C 1 = Some (ed d 1)) by (replace 1 with (1 - z) at 1 by lia; apply cuts_nth; lia).
          replace (done 1) with 2 by lia. rewrite (firstn_snoc C 1 _ N1), (firstn_snoc C 0 _ N0). cbn [firstn app flat_map]. eexists. split; [exact G'|]. split; [|intros _; do 2 f_equal; lia].
          unfold ins, inside. rewrite (cuts_halves 0), (cuts_halves 1), (cuts_mid 0), (cuts_mid 1) by lia. rewrite Z. cbn [Nat.sub]. rewrite app_nil_r, Nat.add_0_r. apply Permutation_refl.
        + destruct (cell_first order m f Hc U D E2 _ _ _ None y (strip_cell 0 Hk) Bx By [] [] s nn G eq_refl Oy) as (s' & Hs & G'). rewrite Hs. do 2 eexists. split; [reflexivity|]. apply I1.
          cbn [length app] in *. rewrite Nat.add_0_r in *. assert (N0 : nth_error C 0 = Some (ed d 0)) by (replace 0 with (0 - z) at 1 by lia; apply cuts_nth; lia).
          replace (done 1) with 1 by lia. rewrite (firstn_snoc C 0 _ N0). cbn [firstn app flat_map]. eexists. split; [exact G'|]. split; [|intros; lia].
          unfold ins, inside. rewrite (cuts_halves 0), (cuts_mid 0), (not_cut 1) by lia. rewrite Z. cbn [Nat.sub]. rewrite app_nil_r, Nat.add_0_r. apply Permutation_refl.
        + destruct (cell_second order m f Hc U D E2 _ _ _ (Some j) y (strip_cell 0 Hk) Bx By [] [] s nn j G eq_refl Qx Oy) as (s' & Hs & G'). rewrite Hs. do 2 eexists. split; [reflexivity|]. apply I1.
          cbn [length app] in *. rewrite Nat.add_0_r in *. assert (N1 : nth_error C 0 = Some (ed d 1)) by (replace 0 with (1 - z) at 1 by lia; apply cuts_nth; lia).
          replace (done 1) with 1 by lia. rewrite (firstn_snoc C 0 _ N1). cbn [firstn app flat_map]. eexists. split; [exact G'|]. split; [|intros _; do 2 f_equal; lia].
          unfold ins, inside. rewrite (cuts_halves 1), (cuts_mid 1), (not_cut 0) by lia. rewrite Z. cbn [Nat.sub]. rewrite app_nil_r, Nat.add_0_r. apply Permutation_refl.
        + rewrite (cell_none order m f U D _ _ _ (Some j) y (strip_cell 0 Hk) Bx By [] [] s nn j G eq_refl Qx Oy). do 2 eexists. split; [reflexivity|]. apply I1.
          replace (done 1) with 0 by lia. cbn [firstn flat_map app]. exists []. split; [exact G|]. split; [|intros; lia].
          unfold ins, inside. rewrite (not_cut 1), (not_cut 0) by lia. apply Permutation_refl.
      - destruct (Nat.ltb_spec (S k) top) as [T|T]; [apply (step_on k nn s y); auto; lia|].
        destruct I as (new & G & P & Hv). rewrite (Hv ltac:(lia)). assert (Dk : done k = S k - z) by (unfold done; rewrite (proj2 (Nat.eqb_neq k 0)) by lia; lia).
        assert (Dk' : done (S k) = done k) by (rewrite Dk; unfold done; cbn [Nat.eqb]; lia).
        destruct (cell_last order m f Hc U D E2 _ _ _ (Some (ed l (k - 1))) y (strip_cell k Hk) (strip_back k ltac:(lia)) By (firstn (done k) C) new s (N + (k - z)) (ed l (k - 1)) G eq_refl)
          as (s' & Hs & G'); [apply strip_quad; lia|lia|rewrite done_len; lia|exact Oy|].
        rewrite Hs. do 2 eexists. split; [reflexivity|]. rewrite <- Dk' in G'. eexists. split; [exact G'|]. split; [|intros; lia].
        rewrite Dk', flat_seq. replace (ins k) with (to_ends m (ed d (S k)) (N + (k - z))) by (unfold ins, inside; rewrite (cuts_mid k), (not_cut (S k)) by lia; reflexivity).
        rewrite app_assoc. apply Permutation_app_tail. exact P.
    Qed.
    Lemma open_loop first : forall k, k <= n -> exists nn s, fold_out (split_step order f false l d) (seq 0 k) (None, first, Splitting m [] []) = Ok (nn, first, s) /\ inv k nn s.
    Proof.
      induction k as [|k IH]; intros Hk.
      - exists None, (Splitting m [] []). split; [reflexivity|]. exists []. split; [|split; [apply Permutation_refl|intros; lia]]. split; [|split; [exact Hc|split; [constructor; apply mesh_le_refl|reflexivity]]].
        cbn. unfold grow. cbn. rewrite !app_nil_r. destruct m; reflexivity.
      - destruct (IH ltac:(lia)) as (nn & s & F & I). destruct (open_step k nn s ltac:(lia) I) as (nn' & s' & Hs & I'). exists nn', s'. split; [|exact I'].
        rewrite seq_S, fold_out_app, F. cbn [bind fold_out Nat.add split_step]. rewrite (get_l k ltac:(lia)). cbn [bind andb].
        rewrite (get_d k ltac:(lia)). cbn [bind]. rewrite Hs. reflexivity.
    Qed.
  End Open.

  (** *** Rings *)
  Section Ring.
    Hypothesis Z0 : z = 0.
    Hypothesis Tn : top = n.
    Hypothesis N2 : 2 <= n.
    Hypothesis Close : ed d n = ed d 0.
    Lemma ring_loop : forall k, 1 <= k -> k <= n -> exists nn s, fold_out (split_step order f true l d) (seq 0 k) (None, None, Splitting m [] []) = Ok (nn, Some N, s) /\ inv k nn s.
    Proof.
      pose proof SS as (Ld & _). induction k as [|k IH]; intros H1 Hk; [lia|]. clear H1. destruct (Nat.eq_dec k 0) as [->|K].
      - assert (G : grown order m [] [] (Splitting m [] [])).
        { split; [|split; [exact Hc|split; [constructor; apply mesh_le_refl|reflexivity]]]. cbn. unfold grow. cbn. rewrite !app_nil_r. destruct m; reflexivity. }
        destruct (cell_ring order m f Hc U D E2 _ _ _ (strip_cell 0 ltac:(lia)) [] [] (Splitting m [] []) G) as (s' & Hs & G').
        cbn [seq fold_out split_step]. rewrite (get_l 0 ltac:(lia)). cbn [bind andb Nat.eqb].
        rewrite (get_d 0 ltac:(lia)). cbn [bind]. rewrite Hs. cbn [bind length] in *. rewrite Nat.add_0_r in *. do 2 eexists. split; [reflexivity|].
        assert (D1 : done 1 = 2) by (unfold done; cbn [Nat.eqb]; lia).
        assert (A0 : nth_error C 0 = Some (ed d 0)) by (replace 0 with (0 - z) at 1 by lia; apply cuts_nth; lia). assert (A1 : nth_error C 1 = Some (ed d 1)) by (replace 1 with (1 - z) at 1 by lia; apply cuts_nth; lia).
        cbn [app] in G'. unfold inv. rewrite D1, (firstn_snoc C 1 _ A1), (firstn_snoc C 0 _ A0). cbn [firstn app flat_map seq]. eexists. split; [exact G'|]. split; [|intros _; do 2 f_equal; lia].
        unfold ins, inside. rewrite (cuts_halves 0), (cuts_halves 1), (cuts_mid 0), (cuts_mid 1) by lia. rewrite Z0. cbn [Nat.sub]. rewrite !app_nil_r, Nat.add_0_r. apply Permutation_refl.
      - destruct (IH ltac:(lia) ltac:(lia)) as (nn & s & F & I). rewrite seq_S, fold_out_app, F. cbn [bind fold_out Nat.add split_step].
        rewrite (get_l k ltac:(lia)). cbn [bind]. rewrite (proj2 (Nat.eqb_neq k 0)) by lia. cbn [andb]. destruct (Nat.eqb_spec k (n - 1)) as [E|E].
        + destruct I as (new & G & P & Hv). rewrite (Hv ltac:(lia)). assert (Dk : done k = n) by (unfold done; rewrite (proj2 (Nat.eqb_neq k 0)) by lia; lia).
          assert (Dk' : done (S k) = n) by (unfold done; cbn [Nat.eqb]; lia).
          destruct (grown_link order m Hc _ _ s (N + (k - z)) N G) as (s' & -> & G'); [rewrite done_len; lia..|lia|]. cbn [bind]. do 2 eexists. split; [reflexivity|].
          unfold inv. rewrite Dk'. rewrite Dk in G', P. eexists. split; [exact G'|]. split; [|intros; lia]. rewrite flat_seq, app_assoc. unfold ins at 2. unfold inside.
          replace (S k) with n by lia. rewrite Close, (cuts_mid k), (cuts_mid 0) by lia. rewrite Z0, Nat.sub_0_r, Nat.add_0_r. rewrite Z0, Nat.sub_0_r in *. apply Permutation_app_tail. exact P.
        + rewrite (get_d k ltac:(lia)). cbn [bind].
          destruct (step_on k nn s (Some (ed l (S k))) ltac:(lia) I (strip_on k ltac:(lia))) as (nn' & s' & Hs & I'); [cbn; apply strip_quad; lia|lia|]. rewrite Hs. cbn [bind]. eauto.
    Qed.
  End Ring.

  Lemma inv_end nn s : inv n nn s -> exists new, grown order m C new s /\ Permutation new (new_edges m C d l).
  Proof.
    intros (new & G & P & _). assert (Dn : firstn (done n) C = C) by (apply firstn_all2; rewrite cuts_length; unfold done; rewrite (proj2 (Nat.eqb_neq n 0)) by lia; lia). rewrite Dn in *. eauto.
  Qed.
End Loop.

(** One flip. *)
From Coq Require Import Permutation.
From Verif Require Import Base BaseLemmas FloatModel UndoModel UndoSpec UndoProofs ActionModel ActionSpec ActionProofs
  MeshModel MeshSpec MeshProofs MeshAdj MeshUndo MeshEdits FaceModel FaceSpec FlipModel FlipSpec.

(** *** Triangles *)
Lemma mod3_next i : S i mod 3 = (if i mod 3 =? 2 then 0 else S (i mod 3)) /\ i mod 3 < 3.
Proof.
  pose proof (Nat.mod_upper_bound i 3 ltac:(lia)) as H. split; [|exact H].
  rewrite <- Nat.add_1_l, <- Nat.add_mod_idemp_r by lia. destruct (i mod 3) as [|[|[|k]]]; try reflexivity; lia.
Qed.
Lemma triangle_cycle m x y z p q r : cycle_of_edges m [x; y; z] [p; q; r] <->
  (p < length (m_edges m) /\ joins (edge_at m p) x y) /\ (q < length (m_edges m) /\ joins (edge_at m q) y z) /\ (r < length (m_edges m) /\ joins (edge_at m r) z x).
Proof.
  split.
  - intros [_ H]. split; [apply (H 0); reflexivity|]. split; [apply (H 1); reflexivity|apply (H 2); reflexivity].
  - intros (H1 & H2 & H3). split; [reflexivity|]. intros i a b e Ha Hb He. unfold cyclic in *. cbn [length] in *.
    destruct (mod3_next i) as [N L]. rewrite N in Hb. destruct (i mod 3) as [|[|[|k]]]; cbn in Ha, Hb, He; try lia;
      injection Ha as <-; injection Hb as <-; injection He as <-; assumption.
Qed.

Lemma joins_touches ed x y n : joins ed x y -> touches ed n = (x =? n) || (y =? n).
Proof. unfold touches. intros [-> | ->]; cbn; [reflexivity|apply orb_comm]. Qed.
Lemma joins_same ed a b x y : ed = (Some a, Some b) -> joins ed x y -> (x = a /\ y = b) \/ (x = b /\ y = a).
Proof. intros E [H|H]; rewrite H in E; injection E as <- <-; auto. Qed.
Lemma joins_sym ed x y : joins ed x y -> joins ed y x.
Proof. intros [H|H]; [right|left]; exact H. Qed.
Lemma joins_fun ed x y u v : joins ed x y -> joins ed u v -> (x = u /\ y = v) \/ (x = v /\ y = u).
Proof. intros [H|H] [G|G]; rewrite H in G; injection G as -> ->; auto. Qed.
Lemma joins_ends ed x y n : joins ed x y -> ends_in ed n -> n = x \/ n = y.
Proof. intros [H|H] [G|G]; rewrite H in G; cbn in G; injection G as ->; auto. Qed.
Lemma joins_end ed x y : joins ed x y -> ends_in ed x /\ ends_in ed y.
Proof. unfold ends_in. intros [-> | ->]; cbn; auto. Qed.

Lemma length3 {A} (l : list A) : length l = 3 -> exists x y z, l = [x; y; z].
Proof. destruct l as [|x [|y [|z [|w l]]]]; try discriminate. eauto. Qed.

Lemma nodup3 (x y z : nat) : NoDup [x; y; z] -> x <> y /\ x <> z /\ y <> z.
Proof. intros H. inversion_clear H as [|? ? H1 H2]. inversion_clear H2 as [|? ? H3 H4]. cbn in *. repeat split; intros ->; tauto. Qed.

Lemma edge_get m e : e < length (m_edges m) -> vget (m_edges m) e = Ok (edge_at m e).
Proof. intros H. apply vget_ok. unfold edge_at. apply nth_error_nth'. exact H. Qed.

(** The triangle at one side of an edge: its third node and the two other edges. *)
Lemma triangle_parts m e a b ns es : length ns = 3 -> NoDup ns -> cycle_of_edges m ns es -> In e es -> edge_at m e = (Some a, Some b) ->
  exists l x y, Permutation ns [a; b; l] /\ Permutation es [e; x; y] /\ third ns a b = Ok (Some l) /\
    (a <> b /\ a <> l /\ b <> l) /\
    (x < length (m_edges m) /\ joins (edge_at m x) a l) /\ (y < length (m_edges m) /\ joins (edge_at m y) b l) /\
    forall m' f face, nth_error (faces_edges f) face = Some es -> length (m_edges m') = length (m_edges m) ->
      (forall k, k <> e -> edge_at m' k = edge_at m k) -> other_edges m' f e face a b = Ok (Some x, Some y).
Proof.
  intros L3 Hnd Hc Hin He. destruct (length3 ns L3) as (n0 & n1 & n2 & ->). destruct (length3 es) as (p & q & r & ->); [destruct Hc as [H _]; rewrite H; exact L3|].
  apply triangle_cycle in Hc as ((Lp & Jp) & (Lq & Jq) & (Lr & Jr)). apply nodup3 in Hnd as (D1 & D2 & D3).
  assert (K : forall x y z, third [x; y; z] a b = Ok (if existsb (fun n => (Z.of_nat n =? (Z.of_nat x + Z.of_nat y + Z.of_nat z - Z.of_nat a - Z.of_nat b)%Z)%Z) [x; y; z]
    then Some (Z.to_nat (Z.of_nat x + Z.of_nat y + Z.of_nat z - Z.of_nat a - Z.of_nat b)%Z) else None)) by reflexivity.
  assert (T : forall x y z l, (Z.of_nat x + Z.of_nat y + Z.of_nat z - Z.of_nat a - Z.of_nat b = Z.of_nat l)%Z -> In l [x; y; z] -> third [x; y; z] a b = Ok (Some l)).
  { intros x y z l E Hl. rewrite K, E. replace (existsb _ _) with true; [now rewrite Nat2Z.id|]. symmetry. apply existsb_exists. exists l. split; [exact Hl|apply Z.eqb_refl]. }
  assert (O : forall l x y es0, a <> b -> a <> l -> b <> l -> joins (edge_at m x) a l -> joins (edge_at m y) b l -> x < length (m_edges m) -> y < length (m_edges m) ->
    es0 = [e; x; y] \/ es0 = [e; y; x] \/ es0 = [x; e; y] \/ es0 = [y; e; x] \/ es0 = [x; y; e] \/ es0 = [y; x; e] ->
    forall m' f face, nth_error (faces_edges f) face = Some es0 -> length (m_edges m') = length (m_edges m) ->
      (forall k, k <> e -> edge_at m' k = edge_at m k) -> other_edges m' f e face a b = Ok (Some x, Some y)).
  { intros l x y es0 Hab Hal Hbl Jx Jy Lx Ly Hes m' f face Hf Hlen Hsame.
    assert (Nx : x <> e) by (intros ->; destruct (joins_same _ _ _ _ _ He Jx); intuition congruence).
    assert (Ny : y <> e) by (intros ->; destruct (joins_same _ _ _ _ _ He Jy); intuition congruence).
    assert (Gx : vget (m_edges m') x = Ok (edge_at m x)) by (rewrite edge_get, Hsame by (congruence || lia); reflexivity).
    assert (Gy : vget (m_edges m') y = Ok (edge_at m y)) by (rewrite edge_get, Hsame by (congruence || lia); reflexivity).
    assert (Tx : touches (edge_at m x) a = true /\ touches (edge_at m x) b = false).
    { rewrite !(joins_touches _ _ _ _ Jx), Nat.eqb_refl, orb_true_l. split; [reflexivity|]. apply orb_false_iff. split; apply Nat.eqb_neq; congruence. }
    assert (Ty : touches (edge_at m y) a = false /\ touches (edge_at m y) b = true).
    { rewrite !(joins_touches _ _ _ _ Jy), Nat.eqb_refl, orb_true_l. split; [|reflexivity]. apply orb_false_iff. split; apply Nat.eqb_neq; congruence. }
    destruct Tx as [Tx1 Tx2], Ty as [Ty1 Ty2]. apply Nat.eqb_neq in Nx, Ny.
    unfold other_edges. rewrite (proj2 (vget_ok _ _ _) Hf). cbn [bind seq].
    repeat (destruct Hes as [->|Hes]); [..|subst es0]; cbn [fold_out vget nth_error bind fst snd];
      repeat (rewrite Nat.eqb_refl || rewrite Nx || rewrite Ny || rewrite Gx || rewrite Gy || rewrite Tx1 || rewrite Tx2 || rewrite Ty1 || rewrite Ty2; cbn [bind fst snd]); reflexivity. }
  assert (P3 : forall (x y z : nat), Permutation [x; y; z] [x; y; z] /\ Permutation [x; y; z] [y; x; z] /\ Permutation [x; y; z] [x; z; y] /\ Permutation [x; y; z] [y; z; x] /\
    Permutation [x; y; z] [z; x; y] /\ Permutation [x; y; z] [z; y; x]).
  { intros x y z. split; [reflexivity|]. split; [apply perm_swap|]. split; [apply perm_skip, perm_swap|].
    split; [apply (Permutation_cons_append [y; z] x)|]. split; [symmetry; apply (Permutation_cons_append [x; y] z)|].
    etransitivity; [apply (Permutation_cons_append [y; z] x)|]. apply perm_swap || (cbn; transitivity [z; y; x]; [apply perm_swap|reflexivity]). }
  cbn [In] in Hin. destruct Hin as [E|[E|[E|[]]]]; subst.
  - destruct (joins_same _ _ _ _ _ He Jp) as [[-> ->]|[-> ->]].
    + exists n2, r, q. split; [apply P3|]. split; [apply P3|]. split; [apply T; [lia|cbn; auto]|]. split; [auto|]. split; [split; [auto|apply joins_sym; auto]|]. split; [split; auto|].
      apply (O n2); auto using joins_sym. 
    + exists n2, q, r. split; [apply P3|]. split; [apply P3|]. split; [apply T; [lia|cbn; auto]|]. split; [auto|]. split; [split; auto|]. split; [split; [auto|apply joins_sym; auto]|].
      apply (O n2); auto using joins_sym.
  - destruct (joins_same _ _ _ _ _ He Jq) as [[-> ->]|[-> ->]].
    + exists n0, p, r. split; [apply P3|]. split; [apply P3|]. split; [apply T; [lia|cbn; auto]|]. split; [auto|]. split; [split; auto using joins_sym|]. split; [split; auto using joins_sym|].
      apply (O n0); auto using joins_sym.
    + exists n0, r, p. split; [apply P3|]. split; [apply P3|]. split; [apply T; [lia|cbn; auto]|]. split; [auto|]. split; [split; auto using joins_sym|]. split; [split; auto using joins_sym|].
      apply (O n0); auto 7 using joins_sym.
  - destruct (joins_same _ _ _ _ _ He Jr) as [[-> ->]|[-> ->]].
    + exists n1, q, p. split; [apply P3|]. split; [apply P3|]. split; [apply T; [lia|cbn; auto]|]. split; [auto|]. split; [split; auto using joins_sym|]. split; [split; auto using joins_sym|].
      apply (O n1); auto 10 using joins_sym.
    + exists n1, p, q. split; [apply P3|]. split; [apply P3|]. split; [apply T; [lia|cbn; auto]|]. split; [auto|]. split; [split; auto using joins_sym|]. split; [split; auto using joins_sym|].
      apply (O n1); auto 10 using joins_sym.
Qed.

(** *** The tables of edges at nodes *)
Definition upd {A} (n : nat) (v : A) (g : nat -> A) (x : nat) : A := if x =? n then v else g x.
Lemma upd_eq {A} n (v : A) g : upd n v g n = v.
Proof. unfold upd. now rewrite Nat.eqb_refl. Qed.
Lemma upd_neq {A} n (v : A) g x : x <> n -> upd n v g x = g x.
Proof. intros H. unfold upd. apply Nat.eqb_neq in H. now rewrite H. Qed.

Definition shaped (m0 : mesh) (deg : nat -> nat) (row : nat -> list (option nat)) (m : mesh) : Prop :=
  exists nn ne, m = set_tables m0 nn ne /\ length nn = length (m_nodes m0) /\ length ne = length (m_nodes m0) /\
    forall n, n < length (m_nodes m0) -> nth_error nn n = Some (deg n) /\ nth_error ne n = Some (row n).

Lemma set_nth_fun {A} n (v : A) l g : n < length l -> (forall k, k < length l -> nth_error l k = Some (g k)) ->
  forall k, k < length l -> nth_error (set_nth n v l) k = Some (upd n v g k).
Proof.
  intros Hn H k Hk. unfold upd. destruct (Nat.eqb_spec k n) as [->|Hne]; [apply nth_error_set_nth_eq; exact Hn|]. rewrite nth_error_set_nth_neq by congruence. auto.
Qed.

Lemma shaped_init m : consistent m -> shaped m (degree_of m) (row_of m) m.
Proof.
  intros Hc. exists (m_nodesNumEdges m), (m_nodesEdges m). split; [destruct m; reflexivity|]. split; [apply Hc|]. split; [apply Hc|].
  intros n Hn. split; apply nth_error_nth'; [rewrite (co_counts m Hc)|rewrite (co_rows m Hc)]; exact Hn.
Qed.
Lemma shaped_degree m0 deg row m n : shaped m0 deg row m -> n < length (m_nodes m0) -> degree_of m n = deg n /\ row_of m n = row n.
Proof. intros (nn & ne & -> & L1 & L2 & H) Hn. destruct (H n Hn) as [H1 H2]. unfold degree_of, row_of. cbn. split; apply nth_error_nth; assumption. Qed.

Lemma lower_ok m0 deg row m n d : shaped m0 deg row m -> n < length (m_nodes m0) -> deg n = S d -> exists m', lower m n = Ok m' /\ shaped m0 (upd n d deg) row m'.
Proof.
  intros (nn & ne & -> & L1 & L2 & H) Hn E. destruct (H n Hn) as [H1 _]. unfold lower. cbn [m_nodesNumEdges set_tables m_nodesEdges].
  rewrite (proj2 (vget_ok _ _ _) H1). cbn [bind]. rewrite E, vset_lt by lia. cbn [bind]. eexists. split; [reflexivity|].
  exists (set_nth n d nn), ne. split; [destruct m0; reflexivity|]. split; [now rewrite set_nth_length|]. split; [exact L2|].
  intros k Hk. split; [apply set_nth_fun; try lia; intros; apply H; lia|apply H; exact Hk].
Qed.
Lemma raise_ok m0 deg row m n : shaped m0 deg row m -> n < length (m_nodes m0) -> exists m', raise m n = Ok m' /\ shaped m0 (upd n (S (deg n)) deg) row m'.
Proof.
  intros (nn & ne & -> & L1 & L2 & H) Hn. destruct (H n Hn) as [H1 _]. unfold raise. cbn [m_nodesNumEdges set_tables m_nodesEdges].
  rewrite (proj2 (vget_ok _ _ _) H1). cbn [bind]. rewrite vset_lt by lia. cbn [bind]. eexists. split; [reflexivity|].
  exists (set_nth n (S (deg n)) nn), ne. split; [destruct m0; reflexivity|]. split; [now rewrite set_nth_length|]. split; [exact L2|].
  intros k Hk. split; [apply set_nth_fun; try lia; intros; apply H; lia|apply H; exact Hk].
Qed.

Lemma eq_idx_ok x e : eq_idx x (Some e) = true <-> x = Some e.
Proof. destruct x as [x|]; cbn; [rewrite Nat.eqb_eq|]; split; congruence. Qed.

Lemma seek_ok e row : forall d, length row = S d -> In (Some e) row -> exists k, seek e row d = Ok k /\ nth_error row k = Some (Some e).
Proof.
  induction row as [|x row IH]; intros d L Hin; [destruct Hin|]. cbn [seek]. destruct (eq_idx x (Some e)) eqn:E.
  - apply eq_idx_ok in E. subst x. exists 0. auto.
  - destruct Hin as [->|Hin]; [cbn in E; rewrite Nat.eqb_refl in E; discriminate|]. destruct d as [|d]; [cbn in L; destruct row; [destruct Hin|discriminate]|].
    destruct (IH d) as (k & -> & Hk); [cbn in L; lia|exact Hin|]. exists (S k). auto.
Qed.
Lemma remove_perm {A} (l : list A) : forall k x, nth_error l k = Some x -> Permutation l (x :: firstn k l ++ skipn (S k) l).
Proof.
  induction l as [|y l IH]; intros [|k] x H; try discriminate.
  - cbn in H. injection H as ->. reflexivity.
  - cbn in H. specialize (IH k x H). cbn [firstn skipn app]. rewrite perm_swap. constructor. exact IH.
Qed.

Lemma unlist_ok m0 deg row m n e : shaped m0 deg row m -> n < length (m_nodes m0) -> length (row n) = S (deg n) -> In (Some e) (row n) ->
  exists row' m', unlist e n m = Ok m' /\ Permutation (row n) (Some e :: row') /\ shaped m0 deg (upd n row' row) m'.
Proof.
  intros (nn & ne & -> & L1 & L2 & H) Hn Hl Hin. destruct (H n Hn) as [H1 H2]. destruct (seek_ok e (row n) (deg n) Hl Hin) as (k & Hk & Hx).
  unfold unlist. cbn [m_nodesNumEdges set_tables m_nodesEdges]. rewrite (proj2 (vget_ok _ _ _) H1), (proj2 (vget_ok _ _ _) H2). cbn [bind]. rewrite Hk. cbn [bind].
  rewrite (proj2 (vget_ok _ _ _) Hx). cbn [bind eq_idx]. rewrite Nat.eqb_refl. cbn [negb]. rewrite Hl, Nat.ltb_irrefl, vset_lt by lia. cbn [bind].
  rewrite (firstn_all2 (n := S (deg n)) (row n)) by lia. exists (firstn k (row n) ++ skipn (S k) (row n)). eexists. split; [reflexivity|]. split; [apply remove_perm; exact Hx|].
  exists nn, (set_nth n (firstn k (row n) ++ skipn (S k) (row n)) ne). split; [destruct m0; reflexivity|]. split; [exact L1|]. split; [now rewrite set_nth_length|].
  intros j Hj. split; [apply H; exact Hj|apply set_nth_fun; try lia; intros; apply H; lia].
Qed.

Section Order.
  Variable order : list point -> list edge -> nat -> list (option nat) -> list (option nat).
  Hypothesis order_perm : forall nodes edges n row, Permutation row (order nodes edges n row).

  Lemma reads_ok nodes edges row : well_indexed nodes edges -> (forall oe, In oe row -> exists e, oe = Some e /\ e < length edges) -> sort_reads nodes edges row = Ok tt.
  Proof.
    intros Hw H. assert (E : exists r, row = map Some r /\ forall e, In e r -> e < length edges).
    { clear order order_perm. induction row as [|x row IH]; [exists []; split; [reflexivity|intros e []]|]. destruct (H x (or_introl eq_refl)) as (e & -> & He).
      destruct IH as (r & -> & Hr); [intros oe Ho; apply H; right; exact Ho|]. exists (e :: r). split; [reflexivity|]. intros y [<-|Hy]; auto. }
    destruct E as (r & -> & Hr). apply sort_reads_ok; assumption.
  Qed.

  Lemma enlist_ok m0 deg row m n e d : shaped m0 deg row m -> n < length (m_nodes m0) -> deg n = S d -> length (row n) = d -> valid_at (m_nodes m0) n = true ->
    well_indexed (m_nodes m0) (m_edges m0) -> (forall oe, In oe (row n) -> exists x, oe = Some x /\ x < length (m_edges m0)) -> e < length (m_edges m0) ->
    (S d <= max_edges_per_node -> exists row' m', enlist order e n m = Ok m' /\ Permutation (Some e :: row n) row' /\ shaped m0 deg (upd n row' row) m') /\
    (max_edges_per_node < S d -> enlist order e n m = UB).
  Proof.
    intros (nn & ne & -> & L1 & L2 & H) Hn Hd Hl Hv Hw Hr He. destruct (H n Hn) as [H1 H2].
    assert (Hp : exists p, nth_error (m_nodes m0) n = Some p /\ is_valid p = true) by (unfold valid_at in Hv; destruct (nth_error (m_nodes m0) n) as [p|]; [eauto|discriminate]).
    destruct Hp as (p & Hp & Vp).
    assert (E0 : vset (S d - 1) (Some e) (vresize (S d) (Some 0) (row n)) = Ok (row n ++ [Some e])).
    { rewrite vresize_grow by lia. rewrite Hl. replace (S d - d) with 1 by lia. cbn [repeat]. rewrite vset_lt by (rewrite app_length; cbn; lia).
      replace (S d - 1) with (length (row n) + 0) by lia. rewrite set_nth_app2. reflexivity. }
    assert (R : sort_reads (m_nodes m0) (m_edges m0) (row n ++ [Some e]) = Ok tt).
    { apply reads_ok; [exact Hw|]. intros oe Ho. apply in_app_or in Ho as [Ho|[<-|[]]]; eauto. }
    unfold enlist. cbn [m_nodesNumEdges set_tables m_nodesEdges]. rewrite (proj2 (vget_ok _ _ _) H1), (proj2 (vget_ok _ _ _) H2). cbn [bind]. rewrite Hd, E0. cbn [bind].
    rewrite vset_lt by lia. cbn [bind]. unfold sort_node. cbn [m_nodes m_edges m_nodesNumEdges set_tables m_nodesEdges]. rewrite (proj2 (vget_ok _ _ _) Hp). cbn [bind]. rewrite Vp.
    rewrite (proj2 (vget_ok _ _ _) H1). cbn [bind]. rewrite (proj2 (vget_ok _ _ _) (nth_error_set_nth_eq n (row n ++ [Some e]) ne ltac:(lia))). cbn [bind]. rewrite Hd. split; intros Hm.
    - replace (max_edges_per_node <? S d) with false by (symmetry; apply Nat.ltb_ge; exact Hm). rewrite R. cbn [bind]. rewrite vset_lt by (rewrite set_nth_length; lia). cbn [bind].
      rewrite set_nth_set_nth. eexists (order (m_nodes m0) (m_edges m0) n (row n ++ [Some e])), _. split; [reflexivity|].
      split; [rewrite <- order_perm; apply Permutation_cons_append|].
      eexists nn, (set_nth n _ ne). split; [destruct m0; reflexivity|]. split; [exact L1|]. split; [now rewrite set_nth_length|].
      intros j Hj. split; [apply H; exact Hj|apply set_nth_fun; try lia; intros; apply H; lia].
    - replace (max_edges_per_node <? S d) with true by (symmetry; apply Nat.ltb_lt; exact Hm). reflexivity.
  Qed.
End Order.

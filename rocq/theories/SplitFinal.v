(** The result of splitting a row. *)
From Coq Require Import Permutation.
From Verif Require Import Base BaseLemmas FloatModel FloatProofs UndoModel UndoSpec UndoProofs ActionModel ActionSpec ActionProofs
  MeshModel MeshSpec MeshProofs MeshAdj MeshConstruct MeshUndo MeshEdits MeshEdits2 MeshFacts
  FaceModel FaceSpec FaceUseModel FaceUseSpec FaceUse SplitModel SplitSpec SplitProofs SplitMain SplitEffect SplitLoop.

Lemma NoDup_app_l {A} (a b : list A) : NoDup (a ++ b) -> NoDup a.
Proof. induction a as [|x a IH]; [constructor|]. cbn. intros H. apply NoDup_cons_iff in H as (H1 & H2). constructor; [|auto]. intros X. apply H1, in_or_app. auto. Qed.
Lemma NoDup_app_r {A} (a b : list A) : NoDup (a ++ b) -> NoDup b.
Proof. induction a as [|x a IH]; [auto|]. cbn. intros H. apply NoDup_cons_iff in H as (_ & H). auto. Qed.

Section Final.
  Variable order : list point -> list edge -> nat -> list (option nat) -> list (option nat).
  Hypothesis order_perm : forall nodes edges n row, Permutation row (order nodes edges n row).
  Notation tree_ok := (recC (restore_leaf order) (commit_leaf order) mesh_le).
  Notation list_ok := (recC_all (restore_leaf order) (commit_leaf order) mesh_le).
  Notation reversible_tree := (reversible (restore_act (restore_leaf order)) (commit_act (commit_leaf order)) mesh_le).
  Variable m : mesh.
  Variable f : faces.
  Hypothesis Hc : consistent m.
  Hypothesis U : usable m f.
  Hypothesis D : distinct_edges f.
  Hypothesis E2 : two_ends m f.
  Local Notation N := (length (m_nodes m)).
  Local Notation ed l t := (nth t l 0).

  Lemma cut_beyond c i x : In i (faces_with f c) -> four_edges f i -> beyond f c i x -> cut_at f c <-> open_to f x.
  Proof.
    intros Hi F B. split.
    - intros H. destruct x as [j|]; cbn; [apply H, B|exact I].
    - intros O j Hj. destruct (Nat.eq_dec j i) as [->|Nj]; [exact F|]. destruct x as [k|]; cbn in B, O.
      + replace j with k; [exact O|]. apply (with_two m f U c i); auto; [apply B|intros X; now apply (proj1 B)].
      + rewrite B in Hj. destruct Hj as [<-|[]]. now contradiction Nj.
  Qed.

  Section Row.
    Variables d l : list nat.
    Hypothesis SS : strip f d l.
    Hypothesis Nl : l <> [].
    Local Notation n := (length l).
    Lemma n_pos : 1 <= n.
    Proof. destruct l; [easy|cbn; lia]. Qed.

    Lemma middle_cut t : 0 < t < n -> cut_at f (ed d t).
    Proof.
      intros H. apply (cut_beyond (ed d t) (ed l t) (Some (ed l (t - 1)))).
      - apply (strip_with m f U d l SS). lia.
      - apply (strip_quad m f U d l SS). lia.
      - apply (strip_back m f U d l SS). lia.
      - cbn. apply (strip_quad m f U d l SS). lia.
    Qed.

    (** The row is split; [first] and [last] say whether the end edges are. *)
    Lemma split_open : NoDup d -> open_ends f d l -> exists cuts new s, split_along order f l d (Splitting m [] []) = Ok s /\
      grown order m cuts new s /\ Permutation new (new_edges m cuts d l) /\ NoDup cuts /\ (forall c, In c cuts <-> In c d /\ cut_at f c).
    Proof.
      intros ND OE. pose proof n_pos as Hn. pose proof SS as (Ld & _). unfold open_ends in OE. destruct l as [|l0 lr] eqn:El; [easy|]. rewrite <- El in *. clear l0 lr El. destruct OE as (O0 & On).
      assert (W0 : In (ed l 0) (faces_with f (ed d 0))) by (apply (strip_with m f U d l SS); lia).
      assert (Wn : In (ed l (n - 1)) (faces_with f (ed d n))) by (replace (ed d n) with (ed d (1 + (n - 1))) by (f_equal; lia); apply (strip_with m f U d l SS); lia).
      assert (F0 : four_edges f (ed l 0)) by (apply (strip_quad m f U d l SS); lia). assert (Fn : four_edges f (ed l (n - 1))) by (apply (strip_quad m f U d l SS); lia).
      assert (First : exists z, z <= 1 /\ (z = 0 <-> cut_at f (ed d 0)) /\ ((z = 0 /\ beyond f (ed d 0) (ed l 0) None) \/ (z = 1 /\ exists j, beyond f (ed d 0) (ed l 0) (Some j) /\ ~ four_edges f j))).
      { pose proof (across_ok m f U _ _ W0) as B. destruct (across _ _) as [j|].
        - exists 1. assert (Q : ~ four_edges f j) by (destruct B as (B1 & B2); now apply (O0 j B2)). split; [lia|]. split; [|right; eauto]. rewrite (cut_beyond _ _ _ W0 F0 B). cbn. split; [lia|easy].
        - exists 0. split; [lia|]. split; [|left; auto]. rewrite (cut_beyond _ _ _ W0 F0 B). cbn. tauto. }
      assert (Last : exists top, (top = n + 1 <-> cut_at f (ed d n)) /\ ((top = n + 1 /\ beyond f (ed d n) (ed l (n - 1)) None) \/ (top = n /\ exists j, beyond f (ed d n) (ed l (n - 1)) (Some j) /\ ~ four_edges f j))).
      { pose proof (across_ok m f U _ _ Wn) as B. destruct (across _ _) as [j|].
        - exists n. assert (Q : ~ four_edges f j) by (destruct B as (B1 & B2); now apply (On j B2)). split; [|right; eauto]. rewrite (cut_beyond _ _ _ Wn Fn B). cbn. split; [lia|easy].
        - exists (n + 1). split; [|left; auto]. rewrite (cut_beyond _ _ _ Wn Fn B). cbn. tauto. }
      destruct First as (z & Hz & Cz & First), Last as (top & Ct & Last). assert (Ht : n <= top <= n + 1) by (destruct Last as [(X & _)|(X & _)]; lia).
      assert (NDc : NoDup (cuts d z top)).
      { unfold cuts. assert (ND' : NoDup (firstn top d)) by (rewrite <- (firstn_skipn top d) in ND; apply NoDup_app_l in ND; exact ND).
        rewrite <- (firstn_skipn z (firstn top d)) in ND'. apply NoDup_app_r in ND'. exact ND'. }
      destruct (open_loop order m f Hc U D E2 d l SS z top Hz Hn Ht NDc ND First Last None n (le_n n)) as (nn & s & Fl & I).
      destruct (inv_end order m f d l SS z top Hz Hn Ht nn s I) as (new & G & P). exists (cuts d z top), new, s. split; [|split; [exact G|split; [exact P|split; [exact NDc|]]]].
      - unfold split_along. destruct d as [|c0 dr] eqn:Ed; [discriminate|]. rewrite <- Ed in *.
        replace (c0 =? last d c0) with false; [rewrite Fl; reflexivity|]. symmetry. apply Nat.eqb_neq. intros X.
        assert (Y : last d c0 = ed d n).
        { clear - Ld Ed. destruct (exists_last (l := d)) as (q & w & Eq); [rewrite Ed; discriminate|]. rewrite Eq in Ld |- *. rewrite last_last. rewrite app_length in Ld. cbn in Ld. rewrite app_nth2 by lia. replace (n - length q) with 0 by lia. reflexivity. }
        assert (Z : ed d 0 = c0) by (rewrite Ed; reflexivity). rewrite Y, <- Z in X. apply (proj1 (NoDup_nth d 0) ND) in X; lia.
      - intros c. split.
        + intros H. apply (In_nth_error (cuts d z top)) in H as (k & H). assert (K : k < top - z) by (rewrite <- (cuts_length f d l SS z top Hz Hn Ht); apply nth_error_Some; congruence).
          replace k with (k + z - z) in H by lia. rewrite (cuts_nth f d l SS z top Hz Hn Ht) in H by lia. injection H as <-. split; [apply nth_In; lia|].
          destruct (Nat.eq_dec (k + z) 0) as [E|E]; [rewrite E; apply Cz; lia|]. destruct (Nat.eq_dec (k + z) n) as [E'|E']; [rewrite E'; apply Ct; lia|]. apply middle_cut. lia.
        + intros (H & K). apply (In_nth d c 0) in H as (t & H & <-). assert (T : z <= t < top).
          { split; [destruct (Nat.eq_dec t 0) as [->|]; [apply Cz in K; lia|lia]|]. destruct (Nat.eq_dec t n) as [->|]; [apply Ct in K; lia|lia]. }
          eapply nth_error_In. apply (cuts_nth f d l SS z top Hz Hn Ht t); lia.
    Qed.

    Lemma split_ring : NoDup (removelast d) -> ed d 0 = ed d n -> exists cuts new s, split_along order f l d (Splitting m [] []) = Ok s /\
      grown order m cuts new s /\ Permutation new (new_edges m cuts d l) /\ NoDup cuts /\ (forall c, In c cuts <-> In c d /\ cut_at f c).
    Proof.
      intros ND Close. pose proof n_pos as Hn. pose proof SS as (Ld & _). assert (N2 : 2 <= n).
      { destruct (Nat.eq_dec n 1) as [E|E]; [|lia]. exfalso. apply (opposite_other f D _ _ _ (strip_cell f d l SS 0 ltac:(lia))). rewrite Close, E. reflexivity. }
      assert (NDc : NoDup (cuts d 0 n)) by (unfold cuts; cbn [skipn]; rewrite removelast_firstn_len, Ld in ND; exact ND).
      destruct (ring_loop order m f Hc U D E2 d l SS 0 n ltac:(lia) Hn ltac:(lia) NDc eq_refl eq_refl N2 (eq_sym Close) n Hn (le_n n)) as (nn & s & Fl & I).
      destruct (inv_end order m f d l SS 0 n ltac:(lia) Hn ltac:(lia) nn s I) as (new & G & P). exists (cuts d 0 n), new, s. split; [|split; [exact G|split; [exact P|split; [exact NDc|]]]].
      - unfold split_along. destruct d as [|c0 dr] eqn:Ed; [discriminate|]. rewrite <- Ed in *.
        replace (c0 =? last d c0) with true; [rewrite Fl; reflexivity|]. symmetry. apply Nat.eqb_eq.
        assert (Y : last d c0 = ed d n).
        { clear - Ld Ed. destruct (exists_last (l := d)) as (q & w & Eq); [rewrite Ed; discriminate|]. rewrite Eq in Ld |- *. rewrite last_last. rewrite app_length in Ld. cbn in Ld. rewrite app_nth2 by lia. replace (n - length q) with 0 by lia. reflexivity. }
        rewrite Y, <- Close, Ed. reflexivity.
      - assert (C0 : cut_at f (ed d 0)).
        { apply (cut_beyond (ed d 0) (ed l 0) (Some (ed l (n - 1)))).
          - apply (strip_with m f U d l SS). lia.
          - apply (strip_quad m f U d l SS). lia.
          - split.
            + apply (no_return m f U D d l SS (n - 1) 0); [lia|]. rewrite Close. f_equal. lia.
            + rewrite Close. replace (ed d n) with (ed d (1 + (n - 1))) by (f_equal; lia). apply (strip_with m f U d l SS). lia.
          - cbn. apply (strip_quad m f U d l SS). lia. }
        intros c. split.
        + intros H. apply (In_nth_error (cuts d 0 n)) in H as (k & H). assert (K : k < n - 0) by (rewrite <- (cuts_length f d l SS 0 n ltac:(lia) Hn ltac:(lia)); apply nth_error_Some; congruence).
          replace k with (k - 0) in H by lia. rewrite (cuts_nth f d l SS 0 n ltac:(lia) Hn ltac:(lia)) in H by lia. injection H as <-. split; [apply nth_In; lia|].
          destruct (Nat.eq_dec k 0) as [E|E]; [rewrite E; exact C0|]. apply middle_cut. lia.
        + intros (H & K). apply (In_nth d c 0) in H as (t & H & <-). assert (exists u, u < n /\ ed d t = ed d u) as (u & Hu & ->).
          { destruct (Nat.eq_dec t n) as [->|]; [exists 0; split; [lia|auto]|exists t; split; [lia|auto]]. }
          eapply nth_error_In. apply (cuts_nth f d l SS 0 n ltac:(lia) Hn ltac:(lia) u); lia.
    Qed.
  End Row.

  Lemma delete_fold l : forall acc, fold_out (delete_split order) l acc = fold_out (del_step order) (map Some l) acc.
  Proof. induction l as [|c l IH]; intros acc; [reflexivity|]. cbn [fold_out map]. unfold delete_split at 1. fold (del_step order acc (Some c)). destruct (del_step order acc (Some c)); [cbn [bind]; apply IH|reflexivity..]. Qed.

  Notation split_result := (split_result m).

  Lemma split_main e d l : live (m_nodes m) (edge_at m e) = true -> e < length (m_edges m) -> (exists i, In i (faces_with f e) /\ four_edges f i) ->
    collect m f e = Ok (Some (l, d)) -> row_result f e d l ->
    exists a m1 m2 cuts new, split_row order m f (Some e) = Ok (Some (a, m1, m2)) /\
      split_result cuts new m1 /\ Permutation new (new_edges m cuts d l) /\ NoDup cuts /\ (forall c, In c cuts <-> In c d /\ cut_at f c) /\
      consistent m1 /\ reversible_tree a m m1 /\ administrate order m1 = Ok m2.
  Proof.
    intros Hlive He (i & Hi & Fi) Hcol (SS & Hed & Ends). assert (Nl : l <> []).
    { destruct (opposite_ok m f U i e Hi Fi) as (o & _ & O). intros ->. apply (strip_all m f U D d [] SS) with (a := e) (b := o) (i := i) in O; [easy| |exact Hed]. destruct Ends as [(_ & E)|(_ & E)]; auto. }
    assert (R : exists cuts new s, split_along order f l d (Splitting m [] []) = Ok s /\ grown order m cuts new s /\ Permutation new (new_edges m cuts d l) /\ NoDup cuts /\ (forall c, In c cuts <-> In c d /\ cut_at f c)).
    { destruct Ends as [(ND & OE)|(ND & _ & CE)]; [apply (split_open d l SS Nl ND OE)|apply (split_ring d l SS Nl ND CE)]. }
    destruct R as (cuts & new & s & Hs & (G1 & G2 & G3 & G4) & P & ND & Hcut).
    assert (Lc : forall c, In c cuts -> c < length (m_edges m)).
    { intros c H. apply Hcut in H as (H & _). assert (H' : same_row f e c) by (apply (strip_exact m f U D d l e SS); [destruct Ends as [(_ & E)|(_ & E)]; auto|exact Hed|exact H]).
      inversion H' as [|? ? j _ O]; [subst; exact He|]. subst. apply (with_lt m f U c j), (opposite_with m f U _ _ _ O). }
    unfold split_row. rewrite (proj2 (Nat.leb_gt _ _)) by exact He. unfold get_edge at 1. rewrite (nth_error_nth' (m_edges m) missing_edge He). change (nth e (m_edges m) missing_edge) with (edge_at m e). cbn [bind].
    unfold live, valid_at in Hlive. destruct (edge_at m e) as [[a|] [b|]] eqn:Ee; try discriminate. apply andb_true_iff in Hlive as (Va & Vb). unfold node_at.
    destruct (nth_error (m_nodes m) a) as [pa|]; [|discriminate]. destruct (nth_error (m_nodes m) b) as [pb|]; [|discriminate]. cbn [bind]. rewrite Va. cbn [bind]. rewrite Vb. cbn [negb].
    rewrite (edge_faces_ok m f U e He). cbn [bind fst snd].
    assert (Can : exists q0, is_quad f (nth_error (faces_with f e) 0) = Ok q0 /\ (if (q0 : bool) then Ok true else is_quad f (nth_error (faces_with f e) 1)) = Ok true).
    { assert (X : forall k, exists q, is_quad f (nth_error (faces_with f e) k) = Ok q /\ (nth_error (faces_with f e) k = Some i -> q = true)).
      { intros k. destruct (quad_of m f U (nth_error (faces_with f e) k)) as (q & H1 & H2); [intros j Hj; apply (with_lt m f U e); eapply nth_error_In; eauto|]. exists q. split; [exact H1|]. intros Y. apply H2. eauto. }
      destruct (X 0) as (q0 & -> & Q0). destruct (X 1) as (q1 & -> & Q1). exists q0. split; [reflexivity|]. destruct q0; [reflexivity|]. rewrite Q1; [reflexivity|].
      destruct (with_cases m f U e He) as [E|[(a' & E)|(a' & b' & E)]]; rewrite E in *; cbn in *; [easy| |]; destruct Hi as [->|Hi]; try (specialize (Q0 eq_refl); discriminate); [easy|]. destruct Hi as [->|[]]. reflexivity. }
    destruct Can as (q0 & -> & Hcan). cbn [bind]. rewrite Hcan. cbn [bind negb]. rewrite Hcol. cbn [bind]. rewrite Hs. cbn [bind]. rewrite G4.
    rewrite delete_fold.
    destruct (delete_edges_ok order m (map Some cuts) (s_acts s) (s_mesh s) G3 G2) as (acts & m1 & -> & A1 & A2 & A3 & _ & _ & A6 & A7 & A8).
    { intros oe H. apply in_map_iff in H as (c & <- & H). exists c. split; [reflexivity|]. rewrite G1. cbn. rewrite app_length. specialize (Lc c H). lia. }
    cbn [bind]. destruct (administrate_consistent order order_perm m1 A2) as (m2 & Em2 & _). rewrite Em2. cbn [bind].
    exists (compound acts), m1, m2, cuts, new. split; [reflexivity|]. split.
    - split; [rewrite A3, G1; reflexivity|]. split; [rewrite A6, G1; reflexivity|]. split; [rewrite A7, G1; cbn; now rewrite app_length, map_length|]. split; [|split].
      + intros c Hl H. change (edge_at m1 c) with (ge m1 c). rewrite A8. replace (existsb (eq_idx (Some c)) (map Some cuts)) with true; [reflexivity|]. symmetry. apply existsb_exists. exists (Some c). split; [now apply in_map|cbn; apply Nat.eqb_refl].
      + intros c Hl H. change (edge_at m1 c) with (ge m1 c). rewrite A8. destruct (existsb (eq_idx (Some c)) (map Some cuts)) eqn:X.
        * exfalso. apply H. apply existsb_exists in X as (y & Y & X). apply in_map_iff in Y as (c' & <- & Y). cbn in X. apply Nat.eqb_eq in X. now subst.
        * rewrite G1. unfold ge. cbn. now rewrite app_nth1.
      + intros k p H. change (edge_at m1 (length (m_edges m) + k)) with (ge m1 (length (m_edges m) + k)). rewrite A8. destruct (existsb (eq_idx (Some (length (m_edges m) + k))) (map Some cuts)) eqn:X.
        * exfalso. apply existsb_exists in X as (y & Y & X). apply in_map_iff in Y as (c' & <- & Y). cbn in X. apply Nat.eqb_eq in X. specialize (Lc c' Y). lia.
        * rewrite G1. unfold ge. cbn. rewrite app_nth2 by lia. replace (length (m_edges m) + k - length (m_edges m)) with k by lia. apply nth_error_nth. rewrite nth_error_map, H. reflexivity.
    - split; [exact P|]. split; [exact ND|]. split; [exact Hcut|]. split; [exact A2|]. split; [|exact Em2].
      apply (tree_reversible order), recC_comp. exact A1.
  Qed.

  (** *** The administration afterwards changes nothing when it would change nothing before *)
  Lemma place_in c l k : place c l = Some k -> nth_error l k = Some c.
  Proof.
    revert k. induction l as [|x l IH]; cbn; [discriminate|]. intros k. destruct (Nat.eqb_spec c x) as [->|_]; [intros X; injection X as <-; reflexivity|].
    destruct (place c l) as [j|]; [|discriminate]. intros X. injection X as <-. cbn. auto.
  Qed.
  Lemma split_administrated cuts new m1 d l : split_result cuts new m1 -> Permutation new (new_edges m cuts d l) -> NoDup cuts -> strip f d l ->
    (forall c, In c cuts -> In c d) -> l <> [] -> administrated m -> (forall c, In c cuts -> is_valid (midpoint m c) = true) -> administrated m1.
  Proof.
    intros (R1 & _ & R3 & R4 & R5 & R6) P ND SS Hd Nl (An & Ae) Hv. pose proof SS as (Ld & _). assert (Hn : 1 <= length l) by (destruct l; [easy|cbn; lia]).
    assert (Old : forall k, k < N -> valid_at (m_nodes m1) k = valid_at (m_nodes m) k) by (intros k Hk; unfold valid_at; rewrite R1, nth_error_app1 by exact Hk; reflexivity).
    assert (Mid : forall k, k < length cuts -> valid_at (m_nodes m1) (N + k) = true).
    { intros k Hk. unfold valid_at. rewrite R1, nth_error_app2 by lia. replace (N + k - N) with k by lia. rewrite nth_error_map.
      destruct (nth_error cuts k) as [c|] eqn:E; [|apply nth_error_None in E; lia]. cbn. apply Hv. eapply nth_error_In; eauto. }
    assert (MidC : forall c x, mid m cuts c = Some x -> valid_at (m_nodes m1) x = true).
    { intros c x H. unfold mid in H. destruct (place c cuts) as [k|] eqn:E; [|discriminate]. injection H as <-. apply Mid. apply place_in in E. apply nth_error_Some. congruence. }
    assert (LiveOld : forall c, In c d -> exists a b, edge_at m c = (Some a, Some b) /\ valid_at (m_nodes m1) a = true /\ valid_at (m_nodes m1) b = true).
    { intros c H. assert (O : exists i o, opposite_in f i c o).
      { apply (In_nth d c 0) in H as (t & Ht & <-). destruct t as [|t].
        - exists (ed l 0), (ed d 1). apply SS. lia.
        - exists (ed l t), (ed d t). apply opposite_sym, SS. lia. }
      destruct O as (i & o & O). destruct (ends_of m f U E2 i c o O) as ((a & b & E) & Hl). exists a, b. split; [exact E|]. destruct (ends_lt m Hc c a b Hl E) as (Ha & Hb). rewrite !Old by assumption.
      destruct (Ae (edge_at m c)) as [X|X]; [unfold edge_at; apply nth_In; exact Hl|rewrite E in X; discriminate|]. rewrite E in X. cbn in X. now apply andb_true_iff in X. }
    assert (LiveTo : forall c x p, In c d -> valid_at (m_nodes m1) x = true -> In p (to_ends m c x) -> live (m_nodes m1) (as_edge p) = true).
    { intros c x p H V Hp. destruct (LiveOld c H) as (a & b & E & Va & Vb). unfold to_ends in Hp. rewrite E in Hp. destruct Hp as [<-|[<-|[]]]; cbn; rewrite V, ?Va, ?Vb; reflexivity. }
    assert (LiveNew : forall p, In p new -> live (m_nodes m1) (as_edge p) = true).
    { intros p H. apply (Permutation_in _ P) in H. apply in_app_or in H as [H|H]; apply in_flat_map in H as (t & Ht & H).
      - unfold halves in H. destruct (mid m cuts t) as [x|] eqn:E; [|easy]. apply (LiveTo t x p); eauto.
      - apply in_seq in Ht. assert (In (ed d t) d /\ In (ed d (S t)) d) as (D1 & D2) by (split; apply nth_In; lia). unfold inside in H.
        destruct (mid m cuts (ed d t)) as [x|] eqn:E1, (mid m cuts (ed d (S t))) as [y|] eqn:E3.
        + destruct H as [<-|[]]. cbn. rewrite (MidC _ _ E1), (MidC _ _ E3). reflexivity.
        + apply (LiveTo (ed d (S t)) x p); eauto.
        + apply (LiveTo (ed d t) y p); eauto.
        + easy. }
    assert (NewIn : forall p, In p new -> In (as_edge p) (m_edges m1)).
    { intros p H. apply (In_nth_error new) in H as (k & H). rewrite <- (R6 k p H). apply nth_In. rewrite R3. assert (k < length new) by (apply nth_error_Some; congruence). lia. }
    assert (Half : forall c p, In c cuts -> In p (halves m cuts c) -> In p new).
    { intros c p H Hp. apply (Permutation_in _ (Permutation_sym P)). apply in_or_app. left. apply in_flat_map. eauto. }
    assert (HalfC : forall k c, nth_error cuts k = Some c -> exists a b, edge_at m c = (Some a, Some b) /\ In (a, N + k) new /\ In (N + k, b) new).
    { intros k c H. assert (Hin : In c cuts) by (eapply nth_error_In; eauto). destruct (LiveOld c (Hd c Hin)) as (a & b & E & _). exists a, b. split; [exact E|].
      assert (Q : halves m cuts c = [(a, N + k); (N + k, b)]) by (unfold halves, mid; rewrite (place_nth cuts k c ND H); unfold to_ends; rewrite E; reflexivity).
      split; apply (Half c _ Hin); rewrite Q; cbn; auto. }
    split.
    - intros k p Hk. destruct (Nat.lt_ge_cases k N) as [L|L].
      + rewrite R1, nth_error_app1 in Hk by exact L. destruct (An k p Hk) as [X|(e & He & Hlv & Hend)]; [auto|]. right.
        apply (In_nth (m_edges m) e missing_edge) in He as (c & Hcl & Ec). change (edge_at m c = e) in Ec.
        destruct (in_dec Nat.eq_dec c cuts) as [Hin|Hin].
        * apply (In_nth_error cuts) in Hin as (j & Hj). destruct (HalfC j c Hj) as (a & b & E & N1 & N2). rewrite E in Ec. subst e. destruct Hend as [X|X]; cbn in X; injection X as ->.
          -- exists (as_edge (k, N + j)). split; [now apply NewIn|]. split; [now apply LiveNew|left; reflexivity].
          -- exists (as_edge (N + j, k)). split; [now apply NewIn|]. split; [now apply LiveNew|right; reflexivity].
        * exists e. split; [rewrite <- Ec, <- (R5 c Hcl Hin); apply nth_In; lia|]. split; [|exact Hend].
          unfold live in *. destruct e as [[a|] [b|]]; try discriminate. assert (Hab : a < N /\ b < N) by (apply (ends_lt m Hc c a b Hcl Ec)). now rewrite !Old.
      + rewrite R1, nth_error_app2 in Hk by exact L. rewrite nth_error_map in Hk. destruct (nth_error cuts (k - N)) as [c|] eqn:E; [|discriminate]. right.
        destruct (HalfC (k - N) c E) as (a & b & _ & N1 & _). replace (N + (k - N)) with k in N1 by lia. exists (as_edge (a, k)). split; [now apply NewIn|]. split; [now apply LiveNew|right; reflexivity].
    - intros e He. apply (In_nth (m_edges m1) e missing_edge) in He as (c & Hcl & Ec). change (edge_at m1 c = e) in Ec. destruct (Nat.lt_ge_cases c (length (m_edges m))) as [L|L].
      + destruct (in_dec Nat.eq_dec c cuts) as [Hin|Hin]; [left; rewrite <- Ec; auto|]. rewrite (R5 c L Hin) in Ec. destruct (Ae e) as [X|X]; [rewrite <- Ec; apply nth_In; exact L|auto|]. right.
        unfold live in *. destruct e as [[a|] [b|]]; try discriminate. assert (Hab : a < N /\ b < N) by (apply (ends_lt m Hc c a b L Ec)). now rewrite !Old.
      + right. destruct (nth_error new (c - length (m_edges m))) as [p|] eqn:E; [|apply nth_error_None in E; lia]. pose proof (R6 _ _ E) as X. replace (length (m_edges m) + (c - length (m_edges m))) with c in X by lia.
        rewrite <- Ec, X. apply LiveNew. eapply nth_error_In; eauto.
  Qed.
  Lemma settled_undo a m1 m2 : consistent m1 -> administrated m1 -> reversible_tree a m m1 -> administrate order m1 = Ok m2 ->
    m_nodes m2 = m_nodes m1 /\ m_edges m2 = m_edges m1 /\ reversible_tree a m m2.
  Proof.
    intros C A R E. destruct (administrate_settled order order_perm m1 C A) as (m' & E' & N' & D' & P' & C'). rewrite E in E'. injection E' as <-. split; [exact N'|]. split; [exact D'|].
    intros k. specialize (R k). assert (L : mesh_le m1 m2) by (split; [exists 0, 0; cbn; rewrite !app_nil_r; auto|auto]).
    destruct k; cbn in *; intros s Hs; apply R; eapply mesh_le_trans; eauto.
  Qed.
End Final.

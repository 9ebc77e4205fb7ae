(** What merging two nodes does to the nodes and edges. *)
From Verif Require Import Base BaseLemmas FloatModel FloatProofs UndoModel UndoSpec UndoProofs ActionModel ActionSpec ActionProofs
  MeshModel MeshSpec MeshProofs MeshAdj MeshConstruct MeshUndo MeshEdits MeshEdits2.
From Coq Require Import Permutation.

Lemma lists_all_of_exact m : adjacency_exact m -> simple_edges (m_edges m) ->
  (forall n, n < length (m_nodes m) -> degree_of m n < max_edges_per_node) -> well_indexed (m_nodes m) (m_edges m) -> lists_all m.
Proof.
  intros [A1 A2 A3 A4 A5 A6 A7 A8] [S1 S2] Hd Hw n Hn.
  split; [apply A3; auto|]. split; [apply A5; auto|]. intros oe. split.
  - intros Hin. apply A4; auto.
  - intros (e & o & -> & He & Hj).
    assert (Hno : forall x, e < length (m_edges m) -> ends_in (edge_at m e) x -> x < length (m_nodes m)).
    { intros x _ Hx. apply (Hw (edge_at m e)); auto. apply nth_In; auto. }
    assert (Ho : o < length (m_nodes m)). { apply Hno; auto. destruct Hj as [-> | ->]; [right|left]; reflexivity. }
    destruct (A8 e n o He Hj) as [H|[(e' & H & Hends)|[H|H]]]; auto.
    + destruct (A4 n (Some e') Hn H) as (e2 & o' & E & He' & Hj'). injection E as <-.
      assert (Ho' : joins (edge_at m e') n o).
      { destruct Hj' as [E|E]; rewrite E in Hends |- *; destruct Hends as [X|X]; cbn in X; injection X as ->.
        - exfalso. apply (S1 (edge_at m e) o); [apply nth_In; auto|]. exact Hj.
        - left; auto.
        - right; auto.
        - exfalso. apply (S1 (edge_at m e) o); [apply nth_In; auto|]. exact Hj. }
      assert (e' = e); [|now subst]. apply (S2 e' e (edge_at m e') (edge_at m e) n o); auto; apply nth_error_nth'; auto.
    + specialize (Hd n Hn). lia.
    + specialize (Hd o Ho). lia.
Qed.

Lemma eq_idx_true a b : eq_idx a b = true <-> a = b.
Proof. apply eq_idx_spec. Qed.
Lemma eq_idx_false a b : eq_idx a b = false <-> a <> b.
Proof. rewrite <- eq_idx_spec. destruct (eq_idx a b); split; congruence. Qed.

Lemma joins_dec e a b : {joins e a b} + {~ joins e a b}.
Proof.
  unfold joins. destruct e as [[x|] [y|]]; try (right; intros [H|H]; discriminate).
  destruct (Nat.eq_dec x a), (Nat.eq_dec y b), (Nat.eq_dec x b), (Nat.eq_dec y a); subst;
    try (left; auto; fail); right; intros [H|H]; injection H; congruence.
Qed.

Lemma joins_other e n o : joins e n o -> n <> o -> other_node e n = Some o.
Proof.
  intros [-> | ->] H; unfold other_node; cbn.
  - now rewrite Nat.eqb_refl.
  - destruct (Nat.eqb_spec o n); congruence.
Qed.

Lemma joins_ends e n o : joins e n o -> ends_in e n /\ ends_in e o.
Proof. intros [-> | ->]; unfold ends_in; cbn; auto. Qed.

Lemma joins_sym e n o : joins e n o -> joins e o n.
Proof. intros [-> | ->]; [right|left]; auto. Qed.

Lemma joins_two e n o x y : joins e n o -> joins e x y -> (n = x /\ o = y) \/ (n = y /\ o = x).
Proof. intros [-> | ->] [E|E]; injection E; auto. Qed.

Lemma ge_set m e0 x e : e0 < length (m_edges m) ->
  ge (set_edges m (set_nth e0 x (m_edges m))) e = if e =? e0 then x else ge m e.
Proof. intros H. unfold ge. cbn. now rewrite nth_set_nth. Qed.

Lemma existsb_in e l : existsb (eq_idx (Some e)) l = true <-> In (Some e) l.
Proof.
  rewrite existsb_exists. split.
  - intros (x & Hx & E). apply eq_idx_true in E. now subst.
  - intros H. exists (Some e). split; auto. apply eq_idx_true; auto.
Qed.

Section Merge.
  Variable order : list point -> list edge -> nat -> list (option nat) -> list (option nat).
  Notation merging := (merging order).
  Notation tree_ok := (recC (restore_leaf order) (commit_leaf order) mesh_le).

  (** The loop over the edges of one neighbour [o]. *)
  Lemma inner_effect m0 o b acts m k : merging m0 acts m -> o < length (m_nodes m0) -> k <= degree_of m0 o ->
    exists acts' m', fold_out (merge_inner order o b) (seq 0 k) (acts, m) = Ok (acts', m') /\ merging m0 acts' m' /\
      (forall e, ge m' e = if existsb (eq_idx (Some e)) (firstn k (row_of m0 o)) && eq_idx (other_node (ge m e) o) (Some b)
                           then missing_edge else ge m e).
  Proof.
    intros Hm Ho. induction k as [|k IH]; intros Hk.
    - exists acts, m. cbn. auto.
    - destruct IH as (acts1 & m1 & Hf & Hm1 & He1); [lia|]. rewrite seq_S, fold_out_app, Hf. cbn [bind Nat.add fold_out].
      destruct (merge_inner_ok order m0 o b acts1 m1 k Hm1 Ho) as (acts2 & m2 & -> & Hm2 & He2); [lia|]. cbn [bind].
      exists acts2, m2. split; [reflexivity|]. split; [exact Hm2|].
      pose proof Hm1 as [B1 B2 B3 B4 B5 B6 B7].
      assert (Hd : degree_of m1 o = degree_of m0 o) by (unfold degree_of; now rewrite B4).
      assert (Hr : row_of m1 o = row_of m0 o) by (unfold row_of; now rewrite B5).
      destruct (entry_get m1 o k B2) as (e0 & Hg & Hlt); [rewrite B3; auto|lia|]. rewrite Hr in Hg.
      specialize (He2 e0 Hg). apply vget_ok in Hg.
      assert (Hfn : firstn (S k) (row_of m0 o) = firstn k (row_of m0 o) ++ [Some e0]).
      { clear - Hg. revert k Hg. induction (row_of m0 o) as [|x l IH]; intros [|k] H; cbn in *; try discriminate; [now injection H as ->|].
        f_equal. auto. }
      rewrite Hfn. intros e. rewrite existsb_app. cbn [existsb]. rewrite orb_false_r.
      destruct (Nat.eqb_spec e e0) as [->|Hne].
      + replace (eq_idx (Some e0) (Some e0)) with true by (symmetry; apply eq_idx_true; auto). rewrite orb_true_r. cbn [andb].
        specialize (He1 e0). destruct (existsb (eq_idx (Some e0)) (firstn k (row_of m0 o))); cbn [andb] in He1.
        * destruct (eq_idx (other_node (ge m e0) o) (Some b)) eqn:Eq; rewrite He1 in He2; subst m2.
          -- cbn. exact He1.
          -- rewrite Eq. exact He1.
        * rewrite He1 in He2. subst m2. destruct (eq_idx (other_node (ge m e0) o) (Some b)) eqn:Eq; auto.
          rewrite ge_set by auto. now rewrite Nat.eqb_refl.
      + replace (eq_idx (Some e) (Some e0)) with false by (symmetry; apply eq_idx_false; congruence). rewrite orb_false_r.
        rewrite <- He1. subst m2. destruct (eq_idx (other_node (ge m1 e0) o) (Some b)); auto.
        rewrite ge_set by auto. destruct (Nat.eqb_spec e e0); congruence.
  Qed.

  Section Run.
    Variables (m : mesh) (a b : nat).
    Hypothesis Hc : consistent m.
    Hypothesis Hla : lists_all m.
    Hypothesis Hsi : simple_edges (m_edges m).
    Hypothesis Ha : a < length (m_nodes m).
    Hypothesis Hb : b < length (m_nodes m).
    Hypothesis Hab : a <> b.

    Lemma self_free e n : e < length (m_edges m) -> ~ joins (ge m e) n n.
    Proof. intros He. apply (proj1 Hsi). apply nth_In; auto. Qed.

    Lemma joins_lt e x y : joins (ge m e) x y -> e < length (m_edges m).
    Proof.
      intros H. destruct (Nat.ltb_spec e (length (m_edges m))); auto. unfold ge in H. rewrite nth_overflow in H by auto.
      destruct H as [H|H]; discriminate H.
    Qed.

    Lemma joins_nodes e x y : joins (ge m e) x y -> x < length (m_nodes m) /\ y < length (m_nodes m).
    Proof.
      intros H. pose proof (joins_lt _ _ _ H) as He. destruct (joins_ends _ _ _ H).
      split; apply (co_ends m Hc (ge m e)); auto; apply nth_In; auto.
    Qed.

    Lemma listed e x y : joins (ge m e) x y -> In (Some e) (row_of m x).
    Proof.
      intros H. destruct (joins_nodes _ _ _ H) as [Hx _]. apply (Hla x Hx). exists e, y. split; auto. split; auto.
      eapply joins_lt; eauto.
    Qed.

    (** The edge joins [b] to [a], or to a neighbour of [a] found among the first [i] edges of [a]. *)
    Definition killed (i e : nat) : Prop :=
      joins (ge m e) a b \/
      exists j e1 o, j < i /\ nth_error (row_of m a) j = Some (Some e1) /\ joins (ge m e1) a o /\ o <> b /\ joins (ge m e) o b.

    Definition stage (i : nat) (m' : mesh) : Prop :=
      forall e, (killed i e /\ ge m' e = missing_edge) \/ (~ killed i e /\ ge m' e = ge m e).

    Lemma first_stage : exists acts1 m1 r, find_edge m (Some a) (Some b) = Ok r /\
      match r with Some _ => add_action [] (delete_edge order m r) | None => Ok ([], m) end = Ok (acts1, m1) /\ merging m acts1 m1 /\ stage 0 m1.
    Proof.
      destruct (find_edge_ok m a b Hc Ha) as (r & Hr & Hs).
      assert (Hm0 : merging m [] m) by (constructor; auto; constructor; apply mesh_le_refl).
      destruct (Hla a Ha) as (Hdeg & Hnd & Hrow).
      rewrite Hdeg, firstn_all in Hs.
      assert (K0 : forall e, killed 0 e <-> joins (ge m e) a b).
      { intros e. split; [intros [H|(j & e1 & o & H & _)]; [auto|lia]|left; auto]. }
      destruct r as [e0|].
      - destruct Hs as (Hin & Hlt & Ho). destruct (merging_delete order m [] m e0 Hm0 Hlt) as (acts1 & H1 & H2).
        exists acts1, (set_edges m (set_nth e0 missing_edge (m_edges m))), (Some e0). split; [exact Hr|]. split; [exact H1|]. split; [exact H2|].
        assert (Hj0 : joins (ge m e0) a b).
        { apply Hrow in Hin. destruct Hin as (e & o & E & _ & Hj). injection E as <-. assert (Hao : a <> o).
          { intros <-. eapply self_free; eauto. }
          change (edge_at m e0) with (ge m e0) in Hj. rewrite (joins_other _ _ _ Hj Hao) in Ho. injection Ho as <-. exact Hj. }
        intros e. rewrite ge_set by auto. rewrite K0. destruct (Nat.eqb_spec e e0) as [->|Hne]; auto.
        right. split; auto. intros Hj. apply Hne. apply (proj2 Hsi e e0 (ge m e) (ge m e0) a b); auto; apply nth_error_nth'; auto.
        eapply joins_lt; eauto.
      - exists [], m, None. split; [exact Hr|]. split; [reflexivity|]. split; [exact Hm0|].
        intros e. rewrite K0. right. split; auto. intros Hj. apply (Hs e); [eapply listed; eauto|]. now apply joins_other.
    Qed.

    Lemma outer_stage acts m1 i : merging m acts m1 -> stage i m1 -> i < degree_of m a ->
      exists acts' m', merge_outer order a b (acts, m1) i = Ok (acts', m') /\ merging m acts' m' /\ stage (S i) m'.
    Proof.
      intros Hm Hst Hi. pose proof Hm as [H1 H2 H3 H4 H5 H6 H7]. unfold merge_outer.
      assert (Hd : forall n, degree_of m1 n = degree_of m n) by (intros; unfold degree_of; now rewrite H4).
      assert (Hr : forall n, row_of m1 n = row_of m n) by (intros; unfold row_of; now rewrite H5).
      destruct (Hla a Ha) as (Hdeg & Hnd & Hrow).
      rewrite row_get by (auto; rewrite H3; auto). cbn [bind].
      destruct (entry_get m1 a i H2) as (e1 & He & Hlt); [rewrite H3; auto|rewrite Hd; auto|]. rewrite He. cbn [bind vget_idx].
      rewrite ge_get by auto. cbn [bind]. rewrite Hr in He. apply vget_ok in He.
      assert (Hin : In (Some e1) (row_of m a)) by (eapply nth_error_In; eauto).
      apply Hrow in Hin. destruct Hin as (e2 & o & E & Hlt1 & Hj). injection E as <-. change (edge_at m e1) with (ge m e1) in Hj.
      assert (Hao : a <> o) by (intros <-; eapply self_free; eauto).
      assert (KS : forall e, killed (S i) e <-> killed i e \/ (o <> b /\ joins (ge m e) o b)).
      { intros e. unfold killed. split.
        - intros [H|(j & e' & o' & X1 & X2 & X3 & X4 & X5)]; [auto|].
          destruct (Nat.eq_dec j i) as [->|]; [|left; right; exists j, e', o'; repeat split; auto; lia].
          rewrite He in X2. injection X2 as <-. right. assert (o' = o); [|subst; auto].
          destruct (joins_two _ _ _ _ _ X3 Hj) as [[_ E]|[E1 E2]]; auto. congruence.
        - intros [[H|(j & e' & o' & X1 & X2)]|[Hob Hjb]]; auto.
          + right. exists j, e', o'. split; [lia|auto].
          + right. exists i, e1, o. repeat split; auto. }
      destruct (Hst e1) as [[Hk Hg]|[Hk Hg]]; rewrite Hg.
      - cbn. exists acts, m1. split; [reflexivity|]. split; [exact Hm|].
        assert (Hob : o = b).
        { destruct Hk as [Hk|(j & e' & o' & X1 & X2 & X3 & X4 & X5)].
          - destruct (joins_two _ _ _ _ _ Hj Hk) as [[_ E]|[E1 E2]]; auto. contradiction.
          - destruct (joins_two _ _ _ _ _ Hj X5) as [[_ E]|[E1 E2]]; auto. contradiction. }
        intros e. destruct (Hst e) as [[K G]|[K G]]; [left|right]; rewrite KS; split; auto. intros [X|[X _]]; auto.
      - rewrite (joins_other _ _ _ Hj Hao). destruct (Nat.eqb_spec o b) as [Hob|Hob].
        { exfalso. apply Hk. left. now rewrite <- Hob. }
        destruct (joins_nodes _ _ _ Hj) as [_ Hon].
        rewrite degree_get by (auto; rewrite H3; auto). cbn [bind]. rewrite Hd.
        destruct (inner_effect m o b acts m1 (degree_of m o) Hm Hon (le_n _)) as (acts' & m' & -> & Hm' & Hg').
        exists acts', m'. split; [reflexivity|]. split; [exact Hm'|].
        destruct (Hla o Hon) as (Hdego & Hndo & Hrowo). rewrite Hdego, firstn_all in Hg'.
        intros e. rewrite KS, Hg'.
        destruct (joins_dec (ge m e) o b) as [Hjb|Hnb].
        + left. split; [auto|]. rewrite (proj2 (existsb_in e (row_of m o))) by (eapply listed; eauto). cbn [andb].
          destruct (Hst e) as [[K G]|[K G]]; rewrite G; [reflexivity|].
          rewrite (joins_other _ _ _ Hjb Hob). now rewrite (proj2 (eq_idx_true _ _) eq_refl).
        + assert (Hsame : (if existsb (eq_idx (Some e)) (row_of m o) && eq_idx (other_node (ge m1 e) o) (Some b) then missing_edge else ge m1 e) = ge m1 e).
          { destruct (existsb (eq_idx (Some e)) (row_of m o)) eqn:Ex; auto. cbn [andb].
            destruct (eq_idx (other_node (ge m1 e) o) (Some b)) eqn:Eq; auto. exfalso.
            apply eq_idx_true in Eq. destruct (Hst e) as [[K G]|[K G]]; rewrite G in Eq; [discriminate|].
            apply existsb_in, Hrowo in Ex. destruct Ex as (e' & o' & E' & _ & Hj'). injection E' as <-.
            change (edge_at m e) with (ge m e) in Hj'.
            assert (Hoo : o <> o') by (intros <-; exact (self_free e o (joins_lt _ _ _ Hj') Hj')).
            rewrite (joins_other _ _ _ Hj' Hoo) in Eq. injection Eq as <-. auto. }
          rewrite Hsame. destruct (Hst e) as [[K G]|[K G]]; [left|right]; split; auto. intros [X|[_ X]]; auto.
    Qed.

    Definition retarget (ed : edge) : edge := if eq_idx (fst ed) (Some a) then (Some b, snd ed) else (fst ed, Some b).

    Definition stage3 (m2 : mesh) (i : nat) (m' : mesh) : Prop :=
      forall e, (In (Some e) (firstn i (row_of m a)) /\ ge m2 e <> missing_edge /\ ge m' e = retarget (ge m e)) \/
                (~ (In (Some e) (firstn i (row_of m a)) /\ ge m2 e <> missing_edge) /\ ge m' e = ge m2 e).

    Lemma first_fold acts m2 l k0 : merging m acts m2 -> stage k0 m2 ->
      length l + degree_of m a <= max_edges_per_node ->
      (forall oe, In oe l -> exists e, oe = Some e /\ e < length (m_edges m)) ->
      exists l' acts' m', fold_out (collect_first order a b) (seq 0 (degree_of m a)) (l, (acts, m2)) = Ok (l', (acts', m')) /\
        merging m acts' m' /\ (forall oe, In oe l' -> exists e, oe = Some e /\ e < length (m_edges m)) /\ stage3 m2 (degree_of m a) m'.
    Proof.
      intros Hm Hst Hl Hr. destruct (Hla a Ha) as (Hdeg & Hnd & Hrow).
      destruct (fold_seq_ok (collect_first order a b)
        (fun i acc => merging m (fst (snd acc)) (snd (snd acc)) /\ length (fst acc) <= length l + i /\
          (forall oe, In oe (fst acc) -> exists e, oe = Some e /\ e < length (m_edges m)) /\ stage3 m2 i (snd (snd acc))) (degree_of m a) (l, (acts, m2)))
        as ([l' [acts' m']] & Hf & Hm' & Hl' & Hr' & Hs').
      - intros i [l1 [acts1 m1]] Hi (Hm1 & Hl1 & Hr1 & Hs1). cbn [fst snd] in *. pose proof Hm1 as [H1 H2 H3 H4 H5 H6 H7].
        unfold collect_first.
        assert (Hd : degree_of m1 a = degree_of m a) by (unfold degree_of; now rewrite H4).
        assert (Hrr : row_of m1 a = row_of m a) by (unfold row_of; now rewrite H5).
        rewrite row_get by (auto; rewrite H3; auto). cbn [bind].
        destruct (entry_get m1 a i H2) as (e & He & Hlt); [rewrite H3; auto|lia|]. rewrite He. cbn [bind vget_idx].
        rewrite ge_get by auto. cbn [bind]. rewrite Hrr in He. apply vget_ok in He.
        assert (Hfn : firstn (S i) (row_of m a) = firstn i (row_of m a) ++ [Some e]).
        { clear - He. revert i He. induction (row_of m a) as [|x r IH]; intros [|i] H; cbn in *; try discriminate; [now injection H as ->|].
          f_equal. auto. }
        assert (Hnew : ~ In (Some e) (firstn i (row_of m a))).
        { intros Hin. assert (Hii : i < length (row_of m a)) by (apply nth_error_Some; congruence).
          apply In_nth_error in Hin. destruct Hin as (j & Hj).
          assert (j < i). { assert (j < length (firstn i (row_of m a))) by (apply nth_error_Some; congruence). rewrite firstn_length in H. lia. }
          rewrite nth_error_firstn in Hj by auto. pose proof (proj1 (NoDup_nth_error (row_of m a)) Hnd j i). rewrite Hj, He in H0.
          specialize (H0 ltac:(lia) eq_refl). lia. }
        assert (Hge : ge m1 e = ge m2 e).
        { destruct (Hs1 e) as [(X & _)|(_ & X)]; auto; contradiction. }
        assert (Hin : In (Some e) (row_of m a)) by (eapply nth_error_In; eauto).
        apply Hrow in Hin. destruct Hin as (e2 & o & E & Hlt1 & Hj). injection E as <-. change (edge_at m e) with (ge m e) in Hj.
        assert (Hao : a <> o) by (intros <-; eapply self_free; eauto).
        assert (Hnext : forall m', (ge m2 e = missing_edge -> m' = m1) ->
           (ge m2 e <> missing_edge -> m' = set_edges m1 (set_nth e (retarget (ge m e)) (m_edges m1))) -> stage3 m2 (S i) m').
        { intros m' Hx Hy f. rewrite Hfn. rewrite in_app_iff. cbn [In].
          destruct (Nat.eq_dec f e) as [->|Hfe].
          - destruct (Hst e) as [[_ G]|[_ G]].
            + right. split; [intros [_ X]; auto|]. rewrite Hx; auto.
            + left. assert (ge m2 e <> missing_edge). { rewrite G. intros X. rewrite X in Hj. destruct Hj; discriminate. }
              split; auto. split; auto. rewrite (Hy H), ge_set by auto. now rewrite Nat.eqb_refl.
          - assert (Hf : ge m' f = ge m1 f).
            { destruct (Hst e) as [[_ G]|[_ G]]; [rewrite Hx; auto|]. rewrite Hy, ge_set by (auto; rewrite G; intros X; rewrite X in Hj; destruct Hj; discriminate).
              destruct (Nat.eqb_spec f e); congruence. }
            rewrite Hf. destruct (Hs1 f) as [(X1 & X2 & X3)|(X1 & X2)]; [left|right]; auto.
            split; auto. intros [[Y|[Y|[]]] Z]; [auto|congruence]. }
        rewrite Hge. destruct (Hst e) as [[_ G]|[_ G]].
        { rewrite G in *. cbn [fst missing_edge]. eexists. split; [reflexivity|]. cbn [fst snd]. split; [exact Hm1|]. split; [lia|]. split; [exact Hr1|].
          apply Hnext; auto. contradiction. }
        assert (Hgn : ge m2 e <> missing_edge). { rewrite G. intros X. rewrite X in Hj. destruct Hj; discriminate. }
        rewrite G in *.
        assert (Hin : forall oe, In oe (l1 ++ [Some e]) -> exists e, oe = Some e /\ e < length (m_edges m)).
        { intros oe Hin. apply in_app_or in Hin. destruct Hin as [Hin|[<-|[]]]; eauto. }
        assert (Hlen : length (l1 ++ [Some e]) <= length l + S i) by (rewrite app_length; cbn; lia).
        destruct (joins_nodes _ _ _ Hj) as [_ Hon].
        destruct Hj as [Hj|Hj]; rewrite Hj in *; cbn [fst snd].
        + destruct (Nat.ltb_spec (length l1) max_edges_per_node); [|lia]. rewrite Nat.eqb_refl.
          destruct (merging_reset order m acts1 m1 e (Some b, Some o) Hm1 Hlt) as (acts2 & -> & Hm2).
          { intros n [Hn|Hn]; cbn in Hn; injection Hn as <-; rewrite H3; auto. }
          cbn [bind]. eexists. split; [reflexivity|]. cbn [fst snd]. split; auto. split; auto. split; auto. apply Hnext; [contradiction|].
          intros _. unfold retarget. cbn. now rewrite Nat.eqb_refl.
        + destruct (Nat.ltb_spec (length l1) max_edges_per_node); [|lia]. rewrite (proj2 (Nat.eqb_neq o a)) by auto.
          rewrite (proj2 (eq_idx_true _ _) eq_refl).
          destruct (merging_reset order m acts1 m1 e (Some o, Some b) Hm1 Hlt) as (acts2 & -> & Hm2).
          { intros n [Hn|Hn]; cbn in Hn; injection Hn as <-; rewrite H3; auto. }
          cbn [bind]. eexists. split; [reflexivity|]. cbn [fst snd]. split; auto. split; auto. split; auto. apply Hnext; [contradiction|].
          intros _. unfold retarget. cbn. rewrite (proj2 (Nat.eqb_neq o a)) by auto. reflexivity.
      - cbn [fst snd]. split; auto. split; [lia|]. split; auto. intros e. right. split; auto. intros [[] _].
      - exists l', acts', m'. auto.
    Qed.

    Lemma merge_effect : degree_of m a + degree_of m b <= max_edges_per_node ->
      exists t m', merge_two_nodes order m (Some a) (Some b) = Ok (Some (t, m')) /\
        m_nodes m' = set_nth a missing_point (m_nodes m) /\ m_projection m' = m_projection m /\ merged_edges m a b m'.
    Proof.
      intros Hdg. unfold merge_two_nodes.
      rewrite (proj2 (Nat.leb_gt _ _) Ha), (proj2 (Nat.leb_gt _ _) Hb), (proj2 (Nat.eqb_neq _ _) Hab).
      destruct first_stage as (acts1 & m1 & r & -> & Hr & Hm1 & Hs1). cbn [bind]. rewrite Hr. cbn [bind].
      pose proof Hm1 as [A1 A2 A3 A4 A5 A6 A7].
      assert (Hd1 : degree_of m1 a = degree_of m a) by (unfold degree_of; now rewrite A4).
      rewrite degree_get by (auto; rewrite A3; auto). cbn [bind]. rewrite Hd1.
      destruct (fold_seq_ok (merge_outer order a b) (fun i am => merging m (fst am) (snd am) /\ stage i (snd am)) (degree_of m a) (acts1, m1)) as ([acts2 m2] & -> & Hm2 & Hs2).
      { intros i [acts' m'] Hi (Hm' & Hs'). cbn [fst snd] in *. destruct (outer_stage acts' m' i Hm' Hs' Hi) as (acts'' & m'' & X1 & X2 & X3).
        exists (acts'', m''). auto. }
      { auto. }
      cbn [bind fst snd] in *. pose proof Hm2 as [B1 B2 B3 B4 B5 B6 B7].
      assert (Hd2 : forall n, degree_of m2 n = degree_of m n) by (intros; unfold degree_of; now rewrite B4).
      rewrite degree_get by (auto; rewrite B3; auto). cbn [bind].
      destruct (collect_second_ok m2 b B2) as (l1 & -> & Hl1 & Hr1); [rewrite B3; auto|rewrite Hd2; lia|]. cbn [bind].
      destruct (first_fold acts2 m2 l1 (degree_of m a) Hm2 Hs2) as (l2 & acts3 & m3 & -> & Hm3 & Hr2 & Hs3).
      { rewrite Hd2 in Hl1. lia. } { intros oe Hin. destruct (Hr1 oe Hin) as (e & -> & He). exists e. split; auto. lia. }
      cbn [bind]. pose proof Hm3 as [D1 D2 D3 D4 D5 D6 D7].
      pose proof (co_counts m3 D2) as Lc. pose proof (co_rows m3 D2) as Lr.
      rewrite vset_lt by (rewrite Lr, D3; auto). cbn [bind].
      rewrite vset_lt by (rewrite Lc, D3; auto). cbn [bind].
      rewrite vset_lt by (rewrite set_nth_length, Lr, D3; auto). cbn [bind].
      rewrite vset_lt by (rewrite set_nth_length, Lc, D3; auto). cbn [bind].
      set (m4 := set_tables m3 _ _).
      assert (C4 : consistent m4).
      { apply merge_tables_ok; auto; try (rewrite D3; auto). intros oe Hin. destruct (Hr2 oe Hin) as (e & -> & He). exists e. split; auto. lia. }
      destruct (reset_node_ok order m4 a missing_point C4) as (Hn & T & C5). { unfold m4. cbn. rewrite D3; auto. }
      unfold add_action. rewrite Hn. cbn [bind compound_add leaf act_state].
      eexists _, _. split; [reflexivity|]. unfold m4. cbn. rewrite D3, D6. split; [reflexivity|]. split; [reflexivity|].
      split; [exact D7|]. intros e He.
      change (edge_at m e) with (ge m e).
      match goal with |- context [edge_at ?M e] => change (edge_at M e) with (ge m3 e) end.
      destruct (Hla a Ha) as (Hdeg & Hnd & Hrow). unfold stage3 in Hs3. rewrite Hdeg, firstn_all in Hs3.
      assert (Ksp : killed (degree_of m a) e <-> joins (ge m e) a b \/ exists o, o <> b /\ neighbour m a o /\ joins (ge m e) o b).
      { unfold killed. split; (intros [H|H]; [auto|right]).
        - destruct H as (j & e1 & o & X1 & X2 & X3 & X4 & X5). exists o. split; auto. split; auto. exists e1. split; auto.
          eapply joins_lt; eauto.
        - destruct H as (o & X1 & (e1 & X2 & X3) & X4). change (edge_at m e1) with (ge m e1) in X3.
          pose proof (listed _ _ _ X3) as Hin. apply In_nth_error in Hin. destruct Hin as (j & Hj). exists j, e1, o. repeat split; auto.
          rewrite Hdeg. apply nth_error_Some. congruence. }
      specialize (Hs2 e). specialize (Hs3 e). rewrite Ksp in Hs2.
      assert (Hkill : (joins (ge m e) a b \/ exists o, o <> b /\ neighbour m a o /\ joins (ge m e) o b) -> ge m3 e = missing_edge).
      { intros K. destruct Hs2 as [[_ G]|[K' _]]; [|contradiction]. destruct Hs3 as [(_ & X & _)|(_ & X)]; [contradiction|congruence]. }
      assert (Hkeep : ~ joins (ge m e) a b -> ~ (exists o, o <> b /\ neighbour m a o /\ joins (ge m e) o b) -> ~ ends_in (ge m e) a -> ge m3 e = ge m e).
      { intros K1 K2 K3. destruct Hs2 as [[K _]|[_ G]]; [tauto|]. destruct Hs3 as [(X & _ & _)|(_ & X)]; [|congruence].
        exfalso. apply Hrow in X. destruct X as (e' & o & E & _ & Hj). injection E as <-. apply K3. apply (joins_ends _ _ _ Hj). }
      assert (Hmove : forall o, o <> b -> joins (ge m e) a o -> ge m3 e = retarget (ge m e)).
      { intros o Ho Hj. assert (Hao : a <> o) by (intros <-; eapply self_free; eauto).
        destruct Hs2 as [[K _]|[_ G]].
        - exfalso. destruct K as [K|(o' & X1 & X2 & X3)].
          + destruct (joins_two _ _ _ _ _ Hj K) as [[_ E]|[E _]]; auto.
          + destruct (joins_two _ _ _ _ _ Hj X3) as [[E1 E]|[E _]]; auto.
        - destruct Hs3 as [(_ & _ & X)|(X & _)]; auto. exfalso. apply X. split; [eapply listed; eauto|]. rewrite G.
          intros E. rewrite E in Hj. destruct Hj; discriminate. }
      split; [auto|]. split; [|split; [|split; [|split]]].
      - intros o Ho Hj Hn'. apply Hkill. right. exists o. split; [|auto]. intros ->. eapply self_free; eauto.
      - intros o Ho Hj Hn'. apply Hkeep.
        + intros K. destruct (joins_two _ _ _ _ _ Hj K) as [[E _]|[_ E]]; congruence.
        + intros (o' & X1 & X2 & X3). destruct (joins_two _ _ _ _ _ Hj X3) as [[E _]|[_ E]]; [subst; auto|congruence].
        + intros K. destruct Hj as [Hj|Hj]; rewrite Hj in K; destruct K as [K|K]; cbn in K; injection K; congruence.
      - intros o Ho Hj. rewrite (Hmove o Ho), Hj by (left; auto). unfold retarget. cbn. now rewrite Nat.eqb_refl.
      - intros o Ho Hj. rewrite (Hmove o Ho), Hj by (right; auto). unfold retarget. cbn. destruct (Nat.eqb_spec o a); auto.
        exfalso. subst o. eapply (self_free e a He). left. exact Hj.
      - intros K1 K2. apply Hkeep; auto.
        + intros K. apply K2. apply (joins_ends _ _ _ K).
        + intros (o & X1 & X2 & X3). apply K2. apply (joins_ends _ _ _ X3).
    Qed.
  End Run.
End Merge.

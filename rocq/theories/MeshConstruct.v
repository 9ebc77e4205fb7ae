(** Proofs about construction (DeleteInvalidNodesAndEdges) and about the counts and maps of valid entities. *)
From Verif Require Import Base BaseLemmas FloatModel FloatProofs MeshModel MeshSpec MeshProofs MeshAdj.

(** Positions, counted from [base], at which [f] holds. *)
Fixpoint positions {A} (f : A -> bool) (base : nat) (l : list A) : list nat :=
  match l with
  | [] => []
  | p :: t => if f p then base :: positions f (S base) t else positions f (S base) t
  end.

Lemma positions_in {A} (f : A -> bool) l : forall base n,
  In n (positions f base l) <-> exists i p, n = base + i /\ nth_error l i = Some p /\ f p = true.
Proof.
  induction l as [|q l IH]; intros base n; cbn [positions].
  - split; [intros []|]. intros ([|i] & p & _ & H & _); discriminate H.
  - assert (Ht : In n (positions f (S base) l) <-> exists i p, n = base + S i /\ nth_error l i = Some p /\ f p = true).
    { rewrite IH. split; intros (i & p & H1 & H2); exists i, p; split; auto; lia. }
    destruct (f q) eqn:Eq.
    + cbn [In]. rewrite Ht. split.
      * intros [<-|(i & p & H)]; [exists 0, q; cbn; auto|exists (S i), p; auto].
      * intros ([|i] & p & H1 & H2 & H3); [left; lia|right; exists i, p; auto].
    + rewrite Ht. split.
      * intros (i & p & H); exists (S i), p; auto.
      * intros ([|i] & p & H1 & H2 & H3); [cbn in H2; congruence|exists i, p; auto].
Qed.

Lemma positions_increasing {A} (f : A -> bool) l : forall base i j a b,
  i < j -> nth_error (positions f base l) i = Some a -> nth_error (positions f base l) j = Some b -> a < b.
Proof.
  induction l as [|q l IH]; intros base i j a b Hij Hi Hj; cbn [positions] in *.
  - destruct i; discriminate Hi.
  - destruct (f q); eauto. destruct j as [|j]; [lia|]. destruct i as [|i]; cbn in Hi, Hj.
    + inversion Hi; subst. apply nth_error_In, positions_in in Hj. destruct Hj as (k & p & H & _). lia.
    + apply (IH (S base) i j); auto; lia.
Qed.

Lemma positions_filter {A} (f : A -> bool) l : forall base,
  Forall2 (fun i p => exists k, i = base + k /\ nth_error l k = Some p) (positions f base l) (filter f l).
Proof.
  induction l as [|q l IH]; intros base; cbn [positions filter]; auto.
  assert (H : Forall2 (fun i p => exists k, i = base + k /\ nth_error (q :: l) k = Some p) (positions f (S base) l) (filter f l)).
  { specialize (IH (S base)). clear - IH. induction IH as [|i p l1 l2 (k & H1 & H2) _ IH]; constructor; auto.
    exists (S k). split; [lia|auto]. }
  destruct (f q); auto. constructor; auto. exists 0. split; [lia|auto].
Qed.

Lemma positions_length {A} (f : A -> bool) l : forall base, length (positions f base l) = length (filter f l).
Proof. induction l as [|q l IH]; intros base; cbn; auto. destruct (f q); cbn; auto. Qed.

Lemma positions_all {A} (f : A -> bool) l : (forall p, In p l -> f p = true) -> forall base, positions f base l = seq base (length l).
Proof.
  induction l as [|q l IH]; intros H base; cbn; auto. rewrite (H q) by (cbn; auto). rewrite IH; auto. intros; apply H; cbn; auto.
Qed.

(** The new number of a valid node. *)
Lemma valid_indices_spec nodes : forall next n p base,
  nth_error nodes n = Some p ->
  if is_valid p
  then exists r, nth_error (valid_indices next nodes) n = Some (Some (next + r)) /\
                 nth_error (positions is_valid base nodes) r = Some (base + n)
  else nth_error (valid_indices next nodes) n = Some None.
Proof.
  induction nodes as [|q nodes IH]; intros next [|n] p base H; cbn in H; try discriminate; cbn [valid_indices positions].
  - inversion H; subst. destruct (is_valid p); [exists 0|]; cbn; auto. split; do 2 f_equal; lia.
  - destruct (is_valid q).
    + cbn [nth_error]. specialize (IH (S next) n p (S base) H). destruct (is_valid p); auto.
      destruct IH as (r & H1 & H2). exists (S r). rewrite H1. cbn [nth_error]. rewrite H2. split; [apply f_equal, f_equal; lia|apply f_equal; lia].
    + cbn [nth_error]. specialize (IH next n p (S base) H). destruct (is_valid p); auto.
      destruct IH as (r & H1 & H2). exists r. split; auto. rewrite H2. f_equal; lia.
Qed.

Lemma renumber_edge_spec nodes e :
  (forall n, ends_in e n -> n < length nodes) ->
  exists e', renumber_edge (valid_indices 0 nodes) e = Ok e' /\
    if live nodes e then same_edge (positions is_valid 0 nodes) e e' else e' = missing_edge.
Proof.
  intros H. unfold renumber_edge, live. destruct e as [[a|] [b|]]; eauto.
  assert (Ha : a < length nodes) by (apply H; left; reflexivity).
  assert (Hb : b < length nodes) by (apply H; right; reflexivity).
  unfold valid_at. destruct (nth_error nodes a) as [pa|] eqn:Ea; [|apply nth_error_None in Ea; lia].
  destruct (nth_error nodes b) as [pb|] eqn:Eb; [|apply nth_error_None in Eb; lia].
  pose proof (valid_indices_spec nodes 0 a pa 0 Ea) as Va. pose proof (valid_indices_spec nodes 0 b pb 0 Eb) as Vb.
  destruct (is_valid pa); cbn [andb].
  2:{ apply vget_ok in Va. rewrite Va. cbn. eauto. }
  destruct Va as (ra & Va1 & Va2). apply vget_ok in Va1. rewrite Va1. cbn [bind].
  destruct (is_valid pb).
  2:{ apply vget_ok in Vb. rewrite Vb. cbn. eauto. }
  destruct Vb as (rb & Vb1 & Vb2). apply vget_ok in Vb1. rewrite Vb1. cbn [bind].
  eexists. split; [reflexivity|]. exists a, b, ra, rb. auto.
Qed.

Lemma renumber_edges_spec nodes l :
  (forall e n, In e l -> ends_in e n -> n < length nodes) ->
  exists l', renumber_edges (valid_indices 0 nodes) l = Ok l' /\
    Forall2 (same_edge (positions is_valid 0 nodes)) (filter (live nodes) l) (filter (fun e => negb (edge_has_missing e)) l').
Proof.
  induction l as [|e l IH]; intros H; cbn [renumber_edges].
  - exists []. split; auto. constructor.
  - destruct (renumber_edge_spec nodes e) as (e' & -> & He); [intros n; apply H; cbn; auto|].
    destruct IH as (l' & -> & Hl); [intros x n Hx; apply H; cbn; auto|]. cbn [bind].
    eexists. split; [reflexivity|]. cbn [filter]. destruct (live nodes e).
    + destruct He as (a & b & a' & b' & E1 & E2 & E3 & E4). subst e'. cbn. constructor; auto. exists a, b, a', b'. auto.
    + subst e'. cbn. auto.
Qed.

Lemma filter_ext_in' {A} (f g : A -> bool) l : (forall x, In x l -> f x = g x) -> filter f l = filter g l.
Proof. intros H. induction l as [|x l IH]; cbn; auto. rewrite (H x), IH; cbn; auto. intros; apply H; cbn; auto. Qed.

Lemma filter_all {A} (f : A -> bool) l : (forall x, In x l -> f x = true) -> filter f l = l.
Proof. intros H. induction l as [|x l IH]; cbn; auto. rewrite (H x), IH; cbn; auto. intros; apply H; cbn; auto. Qed.

Lemma connected_iff nodes edges n : well_indexed nodes edges ->
  (connected nodes edges n <-> valid_at (admin_nodes nodes edges) n = true).
Proof.
  intros Hw. rewrite valid_at_admin, andb_true_iff, existsb_exists. split.
  - intros (e & H1 & H2 & H3). split.
    + exists e. split; auto. apply endsb_spec in H3. rewrite H2, H3. reflexivity.
    + eapply live_ends_valid; eauto.
  - intros ((e & H1 & H2) & _). apply andb_true_iff in H2. destruct H2 as [H2 H3]. exists e. repeat split; auto. now apply endsb_spec.
Qed.

Lemma admin_kept nodes edges n p : nth_error (admin_nodes nodes edges) n = Some p -> is_valid p = true -> nth_error nodes n = Some p.
Proof.
  intros H Hp. destruct (nth_error nodes n) as [q|] eqn:E.
  - rewrite (admin_nodes_nth _ _ _ _ E) in H. destruct (existsb _ edges); [congruence|].
    inversion H; subst. discriminate Hp.
  - apply nth_error_None in E. assert (n < length (admin_nodes nodes edges)) by (apply nth_error_Some; congruence).
    rewrite admin_nodes_length in *. lia.
Qed.

Lemma Forall2_map_same {A B} (R : A -> B -> Prop) (l : list A) (f : A -> B) : (forall x, In x l -> R x (f x)) -> Forall2 R l (map f l).
Proof. intros H. induction l; cbn; constructor; [apply H|apply IHl; intros; apply H]; cbn; auto. Qed.

Lemma Forall2_refl_in {A} (R : A -> A -> Prop) (l : list A) : (forall x, In x l -> R x x) -> Forall2 R l l.
Proof. intros H. rewrite <- (map_id l) at 2. apply Forall2_map_same; auto. Qed.

Lemma delete_invalid_spec m :
  well_indexed (m_nodes m) (m_edges m) ->
  exists m', delete_invalid m = Ok m' /\ well_formed_part (m_nodes m) (m_edges m) (m_nodes m') (m_edges m') /\
    m_projection m' = m_projection m.
Proof.
  intros Hw. unfold delete_invalid.
  destruct (find_connected_spec m Hw) as (k & -> & Hk). cbn [bind].
  pose proof (invalidate_fst (conn_of (m_nodes m) (m_edges m)) 0 (m_nodes m) (conn_of_length _ _)) as Hf.
  destruct (invalidate_unconnected 0 (conn_of (m_nodes m) (m_edges m)) (m_nodes m)) as [ns acts]. cbn [fst] in Hf. subst ns.
  change (keep_connected (conn_of (m_nodes m) (m_edges m)) (m_nodes m)) with (admin_nodes (m_nodes m) (m_edges m)).
  set (nodes' := admin_nodes (m_nodes m) (m_edges m)).
  assert (Hen : enumerates (connected (m_nodes m) (m_edges m)) (positions is_valid 0 nodes')).
  { split; [|apply positions_increasing]. intros n. rewrite connected_iff by auto. fold nodes'. rewrite positions_in.
    unfold valid_at. split.
    - intros (i & p & -> & H1 & H2). cbn. now rewrite H1.
    - destruct (nth_error nodes' n) as [p|] eqn:E; [|discriminate]. intros Hp. exists n, p. auto. }
  assert (Hnd : Forall2 (fun i p => nth_error (m_nodes m) i = Some p) (positions is_valid 0 nodes') (filter is_valid nodes')).
  { clear Hen. pose proof (positions_filter is_valid nodes' 0) as Hp.
    assert (Hv : forall p, In p (filter is_valid nodes') -> is_valid p = true) by (intros p Hi; apply filter_In in Hi; tauto).
    induction Hp as [|i p l1 l2 (j & E & H1) _ IH]; constructor.
    - cbn in E. subst i. apply (admin_kept _ (m_edges m)); auto. apply Hv; cbn; auto.
    - apply IH. intros; apply Hv; cbn; auto. }
  destruct ((k =? 0) && (count_invalid nodes' =? 0)) eqn:Eb.
  - apply andb_true_iff in Eb. destruct Eb as [E1 E2]. apply Nat.eqb_eq in E1, E2.
    pose proof (proj1 Hk E1) as Hlive. pose proof (proj1 (count_invalid_zero _) E2) as Hv.
    assert (Hall : forall p, In p nodes' -> is_valid p = true).
    { intros p Hi. apply In_nth_error in Hi. destruct Hi as (n & Hn).
      assert (Hlt : n < length nodes') by (apply nth_error_Some; congruence).
      specialize (Hv n Hlt). unfold valid_at in Hv. rewrite Hn in Hv. exact Hv. }
    eexists. split; [reflexivity|]. split; [|reflexivity]. cbn [m_nodes m_edges set_nodes].
    exists (positions is_valid 0 nodes'). split; auto. split.
    + rewrite (filter_all is_valid nodes') in Hnd; auto.
    + rewrite filter_all by auto. apply Forall2_refl_in. intros e He. specialize (Hlive e He).
      destruct e as [[a|] [b|]]; try discriminate Hlive.
      exists a, b, a, b. rewrite (positions_all is_valid nodes' Hall).
      assert (Hlt : a < length nodes' /\ b < length nodes').
      { unfold nodes'. rewrite admin_nodes_length. split; apply (Hw _ _ He); [left|right]; reflexivity. }
      repeat split; rewrite nth_error_seq; [destruct (Nat.ltb_spec a (length nodes'))|destruct (Nat.ltb_spec b (length nodes'))]; auto; lia.
  - clear Eb. destruct (renumber_edges_spec nodes' (m_edges m)) as (l' & -> & Hl).
    { intros e n He Hn. unfold nodes'. rewrite admin_nodes_length. eauto. }
    cbn [bind]. eexists. split; [reflexivity|]. split; [|reflexivity]. cbn [m_nodes m_edges set_nodes set_edges].
    exists (positions is_valid 0 nodes'). split; auto. split; auto.
    rewrite (filter_ext_in' (live (m_nodes m)) (live nodes')); auto.
    intros e He. symmetry. apply live_admin. auto.
Qed.

(** Consequences of [well_formed_part]. *)
Lemma well_formed_part_valid nodes edges nodes' edges' :
  well_formed_part nodes edges nodes' edges' ->
  (forall p, In p nodes' -> is_valid p = true) /\
  (forall e, In e edges' -> exists a b, e = (Some a, Some b) /\ a < length nodes' /\ b < length nodes').
Proof.
  intros (kept & (Hk & _) & Hn & He). split.
  - intros p Hp. assert (Hall : forall i, In i kept -> valid_at nodes i = true).
    { intros i Hi. apply Hk in Hi. destruct Hi as (e & _ & Hl & Hi). eapply live_ends_valid; eauto. }
    clear - Hn Hp Hall. induction Hn as [|i q l1 l2 H _ IH]; [destruct Hp|]. destruct Hp as [->|Hp].
    + specialize (Hall i (or_introl eq_refl)). unfold valid_at in Hall. rewrite H in Hall. exact Hall.
    + apply IH; auto. intros; apply Hall; cbn; auto.
  - intros e Hin. apply Forall2_len in Hn. clear Hk.
    induction He as [|e1 e2 l1 l2 (a & b & a' & b' & _ & E & Ha & Hb) _ IH]; [destruct Hin|].
    destruct Hin as [->|Hin]; auto. exists a', b'. split; auto. rewrite <- Hn.
    split; apply nth_error_Some; congruence.
Qed.

Lemma well_formed_part_points nodes edges nodes' edges' :
  well_formed_part nodes edges nodes' edges' ->
  Forall2 (fun e e' => exists a b a' b' p q, e = (Some a, Some b) /\ e' = (Some a', Some b') /\
     nth_error nodes a = Some p /\ nth_error nodes b = Some q /\ nth_error nodes' a' = Some p /\ nth_error nodes' b' = Some q)
    (filter (live nodes) edges) edges'.
Proof.
  intros (kept & _ & Hn & He).
  assert (Hk : forall i r, nth_error kept i = Some r -> exists p, nth_error nodes r = Some p /\ nth_error nodes' i = Some p).
  { clear He. induction Hn as [|x p l1 l2 H _ IH]; intros [|i] r Hr; cbn in Hr; try discriminate.
    - inversion Hr; subst. exists p. auto.
    - apply IH. exact Hr. }
  induction He as [|e e' l1 l2 (a & b & a' & b' & E1 & E2 & H1 & H2) _ IH]; constructor; auto.
  destruct (Hk _ _ H1) as (p & P1 & P2). destruct (Hk _ _ H2) as (q & Q1 & Q2).
  exists a, b, a', b', p, q. auto 10.
Qed.

Lemma enumerates_unique P l l' : enumerates P l -> enumerates P l' -> l = l'.
Proof.
  revert P l'. induction l as [|a l IH]; intros P l' [H1 H2] [H3 H4].
  - destruct l' as [|b l']; auto. exfalso. apply (H1 b). apply H3. cbn; auto.
  - destruct l' as [|b l']; [exfalso; apply (H3 a); apply H1; cbn; auto|].
    assert (Hmin : forall x t, (forall i j u v, i < j -> nth_error (x :: t) i = Some u -> nth_error (x :: t) j = Some v -> u < v) ->
      forall y, In y t -> x < y).
    { intros x t Hs y Hy. apply In_nth_error in Hy. destruct Hy as (j & Hj). apply (Hs 0 (S j)); auto; lia. }
    assert (Hab : a = b).
    { destruct (proj2 (H1 b) (proj1 (H3 b) (or_introl eq_refl))) as [E|E]; auto.
      destruct (proj2 (H3 a) (proj1 (H1 a) (or_introl eq_refl))) as [E2|E2]; auto.
      pose proof (Hmin _ _ H2 _ E). pose proof (Hmin _ _ H4 _ E2). lia. }
    subst b. f_equal. apply (IH (fun x => P x /\ x <> a)).
    + split.
      * intros n. split.
        -- intros Hn. split; [apply H1; cbn; auto|]. pose proof (Hmin _ _ H2 _ Hn). lia.
        -- intros [Hp Hne]. apply H1 in Hp. destruct Hp as [E|]; auto. congruence.
      * intros i j u v Hij Hi Hj. apply (H2 (S i) (S j)); auto; lia.
    + split.
      * intros n. split.
        -- intros Hn. split; [apply H3; cbn; auto|]. pose proof (Hmin _ _ H4 _ Hn). lia.
        -- intros [Hp Hne]. apply H3 in Hp. destruct Hp as [E|]; auto. congruence.
      * intros i j u v Hij Hi Hj. apply (H4 (S i) (S j)); auto; lia.
Qed.

Lemma seq_increasing n i j a b : i < j -> nth_error (seq 0 n) i = Some a -> nth_error (seq 0 n) j = Some b -> a < b.
Proof.
  rewrite !nth_error_seq. intros H Hi Hj. destruct (i <? n); [|discriminate]. destruct (j <? n); [|discriminate].
  inversion Hi; inversion Hj; lia.
Qed.

(** Nothing to remove: nodes and edges are taken over. *)
Lemma well_formed_part_same nodes edges nodes' edges' :
  well_formed_part nodes edges nodes' edges' ->
  (forall e, In e edges -> live nodes e = true) -> (forall n, n < length nodes -> connected nodes edges n) ->
  well_indexed nodes edges ->
  nodes' = nodes /\ edges' = edges.
Proof.
  intros (kept & Hk & Hn & He) Hl Hc Hw.
  assert (E : kept = seq 0 (length nodes)).
  { apply (enumerates_unique _ _ _ Hk). split; [|intros; eapply seq_increasing; eauto].
    intros n. rewrite in_seq. split; [intros; apply Hc; lia|]. intros (e & H1 & _ & H2). specialize (Hw e n H1 H2). lia. }
  subst kept. clear Hk. split.
  - apply nth_error_ext. intros i. pose proof (Forall2_len _ _ _ Hn) as HL. rewrite seq_length in HL.
    assert (Hg : forall l1 l2, Forall2 (fun i p => nth_error nodes i = Some p) l1 l2 -> forall i r, nth_error l1 i = Some r -> nth_error l2 i = nth_error nodes r).
    { clear. induction 1 as [|x p l1 l2 H _ IH]; intros [|i] r Hr; cbn in Hr; try discriminate; cbn; auto. inversion Hr; subst; auto. }
    destruct (Nat.ltb_spec i (length nodes)) as [Hi|Hi].
    + apply (Hg _ _ Hn). rewrite nth_error_seq. apply Nat.ltb_lt in Hi. rewrite Hi. reflexivity.
    + transitivity (@None point); [|symmetry]; apply nth_error_None; lia.
  - rewrite filter_all in He by auto. clear - He.
    induction He as [|e e' l1 l2 (a & b & a' & b' & E1 & E2 & H1 & H2) _ IH]; auto. rewrite IH. f_equal.
    rewrite nth_error_seq in H1, H2. subst.
    destruct (a' <? length nodes); [|discriminate H1]. destruct (b' <? length nodes); [|discriminate H2].
    inversion H1; inversion H2; subst; reflexivity.
Qed.

(** An edge between nodes that do not exist. *)
Lemma connect_fold_ub nodes l : forall acc,
  (exists a b, In (Some a, Some b) l /\ (length nodes <= a \/ (valid_at nodes a = true /\ length nodes <= b))) ->
  length (fst acc) = length nodes ->
  fold_out (connect_step nodes) l acc = UB.
Proof.
  induction l as [|e l IH]; intros [c k] (a & b & Hin & Hab) Hc; [destruct Hin|]. cbn [fold_out fst] in *.
  destruct Hin as [->|Hin].
  - unfold connect_step, edge_invalid. unfold vget. destruct (nth_error nodes a) as [p|] eqn:Ea; [|reflexivity].
    assert (a < length nodes) by (apply nth_error_Some; congruence).
    destruct Hab as [Hab|[Hv Hb]]; [lia|]. unfold valid_at in Hv. rewrite Ea in Hv. cbn [bind]. rewrite Hv.
    apply nth_error_None in Hb. rewrite Hb. reflexivity.
  - assert (Hout : (exists c' k', connect_step nodes (c, k) e = Ok (c', k') /\ length c' = length nodes) \/ connect_step nodes (c, k) e = UB).
    { unfold connect_step. destruct e as [[x|] [y|]]; try (left; eexists _, _; split; [reflexivity|exact Hc]).
      unfold edge_invalid, vget.
      destruct (nth_error nodes x) as [px|] eqn:Ex; [|right; reflexivity]. cbn [bind].
      assert (x < length nodes) by (apply nth_error_Some; congruence).
      destruct (is_valid px); [|left; eexists _, _; split; [reflexivity|exact Hc]].
      destruct (nth_error nodes y) as [py|] eqn:Ey; [|right; reflexivity]. cbn [bind].
      assert (y < length nodes) by (apply nth_error_Some; congruence).
      destruct (is_valid py); cbn [negb]; [|left; eexists _, _; split; [reflexivity|exact Hc]].
      rewrite vset_lt by lia. cbn [bind]. rewrite vset_lt by (rewrite set_nth_length; lia). cbn [bind].
      left. eexists _, _; split; [reflexivity|]. now rewrite !set_nth_length. }
    destruct Hout as [(c' & k' & -> & Hc')| ->]; [|reflexivity]. cbn [bind]. apply IH; eauto.
Qed.

Lemma construct_ub nodes edges p :
  (exists a b, In (Some a, Some b) edges /\ (length nodes <= a \/ (valid_at nodes a = true /\ length nodes <= b))) ->
  construct edges nodes p = UB.
Proof.
  intros H. unfold construct, delete_invalid, find_connected. cbn [m_nodes m_edges].
  rewrite connect_fold_ub; auto. cbn. apply repeat_length.
Qed.

(** *** Counts and maps *)
Lemma is_valid_edge_spec m e ed :
  well_indexed (m_nodes m) (m_edges m) -> nth_error (m_edges m) e = Some ed -> is_valid_edge m e = Ok (live (m_nodes m) ed).
Proof.
  intros Hw H. unfold is_valid_edge. rewrite H. rewrite edge_invalid_spec.
  - cbn. now rewrite negb_involutive.
  - intros n. apply Hw. eapply nth_error_In; eauto.
Qed.

Lemma num_valid_edges_spec m : well_indexed (m_nodes m) (m_edges m) ->
  num_valid_edges m = Ok (length (filter (live (m_nodes m)) (m_edges m))).
Proof.
  intros Hw. unfold num_valid_edges.
  assert (H : forall k, k <= length (m_edges m) ->
    fold_out (fun k e => let! b := is_valid_edge m e in Ok (if b then S k else k)) (seq 0 k) 0
      = Ok (length (filter (live (m_nodes m)) (firstn k (m_edges m))))).
  { induction k as [|k IH]; intros Hk; auto. rewrite seq_S, fold_out_app, IH by lia. cbn [bind Nat.add fold_out].
    destruct (nth_error (m_edges m) k) as [ed|] eqn:E; [|apply nth_error_None in E; lia].
    rewrite (is_valid_edge_spec m k ed Hw E). cbn [bind]. f_equal.
    assert (Hf : firstn (S k) (m_edges m) = firstn k (m_edges m) ++ [ed]).
    { clear - E. revert k E. induction (m_edges m) as [|x l IH]; intros [|k] E; cbn in E; try discriminate.
      - inversion E; reflexivity.
      - cbn [firstn app]. f_equal. apply IH. exact E. }
    rewrite Hf, filter_app, app_length. cbn [filter]. destruct (live (m_nodes m) ed); cbn; lia. }
  rewrite H by lia. now rewrite firstn_all.
Qed.

(** The common loop of GetValidNodeMapping and GetValidEdgeMapping. *)
Lemma mapping_fold {A} (f : A -> bool) (test : nat -> outcome bool) (l : list A) :
  (forall i a, nth_error l i = Some a -> test i = Ok (f a)) ->
  exists l0, fold_out (fun (acc : list nat * nat) i => let (l, c) := acc in
        let! b := test i in if b then let! l' := vset c i l in Ok (l', S c) else Ok (l, c))
      (seq 0 (length l)) (repeat 0 (length l), 0) = Ok (l0, length (positions f 0 l)) /\
    vresize (length (positions f 0 l)) 0 l0 = positions f 0 l.
Proof.
  intros Ht. set (step := fun (acc : list nat * nat) i => _).
  assert (H : forall k, k <= length l -> exists rest,
     fold_out step (seq 0 k) (repeat 0 (length l), 0)
       = Ok (positions f 0 (firstn k l) ++ rest, length (positions f 0 (firstn k l))) /\
     length (positions f 0 (firstn k l)) + length rest = length l).
  { induction k as [|k IH]; intros Hk.
    - exists (repeat 0 (length l)). cbn. rewrite repeat_length. auto.
    - destruct IH as (rest & Hf & Hl); [lia|]. rewrite seq_S, fold_out_app, Hf. cbn [bind Nat.add fold_out].
      destruct (nth_error l k) as [a|] eqn:E; [|apply nth_error_None in E; lia].
      unfold step at 1. rewrite (Ht k a E). cbn [bind].
      assert (Hp : positions f 0 (firstn (S k) l) = positions f 0 (firstn k l) ++ (if f a then [k] else [])).
      { clear - E. assert (Hg : forall l b k, nth_error l k = Some a ->
           positions f b (firstn (S k) l) = positions f b (firstn k l) ++ (if f a then [b + k] else [])).
        { induction l0 as [|x l0 IH]; intros b [|j] H; cbn in H; try discriminate.
          - inversion H; subst. cbn. rewrite Nat.add_0_r. reflexivity.
          - cbn [firstn positions]. specialize (IH (S b) j H). cbn [firstn] in IH. rewrite IH.
            replace (S b + j) with (b + S j) by lia. destruct (f x); reflexivity. }
        apply (Hg l 0 k E). }
      rewrite Hp. pose proof (positions_length f (firstn k l) 0) as Hle.
      assert (Hle2 : length (positions f 0 (firstn k l)) <= k).
      { rewrite Hle. clear. rewrite <- (firstn_le_length k l) at 2. generalize (firstn k l). intros l0.
        induction l0 as [|x l0 IH]; cbn; auto. destruct (f x); cbn; lia. }
      destruct (f a).
      + destruct rest as [|r rest]; [cbn in Hl; lia|].
        rewrite vset_lt by (rewrite app_length; cbn; lia). cbn [bind].
        exists rest. rewrite app_length. cbn [length] in *. split; [|lia]. do 2 f_equal; [|lia].
        rewrite <- app_assoc. cbn [app].
        clear. generalize (positions f 0 (firstn k l)). intros p. induction p as [|x p IH]; cbn; auto. now rewrite IH.
      + exists rest. rewrite app_nil_r. auto. }
  destruct (H (length l) (le_n _)) as (rest & Hf & Hl). rewrite firstn_all in Hf, Hl.
  eexists. split; [exact Hf|]. unfold vresize. rewrite app_length.
  replace (length (positions f 0 l) - (length (positions f 0 l) + length rest)) with 0 by lia. cbn [repeat].
  rewrite app_nil_r, firstn_app, firstn_all, Nat.sub_diag. cbn. now rewrite app_nil_r.
Qed.

Lemma valid_node_mapping_spec m : valid_node_mapping m = Ok (positions is_valid 0 (m_nodes m)).
Proof.
  unfold valid_node_mapping.
  destruct (mapping_fold is_valid (fun i => let! p := vget (m_nodes m) i in Ok (is_valid p)) (m_nodes m)) as (l0 & Hf & Hr).
  { intros i a H. apply vget_ok in H. rewrite H. reflexivity. }
  match type of Hf with fold_out ?F2 _ _ = _ =>
    match goal with |- context [fold_out ?F1 _ _] =>
      assert (E : forall s a, fold_out F1 s a = fold_out F2 s a) end end.
  { clear. induction s as [|i s IH]; intros [l c]; cbn [fold_out]; auto.
    destruct (vget (m_nodes m) i) as [p| |]; cbn [bind]; auto. destruct (is_valid p); [destruct (vset c i l)|]; cbn [bind]; auto. }
  rewrite E, Hf. cbn [bind]. now rewrite Hr.
Qed.

Lemma valid_edge_mapping_spec m : well_indexed (m_nodes m) (m_edges m) ->
  valid_edge_mapping m = Ok (positions (live (m_nodes m)) 0 (m_edges m)).
Proof.
  intros Hw. unfold valid_edge_mapping.
  destruct (mapping_fold (live (m_nodes m)) (is_valid_edge m) (m_edges m)) as (l0 & Hf & Hr).
  { intros i a H. apply is_valid_edge_spec; auto. }
  rewrite Hf. cbn [bind]. now rewrite Hr.
Qed.

Lemma positions_enumerates {A} (f : A -> bool) l : enumerates (fun n => exists p, nth_error l n = Some p /\ f p = true) (positions f 0 l).
Proof.
  split; [|apply positions_increasing]. intros n. rewrite positions_in. split.
  - intros (i & p & -> & H). exists p. exact H.
  - intros (p & H). exists n, p. auto.
Qed.

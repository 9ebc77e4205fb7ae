(** The search for faces follows turning walks. *)
From Coq Require Import Permutation.
From Verif Require Import Base BaseLemmas FloatModel MeshModel MeshSpec FaceModel FaceSpec GridProofs.

(** *** Duplicates *)
Lemma eq_idx_ok a b : eq_idx a b = true <-> a = b.
Proof.
  destruct a, b; cbn; rewrite ?Nat.eqb_eq; split; intros H; try congruence; try (injection H; auto).
Qed.
Lemma eq_idx_neq a b : eq_idx a b = false <-> a <> b.
Proof. rewrite <- eq_idx_ok. destruct (eq_idx a b); split; congruence. Qed.

Lemma sort_insert_perm a l : Permutation (sort_insert a l) (a :: l).
Proof. induction l as [|b t IH]; cbn; [reflexivity|]. destruct (idx_leb a b); [reflexivity|]. rewrite IH. apply perm_swap. Qed.
Lemma sort_perm l : Permutation (sort_idx l) l.
Proof. induction l as [|a t IH]; cbn; [reflexivity|]. rewrite sort_insert_perm. apply perm_skip, IH. Qed.

Fixpoint increasing (l : list (option nat)) : Prop :=
  match l with a :: t => Forall (fun b => idx_leb a b = true) t /\ increasing t | [] => True end.
Lemma leb_trans a b c : idx_leb a b = true -> idx_leb b c = true -> idx_leb a c = true.
Proof. destruct a, b, c; cbn; try congruence. rewrite !Nat.leb_le. lia. Qed.
Lemma leb_total a b : idx_leb a b = false -> idx_leb b a = true.
Proof. destruct a, b; cbn; try congruence. rewrite Nat.leb_gt, Nat.leb_le. lia. Qed.
Lemma leb_antisym a b : idx_leb a b = true -> idx_leb b a = true -> a = b.
Proof. destruct a, b; cbn; try congruence. rewrite !Nat.leb_le. intros. f_equal. lia. Qed.
Lemma insert_increasing a l : increasing l -> increasing (sort_insert a l).
Proof.
  induction l as [|b t IH]; cbn [sort_insert]; intros H; [cbn; auto|]. destruct H as [Hb Ht].
  destruct (idx_leb a b) eqn:E.
  - cbn [increasing]. split; [|split; assumption]. constructor; [exact E|]. eapply Forall_impl; [|exact Hb]. intros c Hc. eapply leb_trans; eauto.
  - cbn [increasing]. split; [|apply IH, Ht]. apply Forall_forall. intros c Hc. apply (Permutation_in _ (sort_insert_perm a t)) in Hc as [<-|Hc].
    + apply leb_total, E.
    + rewrite Forall_forall in Hb. apply Hb, Hc.
Qed.
Lemma sort_increasing l : increasing (sort_idx l).
Proof. induction l as [|a t IH]; cbn; [exact I|]. apply insert_increasing, IH. Qed.
Lemma equal_neighbours_ok l : increasing l -> (equal_neighbours l = false <-> NoDup l).
Proof.
  induction l as [|a [|b t] IH]; intros H; [split; auto; constructor|split; auto; intros; repeat constructor; auto|].
  destruct H as [Ha Ht]. change (equal_neighbours (a :: b :: t)) with (eq_idx b a || equal_neighbours (b :: t)).
  rewrite orb_false_iff, eq_idx_neq, IH by exact Ht. split.
  - intros [Hne Hn]. constructor; [|exact Hn]. intros Hin. destruct Hin as [Hin|Hin]; [congruence|].
    apply Hne. apply leb_antisym.
    + destruct Ht as [Hb _]. rewrite Forall_forall in Hb. apply Hb, Hin.
    + rewrite Forall_forall in Ha. apply Ha. left. reflexivity.
  - intros Hn. inversion Hn as [|x y Hx Hy]; subst. split; [|exact Hy]. intros ->. apply Hx. left. reflexivity.
Qed.

Lemma has_duplicates_ok k l : length l = k -> 3 <= k -> exists b, has_duplicates k l = Ok b /\ (b = false <-> NoDup l).
Proof.
  intros Hl Hk. unfold has_duplicates. destruct (k =? 3) eqn:E3.
  { apply Nat.eqb_eq in E3. subst k. destruct l as [|a [|b [|c [|d t]]]]; cbn in E3; try lia. cbn. eexists. split; [reflexivity|].
    rewrite !orb_false_iff, !eq_idx_neq. split.
    - intros [[H1 H2] H3]. repeat constructor; cbn; intuition.
    - intros H. inversion H as [|? ? H1 H2]; subst. inversion H2 as [|? ? H3 H4]; subst. cbn in *. intuition. }
  destruct (k =? 4) eqn:E4.
  { apply Nat.eqb_eq in E4. subst k. destruct l as [|a [|b [|c [|d [|e t]]]]]; cbn in E4; try lia. cbn. eexists. split; [reflexivity|].
    rewrite !orb_false_iff, !eq_idx_neq. split.
    - intros [[[[[H1 H2] H3] H4] H5] H6]. repeat constructor; cbn; intuition.
    - intros H. inversion H as [|? ? H1 H2]; subst. inversion H2 as [|? ? H3 H4]; subst. inversion H4 as [|? ? H5 H6]; subst. cbn in *. intuition. }
  eexists. split; [reflexivity|]. rewrite equal_neighbours_ok by apply sort_increasing. split; intros H.
  - eapply Permutation_NoDup; [apply sort_perm|exact H].
  - eapply Permutation_NoDup; [symmetry; apply sort_perm|exact H].
Qed.

(** *** Reading *)
Lemma read_all_ok {A} (v : list A) d l : (forall i, In i l -> i < length v) -> read_all v l = Ok (map (fun i => nth i v d) l).
Proof.
  induction l as [|i t IH]; intros H; [reflexivity|]. cbn [read_all map].
  assert (E : vget v i = Ok (nth i v d)) by (apply vget_ok, nth_error_nth', H; left; reflexivity).
  rewrite E. cbn [bind]. rewrite IH by (intros; apply H; right; auto). reflexivity.
Qed.

Lemma other_joins ed a b : joins ed a b -> other_node ed a = Some b /\ edge_has_missing ed = false.
Proof.
  unfold other_node. intros [-> | ->]; cbn.
  - rewrite Nat.eqb_refl. auto.
  - destruct (b =? a) eqn:E; [apply Nat.eqb_eq in E; subst; auto|auto].
Qed.

(** *** Walks *)
Section Walk.
  Variable m : mesh.
  Hypothesis exact : adjacency_exact m.
  Hypothesis settled : forall e, In e (m_edges m) -> e = missing_edge \/ live (m_nodes m) e = true.

  Lemma row_get n : n < length (m_nodes m) -> vget (m_nodesEdges m) n = Ok (row_of m n) /\ vget (m_nodesNumEdges m) n = Ok (length (row_of m n)).
  Proof.
    intros Hn. destruct (adj_count m exact n Hn) as [Hd _]. split.
    - apply vget_ok. unfold row_of. apply nth_error_nth'. rewrite (adj_rows m exact). exact Hn.
    - apply vget_ok. rewrite <- Hd. unfold degree_of. apply nth_error_nth'. rewrite (adj_counts m exact). exact Hn.
  Qed.

  Lemma edge_get e : e < length (m_edges m) -> vget (m_edges m) e = Ok (edge_at m e).
  Proof. intros H. apply vget_ok. unfold edge_at. apply nth_error_nth', H. Qed.

  Lemma valid_lt n : valid_at (m_nodes m) n = true -> n < length (m_nodes m).
  Proof. unfold valid_at. destruct (nth_error (m_nodes m) n) eqn:E; [|discriminate]. intros _. apply nth_error_Some. congruence. Qed.

  Lemma listed n p : n < length (m_nodes m) -> In (Some p) (row_of m n) ->
    p < length (m_edges m) /\ exists o, joins (edge_at m p) n o /\ valid_at (m_nodes m) n = true /\ valid_at (m_nodes m) o = true /\
      o < length (m_nodes m) /\ In (Some p) (row_of m o).
  Proof.
    intros Hn Hin. destruct (adj_sound m exact n (Some p) Hn Hin) as (e & o & E & He & Hj). injection E as <-.
    split; [exact He|]. exists o. split; [exact Hj|].
    assert (Hl : valid_at (m_nodes m) n = true /\ valid_at (m_nodes m) o = true).
    { destruct (settled (edge_at m p)) as [Hm|Hl].
      - unfold edge_at. apply nth_In, He.
      - rewrite Hm in Hj. destruct Hj as [Hj|Hj]; discriminate.
      - destruct Hj as [Hj|Hj]; rewrite Hj in Hl; cbn in Hl; apply andb_true_iff in Hl; tauto. }
    split; [tauto|]. split; [tauto|]. split; [apply valid_lt; tauto|]. exact (adj_symmetric m exact n p o Hn Hin Hj).
  Qed.

  Lemma position_ok (row : list (option nat)) p : forall k i, i + k = length row ->
    (exists j, i <= j /\ nth_error row j = Some (Some p)) -> NoDup row ->
    exists j, position_in_row row p k i = Ok j /\ nth_error row j = Some (Some p).
  Proof.
    induction k as [|k IH]; intros i Hl (j & Hj & Hn) Hd.
    - assert (j < length row) by (apply nth_error_Some; congruence). lia.
    - cbn [position_in_row]. destruct (vget_lt row i) as [x Hx]; [lia|]. rewrite Hx. cbn [bind]. apply vget_ok in Hx.
      destruct (eq_idx x (Some p)) eqn:E; [apply eq_idx_ok in E; subst; eauto|]. apply eq_idx_neq in E.
      apply IH; [lia| |exact Hd]. exists j. split; [|exact Hn].
      assert (i <> j) by (intros ->; congruence). lia.
  Qed.

  (** The next edge of a walk. *)
  Lemma step_ok o p : o < length (m_nodes m) -> In (Some p) (row_of m o) ->
    exists p' i, turn m o p p' /\ In (Some p') (row_of m o) /\
      position_in_row (row_of m o) p (length (row_of m o)) 0 = Ok i /\ entry_before (row_of m o) (length (row_of m o)) i = Ok (Some p').
  Proof.
    intros Ho Hin. apply In_nth_error in Hin as (j & Hj).
    destruct (position_ok (row_of m o) p (length (row_of m o)) 0 eq_refl) as (i & Hi & Hp).
    { exists j. split; [lia|exact Hj]. } { apply (adj_nodup m exact o Ho). }
    assert (Hlt : i < length (row_of m o)) by (apply nth_error_Some; congruence).
    destruct (adj_count m exact o Ho) as [Hdeg _].
    assert (Hex : exists x, nth_error (row_of m o) (if i =? 0 then degree_of m o - 1 else i - 1) = Some x).
    { destruct (nth_error (row_of m o) (if i =? 0 then degree_of m o - 1 else i - 1)) eqn:E; [eauto|]. apply nth_error_None in E. destruct (i =? 0); lia. }
    destruct Hex as (x & Hx). pose proof (nth_error_In _ _ Hx) as Hin.
    destruct (adj_sound m exact o x Ho Hin) as (p' & q & -> & _).
    exists p', i. split; [exists i; split; assumption|]. split; [exact Hin|]. split; [exact Hi|].
    unfold entry_before. rewrite Hdeg in Hx. destruct (i =? 0) eqn:E.
    - apply Nat.eqb_eq in E. destruct (length (row_of m o) =? 0) eqn:E'; [apply Nat.eqb_eq in E'; lia|]. apply vget_ok, Hx.
    - destruct (length (row_of m o) <? i) eqn:E'; [apply Nat.ltb_lt in E'; lia|]. apply vget_ok, Hx.
  Qed.

  Inductive path : nat -> nat -> list nat -> list nat -> nat -> Prop :=
  | path_one n p o : n < length (m_nodes m) -> In (Some p) (row_of m n) -> joins (edge_at m p) n o -> path n p [n] [p] o
  | path_step n p o p' ns es last : n < length (m_nodes m) -> In (Some p) (row_of m n) -> joins (edge_at m p) n o ->
      turn m o p p' -> path o p' ns es last -> path n p (n :: ns) (p :: es) last.

  Lemma path_exists r : forall n p, n < length (m_nodes m) -> In (Some p) (row_of m n) -> exists ns es last, path n p ns es last /\ length ns = S r.
  Proof.
    induction r as [|r IH]; intros n p Hn Hin; destruct (listed n p Hn Hin) as (Hp & o & Hj & _ & _ & Ho & Hio).
    - exists [n], [p], o. split; [constructor; auto|reflexivity].
    - destruct (step_ok o p Ho Hio) as (p' & i & Ht & Hin' & _).
      destruct (IH o p' Ho Hin') as (ns & es & last & Hpath & Hlen).
      exists (n :: ns), (p :: es), last. split; [eapply path_step; eauto|cbn; lia].
  Qed.

  Lemma turn_unique o p a b : o < length (m_nodes m) -> turn m o p a -> turn m o p b -> a = b.
  Proof.
    intros Ho (i & Hi & Hi') (j & Hj & Hj').
    assert (i = j).
    { apply (proj1 (NoDup_nth_error _) (adj_nodup m exact o Ho)); [apply nth_error_Some; congruence|congruence]. }
    subst. congruence.
  Qed.

  Lemma path_first n p ns es last : path n p ns es last -> exists ns' es', ns = n :: ns' /\ es = p :: es' /\ n < length (m_nodes m) /\ In (Some p) (row_of m n).
  Proof. intros H. inversion H; subst; eauto 8. Qed.
  Lemma path_length n p ns es last : path n p ns es last -> length es = length ns /\ 1 <= length ns.
  Proof. induction 1; cbn in *; lia. Qed.

  Lemma joins_fun e n a b : joins e n a -> joins e n b -> a = b.
  Proof. intros [-> | ->] [H|H]; injection H; congruence. Qed.

  Lemma path_unique n p ns es last : path n p ns es last -> forall ns' es' last', path n p ns' es' last' -> length ns' = length ns ->
    ns' = ns /\ es' = es /\ last' = last.
  Proof.
    induction 1 as [n p o Hn Hin Hj|n p o p' ns es last Hn Hin Hj Ht Hpath IH]; intros ns' es' last' H' Hl.
    - inversion H' as [? ? o' ? ? Hj'|? ? o' q ms fs ? ? ? Hj' Ht' Hp']; subst.
      + split; [reflexivity|]. split; [reflexivity|]. eapply joins_fun; eauto.
      + destruct (path_length _ _ _ _ _ Hp'). cbn in Hl. lia.
    - inversion H' as [? ? o' ? ? Hj'|? ? o' q ms fs ? ? ? Hj' Ht' Hp']; subst.
      + destruct (path_length _ _ _ _ _ Hpath). cbn in Hl. lia.
      + assert (o' = o) by (eapply joins_fun; eauto). subst o'.
        destruct (path_first _ _ _ _ _ Hpath) as (_ & _ & _ & _ & Ho & _).
        assert (q = p') by (eapply turn_unique; eauto). subst q.
        destruct (IH ms fs last' Hp') as (-> & -> & ->); [cbn in Hl; lia|]. auto.
  Qed.

  (** What the recursive search does. *)
  Section Search.
    Variable clockwise : projection -> list point -> bool.

    Definition full_edge (f : faces) (e : nat) : bool := 2 <=? nth e (edges_num_faces f) 0.

    Lemma find_rec_ok n p ns es last : path n p ns es last -> forall k start edges nodes f,
      length (edges_num_faces f) = length (m_edges m) -> k = length nodes + length ns ->
      find_rec clockwise m (length ns) k start n (Some p) edges nodes f =
        if existsb (full_edge f) es then Ok f
        else if last =? start then close_face clockwise m k (edges ++ es) (nodes ++ ns) f else Ok f.
    Proof.
      induction 1 as [n p o Hn Hin Hj|n p o p' ns es last Hn Hin Hj Ht Hpath IH]; intros k start edges nodes f Hf Hk.
      - destruct (listed n p Hn Hin) as (Hp & o' & Hj' & _ & _ & Ho & Hio).
        assert (o' = o) by (eapply joins_fun; eauto). subst o'.
        cbn [length] in *. cbn [find_rec]. destruct (k <=? length nodes) eqn:E; [apply Nat.leb_le in E; lia|].
        rewrite edge_get by exact Hp. cbn [bind]. destruct (other_joins _ _ _ Hj) as [-> ->].
        assert (Ec : vget (edges_num_faces f) p = Ok (nth p (edges_num_faces f) 0)) by (apply vget_ok, nth_error_nth'; lia).
        rewrite Ec. cbn [bind existsb]. unfold full_edge at 1. rewrite orb_false_r. destruct (2 <=? nth p (edges_num_faces f) 0); [reflexivity|].
        rewrite app_length. cbn [length]. replace (length nodes + 1 =? k) with true by (symmetry; apply Nat.eqb_eq; lia).
        rewrite andb_true_r. destruct (o =? start); [reflexivity|].
        destruct (row_get o Ho) as [-> ->]. cbn [bind]. destruct (step_ok o p Ho Hio) as (p' & i & _ & _ & -> & Hb). cbn [bind]. rewrite Hb. cbn [bind].
        rewrite ?app_length. cbn [length]. replace (k <=? length nodes + 1) with true by (symmetry; apply Nat.leb_le; lia). reflexivity.
      - destruct (listed n p Hn Hin) as (Hp & o' & Hj' & _ & _ & Ho & Hio).
        assert (o' = o) by (eapply joins_fun; eauto). subst o'.
        destruct (path_length _ _ _ _ _ Hpath) as [_ Hl1].
        cbn [length] in *. cbn [find_rec]. destruct (k <=? length nodes) eqn:E; [apply Nat.leb_le in E; lia|].
        rewrite edge_get by exact Hp. cbn [bind]. destruct (other_joins _ _ _ Hj) as [-> ->].
        assert (Ec : vget (edges_num_faces f) p = Ok (nth p (edges_num_faces f) 0)) by (apply vget_ok, nth_error_nth'; lia).
        rewrite Ec. cbn [bind existsb]. unfold full_edge at 1. destruct (2 <=? nth p (edges_num_faces f) 0); [reflexivity|]. cbn [orb].
        rewrite app_length. cbn [length]. replace (length nodes + 1 =? k) with false by (symmetry; apply Nat.eqb_neq; lia).
        rewrite andb_false_r.
        destruct (row_get o Ho) as [-> ->]. cbn [bind]. destruct (step_ok o p Ho Hio) as (p2 & i & Ht2 & _ & -> & Hb). cbn [bind]. rewrite Hb. cbn [bind].
        assert (p2 = p') by (eapply turn_unique; eauto). subst p2.
        rewrite IH by (rewrite ?app_length; cbn; lia). rewrite <- !app_assoc. reflexivity.
    Qed.
  End Search.
End Walk.

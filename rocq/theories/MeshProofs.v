(** Proofs about administration and construction of meshes. *)
From Coq Require Import Permutation.
From Verif Require Import Base BaseLemmas FloatModel FloatProofs MeshModel MeshSpec.

Lemma eq_idx_spec a b : eq_idx a b = true <-> a = b.
Proof.
  destruct a, b; cbn; split; intros H; try discriminate; try congruence.
  - apply Nat.eqb_eq in H. congruence.
  - inversion H. apply Nat.eqb_refl.
Qed.

(** Boolean version of [ends_in]. *)
Definition endsb (e : edge) (n : nat) : bool := eq_idx (fst e) (Some n) || eq_idx (snd e) (Some n).
Lemma endsb_spec e n : endsb e n = true <-> ends_in e n.
Proof. unfold endsb, ends_in. rewrite orb_true_iff, !eq_idx_spec. reflexivity. Qed.

Lemma valid_at_lt nodes n : valid_at nodes n = true -> n < length nodes.
Proof. unfold valid_at. destruct (nth_error nodes n) eqn:E; [intros _; apply nth_error_Some; congruence|discriminate]. Qed.

Lemma edge_invalid_spec nodes e :
  (forall n, ends_in e n -> n < length nodes) -> edge_invalid nodes e = Ok (negb (live nodes e)).
Proof.
  intros H. destruct e as [[a|] [b|]]; cbn [edge_invalid live negb]; auto.
  unfold vget, valid_at.
  assert (Ha : a < length nodes) by (apply H; left; reflexivity).
  assert (Hb : b < length nodes) by (apply H; right; reflexivity).
  destruct (nth_error nodes a) as [pa|] eqn:Ea; [|apply nth_error_None in Ea; lia].
  destruct (nth_error nodes b) as [pb|] eqn:Eb; [|apply nth_error_None in Eb; lia].
  cbn. destruct (is_valid pa); cbn; auto.
Qed.

(** Mask of the nodes connected by the edges [l]. *)
Definition conn_of (nodes : list point) (l : list edge) : list bool :=
  map (fun n => existsb (fun e => live nodes e && endsb e n) l) (seq 0 (length nodes)).

Lemma conn_of_length nodes l : length (conn_of nodes l) = length nodes.
Proof. unfold conn_of. now rewrite map_length, seq_length. Qed.

Lemma nth_error_seq s k n : nth_error (seq s k) n = if n <? k then Some (s + n) else None.
Proof.
  revert s n. induction k as [|k IH]; intros s [|n]; cbn [seq nth_error]; auto.
  - rewrite Nat.add_0_r. reflexivity.
  - rewrite IH. change (S n <? S k) with (n <? k). destruct (n <? k); auto. f_equal. lia.
Qed.

Lemma conn_of_nth nodes l n :
  nth_error (conn_of nodes l) n =
  if n <? length nodes then Some (existsb (fun e => live nodes e && endsb e n) l) else None.
Proof.
  unfold conn_of. rewrite nth_error_map, nth_error_seq. destruct (n <? length nodes); reflexivity.
Qed.

Lemma conn_of_connected nodes l n :
  well_indexed nodes l -> nth_error (conn_of nodes l) n = Some true <-> connected nodes l n.
Proof.
  intros Hw. rewrite conn_of_nth. unfold connected. split.
  - destruct (n <? length nodes); [|discriminate]. intros H. injection H as H1.
    apply existsb_exists in H1. destruct H1 as (e & H1 & H2). apply andb_true_iff in H2. destruct H2 as [H2 H3].
    exists e. rewrite <- endsb_spec. auto.
  - intros (e & H1 & H2 & H3). pose proof (Hw e n H1 H3) as Hlt. apply Nat.ltb_lt in Hlt. rewrite Hlt.
    f_equal. apply existsb_exists. exists e. apply endsb_spec in H3. rewrite H2, H3. auto.
Qed.

Lemma connect_step_spec nodes l e k :
  (forall n, ends_in e n -> n < length nodes) ->
  connect_step nodes (conn_of nodes l, k) e = Ok (conn_of nodes (l ++ [e]), k + (if live nodes e then 0 else 1)).
Proof.
  intros H. unfold connect_step. rewrite (edge_invalid_spec _ _ H). cbn [bind].
  assert (Hcase : forall n, existsb (fun e0 => live nodes e0 && endsb e0 n) (l ++ [e])
                       = existsb (fun e0 => live nodes e0 && endsb e0 n) l || (live nodes e && endsb e n)).
  { intros n. rewrite existsb_app. cbn. now rewrite orb_false_r. }
  destruct (live nodes e) eqn:El; cbn [negb].
  - destruct e as [[a|] [b|]]; try discriminate El.
    assert (Ha : a < length nodes) by (apply H; left; reflexivity).
    assert (Hb : b < length nodes) by (apply H; right; reflexivity).
    rewrite vset_lt by now rewrite conn_of_length. cbn [bind].
    rewrite vset_lt by (rewrite set_nth_length, conn_of_length; auto). cbn [bind].
    rewrite Nat.add_0_r. do 2 f_equal. apply nth_error_ext. intros i.
    rewrite !nth_error_set_nth, !set_nth_length, !conn_of_nth, !conn_of_length, Hcase.
    unfold endsb. cbn [fst snd eq_idx].
    rewrite (proj2 (Nat.ltb_lt _ _) Ha), (proj2 (Nat.ltb_lt _ _) Hb), !andb_true_r.
    destruct (Nat.ltb_spec i (length nodes)).
    + rewrite (Nat.eqb_sym a i), (Nat.eqb_sym b i), orb_comm.
      destruct (i =? b), (i =? a); cbn; auto; now rewrite ?orb_false_r, ?orb_true_r.
    + destruct (Nat.eqb_spec b i), (Nat.eqb_spec a i); cbn; auto; try lia.
  - rewrite Nat.add_1_r. do 2 f_equal. apply nth_error_ext. intros i. rewrite !conn_of_nth, Hcase.
    destruct (i <? length nodes); auto. cbn. now rewrite orb_false_r.
Qed.

Lemma find_connected_fold nodes l2 : forall l1 k,
  well_indexed nodes (l1 ++ l2) ->
  exists k', fold_out (connect_step nodes) l2 (conn_of nodes l1, k) = Ok (conn_of nodes (l1 ++ l2), k') /\
    (k' = k <-> forall e, In e l2 -> live nodes e = true).
Proof.
  induction l2 as [|e l2 IH]; intros l1 k Hw; cbn [fold_out].
  - exists k. rewrite app_nil_r. split; [auto|]. split; [intros _ e []|auto].
  - rewrite connect_step_spec.
    2:{ intros n Hn. apply (Hw e n); [apply in_or_app; cbn; auto|exact Hn]. }
    cbn [bind]. destruct (IH (l1 ++ [e]) (k + (if live nodes e then 0 else 1))) as (k' & Hf & Hk).
    { rewrite <- app_assoc. exact Hw. }
    rewrite <- app_assoc in Hf. exists k'. split; [exact Hf|].
    assert (Hge : k + (if live nodes e then 0 else 1) <= k').
    { clear - Hf. revert Hf. generalize (conn_of nodes (l1 ++ [e])) (conn_of nodes (l1 ++ [e] ++ l2)).
      generalize (k + (if live nodes e then 0 else 1)). induction l2 as [|e2 l2 IH]; intros k0 c c'; cbn [fold_out].
      - intros H. inversion H. lia.
      - intros H. apply bind_ok_inv in H. destruct H as ([c1 k1] & H1 & H2). apply IH in H2.
        unfold connect_step in H1. apply bind_ok_inv in H1. destruct H1 as ([] & _ & H1).
        + inversion H1; subst. lia.
        + destruct e2 as [[a|] [b|]]; try (inversion H1; subst; lia).
          apply bind_ok_inv in H1. destruct H1 as (c2 & _ & H1).
          apply bind_ok_inv in H1. destruct H1 as (c3 & _ & H1). inversion H1; subst. lia. }
    destruct (live nodes e) eqn:El.
    + rewrite Nat.add_0_r in *. rewrite Hk. split.
      * intros H x [->|Hx]; auto.
      * intros H x Hx. apply H. right; auto.
    + split; [lia|]. intros H. specialize (H e (or_introl eq_refl)). congruence.
Qed.

Lemma find_connected_spec m :
  well_indexed (m_nodes m) (m_edges m) ->
  exists k, find_connected m = Ok (conn_of (m_nodes m) (m_edges m), k) /\
    (k = 0 <-> forall e, In e (m_edges m) -> live (m_nodes m) e = true).
Proof.
  intros Hw. unfold find_connected.
  assert (Hrep : repeat false (length (m_nodes m)) = conn_of (m_nodes m) []).
  { apply nth_error_ext. intros i. rewrite conn_of_nth. cbn [existsb].
    destruct (Nat.ltb_spec i (length (m_nodes m))).
    - rewrite nth_error_repeat; auto.
    - apply nth_error_None. rewrite repeat_length. lia. }
  rewrite Hrep. apply (find_connected_fold (m_nodes m) (m_edges m) [] 0). exact Hw.
Qed.

(** Nodes after invalidating the unconnected ones. *)
Definition keep_connected (conn : list bool) (nodes : list point) : list point :=
  map (fun cp : bool * point => if fst cp then snd cp else missing_point) (combine conn nodes).

Lemma invalidate_fst conn : forall n nodes, length conn = length nodes ->
  fst (invalidate_unconnected n conn nodes) = keep_connected conn nodes.
Proof.
  induction conn as [|c ct IH]; intros n [|p pt] H; cbn; try discriminate; auto.
  specialize (IH (S n) pt ltac:(cbn in H; lia)).
  destruct (invalidate_unconnected (S n) ct pt) as [ns acts]. cbn in IH.
  destruct c; cbn; rewrite IH; reflexivity.
Qed.

Lemma keep_connected_length conn nodes : length conn = length nodes -> length (keep_connected conn nodes) = length nodes.
Proof. intros H. unfold keep_connected. rewrite map_length, combine_length. lia. Qed.

Lemma keep_connected_nth conn nodes n : length conn = length nodes ->
  nth_error (keep_connected conn nodes) n =
  match nth_error conn n, nth_error nodes n with
  | Some c, Some p => Some (if c then p else missing_point)
  | _, _ => None
  end.
Proof.
  intros H. unfold keep_connected. rewrite nth_error_map. revert nodes n H.
  induction conn as [|c ct IH]; intros [|p pt] [|n] H; cbn in *; try discriminate; auto.
Qed.

(** The administrated nodes and edges. *)
Definition admin_nodes (nodes : list point) (edges : list edge) : list point := keep_connected (conn_of nodes edges) nodes.
Definition admin_edges (nodes : list point) (edges : list edge) : list edge :=
  map (fun e => if live nodes e then e else missing_edge) edges.

Lemma admin_nodes_length nodes edges : length (admin_nodes nodes edges) = length nodes.
Proof. apply keep_connected_length. apply conn_of_length. Qed.

Lemma admin_nodes_nth nodes edges n p :
  nth_error nodes n = Some p ->
  nth_error (admin_nodes nodes edges) n =
  Some (if existsb (fun e => live nodes e && endsb e n) edges then p else missing_point).
Proof.
  intros H. unfold admin_nodes. rewrite keep_connected_nth by apply conn_of_length.
  rewrite conn_of_nth, H.
  assert (Hlt : n < length nodes) by (apply nth_error_Some; congruence).
  apply Nat.ltb_lt in Hlt. rewrite Hlt. reflexivity.
Qed.

(** Liveness of the edges at hand is the same before and after invalidating nodes. *)
Lemma valid_at_admin nodes edges n :
  valid_at (admin_nodes nodes edges) n = existsb (fun e => live nodes e && endsb e n) edges && valid_at nodes n.
Proof.
  unfold valid_at. destruct (nth_error nodes n) as [p|] eqn:E.
  - rewrite (admin_nodes_nth _ _ _ _ E). destruct (existsb _ edges); cbn; auto.
  - rewrite andb_false_r. assert (nth_error (admin_nodes nodes edges) n = None) as ->; auto.
    apply nth_error_None. rewrite admin_nodes_length. apply nth_error_None. exact E.
Qed.

Lemma live_ends_valid nodes e n : live nodes e = true -> ends_in e n -> valid_at nodes n = true.
Proof.
  unfold live, ends_in. destruct e as [[a|] [b|]]; try discriminate. intros H [E|E]; cbn in E; inversion E; subst;
    apply andb_true_iff in H; tauto.
Qed.

Lemma live_admin nodes edges e : In e edges -> live (admin_nodes nodes edges) e = live nodes e.
Proof.
  intros Hin. destruct (live nodes e) eqn:El.
  - assert (H : forall n, ends_in e n -> valid_at (admin_nodes nodes edges) n = true).
    { intros n Hn. rewrite valid_at_admin. apply andb_true_iff. split; [|eapply live_ends_valid; eauto].
      apply existsb_exists. exists e. split; auto. apply endsb_spec in Hn. rewrite El, Hn. reflexivity. }
    destruct e as [[a|] [b|]]; try discriminate El. cbn. rewrite (H a), (H b); auto; [right|left]; reflexivity.
  - destruct e as [[a|] [b|]]; auto. cbn in *. rewrite !valid_at_admin.
    destruct (valid_at nodes a), (valid_at nodes b); try discriminate; rewrite ?andb_false_r; auto.
Qed.

Lemma invalidate_edges_fst nodes l : forall e,
  (forall ed n, In ed l -> ends_in ed n -> n < length nodes) ->
  exists acts, invalidate_edges e nodes l = Ok (map (fun ed => if live nodes ed then ed else missing_edge) l, acts).
Proof.
  induction l as [|ed l IH]; intros e H; cbn [invalidate_edges map].
  - eauto.
  - rewrite edge_invalid_spec by (intros n Hn; apply (H ed n); cbn; auto). cbn [bind].
    destruct (IH (S e)) as (acts & ->); [intros x n Hx; apply H; cbn; auto|]. cbn [bind].
    destruct (live nodes ed); cbn; eauto.
Qed.

Lemma count_invalid_zero nodes : count_invalid nodes = 0 <-> forall n, n < length nodes -> valid_at nodes n = true.
Proof.
  unfold count_invalid. split.
  - intros H n Hn. unfold valid_at. destruct (nth_error nodes n) as [p|] eqn:E; [|apply nth_error_None in E; lia].
    apply nth_error_In in E. destruct (is_valid p) eqn:Ep; auto. exfalso.
    assert (Hin : In p (filter (fun q => negb (is_valid q)) nodes)) by (apply filter_In; rewrite Ep; auto).
    destruct (filter _ nodes); [destruct Hin|discriminate].
  - intros H. destruct (filter _ nodes) as [|p l] eqn:E; auto. exfalso.
    assert (Hin : In p (filter (fun q => negb (is_valid q)) nodes)) by (rewrite E; cbn; auto).
    apply filter_In in Hin. destruct Hin as [Hin Hp]. apply In_nth_error in Hin. destruct Hin as (n & Hn).
    assert (Hlt : n < length nodes) by (apply nth_error_Some; congruence).
    specialize (H n Hlt). unfold valid_at in H. rewrite Hn in H. rewrite H in Hp. discriminate.
Qed.

Lemma admin_edges_live nodes edges : (forall e, In e edges -> live nodes e = true) -> admin_edges nodes edges = edges.
Proof.
  intros H. unfold admin_edges. rewrite <- (map_id edges) at 2. apply map_ext_in. intros e He. rewrite (H e He). reflexivity.
Qed.

Lemma set_unconnected_spec m :
  well_indexed (m_nodes m) (m_edges m) ->
  exists acts, set_unconnected_invalid m =
    Ok (set_edges (set_nodes m (admin_nodes (m_nodes m) (m_edges m))) (admin_edges (m_nodes m) (m_edges m)), acts).
Proof.
  intros Hw. unfold set_unconnected_invalid.
  destruct (find_connected_spec m Hw) as (k & -> & Hk). cbn [bind].
  pose proof (invalidate_fst (conn_of (m_nodes m) (m_edges m)) 0 (m_nodes m) (conn_of_length _ _)) as Hf.
  destruct (invalidate_unconnected 0 (conn_of (m_nodes m) (m_edges m)) (m_nodes m)) as [ns acts]. cbn [fst] in Hf. subst ns.
  change (keep_connected (conn_of (m_nodes m) (m_edges m)) (m_nodes m)) with (admin_nodes (m_nodes m) (m_edges m)).
  destruct (Nat.eqb_spec k 0) as [Hk0|Hk0]; cbn [andb].
  - pose proof (proj1 Hk Hk0) as Hlive.
    destruct (Nat.eqb_spec (count_invalid (admin_nodes (m_nodes m) (m_edges m))) 0).
    + exists acts. rewrite (admin_edges_live _ _ Hlive). destruct m; reflexivity.
    + destruct (invalidate_edges_fst (admin_nodes (m_nodes m) (m_edges m)) (m_edges m) 0) as (acts2 & ->).
      { intros ed x Hin Hx. rewrite admin_nodes_length. eauto. }
      cbn [bind]. eexists. do 3 f_equal. unfold admin_edges. apply map_ext_in. intros ed Hin. now rewrite live_admin.
  - destruct (invalidate_edges_fst (admin_nodes (m_nodes m) (m_edges m)) (m_edges m) 0) as (acts2 & ->).
    { intros ed x Hin Hx. rewrite admin_nodes_length. eauto. }
    cbn [bind]. eexists. do 3 f_equal. unfold admin_edges. apply map_ext_in. intros ed Hin. now rewrite live_admin.
Qed.

Lemma admin_well_indexed nodes edges :
  well_indexed nodes edges -> well_indexed (admin_nodes nodes edges) (admin_edges nodes edges).
Proof.
  intros Hw e n Hin Hn. rewrite admin_nodes_length. unfold admin_edges in Hin. apply in_map_iff in Hin.
  destruct Hin as (e0 & He & Hin). destruct (live nodes e0); subst e; [eauto|].
  destruct Hn as [Hn|Hn]; discriminate.
Qed.

(** Running the first part again changes nothing. *)
Lemma admin_idem nodes edges :
  admin_nodes (admin_nodes nodes edges) (admin_edges nodes edges) = admin_nodes nodes edges /\
  admin_edges (admin_nodes nodes edges) (admin_edges nodes edges) = admin_edges nodes edges.
Proof.
  assert (Hl : forall e, In e edges -> live (admin_nodes nodes edges) (if live nodes e then e else missing_edge) = live nodes e).
  { intros e He. destruct (live nodes e) eqn:E; auto. rewrite live_admin; auto. }
  split.
  - apply nth_error_ext. intros n. destruct (nth_error nodes n) as [p|] eqn:E.
    + rewrite (admin_nodes_nth _ (admin_edges nodes edges) n _ (admin_nodes_nth nodes edges n p E)).
      rewrite (admin_nodes_nth nodes edges n p E). f_equal.
      assert (Hex : existsb (fun e => live (admin_nodes nodes edges) e && endsb e n) (admin_edges nodes edges)
                    = existsb (fun e => live nodes e && endsb e n) edges).
      { unfold admin_edges. 
        assert (Hg : forall l, (forall e, In e l -> In e edges) ->
          existsb (fun e => live (admin_nodes nodes edges) e && endsb e n) (map (fun e => if live nodes e then e else missing_edge) l)
          = existsb (fun e => live nodes e && endsb e n) l).
        { induction l as [|e l IH]; intros Hs; cbn; auto. rewrite IH by (intros; apply Hs; cbn; auto).
          f_equal. rewrite Hl by (apply Hs; cbn; auto). destruct (live nodes e); auto. }
        apply Hg; auto. }
      rewrite Hex. destruct (existsb _ edges); reflexivity.
    + transitivity (@None point); [|symmetry]; apply nth_error_None; rewrite ?admin_nodes_length; apply nth_error_None; auto.
  - unfold admin_edges at 1 3. unfold admin_edges. rewrite map_map. apply map_ext_in. intros e He.
    rewrite Hl by auto. destruct (live nodes e); reflexivity.
Qed.

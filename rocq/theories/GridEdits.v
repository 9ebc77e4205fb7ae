(** Blocks, deletions and their undo, copies. *)
From Verif Require Import Base BaseLemmas FloatModel UtilModel UtilProofs UndoModel ActionModel GridModel GridSpec GridProofs GridClean.

(** *** C31 *)
Lemma block_symmetric g a b : block_from_corners g a b = block_from_corners g b a.
Proof.
  unfold block_from_corners.
  destruct a as [[an|] [am|]], b as [[bn|] [bm|]]; cbn [fst snd omin omax]; auto.
  rewrite (Nat.min_comm an), (Nat.min_comm am), (Nat.max_comm an), (Nat.max_comm am). reflexivity.
Qed.

Lemma block_inside g an am bn bm : shown g an am -> shown g bn bm ->
  block_from_corners g (Some an, Some am) (Some bn, Some bm) = Ok ((min an bn, min am bm), (max an bn, max am bm)).
Proof.
  intros [] []. unfold block_from_corners. cbn [fst snd omin omax].
  destruct (Nat.leb_spec (num_m g) (min am bm)); [lia|]. destruct (Nat.leb_spec (num_n g) (min an bn)); [lia|]. cbn [orb].
  destruct (Nat.leb_spec (num_m g) (max am bm)); [lia|]. destruct (Nat.leb_spec (num_n g) (max an bn)); [lia|]. reflexivity.
Qed.

Lemma block_outside g a b : (forall n m, a = (Some n, Some m) -> ~ shown g n m) -> block_from_corners g a b = Throw ConstraintErr.
Proof.
  intros H. unfold block_from_corners. destruct a as [[an|] [am|]], b as [[bn|] [bm|]]; cbn [fst snd omin omax]; auto.
  specialize (H an am eq_refl). unfold shown in H.
  destruct (Nat.leb_spec (num_m g) (min am bm)), (Nat.leb_spec (num_n g) (min an bn)); cbn [orb]; auto.
  destruct (Nat.leb_spec (num_m g) (max am bm)), (Nat.leb_spec (num_n g) (max an bn)); cbn [orb]; auto. lia.
Qed.

(** *** Blocks *)
Lemma block_copy_ok g n0 m0 n1 m1 : gwf g -> n1 <= num_n g -> m1 <= num_m g ->
  exists b, block_copy g n0 m0 n1 m1 = Ok b /\ mrows b = n1 - n0 /\ mcols b = m1 - m0 /\
    forall i j, n0 <= i < n1 -> m0 <= j < m1 -> entry b (i - n0) (j - m0) = vis g i j.
Proof.
  intros H Hn Hm. unfold block_copy. set (L := pairs 0 (n1 - n0) 0 (m1 - m0)).
  destruct (fold_pre (fun b rc =>
              let! p := get_node g (fst rc + n0) (snd rc + m0) in
              Ok (Matrix (mrows b) (mcols b) (put_entry (entry b) (fst rc) (snd rc) p)))
     (fun l1 b => mrows b = n1 - n0 /\ mcols b = m1 - m0 /\ forall r c, In (r, c) l1 -> entry b r c = vis g (r + n0) (c + m0))
     L (Matrix (n1 - n0) (m1 - m0) (fun _ _ => missing_point))) as (b & Hf & Hr & Hc & He).
  - intros l1 [r c] l2 b El (Hr & Hc & He). cbn [fst snd].
    assert (B : r < n1 - n0 /\ c < m1 - m0).
    { assert (In (r, c) L) as Hin by (rewrite El; apply in_elt). apply in_pairs in Hin. lia. }
    rewrite get_node_ok by (auto; split; lia). cbn [bind]. eexists. split; [reflexivity|]. cbn [mrows mcols entry].
    do 2 (split; auto). intros i j Hin. destruct (gindex_dec (i, j) (r, c)) as [E|E].
    + injection E as -> ->. apply put_same.
    + rewrite put_other by auto. apply He. apply in_app_iff in Hin as [?|[?|[]]]; auto. congruence.
  - cbn. do 2 (split; auto). intros r c [].
  - exists b. split; [exact Hf|]. do 2 (split; auto). intros i j Hi Hj. rewrite He.
    + f_equal; lia.
    + apply in_pairs. lia.
Qed.

Definition in_block n0 m0 n1 m1 i j : Prop := n0 <= i < n1 /\ m0 <= j < m1.

Lemma block_swap_ok g b n0 m0 n1 m1 : gwf g -> n1 <= num_n g -> m1 <= num_m g ->
  exists b' h, block_swap n0 m0 n1 m1 (b, g) = Ok (b', h) /\ same_frame g h /\ same_hidden g h /\
    (forall i j, in_block n0 m0 n1 m1 i j -> vis h i j = entry b (i - n0) (j - m0) /\ entry b' (i - n0) (j - m0) = vis g i j) /\
    (forall i j, ~ in_block n0 m0 n1 m1 i j -> vis h i j = vis g i j).
Proof.
  intros H Hn Hm. unfold block_swap. set (L := pairs 0 (n1 - n0) 0 (m1 - m0)).
  destruct (fold_pre (fun bg rc =>
              let! p := get_node (snd bg) (fst rc + n0) (snd rc + m0) in
              let! g := set_node (snd bg) (fst rc + n0) (snd rc + m0) (entry (fst bg) (fst rc) (snd rc)) in
              Ok (Matrix (mrows (fst bg)) (mcols (fst bg)) (put_entry (entry (fst bg)) (fst rc) (snd rc) p), g))
     (fun l1 bh => same_frame g (snd bh) /\ same_hidden g (snd bh) /\
        (forall r c, In (r, c) l1 -> vis (snd bh) (r + n0) (c + m0) = entry b r c /\ entry (fst bh) r c = vis g (r + n0) (c + m0)) /\
        (forall r c, ~ In (r, c) l1 -> entry (fst bh) r c = entry b r c) /\
        (forall i j, (forall r c, i = r + n0 -> j = c + m0 -> ~ In (r, c) l1) -> vis (snd bh) i j = vis g i j))
     L (b, g)) as ([b' h] & Hf & F & Hh & He & _ & Ho).
  - intros l1 [r c] l2 [b' h] El (F & Hh & He & Hb & Ho). cbn [fst snd] in *.
    assert (B : r < n1 - n0 /\ c < m1 - m0).
    { assert (In (r, c) L) as Hin by (rewrite El; apply in_elt). apply in_pairs in Hin. lia. }
    assert (Hnot : ~ In (r, c) l1).
    { pose proof (pairs_nodup 0 (n1 - n0) 0 (m1 - m0)) as Nd. fold L in Nd. rewrite El in Nd. apply NoDup_remove_2 in Nd.
      intros Hin. apply Nd, in_app_iff. auto. }
    assert (Hs : shown h (r + n0) (c + m0)) by (apply (sf_shown g h); auto; split; lia).
    assert (Hgh : gwf h) by (eapply sf_gwf; eauto).
    rewrite get_node_ok by auto. cbn [bind]. rewrite set_node_ok by auto. cbn [bind].
    eexists. split; [reflexivity|]. cbn [fst snd]. split; [eapply sf_trans; [eauto|apply sf_put]|].
    split; [eapply hidden_trans; eauto; apply hidden_put; auto|]. split; [|split].
    + intros i j Hin. destruct (gindex_dec (i, j) (r, c)) as [E|E].
      * injection E as -> ->. cbn [entry]. rewrite vis_put_same, put_same. split; [apply Hb; auto|].
        apply Ho. intros r' c' E1 E2. replace r' with r by lia. replace c' with c by lia. auto.
      * assert (Hin' : In (i, j) l1) by (apply in_app_iff in Hin as [?|[?|[]]]; auto; congruence).
        cbn [entry]. rewrite vis_put_other by (intros Q; injection Q as Q1 Q2; apply E; f_equal; lia).
        rewrite put_other by auto. apply He; auto.
    + intros i j Hnin. cbn [entry]. rewrite put_other.
      * apply Hb. intros Hi. apply Hnin, in_app_iff. auto.
      * intros E. apply Hnin, in_app_iff. right. left. congruence.
    + intros i j Hij. rewrite vis_put_other.
      * apply Ho. intros r' c' E1 E2 Hin. apply (Hij r' c' E1 E2), in_app_iff. auto.
      * intros E. injection E as E1 E2. apply (Hij r c E1 E2), in_elt.
  - cbn [fst snd]. split; [apply sf_refl|]. split; [apply hidden_refl|]. split; [intros r c []|]. split; auto.
  - cbn [fst snd] in *. exists b', h. split; [exact Hf|]. split; auto. split; auto. split.
    + intros i j [Hi Hj]. destruct (He (i - n0) (j - m0)) as [E1 E2]; [apply in_pairs; lia|].
      rewrite !Nat.sub_add in * by lia. auto.
    + intros i j Hij. apply Ho. intros r c -> -> Hin. apply in_pairs in Hin. apply Hij. split; lia.
Qed.

(** *** Invalidating nodes *)
Lemma invalidate_ok g l : gwf g -> (forall n m, In (n, m) l -> shown g n m) ->
  exists h, invalidate g l = Ok h /\ same_frame g h /\ same_hidden g h /\
    (forall i j, In (i, j) l -> vis h i j = missing_point) /\ (forall i j, ~ In (i, j) l -> vis h i j = vis g i j).
Proof.
  intros H Hl. unfold invalidate.
  destruct (fold_pre (fun g nm => set_node g (fst nm) (snd nm) missing_point)
     (fun l1 h => same_frame g h /\ same_hidden g h /\
        (forall i j, In (i, j) l1 -> vis h i j = missing_point) /\ (forall i j, ~ In (i, j) l1 -> vis h i j = vis g i j))
     l g) as (h & Hf & Hh).
  - intros l1 [n m] l2 h El (F & Hh & He & Ho). cbn [fst snd].
    assert (Hs : shown h n m) by (apply (sf_shown g h); auto; apply Hl; rewrite El; apply in_elt).
    rewrite set_node_ok by (auto; eapply sf_gwf; eauto). eexists. split; [reflexivity|].
    split; [eapply sf_trans; [eauto|apply sf_put]|]. split; [eapply hidden_trans; eauto; apply hidden_put; auto|]. split.
    + intros i j Hin. destruct (gindex_dec (i, j) (n, m)) as [E|E].
      * injection E as -> ->. apply vis_put_same.
      * rewrite vis_put_other by auto. apply He. apply in_app_iff in Hin as [?|[?|[]]]; auto. congruence.
    + intros i j Hin. rewrite in_app_iff in Hin. cbn in Hin. rewrite vis_put_other; [apply Ho; tauto|]. intros E. apply Hin. right. left. congruence.
  - split; [apply sf_refl|]. split; [apply hidden_refl|]. split; [intros i j []|auto].
  - exists h. split; [exact Hf|exact Hh].
Qed.

Lemma same_view_refl g : same_view g g.
Proof. split; auto. Qed.
Lemma same_view_trans g h k : same_view g h -> same_view h k -> same_view g k.
Proof.
  intros (A & B & C) (A' & B' & C'). split; [congruence|]. split; [congruence|]. intros n m Hn Hm.
  rewrite C by auto. apply C'; congruence.
Qed.

Lemma view_clean g h : same_view g h -> clean g -> clean h.
Proof.
  intros (A & B & C) Hc i j [Hi Hj] Hv.
  assert (E : forall a b, a < num_n g -> b < num_m g -> vis h a b = vis g a b) by (intros; symmetry; auto).
  destruct (Hc i j) as (n & m & (Hn & Hm & V) & Hco); [split; lia|rewrite <- E by lia; auto|].
  exists n, m. split; auto. unfold complete. rewrite <- A, <- B, !E by lia. tauto.
Qed.

(** After sweeping, a clean grid is unchanged. *)
Lemma types_clean g : gwf g -> clean g ->
  exists h, compute_node_types g = Ok h /\ same_frame g h /\ same_hidden g h /\ (forall n m, shown g n m -> vis h n m = vis g n m) /\
    mask_right h h /\ types_right h h.
Proof.
  intros H Hc. destruct (compute_node_types_ok g H) as (h & E & F & Hh & Hs & Hm & Ht). exists h.
  repeat (split; auto). apply swept_clean; auto.
Qed.

(** *** C28: interior *)
Lemma delete_interior_ok g ll ur : gwf g -> shown g (fst ur) (snd ur) ->
  exists h b, delete_interior g ll ur = Ok (h, Leaf Committed (BlockOf (fst ll) (snd ll) (fst ur) (snd ur) b)) /\
    same_frame g h /\ same_hidden g h /\
    (forall i j, shown g i j -> fst ll < i < fst ur -> snd ll < j < snd ur -> vis h i j = missing_point) /\
    (forall i j, ~ (fst ll < i < fst ur /\ snd ll < j < snd ur) -> vis h i j = vis g i j) /\
    (forall i j, in_block (fst ll) (snd ll) (fst ur) (snd ur) i j -> entry b (i - fst ll) (j - snd ll) = vis g i j).
Proof.
  intros H [Hn Hm]. unfold delete_interior.
  destruct (block_copy_ok g (fst ll) (snd ll) (fst ur) (snd ur) H) as (b & -> & _ & _ & He); [lia|lia|]. cbn [bind].
  destruct (invalidate_ok g (pairs (fst ll + 1) (fst ur) (snd ll + 1) (snd ur)) H) as (h & -> & F & Hh & Hi & Ho).
  { intros n m Hin. apply in_pairs in Hin. split; lia. }
  cbn [bind]. exists h, b. split; [reflexivity|]. split; [auto|]. split; [auto|]. split; [|split].
  - intros i j _ ? ?. apply Hi. apply in_pairs. lia.
  - intros i j Hij. apply Ho. rewrite in_pairs. lia.
  - intros i j [? ?]. apply He; auto.
Qed.

Lemma delete_interior_undo g ll ur : gwf g -> clean g -> shown g (fst ur) (snd ur) ->
  exists h u, delete_interior g ll ur = Ok (h, u) /\ exists u' k, undo_grid u h = Ok (u', k) /\ same_view g k.
Proof.
  intros H Hc Hs. destruct (delete_interior_ok g ll ur H Hs) as (h & b & E & F & Hh & _ & Ho & Hb).
  eexists _, _. split; [exact E|]. unfold undo_grid. cbn [restore_act grid_restore]. unfold swap_block_action.
  assert (Hgh : gwf h) by (eapply sf_gwf; eauto). destruct Hs as [Hs1 Hs2].
  destruct (block_swap_ok h b (fst ll) (snd ll) (fst ur) (snd ur) Hgh) as (b' & k & -> & F2 & Hh2 & Hi2 & Ho2);
    [rewrite (sf_num_n _ _ F); lia|rewrite (sf_num_m _ _ F); lia|]. cbn [bind].
  assert (Ev : forall i j, shown g i j -> vis k i j = vis g i j).
  { intros i j _.
    assert (D : in_block (fst ll) (snd ll) (fst ur) (snd ur) i j \/ ~ in_block (fst ll) (snd ll) (fst ur) (snd ur) i j) by (unfold in_block; lia).
    destruct D as [D|D].
    - rewrite (proj1 (Hi2 i j D)). apply Hb; auto.
    - rewrite Ho2 by auto. apply Ho. unfold in_block in D. lia. }
  assert (SV : same_view g k) by (apply sf_same_view; [eapply sf_trans; eauto|auto]).
  assert (F3 : same_frame g k) by (eapply sf_trans; eauto).
  destruct (types_clean k) as (k' & -> & F4 & _ & Ev4 & _ & _); [eapply sf_gwf; eauto|eapply view_clean; eauto|]. cbn [bind].
  eexists _, _. split; [reflexivity|]. eapply same_view_trans; [exact SV|]. apply sf_same_view; auto.
Qed.

(** *** C28: one node *)
Lemma delete_node_undo g i : gwf g -> clean g -> gindices g = pairs 0 (num_n g) 0 (num_m g) ->
  forall n m, nth_error (gindices g) i = Some (n, m) -> clean (put_node g n m missing_point) ->
  exists h u, delete_node g i = Ok (h, u) /\ u = Leaf Committed (ResetNode n m (vis g n m) missing_point true) /\ gwf h /\ same_view (put_node g n m missing_point) h.
Proof.
  intros H Hc Hg n m Hi Hcp. unfold delete_node.
  assert (Hs : shown g n m) by (rewrite Hg in Hi; apply node_list_spec in Hi; tauto).
  apply vget_ok in Hi as ->. cbn [bind fst snd]. rewrite get_node_ok by auto. cbn [bind]. rewrite set_node_ok by auto. cbn [bind].
  set (p := put_node g n m missing_point). assert (Fp : same_frame g p) by apply sf_put.
  assert (Hp : gwf p) by (eapply sf_gwf; eauto).
  destruct (types_clean p Hp Hcp) as (h & -> & F2 & _ & Ev2 & _ & _). cbn [bind].
  unfold reindex. rewrite compute_node_indices_ok. cbn [bind]. set (h' := set_gindices h _).
  exists h', (Leaf Committed (ResetNode n m (vis g n m) missing_point true)). split; [reflexivity|]. split; [reflexivity|]. split; [exact (sf_gwf p h F2 Hp)|].
  split; [symmetry; exact (sf_num_n _ _ F2)|]. split; [symmetry; exact (sf_num_m _ _ F2)|]. intros a b Ha Hb. symmetry. apply Ev2. split; auto.
Qed.

(** *** C32 *)
Lemma copy_assign_ok t g : gwf g ->
  exists h, copy_assign t g = Ok h /\ proj h = proj g /\ gnodes h = gnodes g /\ same_view g h /\
    gindices h = pairs 0 (num_n g) 0 (num_m g).
Proof.
  intros H. unfold copy_assign, set_grid_nodes. cbn [gnodes].
  unfold gwf in H. destruct (Nat.leb_spec (mrows (gnodes g)) 1); [lia|]. destruct (Nat.leb_spec (mcols (gnodes g)) 1); [lia|]. cbn [orb].
  rewrite compute_node_indices_ok. cbn [bind]. eexists. split; [reflexivity|]. repeat split; auto.
Qed.

Lemma copy_ctor_plain g : proj g = Cartesian -> start_n g = 0 -> start_m g = 0 -> end_n g = 0 -> end_m g = 0 -> copy_ctor g = g.
Proof. destruct g; cbn. intros; subst; reflexivity. Qed.

(** *** C28: exterior, for grids without missing nodes *)
(** [h] shows the nodes of [g] in a region and missing nodes elsewhere. *)
Definition shows_region (g h : grid) (P : nat -> nat -> Prop) : Prop :=
  same_frame g h /\ (forall i j, shown g i j -> P i j -> vis h i j = vis g i j) /\
  (forall i j, shown g i j -> ~ P i j -> vis h i j = missing_point).

Definition region_clean (g : grid) (P : nat -> nat -> Prop) : Prop :=
  forall i j, shown g i j -> P i j ->
    exists n m, n + 1 < num_n g /\ m + 1 < num_m g /\ corner_of n m i j /\ P n m /\ P n (m + 1) /\ P (n + 1) m /\ P (n + 1) (m + 1).

Lemma region_is_clean g h P : full g -> shows_region g h P -> region_clean g P -> (forall i j, P i j \/ ~ P i j) -> clean h.
Proof.
  intros Hf (F & Hin & Hout) Hr D i j Hij Hv. apply (sf_shown g h) in Hij; auto.
  destruct (D i j) as [Hp|Hp].
  - destruct (Hr i j Hij Hp) as (n & m & Hn & Hm & Hc & H1 & H2 & H3 & H4). exists n, m. split; auto.
    unfold complete. rewrite (sf_num_n _ _ F), (sf_num_m _ _ F).
    rewrite !Hin by (auto; split; lia). do 2 (split; auto). repeat split; apply Hf; split; lia.
  - rewrite Hout in Hv by auto. rewrite missing_invalid in Hv. discriminate.
Qed.

(** Undoing one block adds its nodes to the region shown. *)
Lemma undo_block g h P n0 m0 n1 m1 b : gwf g -> full g -> shows_region g h P -> (forall i j, P i j \/ ~ P i j) ->
  n1 <= num_n g -> m1 <= num_m g ->
  (forall i j, in_block n0 m0 n1 m1 i j -> entry b (i - n0) (j - m0) = vis g i j) ->
  region_clean g (fun i j => P i j \/ in_block n0 m0 n1 m1 i j) ->
  exists b' k, grid_restore (BlockOf n0 m0 n1 m1 b) h = Ok (b', k) /\ shows_region g k (fun i j => P i j \/ in_block n0 m0 n1 m1 i j).
Proof.
  intros H Hf Hr D Hn Hm Hb Hcl. pose proof Hr as (F & Hin & Hout).
  cbn [grid_restore]. unfold swap_block_action.
  assert (Hgh : gwf h) by (eapply sf_gwf; eauto).
  destruct (block_swap_ok h b n0 m0 n1 m1 Hgh) as (b' & k & -> & F2 & Hh2 & Hi2 & Ho2);
    [rewrite (sf_num_n _ _ F); lia|rewrite (sf_num_m _ _ F); lia|]. cbn [bind].
  set (Q := fun i j => P i j \/ in_block n0 m0 n1 m1 i j).
  assert (DQ : forall i j, Q i j \/ ~ Q i j) 
    by (intros i j; unfold Q; destruct (D i j); assert (in_block n0 m0 n1 m1 i j \/ ~ in_block n0 m0 n1 m1 i j) by (unfold in_block; lia); tauto).
  assert (SR : shows_region g k Q).
  { split; [eapply sf_trans; eauto|]. split.
    - intros i j Hij Hq. assert (DB : in_block n0 m0 n1 m1 i j \/ ~ in_block n0 m0 n1 m1 i j) by (unfold in_block; lia).
      destruct DB as [DB|DB].
      + rewrite (proj1 (Hi2 i j DB)). apply Hb; auto.
      + rewrite Ho2 by auto. apply Hin; auto. destruct Hq; tauto.
    - intros i j Hij Hq. unfold Q in Hq. rewrite Ho2 by tauto. apply Hout; tauto. }
  assert (Hcl2 : clean k) by (eapply region_is_clean; eauto).
  destruct SR as (F3 & Hin3 & Hout3).
  destruct (types_clean k) as (k' & -> & F4 & _ & Ev4 & _ & _); [eapply sf_gwf; eauto|auto|]. cbn [bind].
  eexists _, _. split; [reflexivity|]. split; [eapply sf_trans; eauto|]. split.
  - intros i j Hij Hq. rewrite Ev4 by (apply (sf_shown g k); auto). apply Hin3; auto.
  - intros i j Hij Hq. rewrite Ev4 by (apply (sf_shown g k); auto). apply Hout3; auto.
Qed.

(** A region made of rectangles with at least one cell each. *)
Lemma rect_clean g (P : nat -> nat -> Prop) :
  (forall i j, shown g i j -> P i j ->
     exists a b c d, a < b < num_n g /\ c < d < num_m g /\ a <= i <= b /\ c <= j <= d /\
       forall x y, a <= x <= b -> c <= y <= d -> P x y) -> region_clean g P.
Proof.
  intros HP i j Hs Hp. destruct (HP i j Hs Hp) as (a & b & c & d & Hab & Hcd & Hi & Hj & Hr).
  assert (Ei : exists n, a <= n /\ n + 1 <= b /\ (i = n \/ i = n + 1)).
  { destruct (le_lt_dec i a); [exists a|exists (i - 1)]; lia. }
  assert (Ej : exists m, c <= m /\ m + 1 <= d /\ (j = m \/ j = m + 1)).
  { destruct (le_lt_dec j c); [exists c|exists (j - 1)]; lia. }
  destruct Ei as (n & ? & ? & ?), Ej as (m & ? & ? & ?).
  exists n, m. unfold corner_of. repeat split; try lia; apply Hr; lia.
Qed.

Lemma delete_exterior_undo g ll ur : gwf g -> full g -> shown g (fst ur) (snd ur) -> fst ll < fst ur -> snd ll < snd ur ->
  (num_m g <= snd ur + 1 \/ snd ur + 3 <= num_m g \/ (fst ll = 0 /\ fst ur + 1 = num_n g)) ->
  exists h u, delete_exterior g ll ur = Ok (h, u) /\
    shows_region g h (fun i j => fst ll <= i <= fst ur /\ snd ll <= j <= snd ur) /\
    exists u' k, undo_grid u h = Ok (u', k) /\ same_view g k.
Proof.
  destruct ll as [li lj], ur as [ui uj]. cbn [fst snd]. intros H Hf [Hui Huj] Hi Hj Hw. unfold delete_exterior.
  destruct (block_copy_ok g 0 0 (num_n g) lj H) as (b1 & -> & _ & _ & B1); [lia|lia|]. cbn [bind].
  destruct (block_copy_ok g 0 lj li (uj + 1) H) as (b2 & -> & _ & _ & B2); [lia|lia|]. cbn [bind].
  destruct (block_copy_ok g ui lj (num_n g) (uj + 1) H) as (b3 & -> & _ & _ & B3); [lia|lia|]. cbn [bind].
  destruct (block_copy_ok g 0 (uj + 1) (num_n g) (num_m g) H) as (b4 & -> & _ & _ & B4); [lia|lia|]. cbn [bind].
  assert (Inv : forall h P l, shows_region g h P -> (forall i j, In (i, j) l -> shown g i j) ->
     exists h', invalidate h l = Ok h' /\ shows_region g h' (fun i j => P i j /\ ~ In (i, j) l)).
  { intros h P l (F & Hin & Hout) Hl. destruct (invalidate_ok h l) as (h' & E & F' & _ & Hi' & Ho').
    - eapply sf_gwf; eauto.
    - intros n m Hnm. apply (sf_shown g h); auto.
    - exists h'. split; auto. split; [eapply sf_trans; eauto|]. split.
      + intros i j Hij [Hp Hn]. rewrite Ho' by auto. apply Hin; auto.
      + intros i j Hij Hn. destruct (in_dec gindex_dec (i, j) l) as [Hx|Hx]; [apply Hi'; auto|].
        rewrite Ho' by auto. apply Hout; auto. }
  assert (R0 : shows_region g g (fun _ _ => True)) by (split; [apply sf_refl|split; [auto|tauto]]).
  assert (Sh : forall n0 n1 m0 m1, n1 <= num_n g -> m1 <= num_m g -> forall i j, In (i, j) (pairs n0 n1 m0 m1) -> shown g i j).
  { intros n0 n1 m0 m1 A B i j Hin. apply in_pairs in Hin. split; lia. }
  destruct (Inv _ _ (pairs 0 (num_n g) 0 lj) R0) as (h1 & -> & R1); [apply Sh; lia|]. cbn [bind].
  destruct (Inv _ _ (pairs 0 li lj (uj + 1)) R1) as (h2 & -> & R2); [apply Sh; lia|]. cbn [bind].
  destruct (Inv _ _ (pairs (ui + 1) (num_n g) lj (uj + 1)) R2) as (h3 & -> & R3); [apply Sh; lia|]. cbn [bind].
  destruct (Inv _ _ (pairs 0 (num_n g) (uj + 1) (num_m g)) R3) as (h4 & -> & R4); [apply Sh; lia|]. cbn [bind].
  eexists _, _. split; [reflexivity|].
  assert (R : shows_region g h4 (fun i j => li <= i <= ui /\ lj <= j <= uj)).
  { destruct R4 as (F & Hin & Hout). split; [auto|]. split.
    - intros i j Hij Hp. apply Hin; auto. rewrite !in_pairs. destruct Hij. lia.
    - intros i j Hij Hp. apply Hout; auto. rewrite !in_pairs. destruct Hij. lia. }
  clear R1 R2 R3 R4 R0. split; [exact R|].
  unfold undo_grid. cbn [restore_act bind].
  destruct (undo_block g h4 _ 0 (uj + 1) (num_n g) (num_m g) b4 H Hf R) as (x4 & k4 & E4 & R4); [intros; lia|lia|lia|intros i j [? ?]; apply B4; auto| |].
  { apply rect_clean. intros i j [Hi1 Hj1] Hp. unfold in_block in *.
    destruct (le_lt_dec (uj + 1) j) as [Hj2|Hj2].
    - destruct Hw as [Hw|[Hw|[Hw1 Hw2]]]; [lia| |].
      + exists 0, (num_n g - 1), (uj + 1), (num_m g - 1). repeat split; try lia; intros x y ? ?; lia.
      + exists 0, (num_n g - 1), uj, (num_m g - 1). repeat split; try lia; intros x y ? ?; lia.
    - exists li, ui, lj, uj. repeat split; try lia; intros x y ? ?; lia. }
  rewrite E4. cbn [bind].
  destruct (undo_block g k4 _ ui lj (num_n g) (uj + 1) b3 H Hf R4) as (x3 & k3 & E3 & R3); [intros; unfold in_block; lia|lia|lia|intros i j [? ?]; apply B3; auto| |].
  { apply rect_clean. intros i j [Hi1 Hj1] Hp. unfold in_block in *.
    destruct (le_lt_dec (uj + 1) j) as [Hj2|Hj2].
    - destruct Hw as [Hw|[Hw|[Hw1 Hw2]]]; [lia| |].
      + exists 0, (num_n g - 1), (uj + 1), (num_m g - 1). repeat split; try lia; intros x y ? ?; lia.
      + exists 0, (num_n g - 1), uj, (num_m g - 1). repeat split; try lia; intros x y ? ?; lia.
    - exists li, (num_n g - 1), lj, uj. repeat split; try lia; intros x y ? ?; lia. }
  rewrite E3. cbn [bind].
  destruct (undo_block g k3 _ 0 lj li (uj + 1) b2 H Hf R3) as (x2 & k2 & E2 & R2); [intros; unfold in_block; lia|lia|lia|intros i j [? ?]; apply B2; auto| |].
  { apply rect_clean. intros i j [Hi1 Hj1] Hp. unfold in_block in *.
    exists 0, (num_n g - 1), lj, (num_m g - 1). repeat split; try lia; intros x y ? ?; lia. }
  rewrite E2. cbn [bind].
  destruct (undo_block g k2 _ 0 0 (num_n g) lj b1 H Hf R2) as (x1 & k1 & E1 & R1); [intros; unfold in_block; lia|lia|lia|intros i j [? ?]; apply B1; auto| |].
  { apply rect_clean. intros i j [Hi1 Hj1] Hp. unfold in_block in *.
    exists 0, (num_n g - 1), 0, (num_m g - 1). repeat split; try lia; intros x y ? ?; lia. }
  rewrite E1. cbn [bind]. eexists _, _. split; [reflexivity|].
  destruct R1 as (F1 & Hin1 & _). apply sf_same_view; auto. intros i j [Hi1 Hj1]. apply Hin1; [split; auto|]. unfold in_block. lia.
Qed.

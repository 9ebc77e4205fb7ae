(** The statements about grids in the form in which the properties use them. *)
From Verif Require Import Base BaseLemmas FloatModel UtilModel UtilProofs UndoModel ActionModel GridModel GridSpec GridProofs GridClean GridEdits GridLines GridFace
  GridRefine.

(** *** C25 *)
Lemma unstructured_view g : gwf g -> exists nodes edges,
  compute_nodes g = Ok nodes /\ compute_edges g = Ok edges /\
  length nodes = num_n g * num_m g /\ (forall n m, shown g n m -> nth_error nodes (number g (n, m)) = Some (vis g n m)) /\
  length edges = (num_n g - 1) * num_m g + num_n g * (num_m g - 1) /\
  (forall a b, In (a, b) edges \/ In (b, a) edges <->
     exists p q, shown2 g p /\ shown2 g q /\ neighbours p q /\ a = number g p /\ b = number g q) /\
  NoDup edges /\ (forall a b, In (a, b) edges -> ~ In (b, a) edges).
Proof.
  intros W. eexists _, _. split; [apply compute_nodes_ok; auto|]. split; [apply compute_edges_ok; auto|].
  split; [rewrite map_length, pairs_length; lia|]. split.
  { intros n m Hs. pose proof (proj2 (node_list_spec g _ n m) (conj Hs eq_refl)) as E. unfold gindex in *. rewrite nth_error_map, E. reflexivity. }
  split; [apply edges_length|]. split.
  { intros a b. rewrite !in_edges. split.
    - intros [(n & m & n' & m' & H1 & H2 & -> & -> & D)|(n & m & n' & m' & H1 & H2 & -> & -> & D)].
      + exists (n, m), (n', m'). unfold neighbours. cbn [fst snd]. repeat split; try apply H1; try apply H2. lia.
      + exists (n', m'), (n, m). unfold neighbours. cbn [fst snd]. repeat split; try apply H1; try apply H2. lia.
    - intros ([n m] & [n' m'] & H1 & H2 & D & -> & ->). unfold neighbours, shown2 in *. cbn [fst snd] in *.
      assert (C : (n' = n + 1 /\ m' = m \/ n' = n /\ m' = m + 1) \/ (n = n' + 1 /\ m = m' \/ n = n' /\ m = m' + 1)) by lia.
      destruct C as [C|C]; [left; exists n, m, n', m'|right; exists n', m', n, m]; auto 8. }
  split; [apply edges_nodup; auto|].
  intros a b Hab Hba. apply in_edges in Hab as (n & m & n' & m' & H1 & H2 & -> & E & D), Hba as (k & l & k' & l' & H3 & H4 & E' & E2 & D').
  subst. apply number_inj in E'; [|auto|auto]. apply number_inj in E2; [|auto|auto]. injection E' as -> ->. injection E2 as -> ->. lia.
Qed.

Lemma edge_indices_agree g : gwf g -> exists l,
  compute_edge_indices g = Ok l /\ compute_edges g = Ok (map (fun e => (number g (fst e), number g (snd e))) l).
Proof.
  intros W. rewrite compute_edges_ok by auto. unfold compute_edge_indices.
  set (V := pairs 0 (num_n g - 1) 0 (num_m g)). set (H := pairs 0 (num_n g) 0 (num_m g - 1)).
  assert (LV : length V = (num_n g - 1) * num_m g) by (unfold V; rewrite pairs_length; lia).
  assert (LH : length H = num_n g * (num_m g - 1)) by (unfold H; rewrite pairs_length; lia).
  assert (R : repeat ((0, 0), (0, 0)) (num_edges g) = repeat ((0, 0), (0, 0)) (length V) ++ repeat ((0, 0), (0, 0)) (length H)).
  { rewrite <- repeat_app. f_equal. unfold num_edges. rewrite LV, LH. lia. }
  pose proof (fold_next (fun ij : gindex => ((fst ij, snd ij), (fst ij + 1, snd ij)))
    (fun acc ij => write_next acc ((fst ij, snd ij), (fst ij + 1, snd ij))) V ltac:(auto) [] (repeat ((0, 0), (0, 0)) (num_edges g))) as E1.
  cbn [app length] in E1. unfold gindex in *. rewrite E1 by (rewrite repeat_length; unfold num_edges; lia). clear E1. cbn [bind]. rewrite ?Nat.add_0_l.
  rewrite R, skipn_app, repeat_length, Nat.sub_diag, (skipn_all2 (repeat _ (length V))) by (rewrite repeat_length; lia). cbn [app skipn].
  pose proof (fold_next (fun ij : gindex => ((fst ij, snd ij), (fst ij, snd ij + 1)))
    (fun acc ij => write_next acc ((fst ij, snd ij), (fst ij, snd ij + 1))) H ltac:(auto)
    (map (fun ij : gindex => ((fst ij, snd ij), (fst ij + 1, snd ij))) V) (repeat ((0, 0), (0, 0)) (length H))) as E2.
  rewrite map_length in E2. unfold gindex in *. rewrite E2 by (rewrite repeat_length; lia). cbn [bind fst].
  eexists. split; [reflexivity|].
  rewrite skipn_all2 by (rewrite repeat_length; lia). rewrite app_nil_r, map_app, !map_map. unfold vertical, horizontal, number. cbn [fst snd].
  f_equal. f_equal; apply map_ext; intros [n m]; cbn [fst snd]; f_equal; lia.
Qed.

(** *** C26 *)
Lemma stray_nodes_gone g fuel : gwf g -> exists h,
  remove_invalid (S (S fuel)) true g = Ok h /\ num_n h = num_n g /\ num_m h = num_m g /\
  (forall i j, shown g i j -> (is_valid (vis h i j) = true <-> in_cell g i j) /\ (in_cell g i j -> vis h i j = vis g i j)) /\
  (forall n m, complete h n m <-> complete g n m) /\
  exists k, remove_invalid (S (S fuel)) true h = Ok k /\ same_view h k.
Proof.
  intros W. destruct (remove_invalid_ok g fuel W) as (h & E & F & _ & _ & S & _). exists h. split; [exact E|].
  split; [apply sf_num_n; auto|]. split; [apply sf_num_m; auto|].
  assert (V : forall i j, in_cell g i j -> is_valid (vis g i j) = true).
  { intros i j (a & b & (_ & _ & C1 & C2 & C3 & C4) & [[->| ->] [->| ->]]); auto. }
  split.
  { intros i j Hs. split; [|apply S; auto]. split; [apply swept_valid; auto|]. intros Hc. rewrite (proj1 (S i j Hs) Hc). auto. }
  split; [intros; apply swept_complete; auto|].
  assert (Wh : gwf h) by (eapply sf_gwf; eauto). destruct (remove_invalid_ok h fuel Wh) as (k & Ek & Fk & _ & _ & Sk & _). exists k. split; [exact Ek|].
  apply sf_same_view; auto. apply swept_clean; auto. eapply swept_is_clean; eauto.
Qed.

Lemma node_types_view g : gwf g -> exists h, compute_node_types g = Ok h /\
  num_n h = num_n g /\ num_m h = num_m g /\
  (forall i j, shown g i j -> (is_valid (vis h i j) = true <-> in_cell g i j) /\ (in_cell g i j -> vis h i j = vis g i j)) /\
  (forall n m, complete h n m <-> complete g n m).
Proof.
  intros W. destruct (compute_node_types_ok g W) as (h & E & F & _ & S & _). exists h. split; [exact E|].
  split; [apply sf_num_n; auto|]. split; [apply sf_num_m; auto|].
  assert (V : forall i j, in_cell g i j -> is_valid (vis g i j) = true).
  { intros i j (a & b & (_ & _ & C1 & C2 & C3 & C4) & [[->| ->] [->| ->]]); auto. }
  split.
  { intros i j Hs. split; [|apply S; auto]. split; [apply swept_valid; auto|]. intros Hc. rewrite (proj1 (S i j Hs) Hc). auto. }
  intros; apply swept_complete; auto.
Qed.

(** Undo and redo any number of times *)
Lemma same_view_sym g h : same_view g h -> same_view h g.
Proof. intros (A & B & C). split; [congruence|]. split; [congruence|]. intros n m Hn Hm. symmetry. apply C; congruence. Qed.
Lemma put_view x y n m p : same_view x y -> same_view (put_node x n m p) (put_node y n m p).
Proof.
  intros (A & B & C). split; [exact A|]. split; [exact B|]. intros a b Ha Hb. destruct (gindex_dec (a, b) (n, m)) as [E|E].
  - injection E as -> ->. rewrite !vis_put_same. reflexivity.
  - rewrite !vis_put_other by auto. apply C; assumption.
Qed.
Lemma put_back g n m p : shown g n m -> same_view g (put_node (put_node g n m p) n m (vis g n m)).
Proof.
  intros Hs. split; [reflexivity|]. split; [reflexivity|]. intros a b Ha Hb. destruct (gindex_dec (a, b) (n, m)) as [E|E].
  - injection E as -> ->. rewrite vis_put_same. reflexivity.
  - rewrite !vis_put_other by auto. reflexivity.
Qed.
Lemma put_twice g n m p q : same_view (put_node g n m q) (put_node (put_node g n m p) n m q).
Proof.
  split; [reflexivity|]. split; [reflexivity|]. intros a b Ha Hb. destruct (gindex_dec (a, b) (n, m)) as [E|E].
  - injection E as -> ->. rewrite !vis_put_same. reflexivity.
  - rewrite !vis_put_other by auto. reflexivity.
Qed.
Lemma view_shown x y n m : same_view x y -> shown x n m -> shown y n m.
Proof. intros (A & B & _) [Hn Hm]. split; congruence. Qed.
Lemma node_set_ok x n m p y : gwf x -> shown x n m -> clean y -> same_view y (put_node x n m p) ->
  exists k, (let! x := set_node x n m p in compute_node_types x) = Ok k /\ gwf k /\ same_view y k.
Proof.
  intros W Hs C V. rewrite set_node_ok by auto. cbn [bind]. assert (F : same_frame x (put_node x n m p)) by apply sf_put.
  destruct (types_clean (put_node x n m p)) as (k & E & F2 & _ & Ev & _); [eapply sf_gwf; eauto|eapply view_clean; eauto|]. exists k. split; [exact E|].
  split; [eapply sf_gwf; [exact F2|]; eapply sf_gwf; eauto|]. eapply same_view_trans; [exact V|]. apply sf_same_view; auto.
Qed.
Lemma node_reversible g h n m : gwf g -> clean g -> shown g n m -> clean (put_node g n m missing_point) -> gwf h -> same_view (put_node g n m missing_point) h ->
  reversible (Leaf Committed (ResetNode n m (vis g n m) missing_point true)) g h.
Proof.
  intros W C Hs C' Wh V.
  apply (alternate (fun u x => gwf x /\ same_view (put_node g n m missing_point) x /\ u = Leaf Committed (ResetNode n m (vis g n m) missing_point true))); [|auto].
  intros u x (Wx & Vx & ->). split; [eapply same_view_trans; [apply same_view_sym; exact V|exact Vx]|].
  destruct (node_set_ok x n m (vis g n m) g Wx (view_shown _ _ _ _ Vx Hs) C) as (y & Ey & Wy & Vy).
  { eapply same_view_trans; [apply put_back; exact Hs|]. apply put_view. exact Vx. }
  assert (Ey' : grid_restore (ResetNode n m (vis g n m) missing_point true) x = Ok (ResetNode n m (vis g n m) missing_point true, y)).
  { cbn [grid_restore]. destruct (set_node x n m (vis g n m)) as [x1|e|]; cbn [bind] in *; try discriminate. rewrite Ey. reflexivity. }
  unfold undo_grid. cbn [restore_act]. rewrite Ey'. cbn [bind]. eexists _, _. split; [reflexivity|]. split; [exact Vy|].
  destruct (node_set_ok y n m missing_point (put_node g n m missing_point) Wy (view_shown _ _ _ _ Vy Hs) C') as (z & Ez & Wz & Vz).
  { apply put_view. exact Vy. }
  assert (Ez' : grid_commit (ResetNode n m (vis g n m) missing_point true) y = Ok (ResetNode n m (vis g n m) missing_point true, z)).
  { cbn [grid_commit]. destruct (set_node y n m missing_point) as [y1|e|]; cbn [bind] in *; try discriminate. rewrite Ez. reflexivity. }
  unfold redo_grid. cbn [commit_act]. rewrite Ez'. cbn [bind]. eexists _, _. split; [reflexivity|]. auto.
Qed.

Lemma swap_ok n0 m0 n1 m1 b x g : gwf x -> n1 <= num_n x -> m1 <= num_m x -> clean g -> num_n g = num_n x -> num_m g = num_m x ->
  (forall i j, in_block n0 m0 n1 m1 i j -> entry b (i - n0) (j - m0) = vis g i j) -> (forall i j, shown g i j -> ~ in_block n0 m0 n1 m1 i j -> vis x i j = vis g i j) ->
  exists b' y, swap_block_action n0 m0 n1 m1 b x = Ok (BlockOf n0 m0 n1 m1 b', y) /\ gwf y /\ same_view g y /\
    forall i j, in_block n0 m0 n1 m1 i j -> entry b' (i - n0) (j - m0) = vis x i j.
Proof.
  intros W Hn Hm C N M B O. unfold swap_block_action. destruct (block_swap_ok x b n0 m0 n1 m1 W Hn Hm) as (b' & k & -> & F & _ & Hi & Ho). cbn [bind].
  assert (V : same_view g k).
  { split; [rewrite (sf_num_n _ _ F); exact N|]. split; [rewrite (sf_num_m _ _ F); exact M|]. intros i j Hi' Hj'.
    assert (D : in_block n0 m0 n1 m1 i j \/ ~ in_block n0 m0 n1 m1 i j) by (unfold in_block; lia). destruct D as [D|D].
    - rewrite (proj1 (Hi i j D)). symmetry. apply B; exact D.
    - rewrite Ho by exact D. symmetry. apply O; [split|]; assumption. }
  assert (Wk : gwf k) by (eapply sf_gwf; eauto). destruct (types_clean k Wk (view_clean _ _ V C)) as (y & -> & F2 & _ & Ev & _). cbn [bind].
  exists b', y. split; [reflexivity|]. split; [eapply sf_gwf; eauto|]. split; [eapply same_view_trans; [exact V|]; apply sf_same_view; auto|]. intros i j D. apply (Hi i j D).
Qed.
Lemma block_reversible n0 m0 n1 m1 b g h : gwf h -> clean g -> clean h -> num_n g = num_n h -> num_m g = num_m h -> n1 <= num_n g -> m1 <= num_m g ->
  (forall i j, in_block n0 m0 n1 m1 i j -> entry b (i - n0) (j - m0) = vis g i j) -> (forall i j, shown g i j -> ~ in_block n0 m0 n1 m1 i j -> vis h i j = vis g i j) ->
  reversible (Leaf Committed (BlockOf n0 m0 n1 m1 b)) g h.
Proof.
  intros W Cg Ch N M Hn Hm B O.
  apply (alternate (fun u x => gwf x /\ same_view h x /\ exists b, u = Leaf Committed (BlockOf n0 m0 n1 m1 b) /\ forall i j, in_block n0 m0 n1 m1 i j -> entry b (i - n0) (j - m0) = vis g i j));
    [|split; [exact W|]; split; [apply same_view_refl|]; eauto].
  intros u x (Wx & Vx & b0 & -> & B0). split; [exact Vx|]. destruct Vx as (X1 & X2 & X3).
  destruct (swap_ok n0 m0 n1 m1 b0 x g Wx ltac:(lia) ltac:(lia) Cg ltac:(lia) ltac:(lia) B0) as (b1 & y & Ey & Wy & Vy & B1).
  { intros i j [Hi Hj] D. rewrite <- X3 by lia. apply O; [split|]; assumption. }
  unfold undo_grid. cbn [restore_act grid_restore]. rewrite Ey. cbn [bind]. eexists _, _. split; [reflexivity|]. split; [exact Vy|]. destruct Vy as (Y1 & Y2 & Y3).
  destruct (swap_ok n0 m0 n1 m1 b1 y h Wy ltac:(lia) ltac:(lia) Ch ltac:(lia) ltac:(lia)) as (b2 & z & Ez & Wz & Vz & B2).
  { intros i j D. rewrite B1 by exact D. symmetry. destruct D. apply X3; lia. }
  { intros i j [Hi Hj] D. rewrite <- Y3 by lia. symmetry. apply O; [split; lia|exact D]. }
  unfold redo_grid. cbn [commit_act grid_commit]. rewrite Ez. cbn [bind]. eexists _, _. split; [reflexivity|]. split; [exact Wz|]. split; [exact Vz|].
  exists b2. split; [reflexivity|]. intros i j D. rewrite B2 by exact D. destruct D. symmetry. apply Y3; lia.
Qed.

(** *** C28 *)
Lemma interior_view g ll ur : gwf g -> shown2 g ur -> exists h u,
  delete_interior g ll ur = Ok (h, u) /\ num_n h = num_n g /\ num_m h = num_m g /\
  (forall i j, shown g i j -> vis h i j = if (fst ll <? i) && (i <? fst ur) && (snd ll <? j) && (j <? snd ur) then missing_point else vis g i j) /\
  (clean g -> exists u' k, undo_grid u h = Ok (u', k) /\ same_view g k) /\ (clean g -> clean h -> reversible u g h).
Proof.
  intros W Hs. destruct (delete_interior_ok g ll ur W Hs) as (h & b & E & F & _ & H1 & H2 & H3). eexists _, _. split; [exact E|].
  split; [apply sf_num_n; auto|]. split; [apply sf_num_m; auto|]. split.
  - intros i j Hij. destruct ((fst ll <? i) && (i <? fst ur) && (snd ll <? j) && (j <? snd ur)) eqn:Eb.
    + rewrite !andb_true_iff, !Nat.ltb_lt in Eb. apply H1; auto; lia.
    + apply H2. intros C. assert (Q : (fst ll <? i) && (i <? fst ur) && (snd ll <? j) && (j <? snd ur) = true) by (rewrite !andb_true_iff, !Nat.ltb_lt; lia).
      congruence.
  - split. { intros C. destruct (delete_interior_undo g ll ur W C Hs) as (h' & u' & E' & U). rewrite E in E'. injection E' as <- <-. exact U. }
    intros C C'. destruct Hs as [Hs1 Hs2]. apply block_reversible; auto; [eapply sf_gwf; eauto|symmetry; apply sf_num_n; auto|symmetry; apply sf_num_m; auto|lia|lia|].
    intros i j Hij D. apply H2. unfold in_block in D. lia.
Qed.

Lemma node_view g n m : gwf g -> clean g -> gindices g = pairs 0 (num_n g) 0 (num_m g) -> shown g n m -> clean (put_node g n m missing_point) ->
  exists h u, delete_node g (number g (n, m)) = Ok (h, u) /\ num_n h = num_n g /\ num_m h = num_m g /\
    (forall i j, shown g i j -> vis h i j = if (i =? n) && (j =? m) then missing_point else vis g i j) /\
    reversible u g h.
Proof.
  intros W C G Hs C'.
  assert (E : nth_error (gindices g) (number g (n, m)) = Some (n, m)) by (rewrite G; apply node_list_spec; auto).
  destruct (delete_node_undo g (number g (n, m)) W C G n m E C') as (h & u & Ed & Eu & Wh & (V1 & V2 & V3)).
  exists h, u. split; [exact Ed|]. split; [rewrite <- V1; reflexivity|]. split; [rewrite <- V2; reflexivity|]. split; [|rewrite Eu; apply node_reversible; auto; split; auto].
  intros i j [Hi Hj]. rewrite <- V3 by auto. destruct (Nat.eqb_spec i n), (Nat.eqb_spec j m); cbn [andb].
  - subst. apply vis_put_same.
  - apply vis_put_other. congruence.
  - apply vis_put_other. congruence.
  - apply vis_put_other. congruence.
Qed.

Lemma exterior_view g ll ur : gwf g -> full g -> shown2 g ur -> fst ll < fst ur -> snd ll < snd ur ->
  (num_m g <= snd ur + 1 \/ snd ur + 3 <= num_m g \/ (fst ll = 0 /\ fst ur + 1 = num_n g)) ->
  exists h u, delete_exterior g ll ur = Ok (h, u) /\ num_n h = num_n g /\ num_m h = num_m g /\
    (forall i j, shown g i j -> vis h i j =
       if (fst ll <=? i) && (i <=? fst ur) && (snd ll <=? j) && (j <=? snd ur) then vis g i j else missing_point) /\
    exists u' k, undo_grid u h = Ok (u', k) /\ same_view g k.
Proof.
  intros W F Hs H1 H2 H3. destruct (delete_exterior_undo g ll ur W F Hs H1 H2 H3) as (h & u & E & (Fr & A & B) & U).
  exists h, u. split; [exact E|]. split; [apply sf_num_n; auto|]. split; [apply sf_num_m; auto|]. split; [|exact U].
  intros i j Hij. destruct ((fst ll <=? i) && (i <=? fst ur) && (snd ll <=? j) && (j <=? snd ur)) eqn:Eb.
  - rewrite !andb_true_iff, !Nat.leb_le in Eb. apply A; auto. lia.
  - apply B; auto. intros C. assert (Q : (fst ll <=? i) && (i <=? fst ur) && (snd ll <=? j) && (j <=? snd ur) = true) by (rewrite !andb_true_iff, !Nat.leb_le; lia).
    congruence.
Qed.

(** *** C30 *)
Lemma add_line_view junk g a b h u : gwf g -> clean g -> hidden_missing g -> add_grid_line junk g a b = Ok (h, Some u) ->
  exists t, num_n h = num_n g + lines_n t 1 /\ num_m h = num_m g + lines_m t 1 /\
    (forall c, shown2 g c -> vis2 h (shift t 1 c) = vis2 g c) /\
    (forall c, shown2 h c -> (forall d, shown2 g d -> c <> shift t 1 d) -> is_valid (vis2 h c) = false) /\
    reversible u g h.
Proof.
  intros W C H E. pose proof E as E'. apply add_grid_line_inv in E' as (t & _ & Eg & -> & _).
  destruct (grown_line junk t g h W C H Eg) as [_ G1 G2 G3 G4 _]. exists t. do 4 (split; [auto|]).
  destruct (grow_reversible junk t g W C H) as (h' & Eg' & _ & _ & _ & _ & R). rewrite Eg in Eg'. injection Eg' as <-. exact R.
Qed.

(** *** C29 *)
Lemma derefine_all g ll ur : gwf g -> clean g -> no_hidden g -> shown2 g ur -> fst ll <= fst ur -> snd ll <= snd ur ->
  exists h u, derefine g ll ur = Ok (h, u) /\
    num_n h = num_n g - (fst ur - fst ll - 1) /\ num_m h = num_m g - (snd ur - snd ll - 1) /\
    (forall i j, shown h i j -> vis h i j = vis g (kept (fst ll) (fst ur) i) (kept (snd ll) (snd ur) j)) /\
    exists u' k, undo_grid u h = Ok (u', k) /\ same_view g k.
Proof.
  intros W C N S H1 H2. destruct (derefine_view g ll ur W N S H1 H2) as (h & u & E & V). exists h, u. split; [exact E|].
  destruct V as (V1 & V2 & V3). do 3 (split; [auto|]).
  destruct (derefine_ok g ll ur W S H1 H2) as (h' & E' & _). rewrite E in E'. injection E' as _ ->. apply refinement_undo; auto.
Qed.

Lemma refine_all cell g ll ur r : gwf g -> clean g -> no_hidden g -> shown2 g ur -> fst ll <= fst ur -> snd ll <= snd ur ->
  (snd ll = snd ur \/ fst ll = fst ur) -> 1 <= r ->
  let rn c := if (fst ll <=? c) && (c <? fst ur) then r else 1 in
  let rm c := if (snd ll <=? c) && (c <? snd ur) then r else 1 in
  (forall n m, complete g n m -> corners_kept g n m (rn n) (rm m) (cell n m)) ->
  exists h u, refine cell g ll ur r = Ok (h, u) /\
    num_n h = num_n g + (fst ur - fst ll) * (r - 1) /\ num_m h = num_m g + (snd ur - snd ll) * (r - 1) /\
    (forall n m, in_cell g n m -> vis h (moved (fst ll) (fst ur) r n) (moved (snd ll) (snd ur) r m) = vis g n m) /\
    (forall a b, shown h a b ->
       let pn := moved (fst ll) (fst ur) r in let pm := moved (snd ll) (snd ur) r in
       (exists c d, complete g c d /\ pn c <= a <= pn (c + 1) /\ pm d <= b <= pm (d + 1) /\ vis h a b = cell c d (a - pn c) (b - pm d)) \/
       ((forall c d, complete g c d -> ~ (pn c <= a <= pn (c + 1) /\ pm d <= b <= pm (d + 1))) /\ vis h a b = missing_point)) /\
    exists u' k, undo_grid u h = Ok (u', k) /\ same_view g k.
Proof.
  intros W C N S H1 H2 H3 Hr rn rm Hc. destruct (refine_ok g W N cell ll ur r S H1 H2 H3 Hr Hc) as (h & E & _ & A1 & A2 & A3 & A4).
  exists h, (refinement_action g). do 5 (split; [auto|]). apply refinement_undo; auto.
Qed.

Lemma full_refine_all cell g rm rn : gwf g -> clean g -> no_hidden g -> 1 <= rm -> 1 <= rn -> (rm <> 1 \/ rn <> 1) ->
  (forall n m, complete g n m -> corners_kept g n m rn rm (cell n m)) ->
  exists h u, full_refine cell g rm rn = Ok (h, Some u) /\
    num_n h = (num_n g - 1) * rn + 1 /\ num_m h = (num_m g - 1) * rm + 1 /\
    (forall n m, in_cell g n m -> vis h (n * rn) (m * rm) = vis g n m) /\
    (forall a b, shown h a b ->
       (exists c d, complete g c d /\ c * rn <= a <= (c + 1) * rn /\ d * rm <= b <= (d + 1) * rm /\ vis h a b = cell c d (a - c * rn) (b - d * rm)) \/
       ((forall c d, complete g c d -> ~ (c * rn <= a <= (c + 1) * rn /\ d * rm <= b <= (d + 1) * rm)) /\ vis h a b = missing_point)) /\
    exists u' k, undo_grid u h = Ok (u', k) /\ same_view g k.
Proof.
  intros W C N H1 H2 H3 Hc. destruct (full_refine_ok g W N cell rm rn H1 H2 H3 Hc) as (h & E & _ & A1 & A2 & A3 & A4).
  exists h, (refinement_action g). do 5 (split; [auto|]). apply refinement_undo; auto.
Qed.

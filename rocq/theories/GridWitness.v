(** Concrete grids: cases meeting the hypotheses of the theorems, and counterexamples. *)
From Verif Require Import Base BaseLemmas FloatModel UtilModel UndoModel ActionModel GridModel GridSpec GridProofs GridClean GridEdits GridLines GridRefine GridMain.

Definition num (k : nat) : double := double_of (Z.of_nat k) 0.
Definition at_ (x y : nat) : point := Pt (num x) (num y).

(** A grid with [r] rows and [c] columns of nodes [f n m]; [start] and [stop] rows are hidden. *)
Definition make (p : projection) (r c : nat) (f : nat -> nat -> point) (sn sm en em : nat) : grid :=
  let g := Grid p (Matrix r c f) (Matrix 0 0 (fun _ _ => false)) (Matrix 0 0 (fun _ _ => Invalid)) [] sn sm en em in
  set_gindices g (pairs 0 (num_n g) 0 (num_m g)).
Definition plain (r c : nat) : grid := make Cartesian r c at_ 0 0 0 0.

(** *** Deciding cleanliness *)
Definition completeb' (g : grid) (n m : nat) : bool := (n + 1 <? num_n g) && (m + 1 <? num_m g) && completeb g n m.
Definition in_cellb (g : grid) (i j : nat) : bool :=
  completeb' g i j || ((1 <=? i) && completeb' g (i - 1) j) || ((1 <=? j) && completeb' g i (j - 1)) ||
  ((1 <=? i) && (1 <=? j) && completeb' g (i - 1) (j - 1)).
Definition cleanb (g : grid) : bool :=
  forallb (fun ij => negb (is_valid (vis g (fst ij) (snd ij))) || in_cellb g (fst ij) (snd ij)) (pairs 0 (num_n g) 0 (num_m g)).
Definition fullb (g : grid) : bool := forallb (fun ij => is_valid (vis g (fst ij) (snd ij))) (pairs 0 (num_n g) 0 (num_m g)).
Definition hiddenb (g : grid) : bool :=
  forallb (fun ij => ((start_n g <=? fst ij) && (fst ij <? start_n g + num_n g) && (start_m g <=? snd ij) && (snd ij <? start_m g + num_m g)) ||
                     negb (is_valid (entry (gnodes g) (fst ij) (snd ij)))) (pairs 0 (mrows (gnodes g)) 0 (mcols (gnodes g))).

Lemma completeb'_ok g n m : completeb' g n m = true -> complete g n m.
Proof. unfold completeb'. rewrite !andb_true_iff, !Nat.ltb_lt. intros [[A B] C]. apply complete_b. auto. Qed.

Lemma in_cellb_ok g i j : in_cellb g i j = true -> in_cell g i j.
Proof.
  unfold in_cellb. rewrite !orb_true_iff, !andb_true_iff, !Nat.leb_le.
  intros [[[H|[H0 H]]|[H0 H]]|[[H0 H1] H]]; apply completeb'_ok in H; eexists _, _; (split; [exact H|]); split; lia.
Qed.

Lemma cleanb_ok g : cleanb g = true -> clean g.
Proof.
  intros H i j [Hi Hj] V. unfold cleanb in H. rewrite forallb_forall in H. specialize (H (i, j)). cbn [fst snd] in H.
  rewrite V in H. cbn [negb orb] in H. apply in_cellb_ok, H. apply in_pairs. lia.
Qed.
Lemma fullb_ok g : fullb g = true -> full g.
Proof.
  intros H i j [Hi Hj]. unfold fullb in H. rewrite forallb_forall in H. apply (H (i, j)). apply in_pairs. lia.
Qed.
Lemma hiddenb_ok g : hiddenb g = true -> hidden_missing g.
Proof.
  intros H a b Ha Hb N. unfold hiddenb in H. rewrite forallb_forall in H. specialize (H (a, b)). cbn [fst snd] in H.
  rewrite orb_true_iff, negb_true_iff, !andb_true_iff, !Nat.leb_le, !Nat.ltb_lt in H. destruct H as [H|H]; auto; [apply in_pairs; lia|]. lia.
Qed.

(** Grids that are seen to differ. *)
Definition differ_at (g h : grid) (n m : nat) : bool := (n <? num_n g) && (m <? num_m g) && xorb (is_valid (vis g n m)) (is_valid (vis h n m)).
Lemma differ g h n m : differ_at g h n m = true -> ~ same_view g h.
Proof.
  unfold differ_at. rewrite !andb_true_iff, !Nat.ltb_lt. intros [[A B] C] (_ & _ & V). rewrite V in C by auto. destruct (is_valid _); discriminate.
Qed.

(** *** Cases meeting the hypotheses *)
Ltac small := repeat split; try (apply cleanb_ok; vm_compute; reflexivity); try (apply fullb_ok; vm_compute; reflexivity);
  try (apply hiddenb_ok; vm_compute; reflexivity); try (vm_compute; lia); try reflexivity.

Lemma plain44 : gwf (plain 4 4) /\ full (plain 4 4) /\ clean (plain 4 4) /\ hidden_missing (plain 4 4) /\ no_hidden (plain 4 4).
Proof. small. Qed.
Lemma plain23 : gwf (plain 2 3) /\ full (plain 2 3) /\ clean (plain 2 3) /\ hidden_missing (plain 2 3) /\ no_hidden (plain 2 3).
Proof. small. Qed.

(** One row hidden below and one above, one corner missing. *)
Definition hidden_rows : grid :=
  make Spherical 5 4 (fun n m => if (n =? 0) || (n =? 4) || ((n =? 1) && (m =? 3)) then missing_point else at_ n m) 1 0 1 0.
Lemma hidden_rows_ok : gwf hidden_rows /\ clean hidden_rows /\ hidden_missing hidden_rows /\ num_n hidden_rows = 3 /\ ~ full hidden_rows.
Proof.
  split; [small|]. split; [small|]. split; [small|]. split; [reflexivity|]. intros F. specialize (F 0 3 ltac:(split; vm_compute; lia)).
  vm_compute in F. discriminate.
Qed.

(** Stray nodes: a 4 x 4 grid where only the cell (0, 0) is complete *)
Definition stray : grid := make Cartesian 4 4 (fun n m => if (n <=? 1) && (m <=? 1) || (n + m =? 5) then at_ n m else missing_point) 0 0 0 0.
Lemma stray_ok : gwf stray /\ in_cell stray 1 1 /\ ~ in_cell stray 2 3 /\ is_valid (vis stray 2 3) = true.
Proof.
  split; [small|]. split; [apply in_cellb_ok; vm_compute; reflexivity|]. split; [|reflexivity].
  intros (a & b & C & [Ha Hb]). apply complete_b in C as (A & B & C). change (num_n stray) with 4 in A. change (num_m stray) with 4 in B.
  assert (X : a = 1 \/ a = 2) by lia. assert (Y : b = 2) by lia. subst b. destruct X as [-> | ->]; vm_compute in C; discriminate.
Qed.

(** *** Undo that does not give the grid back *)
Definition undo_lost (g : grid) (r : outcome (grid * gact)) (n m : nat) : bool :=
  match r with
  | Ok (h, u) => match undo_grid u h with Ok (_, k) => differ_at g k n m | _ => false end
  | _ => false
  end.
Lemma undo_lost_ok g r n m : undo_lost g r n m = true -> exists h u u' k, r = Ok (h, u) /\ undo_grid u h = Ok (u', k) /\ ~ same_view g k.
Proof.
  unfold undo_lost. destruct r as [[h u]| |]; try discriminate. destruct (undo_grid u h) as [[u' k]| |] eqn:E; try discriminate.
  intros H. exists h, u, u', k. split; [auto|]. split; [auto|]. eapply differ; eauto.
Qed.

Lemma node_undo_lost : exists g i h u u' k, gwf g /\ full g /\ delete_node g i = Ok (h, u) /\ undo_grid u h = Ok (u', k) /\ ~ same_view g k.
Proof.
  exists (plain 2 2), 0. destruct (undo_lost_ok (plain 2 2) (delete_node (plain 2 2) 0) 1 1) as (h & u & u' & k & A & B & C); [vm_compute; reflexivity|].
  exists h, u, u', k. split; [small|]. split; [small|]. auto.
Qed.
Lemma exterior_undo_lost : exists g ll ur h u u' k, gwf g /\ full g /\ fst ll < fst ur /\ snd ll < snd ur /\ shown2 g ur /\
  delete_exterior g ll ur = Ok (h, u) /\ undo_grid u h = Ok (u', k) /\ ~ same_view g k.
Proof.
  exists (plain 4 4), (1, 1), (2, 2).
  destruct (undo_lost_ok (plain 4 4) (delete_exterior (plain 4 4) (1, 1) (2, 2)) 0 3) as (h & u & u' & k & A & B & C); [vm_compute; reflexivity|].
  exists h, u, u', k. split; [small|]. split; [small|]. split; [cbn; lia|]. split; [cbn; lia|]. split; [split; vm_compute; lia|]. auto.
Qed.

(** Redoing the deletion of an interior deletes more than the deletion did. *)
Definition redo_differs (r : outcome (grid * gact)) (n m : nat) : bool :=
  match r with
  | Ok (h, u) =>
      match undo_grid u h with
      | Ok (u', k) => match redo_grid u' k with Ok (_, h') => differ_at h h' n m | _ => false end
      | _ => false
      end
  | _ => false
  end.
Lemma interior_redo_differs : exists g ll ur h u u' k u'' h', gwf g /\ full g /\ shown2 g ur /\
  delete_interior g ll ur = Ok (h, u) /\ undo_grid u h = Ok (u', k) /\ redo_grid u' k = Ok (u'', h') /\ ~ same_view h h'.
Proof.
  exists (plain 3 3), (0, 0), (2, 2).
  assert (E : redo_differs (delete_interior (plain 3 3) (0, 0) (2, 2)) 0 0 = true) by (vm_compute; reflexivity). unfold redo_differs in E.
  destruct (delete_interior (plain 3 3) (0, 0) (2, 2)) as [[h u]| |]; try discriminate.
  destruct (undo_grid u h) as [[u' k]| |] eqn:E1; try discriminate. destruct (redo_grid u' k) as [[u'' h']| |] eqn:E2; try discriminate.
  exists h, u, u', k, u'', h'. split; [small|]. split; [small|]. split; [split; vm_compute; lia|]. do 3 (split; [auto|]). eapply differ; eauto.
Qed.

(** *** C29: with hidden lines *)
Definition top_hidden : grid := make Cartesian 4 3 (fun n m => if n =? 3 then missing_point else at_ n m) 0 0 1 0.
Definition bottom_hidden : grid := make Cartesian 4 3 (fun n m => if n =? 0 then missing_point else at_ n m) 1 0 0 0.
Lemma derefine_hidden : exists g ll ur h u, gwf g /\ full g /\ hidden_missing g /\ shown2 g ur /\ derefine g ll ur = Ok (h, u) /\
  num_n h <> num_n g - (fst ur - fst ll - 1).
Proof.
  exists top_hidden, (0, 0), (2, 0).
  assert (E : match derefine top_hidden (0, 0) (2, 0) with Ok (h, u) => num_n h =? 1 | _ => false end = true) by (vm_compute; reflexivity).
  destruct (derefine top_hidden (0, 0) (2, 0)) as [[h u]| |]; try discriminate. exists h, u.
  split; [small|]. split; [small|]. split; [small|]. split; [split; vm_compute; lia|]. split; [reflexivity|].
  apply Nat.eqb_eq in E. rewrite E. vm_compute. lia.
Qed.
Lemma splines_hidden : exists g, gwf g /\ full g /\ hidden_missing g /\ exists e, grid_splines g = Throw e.
Proof.
  exists bottom_hidden. split; [small|]. split; [small|]. split; [small|].
  assert (E : match grid_splines bottom_hidden with Throw _ => true | _ => false end = true) by (vm_compute; reflexivity).
  destruct (grid_splines bottom_hidden); try discriminate. eauto.
Qed.

(** *** C32 *)
Lemma copy_loses_projection : exists g, gwf g /\ proj (copy_ctor g) <> proj g.
Proof. exists (make Spherical 2 2 at_ 0 0 0 0). split; [small|]. discriminate. Qed.
Lemma copy_shows_hidden : exists g, gwf g /\ num_n (copy_ctor g) <> num_n g.
Proof. exists top_hidden. split; [small|]. vm_compute. discriminate. Qed.
Lemma assign_empty : forall t p, copy_assign t (empty_grid p) = Throw StdErr.
Proof. intros. reflexivity. Qed.

(** *** C58 *)
Definition no_junk : nat -> nat -> point := fun _ _ => missing_point.
(** A bend: the node next to the missing one is not where extrapolation would put it. *)
Definition bend : grid :=
  make Cartesian 3 3 (fun n m => if (n =? 2) && (m =? 2) then missing_point else if (n =? 2) && (m =? 1) then at_ 2 7 else at_ n m) 0 0 0 0.
Definition same_bits (a b : point) : bool := is_equal (px a) (px b) && is_equal (py a) (py b).
Lemma face_moves_node : exists g a b h u c, gwf g /\ clean g /\ hidden_missing g /\ shown2 g a /\ shown2 g b /\ neighbours a b /\
  insert_face no_junk g (Some (a, b)) = Ok (h, u) /\ num_n h = num_n g /\ num_m h = num_m g /\
  is_valid (vis2 g c) = true /\ vis2 h c <> vis2 g c.
Proof.
  exists bend, (1, 1), (1, 2).
  assert (E : match insert_face no_junk bend (Some ((1, 1), (1, 2))) with
              | Ok (h, u) => (num_n h =? 3) && (num_m h =? 3) && negb (same_bits (vis h 2 1) (vis bend 2 1)) && same_bits (vis bend 2 1) (vis bend 2 1)
              | _ => false end = true) by (vm_compute; reflexivity).
  destruct (insert_face no_junk bend (Some ((1, 1), (1, 2)))) as [[h u]| |]; try discriminate. exists h, u, (2, 1).
  rewrite !andb_true_iff, negb_true_iff, !Nat.eqb_eq in E. destruct E as [[[E1 E2] E3] E4].
  split; [small|]. split; [small|]. split; [small|]. split; [split; vm_compute; lia|]. split; [split; vm_compute; lia|].
  split; [left; cbn; lia|]. split; [reflexivity|]. split; [rewrite E1; reflexivity|]. split; [rewrite E2; reflexivity|]. split; [reflexivity|].
  unfold vis2. cbn [fst snd]. intros Q. rewrite Q in E3. congruence.
Qed.

(** A face inserted below and undone, then a face inserted above at a corner: the code reads beyond the stored nodes. *)
Definition undone_then_top (g : grid) (a b a' b' : gindex) : outcome (grid * gact) :=
  let! (h, u) := insert_face no_junk g (Some (a, b)) in
  let! (u', k) := undo_grid u h in
  insert_face no_junk k (Some (a', b')).
Lemma face_out_of_bounds : exists g a b a' b', gwf g /\ full g /\ no_hidden g /\ shown2 g a /\ shown2 g b /\ neighbours a b /\
  shown2 g a' /\ shown2 g b' /\ neighbours a' b' /\ undone_then_top g a b a' b' = UB.
Proof.
  exists (plain 3 3), (0, 0), (0, 1), (2, 0), (2, 1).
  assert (E : match undone_then_top (plain 3 3) (0, 0) (0, 1) (2, 0) (2, 1) with UB => true | _ => false end = true) by (vm_compute; reflexivity).
  destruct (undone_then_top (plain 3 3) (0, 0) (0, 1) (2, 0) (2, 1)); try discriminate.
  repeat match goal with |- _ /\ _ => split end; try (small; fail); try (left; cbn; lia); vm_compute; lia.
Qed.
Lemma face_example : exists h u, insert_face no_junk (plain 3 3) (Some ((0, 0), (0, 1))) = Ok (h, u).
Proof.
  assert (E : match insert_face no_junk (plain 3 3) (Some ((0, 0), (0, 1))) with Ok _ => true | _ => false end = true) by (vm_compute; reflexivity).
  destruct (insert_face no_junk (plain 3 3) (Some ((0, 0), (0, 1)))) as [[h u]| |]; try discriminate. eauto.
Qed.

(** *** C30 *)
Definition typed : grid := match compute_node_types hidden_rows with Ok g => g | _ => hidden_rows end.
Lemma typed_ok : gwf typed /\ clean typed /\ hidden_missing typed /\
  exists h u, add_grid_line no_junk typed (0, 0) (0, 1) = Ok (h, Some u) /\ num_n h = num_n typed + 1.
Proof.
  split; [split; apply Nat.leb_le; vm_compute; reflexivity|]. split; [apply cleanb_ok; vm_compute; reflexivity|]. split; [apply hiddenb_ok; vm_compute; reflexivity|].
  assert (E : match add_grid_line no_junk typed (0, 0) (0, 1) with Ok (h, Some u) => num_n h =? num_n typed + 1 | _ => false end = true)
    by (vm_compute; reflexivity).
  destruct (add_grid_line no_junk typed (0, 0) (0, 1)) as [[h [u|]]| |]; try discriminate. exists h, u. split; [auto|]. apply Nat.eqb_eq. auto.
Qed.
Definition some_history : list gop := [OpTypes; OpAdd (0, 0) (0, 1); OpTypes; OpUndo; OpAdd (1, 0) (2, 0); OpTypes; OpUndo; OpRedo].
Lemma history_example : exists h e, run_history no_junk some_history (History hidden_rows [] []) ([], hidden_rows, []) = Ok (h, e) /\ length (h_undo h) = 1.
Proof.
  assert (E : match run_history no_junk some_history (History hidden_rows [] []) ([], hidden_rows, []) with Ok (h, _) => length (h_undo h) =? 1 | _ => false end = true)
    by (vm_compute; reflexivity).
  destruct (run_history no_junk some_history (History hidden_rows [] []) ([], hidden_rows, [])) as [[h e]| |]; try discriminate.
  exists h, e. split; [auto|]. apply Nat.eqb_eq. auto.
Qed.

(** *** C61 *)
Definition notch : grid := make Cartesian 3 4 (fun n m => if (n =? 0) && (m =? 3) then missing_point else at_ n m) 0 0 0 0.
Lemma wrong_type : exists g h n m, gwf g /\ clean g /\ shown g n m /\ compute_node_types g = Ok h /\ get_type h n m = Ok UpperRight /\
  cell_at g n m 0 0 false /\ cell_at g n m 1 0 false /\ cell_at g n m 1 1 false /\ cell_at g n m 0 1 true.
Proof.
  assert (E : match compute_node_types notch with Ok h => match get_type h 0 2 with Ok UpperRight => true | _ => false end | _ => false end = true)
    by (vm_compute; reflexivity).
  destruct (compute_node_types notch) as [h| |] eqn:Eh; [|discriminate E|discriminate E]. destruct (get_type h 0 2) as [t| |] eqn:Et; [|discriminate E|discriminate E].
  exists notch, h, 0, 2. split; [small|]. split; [small|]. split; [split; vm_compute; lia|]. split; [auto|]. split; [rewrite Et; destruct t; first [reflexivity|discriminate E]|].
  clear Eh E Et. unfold cell_at.
  split; [split; [discriminate|intros (_ & _ & _ & _ & _ & C & _); vm_compute in C; discriminate]|].
  split; [split; [discriminate|intros (Q & _); lia]|]. split; [split; [discriminate|intros (Q & _); lia]|].
  split; [intros _|auto]. split; [lia|]. split; [lia|]. apply completeb'_ok. vm_compute. reflexivity.
Qed.

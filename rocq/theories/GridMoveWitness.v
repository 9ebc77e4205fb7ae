(** Moving the nodes of a grid: cases meeting the hypotheses, and counterexamples. *)
From Verif Require Import Base BaseLemmas FloatModel UtilModel UndoModel ActionModel GridModel GridSpec GridProofs GridClean GridEdits GridLines GridRefine GridMain GridWitness GridMoveModel GridMoveSpec GridMoveProofs GridMoveSmooth GridMoveAttract GridMoveShift GridMoveSnap GridMoveMirror.

(** *** Directional smoothing: the grid that is installed afterwards *)
Lemma directional_whole fade k l rest ll ur g : gwf g -> clean g -> plain_copy g -> shown2 g (l_start l) -> shown2 g (l_end l) -> shown2 g ur ->
  fst ll <= fst ur -> snd ll <= snd ur -> ~ flat l ll ur -> exists x h c,
  smooth_directional fade k (l :: rest) ll ur g = Ok (h, c) /\ same_view g x /\ passes (slide_pass fade g l ll ur) k x h /\ only_within (beside l ll ur) g h /\
  (no_hidden h -> gwf h -> same_view h c).
Proof.
  intros W C P S1 S2 U L1 L2 F. destruct (directional_ok fade k l rest ll ur g W C P S1 S2 U L1 L2 F) as (x & h & E & V & Q & O).
  exists x, h, (copy_ctor h). repeat (split; [assumption|]). intros NH Wh. apply copy_view; auto.
Qed.

(** *** Telling positions apart *)
Lemma ltb_ne x y : SFltb x y = true -> x <> y.
Proof.
  intros H ->. unfold SFltb, SFcompare in H. destruct y as [s|s| |s m e]; try destruct s; try discriminate;
    rewrite Z.compare_refl, Pcompare_refl in H; discriminate.
Qed.
Definition moved_at (g h : grid) (n m : nat) : bool :=
  (n <? num_n g) && (m <? num_m g) && (SFltb (px (vis g n m)) (px (vis h n m)) || SFltb (px (vis h n m)) (px (vis g n m)) ||
    SFltb (py (vis g n m)) (py (vis h n m)) || SFltb (py (vis h n m)) (py (vis g n m))).
Lemma moved g h n m : moved_at g h n m = true -> ~ same_view g h.
Proof.
  unfold moved_at. rewrite !andb_true_iff, !orb_true_iff, !Nat.ltb_lt. intros [[A B] C] (_ & _ & V). rewrite V in C by auto.
  destruct C as [[[C|C]|C]|C]; apply ltb_ne in C; congruence.
Qed.

Definition ok_and {A} (x : outcome A) (f : A -> bool) : bool := match x with Ok a => f a | _ => false end.
Lemma ok_and_inv {A} (x : outcome A) f : ok_and x f = true -> exists a, x = Ok a /\ f a = true.
Proof. destruct x; cbn; try discriminate. eauto. Qed.
Definition throws {A} (x : outcome A) : bool := match x with Throw _ => true | _ => false end.

(** *** Lines *)
Definition wide : grid := plain 8 8.
Lemma wide_ok : gwf wide /\ full wide /\ clean wide /\ hidden_missing wide /\ no_hidden wide.
Proof. small. Qed.

Lemma parallel_refused : exists g l a b, gwf g /\ full g /\ proper l /\ shown2 g a /\ shown2 g b /\ straight a b /\ a <> b /\
  ~ perpendicular (line_of a b) l /\ (forall c, covers (line_of a b) c -> ~ covers l c) /\ set_line g [l] a b = Throw AlgorithmErr.
Proof.
  exists wide, (GLine (0, 2) (5, 2)), (0, 3), (5, 3). destruct wide_ok as (W & F & _). split; [exact W|]. split; [exact F|].
  split; [unfold proper, straight; cbn; repeat split; auto; try lia; congruence|]. split; [vm_compute; lia|]. split; [vm_compute; lia|].
  split; [right; reflexivity|]. split; [congruence|]. split; [unfold perpendicular; cbn; intuition congruence|].
  split; [|vm_compute; reflexivity]. intros [n m]. unfold covers. cbn. lia.
Qed.
Lemma overlap_accepted : exists g l a b ls, gwf g /\ full g /\ proper l /\ (exists c, covers (line_of a b) c /\ covers l c) /\ set_line g [l] a b = Ok ls.
Proof.
  exists wide, (GLine (0, 7) (3, 7)), (2, 7), (5, 7). eexists. destruct wide_ok as (W & F & _). split; [exact W|]. split; [exact F|].
  split; [unfold proper, straight; cbn; repeat split; auto; try lia; congruence|]. split; [exists (2, 7); unfold covers; cbn; lia|]. vm_compute. reflexivity.
Qed.

(** *** Smoothing *)
(** Orthogonal projections are not needed here: the nodes at the sides keep their place. *)
Definition keep_there (a b p : point) : point * double * bool := (a, double_of 0 0, true).
Definition bent (n m : nat) : point := if (n =? 2) && (m =? 2) then Pt (double_of 9 0) (double_of 7 0) else at_ n m.
Definition open_grid : grid := make Cartesian 5 5 bent 0 0 0 0.
Definition shifted_grid : grid := make Cartesian 6 5 (fun n m => if n =? 0 then missing_point else bent (n - 1) m) 1 0 0 0.

Lemma open_ok : gwf open_grid /\ full open_grid /\ clean open_grid /\ hidden_missing open_grid /\ no_hidden open_grid.
Proof. small. Qed.
Lemma shifted_ok : gwf shifted_grid /\ clean shifted_grid /\ hidden_missing shifted_grid.
Proof. small. Qed.
Lemma open_shifted : same_view open_grid shifted_grid.
Proof.
  split; [reflexivity|]. split; [reflexivity|]. intros n m Hn Hm. change (num_n open_grid) with 5 in Hn. change (num_m open_grid) with 5 in Hm.
  unfold vis. change (start_n open_grid) with 0. change (start_m open_grid) with 0. change (start_n shifted_grid) with 1. change (start_m shifted_grid) with 0.
  cbn [Nat.add]. change (entry (gnodes shifted_grid) (S n) m) with (bent (S n - 1) m). replace (S n - 1) with n by lia. reflexivity.
Qed.

Lemma smooth_hidden_refuted : exists project g g' ll ur h h' u u', gwf g /\ clean g /\ gwf g' /\ clean g' /\ hidden_missing g' /\ same_view g g' /\ shown2 g ur /\
  smooth project 1 ll ur g = Ok (h, u) /\ smooth project 1 ll ur g' = Ok (h', u') /\ ~ same_view h h'.
Proof.
  assert (K : ok_and (smooth keep_there 1 (1, 1) (3, 3) open_grid) (fun x => ok_and (smooth keep_there 1 (1, 1) (3, 3) shifted_grid) (fun y => moved_at (fst x) (fst y) 2 2)) = true)
    by (vm_compute; reflexivity).
  apply ok_and_inv in K as ([h u] & E & K). apply ok_and_inv in K as ([h' u'] & E' & K). apply moved in K.
  destruct open_ok as (W & _ & C & _), shifted_ok as (W' & C' & H').
  exists keep_there, open_grid, shifted_grid, (1, 1), (3, 3), h, h', u, u'. repeat (split; [assumption|]). split; [apply open_shifted|].
  split; [vm_compute; lia|]. auto.
Qed.

(** *** Directional smoothing *)
Definition no_fade (a b : nat) : double := double_of 1 0.
Definition bent_line : gline := GLine (2, 0) (2, 4).

Lemma directional_undo_refuted : exists fade g l ll ur before after, gwf g /\ full g /\ no_hidden g /\ proper l /\
  smooth_directional fade 1 [l] ll ur g = Ok (before, after) /\ ~ same_view g before.
Proof.
  assert (K : ok_and (smooth_directional no_fade 1 [bent_line] (1, 1) (3, 3) open_grid) (fun x => moved_at open_grid (fst x) 2 2) = true) by (vm_compute; reflexivity).
  apply ok_and_inv in K as ([h c] & E & K). apply moved in K. destruct open_ok as (W & F & _ & _ & N).
  exists no_fade, open_grid, bent_line, (1, 1), (3, 3), h, c. repeat (split; [assumption|]).
  split; [unfold proper, straight; cbn; repeat split; auto; try lia; congruence|]. auto.
Qed.
Definition round_grid : grid := make Spherical 5 5 bent 0 0 0 0.
Lemma round_ok : gwf round_grid /\ full round_grid /\ clean round_grid /\ hidden_missing round_grid /\ no_hidden round_grid.
Proof. small. Qed.
Lemma directional_projection_refuted : exists fade g l ll ur before after, gwf g /\ full g /\ no_hidden g /\
  smooth_directional fade 1 [l] ll ur g = Ok (before, after) /\ proj before = Spherical /\ proj after = Cartesian.
Proof.
  assert (K : ok_and (smooth_directional no_fade 1 [bent_line] (1, 1) (3, 3) round_grid)
     (fun x => match proj (fst x), proj (snd x) with Spherical, Cartesian => true | _, _ => false end) = true) by (vm_compute; reflexivity).
  apply ok_and_inv in K as ([h c] & E & K). destruct round_ok as (W & F & _ & _ & N).
  exists no_fade, round_grid, bent_line, (1, 1), (3, 3), h, c. repeat (split; [assumption|]). cbn [fst snd] in K.
  clear - K. destruct (proj h), (proj c); try discriminate; split; reflexivity.
Qed.
(** With hidden lines the grid that is installed shows them. *)
Lemma directional_copy_refuted : exists fade g l ll ur before after, gwf g /\ clean g /\ hidden_missing g /\
  smooth_directional fade 0 [l] ll ur g = Ok (before, after) /\ ~ same_view before after.
Proof.
  assert (K : ok_and (smooth_directional no_fade 0 [bent_line] (1, 1) (3, 3) shifted_grid) (fun x => negb (num_n (fst x) =? num_n (snd x))) = true) by (vm_compute; reflexivity).
  apply ok_and_inv in K as ([h c] & E & K). apply negb_true_iff, Nat.eqb_neq in K. destruct shifted_ok as (W & C & H).
  exists no_fade, shifted_grid, bent_line, (1, 1), (3, 3), h, c. repeat (split; [assumption|]). intros (A & _). contradiction.
Qed.

(** *** Attraction *)
(** Distances |dx| + |dy|; spherical ones are ten times as large. *)
Definition far (p : projection) (a b : point) : double :=
  fmul (fadd (SFabs (fsub (px a) (px b))) (SFabs (fsub (py a) (py b)))) (double_of (match p with Cartesian => 1 | _ => 10 end) 0).
Definition pull_line : gline := GLine (2, 0) (2, 4).

(** A node that follows from the hypotheses of the theorem for another grid with the same nodes. *)
Lemma attract_hidden_refuted : exists fade distance factor l ll ur g g' h h' u u', gwf g /\ gwf g' /\ clean g' /\ hidden_missing g' /\ same_view g g' /\
  proper l /\ shown2 g ur /\ ~ flat l ll ur /\
  attract fade distance factor [l] ll ur g = Ok (h, u) /\ attract fade distance factor [l] ll ur g' = Ok (h', u') /\ ~ same_view h h'.
Proof.
  assert (K : ok_and (attract no_fade far (double_of 1 (-1)) [pull_line] (1, 0) (3, 4) open_grid)
     (fun x => ok_and (attract no_fade far (double_of 1 (-1)) [pull_line] (1, 0) (3, 4) shifted_grid) (fun y => moved_at (fst x) (fst y) 3 1)) = true) by (vm_compute; reflexivity).
  apply ok_and_inv in K as ([h u] & E & K). apply ok_and_inv in K as ([h' u'] & E' & K). apply moved in K.
  destruct open_ok as (W & _), shifted_ok as (W' & C' & H').
  exists no_fade, far, (double_of 1 (-1)), pull_line, (1, 0), (3, 4), open_grid, shifted_grid, h, h', u, u'. repeat (split; [assumption|]). split; [apply open_shifted|].
  split; [unfold proper, straight; cbn; repeat split; auto; try lia; congruence|]. split; [vm_compute; lia|]. split; [unfold flat; vm_compute; congruence|]. auto.
Qed.

(** *** Shifting a line *)
Definition rows : gline := GLine (2, 0) (2, 4).
Definition push : list (gindex * point) := [((2, 2), Pt (double_of 3 0) (double_of 5 0))].
Definition plain55 : grid := plain 5 5.
Lemma plain55_ok : gwf plain55 /\ full plain55 /\ clean plain55 /\ hidden_missing plain55 /\ no_hidden plain55.
Proof. small. Qed.
Lemma rows_proper : proper rows.
Proof. unfold proper, straight; cbn; repeat split; auto; try lia; congruence. Qed.

(** The line is not in the block: undoing everything leaves its other nodes moved. *)
Lemma shift_undo_refuted : exists fade distance moves l ll ur g h acts z, gwf g /\ full g /\ no_hidden g /\ proper l /\ shown2 g (l_start l) /\ shown2 g (l_end l) /\ shown2 g ur /\
  (forall mv, In mv moves -> covers l (fst mv) /\ is_valid (snd mv) = true) /\
  shift fade distance moves [l] ll ur g = Ok (h, acts) /\ undo_all (rev acts) h = Ok z /\ ~ same_view g z.
Proof.
  assert (K : ok_and (shift no_fade far push [rows] (3, 0) (4, 4) plain55) (fun x => ok_and (undo_all (rev (snd x)) (fst x)) (fun z => moved_at plain55 z 2 1)) = true)
    by (vm_compute; reflexivity).
  apply ok_and_inv in K as ([h a] & E & K). apply ok_and_inv in K as (z & E' & K). apply moved in K. destruct plain55_ok as (W & F & _ & _ & N).
  exists no_fade, far, push, rows, (3, 0), (4, 4), plain55, h, a, z. repeat (split; [assumption|]). split; [apply rows_proper|].
  split; [vm_compute; lia|]. split; [vm_compute; lia|]. split; [vm_compute; lia|].
  split; [|auto]. intros mv [<-|[]]. split; [unfold covers; cbn; lia|vm_compute; reflexivity].
Qed.

(** A missing node on the line: it is given a position. *)
Definition holed : grid := make Cartesian 5 5 (fun n m => if (n =? 2) && (m =? 0) then missing_point else at_ n m) 0 0 0 0.
Lemma holed_ok : gwf holed /\ no_hidden holed.
Proof. small. Qed.
Lemma shift_missing_refuted : exists fade distance moves l ll ur g h acts c, gwf g /\ no_hidden g /\ proper l /\ covers l c /\ is_valid (vis2 g c) = false /\
  shift fade distance moves [l] ll ur g = Ok (h, acts) /\ is_valid (vis2 h c) = true.
Proof.
  assert (K : ok_and (shift no_fade far [((2, 0), Pt (double_of 0 0) (double_of 0 0))] [rows] (0, 0) (4, 4) holed) (fun x => is_valid (vis2 (fst x) (2, 0))) = true)
    by (vm_compute; reflexivity).
  apply ok_and_inv in K as ([h a] & E & K). destruct holed_ok as [W N].
  exists no_fade, far, [((2, 0), Pt (double_of 0 0) (double_of 0 0))], rows, (0, 0), (4, 4), holed, h, a, (2, 0). repeat (split; [assumption|]).
  split; [apply rows_proper|]. split; [unfold covers; cbn; lia|]. split; [vm_compute; reflexivity|]. auto.
Qed.

(** *** Mirroring a line *)
Definition nowhere (a b : nat) : point := missing_point.
Definition left_line : gline := GLine (1, 0) (3, 0).
Lemma left_proper : proper left_line.
Proof. unfold proper, straight; cbn; repeat split; auto; try lia; congruence. Qed.

(** At the left side the nodes saved for undo are not the ones that are set: they stay in the line that is hidden again, and show up when it is used. *)
Lemma mirror_left_refuted : exists junk factor l g h u u' k, gwf g /\ full g /\ no_hidden g /\ proper l /\ at_side g LineLeft (l_start l) /\ at_side g LineLeft (l_end l) /\
  mirror junk factor [l] g = Ok (h, u) /\ undo_grid u h = Ok (u', k) /\ ~ hidden_missing k.
Proof.
  assert (K : ok_and (mirror nowhere (double_of 1 0) [left_line] plain55) (fun x => ok_and (undo_grid (snd x) (fst x)) (fun y =>
     (start_m (snd y) =? 1) && (start_n (snd y) =? 0) && (1 <? mrows (gnodes (snd y))) && (0 <? mcols (gnodes (snd y))) && is_valid (entry (gnodes (snd y)) 1 0))) = true) by (vm_compute; reflexivity).
  apply ok_and_inv in K as ([h u] & E & K). apply ok_and_inv in K as ([u' k] & E' & K). destruct plain55_ok as (W & F & _ & _ & N).
  exists nowhere, (double_of 1 0), left_line, plain55, h, u, u', k. repeat (split; [assumption|]). split; [apply left_proper|]. split; [reflexivity|]. split; [reflexivity|].
  split; [exact E|]. split; [exact E'|]. clear - K. cbn [fst snd] in K. rewrite !andb_true_iff, !Nat.eqb_eq, !Nat.ltb_lt in K. destruct K as ((((A & B) & C) & D) & V).
  intros H. specialize (H 1 0 C D). rewrite H in V by lia. discriminate.
Qed.
(** A line at the left side of a narrow grid: an error, after a line was added. *)
Definition narrow : grid := plain 5 2.
Lemma narrow_ok : gwf narrow /\ full narrow /\ clean narrow /\ hidden_missing narrow /\ no_hidden narrow.
Proof. small. Qed.
Lemma mirror_narrow_refuted : exists junk factor l g, gwf g /\ full g /\ no_hidden g /\ proper l /\ shown2 g (l_start l) /\ shown2 g (l_end l) /\
  SFleb factor (frac 0 1) = false /\ at_side g LineLeft (l_start l) /\ at_side g LineLeft (l_end l) /\ throws (mirror junk factor [l] g) = true.
Proof.
  exists nowhere, (double_of 1 0), (GLine (3, 0) (4, 0)), narrow. destruct narrow_ok as (W & F & _ & _ & N). repeat (split; [assumption|]).
  split; [unfold proper, straight; cbn; repeat split; auto; try lia; congruence|]. split; [vm_compute; lia|]. split; [vm_compute; lia|].
  split; [reflexivity|]. split; [reflexivity|]. split; [reflexivity|]. vm_compute. reflexivity.
Qed.
(** A line at the border of a hole: no line is added, and nodes at the side of the grid are overwritten. *)
Definition donut : grid := make Cartesian 7 7 (fun n m => if (n =? 3) && (m =? 3) then missing_point else at_ n m) 0 0 0 0.
Lemma donut_ok : gwf donut /\ clean donut /\ hidden_missing donut /\ no_hidden donut.
Proof. small. Qed.
Lemma mirror_hole_refuted : exists junk factor l g h u, gwf g /\ clean g /\ no_hidden g /\ proper l /\ SFleb factor (frac 0 1) = false /\
  (forall c, covers l c -> shown2 g c /\ is_valid (vis2 g c) = true /\ forall t, ~ at_side g t c) /\
  mirror junk factor [l] g = Ok (h, u) /\ num_n h = num_n g /\ num_m h = num_m g /\ ~ same_view g h.
Proof.
  assert (K : ok_and (mirror nowhere (double_of 2 0) [GLine (2, 2) (2, 4)] donut) (fun x => (num_n (fst x) =? 7) && (num_m (fst x) =? 7) && moved_at donut (fst x) 0 2) = true)
    by (vm_compute; reflexivity).
  apply ok_and_inv in K as ([h u] & E & K). rewrite !andb_true_iff, !Nat.eqb_eq in K. destruct K as [[K1 K2] K]. apply moved in K. destruct donut_ok as (W & C & _ & N).
  exists nowhere, (double_of 2 0), (GLine (2, 2) (2, 4)), donut, h, u. repeat (split; [assumption|]).
  split; [unfold proper, straight; cbn; repeat split; auto; try lia; congruence|]. split; [reflexivity|]. split.
  - intros [n m] H. assert (X : n = 2 /\ (m = 2 \/ m = 3 \/ m = 4)) by (unfold covers in H; cbn in H; lia).
    destruct X as [-> [X|[X|X]]]; subst m; (split; [vm_compute; lia|split; [vm_compute; reflexivity|intros [] A; vm_compute in A; discriminate]]).
  - split; [exact E|]. split; [exact K1|]. split; [exact K2|exact K].
Qed.

(** *** Snapping *)
Definition a_bit (p : point) : point := Pt (fadd (px p) (double_of 1 (-2))) (py p).
Definition half (p : point) (a b : gindex) : double := double_of 1 (-1).
Definition never (p q : point) : bool := false.
Lemma snap_hidden_refuted : exists nearest expansion close points g g' h h' u u', gwf g /\ gwf g' /\ clean g' /\ hidden_missing g' /\ same_view g g' /\
  length points = 2 /\ Forall (shown2 g) points /\
  snap nearest expansion close points g = Ok (h, u) /\ snap nearest expansion close points g' = Ok (h', u') /\ ~ same_view h h'.
Proof.
  assert (K : ok_and (snap a_bit half never [(1, 0); (1, 4)] open_grid)
     (fun x => ok_and (snap a_bit half never [(1, 0); (1, 4)] shifted_grid) (fun y => moved_at (fst x) (fst y) 3 1)) = true) by (vm_compute; reflexivity).
  apply ok_and_inv in K as ([h u] & E & K). apply ok_and_inv in K as ([h' u'] & E' & K). apply moved in K.
  destruct open_ok as (W & _), shifted_ok as (W' & C' & H').
  exists a_bit, half, never, [(1, 0); (1, 4)], open_grid, shifted_grid, h, h', u, u'. repeat (split; [assumption|]). split; [apply open_shifted|].
  split; [reflexivity|]. split; [repeat constructor; vm_compute; lia|]. auto.
Qed.

(** *** Cases meeting the hypotheses *)
Definition cross_line : gline := GLine (0, 2) (4, 2).
Lemma cross_proper : proper cross_line.
Proof. unfold proper, straight; cbn; repeat split; auto; try lia; congruence. Qed.
Lemma bent_proper : proper bent_line.
Proof. unfold proper, straight; cbn; repeat split; auto; try lia; congruence. Qed.

Lemma lines_set : set_lines wide [((1, 1), (6, 1)); ((3, 3), (3, 0)); ((2, 5), (2, 2)); ((3, 3), (4, 4))] = [GLine (1, 1) (6, 1); GLine (2, 2) (2, 5)].
Proof. vm_compute. reflexivity. Qed.
Lemma smooth_moves : gwf open_grid /\ clean open_grid /\ plain_copy open_grid /\ shown2 open_grid (4, 4) /\
  exists h u, smooth keep_there 2 (0, 0) (4, 4) open_grid = Ok (h, u) /\ moved_at open_grid h 1 2 = true.
Proof.
  assert (K : ok_and (smooth keep_there 2 (0, 0) (4, 4) open_grid) (fun x => moved_at open_grid (fst x) 1 2) = true) by (vm_compute; reflexivity).
  apply ok_and_inv in K as ([h u] & E & K). destruct open_ok as (W & _ & C & _). split; [exact W|]. split; [exact C|]. split; [split; reflexivity|]. split; [vm_compute; lia|]. exists h, u. exact (conj E K).
Qed.
Lemma directional_moves : gwf open_grid /\ clean open_grid /\ plain_copy open_grid /\ shown2 open_grid (l_start cross_line) /\ shown2 open_grid (l_end cross_line) /\ shown2 open_grid (3, 3) /\
  ~ flat cross_line (1, 1) (3, 3) /\ exists h c, smooth_directional no_fade 2 [cross_line] (1, 1) (3, 3) open_grid = Ok (h, c) /\ moved_at open_grid h 2 2 = true.
Proof.
  assert (K : ok_and (smooth_directional no_fade 2 [cross_line] (1, 1) (3, 3) open_grid) (fun x => moved_at open_grid (fst x) 2 2) = true) by (vm_compute; reflexivity).
  apply ok_and_inv in K as ([h u] & E & K). destruct open_ok as (W & _ & C & _). split; [exact W|]. split; [exact C|]. split; [split; reflexivity|].
  repeat (split; [vm_compute; lia|]). exists h, u. exact (conj E K).
Qed.
Lemma attract_moves : gwf open_grid /\ no_hidden open_grid /\ clean open_grid /\ proper cross_line /\ shown2 open_grid (l_start cross_line) /\ shown2 open_grid (l_end cross_line) /\ shown2 open_grid (3, 3) /\
  ~ flat cross_line (1, 1) (3, 3) /\ exists h u, attract no_fade far (double_of 1 (-1)) [cross_line] (1, 1) (3, 3) open_grid = Ok (h, u) /\ moved_at open_grid h 1 1 = true.
Proof.
  assert (K : ok_and (attract no_fade far (double_of 1 (-1)) [cross_line] (1, 1) (3, 3) open_grid) (fun x => moved_at open_grid (fst x) 1 1) = true) by (vm_compute; reflexivity).
  apply ok_and_inv in K as ([h u] & E & K). destruct open_ok as (W & _ & C & _ & N). split; [exact W|]. split; [exact N|]. split; [exact C|]. split; [apply cross_proper|].
  repeat (split; [vm_compute; lia|]). exists h, u. exact (conj E K).
Qed.
Lemma shift_moves : gwf plain55 /\ no_hidden plain55 /\ clean plain55 /\ proper rows /\ shown2 plain55 (l_start rows) /\ shown2 plain55 (l_end rows) /\ shown2 plain55 (4, 4) /\
  (forall mv, In mv push -> covers rows (fst mv) /\ is_valid (vis2 plain55 (fst mv)) = true /\ is_valid (snd mv) = true) /\ level rows (0, 0) (4, 4) (l_start rows) /\
  exists h u, shift no_fade far push [rows] (0, 0) (4, 4) plain55 = Ok (h, u) /\ moved_at plain55 h 1 2 = true.
Proof.
  assert (K : ok_and (shift no_fade far push [rows] (0, 0) (4, 4) plain55) (fun x => moved_at plain55 (fst x) 1 2) = true) by (vm_compute; reflexivity).
  apply ok_and_inv in K as ([h u] & E & K). destruct plain55_ok as (W & _ & C & _ & N). split; [exact W|]. split; [exact N|]. split; [exact C|]. split; [apply rows_proper|].
  do 3 (split; [vm_compute; lia|]). split; [|split; [unfold level; vm_compute; lia|exists h, u; exact (conj E K)]].
  intros mv [<-|[]]. split; [unfold covers; cbn; lia|split; vm_compute; reflexivity].
Qed.
(** A line that does not start at 0: the nodes before it are at finite positions, which do not move. *)
Definition short_line : gline := GLine (2, 1) (2, 3).
Lemma before_stays : forall j, j < coord_along short_line (l_start short_line) ->
  stays (vis2 plain55 (at_coord short_line j) -. vis2 plain55 (at_coord short_line j)) = true.
Proof. intros j H. assert (j = 0) by (cbn in H; lia). subst j. vm_compute. reflexivity. Qed.
Lemma mirror_adds : gwf plain55 /\ full plain55 /\ hidden_missing plain55 /\ proper (GLine (1, 4) (3, 4)) /\ shown2 plain55 (1, 4) /\ shown2 plain55 (3, 4) /\
  at_side plain55 LineRight (1, 4) /\ at_side plain55 LineRight (3, 4) /\
  exists h u, mirror nowhere (double_of 2 0) [GLine (1, 4) (3, 4)] plain55 = Ok (h, u) /\ is_valid (vis2 h (2, 5)) = true /\ is_valid (vis2 h (0, 5)) = false.
Proof.
  assert (K : ok_and (mirror nowhere (double_of 2 0) [GLine (1, 4) (3, 4)] plain55) (fun x => is_valid (vis2 (fst x) (2, 5)) && negb (is_valid (vis2 (fst x) (0, 5)))) = true) by (vm_compute; reflexivity).
  apply ok_and_inv in K as ([h u] & E & K). apply andb_true_iff in K as [K1 K2]. apply negb_true_iff in K2. destruct plain55_ok as (W & F & _ & H & _).
  split; [exact W|]. split; [exact F|]. split; [exact H|]. split; [unfold proper, straight; cbn; repeat split; auto; try lia; congruence|].
  split; [vm_compute; lia|]. split; [vm_compute; lia|]. split; [reflexivity|]. split; [reflexivity|]. exists h, u. exact (conj E (conj K1 K2)).
Qed.
Lemma snap_moves : gwf open_grid /\ no_hidden open_grid /\ clean open_grid /\ Forall (shown2 open_grid) [(1, 0); (1, 4); (3, 2)] /\
  exists h u, snap a_bit half never [(1, 0); (1, 4); (3, 2)] open_grid = Ok (h, u) /\ moved_at open_grid h 3 1 = true /\ moved_at open_grid h 4 1 = false.
Proof.
  assert (K : ok_and (snap a_bit half never [(1, 0); (1, 4); (3, 2)] open_grid) (fun x => moved_at open_grid (fst x) 3 1 && negb (moved_at open_grid (fst x) 4 1)) = true) by (vm_compute; reflexivity).
  apply ok_and_inv in K as ([h u] & E & K). apply andb_true_iff in K as [K1 K2]. apply negb_true_iff in K2. destruct open_ok as (W & _ & C & _ & N).
  split; [exact W|]. split; [exact N|]. split; [exact C|]. split; [repeat constructor; vm_compute; lia|]. exists h, u. exact (conj E (conj K1 K2)).
Qed.

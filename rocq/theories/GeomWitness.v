(** Concrete polygons: cases meeting the hypotheses of the theorems, and counterexamples computed with doubles. *)
From Coq Require Import Reals Lra.
From Verif Require Import Base FloatModel GeomModel GeomSpec GeomProofs GeomArea.
Open Scope R_scope.

Definition square : list pt := [(0, 0); (2, 0); (2, 2); (0, 2)].

Lemma square_sides : forall a b, side (closed square) a b -> In (a, b) (sides RA (closed square)).
Proof. intros a b H. apply side_in. exact H. Qed.

Lemma square_convex : convex_ring square.
Proof.
  intros a b H. apply square_sides in H. cbn in H.
  destruct H as [H|[H|[H|[H|[]]]]]; injection H as <- <-; (split;
    [ intros v [<-|[<-|[<-|[<-|[]]]]]; unfold left_of; cbn; lra |]).
  - exists (2, 2). split; [cbn; auto|unfold left_of; cbn; lra].
  - exists (0, 2). split; [cbn; auto|unfold left_of; cbn; lra].
  - exists (0, 0). split; [cbn; auto|unfold left_of; cbn; lra].
  - exists (2, 0). split; [cbn; auto 6|unfold left_of; cbn; lra].
Qed.
Lemma square_inside : polygon_contains RA (closed square) (1, 1) = true.
Proof.
  apply (proj1 (convex_exact square (1, 1) ltac:(cbn; lia) square_convex)). intros a b H. apply square_sides in H. cbn in H.
  destruct H as [H|[H|[H|[H|[]]]]]; injection H as <- <-; unfold left_of; cbn; lra.
Qed.
Lemma square_outside : polygon_contains RA (closed square) (3, 1) = false.
Proof.
  apply not_true_is_false. intro H. apply (proj2 (convex_exact square (3, 1) ltac:(cbn; lia) square_convex)) in H.
  specialize (H 1 0 2). cbn in H. assert (1 * 3 + 0 * 1 <= 2); [|lra]. apply H.
  intros v [<-|[<-|[<-|[<-|[]]]]]; cbn; lra.
Qed.
Lemma square_area : shoelace (closed square) = 4.
Proof. unfold shoelace, closed, square. cbn. lra. Qed.
Lemma square_big : small < Rmax (Rabs (shoelace (closed square))) small.
Proof. rewrite square_area, Rabs_pos_eq by lra. rewrite Rmax_left; unfold small; lra. Qed.

(** A non-convex ring without a side of length zero *)
Definition arrow : list pt := [(0, 0); (4, 0); (1, 1); (0, 4)].
Lemma arrow_sides : no_zero_side (closed arrow).
Proof.
  intros a b H E. apply side_in in H. cbn in H.
  destruct H as [H|[H|[H|[H|[]]]]]; injection H as <- <-; injection E; intros; lra.
Qed.
Lemma arrow_boundary : polygon_contains RA (closed arrow) (2.5, 0.5) = true.
Proof.
  apply (boundary_inside _ (4, 0) (1, 1)); [cbn; lia|exists [(0, 0)], [(0, 4); (0, 0)]; reflexivity|].
  exists (1 / 2). cbn. split; [lra|]. split; lra.
Qed.

(** *** Doubles *)
Definition dp (x y : Z) : vec double_arith := (double_of x 0, double_of y 0).

(** A vertex written twice *)
Definition tri : list (vec double_arith) := [dp 0 0; dp 4 0; dp 0 4; dp 0 0].
Definition tri_twice : list (vec double_arith) := [dp 0 0; dp 4 0; dp 4 0; dp 0 4; dp 0 0].
Lemma tri_values : polygon_contains double_arith tri (dp 3 3) = false /\ polygon_contains double_arith tri_twice (dp 3 3) = true.
Proof. split; vm_compute; reflexivity. Qed.

(** A point on the line of a side but outside *)
Definition thin : list (vec double_arith) := [dp 0 0; dp 2 1; dp 4 4; dp 0 0].
Lemma thin_values : polygon_contains double_arith thin (dp 4 2) = false /\ in_polygon_nodes double_arith thin (dp 4 2) = true.
Proof. split; vm_compute; reflexivity. Qed.

(** A clockwise triangle with legs 2^-14 *)
Definition sp (x y : Z) : vec double_arith := (double_of x (-14), double_of y (-14)).
Definition speck : list (vec double_arith) := [sp 0 0; sp 0 1; sp 1 0; sp 0 0].
Lemma speck_values : exists A c, face_area double_arith speck = Ok (A, c, Clockwise) /\ SFltb (fst c) (double_of 0 0) = true.
Proof. eexists. eexists. split; [vm_compute; reflexivity|]. vm_compute. reflexivity. Qed.
Lemma speck_refuted : exists nodes A c d,
  face_area double_arith nodes = Ok (A, c, d) /\ Forall (fun v => SFleb (double_of 0 0) (fst v) = true) nodes /\
  SFltb (fst c) (double_of 0 0) = true.
Proof.
  destruct speck_values as [A [c [E L]]]. exists speck, A, c, Clockwise. split; [exact E|]. split; [|exact L].
  repeat (apply Forall_cons; [vm_compute; reflexivity|]). apply Forall_nil.
Qed.
Lemma square_face_area : exists A c, face_area RA (closed square) = Ok (A, c, AntiClockwise) /\ small < A.
Proof.
  destruct (face_area_convex square ltac:(cbn; lia) square_convex) as [A [c [E EA]]]. exists A, c. split; [exact E|].
  rewrite EA, square_area. rewrite Rmax_left; unfold small; lra.
Qed.

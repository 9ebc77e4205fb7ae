(** Concrete polygons for the properties of refining, snapping and offsetting. *)
From Verif Require Import Base BaseLemmas FloatModel PolyModel PolyEditModel PolyEditSpec PolyEditProofs.

Definition whole (x y : Z) : point := Pt (double_of x 0) (double_of y 0).
Definition square (x y : Z) : list point := [whole x y; whole (x + 1) y; whole (x + 1) (y + 1); whole x (y + 1); whole x y].
Definition two_pieces (a b : point) : Z := 2%Z.
Definition along_x (a b : point) : double := SFabs (fsub (px a) (px b)).
Definition to_origin (p : point) : point := whole 0 0.
Definition turn (a b : point) : point := Pt (fsub (py b) (py a)) (fsub (px a) (px b)).
Definition quarter (p v : point) : point := Pt (fmul (double_of 1 (-2)) (px v)) (fmul (double_of 1 (-2)) (py v)).
Definition is_missing (p : point) : bool := SFeqb (px p) (px missing_point).

Lemma square_closed x y : ends_meet (square x y).
Proof. split; [discriminate|reflexivity]. Qed.

Definition dbl_same (a b : double) : bool :=
  match a, b with
  | S754_zero s, S754_zero t | S754_infinity s, S754_infinity t => Bool.eqb s t
  | S754_nan, S754_nan => true
  | S754_finite s m e, S754_finite t n f => Bool.eqb s t && Pos.eqb m n && Z.eqb e f
  | _, _ => false
  end.
Lemma dbl_same_eq a b : dbl_same a b = true -> a = b.
Proof.
  destruct a as [s|s| |s m e], b as [t|t| |t n f]; cbn; try discriminate; intros H; try reflexivity; try (apply Bool.eqb_prop in H; congruence).
  apply andb_prop in H. destruct H as (H & H3). apply andb_prop in H. destruct H as (H1 & H2). apply Bool.eqb_prop in H1. apply Pos.eqb_eq in H2. apply Z.eqb_eq in H3. congruence.
Qed.
Fixpoint same_points (a b : list point) : bool :=
  match a, b with
  | [], [] => true
  | p :: a, q :: b => dbl_same (px p) (px q) && dbl_same (py p) (py q) && same_points a b
  | _, _ => false
  end.
Lemma same_points_eq : forall a b, same_points a b = true -> a = b.
Proof.
  induction a as [|[x y] a IH]; intros [|[x' y'] b] H; cbn [same_points px py] in H; try discriminate; [reflexivity|].
  apply andb_prop in H. destruct H as (H & H3). apply andb_prop in H. destruct H as (H1 & H2). apply dbl_same_eq in H1, H2. apply IH in H3. congruence.
Qed.

(** Refining the second side of the square in two. *)
Definition halved : list point := [whole 0 0; whole 1 0; Pt (double_of 1 0) (double_of 1 (-1)); whole 1 1; whole 0 1; whole 0 0].
Lemma side_halved : with_inside two_pieces (edge_chosen 1 2) 0 (square 0 0) = halved.
Proof. apply same_points_eq. vm_compute. reflexivity. Qed.

(** Linear refinement that ends by the number of rounds. *)
Definition uneven : list point := [whole 0 0; whole 1 0; whole 1001 0; whole 1002 0].
Definition points_of (r : outcome (list point)) : list point := match r with Ok l => l | _ => [] end.
Definition is_points (r : outcome (list point)) : bool := match r with Ok _ => true | _ => false end.
Lemma is_points_ok r : is_points r = true -> r = Ok (points_of r).
Proof. destruct r; [reflexivity|discriminate|discriminate]. Qed.
Lemma uneven_ok : linear_refine along_x uneven 0 3 = Ok (points_of (linear_refine along_x uneven 0 3)).
Proof. apply is_points_ok. vm_compute. reflexivity. Qed.
Lemma uneven_missing : existsb is_missing (points_of (linear_refine along_x uneven 0 3)) = true /\ length (points_of (linear_refine along_x uneven 0 3)) = 8.
Proof. split; vm_compute; reflexivity. Qed.
(** Linear refinement that ends by itself. *)
Definition even : list point := [whole 0 0; whole 1 0; whole 2 0; whole 3 0; whole 4 0].
Lemma even_ok : linear_refine along_x even 1 3 = Ok even.
Proof. rewrite (is_points_ok (linear_refine along_x even 1 3)) by (vm_compute; reflexivity). apply (f_equal Ok). apply same_points_eq. vm_compute. reflexivity. Qed.
Definition heap : list point := [whole 1 1; whole 1 1; whole 1 1; whole 1 1].
Lemma heap_ub : linear_refine along_x heap 0 3 = UB.
Proof. vm_compute. reflexivity. Qed.

(** Snapping the first nodes only opens the polygon. *)
Lemma opened : ~ ends_meet (replaced to_origin (node_chosen 0 1) 0 (square 5 5)).
Proof. intros (_ & E). apply (f_equal (fun p => dbl_same (px p) (double_of 0 0))) in E. vm_compute in E. discriminate E. Qed.

(** Offsets *)
Definition one_square : enclosure := Enclosure (square 0 0) [].
Definition holed : enclosure := Enclosure (square 0 0) [square 0 0].
Definition grown : list point :=
  let a := double_of (-1) (-2) in let b := double_of 5 (-2) in [Pt a a; Pt b a; Pt b b; Pt a b; Pt a a].
Lemma square_grown : outwards turn quarter (square 0 0) = grown.
Proof. apply same_points_eq. vm_compute. reflexivity. Qed.
Lemma one_long : Forall (fun e => 2 <= length (outer e) /\ inner e = []) [one_square].
Proof. repeat constructor. Qed.
Lemma holed_long : long_enclosure holed.
Proof. split; [cbn; lia|]. repeat constructor. Qed.
Lemma grown_polygons : offset_polygons turn quarter [one_square] false = Ok ([Enclosure grown []], [(0, 4)]).
Proof. vm_compute. reflexivity. Qed.
(** Two squares far from each other come out as one sequence. *)
Definition two_squares : list enclosure := [one_square; Enclosure (square 5 5) []].
Lemma two_refused : offset_polygons turn quarter two_squares false = Throw ConstraintErr.
Proof. vm_compute. reflexivity. Qed.
Definition is_two (r : outcome (enclosure * option enclosure)) : bool := match r with Ok (a, Some b) => (length (inner a) =? 1) && (length (inner b) =? 1) | _ => false end.
Lemma holed_offset : is_two (offset_enclosure turn quarter holed true) = true.
Proof. vm_compute. reflexivity. Qed.

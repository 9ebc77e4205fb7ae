(** Plane geometry: containment in a polygon and area of a polygon (cartesian coordinates).
    Source: /repo/libs/MeshKernel/src/Polygon.cpp, Operations.cpp.
    The code is written over an arbitrary arithmetic; it is instantiated with doubles (rounded operations, FloatModel) and with the real
    numbers (exact operations). *)
From Coq Require Import Reals.
From Verif Require Import Base FloatModel.

Record arith := Arith {
  num : Type;
  n0 : num; n1 : num; n3 : num; nhalf : num;
  min_area : num;                                      (* 1e-8, Polygon.cpp:638 *)
  nadd : num -> num -> num; nsub : num -> num -> num; nmul : num -> num -> num; ndiv : num -> num -> num;
  nabs : num -> num;
  nltb : num -> num -> bool; nleb : num -> num -> bool;
  nsame : num -> num -> bool }.                        (* IsEqual with the default tolerance *)

Inductive direction := AntiClockwise | Clockwise.

Section Geom.
  Variable A : arith.
  Notation num := (num A).
  Notation "x + y" := (nadd A x y).
  Notation "x - y" := (nsub A x y).
  Notation "x * y" := (nmul A x y).
  Notation "x / y" := (ndiv A x y).
  Definition vec : Type := (num * num)%type.

  (** The sides: consecutive nodes. *)
  Definition sides (nodes : list vec) : list (vec * vec) := combine nodes (tl nodes).

  (** crossProduct with Projection::cartesian, Operations.cpp:170-177, as called: second segment from the first node to the point *)
  Definition cross (a b p : vec) : num := (fst b - fst a) * (snd p - snd a) - (snd b - snd a) * (fst p - fst a).

  (** lambdaX, lambdaY of Polygon.cpp:92-96 *)
  Definition ratio (num_ den : num) : num := if nltb A (n0 A) (nabs A den) then num_ / den else n0 A.

  (** Polygon.cpp:89-101: the point is on the line of the side and between its ends *)
  Definition on_side (a b p : vec) : bool :=
    nsame A (cross a b p) (n0 A) &&
    let lx := ratio (fst p - fst a) (fst b - fst a) in
    let ly := ratio (snd p - snd a) (snd b - snd a) in
    nleb A (n0 A) lx && nleb A lx (n1 A) && nleb A (n0 A) ly && nleb A ly (n1 A).

  (** Polygon.cpp:104-118 and Operations.cpp:235-250: contribution to the winding number *)
  Definition crossing (a b p : vec) : Z :=
    if nleb A (snd a) (snd p) then
      if nltb A (snd p) (snd b) && nltb A (n0 A) (cross a b p) then 1 else 0
    else
      if nleb A (snd b) (snd p) && nltb A (cross a b p) (n0 A) then -1 else 0.

  (** Loop of Polygon::ContainsCartesian, Polygon.cpp:76-123 *)
  Fixpoint contains_loop (l : list (vec * vec)) (p : vec) (w : Z) : bool :=
    match l with
    | [] => negb (w =? 0)%Z
    | (a, b) :: t => if on_side a b p then true else contains_loop t p (w + crossing a b p)%Z
    end.
  Definition contains_cartesian (nodes : list vec) (p : vec) : bool := contains_loop (sides nodes) p 0.

  (** The bounding box of the nodes (BoundingBox.hpp:189-212 for valid nodes) and BoundingBox::Contains, 101-107 *)
  Definition nmin (x y : num) : num := if nltb A y x then y else x.
  Definition nmax (x y : num) : num := if nltb A x y then y else x.
  Definition in_box (nodes : list vec) (p : vec) : bool :=
    match nodes with
    | [] => true
    | a :: t =>
        let lx := fold_left (fun m v => nmin m (fst v)) t (fst a) in
        let ux := fold_left (fun m v => nmax m (fst v)) t (fst a) in
        let ly := fold_left (fun m v => nmin m (snd v)) t (snd a) in
        let uy := fold_left (fun m v => nmax m (snd v)) t (snd a) in
        nleb A lx (fst p) && nleb A (fst p) ux && nleb A ly (snd p) && nleb A (snd p) uy
    end.

  (** Polygon::Contains for cartesian and spherical projections, Polygon.cpp:186-215, for a valid point *)
  Definition polygon_contains (nodes : list vec) (p : vec) : bool :=
    match nodes with
    | [] => true
    | _ => if length nodes <? 3 then false else if in_box nodes p then contains_cartesian nodes p else false
    end.

  (** Loop of IsPointInPolygonNodes, Operations.cpp:223-251: unlike above, any point on the line of a side is accepted *)
  Fixpoint nodes_loop (l : list (vec * vec)) (p : vec) (w : Z) : bool :=
    match l with
    | [] => negb (w =? 0)%Z
    | (a, b) :: t => if nsame A (cross a b p) (n0 A) then true else nodes_loop t p (w + crossing a b p)%Z
    end.

  (** IsPointInPolygonNodes without start and end node, Operations.cpp:179-256 *)
  Definition in_polygon_nodes (nodes : list vec) (p : vec) : bool :=
    match nodes with
    | [] => true
    | a :: _ =>
        if length nodes <=? 1 then true
        else if length nodes <? 3 then false
        else
          let z := last nodes a in
          if negb (nsame A (fst a) (fst z) && nsame A (snd a) (snd z)) then false
          else if in_box nodes p then nodes_loop (sides nodes) p 0 else false
    end.

  (** *** Area, Polygon::FaceAreaAndCenterOfMass, Polygon.cpp:627-729 *)

  (** ReferencePoint, Operations.cpp:817-846: the smallest x and the y with the smallest absolute value.  The loop starts from the
      largest double; started from the first node here. *)
  Definition reference (nodes : list vec) : vec :=
    match nodes with
    | [] => (n0 A, n0 A)
    | a :: t =>
        (fold_left (fun m v => nmin (fst v) m) t (fst a),
         fold_left (fun m v => if nltb A (nabs A (snd v)) (nabs A m) then snd v else m) t (snd a))
    end.

  (** xds and middle of one side, 701-709 (the same computation in 649-669 and 677-699) *)
  Definition middle (r a b : vec) : vec :=
    (nhalf A * ((fst a - fst r) + (fst b - fst r)), nhalf A * ((snd a - snd r) + (snd b - snd r))).
  Definition side_area (r a b : vec) : num :=
    (snd b - snd a) * fst (middle r a b) - (fst b - fst a) * snd (middle r a b).

  (** The sides of the polygon without its last node, closed by NextCircularForwardIndex. *)
  Definition ring_sides (nodes : list vec) : list (vec * vec) :=
    match removelast nodes with
    | [] => []
    | a :: t => sides ((a :: t) ++ [a])
    end.

  Definition signed_area (nodes : list vec) : num :=
    let r := reference nodes in
    match ring_sides nodes with
    | [(a, b); (_, c); _] => nhalf A * (side_area r a b + side_area r b c + side_area r c a)
    | [(a, b); (_, c); (_, d); _] => nhalf A * (side_area r a b + side_area r b c + side_area r c d + side_area r d a)
    | l => fold_left (fun s e => s + nhalf A * side_area r (fst e) (snd e)) l (n0 A)
    end.
  Definition moment (f : vec -> num) (nodes : list vec) : num :=
    let r := reference nodes in
    fold_left (fun s e => s + side_area r (fst e) (snd e) * f (middle r (fst e) (snd e))) (ring_sides nodes) (n0 A).

  (** Area, centre of mass and direction *)
  Definition face_area (nodes : list vec) : outcome (num * vec * direction) :=
    if length nodes <? 3 then Throw StdErr
    else
      let r := reference nodes in
      let area := signed_area nodes in
      let dir := if nltb A (n0 A) area then AntiClockwise else Clockwise in
      let area' := if nltb A (nabs A area) (min_area A) then min_area A else area in
      let f := n1 A / (n3 A * area') in
      let c := (moment fst nodes * f + fst r, moment snd nodes * f + snd r) in
      Ok (nabs A area', c, dir).
End Geom.

(** Doubles *)
Definition double_arith : arith :=
  Arith double (double_of 0 0) (double_of 1 0) (double_of 3 0) (double_of 1 (-1)) (fdiv (double_of 1 0) (double_of 100000000 0))
    fadd fsub fmul fdiv SFabs SFltb SFleb is_equal.

(** Exact arithmetic *)
Definition real_arith : arith :=
  Arith R 0%R 1%R 3%R (1 / 2)%R (1 / 100000000)%R Rplus Rminus Rmult Rdiv Rabs
    (fun x y => if Rlt_dec x y then true else false) (fun x y => if Rle_dec x y then true else false)
    (fun x y => if Req_EM_T x y then true else false).

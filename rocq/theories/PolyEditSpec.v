(** What the properties of refining, snapping and offsetting polygons are stated with. *)
From Verif Require Import Base FloatModel PolyModel PolyEditModel.

(** The edges and the nodes from one node to another, around the polygon if the second comes first. *)
Definition edge_chosen (start stop i : nat) : bool := if start <? stop then (start <=? i) && (i <? stop) else (i <? stop) || (start <=? i).
Definition node_chosen (start stop i : nat) : bool := if start <=? stop then (start <=? i) && (i <=? stop) else (i <=? stop) || (start <=? i).

(** The point at the part [t] of a segment. *)
Definition part_of (a b : point) (t : double) : point :=
  let one := double_of 1 0 in Pt (fadd (fmul (fsub one t) (px a)) (fmul t (px b))) (fadd (fmul (fsub one t) (py a)) (fmul t (py b))).
(** Points at equal steps inside an edge of [n] pieces. *)
Definition inside_edge (a b : point) (n : nat) : list point :=
  map (fun k => part_of a b (fdiv (double_of (Z.of_nat k) 0) (double_of (Z.of_nat n) 0))) (seq 1 (n - 1)).
(** Every node, followed by the points inside the edge to the next one if that is chosen. *)
Fixpoint with_inside (pieces : point -> point -> Z) (chosen : nat -> bool) (i : nat) (nodes : list point) : list point :=
  match nodes with
  | [] => []
  | a :: t => a :: match t with
                   | [] => []
                   | b :: _ => (if chosen i then inside_edge a b (Z.to_nat (pieces a b)) else []) ++ with_inside pieces chosen (i + 1) t
                   end
  end.
Definition ends_meet (l : list point) : Prop := l <> [] /\ nth 0 l missing_point = nth (length l - 1) l missing_point.

(** The nodes from one to another, around the polygon without its first node again if the second comes first. *)
Definition selected (nodes : list point) (start stop : nat) : list point :=
  map (fun i => nth i nodes missing_point) (if start <? stop then seq start (stop - start + 1) else seq start (length nodes - start) ++ seq 1 stop).
(** [p] is the missing point or lies between neighbours of a sequence. *)
Definition on_sequence (points : list point) (p : point) : Prop :=
  p = missing_point \/ exists i t, S i < length points /\ p = part_of (nth i points missing_point) (nth (S i) points missing_point) t.

(** The nodes with the chosen valid ones replaced. *)
Fixpoint replaced (f : point -> point) (chosen : nat -> bool) (i : nat) (nodes : list point) : list point :=
  match nodes with
  | [] => []
  | p :: t => (if chosen i && is_valid p then f p else p) :: replaced f chosen (i + 1) t
  end.

(** The normals before and after a node of a closed sequence. *)
Definition normal_before (normal : point -> point -> point) (nodes : list point) (i : nat) : point :=
  if i =? 0 then normal (nth (length nodes - 2) nodes missing_point) (nth 0 nodes missing_point)
  else normal (nth (i - 1) nodes missing_point) (nth i nodes missing_point).
Definition normal_after (normal : point -> point -> point) (nodes : list point) (i : nat) : point :=
  if i =? length nodes - 1 then normal (nth 0 nodes missing_point) (nth 1 nodes missing_point)
  else normal (nth i nodes missing_point) (nth (i + 1) nodes missing_point).
(** The offset of node [i]: one over one plus the product, times the sum of the normals. *)
Definition offset_of (normal displacement : point -> point -> point) (nodes : list point) (i : nat) : point :=
  displacement (nth i nodes missing_point)
    (let a := normal_before normal nodes i in
     let b := normal_after normal nodes i in
     let f := fdiv (double_of 1 0) (fadd (double_of 1 0) (fadd (fmul (px a) (px b)) (fmul (py a) (py b)))) in
     Pt (fmul f (fadd (px a) (px b))) (fmul f (fadd (py a) (py b)))).
Definition outwards normal displacement (nodes : list point) : list point :=
  map (fun i => let p := nth i nodes missing_point in let v := offset_of normal displacement nodes i in Pt (fadd (px p) (px v)) (fadd (py p) (py v))) (seq 0 (length nodes)).
Definition inwards normal displacement (nodes : list point) : list point :=
  map (fun i => let p := nth i nodes missing_point in let v := offset_of normal displacement nodes i in Pt (fsub (px p) (px v)) (fsub (py p) (py v))) (seq 0 (length nodes)).
(** A ring and its holes, separated. *)
Definition with_holes (ring : list point) (holes : list (list point)) : list point := ring ++ flat_map (fun h => separator_point :: h) holes.

Definition long_enclosure (e : enclosure) : Prop := 2 <= length (outer e) /\ Forall (fun h => 2 <= length h) (inner e).

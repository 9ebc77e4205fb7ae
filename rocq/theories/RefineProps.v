(** Properties C74 to C80: the refinement of a mesh. *)
From Coq Require Import Permutation.
From Verif Require Import Base FloatModel UndoSpec ActionModel ActionSpec MeshModel MeshSpec MeshUndo FaceModel FaceSpec FaceUseMain FlipSpec RefineModel SplitWitness RefineSpec RefineHang RefineBrothers RefineWhole RefineExact RefineUniform RefineFinal RefineWitness.

Notation reversible_by order := (reversible (restore_act (restore_leaf order)) (commit_act (commit_leaf order)) mesh_le).
Notation permutes order := (forall (nodes : list point) (edges : list edge) n row, Permutation row (order nodes edges n row)).

(** C74: every edge found to have a brother is one of two halves with it, and every edge that is a half gets a brother. *)
Theorem C74_brothers : forall centred m f, in_step m f -> exists l, find_brothers centred m f = Ok l /\ length l = length (m_edges m) /\
  (forall a b, brother l a = Some b -> a < length (m_edges m) /\ RefineSpec.halves centred m f a b) /\ (forall a b, RefineSpec.halves centred m f a b -> brother l a <> None).
Proof. exact find_brothers_ok. Qed.
(** If no edge is a half with two others, the brothers are exactly the halves, and mutual. *)
Theorem C74_exact : forall centred m f, in_step m f -> forall l, find_brothers centred m f = Ok l ->
  (forall a b c, RefineSpec.halves centred m f a b -> RefineSpec.halves centred m f a c -> b = c) ->
  (forall a b, brother l a = Some b <-> RefineSpec.halves centred m f a b) /\ forall es, mutual l es.
Proof. exact brothers_mutual. Qed.
Example C74_example : in_step steps step_faces /\ find_brothers centred_exact steps step_faces = Ok step_brothers /\
  (forall a b c, RefineSpec.halves centred_exact steps step_faces a b -> RefineSpec.halves centred_exact steps step_faces a c -> b = c).
Proof. exact (conj (proj1 (proj2 (proj2 step_start))) (conj (proj1 step_pairs) (proj2 (proj2 step_pairs)))). Qed.
(** C74 is false in general: with three equal edges in a line the brother of the brother is another edge. *)
Theorem C74_mutual_refuted : exists m f l, in_step m f /\ find_brothers centred_exact m f = Ok l /\ exists a b c, brother l a = Some b /\ brother l b = Some c /\ c <> a.
Proof. exact line_brothers. Qed.

(** C75: the marks only grow; every face that changes is one that may be split and has all its edges marked, the hanging ones apart; every new mark is on an edge of a face that changed;
    the marks are contained in every larger set of marks under which all faces that must be split have their edges marked; and, with less than a thousand edges unmarked,
    they are such a set themselves. *)
Theorem C75_spread : forall m f br fm em cache, in_step m f -> at_most_six f -> length br = length (m_edges m) -> length fm = num_faces f -> length em = length (m_edges m) -> zero_or_one em ->
  exists d, spread m f br fm em cache = Ok d /\ length (d_faces d) = num_faces f /\ length (d_edges d) = length (m_edges m) /\ zero_or_one (d_edges d) /\ covers em (d_edges d) /\
    (forall i, value (d_faces d) i = value fm i \/
       (i < num_faces f /\ undecided fm i = true /\ value (d_faces d) i = (if (value fm i =? -1)%Z then -2 else 2)%Z /\ all_marked br (d_edges d) (edges_of f i))) /\
    (forall e, marked (d_edges d) e = true -> marked em e = true \/ exists i, i < num_faces f /\ value (d_faces d) i <> value fm i /\ In e (edges_of f i)) /\
    (forall em', covers em em' -> settled f br fm em' -> covers (d_edges d) em') /\
    (zeros em < max_spread -> settled f br fm (d_edges d)).
Proof. exact spread_result. Qed.
Example C75_example : in_step steps step_faces /\ at_most_six step_faces /\ length step_brothers = length (m_edges steps) /\ zero_or_one step_marks /\ zeros step_marks < max_spread /\
  masks_of (spread steps step_faces step_brothers [0; 0; 0]%Z step_marks []) = Ok ([0; 0; 2], [1; 1; 0; 1; 1; 0; 0; 0; 0; 0])%Z.
Proof. exact (conj (proj1 (proj2 (proj2 step_start))) (conj (proj2 (proj2 (proj2 step_start))) (conj (proj1 (proj2 step_pairs)) step_spread))). Qed.

(** C76: one step of refinement adds the middles of the marked edges, the centres of the marked faces, the edges inside them and the second halves, in this order, and can be undone.
    Only faces with six points on their sides are an exception. *)
Theorem C76_step : forall order centre m f em nm fm br, in_step m f -> at_most_six f -> length em = length (m_edges m) -> length nm = length (m_nodes m) -> length fm = num_faces f ->
  length br = length (m_edges m) -> only_sides f em ->
  exists a s, refine_faces order centre f br fm m nm em = Ok (a, s) /\ reversible_by order a m (r_mesh s) /\ consistent (r_mesh s) /\ (exists ps, m_nodes (r_mesh s) = m_nodes m ++ ps) /\
    ((forall i, i < num_faces f -> marked fm i = true -> length (side_nodes m br em (nodes_of f i) (edges_of f i)) < 6) -> refined (centre m f) m f br fm em nm (r_mesh s) (r_nodes s)).
Proof. exact step_result. Qed.
(** C76 is false in general: a hexagon with all its edges marked is left as it is. *)
Theorem C76_hexagon_refuted : exists a s, refine_faces angle_order centre_mean ring_faces none_six [1%Z] ring all_ones all_ones = Ok (a, s) /\ m_edges (r_mesh s) = m_edges ring.
Proof. exact ring_kept. Qed.
Example C76_example : in_step ring ring_faces /\ at_most_six ring_faces /\ only_sides ring_faces all_ones.
Proof. exact (conj (proj1 (proj2 (proj2 ring_start))) (conj (proj2 (proj2 (proj2 ring_start))) ring_only)). Qed.

(** C77: the edges to the hanging nodes are exactly the wanted ones, apart from those between nodes that have an edge already. *)
Theorem C77_hanging : forall order m f br, in_step m f -> at_most_six f -> length br = length (m_edges m) ->
  (forall i, i < num_faces f -> connectable br (nodes_of f i) (edges_of f i)) ->
  exists a inner, connect_hanging order f br m = Ok (a, set_edges m (m_edges m ++ map pair_edge inner)) /\ thinned (fun p => neighbour m (fst p) (snd p)) (new_links f br) inner /\
    reversible_by order a m (set_edges m (m_edges m ++ map pair_edge inner)) /\ consistent (set_edges m (m_edges m ++ map pair_edge inner)).
Proof. exact hanging_result. Qed.
(** Other faces are refused. *)
Theorem C77_refused : forall order m f br, in_step m f -> at_most_six f -> length br = length (m_edges m) ->
  ~ (forall i, i < num_faces f -> connectable br (nodes_of f i) (edges_of f i)) -> connect_hanging order f br m = Throw StdErr \/ connect_hanging order f br m = Throw ConstraintErr.
Proof. exact hanging_refused. Qed.
(** With mutual brothers, one or two hanging nodes and three or four sides, every hanging node gets an edge. *)
Theorem C77_complete : forall m ns es br, 3 <= length ns -> NoDup ns -> cycle_of_edges m ns es -> mutual br es ->
  let s := sides br ns es in
  length (filter (fun q => present (snd q)) s) = length es - length s /\ length s <= length es /\
  (length s = 3 \/ length s = 4 -> length es - length s = 1 \/ length es - length s = 2 ->
   (forall p, In p (links br ns es) -> present (fst p) = true /\ present (snd p) = true) /\
   (forall j, j < length es -> with_previous br es j = true -> ends_at (links br ns es) (item ns j))).
Proof. exact mutual_links. Qed.
Example C77_example : in_step steps step_faces /\ at_most_six step_faces /\ length step_brothers = length (m_edges steps) /\
  (forall i, i < num_faces step_faces -> connectable step_brothers (nodes_of step_faces i) (edges_of step_faces i)) /\ new_links step_faces step_brothers = [(0, 7); (3, 7)] /\
  result_edges (connect_hanging angle_order step_faces step_brothers steps) = step_edges ++ links_between [(0, 7); (3, 7)].
Proof. exact (conj (proj1 (proj2 (proj2 step_start))) (conj (proj2 (proj2 (proj2 step_start))) (conj (proj1 (proj2 step_pairs)) (conj step_connectable step_links)))). Qed.
(** C77 is false in general: the hanging nodes of a triangle with three of them stay, ... *)
Theorem C77_three_refuted : exists m f br a m', in_step m f /\ find_brothers centred_exact m f = Ok br /\ (exists i j, i < num_faces f /\ j < 6 /\ hanging_node br (edges_of f i) j = true) /\
  connect_hanging angle_order f br m = Ok (a, m') /\ m_edges m' = m_edges m.
Proof. exact three_left. Qed.
(** ... and a face with five sides ends the refinement with a standard exception. *)
Theorem C77_five_refuted : exists m, consistent m /\ refine_example 0 true m = Throw StdErr.
Proof. exact five_refused. Qed.

(** C78: the refinement as a whole.  The action undoes and redoes it, the tables describe the new mesh, and no node has moved. *)
Theorem C78_refine : forall order, permutes order -> forall clockwise centred centre selected, (forall m f, length (selected m f) = length (m_nodes m)) ->
  forall by_ levels connect m, consistent m ->
    match refine order clockwise centred centre selected by_ levels connect m with
    | Ok (a, m', f') => reversible_by order a m m' /\ in_step m' f' /\ administrated m' /\ nodes_kept m m'
    | Throw e => e = AlgorithmErr \/ connect = true /\ (e = StdErr \/ e = ConstraintErr)
    | UB => ~ (levels <= 1 /\ exists small, by_ = BySize small)
    end.
Proof. exact whole_result. Qed.
Example C78_example : permutes angle_order /\ (forall m f, length (everywhere m f) = length (m_nodes m)) /\ consistent house.
Proof. exact (conj angle_order_perm (conj everywhere_length (proj1 house_start))). Qed.
(** C78 is false in general: in two levels there can be an access out of range. *)
Theorem C78_safe_refuted : exists m, consistent m /\ refine_example 2 false m = UB.
Proof. exact hexa_unsafe. Qed.

(** C79: the masks by size: the sides that are not too small, and the faces with such a side. *)
Theorem C79_from_size : forall m f small, in_step m f -> at_most_six f ->
  exists em fm, masks_from_size m f small = Ok (em, fm) /\ length em = length (m_edges m) /\ length fm = num_faces f /\
    (forall e, value em e = if side_of f e && negb (small e) then (-1)%Z else 0%Z) /\
    (forall i, i < num_faces f -> value fm i = if existsb (fun e => negb (small e)) (edges_of f i) then 1%Z else 0%Z).
Proof. exact size_result. Qed.
(** The nodes of faces across the border of the selection. *)
Theorem C79_perimeter : forall m f nm, in_step m f -> at_most_six f -> length nm = length (m_nodes m) ->
  exists nm', perimeter f nm = Ok nm' /\ length nm' = length (m_nodes m) /\ forall n, value nm' n = if (value nm n =? 1)%Z && at_border f nm n then (-2)%Z else value nm n.
Proof. exact perimeter_result. Qed.
(** The faces that take part. *)
Theorem C79_limit : forall m f first nm fm, in_step m f -> at_most_six f -> length nm = length (m_nodes m) -> length fm = num_faces f ->
  exists fm', limit_faces first f nm fm = Ok fm' /\ length fm' = num_faces f /\ forall i, i < num_faces f -> value fm' i = if takes_part first nm (nodes_of f i) then value fm i else 0%Z.
Proof. exact limit_result. Qed.
(** The edges of the faces to refine: nothing else is marked, and the edges asked for are. *)
Theorem C79_settle : forall m f br fm em cache, in_step m f -> at_most_six f -> length br = length (m_edges m) -> length fm = num_faces f -> length em = length (m_edges m) -> only_sides f em ->
  match settle f br fm cache em with
  | Ok em' => length em' = length (m_edges m) /\ only_sides f em' /\ zero_or_one em' /\ (forall e, value em e = 1%Z -> value em' e = 1%Z) /\
      (forall e, value em' e = 1%Z -> value em e = 1%Z \/ exists i, i < num_faces f /\ marked fm i = true /\ In e (edges_of f i)) /\
      forall i, i < num_faces f -> marked fm i = true ->
        (length (edges_of f i) <> 4 + count_true cache -> forall j, j < length (edges_of f i) -> on_its_own br (edges_of f i) j = true -> value em' (item (edges_of f i) j) = 1%Z) /\
        (length (edges_of f i) = 4 + count_true cache -> (forall j, with_next br (edges_of f i) j = false) ->
           forall j, j < length (edges_of f i) -> value em (item (edges_of f i) j) = (-1)%Z -> value em' (item (edges_of f i) j) = 1%Z)
  | Throw e => e = AlgorithmErr
  | UB => count_true cache <> 0
  end.
Proof. exact settle_result. Qed.
(** Refinement in one direction is never done. *)
Theorem C79_directional : forall m f br wanted times cache, in_step m f -> at_most_six f -> length br = length (m_edges m) -> masks_from_samples wanted true times m f br cache = Throw AlgorithmErr.
Proof. exact directional_throws. Qed.
(** C79 is false in general: the refinement depends on the numbering of the nodes of a quadrilateral, ... *)
Theorem C79_numbering_refuted : exists nodes nodes', Permutation nodes nodes' /\
  (let m := fst (searched nodes square_ring) in consistent m /\ shown (refine_example 1 false m) =
     Ok (6, links_between [(0, 4); (1, 5); (2, 3); (3, 0); (4, 5); (4, 1); (5, 2)], [[1; 5; 4]; [0; 4; 5; 2; 3]])) /\
  (let m := fst (searched nodes' square_ring) in consistent m /\ shown (refine_example 1 false m) =
     Ok (9, links_between [(0, 4); (1, 5); (2, 6); (3, 7); (4, 8); (5, 8); (6, 8); (7, 8); (4, 1); (5, 2); (6, 3); (7, 0)], [[0; 4; 8; 7]; [1; 5; 8; 4]; [2; 6; 8; 5]; [3; 7; 8; 6]])).
Proof. exact kites. Qed.
(** ... and a triangle with one hanging node is refused. *)
Theorem C79_triangle_refuted : exists m, consistent m /\ refine_example 1 false m = Throw AlgorithmErr.
Proof. exact tent_refused. Qed.

(** C80: refining everything halves every side of a face, divides every triangle in four and every quadrilateral in four around its centre; administration follows. *)
Theorem C80_everything : forall order, permutes order -> forall clockwise centred centre selected small m m0 f0,
  consistent m -> administrate2d order clockwise m = Ok (m0, f0) -> 0 < num_faces f0 -> three_or_four f0 ->
  (forall a b, ~ RefineSpec.halves centred m0 f0 a b) -> length (selected m0 f0) = length (m_nodes m0) -> (forall n, n < length (m_nodes m0) -> value (selected m0 f0) n = 1%Z) ->
  (forall e, e < length (m_edges m0) -> small m0 e = false) ->
  exists a m1 m2 f2, refine order clockwise centred centre selected (BySize small) 1 false m = Ok (a, m2, f2) /\ all_halved (centre m0 f0) m0 f0 m1 /\ administrate2d order clockwise m1 = Ok (m2, f2).
Proof. exact refine_everything. Qed.
Example C80_example : consistent house /\ administrate2d angle_order shoelace_sign house = Ok (house, house_faces) /\ 0 < num_faces house_faces /\ three_or_four house_faces /\
  (forall a b, ~ RefineSpec.halves centred_exact house house_faces a b) /\ (forall e, e < length (m_edges house) -> short house e = false).
Proof. exact (conj (proj1 house_start) (conj (proj1 (proj2 house_start)) house_conditions)). Qed.
Example C80_example_selected : forall m f, length (everywhere m f) = length (m_nodes m) /\ forall n, n < length (m_nodes m) -> value (everywhere m f) n = 1%Z.
Proof. exact (fun m f => conj (everywhere_length m f) (everywhere_one m f)). Qed.
Example C80_example_result : shown (refine_example 1 false house) =
  Ok (12, links_between [(0, 5); (1, 6); (2, 7); (3, 8); (2, 9); (4, 10); (9, 10); (10, 7); (7, 9); (5, 11); (6, 11); (7, 11); (8, 11); (5, 1); (6, 2); (7, 3); (8, 0); (9, 4); (10, 3)],
      [[2; 9; 7]; [3; 7; 10]; [4; 10; 9]; [7; 9; 10]; [0; 5; 11; 8]; [1; 6; 11; 5]; [2; 7; 11; 6]; [3; 8; 11; 7]]).
Proof. exact house_result. Qed.
(** In a hexagon nothing happens. *)
Theorem C80_hexagon_refuted : shown (refine_example 1 false hexa) = Ok (17, hexa_edges, [[6; 10; 7; 8; 9]; [0; 1; 2; 3; 4; 5]]) /\ m_edges hexa = hexa_edges.
Proof. exact hexa_kept. Qed.

Print Assumptions C74_brothers.
Print Assumptions C74_exact.
Print Assumptions C74_mutual_refuted.
Print Assumptions C75_spread.
Print Assumptions C76_step.
Print Assumptions C76_hexagon_refuted.
Print Assumptions C77_hanging.
Print Assumptions C77_refused.
Print Assumptions C77_complete.
Print Assumptions C77_three_refuted.
Print Assumptions C77_five_refuted.
Print Assumptions C78_refine.
Print Assumptions C78_safe_refuted.
Print Assumptions C79_from_size.
Print Assumptions C79_perimeter.
Print Assumptions C79_limit.
Print Assumptions C79_settle.
Print Assumptions C79_directional.
Print Assumptions C79_numbering_refuted.
Print Assumptions C79_triangle_refuted.
Print Assumptions C80_everything.
Print Assumptions C80_hexagon_refuted.

(** Properties of refining, snapping and offsetting polygons (C105-C110). *)
From Verif Require Import Base FloatModel PolyModel PolyEditModel PolyEditSpec PolyEditProofs PolyEditWitness.

(** ** C105 Refine *)
Theorem C105_refined : forall pieces nodes start stop, start <> stop -> start < length nodes -> stop < length nodes ->
  refine pieces nodes start stop = Ok (with_inside pieces (edge_chosen start stop) 0 nodes).
Proof. exact refine_ok. Qed.
Theorem C105_length : forall pieces chosen nodes, length (with_inside pieces chosen 0 nodes) =
  length nodes + list_sum (map (fun i => if chosen i then Z.to_nat (pieces (nth i nodes missing_point) (nth (i + 1) nodes missing_point)) - 1 else 0) (seq 0 (length nodes - 1))).
Proof. exact (fun pieces chosen nodes => with_inside_length pieces chosen nodes 0). Qed.
Theorem C105_closed : forall pieces chosen nodes, ends_meet nodes -> ends_meet (with_inside pieces chosen 0 nodes).
Proof. exact refined_closed. Qed.
Theorem C105_refused : forall pieces nodes start stop, start <> stop -> length nodes <= start \/ length nodes <= stop -> refine pieces nodes start stop = Throw ConstraintErr.
Proof. exact refine_refused. Qed.
(** Equal indices are accepted whether or not there is such a node. *)
Theorem C105_same : forall pieces nodes start, refine pieces nodes start start = Ok nodes.
Proof. exact refine_same. Qed.
Example C105_case : 1 <> 2 /\ 1 < length (square 0 0) /\ 2 < length (square 0 0) /\ ends_meet (square 0 0) /\ with_inside two_pieces (edge_chosen 1 2) 0 (square 0 0) = halved.
Proof. split; [lia|]. split; [cbn; lia|]. split; [cbn; lia|]. split; [exact (square_closed 0 0)|exact side_halved]. Qed.
Example C105_outside : 1 <> 7 /\ length (square 0 0) <= 7.
Proof. cbn. lia. Qed.

(** ** C106 LinearRefine *)
Theorem C106_linear : forall distance nodes start stop r, linear_refine distance nodes start stop = Ok r -> start <> stop -> 4 <= length nodes ->
  exists mid, r = (if start <? stop then firstn start nodes ++ mid ++ skipn (stop + 1) nodes else firstn (start - stop) (skipn stop nodes) ++ mid) /\
    2 <= length mid <= 2 * length (selected nodes start stop) /\ Forall (on_sequence (selected nodes start stop)) mid.
Proof. exact linear_ok. Qed.
Theorem C106_unchanged : forall distance nodes start stop, start < length nodes -> stop < length nodes -> start = stop \/ length nodes < 4 -> linear_refine distance nodes start stop = Ok nodes.
Proof. exact linear_unchanged. Qed.
Theorem C106_refused : forall distance nodes start stop, length nodes <= start \/ length nodes <= stop -> linear_refine distance nodes start stop = Throw ConstraintErr.
Proof. exact linear_refused. Qed.
(** From the last node to the first only one node is selected, and a second distance is read. *)
Theorem C106_last_to_first : forall distance nodes, 4 <= length nodes -> linear_refine distance nodes (length nodes - 1) 0 = UB.
Proof. exact linear_closing. Qed.
(** The result may hold a point that was never set. *)
Theorem C106_every_point_set_refuted : ~ (forall distance nodes start stop r, linear_refine distance nodes start stop = Ok r -> Forall (fun p => is_missing p = false) nodes ->
  Forall (fun p => is_missing p = false) r).
Proof.
  intros H. specialize (H _ _ _ _ _ uneven_ok ltac:(repeat constructor)). destruct uneven_missing as (E & _). apply existsb_exists in E. destruct E as (p & I & E).
  rewrite Forall_forall in H. rewrite (H p I) in E. discriminate E.
Qed.
(** Coinciding nodes have no largest ratio. *)
Theorem C106_defined_refuted : ~ (forall distance nodes start stop, start < stop -> stop < length nodes -> linear_refine distance nodes start stop <> UB).
Proof. intros H. apply (H along_x heap 0 3); [lia|cbn; lia|exact heap_ub]. Qed.
Example C106_case : linear_refine along_x even 1 3 = Ok even /\ 1 <> 3 /\ 4 <= length even.
Proof. split; [exact even_ok|]. cbn. lia. Qed.

(** ** C107 SnapToLandBoundary *)
Theorem C107_snapped : forall nearest translate nodes start stop, start < length nodes -> stop < length nodes ->
  snap_polygon nearest translate nodes start stop = Ok (translate (replaced nearest (node_chosen start stop) 0 nodes)).
Proof. exact snap_polygon_ok. Qed.
Theorem C107_closed : forall nearest nodes start stop, start < length nodes -> stop < length nodes -> ends_meet nodes -> node_chosen start stop 0 = node_chosen start stop (length nodes - 1) ->
  ends_meet (replaced nearest (node_chosen start stop) 0 nodes).
Proof. exact snap_closed. Qed.
Theorem C107_refused : forall nearest translate nodes start stop, length nodes <= start \/ length nodes <= stop -> snap_polygon nearest translate nodes start stop = Throw ConstraintErr.
Proof. exact snap_refused. Qed.
(** Snapping the first node and not the last opens the polygon. *)
Theorem C107_always_closed_refuted : ~ (forall nearest nodes start stop, start < length nodes -> stop < length nodes -> ends_meet nodes ->
  ends_meet (replaced nearest (node_chosen start stop) 0 nodes)).
Proof. intros H. apply opened. apply H; [cbn; lia|cbn; lia|exact (square_closed 5 5)]. Qed.
Example C107_case : 1 < length (square 5 5) /\ 3 < length (square 5 5) /\ ends_meet (square 5 5) /\ node_chosen 1 3 0 = node_chosen 1 3 (length (square 5 5) - 1).
Proof. split; [cbn; lia|]. split; [cbn; lia|]. split; [exact (square_closed 5 5)|reflexivity]. Qed.

(** ** C108 ComputeOffset *)
Theorem C108_offset : forall normal displacement nodes both, 2 <= length nodes ->
  offset_polygon normal displacement nodes both = Ok (outwards normal displacement nodes ++ if both then missing_point :: inwards normal displacement nodes else []).
Proof. exact offset_ok. Qed.
Theorem C108_closed : forall normal displacement nodes, 2 <= length nodes -> ends_meet nodes -> ends_meet (outwards normal displacement nodes) /\ ends_meet (inwards normal displacement nodes).
Proof. exact offset_closed. Qed.
Theorem C108_short : forall normal displacement nodes both, length nodes < 2 -> offset_polygon normal displacement nodes both = UB.
Proof. exact offset_short. Qed.
Example C108_case : 2 <= length (square 0 0) /\ ends_meet (square 0 0) /\ outwards turn quarter (square 0 0) = grown.
Proof. split; [cbn; lia|]. split; [exact (square_closed 0 0)|exact square_grown]. Qed.

(** ** C109 Polygons::OffsetCopy *)
Theorem C109_plain : forall normal displacement es, Forall (fun e => 2 <= length (outer e) /\ inner e = []) es ->
  offset_polygons normal displacement es false = make_polygons (flat_map (fun e => outwards normal displacement (outer e)) es ++ repeat missing_point (length es - 1)).
Proof. exact plain_offset. Qed.
Theorem C109_one_both : forall normal displacement e, 2 <= length (outer e) -> inner e = [] ->
  offset_polygons normal displacement [e] true = make_polygons (outwards normal displacement (outer e) ++ missing_point :: inwards normal displacement (outer e)).
Proof. exact single_both. Qed.
(** With a hole anywhere, points are written outside the vector. *)
Theorem C109_holes : forall normal displacement es, Forall long_enclosure es -> Exists (fun e => inner e <> []) es -> offset_polygons normal displacement es false = UB.
Proof. exact holes_outside. Qed.
(** Two outer rings are not separated in the result. *)
Theorem C109_several_refuted : ~ (forall normal displacement es, Forall (fun e => 2 <= length (outer e) /\ inner e = []) es -> Forall (fun e => ends_meet (outer e)) es -> es <> [] ->
  exists r, offset_polygons normal displacement es false = Ok r).
Proof.
  intros H. destruct (H turn quarter two_squares) as (r & E).
  - repeat constructor.
  - constructor; [exact (square_closed 0 0)|]. constructor; [exact (square_closed 5 5)|constructor].
  - discriminate.
  - rewrite two_refused in E. discriminate E.
Qed.
Example C109_case : Forall (fun e => 2 <= length (outer e) /\ inner e = []) [one_square] /\ offset_polygons turn quarter [one_square] false = Ok ([Enclosure grown []], [(0, 4)]).
Proof. split; [exact one_long|exact grown_polygons]. Qed.
Example C109_hole : Forall long_enclosure [holed] /\ Exists (fun e => inner e <> []) [holed].
Proof. split; [constructor; [exact holed_long|constructor]|constructor; discriminate]. Qed.

(** ** C110 PolygonalEnclosure::OffsetCopy *)
Theorem C110_enclosure : forall normal displacement e both, 2 <= length (outer e) -> Forall (fun h => 2 <= length h) (inner e) ->
  offset_enclosure normal displacement e both =
  (let! a := make_enclosure (with_holes (outwards normal displacement (outer e)) (map (outwards normal displacement) (inner e))) in
   if both then let! b := make_enclosure (with_holes (inwards normal displacement (outer e)) (map (inwards normal displacement) (inner e))) in Ok (a, Some b) else Ok (a, None)).
Proof. exact (fun normal displacement e both A B => enclosure_ok normal displacement e both (conj A B)). Qed.
Example C110_case : 2 <= length (outer holed) /\ Forall (fun h => 2 <= length h) (inner holed) /\ is_two (offset_enclosure turn quarter holed true) = true.
Proof. split; [exact (proj1 holed_long)|]. split; [exact (proj2 holed_long)|exact holed_offset]. Qed.

Print Assumptions C105_refined.
Print Assumptions C105_length.
Print Assumptions C105_closed.
Print Assumptions C105_refused.
Print Assumptions C105_same.
Print Assumptions C106_linear.
Print Assumptions C106_unchanged.
Print Assumptions C106_refused.
Print Assumptions C106_last_to_first.
Print Assumptions C106_every_point_set_refuted.
Print Assumptions C106_defined_refuted.
Print Assumptions C107_snapped.
Print Assumptions C107_closed.
Print Assumptions C107_refused.
Print Assumptions C107_always_closed_refuted.
Print Assumptions C108_offset.
Print Assumptions C108_closed.
Print Assumptions C108_short.
Print Assumptions C109_plain.
Print Assumptions C109_one_both.
Print Assumptions C109_holes.
Print Assumptions C109_several_refuted.
Print Assumptions C110_enclosure.

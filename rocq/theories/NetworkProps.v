(** Properties C48 and C63-C65: networks and the 1D meshes made from them.  Statements only; vocabulary in NetworkSpec (and MeshSpec).
    Chainages are exact rational numbers; [dist] is the distance between points, [near] approximate equality. *)
From Coq Require Import QArith Sorting.Permutation.
From Verif Require Import Base FloatModel UndoModel MeshModel MeshSpec NetworkModel NetworkSpec NetworkProofs NetworkMain MeshWitness.
Local Open Scope nat_scope.

(** *** C48 *)
(** For any number of polylines: all points in order; every edge joins consecutive points of one polyline; no edge twice. *)
Theorem C48_edges_are_consecutive : forall (A : Type) (discs : list (list A)),
  let (nodes, edges) := network_lists discs in
  nodes = concat discs /\ NoDup edges /\ forall a b, In (a, b) edges -> joined discs a b.
Proof. exact (@lists_sound). Qed.

(** With at most two non-empty polylines, exactly the edges joining consecutive points of one polyline.  Missing for the full claim: more
    polylines, for which it is false. *)
Theorem C48_two_polylines_partial : forall (A : Type) (discs : list (list A)),
  length (filter nonempty discs) <= 2 ->
  let (nodes, edges) := network_lists discs in
  nodes = concat discs /\ NoDup edges /\ forall a b, In (a, b) edges <-> joined discs a b.
Proof. exact (@lists_two). Qed.

(** The resulting mesh (up to the merging of close nodes) of one or two polylines. *)
Theorem C48_mesh_partial : forall discs p,
  length (filter nonempty discs) <= 2 -> (forall d, In d discs -> length d <> 1 /\ forall q, In q d -> is_valid q = true) ->
  exists m edges, mesh1d_of discs p = Ok m /\ m_projection m = p /\ m_nodes m = concat discs /\
    m_edges m = map (fun e => (Some (fst e), Some (snd e))) edges /\ NoDup edges /\ forall a b, In (a, b) edges <-> joined discs a b.
Proof. exact mesh1d_two. Qed.

(** Every polyline after two non-empty ones loses at least its first edge. *)
Theorem C48_later_polylines_refuted : forall (A : Type) (discs : list (list A)) k d,
  nth_error discs k = Some d -> 2 <= length d -> 2 <= length (filter nonempty (firstn k discs)) ->
  let a := length (concat (firstn k discs)) in joined discs a (S a) /\ ~ In (a, S a) (snd (network_lists discs)).
Proof. exact (@lists_late). Qed.
(** Three polylines of two points: the third one is not in the mesh at all. *)
Theorem C48_third_polyline_refuted :
  exists m, mesh1d_of three_lines Cartesian = Ok m /\ m_nodes m = [pt 0 0; pt 1 0; pt 0 2; pt 1 2] /\
    m_edges m = [(Some 0, Some 1); (Some 2, Some 3)].
Proof. exact three_lost. Qed.

(** *** C63: fixed chainages *)
(** Start and end of a polyline are kept if the first fixed chainage is not the start. *)
Theorem C63_ends_kept_partial : forall near min_size offset start stop rest fixed,
  (forall f, hd_error fixed = Some f -> near start f = false) ->
  exists r, fixed_line near min_size offset (start :: stop :: rest) fixed = start :: stop :: r.
Proof. exact fixed_line_keeps. Qed.
(** Well spaced fixed chainages get one chainage at distance [offset] on each side, and nothing else changes. *)
Theorem C63_both_sides : forall near min_size offset start stop rest fixed,
  (0 < min_size)%Q -> (0 < offset)%Q -> (min_size <= offset + offset)%Q ->
  (forall f, In f fixed -> (f + offset < stop)%Q) -> spaced min_size offset start fixed ->
  fixed_line near min_size offset (start :: stop :: rest) fixed = start :: stop :: rest ++ flat_map (fun f => [(f - offset)%Q; (f + offset)%Q]) fixed.
Proof. exact fixed_line_spaced. Qed.
(** A fixed chainage at the start of the polyline makes the end chainage disappear and puts one before the start. *)
Theorem C63_start_refuted : forall near : Q -> Q -> bool, near 0%Q 0%Q = true ->
  exists l, fixed_line near 5 1 [0; 100]%Q [0; 50]%Q = l /\ (forall c, In c l -> c < 50)%Q /\ (exists c, In c l /\ c < 0)%Q.
Proof. exact start_refuted. Qed.
(** A fixed chainage beyond the end makes the discretisation read out of range. *)
Theorem C63_beyond_end_refuted : exists n n', new_network axis_dist [[qp 0 0; qp 100 0]] = Ok n /\
  compute_fixed Qeq_bool n [[120%Q]] 5 1 = Ok n' /\ discretizations axis_dist n' = UB.
Proof. exact beyond_refuted. Qed.

(** *** C64: discretisation *)
(** No access out of range, one point per chainage, if no chainage lies beyond the end of the polyline. *)
Theorem C64_safe : forall dist pl ch,
  2 <= length pl -> (forall c, In c ch -> (c <= upto (edge_lengths dist pl) (length pl - 1))%Q) ->
  exists s ps, discretize dist pl ch = Ok (s, ps) /\ in_order ch s /\ length ps = length ch.
Proof. exact discretize_safe. Qed.
(** The points lie on the polyline at the given chainages, in increasing order, if every segment between two chainages contains one.  Missing
    for the full claim: skipped segments and segments of length zero, for which it is false. *)
Theorem C64_on_polyline_partial : forall dist pl ch,
  2 <= length pl -> (forall l, In l (edge_lengths dist pl) -> (0 < l)%Q) ->
  (forall c, In c ch -> (0 <= c <= upto (edge_lengths dist pl) (length pl - 1))%Q) ->
  no_segment_skipped (edge_lengths dist pl) ch ->
  exists s ps, discretize dist pl ch = Ok (s, ps) /\ in_order ch s /\
    Forall2 (fun c p => exists q, p = Some q /\ at_chainage pl (edge_lengths dist pl) c q) s ps.
Proof. exact discretize_spec. Qed.
(** Discretising a polyline of three segments at its two ends only: the end point is computed on the prolongation of the second segment, off
    the polyline. *)
Theorem C64_skipped_segment_refuted : exists n, new_network axis_dist [sides] = Ok n /\
  exists n' p0 p1, discretizations axis_dist n = Ok (n', [[Some p0; Some p1]]) /\ forall c, ~ at_chainage sides (edge_lengths axis_dist sides) c p1.
Proof. exact skip_refuted. Qed.
(** A polyline whose first point is repeated: the first computed point is not a number. *)
Theorem C64_repeated_point_refuted : exists n n' p, new_network axis_dist [[qp 0 0; qp 0 0; qp 1 0]] = Ok n /\
  discretizations axis_dist n = Ok (n', [[None; p]]).
Proof. exact repeated_refuted. Qed.

(** *** C65: chainages at regular distances *)
(** All chainages stay, new ones lie between old ones, and afterwards consecutive chainages are at most [offset] apart. *)
Theorem C65_spacing : forall offset ch, (0 < offset)%Q ->
  exists ch', offset_line offset ch = Ok ch' /\
    (exists new, Permutation (ch ++ new) ch' /\
       forall c, In c new -> (exists a, In a ch /\ a <= c)%Q /\ (exists b, In b ch /\ c <= b)%Q) /\
    no_gap offset ch'.
Proof. exact offset_ok. Qed.
(** The whole computation for polylines without segments shorter than the offset: points in order on the polyline, from one end to the
    other, at most [offset] apart. *)
Theorem C65_network : forall dist offset lines, (0 < offset)%Q ->
  (forall pl, In pl lines -> 2 <= length pl /\ forall l, In l (edge_lengths dist pl) -> (offset <= l)%Q) ->
  exists n1 n2 n3 ds, new_network dist lines = Ok n1 /\ compute_offset n1 offset = Ok n2 /\ discretizations dist n2 = Ok (n3, ds) /\
    Forall2 (spread_over dist offset) lines ds.
Proof. exact network_spread. Qed.

(** *** Concrete cases *)
Example two_lines_lists : network_lists [[1; 2; 3]; []; [4; 5]] = ([1; 2; 3; 4; 5], [(0, 1); (1, 2); (3, 4)]) /\
  length (filter (@nonempty nat) [[1; 2; 3]; []; [4; 5]]) <= 2.
Proof. split; [reflexivity|cbn; lia]. Qed.
Example four_lines_lists : network_lists [[1; 2]; [3; 4]; [5; 6]; [7; 8]] = ([1; 2; 3; 4; 5; 6; 7; 8], [(0, 1); (2, 3)]).
Proof. reflexivity. Qed.
Example two_lines_mesh : exists m, mesh1d_of [[pt 0 0; pt 1 0; pt 2 0]; [pt 0 2; pt 1 2]] Cartesian = Ok m /\
  m_edges m = [(Some 0, Some 1); (Some 1, Some 2); (Some 3, Some 4)] /\ length (m_nodes m) = 5.
Proof. eexists. split; [vm_compute; reflexivity|]. split; reflexivity. Qed.
Example fixed_spaced_case : spaced 2 1 0 [10; 20]%Q /\
  map Qred (fixed_line Qeq_bool 2 1 [0; 30]%Q [10; 20]%Q) = [0; 30; 9; 11; 19; 21]%Q.
Proof. split; [|vm_compute; reflexivity]. cbn. repeat split; vm_compute; discriminate. Qed.
(** Two segments of length 2 and 3, offset 2: three segments of length 5/3, bent at the corner. *)
Definition reduce (p : option qpoint) : option qpoint := match p with Some (x, y) => Some (Qred x, Qred y) | None => None end.
Example offset_case : exists n1 n2 n3 ds, new_network axis_dist [[qp 0 0; qp 2 0; qp 2 3]] = Ok n1 /\ compute_offset n1 2 = Ok n2 /\
  discretizations axis_dist n2 = Ok (n3, ds) /\
  map (map reduce) ds = [[Some (0, 0); Some (5 # 3, 0); Some (2, 4 # 3); Some (2, 3)]]%Q.
Proof. do 4 eexists. split; [vm_compute; reflexivity|]. split; [vm_compute; reflexivity|]. split; vm_compute; reflexivity. Qed.

Print Assumptions C48_edges_are_consecutive.
Print Assumptions C48_two_polylines_partial.
Print Assumptions C48_mesh_partial.
Print Assumptions C48_later_polylines_refuted.
Print Assumptions C48_third_polyline_refuted.
Print Assumptions C63_ends_kept_partial.
Print Assumptions C63_both_sides.
Print Assumptions C63_start_refuted.
Print Assumptions C63_beyond_end_refuted.
Print Assumptions C64_safe.
Print Assumptions C64_on_polyline_partial.
Print Assumptions C64_skipped_segment_refuted.
Print Assumptions C64_repeated_point_refuted.
Print Assumptions C65_spacing.
Print Assumptions C65_network.

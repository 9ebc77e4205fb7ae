(** Properties C09-C16 and C18: mesh construction, adjacency, edits, administration.  Statements only; vocabulary in MeshSpec.

    [order] stands for the order in which the edges around a node get sorted (it depends on atan2 and on how std::sort treats ties);
    everything holds for every function that permutes. *)
From Verif Require Import Base FloatModel UndoModel UndoSpec UndoProofs UndoProofs2 UndoProps ActionModel ActionSpec ActionProofs
  MeshModel MeshSpec MeshProofs MeshAdj MeshConstruct MeshUndo MeshEdits MeshEdits2 MeshMerge MeshFacts MeshWitness.
From Coq Require Import Permutation.

(** C09: construction succeeds on all arrays whose edges refer to existing nodes (missing ends allowed), and yields the well-formed
    part of the input. *)
Theorem C09_construct : forall nodes edges p,
  well_indexed nodes edges ->
  exists m, construct edges nodes p = Ok m /\ well_formed_part nodes edges (m_nodes m) (m_edges m) /\ m_projection m = p.
Proof. exact (fun nodes edges p => delete_invalid_spec (Mesh nodes edges [] [] p)). Qed.

(** C09: what the well-formed part is: all nodes valid, all edges between existing nodes, each edge between the same points as before. *)
Theorem C09_well_formed : forall nodes edges nodes' edges',
  well_formed_part nodes edges nodes' edges' ->
  ((forall p, In p nodes' -> is_valid p = true) /\
   (forall e, In e edges' -> exists a b, e = (Some a, Some b) /\ a < length nodes' /\ b < length nodes')) /\
  Forall2 (fun e e' => exists a b a' b' p q, e = (Some a, Some b) /\ e' = (Some a', Some b') /\
     nth_error nodes a = Some p /\ nth_error nodes b = Some q /\ nth_error nodes' a' = Some p /\ nth_error nodes' b' = Some q)
    (filter (live nodes) edges) edges'.
Proof.
  exact (fun nodes edges nodes' edges' H =>
    conj (well_formed_part_valid nodes edges nodes' edges' H) (well_formed_part_points nodes edges nodes' edges' H)).
Qed.

(** C09: input without anything missing or unconnected is taken over unchanged. *)
Theorem C09_unchanged : forall nodes edges nodes' edges',
  well_formed_part nodes edges nodes' edges' ->
  (forall e, In e edges -> live nodes e = true) -> (forall n, n < length nodes -> connected nodes edges n) -> well_indexed nodes edges ->
  nodes' = nodes /\ edges' = edges.
Proof. exact well_formed_part_same. Qed.

(** C09: an edge array referring to a node beyond the node array is undefined behaviour. *)
Theorem C09_out_of_range_undefined : forall nodes edges p,
  (exists a b, In (Some a, Some b) edges /\ (length nodes <= a \/ (valid_at nodes a = true /\ length nodes <= b))) ->
  construct edges nodes p = UB.
Proof. exact construct_ub. Qed.

Section Props.
  Variable order : list point -> list edge -> nat -> list (option nat) -> list (option nat).
  Hypothesis order_perm : forall nodes edges n row, Permutation row (order nodes edges n row).

  (** C10: administration is defined and leaves exact adjacency tables on every mesh with at least one node and one edge. *)
  Theorem C10_adjacency_exact : forall m,
    well_indexed (m_nodes m) (m_edges m) ->
    exists m', administrate order m = Ok m' /\ (m_nodes m <> [] -> m_edges m <> [] -> adjacency_exact m').
  Proof.
    exact (fun m Hw =>
      let (m', H) := administrate_safe order order_perm m Hw in
      ex_intro _ m' (conj H (proj2 (proj2 (proj2 (administrate_result order order_perm m m' Hw H)))))).
  Qed.

  (** C10: without duplicate edges, self-edges and full nodes, precisely the incident edges are listed. *)
  Theorem C10_all_listed : forall m,
    adjacency_exact m -> simple_edges (m_edges m) -> (forall n, n < length (m_nodes m) -> degree_of m n < max_edges_per_node) ->
    well_indexed (m_nodes m) (m_edges m) -> lists_all m.
  Proof. exact lists_all_of_exact. Qed.

  (** C11: undo and redo of any single edit.  After undo: the nodes, edges and projection before the edit (inserted entries stay behind
      as missing ones at the end); after redo: exactly those after the edit. *)
  Theorem C11_undo_redo_exact : forall c m t m',
    consistent m -> medit_pre c m -> do_medit order c m = Ok (Some (t, m')) ->
    exists t1 m1 t2 m2,
      restore_act (restore_leaf order) t m' = Ok (t1, m1) /\ extends m m1 /\ consistent m1 /\
      commit_act (commit_leaf order) t1 m1 = Ok (t2, m2) /\ consistent m2 /\
      m_nodes m2 = m_nodes m' /\ m_edges m2 = m_edges m' /\ m_projection m2 = m_projection m'.
  Proof. exact (undo_redo_exact order order_perm). Qed.

  (** C11: every edit called within its precondition on a consistent mesh is defined and keeps the mesh consistent; the interface
      required by C01-C04 holds for the mesh edits ... *)
  Theorem C11_mesh_interface :
    interface (restore_act (restore_leaf order)) (commit_act (commit_leaf order)) (do_medit order) mesh_le medit_pre consistent.
  Proof.
    exact (conj mesh_le_refl (conj mesh_le_trans (conj (fun s t Hs Hle => proj2 Hle Hs) (medits_reversible order order_perm)))).
  Qed.

  (** ... so any history of edits, undos and redos of any number of meshes follows the list of snapshots. *)
  Theorem C11_mesh_histories : forall c mx ops,
    (forall i, consistent (c i)) -> Forall well_tagged ops ->
    follows (restore_act (restore_leaf order)) (commit_act (commit_leaf order)) (do_medit order) mesh_le medit_pre
      (hinit c mx) (init c mx) ops.
  Proof. exact (fun c mx ops => C01_undo_follows_snapshots _ _ _ _ _ _ C11_mesh_interface c mx ops). Qed.

  (** C11: a mesh just built and administrated is consistent and administrated. *)
  Theorem C11_built_consistent : forall edges nodes p m m',
    well_indexed nodes edges -> construct edges nodes p = Ok m -> administrate order m = Ok m' ->
    consistent m' /\ m_nodes m' = m_nodes m /\ m_edges m' = m_edges m /\ administrated m'.
  Proof. exact (construct_consistent order order_perm). Qed.

  (** C11: what the edits do. *)
  Theorem C11_edit_effects : forall m, consistent m ->
    (forall p, exists a m', insert_node order m p = Ok (length (m_nodes m), a, m') /\
       m_nodes m' = m_nodes m ++ [p] /\ m_edges m' = m_edges m) /\
    (forall s e, s < length (m_nodes m) -> e < length (m_nodes m) ->
       (connect_nodes order m (Some s) (Some e) = Ok None /\
          exists i, i < length (m_edges m) /\ (fst (edge_at m i) = Some e \/ snd (edge_at m i) = Some e)) \/
       (exists a m', connect_nodes order m (Some s) (Some e) = Ok (Some (length (m_edges m), a, m')) /\
          m_edges m' = m_edges m ++ [(Some s, Some e)] /\ m_nodes m' = m_nodes m)) /\
    (forall e, e < length (m_edges m) ->
       exists a m', delete_edge order m (Some e) = Ok (a, m') /\ m_edges m' = set_nth e missing_edge (m_edges m) /\ m_nodes m' = m_nodes m) /\
    (forall n p, n < length (m_nodes m) ->
       exists a m', reset_node order m n p = Ok (a, m') /\ m_nodes m' = set_nth n p (m_nodes m) /\ m_edges m' = m_edges m) /\
    (forall near moved n, n < length (m_nodes m) ->
       exists a m', move_node near moved m n = Ok (a, m') /\
         m_nodes m' = map (fun p => if near p then moved p else p) (m_nodes m) /\ m_edges m' = m_edges m).
  Proof. exact (edit_effects order). Qed.

  (** C12, on a mesh whose adjacency lists everything: exactly node [n] and the edges ending in it disappear. *)
  Theorem C12_delete_node_partial : forall m n,
    consistent m -> lists_all m -> (forall e, In e (m_edges m) -> e = missing_edge \/ live (m_nodes m) e = true) -> n < length (m_nodes m) ->
    exists a m', delete_node order m (Some n) = Ok (a, m') /\ m_nodes m' = set_nth n missing_point (m_nodes m) /\
      length (m_edges m') = length (m_edges m) /\ m_projection m' = m_projection m /\
      (forall e, (ends_in (edge_at m e) n -> edge_at m' e = missing_edge) /\ (~ ends_in (edge_at m e) n -> edge_at m' e = edge_at m e)).
  Proof. exact (delete_node_effect order). Qed.

  (** C13: merging [a] into [b] when the edges of the two fit in one row, on a mesh whose adjacency lists everything. *)
  Theorem C13_merge_effect : forall m a b,
    consistent m -> lists_all m -> simple_edges (m_edges m) -> a < length (m_nodes m) -> b < length (m_nodes m) -> a <> b ->
    degree_of m a + degree_of m b <= max_edges_per_node ->
    exists t m', merge_two_nodes order m (Some a) (Some b) = Ok (Some (t, m')) /\
      m_nodes m' = set_nth a missing_point (m_nodes m) /\ m_projection m' = m_projection m /\ merged_edges m a b m'.
  Proof. exact (merge_effect order). Qed.

  (** C13: in words: nothing ends in [a], the neighbours of either node are joined to [b], other edges are unchanged. *)
  Theorem C13_merge_neighbours : forall m a b m',
    simple_edges (m_edges m) -> administrated m -> a <> b -> merged_edges m a b m' ->
    (forall e, ~ ends_in (edge_at m' e) a) /\
    (forall o, o <> a -> o <> b -> (neighbour m a o \/ neighbour m b o) -> neighbour m' b o) /\
    (forall e, ~ ends_in (edge_at m e) a -> ~ ends_in (edge_at m e) b -> edge_at m' e = edge_at m e).
  Proof. exact merged_neighbours. Qed.

  (** C14 holds if the edit left nothing for administration to remove: the query changes nothing and undo works as without it. *)
  Theorem C14_query_harmless_partial : forall c m t m',
    consistent m -> medit_pre c m -> do_medit order c m = Ok (Some (t, m')) -> administrated m' ->
    exists m'' t1 m1, administrate order m' = Ok m'' /\ m_nodes m'' = m_nodes m' /\ m_edges m'' = m_edges m' /\
      restore_act (restore_leaf order) t m'' = Ok (t1, m1) /\ extends m m1.
  Proof. exact (query_harmless order order_perm). Qed.

  (** C15: administration keeps exactly the live edges and the connected nodes, marks everything else missing and is idempotent.  Undo
      is C11 for the command [EAdministrate], whose precondition is [True]. *)
  Theorem C15_administration : forall m, well_indexed (m_nodes m) (m_edges m) ->
    exists m', administrate order m = Ok m' /\ administrate order m' = Ok m' /\
      length (m_nodes m') = length (m_nodes m) /\ length (m_edges m') = length (m_edges m) /\ m_projection m' = m_projection m /\
      (forall e ed, nth_error (m_edges m) e = Some ed ->
         (live (m_nodes m) ed = true -> nth_error (m_edges m') e = Some ed) /\
         (live (m_nodes m) ed = false -> nth_error (m_edges m') e = Some missing_edge)) /\
      (forall n p, nth_error (m_nodes m) n = Some p ->
         (connected (m_nodes m) (m_edges m) n -> nth_error (m_nodes m') n = Some p) /\
         (~ connected (m_nodes m) (m_edges m) n -> nth_error (m_nodes m') n = Some missing_point)).
  Proof. exact (administrate_marks order order_perm). Qed.

  (** C18, when no edge of the second mesh is missing: both meshes, one after the other. *)
  Theorem C18_join_partial : forall m rhs,
    consistent m -> administrated m -> administrated rhs -> well_indexed (m_nodes rhs) (m_edges rhs) ->
    m_projection m = m_projection rhs -> (forall e, In e (m_edges rhs) -> e <> missing_edge) -> m_edges rhs <> [] ->
    exists a m', join order m rhs = Ok (a, m') /\ m_nodes m' = m_nodes m ++ m_nodes rhs /\
      m_edges m' = m_edges m ++ map (fun e => (option_map (fun n => n + length (m_nodes m)) (fst e),
                                               option_map (fun n => n + length (m_nodes m)) (snd e))) (m_edges rhs) /\
      m_projection m' = m_projection m.
  Proof. exact (join_content order order_perm). Qed.
End Props.

(** C16: counts and index maps. *)
Theorem C16_counts : forall m, well_indexed (m_nodes m) (m_edges m) ->
  num_valid_nodes m = length (filter is_valid (m_nodes m)) /\
  num_valid_edges m = Ok (length (filter (live (m_nodes m)) (m_edges m))) /\
  (exists ns, valid_node_mapping m = Ok ns /\ length ns = num_valid_nodes m /\
     enumerates (fun n => exists p, nth_error (m_nodes m) n = Some p /\ is_valid p = true) ns) /\
  (exists es, valid_edge_mapping m = Ok es /\ num_valid_edges m = Ok (length es) /\
     enumerates (fun e => exists ed, nth_error (m_edges m) e = Some ed /\ live (m_nodes m) ed = true) es).
Proof. exact counts_and_maps. Qed.

(** C12 is false on meshes reachable through the interface: after inserting an edge (0,2), deleting node 0 leaves that edge behind,
    ending in a missing node. *)
Theorem C12_delete_node_refuted :
  exists nodes edges m0 m a1 m1 a2 m2 k,
    construct edges nodes Cartesian = Ok m0 /\ administrate keep_order m0 = Ok m /\
    connect_nodes keep_order m (Some 0) (Some 2) = Ok (Some (k, a1, m1)) /\
    delete_node keep_order m1 (Some 0) = Ok (a2, m2) /\
    nth_error (m_nodes m2) 0 = Some missing_point /\ edge_at m2 k = (Some 0, Some 2).
Proof. exact delete_after_insert. Qed.

(** C12 is also false right after construction if an edge was given twice. *)
Theorem C12_duplicate_edge_refuted :
  exists nodes edges m0 m a m',
    construct edges nodes Cartesian = Ok m0 /\ administrate keep_order m0 = Ok m /\
    delete_node keep_order m (Some 0) = Ok (a, m') /\ exists e, ends_in (edge_at m' e) 0.
Proof. exact delete_duplicate. Qed.

(** C13 without the bound: merging two nodes with more than 16 edges together writes past the end of a fixed array. *)
Theorem C13_merge_overflow_refuted :
  exists nodes edges m0 m, construct edges nodes Cartesian = Ok m0 /\ administrate keep_order m0 = Ok m /\
    simple_edges (m_edges m) /\ merge_two_nodes keep_order m (Some 0) (Some 1) = UB.
Proof. exact merge_overflow. Qed.

(** C14 is false: after deleting the only edge, a query (which administrates) makes undo lose both nodes. *)
Theorem C14_query_refuted :
  exists nodes edges m0 m a m1 m2 a' m3,
    construct edges nodes Cartesian = Ok m0 /\ administrate keep_order m0 = Ok m /\
    delete_edge keep_order m (Some 0) = Ok (a, m1) /\ administrate keep_order m1 = Ok m2 /\
    restore_act (restore_leaf keep_order) a m2 = Ok (a', m3) /\
    m_edges m3 = m_edges m /\ ~ extends m m3 /\ (forall n, n < 2 -> nth_error (m_nodes m3) n = Some missing_point).
Proof. exact query_then_undo. Qed.

(** C18 is false if the second mesh has a deleted edge: its missing ends become the last node of the first mesh. *)
Theorem C18_join_refuted :
  exists m rhs a m' e,
    consistent m /\ administrated m /\ consistent rhs /\ administrated rhs /\
    nth_error (m_edges rhs) e = Some missing_edge /\
    join keep_order m rhs = Ok (a, m') /\ nth_error (m_edges m') (length (m_edges m) + e) = Some (Some 1, Some 1).
Proof. exact join_missing_edge. Qed.

(** Non-trivial cases: the sample mesh (two triangles sharing an edge and a detached edge) meets all hypotheses used above. *)
Example sample_ok :
  consistent sample /\ administrated sample /\ lists_all sample /\ simple_edges (m_edges sample) /\
  degree_of sample 0 + degree_of sample 2 <= max_edges_per_node /\ neighbour sample 0 1 /\ neighbour sample 2 1.
Proof. exact sample_facts. Qed.

Example sample_merge :
  exists t m', merge_two_nodes keep_order sample (Some 0) (Some 2) = Ok (Some (t, m')) /\
    m_edges m' = [(Some 2, Some 1); missing_edge; missing_edge; missing_edge; (Some 3, Some 2); (Some 4, Some 5)].
Proof. exact sample_merged. Qed.

Example sample_construct :
  construct [(Some 3, Some 1); (Some 0, None); (Some 2, Some 3); (Some 1, Some 3)] [pt 0 0; pt 1 1; missing_point; pt 2 5] Cartesian
  = Ok (Mesh [pt 1 1; pt 2 5] [(Some 1, Some 0); (Some 0, Some 1)] [] [] Cartesian).
Proof. reflexivity. Qed.

Example sample_edits_allowed :
  medit_pre (EMerge (Some 0) (Some 2)) sample /\ medit_pre (EJoin sample) sample /\ medit_pre (EDeleteEdge (Some 2)) sample /\
  medit_pre (EConvert Cartesian Spherical (fun p => p)) sample.
Proof. exact sample_pre. Qed.

Print Assumptions C09_construct.
Print Assumptions C09_well_formed.
Print Assumptions C09_unchanged.
Print Assumptions C09_out_of_range_undefined.
Print Assumptions C10_adjacency_exact.
Print Assumptions C10_all_listed.
Print Assumptions C11_undo_redo_exact.
Print Assumptions C11_mesh_interface.
Print Assumptions C11_mesh_histories.
Print Assumptions C11_built_consistent.
Print Assumptions C11_edit_effects.
Print Assumptions C12_delete_node_partial.
Print Assumptions C13_merge_effect.
Print Assumptions C13_merge_neighbours.
Print Assumptions C14_query_harmless_partial.
Print Assumptions C15_administration.
Print Assumptions C16_counts.
Print Assumptions C18_join_partial.
Print Assumptions C12_delete_node_refuted.
Print Assumptions C12_duplicate_edge_refuted.
Print Assumptions C13_merge_overflow_refuted.
Print Assumptions C14_query_refuted.
Print Assumptions C18_join_refuted.

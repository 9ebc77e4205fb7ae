(** Model of meshkernel::Mesh: nodes, edges, node-edge adjacency, administration, construction, elementary edits.
    Source: /repo/libs/MeshKernel/src/Mesh.cpp ("Mesh.cpp" below), include/MeshKernel/Mesh.hpp, include/MeshKernel/Entities.hpp.

    Simplifications.  UInt values are [nat]; the reserved value constants::missing::uintValue (2^32-1) is [None], and no mesh has that
    many entities.  Caches that never influence nodes, edges or adjacency (R-trees and their dirty flags, edge lengths, edge centres)
    are left out.  The order in which SortEdgesInCounterClockWiseOrder puts the edges of a node depends on atan2 and on the
    unspecified order std::sort gives to ties, so it is an arbitrary function [order] of everything the code may look at; theorems
    only assume that it returns a permutation. *)
From Verif Require Import Base FloatModel UndoModel ActionModel.

(** Edge = std::pair<UInt, UInt>, Entities.hpp:46 *)
Definition edge : Type := option nat * option nat.
Definition missing_edge : edge := (None, None).

(** Projection, Definitions.hpp:67-72 *)
Inductive projection := Cartesian | Spherical | SphericalAccurate.

Record mesh := Mesh {
  m_nodes : list point;
  m_edges : list edge;
  m_nodesNumEdges : list nat;
  m_nodesEdges : list (list (option nat));
  m_projection : projection }.

Definition set_nodes (m : mesh) (l : list point) : mesh := Mesh l (m_edges m) (m_nodesNumEdges m) (m_nodesEdges m) (m_projection m).
Definition set_edges (m : mesh) (l : list edge) : mesh := Mesh (m_nodes m) l (m_nodesNumEdges m) (m_nodesEdges m) (m_projection m).
Definition set_tables (m : mesh) (nn : list nat) (ne : list (list (option nat))) : mesh :=
  Mesh (m_nodes m) (m_edges m) nn ne (m_projection m).
Definition set_projection (m : mesh) (p : projection) : mesh :=
  Mesh (m_nodes m) (m_edges m) (m_nodesNumEdges m) (m_nodesEdges m) p.

(** m_maximumNumberOfEdgesPerNode, Mesh.hpp:489 *)
Definition max_edges_per_node : nat := 16.

Definition eq_idx (a b : option nat) : bool :=
  match a, b with Some i, Some j => i =? j | None, None => true | _, _ => false end.

(** Indexing a vector with a UInt that may have the reserved value: 2^32-1 is out of range of every vector. *)
Definition vget_idx {A} (l : list A) (i : option nat) : outcome A :=
  match i with Some i => vget l i | None => UB end.

(** OtherNodeOfEdge, Entities.hpp:76-79 *)
Definition other_node (e : edge) (node : nat) : option nat := if eq_idx (fst e) (Some node) then snd e else fst e.

(** *** Elementary undo actions of a mesh.
    AddNodeAction, AddEdgeAction, ResetNodeAction, ResetEdgeAction, DeleteEdgeAction (UndoActions/ *.hpp: stored ids and values);
    [DeleteNodeA] is the node part of DeleteNodeAction, whose list of DeleteEdgeActions is committed before it and restored, in
    reverse, after it (DeleteNodeAction.cpp:39-59), i.e. exactly a [Compound] of those edges followed by [DeleteNodeA];
    NodeTranslationAction, MeshConversionAction, FullUnstructuredGridUndo. *)
Inductive mact :=
| AddNodeA (n : nat) (p : point)
| AddEdgeA (e : nat) (ed : edge)
| ResetNodeA (n : nat) (initial updated : point)
| ResetEdgeA (e : nat) (initial updated : edge)
| DeleteEdgeA (e : nat) (ed : edge)
| DeleteNodeA (n : nat) (p : point)
| TranslationA (saved : list point) (indices : list nat)
| ConversionA (saved : list point) (proj : projection)
| FullA (saved_nodes : list point) (saved_edges : list edge).

Definition put_node (m : mesh) (n : nat) (p : point) : outcome mesh :=
  let! l := vset n p (m_nodes m) in Ok (set_nodes m l).
Definition put_edge (m : mesh) (e : nat) (ed : edge) : outcome mesh :=
  let! l := vset e ed (m_edges m) in Ok (set_edges m l).
Definition zero_count (m : mesh) (n : nat) : outcome mesh :=
  let! l := vset n 0 (m_nodesNumEdges m) in Ok (set_tables m l (m_nodesEdges m)).

(** std::swap_ranges(saved.begin(), saved.end(), nodes.begin()): result (saved, nodes) *)
Definition swap_ranges {A} (saved nodes : list A) : list A * list A :=
  (firstn (length saved) nodes, saved ++ skipn (length saved) nodes).

(** for i: std::swap(m_nodes[i], nodes[m_nodeIndices[i]]), NodeTranslationAction.cpp:70-73 *)
Fixpoint swap_indexed (saved : list point) (indices : list nat) (nodes : list point) : outcome (list point * list point) :=
  match indices with
  | [] => Ok (saved, nodes)
  | i :: it =>
      match saved with
      | [] => UB
      | p :: st =>
          let! q := vget nodes i in
          let! nodes1 := vset i p nodes in
          let! (st', nodes2) := swap_indexed st it nodes1 in
          Ok (q :: st', nodes2)
      end
  end.

(** NodeTranslationAction::Swap, NodeTranslationAction.cpp:56-75 *)
Definition translation_swap (saved : list point) (indices : list nat) (nodes : list point) : outcome (list point * list point) :=
  if length nodes <? length saved then Throw ConstraintErr
  else match indices with
       | [] => Ok (swap_ranges saved nodes)
       | _ => swap_indexed saved indices nodes
       end.

Section MeshOps.
  (** See the header: the new order of the edges of a node, given all nodes, all edges, the node and its edges. *)
  Variable order : list point -> list edge -> nat -> list (option nat) -> list (option nat).

  (** *** Administration *)

  (** Condition of Mesh.cpp:149-152 (also 279-281): an end missing or an end node invalid. *)
  Definition edge_invalid (nodes : list point) (e : edge) : outcome bool :=
    match e with
    | (Some a, Some b) =>
        let! pa := vget nodes a in
        if is_valid pa then let! pb := vget nodes b in Ok (negb (is_valid pb)) else Ok true
    | _ => Ok true
    end.

  (** Mesh::FindConnectedNodes, Mesh.cpp:140-162: the connected-node mask and the number of invalid edges. *)
  Definition connect_step (nodes : list point) (acc : list bool * nat) (e : edge) : outcome (list bool * nat) :=
    let (conn, k) := acc in
    let! inv := edge_invalid nodes e in
    if inv then Ok (conn, S k)
    else match e with
         | (Some a, Some b) =>
             let! c1 := vset a true conn in
             let! c2 := vset b true c1 in
             Ok (c2, k)
         | _ => Ok (conn, k)
         end.
  Definition find_connected (m : mesh) : outcome (list bool * nat) :=
    fold_out (connect_step (m_nodes m)) (m_edges m) (repeat false (length (m_nodes m)), 0).

  (** Mesh::InvalidateUnConnectedNodes, Mesh.cpp:164-188; the mask has as many entries as there are nodes.  Returns the new nodes
      and the ResetNode actions, which are recorded if an undo action is passed. *)
  Fixpoint invalidate_unconnected (n : nat) (conn : list bool) (nodes : list point) : list point * list mact :=
    match conn, nodes with
    | c :: ct, p :: pt =>
        let (nodes', acts) := invalidate_unconnected (S n) ct pt in
        if c then (p :: nodes', acts) else (missing_point :: nodes', ResetNodeA n p missing_point :: acts)
    | _, _ => (nodes, [])
    end.
  Definition count_invalid (nodes : list point) : nat := length (filter (fun p => negb (is_valid p)) nodes).

  (** Second half of Mesh::SetUnConnectedNodesAndEdgesToInvalid, Mesh.cpp:266-292; [nodes] are the nodes after invalidation. *)
  Fixpoint invalidate_edges (e : nat) (nodes : list point) (edges : list edge) : outcome (list edge * list mact) :=
    match edges with
    | [] => Ok ([], [])
    | ed :: t =>
        let! inv := edge_invalid nodes ed in
        let! (t', acts) := invalidate_edges (S e) nodes t in
        if inv then Ok (missing_edge :: t', ResetEdgeA e ed missing_edge :: acts) else Ok (ed :: t', acts)
    end.

  (** Mesh::SetUnConnectedNodesAndEdgesToInvalid, Mesh.cpp:249-293: the mesh and the actions that are recorded. *)
  Definition set_unconnected_invalid (m : mesh) : outcome (mesh * list mact) :=
    let! (conn, numInvalidEdges) := find_connected m in
    let (nodes, acts) := invalidate_unconnected 0 conn (m_nodes m) in
    if (numInvalidEdges =? 0) && (count_invalid nodes =? 0) then Ok (set_nodes m nodes, acts)
    else
      let! (edges, acts2) := invalidate_edges 0 nodes (m_edges m) in
      Ok (set_edges (set_nodes m nodes) edges, acts ++ acts2).

  (** Search among the first [k] edges of a row for one that has [other] as an end, Mesh.cpp:88-95 and 104-111. *)
  Fixpoint already_added (edges : list edge) (row : list (option nat)) (k : nat) (other : nat) : outcome bool :=
    match k with
    | O => Ok false
    | S k' =>
        match row with
        | [] => UB
        | i :: t =>
            let! ed := vget_idx edges i in
            if eq_idx (fst ed) (Some other) || eq_idx (snd ed) (Some other) then Ok true else already_added edges t k' other
        end
    end.

  (** List edge [e] at [node] unless [other] is already a neighbour, Mesh.cpp:86-100 and 102-116. *)
  Definition add_to_row (edges : list edge) (tables : list nat * list (list (option nat))) (e node other : nat)
    : outcome (list nat * list (list (option nat))) :=
    let (nn, ne) := tables in
    let! k := vget nn node in
    let! row := vget ne node in
    let! dup := already_added edges row k other in
    if dup then Ok (nn, ne)
    else
      let! row' := vset k (Some e) row in
      let! ne' := vset node row' ne in
      let! nn' := vset node (S k) nn in
      Ok (nn', ne').

  (** Loop body of Mesh::NodeAdministration, Mesh.cpp:71-117 *)
  Definition administrate_edge (edges : list edge) (tables : list nat * list (list (option nat))) (e : nat)
    : outcome (list nat * list (list (option nat))) :=
    let! ed := vget edges e in
    match ed with
    | (Some a, Some b) =>
        let! ka := vget (fst tables) a in
        if max_edges_per_node <=? ka then Ok tables
        else
          let! kb := vget (fst tables) b in
          if max_edges_per_node <=? kb then Ok tables
          else
            let! tables1 := add_to_row edges tables e a b in
            add_to_row edges tables1 e b a
    | _ => Ok tables
    end.

  (** Mesh.cpp:119-123 *)
  Fixpoint resize_rows (nn : list nat) (ne : list (list (option nat))) : list (list (option nat)) :=
    match nn, ne with
    | k :: nt, row :: rt => vresize k (Some 0) row :: resize_rows nt rt
    | _, _ => ne
    end.

  (** Mesh::NodeAdministration, Mesh.cpp:68-138, without its return value (a count of nodes with four edges that no modelled caller
      uses). *)
  Definition node_administration (m : mesh) : outcome mesh :=
    let! (nn, ne) := fold_out (administrate_edge (m_edges m)) (seq 0 (length (m_edges m))) (m_nodesNumEdges m, m_nodesEdges m) in
    Ok (set_tables m nn (resize_rows nn ne)).

  (** The memory the sort of one node reads, Mesh.cpp:798-842. *)
  Definition sort_reads (nodes : list point) (edges : list edge) (row : list (option nat)) : outcome unit :=
    fold_out (fun _ i =>
      let! ed := vget_idx edges i in
      match ed with
      | (Some a, Some b) => let! _ := vget nodes a in let! _ := vget nodes b in Ok tt
      | _ => Ok tt
      end) row tt.

  (** Mesh::SortEdgesInCounterClockWiseOrder(0, GetNumNodes() - 1), Mesh.cpp:782-857.  Rows have length nodesNumEdges[n] when this is
      called (Mesh.cpp:122). *)
  Fixpoint sort_rows (nodes0 : list point) (edges : list edge) (n : nat) (nodes : list point) (rows : list (list (option nat)))
    : outcome (list (list (option nat))) :=
    match nodes, rows with
    | p :: pt, row :: rt =>
        let! rest := sort_rows nodes0 edges (S n) pt rt in
        if is_valid p then
          let! _ := sort_reads nodes0 edges row in
          Ok (order nodes0 edges n row :: rest)
        else Ok (row :: rest)
    | [], _ => Ok rows
    | _, [] => UB
    end.

  (** Second part of Mesh::AdministrateNodesEdges, Mesh.cpp:868-882 *)
  Definition rebuild_tables (m : mesh) : outcome mesh :=
    match m_nodes m, m_edges m with
    | [], _ => Ok m
    | _, [] => Ok m
    | _, _ =>
        let n := length (m_nodes m) in
        let! m1 := node_administration (set_tables m (repeat 0 n) (repeat (repeat None max_edges_per_node) n)) in
        let! rows := sort_rows (m_nodes m) (m_edges m) 0 (m_nodes m) (m_nodesEdges m1) in
        Ok (set_tables m1 (m_nodesNumEdges m1) rows)
    end.

  (** Mesh::AdministrateNodesEdges / Mesh::Administrate, Mesh.cpp:859-883, with the actions recorded if an undo action is passed. *)
  Definition administrate_undo (m : mesh) : outcome (mesh * list mact) :=
    let! (m1, acts) := set_unconnected_invalid m in
    let! m2 := rebuild_tables m1 in
    Ok (m2, acts).
  Definition administrate (m : mesh) : outcome mesh := let! (m', _) := administrate_undo m in Ok m'.

  (** *** Construction *)

  (** validNodesIndices, Mesh.cpp:208-219 *)
  Fixpoint valid_indices (next : nat) (nodes : list point) : list (option nat) :=
    match nodes with
    | [] => []
    | p :: t => if is_valid p then Some next :: valid_indices (S next) t else None :: valid_indices next t
    end.

  (** Mesh.cpp:221-236 *)
  Definition renumber_edge (idx : list (option nat)) (e : edge) : outcome edge :=
    match e with
    | (Some a, Some b) =>
        let! ia := vget idx a in
        match ia with
        | None => Ok missing_edge
        | Some _ => let! ib := vget idx b in match ib with None => Ok missing_edge | Some _ => Ok (ia, ib) end
        end
    | _ => Ok missing_edge
    end.
  Fixpoint renumber_edges (idx : list (option nat)) (l : list edge) : outcome (list edge) :=
    match l with
    | [] => Ok []
    | e :: t => let! e' := renumber_edge idx e in let! t' := renumber_edges idx t in Ok (e' :: t')
    end.
  Definition edge_has_missing (e : edge) : bool := match e with (Some _, Some _) => false | _ => true end.

  (** Mesh::DeleteInvalidNodesAndEdges, Mesh.cpp:190-247 *)
  Definition delete_invalid (m : mesh) : outcome mesh :=
    let! (conn, numInvalidEdges) := find_connected m in
    let (nodes, _) := invalidate_unconnected 0 conn (m_nodes m) in
    if (numInvalidEdges =? 0) && (count_invalid nodes =? 0) then Ok (set_nodes m nodes)
    else
      let! edges := renumber_edges (valid_indices 0 nodes) (m_edges m) in
      Ok (set_edges (set_nodes m (filter is_valid nodes)) (filter (fun e => negb (edge_has_missing e)) edges)).

  (** Mesh::Mesh(edges, nodes, projection), Mesh.cpp:55-66; the tables are still empty. *)
  Definition construct (edges : list edge) (nodes : list point) (p : projection) : outcome mesh :=
    delete_invalid (Mesh nodes edges [] [] p).

  (** *** Applying and reverting elementary actions: Mesh::CommitAction / RestoreAction, Mesh.cpp:1190-1296.  Swapping actions change
      themselves. *)
  Definition commit_leaf (a : mact) (m : mesh) : outcome (mact * mesh) :=
    match a with
    | AddNodeA n p => let! m1 := put_node m n p in let! m2 := zero_count m1 n in Ok (a, m2)
    | AddEdgeA e ed => let! m1 := put_edge m e ed in Ok (a, m1)
    | ResetNodeA n _ p => let! m1 := put_node m n p in Ok (a, m1)
    | ResetEdgeA e _ ed => let! m1 := put_edge m e ed in Ok (a, m1)
    | DeleteEdgeA e _ => let! m1 := put_edge m e missing_edge in Ok (a, m1)
    | DeleteNodeA n _ => let! m1 := put_node m n missing_point in Ok (a, m1)
    | TranslationA saved idx =>
        let! (saved', nodes) := translation_swap saved idx (m_nodes m) in Ok (TranslationA saved' idx, set_nodes m nodes)
    | ConversionA saved p =>
        if length (m_nodes m) <? length saved then Throw ConstraintErr
        else let (saved', nodes) := swap_ranges saved (m_nodes m) in
             Ok (ConversionA saved' (m_projection m), set_projection (set_nodes m nodes) p)
    | FullA ns es =>
        let! m1 := administrate (set_edges (set_nodes m ns) es) in
        Ok (FullA (m_nodes m) (m_edges m), m1)
    end.
  Definition restore_leaf (a : mact) (m : mesh) : outcome (mact * mesh) :=
    match a with
    | AddNodeA n _ => let! m1 := put_node m n missing_point in let! m2 := zero_count m1 n in Ok (a, m2)
    | AddEdgeA e _ => let! m1 := put_edge m e missing_edge in Ok (a, m1)
    | ResetNodeA n p _ => let! m1 := put_node m n p in Ok (a, m1)
    | ResetEdgeA e ed _ => let! m1 := put_edge m e ed in Ok (a, m1)
    | DeleteEdgeA e ed => let! m1 := put_edge m e ed in Ok (a, m1)
    | DeleteNodeA n p => let! m1 := put_node m n p in Ok (a, m1)
    | TranslationA saved idx =>
        let! (saved', nodes) := translation_swap saved idx (m_nodes m) in Ok (TranslationA saved' idx, set_nodes m nodes)
    | ConversionA saved p =>
        if length (m_nodes m) <? length saved then Throw ConstraintErr
        else let (saved', nodes) := swap_ranges saved (m_nodes m) in
             Ok (ConversionA saved' (m_projection m), set_projection (set_nodes m nodes) p)
    | FullA ns es =>
        let! m1 := administrate (set_edges (set_nodes m ns) es) in
        Ok (FullA (m_nodes m) (m_edges m), m1)
    end.

  Notation action := (act mact).
  Definition leaf (a : mact) : action := Leaf Committed a.
  Definition compound (l : list action) : action := Compound Committed l.

  (** *** Edits.  Each returns the undo action and the changed mesh. *)

  (** Mesh::InsertNode, Mesh.cpp:468-480 *)
  Definition insert_node (m : mesh) (p : point) : outcome (nat * action * mesh) :=
    let n := length (m_nodes m) in
    let m1 := set_tables (set_nodes m (vresize (S n) missing_point (m_nodes m)))
                         (vresize (S n) 0 (m_nodesNumEdges m)) (vresize (S n) [] (m_nodesEdges m)) in
    let! (a, m2) := commit_leaf (AddNodeA n p) m1 in
    Ok (n, leaf a, m2).

  (** Mesh::FindEdge, Mesh.cpp:616-635 *)
  Fixpoint find_in_row (edges : list edge) (row : list (option nat)) (k first second : nat) : outcome (option nat) :=
    match k with
    | O => Ok None
    | S k' =>
        match row with
        | [] => UB
        | i :: t =>
            let! ed := vget_idx edges i in
            if eq_idx (other_node ed first) (Some second) then Ok i else find_in_row edges t k' first second
        end
    end.
  Definition find_edge (m : mesh) (first second : option nat) : outcome (option nat) :=
    match first, second with
    | Some a, Some b =>
        let! k := vget (m_nodesNumEdges m) a in
        match k with
        | O => Ok None
        | _ => let! row := vget (m_nodesEdges m) a in find_in_row (m_edges m) row k a b
        end
    | _, _ => Throw ConstraintErr
    end.

  (** Mesh::ConnectNodes, Mesh.cpp:482-496.  [None]: the edge exists already, a null action is returned.  The adjacency tables are
      not updated. *)
  Definition connect_nodes (m : mesh) (s e : option nat) : outcome (option (nat * action * mesh)) :=
    let! found := find_edge m s e in
    match found with
    | Some _ => Ok None
    | None =>
        let k := length (m_edges m) in
        let m1 := set_edges m (vresize (S k) (Some 0, Some 0) (m_edges m)) in
        let! (a, m2) := commit_leaf (AddEdgeA k (s, e)) m1 in
        Ok (Some (k, leaf a, m2))
    end.

  (** Mesh::ResetNode, Mesh.cpp:498-508 *)
  Definition reset_node (m : mesh) (n : nat) (p : point) : outcome (action * mesh) :=
    match nth_error (m_nodes m) n with
    | None => Throw ConstraintErr
    | Some q => let! (a, m1) := commit_leaf (ResetNodeA n q p) m in Ok (leaf a, m1)
    end.

  (** Mesh::ResetEdge, Mesh.cpp:758-763 *)
  Definition reset_edge (m : mesh) (e : option nat) (ed : edge) : outcome (action * mesh) :=
    match e with
    | None => UB
    | Some e =>
        let! old := vget (m_edges m) e in
        let! (a, m1) := commit_leaf (ResetEdgeA e old ed) m in
        Ok (leaf a, m1)
    end.

  (** Mesh::DeleteEdge, Mesh.cpp:520-531 *)
  Definition delete_edge (m : mesh) (e : option nat) : outcome (action * mesh) :=
    match e with
    | None => Throw StdErr
    | Some e =>
        let! ed := vget (m_edges m) e in
        let! (a, m1) := commit_leaf (DeleteEdgeA e ed) m in
        Ok (leaf a, m1)
    end.

  (** Mesh::DeleteNode, Mesh.cpp:533-550 *)
  Definition delete_edges (m : mesh) (l : list (option nat)) : outcome (list action * mesh) :=
    fold_out (fun (acc : list action * mesh) e =>
      let! (a, m1) := delete_edge (snd acc) e in
      let! acts := compound_add (fst acc) (Some a) in
      Ok (acts, m1)) l ([], m).
  Definition delete_node (m : mesh) (n : option nat) : outcome (action * mesh) :=
    match n with
    | None => Throw StdErr
    | Some n =>
        match nth_error (m_nodes m) n with
        | None => Throw StdErr
        | Some p =>
            let! row := vget (m_nodesEdges m) n in
            let! (acts, m1) := delete_edges m row in
            let! (a, m2) := commit_leaf (DeleteNodeA n p) m1 in
            Ok (compound (acts ++ [leaf a]), m2)
        end
    end.

  (** Mesh::MergeTwoNodes, Mesh.cpp:295-406.  State of the loops: recorded actions and mesh. *)
  Definition add_action (acc : list action) (r : outcome (action * mesh)) : outcome (list action * mesh) :=
    let! (a, m1) := r in let! acts := compound_add acc (Some a) in Ok (acts, m1).

  (** Mesh.cpp:341-351: edges of [other] leading to [second] *)
  Definition merge_inner (other second : nat) (acc : list action * mesh) (nn : nat) : outcome (list action * mesh) :=
    let (acts, m) := acc in
    let! row := vget (m_nodesEdges m) other in
    let! e2 := vget row nn in
    let! ed2 := vget_idx (m_edges m) e2 in
    if eq_idx (other_node ed2 other) (Some second) then add_action acts (delete_edge m e2) else Ok (acts, m).

  (** Mesh.cpp:333-353 *)
  Definition merge_outer (first second : nat) (acc : list action * mesh) (n : nat) : outcome (list action * mesh) :=
    let (acts, m) := acc in
    let! row := vget (m_nodesEdges m) first in
    let! e1 := vget row n in
    let! ed1 := vget_idx (m_edges m) e1 in
    match other_node ed1 first with
    | None => Ok (acts, m)
    | Some o =>
        if o =? second then Ok (acts, m)
        else let! k := vget (m_nodesNumEdges m) o in fold_out (merge_inner o second) (seq 0 k) (acts, m)
    end.

  (** Mesh.cpp:359-368; writing past the 16 entries of secondNodeEdges is undefined *)
  Definition collect_second (second : nat) (m : mesh) (acc : list (option nat)) (n : nat) : outcome (list (option nat)) :=
    let! row := vget (m_nodesEdges m) second in
    let! e := vget row n in
    let! ed := vget_idx (m_edges m) e in
    match fst ed with
    | None => Ok acc
    | Some _ => if length acc <? max_edges_per_node then Ok (acc ++ [e]) else UB
    end.

  (** Mesh.cpp:371-390 *)
  Definition collect_first (first second : nat) (acc : list (option nat) * (list action * mesh)) (n : nat)
    : outcome (list (option nat) * (list action * mesh)) :=
    let (l, am) := acc in
    let (acts, m) := am in
    let! row := vget (m_nodesEdges m) first in
    let! e := vget row n in
    let! ed := vget_idx (m_edges m) e in
    match fst ed with
    | None => Ok acc
    | Some x =>
        if length l <? max_edges_per_node then
          let l' := l ++ [e] in
          if x =? first then
            let! am' := add_action acts (reset_edge m e (Some second, snd ed)) in Ok (l', am')
          else if eq_idx (snd ed) (Some first) then
            let! am' := add_action acts (reset_edge m e (fst ed, Some second)) in Ok (l', am')
          else Ok (l', (acts, m))
        else UB
    end.

  Definition merge_two_nodes (m : mesh) (first second : option nat) : outcome (option (action * mesh)) :=
    match first, second with
    | Some a, Some b =>
        if length (m_nodes m) <=? a then Throw RangeErr
        else if length (m_nodes m) <=? b then Throw RangeErr
        else if a =? b then Ok None
        else
          let! e := find_edge m first second in
          let! (acts1, m1) := match e with
                              | Some _ => add_action [] (delete_edge m e)
                              | None => Ok ([], m)
                              end in
          let! ka := vget (m_nodesNumEdges m1) a in
          let! (acts2, m2) := fold_out (merge_outer a b) (seq 0 ka) (acts1, m1) in
          let! kb := vget (m_nodesNumEdges m2) b in
          let! l1 := fold_out (collect_second b m2) (seq 0 kb) [] in
          let! (l2, (acts3, m3)) := fold_out (collect_first a b) (seq 0 ka) (l1, (acts2, m2)) in
          let! ne1 := vset b l2 (m_nodesEdges m3) in
          let! nn1 := vset b (length l2) (m_nodesNumEdges m3) in
          let! ne2 := vset a [] ne1 in
          let! nn2 := vset a 0 nn1 in
          let! (acts4, m4) := add_action acts3 (reset_node (set_tables m3 nn2 ne2) a missing_point) in
          Ok (Some (compound acts4, m4))
    | _, _ => Throw ConstraintErr
    end.

  (** NodeTranslationAction constructor, NodeTranslationAction.cpp:21-49; sizeof(UInt) = 4, sizeof(Point) = 16. *)
  Fixpoint gather (nodes : list point) (idx : list nat) : outcome (list point) :=
    match idx with
    | [] => Ok []
    | i :: t => let! p := vget nodes i in let! r := gather nodes t in Ok (p :: r)
    end.
  Definition create_translation (m : mesh) (idx : list nat) : outcome mact :=
    if length (m_nodes m) <? length idx then Throw ConstraintErr
    else if (length idx =? 0) || (length (m_nodes m) * 16 <? length idx * 20) then Ok (TranslationA (m_nodes m) [])
    else let! saved := gather (m_nodes m) idx in Ok (TranslationA saved idx).

  (** Mesh::MoveNode, Mesh.cpp:712-756.  The floating point arithmetic is abstract: [near q] tells whether a node at [q] is within the
      distance moved (Mesh.cpp:737; a comparison of doubles depending on the node only), [moved q] is its new position (739-750). *)
  Fixpoint near_indices (near : point -> bool) (n : nat) (nodes : list point) : list nat :=
    match nodes with
    | [] => []
    | p :: t => if near p then n :: near_indices near (S n) t else near_indices near (S n) t
    end.
  Definition move_node (near : point -> bool) (moved : point -> point) (m : mesh) (n : nat) : outcome (action * mesh) :=
    if length (m_nodes m) <=? n then Throw ConstraintErr
    else
      let idx := near_indices near 0 (m_nodes m) in
      let! a := create_translation m idx in
      let! nodes := fold_out (fun l i => let! p := vget l i in vset i (moved p) l) idx (m_nodes m) in
      Ok (leaf a, set_nodes m nodes).

  (** Mesh::operator+=, Mesh.cpp:971-1012.  Unsigned addition of numNodes to a missing end wraps around. *)
  Definition shift_index (k : nat) (i : option nat) : option nat :=
    match i with
    | Some i => Some (i + k)
    | None => match k with O => None | S k' => Some k' end     (* 2^32-1 + k = k-1 modulo 2^32 *)
    end.
  Definition shift_edge (k : nat) (e : edge) : edge := (shift_index k (fst e), shift_index k (snd e)).
  Definition eq_proj (p q : projection) : bool :=
    match p, q with Cartesian, Cartesian | Spherical, Spherical | SphericalAccurate, SphericalAccurate => true | _, _ => false end.
  Definition add_mesh (m rhs : mesh) : outcome mesh :=
    if negb (eq_proj (m_projection m) (m_projection rhs)) then Throw StdErr
    else match m_nodes rhs, m_edges rhs with
         | [], _ => Ok m
         | _, [] => Ok m
         | _, _ =>
             administrate (set_edges (set_nodes m (m_nodes m ++ m_nodes rhs))
                                     (m_edges m ++ map (shift_edge (length (m_nodes m))) (m_edges rhs)))
         end.

  (** Mesh::Join, Mesh.cpp:1014-1019 *)
  Definition join (m rhs : mesh) : outcome (action * mesh) :=
    let! m1 := add_mesh m rhs in Ok (leaf (FullA (m_nodes m) (m_edges m)), m1).

  (** MeshConversion::Compute, MeshConversion.hpp:114-144, for a conversion [conv] from projection [src] to [dst]. *)
  Definition convert_projection (src dst : projection) (conv : point -> point) (m : mesh) : outcome (action * mesh) :=
    if negb (eq_proj (m_projection m) src) then Throw MeshKernelErr
    else
      let nodes := map (fun p => if is_valid p then conv p else p) (m_nodes m) in
      let! m1 := administrate (set_projection (set_nodes m nodes) dst) in
      Ok (leaf (ConversionA (m_nodes m) (m_projection m)), m1).

  (** *** The edits of a mesh as commands, for the undo stack.  [EAdministrate]: Mesh::Administrate with an undo action. *)
  Inductive medit :=
  | EInsertNode (p : point)
  | EConnect (s e : option nat)
  | EResetNode (n : nat) (p : point)
  | EResetEdge (e : nat) (ed : edge)
  | EDeleteEdge (e : option nat)
  | EDeleteNode (n : option nat)
  | EMerge (a b : option nat)
  | EMove (near : point -> bool) (moved : point -> point) (n : nat)
  | EAdministrate
  | EJoin (rhs : mesh)
  | EConvert (src dst : projection) (conv : point -> point).

  Definition do_medit (c : medit) (m : mesh) : outcome (option (action * mesh)) :=
    match c with
    | EInsertNode p => let! (na, m') := insert_node m p in Ok (Some (snd na, m'))
    | EConnect s e =>
        let! r := connect_nodes m s e in
        match r with Some (na, m') => Ok (Some (snd na, m')) | None => Ok None end
    | EResetNode n p => let! r := reset_node m n p in Ok (Some r)
    | EResetEdge e ed => let! r := reset_edge m (Some e) ed in Ok (Some r)
    | EDeleteEdge e => let! r := delete_edge m e in Ok (Some r)
    | EDeleteNode n => let! r := delete_node m n in Ok (Some r)
    | EMerge a b => merge_two_nodes m a b
    | EMove near moved n => let! r := move_node near moved m n in Ok (Some r)
    | EAdministrate =>
        let! (m', acts) := administrate_undo m in Ok (Some (compound (map leaf acts), m'))
    | EJoin rhs => let! r := join m rhs in Ok (Some r)
    | EConvert src dst conv => let! r := convert_projection src dst conv m in Ok (Some r)
    end.

  (** *** Counts and maps of valid entities *)

  (** Mesh::GetNumValidNodes, Mesh.cpp:1021-1025 *)
  Definition num_valid_nodes (m : mesh) : nat := length (filter is_valid (m_nodes m)).

  (** Mesh::IsValidEdge, Mesh.cpp:1141-1150 *)
  Definition is_valid_edge (m : mesh) (e : nat) : outcome bool :=
    match nth_error (m_edges m) e with
    | None => Throw ConstraintErr
    | Some ed => let! b := edge_invalid (m_nodes m) ed in Ok (negb b)
    end.

  (** Mesh::GetNumValidEdges, Mesh.cpp:1027-1040 *)
  Definition num_valid_edges (m : mesh) : outcome nat :=
    fold_out (fun k e => let! b := is_valid_edge m e in Ok (if b then S k else k)) (seq 0 (length (m_edges m))) 0.

  (** Mesh::GetValidNodeMapping, Mesh.cpp:1105-1121: a vector of size numNodes filled from the front and then shortened. *)
  Definition valid_node_mapping (m : mesh) : outcome (list nat) :=
    let! (map0, count) :=
      fold_out (fun (acc : list nat * nat) i =>
        let (l, c) := acc in
        let! p := vget (m_nodes m) i in
        if is_valid p then let! l' := vset c i l in Ok (l', S c) else Ok (l, c))
        (seq 0 (length (m_nodes m))) (repeat 0 (length (m_nodes m)), 0) in
    Ok (vresize count 0 map0).

  (** Mesh::GetValidEdgeMapping, Mesh.cpp:1123-1139 *)
  Definition valid_edge_mapping (m : mesh) : outcome (list nat) :=
    let! (map0, count) :=
      fold_out (fun (acc : list nat * nat) i =>
        let (l, c) := acc in
        let! b := is_valid_edge m i in
        if b then let! l' := vset c i l in Ok (l', S c) else Ok (l, c))
        (seq 0 (length (m_edges m))) (repeat 0 (length (m_edges m)), 0) in
    Ok (vresize count 0 map0).
End MeshOps.

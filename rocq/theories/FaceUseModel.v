(** What is done with the faces of a mesh: triangulation, hanging edges, disconnected regions, export.
    Source: /repo/libs/MeshKernel/src/Mesh2D.cpp ("Mesh2D.cpp"), RemoveDisconnectedRegions.cpp ("RDR.cpp"),
    /repo/libs/MeshKernelApi/include/MeshKernelApi/Utils.hpp ("Utils.hpp"), /repo/libs/MeshKernelApi/src/MeshKernel.cpp ("MeshKernel.cpp").

    Simplifications.  Index arithmetic does not overflow.  Edge centres and face centres, plain copies of parallel vectors, are not exported. *)
From Verif Require Import Base FloatModel UndoModel ActionModel MeshModel FaceModel.

(** *** Edits that record one compound action *)
Local Notation action := (act mact).
Section Edits.
  Variable order : list point -> list edge -> nat -> list (option nat) -> list (option nat).

  (** Mesh2D.cpp:1377-1383: one diagonal *)
  Definition add_diagonal (first : nat) (nodes : list nat) (acc : list action * mesh) (j : nat) : outcome (list action * mesh) :=
    let (acts, m) := acc in
    let! n := vget nodes j in
    let! r := connect_nodes order m (Some first) (Some n) in
    match r with
    | None => let! acts := compound_add acts None in Ok (acts, m)
    | Some (_, a, m1) => let! acts := compound_add acts (Some a) in Ok (acts, m1)
    end.
  (** Mesh2D.cpp:1367-1384: one face.  The loop runs over 2 <= j < NumEdges - 1. *)
  Definition triangulate_face (f : faces) (acc : list action * mesh) (i : nat) : outcome (list action * mesh) :=
    let! num := vget (num_faces_nodes f) i in
    if num <? 4 then Ok acc
    else
      let! nodes := vget (faces_nodes f) i in
      let! first := vget nodes 0 in
      fold_out (add_diagonal first nodes) (seq 2 (num - 3)) acc.
  (** TriangulateFaces, Mesh2D.cpp:1363-1389 *)
  Definition triangulate_faces (f : faces) (m : mesh) : outcome (action * mesh) :=
    let! (acts, m1) := fold_out (triangulate_face f) (seq 0 (num_faces f)) ([], m) in
    Ok (compound acts, m1).

  (** GetHangingEdges, Mesh2D.cpp:1615-1635.  The second count is read only if the first is above one. *)
  Definition hanging_step (m : mesh) (acc : list nat) (e : nat) : outcome (list nat) :=
    let! ed := vget (m_edges m) e in
    match ed with
    | (Some a, Some b) =>
        let! ca := vget (m_nodesNumEdges m) a in
        if 1 <? ca then
          let! cb := vget (m_nodesNumEdges m) b in
          if 1 <? cb then Ok acc else Ok (acc ++ [e])
        else Ok (acc ++ [e])
    | _ => Ok acc
    end.
  Definition hanging_edges (m : mesh) : outcome (list nat) := fold_out (hanging_step m) (seq 0 (length (m_edges m))) [].
  (** DeleteHangingEdges, Mesh2D.cpp:1870-1880 *)
  Definition delete_hanging_edges (m : mesh) : outcome (action * mesh) :=
    let! l := hanging_edges m in
    let! (acts, m1) := delete_edges order m (map Some l) in
    Ok (compound acts, m1).
  (** mkernel_mesh2d_count_hanging_edges, MeshKernel.cpp:1144-1162, administrates first; get and delete do not *)
  Definition count_hanging_edges (m : mesh) : outcome (nat * mesh) :=
    let! m1 := administrate order m in
    let! l := hanging_edges m1 in
    Ok (length l, m1).

  (** *** Disconnected regions *)

  (** GetNeighbour, RDR.cpp:7-25 *)
  Definition neighbour_across (p : option nat * option nat) (el : nat) : option nat :=
    if eq_idx (fst p) (Some el) then snd p else if eq_idx (snd p) (Some el) then fst p else None.

  (** RDR.cpp:45-57: one edge of the element taken from the queue.  State: labels, queue, number of elements labelled. *)
  Definition visit_edge (f : faces) (region cur : nat) (acc : list (option nat) * list nat * nat) (e : nat)
    : outcome (list (option nat) * list nat * nat) :=
    let '(labels, queue, count) := acc in
    let! p := vget (edges_faces f) e in
    match neighbour_across p cur with
    | None => Ok acc
    | Some n =>
        let! l := vget labels n in
        match l with
        | Some _ => Ok acc
        | None => let! labels := vset n (Some region) labels in Ok (labels, queue ++ [n], S count)
        end
    end.
  (** The loop of LabelConnectedRegion, RDR.cpp:38-58 *)
  Fixpoint visit_queue (f : faces) (region fuel : nat) (labels : list (option nat)) (queue : list nat) (count : nat)
    : outcome (list (option nat) * nat) :=
    match queue with
    | [] => Ok (labels, count)
    | cur :: queue =>
        match fuel with
        | 0 => UB
        | S fuel =>
            let! es := vget (faces_edges f) cur in
            let! r := fold_out (visit_edge f region cur) es (labels, queue, count) in
            let '(labels, queue, count) := r in
            visit_queue f region fuel labels queue count
        end
    end.
  (** LabelConnectedRegion, RDR.cpp:27-59.  Every element enters the queue at most once. *)
  Definition label_connected (f : faces) (region : nat) (labels : list (option nat)) (start : nat) : outcome (list (option nat) * nat) :=
    let! labels := vset start (Some region) labels in
    visit_queue f region (length labels) labels [start] 1.

  (** The first unlabelled element, RDR.cpp:66-76 *)
  Fixpoint first_unlabelled (i : nat) (labels : list (option nat)) : option nat :=
    match labels with [] => None | None :: _ => Some i | Some _ :: t => first_unlabelled (S i) t end.
  (** LabelSingleDomainRegion, RDR.cpp:61-85 *)
  Definition label_single (f : faces) (region : nat) (labels : list (option nat)) : outcome (list (option nat) * nat) :=
    match first_unlabelled 0 labels with
    | None => Ok (labels, 0)
    | Some start => label_connected f region labels start
    end.
  (** The loop of LabelAllDomainRegions, RDR.cpp:96-113 *)
  Fixpoint label_loop (f : faces) (fuel region : nat) (labels : list (option nat)) (counts : list (nat * nat))
    : outcome (list (option nat) * list (nat * nat)) :=
    match fuel with
    | 0 => UB
    | S fuel =>
        let! (labels, count) := label_single f region labels in
        if 0 <? count then label_loop f fuel (S region) labels (counts ++ [(region, count)]) else Ok (labels, counts)
    end.
  (** LabelAllDomainRegions, RDR.cpp:87-114.  Every round but the last labels an element. *)
  Definition label_all (f : faces) : outcome (list (option nat) * list (nat * nat)) :=
    label_loop f (S (num_faces f)) 1 (repeat None (num_faces f)) [].

  (** RemoveDetachedRegions, RDR.cpp:116-139.  The labels themselves are not used afterwards. *)
  Definition remove_step (f : faces) (labels : list (option nat)) (region : nat) (acc : list action * mesh) (i : nat) : outcome (list action * mesh) :=
    let! l := vget labels i in
    if eq_idx l (Some region) then Ok acc
    else
      let! es := vget (faces_edges f) i in
      fold_out (fun (acc : list action * mesh) e => let (acts, m) := acc in add_action acts (delete_edge order m (Some e))) es acc.
  Definition remove_detached (f : faces) (labels : list (option nat)) (region : nat) (m : mesh) : outcome (action * mesh) :=
    let! (acts, m1) := fold_out (remove_step f labels region) (seq 0 (length labels)) ([], m) in
    Ok (compound acts, m1).

  (** The largest region, the first one of several: RDR.cpp:164-174.  State: element count, region. *)
  Definition larger (best : nat * nat) (rc : nat * nat) : nat * nat := if fst best <? snd rc then (snd rc, fst rc) else best.
  Definition main_region (counts : list (nat * nat)) : nat := snd (fold_left larger counts (0, 0)).
  (** Compute, RDR.cpp:141-184 *)
  Definition remove_regions (f : faces) (m : mesh) : outcome (action * mesh) :=
    let! (labels, counts) := label_all f in
    if 1 <? length counts then
      let! (a, m1) := remove_detached f labels (main_region counts) m in
      let! acts := compound_add [] (Some a) in
      let! (m2, admin) := administrate_undo order m1 in
      Ok (compound (acts ++ map leaf admin), m2)
    else Ok (compound [], m).
End Edits.

(** *** Polygons of faces *)

(** FillFacePolygons, Utils.hpp:586-618.  State: the coordinates given by the caller, number written. *)
Definition put_point (acc : list point * nat) (p : point) : outcome (list point * nat) :=
  let (buffer, count) := acc in let! buffer := vset count p buffer in Ok (buffer, S count).
Definition fill_face (m : mesh) (f : faces) (mask : list bool) (acc : list point * nat) (i : nat) : outcome (list point * nat) :=
  let! b := vget mask i in
  if negb b then Ok acc
  else
    let! nodes := vget (faces_nodes f) i in
    let! acc := if snd acc =? 0 then Ok acc else put_point acc missing_point in
    let! acc := fold_out (fun acc n => let! p := vget (m_nodes m) n in put_point acc p) nodes acc in
    let! first := vget nodes 0 in
    let! p := vget (m_nodes m) first in
    put_point acc p.
Definition fill_polygons (m : mesh) (f : faces) (mask : list bool) (buffer : list point) : outcome (list point * nat) :=
  fold_out (fill_face m f mask) (seq 0 (num_faces f)) (buffer, 0).

(** The faces with [k] edges: MeshKernel.cpp:2421-2430 *)
Definition faces_of_size (f : faces) (k : Z) : list bool := map (fun ns => Z.eqb (Z.of_nat (length ns)) k) (faces_nodes f).
(** mkernel_mesh2d_get_face_polygons, MeshKernel.cpp:2411-2439 *)
Definition get_face_polygons (m : mesh) (f : faces) (k : Z) (buffer : list point) : outcome (list point * nat) :=
  fill_polygons m f (faces_of_size f k) buffer.
(** mkernel_mesh2d_get_face_polygons_dimension, MeshKernel.cpp:2441-2473; [old]: the number in the variable of the caller *)
Definition face_polygons_dimension (f : faces) (k : Z) (old : Z) : Z :=
  let n := Z.of_nat (length (filter (fun b => b) (faces_of_size f k))) in
  if (0 <? n)%Z then ((k + 2) * (n - 1) + k + 1)%Z else old.
(** The last part of mkernel_mesh2d_get_filtered_face_polygons_dimension, MeshKernel.cpp:2496-2509, for the result [mask] of the filter *)
Definition filtered_dimension (f : faces) (mask : list bool) : outcome Z :=
  let! d := fold_out (fun d i =>
      let! b := vget mask i in
      if b then let! ns := vget (faces_nodes f) i in Ok (d + Z.of_nat (length ns) + 2)%Z else Ok d) (seq 0 (length mask)) 0%Z in
  Ok (if (0 <? d)%Z then (d - 1)%Z else d).

(** *** Export *)

(** The numbers and arrays of meshkernelapi::Mesh2D *)
Record api_mesh := Api {
  a_num_nodes : nat; a_num_edges : nat; a_num_faces : nat; a_num_face_nodes : nat;
  a_num_valid_nodes : nat; a_num_valid_edges : nat }.
Record api_data := Data {
  d_nodes : list point; d_edge_nodes : list Z; d_edge_faces : list Z;
  d_nodes_per_face : list Z; d_face_nodes : list Z; d_face_edges : list Z }.

(** SetMesh2dApiDimensions, Utils.hpp:327-341 *)
Definition api_dimensions (m : mesh) (f : faces) : outcome api_mesh :=
  let! k := fold_out (fun k i => let! ns := vget (faces_nodes f) i in Ok (k + length ns)) (seq 0 (num_faces f)) 0 in
  let! ve := num_valid_edges m in
  Ok (Api (length (m_nodes m)) (length (m_edges m)) (num_faces f) k (num_valid_nodes m) ve).

(** static_cast<int> of a UInt; the missing value becomes -1 *)
Definition int_of (i : option nat) : Z := match i with Some n => Z.of_nat n | None => (-1)%Z end.

(** Utils.hpp:379-383, 385-397, 400-411 *)
Definition export_node (m : mesh) (buffer : list point) (n : nat) : outcome (list point) :=
  let! p := vget (m_nodes m) n in vset n p buffer.
Definition export_edge (m : mesh) (f : faces) (acc : list Z * list Z) (e : nat) : outcome (list Z * list Z) :=
  let (en, ef) := acc in
  let! ed := vget (m_edges m) e in
  let! en := vset (e * 2) (int_of (fst ed)) en in
  let! en := vset (e * 2 + 1) (int_of (snd ed)) en in
  let! fs := vget (edges_faces f) e in
  let! ef := vset (e * 2) (int_of (fst fs)) ef in
  let! ef := vset (e * 2 + 1) (int_of (snd fs)) ef in
  Ok (en, ef).
Definition export_face_item (ns es : list nat) (acc : list Z * list Z * nat) (k : nat) : outcome (list Z * list Z * nat) :=
  let '(fn, fe, i) := acc in
  let! n := vget ns k in
  let! fn := vset i (Z.of_nat n) fn in
  let! e := vget es k in
  let! fe := vset i (Z.of_nat e) fe in
  Ok (fn, fe, S i).
Definition export_face (f : faces) (acc : list Z * (list Z * list Z * nat)) (i : nat) : outcome (list Z * (list Z * list Z * nat)) :=
  let (per, acc) := acc in
  let! ns := vget (faces_nodes f) i in
  let! per := vset i (Z.of_nat (length ns)) per in
  (** m_facesEdges[f] is only evaluated for faces with nodes; a face always has a list of edges *)
  let! es := vget (faces_edges f) i in
  let! acc := fold_out (export_face_item ns es) (seq 0 (length ns)) acc in
  Ok (per, acc).
(** SetMesh2dApiData, Utils.hpp:376-414 *)
Definition export_mesh (m : mesh) (f : faces) (d : api_data) : outcome api_data :=
  let! nodes := fold_out (export_node m) (seq 0 (length (m_nodes m))) (d_nodes d) in
  let! (en, ef) := fold_out (export_edge m f) (seq 0 (length (m_edges m))) (d_edge_nodes d, d_edge_faces d) in
  let! r := fold_out (export_face f) (seq 0 (num_faces f)) (d_nodes_per_face d, (d_face_nodes d, d_face_edges d, 0)) in
  let '(per, (fn, fe, _)) := r in
  Ok (Data nodes en ef per fn fe).

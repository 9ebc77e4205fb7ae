(** Casulli refinement.  Source: /repo/libs/MeshKernel/src/CasulliRefinement.cpp ("CR.cpp" below) and Mesh2D.cpp.

    Simplifications.  Whether a point lies in the polygon (Polygons::IsPointInPolygons), the circumcentres of the faces (m_facesCircumcenters) and the node
    types (m_nodesTypes) are arguments.  FindPatchIds (CR.cpp:224-254) also collects the nodes around a node (GetConnectingNodes, FindNodesSharedByFaces);
    nothing reads them and they are left out.  Arrays of four entries are lists of length four.  Growing the buffer newEdges (CR.cpp:391-394) is left out.
    ConnectFaceNodes reads all four masks before it compares them; the code reads them as far as it needs them. *)
From Verif Require Import Base FloatModel ActionModel MeshModel FaceModel FlipModel SplitModel.

Local Notation action := (act mact).

(** NodeMask, CasulliRefinement.hpp:58-66; the order matters *)
Inductive mask := NewAssigned | NewGeneral | Unassigned | Registered | Boundary | Corner.
Definition rank (v : mask) : nat :=
  match v with NewAssigned => 0 | NewGeneral => 1 | Unassigned => 2 | Registered => 3 | Boundary => 4 | Corner => 5 end.
Definition lt_mask (a b : mask) : bool := rank a <? rank b.
Definition eq_mask (a b : mask) : bool := rank a =? rank b.

(** *** The node mask *)
Section Mask.
  Variable inside : point -> bool. (* Polygons::IsPointInPolygons *)
  Variable types : list Z.         (* m_nodesTypes *)
  Variable m : mesh.
  Variable f : faces.

  Definition mark_end (masks : list mask) (i : option nat) : outcome (list mask) :=
    match i with
    | None => UB
    | Some i => let! v := vget masks i in if eq_mask v Unassigned then Ok masks else vset i Boundary masks
    end.
  (** InitialiseBoundaryNodes, CR.cpp:57-80: one edge *)
  Definition mark_boundary (masks : list mask) (e : nat) : outcome (list mask) :=
    let! ed := get_edge m (Some e) in
    let! k := vget (edges_num_faces f) e in
    if k =? 1 then let! masks := mark_end masks (fst ed) in mark_end masks (snd ed) else Ok masks.

  (** The loop CR.cpp:99-108; [left] is the number of entries of the face that follow the current one *)
  Fixpoint second_edge (n e1 left : nat) (es : list nat) : outcome nat :=
    match es with
    | [] => UB
    | e2 :: es =>
        let! ed := get_edge m (Some e2) in
        if (negb (touches ed n) || (e2 =? e1)) && (0 <? left) then second_edge n e1 (left - 1) es else Ok e2
    end.
  (** InitialiseCornerNodes, CR.cpp:87-118: the edges of one node *)
  Fixpoint mark_corner (n : nat) (masks : list mask) (row : list nat) : outcome (list mask) :=
    match row with
    | [] => Ok masks
    | j :: row =>
        let! r := vget (m_nodesEdges m) n in
        let! oe := vget r j in
        let! e1 := match oe with Some e => Ok e | None => UB end in
        let! k1 := vget (edges_num_faces f) e1 in
        if negb (k1 =? 1) then mark_corner n masks row
        else
          let! ef := vget (edges_faces f) e1 in
          let! i := match fst ef with Some i => Ok i | None => UB end in
          let! count := vget (num_faces_nodes f) i in
          let! es := vget (faces_edges f) i in
          let! e2 := second_edge n e1 (count - 1) es in
          let! k2 := vget (edges_num_faces f) e2 in
          if k2 =? 1 then
            let! v := vget masks n in
            if lt_mask Unassigned v then vset n Corner masks else mark_corner n masks row
          else mark_corner n masks row
    end.
  (** CR.cpp:84-119 *)
  Definition mark_corners (masks : list mask) (n : nat) : outcome (list mask) :=
    let! d := vget (m_nodesNumEdges m) n in mark_corner n masks (seq 0 d).
  (** CR.cpp:121-128 *)
  Definition mark_type (masks : list mask) (n : nat) : outcome (list mask) :=
    let! v := vget masks n in
    if eq_mask v Unassigned then Ok masks
    else let! t := vget types n in if (t =? 3)%Z then vset n Corner masks else Ok masks.

  (** Entry 0 or 1 of m_edgesFaces for an edge with [k] > 0 faces, Mesh2D.cpp:2357-2358 *)
  Definition last_face (k : nat) (ef : option nat * option nat) : option nat := if k =? 1 then fst ef else snd ef.
  (** FindFacesConnectedToNode, Mesh2D.cpp:2335-2388.  [prev] is newFaceIndex, [found] the faces so far. *)
  Fixpoint faces_at (n d : nat) (row : list (option nat)) (js : list nat) (prev : option nat) (found : list (option nat)) : outcome (list (option nat)) :=
    match js with
    | [] => Ok found
    | j :: js =>
        let! e1 := vget row j in
        let! e2 := vget row (if d <=? S j then 0 else S j) in
        let! k1 := vget_idx (edges_num_faces f) e1 in
        let! k2 := (if k1 =? 0 then Ok 0 else vget_idx (edges_num_faces f) e2) in
        if (k1 =? 0) || (k2 =? 0) then faces_at n d row js prev found
        else
          let! p := vget_idx (edges_faces f) e1 in
          let! q := vget_idx (edges_faces f) e2 in
          let among x := eq_idx x (fst q) || eq_idx x (last_face k2 q) in
          let next :=
            if negb (eq_idx (fst p) prev) && among (fst p) then fst p
            else if negb (eq_idx (last_face k1 p) prev) && among (last_face k1 p) then last_face k1 p
            else None in
          let! same :=
            (if (d =? 2) && (j =? 1) then
               let! t := vget types n in Ok ((t =? 3)%Z && match found with [] => false | x :: _ => eq_idx x next end)
             else Ok false) in
          let next := if same then None else next in
          faces_at n d row js next (found ++ [next])
    end.
  Definition present (o : option nat) : bool := match o with Some _ => true | None => false end.
  (** InitialiseFaceNodes, CR.cpp:138-179: one node *)
  Definition mark_face (masks : list mask) (n : nat) : outcome (list mask) :=
    let! v := vget masks n in
    if eq_mask v Unassigned then Ok masks
    else
      let! d := vget (m_nodesNumEdges m) n in
      if d <=? 1 then vset n Unassigned masks
      else
        let! row := vget (m_nodesEdges m) n in
        let! found := faces_at n d row (seq 0 d) None [] in
        let count := length (filter present found) in
        let! masks := (if count =? 0 then vset n Unassigned masks else Ok masks) in
        let! v := vget masks n in
        let! masks := (if (count <? d - 1) && eq_mask v Boundary then vset n Corner masks else Ok masks) in
        let! v := vget masks n in
        if (max_edges_per_node <? count) && lt_mask Unassigned v && lt_mask v Boundary then vset n Corner masks else Ok masks.

  (** InitialiseNodeMask, CR.cpp:182-204 *)
  Definition node_mask : outcome (list mask) :=
    let nodes := seq 0 (length (m_nodes m)) in
    let masks := map (fun p => if inside p then Registered else Unassigned) (m_nodes m) ++ repeat Unassigned (9 * length (m_nodes m)) in
    let! masks := fold_out mark_boundary (seq 0 (length (m_edges m))) masks in
    let! masks := fold_out mark_corners nodes masks in
    let! masks := fold_out mark_type nodes masks in
    fold_out mark_face nodes masks.
End Mask.

(** *** The table of new nodes *)
Section Store.
  Variable m : mesh.
  Variable f : faces.

  (** The first [k] of the two faces of an edge *)
  Definition first_faces (k : nat) (ef : option nat * option nat) : outcome (list (option nat)) :=
    match k with 0 => Ok [] | 1 => Ok [fst ef] | 2 => Ok [fst ef; snd ef] | _ => UB end.
  (** FindCommonFace, Mesh2D.cpp:2524-2538 *)
  Definition common_face (e1 e2 : nat) : outcome (option nat) :=
    let! k1 := vget (edges_num_faces f) e1 in
    let! k2 := vget (edges_num_faces f) e2 in
    let! p := vget (edges_faces f) e1 in
    let! q := vget (edges_faces f) e2 in
    let! l1 := first_faces k1 p in
    let! l2 := first_faces k2 q in
    Ok (match find (fun x => existsb (eq_idx x) l2) l1 with Some x => x | None => None end).

  (** IsStartOrEnd, Mesh2D.cpp:2468-2482; -1 for the missing value *)
  Definition start_or_end (e n : nat) : outcome Z :=
    let! ed := vget (m_edges m) e in
    Ok (if eq_idx (fst ed) (Some n) then 0%Z else if eq_idx (snd ed) (Some n) then 1%Z else (-1)%Z).

  (** The loop Mesh2D.cpp:2490-2502 *)
  Fixpoint edge_and_next (e : nat) (last : option nat) (j : nat) (es : list nat) (acc : option nat * option nat) : outcome (option nat * option nat) :=
    match es with
    | [] => Ok acc
    | e' :: es =>
        if e' =? e then edge_and_next e last (S j) es (Some j, snd acc)
        else
          let! ed := vget (m_edges m) e' in
          if eq_idx (fst ed) last || eq_idx (snd ed) last then edge_and_next e last (S j) es (fst acc, Some j) else edge_and_next e last (S j) es acc
    end.
  (** IsLeftOrRight, Mesh2D.cpp:2484-2522; -1 for the missing value *)
  Definition left_or_right (i e : nat) : outcome Z :=
    let! ed := vget (m_edges m) e in
    let! es := vget (faces_edges f) i in
    let! x := edge_and_next e (snd ed) 0 es (None, None) in
    match x with
    | (Some j, Some k) =>
        let! count := vget (num_faces_nodes f) i in
        Ok (if (k =? j + 1) || (k + count =? j + 1) then 0%Z else if (j =? k + 1) || (j + count =? k + 1) then 1%Z else (-1)%Z)
    | _ => Ok (-1)%Z
    end.

  Definition put_if_missing (table : list (list (option nat))) (e : nat) (k : Z) (new : nat) : outcome (list (list (option nat))) :=
    let! row := vget table e in
    if (k <? 0)%Z then UB
    else
      let! old := vget row (Z.to_nat k) in
      match old with Some _ => Ok table | None => let! row := vset (Z.to_nat k) (Some new) row in vset e row table end.
  (** StoreNewNode, CR.cpp:700-755.  The callers never pass missing edges.  Unsigned arithmetic with the missing value gives an index out of range, or what
      arithmetic with -1 gives. *)
  Definition store (n e1 e2 new : nat) (table : list (list (option nat))) : outcome (list (list (option nat))) :=
    let! c := common_face e1 e2 in
    match c with
    | None => Throw AlgorithmErr
    | Some i =>
        let! lr1 := left_or_right i e1 in
        let! lr2 := left_or_right i e2 in
        let! se1 := start_or_end e1 n in
        let! se2 := start_or_end e2 n in
        let turn (lr : Z) := if e1 =? e2 then (1 - lr)%Z else lr in
        let! table := put_if_missing table e1 (se1 + 2 * (1 - turn lr1)) new in
        put_if_missing table e2 (se2 + 2 * (1 - turn lr2)) new
    end.
End Store.

(** *** New nodes and edges *)
Section Refine.
  Variable order : list point -> list edge -> nat -> list (option nat) -> list (option nat).
  Variable f : faces.
  Variable centres : list point. (* m_facesCircumcenters *)

  (** Mesh, recorded actions, node mask, new nodes of the edges *)
  Record growing := Growing { g_mesh : mesh; g_acts : list action; g_masks : list mask; g_table : list (list (option nat)) }.

  (** InsertNode, the recording and the mask of the new node *)
  Definition add_node (p : point) (v : mask) (s : growing) : outcome (nat * growing) :=
    let! (n, x, m) := insert_node order (g_mesh s) p in
    let! acts := compound_add (g_acts s) (Some x) in
    let! masks := vset n v (g_masks s) in
    Ok (n, Growing m acts masks (g_table s)).
  Definition keep (n e1 e2 new : nat) (s : growing) : outcome growing :=
    let! table := store (g_mesh s) f n e1 e2 new (g_table s) in Ok (Growing (g_mesh s) (g_acts s) (g_masks s) table).

  (** The loop CR.cpp:586-602 *)
  Fixpoint edges_at (m : mesh) (n : nat) (es : list nat) (first : option nat) : outcome (option nat * option nat) :=
    match es with
    | [] => Ok (first, None)
    | e :: es =>
        let! ed := get_edge m (Some e) in
        if touches ed n then match first with None => edges_at m n es (Some e) | Some _ => Ok (first, Some e) end else edges_at m n es first
    end.
  (** ComputeNewFaceNodes, CR.cpp:577-625: one corner of face [i] *)
  Definition corner_step (i : nat) (s : growing) (n : nat) : outcome growing :=
    let! es := vget (faces_edges f) i in
    let! x := edges_at (g_mesh s) n es None in
    match x with
    | (Some e1, Some e2) =>
        let! v := vget (g_masks s) n in
        let! (new, s) :=
          (if lt_mask Unassigned v then
             let! c := vget centres i in
             let! p := node_at (g_mesh s) (Some n) in
             add_node (middle c p) NewAssigned s
           else Ok (n, s)) in
        keep n e1 e2 new s
    | _ => Ok s
    end.
  (** CR.cpp:573-626 *)
  Definition face_step (s : growing) (i : nat) : outcome growing :=
    let! k := vget (num_faces_nodes f) i in
    let! ns := vget (faces_nodes f) i in
    fold_out (fun s j => let! n := vget ns j in corner_step i s n) (seq 0 k) s.

  (** CR.cpp:655-668, 670-683: one end of a boundary edge *)
  Definition end_step (e : nat) (centre : point) (s : growing) (n : nat) : outcome growing :=
    let! v := vget (g_masks s) n in
    let! (new, s) :=
      (if eq_mask v Unassigned then Ok (n, s)
       else let! p := node_at (g_mesh s) (Some n) in add_node (middle centre p) NewGeneral s) in
    keep n e e new s.
  (** ComputeNewEdgeNodes, CR.cpp:635-684: one edge *)
  Definition edge_step (s : growing) (e : nat) : outcome growing :=
    let! k := vget (edges_num_faces f) e in
    if negb (k =? 1) then Ok s
    else
      let! ed := get_edge (g_mesh s) (Some e) in
      match ed with
      | (None, None) => Ok s
      | (Some a, Some b) =>
          let! p := node_at (g_mesh s) (Some a) in
          let! q := node_at (g_mesh s) (Some b) in
          let! s := end_step e (middle p q) s a in
          end_step e (middle p q) s b
      | _ => Throw ConstraintErr
      end.
  (** ComputeNewNodes, CR.cpp:689-698 *)
  Definition new_nodes (m : mesh) (masks : list mask) : outcome growing :=
    let! s := fold_out face_step (seq 0 (num_faces f)) (Growing m [] masks (repeat [None; None; None; None] (length (m_edges m)))) in
    let acts := g_acts s in
    let! s := fold_out edge_step (seq 0 (length (m_edges m))) (Growing (g_mesh s) [] (g_masks s) (g_table s)) in
    Ok (Growing (g_mesh s) [compound acts; compound (g_acts s)] (g_masks s) (g_table s)).

  (** *** Connecting.  The mask and the table do not change any more. *)
  Variable masks : list mask.
  Variable table : list (list (option nat)).
  (** The actions and the mesh are kept in a [splitting], see [link]. *)
  Definition at_table (e k : nat) : outcome (option nat) := let! row := vget table e in vget row k.
  Definition mask_at (i : option nat) : outcome mask := match i with Some i => vget masks i | None => UB end.

  Definition line (s : splitting) (a b : option nat) : outcome splitting :=
    match a, b with Some x, Some y => if x =? y then Ok s else link order s a b | _, _ => Ok s end.
  (** ConnectNodes, CR.cpp:261-293: one edge *)
  Definition connect_edge (s : splitting) (e : nat) : outcome splitting :=
    let! n1 := at_table e 0 in
    let! n2 := at_table e 1 in
    let! n3 := at_table e 2 in
    let! n4 := at_table e 3 in
    let! s := line s n1 n2 in
    let! s := line s n3 n4 in
    let! s := line s n1 n3 in
    line s n2 n4.
  (** A function that fills its own compound action *)
  Definition collected (go : splitting -> outcome splitting) (s : splitting) : outcome splitting :=
    let! r := go (Splitting (s_mesh s) [] []) in
    let! acts := compound_add (s_acts s) (Some (compound (s_acts r))) in
    Ok (Splitting (s_mesh r) acts []).
  Definition connect_edges (num : nat) : splitting -> outcome splitting := collected (fold_out connect_edge (seq 0 num)).

  (** ConnectFaceNodes, CR.cpp:310-325: old and new node number [j]; only for faces of four nodes *)
  Definition old_and_new (m : mesh) (es : list nat) (k j : nat) : outcome (option nat * option nat) :=
    let! e := vget es j in
    let! e' := vget es (if j =? 0 then k - 1 else j - 1) in
    let! ed := get_edge m (Some e) in
    let! ed' := get_edge m (Some e') in
    let! x := at_table e 2 in
    if negb (eq_idx (fst ed) (fst ed')) && negb (eq_idx (fst ed) (snd ed')) then let! y := at_table e 1 in Ok (snd ed, y) else Ok (fst ed, x).
  Fixpoint olds_and_news (m : mesh) (es : list nat) (k : nat) (js : list nat) : outcome (list (option nat * option nat)) :=
    match js with [] => Ok [] | j :: js => let! x := old_and_new m es k j in let! l := olds_and_news m es k js in Ok (x :: l) end.
  (** CR.cpp:327-374 *)
  Fixpoint diagonals (l : list (option nat * option nat)) (k : nat) (js : list nat) (s : splitting) : outcome splitting :=
    match js with
    | [] => Ok s
    | j :: js =>
        let before := if j =? 0 then k - 1 else j - 1 in
        let after := if j =? k - 1 then 0 else j + 1 in
        let twice := if j =? k - 2 then 0 else if j =? k - 1 then 1 else j + 2 in
        let! x1 := vget l j in
        let! xb := vget l before in
        let! xa := vget l after in
        let! xt := vget l twice in
        let! v1 := mask_at (snd x1) in
        if negb (lt_mask v1 Unassigned) then diagonals l k js s
        else
          let! v2 := mask_at (fst xb) in
          let! v3 := mask_at (fst xa) in
          let! v4 := mask_at (fst xt) in
          if eq_mask v2 Unassigned && eq_mask v3 Unassigned && eq_mask v4 Unassigned then link order s (snd x1) (fst xt)
          else if lt_mask Unassigned v2 && lt_mask Unassigned v3 && eq_mask v4 Unassigned then link order s (snd xb) (snd xa)
          else if eq_mask v2 Unassigned && eq_mask v3 Unassigned && eq_mask v4 Registered then link order s (snd x1) (snd xt)
          else diagonals l k js s
    end.
  Definition connect_face (i k : nat) : splitting -> outcome splitting :=
    collected (fun s =>
      let! es := vget (faces_edges f) i in
      let! l := olds_and_news (s_mesh s) es k (seq 0 k) in
      diagonals l k (seq 0 k) s).
  (** The test CR.cpp:516-525 *)
  Fixpoint active (ns : list nat) : outcome bool :=
    match ns with [] => Ok true | n :: ns => let! v := vget masks n in if eq_mask v Unassigned then Ok false else active ns end.
  (** CR.cpp:508-532: one face *)
  Definition connect_inside (s : splitting) (i : nat) : outcome splitting :=
    let! k := vget (num_faces_nodes f) i in
    if negb (k =? 4) then Ok s
    else
      let! ns := vget (faces_nodes f) i in
      let! b := active ns in
      if b then connect_face i k s else Ok s.

  (** CR.cpp:401-416 and 547-562: node [n] is joined to the new nodes at its end of edge [e] *)
  Definition spokes (n e : nat) (s : splitting) : outcome splitting :=
    let! ed := get_edge (s_mesh s) (Some e) in
    let start := eq_idx (fst ed) (Some n) in
    let! x := at_table e (if start then 0 else 1) in
    let! s := link order s (Some n) x in
    let! y := at_table e (if start then 2 else 3) in
    link order s (Some n) y.
  Definition edge_of_row (m : mesh) (n j : nat) : outcome nat :=
    let! row := vget (m_nodesEdges m) n in
    let! oe := vget row j in
    match oe with Some e => Ok e | None => UB end.
  (** ConnectEdges, CR.cpp:385-418; the boundary edges are the second result *)
  Definition rim_step (n : nat) (acc : splitting * list nat) (j : nat) : outcome (splitting * list nat) :=
    let (s, rim) := acc in
    let! e := edge_of_row (s_mesh s) n j in
    let! k := vget (edges_num_faces f) e in
    if k =? 1 then Ok (s, rim ++ [e]) else let! s := spokes n e s in Ok (s, rim).
  Definition connect_rim (n : nat) (s : splitting) : outcome (splitting * list nat) :=
    let! d := vget (m_nodesNumEdges (s_mesh s)) n in
    let! (r, rim) := fold_out (rim_step n) (seq 0 d) (Splitting (s_mesh s) [] [], []) in
    let! acts := compound_add (s_acts s) (Some (compound (s_acts r))) in
    Ok (Splitting (s_mesh r) acts [], rim).
  (** CR.cpp:447-468: the node to connect of boundary edge [e] of node [n] *)
  Definition if_general (e k : nat) (x : option nat) : outcome (option nat) :=
    let! y := at_table e k in
    let! v := mask_at y in
    Ok (if eq_mask v NewGeneral then y else x).
  Definition to_connect (m : mesh) (n e : nat) : outcome (option nat) :=
    let! ed := get_edge m (Some e) in
    let! x := (if eq_idx (fst ed) (Some n) then let! x := if_general e 0 None in if_general e 2 x else Ok None) in
    if eq_idx (snd ed) (Some n) then let! x := if_general e 1 x in if_general e 3 x else Ok x.
  Fixpoint all_to_connect (m : mesh) (n : nat) (rim : list nat) : outcome (list (option nat)) :=
    match rim with [] => Ok [] | e :: rim => let! x := to_connect m n e in let! l := all_to_connect m n rim in Ok (x :: l) end.
  (** CreateMissingBoundaryEdges, CR.cpp:429-496: one node *)
  Definition connect_boundary (s : splitting) (n : nat) : outcome splitting :=
    let! v := vget masks n in
    if lt_mask v Boundary then Ok s
    else
      let! (s, rim) := connect_rim n s in
      if length rim =? 0 then Ok s
      else
        let! l := all_to_connect (s_mesh s) n rim in
        if negb (eq_mask v Corner) then
          match l with
          | [x; y] => line s x y
          | _ => Throw AlgorithmErr
          end
        else fold_out (fun s x => line s (Some n) x) l s.
  (** CR.cpp:536-564: one node *)
  Definition connect_many (s : splitting) (n : nat) : outcome splitting :=
    let! v := vget masks n in
    let! d := (if eq_mask v Corner then vget (m_nodesNumEdges (s_mesh s)) n else Ok 0) in
    if negb (eq_mask v Corner) || (d <=? 4) then Ok s
    else fold_out (fun s j => let! e := edge_of_row (s_mesh s) n j in spokes n e s) (seq 0 d) s.
  (** ConnectNewNodes, CR.cpp:501-567 *)
  Definition connect_new (nodes edges : nat) (s : splitting) : outcome splitting :=
    let! s := connect_edges edges s in
    let! s := fold_out connect_inside (seq 0 (num_faces f)) s in
    let! s := collected (fold_out connect_boundary (seq 0 nodes)) s in
    fold_out connect_many (seq 0 nodes) s.

  (** Administrate, CR.cpp:206-222, without the administration: old nodes that were replaced are deleted *)
  Definition remove_step (acc : list action * mesh) (n : nat) : outcome (list action * mesh) :=
    let! v := vget masks n in
    if lt_mask Unassigned v && lt_mask v Corner then add_action (fst acc) (delete_node order (snd acc) (Some n)) else Ok acc.
End Refine.

Section Compute.
  Variable order : list point -> list edge -> nat -> list (option nat) -> list (option nat).
  Variable clockwise : projection -> list point -> bool.
  Variable inside : point -> bool.

  (** The mesh with all new nodes and edges, before nodes are deleted; the actions recorded so far and the node mask *)
  Definition grow_casulli (types : list Z) (centres : list point) (f : faces) (m : mesh) : outcome (list action * mesh * list mask) :=
    let! masks := node_mask inside types m f in
    let! s := new_nodes order f centres m masks in
    let! r := connect_new order f (g_masks s) (g_table s) (length (m_nodes m)) (length (m_edges m)) (Splitting (g_mesh s) [] []) in
    Ok ([compound (g_acts s); compound (s_acts r)], s_mesh r, g_masks s).
  (** Compute, CR.cpp:41-55, and Administrate, 206-222 *)
  Definition casulli (types : list Z) (centres : list point) (f : faces) (m : mesh) : outcome (action * mesh * faces) :=
    let! (acts, m1, masks) := grow_casulli types centres f m in
    let! (removed, m2) := fold_out (remove_step order masks) (seq 0 (length (m_nodes m))) ([], m1) in
    let! x := administrate2d_undo order clockwise m2 in
    let '(m3, f3, acts') := x in
    Ok (compound (acts ++ [compound (removed ++ acts')]), m3, f3).
End Compute.

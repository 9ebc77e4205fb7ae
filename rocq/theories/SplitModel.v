(** Splitting a row of cells.  Source: /repo/libs/MeshKernel/src/SplitRowColumnOfMesh.cpp ("SRC.cpp"), Mesh.cpp, Mesh.hpp, Entities.hpp.

    The faces [f] are those of the last search; inserting nodes and edges does not change them.

    Simplifications.  Only the mesh part of the final administration is modelled; the search for faces after it is in FaceModel.  Reserving memory is left
    out.  An index computed by wrapping arithmetic that lies beyond every vector gives UB at once. *)
From Verif Require Import Base FloatModel UndoModel ActionModel MeshModel FaceModel.

Local Notation action := (act mact).

(** Neighbour, Entities.hpp:67-70 *)
Definition across (ef : option nat * option nat) (i : option nat) : option nat := if eq_idx (fst ef) i then snd ef else fst ef.

(** IsQuadrilateral, SRC.cpp:246-249 *)
Definition is_quad (f : faces) (i : option nat) : outcome bool :=
  match i with None => Ok false | Some i => let! k := vget (num_faces_nodes f) i in Ok (k =? 4) end.

Fixpoint position (e : nat) (l : list nat) : option nat :=
  match l with [] => None | x :: t => if x =? e then Some 0 else option_map S (position e t) end.
(** GetEdgeIndex, Mesh.cpp:1042-1070 *)
Definition edge_index (m : mesh) (f : faces) (i e : option nat) : outcome (option nat) :=
  match i, e with
  | Some i, Some e =>
      if num_faces f <=? i then Throw ConstraintErr
      else if length (m_edges m) <=? e then Throw ConstraintErr
      else let! es := vget (faces_edges f) i in Ok (position e es)
  | _, _ => Ok None
  end.
(** OppositeEdgeId, SRC.cpp:114-132 *)
Definition opposite_edge (m : mesh) (f : faces) (i e : option nat) : outcome (option nat) :=
  match i, e with
  | Some i', Some _ =>
      let! k := edge_index m f i e in
      match k with
      | None => Ok None
      | Some k => let! es := vget (faces_edges f) i' in let! o := vget es ((k + 2) mod 4) in Ok (Some o)
      end
  | _, _ => Ok None
  end.
(** GetNextEdge, SRC.cpp:338-363: next element and edge *)
Definition next_edge (m : mesh) (f : faces) (i e : option nat) : outcome (option nat * option nat) :=
  match e with
  | None => Ok (None, None)
  | Some _ =>
      let! q := is_quad f i in
      if negb q then Ok (None, None)
      else
        let! o := opposite_edge m f i e in
        match o with
        | None => Ok (None, None)
        | Some o => let! ef := vget (edges_faces f) o in Ok (across ef i, Some o)
        end
  end.

(** CollectElementsOneSideOfEdge, SRC.cpp:251-292.  [None] for the result: the fuel is used up.
    An element without an edge does not occur. *)
Fixpoint walk (m : mesh) (f : faces) (first : option nat) (fuel : nat) (i e : option nat) (skip : bool) (elements edges : list nat) (loop : bool)
  : outcome (option (list nat * list nat * bool)) :=
  let! q := is_quad f i in
  if q && negb loop then
    match fuel, i with
    | S fuel, Some i' =>
        match e with
        | None => UB
        | Some e' =>
            let edges := if skip then edges else edges ++ [e'] in
            let! (j, o) := next_edge m f i e in
            walk m f first fuel j o false (elements ++ [i']) edges (eq_idx j first)
        end
    | _, _ => Ok None
    end
  else Ok (Some (elements, match e with Some e => edges ++ [e] | None => edges end, loop)).
Definition side (ef : option nat * option nat) (s : bool) : option nat := if s then snd ef else fst ef.
Definition collect_side (m : mesh) (f : faces) (e : nat) (s : bool) : outcome (option (list nat * list nat * bool)) :=
  let! ef := vget (edges_faces f) e in
  let first := match fst ef with Some i => Some i | None => snd ef end in
  walk m f first (S (length (m_edges m))) (side ef s) (Some e) s [] [] false.
(** CollectElementsToSplit, SRC.cpp:294-336 *)
Definition collect (m : mesh) (f : faces) (e : nat) : outcome (option (list nat * list nat)) :=
  let! ef := vget (edges_faces f) e in
  let! r := match fst ef with None => Ok (Some ([], [], false)) | Some _ => collect_side m f e false end in
  match r with
  | None => Ok None
  | Some (elements, edges, loop) =>
      if loop then Ok (Some (elements, edges))
      else
        match snd ef with
        | None => Ok (Some (elements, edges))
        | Some _ =>
            let! r := collect_side m f e true in
            match r with None => Ok None | Some (elements', edges', _) => Ok (Some (rev elements' ++ elements, rev edges' ++ edges)) end
        end
  end.

(** *** Splitting *)
Section Split.
  Variable order : list point -> list edge -> nat -> list (option nat) -> list (option nat).

  (** Mesh, recorded actions, edges to delete *)
  Record splitting := Splitting { s_mesh : mesh; s_acts : list action; s_delete : list nat }.

  Definition node_at (m : mesh) (i : option nat) : outcome point :=
    match i with Some i => match nth_error (m_nodes m) i with Some p => Ok p | None => Throw ConstraintErr end | None => Throw ConstraintErr end.
  Definition get_edge (m : mesh) (e : option nat) : outcome edge :=
    match e with Some e => match nth_error (m_edges m) e with Some ed => Ok ed | None => Throw ConstraintErr end | None => Throw ConstraintErr end.
  Definition middle (p q : point) : point :=
    let half := double_of 1 (-1) in Pt (fmul half (fadd (px p) (px q))) (fmul half (fadd (py p) (py q))).

  (** One ConnectNodes whose action is inserted in the compound *)
  Definition link (s : splitting) (a b : option nat) : outcome splitting :=
    let! r := connect_nodes order (s_mesh s) a b in
    match r with
    | None => Ok s
    | Some (_, x, m) => let! acts := compound_add (s_acts s) (Some x) in Ok (Splitting m acts (s_delete s))
    end.
  (** SplitEdge, SRC.cpp:134-148 *)
  Definition split_edge (s : splitting) (e : option nat) : outcome (nat * splitting) :=
    let! ed := get_edge (s_mesh s) e in
    let! p := node_at (s_mesh s) (fst ed) in
    let! q := node_at (s_mesh s) (snd ed) in
    let! (n, x, m) := insert_node order (s_mesh s) (middle p q) in
    let! acts := compound_add (s_acts s) (Some x) in
    let! s := link (Splitting m acts (s_delete s)) (fst ed) (Some n) in
    let! s := link s (Some n) (snd ed) in
    match e with Some e => Ok (n, Splitting (s_mesh s) (s_acts s) (s_delete s ++ [e])) | None => UB end.

  (** GetNextElement, SRC.cpp:95-112 *)
  Definition next_element (m : mesh) (f : faces) (i : nat) (e : nat) : outcome (option nat) :=
    let! q := is_quad f (Some i) in
    if negb q then Ok None
    else
      let! o := opposite_edge m f (Some i) (Some e) in
      let! ef := vget_idx (edges_faces f) o in
      Ok (across ef (Some i)).
  (** edgeFace[0] + edgeFace[1] - elementId, SRC.cpp:174, in 32-bit arithmetic with the largest number for a missing element *)
  Definition previous_element (ef : option nat * option nat) (i : nat) : outcome (option nat) :=
    match ef with
    | (Some a, Some b) => if i <=? a + b then Ok (Some (a + b - i)) else if i =? a + b + 1 then Ok None else UB
    | (Some a, None) | (None, Some a) => if a =? i then Ok None else if i <? a then Ok (Some (a - i - 1)) else UB
    | (None, None) => UB
    end.

  (** SplitElement, SRC.cpp:165-244.  [n]: the last new node. *)
  Definition split_element (f : faces) (i e : nat) (n : option nat) (s : splitting) : outcome (option nat * splitting) :=
    let! ed := get_edge (s_mesh s) (Some e) in
    let! ef := vget (edges_faces f) e in
    let! prev := previous_element ef i in
    let! next := next_element (s_mesh s) f i e in
    let! next_quad := is_quad f next in
    let open := match next with None => true | Some _ => next_quad end in
    match prev with
    | None =>
        let! o := opposite_edge (s_mesh s) f (Some i) (Some e) in
        if open then
          let! (n1, s) := split_edge s (Some e) in
          let! (n2, s) := split_edge s o in
          let! s := link s (Some n1) (Some n2) in
          Ok (Some n2, s)
        else
          let! eo := get_edge (s_mesh s) o in
          let! (n1, s) := split_edge s (Some e) in
          let! s := link s (fst eo) (Some n1) in
          let! s := link s (Some n1) (snd eo) in
          Ok (None, s)
    | Some _ =>
        let! prev_quad := is_quad f prev in
        if prev_quad then
          let! o := opposite_edge (s_mesh s) f (Some i) (Some e) in
          if open then
            let! (n2, s) := split_edge s o in
            let! s := link s n (Some n2) in
            Ok (Some n2, s)
          else
            let! eo := get_edge (s_mesh s) o in
            let! s := link s (fst eo) n in
            let! s := link s n (snd eo) in
            Ok (None, s)
        else if open then
          let! o := opposite_edge (s_mesh s) f (Some i) (Some e) in
          let! (n2, s) := split_edge s o in
          let! s := link s (fst ed) (Some n2) in
          let! s := link s (Some n2) (snd ed) in
          Ok (Some n2, s)
        else Ok (n, s)
    end.
  (** SplitFirstLoopElement, SRC.cpp:150-163 *)
  Definition split_first (f : faces) (i e : nat) (s : splitting) : outcome (nat * nat * splitting) :=
    let! o := opposite_edge (s_mesh s) f (Some i) (Some e) in
    let! (n1, s) := split_edge s (Some e) in
    let! (n2, s) := split_edge s o in
    let! s := link s (Some n1) (Some n2) in
    Ok (n1, n2, s).

  (** SplitAlongRow, SRC.cpp:66-93 *)
  Definition split_step (f : faces) (loop : bool) (elements edges : list nat) (st : option nat * option nat * splitting) (k : nat)
    : outcome (option nat * option nat * splitting) :=
    let '(n, first, s) := st in
    let! i := vget elements k in
    if loop && (k =? 0) then
      let! e := vget edges k in
      let! (n1, n2, s) := split_first f i e s in
      Ok (Some n2, Some n1, s)
    else if loop && (k =? length elements - 1) then
      let! s := link s n first in
      Ok (n, first, s)
    else
      let! e := vget edges k in
      let! (n, s) := split_element f i e n s in
      Ok (n, first, s).
  Definition split_along (f : faces) (elements edges : list nat) (s : splitting) : outcome splitting :=
    match edges with
    | [] => UB
    | e :: _ =>
        let loop := e =? last edges e in
        let! (_, _, s) := fold_out (split_step f loop elements edges) (seq 0 (length elements)) (None, None, s) in
        Ok s
    end.

  Definition delete_split (acc : list action * mesh) (e : nat) : outcome (list action * mesh) :=
    let! (x, m) := delete_edge order (snd acc) (Some e) in
    let! acts := compound_add (fst acc) (Some x) in
    Ok (acts, m).
  (** Compute, SRC.cpp:7-50.  The second result is the mesh before the administration; [None]: nothing to split. *)
  Definition split_row (m : mesh) (f : faces) (e : option nat) : outcome (option (action * mesh * mesh)) :=
    match e with
    | None => Throw ConstraintErr
    | Some e =>
        if length (m_edges m) <=? e then Throw ConstraintErr
        else
          let! ed := get_edge m (Some e) in
          let! ok := match ed with
                     | (Some a, Some b) => let! p := node_at m (Some a) in if is_valid p then let! q := node_at m (Some b) in Ok (is_valid q) else Ok false
                     | _ => Ok false
                     end in
          if negb ok then Throw ConstraintErr
          else
            let! ef := vget (edges_faces f) e in
            let! q0 := is_quad f (fst ef) in
            let! can := if q0 then Ok true else is_quad f (snd ef) in
            if negb can then Ok None
            else
              let! r := collect m f e in
              match r with
              | None => UB
              | Some (elements, edges) =>
                  let! s := split_along f elements edges (Splitting m [] []) in
                  let! (acts, m1) := fold_out delete_split (s_delete s) (s_acts s, s_mesh s) in
                  let! m2 := administrate order m1 in
                  Ok (Some (compound acts, m1, m2))
              end
    end.
End Split.

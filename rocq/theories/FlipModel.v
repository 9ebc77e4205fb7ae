(** Flipping of edges.  Source: /repo/libs/MeshKernel/src/FlipEdges.cpp ("FE.cpp"), Mesh.cpp, Mesh2D.cpp.

    Simplifications.  The node types, the crossing test of the diagonals (AreSegmentsCrossing) and the value of the functional near land boundaries are arguments.
    Sums of indices do not overflow.  Exceptions and out-of-range accesses have no state. *)
From Verif Require Import Base FloatModel UndoModel ActionModel MeshModel FaceModel FaceUseModel.

Local Notation action := (act mact).

Section Flip.
  Variable order : list point -> list edge -> nat -> list (option nat) -> list (option nat).
  Variable clockwise : projection -> list point -> bool.
  Variable types_of : mesh -> faces -> list nat.                       (* ClassifyNodes *)
  Variable cross : point -> point -> point -> point -> bool.           (* AreSegmentsCrossing, first component *)
  Variable land : mesh -> nat -> nat -> nat -> option Z.               (* edge, left and right node: the functional if land boundaries are used *)

  (** OptimalNumberOfConnectedNodes, FE.cpp:514-527 *)
  Definition optimal (t : nat) : Z := if t =? 3 then 3%Z else if t =? 2 then 4%Z else 6%Z.
  (** FE.cpp:351-354 *)
  Definition excess (types : list nat) (m : mesh) (n : nat) : outcome Z :=
    let! d := vget (m_nodesNumEdges m) n in
    let! t := vget types n in
    Ok (Z.of_nat d - optimal t)%Z.

  (** The node of a triangle that is not [a] or [b], found by adding up the indices, FE.cpp:301-348 *)
  Definition third (ns : list nat) (a b : nat) : outcome (option nat) :=
    let! x := vget ns 0 in
    let! y := vget ns 1 in
    let! z := vget ns 2 in
    let s := (Z.of_nat x + Z.of_nat y + Z.of_nat z - Z.of_nat a - Z.of_nat b)%Z in
    Ok (if existsb (fun n => (Z.of_nat n =? s)%Z) [x; y; z] then Some (Z.to_nat s) else None).

  (** ComputeTopologyFunctional between two triangles, FE.cpp:277-400.  [None]: the large value. *)
  Definition functional (types : list nat) (m : mesh) (f : faces) (e a b lf rf : nat) : outcome (option (nat * nat * Z)) :=
    let! nl := vget (faces_nodes f) lf in
    let! nr := vget (faces_nodes f) rf in
    let! l := third nl a b in
    let! r := third nr a b in
    match l, r with
    | Some l, Some r =>
        let! n1 := excess types m a in
        let! n2 := excess types m b in
        let! nL := excess types m l in
        let! nR := excess types m r in
        let own := ((n1 - 1) * (n1 - 1) + (n2 - 1) * (n2 - 1) + (nL + 1) * (nL + 1) + (nR + 1) * (nR + 1) - (n1 * n1 + n2 * n2 + nL * nL + nR * nR))%Z in
        Ok (Some (l, r, match land m e l r with Some v => v | None => own end))
    | _, _ => Ok None
    end.

  Inductive verdict := Skip | Stop | Flip (a b l r lf rf : nat).

  (** FE.cpp:81-132 *)
  Definition examine (types : list nat) (m : mesh) (f : faces) (e : nat) : outcome verdict :=
    let! k := vget (edges_num_faces f) e in
    if k =? 1 then Ok Skip
    else
      let! p := vget (edges_faces f) e in
      match p with
      | (Some lf, Some rf) =>
          let! kl := vget (num_faces_nodes f) lf in
          let! kr := vget (num_faces_nodes f) rf in
          if negb ((kl =? 3) && (kr =? 3)) then Ok Stop
          else
            let! ed := vget (m_edges m) e in
            match ed with
            | (Some a, Some b) =>
                let! t := functional types m f e a b lf rf in
                match t with
                | None => Ok Skip
                | Some (l, r, v) =>
                    if (0 <=? v)%Z then Ok Skip
                    else
                      let! pa := vget (m_nodes m) a in
                      let! pb := vget (m_nodes m) b in
                      let! pl := vget (m_nodes m) l in
                      let! pr := vget (m_nodes m) r in
                      Ok (if cross pa pb pl pr then Flip a b l r lf rf else Skip)
                end
            | _ => UB
            end
      | _ => Ok Skip
      end.

  Definition touches (ed : edge) (n : nat) : bool := eq_idx (fst ed) (Some n) || eq_idx (snd ed) (Some n).

  (** The other edges of a triangle, at [a] and at [b], FE.cpp:138-181 *)
  Definition other_edges (m : mesh) (f : faces) (e face a b : nat) : outcome (option nat * option nat) :=
    let! es := vget (faces_edges f) face in
    fold_out (fun acc i =>
      let! x := vget es i in
      if x =? e then Ok acc
      else
        let! ed := vget (m_edges m) x in
        Ok (if touches ed a then Some x else fst acc, if touches ed b then Some x else snd acc)) (seq 0 3) (None, None).

  (** Writing the first three entries of a row *)
  Definition set_three {A} (x y z : A) (row : list A) : outcome (list A) :=
    match row with _ :: _ :: _ :: t => Ok (x :: y :: z :: t) | _ => UB end.

  (** FE.cpp:183-198: the nodes and edges of one of the two triangles; an edge that was not found is 2^32-1, which is used as an index next *)
  Definition set_face (f : faces) (face : nat) (ns : nat * nat * nat) (es : nat * nat * nat) : outcome faces :=
    let! rn := vget (faces_nodes f) face in
    let! rn := (let '(x, y, z) := ns in set_three x y z rn) in
    let! fn := vset face rn (faces_nodes f) in
    let! re := vget (faces_edges f) face in
    let! re := (let '(x, y, z) := es in set_three x y z re) in
    let! fe := vset face re (faces_edges f) in
    Ok (Faces (edges_num_faces f) (edges_faces f) fn fe (num_faces_nodes f)).

  (** FE.cpp:200-216: edge [e] gets the face [new] instead of [old] *)
  Definition move_edge (f : faces) (e old new : nat) : outcome faces :=
    let! p := vget (edges_faces f) e in
    let q := if eq_idx (fst p) (Some old) then (Some new, snd p) else (fst p, Some new) in
    let! ef := vset e q (edges_faces f) in
    Ok (Faces (edges_num_faces f) ef (faces_nodes f) (faces_edges f) (num_faces_nodes f)).

  (** FE.cpp:218-221; a count below zero would wrap around *)
  Definition lower (m : mesh) (n : nat) : outcome mesh :=
    let! d := vget (m_nodesNumEdges m) n in
    match d with
    | 0 => UB
    | S d => let! nn := vset n d (m_nodesNumEdges m) in Ok (set_tables m nn (m_nodesEdges m))
    end.
  Definition raise (m : mesh) (n : nat) : outcome mesh :=
    let! d := vget (m_nodesNumEdges m) n in
    let! nn := vset n (S d) (m_nodesNumEdges m) in
    Ok (set_tables m nn (m_nodesEdges m)).

  (** DeleteEdgeFromNode, FE.cpp:251-275: the search, and the copying without that entry *)
  Fixpoint seek (e : nat) (row : list (option nat)) (d : nat) : outcome nat :=
    match row with
    | [] => UB
    | x :: t => if eq_idx x (Some e) then Ok 0 else match d with 0 => Ok 0 | S d => let! k := seek e t d in Ok (S k) end
    end.
  Definition unlist (e n : nat) (m : mesh) : outcome mesh :=
    let! d := vget (m_nodesNumEdges m) n in
    let! row := vget (m_nodesEdges m) n in
    let! k := seek e row d in
    let! x := vget row k in
    if negb (eq_idx x (Some e)) then Throw StdErr
    else if length row <? S d then UB
    else
      let! ne := vset n (firstn k row ++ skipn (S k) (firstn (S d) row)) (m_nodesEdges m) in
      Ok (set_tables m (m_nodesNumEdges m) ne).

  (** SortEdgesInCounterClockWiseOrder for one node, Mesh.cpp:782-857: the angles are kept in an array of 16 *)
  Definition sort_node (n : nat) (m : mesh) : outcome mesh :=
    let! p := vget (m_nodes m) n in
    if is_valid p then
      let! d := vget (m_nodesNumEdges m) n in
      let! row := vget (m_nodesEdges m) n in
      if max_edges_per_node <? d then UB
      else
        let! _ := sort_reads (m_nodes m) (m_edges m) row in
        let! ne := vset n (order (m_nodes m) (m_edges m) n row) (m_nodesEdges m) in
        Ok (set_tables m (m_nodesNumEdges m) ne)
    else Ok m.
  (** FE.cpp:229-237 *)
  Definition enlist (e n : nat) (m : mesh) : outcome mesh :=
    let! d := vget (m_nodesNumEdges m) n in
    let! row := vget (m_nodesEdges m) n in
    let! row := vset (d - 1) (Some e) (vresize d (Some 0) row) in
    let! ne := vset n row (m_nodesEdges m) in
    sort_node n (set_tables m (m_nodesNumEdges m) ne).

  (** FE.cpp:134-237 *)
  Definition flip (m : mesh) (f : faces) (e a b l r lf rf : nat) : outcome (action * mesh * faces) :=
    let! (act, m) := reset_edge order m (Some e) (Some l, Some r) in
    let! (al, bl) := other_edges m f e lf a b in
    let! (ar, br) := other_edges m f e rf a b in
    match al, bl, ar, br with
    | Some al, Some bl, Some ar, Some br =>
        let! f := set_face f lf (l, r, a) (e, ar, al) in
        let! f := set_face f rf (l, r, b) (e, br, bl) in
        let! f := move_edge f ar rf lf in
        let! f := move_edge f bl lf rf in
        let! m := lower m a in
        let! m := lower m b in
        let! m := raise m l in
        let! m := raise m r in
        let! m := unlist e a m in
        let! m := unlist e b m in
        let! m := enlist e l m in
        let! m := enlist e r m in
        Ok (act, m, f)
    | _, _, _, _ => UB
    end.

  Record flipping := Flipping { s_acts : list action; s_mesh : mesh; s_faces : faces; s_count : nat }.

  (** One pass over the edges, FE.cpp:78-238; [true]: ended beside a face that is no triangle *)
  Fixpoint sweep (types : list nat) (es : list nat) (s : flipping) : outcome (bool * flipping) :=
    match es with
    | [] => Ok (false, s)
    | e :: es =>
        let! v := examine types (s_mesh s) (s_faces s) e in
        match v with
        | Skip => sweep types es s
        | Stop => Ok (true, s)
        | Flip a b l r lf rf =>
            let! x := flip (s_mesh s) (s_faces s) e a b l r lf rf in
            let '(act, m, f) := x in
            let! acts := compound_add (s_acts s) (Some act) in
            sweep types es (Flipping acts m f (S (s_count s)))
        end
    end.
  (** FE.cpp:66-77, 241: at most [k] passes, until one flips nothing *)
  Fixpoint rounds (k : nat) (types : list nat) (num : nat) (s : flipping) : outcome (bool * flipping) :=
    match k with
    | 0 => Ok (false, s)
    | S k =>
        let! (stop, s) := sweep types (seq 0 num) (Flipping (s_acts s) (s_mesh s) (s_faces s) 0) in
        if stop then Ok (true, s) else if s_count s =? 0 then Ok (false, s) else rounds k types num s
    end.

  (** Administrate with recording, Mesh2D.cpp:153-168, without circumcentres and node types *)
  Definition administrate2d_undo (m : mesh) : outcome (mesh * faces * list action) :=
    let! (m', acts) := administrate_undo order m in
    let! f := find_faces clockwise m' (no_faces m') in
    Ok (m', f, map leaf acts).

  Definition max_rounds : nat := 10.

  (** Compute, FE.cpp:54-249 *)
  Definition flip_edges (triangulate : bool) (m : mesh) : outcome (action * mesh * faces) :=
    let! x := administrate2d_undo m in
    let '(m, f, acts) := x in
    let! x :=
      (if triangulate then
         let! (a, m) := triangulate_faces order f m in
         let! x := administrate2d_undo m in
         let '(m, f, acts') := x in
         Ok (m, f, acts ++ [a] ++ acts')
       else Ok (m, f, acts)) in
    let '(m, f, acts) := x in
    let! (stop, s) := rounds max_rounds (types_of m f) (length (m_edges m)) (Flipping acts m f 0) in
    if stop then Ok (compound (s_acts s), s_mesh s, s_faces s)
    else if negb (s_count s =? 0) then Throw AlgorithmErr
    else
      let! x := administrate2d_undo (s_mesh s) in
      let '(m, f, acts') := x in
      Ok (compound (s_acts s ++ acts'), m, f).
End Flip.

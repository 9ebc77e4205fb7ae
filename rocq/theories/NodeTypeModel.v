(** Node types.  Source: /repo/libs/MeshKernel/src/Mesh2D.cpp.

    Simplification.  The comparison of the cosine of two segments with the threshold is an argument.  Counts are unbounded integers. *)
From Verif Require Import Base FloatModel MeshModel FaceModel.

Section Types.
  Variable sharp : projection -> point -> point -> point -> bool. (* NormalizedInnerProductTwoSegments > -0.25 *)

  (** Mesh2D.cpp:663-690: one edge *)
  Definition count_edge (m : mesh) (f : faces) (types : list Z) (e : nat) : outcome (list Z) :=
    let! ed := vget (m_edges m) e in
    match ed with
    | (Some a, Some b) =>
        let! ta := vget types a in
        let! tb := vget types b in
        if ((ta =? -1) || (tb =? -1))%Z then Ok types
        else
          let! k := vget (edges_num_faces f) e in
          let! types := (if k =? 0 then let! types := vset a (-1)%Z types in vset b (-1)%Z types else Ok types) in
          if k =? 1 then
            let! t := vget types a in
            let! types := vset a (t + 1)%Z types in
            let! t := vget types b in
            vset b (t + 1)%Z types
          else Ok types
    | _ => Ok types
    end.

  (** Mesh2D.cpp:703-721: the other ends of the boundary edges of a node.  [first] starts as missing and is compared with 0. *)
  Fixpoint boundary_ends (m : mesh) (f : faces) (n : nat) (row : list nat) (first : option nat) : outcome (option nat * option nat) :=
    match row with
    | [] => Ok (first, None)
    | i :: row =>
        let! r := vget (m_nodesEdges m) n in
        let! oe := vget r i in
        let! e := (match oe with Some e => Ok e | None => UB end) in
        let! k := vget (edges_num_faces f) e in
        if negb (k =? 1) then boundary_ends m f n row first
        else
          let! ed := vget (m_edges m) e in
          if eq_idx first (Some 0) then boundary_ends m f n row (other_node ed n)
          else Ok (first, other_node ed n)
    end.

  (** Mesh2D.cpp:692-752: one node *)
  Definition node_type (m : mesh) (f : faces) (n : nat) (t : Z) : outcome Z :=
    let! d := vget (m_nodesNumEdges m) n in
    let! t :=
      (if ((t =? 1) || (t =? 2))%Z then
         if d =? 2 then Ok 3%Z
         else
           let! ends := boundary_ends m f n (seq 0 d) None in
           match ends with
           | (Some x, Some y) =>
               let! pn := vget (m_nodes m) n in
               let! px := vget (m_nodes m) x in
               let! py := vget (m_nodes m) y in
               Ok (if sharp (m_projection m) pn px py then 3%Z else 2%Z)
           | _ => Ok 2%Z
           end
       else Ok (if (2 <? t)%Z then 3%Z else if negb (t =? -1)%Z then 1%Z else t)) in
    Ok (if d <? 2 then (-1)%Z else t).

  (** ClassifyNodes, Mesh2D.cpp:658-753 *)
  Definition classify (m : mesh) (f : faces) : outcome (list Z) :=
    let! types := fold_out (count_edge m f) (seq 0 (length (m_edges m))) (repeat 0%Z (length (m_nodes m))) in
    fold_out (fun types n => let! t := vget types n in let! t := node_type m f n t in vset n t types) (seq 0 (length (m_nodes m))) types.
End Types.

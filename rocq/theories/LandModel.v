(** Land boundaries: which nodes of a mesh belong to which piece of a land boundary, and moving them there.
    Source: /repo/libs/MeshKernel/src/LandBoundaries.cpp ("LB.cpp"), LandBoundary.cpp, Mesh2D.cpp.

    Simplifications.  Distances between points, the distance from a segment (DistanceFromLine), tests for points in polygons, the faces of the points of the land
    boundary (PointFaceIndices) and the boundary edge a segment crosses (IsSegmentCrossingABoundaryEdge) are arguments, as are the node types.  m_landMask and
    m_addLandboundaries are true, as always.  The boundary polygon computed in Administrate is not used and left out.  The object is a new one: its vectors are
    empty before.  Loops have fuel; using it up counts as UB. *)
From Verif Require Import Base FloatModel UndoModel ActionModel MeshModel FaceModel SplitModel PolyModel.

Local Notation action := (act mact).

Definition zero : double := double_of 0 0.

(** m_edgesNumFaces == 1, Mesh.hpp:184 *)
Definition at_boundary (f : faces) (e : nat) : outcome bool := let! k := vget (edges_num_faces f) e in Ok (k =? 1).
Definition row_index (i : option nat) : outcome nat := match i with Some i => Ok i | None => UB end.

Section Land.
  Variable dist dist2 : point -> point -> double.                       (* ComputeDistance, ComputeSquaredDistance *)
  Variable line : point -> point -> point -> double * point * double.   (* DistanceFromLine: distance, nearest point, ratio *)
  Variable inside : point -> bool.                                      (* IsPointInPolygon(_, 0) *)

  (** *** NearestLandBoundarySegment, LB.cpp:940-974.  [range]: the piece, all of the land boundary if missing. *)
  Definition nearest_step (land : list point) (p : point) (best : double * point * option nat * double) (n : nat)
    : outcome (double * point * option nat * double) :=
    let! a := vget land n in
    let! b := vget land (S n) in
    if negb (is_valid a) || negb (is_valid b) then Ok best
    else
      let '(d, q, r) := line p a b in
      let '(least, _, _, _) := best in
      Ok (if SFltb zero d && SFltb d least then (d, q, Some n, r) else best).
  Definition nearest (land : list point) (range : option (nat * nat)) (p : point) : outcome (double * point * option nat * double) :=
    let '(a, b) := match range with None => (0, length land - 1) | Some r => r end in
    fold_out (nearest_step land p) (seq a (b - a)) (dbl_max, p, None, double_of (-1) 0).

  (** *** IsMeshEdgeCloseToLandBoundaries, LB.cpp:643-731: the search goes one back, two forth, three back and so on.  Below zero the index would wrap around,
      which is out of the range as well. *)
  Definition within (r : double) : bool := SFleb zero r && SFleb r (double_of 1 0).
  (** One piece, LB.cpp:675-712; [true]: the search ends *)
  Definition probe (land : list point) (p q : point) (close : double) (best : option nat) (n : nat) : outcome (bool * option nat) :=
    let! a := vget land n in
    let! b := vget land (S n) in
    if SFltb zero (dist2 a b) then
      let '(d, _, r) := line p a b in
      if SFltb d close then Ok (within r, Some n)
      else
        let '(d, _, r) := line q a b in
        if SFltb d close then Ok (within r, Some n) else Ok (false, best)
    else Ok (false, best).
  (** LB.cpp:715-727 *)
  Fixpoint hop (more : nat) (lo hi c step : Z) (done : nat) : Z * Z * nat :=
    match more with
    | 0 => (c, step, done)
    | S more =>
        let step := (if step <? 0 then - step + 1 else - step - 1)%Z in
        let c := (c + step)%Z in
        if ((c <? lo) || (hi <? c))%Z then hop more lo hi c step (S done) else (c, step, S done)
    end.
  Fixpoint search (land : list point) (p q : point) (close : double) (lo hi : Z) (fuel : nat) (c step : Z) (best : option nat) : outcome (option nat) :=
    match fuel with
    | 0 => UB
    | S fuel =>
        if (c <? 0)%Z then UB
        else
          let! (stop, best) := probe land p q close best (Z.to_nat c) in
          if stop : bool then Ok best
          else let '(c, step, done) := hop 3 lo hi c step 0 in if done <? 3 then search land p q close lo hi fuel c step best else Ok best
    end.
  (** [factor]: 5 for the outer boundary only, 1 for the whole mesh, LB.cpp:200-201 of the header *)
  Definition close_piece (land : list point) (range : nat * nat) (factor : double) (m : mesh) (e : nat) : outcome (option nat) :=
    let! ed := get_edge m (Some e) in
    match ed with
    | (Some a, Some b) =>
        let! p := node_at m (Some a) in
        let! q := node_at m (Some b) in
        let lo := Z.of_nat (fst range) in
        search land p q (fmul (dist p q) factor) lo (Z.of_nat (snd range) - 1) (S (snd range - fst range)) lo 0 None
    | _ => Ok None
    end.

  (** *** MaskMeshFaceMask, LB.cpp:537-641.  [close]: whether an edge is close to the piece *)
  Section Faces.
    Variable f : faces.
    Variable close : nat -> outcome bool.
    Fixpoint any_close (es : list nat) : outcome bool :=
      match es with [] => Ok false | e :: es => let! c := close e in if c : bool then Ok true else any_close es end.
    (** No face is crossed: the faces at the boundary, LB.cpp:549-577 *)
    Definition mask_boundary (fm : list bool) (e : nat) : outcome (list bool) :=
      let! b := at_boundary f e in
      if negb b then Ok fm
      else
        let! ef := vget (edges_faces f) e in
        let! i := row_index (fst ef) in
        let! v := vget fm i in
        if v : bool then Ok fm
        else
          let! es := vget (faces_edges f) i in
          let! c := any_close es in
          if c : bool then vset i true fm else Ok fm.
    (** The edges of one face, with the mask of edges already looked at, LB.cpp:603-627 *)
    Definition look (st : list (option nat) * bool) (e : nat) : outcome (list (option nat) * bool) :=
      let! v := vget (fst st) e in
      if eq_idx v (Some 1) then Ok (fst st, true)
      else if eq_idx v (Some 0) then Ok st
      else
        let! em := vset e (Some 0) (fst st) in
        let! c := close e in
        if c : bool then let! em := vset e (Some 1) em in Ok (em, true) else Ok (em, snd st).
    (** The face across an edge, LB.cpp:586-634 *)
    Definition mask_across (i : nat) (st : list bool * list (option nat) * list (option nat)) (e : nat) : outcome (list bool * list (option nat) * list (option nat)) :=
      let '(fm, em, next) := st in
      let! b := at_boundary f e in
      if b : bool then Ok st
      else
        let! ef := vget (edges_faces f) e in
        let! j := row_index (if eq_idx (Some i) (fst ef) then snd ef else fst ef) in
        let! v := vget fm j in
        if v : bool then Ok st
        else
          let! es := vget (faces_edges f) j in
          let! (em, found) := fold_out look es (em, false) in
          let! fm := vset j found fm in
          Ok (fm, em, if found : bool then next ++ [Some j] else next).
    Definition mask_from (st : list bool * list (option nat) * list (option nat)) (i : option nat) : outcome (list bool * list (option nat) * list (option nat)) :=
      match i with
      | None =>
          let '(fm, em, next) := st in
          let! fm := fold_out mask_boundary (seq 0 (length (edges_num_faces f))) fm in
          Ok (fm, em, next)
      | Some i =>
          if num_faces f <? 3 then Ok st
          else let! es := vget (faces_edges f) i in fold_out (mask_across i) es st
      end.
    Fixpoint mask_faces (fuel : nat) (from : list (option nat)) (fm : list bool) (em : list (option nat)) : outcome (list bool * list (option nat)) :=
      match fuel with
      | 0 => UB
      | S fuel =>
          let! x := fold_out mask_from from (fm, em, []) in
          let '(fm, em, next) := x in
          match next with [] => Ok (fm, em) | _ => mask_faces fuel next fm em end
      end.
  End Faces.

  (** *** ComputeMeshNodeMask, LB.cpp:461-535 *)
  Variable face_of : list (option nat).                                 (* m_nodeFaceIndices *)
  Variable crossed : point -> point -> option nat.                      (* IsSegmentCrossingABoundaryEdge, the face *)
  Fixpoint crossed_face (land : list point) (ns : list nat) : outcome (option nat) :=
    match ns with
    | [] => Ok None
    | n :: ns =>
        let! i := vget face_of n in
        match i with
        | Some _ => Ok i
        | None =>
            let! a := vget land n in
            let! b := vget land (S n) in
            match crossed a b with Some i => Ok (Some i) | None => crossed_face land ns end
        end
    end.
  Definition mark_nodes (f : faces) (k : nat) (fm : list bool) (mask : list (option nat)) (i : nat) : outcome (list (option nat)) :=
    let! v := vget fm i in
    if v : bool then
      let! num := vget (num_faces_nodes f) i in
      let! ns := vget (faces_nodes f) i in
      fold_out (fun mask j => let! n := vget ns j in vset n (Some k) mask) (seq 0 num) mask
    else Ok mask.
  Definition node_mask (land : list point) (range : nat * nat) (factor : double) (k : nat) (m : mesh) (f : faces) : outcome (list (option nat)) :=
    let! i := crossed_face land (seq (fst range) (snd range - fst range)) in
    let fm := repeat false (num_faces f) in
    let! fm := (match i with Some i => vset i true fm | None => Ok fm end) in
    let! (fm, _) := mask_faces f (fun e => let! c := close_piece land range factor m e in Ok (match c with Some _ => true | None => false end))
                               (S (num_faces f)) [i] fm (repeat None (length (m_edges m))) in
    let! mask := fold_out (mark_nodes f k fm) (seq 0 (num_faces f)) (repeat None (length (m_nodes m))) in
    fold_out (fun mask n =>
      let! v := vget mask n in
      match v with
      | None => Ok mask
      | Some _ => let! p := node_at m (Some n) in if inside p then Ok mask else vset n None mask
      end) (seq 0 (length (m_nodes m))) mask.

  (** *** FindStartEndMeshNodesDijkstraAlgorithm, LB.cpp:733-801 *)
  Definition nearer (m : mesh) (p : point) (best : double * option nat) (e a b : nat) : outcome (double * option nat) :=
    let! pa := node_at m (Some a) in
    let! pb := node_at m (Some b) in
    let '(d, _, _) := line p pa pb in
    Ok (if SFltb d (fst best) then (d, Some e) else best).
  Definition closest_edges (m : mesh) (mask : list (option nat)) (first last : point) : outcome ((double * option nat) * (double * option nat)) :=
    fold_out (fun (best : (double * option nat) * (double * option nat)) e =>
      let! ed := get_edge m (Some e) in
      match ed with
      | (Some a, Some b) =>
          let! va := vget mask a in
          match va with
          | None => Ok best
          | Some _ =>
              let! vb := vget mask b in
              match vb with
              | None => Ok best
              | Some _ => let! x := nearer m first (fst best) e a b in let! y := nearer m last (snd best) e a b in Ok (x, y)
              end
          end
      | _ => Ok best
      end) (seq 0 (length (m_edges m))) ((dbl_max, None), (dbl_max, None)).
  (** FindStartEndMeshNodesFromEdges, LB.cpp:803-820 *)
  Definition nearer_end (m : mesh) (e : nat) (p : point) : outcome (option nat) :=
    let! ed := get_edge m (Some e) in
    let! a := node_at m (fst ed) in
    let! b := node_at m (snd ed) in
    Ok (if SFleb (dist2 a p) (dist2 b p) then fst ed else snd ed).
  Definition start_end (land : list point) (range : nat * nat) (m : mesh) (mask : list (option nat)) : outcome (option nat * option nat) :=
    let! first := vget land (snd range) in
    let! last := vget land (fst range) in
    let! (x, y) := closest_edges m mask first last in
    match snd x, snd y with
    | Some e, Some e' => let! a := nearer_end m e first in let! b := nearer_end m e' last in Ok (a, b)
    | _, _ => Throw StdErr
    end.

  (** *** ShortestPath, LB.cpp:822-938 *)
  (** LB.cpp:866-900.  For a neighbour without nearest piece the loop would go up to 2^32-1. *)
  Definition weight (land : list point) (range : nat * nat) (outer : bool) (f : faces) (p : point) (dp : double) (ip : nat) (e : nat) (q : point) : outcome double :=
    let! x := nearest land (Some range) q in
    let '(dq, _, iq, _) := x in
    let! iq := row_index iq in
    let lo := S (Nat.min ip iq) in
    let! w := fold_out (fun w n => let! c := vget land n in let '(d, _, _) := line c p q in Ok (if SFltb w d then d else w)) (seq lo (Nat.max ip iq - lo)) (fmax dp dq) in
    let! w := (if outer then let! b := at_boundary f e in Ok (if b then w else fmul (double_of 1000000 0) w) else Ok w) in
    Ok (fmul (dist p q) w).
  Record paths := Paths { q_edges : list (option nat); q_dist : list double; q_seen : list bool }.
  Definition relax (m : mesh) (weigh : nat -> point -> outcome double) (n : nat) (s : paths) (oe : option nat) : outcome paths :=
    let! ed := get_edge m oe in
    let! e := row_index oe in
    match ed with
    | (Some _, Some _) =>
        let! o := row_index (other_node ed n) in
        let! v := vget (q_seen s) o in
        if v : bool then Ok s
        else
          let! q := node_at m (Some o) in
          let! w := weigh e q in
          let! d := vget (q_dist s) n in
          let! old := vget (q_dist s) o in
          let d := fadd d w in
          if SFltb d old then
            let! ds := vset o d (q_dist s) in
            let! es := vset o (Some e) (q_edges s) in
            Ok (Paths es ds (q_seen s))
          else Ok s
    | _ => Ok s
    end.
  (** The nearest node not yet visited, 0 if there is none, LB.cpp:914-925 *)
  Definition pick (mask : list (option nat)) (k : nat) (s : paths) (num : nat) : outcome (nat * double) :=
    fold_out (fun (best : nat * double) n =>
      let! v := vget mask n in
      let! seen := vget (q_seen s) n in
      let! d := vget (q_dist s) n in
      Ok (if eq_idx v (Some k) && negb seen && SFltb d (snd best) then (n, d) else best)) (seq 0 num) (0, dbl_max).
  (** [weigh n p d i e q]: from node [n] at [p], at distance [d] of piece [i] *)
  Fixpoint dijkstra (land : list point) (range : nat * nat) (outer : bool) (k : nat) (m : mesh) (f : faces) (mask : list (option nat)) (fuel n : nat) (s : paths) : outcome paths :=
    match fuel with
    | 0 => UB
    | S fuel =>
        let! seen := vset n true (q_seen s) in
        let! p := node_at m (Some n) in
        let! x := nearest land (Some range) p in
        let '(d, _, i, _) := x in
        match i with
        | None => Throw AlgorithmErr
        | Some i =>
            let! row := vget (m_nodesEdges m) n in
            let! s := fold_out (relax m (weight land range outer f p d i) n) row (Paths (q_edges s) (q_dist s) seen) in
            let! best := pick mask k s (length (m_nodes m)) in
            let n := fst best in
            if length (m_nodes m) <=? n then Ok s
            else
              let! d := vget (q_dist s) n in
              let! v := vget (q_seen s) n in
              if is_equal d dbl_max || v then Ok s else dijkstra land range outer k m f mask fuel n s
        end
    end.
  Definition shortest_path (land : list point) (range : nat * nat) (outer : bool) (k : nat) (m : mesh) (f : faces) (mask : list (option nat)) (start : nat) : outcome paths :=
    let num := length (m_nodes m) in
    let! ds := vset start zero (repeat dbl_max num) in
    dijkstra land range outer k m f mask (S num) start (Paths (repeat None num) ds (repeat false num)).

  (** *** MakePath, LB.cpp:332-459 *)
  Record state := State { n_land : list point; n_pieces : list (nat * nat); n_piece : list (option nat); n_least : list double; n_mask : list (option nat) }.
  Definition factor_of (outer : bool) : double := if outer then double_of 5 0 else double_of 1 0.
  (** Whether the node joins the path, LB.cpp:366-411 *)
  Definition joins_path (types : list Z) (outer : bool) (range : nat * nat) (m : mesh) (s : state) (n : nat) : outcome (bool * state) :=
    let! v := vget (n_piece s) n in
    let! p := node_at m (Some n) in
    match v with
    | Some old =>
        let! r := vget (n_pieces s) old in
        let! x := nearest (n_land s) (Some r) p in
        let! y := nearest (n_land s) (Some range) p in
        let! least := vget (n_least s) n in
        let d := fst (fst (fst y)) in
        Ok (SFleb d (fst (fst (fst x))) && SFltb d (fmul (double_of 2 0) least), s)
    | None =>
        let! least := vget (n_least s) n in
        let! least := (if is_equal least missing_double then let! x := nearest (n_land s) None p in Ok (fst (fst (fst x))) else Ok least) in
        let! ls := vset n least (n_least s) in
        let! y := nearest (n_land s) (Some range) p in
        let! ok := (if SFltb (fst (fst (fst y))) (fmul (double_of 2 0) least) then
                      if outer then let! t := vget types n in Ok ((t =? 2) || (t =? 3))%Z else Ok true
                    else Ok false) in
        Ok (ok, State (n_land s) (n_pieces s) (n_piece s) ls (n_mask s))
    end.
  (** [last]: the node that joined last and what it had before; [run]: how many joined since the last that did not *)
  Record walk := Walk { w_last : option nat; w_old : option nat; w_run : nat; w_in : nat; w_out : nat }.
  Definition set_piece (n : nat) (v : option nat) (s : state) : outcome state :=
    let! l := vset n v (n_piece s) in Ok (State (n_land s) (n_pieces s) l (n_least s) (n_mask s)).
  Fixpoint follow (types : list Z) (outer : bool) (k : nat) (range : nat * nat) (m : mesh) (edges : list (option nat)) (start : nat) (fuel n : nat) (w : walk) (s : state)
    : outcome (walk * state) :=
    match fuel with
    | 0 => UB
    | S fuel =>
        let! (ok, s) := joins_path types outer range m s n in
        let! x :=
          (if ok : bool then
             let! old := vget (n_piece s) n in
             let! s := set_piece n (Some k) s in
             Ok (Walk (Some n) old (S (w_run w)) (S (w_in w)) (w_out w), s)
           else
             let! s := (match w_old w with Some _ => if w_run w =? 1 then let! l := row_index (w_last w) in set_piece l (w_old w) s else Ok s | None => Ok s end) in
             Ok (Walk (w_last w) (w_old w) 0 (w_in w) (S (w_out w)), s)) in
        let '(w, s) := x in
        if n =? start then Ok (w, s)
        else
          let! oe := vget edges n in
          match oe with
          | None => Ok (w, s)
          | Some e =>
              if length (m_edges m) <=? e then Ok (w, s)
              else
                let! ed := get_edge m (Some e) in
                match other_node ed n with
                | None => Ok (w, s)
                | Some o => if length (m_nodes m) <=? o then Ok (w, s) else follow types outer k range m edges start fuel o w s
                end
          end
    end.
  Definition make_path (types : list Z) (m : mesh) (f : faces) (outer : bool) (k : nat) (s : state) : outcome (nat * nat * state) :=
    let! range := vget (n_pieces s) k in
    if (length (n_land s) <=? fst range) || (snd range <=? fst range) then Throw StdErr
    else
      let! mask := node_mask (n_land s) range (factor_of outer) k m f in
      let s := State (n_land s) (n_pieces s) (n_piece s) (n_least s) mask in
      let! x := start_end (n_land s) range m mask in
      match x with
      | (Some a, Some b) =>
          if a =? b then Throw AlgorithmErr
          else
            let! q := shortest_path (n_land s) range outer k m f mask a in
            let! old := vget (n_piece s) b in
            let! (w, s) := follow types outer k range m (q_edges q) a (S (length (m_nodes m))) b (Walk None old 0 0 0) s in
            let! s := (if w_run w =? 1 then let! l := row_index (w_last w) in set_piece l (w_old w) s else Ok s) in
            Ok (w_in w, w_out w, s)
      | _ => Throw AlgorithmErr
      end.

  (** *** AssignLandBoundaryPolylineToMeshNodes, LB.cpp:151-288 *)
  (** AddLandBoundary, LB.cpp:290-330; LandBoundary::ClosestPoint and AddSegment *)
  Definition closest (land : list point) (p : point) (r : nat * nat) : outcome point :=
    let! a := vget land (fst r) in
    let! b := vget land (snd r) in
    Ok (if SFleb (dist2 p a) (dist2 p b) then a else b).
  Definition add_piece (m : mesh) (first other node : nat) (s : state) : outcome state :=
    let! v := vget (n_piece s) first in
    let! v' := vget (n_piece s) other in
    match v, v' with
    | Some i, Some j =>
        if (length (n_pieces s) <=? i) || (length (n_pieces s) <=? j) then Throw StdErr
        else
          let! r := vget (n_pieces s) i in
          let! p := node_at m (Some node) in
          let! pl := closest (n_land s) p r in
          let! pr :=
            (if j =? i then
               let! a := vget (n_land s) (fst r) in
               let! b := vget (n_land s) (snd r) in
               Ok (Pt (fadd (px a) (fsub (px b) (px pl))) (fadd (py a) (fsub (py b) (py pl))))
             else let! r := vget (n_pieces s) j in closest (n_land s) p r) in
          let land := n_land s ++ [missing_point; pl; pr; missing_point] in
          Ok (State land (n_pieces s ++ [(length land - 3, length land - 2)]) (n_piece s) (n_least s) (n_mask s))
    | _, _ => Throw StdErr
    end.
  (** One node of the path, LB.cpp:242-281 *)
  Definition assign_node (m : mesh) (first other last : nat) (s : state) (n : nat) : outcome state :=
    let! p := node_at m (Some n) in
    let! x := nearest (n_land s) None p in
    let '(_, _, i, r) := x in
    let found := match i with None => None | Some i => find (fun k => let c := nth k (n_pieces s) (0, 0) in (fst c <=? i) && (i <? snd c)) (seq 0 (length (n_pieces s))) end in
    match i, found with
    | Some i, Some k =>
        let! c := vget (n_pieces s) k in
        if ((i =? fst c) && SFltb r zero) || ((i =? snd c - 1) && SFltb (double_of 1 0) r) then
          let! s := add_piece m first other last s in
          set_piece n (Some (length (n_pieces s) - 1)) s
        else set_piece n (Some k) s
    | _, _ => Throw AlgorithmErr
    end.
  (** A path along the boundary, [nodes] so far, LB.cpp:201-287 *)
  Fixpoint assign (m : mesh) (f : faces) (fuel : nat) (nodes : list nat) (s : state) : outcome state :=
    match fuel with
    | 0 => UB
    | S fuel =>
        if list_max nodes <? length nodes then Ok s
        else
          let last := last nodes 0 in
          let! d := vget (m_nodesNumEdges m) last in
          (fix each (is : list nat) (s : state) : outcome state :=
             match is with
             | [] => Ok s
             | i :: is =>
                 let! row := vget (m_nodesEdges m) last in
                 let! oe := vget row i in
                 let! e := row_index oe in
                 let! b := at_boundary f e in
                 if negb b then each is s
                 else
                   let! ed := get_edge m (Some e) in
                   let! o := row_index (other_node ed last) in
                   let! v := vget (n_mask s) o in
                   match v with
                   | None => Ok s
                   | Some _ =>
                       if existsb (Nat.eqb o) nodes then each is s
                       else
                         let! v := vget (n_piece s) o in
                         match v with
                         | Some _ => let! first := vget nodes 0 in let! s := fold_out (assign_node m first o last) (tl nodes) s in each is s
                         | None => let! s := assign m f fuel (nodes ++ [o]) s in each is s
                         end
                   end
             end) (seq 0 d) s
    end.
  (** The start, LB.cpp:161-193 *)
  Definition assign_edge (m : mesh) (f : faces) (s : state) (e : nat) : outcome state :=
    let! b := at_boundary f e in
    if negb b then Ok s
    else
      let! ed := get_edge m (Some e) in
      match ed with
      | (Some a, Some b) =>
          let! va := vget (n_piece s) a in
          let! vb := vget (n_piece s) b in
          match va, vb with
          | Some _, Some _ | None, None => Ok s
          | _, _ =>
              let! ma := vget (n_mask s) a in
              let! mb := vget (n_mask s) b in
              match ma, mb with
              | Some _, Some _ => assign m f (S (S (length (m_nodes m)))) (match va with Some _ => [a; b] | None => [b; a] end) s
              | _, _ => Ok s
              end
          end
      | _ => Throw StdErr
      end.

  (** *** FindNearestMeshBoundary, LB.cpp:52-149.  [No option]: do not project. *)
  Inductive choice := NoProjection | OriginalBoundary | OuterBoundary | InnerAndOuter | Whole.
  (** Administrate, LB.cpp:52-99, and LandBoundary::GetNodeMask *)
  Definition land_mask (land : list point) : outcome (list bool) :=
    fold_out (fun l n =>
      let! a := vget land n in
      let! b := vget land (S n) in
      if negb (is_valid a) || negb (is_valid b) then Ok l else if inside a || inside b then vset n true l else Ok l)
      (seq 0 (length land - 1)) (repeat false (length land)).
  Definition halve_piece (l : list (nat * nat)) (i : nat) : outcome (list (nat * nat)) :=
    let! r := vget l i in
    if 1 <? snd r - fst r then
      let mid := fst r + (snd r - fst r) / 2 in
      let! l := vset i (fst r, mid) l in
      Ok (l ++ [(mid, snd r)])
    else Ok l.
  Definition pieces_of (land : list point) : outcome (list (nat * nat)) :=
    let! mask := land_mask land in
    let! all := find_indices land 0 (length land) missing_double in
    let! some := fold_out (fun l r => let! v := vget mask (fst r) in Ok (if v : bool then l ++ [r] else l)) all [] in
    fold_out halve_piece (seq 0 (length some)) some.
  Definition trace (types : list Z) (m : mesh) (f : faces) (outer again : bool) (s : state) (k : nat) : outcome state :=
    let! x := make_path types m f outer k s in
    let '(_, rejected, s) := x in
    if (0 <? rejected) && again then let! y := make_path types m f false k s in Ok (snd y) else Ok s.
  Definition find_boundary (types : list Z) (m : mesh) (f : faces) (land : list point) (c : choice) : outcome (option state) :=
    match land, c with
    | [], _ | _, NoProjection => Ok None
    | _, _ =>
        let! ps := pieces_of land in
        let outer := match c with OuterBoundary | InnerAndOuter => true | _ => false end in
        let again := match c with InnerAndOuter => true | _ => false end in
        let num := length (m_nodes m) in
        let! s := fold_out (trace types m f outer again) (seq 0 (length ps)) (State land ps (repeat None num) (repeat missing_double num) (repeat None num)) in
        let! s := (if outer then fold_out (assign_edge m f) (seq 0 (length (m_edges m))) s else Ok s) in
        Ok (Some s)
    end.

  (** *** SnapMeshToLandBoundaries, LB.cpp:976-1006 *)
  Variable order : list point -> list edge -> nat -> list (option nat) -> list (option nat).
  Definition snap_node (types : list Z) (s : state) (st : mesh * list action) (n : nat) : outcome (mesh * list action) :=
    let! t := vget types n in
    if ((t =? 1) || (t =? 2) || (t =? 3))%Z then
      let! v := vget (n_piece s) n in
      match v with
      | None => Ok st
      | Some k =>
          let! r := vget (n_pieces s) k in
          let! p := node_at (fst st) (Some n) in
          let! x := nearest (n_land s) (Some r) p in
          let! (a, m) := reset_node order (fst st) n (snd (fst (fst x))) in
          let! acts := compound_add (snd st) (Some a) in
          Ok (m, acts)
      end
    else Ok st.
  Definition snap (types : list Z) (m : mesh) (o : option state) : outcome (option (action * mesh)) :=
    match o with
    | None => Ok None
    | Some s =>
        match n_piece s with
        | [] => Ok None
        | _ => let! (m, acts) := fold_out (snap_node types s) (seq 0 (length (m_nodes m))) (m, []) in Ok (Some (compound acts, m))
        end
    end.
End Land.

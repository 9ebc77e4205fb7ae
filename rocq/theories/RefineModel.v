(** Refinement of a mesh.  Source: /repo/libs/MeshKernel/src/MeshRefinement.cpp ("MR.cpp"), Mesh.cpp, Mesh.hpp, Mesh2D.cpp.

    Simplifications.  Projections other than spherical: the correction of middle points at the poles (MR.cpp:534-553) and OffsetSphericalCoordinates are left out.
    The selection of the nodes by a polygon, the edges that would become too short, the edges the samples ask for, the test whether a node is the middle of two
    edges and the position of the centre of a split face (MR.cpp:649-698) are arguments.  The mapping of local edges (Mesh2D.cpp:755-778) is the identity.
    The brothers recorded while splitting edges (MR.cpp:746-748) are replaced by FindBrotherEdges before they are read: left out. *)
From Verif Require Import Base FloatModel UtilModel UndoModel ActionModel MeshModel FaceModel ConvertModel FlipModel.

Local Notation action := (act mact).
Local Notation mask := (list Z).

(** A vector of bool: how many are set, CountHangingNodes and CountHangingEdges, MR.cpp:877-901 *)
Definition count_true (l : list bool) : nat := length (filter (fun b => b) l).

(** Item [n] of a vector used as a cycle of [k], with the one before and the one after it, NextCircularBackwardIndex and NextCircularForwardIndex *)
Definition around (es : list nat) (k n : nat) : outcome (nat * nat * nat) :=
  let! p := next_backward n k in
  let! q := next_forward n k in
  let! a := vget es p in
  let! e := vget es n in
  let! b := vget es q in
  Ok (a, e, b).

(** *** Brothers: pairs of edges that were one edge *)
Section Brothers.
  Variable centred : point -> point -> point -> bool.     (* the last point is the middle of the other two, up to a tolerance *)

  (** GetNumEdgesFaces, Mesh.hpp; and the face on the left or, if there are two faces, on the right *)
  Definition sides_of (f : faces) (e : nat) : outcome (option (option nat * option nat)) :=
    let! k := vget (edges_num_faces f) e in
    if k <? 1 then Ok None
    else let! p := vget (edges_faces f) e in Ok (Some (fst p, if k =? 1 then fst p else snd p)).
  Definition node_of (m : mesh) (i : option nat) : outcome point :=
    match i with Some i => match nth_error (m_nodes m) i with Some p => Ok p | None => Throw ConstraintErr end | None => Throw ConstraintErr end.

  (** FindBrotherEdges for one pair of edges at a node, MR.cpp:1390-1434 *)
  Definition brothers_at (m : mesh) (f : faces) (n : nat) (row : list (option nat)) (k : nat) (brothers : list (option nat)) (j : nat)
    : outcome (list (option nat)) :=
    let! first := vget row j in
    let! j' := next_forward j k in
    let! second := vget row j' in
    match first, second with
    | Some a, Some b =>
        let! sa := sides_of f a in
        match sa with
        | None => Ok brothers
        | Some (al, ar) =>
            let! sb := sides_of f b in
            match sb with
            | None => Ok brothers
            | Some (bl, br) =>
                if negb (eq_idx al bl || eq_idx al br || eq_idx ar bl || eq_idx ar br) then Ok brothers
                else
                  let! ea := vget (m_edges m) a in
                  let! eb := vget (m_edges m) b in
                  let! pa := node_of m (other_node ea n) in
                  let! pb := node_of m (other_node eb n) in
                  let! pn := node_of m (Some n) in
                  if centred pa pb pn then let! l := vset a (Some b) brothers in vset b (Some a) l else Ok brothers
            end
        end
    | _, _ => UB
    end.
  (** FindBrotherEdges, MR.cpp:1380-1437 *)
  Definition find_brothers (m : mesh) (f : faces) : outcome (list (option nat)) :=
    fold_out (fun brothers n =>
      let! k := vget (m_nodesNumEdges m) n in
      let! row := vget (m_nodesEdges m) n in
      fold_out (brothers_at m f n row k) (seq 0 k) brothers) (seq 0 (length (m_nodes m))) (repeat None (length (m_edges m))).
End Brothers.

(** *** Hanging nodes and edges of one face *)

(** The search for the hanging node, MR.cpp:862-871, at most [fuel] steps *)
Fixpoint mark_node (ns : list nat) (k c fuel : nat) (nodes : list bool) (kk : nat) : outcome (list bool * nat) :=
  match fuel with
  | 0 => Ok (nodes, kk)
  | S fuel =>
      let! kk := next_forward kk k in
      let! x := vget ns kk in
      let! h := (if x =? c then let! h := vget nodes kk in Ok (negb h) else Ok false) in
      if h then let! nodes := vset kk true nodes in Ok (nodes, kk) else mark_node ns k c fuel nodes kk
  end.
Definition common_or_throw (m : mesh) (a b : nat) : outcome nat :=
  let! c := find_common m a b in match c with Some c => Ok c | None => Throw AlgorithmErr end.

(** FindHangingNodes, MR.cpp:813-875: which nodes and which edges of the face are hanging, in vectors of six *)
Definition find_hanging (m : mesh) (f : faces) (brothers : list (option nat)) (i : nat) : outcome (list bool * list bool) :=
  let! k := vget (num_faces_nodes f) i in
  if max_edges_per_node <? k then Throw AlgorithmErr
  else
    let! ns := vget (faces_nodes f) i in
    let! es := vget (faces_edges f) i in
    let! x := fold_out (fun (st : list bool * list bool * nat) n =>
      let '(nodes, edges, kk) := st in
      let! e := vget es n in
      let! br := vget brothers e in
      match br with
      | None => Ok st
      | Some br =>
          let! (ab) := around es k n in
          let '(a, _, b) := ab in
          let! c := (if br =? a then let! c := common_or_throw m e a in Ok (Some c)
                     else if br =? b then let! c := common_or_throw m e b in Ok (Some c) else Ok None) in
          match c with
          | None => Ok st
          | Some c =>
              let! edges := vset n true edges in
              let! (nodes, kk) := mark_node ns k c k nodes kk in
              Ok (nodes, edges, kk)
          end
      end) (seq 0 k) (repeat false max_edges_per_face, repeat false max_edges_per_face, k - 1) in
    let '(nodes, edges, _) := x in Ok (nodes, edges).

(** An edge of a face without a brother beside it in that face, for example MR.cpp:1182-1186 *)
Definition alone (br : option nat) (a b : nat) : bool := negb (eq_idx br (Some a)) && negb (eq_idx br (Some b)).

(** *** Masks *)

(** ComputeNodeMaskAtPolygonPerimeter, MR.cpp:755-784; the face mask it also sets is overwritten before it is read *)
Definition perimeter (f : faces) (nodes : mask) : outcome mask :=
  fold_out (fun nodes i =>
    let! k := vget (num_faces_nodes f) i in
    let! ns := vget (faces_nodes f) i in
    let! vs := read_all nodes (firstn k ns) in
    if existsb (fun v => (v =? 0)%Z) vs then
      fold_out (fun nodes n => let! v := vget nodes n in if (v =? 1)%Z then vset n (-2)%Z nodes else Ok nodes) (firstn k ns) nodes
    else Ok nodes) (seq 0 (num_faces f)) nodes.

(** ComputeRefinementMaskFromEdgeSize, MR.cpp:212-228: the mask of the edges and of the faces *)
Definition masks_from_size (m : mesh) (f : faces) (small : nat -> bool) : outcome (mask * mask) :=
  fold_out (fun (st : mask * mask) i =>
    let! k := vget (num_faces_nodes f) i in
    let! es := vget (faces_edges f) i in
    fold_out (fun (st : mask * mask) n =>
      let! e := vget es n in
      if length (m_edges m) <=? e then UB
      else if small e then Ok st
      else
        let! em := vset e (-1)%Z (fst st) in
        let! fm := vset i 1%Z (snd st) in
        Ok (em, fm)) (seq 0 k) st) (seq 0 (num_faces f)) (repeat 0%Z (length (m_edges m)), repeat 0%Z (num_faces f)).

(** SmoothRefinementMasks, MR.cpp:1439-1520: the edges to split, the faces with one of them, and the edges of those faces *)
Definition each_alone {A} (f : faces) (brothers : list (option nat)) (fm : mask) (set : nat -> A -> outcome A) (a : A) : outcome A :=
  fold_out (fun a i =>
    let! v := vget fm i in
    if negb (v =? 1)%Z then Ok a
    else
      let! k := vget (num_faces_nodes f) i in
      let! es := vget (faces_edges f) i in
      fold_out (fun a n =>
        let! x := around es k n in
        let '(p, e, q) := x in
        let! br := vget brothers e in
        if alone br p q then set e a else Ok a) (seq 0 k) a) (seq 0 (num_faces f)) a.
Definition smooth_once (f : faces) (brothers : list (option nat)) (em fm : mask) : outcome (mask * mask) :=
  let! split := each_alone f brothers fm (fun e l => vset e true l) (map (fun _ => false) em) in
  let! fm := fold_out (fun fm i =>
    let! k := vget (num_faces_nodes f) i in
    let! es := vget (faces_edges f) i in
    fold_out (fun fm n => let! e := vget es n in let! b := vget split e in if b : bool then vset i 1%Z fm else Ok fm) (seq 0 k) fm)
    (seq 0 (num_faces f)) fm in
  let! em := each_alone f brothers fm (fun e l => vset e 1%Z l) em in
  Ok (em, fm).
Definition smooth (directional : bool) (times : nat) (f : faces) (brothers : list (option nat)) (em fm : mask) : outcome (mask * mask) :=
  if directional then Throw AlgorithmErr
  else fold_out (fun (st : mask * mask) _ => smooth_once f brothers (fst st) (snd st)) (seq 0 times) (em, fm).

(** ComputeRefinementMasksFromSamples, MR.cpp:786-811 and 1052-1097.  [wanted]: whether more than one edge of the face is to be refined, and which, given the
    hanging nodes of the face.  The hanging nodes and edges of the last face stay in the caches. *)
Definition masks_from_samples (wanted : list bool -> nat -> bool * (nat -> bool)) (directional : bool) (times : nat)
  (m : mesh) (f : faces) (brothers : list (option nat)) (cache : list bool) : outcome (mask * mask * list bool) :=
  let! x := fold_out (fun (st : mask * mask * list bool) i =>
    let! h := find_hanging m f brothers i in
    let '(em, fm, _) := st in
    let w := wanted (fst h) i in
    if fst w then
      let! fm := vset i 1%Z fm in
      let! k := vget (num_faces_nodes f) i in
      let! es := vget (faces_edges f) i in
      let! em := fold_out (fun em n => if snd w n then let! e := vget es n in vset e 1%Z em else Ok em) (seq 0 k) em in
      Ok (em, fm, snd h)
    else Ok (em, fm, snd h)) (seq 0 (num_faces f)) (repeat 0%Z (length (m_edges m)), repeat 0%Z (num_faces f), cache) in
  let '(em, fm, cache) := x in
  let! (em, fm) := smooth directional times f brothers (map Z.opp em) fm in
  Ok (em, fm, cache).

(** The faces at the first level and at the later ones, MR.cpp:132-168 *)
Definition limit_faces (first : bool) (f : faces) (nodes fm : mask) : outcome mask :=
  fold_out (fun fm i =>
    let! k := vget (num_faces_nodes f) i in
    let! ns := vget (faces_nodes f) i in
    let! vs := read_all nodes (firstn k ns) in
    let keep := if first then existsb (fun v => negb (v =? 0)%Z && negb (v =? -2)%Z) vs else negb (existsb (fun v => negb (v =? 1)%Z) vs) in
    if keep then Ok fm else vset i 0%Z fm) (seq 0 (num_faces f)) fm.

(** *** The edges to refine of the faces to refine: ComputeEdgesRefinementMask, MR.cpp:1145-1288.  [hanging] is the number of hanging edges of the last face that
    was looked at. *)
Record settling := Settling { t_edges : mask; t_quad : mask; t_nums : list nat; t_repeat : bool }.

(** MR.cpp:1169-1189 *)
Definition settle_other (brothers : list (option nat)) (es : list nat) (k : nat) (em : mask) : outcome mask :=
  fold_out (fun em n =>
    let! x := around es k n in
    let '(a, e, b) := x in
    let! br := vget brothers e in
    if alone br a b then vset e 1%Z em else Ok em) (seq 0 k) em.
(** The numbering of the edges, MR.cpp:1192-1216 *)
Definition number_edges (brothers : list (option nat)) (es : list nat) (k : nat) (em quad : mask) (nums : list nat) : outcome (nat * mask * list nat) :=
  fold_out (fun (st : nat * mask * list nat) n =>
    let '(num, quad, nums) := st in
    let! x := around es k n in
    let '(_, e, b) := x in
    let! nums := vset n num nums in
    let! v := vget em e in
    let! quad := (if (v =? 0)%Z then Ok quad else vset num v quad) in
    let! br := vget brothers e in
    let num := if negb (n =? k - 1) && negb (eq_idx br (Some b)) then num + 1 else num in
    let! quad := (if eq_idx br (Some b) then vset num 1%Z quad else Ok quad) in
    Ok (num, quad, nums)) (seq 0 k) (0, quad, nums).
(** MR.cpp:1223-1248: index 0 also stands for no index; the difference wraps around below zero *)
Definition refine_all (quad : mask) : bool :=
  let '(count, first, second) := fold_left (fun (st : nat * nat * nat) i =>
    let '(count, first, second) := st in
    if (nth i quad 0 =? 0)%Z then st
    else if first =? 0 then (S count, i, second) else if second =? 0 then (S count, first, i) else (S count, first, second)) (seq 0 4) (0, 0, 0) in
  (count =? 2) && ((second =? first + 1) || (second =? first + 3)).
(** MR.cpp:1250-1271 *)
Definition settle_quad (es : list nat) (k : nat) (nums : list nat) (all : bool) (em : mask) : outcome mask :=
  fold_out (fun em n =>
    let! e := vget es n in
    let! v := vget em e in
    if (0 <? v)%Z then Ok em
    else if negb all && negb (v =? -1)%Z then Ok em
    else
      let! p := next_backward n k in
      let! q := next_forward n k in
      let! x := vget nums n in
      let! y := vget nums p in
      let! z := vget nums q in
      if negb (x =? y) && negb (x =? z) then vset e 1%Z em else Ok em) (seq 0 k) em.
Definition settle_face (f : faces) (brothers : list (option nat)) (fm : mask) (hanging : nat) (s : settling) (i : nat) : outcome settling :=
  let! v := vget fm i in
  if (v =? 0)%Z then Ok s
  else
    let! k := vget (num_faces_nodes f) i in
    let! es := vget (faces_edges f) i in
    if k =? 4 + hanging then
      let! x := number_edges brothers es k (t_edges s) (t_quad s) (t_nums s) in
      let '(num, quad, nums) := x in
      if negb (num + 1 =? 4) then Throw AlgorithmErr
      else
        let all := refine_all quad in
        let! em := settle_quad es k nums all (t_edges s) in
        Ok (Settling em quad nums (t_repeat s || all))
    else
      let! em := settle_other brothers es k (t_edges s) in
      Ok (Settling em (t_quad s) (t_nums s) (t_repeat s)).
Fixpoint settle_rounds (rounds : nat) (f : faces) (brothers : list (option nat)) (fm : mask) (hanging : nat) (s : settling) : outcome settling :=
  match rounds with
  | 0 => Ok s
  | S r =>
      let! s := fold_out (settle_face f brothers fm hanging) (seq 0 (num_faces f)) (Settling (t_edges s) (t_quad s) (t_nums s) false) in
      if t_repeat s then settle_rounds r f brothers fm hanging s else Ok s
  end.
Definition settle (f : faces) (brothers : list (option nat)) (fm : mask) (cache : list bool) (em : mask) : outcome mask :=
  let! s := settle_rounds 6 f brothers fm (count_true cache) (Settling em (repeat 0%Z 4) (repeat 0 max_edges_per_face) true) in
  if t_repeat s then Throw AlgorithmErr
  else Ok (map (fun v => if (v =? 1)%Z then 1%Z else 0%Z) (t_edges s)).

(** *** The other faces that have to be split: ComputeIfFaceShouldBeSplit, MR.cpp:1290-1378 *)
Record spreading := Spreading { d_faces : mask; d_edges : mask; d_cache : list bool; d_new : nat }.

(** CountEdgesToRefine, MR.cpp:903-918 *)
Definition count_marked (es : list nat) (k : nat) (em : mask) : outcome nat :=
  let! vs := read_all em (firstn k es) in Ok (length (filter (fun v => negb (v =? 0)%Z) vs)).
(** One face, MR.cpp:1306-1375; [true]: the function returns *)
Definition spread_face (m : mesh) (f : faces) (brothers : list (option nat)) (s : spreading) (i : nat) : outcome (bool * spreading) :=
  let! v := vget (d_faces s) i in
  if negb (v =? 0)%Z && negb (v =? -1)%Z then Ok (false, s)
  else
    let! k := vget (num_faces_nodes f) i in
    let! es := vget (faces_edges f) i in
    let! marked := count_marked es k (d_edges s) in
    let! h := find_hanging m f brothers i in
    let (nodes, edges) := h in
    if max_edges_per_face <? k then Ok (true, Spreading (d_faces s) (d_edges s) edges (d_new s))
    else
      let! on_hanging := fold_out (fun b n => let! e := vget es n in let! v := vget (d_edges s) e in let! h := vget edges n in Ok (b || (h && (0 <? v)%Z))) (seq 0 k) false in
      let effective := k - count_true edges / 2 in
      let hanging := count_true nodes in
      if on_hanging || (max_edges_per_face <? k + marked) || ((hanging + marked <=? k) && (k - hanging - marked <=? 1)) || (effective =? marked) then
        let! fm := vset i (if (v =? -1)%Z then -2 else 2)%Z (d_faces s) in
        let! x := fold_out (fun (st : mask * nat) n =>
          let! e := vget es n in
          let! h := vget edges n in
          let! v := vget (fst st) e in
          if negb h && (v =? 0)%Z then let! em := vset e 1%Z (fst st) in Ok (em, S (snd st)) else Ok st) (seq 0 k) (d_edges s, d_new s) in
        Ok (false, Spreading fm (fst x) edges (snd x))
      else Ok (false, Spreading (d_faces s) (d_edges s) edges (d_new s)).
Fixpoint spread_faces (m : mesh) (f : faces) (brothers : list (option nat)) (l : list nat) (s : spreading) : outcome (bool * spreading) :=
  match l with
  | [] => Ok (false, s)
  | i :: l => let! (stop, s) := spread_face m f brothers s i in if stop : bool then Ok (true, s) else spread_faces m f brothers l s
  end.
Fixpoint spread_rounds (rounds : nat) (m : mesh) (f : faces) (brothers : list (option nat)) (s : spreading) : outcome spreading :=
  match rounds with
  | 0 => Ok s
  | S r =>
      let! (stop, s) := spread_faces m f brothers (seq 0 (num_faces f)) (Spreading (d_faces s) (d_edges s) (d_cache s) 0) in
      if stop : bool then Ok s else if d_new s =? 0 then Ok s else spread_rounds r m f brothers s
  end.
Definition max_spread : nat := 1000.
Definition spread (m : mesh) (f : faces) (brothers : list (option nat)) (fm em : mask) (cache : list bool) : outcome spreading :=
  spread_rounds max_spread m f brothers (Spreading fm em cache 1).

(** *** Splitting *)
Section Refine.
  Variable order : list point -> list edge -> nat -> list (option nat) -> list (option nat).
  Variable clockwise : projection -> list point -> bool.
  Variable centred : point -> point -> point -> bool.
  Variable centre : mesh -> faces -> nat -> point.            (* MR.cpp:649-698 *)
  Variable selected : mesh -> faces -> mask.                  (* MR.cpp:98-107 *)

  (** MR.cpp:533 *)
  Definition middle_of (p q : point) : point :=
    let half := double_of 1 (-1) in Pt (fmul (fadd (px p) (px q)) half) (fmul (fadd (py p) (py q)) half).

  (** Mesh, recorded actions, node mask, edge mask *)
  Record refining := Refining { r_mesh : mesh; r_acts : list action; r_nodes : mask; r_edges : mask }.

  (** ConnectNodes, its action added to the compound *)
  Definition tie (s : refining) (a b : nat) : outcome refining :=
    let! r := connect_nodes order (r_mesh s) (Some a) (Some b) in
    match r with
    | None => Ok s
    | Some (_, x, m) => let! acts := compound_add (r_acts s) (Some x) in Ok (Refining m acts (r_nodes s) (r_edges s))
    end.
  (** InsertNode *)
  Definition place (s : refining) (p : point) : outcome (nat * refining) :=
    let! x := insert_node order (r_mesh s) p in
    let '(n, a, m) := x in
    let! acts := compound_add (r_acts s) (Some a) in
    Ok (n, Refining m acts (r_nodes s) (r_edges s)).

  (** The middle of one edge, MR.cpp:519-574 *)
  Definition place_middle (s : refining) (e : nat) : outcome refining :=
    let! v := vget (r_edges s) e in
    if (v =? 0)%Z then Ok s
    else
      let! ed := vget (m_edges (r_mesh s)) e in
      let! p := node_of (r_mesh s) (fst ed) in
      let! q := node_of (r_mesh s) (snd ed) in
      let! (n, s) := place s (middle_of p q) in
      let! em := vset e (Z.of_nat n) (r_edges s) in
      let nm := r_nodes s ++ [1%Z] in
      let! a := vget_idx nm (fst ed) in
      let! b := vget_idx nm (snd ed) in
      let! nm := vset n (if ((a =? 0) && (b =? 0))%Z then 0 else if (negb (a =? 1) || negb (b =? 1))%Z then -1 else 1)%Z nm in
      Ok (Refining (r_mesh s) (r_acts s) nm em).

  (** The points on the sides of a face, MR.cpp:597-647; [None]: six are reached and the function returns *)
  Definition side_points (m : mesh) (brothers : list (option nat)) (em : mask) (es : list nat) (k : nat) : outcome (option (list nat)) :=
    fold_out (fun (acc : option (list nat)) n =>
      match acc with
      | None => Ok None
      | Some q =>
          let! x := around es k n in
          let '(a, e, b) := x in
          let! br := vget brothers e in
          let! q := (if eq_idx br (Some b) then let! c := common_or_throw m e b in Ok (q ++ [c])
                     else if negb (eq_idx br (Some a)) then let! v := vget em e in Ok (if (v =? 0)%Z then q else q ++ [Z.to_nat v]) else Ok q) in
          Ok (if max_edges_per_face <=? length q then None else Some q)
      end) (seq 0 k) (Some []).
  (** The edges inside a face, MR.cpp:700-733 *)
  Definition split_inside (p : point) (k : nat) (crossed : bool) (q : list nat) (s : refining) : outcome refining :=
    if 4 <=? k then
      if 2 <? length q then
        let! (c, s) := place s p in
        let! s := fold_out (fun s x => tie s x c) q s in
        let nm := r_nodes s ++ [1%Z] in
        let! nm := (if crossed then vset c (-1)%Z nm else Ok nm) in
        Ok (Refining (r_mesh s) (r_acts s) nm (r_edges s))
      else if length q =? 2 then let! a := vget q 0 in let! b := vget q 1 in tie s a b
      else Ok s
    else
      fold_out (fun s n => let! n' := next_forward n (length q) in let! a := vget q n in let! b := vget q n' in tie s a b) (seq 0 (length q)) s.
  (** One face, MR.cpp:576-734; [true]: the function returns.  The centre depends on data of the mesh [m0] before the insertions only. *)
  Definition split_face (m0 : mesh) (f : faces) (brothers : list (option nat)) (fm : mask) (s : refining) (i : nat) : outcome (bool * refining) :=
    let! v := vget fm i in
    if (v =? 0)%Z then Ok (false, s)
    else
      let! k := vget (num_faces_nodes f) i in
      let! ns := vget (faces_nodes f) i in
      let! es := vget (faces_edges f) i in
      let! vs := read_all (r_nodes s) (firstn k ns) in
      let crossed := existsb (fun v => negb (v =? 1)%Z) vs in
      let! q := side_points (r_mesh s) brothers (r_edges s) es k in
      match q with
      | None => Ok (true, s)
      | Some q => let! s := split_inside (centre m0 f i) k crossed q s in Ok (false, s)
      end.
  Fixpoint split_faces (m0 : mesh) (f : faces) (brothers : list (option nat)) (fm : mask) (l : list nat) (s : refining) : outcome (bool * refining) :=
    match l with
    | [] => Ok (false, s)
    | i :: l => let! (stop, s) := split_face m0 f brothers fm s i in if stop : bool then Ok (true, s) else split_faces m0 f brothers fm l s
    end.
  (** One edge in two, MR.cpp:737-750; an edge that exists already would give an index that is out of range *)
  Definition halve (s : refining) (e : nat) : outcome refining :=
    let! v := vget (r_edges s) e in
    if (0 <? v)%Z then
      let! ed := vget (m_edges (r_mesh s)) e in
      let n := Z.to_nat v in
      let! r := connect_nodes order (r_mesh s) (Some n) (snd ed) in
      match r with
      | None => UB
      | Some (_, x, m) =>
          let! acts := compound_add (r_acts s) (Some x) in
          let! ed := vget (m_edges m) e in
          let! (y, m) := reset_edge order m (Some e) (fst ed, Some n) in
          let! acts := compound_add acts (Some y) in
          Ok (Refining m acts (r_nodes s) (r_edges s))
      end
    else Ok s.
  (** RefineFacesBySplittingEdges, MR.cpp:503-753 *)
  Definition refine_faces (f : faces) (brothers : list (option nat)) (fm : mask) (m : mesh) (nodes em : mask) : outcome (action * refining) :=
    let num := length (m_edges m) in
    let! s := fold_out place_middle (seq 0 num) (Refining m [] nodes em) in
    let! (stop, s) := split_faces m f brothers fm (seq 0 (num_faces f)) s in
    if stop : bool then Ok (compound (r_acts s), s)
    else let! s := fold_out halve (seq 0 num) s in Ok (compound (r_acts s), s).

  (** *** ConnectHangingNodes, MR.cpp:323-501 *)

  (** The nodes of a face that are not hanging, each with the hanging node on the side that ends there, in vectors of six, MR.cpp:338-374.  The test of line 354
      fails for at most six edges. *)
  Definition corners (m : mesh) (brothers : list (option nat)) (es : list nat) (k : nat) : outcome (list (option nat) * list (option nat) * nat) :=
    fold_out (fun (st : list (option nat) * list (option nat) * nat) n =>
      let '(ends, hangs, num) := st in
      let! x := around es k n in
      let '(a, e, b) := x in
      let! br := vget brothers e in
      if eq_idx br (Some b) then Ok st
      else
        let! c := common_or_throw m e b in
        let! ends := vset num (Some c) ends in
        if eq_idx br (Some a) then
          let! h := common_or_throw m e a in
          let! hangs := vset num (Some h) hangs in
          Ok (ends, hangs, num + 1)
        else Ok (ends, hangs, num + 1)) (seq 0 k) (repeat None max_edges_per_face, repeat None max_edges_per_face, 0).
  Definition tie_idx (s : refining) (a b : option nat) : outcome refining :=
    match a, b with Some a, Some b => tie s a b | _, _ => Throw ConstraintErr end.
  Fixpoint first_known (l : list (option nat)) (n num : nat) : outcome (option nat) :=
    match num with
    | 0 => Ok None
    | S num => let! v := vget l n in match v with Some _ => Ok (Some n) | None => first_known l (S n) num end
    end.
  (** Four corners, MR.cpp:383-449 *)
  Definition hang_quad (ends hangs : list (option nat)) (hanging : nat) (s : refining) : outcome refining :=
    let! o := first_known hangs 0 4 in
    match o with
    | None => Ok s
    | Some n =>
        let! h := vget hangs n in
        if hanging =? 1 then
          let! x := next_backward n 4 in
          let! x := next_backward x 4 in
          let! y := next_forward n 4 in
          let! ex := vget ends x in
          let! ey := vget ends y in
          let! s := tie_idx s ex h in
          tie_idx s ey h
        else if hanging =? 2 then
          let! x := next_backward n 4 in
          let! y := next_forward n 4 in
          let! z := next_forward (n + 1) 4 in
          let! hx := vget hangs x in
          match hx with
          | Some _ =>
              let! s := tie_idx s hx h in
              let! ey := vget ends y in
              let! s := tie_idx s h ey in
              tie_idx s ey hx
          | None =>
              let! hy := vget hangs y in
              match hy with
              | Some _ =>
                  let! s := tie_idx s h hy in
                  let! ez := vget ends z in
                  let! s := tie_idx s hy ez in
                  tie_idx s ez h
              | None => let! hz := vget hangs z in match hz with Some _ => tie_idx s h hz | None => Ok s end
              end
          end
        else Ok s
    end.
  (** Three corners, MR.cpp:450-493 *)
  Definition hang_triangle (ends hangs : list (option nat)) (hanging : nat) (s : refining) : outcome refining :=
    let! o := first_known hangs 0 3 in
    match o with
    | None => Ok s
    | Some n =>
        let! h := vget hangs n in
        if hanging =? 1 then
          let! y := next_forward n 3 in
          let! ey := vget ends y in
          tie_idx s h ey
        else if hanging =? 2 then
          let! x := next_backward n 3 in
          let! y := next_forward n 3 in
          let! hx := vget hangs x in
          match hx with Some _ => tie_idx s h hx | None => let! hy := vget hangs y in tie_idx s h hy end
        else Ok s
    end.
  Definition hang_face (f : faces) (brothers : list (option nat)) (s : refining) (i : nat) : outcome refining :=
    let! k := vget (num_faces_nodes f) i in
    if max_edges_per_face <? k then Ok s
    else
      let! es := vget (faces_edges f) i in
      let! x := corners (r_mesh s) brothers es k in
      let '(ends, hangs, num) := x in
      let hanging := k - num in
      if hanging =? 0 then Ok s
      else if num =? 4 then hang_quad ends hangs hanging s
      else if num =? 3 then hang_triangle ends hangs hanging s
      else Throw StdErr.
  Definition connect_hanging (f : faces) (brothers : list (option nat)) (m : mesh) : outcome (action * mesh) :=
    let! s := fold_out (hang_face f brothers) (seq 0 (num_faces f)) (Refining m [] [] []) in
    Ok (compound (r_acts s), r_mesh s).

  (** *** Compute, MR.cpp:77-210 *)
  Inductive criterion :=
  | BySize (small : mesh -> nat -> bool)                                                                        (* MR.cpp:1126-1135 *)
  | BySamples (wanted : mesh -> faces -> list bool -> nat -> bool * (nat -> bool)) (directional : bool) (times : nat).
  Variable by_ : criterion.

  Record level := Level { l_mesh : mesh; l_faces : faces; l_acts : list action; l_nodes : mask; l_brothers : list (option nat); l_cache : list bool }.

  Definition masks (s : level) : outcome (mask * mask * list bool) :=
    match by_ with
    | BySize small => let! (em, fm) := masks_from_size (l_mesh s) (l_faces s) (small (l_mesh s)) in Ok (em, fm, l_cache s)
    | BySamples wanted directional times =>
        masks_from_samples (wanted (l_mesh s) (l_faces s)) directional times (l_mesh s) (l_faces s) (l_brothers s) (l_cache s)
    end.
  (** One level, MR.cpp:117-199: the masks and, unless no face is left, the new mesh *)
  Definition plan (first : bool) (s : level) : outcome spreading :=
    let! x := masks s in
    let '(em, fm, cache) := x in
    let! fm := limit_faces first (l_faces s) (l_nodes s) fm in
    let! em := settle (l_faces s) (l_brothers s) fm cache em in
    spread (l_mesh s) (l_faces s) (l_brothers s) fm em cache.
  Definition refine_level (first : bool) (s : level) : outcome (bool * level) :=
    let! d := plan first s in
    if forallb (fun v => (v =? 0)%Z) (d_faces d) then Ok (false, Level (l_mesh s) (l_faces s) (l_acts s) (l_nodes s) (l_brothers s) (d_cache d))
    else
      let! (a, r) := refine_faces (l_faces s) (l_brothers s) (d_faces d) (l_mesh s) (l_nodes s) (d_edges d) in
      let! acts := compound_add (l_acts s) (Some a) in
      let! x := administrate2d_undo order clockwise (r_mesh r) in
      let '(m, f, more) := x in
      let! brothers := find_brothers centred m f in
      Ok (true, Level m f (acts ++ more) (r_nodes r) brothers (d_cache d)).
  Fixpoint refine_levels (k : nat) (first : bool) (s : level) : outcome level :=
    match k with
    | 0 => Ok s
    | S k => let! (more, s) := refine_level first s in if more : bool then refine_levels k false s else Ok s
    end.
  Definition refine (levels : nat) (connect : bool) (m : mesh) : outcome (action * mesh * faces) :=
    let! x := administrate2d_undo order clockwise m in
    let '(m, f, acts) := x in
    let! brothers := find_brothers centred m f in
    let! nodes := perimeter f (selected m f) in
    let! s := refine_levels levels true (Level m f acts nodes brothers []) in
    if connect then
      let! (a, m) := connect_hanging (l_faces s) (l_brothers s) (l_mesh s) in
      let! acts := compound_add (l_acts s) (Some a) in
      let! x := administrate2d_undo order clockwise m in
      let '(m, f, more) := x in
      Ok (compound (acts ++ more), m, f)
    else Ok (compound (l_acts s), l_mesh s, l_faces s).
End Refine.

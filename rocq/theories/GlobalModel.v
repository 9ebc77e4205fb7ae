(** Generating a mesh of the globe.
    Source: /repo/libs/MeshKernel/src/Mesh2DGenerateGlobal.cpp (Global.cpp below).
    A mesh under construction is its nodes and edges.  Comparing points with a tolerance and the latitude step are arguments; the latter
    is modelled separately, with the cosine, the square root and the conversion to radians as arguments.  Simplified: ConnectNodes is called only when the linear search finds no edge, and then adds one
    (its own search uses an administration that has no edges yet).  The deletion of edges at the end works on an
    administrated mesh.  Not modelled: the merging of nodes before it and the removal of the deleted edges after it,
    Global.cpp:182-187 and 211-214; undo actions. *)
From Verif Require Import Base FloatModel.

Record globe := Globe { g_nodes : list point; g_edges : list (nat * nat) }.
Inductive map_projection := Flat | Sphere | SphereAccurate.

Section Global.
  Variable same : point -> point -> bool.
  (** DeltaLatitude, of a latitude and a longitude step *)
  Variable latitude_step : double -> double -> double.
  (** deltaLatitude * degToRad * earth_radius < minDiscretizationLength *)
  Variable short : double -> bool.

  (** NodeIndexFromPosition, Global.cpp:33-45: the loop goes down, so it finds the last one *)
  Fixpoint last_same (p : point) (nodes : list point) (i : nat) (found : option nat) : option nat :=
    match nodes with
    | [] => found
    | q :: t => last_same p t (i + 1) (if same p q then Some i else found)
    end.
  (** The first loop of AddFace, Global.cpp:55-67 *)
  Definition place (g : globe) (p : point) : globe * nat :=
    match last_same p (g_nodes g) 0 None with
    | Some i => (g, i)
    | None => (Globe (g_nodes g ++ [p]) (g_edges g), length (g_nodes g))
    end.
  Fixpoint place_all (g : globe) (ps : list point) : globe * list nat :=
    match ps with
    | [] => (g, [])
    | p :: t => let (g, i) := place g p in let (g, r) := place_all g t in (g, i :: r)
    end.
  (** FindEdgeWithLinearSearch, Mesh.cpp:637-651, and ConnectNodes, Mesh.cpp:482-496 *)
  Definition joins (a b : nat) (e : nat * nat) : bool := (fst e =? a) && (snd e =? b) || (snd e =? a) && (fst e =? b).
  Definition connect (g : globe) (s : nat * nat) : globe :=
    if existsb (joins (fst s) (snd s)) (g_edges g) then g else Globe (g_nodes g) (g_edges g ++ [s]).
  (** The second loop, Global.cpp:69-85 *)
  Definition sides (is : list nat) : list (nat * nat) := match is with [] => [] | i :: t => combine is (t ++ [i]) end.
  (** AddFace, Global.cpp:47-86, with the points already mirrored *)
  Definition add_polygon (g : globe) (ps : list point) : globe := let (g, is) := place_all g ps in fold_left connect (sides is) g.
  Definition add_face (g : globe) (ps : list point) (direction : Z) : globe :=
    add_polygon g (map (fun p => Pt (px p) (fmul (double_of direction 0) (py p))) ps).

  (** The points of a face, Global.cpp:147-164 *)
  Definition face_points (lon lat dlon dlat : double) (pentagon : bool) : list point :=
    let right_lon := fadd lon dlon in
    let up := fadd lat dlat in
    if pentagon
    then [Pt lon lat; Pt (fadd lon (fmul (double_of 1 (-1)) dlon)) lat; Pt right_lon lat; Pt right_lon up; Pt lon up]
    else [Pt lon lat; Pt right_lon lat; Pt right_lon up; Pt lon up].

  (** The loop over the longitudes, Global.cpp:143-172 *)
  Fixpoint around (js : list nat) (lat dlon dlat : double) (pentagon : bool) (g : globe) : globe * bool :=
    match js with
    | [] => (g, pentagon)
    | j :: t =>
        let lon := fsub (fmul (double_of (Z.of_nat j) 0) dlon) (double_of 180 0) in
        let ps := face_points lon lat dlon dlat pentagon in
        if SFleb (px (nth 2 ps missing_point)) (double_of 180 0)
        then around t lat dlon dlat false (add_face (add_face g ps 1) ps (-1))
        else around t lat dlon dlat pentagon g
    end.

  (** The loop over the latitudes, Global.cpp:114-180 *)
  Definition beyond (lat dlat : double) : bool := SFltb (double_of 90 0) (fadd lat (fmul (double_of 3 (-1)) dlat)).
  Fixpoint upwards (k columns : nat) (lat dlon : double) (pentagon : bool) (g : globe) : globe :=
    match k with
    | 0 => g
    | S k =>
        let dlat := latitude_step lat dlon in
        if beyond lat dlat then fst (around (seq 0 columns) lat dlon (fsub (double_of 90 0) lat) false g)
        else
          let refine := short dlat && negb pentagon in
          let dlon := if refine then fmul (double_of 2 0) dlon else dlon in
          let dlat := if refine then latitude_step lat dlon else dlat in
          let dlat := if beyond lat dlat then fmul (fdiv (double_of 51 0) (double_of 100 0)) (fsub (double_of 90 0) lat) else dlat in
          let (g, pentagon) := around (seq 0 columns) lat dlon dlat refine g in
          upwards k columns (fadd lat dlat) dlon pentagon g
    end.

  (** Compute up to the merging of nodes, Global.cpp:88-180 *)
  Definition generate (columns rows : nat) (p : map_projection) : outcome globe :=
    if columns =? 0 then Throw MeshKernelErr
    else if rows =? 0 then Throw MeshKernelErr
    else match p with
         | Flat => Throw MeshKernelErr
         | _ => Ok (upwards rows columns (double_of 0 0) (fdiv (double_of 360 0) (double_of (Z.of_nat columns) 0)) false (Globe [] []))
         end.
End Global.

(** DeltaLatitude, Global.cpp:9-31 *)
Section Latitude.
  Variable cosine root : double -> double.
  Variable radians : double.
  Variable tolerance : double.

  Definition adjustment (lat dlon d : double) : double :=
    let phi := fmul radians (fadd lat (fmul (double_of 1 (-1)) d)) in
    let c := cosine phi in
    let s := root (fsub (double_of 1 0) (fmul c c)) in
    let f := fsub d (fmul dlon c) in
    let df := fadd (double_of 1 0) (fmul (fmul (fmul (double_of 1 (-1)) radians) dlon) s) in
    fdiv f df.
  Fixpoint newton (k : nat) (lat dlon d : double) : double :=
    match k with
    | 0 => d
    | S k =>
        let a := adjustment lat dlon d in
        let d := fsub d a in
        if SFltb a tolerance then d else newton k lat dlon d
    end.
  Definition delta_latitude (lat dlon : double) : double := newton 5 lat dlon (fmul dlon (cosine (fmul radians lat))).
End Latitude.

(** The loop that deletes edges, Global.cpp:189-209: DeleteEdge (Mesh.cpp:520-531, 1216-1220) leaves m_nodesNumEdges as it is. *)
Section Thin.
  Variable level : double -> double -> bool.
  Variable nodes : list point.
  Variable counts : list nat.
  Definition crowded (n : nat) : bool := (n =? 5) || (n =? 6).
  Definition thin_edge (e : option nat * option nat) : outcome (option nat * option nat) :=
    match e with
    | (Some a, Some b) =>
        let! na := vget counts a in
        let! nb := vget counts b in
        if crowded na && crowded nb then
          let! p := vget nodes a in
          let! q := vget nodes b in
          Ok (if level (py p) (py q) then (None, None) else e)
        else Ok e
    | _ => Ok e
    end.
  Fixpoint thin (edges : list (option nat * option nat)) : outcome (list (option nat * option nat)) :=
    match edges with
    | [] => Ok []
    | e :: t => let! e := thin_edge e in let! t := thin t in Ok (e :: t)
    end.
End Thin.

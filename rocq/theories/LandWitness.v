(** Concrete land boundaries. *)
From Coq Require Import Permutation.
From Verif Require Import Base BaseLemmas FloatModel FloatReal MeshModel MeshSpec MeshWitness FaceModel FaceSpec FaceUseMain FlipSpec SplitModel SplitWitness PolyModel RefineWitness LandModel LandSpec LandNear LandFaces LandPaths LandWalk LandWhole LandAssign.

(** *** The plane: ComputeSquaredDistance, ComputeDistance and DistanceFromLine, Operations.cpp:823-941 *)
Definition origin0 : double := double_of 0 0.
Definition one0 : double := double_of 1 0.
Definition flat_dist2 (p q : point) : double :=
  if is_valid p && is_valid q then let dx := fsub (px q) (px p) in let dy := fsub (py q) (py p) in fadd (fmul dx dx) (fmul dy dy) else origin0.
Definition flat_dist (p q : point) : double := SFsqrt prec64 emax64 (flat_dist2 p q).
Definition flat_line (p a b : point) : double * point * double :=
  let l := flat_dist2 b a in
  if SFeqb l origin0 then (missing_double, missing_point, missing_double)
  else
    let ux := fsub (px b) (px a) in let uy := fsub (py b) (py a) in
    let r := fdiv (fadd (fmul (fsub (px p) (px a)) ux) (fmul (fsub (py p) (py a)) uy)) l in
    let c := if SFltb r one0 then r else one0 in
    let c := if SFltb c origin0 then origin0 else c in
    let q := Pt (fadd (px a) (fmul c ux)) (fadd (py a) (fmul c uy)) in
    (flat_dist p q, q, r).
Definition goodb (x : double) : bool := SpecFloat.valid_binary prec64 emax64 x && SFleb origin0 x.
Lemma goodb_ok x : goodb x = true -> good x.
Proof. unfold goodb. rewrite andb_true_iff. intros (V & L). split; [exact V|]. apply leb_spec; [reflexivity|exact V|exact L]. Qed.

(** *** A square of four faces above a coast *)
Definition at_ (x y : Z) : point := Pt (double_of x (-2)) (double_of y (-2)).
Definition grid_nodes : list point := flat_map (fun y => map (fun x => pt x y) [0; 1; 2]%Z) [0; 1; 2]%Z.
Definition grid_edges : list edge := links_between [(0, 1); (1, 2); (3, 4); (4, 5); (6, 7); (7, 8); (0, 3); (3, 6); (1, 4); (4, 7); (2, 5); (5, 8)].
Definition grid_mesh : mesh := fst (searched grid_nodes grid_edges).
Definition grid_faces : faces := snd (searched grid_nodes grid_edges).
Definition grid_types : list Z := [3; 2; 3; 2; 1; 2; 3; 2; 3]%Z.
Definition coast : list point := [at_ (-2) (-1); at_ 4 (-1); at_ 10 (-1)].
Definition nowhere (land : list point) : list (option nat) := map (fun _ => None) land.
Definition never (p q : point) : option nat := None.
Definition grid_result := find_boundary flat_dist flat_dist2 flat_line (fun _ => true) (nowhere coast) never grid_types grid_mesh grid_faces coast OuterBoundary.
Lemma grid_ok : start_ok grid_nodes grid_edges.
Proof. apply start_facts; vm_compute; reflexivity. Qed.
Lemma grid_step : in_step grid_mesh grid_faces.
Proof. apply grid_ok. Qed.

(** *** What the theorems ask of the distances *)
Definition distancesb (dist : point -> point -> double) (line : point -> point -> point -> double * point * double) (nodes land : list point) : bool :=
  forallb (fun p => forallb (fun q => goodb (dist p q)) nodes) nodes &&
  forallb (fun p => forallb (fun q => forallb (fun r => SpecFloat.valid_binary prec64 emax64 (fst (fst (line p q r)))) (nodes ++ land)) (nodes ++ land)) (nodes ++ land).
Lemma distancesb_ok dist line nodes land : distancesb dist line nodes land = true ->
  (forall p q, In p nodes -> In q nodes -> good (dist p q)) /\
  (forall p q r, In p (nodes ++ land) -> In q (nodes ++ land) -> In r (nodes ++ land) -> is_double (fst (fst (line p q r)))).
Proof.
  unfold distancesb. rewrite andb_true_iff, !forallb_forall. intros (H1 & H2). split.
  - intros p q Hp Hq. specialize (H1 p Hp). rewrite forallb_forall in H1. now apply goodb_ok, H1.
  - intros p q r Hp Hq Hr. specialize (H2 p Hp). rewrite forallb_forall in H2. specialize (H2 q Hq). rewrite forallb_forall in H2. now apply H2.
Qed.
Definition off_landb (line : point -> point -> point -> double * point * double) (land : list point) (a b : nat) (m : mesh) : bool :=
  forallb (fun p => existsb (fun i => is_valid (point_at land i) && is_valid (point_at land (S i)) && SFltb (double_of 0 0) (fst (fst (line p (point_at land i) (point_at land (S i))))) &&
    SFltb (fst (fst (line p (point_at land i) (point_at land (S i))))) dbl_max) (seq a (b - a))) (m_nodes m).
Lemma off_landb_ok line land a b m : off_landb line land a b m = true -> off_land line land a b m.
Proof.
  unfold off_landb. rewrite forallb_forall. intros H n p Hp _. specialize (H p (nth_error_In _ _ Hp)). apply existsb_exists in H as (i & Hi & H). apply in_seq in Hi.
  rewrite !andb_true_iff in H. destruct H as (((V1 & V2) & L1) & L2). exists i. eexists. split; [lia|]. split; [|split; [exact L1|exact L2]].
  destruct (line p (point_at land i) (point_at land (S i))) as [[d q] r] eqn:El. exists q, r. unfold segment. rewrite El. auto.
Qed.
Lemma grid_distances : distancesb flat_dist flat_line (m_nodes grid_mesh) coast = true.
Proof. vm_compute. reflexivity. Qed.

(** *** A point on the land boundary *)
Definition bend : list point := [pt 0 0; pt 2 0; pt 2 5].
Lemma bend_facts : flat_line (pt 1 0) (pt 0 0) (pt 2 0) = (S754_zero false, pt 1 0, double_of 1 (-1)) /\
  nearest flat_line bend None (pt 1 0) = Ok (double_of 1 0, pt 2 0, Some 1, S754_zero false).
Proof. vm_compute. split; reflexivity. Qed.
Definition lone_nodes : list point := [pt 1 1; pt 9 9].
Definition lone_mesh : mesh := Mesh lone_nodes [(Some 0, Some 1)] [1; 1] [[Some 0]; [Some 0]] Cartesian.
Definition lone_state : state := State bend [(0, 2)] [Some 0; None] [] [].


(** *** Two faces *)
Definition pair_nodes : list point := [pt 0 0; pt 1 0; pt 2 0; pt 0 1; pt 1 1; pt 2 1].
Definition pair_edges : list edge := links_between [(0, 1); (1, 2); (3, 4); (4, 5); (0, 3); (1, 4); (2, 5)].
Definition pair_mesh : mesh := fst (searched pair_nodes pair_edges).
Definition pair_faces : faces := snd (searched pair_nodes pair_edges).
Definition through : list point := [at_ 2 2; at_ 6 2].
Definition pair_mask := node_mask flat_dist flat_dist2 flat_line (fun _ => true) [Some 0; Some 1] never through (0, 1) (double_of 1 0) 0 pair_mesh pair_faces.
Lemma pair_step : in_step pair_mesh pair_faces.
Proof. apply (start_facts pair_nodes pair_edges); vm_compute; reflexivity. Qed.
Lemma pair_facts : pair_mask = Ok [Some 0; Some 0; None; Some 0; Some 0; None] /\ faces_nodes pair_faces = [[0; 1; 4; 3]; [1; 2; 5; 4]] /\ faces_edges pair_faces = [[0; 5; 2; 4]; [1; 6; 3; 5]].
Proof. vm_compute. repeat split; reflexivity. Qed.
Definition pair_close (e : nat) : bool := closeb flat_dist flat_dist2 flat_line pair_mesh through 0 1 false e.
Lemma pair_close_ok e i : lists pair_faces i e -> pair_close e = true <-> edge_close flat_dist flat_dist2 flat_line through 0 1 (double_of 1 0) pair_mesh e.
Proof. intros H. apply (closeb_ok flat_dist flat_dist2 flat_line pair_mesh pair_faces pair_step through 0 1 false e i); [cbn; lia|exact H]. Qed.
Lemma pair_reached : reached pair_faces pair_close 0 1.
Proof.
  destruct pair_facts as (_ & _ & E). assert (C : pair_close 5 = true) by (vm_compute; reflexivity).
  assert (L : lists pair_faces 1 5) by (exists [1; 6; 3; 5]; rewrite E; split; [reflexivity|cbn; auto]).
  apply (reached_next _ _ 0 0 1 5); [constructor| |exact L|discriminate|].
  - exists [0; 5; 2; 4]. rewrite E. split; [reflexivity|cbn; auto].
  - exists 5. auto.
Qed.

(** *** Node 0 *)
Definition chain_nodes : list point := [pt 1 0; pt 0 0; pt 2 0].
Definition chain_edges : list edge := links_between [(1, 0); (0, 2)].
Definition chain_mesh : mesh := fst (searched chain_nodes chain_edges).
Definition chain_faces : faces := snd (searched chain_nodes chain_edges).
Definition chain_land : list point := [at_ (-4) (-4); at_ 16 (-4)].
Lemma chain_step : in_step chain_mesh chain_faces.
Proof. apply (start_facts chain_nodes chain_edges); vm_compute; reflexivity. Qed.
Lemma chain_facts : m_edges chain_mesh = chain_edges /\ match shortest_path flat_dist flat_line chain_land (0, 1) false 0 chain_mesh chain_faces [None; Some 0; Some 0] 1 with Ok q => q_edges q | _ => [] end = [Some 0; None; Some 1].
Proof. vm_compute. split; reflexivity. Qed.
Lemma chain_on_land : shortest_path flat_dist flat_line [at_ 4 0; at_ 16 0] (0, 1) false 0 chain_mesh chain_faces [Some 0; Some 0; Some 0] 1 = UB /\
  shortest_path flat_dist flat_line [at_ 8 0; at_ 16 0] (0, 1) false 0 chain_mesh chain_faces [Some 0; Some 0; Some 0] 2 = Throw AlgorithmErr.
Proof. vm_compute. split; reflexivity. Qed.
Lemma chain_distances : distancesb flat_dist flat_line (m_nodes chain_mesh) chain_land = true /\ off_landb flat_line chain_land 0 1 chain_mesh = true.
Proof. vm_compute. split; reflexivity. Qed.

(** *** Pieces *)
Definition inside_strip (p : point) : bool := SFltb (double_of 0 0) (px p).
Definition shore : list point := [pt (-3) 0; pt (-2) 0; pt (-1) 0; pt 1 0; pt 2 0].
Lemma shore_facts : touches inside_strip shore 2 = true /\ touches inside_strip shore 3 = true /\ pieces_of inside_strip shore = Ok [].
Proof. vm_compute. repeat split; reflexivity. Qed.
Definition beach : list point := [pt 1 0; pt 2 0; pt (-1) 0; missing_point; pt 3 3; pt (-1) 3].
Lemma beach_facts : pieces_of inside_strip beach = Ok [(0, 1); (4, 5); (1, 2)].
Proof. vm_compute. reflexivity. Qed.

(** *** The grid along the coast *)
Lemma grid_pieces : pieces_of (fun _ => true) coast = Ok [(0, 1); (1, 2)].
Proof. vm_compute. reflexivity. Qed.
Lemma grid_off : off_landb flat_line coast 0 1 grid_mesh = true /\ off_landb flat_line coast 1 2 grid_mesh = true.
Proof. vm_compute. split; reflexivity. Qed.
Lemma grid_found : match grid_result with Ok (Some s) => Some (n_land s, n_pieces s, n_piece s) | _ => None end =
  Some (coast, [(0, 1); (1, 2)], [Some 0; Some 1; Some 1; Some 0; None; Some 1; Some 0; Some 0; Some 1]).
Proof. vm_compute. reflexivity. Qed.
Definition grid_state : state := State coast [(0, 1); (1, 2)] [Some 0; Some 1; Some 1; Some 0; None; Some 1; Some 0; Some 0; Some 1] [] [].
Lemma grid_snapped : match snap flat_line angle_order grid_types grid_mesh (Some grid_state) with Ok (Some (_, m')) => m_nodes m' | _ => [] end =
  [at_ 0 (-1); at_ 4 (-1); at_ 8 (-1); at_ 0 (-1); pt 1 1; at_ 8 (-1); at_ 0 (-1); at_ 4 (-1); at_ 8 (-1)].
Proof. vm_compute. reflexivity. Qed.

(** *** The properties *)
Local Notation distances dist line m land :=
  ((forall p q, In p (m_nodes m) -> In q (m_nodes m) -> good (dist p q)) /\
   (forall p q r, In p (m_nodes m ++ land) -> In q (m_nodes m ++ land) -> In r (m_nodes m ++ land) -> is_double (fst (fst (line p q r))))).
Local Notation faces_known f face_of crossed land :=
  (length face_of = length land /\ (forall i, In (Some i) face_of -> i < num_faces f) /\ (forall (p q : point) i, crossed p q = Some i -> i < num_faces f)).
Local Notation tells_close dist dist2 line land a b factor m f c := (forall e i, lists f i e -> c e = true <-> edge_close dist dist2 line land a b factor m e).
Lemma nearest_meaning line land range p : fst (ends_of land range) <= snd (ends_of land range) < length land ->
  exists d q i r, nearest line land range p = Ok (d, q, i, r) /\
    match i with
    | Some i => is_nearest line land (fst (ends_of land range)) (snd (ends_of land range)) p i d q r
    | None => d = dbl_max /\ q = p /\ none_near line land (fst (ends_of land range)) (snd (ends_of land range)) p
    end.
Proof.
  intros H. destruct (nearest_ok line land range p H) as ([[[d q] i] r] & E & B). exists d, q, i, r. split; [exact E|]. unfold best_of in B. destruct i; [exact B|]. tauto.
Qed.
Lemma bend_near : nearest flat_line bend None (pt 1 1) = Ok (double_of 1 0, pt 1 0, Some 0, double_of 1 (-1)).
Proof. vm_compute. reflexivity. Qed.
Lemma on_land : exists land p q d r, flat_line p (point_at land 0) (point_at land 1) = (double_of 0 0, p, r) /\
  nearest flat_line land None p = Ok (d, q, Some 1, double_of 0 0) /\ SFltb (double_of 0 0) d = true /\ q <> p.
Proof.
  exists bend, (pt 1 0), (pt 2 0), (double_of 1 0), (double_of 1 (-1)). destruct bend_facts as (E1 & E2). split; [exact E1|]. split; [exact E2|]. split; [reflexivity|]. discriminate.
Qed.
Lemma grid_close : close_piece flat_dist flat_dist2 flat_line coast (0, 2) (double_of 5 0) grid_mesh 0 = Ok (Some 0) /\
  close_piece flat_dist flat_dist2 flat_line coast (0, 2) (double_of 1 (-2)) grid_mesh 2 = Ok None.
Proof. vm_compute. split; reflexivity. Qed.
Lemma node_mask_meaning dist dist2 line inside face_of crossed m f : in_step m f -> forall land, faces_known f face_of crossed land ->
  forall a b factor k c, a < b < length land -> tells_close dist dist2 line land a b factor m f c ->
  exists mask, node_mask dist dist2 line inside face_of crossed land (a, b) factor k m f = Ok mask /\ length mask = length (m_nodes m) /\
    forall n, n < length (m_nodes m) ->
      let in_mask := inside (nth n (m_nodes m) missing_point) = true /\ exists i ns, along f c (first_met face_of crossed land a b) i /\ nth_error (faces_nodes f) i = Some ns /\ In n ns in
      (nth_error mask n = Some (Some k) /\ in_mask) \/ (nth_error mask n = Some None /\ ~ in_mask).
Proof. intros St land (L1 & L2 & L3) a b factor k c Hab Hc. exact (node_mask_ok dist dist2 line inside face_of crossed m f St land L1 L2 L3 a b factor k c Hab Hc). Qed.
Lemma two_faces : exists m f land face_of c mask, in_step m f /\ faces_known f face_of never land /\
  tells_close flat_dist flat_dist2 flat_line land 0 1 (double_of 1 0) m f c /\
  node_mask flat_dist flat_dist2 flat_line (fun _ => true) face_of never land (0, 1) (double_of 1 0) 0 m f = Ok mask /\
  first_met face_of never land 0 1 = Some 0 /\ reached f c 0 1 /\ nth_error (faces_nodes f) 1 = Some [1; 2; 5; 4] /\ nth_error mask 2 = Some None.
Proof.
  exists pair_mesh, pair_faces, through, [Some 0; Some 1], pair_close, [Some 0; Some 0; None; Some 0; Some 0; None].
  destruct pair_facts as (E1 & E2 & E3). assert (Nf : num_faces pair_faces = 2) by (vm_compute; reflexivity).
  split; [exact pair_step|]. split; [|split; [exact pair_close_ok|split; [exact E1|]]].
  - rewrite Nf. split; [reflexivity|]. split; [|discriminate]. intros i [H|[H|[]]]; injection H as <-; lia.
  - split; [reflexivity|]. split; [exact pair_reached|]. rewrite E2. split; reflexivity.
Qed.
Lemma shortest_meaning dist line land a b outer m f : distances dist line m land -> a < b < length land -> in_step m f ->
  forall mask, length mask = length (m_nodes m) -> forall k start, start < length (m_nodes m) -> row_of m start <> [] ->
  match shortest_path dist line land (a, b) outer k m f mask start with
  | Ok q => shortest m (fun n => nth_error mask n = Some (Some k)) (step_cost dist line land a b outer m f) start (q_edges q)
  | Throw e => e = AlgorithmErr /\ ~ off_land line land a b m
  | UB => ~ off_land line land a b m
  end.
Proof. intros (D1 & D2) Hab St mask Lm k start Hs Hr. exact (shortest_path_ok dist line land a b outer m f D1 D2 Hab St mask Lm k start Hs Hr). Qed.
Lemma back_real dist line land a b outer m f (mask : list (option nat)) k start edges n ns l : (nth_error mask 0 = Some (Some k) \/ start = 0) ->
  back m (fun x => nth_error mask x = Some (Some k) \/ x = 0) (step_cost dist line land a b outer m f) start edges (n :: ns) l ->
  route m (fun x => nth_error mask x = Some (Some k)) (step_cost dist line land a b outer m f) start n l.
Proof. intros H B. exact (back_route dist line land a b outer m f mask k start edges (n :: ns) l H B). Qed.
Lemma chain_conditions : distances flat_dist flat_line chain_mesh chain_land /\ in_step chain_mesh chain_faces /\ off_land flat_line chain_land 0 1 chain_mesh.
Proof. destruct chain_distances as (D & O). split; [now apply distancesb_ok|]. split; [exact chain_step|now apply off_landb_ok]. Qed.
Lemma through_zero : exists q, shortest_path flat_dist flat_line chain_land (0, 1) false 0 chain_mesh chain_faces [None; Some 0; Some 0] 1 = Ok q /\
  m_edges chain_mesh = [(Some 1, Some 0); (Some 0, Some 2)] /\ q_edges q = [Some 0; None; Some 1].
Proof. destruct chain_facts as (E1 & E2). destruct (shortest_path _ _ _ _ _ _ _ _ _ _) as [q|e|]; [|discriminate|discriminate]. exists q. split; [reflexivity|]. split; [exact E1|exact E2]. Qed.
Lemma stuck_on_land : exists land land' start start', in_step chain_mesh chain_faces /\
  shortest_path flat_dist flat_line land (0, 1) false 0 chain_mesh chain_faces [Some 0; Some 0; Some 0] start = UB /\
  shortest_path flat_dist flat_line land' (0, 1) false 0 chain_mesh chain_faces [Some 0; Some 0; Some 0] start' = Throw AlgorithmErr.
Proof. do 4 eexists. split; [exact chain_step|exact chain_on_land]. Qed.
Lemma path_meaning dist dist2 line inside face_of crossed m f : in_step m f -> forall land, distances dist line m land -> faces_known f face_of crossed land ->
  forall types ps, length types = length (m_nodes m) -> (forall i x y, nth_error ps i = Some (x, y) -> x < y < length land) ->
  forall outer k a b s, nth_error ps k = Some (a, b) -> kept line land ps m s ->
  match make_path dist dist2 line inside face_of crossed types m f outer k s with
  | Ok (i, o, s') => kept line land ps m s' /\ length (n_mask s') = length (m_nodes m) /\ one_path dist dist2 line inside face_of crossed m f land types ps outer k a b s i o s'
  | Throw e => e = StdErr \/ e = AlgorithmErr
  | UB => ~ off_land line land a b m
  end.
Proof. intros St land (D1 & D2) (L1 & L2 & L3) types ps Lt Hp outer k a b s Hk K. exact (make_path_ok dist dist2 line inside face_of crossed m f St land D1 D2 L1 L2 L3 types ps Lt Hp outer k a b s Hk K). Qed.
Lemma grid_conditions : in_step grid_mesh grid_faces /\ distances flat_dist flat_line grid_mesh coast /\ faces_known grid_faces (nowhere coast) never coast /\
  kept flat_line coast [(0, 1); (1, 2)] grid_mesh (unassigned grid_mesh coast [(0, 1); (1, 2)]).
Proof.
  split; [exact grid_step|]. split; [apply distancesb_ok, grid_distances|]. split; [|apply kept_start]. split; [reflexivity|]. split; [|discriminate].
  intros i [H|[H|[H|[]]]]; discriminate.
Qed.
Lemma find_meaning dist dist2 line inside face_of crossed m f : in_step m f -> forall land, distances dist line m land -> faces_known f face_of crossed land ->
  forall types, length types = length (m_nodes m) -> forall c, land <> [] -> c <> NoProjection ->
  exists ps, pieces_of inside land = Ok ps /\ (forall a b, In (a, b) ps -> a < b < length land) /\
  match find_boundary dist dist2 line inside face_of crossed types m f land c with
  | Ok (Some s) => exists s1, paths_done dist dist2 line inside face_of crossed m f land types ps (outer_of c) (again_of c) (length ps) s1 /\
      n_land s1 = land /\ n_pieces s1 = ps /\ length (n_piece s1) = length (m_nodes m) /\ (forall n i, nth n (n_piece s1) None = Some i -> i < length ps) /\
      if outer_of c then grown dist2 line m f s1 s else s = s1
  | Ok None => False
  | Throw e => e = StdErr \/ e = AlgorithmErr
  | UB => exists a b, In (a, b) ps /\ ~ off_land line land a b m
  end.
Proof. intros St land (D1 & D2) (L1 & L2 & L3) types Lt c Hn Hc. exact (find_boundary_ok dist dist2 line inside face_of crossed m f St land D1 D2 L1 L2 L3 types Lt c Hn Hc). Qed.
Lemma find_nothing dist dist2 line inside face_of crossed types m f land c : land = [] \/ c = NoProjection -> find_boundary dist dist2 line inside face_of crossed types m f land c = Ok None.
Proof. unfold find_boundary. intros [->| ->]; [destruct c|destruct land]; reflexivity. Qed.
Lemma far_nodes : exists s, grid_result = Ok (Some s) /\ n_pieces s = [(0, 1); (1, 2)] /\ n_piece s = [Some 0; Some 1; Some 1; Some 0; None; Some 1; Some 0; Some 0; Some 1].
Proof. pose proof grid_found as E. destruct grid_result as [[s|]|e|]; [|discriminate|discriminate|discriminate]. exists s. injection E as E1 E2 E3. auto. Qed.
Lemma grid_snap_conditions : consistent grid_mesh /\ n_piece grid_state <> [] /\
  forall n i, nth n (n_piece grid_state) None = Some i -> exists a b, nth_error (n_pieces grid_state) i = Some (a, b) /\ a < b < length (n_land grid_state).
Proof.
  split; [apply st_mesh with (f := grid_faces), grid_step|]. split; [discriminate|]. intros n i H. cbn [grid_state n_piece n_pieces n_land] in *.
  assert (Hi : i = 0 \/ i = 1). { do 9 (destruct n as [|n]; [cbn in H; try discriminate; injection H as <-; auto|]). destruct n; discriminate. }
  destruct Hi as [->| ->]; do 2 eexists; (split; [reflexivity|cbn; lia]).
Qed.
Lemma unpack_snap {A} (r : outcome (option (A * mesh))) (P : list point -> Prop) (l : list point) (E : match r with Ok (Some (_, m')) => m_nodes m' | _ => [] end = l) (D : Prop) (d : D) : l <> [] -> P l ->
  exists act m', r = Ok (Some (act, m')) /\ D /\ P (m_nodes m').
Proof. intros Hl HP. destruct r as [[[a m']|]|e|]; [exists a, m'; rewrite E; auto|now subst|now subst|now subst]. Qed.
Lemma collapse : exists act m', snap flat_line angle_order grid_types grid_mesh (Some grid_state) = Ok (Some (act, m')) /\
  nth_error (m_nodes grid_mesh) 1 <> nth_error (m_nodes grid_mesh) 7 /\ nth_error (m_nodes m') 1 = nth_error (m_nodes m') 7.
Proof.
  assert (N : m_nodes grid_mesh = grid_nodes) by (vm_compute; reflexivity). rewrite N. clear N.
  assert (D : nth_error grid_nodes 1 <> nth_error grid_nodes 7) by (intros H; apply (f_equal (fun o => match o with Some p => SFeqb (py p) origin0 | None => false end)) in H; vm_compute in H; discriminate H).
  pose proof grid_snapped as E. revert E D. generalize (nth_error grid_nodes 1 <> nth_error grid_nodes 7). generalize (snap flat_line angle_order grid_types grid_mesh (Some grid_state)). intros r D E d.
  refine (unpack_snap r (fun l => nth_error l 1 = nth_error l 7) _ E D d _ _); [intros H; discriminate H|reflexivity].
Qed.
Lemma snapping_twice : exists types m s act m' act' m'', snap flat_line angle_order types m (Some s) = Ok (Some (act, m')) /\
  snap flat_line angle_order types m' (Some s) = Ok (Some (act', m'')) /\ m_nodes m'' <> m_nodes m'.
Proof.
  exists [3; 3]%Z, lone_mesh, lone_state.
  assert (T : match snap flat_line angle_order [3; 3]%Z lone_mesh (Some lone_state) with
              | Ok (Some (_, m')) => match snap flat_line angle_order [3; 3]%Z m' (Some lone_state) with Ok (Some (_, m'')) => Some (m_nodes m', m_nodes m'') | _ => None end
              | _ => None end = Some ([pt 1 0; pt 9 9], [pt 2 0; pt 9 9])) by (vm_compute; reflexivity).
  destruct (snap flat_line angle_order [3; 3]%Z lone_mesh (Some lone_state)) as [[[a m']|]|e|]; [|discriminate|discriminate|discriminate].
  destruct (snap flat_line angle_order [3; 3]%Z m' (Some lone_state)) as [[[a' m'']|]|e|] eqn:E2; [|discriminate|discriminate|discriminate].
  exists a, m', a', m''. injection T as T1 T2. split; [reflexivity|]. split; [exact E2|]. rewrite T1, T2. discriminate.
Qed.
Lemma shore_lost : exists inside land, touches inside land 2 = true /\ touches inside land 3 = true /\ pieces_of inside land = Ok [].
Proof. exists inside_strip, shore. exact shore_facts. Qed.

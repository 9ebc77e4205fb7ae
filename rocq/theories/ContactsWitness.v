(** Contacts: final forms of the results, and concrete meshes. *)
From Coq Require Import Permutation Sorted.
From Verif Require GeomModel.
From Verif Require Import Base BaseLemmas FloatModel MeshModel MeshSpec MeshProofs MeshAdj MeshConstruct MeshUndo MeshEdits MeshFacts MeshWitness FaceModel FaceSpec FaceUseSpec FaceUse FaceMain FaceUseMain
  ContactsModel ContactsSpec ContactsProofs ContactsMain ContactsOther ContactsBoundary.

Section Results.
  Variable order : list point -> list edge -> nat -> list (option nat) -> list (option nat).
  Hypothesis order_perm : forall nodes edges n row, Permutation row (order nodes edges n row).
  Variable clockwise : projection -> list point -> bool.
  Variable circum_of mass_of : mesh -> faces -> list point.
  Variable cross : point -> point -> point -> point -> bool * double * double.
  Variable dist2 : point -> point -> double.
  Variable project : point -> point -> point -> double -> point.
  Variable in_polygon : point -> list point -> bool.
  Variable nearest_edge nearest_node : mesh -> point -> option nat.
  Variable near_faces : list point -> point -> nat -> option (list nat).
  Hypothesis nearest_edge_in : forall m p e, nearest_edge m p = Some e -> e < length (m_edges m).
  Hypothesis nearest_node_in : forall m p n, nearest_node m p = Some n -> n < length (m_nodes m).
  Hypothesis near_faces_in : forall l p n r i, near_faces l p n = Some r -> In i r -> i < length l.

  Lemma single_final mask inside factor opposite m1 g : consistent m1 -> ready g ->
    let r := compute_single order cross project in_polygon nearest_edge mask inside factor opposite m1 g no_contacts in
    r <> UB /\
    (forall e, r = Throw e -> unprepared mask m1 g \/ (exists p, nearest_edge (g_mesh g) p = None) \/ dead_edge m1 \/ lonely_node order m1) /\
    forall c, r = Ok c -> exists m1' l, administrate order m1 = Ok m1' /\ c = append no_contacts l /\
      single_contacts cross project in_polygon nearest_edge mask inside m1' g factor opposite (length (m_nodes m1')) l.
  Proof. intros C R r. apply safe_ok. now apply single_result. Qed.
  Lemma multiple_final mask m1 g c : consistent m1 -> ready g -> ~ dead_edge m1 ->
    (g_faces_update g = true -> administrate_faces order clockwise circum_of mass_of g = Ok g) ->
    let r := compute_multiple order clockwise circum_of mass_of cross dist2 in_polygon nearest_edge near_faces mask m1 g c in
    r <> UB /\
    (forall e, r = Throw e -> unprepared mask m1 g \/ (exists p, nearest_edge (g_mesh g) p = None) \/ (exists p n, near_faces (g_circum g) p n = None)) /\
    forall x, r = Ok x -> exists m1' l, administrate order m1 = Ok m1' /\ fst x = Mesh2 (g_mesh g) (g_faces g) (g_circum g) (g_mass g) false /\ snd x = append c l /\ NoDup (map snd l) /\
        (forall n i, In (n, i) l -> n < length (m_nodes m1') /\ i < num_faces (g_faces g) /\
           exists a b, In (Some a, Some b) (m_edges m1') /\ near near_faces m1' g a i /\ multiple_contact cross dist2 in_polygon nearest_edge mask m1' g a b n i) /\
        (forall a b n i, In (Some a, Some b) (m_edges m1') -> near near_faces m1' g a i -> multiple_contact cross dist2 in_polygon nearest_edge mask m1' g a b n i -> In i (map snd l)).
  Proof.
    intros C R D U r. apply safe_ok. apply multiple_result; auto. intros e He. destruct (live (m_nodes m1) e) eqn:E; auto. exfalso. apply D. exists e. auto.
  Qed.
  Lemma boundary_final mask inside m1 g c : consistent m1 -> ready g ->
    let r := compute_boundary order dist2 near_faces mask inside m1 g c in
    r <> UB /\
    (forall e, r = Throw e -> unprepared mask m1 g \/ exists p n, near_faces (g_circum g) p n = None) /\
    forall x, r = Ok x -> exists m1' l, administrate order m1 = Ok m1' /\ x = append c l /\ StronglySorted lt (map snd l) /\
        (forall n i, In (n, i) l -> boundary_contact near_faces mask inside m1' g n i /\
           forall n', boundary_contact near_faces mask inside m1' g n' i -> SFltb (dist2 (node_of m1' n') (centre_of g i)) (dist2 (node_of m1' n) (centre_of g i)) = false) /\
        (forall n i, boundary_contact near_faces mask inside m1' g n i -> In i (map snd l)).
  Proof. intros C R r. apply safe_ok. now apply boundary_result. Qed.
  Lemma polygons_final mask polygon_of num m1 g c : consistent m1 -> ready g -> (forall p j, polygon_of p = Some j -> j < num) ->
    (forall j m1', administrate order m1 = Ok m1' -> j < num -> exists n i, polygon_candidate nearest_node polygon_of m1' g j n i) ->
    let r := compute_with_polygons order dist2 nearest_node mask polygon_of num m1 g c in
    r <> UB /\
    (forall e, r = Throw e -> unprepared mask m1 g \/ exists m1' i n, administrate order m1 = Ok m1' /\ i < num_faces (g_faces g) /\ polygon_of (mass_of_face g i) <> None /\
        (nearest_node m1' (mass_of_face g i) = None \/ (nearest_node m1' (mass_of_face g i) = Some n /\ ~ unmasked mask n))) /\
    forall x, r = Ok x -> exists m1' l, administrate order m1 = Ok m1' /\ x = append c l /\ length l = num /\
        forall j n i, nth_error l j = Some (n, i) -> polygon_candidate nearest_node polygon_of m1' g j n i /\ n < length (m_nodes m1') /\ unmasked mask n /\
           forall n' i', polygon_candidate nearest_node polygon_of m1' g j n' i' -> SFltb (dist2 (mass_of_face g i') (node_of m1' n')) (dist2 (mass_of_face g i) (node_of m1' n)) = false.
  Proof.
    intros C R Hp Hf r. apply safe_ok. eapply safe_imp; [now apply polygons_result|]. intros x (m1' & l & A & -> & L & P1 & P2).
    assert (G : exists l', l = map Some l').
    { assert (N : forall y, In y l -> exists z, y = Some z).
      { intros y Hy. destruct y as [z|]; [eauto|]. exfalso. apply In_nth_error in Hy as (j & Hj). assert (j < length l) by (apply nth_error_Some; congruence).
        destruct (Hf j m1' A ltac:(lia)) as (n & i & Ca). now apply (P2 j n i Hj). }
      clear -N. induction l as [|y t IH]; [exists []; reflexivity|]. destruct (N y (or_introl eq_refl)) as (z & ->). destruct IH as (l' & ->); [intros; apply N; cbn; auto|]. exists (z :: l'). reflexivity. }
    destruct G as (l' & ->). exists m1', l'. split; auto. split; [unfold append_opt, append; now rewrite !map_map|]. split; [now rewrite map_length in L|].
    intros j n i Hj. destruct (P1 j n i) as (Q1 & Q2 & Q3); [now rewrite nth_error_map, Hj|]. split; auto. split; [|auto]. destruct Q1 as (_ & _ & Q1). eauto.
  Qed.
  Lemma points_final mask points m1 g c : consistent m1 -> ready g ->
    let r := compute_with_points order in_polygon nearest_edge nearest_node mask points m1 g c in
    r <> UB /\
    (forall e, r = Throw e -> unprepared mask m1 g \/ (exists p, nearest_edge (g_mesh g) p = None) \/ (exists m1' p, administrate order m1 = Ok m1' /\ nearest_node m1' p = None)) /\
    forall x, r = Ok x -> exists m1' l, administrate order m1 = Ok m1' /\ x = append c (some_of l) /\ length l = length points /\
        forall k p, nth_error points k = Some p ->
          (exists n i, nth_error l k = Some (Some (n, i)) /\ nearest_node m1' p = Some n /\ i < num_faces (g_faces g) /\ located in_polygon nearest_edge g p i) \/
          (nth_error l k = Some None /\ forall i, ~ located in_polygon nearest_edge g p i).
  Proof. intros C R r. apply safe_ok. now apply points_result. Qed.
  Lemma point_face_final g p : ready g ->
    (nearest_edge (g_mesh g) p = None /\ point_face in_polygon nearest_edge g p = Throw AlgorithmErr) \/
    exists x, point_face in_polygon nearest_edge g p = Ok x /\
      match x with
      | Some i => i < num_faces (g_faces g) /\ in_polygon p (corners g i) = true
      | None => forall e i, nearest_edge (g_mesh g) p = Some e -> In i (faces_with (g_faces g) e) -> in_polygon p (corners g i) = false
      end.
  Proof.
    intros R. destruct (point_face_found in_polygon nearest_edge nearest_edge_in g p R) as [H|(x & H1 & H2)]; [left; exact H|right]. exists x. split; auto. destruct x as [i|].
    - destruct H2 as (H2 & e & _ & _ & H3). auto.
    - intros e i He Hi. destruct (in_polygon p (corners g i)) eqn:E; auto. exfalso. apply (H2 i). exists e. auto.
  Qed.
  Lemma prepare_again mask m1 m1' g : consistent m1 -> administrate order m1 = Ok m1' -> prepare order mask m1' g = prepare order mask m1 g.
  Proof.
    intros C A. destruct (administrate1 order order_perm m1 C) as (m2 & A2). pose proof A2 as (E & _ & L & _). rewrite A in E. injection E as <-.
    unfold prepare. now rewrite (administrate_idem order order_perm m1 m1' (co_ends _ C) A), A, L.
  Qed.
  (** A second computation, on the one-dimensional mesh left by the first. *)
  Lemma again mask inside factor opposite polygon_of num points m1 m1' g c : consistent m1 -> administrate order m1 = Ok m1' ->
    compute_single order cross project in_polygon nearest_edge mask inside factor opposite m1' g c = compute_single order cross project in_polygon nearest_edge mask inside factor opposite m1 g c /\
    compute_boundary order dist2 near_faces mask inside m1' g c = compute_boundary order dist2 near_faces mask inside m1 g c /\
    compute_with_polygons order dist2 nearest_node mask polygon_of num m1' g c = compute_with_polygons order dist2 nearest_node mask polygon_of num m1 g c /\
    compute_with_points order in_polygon nearest_edge nearest_node mask points m1' g c = compute_with_points order in_polygon nearest_edge nearest_node mask points m1 g c.
  Proof.
    intros C A. pose proof (prepare_again mask m1 m1' g C A) as P. destruct (administrate1 order order_perm m1 C) as (m2 & A2). pose proof A2 as (E & _ & L & _). rewrite A in E. injection E as <-.
    unfold compute_single, compute_boundary, compute_with_polygons, compute_with_points. rewrite P, ?L. repeat split; reflexivity.
  Qed.
  Lemma multiple_again mask m1 m1' g g' c c' : consistent m1 -> administrate order m1 = Ok m1' -> (g_faces_update g = true -> administrate_faces order clockwise circum_of mass_of g = Ok g) ->
    compute_multiple order clockwise circum_of mass_of cross dist2 in_polygon nearest_edge near_faces mask m1 g c = Ok (g', c') ->
    compute_multiple order clockwise circum_of mass_of cross dist2 in_polygon nearest_edge near_faces mask m1' g' c = Ok (g', c').
  Proof.
    intros C A U. unfold compute_multiple. rewrite (prepare_again mask m1 m1' g' C A). unfold prepare. rewrite A. destruct (negb _); [easy|]. cbn [bind].
    assert (G : g' = Mesh2 (g_mesh g) (g_faces g) (g_circum g) (g_mass g) false -> validate m1' g' = validate m1' g) by (now intros ->).
    unfold validate at 1. destruct (_ =? 0) eqn:Z1; [easy|]. destruct (length (m_nodes (g_mesh g)) =? 0) eqn:Z2; [easy|]. cbn [bind].
    destruct (point_faces in_polygon nearest_edge g (m_nodes m1')) as [nf| |] eqn:Ef; try easy. cbn [bind].
    assert (E : (if g_faces_update g then let! g0 := administrate_faces order clockwise circum_of mass_of g in Ok (Mesh2 (g_mesh g0) (g_faces g0) (g_circum g0) (g_mass g0) false) else Ok g)
      = Ok (Mesh2 (g_mesh g) (g_faces g) (g_circum g) (g_mass g) false)).
    { destruct (g_faces_update g) eqn:Eu; [rewrite (U eq_refl); reflexivity|]. destruct g; cbn in *. now subst. }
    rewrite E. cbn [bind]. intros H. destruct (fold_out _ _ _) as [[x c2]| |] eqn:F in H; try easy. injection H as <- <-.
    unfold validate. cbn [g_mesh]. rewrite Z1, Z2. cbn [bind g_faces_update].
    assert (Pf : forall ps, point_faces in_polygon nearest_edge (Mesh2 (g_mesh g) (g_faces g) (g_circum g) (g_mass g) false) ps = point_faces in_polygon nearest_edge g ps).
    { induction ps as [|p ps IH]; [reflexivity|]. cbn [point_faces]. rewrite IH. reflexivity. }
    rewrite Pf, Ef. cbn [bind]. cbn [g_faces] in *. rewrite F. reflexivity.
  Qed.
End Results.

(** *** Concrete geometry, Cartesian *)
Definition fneg (x : double) : double := fsub (double_of 0 0) x.
Definition det (ax ay bx by_ : double) : double := fsub (fmul ax by_) (fmul ay bx).
(** AreSegmentsCrossing, Operations.cpp:1139-1190, without tolerance *)
Definition ex_cross (p q a b : point) : bool * double * double :=
  let x21 := fsub (px q) (px p) in let y21 := fsub (py q) (py p) in
  let x43 := fsub (px b) (px a) in let y43 := fsub (py b) (py a) in
  let x31 := fsub (px a) (px p) in let y31 := fsub (py a) (py p) in
  let d := fsub (fmul x43 y21) (fmul y43 x21) in
  if SFeqb d (double_of 0 0) then (false, missing_double, missing_double)
  else
    let r2 := fdiv (fsub (fmul y31 x21) (fmul x31 y21)) d in
    let r1 := fdiv (fsub (fmul y31 x43) (fmul x31 y43)) d in
    (SFleb (double_of 0 0) r1 && SFleb r1 one && SFleb (double_of 0 0) r2 && SFleb r2 one, r1, r2).
Definition ex_dist (p q : point) : double :=
  let dx := fsub (px p) (px q) in let dy := fsub (py p) (py q) in fadd (fmul dx dx) (fmul dy dy).
Definition ex_project (p a b : point) (f : double) : point :=
  Pt (fadd (px p) (fmul (fsub (py b) (py a)) f)) (fadd (py p) (fmul (fsub (px a) (px b)) f)).
Definition ex_in_polygon (p : point) (ps : list point) : bool :=
  GeomModel.in_polygon_nodes GeomModel.double_arith (map (fun q => (px q, py q)) (ps ++ firstn 1 ps)) (px p, py p).
Fixpoint ex_nearest (p : point) (l : list (nat * point)) (best : option (nat * double)) : option nat :=
  match l with
  | [] => option_map fst best
  | (i, q) :: t => ex_nearest p t (match best with Some (_, d) => if SFltb (ex_dist p q) d then Some (i, ex_dist p q) else best | None => Some (i, ex_dist p q) end)
  end.
Definition ex_nearest_node (m : mesh) (p : point) : option nat := ex_nearest p (filter (fun x => is_valid (snd x)) (combine (seq 0 (length (m_nodes m))) (m_nodes m))) None.
Definition ex_centre (m : mesh) (x : nat * edge) : list (nat * point) :=
  match snd x with
  | (Some a, Some b) => [(fst x, Pt (fmul (double_of 1 (-1)) (fadd (px (node_of m a)) (px (node_of m b)))) (fmul (double_of 1 (-1)) (fadd (py (node_of m a)) (py (node_of m b)))))]
  | _ => []
  end.
Definition ex_nearest_edge (m : mesh) (p : point) : option nat := ex_nearest p (flat_map (ex_centre m) (combine (seq 0 (length (m_edges m))) (m_edges m))) None.
Definition ex_near_faces (l : list point) (p : point) (n : nat) : option (list nat) := match l with [] => None | _ => Some (seq 0 (length l)) end.
Definition ex_middle (m : mesh) (ns : list nat) : point :=
  let n := double_of (Z.of_nat (length ns)) 0 in
  Pt (fdiv (fold_left fadd (map (fun n => px (node_of m n)) ns) (double_of 0 0)) n) (fdiv (fold_left fadd (map (fun n => py (node_of m n)) ns) (double_of 0 0)) n).
Definition ex_middles (m : mesh) (f : faces) : list point := map (ex_middle m) (faces_nodes f).

Lemma ex_nearest_in p l best i : ex_nearest p l best = Some i -> In i (map fst l) \/ option_map fst best = Some i.
Proof.
  revert best. induction l as [|[j q] t IH]; intros best; cbn [ex_nearest map In fst]; [auto|]. intros H. apply IH in H as [H|H]; auto.
  destruct best as [[k d]|]; cbn in *; [destruct (SFltb _ _); cbn in H|]; try (injection H as <-; auto); auto.
Qed.
Lemma ex_nearest_node_in m p n : ex_nearest_node m p = Some n -> n < length (m_nodes m).
Proof.
  intros H. apply ex_nearest_in in H as [H|H]; [|discriminate]. apply in_map_iff in H as ([j q] & <- & H). apply filter_In in H as (H & _). apply in_combine_l, in_seq in H. cbn. lia.
Qed.
Lemma ex_nearest_edge_in m p e : ex_nearest_edge m p = Some e -> e < length (m_edges m).
Proof.
  intros H. apply ex_nearest_in in H as [H|H]; [|discriminate]. apply in_map_iff in H as ([j q] & <- & H). apply in_flat_map in H as ([k [[a|] [b|]]] & H1 & H2); cbn in H2; try contradiction.
  destruct H2 as [[= <- _]|[]]. apply in_combine_l, in_seq in H1. cbn. lia.
Qed.
Lemma ex_near_faces_in l p n r i : ex_near_faces l p n = Some r -> In i r -> i < length l.
Proof. unfold ex_near_faces. intros H I. assert (r = seq 0 (length l)) as -> by (destruct l; [discriminate|congruence]). apply in_seq in I. lia. Qed.

(** *** Two squares side by side, and a line through them *)
Definition two_nodes : list point := [pt 0 0; pt 2 0; pt 4 0; pt 0 2; pt 2 2; pt 4 2].
Definition two_edges : list edge := [(Some 0, Some 1); (Some 1, Some 2); (Some 3, Some 4); (Some 4, Some 5); (Some 0, Some 3); (Some 1, Some 4); (Some 2, Some 5)].
Definition ready_mesh (nodes : list point) (edges : list edge) : mesh2 :=
  let m := built nodes edges in
  match administrate_faces keep_order shoelace_sign ex_middles ex_middles (Mesh2 m (no_faces m) [] [] true) with Ok g => g | _ => Mesh2 m (no_faces m) [] [] true end.
Definition two_squares : mesh2 := ready_mesh two_nodes two_edges.
Definition line : mesh := built [pt 1 1; pt 3 1; pt 3 3; pt 1 3] [(Some 0, Some 1); (Some 1, Some 2); (Some 2, Some 3)].
Definition all_inside (p : point) : bool := true.
Definition yes4 : list bool := [true; true; true; true].

Lemma middles_length m f : length (ex_middles m f) = num_faces f.
Proof. apply map_length. Qed.
Lemma ready_mesh_ok nodes edges g : well_indexedb nodes edges = true ->
  administrate_faces keep_order shoelace_sign ex_middles ex_middles (Mesh2 (built nodes edges) (no_faces (built nodes edges)) [] [] true) = Ok g ->
  ready g /\ administrate_faces keep_order shoelace_sign ex_middles ex_middles g = Ok g.
Proof.
  intros W. apply (administrate_faces_ready keep_order keep_order_perm shoelace_sign ex_middles ex_middles); auto using middles_length. cbn. apply (built_ok nodes edges W).
Qed.
Lemma two_squares_ready : ready two_squares /\ g_faces_update two_squares = true /\ administrate_faces keep_order shoelace_sign ex_middles ex_middles two_squares = Ok two_squares /\ num_faces (g_faces two_squares) = 2.
Proof.
  assert (R : ready two_squares /\ administrate_faces keep_order shoelace_sign ex_middles ex_middles two_squares = Ok two_squares) by (apply (ready_mesh_ok two_nodes two_edges); vm_compute; reflexivity).
  destruct R as (R1 & R2). split; [exact R1|]. split; [vm_compute; reflexivity|]. split; [exact R2|vm_compute; reflexivity].
Qed.
Lemma line_ok : consistent line /\ ~ dead_edge line.
Proof.
  split; [apply built_ok; reflexivity|]. intros (e & H1 & H2). assert (X : forallb (live (m_nodes line)) (m_edges line) = true) by (vm_compute; reflexivity).
  rewrite forallb_forall in X. rewrite (X e H1) in H2. discriminate.
Qed.
(** All nodes of the line get a contact: two lie in a face, two see a boundary edge. *)
Lemma single_example : compute_single keep_order ex_cross ex_project ex_in_polygon ex_nearest_edge yes4 all_inside (double_of 1 0) (fneg (double_of 1 0)) line two_squares no_contacts
  = Ok (append no_contacts [(0, 0); (1, 1); (2, 0); (3, 0)]).
Proof. vm_compute. reflexivity. Qed.
Lemma multiple_example : exists g, compute_multiple keep_order shoelace_sign ex_middles ex_middles ex_cross ex_dist ex_in_polygon ex_nearest_edge ex_near_faces yes4 line two_squares no_contacts
  = Ok (g, append no_contacts [(0, 0); (1, 1)]).
Proof. eexists. vm_compute. reflexivity. Qed.
Lemma boundary_example : compute_boundary keep_order ex_dist ex_near_faces yes4 all_inside line two_squares no_contacts = Ok (append no_contacts [(0, 0); (1, 1)]).
Proof. vm_compute. reflexivity. Qed.
Definition halves (p : point) : option nat := if SFltb (px p) (double_of 2 0) then Some 0 else Some 1.
Lemma polygons_example : compute_with_polygons keep_order ex_dist ex_nearest_node yes4 halves 2 line two_squares no_contacts = Ok (append no_contacts [(0, 0); (1, 1)]).
Proof. vm_compute. reflexivity. Qed.
Lemma points_example : compute_with_points keep_order ex_in_polygon ex_nearest_edge ex_nearest_node yes4 [pt 1 1; pt 3 1; pt 9 9] line two_squares no_contacts
  = Ok (append no_contacts [(0, 0); (1, 1)]).
Proof. vm_compute. reflexivity. Qed.

(** *** What goes wrong *)
(** A diagonal is inserted in the first square and the faces are not searched for again. *)
Definition with_edge (g : mesh2) (a b : nat) : mesh2 :=
  match connect_nodes keep_order (g_mesh g) (Some a) (Some b) with Ok (Some (_, _, m)) => Mesh2 m (g_faces g) (g_circum g) (g_mass g) (g_faces_update g) | _ => g end.
Definition stale_squares : mesh2 := with_edge two_squares 0 4.
Lemma stale_single : compute_single keep_order ex_cross ex_project ex_in_polygon ex_nearest_edge yes4 all_inside (double_of 1 0) (fneg (double_of 1 0)) line stale_squares no_contacts = UB.
Proof. vm_compute. reflexivity. Qed.
Lemma stale_multiple : compute_multiple keep_order shoelace_sign ex_middles ex_middles ex_cross ex_dist ex_in_polygon ex_nearest_edge ex_near_faces yes4 line stale_squares no_contacts = UB.
Proof. vm_compute. reflexivity. Qed.
Lemma stale_from : (exists a e, connect_nodes keep_order (g_mesh two_squares) (Some 0) (Some 4) = Ok (Some (e, a, g_mesh stale_squares))) /\ g_faces stale_squares = g_faces two_squares.
Proof.
  destruct (connect_nodes keep_order (g_mesh two_squares) (Some 0) (Some 4)) as [[[[e a] m]|]| |] eqn:E; [|exfalso; vm_compute in E; discriminate E..].
  unfold stale_squares, with_edge. rewrite E. split; [exists a, e|]; reflexivity.
Qed.
(** The first edge of the line is deleted. *)
Definition cut_line : mesh := match delete_edge keep_order line (Some 0) with Ok (_, m) => m | _ => line end.
Lemma cut_multiple : (exists a, delete_edge keep_order line (Some 0) = Ok (a, cut_line)) /\
  compute_multiple keep_order shoelace_sign ex_middles ex_middles ex_cross ex_dist ex_in_polygon ex_nearest_edge ex_near_faces yes4 cut_line two_squares no_contacts = UB.
Proof. split; [eexists; vm_compute; reflexivity|vm_compute; reflexivity]. Qed.
Definition second (p : point) : option nat := Some 1.
Lemma polygons_missing : compute_with_polygons keep_order ex_dist ex_nearest_node yes4 second 2 line two_squares no_contacts = Ok (Contacts [None; Some 0] [None; Some 0]).
Proof. vm_compute. reflexivity. Qed.
Definition whole (p : point) : option nat := Some 0.
Lemma polygons_masked : compute_with_polygons keep_order ex_dist ex_nearest_node [true; false; false; false] whole 1 line two_squares no_contacts = Throw AlgorithmErr.
Proof. vm_compute. reflexivity. Qed.
Lemma points_masked : compute_with_points keep_order ex_in_polygon ex_nearest_edge ex_nearest_node [false; false; false; false] [pt 1 1] line two_squares no_contacts
  = Ok (append no_contacts [(0, 0)]).
Proof. vm_compute. reflexivity. Qed.
Lemma single_twice : exists c, compute_single keep_order ex_cross ex_project ex_in_polygon ex_nearest_edge yes4 all_inside (double_of 1 0) (fneg (double_of 1 0)) line two_squares no_contacts = Ok c /\
  exists c', compute_single keep_order ex_cross ex_project ex_in_polygon ex_nearest_edge yes4 all_inside (double_of 1 0) (fneg (double_of 1 0)) line two_squares c = Ok c' /\ c' <> c /\ length (c_1d c) < length (c_1d c').
Proof. eexists. split; [exact single_example|]. eexists. split; [vm_compute; reflexivity|]. split; [discriminate|cbn; lia]. Qed.
(** A long rectangle above a flat triangle: the edge nearest to the point in the rectangle is a side of the triangle. *)
Definition long_mesh : mesh2 := ready_mesh [pt 0 0; pt 100 0; pt 100 2; pt 0 2; pt 25 (-1)]
  [(Some 0, Some 1); (Some 1, Some 2); (Some 2, Some 3); (Some 3, Some 0); (Some 0, Some 4); (Some 4, Some 1)].
Lemma long_face : ready long_mesh /\ num_faces (g_faces long_mesh) = 2 /\ ex_in_polygon (pt 25 1) (corners long_mesh 1) = true /\
  point_face ex_in_polygon ex_nearest_edge long_mesh (pt 25 1) = Ok None.
Proof.
  split; [|split; [vm_compute; reflexivity|split; vm_compute; reflexivity]].
  apply (ready_mesh_ok [pt 0 0; pt 100 0; pt 100 2; pt 0 2; pt 25 (-1)] [(Some 0, Some 1); (Some 1, Some 2); (Some 2, Some 3); (Some 3, Some 0); (Some 0, Some 4); (Some 4, Some 1)]); vm_compute; reflexivity.
Qed.
Lemma long_found : point_face ex_in_polygon ex_nearest_edge long_mesh (pt 50 1) = Ok (Some 1).
Proof. vm_compute. reflexivity. Qed.

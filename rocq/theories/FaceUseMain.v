(** Properties of the uses of faces, and concrete meshes. *)
From Coq Require Import Permutation.
From Verif Require Import Base BaseLemmas FloatModel FloatProofs UndoModel UndoSpec UndoProofs ActionModel ActionSpec ActionProofs
  MeshModel MeshSpec MeshProofs MeshAdj MeshConstruct MeshUndo MeshEdits MeshEdits2 MeshMerge MeshFacts MeshWitness
  FaceModel FaceSpec FaceProofs FaceSearch FaceMain FaceUseModel FaceUseSpec FaceUse FaceRegions FaceExport.

Lemma usable_nodes m f : usable m f -> forall ns, In ns (faces_nodes f) -> 3 <= length ns /\ forall n, In n ns -> n < length (m_nodes m).
Proof.
  intros [(L & _) H] ns Hin. apply In_nth_error in Hin as (i & Hi). assert (i < length (faces_nodes f)) by (apply nth_error_Some; congruence).
  destruct (nth_error (faces_edges f) i) as [es|] eqn:E; [|apply nth_error_None in E; unfold num_faces in L; lia]. destruct (H i ns es Hi E) as (H1 & _ & H3 & _). auto.
Qed.
Lemma usable_edges m f : usable m f -> forall es e, In es (faces_edges f) -> In e es -> e < length (m_edges m).
Proof.
  intros [(L & _) H] es e Hin He. apply In_nth_error in Hin as (i & Hi). assert (i < length (faces_edges f)) by (apply nth_error_Some; congruence).
  destruct (nth_error (faces_nodes f) i) as [ns|] eqn:E; [|apply nth_error_None in E; unfold num_faces in L; lia]. destruct (H i ns es E Hi) as (_ & _ & _ & H4). auto.
Qed.
Lemma usable_pairs m f : usable m f -> Forall2 (fun ns es => length es = length ns) (faces_nodes f) (faces_edges f).
Proof.
  intros [(L & _) H]. unfold num_faces in L. assert (G : forall i ns es, nth_error (faces_nodes f) i = Some ns -> nth_error (faces_edges f) i = Some es -> length es = length ns)
    by (intros i ns es H1 H2; apply (H i ns es H1 H2)).
  clear H. revert L G. generalize (faces_nodes f) (faces_edges f). induction l as [|x l IH]; intros [|y r] L G; try discriminate; constructor.
  - apply (G 0); reflexivity.
  - apply IH; [cbn in L; lia|]. intros i. exact (G (S i)).
Qed.

Section Use.
  Variable order : list point -> list edge -> nat -> list (option nat) -> list (option nat).
  Hypothesis order_perm : forall nodes edges n row, Permutation row (order nodes edges n row).
  Variable clockwise : projection -> list point -> bool.

  Lemma search_usable m m' f : well_indexed (m_nodes m) (m_edges m) -> administrate2d order clockwise m = Ok (m', f) ->
    usable m' f /\ (consistent m -> consistent m').
  Proof.
    intros Hw H. destruct (faces_cycles order order_perm clockwise m m' f Hw H) as [_ Hc]. split; [split; [eapply faces_tables; eauto|]|].
    - intros i ns es H1 H2. destruct (Hc i ns es H1 H2) as (C1 & C2 & C3 & (C4 & C5) & _ & C6). split; [lia|]. split; [exact C4|]. split.
      + intros n Hn. apply C6 in Hn. unfold valid_at in Hn. apply nth_error_Some. destruct (nth_error (m_nodes m') n); congruence.
      + intros e He. apply In_nth_error in He as (j & Hj). assert (Hl : j < length es) by (apply nth_error_Some; congruence).
        assert (Hn : length ns <> 0) by lia.
        destruct (nth_error ns j) as [a|] eqn:Ea; [|apply nth_error_None in Ea; lia].
        destruct (nth_error ns (S j mod length ns)) as [b|] eqn:Eb; [|apply nth_error_None in Eb; pose proof (Nat.mod_upper_bound (S j) (length ns) Hn); lia].
        apply (C5 j a b e); unfold cyclic; [rewrite Nat.mod_small by lia; exact Ea|exact Eb|rewrite Nat.mod_small by lia; exact Hj].
    - intros C. destruct (administrate2d_ok order order_perm clockwise m Hw) as (m2 & f2 & E & Ha & _). rewrite H in E. injection E as <- <-.
      destruct (administrate_undo_ok order order_perm m C) as (m3 & new & E3 & _ & C3). unfold administrate in Ha. rewrite E3 in Ha. injection Ha as <-. exact C3.
  Qed.

  Lemma triangulate_usable f m : consistent m -> lists_all m -> usable m f ->
    exists a m' keep, triangulate_faces order f m = Ok (a, m') /\
      m_nodes m' = m_nodes m /\ m_projection m' = m_projection m /\
      m_edges m' = m_edges m ++ map as_edge (filter keep (diagonals f)) /\
      (forall n o, In (n, o) (diagonals f) -> keep (n, o) = true <-> ~ neighbour m n o) /\
      consistent m' /\ reversible (restore_act (restore_leaf order)) (commit_act (commit_leaf order)) mesh_le a m m'.
  Proof.
    intros Hc Hl Hu. apply triangulate_effect; auto; [apply Hu|]. intros ns n Hns. apply (usable_nodes m f Hu ns Hns).
  Qed.
  Lemma triangulate_usable_exact f m : consistent m -> lists_all m -> usable m f -> (forall n o, In (n, o) (diagonals f) -> ~ neighbour m n o) ->
    exists a m', triangulate_faces order f m = Ok (a, m') /\ m_edges m' = m_edges m ++ map as_edge (diagonals f) /\
      length (m_edges m') = length (m_edges m) + fold_right (fun ns k => (length ns - 3) + k) 0 (faces_nodes f).
  Proof.
    intros Hc Hl Hu. apply triangulate_exact; auto; [apply Hu|]. intros ns n Hns. apply (usable_nodes m f Hu ns Hns).
  Qed.

  Lemma regions_usable m f : usable m f ->
    exists labels counts, label_all f = Ok (labels, counts) /\ length labels = num_faces f /\
      (forall i, i < num_faces f -> exists r, nth_error labels i = Some (Some r) /\ 1 <= r <= length counts) /\
      (forall i j r s, nth_error labels i = Some (Some r) -> nth_error labels j = Some (Some s) -> (r = s <-> linked f i j)) /\
      counts = map (fun r => (r, region_size labels r)) (seq 1 (length counts)) /\
      forall r, 1 <= r <= length counts -> 0 < region_size labels r.
  Proof.
    intros Hu. destruct (label_all_ok m f (proj1 Hu) (usable_edges m f Hu)) as (labels & counts & E & [L1 L2 L3 L4] & C & P & A).
    exists labels, counts. split; [exact E|]. split; [exact L1|]. split; [|split; [|split; [exact C|exact P]]].
    - intros i Hi. pose proof (A i Hi) as Ai. destruct (lab labels i) as [r|] eqn:Er; [|congruence]. exists r. split; [|eauto].
      rewrite <- Er. apply nth_error_nth'. lia.
    - intros i j r s Hi Hj. apply L3; unfold lab; apply nth_error_nth; assumption.
  Qed.

  Lemma removal_usable m f : consistent m -> usable m f ->
    exists labels counts a m', label_all f = Ok (labels, counts) /\ remove_regions order f m = Ok (a, m') /\
      (length counts <= 1 -> m' = m) /\
      (1 < length counts -> exists main m1, 1 <= main <= length counts /\ (forall r, region_size labels r <= region_size labels main) /\
        m_nodes m1 = m_nodes m /\ length (m_edges m1) = length (m_edges m) /\ m_projection m1 = m_projection m /\
        (forall i es e, nth_error (faces_edges f) i = Some es -> In e es -> nth_error labels i <> Some (Some main) -> edge_at m1 e = missing_edge) /\
        (forall e, (forall i es, nth_error (faces_edges f) i = Some es -> In e es -> nth_error labels i = Some (Some main)) -> edge_at m1 e = edge_at m e) /\
        (forall i es e, nth_error (faces_edges f) i = Some es -> In e es -> nth_error labels i = Some (Some main) -> edge_at m1 e = edge_at m e) /\
        administrate order m1 = Ok m') /\
      consistent m' /\ reversible (restore_act (restore_leaf order)) (commit_act (commit_leaf order)) mesh_le a m m'.
  Proof.
    intros Hc Hu. destruct (remove_regions_ok m f (proj1 Hu) (usable_edges m f Hu) order order_perm Hc) as (labels & counts & a & m' & E & R & H1 & H2 & H3 & H4).
    destruct (regions_usable m f Hu) as (labels2 & counts2 & E2 & Len & All & Link & _). rewrite E in E2. injection E2 as <- <-.
    exists labels, counts, a, m'. split; [exact E|]. split; [exact R|]. split; [exact H1|]. split; [|auto].
    intros Hk. destruct (H2 Hk) as (main & m1 & M1 & M2 & M3 & M4 & M5 & M6 & M7 & M8). exists main, m1. split; [exact M1|]. split; [exact M2|]. split; [exact M3|]. split; [exact M4|]. split; [exact M5|].
    assert (Lf : length (faces_edges f) = num_faces f) by apply Hu.
    assert (Q : forall i es, nth_error (faces_edges f) i = Some es -> lab labels i = Some main <-> nth_error labels i = Some (Some main)).
    { intros i es Hi. assert (i < num_faces f) by (rewrite <- Lf; apply nth_error_Some; congruence). destruct (All i H) as (r & Er & _). unfold lab. rewrite (nth_error_nth _ _ _ Er), Er. split; congruence. }
    assert (Keep : forall e, (forall i es, nth_error (faces_edges f) i = Some es -> In e es -> nth_error labels i = Some (Some main)) -> edge_at m1 e = edge_at m e).
    { intros e H. apply M7. intros i es Hi He. apply (Q i es Hi). eauto. }
    split; [|split; [exact Keep|split; [|exact M8]]].
    - intros i es e Hi He Hn. apply (M6 i es e Hi He). rewrite (Q i es Hi). exact Hn.
    - intros i es e Hi He Hl. apply Keep. intros j es' Hj He'. assert (Hj' : j < num_faces f) by (rewrite <- Lf; apply nth_error_Some; congruence).
      destruct (All j Hj') as (r & Er & _). rewrite Er. do 2 f_equal. symmetry. apply (Link i j main r Hl Er). eapply linked_step; [constructor|]. exists es, es', e. auto.
  Qed.

  Lemma polygons_usable m f k old buffer : usable m f -> (exists ns, In ns (faces_nodes f) /\ Z.of_nat (length ns) = k) ->
    let out := separated (map (polygon_of m) (filter (fun ns => Z.eqb (Z.of_nat (length ns)) k) (faces_nodes f))) in
    face_polygons_dimension f k old = Z.of_nat (length out) /\
    (length out <= length buffer -> get_face_polygons m f k buffer = Ok (written buffer out, length out)).
  Proof.
    intros Hu. apply polygons_dimension.
    - intros ns Hns ->. apply (usable_nodes m f Hu) in Hns as [H _]. cbn in H. lia.
    - intros ns n Hns. apply (usable_nodes m f Hu ns Hns).
  Qed.
  Lemma filtered_usable m f mask buffer : usable m f -> length mask = num_faces f ->
    let out := separated (map (polygon_of m) (chosen mask (faces_nodes f))) in
    filtered_dimension f mask = Ok (Z.of_nat (length out)) /\ (length out <= length buffer -> fill_polygons m f mask buffer = Ok (written buffer out, length out)).
  Proof.
    intros Hu Hm out. assert (N : forall ns, In ns (faces_nodes f) -> ns <> []) by (intros ns Hns ->; apply (usable_nodes m f Hu) in Hns as [H _]; cbn in H; lia). split.
    - apply filtered_dimension_ok; auto.
    - intros H. apply fill_ok; auto. intros ns n Hns. apply (usable_nodes m f Hu ns Hns).
  Qed.

  Lemma in_pair_ints l z : In z (pair_ints l) -> z = (-1)%Z \/ exists p i, In p l /\ (fst p = Some i \/ snd p = Some i) /\ z = Z.of_nat i.
  Proof.
    unfold pair_ints. rewrite in_flat_map. intros ([[a|] [b|]] & Hp & [<-|[<-|[]]]); cbn; auto; right; eexists _, _; (split; [exact Hp|]); cbn; eauto.
  Qed.

  Lemma export_usable m f : well_indexed (m_nodes m) (m_edges m) -> usable m f ->
    exists dims, api_dimensions m f = Ok dims /\
      a_num_nodes dims = length (m_nodes m) /\ a_num_edges dims = length (m_edges m) /\ a_num_faces dims = num_faces f /\ a_num_face_nodes dims = total (faces_nodes f) /\
      a_num_valid_nodes dims = length (filter is_valid (m_nodes m)) /\ a_num_valid_edges dims = length (filter (live (m_nodes m)) (m_edges m)) /\
      (forall d, fits dims d -> export_mesh m f d = Ok (Data (written (d_nodes d) (m_nodes m)) (written (d_edge_nodes d) (pair_ints (m_edges m)))
        (written (d_edge_faces d) (pair_ints (edges_faces f))) (written (d_nodes_per_face d) (map (fun ns => Z.of_nat (length ns)) (faces_nodes f)))
        (written (d_face_nodes d) (map Z.of_nat (concat (faces_nodes f)))) (written (d_face_edges d) (map Z.of_nat (concat (faces_edges f)))))) /\
      (length (pair_ints (m_edges m)) = 2 * a_num_edges dims /\ length (pair_ints (edges_faces f)) = 2 * a_num_edges dims /\ length (concat (faces_edges f)) = a_num_face_nodes dims) /\
      (forall z, In z (pair_ints (m_edges m)) -> z = (-1)%Z \/ (0 <= z < Z.of_nat (a_num_nodes dims))%Z) /\
      (forall z, In z (pair_ints (edges_faces f)) -> z = (-1)%Z \/ (0 <= z < Z.of_nat (a_num_faces dims))%Z) /\
      (forall n, In n (concat (faces_nodes f)) -> n < a_num_nodes dims) /\ (forall e, In e (concat (faces_edges f)) -> e < a_num_edges dims).
  Proof.
    intros Hw Hu.
    assert (Le : length (edges_faces f) = length (m_edges m)) by apply Hu. pose proof (usable_pairs m f Hu) as Hp.
    destruct (dimensions_ok m f) as (ve & Hve & Hd); auto. destruct (counts_and_maps m Hw) as (Cn & Ce & _). rewrite Ce in Hve. injection Hve as <-.
    eexists. split; [exact Hd|]. cbn [a_num_nodes a_num_edges a_num_faces a_num_face_nodes a_num_valid_nodes a_num_valid_edges].
    do 4 (split; [reflexivity|]). split; [exact Cn|]. split; [reflexivity|]. split; [|split; [|split; [|split; [|split]]]].
    - intros d (F1 & F2 & F3 & F4 & F5 & F6). cbn [a_num_nodes a_num_edges a_num_faces a_num_face_nodes] in *. apply export_ok; auto.
    - rewrite !pair_ints_length, Le. split; [reflexivity|]. split; [reflexivity|]. unfold total. clear - Hp. induction Hp as [|x y a b Hxy Hp IH]; [reflexivity|]. cbn. rewrite !app_length. lia.
    - intros z Hz. apply in_pair_ints in Hz as [->|(p & i & H1 & H2 & ->)]; [auto|]. right. apply (Hw p i H1) in H2. lia.
    - intros z Hz. apply in_pair_ints in Hz as [->|(p & i & H1 & H2 & ->)]; [auto|]. right. apply In_nth_error in H1 as (e & He).
      assert (Hel : e < length (m_edges m)) by (rewrite <- Le; apply nth_error_Some; congruence).
      destruct Hu as [(_ & _ & _ & _ & H) _]. destruct (H e Hel) as (_ & _ & H3). rewrite He in H3. injection H3 as ->. cbn [fst snd] in H2.
      assert (In i (faces_with f e)) by (destruct H2 as [H2|H2]; [apply (nth_error_In _ 0)|apply (nth_error_In _ 1)]; exact H2). apply faces_with_lt in H0. lia.
    - intros n Hn. apply in_concat in Hn as (ns & H1 & H2). now apply (usable_nodes m f Hu ns H1).
    - intros e He. apply in_concat in He as (es & H1 & H2). eapply usable_edges; eauto.
  Qed.
End Use.

(** *** Concrete meshes *)

(** Clockwise by the sum of the signed areas *)
Definition cross (a b : point) : spec_float := fsub (fmul (px a) (py b)) (fmul (px b) (py a)).
Fixpoint shoelace (first : point) (l : list point) (acc : spec_float) : spec_float :=
  match l with
  | [] => acc
  | [p] => fadd acc (cross p first)
  | p :: (q :: _) as t => shoelace first t (fadd acc (cross p q))
  end.
Definition shoelace_sign (p : projection) (l : list point) : bool :=
  match l with a :: _ => SFltb (shoelace a l (double_of 0 0)) (double_of 0 0) | [] => false end.

(** A square, and apart from it a square cut into two triangles and an edge ending in the open *)
Definition blocks_nodes : list point := [pt 0 0; pt 1 0; pt 1 1; pt 0 1; pt 3 0; pt 4 0; pt 4 1; pt 3 1; pt 3 2].
Definition blocks_edges : list edge :=
  [(Some 0, Some 1); (Some 1, Some 2); (Some 2, Some 3); (Some 3, Some 0);
   (Some 4, Some 5); (Some 4, Some 6); (Some 4, Some 7); (Some 5, Some 6); (Some 6, Some 7); (Some 7, Some 8)].
Definition blocks : mesh := built blocks_nodes blocks_edges.
Definition blocks_faces : faces := match administrate2d keep_order shoelace_sign blocks with Ok (_, f) => f | _ => Faces [] [] [] [] [] end.
Lemma built_lists_all nodes edges m0 m : well_indexedb nodes edges = true -> construct edges nodes Cartesian = Ok m0 -> administrate keep_order m0 = Ok m ->
  (match m_nodes m0 with [] => false | _ => true end && match m_edges m0 with [] => false | _ => true end && well_indexedb (m_nodes m0) (m_edges m0) && simpleb (m_edges m) &&
    forallb (fun n => degree_of m n <? max_edges_per_node) (seq 0 (length (m_nodes m)))) = true ->
  built nodes edges = m /\ consistent m /\ lists_all m.
Proof.
  intros Hw E1 E2 H. repeat (apply andb_true_iff in H as [H ?]). destruct (built_facts nodes edges m0 m Hw E1 E2) as [C A].
  split; [apply built_eq with m0; auto|]. split; [exact C|]. apply lists_all_of_exact.
  - destruct (administrate_result keep_order keep_order_perm m0 m (well_indexedb_ok _ _ H2) E2) as (_ & _ & _ & X). apply X; intros X'; rewrite X' in *; discriminate.
  - apply simpleb_ok. exact H1.
  - intros n Hn. rewrite forallb_forall in H0. apply Nat.ltb_lt, H0, in_seq. lia.
  - apply C.
Qed.

Lemma blocks_facts : consistent blocks /\ lists_all blocks /\ administrate2d keep_order shoelace_sign blocks = Ok (blocks, blocks_faces) /\ usable blocks blocks_faces.
Proof.
  assert (E : exists m0 m, construct blocks_edges blocks_nodes Cartesian = Ok m0 /\ administrate keep_order m0 = Ok m /\
    (match m_nodes m0 with [] => false | _ => true end && match m_edges m0 with [] => false | _ => true end && well_indexedb (m_nodes m0) (m_edges m0) && simpleb (m_edges m) &&
    forallb (fun n => degree_of m n <? max_edges_per_node) (seq 0 (length (m_nodes m)))) = true)
    by (eexists _, _; split; [vm_compute; reflexivity|]; split; [vm_compute; reflexivity|vm_compute; reflexivity]).
  destruct E as (m0 & m & E1 & E2 & E3). destruct (built_lists_all blocks_nodes blocks_edges m0 m eq_refl E1 E2 E3) as (E & C & L). fold blocks in E. rewrite <- E in C, L.
  split; [exact C|]. split; [exact L|]. assert (A : administrate2d keep_order shoelace_sign blocks = Ok (blocks, blocks_faces)) by (vm_compute; reflexivity).
  split; [exact A|]. eapply (search_usable keep_order keep_order_perm); [apply C|exact A].
Qed.
Lemma blocks_no_diagonal : diagonals blocks_faces = [(0, 2)] /\ forall n o, In (n, o) (diagonals blocks_faces) -> ~ neighbour blocks n o.
Proof.
  assert (E : diagonals blocks_faces = [(0, 2)]) by (vm_compute; reflexivity). split; [exact E|]. rewrite E. intros n o [H|[]]. injection H as <- <-.
  intros H. apply (joinedb_ok blocks 0 2 (proj1 (proj2 blocks_facts))) in H; [|vm_compute; lia]. vm_compute in H. discriminate.
Qed.
Lemma blocks_hanging : hanging_edges blocks = Ok [9].
Proof. vm_compute. reflexivity. Qed.
Lemma blocks_regions : label_all blocks_faces = Ok ([Some 1; Some 1; Some 2], [(1, 2); (2, 1)]).
Proof. vm_compute. reflexivity. Qed.
Lemma blocks_triangles : (exists ns, In ns (faces_nodes blocks_faces) /\ Z.of_nat (length ns) = 3%Z) /\ face_polygons_dimension blocks_faces 3 0 = 9%Z.
Proof. split; [exists [4; 5; 6]; vm_compute; auto|vm_compute; reflexivity]. Qed.

(** A quadrilateral with a reentrant corner, the outside closed by an edge: the missing diagonal is not added *)
Definition dart : mesh := built [pt 0 0; pt 2 1; pt 4 0; pt 2 4] [(Some 0, Some 2); (Some 0, Some 1); (Some 0, Some 3); (Some 2, Some 3); (Some 2, Some 1)].
Lemma dart_not_triangulated : exists m f a m', administrate2d keep_order shoelace_sign m = Ok (m, f) /\ In [0; 1; 2; 3] (faces_nodes f) /\
  triangulate_faces keep_order f m = Ok (a, m') /\ m_edges m' = m_edges m /\ ~ neighbour m' 1 3.
Proof.
  assert (E : exists m0 m, construct [(Some 0, Some 2); (Some 0, Some 1); (Some 0, Some 3); (Some 2, Some 3); (Some 2, Some 1)] [pt 0 0; pt 2 1; pt 4 0; pt 2 4] Cartesian = Ok m0 /\ administrate keep_order m0 = Ok m /\
    (match m_nodes m0 with [] => false | _ => true end && match m_edges m0 with [] => false | _ => true end && well_indexedb (m_nodes m0) (m_edges m0) && simpleb (m_edges m) &&
    forallb (fun n => degree_of m n <? max_edges_per_node) (seq 0 (length (m_nodes m)))) = true)
    by (eexists _, _; split; [vm_compute; reflexivity|]; split; [vm_compute; reflexivity|vm_compute; reflexivity]).
  destruct E as (m0 & m & E1 & E2 & E3). destruct (built_lists_all [pt 0 0; pt 2 1; pt 4 0; pt 2 4] [(Some 0, Some 2); (Some 0, Some 1); (Some 0, Some 3); (Some 2, Some 3); (Some 2, Some 1)] m0 m eq_refl E1 E2 E3) as (E & C & L). fold dart in E. rewrite <- E in C, L. clear E E1 E2 E3 m0 m.
  assert (X : exists f a, administrate2d keep_order shoelace_sign dart = Ok (dart, f) /\ In [0; 1; 2; 3] (faces_nodes f) /\ triangulate_faces keep_order f dart = Ok (a, dart))
    by (eexists _, _; split; [vm_compute; reflexivity|]; split; [right; left; reflexivity|vm_compute; reflexivity]).
  destruct X as (f & a & X1 & X2 & X3). exists dart, f, a, dart. split; [exact X1|]. split; [exact X2|]. split; [exact X3|]. split; [reflexivity|].
  intros H. apply (joinedb_ok dart 1 3 L) in H; [|vm_compute; lia]. vm_compute in H. discriminate.
Qed.

(** A triangle, then a node joined to two of its corners *)
Definition fresh_node : outcome mesh :=
  let! (_, _, m1) := insert_node keep_order (built [pt 0 0; pt 4 0; pt 0 4] [(Some 0, Some 1); (Some 1, Some 2); (Some 2, Some 0)]) (pt 4 4) in
  let! r := connect_nodes keep_order m1 (Some 1) (Some 3) in
  match r with
  | None => UB
  | Some (_, _, m2) => let! r := connect_nodes keep_order m2 (Some 2) (Some 3) in match r with None => UB | Some (_, _, m3) => Ok m3 end
  end.
Lemma fresh_edges_deleted : exists m a m', fresh_node = Ok m /\ edge_at m 3 = (Some 1, Some 3) /\ edge_at m 4 = (Some 2, Some 3) /\ ~ hanging m 3 /\
  delete_hanging_edges keep_order m = Ok (a, m') /\ edge_at m' 3 = missing_edge /\ edge_at m' 4 = missing_edge.
Proof.
  assert (E : exists m a m', fresh_node = Ok m /\ m_edges m = [(Some 0, Some 1); (Some 1, Some 2); (Some 2, Some 0); (Some 1, Some 3); (Some 2, Some 3)] /\
    delete_hanging_edges keep_order m = Ok (a, m') /\ edge_at m' 3 = missing_edge /\ edge_at m' 4 = missing_edge)
    by (eexists _, _, _; split; [vm_compute; reflexivity|]; split; [reflexivity|]; split; [vm_compute; reflexivity|split; reflexivity]).
  destruct E as (m & a & m' & E1 & E2 & E3 & E4 & E5). exists m, a, m'. split; [exact E1|]. unfold edge_at at 1 2. rewrite E2. split; [reflexivity|]. split; [reflexivity|]. split; [|auto].
  intros (_ & n & o & Hj & H). unfold edge_at in Hj, H. rewrite E2 in Hj, H. cbn in Hj. destruct Hj as [Hj|Hj]; injection Hj as <- <-.
  - assert (Q : 0 = 3) by (apply (H 0 0); [cbn; lia|right; reflexivity]). discriminate.
  - assert (Q : 4 = 3) by (apply (H 4 2); [cbn; lia|right; reflexivity]). discriminate.
Qed.

(** No face with five nodes: the variable of the caller keeps its value *)
Lemma dimension_unset : exists old, face_polygons_dimension blocks_faces 5 old = 7%Z /\ get_face_polygons blocks blocks_faces 5 [] = Ok ([], 0).
Proof. exists 7%Z. split; vm_compute; reflexivity. Qed.

(** An edge inserted after the search: no entry for it in the table of faces per edge *)
Lemma fold_ok_all {A B} (g : A -> B -> outcome A) l : forall a r, fold_out g l a = Ok r -> forall b, In b l -> exists a' r', g a' b = Ok r'.
Proof.
  induction l as [|x l IH]; intros a r H b Hb; [destruct Hb|]. cbn in H. destruct (g a x) as [a1| |] eqn:E; try discriminate. destruct Hb as [<-|Hb]; eauto.
Qed.
Lemma short_table_never_exports m f d r : length (edges_faces f) < length (m_edges m) -> export_mesh m f d <> Ok r.
Proof.
  intros Hl H. unfold export_mesh in H. apply bind_ok_inv in H as (ns & _ & H). apply bind_ok_inv in H as ([en ef] & H & _).
  destruct (fold_ok_all _ _ _ _ H (length (edges_faces f))) as ([a b] & r' & Hs); [apply in_seq; lia|]. unfold export_edge in Hs.
  do 3 (apply bind_ok_inv in Hs as (? & _ & Hs)). apply bind_ok_inv in Hs as (p & Hv & _). apply vget_ok in Hv.
  assert (nth_error (edges_faces f) (length (edges_faces f)) = None) by (apply nth_error_None; lia). congruence.
Qed.
Lemma stale_export : exists e a m' dims d, connect_nodes keep_order blocks (Some 1) (Some 4) = Ok (Some (e, a, m')) /\
  api_dimensions m' blocks_faces = Ok dims /\ fits dims d /\ export_mesh m' blocks_faces d = UB /\ forall d' r, export_mesh m' blocks_faces d' <> Ok r.
Proof.
  eexists _, _, _, _, (Data (repeat missing_point 100) (repeat 0%Z 100) (repeat 0%Z 100) (repeat 0%Z 100) (repeat 0%Z 100) (repeat 0%Z 100)).
  split; [vm_compute; reflexivity|]. split; [vm_compute; reflexivity|]. split; [unfold fits; vm_compute; lia|]. split; [vm_compute; reflexivity|].
  intros d' r. apply short_table_never_exports. vm_compute. lia.
Qed.

(** Concrete meshes for the flipping of edges and the node types. *)
From Coq Require Import Permutation.
From Verif Require Import Base BaseLemmas FloatModel FloatProofs UndoModel UndoSpec UndoProofs ActionModel ActionSpec ActionProofs
  MeshModel MeshSpec MeshProofs MeshAdj MeshConstruct MeshUndo MeshEdits MeshEdits2 MeshFacts MeshWitness
  FaceModel FaceSpec FaceUseModel FaceUseSpec FaceUse FaceMain FaceUseMain FlipModel FlipSpec FlipProofs FlipStep FlipMain FlipFinal NodeTypeModel NodeTypeSpec NodeTypeProofs.
From Verif Require Import SplitWitness.

(** The node types as they are used by the flipping: only 2 and 3 matter. *)
Definition node_types (sharp : projection -> point -> point -> point -> bool) (m : mesh) (f : faces) : list nat :=
  match classify sharp m f with Ok l => map Z.to_nat l | _ => [] end.
Lemma node_types_length sharp m f : in_step m f -> length (node_types sharp m f) = length (m_nodes m).
Proof. intros Hs. destruct (classify_ok sharp m f Hs) as (t & E & L & _). unfold node_types. rewrite E, map_length. exact L. Qed.

(** Crossing of segments by the signs of four areas, for small coordinates. *)
Definition orient (p q r : point) : double := fsub (fmul (fsub (px q) (px p)) (fsub (py r) (py p))) (fmul (fsub (py q) (py p)) (fsub (px r) (px p))).
Definition opposite_signs (x y : double) : bool := (SFltb (double_of 0 0) x && SFltb y (double_of 0 0)) || (SFltb x (double_of 0 0) && SFltb (double_of 0 0) y).
Definition cross_sign (p q r s : point) : bool := opposite_signs (orient p q r) (orient p q s) && opposite_signs (orient r s p) (orient r s q).
Lemma opposite_same x : opposite_signs x x = false.
Proof. unfold opposite_signs. destruct x as [[]|[]| |[] n e]; reflexivity. Qed.
Lemma cross_sign_point p q r : cross_sign p q r r = false.
Proof. unfold cross_sign. now rewrite opposite_same. Qed.
Definition no_land (_ : mesh) (_ _ _ : nat) : option Z := None.
Definition blunt (_ : projection) (_ _ _ : point) : bool := false.

Definition edges_of (l : list (nat * nat)) : list edge := map (fun p => (Some (fst p), Some (snd p))) l.
Definition flip_example (m : mesh) := flip_edges angle_order shoelace_sign (node_types blunt) cross_sign no_land false m.

Lemma searched_start nodes edges : well_indexedb nodes edges = true -> let m := fst (searched nodes edges) in
  consistent m /\ (administrate2d angle_order shoelace_sign m = Ok (m, snd (searched nodes edges)) -> in_step m (snd (searched nodes edges))).
Proof.
  intros Hb m. destruct (searched_ok nodes edges Hb) as (C & _). split; [exact C|]. intros H. eapply found_in_step; [exact angle_order_perm|exact C|exact H|exact C].
Qed.

Definition same_mesh (r : outcome (mesh * faces)) (m : mesh) (f : faces) : Prop := r = Ok (m, f).

(** *** A fan of five triangles and another one: two edges are flipped *)
Definition fan_nodes := [pt 0 0; pt 4 0; pt 7 2; pt 8 5; pt 7 8; pt 4 10; pt 0 10; pt 10 8].
Definition fan_edges := edges_of [(0, 1); (1, 2); (2, 3); (3, 4); (4, 5); (5, 6); (6, 0); (0, 2); (0, 3); (0, 4); (0, 5); (3, 7); (4, 7)].
Definition fan : mesh := fst (searched fan_nodes fan_edges).
Definition fan_faces : faces := snd (searched fan_nodes fan_edges).
Definition shown (r : outcome (act mact * mesh * faces)) : outcome (list edge * list (list nat)) := let! x := r in let '(_, m, f) := x in Ok (m_edges m, faces_nodes f).
Lemma fan_facts : consistent fan /\ prepared angle_order shoelace_sign false fan fan fan_faces /\ in_step fan fan_faces /\ all_triangles fan_faces /\ (quality (node_types blunt fan fan_faces) fan < 10)%Z.
Proof.
  assert (E : administrate2d angle_order shoelace_sign fan = Ok (fan, fan_faces)) by (vm_compute; reflexivity).
  destruct (searched_start fan_nodes fan_edges ltac:(vm_compute; reflexivity)) as [C I]. split; [exact C|]. split; [exact E|]. split; [exact (I E)|]. split; [|vm_compute; reflexivity].
  assert (X : faces_nodes fan_faces = [[0; 1; 2]; [0; 2; 3]; [0; 3; 4]; [0; 4; 5]; [0; 5; 6]; [3; 7; 4]]) by (vm_compute; reflexivity).
  unfold all_triangles. rewrite X. intros ns H. repeat destruct H as [<-|H]; try reflexivity. destruct H.
Qed.
Lemma fan_result : shown (flip_example fan) =
  Ok (edges_of [(0, 1); (1, 2); (2, 3); (3, 4); (4, 5); (5, 6); (6, 0); (0, 2); (2, 4); (2, 5); (0, 5); (3, 7); (4, 7)], [[0; 1; 2]; [0; 2; 5]; [0; 5; 6]; [2; 3; 4]; [2; 4; 5]; [3; 7; 4]]).
Proof. vm_compute. reflexivity. Qed.

(** *** A node with sixteen edges *)
Definition star_nodes := [pt 0 100; pt 0 0; pt 100 50; pt 100 0] ++ map (fun k => pt (Z.of_nat k * 10 - 70) 200) (seq 0 14) ++ map (fun k => pt (Z.of_nat k * 10 - 70) (-100)) (seq 0 13) ++
  [pt 200 60; pt 200 55; pt 200 50; pt 200 45; pt 200 40].
Definition star_edges := edges_of ([(1, 2); (2, 0); (0, 1); (1, 3); (3, 2)] ++ map (fun k => (0, 4 + k)) (seq 0 14) ++ map (fun k => (1, 18 + k)) (seq 0 13) ++ map (fun k => (2, 31 + k)) (seq 0 5)).
Definition star : mesh := fst (searched star_nodes star_edges).
Lemma star_facts : consistent star /\ flip_example star = UB.
Proof. split; [exact (proj1 (searched_start star_nodes star_edges ltac:(vm_compute; reflexivity)))|vm_compute; reflexivity]. Qed.

(** *** A quadrilateral beside the fan *)
Definition mixed_nodes := fan_nodes ++ [pt (-10) 0; pt (-10) 10].
Definition mixed_edges := edges_of [(6, 0); (0, 1); (1, 2); (2, 3); (3, 4); (4, 5); (5, 6); (0, 2); (0, 3); (0, 4); (0, 5); (3, 7); (4, 7); (0, 8); (8, 9); (9, 6)].
Definition mixed : mesh := fst (searched mixed_nodes mixed_edges).
Definition mixed_faces : faces := snd (searched mixed_nodes mixed_edges).
Definition of_result {A} (d : A) (g : mesh -> faces -> A) (r : outcome (act mact * mesh * faces)) : A := match r with Ok (_, m, f) => g m f | _ => d end.

Lemma improvable_intro types cross land m f e a b l r lf rf nl nr : e <? length (m_edges m) = true -> edge_at m e = (Some a, Some b) -> nth_error (edges_faces f) e = Some (Some lf, Some rf) ->
  nth_error (faces_nodes f) lf = Some nl -> nth_error (faces_nodes f) rf = Some nr -> Permutation nl [a; b; l] -> Permutation nr [a; b; r] ->
  cross (nth a (m_nodes m) missing_point) (nth b (m_nodes m) missing_point) (nth l (m_nodes m) missing_point) (nth r (m_nodes m) missing_point) = true ->
  land m e l r = None -> better types m a b l r -> improvable types cross land m f e.
Proof.
  intros H1 H2 H3 H4 H5 H6 H7 H8 H9 H10. exists a, b, l, r, lf, rf. split; [|split; [exact H8|rewrite H9; exact H10]]. apply Nat.ltb_lt in H1. split; [exact H1|]. split; [exact H2|]. split; [exact H3|]. split; eauto.
Qed.

Lemma unfinished_from (r : outcome (act mact * mesh * faces)) m f (P : mesh -> faces -> Prop) : of_result False (fun m' f' => m' = m /\ f' = f) r -> P m f -> exists a m' f', r = Ok (a, m', f') /\ P m' f'.
Proof. destruct r as [[[a m'] f']|x|]; cbn; [intros [-> ->] H; eauto|intros []..]. Qed.

Lemma unfinished : exists m a m' f', consistent m /\ flip_example m = Ok (a, m', f') /\ exists e, improvable (node_types blunt m' f') cross_sign no_land m' f' e.
Proof.
  exists mixed. assert (H : exists a m' f', flip_example mixed = Ok (a, m', f') /\ exists e, improvable (node_types blunt m' f') cross_sign no_land m' f' e).
  { apply (unfinished_from (flip_example mixed) mixed mixed_faces (fun m' f' => exists e, improvable (node_types blunt m' f') cross_sign no_land m' f' e)); [vm_compute; split; reflexivity|].
    exists 8. apply (improvable_intro _ _ _ mixed mixed_faces 8 0 3 2 4 1 2 [0; 2; 3] [0; 3; 4]); try (vm_compute; reflexivity).
    apply perm_skip, perm_swap. }
  destruct H as (a & m' & f' & H). exists a, m', f'. split; [|exact H]. exact (proj1 (searched_start mixed_nodes mixed_edges ltac:(vm_compute; reflexivity))).
Qed.

(** The same mesh with the edge of the quadrilateral last: the flipped faces are left as they are, some in clockwise order. *)
Definition later_edges := edges_of [(0, 1); (1, 2); (2, 3); (3, 4); (4, 5); (5, 6); (0, 2); (0, 3); (0, 4); (0, 5); (3, 7); (4, 7); (0, 8); (8, 9); (9, 6); (6, 0)].
Definition later : mesh := fst (searched mixed_nodes later_edges).
Definition clockwise_face (m : mesh) (f : faces) : bool := existsb (fun ns => shoelace_sign (m_projection m) (map (fun n => nth n (m_nodes m) missing_point) ns)) (faces_nodes f).
Lemma clockwise_left : exists m a m' f', consistent m /\ flip_example m = Ok (a, m', f') /\ exists ns, In ns (faces_nodes f') /\ shoelace_sign (m_projection m') (map (fun n => nth n (m_nodes m') missing_point) ns) = true.
Proof.
  exists later. assert (X : forall r, of_result false clockwise_face r = true -> exists a m' f', r = Ok (a, m', f') /\ exists ns, In ns (faces_nodes f') /\ shoelace_sign (m_projection m') (map (fun n => nth n (m_nodes m') missing_point) ns) = true).
  { intros [[[a m'] f']|x|] H; cbn in H; try discriminate. exists a, m', f'. split; [reflexivity|]. apply existsb_exists in H. exact H. }
  destruct (X (flip_example later)) as (a & m' & f' & H); [vm_compute; reflexivity|]. exists a, m', f'. split; [|exact H]. exact (proj1 (searched_start mixed_nodes later_edges ltac:(vm_compute; reflexivity))).
Qed.

(** *** Node types *)
Lemma unused_none m f : in_step m f -> (forallb (fun k => negb (k =? 0)) (edges_num_faces f) = true) -> forall e, ~ unused m f e.
Proof.
  intros Hs H e (He & _ & U). destruct (faces_of m f Hs e He) as (k & Hk & _ & K0 & _). apply K0 in U. rewrite forallb_forall in H. specialize (H k (nth_error_In _ _ Hk)). rewrite U in H. discriminate.
Qed.
Lemma fan_types : (forall e, ~ unused fan fan_faces e) /\ classify blunt fan fan_faces = Ok [2; 3; 2; 2; 2; 2; 3; 3]%Z.
Proof.
  split; [|vm_compute; reflexivity]. apply unused_none; [exact (proj1 (proj2 (proj2 fan_facts)))|vm_compute; reflexivity].
Qed.

(** A square with a diagonal: the corners at its ends have a right angle and count as points of the boundary. *)
Definition square_nodes := [pt 0 0; pt 1 0; pt 1 1; pt 0 1].
Definition square_edges := edges_of [(0, 1); (1, 2); (2, 3); (3, 0); (0, 2)].
Definition square : mesh := fst (searched square_nodes square_edges).
Definition square_faces : faces := snd (searched square_nodes square_edges).
Definition sharp_always (_ : projection) (_ _ _ : point) : bool := true.
Lemma square_facts : in_step square square_faces /\ m_nodes square = square_nodes /\ (forall e, ~ unused square square_faces e) /\ classify sharp_always square square_faces = Ok [2; 3; 2; 3]%Z.
Proof.
  assert (E : administrate2d angle_order shoelace_sign square = Ok (square, square_faces)) by (vm_compute; reflexivity).
  destruct (searched_start square_nodes square_edges ltac:(vm_compute; reflexivity)) as [C I]. split; [exact (I E)|]. split; [vm_compute; reflexivity|]. split; [|vm_compute; reflexivity].
  apply unused_none; [exact (I E)|vm_compute; reflexivity].
Qed.

(** Edges outside all faces: the types depend on the numbering of the edges, and a node of the boundary can count as internal. *)
Definition tail_nodes := [pt 0 0; pt 10 0; pt 0 10; pt (-10) 20; pt (-20) 20; pt (-30) 20].
Definition tail_edges := edges_of [(0, 1); (1, 2); (2, 0); (2, 3); (3, 4); (4, 5)].
Definition tail_edges' := edges_of [(0, 1); (1, 2); (2, 0); (3, 4); (2, 3); (4, 5)].
Definition horns_nodes := [pt 0 0; pt 10 0; pt 0 10; pt 20 0; pt 0 20].
Definition horns_edges := edges_of [(1, 3); (2, 4); (0, 1); (0, 2); (1, 2)].
Lemma types_of_order : exists edges edges', Permutation edges edges' /\
  (let m := fst (searched tail_nodes edges) in let f := snd (searched tail_nodes edges) in in_step m f /\ m_nodes m = tail_nodes /\ m_edges m = edges /\ forall sharp, classify sharp m f = Ok [3; 3; -1; -1; -1; -1]%Z) /\
  (let m := fst (searched tail_nodes edges') in let f := snd (searched tail_nodes edges') in in_step m f /\ m_nodes m = tail_nodes /\ m_edges m = edges' /\ forall sharp, classify sharp m f = Ok [3; 3; 2; -1; -1; -1]%Z).
Proof.
  exists tail_edges, tail_edges'. split; [do 3 apply perm_skip; apply perm_swap|].
  assert (X : forall edges, well_indexedb tail_nodes edges = true ->
    administrate2d angle_order shoelace_sign (fst (searched tail_nodes edges)) = Ok (fst (searched tail_nodes edges), snd (searched tail_nodes edges)) ->
    in_step (fst (searched tail_nodes edges)) (snd (searched tail_nodes edges))) by (intros edges H1 H2; apply (searched_start tail_nodes edges H1); exact H2).
  assert (Y : forall m f l, in_step m f -> classify blunt m f = Ok l -> forall sharp, classify sharp m f = Ok l) by (intros m f l Hs E sharp; rewrite (classify_same sharp blunt m f Hs); exact E).
  assert (I1 := X tail_edges ltac:(vm_compute; reflexivity) ltac:(vm_compute; reflexivity)). assert (I2 := X tail_edges' ltac:(vm_compute; reflexivity) ltac:(vm_compute; reflexivity)).
  split.
  - split; [exact I1|]. split; [vm_compute; reflexivity|]. split; [vm_compute; reflexivity|]. apply Y; [exact I1|vm_compute; reflexivity].
  - split; [exact I2|]. split; [vm_compute; reflexivity|]. split; [vm_compute; reflexivity|]. apply Y; [exact I2|vm_compute; reflexivity].
Qed.
Lemma on_boundary_table m f e : in_step m f -> e <? length (m_edges m) = true -> nth_error (edges_num_faces f) e = Some 1 -> on_boundary f e.
Proof. intros Hs He H. apply Nat.ltb_lt in He. destruct (faces_of m f Hs e He) as (k & Hk & _ & _ & K1). apply K1. congruence. Qed.
Lemma internal_wrong : exists m f types, in_step m f /\ classify blunt m f = Ok types /\ nth_error types 0 = Some 1%Z /\ exists e, e < length (m_edges m) /\ ends_in (edge_at m e) 0 /\ on_boundary f e.
Proof.
  exists (fst (searched horns_nodes horns_edges)), (snd (searched horns_nodes horns_edges)), [1; -1; -1; -1; -1]%Z.
  assert (I : in_step (fst (searched horns_nodes horns_edges)) (snd (searched horns_nodes horns_edges))).
  { apply (searched_start horns_nodes horns_edges); vm_compute; reflexivity. }
  split; [exact I|]. split; [vm_compute; reflexivity|]. split; [reflexivity|]. exists 2. split; [apply Nat.ltb_lt; vm_compute; reflexivity|]. split; [left; vm_compute; reflexivity|].
  apply (on_boundary_table _ _ 2 I); vm_compute; reflexivity.
Qed.

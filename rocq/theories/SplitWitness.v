(** Concrete meshes for the splitting of rows. *)
From Coq Require Import Permutation.
From Verif Require Import Base BaseLemmas FloatModel FloatProofs UndoModel UndoSpec UndoProofs ActionModel ActionSpec ActionProofs
  MeshModel MeshSpec MeshProofs MeshAdj MeshConstruct MeshUndo MeshEdits MeshEdits2 MeshFacts MeshWitness
  FaceModel FaceSpec FaceUseModel FaceUseSpec FaceUse FaceMain FaceUseMain SplitModel SplitSpec SplitProofs SplitMain SplitEffect SplitLoop SplitFinal.

(** Edges sorted by angle, for small coordinates. *)
Definition lower (d : double * double) : bool := SFltb (snd d) (double_of 0 0) || (negb (SFltb (double_of 0 0) (snd d)) && SFltb (fst d) (double_of 0 0)).
Definition before_angle (a b : double * double) : bool :=
  if Bool.eqb (lower a) (lower b) then SFltb (double_of 0 0) (fsub (fmul (fst a) (snd b)) (fmul (snd a) (fst b))) else negb (lower a).
Fixpoint insert_angle (dir : option nat -> double * double) (x : option nat) (l : list (option nat)) : list (option nat) :=
  match l with [] => [x] | y :: t => if before_angle (dir x) (dir y) then x :: l else y :: insert_angle dir x t end.
Definition angle_order (nodes : list point) (edges : list edge) (n : nat) (row : list (option nat)) : list (option nat) :=
  let at_node k := nth k nodes missing_point in
  let dir oe :=
    match oe with
    | Some e => match other_node (nth e edges missing_edge) n with Some o => (fsub (px (at_node o)) (px (at_node n)), fsub (py (at_node o)) (py (at_node n))) | None => (double_of 0 0, double_of 0 0) end
    | None => (double_of 0 0, double_of 0 0)
    end in
  fold_right (insert_angle dir) [] row.
Lemma insert_perm dir x l : Permutation (x :: l) (insert_angle dir x l).
Proof.
  induction l as [|y l IH]; cbn; [apply Permutation_refl|]. destruct (before_angle _ _); [apply Permutation_refl|]. eapply perm_trans; [apply perm_swap|]. now apply perm_skip.
Qed.
Lemma angle_order_perm : forall nodes edges n row, Permutation row (angle_order nodes edges n row).
Proof.
  intros. unfold angle_order. induction row as [|x row IH]; cbn; [apply Permutation_refl|]. eapply perm_trans; [apply perm_skip; exact IH|]. apply insert_perm.
Qed.

Definition searched (nodes : list point) (edges : list edge) : mesh * faces :=
  match construct edges nodes Cartesian with
  | Ok m => match administrate2d angle_order shoelace_sign m with Ok r => r | _ => (m, Faces [] [] [] [] []) end
  | _ => (Mesh [] [] [] [] Cartesian, Faces [] [] [] [] [])
  end.

Section Search.
  Variable order : list point -> list edge -> nat -> list (option nat) -> list (option nat).
  Hypothesis order_perm : forall nodes edges n row, Permutation row (order nodes edges n row).
  Variable clockwise : projection -> list point -> bool.
  Notation reversible_tree := (reversible (restore_act (restore_leaf order)) (commit_act (commit_leaf order)) mesh_le).

  (** The faces found by the search meet the hypotheses on faces. *)
  Lemma search_splittable m m' f : well_indexed (m_nodes m) (m_edges m) -> administrate2d order clockwise m = Ok (m', f) -> usable m' f /\ distinct_edges f /\ two_ends m' f.
  Proof.
    intros Hw H. split; [apply (search_usable order order_perm clockwise m m' f Hw H)|]. destruct (faces_cycles order order_perm clockwise m m' f Hw H) as (L & F). split.
    - intros es He. apply In_nth_error in He as (i & He). destruct (nth_error (faces_nodes f) i) as [ns|] eqn:En; [apply (F i ns es En He)|].
      apply nth_error_None in En. assert (i < length (faces_edges f)) by (apply nth_error_Some; congruence). lia.
    - intros es c He Hc. apply In_nth_error in He as (i & He). destruct (nth_error (faces_nodes f) i) as [ns|] eqn:En.
      2:{ apply nth_error_None in En. assert (i < length (faces_edges f)) by (apply nth_error_Some; congruence). lia. }
      destruct (F i ns es En He) as (Ln & _ & _ & (Le & Cy) & _). apply In_nth_error in Hc as (k & Hk). assert (Hkl : k < length es) by (apply nth_error_Some; congruence).
      assert (X : forall j, exists a, cyclic ns j = Some a).
      { intros j. unfold cyclic. destruct (nth_error ns (j mod length ns)) as [a|] eqn:E; [eauto|]. apply nth_error_None in E. pose proof (Nat.mod_upper_bound j (length ns) ltac:(lia)). lia. }
      destruct (X k) as (a & Ha), (X (S k)) as (b & Hb). destruct (Cy k a b c Ha Hb) as (_ & [J|J]); [unfold cyclic; rewrite Nat.mod_small by lia; exact Hk|eauto..].
  Qed.

  (** *** The whole row *)
  Lemma collected m f e : usable m f -> distinct_edges f -> e < length (m_edges m) -> regular_start f e ->
    exists elements edges, collect m f e = Ok (Some (elements, edges)) /\ strip f edges elements /\
      (forall b, In b edges <-> same_row f e b) /\ (forall i, In i elements <-> exists a b, same_row f e a /\ opposite_in f i a b) /\
      (NoDup edges \/ (elements <> [] /\ NoDup (removelast edges) /\ nth 0 edges 0 = nth (length elements) edges 0)).
  Proof.
    intros U D He (Hn & Hp & Hq). destruct (collect_row m f U D e He Hp Hq Hn) as (elements & edges & H & SS & Hin & Ends). exists elements, edges.
    split; [exact H|]. split; [exact SS|].
    destruct (strip_exact m f U D edges elements e SS) as (X & Y); [destruct Ends as [(_ & E)|(_ & E)]; auto|exact Hin|]. split; [exact X|]. split; [exact Y|].
    destruct Ends as [(ND & _)|(ND & N0 & E)]; auto.
  Qed.

  Lemma split_done m f e : consistent m -> usable m f -> distinct_edges f -> two_ends m f -> live (m_nodes m) (edge_at m e) = true -> e < length (m_edges m) ->
    (exists i, In i (faces_with f e) /\ four_edges f i) -> regular_start f e ->
    exists a m1 m2 cuts new elements edges, split_row order m f (Some e) = Ok (Some (a, m1, m2)) /\
      strip f edges elements /\ (forall b, In b edges <-> same_row f e b) /\ (forall i, In i elements <-> exists a b, same_row f e a /\ opposite_in f i a b) /\
      NoDup cuts /\ (forall c, In c cuts <-> same_row f e c /\ cut_at f c) /\ Permutation new (new_edges m cuts edges elements) /\ split_result m cuts new m1 /\
      consistent m1 /\ reversible_tree a m m1 /\ administrate order m1 = Ok m2 /\
      (administrated m -> (forall c, In c cuts -> is_valid (midpoint m c) = true) -> m_nodes m2 = m_nodes m1 /\ m_edges m2 = m_edges m1 /\ reversible_tree a m m2).
  Proof.
    intros C U D E2 Hl He Hq (Hn & Hp & Hq'). destruct (collect_row m f U D e He Hp Hq' Hn) as (elements & edges & H & RR).
    destruct (split_main order order_perm m f C U D E2 e edges elements Hl He Hq H RR) as (a & m1 & m2 & cuts & new & S1 & S2 & S3 & S4 & S5 & S6 & S7 & S8).
    destruct RR as (SS & Hin & Ends). destruct (strip_exact m f U D edges elements e SS) as (X & Y); [destruct Ends as [(_ & E)|(_ & E)]; auto|exact Hin|].
    exists a, m1, m2, cuts, new, elements, edges. split; [exact S1|]. split; [exact SS|]. split; [exact X|]. split; [exact Y|]. split; [exact S4|]. split; [intros c; rewrite <- X; apply S5|].
    split; [exact S3|]. split; [exact S2|]. split; [exact S6|]. split; [exact S7|]. split; [exact S8|]. intros A V.
    apply (settled_undo order order_perm m a m1 m2 S6); [|exact S7|exact S8]. apply (split_administrated m f C U E2 cuts new m1 edges elements S2 S3 S4 SS); auto.
    - intros c Hc. apply S5 in Hc. apply Hc.
    - intros ->. destruct Hq as (i & Hi & Fi). destruct (opposite_ok m f U i e Hi Fi) as (o & _ & O). apply (Y i). exists e, o. split; [constructor|exact O].
  Qed.

  Lemma split_refused m f e : (e = None \/ exists k, e = Some k /\ (length (m_edges m) <= k \/ (consistent m /\ live (m_nodes m) (edge_at m k) = false))) ->
    split_row order m f e = Throw ConstraintErr.
  Proof.
    intros [->|(k & -> & H)]; [reflexivity|]. unfold split_row. destruct (Nat.leb_spec (length (m_edges m)) k) as [L|L]; [reflexivity|]. destruct H as [H|(C & H)]; [lia|].
    unfold get_edge. rewrite (nth_error_nth' (m_edges m) missing_edge L). cbn [bind]. change (nth k (m_edges m) missing_edge) with (edge_at m k).
    destruct (edge_at m k) as [[a|] [b|]] eqn:Ee; try reflexivity.
    assert (Hab : a < length (m_nodes m) /\ b < length (m_nodes m)) by (split; apply (co_ends m C (edge_at m k)); try (apply nth_In; exact L); rewrite Ee; unfold ends_in; cbn; auto).
    unfold live, valid_at in H. unfold node_at. destruct (nth_error (m_nodes m) a) as [pa|] eqn:Ea; [|apply nth_error_None in Ea; lia].
    destruct (nth_error (m_nodes m) b) as [pb|] eqn:Eb; [|apply nth_error_None in Eb; lia]. cbn [bind]. destruct (is_valid pa); cbn in *; [rewrite H|]; reflexivity.
  Qed.
  Lemma split_nothing m f e : usable m f -> e < length (m_edges m) -> live (m_nodes m) (edge_at m e) = true -> (forall i, In i (faces_with f e) -> ~ four_edges f i) ->
    split_row order m f (Some e) = Ok None.
  Proof.
    intros U He Hlive Hq. unfold split_row. rewrite (proj2 (Nat.leb_gt _ _)) by exact He. unfold get_edge at 1. rewrite (nth_error_nth' (m_edges m) missing_edge He). change (nth e (m_edges m) missing_edge) with (edge_at m e). cbn [bind].
    unfold live, valid_at in Hlive. destruct (edge_at m e) as [[a|] [b|]] eqn:Ee; try discriminate. apply andb_true_iff in Hlive as (Va & Vb). unfold node_at.
    destruct (nth_error (m_nodes m) a) as [pa|]; [|discriminate]. destruct (nth_error (m_nodes m) b) as [pb|]; [|discriminate]. cbn [bind]. rewrite Va. cbn [bind]. rewrite Vb. cbn [negb].
    rewrite (edge_faces_ok m f U e He). cbn [bind fst snd].
    assert (X : forall k, is_quad f (nth_error (faces_with f e) k) = Ok false).
    { intros k. destruct (quad_of m f U (nth_error (faces_with f e) k)) as (q & H1 & H2); [intros j Hj; apply (with_lt m f U e); eapply nth_error_In; eauto|]. rewrite H1. f_equal. destruct q; [|reflexivity].
      destruct (proj1 H2 eq_refl) as (j & Hj & Fj). exfalso. apply (Hq j); [eapply nth_error_In; eauto|exact Fj]. }
    rewrite (X 0). cbn [bind]. rewrite (X 1). reflexivity.
  Qed.
End Search.


Definition splittable (m : mesh) (f : faces) : Prop := consistent m /\ administrated m /\ usable m f /\ distinct_edges f /\ two_ends m f.
Lemma searched_ok nodes edges : well_indexedb nodes edges = true -> splittable (fst (searched nodes edges)) (snd (searched nodes edges)).
Proof.
  intros Hb. pose proof (well_indexedb_ok _ _ Hb) as Hw. destruct (delete_invalid_spec (Mesh nodes edges [] [] Cartesian) Hw) as (m0 & H0 & Hwf & _).
  change (construct edges nodes Cartesian = Ok m0) in H0. pose proof (well_formed_part_valid _ _ _ _ Hwf) as [_ Hend].
  assert (Hw0 : well_indexed (m_nodes m0) (m_edges m0)).
  { intros e n He Hn. destruct (Hend e He) as (a & b & -> & La & Lb). destruct Hn as [Hn|Hn]; cbn in Hn; injection Hn as <-; auto. }
  destruct (administrate2d_ok angle_order angle_order_perm shoelace_sign m0 Hw0) as (m & f & Hm & Ha & _). unfold searched. rewrite H0, Hm. cbn [fst snd].
  destruct (construct_consistent angle_order angle_order_perm edges nodes Cartesian m0 m Hw H0 Ha) as (C & _ & _ & A). split; [exact C|]. split; [exact A|].
  apply (search_splittable angle_order angle_order_perm shoelace_sign m0 m f Hw0 Hm).
Qed.

(** Deciding what is in a row. *)
Definition mem (x : nat) (l : list nat) : bool := existsb (Nat.eqb x) l.
Lemma mem_in x l : mem x l = true <-> In x l.
Proof. unfold mem. rewrite existsb_exists. split; [intros (y & H & E); apply Nat.eqb_eq in E; now subst|intros H; exists x; split; [exact H|apply Nat.eqb_refl]]. Qed.
Definition closedb (f : faces) (l : list nat) : bool :=
  forallb (fun es => match es with [a; b; c; d] => Bool.eqb (mem a l) (mem c l) && Bool.eqb (mem b l) (mem d l) | _ => true end) (faces_edges f).
Lemma row_within f e l b : closedb f l = true -> In e l -> same_row f e b -> In b l.
Proof.
  intros Hc He H. induction H as [|a b i _ IH (es & k & E1 & E2 & E3 & E4)]; [exact He|]. unfold closedb in Hc. rewrite forallb_forall in Hc. specialize (Hc es (nth_error_In _ _ E1)).
  destruct es as [|x0 [|x1 [|x2 [|x3 [|]]]]]; try discriminate. apply andb_true_iff in Hc as (H1 & H2). apply Bool.eqb_prop in H1, H2. apply mem_in. apply mem_in in IH.
  destruct k as [|[|[|[|k]]]]; cbn in E3, E4; try discriminate; [injection E3 as <-; injection E4 as <-; congruence..|destruct k; discriminate].
Qed.
Definition oncesb (f : faces) (e i : nat) (l : list nat) : bool :=
  closedb f l && mem e l &&
  match nth_error (faces_edges f) i with
  | Some [a; b; c; d] => if e =? a then negb (mem b l) && negb (mem d l) else if e =? b then negb (mem a l) && negb (mem c l) else
      if e =? c then negb (mem b l) && negb (mem d l) else if e =? d then negb (mem a l) && negb (mem c l) else false
  | _ => true
  end.
Lemma oncesb_ok f e i l : oncesb f e i l = true -> passes_once f e i.
Proof.
  intros H es b E Hl Hb R. unfold oncesb in H. apply andb_true_iff in H as (H & H3). apply andb_true_iff in H as (H1 & H2). apply mem_in in H2. pose proof (row_within f e l b H1 H2 R) as M. apply mem_in in M. rewrite E in H3.
  assert (Q : forall k, nth_error es k = Some e -> nth_error es ((k + 2) mod 4) = Some b -> opposite_in f i e b) by (intros k K1 K2; exists es, k; auto).
  destruct es as [|x0 [|x1 [|x2 [|x3 [|]]]]]; try discriminate.
  destruct (Nat.eqb_spec e x0) as [->|_]; [apply andb_true_iff in H3 as (N1 & N2); apply negb_true_iff in N1, N2; destruct Hb as [->|[->|[->|[->|[]]]]]; try congruence; auto; right; apply (Q 0); reflexivity|].
  destruct (Nat.eqb_spec e x1) as [->|_]; [apply andb_true_iff in H3 as (N1 & N2); apply negb_true_iff in N1, N2; destruct Hb as [->|[->|[->|[->|[]]]]]; try congruence; auto; right; apply (Q 1); reflexivity|].
  destruct (Nat.eqb_spec e x2) as [->|_]; [apply andb_true_iff in H3 as (N1 & N2); apply negb_true_iff in N1, N2; destruct Hb as [->|[->|[->|[->|[]]]]]; try congruence; auto; right; apply (Q 2); reflexivity|].
  destruct (Nat.eqb_spec e x3) as [->|_]; [|discriminate]. apply andb_true_iff in H3 as (N1 & N2); apply negb_true_iff in N1, N2; destruct Hb as [->|[->|[->|[->|[]]]]]; try congruence; auto; right; apply (Q 3); reflexivity.
Qed.

Lemma quad_is f i : match nth_error (faces_edges f) i with Some es => length es =? 4 | None => false end = true -> four_edges f i.
Proof. unfold four_edges. destruct (nth_error _ _) as [es|]; [|discriminate]. intros H. apply Nat.eqb_eq in H. eauto. Qed.
Definition e_ (a b : nat) : edge := (Some a, Some b).
(** Two squares in a row and a triangle behind them *)
Definition row_nodes : list point := [pt 0 0; pt 2 0; pt 4 0; pt 0 2; pt 2 2; pt 4 2; pt 6 1].
Definition row_edges : list edge := [e_ 0 1; e_ 1 2; e_ 3 4; e_ 4 5; e_ 0 3; e_ 1 4; e_ 2 5; e_ 2 6; e_ 6 5].
Definition row_mesh : mesh := fst (searched row_nodes row_edges).
Definition row_faces : faces := snd (searched row_nodes row_edges).
Lemma row_facts : splittable row_mesh row_faces.
Proof. apply searched_ok. reflexivity. Qed.
Lemma row_start : regular_start row_faces 5 /\ live (m_nodes row_mesh) (edge_at row_mesh 5) = true /\ (exists i, In i (faces_with row_faces 5) /\ four_edges row_faces i).
Proof.
  assert (E : faces_with row_faces 5 = [1; 2]) by (vm_compute; reflexivity). split; [|split].
  - unfold regular_start. rewrite E. split; [discriminate|]. split.
    + intros i H. cbn [nth_error] in H. injection H as <-. apply (oncesb_ok _ _ _ [4; 5; 6]). vm_compute. reflexivity.
    + intros i H. cbn [nth_error] in H. injection H as <-. apply quad_is; vm_compute; reflexivity.
  - vm_compute. reflexivity.
  - exists 1. rewrite E. split; [left; reflexivity|]. apply quad_is; vm_compute; reflexivity.
Qed.
Definition ends_of_result (r : outcome (option (act mact * mesh * mesh))) : option (list point * list edge) :=
  match r with Ok (Some (_, m1, _)) => Some (m_nodes m1, m_edges m1) | _ => None end.
(** The new nodes are the middles (0, 1) and (2, 1); the edge at the triangle is kept and the second square becomes three triangles, as the new node (2, 1) is joined to both its ends. *)
Lemma row_result_is : ends_of_result (split_row angle_order row_mesh row_faces (Some 5)) =
  Some (row_nodes ++ [pt 2 1; pt 0 1],
    [e_ 0 1; e_ 1 2; e_ 3 4; e_ 4 5; (None, None); (None, None); e_ 2 5; e_ 2 6; e_ 6 5] ++ [e_ 1 7; e_ 7 4; e_ 2 7; e_ 7 5; e_ 0 8; e_ 8 3; e_ 7 8]).
Proof. vm_compute. reflexivity. Qed.

(** Four cells around a square *)
Definition ring_nodes : list point := [pt 0 0; pt 6 0; pt 6 6; pt 0 6; pt 2 2; pt 4 2; pt 4 4; pt 2 4].
Definition ring_edges : list edge := [e_ 0 1; e_ 1 2; e_ 2 3; e_ 3 0; e_ 4 5; e_ 5 6; e_ 6 7; e_ 7 4; e_ 0 4; e_ 1 5; e_ 2 6; e_ 3 7].
Definition ring_mesh : mesh := fst (searched ring_nodes ring_edges).
Definition ring_faces : faces := snd (searched ring_nodes ring_edges).
Lemma ring_facts : splittable ring_mesh ring_faces.
Proof. apply searched_ok. reflexivity. Qed.
Lemma ring_start : regular_start ring_faces 8 /\ collect ring_mesh ring_faces 8 = Ok (Some ([0; 2; 3; 1], [8; 9; 10; 11; 8])).
Proof.
  assert (E : faces_with ring_faces 8 = [0; 1]) by (vm_compute; reflexivity). split.
  - unfold regular_start. rewrite E. split; [discriminate|]. split.
    + intros i H. cbn [nth_error] in H. injection H as <-. apply (oncesb_ok _ _ _ [8; 9; 10; 11]). vm_compute. reflexivity.
    + intros i H. cbn [nth_error] in H. injection H as <-. apply quad_is; vm_compute; reflexivity.
  - vm_compute. reflexivity.
Qed.

(** A row that crosses itself *)
Definition knot_nodes : list point := [pt 0 0; pt (-2) 0; pt (-2) (-2); pt 0 (-2); pt 2 0; pt 2 2; pt 0 2; pt (-3) 3; pt (-3) (-3); pt 3 (-3)].
Definition knot_edges : list edge := [e_ 0 1; e_ 1 2; e_ 2 3; e_ 3 0; e_ 0 4; e_ 4 5; e_ 5 6; e_ 6 0; e_ 1 7; e_ 7 6; e_ 2 8; e_ 8 7; e_ 3 9; e_ 9 8; e_ 4 9].
Definition knot_mesh : mesh := fst (searched knot_nodes knot_edges).
Definition knot_faces : faces := snd (searched knot_nodes knot_edges).
Lemma incomplete : exists m f e elements edges, splittable m f /\ (forall i, i < num_faces f -> four_edges f i) /\ collect m f e = Ok (Some (elements, edges)) /\ exists b, same_row f e b /\ ~ In b edges.
Proof.
  exists knot_mesh, knot_faces, 4, [1; 4; 5; 3; 0], [7; 8; 10; 12; 4; 6]. split; [apply searched_ok; reflexivity|]. split.
  - assert (E : num_faces knot_faces = 6) by (vm_compute; reflexivity). rewrite E. intros i Hi. assert (Q : forallb (fun es => length es =? 4) (faces_edges knot_faces) = true) by (vm_compute; reflexivity).
    assert (L : length (faces_edges knot_faces) = 6) by (vm_compute; reflexivity). destruct (nth_error (faces_edges knot_faces) i) as [es|] eqn:Ei; [|apply nth_error_None in Ei; lia].
    exists es. split; [exact Ei|]. rewrite forallb_forall in Q. apply Nat.eqb_eq, Q. eapply nth_error_In; eauto.
  - split; [vm_compute; reflexivity|]. exists 5. split.
    + assert (O : forall a b i k es, nth_error (faces_edges knot_faces) i = Some es -> length es = 4 -> nth_error es k = Some a -> nth_error es ((k + 2) mod 4) = Some b -> same_row knot_faces 4 a -> same_row knot_faces 4 b).
      { intros a b i k es H1 H2 H3 H4 R. apply (row_next _ _ a b i R). exists es, k. auto. }
      assert (FE : faces_edges knot_faces = [[4; 5; 6; 7]; [7; 9; 8; 0]; [0; 1; 2; 3]; [3; 12; 14; 4]; [8; 11; 10; 1]; [10; 13; 12; 2]]) by (vm_compute; reflexivity).
      rewrite FE in O. apply (O 7 5 0 3 [4; 5; 6; 7]); try reflexivity. apply (O 8 7 1 2 [7; 9; 8; 0]); try reflexivity. apply (O 10 8 4 2 [8; 11; 10; 1]); try reflexivity.
      apply (O 12 10 5 2 [10; 13; 12; 2]); try reflexivity. apply (O 4 12 3 3 [3; 12; 14; 4]); try reflexivity. constructor.
    + intros H. cbn in H. repeat (destruct H as [H|H]; [discriminate|]). exact H.
Qed.

(** Two squares and a pentagon behind them *)
Definition penta_nodes : list point := [pt 0 0; pt 2 0; pt 4 0; pt 0 2; pt 2 2; pt 4 2; pt 6 (-1); pt 7 1; pt 6 3].
Definition penta_edges : list edge := [e_ 0 1; e_ 1 2; e_ 3 4; e_ 4 5; e_ 0 3; e_ 1 4; e_ 2 5; e_ 2 6; e_ 6 7; e_ 7 8; e_ 8 5].
Definition penta_mesh : mesh := fst (searched penta_nodes penta_edges).
Definition penta_faces : faces := snd (searched penta_nodes penta_edges).
Lemma twice : exists m f e elements edges, splittable m f /\ collect m f e = Ok (Some (elements, edges)) /\ (exists i es, nth_error edges i = Some es /\ nth_error edges (S i) = Some es) /\
  live (m_nodes m) (edge_at m e) = true /\ (exists i, In i (faces_with f e) /\ four_edges f i) /\ passes_once f e (nth 0 (faces_with f e) 0) /\ split_row angle_order m f (Some e) = UB.
Proof.
  exists penta_mesh, penta_faces, 6, [1; 0], [6; 6; 5; 4]. split; [apply searched_ok; reflexivity|]. split; [vm_compute; reflexivity|]. split; [exists 0, 6; split; reflexivity|].
  split; [vm_compute; reflexivity|]. assert (E : faces_with penta_faces 6 = [1; 2]) by (vm_compute; reflexivity). rewrite E. split.
  - exists 1. split; [left; reflexivity|]. apply quad_is; vm_compute; reflexivity.
  - split; [apply (oncesb_ok _ _ _ [4; 5; 6]); vm_compute; reflexivity|vm_compute; reflexivity].
Qed.

(** A node that is not connected to anything is lost: the administration afterwards deletes it and does not record that *)
Definition lonely_mesh : mesh := match insert_node angle_order row_mesh (pt 9 9) with Ok (_, _, m) => m | _ => row_mesh end.
Definition undo_loses (r : outcome (option (act mact * mesh * mesh))) (n : nat) : bool :=
  match r with Ok (Some (a, _, m2)) => match restore_act (restore_leaf angle_order) a m2 with Ok (_, m') => negb (valid_at (m_nodes m') n) | _ => false end | _ => false end.
Lemma undo_loses_ok r n : undo_loses r n = true -> exists a m1 m2 a' m', r = Ok (Some (a, m1, m2)) /\ restore_act (restore_leaf angle_order) a m2 = Ok (a', m') /\ valid_at (m_nodes m') n = false.
Proof.
  unfold undo_loses. destruct r as [[[[a m1] m2]|]|?|]; try discriminate. destruct (restore_act (restore_leaf angle_order) a m2) as [[a' m']|?|] eqn:ER; try discriminate.
  intros H. apply negb_true_iff in H. exists a, m1, m2, a', m'. auto.
Qed.
Lemma node_lost : exists m f e a m1 m2 a' m', consistent m /\ usable m f /\ distinct_edges f /\ two_ends m f /\ live (m_nodes m) (edge_at m e) = true /\
  (exists i, In i (faces_with f e) /\ four_edges f i) /\ regular_start f e /\ split_row angle_order m f (Some e) = Ok (Some (a, m1, m2)) /\
  restore_act (restore_leaf angle_order) a m2 = Ok (a', m') /\ exists n, valid_at (m_nodes m) n = true /\ valid_at (m_nodes m') n = false.
Proof.
  destruct row_facts as (C & _ & (T & U) & D & E2). destruct row_start as (RS & _ & Q).
  destruct (insert_node_ok angle_order row_mesh (pt 9 9) C) as (m' & H & Hn & He & _ & _ & Hc).
  assert (Em : lonely_mesh = m') by (unfold lonely_mesh; rewrite H; reflexivity). rewrite <- Em in *. clear H Em m'.
  assert (Rb : undo_loses (split_row angle_order lonely_mesh row_faces (Some 5)) 7 = true) by (vm_compute; reflexivity).
  assert (R : exists a m1 m2 a' m', split_row angle_order lonely_mesh row_faces (Some 5) = Ok (Some (a, m1, m2)) /\ restore_act (restore_leaf angle_order) a m2 = Ok (a', m') /\ valid_at (m_nodes m') 7 = false)
    by exact (undo_loses_ok _ _ Rb).
  destruct R as (a & m1 & m2 & a' & m' & R1 & R2 & R3). exists lonely_mesh, row_faces, 5, a, m1, m2, a', m'.
  split; [exact Hc|]. split.
  { unfold usable, tables_agree in *. rewrite Hn, He. split; [exact T|]. intros i ns es H1 H2. destruct (U i ns es H1 H2) as (A1 & A2 & A3 & A4). split; [exact A1|]. split; [exact A2|]. split; [|exact A4].
    intros n Hin. rewrite app_length. specialize (A3 n Hin). lia. }
  split; [exact D|]. split; [intros es c H1 H2; unfold edge_at; rewrite He; apply (E2 es c H1 H2)|]. split; [vm_compute; reflexivity|]. split; [exact Q|]. split; [exact RS|]. split; [exact R1|]. split; [exact R2|].
  exists 7. split; [vm_compute; reflexivity|exact R3].
Qed.

(** The new nodes of the Casulli refinement. *)
From Coq Require Import Permutation.
From Verif Require Import Base BaseLemmas FloatModel FloatProofs UndoModel UndoSpec UndoProofs ActionModel ActionSpec ActionProofs
  MeshModel MeshSpec MeshProofs MeshAdj MeshConstruct MeshUndo MeshEdits MeshEdits2 MeshFacts FaceModel FaceSpec FlipModel FlipSpec FlipProofs NodeTypeModel NodeTypeSpec NodeTypeProofs
  FaceUseModel FaceUseSpec SplitModel SplitEffect RefineProofs RefineSplit CasulliModel CasulliSpec CasulliWalk CasulliMask CasulliTable.

Lemma nodup_both {A} (l r : list A) : NoDup l -> NoDup r -> (forall x, In x l -> ~ In x r) -> NoDup (l ++ r).
Proof.
  intros H1 H2 H3. induction H1 as [|x l Hx H1 IH]; [exact H2|]. cbn. constructor; [|apply IH; intros y Hy; apply H3; now right]. rewrite in_app_iff. intros [X|X]; [contradiction|]. exact (H3 x (or_introl eq_refl) X).
Qed.
Lemma index_at c l1 l2 : ~ In c l1 -> index_of c (l1 ++ c :: l2) = length l1.
Proof.
  induction l1 as [|x l1 IH]; intros H; cbn [app index_of length].
  - now rewrite !Nat.eqb_refl.
  - destruct (Nat.eqb_spec (fst c) (fst x)); [destruct (Nat.eqb_spec (snd c) (snd x))|]; cbn [andb]; try (f_equal; apply IH; intros X; apply H; now right).
    exfalso. apply H. left. destruct c, x; cbn in *; congruence.
Qed.
Lemma index_lt c l : In c l -> index_of c l < length l.
Proof.
  intros H. induction l as [|x l IH]; [easy|]. cbn [index_of length]. destruct ((fst c =? fst x) && (snd c =? snd x)) eqn:Q; [lia|]. destruct H as [->|H]; [rewrite !Nat.eqb_refl in Q; discriminate|]. specialize (IH H). lia.
Qed.
Lemma fold_split {A B} (step : A -> B -> outcome A) (P : list B -> A -> Prop) (l : list B) : forall todo done s, l = done ++ todo -> P done s ->
  (forall done c rest s, l = done ++ c :: rest -> P done s -> exists s', step s c = Ok s' /\ P (done ++ [c]) s') ->
  exists s', fold_out step todo s = Ok s' /\ P l s'.
Proof.
  induction todo as [|c todo IH]; intros done s E H Hs.
  - rewrite app_nil_r in E. subst. exists s. auto.
  - destruct (Hs done c todo s E H) as (s' & X & H'). cbn [fold_out]. rewrite X. cbn [bind]. apply (IH (done ++ [c])); [now rewrite <- app_assoc|exact H'|exact Hs].
Qed.
Lemma fold_flat {A B C} (g : B -> A -> C -> outcome A) (l : B -> list C) is : forall s,
  fold_out (fun s i => fold_out (g i) (l i) s) is s = fold_out (fun s c => g (fst c) s (snd c)) (flat_map (fun i => map (pair i) (l i)) is) s.
Proof.
  induction is as [|i is IH]; intros s; [reflexivity|]. cbn [fold_out flat_map]. rewrite fold_out_app.
  assert (Q : forall cs s, fold_out (fun s c => g (fst c) s (snd c)) (map (pair i) cs) s = fold_out (g i) cs s).
  { induction cs as [|c cs IHc]; intros s0; [reflexivity|]. cbn [map fold_out fst snd]. destruct (g i s0 c); cbn [bind]; auto. }
  rewrite Q. destruct (fold_out (g i) (l i) s); cbn [bind]; auto.
Qed.
Lemma fold_vget {A B} (g : A -> B -> outcome A) (ns : list B) : forall s, fold_out (fun s j => let! n := vget ns j in g s n) (seq 0 (length ns)) s = fold_out g ns s.
Proof.
  assert (G : forall todo done s, ns = done ++ todo -> fold_out (fun s j => let! n := vget ns j in g s n) (seq (length done) (length todo)) s = fold_out g todo s).
  { induction todo as [|x todo IH]; intros done s Q; [reflexivity|]. cbn [length seq fold_out]. replace (vget ns (length done)) with (Ok x).
    - cbn [bind]. destruct (g s x); cbn [bind]; auto. specialize (IH (done ++ [x]) a). rewrite app_length, Nat.add_1_r in IH. apply IH. now rewrite <- app_assoc.
    - symmetry. apply vget_some. rewrite Q, nth_error_app2, Nat.sub_diag by lia. reflexivity. }
  intros s. exact (G ns [] s eq_refl).
Qed.

Section Nodes.
  Variable order : list point -> list edge -> nat -> list (option nat) -> list (option nat).
  Hypothesis order_perm : forall nodes edges n row, Permutation row (order nodes edges n row).
  Notation tree_ok := (recC (restore_leaf order) (commit_leaf order) mesh_le).
  Notation list_ok := (recC_all (restore_leaf order) (commit_leaf order) mesh_le).
  Variable m : mesh.
  Variable f : faces.
  Variable centres : list point.
  Variable masks : list mask.
  Hypothesis I : in_step m f.
  Hypothesis O : oriented f.
  Hypothesis A : apart f.
  Hypothesis Hcen : length centres = num_faces f.
  Hypothesis Old : forall n, lt_mask (nth n masks Unassigned) Unassigned = false.
  Hypothesis Room : length (m_nodes m) + length (corners masks f) + length (sides masks m f) <= length masks.
  Local Notation N := (length (m_nodes m)).
  Local Notation E := (length (m_edges m)).
  Local Notation C := (length (corners masks f)).
  Local Notation mk := (fun c : nat * nat => marked masks (snd c)).
  Local Notation T := (fun s => tget (g_table s)).

  Lemma marked_lt n : marked masks n = lt_mask Unassigned (nth n masks Unassigned).
  Proof. unfold marked. destruct (nth n masks Unassigned); reflexivity. Qed.
  Lemma marked_eq n : marked masks n = negb (eq_mask (nth n masks Unassigned) Unassigned).
  Proof. specialize (Old n). unfold marked. destruct (nth n masks Unassigned); cbn in *; congruence || reflexivity. Qed.

  Lemma grow_more m1 ps p : m1 = grow m ps [] -> consistent m1 -> exists m2 a, insert_node order m1 p = Ok (N + length ps, a, m2) /\ act_state a = Committed /\ tree_ok a m1 m2 /\ consistent m2 /\ m2 = grow m (ps ++ [p]) [].
  Proof.
    intros Em Hc. destruct (insert_node_table order m1 p Hc) as (m2 & E2 & H & Tr & C2). exists m2. eexists. split; [|split; [|split; [exact Tr|split; [exact C2|]]]].
    - rewrite H. rewrite Em. cbn. rewrite app_length. reflexivity.
    - reflexivity.
    - rewrite E2, Em. unfold grow. cbn [m_nodes m_edges m_nodesNumEdges m_nodesEdges m_projection map]. rewrite !app_length, !repeat_app. cbn [length repeat]. rewrite !app_assoc. reflexivity.
  Qed.

  (** *** Corners of faces *)
  Definition all_corners : list (nat * nat) := flat_map (fun i => map (pair i) (nth i (faces_nodes f) [])) (seq 0 (num_faces f)).
  Lemma all_corners_in i n : In (i, n) all_corners <-> exists ns, nth_error (faces_nodes f) i = Some ns /\ In n ns.
  Proof using f. clear Hcen Room.
    unfold all_corners. rewrite in_flat_map. split.
    - intros (j & Hj & H). apply in_map_iff in H as (x & Q & Hx). injection Q as -> ->. apply in_seq in Hj. unfold num_faces in Hj. destruct (nth_error (faces_nodes f) i) as [ns|] eqn:E1; [|apply nth_error_None in E1; lia].
      rewrite (nth_error_nth _ _ [] E1) in Hx. eauto.
    - intros (ns & H & Hn). exists i. split; [apply in_seq; unfold num_faces; assert (i < length (faces_nodes f)) by (apply nth_error_Some; congruence); lia|]. rewrite (nth_error_nth _ _ [] H). now apply in_map.
  Qed.
  Lemma all_corners_nodup : NoDup all_corners.
  Proof using m f I. clear Hcen Room.
    unfold all_corners. assert (G : forall is, NoDup is -> NoDup (flat_map (fun i => map (pair i) (nth i (faces_nodes f) [])) is)).
    { induction is as [|i is IH]; intros ND; [constructor|]. inversion ND; subst. cbn [flat_map]. apply nodup_both.
      - apply FinFun.Injective_map_NoDup; [intros x y Q; congruence|]. destruct (nth_error (faces_nodes f) i) as [ns|] eqn:E1; [|apply nth_error_None in E1; rewrite nth_overflow by exact E1; constructor].
        rewrite (nth_error_nth _ _ [] E1). destruct (face_both m f I i ns E1) as (es & E2). apply (face_parts m f I i ns es E1 E2).
      - now apply IH.
      - intros (j, n) X1 X2. apply in_map_iff in X1 as (x & Q & _). injection Q as <- _. apply in_flat_map in X2 as (k & Hk & X2). apply in_map_iff in X2 as (y & Q & _). injection Q as -> _. contradiction. }
    apply G, seq_NoDup.
  Qed.

  Definition inv1 (done : list (nat * nat)) (s : growing) : Prop :=
    g_mesh s = grow m (map (corner_point m centres) (filter mk done)) [] /\ consistent (g_mesh s) /\ list_ok (g_acts s) m (g_mesh s) /\
    (length (g_masks s) = length masks /\ forall n, nth n (g_masks s) Unassigned = if (N <=? n) && (n <? N + length (filter mk done)) then NewAssigned else nth n masks Unassigned) /\
    shaped E (g_table s) /\ forall e k, e < E ->
      (forall i n, In (i, n) done -> lists f i e -> ends_in (edge_at m e) n -> slot m e n (dir m f i e) = k -> tget (g_table s) e k = Some (in_face masks m f i n)) /\
      ((forall i n, In (i, n) done -> lists f i e -> ends_in (edge_at m e) n -> slot m e n (dir m f i e) <> k) -> tget (g_table s) e k = None).

  Lemma corner_new done i n s rest : all_corners = done ++ (i, n) :: rest -> inv1 done s -> n < N -> i < num_faces f ->
    exists new s', (let! v := vget (g_masks s) n in
      (if lt_mask Unassigned v then let! c := vget centres i in let! p := node_at (g_mesh s) (Some n) in add_node order (middle c p) NewAssigned s else Ok (n, s))) = Ok (new, s') /\
      new = in_face masks m f i n /\ g_table s' = g_table s /\
      g_mesh s' = grow m (map (corner_point m centres) (filter mk (done ++ [(i, n)]))) [] /\ consistent (g_mesh s') /\ list_ok (g_acts s') m (g_mesh s') /\
      (length (g_masks s') = length masks /\ forall x, nth x (g_masks s') Unassigned = if (N <=? x) && (x <? N + length (filter mk (done ++ [(i, n)]))) then NewAssigned else nth x masks Unassigned).
  Proof.
    intros Ea (Em & Hc & Ha & (Lm & Gm) & _) Hn Hi. rewrite (nth_vget _ n Unassigned) by lia. cbn [bind]. rewrite Gm. rewrite (proj2 (Nat.leb_gt N n) Hn). cbn [andb]. rewrite <- marked_lt.
    rewrite filter_app. cbn [filter snd]. unfold in_face. destruct (marked masks n) eqn:Mn.
    - rewrite (nth_vget centres i missing_point) by lia. cbn [bind]. unfold node_at. rewrite Em. unfold grow at 1. cbn [m_nodes]. rewrite nth_error_app1 by exact Hn. rewrite (nth_error_nth' _ missing_point Hn). cbn [bind].
      unfold add_node. destruct (grow_more (g_mesh s) _ (middle (nth i centres missing_point) (nth n (m_nodes m) missing_point)) Em Hc) as (m2 & a & -> & Hs & Tr & C2 & E2). cbn [bind].
      unfold compound_add. rewrite Hs. cbn [bind]. rewrite map_length.
      assert (Cq : corners masks f = filter mk done ++ (i, n) :: filter mk rest) by (unfold corners; fold all_corners; rewrite Ea, filter_app; cbn [filter snd]; rewrite Mn; reflexivity).
      assert (Lc : N + length (filter mk done) < length masks) by (pose proof Room as R; rewrite Cq, app_length in R; cbn in R; lia).
      rewrite vset_lt by lia. cbn [bind]. eexists. eexists. split; [reflexivity|]. cbn [g_table g_mesh g_acts g_masks]. rewrite map_app. cbn [map]. unfold corner_point at 2. cbn [fst snd]. unfold old_point.
      split; [|split; [reflexivity|split; [exact E2|split; [exact C2|split; [eapply list_snoc; eauto|split; [now rewrite set_nth_length|]]]]]].
      + f_equal. rewrite Cq, index_at; [reflexivity|]. intros X. apply filter_In in X as (X & _). pose proof all_corners_nodup as ND. rewrite Ea in ND. apply NoDup_remove_2 in ND. apply ND. apply in_or_app. now left.
      + intros x. rewrite nth_set by lia. rewrite app_length. cbn [length]. rewrite Gm. destruct (Nat.eqb_spec x (N + length (filter mk done))) as [->|Dx].
        * rewrite (proj2 (Nat.leb_le _ _)) by lia. rewrite (proj2 (Nat.ltb_lt _ _)) by lia. reflexivity.
        * replace (x <? N + (length (filter mk done) + 1)) with (x <? N + length (filter mk done)); [reflexivity|]. destruct (Nat.ltb_spec x (N + length (filter mk done))), (Nat.ltb_spec x (N + (length (filter mk done) + 1))); lia || reflexivity.
    - exists n, s. rewrite !app_nil_r. split; [reflexivity|]. split; [reflexivity|]. auto 10.
  Qed.

  Lemma corner_ok done c rest s : all_corners = done ++ c :: rest -> inv1 done s -> exists s', corner_step order f centres (fst c) s (snd c) = Ok s' /\ inv1 (done ++ [c]) s'.
  Proof.
    intros Ea H. destruct c as (i, n). cbn [fst snd]. assert (Hin : In (i, n) all_corners) by (rewrite Ea; apply in_or_app; right; now left). apply all_corners_in in Hin as (ns & Ns & Hn).
    destruct (face_both m f I i ns Ns) as (es & Es). destruct (face_parts m f I i ns es Ns Es) as (_ & _ & _ & _ & _ & Bn & Be). pose proof (edges_nodup m f I i es Es) as ND.
    assert (Hi : i < num_faces f) by (unfold num_faces; apply nth_error_Some; congruence).
    pose proof H as (Em & Hc & Ha & _ & Sh & Tb). assert (Ed : m_edges (g_mesh s) = m_edges m) by (rewrite Em; cbn; now rewrite app_nil_r).
    unfold corner_step. rewrite (vget_some _ _ _ Es). cbn [bind].
    destruct (face_at m f I i n ns Ns Hn) as (a & b & x & y & Wx & Wy & Dxy & _). destruct (walks_facts m f I _ _ _ _ Wx) as (_ & Jx & _ & _ & _ & Lx). destruct (walks_facts m f I _ _ _ _ Wy) as (_ & Jy & _ & _ & _ & Ly).
    assert (Ins : forall z, lists f i z <-> In z es) by (intros z; split; [intros (es' & X & Y); rewrite Es in X; injection X as <-; exact Y|intros X; exists es; auto]).
    destruct (edges_at_ok m (g_mesh s) Ed n es ND Be) as (e1 & e2 & -> & D & I1 & I2 & N1 & N2).
    { exists x, y. rewrite <- !Ins. split; [exact Lx|]. split; [exact Ly|]. split; [exact Dxy|]. split; [apply (joins_end _ _ _ Jx)|apply (joins_end _ _ _ Jy)]. }
    apply Ins in I1, I2. cbn [bind]. destruct (corner_new done i n s rest Ea H (Bn n Hn) Hi) as (new & s1 & X & En & Et & Em1 & Hc1 & Ha1 & Hm1).
    destruct (vget (g_masks s) n) as [v| |]; cbn [bind] in X |- *; try discriminate. rewrite X. cbn [bind]. unfold keep.
    assert (Ed1 : m_edges (g_mesh s1) = m_edges m) by (rewrite Em1; cbn; now rewrite app_nil_r). rewrite Et.
    destruct (store_corner m f I A (g_mesh s1) Ed1 i n e1 e2 new (g_table s) Sh D I1 I2 N1 N2) as (t' & -> & Sh' & G). cbn [bind]. eexists. split; [reflexivity|].
    unfold inv1. cbn [g_mesh g_acts g_masks g_table]. split; [exact Em1|]. split; [exact Hc1|]. split; [exact Ha1|]. split; [exact Hm1|]. split; [exact Sh'|].
    assert (Nin : ~ In (i, n) done) by (intros Q; pose proof all_corners_nodup as NDa; rewrite Ea in NDa; apply NoDup_remove_2 in NDa; apply NDa, in_or_app; now left).
    assert (Fresh : forall e i' n', In (i', n') done -> lists f i e -> ends_in (edge_at m e) n -> lists f i' e -> ends_in (edge_at m e) n' -> slot m e n' (dir m f i' e) <> slot m e n (dir m f i e)).
    { intros e i' n' Hd L1 E1 L2 E2 Q. destruct (slot_inj m f I e n' n _ _ i L1 E2 E1 (dir_le m f i' e) (dir_le m f i e) Q) as (-> & Qd). assert (i' = i) by (eapply (dir_inj m f I O); eauto). subst. contradiction. }
    assert (Two : forall e, lists f i e -> ends_in (edge_at m e) n -> (e =? e1) || (e =? e2) = true).
    { intros e L1 E1. destruct (face_two m f I i n e1 e2 e I1 I2 L1 N1 N2 E1 D) as [->| ->]; rewrite Nat.eqb_refl, ?orb_true_r; reflexivity. }
    assert (Two' : forall e, (e =? e1) || (e =? e2) = true -> lists f i e /\ ends_in (edge_at m e) n).
    { intros e Q. apply orb_prop in Q as [Q|Q]; apply Nat.eqb_eq in Q; subst e; auto. }
    intros e k He. destruct (Tb e k He) as (T1 & T2). rewrite G. split.
    - intros i' n' Hin L E1 Sk. apply in_app_or in Hin as [Hin|[Hin|[]]].
      + destruct (((e =? e1) || (e =? e2)) && (k =? slot m e n (dir m f i e))) eqn:Q.
        * exfalso. apply andb_prop in Q as (Q1 & Q2). apply Two' in Q1 as (La & Ea'). apply Nat.eqb_eq in Q2. apply (Fresh e i' n' Hin La Ea' L E1). congruence.
        * now apply T1 with (n := n').
      + injection Hin as <- <-. rewrite (Two e L E1), Sk, Nat.eqb_refl. cbn [andb]. rewrite T2; [congruence|]. intros i' n' Hd L' E'. rewrite <- Sk. now apply Fresh.
    - intros Q. destruct (((e =? e1) || (e =? e2)) && (k =? slot m e n (dir m f i e))) eqn:Q'.
      + exfalso. apply andb_prop in Q' as (Q1 & Q2). apply Two' in Q1 as (La & Ea'). apply Nat.eqb_eq in Q2. apply (Q i n); auto. apply in_or_app. right. now left.
      + apply T2. intros i' n' Hd. apply Q. apply in_or_app. now left.
  Qed.
  Lemma corners_phase : exists s, fold_out (face_step order f centres) (seq 0 (num_faces f)) (Growing m [] masks (repeat [None; None; None; None] E)) = Ok s /\ inv1 all_corners s.
  Proof.
    rewrite (fold_out_ext _ (fun s i => fold_out (corner_step order f centres i) (nth i (faces_nodes f) []) s)).
    2:{ intros s i Hi. apply in_seq in Hi. unfold face_step. destruct (st_tables m f I) as (_ & T2 & _). assert (Hi' : i < length (faces_nodes f)) by (unfold num_faces in Hi; lia). pose proof (nth_error_nth' _ [] Hi') as Ns.
        assert (Cn : nth_error (num_faces_nodes f) i = Some (length (nth i (faces_nodes f) []))) by (rewrite T2, nth_error_map, Ns; reflexivity).
        rewrite (vget_some _ _ _ Cn), (vget_some _ _ _ Ns). cbn [bind]. apply (fold_vget (corner_step order f centres i)). }
    rewrite (fold_flat (corner_step order f centres)). fold all_corners. apply (fold_split _ inv1 all_corners all_corners []); [reflexivity| |intros; eapply corner_ok; eauto].
    unfold inv1. cbn [g_mesh g_acts g_masks g_table filter map length]. split; [|split; [exact (st_mesh m f I)|split; [constructor; apply mesh_le_refl|split; [split; [reflexivity|]|split]]]].
    - unfold grow. cbn. rewrite !app_nil_r. now destruct m.
    - intros n. destruct (Nat.leb_spec N n), (Nat.ltb_spec n (N + 0)); cbn [andb]; try lia; reflexivity.
    - split; [apply repeat_length|]. intros e He. rewrite nth_indep with (d' := [None; None; None; None]) by (rewrite repeat_length; exact He). now rewrite nth_repeat.
    - intros e k He. split; [intros i n []|]. intros _. unfold tget. rewrite (nth_indep _ [] [None; None; None; None]) by (rewrite repeat_length; exact He). rewrite nth_repeat. now destruct k as [|[|[|[|[|k]]]]].
  Qed.

  (** *** Ends of boundary edges *)
  Definition sides_to (k : nat) : list (nat * nat) := flat_map (two_of m) (filter (single f) (seq 0 k)).
  Lemma single_ok e : e < E -> (single f e = true <-> on_boundary f e).
  Proof using m f I. clear Hcen Room. intros He. exact (sgl_ok m f I e He). Qed.
  Lemma sides_to_in k e n : k <= E -> (In (e, n) (sides_to k) <-> e < k /\ on_boundary f e /\ ends_in (edge_at m e) n).
  Proof using m f I. clear Hcen Room.
    intros Hk. unfold sides_to. rewrite in_flat_map. split.
    - intros (x & Hx & H). apply filter_In in Hx as (Hx & S). apply in_seq in Hx. apply single_ok in S; [|lia]. destruct (rim_face f x S) as (i & L & _). destruct (used_ends m f I x i L) as (a & b & Ee & _). unfold two_of in H. rewrite Ee in H.
      destruct H as [H|[H|[]]]; injection H as <- <-; rewrite Ee; (split; [lia|]); (split; [exact S|]); [left|right]; reflexivity.
    - intros (He & S & H). exists e. split; [apply filter_In; split; [apply in_seq; lia|apply single_ok; [lia|exact S]]|]. destruct (rim_face f e S) as (i & L & _). destruct (used_ends m f I e i L) as (a & b & Ee & _). unfold two_of. rewrite Ee in *.
      destruct H as [H|H]; cbn in H; injection H as ->; cbn; auto.
  Qed.
  Lemma sides_eq : sides masks m f = filter mk (sides_to E).
  Proof. reflexivity. Qed.
  Lemma sides_more k j : exists rest, sides_to (k + j) = sides_to k ++ rest.
  Proof. exists (flat_map (two_of m) (filter (single f) (seq k j))). unfold sides_to. rewrite seq_app, filter_app, flat_map_app. reflexivity. Qed.
  Lemma sides_S k : sides_to (S k) = sides_to k ++ (if single f k then two_of m k else []).
  Proof. unfold sides_to. rewrite seq_S, filter_app, flat_map_app. cbn. destruct (single f k); cbn; [now rewrite app_nil_r|reflexivity]. Qed.

  Section Sides.
    Variable m1 : mesh.
    Variable t1 : list (list (option nat)).
    Hypothesis Free : forall e k i n, e < E -> on_boundary f e -> lists f i e -> ends_in (edge_at m e) n -> slot m e n (1 - dir m f i e) = k -> tget t1 e k = None.

    Definition inv2 (done : list (nat * nat)) (s : growing) : Prop :=
      g_mesh s = grow m (map (corner_point m centres) (corners masks f) ++ map (side_point m) (filter mk done)) [] /\ consistent (g_mesh s) /\ list_ok (g_acts s) m1 (g_mesh s) /\
      (length (g_masks s) = length masks /\ forall n, nth n (g_masks s) Unassigned =
         if (N <=? n) && (n <? N + C) then NewAssigned else if (N + C <=? n) && (n <? N + C + length (filter mk done)) then NewGeneral else nth n masks Unassigned) /\
      shaped E (g_table s) /\ forall e k, e < E ->
        (forall i n, In (e, n) done -> lists f i e -> ends_in (edge_at m e) n -> slot m e n (1 - dir m f i e) = k -> tget (g_table s) e k = Some (at_side masks m f e n)) /\
        ((forall i n, In (e, n) done -> lists f i e -> ends_in (edge_at m e) n -> slot m e n (1 - dir m f i e) <> k) -> tget (g_table s) e k = tget t1 e k).

    Lemma side_ok done e n a b rest s : sides_to E = done ++ (e, n) :: rest -> ~ In (e, n) done -> inv2 done s -> e < E -> on_boundary f e -> edge_at m e = (Some a, Some b) -> n = a \/ n = b -> n < N ->
      exists s', end_step order f e (middle (old_point m a) (old_point m b)) s n = Ok s' /\ inv2 (done ++ [(e, n)]) s'.
    Proof.
      intros Ea Nin (Em & Hc & Ha & (Lm & Gm) & Sh & Tb) He Bd Ee Hn Bn. unfold end_step. rewrite (nth_vget _ n Unassigned) by lia. cbn [bind]. rewrite Gm.
      rewrite (proj2 (Nat.leb_gt N n) Bn). rewrite (proj2 (Nat.leb_gt (N + C) n)) by lia. cbn [andb].
      assert (New : exists new s1, (if eq_mask (nth n masks Unassigned) Unassigned then Ok (n, s) else let! p := node_at (g_mesh s) (Some n) in add_node order (middle (middle (old_point m a) (old_point m b)) p) NewGeneral s) = Ok (new, s1) /\
        new = at_side masks m f e n /\ g_table s1 = g_table s /\
        g_mesh s1 = grow m (map (corner_point m centres) (corners masks f) ++ map (side_point m) (filter mk (done ++ [(e, n)]))) [] /\ consistent (g_mesh s1) /\ list_ok (g_acts s1) m1 (g_mesh s1) /\
        (length (g_masks s1) = length masks /\ forall x, nth x (g_masks s1) Unassigned =
           if (N <=? x) && (x <? N + C) then NewAssigned else if (N + C <=? x) && (x <? N + C + length (filter mk (done ++ [(e, n)]))) then NewGeneral else nth x masks Unassigned)).
      { pose proof (marked_eq n) as Mq. rewrite filter_app. cbn [filter snd]. unfold at_side. destruct (eq_mask (nth n masks Unassigned) Unassigned); cbn [negb] in Mq; rewrite Mq.
        - exists n, s. rewrite !app_nil_r. split; [reflexivity|]. split; [reflexivity|]. auto 10.
        - unfold node_at. rewrite Em. unfold grow at 1. cbn [m_nodes]. rewrite nth_error_app1 by exact Bn. rewrite (nth_error_nth' _ missing_point Bn). cbn [bind].
          unfold add_node. destruct (grow_more (g_mesh s) _ (middle (middle (old_point m a) (old_point m b)) (nth n (m_nodes m) missing_point)) Em Hc) as (m2 & x & -> & Hs & Tr & C2 & E2). cbn [bind].
          unfold compound_add. rewrite Hs. cbn [bind]. rewrite app_length, !map_length.
          assert (Cq : sides masks m f = filter mk done ++ (e, n) :: filter mk rest) by (rewrite sides_eq, Ea, filter_app; cbn [filter snd]; rewrite Mq; reflexivity).
          assert (Lc : N + (C + length (filter mk done)) < length masks) by (pose proof Room as R; rewrite Cq, app_length in R; cbn [length] in R; lia).
          rewrite vset_lt by lia. cbn [bind]. eexists. eexists. split; [reflexivity|]. cbn [g_table g_mesh g_acts g_masks]. rewrite map_app. cbn [map]. unfold side_point at 2. cbn [fst snd]. rewrite Ee.
          split; [|split; [reflexivity|split; [rewrite app_assoc; exact E2|split; [exact C2|split; [eapply list_snoc; eauto|split; [now rewrite set_nth_length|]]]]]].
          + rewrite Cq, index_at; [lia|]. intros X. apply filter_In in X as (X & _). contradiction.
          + intros y. rewrite nth_set by lia. rewrite app_length. cbn [length]. rewrite Gm. destruct (Nat.eqb_spec y (N + (C + length (filter mk done)))) as [->|Dy].
            * rewrite (proj2 (Nat.ltb_ge (N + (C + length (filter mk done))) (N + C))) by lia. rewrite andb_false_r. rewrite (proj2 (Nat.leb_le (N + C) _)) by lia. rewrite (proj2 (Nat.ltb_lt (N + (C + length (filter mk done))) _)) by lia. reflexivity.
            * destruct ((N <=? y) && (y <? N + C)); [reflexivity|]. replace (y <? N + C + (length (filter mk done) + 1)) with (y <? N + C + length (filter mk done)); [reflexivity|].
              destruct (Nat.ltb_spec y (N + C + length (filter mk done))), (Nat.ltb_spec y (N + C + (length (filter mk done) + 1))); lia || reflexivity. }
      destruct New as (new & s1 & -> & En & Et & Em1 & Hc1 & Ha1 & Hm1). cbn [bind]. unfold keep. rewrite Et.
      assert (Ed1 : m_edges (g_mesh s1) = m_edges m) by (rewrite Em1; cbn; now rewrite app_nil_r).
      destruct (rim_face f e Bd) as (i & L & Ui). assert (Een : ends_in (edge_at m e) n) by (rewrite Ee; unfold ends_in; cbn; destruct Hn as [->| ->]; auto).
      destruct (store_side m f I (g_mesh s1) Ed1 i n e new (g_table s) Sh L Ui Een) as (t' & -> & Sh' & G). cbn [bind]. eexists. split; [reflexivity|].
      unfold inv2. cbn [g_mesh g_acts g_masks g_table]. split; [exact Em1|]. split; [exact Hc1|]. split; [exact Ha1|]. split; [exact Hm1|]. split; [exact Sh'|].
      intros x k Hx. destruct (Tb x k Hx) as (T1 & T2). rewrite G. split.
      - intros i' n' Hin L' E1 Sk. apply in_app_or in Hin as [Hin|[Hin|[]]].
        + destruct ((x =? e) && (k =? slot m x n (1 - dir m f i x))) eqn:Q.
          * exfalso. apply andb_prop in Q as (Q1 & Q2). apply Nat.eqb_eq in Q1, Q2. subst x. assert (i' = i) by (now apply Ui). subst i'. rewrite <- Sk in Q2.
            pose proof (dir_le m f i e). destruct (slot_inj m f I e n' n (1 - dir m f i e) (1 - dir m f i e) i L E1 Een ltac:(lia) ltac:(lia) Q2) as (-> & _). contradiction.
          * now apply T1 with (i := i') (n := n').
        + injection Hin as <- <-. assert (i' = i) by (now apply Ui). subst i'. rewrite Sk, !Nat.eqb_refl. cbn [andb]. rewrite T2; [rewrite (Free e k i n He Bd L Een Sk); congruence|].
          intros i' n' Hd L2 E2 Q. assert (i' = i) by (now apply Ui). subst i'. pose proof (dir_le m f i e). rewrite <- Sk in Q. destruct (slot_inj m f I e n' n (1 - dir m f i e) (1 - dir m f i e) i L E2 Een ltac:(lia) ltac:(lia) Q) as (-> & _). contradiction.
      - intros Q. destruct ((x =? e) && (k =? slot m x n (1 - dir m f i x))) eqn:Q'.
        + exfalso. apply andb_prop in Q' as (Q1 & Q2). apply Nat.eqb_eq in Q1, Q2. subst x. apply (Q i n); auto. apply in_or_app. right. now left.
        + apply T2. intros i' n' Hd. apply Q. apply in_or_app. now left.
    Qed.
    Lemma old_node n p s : g_mesh s = grow m p [] -> n < N -> node_at (g_mesh s) (Some n) = Ok (old_point m n).
    Proof. intros Em Hn. unfold node_at. rewrite Em. cbn [grow m_nodes]. rewrite nth_error_app1 by exact Hn. now rewrite (nth_error_nth' _ missing_point Hn). Qed.
    Lemma sides_phase s : inv2 [] s -> exists s', fold_out (edge_step order f) (seq 0 E) s = Ok s' /\ inv2 (sides_to E) s'.
    Proof.
      intros H0. apply (fold_range (fun k x => inv2 (sides_to k) x)); [exact H0|]. intros e x He H. unfold edge_step.
      destruct (faces_recorded m f I e He) as (k & p & K1 & _ & _ & _ & K2 & _). rewrite (vget_some _ _ _ K1). cbn [bind].
      assert (Sk : single f e = (k =? 1)) by (unfold single; now rewrite (nth_error_nth _ _ 0 K1)). rewrite sides_S, Sk.
      destruct (Nat.eqb_spec k 1) as [->|Hk]; cbn [negb]; [|exists x; rewrite app_nil_r; auto].
      pose proof (proj1 K2 eq_refl) as Bd. destruct (rim_face f e Bd) as (i & L & _). destruct (used_ends m f I e i L) as (a & b & Ee & D & Ba & Bb).
      pose proof H as (Em & _). assert (Ed : m_edges (g_mesh x) = m_edges m) by (rewrite Em; cbn; now rewrite app_nil_r). unfold get_edge. rewrite Ed, (nth_error_nth' _ missing_edge He). cbn [bind]. fold (edge_at m e). unfold two_of. rewrite Ee.
      rewrite (old_node a _ x Em Ba), (old_node b _ x Em Bb). cbn [bind].
      destruct (sides_more (S e) (E - S e)) as (rest & Er). replace (S e + (E - S e)) with E in Er by lia. rewrite sides_S, Sk in Er. cbn [Nat.eqb] in Er. unfold two_of in Er. rewrite Ee in Er. rewrite <- app_assoc in Er. cbn [app] in Er.
      assert (Nin : forall n, ~ In (e, n) (sides_to e)) by (intros n X; apply sides_to_in in X; [lia|lia]).
      destruct (side_ok (sides_to e) e a a b _ x Er (Nin a) H He Bd Ee (or_introl eq_refl) Ba) as (s1 & -> & H1). cbn [bind].
      destruct (side_ok (sides_to e ++ [(e, a)]) e b a b rest s1) as (s2 & -> & H2); [rewrite <- app_assoc; exact Er|intros X; apply in_app_or in X as [X|[X|[]]]; [now apply Nin in X|congruence]|exact H1|exact He|exact Bd|exact Ee|now right|exact Bb|].
      exists s2. split; [reflexivity|]. rewrite <- app_assoc in H2. exact H2.
    Qed.
  End Sides.

  (** *** Everything *)
  Definition full_row (e : nat) : list (option nat) :=
    match edge_at m e with
    | (Some a, Some b) => [Some (beside masks m f b a e a); Some (beside masks m f b a e b); Some (beside masks m f a b e a); Some (beside masks m f a b e b)]
    | _ => []
    end.
  Definition expected_row (e : nat) : list (option nat) := if used f e then full_row e else [None; None; None; None].

  Lemma used_ok e : e < E -> (used f e = true <-> exists i, lists f i e).
  Proof using m f I. clear Hcen Room.
    intros He. destruct (faces_recorded m f I e He) as (k & p & K1 & _ & _ & K2 & _ & K3 & _ & K4 & _). unfold used. rewrite (nth_error_nth _ _ 0 K1). destruct (Nat.eqb_spec k 0) as [->|Hk]; cbn.
    - split; [discriminate|]. intros (i & L). exfalso. exact (proj1 K2 eq_refl i L).
    - split; [intros _|reflexivity]. destruct (K3 ltac:(lia)) as (i & Hi). exists i. apply K4. left. split; [lia|exact Hi].
  Qed.
  Lemma along_some a b e i : face_along f a b e = Some i -> walks f i a b e.
  Proof using m f I. clear Hcen Room. intros H. apply find_some in H as (_ & H). now apply (goes_ok m f i a b e I) in H. Qed.
  Lemma along_none a b e : face_along f a b e = None -> forall i, ~ walks f i a b e.
  Proof using m f I. clear Hcen Room.
    intros H i W. destruct (walks_facts m f I _ _ _ _ W) as (_ & _ & _ & _ & _ & L). assert (Hi : In i (seq 0 (num_faces f))) by (apply in_seq; pose proof (proj1 (lists_lt m f I i e L)); lia). pose proof (find_none _ _ H i Hi) as X. cbn beta in X. rewrite (proj2 (goes_ok m f i a b e I) W) in X. discriminate.
  Qed.
  Lemma listed_corner i e n : lists f i e -> ends_in (edge_at m e) n -> In (i, n) all_corners.
  Proof using m f I. clear Hcen Room. intros L En. apply all_corners_in. apply (listed_node m f I i e n L En). Qed.

  Lemma new_nodes_ok : exists s, new_nodes order f centres m masks = Ok s /\
    g_mesh s = grow m (new_points masks m f centres) [] /\ consistent (g_mesh s) /\ list_ok (g_acts s) m (g_mesh s) /\
    length (g_masks s) = length masks /\ (forall n, nth n (g_masks s) Unassigned =
         if (N <=? n) && (n <? N + C) then NewAssigned else if (N + C <=? n) && (n <? N + C + length (sides masks m f)) then NewGeneral else nth n masks Unassigned) /\
    g_table s = map expected_row (seq 0 E).
  Proof.
    unfold new_nodes. destruct corners_phase as (s1 & -> & H1). cbn [bind]. pose proof H1 as (Em1 & Hc1 & Ha1 & (Lm1 & Gm1) & Sh1 & Tb1).
    change (filter mk all_corners) with (corners masks f) in Em1, Gm1.
    assert (Free : forall e k i n, e < E -> on_boundary f e -> lists f i e -> ends_in (edge_at m e) n -> slot m e n (1 - dir m f i e) = k -> tget (g_table s1) e k = None).
    { intros e k i n He Bd L En Sk. destruct (Tb1 e k He) as (_ & T2). apply T2. intros i' n' _ L' E' Q. destruct (rim_face f e Bd) as (i0 & _ & Ui). assert (i' = i) by (rewrite (Ui i L), (Ui i' L'); reflexivity). subst i'. rewrite <- Sk in Q.
      pose proof (dir_le m f i e). destruct (slot_inj m f I e n' n (dir m f i e) (1 - dir m f i e) i L E' En ltac:(lia) ltac:(lia) Q) as (_ & Z). lia. }
    destruct (sides_phase (g_mesh s1) (g_table s1) Free (Growing (g_mesh s1) [] (g_masks s1) (g_table s1))) as (s2 & -> & H2).
    { unfold inv2. cbn [g_mesh g_acts g_masks g_table filter map length]. rewrite app_nil_r. split; [exact Em1|]. split; [exact Hc1|]. split; [constructor; apply mesh_le_refl|]. split; [split; [exact Lm1|]|split; [exact Sh1|]].
      - intros n. rewrite Gm1. destruct ((N <=? n) && (n <? N + C)); [reflexivity|]. destruct (Nat.leb_spec (N + C) n), (Nat.ltb_spec n (N + C + 0)); cbn [andb]; try lia; reflexivity.
      - intros e k He. split; [intros i n []|auto]. }
    cbn [bind]. destruct H2 as (Em2 & Hc2 & Ha2 & (Lm2 & Gm2) & Sh2 & Tb2). rewrite <- sides_eq in *. eexists. split; [reflexivity|]. cbn [g_mesh g_acts g_masks g_table].
    split; [exact Em2|]. split; [exact Hc2|]. split; [|split; [exact Lm2|split; [exact Gm2|]]].
    { apply (list_snoc order [compound (g_acts s1)] (compound (g_acts s2)) m (g_mesh s1) (g_mesh s2)); [|now constructor]. apply (list_snoc order [] (compound (g_acts s1)) m m (g_mesh s1)); [constructor; apply mesh_le_refl|now constructor]. }
    destruct Sh2 as (Lt & Lr). apply nth_ext with (d := []) (d' := []); [now rewrite map_length, seq_length|]. intros e He. rewrite Lt in He.
    rewrite (nth_indep (map expected_row (seq 0 E)) [] (expected_row 0)) by (rewrite map_length, seq_length; exact He). rewrite map_nth, seq_nth by exact He. cbn [Nat.add].
    assert (Row : forall r, length r = 4 -> (forall k, k < 4 -> tget (g_table s2) e k = nth k r None) -> nth e (g_table s2) [] = r).
    { intros r Hr Hk. apply nth_ext with (d := None) (d' := None); [rewrite Lr by exact He; auto|]. intros k Hk'. rewrite Lr in Hk' by exact He. now apply Hk. }
    unfold expected_row. destruct (used f e) eqn:Us.
    - apply (used_ok e He) in Us as (i & L). destruct (dir_walks m f I i e L) as (a & b & Ee & D & Ba & Bb & _). unfold full_row. rewrite Ee.
      assert (Got : forall d n, d <= 1 -> n = a \/ n = b -> tget (g_table s2) e (slot m e n d) = Some (if d =? 1 then beside masks m f a b e n else beside masks m f b a e n)).
      { intros d n Hd Hn. assert (En : ends_in (edge_at m e) n) by (rewrite Ee; unfold ends_in; cbn; destruct Hn as [->| ->]; auto).
        assert (Dir : forall u v j, d = (if (u =? a) then 1 else 0) -> (u = a /\ v = b \/ u = b /\ v = a) -> walks f j u v e -> dir m f j e = d).
        { intros u v j Hd' [(-> & ->)|(-> & ->)] W; [rewrite Nat.eqb_refl in Hd'; rewrite Hd'; eapply dir_fwd; eauto|]. destruct (Nat.eqb_spec b a); [congruence|]. rewrite Hd'. eapply dir_bwd; eauto. }
        assert (Main : forall u v, d = (if (u =? a) then 1 else 0) -> (u = a /\ v = b \/ u = b /\ v = a) -> tget (g_table s2) e (slot m e n d) = Some (beside masks m f u v e n)).
        { intros u v Hd' Huv. destruct (Tb2 e (slot m e n d) He) as (S1 & S2). unfold beside. destruct (face_along f u v e) as [j|] eqn:F.
          - apply along_some in F. destruct (walks_facts m f I _ _ _ _ F) as (_ & _ & _ & _ & _ & Lj). pose proof (Dir u v j Hd' Huv F) as Dj. rewrite S2.
            + destruct (Tb1 e (slot m e n d) He) as (T1 & _). apply (T1 j n); [now apply listed_corner with (e := e)|exact Lj|exact En|now rewrite Dj].
            + intros i' n' Hin L' E' Q. apply sides_to_in in Hin; [|lia]. destruct Hin as (_ & Bd & _). destruct (rim_face f e Bd) as (i0 & _ & Ui). assert (i' = j) by (rewrite (Ui i' L'), (Ui j Lj); reflexivity). subst i'.
              destruct (slot_inj m f I e n' n (1 - dir m f j e) d j Lj E' En ltac:(lia) Hd Q) as (_ & Z). lia.
          - pose proof (along_none u v e F) as No. assert (W' : forall j, lists f j e -> walks f j v u e).
            { intros j Lj. destruct (listed_walks m f I j e Lj) as (x & y & W). destruct (walks_ends m f I _ _ _ _ W) as [Q|Q]; rewrite Ee in Q; injection Q as <- <-; destruct Huv as [(-> & ->)|(-> & ->)]; auto; now apply No in W. }
            assert (Bd : on_boundary f e).
            { exists i. intros j. split; [intros Lj; eapply O; [apply W'; exact Lj|apply W'; exact L]|intros ->; exact L]. }
            apply (S1 i n); [apply sides_to_in; [lia|auto]|exact L|exact En|].
            assert (Dir' : dir m f i e = 1 - d).
            { destruct Huv as [(-> & ->)|(-> & ->)]; rewrite Hd'; [rewrite Nat.eqb_refl; eapply dir_bwd; eauto|]. destruct (Nat.eqb_spec b a); [congruence|]. eapply dir_fwd; eauto. }
            rewrite Dir'. replace (1 - (1 - d)) with d by lia. reflexivity. }
        destruct d as [|[|d]]; [| |lia]; cbn [Nat.eqb]; apply Main; rewrite ?Nat.eqb_refl; auto. destruct (Nat.eqb_spec b a); congruence. }
      assert (Ba0 : bit m e a = 0) by (unfold bit; rewrite Ee; cbn; now rewrite Nat.eqb_refl). assert (Bb1 : bit m e b = 1) by (unfold bit; rewrite Ee; cbn; destruct (Nat.eqb_spec a b); congruence).
      apply Row; [reflexivity|]. intros k Hk. destruct k as [|[|[|[|k]]]]; [| | | |lia]; cbn [nth].
      + specialize (Got 0 a ltac:(lia) (or_introl eq_refl)). unfold slot in Got. rewrite Ba0 in Got. exact Got.
      + specialize (Got 0 b ltac:(lia) (or_intror eq_refl)). unfold slot in Got. rewrite Bb1 in Got. exact Got.
      + specialize (Got 1 a ltac:(lia) (or_introl eq_refl)). unfold slot in Got. rewrite Ba0 in Got. exact Got.
      + specialize (Got 1 b ltac:(lia) (or_intror eq_refl)). unfold slot in Got. rewrite Bb1 in Got. exact Got.
    - assert (No : forall i, ~ lists f i e) by (intros i L; assert (used f e = true) by (apply used_ok; eauto); congruence). apply Row; [reflexivity|]. intros k Hk.
      destruct (Tb2 e k He) as (_ & S2). rewrite S2 by (intros i n _ L; now apply No in L). destruct (Tb1 e k He) as (_ & T2). rewrite T2 by (intros i n _ L; now apply No in L). destruct k as [|[|[|[|k]]]]; [reflexivity..|lia].
  Qed.
End Nodes.

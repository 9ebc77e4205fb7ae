(** Triangulation of faces and hanging edges. *)
From Coq Require Import Permutation.
From Verif Require Import Base BaseLemmas FloatModel FloatProofs UndoModel UndoSpec UndoProofs ActionModel ActionSpec ActionProofs
  MeshModel MeshSpec MeshProofs MeshAdj MeshConstruct MeshUndo MeshEdits MeshEdits2 MeshFacts
  FaceModel FaceSpec FaceUseModel FaceUseSpec GridProofs.

Lemma In_firstn {A} (x : A) k l : In x (firstn k l) -> In x l.
Proof. intros H. rewrite <- (firstn_skipn k l). apply in_or_app. left. exact H. Qed.

Lemma nth_error_skipn {A} k (l : list A) : forall i, nth_error (skipn k l) i = nth_error l (k + i).
Proof. revert l. induction k as [|k IH]; intros l i; [reflexivity|]. destruct l; cbn; [destruct i; reflexivity|apply IH]. Qed.

Section Use.
  Variable order : list point -> list edge -> nat -> list (option nat) -> list (option nat).
  Hypothesis order_perm : forall nodes edges n row, Permutation row (order nodes edges n row).
  Notation tree_ok := (recC (restore_leaf order) (commit_leaf order) mesh_le).
  Notation list_ok := (recC_all (restore_leaf order) (commit_leaf order) mesh_le).
  Notation reversible_tree := (reversible (restore_act (restore_leaf order)) (commit_act (commit_leaf order)) mesh_le).

  Lemma tree_reversible t m m' : tree_ok t m m' -> reversible_tree t m m'.
  Proof. intros H. apply recC_reversible; auto using mesh_le_refl. intros; eapply mesh_le_trans; eauto. Qed.

  (** *** Triangulation *)
  Definition joinedb (m : mesh) (p : nat * nat) : bool :=
    existsb (fun oe => match oe with Some e => eq_idx (other_node (ge m e) (fst p)) (Some (snd p)) | None => false end) (firstn (degree_of m (fst p)) (row_of m (fst p))).

  Lemma joinedb_ok m a b : lists_all m -> a < length (m_nodes m) -> joinedb m (a, b) = true <-> neighbour m a b.
  Proof.
    intros Hl Ha. destruct (Hl a Ha) as (Hd & _ & Hr). unfold joinedb. cbn [fst snd]. rewrite Hd, firstn_all, existsb_exists. split.
    - intros (oe & Hin & H). apply Hr in Hin as (e & o & -> & He & Hj). exists e. split; [exact He|].
      destruct (other_node (ge m e) a) as [x|] eqn:E; [|discriminate]. cbn in H. apply Nat.eqb_eq in H. subst x.
      unfold other_node in E. change (ge m e) with (edge_at m e) in E. destruct Hj as [Hj|Hj]; rewrite Hj in E |- *; cbn in E.
      + rewrite Nat.eqb_refl in E. injection E as ->. left. reflexivity.
      + destruct (o =? a) eqn:B; [apply Nat.eqb_eq in B; subst o; injection E as ->; left; reflexivity|]. injection E as ->. right. reflexivity.
    - intros (e & He & Hj). exists (Some e). split; [apply Hr; eauto|]. change (ge m e) with (edge_at m e). unfold other_node.
      destruct Hj as [-> | ->]; cbn.
      + rewrite Nat.eqb_refl. cbn. apply Nat.eqb_refl.
      + destruct (b =? a) eqn:B; cbn; [apply Nat.eqb_eq in B; subst; apply Nat.eqb_refl|apply Nat.eqb_refl].
  Qed.

  (** The state of the loop after the diagonals [done]. *)
  Definition tri_inv (m : mesh) (done : list (nat * nat)) (acc : list (act mact) * mesh) : Prop :=
    list_ok (fst acc) m (snd acc) /\ consistent (snd acc) /\
    snd acc = set_edges m (m_edges m ++ map as_edge (filter (fun p => negb (joinedb m p)) done)).

  Lemma connect_decides m done m1 a b : consistent m -> consistent m1 ->
    m1 = set_edges m (m_edges m ++ map as_edge done) -> a < length (m_nodes m) -> b < length (m_nodes m) ->
    if joinedb m (a, b) then connect_nodes order m1 (Some a) (Some b) = Ok None
    else exists x, connect_nodes order m1 (Some a) (Some b) = Ok (Some (length (m_edges m1), leaf x, set_edges m1 (m_edges m1 ++ [as_edge (a, b)]))) /\
      tree_ok (leaf x) m1 (set_edges m1 (m_edges m1 ++ [as_edge (a, b)])) /\ consistent (set_edges m1 (m_edges m1 ++ [as_edge (a, b)])).
  Proof.
    intros Hc Hc1 E Ha Hb. assert (N : m_nodes m1 = m_nodes m) by (rewrite E; reflexivity).
    destruct (find_edge_ok m1 a b Hc1 ltac:(rewrite N; exact Ha)) as (r & Hr & Hs).
    assert (G : forall e, e < length (m_edges m) -> ge m1 e = ge m e).
    { intros e He. rewrite E. unfold ge. cbn. rewrite app_nth1 by exact He. reflexivity. }
    assert (R : degree_of m1 a = degree_of m a /\ row_of m1 a = row_of m a) by (rewrite E; split; reflexivity). destruct R as [R1 R2].
    rewrite R1, R2 in Hs.
    assert (J : joinedb m (a, b) = match r with Some _ => true | None => false end).
    { destruct r as [e|].
      - apply existsb_exists. exists (Some e). destruct Hs as (H1 & _ & H3). cbn [fst snd]. split; [exact H1|].
        destruct (co_listed m Hc a (Some e)) as (e' & E' & He'); [eapply In_firstn; eauto|]. injection E' as <-.
        rewrite <- G by exact He'. rewrite H3. cbn. apply Nat.eqb_refl.
      - apply not_true_iff_false. intros H. apply existsb_exists in H as ([e|] & Hin & H); [|discriminate]. cbn [fst snd] in Hin, H.
        destruct (co_listed m Hc a (Some e)) as (e' & E' & He'); [eapply In_firstn; eauto|]. injection E' as <-.
        specialize (Hs e Hin). rewrite G in Hs by exact He'. destruct (other_node (ge m e) a) as [x|]; [|discriminate]. cbn in H. apply Nat.eqb_eq in H. subst. congruence. }
    destruct (connect_nodes_ok order m1 a b Hc1) as [Hn|(m' & Hm & E' & T & C)]; try (rewrite N; assumption).
    - rewrite J. unfold connect_nodes in Hn |- *. rewrite Hr in Hn |- *. cbn [bind] in Hn |- *. destruct r; [reflexivity|].
      exfalso. apply bind_ok_inv in Hn as ([x y] & _ & Hn). discriminate.
    - rewrite J. destruct r as [e|].
      + unfold connect_nodes in Hm. rewrite Hr in Hm. discriminate.
      + subst m'. eauto.
  Qed.

  Lemma triangulate_face_ok f m i ns done acc : consistent m -> tri_inv m done acc ->
    nth_error (faces_nodes f) i = Some ns -> nth_error (num_faces_nodes f) i = Some (length ns) -> (forall n, In n ns -> n < length (m_nodes m)) ->
    exists acc', triangulate_face order f acc i = Ok acc' /\ tri_inv m (done ++ diagonals_of ns) acc'.
  Proof.
    intros Hc Hi Hns Hnum Hlt. unfold triangulate_face. rewrite (proj2 (vget_ok _ _ _) Hnum). cbn [bind].
    destruct (Nat.ltb_spec (length ns) 4) as [H4|H4].
    { exists acc. split; [reflexivity|]. replace (diagonals_of ns) with (@nil (nat * nat)); [rewrite app_nil_r; exact Hi|].
      destruct ns as [|a ns]; [reflexivity|]. unfold diagonals_of. replace (length (a :: ns) - 3) with 0 by lia. reflexivity. }
    rewrite (proj2 (vget_ok _ _ _) Hns). cbn [bind]. destruct ns as [|a ns']; [cbn in H4; lia|]. set (ns := a :: ns') in *.
    change (vget ns 0) with (Ok a). cbn [bind].
    destruct (fold_pre (add_diagonal order a ns)
      (fun l acc' => tri_inv m (done ++ map (fun o => (a, o)) (firstn (length l) (skipn 2 ns))) acc') (seq 2 (length ns - 3)) acc) as (acc' & Hf & Hp).
    - intros l1 j l2 [acts m1] El (I1 & I2 & I3). cbn [fst snd] in *.
      assert (Hj : j = 2 + length l1 /\ length l1 < length ns - 3).
      { pose proof (f_equal (fun l => nth_error l (length l1)) El) as E1. cbn in E1. rewrite nth_error_app2, Nat.sub_diag in E1 by lia. cbn in E1.
        assert (L : length l1 < length ns - 3) by (rewrite <- (seq_length (length ns - 3) 2), El, app_length; cbn; lia).
        rewrite (nth_error_nth' _ 0) in E1 by (rewrite seq_length; exact L). rewrite seq_nth in E1 by exact L. injection E1. lia. }
      destruct Hj as [-> Hl]. unfold add_diagonal.
      destruct (vget_lt ns (2 + length l1)) as [o Ho]; [lia|]. rewrite Ho. cbn [bind]. apply vget_ok in Ho.
      assert (Hao : a < length (m_nodes m) /\ o < length (m_nodes m)) by (split; apply Hlt; [left; reflexivity|eapply nth_error_In; eauto]).
      assert (Ef : firstn (length (l1 ++ [2 + length l1])) (skipn 2 ns) = firstn (length l1) (skipn 2 ns) ++ [o]).
      { rewrite app_length. cbn [length]. rewrite Nat.add_1_r.
        assert (Ho' : nth_error (skipn 2 ns) (length l1) = Some o) by (rewrite nth_error_skipn; exact Ho).
        clear - Ho'. revert Ho'. generalize (skipn 2 ns) as l. induction (length l1) as [|k IH]; intros [|x l] H; try discriminate; cbn in *; [injection H as ->; reflexivity|].
        f_equal. apply IH, H. }
      rewrite Ef, map_app, app_assoc. cbn [map].
      pose proof (connect_decides m _ m1 a o Hc I2 I3 (proj1 Hao) (proj2 Hao)) as D.
      destruct (joinedb m (a, o)) eqn:B.
      + rewrite D. cbn [bind compound_add]. eexists. split; [reflexivity|]. split; [exact I1|]. split; [exact I2|]. cbn [snd]. rewrite filter_app. cbn [filter]. rewrite B. cbn [negb]. rewrite app_nil_r. exact I3.
      + destruct D as (x & -> & T & C). cbn [bind compound_add act_state]. eexists. split; [reflexivity|]. split; [eapply list_snoc; eauto|]. split; [exact C|]. cbn [snd].
        rewrite filter_app, map_app. cbn [filter map]. rewrite B. cbn [negb]. rewrite I3. unfold set_edges. cbn [m_nodes m_edges m_nodesNumEdges m_nodesEdges m_projection map].
        rewrite <- app_assoc. reflexivity.
    - cbn [length firstn map]. rewrite app_nil_r. exact Hi.
    - exists acc'. split; [exact Hf|]. rewrite seq_length in Hp. exact Hp.
  Qed.

  Lemma triangulate_tree f m : consistent m -> num_faces_nodes f = map (@length nat) (faces_nodes f) -> (forall ns n, In ns (faces_nodes f) -> In n ns -> n < length (m_nodes m)) ->
    exists acts m', triangulate_faces order f m = Ok (compound acts, m') /\ list_ok acts m m' /\ consistent m' /\
      m' = set_edges m (m_edges m ++ map as_edge (filter (fun p => negb (joinedb m p)) (diagonals f))).
  Proof.
    intros Hc Hnum Hlt. unfold triangulate_faces.
    destruct (fold_pre (triangulate_face order f) (fun l acc => tri_inv m (flat_map diagonals_of (firstn (length l) (faces_nodes f))) acc) (seq 0 (num_faces f)) ([], m))
      as ((acts & m1) & -> & I1 & I2 & I3).
    - intros l1 i l2 acc El Hi.
      assert (Hj : i = length l1 /\ length l1 < num_faces f).
      { assert (L : length l1 < num_faces f) by (rewrite <- (seq_length (num_faces f) 0), El, app_length; cbn; lia). split; [|exact L].
        pose proof (f_equal (fun l => nth_error l (length l1)) El) as E1. cbn in E1. rewrite nth_error_app2, Nat.sub_diag in E1 by lia. cbn in E1.
        rewrite (nth_error_nth' _ 0) in E1 by (rewrite seq_length; exact L). rewrite seq_nth in E1 by exact L. injection E1. lia. }
      destruct Hj as [-> Hlen]. destruct (nth_error (faces_nodes f) (length l1)) as [ns|] eqn:En; [|apply nth_error_None in En; unfold num_faces in Hlen; lia].
      destruct (triangulate_face_ok f m (length l1) ns _ acc Hc Hi En) as (acc' & H & Hi').
      + rewrite Hnum, nth_error_map, En. reflexivity.
      + intros n Hn. eapply Hlt; eauto. eapply nth_error_In; eauto.
      + exists acc'. split; [exact H|]. rewrite app_length. cbn [length]. rewrite Nat.add_1_r.
        assert (Ef : firstn (S (length l1)) (faces_nodes f) = firstn (length l1) (faces_nodes f) ++ [ns]).
        { clear - En. revert En. generalize (faces_nodes f) as l. induction (length l1) as [|k IH]; intros [|x l] H; try discriminate; cbn in *; [injection H as ->; reflexivity|].
          f_equal. apply IH, H. }
        rewrite Ef, flat_map_app. cbn [flat_map]. rewrite app_nil_r. exact Hi'.
    - split; [constructor; apply mesh_le_refl|]. split; [exact Hc|]. cbn. rewrite app_nil_r. destruct m; reflexivity.
    - cbn [fst snd] in *. cbn [bind]. exists acts, m1. split; [reflexivity|]. split; [exact I1|]. split; [exact I2|].
      rewrite seq_length in I3. unfold num_faces in I3. rewrite firstn_all in I3. exact I3.
  Qed.

  Lemma triangulate_effect f m : consistent m -> lists_all m ->
    num_faces_nodes f = map (@length nat) (faces_nodes f) -> (forall ns n, In ns (faces_nodes f) -> In n ns -> n < length (m_nodes m)) ->
    exists a m' keep, triangulate_faces order f m = Ok (a, m') /\
      m_nodes m' = m_nodes m /\ m_projection m' = m_projection m /\
      m_edges m' = m_edges m ++ map as_edge (filter keep (diagonals f)) /\
      (forall n o, In (n, o) (diagonals f) -> keep (n, o) = true <-> ~ neighbour m n o) /\
      consistent m' /\ reversible_tree a m m'.
  Proof.
    intros Hc Hl Hnum Hlt. destruct (triangulate_tree f m Hc Hnum Hlt) as (acts & m1 & -> & I1 & I2 & I3).
    exists (compound acts), m1, (fun p => negb (joinedb m p)). split; [reflexivity|].
    split; [rewrite I3; reflexivity|]. split; [rewrite I3; reflexivity|]. split; [rewrite I3; reflexivity|]. split; [|split; [exact I2|]].
    - intros n o Hin. rewrite <- (joinedb_ok m n o Hl).
      + destruct (joinedb m (n, o)); cbn; split; congruence.
      + apply in_flat_map in Hin as (ns & Hns & Hin). destruct ns as [|a ns]; [destruct Hin|]. cbn [diagonals_of] in Hin. apply in_map_iff in Hin as (x & E & _). injection E as <- _.
        eapply Hlt; eauto. left. reflexivity.
    - apply tree_reversible. now apply recC_comp.
  Qed.

  Lemma diagonals_length f : length (diagonals f) = fold_right (fun ns k => (length ns - 3) + k) 0 (faces_nodes f).
  Proof.
    unfold diagonals. induction (faces_nodes f) as [|ns l IH]; [reflexivity|]. cbn [flat_map fold_right]. rewrite app_length, IH. f_equal.
    destruct ns as [|a ns]; [reflexivity|]. unfold diagonals_of. rewrite map_length, firstn_length, skipn_length. lia.
  Qed.

  Lemma triangulate_exact f m : consistent m -> lists_all m ->
    num_faces_nodes f = map (@length nat) (faces_nodes f) -> (forall ns n, In ns (faces_nodes f) -> In n ns -> n < length (m_nodes m)) ->
    (forall n o, In (n, o) (diagonals f) -> ~ neighbour m n o) ->
    exists a m', triangulate_faces order f m = Ok (a, m') /\ m_edges m' = m_edges m ++ map as_edge (diagonals f) /\
      length (m_edges m') = length (m_edges m) + fold_right (fun ns k => (length ns - 3) + k) 0 (faces_nodes f).
  Proof.
    intros Hc Hl Hnum Hlt Hno. destruct (triangulate_effect f m Hc Hl Hnum Hlt) as (a & m' & keep & H & _ & _ & E & K & _). exists a, m'. split; [exact H|].
    assert (F : filter keep (diagonals f) = diagonals f).
    { clear E. revert K Hno. generalize (diagonals f) as l. induction l as [|[n o] l IH]; intros K Hno; [reflexivity|]. cbn.
      rewrite (proj2 (K n o (or_introl eq_refl))) by (apply Hno; left; reflexivity). f_equal. apply IH; intros; [apply K; right; auto|apply Hno; right; auto]. }
    rewrite F in E. split; [exact E|]. rewrite E, app_length, map_length, diagonals_length. reflexivity.
  Qed.

  (** *** Hanging edges *)
  Definition hangs (m : mesh) (e : nat) : bool :=
    match edge_at m e with (Some a, Some b) => (degree_of m a <=? 1) || (degree_of m b <=? 1) | _ => false end.

  Lemma hanging_list m : consistent m -> hanging_edges m = Ok (filter (hangs m) (seq 0 (length (m_edges m)))).
  Proof.
    intros Hc. unfold hanging_edges.
    destruct (fold_pre (hanging_step m) (fun l acc => acc = filter (hangs m) l) (seq 0 (length (m_edges m))) []) as (r & -> & ->); [|reflexivity|reflexivity].
    intros l1 e l2 acc El ->. assert (He : e < length (m_edges m)).
    { assert (In e (seq 0 (length (m_edges m)))) by (rewrite El; apply in_or_app; right; left; reflexivity). apply in_seq in H. lia. }
    unfold hanging_step. rewrite ge_get by exact He. cbn [bind]. rewrite filter_app. cbn [filter]. change (ge m e) with (edge_at m e).
    remember (filter (hangs m) l1) as done eqn:Ed. unfold hangs.
    assert (Hin : In (edge_at m e) (m_edges m)) by (apply nth_In, He).
    destruct (edge_at m e) as [[a|] [b|]] eqn:E; try (exists done; rewrite app_nil_r; auto; fail).
    assert (Ha : a < length (m_nodes m)) by (apply (co_ends m Hc _ a Hin); left; reflexivity).
    assert (Hb : b < length (m_nodes m)) by (apply (co_ends m Hc _ b Hin); right; reflexivity).
    rewrite !degree_get by assumption. cbn [bind].
    destruct (Nat.ltb_spec 1 (degree_of m a)), (Nat.leb_spec (degree_of m a) 1); try lia; cbn [orb]; [|eauto].
    destruct (Nat.ltb_spec 1 (degree_of m b)), (Nat.leb_spec (degree_of m b) 1); try lia; [rewrite app_nil_r; eauto|eauto].
  Qed.

  Lemma hangs_ok m e : consistent m -> lists_all m -> e < length (m_edges m) -> hangs m e = true <-> hanging m e.
  Proof.
    intros Hc Hl He. assert (Hin : In (edge_at m e) (m_edges m)) by (apply nth_In, He).
    assert (One : forall n o, joins (edge_at m e) n o -> n < length (m_nodes m) ->
      (degree_of m n <=? 1) = true <-> forall e' o', e' < length (m_edges m) -> joins (edge_at m e') n o' -> e' = e).
    { intros n o Hj Hn. destruct (Hl n Hn) as (Hd & Hnd & Hr). rewrite Hd, Nat.leb_le. split.
      - intros Hle e' o' He' Hj'.
        assert (I1 : In (Some e) (row_of m n)) by (apply Hr; eauto).
        assert (I2 : In (Some e') (row_of m n)) by (apply Hr; eauto).
        destruct (row_of m n) as [|x [|y t]]; cbn in Hle; try lia; [destruct I1|]. destruct I1 as [->|[]], I2 as [X|[]]. congruence.
      - intros H. destruct (row_of m n) as [|x [|y t]] eqn:Er; cbn; try lia. exfalso.
        assert (X : forall z, In z (x :: y :: t) -> z = Some e).
        { intros z Hz. apply Hr in Hz as (e' & o' & -> & He' & Hj'). f_equal. eapply H; eauto. }
        rewrite (X x), (X y) in Hnd by (cbn; auto). inversion Hnd as [|? ? Hx _]. apply Hx. left. reflexivity. }
    unfold hangs, hanging. destruct (edge_at m e) as [[a|] [b|]] eqn:E.
    2-4: split; [discriminate|intros (_ & n & o & [Hj|Hj] & _); discriminate].
    assert (Ha : a < length (m_nodes m)) by (apply (co_ends m Hc _ a Hin); left; reflexivity).
    assert (Hb : b < length (m_nodes m)) by (apply (co_ends m Hc _ b Hin); right; reflexivity).
    rewrite orb_true_iff, (One a b), (One b a) by (unfold joins; auto). split.
    - intros [H|H]; (split; [exact He|]); [exists a, b|exists b, a]; unfold joins; auto.
    - intros (_ & n & o & [Hj|Hj] & H); injection Hj as -> ->; auto.
  Qed.

  Lemma filter_seq_increasing P : forall n k i j a b, i < j ->
    nth_error (filter P (seq k n)) i = Some a -> nth_error (filter P (seq k n)) j = Some b -> a < b.
  Proof.
    induction n as [|n IH]; intros k i j a b Hij Hi Hj; [destruct i; discriminate|]. cbn [seq filter] in Hi, Hj.
    assert (G : forall x, In x (filter P (seq (S k) n)) -> k < x) by (intros x Hx; apply filter_In in Hx as [Hx _]; apply in_seq in Hx; lia).
    destruct (P k); [|eauto]. destruct i, j; cbn in *; try lia.
    - injection Hi as <-. apply G. eapply nth_error_In; eauto.
    - apply (IH (S k) i j); auto. lia.
  Qed.

  Lemma hanging_report m : consistent m -> lists_all m -> exists l, hanging_edges m = Ok l /\ enumerates (hanging m) l.
  Proof.
    intros Hc Hl. exists (filter (hangs m) (seq 0 (length (m_edges m)))). split; [now apply hanging_list|]. split.
    - intros e. rewrite filter_In, in_seq. split.
      + intros [H1 H2]. apply hangs_ok; auto. lia.
      + intros H. assert (He : e < length (m_edges m)) by apply H. split; [lia|]. now apply hangs_ok.
    - apply filter_seq_increasing.
  Qed.

  Lemma hanging_delete m : consistent m -> lists_all m ->
    exists a m', delete_hanging_edges order m = Ok (a, m') /\ m_nodes m' = m_nodes m /\ m_projection m' = m_projection m /\ length (m_edges m') = length (m_edges m) /\
      (forall e, (hanging m e -> edge_at m' e = missing_edge) /\ (~ hanging m e -> edge_at m' e = edge_at m e)) /\
      consistent m' /\ reversible_tree a m m'.
  Proof.
    intros Hc Hl. unfold delete_hanging_edges. destruct (hanging_report m Hc Hl) as (l & -> & En & _). cbn [bind].
    destruct (delete_edges_ok order m (map Some l) [] m) as (acts & m1 & E & L & C & F1 & F2 & F3 & F4 & F5 & F6); auto.
    { constructor. apply mesh_le_refl. }
    { intros oe H. apply in_map_iff in H as (e & <- & He). exists e. split; [reflexivity|]. apply En in He. apply He. }
    change (delete_edges order m (map Some l)) with (fold_out (del_step order) (map Some l) ([], m)). rewrite E. cbn [bind].
    exists (compound acts), m1. split; [reflexivity|]. split; [exact F1|]. split; [exact F4|]. split; [exact F5|]. split; [|split; [exact C|apply tree_reversible; now apply recC_comp]].
    intros e. assert (X : existsb (eq_idx (Some e)) (map Some l) = true <-> hanging m e).
    { rewrite existsb_exists, <- En. split.
      - intros (oe & H & Q). apply in_map_iff in H as (e' & <- & He'). cbn in Q. apply Nat.eqb_eq in Q. subst. exact He'.
      - intros H. exists (Some e). split; [now apply in_map|]. cbn. apply Nat.eqb_refl. }
    change (edge_at m1 e) with (ge m1 e). change (edge_at m e) with (ge m e). rewrite F6. destruct (existsb (eq_idx (Some e)) (map Some l)).
    - split; [reflexivity|]. intros H. exfalso. apply H, X, eq_refl.
    - split; [|reflexivity]. intros H. apply X in H. discriminate.
  Qed.
End Use.

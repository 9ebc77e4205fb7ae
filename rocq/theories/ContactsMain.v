(** Contacts: what each way of computing them gives. *)
From Coq Require Import Permutation.
From Verif Require Import Base BaseLemmas FloatModel MeshModel MeshSpec MeshProofs MeshAdj MeshConstruct MeshUndo MeshEdits MeshFacts FaceModel FaceSpec FaceUseSpec FaceUse FaceMain FaceUseMain
  ContactsModel ContactsSpec ContactsProofs.

Section Points.
  Variable in_polygon : point -> list point -> bool.
  Variable nearest_edge : mesh -> point -> option nat.
  Hypothesis nearest_edge_in : forall m p e, nearest_edge m p = Some e -> e < length (m_edges m).
  Local Notation located := (located in_polygon nearest_edge).
  Local Notation point_face := (point_face in_polygon nearest_edge).

  Lemma snoc_cases {A} (l : list A) x l1 y l2 : l ++ [x] = l1 ++ y :: l2 -> (l1 = l /\ y = x /\ l2 = []) \/ exists r, l2 = r ++ [x] /\ l = l1 ++ y :: r.
  Proof.
    destruct (exists_last (l := y :: l2)) as (r & z & E); [discriminate|]. rewrite E. intros H. rewrite app_assoc in H. apply app_inj_tail in H as (H & <-).
    destruct r as [|y' r]; cbn in E.
    - injection E as -> ->. left. rewrite app_nil_r in H. auto.
    - injection E as <- ->. right. exists r. auto.
  Qed.

  (** *** The face of a point *)
  Lemma read_all_map (m : mesh) ns : (forall n, In n ns -> n < length (m_nodes m)) -> read_all (m_nodes m) ns = Ok (map (node_of m) ns).
  Proof.
    induction ns as [|n t IH]; intros H; cbn [read_all map]; auto. destruct (nth_error (m_nodes m) n) as [p|] eqn:E.
    - rewrite (proj2 (vget_ok _ _ _) E). cbn [bind]. rewrite IH by (intros; apply H; cbn; auto). cbn [bind]. now rewrite (node_of_nth _ _ _ E).
    - apply nth_error_None in E. specialize (H n (or_introl eq_refl)). lia.
  Qed.
  Lemma contain_found g p l : ready g -> (forall i, In i l -> exists k, i = Some k /\ k < num_faces (g_faces g)) ->
    exists x, containing_face in_polygon (g_mesh g) (g_faces g) p l = Ok x /\
      match x with Some k => In (Some k) l /\ in_polygon p (corners g k) = true | None => forall k, In (Some k) l -> in_polygon p (corners g k) = false end.
  Proof.
    intros R. induction l as [|i t IH]; intros H; cbn [containing_face]; [exists None; split; auto; intros k []|].
    destruct (H i (or_introl eq_refl)) as (k & -> & Hk). cbn [vget_idx].
    destruct (nth_error (faces_nodes (g_faces g)) k) as [ns|] eqn:E; [|apply nth_error_None in E; unfold num_faces in Hk; lia].
    rewrite (proj2 (vget_ok _ _ _) E). cbn [bind].
    assert (N : forall n, In n ns -> n < length (m_nodes (g_mesh g))) by (intros n; apply (usable_nodes _ _ (proj1 R) ns), (nth_error_In _ _ E)).
    rewrite (read_all_map _ _ N). cbn [bind].
    assert (Ec : map (node_of (g_mesh g)) ns = corners g k) by (unfold corners; now rewrite (nth_error_nth _ _ _ E)). rewrite Ec.
    destruct (in_polygon p (corners g k)) eqn:Ep; [exists (Some k); cbn; auto|].
    destruct (IH ltac:(intros; apply H; cbn; auto)) as (x & -> & Hx). exists x. split; auto. destruct x as [j|]; [cbn; intuition|].
    intros j [[= <-]|Hj]; auto.
  Qed.
  Lemma point_face_found g p : ready g ->
    (nearest_edge (g_mesh g) p = None /\ point_face g p = Throw AlgorithmErr) \/
    exists x, point_face g p = Ok x /\ match x with Some k => k < num_faces (g_faces g) /\ located g p k | None => forall k, ~ located g p k end.
  Proof.
    intros R. unfold ContactsModel.point_face. destruct (nearest_edge (g_mesh g) p) as [e|] eqn:E; [|left; auto]. right. pose proof (nearest_edge_in _ _ _ E) as He.
    destruct (proj1 (proj1 R)) as (T1 & T2 & T3 & T4 & T). destruct (T e He) as (L & T5 & T6).
    rewrite (proj2 (vget_ok _ _ _) T5). cbn [bind].
    assert (No : forall k, (forall j, In j (faces_with (g_faces g) e) -> in_polygon p (corners g j) = false) -> ~ located g p k).
    { intros k H (e' & E' & H1 & H2). rewrite E in E'. injection E' as <-. now rewrite (H k H1) in H2. }
    assert (Yes : forall k, In k (faces_with (g_faces g) e) -> in_polygon p (corners g k) = true -> k < num_faces (g_faces g) /\ located g p k).
    { intros k H1 H2. split; [now apply with_in in H1|]. exists e. auto. }
    destruct (length (faces_with (g_faces g) e)) as [|k] eqn:El.
    { exists None. split; auto. intros k. apply No. destruct (faces_with (g_faces g) e); [|discriminate]. intros j []. }
    rewrite (proj2 (vget_ok _ _ _) T6). cbn [bind].
    assert (X : exists l, face_entries (nth_error (faces_with (g_faces g) e) 0, nth_error (faces_with (g_faces g) e) 1) (S k) = Ok l /\ l = map Some (faces_with (g_faces g) e)).
    { destruct (faces_with (g_faces g) e) as [|i1 [|i2 [|]]] eqn:Ew; cbn in El, L; try lia; assert (k = 0 \/ k = 1) as [-> | ->] by lia; try lia; cbn; eauto. }
    destruct X as (l & -> & ->). cbn [bind].
    destruct (contain_found g p (map Some (faces_with (g_faces g) e)) R) as (x & -> & Hx).
    { intros i Hi. apply in_map_iff in Hi as (j & <- & Hj). exists j. split; auto. now apply with_in in Hj. }
    exists x. split; auto. destruct x as [j|].
    - destruct Hx as (Hj & Hp). apply in_map_iff in Hj as (j' & [= ->] & Hj). auto.
    - intros j. apply No. intros j' Hj'. apply Hx, in_map. auto.
  Qed.
  Lemma point_faces_found (t : Prop) g ps : (forall p, nearest_edge (g_mesh g) p = None -> t) -> ready g ->
    safe t (fun r => length r = length ps /\ forall i p, nth_error ps i = Some p -> exists x, nth_error r i = Some x /\
      match x with Some k => k < num_faces (g_faces g) /\ located g p k | None => forall k, ~ located g p k end) (point_faces in_polygon nearest_edge g ps).
  Proof.
    intros T R. induction ps as [|p ps IH]; cbn [point_faces].
    - split; auto. intros i p H. now destruct i.
    - destruct (point_face_found g p R) as [(En & ->)|(x & -> & Hx)]; cbn [bind]; [exact (T p En)|].
      apply (safe_bind _ _ _ _ _ IH). intros r (L & H). cbn. split; [now rewrite L|]. intros [|i] q Hq; cbn in *; [injection Hq as <-; eauto|apply H; auto].
  Qed.
End Points.

Section Contacts.
  Variable order : list point -> list edge -> nat -> list (option nat) -> list (option nat).
  Hypothesis order_perm : forall nodes edges n row, Permutation row (order nodes edges n row).
  Variable clockwise : projection -> list point -> bool.
  Variable circum_of mass_of : mesh -> faces -> list point.
  Variable cross : point -> point -> point -> point -> bool * double * double.
  Variable dist2 : point -> point -> double.
  Variable project : point -> point -> point -> double -> point.
  Variable in_polygon : point -> list point -> bool.
  Variable nearest_edge nearest_node : mesh -> point -> option nat.
  Variable near_faces : list point -> point -> nat -> option (list nat).
  Hypothesis nearest_edge_in : forall m p e, nearest_edge m p = Some e -> e < length (m_edges m).
  Hypothesis nearest_node_in : forall m p n, nearest_node m p = Some n -> n < length (m_nodes m).
  Hypothesis near_faces_in : forall l p n r i, near_faces l p n = Some r -> In i r -> i < length l.
  Local Notation located := (located in_polygon nearest_edge).

  (** *** Projection *)
  Lemma edge_neighbour m1 m1' n oe ed o : administrated1 order m1 m1' -> n < length (m_nodes m1') -> In (Some oe) (row_of m1' n) -> nth_error (m_edges m1') oe = Some ed ->
    other_node ed n = Some o -> neighbour m1' n o.
  Proof.
    intros (_ & C & _ & _ & _ & R) Hn Hin Ed Eo. destruct (R n _ Hn Hin) as (e & o' & [= <-] & He & J). exists oe. split; auto.
    assert (o' = o); [|now subst]. apply joins_other in J. unfold edge_at in J. rewrite (nth_error_nth _ _ _ Ed) in J. congruence.
  Qed.
  Lemma projected_found (t : Prop) m1 m1' n factor : (degree_of m1' n = 0 -> t) -> administrated1 order m1 m1' -> n < length (m_nodes m1') ->
    safe t (fun q => projection_of project m1' n factor q) (projected_node project m1' n factor).
  Proof.
    intros T A Hn. assert (C : consistent m1') by apply A. unfold projected_node.
    assert (E1 : vget (m_nodesNumEdges m1') n = Ok (degree_of m1' n)) by (apply vget_ok, nth_error_nth'; rewrite (co_counts _ C); auto).
    assert (E2 : vget (m_nodesEdges m1') n = Ok (row_of m1' n)) by (apply vget_ok, nth_error_nth'; rewrite (co_rows _ C); auto).
    rewrite E1, E2. cbn [bind]. destruct (nth_error (m_nodes m1') n) as [p|] eqn:Ep; [|apply nth_error_None in Ep; lia].
    assert (E3 : vget (m_nodes m1') n = Ok p) by now apply vget_ok.
    destruct (degree_of m1' n) as [|[|k]] eqn:Ed; [exact (T eq_refl)| |].
    - destruct (row_entry order m1 m1' n 0 A Hn ltac:(lia)) as (e & ed & o & q & R1 & R2 & R3 & R4).
      rewrite (proj2 (vget_ok _ _ _) R1). cbn [bind vget_idx]. rewrite (proj2 (vget_ok _ _ _) R2). cbn [bind]. rewrite E3. cbn [bind]. rewrite R3. cbn [vget_idx].
      rewrite (proj2 (vget_ok _ _ _) R4). cbn. exists n, o. split; [auto|]. split; [eapply edge_neighbour; eauto using nth_error_In|].
      now rewrite (node_of_nth _ _ _ Ep), (node_of_nth _ _ _ R4).
    - destruct (row_entry order m1 m1' n 0 A Hn ltac:(lia)) as (e & ed & o & q & R1 & R2 & R3 & R4).
      destruct (row_entry order m1 m1' n 1 A Hn ltac:(lia)) as (e' & ed' & o' & q' & R1' & R2' & R3' & R4').
      rewrite (proj2 (vget_ok _ _ _) R1), (proj2 (vget_ok _ _ _) R1'). cbn [bind vget_idx]. rewrite (proj2 (vget_ok _ _ _) R2), (proj2 (vget_ok _ _ _) R2'). cbn [bind].
      rewrite R3, R3'. cbn [vget_idx]. rewrite (proj2 (vget_ok _ _ _) R4), (proj2 (vget_ok _ _ _) R4'). cbn [bind]. rewrite E3. cbn. exists o, o'.
      split; [right; apply (edge_neighbour m1 m1' n e ed o); eauto using nth_error_In|]. split; [apply (edge_neighbour m1 m1' n e' ed' o'); eauto using nth_error_In|].
      now rewrite (node_of_nth _ _ _ Ep), (node_of_nth _ _ _ R4), (node_of_nth _ _ _ R4').
  Qed.

  (** *** Crossed boundary edges *)
  Lemma crosses_edge_at g p q e a b x r r2 r' : nth_error (m_edges (g_mesh g)) e = Some (Some a, Some b) ->
    cross p q (node_of (g_mesh g) a) (node_of (g_mesh g) b) = (x, r, r2) -> crosses_edge cross g p q e r' -> x = true /\ r' = r.
  Proof. intros E1 E2 (a' & b' & r2' & E3 & E4). rewrite E1 in E3. injection E3 as <- <-. rewrite E2 in E4. injection E4 as -> -> ->. auto. Qed.
  Lemma crossed_found t g p q : ready g ->
    safe t (fun r => match r with (Some i, Some _) => i < num_faces (g_faces g) /\ on_boundary (g_faces g) i /\ first_crossed cross g p q i | (None, None) => sees_nothing cross g p q | _ => False end)
      (crossed_boundary cross g p q).
  Proof.
    intros R. unfold crossed_boundary. pose proof (proj1 (proj1 R)) as T.
    set (before := fun k best => forall e' i' r', e' < k -> faces_with (g_faces g) e' = [i'] -> crosses_edge cross g p q e' r' -> SFltb r' best = false).
    set (Inv := fun k (st : double * option nat * option nat) => let '(best, face, found) := st in
      before k best /\ (face = None -> best = largest_double) /\
      match face, found with Some i, Some e => i < num_faces (g_faces g) /\ on_boundary (g_faces g) i /\ faces_with (g_faces g) e = [i] /\ crosses_edge cross g p q e best
      | None, None => True | _, _ => False end).
    apply (safe_bind t (Inv (length (m_edges (g_mesh g))))).
    - apply (safe_fold t Inv); [|split; [intros ? ? ? Hx; lia|split; [reflexivity|exact I]]].
      intros e [[best face] found] He (B & Big & Inv'). unfold boundary_step.
      assert (Le : e < length (edges_num_faces (g_faces g))) by (destruct T as (_ & _ & -> & _); auto).
      apply (safe_bind _ _ _ _ _ (safe_get _ _ _ Le)). intros k Hk. destruct (Nat.eqb_spec k 1) as [->|Nk]; cbn [negb].
      2:{ cbn. split; [|split; [exact Big|exact Inv']]. intros e' i' r' He' Hw Hc. destruct (Nat.eq_dec e' e) as [->|]; [|apply (B e' i'); auto; lia].
          destruct T as (_ & _ & _ & _ & T). destruct (T e He) as (_ & T5 & _). rewrite Hw, Hk in T5. injection T5 as ->. now contradiction Nk. }
      destruct (boundary_face_of g e R He Hk) as (i & a & b & B0 & B1 & B2 & B3 & B4 & B5 & B6).
      rewrite (proj2 (vget_ok _ _ _) B4). cbn [bind fst snd vget_idx].
      apply (safe_bind _ _ _ _ _ (safe_get _ _ _ B5)). intros pa Ha. apply (safe_bind _ _ _ _ _ (safe_get _ _ _ B6)). intros pb Hb.
      destruct (cross p q pa pb) as [[x r] r2] eqn:Ec. rewrite <- (node_of_nth _ _ _ Ha), <- (node_of_nth _ _ _ Hb) in Ec.
      destruct (x && SFltb r best) eqn:Ex.
      + apply andb_prop in Ex as (-> & Lt). rewrite (proj2 (vget_ok _ _ _) B3). cbn. split; [|split; [discriminate|repeat split; auto; exists a, b, r2; auto]].
        intros e' i' r' He' Hw Hc. destruct (Nat.eq_dec e' e) as [->|].
        * destruct (crosses_edge_at _ _ _ _ _ _ _ _ _ _ B4 Ec Hc) as (_ & ->). apply SFltb_irrefl.
        * destruct (SFltb r' r) eqn:L'; auto. rewrite <- (SFltb_trans _ _ _ L' Lt). apply (B e' i'); auto. lia.
      + cbn. split; [|split; [exact Big|exact Inv']]. intros e' i' r' He' Hw Hc. destruct (Nat.eq_dec e' e) as [->|]; [|apply (B e' i'); auto; lia].
        destruct (crosses_edge_at _ _ _ _ _ _ _ _ _ _ B4 Ec Hc) as (-> & ->). exact Ex.
    - intros [[best face] found] (B & Big & Inv'). cbn. destruct face as [i|], found as [e|]; auto.
      2:{ intros e i r Hw Hc. rewrite (Big eq_refl) in B. destruct (SFltb r (double_of 2 0)) eqn:L; auto. rewrite <- (B e i r); auto; [symmetry; apply (SFltb_trans _ _ _ L); vm_compute; reflexivity|].
          destruct Hc as (a & b & r2 & Hc & _). apply nth_error_Some. intros X; discriminate (eq_trans (eq_sym Hc) X). }
      destruct Inv' as (I1 & I2 & I3 & I4). repeat split; auto. exists e, best. repeat split; auto.
      intros e' i' r' Hw Hc. apply (B e' i'); auto. destruct Hc as (a & b & r2 & Hc & _). apply nth_error_Some. congruence.
  Qed.

  (** *** Crossings with the one-dimensional mesh and with contacts *)
  Local Notation crosses := (crossing cross).
  Definition edges_here (m1 : mesh) : Prop := forall e, In e (m_edges m1) -> exists a b, e = (Some a, Some b) /\ a < length (m_nodes m1) /\ b < length (m_nodes m1).
  Lemma crosses_mesh1d_false (t : Prop) m1 p c es : edges_here m1 \/ t -> (forall e, In e es -> e < length (m_edges m1)) ->
    safe t (fun x : bool => if x then exists a b, In (Some a, Some b) (m_edges m1) /\ crosses p c (node_of m1 a) (node_of m1 b) = true
      else forall e a b, In e es -> nth_error (m_edges m1) e = Some (Some a, Some b) ->
      crosses p c (node_of m1 a) (node_of m1 b) = false) (crosses_mesh1d cross m1 p c es).
  Proof.
    intros T. induction es as [|e r IH]; intros Hes; cbn [crosses_mesh1d]; [intros ? ? ? []|]. unfold edge_ends, checked_edge.
    destruct (nth_error (m_edges m1) e) as [[oa ob]|] eqn:E; [|apply nth_error_None in E; specialize (Hes e (or_introl eq_refl)); lia]. cbn [bind fst snd]. unfold checked_node.
    assert (T' : (exists a b, oa = Some a /\ ob = Some b /\ a < length (m_nodes m1) /\ b < length (m_nodes m1)) \/ t).
    { destruct T as [T|T]; auto. left. destruct (T _ (nth_error_In _ _ E)) as (a & b & [= -> ->] & H). exists a, b. tauto. }
    destruct oa as [a|]; [|destruct T' as [(? & ? & T' & _)|T']; [discriminate|exact T']].
    destruct (nth_error (m_nodes m1) a) as [pa|] eqn:Ea; [|destruct T' as [(? & ? & [= <-] & _ & T' & _)|T']; [apply nth_error_None in Ea; lia|exact T']]. cbn [bind].
    destruct ob as [b|]; [|destruct T' as [(? & ? & _ & T' & _)|T']; [discriminate|exact T']].
    destruct (nth_error (m_nodes m1) b) as [pb|] eqn:Eb; [|destruct T' as [(? & ? & _ & [= <-] & _ & T')|T']; [apply nth_error_None in Eb; lia|exact T']]. cbn [bind].
    destruct (crossing cross p c pa pb) eqn:Ec; [exists a, b; rewrite (node_of_nth _ _ _ Ea), (node_of_nth _ _ _ Eb); split; [now apply nth_error_In with e|exact Ec]|].
    eapply safe_imp; [apply IH; intros; apply Hes; cbn; auto|]. cbn. intros [|] Hx; [exact Hx|]. intros e' a' b' [<-|He'] He2; [|now apply (Hx e')].
    rewrite E in He2. injection He2 as <- <-. now rewrite (node_of_nth _ _ _ Ea), (node_of_nth _ _ _ Eb).
  Qed.
  Lemma crosses_contact_false t m1 g p c l : (forall n i, In (n, i) l -> n < length (m_nodes m1) /\ i < length (g_circum g)) ->
    safe t (fun x : bool => if x then exists n i, In (n, i) l /\ crosses p c (node_of m1 n) (centre_of g i) = true else forall n i, In (n, i) l -> crosses p c (node_of m1 n) (centre_of g i) = false)
      (crosses_contact cross m1 g p c (map (fun x => Some (fst x)) l) (map (fun x => Some (snd x)) l)).
  Proof.
    induction l as [|[n i] r IH]; intros H; cbn [map crosses_contact fst snd]; [intros ? ? []|]. unfold checked_node. destruct (H n i (or_introl eq_refl)) as (Hn & Hi).
    destruct (nth_error (m_nodes m1) n) as [pn|] eqn:En; [|apply nth_error_None in En; lia]. cbn [bind vget_idx].
    apply (safe_bind _ _ _ _ _ (safe_get _ (g_circum g) i Hi)). intros pc Hc.
    assert (Eq : crosses p c (node_of m1 n) (centre_of g i) = crossing cross p c pn pc) by (rewrite (node_of_nth _ _ _ En); unfold centre_of; now rewrite (nth_error_nth _ _ _ Hc)).
    destruct (crossing cross p c pn pc) eqn:Ec; [exists n, i; split; [left; reflexivity|exact Eq]|]. eapply safe_imp; [apply IH; intros; apply H; right; auto|]. cbn.
    intros [|] Hx; [destruct Hx as (n' & i' & Hx & Hx'); exists n', i'; auto|]. intros n' i' [[= <- <-]|Hin]; [exact Eq|now apply Hx].
  Qed.

  (** *** Single contacts *)
  Section Single.
    Variable m0 m1 : mesh.
    Variable g : mesh2.
    Hypothesis A : administrated1 order m0 m1.
    Hypothesis R : ready g.
    Variable t : Prop.
    Hypothesis Tl : forall n, n < length (m_nodes m1) -> degree_of m1 n = 0 -> t.
    Hypothesis Te : edges_here m1 \/ t.

    Local Notation projected_contact := (projected_contact cross project m1 g).
    Lemma connect_found n factor opposite f l : n < length (m_nodes m1) -> f = factor \/ f = opposite -> (forall n i, In (n, i) l -> n < length (m_nodes m1) /\ i < num_faces (g_faces g)) ->
      safe t (fun c => (c = append no_contacts l /\ served cross project m1 g l n f) \/
          exists i, c = append no_contacts (l ++ [(n, i)]) /\ projected_contact factor opposite l n i /\ served cross project m1 g (l ++ [(n, i)]) n f)
        (connect_projected cross project m1 g n f (append no_contacts l)).
    Proof.
      intros Hn Hf Hl. unfold connect_projected. apply (safe_bind _ _ _ _ _ (projected_found t m0 m1 n f (Tl n Hn) A Hn)). intros q Hq.
      unfold checked_node. destruct (nth_error (m_nodes m1) n) as [p|] eqn:Hp; [|apply nth_error_None in Hp; lia]. cbn [bind].
      rewrite <- (node_of_nth _ _ _ Hp). set (p' := node_of m1 n) in *.
      apply (safe_bind _ _ _ _ _ (crossed_found t g p' q R)). intros [[i|] [e|]] Hx; try easy; [|left; split; [reflexivity|exists q; split; [exact Hq|left; exact Hx]]].
      destruct Hx as (X1 & X2 & X3). assert (Li : i < length (g_circum g)) by (rewrite (proj1 (proj2 R)); auto).
      apply (safe_bind _ _ _ _ _ (safe_get _ _ _ Li)). intros c Hc. assert (Ec : centre_of g i = c) by (unfold centre_of; now apply nth_error_nth). rewrite <- Ec in *. clear c Hc Ec.
      apply (safe_bind _ _ _ _ _ (crosses_mesh1d_false t m1 p' (centre_of g i) (seq 0 (length (m_edges m1))) Te (fun e He => proj2 (proj1 (in_seq _ _ _) He)))). intros x Hx.
      destruct x; [left; split; [reflexivity|]; exists q; split; [exact Hq|]; right; exists i; split; [exact X3|]; right; left; exact Hx|].
      assert (Hl' : forall n i, In (n, i) l -> n < length (m_nodes m1) /\ i < length (g_circum g)) by (intros; rewrite (proj1 (proj2 R)); eauto).
      apply (safe_bind _ _ _ _ _ (crosses_contact_false t m1 g p' (centre_of g i) l Hl')). intros y Hy.
      destruct y; [left; split; [reflexivity|]; exists q; split; [exact Hq|]; right; exists i; split; [exact X3|]; right; right; exact Hy|].
      right. exists i. split; [apply append_one|]. split; [|exists q; split; [exact Hq|]; right; exists i; split; [exact X3|]; left; apply in_or_app; right; left; reflexivity].
      repeat split; auto; [exists f, q; auto|]. intros a b Hab. apply In_nth_error in Hab as (e' & He'). apply (Hx e'); auto. assert (e' < length (m_edges m1)) by (apply nth_error_Some; intros X; discriminate (eq_trans (eq_sym He') X)). apply in_seq. lia.
    Qed.
    Lemma served_more l l' n f : (forall x, In x l -> In x l') -> served cross project m1 g l n f -> served cross project m1 g l' n f.
    Proof.
      intros H (q & Q & [S|(i & F & [I|[B|(n' & i' & B & B')]])]); exists q; (split; [exact Q|]); [left; exact S| | |]; right; exists i; (split; [exact F|]); [left; auto|right; left; exact B|].
      right. right. exists n', i'. auto.
    Qed.

    Variable mask : list bool.
    Variable inside : point -> bool.
    Hypothesis Lm : length mask = length (m_nodes m1).
    Hypothesis Nm : mask <> [].
    Local Notation chosen_node := (chosen_node mask inside m1).
    Local Notation single_contacts := (single_contacts cross project in_polygon nearest_edge mask inside m1 g).
    Variable node_faces : list (option nat).
    Hypothesis Lf : length node_faces = length (m_nodes m1).
    Hypothesis Hf : forall i p, nth_error (m_nodes m1) i = Some p -> exists x, nth_error node_faces i = Some x /\
      match x with Some k => k < num_faces (g_faces g) /\ located g p k | None => forall k, ~ located g p k end.

    Definition single_inv factor opposite (k : nat) (c : contacts) : Prop :=
      exists l, c = append no_contacts l /\ (forall n i, In (n, i) l -> n < k) /\ single_contacts factor opposite k l.
    Lemma four_more factor opposite l n i : (forall l1 n i l2, l = l1 ++ (n, i) :: l2 -> (forall i, ~ located g (node_of m1 n) i) -> projected_contact factor opposite l1 n i) ->
      ((forall i, ~ located g (node_of m1 n) i) -> projected_contact factor opposite l n i) ->
      forall l1 n' i' l2, l ++ [(n, i)] = l1 ++ (n', i') :: l2 -> (forall i, ~ located g (node_of m1 n') i) -> projected_contact factor opposite l1 n' i'.
    Proof.
      intros H1 H2 l1 n' i' l2 E O. destruct (snoc_cases _ _ _ _ _ E) as [(-> & [= -> ->] & _)|(r & _ & E')]; [auto|]. now apply (H1 l1 n' i' r).
    Qed.
    Lemma single_safe factor opposite n c : n < length (m_nodes m1) -> single_inv factor opposite n c ->
      safe t (single_inv factor opposite (S n)) (single_step cross project m1 g mask inside factor opposite node_faces c n).
    Proof.
      intros Hn (l & -> & Lt & S1 & S2 & S3 & S4 & S5). unfold single_step. apply (safe_bind _ _ _ _ _ (safe_get _ _ _ Hn)). intros p Hp.
      assert (En : node_of m1 n = p) by now apply node_of_nth.
      assert (None_n : faces_of n l = []) by (apply faces_of_none; intros [n' i'] Hx; specialize (Lt _ _ Hx); cbn; lia).
      assert (Skip : ~ chosen_node n -> safe t (single_inv factor opposite (S n)) (Ok (append no_contacts l))).
      { intros NC. exists l. split; auto. split; [intros n' i' Hx; specialize (Lt _ _ Hx); lia|]. split; [exact S1|]. split; [|split; [exact S3|split; [exact S4|]]].
        - intros n' i' Hn' C. assert (n' <> n) by (intros ->; auto). apply S2; [lia|exact C].
        - intros n' f Hn' C. assert (n' <> n) by (intros ->; auto). apply S5; [lia|exact C]. }
      destruct (inside p) eqn:Ei; cbn [negb].
      2:{ apply Skip. intros (_ & _ & C). rewrite En in C. congruence. }
      assert (Em : (match mask with [] => Ok true | _ => vget mask n end) = vget mask n) by (destruct mask; [now contradiction Nm|reflexivity]). rewrite Em. clear Em.
      assert (Lmn : n < length mask) by lia. apply (safe_bind _ _ _ _ _ (safe_get _ _ _ Lmn)). intros u Hu. destruct u; cbn [negb].
      2:{ apply Skip. intros (_ & C & _). unfold unmasked in C. congruence. }
      assert (C : chosen_node n) by (split; [auto|split; [exact Hu|now rewrite En]]).
      destruct (Hf n p Hp) as (x & Hx & Fx). rewrite (proj2 (vget_ok _ _ _) Hx). cbn [bind].
      assert (Old : forall n' is, n' < n -> faces_of n' (l ++ map (pair n) is) = faces_of n' l).
      { intros n' is Hn'. rewrite faces_of_app, (faces_of_none n' (map _ is)), app_nil_r; auto. intros y Hy. apply in_map_iff in Hy as (j & <- & _). cbn. lia. }
      assert (Oth : forall n' is, n' <> n -> faces_of n' (l ++ map (pair n) is) = faces_of n' l).
      { intros n' is Hn'. rewrite faces_of_app, (faces_of_none n' (map _ is)), app_nil_r; auto. intros y Hy. apply in_map_iff in Hy as (j & <- & _). cbn. lia. }
      assert (New : forall is, faces_of n (l ++ map (pair n) is) = is) by (intros is; rewrite faces_of_app, None_n; apply faces_of_same).
      assert (Lt' : forall is n' i', In (n', i') (l ++ map (pair n) is) -> n' < S n).
      { intros is n' i' Hy. apply in_app_or in Hy as [Hy|Hy]; [apply Lt in Hy; lia|]. apply in_map_iff in Hy as (j & [= <- _] & _). lia. }
      assert (S1' : forall is, (forall i, In i is -> i < num_faces (g_faces g)) -> forall n' i', In (n', i') (l ++ map (pair n) is) -> chosen_node n' /\ i' < num_faces (g_faces g)).
      { intros is His n' i' Hy. apply in_app_or in Hy as [Hy|Hy]; [now apply S1|]. apply in_map_iff in Hy as (j & [= <- <-] & Hj). auto. }
      assert (S3' : forall is, length is <= 2 -> forall n', (forall i, ~ located g (node_of m1 n') i) -> length (faces_of n' (l ++ map (pair n) is)) <= 2).
      { intros is His n' O. destruct (Nat.eq_dec n' n) as [->|N']; [now rewrite New|]. rewrite Oth by auto. now apply S3. }
      destruct x as [f|].
      - destruct Fx as (F1 & F2). rewrite <- En in F2. exists (l ++ map (pair n) [f]). split; [apply append_one|]. split; [apply Lt'|]. split; [|split; [|split; [|split]]].
        + apply (S1' [f]). intros i [<-|[]]; auto.
        + intros n' i' Hn' C' Loc. destruct (Nat.eq_dec n' n) as [->|N'].
          * exists f. rewrite New. auto.
          * rewrite Oth by auto. apply (S2 n' i'); auto. lia.
        + apply (S3' [f]). cbn; lia.
        + intros l1 n' i' l2 E O. apply (four_more factor opposite l n f S4) with l2; auto. intros O'. exfalso. now apply (O' f).
        + intros n' f' Hn' C' O Hf'. destruct (Nat.eq_dec n' n) as [->|N']; [exfalso; now apply (O f)|]. apply served_more with l; [intros; apply in_or_app; auto|]. apply S5; auto. lia.
      - rewrite <- En in Fx.
        assert (S2' : forall is n' i', n' < S n -> chosen_node n' -> located g (node_of m1 n') i' -> exists j, faces_of n' (l ++ map (pair n) is) = [j] /\ located g (node_of m1 n') j).
        { intros is n' i' Hn' C' Loc. destruct (Nat.eq_dec n' n) as [->|N']; [exfalso; now apply (Fx i')|]. rewrite Oth by auto. apply (S2 n' i'); auto. lia. }
        assert (Fin : forall is, length is <= 2 -> (forall i, In i is -> i < num_faces (g_faces g)) ->
          (forall l1 n' i' l2, l ++ map (pair n) is = l1 ++ (n', i') :: l2 -> (forall i, ~ located g (node_of m1 n') i) -> projected_contact factor opposite l1 n' i') ->
          served cross project m1 g (l ++ map (pair n) is) n factor -> served cross project m1 g (l ++ map (pair n) is) n opposite ->
          single_inv factor opposite (S n) (append no_contacts (l ++ map (pair n) is))).
        { intros is L1 L2 L3 L4 L5. exists (l ++ map (pair n) is). split; auto. split; [apply Lt'|]. split; [now apply S1'|]. split; [intros; eapply S2'; eauto|]. split; [now apply S3'|]. split; [exact L3|].
          intros n' f Hn' C' O Ho. destruct (Nat.eq_dec n' n) as [->|N']; [destruct Ho as [->| ->]; auto|]. apply served_more with l; [intros; apply in_or_app; auto|]. apply S5; auto. lia. }
        apply (safe_bind _ _ _ _ _ (connect_found n factor opposite factor l Hn (or_introl eq_refl) (fun n i H => conj (proj1 (proj1 (S1 n i H))) (proj2 (S1 n i H))))).
        intros c [(-> & V1) | (i & -> & Pi & V1)].
        + eapply safe_imp; [apply (connect_found n factor opposite opposite l Hn (or_intror eq_refl) (fun n i H => conj (proj1 (proj1 (S1 n i H))) (proj2 (S1 n i H))))|].
          intros c [(-> & V2) | (i & -> & Pi & V2)].
          * rewrite <- (app_nil_r l). apply (Fin []); cbn; rewrite ?app_nil_r; auto. easy.
          * apply (Fin [i]); cbn; [lia|intros j [<-|[]]; apply Pi| | |]; [now apply four_more| |exact V2]. apply served_more with l; [intros; apply in_or_app; auto|exact V1].
        + assert (S4' := four_more factor opposite l n i S4 (fun _ => Pi)).
          eapply safe_imp; [apply (connect_found n factor opposite opposite (l ++ [(n, i)]) Hn (or_intror eq_refl))|].
          { intros n' i' H. apply (S1' [i]) in H; [split; apply H|]. intros j [<-|[]]. apply Pi. }
          intros c [(-> & V2) | (j & -> & Pj & V2)].
          * apply (Fin [i]); cbn; [lia|intros j [<-|[]]; apply Pi| | |]; [exact S4'|exact V1|exact V2].
          * replace ((l ++ [(n, i)]) ++ [(n, j)]) with (l ++ map (pair n) [i; j]) in V2 |- * by (cbn; now rewrite <- app_assoc).
            apply (Fin [i; j]); cbn [length]; [lia|intros k [<-|[<-|[]]]; [apply Pi|apply Pj]| | |exact V2].
            { cbn [map]. replace (l ++ [(n, i); (n, j)]) with ((l ++ [(n, i)]) ++ [(n, j)]) by now rewrite <- app_assoc. now apply four_more. }
            { apply served_more with (l ++ [(n, i)]); [|exact V1]. intros y Hy. cbn [map]. apply in_app_or in Hy as [Hy|[<-|[]]]; apply in_or_app; cbn; auto. }
    Qed.
  End Single.

  Lemma single_result mask inside factor opposite m1 g : consistent m1 -> ready g ->
    safe (unprepared mask m1 g \/ (exists p, nearest_edge (g_mesh g) p = None) \/ dead_edge m1 \/ lonely_node order m1)
      (fun c => exists m1' l, administrate order m1 = Ok m1' /\ c = append no_contacts l /\
      single_contacts cross project in_polygon nearest_edge mask inside m1' g factor opposite (length (m_nodes m1')) l)
      (compute_single order cross project in_polygon nearest_edge mask inside factor opposite m1 g no_contacts).
  Proof.
    intros C R. unfold compute_single. set (t := _ \/ _). apply (safe_bind _ _ _ _ _ (prepare_safe order order_perm t mask m1 g (fun H => or_introl H) C)). intros m1' (A & Lm & Nm).
    apply (safe_bind _ _ _ _ _ (point_faces_found in_polygon nearest_edge nearest_edge_in t g (m_nodes m1') (fun p H => or_intror (or_introl (ex_intro _ p H))) R)). intros nf (Lf & Hf).
    eapply safe_imp; [apply (safe_fold t (single_inv m1' g mask inside factor opposite))|].
    - intros k c Hk. apply single_safe with m1; auto.
      + intros n Hn D. right. right. right. exists m1', n. split; [apply A|]. auto.
      + destruct (administrated_edges order order_perm m1 m1' C A) as [E|E]; [left; exact E|right; right; right; left; exact E].
    - exists []. split; [symmetry; apply append_nil|]. split; [intros ? ? []|]. split; [intros ? ? []|]. split; [intros; lia|]. split; [cbn; lia|]. split; [intros l1 n i l2 E; now destruct l1|]. intros; lia.
    - intros c (l & -> & _ & S). exists m1', l. split; [apply A|]. auto.
  Qed.
End Contacts.

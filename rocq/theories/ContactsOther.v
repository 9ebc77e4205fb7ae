(** Contacts: multiple contacts, boundary contacts, contacts with polygons and with points. *)
From Coq Require Import Permutation Sorted.
From Verif Require Import Base BaseLemmas FloatModel MeshModel MeshSpec MeshProofs MeshAdj MeshConstruct MeshUndo MeshEdits MeshFacts FaceModel FaceSpec FaceUseSpec FaceUse FaceMain FaceUseMain
  ContactsModel ContactsSpec ContactsProofs ContactsMain.

Section Contacts.
  Variable order : list point -> list edge -> nat -> list (option nat) -> list (option nat).
  Hypothesis order_perm : forall nodes edges n row, Permutation row (order nodes edges n row).
  Variable clockwise : projection -> list point -> bool.
  Variable circum_of mass_of : mesh -> faces -> list point.
  Variable cross : point -> point -> point -> point -> bool * double * double.
  Variable dist2 : point -> point -> double.
  Variable in_polygon : point -> list point -> bool.
  Variable nearest_edge nearest_node : mesh -> point -> option nat.
  Variable near_faces : list point -> point -> nat -> option (list nat).
  Hypothesis nearest_edge_in : forall m p e, nearest_edge m p = Some e -> e < length (m_edges m).
  Hypothesis nearest_node_in : forall m p n, nearest_node m p = Some n -> n < length (m_nodes m).
  Hypothesis near_faces_in : forall l p n r i, near_faces l p n = Some r -> In i r -> i < length l.
  Local Notation located := (located in_polygon nearest_edge).
  Local Notation near := (near near_faces).

  (** *** Administration makes the mesh ready *)
  Lemma administrate_faces_ready g0 g : (forall m f, length (circum_of m f) = num_faces f) -> (forall m f, length (mass_of m f) = num_faces f) ->
    well_indexed (m_nodes (g_mesh g0)) (m_edges (g_mesh g0)) -> administrate_faces order clockwise circum_of mass_of g0 = Ok g ->
    ready g /\ administrate_faces order clockwise circum_of mass_of g = Ok g.
  Proof.
    intros L1 L2 W H. unfold administrate_faces in H. destruct (administrate2d order clockwise (g_mesh g0)) as [[m f]| |] eqn:E; cbn [bind] in H; try discriminate. injection H as <-.
    split.
    - split; [apply (search_usable order order_perm clockwise (g_mesh g0)); auto|]. cbn. split; [apply L1|]. split; [apply L2|].
      intros es e Hes He. destruct (faces_cycles order order_perm clockwise _ _ _ W E) as (Lf & Hc). apply In_nth_error in Hes as (i & Hi).
      assert (Hl : i < length (faces_edges f)) by (apply nth_error_Some; congruence). destruct (nth_error (faces_nodes f) i) as [ns|] eqn:En; [|apply nth_error_None in En; lia].
      destruct (Hc i ns es En Hi) as (C1 & C2 & C3 & (C4 & C5) & _ & C6). apply In_nth_error in He as (j & Hj).
      assert (Hj' : j < length es) by (apply nth_error_Some; congruence).
      destruct (nth_error ns j) as [a|] eqn:Ea; [|apply nth_error_None in Ea; lia].
      assert (Hb : S j mod length ns < length ns) by (apply Nat.mod_upper_bound; lia).
      destruct (nth_error ns (S j mod length ns)) as [b|] eqn:Eb; [|apply nth_error_None in Eb; lia].
      destruct (C5 j a b e) as (He & J); unfold cyclic; try (rewrite C4; assumption); [rewrite Nat.mod_small by lia; auto|auto|rewrite Nat.mod_small by lia; auto|].
      assert (V : forall n, In n ns -> n < length (m_nodes m)) by (intros n Hn; apply C6 in Hn; unfold valid_at in Hn; apply nth_error_Some; destruct (nth_error (m_nodes m) n); congruence).
      unfold edge_at in J. assert (Ha : a < length (m_nodes m)) by (apply V; eapply nth_error_In; eauto). assert (Hb' : b < length (m_nodes m)) by (apply V; eapply nth_error_In; eauto).
      destruct J as [J|J]; [exists a, b|exists b, a]; (split; [rewrite <- J; apply nth_error_nth'; auto|auto]).
    - unfold administrate_faces. cbn [g_mesh g_faces_update].
      destruct (administrate_marks order order_perm (g_mesh g0) W) as (m' & M1 & M2 & _). unfold administrate2d in *. rewrite M1 in E. cbn [bind] in E.
      destruct (find_faces clockwise m' (no_faces m')) as [f'| |] eqn:Ef; cbn [bind] in E; try discriminate. injection E as <- <-. rewrite M2. cbn [bind]. rewrite Ef. reflexivity.
  Qed.

  (** *** Multiple contacts *)
  Section Multiple.
    Variable m1 : mesh.
    Variable g : mesh2.
    Hypothesis R : ready g.
    Variable mask : list bool.
    Hypothesis Lm : length mask = length (m_nodes m1).
    Hypothesis Nm : mask <> [].
    Variable t : Prop.
    Hypothesis Tn : forall p n, near_faces (g_circum g) p n = None -> t.
    Variable node_faces : list (option nat).
    Hypothesis Lf : length node_faces = length (m_nodes m1).
    Hypothesis Hf : forall i p, nth_error (m_nodes m1) i = Some p -> exists x, nth_error node_faces i = Some x /\
      match x with Some k => k < num_faces (g_faces g) /\ located g p k | None => forall k, ~ located g p k end.
    Local Notation multiple_contact := (multiple_contact cross dist2 in_polygon nearest_edge mask m1 g).

    Lemma multiple_face_safe a b i es : i < num_faces (g_faces g) -> a < length (m_nodes m1) -> b < length (m_nodes m1) ->
      (forall e, In e es -> exists x y, nth_error (m_edges (g_mesh g)) e = Some (Some x, Some y) /\ x < length (m_nodes (g_mesh g)) /\ y < length (m_nodes (g_mesh g))) ->
      safe t (fun r => match r with
        | Some n => n < length (m_nodes m1) /\ (exists e r, In e es /\ crosses_edge cross g (node_of m1 a) (node_of m1 b) e r) /\
            nearer_end dist2 m1 a b (centre_of g i) n /\ unmasked mask n /\ exists j, located g (node_of m1 n) j
        | None => forall n e r, In e es -> crosses_edge cross g (node_of m1 a) (node_of m1 b) e r -> nearer_end dist2 m1 a b (centre_of g i) n -> unmasked mask n ->
            forall j, ~ located g (node_of m1 n) j
        end) (multiple_face cross dist2 m1 g mask node_faces (Some a) (Some b) i es).
    Proof.
      intros Hi Ha Hb. induction es as [|e es IH]; intros He; cbn [multiple_face]; [intros ? ? ? []|].
      destruct (He e (or_introl eq_refl)) as (x & y & E1 & Hx & Hy). unfold edge_ends, checked_edge. rewrite E1. cbn [bind fst snd].
      destruct (nth_error (m_nodes (g_mesh g)) x) as [px|] eqn:Ex; [|apply nth_error_None in Ex; lia].
      destruct (nth_error (m_nodes (g_mesh g)) y) as [py|] eqn:Ey; [|apply nth_error_None in Ey; lia].
      destruct (nth_error (m_nodes m1) a) as [pa|] eqn:Ea; [|apply nth_error_None in Ea; lia].
      destruct (nth_error (m_nodes m1) b) as [pb|] eqn:Eb; [|apply nth_error_None in Eb; lia].
      unfold checked_node. rewrite Ex, Ey. cbn [bind]. rewrite Ea, Eb. cbn [bind].
      destruct (cross pa pb px py) as [[c r] r2] eqn:Ec. pose proof Ec as Ec'.
      rewrite <- (node_of_nth _ _ _ Ea), <- (node_of_nth _ _ _ Eb), <- (node_of_nth _ _ _ Ex), <- (node_of_nth _ _ _ Ey) in Ec.
      (* skipping this edge *)
      assert (Skip : (forall n r, crosses_edge cross g (node_of m1 a) (node_of m1 b) e r -> nearer_end dist2 m1 a b (centre_of g i) n -> unmasked mask n -> forall j, ~ located g (node_of m1 n) j) ->
        safe t (fun r => match r with
        | Some n => n < length (m_nodes m1) /\ (exists e0 r, In e0 (e :: es) /\ crosses_edge cross g (node_of m1 a) (node_of m1 b) e0 r) /\
            nearer_end dist2 m1 a b (centre_of g i) n /\ unmasked mask n /\ exists j, located g (node_of m1 n) j
        | None => forall n e0 r, In e0 (e :: es) -> crosses_edge cross g (node_of m1 a) (node_of m1 b) e0 r -> nearer_end dist2 m1 a b (centre_of g i) n -> unmasked mask n ->
            forall j, ~ located g (node_of m1 n) j
        end) (multiple_face cross dist2 m1 g mask node_faces (Some a) (Some b) i es)).
      { intros H. eapply safe_imp; [apply IH; intros; apply He; cbn; auto|]. intros [n|].
        - intros (P0 & (e' & r' & P1 & P2) & P3). split; auto. split; [exists e', r'; cbn; auto|exact P3].
        - intros P n e' r' [<-|Hin]; [now apply H|now apply P]. }
      destruct c; cbn [negb].
      2:{ apply Skip. intros n r' (x' & y' & r3 & E2 & E3). rewrite E1 in E2. injection E2 as <- <-. rewrite Ec in E3. discriminate. }
      assert (Li : i < length (g_circum g)) by (rewrite (proj1 (proj2 R)); auto). apply (safe_bind _ _ _ _ _ (safe_get _ _ _ Li)). intros c Hc.
      assert (Ecn : centre_of g i = c) by (unfold centre_of; now apply nth_error_nth).
      set (n := if SFleb (dist2 pa c) (dist2 pb c) then a else b).
      assert (En : (if SFleb (dist2 pa c) (dist2 pb c) then Some a else Some b) = Some n) by (unfold n; now destruct (SFleb _ _)). rewrite En.
      assert (Hn : n < length (m_nodes m1)) by (unfold n; now destruct (SFleb _ _)).
      assert (Near : forall n', nearer_end dist2 m1 a b (centre_of g i) n' <-> n' = n).
      { intros n'. unfold nearer_end, n. rewrite Ecn, (node_of_nth _ _ _ Ea), (node_of_nth _ _ _ Eb). destruct (SFleb (dist2 pa c) (dist2 pb c)); split; intuition congruence. }
      assert (Em : (match mask with [] => Ok true | _ => vget_idx mask (Some n) end) = vget mask n) by (destruct mask; [now contradiction Nm|reflexivity]). rewrite Em. clear Em.
      assert (Lmn : n < length mask) by lia. apply (safe_bind _ _ _ _ _ (safe_get _ _ _ Lmn)). intros u Hu. destruct u; cbn [negb].
      2:{ apply Skip. intros n' r' _ Hn' C. apply Near in Hn' as ->. unfold unmasked in C. congruence. }
      destruct (nth_error (m_nodes m1) n) as [pn|] eqn:Epn; [|apply nth_error_None in Epn; lia].
      destruct (Hf n pn Epn) as (z & Hz & Fz). cbn [vget_idx]. rewrite (proj2 (vget_ok _ _ _) Hz). cbn [bind]. rewrite <- (node_of_nth _ _ _ Epn) in Fz. destruct z as [j|].
      - cbn. split; auto. split; [exists e, r; split; [cbn; auto|]; exists x, y, r2; auto|]. split; [now apply Near|]. split; [exact Hu|]. exists j. apply Fz.
      - apply Skip. intros n' r' _ Hn' _. apply Near in Hn' as ->. exact Fz.
    Qed.

    Variable c0 : contacts.
    Definition multiple_inv (k : nat) (extra : nat -> Prop) (st : list bool * contacts) : Prop :=
      exists l, snd st = append c0 l /\ length (fst st) = num_faces (g_faces g) /\ NoDup (map snd l) /\
        (forall i, nth_error (fst st) i = Some true <-> In i (map snd l)) /\
        (forall n i, In (n, i) l -> n < length (m_nodes m1) /\ i < num_faces (g_faces g) /\ exists a b, In (Some a, Some b) (m_edges m1) /\ near m1 g a i /\ multiple_contact a b n i) /\
        (forall e a b n i, e < k \/ (e = k /\ extra i) -> nth_error (m_edges m1) e = Some (Some a, Some b) -> near m1 g a i -> multiple_contact a b n i -> In i (map snd l)).
    Lemma multiple_step_safe k a b i extra st : nth_error (m_edges m1) k = Some (Some a, Some b) -> a < length (m_nodes m1) -> b < length (m_nodes m1) -> near m1 g a i ->
      multiple_inv k extra st -> safe t (multiple_inv k (fun j => extra j \/ j = i)) (multiple_step cross dist2 m1 g mask node_faces (Some a) (Some b) st i).
    Proof.
      intros Ek Ha Hb Nr (l & I1 & I2 & I3 & I4 & I5 & I6). destruct st as [con c]. cbn [fst snd] in *. unfold multiple_step.
      assert (Hi : i < num_faces (g_faces g)) by (destruct Nr as (r & N1 & N2); rewrite <- (proj1 (proj2 R)); eapply near_faces_in; eauto).
      assert (Lc : i < length con) by lia. apply (safe_bind _ _ _ _ _ (safe_get _ _ _ Lc)). intros x Hx. destruct x.
      { exists l. cbn. repeat (split; [assumption|]). intros e a' b' n j [He|(-> & [Hj| ->])]; eauto. intros _ _ _. now apply I4. }
      pose proof R as ((T & U) & R2 & R3 & R4). destruct T as (T1 & T2 & _).
      destruct (nth_error (faces_nodes (g_faces g)) i) as [ns|] eqn:Ens; [|apply nth_error_None in Ens; unfold num_faces in Hi; lia].
      destruct (nth_error (faces_edges (g_faces g)) i) as [es|] eqn:Ees; [|apply nth_error_None in Ees; lia].
      rewrite T2. assert (E1 : nth_error (map (@length nat) (faces_nodes (g_faces g))) i = Some (length ns)) by (rewrite nth_error_map, Ens; reflexivity).
      rewrite (proj2 (vget_ok _ _ _) E1). cbn [bind]. rewrite (proj2 (vget_ok _ _ _) Ees). cbn [bind].
      destruct (U i ns es Ens Ees) as (_ & L2 & _). rewrite L2, (proj2 (Nat.ltb_ge _ _)) by lia. rewrite <- L2, firstn_all.
      assert (Enth : nth i (faces_edges (g_faces g)) [] = es) by now apply nth_error_nth.
      apply (safe_bind _ _ _ _ _ (multiple_face_safe a b i es Hi Ha Hb (fun e He => R4 es e (nth_error_In _ _ Ees) He))). intros [n|].
      - intros (Hn & P1 & P2 & P3 & P4). apply (safe_bind _ _ _ _ _ (safe_set _ con i true Lc)). intros con' ->. exists (l ++ [(n, i)]). cbn [fst snd].
        assert (Ni : ~ In i (map snd l)) by (rewrite <- I4; congruence).
        split; [rewrite I1; apply append_one|]. split; [now rewrite set_nth_length|]. split; [|split; [|split]].
        + rewrite map_app. cbn. apply (Permutation_NoDup (Permutation_cons_append (map snd l) i)). now constructor.
        + intros j. rewrite map_app, in_app_iff. cbn. destruct (Nat.eq_dec j i) as [->|Nj].
          * rewrite nth_error_set_nth_eq by auto. intuition.
          * rewrite nth_error_set_nth_neq by auto. rewrite I4. intuition congruence.
        + intros n' i' Hin. apply in_app_or in Hin as [Hin|[[= <- <-]|[]]]; [now apply I5|]. split; auto. split; auto. exists a, b. split; [eapply nth_error_In; eauto|]. split; auto.
          split; [|auto]. rewrite Enth. exact P1.
        + intros e a' b' n' j Hd Hed Hnr Hmc. rewrite map_app, in_app_iff. cbn. destruct Hd as [He|(-> & [Hj| ->])]; auto; left; eapply I6; eauto.
      - intros P. cbn. exists l. cbn. repeat (split; [assumption|]). intros e a' b' n j Hd Hed Hnr Hmc. destruct Hd as [He|(-> & [Hj| ->])]; eauto.
        exfalso. rewrite Ek in Hed. injection Hed as <- <-. destruct Hmc as ((e & r & M1 & M2) & M3 & M4 & (q & M5)). rewrite Enth in M1. now apply (P n e r M1 M2 M3 M4 q).
    Qed.
    Hypothesis live_edges : forall e, In e (m_edges m1) -> exists a b, e = (Some a, Some b) /\ a < length (m_nodes m1) /\ b < length (m_nodes m1).
    Lemma multiple_edge_safe k st : k < length (m_edges m1) -> multiple_inv k (fun _ => False) st ->
      safe t (multiple_inv (S k) (fun _ => False)) (multiple_edge cross dist2 near_faces m1 g mask node_faces st k).
    Proof.
      intros Hk Inv. unfold multiple_edge, checked_edge. destruct (nth_error (m_edges m1) k) as [ed|] eqn:Ek; [|apply nth_error_None in Ek; lia]. cbn [bind].
      destruct (live_edges ed (nth_error_In _ _ Ek)) as (a & b & -> & Ha & Hb). cbn [fst snd]. unfold checked_node.
      destruct (nth_error (m_nodes m1) a) as [pa|] eqn:Ea; [|apply nth_error_None in Ea; lia]. cbn [bind].
      destruct (near_faces (g_circum g) pa a) as [l|] eqn:El; [|exact (Tn _ _ El)]. pose proof El as El'. rewrite <- (node_of_nth _ _ _ Ea) in El'.
      eapply safe_imp; [apply (safe_fold_list t (fun d st => multiple_inv k (fun i => In i d) st))|].
      - intros d i r st' E Inv'. eapply safe_imp; [apply (multiple_step_safe k a b i (fun j => In j d)); auto; exists l; split; auto; rewrite E; apply in_or_app; cbn; auto|].
        intros st2 (l2 & J1 & J2 & J3 & J4 & J5 & J6). exists l2. repeat (split; [assumption|]). intros e a' b' n j Hd. apply (J6 e a' b' n j).
        destruct Hd as [He|(-> & Hj)]; auto. right. split; auto. apply in_app_or in Hj as [Hj|[<-|[]]]; auto.
      - exact Inv.
      - intros st2 (l2 & J1 & J2 & J3 & J4 & J5 & J6). exists l2. repeat (split; [assumption|]). intros e a' b' n j Hd Hed Hnr. apply (J6 e a' b' n j); auto.
        destruct Hd as [He|(_ & [])]. destruct (Nat.eq_dec e k) as [->|]; [|left; lia]. right. split; auto. rewrite Ek in Hed. injection Hed as <- <-. destruct Hnr as (l' & N1 & N2).
        rewrite El' in N1. injection N1 as <-. exact N2.
    Qed.
  End Multiple.

  Lemma multiple_result mask m1 g c : consistent m1 -> (forall e, In e (m_edges m1) -> live (m_nodes m1) e = true) -> ready g ->
    (g_faces_update g = true -> administrate_faces order clockwise circum_of mass_of g = Ok g) ->
    safe (unprepared mask m1 g \/ (exists p, nearest_edge (g_mesh g) p = None) \/ (exists p n, near_faces (g_circum g) p n = None))
      (fun r => exists m1' l, administrate order m1 = Ok m1' /\ fst r = Mesh2 (g_mesh g) (g_faces g) (g_circum g) (g_mass g) false /\ snd r = append c l /\ NoDup (map snd l) /\
        (forall n i, In (n, i) l -> n < length (m_nodes m1') /\ i < num_faces (g_faces g) /\
           exists a b, In (Some a, Some b) (m_edges m1') /\ near m1' g a i /\ multiple_contact cross dist2 in_polygon nearest_edge mask m1' g a b n i) /\
        (forall a b n i, In (Some a, Some b) (m_edges m1') -> near m1' g a i -> multiple_contact cross dist2 in_polygon nearest_edge mask m1' g a b n i -> In i (map snd l)))
      (compute_multiple order clockwise circum_of mass_of cross dist2 in_polygon nearest_edge near_faces mask m1 g c).
  Proof.
    intros C Lv R U. unfold compute_multiple. set (t := _ \/ _). apply (safe_bind _ _ _ _ _ (prepare_safe order order_perm t mask m1 g (fun H => or_introl H) C)). intros m1' (A & Lm & Nm).
    apply (safe_bind _ _ _ _ _ (point_faces_found in_polygon nearest_edge nearest_edge_in t g (m_nodes m1') (fun p H => or_intror (or_introl (ex_intro _ p H))) R)). intros nf (Lf & Hf).
    assert (E : (if g_faces_update g then let! g := administrate_faces order clockwise circum_of mass_of g in Ok (Mesh2 (g_mesh g) (g_faces g) (g_circum g) (g_mass g) false) else Ok g)
      = Ok (Mesh2 (g_mesh g) (g_faces g) (g_circum g) (g_mass g) false)).
    { destruct (g_faces_update g) eqn:Eu; [rewrite (U eq_refl); reflexivity|]. destruct g; cbn in *; now rewrite Eu. }
    rewrite E. cbn [bind]. clear E U. set (g' := Mesh2 (g_mesh g) (g_faces g) (g_circum g) (g_mass g) false).
    assert (R' : ready g') by exact R.
    assert (Lv' : forall e, In e (m_edges m1') -> exists a b, e = (Some a, Some b) /\ a < length (m_nodes m1') /\ b < length (m_nodes m1')).
    { destruct (administrated_edges order order_perm m1 m1' C A) as [E|(e & E1 & E2)]; [exact E|]. rewrite (Lv e E1) in E2. discriminate. }
    assert (Tn : forall p n, near_faces (g_circum g') p n = None -> t) by (intros p n H; right; right; exists p, n; exact H).
    apply (safe_bind t (multiple_inv m1' g' mask c (length (m_edges m1')) (fun _ => False))).
    - apply (safe_fold t (fun k => multiple_inv m1' g' mask c k (fun _ => False))).
      + intros k st Hk. now apply multiple_edge_safe.
      + exists []. split; [symmetry; apply append_nil|]. cbn. split; [apply repeat_length|]. split; [constructor|]. split; [|split; [intros ? ? []|intros; lia]].
        intros i. split; [|easy]. intros H. apply nth_error_In, repeat_spec in H. discriminate.
    - intros [con c'] (l & J1 & J2 & J3 & J4 & J5 & J6). exists m1', l. split; [apply A|]. split; [reflexivity|]. split; [exact J1|]. split; [exact J3|]. split; [exact J5|].
      intros a b n i Hab. apply In_nth_error in Hab as (e & He). apply (J6 e a b n i); auto. left. apply nth_error_Some. intros X. discriminate (eq_trans (eq_sym He) X).
  Qed.
End Contacts.

(** *** Given contacts *)
Lemma set_indices_ok l1 l2 : set_indices l1 l2 = if negb (length l1 =? 0) && (length l1 =? length l2) then Ok (Contacts l1 l2) else Throw AlgorithmErr.
Proof. destruct l1 as [|x l1], l2 as [|y l2]; reflexivity. Qed.
Lemma set_indices_spec l1 l2 : (length l1 = length l2 /\ l1 <> [] -> set_indices l1 l2 = Ok (Contacts l1 l2)) /\ (length l1 <> length l2 \/ l1 = [] -> set_indices l1 l2 = Throw AlgorithmErr).
Proof.
  rewrite set_indices_ok. split.
  - intros [E N]. rewrite E, Nat.eqb_refl. destruct l1, l2; try discriminate; [congruence|reflexivity].
  - intros [H| ->]; [|reflexivity]. apply Nat.eqb_neq in H. rewrite H. destruct (length l1 =? 0); reflexivity.
Qed.


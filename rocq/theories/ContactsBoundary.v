(** Contacts: boundary contacts, contacts with polygons and with points. *)
From Coq Require Import Permutation Sorted.
From Verif Require Import Base BaseLemmas FloatModel MeshModel MeshSpec MeshProofs MeshAdj MeshConstruct MeshUndo MeshEdits MeshFacts FaceModel FaceSpec FaceUseSpec FaceUse FaceMain FaceUseMain
  ContactsModel ContactsSpec ContactsProofs ContactsMain.

(** *** Boundary contacts *)
Section Boundary.
  Variable order : list point -> list edge -> nat -> list (option nat) -> list (option nat).
  Hypothesis order_perm : forall nodes edges n row, Permutation row (order nodes edges n row).
  Variable dist2 : point -> point -> double.
  Variable near_faces : list point -> point -> nat -> option (list nat).
  Hypothesis near_faces_in : forall l p n r i, near_faces l p n = Some r -> In i r -> i < length l.
  Local Notation near := (near near_faces).

  Lemma has_boundary_safe w g i es : ready g -> nth_error (faces_edges (g_faces g)) i = Some es ->
    forall t, (forall e, In e t -> In e es) ->
    safe w (fun b => b = true <-> exists e, In e t /\ faces_with (g_faces g) e = [i]) (has_boundary_edge (g_faces g) t).
  Proof.
    intros R Hi. induction t as [|e t IH]; intros Ht; cbn [has_boundary_edge]; [split; [easy|intros (? & [] & _)]|].
    pose proof R as ((T & _) & _). destruct T as (T1 & T2 & T3 & T4 & T).
    assert (He : e < length (m_edges (g_mesh g))) by (apply (usable_edges _ _ (proj1 R) es); [eapply nth_error_In; eauto|apply Ht; cbn; auto]).
    destruct (T e He) as (_ & T5 & _). rewrite (proj2 (vget_ok _ _ _) T5). cbn [bind].
    assert (Wi : In i (faces_with (g_faces g) e)).
    { apply with_in. assert (i < length (faces_edges (g_faces g))) by (apply nth_error_Some; congruence). split; [lia|]. rewrite (nth_error_nth _ _ _ Hi). apply Ht. cbn; auto. }
    destruct (Nat.eqb_spec (length (faces_with (g_faces g) e)) 1) as [E|E].
    - split; [|reflexivity]. intros _. exists e. split; [cbn; auto|]. destruct (faces_with (g_faces g) e) as [|x [|]]; try discriminate. destruct Wi as [->|[]]. reflexivity.
    - eapply safe_imp; [apply IH; intros; apply Ht; cbn; auto|]. intros b Hb. rewrite Hb. split; intros (e' & H1 & H2); [exists e'; cbn; auto|].
      destruct H1 as [<-|H1]; [rewrite H2 in E; now contradiction E|exists e'; auto].
  Qed.
  Lemma face_boundary_safe t g i : ready g -> i < num_faces (g_faces g) -> safe t (fun b => b = true <-> on_boundary (g_faces g) i) (face_on_boundary (g_faces g) i).
  Proof.
    intros R Hi. unfold face_on_boundary. pose proof R as ((T & _) & _). destruct T as (T1 & _). rewrite <- T1 in Hi. apply (safe_bind _ _ _ _ _ (safe_get _ _ _ Hi)). intros es Hes.
    eapply safe_imp; [apply (has_boundary_safe t g i es R Hes es); auto|]. cbn. intros b ->. unfold on_boundary. split.
    - intros (e & H1 & H2). exists e, es. auto.
    - intros (e & es' & H0 & H1 & H2). rewrite Hes in H0. injection H0 as <-. exists e. auto.
  Qed.

  Section Loop.
    Variable m1 : mesh.
    Variable g : mesh2.
    Hypothesis R : ready g.
    Variable mask : list bool.
    Hypothesis Lm : length mask = length (m_nodes m1).
    Hypothesis Nm : mask <> [].
    Variable inside : point -> bool.
    Variable t : Prop.
    Hypothesis Tn : forall p n, near_faces (g_circum g) p n = None -> t.
    Definition eligible (i : nat) : Prop := on_boundary (g_faces g) i /\ inside (centre_of g i) = true.
    (** Node [n] looks at face [i]. *)
    Definition looks (n i : nat) : Prop := unmasked mask n /\ near m1 g n i.
    Definition distance (n i : nat) : double := dist2 (node_of m1 n) (centre_of g i).
    Definition binv (seen : nat -> nat -> Prop) (st : list bool * list (option nat)) : Prop :=
      length (fst st) = num_faces (g_faces g) /\ length (snd st) = num_faces (g_faces g) /\
      (forall i, nth_error (fst st) i = Some false -> ~ eligible i) /\
      (forall i n, nth_error (snd st) i = Some (Some n) -> n < length (m_nodes m1) /\ seen n i /\ looks n i /\ eligible i /\
         forall n', seen n' i -> looks n' i -> SFltb (distance n' i) (distance n i) = false) /\
      (forall i n, nth_error (snd st) i = Some None -> seen n i -> looks n i -> ~ eligible i).

    Lemma binv_weaken (s1 s2 : nat -> nat -> Prop) st : (forall n i, s1 n i -> s2 n i) -> (forall n i, looks n i -> s2 n i -> s1 n i) -> binv s1 st -> binv s2 st.
    Proof.
      intros W1 W2 (B1 & B2 & B3 & B4 & B5). repeat (split; [assumption|]). split.
      - intros i n H. destruct (B4 i n H) as (P0 & P1 & P2 & P3 & P4). repeat (split; [solve [auto]|]). intros n' S L. apply P4; auto.
      - intros i n H S L. eapply B5; eauto.
    Qed.
    Lemma boundary_face_safe n i seen st : n < length (m_nodes m1) -> looks n i -> i < num_faces (g_faces g) -> binv seen st ->
      safe t (binv (fun n' i' => seen n' i' \/ (n' = n /\ i' = i))) (boundary_face dist2 m1 g inside n st i).
    Proof.
      intros Hn Lk Hi (B1 & B2 & B3 & B4 & B5). destruct st as [val nod]. cbn [fst snd] in *. unfold boundary_face.
      set (seen' := fun n' i' => seen n' i' \/ (n' = n /\ i' = i)).
      (* not eligible *)
      assert (Out : forall val', length val' = num_faces (g_faces g) -> ~ eligible i -> (forall j, j <> i -> nth_error val' j = nth_error val j) -> binv seen' (val', nod)).
      { intros val' L' NE Same. split; [exact L'|]. split; [exact B2|]. cbn [fst snd]. split; [|split].
        - intros j Hj. destruct (Nat.eq_dec j i) as [->|N]; auto. apply B3. now rewrite <- Same.
        - intros j n0 Hj. destruct (B4 j n0 Hj) as (P0 & P1 & P2 & P3 & P4). split; [solve [auto]|]. split; [left; solve [auto]|]. split; [solve [auto]|]. split; [solve [auto]|].
          intros n' [S|(-> & ->)] L; [auto|contradiction].
        - intros j n0 Hj [S|(-> & ->)] L; [eapply B5; eauto|exact NE]. }
      assert (Lv : i < length val) by lia. apply (safe_bind _ _ _ _ _ (safe_get _ _ _ Lv)). intros v Hv. destruct v; cbn [negb].
      2:{ apply Out; auto. }
      apply (safe_bind _ _ _ _ _ (face_boundary_safe t g i R Hi)). intros b Hb.
      assert (Set_ : ~ eligible i -> safe t (binv seen') (let! valid := vset i false val in Ok (valid, nod))).
      { intros NE. apply (safe_bind _ _ _ _ _ (safe_set _ val i false Lv)). intros val' ->. apply Out; [now rewrite set_nth_length|auto|]. intros j Hj. now rewrite nth_error_set_nth_neq by auto. }
      destruct b; cbn [negb].
      2:{ apply Set_. intros (E & _). apply Hb in E. discriminate. }
      assert (Ob : on_boundary (g_faces g) i) by now apply Hb.
      assert (Lc : i < length (g_circum g)) by (rewrite (proj1 (proj2 R)); auto). apply (safe_bind _ _ _ _ _ (safe_get _ _ _ Lc)). intros c Hc.
      assert (Ec : centre_of g i = c) by (unfold centre_of; now apply nth_error_nth).
      destruct (inside c) eqn:Ei; cbn [negb].
      2:{ apply Set_. intros (_ & E). rewrite Ec in E. congruence. }
      assert (El : eligible i) by (split; [auto|now rewrite Ec]).
      (* the new node is taken *)
      assert (New : (forall n', seen n' i -> looks n' i -> SFltb (distance n' i) (distance n i) = false) -> binv seen' (val, set_nth i (Some n) nod)).
      { intros Best. split; [exact B1|]. split; [cbn; now rewrite set_nth_length|]. cbn [fst snd]. split; [exact B3|]. assert (Ln : i < length nod) by lia. split.
        - intros j n0 Hj. destruct (Nat.eq_dec j i) as [->|N].
          + rewrite nth_error_set_nth_eq in Hj by auto. injection Hj as <-. split; auto. split; [right; auto|]. split; auto. split; auto.
            intros n' [S|(-> & _)] L; [auto|apply SFltb_irrefl].
          + rewrite nth_error_set_nth_neq in Hj by auto. destruct (B4 j n0 Hj) as (P0 & P1 & P2 & P3 & P4). split; [solve [auto]|]. split; [left; solve [auto]|]. split; [solve [auto]|]. split; [solve [auto]|].
            intros n' [S|(_ & ->)] L; [auto|contradiction].
        - intros j n0 Hj [S|(-> & ->)] L.
          + destruct (Nat.eq_dec j i) as [->|N]; [rewrite nth_error_set_nth_eq in Hj by auto; discriminate|]. rewrite nth_error_set_nth_neq in Hj by auto. eapply B5; eauto.
          + rewrite nth_error_set_nth_eq in Hj by auto. discriminate. }
      assert (Ln : i < length nod) by lia. apply (safe_bind _ _ _ _ _ (safe_get _ _ _ Ln)). intros [n0|] Ho.
      - destruct (B4 i n0 Ho) as (P0 & P1 & P2 & P3 & P4). unfold checked_node.
        destruct (nth_error (m_nodes m1) n) as [p|] eqn:Ep; [|apply nth_error_None in Ep; lia]. destruct (nth_error (m_nodes m1) n0) as [p0|] eqn:Ep0; [|apply nth_error_None in Ep0; lia].
        cbn [bind]. rewrite <- (node_of_nth _ _ _ Ep), <- (node_of_nth _ _ _ Ep0), <- Ec. fold (distance n i) (distance n0 i). destruct (SFltb (distance n i) (distance n0 i)) eqn:Lt.
        + apply (safe_bind _ _ _ _ _ (safe_set _ nod i (Some n) Ln)). intros nod' ->. apply New. intros n' S L. destruct (SFltb (distance n' i) (distance n i)) eqn:Lt'; auto.
          rewrite <- (SFltb_trans _ _ _ Lt' Lt). now apply P4.
        + split; [exact B1|]. split; [exact B2|]. cbn [fst snd]. split; [exact B3|]. split.
          * intros j n1 Hj. destruct (B4 j n1 Hj) as (Q0 & Q1 & Q2 & Q3 & Q4). split; [solve [auto]|]. split; [left; solve [auto]|]. split; [solve [auto]|]. split; [solve [auto]|].
            intros n' [S|(-> & ->)] L; [auto|]. rewrite Ho in Hj. injection Hj as <-. exact Lt.
          * intros j n1 Hj [S|(-> & ->)] L; [eapply B5; eauto|]. rewrite Ho in Hj. discriminate.
      - apply (safe_bind _ _ _ _ _ (safe_set _ nod i (Some n) Ln)). intros nod' ->. apply New. intros n' S L. exfalso. now apply (B5 i n' Ho S L).
    Qed.
    Lemma boundary_node_safe n st : n < length (m_nodes m1) -> binv (fun n' _ => n' < n) st ->
      safe t (binv (fun n' _ => n' < S n)) (boundary_node dist2 near_faces m1 g mask inside st n).
    Proof.
      intros Hn B. unfold boundary_node.
      assert (Em : (match mask with [] => Ok true | _ => vget mask n end) = vget mask n) by (destruct mask; [now contradiction Nm|reflexivity]). rewrite Em. clear Em.
      assert (Lmn : n < length mask) by lia. apply (safe_bind _ _ _ _ _ (safe_get _ _ _ Lmn)). intros u Hu. destruct u; cbn [negb].
      2:{ apply (binv_weaken (fun n' _ => n' < n)); auto. intros n' i (L & _) S. assert (n' <> n) by (intros ->; unfold unmasked in L; congruence). lia. }
      unfold checked_node. destruct (nth_error (m_nodes m1) n) as [p|] eqn:Ep; [|apply nth_error_None in Ep; lia]. cbn [bind].
      destruct (near_faces (g_circum g) p n) as [l|] eqn:El; [|exact (Tn _ _ El)]. pose proof El as El'. rewrite <- (node_of_nth _ _ _ Ep) in El'.
      eapply safe_imp; [apply (safe_fold_list t (fun d st => binv (fun n' i => n' < n \/ (n' = n /\ In i d)) st))|].
      - intros d i r st' E B'. assert (Hin : In i l) by (rewrite E; apply in_or_app; cbn; auto).
        eapply safe_imp; [apply (boundary_face_safe n i (fun n' i => n' < n \/ (n' = n /\ In i d))); auto|].
        + split; [exact Hu|]. exists l. auto.
        + rewrite <- (proj1 (proj2 R)). eapply near_faces_in; eauto.
        + intros st2. apply binv_weaken.
          * intros n' i' [[S|(-> & S)]|(-> & ->)]; auto; right; split; auto; apply in_or_app; cbn; auto.
          * intros n' i' _ [S|(-> & S)]; auto. apply in_app_or in S as [S|[<-|[]]]; auto.
      - revert B. apply binv_weaken; auto. intros n' i _ [S|(_ & [])]; auto.
      - intros st2. apply binv_weaken.
        + intros n' i [S|(-> & _)]; lia.
        + intros n' i (_ & (l' & N1 & N2)) S. destruct (Nat.eq_dec n' n) as [->|]; [right; split; auto; rewrite El' in N1; injection N1 as <-; exact N2|left; lia].
    Qed.
    Variable c0 : contacts.
    Lemma collect_safe st : binv (fun n' _ => n' < length (m_nodes m1)) st ->
      safe t (fun c => exists l, c = append c0 l /\ StronglySorted lt (map snd l) /\ forall n i, In (n, i) l <-> nth_error (snd st) i = Some (Some n))
        (fold_out (collect_boundary st) (seq 0 (num_faces (g_faces g))) c0).
    Proof.
      intros (B1 & B2 & B3 & B4 & B5).
      eapply safe_imp; [apply (safe_fold t (fun k c => exists l, c = append c0 l /\ StronglySorted lt (map snd l) /\ forall n i, In (n, i) l <-> i < k /\ nth_error (snd st) i = Some (Some n)))|].
      - intros k c Hk (l & -> & Sl & Hl). unfold collect_boundary. assert (L2 : k < length (snd st)) by lia. apply (safe_bind _ _ _ _ _ (safe_get _ _ _ L2)). intros [n|] Ho.
        + assert (L1 : k < length (fst st)) by lia. apply (safe_bind _ _ _ _ _ (safe_get _ _ _ L1)). intros v Hv. destruct v; [|exfalso; apply (B3 k Hv), (B4 k n Ho)].
          exists (l ++ [(n, k)]). split; [apply append_one|]. split.
          * rewrite map_app. assert (Lt : Forall (fun j => j < k) (map snd l)) by (apply Forall_forall; intros j Hj; apply in_map_iff in Hj as ([n' j'] & <- & Hin); now apply Hl in Hin).
            clear -Sl Lt. induction (map snd l) as [|a t IH]; cbn; [repeat constructor|]. inversion Sl; subst. inversion Lt; subst. constructor; auto.
            apply Forall_app. split; auto.
          * intros n' i. rewrite in_app_iff, Hl. cbn. split.
            -- intros [(H1 & H2)|[[= <- <-]|[]]]; split; auto.
            -- intros (H1 & H2). destruct (Nat.eq_dec i k) as [->|]; [right; left; congruence|left; split; auto; lia].
        + exists l. split; auto. split; auto. intros n' i. rewrite Hl. split; intros (H1 & H2); split; auto. destruct (Nat.eq_dec i k) as [->|]; [congruence|lia].
      - exists []. split; [symmetry; apply append_nil|]. split; [constructor|]. intros n i. split; [intros []|intros (H & _); lia].
      - intros c (l & -> & Sl & Hl). exists l. split; auto. split; auto. intros n i. rewrite Hl. split; [easy|]. intros H. split; auto.
        assert (i < length (snd st)) by (apply nth_error_Some; congruence). lia.
    Qed.
  End Loop.

  Lemma boundary_result mask inside m1 g c : consistent m1 -> ready g ->
    safe (unprepared mask m1 g \/ exists p n, near_faces (g_circum g) p n = None)
      (fun r => exists m1' l, administrate order m1 = Ok m1' /\ r = append c l /\ StronglySorted lt (map snd l) /\
        (forall n i, In (n, i) l -> boundary_contact near_faces mask inside m1' g n i /\
           forall n', boundary_contact near_faces mask inside m1' g n' i -> SFltb (dist2 (node_of m1' n') (centre_of g i)) (dist2 (node_of m1' n) (centre_of g i)) = false) /\
        (forall n i, boundary_contact near_faces mask inside m1' g n i -> In i (map snd l)))
      (compute_boundary order dist2 near_faces mask inside m1 g c).
  Proof.
    intros C R. unfold compute_boundary. set (t := _ \/ _). apply (safe_bind _ _ _ _ _ (prepare_safe order order_perm t mask m1 g (fun H => or_introl H) C)). intros m1' (A & Lm & Nm).
    assert (Tn : forall p n, near_faces (g_circum g) p n = None -> t) by (intros p n H; right; exists p, n; exact H).
    apply (safe_bind t (binv m1' g mask inside (fun n' _ => n' < length (m_nodes m1')))).
    - apply (safe_fold t (fun k => binv m1' g mask inside (fun n' _ => n' < k))).
      + intros k st Hk. now apply boundary_node_safe.
      + split; [apply repeat_length|]. split; [apply repeat_length|]. split; [|split].
        * intros i H. apply nth_error_In, repeat_spec in H. discriminate.
        * intros i n H. apply nth_error_In, repeat_spec in H. discriminate.
        * intros i n H S. lia.
    - intros st B. eapply safe_imp; [eapply (collect_safe m1' g mask) with (inside := inside); eauto|]. intros r (l & -> & Sl & Hl). destruct B as (B1 & B2 & B3 & B4 & B5).
      exists m1', l. split; [apply A|]. split; auto. split; auto. split.
      + intros n i Hin. apply Hl in Hin. destruct (B4 i n Hin) as (P0 & P1 & (P2 & P2') & (P3 & P3') & P4). split; [repeat split; auto|].
        intros n' (Q0 & Q1 & Q2 & Q3 & Q4). apply P4; auto. split; auto.
      + intros n i (Q0 & Q1 & Q2 & Q3 & Q4). assert (Hi : i < num_faces (g_faces g)) by (destruct Q2 as (l' & N1 & N2); rewrite <- (proj1 (proj2 R)); eapply near_faces_in; eauto).
        destruct (nth_error (snd st) i) as [[n0|]|] eqn:E; [|exfalso; apply (B5 i n E Q0); split; auto|apply nth_error_None in E; lia].
        apply Hl in E. apply in_map_iff. exists (n0, i). auto.
  Qed.
End Boundary.

(** *** Contacts with polygons and with points *)
Section Polygons.
  Variable order : list point -> list edge -> nat -> list (option nat) -> list (option nat).
  Hypothesis order_perm : forall nodes edges n row, Permutation row (order nodes edges n row).
  Variable dist2 : point -> point -> double.
  Variable in_polygon : point -> list point -> bool.
  Variable nearest_edge nearest_node : mesh -> point -> option nat.
  Hypothesis nearest_edge_in : forall m p e, nearest_edge m p = Some e -> e < length (m_edges m).
  Hypothesis nearest_node_in : forall m p n, nearest_node m p = Some n -> n < length (m_nodes m).
  Local Notation candidate := (polygon_candidate nearest_node).

  Lemma fold_polygon_contact best c : fold_left polygon_contact best c = append_opt c (map (option_map (fun x => (snd (fst x), snd x))) best).
  Proof.
    revert c. induction best as [|x t IH]; intros c; cbn [fold_left]; [unfold append_opt; cbn; rewrite !app_nil_r; now destruct c|]. rewrite IH. unfold append_opt, polygon_contact.
    destruct x as [[[d n] f]|]; cbn; now rewrite <- !app_assoc.
  Qed.
  Lemma polygons_result mask polygon_of num m1 g c : consistent m1 -> ready g -> (forall p j, polygon_of p = Some j -> j < num) ->
    safe (unprepared mask m1 g \/ exists m1' i n, administrate order m1 = Ok m1' /\ i < num_faces (g_faces g) /\ polygon_of (mass_of_face g i) <> None /\
        (nearest_node m1' (mass_of_face g i) = None \/ (nearest_node m1' (mass_of_face g i) = Some n /\ ~ unmasked mask n)))
      (fun r => exists m1' l, administrate order m1 = Ok m1' /\ r = append_opt c l /\ length l = num /\
        (forall j n i, nth_error l j = Some (Some (n, i)) -> candidate polygon_of m1' g j n i /\ unmasked mask n /\
           forall n' i', candidate polygon_of m1' g j n' i' -> SFltb (dist2 (mass_of_face g i') (node_of m1' n')) (dist2 (mass_of_face g i) (node_of m1' n)) = false) /\
        (forall j n i, nth_error l j = Some None -> ~ candidate polygon_of m1' g j n i))
      (compute_with_polygons order dist2 nearest_node mask polygon_of num m1 g c).
  Proof.
    intros C R Hp. unfold compute_with_polygons. set (t := _ \/ _). destruct (Nat.eqb_spec (length mask) (length (m_nodes m1))) as [Em|Em]; cbn [negb]; [|left; left; auto].
    destruct (Nat.eqb_spec num 0) as [->|Nn].
    { destruct (administrate1 order order_perm m1 C) as (m1' & A). exists m1', []. split; [apply A|]. split; [unfold append_opt; cbn; rewrite !app_nil_r; now destruct c|]. split; auto.
      split; intros [|j] ? ?; discriminate. }
    apply (safe_bind _ _ _ _ _ (prepare_safe order order_perm t mask m1 g (fun H => or_introl H) C)). intros m1' (A & Lm & Nm).
    set (dd := fun n i => dist2 (mass_of_face g i) (node_of m1' n)).
    apply (safe_bind t (fun best => length best = num /\
      (forall j d n i, nth_error best j = Some (Some (d, n, i)) -> d = dd n i /\ candidate polygon_of m1' g j n i /\ unmasked mask n /\
         forall n' i', candidate polygon_of m1' g j n' i' -> SFltb (dd n' i') (dd n i) = false) /\
      (forall j n i, nth_error best j = Some None -> ~ candidate polygon_of m1' g j n i))).
    - eapply safe_imp; [apply (safe_fold t (fun k best => length best = num /\
      (forall j d n i, nth_error best j = Some (Some (d, n, i)) -> d = dd n i /\ candidate polygon_of m1' g j n i /\ unmasked mask n /\
         forall n' i', i' < k -> candidate polygon_of m1' g j n' i' -> SFltb (dd n' i') (dd n i) = false) /\
      (forall j n i, nth_error best j = Some None -> i < k -> ~ candidate polygon_of m1' g j n i)))|].
      + intros k best Hk (I1 & I2 & I3). unfold polygon_step. assert (Lc : k < length (g_mass g)) by (rewrite (proj1 (proj2 (proj2 R))); auto).
        apply (safe_bind _ _ _ _ _ (safe_get _ _ _ Lc)). intros p Ep. assert (Emk : mass_of_face g k = p) by (unfold mass_of_face; now apply nth_error_nth).
        destruct (polygon_of p) as [j|] eqn:Ej.
        2:{ split; auto. split.
            - intros j d n i H. destruct (I2 j d n i H) as (P1 & P2 & P3 & P4). split; auto. split; auto. split; auto. intros n' i' Hi' Ca. apply P4; auto.
              assert (i' <> k) by (intros ->; destruct Ca as (_ & Ca & _); rewrite Emk in Ca; congruence). lia.
            - intros j n i H Hi Ca. apply (I3 j n i H); auto. assert (i <> k) by (intros ->; destruct Ca as (_ & Ca & _); rewrite Emk in Ca; congruence). lia. }
        unfold find_node. destruct (nearest_node m1' p) as [n|] eqn:En; [|right; exists m1', k, 0; split; [apply A|]; split; [exact Hk|]; rewrite Emk; split; [congruence|auto]].
        assert (Hn : n < length (m_nodes m1')) by eauto.
        assert (E : (match mask with [] => Ok n | _ => let! u := vget mask n in if u then Ok n else Throw AlgorithmErr end) = (let! u := vget mask n in if u then Ok n else Throw AlgorithmErr))
          by (destruct mask; [now contradiction Nm|reflexivity]). rewrite E. clear E.
        assert (Lmn : n < length mask) by lia.
        apply (safe_bind t (fun n' => n' = n /\ unmasked mask n)).
        { apply (safe_bind _ _ _ _ _ (safe_get _ _ _ Lmn)). intros [|] Hu; [cbn; auto|]. right. exists m1', k, n. split; [apply A|]. split; [exact Hk|]. rewrite Emk. split; [congruence|]. right. split; auto. unfold unmasked. congruence. }
        intros n' (-> & Hu). unfold checked_node. destruct (nth_error (m_nodes m1') n) as [pn|] eqn:Epn; [|apply nth_error_None in Epn; lia]. cbn [bind].
        rewrite <- Emk, <- (node_of_nth _ _ _ Epn). fold (dd n k).
        assert (Ca0 : candidate polygon_of m1' g j n k) by (repeat split; auto; rewrite Emk; auto).
        assert (Hj : j < length best) by (rewrite I1; eauto). apply (safe_bind _ _ _ _ _ (safe_get _ _ _ Hj)). intros old Ho.
        assert (Uniq : forall j' n', candidate polygon_of m1' g j' n' k -> j' = j /\ n' = n).
        { intros j' n' (_ & Q1 & Q2). rewrite Emk in Q1, Q2. split; congruence. }
        destruct (match old with Some (d0, _, _) => SFltb (dd n k) d0 | None => true end) eqn:Ec.
        * apply (safe_imp t (fun r => r = set_nth j (Some (dd n k, n, k)) best)); [now apply safe_set|]. intros r ->. split; [now rewrite set_nth_length|]. split.
          -- intros j' d n0 i H. destruct (Nat.eq_dec j' j) as [->|Nj].
             ++ rewrite nth_error_set_nth_eq in H by auto. injection H as <- <- <-. split; auto. split; auto. split; auto. intros n' i' Hi' Ca.
                destruct (Nat.eq_dec i' k) as [->|Ni]; [destruct (Uniq _ _ Ca) as (_ & ->); apply SFltb_irrefl|].
                destruct old as [[[d0 n1] i1]|].
                ** destruct (I2 j d0 n1 i1 Ho) as (-> & _ & _ & P4). destruct (SFltb (dd n' i') (dd n k)) eqn:Lt; auto. rewrite <- (SFltb_trans _ _ _ Lt Ec). apply P4; auto. lia.
                ** exfalso. apply (I3 j n' i' Ho); auto. lia.
             ++ rewrite nth_error_set_nth_neq in H by auto. destruct (I2 j' d n0 i H) as (P1 & P2 & P3 & P4). split; auto. split; auto. split; auto. intros n' i' Hi' Ca. apply P4; auto.
                assert (i' <> k) by (intros ->; destruct (Uniq _ _ Ca); contradiction). lia.
          -- intros j' n0 i H Hi Ca. destruct (Nat.eq_dec j' j) as [->|Nj]; [rewrite nth_error_set_nth_eq in H by auto; discriminate|]. rewrite nth_error_set_nth_neq in H by auto.
             apply (I3 j' n0 i H); auto. assert (i <> k) by (intros ->; destruct (Uniq _ _ Ca); contradiction). lia.
        * destruct old as [[[d0 n1] i1]|]; [|discriminate]. split; auto. split.
          -- intros j' d n0 i H. destruct (I2 j' d n0 i H) as (P1 & P2 & P3 & P4). split; auto. split; auto. split; auto. intros n' i' Hi' Ca.
             destruct (Nat.eq_dec i' k) as [->|]; [|apply P4; auto; lia]. destruct (Uniq _ _ Ca) as (-> & ->). rewrite Ho in H. injection H as -> -> ->. now rewrite P1 in Ec.
          -- intros j' n0 i H Hi Ca. apply (I3 j' n0 i H); auto. assert (i <> k) by (intros ->; destruct (Uniq _ _ Ca) as (-> & _); congruence). lia.
      + split; [apply repeat_length|]. split; [|intros; lia]. intros j d n i H. apply nth_error_In, repeat_spec in H. discriminate.
      + intros best (I1 & I2 & I3). split; auto. split.
        * intros j d n i H. destruct (I2 j d n i H) as (P1 & P2 & P3 & P4). split; auto. split; auto. split; auto. intros n' i' Ca. apply P4; auto. apply Ca.
        * intros j n i H Ca. apply (I3 j n i H); auto. apply Ca.
    - intros best (I1 & I2 & I3). cbn. exists m1', (map (option_map (fun x => (snd (fst x), snd x))) best). split; [apply A|]. split; [apply fold_polygon_contact|]. split; [now rewrite map_length|]. split.
      + intros j n i H. rewrite nth_error_map in H. destruct (nth_error best j) as [[[[d n0] i0]|]|] eqn:E; cbn in H; try discriminate. injection H as -> ->. apply (I2 j d n i E).
      + intros j n i H. rewrite nth_error_map in H. destruct (nth_error best j) as [[[[d n0] i0]|]|] eqn:E; cbn in H; try discriminate. now apply I3.
  Qed.

  Local Notation located := (located in_polygon nearest_edge).
  Lemma points_result mask points m1 g c : consistent m1 -> ready g ->
    safe (unprepared mask m1 g \/ (exists p, nearest_edge (g_mesh g) p = None) \/ (exists m1' p, administrate order m1 = Ok m1' /\ nearest_node m1' p = None))
      (fun r => exists m1' l, administrate order m1 = Ok m1' /\ r = append c (some_of l) /\ length l = length points /\
        forall k p, nth_error points k = Some p ->
          (exists n i, nth_error l k = Some (Some (n, i)) /\ nearest_node m1' p = Some n /\ i < num_faces (g_faces g) /\ located g p i) \/
          (nth_error l k = Some None /\ forall i, ~ located g p i))
      (compute_with_points order in_polygon nearest_edge nearest_node mask points m1 g c).
  Proof.
    intros C R. unfold compute_with_points. set (t := _ \/ _). apply (safe_bind _ _ _ _ _ (prepare_safe order order_perm t mask m1 g (fun H => or_introl H) C)). intros m1' (A & Lm & Nm).
    apply (safe_bind _ _ _ _ _ (point_faces_found in_polygon nearest_edge nearest_edge_in t g points (fun p H => or_intror (or_introl (ex_intro _ p H))) R)). intros fs (Lf & Hf).
    assert (G : forall ps fs c, length fs = length ps -> safe t (fun r => exists l, r = append c (some_of l) /\ length l = length ps /\
      forall k p x, nth_error ps k = Some p -> nth_error fs k = Some x ->
        match x with Some i => exists n, nearest_node m1' p = Some n /\ nth_error l k = Some (Some (n, i)) | None => nth_error l k = Some None end)
      (fold_out (point_step nearest_node m1') (combine ps fs) c)).
    { assert (Tn : forall p, nearest_node m1' p = None -> t) by (intros p H; right; right; exists m1', p; split; [apply A|exact H]). clearbody t. clear -Tn. induction ps as [|p ps IH]; intros [|x fs] c L; try discriminate; cbn [combine fold_out].
      - exists []. split; [symmetry; apply append_nil|]. split; auto. intros [|k] ? ? H; discriminate.
      - unfold point_step at 1. cbn [fst snd]. destruct x as [i|].
        + destruct (nearest_node m1' p) as [n|] eqn:En; [|exact (Tn p En)]. cbn [bind]. eapply safe_imp; [apply IH; cbn in L; lia|]. intros r (l & -> & Ll & Hl).
          exists (Some (n, i) :: l). split; [|split; [cbn; lia|]].
          * replace (add_contact c (Some n) (Some i)) with (append c [(n, i)]) by reflexivity. rewrite append_app. reflexivity.
          * intros [|k] p' x Hp Hx; cbn in *; [injection Hp as <-; injection Hx as <-; eauto|now apply Hl].
        + cbn [bind]. eapply safe_imp; [apply IH; cbn in L; lia|]. intros r (l & -> & Ll & Hl). exists (None :: l). split; [reflexivity|]. split; [cbn; lia|].
          intros [|k] p' x Hp Hx; cbn in *; [injection Hx as <-; reflexivity|now apply Hl]. }
    eapply safe_imp; [apply (G points fs c Lf)|]. intros r (l & -> & Ll & Hl). exists m1', l. split; [apply A|]. split; auto. split; auto.
    intros k p Hk. destruct (Hf k p Hk) as (x & Hx & Fx). specialize (Hl k p x Hk Hx). destruct x as [i|]; [left|right; auto]. destruct Hl as (n & N1 & N2). exists n, i. tauto.
  Qed.
End Polygons.

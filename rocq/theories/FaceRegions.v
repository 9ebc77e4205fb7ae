(** Regions of faces linked by edges. *)
From Coq Require Import Permutation.
From Verif Require Import Base BaseLemmas FloatModel FloatProofs UndoModel UndoSpec UndoProofs ActionModel ActionSpec ActionProofs
  MeshModel MeshSpec MeshProofs MeshAdj MeshConstruct MeshUndo MeshEdits MeshEdits2 MeshFacts
  FaceModel FaceSpec FaceSearch FaceUseModel FaceUseSpec FaceUse GridProofs.

Lemma filter_set_nth {A} (P : A -> bool) d x : forall l i, i < length l ->
  length (filter P (set_nth i x l)) + (if P (nth i l d) then 1 else 0) = length (filter P l) + (if P x then 1 else 0).
Proof.
  induction l as [|h t IH]; intros [|i] H; cbn in *; try lia.
  - destruct (P h), (P x); cbn; lia.
  - specialize (IH i ltac:(lia)). destruct (P h); cbn; lia.
Qed.
Lemma nth_set {A} (d x : A) l i j : i < length l -> nth j (set_nth i x l) d = if i =? j then x else nth j l d.
Proof.
  revert i j. induction l as [|h t IH]; intros [|i] [|j] H; cbn in *; try lia; auto. apply IH. lia.
Qed.

Section Regions.
  Variable m : mesh.
  Variable f : faces.
  Hypothesis Hagree : tables_agree m f.
  Hypothesis Hrange : forall es e, In es (faces_edges f) -> In e es -> e < length (m_edges m).
  Let n := num_faces f.

  Lemma share_sym a b : share_edge f a b -> share_edge f b a.
  Proof. intros (ea & eb & e & H1 & H2 & H3 & H4). exists eb, ea, e. auto. Qed.
  Lemma share_lt a b : share_edge f a b -> a < n /\ b < n.
  Proof.
    intros (ea & eb & e & H1 & H2 & _). destruct Hagree as (L & _). unfold n. rewrite <- L.
    split; apply nth_error_Some; congruence.
  Qed.
  Lemma linked_trans a b c : linked f a b -> linked f b c -> linked f a c.
  Proof. intros H1 H2. revert H1. induction H2 as [|b c d H2 IH S]; intros H1; [exact H1|]. eapply linked_step; [apply IH, H1|exact S]. Qed.
  Lemma linked_sym a b : linked f a b -> linked f b a.
  Proof. intros H. induction H as [|a b c H IH S]; [constructor|]. eapply linked_trans; [|exact IH]. eapply linked_step; [constructor|now apply share_sym]. Qed.

  Lemma in_faces_with e x : In x (faces_with f e) <-> exists es, nth_error (faces_edges f) x = Some es /\ In e es.
  Proof.
    unfold faces_with. destruct Hagree as (L & _). rewrite filter_In, in_seq, existsb_exists. split.
    - intros [H1 (y & Hy & E)]. apply Nat.eqb_eq in E. subst y. exists (nth x (faces_edges f) []). split; [apply nth_error_nth'; lia|exact Hy].
    - intros (es & H1 & H2). assert (x < length (faces_edges f)) by (apply nth_error_Some; congruence). split; [lia|].
      exists e. rewrite (nth_error_nth _ _ _ H1). split; [exact H2|apply Nat.eqb_refl].
  Qed.

  Lemma across_ok cur es e : nth_error (faces_edges f) cur = Some es -> In e es ->
    exists p, vget (edges_faces f) e = Ok p /\ forall x, neighbour_across p cur = Some x <-> (x <> cur /\ In x (faces_with f e)).
  Proof.
    intros Hes He. assert (Hlt : e < length (m_edges m)) by (eapply Hrange; eauto; eapply nth_error_In; eauto).
    assert (Hc : In cur (faces_with f e)) by (apply in_faces_with; eauto).
    destruct Hagree as (_ & _ & _ & _ & H). destruct (H e Hlt) as (H1 & _ & H3). eexists. split; [apply vget_ok, H3|].
    assert (Hnd : NoDup (faces_with f e)) by (apply NoDup_filter, seq_NoDup).
    destruct (faces_with f e) as [|u [|v [|w t]]]; cbn in H1; try lia; [destruct Hc| |]; unfold neighbour_across; cbn; intros x.
    - destruct Hc as [->|[]]. rewrite Nat.eqb_refl. split; [discriminate|]. intros [X [Y|[]]]. congruence.
    - assert (u <> v) by (inversion Hnd as [|? ? Q _]; intros ->; apply Q; left; reflexivity).
      destruct Hc as [->|[->|[]]].
      + rewrite Nat.eqb_refl. split; [intros X; injection X as <-; split; auto|]. intros [X [Y|[Y|[]]]]; congruence.
      + rewrite Nat.eqb_refl. destruct (Nat.eqb_spec u cur); [congruence|]. split; [intros X; injection X as <-; split; auto|]. intros [X [Y|[Y|[]]]]; congruence.
  Qed.

  Definition lab (labels : list (option nat)) (i : nat) : option nat := nth i labels None.
  Definition closed (labels : list (option nat)) : Prop := forall a b, share_edge f a b -> lab labels a <> None -> lab labels b <> None.
  Definition is_none (l : option nat) : bool := match l with None => true | Some _ => false end.

  Section One.
    Variable labels0 : list (option nat).
    Variables region start : nat.
    Hypothesis Hclosed : closed labels0.
    Hypothesis Hlen0 : length labels0 = n.
    Hypothesis Hfresh : forall i, lab labels0 i <> Some region.
    Hypothesis Hstart : start < n.

    Record inv (labels : list (option nat)) (queue : list nat) (count : nat) : Prop := {
      i_len : length labels = n;
      i_old : forall i l, lab labels0 i = Some l -> lab labels i = Some l;
      i_new : forall i, lab labels0 i = None -> lab labels i = None \/ (lab labels i = Some region /\ linked f start i);
      i_start : lab labels start = Some region;
      i_queue : forall i, In i queue -> i < n /\ lab labels i = Some region;
      i_count : count = length (filter (eq_idx (Some region)) labels) }.

    Lemma inv_fresh labels queue count i : inv labels queue count -> lab labels i = Some region -> lab labels0 i = None /\ linked f start i.
    Proof.
      intros I H. destruct (lab labels0 i) as [l|] eqn:E.
      - apply (i_old _ _ _ I) in E as E'. rewrite H in E'. injection E' as <-. destruct (Hfresh i). exact E.
      - destruct (i_new _ _ _ I i E) as [X|[_ X]]; [congruence|auto].
    Qed.

    Lemma visit_edges_ok cur es labels queue count : inv labels queue count -> nth_error (faces_edges f) cur = Some es -> lab labels cur = Some region ->
      (forall i, lab labels i = Some region -> ~ In i queue -> i <> cur -> forall j, share_edge f i j -> lab labels j <> None) ->
      exists labels' queue' count', fold_out (visit_edge f region cur) es (labels, queue, count) = Ok (labels', queue', count') /\
        inv labels' queue' count' /\
        (forall i, lab labels' i = Some region -> ~ In i queue' -> forall j, share_edge f i j -> lab labels' j <> None) /\
        length (filter is_none labels') + length queue' = length (filter is_none labels) + length queue.
    Proof.
      intros I Hes Hcur Hdone.
      destruct (fold_pre (visit_edge f region cur) (fun l1 acc => let '(labels', queue', count') := acc in
        inv labels' queue' count' /\ lab labels' cur = Some region /\
        (forall i, lab labels' i = Some region -> ~ In i queue' -> i <> cur -> forall j, share_edge f i j -> lab labels' j <> None) /\
        (forall e x, In e l1 -> x <> cur -> In x (faces_with f e) -> lab labels' x <> None) /\
        length (filter is_none labels') + length queue' = length (filter is_none labels) + length queue) es (labels, queue, count)) as (((labels' & queue') & count') & E & I' & C' & D' & N' & M').
      - intros l1 e l2 ((lb & q) & c) El (I1 & C1 & D1 & N1 & M1).
        assert (He : In e es) by (rewrite El; apply in_or_app; right; left; reflexivity).
        destruct (across_ok cur es e Hes He) as (p & Hp & Hx). unfold visit_edge. rewrite Hp. cbn [bind].
        destruct (neighbour_across p cur) as [x|] eqn:Ex.
        + assert (Hx' : x <> cur /\ In x (faces_with f e)) by (apply Hx; reflexivity). destruct Hx' as [Hxc Hxin].
          assert (Hxn : x < n) by (eapply faces_with_lt; eauto).
          assert (Only : forall y, y <> cur -> In y (faces_with f e) -> y = x) by (intros y H1 H2; assert (Q : Some x = Some y) by (apply Hx; auto); congruence).
          assert (Hv : vget lb x = Ok (lab lb x)) by (apply vget_ok, nth_error_nth'; rewrite (i_len _ _ _ I1); exact Hxn). rewrite Hv. cbn [bind].
          destruct (lab lb x) as [l|] eqn:Elx.
          * eexists. split; [reflexivity|]. split; [exact I1|]. split; [exact C1|]. split; [exact D1|]. split; [|exact M1].
            intros e' y Hin Hy Hyin. apply in_app_or in Hin as [Hin|[<-|[]]]; [eauto|]. rewrite (Only y Hy Hyin), Elx. discriminate.
          * assert (Hxl : x < length lb) by (rewrite (i_len _ _ _ I1); exact Hxn).
            rewrite vset_lt by exact Hxl. cbn [bind]. eexists. split; [reflexivity|].
            assert (G : forall j, lab (set_nth x (Some region) lb) j = if x =? j then Some region else lab lb j) by (intros j; apply nth_set, Hxl).
            assert (Lx : lab labels0 x = None).
            { destruct (lab labels0 x) as [l|] eqn:E0; [|reflexivity]. apply (i_old _ _ _ I1) in E0. congruence. }
            assert (Lk : linked f start x).
            { eapply linked_step; [apply (inv_fresh _ _ _ cur I1 C1)|]. apply in_faces_with in Hxin as (ex & E1 & E2). exists es, ex, e. auto. }
            assert (I2 : inv (set_nth x (Some region) lb) (q ++ [x]) (S c)).
            { constructor.
              - rewrite set_nth_length. exact (i_len _ _ _ I1).
              - intros i l H. rewrite G. destruct (Nat.eqb_spec x i); [congruence|]. now apply (i_old _ _ _ I1).
              - intros i H. rewrite G. destruct (Nat.eqb_spec x i); [subst; right; auto|]. now apply (i_new _ _ _ I1).
              - rewrite G. destruct (x =? start); [reflexivity|exact (i_start _ _ _ I1)].
              - intros i H. rewrite G. apply in_app_or in H as [H|[<-|[]]].
                + apply (i_queue _ _ _ I1) in H as [H1 H2]. split; [exact H1|]. destruct (x =? i); auto.
                + rewrite Nat.eqb_refl. auto.
              - pose proof (filter_set_nth (eq_idx (Some region)) None (Some region) lb x Hxl) as Q. fold (lab lb x) in Q. rewrite Elx in Q. cbn [eq_idx] in Q.
                rewrite Nat.eqb_refl in Q. rewrite (i_count _ _ _ I1). lia. }
            assert (Mono : forall j, lab lb j <> None -> lab (set_nth x (Some region) lb) j <> None).
            { intros j H. rewrite G. destruct (x =? j); [discriminate|exact H]. }
            split; [exact I2|]. split; [rewrite G; destruct (x =? cur); auto|]. split; [|split].
            -- intros i Hi Hq Hic j Hj. rewrite G in Hi. destruct (Nat.eqb_spec x i) as [->|Hne].
               ++ exfalso. apply Hq, in_or_app. right. left. reflexivity.
               ++ apply Mono. eapply D1; eauto. intros Hin. apply Hq, in_or_app. left. exact Hin.
            -- intros e' y Hin Hy Hyin. apply in_app_or in Hin as [Hin|[<-|[]]]; [apply Mono; eauto|]. rewrite (Only y Hy Hyin), G, Nat.eqb_refl. discriminate.
            -- pose proof (filter_set_nth is_none None (Some region) lb x Hxl) as Q. fold (lab lb x) in Q. rewrite Elx in Q. cbn [is_none] in Q.
               rewrite app_length. cbn [length]. lia.
        + eexists. split; [reflexivity|]. split; [exact I1|]. split; [exact C1|]. split; [exact D1|]. split; [|exact M1].
          intros e' y Hin Hy Hyin. apply in_app_or in Hin as [Hin|[<-|[]]]; [eauto|]. assert (Q : None = Some y) by (apply Hx; auto). discriminate.
      - split; [exact I|]. split; [exact Hcur|]. split; [exact Hdone|]. split; [intros e x []|reflexivity].
      - exists labels', queue', count'. split; [exact E|]. split; [exact I'|]. split; [|exact M'].
        intros i Hi Hq j Hj. destruct (Nat.eq_dec i cur) as [->|Hne]; [|eauto].
        destruct Hj as (ea & eb & e & H1 & H2 & H3 & H4). rewrite Hes in H1. injection H1 as <-.
        destruct (Nat.eq_dec j cur) as [->|Hjc]; [congruence|]. apply (N' e j H3 Hjc). apply in_faces_with. eauto.
    Qed.

    Lemma visit_queue_ok : forall fuel labels queue count, inv labels queue count ->
      (forall i, lab labels i = Some region -> ~ In i queue -> forall j, share_edge f i j -> lab labels j <> None) ->
      length (filter is_none labels) + length queue <= fuel ->
      exists labels' count', visit_queue f region fuel labels queue count = Ok (labels', count') /\ inv labels' [] count' /\
        forall i, lab labels' i = Some region -> forall j, share_edge f i j -> lab labels' j <> None.
    Proof.
      induction fuel as [|fuel IH]; intros labels queue count I D F; (destruct queue as [|cur queue]; [exists labels, count; cbn; split; [reflexivity|]; split; [exact I|]; intros; eapply D; eauto|]).
      - cbn in F. lia.
      - cbn [visit_queue]. destruct (i_queue _ _ _ I cur (or_introl eq_refl)) as [Hc Hr].
        destruct (nth_error (faces_edges f) cur) as [es|] eqn:Es; [|apply nth_error_None in Es; destruct Hagree as (L & _); unfold n in Hc; lia].
        rewrite (proj2 (vget_ok _ _ _) Es). cbn [bind].
        destruct (visit_edges_ok cur es labels queue count) as (l' & q' & c' & -> & I' & D' & M'); auto.
        + destruct I. constructor; auto. intros i H. apply i_queue0. right. exact H.
        + intros i H1 H2 H3. apply D; auto. intros [<-|H]; auto.
        + cbn [bind]. apply IH; auto. cbn [length] in F. lia.
    Qed.

    Lemma label_connected_ok : lab labels0 start = None ->
      exists labels count, label_connected f region labels0 start = Ok (labels, count) /\ length labels = n /\
        (forall i l, lab labels0 i = Some l -> lab labels i = Some l) /\
        (forall i, lab labels0 i = None -> (linked f start i /\ lab labels i = Some region) \/ (~ linked f start i /\ lab labels i = None)) /\
        count = length (filter (eq_idx (Some region)) labels) /\ 0 < count /\
        length (filter is_none labels) < length (filter is_none labels0) /\ closed labels.
    Proof.
      intros Hs. unfold label_connected. assert (Hsl : start < length labels0) by lia. rewrite vset_lt by exact Hsl. cbn [bind].
      assert (G : forall j, lab (set_nth start (Some region) labels0) j = if start =? j then Some region else lab labels0 j) by (intros j; apply nth_set, Hsl).
      assert (Zero : length (filter (eq_idx (Some region)) labels0) = 0).
      { assert (X : filter (eq_idx (Some region)) labels0 = []).
        { destruct (filter (eq_idx (Some region)) labels0) as [|a t] eqn:E; [reflexivity|]. exfalso.
          assert (Hin : In a (filter (eq_idx (Some region)) labels0)) by (rewrite E; left; reflexivity). apply filter_In in Hin as [Hin Ha].
          destruct a as [a|]; [|discriminate]. cbn in Ha. apply Nat.eqb_eq in Ha. subst a. apply (In_nth _ _ None) in Hin as (i & _ & Hi). exact (Hfresh i Hi). }
        rewrite X. reflexivity. }
      pose proof (filter_set_nth (eq_idx (Some region)) None (Some region) labels0 start Hsl) as Q. fold (lab labels0 start) in Q. rewrite Hs in Q. cbn [eq_idx] in Q. rewrite Nat.eqb_refl in Q.
      pose proof (filter_set_nth is_none None (Some region) labels0 start Hsl) as Q2. fold (lab labels0 start) in Q2. rewrite Hs in Q2. cbn [is_none] in Q2.
      destruct (visit_queue_ok (length (set_nth start (Some region) labels0)) (set_nth start (Some region) labels0) [start] 1) as (labels & count & -> & I & D).
      - constructor.
        + rewrite set_nth_length. exact Hlen0.
        + intros i l H. rewrite G. destruct (Nat.eqb_spec start i); [congruence|exact H].
        + intros i H. rewrite G. destruct (Nat.eqb_spec start i); [subst; right; split; [reflexivity|constructor]|left; exact H].
        + rewrite G, Nat.eqb_refl. reflexivity.
        + intros i [<-|[]]. rewrite G, Nat.eqb_refl. auto.
        + lia.
      - intros i Hi Hq. rewrite G in Hi. destruct (Nat.eqb_spec start i) as [->|Hne]; [destruct Hq; left; reflexivity|]. destruct (Hfresh i Hi).
      - rewrite set_nth_length. cbn [length]. assert (X : length (filter is_none labels0) <= length labels0) by (rewrite <- (firstn_all labels0) at 2; rewrite firstn_all; clear; induction labels0 as [|a t IH]; cbn; [lia|]; destruct (is_none a); cbn; lia). lia.
      - exists labels, count. split; [reflexivity|]. split; [exact (i_len _ _ _ I)|]. split; [apply (i_old _ _ _ I)|].
        assert (Reach : forall i, linked f start i -> lab labels i = Some region).
        { intros i H. clear Q Q2. remember start as s eqn:Es in H. revert Es. induction H as [a|a b c H IH S]; intros ->; [exact (i_start _ _ _ I)|].
          specialize (IH eq_refl). pose proof (D b IH c S) as Hn. destruct (lab labels0 c) as [l|] eqn:E0.
          - exfalso. destruct (inv_fresh _ _ _ b I IH) as [Hb _]. apply (Hclosed c b (share_sym b c S)); [congruence|exact Hb].
          - destruct (i_new _ _ _ I c E0) as [X|[X _]]; [congruence|exact X]. }
        split; [|split; [apply (i_count _ _ _ I)|split; [|split]]].
        + intros i H. destruct (i_new _ _ _ I i H) as [X|[X Y]]; [right|left; auto]. split; [|exact X]. intros L. apply Reach in L. congruence.
        + rewrite (i_count _ _ _ I). assert (In (Some region) (filter (eq_idx (Some region)) labels)).
          { apply filter_In. split; [|cbn; apply Nat.eqb_refl]. rewrite <- (i_start _ _ _ I). apply nth_In. rewrite (i_len _ _ _ I). exact Hstart. }
          destruct (filter (eq_idx (Some region)) labels); [contradiction|cbn; lia].
        + assert (Le : forall a b, length a = length b -> (forall i, lab a i <> None -> lab b i <> None) -> length (filter is_none b) <= length (filter is_none a)).
          { clear. induction a as [|x a IH]; intros [|y b] E H; cbn in *; try lia.
            assert (length (filter is_none b) <= length (filter is_none a)) by (apply IH; [lia|intros i; exact (H (S i))]).
            pose proof (H 0) as Hz. cbn in Hz. destruct x, y; cbn; try lia. exfalso. apply Hz; [discriminate|reflexivity]. }
          assert (length (filter is_none labels) <= length (filter is_none (set_nth start (Some region) labels0))); [|lia].
          apply Le; [rewrite set_nth_length, (i_len _ _ _ I); lia|]. intros i H. rewrite G in H. destruct (Nat.eqb_spec start i) as [Esi|Hne]; [rewrite <- Esi, (i_start _ _ _ I); discriminate|].
          destruct (lab labels0 i) as [l|] eqn:E; [|congruence]. rewrite (i_old _ _ _ I i l E). discriminate.
        + intros a b S Ha. destruct (lab labels0 a) as [l|] eqn:E.
          * assert (Hb : lab labels0 b <> None) by (apply (Hclosed a b S); congruence). destruct (lab labels0 b) as [l'|] eqn:E'; [|congruence]. rewrite (i_old _ _ _ I b l' E'). discriminate.
          * destruct (i_new _ _ _ I a E) as [X|[X _]]; [congruence|]. exact (D a X b S).
    Qed.
  End One.

  (** How many faces have a label *)
  Notation size_of labels r := (length (filter (eq_idx (Some r)) labels)).

  Record labelled (labels : list (option nat)) (k : nat) : Prop := {
    l_len : length labels = n;
    l_range : forall i r, lab labels i = Some r -> 1 <= r <= k;
    l_linked : forall i j r s, lab labels i = Some r -> lab labels j = Some s -> (r = s <-> linked f i j);
    l_closed : closed labels }.

  Lemma no_label labels k r : labelled labels k -> ~ 1 <= r <= k -> size_of labels r = 0.
  Proof.
    intros L H. destruct (filter (eq_idx (Some r)) labels) as [|a t] eqn:E; [reflexivity|]. exfalso.
    assert (Hin : In a (filter (eq_idx (Some r)) labels)) by (rewrite E; left; reflexivity). apply filter_In in Hin as [Hin Ha].
    destruct a as [a|]; [|discriminate]. cbn in Ha. apply Nat.eqb_eq in Ha. subst a. apply (In_nth _ _ None) in Hin as (i & _ & Hi). exact (H (l_range _ _ L i r Hi)).
  Qed.

  Lemma first_unlabelled_ok labels : forall k,
    match first_unlabelled k labels with
    | Some s => k <= s < k + length labels /\ nth_error labels (s - k) = Some None
    | None => forall l, In l labels -> l <> None
    end.
  Proof.
    induction labels as [|[l|] t IH]; intros k; cbn; [intros l []| |].
    - specialize (IH (S k)). destruct (first_unlabelled (S k) t) as [s|].
      + destruct IH as [H1 H2]. split; [lia|]. replace (s - k) with (S (s - S k)) by lia. exact H2.
      + intros l' [<-|H]; [discriminate|auto].
    - split; [lia|]. rewrite Nat.sub_diag. reflexivity.
  Qed.

  Lemma label_loop_ok : forall fuel k labels counts, labelled labels k -> counts = map (fun r => (r, size_of labels r)) (seq 1 k) ->
    (forall r, 1 <= r <= k -> 0 < size_of labels r) -> length (filter is_none labels) < fuel ->
    exists labels' counts', label_loop f fuel (S k) labels counts = Ok (labels', counts') /\
      labelled labels' (length counts') /\ counts' = map (fun r => (r, size_of labels' r)) (seq 1 (length counts')) /\
      (forall r, 1 <= r <= length counts' -> 0 < size_of labels' r) /\ (forall i, i < n -> lab labels' i <> None).
  Proof.
    induction fuel as [|fuel IH]; intros k labels counts L C P F; [lia|]. cbn [label_loop]. unfold label_single.
    pose proof (first_unlabelled_ok labels 0) as FU. destruct (first_unlabelled 0 labels) as [s|].
    - destruct FU as [Hs1 Hs2]. rewrite Nat.sub_0_r in Hs2. cbn in Hs1.
      assert (Hsn : s < n) by (rewrite <- (l_len _ _ L); lia).
      destruct (label_connected_ok labels (S k) s (l_closed _ _ L) (l_len _ _ L)) as (labels' & count & -> & L1 & L2 & L3 & L4 & L5 & L6 & L7); auto.
      { intros i H. apply (l_range _ _ L) in H. lia. }
      { apply nth_error_nth, Hs2. }
      cbn [bind]. destruct (Nat.ltb_spec 0 count); [|lia].
      assert (Back : forall i r, lab labels' i = Some r -> (lab labels i = Some r) \/ (r = S k /\ lab labels i = None /\ linked f s i)).
      { intros i r H0. destruct (lab labels i) as [l|] eqn:E; [left; apply L2 in E; congruence|]. right. destruct (L3 i E) as [[X Y]|[X Y]]; [|congruence]. split; [congruence|auto]. }
      assert (Cl : forall i j, linked f i j -> lab labels i <> None -> lab labels j <> None).
      { intros i j H0. induction H0 as [|a b c H0 IH0 S]; auto. intros Ha. eapply (l_closed _ _ L); eauto. }
      assert (Same : forall r, 1 <= r <= k -> size_of labels' r = size_of labels r).
      { intros r Hr.
        assert (G : forall a b, length a = length b -> (forall i, lab a i = Some r <-> lab b i = Some r) -> length (filter (eq_idx (Some r)) a) = length (filter (eq_idx (Some r)) b)).
        { clear. induction a as [|x a IHa]; intros [|y b] E H; cbn [length filter] in *; try lia.
          assert (length (filter (eq_idx (Some r)) a) = length (filter (eq_idx (Some r)) b)) by (apply IHa; [lia|intros i; exact (H (S i))]).
          pose proof (H 0) as Hz. cbn [lab nth] in Hz. destruct x as [x|], y as [y|]; cbn [eq_idx]; try lia.
          - destruct (Nat.eqb_spec r x) as [X|X], (Nat.eqb_spec r y) as [Y|Y]; cbn [length]; try lia; exfalso; [apply Y|apply X].
            + assert (Q : Some y = Some r) by (apply Hz; congruence). congruence.
            + assert (Q : Some x = Some r) by (apply Hz; congruence). congruence.
          - destruct (Nat.eqb_spec r x) as [X|X]; cbn [length]; try lia. assert (Q : None = Some r) by (apply Hz; congruence). discriminate.
          - destruct (Nat.eqb_spec r y) as [Y|Y]; cbn [length]; try lia. assert (Q : None = Some r) by (apply Hz; congruence). discriminate. }
        apply G; [rewrite L1, (l_len _ _ L); reflexivity|]. intros i. split; intros H0; [|apply L2, H0]. apply Back in H0 as [X|(X & _)]; [exact X|lia]. }
      destruct (IH (S k) labels' (counts ++ [(S k, count)])) as (labels2 & counts2 & H2); auto.
      + constructor.
        * exact L1.
        * intros i r H0. apply Back in H0 as [X|(X & _)]; [apply (l_range _ _ L) in X; lia|lia].
        * intros i j r t Hi Hj. apply Back in Hi as [Hi|(-> & Hi & Li)]; apply Back in Hj as [Hj|(-> & Hj & Lj)].
          -- eapply (l_linked _ _ L); eauto.
          -- split; [intros ->; apply (l_range _ _ L) in Hi; lia|]. intros K. exfalso. apply (Cl i j K); congruence.
          -- split; [intros <-; apply (l_range _ _ L) in Hj; lia|]. intros K. exfalso. apply (Cl j i (linked_sym i j K)); congruence.
          -- split; [|reflexivity]. intros _. eapply linked_trans; [apply linked_sym; exact Li|exact Lj].
        * exact L7.
      + rewrite seq_S, map_app. cbn [map]. rewrite C, L4. f_equal. apply map_ext_in. intros r Hr. apply in_seq in Hr. f_equal. symmetry. apply Same. lia.
      + intros r Hr. destruct (Nat.eq_dec r (S k)) as [->|]; [rewrite <- L4; lia|]. rewrite Same by lia. apply P. lia.
      + lia.
      + exists labels2, counts2. exact H2.
    - cbn [bind]. change (0 <? 0) with false. cbv iota. exists labels, counts. split; [reflexivity|].
      assert (Lc : length counts = k) by (rewrite C, map_length, seq_length; reflexivity). rewrite Lc. split; [exact L|]. split; [exact C|]. split; [exact P|].
      intros i Hi. apply FU. apply nth_In. rewrite (l_len _ _ L). exact Hi.
  Qed.

  Lemma label_all_ok : exists labels counts, label_all f = Ok (labels, counts) /\
    labelled labels (length counts) /\ counts = map (fun r => (r, size_of labels r)) (seq 1 (length counts)) /\
    (forall r, 1 <= r <= length counts -> 0 < size_of labels r) /\ (forall i, i < n -> lab labels i <> None).
  Proof.
    unfold label_all. fold n. assert (N : forall i, lab (repeat None n) i = None).
    { intros i. unfold lab. destruct (Nat.lt_ge_cases i n); [apply nth_repeat|apply nth_overflow; rewrite repeat_length; lia]. }
    apply (label_loop_ok (S n) 0).
    - constructor; [apply repeat_length| | |].
      + intros i r. rewrite N. discriminate.
      + intros i j r t. rewrite N. discriminate.
      + intros a b _ X. destruct X. apply N.
    - reflexivity.
    - lia.
    - assert (X : forall l, length (filter is_none l) <= length l) by (induction l as [|a t IH]; cbn; [lia|]; destruct (is_none a); cbn; lia).
      specialize (X (repeat None n)). rewrite repeat_length in X. lia.
  Qed.

  (** The region found first among those with most faces *)
  Lemma main_region_ok counts : counts <> [] -> (forall r c, In (r, c) counts -> 0 < c) ->
    exists c, In (main_region counts, c) counts /\ forall r c', In (r, c') counts -> c' <= c.
  Proof.
    intros Hne Hpos. unfold main_region.
    assert (G : forall l best done, (forall r c, In (r, c) l -> 0 < c) -> (best = (0, 0) /\ done = [] \/ In (snd best, fst best) done /\ forall r c, In (r, c) done -> c <= fst best) ->
      let best' := fold_left larger l best in
      best' = (0, 0) /\ done ++ l = [] \/ In (snd best', fst best') (done ++ l) /\ forall r c, In (r, c) (done ++ l) -> c <= fst best').
    { induction l as [|[r c] l IH]; intros best done Hp H; cbn [fold_left].
      - rewrite app_nil_r. exact H.
      - replace (done ++ (r, c) :: l) with ((done ++ [(r, c)]) ++ l) by (rewrite <- app_assoc; reflexivity).
        apply IH; [intros r' c' Hin; apply (Hp r'); right; exact Hin|]. right.
        assert (0 < c) by (apply (Hp r); left; reflexivity).
        unfold larger. cbn [fst snd]. destruct H as [[-> ->]|[H1 H2]].
        + cbn [fst snd]. destruct (Nat.ltb_spec 0 c); [|lia]. cbn. split; [auto|]. intros r' c' [E|[]]. injection E as _ <-. lia.
        + destruct (Nat.ltb_spec (fst best) c); cbn [fst snd].
          * split; [apply in_or_app; right; left; reflexivity|]. intros r' c' Hin. apply in_app_or in Hin as [Hin|[E|[]]]; [apply H2 in Hin; lia|]. injection E as _ <-. lia.
          * split; [apply in_or_app; left; exact H1|]. intros r' c' Hin. apply in_app_or in Hin as [Hin|[E|[]]]; [apply H2 in Hin; lia|]. injection E as _ <-. lia. }
    destruct (G counts (0, 0) [] Hpos (or_introl (conj eq_refl eq_refl))) as [[_ H]|[H1 H2]]; [cbn in H; congruence|]. eauto.
  Qed.

  Section Removal.
    Variable order : list point -> list edge -> nat -> list (option nat) -> list (option nat).
    Hypothesis order_perm : forall nodes edges n row, Permutation row (order nodes edges n row).

    (** Edges of the faces among [l] outside the region *)
    Definition outside (labels : list (option nat)) (region : nat) (l : list nat) : list nat :=
      flat_map (fun i => if eq_idx (lab labels i) (Some region) then [] else nth i (faces_edges f) []) l.

    Lemma remove_fold labels region : length labels = n -> forall l acc, (forall i, In i l -> i < n) ->
      fold_out (remove_step order f labels region) l acc = fold_out (del_step order) (map Some (outside labels region l)) acc.
    Proof.
      intros Hlen. induction l as [|i l IH]; intros acc Hl; [reflexivity|]. cbn [fold_out outside flat_map]. fold (outside labels region l).
      rewrite map_app, fold_out_app. assert (Hi : i < n) by (apply Hl; left; reflexivity).
      assert (H : remove_step order f labels region acc i = fold_out (del_step order) (map Some (if eq_idx (lab labels i) (Some region) then [] else nth i (faces_edges f) [])) acc).
      { unfold remove_step. rewrite (proj2 (vget_ok labels i (lab labels i))) by (apply nth_error_nth'; lia). cbn [bind].
        destruct (eq_idx (lab labels i) (Some region)); [reflexivity|].
        rewrite (proj2 (vget_ok (faces_edges f) i (nth i (faces_edges f) []))) by (apply nth_error_nth'; destruct Hagree as (L & _); unfold n in Hi; lia). cbn [bind].
        generalize (nth i (faces_edges f) []) as es. intros es. revert acc. induction es as [|e es IHe]; intros [acts mm]; [reflexivity|]. cbn [fold_out map].
        change (del_step order (acts, mm) (Some e)) with (add_action acts (delete_edge order mm (Some e))). destruct (add_action acts (delete_edge order mm (Some e))); cbn [bind]; auto. }
      rewrite H. destruct (fold_out (del_step order) _ acc) as [acc'| |]; cbn [bind]; auto. apply IH. intros j Hj. apply Hl. right. exact Hj.
    Qed.

    Lemma remove_regions_ok : consistent m ->
      exists labels counts a m', label_all f = Ok (labels, counts) /\ remove_regions order f m = Ok (a, m') /\
        (length counts <= 1 -> m' = m) /\
        (1 < length counts -> exists main m1, 1 <= main <= length counts /\ (forall r, size_of labels r <= size_of labels main) /\
          m_nodes m1 = m_nodes m /\ length (m_edges m1) = length (m_edges m) /\ m_projection m1 = m_projection m /\
          (forall i es e, nth_error (faces_edges f) i = Some es -> In e es -> lab labels i <> Some main -> edge_at m1 e = missing_edge) /\
          (forall e, (forall i es, nth_error (faces_edges f) i = Some es -> In e es -> lab labels i = Some main) -> edge_at m1 e = edge_at m e) /\
          administrate order m1 = Ok m') /\
        consistent m' /\ reversible (restore_act (restore_leaf order)) (commit_act (commit_leaf order)) mesh_le a m m'.
    Proof.
      intros Hc. destruct label_all_ok as (labels & counts & El & L & C & P & A). exists labels, counts. unfold remove_regions. rewrite El. cbn [bind].
      destruct (Nat.ltb_spec 1 (length counts)) as [H1|H1].
      - destruct (main_region_ok counts) as (c & Hin & Hmax).
        { intros ->. cbn in H1. lia. }
        { intros r c Hin. rewrite C in Hin. apply in_map_iff in Hin as (r' & E & Hr). injection E as <- <-. apply in_seq in Hr. apply P. lia. }
        set (main := main_region counts) in *. rewrite C in Hin. apply in_map_iff in Hin as (r' & E & Hr). injection E as -> <-. apply in_seq in Hr.
        unfold remove_detached. rewrite remove_fold; [|apply L|intros i Hi; apply in_seq in Hi; rewrite (l_len _ _ L) in Hi; lia].
        destruct (delete_edges_ok order m (map Some (outside labels main (seq 0 (length labels)))) [] m) as (acts & m1 & -> & L1 & C1 & F1 & F2 & F3 & F4 & F5 & F6); auto.
        { constructor. apply mesh_le_refl. }
        { intros oe H. apply in_map_iff in H as (e & <- & He). exists e. split; [reflexivity|]. apply in_flat_map in He as (i & Hi & He).
          destruct (eq_idx (lab labels i) (Some main)); [destruct He|]. eapply Hrange; [|exact He]. apply nth_In. apply in_seq in Hi. rewrite (l_len _ _ L) in Hi. destruct Hagree as (Lf & _). unfold n in Hi. lia. }
        cbn [bind compound_add]. change (act_state (compound acts)) with Committed. cbn [bind].
        assert (In_out : forall e, existsb (eq_idx (Some e)) (map Some (outside labels main (seq 0 (length labels)))) = true <->
          exists i es, nth_error (faces_edges f) i = Some es /\ In e es /\ lab labels i <> Some main).
        { intros e. rewrite existsb_exists. split.
          - intros (oe & H & Q). apply in_map_iff in H as (e' & <- & He'). cbn in Q. apply Nat.eqb_eq in Q. subst e'.
            apply in_flat_map in He' as (i & Hi & He). apply in_seq in Hi. rewrite (l_len _ _ L) in Hi.
            exists i, (nth i (faces_edges f) []). destruct Hagree as (Lf & _). split; [apply nth_error_nth'; unfold n in Hi; lia|].
            destruct (lab labels i) as [r|] eqn:Er; cbn [eq_idx] in He; [|split; [exact He|discriminate]].
            destruct (Nat.eqb_spec r main); [destruct He|]. split; [exact He|congruence].
          - intros (i & es & H2 & H3 & H4). exists (Some e). split; [|cbn; apply Nat.eqb_refl]. apply in_map, in_flat_map. exists i. split.
            + apply in_seq. rewrite (l_len _ _ L). destruct Hagree as (Lf & _). assert (i < length (faces_edges f)) by (apply nth_error_Some; congruence). unfold n. lia.
            + rewrite (nth_error_nth _ _ _ H2). destruct (lab labels i) as [r|]; cbn [eq_idx]; [|exact H3]. destruct (Nat.eqb_spec r main); [congruence|exact H3]. }
        destruct (administrate_undo_ok order order_perm m1 C1) as (m2 & new & E2 & L2 & C2). rewrite E2. cbn [bind].
        exists (compound ([compound acts] ++ map leaf new)), m2. split; [reflexivity|]. split; [reflexivity|]. split; [lia|]. split; [|split; [exact C2|]].
        + intros _. exists main, m1. split; [lia|]. split; [|split; [exact F1|split; [exact F5|split; [exact F4|split; [|split]]]]].
          * intros r. destruct (Nat.le_gt_cases 1 r) as [G1|G1]; [destruct (Nat.le_gt_cases r (length counts)) as [G2|G2]|].
            -- apply (Hmax r). rewrite C. apply in_map_iff. exists r. split; [reflexivity|apply in_seq; lia].
            -- rewrite (no_label labels (length counts)); [lia|exact L|lia].
            -- rewrite (no_label labels (length counts)); [lia|exact L|lia].
          * intros i es e H2 H3 H4. change (edge_at m1 e) with (ge m1 e). rewrite F6, (proj2 (In_out e)); eauto.
          * intros e H. change (edge_at m1 e) with (ge m1 e). rewrite F6. destruct (existsb _ _) eqn:X; [|reflexivity].
            apply In_out in X as (i & es & H2 & H3 & H4). destruct H4. eauto.
          * unfold administrate. rewrite E2. reflexivity.
        + apply tree_reversible. apply recC_comp. cbn [app]. eapply recC_cons; [apply recC_comp; exact L1|apply mesh_le_refl|exact L2].
      - exists (compound []), m. split; [reflexivity|]. split; [reflexivity|]. split; [reflexivity|]. split; [lia|]. split; [exact Hc|].
        apply tree_reversible. apply recC_comp. constructor. apply mesh_le_refl.
    Qed.
  End Removal.
End Regions.

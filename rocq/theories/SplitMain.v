(** Collecting the row of an edge. *)
From Verif Require Import Base BaseLemmas FloatModel MeshModel MeshSpec FaceModel FaceSpec FaceUseSpec SplitModel SplitSpec SplitProofs.

Section Collect.
  Variable m : mesh.
  Variable f : faces.
  Hypothesis U : usable m f.
  Hypothesis D : distinct_edges f.
  Local Notation ed l t := (nth t l 0).

  Section Walked.
    Variable s : bool.
    Variables g e0 i0 : nat.
    Hypothesis Hi0 : In i0 (faces_with f e0).
    Hypothesis Hg : In g (faces_with f e0).
    Hypothesis Hs : if s then g <> i0 else g = i0.
    Lemma walk_start : exists elements edges x loop,
      walk m f (Some g) (S (length (m_edges m))) (Some i0) (Some e0) s [] [] false = Ok (Some (elements, shown s e0 edges elements, loop)) /\
      walked f s g e0 i0 edges elements x /\ (loop = true <-> elements <> [] /\ x = Some g) /\ (loop = false -> not_quad f x).
    Proof.
      destruct (walk_ok m f U D s g e0 i0 Hi0 Hg Hs (S (length (m_edges m))) [] [] e0 (Some i0) false) as (e' & d' & x' & l' & R & W & H1 & H2 & _).
      - split; [apply strip_nil|]. split; [reflexivity|]. split; [auto|]. split; [easy|]. cbn. intros; lia.
      - cbn. lia.
      - split; [discriminate|]. now intros ([] & _).
      - exists e', d', x', l'. split; [|auto]. rewrite <- R. cbn [tl]. destruct s; reflexivity.
    Qed.
  End Walked.

  Lemma collect_side0 e i r : faces_with f e = i :: r -> exists elements edges x loop,
    collect_side m f e false = Ok (Some (elements, edges, loop)) /\ walked f false i e i edges elements x /\ (loop = true <-> elements <> [] /\ x = Some i) /\ (loop = false -> not_quad f x).
  Proof.
    intros E. assert (Hi : In i (faces_with f e)) by (rewrite E; cbn; auto). unfold collect_side. rewrite (edge_faces_ok m f U e (proj2 (with_lt m f U e i Hi))), E. cbn [bind nth_error fst snd side].
    apply (walk_start false i e i Hi Hi eq_refl).
  Qed.
  Lemma collect_side1 e i j : faces_with f e = [i; j] -> exists elements edges x loop,
    collect_side m f e true = Ok (Some (elements, shown true e edges elements, loop)) /\ walked f true i e j edges elements x /\ (loop = true <-> elements <> [] /\ x = Some i) /\ (loop = false -> not_quad f x).
  Proof.
    intros E. assert (Hi : In i (faces_with f e)) by (rewrite E; cbn; auto). assert (Hj : In j (faces_with f e)) by (rewrite E; cbn; auto).
    pose proof (with_nodup f e) as N. rewrite E in N. apply NoDup_cons_iff in N as (N & _). unfold collect_side. rewrite (edge_faces_ok m f U e (proj2 (with_lt m f U e i Hi))), E. cbn [bind nth_error fst snd side].
    apply (walk_start true i e j Hj Hi). intros ->. apply N. cbn. auto.
  Qed.
  Lemma with_cases e : e < length (m_edges m) -> faces_with f e = [] \/ (exists i, faces_with f e = [i]) \/ exists i j, faces_with f e = [i; j].
  Proof.
    intros H. destruct U as ((_ & _ & _ & _ & T) & _). destruct (T e H) as (L & _). destruct (faces_with f e) as [|a [|b [|]]]; cbn in L; [auto|right; left; eauto|right; right; eauto|lia].
  Qed.

  (** The walk always stops. *)
  Lemma collect_total e : e < length (m_edges m) -> exists elements edges, collect m f e = Ok (Some (elements, edges)).
  Proof.
    intros He. unfold collect. rewrite (edge_faces_ok m f U e He). cbn [bind fst snd]. destruct (with_cases e He) as [E|[(i & E)|(i & j & E)]]; rewrite E; cbn [nth_error bind]; [eauto| |].
    - destruct (collect_side0 e i [] E) as (a & b & x & l & -> & _). cbn [bind]. destruct l; eauto.
    - destruct (collect_side0 e i [j] E) as (a & b & x & l & -> & _). cbn [bind]. destruct l; [eauto|].
      destruct (collect_side1 e i j E) as (a' & b' & x' & l' & -> & _). cbn [bind]. eauto.
  Qed.

  (** *** The strips are complete *)
  Lemma strip_row edges elements : strip f edges elements -> forall t u, t < length edges -> u < length edges -> same_row f (ed edges t) (ed edges u).
  Proof.
    intros SS t u. pose proof SS as (L & S1 & _). assert (T : forall a b c, same_row f a b -> same_row f b c -> same_row f a c) by (intros a b c H1 H2; induction H2; [auto|eapply row_next; eauto]).
    intros Ht Hu. apply (T _ (ed edges 0)).
    - clear Hu. induction t as [|t IH]; [constructor|]. apply (T _ (ed edges t)); [|apply IH; lia]. eapply row_next; [constructor|]. apply opposite_sym, S1. lia.
    - clear Ht. induction u as [|u IH]; [constructor|]. eapply row_next; [apply IH; lia|]. apply S1. lia.
  Qed.
  (** Ends of a strip: nothing to go on with, or the first edge again. *)
  Definition open_ends (edges elements : list nat) : Prop :=
    if elements then forall j, In j (faces_with f (ed edges 0)) -> ~ four_edges f j
    else ends_at f (ed edges 0) (ed elements 0) /\ ends_at f (ed edges (length elements)) (ed elements (length elements - 1)).
  Definition closed_ends (edges elements : list nat) : Prop := elements <> [] /\ ed edges 0 = ed edges (length elements).

  Lemma strip_all edges elements : strip f edges elements -> open_ends edges elements \/ closed_ends edges elements ->
    forall a b i, In a edges -> opposite_in f i a b -> In b edges /\ In i elements.
  Proof.
    intros SS K a b i Ha O. pose proof SS as (L & S1 & S2). apply (In_nth edges a 0) in Ha as (t & Ht & <-). destruct (opposite_with m f U i _ _ O) as (W & _ & F).
    assert (Fwd : forall u, u < length elements -> ed edges u = ed edges t -> i = ed elements u -> In b edges /\ In i elements).
    { intros u Hu X ->. split; [|apply nth_In; exact Hu]. rewrite (opposite_unique f D _ _ _ _ O (eq_ind _ (fun z => opposite_in f _ z _) (S1 u Hu) _ X)). apply nth_In. lia. }
    assert (Bwd : forall u, u < length elements -> ed edges (S u) = ed edges t -> i = ed elements u -> In b edges /\ In i elements).
    { intros u Hu X ->. split; [|apply nth_In; exact Hu]. rewrite (opposite_unique f D _ _ _ _ O (eq_ind _ (fun z => opposite_in f _ z _) (opposite_sym f _ _ _ (S1 u Hu)) _ X)). apply nth_In. lia. }
    assert (Two : forall u v, u < length elements -> v < length elements -> ed edges (S u) = ed edges t -> ed edges v = ed edges t -> ed elements u <> ed elements v -> In b edges /\ In i elements).
    { intros u v Hu Hv Xu Xv N. destruct (Nat.eq_dec i (ed elements u)) as [->|Nu]; [now apply (Bwd u)|]. apply (Fwd v Hv Xv). apply (with_two m f U (ed edges t) (ed elements u)); auto.
      - rewrite <- Xu. apply (opposite_with m f U _ _ _ (S1 u Hu)).
      - rewrite <- Xv. apply (opposite_with m f U _ _ _ (S1 v Hv)). }
    destruct (Nat.eq_dec (length elements) 0) as [E0|E0].
    - destruct elements; [|discriminate]. destruct K as [K|(K & _)]; [|easy]. cbn in L. assert (t = 0) by lia. subst t. now apply K in W.
    - assert (N : elements <> []) by (intros ->; now apply E0). destruct (Nat.eq_dec t 0) as [->|T0]; [|destruct (Nat.eq_dec t (length elements)) as [Tl|Tl]].
      + destruct K as [K|(_ & K)].
        * unfold open_ends in K. destruct elements as [|el els]; [easy|]. destruct (Nat.eq_dec i el) as [->|Ni]; [apply (Fwd 0); auto; cbn; lia|]. now apply (proj1 K) in Ni.
        * apply (Two (length elements - 1) 0); auto; try lia; [rewrite K; f_equal; lia|].
          apply (no_return m f U D edges elements SS (length elements - 1) 0); [lia|]. rewrite K. f_equal. lia.
      + subst t. destruct K as [K|(_ & K)].
        * unfold open_ends in K. destruct elements as [|el els]; [easy|]. destruct (Nat.eq_dec i (ed (el :: els) (length (el :: els) - 1))) as [X|Ni]; [|now apply (proj2 K) in Ni].
          apply (Bwd (length (el :: els) - 1)); auto; cbn [length]; try lia; f_equal; lia.
        * apply (Two (length elements - 1) 0); auto; try lia; [f_equal; lia|].
          apply (no_return m f U D edges elements SS (length elements - 1) 0); [lia|]. rewrite K. f_equal. lia.
      + apply (Two (t - 1) t); try lia; auto; [f_equal; lia|]. replace t with (S (t - 1)) at 2 by lia. apply S2. lia.
  Qed.
  Lemma strip_exact edges elements e : strip f edges elements -> open_ends edges elements \/ closed_ends edges elements -> In e edges ->
    (forall b, In b edges <-> same_row f e b) /\ (forall i, In i elements <-> exists a b, same_row f e a /\ opposite_in f i a b).
  Proof.
    intros SS K He. assert (B : forall b, In b edges <-> same_row f e b).
    { intros b. split.
      - intros Hb. apply (In_nth edges e 0) in He as (t & Ht & <-). apply (In_nth edges b 0) in Hb as (u & Hu & <-). now apply (strip_row edges elements).
      - intros H. induction H; auto. eapply (strip_all edges elements); eauto. }
    split; [exact B|]. intros i. split.
    - intros Hi. apply (In_nth elements i 0) in Hi as (t & Ht & <-). pose proof SS as (L & S1 & _). exists (ed edges t), (ed edges (S t)). split; [|now apply S1].
      apply B, nth_In. lia.
    - intros (a & b & Ha & O). apply B in Ha. eapply (strip_all edges elements); eauto.
  Qed.

  Lemma open_nodup edges elements : strip f edges elements -> open_ends edges elements -> NoDup edges.
  Proof.
    intros SS K. pose proof SS as (L & S1 & _). apply (NoDup_nth edges 0).
    assert (Q : forall t u, t < u -> u < length edges -> ed edges t <> ed edges u).
    2:{ intros t u Ht Hu X. destruct (Nat.lt_trichotomy t u) as [Y|[Y|Y]]; auto; [now destruct (Q t u)|]. symmetry in X. now destruct (Q u t). }
    intros t u Htu Hu X. assert (exists d, u = 1 + (t + d)) as (d & ->) by (exists (u - t - 1); lia).
    destruct (repeats_back m f U D edges elements SS d t ltac:(lia) X) as (Y & Z). specialize (Z ltac:(lia)). unfold open_ends in K. destruct elements as [|el els]; [cbn in L; lia|].
    assert (Hd : d < length (el :: els)) by lia. destruct (opposite_with m f U _ _ _ (S1 d Hd)) as (_ & W & F). cbn [Nat.add] in Y. rewrite Y in W. now apply (proj1 K _ W) in Z.
  Qed.

  (** *** Both sides *)
  Lemma beyond_ends e i x : In i (faces_with f e) -> beyond f e i x -> not_quad f x -> ends_at f e i.
  Proof.
    intros Hi B Q j Hj N. destruct x as [k|]; cbn in B, Q.
    - assert (j = k) as -> by (apply (with_two m f U e i); auto; [apply B|intros X; now apply (proj1 B)]). exact Q.
    - rewrite B in Hj. destruct Hj as [<-|[]]. now contradiction N.
  Qed.
  Lemma walked_last s g e i edges elements x : walked f s g e i edges elements x -> elements <> [] -> not_quad f x -> ends_at f (ed edges (length elements)) (ed elements (length elements - 1)).
  Proof.
    intros (SS & _ & _ & H & _) N Q. apply (beyond_ends _ _ x); [|apply (H N)|exact Q]. assert (0 < length elements) by (destruct elements; [easy|cbn; lia]).
    replace (ed edges (length elements)) with (ed edges (1 + (length elements - 1))) by (f_equal; lia). apply (strip_with m f U edges elements SS). lia.
  Qed.

  (** Strips starting at the same edge with the same face go on in the same way. *)
  Lemma same_way d1 l1 d2 l2 : strip f d1 l1 -> strip f d2 l2 -> ed d1 0 = ed d2 0 -> ed l1 0 = ed l2 0 ->
    forall t, t < length l1 -> t < length l2 -> ed l1 t = ed l2 t /\ ed d1 (S t) = ed d2 (S t).
  Proof.
    intros (L1 & A1 & A2) (L2 & B1 & B2) E0 F0. induction t as [|t IH]; intros H1 H2.
    - split; [exact F0|]. apply (opposite_unique f D (ed l1 0) (ed d1 0)); [now apply A1|]. rewrite E0, F0. now apply B1.
    - destruct (IH ltac:(lia) ltac:(lia)) as (I1 & I2). assert (X : ed l1 (S t) = ed l2 (S t)).
      { apply (with_two m f U (ed d1 (S t)) (ed l1 t)).
        - apply (opposite_with m f U _ _ _ (A1 t ltac:(lia))).
        - apply A2. lia.
        - rewrite I2. apply B2. lia.
        - apply A2. lia.
        - rewrite I1. apply B2. lia. }
      split; [exact X|]. apply (opposite_unique f D (ed l1 (S t)) (ed d1 (S t))); [now apply A1|]. rewrite I2, X. now apply B1.
  Qed.

  Lemma loop_closes e i edges elements : passes_once f e i -> walked f false i e i edges elements (Some i) -> elements <> [] ->
    closed_ends edges elements /\ NoDup (removelast edges).
  Proof.
    intros P (SS & E0 & _ & H & Hn) N. destruct (H N) as (I0 & B). pose proof SS as (L & S1 & S2). split.
    - split; [exact N|]. rewrite E0. assert (Hl : 0 < length elements) by (destruct elements; [easy|cbn; lia]).
      destruct (edges_of_with m f U _ i (proj2 B)) as (es & Ees & Hes). pose proof (S1 0 Hl) as O0. rewrite I0, E0 in O0. pose proof (opposite_with m f U _ _ _ O0) as (W0 & _ & (es' & E' & L')).
      rewrite Ees in E'. injection E' as <-.
      destruct (P es (ed edges (length elements)) Ees L' Hes) as [X|X]; [rewrite <- E0; apply (strip_row edges elements SS); lia|auto|].
      exfalso. pose proof (opposite_unique f D _ _ _ _ O0 X) as Y. destruct (Nat.eq_dec (length elements) 1) as [L1|L1].
      { rewrite L1 in B. cbn [Nat.sub] in B. apply (proj1 B). auto. }
      assert (exists d, length elements = 2 + d) as (d & Ld) by (exists (length elements - 2); lia).
      destruct (repeats_back m f U D edges elements SS d 1 ltac:(lia)) as (Z1 & Z2); [rewrite Y, Ld; f_equal; lia|]. specialize (Z2 Hl).
      apply (Hn (1 + d)); [lia|right; lia|]. rewrite E0 in Z1. rewrite I0 in Z2. apply (with_two m f U e (ed elements d)).
      + rewrite <- Z1. apply (strip_with m f U edges elements SS). lia.
      + rewrite <- Z1. apply (strip_with m f U edges elements SS). lia.
      + exact W0.
      + apply S2. lia.
      + exact Z2.
    - apply (NoDup_nth _ 0). assert (Lr : length (removelast edges) = length elements) by (rewrite removelast_firstn_len, firstn_length, L; lia). rewrite Lr.
      assert (R : forall t, t < length elements -> ed (removelast edges) t = ed edges t) by (intros t Ht; rewrite (app_removelast_last 0 (l := edges)) at 2 by (intros ->; discriminate); rewrite app_nth1; [reflexivity|lia]).
      assert (Q : forall t u, t < u -> u < length elements -> ed edges t <> ed edges u).
      2:{ intros t u Ht Hu X. rewrite !R in X by assumption. destruct (Nat.lt_trichotomy t u) as [Y|[Y|Y]]; auto; [now destruct (Q t u)|]. symmetry in X. now destruct (Q u t). }
      intros t u Htu Hu X. assert (exists d, u = 1 + (t + d)) as (d & ->) by (exists (u - t - 1); lia).
      destruct (repeats_back m f U D edges elements SS d t ltac:(lia) X) as (Z1 & Z2). specialize (Z2 ltac:(lia)). rewrite E0 in Z1. rewrite I0 in Z2.
      apply (Hn (1 + d)); [lia|right; lia|]. apply (with_two m f U e (ed elements d)).
      + rewrite <- Z1. apply (strip_with m f U edges elements SS). lia.
      + rewrite <- Z1. apply (strip_with m f U edges elements SS). lia.
      + rewrite <- I0, <- E0. apply (strip_with m f U edges elements SS 0). lia.
      + apply S2. lia.
      + exact Z2.
  Qed.

  (** The other side does not come back to the first face when the first side ended. *)
  Lemma no_second_loop e i j d0 l0 x0 d1 l1 : passes_once f e i -> In i (faces_with f e) -> In j (faces_with f e) -> i <> j ->
    walked f false i e i d0 l0 x0 -> l0 <> [] -> not_quad f x0 -> NoDup d0 -> walked f true i e j d1 l1 (Some i) -> l1 <> [] -> False.
  Proof.
    intros P Hi Hj Nij W0 N0 Q0 ND (S1 & E1 & _ & H1 & _) N1. destruct (H1 N1) as (F1 & B1). pose proof S1 as (L1 & A1 & A2). pose proof W0 as (S0 & E0 & X0 & H0 & _).
    pose proof S0 as (L0 & C1 & C2). destruct (H0 N0) as (F0 & _). pose proof (walked_last _ _ _ _ _ _ _ W0 N0 Q0) as Stop.
    assert (Hl : 0 < length l1) by (destruct l1; [easy|cbn; lia]). assert (Hl0 : 0 < length l0) by (destruct l0; [easy|cbn; lia]).
    pose proof (C1 0 Hl0) as O0. rewrite E0, F0 in O0. destruct (opposite_with m f U _ _ _ O0) as (_ & _ & F).
    destruct (edges_of_with m f U _ i (proj2 B1)) as (es & Ees & Hes). pose proof F as (es' & E' & L'). rewrite Ees in E'. injection E' as <-.
    destruct (P es (ed d1 (length l1)) Ees L' Hes) as [X|X]; [rewrite <- E1; apply (strip_row d1 l1 S1); lia| |].
    - apply Nij. pose proof (no_return m f U D d1 l1 S1 (length l1 - 1) 0 ltac:(lia)) as R. cbn [Nat.add] in R. rewrite E1, F1 in R.
      specialize (R ltac:(rewrite <- X; f_equal; lia)). apply (with_two m f U e (ed l1 (length l1 - 1))); auto.
      + rewrite <- X. replace (ed d1 (length l1)) with (ed d1 (1 + (length l1 - 1))) by (f_equal; lia). apply (strip_with m f U d1 l1 S1). lia.
      + intros Y. apply (proj1 B1). auto.
    - assert (S2 : strip f (d1 ++ [e]) (l1 ++ [i])).
      { assert (Dd : d1 = removelast d1 ++ [ed d1 (length l1)]).
        { destruct (exists_last (l := d1)) as (q & z & Eq); [intros ->; discriminate|]. rewrite Eq in L1 |- *. rewrite app_length in L1. cbn in L1. rewrite removelast_last, app_nth2 by lia.
          replace (length l1 - length q) with 0 by lia. reflexivity. }
        rewrite Dd. apply (strip_snoc m f U); [rewrite <- Dd; exact S1|now apply opposite_sym|]. intros _ Y. apply (proj1 B1). auto. }
      apply (strip_rev m f U) in S2. rewrite !rev_app_distr in S2. cbn [rev app] in S2. pose proof S2 as (L2 & G1 & G2). cbn [length] in L2. rewrite !rev_length in L2.
      assert (K : forall t, t < length l0 -> t < S (length l1) -> ed l0 t = ed (i :: rev l1) t /\ ed d0 (S t) = ed (e :: rev d1) (S t)).
      { intros t T0 T1. apply (same_way d0 l0 (e :: rev d1) (i :: rev l1)); auto. cbn. rewrite rev_length. exact T1. }
      destruct (Nat.lt_ge_cases (length l1) (length l0)) as [Hc|Hc].
      + destruct (K (length l1) Hc (Nat.lt_succ_diag_r _)) as (_ & Y). cbn [nth] in Y. rewrite rev_nth in Y by lia. replace (length d1 - S (length l1)) with 0 in Y by lia. rewrite E1, <- E0 in Y.
        apply (proj1 (NoDup_nth d0 0) ND) in Y; lia.
      + destruct (K (length l0 - 1) ltac:(lia) ltac:(lia)) as (Y1 & Y2). replace (S (length l0 - 1)) with (length l0) in Y2 by lia.
        assert (Hn : length l0 < length (i :: rev l1)) by (cbn; rewrite rev_length; lia). pose proof (opposite_with m f U _ _ _ (G1 (length l0) Hn)) as (V1 & _ & V2).
        destruct (G2 (length l0 - 1)) as (T1 & T2); [lia|]. replace (S (length l0 - 1)) with (length l0) in * by lia. rewrite <- Y1 in T1. rewrite <- Y2 in V1. apply (Stop _ V1); [auto|exact V2].
  Qed.

  (** *** The row *)
  Definition row_result (e : nat) (edges elements : list nat) : Prop :=
    strip f edges elements /\ In e edges /\ (NoDup edges /\ open_ends edges elements \/ NoDup (removelast edges) /\ closed_ends edges elements).

  Lemma join_sides e i j d0 l0 x0 d1 l1 x1 : In i (faces_with f e) -> In j (faces_with f e) -> i <> j ->
    walked f false i e i d0 l0 x0 -> not_quad f x0 -> walked f true i e j d1 l1 x1 -> not_quad f x1 -> l1 <> [] -> row_result e (rev (tl d1) ++ d0) (rev l1 ++ l0).
  Proof.
    intros Hi Hj Nij W0 Q0 W1 Q1 N1. pose proof W0 as (S0 & E0 & X0 & H0 & _). pose proof W1 as (S1 & E1 & X1 & H1 & _). pose proof S0 as (L0 & _). pose proof S1 as (L1 & _).
    destruct (H1 N1) as (F1 & B1). pose proof (walked_last _ _ _ _ _ _ _ W1 N1 Q1) as Stop1. assert (Hl : 0 < length l1) by (destruct l1; [easy|cbn; lia]).
    destruct d0 as [|e' t0]; [discriminate|]. cbn in E0. subst e'. destruct d1 as [|e' t1]; [discriminate|]. cbn in E1. subst e'. cbn [tl].
    apply (strip_rev m f U) in S1. cbn [rev] in S1.
    assert (SJ : strip f (rev t1 ++ e :: t0) (rev l1 ++ l0)).
    { apply (strip_join m f U); auto. intros _ Nl. destruct (H0 Nl) as (F0 & _). rewrite F0, rev_length, rev_nth by lia. replace (length l1 - S (length l1 - 1)) with 0 by lia. rewrite F1. auto. }
    assert (OE : open_ends (rev t1 ++ e :: t0) (rev l1 ++ l0)).
    { unfold open_ends. destruct (rev l1 ++ l0) as [|u r] eqn:Er; [destruct l1; [easy|]; cbn in Er; now destruct (rev l1)|]. rewrite <- Er. cbn [length] in L0, L1. split.
      - rewrite !(app_nth1), !rev_nth by (rewrite ?rev_length; lia). replace (length t1 - 1) with (length l1 - 1) by lia. cbn [length] in Stop1.
        replace (ed t1 (length l1 - 1)) with (ed (e :: t1) (length l1)) by (replace (length l1) with (S (length l1 - 1)) at 1 by lia; reflexivity). exact Stop1.
      - rewrite !app_length, rev_length. rewrite (app_nth2 (rev t1)) by (rewrite rev_length; lia). rewrite rev_length. replace (length l1 + length l0 - length t1) with (length l0) by lia.
        destruct l0 as [|v q] eqn:El.
        + rewrite app_nil_r. cbn [length nth]. rewrite rev_nth by lia. replace (length l1 - S (length l1 + 0 - 1)) with 0 by lia. rewrite F1.
          intros k Hk Nk. rewrite (X0 eq_refl) in Q0. cbn in Q0. assert (k = i) as -> by (apply (with_two m f U e j); auto). exact Q0.
        + rewrite <- El in *. assert (Nl : l0 <> []) by (rewrite El; discriminate). pose proof (walked_last _ _ _ _ _ _ _ W0 Nl Q0) as Stop0.
          rewrite (app_nth2 (rev l1)) by (rewrite rev_length, El; cbn; lia). rewrite rev_length. replace (length l1 + length l0 - 1 - length l1) with (length l0 - 1) by lia. exact Stop0. }
    split; [exact SJ|]. split; [apply in_or_app; cbn; auto|]. left. split; [|exact OE]. eapply open_nodup; eauto.
  Qed.

  Lemma one_side e i d0 l0 x0 : faces_with f e = [i] -> walked f false i e i d0 l0 x0 -> not_quad f x0 -> row_result e d0 l0.
  Proof.
    intros Ef W0 Q0. pose proof W0 as (S0 & E0 & X0 & H0 & _). pose proof S0 as (L0 & _). assert (OE : open_ends d0 l0).
    { unfold open_ends. rewrite E0. destruct l0 as [|v q] eqn:El.
      - rewrite (X0 eq_refl) in Q0. intros j Hj. rewrite Ef in Hj. destruct Hj as [<-|[]]. exact Q0.
      - rewrite <- El in *. assert (Nl : l0 <> []) by (rewrite El; discriminate). destruct (H0 Nl) as (F0 & _). split; [|apply (walked_last _ _ _ _ _ _ _ W0 Nl Q0)].
        rewrite F0. intros j Hj Nj. rewrite Ef in Hj. destruct Hj as [<-|[]]. now contradiction Nj. }
    split; [exact S0|]. split; [|left; split; [eapply open_nodup; eauto|exact OE]]. rewrite <- E0. apply nth_In. lia.
  Qed.

  Lemma collect_row e : e < length (m_edges m) -> (forall i, nth_error (faces_with f e) 0 = Some i -> passes_once f e i) -> (forall j, nth_error (faces_with f e) 1 = Some j -> four_edges f j) ->
    faces_with f e <> [] -> exists elements edges, collect m f e = Ok (Some (elements, edges)) /\ row_result e edges elements.
  Proof.
    intros He P Qj Ne. unfold collect. rewrite (edge_faces_ok m f U e He). cbn [bind fst snd]. destruct (with_cases e He) as [E|[(i & E)|(i & j & E)]]; [easy| |]; rewrite E in *; cbn [nth_error bind].
    - destruct (collect_side0 e i [] E) as (l0 & d0 & x0 & c & -> & W0 & Hc & Q0). cbn [bind]. destruct c.
      + exists l0, d0. split; [reflexivity|]. destruct (proj1 Hc eq_refl) as (N & ->). destruct (loop_closes e i d0 l0 (P i eq_refl) W0 N) as (C1 & C2).
        split; [apply W0|]. split; [|right; auto]. rewrite <- (proj1 (proj2 W0)). apply nth_In. rewrite (proj1 (proj1 W0)). lia.
      + exists l0, d0. split; [reflexivity|]. apply (one_side e i d0 l0 x0 E W0). auto.
    - assert (Hi : In i (faces_with f e)) by (rewrite E; cbn; auto). assert (Hj : In j (faces_with f e)) by (rewrite E; cbn; auto).
      assert (Nij : i <> j) by (pose proof (with_nodup f e) as N; rewrite E in N; apply NoDup_cons_iff in N as (N & _); intros ->; apply N; cbn; auto).
      destruct (collect_side0 e i [j] E) as (l0 & d0 & x0 & c & -> & W0 & Hc & Q0). cbn [bind]. destruct c.
      + exists l0, d0. split; [reflexivity|]. destruct (proj1 Hc eq_refl) as (N & ->). destruct (loop_closes e i d0 l0 (P i eq_refl) W0 N) as (C1 & C2).
        split; [apply W0|]. split; [|right; auto]. rewrite <- (proj1 (proj2 W0)). apply nth_In. rewrite (proj1 (proj1 W0)). lia.
      + specialize (Q0 eq_refl). destruct (collect_side1 e i j E) as (l1 & d1 & x1 & c1 & -> & W1 & Hc1 & Q1). cbn [bind]. do 2 eexists. split; [reflexivity|].
        assert (N1 : l1 <> []).
        { intros ->. destruct c1; [now destruct (proj1 Hc1 eq_refl)|]. specialize (Q1 eq_refl). rewrite (proj1 (proj2 (proj2 W1)) eq_refl) in Q1. now apply Q1, Qj. }
        assert (N0 : NoDup d0) by (apply (walked_nodup m f U D false i e i Hi Hi eq_refl d0 l0 x0 W0); intros A B; assert (X : false = true) by (apply Hc; auto); discriminate).
        assert (Q1' : not_quad f x1).
        { destruct c1; [|auto]. destruct (proj1 Hc1 eq_refl) as (_ & ->). destruct l0 as [|v q] eqn:El.
          - rewrite (proj1 (proj2 (proj2 W0)) eq_refl) in Q0. exact Q0.
          - exfalso. apply (no_second_loop e i j d0 (v :: q) x0 d1 l1 (P i eq_refl) Hi Hj Nij W0 ltac:(discriminate) Q0 N0 W1 N1). }
        unfold shown. destruct l1 as [|v q] eqn:El; [easy|]. rewrite <- El in *. apply (join_sides e i j d0 l0 x0 d1 l1 x1); auto.
  Qed.
End Collect.

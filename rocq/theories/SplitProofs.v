(** Rows of cells. *)
From Verif Require Import Base BaseLemmas FloatModel MeshModel MeshSpec FaceModel FaceSpec FaceUseSpec SplitModel SplitSpec.

Lemma mod4 k : k < 4 -> (k + 2) mod 4 < 4 /\ ((k + 2) mod 4 + 2) mod 4 = k /\ (k + 2) mod 4 <> k.
Proof. intros H. destruct k as [|[|[|[|]]]]; cbn; lia. Qed.

Section Rows.
  Variable m : mesh.
  Variable f : faces.
  Hypothesis U : usable m f.
  Hypothesis D : distinct_edges f.

  Lemma opposite_sym i a b : opposite_in f i a b -> opposite_in f i b a.
  Proof.
    intros (es & k & E & L & A & B). assert (k < 4) by (rewrite <- L; apply nth_error_Some; congruence).
    exists es, ((k + 2) mod 4). rewrite (proj1 (proj2 (mod4 k H))). auto.
  Qed.
  Lemma opposite_unique i a b c : opposite_in f i a b -> opposite_in f i a c -> b = c.
  Proof.
    intros (es & k & E & L & A & B) (es' & k' & E' & L' & A' & B'). rewrite E in E'. injection E' as <-.
    assert (N : NoDup es) by (apply D; eapply nth_error_In; eauto). assert (k = k'); [|subst; congruence].
    apply (proj1 (NoDup_nth_error es) N); [apply nth_error_Some|]; congruence.
  Qed.
  Lemma opposite_other i a b : opposite_in f i a b -> a <> b.
  Proof.
    intros (es & k & E & L & A & B) <-. assert (N : NoDup es) by (apply D; eapply nth_error_In; eauto).
    assert (Hk : k < 4) by (rewrite <- L; apply nth_error_Some; congruence). apply (proj2 (proj2 (mod4 k Hk))).
    apply (proj1 (NoDup_nth_error es) N); [apply nth_error_Some|]; congruence.
  Qed.
  Lemma with_of_in i es e : nth_error (faces_edges f) i = Some es -> In e es -> In i (faces_with f e).
  Proof.
    intros E H. apply filter_In. split.
    - apply in_seq. destruct U as ((L & _) & _). rewrite <- L. split; [lia|]. apply nth_error_Some. congruence.
    - rewrite (nth_error_nth _ _ _ E). apply existsb_exists. exists e. split; auto. apply Nat.eqb_refl.
  Qed.
  Lemma opposite_with i a b : opposite_in f i a b -> In i (faces_with f a) /\ In i (faces_with f b) /\ four_edges f i.
  Proof. intros (es & k & E & L & A & B). split; [|split; [|exists es; auto]]; eapply with_of_in; eauto using nth_error_In. Qed.
  Lemma with_lt e i : In i (faces_with f e) -> i < num_faces f /\ e < length (m_edges m).
  Proof.
    intros H. apply filter_In in H as (H1 & H2). apply in_seq in H1. split; [lia|]. apply existsb_exists in H2 as (x & H2 & H3). apply Nat.eqb_eq in H3. subst x.
    destruct U as ((L & _) & Uf). destruct (nth_error (faces_edges f) i) as [es|] eqn:E; [|apply nth_error_None in E; lia].
    destruct (nth_error (faces_nodes f) i) as [ns|] eqn:En; [|apply nth_error_None in En; unfold num_faces in *; lia]. rewrite (nth_error_nth _ _ _ E) in H2.
    now apply (Uf i ns es En E).
  Qed.
  Lemma with_nodup e : NoDup (faces_with f e).
  Proof. apply NoDup_filter, seq_NoDup. Qed.
  Lemma with_two e i j k : In i (faces_with f e) -> In j (faces_with f e) -> In k (faces_with f e) -> i <> j -> i <> k -> j = k.
  Proof.
    intros Hi Hj Hk Nj Nk. destruct U as ((_ & _ & _ & _ & T) & _). destruct (T e (proj2 (with_lt e i Hi))) as (L & _).
    pose proof (with_nodup e) as N. destruct (faces_with f e) as [|a [|b [|]]]; cbn in *; [easy| | |lia].
    - destruct Hi as [<-|[]], Hj as [<-|[]]. now contradiction Nj.
    - destruct Hi as [<-|[<-|[]]], Hj as [<-|[<-|[]]], Hk as [<-|[<-|[]]]; auto; now contradiction Nj || now contradiction Nk.
  Qed.

  (** *** Strips *)
  Local Notation ed l t := (nth t l 0).
  Section Strip.
    Variable edges elements : list nat.
    Hypothesis S : strip f edges elements.

    Lemma strip_len : length edges = Datatypes.S (length elements).
    Proof. apply S. Qed.
    Lemma strip_opp t : t < length elements -> opposite_in f (ed elements t) (ed edges t) (ed edges (1 + t)).
    Proof. apply S. Qed.
    Lemma strip_with t : t < length elements -> In (ed elements t) (faces_with f (ed edges t)) /\ In (ed elements t) (faces_with f (ed edges (1 + t))).
    Proof. intros H. destruct (opposite_with _ _ _ (strip_opp t H)) as (H1 & H2 & _). auto. Qed.
    Lemma strip_turn t : 1 + t < length elements -> ed elements t <> ed elements (1 + t).
    Proof. intros H. now apply (proj2 (proj2 S)). Qed.

    (** No edge is crossed in both directions. *)
    Lemma no_return : forall d t, t + d < length elements -> ed edges t = ed edges (1 + (t + d)) -> ed elements (t + d) <> ed elements t.
    Proof.
      apply (well_founded_induction (Wf_nat.well_founded_ltof nat (fun d => d)) (fun d => forall t, t + d < length elements -> ed edges t = ed edges (1 + (t + d)) -> ed elements (t + d) <> ed elements t)).
      intros d IH t Hd E F. destruct d as [|[|d]].
      - rewrite Nat.add_0_r in *. now apply (opposite_other _ _ _ (strip_opp t Hd)).
      - replace (t + 1) with (1 + t) in * by lia. apply (strip_turn t Hd). symmetry. exact F.
      - assert (E' : ed edges (1 + t) = ed edges (1 + (1 + t + d))).
        { apply (opposite_unique (ed elements t) (ed edges t)); [apply strip_opp; lia|]. replace (1 + (1 + t + d)) with (t + Datatypes.S (Datatypes.S d)) by lia.
          rewrite <- F, E. apply opposite_sym, strip_opp. exact Hd. }
        refine (IH d _ (1 + t) _ E' _); [unfold Wf_nat.ltof; lia|lia|].
        (* both are the other face at this edge *)
        apply (with_two (ed edges (1 + t)) (ed elements t)).
        + apply strip_with. lia.
        + rewrite E'. apply (strip_with (1 + t + d)). lia.
        + apply (strip_with (1 + t)). lia.
        + rewrite <- F. replace (t + Datatypes.S (Datatypes.S d)) with (1 + (1 + t + d)) by lia. intros X. symmetry in X. revert X. apply strip_turn. lia.
        + apply strip_turn. lia.
    Qed.
    (** An edge met twice is met in the same direction, and then the first one is met again. *)
    Lemma repeats_back d : forall t, t + d < length elements -> ed edges t = ed edges (1 + (t + d)) ->
      ed edges (1 + d) = ed edges 0 /\ (0 < length elements -> ed elements d <> ed elements 0).
    Proof.
      induction t as [|t IH]; intros H E.
      - cbn in *. split; [congruence|]. intros _. apply (no_return d 0); auto.
      - assert (N : ed elements (1 + t + d) <> ed elements (1 + t)) by (apply (no_return d (1 + t)); auto).
        apply IH; [lia|]. apply (opposite_unique (ed elements t) (ed edges (1 + t))); [apply opposite_sym, strip_opp; lia|].
        assert (F : ed elements t = ed elements (1 + t + d)).
        { apply (with_two (ed edges (1 + t)) (ed elements (1 + t))).
          - apply strip_with. lia.
          - apply strip_with. lia.
          - cbn [Nat.add] in E |- *. rewrite E. apply (strip_with (1 + t + d)). lia.
          - intros X. symmetry in X. revert X. apply strip_turn. lia.
          - auto. }
        rewrite F. cbn [Nat.add] in E |- *. rewrite E. replace (1 + (t + d)) with (1 + t + d) by lia. apply opposite_sym, (strip_opp (1 + t + d)). lia.
    Qed.
  End Strip.

  (** *** One step *)
  Lemma is_quad_ok i : i < num_faces f -> exists q, is_quad f (Some i) = Ok q /\ (q = true <-> four_edges f i).
  Proof.
    intros H. destruct U as ((L & Ln & _) & Uf). destruct (nth_error (faces_nodes f) i) as [ns|] eqn:En; [|apply nth_error_None in En; unfold num_faces in H; lia].
    destruct (nth_error (faces_edges f) i) as [es|] eqn:E; [|apply nth_error_None in E; lia]. exists (length ns =? 4). cbn [is_quad].
    assert (G : vget (num_faces_nodes f) i = Ok (length ns)) by (apply vget_ok; rewrite Ln, nth_error_map, En; reflexivity). rewrite G. split; [reflexivity|].
    destruct (Uf i ns es En E) as (_ & Le & _). rewrite Nat.eqb_eq, <- Le. split; [intros; exists es; auto|]. intros (es' & E' & L'). congruence.
  Qed.
  Lemma position_found e l : In e l -> exists k, position e l = Some k /\ nth_error l k = Some e.
  Proof.
    induction l as [|x t IH]; [easy|]. cbn. destruct (Nat.eqb_spec x e) as [->|N]; [exists 0; auto|]. intros [X|H]; [easy|]. destruct (IH H) as (k & -> & K). exists (1 + k). auto.
  Qed.
  Lemma edges_of_with e i : In i (faces_with f e) -> exists es, nth_error (faces_edges f) i = Some es /\ In e es.
  Proof.
    intros H. destruct (with_lt e i H) as (Hi & _). destruct U as ((L & _) & _). destruct (nth_error (faces_edges f) i) as [es|] eqn:E; [|apply nth_error_None in E; lia].
    exists es. split; auto. apply filter_In in H as (_ & H). rewrite (nth_error_nth _ _ _ E) in H. apply existsb_exists in H as (x & H & Hx). apply Nat.eqb_eq in Hx. now subst.
  Qed.
  Lemma opposite_ok i e : In i (faces_with f e) -> four_edges f i -> exists o, opposite_edge m f (Some i) (Some e) = Ok (Some o) /\ opposite_in f i e o.
  Proof.
    intros H (es & E & L). destruct (edges_of_with e i H) as (es' & E' & He). rewrite E in E'. injection E' as <-. destruct (with_lt e i H) as (Hi & Hl).
    destruct (position_found e es He) as (k & P & K). cbn [opposite_edge edge_index]. rewrite (proj2 (Nat.leb_gt _ _)) by lia. rewrite (proj2 (Nat.leb_gt _ _)) by lia.
    rewrite (proj2 (vget_ok _ _ _) E). cbn [bind]. rewrite P. assert (Hk : k < 4) by (rewrite <- L; apply nth_error_Some; congruence).
    destruct (nth_error es ((k + 2) mod 4)) as [o|] eqn:Eo; [|apply nth_error_None in Eo; pose proof (mod4 k Hk); lia]. rewrite (proj2 (vget_ok _ _ _) Eo). cbn [bind].
    exists o. split; [reflexivity|]. exists es, k. auto.
  Qed.
  (** What lies beyond edge [e] seen from face [i]. *)
  Definition beyond (e i : nat) (x : option nat) : Prop := match x with Some j => j <> i /\ In j (faces_with f e) | None => faces_with f e = [i] end.
  Lemma beyond_same e i x y : In i (faces_with f e) -> beyond e i x -> beyond e i y -> x = y.
  Proof.
    intros H. destruct x as [j|], y as [k|]; cbn; auto.
    - intros (N1 & H1) (N2 & H2). f_equal. apply (with_two e i); auto.
    - intros (N1 & H1) E. rewrite E in H1. destruct H1 as [<-|[]]. now contradiction N1.
    - intros E (N1 & H1). rewrite E in H1. destruct H1 as [<-|[]]. now contradiction N1.
  Qed.
  Lemma edge_faces_ok e : e < length (m_edges m) -> vget (edges_faces f) e = Ok (nth_error (faces_with f e) 0, nth_error (faces_with f e) 1).
  Proof. intros H. apply vget_ok. destruct U as ((_ & _ & _ & _ & T) & _). now apply T. Qed.
  Lemma across_ok e i : In i (faces_with f e) -> beyond e i (across (nth_error (faces_with f e) 0, nth_error (faces_with f e) 1) (Some i)).
  Proof.
    intros H. destruct U as ((_ & _ & _ & _ & T) & _). destruct (T e (proj2 (with_lt e i H))) as (L & _). pose proof (with_nodup e) as N.
    unfold across, beyond. destruct (faces_with f e) as [|a [|b [|]]] eqn:E; cbn in *; [easy| | |lia].
    - destruct H as [<-|[]]. rewrite Nat.eqb_refl. reflexivity.
    - apply NoDup_cons_iff in N as (N & _). destruct (Nat.eqb_spec a i) as [->|Na].
      + split; [|auto]. intros ->. apply N. cbn. auto.
      + split; auto.
  Qed.
  Lemma next_ok i e : In i (faces_with f e) -> four_edges f i -> exists o x, next_edge m f (Some i) (Some e) = Ok (x, Some o) /\ opposite_in f i e o /\ beyond o i x.
  Proof.
    intros H Q. destruct (is_quad_ok i (proj1 (with_lt e i H))) as (q & E & Hq). destruct (opposite_ok i e H Q) as (o & Eo & O).
    unfold next_edge. rewrite E. cbn [bind]. rewrite (proj2 Hq Q). cbn [negb]. rewrite Eo. cbn [bind]. destruct (opposite_with _ _ _ O) as (_ & W & _).
    rewrite (edge_faces_ok o (proj2 (with_lt o i W))). cbn [bind]. do 2 eexists. split; [reflexivity|]. split; auto. now apply across_ok.
  Qed.

  (** *** Extending, reversing and joining strips *)
  Lemma strip_nil e : strip f [e] [].
  Proof. split; [reflexivity|]. split; cbn; intros; lia. Qed.
  Lemma nth_snoc_eq {A} (l : list A) x d n : n = length l -> nth n (l ++ [x]) d = x.
  Proof. intros ->. rewrite app_nth2, Nat.sub_diag by lia. reflexivity. Qed.
  Lemma nth_snoc_lt {A} (l : list A) x d n : n < length l -> nth n (l ++ [x]) d = nth n l d.
  Proof. intros. now apply app_nth1. Qed.
  Lemma strip_snoc edges cur elements i o : strip f (edges ++ [cur]) elements -> opposite_in f i cur o ->
    (elements <> [] -> nth (length elements - 1) elements 0 <> i) -> strip f ((edges ++ [cur]) ++ [o]) (elements ++ [i]).
  Proof.
    intros (L & S1 & S2) O B. rewrite app_length in L. cbn in L. assert (Le : length edges = length elements) by lia.
    split; [rewrite !app_length; cbn; lia|]. split; intros t Ht; rewrite app_length in Ht; cbn in Ht.
    - destruct (Nat.eq_dec t (length elements)) as [->|N].
      + rewrite (nth_snoc_eq elements), (nth_snoc_eq (edges ++ [cur]) _ _ (S (length elements))), (nth_snoc_lt (edges ++ [cur])), (nth_snoc_eq edges) by (rewrite ?app_length; cbn; lia). exact O.
      + rewrite (nth_snoc_lt elements), !(nth_snoc_lt (edges ++ [cur])) by (rewrite ?app_length; cbn; lia). apply S1. lia.
    - destruct (Nat.eq_dec (S t) (length elements)) as [E|N].
      + rewrite (nth_snoc_eq elements _ _ (S t)), (nth_snoc_lt elements), (nth_snoc_lt (edges ++ [cur])), (nth_snoc_eq edges) by (rewrite ?app_length; cbn; lia).
        split; [|apply (opposite_with _ _ _ O)]. replace t with (length elements - 1) by lia. apply B. intros ->. cbn in E. lia.
      + rewrite !(nth_snoc_lt elements), (nth_snoc_lt (edges ++ [cur])) by (rewrite ?app_length; cbn; lia). apply S2. lia.
  Qed.
  Lemma strip_rev edges elements : strip f edges elements -> strip f (rev edges) (rev elements).
  Proof.
    intros SS. pose proof SS as (L & S1 & S2). split; [now rewrite !rev_length|]. split; intros t Ht; rewrite rev_length in Ht.
    - rewrite (rev_nth elements), !(rev_nth edges) by lia. rewrite L. replace (S (length elements) - S t) with (S (length elements - S t)) by lia.
      replace (S (length elements) - S (S t)) with (length elements - S t) by lia. apply opposite_sym, S1. lia.
    - rewrite !(rev_nth elements), (rev_nth edges) by lia. rewrite L. replace (length elements - S t) with (S (length elements - S (S t))) by lia.
      split; [intros X; symmetry in X; revert X; apply S2; lia|]. replace (S (length elements) - S (S t)) with (S (length elements - S (S t))) by lia.
      apply (strip_with edges elements SS). lia.
  Qed.
  Lemma strip_join l1 e l2 k1 k2 : strip f (l1 ++ [e]) k1 -> strip f (e :: l2) k2 -> (k1 <> [] -> k2 <> [] -> nth (length k1 - 1) k1 0 <> nth 0 k2 0) ->
    strip f (l1 ++ e :: l2) (k1 ++ k2).
  Proof.
    intros SA SB J. pose proof SA as (LA & A1 & A2). pose proof SB as (LB & B1 & B2). rewrite app_length in LA. cbn in LA, LB. assert (L1 : length l1 = length k1) by lia. assert (L2 : length l2 = length k2) by lia.
    assert (EA : forall t, t <= length k1 -> nth t (l1 ++ e :: l2) 0 = nth t (l1 ++ [e]) 0).
    { intros t Ht. destruct (Nat.eq_dec t (length l1)) as [->|N]; [rewrite !app_nth2, Nat.sub_diag by lia; reflexivity|rewrite !app_nth1 by lia; reflexivity]. }
    assert (EB : forall t, nth (length k1 + t) (l1 ++ e :: l2) 0 = nth t (e :: l2) 0) by (intros t; rewrite app_nth2 by lia; f_equal; lia).
    assert (KB : forall t, nth (length k1 + t) (k1 ++ k2) 0 = nth t k2 0) by (intros t; rewrite app_nth2 by lia; f_equal; lia).
    split; [rewrite !app_length; cbn; lia|]. split; intros t Ht; rewrite app_length in Ht.
    - destruct (Nat.lt_ge_cases t (length k1)) as [H|H].
      + rewrite (app_nth1 k1 k2), !EA by lia. auto.
      + replace t with (length k1 + (t - length k1)) by lia. replace (S (length k1 + (t - length k1))) with (length k1 + S (t - length k1)) by lia. rewrite KB, !EB. apply B1. lia.
    - destruct (Nat.lt_ge_cases (S t) (length k1)) as [H|H].
      + rewrite !(app_nth1 k1 k2), EA by lia. auto.
      + destruct (Nat.eq_dec (S t) (length k1)) as [E|N].
        * assert (k2 <> []) by (intros ->; cbn in Ht; lia). assert (k1 <> []) by (intros ->; cbn in E; lia).
          rewrite (app_nth1 k1 k2) by lia. replace (S t) with (length k1 + 0) by lia. rewrite KB, EB. split; [replace t with (length k1 - 1) by lia; auto|].
          destruct k2 as [|i r]; [easy|]. apply (opposite_with _ _ _ (B1 0 ltac:(cbn; lia))).
        * replace (S t) with (length k1 + S (t - length k1)) by lia. replace (nth t (k1 ++ k2) 0) with (nth (t - length k1) k2 0) by (rewrite <- KB; f_equal; lia).
          rewrite KB, EB. apply B2. lia.
  Qed.

  (** *** Walking *)
  Section Walk.
    Variable s : bool.
    Variables g e0 i0 : nat.
    Hypothesis Hi0 : In i0 (faces_with f e0).
    Hypothesis Hg : In g (faces_with f e0).
    Hypothesis Hs : if s then g <> i0 else g = i0.

    Definition walked (edges elements : list nat) (x : option nat) : Prop :=
      strip f edges elements /\ ed edges 0 = e0 /\ (elements = [] -> x = Some i0) /\
      (elements <> [] -> ed elements 0 = i0 /\ beyond (ed edges (length elements)) (ed elements (length elements - 1)) x) /\
      (forall t, t < length elements -> (s = true \/ 0 < t) -> ed elements t <> g).

    Lemma walked_nodup edges elements x : walked edges elements x -> (elements <> [] -> x <> Some g) -> NoDup edges.
    Proof.
      intros (SS & E0 & _ & Hx & Hn) Ng. pose proof SS as (L & _). apply (NoDup_nth edges 0).
      assert (K : forall t u, t < u -> u < length edges -> ed edges t <> ed edges u).
      2:{ intros t u Ht Hu X. destruct (Nat.lt_trichotomy t u) as [Y|[Y|Y]]; auto; [now destruct (K t u)|]. symmetry in X. now destruct (K u t). }
      intros t u Htu Hu X. assert (exists d, u = 1 + (t + d)) as (d & ->) by (exists (u - t - 1); lia).
      destruct (repeats_back edges elements SS d t ltac:(lia) X) as (Y & Z). rewrite E0 in Y. specialize (Z ltac:(lia)).
      assert (Hd : d < length elements) by lia. assert (elements <> []) by (intros ->; cbn in Hd; lia). destruct (Hx H) as (Y0 & By). rewrite Y0 in Z.
      destruct (strip_with edges elements SS d Hd) as (_ & W). rewrite Y in W.
      destruct (Bool.bool_dec s true) as [Es|Es].
      - rewrite Es in Hs. apply (Hn d Hd (or_introl Es)). apply (with_two e0 i0); auto.
      - apply not_true_is_false in Es. rewrite Es in Hs. destruct (Nat.eq_dec (1 + d) (length elements)) as [Q|Q].
        + replace (length elements - 1) with d in By by lia. rewrite <- Q, Y in By. destruct x as [j|]; cbn in By.
          * apply (Ng H). f_equal. apply (with_two e0 (ed elements d)); auto; [apply By|intros C; apply (proj1 By); congruence|congruence].
          * rewrite By in Hi0. destruct Hi0 as [C|[]]. apply Z. congruence.
        + apply (Hn (1 + d)); [lia|right; lia|]. rewrite Hs. apply (with_two e0 (ed elements d)); auto.
          * rewrite <- Y. apply (strip_with edges elements SS (1 + d)). lia.
          * apply (strip_turn edges elements SS d). lia.
    Qed.
    Lemma strip_bound edges elements : strip f edges elements -> ed edges 0 = e0 -> Forall (fun e => e < length (m_edges m)) edges.
    Proof.
      intros SS E0. pose proof SS as (L & _). apply Forall_forall. intros e H. apply (In_nth edges e 0) in H as (t & Ht & <-). destruct t as [|t].
      - rewrite E0. apply (with_lt e0 i0 Hi0).
      - eapply with_lt, (strip_with edges elements SS t). lia.
    Qed.
    Lemma walked_length edges elements x : walked edges elements x -> (elements <> [] -> x <> Some g) -> length edges <= length (m_edges m).
    Proof.
      intros H N. rewrite <- (seq_length (length (m_edges m)) 0). apply NoDup_incl_length; [eapply walked_nodup; eauto|].
      intros e He. apply in_seq. pose proof (strip_bound edges elements (proj1 H) (proj1 (proj2 H))) as B. rewrite Forall_forall in B. specialize (B e He). lia.
    Qed.

    Definition not_quad (x : option nat) : Prop := match x with Some j => ~ four_edges f j | None => True end.
    Definition shown (edges elements : list nat) : list nat := if s then (if elements then [e0] else tl edges) else edges.

    Lemma walk_ok : forall fuel elements edges cur x loop,
      walked (edges ++ [cur]) elements x -> length (m_edges m) < length elements + fuel -> (loop = true <-> elements <> [] /\ x = Some g) ->
      exists elements' edges' x' loop',
        walk m f (Some g) fuel x (Some cur) (s && (if elements then true else false)) elements (if s then tl edges else edges) loop = Ok (Some (elements', shown edges' elements', loop')) /\
        walked edges' elements' x' /\ (loop' = true <-> elements' <> [] /\ x' = Some g) /\ (loop' = false -> not_quad x') /\ length elements <= length elements'.
    Proof.
      induction fuel as [|fuel IH]; intros elements edges cur x loop W Hf Hl; pose proof W as (SS & E0 & Hx0 & Hx & Hn); pose proof SS as (L & _); rewrite app_length in L; cbn in L.
      all: assert (Q : exists q, is_quad f x = Ok q /\ (q = false -> not_quad x) /\ (q = true -> exists i, x = Some i /\ four_edges f i /\ In i (faces_with f cur))).
      1,3: destruct x as [i|]; [|exists false; repeat split; cbn; auto; discriminate];
           assert (Hi : In i (faces_with f cur)) by
             (destruct elements as [|]; [specialize (Hx0 eq_refl); injection Hx0 as ->; destruct edges; [|cbn in L; lia]; cbn in E0; rewrite E0; exact Hi0|];
              destruct (Hx ltac:(discriminate)) as (_ & _ & B); rewrite (nth_snoc_eq edges) in B by lia; exact B);
           destruct (is_quad_ok i (proj1 (with_lt cur i Hi))) as (q & -> & Hq); exists q; repeat split; [intros ->; cbn; intros C; apply Hq in C; discriminate|intros ->; exists i; repeat split; auto; now apply Hq].
      all: destruct Q as (q & Eq & Qf & Qt); cbn [walk]; rewrite Eq; cbn [bind].
      all: assert (Stop : q && negb loop = false -> exists elements' edges' x' loop',
          Ok (Some (elements, (if s then tl edges else edges) ++ [cur], loop)) = Ok (Some (elements', shown edges' elements', loop')) /\
          walked edges' elements' x' /\ (loop' = true <-> elements' <> [] /\ x' = Some g) /\ (loop' = false -> not_quad x') /\ length elements <= length elements')
        by (intros C; exists elements, (edges ++ [cur]), x, loop; split; [|split; [exact W|split; [exact Hl|split; [|lia]]]];
            [unfold shown; destruct s, elements; auto; destruct edges; cbn in L |- *; try (exfalso; lia); auto; cbn in E0; now rewrite E0
            |intros ->; apply Qf; destruct q; cbn in C; auto]).
      all: destruct (q && negb loop) eqn:C; [clear Stop|now apply Stop].
      all: apply andb_true_iff in C as (-> & C); apply negb_true_iff in C; subst loop; destruct (Qt eq_refl) as (i & -> & F & Hi).
      all: assert (Ng : elements <> [] -> Some i <> Some g) by (intros H1 H2; assert (X : false = true) by (apply Hl; auto); discriminate).
      1: { pose proof (walked_length _ _ _ W Ng) as B. rewrite app_length in B. cbn in B. lia. }
      destruct (next_ok i cur Hi F) as (o & y & En & Ho & By). rewrite En. cbn [bind].
      assert (S' : strip f ((edges ++ [cur]) ++ [o]) (elements ++ [i])).
      { apply strip_snoc; auto. intros H X. destruct (Hx H) as (_ & B & _). apply B. now rewrite X. }
      assert (W' : walked ((edges ++ [cur]) ++ [o]) (elements ++ [i]) y).
      { split; [exact S'|]. split; [rewrite app_nth1; [exact E0|rewrite app_length; cbn; lia]|]. split; [intros H; now destruct elements|]. split.
        - intros _. split.
          + destruct elements; [specialize (Hx0 eq_refl); injection Hx0 as ->; reflexivity|apply (Hx ltac:(discriminate))].
          + rewrite app_length. cbn [length]. rewrite (nth_snoc_eq (edges ++ [cur])), (nth_snoc_eq elements) by (rewrite ?app_length; cbn; lia). exact By.
        - intros t Ht Hc. rewrite app_length in Ht. cbn in Ht. destruct (Nat.eq_dec t (length elements)) as [->|N].
          + rewrite nth_snoc_eq by reflexivity. destruct elements as [|u r].
            * specialize (Hx0 eq_refl). injection Hx0 as ->. destruct Hc as [Hc|Hc]; [|cbn in Hc; lia]. rewrite Hc in Hs. auto.
            * intros X. apply Ng; [discriminate|now rewrite X].
          + rewrite nth_snoc_lt by lia. apply Hn; [lia|exact Hc]. }
      destruct (IH (elements ++ [i]) (edges ++ [cur]) o y (eq_idx y (Some g)) W' ltac:(rewrite app_length; cbn; lia)) as (e' & d' & x' & l' & R & HR).
      { destruct y as [y|]; cbn [eq_idx]; [rewrite Nat.eqb_eq|]; (split; [intros X|intros (_ & X)]); try discriminate; [split; [now destruct elements|congruence]|congruence]. }
      exists e', d', x', l'. split; [|destruct HR as (H1 & H2 & H3 & H4); rewrite app_length in H4; cbn in H4; split; [exact H1|]; split; [exact H2|]; split; [exact H3|lia]]. rewrite <- R. f_equal.
      - destruct elements; cbn; now rewrite andb_false_r.
      - destruct s, elements, edges; cbn in L |- *; try lia; reflexivity.
    Qed.
  End Walk.
End Rows.

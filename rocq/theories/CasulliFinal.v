(** The Casulli refinement as a whole. *)
From Coq Require Import Permutation.
From Verif Require Import Base BaseLemmas FloatModel FloatProofs UndoModel UndoSpec UndoProofs ActionModel ActionSpec ActionProofs
  MeshModel MeshSpec MeshProofs MeshAdj MeshConstruct MeshUndo MeshEdits MeshEdits2 MeshFacts FaceModel FaceSpec FlipModel FlipSpec FlipProofs FlipFinal NodeTypeModel NodeTypeSpec NodeTypeProofs
  FaceUseModel FaceUseSpec FaceUse SplitModel SplitEffect RefineProofs RefineSplit CasulliModel CasulliSpec CasulliWalk CasulliMask CasulliTable CasulliNodes CasulliConnect.

(** *** A node of the boundary that is no corner has two boundary edges *)
Lemma filter_both {A} (p : A -> bool) l : length (filter p l) + length (filter (fun x => negb (p x)) l) = length l.
Proof. induction l as [|x l IH]; [reflexivity|]. cbn. destruct (p x); cbn; lia. Qed.
Lemma two_missing {A} (p : A -> bool) l x y : NoDup l -> In x l -> In y l -> x <> y -> p x = false -> p y = false -> length (filter p l) + 2 <= length l.
Proof.
  intros ND Hx Hy D Px Py. rewrite <- (filter_both p l). enough (length [x; y] <= length (filter (fun z => negb (p z)) l)) by (cbn in *; lia).
  apply NoDup_incl_length; [repeat constructor; cbn; intuition|]. intros z [<-|[<-|[]]]; apply filter_In; [rewrite Px|rewrite Py]; auto.
Qed.
Lemma forth j d : j < d -> (j + 1) mod d = if S j =? d then 0 else S j.
Proof. intros H. destruct (Nat.eqb_spec (S j) d) as [Q|Q]; [replace (j + 1) with d by lia; apply Nat.mod_same; lia|rewrite Nat.mod_small by lia; lia]. Qed.

Section Two.
  Variable inside : point -> bool.
  Variable types : list Z.
  Variable m : mesh.
  Variable f : faces.
  Hypothesis I : in_step m f.
  Hypothesis A : apart f.
  Hypothesis Loose : none_loose m f.
  Hypothesis Ht : length types = length (m_nodes m).

  Section Node.
    Variable n : nat.
    Variable l : list nat.
    Local Notation d := (length l).
    Local Notation "'at_' j" := (nth j l 0) (at level 9).
    Hypothesis Hn : n < length (m_nodes m).
    Hypothesis Row : row_of m n = map Some l.
    Hypothesis Deg : degree_of m n = d.
    Hypothesis ND : NoDup l.
    Hypothesis In_l : forall e, In e l -> e < length (m_edges m) /\ (exists i, lists f i e) /\ ends_in (edge_at m e) n.
    Hypothesis Listed : forall i e, lists f i e -> ends_in (edge_at m e) n -> In e l.
    Hypothesis D3 : 3 <= d.
    Definition nx (j : nat) : nat := if S j =? d then 0 else S j.
    Definition pv (j : nat) : nat := if j =? 0 then d - 1 else j - 1.
    Lemma nx_facts j : j < d -> nx j < d /\ nx j <> j /\ pv (nx j) = j /\ nx (nx j) <> j.
    Proof. clear -D3. intros H. unfold nx, pv. repeat match goal with |- context[?x =? ?y] => destruct (Nat.eqb_spec x y) end; lia. Qed.
    Lemma pv_facts j : j < d -> pv j < d /\ pv j <> j /\ nx (pv j) = j /\ pv j <> nx j.
    Proof. clear -D3. intros H. unfold nx, pv. repeat match goal with |- context[?x =? ?y] => destruct (Nat.eqb_spec x y) end; lia. Qed.
    Lemma at_inj i j : i < d -> j < d -> at_ i = at_ j -> i = j.
    Proof. intros. now apply (proj1 (NoDup_nth l 0) ND). Qed.
    Lemma ends_at j : j < d -> ends_in (edge_at m (at_ j)) n.
    Proof. intros H. apply In_l. now apply nth_In. Qed.
    Lemma paired_at j : j < d -> (paired m f n j = true <-> exists i, lists f i (at_ j) /\ lists f i (at_ (nx j))).
    Proof.
      intros H. unfold paired. rewrite Row, Deg, forth by exact H. fold (nx j). destruct (nx_facts j H) as (B & _).
      rewrite (nth_indep _ None (Some 0)), (nth_indep (map Some l) None (Some 0) (n := nx j)) by (rewrite map_length; assumption). rewrite !map_nth. apply (together_ok types m f I Ht).
    Qed.
    Hypothesis Most : forall j j', j < d -> j' < d -> paired m f n j = false -> paired m f n j' = false -> j = j'.

    (** Faces on either side of an edge between two pairs differ. *)
    Lemma sides_differ j F F' : j < d -> lists f F (at_ j) -> lists f F (at_ (nx j)) -> lists f F' (at_ (pv j)) -> lists f F' (at_ j) -> F <> F'.
    Proof.
      intros H H1 H2 H3 H4 ->. destruct (nx_facts j H) as (B1 & N1 & _), (pv_facts j H) as (B2 & N2 & _ & N3).
      destruct (face_two m f I F' n (at_ (nx j)) (at_ (pv j)) (at_ j) H2 H3 H1 (ends_at _ B1) (ends_at _ B2) (ends_at _ H)) as [Q|Q].
      - intros Q. apply at_inj in Q; auto.
      - apply at_inj in Q; auto.
      - apply at_inj in Q; auto.
    Qed.
    Lemma two_faces e i F F' : lists f i e -> lists f F e -> lists f F' e -> F <> F' -> i = F \/ i = F'.
    Proof.
      intros Li LF LF' D. destruct (lists_lt m f I i e Li) as (_ & He). destruct (faces_recorded m f I e He) as (k & p & _ & _ & _ & _ & _ & _ & _ & K & _).
      apply K in Li, LF, LF'. destruct Li as [(_ & Q1)|(_ & Q1)], LF as [(_ & Q2)|(_ & Q2)], LF' as [(_ & Q3)|(_ & Q3)]; try (left; congruence); try (right; congruence); exfalso; apply D; congruence.
    Qed.
    Lemma not_rim j : j < d -> paired m f n j = true -> paired m f n (pv j) = true -> ~ on_boundary f (at_ j).
    Proof.
      intros H P1 P2 (i & Bd). apply (paired_at j H) in P1 as (F & A1 & A2). destruct (pv_facts j H) as (B & _ & Q & _). apply (paired_at _ B) in P2 as (F' & A3 & A4). rewrite Q in A4.
      apply (sides_differ j F F' H A1 A2 A3 A4). rewrite (proj1 (Bd F) A1), (proj1 (Bd F') A4). reflexivity.
    Qed.
    Variable j0 : nat.
    Hypothesis J0 : j0 < d.
    Hypothesis Gap : paired m f n j0 = false.
    Lemma others j : j < d -> j <> j0 -> paired m f n j = true.
    Proof. intros H D. destruct (paired m f n j) eqn:Q; [reflexivity|]. exfalso. apply D. now apply Most. Qed.
    Lemma at_gap c i : c = j0 \/ c = nx j0 -> lists f i (at_ c) -> lists f i (at_ (if c =? j0 then pv j0 else nx (nx j0))).
    Proof.
      intros Hc L. destruct (nx_facts j0 J0) as (B1 & N1 & N2 & N3), (pv_facts j0 J0) as (B2 & N4 & N5 & N6). assert (Bc : c < d) by (destruct Hc as [->| ->]; assumption).
      destruct (other_edge m f I i n (at_ c) L (ends_at _ Bc)) as (y & Dy & Ly & Ey). destruct (In_nth _ _ 0 (Listed i y Ly Ey)) as (t & Bt & Qt). subst y.
      assert (T0 : t <> c) by (intros ->; congruence).
      assert (T1 : t <> j0 /\ t <> nx j0).
      { assert (NoG : ~ (lists f i (at_ j0) /\ lists f i (at_ (nx j0)))) by (intros X; assert (paired m f n j0 = true) by (apply paired_at; eauto); congruence).
        destruct Hc as [->| ->]; split; auto; intros ->; apply NoG; auto. }
      destruct T1 as (T1 & T2). destruct (nx_facts t Bt) as (C1 & C2 & C3 & C4), (pv_facts t Bt) as (C5 & C6 & C7 & C8).
      pose proof (others t Bt T1) as P1. assert (Pv : pv t <> j0) by (intros X; apply T2; rewrite <- X; symmetry; exact C7). pose proof (others _ C5 Pv) as P2.
      apply (paired_at t Bt) in P1 as (F & A1 & A2). apply (paired_at _ C5) in P2 as (F' & A3 & A4). rewrite C7 in A4.
      pose proof (sides_differ t F F' Bt A1 A2 A3 A4) as DF. destruct (two_faces (at_ t) i F F' Ly A1 A4 DF) as [->| ->].
      - destruct (face_two m f I F n (at_ t) (at_ (nx t)) (at_ c) A1 A2 L (ends_at _ Bt) (ends_at _ C1) (ends_at _ Bc)) as [Q|Q]; [intros Q; apply at_inj in Q; auto|apply at_inj in Q; auto; congruence|].
        apply at_inj in Q; auto. destruct Hc as [->| ->].
        + rewrite Nat.eqb_refl. replace (pv j0) with t by (rewrite Q; now symmetry). exact A1.
        + exfalso. apply T1. rewrite <- C3, <- Q. exact N2.
      - destruct (face_two m f I F' n (at_ t) (at_ (pv t)) (at_ c) A4 A3 L (ends_at _ Bt) (ends_at _ C5) (ends_at _ Bc)) as [Q|Q]; [intros Q; apply at_inj in Q; auto|apply at_inj in Q; auto; congruence|].
        apply at_inj in Q; auto. destruct Hc as [->| ->]; [congruence|]. destruct (Nat.eqb_spec (nx j0) j0); [congruence|]. rewrite Q, C7. exact A4.
    Qed.
    Lemma gap_rim c : c = j0 \/ c = nx j0 -> on_boundary f (at_ c).
    Proof.
      intros Hc. destruct (nx_facts j0 J0) as (B1 & N1 & N2 & N3), (pv_facts j0 J0) as (B2 & N4 & N5 & N6). assert (Bc : c < d) by (destruct Hc as [->| ->]; assumption).
      destruct (In_l (at_ c) (nth_In _ _ Bc)) as (_ & (i & L) & _). exists i. intros j. split; [|intros ->; exact L]. intros Lj. pose proof (at_gap c i Hc L) as G1. pose proof (at_gap c j Hc Lj) as G2.
      eapply A; [|exact Lj|exact G2|exact L|exact G1]. intros Q. destruct Hc as [->| ->].
      - rewrite Nat.eqb_refl in Q. apply at_inj in Q; auto.
      - destruct (Nat.eqb_spec (nx j0) j0); [congruence|]. destruct (nx_facts _ B1) as (B3 & N7 & _). apply at_inj in Q; auto.
    Qed.
    Lemma rim_two : length (filter (single f) l) = 2.
    Proof.
      destruct (nx_facts j0 J0) as (B1 & N1 & N2 & N3). assert (Inc : forall e, In e (filter (single f) l) <-> In e [at_ j0; at_ (nx j0)]).
      { intros e. rewrite filter_In. split.
        - intros (He & Se). destruct (In_nth _ _ 0 He) as (j & Bj & <-). apply (single_ok m f I) in Se; [|now apply In_l].
          destruct (Nat.eq_dec j j0) as [->|D1]; [now left|]. destruct (Nat.eq_dec (pv j) j0) as [D2|D2].
          + right. left. destruct (pv_facts j Bj) as (_ & _ & X & _). now rewrite <- D2, X.
          + exfalso. apply (not_rim j Bj); [now apply others|apply others; [apply pv_facts; exact Bj|exact D2]|exact Se].
        - intros [<-|[<-|[]]]; (split; [now apply nth_In|]); (apply (single_ok m f I); [apply In_l; now apply nth_In|apply gap_rim; auto]). }
      apply Nat.le_antisymm.
      - apply (NoDup_incl_length (l := filter (single f) l) (l' := [at_ j0; at_ (nx j0)])); [now apply NoDup_filter|]. intros e. apply Inc.
      - apply (NoDup_incl_length (l := [at_ j0; at_ (nx j0)]) (l' := filter (single f) l)); [|intros e; apply Inc]. repeat constructor; cbn; [|easy]. intros [Q|[]]. apply at_inj in Q; auto.
    Qed.
  End Node.

  Theorem boundary_two n : n < length (m_nodes m) -> mask_is inside types m f n Boundary -> length (rim_edges m f n) = 2.
  Proof.
    intros Hn (NA & NC & (r & (Hr & Er) & Bd)). destruct (listed_eq m f I Loose n Hn) as (l & Row & Ql & Ld & ND & Hl). unfold rim_edges. rewrite Ql.
    assert (Listed : forall i e, lists f i e -> ends_in (edge_at m e) n -> In e l).
    { intros i e L En. pose proof (st_listed m f I i e n L En) as X. rewrite Row in X. apply in_map_iff in X as (x & X & Hx). now injection X as <-. }
    assert (Hd : 2 <= length l). { destruct (le_lt_dec 2 (length l)) as [G|G]; [exact G|]. exfalso. apply NA. right. left. lia. }
    assert (Np : length l - 1 <= pairs m f n). { destruct (le_lt_dec (length l - 1) (pairs m f n)) as [G|G]; [exact G|]. exfalso. apply NC. right. right. left. split; [exists r; split; [split; assumption|exact Bd]|lia]. }
    assert (Most : forall j j', j < length l -> j' < length l -> paired m f n j = false -> paired m f n j' = false -> j = j').
    { intros j j' Hj Hj' P1 P2. destruct (Nat.eq_dec j j') as [|D]; [assumption|]. exfalso. unfold pairs in Np. rewrite <- Ld in Np.
      pose proof (two_missing (paired m f n) (seq 0 (length l)) j j' (seq_NoDup _ _) ltac:(apply in_seq; lia) ltac:(apply in_seq; lia) D P1 P2) as X. rewrite seq_length in X. lia. }
    destruct (rim_face f r Bd) as (i0 & L0 & U0). destruct (In_nth _ _ 0 (Listed i0 r L0 Er)) as (jr & Bj & Qr).
    destruct (Nat.eq_dec (length l) 2) as [D2|D3].
    - exfalso. destruct (other_edge m f I i0 n r L0 Er) as (y & Dy & Ly & Ey). apply NC. left. exists i0, r, y. split; [congruence|]. split; [exact L0|]. split; [exact Ly|]. split; [split; assumption|].
      destruct (Hl y (Listed i0 y Ly Ey)) as (By & _ & _). split; [split; assumption|]. split; [exact Bd|]. exists i0. intros j. split; [|intros ->; exact Ly]. intros Lj.
      destruct (other_edge m f I j n y Lj Ey) as (z & Dz & Lz & Ez). assert (z = r).
      { pose proof (Listed j z Lz Ez) as Iz. pose proof (Listed i0 y Ly Ey) as Iy. pose proof (Listed i0 r L0 Er) as Ir. destruct l as [|u [|v [|? ?]]]; try discriminate D2. cbn in Iz, Iy, Ir. intuition congruence. }
      subst z. now apply U0.
    - assert (D : 3 <= length l) by lia. assert (G : exists j0, j0 < length l /\ paired m f n j0 = false).
      { destruct (paired m f n jr) eqn:P1; [|exists jr; auto]. assert (Bp : pv l jr < length l) by (apply (pv_facts l D jr Bj)). destruct (paired m f n (pv l jr)) eqn:P2; [|exists (pv l jr); auto].
        exfalso. apply (not_rim n l Row (eq_sym Ld) ND Hl D jr Bj P1 P2). now rewrite Qr. }
      destruct G as (j0 & B0 & G0). exact (rim_two n l Row (eq_sym Ld) ND Hl Listed D Most j0 B0 G0).
  Qed.
End Two.

(** *** The room for new nodes *)
Lemma nodup_map_on {A B} (g : A -> B) l : NoDup l -> (forall x y, In x l -> In y l -> g x = g y -> x = y) -> NoDup (map g l).
Proof.
  induction 1 as [|x l Hx ND IH]; intros Inj; cbn; constructor.
  - intros H. apply in_map_iff in H as (y & Q & Hy). apply Hx. rewrite (Inj x y); [exact Hy|now left|now right|now symmetry].
  - apply IH. intros; apply Inj; cbn; auto.
Qed.
Lemma flat_in {A} (g : nat -> list A) k i x : In (i, x) (flat_map (fun i => map (pair i) (g i)) (seq 0 k)) <-> i < k /\ In x (g i).
Proof.
  rewrite in_flat_map. split.
  - intros (j & Hj & H). apply in_seq in Hj. apply in_map_iff in H as (y & Q & Hy). injection Q as <- <-. split; [lia|exact Hy].
  - intros (H1 & H2). exists i. split; [apply in_seq; lia|]. apply in_map_iff. eauto.
Qed.
Lemma flat_nodup {A} (g : nat -> list A) k : (forall i, i < k -> NoDup (g i)) -> NoDup (flat_map (fun i => map (pair i) (g i)) (seq 0 k)).
Proof.
  induction k as [|k IH]; intros H; [constructor|]. rewrite seq_S, flat_map_app. cbn [flat_map Nat.add]. rewrite app_nil_r. apply nodup_both.
  - apply IH. intros; apply H; lia.
  - apply nodup_map_on; [apply H; lia|]. intros; congruence.
  - intros (i, x) H1 H2. apply flat_in in H1 as (H1 & _). apply in_map_iff in H2 as (y & Q & _). injection Q as <- _. lia.
Qed.
Lemma flat_length {A B C} (g : C -> list A) (h : C -> list B) l : (forall x, In x l -> length (g x) = length (h x)) -> length (flat_map g l) = length (flat_map h l).
Proof. induction l as [|x l IH]; intros H; [reflexivity|]. cbn. rewrite !app_length, H by now left. f_equal. apply IH. intros; apply H; now right. Qed.
Lemma filter_le {A} (p : A -> bool) l : length (filter p l) <= length l.
Proof. pose proof (filter_both p l). lia. Qed.
Lemma thirds_nodup g l : (forall e, g e <= 1) -> NoDup l -> NoDup (flat_map (fun e => [3 * e + g e; 3 * e + 2]) l) /\ forall x, In x (flat_map (fun e => [3 * e + g e; 3 * e + 2]) l) -> exists e, In e l /\ (x = 3 * e + g e \/ x = 3 * e + 2).
Proof.
  intros G ND. assert (X : forall x, In x (flat_map (fun e => [3 * e + g e; 3 * e + 2]) l) -> exists e, In e l /\ (x = 3 * e + g e \/ x = 3 * e + 2)).
  { intros x H. apply in_flat_map in H as (e & He & [<-|[<-|[]]]); eauto. }
  split; [|exact X]. induction ND as [|e l He ND IH]; [constructor|].
  assert (X' : forall x, In x (flat_map (fun e => [3 * e + g e; 3 * e + 2]) l) -> exists e, In e l /\ (x = 3 * e + g e \/ x = 3 * e + 2)).
  { intros x H. apply in_flat_map in H as (e' & He' & [<-|[<-|[]]]); eauto. }
  specialize (IH X'). change (NoDup ([3 * e + g e; 3 * e + 2] ++ flat_map (fun e => [3 * e + g e; 3 * e + 2]) l)). apply nodup_both.
  - pose proof (G e). repeat constructor; cbn; intuition lia.
  - exact IH.
  - intros x H1 H2. apply X' in H2 as (e' & He' & H2). pose proof (G e). pose proof (G e'). assert (D : e <> e') by (intros ->; contradiction). cbn in H1. intuition lia.
Qed.

Section Room.
  Variable m : mesh.
  Variable f : faces.
  Variable masks : list mask.
  Hypothesis I : in_step m f.
  Hypothesis O : oriented f.
  Local Notation E := (length (m_edges m)).
  Local Notation F := (num_faces f).
  Definition sides_in_faces : list (nat * nat) := flat_map (fun i => map (pair i) (nth i (faces_edges f) [])) (seq 0 F).
  Definition its_dir (e : nat) : nat := match find (has_edge f e) (seq 0 F) with Some i => dir m f i e | None => 0 end.
  Lemma in_sides i e : In (i, e) sides_in_faces -> lists f i e.
  Proof.
    intros H. apply flat_in in H as (Hi & He). exists (nth i (faces_edges f) []). split; [|exact He]. apply nth_error_nth'. destruct (nth_in_or_default i (faces_edges f) []) as [Z|Z]; [|rewrite Z in He; easy].
    destruct (lt_dec i (length (faces_edges f))) as [G|G]; [exact G|]. rewrite nth_overflow in He by lia. easy.
  Qed.
  Theorem room : length (corners masks f) + length (sides masks m f) <= 3 * E.
  Proof.
    assert (L1 : length (corners masks f) <= length sides_in_faces).
    { unfold corners. eapply Nat.le_trans; [apply filter_le|]. unfold sides_in_faces. apply Nat.eq_le_incl, flat_length. intros i Hi. apply in_seq in Hi. rewrite !map_length.
      destruct (nth_error (faces_nodes f) i) as [ns|] eqn:Ns; [|apply nth_error_None in Ns; unfold num_faces in Hi; lia]. destruct (face_both m f I i ns Ns) as (es & Es). destruct (face_parts m f I i ns es Ns Es) as (_ & _ & L & _).
      now rewrite (nth_error_nth _ _ _ Ns), (nth_error_nth _ _ _ Es). }
    set (singles := filter (single f) (seq 0 E)).
    assert (L2 : length (sides masks m f) <= length (flat_map (fun e => [3 * e + (1 - its_dir e); 3 * e + 2]) singles)).
    { unfold sides. fold singles. eapply Nat.le_trans; [apply filter_le|]. clear. induction singles as [|e l IH]; [apply Nat.le_refl|]. cbn [flat_map]. rewrite !app_length. cbn [length]. unfold two_of at 1. destruct (edge_at m e) as ([?|] & [?|]); cbn [length]; lia. }
    set (X := map (fun c => 3 * snd c + dir m f (fst c) (snd c)) sides_in_faces).
    assert (LX : length X = length sides_in_faces) by apply map_length.
    assert (NX : NoDup X).
    { apply nodup_map_on.
      - apply flat_nodup. intros i Hi. destruct (nth_error (faces_edges f) i) as [es|] eqn:Es; [|rewrite (nth_overflow (faces_edges f)) by (now apply nth_error_None); constructor]. rewrite (nth_error_nth _ _ _ Es). exact (edges_nodup m f I i es Es).
      - intros (i, e) (j, e') H1 H2 Q. apply in_sides in H1, H2. cbn [fst snd] in Q. pose proof (dir_le m f i e). pose proof (dir_le m f j e'). assert (e = e') by lia. subst e'. f_equal. apply (dir_inj m f I O i j e H1 H2). lia. }
    destruct (thirds_nodup (fun e => 1 - its_dir e) singles) as (NY & HY); [intros; lia|apply NoDup_filter, seq_NoDup|].
    assert (NXY : NoDup (X ++ flat_map (fun e => [3 * e + (1 - its_dir e); 3 * e + 2]) singles)).
    { apply nodup_both; [exact NX|exact NY|]. intros x H1 H2. apply in_map_iff in H1 as ((i & e) & Q & H1). apply in_sides in H1. cbn [fst snd] in Q. apply HY in H2 as (e' & He' & H2). pose proof (dir_le m f i e) as D1.
      assert (D2 : its_dir e' <= 1) by (unfold its_dir; destruct (find _ _); [apply dir_le|lia]). assert (e = e') by lia. subst e'. apply filter_In in He' as (He & Se). apply in_seq in He. apply (single_ok m f I) in Se; [|lia].
      destruct Se as (i1 & Se). assert (its_dir e = dir m f i e).
      { unfold its_dir. destruct (find (has_edge f e) (seq 0 F)) as [j|] eqn:Fd.
        - apply find_some in Fd as (_ & Fd). apply has_edge_ok in Fd. apply Se in Fd, H1. congruence.
        - exfalso. apply find_none with (x := i) in Fd; [|apply in_seq; pose proof (lists_lt m f I i e H1); lia]. assert (has_edge f e i = true) by now apply has_edge_ok. congruence. }
      lia. }
    assert (Hlt : forall x, In x (X ++ flat_map (fun e => [3 * e + (1 - its_dir e); 3 * e + 2]) singles) -> In x (seq 0 (3 * E))).
    { intros x H. apply in_seq. apply in_app_or in H as [H|H].
      - apply in_map_iff in H as ((i & e) & <- & H). apply in_sides in H. pose proof (lists_lt m f I i e H). pose proof (dir_le m f i e). cbn [fst snd]. lia.
      - apply HY in H as (e & He & H). apply filter_In in He as (He & _). apply in_seq in He. lia. }
    pose proof (NoDup_incl_length NXY Hlt) as L. rewrite app_length, seq_length in L. lia.
  Qed.
End Room.

(** *** The nodes that are taken away *)
Section Whole.
  Variable order : list point -> list edge -> nat -> list (option nat) -> list (option nat).
  Hypothesis order_perm : forall nodes edges n row, Permutation row (order nodes edges n row).
  Variable clockwise : projection -> list point -> bool.
  Variable inside : point -> bool.
  Variable types : list Z.
  Variable m : mesh.
  Variable f : faces.
  Variable centres : list point.
  Notation tree_ok := (recC (restore_leaf order) (commit_leaf order) mesh_le).
  Notation list_ok := (recC_all (restore_leaf order) (commit_leaf order) mesh_le).
  Hypothesis I : in_step m f.
  Hypothesis O : oriented f.
  Hypothesis A : apart f.
  Hypothesis Loose : none_loose m f.
  Hypothesis Ht : length types = length (m_nodes m).
  Hypothesis Hcen : length centres = num_faces f.
  Hypothesis Planar : length (m_edges m) <= 3 * length (m_nodes m).
  Local Notation N := (length (m_nodes m)).
  Local Notation E := (length (m_edges m)).

  Section Taken.
    Variable masks masks1 : list mask.
    Variable P : list point.
    Variable new : list (nat * nat).
    Local Notation m1 := (grow m P new).
    Hypothesis Hm1 : consistent m1.
    Hypothesis Lk : N <= length masks1.
    Hypothesis Same : forall n, n < N -> nth n masks1 Unassigned = nth n masks Unassigned.
    Hypothesis Old : forall n, lt_mask (nth n masks Unassigned) Unassigned = false.
    Definition gone (k n : nat) : bool := (n <? k) && replaced masks n.
    Definition points_upto (k : nat) : list point := map (fun n => if gone k n then missing_point else old_point m n) (seq 0 N) ++ P.
    Definition taken (k : nat) (x : list (act mact) * mesh) : Prop :=
      consistent (snd x) /\ list_ok (fst x) m1 (snd x) /\ m_nodes (snd x) = points_upto k /\ length (m_edges (snd x)) = length (m_edges m1) /\ m_nodesEdges (snd x) = m_nodesEdges m1 /\
      forall e, edge_at (snd x) e = edge_at m1 e \/ edge_at (snd x) e = missing_edge /\ exists n, n < N /\ n < k /\ replaced masks n = true /\ ends_in (edge_at m1 e) n.
    Lemma points_length k : length (points_upto k) = N + length P.
    Proof. unfold points_upto. now rewrite app_length, map_length, seq_length. Qed.
    Lemma points_start : points_upto 0 = m_nodes m1.
    Proof.
      unfold points_upto. cbn [grow m_nodes]. f_equal. apply nth_ext with (d := missing_point) (d' := missing_point); rewrite map_length, seq_length; [reflexivity|]. intros n Hn.
      rewrite (nth_indep _ missing_point (if gone 0 0 then missing_point else old_point m 0)) by (now rewrite map_length, seq_length). rewrite (map_nth (fun n => if gone 0 n then missing_point else old_point m n)), seq_nth by exact Hn. reflexivity.
    Qed.
    Lemma points_next k : k < N -> points_upto (S k) = if replaced masks k then set_nth k missing_point (points_upto k) else points_upto k.
    Proof.
      intros Hk. assert (Get : forall j n, n < N -> nth_error (points_upto j) n = Some (if gone j n then missing_point else old_point m n)).
      { intros j n Hn. unfold points_upto. rewrite nth_error_app1 by (now rewrite map_length, seq_length). rewrite nth_error_map, (nth_error_nth' _ 0) by (now rewrite seq_length). now rewrite seq_nth. }
      assert (Tail : forall j n, N <= n -> nth_error (points_upto j) n = nth_error P (n - N)).
      { intros j n Hn. unfold points_upto. rewrite nth_error_app2; rewrite map_length, seq_length; [reflexivity|exact Hn]. }
      apply nth_error_ext. intros n. destruct (lt_dec n N) as [Hn|Hn].
      - rewrite Get by exact Hn. destruct (replaced masks k) eqn:R.
        + rewrite nth_error_set_nth, points_length. destruct (Nat.eqb_spec k n) as [<-|D].
          * rewrite (proj2 (Nat.ltb_lt k (N + length P))) by lia. unfold gone. rewrite R. rewrite (proj2 (Nat.ltb_lt k (S k))) by lia. reflexivity.
          * cbn [andb]. rewrite Get by exact Hn. unfold gone. destruct (Nat.ltb_spec n (S k)), (Nat.ltb_spec n k); try lia; reflexivity.
        + rewrite Get by exact Hn. unfold gone. destruct (Nat.eq_dec n k) as [->|D]; [rewrite R, !andb_false_r; reflexivity|]. destruct (Nat.ltb_spec n (S k)), (Nat.ltb_spec n k); try lia; reflexivity.
      - rewrite Tail by lia. destruct (replaced masks k); [|now rewrite Tail by lia]. rewrite nth_error_set_nth_neq by lia. now rewrite Tail by lia.
    Qed.
    Lemma remove_ok : exists acts m2, fold_out (remove_step order masks1) (seq 0 N) ([], m1) = Ok (acts, m2) /\ taken N (acts, m2).
    Proof.
      destruct (fold_range taken (remove_step order masks1) N ([], m1)) as ((acts & m2) & H & T); [| |eauto].
      - split; [exact Hm1|]. split; [constructor; apply mesh_le_refl|]. split; [symmetry; apply points_start|]. split; [reflexivity|]. split; [reflexivity|]. auto.
      - intros k (acts & m2) Hk (Hc & L & Hp & He & Hr & Hed). cbn [fst snd] in *. unfold remove_step. rewrite (nth_vget _ k Unassigned) by lia. cbn [bind]. rewrite Same by exact Hk.
        assert (R : lt_mask Unassigned (nth k masks Unassigned) && lt_mask (nth k masks Unassigned) Corner = replaced masks k) by (unfold replaced; specialize (Old k); destruct (nth k masks Unassigned); try reflexivity; discriminate Old).
        rewrite R. pose proof (points_next k Hk) as Pn. destruct (replaced masks k) eqn:Rk.
        + cbn [fst snd]. unfold add_action. assert (Bk : k < length (m_nodes m2)) by (rewrite Hp, points_length; lia). destruct (delete_node_ok order m2 k Hc Bk) as (a & m3 & -> & T & C3 & N3 & L3 & _ & _ & R3 & G3). cbn [bind].
          unfold compound_add. rewrite (recC_state _ _ _ _ _ _ T). cbn [bind]. eexists. split; [reflexivity|]. unfold taken. cbn [fst snd]. split; [exact C3|]. split; [eapply list_snoc; eauto|]. split; [now rewrite N3, Pn, Hp|]. split; [congruence|]. split; [congruence|].
          intros e. change (edge_at m3 e) with (ge m3 e). rewrite G3. destruct (existsb (eq_idx (Some e)) (row_of m2 k)) eqn:X.
          * right. split; [reflexivity|]. exists k. split; [exact Hk|]. split; [lia|]. split; [exact Rk|].
            assert (Hin : In (Some e) (row_of m k)).
            { apply existsb_exists in X as (o & Ho & Q). unfold row_of in Ho. rewrite Hr in Ho. fold (row_of (grow m P new) k) in Ho. rewrite (row_grow m f P I new k Hk) in Ho. destruct o as [x|]; [|discriminate]. cbn in Q. apply Nat.eqb_eq in Q. now subst x. }
            destruct (st_row m f I k Hk) as (_ & _ & Rw). destruct (Rw _ Hin) as (e' & o & Q & Be & J & _). injection Q as <-. rewrite (edge_grow m P new e Be). apply (joins_end _ _ _ J).
          * change (ge m2 e) with (edge_at m2 e). destruct (Hed e) as [Q|(Q & n & B1 & B2 & B3 & B4)]; [left; exact Q|]. right. split; [exact Q|]. exists n. repeat (split; [lia || assumption|]). assumption.
        + exists (acts, m2). split; [reflexivity|]. unfold taken. cbn [fst snd]. split; [exact Hc|]. split; [exact L|]. split; [now rewrite Hp, Pn|]. split; [exact He|]. split; [exact Hr|]. intros e.
          destruct (Hed e) as [Q|(Q & n & B1 & B2 & B3 & B4)]; [left; exact Q|]. right. split; [exact Q|]. exists n. repeat (split; [lia || assumption|]). assumption.
    Qed.
  End Taken.

  Definition final (masks : list mask) (m3 : mesh) : Prop :=
    m_edges m3 = map (fun e => if live (points_after masks m f centres) e then e else missing_edge) (edges_after masks m f) /\
    length (m_nodes m3) = length (points_after masks m f centres) /\
    forall n p, nth_error (points_after masks m f centres) n = Some p ->
      (connected (points_after masks m f centres) (edges_after masks m f) n -> nth_error (m_nodes m3) n = Some p) /\
      (~ connected (points_after masks m f centres) (edges_after masks m f) n -> nth_error (m_nodes m3) n = Some missing_point).

  Theorem casulli_ok : exists masks, node_mask inside types m f = Ok masks /\ (forall n, n < N -> mask_is inside types m f n (nth n masks Unassigned)) /\
    (exists a b masks1, grow_casulli order inside types centres f m = Ok ([a; b], grow m (new_points masks m f centres) (new_lines masks m f), masks1)) /\
    exists a m3 f3, casulli order clockwise inside types centres f m = Ok (a, m3, f3) /\ tree_ok a m m3 /\ in_step m3 f3 /\ administrated m3 /\ final masks m3.
  Proof.
    destruct (mask_ok inside types m f I Ht) as (masks & Em & Lm & Hm & Hr). exists masks. split; [exact Em|]. split; [exact Hm|].
    assert (Old : forall n, lt_mask (nth n masks Unassigned) Unassigned = false).
    { intros n. destruct (lt_dec n N) as [Hn|Hn]; [|rewrite Hr by lia; reflexivity]. specialize (Hm n Hn). destruct (nth n masks Unassigned); try reflexivity; destruct Hm. }
    pose proof (room m f masks I O) as Rm. assert (Room : N + length (corners masks f) + length (sides masks m f) <= length masks) by lia.
    destruct (new_nodes_ok order m f centres masks I O A Hcen Old Room) as (s & Es & Ms & Cs & Ls & Lk & Gk & Ts).
    assert (Two : forall n, n < N -> nth n masks Unassigned = Boundary -> length (rim_edges m f n) = 2) by (intros n Hn Q; apply (boundary_two inside types m f I A Loose Ht n Hn); rewrite <- Q; auto).
    assert (LP : length (new_points masks m f centres) = length (corners masks f) + length (sides masks m f)) by (unfold new_points; now rewrite app_length, !map_length).
    destruct (connect_new_ok order m f masks (g_masks s) (new_points masks m f centres) I O Loose LP ltac:(lia) Gk Two (g_mesh s) (Splitting (g_mesh s) [] [])) as (r & Er & Mr & Cr & Lr).
    { split; [exact Ms|]. split; [exact Cs|]. constructor. apply mesh_le_refl. }
    rewrite <- Ts in Er.
    assert (G : grow_casulli order inside types centres f m = Ok ([compound (g_acts s); compound (s_acts r)], s_mesh r, g_masks s)) by (unfold grow_casulli; rewrite Em; cbn [bind]; rewrite Es; cbn [bind]; rewrite Er; reflexivity).
    split; [rewrite <- Mr; eauto|]. unfold casulli. rewrite G. cbn [bind]. rewrite Mr in *.
    destruct (remove_ok masks (g_masks s) (new_points masks m f centres) (new_lines masks m f) Cr) as (acts & m2 & -> & C2 & L2 & N2 & E2 & _ & Ed2); [lia| |exact Old|].
    { intros n Hn. rewrite Gk. rewrite (proj2 (Nat.leb_gt N n) Hn), (proj2 (Nat.leb_gt (N + length (corners masks f)) n)) by lia. reflexivity. }
    cbn [bind fst snd] in *. destruct (administrate2d_undo_ok order order_perm clockwise m2 C2) as (m3 & f3 & more & -> & Ea & L3 & St & Ad). cbn [bind]. eexists _, m3, f3. split; [reflexivity|].
    split; [|split; [exact St|split; [exact Ad|]]].
    - constructor. cbn [app]. change ([compound (g_acts s); compound (s_acts r); compound (acts ++ more)]) with (([] ++ [compound (g_acts s)]) ++ [compound (s_acts r)] ++ [compound (acts ++ more)]).
      rewrite app_assoc. eapply list_snoc; [eapply list_snoc; [eapply list_snoc; [constructor; apply mesh_le_refl|]|]|].
      + constructor. exact Ls.
      + constructor. exact Lr.
      + constructor. eapply rec_all_app; [intros; eapply mesh_le_trans; eauto|exact L2|exact L3].
    - assert (Hp : m_nodes m2 = points_after masks m f centres).
      { rewrite N2. unfold points_upto, points_after. f_equal. apply map_ext_in. intros n Hn. apply in_seq in Hn. unfold gone. rewrite (proj2 (Nat.ltb_lt n N)) by lia. reflexivity. }
      assert (Dead : forall n e, n < N -> replaced masks n = true -> ends_in e n -> live (points_after masks m f centres) e = false).
      { intros n e Hn R En. assert (V : valid_at (points_after masks m f centres) n = false).
        { unfold valid_at, points_after. rewrite nth_error_app1 by (now rewrite map_length, seq_length). rewrite nth_error_map, (nth_error_nth' _ 0) by (now rewrite seq_length). rewrite seq_nth by exact Hn. cbn [option_map Nat.add]. rewrite R. reflexivity. }
        destruct e as ([x|] & [y|]); try reflexivity. cbn. destruct En as [Q|Q]; cbn in Q; injection Q as ->; rewrite V; [reflexivity|apply andb_false_r]. }
      assert (Eq1 : m_edges (grow m (new_points masks m f centres) (new_lines masks m f)) = edges_after masks m f) by reflexivity.
      set (after := points_after masks m f centres) in *. set (P := new_points masks m f centres) in *.
      assert (Each : forall e, e < length (edges_after masks m f) -> (nth e (m_edges m2) missing_edge = nth e (edges_after masks m f) missing_edge) \/
        nth e (m_edges m2) missing_edge = missing_edge /\ live after (nth e (edges_after masks m f) missing_edge) = false).
      { intros e He. destruct (Ed2 e) as [Q|(Q & n & B1 & _ & B3 & B4)]; [left; exact Q|right; split; [exact Q|]]. eapply Dead; [exact B1|exact B3|exact B4]. }
      assert (Edges : map (fun e => if live after e then e else missing_edge) (m_edges m2) = map (fun e => if live after e then e else missing_edge) (edges_after masks m f)).
      { apply nth_ext with (d := missing_edge) (d' := missing_edge); [rewrite !map_length; exact E2|]. intros e He. rewrite map_length in He. set (g := fun e => if live after e then e else missing_edge).
        change missing_edge with (g missing_edge) at 1 2. rewrite !map_nth. rewrite E2, Eq1 in He. destruct (Each e He) as [->|(-> & Dd)]; [reflexivity|]. unfold g. now rewrite Dd. }
      unfold administrate2d in Ea. apply bind_ok_inv in Ea as (m4 & Ha & Ea). apply bind_ok_inv in Ea as (f4 & _ & Ea). injection Ea as -> ->.
      destruct (administrate_result order order_perm m2 m3 (co_ends m2 C2) Ha) as (Nm & Edm & _).
      destruct (administrate_marks order order_perm m2 (co_ends m2 C2)) as (m5 & Ha' & _ & Ln & _ & _ & _ & Hn). rewrite Ha in Ha'. injection Ha' as <-.
      split; [rewrite Edm; unfold admin_edges; rewrite Hp; exact Edges|]. fold after. split; [rewrite Ln, Hp; reflexivity|]. intros n p Hnp. rewrite Hp in Hn. destruct (Hn n p Hnp) as (H1 & H2).
      assert (Cn : connected after (m_edges m2) n <-> connected after (edges_after masks m f) n).
      { unfold connected. split; intros (e & He & Lv & En).
        - apply In_nth with (d := missing_edge) in He as (j & Hj & Qj). rewrite E2, Eq1 in Hj. destruct (Each j Hj) as [Q|(Q & _)]; rewrite Qj in Q; [|rewrite Q in Lv; cbn in Lv; discriminate Lv]. exists e. split; [rewrite Q; now apply nth_In|auto].
        - apply In_nth with (d := missing_edge) in He as (j & Hj & Qj). destruct (Each j Hj) as [Q|(_ & Q)]; rewrite Qj in Q; [|congruence]. exists e. split; [rewrite <- Q; apply nth_In; rewrite E2, Eq1; exact Hj|auto]. }
      split; [intros X; apply H1, Cn, X|intros X; apply H2; intros Y; apply X, Cn, Y].
  Qed.
End Whole.

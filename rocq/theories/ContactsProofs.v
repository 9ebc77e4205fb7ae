(** Contacts: safety and meaning. *)
From Coq Require Import Permutation.
From Verif Require Import Base BaseLemmas FloatModel MeshModel MeshSpec MeshProofs MeshAdj MeshConstruct MeshUndo MeshEdits MeshFacts FaceModel FaceSpec FaceUseSpec FaceUse FaceMain FaceUseMain
  ContactsModel ContactsSpec.

(** The outcome is not undefined, an exception means [t], and a result satisfies [P]. *)
Definition safe {A} (t : Prop) (P : A -> Prop) (x : outcome A) : Prop := match x with Ok a => P a | Throw _ => t | UB => False end.
Lemma safe_bind {A B} (t : Prop) (P : A -> Prop) (Q : B -> Prop) x (f : A -> outcome B) : safe t P x -> (forall a, P a -> safe t Q (f a)) -> safe t Q (bind x f).
Proof. destruct x; cbn; auto. Qed.
Lemma safe_imp {A} t (P Q : A -> Prop) x : safe t P x -> (forall a, P a -> Q a) -> safe t Q x.
Proof. destruct x; cbn; auto. Qed.
Lemma safe_fold {A} t (P : nat -> A -> Prop) (f : A -> nat -> outcome A) n : (forall k a, k < n -> P k a -> safe t (P (S k)) (f a k)) ->
  forall a, P 0 a -> safe t (P n) (fold_out f (seq 0 n) a).
Proof.
  assert (G : forall k s a, (forall j a, s <= j < s + k -> P j a -> safe t (P (S j)) (f a j)) -> P s a -> safe t (P (s + k)) (fold_out f (seq s k) a)).
  { induction k as [|k IH]; intros s a H Ha; cbn [seq fold_out]; [rewrite Nat.add_0_r; exact Ha|].
    apply (safe_bind t (P (S s))); [apply H; auto; lia|]. intros a' Ha'. replace (s + S k) with (S s + k) by lia. apply IH; auto. intros j x Hj. apply H. lia. }
  intros H a Ha. apply (G n 0); auto. intros j x Hj. apply H. lia.
Qed.
Lemma safe_fold_list {A B} w (P : list B -> A -> Prop) (f : A -> B -> outcome A) l : (forall d b t a, l = d ++ b :: t -> P d a -> safe w (P (d ++ [b])) (f a b)) ->
  forall a, P [] a -> safe w (P l) (fold_out f l a).
Proof.
  assert (G : forall t d a, l = d ++ t -> (forall d b t a, l = d ++ b :: t -> P d a -> safe w (P (d ++ [b])) (f a b)) -> P d a -> safe w (P l) (fold_out f t a)).
  { induction t as [|b t IH]; intros d a El H Ha; cbn [fold_out]; [rewrite app_nil_r in El; subst d; exact Ha|].
    apply (safe_bind w (P (d ++ [b]))); [eapply H; eauto|]. intros a' Ha'. apply (IH (d ++ [b])); auto. rewrite <- app_assoc. exact El. }
  intros H a Ha. apply (G l []); auto.
Qed.
Lemma safe_get {A} t (l : list A) i : i < length l -> safe t (fun a => nth_error l i = Some a) (vget l i).
Proof. intros H. unfold vget. destruct (nth_error l i) eqn:E; [reflexivity|]. apply nth_error_None in E. lia. Qed.
Lemma safe_set {A} t (l : list A) i a : i < length l -> safe t (fun r => r = set_nth i a l) (vset i a l).
Proof. intros H. rewrite vset_lt by auto. reflexivity. Qed.
Lemma safe_ok {A} t (P : A -> Prop) x : safe t P x <-> x <> UB /\ (forall e, x = Throw e -> t) /\ forall a, x = Ok a -> P a.
Proof.
  destruct x as [a|e|]; cbn; split; try easy; intros H.
  - split; [easy|]. split; [easy|]. intros ? [= <-]. exact H.
  - destruct H as (_ & _ & H). now apply H.
  - destruct H as (_ & H & _). now apply (H e).
Qed.

Lemma append_nil c : append c [] = c.
Proof. unfold append. cbn. rewrite !app_nil_r. now destruct c. Qed.
Lemma append_app c l r : append (append c l) r = append c (l ++ r).
Proof. unfold append. cbn. now rewrite !map_app, !app_assoc. Qed.
Lemma append_one c l n i : add_contact (append c l) (Some n) (Some i) = append c (l ++ [(n, i)]).
Proof. now rewrite <- append_app. Qed.
Lemma faces_of_app n l r : faces_of n (l ++ r) = faces_of n l ++ faces_of n r.
Proof. unfold faces_of. now rewrite filter_app, map_app. Qed.
Lemma faces_of_none n l : (forall x, In x l -> fst x <> n) -> faces_of n l = [].
Proof.
  intros H. unfold faces_of. induction l as [|x t IH]; cbn; auto. destruct (Nat.eqb_spec (fst x) n); [exfalso; apply (H x); cbn; auto|].
  apply IH. intros; apply H; cbn; auto.
Qed.
Lemma faces_of_same n new : faces_of n (map (fun i => (n, i)) new) = new.
Proof. unfold faces_of. induction new as [|i t IH]; cbn; auto. rewrite Nat.eqb_refl. cbn. now rewrite IH. Qed.

(** Comparison of doubles is transitive. *)
Lemma SFltb_trans x y z : SFltb x y = true -> SFltb y z = true -> SFltb x z = true.
Proof.
  unfold SFltb, SFcompare. destruct x as [[]|[]| |[] m1 e1], y as [[]|[]| |[] m2 e2], z as [[]|[]| |[] m3 e3]; try easy;
    destruct (Z.compare_spec e1 e2), (Z.compare_spec e2 e3); try easy; intros H1 H2; subst;
    rewrite ?Z.compare_refl in *; try (rewrite (proj2 (Z.compare_lt_iff _ _)) by lia; reflexivity); try (rewrite (proj2 (Z.compare_gt_iff _ _)) by lia; reflexivity).
  - destruct (Pos.compare_cont Eq m1 m2) eqn:C1; try easy. destruct (Pos.compare_cont Eq m2 m3) eqn:C2; try easy.
    fold (Pos.compare m1 m2) in C1. fold (Pos.compare m2 m3) in C2. fold (Pos.compare m1 m3).
    apply Pos.compare_gt_iff in C1, C2. rewrite (proj2 (Pos.compare_gt_iff _ _)) by lia. reflexivity.
  - destruct (Pos.compare_cont Eq m1 m2) eqn:C1; try easy. destruct (Pos.compare_cont Eq m2 m3) eqn:C2; try easy.
    fold (Pos.compare m1 m2) in C1. fold (Pos.compare m2 m3) in C2. fold (Pos.compare m1 m3).
    apply Pos.compare_lt_iff in C1, C2. rewrite (proj2 (Pos.compare_lt_iff m1 m3)) by (eapply Pos.lt_trans; eauto). reflexivity.
Qed.
Lemma SFltb_irrefl x : SFltb x x = false.
Proof. unfold SFltb, SFcompare. destruct x as [[]|[]| |[] m e]; auto; rewrite Z.compare_refl; change (Pos.compare_cont Eq m m) with (Pos.compare m m); now rewrite Pos.compare_refl. Qed.

Section Contacts.
  Variable order : list point -> list edge -> nat -> list (option nat) -> list (option nat).
  Hypothesis order_perm : forall nodes edges n row, Permutation row (order nodes edges n row).
  Variable clockwise : projection -> list point -> bool.
  Variable circum_of mass_of : mesh -> faces -> list point.
  Variable cross : point -> point -> point -> point -> bool * double * double.
  Variable dist2 : point -> point -> double.
  Variable project : point -> point -> point -> double -> point.
  Variable in_polygon : point -> list point -> bool.
  Variable nearest_edge nearest_node : mesh -> point -> option nat.
  Variable near_faces : list point -> point -> nat -> option (list nat).

  (** What the search trees find exists. *)
  Hypothesis nearest_edge_in : forall m p e, nearest_edge m p = Some e -> e < length (m_edges m).
  Hypothesis nearest_node_in : forall m p n, nearest_node m p = Some n -> n < length (m_nodes m).
  Hypothesis near_faces_in : forall l p n r i, near_faces l p n = Some r -> In i r -> i < length l.

  Lemma node_of_nth m n p : nth_error (m_nodes m) n = Some p -> node_of m n = p.
  Proof. intros H. unfold node_of. now apply nth_error_nth. Qed.
  (** *** The tables of an up-to-date mesh *)
  Lemma with_in f e i : In i (faces_with f e) <-> i < num_faces f /\ In e (nth i (faces_edges f) []).
  Proof.
    unfold faces_with. rewrite filter_In, in_seq, existsb_exists. split.
    - intros ((_ & H) & x & Hx & E). apply Nat.eqb_eq in E. subst x. split; [lia|auto].
    - intros (H & Hx). split; [lia|]. exists e. split; auto. apply Nat.eqb_refl.
  Qed.
  Lemma with_face m f e i : tables_agree m f -> In i (faces_with f e) -> exists es, nth_error (faces_edges f) i = Some es /\ In e es.
  Proof.
    intros T H. apply with_in in H as (H1 & H2). exists (nth i (faces_edges f) []). split; auto. apply nth_error_nth'. destruct T as (-> & _). auto.
  Qed.

  (** *** The one-dimensional mesh *)
  Definition administrated1 (m1 m1' : mesh) : Prop :=
    administrate order m1 = Ok m1' /\ consistent m1' /\ length (m_nodes m1') = length (m_nodes m1) /\ length (m_edges m1') = length (m_edges m1) /\
    (forall e, In e (m_edges m1') -> e = missing_edge \/ live (m_nodes m1') e = true) /\
    forall n oe, n < length (m_nodes m1') -> In oe (row_of m1' n) -> exists e o, oe = Some e /\ e < length (m_edges m1') /\ joins (edge_at m1' e) n o.
  Lemma administrate1 m1 : consistent m1 -> exists m1', administrated1 m1 m1'.
  Proof.
    intros C. destruct (administrate_undo_ok order order_perm m1 C) as (m1' & new & E & _ & C'). exists m1'.
    assert (E' : administrate order m1 = Ok m1') by (unfold administrate; rewrite E; reflexivity). split; [exact E'|]. split; [exact C'|].
    destruct (administrate_marks order order_perm m1 (co_ends _ C)) as (m2 & E2 & _ & L1 & L2 & _). rewrite E' in E2. injection E2 as <-.
    destruct (administrate_live order order_perm m1 m1' (co_ends _ C) E') as (_ & L & A & Z). repeat (split; [assumption|]).
    intros n oe Hn Hoe. destruct (m_edges m1) as [|e0 t] eqn:Ee.
    - destruct (co_listed _ C' n oe Hoe) as (e & _ & He). rewrite L2 in He. cbn in He. lia.
    - assert (X : adjacency_exact m1') by (apply A; [intros X; rewrite X in L1; cbn in L1; lia|discriminate]). now apply (adj_sound _ X).
  Qed.
  Lemma prepare_safe (t : Prop) mask m1 g : (unprepared mask m1 g -> t) -> consistent m1 ->
    safe t (fun m1' => administrated1 m1 m1' /\ length mask = length (m_nodes m1') /\ mask <> []) (prepare order mask m1 g).
  Proof.
    intros T C. unfold prepare. destruct (Nat.eqb_spec (length mask) (length (m_nodes m1))) as [E|E]; cbn [negb]; [|apply T; left; auto].
    destruct (administrate1 m1 C) as (m1' & A). pose proof A as (A1 & _ & A3 & _). rewrite A1. cbn [bind]. unfold validate.
    destruct (Nat.eqb_spec (length (m_nodes m1')) 0) as [Z|Z]; [apply T; right; left; apply length_zero_iff_nil; lia|].
    destruct (Nat.eqb_spec (length (m_nodes (g_mesh g))) 0) as [Z2|Z2]; [apply T; right; right; now apply length_zero_iff_nil|]. cbn. split; auto. split; [lia|].
    intros ->. cbn in E. lia.
  Qed.
  Lemma administrated_edges m1 m1' : consistent m1 -> administrated1 m1 m1' ->
    (forall e, In e (m_edges m1') -> exists a b, e = (Some a, Some b) /\ a < length (m_nodes m1') /\ b < length (m_nodes m1')) \/
    (exists e, In e (m_edges m1) /\ live (m_nodes m1) e = false).
  Proof.
    intros C A. destruct (forallb (live (m_nodes m1)) (m_edges m1)) eqn:Lv.
    - left. assert (Lv' : forall e, In e (m_edges m1) -> live (m_nodes m1) e = true) by now apply forallb_forall.
      intros e He. destruct A as (A1 & A2 & _ & A4 & A5 & _). destruct (administrate_marks order order_perm m1 (co_ends _ C)) as (m2 & E2 & _ & _ & L2 & _ & Me & _).
      rewrite A1 in E2. injection E2 as <-. pose proof He as He'. apply In_nth_error in He as (k & Hk). assert (Lk : k < length (m_edges m1')) by (apply nth_error_Some; congruence).
      destruct (nth_error (m_edges m1) k) as [ed|] eqn:Ed; [|apply nth_error_None in Ed; lia]. destruct (Me k ed Ed) as (Me1 & _). specialize (Me1 (Lv' ed (nth_error_In _ _ Ed))).
      rewrite Hk in Me1. injection Me1 as ->. pose proof (Lv' ed (nth_error_In _ _ Ed)) as L. destruct ed as [[a|] [b|]]; try discriminate L. exists a, b. split; auto.
      split; apply (co_ends _ A2 _ _ He'); [left|right]; reflexivity.
    - right. destruct (existsb (fun e => negb (live (m_nodes m1) e)) (m_edges m1)) eqn:X.
      + apply existsb_exists in X as (e & He & H). exists e. split; auto. now destruct (live _ e).
      + exfalso. rewrite <- Bool.not_true_iff_false in Lv. apply Lv, forallb_forall. intros e He. destruct (live (m_nodes m1) e) eqn:L; auto.
        rewrite <- Bool.not_true_iff_false in X. exfalso. apply X, existsb_exists. exists e. now rewrite L.
  Qed.

  Lemma joins_other ed n o : joins ed n o -> other_node ed n = Some o.
  Proof.
    unfold other_node. intros [-> | ->]; cbn; [now rewrite Nat.eqb_refl|]. destruct (Nat.eqb_spec o n) as [->|]; auto.
  Qed.
  Lemma row_entry m1 m1' n j : administrated1 m1 m1' -> n < length (m_nodes m1') -> j < degree_of m1' n ->
    exists e ed o q, nth_error (row_of m1' n) j = Some (Some e) /\ nth_error (m_edges m1') e = Some ed /\ other_node ed n = Some o /\ nth_error (m_nodes m1') o = Some q.
  Proof.
    intros (_ & C & _ & _ & _ & R) Hn Hj. pose proof (co_fill _ C n Hn) as F. destruct (nth_error (row_of m1' n) j) as [oe|] eqn:E; [|apply nth_error_None in E; lia].
    destruct (R n oe Hn (nth_error_In _ _ E)) as (e & o & -> & He & J). destruct (nth_error (m_edges m1') e) as [ed|] eqn:Ed; [|apply nth_error_None in Ed; lia].
    unfold edge_at in J. rewrite (nth_error_nth _ _ _ Ed) in J. exists e, ed, o.
    assert (Ho : o < length (m_nodes m1')) by (apply (co_ends _ C ed); [eapply nth_error_In; eauto|]; destruct J as [-> | ->]; [right|left]; reflexivity).
    destruct (nth_error (m_nodes m1') o) as [q|] eqn:Eq; [|apply nth_error_None in Eq; lia]. exists q. repeat split; auto. now apply joins_other.
  Qed.
  (** *** Crossed boundary edges *)
  Lemma boundary_face_of g e : ready g -> e < length (m_edges (g_mesh g)) -> nth_error (edges_num_faces (g_faces g)) e = Some 1 ->
    exists i a b, faces_with (g_faces g) e = [i] /\ i < num_faces (g_faces g) /\ on_boundary (g_faces g) i /\ nth_error (edges_faces (g_faces g)) e = Some (Some i, None) /\
      nth_error (m_edges (g_mesh g)) e = Some (Some a, Some b) /\ a < length (m_nodes (g_mesh g)) /\ b < length (m_nodes (g_mesh g)).
  Proof.
    intros R He H1. pose proof (proj1 (proj1 R)) as T. destruct T as (T1 & T2 & T3 & T4 & T). destruct (T e He) as (_ & T5 & T6). rewrite H1 in T5. injection T5 as T5.
    destruct (faces_with (g_faces g) e) as [|i [|]] eqn:Ew; try discriminate. exists i.
    assert (Hi : In i (faces_with (g_faces g) e)) by (rewrite Ew; cbn; auto). destruct (with_face _ _ _ _ (proj1 (proj1 R)) Hi) as (es & Hes & Hin).
    destruct (proj2 (proj2 (proj2 R)) es e (nth_error_In _ _ Hes) Hin) as (a & b & Hab). exists a, b. split; auto. apply with_in in Hi as (Hi & _). split; auto. split; [exists e, es; auto|]. split; auto.
  Qed.
  (** Stale tables: more edges than the face tables know. *)
  Lemma crossed_stale g p q : length (edges_num_faces (g_faces g)) < length (m_edges (g_mesh g)) -> crossed_boundary cross g p q = UB.
  Proof.
    intros H. unfold crossed_boundary.
    assert (G : forall st, fold_out (boundary_step cross g p q) (seq 0 (length (m_edges (g_mesh g)))) st = UB); [|rewrite G; reflexivity].
    assert (N : forall l st, exists r, fold_out (boundary_step cross g p q) l st = r /\ forall x, r <> Throw x).
    { induction l as [|e t IH]; intros st; cbn [fold_out]; [eexists; split; [reflexivity|easy]|].
      assert (X : forall x, boundary_step cross g p q st e <> Throw x).
      { intros x. destruct st as [[best face] found]. unfold boundary_step, vget, vget_idx. destruct (nth_error (edges_num_faces (g_faces g)) e); [|easy]. cbn [bind].
        destruct (negb _); [easy|]. destruct (nth_error (m_edges (g_mesh g)) e) as [[[a|] [b|]]|]; cbn; try easy; unfold vget;
        destruct (nth_error (m_nodes (g_mesh g)) a); cbn; try easy. destruct (nth_error (m_nodes (g_mesh g)) b); cbn; try easy.
        destruct (cross p q p0 p1) as [[c r] r2]. destruct (c && SFltb r best); [|easy]. unfold vget. now destruct (nth_error (edges_faces (g_faces g)) e). }
      destruct (boundary_step cross g p q st e) as [st'|x|]; cbn [bind]; [apply IH|exfalso; now apply (X x)|eexists; split; [reflexivity|easy]]. }
    intros st. set (k := length (edges_num_faces (g_faces g))) in *. replace (length (m_edges (g_mesh g))) with (k + S (length (m_edges (g_mesh g)) - S k)) by lia.
    rewrite seq_app, fold_out_app. destruct (N (seq 0 k) st) as (r & E & Hr). rewrite E. destruct r as [st'|x|]; cbn [bind]; [|exfalso; now apply (Hr x)|reflexivity].
    cbn [seq fold_out]. destruct st' as [[best face] found]. unfold boundary_step at 1. rewrite (proj2 (vget_ub _ _)) by (unfold k; cbn; lia). reflexivity.
  Qed.
End Contacts.

(** Flipping of edges: quality, passes, the whole algorithm. *)
From Coq Require Import Permutation.
From Verif Require Import Base BaseLemmas FloatModel UndoModel UndoSpec UndoProofs ActionModel ActionSpec ActionProofs
  MeshModel MeshSpec MeshProofs MeshAdj MeshUndo MeshEdits MeshEdits2 FaceModel FaceSpec FaceProofs FaceSearch FaceMain FaceUseModel FaceUseSpec FaceUse FlipModel FlipSpec FlipProofs FlipStep.

(** *** Quality *)
Lemma sum_app l1 l2 : sum_of (l1 ++ l2) = (sum_of l1 + sum_of l2)%Z.
Proof. unfold sum_of. induction l1 as [|x l1 IH]; cbn [app fold_right]; [reflexivity|]. rewrite IH. lia. Qed.
Lemma sum_map_minus {A} (g h : A -> Z) l : (sum_of (map g l) - sum_of (map h l) = sum_of (map (fun x => g x - h x) l))%Z.
Proof. unfold sum_of. induction l as [|x l IH]; cbn [map fold_right]; [reflexivity|]. lia. Qed.
Lemma sum_support (h : nat -> Z) P : forall L, NoDup L -> NoDup P -> incl P L -> (forall x, In x L -> ~ In x P -> h x = 0%Z) -> sum_of (map h L) = sum_of (map h P).
Proof.
  induction P as [|p P IH]; intros L HL HP Hi Hz.
  - clear HL Hi. unfold sum_of in *. induction L as [|x L IHL]; [reflexivity|]. cbn [map fold_right] in *. rewrite Hz by (cbn; auto). rewrite IHL; [reflexivity|]. intros y Hy. apply Hz. right. exact Hy.
  - destruct (in_split p L (Hi p (or_introl eq_refl))) as (L1 & L2 & ->). inversion_clear HP as [|? ? Hp HP'].
    assert (HL' := NoDup_remove _ _ _ HL). destruct HL' as [HL1 HL2].
    rewrite map_app, sum_app. cbn [map sum_of fold_right]. fold (sum_of (map h L2)). fold (sum_of (map h P)).
    rewrite <- (IH (L1 ++ L2)); auto.
    + rewrite map_app, sum_app. lia.
    + intros x Hx. assert (H := Hi x (or_intror Hx)). apply in_app_or in H as [H|[<-|H]]; [apply in_or_app; auto|contradiction|apply in_or_app; auto].
    + intros x Hx Hn. apply Hz; [apply in_app_or in Hx as [H|H]; apply in_or_app; cbn; auto|]. intros [<-|H]; contradiction.
Qed.

Lemma quality_turned types m f e a b l r lf rf m' f' : in_step m f -> between m f e a b l r lf rf -> l <> r -> turned m f e a b l r lf rf m' f' ->
  (quality types m' - quality types m =
   away types m a (-1) + away types m b (-1) + away types m l 1 + away types m r 1 - (away types m a 0 + away types m b 0 + away types m l 0 + away types m r 0))%Z.
Proof.
  intros Hs Hb Hlr Ht. destruct (quad_between m f e a b l r lf rf Hs Hb) as (al & bl & ar & br & Q).
  destruct (q_nl _ _ _ _ _ _ _ _ _ _ _ _ _ Q) as (n0 & n1 & n2 & Hnl & Pl). destruct (q_nr _ _ _ _ _ _ _ _ _ _ _ _ _ Q) as (n0' & n1' & n2' & Hnr & Pr).
  destruct (q_el _ _ _ _ _ _ _ _ _ _ _ _ _ Q) as (e0 & e1 & e2 & Hel & _). destruct (q_er _ _ _ _ _ _ _ _ _ _ _ _ _ Q) as (e0' & e1' & e2' & Her & _).
  destruct (st_face m f Hs lf _ _ Hnl Hel) as (_ & _ & _ & V1). destruct (st_face m f Hs rf _ _ Hnr Her) as (_ & _ & _ & V2).
  assert (Va : a < length (m_nodes m)) by (apply valid_lt, V1; rewrite Pl; cbn; auto). assert (Vb : b < length (m_nodes m)) by (apply valid_lt, V1; rewrite Pl; cbn; auto).
  assert (Vl : l < length (m_nodes m)) by (apply valid_lt, V1; rewrite Pl; cbn; auto). assert (Vr : r < length (m_nodes m)) by (apply valid_lt, V2; rewrite Pr; cbn; auto).
  pose proof (q_ab _ _ _ _ _ _ _ _ _ _ _ _ _ Q) as Nab. pose proof (q_al' _ _ _ _ _ _ _ _ _ _ _ _ _ Q) as Nal. pose proof (q_bl' _ _ _ _ _ _ _ _ _ _ _ _ _ Q) as Nbl.
  pose proof (q_ar' _ _ _ _ _ _ _ _ _ _ _ _ _ Q) as Nar. pose proof (q_br' _ _ _ _ _ _ _ _ _ _ _ _ _ Q) as Nbr.
  destruct Ht as ((T1 & _ & _) & _ & _ & _ & _ & _ & _ & _ & _ & D). unfold quality. rewrite T1, sum_map_minus.
  rewrite (sum_support _ [a; b; l; r]).
  - cbn [map sum_of fold_right]. pose proof (D a) as Da. pose proof (D b) as Db. pose proof (D l) as Dl. pose proof (D r) as Dr.
    assert (B : forall x y, x <> y -> (x =? y) = false) by (intros; now apply Nat.eqb_neq).
    rewrite Nat.eqb_refl, (B a l), (B a r) in Da by assumption. rewrite Nat.eqb_refl, (B b a), (B b l), (B b r) in Db by congruence.
    rewrite Nat.eqb_refl, (B l a), (B l b) in Dl by congruence. rewrite Nat.eqb_refl, (B r a), (B r b), (B r l) in Dr by congruence. cbn [orb] in Da, Db, Dl, Dr.
    assert (Ea : away types m' a 0 = away types m a (-1)) by (unfold away; replace (Z.of_nat (degree_of m' a)) with (Z.of_nat (degree_of m a) - 1)%Z by (clear - Da; lia); cbn zeta; f_equal; clear; lia).
    assert (Eb : away types m' b 0 = away types m b (-1)) by (unfold away; replace (Z.of_nat (degree_of m' b)) with (Z.of_nat (degree_of m b) - 1)%Z by (clear - Db; lia); cbn zeta; f_equal; clear; lia).
    assert (El : away types m' l 0 = away types m l 1) by (unfold away; replace (Z.of_nat (degree_of m' l)) with (Z.of_nat (degree_of m l) + 1)%Z by (clear - Dl; lia); cbn zeta; f_equal; clear; lia).
    assert (Er : away types m' r 0 = away types m r 1) by (unfold away; replace (Z.of_nat (degree_of m' r)) with (Z.of_nat (degree_of m r) + 1)%Z by (clear - Dr; lia); cbn zeta; f_equal; clear; lia).
    rewrite Ea, Eb, El, Er. clear. lia.
  - apply seq_NoDup.
  - constructor; [cbn; intuition congruence|]. constructor; [cbn; intuition congruence|]. constructor; [cbn; intuition congruence|]. constructor; [intros []|constructor].
  - intros x Hx. apply in_seq. cbn in Hx. split; [apply Nat.le_0_l|]. destruct Hx as [<-|[<-|[<-|[<-|[]]]]]; assumption.
  - intros x _ Hx. specialize (D x). assert (B : forall y, In y [a; b; l; r] -> (x =? y) = false) by (intros y Hy; apply Nat.eqb_neq; intros ->; contradiction).
    rewrite (B a), (B b), (B l), (B r) in D by (cbn; auto). cbn [orb] in D. rewrite !Nat.add_0_r in D. unfold away. rewrite D. apply Z.sub_diag.
Qed.

Lemma away_nonneg types m n s : (0 <= away types m n s)%Z.
Proof. unfold away. apply Z.square_nonneg. Qed.
Lemma sum_nonneg {A} (g : A -> Z) l : (forall x, 0 <= g x)%Z -> (0 <= sum_of (map g l))%Z.
Proof. intros H. unfold sum_of. induction l as [|x l IH]; cbn [map fold_right]; [lia|]. specialize (H x). lia. Qed.
Lemma sum_member {A} (g : A -> Z) l x : (forall x, 0 <= g x)%Z -> In x l -> (g x <= sum_of (map g l))%Z.
Proof.
  intros H. induction l as [|y l IH]; intros Hin; [destruct Hin|]. pose proof (sum_nonneg g l H). unfold sum_of in *. cbn [map fold_right]. destruct Hin as [->|Hin]; [lia|]. specialize (IH Hin). specialize (H y). lia.
Qed.
Lemma quality_nonneg types m : (0 <= quality types m)%Z.
Proof. apply sum_nonneg. intros n. apply away_nonneg. Qed.
(** A node with sixteen edges shows in the quality. *)
Lemma quality_full types m n : n < length (m_nodes m) -> max_edges_per_node <= degree_of m n -> (100 <= quality types m)%Z.
Proof.
  intros Hn Hd. apply Z.le_trans with (away types m n 0).
  - unfold away. assert (I : (ideal (nth n types 0%nat) <= 6)%Z) by (destruct (nth n types 0) as [|[|[|[|k]]]]; cbn; lia). change max_edges_per_node with 16 in Hd. cbn zeta. nia.
  - unfold quality. apply (sum_member (fun n => away types m n 0)); [intros; apply away_nonneg|]. apply in_seq. lia.
Qed.

Section Flipping.
  Variable order : list point -> list edge -> nat -> list (option nat) -> list (option nat).
  Hypothesis order_perm : forall nodes edges n row, Permutation row (order nodes edges n row).
  Variable clockwise : projection -> list point -> bool.
  Variable types_of : mesh -> faces -> list nat.
  Variable cross : point -> point -> point -> point -> bool.
  Hypothesis cross_point : forall p q r, cross p q r r = false.
  Variable land : mesh -> nat -> nat -> nat -> option Z.
  Notation tree_ok := (recC (restore_leaf order) (commit_leaf order) mesh_le).
  Notation list_ok := (recC_all (restore_leaf order) (commit_leaf order) mesh_le).
  Notation reversible_tree := (reversible (restore_act (restore_leaf order)) (commit_act (commit_leaf order)) mesh_le).
  Notation flips types := (flips types cross land).
  Notation improvable types := (improvable types cross land).
  Notation wanted types := (wanted types cross land).

  (** *** One edge *)
  Lemma optimal_ideal t : optimal t = ideal t.
  Proof. unfold optimal. destruct t as [|[|[|[|t]]]]; reflexivity. Qed.
  Lemma excess_ok types m n : consistent m -> length types = length (m_nodes m) -> n < length (m_nodes m) ->
    excess types m n = Ok (Z.of_nat (degree_of m n) - ideal (nth n types 0%nat))%Z.
  Proof.
    intros Hc Lt Hn. unfold excess. rewrite (proj2 (vget_ok (m_nodesNumEdges m) n (degree_of m n))) by (apply nth_error_nth'; rewrite (co_counts m Hc); exact Hn). cbn [bind].
    rewrite (proj2 (vget_ok types n (nth n types 0))) by (apply nth_error_nth'; rewrite Lt; exact Hn). cbn [bind]. now rewrite optimal_ideal.
  Qed.
  Lemma point_get (m : mesh) n : n < length (m_nodes m) -> vget (m_nodes m) n = Ok (nth n (m_nodes m) missing_point).
  Proof. intros H. apply vget_ok, nth_error_nth'. exact H. Qed.

  Lemma functional_ok types m f e a b l r lf rf al bl ar br : in_step m f -> quad m f e a b l r lf rf al bl ar br -> length types = length (m_nodes m) ->
    exists v, functional land types m f e a b lf rf = Ok (Some (l, r, v)) /\ ((v < 0)%Z <-> match land m e l r with Some v => (v < 0)%Z | None => better types m a b l r end) /\
      a < length (m_nodes m) /\ b < length (m_nodes m) /\ l < length (m_nodes m) /\ r < length (m_nodes m).
  Proof.
    intros Hs Q Lt. pose proof (st_mesh m f Hs) as Hc.
    destruct (q_nl _ _ _ _ _ _ _ _ _ _ _ _ _ Q) as (n0 & n1 & n2 & Hnl & Pl). destruct (q_nr _ _ _ _ _ _ _ _ _ _ _ _ _ Q) as (n0' & n1' & n2' & Hnr & Pr).
    destruct (q_el _ _ _ _ _ _ _ _ _ _ _ _ _ Q) as (e0 & e1 & e2 & Hel & _). destruct (q_er _ _ _ _ _ _ _ _ _ _ _ _ _ Q) as (e0' & e1' & e2' & Her & _).
    destruct (st_face m f Hs lf _ _ Hnl Hel) as (_ & _ & _ & V1). destruct (st_face m f Hs rf _ _ Hnr Her) as (_ & _ & _ & V2).
    assert (Va : a < length (m_nodes m)) by (apply valid_lt, V1; rewrite Pl; cbn; auto). assert (Vb : b < length (m_nodes m)) by (apply valid_lt, V1; rewrite Pl; cbn; auto).
    assert (Vl : l < length (m_nodes m)) by (apply valid_lt, V1; rewrite Pl; cbn; auto). assert (Vr : r < length (m_nodes m)) by (apply valid_lt, V2; rewrite Pr; cbn; auto).
    destruct (q_thirds _ _ _ _ _ _ _ _ _ _ _ _ _ Q) as [T1 T2]. rewrite (nth_error_nth _ _ _ Hnl) in T1. rewrite (nth_error_nth _ _ _ Hnr) in T2.
    unfold functional. rewrite (proj2 (vget_ok _ _ _) Hnl), (proj2 (vget_ok _ _ _) Hnr). cbn [bind]. rewrite T1, T2. cbn [bind].
    rewrite !excess_ok by assumption. cbn [bind]. eexists. split; [reflexivity|]. split; [|auto].
    destruct (land m e l r); [reflexivity|]. unfold better, away. cbn zeta. clear. generalize (ideal (nth a types 0)), (ideal (nth b types 0)), (ideal (nth l types 0)), (ideal (nth r types 0)). intros. lia.
  Qed.

  Lemma examine_ok types m f e : in_step m f -> e < length (m_edges m) -> length types = length (m_nodes m) ->
    (examine cross land types m f e = Ok Skip /\ ~ improvable types m f e /\ ~ beside_other f e) \/
    (examine cross land types m f e = Ok Stop /\ beside_other f e) \/
    (exists a b l r lf rf, examine cross land types m f e = Ok (Flip a b l r lf rf) /\ between m f e a b l r lf rf /\ l <> r /\ wanted types m e a b l r).
  Proof.
    intros Hs He Lt. destruct (st_edge m f Hs e He) as (p & q & Hpq & Hl & Hd & Hn & Hk). destruct (st_tables m f Hs) as (T1 & T2 & _).
    unfold examine. rewrite (proj2 (vget_ok _ _ _) Hk), (proj2 (vget_ok _ _ _) Hpq). cbn [bind].
    assert (Sk : ~ (exists i j, p = Some i /\ q = Some j) -> ~ improvable types m f e /\ ~ beside_other f e).
    { intros N. split.
      - intros (a & b & l & r & lf & rf & (_ & _ & H & _) & _). apply N. rewrite Hpq in H. injection H as -> ->. eauto.
      - intros (i & j & ni & nj & H & _). apply N. rewrite Hpq in H. injection H as -> ->. eauto. }
    destruct (known p + known q =? 1) eqn:E1.
    { left. split; [reflexivity|]. apply Sk. intros (i & j & -> & ->). cbn in E1. discriminate. }
    destruct p as [lf|]; [|left; split; [reflexivity|apply Sk; intros (i & j & H & _); discriminate]].
    destruct q as [rf|]; [|left; split; [reflexivity|apply Sk; intros (i & j & _ & H); discriminate]]. clear Sk E1.
    destruct (proj2 (Hl lf) (or_introl eq_refl)) as (el & Hel & Il). destruct (proj2 (Hl rf) (or_intror eq_refl)) as (er & Her & Ir).
    assert (Ll : lf < length (faces_nodes f)) by (unfold num_faces in T1; rewrite <- T1; apply nth_error_Some; congruence).
    assert (Lr : rf < length (faces_nodes f)) by (unfold num_faces in T1; rewrite <- T1; apply nth_error_Some; congruence).
    destruct (nth_error (faces_nodes f) lf) as [nl|] eqn:Hnl; [|apply nth_error_None in Hnl; exfalso; clear - Ll Hnl; lia].
    destruct (nth_error (faces_nodes f) rf) as [nr|] eqn:Hnr; [|apply nth_error_None in Hnr; exfalso; clear - Lr Hnr; lia].
    assert (K : forall i ns, nth_error (faces_nodes f) i = Some ns -> vget (num_faces_nodes f) i = Ok (length ns)) by (intros i ns Hi; apply vget_ok; rewrite T2, nth_error_map, Hi; reflexivity).
    rewrite (K lf nl Hnl), (K rf nr Hnr). cbn [bind].
    destruct ((length nl =? 3) && (length nr =? 3)) eqn:E3; cbn [negb].
    2:{ right. left. split; [reflexivity|]. exists lf, rf, nl, nr. split; [exact Hpq|]. split; [exact Hnl|]. split; [exact Hnr|]. intros [H1 H2]. rewrite H1, H2 in E3. discriminate. }
    apply andb_true_iff in E3 as [E3 E4]. apply Nat.eqb_eq in E3, E4. rewrite (edge_get m e He). cbn [bind].
    assert (B : ~ beside_other f e).
    { intros (i & j & ni & nj & H & H1 & H2 & H3). rewrite Hpq in H. injection H as <- <-. rewrite Hnl in H1. rewrite Hnr in H2. injection H1 as <-. injection H2 as <-. auto. }
    assert (Hab : exists a b, edge_at m e = (Some a, Some b)).
    { destruct (st_face m f Hs lf nl el Hnl Hel) as (_ & _ & C & _). destruct (length3 nl E3) as (x & y & z & ->). destruct (length3 el) as (u & v & w & ->); [destruct C as [C _]; rewrite C; reflexivity|].
      apply triangle_cycle in C as ((_ & J1) & (_ & J2) & (_ & J3)). destruct Il as [->|[->|[->|[]]]]; [destruct J1 as [-> | ->]|destruct J2 as [-> | ->]|destruct J3 as [-> | ->]]; eauto. }
    destruct Hab as (a & b & Hab). rewrite Hab.
    destruct (quad_of m f e a b lf rf nl nr Hs He Hab Hpq Hnl Hnr E3 E4) as (l & r & al & bl & ar & br & Q). pose proof (between_quad _ _ _ _ _ _ _ _ _ _ _ _ _ Q) as Hb.
    destruct (functional_ok types m f e a b l r lf rf al bl ar br Hs Q Lt) as (v & -> & Hv & Va & Vb & Vl & Vr). cbn [bind].
    assert (Un : improvable types m f e -> wanted types m e a b l r).
    { intros (a' & b' & l' & r' & lf' & rf' & (_ & H1 & H2 & (n1 & H3 & P1) & (n2 & H4 & P2)) & W). rewrite Hab in H1. injection H1 as <- <-. rewrite Hpq in H2. injection H2 as <- <-.
      destruct Hb as (_ & _ & _ & (n3 & H5 & P3) & (n4 & H6 & P4)). rewrite H3 in H5. rewrite H4 in H6. injection H5 as <-. injection H6 as <-.
      assert (l' = l) by (apply (perm_last a b); rewrite <- P1, <- P3; reflexivity). assert (r' = r) by (apply (perm_last a b); rewrite <- P2, <- P4; reflexivity). subst l' r'. exact W. }
    destruct (0 <=? v)%Z eqn:Ev.
    { left. split; [reflexivity|]. split; [|exact B]. intros H. apply Un in H as [_ H]. apply Hv in H. apply Z.leb_le in Ev. clear - H Ev. lia. }
    apply Z.leb_gt in Ev. rewrite !point_get by assumption. cbn [bind].
    destruct (cross _ _ _ _) eqn:Ec.
    - right. right. exists a, b, l, r, lf, rf. split; [reflexivity|]. split; [exact Hb|]. split; [|split; [exact Ec|apply Hv; exact Ev]]. intros ->. rewrite cross_point in Ec. discriminate.
    - left. split; [reflexivity|]. split; [|exact B]. intros H. apply Un in H as [H _]. unfold crossing_at in H. congruence.
  Qed.
End Flipping.

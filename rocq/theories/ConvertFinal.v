(** Proofs about the conversion of a mesh to a curvilinear grid: the first cell and the matrix of points. *)
From Verif Require Import Base BaseLemmas FloatModel MeshModel MeshSpec MeshAdj MeshEdits FaceModel FaceSpec FaceUseSpec SplitModel SplitSpec SplitProofs ConvertModel ConvertSpec ConvertProofs ConvertMain ConvertFront ConvertGrow.

(** *** The matrix *)
Lemma min_ok l x0 : In x0 l -> exists a, min_of l = Ok a /\ In a l /\ forall x, In x l -> (a <= x)%Z.
Proof.
  destruct l as [|y l]; [intros []|]. intros _. cbn [min_of]. exists (fold_left Z.min l y). split; [reflexivity|]. clear x0. revert y. induction l as [|z l IH]; intros y; cbn [fold_left].
  - split; [now left|]. intros x [<-|[]]. lia.
  - destruct (IH (Z.min y z)) as (I1 & I2). split.
    + destruct I1 as [I1|I1]; [|right; right; exact I1]. rewrite <- I1. destruct (Z.min_spec y z) as [(_ & ->)|(_ & ->)]; [now left|right; now left].
    + pose proof (I2 _ (or_introl eq_refl)) as Hm. intros x [<-|[<-|Hx]]; [lia|lia|]. apply I2. now right.
Qed.
Lemma max_ok l x0 : In x0 l -> exists a, max_of l = Ok a /\ In a l /\ forall x, In x l -> (x <= a)%Z.
Proof.
  destruct l as [|y l]; [intros []|]. intros _. cbn [max_of]. exists (fold_left Z.max l y). split; [reflexivity|]. clear x0. revert y. induction l as [|z l IH]; intros y; cbn [fold_left].
  - split; [now left|]. intros x [<-|[]]. lia.
  - destruct (IH (Z.max y z)) as (I1 & I2). split.
    + destruct I1 as [I1|I1]; [|right; right; exact I1]. rewrite <- I1. destruct (Z.max_spec y z) as [(_ & ->)|(_ & ->)]; [right; now left|now left].
    + pose proof (I2 _ (or_introl eq_refl)) as Hm. intros x [<-|[<-|Hx]]; [lia|lia|]. apply I2. now right.
Qed.
Lemma values_i s k : raw_ok s k -> forall i, In i (valid_values (c_i s)) <-> exists n j, grid_pos s n = Some (i, j).
Proof.
  intros (L1 & L2 & B) i. unfold valid_values. rewrite filter_In, negb_true_iff, Z.eqb_neq. split.
  - intros (Hi & N). apply In_nth_error in Hi as (n & Hn). assert (n < length (c_j s)) by (rewrite L2, <- L1; apply nth_error_Some; congruence).
    destruct (nth_error (c_j s) n) as [j|] eqn:Ej; [|apply nth_error_None in Ej; lia]. exists n, j. unfold grid_pos. rewrite Hn, Ej. specialize (B n).
    destruct (Z.eqb_spec i missing_int); [contradiction|]. destruct (Z.eqb_spec j missing_int) as [->|]; [exfalso; destruct B as (_ & B); specialize (B Ej); congruence|reflexivity].
  - intros (n & j & H). destruct (pos_get _ _ _ _ H) as (_ & H1 & _ & H3 & _). split; [eapply nth_error_In, H1|exact H3].
Qed.
Lemma values_j s k : raw_ok s k -> forall j, In j (valid_values (c_j s)) <-> exists n i, grid_pos s n = Some (i, j).
Proof.
  intros (L1 & L2 & B) j. unfold valid_values. rewrite filter_In, negb_true_iff, Z.eqb_neq. split.
  - intros (Hi & N). apply In_nth_error in Hi as (n & Hn). assert (n < length (c_i s)) by (rewrite L1, <- L2; apply nth_error_Some; congruence).
    destruct (nth_error (c_i s) n) as [i|] eqn:Ei; [|apply nth_error_None in Ei; lia]. exists n, i. unfold grid_pos. rewrite Hn, Ei. specialize (B n).
    destruct (Z.eqb_spec i missing_int) as [->|]; [exfalso; destruct B as (B & _); specialize (B Ei); congruence|]. destruct (Z.eqb_spec j missing_int); [contradiction|reflexivity].
  - intros (n & i & H). destruct (pos_get _ _ _ _ H) as (_ & _ & H1 & _ & H3). split; [eapply nth_error_In, H1|exact H3].
Qed.

Section Put.
  Variables (m : mesh) (s : conversion) (i0 j0 : Z) (w h : nat).
  Hypothesis R : raw_ok s (length (m_nodes m)).
  Hypothesis Box : forall n i j, grid_pos s n = Some (i, j) -> (i0 <= i < i0 + Z.of_nat w /\ j0 <= j < j0 + Z.of_nat h)%Z.
  Let filled (t : nat) (rows : list (list point)) : Prop :=
    length rows = h /\ (forall row, In row rows -> length row = w) /\
    forall k l, k < h -> l < w ->
      (exists n p, n < t /\ grid_pos s n = Some (i0 + Z.of_nat l, j0 + Z.of_nat k)%Z /\ nth_error (m_nodes m) n = Some p /\ entry rows k l = Some p) \/
      ((forall n, n < t -> grid_pos s n <> Some (i0 + Z.of_nat l, j0 + Z.of_nat k)%Z) /\ entry rows k l = Some missing_point).
  Lemma put_ok t rows : t < length (m_nodes m) -> filled t rows -> exists rows', put_point m s i0 j0 rows t = Ok rows' /\ filled (S t) rows'.
  Proof using R Box.
    intros Ht (F1 & F2 & F3). pose proof R as (L1 & L2 & B). unfold put_point, vget at 1 2.
    destruct (nth_error (c_j s) t) as [j|] eqn:Ej; [|apply nth_error_None in Ej; lia]. destruct (nth_error (c_i s) t) as [i|] eqn:Ei; [|apply nth_error_None in Ei; lia]. cbn [bind].
    assert (G : grid_pos s t = if (negb (j =? missing_int) && negb (i =? missing_int))%Z then Some (i, j) else None).
    { unfold grid_pos. rewrite Ei, Ej. destruct (i =? missing_int)%Z, (j =? missing_int)%Z; reflexivity. }
    destruct (negb (j =? missing_int) && negb (i =? missing_int))%Z.
    - destruct (Box _ _ _ G) as (B1 & B2). destruct (Z.ltb_spec j j0) as [|Lj]; [lia|]. destruct (Z.ltb_spec i i0) as [|Li]; [lia|]. cbn [orb].
      unfold node_at. destruct (nth_error (m_nodes m) t) as [p|] eqn:Ep; [|apply nth_error_None in Ep; lia]. cbn [bind].
      set (k0 := Z.to_nat (j - j0)). set (l0 := Z.to_nat (i - i0)). assert (K0 : k0 < h) by (unfold k0; lia). assert (M0 : l0 < w) by (unfold l0; lia).
      unfold vget. destruct (nth_error rows k0) as [row|] eqn:Er; [|apply nth_error_None in Er; lia]. cbn [bind]. assert (Lr : length row = w) by (apply F2; eapply nth_error_In, Er).
      rewrite (vset_lt l0 p row) by lia. cbn [bind]. rewrite vset_lt by lia. eexists. split; [reflexivity|]. split; [now rewrite set_nth_length|]. split.
      + intros r Hr. apply In_nth_error in Hr as (k & Hk). destruct (Nat.eq_dec k0 k) as [<-|N].
        * rewrite nth_error_set_nth_eq in Hk by lia. injection Hk as <-. now rewrite set_nth_length.
        * rewrite nth_error_set_nth_neq in Hk by auto. apply F2. eapply nth_error_In, Hk.
      + intros k l Hk Hl. unfold entry. destruct (Nat.eq_dec k0 k) as [<-|N].
        * rewrite nth_error_set_nth_eq by lia. destruct (Nat.eq_dec l0 l) as [<-|N'].
          -- rewrite nth_error_set_nth_eq by lia. left. exists t, p. split; [lia|]. split; [rewrite G; repeat f_equal; unfold k0, l0; lia|]. auto.
          -- rewrite nth_error_set_nth_neq by auto. specialize (F3 k0 l Hk Hl). unfold entry in F3. rewrite Er in F3. destruct F3 as [(n & p' & Hn & X)|(X & Y)]; [left; exists n, p'; split; [lia|exact X]|].
             right. split; [|exact Y]. intros n Hn. destruct (Nat.eq_dec n t) as [->|]; [rewrite G; intros H; injection H as H1 H2; unfold l0 in N'; lia|apply X; lia].
        * rewrite nth_error_set_nth_neq by auto. specialize (F3 k l Hk Hl). unfold entry in F3. destruct F3 as [(n & p' & Hn & X)|(X & Y)]; [left; exists n, p'; split; [lia|exact X]|].
          right. split; [|exact Y]. intros n Hn. destruct (Nat.eq_dec n t) as [->|]; [rewrite G; intros H; injection H as H1 H2; unfold k0 in N; lia|apply X; lia].
    - eexists. split; [reflexivity|]. split; [exact F1|]. split; [exact F2|]. intros k l Hk Hl. destruct (F3 k l Hk Hl) as [(n & p' & Hn & X)|(X & Y)]; [left; exists n, p'; split; [lia|exact X]|].
      right. split; [|exact Y]. intros n Hn. destruct (Nat.eq_dec n t) as [->|]; [rewrite G; discriminate|apply X; lia].
  Qed.
  Lemma put_all t : t <= length (m_nodes m) -> exists rows, fold_out (put_point m s i0 j0) (seq 0 t) (repeat (repeat missing_point w) h) = Ok rows /\ filled t rows.
  Proof using R Box.
    induction t as [|t IH]; intros Ht.
    - eexists. split; [reflexivity|]. split; [apply repeat_length|]. split; [intros row H; apply repeat_spec in H as ->; apply repeat_length|]. intros k l Hk Hl. right. split; [intros n Hn; lia|].
      unfold entry. rewrite nth_error_repeat by exact Hk. now apply nth_error_repeat.
    - destruct IH as (rows & F & I); [lia|]. destruct (put_ok t rows Ht I) as (rows' & E & I'). exists rows'. split; [|exact I']. rewrite seq_S, fold_out_app, F. cbn [bind fold_out plus]. rewrite E. reflexivity.
  Qed.
End Put.

Lemma matrix_ok m s n0 p0 : raw_ok s (length (m_nodes m)) -> grid_pos s n0 = Some p0 -> exists rows, curvilinear_matrix m s = Ok rows /\ matrix_of m (grid_pos s) rows.
Proof.
  intros R H0. destruct p0 as [i j]. unfold curvilinear_matrix.
  assert (Hi : In i (valid_values (c_i s))) by (apply (values_i s _ R); eauto). assert (Hj : In j (valid_values (c_j s))) by (apply (values_j s _ R); eauto).
  destruct (min_ok _ _ Hi) as (i0 & -> & I1 & I2). destruct (max_ok _ _ Hi) as (i1 & -> & I3 & I4). destruct (min_ok _ _ Hj) as (j0 & -> & J1 & J2). destruct (max_ok _ _ Hj) as (j1 & -> & J3 & J4). cbn [bind].
  set (w := Z.to_nat (i1 - i0 + 1)). set (h := Z.to_nat (j1 - j0 + 1)).
  assert (Box : forall n i j, grid_pos s n = Some (i, j) -> (i0 <= i < i0 + Z.of_nat w /\ j0 <= j < j0 + Z.of_nat h)%Z).
  { intros n x y H. assert (Hx : In x (valid_values (c_i s))) by (apply (values_i s _ R); eauto). assert (Hy : In y (valid_values (c_j s))) by (apply (values_j s _ R); eauto).
    apply I2 in Hx as X1. apply I4 in Hx as X2. apply J2 in Hy as X3. apply J4 in Hy as X4. unfold w, h. lia. }
  destruct (put_all m s i0 j0 w h R Box (length (m_nodes m)) (le_n _)) as (rows & F & (F1 & F2 & F3)). exists rows. split; [exact F|].
  exists i0, j0, w. rewrite F1. split; [exact F2|]. split; [exact Box|]. pose proof (I2 i1 I3) as Li. pose proof (J2 j1 J3) as Lj.
  split; [apply (values_i s _ R), I1|]. split; [replace (i0 + Z.of_nat w - 1)%Z with i1 by (unfold w; lia); apply (values_i s _ R), I3|].
  split; [apply (values_j s _ R), J1|]. split; [replace (j0 + Z.of_nat h - 1)%Z with j1 by (unfold h; lia); apply (values_j s _ R), J3|].
  intros k l Hk Hl. destruct (F3 k l Hk Hl) as [(n & p & Hn & X)|(X & Y)]; [left; eauto|]. right. split; [|exact Y]. intros n H. apply (X n); [|exact H].
  destruct (pos_get _ _ _ _ H) as (_ & E & _). rewrite <- (proj1 R). apply nth_error_Some. congruence.
Qed.

(** *** The first cell *)
Definition clear_map (g : growing) : Prop := forall p, p <> (0, 0)%Z -> map_val g (snd p) (fst p) = None.
Lemma fresh_clear garbage : clear_map (fresh garbage).
Proof.
  intros [i j] N. unfold map_val. cbn [snd fst]. destruct (in_range (fresh garbage) j i) eqn:E; [|reflexivity]. apply in_range_iff in E. cbn in E. destruct N. f_equal; lia.
Qed.

Section First.
  Variable m : mesh.
  Variable f : faces.
  Hypothesis C : consistent m.
  Hypothesis A : adjacency_exact m.
  Hypothesis U : usable m f.
  Hypothesis P : proper_cells m f.

  Lemma first_position_ok s a b x y z p : raw_ok s (length (m_nodes m)) -> a < length (m_edges m) -> b < length (m_edges m) -> joins (edge_at m a) x y -> joins (edge_at m b) y z -> x <> y -> x <> z ->
    real p -> in_range (c_map s) (snd p) (fst p) = true ->
    exists s', first_position m s a b (fst p) (snd p) = Ok s' /\ raw_ok s' (length (m_nodes m)) /\ (forall j i, in_range (c_map s') j i = in_range (c_map s) j i) /\
      (forall n, grid_pos s' n = if n =? y then Some p else grid_pos s n) /\ forall q, cell_at s' q = if pos_eqb q p then Some y else cell_at s q.
  Proof.
    intros R Ha Hb Ja Jb N1 N2 Rp Hr. unfold first_position. rewrite (common_ok m a b x y z Ha Hb Ja Jb N1 N2). cbn [bind].
    destruct (set_position_ok s _ y p R) as (s1 & -> & M1 & R1 & G1); [eapply (joins_known m C a x y y Ha Ja); auto|exact Rp|]. cbn [bind].
    destruct (set_mapping_ok s1 y p) as (s2 & -> & I2 & J2 & R2 & G2); [now rewrite M1|]. exists s2. split; [reflexivity|]. split; [eapply same_raw; eauto|]. split; [intros; rewrite R2, M1; reflexivity|].
    split; [intros n; rewrite (same_pos s1 s2 I2 J2); apply G1|]. intros q. rewrite G2. destruct (pos_eqb q p); [reflexivity|]. unfold cell_at. now rewrite M1.
  Qed.

  Lemma first_cell_ok start g n0 n1 n2 n3 : clear_map g -> quad_nodes f start [n0; n1; n2; n3] ->
    exists s, first_cell m f start g = Ok s /\ inv m s /\ one_each s /\ unit_cell (grid_pos s) [n0; n1; n2; n3] /\
      (forall n p, grid_pos s n = Some p -> low 0 p /\ In n [n0; n1; n2; n3]) /\
      grid_pos s n1 = Some (0, 0)%Z /\ grid_pos s n2 = Some (1, 0)%Z /\ grid_pos s n3 = Some (1, 1)%Z /\ grid_pos s n0 = Some (0, 1)%Z.
  Proof.
    intros Hg Q. destruct (quad_facts m f U P start _ Q) as (es & He & Le & D & _ & Cy & _). destruct es as [|e0 [|e1 [|e2 [|e3 [|]]]]]; try discriminate.
    assert (DD : n0 <> n1 /\ n0 <> n2 /\ n0 <> n3 /\ n1 <> n2 /\ n1 <> n3 /\ n2 <> n3).
    { clear - D. repeat match goal with H : NoDup _ |- _ => inversion H; clear H; subst end. cbn in *. intuition. }
    destruct DD as (D1 & D2 & D3 & D4 & D5 & D6). destruct Cy as (_ & Cy).
    destruct (Cy 0 n0 n1 e0 eq_refl eq_refl eq_refl) as (E0 & J0). destruct (Cy 1 n1 n2 e1 eq_refl eq_refl eq_refl) as (E1 & J1).
    destruct (Cy 2 n2 n3 e2 eq_refl eq_refl eq_refl) as (E2 & J2). destruct (Cy 3 n3 n0 e3 eq_refl eq_refl eq_refl) as (E3 & J3).
    unfold first_cell. unfold vget at 1. rewrite He. cbn [bind]. set (s0 := Conversion _ _ _). cbn [vget nth_error bind].
    assert (Rg : forall j i, (-3 <= j <= 3 -> -3 <= i <= 3 -> in_range (c_map s0) j i = true)%Z) by (intros; unfold s0; cbn [c_map]; now apply resize_in).
    assert (R0 : raw_ok s0 (length (m_nodes m))).
    { split; [apply repeat_length|]. split; [apply repeat_length|]. intros n. reflexivity. }
    assert (G0 : forall n, grid_pos s0 n = None).
    { intros n. unfold grid_pos. cbn [c_i c_j s0]. destruct (nth_error (repeat missing_int (length (m_nodes m))) n) as [z|] eqn:E; [|reflexivity]. apply nth_error_In, repeat_spec in E as ->. reflexivity. }
    assert (M0 : forall q, q <> (0, 0)%Z -> cell_at s0 q = None) by (intros q Nq; unfold cell_at, s0; cbn [c_map]; rewrite resize_val; now apply Hg).
    clearbody s0. unfold real, missing_int in *.
    destruct (first_position_ok s0 e0 e1 n0 n1 n2 (0, 0)%Z R0 E0 E1 J0 J1 ltac:(auto) ltac:(auto)) as (s1 & H1 & R1 & I1 & G1 & M1); [unfold real, missing_int; cbn; lia|apply Rg; cbn; lia|]. cbn [fst snd] in H1. rewrite H1. cbn [bind].
    destruct (first_position_ok s1 e1 e2 n1 n2 n3 (1, 0)%Z R1 E1 E2 J1 J2 ltac:(auto) ltac:(auto)) as (s2 & H2 & R2 & I2 & G2 & M2); [unfold real, missing_int; cbn; lia|rewrite I1; apply Rg; cbn; lia|]. cbn [fst snd] in H2. rewrite H2. cbn [bind].
    destruct (first_position_ok s2 e2 e3 n2 n3 n0 (1, 1)%Z R2 E2 E3 J2 J3 ltac:(auto) ltac:(auto)) as (s3 & H3 & R3 & I3 & G3 & M3); [unfold real, missing_int; cbn; lia|rewrite I2, I1; apply Rg; cbn; lia|]. cbn [fst snd] in H3. rewrite H3. cbn [bind].
    destruct (first_position_ok s3 e3 e0 n3 n0 n1 (0, 1)%Z R3 E3 E0 J3 J0 ltac:(auto) ltac:(auto)) as (s4 & H4 & R4 & I4 & G4 & M4); [unfold real, missing_int; cbn; lia|rewrite I3, I2, I1; apply Rg; cbn; lia|]. cbn [fst snd] in H4. rewrite H4.
    exists s4. split; [reflexivity|].
    assert (G : forall n, grid_pos s4 n = if n =? n0 then Some (0, 1)%Z else if n =? n3 then Some (1, 1)%Z else if n =? n2 then Some (1, 0)%Z else if n =? n1 then Some (0, 0)%Z else None) by (intros n; rewrite G4, G3, G2, G1, G0; reflexivity).
    assert (M : forall q, cell_at s4 q = if pos_eqb q (0, 1)%Z then Some n0 else if pos_eqb q (1, 1)%Z then Some n3 else if pos_eqb q (1, 0)%Z then Some n2 else if pos_eqb q (0, 0)%Z then Some n1 else None).
    { intros q. rewrite M4, M3, M2, M1. destruct (pos_eqb_spec q (0, 0)%Z) as [->|N]; [reflexivity|]. now rewrite (M0 q N). }
    clear H1 H2 H3 H4 G0 G1 G2 G3 G4 M0 M1 M2 M3 M4 I1 I2 I3 I4 R0 R1 R2 R3.
    assert (V0 : grid_pos s4 n0 = Some (0, 1)%Z) by (rewrite G, Nat.eqb_refl; reflexivity).
    assert (V3 : grid_pos s4 n3 = Some (1, 1)%Z) by (rewrite G, (proj2 (Nat.eqb_neq n3 n0)), Nat.eqb_refl by auto; reflexivity).
    assert (V2 : grid_pos s4 n2 = Some (1, 0)%Z) by (rewrite G, (proj2 (Nat.eqb_neq n2 n0)), (proj2 (Nat.eqb_neq n2 n3)), Nat.eqb_refl by auto; reflexivity).
    assert (V1 : grid_pos s4 n1 = Some (0, 0)%Z) by (rewrite G, (proj2 (Nat.eqb_neq n1 n0)), (proj2 (Nat.eqb_neq n1 n3)), (proj2 (Nat.eqb_neq n1 n2)), Nat.eqb_refl by auto; reflexivity).
    assert (Cases : forall n p, grid_pos s4 n = Some p -> (n = n0 /\ p = (0, 1)%Z) \/ (n = n3 /\ p = (1, 1)%Z) \/ (n = n2 /\ p = (1, 0)%Z) \/ (n = n1 /\ p = (0, 0)%Z)).
    { intros n p. rewrite G. destruct (Nat.eqb_spec n n0) as [->|]; [intros H; injection H as <-; auto|]. destruct (Nat.eqb_spec n n3) as [->|]; [intros H; injection H as <-; auto|].
      destruct (Nat.eqb_spec n n2) as [->|]; [intros H; injection H as <-; auto 6|]. destruct (Nat.eqb_spec n n1) as [->|]; [intros H; injection H as <-; auto 6|discriminate]. }
    assert (MC : forall q n, cell_at s4 q = Some n <-> (q = (0, 1)%Z /\ n = n0) \/ (q = (1, 1)%Z /\ n = n3) \/ (q = (1, 0)%Z /\ n = n2) \/ (q = (0, 0)%Z /\ n = n1)).
    { intros q n. rewrite M. destruct (pos_eqb_spec q (0, 1)%Z) as [->|]; [split; [intros H; injection H as <-; auto|intros [(_ & ->)|[(? & _)|[(? & _)|(? & _)]]]; [reflexivity|discriminate..]]|].
      destruct (pos_eqb_spec q (1, 1)%Z) as [->|]; [split; [intros H; injection H as <-; auto|intros [(? & _)|[(_ & ->)|[(? & _)|(? & _)]]]; [discriminate|reflexivity|discriminate..]]|].
      destruct (pos_eqb_spec q (1, 0)%Z) as [->|]; [split; [intros H; injection H as <-; auto 6|intros [(? & _)|[(? & _)|[(_ & ->)|(? & _)]]]; [discriminate|discriminate|reflexivity|discriminate]]|].
      destruct (pos_eqb_spec q (0, 0)%Z) as [->|]; [split; [intros H; injection H as <-; auto 6|intros [(? & _)|[(? & _)|[(? & _)|(_ & ->)]]]; [discriminate|discriminate|discriminate|reflexivity]]|].
      split; [discriminate|]. intuition. }
    split; [|split; [|split; [|split; [|auto]]]].
    - constructor.
      + exact R4.
      + intros p n H. apply MC in H as [(-> & ->)|[(-> & ->)|[(-> & ->)|(-> & ->)]]]; assumption.
      + intros n p H. apply Cases in H as [(-> & ->)|[(-> & ->)|[(-> & ->)|(-> & ->)]]]; eexists; apply MC; auto 8.
      + assert (B0 : neighbour m n0 n1) by (exists e0; auto). assert (B1 : neighbour m n1 n2) by (exists e1; auto). assert (B2 : neighbour m n2 n3) by (exists e2; auto). assert (B3 : neighbour m n3 n0) by (exists e3; auto).
        intros p q a b B Ha Hb. apply MC in Ha as [(-> & ->)|[(-> & ->)|[(-> & ->)|(-> & ->)]]]; apply MC in Hb as [(-> & ->)|[(-> & ->)|[(-> & ->)|(-> & ->)]]];
          try (unfold beside in B; cbn in B; lia); first [assumption|apply near_sym; assumption].
    - intros a b p Ha Hb. apply Cases in Ha as [(-> & ->)|[(-> & ->)|[(-> & ->)|(-> & ->)]]]; apply Cases in Hb as [(-> & Hb)|[(-> & Hb)|[(-> & Hb)|(-> & Hb)]]]; congruence.
    - exists n0, n1, n2, n3, (0, 1)%Z, (0, 0)%Z, (1, 0)%Z, (1, 1)%Z. split; [reflexivity|]. unfold beside. cbn. repeat match goal with |- _ /\ _ => split end; auto; discriminate.
    - intros n p H. apply Cases in H as [(-> & ->)|[(-> & ->)|[(-> & ->)|(-> & ->)]]]; (split; [split; cbn; lia|cbn; auto]).
  Qed.
End First.

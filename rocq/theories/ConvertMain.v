(** Proofs about the conversion of a mesh to a curvilinear grid: the invariant of the front. *)
From Verif Require Import Base BaseLemmas FloatModel MeshModel MeshSpec MeshAdj MeshEdits FaceModel FaceSpec FaceUseSpec SplitModel SplitSpec SplitProofs ConvertModel ConvertSpec ConvertProofs.

Definition pos_eqb (p q : Z * Z) : bool := ((fst p =? fst q) && (snd p =? snd q))%Z.
Lemma pos_eqb_spec p q : reflect (p = q) (pos_eqb p q).
Proof.
  unfold pos_eqb. destruct p as [a b], q as [c d]. cbn. destruct (Z.eqb_spec a c) as [->|N]; [|constructor; congruence]. destruct (Z.eqb_spec b d) as [->|N]; constructor; congruence.
Qed.
Lemma beside_neq p q : beside p q -> p <> q.
Proof. intros H ->. unfold beside in H. lia. Qed.
Definition cell_at (s : conversion) (p : Z * Z) : option nat := map_val (c_map s) (snd p) (fst p).
Definition real (p : Z * Z) : Prop := fst p <> missing_int /\ snd p <> missing_int.
Definition raw_ok (s : conversion) (k : nat) : Prop :=
  length (c_i s) = k /\ length (c_j s) = k /\ forall n, nth_error (c_i s) n = Some missing_int <-> nth_error (c_j s) n = Some missing_int.

Lemma set_position_ok s k n p : raw_ok s k -> n < k -> real p -> exists s', set_position s (Some n) (fst p) (snd p) = Ok s' /\ c_map s' = c_map s /\ raw_ok s' k /\
  forall n', grid_pos s' n' = if n' =? n then Some p else grid_pos s n'.
Proof.
  intros (L1 & L2 & B) Hn (R1 & R2). unfold set_position. rewrite !vset_lt by lia. cbn [bind]. eexists. split; [reflexivity|]. split; [reflexivity|]. split.
  - split; [cbn; now rewrite set_nth_length|]. split; [cbn; now rewrite set_nth_length|]. intros n'. cbn [c_i c_j]. destruct (Nat.eq_dec n n') as [<-|N].
    + rewrite !nth_error_set_nth_eq by lia. split; intros H; injection H as H; congruence.
    + rewrite !nth_error_set_nth_neq by auto. apply B.
  - intros n'. unfold grid_pos at 1. cbn [c_i c_j]. destruct (Nat.eqb_spec n' n) as [->|N].
    + rewrite !nth_error_set_nth_eq by lia. destruct (Z.eqb_spec (fst p) missing_int); [congruence|]. destruct (Z.eqb_spec (snd p) missing_int); [congruence|]. cbn. now destruct p.
    + rewrite !nth_error_set_nth_neq by auto. reflexivity.
Qed.
Lemma set_mapping_ok s n p : in_range (c_map s) (snd p) (fst p) = true -> exists s', set_mapping s (Some n) (fst p) (snd p) = Ok s' /\ c_i s' = c_i s /\ c_j s' = c_j s /\
  (forall j i, in_range (c_map s') j i = in_range (c_map s) j i) /\ forall q, cell_at s' q = if pos_eqb q p then Some n else cell_at s q.
Proof.
  intros H. unfold set_mapping. destruct (set_val (c_map s) (snd p) (fst p) n H) as (g & -> & R & V). cbn [bind]. eexists. split; [reflexivity|]. cbn [c_i c_j c_map]. split; [reflexivity|]. split; [reflexivity|]. split; [exact R|].
  intros q. unfold cell_at at 1. cbn [c_map]. rewrite V. unfold pos_eqb. rewrite andb_comm. reflexivity.
Qed.
Lemma same_pos s s' : c_i s' = c_i s -> c_j s' = c_j s -> forall n, grid_pos s' n = grid_pos s n.
Proof. intros H1 H2 n. unfold grid_pos. now rewrite H1, H2. Qed.
Lemma same_raw s s' k : c_i s' = c_i s -> c_j s' = c_j s -> raw_ok s k -> raw_ok s' k.
Proof. intros H1 H2. unfold raw_ok. now rewrite H1, H2. Qed.
Lemma grid_real s n p : grid_pos s n = Some p -> real p.
Proof. destruct p as [i j]. intros H. destruct (pos_get _ _ _ _ H) as (_ & _ & _ & H1 & H2). split; assumption. Qed.
Lemma raw_read s k n : raw_ok s k -> n < k -> exists i j, position_of s (Some n) = Ok (i, j) /\ grid_pos s n = if ((i =? missing_int) || (j =? missing_int))%Z then None else Some (i, j).
Proof.
  intros (L1 & L2 & _) Hn. unfold position_of, vget_idx, vget, grid_pos. destruct (nth_error (c_i s) n) as [i|] eqn:E1; [|apply nth_error_None in E1; lia].
  destruct (nth_error (c_j s) n) as [j|] eqn:E2; [|apply nth_error_None in E2; lia]. cbn. eauto.
Qed.
Lemma agree s k n i j p : raw_ok s k -> n < k -> position_of s (Some n) = Ok (i, j) -> differs i (fst p) = false -> differs j (snd p) = false -> real p ->
  grid_pos s n = None \/ grid_pos s n = Some p.
Proof.
  intros (L1 & L2 & B) Hn H D1 D2 (R1 & R2). unfold position_of, vget_idx, vget in H. unfold grid_pos. specialize (B n). destruct (nth_error (c_i s) n) as [i'|]; [|discriminate]. destruct (nth_error (c_j s) n) as [j'|]; [|discriminate].
  cbn in H. injection H as -> ->. unfold differs in *. destruct (Z.eqb_spec i missing_int) as [->|N1]; [now left|]. destruct (Z.eqb_spec j missing_int) as [->|N2]; [exfalso; destruct B as (_ & B); specialize (B eq_refl); congruence|].
  cbn in *. apply negb_false_iff, Z.eqb_eq in D1, D2. right. subst. now destruct p.
Qed.
Lemma disagree s k n i j p : raw_ok s k -> n < k -> position_of s (Some n) = Ok (i, j) -> grid_pos s n = None \/ grid_pos s n = Some p -> differs i (fst p) = false /\ differs j (snd p) = false.
Proof.
  intros (L1 & L2 & B) Hn H Hp. unfold position_of, vget_idx, vget in H. unfold grid_pos in Hp. specialize (B n). destruct (nth_error (c_i s) n) as [i'|]; [|discriminate]. destruct (nth_error (c_j s) n) as [j'|]; [|discriminate].
  cbn in H. injection H as -> ->. unfold differs. destruct (Z.eqb_spec i missing_int) as [->|N1]; destruct (Z.eqb_spec j missing_int) as [->|N2]; cbn in *; auto.
  - exfalso. destruct B as (B & _). specialize (B eq_refl). congruence.
  - exfalso. destruct B as (_ & B). specialize (B eq_refl). congruence.
  - destruct Hp as [Hp|Hp]; [discriminate|]. injection Hp as <-. cbn. rewrite !Z.eqb_refl. auto.
Qed.

Section Front.
  Variable m : mesh.
  Variable f : faces.
  Hypothesis C : consistent m.
  Hypothesis A : adjacency_exact m.
  Hypothesis U : usable m f.
  Hypothesis P : proper_cells m f.

  Lemma near_sym a b : neighbour m a b -> neighbour m b a.
  Proof. intros (e & He & J). exists e. split; [exact He|now apply joins_sym]. Qed.

  Record inv (s : conversion) : Prop := {
    iv_raw : raw_ok s (length (m_nodes m));
    iv_map : forall p n, cell_at s p = Some n -> grid_pos s n = Some p;
    iv_pos : forall n p, grid_pos s n = Some p -> exists n', cell_at s p = Some n';
    iv_join : forall p q a b, beside p q -> cell_at s p = Some a -> cell_at s q = Some b -> neighbour m a b }.
  Definition one_each (s : conversion) : Prop := forall a b p, grid_pos s a = Some p -> grid_pos s b = Some p -> a = b.
  Definition extends_pos (s s' : conversion) : Prop := forall n p, grid_pos s n = Some p -> grid_pos s' n = Some p.

  (** Placing two neighbouring nodes *)
  Section Two.
    Variables (s s' : conversion) (c d : nat) (p q : Z * Z).
    Hypothesis I : inv s.
    Hypothesis R : raw_ok s' (length (m_nodes m)).
    Hypothesis N : c <> d.
    Hypothesis B : beside p q.
    Hypothesis Ec : grid_pos s c = None \/ grid_pos s c = Some p.
    Hypothesis Ed : grid_pos s d = None \/ grid_pos s d = Some q.
    Hypothesis Hpos : forall n, grid_pos s' n = if n =? d then Some q else if n =? c then Some p else grid_pos s n.
    Hypothesis Hmap : forall r, cell_at s' r = if pos_eqb r q then Some d else if pos_eqb r p then Some c else cell_at s r.
    Hypothesis J : neighbour m c d.
    Hypothesis Vc : forall r n, beside p r -> cell_at s r = Some n -> neighbour m c n.
    Hypothesis Vd : forall r n, beside q r -> cell_at s r = Some n -> neighbour m d n.

    Lemma two_apart : p <> q.
    Proof using B. exact (beside_neq p q B). Qed.
    Lemma two_extends : extends_pos s s'.
    Proof using Ec Ed Hpos.
      intros n r H. rewrite Hpos. destruct (Nat.eqb_spec n d) as [->|]; [destruct Ed; congruence|]. destruct (Nat.eqb_spec n c) as [->|]; [destruct Ec; congruence|exact H].
    Qed.
    Lemma two_inv : inv s'.
    Proof using All.
      pose proof two_apart as NA. constructor.
      - exact R.
      - intros r n. rewrite Hmap, Hpos. destruct (pos_eqb_spec r q) as [->|N1]; [intros H; injection H as <-; now rewrite Nat.eqb_refl|].
        destruct (pos_eqb_spec r p) as [->|N2]; [intros H; injection H as <-; rewrite (proj2 (Nat.eqb_neq c d)) by auto; now rewrite Nat.eqb_refl|].
        intros H. apply (iv_map s I) in H. destruct (Nat.eqb_spec n d) as [->|]; [destruct Ed; congruence|]. destruct (Nat.eqb_spec n c) as [->|]; [destruct Ec; congruence|exact H].
      - intros n r. rewrite Hmap, Hpos. destruct (pos_eqb_spec r q) as [->|N1]; [eauto|]. destruct (pos_eqb_spec r p) as [->|N2]; [eauto|].
        destruct (Nat.eqb_spec n d) as [->|]; [congruence|]. destruct (Nat.eqb_spec n c) as [->|]; [congruence|]. apply (iv_pos s I).
      - intros r t a b Hb. rewrite !Hmap. destruct (pos_eqb_spec r q) as [->|N1].
        + intros H. injection H as <-. destruct (pos_eqb_spec t q) as [->|N2]; [unfold beside in Hb; lia|]. destruct (pos_eqb_spec t p) as [->|N3]; [intros H; injection H as <-; now apply near_sym|]. apply Vd, Hb.
        + destruct (pos_eqb_spec r p) as [->|N2].
          * intros H. injection H as <-. destruct (pos_eqb_spec t q) as [->|N3]; [intros H; injection H as <-; exact J|]. destruct (pos_eqb_spec t p) as [->|N4]; [unfold beside in Hb; lia|]. apply Vc, Hb.
          * destruct (pos_eqb_spec t q) as [->|N3]; [intros Ha H; injection H as <-; apply near_sym; eapply Vd; [apply beside_sym, Hb|exact Ha]|].
            destruct (pos_eqb_spec t p) as [->|N4]; [intros Ha H; injection H as <-; apply near_sym; eapply Vc; [apply beside_sym, Hb|exact Ha]|]. apply (iv_join s I), Hb.
    Qed.

    (** The new cell is [a; b; c; d]: with few common neighbours no position is taken twice. *)
    Variables (a b : nat) (pa pb : Z * Z).
    Hypothesis Pa : grid_pos s a = Some pa.
    Hypothesis Pb : grid_pos s b = Some pb.
    Hypothesis Ba : beside q pa.
    Hypothesis Bb : beside p pb.
    Hypothesis Na : pa <> p.
    Hypothesis Nb : pb <> q.
    Hypothesis D : NoDup [a; b; c; d].
    Hypothesis Jab : neighbour m a b.
    Hypothesis Jbc : neighbour m b c.
    Hypothesis Jda : neighbour m d a.
    Lemma two_once : few_common m -> one_each s -> one_each s'.
    Proof using All.
      intros F O. pose proof two_apart as NA.
      assert (Own : forall n r, grid_pos s n = Some r -> cell_at s r = Some n).
      { intros n r H. destruct (iv_pos s I n r H) as (n' & H'). rewrite H'. f_equal. apply (O n' n r); [now apply (iv_map s I)|exact H]. }
      assert (DD : a <> b /\ a <> c /\ a <> d /\ b <> c /\ b <> d /\ c <> d).
      { repeat match goal with H : NoDup _ |- _ => inversion H; clear H; subst end. cbn in *. intuition. }
      destruct DD as (D1 & D2 & D3 & D4 & D5 & D6).
      assert (Xc : forall n, n <> c -> grid_pos s n <> Some p).
      { intros n Nn H. pose proof (Own n p H) as Hc. pose proof (Own b pb Pb) as Hb. apply (F b d a c n); auto.
        - intros ->. rewrite Pa in H. congruence.
        - now apply near_sym.
        - apply (iv_join s I pb p b n); [now apply beside_sym|exact Hb|exact Hc].
        - now apply near_sym.
        - apply (Vd p n); [now apply beside_sym|exact Hc]. }
      assert (Xd : forall n, n <> d -> grid_pos s n <> Some q).
      { intros n Nn H. pose proof (Own n q H) as Hc. pose proof (Own a pa Pa) as Ha. apply (F a c b d n); auto.
        - intros ->. rewrite Pb in H. congruence.
        - now apply near_sym.
        - apply (iv_join s I pa q a n); [now apply beside_sym|exact Ha|exact Hc].
        - now apply near_sym.
        - apply (Vc q n); [exact B|exact Hc]. }
      intros x y r. rewrite !Hpos. destruct (Nat.eqb_spec x d) as [->|Nx]; destruct (Nat.eqb_spec y d) as [->|Ny]; auto.
      - intros H. injection H as <-. destruct (Nat.eqb_spec y c) as [->|]; [intros H; congruence|]. intros H. destruct (Xd y Ny H).
      - intros H H'. injection H' as <-. destruct (Nat.eqb_spec x c) as [->|]; [congruence|]. destruct (Xd x Nx H).
      - destruct (Nat.eqb_spec x c) as [->|Nx']; destruct (Nat.eqb_spec y c) as [->|Ny']; auto.
        + intros H. injection H as <-. intros H. destruct (Xc y Ny' H).
        + intros H H'. injection H' as <-. destruct (Xc x Nx' H).
        + apply O.
    Qed.
  End Two.
End Front.

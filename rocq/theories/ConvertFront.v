(** Proofs about the conversion of a mesh to a curvilinear grid: one step of the front, the front, the first cell. *)
From Verif Require Import Base BaseLemmas FloatModel MeshModel MeshSpec MeshAdj MeshEdits FaceModel FaceSpec FaceUseSpec SplitModel SplitSpec SplitProofs ConvertModel ConvertSpec ConvertProofs ConvertMain.

Definition shift (p : Z * Z) (d : direction) : Z * Z := (fst p + d_i d, snd p + d_j d)%Z.
Definition corner_at (o : Z * Z) (x : bool * bool) : Z * Z := (fst o + Z.b2z (fst x), snd o + Z.b2z (snd x))%Z.
Lemma direction_ok d o : In d directions -> let u := corner_at o (d_from d) in let v := corner_at o (d_to d) in
  beside u v /\ beside u (shift u d) /\ beside v (shift v d) /\ beside (shift u d) (shift v d) /\ u <> shift v d /\ v <> shift u d.
Proof.
  destruct o as [i j]. intros [<-|[<-|[<-|[<-|[]]]]]; unfold beside, corner_at, shift; cbn -[Z.abs Z.add Z.sub]; repeat match goal with |- _ /\ _ => split end; try lia; intros H; injection H as H1 H2; lia.
Qed.
Lemma direction_low d p B : In d directions -> (- B <= fst p -> - B <= snd p -> - (B + 1) <= fst (shift p d) /\ - (B + 1) <= snd (shift p d))%Z.
Proof. intros [<-|[<-|[<-|[<-|[]]]]]; cbn -[Z.add Z.opp]; lia. Qed.

Section Step.
  Variable m : mesh.
  Variable f : faces.
  Hypothesis C : consistent m.
  Hypothesis A : adjacency_exact m.
  Hypothesis U : usable m f.
  Hypothesis P : proper_cells m f.
  Hypothesis NB : no_bare_edges m f.

  Definition unchanged (s s' : conversion) : Prop := (forall n, grid_pos s' n = grid_pos s n) /\ (forall p, cell_at s' p = cell_at s p) /\ forall k, raw_ok s k -> raw_ok s' k.
  Lemma unchanged_inv s s' : unchanged s s' -> inv m s -> inv m s'.
  Proof.
    intros (H1 & H2 & H3) I. constructor.
    - apply H3, (iv_raw m s I).
    - intros p n. rewrite H1, H2. apply (iv_map m s I).
    - intros n p. rewrite H1, H2. apply (iv_pos m s I).
    - intros p q a b. rewrite !H2. apply (iv_join m s I).
  Qed.
  Lemma unchanged_refl s : unchanged s s.
  Proof. split; [reflexivity|]. split; [reflexivity|auto]. Qed.
  Definition fits (s : conversion) (c : nat) (p : Z * Z) : Prop :=
    (grid_pos s c = None \/ grid_pos s c = Some p) /\ forall q n, beside p q -> cell_at s q = Some n -> connects m f c n.
  Definition beyond (e face : nat) : option nat := across (nth_error (faces_with f e) 0, nth_error (faces_with f e) 1) (Some face).

  (** What one step may do *)
  Record crossed (s s' : conversion) (face first second nf : nat) (d : direction) (vis : list bool) (ns : list nat) (a b c c' : nat) (pa pb : Z * Z) : Prop := {
    cr_first : (a = first /\ b = second) \/ (a = second /\ b = first);
    cr_face : exists e, find_edge m (Some first) (Some second) = Ok (Some e) /\ beyond e face = Some nf /\ In nf (faces_with f e);
    cr_new : nth_error vis nf = Some false;
    cr_quad : quad_nodes f nf ns;
    cr_cycle : rotated ns a b c c';
    cr_distinct : NoDup [a; b; c; c'];
    cr_ab : neighbour m a b; cr_bc : neighbour m b c; cr_cd : neighbour m c c'; cr_da : neighbour m c' a;
    cr_pa : grid_pos s a = Some pa; cr_pb : grid_pos s b = Some pb;
    cr_fc : fits s c (shift pb d); cr_fd : fits s c' (shift pa d);
    cr_pos : forall n, grid_pos s' n = if n =? c' then Some (shift pa d) else if n =? c then Some (shift pb d) else grid_pos s n;
    cr_map : forall r, cell_at s' r = if pos_eqb r (shift pa d) then Some c' else if pos_eqb r (shift pb d) then Some c else cell_at s r;
    cr_raw : raw_ok s' (length (m_nodes m)) }.
  Definition blocked (s : conversion) (face first second : nat) (d : direction) (vis : list bool) : Prop :=
    forall e nf ns a b c c' pa pb, find_edge m (Some first) (Some second) = Ok (Some e) -> length (faces_with f e) = 2 -> beyond e face = Some nf -> nth_error vis nf = Some false -> quad_nodes f nf ns ->
      rotated ns a b c c' -> ((a = first /\ b = second) \/ (a = second /\ b = first)) -> grid_pos s a = Some pa -> grid_pos s b = Some pb -> fits s c (shift pb d) -> fits s c' (shift pa d) -> False.

  Lemma rotated_nodup ns a b c d : rotated ns a b c d -> NoDup ns -> NoDup [a; b; c; d].
  Proof.
    assert (X : forall x y z w : nat, NoDup [x; y; z; w] -> NoDup [y; z; w; x]).
    { intros x y z w H. apply (Permutation.Permutation_NoDup (l := [x; y; z; w])); [|exact H]. apply (Permutation.Permutation_cons_append [y; z; w] x). }
    intros [->|[->|[->| ->]]] H; auto.
  Qed.
  Lemma rotated_same ns a b c d c2 d2 : rotated ns a b c d -> rotated ns a b c2 d2 -> NoDup ns -> c = c2 /\ d = d2.
  Proof.
    intros R1 R2 D. pose proof (rotated_nodup _ _ _ _ _ R1 D) as D1. assert (DD : a <> b /\ a <> c /\ a <> d /\ b <> c /\ b <> d /\ c <> d).
    { clear - D1. repeat match goal with H : NoDup _ |- _ => inversion H; clear H; subst end. cbn in *. intuition. }
    unfold rotated in R1. destruct R1 as [->|[->|[->| ->]]]; destruct R2 as [E|[E|[E|E]]]; injection E; intros; subst; intuition congruence.
  Qed.
  Lemma rotated_flip ns a b c d c2 d2 : rotated ns a b c d -> rotated ns b a c2 d2 -> NoDup ns -> False.
  Proof.
    intros R1 R2 D. pose proof (rotated_nodup _ _ _ _ _ R1 D) as D1. assert (DD : a <> b /\ a <> c /\ a <> d /\ b <> c /\ b <> d /\ c <> d).
    { clear - D1. repeat match goal with H : NoDup _ |- _ => inversion H; clear H; subst end. cbn in *. intuition. }
    unfold rotated in R1. destruct R1 as [->|[->|[->| ->]]]; destruct R2 as [E|[E|[E|E]]]; injection E; intros; subst; intuition congruence.
  Qed.

  Lemma find_joined a b e : a < length (m_nodes m) -> find_edge m (Some a) (Some b) = Ok (Some e) -> e < length (m_edges m) /\ joins (edge_at m e) a b.
  Proof.
    intros Ha H. destruct (find_edge_ok m a b C Ha) as (r & Hr & X). rewrite H in Hr. injection Hr as <-. destruct X as (H1 & H2 & H3). split; [exact H2|].
    assert (H1' : In (Some e) (row_of m a)) by (rewrite <- (firstn_skipn (degree_of m a) (row_of m a)); apply in_or_app; now left). destruct (adj_sound m A a (Some e) Ha H1') as (e' & o & Ee & _ & J). injection Ee as <-.
    assert (o = b) as ->; [|exact J]. pose proof (other_end _ _ _ J) as Ho. change (edge_at m e) with (MeshUndo.ge m e) in Ho. congruence.
  Qed.

  Lemma neighbouring_ok s face loc d vis o first second : inv m s -> In d directions -> length vis = num_faces f ->
    loc (fst (d_from d)) (snd (d_from d)) = Some first -> loc (fst (d_to d)) (snd (d_to d)) = Some second ->
    grid_pos s first = Some (corner_at o (d_from d)) -> grid_pos s second = Some (corner_at o (d_to d)) ->
    (forall p, p = corner_at o (d_from d) \/ p = corner_at o (d_to d) -> real (shift p d)) ->
    exists r s', neighbouring m f face loc d vis s = Ok (r, s') /\
      ((r = None /\ unchanged s s' /\ blocked s face first second d vis) \/
       exists nf ns a b c c' pa pb, r = Some nf /\ crossed s s' face first second nf d vis ns a b c c' pa pb).
  Proof.
    intros I Hd Lv L1 L2 P1 P2 Real. pose proof (iv_raw m s I) as Raw. unfold neighbouring. rewrite L1, L2.
    assert (K : forall n p, grid_pos s n = Some p -> n < length (m_nodes m)).
    { intros n [i j] H. destruct (pos_get _ _ _ _ H) as (_ & H' & _). destruct Raw as (<- & _). apply nth_error_Some. congruence. }
    destruct (find_edge_ok m first second C (K _ _ P1)) as (r & Hr & _). rewrite Hr. cbn [bind]. destruct r as [e|].
    2:{ exists None, s. split; [reflexivity|]. left. split; [reflexivity|]. split; [apply unchanged_refl|]. intros e; intros. congruence. }
    destruct (find_joined first second e (K _ _ P1) Hr) as (He & Je). destruct U as ((T1 & T2 & T3 & T4 & T5) & _). destruct (T5 e He) as (W & W1 & W2).
    unfold vget at 1. rewrite W1. cbn [bind]. destruct (Nat.ltb_spec (length (faces_with f e)) 2) as [Lt|Ge].
    { exists None, s. split; [reflexivity|]. left. split; [reflexivity|]. split; [apply unchanged_refl|]. intros e0 nf; intros. rewrite Hr in H. injection H as <-. lia. }
    unfold vget at 1. rewrite W2. cbn [bind]. fold (beyond e face). assert (Hb : exists nf, beyond e face = Some nf /\ In nf (faces_with f e)).
    { unfold beyond, across. cbn [fst snd]. destruct (faces_with f e) as [|q0 [|q1 qs]] eqn:Ew; cbn in Ge; try lia. cbn [nth_error]. destruct (eq_idx _ _); [exists q1|exists q0]; split; cbn; auto. }
    destruct Hb as (nf & Hb & Hin). rewrite Hb. cbn [vget_idx]. destruct (with_lt m f U e nf Hin) as (Lnf & _). unfold vget at 1.
    destruct (nth_error vis nf) as [seen|] eqn:Ev; [|apply nth_error_None in Ev; lia]. cbn [bind]. destruct seen.
    { exists None, s. split; [reflexivity|]. left. split; [reflexivity|]. split; [apply unchanged_refl|]. intros e0 nf0; intros. rewrite Hr in H. injection H as <-. congruence. }
    destruct (count_read m f U nf Lnf) as (k & Hk). unfold vget at 1. rewrite Hk. cbn [bind]. destruct (Nat.eqb_spec k 4) as [->|Nk]; cbn [negb].
    2:{ exists None, s. split; [reflexivity|]. left. split; [reflexivity|]. split; [apply unchanged_refl|]. intros e0 nf0; intros. rewrite Hr in H. injection H as <-. rewrite Hb in H1. injection H1 as <-.
      destruct (quad_facts m f U P nf ns H3) as (_ & _ & _ & _ & _ & _ & Hk'). congruence. }
    destruct (quad_of_count m f U nf Hk) as (ns & Hq). destruct (around m f U P nf e ns Hin Hq) as (es & here & next & prev & a & b & c & c' & He' & Hh & Hn & Hp & Ln & Lp & F1 & F2 & J1 & J2 & J3 & J4 & D & Rot).
    unfold vget at 1. rewrite He'. cbn [bind]. rewrite Hh, Hn. cbn [bind]. rewrite F1. cbn [bind]. rewrite (proj2 (edge_read m next Ln)). cbn [bind].
    assert (AB : (a = first /\ b = second) \/ (a = second /\ b = first)) by (destruct Je as [Je|Je], J1 as [J1|J1]; rewrite Je in J1; injection J1 as <- <-; auto).
    pose proof (direction_ok d o Hd) as DO. cbv zeta in DO. set (u := corner_at o (d_from d)) in *. set (v := corner_at o (d_to d)) in *.
    assert (Q : exists pa pb, grid_pos s a = Some pa /\ grid_pos s b = Some pb /\ real (shift pa d) /\ real (shift pb d) /\ beside (shift pb d) (shift pa d)).
    { destruct AB as [(-> & ->)|(-> & ->)]; [exists u, v|exists v, u]; (split; [assumption|]; split; [assumption|]; split; [apply Real; auto|]; split; [apply Real; auto|]); [apply beside_sym; tauto|tauto]. }
    destruct Q as (pa & pb & Pa & Pb & Ra & Rb & Bab). destruct pa as [i2 j2], pb as [i1 j1]. rewrite (proj1 (pos_get _ _ _ _ Pb)). cbn [bind].
    rewrite (other_end _ _ _ J2). rewrite Hp. cbn [bind]. rewrite F2. cbn [bind]. rewrite (proj2 (edge_read m prev Lp)). cbn [bind]. rewrite (proj1 (pos_get _ _ _ _ Pa)). cbn [bind]. rewrite (other_end _ _ _ J4).
    change (i1 + d_i d)%Z with (fst (shift (i1, j1) d)). change (j1 + d_j d)%Z with (snd (shift (i1, j1) d)). change (i2 + d_i d)%Z with (fst (shift (i2, j2) d)). change (j2 + d_j d)%Z with (snd (shift (i2, j2) d)).
    set (pa := (i2, j2)) in *. set (pb := (i1, j1)) in *. set (p := shift pb d) in *. set (q := shift pa d) in *.
    assert (Lc : c < length (m_nodes m)) by (eapply (joins_known m C next b c); eauto). assert (Lc' : c' < length (m_nodes m)) by (eapply (joins_known m C prev a c'); eauto).
    destruct (raw_read s _ c Raw Lc) as (k1 & l1 & R1 & _). destruct (raw_read s _ c' Raw Lc') as (k2 & l2 & R2 & _). rewrite R1. cbn [bind]. rewrite R2. cbn [bind].
    assert (Blk : (fits s c p -> fits s c' q -> False) -> blocked s face first second d vis).
    { intros X e0 nf0 ns0 a0 b0 c0 d0 pa0 pb0 G1 G2 G3 G4 G5 G6 G7 G8 G9 G10 G11. rewrite Hr in G1. injection G1 as <-. rewrite Hb in G3. injection G3 as <-.
      assert (ns0 = ns) as -> by (destruct G5, Hq; congruence). destruct (quad_facts m f U P nf ns Hq) as (_ & _ & _ & Dn & _).
      assert (AA : a0 = a /\ b0 = b).
      { destruct AB as [(-> & ->)|(-> & ->)], G7 as [(-> & ->)|(-> & ->)]; auto; exfalso; eapply rotated_flip; eauto. }
      destruct AA as (-> & ->). destruct (rotated_same _ _ _ _ _ _ _ Rot G6 Dn) as (<- & <-). rewrite Pa in G8. rewrite Pb in G9. injection G8 as <-. injection G9 as <-. apply X; assumption. }
    destruct (differs k1 (fst p) || differs l1 (snd p) || differs k2 (fst q) || differs l2 (snd q)) eqn:Edf.
    { exists None, s. split; [reflexivity|]. left. split; [reflexivity|]. split; [apply unchanged_refl|]. apply Blk. intros (X1 & _) (X2 & _).
      destruct (disagree s _ c k1 l1 p Raw Lc R1 X1) as (Y1 & Y2). destruct (disagree s _ c' k2 l2 q Raw Lc' R2 X2) as (Y3 & Y4). rewrite Y1, Y2, Y3, Y4 in Edf. discriminate. }
    apply orb_false_iff in Edf as (Edf & E4). apply orb_false_iff in Edf as (Edf & E3). apply orb_false_iff in Edf as (E1 & E2).
    pose proof (agree s _ c k1 l1 p Raw Lc R1 E1 E2 Rb) as Ac. pose proof (agree s _ c' k2 l2 q Raw Lc' R2 E3 E4 Ra) as Ad.
    destruct (valid_ok m f A U NB s c (fst p) (snd p) Lc) as (v1 & -> & I1). cbn [bind]. set (s1 := Conversion _ _ _).
    assert (C1 : forall r, cell_at s1 r = cell_at s r) by (intros r; unfold cell_at, s1; cbn [c_map]; apply resize_val).
    assert (Un1 : unchanged s s1) by (split; [reflexivity|]; split; [exact C1|auto]).
    assert (V1 : v1 = true <-> forall r n, beside p r -> cell_at s r = Some n -> connects m f c n).
    { rewrite I1. split; [intros H [i j] n Hb' Hc; apply (H i j n); [now destruct p|exact Hc]|intros H i j n Hb' Hc; apply (H (i, j) n); [now destruct p|exact Hc]]. }
    destruct v1; cbn [negb].
    2:{ exists None, s1. split; [reflexivity|]. left. split; [reflexivity|]. split; [exact Un1|]. apply Blk. intros (_ & X) _. discriminate (proj2 V1 X). }
    destruct (valid_ok m f A U NB s1 c' (fst q) (snd q) Lc') as (v2 & -> & I2). cbn [bind]. set (s2 := Conversion _ _ _).
    assert (C2 : forall r, cell_at s2 r = cell_at s r) by (intros r; unfold cell_at at 1, s2; cbn [c_map]; rewrite resize_val; apply (C1 r)).
    assert (Un2 : unchanged s s2) by (split; [reflexivity|]; split; [exact C2|auto]).
    assert (V2 : v2 = true <-> forall r n, beside q r -> cell_at s r = Some n -> connects m f c' n).
    { rewrite I2. split; [intros H [i j] n Hb' Hc; apply (H i j n); [now destruct q|change (cell_at s1 (i, j) = Some n); now rewrite C1]|intros H i j n Hb' Hc; apply (H (i, j) n); [now destruct q|rewrite <- C1; exact Hc]]. }
    destruct v2; cbn [negb].
    2:{ exists None, s2. split; [reflexivity|]. left. split; [reflexivity|]. split; [exact Un2|]. apply Blk. intros _ (_ & X). discriminate (proj2 V2 X). }
    assert (Raw2 : raw_ok s2 (length (m_nodes m))) by (apply Un2, Raw).
    destruct (set_position_ok s2 _ c p Raw2 Lc Rb) as (s3 & -> & M3 & Raw3 & G3). cbn [bind]. destruct (set_position_ok s3 _ c' q Raw3 Lc' Ra) as (s4 & -> & M4 & Raw4 & G4). cbn [bind].
    assert (In2 : in_range (c_map s2) (snd p) (fst p) = true /\ in_range (c_map s2) (snd q) (fst q) = true).
    { unfold s2. cbn [c_map]. split; [apply resize_keeps; unfold s1; cbn [c_map]|]; apply resize_in; lia. }
    destruct (set_mapping_ok s4 c p) as (s5 & -> & X5 & Y5 & Z5 & G5); [rewrite M4, M3; apply In2|]. cbn [bind]. destruct (set_mapping_ok s5 c' q) as (s6 & -> & X6 & Y6 & Z6 & G6); [rewrite Z5, M4, M3; apply In2|]. cbn [bind].
    exists (Some nf), s6. split; [reflexivity|]. right. exists nf, ns, a, b, c, c', pa, pb. split; [reflexivity|]. constructor; auto.
    - exists e. auto.
    - now exists e.
    - now exists next.
    - exists prev. split; [exact Lp|]. now apply joins_sym.
    - split; [exact Ac|]. apply V1. reflexivity.
    - split; [exact Ad|]. apply V2. reflexivity.
    - intros n. rewrite (same_pos s5 s6 X6 Y6), (same_pos s4 s5 X5 Y5), G4, G3. reflexivity.
    - intros r. rewrite G6, G5. unfold cell_at at 1. rewrite M4, M3. fold (cell_at s2 r). rewrite C2. reflexivity.
    - apply (same_raw s5 s6 _ X6 Y6), (same_raw s4 s5 _ X5 Y5), Raw4.
  Qed.
End Step.

(** Proofs about bounding boxes. *)
From Coq Require Import Reals Lra.
From Flocq Require Import Core.Core IEEE754.BinarySingleNaN.
From Verif Require Import Base BaseLemmas FloatModel FloatReal PolyModel PolySpec.

Lemma dbl_max_finite : finite dbl_max.
Proof. split; [vm_compute; reflexivity|vm_compute; exact I]. Qed.
Lemma dbl_lowest_finite : finite dbl_lowest.
Proof. split; [vm_compute; reflexivity|vm_compute; exact I]. Qed.

Lemma val_dbl_max : val dbl_max = (bpow radix2 emax64 - bpow radix2 (emax64 - prec64))%R.
Proof.
  unfold val. replace dbl_max with (S754_finite false (2 ^ 53 - 1) 971) by (vm_compute; reflexivity).
  cbn [SF2R cond_Zopp]. unfold F2R. cbn [Fnum Fexp]. 
  replace (Z.pos (2 ^ 53 - 1)) with (2 ^ 53 - 1)%Z by (vm_compute; reflexivity).
  rewrite minus_IZR. change (2 ^ 53)%Z with (Zpower radix2 53). rewrite IZR_Zpower by lia.
  rewrite Rmult_minus_distr_r, <- bpow_plus, Rmult_1_l. reflexivity.
Qed.
Lemma val_dbl_lowest : val dbl_lowest = (- val dbl_max)%R.
Proof.
  unfold val. replace dbl_lowest with (S754_finite true (2 ^ 53 - 1) 971) by (vm_compute; reflexivity).
  replace dbl_max with (S754_finite false (2 ^ 53 - 1) 971) by (vm_compute; reflexivity).
  cbn [SF2R cond_Zopp]. rewrite <- F2R_Zopp. reflexivity.
Qed.

Lemma finite_bound x : finite x -> (val dbl_lowest <= val x <= val dbl_max)%R.
Proof.
  intros [Hx Fx]. rewrite val_dbl_lowest. apply Rabs_le_inv. rewrite val_dbl_max.
  pose proof (abs_B2R_le_emax_minus_prec prec64 emax64 prec64_gt_0 (SF2B x Hx)) as H.
  rewrite <- SF2R_B2SF, B2SF_SF2B in H. exact H.
Qed.

Lemma fmin_finite a b : finite a -> finite b -> finite (fmin a b) /\ val (fmin a b) = Rmin (val a) (val b).
Proof.
  intros Ha Hb. unfold fmin. pose proof (finite_lt b a Hb Ha) as H. destruct (SFltb b a).
  - split; [exact Hb|]. rewrite Rmin_right; [reflexivity|]. apply Rlt_le, H. reflexivity.
  - split; [exact Ha|]. rewrite Rmin_left; [reflexivity|]. apply Rnot_lt_le. intros Hc. apply H in Hc. discriminate.
Qed.
Lemma fmax_finite a b : finite a -> finite b -> finite (fmax a b) /\ val (fmax a b) = Rmax (val a) (val b).
Proof.
  intros Ha Hb. unfold fmax. pose proof (finite_lt a b Ha Hb) as H. destruct (SFltb a b).
  - split; [exact Hb|]. rewrite Rmax_right; [reflexivity|]. apply Rlt_le, H. reflexivity.
  - split; [exact Ha|]. rewrite Rmax_left; [reflexivity|]. apply Rnot_lt_le. intros Hc. apply H in Hc. discriminate.
Qed.

Lemma contains_spec b p : finite_box b -> finite_point p -> box_contains b p = true <-> in_box b p.
Proof.
  intros [[H1 H2] [H3 H4]] [H5 H6]. unfold box_contains, in_box. rewrite !andb_true_iff, !finite_le by assumption. tauto.
Qed.

Lemma negb_or4 a b c d : negb (a || b || c || d) = true <-> a = false /\ b = false /\ c = false /\ d = false.
Proof. destruct a, b, c, d; cbn; intuition congruence. Qed.
Lemma finite_ltf a b : finite a -> finite b -> SFltb a b = false <-> (val b <= val a)%R.
Proof.
  intros Ha Hb. pose proof (finite_lt a b Ha Hb) as H. destruct (SFltb a b).
  - split; [discriminate|]. intros Hc. assert (val a < val b)%R by (apply H; reflexivity). lra.
  - split; [|reflexivity]. intros _. apply Rnot_lt_le. intros Hc. apply H in Hc. discriminate.
Qed.

(** Two boxes with their corners the right way round overlap exactly if a point lies in both. *)
Lemma overlaps_spec a b : finite_box a -> finite_box b -> proper a -> proper b ->
  overlaps a b = true <-> exists p, finite_point p /\ in_box a p /\ in_box b p.
Proof.
  intros [[A1 A2] [A3 A4]] [[B1 B2] [B3 B4]] [Pa1 Pa2] [Pb1 Pb2]. unfold overlaps. rewrite negb_or4, !finite_ltf by assumption. split.
  - intros (H1 & H2 & H3 & H4).
    destruct (fmax_finite _ _ A1 B1) as [F1 V1]. destruct (fmax_finite _ _ A2 B2) as [F2 V2].
    exists (Pt (fmax (px (lower a)) (px (lower b))) (fmax (py (lower a)) (py (lower b)))).
    split; [split; cbn; assumption|]. unfold in_box. cbn [px py]. rewrite V1, V2. unfold Rmax.
    destruct (Rle_dec _ _), (Rle_dec _ _); repeat split; lra.
  - intros (p & _ & [Hx Hy] & [Hx' Hy']). repeat split; lra.
Qed.

Lemma merge_spec a b : finite_box a -> finite_box b ->
  finite_box (merge_boxes a b) /\
  (forall p, in_box a p \/ in_box b p -> in_box (merge_boxes a b) p) /\
  (proper a -> proper b -> forall c, finite_box c -> (forall p, finite_point p -> in_box a p \/ in_box b p -> in_box c p) ->
     forall p, in_box (merge_boxes a b) p -> in_box c p).
Proof.
  intros [[A1 A2] [A3 A4]] [[B1 B2] [B3 B4]].
  destruct (fmin_finite _ _ A1 B1) as [F1 V1]. destruct (fmin_finite _ _ A2 B2) as [F2 V2].
  destruct (fmax_finite _ _ A3 B3) as [F3 V3]. destruct (fmax_finite _ _ A4 B4) as [F4 V4].
  split; [repeat split; cbn; first [apply F1|apply F2|apply F3|apply F4]|]. unfold in_box, merge_boxes. cbn [lower upper px py]. rewrite V1, V2, V3, V4.
  split.
  - intros p Hp. pose proof (Rmin_l (val (px (lower a))) (val (px (lower b)))). pose proof (Rmin_r (val (px (lower a))) (val (px (lower b)))).
    pose proof (Rmin_l (val (py (lower a))) (val (py (lower b)))). pose proof (Rmin_r (val (py (lower a))) (val (py (lower b)))).
    pose proof (Rmax_l (val (px (upper a))) (val (px (upper b)))). pose proof (Rmax_r (val (px (upper a))) (val (px (upper b)))).
    pose proof (Rmax_l (val (py (upper a))) (val (py (upper b)))). pose proof (Rmax_r (val (py (upper a))) (val (py (upper b)))).
    destruct Hp as [[Hx Hy]|[Hx Hy]]; repeat split; lra.
  - intros [Pa1 Pa2] [Pb1 Pb2] c Hc Hall p [Hx Hy].
    pose proof (Hall (lower a) (conj A1 A2) (or_introl (conj (conj (Rle_refl _) Pa1) (conj (Rle_refl _) Pa2)))) as [H1 H2].
    pose proof (Hall (lower b) (conj B1 B2) (or_intror (conj (conj (Rle_refl _) Pb1) (conj (Rle_refl _) Pb2)))) as [H3 H4].
    pose proof (Hall (upper a) (conj A3 A4) (or_introl (conj (conj Pa1 (Rle_refl _)) (conj Pa2 (Rle_refl _))))) as [H5 H6].
    pose proof (Hall (upper b) (conj B3 B4) (or_intror (conj (conj Pb1 (Rle_refl _)) (conj Pb2 (Rle_refl _))))) as [H7 H8].
    pose proof (Rmin_Rgt_l (val (px (lower a))) (val (px (lower b)))) as _.
    assert (M1 := Rmin_glb _ _ _ (proj1 H1) (proj1 H3)). assert (M2 := Rmin_glb _ _ _ (proj1 H2) (proj1 H4)).
    assert (M3 := Rmax_lub _ _ _ (proj2 H5) (proj2 H7)). assert (M4 := Rmax_lub _ _ _ (proj2 H6) (proj2 H8)).
    repeat split; lra.
Qed.

Lemma box_of_two_spec p q : finite_point p -> finite_point q ->
  finite_box (box_of_two p q) /\ proper (box_of_two p q) /\ in_box (box_of_two p q) p /\ in_box (box_of_two p q) q /\
  forall c, in_box c p -> in_box c q -> forall r, in_box (box_of_two p q) r -> in_box c r.
Proof.
  intros [P1 P2] [Q1 Q2].
  destruct (fmin_finite _ _ P1 Q1) as [F1 V1]. destruct (fmin_finite _ _ P2 Q2) as [F2 V2].
  destruct (fmax_finite _ _ P1 Q1) as [F3 V3]. destruct (fmax_finite _ _ P2 Q2) as [F4 V4].
  split; [repeat split; cbn; first [apply F1|apply F2|apply F3|apply F4]|].
  unfold in_box, proper, box_of_two. cbn [lower upper px py]. rewrite V1, V2, V3, V4. unfold Rmin, Rmax.
  destruct (Rle_dec (val (px p)) (val (px q))), (Rle_dec (val (py p)) (val (py q))); repeat split; lra.
Qed.

(** The loop over the points. *)
Lemma extend_fold l : forall b, finite_box b -> Forall finite_point l ->
  let c := fold_left extend_box l b in
  finite_box c /\ covers c l /\ (forall p, in_box b p -> in_box c p) /\
  (val (px (lower c)) <= val (px (lower b)) /\ val (py (lower c)) <= val (py (lower b)) /\
   val (px (upper b)) <= val (px (upper c)) /\ val (py (upper b)) <= val (py (upper c)))%R /\
  (val (px (lower c)) = val (px (lower b)) \/ exists p, In p l /\ is_valid p = true /\ val (px p) = val (px (lower c))) /\
  (val (py (lower c)) = val (py (lower b)) \/ exists p, In p l /\ is_valid p = true /\ val (py p) = val (py (lower c))) /\
  (val (px (upper c)) = val (px (upper b)) \/ exists p, In p l /\ is_valid p = true /\ val (px p) = val (px (upper c))) /\
  (val (py (upper c)) = val (py (upper b)) \/ exists p, In p l /\ is_valid p = true /\ val (py p) = val (py (upper c))).
Proof.
  induction l as [|q l IH]; intros b Hb Hl; cbn [fold_left].
  - cbn zeta. split; [exact Hb|]. split; [intros p []|]. split; [auto|]. split; [repeat split; lra|]. auto.
  - inversion Hl as [|? ? Hq Hl']; subst.
    assert (Hstep : finite_box (extend_box b q) /\
      (val (px (lower (extend_box b q))) <= val (px (lower b)) /\ val (py (lower (extend_box b q))) <= val (py (lower b)) /\
       val (px (upper b)) <= val (px (upper (extend_box b q))) /\ val (py (upper b)) <= val (py (upper (extend_box b q))))%R /\
      (is_valid q = true -> in_box (extend_box b q) q) /\
      (val (px (lower (extend_box b q))) = val (px (lower b)) \/ is_valid q = true /\ val (px q) = val (px (lower (extend_box b q)))) /\
      (val (py (lower (extend_box b q))) = val (py (lower b)) \/ is_valid q = true /\ val (py q) = val (py (lower (extend_box b q)))) /\
      (val (px (upper (extend_box b q))) = val (px (upper b)) \/ is_valid q = true /\ val (px q) = val (px (upper (extend_box b q)))) /\
      (val (py (upper (extend_box b q))) = val (py (upper b)) \/ is_valid q = true /\ val (py q) = val (py (upper (extend_box b q))))).
    { destruct Hb as [[B1 B2] [B3 B4]], Hq as [Q1 Q2].
      destruct (fmin_finite _ _ B1 Q1) as [F1 V1]. destruct (fmin_finite _ _ B2 Q2) as [F2 V2].
      destruct (fmax_finite _ _ B3 Q1) as [F3 V3]. destruct (fmax_finite _ _ B4 Q2) as [F4 V4].
      unfold extend_box. destruct (is_valid q).
      - split; [repeat split; cbn; first [apply F1|apply F2|apply F3|apply F4]|]. unfold in_box. cbn [lower upper px py]. rewrite V1, V2, V3, V4.
        pose proof (Rmin_l (val (px (lower b))) (val (px q))). pose proof (Rmin_r (val (px (lower b))) (val (px q))).
        pose proof (Rmin_l (val (py (lower b))) (val (py q))). pose proof (Rmin_r (val (py (lower b))) (val (py q))).
        pose proof (Rmax_l (val (px (upper b))) (val (px q))). pose proof (Rmax_r (val (px (upper b))) (val (px q))).
        pose proof (Rmax_l (val (py (upper b))) (val (py q))). pose proof (Rmax_r (val (py (upper b))) (val (py q))).
        split; [repeat split; lra|]. split; [intros _; repeat split; lra|].
        unfold Rmin, Rmax. repeat split; (destruct (Rle_dec _ _); [first [left; reflexivity|right; split; reflexivity]|first [left; reflexivity|right; split; reflexivity]]).
      - split; [repeat split; first [apply B1|apply B2|apply B3|apply B4]|]. split; [repeat split; lra|]. split; [discriminate|]. auto. }
    destruct Hstep as (Hfb & (Hm1 & Hm2 & Hm3 & Hm4) & Hin & S1 & S2 & S3 & S4).
    destruct (IH (extend_box b q) Hfb Hl') as (Hc & Hcov & Hmono & (M1 & M2 & M3 & M4) & E1 & E2 & E3 & E4).
    set (c := fold_left extend_box l (extend_box b q)) in *. cbn zeta.
    split; [exact Hc|]. split; [intros p [<-|Hp] Hv; [apply Hmono, Hin, Hv|apply Hcov; assumption]|].
    split; [intros p [Hx Hy]; apply Hmono; split; lra|]. split; [repeat split; lra|].
    repeat split.
    + destruct E1 as [E|(p & Hp & Hv & He)]; [|right; exists p; cbn; auto].
      destruct S1 as [S|[Hv S]]; [left; congruence|right; exists q; cbn; intuition congruence].
    + destruct E2 as [E|(p & Hp & Hv & He)]; [|right; exists p; cbn; auto].
      destruct S2 as [S|[Hv S]]; [left; congruence|right; exists q; cbn; intuition congruence].
    + destruct E3 as [E|(p & Hp & Hv & He)]; [|right; exists p; cbn; auto].
      destruct S3 as [S|[Hv S]]; [left; congruence|right; exists q; cbn; intuition congruence].
    + destruct E4 as [E|(p & Hp & Hv & He)]; [|right; exists p; cbn; auto].
      destruct S4 as [S|[Hv S]]; [left; congruence|right; exists q; cbn; intuition congruence].
Qed.

Lemma box_of_fold points : points <> [] -> box_of points = Ok (fold_left extend_box points non_overlapping).
Proof.
  intros Hne. unfold box_of, box_of_slice. assert (Hl : 0 < length points) by (destruct points; [congruence|cbn; lia]).
  rewrite (proj2 (Nat.ltb_lt _ _) Hl). replace (length points - 1 + 1 - 0) with (length points) by lia.
  enough (H : forall post pre b, fold_out (fun b i => let! p := vget (pre ++ post) i in Ok (extend_box b p)) (seq (length pre) (length post)) b =
              Ok (fold_left extend_box post b)) by apply (H points []).
  induction post as [|p post IH]; intros pre b; [reflexivity|]. cbn [length seq fold_out fold_left].
  assert (Hg : vget (pre ++ p :: post) (length pre) = Ok p) by (apply vget_ok; rewrite nth_error_app2, Nat.sub_diag by lia; reflexivity).
  rewrite Hg. cbn [bind]. specialize (IH (pre ++ [p]) (extend_box b p)). rewrite app_length in IH. cbn [length] in IH.
  rewrite Nat.add_1_r in IH. rewrite <- app_assoc in IH. exact IH.
Qed.

Lemma non_overlapping_finite : finite_box non_overlapping.
Proof. repeat split; cbn; first [apply dbl_max_finite|apply dbl_lowest_finite]. Qed.

Lemma box_of_spec points : points <> [] -> Forall finite_point points ->
  exists b, box_of points = Ok b /\ finite_box b /\ covers b points /\
    ((exists p, In p points /\ is_valid p = true) -> proper b /\ attained b points).
Proof.
  intros Hne Hf. exists (fold_left extend_box points non_overlapping). split; [apply box_of_fold, Hne|].
  destruct (extend_fold points non_overlapping non_overlapping_finite Hf) as (Hc & Hcov & _ & (M1 & M2 & M3 & M4) & E1 & E2 & E3 & E4).
  split; [exact Hc|]. split; [exact Hcov|]. intros (p & Hp & Hv).
  set (c := fold_left extend_box points non_overlapping) in *.
  pose proof (Hcov p Hp Hv) as [Hx Hy]. split; [split; lra|].
  assert (Hfp : finite_point p) by (rewrite Forall_forall in Hf; auto).
  destruct Hfp as [Fx Fy]. pose proof (finite_bound _ Fx) as Bx. pose proof (finite_bound _ Fy) as By.
  cbn [non_overlapping lower upper px py] in *.
  repeat split.
  - destruct E1 as [E|E]; [exists p; split; [exact Hp|split; [exact Hv|lra]]|exact E].
  - destruct E2 as [E|E]; [exists p; split; [exact Hp|split; [exact Hv|lra]]|exact E].
  - destruct E3 as [E|E]; [exists p; split; [exact Hp|split; [exact Hv|lra]]|exact E].
  - destruct E4 as [E|E]; [exists p; split; [exact Hp|split; [exact Hv|lra]]|exact E].
Qed.

Lemma box_of_smallest points b c : Forall finite_point points -> (exists p, In p points /\ is_valid p = true) -> box_of points = Ok b ->
  covers c points -> forall p, in_box b p -> in_box c p.
Proof.
  intros Hf Hex Hb Hc p [Hx Hy]. assert (Hne : points <> []) by (destruct Hex as (q & Hq & _); intros ->; destruct Hq).
  destruct (box_of_spec points Hne Hf) as (b' & Hb' & _ & _ & Hat). rewrite Hb in Hb'. injection Hb' as <-.
  destruct (Hat Hex) as [_ ((p1 & I1 & V1 & E1) & (p2 & I2 & V2 & E2) & (p3 & I3 & V3 & E3) & (p4 & I4 & V4 & E4))].
  pose proof (Hc p1 I1 V1) as [G1 _]. pose proof (Hc p2 I2 V2) as [_ G2]. pose proof (Hc p3 I3 V3) as [G3 _]. pose proof (Hc p4 I4 V4) as [_ G4].
  split; lra.
Qed.

Lemma box_of_nil : box_of [] = Ok everything.
Proof. reflexivity. Qed.

Lemma box_of_none points : points <> [] -> (forall p, In p points -> is_valid p = false) -> box_of points = Ok non_overlapping.
Proof.
  intros Hne Hv. rewrite box_of_fold by exact Hne. f_equal. clear Hne. revert Hv. generalize non_overlapping.
  induction points as [|p l IH]; intros b Hv; [reflexivity|]. cbn [fold_left]. unfold extend_box at 2. rewrite (Hv p) by (left; reflexivity).
  apply IH. intros q Hq. apply Hv. right. exact Hq.
Qed.

Lemma non_overlapping_empty p : finite_point p -> ~ in_box non_overlapping p.
Proof.
  intros _ [[H1 H2] _]. cbn [non_overlapping lower upper px py] in *.
  assert (val dbl_lowest < val dbl_max)%R by (apply finite_lt; [apply dbl_lowest_finite|apply dbl_max_finite|vm_compute; reflexivity]). lra.
Qed.
Lemma everything_full p : finite_point p -> in_box everything p.
Proof. intros [Fx Fy]. split; cbn [everything lower upper px py]; apply finite_bound; assumption. Qed.

(** The box meant to overlap nothing overlaps the box that contains everything. *)
Lemma overlap_refuted : ~ (forall a b, finite_box a -> finite_box b ->
  overlaps a b = true <-> exists p, finite_point p /\ in_box a p /\ in_box b p).
Proof.
  intros H. assert (Hev : finite_box everything) by (repeat split; cbn; first [apply dbl_max_finite|apply dbl_lowest_finite]).
  destruct (proj1 (H non_overlapping everything non_overlapping_finite Hev)) as (p & Hp & Hin & _); [vm_compute; reflexivity|].
  exact (non_overlapping_empty p Hp Hin).
Qed.

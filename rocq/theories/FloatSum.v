(** Addition and multiplication of doubles that are not negative: monotone, and never below the arguments of a sum. *)
From Coq Require Import Reals Lra.
From Flocq Require Import Core.Core IEEE754.BinarySingleNaN IEEE754.PrimFloat.
From Verif Require Import Base FloatModel FloatReal PolyModel BoxProofs LandSpec.

Lemma normalize_equiv m e szero : SpecFloat.binary_normalize prec64 emax64 m e szero = B2SF (BinarySingleNaN.binary_normalize prec64 emax64 prec64_gt_0 prec64_lt_emax64 mode_NE m e szero).
Proof.
  destruct m as [|p|p]; [reflexivity| |]; cbn [SpecFloat.binary_normalize BinarySingleNaN.binary_normalize]; rewrite B2SF_SF2B; apply binary_round_equiv.
Qed.
Lemma fadd_plus a b (Ha : is_double a) (Hb : is_double b) : fadd a b = B2SF (Bplus mode_NE (SF2B a Ha) (SF2B b Hb)).
Proof.
  destruct a as [sa|sa| |sa ma ea], b as [sb|sb| |sb mb eb]; try reflexivity; try (cbn; now destruct (Bool.eqb sa sb)).
  apply normalize_equiv.
Qed.
Lemma fmul_mult a b (Ha : is_double a) (Hb : is_double b) : fmul a b = B2SF (Bmult mode_NE (SF2B a Ha) (SF2B b Hb)).
Proof.
  destruct a as [sa|sa| |sa ma ea], b as [sb|sb| |sb mb eb]; try reflexivity.
  cbn. rewrite B2SF_SF2B. apply binary_round_aux_equiv.
Qed.

Local Open Scope R_scope.
(** The value, with infinity just beyond the largest double. *)
Definition top : R := bpow radix2 emax64.
Definition ext (x : double) : R := match x with S754_infinity _ => top | _ => val x end.
Local Notation rnd := (round radix2 (SpecFloat.fexp prec64 emax64) (round_mode mode_NE)).

Lemma top_pos : 0 < top.
Proof. apply bpow_gt_0. Qed.
Lemma zero_val s : val (S754_zero s) = 0.
Proof. reflexivity. Qed.
Lemma val_lt_top x : finite x -> val x < top.
Proof.
  intros H. apply finite_bound in H. assert (val dbl_max < top); [|lra]. rewrite val_dbl_max. unfold top. pose proof (bpow_gt_0 radix2 (emax64 - prec64)). lra.
Qed.
(** Good doubles: a zero, infinity or a positive number. *)
Lemma good_cases x : good x -> (finite x /\ 0 <= val x) \/ x = S754_infinity false.
Proof.
  intros (D & L). unfold xle in L. change (double_of 0 0) with (S754_zero false) in L. destruct x as [s|[|]| |s m e]; cbn [xlt xeq] in L; rewrite ?zero_val in L.
  - left. split; [split; [exact D|exact I]|]. rewrite zero_val. lra.
  - destruct L; easy.
  - now right.
  - destruct L; easy.
  - left. split; [split; [exact D|exact I]|]. destruct L as [L|L]; lra.
Qed.
Lemma good_of_finite x : finite x -> 0 <= val x -> good x.
Proof.
  intros (D & F) H. split; [exact D|]. unfold xle. change (double_of 0 0) with (S754_zero false). destruct x as [s| | |s m e]; try contradiction; cbn [xlt xeq]; rewrite ?zero_val.
  - right. reflexivity.
  - destruct H as [H|H]; [now left|right; exact H].
Qed.
Lemma good_inf : good (S754_infinity false).
Proof. split; [reflexivity|]. left. reflexivity. Qed.
Lemma ext_bounds x : good x -> 0 <= ext x <= top.
Proof.
  intros G. destruct (good_cases x G) as [(F & H)| ->]; [|cbn; pose proof top_pos; lra].
  assert (E : ext x = val x) by (destruct F as (_ & F); destruct x; try contradiction; reflexivity). rewrite E. pose proof (val_lt_top x F). lra.
Qed.
Lemma ext_finite x : finite x -> ext x = val x.
Proof. intros (_ & F). destruct x; try contradiction; reflexivity. Qed.
Lemma ltb_ext a b : good a -> good b -> SFltb a b = true <-> ext a < ext b.
Proof.
  intros Ga Gb. destruct (good_cases a Ga) as [(Fa & Ha)| ->], (good_cases b Gb) as [(Fb & Hb)| ->].
  - rewrite finite_lt by assumption. now rewrite (ext_finite a Fa), (ext_finite b Fb).
  - rewrite (ext_finite a Fa). cbn [ext]. split; [intros _; now apply val_lt_top|intros _]. apply ltb_spec; [apply Fa|reflexivity|]. destruct Fa as (_ & Fa). destruct a; try contradiction; reflexivity.
  - rewrite (ext_finite b Fb). cbn [ext]. split; [|intros H; pose proof (val_lt_top b Fb); lra]. intros H. apply ltb_spec in H; [|reflexivity|apply Fb]. destruct Fb as (_ & Fb). destruct b; try contradiction; cbn in H; contradiction.
  - cbn [ext]. split; [discriminate|lra].
Qed.
Lemma ltb_ext_false a b : good a -> good b -> SFltb a b = false <-> ext b <= ext a.
Proof. intros Ga Gb. pose proof (ltb_ext a b Ga Gb). destruct (SFltb a b); split; intros; try discriminate; try reflexivity; [|apply Rnot_lt_le; intros C; apply H in C; discriminate]. destruct H as (H & _). specialize (H eq_refl). lra. Qed.

#[local] Instance fexp64 : Valid_exp (SpecFloat.fexp prec64 emax64) := fexp_correct prec64 emax64 prec64_gt_0.
#[local] Instance rnd64 : Valid_rnd (round_mode mode_NE) := valid_rnd_round_mode mode_NE.
Lemma top_format : generic_format radix2 (SpecFloat.fexp prec64 emax64) top.
Proof. apply generic_format_bpow. unfold SpecFloat.fexp, SpecFloat.emin, prec64, emax64. lia. Qed.
Lemma val_format x : finite x -> generic_format radix2 (SpecFloat.fexp prec64 emax64) (val x).
Proof.
  intros (D & F). pose proof (generic_format_B2R prec64 emax64 (SF2B x D)) as H. rewrite <- SF2R_B2SF, B2SF_SF2B in H. exact H.
Qed.
Lemma ext_format x : good x -> generic_format radix2 (SpecFloat.fexp prec64 emax64) (ext x).
Proof. intros G. destruct (good_cases x G) as [(F & H)| ->]; [rewrite ext_finite by exact F; now apply val_format|apply top_format]. Qed.
Lemma is_double_B2SF (x : binary_float prec64 emax64) : is_double (B2SF x).
Proof. apply valid_binary_B2SF. Qed.

(** The sum, rounded, but not more than infinity. *)
Lemma fadd_ext a b : good a -> good b -> good (fadd a b) /\ ext (fadd a b) = Rmin top (rnd (ext a + ext b)).
Proof.
  intros Ga Gb. pose proof (ext_bounds a Ga) as Ba. pose proof (ext_bounds b Gb) as Bb. pose proof top_pos as Tp.
  assert (Big : forall x, top <= x -> Rmin top (rnd x) = top).
  { intros x Hx. apply Rmin_left. rewrite <- (round_generic radix2 (SpecFloat.fexp prec64 emax64) (round_mode mode_NE) top top_format) at 1. apply round_le; try typeclasses eauto. exact Hx. }
  destruct (good_cases a Ga) as [(Fa & Ha)| ->].
  2: { cbn [ext] in *. rewrite Big by lra. destruct (good_cases b Gb) as [((Db & Fb) & Hb)| ->]; [|split; [apply good_inf|reflexivity]]. destruct b; try contradiction; (split; [apply good_inf|reflexivity]). }
  destruct (good_cases b Gb) as [(Fb & Hb)| ->].
  2: { cbn [ext] in *. rewrite Big by lra. destruct Fa as (Da & Fa). destruct a; try contradiction; (split; [apply good_inf|reflexivity]). }
  rewrite (ext_finite a Fa), (ext_finite b Fb) in *.
  destruct Fa as (Da & Fa), Fb as (Db & Fb). rewrite (fadd_plus a b Da Db).
  pose proof (Bplus_correct prec64 emax64 _ _ mode_NE (SF2B a Da) (SF2B b Db)) as H. rewrite !is_finite_SF2B in H.
  rewrite <- !SF2R_B2SF, !B2SF_SF2B in H. fold (val a) (val b) in H. specialize (H ltac:(destruct a; try contradiction; reflexivity) ltac:(destruct b; try contradiction; reflexivity)).
  set (z := Bplus mode_NE (SF2B a Da) (SF2B b Db)) in *.
  assert (R0 : 0 <= rnd (val a + val b)).
  { rewrite <- (round_0 radix2 (SpecFloat.fexp prec64 emax64) (round_mode mode_NE)). apply round_le; try typeclasses eauto. lra. }
  rewrite Rabs_pos_eq in H by exact R0. destruct (Rlt_bool_spec (rnd (val a + val b)) (bpow radix2 emax64)) as [Lt|Ge].
  - destruct H as (H1 & H2 & _). rewrite Rmin_right by (unfold top; lra). fold (val (B2SF z)) in H1. 
    assert (Fz : finite (B2SF z)) by (split; [apply is_double_B2SF|]; destruct z; try discriminate H2; exact I).
    rewrite ext_finite by exact Fz. split; [|exact H1]. apply good_of_finite; [exact Fz|]. rewrite H1. exact R0.
  - destruct H as (H1 & H2). rewrite Rmin_left by exact Ge.
    assert (Sa : Bsign (SF2B a Da) = false).
    { destruct (Bsign (SF2B a Da)) eqn:S1; [|reflexivity]. exfalso.
      assert (Za : val a = 0). { destruct a as [s| | |s ma ea]; try contradiction; [apply zero_val|]. cbn in S1. subst s. unfold val, SF2R in Ha |- *. unfold F2R, Defs.F2R in *. cbn in Ha |- *.
        assert (IZR (Z.neg ma) < 0) by (apply IZR_lt; reflexivity). pose proof (bpow_gt_0 radix2 ea). nra. }
      assert (rnd (val a + val b) = val b). { rewrite Za, Rplus_0_l. apply round_generic; [typeclasses eauto|]. apply val_format. split; assumption. }
      assert (val b < top) by (apply val_lt_top; split; assumption). unfold top in *. lra. }
    rewrite Sa in H1. cbn in H1. rewrite H1. split; [apply good_inf|reflexivity].
Qed.
Lemma fadd_good a b : good a -> good b -> good (fadd a b).
Proof. intros Ga Gb. apply fadd_ext; assumption. Qed.
Lemma fadd_not_less a w : good a -> good w -> SFltb (fadd a w) a = false.
Proof.
  intros Ga Gw. destruct (fadd_ext a w Ga Gw) as (G & E). apply ltb_ext_false; auto. rewrite E. pose proof (ext_bounds a Ga). pose proof (ext_bounds w Gw). apply Rmin_glb; [lra|].
  rewrite <- (round_generic radix2 (SpecFloat.fexp prec64 emax64) (round_mode mode_NE) (ext a) (ext_format a Ga)) at 1. apply round_le; try typeclasses eauto. lra.
Qed.
Lemma fadd_mono a b w : good a -> good b -> good w -> SFltb a b = false -> SFltb (fadd a w) (fadd b w) = false.
Proof.
  intros Ga Gb Gw H. apply ltb_ext_false in H; auto. destruct (fadd_ext a w Ga Gw) as (G1 & E1), (fadd_ext b w Gb Gw) as (G2 & E2). apply ltb_ext_false; auto. rewrite E1, E2.
  assert (rnd (ext b + ext w) <= rnd (ext a + ext w)) by (apply round_le; try typeclasses eauto; lra). unfold Rmin. destruct (Rle_dec _ _), (Rle_dec _ _); lra.
Qed.
Lemma good_zero : good (double_of 0 0).
Proof. split; [reflexivity|]. right. reflexivity. Qed.
Lemma good_max : good dbl_max.
Proof. apply good_of_finite; [apply dbl_max_finite|]. rewrite val_dbl_max. unfold emax64, prec64. pose proof (bpow_le radix2 (1024 - 53) 1024 ltac:(lia)). lra. Qed.
Lemma good_le_trans a b c : good a -> good b -> good c -> SFltb b a = false -> SFltb c b = false -> SFltb c a = false.
Proof. intros Ga Gb Gc. rewrite !ltb_ext_false by assumption. lra. Qed.
Lemma good_lt_le a b c : good a -> good b -> good c -> SFltb a b = true -> SFltb c b = false -> SFltb a c = true.
Proof. intros Ga Gb Gc. rewrite !ltb_ext, ltb_ext_false by assumption. lra. Qed.
Lemma good_lt_not a b : good a -> good b -> SFltb a b = true -> SFltb b a = false.
Proof. intros Ga Gb. rewrite ltb_ext, ltb_ext_false by assumption. lra. Qed.
(** A product is not negative either, unless it is zero times infinity. *)
Lemma positive_sign x : is_double x -> 0 <= val x -> match x with S754_finite s _ _ => s = false | _ => True end.
Proof.
  intros D H. destruct x as [| | |[|] mx ex]; auto. exfalso. unfold val, SF2R in H. unfold F2R, Defs.F2R in *. cbn in H.
  assert (IZR (Z.neg mx) < 0) by (apply IZR_lt; reflexivity). pose proof (bpow_gt_0 radix2 ex). nra.
Qed.
Lemma fmul_good a b : good a -> good b -> fmul a b = S754_nan \/ good (fmul a b).
Proof.
  intros Ga Gb. destruct (good_cases a Ga) as [(Fa & Ha)| ->].
  2: { destruct (good_cases b Gb) as [((Db & Fb) & Hb)| ->]; [|right; apply good_inf]. pose proof (positive_sign b Db Hb) as Sb. destruct b as [s| | |s mb eb]; try contradiction; [now left|]. subst s. right. apply good_inf. }
  destruct (good_cases b Gb) as [(Fb & Hb)| ->].
  2: { destruct Fa as (Da & Fa). pose proof (positive_sign a Da Ha) as Sa. destruct a as [s| | |s ma ea]; try contradiction; [now left|]. subst s. right. apply good_inf. }
  right. destruct Fa as (Da & Fa), Fb as (Db & Fb). pose proof (positive_sign a Da Ha) as Sa. pose proof (positive_sign b Db Hb) as Sb. 
  pose proof (Bmult_correct prec64 emax64 _ _ mode_NE (SF2B a Da) (SF2B b Db)) as H. rewrite <- !SF2R_B2SF, !B2SF_SF2B in H. fold (val a) (val b) in H.
  assert (R0 : 0 <= rnd (val a * val b)).
  { rewrite <- (round_0 radix2 (SpecFloat.fexp prec64 emax64) (round_mode mode_NE)). apply round_le; try typeclasses eauto. apply Rmult_le_pos; assumption. }
  rewrite Rabs_pos_eq in H by exact R0. rewrite (fmul_mult a b Da Db). set (z := Bmult mode_NE (SF2B a Da) (SF2B b Db)) in *.
  destruct (Rlt_bool_spec (rnd (val a * val b)) (bpow radix2 emax64)) as [Lt|Ge].
  - destruct H as (H1 & H2 & _). rewrite !is_finite_SF2B in H2. replace (is_finite_SF a) with true in H2 by (destruct a; try contradiction; reflexivity). replace (is_finite_SF b) with true in H2 by (destruct b; try contradiction; reflexivity).
    assert (Fz : finite (B2SF z)) by (split; [apply is_double_B2SF|]; destruct z; try discriminate H2; exact I). apply good_of_finite; [exact Fz|]. fold (val (B2SF z)) in H1. rewrite H1. exact R0.
  - assert (Z0 : val a * val b = 0 -> False). { intros Z. rewrite Z, round_0 in Ge by typeclasses eauto. pose proof (bpow_gt_0 radix2 emax64). lra. }
    destruct a as [s| | |s ma ea]; try contradiction; [exfalso; apply Z0; rewrite zero_val; lra|]. destruct b as [s'| | |s' mb eb]; try contradiction; [exfalso; apply Z0; rewrite zero_val; lra|]. subst s s'.
    cbn [Bsign SF2B xorb] in H. rewrite H. apply good_inf.
Qed.
Lemma larger_good a b : good a -> is_double b -> good (larger a b).
Proof.
  intros Ga Db. unfold larger. destruct (SFltb a b) eqn:L; [|exact Ga]. apply ltb_spec in L; [|apply Ga|exact Db]. split; [exact Db|]. left.
  destruct (good_cases a Ga) as [(Fa & Ha)| ->].
  - change (double_of 0 0) with (S754_zero false). destruct Fa as (_ & Fa). destruct a; try contradiction; destruct b as [|[|]| |]; cbn [xlt] in L |- *; try contradiction; try discriminate; auto; rewrite ?zero_val in *; lra.
  - destruct b as [|[|]| |]; cbn in L; contradiction.
Qed.


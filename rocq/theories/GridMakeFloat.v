(** Division and square roots of doubles that are not negative; squares. *)
From Coq Require Import Reals Lra.
From Flocq Require Import Core.Core IEEE754.BinarySingleNaN IEEE754.PrimFloat.
From Verif Require Import Base FloatModel FloatReal PolyModel BoxProofs LandSpec FloatSum.

Local Open Scope R_scope.
Local Notation rnd := (round radix2 (SpecFloat.fexp prec64 emax64) (round_mode mode_NE)).
Local Notation fsqrt := (SFsqrt prec64 emax64).
#[local] Instance fexp64' : Valid_exp (SpecFloat.fexp prec64 emax64) := fexp_correct prec64 emax64 prec64_gt_0.
#[local] Instance rnd64' : Valid_rnd (round_mode mode_NE) := valid_rnd_round_mode mode_NE.

Lemma fdiv_div a b (Ha : is_double a) (Hb : is_double b) : fdiv a b = B2SF (Bdiv mode_NE (SF2B a Ha) (SF2B b Hb)).
Proof.
  destruct a as [sa|sa| |sa ma ea], b as [sb|sb| |sb mb eb]; try reflexivity.
  cbn [SF2B Bdiv]. rewrite B2SF_SF2B. unfold fdiv, SFdiv. destruct (SFdiv_core_binary prec64 emax64 (Z.pos ma) ea (Z.pos mb) eb) as [[mz ez] lz]. apply binary_round_aux_equiv.
Qed.
Lemma fsqrt_sqrt a (Ha : is_double a) : fsqrt a = B2SF (Bsqrt mode_NE (SF2B a Ha)).
Proof.
  destruct a as [sa|[|]| |[|] ma ea]; try reflexivity.
  cbn [SF2B Bsqrt]. rewrite B2SF_SF2B. unfold SFsqrt. destruct (SFsqrt_core_binary prec64 emax64 (Z.pos ma) ea) as [[mz ez] lz]. apply binary_round_aux_equiv.
Qed.
Lemma fsub_plus a b : fsub a b = fadd a (SFopp b).
Proof. destruct a as [sa|sa| |sa ma ea], b as [sb|sb| |sb mb eb]; try reflexivity. cbn. destruct sb; reflexivity. Qed.
Lemma opp_double b : is_double b -> is_double (SFopp b).
Proof. destruct b; auto. Qed.
Lemma opp_finite b : finite b -> finite (SFopp b).
Proof. intros (D & F). split; [now apply opp_double|]. destruct b; auto. Qed.

(** A sum or difference of finite doubles is a double, not NaN. *)
Lemma fadd_number a b : finite a -> finite b -> is_double (fadd a b) /\ fadd a b <> S754_nan.
Proof.
  intros (Da & Fa) (Db & Fb). rewrite (fadd_plus a b Da Db). split; [apply is_double_B2SF|].
  pose proof (Bplus_correct prec64 emax64 _ _ mode_NE (SF2B a Da) (SF2B b Db)) as H. rewrite !is_finite_SF2B in H.
  specialize (H ltac:(destruct a; try contradiction; reflexivity) ltac:(destruct b; try contradiction; reflexivity)).
  set (z := Bplus mode_NE (SF2B a Da) (SF2B b Db)) in *. destruct (Rlt_bool _ _).
  - destruct H as (_ & H & _). destruct z; try discriminate H; discriminate.
  - destruct H as (H & _). rewrite H. discriminate.
Qed.
Lemma fsub_number a b : finite a -> finite b -> is_double (fsub a b) /\ fsub a b <> S754_nan.
Proof. intros Fa Fb. rewrite fsub_plus. apply fadd_number; [exact Fa|now apply opp_finite]. Qed.

Lemma val_abs x : val (SFabs x) = Rabs (val x).
Proof.
  destruct x as [s|s| |s m e]; try (cbn; now rewrite Rabs_R0). unfold val, SFabs, SF2R. unfold F2R, Defs.F2R. cbn [Fnum Fexp]. rewrite Rabs_mult, <- (Rabs_pos_eq (bpow radix2 e)) by apply bpow_ge_0.
  f_equal; [|now rewrite Rabs_Rabsolu]. rewrite <- abs_IZR. f_equal. destruct s; reflexivity.
Qed.
Lemma abs_good x : is_double x -> x <> S754_nan -> good (SFabs x).
Proof.
  intros D N. destruct x as [s|s| |s m e]; [| |congruence|].
  - apply good_zero.
  - apply good_inf.
  - apply good_of_finite; [split; [exact D|exact I]|]. rewrite val_abs. apply Rabs_pos.
Qed.
(** A square. *)
Lemma square_good x : is_double x -> x <> S754_nan -> good (fmul x x).
Proof.
  intros D N. assert (E : fmul x x = fmul (SFabs x) (SFabs x)).
  { destruct x as [[|]|[|]| |[|] m e]; reflexivity. }
  destruct (fmul_good (SFabs x) (SFabs x)) as [C|G]; try (now apply abs_good); [|now rewrite E].
  exfalso. destruct x as [s|s| |s m e]; [discriminate C|discriminate C|congruence|].
  pose proof (Bmult_correct prec64 emax64 _ _ mode_NE (SF2B (SFabs (S754_finite s m e)) D) (SF2B (SFabs (S754_finite s m e)) D)) as H.
  rewrite (fmul_mult (SFabs (S754_finite s m e)) (SFabs (S754_finite s m e)) D D) in C. set (z := Bmult _ _ _) in *. destruct (Rlt_bool _ _).
  - destruct H as (_ & H & _). destruct z; try discriminate C. discriminate H.
  - rewrite H in C. discriminate C.
Qed.
Lemma squares_good p q r s : finite p -> finite q -> finite r -> finite s -> good (fadd (fmul (fsub p q) (fsub p q)) (fmul (fsub r s) (fsub r s))).
Proof. intros. apply fadd_good; apply square_good; apply fsub_number; assumption. Qed.

(** Not negative, with a positive sign also if zero. *)
Definition plus (x : double) : Prop :=
  is_double x /\ match x with S754_zero s | S754_infinity s | S754_finite s _ _ => s = false | S754_nan => False end.
Lemma finite_pos m e : 0 < val (S754_finite false m e).
Proof. unfold val, SF2R, F2R, Defs.F2R. cbn. pose proof (bpow_gt_0 radix2 e). assert (0 < IZR (Z.pos m)) by (apply IZR_lt; reflexivity). nra. Qed.
Lemma plus_good x : plus x -> good x.
Proof.
  intros (D & P). destruct x as [s|s| |s m e]; try contradiction; subst s; [apply good_zero|apply good_inf|].
  apply good_of_finite; [split; [exact D|exact I]|]. apply Rlt_le, finite_pos.
Qed.
(** Dividing a positive number by a number that is not negative. *)
Lemma fdiv_plus a b : is_double a -> is_double b -> (exists m e, a = S754_finite false m e) -> plus b -> plus (fdiv a b).
Proof.
  intros Da Db (ma & ea & ->) (_ & P). destruct b as [s|s| |s m e]; try contradiction; subst s; [split; reflexivity|split; reflexivity|].
  rewrite (fdiv_div _ _ Da Db). split; [apply is_double_B2SF|].
  pose proof (Bdiv_correct prec64 emax64 _ _ mode_NE (SF2B _ Da) (SF2B _ Db)) as H. rewrite <- !SF2R_B2SF, !B2SF_SF2B in H.
  specialize (H ltac:(apply Rgt_not_eq, finite_pos)).
  set (z := Bdiv _ _ _) in *; clearbody z. destruct (Rlt_bool _ _).
  - destruct H as (_ & H & K). cbn in H, K. destruct z; try discriminate H; cbn in K |- *; apply K; reflexivity.
  - rewrite H. reflexivity.
Qed.
Lemma fsqrt_plus a : plus a -> plus (fsqrt a).
Proof.
  intros (D & P). destruct a as [s|s| |s m e]; try contradiction; subst s; [split; reflexivity|split; reflexivity|].
  rewrite (fsqrt_sqrt _ D). split; [apply is_double_B2SF|].
  pose proof (Bsqrt_correct prec64 emax64 _ _ mode_NE (SF2B _ D)) as (_ & H & K). set (z := Bsqrt _ _) in *; clearbody z.
  cbn in H, K. destruct z; try discriminate H; cbn in K |- *; apply K; reflexivity.
Qed.
Lemma one_val : val (double_of 1 0) = 1.
Proof. unfold val. cbn. unfold F2R, Defs.F2R. cbn. lra. Qed.
Lemma one_finite : finite (double_of 1 0).
Proof. split; [reflexivity|exact I]. Qed.
Lemma one_plus : plus (double_of 1 0).
Proof. split; reflexivity. Qed.

(** One over a number below one is not below one. *)
Lemma inverse_above s : plus s -> SFltb s (double_of 1 0) = true -> plus (fdiv (double_of 1 0) s) /\ SFltb (fdiv (double_of 1 0) s) (double_of 1 0) = false.
Proof.
  intros P L. assert (Q : plus (fdiv (double_of 1 0) s)) by (apply fdiv_plus; [reflexivity|apply P|do 2 eexists; reflexivity|exact P]).
  split; [exact Q|]. destruct P as (D & P). destruct s as [s|s| |s m e]; try contradiction; subst s; [reflexivity|discriminate L|].
  apply finite_lt in L; [|split; [exact D|exact I]|apply one_finite]. rewrite one_val in L.
  apply ltb_ext_false; [now apply plus_good|apply plus_good, one_plus|]. rewrite (ext_finite _ one_finite), one_val.
  assert (D1 : is_double (double_of 1 0)) by reflexivity. 
  rewrite (fdiv_div _ _ D1 D) in Q |- *.
  pose proof (Bdiv_correct prec64 emax64 _ _ mode_NE (SF2B _ D1) (SF2B _ D)) as H. rewrite <- !SF2R_B2SF, !B2SF_SF2B in H.
  pose proof (finite_pos m e) as Pv. specialize (H ltac:(apply Rgt_not_eq, Pv)). set (z := Bdiv _ _ _) in *; clearbody z. fold (val (double_of 1 0)) in H. rewrite one_val in H. fold (val (S754_finite false m e)) in H.
  destruct (Rlt_bool _ _).
  - destruct H as (H & F & _). assert (Fz : finite (B2SF z)) by (split; [apply is_double_B2SF|]; cbn in F; destruct z; try discriminate F; exact I).
    rewrite (ext_finite _ Fz). unfold val. rewrite H. rewrite <- one_val at 1. rewrite <- (round_generic radix2 (SpecFloat.fexp prec64 emax64) (round_mode mode_NE) (val (double_of 1 0)) (val_format _ one_finite)).
    apply round_le; try typeclasses eauto. rewrite one_val. apply Rmult_le_reg_r with (val (S754_finite false m e)); [exact Pv|]. unfold Rdiv. rewrite Rmult_assoc, Rinv_l by lra. lra.
  - rewrite H. change (1 <= top). unfold top. change 1 with (bpow radix2 0). apply bpow_le. unfold emax64; lia.
Qed.
(** A number over itself. *)
Lemma fdiv_self a : is_double a -> (exists m e, a = S754_finite false m e) -> fdiv a a = double_of 1 0.
Proof.
  intros D (m & e & ->). rewrite (fdiv_div _ _ D D).
  pose proof (Bdiv_correct prec64 emax64 _ _ mode_NE (SF2B _ D) (SF2B _ D)) as H. rewrite <- !SF2R_B2SF, !B2SF_SF2B in H.
  pose proof (finite_pos m e) as Pv. fold (val (S754_finite false m e)) in H. specialize (H ltac:(lra)). set (z := Bdiv _ _ _) in *; clearbody z.
  assert (E : val (S754_finite false m e) / val (S754_finite false m e) = 1) by (field; lra). rewrite E in H.
  assert (R1 : rnd 1 = 1). { rewrite <- one_val. apply round_generic; [typeclasses eauto|]. apply val_format, one_finite. }
  rewrite R1, Rabs_R1 in H.
  rewrite Rlt_bool_true in H by (change 1 with (bpow radix2 0); apply bpow_lt; reflexivity).
  destruct H as (H & F & S). cbn in F, S.
  assert (D1 : is_double (double_of 1 0)) by reflexivity.
  assert (Z : z = SF2B (double_of 1 0) D1).
  { apply B2R_Bsign_inj; [exact F|reflexivity| |].
    - rewrite <- !SF2R_B2SF, B2SF_SF2B, H. symmetry. apply one_val.
    - rewrite S; [reflexivity|]. destruct z; try discriminate F; reflexivity. }
  rewrite Z. apply B2SF_SF2B.
Qed.
Lemma thousand_good : good (double_of 1000 0).
Proof. apply plus_good. split; reflexivity. Qed.

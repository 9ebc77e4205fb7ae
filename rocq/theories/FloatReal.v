(** The real value of a double and the meaning of the comparison operators, by way of Flocq's model of binary64. *)
From Coq Require Import Reals Lra.
From Flocq Require Import Core.Core IEEE754.BinarySingleNaN.
From Verif Require Import Base FloatModel.

#[global] Instance prec64_gt_0 : Prec_gt_0 prec64 := eq_refl.
#[global] Instance prec64_lt_emax64 : Prec_lt_emax prec64 emax64 := eq_refl.

(** The data a 64-bit double can hold: zeros, infinities, NaN and m * 2^e with 53-bit m in canonical form. *)
Definition is_double (x : double) : Prop := valid_binary prec64 emax64 x = true.

(** The value of a finite double. *)
Definition val (x : double) : R := SF2R radix2 x.

(** The order of the IEEE standard: NaN is not comparable to anything, infinities are the extremes, finite numbers are compared by
    value (so -0 = +0). *)
Definition xlt (a b : double) : Prop :=
  match a, b with
  | S754_nan, _ | _, S754_nan => False
  | S754_infinity true, S754_infinity true => False
  | S754_infinity true, _ => True
  | S754_infinity false, _ => False
  | _, S754_infinity s => s = false
  | _, _ => (val a < val b)%R
  end.
Definition xeq (a b : double) : Prop :=
  match a, b with
  | S754_nan, _ | _, S754_nan => False
  | S754_infinity s, S754_infinity t => s = t
  | S754_infinity _, _ | _, S754_infinity _ => False
  | _, _ => val a = val b
  end.
Definition xle (a b : double) : Prop := xlt a b \/ xeq a b.

Lemma finite_compare a b : is_double a -> is_double b ->
  match a with S754_zero _ | S754_finite _ _ _ => True | _ => False end ->
  match b with S754_zero _ | S754_finite _ _ _ => True | _ => False end ->
  SFcompare a b = Some (Rcompare (val a) (val b)).
Proof.
  intros Ha Hb Fa Fb.
  pose proof (Bcompare_correct prec64 emax64 (SF2B a Ha) (SF2B b Hb)) as H.
  unfold Bcompare in H. rewrite !B2SF_SF2B in H.
  rewrite <- !SF2R_B2SF, !B2SF_SF2B in H. apply H.
  - destruct a; try contradiction; reflexivity.
  - destruct b; try contradiction; reflexivity.
Qed.

Lemma compare_spec a b : is_double a -> is_double b ->
  match SFcompare a b with
  | Some Lt => xlt a b /\ ~ xeq a b /\ ~ xlt b a
  | Some Eq => ~ xlt a b /\ xeq a b /\ ~ xlt b a
  | Some Gt => ~ xlt a b /\ ~ xeq a b /\ xlt b a
  | None => ~ xlt a b /\ ~ xeq a b /\ ~ xlt b a
  end.
Proof.
  intros Ha Hb. pose proof (finite_compare a b Ha Hb) as H.
  destruct a as [sa|[|]| |sa ma ea], b as [sb|[|]| |sb mb eb];
    try (clear H; cbn; intuition congruence);
    rewrite (H I I); unfold xlt, xeq; 
    match goal with |- context [Rcompare ?x ?y] => destruct (Rcompare_spec x y) end; repeat split; intros; lra.
Qed.

Lemma ltb_spec a b : is_double a -> is_double b -> SFltb a b = true <-> xlt a b.
Proof. intros Ha Hb. pose proof (compare_spec a b Ha Hb) as H. unfold SFltb. destruct (SFcompare a b) as [[| |]|]; intuition congruence. Qed.
Lemma leb_spec a b : is_double a -> is_double b -> SFleb a b = true <-> xle a b.
Proof.
  intros Ha Hb. pose proof (compare_spec a b Ha Hb) as H. unfold SFleb, xle. destruct (SFcompare a b) as [[| |]|]; intuition congruence.
Qed.
Lemma feqb_spec a b : is_double a -> is_double b -> SFeqb a b = true <-> xeq a b.
Proof. intros Ha Hb. pose proof (compare_spec a b Ha Hb) as H. unfold SFeqb. destruct (SFcompare a b) as [[| |]|]; intuition congruence. Qed.

(** A finite double. *)
Definition finite (x : double) : Prop := is_double x /\ match x with S754_zero _ | S754_finite _ _ _ => True | _ => False end.

Lemma finite_lt a b : finite a -> finite b -> SFltb a b = true <-> (val a < val b)%R.
Proof.
  intros [Ha Fa] [Hb Fb]. rewrite ltb_spec by assumption.
  destruct a, b; try contradiction; cbn [xlt]; reflexivity.
Qed.
Lemma finite_le a b : finite a -> finite b -> SFleb a b = true <-> (val a <= val b)%R.
Proof.
  intros [Ha Fa] [Hb Fb]. rewrite leb_spec by assumption. unfold xle.
  destruct a, b; try contradiction; cbn [xlt xeq]; lra.
Qed.
Lemma finite_eq a b : finite a -> finite b -> SFeqb a b = true <-> val a = val b.
Proof.
  intros [Ha Fa] [Hb Fb]. rewrite feqb_spec by assumption.
  destruct a, b; try contradiction; cbn [xeq]; reflexivity.
Qed.

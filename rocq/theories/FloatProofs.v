(** Proofs about approximate comparison. *)
From Verif Require Import Base FloatModel.
Local Open Scope Z_scope.

Definition not_nan (x : double) : Prop := x <> S754_nan.

Lemma abs_round_aux s1 s2 m e l :
  SFabs (binary_round_aux prec64 emax64 s1 m e l) = SFabs (binary_round_aux prec64 emax64 s2 m e l).
Proof.
  unfold binary_round_aux. destruct (shr_fexp prec64 emax64 m e l) as [mrs e'].
  destruct (shr_fexp _ _ _ e' _) as [mrs' e'']. destruct (shr_m mrs'); cbn; auto.
  match goal with |- context [if ?b then _ else _] => destruct b end; reflexivity.
Qed.

Lemma abs_round s1 s2 m e : SFabs (binary_round prec64 emax64 s1 m e) = SFabs (binary_round prec64 emax64 s2 m e).
Proof. unfold binary_round. destruct (shl_align _ _ _). apply abs_round_aux. Qed.

Lemma abs_normalize_opp m e z1 z2 :
  SFabs (binary_normalize prec64 emax64 m e z1) = SFabs (binary_normalize prec64 emax64 (- m) e z2).
Proof. destruct m; cbn [binary_normalize Z.opp]; try reflexivity; apply abs_round. Qed.

Lemma abs_sub_sym x y : SFabs (fsub x y) = SFabs (fsub y x).
Proof.
  unfold fsub, SFsub. destruct x as [s| s| |s m e], y as [t|t| |t n f]; try reflexivity; try (destruct s, t; reflexivity).
  cbv zeta. rewrite (Z.min_comm f e).
  rewrite (abs_normalize_opp _ _ false false). do 2 f_equal. ring.
Qed.

Lemma eqb_sym x y : SFeqb x y = SFeqb y x.
Proof.
  unfold SFeqb, SFcompare. destruct x as [s| s| |s m e], y as [t|t| |t n f]; try reflexivity;
    try (destruct s, t; reflexivity); try (destruct s; reflexivity); try (destruct t; reflexivity).
  destruct s, t; try reflexivity;
  rewrite (Z.compare_antisym e f); destruct (e ?= f); cbn; try reflexivity;
  change (Pos.compare_cont Eq m n) with (Pos.compare m n); change (Pos.compare_cont Eq n m) with (Pos.compare n m);
  rewrite (Pos.compare_antisym m n); destruct (m ?= n)%positive; reflexivity.
Qed.

Lemma eqb_refl x : not_nan x -> SFeqb x x = true.
Proof.
  unfold SFeqb, SFcompare. destruct x as [s|s| |s m e]; intros H; try reflexivity; try (now contradiction H).
  - destruct s; reflexivity.
  - rewrite Z.compare_refl. change (Pos.compare_cont Eq m m) with (Pos.compare m m). rewrite Pos.compare_refl.
    destruct s; reflexivity.
Qed.

Lemma fmin_sym x y : not_nan x -> not_nan y -> fmin (SFabs x) (SFabs y) = fmin (SFabs y) (SFabs x).
Proof.
  unfold fmin, SFltb, SFcompare, not_nan.
  destruct x as [s| s| |s m e], y as [t|t| |t n f]; cbn; intros; try reflexivity; try congruence.
  rewrite (Z.compare_antisym e f). destruct (e ?= f) eqn:E; cbn; try reflexivity.
  apply Z.compare_eq in E. subst f.
  change (Pos.compare_cont Eq m n) with (Pos.compare m n); change (Pos.compare_cont Eq n m) with (Pos.compare n m).
  rewrite (Pos.compare_antisym m n). destruct (m ?= n)%positive eqn:E; cbn; try reflexivity.
  apply Pos.compare_eq in E. now subst.
Qed.

Lemma is_nan_dec (x : double) : {x = S754_nan} + {x <> S754_nan}.
Proof. destruct x; (left; reflexivity) || (right; discriminate). Defined.

Lemma is_equal_tol_sym tol x y : is_equal_tol x y tol = is_equal_tol y x tol.
Proof.
  destruct (is_nan_dec x) as [Hx|Hx]; [subst; now destruct y|].
  destruct (is_nan_dec y) as [Hy|Hy]; [subst; now destruct x|].
  unfold is_equal_tol. rewrite (eqb_sym x y), (abs_sub_sym x y), (fmin_sym x y Hx Hy). reflexivity.
Qed.

Lemma is_equal_tol_refl tol x : not_nan x -> is_equal_tol x x tol = true.
Proof. intros H. unfold is_equal_tol. now rewrite eqb_refl. Qed.

Lemma is_equal_tol_refl_iff tol x : is_equal_tol x x tol = true <-> x <> S754_nan.
Proof. split; [|apply is_equal_tol_refl]. intros H ->. discriminate. Qed.

Lemma is_equal_tol_nan tol x : is_equal_tol S754_nan x tol = false /\ is_equal_tol x S754_nan tol = false.
Proof. split; destruct x; reflexivity. Qed.

Lemma missing_point_invalid : is_valid missing_point = false.
Proof. vm_compute. reflexivity. Qed.

Lemma is_valid_iff p :
  is_valid p = true <-> is_equal (px p) missing_double = false /\ is_equal (py p) missing_double = false.
Proof. unfold is_valid, is_valid_for. rewrite negb_true_iff, orb_false_iff. reflexivity. Qed.

(** The two sign variants of zero are equal, and zero is equal to nothing else (the tolerance is relative). *)
Lemma is_equal_zero s x : is_equal x (S754_zero s) = true <-> exists t, x = S754_zero t.
Proof.
  split.
  - destruct x as [t|t| |t m e]; cbn; intros H; try discriminate; eauto.
    + destruct t; discriminate.
    + exfalso. unfold is_equal, is_equal_tol in H. cbn in H. destruct t; cbn in H; discriminate.
  - intros (t & ->). reflexivity.
Qed.

(** Infinities are equal only to themselves. *)
Lemma not_inf_lt x : SFltb (S754_infinity false) x = false.
Proof. destruct x as [[]|[]| |[]]; reflexivity. Qed.

Lemma is_equal_infinity s x : is_equal x (S754_infinity s) = true <-> x = S754_infinity s.
Proof.
  split.
  - intros H. destruct x as [t|t| |t m e].
    + destruct s, t; vm_compute in H; discriminate.
    + destruct s, t; vm_compute in H; try discriminate; reflexivity.
    + destruct s; vm_compute in H; discriminate.
    + exfalso. unfold is_equal, is_equal_tol in H.
      assert (Heq : SFeqb (S754_finite t m e) (S754_infinity s) = false) by (destruct s, t; reflexivity).
      rewrite Heq in H. change (SFabs (fsub (S754_finite t m e) (S754_infinity s))) with (S754_infinity false) in H.
      cbv zeta in H. rewrite not_inf_lt in H. discriminate.
  - intros ->. destruct s; reflexivity.
Qed.

(** Composite actions are reversible if their parts are. *)
From Verif Require Import Base BaseLemmas UndoModel UndoSpec UndoProofs ActionModel ActionSpec.

(** Proof principle: a pair of relations closed under one restore / commit step is included in [reversible] / [reversed]. *)
Section Principle.
  Context {A S : Type}.
  Variables (do_restore do_commit : A -> S -> outcome (A * S)).
  Variable le : S -> S -> Prop.
  Variables (C R : A -> S -> S -> Prop).
  Hypothesis C_step : forall a w0 w1 s, C a w0 w1 -> le w1 s ->
    exists a' s', do_restore a s = Ok (a', s') /\ le w0 s' /\ R a' s' s.
  Hypothesis R_step : forall a w0 w1 s, R a w0 w1 -> le w0 s ->
    exists a' s', do_commit a s = Ok (a', s') /\ le w1 s' /\ C a' s s'.

  Lemma alternation n :
    (forall a w0 w1, C a w0 w1 -> alternates_c do_restore do_commit le n a w0 w1) /\
    (forall a w0 w1, R a w0 w1 -> alternates_r do_restore do_commit le n a w0 w1).
  Proof.
    induction n as [|n [IHc IHr]]; split; intros a w0 w1 H; cbn; intros s Hle.
    - destruct (C_step a w0 w1 s H Hle) as (a' & s' & H1 & H2 & H3). exists a', s'. auto.
    - destruct (R_step a w0 w1 s H Hle) as (a' & s' & H1 & H2 & H3). exists a', s'. auto.
    - destruct (C_step a w0 w1 s H Hle) as (a' & s' & H1 & H2 & H3). exists a', s'.
      exact (conj H1 (conj H2 (IHr _ _ _ H3))).
    - destruct (R_step a w0 w1 s H Hle) as (a' & s' & H1 & H2 & H3). exists a', s'.
      exact (conj H1 (conj H2 (IHc _ _ _ H3))).
  Qed.

  Lemma reversible_coind a w0 w1 : C a w0 w1 -> reversible do_restore do_commit le a w0 w1.
  Proof. intros H n. apply alternation; auto. Qed.

  Lemma reversed_coind a w0 w1 : R a w0 w1 -> reversed do_restore do_commit le a w0 w1.
  Proof. intros H n. apply alternation; auto. Qed.
End Principle.

Section Trees.
  Context {L S : Type}.
  Variables (leaf_restore leaf_commit : L -> S -> outcome (L * S)).
  Variable le : S -> S -> Prop.
  Hypothesis le_refl : forall s, le s s.
  Hypothesis le_trans : forall s t u, le s t -> le t u -> le s u.

  Notation restore := (restore_act leaf_restore).
  Notation commit := (commit_act leaf_commit).

  Definition restore_all := fix go (l : list (act L)) (s : S) : outcome (list (act L) * S) :=
    match l with
    | [] => Ok ([], s)
    | x :: t => let! (t', s1) := go t s in let! (x', s2) := restore x s1 in Ok (x' :: t', s2)
    end.
  Definition commit_all := fix go (l : list (act L)) (s : S) : outcome (list (act L) * S) :=
    match l with
    | [] => Ok ([], s)
    | x :: t => let! (x', s1) := commit x s in let! (t', s2) := go t s1 in Ok (x' :: t', s2)
    end.

  (** Committed and restored trees over [le]. *)
  Inductive recC : act L -> S -> S -> Prop :=
  | recC_leaf l s0 s1 : reversible leaf_restore leaf_commit le l s0 s1 -> recC (Leaf Committed l) s0 s1
  | recC_comp subs s0 s1 : recC_all subs s0 s1 -> recC (Compound Committed subs) s0 s1
  with recC_all : list (act L) -> S -> S -> Prop :=
  | recC_nil s0 s1 : le s0 s1 -> recC_all [] s0 s1
  | recC_cons a t s0 s1 s1' s2 : recC a s0 s1 -> le s1 s1' -> recC_all t s1' s2 -> recC_all (a :: t) s0 s2.

  Inductive recR : act L -> S -> S -> Prop :=
  | recR_leaf l s0 s1 : reversed leaf_restore leaf_commit le l s0 s1 -> recR (Leaf Restored l) s0 s1
  | recR_comp subs s0 s1 : recR_all subs s0 s1 -> recR (Compound Restored subs) s0 s1
  with recR_all : list (act L) -> S -> S -> Prop :=
  | recR_nil s0 s1 : le s1 s0 -> recR_all [] s0 s1
  | recR_cons a t s0 s1 s1' s2 : recR a s0 s1 -> le s1' s1 -> recR_all t s1' s2 -> recR_all (a :: t) s0 s2.

  Scheme recC_mut := Minimality for recC Sort Prop
  with recC_all_mut := Minimality for recC_all Sort Prop.
  Scheme recR_mut := Minimality for recR Sort Prop
  with recR_all_mut := Minimality for recR_all Sort Prop.

  Lemma recC_step a w0 w1 : recC a w0 w1 -> forall s, le w1 s ->
    exists a' s', restore a s = Ok (a', s') /\ le w0 s' /\ recR a' s' s.
  Proof.
    revert a w0 w1.
    apply (recC_mut
      (fun a w0 w1 => forall s, le w1 s -> exists a' s', restore a s = Ok (a', s') /\ le w0 s' /\ recR a' s' s)
      (fun l w0 w1 => forall s, le w1 s -> exists l' s', restore_all l s = Ok (l', s') /\ le w0 s' /\ recR_all l' s' s)).
    - intros l s0 s1 Hr s Hle.
      destruct (reversible_restore _ _ _ _ _ _ _ Hr Hle) as (l' & s' & H1 & H2 & H3).
      exists (Leaf Restored l'), s'. cbn. rewrite H1. cbn. repeat split; auto. constructor; auto.
    - intros subs s0 s1 _ IH s Hle. destruct (IH s Hle) as (l' & s' & H1 & H2 & H3).
      exists (Compound Restored l'), s'. cbn. fold restore_all. rewrite H1. cbn. repeat split; auto. constructor; auto.
    - intros s0 s1 H01 s Hle. exists [], s. cbn. repeat split; eauto. constructor; auto.
    - intros a t s0 s1 s1' s2 _ IHa Hle1 _ IHt s Hle.
      destruct (IHt s Hle) as (t' & u1 & H1 & H2 & H3).
      destruct (IHa u1 (le_trans _ _ _ Hle1 H2)) as (a' & u0 & G1 & G2 & G3).
      exists (a' :: t'), u0. cbn. rewrite H1. cbn. rewrite G1. cbn. repeat split; auto.
      apply recR_cons with u1 u1; auto.
  Qed.

  Lemma recR_step a w0 w1 : recR a w0 w1 -> forall s, le w0 s ->
    exists a' s', commit a s = Ok (a', s') /\ le w1 s' /\ recC a' s s'.
  Proof.
    revert a w0 w1.
    apply (recR_mut
      (fun a w0 w1 => forall s, le w0 s -> exists a' s', commit a s = Ok (a', s') /\ le w1 s' /\ recC a' s s')
      (fun l w0 w1 => forall s, le w0 s -> exists l' s', commit_all l s = Ok (l', s') /\ le w1 s' /\ recC_all l' s s')).
    - intros l s0 s1 Hr s Hle.
      destruct (reversed_commit _ _ _ _ _ _ _ Hr Hle) as (l' & s' & H1 & H2 & H3).
      exists (Leaf Committed l'), s'. cbn. rewrite H1. cbn. repeat split; auto. constructor; auto.
    - intros subs s0 s1 _ IH s Hle. destruct (IH s Hle) as (l' & s' & H1 & H2 & H3).
      exists (Compound Committed l'), s'. cbn. fold commit_all. rewrite H1. cbn. repeat split; auto. constructor; auto.
    - intros s0 s1 H01 s Hle. exists [], s. cbn. repeat split; eauto. constructor; auto.
    - intros a t s0 s1 s1' s2 _ IHa Hle1 _ IHt s Hle.
      destruct (IHa s Hle) as (a' & u1 & G1 & G2 & G3).
      destruct (IHt u1 (le_trans _ _ _ Hle1 G2)) as (t' & u2 & H1 & H2 & H3).
      exists (a' :: t'), u2. cbn. rewrite G1. cbn. rewrite H1. cbn. repeat split; auto.
      apply recC_cons with u1 u1; auto.
  Qed.

  Lemma recC_reversible a s0 s1 : recC a s0 s1 -> reversible restore commit le a s0 s1.
  Proof.
    intros H. apply (reversible_coind _ _ _ recC recR).
    - intros; eapply recC_step; eauto.
    - intros; eapply recR_step; eauto.
    - exact H.
  Qed.

  Lemma reversible_before l s s0 s1 : le s s0 ->
    reversible leaf_restore leaf_commit le l s0 s1 -> reversible leaf_restore leaf_commit le l s s1.
  Proof.
    intros Hle H n. specialize (H n). destruct n; cbn in *; intros t Ht; destruct (H t Ht) as (a' & s' & H1 & H2 & H3);
      exists a', s'; split; auto; split; eauto.
  Qed.

  Lemma recC_before_all :
    (forall a s0 s1, recC a s0 s1 -> forall s, le s s0 -> recC a s s1) /\
    (forall l s0 s1, recC_all l s0 s1 -> forall s, le s s0 -> recC_all l s s1).
  Proof.
    split.
    - apply (recC_mut (fun a s0 s1 => forall s, le s s0 -> recC a s s1) (fun l s0 s1 => forall s, le s s0 -> recC_all l s s1)).
      + intros l s0 s1 H s Hle. constructor. eapply reversible_before; eauto.
      + intros subs s0 s1 _ IH s Hle. constructor. auto.
      + intros s0 s1 H s Hle. constructor. eauto.
      + intros a t s0 s1 s1' s2 _ IHa Hle1 Ht _ s Hle. apply recC_cons with s1 s1'; auto.
    - apply (recC_all_mut (fun a s0 s1 => forall s, le s s0 -> recC a s s1) (fun l s0 s1 => forall s, le s s0 -> recC_all l s s1)).
      + intros l s0 s1 H s Hle. constructor. eapply reversible_before; eauto.
      + intros subs s0 s1 _ IH s Hle. constructor. auto.
      + intros s0 s1 H s Hle. constructor. eauto.
      + intros a t s0 s1 s1' s2 _ IHa Hle1 Ht _ s Hle. apply recC_cons with s1 s1'; auto.
  Qed.

  Lemma recC_all_snoc l a s0 s1 s1' s2 : recC_all l s0 s1 -> le s1 s1' -> recC a s1' s2 -> recC_all (l ++ [a]) s0 s2.
  Proof.
    intros H. revert a s1' s2. induction H as [s0 s1 H01|a0 t s0 u1 u1' u2 Ha Hle Ht IH]; intros a s1' s2 Hle2 Hr; cbn.
    - apply recC_cons with s2 s2; auto; [|constructor; auto]. eapply (proj1 recC_before_all); eauto.
    - apply recC_cons with u1 u1'; eauto.
  Qed.

  Lemma recC_all_le l s0 s1 s2 : recC_all l s0 s1 -> le s1 s2 -> recC_all l s0 s2.
  Proof.
    intros H. revert s2. induction H as [s0 s1 H01|a0 t s0 u1 u1' u2 Ha Hle Ht IH]; intros s2 Hle2.
    - constructor; eauto.
    - apply recC_cons with u1 u1'; auto.
  Qed.

  Lemma recC_state a s0 s1 : recC a s0 s1 -> act_state a = Committed.
  Proof. intros H. inversion H; reflexivity. Qed.

  Scheme records_mut := Minimality for records Sort Prop
  with records_all_mut := Minimality for records_all Sort Prop.

  Lemma records_recC a s0 s1 : records leaf_restore leaf_commit le a s0 s1 -> recC a s0 s1.
  Proof.
    revert a s0 s1.
    apply (records_mut _ _ leaf_restore leaf_commit le recC recC_all).
    - intros; constructor; auto.
    - intros; constructor; auto.
    - intros; constructor; auto.
    - intros a t s0 s1 s2 _ Ha _ Ht. apply recC_cons with s1 s1; auto.
  Qed.

  Lemma records_reversible a s0 s1 :
    records leaf_restore leaf_commit le a s0 s1 -> reversible restore commit le a s0 s1.
  Proof.
    intros H. apply (reversible_coind _ _ _ recC recR).
    - intros; eapply recC_step; eauto.
    - intros; eapply recR_step; eauto.
    - apply records_recC; auto.
  Qed.

  Lemma restore_restored a s : act_state a = Restored -> restore a s = Ok (a, s).
  Proof. destruct a as [[] l|[] l]; cbn; intros H; auto; discriminate. Qed.

  Lemma commit_committed a s : act_state a = Committed -> commit a s = Ok (a, s).
  Proof. destruct a as [[] l|[] l]; cbn; intros H; auto; discriminate. Qed.

  Lemma restore_state a s a' s' : restore a s = Ok (a', s') -> act_state a' = Restored.
  Proof.
    destruct a as [[] l|[] l]; cbn; intros H; try (inversion H; reflexivity);
      apply bind_ok_inv in H; destruct H as ([? ?] & _ & H); inversion H; reflexivity.
  Qed.

  Lemma commit_state a s a' s' : commit a s = Ok (a', s') -> act_state a' = Committed.
  Proof.
    destruct a as [[] l|[] l]; cbn; intros H; try (inversion H; reflexivity);
      apply bind_ok_inv in H; destruct H as ([? ?] & _ & H); inversion H; reflexivity.
  Qed.

  (** Building a compound with Add: recording steps one after the other. *)
  Lemma records_all_snoc subs a s0 s1 s2 :
    records_all leaf_restore leaf_commit le subs s0 s1 -> records leaf_restore leaf_commit le a s1 s2 ->
    records_all leaf_restore leaf_commit le (subs ++ [a]) s0 s2.
  Proof.
    intros H. revert a s2.
    induction H as [s|a0 t u0 u1 u2 Ha Ht IH]; intros a s2 Hr; cbn.
    - econstructor; eauto. constructor.
    - econstructor; eauto.
  Qed.

  Lemma records_state a s0 s1 : records leaf_restore leaf_commit le a s0 s1 -> act_state a = Committed.
  Proof. intros H. inversion H; reflexivity. Qed.

  Lemma add_records subs a s0 s1 s2 :
    records_all leaf_restore leaf_commit le subs s0 s1 -> records leaf_restore leaf_commit le a s1 s2 ->
    exists subs', compound_add subs (Some a) = Ok subs' /\ records_all leaf_restore leaf_commit le subs' s0 s2.
  Proof.
    intros H Hr. cbn. rewrite (records_state _ _ _ Hr). eexists. split; [reflexivity|]. eapply records_all_snoc; eauto.
  Qed.
End Trees.

(** Property C07: composite actions. *)
From Verif Require Import Base UndoModel UndoSpec UndoProofs2 ActionModel ActionSpec ActionProofs.

Section Props.
  Context {L S : Type}.
  Variables (leaf_restore leaf_commit : L -> S -> outcome (L * S)).
  Variable le : S -> S -> Prop.
  Hypothesis le_refl : forall s, le s s.
  Hypothesis le_trans : forall s t u, le s t -> le t u -> le s u.

  (** Any tree of actions recorded step by step alternates exactly between the state before its first and after its last step,
      through any number of undos and redos (see UndoSpec.alternates_c). *)
  Theorem C07_compound_reversible : forall a before after,
    records leaf_restore leaf_commit le a before after ->
    reversible (restore_act leaf_restore) (commit_act leaf_commit) le a before after.
  Proof. exact (records_reversible leaf_restore leaf_commit le le_refl le_trans). Qed.

  (** Adding one more recorded step to a compound keeps it recorded; adding a null action changes nothing; adding an undone action
      is refused. *)
  Theorem C07_compound_add : forall subs s0 s1 s2,
    records_all leaf_restore leaf_commit le subs s0 s1 ->
    (forall a, records leaf_restore leaf_commit le a s1 s2 ->
       exists subs', compound_add subs (Some a) = Ok subs' /\ records_all leaf_restore leaf_commit le subs' s0 s2) /\
    compound_add subs None = Ok subs /\
    (forall a, act_state a = Restored -> compound_add subs (Some a) = Throw ConstraintErr).
  Proof.
    exact (fun subs s0 s1 s2 H => conj (fun a => add_records _ _ _ subs a s0 s1 s2 H)
             (conj eq_refl (fun a Ha => match Ha in _ = s return (match act_state a with Restored => Throw ConstraintErr | Committed => Ok (subs ++ [a]) end
                = match s with Restored => Throw ConstraintErr | Committed => Ok (subs ++ [a]) end) with eq_refl => eq_refl end))).
  Qed.

  (** Restore and commit take effect at most once. *)
  Theorem C07_at_most_once : forall a s,
    (act_state a = Restored -> restore_act leaf_restore a s = Ok (a, s)) /\
    (act_state a = Committed -> commit_act leaf_commit a s = Ok (a, s)) /\
    (forall a' s', restore_act leaf_restore a s = Ok (a', s') -> act_state a' = Restored) /\
    (forall a' s', commit_act leaf_commit a s = Ok (a', s') -> act_state a' = Committed).
  Proof.
    exact (fun a s => conj (restore_restored _ a s) (conj (commit_committed _ a s)
             (conj (restore_state _ a s) (commit_state _ a s)))).
  Qed.
End Props.

(** A nested compound over swapping actions: 1 -> 2 -> (3 -> 4). *)
Example nested_recorded :
  records swap_restore swap_commit eq
    (Compound Committed [Leaf Committed 1%Z; Compound Committed [Leaf Committed 2%Z; Leaf Committed 3%Z]]) 1%Z 4%Z.
Proof.
  constructor. apply rec_cons with 2%Z.
  - constructor. intros n. apply swap_alternates.
  - apply rec_cons with 4%Z; [|constructor]. constructor. apply rec_cons with 3%Z.
    + constructor. intros n. apply swap_alternates.
    + apply rec_cons with 4%Z; [|constructor]. constructor. intros n. apply swap_alternates.
Qed.

Print Assumptions C07_compound_reversible.
Print Assumptions C07_compound_add.
Print Assumptions C07_at_most_once.

(** What a composite edit is: a sequence of steps, each reversible or itself composite. *)
From Verif Require Import Base UndoModel UndoSpec ActionModel.

Section Spec.
  Context {L S : Type}.
  Variables (leaf_restore leaf_commit : L -> S -> outcome (L * S)).
  Variable le : S -> S -> Prop.

  (** [records a before after]: action tree [a] was recorded while the object went from [before] to [after]. *)
  Inductive records : act L -> S -> S -> Prop :=
  | rec_leaf l s0 s1 : reversible leaf_restore leaf_commit le l s0 s1 -> records (Leaf Committed l) s0 s1
  | rec_compound subs s0 s1 : records_all subs s0 s1 -> records (Compound Committed subs) s0 s1
  with records_all : list (act L) -> S -> S -> Prop :=
  | rec_nil s : records_all [] s s
  | rec_cons a t s0 s1 s2 : records a s0 s1 -> records_all t s1 s2 -> records_all (a :: t) s0 s2.
End Spec.

(** Undo action objects as trees: elementary actions and compound actions.
    Source: /repo/libs/MeshKernel/src/UndoActions/UndoAction.cpp, CompoundUndoAction.cpp. *)
From Verif Require Import Base UndoModel.

Section Actions.
  (** [L]: elementary action objects (with their stored data); [S]: the object acted upon. *)
  Context {L S : Type}.
  Variables (leaf_restore leaf_commit : L -> S -> outcome (L * S)).

  (** An action object with its m_state (UndoAction.hpp:84-93); a compound action owns a vector of actions
      (CompoundUndoAction.hpp:78). *)
  Inductive act :=
  | Leaf (state : astate) (l : L)
  | Compound (state : astate) (subs : list act).

  Definition act_state (a : act) : astate := match a with Leaf st _ => st | Compound st _ => st end.

  (** UndoAction::Restore (UndoAction.cpp:34-41) with CompoundUndoAction::DoRestore (CompoundUndoAction.cpp:34-40, reverse order). *)
  Fixpoint restore_act (a : act) (s : S) {struct a} : outcome (act * S) :=
    match a with
    | Leaf Restored _ => Ok (a, s)
    | Compound Restored _ => Ok (a, s)
    | Leaf Committed l => let! (l', s') := leaf_restore l s in Ok (Leaf Restored l', s')
    | Compound Committed subs =>
        let! (subs', s') :=
          (fix go (l : list act) (s : S) : outcome (list act * S) :=
             match l with
             | [] => Ok ([], s)
             | x :: t =>
                 let! (t', s1) := go t s in
                 let! (x', s2) := restore_act x s1 in
                 Ok (x' :: t', s2)
             end) subs s in
        Ok (Compound Restored subs', s')
    end.

  (** UndoAction::Commit (UndoAction.cpp:25-32) with CompoundUndoAction::DoCommit (CompoundUndoAction.cpp:26-32, in order). *)
  Fixpoint commit_act (a : act) (s : S) {struct a} : outcome (act * S) :=
    match a with
    | Leaf Committed _ => Ok (a, s)
    | Compound Committed _ => Ok (a, s)
    | Leaf Restored l => let! (l', s') := leaf_commit l s in Ok (Leaf Committed l', s')
    | Compound Restored subs =>
        let! (subs', s') :=
          (fix go (l : list act) (s : S) : outcome (list act * S) :=
             match l with
             | [] => Ok ([], s)
             | x :: t =>
                 let! (x', s1) := commit_act x s in
                 let! (t', s2) := go t s1 in
                 Ok (x' :: t', s2)
             end) subs s in
        Ok (Compound Committed subs', s')
    end.

  (** CompoundUndoAction::Add, CompoundUndoAction.cpp:13-24; a null pointer is [None]. *)
  Definition compound_add (subs : list act) (a : option act) : outcome (list act) :=
    match a with
    | None => Ok subs
    | Some x => match act_state x with Restored => Throw ConstraintErr | Committed => Ok (subs ++ [x]) end
    end.
End Actions.
Arguments act : clear implicits.

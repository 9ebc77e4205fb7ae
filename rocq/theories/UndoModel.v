(** Model of the undo stack and of the API calls that drive it.
    Source: /repo/libs/MeshKernel/src/UndoActions/UndoActionStack.cpp, UndoAction.cpp and
    /repo/libs/MeshKernelApi/src/MeshKernel.cpp:217-388. *)
From Verif Require Import Base.

Section Undo.
  (** [A]: undo action objects with whatever they store; [S]: the content of one kernel id;
      [E]: the edit commands a caller can issue. *)
  Context {A S E : Type}.

  (** Virtual functions of a concrete undo action (UndoAction.hpp:84-90, DoCommit/DoRestore).  They may change the action
      object itself (swapping actions do), and they may throw or be undefined. *)
  Variables (do_restore do_commit : A -> S -> outcome (A * S)).

  (** An edit of the library: returns the undo action it creates and the new content.
      [Ok None] models an edit that changes nothing and returns a null action; [Throw] an edit that is refused before it
      changes anything (the API turns it into an error code, MeshKernel.cpp:120-148). *)
  Variable do_edit : E -> S -> outcome (option (A * S)).

  (** State of an action: UndoAction.hpp:44-48 *)
  Inductive astate := Committed | Restored.

  (** One entry of the stack: UndoActionStack.hpp:99-113, [UndoActionForMesh].  [it_target] is the kernel id whose object
      the action holds a C++ reference to (BaseMeshUndoAction.hpp:55); it is not stored in the stack, only
      [it_id] (m_actionId) is. *)
  Record item := Item { it_act : A; it_state : astate; it_id : Z; it_target : Z }.

  (** The stack plus the contents of all kernel ids.  Lists are newest first: the head is back(), the last element is
      front().  Source: UndoActionStack.hpp:115-124. *)
  Record ustate := UState {
    contents : Z -> S;
    committed : list item;
    restored : list item;
    max_size : nat }.

  Definition update (c : Z -> S) (i : Z) (s : S) : Z -> S := fun j => if Z.eqb j i then s else c j.

  (** UndoAction::Restore, UndoAction.cpp:34-41 *)
  Definition restore_item (it : item) (c : Z -> S) : outcome (item * (Z -> S)) :=
    match it_state it with
    | Committed =>
        let! (a, s) := do_restore (it_act it) (c (it_target it)) in
        Ok (Item a Restored (it_id it) (it_target it), update c (it_target it) s)
    | Restored => Ok (it, c)
    end.

  (** UndoAction::Commit, UndoAction.cpp:25-32 *)
  Definition commit_item (it : item) (c : Z -> S) : outcome (item * (Z -> S)) :=
    match it_state it with
    | Restored =>
        let! (a, s) := do_commit (it_act it) (c (it_target it)) in
        Ok (Item a Committed (it_id it) (it_target it), update c (it_target it) s)
    | Committed => Ok (it, c)
    end.

  Definition has_id (i : Z) (it : item) : bool := Z.eqb (it_id it) i.

  (** UndoActionStack::Add, UndoActionStack.cpp:11-37.  A null action is [None]. *)
  Definition stack_add (st : ustate) (a : option (A * astate)) (id target : Z) : outcome ustate :=
    match a with
    | Some (act, fl) =>
        if 0 <? max_size st then
          match fl with
          | Restored => Throw ConstraintErr
          | Committed =>
              let com := Item act Committed id target :: committed st in
              let res := filter (fun it => negb (has_id id it)) (restored st) in
              let com' := if max_size st <? length com then removelast com else com in
              Ok (UState (contents st) com' res (max_size st))
          end
        else Ok st
    | None => Ok st
    end.

  (** UndoActionStack::SetMaximumSize, UndoActionStack.cpp:39-57.  Popping front() [k] times keeps the newest. *)
  Definition stack_set_max (st : ustate) (n : nat) : ustate :=
    if n =? 0 then UState (contents st) [] [] n
    else if n <? length (committed st) then
      UState (contents st) (Nat.iter (length (committed st) - n) (@removelast item) (committed st)) (restored st) n
    else UState (contents st) (committed st) (restored st) n.

  (** UndoActionStack::CommittedSize / RestoredSize / Size, UndoActionStack.cpp:59-88.  -999 is constants::missing::intValue
      (Constants.hpp) and means "all". *)
  Definition missing_id : Z := -999.
  Definition count_id (i : Z) (l : list item) : nat :=
    if Z.eqb i missing_id then length l else length (filter (has_id i) l).
  Definition committed_size (st : ustate) (i : Z) : nat := count_id i (committed st).
  Definition restored_size (st : ustate) (i : Z) : nat := count_id i (restored st).
  Definition total_size (st : ustate) : nat := length (committed st) + length (restored st).

  (** UndoActionStack::Undo, UndoActionStack.cpp:90-105 *)
  Definition stack_undo (st : ustate) : outcome (ustate * option Z) :=
    match committed st with
    | it :: rest =>
        let! (it', c) := restore_item it (contents st) in
        Ok (UState c rest (it' :: restored st) (max_size st), Some (it_id it))
    | [] => Ok (st, None)
    end.

  (** UndoActionStack::Commit, UndoActionStack.cpp:107-129 (redo) *)
  Definition stack_redo (st : ustate) : outcome (ustate * option Z) :=
    match restored st with
    | it :: rest =>
        let! (it', c) := commit_item it (contents st) in
        let com := it' :: committed st in
        let com' := if max_size st <? length com then removelast com else com in
        Ok (UState c com' rest (max_size st), Some (it_id it))
    | [] => Ok (st, None)
    end.

  (** UndoActionStack::Clear, UndoActionStack.cpp:131-135 *)
  Definition stack_clear (st : ustate) : ustate := UState (contents st) [] [] (max_size st).

  (** UndoActionStack::Remove, UndoActionStack.cpp:137-148; returns the number removed *)
  Definition stack_remove (st : ustate) (i : Z) : ustate * nat :=
    let keep := filter (fun it => negb (has_id i it)) in
    (UState (contents st) (keep (committed st)) (keep (restored st)) (max_size st),
     length (filter (has_id i) (committed st)) + length (filter (has_id i) (restored st))).

  (** Calls a user can make.  [OpEdit tag target e]: an editing API call on kernel id [target] that registers its action under
      [tag] (MeshKernel.cpp: every call site of meshKernelUndoStack.Add).  The others: mkernel_undo_state,
      mkernel_redo_state, mkernel_set_undo_size (non-negative argument), mkernel_clear_undo_state,
      mkernel_clear_undo_state_for_id (MeshKernel.cpp:237-388). *)
  Inductive op :=
  | OpEdit (tag target : Z) (e : E)
  | OpUndo
  | OpRedo
  | OpSetMax (n : nat)
  | OpClear
  | OpRemove (i : Z).

  Inductive result :=
  | RNone                       (** nothing to report *)
  | REdit (done : bool)         (** an edit: did it change anything *)
  | RId (r : option Z)          (** undo / redo: the reported id, [None] if nothing was done *)
  | RCount (n : nat).

  Definition step (st : ustate) (o : op) : outcome (ustate * result) :=
    match o with
    | OpEdit tag target e =>
        match do_edit e (contents st target) with
        | UB => UB
        | Throw _ => Ok (st, REdit false)
        | Ok None => Ok (st, REdit false)
        | Ok (Some (a, s)) =>
            let! st' := stack_add (UState (update (contents st) target s) (committed st) (restored st) (max_size st))
                                  (Some (a, Committed)) tag target in
            Ok (st', REdit true)
        end
    | OpUndo => let! (st', r) := stack_undo st in Ok (st', RId r)
    | OpRedo => let! (st', r) := stack_redo st in Ok (st', RId r)
    | OpSetMax n => Ok (stack_set_max st n, RNone)
    | OpClear => Ok (stack_clear st, RNone)
    | OpRemove i => let (st', n) := stack_remove st i in Ok (st', RCount n)
    end.

  Fixpoint run (st : ustate) (ops : list op) : outcome (ustate * list result) :=
    match ops with
    | [] => Ok (st, [])
    | o :: t =>
        let! (st1, r) := step st o in
        let! (st2, rs) := run st1 t in
        Ok (st2, r :: rs)
    end.

  (** UndoActionStack.cpp:7-9: empty stack with a maximum size (default 50). *)
  Definition init (c : Z -> S) (mx : nat) : ustate := UState c [] [] mx.
End Undo.

Arguments item : clear implicits.
Arguments ustate : clear implicits.
Arguments op : clear implicits.

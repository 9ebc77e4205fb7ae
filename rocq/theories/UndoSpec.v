(** What a user expects of undo: a list of snapshots.  Independent of the stack model. *)
From Verif Require Import Base UndoModel.

Section Spec.
  Context {S : Type}.

  (** Contents of all ids; for every undoable edit the id and the content *before* it, newest first; for every redoable edit
      the id and the content *after* it, next to redo first; the maximum number of undoable edits. *)
  Record hist := Hist {
    h_cur : Z -> S;
    h_undo : list (Z * S);
    h_redo : list (Z * S);
    h_max : nat }.

  (** What happens: an edit gives id [i] the new content [s]; the other events carry no data. *)
  Inductive event :=
  | EvEdit (i : Z) (s : S)
  | EvNothing
  | EvUndo
  | EvRedo
  | EvSetMax (n : nat)
  | EvClear
  | EvForget (i : Z).

  Definition put (c : Z -> S) (i : Z) (s : S) : Z -> S := fun j => if Z.eqb j i then s else c j.
  Definition not_id (i : Z) (e : Z * S) : bool := negb (Z.eqb (fst e) i).

  Definition hstep (h : hist) (e : event) : hist :=
    match e with
    | EvNothing => h
    | EvEdit i s =>
        if h_max h =? 0 then Hist (put (h_cur h) i s) (h_undo h) (h_redo h) (h_max h)
        else Hist (put (h_cur h) i s)
                  (firstn (h_max h) ((i, h_cur h i) :: h_undo h))      (* remember the content before, newest max *)
                  (filter (not_id i) (h_redo h))                       (* id i can no longer redo *)
                  (h_max h)
    | EvUndo =>
        match h_undo h with
        | [] => h
        | (i, s) :: u => Hist (put (h_cur h) i s) u ((i, h_cur h i) :: h_redo h) (h_max h)
        end
    | EvRedo =>
        match h_redo h with
        | [] => h
        | (i, s) :: r => Hist (put (h_cur h) i s) (firstn (h_max h) ((i, h_cur h i) :: h_undo h)) r (h_max h)
        end
    | EvSetMax n =>
        if n =? 0 then Hist (h_cur h) [] [] 0 else Hist (h_cur h) (firstn n (h_undo h)) (h_redo h) n
    | EvClear => Hist (h_cur h) [] [] (h_max h)
    | EvForget i => Hist (h_cur h) (filter (not_id i) (h_undo h)) (filter (not_id i) (h_redo h)) (h_max h)
    end.

  Definition hrun (h : hist) (es : list event) : hist := fold_left hstep es h.
  Definition hinit (c : Z -> S) (mx : nat) : hist := Hist c [] [] mx.
  Definition undo_ids (h : hist) : list Z := map fst (h_undo h).
  Definition redo_ids (h : hist) : list Z := map fst (h_redo h).
End Spec.
Arguments hist : clear implicits.
Arguments event : clear implicits.

(** A reversible action object.  [le] says "same content, the second possibly with extra trailing missing entries"
    (take equality when contents are restored literally).  [alternates_c n a before after]: from any extension of [after],
    restoring gives an extension of [before], and then committing/restoring keep alternating between the two for [n] more
    steps, never throwing and never undefined. *)
Section Reversible.
  Context {A S : Type}.
  Variables (do_restore do_commit : A -> S -> outcome (A * S)).
  Variable le : S -> S -> Prop.

  Fixpoint alternates_c (n : nat) (a : A) (before after : S) {struct n} : Prop :=
    forall s, le after s ->
      exists a' s', do_restore a s = Ok (a', s') /\ le before s' /\
        match n with O => True | Datatypes.S n' => alternates_r n' a' s' s end
  with alternates_r (n : nat) (a : A) (before after : S) {struct n} : Prop :=
    forall s, le before s ->
      exists a' s', do_commit a s = Ok (a', s') /\ le after s' /\
        match n with O => True | Datatypes.S n' => alternates_c n' a' s s' end.

  Definition reversible (a : A) (before after : S) : Prop := forall n, alternates_c n a before after.
  Definition reversed (a : A) (before after : S) : Prop := forall n, alternates_r n a before after.
End Reversible.

(** Relating runs of the stack model to histories of the specification. *)
Section Link.
  Context {A S E : Type}.
  Variables (do_restore do_commit : A -> S -> outcome (A * S)).
  Variable do_edit : E -> S -> outcome (option (A * S)).
  Variable le : S -> S -> Prop.

  (** The event a call amounts to, read off the call, its result and the state after it. *)
  Definition event_of (o : op E) (r : result) (st' : ustate A S) : event S :=
    match o with
    | OpEdit _ target _ => match r with REdit true => EvEdit target (contents st' target) | _ => EvNothing end
    | OpUndo => EvUndo
    | OpRedo => EvRedo
    | OpSetMax n => EvSetMax n
    | OpClear => EvClear
    | OpRemove i => EvForget i
    end.

  (** What a call should report given the history so far. *)
  Definition expected_result (h : hist S) (o : op E) (r : result) : Prop :=
    match o with
    | OpEdit _ _ _ => exists b, r = REdit b
    | OpUndo => r = RId (hd_error (undo_ids h))
    | OpRedo => r = RId (hd_error (redo_ids h))
    | OpSetMax _ => r = RNone
    | OpClear => r = RNone
    | OpRemove i => r = RCount (length (filter (Z.eqb i) (undo_ids h)) + length (filter (Z.eqb i) (redo_ids h)))
    end.

  (** The stack shows what the history says: same contents, same undoable and redoable ids in the same order. *)
  Definition shows (st : ustate A S) (h : hist S) : Prop :=
    (forall i, le (h_cur h i) (contents st i)) /\
      map it_id (committed st) = undo_ids h /\
      map it_id (restored st) = redo_ids h /\
      max_size st = h_max h.

  (** [Pre e s]: edit [e] may be called on content [s] (its arguments are in range, say).  [allowed]: the call is not an edit outside
      its precondition.  Undo, redo and the other calls are always allowed. *)
  Variable Pre : E -> S -> Prop.
  Definition allowed (st : ustate A S) (o : op E) : Prop :=
    match o with OpEdit _ target e => Pre e (contents st target) | _ => True end.

  (** Every call of a sequence is allowed when its turn comes. *)
  Fixpoint all_allowed (st : ustate A S) (ops : list (op E)) : Prop :=
    match ops with
    | [] => True
    | o :: t => allowed st o /\ forall st' r, step do_restore do_commit do_edit st o = Ok (st', r) -> all_allowed st' t
    end.

  (** Running the calls one by one never fails, reports what the history predicts, and shows the history after every call; nothing
      is said from an edit outside its precondition on. *)
  Fixpoint follows (h : hist S) (st : ustate A S) (ops : list (op E)) : Prop :=
    match ops with
    | [] => shows st h
    | o :: t =>
        shows st h /\ (allowed st o ->
      exists st' r, step do_restore do_commit do_edit st o = Ok (st', r) /\ expected_result h o r /\
      follows (hstep h (event_of o r st')) st' t)
    end.

  (** Every call registers its action under the id it edits. *)
  Definition well_tagged (o : op E) : Prop :=
    match o with OpEdit tag target _ => tag = target | _ => True end.

  (** Every edit called within its precondition on a content satisfying [Inv] is defined; if it succeeds it keeps [Inv] and hands
      over a reversible action. *)
  Definition edits_reversible (Inv : S -> Prop) : Prop :=
    forall e s, Inv s -> Pre e s ->
      match do_edit e s with
      | Ok (Some (a, s')) => reversible do_restore do_commit le a s s' /\ Inv s'
      | Ok None => True
      | Throw _ => True
      | UB => False
      end.

  (** States reachable from an empty history by well-tagged allowed calls. *)
  Definition reachable (Inv : S -> Prop) (st : ustate A S) : Prop :=
    exists c mx ops rs, (forall i, Inv (c i)) /\ Forall well_tagged ops /\ all_allowed (init c mx) ops /\
      run do_restore do_commit do_edit (init c mx) ops = Ok (st, rs).
End Link.

(** Histories without any limit on the number of undoable edits, for comparison. *)
Section Unlimited.
  Context {A S E : Type}.
  Variables (do_restore do_commit : A -> S -> outcome (A * S)).
  Variable do_edit : E -> S -> outcome (option (A * S)).

  Definition unlimited_step (h : hist S) (e : event S) : hist S :=
    match e with
    | EvEdit i s =>
        Hist (put (h_cur h) i s) ((i, h_cur h i) :: h_undo h) (filter (not_id i) (h_redo h)) (h_max h)
    | EvRedo =>
        match h_redo h with
        | [] => h
        | (i, s) :: r => Hist (put (h_cur h) i s) ((i, h_cur h i) :: h_undo h) r (h_max h)
        end
    | EvSetMax _ => h
    | _ => hstep h e
    end.

  Definition unlimited (c : Z -> S) (es : list (event S)) : hist S := fold_left unlimited_step es (hinit c 0).

  (** The events of a run. *)
  Fixpoint trace (st : ustate A S) (ops : list (op E)) : list (event S) :=
    match ops with
    | [] => []
    | o :: t =>
        match step do_restore do_commit do_edit st o with
        | Ok (st', r) => event_of o r st' :: trace st' t
        | _ => []
        end
    end.

  (** A call that keeps undo switched on. *)
  Definition keeps_on (o : op E) : Prop := match o with OpSetMax n => 0 < n | _ => True end.

  (** Contents when every successful edit is simply applied and nothing is ever undone. *)
  Fixpoint plain (c : Z -> S) (ops : list (op E)) : Z -> S :=
    match ops with
    | [] => c
    | OpEdit _ target e :: t =>
        plain (match do_edit e (c target) with Ok (Some (_, s)) => put c target s | _ => c end) t
    | _ :: t => plain c t
    end.
End Unlimited.

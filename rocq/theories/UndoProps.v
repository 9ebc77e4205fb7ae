(** Properties C01-C06 and C08: undo and redo.  Statements only; see UndoSpec for the specification.

    Reading guide.  [A], [S], [E] are the types of undo action objects, of the content of one kernel id and of edit commands;
    [do_restore], [do_commit], [do_edit] the code of a concrete family of undoable edits; [le s t] means "t has the content s,
    possibly with extra trailing missing entries" ([eq] for actions that restore literally); [Inv] is an invariant of contents,
    [Pre e s] the precondition of calling edit [e] on content [s].
    The hypothesis [edits_reversible] is the interface between the stack and a concrete family of edits; it is established for the
    mesh edits in MeshProps.C11_mesh_interface and for a simple swapping action in UndoProofs2.swap_reversible (used in the examples here). *)
From Verif Require Import Base UndoModel UndoSpec UndoProofs UndoProofs2.

Section Props.
  Context {A S E : Type}.
  Variables (do_restore do_commit : A -> S -> outcome (A * S)).
  Variable do_edit : E -> S -> outcome (option (A * S)).
  Variable le : S -> S -> Prop.
  Variable Pre : E -> S -> Prop.
  Variable Inv : S -> Prop.

  Definition interface : Prop :=
    (forall s, le s s) /\ (forall s t u, le s t -> le t u -> le s u) /\ (forall s t, Inv s -> le s t -> Inv t) /\
    edits_reversible do_restore do_commit do_edit le Pre Inv.

  (** C01: every history of well-tagged calls behaves like the list of snapshots: never throws, never undefined (as long as edits are
      called within their preconditions [Pre]), reports the predicted ids, and after every call every kernel id has the predicted
      content. *)
  Theorem C01_undo_follows_snapshots :
    interface -> forall c mx ops,
    (forall i, Inv (c i)) -> Forall well_tagged ops ->
    follows do_restore do_commit do_edit le Pre (hinit c mx) (init c mx) ops.
  Proof.
    exact (fun H c mx ops Hc Hw =>
      follows_of_refines _ _ _ _ (proj1 H) (proj1 (proj2 H)) _ _ (proj1 (proj2 (proj2 H))) (proj2 (proj2 (proj2 H))) ops _ _
        (refines_init _ _ _ (proj1 H) c mx) (conj Hc (conj (Forall_nil _) (Forall_nil _))) Hw).
  Qed.

  (** C01: one undo call from any reachable state touches only the id it reports, or does nothing at all. *)
  Theorem C01_undo_touches_one_id :
    interface -> forall st, reachable do_restore do_commit do_edit Pre Inv st ->
    match map it_id (committed st) with
    | [] => step do_restore do_commit do_edit st OpUndo = Ok (st, RId None)
    | i :: rest => exists st', step do_restore do_commit do_edit st OpUndo = Ok (st', RId (Some i)) /\
        (forall j, j <> i -> contents st' j = contents st j) /\
        map it_id (committed st') = rest /\ map it_id (restored st') = i :: map it_id (restored st)
    end.
  Proof. exact (fun H => undo_one _ _ _ _ (proj1 H) (proj1 (proj2 H)) _ _ (proj1 (proj2 (proj2 H))) (proj2 (proj2 (proj2 H)))). Qed.

  (** C01: any number of edits (within the undo size) on any ids, followed by as many undos, gives every id its content back. *)
  Theorem C01_edits_then_undos :
    interface -> forall st st1 (es : list (Z * E)),
    reachable do_restore do_commit do_edit Pre Inv st ->
    all_allowed do_restore do_commit do_edit Pre st (map (fun p => OpEdit (fst p) (fst p) (snd p)) es) ->
    run do_restore do_commit do_edit st (map (fun p => OpEdit (fst p) (fst p) (snd p)) es)
      = Ok (st1, repeat (REdit true) (length es)) ->
    length es <= max_size st ->
    exists st2,
      run do_restore do_commit do_edit st1 (repeat OpUndo (length es))
        = Ok (st2, map (fun i => RId (Some i)) (rev (map fst es))) /\
      (forall i, le (contents st i) (contents st2 i)).
  Proof. exact (fun H => edits_then_undos _ _ _ _ (proj1 H) (proj1 (proj2 H)) _ _ (proj1 (proj2 (proj2 H))) (proj2 (proj2 (proj2 H)))). Qed.

  (** C02: k undos then k redos change nothing, and report the ids in mirrored order. *)
  Theorem C02_redo_cancels_undo :
    interface -> forall st k, reachable do_restore do_commit do_edit Pre Inv st -> k <= length (committed st) ->
    exists st' rs,
      run do_restore do_commit do_edit st (repeat OpUndo k ++ repeat OpRedo k) = Ok (st', rs) /\
      rs = map (fun i => RId (Some i)) (firstn k (map it_id (committed st)))
           ++ map (fun i => RId (Some i)) (rev (firstn k (map it_id (committed st)))) /\
      (forall i, le (contents st i) (contents st' i)) /\
      map it_id (committed st') = map it_id (committed st) /\
      map it_id (restored st') = map it_id (restored st).
  Proof. exact (fun H => undo_redo_cancel _ _ _ _ (proj1 H) (proj1 (proj2 H)) _ _ (proj1 (proj2 (proj2 H))) (proj2 (proj2 (proj2 H)))). Qed.

  (** C03: an edit on id [i] removes precisely the redoable actions of [i] (the others stay, as the same objects in the same order),
      becomes the next one to be undone, and leaves every other id's content alone.  (C01_undo_follows_snapshots says what the
      remaining ones redo to.) *)
  Theorem C03_edit_discards_own_redo :
    interface -> forall st st' i e, reachable do_restore do_commit do_edit Pre Inv st ->
    Pre e (contents st i) ->
    step do_restore do_commit do_edit st (OpEdit i i e) = Ok (st', REdit true) ->
    (forall j, j <> i -> contents st' j = contents st j) /\
    max_size st' = max_size st /\
    (0 < max_size st ->
      map it_id (committed st') = firstn (max_size st) (i :: map it_id (committed st)) /\
      restored st' = filter (fun it => negb (Z.eqb (it_id it) i)) (restored st)) /\
    (max_size st = 0 -> committed st' = [] /\ restored st' = []).
  Proof. exact (fun H => edit_one _ _ _ _ (proj1 H) (proj1 (proj2 H)) _ _ (proj1 (proj2 (proj2 H))) (proj2 (proj2 (proj2 H)))). Qed.

  (** C04: never more undoable actions than the configured maximum. *)
  Theorem C04_committed_bounded :
    interface -> forall st, reachable do_restore do_commit do_edit Pre Inv st -> committed_size st missing_id <= max_size st.
  Proof. exact (fun H => reachable_bounded _ _ _ _ (proj1 H) (proj1 (proj2 H)) _ _ (proj1 (proj2 (proj2 H))) (proj2 (proj2 (proj2 H)))). Qed.

  (** C04: compared with a history without any limit, the undoable actions are the newest k of it and the redoable ones are the same,
      as long as undo stays switched on and no undo call came back empty-handed. *)
  Theorem C04_newest_kept :
    interface -> forall c mx ops st rs,
    (forall i, Inv (c i)) -> 0 < mx -> Forall well_tagged ops ->
    all_allowed do_restore do_commit do_edit Pre (init c mx) ops -> Forall keeps_on ops ->
    run do_restore do_commit do_edit (init c mx) ops = Ok (st, rs) ->
    Forall2 (fun o r => o = OpUndo -> r <> RId None) ops rs ->
    let u := unlimited c (trace do_restore do_commit do_edit (init c mx) ops) in
    exists k, map it_id (committed st) = firstn k (undo_ids u) /\ map it_id (restored st) = redo_ids u.
  Proof. exact (fun H => newest_kept _ _ _ _ (proj1 H) (proj1 (proj2 H)) _ _ (proj1 (proj2 (proj2 H))) (proj2 (proj2 (proj2 H)))). Qed.

  (** C05: size zero switches undo off, whatever came before and whatever edits, undos and redos follow; edits are still applied. *)
  Theorem C05_size_zero_disables :
    forall st st0 r0 ops st' rs,
    step do_restore do_commit do_edit st (OpSetMax 0) = Ok (st0, r0) ->
    Forall (fun o : op E => match o with OpSetMax n => n = 0 | _ => True end) ops ->
    run do_restore do_commit do_edit st0 ops = Ok (st', rs) ->
    (forall i, committed_size st' i = 0 /\ restored_size st' i = 0) /\
    Forall2 (fun o r => (o = OpUndo \/ o = OpRedo) -> r = RId None) ops rs /\
    (forall i, contents st' i = plain do_edit (contents st) ops i).
  Proof. exact (off_after_set_zero do_restore do_commit do_edit). Qed.
End Props.

(** C06: per-id counts are the numbers of entries carrying the id, and over all ids they add up to the total. *)
Theorem C06_counts {A S} (st : ustate A S) :
  (forall i, i <> missing_id ->
     committed_size st i = count_occ Z.eq_dec (map it_id (committed st)) i /\
     restored_size st i = count_occ Z.eq_dec (map it_id (restored st)) i) /\
  (forall ids, NoDup ids -> ~ In missing_id ids ->
     (forall it, In it (committed st ++ restored st) -> In (it_id it) ids) ->
     list_sum (map (committed_size st) ids) = committed_size st missing_id /\
     list_sum (map (restored_size st) ids) = restored_size st missing_id).
Proof.
  exact (conj (fun i Hi => conj (count_id_occ i (committed st) Hi) (count_id_occ i (restored st) Hi))
              (fun ids Hn Hm Hin =>
                 conj (counts_add_up (committed st) ids Hn Hm (fun it H => Hin it (in_or_app _ _ _ (or_introl H))))
                      (counts_add_up (restored st) ids Hn Hm (fun it H => Hin it (in_or_app _ _ _ (or_intror H)))))).
Qed.

(** C06: undo and redo report the id the action was registered under, whatever object it acts on. *)
Theorem C06_reported_ids {A S E} do_restore do_commit (do_edit : E -> S -> outcome (option (A * S))) :
  forall st tag target e st1 st2 r2 st3 r3,
    0 < max_size st ->
    step do_restore do_commit do_edit st (OpEdit tag target e) = Ok (st1, REdit true) ->
    step do_restore do_commit do_edit st1 OpUndo = Ok (st2, r2) ->
    step do_restore do_commit do_edit st2 OpRedo = Ok (st3, r3) ->
    r2 = RId (Some tag) /\ r3 = RId (Some tag) /\
    map it_id (restored st2) = tag :: map it_id (restored st1).
Proof. exact (reported_ids do_restore do_commit do_edit). Qed.

(** C06: removing an id. *)
Theorem C06_remove {A S} (st : ustate A S) (i : Z) :
  let (st', n) := stack_remove st i in
  committed st' = filter (fun it => negb (Z.eqb (it_id it) i)) (committed st) /\
  restored st' = filter (fun it => negb (Z.eqb (it_id it) i)) (restored st) /\
  n + total_size st' = total_size st /\ contents st' = contents st /\ max_size st' = max_size st /\
  (forall it, In it (committed st' ++ restored st') -> it_id it <> i).
Proof. exact (remove_spec st i). Qed.

(** C08 is false: with undo size 1 the number of remembered actions grows without bound when several ids are used. *)
Theorem C08_total_size_refuted :
  forall n, exists (ops : list (op Z)) st rs,
    Forall well_tagged ops /\
    run swap_restore swap_commit swap_edit (init (fun _ => 0%Z) 1) ops = Ok (st, rs) /\
    max_size st = 1 /\ total_size st = n.
Proof. exact total_size_unbounded. Qed.

(** C08, what does hold: with one kernel id and a fixed undo size the total is bounded by that size.
    Missing: several ids, and lowering the size while redoable actions exist. *)
Theorem C08_total_size_partial {A S E} do_restore do_commit (do_edit : E -> S -> outcome (option (A * S))) :
  forall i c mx ops st rs,
    Forall (fun o : op E => match o with OpEdit tag _ _ => tag = i | OpSetMax _ => False | _ => True end) ops ->
    run do_restore do_commit do_edit (init c mx) ops = Ok (st, rs) -> total_size st <= mx.
Proof. exact (single_id_total_init do_restore do_commit do_edit). Qed.

(** Examples: the hypotheses are met by a concrete instance and non-trivial states. *)
Example interface_met : interface swap_restore swap_commit swap_edit eq (fun _ _ => True) (fun _ => True).
Proof. repeat split; auto; try congruence. intros n. apply swap_alternates. Qed.

Definition example_ops : list (op Z) :=
  [OpEdit 0 0 5; OpEdit 1 1 6; OpEdit 0 0 7; OpUndo; OpUndo; OpEdit 1 1 8]%Z.
Definition example_run (mx : nat) := run swap_restore swap_commit swap_edit (init (fun _ => 0%Z) mx) example_ops.
Definition example_state (mx : nat) := match example_run mx with Ok (st, _) => st | _ => init (fun _ => 0%Z) 0 end.
Definition example_results (mx : nat) := match example_run mx with Ok (_, rs) => rs | _ => [] end.

Example reachable_nontrivial :
  reachable swap_restore swap_commit swap_edit (fun _ _ => True) (fun _ => True) (example_state 3) /\
  map it_id (committed (example_state 3)) = [1; 0]%Z /\ map it_id (restored (example_state 3)) = [0]%Z /\
  contents (example_state 3) 0%Z = 5%Z /\ contents (example_state 3) 1%Z = 8%Z.
Proof.
  split; [|vm_compute; auto].
  exists (fun _ => 0%Z), 3, example_ops, (example_results 3). repeat split; auto.
  unfold example_ops. repeat (constructor; [vm_compute; auto|]). constructor.
Qed.

Example newest_kept_hypotheses :
  Forall well_tagged example_ops /\ Forall keeps_on example_ops /\
  run swap_restore swap_commit swap_edit (init (fun _ => 0%Z) 2) example_ops = Ok (example_state 2, example_results 2) /\
  Forall2 (fun o r => o = OpUndo -> r <> RId None) example_ops (example_results 2).
Proof.
  split; [unfold example_ops; repeat (constructor; [vm_compute; auto|]); constructor|].
  split; [unfold example_ops; repeat (constructor; [vm_compute; auto|]); constructor|].
  split; [reflexivity|].
  vm_compute. repeat (constructor; [intros; discriminate|]). constructor.
Qed.

Print Assumptions C01_undo_follows_snapshots.
Print Assumptions C01_undo_touches_one_id.
Print Assumptions C01_edits_then_undos.
Print Assumptions C02_redo_cancels_undo.
Print Assumptions C03_edit_discards_own_redo.
Print Assumptions C04_committed_bounded.
Print Assumptions C04_newest_kept.
Print Assumptions C05_size_zero_disables.
Print Assumptions C06_counts.
Print Assumptions C06_remove.
Print Assumptions C08_total_size_refuted.
Print Assumptions C08_total_size_partial.

Example reported_ids_met : exists st1 st2 st3,
  let st := init (fun _ => 0%Z) 2 in
  step swap_restore swap_commit swap_edit st (OpEdit 7 3 5)%Z = Ok (st1, REdit true) /\
  step swap_restore swap_commit swap_edit st1 OpUndo = Ok (st2, RId (Some 7%Z)) /\
  step swap_restore swap_commit swap_edit st2 OpRedo = Ok (st3, RId (Some 7%Z)).
Proof.
  eexists; eexists; eexists. cbv zeta. split; [reflexivity|]. split; reflexivity.
Qed.
Print Assumptions C06_reported_ids.

(** Properties C33-C36, C56 and C57: the C interface with kernel ids.  Statements only; see ApiSpec for the specification.

    Reading guide.  [D], [A], [Ed] are the types of the objects an id holds (mesh, network, contacts, grid), of library undo actions and
    of library edits; [do_restore], [do_commit], [lib_edit] the code of the library, [fresh x p] the empty object of kind [x].
    [leD d e]: e has the content d, possibly with extra trailing missing entries; [InvD], [PreD]: invariant of objects, precondition of
    edits. *)
From Coq Require Import Permutation.
From Verif Require Import Base UndoModel UndoSpec UndoProofs2 ActionModel MeshModel MeshSpec ApiModel ApiSpec ApiProofs ApiUndo ApiSafety ApiMemory ApiFinal ApiWitness.

Section Props.
  Context {D A Ed : Type}.
  Variables (do_restore do_commit : A -> D -> outcome (A * D)).
  Variable lib_edit : Ed -> D -> outcome (option (A * D)).
  Variable fresh : slot -> Z -> D.
  Notation api_op := (api_op D Ed).
  Notation world := (world D A).
  Notation api_step := (api_step do_restore do_commit lib_edit fresh).
  Notation api_run := (api_run do_restore do_commit lib_edit fresh).
  Notation asks_existing := (asks_existing do_restore do_commit lib_edit fresh).

  (** C33: as long as mkernel_clear_state is not called, no id is handed out twice. *)
  Theorem C33_ids_fresh : forall (ops : list api_op) w rs,
    Forall (fun o => o <> AClearState) ops -> api_run api_init ops = Ok (w, rs) -> NoDup (handed_out ops rs).
  Proof. exact (fun ops w rs Hn H => proj1 (fresh_ids do_restore do_commit lib_edit fresh ops api_init w rs Hn H)). Qed.

  (** C33: allocation creates a new id with empty objects and the given projection and leaves everything else alone, as long as nobody
      asks for the projection of an id that does not exist. *)
  Theorem C33_allocate_partial : forall (ops : list api_op) w rs p,
    asks_existing api_init ops -> api_run api_init ops = Ok (w, rs) -> (w_counter w < int_max)%Z -> valid_projection p = true ->
    is_live w (w_counter w) = false /\
    exists w', api_step w (AAllocate p) = Ok (w', Answer None [w_counter w]) /\
      is_live w' (w_counter w) = true /\ see (contents (w_stack w') (w_counter w)) = Ok (new_view fresh p) /\
      (forall j, j <> w_counter w -> is_live w' j = is_live w j /\ contents (w_stack w') j = contents (w_stack w) j) /\
      committed (w_stack w') = committed (w_stack w) /\ restored (w_stack w') = restored (w_stack w).
  Proof. exact (allocate_new do_restore do_commit lib_edit fresh). Qed.

  (** C33: an id that does not exist is refused, and nothing changes. *)
  Theorem C33_unknown_id : forall (w : world) i, is_live w i = false ->
    (forall tagged c, api_step w (ACall tagged i c) = Ok (w, Answer (Some MeshKernelErr) [])) /\
    api_step w (AExpunge i) = Ok (w, Answer (Some MeshKernelErr) []) /\
    api_step w (AIsValid i) = Ok (w, Answer None [0%Z]) /\
    api_step w (ACountFor i) = Ok (w, Answer None [0%Z; 0%Z]).
  Proof. exact (unknown_id do_restore do_commit lib_edit fresh). Qed.

  (** C34: a call about id [i] changes neither the content nor the existence of another id. *)
  Theorem C34_isolated : forall (w : world) (o : api_op) w' r i j,
    about o = Some i -> j <> i -> api_step w o = Ok (w', r) ->
    contents (w_stack w') j = contents (w_stack w) j /\ is_live w' j = is_live w j.
  Proof. exact (step_isolated do_restore do_commit lib_edit fresh). Qed.

  (** C34: undo and redo change only the id they report. *)
  Theorem C34_undo_isolated : forall (ops : list api_op) w rs w' r,
    Forall tagged_op ops -> api_run api_init ops = Ok (w, rs) -> (api_step w AUndo = Ok (w', r) \/ api_step w ARedo = Ok (w', r)) ->
    (r = Answer None [0; -999]%Z /\ w' = World (w_live w) (w_counter w) (w_stack w)) \/
    exists i, r = Answer None [1; i]%Z /\ is_live w i = true /\ (forall j, j <> i -> contents (w_stack w') j = contents (w_stack w) j) /\
      w_live w' = w_live w.
  Proof.
    exact (fun ops w rs w' r Ht H Hu =>
      let Ha := accounted_run do_restore do_commit lib_edit fresh ops w rs Ht H in
      match Hu with
      | or_introl E => undo_isolated do_restore do_commit lib_edit fresh w w' r Ha E
      | or_intror E => redo_isolated do_restore do_commit lib_edit fresh w w' r Ha E
      end).
  Qed.

  (** C34: leaving out all calls on other ids changes neither the answers to the calls on id [i] nor its content (for runs without undo
      and redo, whose order is shared between the ids). *)
  Theorem C34_noninterference : forall i (ops : list api_op) w rs,
    Forall no_undo_redo ops -> api_run api_init ops = Ok (w, rs) ->
    exists v rs', api_run api_init (filter (keeps i) ops) = Ok (v, rs') /\ alike i w v /\
      answers_to i (filter (keeps i) ops) rs' = answers_to i ops rs.
  Proof.
    exact (fun i ops w rs Hn H =>
      noninterference do_restore do_commit lib_edit fresh i ops api_init api_init w rs (conj eq_refl (conj eq_refl eq_refl)) Hn H).
  Qed.

  (** C35: histories.  Starting from nothing, any allowed calls on any number of ids are defined, answer as specified and lead to worlds
      that show, for every id, the snapshot the specification holds; undo and redo move through these snapshots.  Allowed are all kinds
      of calls except network1d_set and circular grid (in-place assignment), contacts_set and chainages (no action), projection
      conversion, and contact computations that fail. *)
  Theorem C35_undo_follows_snapshots_partial : forall leD InvD PreD,
    lib_interface do_restore do_commit lib_edit fresh leD InvD PreD ->
    forall v (ops : list api_op), api_follows do_restore do_commit lib_edit fresh leD InvD PreD (spec_init v) api_init ops.
  Proof. exact (api_follows_init do_restore do_commit lib_edit fresh). Qed.

  (** C35 is false for network1d_set and circular_grid: undo reports success and the new content stays. *)
  Theorem C35_overwrite_refuted : forall (w : world) i x f v d,
    is_live w i = true -> 0 < max_size (w_stack w) -> length (committed (w_stack w)) <= max_size (w_stack w) ->
    healthy (contents (w_stack w) i) -> see (contents (w_stack w) i) = Ok v -> f v = Ok d ->
    exists w1 w2, api_step w (ACall true i (COverwrite x f)) = Ok (w1, Answer None []) /\ api_step w1 AUndo = Ok (w2, Answer None [1; i]%Z) /\
      see (contents (w_stack w2) i) = Ok (replace v x d).
  Proof. exact (overwrite_not_undone do_restore do_commit lib_edit fresh). Qed.

  (** C35 is false for convert_projection: after undo the mesh is back but the id keeps the new projection. *)
  Theorem C35_projection_refuted : forall (w : world) i e p v u d u',
    is_live w i = true -> 0 < max_size (w_stack w) -> length (committed (w_stack w)) <= max_size (w_stack w) ->
    healthy (contents (w_stack w) i) -> see (contents (w_stack w) i) = Ok v ->
    lib_edit e (v_mesh2d v) = Ok (Some (u, d)) -> do_restore u d = Ok (u', v_mesh2d v) ->
    exists w1 w2, api_step w (ACall true i (CProjection e p)) = Ok (w1, Answer None []) /\ api_step w1 AUndo = Ok (w2, Answer None [1; i]%Z) /\
      see (contents (w_stack w2) i) = Ok (set_proj v p).
  Proof. exact (projection_not_undone do_restore do_commit lib_edit fresh). Qed.

  (** C35 is false for contacts_set and the chainage calls: they change the content and register nothing. *)
  Theorem C35_silent_refuted : forall (w : world) i x f v d, is_live w i = true ->
    healthy (contents (w_stack w) i) -> see (contents (w_stack w) i) = Ok v -> f v = Ok d ->
    exists w1, api_step w (ACall true i (CSilent x f)) = Ok (w1, Answer None []) /\
      see (contents (w_stack w1) i) = Ok (replace v x d) /\
      committed (w_stack w1) = committed (w_stack w) /\ restored (w_stack w1) = restored (w_stack w).
  Proof. exact (silent_not_undone do_restore do_commit lib_edit fresh). Qed.

  (** C36: if all calls register under their id, every entry carries the id it acts on, and this id exists; the counts per id are the
      numbers of entries acting on the id, and the total is their sum over the existing ids. *)
  Theorem C36_accounting_partial : forall (ops : list api_op) w rs,
    Forall tagged_op ops -> asks_existing api_init ops -> api_run api_init ops = Ok (w, rs) ->
    (forall it, In it (committed (w_stack w) ++ restored (w_stack w)) -> it_id it = it_target it /\ is_live w (it_target it) = true) /\
    (forall i, is_live w i = true ->
       api_step w (ACountFor i) = Ok (w, Answer None [Z.of_nat (count_occ Z.eq_dec (map it_target (committed (w_stack w))) i);
                                                      Z.of_nat (count_occ Z.eq_dec (map it_target (restored (w_stack w))) i)])) /\
    exists per_id, Forall2 (fun i cr => api_step w (ACountFor i) = Ok (w, Answer None [fst cr; snd cr])) (w_live w) per_id /\
      api_step w ACount = Ok (w, Answer None [fold_right Z.add 0 (map fst per_id); fold_right Z.add 0 (map snd per_id)]%Z).
  Proof. exact (accounting do_restore do_commit lib_edit fresh). Qed.

  (** C36: a call that produces an action puts it on top of the stack under its id. *)
  Theorem C36_registered : forall (w : world) i c s' u, is_live w i = true -> 0 < max_size (w_stack w) ->
    do_call lib_edit fresh c (contents (w_stack w) i) = Ok (s', Some u, None) ->
    exists w', api_step w (ACall true i c) = Ok (w', Answer None []) /\
      (length (committed (w_stack w)) <= max_size (w_stack w) ->
         committed (w_stack w') = firstn (max_size (w_stack w)) (Item u Committed i i :: committed (w_stack w))).
  Proof. exact (call_registers do_restore do_commit lib_edit fresh). Qed.

  (** C56: undo and redo only touch objects of existing ids that the id still holds. *)
  Theorem C56_no_dangling_partial : forall (ops : list api_op) w rs,
    Forall tagged_op ops -> Forall core_op ops -> api_run api_init ops = Ok (w, rs) ->
    undo_touches_existing do_restore w /\ redo_touches_existing do_commit w.
  Proof.
    exact (fun ops w rs Ht Hc H => let M := mem_ok_run do_restore do_commit lib_edit fresh ops w rs Ht Hc H in
      conj (mem_ok_undo do_restore w M) (mem_ok_redo do_commit w M)).
  Qed.

  (** C57: a call that returns an error changes nothing, except for failing contact computations. *)
  Theorem C57_error_changes_nothing_partial : forall (w : world) (o : api_op) w' r,
    api_step w o = Ok (w', r) -> a_error r <> None -> (forall t i f, o <> ACall t i (CContacts f)) -> same_world w w'.
  Proof. exact (error_changes_nothing do_restore do_commit lib_edit fresh). Qed.

  (** C57 is false for contact computations: a failing one replaces the contacts by empty ones and registers nothing. *)
  Theorem C57_contacts_refuted : forall (w : world) t i f v ex, is_live w i = true ->
    healthy (contents (w_stack w) i) -> see (contents (w_stack w) i) = Ok v -> f v = Throw ex ->
    exists w1, api_step w (ACall t i (CContacts f)) = Ok (w1, Answer (Some ex) []) /\
      see (contents (w_stack w1) i) = Ok (replace v SContacts (fresh SContacts (v_proj v))) /\
      committed (w_stack w1) = committed (w_stack w) /\ restored (w_stack w1) = restored (w_stack w).
  Proof. exact (contacts_error_changes do_restore do_commit lib_edit fresh). Qed.
End Props.

(** C35 for meshes: the mesh edits of MeshModel are such a library. *)
Theorem C35_mesh_library_partial {X} : forall order : list FloatModel.point -> list edge -> nat -> list (option nat) -> list (option nat),
  (forall nodes edges n row, Permutation row (order nodes edges n row)) ->
  forall (other : slot -> Z -> X) proj_of v ops,
    api_follows (obj_restore order) (obj_commit order) (obj_edit order) (obj_fresh other proj_of) obj_le obj_inv obj_pre (spec_init v) api_init ops.
Proof.
  exact (fun order Hp other proj_of v ops =>
    C35_undo_follows_snapshots_partial _ _ _ _ _ _ _ (mesh_library order Hp other proj_of) v ops).
Qed.

(** C33 is false with mkernel_clear_state, ... *)
Theorem C33_clear_state_refuted : exists w rs, zrun zinit reuse = Ok (w, rs) /\ handed_out reuse rs = [0; 0]%Z.
Proof. exact ids_reused. Qed.
(** ... and mkernel_get_projection of an id that does not exist makes it exist. *)
Theorem C33_get_projection_refuted : exists w rs, zrun zinit phantom = Ok (w, rs) /\
  rs = [Answer None [0]; Answer None [0]; Answer None [1]; Answer None [0]; Answer None [0]]%Z /\
  zstep w (ACall true 0 (CEdit SMesh2D 5))%Z = UB.
Proof. exact phantom_id. Qed.

(** C36 is false for mkernel_mesh2d_snap_to_landboundary: the action counts for no id, ... *)
Theorem C36_snap_refuted : exists w rs, zrun zinit snapped = Ok (w, rs) /\
  map a_out rs = [[0]; []; [1; 0]; [0; 0]]%Z /\ map it_target (committed (w_stack w)) = [0%Z].
Proof. exact snap_unaccounted. Qed.
(** ... undone edits of the id stay redoable and overwrite the snapped mesh, ... *)
Theorem C36_snap_redo_refuted : exists w rs, zrun zinit stale = Ok (w, rs) /\
  map a_out rs = [[0]; []; [1; 0]; []; [1; 0]]%Z /\ see (contents (w_stack w) 0%Z) = Ok (View 0 0 5 0 0 0)%Z.
Proof. exact snap_stale_redo. Qed.
(** ... and (C56) the action survives the destruction of the mesh it refers to. *)
Theorem C56_snap_refuted : exists w rs w' r, zrun zinit snapped = Ok (w, rs) /\ zstep w (AExpunge 0%Z) = Ok (w', r) /\
  ~ undo_touches_existing swap_restore w'.
Proof. exact snap_dangles. Qed.

(** *** The hypotheses can be met. *)
Example script_example : exists w rs, zrun zinit script = Ok (w, rs) /\
  map a_out rs = [[0]; [1]; []; []; []; [1; 0]; []; []; [1; 0]; [1; 0]; [4; 0]; [3; 0]; []; [1; 0]; [0]]%Z /\
  see (contents (w_stack w) 0%Z) = Ok (View 0 0 7 0 3 0)%Z /\ handed_out script rs = [0; 1]%Z.
Proof. exact script_runs. Qed.
Example script_hypotheses : Forall tagged_op script /\ Forall core_op script /\ Forall (fun o => o <> AClearState) script.
Proof. exact script_tagged. Qed.
Example script_asks_existing : asks_existing swap_restore swap_commit swap_edit zfresh zinit script.
Proof. exact script_asks. Qed.
Example script_all_allowed : all_allowed zinit script.
Proof. exact script_allowed. Qed.
Example simple_library : lib_interface swap_restore swap_commit swap_edit zfresh eq (fun _ _ => True) (fun _ _ _ => True).
Proof. exact swap_library. Qed.
Example not_undone_hypotheses : exists w rs, zrun zinit [AAllocate 0%Z] = Ok (w, rs) /\ is_live w 0 = true /\ 0 < max_size (w_stack w) /\
  length (committed (w_stack w)) <= max_size (w_stack w) /\ healthy (contents (w_stack w) 0%Z) /\
  see (contents (w_stack w) 0%Z) = Ok (View 0 0 0 0 0 0)%Z.
Proof. exact fresh_world. Qed.

Print Assumptions C33_ids_fresh.
Print Assumptions C33_allocate_partial.
Print Assumptions C33_unknown_id.
Print Assumptions C34_isolated.
Print Assumptions C34_undo_isolated.
Print Assumptions C34_noninterference.
Print Assumptions C35_undo_follows_snapshots_partial.
Print Assumptions C35_overwrite_refuted.
Print Assumptions C35_projection_refuted.
Print Assumptions C35_silent_refuted.
Print Assumptions C35_mesh_library_partial.
Print Assumptions C36_accounting_partial.
Print Assumptions C36_registered.
Print Assumptions C56_no_dangling_partial.
Print Assumptions C57_error_changes_nothing_partial.
Print Assumptions C57_contacts_refuted.
Print Assumptions C33_clear_state_refuted.
Print Assumptions C33_get_projection_refuted.
Print Assumptions C36_snap_refuted.
Print Assumptions C36_snap_redo_refuted.
Print Assumptions C56_snap_refuted.

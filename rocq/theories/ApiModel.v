(** Model of the C interface: kernel ids, the state behind an id, the kinds of editing calls and the undo stack they share.
    Source: /repo/libs/MeshKernelApi/src/MeshKernel.cpp, MKStateUndoAction.cpp, include/MeshKernelApi/State.hpp.

    A kernel id owns heap objects; addresses are indices into a list that only grows, so that no address is used twice.  Whether an
    object still exists (std::shared_ptr) is a question of the specification, see ApiSpec.  Objects are only ever created by a call
    with a kernel id and stored under this id, so every id has its own heap.

    Not modelled: the four interactive algorithm pointers of the state (State.hpp:66-69), error messages. *)
From Verif Require Import Base UndoModel ActionModel.

(** Members of MeshKernelState, State.hpp:59-63 *)
Inductive slot := SMesh1D | SNetwork1D | SMesh2D | SContacts | SGrid.

(** The pointers of a state; [None] is nullptr. *)
Record ptrs := Ptrs { p_mesh1d : option nat; p_network1d : option nat; p_mesh2d : option nat; p_contacts : option nat; p_grid : option nat }.
Definition get_ptr (ps : ptrs) (s : slot) : option nat :=
  match s with
  | SMesh1D => p_mesh1d ps | SNetwork1D => p_network1d ps | SMesh2D => p_mesh2d ps | SContacts => p_contacts ps | SGrid => p_grid ps
  end.
Definition set_ptr (ps : ptrs) (s : slot) (a : nat) : ptrs :=
  match s with
  | SMesh1D => Ptrs (Some a) (p_network1d ps) (p_mesh2d ps) (p_contacts ps) (p_grid ps)
  | SNetwork1D => Ptrs (p_mesh1d ps) (Some a) (p_mesh2d ps) (p_contacts ps) (p_grid ps)
  | SMesh2D => Ptrs (p_mesh1d ps) (p_network1d ps) (Some a) (p_contacts ps) (p_grid ps)
  | SContacts => Ptrs (p_mesh1d ps) (p_network1d ps) (p_mesh2d ps) (Some a) (p_grid ps)
  | SGrid => Ptrs (p_mesh1d ps) (p_network1d ps) (p_mesh2d ps) (p_contacts ps) (Some a)
  end.
Definition null_ptrs : ptrs := Ptrs None None None None None.

(** Values of meshkernel::Projection used by mkernel_allocate_state: 0 cartesian, 1 spherical, 2 sphericalAccurate
    (Definitions.hpp:41-46). *)
Definition valid_projection (p : Z) : bool := (0 <=? p)%Z && (p <=? 2)%Z.

Section Api.
  (** [D]: contents of one object (a Mesh1D, Network1D, Mesh2D, Contacts or CurvilinearGrid); [A]: undo actions the library returns
      for an edit of one object; [Ed]: library edits. *)
  Context {D A Ed : Type}.
  Variables (do_restore do_commit : A -> D -> outcome (A * D)).
  (** A library edit.  [Ok None]: nothing done, null action.  [Throw]: refused before anything was changed. *)
  Variable lib_edit : Ed -> D -> outcome (option (A * D)).
  (** A newly constructed empty object, e.g. Mesh2D(projection). *)
  Variable fresh : slot -> Z -> D.

  (** A MeshKernelState with the objects it owns. *)
  Record content := Content { c_ptrs : ptrs; c_proj : Z; c_heap : list D }.
  Definition with_ptrs (s : content) (ps : ptrs) : content := Content ps (c_proj s) (c_heap s).
  Definition with_heap (s : content) (h : list D) : content := Content (c_ptrs s) (c_proj s) h.

  (** Dereferencing a member pointer: undefined for nullptr. *)
  Definition deref (s : content) (x : slot) : outcome (nat * D) :=
    match get_ptr (c_ptrs s) x with
    | None => UB
    | Some a => let! d := vget (c_heap s) a in Ok (a, d)
    end.

  (** What a caller can see of an id: the five objects and the projection. *)
  Record view := View { v_mesh1d : D; v_network1d : D; v_mesh2d : D; v_contacts : D; v_grid : D; v_proj : Z }.
  Definition see (s : content) : outcome view :=
    let! (_, a) := deref s SMesh1D in let! (_, b) := deref s SNetwork1D in let! (_, c) := deref s SMesh2D in
    let! (_, d) := deref s SContacts in let! (_, e) := deref s SGrid in
    Ok (View a b c d e (c_proj s)).

  (** Undo actions: a library action holding a reference to the edited object, or an MKStateUndoAction holding copies of the pointers
      (MKStateUndoAction.hpp:71-75; the copied projection and algorithm pointers are never used). *)
  Inductive leaf :=
  | LEdit (a : nat) (x : A)
  | LState (ps : ptrs).

  (** DoRestore / DoCommit of the library action, and MKStateUndoAction.cpp:50-67 (SwapContents). *)
  Definition leaf_restore (l : leaf) (s : content) : outcome (leaf * content) :=
    match l with
    | LEdit a x =>
        let! d := vget (c_heap s) a in
        let! (x', d') := do_restore x d in
        let! h := vset a d' (c_heap s) in
        Ok (LEdit a x', with_heap s h)
    | LState ps => Ok (LState (c_ptrs s), with_ptrs s ps)
    end.
  Definition leaf_commit (l : leaf) (s : content) : outcome (leaf * content) :=
    match l with
    | LEdit a x =>
        let! d := vget (c_heap s) a in
        let! (x', d') := do_commit x d in
        let! h := vset a d' (c_heap s) in
        Ok (LEdit a x', with_heap s h)
    | LState ps => Ok (LState (c_ptrs s), with_ptrs s ps)
    end.

  (** std::make_shared / make_unique: a new object; then the member pointer is set. *)
  Definition install (s : content) (x : slot) (d : D) : content :=
    Content (set_ptr (c_ptrs s) x (length (c_heap s))) (c_proj s) (c_heap s ++ [d]).

  (** MKStateUndoAction::Create, MKStateUndoAction.cpp:30-48 *)
  Definition state_action (s : content) : act leaf := Leaf Committed (LState (c_ptrs s)).

  (** The kinds of editing calls.  New contents are computed from what the caller can see (and from the arguments, which are part of
      the function). *)
  Inductive call :=
  | CEdit (x : slot) (e : Ed)
      (** calls of the form Add(object->Edit(...)), e.g. mkernel_mesh2d_delete 390-418, mkernel_mesh2d_insert_node 2268-2290 *)
  | CReplace (x : slot) (f : view -> outcome D)
      (** MKStateUndoAction, then the pointer is set to a new object: mkernel_mesh2d_set 421-477, mkernel_mesh1d_set 590-622,
          mkernel_curvilinear_set 4593-4623 and the grid generators (3877, 3914, 3948, 3981, 4012, 4159, 4207, 4232, 4258, 4519) *)
  | CContacts (f : view -> outcome D)
      (** MKStateUndoAction, the pointer is set to new empty contacts, which are then filled: 3544-3550, 3575-3581, 3612-3619,
          3647-3653, 3746-3752.  If filling them throws, the pointer stays and no action is registered. *)
  | COverwrite (x : slot) (f : view -> outcome D)
      (** MKStateUndoAction, then the object is assigned in place: mkernel_network1d_set 650-674,
          mkernel_curvilinear_compute_circular_grid 4272-4300 *)
  | CSilent (x : slot) (f : view -> outcome D)
      (** the object is changed and no action is registered: mkernel_contacts_set 1049-1075, mkernel_network1d_compute_fixed_chainages
          676-700, mkernel_network1d_compute_offsetted_chainages 702-719 *)
  | CProjection (e : Ed) (p : Z)
      (** mkernel_mesh2d_convert_projection 1077-1117: library edit of the mesh, then the projection of the state is set *)
  | CDeallocate
      (** mkernel_deallocate_state 183-215 *)
  | CToCurvilinear (f : view -> outcome D)
      (** mkernel_mesh2d_convert_to_curvilinear 1119-1142 *)
  | CToMesh2D (e : Ed) (empty : D)
      (** mkernel_curvilinear_convert_to_mesh2d 4747-4790: compound of an MKStateUndoAction and the action of Mesh::Join; [empty] is
          CurvilinearGrid(). *).

  (** A call on an existing id: the new content, the action handed to the undo stack, the exception it ended with. *)
  Definition do_call (c : call) (s : content) : outcome (content * option (act leaf) * option exn) :=
    match c with
    | CEdit x e =>
        let! (a, d) := deref s x in
        match lib_edit e d with
        | Ok (Some (u, d')) =>
            let! h := vset a d' (c_heap s) in
            Ok (with_heap s h, Some (Leaf Committed (LEdit a u)), None)
        | Ok None => Ok (s, None, None)
        | Throw ex => Ok (s, None, Some ex)
        | UB => UB
        end
    | CReplace x f =>
        let! v := see s in
        match f v with
        | Ok d => Ok (install s x d, Some (state_action s), None)
        | Throw ex => Ok (s, None, Some ex)
        | UB => UB
        end
    | CContacts f =>
        let! v := see s in
        match f v with
        | Ok d => Ok (install s SContacts d, Some (state_action s), None)
        | Throw ex => Ok (install s SContacts (fresh SContacts (c_proj s)), None, Some ex)
        | UB => UB
        end
    | COverwrite x f =>
        let! v := see s in
        match f v with
        | Ok d =>
            let! (a, _) := deref s x in
            let! h := vset a d (c_heap s) in
            Ok (with_heap s h, Some (state_action s), None)
        | Throw ex => Ok (s, None, Some ex)
        | UB => UB
        end
    | CSilent x f =>
        let! v := see s in
        match f v with
        | Ok d =>
            let! (a, _) := deref s x in
            let! h := vset a d (c_heap s) in
            Ok (with_heap s h, None, None)
        | Throw ex => Ok (s, None, Some ex)
        | UB => UB
        end
    | CProjection e p =>
        let! (a, d) := deref s SMesh2D in
        match lib_edit e d with
        | Ok (Some (u, d')) =>
            let! h := vset a d' (c_heap s) in
            Ok (Content (c_ptrs s) p h, Some (Leaf Committed (LEdit a u)), None)
        | Ok None => Ok (Content (c_ptrs s) p (c_heap s), None, None)
        | Throw ex => Ok (s, None, Some ex)
        | UB => UB
        end
    | CDeallocate =>
        let new s x := install s x (fresh x (c_proj s)) in
        Ok (new (new (new (new (new s SMesh1D) SMesh2D) SNetwork1D) SContacts) SGrid, Some (state_action s), None)
    | CToCurvilinear f =>
        let! v := see s in
        match f v with
        | Ok d => Ok (install (install s SGrid d) SMesh2D (fresh SMesh2D (c_proj s)), Some (state_action s), None)
        | Throw ex => Ok (s, None, Some ex)
        | UB => UB
        end
    | CToMesh2D e empty =>
        let! (a, d) := deref s SMesh2D in
        match lib_edit e d with
        | Ok (Some (u, d')) =>
            let! h := vset a d' (c_heap s) in
            Ok (install (with_heap s h) SGrid empty, Some (Compound Committed [state_action s; Leaf Committed (LEdit a u)]), None)
        | Ok None => Ok (install s SGrid empty, Some (Compound Committed [state_action s]), None)
        | Throw ex => Ok (s, None, Some ex)
        | UB => UB
        end
    end.

  (** MeshKernelState(projection), State.hpp:50-57, and MeshKernelState(), State.hpp:47 *)
  Definition new_state (p : Z) : content :=
    let new s x := install s x (fresh x p) in
    new (new (new (new (new (Content null_ptrs p []) SMesh1D) SMesh2D) SNetwork1D) SContacts) SGrid.
  Definition default_state : content := Content null_ptrs 0 [].

  (** The globals, MeshKernel.cpp:105-118: keys of meshKernelState, meshKernelStateCounter, contents and undo stack. *)
  Record world := World { w_live : list Z; w_counter : Z; w_stack : ustate (act leaf) content }.
  Definition is_live (w : world) (i : Z) : bool := existsb (Z.eqb i) (w_live w).

  Inductive api_op :=
  | AAllocate (projection : Z)
  | AIsValid (i : Z)
  | AExpunge (i : Z)
  | ASetUndoSize (n : Z)
  | AUndo
  | ARedo
  | ACount
  | ACountFor (i : Z)
  | AClearState
  | AClearUndo
  | AClearUndoFor (i : Z)
  | AGetProjection (i : Z)
  | ACall (tagged : bool) (i : Z) (c : call).

  (** Exit code (None: Success) and output arguments. *)
  Record answer := Answer { a_error : option exn; a_out : list Z }.
  Definition int_max : Z := 2147483647.
  Definition bit (b : bool) : Z := if b then 1 else 0.

  (** An exception in undo or redo becomes an exit code, with the objects in the state the exception left them in; the model stops
      there. *)
  Definition report (w : world) (r : outcome (ustate (act leaf) content * option Z)) : outcome (world * answer) :=
    match r with
    | Ok (st, Some i) => Ok (World (w_live w) (w_counter w) st, Answer None [1; i]%Z)
    | Ok (st, None) => Ok (World (w_live w) (w_counter w) st, Answer None [0; missing_id]%Z)
    | Throw e => Throw e
    | UB => UB
    end.

  Definition set_content (st : ustate (act leaf) content) (i : Z) (s : content) : ustate (act leaf) content :=
    UState (update (contents st) i s) (committed st) (restored st) (max_size st).

  Definition api_step (w : world) (o : api_op) : outcome (world * answer) :=
    let st := w_stack w in
    match o with
    | AAllocate p =>
        (* mkernel_allocate_state, 150-165; the counter is a 32-bit int; insert does nothing if the key exists *)
        if (w_counter w =? int_max)%Z then UB
        else
          let i := w_counter w in
          if valid_projection p then
            if is_live w i then Ok (World (w_live w) (i + 1) st, Answer None [i])
            else Ok (World (i :: w_live w) (i + 1) (set_content st i (new_state p)), Answer None [i])
          else Ok (World (w_live w) (i + 1) st, Answer (Some RangeErr) [i])
    | AIsValid i => Ok (w, Answer None [bit (is_live w i)])          (* 167-181 *)
    | AExpunge i =>                                                   (* 217-235 *)
        if is_live w i then
          Ok (World (filter (fun j => negb (j =? i)%Z) (w_live w)) (w_counter w) (fst (stack_remove st i)), Answer None [])
        else Ok (w, Answer (Some MeshKernelErr) [])
    | ASetUndoSize n =>                                               (* 237-255 *)
        if (n <? 0)%Z then Ok (w, Answer (Some MeshKernelErr) [])
        else Ok (World (w_live w) (w_counter w) (stack_set_max st (Z.to_nat n)), Answer None [])
    | AUndo => report w (stack_undo (restore_act leaf_restore) st)    (* 257-276 *)
    | ARedo => report w (stack_redo (commit_act leaf_commit) st)      (* 322-341 *)
    | ACount =>                                                       (* 278-294 *)
        Ok (w, Answer None [Z.of_nat (committed_size st missing_id); Z.of_nat (restored_size st missing_id)])
    | ACountFor i =>                                                  (* 296-320 *)
        if is_live w i then Ok (w, Answer None [Z.of_nat (committed_size st i); Z.of_nat (restored_size st i)])
        else Ok (w, Answer None [0; 0]%Z)
    | AClearState => Ok (World [] 0 (stack_clear st), Answer None [])  (* 343-358 *)
    | AClearUndo => Ok (World (w_live w) (w_counter w) (stack_clear st), Answer None [])          (* 360-373 *)
    | AClearUndoFor i => Ok (World (w_live w) (w_counter w) (fst (stack_remove st i)), Answer None [])  (* 375-388 *)
    | AGetProjection i =>
        (* mkernel_get_projection, 5304-5309: operator[] creates a default state for an unknown id *)
        if is_live w i then Ok (w, Answer None [c_proj (contents st i)])
        else Ok (World (i :: w_live w) (w_counter w) (set_content st i default_state), Answer None [0%Z])
    | ACall tagged i c =>
        if is_live w i then
          let! (s', a, e) := do_call c (contents st i) in
          let st1 := set_content st i s' in
          match e with
          | Some ex => Ok (World (w_live w) (w_counter w) st1, Answer (Some ex) [])
          | None =>
              (* [tagged = false] is the call in mkernel_mesh2d_snap_to_landboundary (503): Add without an id *)
              match stack_add st1 (match a with Some u => Some (u, Committed) | None => None end) (if tagged then i else missing_id) i with
              | Ok st2 => Ok (World (w_live w) (w_counter w) st2, Answer None [])
              | Throw ex => Ok (World (w_live w) (w_counter w) st1, Answer (Some ex) [])
              | UB => UB
              end
          end
        else Ok (w, Answer (Some MeshKernelErr) [])
    end.

  Fixpoint api_run (w : world) (ops : list api_op) : outcome (world * list answer) :=
    match ops with
    | [] => Ok (w, [])
    | o :: t =>
        let! (w1, r) := api_step w o in
        let! (w2, rs) := api_run w1 t in
        Ok (w2, r :: rs)
    end.

  (** Before the first call: no ids, undo size 50 (UndoActionStack.cpp:7). *)
  Definition api_init : world := World [] 0 (init (fun _ => default_state) 50).
End Api.
Arguments content : clear implicits.
Arguments view : clear implicits.
Arguments leaf : clear implicits.
Arguments call : clear implicits.
Arguments world : clear implicits.
Arguments api_op : clear implicits.

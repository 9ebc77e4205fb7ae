(** What a user of the C interface expects, in terms of values only: no pointers, no undo actions. *)
From Verif Require Import Base UndoModel UndoSpec ActionModel ApiModel.

Section Spec.
  Context {D A Ed : Type}.
  Variables (do_restore do_commit : A -> D -> outcome (A * D)).
  Variable lib_edit : Ed -> D -> outcome (option (A * D)).
  Variable fresh : slot -> Z -> D.

  Notation view := (view D).
  Notation content := (content D).
  Notation call := (call D Ed).
  Notation api_op := (api_op D Ed).
  Notation world := (world D A).

  Definition look (v : view) (x : slot) : D :=
    match x with
    | SMesh1D => v_mesh1d v | SNetwork1D => v_network1d v | SMesh2D => v_mesh2d v | SContacts => v_contacts v | SGrid => v_grid v
    end.
  Definition replace (v : view) (x : slot) (d : D) : view :=
    match x with
    | SMesh1D => View d (v_network1d v) (v_mesh2d v) (v_contacts v) (v_grid v) (v_proj v)
    | SNetwork1D => View (v_mesh1d v) d (v_mesh2d v) (v_contacts v) (v_grid v) (v_proj v)
    | SMesh2D => View (v_mesh1d v) (v_network1d v) d (v_contacts v) (v_grid v) (v_proj v)
    | SContacts => View (v_mesh1d v) (v_network1d v) (v_mesh2d v) d (v_grid v) (v_proj v)
    | SGrid => View (v_mesh1d v) (v_network1d v) (v_mesh2d v) (v_contacts v) d (v_proj v)
    end.
  Definition set_proj (v : view) (p : Z) : view :=
    View (v_mesh1d v) (v_network1d v) (v_mesh2d v) (v_contacts v) (v_grid v) p.
  Definition new_view (p : Z) : view :=
    View (fresh SMesh1D p) (fresh SNetwork1D p) (fresh SMesh2D p) (fresh SContacts p) (fresh SGrid p) p.

  (** What a call should do to what the caller sees. *)
  Inductive effect :=
  | Changed (v : view)
  | Unchanged
  | Refused (e : exn).

  Definition put_result (v : view) (x : slot) (r : outcome D) : outcome effect :=
    match r with Ok d => Ok (Changed (replace v x d)) | Throw e => Ok (Refused e) | UB => UB end.

  Definition call_effect (c : call) (v : view) : outcome effect :=
    match c with
    | CEdit x e =>
        match lib_edit e (look v x) with
        | Ok (Some (_, d)) => Ok (Changed (replace v x d))
        | Ok None => Ok Unchanged
        | Throw ex => Ok (Refused ex)
        | UB => UB
        end
    | CReplace x f => put_result v x (f v)
    | CContacts f => put_result v SContacts (f v)
    | COverwrite x f => put_result v x (f v)
    | CSilent x f => put_result v x (f v)
    | CProjection e p =>
        match lib_edit e (look v SMesh2D) with
        | Ok (Some (_, d)) => Ok (Changed (set_proj (replace v SMesh2D d) p))
        | Ok None => Ok (Changed (set_proj v p))
        | Throw ex => Ok (Refused ex)
        | UB => UB
        end
    | CDeallocate => Ok (Changed (new_view (v_proj v)))
    | CToCurvilinear f =>
        match f v with
        | Ok d => Ok (Changed (replace (replace v SGrid d) SMesh2D (fresh SMesh2D (v_proj v))))
        | Throw e => Ok (Refused e)
        | UB => UB
        end
    | CToMesh2D e empty =>
        match lib_edit e (look v SMesh2D) with
        | Ok (Some (_, d)) => Ok (Changed (replace (replace v SMesh2D d) SGrid empty))
        | Ok None => Ok (Changed (replace v SGrid empty))
        | Throw ex => Ok (Refused ex)
        | UB => UB
        end
    end.

  (** A healthy id: five existing objects, no two the same. *)
  Definition healthy (s : content) : Prop :=
    (forall x, exists a d, get_ptr (c_ptrs s) x = Some a /\ nth_error (c_heap s) a = Some d) /\
    (forall x y, get_ptr (c_ptrs s) x = get_ptr (c_ptrs s) y -> x = y).

  (** The user's world: existing ids, the next id, and per id a history of snapshots. *)
  Record sworld := SWorld { s_live : list Z; s_next : Z; s_hist : hist view }.
  Definition s_has (sw : sworld) (i : Z) : bool := existsb (Z.eqb i) (s_live sw).
  Definition happen (sw : sworld) (e : event view) : sworld := SWorld (s_live sw) (s_next sw) (hstep (s_hist sw) e).
  Definition num (b : bool) : Z := if b then 1 else 0.

  (** [cur]: what the caller sees of the id of the call just before it. *)
  Definition spec_step (sw : sworld) (o : api_op) (cur : view) : sworld :=
    match o with
    | AAllocate p =>
        let i := s_next sw in
        let h := s_hist sw in
        if valid_projection p then
          SWorld (i :: s_live sw) (i + 1) (Hist (put (h_cur h) i (new_view p)) (h_undo h) (h_redo h) (h_max h))
        else SWorld (s_live sw) (i + 1) h
    | AExpunge i =>
        if s_has sw i then
          SWorld (filter (fun j => negb (j =? i)%Z) (s_live sw)) (s_next sw) (hstep (s_hist sw) (EvForget i))
        else sw
    | ASetUndoSize n => if (n <? 0)%Z then sw else happen sw (EvSetMax (Z.to_nat n))
    | AUndo => happen sw EvUndo
    | ARedo => happen sw EvRedo
    | AClearState => SWorld [] 0 (hstep (s_hist sw) EvClear)
    | AClearUndo => happen sw EvClear
    | AClearUndoFor i => happen sw (EvForget i)
    | ACall _ i c =>
        if s_has sw i then
          match call_effect c cur with
          | Ok (Changed v) => happen sw (EvEdit i v)
          | _ => sw
          end
        else sw
    | AIsValid _ | ACount | ACountFor _ | AGetProjection _ => sw
    end.

  Definition spec_answer (sw : sworld) (o : api_op) (cur : view) : answer :=
    let h := s_hist sw in
    match o with
    | AAllocate p => Answer (if valid_projection p then None else Some RangeErr) [s_next sw]
    | AIsValid i => Answer None [num (s_has sw i)]
    | AExpunge i => Answer (if s_has sw i then None else Some MeshKernelErr) []
    | ASetUndoSize n => Answer (if (n <? 0)%Z then Some MeshKernelErr else None) []
    | AUndo => Answer None (match undo_ids h with i :: _ => [1; i]%Z | [] => [0; -999]%Z end)
    | ARedo => Answer None (match redo_ids h with i :: _ => [1; i]%Z | [] => [0; -999]%Z end)
    | ACount => Answer None [Z.of_nat (length (h_undo h)); Z.of_nat (length (h_redo h))]
    | ACountFor i =>
        Answer None [Z.of_nat (count_occ Z.eq_dec (undo_ids h) i); Z.of_nat (count_occ Z.eq_dec (redo_ids h) i)]
    | AClearState | AClearUndo | AClearUndoFor _ => Answer None []
    | AGetProjection i => Answer None [v_proj (h_cur h i)]
    | ACall _ i c =>
        if s_has sw i then
          match call_effect c cur with Ok (Refused ex) => Answer (Some ex) [] | _ => Answer None [] end
        else Answer (Some MeshKernelErr) []
    end.

  (** [leD d d']: d' has the content d, possibly with extra trailing missing entries. *)
  Variable leD : D -> D -> Prop.
  Definition le_view (v v' : view) : Prop := (forall x, leD (look v x) (look v' x)) /\ v_proj v = v_proj v'.

  (** Invariant of the object in a slot; precondition of a library edit. *)
  Variable InvD : slot -> D -> Prop.
  Variable PreD : slot -> Ed -> D -> Prop.

  (** What is needed of the library: its edits hand over reversible actions (C11 establishes this for the mesh edits). *)
  Definition lib_interface : Prop :=
    (forall d, leD d d) /\ (forall d e f, leD d e -> leD e f -> leD d f) /\
    (forall x d e, InvD x d -> leD d e -> InvD x e) /\
    (forall x p, InvD x (fresh x p)) /\
    (forall x e d, InvD x d -> PreD x e d ->
       match lib_edit e d with
       | Ok (Some (u, d')) => reversible do_restore do_commit leD u d d' /\ InvD x d'
       | Ok None => True
       | Throw _ => True
       | UB => False
       end).

  Definition result_ok (x : slot) (r : outcome D) : Prop :=
    match r with Ok d => InvD x d | Throw _ => True | UB => False end.

  (** Calls covered by the undo theorem: every kind except in-place assignment, silent changes, projection conversion, and contact
      computations that throw. *)
  Definition call_allowed (c : call) (v : view) : Prop :=
    match c with
    | CEdit x e => PreD x e (look v x)
    | CReplace x f => result_ok x (f v)
    | CContacts f => exists d, f v = Ok d /\ InvD SContacts d
    | CDeallocate => True
    | CToCurvilinear f => result_ok SGrid (f v)
    | CToMesh2D e empty => PreD SMesh2D e (look v SMesh2D) /\ InvD SGrid empty
    | COverwrite _ _ | CSilent _ _ | CProjection _ _ => False
    end.

  Definition op_allowed (w : world) (o : api_op) (cur : view) : Prop :=
    match o with
    | AAllocate _ => (w_counter w < int_max)%Z
    | AGetProjection i => is_live w i = true
    | ACall tagged i c => tagged = true /\ (is_live w i = true -> call_allowed c cur)
    | _ => True
    end.

  Definition current (w : world) (o : api_op) (cur : view) : Prop :=
    match o with
    | ACall _ i _ => is_live w i = true -> see (contents (w_stack w) i) = Ok cur
    | _ => True
    end.

  (** The implementation shows what the specification says. *)
  Definition api_shows (w : world) (sw : sworld) : Prop :=
    w_live w = s_live sw /\ w_counter w = s_next sw /\
    (forall i, is_live w i = true -> exists v, see (contents (w_stack w) i) = Ok v /\ le_view (h_cur (s_hist sw) i) v) /\
    map it_id (committed (w_stack w)) = undo_ids (s_hist sw) /\
    map it_id (restored (w_stack w)) = redo_ids (s_hist sw) /\
    max_size (w_stack w) = h_max (s_hist sw).

  (** Running calls one by one: every allowed call is defined, answers as specified, and leads to a world that shows the history. *)
  Fixpoint api_follows (sw : sworld) (w : world) (ops : list api_op) : Prop :=
    api_shows w sw /\
    match ops with
    | [] => True
    | o :: t =>
        forall cur, current w o cur -> op_allowed w o cur ->
        exists w', api_step do_restore do_commit lib_edit fresh w o = Ok (w', spec_answer sw o cur) /\
                   api_follows (spec_step sw o cur) w' t
    end.
End Spec.
Arguments sworld : clear implicits.

(** Memory: what undo and redo touch.  A library action holds a C++ reference to the object it edited; the object exists as long as some
    shared pointer to it does, in particular as long as the state points to it.  The state itself exists while its id does. *)
Section Memory.
  Context {D A : Type}.
  Variables (do_restore do_commit : A -> D -> outcome (A * D)).
  Notation content := (content D).
  Notation leaf := (leaf A).

  Definition points_to (s : content) (a : nat) : Prop := exists x, get_ptr (c_ptrs s) x = Some a.

  (** Restoring (committing) this leaf on content [s] touches only an object the state points to. *)
  Definition leaf_touches_existing (l : leaf) (s : content) : Prop :=
    match l with LEdit a _ => points_to s a | LState _ => True end.

  (** The same for every leaf of a tree, at the moment its turn comes. *)
  Fixpoint restore_existing (a : act leaf) (s : content) {struct a} : Prop :=
    match a with
    | Leaf Restored _ => True
    | Compound Restored _ => True
    | Leaf Committed l => leaf_touches_existing l s
    | Compound Committed subs =>
        (fix go (l : list (act leaf)) (s : content) : Prop :=
           match l with
           | [] => True
           | x :: t =>
               go t s /\
               forall t' s', (fix rgo (l : list (act leaf)) (s : content) : outcome (list (act leaf) * content) :=
                      match l with
                      | [] => Ok ([], s)
                      | x :: t => let! (t', s1) := rgo t s in
                                  let! (x', s2) := restore_act (leaf_restore do_restore) x s1 in Ok (x' :: t', s2)
                      end) t s = Ok (t', s') -> restore_existing x s'
           end) subs s
    end.
  Fixpoint commit_existing (a : act leaf) (s : content) {struct a} : Prop :=
    match a with
    | Leaf Committed _ => True
    | Compound Committed _ => True
    | Leaf Restored l => leaf_touches_existing l s
    | Compound Restored subs =>
        (fix go (l : list (act leaf)) (s : content) : Prop :=
           match l with
           | [] => True
           | x :: t =>
               commit_existing x s /\
               forall x' s', commit_act (leaf_commit do_commit) x s = Ok (x', s') -> go t s'
           end) subs s
    end.

  (** The next undo (redo) touches existing things only: the id of the object it acts on is live and every object it edits exists. *)
  Definition undo_touches_existing (w : world D A) : Prop :=
    match committed (w_stack w) with
    | [] => True
    | it :: _ => is_live w (it_target it) = true /\ restore_existing (it_act it) (contents (w_stack w) (it_target it))
    end.
  Definition redo_touches_existing (w : world D A) : Prop :=
    match restored (w_stack w) with
    | [] => True
    | it :: _ => is_live w (it_target it) = true /\ commit_existing (it_act it) (contents (w_stack w) (it_target it))
    end.
End Memory.

(** Vocabulary of the statements about ids. *)
Section Ids.
  Context {D Ed : Type}.
  Notation api_op := (api_op D Ed).

  (** Before the first call: no id, next id 0, undo size 50; contents of ids that do not exist are irrelevant. *)
  Definition spec_init (v : view D) : sworld D := SWorld [] 0 (hinit (fun _ => v) 50).

  (** The ids handed out by a run. *)
  Fixpoint handed_out (ops : list api_op) (rs : list answer) : list Z :=
    match ops, rs with
    | AAllocate _ :: t, r :: rt => a_out r ++ handed_out t rt
    | _ :: t, _ :: rt => handed_out t rt
    | _, _ => []
    end.

  Definition tagged_op (o : api_op) : Prop := match o with ACall t _ _ => t = true | _ => True end.
  (** Library edits act on meshes, networks and grids, never on the contacts object. *)
  Definition core_op (o : api_op) : Prop := match o with ACall _ _ (CEdit x _) => x <> SContacts | _ => True end.
  Definition no_undo_redo (o : api_op) : Prop := match o with AUndo | ARedo => False | _ => True end.

  (** The id a call is about. *)
  Definition about (o : api_op) : option Z :=
    match o with
    | AExpunge i | AIsValid i | ACountFor i | AClearUndoFor i | AGetProjection i | ACall _ i _ => Some i
    | _ => None
    end.
  Definition calls (i : Z) (o : api_op) : bool := match o with ACall _ j _ => Z.eqb j i | _ => false end.
  Definition keeps (i : Z) (o : api_op) : bool := match o with ACall _ j _ => Z.eqb j i | _ => true end.

  (** Answers to the calls on id [i]. *)
  Definition answers_to (i : Z) (ops : list api_op) (rs : list answer) : list answer :=
    map snd (filter (fun p => calls i (fst p)) (combine ops rs)).
End Ids.

(** Vocabulary of the statements about runs. *)
Section Runs.
  Context {D A Ed : Type}.
  Variables (do_restore do_commit : A -> D -> outcome (A * D)).
  Variable lib_edit : Ed -> D -> outcome (option (A * D)).
  Variable fresh : slot -> Z -> D.
  Notation api_op := (api_op D Ed).
  Notation world := (world D A).
  Notation api_step := (api_step do_restore do_commit lib_edit fresh).

  (** Nobody asks for the projection of an id that does not exist. *)
  Fixpoint asks_existing (w : world) (ops : list api_op) : Prop :=
    match ops with
    | [] => True
    | o :: t => (forall i, o = AGetProjection i -> is_live w i = true) /\
                forall w' r, api_step w o = Ok (w', r) -> asks_existing w' t
    end.

  (** The two worlds have the same ids and agree on id [i]. *)
  Definition alike (i : Z) (w v : world) : Prop :=
    w_live w = w_live v /\ w_counter w = w_counter v /\ contents (w_stack w) i = contents (w_stack v) i.

  (** The two worlds agree on everything a caller can see (the id counter may differ: it is advanced by a refused allocation). *)
  Definition same_world (w v : world) : Prop :=
    (forall i, is_live v i = is_live w i) /\ (forall i, contents (w_stack v) i = contents (w_stack w) i) /\
    committed (w_stack v) = committed (w_stack w) /\ restored (w_stack v) = restored (w_stack w) /\ max_size (w_stack v) = max_size (w_stack w).
End Runs.

(** Concrete runs of the interface over the simple library of UndoProofs2 (an object is a number). *)
From Verif Require Import Base UndoModel UndoSpec UndoProofs2 ActionModel ApiModel ApiSpec ApiFinal.

Definition zstep := api_step swap_restore swap_commit swap_edit zfresh.
Definition zrun := api_run swap_restore swap_commit swap_edit zfresh.
Definition zinit : world Z Z := api_init.
Definition zop := api_op Z Z.

(** A caller: two ids, several kinds of calls, undo, redo, expunge. *)
Definition script : list zop :=
  [AAllocate 0; AAllocate 1; ACall true 0 (CEdit SMesh2D 5%Z); ACall true 1 (CReplace SGrid (fun v => Ok (v_proj v + 10)%Z));
   ACall true 0 CDeallocate; AUndo; ACall true 0 (CToMesh2D 7%Z 3%Z); ACall true 0 (CToCurvilinear (fun v => Ok (v_mesh2d v)));
   AUndo; ARedo; ACount; ACountFor 0; AExpunge 1; AUndo; AGetProjection 0]%Z.

Lemma script_runs : exists w rs, zrun zinit script = Ok (w, rs) /\
  map a_out rs = [[0]; [1]; []; []; []; [1; 0]; []; []; [1; 0]; [1; 0]; [4; 0]; [3; 0]; []; [1; 0]; [0]]%Z /\
  see (contents (w_stack w) 0%Z) = Ok (View 0 0 7 0 3 0)%Z /\ handed_out script rs = [0; 1]%Z.
Proof. eexists _, _. split; [vm_compute; reflexivity|]. repeat split. Qed.

Lemma script_tagged : Forall tagged_op script /\ Forall core_op script /\ Forall (fun o => o <> AClearState) script.
Proof. unfold script. split; [|split]; repeat (apply Forall_cons; [first [exact I|reflexivity|discriminate]|]); apply Forall_nil. Qed.

Lemma script_asks : asks_existing swap_restore swap_commit swap_edit zfresh zinit script.
Proof.
  unfold script. 
  repeat (split; [intros i Hi; inversion Hi; subst; vm_compute; reflexivity|intros w r Hr; vm_compute in Hr; injection Hr as <- <-]).
  exact I.
Qed.

(** Every call of the script is allowed at its moment. *)
Fixpoint all_allowed (w : world Z Z) (ops : list zop) : Prop :=
  match ops with
  | [] => True
  | o :: t => (forall cur, current w o cur -> op_allowed (fun _ _ => True) (fun _ _ _ => True) w o cur) /\
              exists w' r, zstep w o = Ok (w', r) /\ all_allowed w' t
  end.
Lemma script_allowed : all_allowed zinit script.
Proof.
  unfold script.
  repeat (split; [intros cur Hcur; cbn; auto; try reflexivity; try (vm_compute; reflexivity)|eexists _, _; split; [vm_compute; reflexivity|]]);
    try exact I; split; try reflexivity; intros _; cbn; auto.
Qed.

(** mkernel_clear_state resets the counter: id 0 is handed out twice. *)
Definition reuse : list zop := [AAllocate 0; AClearState; AAllocate 0]%Z.
Lemma ids_reused : exists w rs, zrun zinit reuse = Ok (w, rs) /\ handed_out reuse rs = [0; 0]%Z.
Proof. eexists _, _. split; [vm_compute; reflexivity|reflexivity]. Qed.

(** Asking for the projection of id 0 before it is allocated makes it valid without objects; the later allocation with projection 1
    succeeds but keeps the phantom: projection 0, and any call dereferences a null pointer. *)
Definition phantom : list zop := [AIsValid 0; AGetProjection 0; AIsValid 0; AAllocate 1; AGetProjection 0]%Z.
Lemma phantom_id : exists w rs, zrun zinit phantom = Ok (w, rs) /\
  rs = [Answer None [0]; Answer None [0]; Answer None [1]; Answer None [0]; Answer None [0]]%Z /\
  zstep w (ACall true 0 (CEdit SMesh2D 5))%Z = UB.
Proof. eexists _, _. split; [vm_compute; reflexivity|]. split; [reflexivity|vm_compute; reflexivity]. Qed.

(** mkernel_mesh2d_snap_to_landboundary registers without id. *)
Definition snapped : list zop := [AAllocate 0; ACall false 0 (CEdit SMesh2D 5); ACount; ACountFor 0]%Z.
Lemma snap_unaccounted : exists w rs, zrun zinit snapped = Ok (w, rs) /\
  map a_out rs = [[0]; []; [1; 0]; [0; 0]]%Z /\ map it_target (committed (w_stack w)) = [0%Z].
Proof. eexists _, _. split; [vm_compute; reflexivity|]. split; reflexivity. Qed.
Lemma snap_dangles : exists w rs w' r, zrun zinit snapped = Ok (w, rs) /\ zstep w (AExpunge 0%Z) = Ok (w', r) /\
  ~ undo_touches_existing swap_restore w'.
Proof.
  eexists _, _, _, _. split; [vm_compute; reflexivity|]. split; [vm_compute; reflexivity|]. intros [H _]. vm_compute in H. discriminate.
Qed.
(** ... and does not discard the undone edits of the id, so redo overwrites the later edit. *)
Definition stale : list zop :=
  [AAllocate 0; ACall true 0 (CEdit SMesh2D 5); AUndo; ACall false 0 (CEdit SMesh2D 6); ARedo]%Z.
Lemma snap_stale_redo : exists w rs, zrun zinit stale = Ok (w, rs) /\
  map a_out rs = [[0]; []; [1; 0]; []; [1; 0]]%Z /\ see (contents (w_stack w) 0%Z) = Ok (View 0 0 5 0 0 0)%Z.
Proof. eexists _, _. split; [vm_compute; reflexivity|]. split; reflexivity. Qed.

(** States to which the statements about calls that are not undone apply. *)
Lemma fresh_world : exists w rs, zrun zinit [AAllocate 0%Z] = Ok (w, rs) /\ is_live w 0 = true /\ 0 < max_size (w_stack w) /\
  length (committed (w_stack w)) <= max_size (w_stack w) /\ healthy (contents (w_stack w) 0%Z) /\
  see (contents (w_stack w) 0%Z) = Ok (View 0 0 0 0 0 0)%Z.
Proof.
  eexists _, _. split; [vm_compute; reflexivity|]. cbn. split; [reflexivity|]. split; [lia|]. split; [lia|]. split; [|reflexivity].
  split.
  - intros x. destruct x; cbn; eexists _, _; (split; reflexivity).
  - intros x y. destruct x, y; cbn; congruence.
Qed.

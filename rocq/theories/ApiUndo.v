(** Refinement: the C interface follows the snapshot specification. *)
From Verif Require Import Base BaseLemmas UndoModel UndoSpec UndoProofs UndoProofs2 ActionModel ActionSpec ActionProofs ApiModel ApiSpec ApiProofs.

Lemma stack_add_contents {A S} (st : ustate A S) a i j st' : stack_add st a i j = Ok st' -> contents st' = contents st.
Proof.
  unfold stack_add. destruct a as [[x [|]]|]; [| |congruence].
  - destruct (0 <? max_size st); intros H; [|congruence]. injection H as <-. reflexivity.
  - destruct (0 <? max_size st); congruence.
Qed.

Section Hmap.
  (** Histories seen through a function. *)
  Context {S T : Type}.
  Variable f : S -> T.
  Definition fsnd (p : Z * S) : Z * T := (fst p, f (snd p)).
  Definition hmap (h : hist S) : hist T := Hist (fun i => f (h_cur h i)) (map fsnd (h_undo h)) (map fsnd (h_redo h)) (h_max h).
  Definition emap (e : event S) : event T :=
    match e with
    | EvEdit i s => EvEdit i (f s) | EvNothing => EvNothing | EvUndo => EvUndo | EvRedo => EvRedo
    | EvSetMax n => EvSetMax n | EvClear => EvClear | EvForget i => EvForget i
    end.

  Lemma put_map (c : Z -> S) i s j : f (put c i s j) = put (fun i => f (c i)) i (f s) j.
  Proof. unfold put. destruct (Z.eqb j i); auto. Qed.

  Lemma filter_fsnd i l : map fsnd (filter (not_id i) l) = filter (not_id i) (map fsnd l).
  Proof. unfold not_id. induction l as [|[j s] l IH]; cbn; auto. destruct (Z.eqb j i); cbn; congruence. Qed.

  Lemma hmap_step h e : heq (hmap (hstep h e)) (hstep (hmap h) (emap e)).
  Proof.
    destruct e as [i s| | | |n| |i]; cbn [hstep emap].
    - cbn [hmap h_max]. destruct (h_max h =? 0).
      + repeat split; cbn; auto. intros j. apply put_map.
      + repeat split; cbn.
        * intros j. apply put_map.
        * rewrite <- firstn_map. reflexivity.
        * apply filter_fsnd.
    - apply heq_refl.
    - destruct h as [c [|[i s] u] r m]; cbn; [apply heq_refl|]. repeat split; cbn; auto. intros j. apply put_map.
    - destruct h as [c u [|[i s] r] m]; cbn; [apply heq_refl|]. repeat split; cbn; auto; [intros j; apply put_map|].
      rewrite <- firstn_map. reflexivity.
    - destruct (n =? 0); repeat split; cbn; auto. rewrite firstn_map. reflexivity.
    - repeat split; cbn; auto.
    - repeat split; cbn; auto; apply filter_fsnd.
  Qed.

  Lemma undo_ids_hmap h : undo_ids (hmap h) = undo_ids h.
  Proof. unfold undo_ids, hmap; cbn. rewrite map_map. apply map_ext. reflexivity. Qed.
  Lemma redo_ids_hmap h : redo_ids (hmap h) = redo_ids h.
  Proof. unfold redo_ids, hmap; cbn. rewrite map_map. apply map_ext. reflexivity. Qed.
End Hmap.

Section Follow.
  Context {D A Ed : Type}.
  Variables (do_restore do_commit : A -> D -> outcome (A * D)).
  Variable lib_edit : Ed -> D -> outcome (option (A * D)).
  Variable fresh : slot -> Z -> D.
  Notation content := (content D).
  Notation view := (view D).
  Notation call := (call D Ed).
  Notation leaf := (leaf A).
  Notation world := (world D A).
  Notation api_op := (api_op D Ed).
  Notation do_call := (do_call lib_edit fresh).
  Notation restore := (restore_act (leaf_restore do_restore)).
  Notation commit := (commit_act (leaf_commit do_commit)).
  Notation api_step := (api_step do_restore do_commit lib_edit fresh).
  Notation ustate := (ustate (act leaf) content).

  Variable leD : D -> D -> Prop.
  Variable InvD : slot -> D -> Prop.
  Variable PreD : slot -> Ed -> D -> Prop.
  Hypothesis lib : lib_interface do_restore do_commit lib_edit fresh leD InvD PreD.

  Let leD_refl := proj1 lib.
  Let leD_trans := proj1 (proj2 lib).
  Let InvD_mono := proj1 (proj2 (proj2 lib)).
  Let InvD_fresh := proj1 (proj2 (proj2 (proj2 lib))).
  Let edit_ok := proj2 (proj2 (proj2 (proj2 lib))).

  Notation le := (le_content leD).
  Lemma le_refl s : le s s.
  Proof. apply le_content_refl. exact leD_refl. Qed.
  Lemma le_trans s t u : le s t -> le t u -> le s u.
  Proof. apply le_content_trans. exact leD_trans. Qed.

  Local Opaque replace.

  Definition good (s : content) : Prop := healthy s /\ exists v, see s = Ok v /\ forall x, InvD x (look v x).

  Lemma good_mono s t : le s t -> good s -> good t.
  Proof.
    intros Hle (Hh & v & Hv & Hi). split; [eapply le_content_healthy; eauto|].
    destruct (le_content_see leD _ _ _ Hle Hv) as (v' & Hv' & Hl & _). exists v'. split; auto.
    intros x. apply (InvD_mono x (look v x)); [apply Hi|apply Hl].
  Qed.

  Lemma inv_replace (v : view) x d : (forall x, InvD x (look v x)) -> InvD x d -> forall y, InvD y (look (replace v x d) y).
  Proof. intros Hv Hd y. rewrite look_replace. destruct (slot_dec x y) as [<-|]; auto. Qed.

  Lemma inv_effect (c : call) v v' : (forall x, InvD x (look v x)) -> call_allowed InvD PreD c v ->
    call_effect lib_edit fresh c v = Ok (Changed v') -> forall x, InvD x (look v' x).
  Proof.
    intros Hv Ha He. destruct c as [x e|x f|f|x f|x f|e p| |f|e empty]; cbn [call_allowed call_effect] in *; try tauto.
    - pose proof (edit_ok x e _ (Hv x) Ha) as H. destruct (lib_edit e (look v x)) as [[[u d]|]|ex|]; inversion He; subst.
      apply inv_replace; tauto.
    - unfold result_ok in Ha. destruct (f v) as [d|ex|]; inversion He; subst. apply inv_replace; auto.
    - destruct Ha as (d & Hd & Hi). rewrite Hd in He. inversion He; subst. apply inv_replace; auto.
    - inversion He; subst. intros x. destruct x; cbn; apply InvD_fresh.
    - unfold result_ok in Ha. destruct (f v) as [d|ex|]; inversion He; subst. apply inv_replace; [apply inv_replace; auto|apply InvD_fresh].
    - destruct Ha as [Ha Hi].
      pose proof (edit_ok SMesh2D e _ (Hv SMesh2D) Ha) as H. destruct (lib_edit e (look v SMesh2D)) as [[[u d]|]|ex|]; inversion He; subst.
      + apply inv_replace; auto. apply inv_replace; tauto.
      + apply inv_replace; auto.
  Qed.

  Lemma healthy_ptr (s : content) x : healthy s -> exists a, get_ptr (c_ptrs s) x = Some a.
  Proof. intros [H _]. destruct (H x) as (a & d & Ha & _). eauto. Qed.

  Lemma le_heap_grow (h : list D) d : le_heap leD h (h ++ [d]).
  Proof. apply le_heap_app. exact leD_refl. Qed.

  Lemma state_action_reversible (s t : content) : c_proj s = c_proj t -> le_heap leD (c_heap s) (c_heap t) ->
    reversible restore commit le (state_action s) s t.
  Proof.
    intros Hp Hh. unfold state_action. apply recC_reversible; try apply le_refl; try apply le_trans. constructor.
    apply state_reversible; auto.
  Qed.

  Lemma leaf_edit_reversible (s : content) a u d d' (h : list D) :
    nth_error (c_heap s) a = Some d -> reversible do_restore do_commit leD u d d' ->
    reversible (leaf_restore do_restore) (leaf_commit do_commit) le (LEdit a u) s (with_heap s (set_nth a d' (c_heap s))).
  Proof.
    intros Hd Hr. assert (Hlt : a < length (c_heap s)) by (apply nth_error_Some; congruence).
    apply edit_reversible with d d'; auto.
    - repeat split; auto. cbn. apply nth_error_set_nth_eq; auto.
    - intros b e Hb He. cbn. exists e. split; [rewrite nth_error_set_nth_neq; auto|apply leD_refl].
  Qed.

  (** Registered actions are reversible; everything else leaves the id alone. *)
  Lemma call_reversible (c : call) (s : content) v : good s -> see s = Ok v -> call_allowed InvD PreD c v ->
    match do_call c s with
    | Ok (s', Some a, None) => reversible restore commit le a s s' /\ good s'
    | Ok (s', None, ex) => s' = s /\ (ex = None -> call_effect lib_edit fresh c v = Ok Unchanged)
    | _ => False
    end.
  Proof.
    intros (Hh & v0 & Hv0 & Hi) Hv Ha. rewrite Hv in Hv0. inversion Hv0; subst v0. clear Hv0.
    pose proof (do_call_effect lib_edit fresh c s v Hh Hv) as He.
    assert (Hgood : forall v' s', call_effect lib_edit fresh c v = Ok (Changed v') -> see s' = Ok v' -> healthy s' -> good s').
    { intros v' s' H1 H2 H3. split; auto. exists v'. split; auto. eapply inv_effect; eauto. }
    destruct (call_effect lib_edit fresh c v) as [[v'| |ex]|ex|] eqn:Ee; [| | |tauto|].
    - destruct He as (s' & a & Hc & Hs' & Hh'). specialize (Hgood v' s' eq_refl Hs' Hh').
      rewrite Hc.
      destruct c as [x e|x f|f|x f|x f|e p| |f|e empty]; cbn [call_allowed call_effect ApiModel.do_call] in *; try tauto.
      + destruct (healthy_ptr s x Hh) as (b & Hb). pose proof (shown_look _ _ _ _ Hv Hb) as Hd.
        rewrite (deref_shown _ _ _ _ Hb Hd) in Hc. cbn [bind] in Hc.
        pose proof (edit_ok x e _ (Hi x) Ha) as Hr. destruct (lib_edit e (look v x)) as [[[u d]|]|ex|]; try discriminate.
        destruct (see_write s v x b d Hh Hv Hb) as (H1 & H2 & H3). rewrite H1 in Hc. cbn [bind] in Hc. inversion Hc; subst. split; auto.
        apply recC_reversible; try apply le_refl; try apply le_trans. constructor. eapply leaf_edit_reversible; eauto; [exact []|tauto].
      + rewrite Hv in Hc. cbn [bind] in Hc. destruct (f v) as [d|ex|]; try discriminate. inversion Hc; subst. split; auto.
        apply state_action_reversible; auto. apply le_heap_grow.
      + rewrite Hv in Hc. cbn [bind] in Hc. destruct (f v) as [d|ex|]; try discriminate. inversion Hc; subst. split; auto.
        apply state_action_reversible; auto. apply le_heap_grow.
      + inversion Hc; subst. split; auto. apply state_action_reversible; auto.
        cbn. rewrite <- !app_assoc. apply le_heap_app; exact leD_refl.
      + rewrite Hv in Hc. cbn [bind] in Hc. destruct (f v) as [d|ex|]; try discriminate. inversion Hc; subst. split; auto.
        apply state_action_reversible; auto. cbn. rewrite <- !app_assoc. apply le_heap_app; exact leD_refl.
      + destruct (healthy_ptr s SMesh2D Hh) as (b & Hb). pose proof (shown_look _ _ _ _ Hv Hb) as Hd.
        rewrite (deref_shown _ _ _ _ Hb Hd) in Hc. cbn [bind] in Hc. destruct Ha as [Ha Hie].
        pose proof (edit_ok SMesh2D e _ (Hi SMesh2D) Ha) as Hr. destruct (lib_edit e (look v SMesh2D)) as [[[u d]|]|ex|]; try discriminate.
        * destruct (see_write s v SMesh2D b d Hh Hv Hb) as (H1 & H2 & H3). rewrite H1 in Hc. cbn [bind] in Hc. inversion Hc; subst. split; auto.
          assert (Hlt : b < length (c_heap s)) by (apply nth_error_Some; congruence).
          apply recC_reversible; try apply le_refl; try apply le_trans. constructor.
          apply recC_cons with (install s SGrid empty) (install s SGrid empty); [| apply le_refl|].
          { constructor. apply state_reversible; auto. apply le_heap_grow. }
          replace (install (with_heap s (set_nth b d (c_heap s))) SGrid empty)
            with (with_heap (install s SGrid empty) (set_nth b d (c_heap (install s SGrid empty)))).
          2:{ unfold install, with_heap; cbn. rewrite set_nth_length. f_equal.
              apply set_nth_app1. exact Hlt. }
          econstructor; [constructor|apply le_refl|constructor; apply le_refl].
          apply leaf_edit_reversible with (look v SMesh2D); [exact []| |tauto].
          cbn. rewrite nth_error_app1; auto.
        * inversion Hc; subst. split; auto.
          apply recC_reversible; try apply le_refl; try apply le_trans. constructor.
          apply recC_cons with (install s SGrid empty) (install s SGrid empty); [| apply le_refl|constructor; apply le_refl].
          constructor. apply state_reversible; auto. apply le_heap_grow.
    - rewrite He. auto.
    - destruct c; try (rewrite He; split; [reflexivity|discriminate]). cbn [call_allowed call_effect] in *. destruct Ha as (d & Hd & _). rewrite Hd in Ee. discriminate.
    - destruct c as [x e|x f|f|x f|x f|e p| |f|e empty]; cbn [call_allowed call_effect] in *; try tauto; try discriminate.
      + pose proof (edit_ok x e _ (Hi x) Ha) as Hr. destruct (lib_edit e (look v x)) as [[[u d]|]|ex|]; try discriminate; tauto.
      + unfold result_ok in Ha. destruct (f v); try discriminate; tauto.
      + destruct Ha as (d & Hd & _). rewrite Hd in Ee. discriminate.
      + unfold result_ok in Ha. destruct (f v); try discriminate; tauto.
      + destruct Ha as [Ha _]. pose proof (edit_ok SMesh2D e _ (Hi SMesh2D) Ha) as Hr.
        destruct (lib_edit e (look v SMesh2D)) as [[[u d]|]|ex|]; try discriminate; tauto.
  Qed.

  (** Calls as edits of the undo model. *)
  Definition edit_of (c : call) (s : content) : outcome (option (act leaf * content)) :=
    match do_call c s with
    | Ok (s', Some a, None) => Ok (Some (a, s'))
    | Ok (_, None, None) => Ok None
    | Ok (_, _, Some ex) => Throw ex
    | Throw ex => Throw ex
    | UB => UB
    end.
  Definition pre (c : call) (s : content) : Prop := good s /\ exists v, see s = Ok v /\ call_allowed InvD PreD c v.

  Lemma edit_of_reversible : edits_reversible restore commit edit_of le pre (fun _ => True).
  Proof.
    intros c s _ (Hg & v & Hv & Ha). pose proof (call_reversible c s v Hg Hv Ha) as H. unfold edit_of.
    destruct (do_call c s) as [[[s' [a|]] [ex|]]|ex|]; auto; tauto.
  Qed.

  (** Nothing on the stack belongs to an id that does not exist. *)
  Definition ids_live {T} (live : list Z) (l : list (Z * T)) : Prop := Forall (fun e => In (fst e) live) l.

  Lemma chain_c_any i (l : list (item (act leaf))) sn s s' : chain_c restore commit le i l sn s -> Forall (fun e => fst e <> i) sn ->
    chain_c restore commit le i l sn s'.
  Proof.
    revert sn. induction l as [|it l IH]; intros [|[j p] sn]; cbn; auto.
    intros (H1 & H2 & H3 & H4) Hf. inversion Hf; subst. cbn in *. repeat split; auto.
    destruct (Z.eqb_spec (it_id it) i); [tauto|]. auto.
  Qed.
  Lemma chain_r_any i (l : list (item (act leaf))) sn s s' : chain_r restore commit le i l sn s -> Forall (fun e => fst e <> i) sn ->
    chain_r restore commit le i l sn s'.
  Proof.
    revert sn. induction l as [|it l IH]; intros [|[j p] sn]; cbn; auto.
    intros (H1 & H2 & H3 & H4) Hf. inversion Hf; subst. cbn in *. repeat split; auto.
    destruct (Z.eqb_spec (it_id it) i); [tauto|]. auto.
  Qed.

  Definition dummy : view := new_view fresh 0.
  Definition view_of (s : content) : view := match see s with Ok v => v | _ => dummy end.

  (** The invariant tying the three levels together. *)
  Record tied (w : world) (hc : hist content) (sw : sworld D) : Prop := {
    t_ref : refines restore commit le (w_stack w) hc;
    t_heq : forall i, In i (w_live w) -> h_cur (s_hist sw) i = view_of (h_cur hc i);
    t_undo : h_undo (s_hist sw) = map (fsnd view_of) (h_undo hc);
    t_redo : h_redo (s_hist sw) = map (fsnd view_of) (h_redo hc);
    t_max : h_max (s_hist sw) = h_max hc;
    t_live : w_live w = s_live sw;
    t_next : w_counter w = s_next sw;
    t_fresh : Forall (fun i => (0 <= i < w_counter w)%Z) (w_live w);
    t_counter : (0 <= w_counter w)%Z;
    t_good : forall i, In i (w_live w) -> good (h_cur hc i);
    t_gu : Forall (fun e => In (fst e) (w_live w) /\ good (snd e)) (h_undo hc);
    t_gr : Forall (fun e => In (fst e) (w_live w) /\ good (snd e)) (h_redo hc) }.

  Lemma is_live_in (w : world) i : is_live w i = true <-> In i (w_live w).
  Proof.
    unfold is_live. rewrite existsb_exists. split.
    - intros (j & Hj & He). apply Z.eqb_eq in He. congruence.
    - intros H. exists i. split; auto. apply Z.eqb_refl.
  Qed.
  Lemma s_has_live w hc sw i : tied w hc sw -> s_has sw i = is_live w i.
  Proof. intros H. unfold s_has, is_live. rewrite (t_live _ _ _ H). reflexivity. Qed.

  Lemma good_see s : good s -> see s = Ok (view_of s).
  Proof. intros (_ & v & Hv & _). unfold view_of. rewrite Hv. reflexivity. Qed.

  Lemma tied_shows w hc sw : tied w hc sw -> api_shows leD w sw.
  Proof.
    intros [R1 R2 R3 R4 R5 R6 R7 R8 R0 R9 R10 R11]. pose proof R1 as [Hcur Hmax Hbound Hzero Hc Hr].
    split; [exact R6|]. split; [exact R7|]. split; [|split; [|split]].
    - intros i Hi. apply is_live_in in Hi. rewrite (R2 i Hi). eapply le_content_see; [apply Hcur|]. apply good_see; auto.
    - rewrite (chain_c_ids _ _ _ _ _ _ _ (Hc 0%Z)). unfold undo_ids. rewrite R3, map_map. reflexivity.
    - rewrite (chain_r_ids _ _ _ _ _ _ _ (Hr 0%Z)). unfold redo_ids. rewrite R4, map_map. reflexivity.
    - congruence.
  Qed.

  (** Events on both levels. *)
  Lemma hist_event (live : list Z) (hc : hist content) (hv : hist view) e :
    (forall i, In i live -> h_cur hv i = view_of (h_cur hc i)) ->
    h_undo hv = map (fsnd view_of) (h_undo hc) -> h_redo hv = map (fsnd view_of) (h_redo hc) -> h_max hv = h_max hc ->
    Forall (fun e => In (fst e) live) (h_undo hc) -> Forall (fun e => In (fst e) live) (h_redo hc) ->
    (forall i s, e = EvEdit i s -> In i live) ->
    (forall i, In i live -> h_cur (hstep hv (emap view_of e)) i = view_of (h_cur (hstep hc e) i)) /\
    h_undo (hstep hv (emap view_of e)) = map (fsnd view_of) (h_undo (hstep hc e)) /\
    h_redo (hstep hv (emap view_of e)) = map (fsnd view_of) (h_redo (hstep hc e)) /\
    h_max (hstep hv (emap view_of e)) = h_max (hstep hc e).
  Proof.
    intros H1 H2 H3 H4 Hu Hr He.
    assert (Hput : forall k s i, In i live -> put (h_cur hv) k (view_of s) i = view_of (put (h_cur hc) k s i)).
    { intros k s i Hi. unfold put. destruct (Z.eqb i k); auto. }
    destruct hv as [cv uv rv mv]; cbn [h_cur h_undo h_redo h_max] in *. subst uv rv mv.
    destruct e as [i s| | | |n| |i]; cbn [hstep emap h_cur h_undo h_redo h_max].
    - pose proof (He i s eq_refl) as Hi. destruct (h_max hc =? 0); cbn; repeat split; auto.
      + rewrite H1 by auto. rewrite <- firstn_map. reflexivity.
      + rewrite filter_fsnd. reflexivity.
    - auto.
    - destruct (h_undo hc) as [|[i s] u] eqn:Eu; cbn; [repeat split; auto; rewrite Eu; reflexivity|].
      inversion Hu; subst. cbn in *. repeat split; auto. rewrite H1; auto.
    - destruct (h_redo hc) as [|[i s] u] eqn:Eu; cbn; [repeat split; auto; rewrite Eu; reflexivity|].
      inversion Hr; subst. cbn in *. repeat split; auto. rewrite <- firstn_map. cbn. rewrite H1; auto.
    - destruct (n =? 0); cbn; auto. rewrite firstn_map. auto.
    - auto.
    - cbn. rewrite !filter_fsnd. auto.
  Qed.

  Lemma forall_hist_event (P : Z * content -> Prop) (hc : hist content) e :
    (forall i, P (i, h_cur hc i) \/ ~ In i (undo_ids hc) /\ ~ In i (redo_ids hc) /\ forall s, e <> EvEdit i s) ->
    Forall P (h_undo hc) -> Forall P (h_redo hc) -> Forall P (h_undo (hstep hc e)) /\ Forall P (h_redo (hstep hc e)).
  Proof.
    intros Hc Hu Hr.
    assert (Hfn : forall n l, Forall P l -> Forall P (firstn n l)).
    { intros n l H. rewrite Forall_forall in *. intros y Hy. apply H. rewrite <- (firstn_skipn n l). apply in_or_app; auto. }
    assert (Hfl : forall f l, Forall P l -> Forall P (filter f l)).
    { intros f l H. rewrite Forall_forall in *. intros y Hy. apply filter_In in Hy. apply H; tauto. }
    destruct e as [i s| | | |n| |i]; cbn [hstep].
    - destruct (h_max hc =? 0); cbn; split; auto. apply Hfn. constructor; auto.
      destruct (Hc i) as [H|(_ & _ & H)]; auto. exfalso. apply (H s); reflexivity.
    - auto.
    - destruct (h_undo hc) as [|[i s] u] eqn:Eu; cbn; [rewrite Eu; auto|]. inversion Hu; subst. split; auto. constructor; auto.
      destruct (Hc i) as [H|(H & _)]; auto. exfalso. apply H. unfold undo_ids. rewrite Eu. cbn; auto.
    - destruct (h_redo hc) as [|[i s] u] eqn:Eu; cbn; [rewrite Eu; auto|]. inversion Hr; subst. split; auto. apply Hfn. constructor; auto.
      destruct (Hc i) as [H|(_ & H & _)]; auto. exfalso. apply H. unfold redo_ids. rewrite Eu. cbn; auto.
    - destruct (n =? 0); cbn; auto.
    - cbn; auto.
    - cbn; auto.
  Qed.

  Lemma tied_event w hc sw st' e : tied w hc sw -> refines restore commit le st' (hstep hc e) ->
    (forall i s, e = EvEdit i s -> In i (w_live w) /\ good s) ->
    tied (World (w_live w) (w_counter w) st') (hstep hc e) (happen sw (emap view_of e)).
  Proof.
    intros [R1 R2 R3 R4 R5 R6 R7 R8 R0 R9 R10 R11] Hrf He.
    assert (Hu : Forall (fun e => In (fst e) (w_live w)) (h_undo hc)) by (eapply Forall_impl; [|exact R10]; cbn; tauto).
    assert (Hr : Forall (fun e => In (fst e) (w_live w)) (h_redo hc)) by (eapply Forall_impl; [|exact R11]; cbn; tauto).
    destruct (hist_event (w_live w) hc (s_hist sw) e R2 R3 R4 R5 Hu Hr) as (E1 & E2 & E3 & E4).
    { intros i s H. apply (He i s H). }
    destruct (forall_hist_event (fun e => In (fst e) (w_live w) /\ good (snd e)) hc e) as (F1 & F2); auto.
    { intros i. destruct (in_dec Z.eq_dec i (w_live w)) as [Hi|Hi]; [left; cbn; auto|right].
      rewrite Forall_forall in Hu, Hr. repeat split.
      - intros H. unfold undo_ids in H. apply in_map_iff in H. destruct H as (x & <- & Hx). apply Hi, Hu, Hx.
      - intros H. unfold redo_ids in H. apply in_map_iff in H. destruct H as (x & <- & Hx). apply Hi, Hr, Hx.
      - intros s H. apply Hi, (He i s H). }
    constructor; cbn [w_stack w_live w_counter happen s_hist s_live s_next]; auto.
    intros i Hi. destruct e as [k s| | | |n| |k]; cbn [hstep].
    - destruct (He k s eq_refl) as [_ Hs].
      destruct (h_max hc =? 0); cbn; unfold put; destruct (Z.eqb i k); auto.
    - auto.
    - destruct (h_undo hc) as [|[k s] u]; cbn; auto. inversion R10; subst. unfold put. destruct (Z.eqb i k); auto. cbn in *; tauto.
    - destruct (h_redo hc) as [|[k s] u]; cbn; auto. inversion R11; subst. unfold put. destruct (Z.eqb i k); auto. cbn in *; tauto.
    - destruct (n =? 0); cbn; auto.
    - cbn; auto.
    - cbn; auto.
  Qed.

  Lemma refines_ext st st2 h : refines restore commit le st h -> (forall i, contents st2 i = contents st i) ->
    committed st2 = committed st -> restored st2 = restored st -> max_size st2 = max_size st -> refines restore commit le st2 h.
  Proof.
    intros [H1 H2 H3 H4 H5 H6] Hc Hcm Hrs Hm. constructor; auto; try congruence.
    - intros i. rewrite Hc. auto.
    - intros i. rewrite Hc, Hcm. auto.
    - intros i. rewrite Hc, Hrs. auto.
  Qed.

  Lemma tied_ext w hc sw st2 : tied w hc sw -> (forall i, contents st2 i = contents (w_stack w) i) ->
    committed st2 = committed (w_stack w) -> restored st2 = restored (w_stack w) -> max_size st2 = max_size (w_stack w) ->
    tied (World (w_live w) (w_counter w) st2) hc sw.
  Proof.
    intros [R1 R2 R3 R4 R5 R6 R7 R8 R0 R9 R10 R11] Hc Hcm Hrs Hm. constructor; auto.
    eapply refines_ext; eauto.
  Qed.

  Lemma inv_true (h : hist content) : inv_world (fun _ => True) h.
  Proof. repeat split; auto; rewrite Forall_forall; auto. Qed.

  Lemma uop_refines st hc o : refines restore commit le st hc -> well_tagged o -> allowed pre st o ->
    exists st' r, step restore commit edit_of st o = Ok (st', r) /\ expected_result hc o r /\
      refines restore commit le st' (hstep hc (event_of o r st')).
  Proof.
    intros Hrf Hw Ha.
    destruct (step_refines restore commit edit_of le le_refl le_trans (fun _ => True) pre (fun _ _ _ _ => I) edit_of_reversible
                st hc o Hrf (inv_true hc) Hw Ha) as (st' & r & H1 & H2 & H3 & _). eauto.
  Qed.

  Lemma tied_good w hc sw i : tied w hc sw -> In i (w_live w) -> good (contents (w_stack w) i).
  Proof.
    intros H Hi. eapply good_mono; [|apply (t_good _ _ _ H i Hi)]. apply (rf_cur _ _ _ _ _ (t_ref _ _ _ H)).
  Qed.

  Lemma map_fst_fsnd {S T} (f : S -> T) l : map fst (map (fsnd f) l) = map fst l.
  Proof. rewrite map_map. reflexivity. Qed.

  Lemma tied_ids w hc sw : tied w hc sw -> undo_ids (s_hist sw) = undo_ids hc /\ redo_ids (s_hist sw) = redo_ids hc.
  Proof.
    intros H. unfold undo_ids, redo_ids. rewrite (t_undo _ _ _ H), (t_redo _ _ _ H). rewrite !map_fst_fsnd. auto.
  Qed.

  Lemma tied_shrink w hc sw (keep : Z -> bool) : tied w hc sw ->
    Forall (fun e => keep (fst e) = true) (h_undo hc) -> Forall (fun e => keep (fst e) = true) (h_redo hc) ->
    tied (World (filter keep (w_live w)) (w_counter w) (w_stack w)) hc (SWorld (filter keep (s_live sw)) (s_next sw) (s_hist sw)).
  Proof.
    intros [R1 R2 R3 R4 R5 R6 R7 R8 R0 R9 R10 R11] Hu Hr.
    constructor; cbn [w_stack w_live w_counter s_hist s_live s_next]; auto.
    - intros i Hi. apply filter_In in Hi. apply R2; tauto.
    - congruence.
    - rewrite Forall_forall in *. intros i Hi. apply filter_In in Hi. apply R8; tauto.
    - intros i Hi. apply filter_In in Hi. apply R9; tauto.
    - rewrite Forall_forall in *. intros e He. destruct (R10 e He). split; auto. apply filter_In. auto.
    - rewrite Forall_forall in *. intros e He. destruct (R11 e He). split; auto. apply filter_In. auto.
  Qed.

  Lemma count_length i (l : list Z) : length (filter (Z.eqb i) l) = count_occ Z.eq_dec l i.
  Proof.
    induction l as [|j l IH]; cbn; auto. destruct (Z.eqb_spec i j) as [->|H]; destruct (Z.eq_dec j _); cbn; congruence.
  Qed.

  Lemma live_not_missing w hc sw i : tied w hc sw -> In i (w_live w) -> i <> missing_id.
  Proof. intros H Hi. pose proof (t_fresh _ _ _ H) as Hf. rewrite Forall_forall in Hf. specialize (Hf i Hi). unfold missing_id. lia. Qed.

  Lemma count_tied i (l : list (item (act leaf))) : i <> missing_id -> count_id i l = count_occ Z.eq_dec (map it_id l) i.
  Proof.
    intros H. unfold count_id. apply Z.eqb_neq in H. rewrite H. rewrite count_has_id. apply count_length.
  Qed.

  Lemma tied_step w hc sw o cur : tied w hc sw -> current w o cur -> op_allowed InvD PreD w o cur ->
    exists w' hc', api_step w o = Ok (w', spec_answer lib_edit fresh sw o cur) /\ tied w' hc' (spec_step lib_edit fresh sw o cur).
  Proof.
    intros T Hcur Ha. pose proof (t_ref _ _ _ T) as Hrf.
    pose proof (tied_shows _ _ _ T) as (Sl & Sn & Sv & Su & Sr & Sm).
    destruct (tied_ids _ _ _ T) as [Iu Ir].
    destruct o as [p|i|i|n| | | |i| | |i|i|tagged i c]; cbn [ApiModel.api_step spec_answer spec_step op_allowed current] in *.
    - (* allocate *)
      destruct (Z.eqb_spec (w_counter w) int_max); [lia|].
      assert (Hnl : is_live w (w_counter w) = false).
      { apply not_true_is_false. intros H. apply is_live_in in H. pose proof (t_fresh _ _ _ T) as Hf. rewrite Forall_forall in Hf.
        specialize (Hf _ H). lia. }
      rewrite Hnl. rewrite <- (t_next _ _ _ T). destruct (valid_projection p).
      + pose proof T as [R1 R2 R3 R4 R5 R6 R7 R8 R0 R9 R10 R11]. set (i := w_counter w) in *.
        assert (Hni : ~ In i (w_live w)) by (intros H; apply is_live_in in H; congruence).
        assert (Hlu : Forall (fun e => fst e <> i) (h_undo hc)).
        { rewrite Forall_forall in *. intros e He H. destruct (R10 e He) as [X _]. rewrite H in X. auto. }
        assert (Hlr : Forall (fun e => fst e <> i) (h_redo hc)).
        { rewrite Forall_forall in *. intros e He H. destruct (R11 e He) as [X _]. rewrite H in X. auto. }
        destruct (new_state_ok fresh p) as [Hns Hnh].
        assert (Hg : good (new_state fresh p)).
        { split; auto. exists (new_view fresh p). split; auto. intros x; destruct x; apply InvD_fresh. }
        eexists _, (Hist (put (h_cur hc) i (new_state fresh p)) (h_undo hc) (h_redo hc) (h_max hc)).
        split; [reflexivity|].
        destruct R1 as [Q1 Q2 Q3 Q4 Q5 Q6].
        constructor; cbn [w_stack w_live w_counter s_hist s_live s_next h_cur h_undo h_redo h_max set_content]; auto.
        * constructor; cbn; auto.
          -- intros j. unfold put, update. destruct (Z.eqb j i); auto. apply le_refl.
          -- intros j. unfold update. destruct (Z.eqb_spec j i) as [->|]; auto. eapply chain_c_any; eauto.
          -- intros j. unfold update. destruct (Z.eqb_spec j i) as [->|]; auto. eapply chain_r_any; eauto.
        * intros j Hj. unfold put. destruct (Z.eqb_spec j i) as [->|Hji]; [unfold view_of; rewrite Hns; reflexivity|].
          apply R2. destruct Hj; congruence.
        * congruence.
        * constructor; [|eapply Forall_impl; [|exact R8]; cbn; lia].
          lia.
        * lia.
        * intros j Hj. unfold put. destruct (Z.eqb_spec j i) as [->|Hji]; auto. apply R9. destruct Hj; congruence.
        * eapply Forall_impl; [|exact R10]. cbn; tauto.
        * eapply Forall_impl; [|exact R11]. cbn; tauto.
      + eexists _, hc. split; [reflexivity|].
        pose proof T as [R1 R2 R3 R4 R5 R6 R7 R8 R0 R9 R10 R11].
        constructor; cbn [w_stack w_live w_counter s_hist s_live s_next]; auto.
        * eapply Forall_impl; [|exact R8]; cbn; lia.
        * lia.
    - (* is_valid *)
      rewrite (s_has_live _ _ _ i T). eexists _, hc. split; [reflexivity|exact T].
    - (* expunge *)
      rewrite (s_has_live _ _ _ i T). destruct (is_live w i); [|eexists _, hc; split; [reflexivity|exact T]].
      destruct (uop_refines (w_stack w) hc (OpRemove i) Hrf I I) as (st' & r & H1 & H2 & H3).
      cbn [step stack_remove] in H1. inversion H1; subst st'. clear H1.
      pose proof (tied_event w hc sw _ (EvForget i) T H3) as T1. cbn [event_of emap] in *.
      eexists _, _. split; [reflexivity|].
      apply (tied_shrink _ _ _ (fun j => negb (j =? i)%Z)) in T1; try (intros; discriminate).
      + exact T1.
      + cbn. rewrite Forall_forall. intros e He. apply filter_In in He. unfold not_id in He. tauto.
      + cbn. rewrite Forall_forall. intros e He. apply filter_In in He. unfold not_id in He. tauto.
    - (* set size *)
      destruct (n <? 0)%Z; [eexists _, hc; split; [reflexivity|exact T]|].
      destruct (uop_refines (w_stack w) hc (OpSetMax (Z.to_nat n)) Hrf I I) as (st' & r & H1 & H2 & H3).
      cbn [step] in H1. inversion H1; subst st'. clear H1.
      eexists _, _. split; [reflexivity|]. apply (tied_event _ _ _ _ (EvSetMax (Z.to_nat n)) T H3). discriminate.
    - (* undo *)
      destruct (uop_refines (w_stack w) hc OpUndo Hrf I I) as (st' & r & H1 & H2 & H3).
      cbn [step] in H1. apply bind_ok_inv in H1. destruct H1 as ([st1 o] & H1 & H4). inversion H4; subst st1 r. clear H4.
      cbn [expected_result event_of] in *. rewrite H1. inversion H2; subst o. rewrite Iu.
      eexists _, _. split; [|apply (tied_event _ _ _ _ EvUndo T H3); discriminate].
      unfold report. destruct (undo_ids hc); reflexivity.
    - (* redo *)
      destruct (uop_refines (w_stack w) hc OpRedo Hrf I I) as (st' & r & H1 & H2 & H3).
      cbn [step] in H1. apply bind_ok_inv in H1. destruct H1 as ([st1 o] & H1 & H4). inversion H4; subst st1 r. clear H4.
      cbn [expected_result event_of] in *. rewrite H1. inversion H2; subst o. rewrite Ir.
      eexists _, _. split; [|apply (tied_event _ _ _ _ EvRedo T H3); discriminate].
      unfold report. destruct (redo_ids hc); reflexivity.
    - (* count *)
      eexists _, hc. split; [|exact T]. unfold committed_size, restored_size, count_id. rewrite Z.eqb_refl.
      rewrite <- (map_length it_id (committed _)), <- (map_length it_id (restored _)), Su, Sr. unfold undo_ids, redo_ids.
      rewrite !map_length. reflexivity.
    - (* count for id *)
      destruct (is_live w i) eqn:El.
      + eexists _, hc. split; [|exact T]. unfold committed_size, restored_size.
        assert (i <> missing_id) by (eapply live_not_missing; eauto; apply is_live_in; auto).
        rewrite !count_tied, Su, Sr by auto. reflexivity.
      + eexists _, hc. split; [|exact T].
        assert (Hn : ~ In i (w_live w)) by (intros H; apply is_live_in in H; congruence).
        rewrite Iu, Ir. repeat f_equal.
        * replace (count_occ Z.eq_dec (undo_ids hc) i) with 0; auto. symmetry. apply count_occ_not_In.
          intros H. unfold undo_ids in H. apply in_map_iff in H. destruct H as (e & <- & He).
          pose proof (t_gu _ _ _ T) as G. rewrite Forall_forall in G. apply Hn, (G e He).
        * replace (count_occ Z.eq_dec (redo_ids hc) i) with 0; auto. symmetry. apply count_occ_not_In.
          intros H. unfold redo_ids in H. apply in_map_iff in H. destruct H as (e & <- & He).
          pose proof (t_gr _ _ _ T) as G. rewrite Forall_forall in G. apply Hn, (G e He).
    - (* clear state *)
      destruct (uop_refines (w_stack w) hc OpClear Hrf I I) as (st' & r & H1 & H2 & H3).
      cbn [step] in H1. inversion H1; subst st'. clear H1. cbn [event_of] in H3.
      eexists _, (hstep hc EvClear). split; [reflexivity|].
      constructor; cbn; auto; try tauto; try lia. exact (t_max _ _ _ T).
    - (* clear undo *)
      destruct (uop_refines (w_stack w) hc OpClear Hrf I I) as (st' & r & H1 & H2 & H3).
      cbn [step] in H1. inversion H1; subst st'. clear H1.
      eexists _, _. split; [reflexivity|]. apply (tied_event _ _ _ _ EvClear T H3). discriminate.
    - (* clear undo for id *)
      destruct (uop_refines (w_stack w) hc (OpRemove i) Hrf I I) as (st' & r & H1 & H2 & H3).
      cbn [step stack_remove] in H1. inversion H1; subst st'. clear H1.
      eexists _, _. split; [reflexivity|]. apply (tied_event _ _ _ _ (EvForget i) T H3). discriminate.
    - (* get projection *)
      rewrite Ha. eexists _, hc. split; [|exact T]. destruct (Sv i Ha) as (v & Hv & Hl). destruct Hl as [_ Hl].
      rewrite Hl. rewrite (see_proj _ _ Hv). reflexivity.
    - (* call *)
      destruct Ha as [-> Ha]. rewrite (s_has_live _ _ _ i T). destruct (is_live w i) eqn:El.
      2:{ eexists _, hc. split; [reflexivity|exact T]. }
      specialize (Ha eq_refl). specialize (Hcur eq_refl).
      assert (Hi : In i (w_live w)) by (apply is_live_in; auto).
      pose proof (tied_good _ _ _ i T Hi) as Hg.
      pose proof (call_reversible c _ cur Hg Hcur Ha) as Hrev.
      pose proof (do_call_effect lib_edit fresh c _ cur (proj1 Hg) Hcur) as Heff.
      destruct (uop_refines (w_stack w) hc (OpEdit i i c) Hrf eq_refl) as (st' & r & H1 & H2 & H3).
      { split; auto. exists cur. auto. }
      cbn [step] in H1. unfold edit_of in H1.
      assert (Hsame : forall j, contents (set_content (w_stack w) i (contents (w_stack w) i)) j = contents (w_stack w) j).
      { intros j. cbn. unfold update. destruct (Z.eqb_spec j i); congruence. }
      destruct (do_call c (contents (w_stack w) i)) as [[[s' [a|]] [ex|]]|ex|]; try tauto; cbn [bind].
      + (* an action *)
        apply bind_ok_inv in H1. destruct H1 as (st1 & H1 & H4). inversion H4; subst st1 r. clear H4.
        unfold set_content. rewrite H1.
        assert (Hs' : contents st' i = s').
        { rewrite (stack_add_contents _ _ _ _ _ H1). cbn. unfold update. rewrite Z.eqb_refl. reflexivity. }
        cbn [event_of] in H3. rewrite Hs' in H3.
        pose proof (tied_event w hc sw st' (EvEdit i s') T H3) as T1.
        destruct (call_effect lib_edit fresh c cur) as [[v'| |ex]|ex|]; try discriminate.
        * destruct Heff as (s2 & a2 & Hc2 & Hv2 & _). inversion Hc2; subst s2 a2.
          eexists _, _. split; [reflexivity|]. cbn [emap] in T1. unfold view_of at 1 in T1. rewrite Hv2 in T1.
          apply T1. intros j s [= <- <-]. tauto.
        * destruct c; discriminate.
        * tauto.
      + (* refused *)
        destruct Hrev as [-> Hrev].
        destruct (call_effect lib_edit fresh c cur) as [[v'| |ex']|ex'|]; try discriminate.
        * destruct Heff as (s2 & a2 & Hc2 & _). discriminate.
        * eexists _, hc. split; [destruct c; inversion Heff; subst; reflexivity|]. apply (tied_ext w hc sw); auto.
        * tauto.
      + (* nothing *)
        destruct Hrev as [-> Hrev].
        destruct (call_effect lib_edit fresh c cur) as [[v'| |ex']|ex'|] eqn:Ee; try discriminate.
        * destruct Heff as (s2 & a2 & Hc2 & Hs2 & _). specialize (Hrev eq_refl). discriminate.
        * eexists _, hc. split; [reflexivity|]. apply (tied_ext w hc sw); auto.
        * destruct c; discriminate.
        * tauto.
  Qed.
End Follow.

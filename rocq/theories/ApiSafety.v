(** Proofs about kernel ids, isolation, accounting, memory and errors of the C interface. *)
From Verif Require Import Base BaseLemmas UndoModel UndoSpec UndoProofs UndoProofs2 ActionModel ActionSpec ActionProofs ApiModel ApiSpec ApiProofs ApiUndo.

Section Runs.
  Context {D A Ed : Type}.
  Variables (do_restore do_commit : A -> D -> outcome (A * D)).
  Variable lib_edit : Ed -> D -> outcome (option (A * D)).
  Variable fresh : slot -> Z -> D.
  Notation content := (content D).
  Notation view := (view D).
  Notation call := (call D Ed).
  Notation leaf := (leaf A).
  Notation world := (world D A).
  Notation api_op := (api_op D Ed).
  Notation do_call := (do_call lib_edit fresh).
  Notation restore := (restore_act (leaf_restore do_restore)).
  Notation commit := (commit_act (leaf_commit do_commit)).
  Notation api_step := (api_step do_restore do_commit lib_edit fresh).
  Notation asks_existing := (asks_existing do_restore do_commit lib_edit fresh).
  Notation api_run := (api_run do_restore do_commit lib_edit fresh).
  Notation ustate := (ustate (act leaf) content).

  Lemma run_cons w o t w' rs : api_run w (o :: t) = Ok (w', rs) ->
    exists w1 r rs1, api_step w o = Ok (w1, r) /\ api_run w1 t = Ok (w', rs1) /\ rs = r :: rs1.
  Proof.
    cbn [ApiModel.api_run]. intros H. apply bind_ok_inv in H. destruct H as ([w1 r] & H1 & H).
    apply bind_ok_inv in H. destruct H as ([w2 rs1] & H2 & H). inversion H; subst. eauto 6.
  Qed.

  Lemma stack_add_committed (st : ustate) (a : option (act leaf)) i j :
    exists st', stack_add st (match a with Some u => Some (u, Committed) | None => None end) i j = Ok st' /\
      contents st' = contents st /\ max_size st' = max_size st.
  Proof.
    unfold stack_add. destruct a as [u|]; [|eauto]. destruct (0 <? max_size st); eexists; (split; [reflexivity|]); auto.
  Qed.

  (** An invariant kept by every step holds after every run. *)
  Lemma run_inv (P : world -> Prop) (Q : api_op -> Prop) :
    (forall w o w' r, P w -> Q o -> api_step w o = Ok (w', r) -> P w') ->
    forall ops w w' rs, P w -> Forall Q ops -> api_run w ops = Ok (w', rs) -> P w'.
  Proof.
    intros Hs ops. induction ops as [|o t IH]; intros w w' rs Hw Hq H.
    - cbn in H. inversion H; subst. auto.
    - apply run_cons in H. destruct H as (w1 & r & rs1 & H1 & H2 & ->). inversion Hq; subst. eauto.
  Qed.

  (** A call: what happens to the world. *)
  Lemma call_step w tagged i c w' r : api_step w (ACall tagged i c) = Ok (w', r) ->
    (is_live w i = false /\ w' = w /\ r = Answer (Some MeshKernelErr) []) \/
    (is_live w i = true /\ exists s' a e st',
       do_call c (contents (w_stack w) i) = Ok (s', a, e) /\ w' = World (w_live w) (w_counter w) st' /\
       r = Answer e [] /\
       match e with
       | Some _ => st' = set_content (w_stack w) i s'
       | None => stack_add (set_content (w_stack w) i s') (match a with Some u => Some (u, Committed) | None => None end)
                   (if tagged then i else missing_id) i = Ok st'
       end).
  Proof.
    cbn [ApiModel.api_step]. destruct (is_live w i).
    2:{ intros H; inversion H; subst; auto. }
    intros H. right. split; auto. apply bind_ok_inv in H. destruct H as ([[s' a] e] & H1 & H). rewrite H1.
    exists s', a, e. destruct e as [ex|].
    - inversion H; subst. eexists. repeat split.
    - destruct (stack_add_committed (set_content (w_stack w) i s') a (if tagged then i else missing_id) i) as (st' & Hst & _).
      rewrite Hst in H. inversion H; subst. exists st'. repeat split. exact Hst.
  Qed.

  Lemma call_contents w tagged i c w' r j : api_step w (ACall tagged i c) = Ok (w', r) -> j <> i ->
    contents (w_stack w') j = contents (w_stack w) j.
  Proof.
    intros H Hj. apply call_step in H. destruct H as [(_ & -> & _)|(_ & s' & a & e & st' & _ & -> & _ & H)]; auto.
    cbn [w_stack]. destruct e as [ex|].
    - subst st'. cbn. unfold update. apply Z.eqb_neq in Hj. rewrite Hj. reflexivity.
    - rewrite (stack_add_contents _ _ _ _ _ H). cbn. unfold update. apply Z.eqb_neq in Hj. rewrite Hj. reflexivity.
  Qed.

  (** ** Fresh ids *)
  Definition no_clear (o : api_op) : Prop := o <> AClearState.

  Lemma counter_step w o w' r : api_step w o = Ok (w', r) -> no_clear o ->
    w_counter w' = (w_counter w + match o with AAllocate _ => 1 | _ => 0 end)%Z /\
    (forall p, o = AAllocate p -> a_out r = [w_counter w]).
  Proof.
    intros H Hn. destruct o as [p|i|i|n| | | |i| | |i|i|tagged i c]; cbn [ApiModel.api_step] in H.
    - destruct (w_counter w =? int_max)%Z; [discriminate|]. destruct (valid_projection p); [destruct (is_live w _)|]; inversion H; subst;
        split; auto; intros; auto.
    - inversion H; subst. split; [cbn; lia|intros; discriminate].
    - destruct (is_live w i); inversion H; subst; (split; [cbn; lia|intros; discriminate]).
    - destruct (n <? 0)%Z; inversion H; subst; (split; [cbn; lia|intros; discriminate]).
    - unfold report in H. destruct (stack_undo _ _) as [[st [j|]]| |]; inversion H; subst; (split; [cbn; lia|intros; discriminate]).
    - unfold report in H. destruct (stack_redo _ _) as [[st [j|]]| |]; inversion H; subst; (split; [cbn; lia|intros; discriminate]).
    - inversion H; subst. split; [cbn; lia|intros; discriminate].
    - destruct (is_live w i); inversion H; subst; (split; [cbn; lia|intros; discriminate]).
    - exfalso. apply Hn. reflexivity.
    - inversion H; subst. split; [cbn; lia|intros; discriminate].
    - inversion H; subst. split; [cbn; lia|intros; discriminate].
    - destruct (is_live w i); inversion H; subst; (split; [cbn; lia|intros; discriminate]).
    - apply call_step in H. destruct H as [(_ & -> & _)|(_ & s' & a & e & st' & _ & -> & _)]; (split; [cbn; lia|intros; discriminate]).
  Qed.

  Lemma fresh_ids ops : forall w w' rs, Forall no_clear ops -> api_run w ops = Ok (w', rs) ->
    NoDup (handed_out ops rs) /\ Forall (fun i => (w_counter w <= i < w_counter w')%Z) (handed_out ops rs) /\
    (w_counter w <= w_counter w')%Z.
  Proof.
    induction ops as [|o t IH]; intros w w' rs Hn H.
    - cbn in H. inversion H; subst. cbn. repeat split; try constructor. lia.
    - apply run_cons in H. destruct H as (w1 & r & rs1 & H1 & H2 & ->). inversion Hn as [|? ? Hn1 Hn2]; subst.
      destruct (counter_step _ _ _ _ H1 Hn1) as [Hc Ho]. destruct (IH _ _ _ Hn2 H2) as (I1 & I2 & I3).
      destruct o as [p| | | | | | | | | | | |]; cbn [handed_out];
        try (rewrite Z.add_0_r in Hc; rewrite <- Hc; auto).
      rewrite (Ho p eq_refl). cbn [app]. repeat split.
      + constructor; auto. intros Hin. rewrite Forall_forall in I2. specialize (I2 _ Hin). lia.
      + constructor; [lia|]. eapply Forall_impl; [|exact I2]. cbn; lia.
      + lia.
  Qed.

  (** ** Ids that do not exist *)
  Lemma unknown_id w i : is_live w i = false ->
    (forall tagged c, api_step w (ACall tagged i c) = Ok (w, Answer (Some MeshKernelErr) [])) /\
    api_step w (AExpunge i) = Ok (w, Answer (Some MeshKernelErr) []) /\
    api_step w (AIsValid i) = Ok (w, Answer None [0%Z]) /\
    api_step w (ACountFor i) = Ok (w, Answer None [0%Z; 0%Z]).
  Proof. intros H. cbn [ApiModel.api_step]. rewrite H. repeat split; auto. Qed.

  (** ** Every id hands out a new state, as long as nobody asks for the projection of an id that does not exist. *)
  Definition ids_below (w : world) : Prop := Forall (fun i => (i < w_counter w)%Z) (w_live w).

  Lemma ids_below_step w o w' r : ids_below w -> (forall i, o = AGetProjection i -> is_live w i = true) ->
    api_step w o = Ok (w', r) -> ids_below w'.
  Proof.
    intros Hb Hg H. unfold ids_below in *. destruct o as [p|i|i|n| | | |i| | |i|i|tagged i c]; cbn [ApiModel.api_step] in H.
    - destruct (w_counter w =? int_max)%Z; [discriminate|].
      assert (Forall (fun i => (i < w_counter w + 1)%Z) (w_live w)) by (eapply Forall_impl; [|exact Hb]; cbn; lia).
      destruct (valid_projection p); [destruct (is_live w _)|]; inversion H; subst; cbn; auto. constructor; auto. lia.
    - inversion H; subst. auto.
    - destruct (is_live w i); inversion H; subst; auto. cbn. rewrite Forall_forall in *. intros j Hj. apply filter_In in Hj. apply Hb; tauto.
    - destruct (n <? 0)%Z; inversion H; subst; auto.
    - unfold report in H. destruct (stack_undo _ _) as [[st [j|]]| |]; inversion H; subst; auto.
    - unfold report in H. destruct (stack_redo _ _) as [[st [j|]]| |]; inversion H; subst; auto.
    - inversion H; subst; auto.
    - destruct (is_live w i); inversion H; subst; auto.
    - inversion H; subst. constructor.
    - inversion H; subst; auto.
    - inversion H; subst; auto.
    - rewrite (Hg i eq_refl) in H. inversion H; subst; auto.
    - apply call_step in H. destruct H as [(_ & -> & _)|(_ & s' & a & e & st' & _ & -> & _)]; auto.
  Qed.

  (** Every question about a projection concerns an existing id. *)

  Lemma ids_below_run ops : forall w w' rs, ids_below w -> asks_existing w ops -> api_run w ops = Ok (w', rs) -> ids_below w'.
  Proof.
    induction ops as [|o t IH]; intros w w' rs Hb Ha H.
    - cbn in H. inversion H; subst. auto.
    - apply run_cons in H. destruct H as (w1 & r & rs1 & H1 & H2 & ->). destruct Ha as [Ha1 Ha2].
      eapply IH; [|apply (Ha2 _ _ H1)|exact H2]. eapply ids_below_step; eauto.
  Qed.

  Lemma allocate_new ops w rs p : asks_existing api_init ops -> api_run api_init ops = Ok (w, rs) ->
    (w_counter w < int_max)%Z -> valid_projection p = true ->
    is_live w (w_counter w) = false /\
    exists w', api_step w (AAllocate p) = Ok (w', Answer None [w_counter w]) /\
      is_live w' (w_counter w) = true /\ see (contents (w_stack w') (w_counter w)) = Ok (new_view fresh p) /\
      (forall j, j <> w_counter w -> is_live w' j = is_live w j /\ contents (w_stack w') j = contents (w_stack w) j) /\
      committed (w_stack w') = committed (w_stack w) /\ restored (w_stack w') = restored (w_stack w).
  Proof.
    intros Ha H Hlt Hp.
    assert (Hb : ids_below w) by (eapply ids_below_run; [|exact Ha|exact H]; constructor).
    assert (Hn : is_live w (w_counter w) = false).
    { apply not_true_is_false. intros E. apply is_live_in in E. unfold ids_below in Hb. rewrite Forall_forall in Hb. specialize (Hb _ E). lia. }
    split; auto. cbn [ApiModel.api_step]. destruct (Z.eqb_spec (w_counter w) int_max); [lia|]. rewrite Hp, Hn.
    eexists. split; [reflexivity|]. repeat split; cbn [w_live w_stack contents set_content].
    - unfold is_live; cbn. rewrite Z.eqb_refl. reflexivity.
    - unfold update. rewrite Z.eqb_refl. apply new_state_ok.
    - unfold is_live; cbn. apply Z.eqb_neq in H0. rewrite H0. reflexivity.
    - unfold update. apply Z.eqb_neq in H0. rewrite H0. reflexivity.
  Qed.

  (** ** Isolation *)
  Lemma step_isolated w o w' r i j : about o = Some i -> j <> i -> api_step w o = Ok (w', r) ->
    contents (w_stack w') j = contents (w_stack w) j /\ is_live w' j = is_live w j.
  Proof.
    intros Ho Hj H. destruct o as [p|k|k|n| | | |k| | |k|k|tagged k c]; cbn [about] in Ho; inversion Ho; subst k; clear Ho.
    - inversion H; subst; auto.
    - cbn [ApiModel.api_step] in H. destruct (is_live w i); inversion H; subst; auto. split; [reflexivity|].
      unfold is_live; cbn. apply eq_true_iff_eq. rewrite !existsb_exists. split.
      + intros (x & Hx & He). apply filter_In in Hx. exists x. tauto.
      + intros (x & Hx & He). exists x. split; auto. apply filter_In. split; auto. apply Z.eqb_eq in He. subst x.
        apply Z.eqb_neq in Hj. rewrite Hj. reflexivity.
    - cbn [ApiModel.api_step] in H. destruct (is_live w i); inversion H; subst; auto.
    - cbn [ApiModel.api_step] in H. inversion H; subst; auto.
    - cbn [ApiModel.api_step] in H. destruct (is_live w i); inversion H; subst; auto. cbn. unfold update.
      apply Z.eqb_neq in Hj. unfold is_live; cbn. rewrite Hj. auto.
    - split; [eapply call_contents; eauto|]. apply call_step in H.
      destruct H as [(_ & -> & _)|(_ & s' & a & e & st' & _ & -> & _)]; auto.
  Qed.

  (** Tags and targets. *)
  Definition own_tag (it : item (act leaf)) : Prop := it_id it = it_target it.
  Definition stack_ok (P : item (act leaf) -> Prop) (st : ustate) : Prop := Forall P (committed st) /\ Forall P (restored st).

  Lemma forall_filter {T} (P : T -> Prop) f l : Forall P l -> Forall P (filter f l).
  Proof. intros H. rewrite Forall_forall in *. intros x Hx. apply filter_In in Hx. apply H; tauto. Qed.
  Lemma forall_removelast {T} (P : T -> Prop) l : Forall P l -> Forall P (removelast l).
  Proof. induction l as [|x l IH]; intros H; cbn; auto. destruct l; auto. inversion H; subst. constructor; auto. Qed.
  Lemma forall_iter_removelast {T} (P : T -> Prop) n l : Forall P l -> Forall P (Nat.iter n (@removelast T) l).
  Proof. induction n; cbn; auto. intros H. apply forall_removelast. auto. Qed.

  Lemma restore_item_ids it (c : Z -> content) it' c' : restore_item restore it c = Ok (it', c') ->
    it_id it' = it_id it /\ it_target it' = it_target it /\ (forall j, j <> it_target it -> c' j = c j).
  Proof.
    unfold restore_item. destruct (it_state it).
    - intros H. apply bind_ok_inv in H. destruct H as ([a s] & _ & H). inversion H; subst. repeat split; auto.
      intros j Hj. apply update_other; auto.
    - intros H; inversion H; subst; auto.
  Qed.
  Lemma commit_item_ids it (c : Z -> content) it' c' : commit_item commit it c = Ok (it', c') ->
    it_id it' = it_id it /\ it_target it' = it_target it /\ (forall j, j <> it_target it -> c' j = c j).
  Proof.
    unfold commit_item. destruct (it_state it).
    - intros H; inversion H; subst; auto.
    - intros H. apply bind_ok_inv in H. destruct H as ([a s] & _ & H). inversion H; subst. repeat split; auto.
      intros j Hj. apply update_other; auto.
  Qed.

  Lemma undo_inv (st st' : ustate) o : stack_undo restore st = Ok (st', o) ->
    (committed st = [] /\ st' = st /\ o = None) \/
    exists it rest it' c, committed st = it :: rest /\ restore_item restore it (contents st) = Ok (it', c) /\
      st' = UState c rest (it' :: restored st) (max_size st) /\ o = Some (it_id it).
  Proof.
    unfold stack_undo. destruct (committed st) as [|it rest].
    - intros H; inversion H; subst; auto.
    - intros H. apply bind_ok_inv in H. destruct H as ([it' c] & H1 & H). inversion H; subst. right. eauto 8.
  Qed.
  Lemma redo_inv (st st' : ustate) o : stack_redo commit st = Ok (st', o) ->
    (restored st = [] /\ st' = st /\ o = None) \/
    exists it rest it' c, restored st = it :: rest /\ commit_item commit it (contents st) = Ok (it', c) /\
      st' = UState c (if max_size st <? length (it' :: committed st) then removelast (it' :: committed st) else it' :: committed st)
              rest (max_size st) /\ o = Some (it_id it).
  Proof.
    unfold stack_redo. destruct (restored st) as [|it rest].
    - intros H; inversion H; subst; auto.
    - intros H. apply bind_ok_inv in H. destruct H as ([it' c] & H1 & H). inversion H; subst. right. eauto 8.
  Qed.

  Lemma report_inv (w : world) r w' ans : report w r = Ok (w', ans) ->
    exists st o, r = Ok (st, o) /\ w' = World (w_live w) (w_counter w) st /\
      ans = Answer None (match o with Some i => [1; i]%Z | None => [0; missing_id]%Z end).
  Proof.
    unfold report. destruct r as [[st [i|]]| |]; intros H; inversion H; subst; eauto.
  Qed.

  (** Entries carry the id they act on, and this id exists. *)
  Definition accounted (w : world) : Prop :=
    stack_ok (fun it => it_id it = it_target it /\ In (it_target it) (w_live w)) (w_stack w).

  Lemma accounted_step w o w' r : accounted w -> tagged_op o -> api_step w o = Ok (w', r) -> accounted w'.
  Proof.
    intros [Hc Hr] Ht H.
    assert (Hmono : forall live, incl (w_live w) live ->
      stack_ok (fun it => it_id it = it_target it /\ In (it_target it) live) (w_stack w)).
    { intros live Hi. split; (eapply Forall_impl; [|eassumption]); cbn; intros a (E1 & E2); auto. }
    destruct o as [p|i|i|n| | | |i| | |i|i|tagged i c].
    - cbn [ApiModel.api_step] in H. destruct (w_counter w =? int_max)%Z; [discriminate|].
      destruct (valid_projection p); [destruct (is_live w _)|]; inversion H; subst; try (split; assumption).
      destruct (Hmono (w_counter w :: w_live w)) as [A1 A2]; [intros x; cbn; auto|]. split; auto.
    - inversion H; subst; split; auto.
    - cbn [ApiModel.api_step] in H. destruct (is_live w i); inversion H; subst; [|split; auto].
      split; cbn; rewrite Forall_forall in *; intros it Hit; apply filter_In in Hit; destruct Hit as [Hit Hid].
      + destruct (Hc it Hit) as [E1 E2]. split; auto. apply filter_In. split; auto. unfold has_id in Hid. rewrite <- E1. exact Hid.
      + destruct (Hr it Hit) as [E1 E2]. split; auto. apply filter_In. split; auto. unfold has_id in Hid. rewrite <- E1. exact Hid.
    - cbn [ApiModel.api_step] in H. destruct (n <? 0)%Z; inversion H; subst; [split; auto|].
      unfold accounted; cbn. unfold stack_set_max. destruct (Z.to_nat n =? 0); [split; constructor|].
      destruct (Z.to_nat n <? length (committed (w_stack w))); split; cbn; auto. apply forall_iter_removelast; auto.
    - cbn [ApiModel.api_step] in H. apply report_inv in H. destruct H as (st & o & H & -> & _).
      apply undo_inv in H. destruct H as [(_ & -> & _)|(it & rest & it' & c & E1 & E2 & -> & _)]; [split; auto|].
      apply restore_item_ids in E2. destruct E2 as (I1 & I2 & _). rewrite E1 in Hc. inversion Hc; subst.
      split; cbn; auto. constructor; auto. rewrite I1, I2. auto.
    - cbn [ApiModel.api_step] in H. apply report_inv in H. destruct H as (st & o & H & -> & _).
      apply redo_inv in H. destruct H as [(_ & -> & _)|(it & rest & it' & c & E1 & E2 & -> & _)]; [split; auto|].
      apply commit_item_ids in E2. destruct E2 as (I1 & I2 & _). rewrite E1 in Hr. inversion Hr; subst.
      split; cbn [committed restored w_stack w_live]; auto.
      assert (Forall (fun it => it_id it = it_target it /\ In (it_target it) (w_live w)) (it' :: committed (w_stack w))).
      { constructor; auto. rewrite I1, I2. auto. }
      destruct (_ <? _); auto. apply forall_removelast; auto.
    - inversion H; subst; split; auto.
    - cbn [ApiModel.api_step] in H. destruct (is_live w i); inversion H; subst; split; auto.
    - inversion H; subst. split; constructor.
    - inversion H; subst. split; constructor.
    - inversion H; subst. split; cbn; apply forall_filter; auto.
    - cbn [ApiModel.api_step] in H. destruct (is_live w i); inversion H; subst; [split; auto|].
      destruct (Hmono (i :: w_live w)) as [A1 A2]; [intros x; cbn; auto|]. split; auto.
    - cbn in Ht. subst tagged. apply call_step in H. destruct H as [(_ & -> & _)|(El & s' & a & e & st' & _ & -> & _ & H)]; [split; auto|].
      apply is_live_in in El.
      destruct e as [ex|]; [subst st'; split; auto|].
      unfold stack_add in H. destruct a as [u|]; [|inversion H; subst; split; auto].
      destruct (0 <? _); [|inversion H; subst; split; auto].
      inversion H; subst. clear H. split; cbn [committed restored w_stack w_live set_content contents max_size].
      + assert (Forall (fun it => it_id it = it_target it /\ In (it_target it) (w_live w)) (Item u Committed i i :: committed (w_stack w))).
        { constructor; auto. }
        destruct (_ <? _); auto. exact (forall_removelast _ _ H).
      + apply forall_filter; auto.
  Qed.

  Lemma accounted_run ops w rs : Forall tagged_op ops -> api_run api_init ops = Ok (w, rs) -> accounted w.
  Proof.
    intros Ht H. eapply (run_inv accounted tagged_op); [|..|exact H]; auto.
    - intros. eapply accounted_step; eauto.
    - split; constructor.
  Qed.

  (** Undo and redo change only the id they report. *)
  Lemma undo_isolated w w' r : accounted w -> api_step w AUndo = Ok (w', r) ->
    (r = Answer None [0; missing_id]%Z /\ w' = World (w_live w) (w_counter w) (w_stack w)) \/
    exists i, r = Answer None [1; i]%Z /\ is_live w i = true /\ (forall j, j <> i -> contents (w_stack w') j = contents (w_stack w) j) /\
      w_live w' = w_live w.
  Proof.
    intros [Hc Hr] H. cbn [ApiModel.api_step] in H. apply report_inv in H. destruct H as (st & o & H & -> & ->).
    apply undo_inv in H. destruct H as [(_ & -> & ->)|(it & rest & it' & c & E1 & E2 & -> & ->)]; [auto|right].
    apply restore_item_ids in E2. destruct E2 as (I1 & I2 & I3). rewrite E1 in Hc. inversion Hc as [|? ? [P1 P2] P3]; subst.
    exists (it_id it). rewrite P1. repeat split; auto. apply is_live_in; auto.
  Qed.
  Lemma redo_isolated w w' r : accounted w -> api_step w ARedo = Ok (w', r) ->
    (r = Answer None [0; missing_id]%Z /\ w' = World (w_live w) (w_counter w) (w_stack w)) \/
    exists i, r = Answer None [1; i]%Z /\ is_live w i = true /\ (forall j, j <> i -> contents (w_stack w') j = contents (w_stack w) j) /\
      w_live w' = w_live w.
  Proof.
    intros [Hc Hr] H. cbn [ApiModel.api_step] in H. apply report_inv in H. destruct H as (st & o & H & -> & ->).
    apply redo_inv in H. destruct H as [(_ & -> & ->)|(it & rest & it' & c & E1 & E2 & -> & ->)]; [auto|right].
    apply commit_item_ids in E2. destruct E2 as (I1 & I2 & I3). rewrite E1 in Hr. inversion Hr as [|? ? [P1 P2] P3]; subst.
    exists (it_id it). rewrite P1. repeat split; auto. apply is_live_in; auto.
  Qed.

  (** Calls on other ids can be left out. *)

  Lemma alike_step i w v o w' r : alike i w v -> no_undo_redo o -> keeps i o = true -> api_step w o = Ok (w', r) ->
    exists v' r', api_step v o = Ok (v', r') /\ alike i w' v' /\ (calls i o = true -> r' = r).
  Proof.
    intros (Hl & Hc & Hs) Hn Hk H.
    assert (Hlive : forall j, is_live v j = is_live w j) by (intros j; unfold is_live; rewrite Hl; reflexivity).
    destruct o as [p|k|k|n| | | |k| | |k|k|tagged k c]; cbn [no_undo_redo] in Hn; try tauto.
    - cbn [ApiModel.api_step] in *. rewrite <- Hc, Hlive. destruct (w_counter w =? int_max)%Z; [discriminate|].
      destruct (valid_projection p); [destruct (is_live w _)|]; inversion H; subst; eexists _, _; (split; [reflexivity|]); (split; [|discriminate]);
        repeat split; cbn; try congruence. unfold update. destruct (Z.eqb _ _); auto.
    - cbn [ApiModel.api_step] in *. inversion H; subst. eexists _, _. split; [reflexivity|]. split; [split; auto|discriminate].
    - cbn [ApiModel.api_step] in *. rewrite Hlive. destruct (is_live w k); inversion H; subst;
        eexists _, _; (split; [reflexivity|]); (split; [|discriminate]); repeat split; cbn; congruence.
    - cbn [ApiModel.api_step] in *. destruct (n <? 0)%Z; inversion H; subst;
        eexists _, _; (split; [reflexivity|]); (split; [|discriminate]); repeat split; cbn; auto.
      unfold stack_set_max. destruct (Z.to_nat n =? 0); auto.
      destruct (_ <? length (committed (w_stack w))), (_ <? length (committed (w_stack v))); auto.
    - cbn [ApiModel.api_step] in *. inversion H; subst. eexists _, _. split; [reflexivity|]. split; [split; auto|discriminate].
    - cbn [ApiModel.api_step] in *. rewrite Hlive. destruct (is_live w k); inversion H; subst;
        eexists _, _; (split; [reflexivity|]); (split; [|discriminate]); repeat split; cbn; congruence.
    - cbn [ApiModel.api_step] in *. inversion H; subst. eexists _, _. split; [reflexivity|]. split; [|discriminate]. repeat split; auto.
    - cbn [ApiModel.api_step] in *. inversion H; subst. eexists _, _. split; [reflexivity|]. split; [|discriminate]. repeat split; auto.
    - cbn [ApiModel.api_step] in *. inversion H; subst. eexists _, _. split; [reflexivity|]. split; [|discriminate]. repeat split; auto.
    - cbn [ApiModel.api_step] in *. rewrite Hlive. destruct (is_live w k); inversion H; subst;
        eexists _, _; (split; [reflexivity|]); (split; [|discriminate]); repeat split; cbn; try congruence.
      unfold update. destruct (Z.eqb i k); auto.
    - cbn in Hk. apply Z.eqb_eq in Hk. subst k. apply call_step in H. cbn [ApiModel.api_step]. rewrite Hlive.
      destruct H as [(El & -> & ->)|(El & s' & a & e & st' & Hd & -> & -> & H)]; rewrite El.
      + eexists _, _. split; [reflexivity|]. repeat split; auto.
      + rewrite <- Hs, Hd. cbn [bind]. destruct e as [ex|].
        * subst st'. eexists _, _. split; [reflexivity|]. repeat split; cbn; auto. unfold update. rewrite Z.eqb_refl. reflexivity.
        * destruct (stack_add_committed (set_content (w_stack v) i s') a (if tagged then i else missing_id) i) as (sv & Hsv & Hcv & _).
          rewrite Hsv. eexists _, _. split; [reflexivity|]. repeat split; cbn; auto.
          rewrite Hcv, (stack_add_contents _ _ _ _ _ H). cbn. unfold update. rewrite Z.eqb_refl. reflexivity.
  Qed.

  Lemma noninterference i ops : forall w v w' rs, alike i w v -> Forall no_undo_redo ops -> api_run w ops = Ok (w', rs) ->
    exists v' rs', api_run v (filter (keeps i) ops) = Ok (v', rs') /\ alike i w' v' /\
      answers_to i (filter (keeps i) ops) rs' = answers_to i ops rs.
  Proof.
    induction ops as [|o t IH]; intros w v w' rs Hal Hn H.
    - cbn in H. inversion H; subst. exists v, []. cbn. auto.
    - apply run_cons in H. destruct H as (w1 & r & rs1 & H1 & H2 & ->). inversion Hn as [|? ? Hn1 Hn2]; subst. cbn [filter].
      destruct (keeps i o) eqn:Ek.
      + destruct (alike_step _ _ _ _ _ _ Hal Hn1 Ek H1) as (v1 & r1 & Hv & Hal1 & Hr).
        destruct (IH _ _ _ _ Hal1 Hn2 H2) as (v' & rs' & Hv' & Hal' & Hans).
        exists v', (r1 :: rs'). cbn [ApiModel.api_run]. rewrite Hv. cbn [bind]. rewrite Hv'. cbn [bind]. split; [reflexivity|]. split; auto.
        unfold answers_to in *. cbn [combine filter fst]. destruct (calls i o); auto. cbn. rewrite Hans, Hr by reflexivity. reflexivity.
      + destruct o as [p|k|k|n| | | |k| | |k|k|tagged k c]; try discriminate. cbn in Ek.
        assert (Hik : i <> k) by (apply Z.eqb_neq in Ek; congruence).
        assert (Hal1 : alike i w1 v).
        { destruct Hal as (E1 & E2 & E3). pose proof (call_contents _ _ _ _ _ _ i H1 Hik) as Hcc. apply call_step in H1.
          destruct H1 as [(_ & -> & _)|(_ & s' & a & e & st' & _ & -> & _)]; repeat split; cbn in *; congruence. }
        destruct (IH _ _ _ _ Hal1 Hn2 H2) as (v' & rs' & Hv' & Hal' & Hans).
        exists v', rs'. split; auto. split; auto. unfold answers_to in *. cbn [combine filter fst calls]. rewrite Ek. exact Hans.
  Qed.

  (** ** Accounting *)
  Lemma nodup_live_step w o w' r : NoDup (w_live w) -> api_step w o = Ok (w', r) -> NoDup (w_live w').
  Proof.
    intros Hn H. assert (Hin : forall i, is_live w i = false -> ~ In i (w_live w)).
    { intros i E Hi. apply is_live_in in Hi. congruence. }
    destruct o as [p|i|i|n| | | |i| | |i|i|tagged i c].
    - cbn [ApiModel.api_step] in H. destruct (w_counter w =? int_max)%Z; [discriminate|].
      destruct (valid_projection p); [destruct (is_live w _) eqn:El|]; inversion H; subst; auto. cbn. constructor; auto.
    - inversion H; subst; auto.
    - cbn [ApiModel.api_step] in H. destruct (is_live w i); inversion H; subst; auto. cbn. apply NoDup_filter; auto.
    - cbn [ApiModel.api_step] in H. destruct (n <? 0)%Z; inversion H; subst; auto.
    - cbn [ApiModel.api_step] in H. apply report_inv in H. destruct H as (st & o & H & -> & _). auto.
    - cbn [ApiModel.api_step] in H. apply report_inv in H. destruct H as (st & o & H & -> & _). auto.
    - inversion H; subst; auto.
    - cbn [ApiModel.api_step] in H. destruct (is_live w i); inversion H; subst; auto.
    - inversion H; subst. constructor.
    - inversion H; subst; auto.
    - inversion H; subst; auto.
    - cbn [ApiModel.api_step] in H. destruct (is_live w i) eqn:El; inversion H; subst; auto. cbn. constructor; auto.
    - apply call_step in H. destruct H as [(_ & -> & _)|(_ & s' & a & e & st' & _ & -> & _)]; auto.
  Qed.

  Lemma nodup_live ops w rs : api_run api_init ops = Ok (w, rs) -> NoDup (w_live w).
  Proof.
    intros H. eapply (run_inv (fun w => NoDup (w_live w)) (fun _ => True)); [|..|exact H].
    - intros. eapply nodup_live_step; eauto.
    - constructor.
    - rewrite Forall_forall; auto.
  Qed.

  (** ** Errors *)

  Lemma do_call_throw c (s : content) s' a ex : (forall f, c <> CContacts f) -> do_call c s = Ok (s', a, Some ex) -> s' = s.
  Proof.
    intros Hc H. destruct c as [x e|x f|f|x f|x f|e p| |f|e empty]; cbn [ApiModel.do_call] in H.
    - apply bind_ok_inv in H. destruct H as ([b d] & _ & H). destruct (lib_edit e d) as [[[u d']|]| |]; try discriminate; [|congruence].
      apply bind_ok_inv in H. destruct H as (h & _ & H). discriminate.
    - apply bind_ok_inv in H. destruct H as (v & _ & H). destruct (f v); congruence.
    - exfalso. apply (Hc f). reflexivity.
    - apply bind_ok_inv in H. destruct H as (v & _ & H). destruct (f v); try congruence.
      apply bind_ok_inv in H. destruct H as ([b d] & _ & H). apply bind_ok_inv in H. destruct H as (h & _ & H). discriminate.
    - apply bind_ok_inv in H. destruct H as (v & _ & H). destruct (f v); try congruence.
      apply bind_ok_inv in H. destruct H as ([b d] & _ & H). apply bind_ok_inv in H. destruct H as (h & _ & H). discriminate.
    - apply bind_ok_inv in H. destruct H as ([b d] & _ & H). destruct (lib_edit e d) as [[[u d']|]| |]; try discriminate; [|congruence].
      apply bind_ok_inv in H. destruct H as (h & _ & H). discriminate.
    - discriminate.
    - apply bind_ok_inv in H. destruct H as (v & _ & H). destruct (f v); congruence.
    - apply bind_ok_inv in H. destruct H as ([b d] & _ & H). destruct (lib_edit e d) as [[[u d']|]| |]; try discriminate; [|congruence].
      apply bind_ok_inv in H. destruct H as (h & _ & H). discriminate.
  Qed.

  Lemma error_changes_nothing w o w' r : api_step w o = Ok (w', r) -> a_error r <> None ->
    (forall t i f, o <> ACall t i (CContacts f)) -> same_world w w'.
  Proof.
    intros H He Hc.
    assert (Hrefl : same_world w w) by (repeat split; auto).
    destruct o as [p|i|i|n| | | |i| | |i|i|tagged i c].
    - cbn [ApiModel.api_step] in H. destruct (w_counter w =? int_max)%Z; [discriminate|].
      destruct (valid_projection p); [destruct (is_live w _)|]; inversion H; subst; cbn in He; try congruence. repeat split; auto.
    - inversion H; subst; auto.
    - cbn [ApiModel.api_step] in H. destruct (is_live w i); inversion H; subst; auto. cbn in He. congruence.
    - cbn [ApiModel.api_step] in H. destruct (n <? 0)%Z; inversion H; subst; auto. cbn in He. congruence.
    - cbn [ApiModel.api_step] in H. apply report_inv in H. destruct H as (st & o & H & -> & ->). cbn in He. congruence.
    - cbn [ApiModel.api_step] in H. apply report_inv in H. destruct H as (st & o & H & -> & ->). cbn in He. congruence.
    - inversion H; subst; auto.
    - cbn [ApiModel.api_step] in H. destruct (is_live w i); inversion H; subst; auto.
    - inversion H; subst. cbn in He. congruence.
    - inversion H; subst. cbn in He. congruence.
    - inversion H; subst. cbn in He. congruence.
    - cbn [ApiModel.api_step] in H. destruct (is_live w i); inversion H; subst; auto. cbn in He. congruence.
    - apply call_step in H. destruct H as [(_ & -> & _)|(_ & s' & a & e & st' & Hd & -> & -> & H)]; auto.
      destruct e as [ex|]; [|cbn in He; congruence]. subst st'.
      apply do_call_throw in Hd; [|intros f ->; apply (Hc tagged i f); reflexivity]. subst s'.
      repeat split; auto. intros j. cbn. unfold update. destruct (Z.eqb_spec j i); congruence.
  Qed.
End Runs.

(** Undo and redo only touch objects that exist. *)
From Verif Require Import Base BaseLemmas UndoModel UndoSpec UndoProofs UndoProofs2 ActionModel ActionSpec ActionProofs ApiModel ApiSpec ApiProofs ApiUndo ApiSafety.

Section Mem.
  Context {D A Ed : Type}.
  Variables (do_restore do_commit : A -> D -> outcome (A * D)).
  Variable lib_edit : Ed -> D -> outcome (option (A * D)).
  Variable fresh : slot -> Z -> D.
  Notation content := (content D).
  Notation call := (call D Ed).
  Notation leaf := (leaf A).
  Notation world := (world D A).
  Notation api_op := (api_op D Ed).
  Notation do_call := (do_call lib_edit fresh).
  Notation restore := (restore_act (leaf_restore do_restore)).
  Notation commit := (commit_act (leaf_commit do_commit)).
  Notation api_step := (api_step do_restore do_commit lib_edit fresh).
  Notation api_run := (api_run do_restore do_commit lib_edit fresh).
  Notation item := (item (act leaf)).

  (** The pointers except the one to the contacts, which failing computations replace without an action. *)
  Definition core (ps : ptrs) : list (option nat) := [p_mesh1d ps; p_network1d ps; p_mesh2d ps; p_grid ps].

  Lemma core_in ps a : In (Some a) (core ps) <-> exists x, x <> SContacts /\ get_ptr ps x = Some a.
  Proof.
    cbn. split.
    - intros [H|[H|[H|[H|[]]]]]; [exists SMesh1D|exists SNetwork1D|exists SMesh2D|exists SGrid]; split; auto; discriminate.
    - intros (x & Hx & H). destruct x; cbn in H; auto. congruence.
  Qed.
  Lemma core_contacts ps a : core (set_ptr ps SContacts a) = core ps.
  Proof. reflexivity. Qed.

  (** Restoring (committing) the action at pointers [p] ends at pointers [q] and touches existing objects only. *)
  Inductive safeC : act leaf -> list (option nat) -> list (option nat) -> Prop :=
  | sc_edit a x p : In (Some a) p -> safeC (Leaf Committed (LEdit a x)) p p
  | sc_state ps p : safeC (Leaf Committed (LState ps)) p (core ps)
  | sc_comp subs p q : safeC_all subs p q -> safeC (Compound Committed subs) p q
  with safeC_all : list (act leaf) -> list (option nat) -> list (option nat) -> Prop :=
  | sc_nil p : safeC_all [] p p
  | sc_cons x t p p1 q : safeC_all t p p1 -> safeC x p1 q -> safeC_all (x :: t) p q.
  Inductive safeR : act leaf -> list (option nat) -> list (option nat) -> Prop :=
  | sr_edit a x p : In (Some a) p -> safeR (Leaf Restored (LEdit a x)) p p
  | sr_state ps p : safeR (Leaf Restored (LState ps)) p (core ps)
  | sr_comp subs p q : safeR_all subs p q -> safeR (Compound Restored subs) p q
  with safeR_all : list (act leaf) -> list (option nat) -> list (option nat) -> Prop :=
  | sr_nil p : safeR_all [] p p
  | sr_cons x t p p1 q : safeR x p p1 -> safeR_all t p1 q -> safeR_all (x :: t) p q.
  Scheme safeC_mut := Minimality for safeC Sort Prop
  with safeC_all_mut := Minimality for safeC_all Sort Prop.
  Scheme safeR_mut := Minimality for safeR Sort Prop
  with safeR_all_mut := Minimality for safeR_all Sort Prop.

  Lemma core_points (s : content) a : In (Some a) (core (c_ptrs s)) -> points_to s a.
  Proof. intros H. apply core_in in H. destruct H as (x & _ & H). exists x. exact H. Qed.

  Definition restore_existing_all := fix go (l : list (act leaf)) (s : content) : Prop :=
    match l with
    | [] => True
    | x :: t => go t s /\ forall t' s', restore_all (leaf_restore do_restore) t s = Ok (t', s') -> restore_existing do_restore x s'
    end.
  Definition commit_existing_all := fix go (l : list (act leaf)) (s : content) : Prop :=
    match l with
    | [] => True
    | x :: t => commit_existing do_commit x s /\ forall x' s', commit x s = Ok (x', s') -> go t s'
    end.

  Lemma safe_restore a p q : safeC a p q -> forall s, core (c_ptrs s) = p ->
    restore_existing do_restore a s /\
    forall a' s', restore a s = Ok (a', s') -> core (c_ptrs s') = q /\ safeR a' q p.
  Proof.
    revert a p q.
    apply (safeC_mut
      (fun a p q => forall s, core (c_ptrs s) = p ->
         restore_existing do_restore a s /\
         forall a' s', restore a s = Ok (a', s') -> core (c_ptrs s') = q /\ safeR a' q p)
      (fun l p q => forall s, core (c_ptrs s) = p ->
         restore_existing_all l s /\
         forall l' s', restore_all (leaf_restore do_restore) l s = Ok (l', s') -> core (c_ptrs s') = q /\ safeR_all l' q p)).
    - intros a x p Hin s <-. split; [cbn; apply core_points; auto|].
      cbn. intros a' s' H. apply bind_ok_inv in H. destruct H as ([l t] & H1 & H). inversion H; subst; clear H.
      apply bind_ok_inv in H1. destruct H1 as (d & _ & H1). apply bind_ok_inv in H1. destruct H1 as ([x' d'] & _ & H1).
      apply bind_ok_inv in H1. destruct H1 as (h & _ & H1). inversion H1; subst. split; auto. constructor; auto.
    - intros ps p s <-. split; [exact I|]. cbn. intros a' s' H. inversion H; subst. split; auto. constructor.
    - intros subs p q _ IH s Hs. destruct (IH s Hs) as [H1 H2]. split; [exact H1|].
      intros a' s' H. cbn in H. apply bind_ok_inv in H. destruct H as ([l' t] & H3 & H). inversion H; subst.
      destruct (H2 l' s' H3) as [H4 H5]. split; auto. constructor; auto.
    - intros p s Hs. split; [exact I|]. cbn. intros l' s' H. inversion H; subst. split; auto. constructor.
    - intros x t p p1 q _ IHt _ IHx s Hs. destruct (IHt s Hs) as [H1 H2]. split.
      + cbn. split; auto. intros t' s' H. destruct (H2 t' s' H) as [H3 H4]. apply (IHx s' H3).
      + intros l' s' H. cbn in H. apply bind_ok_inv in H. destruct H as ([t' s1] & H3 & H).
        apply bind_ok_inv in H. destruct H as ([x' s2] & H4 & H). inversion H; subst.
        destruct (H2 t' s1 H3) as [H5 H6]. destruct (IHx s1 H5) as [_ H7]. destruct (H7 x' s' H4) as [H8 H9]. split; auto.
        econstructor; eauto.
  Qed.

  Lemma safe_commit a p q : safeR a p q -> forall s, core (c_ptrs s) = p ->
    commit_existing do_commit a s /\
    forall a' s', commit a s = Ok (a', s') -> core (c_ptrs s') = q /\ safeC a' q p.
  Proof.
    revert a p q.
    apply (safeR_mut
      (fun a p q => forall s, core (c_ptrs s) = p ->
         commit_existing do_commit a s /\
         forall a' s', commit a s = Ok (a', s') -> core (c_ptrs s') = q /\ safeC a' q p)
      (fun l p q => forall s, core (c_ptrs s) = p ->
         commit_existing_all l s /\
         forall l' s', commit_all (leaf_commit do_commit) l s = Ok (l', s') -> core (c_ptrs s') = q /\ safeC_all l' q p)).
    - intros a x p Hin s <-. split; [cbn; apply core_points; auto|].
      cbn. intros a' s' H. apply bind_ok_inv in H. destruct H as ([l t] & H1 & H). inversion H; subst; clear H.
      apply bind_ok_inv in H1. destruct H1 as (d & _ & H1). apply bind_ok_inv in H1. destruct H1 as ([x' d'] & _ & H1).
      apply bind_ok_inv in H1. destruct H1 as (h & _ & H1). inversion H1; subst. split; auto. constructor; auto.
    - intros ps p s <-. split; [exact I|]. cbn. intros a' s' H. inversion H; subst. split; auto. constructor.
    - intros subs p q _ IH s Hs. destruct (IH s Hs) as [H1 H2]. split; [exact H1|].
      intros a' s' H. cbn in H. apply bind_ok_inv in H. destruct H as ([l' t] & H3 & H). inversion H; subst.
      destruct (H2 l' s' H3) as [H4 H5]. split; auto. constructor; auto.
    - intros p s Hs. split; [exact I|]. cbn. intros l' s' H. inversion H; subst. split; auto. constructor.
    - intros x t p p1 q _ IHx _ IHt s Hs. destruct (IHx s Hs) as [H1 H2]. split.
      + cbn. split; auto. intros x' s' H. destruct (H2 x' s' H) as [H3 H4]. apply (IHt s' H3).
      + intros l' s' H. cbn in H. apply bind_ok_inv in H. destruct H as ([x' s1] & H3 & H).
        apply bind_ok_inv in H. destruct H as ([t' s2] & H4 & H). inversion H; subst.
        destruct (H2 x' s1 H3) as [H5 H6]. destruct (IHt s1 H5) as [_ H7]. destruct (H7 t' s' H4) as [H8 H9]. split; auto.
        econstructor; eauto.
  Qed.

  (** Walking back (forward) through the actions of id [i] from pointers [p]. *)
  Fixpoint walkC (i : Z) (l : list item) (p : list (option nat)) : Prop :=
    match l with
    | [] => True
    | it :: t =>
        if Z.eqb (it_target it) i then it_state it = Committed /\ exists q, safeC (it_act it) p q /\ walkC i t q
        else walkC i t p
    end.
  Fixpoint walkR (i : Z) (l : list item) (p : list (option nat)) : Prop :=
    match l with
    | [] => True
    | it :: t =>
        if Z.eqb (it_target it) i then it_state it = Restored /\ exists q, safeR (it_act it) p q /\ walkR i t q
        else walkR i t p
    end.

  Lemma walkC_none i l p : Forall (fun it : item => it_target it <> i) l -> walkC i l p.
  Proof. induction l as [|it l IH]; cbn; auto. intros H; inversion H; subst. apply Z.eqb_neq in H2. rewrite H2. auto. Qed.
  Lemma walkR_none i l p : Forall (fun it : item => it_target it <> i) l -> walkR i l p.
  Proof. induction l as [|it l IH]; cbn; auto. intros H; inversion H; subst. apply Z.eqb_neq in H2. rewrite H2. auto. Qed.

  Lemma walkC_removelast i l p : walkC i l p -> walkC i (removelast l) p.
  Proof.
    revert p. induction l as [|it l IH]; intros p; cbn; auto. destruct l as [|it2 l]; cbn [walkC]; auto.
    destruct (Z.eqb (it_target it) i).
    - intros (H1 & q & H2 & H3). split; [assumption|]. exists q. split; [assumption|]. exact (IH q H3).
    - intros H. apply IH. exact H.
  Qed.
  Lemma walkC_iter i n l p : walkC i l p -> walkC i (Nat.iter n (@removelast item) l) p.
  Proof. induction n; cbn; auto. intros H. apply walkC_removelast. auto. Qed.

  Lemma walkC_filter i (f : item -> bool) l p : (forall it, In it l -> it_target it = i -> f it = true) -> walkC i l p -> walkC i (filter f l) p.
  Proof.
    revert p. induction l as [|it l IH]; intros p Hf; cbn [walkC filter]; auto. destruct (Z.eqb_spec (it_target it) i) as [He|He].
    - intros (H1 & q & H2 & H3). rewrite (Hf it) by (cbn; auto). cbn [walkC]. apply Z.eqb_eq in He. rewrite He. split; auto.
      exists q. split; auto. apply IH; auto. intros; apply Hf; cbn; auto.
    - intros H. destruct (f it); cbn [walkC]; [apply Z.eqb_neq in He; rewrite He|]; apply IH; auto; intros; apply Hf; cbn; auto.
  Qed.
  Lemma walkR_filter i (f : item -> bool) l p : (forall it, In it l -> it_target it = i -> f it = true) -> walkR i l p -> walkR i (filter f l) p.
  Proof.
    revert p. induction l as [|it l IH]; intros p Hf; cbn [walkR filter]; auto. destruct (Z.eqb_spec (it_target it) i) as [He|He].
    - intros (H1 & q & H2 & H3). rewrite (Hf it) by (cbn; auto). cbn [walkR]. apply Z.eqb_eq in He. rewrite He. split; auto.
      exists q. split; auto. apply IH; auto. intros; apply Hf; cbn; auto.
    - intros H. destruct (f it); cbn [walkR]; [apply Z.eqb_neq in He; rewrite He|]; apply IH; auto; intros; apply Hf; cbn; auto.
  Qed.

  Definition mem_ok (w : world) : Prop :=
    accounted w /\
    (max_size (w_stack w) = 0 -> committed (w_stack w) = [] /\ restored (w_stack w) = []) /\
    (forall i, walkC i (committed (w_stack w)) (core (c_ptrs (contents (w_stack w) i)))) /\
    (forall i, walkR i (restored (w_stack w)) (core (c_ptrs (contents (w_stack w) i)))).

  (** What a call does to the pointers. *)
  Lemma call_safe c (s s' : content) a e : (forall x ed, c = CEdit x ed -> x <> SContacts) -> do_call c s = Ok (s', a, e) ->
    match e, a with
    | None, Some u => safeC u (core (c_ptrs s')) (core (c_ptrs s))
    | _, _ => core (c_ptrs s') = core (c_ptrs s)
    end.
  Proof.
    intros Hx H. destruct c as [x ed|x f|f|x f|x f|ed p| |f|ed empty]; cbn [ApiModel.do_call] in H.
    - apply bind_ok_inv in H. destruct H as ([b d] & Hd & H). apply deref_inv in Hd. destruct Hd as [Hb _].
      destruct (lib_edit ed d) as [[[u d']|]| |]; [|inversion H; subst; reflexivity|inversion H; subst; reflexivity|discriminate].
      apply bind_ok_inv in H. destruct H as (h & _ & H). inversion H; subst. cbn [with_heap c_ptrs]. constructor. apply core_in. exists x. split; auto.
      eapply Hx; reflexivity.
    - apply bind_ok_inv in H. destruct H as (v & _ & H). destruct (f v); inversion H; subst; [constructor|reflexivity].
    - apply bind_ok_inv in H. destruct H as (v & _ & H). destruct (f v); inversion H; subst; [constructor|reflexivity].
    - apply bind_ok_inv in H. destruct H as (v & _ & H). destruct (f v); [|inversion H; subst; reflexivity|discriminate].
      apply bind_ok_inv in H. destruct H as ([b d'] & _ & H). apply bind_ok_inv in H. destruct H as (h & _ & H). inversion H; subst. constructor.
    - apply bind_ok_inv in H. destruct H as (v & _ & H). destruct (f v); [|inversion H; subst; reflexivity|discriminate].
      apply bind_ok_inv in H. destruct H as ([b d'] & _ & H). apply bind_ok_inv in H. destruct H as (h & _ & H). inversion H; subst. reflexivity.
    - apply bind_ok_inv in H. destruct H as ([b d] & Hd & H). apply deref_inv in Hd. destruct Hd as [Hb _].
      destruct (lib_edit ed d) as [[[u d']|]| |]; [|inversion H; subst; reflexivity|inversion H; subst; reflexivity|discriminate].
      apply bind_ok_inv in H. destruct H as (h & _ & H). inversion H; subst. cbn [c_ptrs]. constructor.
      apply core_in. exists SMesh2D. split; auto. discriminate.
    - inversion H; subst. constructor.
    - apply bind_ok_inv in H. destruct H as (v & _ & H). destruct (f v); inversion H; subst; [constructor|reflexivity].
    - apply bind_ok_inv in H. destruct H as ([b d] & Hd & H). apply deref_inv in Hd. destruct Hd as [Hb _].
      destruct (lib_edit ed d) as [[[u d']|]| |]; [| |inversion H; subst; reflexivity|discriminate].
      + apply bind_ok_inv in H. destruct H as (h & _ & H). inversion H; subst. constructor.
        econstructor; [|constructor]. econstructor; [constructor|]. constructor. apply core_in. exists SMesh2D. split; [discriminate|]. exact Hb.
      + inversion H; subst. constructor. econstructor; constructor.
  Qed.

  Lemma mem_ok_step w o w' r : mem_ok w -> tagged_op o -> core_op o -> api_step w o = Ok (w', r) -> mem_ok w'.
  Proof.
    intros (Hacc & Hz & HC & HR) Ht Hco H.
    split; [eapply accounted_step; eauto|].
    assert (Hlive : forall i, is_live w i = false ->
      Forall (fun it : item => it_target it <> i) (committed (w_stack w)) /\ Forall (fun it : item => it_target it <> i) (restored (w_stack w))).
    { intros i Hi. destruct Hacc as [A1 A2]. assert (Hn : ~ In i (w_live w)) by (intros E; apply is_live_in in E; congruence).
      split; [eapply Forall_impl; [|exact A1]|eapply Forall_impl; [|exact A2]]; cbn; intros it (_ & E) Ei; apply Hn; rewrite <- Ei; exact E. }
    assert (Hnew : forall i s, is_live w i = false ->
      (forall j, walkC j (committed (w_stack w)) (core (c_ptrs (update (contents (w_stack w)) i s j)))) /\
      (forall j, walkR j (restored (w_stack w)) (core (c_ptrs (update (contents (w_stack w)) i s j))))).
    { intros i s Hi. destruct (Hlive i Hi). split; intros j; unfold update; destruct (Z.eqb_spec j i) as [->|]; auto.
      - apply walkC_none; auto.
      - apply walkR_none; auto. }
    assert (Hrem : forall i,
      (forall j, walkC j (filter (fun it => negb (has_id i it)) (committed (w_stack w))) (core (c_ptrs (contents (w_stack w) j)))) /\
      (forall j, walkR j (filter (fun it => negb (has_id i it)) (restored (w_stack w))) (core (c_ptrs (contents (w_stack w) j))))).
    { intros i. destruct Hacc as [A1 A2]. rewrite Forall_forall in A1, A2. split; intros j; destruct (Z.eq_dec j i) as [->|Hj].
      - apply walkC_none. rewrite Forall_forall. intros it Hit. apply filter_In in Hit. destruct Hit as [Hit Hid].
        destruct (A1 it Hit) as [<- _]. unfold has_id in Hid. intros E. apply Z.eqb_eq in E. rewrite E in Hid. discriminate.
      - apply walkC_filter; auto. intros it Hit <-. unfold has_id. destruct (A1 it Hit) as [-> _]. apply Z.eqb_neq in Hj. rewrite Hj. reflexivity.
      - apply walkR_none. rewrite Forall_forall. intros it Hit. apply filter_In in Hit. destruct Hit as [Hit Hid].
        destruct (A2 it Hit) as [<- _]. unfold has_id in Hid. intros E. apply Z.eqb_eq in E. rewrite E in Hid. discriminate.
      - apply walkR_filter; auto. intros it Hit <-. unfold has_id. destruct (A2 it Hit) as [-> _]. apply Z.eqb_neq in Hj. rewrite Hj. reflexivity. }
    destruct o as [p|i|i|n| | | |i| | |i|i|tagged i c].
    - cbn [ApiModel.api_step] in H. destruct (w_counter w =? int_max)%Z; [discriminate|].
      destruct (valid_projection p); [destruct (is_live w _) eqn:El|]; inversion H; subst; cbn; auto.
    - inversion H; subst; auto.
    - cbn [ApiModel.api_step] in H. destruct (is_live w i); inversion H; subst; auto. destruct (Hrem i). cbn. split; [|auto].
      intros E. destruct (Hz E) as [-> ->]. auto.
    - cbn [ApiModel.api_step] in H. destruct (n <? 0)%Z; inversion H; subst; auto. cbn. unfold stack_set_max.
      destruct (Nat.eqb_spec (Z.to_nat n) 0) as [E|E]; [cbn; repeat split; auto|].
      destruct (_ <? _); cbn; (split; [intros E2; congruence|]); split; auto. intros j. apply walkC_iter; auto.
    - cbn [ApiModel.api_step] in H. apply report_inv in H. destruct H as (st & o & H & -> & _). apply undo_inv in H.
      destruct H as [(_ & -> & _)|(it & rest & it' & c & E1 & E2 & -> & _)]; [auto|].
      cbn [w_stack committed restored contents max_size].
      split; [intros E; destruct (Hz E) as [E3 _]; congruence|].
      pose proof (HC (it_target it)) as HCt. rewrite E1 in HCt. cbn [walkC] in HCt. rewrite Z.eqb_refl in HCt. destruct HCt as (Est & q & Hsafe & Hwalk).
      unfold restore_item in E2. rewrite Est in E2. apply bind_ok_inv in E2. destruct E2 as ([a' s'] & E2 & E3). inversion E3; subst it' c; clear E3.
      destruct (safe_restore _ _ _ Hsafe _ eq_refl) as [_ Hs]. destruct (Hs _ _ E2) as [Hq HsR].
      split; intros j.
      + unfold update. destruct (Z.eqb_spec j (it_target it)) as [->|Hj]; [rewrite Hq; exact Hwalk|].
        specialize (HC j). rewrite E1 in HC. cbn [walkC] in HC. destruct (Z.eqb_spec (it_target it) j); [congruence|]. exact HC.
      + cbn [walkR it_target it_state it_act]. unfold update. rewrite Z.eqb_sym. destruct (Z.eqb_spec j (it_target it)) as [->|Hj]; [|apply HR].
        split; auto. exists (core (c_ptrs (contents (w_stack w) (it_target it)))). rewrite Hq. split; [exact HsR|apply HR].
    - cbn [ApiModel.api_step] in H. apply report_inv in H. destruct H as (st & o & H & -> & _). apply redo_inv in H.
      destruct H as [(_ & -> & _)|(it & rest & it' & c & E1 & E2 & -> & _)]; [auto|].
      cbn [w_stack committed restored contents max_size].
      split; [intros E; destruct (Hz E) as [_ E3]; congruence|].
      pose proof (HR (it_target it)) as HRt. rewrite E1 in HRt. cbn [walkR] in HRt. rewrite Z.eqb_refl in HRt. destruct HRt as (Est & q & Hsafe & Hwalk).
      unfold commit_item in E2. rewrite Est in E2. apply bind_ok_inv in E2. destruct E2 as ([a' s'] & E2 & E3). inversion E3; subst it' c; clear E3.
      destruct (safe_commit _ _ _ Hsafe _ eq_refl) as [_ Hs]. destruct (Hs _ _ E2) as [Hq HsC].
      assert (HW : forall j, walkC j ({| it_act := a'; it_state := Committed; it_id := it_id it; it_target := it_target it |} :: committed (w_stack w))
                       (core (c_ptrs (update (contents (w_stack w)) (it_target it) s' j)))).
      { intros j. cbn [walkC it_target it_state it_act]. unfold update. rewrite Z.eqb_sym. destruct (Z.eqb_spec j (it_target it)) as [->|Hj]; [|apply HC].
        split; auto. exists (core (c_ptrs (contents (w_stack w) (it_target it)))). rewrite Hq. split; [exact HsC|apply HC]. }
      split; intros j.
      + destruct (_ <? _); [apply walkC_removelast|]; apply HW.
      + unfold update. destruct (Z.eqb_spec j (it_target it)) as [->|Hj]; [rewrite Hq; exact Hwalk|].
        specialize (HR j). rewrite E1 in HR. cbn [walkR] in HR. destruct (Z.eqb_spec (it_target it) j); [congruence|]. exact HR.
    - inversion H; subst; auto.
    - cbn [ApiModel.api_step] in H. destruct (is_live w i); inversion H; subst; auto.
    - inversion H; subst. cbn. auto.
    - inversion H; subst. cbn. auto.
    - inversion H; subst. destruct (Hrem i). cbn. split; [|auto]. intros E. destruct (Hz E) as [-> ->]. auto.
    - cbn [ApiModel.api_step] in H. destruct (is_live w i) eqn:El; inversion H; subst; auto. cbn.
      destruct (Hnew i default_state El). auto.
    - cbn in Ht. subst tagged. apply call_step in H. destruct H as [(_ & -> & _)|(El & s' & a & e & st' & Hd & -> & _ & H)]; [auto|].
      assert (Hs := call_safe c (contents (w_stack w) i) s' a e).
      assert (Hx : forall x ed, c = CEdit x ed -> x <> SContacts) by (intros x ed ->; exact Hco). specialize (Hs Hx Hd). clear Hx.
      assert (Hsame : core (c_ptrs s') = core (c_ptrs (contents (w_stack w) i)) ->
        forall j, core (c_ptrs (update (contents (w_stack w)) i s' j)) = core (c_ptrs (contents (w_stack w) j))).
      { intros E j. unfold update. destruct (Z.eqb_spec j i) as [->|]; auto. }
      cbn [w_stack]. destruct e as [ex|].
      { subst st'. cbn [set_content committed restored contents max_size]. split; [auto|]. split; intros j; rewrite Hsame; auto. }
      destruct a as [u|].
      2:{ inversion H; subst. cbn [set_content committed restored contents max_size]. split; [auto|]. split; intros j; rewrite Hsame; auto. }
      unfold stack_add in H. cbn [set_content committed restored contents max_size] in H.
      destruct (Nat.ltb_spec 0 (max_size (w_stack w))) as [Hm|Hm].
      + injection H as <-. cbn [committed restored contents max_size]. split; [lia|].
        assert (HW : forall j, walkC j (Item u Committed i i :: committed (w_stack w)) (core (c_ptrs (update (contents (w_stack w)) i s' j)))).
        { intros j. cbn [walkC it_target it_state it_act]. unfold update. rewrite Z.eqb_sym. destruct (Z.eqb_spec j i) as [->|Hj]; [|apply HC].
          split; auto. exists (core (c_ptrs (contents (w_stack w) i))). split; [exact Hs|apply HC]. }
        split; intros j.
        * destruct (_ <? _); [exact (walkC_removelast j _ _ (HW j))|exact (HW j)].
        * destruct (Z.eq_dec j i) as [->|Hj].
          -- apply walkR_none. destruct Hacc as [_ A2]. rewrite Forall_forall in A2. rewrite Forall_forall. intros it Hit.
             apply filter_In in Hit. destruct Hit as [Hit Hid]. destruct (A2 it Hit) as [<- _]. unfold has_id in Hid. intros E.
             apply Z.eqb_eq in E. rewrite E in Hid. discriminate.
          -- unfold update. destruct (Z.eqb_spec j i); [congruence|]. destruct (Hrem i) as [_ Hr]. apply Hr.
      + inversion H; subst. cbn [set_content committed restored contents max_size]. destruct (Hz ltac:(lia)) as [-> ->]. cbn. auto.
  Qed.

  Lemma mem_ok_run ops w rs : Forall tagged_op ops -> Forall core_op ops -> api_run api_init ops = Ok (w, rs) -> mem_ok w.
  Proof.
    intros Ht Hc H. eapply (run_inv do_restore do_commit lib_edit fresh mem_ok (fun o => tagged_op o /\ core_op o)); [|..|exact H].
    - intros w0 o w' r H1 [H2 H3] H4. eapply mem_ok_step; eauto.
    - unfold mem_ok, accounted, api_init. cbn. repeat split; auto; constructor.
    - rewrite Forall_forall in *. auto.
  Qed.

  Lemma mem_ok_undo w : mem_ok w -> undo_touches_existing do_restore w.
  Proof.
    intros ((A1 & _) & _ & HC & _). unfold undo_touches_existing. destruct (committed (w_stack w)) as [|it t] eqn:E; auto.
    inversion A1; subst. split; [apply is_live_in; tauto|].
    specialize (HC (it_target it)). cbn [walkC] in HC. rewrite Z.eqb_refl in HC. destruct HC as (_ & q & H & _).
    eapply safe_restore; eauto.
  Qed.
  Lemma mem_ok_redo w : mem_ok w -> redo_touches_existing do_commit w.
  Proof.
    intros ((_ & A2) & _ & _ & HR). unfold redo_touches_existing. destruct (restored (w_stack w)) as [|it t] eqn:E; auto.
    inversion A2; subst. split; [apply is_live_in; tauto|].
    specialize (HR (it_target it)). cbn [walkR] in HR. rewrite Z.eqb_refl in HR. destruct HR as (_ & q & H & _).
    eapply safe_commit; eauto.
  Qed.
End Mem.

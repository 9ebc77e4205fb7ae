(** Refinement of the undo stack to the snapshot specification. *)
From Verif Require Import Base BaseLemmas UndoModel UndoSpec.

Lemma iter_removelast {T} k (l : list T) : Nat.iter k (@removelast T) l = firstn (length l - k) l.
Proof.
  induction k as [|k IH].
  - rewrite Nat.sub_0_r, firstn_all. reflexivity.
  - change (Nat.iter (S k) (@removelast T) l) with (removelast (Nat.iter k (@removelast T) l)). rewrite IH.
    destruct (Nat.le_gt_cases (length l) k) as [H|H].
    + replace (length l - k) with 0 by lia. replace (length l - S k) with 0 by lia. reflexivity.
    + replace (length l - k) with (S (length l - S k)) by lia.
      rewrite removelast_firstn by lia. reflexivity.
Qed.

Lemma pop_front_firstn {T} n (l : list T) :
  length l <= S n -> (if n <? length l then removelast l else l) = firstn n l.
Proof.
  intros H. destruct (Nat.ltb_spec n (length l)) as [H1|H1].
  - pose proof (iter_removelast 1 l) as Hi. cbn in Hi. rewrite Hi. f_equal. lia.
  - rewrite firstn_all2 by lia. reflexivity.
Qed.

Section Refine.
  Context {A S E : Type}.
  Variables (do_restore do_commit : A -> S -> outcome (A * S)).
  Variable do_edit : E -> S -> outcome (option (A * S)).
  Variable le : S -> S -> Prop.
  Hypothesis le_refl : forall s, le s s.
  Hypothesis le_trans : forall s t u, le s t -> le t u -> le s u.

  Notation reversible := (reversible do_restore do_commit le).
  Notation reversed := (reversed do_restore do_commit le).

  Lemma reversible_restore a w0 w1 s :
    reversible a w0 w1 -> le w1 s ->
    exists a' s', do_restore a s = Ok (a', s') /\ le w0 s' /\ reversed a' s' s.
  Proof.
    intros H Hle.
    destruct (H 0 s Hle) as (a' & s' & Hr & Hl & _).
    exists a', s'. repeat split; auto.
    intros n. destruct (H (Datatypes.S n) s Hle) as (a2 & s2 & Hr2 & Hl2 & Ha).
    rewrite Hr in Hr2. inversion Hr2; subst. exact Ha.
  Qed.

  Lemma reversed_commit a w0 w1 s :
    reversed a w0 w1 -> le w0 s ->
    exists a' s', do_commit a s = Ok (a', s') /\ le w1 s' /\ reversible a' s s'.
  Proof.
    intros H Hle.
    destruct (H 0 s Hle) as (a' & s' & Hr & Hl & _).
    exists a', s'. repeat split; auto.
    intros n. destruct (H (Datatypes.S n) s Hle) as (a2 & s2 & Hr2 & Hl2 & Ha).
    rewrite Hr in Hr2. inversion Hr2; subst. exact Ha.
  Qed.

  Notation item := (item A).
  Notation ustate := (ustate A S).

  (** For kernel id [i]: the committed entries with that id lead back from the current content [s] through the snapshots. *)
  Fixpoint chain_c (i : Z) (l : list item) (sn : list (Z * S)) (s : S) : Prop :=
    match l, sn with
    | [], [] => True
    | it :: l', (j, p) :: sn' =>
        it_id it = j /\ it_target it = j /\ it_state it = Committed /\
        if Z.eqb j i then
          exists w0 w1, le w1 s /\ le p w0 /\ reversible (it_act it) w0 w1 /\ chain_c i l' sn' w0
        else chain_c i l' sn' s
    | _, _ => False
    end.

  Fixpoint chain_r (i : Z) (l : list item) (sn : list (Z * S)) (s : S) : Prop :=
    match l, sn with
    | [], [] => True
    | it :: l', (j, p) :: sn' =>
        it_id it = j /\ it_target it = j /\ it_state it = Restored /\
        if Z.eqb j i then
          exists v0 v1, le v0 s /\ le p v1 /\ reversed (it_act it) v0 v1 /\ chain_r i l' sn' v1
        else chain_r i l' sn' s
    | _, _ => False
    end.

  Lemma chain_c_mono i l sn s s' : le s s' -> chain_c i l sn s -> chain_c i l sn s'.
  Proof.
    revert sn. induction l as [|it l IH]; intros [|[j p] sn] Hle; cbn; auto.
    intros (H1 & H2 & H3 & H4). repeat split; auto.
    destruct (Z.eqb j i); auto.
    destruct H4 as (w0 & w1 & Ha & Hb & Hc & Hd). exists w0, w1. repeat split; eauto.
  Qed.

  Lemma chain_r_mono i l sn s s' : le s s' -> chain_r i l sn s -> chain_r i l sn s'.
  Proof.
    revert sn. induction l as [|it l IH]; intros [|[j p] sn] Hle; cbn; auto.
    intros (H1 & H2 & H3 & H4). repeat split; auto.
    destruct (Z.eqb j i); auto.
    destruct H4 as (w0 & w1 & Ha & Hb & Hc & Hd). exists w0, w1. repeat split; eauto.
  Qed.

  Lemma chain_c_length i l sn s : chain_c i l sn s -> length l = length sn.
  Proof.
    revert sn s. induction l as [|it l IH]; intros [|[j p] sn] s; cbn; auto; try tauto.
    intros (_ & _ & _ & H). f_equal. destruct (Z.eqb j i); [destruct H as (w0 & ? & ? & ? & ? & ?)|]; eauto.
  Qed.

  Lemma chain_r_length i l sn s : chain_r i l sn s -> length l = length sn.
  Proof.
    revert sn s. induction l as [|it l IH]; intros [|[j p] sn] s; cbn; auto; try tauto.
    intros (_ & _ & _ & H). f_equal. destruct (Z.eqb j i); [destruct H as (w0 & ? & ? & ? & ? & ?)|]; eauto.
  Qed.

  Lemma chain_c_ids i l sn s : chain_c i l sn s -> map it_id l = map fst sn.
  Proof.
    revert sn s. induction l as [|it l IH]; intros [|[j p] sn] s; cbn; auto; try tauto.
    intros (-> & _ & _ & H). f_equal. destruct (Z.eqb j i); [destruct H as (w0 & ? & ? & ? & ? & ?)|]; eauto.
  Qed.

  Lemma chain_r_ids i l sn s : chain_r i l sn s -> map it_id l = map fst sn.
  Proof.
    revert sn s. induction l as [|it l IH]; intros [|[j p] sn] s; cbn; auto; try tauto.
    intros (-> & _ & _ & H). f_equal. destruct (Z.eqb j i); [destruct H as (w0 & v1 & ? & ? & ? & ?)|]; eauto.
  Qed.

  Lemma chain_c_firstn i n l sn s : chain_c i l sn s -> chain_c i (firstn n l) (firstn n sn) s.
  Proof.
    revert n sn s. induction l as [|it l IH]; intros [|n] [|[j p] sn] s; cbn; auto; try tauto.
    intros (H1 & H2 & H3 & H4). repeat split; auto.
    destruct (Z.eqb j i); auto.
    destruct H4 as (w0 & w1 & Ha & Hb & Hc & Hd). exists w0, w1. repeat split; eauto.
  Qed.

  (** Filtering out an id different from [i] keeps the chain of [i]; filtering out [i] itself makes it trivial. *)
  Lemma chain_c_filter_other i k l sn s :
    i <> k -> chain_c i l sn s ->
    chain_c i (filter (fun it => negb (has_id k it)) l) (filter (not_id k) sn) s.
  Proof.
    intros Hik. revert sn s. induction l as [|it l IH]; intros [|[j p] sn] s; cbn; auto; try tauto.
    intros (H1 & H2 & H3 & H4). unfold not_id, has_id in *. cbn. rewrite H1.
    destruct (Z.eqb_spec j k) as [->|Hjk]; cbn.
    - assert (Z.eqb k i = false) as Hf by (apply Z.eqb_neq; congruence). rewrite Hf in H4. apply IH; auto.
    - repeat split; auto.
      destruct (Z.eqb j i); [|apply IH; auto].
      destruct H4 as (w0 & w1 & Ha & Hb & Hc & Hd). exists w0, w1. repeat split; eauto.
  Qed.

  Lemma chain_c_filter_same i l sn s s' :
    chain_c i l sn s ->
    chain_c i (filter (fun it => negb (has_id i it)) l) (filter (not_id i) sn) s'.
  Proof.
    revert sn s s'. induction l as [|it l IH]; intros [|[j p] sn] s s'; cbn; auto; try tauto.
    intros (H1 & H2 & H3 & H4). unfold not_id, has_id in *. cbn. rewrite H1.
    destruct (Z.eqb_spec j i) as [->|Hjk]; cbn.
    - destruct H4 as (w0 & w1 & Ha & Hb & Hc & Hd). eauto.
    - repeat split; auto. apply Z.eqb_neq in Hjk. rewrite Hjk. eauto.
  Qed.

  Lemma chain_r_filter_other i k l sn s :
    i <> k -> chain_r i l sn s ->
    chain_r i (filter (fun it => negb (has_id k it)) l) (filter (not_id k) sn) s.
  Proof.
    intros Hik. revert sn s. induction l as [|it l IH]; intros [|[j p] sn] s; cbn; auto; try tauto.
    intros (H1 & H2 & H3 & H4). unfold not_id, has_id in *. cbn. rewrite H1.
    destruct (Z.eqb_spec j k) as [->|Hjk]; cbn.
    - assert (Z.eqb k i = false) as Hf by (apply Z.eqb_neq; congruence). rewrite Hf in H4. apply IH; auto.
    - repeat split; auto.
      destruct (Z.eqb j i); [|apply IH; auto].
      destruct H4 as (w0 & w1 & Ha & Hb & Hc & Hd). exists w0, w1. repeat split; eauto.
  Qed.

  Lemma chain_r_filter_same i l sn s s' :
    chain_r i l sn s ->
    chain_r i (filter (fun it => negb (has_id i it)) l) (filter (not_id i) sn) s'.
  Proof.
    revert sn s s'. induction l as [|it l IH]; intros [|[j p] sn] s s'; cbn; auto; try tauto.
    intros (H1 & H2 & H3 & H4). unfold not_id, has_id in *. cbn. rewrite H1.
    destruct (Z.eqb_spec j i) as [->|Hjk]; cbn.
    - destruct H4 as (w0 & w1 & Ha & Hb & Hc & Hd). eauto.
    - repeat split; auto. apply Z.eqb_neq in Hjk. rewrite Hjk. eauto.
  Qed.

  (** The refinement relation. *)
  Record refines (st : ustate) (h : hist S) : Prop := {
    rf_cur : forall i, le (h_cur h i) (contents st i);
    rf_max : max_size st = h_max h;
    rf_bound : length (h_undo h) <= h_max h;
    rf_zero : h_max h = 0 -> h_undo h = [] /\ h_redo h = [];
    rf_c : forall i, chain_c i (committed st) (h_undo h) (contents st i);
    rf_r : forall i, chain_r i (restored st) (h_redo h) (contents st i) }.

  Lemma refines_init c mx : refines (init c mx) (hinit c mx).
  Proof. constructor; cbn; auto; try lia. Qed.

  (** Calls register under the id they edit; edits are reversible from every content satisfying [Inv]. *)
  Variable Inv : S -> Prop.
  Variable Pre : E -> S -> Prop.
  Hypothesis Inv_mono : forall s s', Inv s -> le s s' -> Inv s'.
  Hypothesis edit_ok : edits_reversible do_restore do_commit do_edit le Pre Inv.

  Definition inv_world (h : hist S) : Prop :=
    (forall i, Inv (h_cur h i)) /\ Forall (fun e => Inv (snd e)) (h_undo h) /\ Forall (fun e => Inv (snd e)) (h_redo h).

  Lemma inv_world_step h e :
    inv_world h -> (forall i s, e = EvEdit i s -> Inv s) -> inv_world (hstep h e).
  Proof.
    intros (Hc & Hu & Hr) He.
    assert (Hput : forall i s, Inv s -> forall j, Inv (put (h_cur h) i s j)).
    { intros i s Hs j. unfold put. destruct (Z.eqb j i); auto. }
    assert (Hfn : forall n l, Forall (fun e : Z * S => Inv (snd e)) l -> Forall (fun e => Inv (snd e)) (firstn n l)).
    { intros n l Hl. rewrite Forall_forall in *. intros x Hx. apply Hl.
      rewrite <- (firstn_skipn n l). apply in_or_app. auto. }
    assert (Hfl : forall f l, Forall (fun e : Z * S => Inv (snd e)) l -> Forall (fun e => Inv (snd e)) (filter f l)).
    { intros f l Hl. rewrite Forall_forall in *. intros x Hx. apply filter_In in Hx. apply Hl. tauto. }
    destruct e as [i s| | | |n| |i]; cbn.
    - specialize (He i s eq_refl).
      destruct (h_max h =? 0); cbn; repeat split; cbn; auto.
      apply (Hfn _ ((i, h_cur h i) :: h_undo h)); constructor; cbn; auto.
    - repeat split; auto.
    - destruct (h_undo h) as [|[i s] u] eqn:Eu; [repeat split; auto; rewrite Eu; auto|].
      inversion Hu; subst. repeat split; cbn; auto. constructor; cbn; auto.
    - destruct (h_redo h) as [|[i s] u] eqn:Eu; [repeat split; auto; rewrite Eu; auto|].
      inversion Hr; subst. repeat split; cbn; auto.
      apply (Hfn _ ((i, h_cur h i) :: h_undo h)); constructor; cbn; auto.
    - destruct (n =? 0); repeat split; cbn; auto.
    - repeat split; cbn; auto.
    - repeat split; cbn; auto.
  Qed.

  Lemma count_has_id i (l : list item) : length (filter (has_id i) l) = length (filter (Z.eqb i) (map it_id l)).
  Proof.
    induction l as [|it l IH]; cbn; auto. unfold has_id at 1. rewrite Z.eqb_sym.
    destruct (Z.eqb i (it_id it)); cbn; auto.
  Qed.

  Lemma update_same (c : Z -> S) i s : update c i s i = s.
  Proof. unfold update. now rewrite Z.eqb_refl. Qed.

  Lemma update_other (c : Z -> S) i s j : j <> i -> update c i s j = c j.
  Proof. intros H. unfold update. apply Z.eqb_neq in H. now rewrite H. Qed.

  Lemma step_refines st h o :
    refines st h -> inv_world h -> well_tagged o -> allowed Pre st o ->
    exists st' r, step do_restore do_commit do_edit st o = Ok (st', r) /\
      expected_result h o r /\
      refines st' (hstep h (event_of o r st')) /\ inv_world (hstep h (event_of o r st')).
  Proof.
    intros [Hcur Hmax Hbound Hzero Hc Hr] Hinv Hw Hdef.
    destruct o as [tag target e| | |n| |i]; cbn [step well_tagged allowed] in *.
    - (* edit *)
      subst tag.
      assert (Hi : Inv (contents st target)) by (eapply Inv_mono; [apply (proj1 Hinv target)|apply Hcur]).
      pose proof (edit_ok e _ Hi Hdef) as Hok.
      destruct (do_edit e (contents st target)) as [[[a s]|]|ex|] eqn:Ee; try tauto;
        cbn [bind]; unfold stack_add; cbn [contents committed restored max_size].
      + destruct Hok as [Hrev Hs].
        destruct (Nat.ltb_spec 0 (max_size st)) as [Hpos|Hz]; cbn [bind].
        * eexists. eexists. split; [reflexivity|]. split; [eexists; reflexivity|].
          cbn [event_of contents]. rewrite update_same.
          split.
          2:{ apply inv_world_step; auto. intros i s0 Heq. inversion Heq; subst; auto. }
          cbn [hstep]. destruct (Nat.eqb_spec (h_max h) 0) as [He0|He0]; [lia|].
          assert (Hlen : length (committed st) = length (h_undo h)) by (eapply chain_c_length, (Hc 0%Z)).
          constructor; cbn [h_cur h_undo h_redo h_max contents committed restored max_size]; auto.
          -- intros i. unfold put, update. destruct (Z.eqb i target); auto.
          -- rewrite firstn_length. lia.
          -- intros; lia.
          -- intros i.
             match goal with |- chain_c i ?l' _ _ => replace l' with (firstn (max_size st) (Item a Committed target target :: committed st)) end.
             2:{ symmetry. apply (pop_front_firstn (max_size st) (Item a Committed target target :: committed st)). cbn. lia. }
             rewrite Hmax. apply chain_c_firstn. cbn. repeat split; auto.
             destruct (Z.eqb_spec target i) as [->|Hne].
             ++ rewrite update_same. exists (contents st i), s. repeat split; auto.
             ++ rewrite update_other by congruence. auto.
          -- intros i. destruct (Z.eq_dec i target) as [->|Hne].
             ++ rewrite update_same. eapply chain_r_filter_same; eauto.
             ++ rewrite update_other by congruence. apply chain_r_filter_other; auto.
        * eexists. eexists. split; [reflexivity|]. split; [eexists; reflexivity|].
          cbn [event_of contents]. rewrite update_same.
          split.
          2:{ apply inv_world_step; auto. intros i s0 Heq. inversion Heq; subst; auto. }
          cbn [hstep]. destruct (Nat.eqb_spec (h_max h) 0) as [He0|He0]; [|lia].
          destruct (Hzero He0) as [Hu0 Hr0].
          constructor; cbn [h_cur h_undo h_redo h_max contents committed restored max_size]; auto.
          -- intros i. unfold put, update. destruct (Z.eqb i target); auto.
          -- intros i. specialize (Hc i). rewrite Hu0 in *. destruct (committed st); cbn in *; tauto.
          -- intros i. specialize (Hr i). rewrite Hr0 in *. destruct (restored st); cbn in *; tauto.
      + eexists. eexists. split; [reflexivity|]. split; [eexists; reflexivity|].
        cbn. split; auto. constructor; auto.
      + eexists. eexists. split; [reflexivity|]. split; [eexists; reflexivity|].
        cbn. split; auto. constructor; auto.
    - (* undo *)
      unfold stack_undo. destruct (committed st) as [|it l] eqn:El.
      + eexists. eexists. split; [reflexivity|].
        assert (Hu0 : h_undo h = []).
        { specialize (Hc 0%Z). destruct (h_undo h); auto. cbn in Hc. tauto. }
        split; [cbn; unfold undo_ids; rewrite Hu0; reflexivity|]. cbn [event_of].
        assert (hstep h EvUndo = h) as -> by (cbn; rewrite Hu0; reflexivity).
        split; auto. constructor; auto; rewrite El; auto.
      + destruct (h_undo h) as [|[j p] u] eqn:Eu; [specialize (Hc 0%Z); cbn in Hc; tauto|].
        pose proof (Hc j) as Hcj. cbn in Hcj. destruct Hcj as (Hid & Htg & Hst & Hch).
        rewrite Z.eqb_refl in Hch. destruct Hch as (w0 & w1 & Hw1 & Hp & Hrev & Hrest).
        destruct (reversible_restore _ _ _ _ Hrev Hw1) as (a' & s' & Hdo & Hle & Hrevd).
        unfold restore_item. rewrite Hst, Htg, Hdo. cbn.
        eexists. eexists. split; [reflexivity|]. unfold undo_ids. rewrite Eu. cbn. rewrite Hid.
        split; auto. split.
        2:{ pose proof (inv_world_step h EvUndo Hinv ltac:(discriminate)) as Hi. cbn in Hi. rewrite Eu in Hi. exact Hi. }
        constructor; cbn; auto.
        * intros i. unfold put, update. destruct (Z.eqb i j); eauto.
        * cbn in Hbound. lia.
        * intros Hm. destruct (Hzero Hm). discriminate.
        * intros i. specialize (Hc i). cbn in Hc. destruct Hc as (_ & _ & _ & Hci).
          destruct (Z.eqb_spec j i) as [->|Hne].
          -- rewrite update_same. eapply chain_c_mono; eauto.
          -- rewrite update_other by congruence. auto.
        * intros i. repeat split; auto. destruct (Z.eqb_spec j i) as [->|Hne].
          -- exists s', (contents st i). rewrite update_same. repeat split; auto.
          -- rewrite update_other by congruence. auto.
    - (* redo *)
      unfold stack_redo. destruct (restored st) as [|it l] eqn:El.
      + eexists. eexists. split; [reflexivity|].
        assert (Hu0 : h_redo h = []).
        { specialize (Hr 0%Z). destruct (h_redo h); auto. cbn in Hr. tauto. }
        split; [cbn; unfold redo_ids; rewrite Hu0; reflexivity|]. cbn [event_of].
        assert (hstep h EvRedo = h) as -> by (cbn; rewrite Hu0; reflexivity).
        split; auto. constructor; auto; rewrite El; auto.
      + destruct (h_redo h) as [|[j p] u] eqn:Eu; [specialize (Hr 0%Z); cbn in Hr; tauto|].
        pose proof (Hr j) as Hcj. cbn in Hcj. destruct Hcj as (Hid & Htg & Hst & Hch).
        rewrite Z.eqb_refl in Hch. destruct Hch as (w0 & w1 & Hw1 & Hp & Hrev & Hrest).
        destruct (reversed_commit _ _ _ _ Hrev Hw1) as (a' & s' & Hdo & Hle & Hrevd).
        unfold commit_item. rewrite Hst, Htg, Hdo. cbn.
        assert (Hlen : length (committed st) = length (h_undo h)) by (eapply chain_c_length, (Hc 0%Z)).
        eexists. eexists. split; [reflexivity|]. unfold redo_ids. rewrite Eu. cbn [map hd_error fst]. rewrite Hid.
        split; auto. split.
        2:{ pose proof (inv_world_step h EvRedo Hinv ltac:(discriminate)) as Hi. cbn in Hi. rewrite Eu in Hi. exact Hi. }
        constructor; cbn [h_cur h_undo h_redo h_max contents committed restored max_size]; auto.
        * intros i. unfold put, update. destruct (Z.eqb i j); eauto.
        * rewrite firstn_length. lia.
        * intros Hm. destruct (Hzero Hm). discriminate.
        * intros i.
          match goal with |- chain_c i ?l' _ _ => replace l' with (firstn (max_size st) (Item a' Committed j j :: committed st)) end.
          2:{ symmetry. apply (pop_front_firstn (max_size st) (Item a' Committed j j :: committed st)). cbn. lia. }
          rewrite Hmax. apply chain_c_firstn. cbn. repeat split; auto.
          destruct (Z.eqb_spec j i) as [->|Hne].
          -- rewrite update_same. exists (contents st i), s'. repeat split; auto.
          -- rewrite update_other by congruence. auto.
        * intros i. specialize (Hr i). cbn in Hr. destruct Hr as (_ & _ & _ & Hri).
          destruct (Z.eqb_spec j i) as [->|Hne].
          -- rewrite update_same. eapply chain_r_mono; eauto.
          -- rewrite update_other by congruence. auto.
    - (* set max *)
      eexists. eexists. split; [reflexivity|]. split; [reflexivity|]. cbn [event_of].
      split; [|apply inv_world_step; auto; discriminate].
      unfold stack_set_max. cbn [hstep].
      destruct (Nat.eqb_spec n 0) as [->|Hn].
      + constructor; cbn; auto.
      + assert (Hlen : length (committed st) = length (h_undo h)) by (eapply chain_c_length, (Hc 0%Z)).
        destruct (Nat.ltb_spec n (length (committed st))) as [Hlt|Hge].
        * constructor; cbn [h_cur h_undo h_redo h_max contents committed restored max_size]; auto.
          -- rewrite firstn_length. lia.
          -- lia.
          -- intros i. rewrite iter_removelast.
             replace (length (committed st) - (length (committed st) - n)) with n by lia.
             apply chain_c_firstn; auto.
        * constructor; cbn [h_cur h_undo h_redo h_max contents committed restored max_size]; auto.
          -- rewrite firstn_length. lia.
          -- lia.
          -- intros i. rewrite firstn_all2 by lia. auto.
    - (* clear *)
      eexists. eexists. split; [reflexivity|]. split; [reflexivity|]. cbn [event_of].
      split; [|apply inv_world_step; auto; discriminate].
      constructor; cbn; auto. lia.
    - (* remove *)
      eexists. eexists. split; [reflexivity|].
      split.
      { cbn. f_equal. unfold undo_ids, redo_ids. rewrite !count_has_id.
        rewrite (chain_c_ids _ _ _ _ (Hc 0%Z)), (chain_r_ids _ _ _ _ (Hr 0%Z)). reflexivity. }
      cbn [event_of]. split; [|apply inv_world_step; auto; discriminate].
      constructor; cbn; auto.
      + assert (Hf : forall (f : Z * S -> bool) l, length (filter f l) <= length l).
        { intros f l. induction l as [|x l IH]; cbn; auto. destruct (f x); cbn; lia. }
        specialize (Hf (not_id i) (h_undo h)). lia.
      + intros Hm. destruct (Hzero Hm) as [-> ->]. auto.
      + intros k. destruct (Z.eq_dec k i) as [->|Hne].
        * eapply chain_c_filter_same; eauto.
        * apply chain_c_filter_other; auto.
      + intros k. destruct (Z.eq_dec k i) as [->|Hne].
        * eapply chain_r_filter_same; eauto.
        * apply chain_r_filter_other; auto.
  Qed.

  Lemma refines_shows st h : refines st h -> shows le st h.
  Proof.
    intros [Hcur Hmax Hbound Hzero Hc Hr]. repeat split; auto.
    - apply (chain_c_ids _ _ _ _ (Hc 0%Z)).
    - apply (chain_r_ids _ _ _ _ (Hr 0%Z)).
  Qed.

  Lemma follows_of_refines ops : forall st h,
    refines st h -> inv_world h -> Forall well_tagged ops ->
    follows do_restore do_commit do_edit le Pre h st ops.
  Proof.
    induction ops as [|o ops IH]; intros st h Hrf Hinv Hw; cbn.
    - apply refines_shows; auto.
    - inversion Hw; subst. split; [apply refines_shows; auto|].
      intros Hdef.
      destruct (step_refines st h o Hrf Hinv) as (st' & r & Hs & He & Hrf' & Hinv'); auto.
      exists st', r. auto.
  Qed.

  Lemma run_refines_ok ops : forall st h st' rs,
    refines st h -> inv_world h -> Forall well_tagged ops -> all_allowed do_restore do_commit do_edit Pre st ops ->
    run do_restore do_commit do_edit st ops = Ok (st', rs) ->
    exists evs, refines st' (hrun h evs) /\ inv_world (hrun h evs) /\ length rs = length ops.
  Proof.
    induction ops as [|o ops IH]; intros st h st' rs Hrf Hinv Hw Hal; cbn [run].
    - intros Heq. inversion Heq; subst. exists []. auto.
    - intros Hrun. inversion Hw; subst.
      apply bind_ok_inv in Hrun. destruct Hrun as ([st1 r] & Hs & Hrun).
      apply bind_ok_inv in Hrun. destruct Hrun as ([st2 rs2] & Hr & Heq). inversion Heq; subst; clear Heq.
      destruct (step_refines st h o Hrf Hinv) as (st1' & r' & Hs' & He & Hrf' & Hinv'); auto; [apply Hal|].
      rewrite Hs in Hs'. inversion Hs'; subst st1' r'; clear Hs'.
      destruct (IH _ _ _ _ Hrf' Hinv' H2 (proj2 Hal _ _ Hs) Hr) as (evs & Hrf2 & Hinv2 & Hlen).
      exists (event_of o r st1 :: evs). cbn. auto.
  Qed.

  (** Calls that are not edits always run. *)
  Definition no_edit (o : op E) : Prop := match o with OpEdit _ _ _ => False | _ => True end.

  Lemma run_refines ops : forall st h,
    refines st h -> inv_world h -> Forall no_edit ops ->
    exists st' rs evs, run do_restore do_commit do_edit st ops = Ok (st', rs) /\
      refines st' (hrun h evs) /\ inv_world (hrun h evs) /\ length rs = length ops.
  Proof.
    induction ops as [|o ops IH]; intros st h Hrf Hinv Hw; cbn [run].
    - exists st, [], []. auto.
    - inversion Hw; subst.
      destruct (step_refines st h o Hrf Hinv) as (st1 & r & Hs & He & Hrf' & Hinv');
        try (destruct o; cbn in *; tauto).
      destruct (IH _ _ Hrf' Hinv') as (st' & rs & evs & Hr & Hrf2 & Hinv2 & Hlen); auto.
      exists st', (r :: rs), (event_of o r st1 :: evs).
      rewrite Hs. cbn [bind]. rewrite Hr. cbn. auto.
  Qed.

  Lemma reachable_refines st :
    reachable do_restore do_commit do_edit Pre Inv st ->
    exists h, refines st h /\ inv_world h.
  Proof.
    intros (c & mx & ops & rs & Hc & Hw & Hal & Hrun).
    destruct (run_refines_ok ops (init c mx) (hinit c mx) st rs) as (evs & Hrf & Hinv & _); auto.
    - apply refines_init.
    - repeat split; cbn; auto.
    - eauto.
  Qed.

  (** The chains do not mention the snapshot of the present, so it can be re-based on the actual content. *)
  Lemma rebase st h :
    refines st h -> inv_world h ->
    refines st (Hist (contents st) (h_undo h) (h_redo h) (h_max h)) /\
      inv_world (Hist (contents st) (h_undo h) (h_redo h) (h_max h)).
  Proof.
    intros [Hcur Hmax Hbound Hzero Hc Hr] (Hi1 & Hi2 & Hi3). split.
    - constructor; cbn; auto.
    - repeat split; cbn; auto. intros i. eapply Inv_mono; eauto.
  Qed.

  Lemma reachable_rebased st :
    reachable do_restore do_commit do_edit Pre Inv st ->
    exists h, refines st h /\ inv_world h /\ (forall i, h_cur h i = contents st i).
  Proof.
    intros H. destruct (reachable_refines st H) as (h & Hrf & Hinv).
    destruct (rebase st h Hrf Hinv). eexists. split; [eassumption|]. split; [assumption|]. reflexivity.
  Qed.

  (** Pointwise equality of histories. *)
  Definition heq (h k : hist S) : Prop :=
    (forall i, h_cur h i = h_cur k i) /\ h_undo h = h_undo k /\ h_redo h = h_redo k /\ h_max h = h_max k.

  Lemma heq_refl h : heq h h.
  Proof. repeat split; auto. Qed.
  Lemma heq_trans h k l : heq h k -> heq k l -> heq h l.
  Proof. intros (a & b & c & d) (a' & b' & c' & d'). repeat split; congruence. Qed.

  Lemma hstep_heq h k e : heq h k -> heq (hstep h e) (hstep k e).
  Proof.
    intros (Hc & Hu & Hr & Hm). destruct e as [i s| | | |n| |i]; cbn; rewrite <- ?Hm, <- ?Hu, <- ?Hr, <- ?Hc.
    - destruct (h_max h =? 0); repeat split; cbn; auto; intros j; unfold put; destruct (Z.eqb j i); auto.
    - repeat split; auto.
    - destruct (h_undo h) as [|[i s] u] eqn:E1; repeat split; cbn; auto; try congruence.
      intros j; unfold put; destruct (Z.eqb j i); auto.
    - destruct (h_redo h) as [|[i s] u] eqn:E1; repeat split; cbn; auto; try congruence.
      intros j; unfold put; destruct (Z.eqb j i); auto.
    - destruct (n =? 0); repeat split; cbn; auto.
    - repeat split; auto.
    - repeat split; auto.
  Qed.

  Lemma hrun_heq es : forall h k, heq h k -> heq (hrun h es) (hrun k es).
  Proof.
    induction es as [|e es IH]; cbn; intros h k H; auto. apply IH, hstep_heq, H.
  Qed.

  Lemma hrun_app (h : hist S) es fs : hrun h (es ++ fs) = hrun (hrun h es) fs.
  Proof. apply fold_left_app. Qed.

  Lemma hrun_cons (h : hist S) e es : hrun h (e :: es) = hrun (hstep h e) es.
  Proof. reflexivity. Qed.

  Lemma repeat_snoc {T} (x : T) k : repeat x (Datatypes.S k) = repeat x k ++ [x].
  Proof. induction k as [|k IH]; cbn; auto. f_equal. exact IH. Qed.

  (** In the specification k undos followed by k redos are the identity. *)
  Lemma hist_undo_redo k : forall h,
    length (h_undo h) <= h_max h -> k <= length (h_undo h) ->
    heq (hrun h (repeat EvUndo k ++ repeat EvRedo k)) h.
  Proof.
    induction k as [|k IH]; intros h Hb Hk; [apply heq_refl|].
    destruct (h_undo h) as [|[i s] u] eqn:Eu; [cbn in Hk; lia|].
    rewrite (repeat_snoc EvRedo k). cbn [repeat app]. rewrite app_assoc.
    rewrite hrun_cons.
    rewrite hrun_app.
    set (h1 := hstep h EvUndo).
    assert (Hh1 : h1 = Hist (put (h_cur h) i s) u ((i, h_cur h i) :: h_redo h) (h_max h)).
    { unfold h1. cbn. rewrite Eu. reflexivity. }
    eapply heq_trans.
    - apply hrun_heq. apply IH; rewrite Hh1; cbn in *; lia.
    - rewrite Hh1. cbn [hrun fold_left hstep h_redo h_undo h_cur h_max].
      repeat split; cbn [h_redo h_undo h_cur h_max]; auto.
      + intros j. unfold put. destruct (Z.eqb_spec j i) as [->|]; auto.
      + unfold put. rewrite Z.eqb_refl. rewrite firstn_all2 by (cbn in *; lia). congruence.
  Qed.

  Lemma expected_undo_results k : forall h st rs st',
    refines st h -> inv_world h -> k <= length (h_undo h) ->
    run do_restore do_commit do_edit st (repeat OpUndo k) = Ok (st', rs) ->
    rs = map (fun i => RId (Some i)) (firstn k (undo_ids h)) /\
      refines st' (hrun h (repeat EvUndo k)) /\ inv_world (hrun h (repeat EvUndo k)).
  Proof.
    induction k as [|k IH]; intros h st rs st' Hrf Hinv Hk Hrun; cbn in Hrun.
    - inversion Hrun; subst. cbn. auto.
    - destruct (step_refines st h OpUndo Hrf Hinv) as (st1 & r & Hs & He & Hrf' & Hinv'); [exact I|exact I|].
      cbn in Hs, He. rewrite Hs in Hrun. cbn in Hrun.
      apply bind_ok_inv in Hrun. destruct Hrun as ([st2 rs2] & Hrun & Heq). inversion Heq; subst; clear Heq.
      cbn [event_of] in *.
      destruct (h_undo h) as [|[i s] u] eqn:Eu; [cbn in Hk; lia|].
      destruct (IH _ _ rs2 st' Hrf' Hinv') as (Hrs & Hrf2 & Hinv2); [|exact Hrun|].
      { cbn. rewrite Eu. cbn in *. lia. }
      unfold undo_ids in *. rewrite Eu. cbn [map fst firstn hd_error]. split.
      + rewrite Hrs. cbn. rewrite Eu. reflexivity.
      + auto.
  Qed.

  Lemma expected_redo_results k : forall h st rs st',
    refines st h -> inv_world h -> k <= length (h_redo h) ->
    run do_restore do_commit do_edit st (repeat OpRedo k) = Ok (st', rs) ->
    rs = map (fun i => RId (Some i)) (firstn k (redo_ids h)) /\
      refines st' (hrun h (repeat EvRedo k)) /\ inv_world (hrun h (repeat EvRedo k)).
  Proof.
    induction k as [|k IH]; intros h st rs st' Hrf Hinv Hk Hrun; cbn in Hrun.
    - inversion Hrun; subst. cbn. auto.
    - destruct (step_refines st h OpRedo Hrf Hinv) as (st1 & r & Hs & He & Hrf' & Hinv'); [exact I|exact I|].
      cbn in Hs, He. rewrite Hs in Hrun. cbn in Hrun.
      apply bind_ok_inv in Hrun. destruct Hrun as ([st2 rs2] & Hrun & Heq). inversion Heq; subst; clear Heq.
      cbn [event_of] in *.
      destruct (h_redo h) as [|[i s] u] eqn:Eu; [cbn in Hk; lia|].
      destruct (IH _ _ rs2 st' Hrf' Hinv') as (Hrs & Hrf2 & Hinv2); [|exact Hrun|].
      { cbn. rewrite Eu. cbn in *. lia. }
      unfold redo_ids in *. rewrite Eu. cbn [map fst firstn hd_error]. split.
      + rewrite Hrs. cbn. rewrite Eu. reflexivity.
      + auto.
  Qed.

  Lemma hist_undo_lists k : forall h : hist S, k <= length (h_undo h) ->
    undo_ids (hrun h (repeat EvUndo k)) = skipn k (undo_ids h) /\
      redo_ids (hrun h (repeat EvUndo k)) = rev (firstn k (undo_ids h)) ++ redo_ids h.
  Proof.
    induction k as [|k IH]; intros h Hk; [cbn; auto|].
    cbn [repeat]. rewrite hrun_cons.
    unfold undo_ids, redo_ids in *.
    destruct (h_undo h) as [|[i s] u] eqn:Eu; [cbn in Hk; lia|].
    destruct (IH (hstep h EvUndo)) as [H1 H2]; [cbn; rewrite Eu; cbn in *; lia|].
    rewrite H1, H2. cbn. rewrite Eu. cbn. split; auto. rewrite <- app_assoc. reflexivity.
  Qed.

  Lemma run_app st ops1 ops2 :
    run do_restore do_commit do_edit st (ops1 ++ ops2) =
    (let! (st1, rs1) := run do_restore do_commit do_edit st ops1 in
     let! (st2, rs2) := run do_restore do_commit do_edit st1 ops2 in Ok (st2, rs1 ++ rs2)).
  Proof.
    revert st; induction ops1 as [|o ops1 IH]; intros st; cbn [app run].
    - cbn. destruct (run _ _ _ st ops2) as [[? ?]| |]; auto.
    - destruct (step _ _ _ st o) as [[st1 r]| |]; cbn [bind]; auto.
      rewrite IH. destruct (run _ _ _ st1 ops1) as [[st2 rs2]| |]; cbn [bind]; auto.
      destruct (run _ _ _ st2 ops2) as [[? ?]| |]; cbn; auto.
  Qed.

  Lemma forall_repeat {T} (P : T -> Prop) x k : P x -> Forall P (repeat x k).
  Proof. intros H. induction k; cbn; auto. Qed.

  Lemma undo_redo_cancel st k :
    reachable do_restore do_commit do_edit Pre Inv st -> k <= length (committed st) ->
    exists st' rs,
      run do_restore do_commit do_edit st (repeat OpUndo k ++ repeat OpRedo k) = Ok (st', rs) /\
      rs = map (fun i => RId (Some i)) (firstn k (map it_id (committed st)))
           ++ map (fun i => RId (Some i)) (rev (firstn k (map it_id (committed st)))) /\
      (forall i, le (contents st i) (contents st' i)) /\
      map it_id (committed st') = map it_id (committed st) /\
      map it_id (restored st') = map it_id (restored st).
  Proof.
    intros Hre Hk. destruct (reachable_rebased st Hre) as (h & Hrf & Hinv & Hcur).
    pose proof (refines_shows _ _ Hrf) as (_ & Hids & Hrids & _).
    assert (Hlen : length (committed st) = length (h_undo h)).
    { apply (f_equal (@length Z)) in Hids. unfold undo_ids in Hids. rewrite !map_length in Hids. exact Hids. }
    destruct (run_refines (repeat OpUndo k) st h Hrf Hinv) as (st1 & rs1 & _ & Hrun1 & _ & _ & _);
      [apply forall_repeat; exact I|].
    destruct (expected_undo_results k h st rs1 st1 Hrf Hinv) as (Hrs1 & Hrf1 & Hinv1); auto; [lia|].
    destruct (hist_undo_lists k h) as [Hu1 Hr1]; [lia|].
    destruct (run_refines (repeat OpRedo k) st1 _ Hrf1 Hinv1) as (st2 & rs2 & _ & Hrun2 & _ & _ & _);
      [apply forall_repeat; exact I|].
    assert (Hlr : length (rev (firstn k (undo_ids h))) = k).
    { rewrite rev_length, firstn_length. unfold undo_ids. rewrite map_length. lia. }
    destruct (expected_redo_results k _ st1 rs2 st2 Hrf1 Hinv1) as (Hrs2 & Hrf2 & Hinv2); auto.
    { apply (f_equal (@length Z)) in Hr1. unfold redo_ids in Hr1 at 1. rewrite map_length, app_length, Hlr in Hr1. lia. }
    exists st2, (rs1 ++ rs2). rewrite run_app, Hrun1. cbn [bind]. rewrite Hrun2. cbn [bind].
    split; [reflexivity|].
    rewrite <- hrun_app in Hrf2.
    assert (Hb : length (h_undo h) <= h_max h) by apply Hrf.
    destruct (hist_undo_redo k h Hb) as (Hc2 & Hu2 & Hr2 & Hm2); [lia|].
    pose proof (refines_shows _ _ Hrf2) as (Hs1 & Hs2 & Hs3 & _).
    repeat split.
    - rewrite Hrs1, Hrs2, Hr1, Hids. f_equal. f_equal.
      rewrite firstn_app, Hlr, Nat.sub_diag, firstn_O, app_nil_r. rewrite firstn_all2 by lia. reflexivity.
    - intros i. rewrite <- Hcur, <- Hc2. apply Hs1.
    - rewrite Hs2, Hids. unfold undo_ids. rewrite Hu2. reflexivity.
    - rewrite Hs3, Hrids. unfold redo_ids. rewrite Hr2. reflexivity.
  Qed.

  (** Undo step seen from any reachable state. *)
  Lemma undo_one st :
    reachable do_restore do_commit do_edit Pre Inv st ->
    match map it_id (committed st) with
    | [] => step do_restore do_commit do_edit st OpUndo = Ok (st, RId None)
    | i :: rest => exists st', step do_restore do_commit do_edit st OpUndo = Ok (st', RId (Some i)) /\
      (forall j, j <> i -> contents st' j = contents st j) /\
      map it_id (committed st') = rest /\ map it_id (restored st') = i :: map it_id (restored st)
    end.
  Proof.
    intros Hre. destruct (reachable_refines st Hre) as (h & Hrf & Hinv).
    destruct (step_refines st h OpUndo Hrf Hinv) as (st' & r & Hs & He & Hrf' & Hinv'); [exact I|exact I|].
    pose proof (refines_shows _ _ Hrf) as (_ & Hids & Hrids & _).
    pose proof (refines_shows _ _ Hrf') as (_ & Hids' & Hrids' & _).
    cbn [event_of expected_result] in *.
    destruct (committed st) as [|it l] eqn:El; cbn [map] in *.
    - cbn [step]. unfold stack_undo. rewrite El. reflexivity.
    - exists st'. unfold undo_ids, redo_ids in *.
      destruct (h_undo h) as [|[i s] u] eqn:Eu; [discriminate|]. cbn [map fst hd_error] in *.
      inversion Hids as [[Hi Hl]]. rewrite Hi. subst r.
      split; auto. cbn [hstep] in *. rewrite Eu in *. cbn [h_undo h_redo map fst] in *.
      repeat split; auto; try congruence.
      intros j Hj. cbn [step] in Hs. unfold stack_undo in Hs. rewrite El in Hs.
      destruct (restore_item do_restore it (contents st)) as [[it' c']| |] eqn:Er; cbn in Hs; try discriminate.
      inversion Hs; subst; clear Hs. cbn.
      destruct Hrf as [_ _ _ _ Hc _]. specialize (Hc 0%Z). rewrite El, Eu in Hc. cbn in Hc.
      destruct Hc as (G1 & G2 & G3 & _).
      unfold restore_item in Er. rewrite G3 in Er.
      destruct (do_restore (it_act it) (contents st (it_target it))) as [[a' s']| |]; cbn in Er; try discriminate.
      inversion Er; subst. apply update_other. congruence.
  Qed.

  Lemma redo_one st :
    reachable do_restore do_commit do_edit Pre Inv st ->
    match map it_id (restored st) with
    | [] => step do_restore do_commit do_edit st OpRedo = Ok (st, RId None)
    | i :: rest => exists st', step do_restore do_commit do_edit st OpRedo = Ok (st', RId (Some i)) /\
      (forall j, j <> i -> contents st' j = contents st j) /\
      map it_id (committed st') = firstn (max_size st) (i :: map it_id (committed st)) /\ map it_id (restored st') = rest
    end.
  Proof.
    intros Hre. destruct (reachable_refines st Hre) as (h & Hrf & Hinv).
    destruct (step_refines st h OpRedo Hrf Hinv) as (st' & r & Hs & He & Hrf' & Hinv'); [exact I|exact I|].
    pose proof (refines_shows _ _ Hrf) as (_ & Hids & Hrids & Hmx).
    pose proof (refines_shows _ _ Hrf') as (_ & Hids' & Hrids' & _).
    cbn [event_of expected_result] in *.
    destruct (restored st) as [|it l] eqn:El; cbn [map] in *.
    - cbn [step]. unfold stack_redo. rewrite El. reflexivity.
    - exists st'. unfold undo_ids, redo_ids in *.
      destruct (h_redo h) as [|[i s] u] eqn:Eu; [discriminate|]. cbn [map fst hd_error] in *.
      inversion Hrids as [[Hi Hl]]. rewrite Hi. subst r.
      split; auto. cbn [hstep] in *. rewrite Eu in *. cbn [h_undo h_redo map fst] in *.
      repeat split; auto; try congruence.
      2:{ rewrite Hids', Hids, Hmx, <- firstn_map. reflexivity. }
      intros j Hj. cbn [step] in Hs. unfold stack_redo in Hs. rewrite El in Hs.
      destruct (commit_item do_commit it (contents st)) as [[it' c']| |] eqn:Er; cbn [bind] in Hs; try discriminate.
      inversion Hs; subst; clear Hs. cbn [contents].
      destruct Hrf as [_ _ _ _ _ Hc]. specialize (Hc 0%Z). rewrite El, Eu in Hc. cbn in Hc.
      destruct Hc as (G1 & G2 & G3 & _).
      unfold commit_item in Er. rewrite G3 in Er.
      destruct (do_commit (it_act it) (contents st (it_target it))) as [[a' s']| |]; cbn in Er; try discriminate.
      inversion Er; subst. apply update_other. congruence.
  Qed.

  (** One successful edit. *)
  Lemma edit_one st st' i e :
    reachable do_restore do_commit do_edit Pre Inv st ->
    Pre e (contents st i) ->
    step do_restore do_commit do_edit st (OpEdit i i e) = Ok (st', REdit true) ->
    (forall j, j <> i -> contents st' j = contents st j) /\
      max_size st' = max_size st /\
      (0 < max_size st ->
      map it_id (committed st') = firstn (max_size st) (i :: map it_id (committed st)) /\
      restored st' = filter (fun it => negb (has_id i it)) (restored st)) /\
      (max_size st = 0 -> committed st' = [] /\ restored st' = []).
  Proof.
    intros Hre Hpre Hs. destruct (reachable_refines st Hre) as (h & Hrf & Hinv).
    destruct (step_refines st h (OpEdit i i e) Hrf Hinv) as (st2 & r & Hs2 & He & Hrf' & Hinv'); [reflexivity|exact Hpre|].
    rewrite Hs in Hs2. inversion Hs2; subst; clear Hs2.
    pose proof (refines_shows _ _ Hrf) as (_ & Hids & Hrids & Hmx).
    pose proof (refines_shows _ _ Hrf') as (_ & Hids' & Hrids' & Hmx').
    cbn [step] in Hs.
    destruct (do_edit e (contents st i)) as [[[a s]|]| |] eqn:Ee; try discriminate.
    unfold stack_add in Hs. cbn [max_size committed restored contents] in Hs.
    assert (Hb : length (committed st) <= max_size st).
    { destruct Hrf as [_ Hm Hbd _ Hc _]. rewrite (chain_c_length _ _ _ _ (Hc 0%Z)). lia. }
    destruct (Nat.ltb_spec 0 (max_size st)) as [Hpos|Hz]; cbn [bind] in Hs; inversion Hs; subst; clear Hs;
      cbn [contents committed restored max_size].
    - repeat split; auto; try lia.
      + intros j Hj. apply update_other; auto.
      + match goal with |- map _ ?l' = _ => replace l' with (firstn (max_size st) (Item a Committed i i :: committed st)) end.
        * rewrite <- firstn_map. reflexivity.
        * symmetry. apply (pop_front_firstn (max_size st) (Item a Committed i i :: committed st)). cbn. lia.
    - repeat split; auto; try lia.
      + intros j Hj. apply update_other; auto.
      + destruct (committed st); auto. cbn in Hb. lia.
      + destruct Hrf as [_ Hm _ Hzero _ Hr]. destruct Hzero as [_ Hz0]; [lia|].
        specialize (Hr 0%Z). rewrite Hz0 in Hr. destruct (restored st); auto. cbn in Hr. tauto.
  Qed.

  Lemma all_allowed_app ops1 : forall st ops2,
    all_allowed do_restore do_commit do_edit Pre st ops1 ->
    (forall st' rs, run do_restore do_commit do_edit st ops1 = Ok (st', rs) -> all_allowed do_restore do_commit do_edit Pre st' ops2) ->
    all_allowed do_restore do_commit do_edit Pre st (ops1 ++ ops2).
  Proof.
    induction ops1 as [|o ops IH]; intros st ops2 H1 H2; cbn.
    - apply (H2 st []). reflexivity.
    - split; [apply H1|]. intros st' r Hs. apply IH.
      + apply (proj2 H1 _ _ Hs).
      + intros st2 rs Hr. apply (H2 st2 (r :: rs)). cbn. rewrite Hs. cbn. rewrite Hr. reflexivity.
  Qed.

  Lemma reachable_run st ops st' rs :
    reachable do_restore do_commit do_edit Pre Inv st -> Forall well_tagged ops ->
    all_allowed do_restore do_commit do_edit Pre st ops ->
    run do_restore do_commit do_edit st ops = Ok (st', rs) ->
    reachable do_restore do_commit do_edit Pre Inv st'.
  Proof.
    intros (c & mx & ops0 & rs0 & Hc & Hw & Hal & Hrun) Hw2 Hal2 Hrun2.
    exists c, mx, (ops0 ++ ops), (rs0 ++ rs). repeat split; auto.
    - apply Forall_app; auto.
    - apply all_allowed_app; auto. intros st1 rs1 H1. rewrite Hrun in H1. inversion H1; subst; auto.
    - rewrite run_app, Hrun. cbn. rewrite Hrun2. reflexivity.
  Qed.

  Lemma reachable_step st o st' r :
    reachable do_restore do_commit do_edit Pre Inv st -> well_tagged o -> allowed Pre st o ->
    step do_restore do_commit do_edit st o = Ok (st', r) ->
    reachable do_restore do_commit do_edit Pre Inv st'.
  Proof.
    intros Hre Hw Hal Hs. apply (reachable_run st [o] st' [r]); auto; cbn; auto. rewrite Hs. reflexivity.
  Qed.

  (** Edits [es] all carried out, then as many undos: back to the start. *)
  Definition edit_ops (es : list (Z * E)) : list (op E) := map (fun p => OpEdit (fst p) (fst p) (snd p)) es.

  Definition edit_events (es : list (Z * S)) : list (event S) := map (fun p => EvEdit (fst p) (snd p)) es.

  Lemma hist_edits_undo es : forall h,
    length es <= h_max h -> length (h_undo h) <= h_max h ->
    let h' := hrun h (edit_events es ++ repeat EvUndo (length es)) in
    (forall i, h_cur h' i = h_cur h i) /\ h_undo h' = firstn (h_max h - length es) (h_undo h) /\ h_max h' = h_max h.
  Proof.
    induction es as [|[i s] es IH]; intros h Hle Hb; cbn [length]; cbv zeta.
    - cbn. rewrite Nat.sub_0_r, firstn_all2 by lia. auto.
    - cbn [length] in Hle. rewrite repeat_snoc, app_assoc, hrun_app.
      change (edit_events ((i, s) :: es)) with (EvEdit i s :: edit_events es).
      cbn [app]. rewrite (hrun_cons h (EvEdit i s)).
      set (h1 := hstep h (EvEdit i s)).
      assert (Hh1 : h1 = Hist (put (h_cur h) i s) (firstn (h_max h) ((i, h_cur h i) :: h_undo h))
                              (filter (not_id i) (h_redo h)) (h_max h)).
      { unfold h1. cbn [hstep]. destruct (Nat.eqb_spec (h_max h) 0); [lia|]. reflexivity. }
      destruct (IH h1) as (Hc & Hu & Hm).
      { rewrite Hh1. cbn. lia. }
      { rewrite Hh1. cbn [h_undo h_max]. rewrite firstn_length. lia. }
      set (h2 := hrun h1 (edit_events es ++ repeat EvUndo (length es))) in *.
      rewrite Hh1 in Hu, Hm. cbn [h_undo h_max] in Hu, Hm.
      rewrite firstn_firstn, Nat.min_l in Hu by lia.
      replace (h_max h - length es) with (Datatypes.S (h_max h - Datatypes.S (length es))) in Hu by lia.
      cbn [firstn] in Hu.
      clearbody h2. clearbody h1.
      cbn [hrun fold_left hstep]. 
      rewrite Hu. cbn [h_cur h_undo h_max]. repeat split; auto.
      intros j. unfold put. destruct (Z.eqb_spec j i) as [->|Hj]; auto.
      rewrite Hc, Hh1. cbn. unfold put. apply Z.eqb_neq in Hj. now rewrite Hj.
  Qed.

  Lemma hist_edits_ids es : forall h : hist S, 0 < h_max h -> length (h_undo h) <= h_max h ->
    undo_ids (hrun h (edit_events es)) = firstn (h_max h) (rev (map fst es) ++ undo_ids h) /\
    h_max (hrun h (edit_events es)) = h_max h.
  Proof.
    induction es as [|[i s] es IH]; intros h Hpos Hb; cbn [edit_events map].
    - cbn. unfold undo_ids. rewrite firstn_all2 by (rewrite map_length; lia). auto.
    - rewrite hrun_cons. cbn [hstep fst snd].
      destruct (Nat.eqb_spec (h_max h) 0); [lia|].
      destruct (IH (Hist (put (h_cur h) i s) (firstn (h_max h) ((i, h_cur h i) :: h_undo h))
                              (filter (not_id i) (h_redo h)) (h_max h))) as [H1 H2]; cbn [h_max h_undo].
      + lia.
      + rewrite firstn_length. lia.
      + unfold edit_events in *. rewrite H1, H2. cbn [h_max]. split; auto.
        unfold undo_ids. cbn [h_undo rev]. rewrite <- firstn_map. cbn [map fst].
        rewrite <- app_assoc. cbn [app].
        rewrite !firstn_app, firstn_firstn. rewrite Nat.min_l by lia. reflexivity.
  Qed.

  Lemma edits_refine es : forall st h st1 rs,
    refines st h -> inv_world h -> all_allowed do_restore do_commit do_edit Pre st (edit_ops es) ->
    run do_restore do_commit do_edit st (edit_ops es) = Ok (st1, rs) -> rs = repeat (REdit true) (length es) ->
    exists evs, map fst evs = map fst es /\ refines st1 (hrun h (edit_events evs)) /\ inv_world (hrun h (edit_events evs)).
  Proof.
    induction es as [|[i e] es IH]; intros st h st1 rs Hrf Hinv Hal Hrun Hrs.
    - cbn in Hrun. inversion Hrun; subst. exists []. auto.
    - cbn [edit_ops map run fst snd] in Hrun.
      destruct (step_refines st h (OpEdit i i e) Hrf Hinv) as (st' & r & Hs & He & Hrf' & Hinv').
      { reflexivity. }
      { apply Hal. }
      rewrite Hs in Hrun. cbn [bind] in Hrun. apply bind_ok_inv in Hrun. destruct Hrun as ([st2 rs2] & Hrun & Heq).
      inversion Heq; subst; clear Heq. cbn [length repeat] in H1. inversion H1; subst; clear H1.
      cbn [event_of] in *.
      destruct (IH _ _ _ _ Hrf' Hinv' (proj2 Hal _ _ Hs) Hrun eq_refl) as (evs & Hm & Hrf2 & Hinv2).
      exists ((i, contents st' i) :: evs). cbn. rewrite Hm. auto.
  Qed.

  Lemma edits_then_undos st st1 es :
    reachable do_restore do_commit do_edit Pre Inv st ->
    all_allowed do_restore do_commit do_edit Pre st (edit_ops es) ->
    run do_restore do_commit do_edit st (edit_ops es) = Ok (st1, repeat (REdit true) (length es)) ->
    length es <= max_size st ->
    exists st2,
      run do_restore do_commit do_edit st1 (repeat OpUndo (length es))
        = Ok (st2, map (fun i => RId (Some i)) (rev (map fst es))) /\
      (forall i, le (contents st i) (contents st2 i)).
  Proof.
    intros Hre Hal Hrun Hlen. destruct (reachable_rebased st Hre) as (h & Hrf & Hinv & Hcur).
    destruct (edits_refine es st h st1 _ Hrf Hinv Hal Hrun eq_refl) as (evs & Hm & Hrf1 & Hinv1).
    destruct (run_refines (repeat OpUndo (length es)) st1 _ Hrf1 Hinv1) as (st2 & rs2 & _ & Hrun2 & _ & _ & _);
      [apply forall_repeat; exact I|].
    assert (Hl : length evs = length es) by (apply (f_equal (@length Z)) in Hm; rewrite !map_length in Hm; exact Hm).
    assert (Hmx : max_size st = h_max h) by apply Hrf.
    assert (Hb : length (h_undo h) <= h_max h) by apply Hrf.
    exists st2. destruct es as [|e0 es0].
    - cbn in *. inversion Hrun2; subst. inversion Hrun; subst. auto.
    - set (es := e0 :: es0) in *. assert (Hpos : 0 < length es) by (unfold es; cbn; lia). clearbody es.
      destruct (hist_edits_ids evs h) as [Hu Hm1]; [lia|lia|].
      assert (Hul : length es <= length (h_undo (hrun h (edit_events evs)))).
      { apply (f_equal (@length Z)) in Hu. unfold undo_ids in Hu at 1. rewrite map_length in Hu. rewrite Hu.
        rewrite firstn_length, app_length, rev_length, map_length. lia. }
      destruct (expected_undo_results (length es) _ _ _ _ Hrf1 Hinv1 Hul Hrun2) as (Hrs & Hrf2 & _).
      rewrite Hrun2. split.
      + rewrite Hrs, Hu, firstn_firstn, Nat.min_l by lia.
        rewrite firstn_app, rev_length, map_length, Hl, Nat.sub_diag, firstn_O, app_nil_r, Hm.
        rewrite firstn_all2 by (rewrite rev_length, map_length; lia). reflexivity.
      + intros i. rewrite <- Hl, <- hrun_app in Hrf2.
        destruct (hist_edits_undo evs h) as (Hc & _ & _); [lia|lia|].
        rewrite <- Hcur, <- Hc. apply Hrf2.
  Qed.
End Refine.

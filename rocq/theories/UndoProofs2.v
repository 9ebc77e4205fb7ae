(** Consequences of the refinement for sizes and counts, and the refutation of a bound on the total size. *)
From Verif Require Import Base BaseLemmas UndoModel UndoSpec UndoProofs.

Lemma filter_firstn {T} (f : T -> bool) k l : exists k', filter f (firstn k l) = firstn k' (filter f l).
Proof.
  revert k; induction l as [|x l IH]; intros [|k]; cbn.
  - exists 0; reflexivity.
  - exists 0; reflexivity.
  - exists 0; reflexivity.
  - destruct (IH k) as [k' Hk']. destruct (f x); [exists (S k')|exists k']; cbn; congruence.
Qed.

Section Sizes.
  Context {A S E : Type}.
  Variables (do_restore do_commit : A -> S -> outcome (A * S)).
  Variable do_edit : E -> S -> outcome (option (A * S)).
  Variable le : S -> S -> Prop.
  Hypothesis le_refl : forall s, le s s.
  Hypothesis le_trans : forall s t u, le s t -> le t u -> le s u.
  Variable Inv : S -> Prop.
  Variable Pre : E -> S -> Prop.
  Hypothesis Inv_mono : forall s s', Inv s -> le s s' -> Inv s'.
  Hypothesis edit_ok : edits_reversible do_restore do_commit do_edit le Pre Inv.

  Notation ustate := (ustate A S).
  Notation step := (step do_restore do_commit do_edit).
  Notation run := (run do_restore do_commit do_edit).
  Notation reachable := (reachable do_restore do_commit do_edit Pre Inv).

  Lemma reachable_bounded st : reachable st -> length (committed st) <= max_size st.
  Proof.
    intros H. destruct (reachable_refines _ _ _ _ le_refl le_trans _ _ Inv_mono edit_ok _ H) as (h & Hrf & _).
    destruct Hrf as [_ Hm Hb _ Hc _]. rewrite (chain_c_length _ _ _ _ _ _ _ (Hc 0%Z)). lia.
  Qed.

  (** Comparison with the unlimited history. *)
  Definition sub_history (h u : hist S) : Prop :=
    (forall i, h_cur h i = h_cur u i) /\ h_redo h = h_redo u /\ (exists k, h_undo h = firstn k (h_undo u)) /\ 0 < h_max h.

  Lemma sub_history_step h u e :
    sub_history h u -> (match e with EvSetMax n => 0 < n | _ => True end) ->
    (e = EvUndo -> h_undo h <> []) ->
    sub_history (hstep h e) (unlimited_step u e).
  Proof.
    intros (Hc & Hr & (k & Hu) & Hpos) He Hun.
    destruct e as [i s| | | |n| |i]; cbn [hstep unlimited_step].
    - destruct (Nat.eqb_spec (h_max h) 0); [lia|]. repeat split; cbn; auto.
      + intros j. unfold put. destruct (Z.eqb j i); auto.
      + now rewrite Hr.
      + exists (Nat.min (h_max h) (Datatypes.S k)). rewrite Hu, Hc.
        change ((i, h_cur u i) :: firstn k (h_undo u)) with (firstn (Datatypes.S k) ((i, h_cur u i) :: h_undo u)).
        apply firstn_firstn.
    - repeat split; eauto.
    - specialize (Hun eq_refl). rewrite Hu in *.
      destruct (h_undo u) as [|[i s] l]; [destruct k; cbn in Hun; congruence|].
      destruct k as [|k]; cbn in *; [congruence|]. repeat split; cbn; auto.
      + intros j. unfold put. destruct (Z.eqb j i); auto.
      + now rewrite Hr, Hc.
      + eauto.
    - rewrite <- Hr. destruct (h_redo h) as [|[i s] l] eqn:El; [repeat split; eauto; congruence|].
      repeat split; cbn; auto.
      + intros j. unfold put. destruct (Z.eqb j i); auto.
      + exists (Nat.min (h_max h) (Datatypes.S k)). rewrite Hu, Hc.
        change ((i, h_cur u i) :: firstn k (h_undo u)) with (firstn (Datatypes.S k) ((i, h_cur u i) :: h_undo u)).
        apply firstn_firstn.
    - destruct (Nat.eqb_spec n 0); [lia|]. repeat split; cbn; auto.
      exists (Nat.min n k). rewrite Hu. apply firstn_firstn.
    - repeat split; cbn; auto. exists 0. reflexivity.
    - repeat split; cbn; auto.
      + now rewrite Hr.
      + rewrite Hu. apply filter_firstn.
  Qed.

  Lemma run_unlimited ops : forall st h u st' rs,
    refines do_restore do_commit le st h -> inv_world Inv h -> sub_history h u ->
    Forall well_tagged ops -> all_allowed do_restore do_commit do_edit Pre st ops -> Forall keeps_on ops ->
    run st ops = Ok (st', rs) ->
    Forall2 (fun o r => o = OpUndo -> r <> RId None) ops rs ->
    exists k, map it_id (committed st') = firstn k (undo_ids (fold_left unlimited_step (trace do_restore do_commit do_edit st ops) u))
              /\ map it_id (restored st') = redo_ids (fold_left unlimited_step (trace do_restore do_commit do_edit st ops) u).
  Proof.
    induction ops as [|o ops IH]; intros st h u st' rs Hrf Hinv Hsub Hw Hal Hk Hrun Hres.
    - cbn in Hrun. inversion Hrun; subst. cbn.
      destruct (refines_shows _ _ _ _ _ Hrf) as (_ & H1 & H2 & _).
      destruct Hsub as (_ & Hr & (k & Hu) & _).
      exists k. rewrite H1, H2. unfold undo_ids, redo_ids. rewrite Hu, Hr, firstn_map. auto.
    - inversion Hw; subst. inversion Hk; subst.
      destruct (step_refines _ _ _ _ le_refl le_trans _ _ Inv_mono edit_ok st h o Hrf Hinv) as (st1 & r & Hs & He & Hrf1 & Hinv1); auto.
      { apply Hal. }
      cbn [UndoModel.run] in Hrun. rewrite Hs in Hrun. cbn [bind] in Hrun.
      apply bind_ok_inv in Hrun. destruct Hrun as ([st2 rs2] & Hrun & Heq). inversion Heq; subst; clear Heq.
      inversion Hres; subst.
      cbn [trace]. rewrite Hs. cbn [fold_left].
      eapply IH; eauto; [|apply (proj2 Hal _ _ Hs)]. apply sub_history_step; auto.
      + destruct o; cbn; auto. destruct r; cbn; auto. destruct done; auto.
      + intros Hev. destruct o; cbn in Hev; try discriminate; [destruct r; try discriminate; destruct done; discriminate|].
        cbn in He. intros Hnil. unfold undo_ids in He. rewrite Hnil in He. cbn in He.
        specialize (H6 eq_refl). congruence.
  Qed.

  Lemma newest_kept c mx ops st rs :
    (forall i, Inv (c i)) -> 0 < mx -> Forall well_tagged ops ->
    all_allowed do_restore do_commit do_edit Pre (init c mx) ops -> Forall keeps_on ops ->
    run (init c mx) ops = Ok (st, rs) ->
    Forall2 (fun o r => o = OpUndo -> r <> RId None) ops rs ->
    let u := unlimited c (trace do_restore do_commit do_edit (init c mx) ops) in
    exists k, map it_id (committed st) = firstn k (undo_ids u) /\ map it_id (restored st) = redo_ids u.
  Proof.
    intros Hi Hmx Hw Hal Hk Hrun Hres. cbv zeta.
    apply (run_unlimited ops (init c mx) (hinit c mx) (hinit c 0) st rs); auto.
    - apply refines_init; auto.
    - repeat split; cbn; auto.
    - repeat split; cbn; auto. exists 0; reflexivity.
  Qed.

  (** Undo size zero. *)
  Lemma run_off ops : forall st st' rs,
    committed st = [] -> restored st = [] -> max_size st = 0 ->
    Forall (fun o : op E => match o with OpSetMax n => n = 0 | _ => True end) ops ->
    run st ops = Ok (st', rs) ->
    committed st' = [] /\ restored st' = [] /\ max_size st' = 0 /\
    Forall2 (fun o r => (o = OpUndo \/ o = OpRedo) -> r = RId None) ops rs /\
    (forall i, contents st' i = plain do_edit (contents st) ops i).
  Proof.
    induction ops as [|o ops IH]; intros st st' rs Hc Hr Hm Hz Hrun.
    - cbn in Hrun. inversion Hrun; subst. auto.
    - inversion Hz; subst. cbn [UndoModel.run] in Hrun.
      apply bind_ok_inv in Hrun. destruct Hrun as ([st1 r] & Hs & Hrun).
      apply bind_ok_inv in Hrun. destruct Hrun as ([st2 rs2] & Hrun & Heq). inversion Heq; subst; clear Heq.
      assert (Hkey : committed st1 = [] /\ restored st1 = [] /\ max_size st1 = 0 /\
                ((o = OpUndo \/ o = OpRedo) -> r = RId None) /\ plain do_edit (contents st) (o :: ops) = plain do_edit (contents st1) ops).
      { destruct o as [tag target e| | |n| |i]; cbn [UndoModel.step] in Hs.
        - cbn [plain]. destruct (do_edit e (contents st target)) as [[[a s]|]| |] eqn:Ee; try discriminate; cbn in Hs;
            try (inversion Hs; subst; repeat split; auto; intros [Hx|Hx]; discriminate).
          rewrite Hm in Hs. cbn in Hs. inversion Hs; subst; clear Hs. cbn.
          repeat split; auto. intros [Hx|Hx]; discriminate.
        - unfold stack_undo in Hs. rewrite Hc in Hs. cbn in Hs. inversion Hs; subst. auto 10.
        - unfold stack_redo in Hs. rewrite Hr in Hs. cbn in Hs. inversion Hs; subst. auto 10.
        - subst n. unfold stack_set_max in Hs. cbn in Hs. inversion Hs; subst. cbn. repeat split; auto; intros [Hx|Hx]; discriminate.
        - inversion Hs; subst. cbn. repeat split; auto; intros [Hx|Hx]; discriminate.
        - unfold stack_remove in Hs. rewrite Hc, Hr in Hs. cbn in Hs. inversion Hs; subst. cbn. repeat split; auto; intros [Hx|Hx]; discriminate. }
      destruct Hkey as (K1 & K2 & K3 & K4 & K5).
      destruct (IH st1 st' rs2 K1 K2 K3) as (I1 & I2 & I3 & I4 & I5); auto.
      repeat split; auto. intros i. rewrite K5. apply I5.
  Qed.

  Lemma off_after_set_zero st st0 r0 ops st' rs :
    step st (OpSetMax 0) = Ok (st0, r0) ->
    Forall (fun o : op E => match o with OpSetMax n => n = 0 | _ => True end) ops ->
    run st0 ops = Ok (st', rs) ->
    (forall i, committed_size st' i = 0 /\ restored_size st' i = 0) /\
    Forall2 (fun o r => (o = OpUndo \/ o = OpRedo) -> r = RId None) ops rs /\
    (forall i, contents st' i = plain do_edit (contents st) ops i).
  Proof.
    intros Hs Hz Hrun. cbn in Hs. inversion Hs; subst; clear Hs.
    destruct (run_off ops (UState (contents st) [] [] 0) st' rs ltac:(reflexivity) ltac:(reflexivity) ltac:(reflexivity) Hz Hrun) as (H1 & H2 & _ & H4 & H5).
    cbn in H5. repeat split; auto.
    - unfold committed_size, count_id. rewrite H1. cbn. destruct (Z.eqb i missing_id); auto.
    - unfold restored_size, count_id. rewrite H2. cbn. destruct (Z.eqb i missing_id); auto.
  Qed.

  (** Counts. *)
  Lemma count_id_occ i (l : list (item A)) :
    i <> missing_id -> count_id i l = count_occ Z.eq_dec (map it_id l) i.
  Proof.
    intros Hi. unfold count_id. apply Z.eqb_neq in Hi. rewrite Hi.
    induction l as [|it l IH]; cbn; auto. unfold has_id at 1.
    destruct (Z.eq_dec (it_id it) i) as [->|Hne].
    - rewrite Z.eqb_refl. cbn. now rewrite IH.
    - apply Z.eqb_neq in Hne. rewrite Hne. exact IH.
  Qed.

  Lemma sum_count_occ ids (l : list Z) :
    NoDup ids -> (forall x, In x l -> In x ids) -> list_sum (map (count_occ Z.eq_dec l) ids) = length l.
  Proof.
    unfold list_sum. intros Hnd. induction l as [|x l IH]; intros Hin; cbn.
    - clear. induction ids; cbn; auto.
    - rewrite <- IH by (intros y Hy; apply Hin; right; auto).
      assert (Hx : In x ids) by (apply Hin; left; auto).
      clear IH Hin. induction ids as [|y ids IH]; [destruct Hx|].
      inversion Hnd as [|? ? Hny Hnd']; subst. cbn. destruct (Z.eq_dec x y) as [->|Hne].
      + assert (map (fun x => if Z.eq_dec y x then Datatypes.S (count_occ Z.eq_dec l x) else count_occ Z.eq_dec l x) ids
                = map (count_occ Z.eq_dec l) ids) as ->.
        { apply map_ext_in. intros z Hz. destruct (Z.eq_dec y z); subst; tauto. }
        reflexivity.
      + destruct Hx as [Hx|Hx]; [congruence|]. rewrite (IH Hnd' Hx). lia.
  Qed.

  Lemma counts_add_up (l : list (item A)) ids :
    NoDup ids -> ~ In missing_id ids -> (forall it, In it l -> In (it_id it) ids) ->
    list_sum (map (fun i => count_id i l) ids) = count_id missing_id l.
  Proof.
    intros Hnd Hm Hin. unfold count_id at 2. cbn [missing_id Z.eqb].
    assert (map (fun i => count_id i l) ids = map (count_occ Z.eq_dec (map it_id l)) ids) as ->.
    { apply map_ext_in. intros i Hi. apply count_id_occ. intros ->; auto. }
    rewrite sum_count_occ; auto.
    - rewrite map_length. reflexivity.
    - intros x Hx. apply in_map_iff in Hx. destruct Hx as (it & <- & Hit). auto.
  Qed.

  Lemma filter_length_split {T} (f : T -> bool) l : length (filter f l) + length (filter (fun x => negb (f x)) l) = length l.
  Proof. induction l as [|x l IH]; cbn; auto. destruct (f x); cbn; lia. Qed.

  (** At most [mx] entries in total when only one id is edited. *)
  Lemma single_id_total_step i st o st' r :
    (match o with OpEdit tag _ _ => tag = i | OpSetMax _ => False | _ => True end) ->
    Forall (fun it => it_id it = i) (committed st) -> Forall (fun it => it_id it = i) (restored st) ->
    total_size st <= max_size st ->
    step st o = Ok (st', r) ->
    Forall (fun it => it_id it = i) (committed st') /\ Forall (fun it => it_id it = i) (restored st') /\
    total_size st' <= max_size st' /\ max_size st' = max_size st.
  Proof.
    intros Ho Hc Hr Ht Hs.
    assert (Hrl : forall (l : list (item A)) (P : item A -> Prop), Forall P l -> Forall P (removelast l)).
    { intros l P Hl. induction l as [|x l IH]; cbn; auto. inversion Hl; subst. destruct l; auto. }
    assert (Hrn : forall (l : list (item A)), length (removelast l) = length l - 1).
    { intros l. induction l as [|x l IH]; auto. cbn [removelast]. destruct l; auto. cbn [length] in *. lia. }
    unfold total_size in *.
    destruct o as [tag target e| | |n| |k]; cbn [UndoModel.step] in Hs; try tauto.
    - subst tag. destruct (do_edit e (contents st target)) as [[[a s]|]| |] eqn:Ee; try discriminate;
        [|inversion Hs; subst; auto|inversion Hs; subst; auto].
      unfold stack_add in Hs. cbn [max_size committed restored contents] in Hs.
      destruct (Nat.ltb_spec 0 (max_size st)) as [Hpos|Hz]; cbn [bind] in Hs; ok_inj Hs;
        cbn [committed restored max_size]; auto.
      assert (Hf : filter (fun it => negb (has_id i it)) (restored st) = []).
      { induction (restored st) as [|it l IH]; auto. inversion Hr; subst. cbn. unfold has_id at 1. rewrite Z.eqb_refl. cbn. apply IH; auto. cbn in Ht. lia. }
      rewrite Hf. cbn [length app]. repeat split; auto.
      + destruct (max_size st <? _); [apply Hrl|]; constructor; auto.
      + match goal with |- context [if ?n <? ?m then _ else _] => destruct (Nat.ltb_spec n m) as [Hl|Hl] end.
        * rewrite Hrn. cbn [length] in *. lia.
        * cbn [length] in *. lia.
    - unfold stack_undo in Hs. destruct (committed st) as [|it l] eqn:El; cbn [bind] in Hs.
      + inversion Hs; subst. rewrite El. auto.
      + destruct (restore_item do_restore it (contents st)) as [[it' c']| |] eqn:Er; cbn [bind] in Hs; try discriminate.
        ok_inj Hs. cbn [committed restored max_size]. inversion Hc; subst.
        assert (it_id it' = it_id it).
        { unfold restore_item in Er. destruct (it_state it); [|inversion Er; auto].
          apply bind_ok_inv in Er. destruct Er as ([? ?] & _ & Er). inversion Er; auto. }
        repeat split; auto. cbn [length] in *. lia.
    - unfold stack_redo in Hs. destruct (restored st) as [|it l] eqn:El; cbn [bind] in Hs.
      + inversion Hs; subst. rewrite El. auto.
      + destruct (commit_item do_commit it (contents st)) as [[it' c']| |] eqn:Er; cbn [bind] in Hs; try discriminate.
        ok_inj Hs. cbn [committed restored max_size]. inversion Hr; subst.
        assert (it_id it' = it_id it).
        { unfold commit_item in Er. destruct (it_state it); [inversion Er; auto|].
          apply bind_ok_inv in Er. destruct Er as ([? ?] & _ & Er). inversion Er; auto. }
        repeat split; auto.
        * destruct (max_size st <? _); [apply Hrl|]; constructor; auto.
        * match goal with |- context [if ?n <? ?m then _ else _] => destruct (Nat.ltb_spec n m) as [Hl|Hl] end;
            [rewrite Hrn|]; cbn [length] in *; lia.
    - inversion Hs; subst. cbn. repeat split; auto. lia.
    - inversion Hs; subst. cbn [committed restored max_size].
      assert (Hfl : forall (l : list (item A)) (P : item A -> Prop) f, Forall P l -> Forall P (filter f l)).
      { intros l P f Hl. rewrite Forall_forall in *. intros x Hx. apply filter_In in Hx. apply Hl; tauto. }
      repeat split; auto.
      pose proof (filter_length_split (has_id k) (committed st)). pose proof (filter_length_split (has_id k) (restored st)). lia.
  Qed.

  Lemma single_id_total i ops : forall st st' rs,
    Forall (fun o : op E => match o with OpEdit tag _ _ => tag = i | OpSetMax _ => False | _ => True end) ops ->
    Forall (fun it => it_id it = i) (committed st) -> Forall (fun it => it_id it = i) (restored st) ->
    total_size st <= max_size st ->
    run st ops = Ok (st', rs) -> total_size st' <= max_size st' /\ max_size st' = max_size st.
  Proof.
    induction ops as [|o ops IH]; intros st st' rs Hf Hc Hr Ht Hrun.
    - cbn in Hrun. inversion Hrun; subst; auto.
    - inversion Hf; subst. cbn [UndoModel.run] in Hrun.
      apply bind_ok_inv in Hrun. destruct Hrun as ([st1 r] & Hs & Hrun).
      apply bind_ok_inv in Hrun. destruct Hrun as ([st2 rs2] & Hrun & Heq). inversion Heq; subst; clear Heq.
      destruct (single_id_total_step i st o st1 r) as (K1 & K2 & K3 & K4); auto.
      destruct (IH st1 st' rs2) as [I1 I2]; auto. split; auto. congruence.
  Qed.
End Sizes.

(** A concrete instance used for examples and refutations: the content of an id is a number, an edit overwrites it, and the
    action keeps the other value and swaps (the shape of MeshConversionAction.cpp:15-25 or FullUnstructuredGridUndo.cpp:11-15). *)
Definition swap_restore (a s : Z) : outcome (Z * Z) := Ok (s, a).
Definition swap_commit (a s : Z) : outcome (Z * Z) := Ok (s, a).
Definition swap_edit (v s : Z) : outcome (option (Z * Z)) := Ok (Some (s, v)).

Lemma swap_alternates n : forall s v,
  alternates_c swap_restore swap_commit eq n s s v /\ alternates_r swap_restore swap_commit eq n v s v.
Proof.
  induction n as [|n IH]; intros s v; split; cbn; intros t <-; do 2 eexists; (split; [reflexivity|]); split; auto; apply IH.
Qed.

Lemma swap_reversible : edits_reversible swap_restore swap_commit swap_edit eq (fun _ _ => True) (fun _ => True).
Proof. intros e s _. cbn. split; auto. intros n. apply swap_alternates. Qed.

(** Ids 0, 1, 2, ... are edited once each and the edit is undone at once, with undo size 1. *)
Fixpoint edit_undo_each (n : nat) : list (op Z) :=
  match n with
  | O => []
  | S n' => edit_undo_each n' ++ [OpEdit (Z.of_nat n') (Z.of_nat n') 7%Z; OpUndo]
  end.

Lemma total_unbounded n : exists st rs,
  run swap_restore swap_commit swap_edit (init (fun _ => 0%Z) 1) (edit_undo_each n) = Ok (st, rs) /\
  total_size st = n /\ max_size st = 1 /\ committed st = [] /\
  Forall (fun it => (it_id it < Z.of_nat n)%Z) (restored st).
Proof.
  induction n as [|n (st & rs & Hrun & Ht & Hm & Hc & Hf)].
  - exists (init (fun _ => 0%Z) 1), []. cbn. auto.
  - cbn [edit_undo_each]. rewrite run_app, Hrun. cbn [bind].
    destruct st as [c com res mx]. cbn [committed max_size restored] in *. subst com mx.
    assert (Hk : filter (fun it => negb (has_id (Z.of_nat n) it)) res = res).
    { clear - Hf. induction res as [|it res IH]; auto. inversion Hf; subst. cbn.
      unfold has_id at 1. destruct (Z.eqb_spec (it_id it) (Z.of_nat n)); [lia|]. cbn. f_equal. auto. }
    cbn [run step bind swap_edit contents committed restored max_size stack_add stack_undo length].
    rewrite Hk. cbn.
    eexists. eexists. split; [reflexivity|]. unfold total_size in *. cbn in *. repeat split; auto.
    constructor; cbn; [lia|]. eapply Forall_impl; [|exact Hf]. cbn. intros; lia.
Qed.

Lemma edit_undo_each_tagged n : Forall well_tagged (edit_undo_each n).
Proof. induction n as [|n IH]; cbn; [constructor|]. apply Forall_app. split; auto. repeat constructor. Qed.

Lemma total_size_unbounded n : exists (ops : list (op Z)) st rs,
    Forall well_tagged ops /\
    run swap_restore swap_commit swap_edit (init (fun _ => 0%Z) 1) ops = Ok (st, rs) /\
    max_size st = 1 /\ total_size st = n.
Proof.
  destruct (total_unbounded n) as (st & rs & H1 & H2 & H3 & _).
  exists (edit_undo_each n), st, rs. repeat split; auto. apply edit_undo_each_tagged.
Qed.

Lemma single_id_total_init {A S E} do_restore do_commit (do_edit : E -> S -> outcome (option (A * S))) i c mx ops st rs :
    Forall (fun o : op E => match o with OpEdit tag _ _ => tag = i | OpSetMax _ => False | _ => True end) ops ->
    run do_restore do_commit do_edit (init c mx) ops = Ok (st, rs) -> total_size st <= mx.
Proof.
  intros Hf Hrun. destruct (single_id_total do_restore do_commit do_edit i ops (init c mx) st rs) as [H1 H2]; cbn; auto.
  - unfold total_size. cbn. lia.
  - cbn in H2. lia.
Qed.

Lemma remove_spec {A S} (st : ustate A S) (i : Z) :
  let (st', n) := stack_remove st i in
  committed st' = filter (fun it => negb (Z.eqb (it_id it) i)) (committed st) /\
  restored st' = filter (fun it => negb (Z.eqb (it_id it) i)) (restored st) /\
  n + total_size st' = total_size st /\ contents st' = contents st /\ max_size st' = max_size st /\
  (forall it, In it (committed st' ++ restored st') -> it_id it <> i).
Proof.
  cbn. repeat split; auto.
  - unfold total_size. cbn.
    pose proof (filter_length_split (has_id i) (committed st)). pose proof (filter_length_split (has_id i) (restored st)). lia.
  - intros it Hin Heq. apply in_app_or in Hin. unfold has_id in Hin.
    destruct Hin as [Hin|Hin]; apply filter_In in Hin; destruct Hin as [_ Hin]; rewrite Heq, Z.eqb_refl in Hin; discriminate.
Qed.

Lemma stack_add_head {A S} (st st1 : ustate A S) a tag target :
  0 < max_size st -> stack_add st (Some (a, Committed)) tag target = Ok st1 ->
  exists rest, committed st1 = Item a Committed tag target :: rest.
Proof.
  intros Hmx. unfold stack_add. destruct (0 <? max_size st) eqn:Hlt; [|apply Nat.ltb_nlt in Hlt; lia].
  cbv zeta. intros H. apply (f_equal (fun o => match o with Ok s => committed s | _ => [] end)) in H. cbn beta iota delta [committed] in H.
  rewrite <- H. clear H.
  destruct (max_size st <? length (Item a Committed tag target :: committed st)) eqn:Hb; [|eexists; reflexivity].
  destruct (committed st) as [|x t]; [apply Nat.ltb_lt in Hb; cbn [length] in Hb; lia|]. cbn [removelast]. eexists; reflexivity.
Qed.

Lemma reported_ids {A S E} do_restore do_commit (do_edit : E -> S -> outcome (option (A * S))) st tag target e st1 st2 r2 st3 r3 :
    0 < max_size st ->
    step do_restore do_commit do_edit st (OpEdit tag target e) = Ok (st1, REdit true) ->
    step do_restore do_commit do_edit st1 OpUndo = Ok (st2, r2) ->
    step do_restore do_commit do_edit st2 OpRedo = Ok (st3, r3) ->
    r2 = RId (Some tag) /\ r3 = RId (Some tag) /\
    map it_id (restored st2) = tag :: map it_id (restored st1).
Proof.
  intros Hmx H1 H2 H3. cbn [step] in H1.
  destruct (do_edit e (contents st target)) as [[[a s]|]| |]; try discriminate.
  apply bind_ok_inv in H1. destruct H1 as (st1' & Ha & H1). injection H1 as <-.
  apply stack_add_head in Ha; [|exact Hmx]. destruct Ha as [rest Hc].
  cbn [step] in H2. unfold stack_undo in H2. rewrite Hc in H2.
  cbn [restore_item it_state it_act it_target it_id] in H2.
  destruct (do_restore a _) as [[a1 s1]| |]; cbn [bind] in H2; try discriminate.
  injection H2 as <- <-. cbn [step stack_redo restored commit_item it_state it_act it_target it_id contents max_size committed] in H3.
  destruct (do_commit a1 _) as [[a2 s2]| |]; cbn [bind] in H3; try discriminate.
  injection H3 as <- <-. repeat split.
Qed.

(** The undo theorem for runs, accounting of actions, library instances and counterexamples. *)
From Coq Require Import Permutation.
From Verif Require Import Base BaseLemmas UndoModel UndoSpec UndoProofs UndoProofs2 ActionModel ActionSpec ActionProofs MeshModel MeshSpec MeshProps
  ApiModel ApiSpec ApiProofs ApiUndo ApiSafety ApiMemory.

Section Final.
  Context {D A Ed : Type}.
  Variables (do_restore do_commit : A -> D -> outcome (A * D)).
  Variable lib_edit : Ed -> D -> outcome (option (A * D)).
  Variable fresh : slot -> Z -> D.
  Notation content := (content D).
  Notation call := (call D Ed).
  Notation leaf := (leaf A).
  Notation world := (world D A).
  Notation api_op := (api_op D Ed).
  Notation api_step := (api_step do_restore do_commit lib_edit fresh).
  Notation api_run := (api_run do_restore do_commit lib_edit fresh).
  Notation asks_existing := (asks_existing do_restore do_commit lib_edit fresh).

  Section WithLib.
    Variable leD : D -> D -> Prop.
    Variable InvD : slot -> D -> Prop.
    Variable PreD : slot -> Ed -> D -> Prop.
    Hypothesis lib : lib_interface do_restore do_commit lib_edit fresh leD InvD PreD.

    Lemma follows_from ops : forall w hc sw, tied do_restore do_commit fresh leD InvD w hc sw ->
      api_follows do_restore do_commit lib_edit fresh leD InvD PreD sw w ops.
    Proof.
      induction ops as [|o t IH]; intros w hc sw T; (split; [eapply tied_shows; eauto|]); auto.
      intros cur Hc Ha. destruct (tied_step _ _ _ _ _ _ _ lib _ _ _ _ _ T Hc Ha) as (w' & hc' & H1 & H2).
      exists w'. split; auto. eapply IH; eauto.
    Qed.

    Lemma tied_init v : tied do_restore do_commit fresh leD InvD api_init (hinit (fun _ => default_state) 50) (spec_init v).
    Proof.
      split; try exact (refines_init _ _ _ (le_content_refl leD (proj1 lib)) (fun _ => default_state) 50);
        cbn; auto; try constructor; try lia; try (intros ? []).
    Qed.

    Lemma api_follows_init v ops : api_follows do_restore do_commit lib_edit fresh leD InvD PreD (spec_init v) api_init ops.
    Proof. eapply follows_from. apply tied_init. Qed.
  End WithLib.

  (** ** Accounting *)
  Lemma ids_range_step (w : world) o w' r : (0 <= w_counter w)%Z /\ Forall (fun i => (0 <= i)%Z) (w_live w) ->
    (forall i, o = AGetProjection i -> is_live w i = true) -> api_step w o = Ok (w', r) ->
    (0 <= w_counter w')%Z /\ Forall (fun i => (0 <= i)%Z) (w_live w').
  Proof.
    intros [H0 Hl] Hg H. destruct o as [p|i|i|n| | | |i| | |i|i|tagged i c].
    - cbn [ApiModel.api_step] in H. destruct (w_counter w =? int_max)%Z; [discriminate|].
      destruct (valid_projection p); [destruct (is_live w _)|]; inversion H; subst; cbn; (split; [lia|auto]).
    - inversion H; subst; auto.
    - cbn [ApiModel.api_step] in H. destruct (is_live w i); inversion H; subst; auto. cbn. split; auto. apply forall_filter; auto.
    - cbn [ApiModel.api_step] in H. destruct (n <? 0)%Z; inversion H; subst; auto.
    - cbn [ApiModel.api_step] in H. apply report_inv in H. destruct H as (st & o & _ & -> & _). auto.
    - cbn [ApiModel.api_step] in H. apply report_inv in H. destruct H as (st & o & _ & -> & _). auto.
    - inversion H; subst; auto.
    - cbn [ApiModel.api_step] in H. destruct (is_live w i); inversion H; subst; auto.
    - inversion H; subst. cbn. split; [lia|constructor].
    - inversion H; subst; auto.
    - inversion H; subst; auto.
    - cbn [ApiModel.api_step] in H. rewrite (Hg i eq_refl) in H. inversion H; subst; auto.
    - apply call_step in H. destruct H as [(_ & -> & _)|(_ & s' & a & e & st' & _ & -> & _)]; auto.
  Qed.
  Lemma ids_range ops : forall (w w' : world) rs, (0 <= w_counter w)%Z /\ Forall (fun i => (0 <= i)%Z) (w_live w) -> asks_existing w ops ->
    api_run w ops = Ok (w', rs) -> Forall (fun i => (0 <= i)%Z) (w_live w').
  Proof.
    induction ops as [|o t IH]; intros w w' rs Hw Ha H.
    - cbn in H. inversion H; subst. tauto.
    - apply run_cons in H. destruct H as (w1 & r & rs1 & H1 & H2 & ->). destruct Ha as [Ha1 Ha2].
      eapply IH; [|apply (Ha2 _ _ H1)|exact H2]. eapply ids_range_step; eauto.
  Qed.

  Lemma count_target (l : list (item (act leaf))) i : i <> missing_id -> Forall (fun it => it_id it = it_target it) l ->
    count_id i l = count_occ Z.eq_dec (map it_target l) i.
  Proof.
    intros Hi H. rewrite count_id_occ by auto. f_equal. apply map_ext_in. rewrite Forall_forall in H. auto.
  Qed.

  Lemma sum_of_nat l : fold_right Z.add 0%Z (map Z.of_nat l) = Z.of_nat (list_sum l).
  Proof. induction l; cbn; auto. rewrite IHl. unfold list_sum. cbn. lia. Qed.

  Lemma accounting ops w rs : Forall tagged_op ops -> asks_existing api_init ops -> api_run api_init ops = Ok (w, rs) ->
    (forall it, In it (committed (w_stack w) ++ restored (w_stack w)) -> it_id it = it_target it /\ is_live w (it_target it) = true) /\
    (forall i, is_live w i = true ->
       api_step w (ACountFor i) = Ok (w, Answer None [Z.of_nat (count_occ Z.eq_dec (map it_target (committed (w_stack w))) i);
                                                      Z.of_nat (count_occ Z.eq_dec (map it_target (restored (w_stack w))) i)])) /\
    exists per_id, Forall2 (fun i cr => api_step w (ACountFor i) = Ok (w, Answer None [fst cr; snd cr])) (w_live w) per_id /\
      api_step w ACount = Ok (w, Answer None [fold_right Z.add 0 (map fst per_id); fold_right Z.add 0 (map snd per_id)]%Z).
  Proof.
    intros Ht Ha H. pose proof (accounted_run _ _ _ _ _ _ _ Ht H) as [A1 A2].
    pose proof (nodup_live _ _ _ _ _ _ _ H) as Hnd.
    pose proof (ids_range ops api_init w rs (conj (Z.le_refl 0) (Forall_nil _)) Ha H) as Hr.
    rewrite Forall_forall in A1, A2, Hr.
    assert (Hm : ~ In missing_id (w_live w)) by (intros E; apply Hr in E; unfold missing_id in E; lia).
    split; [|split].
    - intros it Hit. apply in_app_or in Hit. destruct Hit as [Hit|Hit]; [destruct (A1 it Hit) as [E1 E2]|destruct (A2 it Hit) as [E1 E2]];
        (split; [auto|apply is_live_in; auto]).
    - intros i Hi. cbn [ApiModel.api_step]. rewrite Hi. assert (i <> missing_id) by (intros ->; apply is_live_in in Hi; auto).
      unfold committed_size, restored_size. rewrite !count_target; auto; rewrite Forall_forall; [intros it Hit; apply (A2 it Hit)|intros it Hit; apply (A1 it Hit)].
    - exists (map (fun i => (Z.of_nat (committed_size (w_stack w) i), Z.of_nat (restored_size (w_stack w) i))) (w_live w)). split.
      + assert (Hs : forall l, incl l (w_live w) -> Forall2 (fun i cr => api_step w (ACountFor i) = Ok (w, Answer None [fst cr; snd cr])) l
          (map (fun i => (Z.of_nat (committed_size (w_stack w) i), Z.of_nat (restored_size (w_stack w) i))) l)).
        { induction l as [|i l IH]; intros Hi; cbn [map]; constructor.
          - cbn [ApiModel.api_step fst snd]. replace (is_live w i) with true; [reflexivity|]. symmetry. apply is_live_in. apply Hi. left; auto.
          - apply IH. intros x Hx. apply Hi. right; auto. }
        apply Hs. apply incl_refl.
      + cbn [ApiModel.api_step]. rewrite !map_map. cbn [fst snd]. rewrite <- (map_map (committed_size (w_stack w)) Z.of_nat), <- (map_map (restored_size (w_stack w)) Z.of_nat), !sum_of_nat.
        assert (E1 : list_sum (map (committed_size (w_stack w)) (w_live w)) = committed_size (w_stack w) missing_id).
        { apply (counts_add_up (committed (w_stack w)) (w_live w) Hnd Hm). intros it Hit. destruct (A1 it Hit) as [-> E]. auto. }
        assert (E2 : list_sum (map (restored_size (w_stack w)) (w_live w)) = restored_size (w_stack w) missing_id).
        { apply (counts_add_up (restored (w_stack w)) (w_live w) Hnd Hm). intros it Hit. destruct (A2 it Hit) as [-> E]. auto. }
        rewrite E1, E2. reflexivity.
  Qed.

  (** A call that registers an action puts it on top, under its id. *)
  Lemma call_registers w i c s' u : is_live w i = true -> 0 < max_size (w_stack w) ->
    do_call lib_edit fresh c (contents (w_stack w) i) = Ok (s', Some u, None) ->
    exists w', api_step w (ACall true i c) = Ok (w', Answer None []) /\
      (length (committed (w_stack w)) <= max_size (w_stack w) ->
         committed (w_stack w') = firstn (max_size (w_stack w)) (Item u Committed i i :: committed (w_stack w))).
  Proof.
    intros Hl Hm Hd. cbn [ApiModel.api_step]. rewrite Hl, Hd. cbn [bind]. unfold stack_add. cbn [set_content max_size committed contents restored].
    destruct (Nat.ltb_spec 0 (max_size (w_stack w))) as [_|]; [|lia]. eexists. split; [reflexivity|].
    intros Hb. cbn [w_stack committed]. destruct (Nat.ltb_spec (max_size (w_stack w)) (length (Item u Committed i i :: committed (w_stack w)))) as [Hlt|Hge].
    - rewrite removelast_firstn_len. f_equal. cbn [length] in *. lia.
    - rewrite firstn_all2 by lia. reflexivity.
  Qed.

  (** ** Calls that are not undone *)
  Lemma undo_top w i c s' u s2 u2 : is_live w i = true -> 0 < max_size (w_stack w) ->
    do_call lib_edit fresh c (contents (w_stack w) i) = Ok (s', Some u, None) ->
    length (committed (w_stack w)) <= max_size (w_stack w) ->
    restore_act (leaf_restore do_restore) u s' = Ok (u2, s2) ->
    exists w1 w2, api_step w (ACall true i c) = Ok (w1, Answer None []) /\ api_step w1 AUndo = Ok (w2, Answer None [1; i]%Z) /\
      contents (w_stack w1) i = s' /\ contents (w_stack w2) i = s2.
  Proof.
    intros Hl Hm Hd Hb Hr. cbn [ApiModel.api_step]. rewrite Hl, Hd. cbn [bind]. unfold stack_add. cbn [set_content max_size committed contents restored].
    destruct (Nat.ltb_spec 0 (max_size (w_stack w))) as [_|]; [|lia].
    assert (Hh : exists rest, (if max_size (w_stack w) <? length (Item u Committed i i :: committed (w_stack w)) then removelast (Item u Committed i i :: committed (w_stack w))
                 else Item u Committed i i :: committed (w_stack w)) = Item u Committed i i :: rest).
    { destruct (Nat.ltb_spec (max_size (w_stack w)) (length (Item u Committed i i :: committed (w_stack w)))) as [Hlt|_]; [|eauto].
      cbn [length] in Hlt. destruct (committed (w_stack w)); [cbn in *; lia|]. cbn [removelast]. eauto. }
    destruct Hh as [rest Hh]. rewrite Hh. eexists _, _. split; [reflexivity|]. cbn [w_stack]. unfold stack_undo. cbn [committed contents restored max_size].
    unfold restore_item. cbn [it_state it_act it_target it_id]. rewrite update_same, Hr. cbn [bind report]. split; [reflexivity|].
    cbn [w_stack contents]. rewrite !update_same. auto.
  Qed.

  Lemma overwrite_not_undone w i x f v d :
    is_live w i = true -> 0 < max_size (w_stack w) -> length (committed (w_stack w)) <= max_size (w_stack w) ->
    healthy (contents (w_stack w) i) -> see (contents (w_stack w) i) = Ok v -> f v = Ok d ->
    exists w1 w2, api_step w (ACall true i (COverwrite x f)) = Ok (w1, Answer None []) /\ api_step w1 AUndo = Ok (w2, Answer None [1; i]%Z) /\
      see (contents (w_stack w2) i) = Ok (replace v x d).
  Proof.
    intros Hl Hm Hb Hh Hv Hf. pose proof Hh as [Hp _]. destruct (Hp x) as (a & d0 & Ha & Hd0).
    destruct (see_write _ _ _ _ d Hh Hv Ha) as (E1 & E2 & _).
    edestruct (undo_top w i (COverwrite x f)) as (w1 & w2 & H1 & H2 & H3 & H4); [exact Hl|exact Hm| |exact Hb| |].
    - cbn [do_call]. rewrite Hv. cbn [bind]. rewrite Hf, (deref_shown _ _ _ _ Ha Hd0). cbn [bind]. rewrite E1. reflexivity.
    - reflexivity.
    - exists w1, w2. split; auto. split; auto. rewrite H4. exact E2.
  Qed.

  Lemma projection_not_undone w i e p v u d u' :
    is_live w i = true -> 0 < max_size (w_stack w) -> length (committed (w_stack w)) <= max_size (w_stack w) ->
    healthy (contents (w_stack w) i) -> see (contents (w_stack w) i) = Ok v ->
    lib_edit e (v_mesh2d v) = Ok (Some (u, d)) -> do_restore u d = Ok (u', v_mesh2d v) ->
    exists w1 w2, api_step w (ACall true i (CProjection e p)) = Ok (w1, Answer None []) /\ api_step w1 AUndo = Ok (w2, Answer None [1; i]%Z) /\
      see (contents (w_stack w2) i) = Ok (set_proj v p).
  Proof.
    intros Hl Hm Hb Hh Hv He Hr. pose proof Hh as [Hp _]. destruct (Hp SMesh2D) as (a & d0 & Ha & Hd0).
    assert (d0 = v_mesh2d v) as -> by (pose proof (shown_look _ _ _ _ Hv Ha); cbn in *; congruence).
    destruct (see_write _ _ _ _ d Hh Hv Ha) as (E1 & E2 & E3).
    edestruct (undo_top w i (CProjection e p)) as (w1 & w2 & H1 & H2 & H3 & H4); [exact Hl|exact Hm| |exact Hb| |].
    - cbn [do_call]. rewrite (deref_shown _ _ _ _ Ha Hd0). cbn [bind]. rewrite He. cbn [bind]. rewrite E1. reflexivity.
    - cbn [restore_act leaf_restore c_heap].
      assert (Hn : nth_error (set_nth a d (c_heap (contents (w_stack w) i))) a = Some d).
      { apply nth_error_set_nth_eq. apply nth_error_Some. congruence. }
      unfold vget. rewrite Hn. cbn [bind]. rewrite Hr. cbn [bind].
      rewrite vset_lt; [reflexivity|]. apply nth_error_Some. congruence.
    - exists w1, w2. split; auto. split; auto. rewrite H4. unfold with_heap; cbn [c_ptrs c_proj c_heap].
      destruct (see_write _ _ _ _ (v_mesh2d v) E3 E2 Ha) as (_ & E4 & _). unfold with_heap in E4; cbn [c_ptrs c_proj c_heap] in E4.
      apply see_spec in E4. destruct E4 as [E4 E5]. apply see_spec. split; [|reflexivity].
      intros y. specialize (E4 y). rewrite !look_replace in E4. destruct E4 as (b & B1 & B2). exists b. split; [exact B1|]. cbn [c_heap] in *.
      rewrite B2. f_equal. destruct y; reflexivity.
  Qed.

  Lemma silent_not_undone w i x f v d : is_live w i = true ->
    healthy (contents (w_stack w) i) -> see (contents (w_stack w) i) = Ok v -> f v = Ok d ->
    exists w1, api_step w (ACall true i (CSilent x f)) = Ok (w1, Answer None []) /\
      see (contents (w_stack w1) i) = Ok (replace v x d) /\
      committed (w_stack w1) = committed (w_stack w) /\ restored (w_stack w1) = restored (w_stack w).
  Proof.
    intros Hl Hh Hv Hf. pose proof Hh as [Hp _]. destruct (Hp x) as (a & d0 & Ha & Hd0).
    destruct (see_write _ _ _ _ d Hh Hv Ha) as (E1 & E2 & _).
    cbn [ApiModel.api_step do_call]. rewrite Hl, Hv. cbn [bind]. rewrite Hf, (deref_shown _ _ _ _ Ha Hd0). cbn [bind]. rewrite E1. cbn [bind stack_add].
    eexists. split; [reflexivity|]. cbn [w_stack set_content contents committed restored]. unfold update. rewrite Z.eqb_refl. auto.
  Qed.

  Lemma contacts_error_changes w t i f v ex : is_live w i = true ->
    healthy (contents (w_stack w) i) -> see (contents (w_stack w) i) = Ok v -> f v = Throw ex ->
    exists w1, api_step w (ACall t i (CContacts f)) = Ok (w1, Answer (Some ex) []) /\
      see (contents (w_stack w1) i) = Ok (replace v SContacts (fresh SContacts (v_proj v))) /\
      committed (w_stack w1) = committed (w_stack w) /\ restored (w_stack w1) = restored (w_stack w).
  Proof.
    intros Hl Hh Hv Hf. cbn [ApiModel.api_step do_call]. rewrite Hl, Hv. cbn [bind]. rewrite Hf. cbn [bind].
    eexists. split; [reflexivity|]. cbn [w_stack set_content contents committed restored]. unfold update. rewrite Z.eqb_refl.
    split; auto. rewrite (see_proj _ _ Hv). apply see_install; auto.
  Qed.
End Final.

(** ** A simple library: an object is a number, an edit overwrites it, the action keeps the other value (as in UndoProofs2). *)
Definition zfresh (_ : slot) (_ : Z) : Z := 0%Z.
Lemma swap_library : lib_interface swap_restore swap_commit swap_edit zfresh eq (fun _ _ => True) (fun _ _ _ => True).
Proof.
  split; [auto|]. split; [congruence|]. split; [auto|]. split; [auto|].
  intros x e d _ _. cbn. split; auto. intros n. apply swap_alternates.
Qed.

(** ** The mesh library: Mesh2D objects with the edits of MeshModel; the other objects are values of any type [X], replaced only as a whole. *)
Section MeshLibrary.
  Context {X : Type}.
  Variable order : list FloatModel.point -> list edge -> nat -> list (option nat) -> list (option nat).
  Hypothesis order_perm : forall nodes edges n row, Permutation row (order nodes edges n row).
  Variable other : slot -> Z -> X.
  Variable proj_of : Z -> projection.

  Definition obj := (mesh + X)%type.
  Definition obj_restore (a : act mact) (d : obj) : outcome (act mact * obj) :=
    match d with inl m => let! (a', m') := restore_act (restore_leaf order) a m in Ok (a', inl m') | inr _ => UB end.
  Definition obj_commit (a : act mact) (d : obj) : outcome (act mact * obj) :=
    match d with inl m => let! (a', m') := commit_act (commit_leaf order) a m in Ok (a', inl m') | inr _ => UB end.
  Definition obj_edit (e : medit) (d : obj) : outcome (option (act mact * obj)) :=
    match d with
    | inl m => let! r := do_medit order e m in Ok (match r with Some (a, m') => Some (a, inl m') | None => None end)
    | inr _ => UB
    end.
  (** Mesh2D(projection), Mesh2D.cpp: no nodes, no edges. *)
  Definition obj_fresh (x : slot) (p : Z) : obj :=
    match x with SMesh2D => inl (Mesh [] [] [] [] (proj_of p)) | _ => inr (other x p) end.
  Definition obj_le (d e : obj) : Prop :=
    match d, e with inl m, inl m' => mesh_le m m' | inr x, inr y => x = y | _, _ => False end.
  Definition obj_inv (x : slot) (d : obj) : Prop := x = SMesh2D -> exists m, d = inl m /\ consistent m.
  Definition obj_pre (x : slot) (e : medit) (d : obj) : Prop := x = SMesh2D /\ exists m, d = inl m /\ medit_pre e m.

  Lemma obj_alternates n : forall a m m',
    (alternates_c (restore_act (restore_leaf order)) (commit_act (commit_leaf order)) mesh_le n a m m' ->
     alternates_c obj_restore obj_commit obj_le n a (inl m) (inl m')) /\
    (alternates_r (restore_act (restore_leaf order)) (commit_act (commit_leaf order)) mesh_le n a m m' ->
     alternates_r obj_restore obj_commit obj_le n a (inl m) (inl m')).
  Proof.
    induction n as [|n IH]; intros a m m'; split; cbn [alternates_c alternates_r obj_le]; intros H [s|s] Hs; try contradiction;
      destruct (H s Hs) as (a' & s' & H1 & H2 & H3); exists a', (inl s'); unfold obj_restore, obj_commit; rewrite H1;
      (split; [reflexivity|]); (split; [exact H2|]); auto; apply IH; exact H3.
  Qed.

  Lemma mesh_library : lib_interface obj_restore obj_commit obj_edit obj_fresh obj_le obj_inv obj_pre.
  Proof.
    destruct (C11_mesh_interface order order_perm) as (R1 & R2 & R3 & R4).
    split; [intros [m|x]; cbn; auto|]. split; [intros [m|x] [m1|x1] [m2|x2]; cbn; try contradiction; eauto; congruence|].
    split; [|split].
    - intros x d e Hd Hle Hx. destruct (Hd Hx) as (m & -> & Hm). destruct e as [m'|]; [|contradiction]. exists m'. split; auto. eapply R3; eauto.
    - intros x p ->. cbn. eexists. split; [reflexivity|]. split; cbn; auto; try (intros; lia).
      + intros e n []. 
      + intros n oe. unfold row_of. cbn. destruct n; cbn; intros [].
    - intros x e d Hi [Hx (m & -> & Hp)]. destruct (Hi Hx) as (m1 & E & Hm). inversion E; subst m1. cbn [obj_edit].
      specialize (R4 e m Hm Hp). destruct (do_medit order e m) as [[[u m']|]| |]; cbn; auto. destruct R4 as [R4 R5].
      split; [|intros _; eauto]. intros n. apply obj_alternates. apply R4.
  Qed.
End MeshLibrary.

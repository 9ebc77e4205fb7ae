(** Proofs about the C interface model: effects of calls, reversibility of the actions they register. *)
From Verif Require Import Base BaseLemmas UndoModel UndoSpec UndoProofs ActionModel ActionSpec ActionProofs ApiModel ApiSpec.

Definition slot_dec (x y : slot) : {x = y} + {x <> y}.
Proof. decide equality. Defined.

Lemma get_set_ptr ps x a y : get_ptr (set_ptr ps x a) y = if slot_dec x y then Some a else get_ptr ps y.
Proof. destruct x, y; reflexivity. Qed.

Section Views.
  Context {D A Ed : Type}.
  Variables (do_restore do_commit : A -> D -> outcome (A * D)).
  Variable lib_edit : Ed -> D -> outcome (option (A * D)).
  Variable fresh : slot -> Z -> D.
  Notation view := (view D).
  Notation content := (content D).
  Notation call := (call D Ed).
  Notation do_call := (do_call lib_edit fresh).

  Lemma view_ext (v v' : view) : (forall x, look v x = look v' x) -> v_proj v = v_proj v' -> v = v'.
  Proof.
    intros H Hp. pose proof (H SMesh1D). pose proof (H SNetwork1D). pose proof (H SMesh2D). pose proof (H SContacts). pose proof (H SGrid).
    destruct v, v'; cbn in *. congruence.
  Qed.

  Lemma look_replace (v : view) x d y : look (replace v x d) y = if slot_dec x y then d else look v y.
  Proof. destruct x, y; reflexivity. Qed.
  Lemma proj_replace (v : view) x d : v_proj (replace v x d) = v_proj v.
  Proof. destruct x; reflexivity. Qed.

  Definition shown (s : content) (x : slot) (d : D) : Prop :=
    exists a, get_ptr (c_ptrs s) x = Some a /\ nth_error (c_heap s) a = Some d.

  Lemma deref_shown (s : content) x a d : get_ptr (c_ptrs s) x = Some a -> nth_error (c_heap s) a = Some d -> deref s x = Ok (a, d).
  Proof. unfold deref, vget. intros -> ->. reflexivity. Qed.

  Lemma deref_inv (s : content) x a d : deref s x = Ok (a, d) -> get_ptr (c_ptrs s) x = Some a /\ nth_error (c_heap s) a = Some d.
  Proof.
    unfold deref, vget. destruct (get_ptr (c_ptrs s) x) as [b|]; [|discriminate]. destruct (nth_error (c_heap s) b) eqn:E; [|discriminate].
    cbn. intros H. inversion H; subst. auto.
  Qed.

  Lemma see_spec (s : content) v : see s = Ok v <-> (forall x, shown s x (look v x)) /\ v_proj v = c_proj s.
  Proof.
    split.
    - unfold see. intros H.
      apply bind_ok_inv in H; destruct H as ([a1 d1] & H1 & H). apply bind_ok_inv in H; destruct H as ([a2 d2] & H2 & H).
      apply bind_ok_inv in H; destruct H as ([a3 d3] & H3 & H). apply bind_ok_inv in H; destruct H as ([a4 d4] & H4 & H).
      apply bind_ok_inv in H; destruct H as ([a5 d5] & H5 & H). inversion H; subst v.
      apply deref_inv in H1, H2, H3, H4, H5. split; [|reflexivity].
      intros x. unfold shown. destruct x; cbn; eauto.
    - intros [H Hp]. unfold see.
      destruct (H SMesh1D) as (a1 & H1 & H1'), (H SNetwork1D) as (a2 & H2 & H2'), (H SMesh2D) as (a3 & H3 & H3'),
        (H SContacts) as (a4 & H4 & H4'), (H SGrid) as (a5 & H5 & H5').
      rewrite (deref_shown _ _ _ _ H1 H1'). cbn [bind]. rewrite (deref_shown _ _ _ _ H2 H2'). cbn [bind].
      rewrite (deref_shown _ _ _ _ H3 H3'). cbn [bind]. rewrite (deref_shown _ _ _ _ H4 H4'). cbn [bind].
      rewrite (deref_shown _ _ _ _ H5 H5'). cbn [bind]. rewrite <- Hp. destruct v; reflexivity.
  Qed.

  Lemma healthy_see (s : content) : healthy s -> exists v, see s = Ok v.
  Proof.
    intros [H _].
    destruct (H SMesh1D) as (a1 & d1 & H1 & H1'), (H SNetwork1D) as (a2 & d2 & H2 & H2'), (H SMesh2D) as (a3 & d3 & H3 & H3'),
      (H SContacts) as (a4 & d4 & H4 & H4'), (H SGrid) as (a5 & d5 & H5 & H5').
    exists (View d1 d2 d3 d4 d5 (c_proj s)). apply see_spec. split; [|reflexivity].
    intros x. destruct x; cbn; unfold shown; eauto.
  Qed.

  Lemma see_inj (s : content) v v' : see s = Ok v -> see s = Ok v' -> v = v'.
  Proof. congruence. Qed.

  Lemma shown_look (s : content) v x a : see s = Ok v -> get_ptr (c_ptrs s) x = Some a -> nth_error (c_heap s) a = Some (look v x).
  Proof. intros H Ha. apply see_spec in H. destruct H as [H _]. destruct (H x) as (b & Hb & Hd). congruence. Qed.

  (** Writing an object through its pointer. *)
  Lemma see_write (s : content) v x a d : healthy s -> see s = Ok v -> get_ptr (c_ptrs s) x = Some a ->
    vset a d (c_heap s) = Ok (set_nth a d (c_heap s)) /\
    see (with_heap s (set_nth a d (c_heap s))) = Ok (replace v x d) /\
    healthy (with_heap s (set_nth a d (c_heap s))).
  Proof.
    intros [H1 H2] Hv Ha. pose proof (shown_look _ _ _ _ Hv Ha) as Hd.
    assert (Hlt : a < length (c_heap s)) by (apply nth_error_Some; congruence).
    split; [apply vset_lt; auto|]. split.
    - apply see_spec in Hv. destruct Hv as [Hv Hp]. apply see_spec. split; [|rewrite proj_replace; exact Hp].
      intros y. rewrite look_replace. destruct (Hv y) as (b & Hb & Hdb). exists b. split; [exact Hb|]. cbn.
      destruct (slot_dec x y) as [->|Hxy].
      + replace b with a by congruence. apply nth_error_set_nth_eq; auto.
      + rewrite nth_error_set_nth_neq; auto. intros ->. apply Hxy, H2. congruence.
    - split; [|exact H2]. intros y. destruct (H1 y) as (b & e & Hb & He). cbn.
      destruct (Nat.eq_dec a b) as [<-|Hab].
      + exists a, d. split; auto. apply nth_error_set_nth_eq; auto.
      + exists b, e. split; auto. rewrite nth_error_set_nth_neq; auto.
  Qed.

  Lemma healthy_bound (s : content) x a : healthy s -> get_ptr (c_ptrs s) x = Some a -> a < length (c_heap s).
  Proof. intros [H _] Ha. destruct (H x) as (b & d & Hb & Hd). apply nth_error_Some. congruence. Qed.

  (** Setting a pointer to a new object. *)
  Lemma see_install (s : content) v x d : healthy s -> see s = Ok v ->
    see (install s x d) = Ok (replace v x d) /\ healthy (install s x d).
  Proof.
    intros Hh Hv. pose proof Hh as [H1 H2]. split.
    - apply see_spec in Hv. destruct Hv as [Hv Hp]. apply see_spec. split; [|rewrite proj_replace; exact Hp].
      intros y. rewrite look_replace. unfold shown, install; cbn [c_ptrs c_heap]. rewrite get_set_ptr.
      destruct (slot_dec x y) as [->|Hxy].
      + eexists. split; [reflexivity|]. rewrite nth_error_app2, Nat.sub_diag by lia. reflexivity.
      + destruct (Hv y) as (b & Hb & Hdb). exists b. split; auto. rewrite nth_error_app1; auto.
        apply nth_error_Some. congruence.
    - split; unfold install; cbn [c_ptrs c_heap].
      + intros y. rewrite get_set_ptr. destruct (slot_dec x y) as [->|Hxy].
        * eexists _, d. split; [reflexivity|]. rewrite nth_error_app2, Nat.sub_diag by lia. reflexivity.
        * destruct (H1 y) as (b & e & Hb & He). exists b, e. split; auto. rewrite nth_error_app1; auto.
          apply nth_error_Some. congruence.
      + intros y z. rewrite !get_set_ptr. destruct (slot_dec x y) as [<-|Hy], (slot_dec x z) as [<-|Hz]; auto.
        * intros H. symmetry in H. apply (healthy_bound s) in H; auto. lia.
        * intros H. apply (healthy_bound s) in H; auto. lia.
  Qed.

  Lemma replace_five (v : view) d1 d2 d3 d4 d5 :
    replace (replace (replace (replace (replace v SMesh1D d1) SMesh2D d2) SNetwork1D d3) SContacts d4) SGrid d5
    = View d1 d3 d2 d4 d5 (v_proj v).
  Proof. reflexivity. Qed.

  Lemma see_proj (s : content) v : see s = Ok v -> v_proj v = c_proj s.
  Proof. intros H. apply see_spec in H. tauto. Qed.

  (** What a call does to what its caller sees. *)
  Lemma do_call_effect (c : call) (s : content) v : healthy s -> see s = Ok v ->
    match call_effect lib_edit fresh c v with
    | UB => do_call c s = UB
    | Throw _ => False
    | Ok (Changed v') => exists s' a, do_call c s = Ok (s', a, None) /\ see s' = Ok v' /\ healthy s'
    | Ok Unchanged => do_call c s = Ok (s, None, None)
    | Ok (Refused ex) =>
        match c with
        | CContacts f => do_call c s = Ok (install s SContacts (fresh SContacts (c_proj s)), None, Some ex)
        | _ => do_call c s = Ok (s, None, Some ex)
        end
    end.
  Proof.
    intros Hh Hv.
    assert (Hder : forall x, exists a, get_ptr (c_ptrs s) x = Some a /\ deref s x = Ok (a, look v x)).
    { intros x. pose proof Hh as [H _]. destruct (H x) as (a & d & Ha & Hd). exists a. split; auto.
      apply deref_shown; auto. apply (shown_look _ _ _ _ Hv Ha). }
    pose proof (see_proj _ _ Hv) as Hp.
    assert (Hins : forall x d, see (install s x d) = Ok (replace v x d) /\ healthy (install s x d)) by (intros; apply see_install; auto).
    destruct c as [x e|x f|f|x f|x f|e p| |f|e empty]; cbn [call_effect ApiModel.do_call].
    - destruct (Hder x) as (a & Ha & Hd). rewrite Hd. cbn [bind].
      destruct (lib_edit e (look v x)) as [[[u d']|]|ex|]; auto.
      destruct (see_write s v x a d' Hh Hv Ha) as (H1 & H2 & H3). rewrite H1. cbn [bind]. eauto.
    - rewrite Hv. cbn [bind]. destruct (f v) as [d|ex|]; cbn [put_result]; auto. destruct (Hins x d). eauto.
    - rewrite Hv. cbn [bind]. destruct (f v) as [d|ex|]; cbn [put_result]; auto. destruct (Hins SContacts d). eauto.
    - rewrite Hv. cbn [bind]. destruct (f v) as [d|ex|]; cbn [put_result]; auto. destruct (Hder x) as (a & Ha & Hd). rewrite Hd. cbn [bind].
      destruct (see_write s v x a d Hh Hv Ha) as (H1 & H2 & H3). rewrite H1. cbn [bind]. eauto.
    - rewrite Hv. cbn [bind]. destruct (f v) as [d|ex|]; cbn [put_result]; auto. destruct (Hder x) as (a & Ha & Hd). rewrite Hd. cbn [bind].
      destruct (see_write s v x a d Hh Hv Ha) as (H1 & H2 & H3). rewrite H1. cbn [bind]. eauto.
    - destruct (Hder SMesh2D) as (a & Ha & Hd). rewrite Hd. cbn [bind].
      destruct (lib_edit e (look v SMesh2D)) as [[[u d']|]|ex|]; auto.
      + destruct (see_write s v SMesh2D a d' Hh Hv Ha) as (H1 & H2 & H3). rewrite H1. cbn [bind].
        eexists _, _. split; [reflexivity|]. split; [|exact H3].
        apply see_spec in H2. apply see_spec. split; [|reflexivity]. intros x. destruct H2 as [H2 _]. specialize (H2 x).
        destruct x; exact H2.
      + eexists _, _. split; [reflexivity|]. split; [|exact Hh].
        apply see_spec in Hv. apply see_spec. split; [|reflexivity]. intros x. destruct Hv as [H2 _]. specialize (H2 x).
        destruct x; exact H2.
    - eexists _, _. split; [reflexivity|].
      destruct (Hins SMesh1D (fresh SMesh1D (c_proj s))) as [Q1 W1].
      destruct (see_install _ _ SMesh2D (fresh SMesh2D (c_proj s)) W1 Q1) as [Q2 W2].
      destruct (see_install _ _ SNetwork1D (fresh SNetwork1D (c_proj s)) W2 Q2) as [Q3 W3].
      destruct (see_install _ _ SContacts (fresh SContacts (c_proj s)) W3 Q3) as [Q4 W4].
      destruct (see_install _ _ SGrid (fresh SGrid (c_proj s)) W4 Q4) as [Q5 W5].
      rewrite replace_five in Q5. split; [|exact W5]. unfold new_view. rewrite Hp in *. exact Q5.
    - rewrite Hv. cbn [bind]. destruct (f v) as [d|ex|]; auto. destruct (Hins SGrid d) as [Q W].
      destruct (see_install _ _ SMesh2D (fresh SMesh2D (c_proj s)) W Q) as [Q2 W2]. rewrite Hp. eauto.
    - destruct (Hder SMesh2D) as (a & Ha & Hd). rewrite Hd. cbn [bind].
      destruct (lib_edit e (look v SMesh2D)) as [[[u d']|]|ex|]; auto.
      + destruct (see_write s v SMesh2D a d' Hh Hv Ha) as (H1 & H2 & H3). rewrite H1. cbn [bind].
        destruct (see_install _ _ SGrid empty H3 H2) as [Q W]. eauto.
      + destruct (Hins SGrid empty). eauto.
  Qed.

  Lemma new_state_ok p : see (new_state fresh p) = Ok (new_view fresh p) /\ healthy (new_state fresh p).
  Proof.
    split; [reflexivity|]. split.
    - intros x. destruct x; cbn; eexists _, _; (split; reflexivity).
    - intros x y. destruct x, y; cbn; congruence.
  Qed.
End Views.

Section Reversing.
  Context {D A Ed : Type}.
  Variables (do_restore do_commit : A -> D -> outcome (A * D)).
  Variable lib_edit : Ed -> D -> outcome (option (A * D)).
  Variable fresh : slot -> Z -> D.
  Notation content := (content D).
  Notation view := (view D).
  Notation call := (call D Ed).
  Notation leaf := (leaf A).
  Notation do_call := (do_call lib_edit fresh).
  Notation leaf_restore := (leaf_restore do_restore).
  Notation leaf_commit := (leaf_commit do_commit).

  Variable leD : D -> D -> Prop.
  Hypothesis leD_refl : forall d, leD d d.
  Hypothesis leD_trans : forall d e f, leD d e -> leD e f -> leD d f.

  Definition le_heap (h k : list D) : Prop := forall b d, nth_error h b = Some d -> exists d', nth_error k b = Some d' /\ leD d d'.
  Definition le_content (s t : content) : Prop := c_ptrs s = c_ptrs t /\ c_proj s = c_proj t /\ le_heap (c_heap s) (c_heap t).

  Lemma le_heap_refl h : le_heap h h.
  Proof. intros b d H. eauto. Qed.
  Lemma le_heap_trans h k l : le_heap h k -> le_heap k l -> le_heap h l.
  Proof. intros H1 H2 b d Hb. destruct (H1 b d Hb) as (d' & H3 & H4). destruct (H2 b d' H3) as (d'' & H5 & H6). eauto. Qed.
  Lemma le_heap_app h k : le_heap h (h ++ k).
  Proof.
    intros b d H. exists d. split; auto. rewrite nth_error_app1; auto. apply nth_error_Some. congruence.
  Qed.
  Lemma le_content_refl s : le_content s s.
  Proof. repeat split; auto. apply le_heap_refl. Qed.
  Lemma le_content_trans s t u : le_content s t -> le_content t u -> le_content s u.
  Proof. intros (H1 & H2 & H3) (H4 & H5 & H6). repeat split; try congruence. eapply le_heap_trans; eauto. Qed.

  Lemma le_content_see s t v : le_content s t -> see s = Ok v -> exists v', see t = Ok v' /\ le_view leD v v'.
  Proof.
    intros (H1 & H2 & H3) Hv. apply see_spec in Hv. destruct Hv as [Hv Hp].
    assert (Hx : forall x, exists d', shown t x d' /\ leD (look v x) d').
    { intros x. destruct (Hv x) as (a & Ha & Hd). destruct (H3 a _ Hd) as (d' & Hd' & Hl). exists d'. split; auto.
      exists a. split; auto. congruence. }
    destruct (Hx SMesh1D) as (d1 & K1 & L1), (Hx SNetwork1D) as (d2 & K2 & L2), (Hx SMesh2D) as (d3 & K3 & L3),
      (Hx SContacts) as (d4 & K4 & L4), (Hx SGrid) as (d5 & K5 & L5).
    exists (View d1 d2 d3 d4 d5 (c_proj t)). split.
    - apply see_spec. split; [|reflexivity]. intros x; destruct x; auto.
    - split; [intros x; destruct x; auto|]. cbn. congruence.
  Qed.

  Lemma le_content_healthy s t : le_content s t -> healthy s -> healthy t.
  Proof.
    intros (H1 & H2 & H3) [Hh Hd]. split.
    - intros x. destruct (Hh x) as (a & d & Ha & Hda). destruct (H3 a d Hda) as (d' & ? & ?). exists a, d'. split; auto. congruence.
    - intros x y. rewrite <- H1. apply Hd.
  Qed.

  (** MKStateUndoAction: swapping the pointers. *)
  Lemma state_reversible (s0 s1 : content) :
    c_proj s0 = c_proj s1 -> le_heap (c_heap s0) (c_heap s1) ->
    reversible leaf_restore leaf_commit le_content (LState (c_ptrs s0)) s0 s1.
  Proof.
    intros Hp Hh.
    apply (reversible_coind _ _ _
      (fun l w0 w1 => l = LState (c_ptrs w0) /\ c_proj w0 = c_proj w1 /\ le_heap (c_heap w0) (c_heap w1))
      (fun l w0 w1 => l = LState (c_ptrs w1) /\ c_proj w0 = c_proj w1 /\ le_heap (c_heap w1) (c_heap w0))); [| |auto].
    - intros l w0 w1 s (-> & Hp' & Hh') (E1 & E2 & E3). cbn. eexists _, _. split; [reflexivity|]. split.
      + repeat split; cbn; try congruence. eapply le_heap_trans; eauto.
      + repeat split; auto. apply le_heap_refl.
    - intros l w0 w1 s (-> & Hp' & Hh') (E1 & E2 & E3). cbn. eexists _, _. split; [reflexivity|]. split.
      + repeat split; cbn; try congruence. eapply le_heap_trans; eauto.
      + repeat split; auto. apply le_heap_refl.
  Qed.

  (** A library action: reversible when the library says so. *)
  Definition edited (a : nat) (x : A) (w0 w1 : content) (d0 d1 : D) : Prop :=
    c_ptrs w0 = c_ptrs w1 /\ c_proj w0 = c_proj w1 /\
    nth_error (c_heap w0) a = Some d0 /\ nth_error (c_heap w1) a = Some d1.
  Definition le_others (a : nat) (h k : list D) : Prop :=
    forall b d, b <> a -> nth_error h b = Some d -> exists d', nth_error k b = Some d' /\ leD d d'.

  Lemma edit_reversible (a : nat) (x : A) (s0 s1 : content) d0 d1 :
    edited a x s0 s1 d0 d1 -> le_others a (c_heap s0) (c_heap s1) -> reversible do_restore do_commit leD x d0 d1 ->
    reversible leaf_restore leaf_commit le_content (LEdit a x) s0 s1.
  Proof.
    intros H1 H2 H3.
    apply (reversible_coind _ _ _
      (fun l w0 w1 => exists x d0 d1, l = LEdit a x /\ edited a x w0 w1 d0 d1 /\ le_others a (c_heap w0) (c_heap w1) /\
                        reversible do_restore do_commit leD x d0 d1)
      (fun l w0 w1 => exists x d0 d1, l = LEdit a x /\ edited a x w0 w1 d0 d1 /\ le_others a (c_heap w1) (c_heap w0) /\
                        reversed do_restore do_commit leD x d0 d1)); [| |exists x, d0, d1; auto].
    - clear x s0 s1 d0 d1 H1 H2 H3. intros l w0 w1 s (x & d0 & d1 & -> & (P1 & P2 & P3 & P4) & Ho & Hr) (E1 & E2 & E3).
      destruct (E3 a d1 P4) as (d & Hd & Hl). cbn. unfold vget. rewrite Hd. cbn [bind].
      destruct (reversible_restore _ _ _ x d0 d1 d Hr Hl) as (x' & d' & Hx & Hl' & Hr').
      rewrite Hx. cbn [bind]. assert (Hlt : a < length (c_heap s)) by (apply nth_error_Some; congruence).
      rewrite vset_lt by auto. cbn [bind]. eexists _, _. split; [reflexivity|]. split.
      + repeat split; cbn; try congruence. intros b e Hb. destruct (Nat.eq_dec b a) as [->|Hba].
        * exists d'. split; [apply nth_error_set_nth_eq; auto|]. congruence.
        * destruct (Ho b e Hba Hb) as (e' & He' & Hle). destruct (E3 b e' He') as (e'' & He'' & Hle').
          exists e''. split; [rewrite nth_error_set_nth_neq; auto|eauto].
      + exists x', d', d. split; [reflexivity|]. split; [|split; auto].
        * repeat split; cbn; auto. apply nth_error_set_nth_eq; auto.
        * intros b e Hba Hb. cbn. exists e. split; auto. rewrite nth_error_set_nth_neq; auto.
    - clear x s0 s1 d0 d1 H1 H2 H3. intros l w0 w1 s (x & d0 & d1 & -> & (P1 & P2 & P3 & P4) & Ho & Hr) (E1 & E2 & E3).
      destruct (E3 a d0 P3) as (d & Hd & Hl). cbn. unfold vget. rewrite Hd. cbn [bind].
      destruct (reversed_commit _ _ _ x d0 d1 d Hr Hl) as (x' & d' & Hx & Hl' & Hr').
      rewrite Hx. cbn [bind]. assert (Hlt : a < length (c_heap s)) by (apply nth_error_Some; congruence).
      rewrite vset_lt by auto. cbn [bind]. eexists _, _. split; [reflexivity|]. split.
      + repeat split; cbn; try congruence. intros b e Hb. destruct (Nat.eq_dec b a) as [->|Hba].
        * exists d'. split; [apply nth_error_set_nth_eq; auto|]. congruence.
        * destruct (Ho b e Hba Hb) as (e' & He' & Hle). destruct (E3 b e' He') as (e'' & He'' & Hle').
          exists e''. split; [rewrite nth_error_set_nth_neq; auto|eauto].
      + exists x', d, d'. split; [reflexivity|]. split; [|split; auto].
        * repeat split; cbn; auto. apply nth_error_set_nth_eq; auto.
        * intros b e Hba Hb. cbn. exists e. split; auto. rewrite nth_error_set_nth_neq; auto.
  Qed.
End Reversing.

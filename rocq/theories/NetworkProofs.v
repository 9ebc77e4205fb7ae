(** Proofs about networks: lists of nodes and edges, chainages, discretisation. *)
From Coq Require Import QArith Qround Lqa Sorting.Sorted Sorting.Permutation.
From Verif Require Import Base BaseLemmas FloatModel UndoModel MeshModel MeshSpec MeshConstruct NetworkModel NetworkSpec.
Local Open Scope nat_scope.

(** *** Lists of nodes and edges *)
Section Lists.
  Context {A : Type}.
  Implicit Types discs : list (list A).

  Lemma concat_snoc discs d : concat (discs ++ [d]) = concat discs ++ d.
  Proof. rewrite concat_app. cbn. now rewrite app_nil_r. Qed.

  (** The effect of the loop: [start] is the start of the next block of edges. *)
  Fixpoint starts (s n : nat) discs : list (nat * nat) :=
    match discs with
    | [] => []
    | [] :: t => starts s n t
    | d :: t => map (fun i => (i, S i)) (seq s (n + length d - 1 - s)) ++ starts (s + (n + length d)) (n + length d) t
    end.
  Lemma fold_add discs : forall nodes edges s,
    exists s', fold_left add_polyline discs (nodes, edges, s) = (nodes ++ concat discs, edges ++ starts s (length nodes) discs, s').
  Proof.
    induction discs as [|d t IH]; intros nodes edges s; cbn [fold_left concat starts].
    - exists s. now rewrite !app_nil_r.
    - destruct d as [|x d].
      + cbn [add_polyline]. apply (IH nodes edges s).
      + unfold add_polyline at 2. destruct (IH (nodes ++ x :: d) (edges ++ map (fun i => (i, S i)) (seq s (length (nodes ++ x :: d) - 1 - s)))
          (s + length (nodes ++ x :: d))) as (s' & E).
        exists s'. rewrite E. rewrite <- !app_assoc. rewrite app_length. reflexivity.
  Qed.
  Lemma network_lists_eq discs : network_lists discs = (concat discs, starts 0 0 discs).
  Proof. unfold network_lists. destruct (fold_add discs [] [] 0) as (s & ->). reflexivity. Qed.

  Lemma in_block s k e : In e (map (fun i => (i, S i)) (seq s k)) <-> exists i, e = (i, S i) /\ s <= i < s + k.
  Proof.
    rewrite in_map_iff. split.
    - intros (i & <- & H). apply in_seq in H. eauto.
    - intros (i & -> & H). exists i. split; auto. apply in_seq. lia.
  Qed.

  (** Blocks never start before their polyline. *)
  Lemma starts_sound discs : forall s n e, n <= s -> In e (starts s n discs) ->
    n <= fst e /\ snd e = S (fst e) /\ exists k d, nth_error discs k = Some d /\
      n + length (concat (firstn k discs)) <= fst e /\ snd e < n + length (concat (firstn k discs)) + length d.
  Proof.
    induction discs as [|d t IH]; intros s n e Hs He; cbn [starts] in He; [easy|].
    destruct d as [|x d].
    - destruct (IH s n e Hs He) as (H1 & H2 & k & d & H3 & H4 & H5). repeat split; auto. exists (S k), d. cbn. auto.
    - apply in_app_or in He as [He|He].
      + apply in_block in He as (i & -> & H). cbn [fst snd]. split; [lia|]. split; auto. exists 0, (x :: d). cbn [nth_error firstn concat length] in *. split; auto. lia.
      + destruct (IH (s + (n + length (x :: d))) (n + length (x :: d)) e ltac:(lia) He) as (H1 & H2 & k & d' & H3 & H4 & H5). split; [lia|]. split; auto. exists (S k), d'.
        cbn [nth_error firstn concat]. rewrite app_length. split; auto. lia.
  Qed.
  Lemma starts_nodup discs : forall s n, n <= s -> NoDup (starts s n discs) .
  Proof.
    induction discs as [|d t IH]; intros s n Hs; cbn [starts]; [constructor|].
    destruct d as [|x d]; [now apply IH|].
    assert (N : NoDup (map (fun i => (i, S i)) (seq s (n + length (x :: d) - 1 - s)))).
    { apply FinFun.Injective_map_NoDup; [|apply seq_NoDup]. intros a b [= ->]; auto. }
    assert (H2 : NoDup (starts (s + (n + length (x :: d))) (n + length (x :: d)) t)) by (apply IH; lia).
    revert N H2. generalize (in_block s (n + length (x :: d) - 1 - s)).
    generalize (map (fun i => (i, S i)) (seq s (n + length (x :: d) - 1 - s))). intros l Hl N H2.
    assert (D : forall e, In e l -> ~ In e (starts (s + (n + length (x :: d))) (n + length (x :: d)) t)).
    { intros e H1 H3. apply Hl in H1 as (i & -> & Hi).
      apply starts_sound in H3; [|lia]. cbn [fst] in H3. lia. }
    clear - N H2 D. induction N as [|a l H N IH]; cbn; auto. constructor.
    - rewrite in_app_iff. intros [H1|H1]; [now apply H|]. apply (D a); cbn; auto.
    - apply IH. intros e H1. apply D. cbn; auto.
  Qed.

  Lemma lists_sound discs : let (nodes, edges) := network_lists discs in
    nodes = concat discs /\ NoDup edges /\ forall a b, In (a, b) edges -> joined discs a b.
  Proof.
    rewrite network_lists_eq. repeat split; [apply starts_nodup; lia|..].
    - apply starts_sound in H; [|lia]. tauto.
    - apply starts_sound in H; [|lia]. destruct H as (_ & E & k & d & H1 & H2 & H3). exists k, d. cbn in *. repeat split; auto.
  Qed.

  (** A polyline before which at most one block was written gets all its edges. *)
  Lemma starts_all discs : forall s n k d a, n <= s -> nth_error discs k = Some d ->
    s = n -> (n = 0 \/ filter nonempty (firstn k discs) = []) -> length (filter nonempty (firstn k discs)) <= 1 ->
    n + length (concat (firstn k discs)) <= a -> S a < n + length (concat (firstn k discs)) + length d ->
    In (a, S a) (starts s n discs).
  Proof.
    induction discs as [|d0 t IH]; intros s n k d a Hs Hk E Hn Hc H1 H2; [destruct k; easy|]. subst s.
    destruct k as [|k].
    - cbn in Hk. injection Hk as ->. cbn [firstn concat length] in *. destruct d as [|x d]; [cbn in *; lia|].
      cbn [starts]. apply in_or_app. left. apply in_block. exists a. split; auto. cbn [length] in *. lia.
    - cbn [nth_error] in Hk. cbn [firstn concat filter] in *. rewrite app_length in *. destruct d0 as [|x d0].
      + cbn [starts nonempty length] in *. apply (IH n n k d a); auto.
      + cbn [nonempty] in *. destruct Hn as [->|Hn]; [|discriminate]. cbn [length] in Hc.
        cbn [starts]. apply in_or_app. right. apply (IH _ _ k d a); auto; try lia.
        right. destruct (filter nonempty (firstn k t)); auto. cbn in Hc. lia.
  Qed.
  Lemma lists_complete discs k d a : nth_error discs k = Some d -> length (filter nonempty (firstn k discs)) <= 1 ->
    length (concat (firstn k discs)) <= a -> S a < length (concat (firstn k discs)) + length d ->
    In (a, S a) (snd (network_lists discs)).
  Proof. intros. rewrite network_lists_eq. cbn. eapply starts_all; eauto. Qed.

  Lemma filter_firstn_le (f : list A -> bool) discs : forall k, length (filter f (firstn k discs)) <= length (filter f discs).
  Proof.
    induction discs as [|d t IH]; intros k; [destruct k; cbn; lia|]. destruct k; cbn; [lia|]. specialize (IH k). destruct (f d); cbn; lia.
  Qed.
  Lemma filter_nth (f : list A -> bool) discs : forall k d, nth_error discs k = Some d -> f d = true ->
    S (length (filter f (firstn k discs))) <= length (filter f discs).
  Proof.
    induction discs as [|d0 t IH]; intros k d Hk Hd; [destruct k; easy|]. destruct k as [|k]; cbn [nth_error firstn filter] in *.
    - injection Hk as ->. rewrite Hd. cbn. lia.
    - specialize (IH _ _ Hk Hd). destruct (f d0); cbn [length]; lia.
  Qed.
  Lemma lists_two discs : length (filter nonempty discs) <= 2 ->
    let (nodes, edges) := network_lists discs in
    nodes = concat discs /\ NoDup edges /\ forall a b, In (a, b) edges <-> joined discs a b.
  Proof.
    intros H. pose proof (lists_sound discs) as S. pose proof (lists_complete discs) as C. destruct (network_lists discs) as (nodes & edges).
    cbn [snd] in C. destruct S as (S1 & S2 & S3). repeat split; auto; try now apply S3.
    intros (-> & k & d & Hk & H1 & H2). apply (C k d a); auto.
    pose proof (filter_nth nonempty discs k d Hk). destruct d; [cbn in H2; lia|]. specialize (H0 eq_refl). lia.
  Qed.

  (** After two non-empty polylines the block of edges starts too late. *)
  Lemma starts_late discs : forall s n k d, nth_error discs k = Some d -> 2 <= length d ->
    n <= s -> n < s \/ 0 < n /\ 1 <= length (filter nonempty (firstn k discs)) \/ 2 <= length (filter nonempty (firstn k discs)) ->
    ~ In (n + length (concat (firstn k discs)), S (n + length (concat (firstn k discs)))) (starts s n discs).
  Proof.
    induction discs as [|d0 t IH]; intros s n k d Hk Hd Hs HQ Hin; [destruct k; easy|].
    destruct k as [|k]; cbn [nth_error firstn concat filter length] in *.
    - injection Hk as ->. destruct d as [|x d]; [cbn in Hd; lia|]. cbn [starts] in Hin. rewrite Nat.add_0_r in Hin.
      apply in_app_or in Hin as [Hin|Hin].
      + apply in_block in Hin as (i & [= <- _] & Hi). lia.
      + apply starts_sound in Hin; [|lia]. cbn [fst] in Hin. cbn [length] in *. lia.
    - destruct d0 as [|x d0].
      + cbn [starts app nonempty] in *. now apply (IH s n k d).
      + cbn [starts nonempty] in *. rewrite !app_length in Hin. apply in_app_or in Hin as [Hin|Hin].
        * apply in_block in Hin as (i & [= <- _] & Hi). cbn [length] in *. lia.
        * replace (n + (length (x :: d0) + length (concat (firstn k t)))) with (n + length (x :: d0) + length (concat (firstn k t))) in Hin by lia.
          apply (IH _ _ k d Hk Hd) in Hin; auto; [lia|].
          cbn [length] in *. lia.
  Qed.
  Lemma lists_late discs k d : nth_error discs k = Some d -> 2 <= length d -> 2 <= length (filter nonempty (firstn k discs)) ->
    let a := length (concat (firstn k discs)) in joined discs a (S a) /\ ~ In (a, S a) (snd (network_lists discs)).
  Proof.
    intros Hk Hd Hc. cbv zeta. split.
    - split; auto. exists k, d. repeat split; auto. lia.
    - rewrite network_lists_eq. cbn [snd]. apply (starts_late discs 0 0 k d); auto.
  Qed.
End Lists.

(** *** Sorting *)
Lemma qltb_true a b : qltb a b = true <-> (a < b)%Q.
Proof.
  unfold qltb. rewrite negb_true_iff. split; intros H.
  - apply Qnot_le_lt. intros L. apply Qle_bool_iff in L. congruence.
  - destruct (Qle_bool b a) eqn:E; auto. apply Qle_bool_iff in E. exfalso. lra.
Qed.
Lemma qltb_false a b : qltb a b = false <-> (b <= a)%Q.
Proof. unfold qltb. rewrite negb_false_iff. apply Qle_bool_iff. Qed.

Lemma qinsert_perm a l : Permutation (a :: l) (qinsert a l).
Proof.
  induction l as [|b t IH]; cbn; auto. destruct (Qle_bool a b); auto. eapply perm_trans; [apply perm_swap|]. now constructor.
Qed.
Lemma qsort_perm l : Permutation l (qsort l).
Proof. induction l as [|a t IH]; cbn; auto. eapply perm_trans; [apply perm_skip, IH|apply qinsert_perm]. Qed.
Lemma qinsert_sorted a l : StronglySorted Qle l -> StronglySorted Qle (qinsert a l).
Proof.
  induction 1 as [|b t H IH F]; cbn; [repeat constructor|]. destruct (Qle_bool a b) eqn:E.
  - apply Qle_bool_iff in E. constructor; [constructor; auto|]. constructor; auto.
    apply Forall_forall. intros x Hx. rewrite Forall_forall in F. specialize (F x Hx). lra.
  - constructor; auto. apply Forall_forall. intros x Hx. apply (Permutation_in _ (Permutation_sym (qinsert_perm a t))) in Hx as [<-|Hx].
    + assert (~ (a <= b)%Q) by (rewrite <- Qle_bool_iff; congruence). apply Qlt_le_weak, Qnot_le_lt; auto.
    + rewrite Forall_forall in F. auto.
Qed.
Lemma qsort_sorted l : StronglySorted Qle (qsort l).
Proof. induction l; cbn; [constructor|now apply qinsert_sorted]. Qed.
Lemma qsort_in_order l : in_order l (qsort l).
Proof. split; [apply qsort_perm|apply qsort_sorted]. Qed.

Lemma sorted_app (l r : list Q) : StronglySorted Qle (l ++ r) -> forall x y, In x l -> In y r -> (x <= y)%Q.
Proof.
  induction l as [|a l IH]; cbn; intros H x y Hx Hy; [easy|]. inversion H as [|? ? H1 H2]; subst.
  destruct Hx as [->|Hx]; [|now apply IH]. rewrite Forall_forall in H2. apply H2. apply in_or_app; auto.
Qed.

(** *** Chainages of nodes *)
Lemma upto_S lens k len : nth_error lens k = Some len -> (upto lens (S k) == upto lens k + len)%Q.
Proof.
  revert lens. induction k as [|k IH]; intros [|l lens] H; cbn in H; try easy.
  - injection H as ->. unfold upto. cbn. ring.
  - specialize (IH _ H). unfold upto in *. cbn [firstn sum_q fold_right] in *. fold (sum_q (firstn k lens)) in *. fold (sum_q (firstn (S k) lens)) in *.
    rewrite IH. ring.
Qed.
Lemma running_nth lens : forall s k, k <= length lens -> exists v, nth_error (running s lens) k = Some v /\ (v == s + upto lens k)%Q.
Proof.
  induction lens as [|l lens IH]; intros s k Hk; cbn in Hk.
  - replace k with 0 by lia. exists s. split; auto. unfold upto. cbn. ring.
  - destruct k as [|k]; cbn.
    + exists s. split; auto. unfold upto. cbn. ring.
    + destruct (IH (s + l)%Q k ltac:(lia)) as (v & H1 & H2). exists v. split; auto. rewrite H2. unfold upto, sum_q. cbn [firstn fold_right]. ring.
Qed.
Lemma running_length lens : forall s, length (running s lens) = S (length lens).
Proof. induction lens; intros; cbn; auto. Qed.

Section Lines.
  Variable dist : qpoint -> qpoint -> Q.

  Lemma edge_lengths_length pl : length (edge_lengths dist pl) = length pl - 1.
  Proof. induction pl as [|a [|b t] IH]; cbn in *; auto. rewrite IH. lia. Qed.
  Lemma nodal_eq pl : 2 <= length pl -> nodal_chainages dist pl = running 0 (edge_lengths dist pl).
  Proof. intros H. unfold nodal_chainages. pose proof (edge_lengths_length pl). destruct (edge_lengths dist pl); cbn in *; auto. lia. Qed.
  Lemma nodal_nth pl k : 2 <= length pl -> k < length pl ->
    exists v, nth_error (nodal_chainages dist pl) k = Some v /\ (v == upto (edge_lengths dist pl) k)%Q.
  Proof.
    intros H Hk. rewrite nodal_eq by auto. destruct (running_nth (edge_lengths dist pl) 0 k) as (v & H1 & H2).
    - rewrite edge_lengths_length. lia.
    - exists v. split; auto. rewrite H2. ring.
  Qed.

  (** No access out of range if no chainage lies beyond the end. *)
  Lemma disc_step_ok pl cur acc c :
    2 <= length pl -> S cur < length pl -> (c <= upto (edge_lengths dist pl) (length pl - 1))%Q ->
    exists cur' a b from len, disc_step pl (edge_lengths dist pl) (nodal_chainages dist pl) (cur, acc) c = Ok (cur', acc ++ [along a b (c - from) len]) /\
      S cur' < length pl /\ nth_error pl cur' = Some a /\ nth_error pl (S cur') = Some b /\ nth_error (edge_lengths dist pl) cur' = Some len /\
      (from == upto (edge_lengths dist pl) cur')%Q /\
      (cur' = cur /\ (c <= upto (edge_lengths dist pl) (S cur))%Q \/ cur' = S cur /\ (upto (edge_lengths dist pl) (S cur) < c)%Q).
  Proof.
    intros H2 Hc Ht. unfold disc_step. destruct (nodal_nth pl (S cur) H2 Hc) as (v & Hv & Ev).
    rewrite Nat.add_1_r. unfold vget at 1. rewrite Hv. cbn [bind].
    set (cur' := if qltb v c then S cur else cur).
    assert (B : S cur' < length pl /\ (cur' = cur /\ (c <= upto (edge_lengths dist pl) (S cur))%Q \/ cur' = S cur /\ (upto (edge_lengths dist pl) (S cur) < c)%Q)).
    { subst cur'. destruct (qltb v c) eqn:E.
      - apply qltb_true in E. rewrite Ev in E. split; [|right; auto].
        destruct (Nat.eq_dec (S cur) (length pl - 1)) as [Q|]; [|lia]. rewrite Q in E. exfalso. lra.
      - apply qltb_false in E. rewrite Ev in E. split; [lia|left; auto]. }
    destruct B as (B & D). destruct (nodal_nth pl cur' H2 ltac:(lia)) as (f & Hf & Ef).
    destruct (vget_lt pl cur' ltac:(lia)) as (a & Ha). destruct (vget_lt pl (S cur') ltac:(lia)) as (b & Hb).
    destruct (vget_lt (edge_lengths dist pl) cur') as (len & Hl); [rewrite edge_lengths_length; lia|].
    exists cur', a, b, f, len. rewrite Nat.add_1_r. unfold vget at 1. rewrite Hf. cbn [bind]. rewrite Ha, Hb, Hl. cbn [bind].
    apply vget_ok in Ha, Hb, Hl. repeat split; auto.
  Qed.
  Lemma disc_safe pl l : 2 <= length pl -> forall cur acc, S cur < length pl -> Forall (fun c => (c <= upto (edge_lengths dist pl) (length pl - 1))%Q) l ->
    exists cur' r, fold_out (disc_step pl (edge_lengths dist pl) (nodal_chainages dist pl)) l (cur, acc) = Ok (cur', acc ++ r) /\ length r = length l.
  Proof.
    intros H2. induction l as [|c t IH]; intros cur acc Hc F; cbn [fold_out].
    - exists cur, []. now rewrite app_nil_r.
    - inversion F; subst. destruct (disc_step_ok pl cur acc c) as (cur' & a & b & f & len & E & Hc' & _); auto. rewrite E. cbn [bind].
      destruct (IH cur' (acc ++ [along a b (c - f) len]) Hc' H3) as (cur2 & r & -> & Hr). exists cur2, (along a b (c - f) len :: r).
      rewrite <- app_assoc. cbn. auto.
  Qed.
  Lemma discretize_safe pl ch : 2 <= length pl -> (forall c, In c ch -> (c <= upto (edge_lengths dist pl) (length pl - 1))%Q) ->
    exists s ps, discretize dist pl ch = Ok (s, ps) /\ in_order ch s /\ length ps = length ch.
  Proof.
    intros H2 H. unfold discretize. destruct (Nat.ltb_spec (length pl) 2); [lia|].
    destruct (disc_safe pl (qsort ch) H2 0 [] ltac:(lia)) as (cur & r & E & L).
    { apply Forall_forall. intros c Hc. apply H. eapply Permutation_in; [apply Permutation_sym, qsort_perm|auto]. }
    rewrite E. cbn [bind app snd]. exists (qsort ch), r. repeat split; [apply qsort_perm|apply qsort_sorted|].
    rewrite L. symmetry. apply Permutation_length, qsort_perm.
  Qed.

  (** Every point lies on the polyline if no segment is skipped. *)
  Lemma along_at pl k a b len c from :
    nth_error pl k = Some a -> nth_error pl (S k) = Some b -> nth_error (edge_lengths dist pl) k = Some len -> (0 < len)%Q ->
    (from == upto (edge_lengths dist pl) k)%Q -> (upto (edge_lengths dist pl) k <= c <= upto (edge_lengths dist pl) (S k))%Q ->
    exists p, along a b (c - from) len = Some p /\ at_chainage pl (edge_lengths dist pl) c p.
  Proof.
    intros Ha Hb Hl Pl Ef Hc. unfold along. destruct (Qeq_bool len 0) eqn:E; [apply Qeq_bool_eq in E; exfalso; lra|].
    eexists. split; [reflexivity|]. exists k, a, b, len. split; auto. split; auto. split; auto. split; auto.
    pose proof (upto_S _ _ _ Hl) as HS. exists ((c - upto (edge_lengths dist pl) k) / len)%Q.
    assert (Et : ((c - upto (edge_lengths dist pl) k) / len * len == c - upto (edge_lengths dist pl) k)%Q) by (field; lra).
    split; auto. split.
    - split; [apply Qle_shift_div_l; lra|apply Qle_shift_div_r; lra].
    - split; cbn [fst snd]; rewrite Ef; field; lra.
  Qed.
  Lemma disc_spec pl s : 2 <= length pl -> Forall (fun l => (0 < l)%Q) (edge_lengths dist pl) ->
    StronglySorted Qle s -> Forall (fun c => (0 <= c <= upto (edge_lengths dist pl) (length pl - 1))%Q) s ->
    no_segment_skipped (edge_lengths dist pl) s ->
    forall l done cur acc, s = done ++ l -> S cur < length pl ->
      (forall c, In c done -> (c <= upto (edge_lengths dist pl) (S cur))%Q) ->
      (cur = 0 \/ exists c, In c done /\ (upto (edge_lengths dist pl) cur < c)%Q) ->
      exists cur' r, fold_out (disc_step pl (edge_lengths dist pl) (nodal_chainages dist pl)) l (cur, acc) = Ok (cur', acc ++ r) /\
        Forall2 (fun c p => exists q, p = Some q /\ at_chainage pl (edge_lengths dist pl) c q) l r.
  Proof.
    intros H2 Pos Sor Rng Skip. induction l as [|c t IH]; intros done cur acc Es Hc Hd Hl; cbn [fold_out].
    - exists cur, []. now rewrite app_nil_r.
    - assert (Ic : In c s) by (subst s; apply in_or_app; cbn; auto).
      rewrite Forall_forall in Rng, Pos. pose proof (Rng c Ic) as Rc.
      destruct (disc_step_ok pl cur acc c) as (cur' & a & b & f & len & E & Hc' & Ha & Hb & Hlen & Ef & D); auto; [lra|]. rewrite E. cbn [bind].
      assert (Low : forall x, In x done -> (x <= c)%Q) by (intros x Hx; subst s; apply (sorted_app done (c :: t)); cbn; auto).
      assert (R : (upto (edge_lengths dist pl) cur' <= c <= upto (edge_lengths dist pl) (S cur'))%Q).
      { destruct D as [(-> & D)|(-> & D)].
        - split; auto. destruct Hl as [->|(x & Hx & Lx)]; [unfold upto; cbn; lra|]. specialize (Low x Hx). lra.
        - split; [lra|]. destruct (Qlt_le_dec (upto (edge_lengths dist pl) (S (S cur))) c) as [L|L]; auto. exfalso.
          destruct (Skip (S cur)) as (x & Hx & Lx); [lia|rewrite edge_lengths_length; lia|eauto|].
          subst s. apply in_app_or in Hx as [Hx|[<-|Hx]]; [specialize (Hd x Hx); lra|lra|].
          assert (c <= x)%Q; [|lra]. apply (sorted_app (done ++ [c]) t); auto; [now rewrite <- app_assoc|apply in_or_app; cbn; auto]. }
      destruct (along_at pl cur' a b len c f) as (p & Ep & Hp); auto; [apply Pos; eapply nth_error_In; eauto|]. rewrite Ep.
      destruct (IH (done ++ [c]) cur' (acc ++ [Some p])) as (cur2 & r & -> & Hr); auto.
      + now rewrite <- app_assoc.
      + intros x Hx. apply in_app_or in Hx as [Hx|[<-|[]]]; [|lra]. specialize (Low x Hx). lra.
      + destruct D as [(-> & D)|(-> & D)]; [destruct Hl as [->|(x & Hx & Lx)]; [auto|right; exists x; split; auto; apply in_or_app; auto]|].
        right. exists c. split; auto. apply in_or_app; cbn; auto.
      + exists cur2, (Some p :: r). rewrite <- app_assoc. cbn. split; auto. constructor; eauto.
  Qed.
  Lemma skipped_perm lens l r : Permutation l r -> no_segment_skipped lens l -> no_segment_skipped lens r.
  Proof.
    intros P H k H1 H2 (c & Hc & Lc). destruct (H k H1 H2) as (x & Hx & Lx).
    - exists c. split; auto. eapply Permutation_in; [apply Permutation_sym; eauto|auto].
    - exists x. split; auto. eapply Permutation_in; eauto.
  Qed.
  Lemma discretize_spec pl ch : 2 <= length pl -> (forall l, In l (edge_lengths dist pl) -> (0 < l)%Q) ->
    (forall c, In c ch -> (0 <= c <= upto (edge_lengths dist pl) (length pl - 1))%Q) ->
    no_segment_skipped (edge_lengths dist pl) ch ->
    exists s ps, discretize dist pl ch = Ok (s, ps) /\ in_order ch s /\
      Forall2 (fun c p => exists q, p = Some q /\ at_chainage pl (edge_lengths dist pl) c q) s ps.
  Proof.
    intros H2 Pos Rng Skip. unfold discretize. destruct (Nat.ltb_spec (length pl) 2); [lia|].
    destruct (disc_spec pl (qsort ch) H2) with (l := qsort ch) (done := @nil Q) (cur := 0) (acc := @nil (option qpoint)) as (cur & r & E & F); auto; try lia.
    - now apply Forall_forall.
    - apply qsort_sorted.
    - apply Forall_forall. intros c Hc. apply Rng. eapply Permutation_in; [apply Permutation_sym, qsort_perm|auto].
    - eapply skipped_perm; [apply qsort_perm|auto].
    - intros c [].
    - rewrite E. cbn [bind app snd]. exists (qsort ch), r. repeat split; auto; [apply qsort_perm|apply qsort_sorted].
  Qed.
End Lines.

(** *** Chainages at regular distances *)
Lemma ceil_bounds x : (inject_Z (Qceiling x) - 1 < x <= inject_Z (Qceiling x))%Q.
Proof.
  split; [|apply Qle_ceiling]. pose proof (Qceiling_lt x) as H. unfold Z.sub in H. rewrite inject_Z_plus in H.
  assert (E : (inject_Z (Z.opp 1) == - (1))%Q) by reflexivity. rewrite E in H. lra.
Qed.

Lemma interval_ok offset a b : (0 < offset)%Q -> (a <= b)%Q -> exists l, interval_points offset a b = Ok l /\
  (forall c, In c l -> (a < c < b)%Q) /\
  (forall x, (a <= x < b)%Q -> exists c, (In c l \/ c = b) /\ (x < c <= x + offset)%Q).
Proof.
  intros Ho Hab. unfold interval_points. destruct (qltb (b - a) offset) eqn:E.
  - apply qltb_true in E. exists []. split; auto. split; [easy|]. intros x Hx. exists b. split; auto. lra.
  - apply qltb_false in E. destruct (Qeq_bool offset 0) eqn:E0; [apply Qeq_bool_eq in E0; exfalso; lra|].
    set (len := (b - a)%Q) in *. set (n := Qceiling (len / offset)).
    pose proof (ceil_bounds (len / offset)) as (B1 & B2). fold n in B1, B2.
    assert (L1 : (1 <= len / offset)%Q) by (apply Qle_shift_div_l; lra).
    assert (Pn : (0 < n)%Z). { rewrite Zlt_Qlt. change (inject_Z 0) with 0%Q. lra. }
    destruct (Z.ltb_spec n 0) as [|_]; [lia|]. eexists. split; [reflexivity|].
    assert (Qn : (0 < inject_Z n)%Q) by (change 0%Q with (inject_Z 0); rewrite <- Zlt_Qlt; auto).
    set (h := (len / inject_Z n)%Q).
    assert (Eh : (inject_Z n * h == len)%Q) by (unfold h; field; lra).
    assert (Ph : (0 < h)%Q) by (unfold h; apply Qlt_shift_div_l; lra).
    assert (Hh : (h <= offset)%Q).
    { unfold h. apply Qle_shift_div_r; auto. assert (len == (len / offset) * offset)%Q by (field; lra). rewrite H at 1.
      rewrite Qmult_comm. rewrite (Qmult_comm offset (inject_Z n)). rewrite (Qmult_comm offset (len / offset)). apply Qmult_le_compat_r; lra. }
    split.
    + intros c Hc. apply in_map_iff in Hc as (j & <- & Hj). apply in_seq in Hj.
      assert (J1 : (1 <= inject_Z (Z.of_nat j))%Q) by (change 1%Q with (inject_Z 1); rewrite <- Zle_Qle; lia).
      assert (J2 : (inject_Z (Z.of_nat j) + 1 <= inject_Z n)%Q).
      { change 1%Q with (inject_Z 1). rewrite <- inject_Z_plus, <- Zle_Qle. lia. }
      split; [nra|]. assert (inject_Z (Z.of_nat j) * h < inject_Z n * h)%Q by nra. unfold len in Eh. lra.
    + intros x Hx. set (q := ((x - a) / h)%Q). set (j := (Qfloor q + 1)%Z).
      assert (Eq : (q * h == x - a)%Q) by (unfold q; field; lra).
      pose proof (Qfloor_le q) as F1. pose proof (Qlt_floor q) as F2.
      assert (Ej : (inject_Z j == inject_Z (Qfloor q) + 1)%Q) by (unfold j; rewrite inject_Z_plus; reflexivity).
      rewrite inject_Z_plus in F2. change (inject_Z 1) with 1%Q in F2.
      assert (Q0 : (0 <= q)%Q) by (unfold q; apply Qle_shift_div_l; lra).
      assert (Hj0 : (0 < j)%Z). { rewrite Zlt_Qlt. change (inject_Z 0) with 0%Q. lra. }
      assert (Qlen : (q < inject_Z n)%Q). { unfold q. apply Qlt_shift_div_r; auto. rewrite Eh. unfold len. lra. }
      assert (Hjn : (j <= n)%Z).
      { assert (Qfloor q < n)%Z; [|unfold j; lia]. rewrite Zlt_Qlt. lra. }
      assert (X : (x < a + inject_Z j * h <= x + offset)%Q).
      { split; [assert (q * h < inject_Z j * h)%Q by nra; lra|]. assert (inject_Z j * h <= (q + 1) * h)%Q by nra. nra. }
      destruct (Z.eq_dec j n) as [Ejn|Hne].
      * exists b. split; auto. rewrite Ejn in X. unfold len in Eh. lra.
      * exists (a + inject_Z j * h)%Q. split; [|auto]. left. apply in_map_iff. exists (Z.to_nat j). rewrite Z2Nat.id by lia. split; auto.
        apply in_seq. lia.
Qed.

Lemma intervals_ok offset l : (0 < offset)%Q -> StronglySorted Qle l -> exists r, all_intervals offset l = Ok r /\
  (forall c, In c r -> (exists a, In a l /\ a <= c)%Q /\ (exists b, In b l /\ c <= b)%Q) /\
  (forall x, (exists c, In c l /\ c <= x)%Q -> (exists c, In c l /\ x < c)%Q -> exists c, (In c l \/ In c r) /\ (x < c <= x + offset)%Q).
Proof.
  intros Ho. induction l as [|a l IH]; intros Sl.
  - exists []. repeat split; cbn; try easy. intros x (c & [] & _).
  - inversion Sl as [|? ? S1 F]; subst. destruct l as [|b t].
    + exists []. split; auto. split; [easy|]. intros x (c & [<-|[]] & H1) (d & [<-|[]] & H2). exfalso. lra.
    + destruct (IH S1) as (r & E & R1 & R2). rewrite Forall_forall in F. specialize (F b (or_introl eq_refl)) as Hab.
      destruct (interval_ok offset a b Ho Hab) as (p & Ep & P1 & P2).
      change (all_intervals offset (a :: b :: t)) with (let! p := interval_points offset a b in let! r := all_intervals offset (b :: t) in Ok (p ++ r)).
      rewrite Ep, E. cbn [bind]. exists (p ++ r). split; auto. split.
      * intros c Hc. apply in_app_or in Hc as [Hc|Hc].
        -- specialize (P1 c Hc). split; [exists a|exists b]; cbn; split; auto; lra.
        -- destruct (R1 c Hc) as ((x & Hx & Lx) & (y & Hy & Ly)). split; [exists x|exists y]; cbn; split; auto.
      * intros x (c & Hc & Lc) (d & Hd & Ld). destruct (Qlt_le_dec x b) as [Lb|Lb].
        -- assert (La : (a <= x)%Q). { destruct Hc as [<-|Hc]; auto. specialize (F c Hc). lra. }
           destruct (P2 x) as (e & [He| ->] & Le); [split; auto|exists e; rewrite in_app_iff; split; auto|exists b; cbn; split; auto].
        -- destruct (R2 x) as (e & He & Le).
           ++ exists b. cbn. auto.
           ++ exists d. destruct Hd as [<-|Hd]; auto. exfalso. lra.
           ++ exists e. rewrite in_app_iff. cbn. cbn in He. split; auto. tauto.
Qed.

Lemma offset_ok offset ch : (0 < offset)%Q -> exists ch', offset_line offset ch = Ok ch' /\
  (exists new, Permutation (ch ++ new) ch' /\ forall c, In c new -> (exists a, In a ch /\ a <= c)%Q /\ (exists b, In b ch /\ c <= b)%Q) /\
  no_gap offset ch'.
Proof.
  intros Ho. unfold offset_line. cbv zeta. destruct (intervals_ok offset (qsort ch) Ho (qsort_sorted ch)) as (r & E & R1 & R2). rewrite E. cbn [bind].
  exists (qsort ch ++ r). split; auto. pose proof (qsort_perm ch) as P.
  assert (I : forall c, In c (qsort ch) -> In c ch) by (intros c Hc; eapply Permutation_in; [apply Permutation_sym; eauto|auto]).
  split.
  - exists r. split; [now apply Permutation_app_tail|]. intros c Hc. destruct (R1 c Hc) as ((x & Hx & Lx) & (y & Hy & Ly)). split; [exists x|exists y]; auto.
  - intros x (c & Hc & Lc) (d & Hd & Ld).
    assert (B : forall c, In c (qsort ch ++ r) -> (exists a, In a (qsort ch) /\ a <= c)%Q /\ (exists b, In b (qsort ch) /\ c <= b)%Q).
    { intros e He. apply in_app_or in He as [He|He]; [|auto]. split; exists e; split; auto; apply Qle_refl. }
    destruct (B c Hc) as ((a & Ha & La) & _). destruct (B d Hd) as (_ & (b & Hb & Lb)).
    destruct (R2 x) as (e & He & Le); [exists a; split; auto; lra|exists b; split; auto; lra|]. exists e. split; auto. now apply in_or_app.
Qed.

(** *** Fixed chainages *)
Lemma set_back_app x (l r : list Q) : r <> [] -> set_back x (l ++ r) = l ++ set_back x r.
Proof. intros H. unfold set_back. rewrite removelast_app by auto. now rewrite app_assoc. Qed.
Lemma set_back_nonempty x (l : list Q) : set_back x l <> [].
Proof. unfold set_back. now destruct (removelast l). Qed.

(** The two first chainages are kept if the first fixed chainage is not the start. *)
Lemma fixed_keeps start stop min_size offset l : forall ch r prev isfixed, (isfixed = true -> r <> []) ->
  exists r' prev' isfixed', fold_left (fixed_step start stop min_size offset) l (ch ++ r, prev, isfixed) = (ch ++ r', prev', isfixed') /\
    (isfixed' = true -> r' <> []) /\ length r <= length r'.
Proof.
  induction l as [|f t IH]; intros ch r prev isfixed Hr; cbn [fold_left]; [eauto 6|].
  assert (S1 : exists r1 p1 i1,
    (if Qle_bool min_size (f - offset - prev) && qltb start (f - offset) then ((ch ++ r) ++ [(f - offset)%Q], (f - offset)%Q, true)
      else if isfixed then (set_back ((f - offset + prev) * (1 # 2)) (ch ++ r), ((f - offset + prev) * (1 # 2))%Q, isfixed)
      else (ch ++ r, prev, isfixed)) = (ch ++ r1, p1, i1) /\ (i1 = true -> r1 <> []) /\ length r <= length r1).
  { destruct (Qle_bool _ _ && _).
    - exists (r ++ [(f - offset)%Q]), (f - offset)%Q, true. rewrite app_assoc. split; [reflexivity|]. split; [intros _; now destruct r|]. rewrite app_length. lia.
    - destruct isfixed; [|eauto 6]. rewrite set_back_app by auto. do 3 eexists. split; [reflexivity|]. split; [intros _; apply set_back_nonempty|].
      unfold set_back. rewrite app_length. specialize (Hr eq_refl). destruct (exists_last Hr) as (r0 & x & ->). rewrite removelast_last, app_length. cbn. lia. }
  destruct S1 as (r1 & p1 & i1 & E1 & N1 & L1).
  assert (E2 : exists r2 p2 i2, fixed_step start stop min_size offset (ch ++ r, prev, isfixed) f = (ch ++ r2, p2, i2) /\ (i2 = true -> r2 <> []) /\ length r <= length r2).
  { unfold fixed_step. rewrite E1. clear E1. destruct (Qle_bool _ _ && _).
    - exists (r1 ++ [(f + offset)%Q]), (f + offset)%Q, true. rewrite app_assoc. split; [reflexivity|]. split; [intros _; now destruct r1|]. rewrite app_length. lia.
    - eauto 6. }
  destruct E2 as (r2 & p2 & i2 & -> & N2 & L2). destruct (IH ch r2 p2 i2 N2) as (r3 & p3 & i3 & E3 & N3 & L3). exists r3, p3, i3. repeat split; auto. lia.
Qed.
Lemma fixed_line_keeps near min_size offset start stop rest fixed :
  (forall f, hd_error fixed = Some f -> near start f = false) ->
  exists r, fixed_line near min_size offset (start :: stop :: rest) fixed = start :: stop :: r.
Proof.
  intros H. destruct fixed as [|f0 t]; cbn [fixed_line]; [eauto|].
  rewrite (H f0 eq_refl). destruct (fixed_keeps start stop min_size offset (f0 :: t) [start; stop] rest start false) as (r & p & i & E & _); [easy|].
  cbn [app] in E. rewrite E. cbn. eauto.
Qed.

(** Well spaced fixed chainages get a grid point on both sides. *)
Lemma fixed_spaced start stop min_size offset l : (0 < min_size)%Q -> (0 < offset)%Q -> (min_size <= offset + offset)%Q ->
  (forall f, In f l -> (f + offset < stop)%Q) ->
  forall ch prev isfixed, (start <= prev)%Q -> spaced min_size offset prev l ->
  exists prev' isfixed', fold_left (fixed_step start stop min_size offset) l (ch, prev, isfixed) =
    (ch ++ flat_map (fun f => [(f - offset)%Q; (f + offset)%Q]) l, prev', isfixed').
Proof.
  intros Hm Ho H2. induction l as [|f t IH]; intros Hf ch prev isfixed Hp Hs; cbn [fold_left flat_map].
  - rewrite app_nil_r. eauto.
  - cbn [spaced] in Hs. destruct Hs as (S1 & S2). unfold fixed_step at 2.
    assert (E1 : Qle_bool min_size (f - offset - prev) && qltb start (f - offset) = true).
    { rewrite andb_true_iff, Qle_bool_iff, qltb_true. split; lra. }
    rewrite E1.
    assert (E2 : Qle_bool min_size (f + offset - (f - offset)) && qltb (f + offset) stop = true).
    { rewrite andb_true_iff, Qle_bool_iff, qltb_true. split; [lra|]. apply Hf. cbn; auto. }
    rewrite E2. destruct (IH ltac:(intros; apply Hf; cbn; auto) ((ch ++ [(f - offset)%Q]) ++ [(f + offset)%Q]) (f + offset)%Q true) as (p & i & E); auto; [lra|].
    exists p, i. rewrite E. rewrite <- !app_assoc. reflexivity.
Qed.
Lemma fixed_line_spaced near min_size offset start stop rest fixed : (0 < min_size)%Q -> (0 < offset)%Q -> (min_size <= offset + offset)%Q ->
  (forall f, In f fixed -> (f + offset < stop)%Q) -> spaced min_size offset start fixed ->
  fixed_line near min_size offset (start :: stop :: rest) fixed = start :: stop :: rest ++ flat_map (fun f => [(f - offset)%Q; (f + offset)%Q]) fixed.
Proof.
  intros Hm Ho H2 Hf Hs. destruct fixed as [|f0 t]; cbn [fixed_line].
  - cbn. now rewrite app_nil_r.
  - destruct (fixed_spaced start stop min_size offset (f0 :: t) Hm Ho H2 Hf (start :: stop :: rest) start (near start f0)) as (p & i & E); [apply Qle_refl|auto|].
    rewrite E. reflexivity.
Qed.

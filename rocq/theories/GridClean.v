(** Face masks, stray nodes and node types. *)
From Verif Require Import Base BaseLemmas FloatModel UtilModel UtilProofs GridModel GridSpec GridProofs.

Definition completeb g n m : bool :=
  is_valid (vis g n m) && is_valid (vis g n (m + 1)) && is_valid (vis g (n + 1) m) && is_valid (vis g (n + 1) (m + 1)).

Lemma complete_b g n m : complete g n m <-> n + 1 < num_n g /\ m + 1 < num_m g /\ completeb g n m = true.
Proof. unfold complete, completeb. rewrite !andb_true_iff. tauto. Qed.

Lemma face_nodes_valid_ok g n m : gwf g -> n + 1 < num_n g -> m + 1 < num_m g -> face_nodes_valid g n m = Ok (completeb g n m).
Proof.
  intros H Hn Hm. unfold face_nodes_valid, completeb.
  rewrite !node_valid_ok by (auto; split; lia). cbn [bind].
  destruct (is_valid (vis g n m)), (is_valid (vis g n (m + 1))), (is_valid (vis g (n + 1) m)); reflexivity.
Qed.

(** Nothing changes outside the visible window. *)
Definition same_hidden g h : Prop :=
  forall a b, ~ (start_n g <= a < start_n g + num_n g /\ start_m g <= b < start_m g + num_m g) ->
    entry (gnodes h) a b = entry (gnodes g) a b.

Lemma hidden_refl g : same_hidden g g.
Proof. intros a b _. reflexivity. Qed.

Lemma hidden_trans g h k : same_frame g h -> same_hidden g h -> same_hidden h k -> same_hidden g k.
Proof.
  intros F A B a b Hab. rewrite B, A; auto. rewrite (sf_num_n _ _ F), (sf_num_m _ _ F), (sf_sn _ _ F), (sf_sm _ _ F). auto.
Qed.

Lemma hidden_put g n m p : shown g n m -> same_hidden g (put_node g n m p).
Proof. intros [Hn Hm] a b Hab. cbn. apply put_other. intros E. injection E as -> ->. apply Hab. lia. Qed.

(** *** ComputeGridFacesMask *)
Definition mask_right g (h : grid) : Prop :=
  mrows (fmask h) = mrows (gnodes g) - 1 /\ mcols (fmask h) = mcols (gnodes g) - 1 /\
  forall n m, n + 1 < num_n g -> m + 1 < num_m g -> entry (fmask h) (start_n g + n) (start_m g + m) = completeb g n m.

Lemma nodes_fmask g x : gnodes (set_fmask g x) = gnodes g.
Proof. reflexivity. Qed.

Lemma vis_same_nodes g h n m : same_frame g h -> gnodes h = gnodes g -> vis h n m = vis g n m.
Proof. intros F E. unfold vis. rewrite E, (sf_sn _ _ F), (sf_sm _ _ F). reflexivity. Qed.

Lemma completeb_same_nodes g h n m : same_frame g h -> gnodes h = gnodes g -> completeb h n m = completeb g n m.
Proof. intros F E. unfold completeb. rewrite !(vis_same_nodes g h) by auto. reflexivity. Qed.

Lemma compute_faces_mask_ok g : gwf g ->
  exists h, compute_faces_mask g = Ok h /\ same_frame g h /\ gnodes h = gnodes g /\ ntypes h = ntypes g /\ mask_right g h.
Proof.
  intros H. unfold compute_faces_mask.
  assert (E : exists x b, resize_and_fill (fun _ _ => false) (fmask g) (Z.of_nat (full_n g) - 1) (Z.of_nat (full_m g) - 1) false false = Ok (x, b)
            /\ mrows x = mrows (gnodes g) - 1 /\ mcols x = mcols (gnodes g) - 1 /\ forall i j, entry x i j = false).
  { unfold resize_and_fill, full_n, full_m. unfold gwf in H.
    destruct (Z.ltb_spec (Z.of_nat (mrows (gnodes g)) - 1) 0); [lia|].
    destruct (Z.ltb_spec (Z.of_nat (mcols (gnodes g)) - 1) 0); [lia|]. cbn [orb].
    set (r := Z.to_nat (Z.of_nat (mrows (gnodes g)) - 1)). set (c := Z.to_nat (Z.of_nat (mcols (gnodes g)) - 1)).
    assert (r = mrows (gnodes g) - 1) by lia. assert (c = mcols (gnodes g) - 1) by lia.
    destruct (Nat.eqb_spec r (mrows (fmask g))), (Nat.eqb_spec c (mcols (fmask g))); cbn [negb orb andb];
      eexists _, _; (split; [reflexivity|]); cbn; repeat split; auto; lia. }
  destruct E as (x & b & -> & Hr & Hc & Hx). cbn [bind].
  set (L := pairs 0 (num_n g - 1) 0 (num_m g - 1)).
  destruct (fold_pre (fun g nm => let! v := face_nodes_valid g (fst nm) (snd nm) in
              if v then set_mask g (fst nm) (snd nm) true else Ok g)
    (fun l1 h => same_frame g h /\ gnodes h = gnodes g /\ ntypes h = ntypes g /\
       mrows (fmask h) = mrows (gnodes g) - 1 /\ mcols (fmask h) = mcols (gnodes g) - 1 /\
       forall n m, entry (fmask h) (start_n g + n) (start_m g + m) = true <-> In (n, m) l1 /\ completeb g n m = true)
    L (set_fmask g x)) as (h & Hf & F & Hn & Ht & Hr' & Hc' & He).
  - intros l1 [n m] l2 h El (F & Hn & Ht & Hr' & Hc' & He). cbn [fst snd].
    assert (B : n + 1 < num_n g /\ m + 1 < num_m g).
    { assert (In (n, m) L) as Hin by (rewrite El; apply in_elt). apply in_pairs in Hin. lia. }
    rewrite face_nodes_valid_ok; [|eapply sf_gwf; eauto|rewrite (sf_num_n _ _ F); lia|rewrite (sf_num_m _ _ F); lia]. cbn [bind].
    rewrite (completeb_same_nodes g h) by auto. destruct (completeb g n m) eqn:Ec.
    + unfold set_mask. unfold gwf, num_n, num_m in *.
      rewrite mat_set_ok by (rewrite ?(sf_sn _ _ F), ?(sf_sm _ _ F), ?Hr', ?Hc'; lia). cbn [bind].
      eexists. split; [reflexivity|]. split; [apply sf_trans with h; [auto|apply sf_fmask]|]. split; [exact Hn|]. split; [exact Ht|].
      split; [exact Hr'|]. split; [exact Hc'|]. intros i j. cbn [set_fmask fmask entry]. rewrite (sf_sn _ _ F), (sf_sm _ _ F).
      rewrite in_app_iff. cbn [In].
      destruct (Nat.eq_dec i n) as [->|Hi]; [destruct (Nat.eq_dec j m) as [->|Hj]|].
      * rewrite put_same. split; auto.
      * rewrite put_other by (intros E; injection E as E; lia). rewrite He. split; [tauto|].
        intros [[?|[E|[]]] ?]; auto. congruence.
      * rewrite put_other by (intros E; injection E as E; lia). rewrite He. split; [tauto|].
        intros [[?|[E|[]]] ?]; auto. congruence.
    + eexists. split; [reflexivity|]. do 5 (split; auto). intros i j. rewrite He, in_app_iff. cbn [In].
      split; [tauto|]. intros [[?|[E|[]]] ?]; auto. injection E as -> ->. congruence.
  - split; [apply sf_fmask|]. do 2 (split; [reflexivity|]). split; [exact Hr|]. split; [exact Hc|].
    intros n m. cbn [set_fmask fmask In]. rewrite Hx. split; [discriminate|tauto].
  - exists h. split; [exact Hf|]. do 3 (split; auto). split; [auto|]. split; [auto|]. intros n m Hn' Hm'.
    apply Bool.eq_true_iff_eq. rewrite He. unfold L. rewrite in_pairs. split; [tauto|]. intros; split; auto; lia.
Qed.

Lemma get_mask_ok g h n m : gwf g -> same_frame g h -> mask_right g h -> n + 1 < num_n g -> m + 1 < num_m g ->
  get_mask h n m = Ok (completeb g n m).
Proof.
  intros H F (Hr & Hc & He) Hn Hm. unfold get_mask. unfold gwf, num_n, num_m in *.
  rewrite mat_get_ok by (rewrite ?(sf_sn _ _ F), ?(sf_sm _ _ F), ?Hr, ?Hc; lia).
  rewrite (sf_sn _ _ F), (sf_sm _ _ F), He; auto.
Qed.

(** *** validNodeMask *)
Lemma mark_ok N M mask n m : length mask = N * M -> n < N -> m < M -> mark M mask n m = Ok (set_nth (n * M + m) true mask).
Proof. intros L Hn Hm. unfold mark. apply Nat.ltb_lt in Hm as E. rewrite E. apply vset_lt. nia. Qed.

Lemma nth_mark {N M mask n m i j} : length mask = N * M -> n < N -> m < M -> i < N -> j < M ->
  nth (i * M + j) (set_nth (n * M + m) true mask) false = true <-> (i, j) = (n, m) \/ nth (i * M + j) mask false = true.
Proof.
  intros L Hn Hm Hi Hj. assert (B : n * M + m < length mask) by nia.
  destruct (Nat.eq_dec (i * M + j) (n * M + m)) as [E|E].
  - destruct (divmod_unique M i j (i * M + j) Hj eq_refl), (divmod_unique M n m (i * M + j) Hm E).
    assert ((i, j) = (n, m)) as EE by congruence. rewrite E.
    rewrite (nth_error_nth _ _ false (nth_error_set_nth_eq _ true mask B)). tauto.
  - assert (Hx : nth (i * M + j) (set_nth (n * M + m) true mask) false = nth (i * M + j) mask false).
    { rewrite <- !nth_default_eq. unfold nth_default. rewrite nth_error_set_nth_neq by auto. reflexivity. }
    rewrite Hx. split; [tauto|]. intros [EE|?]; auto. congruence.
Qed.

(** Membership of a node among the corners of the complete cells in a list. *)
Definition covered g (l : list gindex) i j : Prop := exists n m, In (n, m) l /\ completeb g n m = true /\ corner_of n m i j.

Lemma valid_node_mask_ok g h : gwf g -> same_frame g h -> mask_right g h ->
  exists mask, valid_node_mask h = Ok mask /\ length mask = num_n g * num_m g /\
    forall i j, shown g i j -> nth (i * num_m g + j) mask false = true <-> in_cell g i j.
Proof.
  intros H F Hm. unfold valid_node_mask. rewrite (sf_num_n _ _ F), (sf_num_m _ _ F).
  set (L := pairs 0 (num_n g - 1) 0 (num_m g - 1)).
  destruct (fold_pre (fun mask nm =>
              let! v := get_mask h (fst nm) (snd nm) in
              if v then
                let! mask := mark (num_m g) mask (fst nm) (snd nm) in
                let! mask := mark (num_m g) mask (fst nm) (snd nm + 1) in
                let! mask := mark (num_m g) mask (fst nm + 1) (snd nm) in
                mark (num_m g) mask (fst nm + 1) (snd nm + 1)
              else Ok mask)
     (fun l1 mask => length mask = num_n g * num_m g /\
        forall i j, shown g i j -> nth (i * num_m g + j) mask false = true <-> covered g l1 i j)
     L (repeat false (num_n g * num_m g))) as (mask & Hf & Hl & Hc).
  - intros l1 [n m] l2 mask El [Hl Hc]. cbn [fst snd].
    assert (B : n + 1 < num_n g /\ m + 1 < num_m g).
    { assert (In (n, m) L) as Hin by (rewrite El; apply in_elt). apply in_pairs in Hin. lia. }
    rewrite (get_mask_ok g h) by tauto. cbn [bind]. destruct (completeb g n m) eqn:Ec.
    + rewrite (mark_ok (num_n g)) by (auto; lia). cbn [bind].
      rewrite (mark_ok (num_n g)) by (rewrite ?set_nth_length; auto; lia). cbn [bind].
      rewrite (mark_ok (num_n g)) by (rewrite ?set_nth_length; auto; lia). cbn [bind].
      rewrite (mark_ok (num_n g)) by (rewrite ?set_nth_length; auto; lia).
      eexists. split; [reflexivity|]. rewrite !set_nth_length. split; auto.
      intros i j [Hi Hj].
      rewrite (nth_mark (N := num_n g)) by (rewrite ?set_nth_length; auto; lia).
      rewrite (nth_mark (N := num_n g)) by (rewrite ?set_nth_length; auto; lia).
      rewrite (nth_mark (N := num_n g)) by (rewrite ?set_nth_length; auto; lia).
      rewrite (nth_mark (N := num_n g)) by (rewrite ?set_nth_length; auto; lia).
      rewrite Hc by (split; auto). unfold covered. split.
      * intros Hd.
        assert (Hx : corner_of n m i j \/ exists n m, In (n, m) l1 /\ completeb g n m = true /\ corner_of n m i j).
        { destruct Hd as [E|[E|[E|[E|Hd]]]]; [left..|right; exact Hd]; injection E as -> ->; split; auto. }
        destruct Hx as [Hx|(a & b & ? & ? & ?)]; [exists n, m|exists a, b]; rewrite in_app_iff; cbn; auto.
      * intros (a & b & Hin & Hab & Hco). apply in_app_iff in Hin as [Hin|[E|[]]].
        -- do 4 right. exists a, b. auto.
        -- injection E as -> ->. destruct Hco as [[->| ->] [->| ->]]; auto.
    + eexists. split; [reflexivity|]. split; auto. intros i j Hs. rewrite Hc by auto. unfold covered. split.
      * intros (a & b & ? & ? & ?). exists a, b. rewrite in_app_iff. auto.
      * intros (a & b & Hin & ? & ?). apply in_app_iff in Hin as [Hin|[E|[]]]; [exists a, b; auto|]. injection E as -> ->. congruence.
  - split; [apply repeat_length|]. intros i j _. split.
    + intros E. rewrite <- nth_default_eq in E. unfold nth_default in E.
      destruct (nth_error (repeat false _) _) eqn:Ee; [|discriminate]. apply nth_error_In, repeat_spec in Ee. congruence.
    + intros (a & b & [] & _).
  - exists mask. split; [exact Hf|]. split; auto. intros i j Hs. rewrite Hc by auto. unfold covered, in_cell. split.
    + intros (a & b & Hin & ? & ?). apply in_pairs in Hin. exists a, b. rewrite complete_b. split; auto. split; [lia|]. split; [lia|auto].
    + intros (a & b & Hcm & ?). apply complete_b in Hcm as (? & ? & ?). exists a, b. split; auto. apply in_pairs. lia.
Qed.

(** *** One round *)
Definition gindex_dec (a b : gindex) : {a = b} + {a <> b}.
Proof. decide equality; apply Nat.eq_dec. Defined.
Definition memb (x : gindex) (l : list gindex) : bool := if in_dec gindex_dec x l then true else false.

Lemma missing_invalid : is_valid missing_point = false.
Proof. vm_compute. reflexivity. Qed.

(** What one round, and in the end RemoveInvalidNodes, does to the visible nodes. *)
Definition swept g h : Prop :=
  forall n m, shown g n m ->
    (in_cell g n m -> vis h n m = vis g n m) /\
    (~ in_cell g n m -> vis h n m = if is_valid (vis g n m) then missing_point else vis g n m).

Lemma round_ok g h : gwf g -> same_frame g h -> gnodes h = gnodes g -> mask_right g h ->
  exists mask k b, valid_node_mask h = Ok mask /\
    fold_out (remove_unmarked mask) (pairs 0 (num_n h) 0 (num_m h)) (h, false) = Ok (k, b) /\
    same_frame g k /\ ntypes k = ntypes h /\ fmask k = fmask h /\ same_hidden g k /\ swept g k /\
    (b = true <-> exists n m, shown g n m /\ is_valid (vis g n m) = true /\ ~ in_cell g n m).
Proof.
  intros H F Hn Hm. destruct (valid_node_mask_ok g h H F Hm) as (mask & Hv & Hl & Hmask).
  exists mask. rewrite (sf_num_n _ _ F), (sf_num_m _ _ F).
  set (L := pairs 0 (num_n g) 0 (num_m g)).
  destruct (fold_pre (remove_unmarked mask)
    (fun l1 kb => same_frame g (fst kb) /\ ntypes (fst kb) = ntypes h /\ fmask (fst kb) = fmask h /\ same_hidden g (fst kb) /\
       (forall n m, shown g n m ->
          vis (fst kb) n m = if is_valid (vis g n m) && negb (nth (n * num_m g + m) mask false) && memb (n, m) l1 then missing_point else vis g n m) /\
       (snd kb = true <-> exists n m, In (n, m) l1 /\ is_valid (vis g n m) = true /\ nth (n * num_m g + m) mask false = false))
    L (h, false)) as ([k b] & Hf & F' & Ht & Hfm & Hh & He & Hb).
  - intros l1 [n m] l2 [k b] El (F' & Ht & Hfm & Hh & He & Hb). cbn [fst snd] in *.
    assert (B : shown g n m).
    { assert (In (n, m) L) as Hin by (rewrite El; apply in_elt). apply in_pairs in Hin. split; lia. }
    assert (Hnot : ~ In (n, m) l1).
    { pose proof (pairs_nodup 0 (num_n g) 0 (num_m g)) as Nd. fold L in Nd. rewrite El in Nd. apply NoDup_remove_2 in Nd.
      intros Hin. apply Nd, in_app_iff. auto. }
    assert (Hnm : n * num_m g + m < length mask) by (rewrite Hl; destruct B; nia).
    unfold remove_unmarked. cbn [fst snd]. rewrite (sf_num_m _ _ F').
    assert (Eg : vget mask (n * num_m g + m) = Ok (nth (n * num_m g + m) mask false)).
    { apply vget_ok. apply nth_error_nth'. auto. }
    rewrite Eg. cbn [bind].
    assert (Hstep : forall i j, (i, j) <> (n, m) ->
       memb (i, j) (l1 ++ [(n, m)]) =
       memb (i, j) l1).
    { intros i j Hij. unfold memb. destruct (in_dec _ _ (l1 ++ _)) as [Hi|Hi], (in_dec _ _ l1) as [Hj|Hj]; auto; rewrite in_app_iff in Hi; cbn in Hi;
      [destruct Hi as [?|[?|[]]]; congruence|tauto]. }
    assert (Hin1 : memb (n, m) (l1 ++ [(n, m)]) = true).
    { unfold memb. destruct (in_dec gindex_dec (n, m) (l1 ++ [(n, m)])) as [Hi|Hi]; auto. exfalso. apply Hi, in_elt. }
    assert (Hin0 : memb (n, m) l1 = false).
    { unfold memb. destruct (in_dec gindex_dec (n, m) l1) as [Hi|Hi]; auto. exfalso; exact (Hnot Hi). }
    destruct (nth (n * num_m g + m) mask false) eqn:Ek.
    + eexists. split; [reflexivity|]. cbn [fst snd]. do 4 (split; auto). split.
      * intros i j Hs. rewrite He by auto. destruct (gindex_dec (i, j) (n, m)) as [E|E].
        -- injection E as -> ->. rewrite Ek, !andb_false_r. reflexivity.
        -- rewrite Hstep by auto. reflexivity.
      * rewrite Hb. split; intros (a & c & Hin & ? & ?).
        -- exists a, c. rewrite in_app_iff. auto.
        -- apply in_app_iff in Hin as [Hin|[E|[]]]; [exists a, c; auto|]. injection E as -> ->. congruence.
    + rewrite node_valid_ok; [|eapply sf_gwf; eauto|apply (sf_shown g k); auto]. cbn [bind].
      assert (Ev : vis k n m = vis g n m) by (rewrite He by auto; rewrite Hin0, andb_false_r; reflexivity).
      rewrite Ev. destruct (is_valid (vis g n m)) eqn:Evv.
      * rewrite set_node_ok; [|eapply sf_gwf; eauto|apply (sf_shown g k); auto]. cbn [bind].
        eexists. split; [reflexivity|]. cbn [fst snd]. split; [eapply sf_trans; [eauto|apply sf_put]|].
        split; [exact Ht|]. split; [exact Hfm|]. split; [eapply hidden_trans; eauto; apply hidden_put; apply (sf_shown g k); auto|]. split.
        -- intros i j Hs. destruct (gindex_dec (i, j) (n, m)) as [E|E].
           ++ injection E as -> ->. rewrite vis_put_same, Evv, Ek. unfold gindex in *. rewrite Hin1. reflexivity.
           ++ rewrite vis_put_other by auto. rewrite He, Hstep by auto. reflexivity.
        -- split; auto. intros _. exists n, m. rewrite in_app_iff. cbn. auto.
      * eexists. split; [reflexivity|]. cbn [fst snd]. do 4 (split; auto). split.
        -- intros i j Hs. rewrite He by auto. destruct (gindex_dec (i, j) (n, m)) as [E|E].
           ++ injection E as -> ->. rewrite Evv. reflexivity.
           ++ rewrite Hstep by auto. reflexivity.
        -- rewrite Hb. split; intros (a & c & Hin & ? & ?).
           ++ exists a, c. rewrite in_app_iff. auto.
           ++ apply in_app_iff in Hin as [Hin|[E|[]]]; [exists a, c; auto|]. injection E as -> ->. congruence.
  - cbn [fst snd]. split; auto. split; auto. split; auto. split; [intros a b _; rewrite Hn; reflexivity|]. split.
    + intros n m Hs. rewrite (vis_same_nodes g h) by auto. unfold memb. destruct (in_dec _ _ []) as [[]|_]. rewrite andb_false_r. reflexivity.
    + split; [discriminate|]. intros (a & c & [] & _).
  - cbn [fst snd] in *. exists k, b. split; auto. split; [exact Hf|]. do 4 (split; auto). split.
    + intros n m Hs. specialize (He n m Hs).
      unfold memb in He. destruct (in_dec gindex_dec (n, m) L) as [_|Hx]; [|exfalso; apply Hx; apply in_pairs; destruct Hs; lia]. rewrite andb_true_r in He.
      specialize (Hmask n m Hs). destruct (nth (n * num_m g + m) mask false).
      * rewrite andb_false_r in He. rewrite He. split; [auto|]. intros Hc. exfalso. apply Hc, Hmask. reflexivity.
      * rewrite andb_true_r in He. rewrite He. split; [|auto]. intros Hc. apply Hmask in Hc. discriminate.
    + rewrite Hb. split.
      * intros (n & m & Hin & ? & Hx). assert (Hs : shown g n m) by (apply in_pairs in Hin; split; lia).
        exists n, m. split; auto. split; auto. rewrite <- (Hmask n m Hs), Hx. discriminate.
      * intros (n & m & Hs & ? & Hx). exists n, m. split; [apply in_pairs; destruct Hs; lia|]. split; auto.
        destruct (nth _ mask false) eqn:E; auto. exfalso. apply Hx, (Hmask n m Hs). auto.
Qed.

(** *** RemoveInvalidNodes *)
Lemma swept_valid g h n m : swept g h -> shown g n m -> is_valid (vis h n m) = true -> in_cell g n m.
Proof.
  intros Hs Hnm Hv.
  assert (D : in_cell g n m \/ ~ in_cell g n m).
  { unfold in_cell, complete, corner_of.
    assert (Dec : forall a b, {complete g a b} + {~ complete g a b}).
    { intros a b. destruct (lt_dec (a + 1) (num_n g)), (lt_dec (b + 1) (num_m g)), (bool_dec (completeb g a b) true);
      try (left; apply complete_b; auto; fail); right; rewrite complete_b; tauto. }
    set (cand := [(n, m); (n - 1, m); (n, m - 1); (n - 1, m - 1)]).
    assert (G : forall a b, corner_of a b n m -> In (a, b) cand).
    { unfold cand, corner_of. cbn. intros a b [[?|?] [?|?]]; subst;
        repeat (rewrite ?Nat.add_sub); auto. }
    destruct (Exists_dec (fun ab => complete g (fst ab) (snd ab) /\ corner_of (fst ab) (snd ab) n m) cand) as [E|E].
    - intros [a b]. cbn [fst snd]. destruct (Dec a b) as [Hc|Hc]; [|right; tauto].
      unfold corner_of. destruct (Nat.eq_dec n a), (Nat.eq_dec n (a + 1)), (Nat.eq_dec m b), (Nat.eq_dec m (b + 1));
        try (left; split; auto; fail); right; intros [_ [[?|?] [?|?]]]; congruence.
    - left. apply Exists_exists in E as ([a b] & _ & Hab). exists a, b. exact Hab.
    - right. intros (a & b & Hab & Hc). apply E, Exists_exists. exists (a, b). split; auto. }
  destruct D as [D|D]; auto. exfalso. destruct (Hs n m Hnm) as [_ H2]. rewrite (H2 D) in Hv.
  destruct (is_valid (vis g n m)) eqn:E; [rewrite missing_invalid in Hv|]; congruence.
Qed.

Lemma corner_in g n m i j : complete g n m -> corner_of n m i j -> in_cell g i j.
Proof. intros. exists n, m. auto. Qed.

(** Sweeping changes no complete cell. *)
Lemma swept_complete g h n m : same_frame g h -> swept g h -> complete h n m <-> complete g n m.
Proof.
  intros F Hs. unfold complete. rewrite (sf_num_n _ _ F), (sf_num_m _ _ F). split.
  - intros (Hn & Hm & H1 & H2 & H3 & H4). split; auto. split; auto.
    assert (V : forall i j, shown g i j -> is_valid (vis h i j) = true -> is_valid (vis g i j) = true).
    { intros i j Hij Hv. pose proof (swept_valid g h i j Hs Hij Hv) as Hc. destruct (Hs i j Hij) as [E _]. rewrite <- (E Hc). exact Hv. }
    repeat split; apply V; auto; split; lia.
  - intros Hc0. pose proof Hc0 as (Hn & Hm & H1 & H2 & H3 & H4). split; auto. split; auto.
    assert (Hcc : complete g n m) by exact Hc0.
    assert (V : forall i j, corner_of n m i j -> is_valid (vis g i j) = true -> is_valid (vis h i j) = true).
    { intros i j Hij Hv. assert (shown g i j) by (destruct Hij as [[?|?] [?|?]]; subst; split; lia).
      destruct (Hs i j ltac:(auto)) as [E _]. rewrite E; auto. exists n, m. auto. }
    repeat split; apply V; auto; split; auto.
Qed.

Lemma swept_in_cell g h i j : same_frame g h -> swept g h -> in_cell h i j <-> in_cell g i j.
Proof.
  intros F Hs. unfold in_cell. split; intros (n & m & Hc & ?); exists n, m; split; auto; apply (swept_complete g h); auto.
Qed.

Lemma mask_right_swept g h k : same_frame g k -> swept g k -> mask_right k h -> mask_right g h.
Proof.
  intros F Hs (Hr & Hc & He). unfold mask_right. rewrite <- (sf_rows _ _ F), <- (sf_cols _ _ F). split; auto. split; auto.
  intros n m Hn Hm. rewrite <- (sf_sn _ _ F), <- (sf_sm _ _ F). rewrite He by (rewrite ?(sf_num_n _ _ F), ?(sf_num_m _ _ F); auto).
  apply Bool.eq_true_iff_eq. pose proof (swept_complete g k n m F Hs) as E. rewrite !complete_b in E.
  rewrite (sf_num_n _ _ F), (sf_num_m _ _ F) in E. tauto.
Qed.

Lemma remove_invalid_ok g fuel : gwf g ->
  exists h, remove_invalid (S (S fuel)) true g = Ok h /\ same_frame g h /\ ntypes h = ntypes g /\ same_hidden g h /\ swept g h /\
    mask_right g h.
Proof.
  intros H. cbn [remove_invalid negb].
  destruct (compute_faces_mask_ok g H) as (g1 & -> & F1 & N1 & T1 & M1). cbn [bind].
  destruct (round_ok g g1 H F1 N1 M1) as (mask & k & b & Hv & Hf & F2 & T2 & M2 & Hh & Hs & Hb).
  rewrite Hv. cbn [bind]. rewrite Hf. cbn [bind].
  assert (Mk : mask_right g k) by (unfold mask_right in *; rewrite M2; exact M1).
  destruct b.
  2:{ cbn [negb]. exists k. split; [destruct fuel; reflexivity|]. split; auto. split; [congruence|]. auto. }
  cbn [negb]. assert (Hk : gwf k) by (eapply sf_gwf; eauto).
  destruct (compute_faces_mask_ok k Hk) as (g2 & -> & F3 & N3 & T3 & M3). cbn [bind].
  destruct (round_ok k g2 Hk F3 N3 M3) as (mask2 & k2 & b2 & Hv2 & Hf2 & F4 & T4 & M4 & Hh2 & Hs2 & Hb2).
  rewrite Hv2. cbn [bind]. rewrite Hf2. cbn [bind].
  assert (b2 = false) as ->.
  { destruct b2; auto. exfalso. destruct (proj1 Hb2 eq_refl) as (n & m & Hnm & Hval & Hnot). apply Hnot.
    apply (swept_in_cell g k); auto. apply (swept_valid g k); auto. apply (sf_shown g k); auto. }
  exists k2. split; [destruct fuel; reflexivity|]. split; [eapply sf_trans; eauto|]. split; [congruence|].
  split; [eapply hidden_trans; eauto|]. split.
  - intros n m Hnm. assert (Hnm' : shown k n m) by (apply (sf_shown g k); auto).
    assert (Hval : is_valid (vis k n m) = true -> in_cell k n m).
    { intros Hval. apply (swept_in_cell g k); auto. apply (swept_valid g k); auto. }
    destruct (Hs n m Hnm) as [A B], (Hs2 n m Hnm') as [A2 B2].
    assert (E : vis k2 n m = vis k n m).
    { destruct (is_valid (vis k n m)) eqn:Ev; [apply A2; auto|].
      apply B2. intros (a & c & Hc & Hco). destruct Hc as (_ & _ & V1 & V2 & V3 & V4).
      destruct Hco as [[->| ->] [->| ->]]; congruence. }
    rewrite E. auto.
  - pose proof (mask_right_swept g g2 k F2 Hs M3) as Q. unfold mask_right in *. rewrite M4. exact Q.
Qed.

(** On a grid without stray nodes nothing happens to the nodes. *)
Lemma swept_clean g h : swept g h -> clean g -> forall n m, shown g n m -> vis h n m = vis g n m.
Proof.
  intros Hs Hc n m Hnm. destruct (Hs n m Hnm) as [A B].
  destruct (is_valid (vis g n m)) eqn:E; [apply A, Hc; auto|].
  apply B. intros (a & c & (_ & _ & V1 & V2 & V3 & V4) & Hco). destruct Hco as [[->| ->] [->| ->]]; congruence.
Qed.

Lemma swept_is_clean g h : same_frame g h -> swept g h -> clean h.
Proof.
  intros F Hs i j Hij Hv. apply (swept_in_cell g h); auto. apply (swept_valid g h); auto. apply (sf_shown g h); auto.
Qed.

(** *** ComputeGridNodeTypes *)
Lemma classify_ntypes g x n m : classify (set_ntypes g x) n m = classify g n m.
Proof. reflexivity. Qed.

(** The type that ComputeGridNodeTypes computes, as a function of which cells are complete and which nodes are valid. *)
Lemma classify_ok g h n m : gwf g -> same_frame g h -> gnodes h = gnodes g -> mask_right g h -> shown g n m ->
  exists t, classify h n m = Ok t.
Proof.
  intros H F Hn Hm Hs. unfold classify.
  assert (Hh : gwf h) by (eapply sf_gwf; eauto).
  assert (V : forall i j, shown g i j -> node_valid h i j = Ok (is_valid (vis h i j))).
  { intros. apply node_valid_ok; auto. apply (sf_shown g h); auto. }
  pose proof Hs as [Hs1 Hs2].
  rewrite V by auto. cbn [bind]. destruct (negb _); [eauto|].
  rewrite (sf_num_n _ _ F), (sf_num_m _ _ F).
  destruct (Nat.eqb_spec m 0) as [->|Hm0].
  { destruct (Nat.eqb_spec n 0); [eauto|]. destruct (Nat.eqb_spec n (num_n g - 1)); [eauto|].
    rewrite V by (split; lia). cbn [bind]. destruct (negb _); [eauto|]. rewrite V by (split; lia). cbn. eauto. }
  destruct (Nat.eqb_spec m (num_m g - 1)).
  { destruct (Nat.eqb_spec n 0); [eauto|]. destruct (Nat.eqb_spec n (num_n g - 1)); [eauto|].
    rewrite V by (split; lia). cbn [bind]. destruct (negb _); [eauto|]. rewrite V by (split; lia). cbn. eauto. }
  destruct (Nat.eqb_spec n 0).
  { rewrite V by (split; lia). cbn [bind]. destruct (negb _); [eauto|]. rewrite V by (split; lia). cbn. eauto. }
  destruct (Nat.eqb_spec n (num_n g - 1)).
  { rewrite V by (split; lia). cbn [bind]. destruct (negb _); [eauto|]. rewrite V by (split; lia). cbn. eauto. }
  rewrite !(get_mask_ok g h) by (auto; lia). cbn [bind]. eauto.
Qed.

Definition types_right g (h : grid) : Prop :=
  mrows (ntypes h) = mrows (gnodes g) /\ mcols (ntypes h) = mcols (gnodes g) /\
  forall n m, shown g n m -> exists t, classify h n m = Ok t /\
    entry (ntypes h) (start_n g + n) (start_m g + m) = match t with Some t => t | None => Invalid end.

Lemma compute_node_types_ok g : gwf g ->
  exists h, compute_node_types g = Ok h /\ same_frame g h /\ same_hidden g h /\ swept g h /\ mask_right h h /\ types_right h h.
Proof.
  intros H. unfold compute_node_types. destruct (remove_invalid_ok g 1 H) as (h & -> & F & Ht & Hh & Hs & Hm). cbn [bind].
  assert (Hg : gwf h) by (eapply sf_gwf; eauto).
  assert (Mh : mask_right h h).
  { destruct Hm as (Hr & Hc & He). split; [rewrite (sf_rows _ _ F); auto|]. split; [rewrite (sf_cols _ _ F); auto|].
    intros n m Hn Hm'. rewrite (sf_num_n _ _ F) in Hn. rewrite (sf_num_m _ _ F) in Hm'.
    rewrite (sf_sn _ _ F), (sf_sm _ _ F), He by auto. apply Bool.eq_true_iff_eq.
    pose proof (swept_complete g h n m F Hs) as E. rewrite !complete_b in E. rewrite (sf_num_n _ _ F), (sf_num_m _ _ F) in E. tauto. }
  assert (E : exists x b, resize_and_fill (fun _ _ => Invalid) (ntypes h) (Z.of_nat (full_n h)) (Z.of_nat (full_m h)) false Invalid = Ok (x, b)
            /\ mrows x = mrows (gnodes h) /\ mcols x = mcols (gnodes h) /\ forall i j, entry x i j = Invalid).
  { unfold resize_and_fill, full_n, full_m.
    destruct (Z.ltb_spec (Z.of_nat (mrows (gnodes h))) 0); [lia|].
    destruct (Z.ltb_spec (Z.of_nat (mcols (gnodes h))) 0); [lia|]. cbn [orb]. rewrite !Nat2Z.id.
    destruct (Nat.eqb_spec (mrows (gnodes h)) (mrows (ntypes h))), (Nat.eqb_spec (mcols (gnodes h)) (mcols (ntypes h))); cbn [negb orb andb];
      eexists _, _; (split; [reflexivity|]); cbn; repeat split; auto. }
  destruct E as (x & b & -> & Hr & Hc & Hx). cbn [bind].
  set (L := pairs 0 (num_n h) 0 (num_m h)).
  destruct (fold_pre (fun g nm =>
              let! t := classify g (fst nm) (snd nm) in
              match t with Some t => set_type g (fst nm) (snd nm) t | None => Ok g end)
    (fun l1 k => (exists x', k = set_ntypes h x' /\ mrows x' = mrows (gnodes h) /\ mcols x' = mcols (gnodes h) /\
       forall n m, shown h n m -> In (n, m) l1 -> exists t, classify h n m = Ok t /\
         entry x' (start_n h + n) (start_m h + m) = match t with Some t => t | None => Invalid end) /\
       forall n m, ~ In (n, m) l1 -> entry (ntypes k) (start_n h + n) (start_m h + m) = Invalid)
    L (set_ntypes h x)) as (k & Hf & (x' & -> & Hr' & Hc' & He) & _).
  - intros l1 [n m] l2 k El ((x' & -> & Hr' & Hc' & He) & Ho). cbn [fst snd] in *.
    assert (B : shown h n m).
    { assert (In (n, m) L) as Hin by (rewrite El; apply in_elt). apply in_pairs in Hin. split; lia. }
    assert (Hnot : ~ In (n, m) l1).
    { pose proof (pairs_nodup 0 (num_n h) 0 (num_m h)) as Nd. fold L in Nd. rewrite El in Nd. apply NoDup_remove_2 in Nd.
      intros Hin. apply Nd, in_app_iff. auto. }
    rewrite classify_ntypes.
    destruct (classify_ok h h n m Hg (sf_refl h) eq_refl Mh B) as (t & Et). rewrite Et. cbn [bind]. destruct t as [t|].
    + unfold set_type. cbn [set_ntypes ntypes].
      destruct (vis_bounds h n m Hg B) as (_ & _ & A1 & A2).
      rewrite mat_set_ok by (cbn [set_ntypes start_n start_m]; rewrite ?Hr', ?Hc'; auto). cbn [bind set_ntypes start_n start_m].
      eexists. split; [reflexivity|]. split.
      * eexists. split; [reflexivity|]. split; [auto|]. split; [auto|]. intros i j Hij Hin. cbn [entry].
        destruct (gindex_dec (i, j) (n, m)) as [E|E].
        -- injection E as -> ->. exists (Some t). rewrite put_same. auto.
        -- rewrite put_other by (intros Q; injection Q as Q1 Q2; apply E; f_equal; lia).
           apply He; auto. apply in_app_iff in Hin as [?|[?|[]]]; auto. congruence.
      * intros i j Hnin. cbn [set_ntypes ntypes entry]. rewrite put_other.
        -- apply Ho. intros Hi. apply Hnin, in_app_iff. auto.
        -- intros Q. apply Hnin, in_app_iff. right. left. injection Q as Q1 Q2. f_equal; lia.
    + eexists. split; [reflexivity|]. split.
      * exists x'. split; [reflexivity|]. split; [auto|]. split; [auto|]. intros i j Hij Hin.
        apply in_app_iff in Hin as [Hin|[E|[]]]; [apply He; auto|]. injection E as <- <-. exists None. split; [auto|].
        apply (Ho n m Hnot).
      * intros i j Hnin. apply Ho. intros Hi. apply Hnin, in_app_iff. auto.
  - split; [|intros; cbn; apply Hx]. exists x. split; [reflexivity|]. split; auto. split; auto. intros n m _ [].
  - exists (set_ntypes h x'). split; [exact Hf|]. split; [eapply sf_trans; [eauto|apply sf_ntypes]|]. split; [exact Hh|].
    split; [exact Hs|]. split; [exact Mh|]. split; [exact Hr'|]. split; [exact Hc'|].
    intros n m Hnm. destruct (He n m Hnm) as (t & Et & Ee); [apply in_pairs; destruct Hnm; unfold num_n, num_m in *; cbn in *; lia|].
    exists t. split; [exact Et|exact Ee].
Qed.

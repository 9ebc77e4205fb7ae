(** C60: deleting what is outside a polygon keeps exactly the nodes of the cells inside. *)
From Verif Require Import Base BaseLemmas FloatModel UtilModel UtilProofs UndoModel ActionModel GridModel GridSpec GridProofs GridClean GridEdits.

Section Outside.
  Variable g : grid.
  Hypothesis W : gwf g.
  Variable inside : point -> outcome bool.
  Variable ins : point -> bool.
  Hypothesis Hins : forall i j, shown g i j -> inside (vis g i j) = Ok (ins (vis g i j)).

  Let N := num_n g.
  Let M := num_m g.

  Lemma nth_repeat_false i k : nth i (repeat false k) false = true -> False.
  Proof. revert i. induction k; intros [|i]; cbn; try discriminate. apply IHk. Qed.

  Lemma node_mask_ok : exists mask,
    fold_out (fun mask ij =>
                let! p := get_node g (fst ij) (snd ij) in
                let! b := inside p in
                if b then mark M mask (fst ij) (snd ij) else Ok mask)
             (pairs 0 N 0 M) (repeat false (N * M)) = Ok mask /\
    length mask = N * M /\ forall i j, i < N -> j < M -> nth (i * M + j) mask false = true <-> ins (vis g i j) = true.
  Proof.
    destruct (fold_pre (fun mask ij =>
                let! p := get_node g (fst ij) (snd ij) in
                let! b := inside p in
                if b then mark M mask (fst ij) (snd ij) else Ok mask)
      (fun l1 mask => length mask = N * M /\
         forall i j, i < N -> j < M -> nth (i * M + j) mask false = true <-> (In (i, j) l1 /\ ins (vis g i j) = true))
      (pairs 0 N 0 M) (repeat false (N * M))) as (mask & Hf & Hl & He).
    - intros l1 [n m] l2 mask El [Hl He]. cbn [fst snd].
      assert (B : n < N /\ m < M).
      { assert (In (n, m) (pairs 0 N 0 M)) as Hin by (rewrite El; apply in_elt). apply in_pairs in Hin. lia. }
      destruct B as [Bn Bm]. rewrite get_node_ok by (auto; split; auto). cbn [bind]. rewrite Hins by (split; auto). cbn [bind].
      destruct (ins (vis g n m)) eqn:V.
      + rewrite (mark_ok N) by auto. eexists. split; [reflexivity|]. rewrite set_nth_length. split; auto. intros i j Hi Hj.
        rewrite (nth_mark (N := N)) by auto. rewrite He by auto. rewrite in_app_iff. cbn. split.
        * intros [E|[? ?]]; [injection E as -> ->|]; auto.
        * intros [[?|[E|[]]] ?]; auto.
      + eexists. split; [reflexivity|]. split; auto. intros i j Hi Hj. rewrite He by auto. rewrite in_app_iff. cbn. split; [tauto|].
        intros [[?|[E|[]]] ?]; auto. injection E as -> ->. congruence.
    - split; [apply repeat_length|]. intros i j _ _. split; [intros E; destruct (nth_repeat_false _ _ E)|intros [[] _]].
    - exists mask. split; [exact Hf|]. split; auto. intros i j Hi Hj. rewrite He by auto. rewrite in_pairs. intuition lia.
  Qed.

  Lemma vget_nth {A} (l : list A) i d : i < length l -> vget l i = Ok (nth i l d).
  Proof. intros H. unfold vget. rewrite (nth_error_nth' l d H). reflexivity. Qed.

  Definition all_in n m : bool := ins (vis g n m) && ins (vis g (n + 1) m) && ins (vis g n (m + 1)) && ins (vis g (n + 1) (m + 1)).

  Lemma cell_mask_ok mask : length mask = N * M ->
    (forall i j, i < N -> j < M -> nth (i * M + j) mask false = true <-> ins (vis g i j) = true) ->
    let corner ij k := vget mask ((fst ij + fst k) * M + (snd ij + snd k)) in
    exists keep, fold_out (fun kept (ij : gindex) =>
                             let! a := corner ij (0, 0) in
                             let! b := corner ij (1, 0) in
                             let! c := corner ij (0, 1) in
                             let! d := corner ij (1, 1) in
                             if negb (a && b && c && d) then Ok kept
                             else
                               let! kept := mark M kept (fst ij) (snd ij) in
                               let! kept := mark M kept (fst ij + 1) (snd ij) in
                               let! kept := mark M kept (fst ij) (snd ij + 1) in
                               mark M kept (fst ij + 1) (snd ij + 1))
                          (pairs 0 (N - 1) 0 (M - 1)) (repeat false (N * M)) = Ok keep /\
      length keep = N * M /\ forall i j, i < N -> j < M -> nth (i * M + j) keep false = true <-> in_inside_cell g ins i j.
  Proof.
    intros Hl He corner.
    destruct (fold_pre (fun kept (ij : gindex) =>
                             let! a := corner ij (0, 0) in
                             let! b := corner ij (1, 0) in
                             let! c := corner ij (0, 1) in
                             let! d := corner ij (1, 1) in
                             if negb (a && b && c && d) then Ok kept
                             else
                               let! kept := mark M kept (fst ij) (snd ij) in
                               let! kept := mark M kept (fst ij + 1) (snd ij) in
                               let! kept := mark M kept (fst ij) (snd ij + 1) in
                               mark M kept (fst ij + 1) (snd ij + 1))
      (fun l1 keep => length keep = N * M /\
         forall i j, i < N -> j < M -> nth (i * M + j) keep false = true <->
           exists n m, In (n, m) l1 /\ all_in n m = true /\ corner_of n m i j)
      (pairs 0 (N - 1) 0 (M - 1)) (repeat false (N * M))) as (keep & Hf & Kl & Ke).
    - intros l1 [n m] l2 keep El [Kl Ke]. cbn [fst snd].
      assert (B : n + 1 < N /\ m + 1 < M).
      { assert (In (n, m) (pairs 0 (N - 1) 0 (M - 1))) as Hin by (rewrite El; apply in_elt). apply in_pairs in Hin. lia. }
      destruct B as [Bn Bm].
      assert (Hv : forall a b, a < N -> b < M -> vget mask (a * M + b) = Ok (ins (vis g a b))).
      { intros a b Ha Hb. rewrite (vget_nth _ _ false) by (rewrite Hl; nia). f_equal. apply Bool.eq_true_iff_eq. apply He; auto. }
      unfold corner. cbn [fst snd]. rewrite !Nat.add_0_r. rewrite !Hv by lia. cbn [bind].
      change (ins (vis g n m) && ins (vis g (n + 1) m) && ins (vis g n (m + 1)) && ins (vis g (n + 1) (m + 1))) with (all_in n m).
      destruct (all_in n m) eqn:Ea; cbn [negb].
      + rewrite (mark_ok N) by (auto; lia). cbn [bind].
        rewrite (mark_ok N) by (rewrite ?set_nth_length; auto; lia). cbn [bind].
        rewrite (mark_ok N) by (rewrite ?set_nth_length; auto; lia). cbn [bind].
        rewrite (mark_ok N) by (rewrite ?set_nth_length; auto; lia).
        eexists. split; [reflexivity|]. rewrite !set_nth_length. split; auto. intros i j Hi Hj.
        rewrite !(nth_mark (N := N)) by (rewrite ?set_nth_length; auto; lia). rewrite Ke by auto. split.
        * intros Hd.
          assert (Hx : corner_of n m i j \/ exists n m, In (n, m) l1 /\ all_in n m = true /\ corner_of n m i j).
          { destruct Hd as [E|[E|[E|[E|Hd]]]]; [left..|right; exact Hd]; injection E as -> ->; split; auto. }
          destruct Hx as [Hx|(a & b & ? & ? & ?)]; [exists n, m|exists a, b]; rewrite in_app_iff; cbn; auto.
        * intros (a & b & Hin & Hab & Hco). apply in_app_iff in Hin as [Hin|[E|[]]].
          -- do 4 right. exists a, b. auto.
          -- injection E as -> ->. destruct Hco as [[->| ->] [->| ->]]; auto.
      + eexists. split; [reflexivity|]. split; auto. intros i j Hi Hj. rewrite Ke by auto. split.
        * intros (a & b & ? & ? & ?). exists a, b. rewrite in_app_iff. auto.
        * intros (a & b & Hin & ? & ?). apply in_app_iff in Hin as [Hin|[E|[]]]; [exists a, b; auto|]. injection E as -> ->. congruence.
    - split; [apply repeat_length|]. intros i j _ _. split; [intros E; destruct (nth_repeat_false _ _ E)|intros (a & b & [] & _)].
    - exists keep. split; [exact Hf|]. split; auto. intros i j Hi Hj. rewrite Ke by auto. unfold in_inside_cell. split.
      + intros (a & b & Hin & Ha & Hco). apply in_pairs in Hin. exists a, b. fold N M. split; [lia|]. split; [lia|]. split; auto.
        unfold all_in in Ha. rewrite !andb_true_iff in Ha. intros x y [[->| ->] [->| ->]]; tauto.
      + intros (a & b & Ha & Hb & Hco & Hall). fold N in Ha. fold M in Hb. exists a, b. rewrite in_pairs. split; [lia|]. split; auto.
        unfold all_in. rewrite !andb_true_iff. unfold corner_of in Hall. repeat split; apply Hall; auto.
  Qed.

  Lemma delete_outside_ok : exists h, delete_outside inside g = Ok h /\ num_n h = num_n g /\ num_m h = num_m g /\
    forall i j, shown g i j ->
      (in_inside_cell g ins i j -> vis h i j = vis g i j) /\ (~ in_inside_cell g ins i j -> vis h i j = missing_point).
  Proof.
    unfold delete_outside.
    destruct (Nat.eqb_spec (mrows (gnodes g)) 0) as [?Z|?Z]; [unfold gwf in W; lia|]. destruct (Nat.eqb_spec (mcols (gnodes g)) 0) as [?Z|?Z]; [unfold gwf in W; lia|].
    cbn [orb]. fold N M. cbv zeta. destruct node_mask_ok as (mask & -> & Hl & He). cbn [bind].
    destruct (cell_mask_ok mask Hl He) as (keep & Ek & Kl & Ke). cbv zeta in Ek. unfold gindex in *. rewrite Ek. cbn [bind].
    destruct (fold_pre (fun g ij =>
                let! b := vget keep (fst ij * M + snd ij) in
                if b then Ok g else set_node g (fst ij) (snd ij) missing_point)
      (fun l1 h => same_frame g h /\ forall i j, i < N -> j < M ->
         vis h i j = if memb (i, j) l1 then if nth (i * M + j) keep false then vis g i j else missing_point else vis g i j)
      (pairs 0 N 0 M) g) as (h & Hf & F & Hv).
    - intros l1 [n m] l2 h El [F Hv]. cbn [fst snd].
      assert (B : n < N /\ m < M).
      { assert (In (n, m) (pairs 0 N 0 M)) as Hin by (rewrite El; apply in_elt). apply in_pairs in Hin. lia. }
      destruct B as [Bn Bm].
      assert (Nin : ~ In (n, m) l1).
      { pose proof (pairs_nodup 0 N 0 M) as Nd. rewrite El in Nd. apply NoDup_remove_2 in Nd. intros Hin. apply Nd, in_app_iff. auto. }
      rewrite (vget_nth _ _ false) by (rewrite Kl; nia). cbn [bind].
      assert (Hm' : forall i j, memb (i, j) (l1 ++ [(n, m)]) = memb (i, j) l1 || if gindex_dec (i, j) (n, m) then true else false).
      { intros i j. unfold memb. destruct (in_dec gindex_dec (i, j) (l1 ++ [(n, m)])) as [I|I]; rewrite in_app_iff in I; cbn in I.
        - destruct (in_dec gindex_dec (i, j) l1); auto. destruct (gindex_dec (i, j) (n, m)) as [E|E]; auto; exfalso; destruct I as [?|[?|[]]]; auto.
        - destruct (in_dec gindex_dec (i, j) l1); [tauto|]. destruct (gindex_dec (i, j) (n, m)) as [E|E]; auto; destruct I; right; left; congruence. }
      destruct (nth (n * M + m) keep false) eqn:Eb.
      + eexists. split; [reflexivity|]. split; auto. intros i j Hi Hj. rewrite Hv, Hm' by auto.
        destruct (gindex_dec (i, j) (n, m)) as [E|E]; [|rewrite orb_false_r; auto]. injection E as -> ->. rewrite Eb, orb_true_r.
        destruct (memb (n, m) l1); auto.
      + rewrite set_node_ok by (try (eapply sf_gwf; eauto); apply (sf_shown g h); auto; split; auto).
        eexists. split; [reflexivity|]. split; [eapply sf_trans; [exact F|apply sf_put]|]. intros i j Hi Hj. rewrite Hm'.
        destruct (gindex_dec (i, j) (n, m)) as [E|E].
        * injection E as -> ->. rewrite Eb, orb_true_r, vis_put_same. reflexivity.
        * rewrite orb_false_r, vis_put_other by exact E. apply Hv; auto.
    - split; [apply sf_refl|]. intros i j _ _. reflexivity.
    - exists h. split; [exact Hf|]. split; [apply sf_num_n; auto|]. split; [apply sf_num_m; auto|].
      intros i j [Hi Hj]. fold N M in Hi, Hj. rewrite Hv by auto.
      replace (memb (i, j) (pairs 0 N 0 M)) with true.
      2:{ unfold memb. destruct (in_dec gindex_dec (i, j) (pairs 0 N 0 M)) as [|Nn]; auto. destruct Nn. apply in_pairs. lia. }
      pose proof (Ke i j Hi Hj) as K. destruct (nth (i * M + j) keep false).
      + split; auto. intros X. destruct X. apply K. reflexivity.
      + split; auto. intros X. apply K in X. discriminate.
  Qed.
End Outside.

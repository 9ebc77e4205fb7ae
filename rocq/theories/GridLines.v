(** Adding grid lines and faces at the boundary; undo and redo any number of times. *)
From Verif Require Import Base BaseLemmas FloatModel UtilModel UtilProofs UndoModel ActionModel GridModel GridSpec GridProofs GridClean GridEdits.

(** The same stored nodes, hidden ones included. *)
Record same_store (g h : grid) : Prop := SameStore {
  st_rows : mrows (gnodes h) = mrows (gnodes g); st_cols : mcols (gnodes h) = mcols (gnodes g);
  st_sn : start_n h = start_n g; st_sm : start_m h = start_m g; st_en : end_n h = end_n g; st_em : end_m h = end_m g;
  st_entry : forall a b, a < mrows (gnodes g) -> b < mcols (gnodes g) -> entry (gnodes h) a b = entry (gnodes g) a b }.

Lemma st_refl g : same_store g g.
Proof. constructor; auto. Qed.
Lemma st_sym g h : same_store g h -> same_store h g.
Proof. intros []. constructor; auto. intros a b Ha Hb. symmetry. apply st_entry0; congruence. Qed.
Lemma st_trans g h k : same_store g h -> same_store h k -> same_store g k.
Proof. intros [] []. constructor; try congruence. intros a b Ha Hb. rewrite st_entry1 by congruence. auto. Qed.

Lemma st_num_n g h : same_store g h -> num_n h = num_n g.
Proof. intros []. unfold num_n, full_n. congruence. Qed.
Lemma st_num_m g h : same_store g h -> num_m h = num_m g.
Proof. intros []. unfold num_m, full_m. congruence. Qed.
Lemma st_gwf g h : same_store g h -> gwf g -> gwf h.
Proof. intros []. unfold gwf. rewrite st_rows0, st_cols0, st_sn0, st_sm0, st_en0, st_em0. auto. Qed.
Lemma shown_store g n m : shown g n m -> start_n g + n < mrows (gnodes g) /\ start_m g + m < mcols (gnodes g).
Proof. unfold shown, num_n, num_m, full_n, full_m. lia. Qed.
Lemma st_shown g h n m : same_store g h -> shown g n m -> shown h n m.
Proof. intros H. unfold shown. rewrite (st_num_n _ _ H), (st_num_m _ _ H). auto. Qed.
Lemma st_vis g h n m : same_store g h -> shown g n m -> vis h n m = vis g n m.
Proof.
  intros H Hs. apply shown_store in Hs. destruct H. unfold vis. rewrite st_sn0, st_sm0. apply st_entry0; tauto.
Qed.
Lemma st_view g h : same_store g h -> same_view g h.
Proof.
  intros H. split; [symmetry; apply st_num_n; auto|]. split; [symmetry; apply st_num_m; auto|].
  intros n m Hn Hm. symmetry. apply st_vis; auto. split; auto.
Qed.

Lemma sf_store g h : same_frame g h -> same_hidden g h -> (forall n m, shown g n m -> vis h n m = vis g n m) -> same_store g h.
Proof.
  intros F Hh Hv. pose proof F as []. constructor; auto. intros a b Ha Hb.
  assert (D : (start_n g <= a < start_n g + num_n g /\ start_m g <= b < start_m g + num_m g) \/
              ~ (start_n g <= a < start_n g + num_n g /\ start_m g <= b < start_m g + num_m g)) by lia.
  destruct D as [[D1 D2]|D]; [|apply Hh; auto].
  specialize (Hv (a - start_n g) (b - start_m g)). unfold shown, vis in Hv. rewrite sf_sn, sf_sm in Hv.
  replace (start_n g + (a - start_n g)) with a in Hv by lia. replace (start_m g + (b - start_m g)) with b in Hv by lia.
  apply Hv. lia.
Qed.

Lemma types_store g : gwf g -> clean g -> exists h, compute_node_types g = Ok h /\ same_store g h /\ same_frame g h /\ mask_right h h /\ types_right h h.
Proof.
  intros H Hc. destruct (types_clean g H Hc) as (h & E & F & Hh & Hv & Hm & Ht). exists h. split; [auto|].
  split; [apply sf_store; auto|]. auto.
Qed.

Lemma st_put g h n m p : same_store g h -> same_store (put_node g n m p) (put_node h n m p).
Proof.
  intros []. constructor; cbn [put_node set_gnodes gnodes mrows mcols start_n start_m end_n end_m entry]; auto.
  intros a b Ha Hb. rewrite st_sn0, st_sm0. destruct (gindex_dec (a, b) (start_n g + n, start_m g + m)) as [E|E].
  - injection E as -> ->. rewrite !put_same. reflexivity.
  - rewrite !put_other by auto. apply st_entry0; auto.
Qed.

Lemma st_put_back g n m p : same_store g (put_node (put_node g n m p) n m (vis g n m)).
Proof.
  constructor; cbn [put_node set_gnodes gnodes mrows mcols start_n start_m end_n end_m entry]; auto.
  intros a b Ha Hb. destruct (gindex_dec (a, b) (start_n g + n, start_m g + m)) as [E|E].
  - injection E as -> ->. rewrite put_same. reflexivity.
  - rewrite !put_other by auto. reflexivity.
Qed.

Lemma st_reindex g : exists h, reindex g = Ok h /\ same_store g h.
Proof. unfold reindex. rewrite compute_node_indices_ok. cbn [bind]. eexists. split; [reflexivity|]. constructor; auto. Qed.

Lemma st_clean g h : same_store g h -> clean g -> clean h.
Proof. intros H. apply view_clean, st_view; auto. Qed.

(** *** Growing by one line *)
Definition up_n t := match t with LineBottom => 1 | _ => 0 end.
Definition up_m t := match t with LineLeft => 1 | _ => 0 end.
Definition more_n t := match t with LineBottom | LineTop => 1 | _ => 0 end.
Definition more_m t := match t with LineLeft | LineRight => 1 | _ => 0 end.
Definition line_leaf t := match t with LineBottom => AddLine 1 0 0 0 | LineTop => AddLine 0 0 1 0 | LineLeft => AddLine 0 1 0 0 | LineRight => AddLine 0 0 0 1 end.
(** position (i, j) of the grown grid is on the new line *)
Definition on_line t (h : grid) i j : Prop :=
  match t with LineBottom => i = 0 | LineTop => i = num_n h - 1 | LineLeft => j = 0 | LineRight => j = num_m h - 1 end.
Definition on_lineb t (h : grid) i j : bool :=
  match t with LineBottom => i =? 0 | LineTop => i =? num_n h - 1 | LineLeft => j =? 0 | LineRight => j =? num_m h - 1 end.
Definition hide t (h : grid) : grid :=
  set_offsets h (start_n h + up_n t) (start_m h + up_m t) (end_n h + (more_n t - up_n t)) (end_m h + (more_m t - up_m t)).

Lemma nth_missing j k : nth j (repeat missing_point k) missing_point = missing_point.
Proof. apply nth_repeat. Qed.

Section Grow.
  Variable junk : nat -> nat -> point.

  Lemma grow_ok t g : gwf g ->
    exists h, grow junk t g = Ok (h, line_leaf t) /\ gwf h /\ proj h = proj g /\ num_n h = num_n g + more_n t /\ num_m h = num_m g + more_m t /\
      (forall i j, shown g i j -> vis h (i + up_n t) (j + up_m t) = vis g i j) /\
      same_view g (hide t h) /\
      (hidden_missing g -> hidden_missing h /\ forall i j, shown h i j -> on_line t h i j -> is_valid (vis h i j) = false).
  Proof.
    intros [W1 W2]. unfold hidden_missing. destruct t; cbn [grow line_leaf up_n up_m more_n more_m on_line].
    - unfold grow_bottom. destruct (Nat.eqb_spec (start_n g) 0) as [Z|Z].
      + destruct (proj1 (insert_row_spec junk (gnodes g) (repeat missing_point (full_m g)) missing_point 0)) as (x & -> & Rx & Cx & Ex);
          [lia|apply repeat_length|]. cbn [bind].
        eexists. split; [reflexivity|]. unfold hide, gwf, same_view, shown, vis, num_n, num_m, full_n, full_m in *.
        cbn [set_gnodes set_offsets gnodes start_n start_m end_n end_m proj up_n up_m more_n more_m].
        rewrite Z in *. do 4 (split; [lia || reflexivity|]).
        assert (E : forall i j, S i < mrows x -> j < mcols x -> entry x (S i) j = entry (gnodes g) i j).
        { intros i j Hi Hj. rewrite Ex by auto. destruct (Z.compare_spec (Z.of_nat (S i)) 0); try lia. f_equal; lia. }
        split; [|split].
        * intros i j Hij. replace (0 + (i + 1)) with (S i) by lia. rewrite E by lia. f_equal; lia.
        * split; [lia|]. split; [lia|]. intros i j Hi Hj. replace (0 + 1 + i) with (S i) by lia. rewrite E by lia. f_equal; lia.
        * intros Hm. split.
          -- intros a b Ha Hb Hab. destruct a as [|a].
             ++ rewrite Ex by lia. cbn. rewrite nth_missing. reflexivity.
             ++ rewrite E by lia. apply Hm; lia.
          -- intros i j Hij ->. rewrite Ex by lia. cbn. rewrite nth_missing. reflexivity.
      + cbn [bind]. eexists. split; [reflexivity|]. unfold hide, gwf, same_view, shown, vis, num_n, num_m, full_n, full_m in *.
        cbn [set_gnodes set_offsets gnodes start_n start_m end_n end_m proj up_n up_m more_n more_m].
        do 4 (split; [lia || reflexivity|]). split; [|split].
        * intros i j Hij. f_equal; lia.
        * split; [lia|]. split; [lia|]. intros i j Hi Hj. f_equal; lia.
        * intros Hm. split; [intros a b Ha Hb Hab; apply Hm; lia|]. intros i j Hij ->. apply Hm; lia.
    - unfold grow_top. destruct (Nat.eqb_spec (end_n g) 0) as [Z|Z].
      + destruct (proj1 (insert_row_spec junk (gnodes g) (repeat missing_point (full_m g)) missing_point (Z.of_nat (full_n g)))) as (x & -> & Rx & Cx & Ex);
          [unfold full_n; lia|apply repeat_length|]. cbn [bind].
        eexists. split; [reflexivity|]. unfold hide, gwf, same_view, shown, vis, num_n, num_m, full_n, full_m in *.
        cbn [set_gnodes set_offsets gnodes start_n start_m end_n end_m proj up_n up_m more_n more_m].
        rewrite Z in *. do 4 (split; [lia || reflexivity|]).
        assert (E : forall i j, i < mrows (gnodes g) -> j < mcols x -> entry x i j = entry (gnodes g) i j).
        { intros i j Hi Hj. rewrite Ex by lia. destruct (Z.compare_spec (Z.of_nat i) (Z.of_nat (mrows (gnodes g)))); try lia. reflexivity. }
        assert (L : forall j, j < mcols x -> entry x (mrows (gnodes g)) j = missing_point).
        { intros j Hj. rewrite Ex by lia. rewrite Z.compare_refl. apply nth_missing. }
        split; [|split].
        * intros i j Hij. rewrite E by lia. f_equal; lia.
        * split; [lia|]. split; [lia|]. intros i j Hi Hj. rewrite E by lia. f_equal; lia.
        * intros Hm. split.
          -- intros a b Ha Hb Hab. destruct (Nat.eq_dec a (mrows (gnodes g))) as [->|Ne].
             ++ rewrite L by lia. reflexivity.
             ++ rewrite E by lia. apply Hm; lia.
          -- intros i j Hij ->. replace (start_n g + _) with (mrows (gnodes g)) by lia. rewrite L by lia. reflexivity.
      + cbn [bind]. eexists. split; [reflexivity|]. unfold hide, gwf, same_view, shown, vis, num_n, num_m, full_n, full_m in *.
        cbn [set_gnodes set_offsets gnodes start_n start_m end_n end_m proj up_n up_m more_n more_m].
        do 4 (split; [lia || reflexivity|]). split; [|split].
        * intros i j Hij. f_equal; lia.
        * split; [lia|]. split; [lia|]. intros i j Hi Hj. f_equal; lia.
        * intros Hm. split; [intros a b Ha Hb Hab; apply Hm; lia|]. intros i j Hij ->. apply Hm; lia.
    - unfold grow_left. destruct (Nat.eqb_spec (start_m g) 0) as [Z|Z].
      + destruct (proj1 (insert_col_spec junk (gnodes g) (repeat missing_point (full_n g)) missing_point 0)) as (x & -> & Cx & Rx & Ex);
          [lia|apply repeat_length|]. cbn [bind].
        eexists. split; [reflexivity|]. unfold hide, gwf, same_view, shown, vis, num_n, num_m, full_n, full_m in *.
        cbn [set_gnodes set_offsets gnodes start_n start_m end_n end_m proj up_n up_m more_n more_m].
        rewrite Z in *. do 4 (split; [lia || reflexivity|]).
        assert (E : forall i j, i < mrows x -> S j < mcols x -> entry x i (S j) = entry (gnodes g) i j).
        { intros i j Hi Hj. rewrite Ex by auto. destruct (Z.compare_spec (Z.of_nat (S j)) 0); try lia. f_equal; lia. }
        split; [|split].
        * intros i j Hij. replace (0 + (j + 1)) with (S j) by lia. rewrite E by lia. f_equal; lia.
        * split; [lia|]. split; [lia|]. intros i j Hi Hj. replace (0 + 1 + j) with (S j) by lia. rewrite E by lia. f_equal; lia.
        * intros Hm. split.
          -- intros a b Ha Hb Hab. destruct b as [|b].
             ++ rewrite Ex by lia. cbn. rewrite nth_missing. reflexivity.
             ++ rewrite E by lia. apply Hm; lia.
          -- intros i j Hij ->. rewrite Ex by lia. cbn. rewrite nth_missing. reflexivity.
      + cbn [bind]. eexists. split; [reflexivity|]. unfold hide, gwf, same_view, shown, vis, num_n, num_m, full_n, full_m in *.
        cbn [set_gnodes set_offsets gnodes start_n start_m end_n end_m proj up_n up_m more_n more_m].
        do 4 (split; [lia || reflexivity|]). split; [|split].
        * intros i j Hij. f_equal; lia.
        * split; [lia|]. split; [lia|]. intros i j Hi Hj. f_equal; lia.
        * intros Hm. split; [intros a b Ha Hb Hab; apply Hm; lia|]. intros i j Hij ->. apply Hm; lia.
    - unfold grow_right. destruct (Nat.eqb_spec (end_m g) 0) as [Z|Z].
      + destruct (proj1 (insert_col_spec junk (gnodes g) (repeat missing_point (full_n g)) missing_point (Z.of_nat (full_m g)))) as (x & -> & Cx & Rx & Ex);
          [unfold full_m; lia|apply repeat_length|]. cbn [bind].
        eexists. split; [reflexivity|]. unfold hide, gwf, same_view, shown, vis, num_n, num_m, full_n, full_m in *.
        cbn [set_gnodes set_offsets gnodes start_n start_m end_n end_m proj up_n up_m more_n more_m].
        rewrite Z in *. do 4 (split; [lia || reflexivity|]).
        assert (E : forall i j, i < mrows x -> j < mcols (gnodes g) -> entry x i j = entry (gnodes g) i j).
        { intros i j Hi Hj. rewrite Ex by lia. destruct (Z.compare_spec (Z.of_nat j) (Z.of_nat (mcols (gnodes g)))); try lia. reflexivity. }
        assert (L : forall i, i < mrows x -> entry x i (mcols (gnodes g)) = missing_point).
        { intros i Hi. rewrite Ex by lia. rewrite Z.compare_refl. apply nth_missing. }
        split; [|split].
        * intros i j Hij. rewrite E by lia. f_equal; lia.
        * split; [lia|]. split; [lia|]. intros i j Hi Hj. rewrite E by lia. f_equal; lia.
        * intros Hm. split.
          -- intros a b Ha Hb Hab. destruct (Nat.eq_dec b (mcols (gnodes g))) as [->|Ne].
             ++ rewrite L by lia. reflexivity.
             ++ rewrite E by lia. apply Hm; lia.
          -- intros i j Hij ->. replace (start_m g + _) with (mcols (gnodes g)) by lia. rewrite L by lia. reflexivity.
      + cbn [bind]. eexists. split; [reflexivity|]. unfold hide, gwf, same_view, shown, vis, num_n, num_m, full_n, full_m in *.
        cbn [set_gnodes set_offsets gnodes start_n start_m end_n end_m proj up_n up_m more_n more_m].
        do 4 (split; [lia || reflexivity|]). split; [|split].
        * intros i j Hij. f_equal; lia.
        * split; [lia|]. split; [lia|]. intros i j Hi Hj. f_equal; lia.
        * intros Hm. split; [intros a b Ha Hb Hab; apply Hm; lia|]. intros i j Hij ->. apply Hm; lia.
  Qed.
End Grow.

(** *** Undo and redo any number of times *)
Lemma alternate (I : gact -> grid -> Prop) g h :
  (forall u x, I u x -> same_view h x /\
     exists u1 y, undo_grid u x = Ok (u1, y) /\ same_view g y /\ exists u2 z, redo_grid u1 y = Ok (u2, z) /\ I u2 z) ->
  forall u, I u h -> reversible u g h.
Proof.
  intros Step u Hu k. revert u h Hu Step. 
  assert (G : forall h0, (forall u x, I u x -> same_view h0 x /\
     exists u1 y, undo_grid u x = Ok (u1, y) /\ same_view g y /\ exists u2 z, redo_grid u1 y = Ok (u2, z) /\ I u2 z) ->
     forall u x, I u x -> exists u' x', undo_redo k u x = Ok (u', x') /\ same_view h0 x' /\
       exists u'' g', undo_grid u' x' = Ok (u'', g') /\ same_view g g').
  { intros h0 Step. induction k as [|k IH]; intros u x Hx; cbn [undo_redo].
    - destruct (Step u x Hx) as (V & u1 & y & E & Vy & _). exists u, x. split; auto. split; auto. exists u1, y. auto.
    - destruct (Step u x Hx) as (_ & u1 & y & -> & _ & u2 & z & E2 & Hz). cbn [bind]. rewrite E2. cbn [bind]. apply IH. exact Hz. }
  intros u h Hu Step. apply (G h Step u h Hu).
Qed.

Lemma off_line t g h i j : num_n h = num_n g + more_n t -> num_m h = num_m g + more_m t -> shown h i j -> ~ on_line t h i j ->
  exists i' j', i = i' + up_n t /\ j = j' + up_m t /\ shown g i' j'.
Proof.
  unfold shown. intros E1 E2 Hs Hl. exists (i - up_n t), (j - up_m t).
  destruct t; cbn [on_line up_n up_m more_n more_m] in *; lia.
Qed.

Lemma grown_cell t g h n m : num_n h = num_n g + more_n t -> num_m h = num_m g + more_m t ->
  (forall i j, shown g i j -> vis h (i + up_n t) (j + up_m t) = vis g i j) ->
  complete g n m -> complete h (n + up_n t) (m + up_m t).
Proof.
  intros E1 E2 V (Hn & Hm & H1 & H2 & H3 & H4).
  unfold complete. rewrite E1, E2.
  replace (n + up_n t + 1) with (n + 1 + up_n t) by lia. replace (m + up_m t + 1) with (m + 1 + up_m t) by lia.
  rewrite !V by (split; lia). repeat split; auto; destruct t; cbn; lia.
Qed.

Lemma on_line_dec t h i j : on_line t h i j \/ ~ on_line t h i j.
Proof. destruct t; cbn; lia. Qed.

Lemma grown_clean t g h : num_n h = num_n g + more_n t -> num_m h = num_m g + more_m t ->
  (forall i j, shown g i j -> vis h (i + up_n t) (j + up_m t) = vis g i j) ->
  (forall i j, shown h i j -> on_line t h i j -> is_valid (vis h i j) = false) -> clean g -> clean h.
Proof.
  intros E1 E2 V L Hc i j Hs Hv. destruct (on_line_dec t h i j) as [D|D].
  - rewrite L in Hv by auto. discriminate.
  - destruct (off_line t g h i j E1 E2 Hs D) as (i' & j' & -> & -> & Hs'). rewrite V in Hv by auto.
    destruct (Hc i' j' Hs' Hv) as (n & m & Hcc & Hco). exists (n + up_n t), (m + up_m t). split.
    + eapply grown_cell; eauto.
    + unfold corner_of in *. lia.
Qed.

Lemma hide_gwf t g h : gwf g -> gwf h -> num_n h = num_n g + more_n t -> num_m h = num_m g + more_m t -> gwf (hide t h).
Proof.
  unfold gwf, num_n, num_m, full_n, full_m, hide. cbn [set_offsets gnodes start_n start_m end_n end_m].
  destruct t; cbn [up_n up_m more_n more_m]; lia.
Qed.

Lemma st_hide t h k : same_store h k -> same_store (hide t h) (hide t k).
Proof. intros []. unfold hide. constructor; cbn [set_offsets gnodes start_n start_m end_n end_m]; auto. Qed.

Lemma restore_line t h k : gwf (hide t h) -> clean (hide t h) -> same_store h k ->
  exists x, grid_restore (line_leaf t) k = Ok (line_leaf t, x) /\ same_store (hide t h) x.
Proof.
  intros W Hc S. apply (st_hide t) in S.
  assert (E : grid_restore (line_leaf t) k =
     let! g := reindex (hide t k) in let! g := compute_node_types g in Ok (line_leaf t, g)) by (destruct t; reflexivity).
  rewrite E. destruct (st_reindex (hide t k)) as (k1 & -> & S1). cbn [bind].
  assert (S2 : same_store (hide t h) k1) by (eapply st_trans; eauto).
  destruct (types_store k1) as (k2 & -> & S3 & _); [eapply st_gwf; eauto|eapply st_clean; eauto|]. cbn [bind].
  eexists. split; [reflexivity|]. eapply st_trans; eauto.
Qed.

Lemma commit_line t h k : gwf h -> clean h -> same_store (hide t h) k ->
  exists x, grid_commit (line_leaf t) k = Ok (line_leaf t, x) /\ same_store h x.
Proof.
  intros W Hc S. pose (k0 := set_offsets k (start_n h) (start_m h) (end_n h) (end_m h)).
  assert (S0 : same_store h k0).
  { destruct S. constructor; cbn [k0 set_offsets hide gnodes start_n start_m end_n end_m] in *; auto. }
  assert (E : grid_commit (line_leaf t) k = let! g := reindex k0 in let! g := compute_node_types g in Ok (line_leaf t, g)).
  { destruct S. unfold k0. cbn [hide set_offsets start_n start_m end_n end_m] in *.
    destruct t; cbn [line_leaf grid_commit up_n up_m more_n more_m Nat.sub] in *.
    - replace (1 <=? start_n k) with true by (symmetry; apply Nat.leb_le; lia). cbn [Nat.leb andb].
      rewrite st_sn0, st_sm0, st_en0, st_em0, ?Nat.sub_0_r, ?Nat.add_0_r, ?Nat.add_sub. reflexivity.
    - replace (1 <=? end_n k) with true by (symmetry; apply Nat.leb_le; lia). cbn [Nat.leb andb].
      rewrite st_sn0, st_sm0, st_en0, st_em0, ?Nat.sub_0_r, ?Nat.add_0_r, ?Nat.add_sub. reflexivity.
    - replace (1 <=? start_m k) with true by (symmetry; apply Nat.leb_le; lia). cbn [Nat.leb andb].
      rewrite st_sn0, st_sm0, st_en0, st_em0, ?Nat.sub_0_r, ?Nat.add_0_r, ?Nat.add_sub. reflexivity.
    - replace (1 <=? end_m k) with true by (symmetry; apply Nat.leb_le; lia). cbn [Nat.leb andb].
      rewrite st_sn0, st_sm0, st_en0, st_em0, ?Nat.sub_0_r, ?Nat.add_0_r, ?Nat.add_sub. reflexivity. }
  rewrite E. destruct (st_reindex k0) as (k1 & -> & S1). cbn [bind].
  assert (S2 : same_store h k1) by (eapply st_trans; eauto).
  destruct (types_store k1) as (k2 & -> & S3 & _); [eapply st_gwf; eauto|eapply st_clean; eauto|]. cbn [bind].
  eexists. split; [reflexivity|]. eapply st_trans; eauto.
Qed.

Lemma grow_reversible junk t g : gwf g -> clean g -> hidden_missing g ->
  exists h, grow junk t g = Ok (h, line_leaf t) /\ num_n h = num_n g + more_n t /\ num_m h = num_m g + more_m t /\
    (forall i j, shown g i j -> vis h (i + up_n t) (j + up_m t) = vis g i j) /\
    (forall i j, shown h i j -> on_line t h i j -> is_valid (vis h i j) = false) /\
    reversible (Leaf Committed (line_leaf t)) g h.
Proof.
  intros W Hc Hm. destruct (grow_ok junk t g W) as (h & E & Wh & _ & N1 & N2 & V & SV & L). exists h.
  destruct (L Hm) as [_ L2]. do 5 (split; [auto|]).
  assert (Wx : gwf (hide t h)) by (apply (hide_gwf t g h); auto).
  assert (Cx : clean (hide t h)) by (apply (view_clean g); auto).
  assert (Ch : clean h) by (apply (grown_clean t g h); auto).
  apply (alternate (fun u x => u = Leaf Committed (line_leaf t) /\ same_store h x)); [|split; [auto|apply st_refl]].
  intros u x [-> S]. split; [apply st_view; auto|].
  destruct (restore_line t h x Wx Cx S) as (y & Ey & Sy). unfold undo_grid. cbn [restore_act]. rewrite Ey. cbn [bind].
  eexists _, _. split; [reflexivity|]. split; [eapply same_view_trans; [exact SV|apply st_view; auto]|].
  destruct (commit_line t h y Wh Ch Sy) as (z & Ez & Sz). unfold redo_grid. cbn [commit_act]. rewrite Ez. cbn [bind].
  eexists _, _. split; [reflexivity|]. auto.
Qed.

Lemma add_grid_line_inv junk g a b h u : add_grid_line junk g a b = Ok (h, Some u) ->
  exists t, boundary_line_type g a b = Ok t /\ grow junk t g = Ok (h, line_leaf t) /\ u = Leaf Committed (line_leaf t) /\
    node_valid g (fst a) (snd a) = Ok true /\ node_valid g (fst b) (snd b) = Ok true.
Proof.
  unfold add_grid_line. destruct (_ || _); [discriminate|]. destruct (_ || _); [discriminate|].
  destruct (node_valid g (fst a) (snd a)) as [va| |]; cbn [bind]; try discriminate.
  destruct (if va then node_valid g (fst b) (snd b) else Ok false) as [vb| |] eqn:Ev; cbn [bind]; try discriminate.
  destruct (boundary_line_type g a b) as [t| |]; cbn [bind]; try discriminate.
  destruct vb; cbn [negb]; [|discriminate]. destruct va; [|discriminate].
  destruct (match t with LineBottom => _ | _ => _ end); [|discriminate].
  intros E. exists t. split; auto.
  assert (G : forall x l, grow junk t g = Ok (x, l) -> l = line_leaf t).
  { destruct t; cbn [grow line_leaf]; unfold grow_bottom, grow_top, grow_left, grow_right; intros x l;
      (match goal with |- bind ?X _ = _ -> _ => destruct X as [y| |] end); cbn [bind]; congruence. }
  destruct (grow junk t g) as [[x l]| |] eqn:Eg; cbn [bind] in E; try discriminate.
  specialize (G x l eq_refl). injection E as <- <-. subst. auto.
Qed.

Lemma add_grid_line_reversible junk g a b h u : gwf g -> clean g -> hidden_missing g ->
  add_grid_line junk g a b = Ok (h, Some u) ->
  exists t, num_n h = num_n g + more_n t /\ num_m h = num_m g + more_m t /\
    (forall i j, shown g i j -> vis h (i + up_n t) (j + up_m t) = vis g i j) /\
    (forall i j, shown h i j -> on_line t h i j -> is_valid (vis h i j) = false) /\
    reversible u g h.
Proof.
  intros W Hc Hm E. apply add_grid_line_inv in E as (t & _ & Eg & -> & _). exists t.
  destruct (grow_reversible junk t g W Hc Hm) as (h' & Eg' & H). rewrite Eg in Eg'. injection Eg' as <-. exact H.
Qed.

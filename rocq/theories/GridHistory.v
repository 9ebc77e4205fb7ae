(** Sequences of adding lines, undo and redo. *)
From Verif Require Import Base BaseLemmas FloatModel UtilModel UtilProofs UndoModel ActionModel GridModel GridSpec GridProofs GridClean GridEdits GridLines.

(** [y] is [x] with more hidden lines around it, none of which holds a valid node. *)
Record embeds (x y : grid) : Prop := Embeds {
  em_n : num_n y = num_n x; em_m : num_m y = num_m x;
  em_map : exists dn dm, start_n y = start_n x + dn /\ start_m y = start_m x + dm /\
     mrows (gnodes x) + dn <= mrows (gnodes y) /\ mcols (gnodes x) + dm <= mcols (gnodes y) /\
     (forall a b, a < mrows (gnodes x) -> b < mcols (gnodes x) -> entry (gnodes y) (a + dn) (b + dm) = entry (gnodes x) a b) /\
     (forall a b, a < mrows (gnodes y) -> b < mcols (gnodes y) ->
        ~ (dn <= a < mrows (gnodes x) + dn /\ dm <= b < mcols (gnodes x) + dm) -> is_valid (entry (gnodes y) a b) = false) }.

Lemma store_embeds x y : same_store x y -> embeds x y.
Proof.
  intros S. constructor; [apply st_num_n; auto|apply st_num_m; auto|]. destruct S. exists 0, 0. rewrite !Nat.add_0_r.
  repeat split; try lia; auto.
  - intros a b Ha Hb. rewrite !Nat.add_0_r. auto.
Qed.

Lemma embeds_wf x y : gwf x -> embeds x y -> gwf y.
Proof. intros W [N M _]. unfold gwf, num_n, num_m, full_n, full_m in *. lia. Qed.

Lemma embeds_view x y : gwf x -> embeds x y -> same_view x y.
Proof.
  intros W [N M (dn & dm & E1 & E2 & E3 & E4 & V & _)]. split; [auto|]. split; [auto|]. intros n m Hn Hm.
  unfold vis. rewrite E1, E2.
  replace (start_n x + dn + n) with (start_n x + n + dn) by lia. replace (start_m x + dm + m) with (start_m x + m + dm) by lia.
  symmetry. unfold gwf, num_n, num_m, full_n, full_m in *. apply V; lia.
Qed.

Lemma embeds_hidden x y : gwf x -> embeds x y -> hidden_missing x -> hidden_missing y.
Proof.
  intros W [N M (dn & dm & E1 & E2 & E3 & E4 & V & Vo)] H a b Ha Hb Hn.
  assert (D : (dn <= a < mrows (gnodes x) + dn /\ dm <= b < mcols (gnodes x) + dm) \/
              ~ (dn <= a < mrows (gnodes x) + dn /\ dm <= b < mcols (gnodes x) + dm)) by lia.
  destruct D as [[D1 D2]|D]; [|apply Vo; auto].
  specialize (V (a - dn) (b - dm) ltac:(lia) ltac:(lia)). rewrite !Nat.sub_add in V by lia. rewrite V. apply H; [lia|lia|].
  rewrite E1, E2, N, M in Hn. lia.
Qed.

Lemma sub_shift1 r a b : r - (a + 1) - b = r - a - b - 1.
Proof. lia. Qed.
Lemma sub_shift2 r a b : r - a - (b + 1) = r - a - b - 1.
Proof. lia. Qed.

Lemma embeds_hide t x y : gwf x -> gwf (hide t x) -> embeds x y -> embeds (hide t x) (hide t y).
Proof.
  intros W W' [N M (dn & dm & E1 & E2 & E3 & E4 & V & Vo)]. unfold hide, gwf, num_n, num_m in *.
  destruct t; cbn [set_offsets gnodes start_n start_m end_n end_m up_n up_m more_n more_m Nat.sub] in *; rewrite ?Nat.add_0_r in *.
  all: constructor.
  all: try (unfold num_n, num_m; cbn [set_offsets gnodes start_n start_m end_n end_m]; rewrite ?sub_shift1, ?sub_shift2, ?N, ?M; reflexivity).
  all: exists dn, dm; cbn [set_offsets gnodes start_n start_m end_n end_m]; do 4 (split; [lia|]); split; assumption.
Qed.

Lemma grow_embeds junk t g h : gwf g -> grow junk t g = Ok (h, line_leaf t) -> embeds g (hide t h).
Proof.
  intros [W1 W2]. destruct t; cbn [grow line_leaf].
  - unfold grow_bottom. destruct (Nat.eqb_spec (start_n g) 0) as [Z|Z].
    + destruct (proj1 (insert_row_spec junk (gnodes g) (repeat missing_point (full_m g)) missing_point 0)) as (x & -> & Rx & Cx & Ex);
        [lia|apply repeat_length|]. cbn [bind]. intros [= <-].
      assert (E : forall i j, S i < mrows x -> j < mcols x -> entry x (S i) j = entry (gnodes g) i j).
      { intros i j Hi Hj. rewrite Ex by auto. destruct (Z.compare_spec (Z.of_nat (S i)) 0); try lia. f_equal; lia. }
      constructor; unfold hide, num_n, num_m; cbn [set_gnodes set_offsets gnodes start_n start_m end_n end_m up_n up_m more_n more_m Nat.sub]; try lia.
      exists 1, 0. rewrite !Nat.add_0_r. repeat split; try lia.
      * intros a b Ha Hb. rewrite Nat.add_1_r, Nat.add_0_r. apply E; lia.
      * intros a b Ha Hb Hn. destruct a as [|a]; [|lia]. rewrite Ex by lia. cbn. rewrite nth_missing. reflexivity.
    + cbn [bind]. intros [= <-].
      constructor; unfold hide, num_n, num_m; cbn [set_gnodes set_offsets gnodes start_n start_m end_n end_m up_n up_m more_n more_m Nat.sub]; try lia.
      exists 0, 0. rewrite !Nat.add_0_r. repeat split; try lia.
      * intros a b Ha Hb. rewrite !Nat.add_0_r. reflexivity.
  - unfold grow_top. destruct (Nat.eqb_spec (end_n g) 0) as [Z|Z].
    + destruct (proj1 (insert_row_spec junk (gnodes g) (repeat missing_point (full_m g)) missing_point (Z.of_nat (full_n g)))) as (x & -> & Rx & Cx & Ex);
        [unfold full_n; lia|apply repeat_length|]. cbn [bind]. intros [= <-]. unfold full_n in Ex.
      constructor; unfold hide, num_n, num_m; cbn [set_gnodes set_offsets gnodes start_n start_m end_n end_m up_n up_m more_n more_m Nat.sub]; try lia.
      exists 0, 0. rewrite !Nat.add_0_r. repeat split; try lia.
      * intros a b Ha Hb. rewrite !Nat.add_0_r. rewrite Ex by lia. destruct (Z.compare_spec (Z.of_nat a) (Z.of_nat (mrows (gnodes g)))); try lia. reflexivity.
      * intros a b Ha Hb Hn. rewrite Ex by lia. destruct (Z.compare_spec (Z.of_nat a) (Z.of_nat (mrows (gnodes g)))); try lia.
        rewrite nth_missing. reflexivity.
    + cbn [bind]. intros [= <-].
      constructor; unfold hide, num_n, num_m; cbn [set_gnodes set_offsets gnodes start_n start_m end_n end_m up_n up_m more_n more_m Nat.sub]; try lia.
      exists 0, 0. rewrite !Nat.add_0_r. repeat split; try lia.
      * intros a b Ha Hb. rewrite !Nat.add_0_r. reflexivity.
  - unfold grow_left. destruct (Nat.eqb_spec (start_m g) 0) as [Z|Z].
    + destruct (proj1 (insert_col_spec junk (gnodes g) (repeat missing_point (full_n g)) missing_point 0)) as (x & -> & Cx & Rx & Ex);
        [lia|apply repeat_length|]. cbn [bind]. intros [= <-].
      assert (E : forall i j, i < mrows x -> S j < mcols x -> entry x i (S j) = entry (gnodes g) i j).
      { intros i j Hi Hj. rewrite Ex by auto. destruct (Z.compare_spec (Z.of_nat (S j)) 0); try lia. f_equal; lia. }
      constructor; unfold hide, num_n, num_m; cbn [set_gnodes set_offsets gnodes start_n start_m end_n end_m up_n up_m more_n more_m Nat.sub]; try lia.
      exists 0, 1. rewrite !Nat.add_0_r. repeat split; try lia.
      * intros a b Ha Hb. rewrite Nat.add_1_r, Nat.add_0_r. apply E; lia.
      * intros a b Ha Hb Hn. destruct b as [|b]; [|lia]. rewrite Ex by lia. cbn. rewrite nth_missing. reflexivity.
    + cbn [bind]. intros [= <-].
      constructor; unfold hide, num_n, num_m; cbn [set_gnodes set_offsets gnodes start_n start_m end_n end_m up_n up_m more_n more_m Nat.sub]; try lia.
      exists 0, 0. rewrite !Nat.add_0_r. repeat split; try lia.
      * intros a b Ha Hb. rewrite !Nat.add_0_r. reflexivity.
  - unfold grow_right. destruct (Nat.eqb_spec (end_m g) 0) as [Z|Z].
    + destruct (proj1 (insert_col_spec junk (gnodes g) (repeat missing_point (full_n g)) missing_point (Z.of_nat (full_m g)))) as (x & -> & Cx & Rx & Ex);
        [unfold full_m; lia|apply repeat_length|]. cbn [bind]. intros [= <-]. unfold full_m in Ex.
      constructor; unfold hide, num_n, num_m; cbn [set_gnodes set_offsets gnodes start_n start_m end_n end_m up_n up_m more_n more_m Nat.sub]; try lia.
      exists 0, 0. rewrite !Nat.add_0_r. repeat split; try lia.
      * intros a b Ha Hb. rewrite !Nat.add_0_r. rewrite Ex by lia. destruct (Z.compare_spec (Z.of_nat b) (Z.of_nat (mcols (gnodes g)))); try lia. reflexivity.
      * intros a b Ha Hb Hn. rewrite Ex by lia. destruct (Z.compare_spec (Z.of_nat b) (Z.of_nat (mcols (gnodes g)))); try lia.
        rewrite nth_missing. reflexivity.
    + cbn [bind]. intros [= <-].
      constructor; unfold hide, num_n, num_m; cbn [set_gnodes set_offsets gnodes start_n start_m end_n end_m up_n up_m more_n more_m Nat.sub]; try lia.
      exists 0, 0. rewrite !Nat.add_0_r. repeat split; try lia.
      * intros a b Ha Hb. rewrite !Nat.add_0_r. reflexivity.
Qed.

(** *** The invariant *)
Definition sound x : Prop := gwf x /\ clean x /\ hidden_missing x.

Lemma embeds_sound x y : sound x -> embeds x y -> sound y.
Proof.
  intros (W & C & H) E. split; [eapply embeds_wf; eauto|]. split; [eapply view_clean; [apply embeds_view; eauto|auto]|].
  eapply embeds_hidden; eauto.
Qed.

Fixpoint down (x : grid) (ts : list line_type) (ps : list grid) : Prop :=
  match ts, ps with
  | [], [] => True
  | t :: ts, p :: ps => sound (hide t x) /\ same_view p (hide t x) /\ down (hide t x) ts ps
  | _, _ => False
  end.
Fixpoint up (x : grid) (rs : list line_type) (fs : list grid) : Prop :=
  match rs, fs with
  | [], [] => True
  | r :: rs, f :: fs => exists h, same_store (hide r h) x /\ sound h /\ same_view f h /\ up h rs fs
  | _, _ => False
  end.

Lemma down_embeds ts : forall ps x y, gwf x -> embeds x y -> down x ts ps -> down y ts ps.
Proof.
  induction ts as [|t ts IH]; intros [|p ps] x y W E; cbn [down]; auto. intros (S & V & D).
  assert (E' : embeds (hide t x) (hide t y)) by (apply embeds_hide; auto; apply S).
  split; [eapply embeds_sound; eauto|]. split; [eapply same_view_trans; [exact V|apply embeds_view; auto; apply S]|].
  exact (IH ps _ _ (proj1 S) E' D).
Qed.

Lemma up_store rs fs x y : same_store x y -> up x rs fs -> up y rs fs.
Proof.
  destruct rs, fs; cbn [up]; auto. intros S (h & A & B). exists h. split; [eapply st_trans; eauto|auto].
Qed.

Definition inv (h : history) (e : expected) : Prop :=
  let '(ps, c, fs) := e in
  exists ts rs, h_undo h = map (fun t => Leaf Committed (line_leaf t)) ts /\ h_redo h = map (fun t => Leaf Restored (line_leaf t)) rs /\
    sound (h_grid h) /\ same_view c (h_grid h) /\ down (h_grid h) ts ps /\ up (h_grid h) rs fs.

Lemma view_sym g h : same_view g h -> same_view h g.
Proof. intros (A & B & C). split; [auto|]. split; [auto|]. intros n m Hn Hm. symmetry. apply C; congruence. Qed.

Lemma undo_step junk h e : inv h e -> exists h', history_step junk OpUndo h = Ok h' /\ inv h' (expect OpUndo h h' e).
Proof.
  destruct e as [[ps c] fs]. destruct h as [x us rr]. intros (ts & rs & E1 & E2 & (W & C & H) & V & D & U).
  cbn [h_grid h_undo h_redo] in *. subst us rr. cbn [history_step h_undo h_redo h_grid].
  destruct ts as [|t ts]; cbn [map].
  - destruct ps as [|p ps]; [|destruct D]. eexists. split; [reflexivity|]. cbn [expect inv].
    exists [], rs. exact (conj eq_refl (conj eq_refl (conj (conj W (conj C H)) (conj V (conj D U))))).
  - destruct ps as [|p ps]; [destruct D|]. destruct D as ((Wt & Ct & Ht) & Vt & D).
    destruct (restore_line t x x Wt Ct (st_refl x)) as (y & Ey & Sy). unfold undo_grid. cbn [restore_act]. rewrite Ey. cbn [bind].
    eexists. split; [reflexivity|]. cbn [expect inv h_grid h_undo h_redo]. exists ts, (t :: rs). split; [auto|]. split; [auto|].
    pose proof (store_embeds _ _ Sy) as Em.
    split; [apply (embeds_sound (hide t x)); [exact (conj Wt (conj Ct Ht))|exact Em]|]. split; [eapply same_view_trans; [exact Vt|apply st_view; auto]|].
    split; [eapply down_embeds; [|exact Em|exact D]; exact Wt|]. cbn [up]. exists x. split; [exact Sy|]. split; [exact (conj W (conj C H))|]. split; [exact V|exact U].
Qed.

Lemma redo_step junk h e : inv h e -> exists h', history_step junk OpRedo h = Ok h' /\ inv h' (expect OpRedo h h' e).
Proof.
  destruct e as [[ps c] fs]. destruct h as [x us rr]. intros (ts & rs & E1 & E2 & (W & C & H) & V & D & U).
  cbn [h_grid h_undo h_redo] in *. subst us rr. cbn [history_step h_undo h_redo h_grid].
  destruct rs as [|r rs]; cbn [map].
  - destruct fs as [|f fs]; [|destruct U]. eexists. split; [reflexivity|]. destruct ps; cbn [expect inv];
    exists ts, []; exact (conj eq_refl (conj eq_refl (conj (conj W (conj C H)) (conj V (conj D U))))).
  - destruct fs as [|f fs]; [destruct U|]. destruct U as (h & Sh & (Wh & Ch & Hh) & Vf & U).
    destruct (commit_line r h x Wh Ch Sh) as (z & Ez & Sz). unfold redo_grid. cbn [commit_act]. rewrite Ez. cbn [bind].
    eexists. split; [reflexivity|].
    replace (expect OpRedo _ _ (ps, c, f :: fs)) with (c :: ps, f, fs) by (destruct ps; reflexivity).
    cbn [inv h_grid h_undo h_redo]. exists (r :: ts), rs. split; [auto|]. split; [auto|].
    pose proof (store_embeds _ _ Sz) as Em.
    split; [apply (embeds_sound h); [exact (conj Wh (conj Ch Hh))|exact Em]|]. split; [eapply same_view_trans; [exact Vf|apply st_view; auto]|].
    assert (Sx : same_store x (hide r z)) by (eapply st_trans; [apply st_sym; exact Sh|apply st_hide; auto]).
    pose proof (store_embeds _ _ Sx) as Ex.
    split; [|exact (up_store _ _ _ _ Sz U)]. cbn [down]. split; [apply (embeds_sound x); [exact (conj W (conj C H))|exact Ex]|].
    split; [eapply same_view_trans; [exact V|apply st_view; auto]|]. exact (down_embeds _ _ _ _ W Ex D).
Qed.

Lemma add_none junk g a b h : add_grid_line junk g a b = Ok (h, None) -> h = g.
Proof.
  unfold add_grid_line. destruct (_ || _); [discriminate|]. destruct (_ || _); [discriminate|].
  destruct (node_valid g (fst a) (snd a)) as [va| |]; cbn [bind]; try discriminate.
  destruct (if va then node_valid g (fst b) (snd b) else Ok false) as [vb| |]; cbn [bind]; try discriminate.
  destruct (boundary_line_type g a b) as [t| |]; cbn [bind]; try discriminate.
  destruct (negb vb); [congruence|]. destruct (match t with LineBottom => _ | _ => _ end); [|congruence].
  destruct (grow junk t g) as [[x l]| |]; discriminate.
Qed.

Lemma add_step junk a b h e h' : inv h e -> history_step junk (OpAdd a b) h = Ok h' -> inv h' (expect (OpAdd a b) h h' e).
Proof.
  destruct e as [[ps c] fs]. destruct h as [x us rr]. intros I E. cbn [history_step h_undo h_redo h_grid] in E.
  assert (Same : forall y, h' = y -> length us = length (h_undo y) -> expect (OpAdd a b) (History x us rr) h' (ps, c, fs) = (ps, c, fs)).
  { intros y -> Ey. cbn [expect h_undo]. rewrite <- Ey, Nat.ltb_irrefl. reflexivity. }
  destruct (add_grid_line junk x a b) as [[g [u|]]| |] eqn:Ea.
  - injection E as <-. cbn [expect h_undo h_grid length].
    assert (L : length us <? S (length us) = true) by (apply Nat.ltb_lt; lia). rewrite L.
    destruct I as (ts & rs & E1 & E2 & (W & C & H) & V & D & U). cbn [h_grid h_undo h_redo] in *. subst us rr.
    apply add_grid_line_inv in Ea as (t & _ & Eg & -> & _).
    pose proof (grow_embeds junk t x g W Eg) as Em.
    destruct (grow_ok junk t x W) as (g' & Eg' & Wh & _ & N1 & N2 & Vg & SV & L'). rewrite Eg in Eg'. injection Eg' as <-.
    destruct (L' H) as [Hh L2]. assert (Ch : clean g) by (apply (grown_clean t x g); auto).
    cbn [inv h_grid h_undo h_redo]. exists (t :: ts), []. split; [reflexivity|]. split; [reflexivity|]. split; [exact (conj Wh (conj Ch Hh))|].
    split; [apply same_view_refl|]. split; [|exact Logic.I]. cbn [down].
    split; [apply (embeds_sound x); [exact (conj W (conj C H))|exact Em]|]. split; [eapply same_view_trans; [exact V|apply embeds_view; auto]|].
    exact (down_embeds _ _ _ _ W Em D).
  - apply add_none in Ea. subst g. rewrite (Same h' eq_refl) by (injection E as <-; reflexivity). injection E as <-. exact I.
  - rewrite (Same h' eq_refl) by (injection E as <-; reflexivity). injection E as <-. exact I.
  - discriminate.
Qed.

Lemma types_step junk h e : inv h e -> exists h', history_step junk OpTypes h = Ok h' /\ inv h' (expect OpTypes h h' e).
Proof.
  destruct e as [[ps c] fs]. destruct h as [x us rr]. intros (ts & rs & E1 & E2 & (W & C & H) & V & D & U). cbn [h_grid h_undo h_redo] in *.
  cbn [history_step h_grid h_undo h_redo]. destruct (types_store x W C) as (y & -> & S & _). cbn [bind]. eexists. split; [reflexivity|].
  cbn [expect inv h_grid h_undo h_redo]. exists ts, rs. split; [auto|]. split; [auto|].
  split; [apply (embeds_sound x); [exact (conj W (conj C H))|apply store_embeds; auto]|].
  split; [eapply same_view_trans; [exact V|apply st_view; auto]|]. split; [|eapply up_store; eauto].
  apply (down_embeds ts ps x y W); [apply store_embeds; auto|exact D].
Qed.

Lemma run_inv junk ops : forall h e h' e', inv h e -> run_history junk ops h e = Ok (h', e') -> inv h' e'.
Proof.
  induction ops as [|op ops IH]; intros h e h' e' I E; cbn [run_history] in E.
  - injection E as <- <-. exact I.
  - destruct (history_step junk op h) as [h1| |] eqn:Es; cbn [bind] in E; try discriminate. eapply IH; [|exact E].
    destruct op.
    + eapply add_step; eauto.
    + destruct (types_step junk h e I) as (h2 & E2 & I2). rewrite Es in E2. injection E2 as <-. exact I2.
    + destruct (undo_step junk h e I) as (h2 & E2 & I2). rewrite Es in E2. injection E2 as <-. exact I2.
    + destruct (redo_step junk h e I) as (h2 & E2 & I2). rewrite Es in E2. injection E2 as <-. exact I2.
Qed.

Lemma history_ok junk ops g h past now future : gwf g -> clean g -> hidden_missing g ->
  run_history junk ops (History g [] []) ([], g, []) = Ok (h, (past, now, future)) ->
  same_view now (h_grid h) /\ (exists h', history_step junk OpUndo h = Ok h') /\ (exists h', history_step junk OpRedo h = Ok h') /\
  length past = length (h_undo h) /\ length future = length (h_redo h).
Proof.
  intros W C H E. apply run_inv in E.
  - pose proof (undo_step junk _ _ E) as (h1 & U & _). pose proof (redo_step junk _ _ E) as (h2 & R & _).
    destruct E as (ts & rs & E1 & E2 & _ & V & D & Up). split; [auto|]. split; [eauto|]. split; [eauto|].
    rewrite E1, E2, !map_length. split.
    + clear - D. revert D. generalize (h_grid h). revert past. induction ts as [|t ts IH]; intros [|p ps] x D; cbn in *; try tauto.
      f_equal. eapply IH. apply D.
    + clear - Up. revert Up. generalize (h_grid h). revert future. induction rs as [|t ts IH]; intros [|p ps] x D; cbn in *; try tauto.
      f_equal. destruct D as (y & _ & _ & _ & D). eapply IH. apply D.
  - cbn [inv]. exists [], []. split; [reflexivity|]. split; [reflexivity|]. split; [exact (conj W (conj C H))|]. split; [apply same_view_refl|]. split; exact I.
Qed.

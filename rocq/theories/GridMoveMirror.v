(** Mirroring a line of the border. *)
From Verif Require Import Base BaseLemmas FloatModel UtilModel UtilProofs UndoModel ActionModel GridModel GridSpec GridProofs GridClean GridEdits GridLines GridFace GridRefine GridBorder GridTypes GridMain GridMoveModel GridMoveSpec GridMoveProofs GridMoveSmooth GridMoveAttract GridMoveShift.

(** The ends are apart along the side. *)
Definition apart (t : line_type) (a b : gindex) : Prop :=
  match t with LineBottom | LineTop => snd a <> snd b | LineLeft | LineRight => fst a <> fst b end.

Section Full.
  Variable g : grid.
  Hypothesis W : gwf g.
  Hypothesis Hf : full g.
  Hypothesis Hmask : mask_right g g.
  Hypothesis Htypes : types_right g g.
  Hypothesis Hhid : hidden_missing g.
  Hypothesis Hmargin : (start_n g = 0 \/ 0 < end_n g) /\ (start_m g = 0 \/ 0 < end_m g).

  Lemma side_line_type a b t : shown2 g a -> shown2 g b -> apart t a b -> at_side g t a -> at_side g t b -> boundary_line_type g a b = Ok t.
  Proof.
    destruct a as [an am], b as [bn bm]. unfold shown2, apart. cbn [fst snd]. intros Ha Hb Hnb Sa Sb.
    assert (N2 : 2 <= num_n g /\ 2 <= num_m g) by (unfold gwf, num_n, num_m in *; lia).
    destruct (full_type g W Htypes an am Ha) as (ta & Ta), (full_type g W Htypes bn bm Hb) as (tb & Tb).
    unfold boundary_line_type. cbn [fst snd]. rewrite Ta, Tb. cbn [bind].
    destruct (border_type g W Hf Htypes an am ta Ha Ta) as (A1 & A2 & A3 & A4). destruct (border_type g W Hf Htypes bn bm tb Hb Tb) as (B1 & B2 & B3 & B4).
    destruct Ha as [Ha1 Ha2], Hb as [Hb1 Hb2]. pose proof W as [W1 W2].
    destruct t; cbn [at_side fst snd] in Sa, Sb.
    - specialize (A1 Sa). specialize (B1 Sb). destruct (Nat.eqb_spec am bm); [lia|]. destruct (Nat.eqb_spec an bn); [|lia].
      destruct (Nat.ltb_spec (an + 1) (mrows (gnodes g))); [|unfold num_n in *; lia].
      rewrite !(full_valid g W Hf) by lia. cbn [bind].
      destruct A1 as [->|[->|[-> _]]], B1 as [->|[->|[-> _]]]; reflexivity.
    - specialize (A2 Sa). specialize (B2 Sb). destruct (Nat.eqb_spec am bm); [lia|]. destruct (Nat.eqb_spec an bn); [|lia].
      destruct (Nat.ltb_spec (an + 1) (mrows (gnodes g))); [rewrite (beyond_n g W Hhid Hmargin) by lia; cbn [bind]|];
        destruct A2 as [->|[->|[-> _]]], B2 as [->|[->|[-> _]]]; reflexivity.
    - specialize (A3 Sa). specialize (B3 Sb). destruct (Nat.eqb_spec am bm); [|lia].
      destruct (Nat.ltb_spec (am + 1) (mcols (gnodes g))); [|unfold num_m in *; lia].
      rewrite !(full_valid g W Hf) by lia. cbn [bind].
      destruct A3 as [->|[->|[-> _]]], B3 as [->|[->|[-> _]]]; reflexivity.
    - specialize (A4 Sa). specialize (B4 Sb). destruct (Nat.eqb_spec am bm); [|lia].
      destruct (Nat.ltb_spec (am + 1) (mcols (gnodes g))); [rewrite (beyond_m g W Hhid Hmargin) by lia; cbn [bind]|];
        destruct A4 as [->|[->|[-> _]]], B4 as [->|[->|[-> _]]]; reflexivity.
  Qed.

  Lemma side_add_line junk a b t : shown2 g a -> shown2 g b -> apart t a b -> at_side g t a -> at_side g t b ->
    exists h, add_grid_line junk g a b = Ok (h, Some (Leaf Committed (line_leaf t))) /\ grow junk t g = Ok (h, line_leaf t).
  Proof.
    intros Ha Hb Hnb Sa Sb. destruct (grow_ok junk t g W) as (h & Eg & _). exists h. split; [|auto].
    unfold add_grid_line. rewrite (side_line_type a b t) by auto. destruct Ha as [Ha1 Ha2], Hb as [Hb1 Hb2].
    destruct (Nat.ltb_spec (num_m g) (snd a)); [lia|]. destruct (Nat.ltb_spec (num_n g) (fst a)); [lia|]. cbn [orb].
    destruct (Nat.ltb_spec (num_m g) (snd b)); [lia|]. destruct (Nat.ltb_spec (num_n g) (fst b)); [lia|]. cbn [orb].
    rewrite !(full_valid g W Hf) by auto. cbn [bind negb].
    destruct t; cbn [at_side] in Sa; rewrite Eg; cbn [bind].
    - rewrite Sa. reflexivity.
    - destruct (Nat.eqb_spec (fst a) (num_n g - 1)); [reflexivity|lia].
    - rewrite Sa. reflexivity.
    - destruct (Nat.eqb_spec (snd a) (num_m g - 1)); [reflexivity|lia].
  Qed.
End Full.

(** Node [i] of the new line, and of the lines next to it. *)
Definition new_at (t : line_type) (k : grid) (d i : nat) : gindex :=
  match t with LineBottom => (d, i) | LineTop => (num_n k - 1 - d, i) | LineLeft => (i, d) | LineRight => (i, num_m k - 1 - d) end.
Definition new_index (t : line_type) (c : gindex) : nat := match t with LineBottom | LineTop => snd c | _ => fst c end.

Lemma mirror_nodes_ok t k y i : num_n y = num_n k -> num_m y = num_m k -> 3 <= match t with LineBottom | LineTop => num_n k | _ => num_m k end ->
  mirror_nodes t y i = Ok (new_at t k 0 i, new_at t k 1 i, new_at t k 2 i).
Proof.
  intros N M H. destruct t; cbn [mirror_nodes new_at]; rewrite ?N, ?M; try reflexivity.
  - destruct (num_n k) as [|[|[|x]]]; try lia. cbn. rewrite !Nat.sub_0_r. reflexivity.
  - destruct (num_m k) as [|[|[|x]]]; try lia. cbn. rewrite !Nat.sub_0_r. reflexivity.
Qed.

(** The run over the line. *)
Lemma mirror_run factor t k lo hi : gwf k -> 3 <= match t with LineBottom | LineTop => num_n k | _ => num_m k end ->
  hi <= match t with LineBottom | LineTop => num_m k | _ => num_n k end ->
  exists h, fold_out (mirror_node factor t) (range lo hi) k = Ok h /\ redrawn k h /\
    (forall i, lo <= i < hi -> vis2 h (new_at t k 0 i) = blended factor (vis2 k (new_at t k 1 i)) (vis2 k (new_at t k 2 i))) /\
    (forall c, (forall i, lo <= i < hi -> c <> new_at t k 0 i) -> vis2 h c = vis2 k c).
Proof.
  intros W H3 Hh.
  assert (Sh : forall d i, d <= 2 -> lo <= i < hi -> shown2 k (new_at t k d i)) by (intros d i Hd Hi; destruct t; split; cbn [new_at fst snd]; lia).
  assert (Ne : forall d i j, 1 <= d <= 2 -> new_at t k d i <> new_at t k 0 j) by (intros d i j Hd; destruct t; cbn [new_at]; intros [= ? ?]; lia).
  assert (Inj : forall i j, new_at t k 0 i = new_at t k 0 j -> i = j) by (intros i j; destruct t; cbn [new_at]; intros [=]; lia).
  destruct (fold_pre (mirror_node factor t)
    (fun ps y => redrawn k y /\ (forall i, In i ps -> vis2 y (new_at t k 0 i) = blended factor (vis2 k (new_at t k 1 i)) (vis2 k (new_at t k 2 i))) /\
       (forall c, (forall i, In i ps -> c <> new_at t k 0 i) -> vis2 y c = vis2 k c)) (range lo hi) k) as (h & E & R & A & B).
  - intros l1 i l2 y El (R & A & B). assert (Hi : In i (range lo hi)) by (rewrite El; apply in_elt). apply in_range in Hi.
    destruct (rd_num k y R) as [N M]. assert (Wy : gwf y) by (eapply rd_gwf; eauto). unfold mirror_node.
    rewrite (mirror_nodes_ok t k y i N M H3). cbn [bind].
    rewrite (get2 y) by (auto; apply (rd_shown k y); auto). cbn [bind]. rewrite (get2 y) by (auto; apply (rd_shown k y); auto). cbn [bind].
    rewrite (set2 y) by (auto; apply (rd_shown k y); auto). rewrite !B by (intros; apply Ne; lia).
    eexists. split; [reflexivity|]. split; [eapply rd_trans; [exact R|apply rd_put, (rd_shown k y); auto]|]. split.
    + intros j Hj. destruct (Nat.eq_dec j i) as [->|Nj]; [rewrite vis2_same; reflexivity|]. rewrite vis2_other by (intros H; apply Nj, Inj, H).
      apply A. apply in_app_iff in Hj as [Hj|[Hj|[]]]; [exact Hj|congruence].
    + intros c Hc. rewrite vis2_other by (apply Hc, in_app_iff; right; left; reflexivity). apply B. intros j Hj. apply Hc, in_app_iff. auto.
  - split; [apply rd_refl|]. split; [intros i []|auto].
  - exists h. split; [exact E|]. split; [exact R|]. split; [intros i Hi; apply A, in_range, Hi|]. intros c Hc. apply B. intros i Hi. apply Hc. apply in_range, Hi.
Qed.

(** Lines at a side of the border. *)
Lemma side_coords g l t : proper l -> shown2 g (l_end l) -> at_side g t (l_start l) -> at_side g t (l_end l) -> gwf g ->
  apart t (l_start l) (l_end l) /\
  l_first l = new_index t (l_start l) /\ l_last l = new_index t (l_end l) /\
  l_first l <= l_last l /\ l_last l < (match t with LineBottom | LineTop => num_m g | _ => num_n g end).
Proof.
  destruct l as [[s1 s2] [e1 e2]]. unfold proper, straight, shown2, shown, apart, l_first, l_last, along_n. cbn [l_start l_end fst snd].
  intros (S & A & B & N) [U1 U2] Sa Sb W. assert (N2 : 2 <= num_n g /\ 2 <= num_m g) by (unfold gwf, num_n, num_m in *; lia).
  assert (NE : s1 <> e1 \/ s2 <> e2) by (destruct (Nat.eq_dec s1 e1), (Nat.eq_dec s2 e2); [|right|left|left]; congruence).
  destruct t; cbn [at_side new_index fst snd] in *; destruct (Nat.eqb_spec s2 e2); cbn beta iota; lia.
Qed.

Section Mirrored.
  Variable junk : nat -> nat -> point.

  Lemma mirror_ok factor l rest t g : gwf g -> full g -> hidden_missing g ->
    (start_n g = 0 \/ 0 < end_n g) /\ (start_m g = 0 \/ 0 < end_m g) ->
    SFleb factor (frac 0 1) = false -> proper l -> shown2 g (l_start l) -> shown2 g (l_end l) -> at_side g t (l_start l) -> at_side g t (l_end l) ->
    (t = LineLeft -> coord_along l (l_start l) <= num_m g) ->
    exists h u, mirror junk factor (l :: rest) g = Ok (h, u) /\
      num_n h = num_n g + lines_n t 1 /\ num_m h = num_m g + lines_m t 1 /\
      (forall c, shown2 g c -> vis2 h (GridSpec.shift t 1 c) = vis2 g c) /\
      (forall c, covers l c -> vis2 h (outward t 1 c) = blended factor (vis2 g c) (vis2 g (inward t c))) /\
      (forall a, shown2 h a -> (forall c, shown2 g c -> a <> GridSpec.shift t 1 c) -> (forall c, covers l c -> a <> outward t 1 c) -> is_valid (vis2 h a) = false) /\
      (t <> LineLeft -> undone u g h).
  Proof.
    intros W Hf Hh Hg Fa P S1 S2 Sa Sb Lf.
    destruct (side_coords g l t P S2 Sa Sb W) as (Ap & F1 & F2 & FL & Bd). rewrite <- first_coord in Lf.
    assert (N2 : 2 <= num_n g /\ 2 <= num_m g) by (unfold gwf, num_n, num_m in *; lia).
    unfold mirror. change zero with (frac 0 1). rewrite Fa.
    assert (Gv : grid_valid g = true) by (unfold grid_valid; apply andb_true_iff; rewrite !Nat.ltb_lt; lia). rewrite Gv. cbn [negb].
    assert (Hc : clean g) by (apply full_clean; auto).
    destruct (types_store g W Hc) as (g1 & -> & T1 & Fr1 & M1 & Ty1). cbn [bind].
    assert (W1 : gwf g1) by (eapply st_gwf; eauto). assert (C1 : clean g1) by (eapply st_clean; eauto).
    assert (H1 : hidden_missing g1) by (eapply st_hidden; eauto). assert (Hf1 : full g1) by (eapply st_full; eauto).
    assert (Ha1 : shown2 g1 (l_start l)) by (eapply st_shown; eauto). assert (Hb1 : shown2 g1 (l_end l)) by (eapply st_shown; eauto).
    assert (Hg1 : (start_n g1 = 0 \/ 0 < end_n g1) /\ (start_m g1 = 0 \/ 0 < end_m g1)).
    { rewrite (st_sn _ _ T1), (st_sm _ _ T1), (st_en _ _ T1), (st_em _ _ T1). auto. }
    assert (Sa1 : at_side g1 t (l_start l)) by (unfold at_side; rewrite (st_num_n _ _ T1), (st_num_m _ _ T1); exact Sa).
    assert (Sb1 : at_side g1 t (l_end l)) by (unfold at_side; rewrite (st_num_n _ _ T1), (st_num_m _ _ T1); exact Sb).
    rewrite (side_line_type g1 W1 Hf1 Ty1 H1 Hg1 _ _ t) by auto. cbn [bind].
    destruct (side_add_line g1 W1 Hf1 Ty1 H1 Hg1 junk _ _ t Ha1 Hb1 Ap Sa1 Sb1) as (g2 & -> & Eg). cbn [bind].
    pose proof (grown_line junk t g1 g2 W1 C1 H1 Eg) as G.
    destruct (types_store g2 (gr_wf _ _ _ _ G) (gr_clean _ _ _ _ G)) as (g3 & -> & T3 & _). cbn [bind compound_add act_state app].
    assert (W3 : gwf g3) by (eapply st_gwf; [exact T3|apply (gr_wf _ _ _ _ G)]).
    assert (C3 : clean g3) by (eapply st_clean; [exact T3|apply (gr_clean _ _ _ _ G)]).
    assert (N3 : num_n g3 = num_n g + lines_n t 1) by (rewrite (st_num_n _ _ T3), (gr_n _ _ _ _ G), (st_num_n _ _ T1); reflexivity).
    assert (M3 : num_m g3 = num_m g + lines_m t 1) by (rewrite (st_num_m _ _ T3), (gr_m _ _ _ _ G), (st_num_m _ _ T1); reflexivity).
    assert (V3 : forall c, shown2 g c -> vis2 g3 (GridSpec.shift t 1 c) = vis2 g c).
    { intros c Hs. assert (Hs1 : shown2 g1 c) by (eapply st_shown; eauto). 
      assert (Hs2 : shown2 g2 (GridSpec.shift t 1 c)).
      { split; rewrite ?(gr_n _ _ _ _ G), ?(gr_m _ _ _ _ G); destruct Hs1; destruct t; cbn [GridSpec.shift fst snd lines_n lines_m]; lia. }
      unfold vis2 at 1. rewrite (st_vis g2 g3) by auto. fold (vis2 g2 (GridSpec.shift t 1 c)). rewrite (gr_vis _ _ _ _ G) by auto. apply (st_vis g g1); auto. }
    assert (X3 : forall a, shown2 g3 a -> (forall c, shown2 g c -> a <> GridSpec.shift t 1 c) -> is_valid (vis2 g3 a) = false).
    { intros a Hs Hn. assert (Hs2 : shown2 g2 a) by (apply (st_shown g3 g2); auto using st_sym). unfold vis2. rewrite (st_vis g2 g3) by auto.
      apply (gr_new _ _ _ _ G); auto. intros b Hb. apply Hn. apply (st_shown g1 g); auto using st_sym. }
    set (blk := mirror_block t l g3).
    assert (Bk : fst (snd blk) <= num_n g3 /\ snd (snd blk) <= num_m g3).
    { unfold blk. destruct t; cbn [mirror_block fst snd lines_n lines_m] in *; try lia. specialize (Lf eq_refl). lia. }
    destruct blk as [[a1 a2] [b1 b2]] eqn:Eb. cbn [fst snd] in Bk |- *.
    destruct (block_copy_ok g3 a1 a2 b1 b2) as (block & -> & _ & _ & Hblk); [auto|lia|lia|]. cbn [bind compound_add act_state app].
    destruct (mirror_run factor t g3 (l_first l) (l_last l + 1)) as (h & -> & R & A & B); [auto| | |].
    { destruct t; cbn [lines_n lines_m] in *; lia. }
    { destruct t; cbn [lines_n lines_m] in *; lia. }
    cbn [bind]. eexists h, _. split; [reflexivity|]. destruct (rd_num g3 h R) as [Nh Mh].
    split; [congruence|]. split; [congruence|].
    assert (Sh : forall c, shown2 g c -> forall i, GridSpec.shift t 1 c <> new_at t g3 0 i).
    { intros [n m] [Hn Hm] i. destruct t; cbn [GridSpec.shift new_at fst snd lines_n lines_m] in *; intros [= ? ?]; lia. }
    split; [intros c Hs; rewrite B by (intros; apply Sh; auto); apply V3, Hs|].
    assert (Ln : forall c, covers l c -> exists i, l_first l <= i < l_last l + 1 /\ outward t 1 c = new_at t g3 0 i /\ shown2 g c /\ shown2 g (inward t c) /\
      GridSpec.shift t 1 c = new_at t g3 1 i /\ GridSpec.shift t 1 (inward t c) = new_at t g3 2 i).
    { intros [n m] Cv. exists (new_index t (n, m)). destruct l as [[s1 s2] [e1 e2]]. unfold covers, proper, straight, shown2, shown in *. cbn [l_start l_end fst snd] in *.
      rewrite F1, F2. destruct t; cbn [outward new_at new_index inward GridSpec.shift at_side lines_n lines_m fst snd] in *;
        (split; [lia|]); (split; [f_equal; lia|]); (split; [lia|]); (split; [lia|]); split; f_equal; lia. }
    split; [intros c Cv; destruct (Ln c Cv) as (i & Hi & -> & Sc & Si & E1 & E2); rewrite (A i Hi), <- E1, <- E2, !V3 by auto; reflexivity|].
    split.
    - intros a Hs Hn Ho. assert (Hs3 : shown2 g3 a) by (apply (rd_shown g3 h); auto). destruct Hs3 as [Q1 Q2].
      rewrite B; [apply X3; auto; split; auto|].
      intros i Hi ->. destruct l as [[s1 s2] [e1 e2]]. unfold covers, proper, straight in *. cbn [l_start l_end fst snd] in *.
      rewrite F1, F2 in Hi. clear - Ho Hi Sa Sb N3 M3 P N2.
      destruct t; cbn [outward new_at new_index at_side lines_n lines_m fst snd] in *.
      + apply (Ho (0, i)); [cbn; lia|f_equal; lia].
      + apply (Ho (s1, i)); [cbn; lia|cbn [outward fst snd]; f_equal; lia].
      + apply (Ho (i, 0)); [cbn; lia|f_equal; lia].
      + apply (Ho (i, s2)); [cbn; lia|cbn [outward fst snd]; f_equal; lia].
    - intros Nl. unfold undone, undo_grid. cbn [restore_act app bind grid_restore]. unfold swap_block_action.
      assert (Wh : gwf h) by (eapply rd_gwf; eauto).
      destruct (block_swap_ok h block a1 a2 b1 b2 Wh) as (b' & k & -> & F & Hd & Hi & Ho); [lia|lia|]. cbn [bind].
      assert (SS : same_store g3 k).
      { apply sf_store.
        - destruct F, (rd_frame _ _ R). constructor; congruence.
        - intros x y Hxy. pose proof (rd_frame _ _ R) as FR. rewrite Hd; [apply (rd_hidden _ _ R); auto|].
          rewrite (sf_sn _ _ FR), (sf_sm _ _ FR), Nh, Mh. exact Hxy.
        - intros n m Hs. assert (D : in_block a1 a2 b1 b2 n m \/ ~ in_block a1 a2 b1 b2 n m) by (unfold in_block; lia). destruct D as [D|D].
          + rewrite (proj1 (Hi n m D)). destruct D. apply Hblk; auto.
          + rewrite (Ho n m D). change (vis2 h (n, m) = vis2 g3 (n, m)). apply B. intros i Hi' Ec. apply D. clear - Nl Eb Ec Hi' N3 M3 Hs.
            unfold in_block, blk, shown in *. destruct t; cbn [mirror_block new_at lines_n lines_m] in *; injection Eb as <- <- <- <-; injection Ec as Ec1 Ec2; try lia. congruence. }
      destruct (types_store k (st_gwf _ _ SS W3) (st_clean _ _ SS C3)) as (k' & -> & SS' & _). cbn [bind].
      destruct (grow_ok junk t g1 W1) as (g2' & Eg' & Wg2 & _ & Q1 & Q2 & V & SV & L). rewrite Eg in Eg'. injection Eg' as <-.
      assert (Wx : gwf (hide t g2)) by (apply (hide_gwf t g1 g2); auto).
      assert (Cx : clean (hide t g2)) by (apply (view_clean g1); auto).
      destruct (restore_line t g2 k') as (y & Ey & Sy); [auto|auto|eapply st_trans; [exact T3|]; eapply st_trans; eauto|].
      rewrite Ey. cbn [bind]. eexists _, _. split; [reflexivity|].
      eapply same_view_trans; [apply st_view, T1|]. eapply same_view_trans; [exact SV|apply st_view; auto].
  Qed.

  Lemma mirror_refused factor lines g : SFleb factor (frac 0 1) = true \/ lines = [] \/ num_n g <= 1 \/ num_m g <= 1 -> mirror junk factor lines g = Throw StdErr.
  Proof.
    intros H. unfold mirror. change zero with (frac 0 1). destruct (SFleb factor (frac 0 1)) eqn:E; [reflexivity|]. destruct lines as [|l rest]; [reflexivity|].
    assert (Gv : grid_valid g = false).
    { unfold grid_valid. apply andb_false_iff. rewrite !Nat.ltb_ge. destruct H as [|[|[|]]]; try discriminate; auto. }
    rewrite Gv. reflexivity.
  Qed.
End Mirrored.

(** On a grid without missing nodes a face can be inserted at every edge of the border. *)
From Verif Require Import Base BaseLemmas FloatModel UtilModel UtilProofs UndoModel ActionModel GridModel GridSpec GridProofs GridClean GridEdits GridLines GridFace GridRefine.

Section Full.
  Variable g : grid.
  Hypothesis W : gwf g.
  Hypothesis Hf : full g.
  Hypothesis Hmask : mask_right g g.
  Hypothesis Htypes : types_right g g.
  Hypothesis Hhid : hidden_missing g.

  Lemma full_valid n m : n < num_n g -> m < num_m g -> node_valid g n m = Ok true.
  Proof. intros Hn Hm. rewrite node_valid_ok by (auto; split; auto). rewrite Hf by (split; auto). reflexivity. Qed.

  Lemma border_type n m t : shown g n m -> get_type g n m = Ok t ->
    (n = 0 -> t = BottomLeft \/ t = UpperLeft \/ t = LeftType /\ 0 < m /\ m + 1 < num_m g) /\
    (n + 1 = num_n g -> t = BottomRight \/ t = UpperRight \/ t = RightType /\ 0 < m /\ m + 1 < num_m g) /\
    (m = 0 -> t = BottomLeft \/ t = BottomRight \/ t = Bottom /\ 0 < n /\ n + 1 < num_n g) /\
    (m + 1 = num_m g -> t = UpperLeft \/ t = UpperRight \/ t = Up /\ 0 < n /\ n + 1 < num_n g).
  Proof.
    intros Hs Ht. destruct (type_found g W Htypes n m Hs) as (t' & Hcl & Ht'). rewrite Ht in Ht'. injection Ht' as ->.
    destruct Hs as [Hn Hm]. assert (N2 : 2 <= num_n g /\ 2 <= num_m g) by (unfold gwf, num_n, num_m in *; lia).
    unfold classify in Hcl. rewrite full_valid in Hcl by auto. cbn [bind negb] in Hcl.
    destruct (Nat.eqb_spec m 0) as [M0|M0].
    { destruct (Nat.eqb_spec n 0); [injection Hcl as <-; intuition lia|]. destruct (Nat.eqb_spec n (num_n g - 1)); [injection Hcl as <-; intuition lia|].
      rewrite !full_valid in Hcl by lia. cbn [bind negb] in Hcl. injection Hcl as <-. intuition lia. }
    destruct (Nat.eqb_spec m (num_m g - 1)) as [M1|M1].
    { destruct (Nat.eqb_spec n 0); [injection Hcl as <-; intuition lia|]. destruct (Nat.eqb_spec n (num_n g - 1)); [injection Hcl as <-; intuition lia|].
      rewrite !full_valid in Hcl by lia. cbn [bind negb] in Hcl. injection Hcl as <-. intuition lia. }
    destruct (Nat.eqb_spec n 0) as [N0|N0].
    { rewrite !full_valid in Hcl by lia. cbn [bind negb] in Hcl. injection Hcl as <-. intuition lia. }
    destruct (Nat.eqb_spec n (num_n g - 1)) as [N1|N1].
    { rewrite !full_valid in Hcl by lia. cbn [bind negb] in Hcl. injection Hcl as <-. intuition lia. }
    intuition lia.
  Qed.

  Lemma full_type n m : shown g n m -> exists t, get_type g n m = Ok t.
  Proof. intros Hs. destruct (type_found g W Htypes n m Hs) as (t' & _ & Ht'). eauto. Qed.

  (** Where the code looks one line beyond the last one, it stays within the stored nodes. *)
  Hypothesis Hmargin : (start_n g = 0 \/ 0 < end_n g) /\ (start_m g = 0 \/ 0 < end_m g).

  Lemma beyond_n n m : n + 1 = num_n g -> m < num_m g -> n + 1 < mrows (gnodes g) -> node_valid g (n + 1) m = Ok false.
  Proof.
    intros Hn Hm Hr. pose proof W as [W1 W2]. unfold num_n, num_m in Hn, Hm. unfold node_valid, get_node.
    rewrite mat_get_ok by lia. cbn [bind]. rewrite Hhid by (unfold num_n, num_m; lia). reflexivity.
  Qed.
  Lemma beyond_m n m : m + 1 = num_m g -> n < num_n g -> m + 1 < mcols (gnodes g) -> node_valid g n (m + 1) = Ok false.
  Proof.
    intros Hm Hn Hr. pose proof W as [W1 W2]. unfold num_n, num_m in Hn, Hm. unfold node_valid, get_node.
    rewrite mat_get_ok by lia. cbn [bind]. rewrite Hhid by (unfold num_n, num_m; lia). reflexivity.
  Qed.

  Lemma border_line_type a b t : shown2 g a -> shown2 g b -> neighbours a b -> at_side g t a -> at_side g t b ->
    boundary_line_type g a b = Ok t.
  Proof.
    destruct a as [an am], b as [bn bm]. unfold shown2, neighbours. cbn [fst snd]. intros Ha Hb Hnb Sa Sb.
    assert (N2 : 2 <= num_n g /\ 2 <= num_m g) by (unfold gwf, num_n, num_m in *; lia).
    destruct (full_type an am Ha) as (ta & Ta), (full_type bn bm Hb) as (tb & Tb).
    unfold boundary_line_type. cbn [fst snd]. rewrite Ta, Tb. cbn [bind].
    destruct (border_type an am ta Ha Ta) as (A1 & A2 & A3 & A4). destruct (border_type bn bm tb Hb Tb) as (B1 & B2 & B3 & B4).
    destruct Ha as [Ha1 Ha2], Hb as [Hb1 Hb2]. pose proof W as [W1 W2].
    destruct t; cbn [at_side fst snd] in Sa, Sb.
    - specialize (A1 Sa). specialize (B1 Sb). destruct (Nat.eqb_spec am bm); [lia|]. destruct (Nat.eqb_spec an bn); [|lia].
      destruct (Nat.ltb_spec (an + 1) (mrows (gnodes g))); [|unfold num_n in *; lia].
      rewrite !full_valid by lia. cbn [bind].
      destruct A1 as [->|[->|[-> _]]], B1 as [->|[->|[-> _]]]; reflexivity.
    - specialize (A2 Sa). specialize (B2 Sb). destruct (Nat.eqb_spec am bm); [lia|]. destruct (Nat.eqb_spec an bn); [|lia].
      destruct (Nat.ltb_spec (an + 1) (mrows (gnodes g))); [rewrite beyond_n by lia; cbn [bind]|];
        destruct A2 as [->|[->|[-> _]]], B2 as [->|[->|[-> _]]]; reflexivity.
    - specialize (A3 Sa). specialize (B3 Sb). destruct (Nat.eqb_spec am bm); [|lia].
      destruct (Nat.ltb_spec (am + 1) (mcols (gnodes g))); [|unfold num_m in *; lia].
      rewrite !full_valid by lia. cbn [bind].
      destruct A3 as [->|[->|[-> _]]], B3 as [->|[->|[-> _]]]; reflexivity.
    - specialize (A4 Sa). specialize (B4 Sb). destruct (Nat.eqb_spec am bm); [|lia].
      destruct (Nat.ltb_spec (am + 1) (mcols (gnodes g))); [rewrite beyond_m by lia; cbn [bind]|];
        destruct A4 as [->|[->|[-> _]]], B4 as [->|[->|[-> _]]]; reflexivity.
  Qed.

  Lemma border_add_line junk a b t : shown2 g a -> shown2 g b -> neighbours a b -> at_side g t a -> at_side g t b ->
    exists h, add_grid_line junk g a b = Ok (h, Some (Leaf Committed (line_leaf t))) /\ grow junk t g = Ok (h, line_leaf t).
  Proof.
    intros Ha Hb Hnb Sa Sb. destruct (grow_ok junk t g W) as (h & Eg & _). exists h. split; [|auto].
    unfold add_grid_line. rewrite (border_line_type a b t) by auto. destruct Ha as [Ha1 Ha2], Hb as [Hb1 Hb2].
    destruct (Nat.ltb_spec (num_m g) (snd a)); [lia|]. destruct (Nat.ltb_spec (num_n g) (fst a)); [lia|]. cbn [orb].
    destruct (Nat.ltb_spec (num_m g) (snd b)); [lia|]. destruct (Nat.ltb_spec (num_n g) (fst b)); [lia|]. cbn [orb].
    rewrite !full_valid by auto. cbn [bind negb].
    destruct t; cbn [at_side] in Sa; rewrite Eg; cbn [bind].
    - rewrite Sa. reflexivity.
    - destruct (Nat.eqb_spec (fst a) (num_n g - 1)); [reflexivity|lia].
    - rewrite Sa. reflexivity.
    - destruct (Nat.eqb_spec (snd a) (num_m g - 1)); [reflexivity|lia].
  Qed.
End Full.

Lemma st_full g h : same_store g h -> full g -> full h.
Proof.
  intros S F i j H. assert (shown g i j) by (apply (st_shown h g); auto using st_sym). rewrite (st_vis g h) by auto. apply F. auto.
Qed.

Lemma extend_ok' g h t a : gwf g -> same_store g h -> shown2 g a -> shown2 g (inward t a) -> (t = LineTop -> 0 < fst a) -> (t = LineRight -> 0 < snd a) ->
  exists p, extend_node h t a = Ok p.
Proof.
  intros W S Ha Hi H1 H2. assert (Wh : gwf h) by (eapply st_gwf; eauto). unfold extend_node.
  assert (Ha' : shown2 h a) by (eapply st_shown; eauto). assert (Hi' : shown2 h (inward t a)) by (eapply st_shown; eauto).
  rewrite get_node_ok by auto. cbn [bind].
  assert (E : line_inner t (fst a) (snd a) = Ok (inward t a)).
  { destruct a as [n m]. cbn [fst snd] in *. destruct t; cbn [line_inner inward fst snd]; auto.
    - destruct n; [specialize (H1 eq_refl); lia|]. cbn. repeat f_equal. lia.
    - destruct m; [specialize (H2 eq_refl); lia|]. cbn. repeat f_equal. lia. }
  rewrite E. cbn [bind]. rewrite get_node_ok by auto. cbn [bind]. eauto.
Qed.

(** C58: it works at every edge of the border. *)
Lemma insert_face_border junk g a b t : gwf g -> full g -> hidden_missing g ->
  (start_n g = 0 \/ 0 < end_n g) /\ (start_m g = 0 \/ 0 < end_m g) ->
  shown2 g a -> shown2 g b -> neighbours a b -> at_side g t a -> at_side g t b ->
  exists h u, insert_face junk g (Some (a, b)) = Ok (h, u) /\ num_n h = num_n g + lines_n t 1 /\ num_m h = num_m g + lines_m t 1.
Proof.
  intros W Hf Hh Hg Ha Hb Hnb Sa Sb. unfold insert_face.
  assert (Hc : clean g) by (apply full_clean; auto).
  destruct (types_store g W Hc) as (g1 & -> & S1 & F1 & M1 & T1). cbn [bind].
  assert (W1 : gwf g1) by (eapply st_gwf; eauto). assert (C1 : clean g1) by (eapply st_clean; eauto).
  assert (H1 : hidden_missing g1) by (eapply st_hidden; eauto). assert (Hf1 : full g1) by (eapply st_full; eauto).
  assert (Ha1 : shown2 g1 a) by (eapply st_shown; eauto). assert (Hb1 : shown2 g1 b) by (eapply st_shown; eauto).
  assert (Hg1 : (start_n g1 = 0 \/ 0 < end_n g1) /\ (start_m g1 = 0 \/ 0 < end_m g1)).
  { rewrite (st_sn _ _ S1), (st_sm _ _ S1), (st_en _ _ S1), (st_em _ _ S1). auto. }
  assert (Sa1 : at_side g1 t a) by (unfold at_side; rewrite (st_num_n _ _ S1), (st_num_m _ _ S1); exact Sa).
  assert (Sb1 : at_side g1 t b) by (unfold at_side; rewrite (st_num_n _ _ S1), (st_num_m _ _ S1); exact Sb).
  assert (N2 : 2 <= num_n g /\ 2 <= num_m g) by (unfold gwf, num_n, num_m in *; lia).
  unfold add_edge. rewrite (border_line_type g1 W1 Hf1 T1 H1 Hg1 a b t) by auto. cbn [bind].
  assert (I : forall c, shown2 g c -> at_side g t c -> exists p, extend_node g1 t c = Ok p).
  { intros [n m] [Hn Hm] Sc. apply (extend_ok' g); auto; destruct t; cbn [inward at_side fst snd] in *;
      try (split; auto); try discriminate; cbn [fst snd]; intros; lia. }
  destruct (I a Ha Sa) as (pa & ->), (I b Hb Sb) as (pb & ->). cbn [bind].
  destruct (border_add_line g1 W1 Hf1 T1 H1 Hg1 junk a b t Ha1 Hb1 Hnb Sa1 Sb1) as (g0 & -> & Eg). cbn [bind compound_add act_state].
  pose proof (grown_line junk t g1 g0 W1 C1 H1 Eg) as G.
  assert (O : forall c, shown2 g c -> at_side g t c -> line_outer t true (fst c) (snd c) = Ok (outward t 1 c) /\ shown2 g0 (outward t 1 c)).
  { destruct G as [_ Gn Gm _ _ _]. rewrite (st_num_n _ _ S1) in Gn. rewrite (st_num_m _ _ S1) in Gm.
    intros [n m] [Hn Hm] Sc. destruct t; cbn [line_outer outward at_side fst snd lines_n lines_m] in *; (split; [try reflexivity; repeat f_equal; lia|]);
      split; cbn [fst snd]; lia. }
  destruct (O a Ha Sa) as [Oa Oa'], (O b Hb Sb) as [Ob Ob']. cbv zeta. rewrite Oa. cbn [bind].
  unfold move_node at 1. rewrite get_node_ok, set_node_ok by (auto; apply (gr_wf _ _ _ _ G)). cbn [bind compound_add act_state].
  rewrite Ob. cbn [bind]. set (ga := put_node g0 _ _ pa). assert (Wa : gwf ga) by apply (gr_wf _ _ _ _ G).
  unfold move_node. rewrite get_node_ok, set_node_ok by auto. cbn [bind compound_add act_state].
  set (gb := put_node ga _ _ pb). assert (Wb : gwf gb) by exact Wa.
  destruct (compute_node_types_ok gb Wb) as (h1 & -> & F2 & _). cbn [bind].
  destruct (st_reindex h1) as (h' & -> & S3). cbn [bind]. eexists _, _. split; [reflexivity|].
  rewrite (st_num_n _ _ S3), (st_num_m _ _ S3), (sf_num_n _ _ F2), (sf_num_m _ _ F2).
  change (num_n gb) with (num_n g0). change (num_m gb) with (num_m g0).
  rewrite (gr_n _ _ _ _ G), (gr_m _ _ _ _ G), (st_num_n _ _ S1), (st_num_m _ _ S1). auto.
Qed.

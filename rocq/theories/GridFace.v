(** Inserting a face at the boundary: what is added, undo and redo. *)
From Verif Require Import Base BaseLemmas FloatModel UtilModel UtilProofs UndoModel ActionModel GridModel GridSpec GridProofs GridClean GridEdits GridLines.

(** *** Node types of a swept grid *)
Section Types.
  Variable g : grid.
  Hypothesis W : gwf g.
  Hypothesis Hc : clean g.
  Hypothesis Hmask : mask_right g g.
  Hypothesis Htypes : types_right g g.

  Lemma type_found n m : shown g n m ->
    exists t, classify g n m = Ok t /\ get_type g n m = Ok (match t with Some t => t | None => Invalid end).
  Proof.
    intros Hs. destruct Htypes as (Hr & Hcc & He). destruct (He n m Hs) as (t & Ht & E). exists t. split; auto.
    unfold get_type. rewrite <- E. destruct (vis_bounds g n m W Hs) as (_ & _ & A & B). apply mat_get_ok; congruence.
  Qed.

  (** The classification written with complete cells. *)
  Definition kind (n m : nat) (t : node_type) : Prop :=
    match t with
    | Bottom => 0 < n /\ (complete g n m \/ complete g (n - 1) m) /\ (0 < m -> ~ complete g n (m - 1) /\ ~ complete g (n - 1) (m - 1))
    | Up => 0 < n /\ 0 < m /\ (complete g n (m - 1) \/ complete g (n - 1) (m - 1)) /\ ~ complete g n m /\ ~ complete g (n - 1) m
    | LeftType => 0 < m /\ (complete g n m \/ complete g n (m - 1)) /\ (0 < n -> ~ complete g (n - 1) m /\ ~ complete g (n - 1) (m - 1))
    | RightType => 0 < n /\ 0 < m /\ (complete g (n - 1) m \/ complete g (n - 1) (m - 1)) /\ ~ complete g n m /\ ~ complete g n (m - 1)
    | _ => True
    end.

  Lemma not_complete n m : n + 1 < num_n g -> m + 1 < num_m g -> completeb g n m = false -> ~ complete g n m.
  Proof. intros A B E C. apply complete_b in C. destruct C as (_ & _ & C). congruence. Qed.
  Lemma is_complete n m : n + 1 < num_n g -> m + 1 < num_m g -> completeb g n m = true -> complete g n m.
  Proof. intros A B E. apply complete_b. auto. Qed.

  Lemma type_kind n m t : shown g n m -> get_type g n m = Ok t -> (t <> Invalid -> is_valid (vis g n m) = true) /\ kind n m t.
  Proof.
    intros Hs Ht. destruct (type_found n m Hs) as (t' & Hcl & Ht'). rewrite Ht in Ht'. injection Ht' as ->.
    unfold classify in Hcl. rewrite node_valid_ok in Hcl by auto. cbn [bind] in Hcl.
    destruct (is_valid (vis g n m)) eqn:Ev; cbn [negb] in Hcl.
    2:{ injection Hcl as <-. split; [congruence|exact I]. }
    split; [auto|]. destruct (Hc n m Hs Ev) as (cn & cm & Hcell & Hcor). pose proof Hcell as (Cn & Cm & _). destruct Hs as [Hn Hm].
    destruct (Nat.eqb_spec m 0) as [M0|M0].
    { destruct (Nat.eqb_spec n 0); [injection Hcl as <-; exact I|]. destruct (Nat.eqb_spec n (num_n g - 1)); [injection Hcl as <-; exact I|].
      rewrite !node_valid_ok in Hcl by (auto; split; lia). cbn [bind] in Hcl.
      destruct (is_valid (vis g (n - 1) m)); cbn [negb] in Hcl; [|injection Hcl as <-; exact I].
      destruct (is_valid (vis g (n + 1) m)); cbn [negb] in Hcl; injection Hcl as <-; [|exact I].
      cbn [kind]. split; [lia|]. split; [|lia]. destruct Hcor as [[Q|Q] [R|R]]; try lia; subst.
      - left. auto.
      - right. rewrite Nat.add_sub. auto. }
    destruct (Nat.eqb_spec m (num_m g - 1)) as [M1|M1].
    { destruct (Nat.eqb_spec n 0); [injection Hcl as <-; exact I|]. destruct (Nat.eqb_spec n (num_n g - 1)); [injection Hcl as <-; exact I|].
      rewrite !node_valid_ok in Hcl by (auto; split; lia). cbn [bind] in Hcl.
      destruct (is_valid (vis g (n - 1) m)); cbn [negb] in Hcl; [|injection Hcl as <-; exact I].
      destruct (is_valid (vis g (n + 1) m)); cbn [negb] in Hcl; injection Hcl as <-; [|exact I].
      cbn [kind]. split; [lia|]. split; [lia|]. split.
      - destruct Hcor as [[Q|Q] [R|R]]; try lia; subst; rewrite ?Nat.add_sub; auto.
      - unfold complete. lia. }
    destruct (Nat.eqb_spec n 0) as [N0|N0].
    { rewrite !node_valid_ok in Hcl by (auto; split; lia). cbn [bind] in Hcl.
      destruct (is_valid (vis g n (m - 1))); cbn [negb] in Hcl; [|injection Hcl as <-; exact I].
      destruct (is_valid (vis g n (m + 1))); cbn [negb] in Hcl; injection Hcl as <-; [|exact I].
      cbn [kind]. split; [lia|]. split; [|lia]. destruct Hcor as [[Q|Q] [R|R]]; try lia; subst; rewrite ?Nat.add_sub; auto. }
    destruct (Nat.eqb_spec n (num_n g - 1)) as [N1|N1].
    { rewrite !node_valid_ok in Hcl by (auto; split; lia). cbn [bind] in Hcl.
      destruct (is_valid (vis g n (m - 1))); cbn [negb] in Hcl; [|injection Hcl as <-; exact I].
      destruct (is_valid (vis g n (m + 1))); cbn [negb] in Hcl; injection Hcl as <-; [|exact I].
      cbn [kind]. split; [lia|]. split; [lia|]. split.
      - destruct Hcor as [[Q|Q] [R|R]]; try lia; subst; rewrite ?Nat.add_sub; auto.
      - unfold complete. lia. }
    rewrite !(get_mask_ok g g) in Hcl by (auto using sf_refl; lia). cbn [bind] in Hcl. injection Hcl as <-.
    assert (T : forall a b, a + 1 < num_n g -> b + 1 < num_m g -> if completeb g a b then complete g a b else ~ complete g a b).
    { intros a b A B. destruct (completeb g a b) eqn:E; [apply is_complete|apply not_complete]; auto. }
    pose proof (T n m ltac:(lia) ltac:(lia)) as T1. pose proof (T (n - 1) m ltac:(lia) ltac:(lia)) as T2.
    pose proof (T n (m - 1) ltac:(lia) ltac:(lia)) as T3. pose proof (T (n - 1) (m - 1) ltac:(lia) ltac:(lia)) as T4.
    destruct (completeb g n m), (completeb g (n - 1) m), (completeb g n (m - 1)), (completeb g (n - 1) (m - 1)); cbn [kind]; try exact I;
      repeat split; try lia; auto.
  Qed.

  (** The line that is grown is parallel to the edge, and the nodes on the other side exist. *)
  Lemma line_type_ok a b t : shown g (fst a) (snd a) -> shown g (fst b) (snd b) -> neighbours a b -> hidden_missing g ->
    boundary_line_type g a b = Ok t ->
    is_valid (vis g (fst a) (snd a)) = true /\ is_valid (vis g (fst b) (snd b)) = true /\
    match t with
    | LineBottom => fst a = fst b /\ fst a + 1 < num_n g
    | LineTop => fst a = fst b
    | LineLeft => snd a = snd b /\ snd a + 1 < num_m g
    | LineRight => snd a = snd b
    end.
  Proof.
    destruct a as [an am], b as [bn bm]. cbn [fst snd]. intros Ha Hb Hnb Hhid E. unfold boundary_line_type in E. cbn [fst snd] in E.
    destruct (get_type g an am) as [ta| |] eqn:Ta; cbn [bind] in E; try discriminate.
    destruct (get_type g bn bm) as [tb| |] eqn:Tb; cbn [bind] in E; try discriminate.
    destruct (type_kind an am ta Ha Ta) as [Va Ka]. destruct (type_kind bn bm tb Hb Tb) as [Vb Kb].
    destruct (node_type_eqb ta InternalValid || node_type_eqb ta Invalid || node_type_eqb tb InternalValid || node_type_eqb tb Invalid) eqn:E0; [discriminate|].
    apply orb_false_iff in E0 as [E0 E4]. apply orb_false_iff in E0 as [E0 E3]. apply orb_false_iff in E0 as [E1 E2].
    assert (Va' : is_valid (vis g an am) = true) by (apply Va; intros ->; discriminate).
    assert (Vb' : is_valid (vis g bn bm) = true) by (apply Vb; intros ->; discriminate).
    split; [auto|]. split; [auto|].
    assert (Eq : forall x y, node_type_eqb x y = true -> x = y) by (destruct x, y; cbn; congruence).
    assert (Hv : forall i j, is_valid (vis g i j) = true -> start_n g + i < mrows (gnodes g) -> start_m g + j < mcols (gnodes g) -> shown g i j).
    { intros i j V Bi Bj. unfold shown.
      destruct (lt_dec i (num_n g)), (lt_dec j (num_m g)); auto;
        exfalso; specialize (Hhid (start_n g + i) (start_m g + j) Bi Bj); fold (vis g i j) in Hhid; rewrite Hhid in V by lia; discriminate. }
    assert (Ge : forall i j, node_valid g i j = Ok true -> shown g i j).
    { intros i j. unfold node_valid, get_node, mat_get. destruct (Nat.leb_spec (mrows (gnodes g)) i); [discriminate|].
      destruct (Nat.leb_spec (mcols (gnodes g)) j); [discriminate|].
      destruct (Nat.ltb_spec (i + start_n g) (mrows (gnodes g))); [|discriminate].
      destruct (Nat.ltb_spec (j + start_m g) (mcols (gnodes g))); [|discriminate]. cbn [andb bind].
      intros V. apply Hv; [unfold vis; rewrite (Nat.add_comm (start_n g)), (Nat.add_comm (start_m g)); congruence|lia|lia]. }
    unfold neighbours in Hnb. cbn [fst snd] in Hnb.
    destruct (node_type_eqb ta Bottom && node_type_eqb tb Bottom) eqn:E5.
    { apply andb_true_iff in E5 as [X Y]. apply Eq in X, Y. subst ta tb. injection E as <-. cbn [kind] in Ka, Kb.
      split.
      - destruct Hnb as [[-> [->| ->]]|[-> _]]; auto; exfalso; rewrite ?Nat.add_sub in *; [|].
        + destruct Ka as (_ & Ka & _), Kb as (_ & _ & Kb). specialize (Kb ltac:(lia)). tauto.
        + destruct Kb as (_ & Kb & _), Ka as (_ & _ & Ka). specialize (Ka ltac:(lia)). tauto.
      - destruct Ka as (_ & [Ka|Ka] & _); destruct Ka as (_ & Ka & _); lia. }
    destruct (node_type_eqb ta Up && node_type_eqb tb Up) eqn:E6.
    { apply andb_true_iff in E6 as [X Y]. apply Eq in X, Y. subst ta tb. injection E as <-. cbn [kind] in Ka, Kb.
      destruct Hnb as [[-> [->| ->]]|[-> _]]; auto; exfalso; rewrite ?Nat.add_sub in *; tauto. }
    destruct (node_type_eqb ta LeftType && node_type_eqb tb LeftType) eqn:E7.
    { apply andb_true_iff in E7 as [X Y]. apply Eq in X, Y. subst ta tb. injection E as <-. cbn [kind] in Ka, Kb.
      split.
      - destruct Hnb as [[-> _]|[-> [->| ->]]]; auto; exfalso; rewrite ?Nat.add_sub in *; [|].
        + destruct Ka as (_ & Ka & _), Kb as (_ & _ & Kb). specialize (Kb ltac:(lia)). tauto.
        + destruct Kb as (_ & Kb & _), Ka as (_ & _ & Ka). specialize (Ka ltac:(lia)). tauto.
      - destruct Ka as (_ & [Ka|Ka] & _); destruct Ka as (Ka & _); lia. }
    destruct (node_type_eqb ta RightType && node_type_eqb tb RightType) eqn:E8.
    { apply andb_true_iff in E8 as [X Y]. apply Eq in X, Y. subst ta tb. injection E as <-. cbn [kind] in Ka, Kb.
      destruct Hnb as [[-> _]|[-> [->| ->]]]; auto; exfalso; rewrite ?Nat.add_sub in *; tauto. }
    destruct (Nat.eqb_spec am bm) as [Em|Em].
    { destruct (Nat.ltb_spec (am + 1) (mcols (gnodes g))); [|injection E as <-; auto].
      destruct (node_valid g an (am + 1)) as [[|]| |] eqn:Na; cbn [bind] in E; try discriminate; [|injection E as <-; auto].
      destruct (node_valid g bn (bm + 1)) as [[|]| |] eqn:Nb; cbn [bind] in E; try discriminate; injection E as <-; auto.
      split; auto. apply Ge in Na. destruct Na. lia. }
    destruct (Nat.eqb_spec an bn) as [En|En]; [|discriminate].
    destruct (Nat.ltb_spec (an + 1) (mrows (gnodes g))); [|injection E as <-; auto].
    destruct (node_valid g (an + 1) am) as [[|]| |] eqn:Na; cbn [bind] in E; try discriminate; [|injection E as <-; auto].
    destruct (node_valid g (bn + 1) bm) as [[|]| |] eqn:Nb; cbn [bind] in E; try discriminate; injection E as <-; auto.
    split; auto. apply Ge in Na. destruct Na. lia.
  Qed.
End Types.

Lemma put_clean g n m p : shown g n m -> is_valid p = true ->
  (forall i j, shown g i j -> (i, j) <> (n, m) -> is_valid (vis g i j) = true -> in_cell (put_node g n m p) i j) ->
  in_cell (put_node g n m p) n m -> clean (put_node g n m p).
Proof.
  intros Hs Hp Ho Hn i j Hij Hv. destruct (gindex_dec (i, j) (n, m)) as [E|E].
  - injection E as -> ->. auto.
  - rewrite vis_put_other in Hv by auto. apply Ho; auto.
Qed.

Lemma put_complete g n m p cn cm : is_valid p = true -> complete g cn cm -> complete (put_node g n m p) cn cm.
Proof.
  intros Hp (A & B & V1 & V2 & V3 & V4).
  assert (V : forall i j, is_valid (vis g i j) = true -> is_valid (vis (put_node g n m p) i j) = true).
  { intros i j Hv. destruct (gindex_dec (i, j) (n, m)) as [E|E].
    - injection E as -> ->. rewrite vis_put_same. auto.
    - rewrite vis_put_other by auto. auto. }
  split; [exact A|]. split; [exact B|]. auto.
Qed.

Lemma put_valid g n m p i j : is_valid p = true -> is_valid (vis g i j) = true -> is_valid (vis (put_node g n m p) i j) = true.
Proof.
  intros Hp Hv. destruct (gindex_dec (i, j) (n, m)) as [E|E].
  - injection E as -> ->. rewrite vis_put_same. auto.
  - rewrite vis_put_other by auto. auto.
Qed.

(** The grid in which one line was added, or none. *)
Record grown (t : line_type) (s : nat) (g h : grid) : Prop := Grown {
  gr_wf : gwf h; gr_n : num_n h = num_n g + lines_n t s; gr_m : num_m h = num_m g + lines_m t s;
  gr_vis : forall a, shown2 g a -> vis2 h (shift t s a) = vis2 g a;
  gr_new : forall a, shown2 h a -> (forall b, shown2 g b -> a <> shift t s b) -> is_valid (vis2 h a) = false;
  gr_clean : clean h }.

Lemma grown_none t g h : gwf g -> clean g -> same_store g h -> grown t 0 g h.
Proof.
  intros W Hc S. constructor.
  - eapply st_gwf; eauto.
  - rewrite (st_num_n _ _ S). destruct t; cbn; lia.
  - rewrite (st_num_m _ _ S). destruct t; cbn; lia.
  - intros [i j] Hs. replace (shift t 0 (i, j)) with (i, j) by (destruct t; cbn; rewrite ?Nat.add_0_r; reflexivity). apply st_vis; auto.
  - intros [i j] Hs Hn. exfalso. apply (Hn (i, j)).
    + apply st_sym in S. apply (st_shown h g); auto.
    + destruct t; cbn; rewrite ?Nat.add_0_r; reflexivity.
  - eapply st_clean; eauto.
Qed.

Lemma shift_up t a : shift t 1 a = (fst a + up_n t, snd a + up_m t).
Proof. destruct a, t; cbn; rewrite ?Nat.add_0_r; reflexivity. Qed.

Lemma grown_line junk t g h : gwf g -> clean g -> hidden_missing g -> grow junk t g = Ok (h, line_leaf t) -> grown t 1 g h.
Proof.
  intros W Hc Hm E. destruct (grow_ok junk t g W) as (h' & E' & Wh & _ & N1 & N2 & V & _ & L). rewrite E in E'. injection E' as <-.
  destruct (L Hm) as [_ L2]. constructor; auto.
  - intros [i j] Hs. rewrite shift_up. apply V; auto.
  - intros [i j] Hs Hn. apply L2; auto. destruct (on_line_dec t h i j) as [D|D]; auto.
    destruct (off_line t g h i j N1 N2 Hs D) as (i' & j' & -> & -> & Hs'). exfalso. apply (Hn (i', j') Hs'). rewrite shift_up. reflexivity.
  - apply (grown_clean t g h); auto.
Qed.

Lemma move_node_inv g n m p h u : gwf g -> shown g n m -> move_node g n m p = Ok (h, u) ->
  h = put_node g n m p /\ u = Leaf Committed (ResetNode n m (vis g n m) p false).
Proof. intros W Hs. unfold move_node. rewrite get_node_ok by auto. cbn [bind]. rewrite set_node_ok by auto. cbn [bind]. intros [= <- <-]. auto. Qed.

Lemma restore_node g h n m p q : gwf g -> shown g n m -> same_store g h ->
  grid_restore (ResetNode n m p q false) h = Ok (ResetNode n m p q false, put_node h n m p).
Proof. intros W Hs S. cbn [grid_restore]. rewrite set_node_ok; [reflexivity|eapply st_gwf; eauto|eapply st_shown; eauto]. Qed.
Lemma commit_node g h n m p q : gwf g -> shown g n m -> same_store g h ->
  grid_commit (ResetNode n m p q false) h = Ok (ResetNode n m p q false, put_node h n m q).
Proof. intros W Hs S. cbn [grid_commit]. rewrite set_node_ok; [reflexivity|eapply st_gwf; eauto|eapply st_shown; eauto]. Qed.

(** Two moved nodes: undo gives the nodes before, redo the nodes after. *)
Lemma restore_two g h na ma nb mb pa pb : gwf g -> shown g na ma -> shown g nb mb ->
  let g1 := put_node g na ma pa in let g2 := put_node g1 nb mb pb in
  same_store g2 h ->
  exists k, same_store g k /\
    (let! (x, s) := grid_restore (ResetNode nb mb (vis g1 nb mb) pb false) h in
     let! (y, s) := grid_restore (ResetNode na ma (vis g na ma) pa false) s in Ok (x, y, s)) =
    Ok (ResetNode nb mb (vis g1 nb mb) pb false, ResetNode na ma (vis g na ma) pa false, k).
Proof.
  intros W Ha Hb g1 g2 S. rewrite (restore_node g2) by (auto; apply W). cbn [bind].
  assert (S1 : same_store g1 (put_node h nb mb (vis g1 nb mb))).
  { eapply st_trans; [apply st_put_back|]. apply st_put. exact S. }
  rewrite (restore_node g1) by (auto; apply W). cbn [bind]. eexists. split; [|reflexivity].
  eapply st_trans; [apply st_put_back|]. apply st_put. exact S1.
Qed.

Lemma pred_index_inv i k : pred_index i = Ok k -> i = k + 1.
Proof. destruct i; cbn [pred_index]; [discriminate|]. intros [= <-]. lia. Qed.

Lemma bind_inv {A B} (e : outcome A) (f : A -> outcome B) b : bind e f = Ok b -> exists a, e = Ok a /\ f a = Ok b.
Proof. destruct e; cbn [bind]; try discriminate. intros H. eexists. split; [reflexivity|exact H]. Qed.

Lemma line_outer_ok t s grown n m k : (s = if grown : bool then 1 else 0) -> line_outer t grown n m = Ok k ->
  (match t with LineBottom => grown = true -> n = 0 | LineLeft => grown = true -> m = 0 | _ => True end) -> k = outward t s (n, m).
Proof.
  intros -> E H. destruct t, grown; cbn [line_outer outward fst snd] in *; try (injection E as <-); try (specialize (H eq_refl); subst);
    rewrite ?Nat.add_0_r; try reflexivity;
    apply bind_inv in E as (i & E & [= <-]); apply pred_index_inv in E as ->; f_equal; lia.
Qed.

Lemma add_edge_none junk g a b h : gwf g -> shown2 g a -> shown2 g b -> is_valid (vis2 g a) = true -> is_valid (vis2 g b) = true ->
  add_grid_line junk g a b = Ok (h, None) -> h = g /\
  exists t, boundary_line_type g a b = Ok t /\
    match t with
    | LineBottom => fst a <> 0 /\ fst b <> 0 | LineTop => fst a <> num_n g - 1 /\ fst b <> num_n g - 1
    | LineLeft => snd a <> 0 /\ snd b <> 0 | LineRight => snd a <> num_m g - 1 /\ snd b <> num_m g - 1
    end.
Proof.
  intros W Ha Hb Va Vb. unfold add_grid_line. destruct (_ || _); [discriminate|]. destruct (_ || _); [discriminate|].
  rewrite !node_valid_ok by auto. cbn [bind]. fold (vis2 g a) (vis2 g b). rewrite Va, Vb. cbn [bind].
  destruct (boundary_line_type g a b) as [t| |]; cbn [bind]; try discriminate. cbn [negb].
  destruct (match t with LineBottom => _ | _ => _ end) eqn:E.
  - destruct (grow junk t g) as [[x l]| |]; discriminate.
  - intros [= <-]. split; auto. exists t. split; auto.
    destruct t; apply orb_false_iff in E as [E1 E2]; apply Nat.eqb_neq in E1, E2; auto.
Qed.

Lemma add_edge_some junk g a b h u : gwf g -> shown2 g a -> shown2 g b -> add_grid_line junk g a b = Ok (h, Some u) ->
  exists t, boundary_line_type g a b = Ok t /\ grow junk t g = Ok (h, line_leaf t) /\ u = Leaf Committed (line_leaf t) /\
    match t with
    | LineBottom => fst a = 0 \/ fst b = 0 | LineTop => fst a = num_n g - 1 \/ fst b = num_n g - 1
    | LineLeft => snd a = 0 \/ snd b = 0 | LineRight => snd a = num_m g - 1 \/ snd b = num_m g - 1
    end.
Proof.
  intros W Ha Hb E. pose proof E as E'. apply add_grid_line_inv in E' as (t & Et & Eg & Eu & Na & Nb). exists t. do 3 (split; [auto|]).
  revert E. unfold add_grid_line. destruct (_ || _); [discriminate|]. destruct (_ || _); [discriminate|].
  rewrite Na. cbn [bind]. rewrite Nb. cbn [bind]. rewrite Et. cbn [bind negb].
  destruct (match t with LineBottom => _ | _ => _ end) eqn:E; [|discriminate]. intros _.
  destruct t; apply orb_true_iff in E as [E|E]; apply Nat.eqb_eq in E; auto.
Qed.

(** The cell between an edge and the two nodes outside it. *)
Lemma new_cell t s g h a b : grown t s g h -> shown2 g a -> shown2 g b -> neighbours a b -> (s = 0 \/ s = 1) ->
  (match t with
   | LineBottom => fst a = fst b /\ fst a + s >= 1 | LineTop => fst a = fst b /\ fst a + 1 < num_n h
   | LineLeft => snd a = snd b /\ snd a + s >= 1 | LineRight => snd a = snd b /\ snd a + 1 < num_m h
   end) ->
  shown2 h (outward t s a) /\ shown2 h (outward t s b) /\ outward t s a <> outward t s b /\
  forall k, num_n k = num_n h -> num_m k = num_m h ->
    is_valid (vis2 k (shift t s a)) = true -> is_valid (vis2 k (shift t s b)) = true ->
    is_valid (vis2 k (outward t s a)) = true -> is_valid (vis2 k (outward t s b)) = true ->
    in_cell k (fst (outward t s a)) (snd (outward t s a)) /\ in_cell k (fst (outward t s b)) (snd (outward t s b)).
Proof.
  intros [Wh Nn Nm _ _ _]. destruct a as [an am], b as [bn bm]. unfold shown2, shown, neighbours, vis2.
  intros Ha Hb Hnb Hs Ht. cbn [fst snd] in *.
  assert (Cell : forall k x y, num_n k = num_n h -> num_m k = num_m h -> x + 1 < num_n h -> y + 1 < num_m h ->
     is_valid (vis k x y) = true -> is_valid (vis k x (y + 1)) = true -> is_valid (vis k (x + 1) y) = true -> is_valid (vis k (x + 1) (y + 1)) = true ->
     forall i j, corner_of x y i j -> in_cell k i j).
  { intros k x y E1 E2 Hx Hy V1 V2 V3 V4 i j Hco. exists x, y. split; auto. unfold complete. rewrite E1, E2. tauto. }
  destruct t; cbn [outward shift lines_n lines_m fst snd] in *.
  - destruct Ht as [<- Ht]. split; [lia|]. split; [lia|]. split; [intros [= Q]; lia|].
    intros k E1 E2 V1 V2 V3 V4.
    destruct Hnb as [[_ [->| ->]]|[_ [?|?]]]; try lia.
    + split; apply (Cell k (an + s - 1) am); auto; try lia; try (replace (an + s - 1 + 1) with (an + s) by lia; auto); unfold corner_of; lia.
    + split; apply (Cell k (an + s - 1) bm); auto; try lia; try (replace (an + s - 1 + 1) with (an + s) by lia; auto); unfold corner_of; lia.
  - destruct Ht as [<- Ht]. split; [lia|]. split; [lia|]. split; [intros [= Q]; lia|].
    intros k E1 E2 V1 V2 V3 V4.
    destruct Hnb as [[_ [->| ->]]|[_ [?|?]]]; try lia.
    + split; apply (Cell k an am); auto; try lia; unfold corner_of; lia.
    + split; apply (Cell k an bm); auto; try lia; unfold corner_of; lia.
  - destruct Ht as [<- Ht]. split; [lia|]. split; [lia|]. split; [intros [= Q]; lia|].
    intros k E1 E2 V1 V2 V3 V4.
    destruct Hnb as [[_ [?|?]]|[_ [->| ->]]]; try lia.
    + split; apply (Cell k an (am + s - 1)); auto; try lia; try (replace (am + s - 1 + 1) with (am + s) by lia; auto); unfold corner_of; lia.
    + split; apply (Cell k bn (am + s - 1)); auto; try lia; try (replace (am + s - 1 + 1) with (am + s) by lia; auto); unfold corner_of; lia.
  - destruct Ht as [<- Ht]. split; [lia|]. split; [lia|]. split; [intros [= Q]; lia|].
    intros k E1 E2 V1 V2 V3 V4.
    destruct Hnb as [[_ [?|?]]|[_ [->| ->]]]; try lia.
    + split; apply (Cell k an am); auto; try lia; unfold corner_of; lia.
    + split; apply (Cell k bn am); auto; try lia; unfold corner_of; lia.
Qed.

Lemma extend_ok g h t a p : gwf g -> same_store g h -> shown2 g a ->
  (match t with LineBottom => fst a + 1 < num_n g | LineLeft => snd a + 1 < num_m g | _ => True end) ->
  extend_node h t a = Ok p -> p = mirrored (vis2 g a) (vis2 g (inward t a)).
Proof.
  intros W S Ha Ht. assert (Wh : gwf h) by (eapply st_gwf; eauto).
  assert (G : forall b, shown2 g b -> get_node h (fst b) (snd b) = Ok (vis2 g b)).
  { intros b Hb. rewrite get_node_ok by (auto; eapply st_shown; eauto). f_equal. apply st_vis; auto. }
  unfold extend_node. rewrite (G a Ha). cbn [bind]. intros E. apply bind_inv in E as (k & Ek & E).
  assert (Hk : k = inward t a /\ shown2 g k).
  { unfold shown2, shown in *. destruct a as [n m]. destruct t; cbn [line_inner inward fst snd] in *.
    - injection Ek as <-. cbn [fst snd]. split; [reflexivity|lia].
    - apply bind_inv in Ek as (i & Ei & [= <-]). apply pred_index_inv in Ei as ->. rewrite Nat.add_sub. cbn [fst snd]. split; [reflexivity|lia].
    - injection Ek as <-. cbn [fst snd]. split; [reflexivity|lia].
    - apply bind_inv in Ek as (i & Ei & [= <-]). apply pred_index_inv in Ei as ->. rewrite Nat.add_sub. cbn [fst snd]. split; [reflexivity|lia]. }
  destruct Hk as [-> Hk]. rewrite (G _ Hk) in E. cbn [bind] in E. injection E as <-. reflexivity.
Qed.

Lemma st_hidden g h : same_store g h -> hidden_missing g -> hidden_missing h.
Proof.
  intros S H a b Ha Hb Hn. pose proof S as []. rewrite st_entry by congruence. apply H; try congruence.
  rewrite <- st_sn, <- st_sm, <- (st_num_n _ _ S), <- (st_num_m _ _ S). auto.
Qed.

Lemma insert_face_ok junk g a b h u : gwf g -> clean g -> hidden_missing g -> shown2 g a -> shown2 g b -> neighbours a b ->
  insert_face junk g (Some (a, b)) = Ok (h, u) ->
  exists t s pa pb, (s = 0 \/ s = 1) /\ (s = 1 -> at_side g t a /\ at_side g t b) /\
    num_n h = num_n g + lines_n t s /\ num_m h = num_m g + lines_m t s /\
    pa = mirrored (vis2 g a) (vis2 g (inward t a)) /\ pb = mirrored (vis2 g b) (vis2 g (inward t b)) /\
    (is_valid pa = true -> is_valid pb = true ->
       vis2 h (outward t s a) = pa /\ vis2 h (outward t s b) = pb /\
       (forall c, shown2 g c -> shift t s c <> outward t s a -> shift t s c <> outward t s b -> vis2 h (shift t s c) = vis2 g c) /\
       (forall c, shown2 h c -> (forall d, shown2 g d -> c <> shift t s d) -> c <> outward t s a -> c <> outward t s b ->
          is_valid (vis2 h c) = false) /\
       reversible u g h).
Proof.
  intros W Hc Hm Ha Hb Hnb E. unfold insert_face in E.
  destruct (types_store g W Hc) as (g1 & E1 & S1 & F1 & M1 & T1). rewrite E1 in E. cbn [bind] in E.
  assert (W1 : gwf g1) by (eapply st_gwf; eauto). assert (C1 : clean g1) by (eapply st_clean; eauto).
  assert (H1 : hidden_missing g1) by (eapply st_hidden; eauto).
  assert (Ha1 : shown2 g1 a) by (eapply st_shown; eauto). assert (Hb1 : shown2 g1 b) by (eapply st_shown; eauto).
  apply bind_inv in E as ((g2 & u') & Ee & E). unfold add_edge in Ee.
  apply bind_inv in Ee as (t & Et & Ee).
  destruct (line_type_ok g1 W1 C1 M1 T1 a b t Ha1 Hb1 Hnb H1 Et) as (Va1 & Vb1 & Ht).
  apply bind_inv in Ee as (pa & Epa & Ee). apply bind_inv in Ee as (pb & Epb & Ee).
  assert (Pa : pa = mirrored (vis2 g a) (vis2 g (inward t a))).
  { apply (extend_ok g g1 t a pa W S1 Ha); auto. rewrite (st_num_n _ _ S1), (st_num_m _ _ S1) in Ht. destruct t; tauto. }
  assert (Pb : pb = mirrored (vis2 g b) (vis2 g (inward t b))).
  { apply (extend_ok g g1 t b pb W S1 Hb); auto. rewrite (st_num_n _ _ S1), (st_num_m _ _ S1) in Ht.
    destruct t; auto; destruct Ht as [<- ?]; auto. }
  apply bind_inv in Ee as ((g0 & line) & El & Ee).
  set (s := match line with Some _ => 1 | None => 0 end).
  set (base := match line with Some _ => [Leaf Committed (line_leaf t)] | None => [] end : list gact).
  assert (Gr : grown t s g1 g0 /\ line = (match line with Some _ => Some (Leaf Committed (line_leaf t)) | None => None end) /\
     match t with
     | LineBottom => fst a = fst b /\ fst a + s >= 1 /\ (s = 1 -> fst a = 0)
     | LineTop => fst a = fst b /\ fst a + 1 < num_n g0 /\ (s = 1 -> fst a + 1 = num_n g)
     | LineLeft => snd a = snd b /\ snd a + s >= 1 /\ (s = 1 -> snd a = 0)
     | LineRight => snd a = snd b /\ snd a + 1 < num_m g0 /\ (s = 1 -> snd a + 1 = num_m g)
     end).
  { rewrite <- (st_num_n _ _ S1), <- (st_num_m _ _ S1). unfold s. destruct line as [l|].
    - destruct (add_edge_some junk g1 a b g0 l W1 Ha1 Hb1 El) as (t' & Et' & Eg & -> & Hbd). rewrite Et in Et'. injection Et' as <-.
      pose proof (grown_line junk t g1 g0 W1 C1 H1 Eg) as G. split; [auto|]. split; [auto|].
      destruct G. destruct Ha1 as [Ha11 Ha12], Hb1 as [Hb11 Hb12]. destruct t; cbn [lines_n lines_m] in *; lia.
    - destruct (add_edge_none junk g1 a b g0 W1 Ha1 Hb1 Va1 Vb1 El) as (-> & t' & Et' & Hbd). rewrite Et in Et'. injection Et' as <-.
      split; [apply grown_none; auto; apply st_refl|]. split; [auto|].
      destruct Ha1 as [Ha11 Ha12], Hb1 as [Hb11 Hb12]. destruct t; lia. }
  destruct Gr as (G & Eline & Hgeo).
  assert (Hs01 : s = 0 \/ s = 1) by (unfold s; destruct line; auto).
  assert (Hgeo' : match t with
   | LineBottom => fst a = fst b /\ fst a + s >= 1 | LineTop => fst a = fst b /\ fst a + 1 < num_n g0
   | LineLeft => snd a = snd b /\ snd a + s >= 1 | LineRight => snd a = snd b /\ snd a + 1 < num_m g0
   end) by (destruct t; tauto).
  destruct (new_cell t s g1 g0 a b G Ha1 Hb1 Hnb Hs01 Hgeo') as (Sa & Sb & Nab & Ncell).
  assert (Eb : compound_add [] line = Ok base) by (unfold base; destruct line; [injection Eline as ->|]; reflexivity).
  cbv zeta in Ee. rewrite Eb in Ee. cbn [bind] in Ee.
  assert (Out : forall c k, fst c = fst a \/ t = LineLeft \/ t = LineRight -> snd c = snd a \/ t = LineBottom \/ t = LineTop ->
     line_outer t (match line with Some _ => true | None => false end) (fst c) (snd c) = Ok k -> k = outward t s c).
  { intros [cn cm] k H2 H3 Ek. apply (line_outer_ok t s) in Ek; auto.
    - unfold s. destruct line; auto.
    - cbn [fst snd] in *. unfold s in Hgeo. destruct t; auto; destruct line; try discriminate; intros _.
      + destruct H2 as [->|[?|?]]; try discriminate. apply Hgeo; auto.
      + destruct H3 as [->|[?|?]]; try discriminate. apply Hgeo; auto. }
  apply bind_inv in Ee as (ta & Eta & Ee). apply Out in Eta; [subst ta|auto|auto].
  apply bind_inv in Ee as ((ga & ua) & Ema & Ee).
  apply (move_node_inv g0) in Ema as [-> ->]; [|apply (gr_wf _ _ _ _ G)|exact Sa]. cbn [compound_add act_state bind] in Ee.
  apply bind_inv in Ee as (tb & Etb & Ee).
  apply Out in Etb; [subst tb|destruct t; auto; left; destruct Hgeo as [Q _]; congruence|destruct t; auto; left; destruct Hgeo as [Q _]; congruence].
  apply bind_inv in Ee as ((gb & ub) & Emb & Ee).
  set (ga := put_node g0 (fst (outward t s a)) (snd (outward t s a)) pa) in *.
  assert (Wa : gwf ga) by apply (gr_wf _ _ _ _ G).
  apply (move_node_inv ga) in Emb as [-> ->]; [|exact Wa|exact Sb]. cbn [compound_add act_state bind] in Ee. injection Ee as <- <-.
  set (gb := put_node ga (fst (outward t s b)) (snd (outward t s b)) pb) in *.
  assert (Wb : gwf gb) by exact Wa.
  assert (Nb : num_n gb = num_n g0 /\ num_m gb = num_m g0) by (split; reflexivity).
  apply bind_inv in E as (h1 & Eh1 & E). apply bind_inv in E as (h2 & Eh2 & E). injection E as -> <-.
  destruct (compute_node_types_ok gb Wb) as (h1' & Eh1' & F2 & Hid2 & Sw2 & _ & _). rewrite Eh1 in Eh1'. injection Eh1' as <-.
  destruct (st_reindex h1) as (h' & Eh2' & S3). rewrite Eh2 in Eh2'. injection Eh2' as <-.
  exists t, s, pa, pb. split; [auto|]. split; [intros Es1; destruct t; cbn [at_side]; lia|].
  split; [rewrite (st_num_n _ _ S3), (sf_num_n _ _ F2); destruct Nb as [-> _]; rewrite (gr_n _ _ _ _ G), (st_num_n _ _ S1); reflexivity|].
  split; [rewrite (st_num_m _ _ S3), (sf_num_m _ _ F2); destruct Nb as [_ ->]; rewrite (gr_m _ _ _ _ G), (st_num_m _ _ S1); reflexivity|].
  split; [auto|]. split; [auto|]. intros Vpa Vpb. clear Pa Pb Epa Epb Out.
  (* the nodes after the two moves *)
  assert (VA : vis2 gb (outward t s a) = pa).
  { unfold vis2, gb. rewrite vis_put_other by (intros Q; apply Nab; destruct (outward t s a), (outward t s b); exact Q). apply vis_put_same. }
  assert (VB : vis2 gb (outward t s b) = pb) by apply vis_put_same.
  assert (VO : forall c, c <> outward t s a -> c <> outward t s b -> vis2 gb c = vis2 g0 c).
  { intros c Na Nb'. unfold vis2, gb, ga. rewrite vis_put_other by (intros Q; apply Nb'; destruct c, (outward t s b); exact Q).
    rewrite vis_put_other by (intros Q; apply Na; destruct c, (outward t s a); exact Q). reflexivity. }
  assert (VV : forall c, is_valid (vis2 g0 c) = true -> is_valid (vis2 gb c) = true).
  { intros c Hv. unfold vis2, gb, ga. apply put_valid; auto. apply put_valid; auto. }
  (* they are clean *)
  assert (Cb : clean gb).
  { assert (New : in_cell gb (fst (outward t s a)) (snd (outward t s a)) /\ in_cell gb (fst (outward t s b)) (snd (outward t s b))).
    { apply Ncell; [reflexivity|reflexivity| | |rewrite VA; auto|rewrite VB; auto];
        apply VV; rewrite (gr_vis _ _ _ _ G) by auto; assumption. }
    destruct New as [NA NB]. intros i j Hij Hv.
    destruct (gindex_dec (i, j) (outward t s a)) as [Q|Q]; [rewrite <- Q in NA; exact NA|].
    destruct (gindex_dec (i, j) (outward t s b)) as [Q'|Q']; [rewrite <- Q' in NB; exact NB|].
    pose proof (VO (i, j) Q Q') as Ev. unfold vis2 in Ev. cbn [fst snd] in Ev. rewrite Ev in Hv.
    destruct (gr_clean _ _ _ _ G i j Hij Hv) as (cn & cm & Hcc & Hco). exists cn, cm. split; auto.
    apply put_complete; auto. apply put_complete; auto. }
  assert (S2 : same_store gb h1) by (apply sf_store; auto; apply swept_clean; auto).
  assert (Sh : same_store gb h) by (eapply st_trans; eauto).
  assert (Vh : forall c, shown2 gb c -> vis2 h c = vis2 gb c) by (intros c Hcs; apply st_vis; auto).
  split; [rewrite Vh by exact Sa; exact VA|]. split; [rewrite Vh by exact Sb; exact VB|]. split; [|split].
  - intros c Hcs N1 N2. assert (Hs0 : shown2 g0 (shift t s c)).
    { destruct G as [_ Gn Gm _ _ _]. destruct Hcs. unfold shown2, shown. rewrite Gn, Gm, (st_num_n _ _ S1), (st_num_m _ _ S1).
      destruct t; cbn [shift fst snd lines_n lines_m]; lia. }
    rewrite Vh by exact Hs0. rewrite VO by auto. rewrite (gr_vis _ _ _ _ G) by (eapply st_shown; eauto). apply st_vis; auto.
  - intros c Hcs Hnew N1 N2. assert (Hs0 : shown2 g0 c) by (apply st_sym in Sh; exact (st_shown _ _ _ _ Sh Hcs)).
    rewrite Vh by exact Hs0. rewrite VO by auto. apply (gr_new _ _ _ _ G); auto. intros d Hd. apply Hnew.
    apply st_sym in S1. exact (st_shown _ _ _ _ S1 Hd).
  - assert (SV1 : same_view g g1) by (apply st_view; auto).
    apply (alternate (fun u x => u = Compound Committed ((base ++
         [Leaf Committed (ResetNode (fst (outward t s a)) (snd (outward t s a)) (vis g0 (fst (outward t s a)) (snd (outward t s a))) pa false)]) ++
         [Leaf Committed (ResetNode (fst (outward t s b)) (snd (outward t s b)) (vis ga (fst (outward t s b)) (snd (outward t s b))) pb false)]) /\
         same_store gb x)); [|split; [reflexivity|exact Sh]].
    intros u x [-> Sx]. split; [apply st_view; eapply st_trans; [apply st_sym; exact Sh|exact Sx]|].
    destruct (restore_two g0 x _ _ _ _ pa pb (gr_wf _ _ _ _ G) Sa Sb Sx) as (k & Sk & Ek). fold ga in Ek.
    apply bind_inv in Ek as ((l1 & s1) & Ek1 & Ek). apply bind_inv in Ek as ((l2 & s2) & Ek2 & Ek). injection Ek as -> -> ->.
    assert (Redo : forall y, same_store g0 y -> exists y1 y2,
      grid_commit (ResetNode (fst (outward t s a)) (snd (outward t s a)) (vis g0 (fst (outward t s a)) (snd (outward t s a))) pa false) y =
        Ok (ResetNode (fst (outward t s a)) (snd (outward t s a)) (vis g0 (fst (outward t s a)) (snd (outward t s a))) pa false, y1) /\
      grid_commit (ResetNode (fst (outward t s b)) (snd (outward t s b)) (vis ga (fst (outward t s b)) (snd (outward t s b))) pb false) y1 =
        Ok (ResetNode (fst (outward t s b)) (snd (outward t s b)) (vis ga (fst (outward t s b)) (snd (outward t s b))) pb false, y2) /\
      same_store gb y2).
    { intros y Sy. eexists _, _. split; [apply (commit_node g0); auto; apply (gr_wf _ _ _ _ G)|].
      assert (Sy1 : same_store ga (put_node y (fst (outward t s a)) (snd (outward t s a)) pa)) by (apply st_put; exact Sy).
      split; [apply (commit_node ga); auto|]. apply st_put. exact Sy1. }
    unfold undo_grid, redo_grid. unfold base in *. unfold s in G, Hgeo. destruct line as [l|].
    + destruct (add_edge_some junk g1 a b g0 l W1 Ha1 Hb1 El) as (t' & Et' & Eg & _ & _). rewrite Et in Et'. injection Et' as <-.
      destruct (grow_ok junk t g1 W1) as (g0' & Eg' & Wg0 & _ & N1 & N2 & _ & SV & _). rewrite Eg in Eg'. injection Eg' as <-.
      assert (Wx : gwf (hide t g0)) by (apply (hide_gwf t g1 g0); auto).
      assert (Cx : clean (hide t g0)) by (apply (view_clean g1); auto).
      destruct (restore_line t g0 k Wx Cx Sk) as (y & Ey & Sy).
      cbn [restore_act app bind]. rewrite Ek1. cbn [bind]. rewrite Ek2. cbn [bind]. rewrite Ey. cbn [bind].
      eexists _, _. split; [reflexivity|]. split; [eapply same_view_trans; [exact SV1|eapply same_view_trans; [exact SV|apply st_view; exact Sy]]|].
      destruct (commit_line t g0 y Wg0 (gr_clean _ _ _ _ G) Sy) as (z & Ez & Sz).
      destruct (Redo z Sz) as (y1 & y2 & R1 & R2 & R3).
      cbn [commit_act bind]. rewrite Ez. cbn [bind]. rewrite R1. cbn [bind]. rewrite R2. cbn [bind].
      eexists _, _. split; [reflexivity|]. split; [reflexivity|exact R3].
    + destruct (add_edge_none junk g1 a b g0 W1 Ha1 Hb1 Va1 Vb1 El) as (E0 & _).
      cbn [restore_act app bind]. rewrite Ek1. cbn [bind]. rewrite Ek2. cbn [bind].
      eexists _, _. split; [reflexivity|]. split; [rewrite E0 in Sk; eapply same_view_trans; [exact SV1|apply st_view; exact Sk]|].
      destruct (Redo k Sk) as (y1 & y2 & R1 & R2 & R3).
      cbn [commit_act bind]. rewrite R1. cbn [bind]. rewrite R2. cbn [bind].
      eexists _, _. split; [reflexivity|]. split; [reflexivity|exact R3].
Qed.

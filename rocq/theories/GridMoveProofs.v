(** Writing nodes of a grid one after the other; lines; smoothing. *)
From Verif Require Import Base BaseLemmas FloatModel UtilModel UndoModel ActionModel GridModel GridSpec GridProofs GridClean GridTypes GridEdits GridMain GridMoveModel GridMoveSpec.

Lemma frac_half : frac 1 2 = half. Proof. reflexivity. Qed.
Lemma frac_quarter : frac 1 4 = quarter. Proof. reflexivity. Qed.
Lemma frac_third : frac 1 3 = one_third. Proof. reflexivity. Qed.
Lemma frac_one : frac 1 1 = one. Proof. reflexivity. Qed.
Lemma frac_zero : frac 0 1 = zero. Proof. reflexivity. Qed.
Lemma frac_minus : frac (-1) 1 = SFopp one. Proof. reflexivity. Qed.
Lemma frac_tiny8 : frac 1 100000000 = tiny8. Proof. reflexivity. Qed.

(** *** Lines *)
Lemma same_true a b : index_same a b = true <-> a = b.
Proof.
  unfold index_same. rewrite andb_true_iff, !Nat.eqb_eq. destruct a, b; cbn. split; [intros [-> ->]; reflexivity|intros E; injection E; auto].
Qed.
Lemma same_false a b : index_same a b = false <-> a <> b.
Proof. rewrite <- same_true. destruct (index_same a b); split; intros; congruence. Qed.

Lemma on_line_true l c : on_line l c = true <->
  (if along_n l then l_first l <= fst c <= l_last l /\ snd c = l_fixed l else l_first l <= snd c <= l_last l /\ fst c = l_fixed l).
Proof.
  unfold on_line. rewrite existsb_exists. destruct (along_n l).
  - split; [intros (i & Hi & E)|intros [H1 H2]; exists (fst c)]; rewrite in_range, andb_true_iff, !Nat.eqb_eq in *; lia.
  - split; [intros (i & Hi & E)|intros [H1 H2]; exists (snd c)]; rewrite in_range, andb_true_iff, !Nat.eqb_eq in *; lia.
Qed.

Lemma crosses_true k l : crosses k l = true <-> l_first k <= l_fixed l <= l_last k /\ l_first l <= l_fixed k <= l_last l.
Proof.
  unfold crosses. rewrite existsb_exists. split.
  - intros (i & Hi & E). apply existsb_exists in E as (j & Hj & E). rewrite in_range, andb_true_iff, !Nat.eqb_eq in *. lia.
  - intros [A B]. exists (l_fixed k). rewrite in_range. split; [lia|]. apply existsb_exists. exists (l_fixed l). rewrite in_range, !Nat.eqb_refl. split; [lia|reflexivity].
Qed.

Lemma cross_common k l : proper k -> proper l -> perpendicular k l ->
  (crosses k l = true <-> exists c, covers k c /\ covers l c).
Proof.
  destruct k as [[ks1 ks2] [ke1 ke2]], l as [[ls1 ls2] [le1 le2]]. unfold proper, perpendicular, covers, straight. rewrite crosses_true.
  unfold l_first, l_last, l_fixed, along_n. cbn [l_start l_end fst snd].
  intros (_ & K1 & K2 & K3) (_ & L1 & L2 & L3) P.
  destruct (Nat.eqb_spec ks2 ke2), (Nat.eqb_spec ls2 le2); subst.
  - assert (ks1 <> ke1) by congruence. assert (ls1 <> le1) by congruence. lia.
  - assert (ls1 = le1) by lia. subst. split.
    + intros [A B]. exists (le1, ke2). cbn. lia.
    + intros ([c d] & A). cbn in A. lia.
  - assert (ks1 = ke1) by lia. subst. split.
    + intros [A B]. exists (ke1, le2). cbn. lia.
    + intros ([c d] & A). cbn in A. lia.
  - lia.
Qed.

Lemma line_of_proper a b : straight a b -> a <> b -> proper (line_of a b).
Proof.
  destruct a as [a1 a2], b as [b1 b2]. unfold proper, straight, line_of. cbn [l_start l_end fst snd]. intros S N.
  split; [lia|]. split; [lia|]. split; [lia|]. intros E. injection E as E1 E2. apply N. f_equal; lia.
Qed.

Lemma set_line_cases g ls a b :
  set_line g ls a b =
  if (num_n g <=? fst a) || (num_m g <=? snd a) || (num_n g <=? fst b) || (num_m g <=? snd b) then Throw ConstraintErr
  else if index_same a b || negb ((fst a =? fst b) || (snd a =? snd b)) || existsb (crosses (line_of a b)) ls then Throw AlgorithmErr
  else Ok (ls ++ [line_of a b]).
Proof.
  unfold set_line, block_from_corners. cbn [fst snd omin omax].
  destruct (Nat.leb_spec (num_n g) (fst a)), (Nat.leb_spec (num_m g) (snd a)), (Nat.leb_spec (num_n g) (fst b)), (Nat.leb_spec (num_m g) (snd b)),
    (Nat.leb_spec (num_m g) (min (snd a) (snd b))), (Nat.leb_spec (num_n g) (min (fst a) (fst b))),
    (Nat.leb_spec (num_m g) (max (snd a) (snd b))), (Nat.leb_spec (num_n g) (max (fst a) (fst b))); try lia; cbn [orb bind]; auto.
  assert (E : index_same (min (fst a) (fst b), min (snd a) (snd b)) (max (fst a) (fst b), max (snd a) (snd b)) = index_same a b).
  { destruct (index_same a b) eqn:E.
    - apply same_true in E as ->. apply same_true. f_equal; lia.
    - apply same_false in E. apply same_false. intros F. injection F as F1 F2. apply E. destruct a, b; cbn in *. f_equal; lia. }
  rewrite E. destruct (index_same a b) eqn:E1; [reflexivity|]. cbn [orb fst snd].
  assert (E2 : ((min (fst a) (fst b) =? max (fst a) (fst b)) || (min (snd a) (snd b) =? max (snd a) (snd b))) = ((fst a =? fst b) || (snd a =? snd b))).
  { apply Bool.eq_true_iff_eq. rewrite !orb_true_iff, !Nat.eqb_eq. lia. }
  rewrite E2. destruct (negb _); [reflexivity|]. cbn [orb]. unfold new_line. rewrite E. cbn [bind].
  reflexivity.
Qed.

Lemma set_line_ok g ls a b ls' : Forall proper ls -> set_line g ls a b = Ok ls' ->
  shown2 g a /\ shown2 g b /\ a <> b /\ straight a b /\ ls' = ls ++ [line_of a b] /\ Forall proper ls' /\
  forall l, In l ls -> perpendicular (line_of a b) l -> ~ exists c, covers (line_of a b) c /\ covers l c.
Proof.
  intros P. rewrite set_line_cases.
  destruct (Nat.leb_spec (num_n g) (fst a)), (Nat.leb_spec (num_m g) (snd a)), (Nat.leb_spec (num_n g) (fst b)), (Nat.leb_spec (num_m g) (snd b));
    cbn [orb]; try discriminate.
  destruct (index_same a b) eqn:E; [discriminate|]. destruct ((fst a =? fst b) || (snd a =? snd b)) eqn:S; [|discriminate]. cbn [orb negb].
  destruct (existsb _ ls) eqn:X; [discriminate|]. intros R. injection R as <-. apply same_false in E.
  assert (St : straight a b) by (apply orb_true_iff in S; rewrite !Nat.eqb_eq in S; exact S).
  split; [split; auto|]. split; [split; auto|]. split; [auto|]. split; [auto|]. split; [auto|]. split.
  - apply Forall_app. split; auto. constructor; auto. apply line_of_proper; auto.
  - intros l Hl Hp C. rewrite Forall_forall in P. apply (cross_common _ _ (line_of_proper a b St E) (P l Hl) Hp) in C.
    assert (existsb (crosses (line_of a b)) ls = true) by (apply existsb_exists; eauto). congruence.
Qed.

Lemma set_line_refused g ls a b : Forall proper ls -> shown2 g a -> shown2 g b ->
  (a = b \/ ~ straight a b \/ (straight a b /\ exists l, In l ls /\ perpendicular (line_of a b) l /\ exists c, covers (line_of a b) c /\ covers l c)) ->
  set_line g ls a b = Throw AlgorithmErr.
Proof.
  intros P [A1 A2] [B1 B2] H. rewrite set_line_cases.
  destruct (Nat.leb_spec (num_n g) (fst a)), (Nat.leb_spec (num_m g) (snd a)), (Nat.leb_spec (num_n g) (fst b)), (Nat.leb_spec (num_m g) (snd b)); try lia.
  cbn [orb]. destruct (index_same a b) eqn:E; [reflexivity|]. apply same_false in E. destruct ((fst a =? fst b) || (snd a =? snd b)) eqn:S; [|reflexivity].
  cbn [orb negb]. assert (St : straight a b) by (apply orb_true_iff in S; rewrite !Nat.eqb_eq in S; exact S).
  destruct H as [->|[H|(_ & l & Hl & Hp & C)]]; [congruence|tauto|].
  rewrite Forall_forall in P. apply (cross_common _ _ (line_of_proper a b St E) (P l Hl) Hp) in C.
  assert (X : existsb (crosses (line_of a b)) ls = true) by (apply existsb_exists; eauto). rewrite X. reflexivity.
Qed.

Lemma set_lines_apart g l : let ls := set_lines g l in Forall proper ls /\
  forall i j k m, nth_error ls i = Some k -> nth_error ls j = Some m -> i <> j -> perpendicular k m -> ~ exists c, covers k c /\ covers m c.
Proof.
  cbn zeta. unfold set_lines.
  assert (G : forall ls, Forall proper ls /\ (forall i j k m, nth_error ls i = Some k -> nth_error ls j = Some m -> i <> j -> perpendicular k m -> ~ exists c, covers k c /\ covers m c) ->
    let r := fold_left (fun ls ab => match set_line g ls (fst ab) (snd ab) with Ok ls => ls | _ => ls end) l ls in
    Forall proper r /\ forall i j k m, nth_error r i = Some k -> nth_error r j = Some m -> i <> j -> perpendicular k m -> ~ exists c, covers k c /\ covers m c).
  { induction l as [|ab l IH]; intros ls [P Q]; [split; auto|]. cbn [fold_left]. apply IH.
    destruct (set_line g ls (fst ab) (snd ab)) as [ls'| |] eqn:E; try (split; assumption).
    destruct (set_line_ok _ _ _ _ _ P E) as (_ & _ & _ & _ & -> & P' & N). split; [exact P'|].
    assert (At : forall i k, nth_error (ls ++ [line_of (fst ab) (snd ab)]) i = Some k -> (nth_error ls i = Some k /\ i < length ls) \/ (k = line_of (fst ab) (snd ab) /\ i = length ls)).
    { intros i k Hi. destruct (lt_dec i (length ls)); [rewrite nth_error_app1 in Hi by auto; auto|]. rewrite nth_error_app2 in Hi by lia.
      destruct (i - length ls) as [|z] eqn:Z; cbn in Hi; [injection Hi as <-; right; split; auto; lia|destruct z; discriminate]. }
    intros i j k m Hi Hj Hij Hp. destruct (At _ _ Hi) as [[Hi1 Hi2]|[-> Hi']], (At _ _ Hj) as [[Hj1 Hj2]|[-> Hj']].
    - eapply Q; eauto.
    - intros (c & C1 & C2). apply (N k); [eapply nth_error_In; eauto| |eauto]. unfold perpendicular in *. tauto.
    - intros (c & C1 & C2). apply (N m); [eapply nth_error_In; eauto|exact Hp|eauto].
    - lia. }
  apply G. split; [constructor|]. intros [|] ? ? ? H; discriminate.
Qed.

(** *** Writing nodes *)
Definition put2 g (c : gindex) (p : point) := put_node g (fst c) (snd c) p.
Lemma vis2_same g c p : vis2 (put2 g c p) c = p.
Proof. apply vis_put_same. Qed.
Lemma vis2_other g c p d : d <> c -> vis2 (put2 g c p) d = vis2 g d.
Proof. intros H. apply vis_put_other. destruct c, d. exact H. Qed.
Lemma set2 g c p : gwf g -> shown2 g c -> set_node g (fst c) (snd c) p = Ok (put2 g c p).
Proof. apply set_node_ok. Qed.
Lemma get2 g c : gwf g -> shown2 g c -> get_node g (fst c) (snd c) = Ok (vis2 g c).
Proof. apply get_node_ok. Qed.

(** [h] is [g] with other visible nodes. *)
Record redrawn (g h : grid) : Prop := Redrawn {
  rd_frame : same_frame g h;
  rd_hidden : same_hidden g h;
  rd_types : ntypes h = ntypes g;
  rd_mask : fmask h = fmask g;
  rd_indices : gindices h = gindices g }.
Lemma rd_refl g : redrawn g g.
Proof. constructor; auto using sf_refl, hidden_refl. Qed.
Lemma rd_trans g h k : redrawn g h -> redrawn h k -> redrawn g k.
Proof. intros [] []. constructor; eauto using sf_trans, hidden_trans; congruence. Qed.
Lemma rd_put g c p : shown2 g c -> redrawn g (put2 g c p).
Proof. intros H. constructor; try reflexivity; [apply sf_put|apply hidden_put; exact H]. Qed.
Lemma rd_gwf g h : redrawn g h -> gwf g -> gwf h.
Proof. intros [F _ _ _ _]. apply sf_gwf; auto. Qed.
Lemma rd_shown g h c : redrawn g h -> shown2 h c <-> shown2 g c.
Proof. intros [F _ _ _ _]. apply sf_shown; auto. Qed.
Lemma rd_num g h : redrawn g h -> num_n h = num_n g /\ num_m h = num_m g.
Proof. intros [F _ _ _ _]. split; [apply sf_num_n|apply sf_num_m]; auto. Qed.

(** Each node of [l] once: the new value depends on nothing written in between. *)
Lemma fold_put (f : grid -> gindex -> outcome grid) (val : gindex -> option point) (l : list gindex) (x : grid) :
  gwf x -> NoDup l -> (forall c, In c l -> shown2 x c) ->
  (forall y c, In c l -> redrawn x y -> vis2 y c = vis2 x c -> f y c = Ok (match val c with Some p => put2 y c p | None => y end)) ->
  exists y, fold_out f l x = Ok y /\ redrawn x y /\
    (forall c, In c l -> vis2 y c = match val c with Some p => p | None => vis2 x c end) /\ (forall c, ~ In c l -> vis2 y c = vis2 x c).
Proof.
  intros W ND Sh H.
  destruct (fold_pre f (fun done y => redrawn x y /\
      (forall c, In c done -> vis2 y c = match val c with Some p => p | None => vis2 x c end) /\ (forall c, ~ In c done -> vis2 y c = vis2 x c)) l x) as (y & E & R & A & B).
  - intros l1 c l2 y El (R & A & B). assert (Hc : In c l) by (rewrite El; apply in_elt).
    assert (Nc : ~ In c l1) by (rewrite El in ND; apply NoDup_remove_2 in ND; rewrite in_app_iff in ND; tauto).
    rewrite (H y c Hc R (B c Nc)). eexists. split; [reflexivity|].
    assert (Sy : shown2 y c) by (apply (rd_shown x y); auto).
    destruct (val c) as [p|] eqn:V.
    + split; [eapply rd_trans; [exact R|apply rd_put; exact Sy]|]. split.
      * intros d Hd. apply in_app_iff in Hd as [Hd|[<-|[]]].
        -- rewrite vis2_other by (intros ->; contradiction). apply A, Hd.
        -- rewrite vis2_same, V. reflexivity.
      * intros d Hd. rewrite in_app_iff in Hd. rewrite vis2_other by (intros ->; apply Hd; right; left; reflexivity). apply B. tauto.
    + split; [exact R|]. split.
      * intros d Hd. apply in_app_iff in Hd as [Hd|[<-|[]]]; [apply A, Hd|]. rewrite V. apply B, Nc.
      * intros d Hd. rewrite in_app_iff in Hd. apply B. tauto.
  - split; [apply rd_refl|]. split; [intros c []|auto].
  - exists y. auto.
Qed.

(** Each step writes only nodes of [P]. *)
Lemma fold_within {A} (f : grid -> A -> outcome grid) (P : gindex -> Prop) (l : list A) (x : grid) :
  (forall y a, In a l -> redrawn x y -> exists z, f y a = Ok z /\ redrawn y z /\ forall c, ~ P c -> vis2 z c = vis2 y c) ->
  exists y, fold_out f l x = Ok y /\ redrawn x y /\ forall c, ~ P c -> vis2 y c = vis2 x c.
Proof.
  intros H. destruct (fold_pre f (fun _ y => redrawn x y /\ forall c, ~ P c -> vis2 y c = vis2 x c) l x) as (y & E & R & B).
  - intros l1 a l2 y El [R B]. destruct (H y a) as (z & -> & R' & B'); [rewrite El; apply in_elt|exact R|]. exists z. split; [reflexivity|].
    split; [eapply rd_trans; eauto|]. intros c Hc. rewrite B', B; auto.
  - split; [apply rd_refl|auto].
  - eauto.
Qed.

(** *** Cleanliness and undo *)
Lemma valid_complete g h : same_valid g h -> forall n m, complete g n m -> complete h n m.
Proof.
  intros (N & M & V) n m (A & B & C1 & C2 & C3 & C4). unfold complete. rewrite N, M.
  assert (K : forall i j, i < num_n g -> j < num_m g -> is_valid (vis h i j) = is_valid (vis g i j)) by (intros i j Hi Hj; apply (V (i, j)); split; auto).
  rewrite !K by lia. tauto.
Qed.
Lemma valid_clean g h : same_valid g h -> clean g -> clean h.
Proof.
  intros S C i j [Hi Hj] V. pose proof S as (N & M & K). rewrite N in Hi. rewrite M in Hj. pose proof (K (i, j) (conj Hi Hj)) as E. unfold vis2 in E. cbn in E.
  destruct (C i j) as (n & m & X & Y); [split; auto|congruence|]. exists n, m. split; auto. eapply valid_complete; eauto.
Qed.

Lemma block_undo g h n0 m0 n1 m1 b : gwf h -> clean g -> num_n h = num_n g -> num_m h = num_m g -> n1 <= num_n g -> m1 <= num_m g ->
  (forall i j, in_block n0 m0 n1 m1 i j -> entry b (i - n0) (j - m0) = vis g i j) -> (forall i j, shown g i j -> ~ in_block n0 m0 n1 m1 i j -> vis h i j = vis g i j) ->
  undone (Leaf Committed (BlockOf n0 m0 n1 m1 b)) g h.
Proof.
  intros W C N M H1 H2 B O. unfold undone, undo_grid. cbn [restore_act grid_restore].
  destruct (swap_ok n0 m0 n1 m1 b h g) as (b' & y & -> & _ & V & _); auto; try lia. cbn [bind]. eauto.
Qed.

(** A clean grid and one showing the same. *)
Lemma start_view g : gwf g -> clean g -> exists x, compute_node_types g = Ok x /\ same_view g x /\ same_frame g x /\ mask_right x x /\ types_right x x.
Proof. intros W C. destruct (types_clean g W C) as (x & E & F & _ & V & M & T). exists x. split; auto. split; [apply sf_same_view; auto|]. auto. Qed.

Lemma view_complete g h n m : same_view g h -> complete g n m <-> complete h n m.
Proof.
  intros V. pose proof V as (N & M & E). pose proof (same_view_sym _ _ V) as (N' & M' & E').
  split; intros (A & B & C); (split; [lia|]); (split; [lia|]); [rewrite <- !E by lia|rewrite <- !E' by lia]; tauto.
Qed.

(** Which nodes the smoothers move, from the cells around. *)
Definition kind_of (tr tl bl br : bool) (t : node_type) : Prop :=
  match tr, tl, bl, br with
  | true, true, true, true => t = InternalValid
  | true, true, false, false => t = Bottom
  | false, false, true, true => t = Up
  | true, false, false, true => t = LeftType
  | false, true, true, false => t = RightType
  | _, _, _, _ => In t [Invalid; BottomLeft; UpperLeft; BottomRight; UpperRight]
  end.

Lemma first_line_case n m k (br tr : bool) :
  (n = 0 /\ 0 < m < k - 1 /\ br = true /\ tr = false) \/ ~ (n = 0 /\ 0 < m < k - 1 /\ br = true /\ tr = false).
Proof.
  destruct (Nat.eq_dec n 0), (lt_dec 0 m), (lt_dec m (k - 1)), br, tr; try (left; repeat split; auto; fail); right; intros (? & ? & ? & ?); auto; try lia; discriminate.
Qed.

Lemma stored_kind g x : gwf g -> clean g -> same_view g x -> gwf x -> mask_right x x -> types_right x x ->
  forall c tr tl bl br, shown2 g c -> around g c tr tl bl br -> exists t, get_type x (fst c) (snd c) = Ok t /\ kind_of tr tl bl br t.
Proof.
  intros W C V Wx Mx Tx [n m] tr tl bl br S (H1 & H2 & H3 & H4). cbn [fst snd] in *.
  assert (Sx : shown x n m) by (eapply view_shown; eauto). assert (Cx : clean x) by (eapply view_clean; eauto).
  destruct Tx as (Tr & Tc & Te). destruct (Te n m Sx) as (o & Eo & Et).
  exists (match o with Some t => t | None => Invalid end). split.
  { unfold get_type. pose proof (vis_bounds x n m Wx Sx). rewrite mat_get_ok by (rewrite ?Tr, ?Tc; lia). rewrite Et. reflexivity. }
  assert (K : forall dn dm b, cell_at g n m dn dm b -> cell_at x n m dn dm b) by (intros dn dm b Hb; unfold cell_at in *; rewrite <- (view_complete g x _ _ V); exact Hb).
  apply K in H1, H2, H3, H4. pose proof V as (Vn & Vm & _).
  destruct (first_line_case n m (num_m x) br tr) as [(-> & Hm & -> & ->)|Hx].
  - (* the type is a corner all the same *)
    assert (E3 : tl = false /\ bl = false).
    { split; [destruct tl|destruct bl]; auto; [destruct H2 as [H2 _]; destruct (H2 eq_refl)|destruct H3 as [H3 _]; destruct (H3 eq_refl)]; lia. }
    destruct E3 as [-> ->]. destruct H4 as [H4 _]. destruct (H4 eq_refl) as (_ & Hm1 & Cc). cbn [Nat.sub] in *.
    replace (0 - 0) with 0 in * by lia. destruct Cc as (B1 & B2 & V1 & V2 & V3 & V4). replace (m - 1 + 1) with m in * by lia.
    unfold classify in Eo. rewrite node_valid_ok in Eo by auto. cbn [bind] in Eo. rewrite V2 in Eo. cbn [negb] in Eo.
    destruct (Nat.eqb_spec m 0); [lia|]. destruct (Nat.eqb_spec m (num_m x - 1)); [lia|]. cbn [Nat.eqb] in Eo.
    rewrite node_valid_ok in Eo by (auto; split; lia). cbn [bind] in Eo. rewrite V1 in Eo. cbn [negb] in Eo.
    rewrite node_valid_ok in Eo by (auto; split; lia). cbn [bind] in Eo. injection Eo as <-.
    destruct (is_valid (vis x 0 (m + 1))) eqn:Vu; cbn [negb]; [exfalso|cbn; tauto].
    destruct (Cx 0 (m + 1)) as (a & b & Cc & Ha & Hb); [split; lia|auto|]. destruct H1 as [_ H1]. assert (a = 0) by lia. subst a.
    assert (complete x 0 m); [|enough (false = true) by discriminate; apply H1; cbn [Nat.sub]; rewrite Nat.sub_0_r; split; [lia|]; split; [lia|auto]].
    destruct (Nat.eq_dec b m) as [->|Nb]; [exact Cc|]. assert (b = m + 1) by lia. subst b. destruct Cc as (D1 & D2 & D3 & D4 & D5 & D6).
    unfold complete. cbn [Nat.add] in *. repeat split; auto; lia.
  - pose proof (classify_expected x Wx Cx Mx n m o Sx Eo tr tl bl br H1 H2 H3 H4 Hx) as T. destruct o as [t|]; inversion T; subst; cbn; tauto.
Qed.

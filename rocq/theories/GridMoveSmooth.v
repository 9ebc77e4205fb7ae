(** Smoothing and directional smoothing. *)
From Verif Require Import Base BaseLemmas FloatModel UtilModel UndoModel ActionModel GridModel GridSpec GridProofs GridClean GridTypes GridEdits GridMain GridMoveModel GridMoveSpec GridMoveProofs.

Definition cellb (g : grid) (c : gindex) (dn dm : nat) : bool :=
  (dn <=? fst c) && (dm <=? snd c) && (fst c - dn + 1 <? num_n g) && (snd c - dm + 1 <? num_m g) && completeb g (fst c - dn) (snd c - dm).
Lemma cellb_at g c dn dm : cell_at g (fst c) (snd c) dn dm (cellb g c dn dm).
Proof. unfold cell_at, cellb. rewrite complete_b, !andb_true_iff, !Nat.leb_le, !Nat.ltb_lt. tauto. Qed.
Lemma cell_unique g n m dn dm a b : cell_at g n m dn dm a -> cell_at g n m dn dm b -> a = b.
Proof. unfold cell_at. intros [A A'] [B B']. apply Bool.eq_true_iff_eq. tauto. Qed.
Definition b_tr g c := cellb g c 0 0.
Definition b_tl g c := cellb g c 1 0.
Definition b_bl g c := cellb g c 1 1.
Definition b_br g c := cellb g c 0 1.
Lemma around_b g c : around g c (b_tr g c) (b_tl g c) (b_bl g c) (b_br g c).
Proof. split; [|split; [|split]]; apply cellb_at. Qed.
Lemma around_unique g c tr tl bl br : around g c tr tl bl br -> tr = b_tr g c /\ tl = b_tl g c /\ bl = b_bl g c /\ br = b_br g c.
Proof. intros (A & B & C & D). pose proof (around_b g c) as (A' & B' & C' & D'). repeat split; eapply cell_unique; eauto. Qed.

Lemma get_type_rd x y n m : redrawn x y -> get_type y n m = get_type x n m.
Proof. intros [F _ T _ _]. unfold get_type, mat_get. rewrite T, (sf_sn _ _ F), (sf_sm _ _ F). reflexivity. Qed.

Lemma cached_ok x n m : gwf x -> plain_copy x -> shown x n m -> cached (gnodes x) n m = Ok (vis x n m).
Proof.
  intros W [P1 P2] S. destruct (vis_bounds x n m W S) as (A & B & _). apply Nat.ltb_lt in A, B. unfold cached, vis. rewrite A, B, P1, P2. reflexivity.
Qed.
Lemma down_ok n : 1 <= n -> down n = Ok (n - 1).
Proof. destruct n; cbn; [lia|]. rewrite Nat.sub_0_r. reflexivity. Qed.

Lemma rd_plain x y : redrawn x y -> plain_copy x -> plain_copy y.
Proof. intros [F _ _ _ _] [A B]. split; [rewrite (sf_sn _ _ F)|rewrite (sf_sm _ _ F)]; auto. Qed.

(** Cells and neighbours. *)
Lemma cell_true g n m dn dm : cell_at g n m dn dm true -> dn <= n /\ dm <= m /\ n - dn + 1 < num_n g /\ m - dm + 1 < num_m g.
Proof. intros [H _]. destruct (H eq_refl) as (A & B & C & D & _). auto. Qed.

Section Smooth.
  Variable project : point -> point -> point -> point * double * bool.

  Definition side_pos here a b i := onto_boundary project here a b (side_position here a b i).
  Lemma side_pos_ok here a b i : on_side project here a b (side_mean here a b i) (side_pos here a b i).
  Proof.
    unfold side_pos. change (side_position here a b i) with (side_mean here a b i). generalize (side_mean here a b i). intros p.
    unfold onto_boundary. destruct (project here a p) as [[p1 r1] on1] eqn:E1, (project here b p) as [[p2 r2] on2] eqn:E2.
    destruct on1, on2; cbn [andb].
    - destruct (SFltb r1 r2) eqn:L; [eapply both_second; eauto|]. destruct (SFleb r2 r1); eapply both_first; eauto.
    - eapply first_only; eauto.
    - eapply second_only; eauto.
    - change (pscale (padd p1 p2) half) with (times (frac 1 2) (lift2 fadd p1 p2)). eapply neither; eauto.
  Qed.

  Definition new_pos (x : grid) (n m : nat) (tr tl bl br : bool) : option point :=
    match tr, tl, bl, br with
    | true, true, true, true => Some (inner_mean (vis x n m) (vis x (n - 1) m) (vis x (n + 1) m) (vis x n (m - 1)) (vis x n (m + 1)))
    | true, true, false, false => Some (side_pos (vis x n m) (vis x (n - 1) m) (vis x (n + 1) m) (vis x n (m + 1)))
    | false, false, true, true => Some (side_pos (vis x n m) (vis x (n - 1) m) (vis x (n + 1) m) (vis x n (m - 1)))
    | true, false, false, true => Some (side_pos (vis x n m) (vis x n (m - 1)) (vis x n (m + 1)) (vis x (n + 1) m))
    | false, true, true, false => Some (side_pos (vis x n m) (vis x n (m - 1)) (vis x n (m + 1)) (vis x (n - 1) m))
    | _, _, _, _ => None
    end.

  Lemma new_pos_smoothed x n m tr tl bl br :
    smoothed project x n m tr tl bl br (match new_pos x n m tr tl bl br with Some p => p | None => vis x n m end).
  Proof.
    destruct tr, tl, bl, br; cbn [new_pos]; try (constructor; apply side_pos_ok); try apply sm_inner; apply sm_other; cbn; intuition congruence.
  Qed.

  Lemma smooth_node_ok g x y c tr tl bl br t : gwf x -> plain_copy x -> redrawn x y -> num_n x = num_n g -> num_m x = num_m g -> shown2 g c ->
    around g c tr tl bl br -> get_type x (fst c) (snd c) = Ok t -> kind_of tr tl bl br t ->
    smooth_node project (gnodes x) y c = Ok (match new_pos x (fst c) (snd c) tr tl bl br with Some p => put2 y c p | None => y end).
  Proof.
    intros W P R Nn Nm S (H1 & H2 & H3 & H4) Et K. destruct c as [n m]. cbn [fst snd] in *. unfold smooth_node.
    rewrite (get_type_rd x y) by auto. rewrite Et. cbn [bind].
    assert (Wy : gwf y) by (eapply rd_gwf; eauto). destruct (rd_num x y R) as [Yn Ym].
    assert (Sx : shown2 y (n, m)) by (destruct S; split; cbn in *; congruence).
    destruct S as [S1 S2]. cbn [fst snd] in S1, S2.
    assert (C : forall i j, i < num_n g -> j < num_m g -> cached (gnodes x) i j = Ok (vis x i j)) by (intros i j Hi Hj; apply cached_ok; auto; split; congruence).
    destruct tr, tl, bl, br; cbn [kind_of new_pos] in *; subst;
      try (cbn in K; destruct K as [<-|[<-|[<-|[<-|[<-|[]]]]]]; reflexivity);
      repeat match goal with H : cell_at _ _ _ _ _ true |- _ => apply cell_true in H end;
      rewrite ?down_ok by lia; cbn [bind]; rewrite ?down_ok by lia; cbn [bind]; rewrite !C by lia; cbn [bind]; exact (set2 y (n, m) _ Wy Sx).
  Qed.

  Lemma smooth_once_ok g x ll ur : gwf x -> plain_copy x -> num_n x = num_n g -> num_m x = num_m g -> shown2 g ur ->
    (forall c tr tl bl br, shown2 g c -> around g c tr tl bl br -> exists t, get_type x (fst c) (snd c) = Ok t /\ kind_of tr tl bl br t) ->
    exists y, smooth_once project ll ur x = Ok y /\ redrawn x y /\ smooth_pass project g ll ur x y.
  Proof.
    intros W P Nn Nm [U1 U2] T. unfold smooth_once.
    set (L := pairs (fst ll) (fst ur + 1) (snd ll) (snd ur + 1)).
    assert (InL : forall c, In c L <-> in_box ll ur c) by (intros [n m]; unfold L, in_box; rewrite in_pairs; cbn; lia).
    assert (Sg : forall c, In c L -> shown2 g c) by (intros c Hc; apply InL in Hc; unfold in_box in Hc; split; cbn in *; lia).
    destruct (fold_put (smooth_node project (gnodes x)) (fun c => new_pos x (fst c) (snd c) (b_tr g c) (b_tl g c) (b_bl g c) (b_br g c)) L x) as (y & E & R & A & B); auto.
    - apply pairs_nodup.
    - intros c Hc. destruct (Sg c Hc). split; congruence.
    - intros y c Hc R _. destruct (T c _ _ _ _ (Sg c Hc) (around_b g c)) as (t & Et & K). eapply smooth_node_ok; eauto using around_b.
    - exists y. split; [exact E|]. split; [exact R|]. destruct (rd_num x y R) as [Yn Ym]. split.
      + split; [exact Yn|]. split; [exact Ym|]. intros c _ Hc. apply B. rewrite InL. exact Hc.
      + intros c tr tl bl br Hc Hb Ha. rewrite A by (apply InL; auto). apply around_unique in Ha as (-> & -> & -> & ->). apply new_pos_smoothed.
  Qed.

  Lemma smooth_many g ll ur : gwf g -> clean g -> shown2 g ur -> forall k x, gwf x -> plain_copy x -> num_n x = num_n g -> num_m x = num_m g ->
    (forall c tr tl bl br, shown2 g c -> around g c tr tl bl br -> exists t, get_type x (fst c) (snd c) = Ok t /\ kind_of tr tl bl br t) ->
    exists y, repeated k (smooth_once project ll ur) x = Ok y /\ redrawn x y /\ passes (smooth_pass project g ll ur) k x y.
  Proof.
    intros W C U. induction k as [|k IH]; intros x Wx P Nn Nm T; [exists x; split; [reflexivity|]; split; [apply rd_refl|constructor]|].
    destruct (smooth_once_ok g x ll ur) as (y & E & R & S); auto. destruct (rd_num x y R).
    destruct (IH y) as (z & Ez & Rz & Sz); [eapply rd_gwf; eauto|eapply rd_plain; eauto|congruence|congruence| |].
    { intros. rewrite (get_type_rd x y) by auto. eauto. }
    exists z. cbn [repeated]. rewrite E. cbn [bind]. split; [exact Ez|]. split; [eapply rd_trans; eauto|]. econstructor; eauto.
  Qed.
End Smooth.

Lemma passes_within (Q : gindex -> Prop) (P : grid -> grid -> Prop) : (forall x y, P x y -> only_within Q x y) ->
  forall k x y, passes P k x y -> only_within Q x y.
Proof.
  intros H k x y. induction 1 as [x|k x y z Hp _ IH]; [split; [|split]; auto|]. apply H in Hp as (A & B & C). destruct IH as (A' & B' & C').
  split; [congruence|]. split; [congruence|]. intros c [Hc1 Hc2] Hq. rewrite C', C; auto; split; congruence.
Qed.

Lemma within_view P g x y : same_view g x -> only_within P x y -> only_within P g y.
Proof.
  intros (A & B & C) (A' & B' & C'). split; [congruence|]. split; [congruence|]. intros [n m] [Hn Hm] Hq. cbn in Hn, Hm. rewrite C'; [|split; cbn; congruence|auto].
  symmetry. apply C; auto.
Qed.

Lemma smooth_ok project k ll ur g : gwf g -> clean g -> plain_copy g -> shown2 g ur -> exists x h u,
  smooth project k ll ur g = Ok (h, u) /\ same_view g x /\ passes (smooth_pass project g ll ur) k x h /\
  only_within (in_box ll ur) g h /\ undone u g h /\ (clean h -> reversible u g h).
Proof.
  intros W C P U. unfold smooth. destruct (start_view g W C) as (x & -> & V & F & M & T). cbn [bind].
  assert (Wx : gwf x) by (eapply sf_gwf; eauto). pose proof V as (Vn & Vm & Vv).
  assert (Px : plain_copy x) by (destruct P; split; [rewrite (sf_sn _ _ F)|rewrite (sf_sm _ _ F)]; auto).
  destruct U as [U1 U2].
  destruct (block_copy_ok x (fst ll) (snd ll) (fst ur + 1) (snd ur + 1)) as (b & -> & _ & _ & Hb); [auto|lia|lia|]. cbn [bind].
  destruct (smooth_many project g ll ur W C (conj U1 U2) k x Wx Px (eq_sym Vn) (eq_sym Vm)) as (h & -> & R & Q).
  { exact (stored_kind g x W C V Wx M T). }
  cbn [bind]. eexists x, h, _. split; [reflexivity|]. split; [exact V|]. split; [exact Q|].
  assert (Oh : only_within (in_box ll ur) g h).
  { eapply within_view; [exact V|]. eapply passes_within; [|exact Q]. intros y z []. auto. }
  split; [exact Oh|]. destruct Oh as (On & Om & Oo). assert (Wh : gwf h) by (eapply rd_gwf; eauto).
  assert (Hb' : forall i j, in_block (fst ll) (snd ll) (fst ur + 1) (snd ur + 1) i j -> entry b (i - fst ll) (j - snd ll) = vis g i j).
  { intros i j [Hi Hj]. rewrite Hb by auto. symmetry. apply Vv; lia. }
  assert (Ho' : forall i j, shown g i j -> ~ in_block (fst ll) (snd ll) (fst ur + 1) (snd ur + 1) i j -> vis h i j = vis g i j).
  { intros i j Hs Hn. apply (Oo (i, j)); auto. unfold in_box, in_block in *. cbn. lia. }
  split; [apply block_undo; auto; lia|]. intros Ch. apply block_reversible; auto; lia.
Qed.

(** *** Directional *)
Section Slide.
  Variable fade : nat -> nat -> double.

  Lemma fading_ok x y lo hi : faded fade x y lo hi (fading fade x y lo hi).
  Proof.
    unfold fading. destruct (Nat.ltb_spec y x).
    - destruct (Nat.eqb_spec (hi - y) 0); [rewrite <- frac_one; apply fade_border_hi; lia|apply fade_after; lia].
    - destruct (Nat.eqb_spec (y - lo) 0); [rewrite <- frac_one; apply fade_border_lo; lia|apply fade_before; lia].
  Qed.
  Lemma across_ok l ll ur c : factor_of fade l ll ur c (across fade l ll ur c).
  Proof. unfold factor_of, across, coord_across, along_n. destruct (snd (l_start l) =? snd (l_end l)); apply fading_ok. Qed.

  Lemma slide_ok f p a b : slid f p a b (slide f p a b p).
  Proof.
    unfold slide. change (length2 (psub p a)) with (len2 (lift2 fsub p a)). change (length2 (psub p b)) with (len2 (lift2 fsub p b)).
    set (la := len2 (lift2 fsub p a)). set (lb := len2 (lift2 fsub p b)). unfold larger.
    set (w := if SFltb (if SFltb la lb then lb else la) tiny8 then half else _). set (t := if SFltb lb la then a else b).
    replace (if SFltb lb la then psub a p else psub b p) with (lift2 fsub t p) by (unfold t; destruct (SFltb lb la); reflexivity).
    change (padd p (pscale (lift2 fsub t p) w)) with (lift2 fadd p (times w (lift2 fsub t p))).
    apply (slid_to f p a b la lb w t); auto.
    - unfold t. destruct (SFltb lb la); auto.
    - cbn zeta. unfold w. rewrite frac_tiny8, frac_half. destruct (SFltb (if SFltb la lb then lb else la) tiny8); auto.
  Qed.

  (** The block of the pass and the nodes beside the line. *)
  Lemma beside_box l ll ur c : fst ll <= fst ur -> snd ll <= snd ur ->
    let (a, b) := line_block l ll ur in in_box a b c <-> beside l ll ur c.
  Proof.
    intros A B. unfold line_block, beside, in_box, coord_along, coord_across, l_first, l_last, along_n.
    destruct (snd (l_start l) =? snd (l_end l)); cbn [fst snd]; lia.
  Qed.
  Lemma factor_block l ll ur c f : fst ll <= fst ur -> snd ll <= snd ur ->
    let (a, b) := line_block l ll ur in factor_of fade l a b c f <-> factor_of fade l ll ur c f.
  Proof.
    intros A B. unfold line_block, factor_of, coord_across, along_n.
    destruct (snd (l_start l) =? snd (l_end l)); cbn [fst snd]; rewrite Nat.min_l, Nat.max_r by lia; tauto.
  Qed.

  Definition slide_pos (l : gline) (ll ur : gindex) (x : grid) (c : gindex) (tr tl bl br : bool) : option point :=
    if slides l tr tl bl br then Some (slide (across fade l ll ur c) (vis2 x c) (vis2 x (prev_along l c)) (vis2 x (next_along l c)) (vis2 x c)) else None.

  Lemma slide_node_ok g x y l ll ur c tr tl bl br t : gwf x -> plain_copy x -> redrawn x y -> vis2 y c = vis2 x c -> num_n x = num_n g -> num_m x = num_m g -> shown2 g c ->
    around g c tr tl bl br -> get_type x (fst c) (snd c) = Ok t -> kind_of tr tl bl br t ->
    slide_node fade l ll ur (gnodes x) y c = Ok (match slide_pos l ll ur x c tr tl bl br with Some p => put2 y c p | None => y end).
  Proof.
    intros W P R Vy Nn Nm S (H1 & H2 & H3 & H4) Et K. destruct c as [n m]. cbn [fst snd] in *. unfold slide_node.
    rewrite (get_type_rd x y) by auto. rewrite Et. cbn [bind].
    assert (Wy : gwf y) by (eapply rd_gwf; eauto). destruct (rd_num x y R) as [Yn Ym].
    assert (Sx : shown2 y (n, m)) by (destruct S; split; cbn in *; congruence).
    destruct S as [S1 S2]. cbn [fst snd] in S1, S2.
    assert (C : forall i j, i < num_n g -> j < num_m g -> cached (gnodes x) i j = Ok (vis x i j)) by (intros i j Hi Hj; apply cached_ok; auto; split; congruence).
    pose proof (get2 y (n, m) Wy Sx) as G. cbn [fst snd] in G. rewrite G, Vy.
    unfold slide_pos, slides, prev_along, next_along. unfold along_n. destruct (snd (l_start l) =? snd (l_end l)).
    - destruct tr, tl, bl, br; cbn [kind_of andb orb negb] in *; subst;
      try reflexivity; try (cbn in K; destruct K as [<-|[<-|[<-|[<-|[<-|[]]]]]]; reflexivity);
      repeat match goal with H : cell_at _ _ _ _ _ true |- _ => apply cell_true in H end;
      rewrite !C by lia; cbn [bind]; rewrite ?down_ok by lia; cbn [bind]; rewrite !C by lia; cbn [bind]; exact (set2 y (n, m) _ Wy Sx).
    - destruct tr, tl, bl, br; cbn [kind_of andb orb negb] in *; subst;
      try reflexivity; try (cbn in K; destruct K as [<-|[<-|[<-|[<-|[<-|[]]]]]]; reflexivity);
      repeat match goal with H : cell_at _ _ _ _ _ true |- _ => apply cell_true in H end;
      rewrite !C by lia; cbn [bind]; rewrite ?down_ok by lia; cbn [bind]; rewrite !C by lia; cbn [bind]; exact (set2 y (n, m) _ Wy Sx).
  Qed.

  Lemma slide_once_ok g x l ll ur : gwf x -> plain_copy x -> num_n x = num_n g -> num_m x = num_m g -> fst ll <= fst ur -> snd ll <= snd ur ->
    (forall c, beside l ll ur c -> shown2 g c) ->
    (forall c tr tl bl br, shown2 g c -> around g c tr tl bl br -> exists t, get_type x (fst c) (snd c) = Ok t /\ kind_of tr tl bl br t) ->
    let (a, b) := line_block l ll ur in
    exists y, slide_once fade l a b x = Ok y /\ redrawn x y /\ slide_pass fade g l ll ur x y.
  Proof.
    intros W P Nn Nm L1 L2 Sg T. pose proof (fun c => beside_box l ll ur c L1 L2) as BB. pose proof (fun c f => factor_block l ll ur c f L1 L2) as FB.
    destruct (line_block l ll ur) as [a b]. unfold slide_once. set (L := pairs (fst a) (fst b + 1) (snd a) (snd b + 1)).
    assert (InL : forall c, In c L <-> beside l ll ur c) by (intros [n m]; rewrite <- BB; unfold L, in_box; rewrite in_pairs; cbn; lia).
    destruct (fold_put (slide_node fade l a b (gnodes x)) (fun c => slide_pos l a b x c (b_tr g c) (b_tl g c) (b_bl g c) (b_br g c)) L x) as (y & E & R & A & B); auto.
    - apply pairs_nodup.
    - intros c Hc. apply InL, Sg in Hc. destruct Hc. split; congruence.
    - intros y c Hc R Vy. apply InL, Sg in Hc. destruct (T c _ _ _ _ Hc (around_b g c)) as (t & Et & K). eapply slide_node_ok; eauto using around_b.
    - exists y. split; [exact E|]. split; [exact R|]. destruct (rd_num x y R) as [Yn Ym]. split.
      + split; [exact Yn|]. split; [exact Ym|]. intros c _ Hc. apply B. rewrite InL. exact Hc.
      + intros c tr tl bl br Hc Hb Ha. rewrite A by (apply InL; auto). apply around_unique in Ha as (-> & -> & -> & ->). unfold slide_pos.
        destruct (slides l _ _ _ _); [|reflexivity]. exists (across fade l a b c). split; [apply FB, across_ok|apply slide_ok].
  Qed.

  Lemma slide_many g l ll ur : fst ll <= fst ur -> snd ll <= snd ur -> (forall c, beside l ll ur c -> shown2 g c) ->
    forall k x, gwf x -> plain_copy x -> num_n x = num_n g -> num_m x = num_m g ->
    (forall c tr tl bl br, shown2 g c -> around g c tr tl bl br -> exists t, get_type x (fst c) (snd c) = Ok t /\ kind_of tr tl bl br t) ->
    let (a, b) := line_block l ll ur in
    exists y, repeated k (slide_once fade l a b) x = Ok y /\ redrawn x y /\ passes (slide_pass fade g l ll ur) k x y.
  Proof.
    intros L1 L2 U. pose proof (fun x W P N M T => slide_once_ok g x l ll ur W P N M L1 L2 U T) as O. destruct (line_block l ll ur) as [a b].
    induction k as [|k IH]; intros x Wx P Nn Nm T; [exists x; split; [reflexivity|]; split; [apply rd_refl|constructor]|].
    destruct (O x) as (y & E & R & S); auto. destruct (rd_num x y R).
    destruct (IH y) as (z & Ez & Rz & Sz); [eapply rd_gwf; eauto|eapply rd_plain; eauto|congruence|congruence| |].
    { intros. rewrite (get_type_rd x y) by auto. eauto. }
    exists z. cbn [repeated]. rewrite E. cbn [bind]. split; [exact Ez|]. split; [eapply rd_trans; eauto|]. econstructor; eauto.
  Qed.

  Lemma beside_shown g l ll ur c : shown2 g (l_start l) -> shown2 g (l_end l) -> shown2 g ur -> beside l ll ur c -> shown2 g c.
  Proof. intros [] [] []. unfold beside, coord_along, coord_across. destruct (_ =? _); intros []; split; lia. Qed.

  Lemma directional_ok k l rest ll ur g : gwf g -> clean g -> plain_copy g -> shown2 g (l_start l) -> shown2 g (l_end l) -> shown2 g ur ->
    fst ll <= fst ur -> snd ll <= snd ur -> ~ flat l ll ur -> exists x h,
    smooth_directional fade k (l :: rest) ll ur g = Ok (h, copy_ctor h) /\ same_view g x /\ passes (slide_pass fade g l ll ur) k x h /\ only_within (beside l ll ur) g h.
  Proof.
    intros W C P S1 S2 U L1 L2 NF. unfold smooth_directional. destruct (start_view g W C) as (x & -> & V & F & M & T). cbn [bind].
    assert (E : flat_across l ll ur = false).
    { unfold flat, coord_across in NF. unfold flat_across, along_n. destruct (_ =? _); apply Nat.eqb_neq; exact NF. }
    rewrite E. assert (Wx : gwf x) by (eapply sf_gwf; eauto). pose proof V as (Vn & Vm & Vv).
    assert (Px : plain_copy x) by (destruct P; split; [rewrite (sf_sn _ _ F)|rewrite (sf_sm _ _ F)]; auto).
    pose proof (slide_many g l ll ur L1 L2 (fun c => beside_shown g l ll ur c S1 S2 U) k x Wx Px (eq_sym Vn) (eq_sym Vm)) as Q.
    destruct (line_block l ll ur) as [a b]. destruct Q as (h & -> & R & Q). { exact (stored_kind g x W C V Wx M T). }
    cbn [bind]. exists x, h. split; [reflexivity|]. split; [exact V|]. split; [exact Q|]. eapply within_view; [exact V|]. eapply passes_within; [|exact Q]. intros y z []. auto.
  Qed.
  Lemma directional_refused k ll ur g : gwf g -> clean g -> 
    (forall l rest, flat l ll ur -> smooth_directional fade k (l :: rest) ll ur g = Throw StdErr) /\ smooth_directional fade k [] ll ur g = Throw StdErr.
  Proof.
    intros W C. unfold smooth_directional. destruct (start_view g W C) as (x & -> & _). cbn [bind]. split; [|reflexivity].
    intros l rest Fl. unfold flat, coord_across in Fl. unfold flat_across, along_n. destruct (_ =? _); apply Nat.eqb_eq in Fl; rewrite Fl; reflexivity.
  Qed.
End Slide.

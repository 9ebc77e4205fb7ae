(** Refinement and de-refinement of grids. *)
From Verif Require Import Base BaseLemmas FloatModel UtilModel UtilProofs UndoModel ActionModel GridModel GridSpec GridProofs GridClean GridEdits GridLines GridFace.

Lemma map_out_ok {A B} (f : A -> outcome B) (h : A -> B) l : (forall a, In a l -> f a = Ok (h a)) -> map_out f l = Ok (map h l).
Proof.
  induction l as [|a t IH]; intros H; cbn [map_out map]; [reflexivity|]. rewrite H by (left; auto). cbn [bind].
  rewrite IH by (intros; apply H; right; auto). reflexivity.
Qed.

(** *** De-refinement *)
Lemma coarse_walk_kept lo hi total step : (lo < hi -> hi < total /\ step = hi - lo) -> (hi <= lo -> step = 1) ->
  forall fuel j, j <= total - (hi - lo - 1) -> total - (hi - lo - 1) - j <= fuel ->
  coarse_walk fuel lo hi step total (kept lo hi j) = map (kept lo hi) (seq j (total - (hi - lo - 1) - j)).
Proof.
  intros H1 H2. set (T := total - (hi - lo - 1)). intros fuel. induction fuel as [|fuel IH]; intros j Hj Hf.
  - replace (T - j) with 0 by lia. reflexivity.
  - cbn [coarse_walk]. destruct (Nat.ltb_spec (kept lo hi j) total) as [L|L].
    + assert (Lt : j < T) by (unfold T, kept in *; destruct (Nat.leb_spec j lo); lia).
      replace (T - j) with (S (T - S j)) by lia. cbn [seq map]. f_equal.
      rewrite <- IH by lia. f_equal. unfold kept.
      destruct (Nat.leb_spec j lo), (Nat.leb_spec (S j) lo); try lia.
      * destruct (Nat.leb_spec lo j), (Nat.ltb_spec j hi); cbn [andb]; lia.
      * destruct (Nat.leb_spec lo j), (Nat.ltb_spec j hi); cbn [andb]; lia.
      * destruct (Nat.leb_spec lo (j + (hi - lo - 1))), (Nat.ltb_spec (j + (hi - lo - 1)) hi); cbn [andb]; lia.
    + assert (E : j = T) by (unfold T, kept in *; destruct (Nat.leb_spec j lo); lia). subst j. rewrite Nat.sub_diag. reflexivity.
Qed.

Lemma walk_all lo hi total : lo <= hi -> hi < total ->
  coarse_walk total lo hi (if lo <? hi then hi - lo else 1) total 0 = map (kept lo hi) (seq 0 (total - (hi - lo - 1))).
Proof.
  intros Hl Hh. rewrite <- (Nat.sub_0_r (total - (hi - lo - 1))) at 1.
  rewrite <- coarse_walk_kept with (fuel := total) (step := if lo <? hi then hi - lo else 1); auto; try lia.
  - intros L. destruct (Nat.ltb_spec lo hi); lia.
  - intros L. destruct (Nat.ltb_spec lo hi); lia.
Qed.

Lemma kept_lt lo hi total i : lo <= hi -> hi < total -> i < total - (hi - lo - 1) -> kept lo hi i < total.
Proof. unfold kept. destruct (Nat.leb_spec i lo); lia. Qed.

Lemma set_grid_nodes_ok g x : 1 < mrows x -> 1 < mcols x ->
  exists h, set_grid_nodes g x = Ok h /\ gnodes h = x /\ start_n h = start_n g /\ start_m h = start_m g /\ end_n h = end_n g /\ end_m h = end_m g /\
    proj h = proj g.
Proof.
  intros Hr Hc. unfold set_grid_nodes. destruct (Nat.leb_spec (mrows x) 1); [lia|]. destruct (Nat.leb_spec (mcols x) 1); [lia|]. cbn [orb].
  rewrite compute_node_indices_ok. cbn [bind]. eexists. split; [reflexivity|]. repeat split; reflexivity.
Qed.

Lemma matrix_of_rows_map {A B} (l : list A) (k : list B) (v : A -> B -> point) da db i j : l <> [] -> i < length l -> j < length k ->
  entry (matrix_of_rows (map (fun a => map (v a) k) l)) i j = v (nth i l da) (nth j k db).
Proof.
  intros Hne Hi Hj. cbn [entry matrix_of_rows].
  rewrite (nth_indep _ [] (map (v da) k)) by (rewrite map_length; auto). rewrite (map_nth (fun a => map (v a) k)).
  rewrite (nth_indep _ missing_point (v (nth i l da) db)) by (rewrite map_length; auto). rewrite map_nth. reflexivity.
Qed.

Lemma derefine_ok g ll ur : gwf g -> shown g (fst ur) (snd ur) -> fst ll <= fst ur -> snd ll <= snd ur ->
  exists h, derefine g ll ur = Ok (h, refinement_action g) /\ proj h = proj g /\
    start_n h = start_n g /\ start_m h = start_m g /\ end_n h = end_n g /\ end_m h = end_m g /\
    mrows (gnodes h) = num_n g - (fst ur - fst ll - 1) /\ mcols (gnodes h) = num_m g - (snd ur - snd ll - 1) /\
    forall i j, i < mrows (gnodes h) -> j < mcols (gnodes h) ->
      entry (gnodes h) i j = vis g (kept (fst ll) (fst ur) i) (kept (snd ll) (snd ur) j).
Proof.
  destruct ll as [ln lm], ur as [un um]. cbn [fst snd]. intros W [Hun Hum] Hn Hm. unfold derefine. cbn [fst snd]. cbv zeta.
  rewrite !walk_all by auto. set (Tn := num_n g - (un - ln - 1)). set (Tm := num_m g - (um - lm - 1)).
  assert (N2 : 2 <= num_n g /\ 2 <= num_m g) by (unfold gwf, num_n, num_m, full_n, full_m in *; lia).
  rewrite (map_out_ok _ (fun n => map (vis g n) (map (kept lm um) (seq 0 Tm)))).
  2:{ intros n Hin. apply in_map_iff in Hin as (i & <- & Hi). apply in_seq in Hi. apply map_out_ok. intros m Hin.
      apply in_map_iff in Hin as (j & <- & Hj). apply in_seq in Hj. apply get_node_ok; auto. split; apply kept_lt; auto; unfold Tn, Tm in *; lia. }
  cbn [bind]. set (rows := map _ _).
  assert (Lr : length rows = Tn) by (unfold rows; rewrite !map_length, seq_length; reflexivity).
  assert (Lc : length (hd [] rows) = Tm).
  { unfold rows. destruct Tn eqn:E; [unfold Tn in E; lia|]. cbn. rewrite !map_length, seq_length. reflexivity. }
  destruct (set_grid_nodes_ok g (matrix_of_rows rows)) as (h & -> & Eg & E1 & E2 & E3 & E4 & E5);
    [cbn [mrows matrix_of_rows]; rewrite Lr; unfold Tn; lia|cbn [mcols matrix_of_rows]; rewrite Lc; unfold Tm; lia|].
  cbn [bind]. exists h. split; [reflexivity|]. do 5 (split; [auto|]). rewrite Eg. split; [exact Lr|]. split; [exact Lc|].
  cbn [mrows mcols matrix_of_rows]. rewrite Lr, Lc. intros i j Hi Hj. unfold rows.
  rewrite (matrix_of_rows_map _ _ (vis g) (kept ln un 0) (kept lm um 0)).
  - rewrite !map_nth, !seq_nth by auto. reflexivity.
  - destruct Tn eqn:E; [unfold Tn in E; lia|]. discriminate.
  - rewrite map_length, seq_length. auto.
  - rewrite map_length, seq_length. auto.
Qed.

Lemma derefine_view g ll ur : gwf g -> no_hidden g -> shown g (fst ur) (snd ur) -> fst ll <= fst ur -> snd ll <= snd ur ->
  exists h u, derefine g ll ur = Ok (h, u) /\
    num_n h = num_n g - (fst ur - fst ll - 1) /\ num_m h = num_m g - (snd ur - snd ll - 1) /\
    forall i j, shown h i j -> vis h i j = vis g (kept (fst ll) (fst ur) i) (kept (snd ll) (snd ur) j).
Proof.
  intros W (H1 & H2 & H3 & H4) Hs Hn Hm. destruct (derefine_ok g ll ur W Hs Hn Hm) as (h & E & _ & E1 & E2 & E3 & E4 & R & C & V).
  exists h, (refinement_action g). split; [exact E|].
  assert (N : num_n h = mrows (gnodes h)) by (unfold num_n, full_n; lia). assert (M : num_m h = mcols (gnodes h)) by (unfold num_m, full_m; lia).
  split; [congruence|]. split; [congruence|]. intros i j [Hi Hj]. unfold vis at 1. rewrite E1, E2, H1, H2. apply V; congruence.
Qed.

(** *** Undo of refinement and de-refinement *)
Lemma swap_refinement_ok g k y : gwf g -> clean g -> same_store g y ->
  exists z, swap_refinement (gnodes y) (start_n y) (start_m y) (end_n y) (end_m y) k =
              Ok (RefineOf (gnodes k) (start_n k) (start_m k) (end_n k) (end_m k), z) /\ same_store g z.
Proof.
  intros W Hc S. unfold swap_refinement. cbv zeta.
  match goal with |- context [reindex ?q] => set (x := q) end.
  assert (Sx : same_store g x) by (eapply st_trans; [exact S|]; constructor; reflexivity || auto).
  destruct (st_reindex x) as (x1 & -> & S1). cbn [bind].
  assert (S2 : same_store g x1) by (eapply st_trans; eauto).
  destruct (types_store x1) as (x2 & -> & S3 & _); [eapply st_gwf; eauto|eapply st_clean; eauto|]. cbn [bind].
  eexists. split; [reflexivity|]. eapply st_trans; eauto.
Qed.

Lemma refinement_reversible g h : gwf g -> clean g -> gwf h -> clean h -> reversible (refinement_action g) g h.
Proof.
  intros Wg Cg Wh Ch.
  apply (alternate (fun u x => same_store h x /\ exists y, same_store g y /\
           u = Leaf Committed (RefineOf (gnodes y) (start_n y) (start_m y) (end_n y) (end_m y)))).
  2:{ split; [apply st_refl|]. exists g. split; [apply st_refl|reflexivity]. }
  intros u x (Sx & y & Sy & ->). split; [apply st_view; auto|].
  destruct (swap_refinement_ok g x y Wg Cg Sy) as (z & Ez & Sz).
  unfold undo_grid. cbn [restore_act grid_restore]. rewrite Ez. cbn [bind]. eexists _, _. split; [reflexivity|].
  split; [apply st_view; auto|].
  destruct (swap_refinement_ok h z x Wh Ch Sx) as (w & Ew & Sw).
  unfold redo_grid. cbn [commit_act grid_commit]. rewrite Ew. cbn [bind]. eexists _, _. split; [reflexivity|].
  split; [exact Sw|]. exists z. auto.
Qed.

Lemma refinement_undo g h : gwf g -> clean g -> exists u' k, undo_grid (refinement_action g) h = Ok (u', k) /\ same_view g k.
Proof.
  intros W C. destruct (swap_refinement_ok g h g W C (st_refl g)) as (z & Ez & Sz).
  unfold undo_grid, refinement_action. cbn [restore_act grid_restore]. rewrite Ez. cbn [bind]. eexists _, _. split; [reflexivity|].
  apply st_view. exact Sz.
Qed.

Lemma full_clean g : gwf g -> full g -> clean g.
Proof.
  intros W F i j [Hi Hj] _. assert (N2 : 2 <= num_n g /\ 2 <= num_m g) by (unfold gwf, num_n, num_m, full_n, full_m in *; lia).
  exists (if i + 1 <? num_n g then i else i - 1), (if j + 1 <? num_m g then j else j - 1).
  destruct (Nat.ltb_spec (i + 1) (num_n g)), (Nat.ltb_spec (j + 1) (num_m g)); (split; [|unfold corner_of; lia]);
    unfold complete; (split; [lia|]); (split; [lia|]); repeat split; apply F; split; lia.
Qed.

(** *** Refinement *)
Fixpoint psum (f : nat -> nat) (k : nat) : nat := match k with 0 => 0 | S k => psum f k + f k end.

Lemma psum_mono f a b : a <= b -> psum f a <= psum f b.
Proof. induction 1; cbn; lia. Qed.
Lemma psum_strict f : (forall c, 0 < f c) -> forall a b, a < b -> psum f a < psum f b.
Proof. intros Hf a b H. induction H; cbn [psum]; [specialize (Hf a)|specialize (Hf m)]; lia. Qed.

Section Cells.
  Variable g : grid.
  Hypothesis W : gwf g.
  Variables fn fm : nat -> nat.
  Variable cell : nat -> nat -> nat -> nat -> point.
  Variables rows cols : nat.
  Hypothesis Hrows : rows = psum fn (num_n g - 1) + 1.
  Hypothesis Hcols : cols = psum fm (num_m g - 1) + 1.

  (** position (a, b) is in the local grid of cell (c, d) *)
  Definition covers c d a b : Prop := psum fn c <= a <= psum fn (c + 1) /\ psum fm d <= b <= psum fm (d + 1).

  Definition filled (D : nat -> nat -> Prop) (x : matrix point) : Prop :=
    mrows x = rows /\ mcols x = cols /\
    forall a b,
      (exists c d, D c d /\ complete g c d /\ covers c d a b /\ entry x a b = cell c d (a - psum fn c) (b - psum fm d)) \/
      ((forall c d, D c d -> complete g c d -> ~ covers c d a b) /\ entry x a b = missing_point).

  Lemma filled_ext D D' x : (forall c d, D c d <-> D' c d) -> filled D x -> filled D' x.
  Proof.
    intros H (R & C & E). split; auto. split; auto. intros a b. destruct (E a b) as [(c & d & X & Y)|[X Y]].
    - left. exists c, d. split; [apply H; auto|auto].
    - right. split; auto. intros c d Hd. apply X. apply H. auto.
  Qed.

  Definition one_cell cn rn (acc' : matrix point * nat) cm : outcome (matrix point * nat) :=
    let (x, rm) := acc' in
    let! v := face_nodes_valid g cn cm in
    let! x :=
      (if v then
         if (rn + fn cn <? mrows x) && (rm + fm cm <? mcols x)
         then Ok (Matrix (mrows x) (mcols x) (write_block (entry x) rn rm (fn cn + 1) (fm cm + 1) (cell cn cm)))
         else UB
       else Ok x) in
    Ok (x, rm + fm cm).

  Lemma covers_dec c d a b : covers c d a b \/ ~ covers c d a b.
  Proof. unfold covers. lia. Qed.

  Lemma one_cell_ok D x cn cm : cn + 1 < num_n g -> cm + 1 < num_m g -> filled D x ->
    exists x', one_cell cn (psum fn cn) (x, psum fm cm) cm = Ok (x', psum fm (S cm)) /\
      filled (fun c d => D c d \/ (c = cn /\ d = cm)) x'.
  Proof.
    intros Hn Hm (R & C & E). unfold one_cell. rewrite face_nodes_valid_ok by auto. cbn [bind].
    assert (Cb : complete g cn cm <-> completeb g cn cm = true) by (rewrite complete_b; tauto).
    destruct (completeb g cn cm) eqn:Ec.
    - rewrite R, C, Hrows, Hcols.
      assert (A1 : psum fn (S cn) <= psum fn (num_n g - 1)) by (apply psum_mono; lia).
      assert (A2 : psum fm (S cm) <= psum fm (num_m g - 1)) by (apply psum_mono; lia). cbn [psum] in A1, A2.
      destruct (Nat.ltb_spec (psum fn cn + fn cn) (psum fn (num_n g - 1) + 1)); [|lia].
      destruct (Nat.ltb_spec (psum fm cm + fm cm) (psum fm (num_m g - 1) + 1)); [|lia]. cbn [andb bind].
      eexists. split; [reflexivity|]. split; [auto|]. split; [auto|]. intros a b. cbn [entry]. rewrite write_block_spec.
      assert (Cv : covers cn cm a b <-> (psum fn cn <=? a) && (a <? psum fn cn + (fn cn + 1)) && (psum fm cm <=? b) && (b <? psum fm cm + (fm cm + 1)) = true).
      { unfold covers. rewrite !Nat.add_1_r with (n := cn), !Nat.add_1_r with (n := cm). cbn [psum].
        rewrite !andb_true_iff, !Nat.leb_le, !Nat.ltb_lt. lia. }
      destruct (_ && _ && _ && _).
      + left. exists cn, cm. split; [right; auto|]. split; [tauto|]. split; [tauto|reflexivity].
      + destruct (E a b) as [(c & d & X & Y & Z)|[X Y]].
        * left. exists c, d. split; [left; auto|]. auto.
        * right. split; [|exact Y]. intros c d [Hd|[-> ->]] Hcc; [apply X; auto|]. intros Hv. apply Cv in Hv. discriminate.
    - cbn [bind]. eexists. split; [reflexivity|]. split; [auto|]. split; [auto|]. intros a b.
      destruct (E a b) as [(c & d & X & Y & Z)|[X Y]].
      + left. exists c, d. split; [left; auto|]. auto.
      + right. split; [|exact Y]. intros c d [Hd|[-> ->]] Hcc; [apply X; auto|]. apply Cb in Hcc. discriminate.
  Qed.

  Lemma range_S k : range 0 (S k) = range 0 k ++ [k].
  Proof. unfold range. rewrite !Nat.sub_0_r, seq_S. reflexivity. Qed.

  Lemma one_row_ok D x cn : cn + 1 < num_n g -> filled D x -> forall k, k <= num_m g - 1 ->
    exists x', fold_out (one_cell cn (psum fn cn)) (range 0 k) (x, 0) = Ok (x', psum fm k) /\
      filled (fun c d => D c d \/ (c = cn /\ d < k)) x'.
  Proof.
    intros Hn Hf k. induction k as [|k IH]; intros Hk.
    - exists x. split; [reflexivity|]. eapply filled_ext; [|exact Hf]. intros; split; [auto|]. intros [?|[_ ?]]; [auto|lia].
    - destruct (IH ltac:(lia)) as (x1 & E1 & F1). rewrite range_S, fold_out_app, E1. cbn [bind fold_out].
      destruct (one_cell_ok _ x1 cn k Hn ltac:(lia) F1) as (x2 & -> & F2). cbn [bind].
      exists x2. split; [reflexivity|]. eapply filled_ext; [|exact F2]. intros c d. cbn beta.
      split; [intros [[Q|Q]|Q]|intros [Q|[Q1 Q2]]]; auto; [right; lia|right; lia|].
      destruct (Nat.eq_dec d k); [right; auto|left; right; lia].
  Qed.

  Lemma refine_cells_ok : exists x, refine_cells g fn fm cell rows cols = Ok x /\ filled (fun c d => c + 1 < num_n g /\ d + 1 < num_m g) x.
  Proof.
    unfold refine_cells.
    assert (Rows : forall k, k <= num_n g - 1 -> exists x,
      fold_out (fun (acc : matrix point * nat) cn =>
                let! (x, _) := fold_out (one_cell cn (snd acc)) (range 0 (num_m g - 1)) (fst acc, 0) in
                Ok (x, snd acc + fn cn))
             (range 0 k) (Matrix rows cols (fun _ _ => missing_point), 0) = Ok (x, psum fn k) /\
      filled (fun c d => c < k /\ d + 1 < num_m g) x).
    { intros k. induction k as [|k IH]; intros Hk.
      - eexists. split; [reflexivity|]. split; [reflexivity|]. split; [reflexivity|]. intros a b. right. split; [lia|reflexivity].
      - destruct (IH ltac:(lia)) as (x1 & E1 & F1). rewrite range_S, fold_out_app, E1. cbn [bind fold_out fst snd].
        destruct (one_row_ok _ x1 k ltac:(lia) F1 (num_m g - 1) ltac:(lia)) as (x2 & -> & F2). cbn [bind].
        exists x2. split; [reflexivity|]. eapply filled_ext; [|exact F2]. intros c d. cbn beta. lia. }
    destruct (Rows (num_n g - 1) ltac:(lia)) as (x & E & F).
    change (fun (acc : matrix point * nat) cn =>
                let! (x, _) := fold_out (one_cell cn (snd acc)) (range 0 (num_m g - 1)) (fst acc, 0) in
                Ok (x, snd acc + fn cn)) with
       (fun (acc : matrix point * nat) cn =>
                let! (x, _) :=
                  fold_out (fun (acc' : matrix point * nat) cm =>
                              let (x, rm) := acc' in
                              let! v := face_nodes_valid g cn cm in
                              let! x :=
                                (if v then
                                   if (snd acc + fn cn <? mrows x) && (rm + fm cm <? mcols x)
                                   then Ok (Matrix (mrows x) (mcols x)
                                              (write_block (entry x) (snd acc) rm (fn cn + 1) (fm cm + 1) (cell cn cm)))
                                   else UB
                                 else Ok x) in
                              Ok (x, rm + fm cm))
                           (range 0 (num_m g - 1)) (fst acc, 0) in
                Ok (x, snd acc + fn cn)) in E.
    rewrite E. cbn [bind]. exists x. split; [reflexivity|]. eapply filled_ext; [|exact F]. intros c d. cbn beta. lia.
  Qed.

  (** The nodes of the old grid, at their new places. *)
  Hypothesis Pn : forall c, 0 < fn c.
  Hypothesis Pm : forall c, 0 < fm c.
  Hypothesis Corners : forall n m, complete g n m -> corners_kept g n m (fn n) (fm m) (cell n m).

  Lemma filled_corner x n m : filled (fun c d => c + 1 < num_n g /\ d + 1 < num_m g) x -> in_cell g n m ->
    entry x (psum fn n) (psum fm m) = vis g n m.
  Proof.
    intros (_ & _ & E) (cn & cm & Hc & Hco).
    destruct (E (psum fn n) (psum fm m)) as [(c & d & _ & Hcd & [C1 C2] & Ev)|[Hno _]].
    - rewrite Ev.
      assert (En : n = c \/ n = c + 1).
      { destruct (lt_eq_lt_dec n c) as [[L|L]|L]; auto.
        - pose proof (psum_strict fn Pn n c L). lia.
        - destruct (Nat.eq_dec n (c + 1)); auto. pose proof (psum_strict fn Pn (c + 1) n ltac:(lia)). lia. }
      assert (Em : m = d \/ m = d + 1).
      { destruct (lt_eq_lt_dec m d) as [[L|L]|L]; auto.
        - pose proof (psum_strict fm Pm m d L). lia.
        - destruct (Nat.eq_dec m (d + 1)); auto. pose proof (psum_strict fm Pm (d + 1) m ltac:(lia)). lia. }
      destruct (Corners c d Hcd) as (K1 & K2 & K3 & K4).
      assert (Dn : psum fn (c + 1) - psum fn c = fn c) by (rewrite Nat.add_1_r; cbn [psum]; lia).
      assert (Dm : psum fm (d + 1) - psum fm d = fm d) by (rewrite Nat.add_1_r; cbn [psum]; lia).
      destruct En as [->| ->], Em as [->| ->]; rewrite ?Nat.sub_diag, ?Dn, ?Dm; auto.
    - exfalso. apply (Hno cn cm); auto.
      + destruct Hc as (A & B & _). auto.
      + unfold covers. destruct Hco as [[->| ->] [->| ->]]; split; split; apply psum_mono; lia.
  Qed.

  (** A position that belongs to no complete cell holds no node; every other node comes from the local grid of a complete cell. *)
  Lemma filled_other x a b : filled (fun c d => c + 1 < num_n g /\ d + 1 < num_m g) x ->
    (exists c d, complete g c d /\ covers c d a b /\ entry x a b = cell c d (a - psum fn c) (b - psum fm d)) \/
    ((forall c d, complete g c d -> ~ covers c d a b) /\ entry x a b = missing_point).
  Proof.
    intros (_ & _ & E). destruct (E a b) as [(c & d & _ & X)|[X Y]]; [left; exists c, d; auto|right].
    split; auto. intros c d Hc. apply X; auto. destruct Hc as (A & B & _). auto.
  Qed.
End Cells.

(** *** The two refinements *)
Definition factor (lo hi r c : nat) : nat := if (lo <=? c) && (c <? hi) then r else 1.

Lemma psum_factor lo hi r k : 1 <= r -> lo <= hi -> psum (factor lo hi r) k = moved lo hi r k.
Proof.
  intros Hr Hl. unfold moved. induction k as [|k IH]; cbn [psum]; [cbn [Nat.min]; lia|].
  rewrite IH. unfold factor. destruct (Nat.leb_spec lo k), (Nat.ltb_spec k hi); cbn [andb].
  - replace (min (S k) hi) with (S k) by lia. replace (min k hi) with k by lia. replace (S k - lo) with (S (k - lo)) by lia. nia.
  - replace (min (S k) hi) with hi by lia. replace (min k hi) with hi by lia. lia.
  - replace (min (S k) hi - lo) with 0 by lia. replace (min k hi - lo) with 0 by lia. lia.
  - lia.
Qed.

Lemma psum_const r k : psum (fun _ => r) k = k * r.
Proof. induction k; cbn [psum]; lia. Qed.

Section Refine.
  Variable g : grid.
  Hypothesis W : gwf g.
  Hypothesis H0 : no_hidden g.

  (** A grid made of a filled matrix. *)
  Lemma filled_grid fn fm cell x h : (forall c, 0 < fn c) -> (forall c, 0 < fm c) ->
    (forall n m, complete g n m -> corners_kept g n m (fn n) (fm m) (cell n m)) ->
    filled g fn fm cell (psum fn (num_n g - 1) + 1) (psum fm (num_m g - 1) + 1) (fun c d => c + 1 < num_n g /\ d + 1 < num_m g) x ->
    gnodes h = x -> no_hidden h ->
    gwf h /\ num_n h = psum fn (num_n g - 1) + 1 /\ num_m h = psum fm (num_m g - 1) + 1 /\
    (forall n m, in_cell g n m -> vis h (psum fn n) (psum fm m) = vis g n m) /\
    (forall a b, shown h a b ->
       (exists c d, complete g c d /\ covers fn fm c d a b /\ vis h a b = cell c d (a - psum fn c) (b - psum fm d)) \/
       ((forall c d, complete g c d -> ~ covers fn fm c d a b) /\ vis h a b = missing_point)).
  Proof.
    intros Pn Pm Hcor F Eg (S1 & S2 & S3 & S4). pose proof F as (R & C & _).
    assert (N2 : 2 <= num_n g /\ 2 <= num_m g) by (unfold gwf, num_n, num_m, full_n, full_m in *; lia).
    assert (Q1 : 0 < psum fn (num_n g - 1)) by (apply (psum_strict fn Pn 0); lia).
    assert (Q2 : 0 < psum fm (num_m g - 1)) by (apply (psum_strict fm Pm 0); lia).
    assert (Nh : num_n h = psum fn (num_n g - 1) + 1) by (unfold num_n at 1; rewrite Eg, R; lia).
    assert (Mh : num_m h = psum fm (num_m g - 1) + 1) by (unfold num_m at 1; rewrite Eg, C; lia).
    assert (V : forall a b, vis h a b = entry x a b) by (intros a b; unfold vis; rewrite Eg, S1, S2; reflexivity).
    split; [unfold gwf; rewrite Eg, R, C; lia|]. split; [auto|]. split; [auto|]. split.
    - intros n m Hc. rewrite V. exact (filled_corner g fn fm cell _ _ eq_refl eq_refl Pn Pm Hcor x n m F Hc).
    - intros a b _. rewrite V. exact (filled_other g fn fm cell _ _ x a b F).
  Qed.

  Lemma refine_ok cell ll ur r : shown g (fst ur) (snd ur) -> fst ll <= fst ur -> snd ll <= snd ur ->
    (snd ll = snd ur \/ fst ll = fst ur) -> 1 <= r ->
    (forall n m, complete g n m -> corners_kept g n m (factor (fst ll) (fst ur) r n) (factor (snd ll) (snd ur) r m) (cell n m)) ->
    exists h, refine cell g ll ur r = Ok (h, refinement_action g) /\ gwf h /\
      num_n h = num_n g + (fst ur - fst ll) * (r - 1) /\ num_m h = num_m g + (snd ur - snd ll) * (r - 1) /\
      (forall n m, in_cell g n m -> vis h (moved (fst ll) (fst ur) r n) (moved (snd ll) (snd ur) r m) = vis g n m) /\
      (forall a b, shown h a b ->
         let pn := moved (fst ll) (fst ur) r in let pm := moved (snd ll) (snd ur) r in
         (exists c d, complete g c d /\ pn c <= a <= pn (c + 1) /\ pm d <= b <= pm (d + 1) /\ vis h a b = cell c d (a - pn c) (b - pm d)) \/
         ((forall c d, complete g c d -> ~ (pn c <= a <= pn (c + 1) /\ pm d <= b <= pm (d + 1))) /\ vis h a b = missing_point)).
  Proof.
    destruct ll as [ln lm], ur as [un um]. cbn [fst snd]. intros [Hun Hum] Hn Hm Hd Hr Hcor. unfold refine. cbn [fst snd]. cbv zeta.
    replace (negb (lm =? um) && negb (ln =? un)) with false
      by (destruct Hd as [->| ->]; rewrite Nat.eqb_refl; cbn; [reflexivity|rewrite andb_false_r; reflexivity]).
    change (fun c : nat => if (ln <=? c) && (c <? un) then r else 1) with (factor ln un r).
    change (fun c : nat => if (lm <=? c) && (c <? um) then r else 1) with (factor lm um r).
    assert (N2 : 2 <= num_n g /\ 2 <= num_m g) by (unfold gwf, num_n, num_m, full_n, full_m in *; lia).
    assert (ER : num_n g + (un - ln) * (r - 1) = psum (factor ln un r) (num_n g - 1) + 1).
    { rewrite psum_factor by auto. unfold moved. replace (min (num_n g - 1) un) with un by lia. nia. }
    assert (EC : num_m g + (um - lm) * (r - 1) = psum (factor lm um r) (num_m g - 1) + 1).
    { rewrite psum_factor by auto. unfold moved. replace (min (num_m g - 1) um) with um by lia. nia. }
    rewrite ER, EC.
    destruct (refine_cells_ok g W (factor ln un r) (factor lm um r) cell _ _ eq_refl eq_refl) as (x & -> & F). cbn [bind].
    assert (P : forall lo hi c, 0 < factor lo hi r c) by (intros lo hi c; unfold factor; destruct (_ && _); lia).
    pose proof F as (R & C & _).
    destruct (set_grid_nodes_ok g x) as (h & -> & Eg & E1 & E2 & E3 & E4 & E5).
    { rewrite R. pose proof (psum_strict _ (P ln un) 0 (num_n g - 1) ltac:(lia)). cbn [psum] in *. lia. }
    { rewrite C. pose proof (psum_strict _ (P lm um) 0 (num_m g - 1) ltac:(lia)). cbn [psum] in *. lia. }
    cbn [bind]. exists h. split; [reflexivity|].
    assert (NH : no_hidden h) by (unfold no_hidden in *; rewrite E1, E2, E3, E4; auto).
    destruct (filled_grid _ _ cell x h (P ln un) (P lm um) Hcor F Eg NH) as (G1 & G2 & G3 & G4 & G5).
    split; [auto|]. split; [auto|]. split; [auto|]. split.
    - intros n m Hc. rewrite <- !psum_factor by auto. auto.
    - intros a b Hs. cbv zeta. destruct (G5 a b Hs) as [(c & d & X & [Y1 Y2] & Z)|[X Y]].
      + left. exists c, d. rewrite <- !psum_factor by auto. auto.
      + right. split; auto. intros c d Hc Q. rewrite <- !psum_factor in Q by auto. exact (X c d Hc Q).
  Qed.

  Lemma full_refine_ok cell rm rn : 1 <= rm -> 1 <= rn -> (rm <> 1 \/ rn <> 1) ->
    (forall n m, complete g n m -> corners_kept g n m rn rm (cell n m)) ->
    exists h, full_refine cell g rm rn = Ok (h, Some (refinement_action g)) /\ gwf h /\
      num_n h = (num_n g - 1) * rn + 1 /\ num_m h = (num_m g - 1) * rm + 1 /\
      (forall n m, in_cell g n m -> vis h (n * rn) (m * rm) = vis g n m) /\
      (forall a b, shown h a b ->
         (exists c d, complete g c d /\ c * rn <= a <= (c + 1) * rn /\ d * rm <= b <= (d + 1) * rm /\ vis h a b = cell c d (a - c * rn) (b - d * rm)) \/
         ((forall c d, complete g c d -> ~ (c * rn <= a <= (c + 1) * rn /\ d * rm <= b <= (d + 1) * rm)) /\ vis h a b = missing_point)).
  Proof.
    intros Hrm Hrn Hd Hcor. unfold full_refine.
    destruct (Nat.eqb_spec rm 0) as [Z1|Z1]; [lia|]. destruct (Nat.eqb_spec rn 0) as [Z2|Z2]; [lia|]. cbn [orb].
    replace ((rm =? 1) && (rn =? 1)) with false.
    2:{ destruct (Nat.eqb_spec rm 1), (Nat.eqb_spec rn 1); cbn; auto; lia. }
    assert (N2 : 2 <= num_n g /\ 2 <= num_m g) by (unfold gwf, num_n, num_m, full_n, full_m in *; lia).
    destruct (refine_cells_ok g W (fun _ => rn) (fun _ => rm) cell ((num_n g - 1) * rn + 1) ((num_m g - 1) * rm + 1)) as (x & -> & F);
      [rewrite psum_const; auto|rewrite psum_const; auto|]. cbn [bind].
    rewrite <- (psum_const rn), <- (psum_const rm) in F.
    pose proof F as (R & C & _). rewrite psum_const in R, C.
    destruct (set_grid_nodes_ok g x) as (h & -> & Eg & E1 & E2 & E3 & E4 & E5); [rewrite R; nia|rewrite C; nia|].
    cbn [bind]. exists h. split; [reflexivity|].
    assert (NH : no_hidden h) by (unfold no_hidden in *; rewrite E1, E2, E3, E4; auto).
    destruct (filled_grid (fun _ => rn) (fun _ => rm) cell x h ltac:(auto) ltac:(auto) Hcor F Eg NH) as (G1 & G2 & G3 & G4 & G5).
    rewrite psum_const in G2, G3. split; [auto|]. split; [auto|]. split; [auto|]. split.
    - intros n m Hc. rewrite <- (psum_const rn), <- (psum_const rm). auto.
    - intros a b Hs. destruct (G5 a b Hs) as [(c & d & X & [Y1 Y2] & Z)|[X Y]].
      + left. exists c, d. rewrite <- !(psum_const rn), <- !(psum_const rm). auto.
      + right. split; auto. intros c d Hc Q. rewrite <- !(psum_const rn), <- !(psum_const rm) in Q. exact (X c d Hc Q).
  Qed.
End Refine.

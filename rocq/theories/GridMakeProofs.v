(** Curvature, smoothness and rectangular grids: values, sizes and nodes. *)
From Verif Require Import Base BaseLemmas FloatModel UtilModel UtilProofs GridModel GridSpec GridProofs GridRefine GridMakeModel GridMakeSpec.

(** *** Values for all nodes *)
Lemma fold_measure value d g l : gwf g ->
  (forall ij, In ij l -> fst ij < num_n g /\ snd ij < num_m g /\ has_both d g (fst ij) (snd ij)) ->
  forall x, exists y, fold_out (measure_step value d g) l x = Ok y /\ mrows y = mrows x /\ mcols y = mcols x /\
    forall n m, entry y n m = (if existsb (fun ij => (n =? fst ij) && (m =? snd ij)) l then value (node_before d g n m) (vis g n m) (node_after d g n m) else entry x n m).
Proof.
  intros W. induction l as [|[i j] l IH]; intros H x; [exists x; repeat split; reflexivity|].
  destruct (H (i, j) (or_introl eq_refl)) as (Hi & Hj & B). cbn [fst snd] in Hi, Hj, B.
  cbn [fold_out]. unfold measure_step at 1. 
  assert (E : forall a b, a < num_n g -> b < num_m g -> get_node g a b = Ok (vis g a b)) by (intros; apply get_node_ok; [auto|split; auto]).
  destruct d; cbn [fst snd has_both] in B |- *; rewrite !E by lia; cbn [bind];
    match goal with |- context [fold_out _ _ ?z] => destruct (IH (fun ij Q => H ij (or_intror Q)) z) as (y & Ey & R & C & V) end;
    exists y; cbn [mrows mcols] in R, C; (split; [exact Ey|]); (split; [exact R|]); (split; [exact C|]); intros n m; rewrite V; cbn [entry existsb fst snd]; unfold put_entry;
    destruct (existsb _ l); rewrite ?orb_true_r, ?orb_false_r; auto; destruct ((n =? i) && (m =? j)) eqn:Q; auto;
    apply andb_true_iff in Q as [Q1 Q2]; apply Nat.eqb_eq in Q1, Q2; subst; reflexivity.
Qed.
Lemma measure_ok value d g : gwf g -> exists x, measure value d g = Ok x /\ measured value d g x.
Proof.
  intros W. unfold measure.
  assert (K : forall l, (forall ij, In ij l <-> fst ij < num_n g /\ snd ij < num_m g /\ has_both d g (fst ij) (snd ij)) ->
     exists x, fold_out (measure_step value d g) l (Matrix (num_n g) (num_m g) (fun _ _ => missing_double)) = Ok x /\ measured value d g x).
  { intros l Hl. destruct (fold_measure value d g l W (fun ij => proj1 (Hl ij)) (Matrix (num_n g) (num_m g) (fun _ _ => missing_double))) as (y & E & R & C & V).
    exists y. split; [exact E|]. split; [exact R|]. split; [exact C|]. intros n m Hn Hm. rewrite V. destruct (existsb _ l) eqn:X.
    - apply existsb_exists in X as ([a b] & I & Q). apply Hl in I. cbn [fst snd] in I, Q. apply andb_true_iff in Q as [Q1 Q2]. apply Nat.eqb_eq in Q1, Q2. subst a b. split; tauto.
    - split; [intros B|reflexivity]. exfalso. assert (I : In (n, m) l) by (apply Hl; auto).
      assert (existsb (fun ij => (n =? fst ij) && (m =? snd ij)) l = true) by (apply existsb_exists; exists (n, m); cbn; rewrite !Nat.eqb_refl; auto). congruence. }
  destruct d; apply K; intros [a b]; unfold pairs; rewrite in_prod_iff, !in_range; cbn [fst snd has_both]; lia.
Qed.

(** *** Rectangular grids *)
Lemma new_grid_ok x p : 2 <= mrows x -> 2 <= mcols x -> exists g, new_grid x p = Ok g /\ proj g = p /\ shows g (mrows x) (mcols x) (entry x).
Proof.
  intros R C. unfold new_grid. destruct (set_grid_nodes_ok (empty_grid p) x) as (g & E & X & A & B & D & F & P); [lia|lia|].
  cbn in A, B, D, F, P. exists g. split; [exact E|]. split; [exact P|]. unfold shows, gwf, no_hidden, num_n, num_m, vis. rewrite X, A, B, D, F. cbn [Nat.add].
  repeat split; try lia. 
Qed.
Lemma new_grid_refused x p : mrows x < 2 \/ mcols x < 2 -> new_grid x p = Throw StdErr.
Proof. intros H. unfold new_grid, set_grid_nodes. destruct (Nat.leb_spec (mrows x) 1), (Nat.leb_spec (mcols x) 1); try reflexivity. lia. Qed.

Section Rectangular.
  Variables cosine sine mag : double -> double.
  Variable junk : nat -> nat -> point.
  Variables deg_to_rad earth_radius : double.
  Notation next := (next_latitude cosine mag deg_to_rad earth_radius).

  Lemma row_fold block n l : 0 < n -> forall x on, let r := fold_left (row_step cosine mag deg_to_rad earth_radius block n) l (x, on) in
    mrows (fst r) = mrows x /\ mcols (fst r) = mcols x /\
    (forall i j, entry (fst r) i j = if (i =? n) && existsb (Nat.eqb j) l then Pt (px (entry x n j)) (next block (py (entry x (n - 1) j))) else entry x i j) /\
    snd r = on || existsb (fun m => at_pole (next block (py (entry x (n - 1) m)))) l.
  Proof.
    intros P. induction l as [|m l IH]; intros x on.
    - cbn. rewrite orb_false_r. repeat split. intros i j. rewrite andb_false_r. reflexivity.
    - cbn [fold_left]. cbn zeta. unfold row_step at 2 4 6 8.
      match goal with |- context [fold_left _ l (?z, ?b)] => destruct (IH z b) as (A & B & C & D); set (y := z) in * end.
      assert (Y : forall i j, entry y i j = if (i =? n) && (j =? m) then Pt (px (entry x n m)) (next block (py (entry x (n - 1) m))) else entry x i j) by (intros; reflexivity).
      assert (Y1 : forall j, entry y (n - 1) j = entry x (n - 1) j) by (intros j; rewrite Y; destruct (Nat.eqb_spec (n - 1) n); [lia|reflexivity]).
      split; [rewrite A; reflexivity|]. split; [rewrite B; reflexivity|]. split.
      + intros i j. rewrite C, Y1, !Y, Nat.eqb_refl. cbn [existsb andb]. destruct (Nat.eqb_spec i n) as [->|Ni]; cbn [andb].
        * destruct (Nat.eqb_spec j m) as [->|Nj]; cbn [orb px]; [destruct (existsb (Nat.eqb m) l); reflexivity|reflexivity].
        * reflexivity.
      + rewrite D. cbn [existsb]. rewrite <- orb_assoc. f_equal. f_equal.
        assert (Z : forall k, existsb (fun q => at_pole (next block (py (entry y (n - 1) q)))) k = existsb (fun q => at_pole (next block (py (entry x (n - 1) q)))) k)
          by (induction k as [|q k IHk]; cbn [existsb]; [reflexivity|rewrite IHk, Y1; reflexivity]). apply Z.
  Qed.

  Section Rows.
    Variable c : nat -> nat -> point.
    Variable block : double.
    Variables R K : nat.
    Hypothesis R2 : 2 <= R.
    Definition lat (n m : nat) : double := climb (next block) (py (c 0 m)) n.

    Lemma rows_ok k n x : n + k = R -> 1 <= n -> mrows x = R -> mcols x = K ->
      (forall i j, i < R -> j < K -> entry x i j = if i <? n then Pt (px (c i j)) (lat i j) else c i j) ->
      (forall i, 0 < i -> i < n -> ~ polar K (lat i)) ->
      exists y, spherical_rows cosine mag junk deg_to_rad earth_radius block (range n R) x = Ok y /\ mcols y = K /\ last_row K lat R (mrows y) /\
        forall i j, i < mrows y -> j < K -> entry y i j = Pt (px (c i j)) (lat i j).
    Proof.
      revert n x. induction k as [|k IH]; intros n x Hn H1 Hr Hc He Hp.
      - assert (n = R) by lia. subst n. unfold range. rewrite Nat.sub_diag. cbn [seq spherical_rows]. exists x. split; [reflexivity|]. split; [auto|]. split.
        + rewrite Hr. split; [lia|]. split; [|lia]. intros i A B. apply Hp; lia.
        + rewrite Hr. intros i j A B. rewrite He by auto. destruct (Nat.ltb_spec i R); [reflexivity|lia].
      - unfold range. replace (R - n) with (S k) by lia. cbn [seq spherical_rows]. unfold spherical_row.
        destruct (fold_left _ _ (x, false)) as [y on] eqn:F. pose proof (row_fold block n (range 0 (mcols x)) H1 x false) as G. rewrite F in G. cbn [fst snd] in G. destruct G as (A & B & C & D).
        assert (Ex : forall j, j < K -> existsb (Nat.eqb j) (range 0 (mcols x)) = true) by (intros j Hj; apply existsb_exists; exists j; rewrite in_range, Nat.eqb_refl; split; [lia|reflexivity]).
        assert (Ey : forall i j, i < R -> j < K -> entry y i j = if i <? S n then Pt (px (c i j)) (lat i j) else c i j).
        { intros i j Hi Hj. rewrite C, (Ex j Hj), andb_true_r. destruct (Nat.eqb_spec i n) as [->|Ni].
          - rewrite !He by lia. destruct (Nat.ltb_spec n n); [lia|]. destruct (Nat.ltb_spec (n - 1) n); [|lia]. destruct (Nat.ltb_spec n (S n)); [|lia]. cbn [py].
            destruct n as [|n']; [lia|]. cbn [Nat.sub]. rewrite Nat.sub_0_r. reflexivity.
          - rewrite He by auto. destruct (Nat.ltb_spec i n), (Nat.ltb_spec i (S n)); try lia; reflexivity. }
        assert (Po : on = true <-> polar K (lat n)).
        { rewrite D. cbn [orb]. rewrite existsb_exists. unfold polar. split; intros (m & Hm & Q).
          - apply in_range in Hm. exists m. split; [lia|]. rewrite He in Q by lia. destruct (Nat.ltb_spec (n - 1) n); [|lia]. cbn [py] in Q. destruct n as [|n']; [lia|]. cbn [Nat.sub] in Q. rewrite Nat.sub_0_r in Q. exact Q.
          - exists m. rewrite in_range. split; [lia|]. rewrite He by lia. destruct (Nat.ltb_spec (n - 1) n); [|lia]. cbn [py]. destruct n as [|n']; [lia|]. cbn [Nat.sub]. rewrite Nat.sub_0_r. exact Q. }
        destruct on.
        + assert (P : polar K (lat n)) by (apply Po; reflexivity). rewrite A, Hr. destruct (Nat.ltb_spec (n + 1) R) as [L|L].
          * destruct (erase_rows_spec junk y (Z.of_nat n + 1) (Z.of_nat R - 1)) as [S1 _]. destruct S1 as (z & Ez & Rz & Cz & Vz); [rewrite A, Hr; lia|].
            rewrite A, Hr in Rz. assert (Mz : mrows z = n + 1) by lia. exists z. split; [exact Ez|]. split; [congruence|]. split.
            -- rewrite Mz. split; [lia|]. split; [intros i I1 I2; apply Hp; lia|]. intros _. replace (n + 1 - 1) with n by lia. exact P.
            -- intros i j Hi Hj. rewrite Vz by (try congruence; lia). destruct (Z.ltb_spec (Z.of_nat i) (Z.of_nat n + 1)); [|lia].
               rewrite Ey by lia. destruct (Nat.ltb_spec i (S n)); [reflexivity|lia].
          * exists y. split; [reflexivity|]. split; [congruence|]. split.
            -- rewrite A, Hr. split; [lia|]. split; [|lia]. intros i I1 I2. apply Hp; lia.
            -- rewrite A, Hr. intros i j Hi Hj. rewrite Ey by lia. destruct (Nat.ltb_spec i (S n)); [reflexivity|lia].
        + replace k with (R - S n) by lia. fold (range (S n) R). apply IH; try congruence; try lia; [exact Ey|].
          intros i I1 I2. destruct (Nat.eq_dec i n) as [->|]; [intros P; apply Po in P; discriminate|apply Hp; lia].
    Qed.
  End Rows.

  Lemma cartesian_ok columns rows x0 y0 angle bx by_ : 0 < columns -> 0 < rows ->
    exists g, make_grid cosine sine mag junk deg_to_rad earth_radius Cartesian columns rows x0 y0 angle bx by_ = Ok g /\ proj g = Cartesian /\
      shows g (rows + 1) (columns + 1) (rotated cosine sine angle bx by_ (Pt x0 y0)).
  Proof.
    intros Hc Hr. cbn [make_grid]. destruct (new_grid_ok (cartesian_nodes cosine sine columns rows x0 y0 angle bx by_) Cartesian) as (g & E & P & S); [cbn; lia|cbn; lia|].
    exists g. auto.
  Qed.

  Lemma spherical_ok columns rows x0 y0 angle bx by_ : 0 < columns -> 0 < rows ->
    let node := rotated cosine sine angle bx by_ (Pt x0 y0) in
    let latitude n m := climb (next by_) (py (node 0 m)) n in
    exists g, make_grid cosine sine mag junk deg_to_rad earth_radius Spherical columns rows x0 y0 angle bx by_ = Ok g /\ proj g = Spherical /\
      last_row (columns + 1) latitude (rows + 1) (num_n g) /\
      shows g (num_n g) (columns + 1) (fun n m => Pt (px (node n m)) (latitude n m)).
  Proof.
    intros Hc Hr node latitude. cbn [make_grid]. unfold spherical_nodes. set (x := cartesian_nodes cosine sine columns rows x0 y0 angle bx by_).
    destruct (rows_ok (entry x) by_ (rows + 1) (columns + 1) ltac:(lia) rows 1 x) as (y & E & C & L & V); try lia; try reflexivity.
    { intros i j Hi Hj. destruct (Nat.ltb_spec i 1); [|reflexivity]. assert (i = 0) by lia. subst i. unfold lat. cbn [climb]. destruct (entry x 0 j); reflexivity. }
    change (mrows x) with (rows + 1). rewrite E. cbn [bind]. destruct L as (L1 & L2).
    destruct (new_grid_ok y Spherical) as (g & Eg & P & S); [lia|lia|]. exists g. split; [exact Eg|]. split; [exact P|].
    destruct S as (W & N & N1 & N2 & S). rewrite N1. split; [exact (conj L1 L2)|]. split; [exact W|]. split; [exact N|]. split; [exact N1|]. split; [congruence|].
    intros n m Hn Hm. rewrite S by (try congruence; lia). rewrite V by lia. reflexivity.
  Qed.

  (** *** The checks *)
  Lemma rectangular_cases p columns rows x0 y0 angle bx by_ : p <> SphericalAccurate ->
    rectangular cosine sine mag junk deg_to_rad earth_radius p columns rows x0 y0 angle bx by_ =
    if checked columns rows angle bx by_ then make_grid cosine sine mag junk deg_to_rad earth_radius p (Z.to_nat columns) (Z.to_nat rows) x0 y0 angle bx by_ else Throw RangeErr.
  Proof.
    intros Hp. unfold rectangular, checked, check_greater, check_in_open, check_range. cbn [op_lt int_ops double_ops].
    destruct p; try contradiction;
    (destruct (0 <? columns)%Z; [|reflexivity]; destruct (0 <? rows)%Z; [|reflexivity]; destruct (SFltb (double_of (-90) 0) angle && SFltb angle (double_of 90 0)); [|reflexivity];
     destruct (SFltb (double_of 0 0) bx); [|reflexivity]; destruct (SFltb (double_of 0 0) by_); reflexivity).
  Qed.

  (** *** The number of rows *)
  Lemma count_from fuel block highest start : forall i l, 
    climb (next block) start i = l -> (forall j, j < i -> SFltb (climb (next block) start j) highest = true) ->
    (forall j, 0 < j -> j <= i -> is_equal (mag (climb (next block) start j)) (double_of 90 0) = false) ->
    forall k, count_rows cosine mag deg_to_rad earth_radius fuel block l highest i = Some k -> steps (next block) mag start highest k.
  Proof.
    induction fuel as [|fuel IH]; intros i l E Lo No k H; cbn [count_rows] in H; destruct (SFltb l highest) eqn:Q; try discriminate.
    - injection H as <-. split; [exact Lo|]. split; [intros j Hj; apply No; lia|]. left. rewrite E. exact Q.
    - assert (Lo' : forall j, j < S i -> SFltb (climb (next block) start j) highest = true).
      { intros j Hj. destruct (Nat.eq_dec j i) as [->|]; [rewrite E; exact Q|apply Lo; lia]. }
      assert (E' : climb (next block) start (S i) = next block l) by (cbn [climb]; rewrite E; reflexivity).
      replace (i + 1) with (S i) in H by lia. destruct (is_equal (mag (next block l)) (double_of 90 0)) eqn:B.
      + injection H as <-. split; [exact Lo'|]. split; [intros j Hj; apply No; lia|]. right. rewrite E'. split; [lia|exact B].
      + apply (IH (S i) (next block l)); auto. intros j J1 J2. destruct (Nat.eq_dec j (S i)) as [->|]; [rewrite E'; exact B|apply No; lia].
    - injection H as <-. split; [exact Lo|]. split; [intros j Hj; apply No; lia|]. left. rewrite E. exact Q.
  Qed.
  Lemma count_reaches block highest start k : steps (next block) mag start highest k -> forall fuel i, i <= k -> k - i <= fuel ->
    (i = k -> SFltb (climb (next block) start k) highest = false) ->
    count_rows cosine mag deg_to_rad earth_radius fuel block (climb (next block) start i) highest i = Some k.
  Proof.
    intros (Lo & No & Stop) fuel. induction fuel as [|fuel IH]; intros i Hi Hf He; cbn [count_rows].
    - assert (i = k) by lia. subst i. rewrite He by reflexivity. reflexivity.
    - destruct (Nat.eq_dec i k) as [->|Ne]; [rewrite He by reflexivity; reflexivity|]. rewrite Lo by lia.
      replace (i + 1) with (S i) by lia. change (next block (climb (next block) start i)) with (climb (next block) start (S i)).
      destruct (is_equal (mag (climb (next block) start (S i))) (double_of 90 0)) eqn:B.
      + destruct (Nat.eq_dec (S i) k) as [->|Ne']; [reflexivity|]. rewrite No in B by lia. discriminate.
      + apply IH; [lia|lia|]. intros Ei. destruct Stop as [S|[_ S]]; [exact S|]. rewrite Ei in B. congruence.
  Qed.

  Variable ceiling : double -> Z.
  Notation rows_of := (num_rows cosine mag deg_to_rad earth_radius ceiling).
  Lemma num_rows_ok lowest highest block p k fuel : p <> Cartesian -> SFltb (SFabs (fsub highest lowest)) block = false ->
    (rows_of fuel lowest highest block p = Ok (Z.of_nat k) -> steps (next block) mag lowest highest k) /\
    (steps (next block) mag lowest highest k -> k <= fuel -> rows_of fuel lowest highest block p = Ok (Z.of_nat k)).
  Proof.
    intros Hp H. unfold num_rows. rewrite H. destruct p; try contradiction; split;
    try (intros Q; destruct (count_rows _ _ _ _ _ _ _ _ _) as [k'|] eqn:E; [|discriminate]; injection Q as Q; apply Nat2Z.inj in Q; subst k';
         apply (count_from fuel block highest lowest 0 lowest) in E; auto; lia);
    intros S F; pose proof (count_reaches block highest lowest k S fuel 0) as Q; cbn [climb] in Q; rewrite Q; auto; try lia; intros <-; destruct S as (_ & _ & [S|[S _]]); auto; lia.
  Qed.
  Lemma num_rows_cartesian lowest highest block fuel : 
    rows_of fuel lowest highest block Cartesian = if SFltb (SFabs (fsub highest lowest)) block then Throw AlgorithmErr else Ok (Z.max (ceiling (fdiv (SFabs (fsub highest lowest)) block)) 1).
  Proof. reflexivity. Qed.
  Lemma steps_unique block highest start j k : steps (next block) mag start highest j -> steps (next block) mag start highest k -> j = k.
  Proof.
    intros Sj Sk. pose proof (count_reaches block highest start j Sj (j + k) 0) as A. pose proof (count_reaches block highest start k Sk (j + k) 0) as B.
    assert (forall i, steps (next block) mag start highest i -> 0 = i -> SFltb (climb (next block) start i) highest = false) by (intros i (_ & _ & [S|[S _]]) <-; auto; lia).
    rewrite A in B by (auto; lia). specialize (B ltac:(lia) ltac:(lia)). assert (X : Some j = Some k) by (apply B; auto). congruence.
  Qed.
End Rectangular.

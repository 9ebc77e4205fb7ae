(** Proofs about circular and graded grids. *)
From Verif Require Import Base BaseLemmas FloatModel UtilModel GridModel GridSpec GridMakeModel GridMakeSpec GridMakeProofs GridCircleModel GridCircleSpec.

(** *** The checks *)
Fixpoint all_checks (l : list bool) : outcome unit := match l with [] => Ok tt | c :: t => let! _ := check_range c in all_checks t end.
Lemma all_checks_ok l : all_checks l = if forallb (fun c => c) l then Ok tt else Throw RangeErr.
Proof. induction l as [|c l IH]; [reflexivity|]. cbn [all_checks forallb]. destruct c; [exact IH|reflexivity]. Qed.
Definition checks (p : parameters) : list bool :=
  [(0 <? columns p)%Z; (0 <? rows p)%Z; SFleb (dz (-90)) (angle p) && SFleb (angle p) (dz 90); SFltb (dz 0) (block_x p); SFltb (dz 0) (block_y p);
   SFleb (dz 0) (radius p); SFleb (dz 0) (column_fraction p); SFleb (dz 0) (row_fraction p); SFleb (dz 0) (column_size p); SFleb (dz 0) (row_size p);
   is_finite_d (block_x p); is_finite_d (block_y p); is_finite_d (radius p); is_finite_d (column_size p); is_finite_d (row_size p); is_finite_d (column_fraction p); is_finite_d (row_fraction p)].
Lemma last_check (c : bool) : check_range c = (let! _ := check_range c in Ok tt).
Proof. destruct c; reflexivity. Qed.
Lemma check_all p : check_parameters p = all_checks (checks p).
Proof. unfold check_parameters, check_greater, check_greater_equal, check_in_closed, checks. cbn [op_lt op_le int_ops double_ops all_checks]. now rewrite <- last_check. Qed.
Lemma Forall_none {A} (P : A -> Prop) : Forall P [] <-> True.
Proof. split; auto. Qed.
Lemma acceptable_checks p : acceptable p <-> forallb (fun c => c) (checks p) = true.
Proof.
  unfold acceptable, checks, dz. cbn [forallb]. rewrite !andb_true_iff, !Forall_cons_iff, !Forall_none, <- !Z.ltb_lt.
  assert (T : true = true <-> True) by tauto. rewrite T. clear T. cbv beta.
  repeat match goal with |- context [?b = true] => let x := fresh "P" in set (x := b = true); clearbody x end. tauto.
Qed.
Lemma check_cases p : (acceptable p -> check_parameters p = Ok tt) /\ (~ acceptable p -> check_parameters p = Throw RangeErr).
Proof.
  rewrite acceptable_checks, check_all, all_checks_ok. destruct (forallb (fun c => c) (checks p)); split; intros H; try reflexivity; [contradiction H; reflexivity|discriminate].
Qed.

(** *** Sums *)
Lemma running_length : forall d x, length (running x d) = length d.
Proof. induction d; intros; cbn; auto. Qed.
Lemma running_nth : forall d x m, m < length d -> nth m (running x d) (dz 0) = fadd (if m =? 0 then x else nth (m - 1) (running x d) (dz 0)) (nth m d (dz 0)).
Proof.
  induction d as [|a d IH]; intros x m H; cbn [length] in H; [lia|]. destruct m as [|m]; [reflexivity|]. cbn [running nth Nat.eqb]. rewrite IH by lia. f_equal.
  replace (S m - 1) with m by lia. destruct m as [|m]; [reflexivity|]. cbn [Nat.eqb nth]. now replace (S m - 1) with m by lia.
Qed.
Lemma counted_length s : length (counted s) = Z.to_nat s.
Proof. unfold counted. now rewrite map_length, seq_length. Qed.
Lemma counted_map (f : Z -> double) s m d : m < Z.to_nat s -> nth m (map f (counted s)) d = f (Z.of_nat m).
Proof.
  intros H. unfold counted. rewrite map_map. apply nth_error_nth. rewrite nth_error_map, (nth_error_nth' _ 0) by (rewrite seq_length; exact H). now rewrite seq_nth by exact H.
Qed.

(** *** Zero *)
Lemma round_opp s m e l : binary_round_aux prec64 emax64 (negb s) m e l = SFopp (binary_round_aux prec64 emax64 s m e l).
Proof.
  unfold binary_round_aux. destruct (shr_fexp prec64 emax64 m e l) as [a b]. destruct (shr_fexp prec64 emax64 _ b _) as [c d]. destruct (shr_m c); [reflexivity| |reflexivity]. destruct (Zle_bool d (emax64 - prec64)); reflexivity.
Qed.
Lemma mul_opp x y : fmul (SFopp x) y = SFopp (fmul x y).
Proof.
  unfold fmul. destruct x as [s|s| |s m e], y as [t|t| |t n f]; cbn [SFopp SFmul]; try reflexivity; try (destruct s, t; reflexivity).
  rewrite <- round_opp. f_equal. destruct s, t; reflexivity.
Qed.
Lemma opp_add x : is_finite_d x = true -> SFeqb (fadd (SFopp x) x) (dz 0) = true.
Proof.
  unfold fadd. destruct x as [s|s| |s m e]; cbn [is_finite_d SFopp SFadd]; intros H; try discriminate; [destruct s; reflexivity|].
  assert (Z : forall w, (cond_Zopp (negb s) w + cond_Zopp s w = 0)%Z) by (intros w; destruct s; cbn; lia). rewrite Z. reflexivity.
Qed.

Section Circular.
  Variable pow : double -> double -> double.
  Variables cosine sine : double -> double.
  Variable truncated : double -> Z.
  Variables pi deg_to_rad : double.

  (** *** Columns *)
  Lemma uniform_even size fraction : let t := truncated (fmul (dz size) fraction) in (0 <= t <= size)%Z -> (0 < size)%Z ->
    exists h u, (size - 1 = 2 * h + u)%Z /\ (0 <= h)%Z /\ (0 <= u)%Z /\ (Z.abs (u - t) <= 1)%Z /\ uniform_count truncated size fraction = u /\ cutoff size u = (h + 1)%Z.
  Proof.
    intros t Ht Hs. unfold uniform_count. fold t. clearbody t. exists (Z.quot (size - 1 - t) 2), (t + Z.rem (size - 1 - t) 2)%Z.
    pose proof (Z.quot_rem' (size - 1 - t) 2) as Q. destruct (Z.eq_dec t size) as [->|Ne].
    - replace (size - 1 - size)%Z with (-1)%Z in * by lia. cbn [Z.quot Z.rem Z.quotrem] in *. change (Z.quot (-1) 2) with 0%Z. change (Z.rem (-1) 2) with (-1)%Z.
      repeat split; try lia. unfold cutoff. replace (size - (size + -1))%Z with 1%Z by lia. reflexivity.
    - pose proof (Z.rem_bound_pos (size - 1 - t) 2 ltac:(lia) ltac:(lia)) as B. pose proof (Z.quot_pos (size - 1 - t) 2 ltac:(lia) ltac:(lia)) as P.
      set (q := Z.quot (size - 1 - t) 2) in *. set (r := Z.rem (size - 1 - t) 2) in *. repeat split; try lia.
      unfold cutoff. assert (E : (size - (t + r) = q * 2 + 1)%Z) by lia. rewrite E. rewrite Z.quot_div_nonneg by lia. rewrite Z.div_add_l by lia. change (1 / 2)%Z with 0%Z. lia.
  Qed.
  Lemma delta_element b g h u m : (0 <= h)%Z -> (0 <= u)%Z -> (1 <= m <= 2 * h + u)%Z -> delta_x pow b g u (h + 1) m = element pow b g h u m.
  Proof.
    intros Hh Hu Hm. unfold delta_x, element, dz. destruct (Z.ltb_spec m (h + 1)).
    - rewrite Z.min_l by lia. destruct (Z.leb_spec m h); [reflexivity|lia].
    - destruct (Z.ltb_spec m (h + 1 + u)).
      + destruct (Z.leb_spec (Z.min m (2 * h + u + 1 - m)) h); [lia|reflexivity].
      + rewrite Z.min_r by lia. destruct (Z.leb_spec (2 * h + u + 1 - m) h); [|lia]. do 3 f_equal. lia.
  Qed.
  Lemma columns_length p : length (x_values pow truncated p) = Z.to_nat (columns p + 1).
  Proof. unfold x_values. destruct (uniform _ _); [rewrite map_length|rewrite running_length, map_length]; apply counted_length. Qed.
  Lemma columns_graded p : let t := truncated (fmul (dz (columns p + 1)) (column_fraction p)) in (0 < columns p)%Z -> (0 <= t <= columns p + 1)%Z -> uniform (column_fraction p) (column_size p) = false ->
    exists h u, (columns p = 2 * h + u)%Z /\ (0 <= h)%Z /\ (0 <= u)%Z /\ (Z.abs (u - t) <= 1)%Z /\
      let g := pow (column_size p) (fdiv (double_of 1 0) (double_of (h + 1) 0)) in
      (is_finite_d (fmul (block_x p) (pow g (double_of (h + 1) 0))) = true -> SFeqb (nth 0 (x_values pow truncated p) (double_of 0 0)) (double_of 0 0) = true) /\
      adds_up (x_values pow truncated p) (element pow (block_x p) g h u).
  Proof.
    intros t Hc Ht U. destruct (uniform_even (columns p + 1) (column_fraction p) Ht ltac:(lia)) as (h & u & A & B & C & D & E & F). exists h, u. fold t in D. repeat (split; [lia|]). intros g.
    assert (X : x_values pow truncated p = running (fmul (SFopp (block_x p)) (pow g (dz (h + 1)))) (map (delta_x pow (block_x p) g u (h + 1)) (counted (columns p + 1)))).
    { unfold x_values. rewrite U, E, F. reflexivity. }
    split.
    - intros Fin. rewrite X. change (double_of 0 0) with (dz 0). rewrite running_nth by (rewrite map_length, counted_length; lia). cbn [Nat.eqb]. rewrite counted_map by lia. unfold delta_x. change (Z.of_nat 0) with 0%Z.
      destruct (Z.ltb_spec 0 (h + 1)); [|lia]. rewrite Z.sub_0_r, mul_opp. apply opp_add. exact Fin.
    - intros m Hm. rewrite columns_length in Hm. rewrite X. change (double_of 0 0) with (dz 0). rewrite running_nth by (rewrite map_length, counted_length; lia). destruct (Nat.eqb_spec m 0); [lia|]. f_equal.
      rewrite counted_map by lia. apply delta_element; lia.
  Qed.
  Lemma columns_uniform p m : uniform (column_fraction p) (column_size p) = true -> m < Z.to_nat (columns p + 1) ->
    nth m (x_values pow truncated p) (double_of 0 0) = fmul (block_x p) (double_of (Z.of_nat m) 0).
  Proof. intros U H. unfold x_values. rewrite U. now rewrite counted_map by exact H. Qed.

  (** *** Rows *)
  Lemma rows_length p : length (y_values pow truncated p) = Z.to_nat (rows p + 1).
  Proof. unfold y_values. destruct (uniform _ _); [rewrite map_length|rewrite running_length, map_length]; apply counted_length. Qed.
  Lemma rows_uniform p n : uniform (row_fraction p) (row_size p) = true -> n < Z.to_nat (rows p + 1) ->
    nth n (y_values pow truncated p) (double_of 0 0) = fmul (block_y p) (double_of (Z.of_nat n) 0).
  Proof. intros U H. unfold y_values. rewrite U. now rewrite counted_map by exact H. Qed.
  Lemma rows_graded p : let t := truncated (fmul (dz (rows p + 1)) (row_fraction p)) in (0 < rows p)%Z -> (0 <= t <= rows p + 1)%Z -> uniform (row_fraction p) (row_size p) = false ->
    exists h u, (rows p = 2 * h + u)%Z /\ (0 <= h)%Z /\ (0 <= u)%Z /\ (Z.abs (u - t) <= 1)%Z /\
      let g := pow (row_size p) (fdiv (double_of 1 0) (double_of (h + 1) 0)) in
      let length_of n := if (n <? u)%Z then block_y p else fmul (block_y p) (pow g (double_of (n + 1 - u) 0)) in
      adds_up (y_values pow truncated p) length_of /\
      (u = 0%Z -> is_finite_d (fmul (block_y p) (pow g (double_of 1 0))) = true -> SFeqb (nth 0 (y_values pow truncated p) (double_of 0 0)) (double_of 0 0) = true).
  Proof.
    intros t Hc Ht U. destruct (uniform_even (rows p + 1) (row_fraction p) Ht ltac:(lia)) as (h & u & A & B & C & D & E & F). exists h, u. fold t in D. repeat (split; [lia|]). intros g length_of.
    assert (X : y_values pow truncated p = running (fmul (SFopp (block_y p)) (pow g (dz (1 - u)))) (map length_of (counted (rows p + 1)))).
    { unfold y_values. rewrite U, E, F. reflexivity. }
    split.
    - intros m Hm. rewrite rows_length in Hm. rewrite X. change (double_of 0 0) with (dz 0). rewrite running_nth by (rewrite map_length, counted_length; lia). destruct (Nat.eqb_spec m 0); [lia|]. f_equal. now rewrite counted_map by lia.
    - intros Hu Fin. rewrite X. change (double_of 0 0) with (dz 0). rewrite running_nth by (rewrite map_length, counted_length; lia). cbn [Nat.eqb]. rewrite counted_map by lia. unfold length_of. rewrite Hu. change (Z.of_nat 0) with 0%Z.
      change (0 <? 0)%Z with false. cbn match. rewrite mul_opp. apply opp_add. exact Fin.
  Qed.

  (** *** Radii *)
  Lemma from_first_length b : forall n r, length (from_first r b n) = n.
  Proof. induction n; intros; cbn; auto. Qed.
  Lemma from_first_nth b : forall n r m, S m < n -> nth (S m) (from_first r b n) (dz 0) = fadd (nth m (from_first r b n) (dz 0)) b.
  Proof. induction n as [|n IH]; intros r m H; [lia|]. cbn [from_first nth]. destruct m as [|m]; [destruct n; [lia|reflexivity]|]. rewrite IH by lia. reflexivity. Qed.
  Lemma radii_length p : length (radius_values pow truncated p) = Z.to_nat (rows p + 1).
  Proof. unfold radius_values. destruct (uniform _ _); [apply from_first_length|rewrite running_length, map_length; apply counted_length]. Qed.
  Lemma radii_uniform p : uniform (row_fraction p) (row_size p) = true -> (0 < rows p)%Z ->
    nth 0 (radius_values pow truncated p) (double_of 0 0) = radius p /\ adds_up (radius_values pow truncated p) (fun _ => block_y p).
  Proof.
    intros U H. split; [|intros m Hm; rewrite radii_length in Hm]; unfold radius_values; rewrite U.
    - destruct (Z.to_nat (rows p + 1)) eqn:E; [lia|reflexivity].
    - destruct m as [|m]; [lia|]. replace (S m - 1) with m by lia. apply from_first_nth. lia.
  Qed.

  Lemma wrap_small z : (0 <= z < 2 ^ 32)%Z -> wrap z = z.
  Proof. apply Z.mod_small. Qed.
  Lemma radii_graded p : let t := truncated (fmul (dz (rows p + 1)) (row_fraction p)) in (0 < rows p < 2 ^ 32 - 1)%Z -> (0 <= t <= rows p)%Z -> uniform (row_fraction p) (row_size p) = false ->
    exists h u, (rows p = 2 * h + u)%Z /\ (0 <= h)%Z /\ (t <= u <= t + 1)%Z /\
      let g := pow (row_size p) (fdiv (double_of 1 0) (double_of (h + 1) 0)) in
      let length_of n := if (n <? u)%Z then block_y p else fmul (block_y p) (pow g (double_of (n - u) 0)) in
      nth 0 (radius_values pow truncated p) (double_of 0 0) = fadd (radius p) (length_of 0%Z) /\ adds_up (radius_values pow truncated p) length_of.
  Proof.
    intros t Hr Ht U. set (r := ((rows p - t) mod 2)%Z). set (h := ((rows p - t) / 2)%Z). pose proof (Z.div_mod (rows p - t) 2 ltac:(lia)) as Q. pose proof (Z.mod_pos_bound (rows p - t) 2 ltac:(lia)) as B.
    fold r h in Q. fold r in B. exists h, (t + r)%Z. repeat (split; [lia|]). intros g length_of.
    assert (Eu : wrap (t + wrap (rows p + 1 - 1 - t) mod 2) = (t + r)%Z).
    { rewrite (wrap_small (rows p + 1 - 1 - t)) by lia. replace (rows p + 1 - 1 - t)%Z with (rows p - t)%Z by lia. fold r. apply wrap_small. lia. }
    assert (Ec : wrap (wrap (rows p + 1 - (t + r)) / 2 + 1) = (h + 1)%Z).
    { rewrite (wrap_small (rows p + 1 - (t + r))) by lia. replace (rows p + 1 - (t + r))%Z with (h * 2 + 1)%Z by lia. rewrite Z.div_add_l by lia. change (1 / 2)%Z with 0%Z. rewrite wrap_small by lia. lia. }
    set (f := fun n => if (n <? t + r)%Z then block_y p else fmul (block_y p) (pow g (dz (wrap (n - (t + r)))))).
    assert (X : radius_values pow truncated p = running (radius p) (map f (counted (rows p + 1)))).
    { unfold radius_values. rewrite U. fold t. rewrite Eu, Ec. reflexivity. }
    assert (F : forall n, (0 <= n <= rows p)%Z -> f n = length_of n).
    { intros n Hn. unfold f, length_of. destruct (Z.ltb_spec n (t + r)); [reflexivity|]. rewrite wrap_small by lia. reflexivity. }
    split; [|intros m Hm; rewrite radii_length in Hm]; rewrite X; change (double_of 0 0) with (dz 0); rewrite running_nth by (rewrite map_length, counted_length; lia).
    - cbn [Nat.eqb]. rewrite counted_map by lia. rewrite F by lia. reflexivity.
    - destruct (Nat.eqb_spec m 0); [lia|]. f_equal. rewrite counted_map by lia. apply F. lia.
  Qed.

  (** *** Rays and nodes *)
  Lemma rays p m : m < Z.to_nat (columns p + 1) -> nth m (theta_values pi deg_to_rad p) (double_of 0 0) = ray pi deg_to_rad p m.
  Proof. intros H. unfold theta_values. rewrite counted_map by exact H. unfold ray, angle_step, dz. now replace (columns p + 1 - 1)%Z with (columns p) by lia. Qed.
  Lemma theta_length p : length (theta_values pi deg_to_rad p) = Z.to_nat (columns p + 1).
  Proof. unfold theta_values. rewrite map_length. apply counted_length. Qed.
  Lemma map_at (f : double -> double) l m : m < length l -> nth m (map f l) (dz 0) = f (nth m l (dz 0)).
  Proof. intros H. rewrite (nth_indep _ _ (f (dz 0))) by (rewrite map_length; exact H). apply map_nth. Qed.
  Lemma circular_ok p pr : acceptable p -> exists g, make_circular pow cosine sine truncated pi deg_to_rad p pr = Ok g /\ proj g = pr /\
    shows g (Z.to_nat (rows p) + 1) (Z.to_nat (columns p) + 1)
      (fun n m => if SFeqb (radius p) (double_of 0 0)
                  then turned (cosine (fmul (angle p) deg_to_rad)) (sine (fmul (angle p) deg_to_rad)) (origin p)
                         (nth m (x_values pow truncated p) (double_of 0 0)) (nth n (y_values pow truncated p) (double_of 0 0))
                  else on_circle cosine sine (origin p) (nth n (radius_values pow truncated p) (double_of 0 0)) (ray pi deg_to_rad p m)).
  Proof.
    intros H. unfold make_circular. rewrite (proj1 (check_cases p) H). cbn [bind]. destruct H as (Hc & Hr & _).
    assert (A : Z.to_nat (rows p + 1) = Z.to_nat (rows p) + 1) by lia. assert (B : Z.to_nat (columns p + 1) = Z.to_nat (columns p) + 1) by lia.
    change (dz 0) with (double_of 0 0). destruct (SFeqb (radius p) (double_of 0 0)) eqn:R.
    - destruct (new_grid_ok (graded_nodes pow cosine sine truncated deg_to_rad p) pr) as (g & E & P & S); [cbn; lia|cbn; lia|]. exists g. split; [exact E|]. split; [exact P|].
      cbn [graded_nodes mrows mcols] in S. rewrite A, B in S. exact S.
    - destruct (new_grid_ok (circular_nodes pow cosine sine truncated pi deg_to_rad p) pr) as (g & E & P & S); [cbn; lia|cbn; lia|]. exists g. split; [exact E|]. split; [exact P|].
      cbn [circular_nodes mrows mcols] in S. rewrite A, B in S. destruct S as (S1 & S2 & S3 & S4 & S5). repeat (split; [assumption|]). intros n m Hn Hm. rewrite S5 by assumption.
      unfold circular_nodes, entry, on_circle. rewrite !map_at by (rewrite theta_length; lia). change (dz 0) with (double_of 0 0). rewrite rays by lia. reflexivity.
  Qed.
  Lemma circular_refused p pr : ~ acceptable p -> make_circular pow cosine sine truncated pi deg_to_rad p pr = Throw RangeErr.
  Proof. intros H. unfold make_circular. now rewrite (proj2 (check_cases p) H). Qed.
End Circular.
Lemma element_symmetric pow b g h u m : element pow b g h u m = element pow b g h u (2 * h + u + 1 - m).
Proof. unfold element. replace (Z.min (2 * h + u + 1 - m) (2 * h + u + 1 - (2 * h + u + 1 - m))) with (Z.min m (2 * h + u + 1 - m)) by lia. reflexivity. Qed.

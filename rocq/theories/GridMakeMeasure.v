(** The values of curvature and smoothness; rectangular grids on an extension and in a polygon. *)
From Coq Require Import Reals Lra.
From Verif Require Import Base FloatModel FloatReal PolyModel BoxProofs LandSpec FloatSum GridMakeFloat.
From Verif Require Import UtilModel GridModel GridSpec GridMakeModel GridMakeSpec.

Lemma invalid_case p0 p1 p2 : is_valid p0 && is_valid p1 && is_valid p2 = false -> ~ (is_valid p0 = true /\ is_valid p1 = true /\ is_valid p2 = true).
Proof. intros V (A & B & C). rewrite A, B, C in V. discriminate V. Qed.
Lemma valid_case p0 p1 p2 : is_valid p0 && is_valid p1 && is_valid p2 = true -> is_valid p0 = true /\ is_valid p1 = true /\ is_valid p2 = true.
Proof. intros V. apply andb_true_iff in V as [V C]. apply andb_true_iff in V as [A B]. auto. Qed.
Lemma nonzero_case x : if nonzero x then ~ is_zero x else is_zero x.
Proof. unfold nonzero, is_zero. destruct (SFeqb x (double_of 0 0)); cbn; congruence. Qed.

Lemma node_curvature_ok p0 p1 p2 : curved p0 p1 p2 (node_curvature p0 p1 p2).
Proof.
  unfold curved, node_curvature. destruct (is_valid p0 && is_valid p1 && is_valid p2) eqn:V; cbn zeta.
  2: { apply invalid_case in V. split; [reflexivity|]. intros. exfalso. apply V; auto. }
  apply valid_case in V. split; [intros N; exfalso; apply N; exact V|]. intros _ _ _.
  pose proof (nonzero_case (turn_of (minus_point p1 p0) (minus_point p2 p1))) as T. fold fsqrt in *.
  change (fsub (fmul (fsub (px p1) (px p0)) (fsub (py p2) (py p1))) (fmul (fsub (py p1) (py p0)) (fsub (px p2) (px p1)))) with (turn_of (minus_point p1 p0) (minus_point p2 p1)).
  destruct (nonzero (turn_of (minus_point p1 p0) (minus_point p2 p1))).
  - match goal with |- context [SFeqb ?r (double_of 0 0)] => change r with (radius_of p0 p1 p2) end.
    unfold is_zero in *. destruct (SFeqb (radius_of p0 p1 p2) (double_of 0 0)) eqn:R.
    + split; [reflexivity|]. intros _ N. exfalso. now apply N.
    + split; [|reflexivity]. intros [C|C]; [contradiction|discriminate C].
  - split; [|contradiction]. intros _. reflexivity.
Qed.
Lemma node_smoothness_ok p0 p1 p2 : smooth p0 p1 p2 (node_smoothness p0 p1 p2).
Proof.
  unfold smooth, node_smoothness. destruct (is_valid p0 && is_valid p1 && is_valid p2) eqn:V; cbn zeta.
  2: { apply invalid_case in V. split; [reflexivity|]. intros. exfalso. apply V; auto. }
  apply valid_case in V. split; [intros N; exfalso; apply N; exact V|]. intros _ _ _.
  fold (squared p0 p1) (squared p1 p2). pose proof (nonzero_case (squared p0 p1)) as A. pose proof (nonzero_case (squared p1 p2)) as B.
  destruct (nonzero (squared p0 p1)), (nonzero (squared p1 p2)); cbn [andb]; (split; [|intros NA NB; try contradiction]).
  - intros [C|C]; contradiction.
  - fold fsqrt. destruct (SFltb _ _); split; congruence.
  - reflexivity.
  - reflexivity.
  - reflexivity.
Qed.

Lemma add_double a b : is_double a -> is_double b -> is_double (fadd a b).
Proof. intros A B. rewrite (fadd_plus a b A B). apply is_double_B2SF. Qed.
Lemma sub_double a b : is_double a -> is_double b -> is_double (fsub a b).
Proof. intros A B. rewrite fsub_plus. apply add_double; [exact A|now apply opp_double]. Qed.
Lemma mul_double a b : is_double a -> is_double b -> is_double (fmul a b).
Proof. intros A B. rewrite (fmul_mult a b A B). apply is_double_B2SF. Qed.
Lemma div_double a b : is_double a -> is_double b -> is_double (fdiv a b).
Proof. intros A B. rewrite (fdiv_div a b A B). apply is_double_B2SF. Qed.
Lemma sqrt_double a : is_double a -> is_double (fsqrt a).
Proof. intros A. unfold fsqrt. rewrite (fsqrt_sqrt a A). apply is_double_B2SF. Qed.
Lemma abs_double a : is_double a -> is_double (SFabs a).
Proof. destruct a; auto. Qed.

(** A curvature is not negative, unless it is not a number. *)
Lemma curvature_good p0 p1 p2 : (forall p, In p [p0; p1; p2] -> is_double (px p) /\ is_double (py p)) -> is_valid p0 = true -> is_valid p1 = true -> is_valid p2 = true ->
  node_curvature p0 p1 p2 = S754_nan \/ good (node_curvature p0 p1 p2).
Proof.
  intros D V0 V1 V2. unfold node_curvature. rewrite V0, V1, V2. cbn [andb]. cbn zeta.
  destruct (D p0 ltac:(cbn; auto)) as (X0 & Y0), (D p1 ltac:(cbn; auto)) as (X1 & Y1), (D p2 ltac:(cbn; auto)) as (X2 & Y2).
  match goal with |- context [fdiv (double_of 1 0) ?r] => assert (R : is_double r); [|set (q := r) in *; clearbody q; rename q into rad] end.
  { match goal with |- is_double (if SFeqb ?q _ then _ else _) => assert (Q : is_double q) end.
    { destruct (nonzero _); [|reflexivity]. repeat (first [apply mul_double|apply abs_double|apply div_double|apply sub_double|apply add_double|apply sqrt_double]); assumption. }
    destruct (SFeqb _ _); [reflexivity|exact Q]. }
  assert (Q : is_double (fdiv (double_of 1 0) rad)) by (apply div_double; [reflexivity|exact R]).
  destruct (fdiv (double_of 1 0) rad) as [s|s| |s m e] eqn:E; [| |now left|]; (apply fmul_good; [apply thousand_good|apply abs_good; [exact Q|discriminate]]).
Qed.

Definition finite_point (p : point) : Prop := finite (px p) /\ finite (py p).
Lemma squared_good p q : finite_point p -> finite_point q -> good (squared p q).
Proof. intros (A & B) (C & D). apply squares_good; assumption. Qed.
Lemma positive_case x : good x -> finite x -> ~ is_zero x -> exists m e, x = S754_finite false m e.
Proof.
  intros G (D & F) N. destruct x as [s| | |s m e]; try contradiction.
  destruct (good_cases _ G) as [(_ & P)|C]; [|discriminate C]. pose proof (positive_sign _ D P) as S. cbn in S. subst s. eauto.
Qed.
(** A smoothness is not below one. *)
Lemma smoothness_least p0 p1 p2 : finite_point p0 -> finite_point p1 -> finite_point p2 -> is_valid p0 = true -> is_valid p1 = true -> is_valid p2 = true ->
  finite (squared p0 p1) -> finite (squared p1 p2) -> is_double (node_smoothness p0 p1 p2) /\ xle (double_of 1 0) (node_smoothness p0 p1 p2).
Proof.
  intros F0 F1 F2 V0 V1 V2 A B. destruct (node_smoothness_ok p0 p1 p2) as (_ & H). destruct (H V0 V1 V2) as (Z & N). cbn zeta in N. fold fsqrt in N.
  assert (K : plus (node_smoothness p0 p1 p2) /\ SFltb (node_smoothness p0 p1 p2) (double_of 1 0) = false).
  { pose proof (nonzero_case (squared p0 p1)) as NA. pose proof (nonzero_case (squared p1 p2)) as NB.
    destruct (nonzero (squared p0 p1)); [|rewrite Z by auto; split; [apply one_plus|reflexivity]].
    destruct (nonzero (squared p1 p2)); [|rewrite Z by auto; split; [apply one_plus|reflexivity]].
    destruct (N NA NB) as (N1 & N2).
    assert (P : plus (fsqrt (fdiv (squared p1 p2) (squared p0 p1)))).
    { apply fsqrt_plus. apply fdiv_plus; [apply B|apply A|apply positive_case; auto; now apply squared_good|].
      destruct (positive_case (squared p0 p1)) as (m & e & E); auto; [now apply squared_good|]. split; [apply A|]. rewrite E. reflexivity. }
    destruct (SFltb (fsqrt (fdiv (squared p1 p2) (squared p0 p1))) (double_of 1 0)) eqn:L.
    - rewrite N1 by reflexivity. now apply inverse_above.
    - rewrite N2 by reflexivity. now split. }
  destruct K as (P & L). split; [apply P|]. pose proof (leb_spec (double_of 1 0) (node_smoothness p0 p1 p2) eq_refl (proj1 P)) as Q. apply Q.
  pose proof (plus_good _ P) as G. destruct P as (D & P). destruct (node_smoothness p0 p1 p2) as [s|s| |s m e]; try contradiction; subst s; [discriminate L|reflexivity|].
  apply finite_le; [apply one_finite|split; [exact D|exact I]|]. apply Rnot_lt_le. intros C. apply finite_lt in C; [congruence|split; [exact D|exact I]|apply one_finite].
Qed.
(** It is one for edges of the same length. *)
Lemma smoothness_equal p0 p1 p2 : finite_point p0 -> finite_point p1 -> finite_point p2 -> is_valid p0 = true -> is_valid p1 = true -> is_valid p2 = true ->
  finite (squared p0 p1) -> squared p1 p2 = squared p0 p1 -> node_smoothness p0 p1 p2 = double_of 1 0.
Proof.
  intros F0 F1 F2 V0 V1 V2 A E. destruct (node_smoothness_ok p0 p1 p2) as (_ & H). destruct (H V0 V1 V2) as (Z & N). cbn zeta in N. rewrite E in Z, N.
  pose proof (nonzero_case (squared p0 p1)) as NA. destruct (nonzero (squared p0 p1)); [|auto].
  rewrite fdiv_self in N; [|apply A|apply positive_case; auto; now apply squared_good]. destruct (N NA NA) as (_ & N2). now apply N2.
Qed.

From Verif Require Import GridProofs GridPolygon GridMakeProofs.
Lemma everywhere value (spec : point -> point -> point -> double -> Prop) dir g : (forall p0 p1 p2, spec p0 p1 p2 (value p0 p1 p2)) -> gwf g -> exists x, measure value dir g = Ok x /\
  mrows x = num_n g /\ mcols x = num_m g /\
  forall n m, n < num_n g -> m < num_m g ->
    (has_both dir g n m -> spec (node_before dir g n m) (vis g n m) (node_after dir g n m) (entry x n m)) /\
    (~ has_both dir g n m -> entry x n m = missing_double).
Proof.
  intros S W. destruct (measure_ok value dir g W) as (x & E & R & C & V). exists x. split; [exact E|]. split; [exact R|]. split; [exact C|].
  intros n m Hn Hm. destruct (V n m Hn Hm) as (A & B). split; [intros H; rewrite A by exact H; apply S|exact B].
Qed.
Definition curvature_everywhere dir g := everywhere node_curvature curved dir g node_curvature_ok.
Definition smoothness_everywhere dir g := everywhere node_smoothness smooth dir g node_smoothness_ok.

(** *** Rectangular grids *)
Section Rectangular.
  Variables cosine sine mag : double -> double.
  Variable junk : nat -> nat -> point.
  Variables deg_to_rad earth_radius : double.
  Variable ceiling : double -> Z.
  Notation next := (next_latitude cosine mag deg_to_rad earth_radius).
  Notation make := (make_grid cosine sine mag junk deg_to_rad earth_radius).
  Notation extension := (on_extension cosine sine mag junk deg_to_rad earth_radius ceiling).

  Lemma next_ok block latitude : one_north cosine mag deg_to_rad earth_radius block latitude (next block latitude).
  Proof.
    unfold one_north, next_latitude. cbn zeta. destruct (SFltb (double_of 88 0) _), (SFltb _ (double_of 2000 0)); cbn [andb].
    2-4: split; [reflexivity|split; intros (A & B); discriminate].
    split; [intros N; exfalso; apply N; auto|]. split; intros _ L; rewrite L; reflexivity.
  Qed.

  Lemma rectangular_cartesian columns rows x0 y0 angle bx by_ :
    (checked columns rows angle bx by_ = false -> rectangular cosine sine mag junk deg_to_rad earth_radius Cartesian columns rows x0 y0 angle bx by_ = Throw RangeErr) /\
    (checked columns rows angle bx by_ = true -> exists g,
      rectangular cosine sine mag junk deg_to_rad earth_radius Cartesian columns rows x0 y0 angle bx by_ = Ok g /\ proj g = Cartesian /\
      shows g (Z.to_nat rows + 1) (Z.to_nat columns + 1) (rotated cosine sine angle bx by_ (Pt x0 y0))).
  Proof.
    rewrite rectangular_cases by discriminate. split; intros E; rewrite E; [reflexivity|]. unfold checked in E. rewrite !andb_true_iff in E. destruct E as ((((A & B) & _) & _) & _).
    apply Z.ltb_lt in A, B. apply cartesian_ok; lia.
  Qed.
  Lemma accurate_refused columns rows x0 y0 angle bx by_ : rectangular cosine sine mag junk deg_to_rad earth_radius SphericalAccurate columns rows x0 y0 angle bx by_ = Throw NotImplementedErr.
  Proof. reflexivity. Qed.
  Lemma rectangular_spherical columns rows x0 y0 angle bx by_ :
    let node := rotated cosine sine angle bx by_ (Pt x0 y0) in
    let latitude n m := climb (next by_) (py (node 0 m)) n in
    (checked columns rows angle bx by_ = false -> rectangular cosine sine mag junk deg_to_rad earth_radius Spherical columns rows x0 y0 angle bx by_ = Throw RangeErr) /\
    (checked columns rows angle bx by_ = true -> exists g,
      rectangular cosine sine mag junk deg_to_rad earth_radius Spherical columns rows x0 y0 angle bx by_ = Ok g /\ proj g = Spherical /\
      last_row (Z.to_nat columns + 1) latitude (Z.to_nat rows + 1) (num_n g) /\
      shows g (num_n g) (Z.to_nat columns + 1) (fun n m => Pt (px (node n m)) (latitude n m))).
  Proof.
    rewrite rectangular_cases by discriminate. split; intros E; rewrite E; [reflexivity|]. unfold checked in E. rewrite !andb_true_iff in E. destruct E as ((((A & B) & _) & _) & _).
    apply Z.ltb_lt in A, B. apply spherical_ok; lia.
  Qed.

  Lemma extension_cases fuel p x0 y0 bx by_ x1 y1 : p <> SphericalAccurate ->
    extension fuel p x0 y0 bx by_ x1 y1 =
    if accepted_blocks bx by_ then
      if (ceiling (fdiv (fsub x1 x0) bx) <=? 0)%Z then Throw AlgorithmErr
      else let! rows := num_rows cosine mag deg_to_rad earth_radius ceiling fuel y0 y1 by_ p in
           make p (Z.to_nat (ceiling (fdiv (fsub x1 x0) bx))) (Z.to_nat rows) x0 y0 (double_of 0 0) bx by_
    else Throw RangeErr.
  Proof.
    intros Hp. unfold on_extension, accepted_blocks, check_greater, check_range. cbn [op_lt double_ops].
    destruct p; try contradiction; (destruct (SFltb (double_of 0 0) bx); [|reflexivity]; destruct (SFltb (double_of 0 0) by_); reflexivity).
  Qed.
  Lemma extension_refused fuel p x0 y0 bx by_ x1 y1 : p <> SphericalAccurate ->
    (accepted_blocks bx by_ = false -> extension fuel p x0 y0 bx by_ x1 y1 = Throw RangeErr) /\
    (accepted_blocks bx by_ = true ->
      (ceiling (fdiv (fsub x1 x0) bx) <= 0)%Z \/ SFltb (SFabs (fsub y1 y0)) by_ = true -> extension fuel p x0 y0 bx by_ x1 y1 = Throw AlgorithmErr).
  Proof.
    intros Hp. rewrite extension_cases by exact Hp. split; intros E; rewrite E; [reflexivity|].
    intros H. destruct (Z.leb_spec (ceiling (fdiv (fsub x1 x0) bx)) 0); [reflexivity|]. destruct H as [H|H]; [lia|]. unfold num_rows. rewrite H. reflexivity.
  Qed.
  Lemma extension_cartesian fuel x0 y0 bx by_ x1 y1 : accepted_blocks bx by_ = true -> (0 < ceiling (fdiv (fsub x1 x0) bx))%Z -> SFltb (SFabs (fsub y1 y0)) by_ = false ->
    exists g, extension fuel Cartesian x0 y0 bx by_ x1 y1 = Ok g /\ proj g = Cartesian /\
      shows g (Z.to_nat (Z.max (ceiling (fdiv (SFabs (fsub y1 y0)) by_)) 1) + 1) (Z.to_nat (ceiling (fdiv (fsub x1 x0) bx)) + 1) (rotated cosine sine (double_of 0 0) bx by_ (Pt x0 y0)).
  Proof.
    intros A C H. rewrite extension_cases, A by discriminate. destruct (Z.leb_spec (ceiling (fdiv (fsub x1 x0) bx)) 0); [lia|].
    rewrite num_rows_cartesian, H. cbn [bind]. apply cartesian_ok; lia.
  Qed.
  (** As many rows as are counted: the highest latitude is reached, or a pole. *)
  Lemma extension_spherical fuel x0 y0 bx by_ x1 y1 k : accepted_blocks bx by_ = true -> (0 < ceiling (fdiv (fsub x1 x0) bx))%Z -> SFltb (SFabs (fsub y1 y0)) by_ = false ->
    steps (next by_) SFabs y0 y1 k -> mag = SFabs -> 0 < k <= fuel ->
    let node := rotated cosine sine (double_of 0 0) bx by_ (Pt x0 y0) in
    let columns := Z.to_nat (ceiling (fdiv (fsub x1 x0) bx)) + 1 in
    (forall m, m < columns -> py (node 0 m) = y0) ->
    exists g, extension fuel Spherical x0 y0 bx by_ x1 y1 = Ok g /\ proj g = Spherical /\
      shows g (k + 1) columns (fun n m => Pt (px (node n m)) (climb (next by_) y0 n)).
  Proof.
    intros A C H S Em F node columns Y. rewrite extension_cases, A by discriminate. destruct (Z.leb_spec (ceiling (fdiv (fsub x1 x0) bx)) 0); [lia|].
    destruct (num_rows_ok cosine mag deg_to_rad earth_radius ceiling y0 y1 by_ Spherical k fuel ltac:(discriminate) H) as (_ & N). rewrite N; [|rewrite Em in *; exact S|lia].
    cbn [bind]. rewrite Nat2Z.id.
    destruct (spherical_ok cosine sine mag junk deg_to_rad earth_radius (Z.to_nat (ceiling (fdiv (fsub x1 x0) bx))) k x0 y0 (double_of 0 0) bx by_ ltac:(lia) ltac:(lia)) as (g & E & P & (L1 & L2 & L3) & W & Hd & Rn & Cn & V).
    fold node columns in L2, L3, Cn, V. exists g. split; [exact E|]. split; [exact P|].
    assert (K : num_n g = k + 1).
    { destruct (Nat.eq_dec (num_n g) (k + 1)) as [|Ne]; [assumption|]. exfalso. destruct L3 as (m & Hm & Q); [lia|]. rewrite Y in Q by exact Hm.
      destruct S as (_ & No & _). rewrite No in Q by lia. discriminate Q. }
    rewrite K in *. split; [exact W|]. split; [exact Hd|]. split; [exact K|]. split; [exact Cn|]. intros n m Hn Hm. rewrite V by lia. rewrite Y by exact Hm. reflexivity.
  Qed.
  (** The grid in a polygon: nodes that are not corners of a cell inside it are gone. *)
  Lemma polygon_ok p inside ins columns rows x0 y0 angle bx by_ : p <> SphericalAccurate -> 0 < columns -> 0 < rows -> (forall q, inside q = Ok (ins q)) ->
    exists g h, make p columns rows x0 y0 angle bx by_ = Ok g /\ in_polygon cosine sine mag junk deg_to_rad earth_radius inside p columns rows x0 y0 angle bx by_ = Ok h /\
      num_n h = num_n g /\ num_m h = num_m g /\
      forall i j, shown g i j -> (in_inside_cell g ins i j -> vis h i j = vis g i j) /\ (~ in_inside_cell g ins i j -> vis h i j = missing_point).
  Proof.
    intros Hp Hc Hr Hi.
    assert (G : exists g, make p columns rows x0 y0 angle bx by_ = Ok g /\ gwf g).
    { destruct p; try contradiction.
      - destruct (cartesian_ok cosine sine mag junk deg_to_rad earth_radius columns rows x0 y0 angle bx by_ Hc Hr) as (g & E & _ & W & _). eauto.
      - destruct (spherical_ok cosine sine mag junk deg_to_rad earth_radius columns rows x0 y0 angle bx by_ Hc Hr) as (g & E & _ & _ & W & _). eauto. }
    destruct G as (g & E & W). destruct (delete_outside_ok g W inside ins ltac:(intros; apply Hi)) as (h & Eh & A & B & V).
    exists g, h. unfold in_polygon. rewrite E. cbn [bind]. auto.
  Qed.
End Rectangular.

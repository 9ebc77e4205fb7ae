(** Proofs about containment in a polygon. *)
From Coq Require Import Reals Lra Psatz Classical Permutation.
From Verif Require Import Base BaseLemmas FloatModel GeomModel GeomSpec.
Open Scope R_scope.

(** *** Any arithmetic *)
Section Any.
  Variable A : arith.
  Notation vec := (vec A).

  Definition zsum (l : list Z) : Z := fold_right Z.add 0%Z l.
  Lemma zsum_app : forall l m, zsum (l ++ m) = (zsum l + zsum m)%Z.
  Proof. unfold zsum. induction l; intro m; cbn [app fold_right]; [reflexivity|]. rewrite IHl. lia. Qed.
  Lemma zsum_perm : forall l m, Permutation l m -> zsum l = zsum m.
  Proof. unfold zsum. induction 1; cbn [fold_right]; lia. Qed.

  Definition on_pair (p : vec) (e : vec * vec) : bool := on_side A (fst e) (snd e) p.
  Definition cr_pair (p : vec) (e : vec * vec) : Z := crossing A (fst e) (snd e) p.

  Lemma contains_loop_eq : forall l p w,
    contains_loop A l p w = existsb (on_pair p) l || negb (w + zsum (map (cr_pair p) l) =? 0)%Z.
  Proof.
    induction l as [|[a b] t IH]; intros p w; cbn [contains_loop existsb map zsum fold_right].
    - rewrite Z.add_0_r. reflexivity.
    - unfold on_pair at 1. cbn [fst snd]. destruct (on_side A a b p); [reflexivity|].
      rewrite IH. cbn [orb]. unfold cr_pair at 2. cbn [fst snd]. rewrite Z.add_assoc. reflexivity.
  Qed.
  Lemma contains_eq : forall nodes p,
    contains_cartesian A nodes p = existsb (on_pair p) (sides A nodes) || negb (zsum (map (cr_pair p) (sides A nodes)) =? 0)%Z.
  Proof. intros. unfold contains_cartesian. rewrite contains_loop_eq. reflexivity. Qed.

  Lemma existsb_perm : forall X (f : X -> bool) l m, Permutation l m -> existsb f l = existsb f m.
  Proof.
    intros X f l m H. induction H; cbn; auto; try congruence.
    destruct (f x), (f y); reflexivity.
  Qed.
  Lemma contains_perm : forall n m p, Permutation (sides A n) (sides A m) -> contains_cartesian A n p = contains_cartesian A m p.
  Proof.
    intros n m p H. rewrite !contains_eq. rewrite (existsb_perm _ _ _ _ H).
    rewrite (zsum_perm _ _ (Permutation_map (cr_pair p) H)). reflexivity.
  Qed.

  Lemma sides_cons : forall a b t, sides A (a :: b :: t) = (a, b) :: sides A (b :: t).
  Proof. reflexivity. Qed.
  Lemma sides_app : forall l x m, sides A (l ++ x :: m) = sides A (l ++ [x]) ++ sides A (x :: m).
  Proof.
    induction l as [|a l IH]; intros x m; [reflexivity|].
    destruct l as [|b l]; [reflexivity|].
    change ((a :: b :: l) ++ x :: m) with (a :: b :: (l ++ x :: m)).
    change ((a :: b :: l) ++ [x]) with (a :: b :: (l ++ [x])).
    rewrite !sides_cons. change (b :: l ++ x :: m) with ((b :: l) ++ x :: m). rewrite IH. reflexivity.
  Qed.

  Definition aclosed (vs : list vec) : list vec := vs ++ firstn 1 vs.

  Lemma sides_rotate : forall u v, Permutation (sides A (aclosed (u ++ v))) (sides A (aclosed (v ++ u))).
  Proof.
    intros u v. destruct u as [|a u]; [rewrite app_nil_r; apply Permutation_refl|].
    destruct v as [|b v]; [rewrite app_nil_r; apply Permutation_refl|].
    unfold aclosed. cbn [firstn app].
    change (a :: (u ++ b :: v) ++ [a]) with ((a :: u ++ b :: v) ++ [a]).
    replace ((a :: u ++ b :: v) ++ [a]) with ((a :: u) ++ b :: (v ++ [a])) by (cbn; rewrite <- app_assoc; reflexivity).
    replace (b :: (v ++ a :: u) ++ [b]) with ((b :: v) ++ a :: (u ++ [b])) by (cbn; rewrite <- app_assoc; reflexivity).
    rewrite (sides_app (a :: u)), (sides_app (b :: v)).
    change (b :: v ++ [a]) with ((b :: v) ++ [a]). change (a :: u ++ [b]) with ((a :: u) ++ [b]).
    apply Permutation_app_comm.
  Qed.

  Lemma contains_rotate : forall u v p, contains_cartesian A (aclosed (u ++ v)) p = contains_cartesian A (aclosed (v ++ u)) p.
  Proof. intros. apply contains_perm, sides_rotate. Qed.

  Lemma sides_rev : forall l, sides A (rev l) = rev (map (fun e => (snd e, fst e)) (sides A l)).
  Proof.
    induction l as [|a l IH]; [reflexivity|].
    destruct l as [|b l]; [reflexivity|].
    rewrite sides_cons. cbn [map rev fst snd]. rewrite <- IH.
    change (rev (a :: b :: l)) with (rev (b :: l) ++ [a]). cbn [rev]. rewrite <- app_assoc. cbn [app].
    rewrite sides_app. reflexivity.
  Qed.

  Lemma in_sides : forall nodes a b, In (a, b) (sides A nodes) <-> exists l1 l2, nodes = l1 ++ a :: b :: l2.
  Proof.
    intros nodes a b. split.
    - induction nodes as [|x nodes IH]; [intros []|].
      destruct nodes as [|y t]; [intros []|].
      rewrite sides_cons. intros [H|H].
      + injection H as -> ->. exists [], t. reflexivity.
      + destruct (IH H) as [l1 [l2 E]]. exists (x :: l1), l2. rewrite E. reflexivity.
    - intros [l1 [l2 ->]]. rewrite sides_app. apply in_or_app. right. rewrite sides_cons. left. reflexivity.
  Qed.
End Any.

(** *** Exact arithmetic *)
Notation RA := real_arith.

Ltac rdec := repeat match goal with
  | |- context [Rlt_dec ?x ?y] => destruct (Rlt_dec x y)
  | |- context [Rle_dec ?x ?y] => destruct (Rle_dec x y)
  | |- context [Req_EM_T ?x ?y] => destruct (Req_EM_T x y)
  end.

Lemma cross_left : forall a b p : pt, cross RA a b p = left_of a b p.
Proof. intros. unfold cross, left_of. cbn. lra. Qed.

Lemma side_in : forall nodes a b, side nodes a b <-> In (a, b) (sides RA nodes).
Proof. intros. symmetry. apply (in_sides RA). Qed.

Lemma rmul_zero_r : forall x y, x <> 0 -> x * y = 0 -> y = 0.
Proof. intros x y H E. apply Rmult_integral in E. tauto. Qed.

Lemma ratio_spec : forall n d : R, ratio RA n d = if Req_EM_T d 0 then 0 else n / d.
Proof.
  intros n d. unfold ratio. cbn. destruct (Req_EM_T d 0) as [->|E].
  - rewrite Rabs_R0. destruct (Rlt_dec 0 0); [lra|reflexivity].
  - destruct (Rlt_dec 0 (Rabs d)); [reflexivity|]. exfalso. apply n0. apply Rabs_pos_lt. exact E.
Qed.

Lemma on_side_iff : forall a b p : pt, on_side RA a b p = true <-> on_segment a b p \/ a = b.
Proof.
  intros [ax ay] [bx by_] [px py].
  unfold on_side. rewrite !ratio_spec. rewrite cross_left. unfold left_of, on_segment. cbn.
  set (dx := bx - ax). set (dy := by_ - ay).
  split.
  - intro H. apply andb_prop in H as [H0 H]. apply andb_prop in H as [H H4]. apply andb_prop in H as [H H3].
    apply andb_prop in H as [H1 H2].
    destruct (Req_EM_T _ 0) as [E|]; [|discriminate].
    assert (C : dx * (py - ay) = dy * (px - ax)) by (unfold dx, dy; lra). clear E H0.
    destruct (Req_EM_T dx 0) as [Ex|Ex], (Req_EM_T dy 0) as [Ey|Ey].
    + right. unfold dx, dy in *. f_equal; lra.
    + left. exists ((py - ay) / dy).
      destruct (Rle_dec 0 ((py - ay) / dy)); [|discriminate]. destruct (Rle_dec ((py - ay) / dy) 1); [|discriminate].
      split; [lra|]. split.
      * assert (px - ax = 0) by (apply (rmul_zero_r dy); [assumption|]; rewrite <- C, Ex; lra). rewrite Ex. lra.
      * field_simplify; [lra|assumption].
    + left. exists ((px - ax) / dx).
      destruct (Rle_dec 0 ((px - ax) / dx)); [|discriminate]. destruct (Rle_dec ((px - ax) / dx) 1); [|discriminate].
      split; [lra|]. split.
      * field_simplify; [lra|assumption].
      * assert (py - ay = 0) by (apply (rmul_zero_r dx); [assumption|]; rewrite C, Ey; lra). rewrite Ey. lra.
    + left. exists ((px - ax) / dx).
      destruct (Rle_dec 0 ((px - ax) / dx)); [|discriminate]. destruct (Rle_dec ((px - ax) / dx) 1); [|discriminate].
      split; [lra|]. split.
      * field_simplify; [lra|assumption].
      * assert ((px - ax) / dx * dy = py - ay). { field_simplify_eq; [lra|assumption]. } lra.
  - intros [[t [[T0 T1] [Ex Ey]]]|E].
    + assert (E1 : px - ax = t * dx) by lra. assert (E2 : py - ay = t * dy) by lra.
      destruct (Req_EM_T _ 0) as [_|N].
      2:{ exfalso. apply N. rewrite Ex, Ey. unfold dx, dy. ring. }
      rewrite E1, E2.
      assert (L : forall d, 0 <= (if Req_EM_T d 0 then 0 else t * d / d) <= 1).
      { intro d. destruct (Req_EM_T d 0); [lra|]. replace (t * d / d) with t by (field; assumption). lra. }
      pose proof (L dx) as Lx. pose proof (L dy) as Ly.
      destruct (Rle_dec 0 (if Req_EM_T dx 0 then 0 else t * dx / dx)); [|lra].
      destruct (Rle_dec (if Req_EM_T dx 0 then 0 else t * dx / dx) 1); [|lra].
      destruct (Rle_dec 0 (if Req_EM_T dy 0 then 0 else t * dy / dy)); [|lra].
      destruct (Rle_dec (if Req_EM_T dy 0 then 0 else t * dy / dy) 1); [|lra].
      reflexivity.
    + injection E as <- <-. unfold dx, dy.
      replace (ax - ax) with 0 by lra. replace (ay - ay) with 0 by lra.
      destruct (Req_EM_T _ 0) as [_|N]; [|exfalso; apply N; ring].
      destruct (Req_EM_T 0 0); [|lra]. destruct (Rle_dec 0 0); [|lra]. destruct (Rle_dec 0 1); [|lra]. reflexivity.
Qed.

Lemma on_segment_sym : forall a b p : pt, on_segment a b p -> on_segment b a p.
Proof. intros a b p [t [H [E1 E2]]]. exists (1 - t). split; [lra|]. split; [rewrite E1|rewrite E2]; ring. Qed.

Lemma on_side_sym : forall a b p : pt, on_side RA b a p = on_side RA a b p.
Proof.
  intros a b p. apply Bool.eq_iff_eq_true. rewrite !on_side_iff. split; intros [H|H];
    try (left; apply on_segment_sym; exact H); right; congruence.
Qed.

Lemma crossing_sym : forall a b p : pt, crossing RA b a p = (- crossing RA a b p)%Z.
Proof.
  intros a b p. unfold crossing. rewrite !cross_left.
  assert (E : left_of b a p = - left_of a b p) by (unfold left_of; ring). rewrite E. cbn.
  rdec; cbn; try lra; reflexivity.
Qed.

Lemma contains_reverse : forall (nodes : list pt) (p : pt), contains_cartesian RA (rev nodes) p = contains_cartesian RA nodes p.
Proof.
  intros nodes p. rewrite !contains_eq. rewrite sides_rev.
  set (l := sides RA nodes).
  set (sw := fun e : vec RA * vec RA => (snd e, fst e)).
  rewrite (existsb_perm _ _ _ _ (Permutation_sym (Permutation_rev (map sw l)))).
  rewrite (zsum_perm _ _ (Permutation_map (cr_pair RA p) (Permutation_sym (Permutation_rev (map sw l))))).
  assert (E1 : existsb (on_pair RA p) (map sw l) = existsb (on_pair RA p) l).
  { clear. induction l as [|[a b] t IH]; [reflexivity|]. cbn [map existsb]. rewrite IH. f_equal.
    apply on_side_sym. }
  assert (E2 : zsum (map (cr_pair RA p) (map sw l)) = (- zsum (map (cr_pair RA p) l))%Z).
  { clear. induction l as [|[a b] t IH]; [reflexivity|]. cbn [map]. unfold zsum in *. cbn [fold_right]. rewrite IH.
    assert (K : cr_pair RA p (sw (a, b)) = (- cr_pair RA p (a, b))%Z) by apply crossing_sym. lia. }
  rewrite E1, E2. f_equal. f_equal.
  destruct (Z.eqb_spec (zsum (map (cr_pair RA p) l)) 0), (Z.eqb_spec (- zsum (map (cr_pair RA p) l)) 0); try reflexivity; lia.
Qed.

(** *** The bounding box *)
Lemma fold_min_spec : forall (g : pt -> R) l m,
  (forall v, In v l -> fold_left (fun x v => nmin RA x (g v)) l m <= g v) /\ fold_left (fun x v => nmin RA x (g v)) l m <= m /\
  (fold_left (fun x v => nmin RA x (g v)) l m = m \/ exists v, In v l /\ fold_left (fun x v => nmin RA x (g v)) l m = g v).
Proof.
  intros g. induction l as [|a l IH]; intro m; cbn [fold_left].
  - split; [intros _ []|]. split; [lra|]. left. reflexivity.
  - destruct (IH (nmin RA m (g a))) as [H1 [H2 H3]].
    assert (N : nmin RA m (g a) <= m /\ nmin RA m (g a) <= g a /\ (nmin RA m (g a) = m \/ nmin RA m (g a) = g a)).
    { unfold nmin. cbn. destruct (Rlt_dec (g a) m); lra. }
    split; [|split].
    + intros v [<-|Hv]; [lra|apply H1; exact Hv].
    + lra.
    + destruct H3 as [H3|[v [Hv H3]]].
      * destruct N as [_ [_ [N|N]]]; [left; congruence|right; exists a; split; [left; reflexivity|congruence]].
      * right. exists v. split; [right; exact Hv|exact H3].
Qed.
Lemma fold_max_spec : forall (g : pt -> R) l m,
  (forall v, In v l -> g v <= fold_left (fun x v => nmax RA x (g v)) l m) /\ m <= fold_left (fun x v => nmax RA x (g v)) l m /\
  (fold_left (fun x v => nmax RA x (g v)) l m = m \/ exists v, In v l /\ fold_left (fun x v => nmax RA x (g v)) l m = g v).
Proof.
  intros g. induction l as [|a l IH]; intro m; cbn [fold_left].
  - split; [intros _ []|]. split; [lra|]. left. reflexivity.
  - destruct (IH (nmax RA m (g a))) as [H1 [H2 H3]].
    assert (N : m <= nmax RA m (g a) /\ g a <= nmax RA m (g a) /\ (nmax RA m (g a) = m \/ nmax RA m (g a) = g a)).
    { unfold nmax. cbn. destruct (Rlt_dec m (g a)); lra. }
    split; [|split].
    + intros v [<-|Hv]; [lra|apply H1; exact Hv].
    + lra.
    + destruct H3 as [H3|[v [Hv H3]]].
      * destruct N as [_ [_ [N|N]]]; [left; congruence|right; exists a; split; [left; reflexivity|congruence]].
      * right. exists v. split; [right; exact Hv|exact H3].
Qed.

Definition between (nodes : list pt) (p : pt) : Prop :=
  (exists v, In v nodes /\ fst v <= fst p) /\ (exists v, In v nodes /\ fst p <= fst v) /\
  (exists v, In v nodes /\ snd v <= snd p) /\ (exists v, In v nodes /\ snd p <= snd v).

Lemma low_iff : forall (g : pt -> R) a l x, fold_left (fun m v => nmin RA m (g v)) l (g a) <= x <-> exists v, In v (a :: l) /\ g v <= x.
Proof.
  intros g a l x. destruct (fold_min_spec g l (g a)) as [H1 [H2 H3]]. split.
  - intro H. destruct H3 as [E|[v [Hv E]]].
    + exists a. split; [left; reflexivity|lra].
    + exists v. split; [right; exact Hv|lra].
  - intros [v [[<-|Hv] H]]; [lra|]. specialize (H1 _ Hv). lra.
Qed.
Lemma high_iff : forall (g : pt -> R) a l x, x <= fold_left (fun m v => nmax RA m (g v)) l (g a) <-> exists v, In v (a :: l) /\ x <= g v.
Proof.
  intros g a l x. destruct (fold_max_spec g l (g a)) as [H1 [H2 H3]]. split.
  - intro H. destruct H3 as [E|[v [Hv E]]].
    + exists a. split; [left; reflexivity|lra].
    + exists v. split; [right; exact Hv|lra].
  - intros [v [[<-|Hv] H]]; [lra|]. specialize (H1 _ Hv). lra.
Qed.

Lemma rle_true : forall x y, nleb RA x y = true <-> x <= y.
Proof. intros. cbn. destruct (Rle_dec x y); split; intros; try lra; try discriminate; reflexivity. Qed.

Lemma in_box_iff : forall (nodes : list pt) (p : pt), nodes <> [] -> (in_box RA nodes p = true <-> between nodes p).
Proof.
  intros nodes p Hn. destruct nodes as [|a l]; [congruence|]. unfold in_box, between.
  rewrite !andb_true_iff, !rle_true.
  rewrite (low_iff fst), (high_iff fst), (low_iff snd), (high_iff snd). tauto.
Qed.
Lemma in_box_same : forall n m p, n <> [] -> m <> [] -> (forall v, In v n <-> In v m) -> in_box RA n p = in_box RA m p.
Proof.
  intros n m p Hn Hm H. apply Bool.eq_iff_eq_true. rewrite !in_box_iff by assumption. unfold between.
  split; intros [[v1 [I1 L1]] [[v2 [I2 L2]] [[v3 [I3 L3]] [v4 [I4 L4]]]]]; apply H in I1, I2, I3, I4; eauto 12.
Qed.

Lemma closed_nonnil : forall vs, vs <> [] -> closed vs <> [].
Proof. intros [|a vs] H; [congruence|discriminate]. Qed.
Lemma in_closed : forall vs v, In v (closed vs) <-> In v vs.
Proof.
  intros vs v. unfold closed. rewrite in_app_iff. split; [intros [H|H]|]; auto.
  destruct vs; cbn in H; [contradiction|]. destruct H as [<-|[]]. left. reflexivity.
Qed.
Lemma closed_length : forall vs, vs <> [] -> length (closed vs) = S (length vs).
Proof. intros [|a vs] H; [congruence|]. unfold closed. rewrite app_length. cbn [firstn length]. lia. Qed.

Lemma polygon_contains_eq : forall (nodes : list pt) (p : pt), (3 <= length nodes)%nat ->
  polygon_contains RA nodes p = in_box RA nodes p && contains_cartesian RA nodes p.
Proof.
  intros nodes p H. unfold polygon_contains. destruct nodes as [|a l]; [cbn [length] in H; lia|].
  change (vec RA) with pt. destruct (Nat.ltb_spec (length (a :: l)) 3); [lia|]. destruct (in_box RA (a :: l) p); reflexivity.
Qed.

Lemma polygon_contains_same : forall n m p, length n = length m -> (forall v, In v n <-> In v m) ->
  contains_cartesian RA n p = contains_cartesian RA m p -> polygon_contains RA n p = polygon_contains RA m p.
Proof.
  intros n m p HL HI HC. unfold polygon_contains. destruct n as [|a n], m as [|b m]; try discriminate HL; [reflexivity|].
  rewrite HL, HC. rewrite (in_box_same (a :: n) (b :: m)) by (try discriminate; assumption). reflexivity.
Qed.

Lemma polygon_rotate : forall (u v : list pt) (p : pt), polygon_contains RA (closed (u ++ v)) p = polygon_contains RA (closed (v ++ u)) p.
Proof.
  intros u v p. apply polygon_contains_same.
  - destruct u as [|a u]; [rewrite app_nil_r; reflexivity|]. destruct v as [|b v]; [rewrite app_nil_r; reflexivity|].
    rewrite !closed_length by discriminate. rewrite !app_length. lia.
  - intro w. rewrite !in_closed, !in_app_iff. tauto.
  - apply (contains_rotate RA).
Qed.
Lemma polygon_reverse : forall (nodes : list pt) (p : pt), polygon_contains RA (rev nodes) p = polygon_contains RA nodes p.
Proof.
  intros nodes p. apply polygon_contains_same.
  - apply rev_length.
  - intro v. rewrite <- in_rev. reflexivity.
  - apply contains_reverse.
Qed.

(** *** The boundary *)
Lemma side_in_nodes : forall nodes a b, side nodes a b -> In a nodes /\ In b nodes.
Proof.
  intros nodes a b [l1 [l2 ->]]. split; apply in_or_app; right; cbn [In]; [left|right; left]; reflexivity.
Qed.

Lemma segment_hull : forall vs a b p, In a vs -> In b vs -> on_segment a b p -> in_hull vs p.
Proof.
  intros vs a b p Ha Hb [t [[T0 T1] [Ex Ey]]] al be ga H. rewrite Ex, Ey.
  pose proof (H a Ha) as Ka. pose proof (H b Hb) as Kb.
  assert (K : (1 - t) * (al * fst a + be * snd a) + t * (al * fst b + be * snd b) <= (1 - t) * ga + t * ga).
  { apply Rplus_le_compat; apply Rmult_le_compat_l; lra. }
  lra.
Qed.

Lemma min_exists : forall (f : pt -> R) (P : pt -> Prop) l, (exists v, In v l /\ P v) ->
  exists v, In v l /\ P v /\ forall w, In w l -> P w -> f v <= f w.
Proof.
  intros f P. induction l as [|a l IH]; intros [v [Hv Pv]]; [destruct Hv|].
  destruct (classic (exists v, In v l /\ P v)) as [E|E].
  - destruct (IH E) as [m [Hm [Pm Lm]]].
    destruct (classic (P a /\ f a < f m)) as [[Pa La]|N].
    + exists a. split; [left; reflexivity|]. split; [exact Pa|]. intros w [<-|Hw] Pw; [lra|]. specialize (Lm w Hw Pw). lra.
    + exists m. split; [right; exact Hm|]. split; [exact Pm|]. intros w [<-|Hw] Pw; [|apply Lm; assumption].
      destruct (Rle_dec (f m) (f a)); [assumption|]. exfalso. apply N. split; [exact Pw|lra].
  - destruct Hv as [<-|Hv]; [|exfalso; apply E; eauto].
    exists a. split; [left; reflexivity|]. split; [exact Pv|]. intros w [<-|Hw] Pw; [lra|]. exfalso. apply E. eauto.
Qed.

Lemma hull_box : forall (nodes : list pt) (p : pt), nodes <> [] -> in_hull nodes p -> between nodes p.
Proof.
  intros nodes p Hn H.
  assert (M : forall f : pt -> R, exists v, In v nodes /\ forall w, In w nodes -> f v <= f w).
  { intro f. destruct (min_exists f (fun _ => True) nodes) as [v [Hv [_ L]]].
    - destruct nodes as [|a l]; [congruence|]. exists a. split; [left; reflexivity|exact I].
    - exists v. split; [exact Hv|]. intros w Hw. apply L; auto. }
  unfold between. repeat split.
  - destruct (M fst) as [v [Hv L]]. exists v. split; [exact Hv|].
    pose proof (H (-1) 0 (- fst v)) as K. assert (-1 * fst p + 0 * snd p <= - fst v); [|lra].
    apply K. intros w Hw. specialize (L w Hw). lra.
  - destruct (M (fun v => - fst v)) as [v [Hv L]]. exists v. split; [exact Hv|].
    pose proof (H 1 0 (fst v)) as K. assert (1 * fst p + 0 * snd p <= fst v); [|lra].
    apply K. intros w Hw. specialize (L w Hw). cbn in L. lra.
  - destruct (M snd) as [v [Hv L]]. exists v. split; [exact Hv|].
    pose proof (H 0 (-1) (- snd v)) as K. assert (0 * fst p + -1 * snd p <= - snd v); [|lra].
    apply K. intros w Hw. specialize (L w Hw). lra.
  - destruct (M (fun v => - snd v)) as [v [Hv L]]. exists v. split; [exact Hv|].
    pose proof (H 0 1 (snd v)) as K. assert (0 * fst p + 1 * snd p <= snd v); [|lra].
    apply K. intros w Hw. specialize (L w Hw). cbn in L. lra.
Qed.

Lemma boundary_inside : forall nodes a b p, (3 <= length nodes)%nat -> side nodes a b -> on_segment a b p ->
  polygon_contains RA nodes p = true.
Proof.
  intros nodes a b p HL Hs Hp. rewrite polygon_contains_eq by exact HL.
  destruct (side_in_nodes _ _ _ Hs) as [Ha Hb].
  assert (Hn : nodes <> []) by (intros ->; destruct Ha).
  apply andb_true_intro. split.
  - apply in_box_iff; [exact Hn|]. apply hull_box; [exact Hn|]. exact (segment_hull _ _ _ _ Ha Hb Hp).
  - rewrite contains_eq. apply orb_true_intro. left. apply existsb_exists. exists (a, b).
    split; [apply side_in; exact Hs|]. unfold on_pair. cbn [fst snd]. apply on_side_iff. left. exact Hp.
Qed.

(** *** Inside implies hull *)
Definition above (p v : pt) : Z := if Rlt_dec (snd p) (snd v) then 1%Z else 0%Z.
Definition step (p : pt) (e : pt * pt) : Z := (above p (snd e) - above p (fst e))%Z.

Definition hits (p : pt) (e : pt * pt) (q : pt) : Prop := on_segment (fst e) (snd e) q /\ snd q = snd p.

Lemma crossing_cases : forall (p : pt) (e : pt * pt),
  (step p e = 0%Z /\ cr_pair RA p e = 0%Z) \/
  (cr_pair RA p e = step p e /\ exists q, hits p e q /\ fst p < fst q) \/
  (cr_pair RA p e = 0%Z /\ exists q, hits p e q /\ fst q <= fst p).
Proof.
  intros [px py] [[ax ay] [bx by_]]. unfold step, above, cr_pair, crossing, hits. rewrite cross_left. unfold left_of. cbn.
  set (c := ax * by_ + bx * py + px * ay - (ay * bx + by_ * px + py * ax)).
  destruct (Rle_dec ay py) as [Ha|Ha], (Rlt_dec py by_) as [Hb|Hb]; cbn [andb];
    destruct (Rlt_dec py ay) as [Ha'|Ha']; try lra.
  - (* up *)
    set (t := (py - ay) / (by_ - ay)).
    assert (D : 0 < by_ - ay) by lra.
    assert (T : 0 <= t <= 1).
    { unfold t. split.
      - apply Rmult_le_pos; [lra|]. left. apply Rinv_0_lt_compat. exact D.
      - apply (Rmult_le_reg_r (by_ - ay)); [exact D|]. unfold Rdiv. rewrite Rmult_assoc, Rinv_l by lra. lra. }
    assert (Et : t * (by_ - ay) = py - ay) by (unfold t; field; lra).
    set (q := (ax + t * (bx - ax), py)).
    assert (Hq : on_segment (ax, ay) (bx, by_) q /\ snd q = py).
    { split; [|reflexivity]. exists t. unfold q. cbn. split; [exact T|]. split; lra. }
    assert (Ec : c = (by_ - ay) * (fst q - px)).
    { unfold c, q. cbn [fst]. replace ((by_ - ay) * (ax + t * (bx - ax) - px)) with ((by_ - ay) * (ax - px) + t * (by_ - ay) * (bx - ax)) by ring.
      rewrite Et. ring. }
    destruct (Rlt_dec 0 c) as [Hc|Hc].
    + right. left. split; [reflexivity|]. exists q. split; [exact Hq|]. nra.
    + right. right. split; [reflexivity|]. exists q. split; [exact Hq|]. nra.
  - left. split; reflexivity.
  - left. split; [reflexivity|]. destruct (Rle_dec by_ py); [lra|reflexivity].
  - (* down *)
    set (t := (py - ay) / (by_ - ay)).
    assert (D : 0 < ay - by_) by lra.
    assert (Et : t * (by_ - ay) = py - ay) by (unfold t; field; lra).
    assert (T : 0 <= t <= 1) by nra.
    set (q := (ax + t * (bx - ax), py)).
    assert (Hq : on_segment (ax, ay) (bx, by_) q /\ snd q = py).
    { split; [|reflexivity]. exists t. unfold q. cbn. split; [exact T|]. split; lra. }
    assert (Ec : c = (by_ - ay) * (fst q - px)).
    { unfold c, q. cbn [fst]. replace ((by_ - ay) * (ax + t * (bx - ax) - px)) with ((by_ - ay) * (ax - px) + t * (by_ - ay) * (bx - ax)) by ring.
      rewrite Et. ring. }
    destruct (Rle_dec by_ py); [|lra]. cbn [andb].
    destruct (Rlt_dec c 0) as [Hc|Hc].
    + right. left. split; [reflexivity|]. exists q. split; [exact Hq|]. nra.
    + right. right. split; [reflexivity|]. exists q. split; [exact Hq|]. nra.
Qed.

Lemma sum_right : forall (p : pt) (l : list (pt * pt)), (exists e q, In e l /\ hits p e q /\ fst p < fst q) \/ zsum (map (cr_pair RA p) l) = 0%Z.
Proof.
  intros p l. induction l as [|e l IH]; [right; reflexivity|].
  destruct IH as [[e' [q [H1 H2]]]|IH]; [left; exists e', q; split; [right; exact H1|exact H2]|].
  destruct (crossing_cases p e) as [[_ H]|[[H [q Hq]]|[H _]]].
  - right. cbn [map zsum fold_right]. unfold zsum in IH. rewrite IH, H. reflexivity.
  - left. exists e, q. split; [left; reflexivity|exact Hq].
  - right. cbn [map zsum fold_right]. unfold zsum in IH. rewrite IH, H. reflexivity.
Qed.
Lemma sum_left : forall (p : pt) (l : list (pt * pt)), (exists e q, In e l /\ hits p e q /\ fst q <= fst p) \/
  zsum (map (cr_pair RA p) l) = zsum (map (step p) l).
Proof.
  intros p l. induction l as [|e l IH]; [right; reflexivity|].
  destruct IH as [[e' [q [H1 H2]]]|IH]; [left; exists e', q; split; [right; exact H1|exact H2]|].
  destruct (crossing_cases p e) as [[H' H]|[[H _]|[H [q Hq]]]].
  - right. cbn [map zsum fold_right]. unfold zsum in IH. rewrite IH, H, H'. reflexivity.
  - right. cbn [map zsum fold_right]. unfold zsum in IH. rewrite IH, H. reflexivity.
  - left. exists e, q. split; [left; reflexivity|exact Hq].
Qed.

Lemma step_telescope : forall p a l, zsum (map (step p) (sides RA (a :: l))) = (above p (last l a) - above p a)%Z.
Proof.
  intros p a l. revert a. induction l as [|b l IH]; intro a.
  - cbn. lia.
  - rewrite sides_cons. cbn [map]. unfold zsum in *. cbn [fold_right]. rewrite IH. unfold step. cbn [fst snd].
    replace (last (b :: l) a) with (last l b); [lia|].
    destruct l as [|c l]; [reflexivity|]. cbn [last]. clear. revert c. induction l as [|x l IH]; intro c; [reflexivity|]. exact (IH x).
Qed.
Lemma step_ring : forall p vs, zsum (map (step p) (sides RA (closed vs))) = 0%Z.
Proof.
  intros p [|a vs]; [reflexivity|]. unfold closed. cbn [firstn app]. rewrite step_telescope.
  rewrite last_last. lia.
Qed.

Lemma inside_hull : forall (vs : list pt) (p : pt), no_zero_side (closed vs) -> contains_cartesian RA (closed vs) p = true -> in_hull vs p.
Proof.
  intros vs p Hz H. rewrite contains_eq in H. apply orb_true_iff in H as [H|H].
  - apply existsb_exists in H as [[a b] [Hin H]]. unfold on_pair in H. cbn [fst snd] in H. apply side_in in Hin.
    apply on_side_iff in H as [H|H]; [|exfalso; exact (Hz _ _ Hin H)].
    destruct (side_in_nodes _ _ _ Hin) as [Ha Hb]. apply (segment_hull vs a b); [apply in_closed|apply in_closed|]; assumption.
  - apply negb_true_iff, Z.eqb_neq in H.
    destruct (sum_right p (sides RA (closed vs))) as [[e [q [He [[Hq Yq] Lq]]]]|E]; [|contradiction].
    destruct (sum_left p (sides RA (closed vs))) as [[e' [q' [He' [[Hq' Yq'] Lq']]]]|E]; [|rewrite step_ring in E; contradiction].
    assert (K : forall e q, In e (sides RA (closed vs)) -> on_segment (fst e) (snd e) q -> in_hull vs q).
    { clear. intros [a b] q He Hq. apply side_in in He. destruct (side_in_nodes _ _ _ He) as [Ha Hb].
      apply (segment_hull vs a b); [apply in_closed|apply in_closed|]; assumption. }
    pose proof (K _ _ He Hq) as K1. pose proof (K _ _ He' Hq') as K2. clear K.
    intros al be ga Hl. specialize (K1 al be ga Hl). specialize (K2 al be ga Hl). rewrite Yq in K1. rewrite Yq' in K2.
    destruct (Rle_dec 0 al).
    + assert (al * fst p <= al * fst q) by (apply Rmult_le_compat_l; lra). lra.
    + assert (al * fst p <= al * fst q') by nra. lra.
Qed.

Lemma polygon_contains_nodegen : forall (vs : list pt) (p : pt), (2 <= length vs)%nat -> no_zero_side (closed vs) ->
  polygon_contains RA (closed vs) p = contains_cartesian RA (closed vs) p.
Proof.
  intros vs p HL Hz. assert (Hn : vs <> []) by (intros ->; cbn in HL; lia).
  rewrite polygon_contains_eq by (rewrite closed_length by exact Hn; lia).
  destruct (contains_cartesian RA (closed vs) p) eqn:E; [|apply andb_false_r].
  rewrite andb_true_r. apply in_box_iff; [apply closed_nonnil; exact Hn|].
  apply hull_box; [apply closed_nonnil; exact Hn|].
  intros al be ga H. apply (inside_hull vs p Hz E). intros v Hv. apply H, in_closed. exact Hv.
Qed.

(** *** Convex rings *)
Lemma hull_left : forall vs a b p, (forall v, In v vs -> 0 <= left_of a b v) -> in_hull vs p -> 0 <= left_of a b p.
Proof.
  intros vs a b p H Hp.
  pose proof (Hp (snd b - snd a) (- (fst b - fst a)) (fst a * snd b - fst b * snd a)) as K.
  unfold left_of in *. assert ((snd b - snd a) * fst p + - (fst b - fst a) * snd p <= fst a * snd b - fst b * snd a); [|lra].
  apply K. intros v Hv. specialize (H v Hv). lra.
Qed.

Lemma convex_nonzero : forall vs, convex_ring vs -> no_zero_side (closed vs).
Proof.
  intros vs H a b Hs E. subst b. destruct (H a a Hs) as [_ [v [_ Hv]]]. unfold left_of in Hv. lra.
Qed.

Lemma side_out : forall vs v, In v vs -> exists b, side (closed vs) v b.
Proof.
  intros vs v Hv. apply in_split in Hv as [l1 [l2 ->]]. unfold side, closed.
  destruct l2 as [|b l2].
  - destruct l1 as [|a l1].
    + exists v, [], []. reflexivity.
    + exists a, (a :: l1), []. cbn [firstn app]. rewrite <- app_assoc. reflexivity.
  - exists b, l1. eexists. rewrite <- app_assoc. cbn [app]. reflexivity.
Qed.
Lemma side_inc : forall vs v, In v vs -> exists z, side (closed vs) z v.
Proof.
  intros vs v Hv. apply in_split in Hv as [l1 [l2 ->]]. unfold side, closed.
  destruct l1 as [|a l1] using rev_ind.
  - destruct l2 as [|b l2] using rev_ind.
    + exists v, [], []. reflexivity.
    + exists b, (v :: l2), []. cbn [firstn app]. rewrite <- app_assoc. reflexivity.
  - exists a, l1. eexists. rewrite <- !app_assoc. cbn [app]. reflexivity.
Qed.

(** Spike lemma.  d' and d are the incoming and outgoing side at an extreme vertex, U the point relative to the vertex *)
Lemma spike : forall dx dy dx' dy' h u (Vs : pt -> Prop),
  0 < h -> 0 <= dy -> dy' <= 0 -> (dx <> 0 \/ dy <> 0) -> (dx' <> 0 \/ dy' <> 0) ->
  0 <= - dx * h - dy * u -> 0 <= - dx' * h - dy' * u -> 0 <= dx' * dy - dy' * dx ->
  (forall V, Vs V -> 0 <= snd V /\ 0 <= dx * snd V - dy * fst V /\ 0 <= dx' * snd V - dy' * fst V) ->
  (exists V, Vs V /\ 0 < dx * snd V - dy * fst V) -> (exists V, Vs V /\ 0 < dx' * snd V - dy' * fst V) -> False.
Proof.
  intros dx dy dx' dy' h u Vs Hh Hdy Hdy' N N' C C' T HV [V [HV1 P1]] [V' [HV2 P2]].
  assert (E1 : dy * (dx' * h) <= dy * (- dy' * u)) by (apply Rmult_le_compat_l; lra).
  assert (E2 : - dy' * (dx * h) <= - dy' * (- dy * u)) by (apply Rmult_le_compat_l; lra).
  assert (Z : dx' * dy - dy' * dx = 0).
  { assert (h * (dx' * dy - dy' * dx) <= 0) by lra. nra. }
  destruct (Req_EM_T dy 0) as [Ed|Ed].
  - subst dy. assert (dx < 0). { destruct N; [|lra]. assert (dx * h <= 0) by lra. nra. }
    destruct (HV V HV1) as [K _]. nra.
  - destruct (Req_EM_T dy' 0) as [Ed'|Ed'].
    + subst dy'. assert (dx' < 0). { destruct N'; [|lra]. assert (dx' * h <= 0) by lra. nra. }
      destruct (HV V' HV2) as [K _]. nra.
    + destruct (HV V HV1) as [_ [_ K2]].
      assert (Q : dy * (dx' * snd V - dy' * fst V) = dy' * (dx * snd V - dy * fst V)).
      { replace (dy * (dx' * snd V - dy' * fst V)) with ((dx' * dy) * snd V - dy * dy' * fst V) by ring.
        replace (dx' * dy) with (dy' * dx) by lra. ring. }
      assert (0 <= dy * (dx' * snd V - dy' * fst V)) by (apply Rmult_le_pos; lra).
      assert (dy' * (dx * snd V - dy * fst V) < 0) by nra. lra.
Qed.

Lemma above_const : forall (p : pt) (l : list pt), (forall e, In e (sides RA l) -> step p e = 0%Z) -> forall v w, In v l -> In w l -> above p v = above p w.
Proof.
  intros p l. induction l as [|a l IH]; intros H v w Hv Hw; [destruct Hv|].
  assert (K : forall v, In v (a :: l) -> above p v = above p a).
  { intros x [<-|Hx]; [reflexivity|]. destruct l as [|b l]; [destruct Hx|].
    rewrite sides_cons in H. pose proof (H (a, b) (or_introl eq_refl)) as S0. unfold step in S0. cbn [fst snd] in S0.
    rewrite (IH (fun e He => H e (or_intror He)) x b Hx (or_introl eq_refl)). lia. }
  rewrite (K v Hv), (K w Hw). reflexivity.
Qed.

Lemma steps_zero : forall (p : pt) (l : list (pt * pt)), (forall e, In e l -> (step p e <= 0)%Z) -> zsum (map (step p) l) = 0%Z -> forall e, In e l -> step p e = 0%Z.
Proof.
  intros p l. induction l as [|a l IH]; intros H E e He; [destruct He|].
  cbn [map zsum fold_right] in E. fold (zsum (map (step p) l)) in E.
  assert (K : (zsum (map (step p) l) <= 0)%Z).
  { clear - H. induction l as [|b l IH]; [cbn; lia|]. cbn [map zsum fold_right]. fold (zsum (map (step p) l)).
    pose proof (H b (or_intror (or_introl eq_refl))). assert (zsum (map (step p) l) <= 0)%Z; [|lia].
    apply IH. intros e [<-|He]; apply H; [left|right; right]; auto. }
  pose proof (H a (or_introl eq_refl)).
  destruct He as [<-|He]; [lia|]. apply IH; [intros; apply H; right; assumption|lia|exact He].
Qed.

Lemma up_hit : forall a b p : pt, snd a <= snd p -> snd p < snd b ->
  exists q, on_segment a b q /\ snd q = snd p /\ left_of a b p = (snd b - snd a) * (fst q - fst p).
Proof.
  intros [ax ay] [bx by_] [px py]. unfold left_of, on_segment. cbn [fst snd]. intros Ha Hb.
  set (t := (py - ay) / (by_ - ay)).
  assert (Et : t * (by_ - ay) = py - ay) by (unfold t; field; lra).
  exists (ax + t * (bx - ax), py). cbn [fst snd]. split; [|split; [reflexivity|]].
  - exists t. split; [nra|]. split; lra.
  - replace ((by_ - ay) * (ax + t * (bx - ax) - px)) with ((by_ - ay) * (ax - px) + t * (by_ - ay) * (bx - ax)) by ring.
    rewrite Et. ring.
Qed.

Lemma convex_contains : forall (vs : list pt) (p : pt), vs <> [] -> convex_ring vs -> (forall a b, side (closed vs) a b -> 0 <= left_of a b p) ->
  contains_cartesian RA (closed vs) p = true.
Proof.
  intros vs p Hn HC HP. rewrite contains_eq.
  destruct (existsb (on_pair RA p) (sides RA (closed vs))) eqn:EO; [reflexivity|]. cbn [orb].
  assert (NO : forall a b, side (closed vs) a b -> ~ on_segment a b p).
  { intros a b Hs Ho. assert (existsb (on_pair RA p) (sides RA (closed vs)) = true); [|congruence].
    apply existsb_exists. exists (a, b). split; [apply side_in; exact Hs|]. unfold on_pair. apply on_side_iff. left. exact Ho. }
  clear EO. apply negb_true_iff, Z.eqb_neq. intro W.
  (* every upward side is counted, no downward side *)
  assert (KC : forall e : pt * pt, In e (sides RA (closed vs)) -> cr_pair RA p e = Z.max (step p e) 0).
  { intros [a b] He. apply side_in in He. pose proof (HP _ _ He) as L. pose proof (NO _ _ He) as O.
    unfold cr_pair, crossing, step, above. rewrite cross_left. cbn.
    destruct (Rle_dec (snd a) (snd p)) as [Ha|Ha], (Rlt_dec (snd p) (snd b)) as [Hb|Hb]; cbn [andb];
      destruct (Rlt_dec (snd p) (snd a)) as [Ha'|Ha']; try lra.
    - destruct (up_hit a b p Ha Hb) as [q [Hq [Yq Eq]]].
      destruct (Rlt_dec 0 (left_of a b p)); [reflexivity|]. exfalso.
      assert (Z0 : left_of a b p = 0) by lra. rewrite Z0 in Eq.
      assert (fst q - fst p = 0) by (apply (rmul_zero_r (snd b - snd a)); lra).
      apply O. replace p with q; [exact Hq|]. destruct p, q. cbn [fst snd] in *. f_equal; lra.
    - reflexivity.
    - destruct (Rle_dec (snd b) (snd p)); [lra|]. reflexivity.
    - destruct (Rlt_dec (left_of a b p) 0); [lra|]. rewrite andb_false_r. reflexivity. }
  (* no upward side *)
  assert (NU : forall e : pt * pt, In e (sides RA (closed vs)) -> (step p e <= 0)%Z).
  { intros e He. assert (P : forall l, (forall e, In e l -> cr_pair RA p e = Z.max (step p e) 0) -> (0 <= zsum (map (cr_pair RA p) l))%Z /\
      (In e l -> (step p e <= zsum (map (cr_pair RA p) l))%Z)).
    { induction l as [|x l IH]; intro H; [split; [cbn; lia|intros []]|].
      destruct (IH (fun e He => H e (or_intror He))) as [I1 I2]. pose proof (H x (or_introl eq_refl)) as Hx.
      cbn [map zsum fold_right]. fold (zsum (map (cr_pair RA p) l)). rewrite Hx. split; [lia|].
      intros [<-|Hin]; [lia|]. specialize (I2 Hin). lia. }
    destruct (P _ KC) as [_ P2]. specialize (P2 He). lia. }
  pose proof (steps_zero p _ NU (step_ring p vs)) as S0.
  assert (AC : forall v w, In v vs -> In w vs -> above p v = above p w).
  { intros v w Hv Hw. apply (above_const p (closed vs) S0); apply in_closed; assumption. }
  clear W KC NU S0.
  destruct vs as [|v0 vs0] eqn:EV; [congruence|]. rewrite <- EV in *.
  assert (H0 : In v0 vs) by (rewrite EV; left; reflexivity). clear EV Hn.
  assert (nondeg : forall a b, side (closed vs) a b -> fst b - fst a <> 0 \/ snd b - snd a <> 0).
  { intros a b Hs. destruct (Req_dec (fst b - fst a) 0) as [E1|E1]; [|left; exact E1]. right. intro E2.
    apply (convex_nonzero vs HC a b Hs). destruct a, b. cbn [fst snd] in *. f_equal; lra. }
  assert (inn : forall a b, side (closed vs) a b -> In a vs /\ In b vs).
  { intros a b Hs. destruct (side_in_nodes _ _ _ Hs). rewrite !in_closed in *. split; assumption. }
  destruct (Rlt_dec (snd p) (snd v0)) as [B|B].
  - (* all above p *)
    assert (All : forall v, In v vs -> snd p < snd v).
    { intros v Hv. specialize (AC v v0 Hv H0). unfold above in AC. destruct (Rlt_dec (snd p) (snd v0)); [|lra].
      destruct (Rlt_dec (snd p) (snd v)); [assumption|discriminate]. }
    destruct (min_exists snd (fun _ => True) vs) as [a [Ha [_ La]]]; [eauto|].
    destruct (side_out vs a Ha) as [b Sb]. destruct (side_inc vs a Ha) as [z Sz].
    destruct (HC _ _ Sb) as [Cb [v1 [Hv1 P1]]]. destruct (HC _ _ Sz) as [Cz [v2 [Hv2 P2]]].
    destruct (inn _ _ Sb) as [_ Hb]. destruct (inn _ _ Sz) as [Hz _].
    pose proof (HP _ _ Sb) as Pb. pose proof (HP _ _ Sz) as Pz. pose proof (Cz b Hb) as Cab.
    pose proof (La b Hb I) as Lb. pose proof (La z Hz I) as Lz. pose proof (All a Ha) as Hh.
    apply (spike (fst b - fst a) (snd b - snd a) (fst a - fst z) (snd a - snd z) (snd a - snd p) (fst p - fst a)
             (fun V => exists v, In v vs /\ V = (fst v - fst a, snd v - snd a)));
      try (unfold left_of in *; lra); try (apply nondeg; assumption).
    + intros V [v [Hv ->]]. cbn [fst snd]. specialize (Cb v Hv). specialize (Cz v Hv). specialize (La v Hv I).
      unfold left_of in *. split; [lra|]. split; lra.
    + exists (fst v1 - fst a, snd v1 - snd a). split; [eauto|]. cbn [fst snd]. unfold left_of in *. lra.
    + exists (fst v2 - fst a, snd v2 - snd a). split; [eauto|]. cbn [fst snd]. unfold left_of in *. lra.
  - (* all below p *)
    assert (All : forall v, In v vs -> snd v <= snd p).
    { intros v Hv. specialize (AC v v0 Hv H0). unfold above in AC. destruct (Rlt_dec (snd p) (snd v0)); [lra|].
      destruct (Rlt_dec (snd p) (snd v)); [discriminate|lra]. }
    destruct (min_exists (fun v => - snd v) (fun _ => True) vs) as [a [Ha [_ La]]]; [eauto|].
    assert (La' : forall v, In v vs -> snd v <= snd a) by (intros v Hv; specialize (La v Hv I); cbn in La; lra). clear La.
    destruct (Rlt_dec (snd a) (snd p)) as [Hh|Hh].
    + destruct (side_out vs a Ha) as [b Sb]. destruct (side_inc vs a Ha) as [z Sz].
      destruct (HC _ _ Sb) as [Cb [v1 [Hv1 P1]]]. destruct (HC _ _ Sz) as [Cz [v2 [Hv2 P2]]].
      destruct (inn _ _ Sb) as [_ Hb]. destruct (inn _ _ Sz) as [Hz _].
      pose proof (HP _ _ Sb) as Pb. pose proof (HP _ _ Sz) as Pz. pose proof (Cz b Hb) as Cab.
      pose proof (La' b Hb) as Lb. pose proof (La' z Hz) as Lz.
      apply (spike (- (fst b - fst a)) (- (snd b - snd a)) (- (fst a - fst z)) (- (snd a - snd z)) (snd p - snd a) (- (fst p - fst a))
               (fun V => exists v, In v vs /\ V = (- (fst v - fst a), - (snd v - snd a))));
        try (unfold left_of in *; lra).
      * destruct (nondeg _ _ Sb); [left|right]; lra.
      * destruct (nondeg _ _ Sz); [left|right]; lra.
      * intros V [v [Hv ->]]. cbn [fst snd]. specialize (Cb v Hv). specialize (Cz v Hv). specialize (La' v Hv).
        unfold left_of in *. split; [lra|]. split; lra.
      * exists (- (fst v1 - fst a), - (snd v1 - snd a)). split; [eauto|]. cbn [fst snd]. unfold left_of in *. lra.
      * exists (- (fst v2 - fst a), - (snd v2 - snd a)). split; [eauto|]. cbn [fst snd]. unfold left_of in *. lra.
    + assert (Ea : snd a = snd p) by (specialize (All a Ha); lra).
      (* no top side runs to the right *)
      assert (NR : forall x y, side (closed vs) x y -> snd x = snd p -> snd y = snd p -> fst y < fst x).
      { intros x y Hs Ex Ey. destruct (HC _ _ Hs) as [_ [v [Hv Pv]]]. specialize (All v Hv).
        destruct (nondeg _ _ Hs) as [N|N]; [|lra]. unfold left_of in Pv.
        assert ((fst y - fst x) * (snd v - snd p) > 0) by (rewrite Ex, Ey in Pv; lra). nra. }
      (* a top vertex at or to the right of p *)
      destruct (min_exists (fun v => - fst v) (fun v => snd v = snd p) vs) as [r [Hr [Er Lr]]]; [eauto|].
      assert (Rr : fst p <= fst r).
      { destruct (side_inc vs r Hr) as [z Sz]. destruct (inn _ _ Sz) as [Hz _]. pose proof (All z Hz) as Az.
        destruct (Req_EM_T (snd z) (snd p)) as [Ez|Ez].
        - pose proof (NR _ _ Sz Ez Er). specialize (Lr z Hz Ez). cbn in Lr. lra.
        - pose proof (HP _ _ Sz) as Pz. unfold left_of in Pz. rewrite Er in Pz. assert ((snd p - snd z) * (fst r - fst p) >= 0) by lra. nra. }
      destruct (min_exists fst (fun v => snd v = snd p /\ fst p <= fst v) vs) as [b [Hb [[Eb Rb] Lb]]]; [eauto|].
      destruct (side_out vs b Hb) as [n Sn]. destruct (inn _ _ Sn) as [_ Hn]. pose proof (All n Hn) as An.
      destruct (Req_EM_T (fst b) (fst p)) as [Ebp|Ebp].
      { apply (NO _ _ Sn). exists 0. split; [lra|]. split; lra. }
      destruct (Req_EM_T (snd n) (snd p)) as [En|En].
      * pose proof (NR _ _ Sn Eb En) as Ln.
        assert (fst n < fst p).
        { destruct (Rle_dec (fst p) (fst n)); [|lra]. specialize (Lb n Hn (conj En r0)). lra. }
        apply (NO _ _ Sn). exists ((fst b - fst p) / (fst b - fst n)).
        assert (D : 0 < fst b - fst n) by lra.
        split; [|split].
        -- split; [apply Rmult_le_pos; [lra|left; apply Rinv_0_lt_compat; exact D]|].
           apply (Rmult_le_reg_r (fst b - fst n)); [exact D|]. unfold Rdiv. rewrite Rmult_assoc, Rinv_l by lra. lra.
        -- field. lra.
        -- rewrite En, Eb. ring.
      * pose proof (HP _ _ Sn) as Pn. unfold left_of in Pn. rewrite Eb in Pn.
        assert ((snd n - snd p) * (fst b - fst p) >= 0) by lra. nra.
Qed.

Lemma convex_exact : forall (vs : list pt) (p : pt), (2 <= length vs)%nat -> convex_ring vs ->
  (polygon_contains RA (closed vs) p = true <-> forall a b, side (closed vs) a b -> 0 <= left_of a b p) /\
  (polygon_contains RA (closed vs) p = true <-> in_hull vs p).
Proof.
  intros vs p HL HC. assert (Hn : vs <> []) by (intros ->; cbn in HL; lia).
  pose proof (convex_nonzero vs HC) as Hz.
  rewrite (polygon_contains_nodegen vs p HL Hz).
  assert (H1 : contains_cartesian RA (closed vs) p = true -> in_hull vs p) by (apply inside_hull; exact Hz).
  assert (H2 : in_hull vs p -> forall a b, side (closed vs) a b -> 0 <= left_of a b p).
  { intros H a b Hs. apply (hull_left vs); [|exact H]. apply (proj1 (HC a b Hs)). }
  assert (H3 := convex_contains vs p Hn HC). tauto.
Qed.

(** *** Translation *)
Lemma sides_map : forall (f : vec RA -> vec RA) l, sides RA (map f l) = map (fun e => (f (fst e), f (snd e))) (sides RA l).
Proof.
  intros f l. induction l as [|a l IH]; [reflexivity|]. destruct l as [|b l]; [reflexivity|].
  cbn [map]. rewrite !sides_cons. cbn [map fst snd]. f_equal. exact IH.
Qed.
Lemma on_side_translate : forall (d a b p : pt), on_side RA (translate d a) (translate d b) (translate d p) = on_side RA a b p.
Proof.
  intros d a b p. apply Bool.eq_iff_eq_true. rewrite !on_side_iff. unfold on_segment, translate. cbn [fst snd].
  split; (intros [[t [T [E1 E2]]]|E]; [left; exists t; split; [exact T|]; split; lra|right]).
  - destruct a, b. cbn [fst snd] in E. injection E as E1 E2. f_equal; lra.
  - congruence.
Qed.
Lemma crossing_translate : forall (d a b p : pt), crossing RA (translate d a) (translate d b) (translate d p) = crossing RA a b p.
Proof.
  intros d a b p. unfold crossing. rewrite !cross_left.
  assert (E : left_of (translate d a) (translate d b) (translate d p) = left_of a b p) by (unfold left_of, translate; cbn [fst snd]; ring).
  rewrite E. cbn. rdec; cbn; try lra; reflexivity.
Qed.
Lemma between_translate : forall d nodes p, between (map (translate d) nodes) (translate d p) <-> between nodes p.
Proof.
  intros d nodes p. unfold between.
  assert (K : forall P Q : pt -> Prop, (forall v, P (translate d v) <-> Q v) ->
    ((exists v, In v (map (translate d) nodes) /\ P v) <-> (exists v, In v nodes /\ Q v))).
  { intros P Q H. split.
    - intros [v [Hv Pv]]. apply in_map_iff in Hv as [w [<- Hw]]. exists w. split; [exact Hw|apply H; exact Pv].
    - intros [v [Hv Qv]]. exists (translate d v). split; [apply in_map; exact Hv|apply H; exact Qv]. }
  rewrite (K (fun v => fst v <= fst (translate d p)) (fun v => fst v <= fst p)) by (intro v; cbn; lra).
  rewrite (K (fun v => fst (translate d p) <= fst v) (fun v => fst p <= fst v)) by (intro v; cbn; lra).
  rewrite (K (fun v => snd v <= snd (translate d p)) (fun v => snd v <= snd p)) by (intro v; cbn; lra).
  rewrite (K (fun v => snd (translate d p) <= snd v) (fun v => snd p <= snd v)) by (intro v; cbn; lra).
  reflexivity.
Qed.
Lemma polygon_translate : forall d nodes p, polygon_contains RA (map (translate d) nodes) (translate d p) = polygon_contains RA nodes p.
Proof.
  intros d nodes p. destruct nodes as [|a l] eqn:E; [reflexivity|]. rewrite <- E.
  assert (Hn : nodes <> []) by (rewrite E; discriminate).
  assert (Hm : map (translate d) nodes <> []) by (rewrite E; discriminate).
  assert (C : contains_cartesian RA (map (translate d) nodes) (translate d p) = contains_cartesian RA nodes p).
  { rewrite !contains_eq. rewrite sides_map. set (s := sides RA nodes). clearbody s. clear.
    assert (E1 : existsb (on_pair RA (translate d p)) (map (fun e => (translate d (fst e), translate d (snd e))) s) = existsb (on_pair RA p) s).
    { induction s as [|e s IH]; [reflexivity|]. cbn [map existsb]. rewrite IH. f_equal. unfold on_pair. cbn [fst snd]. apply on_side_translate. }
    assert (E2 : map (cr_pair RA (translate d p)) (map (fun e => (translate d (fst e), translate d (snd e))) s) = map (cr_pair RA p) s).
    { clear E1. induction s as [|e s IH]; [reflexivity|]. cbn [map]. f_equal; [|exact IH]. apply crossing_translate. }
    exact (f_equal2 (fun x y => x || negb (zsum y =? 0)%Z) E1 E2). }
  assert (B : in_box RA (map (translate d) nodes) (translate d p) = in_box RA nodes p).
  { apply Bool.eq_iff_eq_true. rewrite !in_box_iff by assumption. apply between_translate. }
  subst nodes. unfold polygon_contains. cbn [map] in *. rewrite C, B.
  change (length (translate d a :: map (translate d) l)) with (S (length (map (translate d) l))). rewrite map_length. reflexivity.
Qed.

(** *** IsPointInPolygonNodes *)
Lemma nodes_loop_eq : forall l p w, (forall e, In e l -> left_of (fst e) (snd e) p = 0 -> on_segment (fst e) (snd e) p \/ fst e = snd e) ->
  nodes_loop RA l p w = contains_loop RA l p w.
Proof.
  induction l as [|[a b] t IH]; intros p w H; [reflexivity|]. cbn [nodes_loop contains_loop].
  pose proof (H (a, b) (or_introl eq_refl)) as K. cbn [fst snd] in K.
  assert (E : nsame RA (cross RA a b p) (n0 RA) = on_side RA a b p).
  { apply Bool.eq_iff_eq_true. rewrite on_side_iff, cross_left. cbn. destruct (Req_EM_T (left_of a b p) 0) as [Z|Z].
    - split; auto.
    - split; [discriminate|]. intros [[t' [_ [Ex Ey]]]| ->]; exfalso; apply Z; unfold left_of; [rewrite Ex, Ey|]; ring. }
  rewrite E. destruct (on_side RA a b p); [reflexivity|]. apply IH. intros e He. apply H. right. exact He.
Qed.
Lemma in_polygon_nodes_agrees : forall (vs : list pt) (p : pt), (2 <= length vs)%nat ->
  (forall a b, side (closed vs) a b -> left_of a b p = 0 -> on_segment a b p) ->
  in_polygon_nodes RA (closed vs) p = polygon_contains RA (closed vs) p.
Proof.
  intros vs p HL H. destruct vs as [|a l] eqn:E; [cbn in HL; lia|]. rewrite <- E in *.
  assert (HL3 : (3 <= length (closed vs))%nat) by (rewrite closed_length by (rewrite E; discriminate); lia).
  rewrite polygon_contains_eq by exact HL3.
  assert (Ec : closed vs = a :: l ++ [a]) by (rewrite E; reflexivity).
  unfold in_polygon_nodes. rewrite Ec. rewrite <- Ec. change (vec RA) with pt.
  destruct (Nat.leb_spec (length (closed vs)) 1); [lia|]. destruct (Nat.ltb_spec (length (closed vs)) 3); [lia|].
  replace (last (closed vs) a) with a by (rewrite Ec; change (a :: l ++ [a]) with ((a :: l) ++ [a]); rewrite last_last; reflexivity).
  assert (Es : forall x, nsame RA x x = true) by (intro x; cbn; destruct (Req_EM_T x x); [reflexivity|congruence]). rewrite !Es.
  cbn [andb negb]. destruct (in_box RA (closed vs) p); [|reflexivity]. cbn [andb]. unfold contains_cartesian.
  apply nodes_loop_eq. intros [x y] He Z. left. apply H; [apply side_in; exact He|exact Z].
Qed.

(** *** Short and open lists of nodes, any arithmetic *)
Lemma few_nodes (A : arith) (nodes : list (vec A)) (p : vec A) : (length nodes < 3)%nat ->
  (polygon_contains A nodes p = true <-> nodes = []) /\ (in_polygon_nodes A nodes p = true <-> (length nodes <= 1)%nat).
Proof.
  destruct nodes as [|a [|b [|c l]]]; intros H; cbn; cbn in H; (split; split; intros X); try reflexivity; try discriminate; try lia.
Qed.
Lemma last_other {X} (x : X) l a b : last (x :: l) a = last (x :: l) b.
Proof. revert x. induction l as [|y l IH]; intros x; [reflexivity|]. change (last (y :: l) a = last (y :: l) b). apply IH. Qed.
Lemma open_nodes (A : arith) (nodes : list (vec A)) (p a : vec A) : (3 <= length nodes)%nat ->
  nsame A (fst (hd a nodes)) (fst (last nodes a)) && nsame A (snd (hd a nodes)) (snd (last nodes a)) = false -> in_polygon_nodes A nodes p = false.
Proof.
  destruct nodes as [|b [|c [|d l]]]; intros H E; try (cbn in H; lia). unfold in_polygon_nodes. change (length (b :: c :: d :: l) <=? 1)%nat with false. change (length (b :: c :: d :: l) <? 3)%nat with false.
  cbn iota. cbn [hd] in E. replace (last (b :: c :: d :: l) b) with (last (b :: c :: d :: l) a) by (change (last (d :: l) a = last (d :: l) b); apply last_other). rewrite E. reflexivity.
Qed.

(** Proofs about the area and the centre of mass of a polygon. *)
From Coq Require Import Reals Lra Psatz Permutation.
From Verif Require Import Base BaseLemmas FloatModel GeomModel GeomSpec GeomProofs.
Open Scope R_scope.

Definition rsum (f : pt * pt -> R) (l : list (pt * pt)) : R := fold_right (fun e s => f e + s) 0 l.

Lemma rsum_ext : forall f g l, (forall e, In e l -> f e = g e) -> rsum f l = rsum g l.
Proof.
  intros f g l H. induction l as [|e l IH]; [reflexivity|]. unfold rsum in *. cbn [fold_right].
  rewrite (H e (or_introl eq_refl)), IH; [reflexivity|]. intros; apply H; right; assumption.
Qed.
Lemma rsum_plus : forall f g l, rsum (fun e => f e + g e) l = rsum f l + rsum g l.
Proof. intros. induction l as [|e l IH]; unfold rsum in *; cbn [fold_right]; [lra|]. rewrite IH. lra. Qed.
Lemma rsum_scal : forall c f l, rsum (fun e => c * f e) l = c * rsum f l.
Proof. intros. induction l as [|e l IH]; unfold rsum in *; cbn [fold_right]; [lra|]. rewrite IH. lra. Qed.
Lemma rsum_perm : forall f l m, Permutation l m -> rsum f l = rsum f m.
Proof. intros f l m H. unfold rsum. induction H; cbn [fold_right]; lra. Qed.
Lemma rsum_map : forall f (g : pt * pt -> pt * pt) l, rsum f (map g l) = rsum (fun e => f (g e)) l.
Proof. intros. induction l as [|e l IH]; unfold rsum in *; cbn [map fold_right]; [reflexivity|]. rewrite IH. reflexivity. Qed.
Lemma rsum_fold : forall (f : pt * pt -> R) l s, fold_left (fun s e => s + f e) l s = s + rsum f l.
Proof.
  intros f. induction l as [|e l IH]; intro s; unfold rsum in *; cbn [fold_left fold_right]; [lra|]. rewrite IH. lra.
Qed.
Lemma rsum_pos : forall f l, (forall e, In e l -> 0 <= f e) -> 0 <= rsum f l /\ (forall e, In e l -> f e <= rsum f l).
Proof.
  intros f l H. induction l as [|e l IH].
  - split; [unfold rsum; cbn; lra|intros e []].
  - destruct IH as [I1 I2]; [intros; apply H; right; assumption|]. pose proof (H e (or_introl eq_refl)) as He.
    unfold rsum in *. cbn [fold_right]. split; [lra|]. intros x [<-|Hx]; [lra|]. specialize (I2 x Hx). lra.
Qed.

Lemma sum_sides_rsum : forall f nodes, sum_sides f nodes = rsum (fun e => f (fst e) (snd e)) (sides RA nodes).
Proof.
  intros f nodes. induction nodes as [|a l IH]; [reflexivity|]. destruct l as [|b l]; [reflexivity|].
  rewrite sides_cons. change (sum_sides f (a :: b :: l)) with (f a b + sum_sides f (b :: l)). rewrite IH. reflexivity.
Qed.

Lemma telescope : forall (h : pt -> R) a l, rsum (fun e => h (snd e) - h (fst e)) (sides RA (a :: l)) = h (last l a) - h a.
Proof.
  intros h a l. revert a. induction l as [|b l IH]; intro a.
  - unfold rsum. cbn. lra.
  - rewrite sides_cons. unfold rsum in *. cbn [fold_right]. rewrite IH. cbn [fst snd].
    replace (last (b :: l) a) with (last l b); [lra|].
    destruct l as [|c l]; [reflexivity|]. cbn [last]. clear. revert c. induction l as [|x l IH]; intro c; [reflexivity|]. exact (IH x).
Qed.
Lemma telescope_ring : forall (h : pt -> R) vs, rsum (fun e => h (snd e) - h (fst e)) (sides RA (closed vs)) = 0.
Proof.
  intros h [|a vs]; [reflexivity|]. unfold closed. cbn [firstn app]. rewrite telescope, last_last. lra.
Qed.

Lemma ring_sides_closed : forall vs, ring_sides RA (closed vs) = sides RA (closed vs).
Proof.
  intros [|a vs]; [reflexivity|]. unfold ring_sides, closed. cbn [firstn]. rewrite removelast_last. reflexivity.
Qed.

(** The two unrolled cases compute the same sum. *)
Lemma signed_area_sum : forall vs,
  signed_area RA (closed vs) = rsum (fun e => 1 / 2 * side_area RA (reference RA (closed vs)) (fst e) (snd e)) (sides RA (closed vs)).
Proof.
  intro vs. unfold signed_area. rewrite ring_sides_closed. set (r := reference RA (closed vs)). clearbody r. change pt in r.
  assert (G : forall l, fold_left (fun (s : R) (e : pt * pt) => nadd RA s (nmul RA (nhalf RA) (side_area RA r (fst e) (snd e)))) l 0 =
    rsum (fun e => 1 / 2 * side_area RA r (fst e) (snd e)) l).
  { intro l. rewrite <- (Rplus_0_l (rsum _ l)). rewrite <- rsum_fold. reflexivity. }
  destruct vs as [|a [|b [|c [|d [|e vs]]]]]; try exact (G _).
  - unfold rsum. cbn. lra.
  - unfold rsum. cbn. lra.
  - destruct vs; exact (G _).
Qed.

Lemma side_area_eq : forall r a b : pt, side_area RA r a b =
  (fst a * snd b - fst b * snd a) - fst r * (snd b - snd a) + snd r * (fst b - fst a).
Proof. intros [rx ry] [ax ay] [bx by_]. unfold side_area, middle. cbn. lra. Qed.

Lemma signed_area_shoelace : forall vs, signed_area RA (closed vs) = shoelace (closed vs).
Proof.
  intro vs. rewrite signed_area_sum. set (r := reference RA (closed vs)). clearbody r. change pt in r.
  unfold shoelace. rewrite sum_sides_rsum.
  rewrite (rsum_ext _ (fun e => (1 / 2 * (fst (fst e) * snd (snd e) - fst (snd e) * snd (fst e)) +
                                 (- (1 / 2) * fst r) * (snd (snd e) - snd (fst e))) + (1 / 2 * snd r) * (fst (snd e) - fst (fst e)))).
  2:{ intros e _. rewrite side_area_eq. lra. }
  rewrite !rsum_plus, !rsum_scal. rewrite (telescope_ring fst), (telescope_ring snd). lra.
Qed.

Lemma moment_x : forall vs, moment RA fst (closed vs) =
  sum_sides (fun a b => (fst a + fst b) * (fst a * snd b - fst b * snd a)) (closed vs) / 2 -
  3 * shoelace (closed vs) * fst (reference RA (closed vs)).
Proof.
  intro vs. unfold moment. rewrite ring_sides_closed. set (r := reference RA (closed vs)). clearbody r. change pt in r.
  rewrite (rsum_fold (fun e => side_area RA r (fst e) (snd e) * fst (middle RA r (fst e) (snd e)))). cbn [n0 real_arith]. rewrite Rplus_0_l.
  unfold shoelace. rewrite !sum_sides_rsum.
  rewrite (rsum_ext _ (fun e =>
     1 / 2 * ((fst (fst e) + fst (snd e)) * (fst (fst e) * snd (snd e) - fst (snd e) * snd (fst e))) +
     (- (3 / 2) * fst r) * (fst (fst e) * snd (snd e) - fst (snd e) * snd (fst e)) +
     (- (1 / 2) * fst r) * (fst (snd e) * snd (snd e) - fst (fst e) * snd (fst e)) +
     (1 / 2 * snd r) * (fst (snd e) * fst (snd e) - fst (fst e) * fst (fst e)) +
     (fst r * fst r) * (snd (snd e) - snd (fst e)) +
     (- (fst r * snd r)) * (fst (snd e) - fst (fst e)))).
  2:{ intros [[ax ay] [bx by_]] _. rewrite side_area_eq. unfold middle. destruct r as [rx ry]. cbn. field. }
  rewrite !rsum_plus, !rsum_scal.
  rewrite (telescope_ring (fun v => fst v * snd v)), (telescope_ring (fun v => fst v * fst v)), (telescope_ring snd), (telescope_ring fst).
  repeat match goal with |- context [rsum ?f ?l] => let x := fresh in set (x := rsum f l); clearbody x end.
  destruct r as [rx ry]. cbn. lra.
Qed.
Lemma moment_y : forall vs, moment RA snd (closed vs) =
  sum_sides (fun a b => (snd a + snd b) * (fst a * snd b - fst b * snd a)) (closed vs) / 2 -
  3 * shoelace (closed vs) * snd (reference RA (closed vs)).
Proof.
  intro vs. unfold moment. rewrite ring_sides_closed. set (r := reference RA (closed vs)). clearbody r. change pt in r.
  rewrite (rsum_fold (fun e => side_area RA r (fst e) (snd e) * snd (middle RA r (fst e) (snd e)))). cbn [n0 real_arith]. rewrite Rplus_0_l.
  unfold shoelace. rewrite !sum_sides_rsum.
  rewrite (rsum_ext _ (fun e =>
     1 / 2 * ((snd (fst e) + snd (snd e)) * (fst (fst e) * snd (snd e) - fst (snd e) * snd (fst e))) +
     (- (3 / 2) * snd r) * (fst (fst e) * snd (snd e) - fst (snd e) * snd (fst e)) +
     (1 / 2 * snd r) * (fst (snd e) * snd (snd e) - fst (fst e) * snd (fst e)) +
     (- (1 / 2) * fst r) * (snd (snd e) * snd (snd e) - snd (fst e) * snd (fst e)) +
     (- (snd r * snd r)) * (fst (snd e) - fst (fst e)) +
     (fst r * snd r) * (snd (snd e) - snd (fst e)))).
  2:{ intros [[ax ay] [bx by_]] _. rewrite side_area_eq. unfold middle. destruct r as [rx ry]. cbn. field. }
  rewrite !rsum_plus, !rsum_scal.
  rewrite (telescope_ring (fun v => fst v * snd v)), (telescope_ring (fun v => snd v * snd v)), (telescope_ring snd), (telescope_ring fst).
  repeat match goal with |- context [rsum ?f ?l] => let x := fresh in set (x := rsum f l); clearbody x end.
  destruct r as [rx ry]. cbn. lra.
Qed.

Lemma face_area_value : forall vs, (2 <= length vs)%nat ->
  exists c, face_area RA (closed vs) =
    Ok (Rmax (Rabs (shoelace (closed vs))) small, c, if Rlt_dec 0 (shoelace (closed vs)) then AntiClockwise else Clockwise) /\
    (small <= Rabs (shoelace (closed vs)) -> c = centroid (closed vs)).
Proof.
  intros vs HL. assert (Hn : vs <> []) by (intros ->; cbn in HL; lia).
  unfold face_area. rewrite signed_area_shoelace, moment_x, moment_y.
  assert (E : (length (A := vec RA) (closed vs) <? 3)%nat = false).
  { apply Nat.ltb_ge. change (vec RA) with pt. rewrite closed_length by exact Hn. lia. }
  rewrite E. clear E.
  set (s := shoelace (closed vs)).
  assert (S : 0 < small) by (unfold small; lra).
  eexists. split.
  - f_equal. f_equal; [f_equal|].
    + cbn. fold small. destruct (Rlt_dec (Rabs s) small).
      * rewrite Rmax_right by lra. rewrite Rabs_pos_eq by lra. reflexivity.
      * rewrite Rmax_left by lra. reflexivity.
    + cbn. destruct (Rlt_dec 0 s); reflexivity.
  - intro H. cbn. fold small. destruct (Rlt_dec (Rabs s) small); [lra|].
    assert (s <> 0) by (intros ->; rewrite Rabs_R0 in H; lra).
    unfold centroid. fold s. f_equal; field; assumption.
Qed.

(** *** Invariance *)
Lemma shoelace_perm : forall n m, Permutation (sides RA n) (sides RA m) -> shoelace n = shoelace m.
Proof. intros n m H. unfold shoelace. rewrite !sum_sides_rsum. rewrite (rsum_perm _ _ _ H). reflexivity. Qed.
Lemma shoelace_rotate : forall u v, shoelace (closed (u ++ v)) = shoelace (closed (v ++ u)).
Proof. intros. apply shoelace_perm, (sides_rotate RA). Qed.
Lemma centroid_rotate : forall u v, centroid (closed (u ++ v)) = centroid (closed (v ++ u)).
Proof.
  intros. unfold centroid. rewrite shoelace_rotate, !sum_sides_rsum.
  rewrite !(rsum_perm _ _ _ (sides_rotate RA u v)). reflexivity.
Qed.

Lemma sum_rev : forall f nodes, sum_sides f (rev nodes) = sum_sides (fun a b => f b a) nodes.
Proof.
  intros f nodes. rewrite !sum_sides_rsum. rewrite sides_rev.
  rewrite (rsum_perm _ _ _ (Permutation_sym (Permutation_rev _))). rewrite rsum_map. reflexivity.
Qed.
Lemma sum_ext : forall f g nodes, (forall a b, f a b = g a b) -> sum_sides f nodes = sum_sides g nodes.
Proof. intros. rewrite !sum_sides_rsum. apply rsum_ext. intros; apply H. Qed.
Lemma sum_scal : forall c f nodes, sum_sides (fun a b => c * f a b) nodes = c * sum_sides f nodes.
Proof. intros. rewrite !sum_sides_rsum. apply (rsum_scal c (fun e => f (fst e) (snd e))). Qed.
Lemma sum_plus : forall f g nodes, sum_sides (fun a b => f a b + g a b) nodes = sum_sides f nodes + sum_sides g nodes.
Proof. intros. rewrite !sum_sides_rsum. apply (rsum_plus (fun e => f (fst e) (snd e)) (fun e => g (fst e) (snd e))). Qed.
Lemma sum_tele : forall (h : pt -> R) vs, sum_sides (fun a b => h b - h a) (closed vs) = 0.
Proof. intros. rewrite sum_sides_rsum. apply telescope_ring. Qed.

Lemma shoelace_rev : forall nodes, shoelace (rev nodes) = - shoelace nodes.
Proof.
  intro nodes. unfold shoelace. rewrite sum_rev.
  rewrite (sum_ext _ (fun a b => -1 * (fst a * snd b - fst b * snd a))) by (intros; ring). rewrite sum_scal. field.
Qed.
Lemma centroid_rev : forall nodes, shoelace nodes <> 0 -> centroid (rev nodes) = centroid nodes.
Proof.
  intros nodes H. unfold centroid. rewrite shoelace_rev, !sum_rev.
  rewrite (sum_ext (fun a b => (fst b + fst a) * _) (fun a b => -1 * ((fst a + fst b) * (fst a * snd b - fst b * snd a)))) by (intros; ring).
  rewrite (sum_ext (fun a b => (snd b + snd a) * _) (fun a b => -1 * ((snd a + snd b) * (fst a * snd b - fst b * snd a)))) by (intros; ring).
  rewrite !sum_scal. f_equal; field; exact H.
Qed.

Lemma closed_map : forall (f : pt -> pt) vs, closed (map f vs) = map f (closed vs).
Proof. intros f [|a vs]; [reflexivity|]. unfold closed. cbn [map firstn app]. rewrite map_app. reflexivity. Qed.
Lemma sum_map : forall f (g : pt -> pt) nodes, sum_sides f (map g nodes) = sum_sides (fun a b => f (g a) (g b)) nodes.
Proof.
  intros f g nodes. induction nodes as [|a l IH]; [reflexivity|]. destruct l as [|b l]; [reflexivity|].
  cbn [map] in *. change (f (g a) (g b) + sum_sides f (g b :: map g l) = f (g a) (g b) + sum_sides (fun a b => f (g a) (g b)) (b :: l)).
  rewrite IH. reflexivity.
Qed.
Lemma shoelace_translate : forall d vs, shoelace (closed (map (translate d) vs)) = shoelace (closed vs).
Proof.
  intros d vs. unfold shoelace. rewrite closed_map, sum_map. f_equal.
  rewrite (sum_ext _ (fun a b => (fst a * snd b - fst b * snd a) + (fst d * (snd b - snd a) + (- snd d) * (fst b - fst a))))
    by (intros; unfold translate; cbn [fst snd]; ring).
  rewrite !sum_plus, !sum_scal. rewrite (sum_tele fst), (sum_tele snd). lra.
Qed.
Lemma centroid_translate : forall d vs, shoelace (closed vs) <> 0 ->
  centroid (closed (map (translate d) vs)) = translate d (centroid (closed vs)).
Proof.
  intros d vs H. unfold centroid. rewrite shoelace_translate. unfold translate at 3. cbn [fst snd].
  set (s := shoelace (closed vs)) in *.
  assert (Es : sum_sides (fun a b => fst a * snd b - fst b * snd a) (closed vs) = 2 * s) by (unfold s, shoelace; field).
  rewrite closed_map, !sum_map.
  rewrite (sum_ext (fun a b => (fst (translate d a) + fst (translate d b)) * _)
    (fun a b => (fst a + fst b) * (fst a * snd b - fst b * snd a) +
      ((3 * fst d) * (fst a * snd b - fst b * snd a) +
       (fst d * (fst b * snd b - fst a * snd a) + ((- snd d) * (fst b * fst b - fst a * fst a) +
        ((2 * fst d * fst d) * (snd b - snd a) + (-2 * fst d * snd d) * (fst b - fst a)))))))
    by (intros; unfold translate; cbn [fst snd]; ring).
  rewrite (sum_ext (fun a b => (snd (translate d a) + snd (translate d b)) * _)
    (fun a b => (snd a + snd b) * (fst a * snd b - fst b * snd a) +
      ((3 * snd d) * (fst a * snd b - fst b * snd a) +
       ((- snd d) * (fst b * snd b - fst a * snd a) + (fst d * (snd b * snd b - snd a * snd a) +
        ((2 * fst d * snd d) * (snd b - snd a) + (-2 * snd d * snd d) * (fst b - fst a)))))))
    by (intros; unfold translate; cbn [fst snd]; ring).
  rewrite !sum_plus, !sum_scal. rewrite Es.
  rewrite (sum_tele (fun v => fst v * snd v)), (sum_tele (fun v => fst v * fst v)), (sum_tele (fun v => snd v * snd v)), (sum_tele fst), (sum_tele snd).
  f_equal; field; exact H.
Qed.

(** An anticlockwise convex ring has positive area. *)
Lemma shoelace_from : forall vs r, 2 * shoelace (closed vs) = sum_sides (fun a b => left_of a b r) (closed vs).
Proof.
  intros vs r. unfold shoelace.
  rewrite (sum_ext (fun a b => left_of a b r)
    (fun a b => (fst a * snd b - fst b * snd a) + ((- fst r) * (snd b - snd a) + snd r * (fst b - fst a))))
    by (intros; unfold left_of; ring).
  rewrite !sum_plus, !sum_scal. rewrite (sum_tele fst), (sum_tele snd). field.
Qed.
Lemma convex_positive : forall vs, vs <> [] -> convex_ring vs -> 0 < shoelace (closed vs).
Proof.
  intros vs Hn HC. destruct vs as [|v0 l] eqn:E; [congruence|]. rewrite <- E in *.
  assert (H0 : In v0 vs) by (rewrite E; left; reflexivity).
  destruct (side_out vs v0 H0) as [b Hb]. destruct (HC _ _ Hb) as [_ [v [Hv Pv]]].
  pose proof (shoelace_from vs v) as S. rewrite sum_sides_rsum in S.
  destruct (rsum_pos (fun e => left_of (fst e) (snd e) v) (sides RA (closed vs))) as [_ P].
  { intros [x y] He. apply side_in in He. exact (proj1 (HC _ _ He) v Hv). }
  specialize (P (v0, b) (proj1 (side_in _ _ _) Hb)). cbn [fst snd] in P. lra.
Qed.

(** *** The same for the result of the computation *)
Definition opposite (d : direction) : direction := match d with AntiClockwise => Clockwise | Clockwise => AntiClockwise end.

Lemma closed_rev : forall vs, exists ws, rev (closed vs) = closed ws /\ length ws = length vs.
Proof.
  intros [|a t]; [exists []; split; reflexivity|]. exists (a :: rev t). split.
  - unfold closed. cbn [firstn app rev]. rewrite rev_app_distr. reflexivity.
  - cbn [length]. rewrite rev_length. reflexivity.
Qed.

Lemma face_area_inv : forall vs A c d, (2 <= length vs)%nat -> face_area RA (closed vs) = Ok (A, c, d) ->
  A = Rmax (Rabs (shoelace (closed vs))) small /\ (small < A -> c = centroid (closed vs) /\ shoelace (closed vs) <> 0) /\
  d = if Rlt_dec 0 (shoelace (closed vs)) then AntiClockwise else Clockwise.
Proof.
  intros vs A c d HL H. destruct (face_area_value vs HL) as [c' [E Hc]]. rewrite E in H.
  injection H as <- <- <-. split; [reflexivity|]. split; [|reflexivity].
  intro S. assert (small < Rabs (shoelace (closed vs))).
  { apply Rnot_le_lt. intro L. rewrite Rmax_right in S by exact L. lra. }
  split; [apply Hc; lra|]. intro Z. rewrite Z, Rabs_R0 in H. unfold small in H. lra.
Qed.

Lemma face_area_rotate : forall u v A c d, (2 <= length (u ++ v))%nat -> face_area RA (closed (u ++ v)) = Ok (A, c, d) ->
  exists c', face_area RA (closed (v ++ u)) = Ok (A, c', d) /\ (small < A -> c' = c).
Proof.
  intros u v A c d HL H. destruct (face_area_inv _ _ _ _ HL H) as [EA [EC ED]].
  destruct (face_area_value (v ++ u)) as [c' [E Hc]]; [rewrite app_length in *; lia|].
  exists c'. rewrite shoelace_rotate in E, Hc. subst A d. split; [exact E|].
  intro S. destruct (EC S) as [-> _]. rewrite <- (centroid_rotate v u). apply Hc.
  left. apply Rnot_le_lt. intro L. rewrite Rmax_right in S by exact L. lra.
Qed.

Lemma face_area_reverse : forall vs A c d, (2 <= length vs)%nat -> face_area RA (closed vs) = Ok (A, c, d) -> small < A ->
  face_area RA (rev (closed vs)) = Ok (A, c, opposite d).
Proof.
  intros vs A c d HL H S. destruct (face_area_inv _ _ _ _ HL H) as [EA [EC ED]]. destruct (EC S) as [-> NZ].
  destruct (closed_rev vs) as [ws [Ew Lw]]. rewrite Ew.
  destruct (face_area_value ws) as [c' [E Hc]]; [lia|].
  rewrite <- Ew in *. rewrite shoelace_rev, Rabs_Ropp in *. rewrite E.
  rewrite centroid_rev in Hc by exact NZ. rewrite Hc.
  2:{ left. apply Rnot_le_lt. intro L. rewrite EA, Rmax_right in S by exact L. lra. }
  rewrite EA, ED. f_equal. f_equal.
  destruct (Rlt_dec 0 (shoelace (closed vs))), (Rlt_dec 0 (- shoelace (closed vs))); try reflexivity; lra.
Qed.

Lemma face_area_translate : forall t vs A c d, (2 <= length vs)%nat -> face_area RA (closed vs) = Ok (A, c, d) ->
  exists c', face_area RA (closed (map (translate t) vs)) = Ok (A, c', d) /\ (small < A -> c' = translate t c).
Proof.
  intros t vs A c d HL H. destruct (face_area_inv _ _ _ _ HL H) as [EA [EC ED]].
  destruct (face_area_value (map (translate t) vs)) as [c' [E Hc]]; [rewrite map_length; exact HL|].
  exists c'. rewrite shoelace_translate in E, Hc. subst A d. split; [exact E|].
  intro S. destruct (EC S) as [-> NZ]. rewrite <- (centroid_translate t vs NZ). apply Hc.
  left. apply Rnot_le_lt. intro L. rewrite Rmax_right in S by exact L. lra.
Qed.

Lemma face_area_short : forall nodes : list pt, (length nodes < 3)%nat -> face_area RA nodes = Throw StdErr.
Proof. intros nodes H. unfold face_area. change (vec RA) with pt. apply Nat.ltb_lt in H. rewrite H. reflexivity. Qed.

Lemma face_area_convex : forall vs, (2 <= length vs)%nat -> convex_ring vs ->
  exists A c, face_area RA (closed vs) = Ok (A, c, AntiClockwise) /\ A = Rmax (shoelace (closed vs)) small.
Proof.
  intros vs HL HC. destruct (face_area_value vs HL) as [c [E _]].
  assert (P : 0 < shoelace (closed vs)) by (apply convex_positive; [intros ->; cbn in HL; lia|exact HC]).
  rewrite E. destruct (Rlt_dec 0 (shoelace (closed vs))); [|lra]. rewrite Rabs_pos_eq by lra. eauto.
Qed.
Lemma signed_area_signs : forall vs,
  (forall u v, vs = u ++ v -> signed_area RA (closed (v ++ u)) = signed_area RA (closed vs)) /\
  (forall t, signed_area RA (closed (map (translate t) vs)) = signed_area RA (closed vs)) /\
  (forall ws, rev (closed vs) = closed ws -> signed_area RA (closed ws) = (- signed_area RA (closed vs))%R).
Proof.
  intro vs. split; [|split].
  - intros u v ->. rewrite !signed_area_shoelace. apply shoelace_rotate.
  - intro t. rewrite !signed_area_shoelace. apply shoelace_translate.
  - intros ws E. rewrite !signed_area_shoelace. rewrite <- E. apply shoelace_rev.
Qed.

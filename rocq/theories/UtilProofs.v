(** Proofs about UtilModel. *)
From Coq Require Import Permutation Sorted.
From Verif Require Import Base BaseLemmas UtilModel UtilSpec.

(** *** Circular indices *)
Lemma next_forward_ok i n : i < n -> next_forward i n = Ok ((i + 1) mod n).
Proof.
  intros H. unfold next_forward. rewrite (proj2 (Nat.eqb_neq n 0)), (proj2 (Nat.leb_gt n i)) by lia.
  destruct (Nat.eqb_spec i (n - 1)) as [->|Hn].
  - replace (n - 1 + 1) with n by lia. rewrite Nat.mod_same by lia. reflexivity.
  - rewrite Nat.mod_small by lia. reflexivity.
Qed.

Lemma next_backward_ok i n : i < n -> next_backward i n = Ok ((i + (n - 1)) mod n).
Proof.
  intros H. unfold next_backward. rewrite (proj2 (Nat.eqb_neq n 0)), (proj2 (Nat.leb_gt n i)) by lia.
  destruct (Nat.eqb_spec i 0) as [->|Hn].
  - rewrite Nat.mod_small by lia. reflexivity.
  - replace (i + (n - 1)) with (i - 1 + 1 * n) by lia. rewrite Nat.mod_add, Nat.mod_small by lia. reflexivity.
Qed.

Lemma next_out i n : n <= i -> next_forward i n = Throw ConstraintErr /\ next_backward i n = Throw ConstraintErr.
Proof.
  intros H. unfold next_forward, next_backward. destruct (n =? 0); [auto|]. rewrite (proj2 (Nat.leb_le n i)) by lia. auto.
Qed.

Lemma circular_spec n i :
  (i < n -> exists f b, next_forward i n = Ok f /\ next_backward i n = Ok b /\ f < n /\ b < n /\
                        next_backward f n = Ok i /\ next_forward b n = Ok i) /\
  (n <= i -> next_forward i n = Throw ConstraintErr /\ next_backward i n = Throw ConstraintErr).
Proof.
  split; [|apply next_out]. intros H. exists ((i + 1) mod n), ((i + (n - 1)) mod n).
  assert (Hf : (i + 1) mod n < n) by (apply Nat.mod_upper_bound; lia).
  assert (Hb : (i + (n - 1)) mod n < n) by (apply Nat.mod_upper_bound; lia).
  rewrite next_forward_ok, next_backward_ok, (next_backward_ok _ n Hf), (next_forward_ok _ n Hb) by lia.
  repeat split; auto; f_equal; rewrite Nat.add_mod_idemp_l by lia.
  - replace (i + 1 + (n - 1)) with (i + 1 * n) by lia. rewrite Nat.mod_add, Nat.mod_small by lia. reflexivity.
  - replace (i + (n - 1) + 1) with (i + 1 * n) by lia. rewrite Nat.mod_add, Nat.mod_small by lia. reflexivity.
Qed.

Lemma forward_times_ok k : forall i n, i < n -> forward_times k i n = Ok ((i + k) mod n).
Proof.
  induction k as [|k IH]; intros i n H; cbn [forward_times].
  - rewrite Nat.add_0_r, Nat.mod_small by lia. reflexivity.
  - rewrite next_forward_ok by exact H. cbn [bind].
    rewrite IH by (apply Nat.mod_upper_bound; lia). rewrite Nat.add_mod_idemp_l by lia. do 2 f_equal. lia.
Qed.

Lemma rotate_is_next i n fw : rotate_index i n fw = if fw then next_forward i n else next_backward i n.
Proof. unfold rotate_index, next_forward, next_backward. destruct (n =? 0), (n <=? i), fw; reflexivity. Qed.

Lemma round_trip i n : i < n ->
  forward_times n i n = Ok i /\ forall k, 0 < k < n -> forward_times k i n <> Ok i.
Proof.
  intros H. rewrite forward_times_ok by exact H. split.
  - replace (i + n) with (i + 1 * n) by lia. rewrite Nat.mod_add, Nat.mod_small by lia. reflexivity.
  - intros k Hk. rewrite forward_times_ok by exact H. intros Heq. injection Heq as Heq.
    destruct (Nat.lt_ge_cases (i + k) n) as [Hl|Hl].
    + rewrite Nat.mod_small in Heq by lia. lia.
    + replace (i + k) with (i + k - n + 1 * n) in Heq by lia. rewrite Nat.mod_add, Nat.mod_small in Heq by lia. lia.
Qed.

Lemma find_index_spec {A} (eqb : A -> A -> bool) l el :
  match find_index eqb l el with
  | Some n => (exists a, nth_error l n = Some a /\ eqb a el = true) /\
              forall k a, k < n -> nth_error l k = Some a -> eqb a el = false
  | None => forall a, In a l -> eqb a el = false
  end.
Proof.
  induction l as [|a t IH]; cbn.
  - intros a [].
  - destruct (eqb a el) eqn:E.
    + split; [eexists; split; [reflexivity|exact E]|]. intros k x Hk. lia.
    + destruct (find_index eqb t el) as [n|].
      * destruct IH as [H1 H2]. split; [exact H1|]. intros [|k] x Hk Hx; [cbn in Hx; congruence|].
        eapply H2; [|exact Hx]. lia.
      * intros x [<-|Hx]; auto.
Qed.

Lemma find_around {A} (l : list A) i :
  match l with
  | [] => find_next l i = None /\ find_previous l i = None
  | _ => i < length l -> exists f b, find_next l i = Some f /\ find_previous l i = Some b /\
           next_forward i (length l) = Ok f /\ next_backward i (length l) = Ok b
  end.
Proof.
  destruct l as [|a t]; [split; reflexivity|]. intros Hi. unfold find_next, find_previous, next_forward, next_backward.
  destruct (length (a :: t) =? 0) eqn:E; [apply Nat.eqb_eq in E; lia|].
  destruct (length (a :: t) <=? i) eqn:F; [apply Nat.leb_le in F; lia|]. eexists _, _. repeat split; reflexivity.
Qed.

(** *** Matrices *)
Section MatrixProofs.
  Context {T : Type}.
  Implicit Types m : matrix T.

  Lemma put_same (f : nat -> nat -> T) i j v : put_entry f i j v i j = v.
  Proof. unfold put_entry. rewrite !Nat.eqb_refl. reflexivity. Qed.
  Lemma put_other (f : nat -> nat -> T) i j v a b : (a, b) <> (i, j) -> put_entry f i j v a b = f a b.
  Proof. intros H. unfold put_entry. destruct (Nat.eqb_spec a i), (Nat.eqb_spec b j); cbn; try reflexivity. subst. congruence. Qed.

  Lemma fold_copy (src dst : nat * nat -> nat * nat) L : forall f : nat -> nat -> T,
    ForallOrdPairs (fun x y => dst x <> src y) L -> NoDup (map dst L) ->
    let f' := fold_left (fun f x => put_entry f (fst (dst x)) (snd (dst x)) (f (fst (src x)) (snd (src x)))) L f in
    (forall x, In x L -> f' (fst (dst x)) (snd (dst x)) = f (fst (src x)) (snd (src x))) /\
    (forall a b, ~ In (a, b) (map dst L) -> f' a b = f a b).
  Proof.
    induction L as [|x L IH]; cbn; intros f Hord Hnd; [split; [intros x []|reflexivity]|].
    inversion Hord as [|? ? Hx Hord']; subst. inversion Hnd as [|? ? Hnin Hnd']; subst.
    specialize (IH (put_entry f (fst (dst x)) (snd (dst x)) (f (fst (src x)) (snd (src x)))) Hord' Hnd').
    cbn in IH. destruct IH as [H1 H2]. split.
    - intros y [->|Hy].
      + rewrite H2; [apply put_same|]. now rewrite <- surjective_pairing.
      + rewrite H1 by exact Hy. apply put_other. rewrite <- !surjective_pairing. rewrite Forall_forall in Hx.
        intros E. apply (Hx y Hy). symmetry. exact E.
    - intros a b Hab. rewrite H2 by tauto. apply put_other. rewrite <- surjective_pairing. intros E. apply Hab. left. auto.
  Qed.

  Lemma fold_write (dst : nat * nat -> nat * nat) (v : nat * nat -> T) L : forall f : nat -> nat -> T,
    NoDup (map dst L) ->
    let f' := fold_left (fun f x => put_entry f (fst (dst x)) (snd (dst x)) (v x)) L f in
    (forall x, In x L -> f' (fst (dst x)) (snd (dst x)) = v x) /\
    (forall a b, ~ In (a, b) (map dst L) -> f' a b = f a b).
  Proof.
    induction L as [|x L IH]; cbn; intros f Hnd; [split; [intros x []|reflexivity]|].
    inversion Hnd as [|? ? Hnin Hnd']; subst.
    specialize (IH (put_entry f (fst (dst x)) (snd (dst x)) (v x)) Hnd'). cbn in IH. destruct IH as [H1 H2]. split.
    - intros y [->|Hy]; [|now apply H1]. rewrite H2; [apply put_same|]. now rewrite <- surjective_pairing.
    - intros a b Hab. rewrite H2 by tauto. apply put_other. rewrite <- surjective_pairing. intros E. apply Hab. left. auto.
  Qed.

  Lemma ford_app {A} (R : A -> A -> Prop) l1 l2 :
    ForallOrdPairs R l1 -> ForallOrdPairs R l2 -> (forall x y, In x l1 -> In y l2 -> R x y) -> ForallOrdPairs R (l1 ++ l2).
  Proof.
    induction 1 as [|a l Ha Hl IH]; cbn; intros H2 H; [exact H2|]. constructor.
    - apply Forall_app. split; [exact Ha|]. apply Forall_forall. intros y Hy. apply H; auto.
    - apply IH; auto.
  Qed.

  Definition lex (x y : nat * nat) : Prop := fst x < fst y \/ (fst x = fst y /\ snd x < snd y).

  Lemma ford_seq n : forall a, ForallOrdPairs lt (seq a n).
  Proof.
    induction n as [|n IH]; intros a; cbn; constructor; [|apply IH].
    apply Forall_forall. intros y Hy. apply in_seq in Hy. lia.
  Qed.

  Lemma ford_map {A B} (g : A -> B) (R : B -> B -> Prop) l :
    ForallOrdPairs (fun x y => R (g x) (g y)) l -> ForallOrdPairs R (map g l).
  Proof.
    induction 1 as [|a l Ha Hl IH]; cbn; constructor; auto. apply Forall_map. exact Ha.
  Qed.

  Lemma ford_impl {A} (R R' : A -> A -> Prop) l :
    (forall x y, In x l -> In y l -> R x y -> R' x y) -> ForallOrdPairs R l -> ForallOrdPairs R' l.
  Proof.
    intros H Hf. induction Hf as [|a l Ha Hl IH]; constructor.
    - rewrite Forall_forall in *. intros y Hy. apply H; [left; reflexivity|right; exact Hy|]. auto.
    - apply IH. intros x y Hx Hy. apply H; right; auto.
  Qed.

  Lemma ford_prod h w : forall a, ForallOrdPairs lex (list_prod (seq a h) (seq 0 w)).
  Proof.
    induction h as [|h IH]; intros a; cbn; [constructor|]. apply ford_app; [|apply IH|].
    - apply ford_map. eapply ford_impl; [|apply ford_seq]. intros x y _ _ Hxy. right. cbn. auto.
    - intros x y Hx Hy. apply in_map_iff in Hx. destruct Hx as (j & <- & Hj). destruct y as [y1 y2].
      apply in_prod_iff in Hy. destruct Hy as [Hy _]. apply in_seq in Hy. left. cbn. lia.
  Qed.

  Lemma ford_nodup {A} (R : A -> A -> Prop) l : (forall x, ~ R x x) -> ForallOrdPairs R l -> NoDup l.
  Proof.
    intros Hirr. induction 1 as [|a l Ha Hl IH]; constructor; auto. intros Hin. rewrite Forall_forall in Ha. apply (Hirr a). auto.
  Qed.

  Lemma nodup_dst r c h w :
    NoDup (map (fun ij : nat * nat => (r + fst ij, c + snd ij)) (list_prod (seq 0 h) (seq 0 w))).
  Proof.
    eapply (ford_nodup lex); [intros x [H|[_ H]]; lia|]. apply ford_map. eapply ford_impl; [|apply ford_prod].
    intros x y _ _ [H|[H1 H2]]; [left|right]; cbn; lia.
  Qed.

  Lemma in_dst r c h w a b :
    In (a, b) (map (fun ij : nat * nat => (r + fst ij, c + snd ij)) (list_prod (seq 0 h) (seq 0 w))) <->
    r <= a < r + h /\ c <= b < c + w.
  Proof.
    rewrite in_map_iff. split.
    - intros ([i j] & H & Hin). injection H as <- <-. apply in_prod_iff in Hin. rewrite !in_seq in Hin. cbn. lia.
    - intros H. exists (a - r, b - c). split; [cbn; f_equal; lia|]. apply in_prod_iff. rewrite !in_seq. lia.
  Qed.

  Lemma copy_block_spec (f : nat -> nat -> T) r c r0 c0 h w a b : r <= r0 -> c <= c0 ->
    copy_block f r c r0 c0 h w a b =
    if (r <=? a) && (a <? r + h) && (c <=? b) && (b <? c + w) then f (r0 + (a - r)) (c0 + (b - c)) else f a b.
  Proof.
    intros Hr Hc.
    destruct (fold_copy (fun ij => (r0 + fst ij, c0 + snd ij)) (fun ij => (r + fst ij, c + snd ij))
                (list_prod (seq 0 h) (seq 0 w)) f) as [H1 H2].
    - eapply ford_impl; [|apply ford_prod]. intros x y _ _ [H|[H3 H4]] E; injection E as E1 E2; lia.
    - apply nodup_dst.
    - cbn in H1, H2. unfold copy_block.
      destruct (Nat.leb_spec r a), (Nat.ltb_spec a (r + h)), (Nat.leb_spec c b), (Nat.ltb_spec b (c + w)); cbn;
        try (apply H2; rewrite in_dst; lia).
      specialize (H1 (a - r, b - c)). cbn in H1. replace (r + (a - r)) with a in H1 by lia. replace (c + (b - c)) with b in H1 by lia.
      apply H1. apply in_prod_iff. rewrite !in_seq. lia.
  Qed.

  Lemma write_block_spec (f : nat -> nat -> T) r c h w v a b :
    write_block f r c h w v a b =
    if (r <=? a) && (a <? r + h) && (c <=? b) && (b <? c + w) then v (a - r) (b - c) else f a b.
  Proof.
    destruct (fold_write (fun ij => (r + fst ij, c + snd ij)) (fun ij => v (fst ij) (snd ij))
                (list_prod (seq 0 h) (seq 0 w)) f) as [H1 H2]; [apply nodup_dst|].
    cbn in H1, H2. unfold write_block.
    destruct (Nat.leb_spec r a), (Nat.ltb_spec a (r + h)), (Nat.leb_spec c b), (Nat.ltb_spec b (c + w)); cbn;
      try (apply H2; rewrite in_dst; lia).
    specialize (H1 (a - r, b - c)). cbn in H1. replace (r + (a - r)) with a in H1 by lia. replace (c + (b - c)) with b in H1 by lia.
    apply H1. apply in_prod_iff. rewrite !in_seq. lia.
  Qed.

  Ltac tests := repeat match goal with
    | |- context [Nat.leb ?a ?b] => destruct (Nat.leb_spec a b); try (exfalso; lia); cbn [andb orb negb]
    | |- context [Nat.ltb ?a ?b] => destruct (Nat.ltb_spec a b); try (exfalso; lia); cbn [andb orb negb]
    | |- context [Nat.eqb ?a ?b] => destruct (Nat.eqb_spec a b); try (exfalso; lia); cbn [andb orb negb]
    end.

  Lemma erase_rows_spec junk m b e :
    ((0 <= b <= e)%Z /\ (e < Z.of_nat (mrows m))%Z ->
       exists m', erase_rows junk m b e = Ok m' /\
         Z.of_nat (mrows m') = (Z.of_nat (mrows m) - (e - b + 1))%Z /\ mcols m' = mcols m /\
         forall i j, i < mrows m' -> j < mcols m' ->
           entry m' i j = entry m (if (Z.of_nat i <? b)%Z then i else i + Z.to_nat (e - b + 1)) j) /\
    (~ ((0 <= b <= e)%Z /\ (e < Z.of_nat (mrows m))%Z) -> erase_rows junk m b e = Throw LinearAlgebraErr).
  Proof.
    unfold erase_rows.
    destruct (Z.ltb_spec b 0), (Z.ltb_spec e b), (Z.ltb_spec (Z.of_nat (mrows m) - 1) e); cbn [orb]; split; intros Hh;
      try lia; try reflexivity.
    eexists. split; [reflexivity|]. cbn [conservative_resize mrows mcols entry]. repeat split; [lia|].
    intros i j Hi Hj. destruct (Z.ltb_spec (Z.of_nat i) b); rewrite copy_block_spec by lia; tests; f_equal; lia.
  Qed.

  Lemma erase_cols_spec junk m b e :
    ((0 <= b <= e)%Z /\ (e < Z.of_nat (mcols m))%Z ->
       exists m', erase_cols junk m b e = Ok m' /\
         Z.of_nat (mcols m') = (Z.of_nat (mcols m) - (e - b + 1))%Z /\ mrows m' = mrows m /\
         forall i j, i < mrows m' -> j < mcols m' ->
           entry m' i j = entry m i (if (Z.of_nat j <? b)%Z then j else j + Z.to_nat (e - b + 1))) /\
    (~ ((0 <= b <= e)%Z /\ (e < Z.of_nat (mcols m))%Z) -> erase_cols junk m b e = Throw LinearAlgebraErr).
  Proof.
    unfold erase_cols.
    destruct (Z.ltb_spec b 0), (Z.ltb_spec e b), (Z.ltb_spec (Z.of_nat (mcols m) - 1) e); cbn [orb]; split; intros Hh;
      try lia; try reflexivity.
    eexists. split; [reflexivity|]. cbn [conservative_resize mrows mcols entry]. repeat split; [lia|].
    intros i j Hi Hj. destruct (Z.ltb_spec (Z.of_nat j) b); rewrite copy_block_spec by lia; tests; f_equal; lia.
  Qed.

  Lemma insert_row_spec junk m v d row :
    ((0 <= row <= Z.of_nat (mrows m))%Z -> length v = mcols m ->
       exists m', insert_row junk m v d row = Ok m' /\ mrows m' = S (mrows m) /\ mcols m' = mcols m /\
         forall i j, i < mrows m' -> j < mcols m' ->
           entry m' i j = match (Z.of_nat i ?= row)%Z with Lt => entry m i j | Eq => nth j v d | Gt => entry m (i - 1) j end) /\
    (~ (0 <= row <= Z.of_nat (mrows m))%Z -> insert_row junk m v d row = Throw LinearAlgebraErr).
  Proof.
    unfold insert_row.
    destruct (Z.ltb_spec row 0), (Z.ltb_spec (Z.of_nat (mrows m)) row); cbn [orb]; split; intros Hh; try lia; try reflexivity.
    intros Hv. rewrite Hv, Nat.eqb_refl.
    eexists. split; [reflexivity|]. cbn [conservative_resize mrows mcols entry]. repeat split; [lia|].
    intros i j Hi Hj. destruct (Z.compare_spec (Z.of_nat i) row); rewrite write_block_spec; tests; try rewrite write_block_spec; tests; f_equal; lia.
  Qed.

  Lemma insert_col_spec junk m v d col :
    ((0 <= col <= Z.of_nat (mcols m))%Z -> length v = mrows m ->
       exists m', insert_col junk m v d col = Ok m' /\ mcols m' = S (mcols m) /\ mrows m' = mrows m /\
         forall i j, i < mrows m' -> j < mcols m' ->
           entry m' i j = match (Z.of_nat j ?= col)%Z with Lt => entry m i j | Eq => nth i v d | Gt => entry m i (j - 1) end) /\
    (~ (0 <= col <= Z.of_nat (mcols m))%Z -> insert_col junk m v d col = Throw LinearAlgebraErr).
  Proof.
    unfold insert_col.
    destruct (Z.ltb_spec col 0), (Z.ltb_spec (Z.of_nat (mcols m)) col); cbn [orb]; split; intros Hh; try lia; try reflexivity.
    intros Hv. rewrite Hv, Nat.eqb_refl.
    eexists. split; [reflexivity|]. cbn [conservative_resize mrows mcols entry]. repeat split; [lia|].
    intros i j Hi Hj. destruct (Z.compare_spec (Z.of_nat j) col); rewrite write_block_spec; tests; try rewrite write_block_spec; tests; f_equal; lia.
  Qed.

  Lemma erase_inserted_row junk junk' m v d row m1 :
    insert_row junk m v d row = Ok m1 -> exists m2, erase_rows junk' m1 row row = Ok m2 /\ same_matrix m2 m.
  Proof.
    intros Hins. destruct (insert_row_spec junk m v d row) as [H1 H2].
    destruct (Z_lt_dec row 0) as [Hr|Hr]; [rewrite H2 in Hins by lia; discriminate|].
    destruct (Z_lt_dec (Z.of_nat (mrows m)) row) as [Hr'|Hr']; [rewrite H2 in Hins by lia; discriminate|].
    assert (Hv : length v = mcols m).
    { unfold insert_row in Hins. destruct (_ || _); [discriminate|]. destruct (Nat.eqb_spec (length v) (mcols m)); [auto|discriminate]. }
    destruct (H1 ltac:(lia) Hv) as (m1' & Heq & Hrows & Hcols & Hent). rewrite Hins in Heq. injection Heq as <-.
    destruct (erase_rows_spec junk' m1 row row) as [H3 _]. destruct H3 as (m2 & He & Hr2 & Hc2 & Hent2); [lia|].
    exists m2. split; [exact He|]. split; [lia|]. split; [lia|]. intros i j Hi Hj. rewrite Hent2 by assumption.
    destruct (Z.ltb_spec (Z.of_nat i) row).
    - rewrite Hent by lia. destruct (Z.compare_spec (Z.of_nat i) row); try lia. reflexivity.
    - rewrite Hent by lia. destruct (Z.compare_spec (Z.of_nat (i + Z.to_nat (row - row + 1))) row); try lia. f_equal. lia.
  Qed.

  Lemma erase_inserted_col junk junk' m v d col m1 :
    insert_col junk m v d col = Ok m1 -> exists m2, erase_cols junk' m1 col col = Ok m2 /\ same_matrix m2 m.
  Proof.
    intros Hins. destruct (insert_col_spec junk m v d col) as [H1 H2].
    destruct (Z_lt_dec col 0) as [Hr|Hr]; [rewrite H2 in Hins by lia; discriminate|].
    destruct (Z_lt_dec (Z.of_nat (mcols m)) col) as [Hr'|Hr']; [rewrite H2 in Hins by lia; discriminate|].
    assert (Hv : length v = mrows m).
    { unfold insert_col in Hins. destruct (_ || _); [discriminate|]. destruct (Nat.eqb_spec (length v) (mrows m)); [auto|discriminate]. }
    destruct (H1 ltac:(lia) Hv) as (m1' & Heq & Hcols & Hrows & Hent). rewrite Hins in Heq. injection Heq as <-.
    destruct (erase_cols_spec junk' m1 col col) as [H3 _]. destruct H3 as (m2 & He & Hc2 & Hr2 & Hent2); [lia|].
    exists m2. split; [exact He|]. split; [lia|]. split; [lia|]. intros i j Hi Hj. rewrite Hent2 by assumption.
    destruct (Z.ltb_spec (Z.of_nat j) col).
    - rewrite Hent by lia. destruct (Z.compare_spec (Z.of_nat j) col); try lia. reflexivity.
    - rewrite Hent by lia. destruct (Z.compare_spec (Z.of_nat (j + Z.to_nat (col - col + 1))) col); try lia. f_equal. lia.
  Qed.

  Lemma fold_swap_rows a b L : a <> b -> NoDup L -> forall (f : nat -> nat -> T) x y,
    fold_left (fun f j => let v := f a j in put_entry (put_entry f a j (f b j)) b j v) L f x y =
    if in_dec Nat.eq_dec y L then f (if x =? a then b else if x =? b then a else x) y else f x y.
  Proof.
    intros Hab. induction L as [|k L IH]; intros Hnd f x y; [reflexivity|].
    inversion Hnd as [|? ? Hnin Hnd']; subst. cbn [fold_left]. rewrite IH by exact Hnd'. clear IH.
    destruct (in_dec Nat.eq_dec y (k :: L)) as [Hin|Hin], (in_dec Nat.eq_dec y L) as [Hin'|Hin']; cbn in Hin; try tauto.
    - assert (y <> k) by (intros ->; tauto). rewrite !put_other by congruence. reflexivity.
    - destruct Hin as [<-|Hin]; [|tauto]. unfold put_entry. rewrite !Nat.eqb_refl, !Bool.andb_true_r.
      destruct (Nat.eqb_spec x a), (Nat.eqb_spec x b), (Nat.eqb_spec b a), (Nat.eqb_spec a b); subst; try congruence.
    - assert (y <> k) by (intros ->; tauto). rewrite !put_other by congruence. reflexivity.
  Qed.

  Lemma fold_swap_cols a b L : a <> b -> NoDup L -> forall (f : nat -> nat -> T) x y,
    fold_left (fun f i => let v := f i a in put_entry (put_entry f i a (f i b)) i b v) L f x y =
    if in_dec Nat.eq_dec x L then f x (if y =? a then b else if y =? b then a else y) else f x y.
  Proof.
    intros Hab. induction L as [|k L IH]; intros Hnd f x y; [reflexivity|].
    inversion Hnd as [|? ? Hnin Hnd']; subst. cbn [fold_left]. rewrite IH by exact Hnd'. clear IH.
    destruct (in_dec Nat.eq_dec x (k :: L)) as [Hin|Hin], (in_dec Nat.eq_dec x L) as [Hin'|Hin']; cbn in Hin; try tauto.
    - assert (x <> k) by (intros ->; tauto). rewrite !put_other by congruence. reflexivity.
    - destruct Hin as [<-|Hin]; [|tauto]. unfold put_entry. rewrite !Nat.eqb_refl. cbn [andb].
      destruct (Nat.eqb_spec y a), (Nat.eqb_spec y b), (Nat.eqb_spec b a), (Nat.eqb_spec a b); subst; try congruence.
    - assert (x <> k) by (intros ->; tauto). rewrite !put_other by congruence. reflexivity.
  Qed.

  Lemma swap_rows_spec m a b :
    ((0 <= a < Z.of_nat (mrows m))%Z /\ (0 <= b < Z.of_nat (mrows m))%Z ->
       exists m', swap_rows m a b = Ok m' /\ mrows m' = mrows m /\ mcols m' = mcols m /\
         forall i j, i < mrows m' -> j < mcols m' ->
           entry m' i j = entry m (if (Z.of_nat i =? a)%Z then Z.to_nat b else if (Z.of_nat i =? b)%Z then Z.to_nat a else i) j) /\
    (~ ((0 <= a < Z.of_nat (mrows m))%Z /\ (0 <= b < Z.of_nat (mrows m))%Z) -> swap_rows m a b = Throw LinearAlgebraErr).
  Proof.
    unfold swap_rows.
    destruct (Z.ltb_spec a 0), (Z.ltb_spec (Z.of_nat (mrows m) - 1) a), (Z.ltb_spec b 0), (Z.ltb_spec (Z.of_nat (mrows m) - 1) b);
      cbn [orb]; split; intros Hh; try lia; try reflexivity.
    destruct (Nat.eqb_spec (Z.to_nat a) (Z.to_nat b)) as [Hab|Hab]; eexists; (split; [reflexivity|]); repeat split.
    - intros i j Hi Hj. destruct (Z.eqb_spec (Z.of_nat i) a); [f_equal; lia|]. destruct (Z.eqb_spec (Z.of_nat i) b); [f_equal; lia|reflexivity].
    - cbn [entry mrows mcols]. intros i j Hi Hj. rewrite fold_swap_rows by (auto using seq_NoDup).
      destruct (in_dec Nat.eq_dec j (seq 0 (mcols m))) as [_|Hn]; [|exfalso; apply Hn, in_seq; lia]. f_equal.
      destruct (Nat.eqb_spec i (Z.to_nat a)), (Z.eqb_spec (Z.of_nat i) a); try lia.
      destruct (Nat.eqb_spec i (Z.to_nat b)), (Z.eqb_spec (Z.of_nat i) b); lia.
  Qed.

  Lemma swap_cols_spec m a b :
    ((0 <= a < Z.of_nat (mcols m))%Z /\ (0 <= b < Z.of_nat (mcols m))%Z ->
       exists m', swap_cols m a b = Ok m' /\ mrows m' = mrows m /\ mcols m' = mcols m /\
         forall i j, i < mrows m' -> j < mcols m' ->
           entry m' i j = entry m i (if (Z.of_nat j =? a)%Z then Z.to_nat b else if (Z.of_nat j =? b)%Z then Z.to_nat a else j)) /\
    (~ ((0 <= a < Z.of_nat (mcols m))%Z /\ (0 <= b < Z.of_nat (mcols m))%Z) -> swap_cols m a b = Throw LinearAlgebraErr).
  Proof.
    unfold swap_cols.
    destruct (Z.ltb_spec a 0), (Z.ltb_spec (Z.of_nat (mcols m) - 1) a), (Z.ltb_spec b 0), (Z.ltb_spec (Z.of_nat (mcols m) - 1) b);
      cbn [orb]; split; intros Hh; try lia; try reflexivity.
    destruct (Nat.eqb_spec (Z.to_nat a) (Z.to_nat b)) as [Hab|Hab]; eexists; (split; [reflexivity|]); repeat split.
    - intros i j Hi Hj. destruct (Z.eqb_spec (Z.of_nat j) a); [f_equal; lia|]. destruct (Z.eqb_spec (Z.of_nat j) b); [f_equal; lia|reflexivity].
    - cbn [entry mrows mcols]. intros i j Hi Hj. rewrite fold_swap_cols by (auto using seq_NoDup).
      destruct (in_dec Nat.eq_dec i (seq 0 (mrows m))) as [_|Hn]; [|exfalso; apply Hn, in_seq; lia]. f_equal.
      destruct (Nat.eqb_spec j (Z.to_nat a)), (Z.eqb_spec (Z.of_nat j) a); try lia.
      destruct (Nat.eqb_spec j (Z.to_nat b)), (Z.eqb_spec (Z.of_nat j) b); lia.
  Qed.

  Lemma swap_twice m a b :
    (forall m1, swap_rows m a b = Ok m1 -> exists m2, swap_rows m1 a b = Ok m2 /\ same_matrix m2 m) /\
    (forall m1, swap_cols m a b = Ok m1 -> exists m2, swap_cols m1 a b = Ok m2 /\ same_matrix m2 m).
  Proof.
    split; intros m1 H.
    - destruct (swap_rows_spec m a b) as [H1 H2].
      assert (Hr : (0 <= a < Z.of_nat (mrows m))%Z /\ (0 <= b < Z.of_nat (mrows m))%Z).
      { destruct (Z_lt_dec a 0), (Z_lt_dec a (Z.of_nat (mrows m))), (Z_lt_dec b 0), (Z_lt_dec b (Z.of_nat (mrows m))); try lia;
          rewrite H2 in H by lia; discriminate. }
      destruct (H1 Hr) as (m1' & He & Hrow & Hcol & Hent). rewrite H in He. injection He as <-.
      destruct (swap_rows_spec m1 a b) as [H3 _]. destruct H3 as (m2 & He2 & Hrow2 & Hcol2 & Hent2); [lia|].
      exists m2. split; [exact He2|]. split; [lia|]. split; [lia|]. intros i j Hi Hj. rewrite Hent2 by assumption.
      destruct (Z.eqb_spec (Z.of_nat i) a); [|destruct (Z.eqb_spec (Z.of_nat i) b)]; rewrite Hent by lia.
      + destruct (Z.eqb_spec (Z.of_nat (Z.to_nat b)) a); [f_equal; lia|].
        destruct (Z.eqb_spec (Z.of_nat (Z.to_nat b)) b); [f_equal; lia|lia].
      + destruct (Z.eqb_spec (Z.of_nat (Z.to_nat a)) a); [f_equal; lia|lia].
      + destruct (Z.eqb_spec (Z.of_nat i) a); [lia|]. destruct (Z.eqb_spec (Z.of_nat i) b); [lia|reflexivity].
    - destruct (swap_cols_spec m a b) as [H1 H2].
      assert (Hr : (0 <= a < Z.of_nat (mcols m))%Z /\ (0 <= b < Z.of_nat (mcols m))%Z).
      { destruct (Z_lt_dec a 0), (Z_lt_dec a (Z.of_nat (mcols m))), (Z_lt_dec b 0), (Z_lt_dec b (Z.of_nat (mcols m))); try lia;
          rewrite H2 in H by lia; discriminate. }
      destruct (H1 Hr) as (m1' & He & Hrow & Hcol & Hent). rewrite H in He. injection He as <-.
      destruct (swap_cols_spec m1 a b) as [H3 _]. destruct H3 as (m2 & He2 & Hrow2 & Hcol2 & Hent2); [lia|].
      exists m2. split; [exact He2|]. split; [lia|]. split; [lia|]. intros i j Hi Hj. rewrite Hent2 by assumption.
      destruct (Z.eqb_spec (Z.of_nat j) a); [|destruct (Z.eqb_spec (Z.of_nat j) b)]; rewrite Hent by lia.
      + destruct (Z.eqb_spec (Z.of_nat (Z.to_nat b)) a); [f_equal; lia|].
        destruct (Z.eqb_spec (Z.of_nat (Z.to_nat b)) b); [f_equal; lia|lia].
      + destruct (Z.eqb_spec (Z.of_nat (Z.to_nat a)) a); [f_equal; lia|lia].
      + destruct (Z.eqb_spec (Z.of_nat j) a); [lia|]. destruct (Z.eqb_spec (Z.of_nat j) b); [lia|reflexivity].
  Qed.

  Lemma resize_spec junk m rows cols preserve fill :
    (0 <= rows)%Z -> (0 <= cols)%Z ->
    (preserve = true -> (cols > Z.of_nat (mcols m))%Z -> (Z.of_nat (mrows m) <= rows)%Z) ->
    exists m' resized, resize_and_fill junk m rows cols preserve fill = Ok (m', resized) /\
      Z.of_nat (mrows m') = rows /\ Z.of_nat (mcols m') = cols /\
      (resized = false <-> rows = Z.of_nat (mrows m) /\ cols = Z.of_nat (mcols m)) /\
      forall i j, i < mrows m' -> j < mcols m' ->
        entry m' i j = if preserve && (i <? mrows m) && (j <? mcols m) then entry m i j else fill.
  Proof.
    intros Hr Hc Hpre. unfold resize_and_fill.
    destruct (Z.ltb_spec rows 0), (Z.ltb_spec cols 0); try lia. cbn [orb].
    destruct preserve; cycle 1.
    { destruct (Nat.eqb_spec (Z.to_nat rows) (mrows m)), (Nat.eqb_spec (Z.to_nat cols) (mcols m)); cbn [negb orb andb];
        eexists; eexists; (split; [reflexivity|]); cbn [mrows mcols entry]; (repeat split; try lia; try congruence). }
    destruct (negb (Z.to_nat rows =? mrows m) || negb (Z.to_nat cols =? mcols m)) eqn:Hres; cbn [negb andb]; cycle 1.
    { apply Bool.orb_false_iff in Hres. destruct Hres as [H1 H2]. apply Bool.negb_false_iff, Nat.eqb_eq in H1, H2.
      eexists; eexists; (split; [reflexivity|]). repeat split; try lia. intros i j Hi Hj.
      rewrite (proj2 (Nat.ltb_lt i _) Hi), (proj2 (Nat.ltb_lt j _) Hj). reflexivity. }
    assert (Hne : ~ (rows = Z.of_nat (mrows m) /\ cols = Z.of_nat (mcols m))).
    { intros [H1 H2]. subst. rewrite !Nat2Z.id, !Nat.eqb_refl in Hres. discriminate. }
    clear Hres.
    destruct (Nat.ltb_spec (mcols m) (Z.to_nat cols)) as [Hcl|Hcl].
    - rewrite (proj2 (Nat.ltb_ge (Z.to_nat rows) (mrows m))) by (specialize (Hpre eq_refl); lia).
      eexists; eexists; (split; [reflexivity|]); cbn [mrows mcols entry].
      split; [lia|]. split; [lia|]. split; [split; [discriminate|tauto]|].
      intros i j Hi Hj. rewrite write_block_spec. cbn [Nat.add Nat.leb andb].
      destruct (Nat.ltb_spec i (mrows m)), (Nat.leb_spec (mcols m) j), (Nat.ltb_spec j (mcols m + (Z.to_nat cols - mcols m)));
        cbn [andb]; try lia; destruct (Nat.ltb_spec (mrows m) (Z.to_nat rows)); try rewrite write_block_spec;
        cbn [entry conservative_resize]; tests; reflexivity.
    - eexists; eexists; (split; [reflexivity|]); cbn [mrows mcols entry].
      split; [lia|]. split; [lia|]. split; [split; [discriminate|tauto]|].
      intros i j Hi Hj. destruct (Nat.ltb_spec (mrows m) (Z.to_nat rows)); try rewrite write_block_spec;
        cbn [entry conservative_resize]; tests; reflexivity.
  Qed.

  Lemma resize_out_of_bounds junk m rows cols fill :
    (0 <= rows)%Z -> (rows < Z.of_nat (mrows m))%Z -> (Z.of_nat (mcols m) < cols)%Z ->
    resize_and_fill junk m rows cols true fill = UB.
  Proof.
    intros H1 H2 H3. unfold resize_and_fill. destruct (Z.ltb_spec rows 0), (Z.ltb_spec cols 0); try lia. cbn [orb].
    destruct (Nat.eqb_spec (Z.to_nat rows) (mrows m)), (Nat.eqb_spec (Z.to_nat cols) (mcols m)); try lia. cbn [negb orb andb].
    rewrite (proj2 (Nat.ltb_lt (mcols m) (Z.to_nat cols))), (proj2 (Nat.ltb_lt (Z.to_nat rows) (mrows m))) by lia. reflexivity.
  Qed.
End MatrixProofs.

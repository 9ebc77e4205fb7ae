(** Facts about the vocabulary of [Base]. *)
From Verif Require Import Base.

Lemma bind_ok_inv {A B} (x : outcome A) (f : A -> outcome B) b :
  bind x f = Ok b -> exists a, x = Ok a /\ f a = Ok b.
Proof. destruct x as [a|e|]; cbn; intros H; try discriminate. eauto. Qed.

Lemma vget_ok {A} (l : list A) i a : vget l i = Ok a <-> nth_error l i = Some a.
Proof. unfold vget. destruct (nth_error l i); split; congruence. Qed.

Lemma vget_lt {A} (l : list A) i : i < length l -> exists a, vget l i = Ok a.
Proof.
  intros H. unfold vget. destruct (nth_error l i) eqn:E; eauto.
  apply nth_error_None in E. lia.
Qed.

Lemma vget_ub {A} (l : list A) i : vget l i = UB <-> length l <= i.
Proof.
  unfold vget. destruct (nth_error l i) eqn:E; split; try discriminate; intros H.
  - assert (nth_error l i <> None) as Hn by congruence. apply nth_error_Some in Hn. lia.
  - apply nth_error_None; assumption.
  - reflexivity.
Qed.

Lemma set_nth_length {A} i (a : A) l : length (set_nth i a l) = length l.
Proof. revert i; induction l as [|h t IH]; intros [|i]; cbn; auto. Qed.

Lemma nth_error_set_nth {A} i (a : A) l j :
  nth_error (set_nth i a l) j = if (i =? j) && (i <? length l) then Some a else nth_error l j.
Proof.
  revert i j; induction l as [|h t IH]; intros [|i] [|j]; cbn; auto.
  - now rewrite andb_false_r.
  - rewrite IH. reflexivity.
Qed.

Lemma nth_error_set_nth_eq {A} i (a : A) l : i < length l -> nth_error (set_nth i a l) i = Some a.
Proof.
  intros H. rewrite nth_error_set_nth, Nat.eqb_refl.
  apply Nat.ltb_lt in H. rewrite H. reflexivity.
Qed.

Lemma nth_error_set_nth_neq {A} i (a : A) l j : i <> j -> nth_error (set_nth i a l) j = nth_error l j.
Proof.
  intros H. rewrite nth_error_set_nth. apply Nat.eqb_neq in H. rewrite H. reflexivity.
Qed.

Lemma vset_ok {A} i (a : A) l l' : vset i a l = Ok l' <-> i < length l /\ l' = set_nth i a l.
Proof.
  unfold vset. destruct (Nat.ltb_spec i (length l)); split; try discriminate.
  - intros E; inversion E; auto.
  - intros [_ ->]; reflexivity.
  - intros [H1 _]; lia.
Qed.

Lemma vset_lt {A} i (a : A) l : i < length l -> vset i a l = Ok (set_nth i a l).
Proof. intros H. apply vset_ok. auto. Qed.

Lemma set_nth_same {A} i (a : A) l : nth_error l i = Some a -> set_nth i a l = l.
Proof.
  revert i; induction l as [|h t IH]; intros [|i]; cbn; try discriminate.
  - intros E; inversion E; reflexivity.
  - intros E. f_equal. auto.
Qed.

Lemma set_nth_set_nth {A} i (a b : A) l : set_nth i a (set_nth i b l) = set_nth i a l.
Proof. revert i; induction l as [|h t IH]; intros [|i]; cbn; auto. f_equal; auto. Qed.

Lemma set_nth_comm {A} i j (a b : A) l : i <> j -> set_nth i a (set_nth j b l) = set_nth j b (set_nth i a l).
Proof.
  revert i j; induction l as [|h t IH]; intros [|i] [|j] H; cbn; auto; try congruence.
  f_equal. apply IH. lia.
Qed.

Lemma set_nth_app1 {A} i (a : A) l r : i < length l -> set_nth i a (l ++ r) = set_nth i a l ++ r.
Proof.
  revert i; induction l as [|h t IH]; intros [|i] H; cbn in *; try lia; auto.
  f_equal. apply IH. lia.
Qed.

Lemma set_nth_app2 {A} i (a : A) l r : set_nth (length l + i) a (l ++ r) = l ++ set_nth i a r.
Proof. induction l as [|h t IH]; cbn; auto. f_equal; auto. Qed.

Lemma nth_error_ext {A} (l r : list A) : (forall i, nth_error l i = nth_error r i) -> l = r.
Proof.
  revert r; induction l as [|h t IH]; intros [|h' t'] H; auto.
  - specialize (H 0); discriminate.
  - specialize (H 0); discriminate.
  - f_equal.
    + specialize (H 0). cbn in H. congruence.
    + apply IH. intros i. exact (H (S i)).
Qed.

Lemma vresize_length {A} n (d : A) l : length (vresize n d l) = n.
Proof. unfold vresize. rewrite app_length, firstn_length, repeat_length. lia. Qed.

Lemma vresize_same {A} (d : A) l : vresize (length l) d l = l.
Proof. unfold vresize. rewrite firstn_all, Nat.sub_diag. cbn. apply app_nil_r. Qed.

Lemma vresize_grow {A} (d : A) l n : length l <= n -> vresize n d l = l ++ repeat d (n - length l).
Proof. intros H. unfold vresize. rewrite firstn_all2 by lia. reflexivity. Qed.

Lemma fold_out_app {A B} (f : A -> B -> outcome A) l1 l2 a :
  fold_out f (l1 ++ l2) a = bind (fold_out f l1 a) (fold_out f l2).
Proof.
  revert a; induction l1 as [|b t IH]; intros a; cbn; auto.
  destruct (f a b); cbn; auto.
Qed.

(** Invariant rule for loops that may fail. *)
Lemma fold_out_inv {A B} (P : A -> Prop) (f : A -> B -> outcome A) l a a' :
  fold_out f l a = Ok a' ->
  P a ->
  (forall x b x', In b l -> P x -> f x b = Ok x' -> P x') ->
  P a'.
Proof.
  revert a; induction l as [|b t IH]; cbn; intros a H Ha Hs.
  - inversion H; subst; auto.
  - apply bind_ok_inv in H. destruct H as (x & Hx & Ht).
    apply (IH x Ht); [eapply Hs; eauto; left; reflexivity|].
    intros y c y' Hc; eapply Hs. right; assumption.
Qed.

Lemma Ok_inj {A} (a b : A) : Ok a = Ok b -> a = b.
Proof. congruence. Qed.
Lemma Ok_pair_inj {A B} (a c : A) (b d : B) : Ok (a, b) = Ok (c, d) -> a = c /\ b = d.
Proof. intros H; split; congruence. Qed.

(** Injectivity without the simplification done by [inversion]. *)
Ltac ok_inj H :=
  lazymatch type of H with
  | Ok (_, _) = Ok (_, _) => apply Ok_pair_inj in H; let H1 := fresh in let H2 := fresh in destruct H as [H1 H2]; try subst
  | Ok _ = Ok _ => apply Ok_inj in H; try subst
  end.

Lemma nth_error_firstn {A} (l : list A) : forall i k, i < k -> nth_error (firstn k l) i = nth_error l i.
Proof. induction l as [|x l IH]; intros i [|k] H; try lia; destruct i; cbn; auto. apply IH. lia. Qed.

(** Proofs about sorting, reordering and range checks. *)
From Coq Require Import Permutation Sorted Reals Lra.
From Verif Require Import Base BaseLemmas FloatModel FloatReal UtilModel UtilSpec.

Section Sort.
  Context {T : Type}.
  Variable ltb : T -> T -> bool.
  Variable v : list T.
  Hypothesis Hw : strict_weak ltb v.

  Definition before (i j : nat) : Prop :=
    forall a b, nth_error v i = Some a -> nth_error v j = Some b -> ltb b a = false /\ (ltb a b = false -> i < j).

  Lemma insert_index_ok i : forall l,
    i < length v -> Forall (fun j => j < length v) l -> Forall (fun j => i < j) l -> StronglySorted before l ->
    exists l', insert_index ltb v i l = Ok l' /\ StronglySorted before l' /\ Permutation l' (i :: l).
  Proof.
    destruct Hw as [Hasym Hneg].
    induction l as [|j t IH]; intros Hi Hl Hlt Hs; cbn [insert_index].
    - exists [i]. repeat split; auto. repeat constructor.
    - inversion Hl as [|? ? Hj Hl']; subst. inversion Hlt as [|? ? Hij Hlt']; subst. inversion Hs as [|? ? Hs' Hf]; subst.
      destruct (vget_lt v i Hi) as [a Ha]. destruct (vget_lt v j Hj) as [b Hb]. rewrite Ha, Hb. cbn [bind].
      apply vget_ok in Ha, Hb. assert (Ia := nth_error_In _ _ Ha). assert (Ib := nth_error_In _ _ Hb). destruct (ltb b a) eqn:E.
      + destruct (IH Hi Hl' Hlt' Hs') as (t' & Ht & Hst & Hp). rewrite Ht. cbn [bind]. exists (j :: t'). split; [reflexivity|]. split.
        * constructor; [exact Hst|]. apply Forall_forall. intros k Hk. apply (Permutation_in _ Hp) in Hk. destruct Hk as [<-|Hk].
          -- intros x y Hx Hy. assert (x = b) by congruence. assert (y = a) by congruence. subst. split; [auto|congruence].
          -- rewrite Forall_forall in Hf. auto.
        * rewrite Hp. apply perm_swap.
      + exists (i :: j :: t). split; [reflexivity|]. split; [|reflexivity].
        constructor; [exact Hs|]. constructor.
        * intros x y Hx Hy. assert (x = a) by congruence. assert (y = b) by congruence. subst. auto.
        * rewrite Forall_forall in *. intros k Hk x y Hx Hy. assert (x = a) by congruence. subst. split; [|intros _; auto].
          destruct (Hf k Hk b y Hb Hy) as [H1 _]. destruct (ltb y a) eqn:E2; [|reflexivity].
          assert (Iy := nth_error_In _ _ Hy). destruct (Hneg y b a Iy Ib Ia E2); congruence.
  Qed.

  Lemma sort_from_ok n : forall s, s + n = length v ->
    exists l, sort_from ltb v (seq s n) = Ok l /\ StronglySorted before l /\ Permutation l (seq s n).
  Proof.
    induction n as [|n IH]; intros s Hs; cbn [seq sort_from].
    - exists []. repeat split; constructor.
    - destruct (IH (S s)) as (l & Hl & Hst & Hp); [lia|]. rewrite Hl. cbn [bind].
      destruct (insert_index_ok s l) as (l' & Hl' & Hst' & Hp').
      + lia.
      + eapply Permutation_Forall; [apply Permutation_sym, Hp|]. apply Forall_forall. intros x Hx. apply in_seq in Hx. lia.
      + eapply Permutation_Forall; [apply Permutation_sym, Hp|]. apply Forall_forall. intros x Hx. apply in_seq in Hx. lia.
      + exact Hst.
      + exists l'. split; [exact Hl'|]. split; [exact Hst'|]. rewrite Hp'. now constructor.
  Qed.

  Lemma strongly_nth {A} (R : A -> A -> Prop) l : StronglySorted R l ->
    forall p q x y, p < q -> nth_error l p = Some x -> nth_error l q = Some y -> R x y.
  Proof.
    induction 1 as [|a l Hs IH Hf]; intros p q x y Hpq Hx Hy; [destruct p; discriminate|].
    destruct q as [|q]; [lia|]. destruct p as [|p]; cbn in Hx, Hy.
    - injection Hx as <-. rewrite Forall_forall in Hf. apply Hf. eapply nth_error_In, Hy.
    - eapply IH; [|eassumption|eassumption]. lia.
  Qed.

  Lemma sorted_indices_ok : exists l, sorted_indices ltb v = Ok l /\ sorts ltb v l.
  Proof.
    destruct (sort_from_ok (length v) 0 eq_refl) as (l & Hl & Hst & Hp). exists l. split; [exact Hl|]. split; [exact Hp|].
    intros p q i j a b Hpq Hi Hj Ha Hb. exact (strongly_nth _ l Hst p q i j Hpq Hi Hj a b Ha Hb).
  Qed.
End Sort.

(** The sorted order is unique, so any correct stable sort gives the same result. *)
Lemma sorts_unique {T} (ltb : T -> T -> bool) (v : list T) l1 l2 : sorts ltb v l1 -> sorts ltb v l2 -> l1 = l2.
Proof.
  intros [P1 S1] [P2 S2].
  set (R := fun i j => exists a b, nth_error v i = Some a /\ nth_error v j = Some b /\ ltb b a = false /\ (ltb a b = false -> i < j)).
  assert (Hstr : forall l, Permutation l (seq 0 (length v)) ->
     (forall p q i j a b, p < q -> nth_error l p = Some i -> nth_error l q = Some j ->
        nth_error v i = Some a -> nth_error v j = Some b -> ltb b a = false /\ (ltb a b = false -> i < j)) ->
     StronglySorted R l).
  { intros l HP HS.
    assert (Hin : forall x, In x l -> exists a, nth_error v x = Some a).
    { intros x Hx. apply (Permutation_in _ HP), in_seq in Hx. destruct (nth_error v x) eqn:E; [eauto|]. apply nth_error_None in E. lia. }
    clear HP S1 S2. induction l as [|x l IH]; constructor.
    - apply IH; [|intros y Hy; apply Hin; right; exact Hy]. intros p q i j a b Hpq Hi Hj.
      apply (HS (S p) (S q)); [lia|exact Hi|exact Hj].
    - apply Forall_forall. intros y Hy. destruct (Hin x (or_introl eq_refl)) as [a Ha]. destruct (Hin y (or_intror Hy)) as [b Hb].
      destruct (In_nth_error _ _ Hy) as [q Hq].
      destruct (HS 0 (S q) x y a b ltac:(lia) eq_refl Hq Ha Hb) as [H1 H2]. exists a, b. auto. }
  pose proof (Hstr l1 P1 S1) as T1. pose proof (Hstr l2 P2 S2) as T2.
  assert (P : Permutation l1 l2) by (rewrite P1, P2; reflexivity).
  clear Hstr P1 P2 S1 S2. revert l2 T2 P. induction T1 as [|x l Hs IH Hf]; intros l2 T2 P.
  - apply Permutation_nil in P. auto.
  - destruct l2 as [|y l2]; [apply Permutation_sym, Permutation_nil in P; discriminate|].
    inversion T2 as [|? ? Hs2 Hf2]; subst. rewrite Forall_forall in Hf, Hf2.
    assert (x = y).
    { destruct (Permutation_in _ P (or_introl eq_refl)) as [E|Hx]; [auto|].
      destruct (Permutation_in _ (Permutation_sym P) (or_introl eq_refl)) as [E|Hy]; [auto|].
      destruct (Hf y Hy) as (a & b & Ha & Hb & H1 & H2). destruct (Hf2 x Hx) as (b' & a' & Hb' & Ha' & H3 & H4).
      assert (a' = a) by congruence. assert (b' = b) by congruence. subst. specialize (H2 H3). specialize (H4 H1). lia. }
    subst y. f_equal. apply IH; [exact Hs2|]. eapply Permutation_cons_inv, P.
Qed.

Lemma sorted_indices_unique {T} (ltb : T -> T -> bool) v : strict_weak ltb v ->
  exists l, sorted_indices ltb v = Ok l /\ sorts ltb v l /\ forall l', sorts ltb v l' -> l' = l.
Proof.
  intros H. destruct (sorted_indices_ok ltb v H) as (l & H1 & H2). exists l. split; [exact H1|]. split; [exact H2|].
  intros l' H3. eapply sorts_unique; eassumption.
Qed.

(** *** Reordering *)
Section Reorder.
  Context {T : Type}.
  Implicit Types row v : list T.

  Lemma reorder_vector_ok v : forall order, Forall (fun i => i < length v) order ->
    exists r, reorder_vector v order = Ok r /\ length r = length order /\
      forall k i, nth_error order k = Some i -> nth_error r k = nth_error v i.
  Proof.
    induction order as [|i t IH]; intros Hf; cbn [reorder_vector].
    - exists []. repeat split. intros [|k] i; discriminate.
    - inversion Hf as [|? ? Hi Hf']; subst. destruct (vget_lt v i Hi) as [a Ha]. destruct (IH Hf') as (r & Hr & Hl & Hn).
      rewrite Ha, Hr. cbn [bind]. exists (a :: r). cbn. repeat split; [lia|]. intros [|k] j Hk; cbn in *.
      + injection Hk as <-. apply vget_ok in Ha. congruence.
      + auto.
  Qed.

  Variables (order : list nat) (n : nat).
  Hypothesis Hperm : Permutation order (seq 0 n).

  Let o (k : nat) : nat := nth k order 0.

  Lemma order_length : length order = n.
  Proof. rewrite (Permutation_length Hperm), seq_length. reflexivity. Qed.
  Lemma order_get k : k < n -> nth_error order k = Some (o k).
  Proof. intros H. apply nth_error_nth'. rewrite order_length. exact H. Qed.
  Lemma o_lt k : k < n -> o k < n.
  Proof.
    intros H. assert (Hin : In (o k) (seq 0 n)) by (eapply Permutation_in; [exact Hperm|]; apply nth_In; rewrite order_length; exact H).
    apply in_seq in Hin. lia.
  Qed.
  Lemma o_inj k l : k < n -> l < n -> o k = o l -> k = l.
  Proof.
    intros Hk Hl He. assert (Hnd : NoDup order) by (eapply Permutation_NoDup; [apply Permutation_sym, Hperm|]; apply seq_NoDup).
    rewrite NoDup_nth in Hnd. apply (Hnd k l); rewrite ?order_length; auto. exact He.
  Qed.

  Variable row0 : list T.
  Hypothesis Hrow0 : length row0 = n.

  (** State between two cycles. *)
  Definition between (row : list T) (sw : list bool) : Prop :=
    length row = n /\ length sw = n /\
    (forall k, k < n -> nth_error sw k = Some true -> nth_error row k = nth_error row0 (o k)) /\
    (forall k, k < n -> nth_error sw k = Some false -> nth_error row k = nth_error row0 k) /\
    (forall k, k < n -> nth_error sw (o k) = nth_error sw k).

  Lemma follow_cycle_ok : forall fuel i last row sw sw0 row1 C,
    between row1 sw0 -> i < n ->
    length row = n -> length sw = n ->
    NoDup C -> In i C -> In last C -> (forall k, In k C -> k < n /\ nth_error sw0 k = Some false) ->
    (forall k, ~ In k C -> nth_error sw k = nth_error sw0 k /\ nth_error row k = nth_error row1 k) ->
    (forall k, In k C -> nth_error sw k = Some true) ->
    (forall k, In k C -> k <> last -> nth_error row k = nth_error row0 (o k) /\ In (o k) C) ->
    nth_error row last = nth_error row0 i ->
    (forall k, In k C -> k <> i -> exists k', In k' C /\ k' <> last /\ o k' = k) ->
    n - length C <= fuel ->
    exists row' sw', follow_cycle fuel order i last (o last) row sw = Some (Ok (row', sw')) /\ between row' sw' /\
      nth_error sw' i = Some true /\ (forall k, nth_error sw0 k = Some true -> nth_error sw' k = Some true).
  Proof.
    induction fuel as [|fuel IH];
      intros i last row sw sw0 row1 C Hb Hi Hlr Hls Hnd HiC HlC HC Hout Hsw Hdone Hlast Hpred Hfuel; cbn [follow_cycle];
      destruct (Nat.eqb_spec i (o last)) as [Heq|Hne].
    1,3: exists row, sw; split; [reflexivity|]; destruct Hb as (B1 & B2 & B3 & B4 & B5);
      (split; [|split; [auto|]]);
      [ split; [exact Hlr|]; split; [exact Hls|]; split; [|split];
        [ intros k Hk Ht; destruct (in_dec Nat.eq_dec k C) as [Hin|Hin];
          [ destruct (Nat.eq_dec k last) as [->|Hkl]; [rewrite Hlast, <- Heq; reflexivity|apply (Hdone k Hin Hkl)]
          | destruct (Hout k Hin) as [H1 H2]; rewrite H2; apply B3; [exact Hk|congruence] ]
        | intros k Hk Ht; destruct (in_dec Nat.eq_dec k C) as [Hin|Hin];
          [ rewrite (Hsw k Hin) in Ht; discriminate
          | destruct (Hout k Hin) as [H1 H2]; rewrite H2; apply B4; [exact Hk|congruence] ]
        | intros k Hk; destruct (in_dec Nat.eq_dec k C) as [Hin|Hin];
          [ rewrite (Hsw k Hin); apply Hsw; destruct (Nat.eq_dec k last) as [->|Hkl]; [rewrite <- Heq; exact HiC|apply (Hdone k Hin Hkl)]
          | destruct (in_dec Nat.eq_dec (o k) C) as [Hin'|Hin'];
            [ exfalso; apply Hin; destruct (Nat.eq_dec (o k) i) as [E|E];
              [ rewrite (o_inj k last Hk (proj1 (HC last HlC))) by congruence; exact HlC
              | destruct (Hpred (o k) Hin' E) as (k' & Hk' & _ & E'); rewrite <- (o_inj k' k (proj1 (HC k' Hk')) Hk E'); exact Hk' ]
            | rewrite (proj1 (Hout k Hin)), (proj1 (Hout (o k) Hin')); apply B5, Hk ] ] ]
      | intros k Ht; destruct (in_dec Nat.eq_dec k C) as [Hin|Hin]; [apply Hsw, Hin|rewrite (proj1 (Hout k Hin)); exact Ht] ].
    - (* fuel is not exhausted before the cycle closes *)
      exfalso. assert (Hlast' := proj1 (HC last HlC)).
      assert (Hnj : ~ In (o last) C).
      { intros Hin. destruct (Hpred (o last) Hin ltac:(congruence)) as (k' & Hk' & Hk'l & E).
        apply Hk'l. apply o_inj; auto. apply HC, Hk'. }
      assert (Hlen : length (o last :: C) <= length (seq 0 n)).
      { apply NoDup_incl_length; [constructor; auto|]. intros x [<-|Hx]; apply in_seq; [pose proof (o_lt last Hlast'); lia|].
        destruct (HC x Hx). lia. }
      rewrite seq_length in Hlen. cbn in Hlen. lia.
    - assert (Hlast' := proj1 (HC last HlC)).
      assert (Hnj : ~ In (o last) C).
      { intros Hin. destruct (Hpred (o last) Hin ltac:(congruence)) as (k' & Hk' & Hk'l & E).
        apply Hk'l. apply o_inj; auto. apply HC, Hk'. }
      set (j := o last) in *. assert (Hj : j < n) by (apply o_lt; exact Hlast').
      assert (Hjl : j <> last) by (intros E; apply Hnj; rewrite E; exact HlC).
      destruct Hb as (B1 & B2 & B3 & B4 & B5).
      assert (Hswj : nth_error sw0 j = Some false) by (unfold j; rewrite B5 by exact Hlast'; apply HC, HlC).
      destruct (nth_error row last) as [x|] eqn:Hx; [|apply nth_error_None in Hx; lia].
      destruct (nth_error row j) as [y|] eqn:Hy; [|apply nth_error_None in Hy; lia].
      rewrite (order_get j Hj).
      apply (IH i j _ _ sw0 row1 (j :: C)); auto.
      + repeat split; auto.
      + rewrite !set_nth_length. exact Hlr.
      + rewrite !set_nth_length. exact Hls.
      + constructor; auto.
      + right; exact HiC.
      + left; reflexivity.
      + intros k [<-|Hk]; auto.
      + intros k Hk. cbn in Hk. destruct (Hout k ltac:(tauto)) as [H1 H2].
        assert (k <> last) by (intros ->; tauto).
        rewrite !nth_error_set_nth_neq by (intros E; subst; tauto). auto.
      + intros k [<-|Hk]; [apply nth_error_set_nth_eq; lia|].
        rewrite nth_error_set_nth_neq by (intros E; subst; tauto). auto.
      + intros k [<-|Hk] Hkj; [congruence|]. rewrite nth_error_set_nth_neq by congruence.
        destruct (Nat.eq_dec k last) as [->|Hkl].
        * rewrite nth_error_set_nth_eq by lia. split; [|left; reflexivity].
          rewrite <- Hy. rewrite (proj2 (Hout j Hnj)). apply B4; auto.
        * rewrite nth_error_set_nth_neq by congruence. destruct (Hdone k Hk Hkl) as [H1 H2]. split; [exact H1|right; exact H2].
      + rewrite nth_error_set_nth_eq by (rewrite set_nth_length; lia). exact Hlast.
      + intros k [<-|Hk] Hki.
        * exists last. repeat split; [right; exact HlC|congruence].
        * destruct (Hpred k Hk Hki) as (k' & H1 & H2 & H3). exists k'. repeat split; [right; exact H1| |exact H3].
          intros ->. tauto.
      + cbn [length]. lia.
  Qed.

  Lemma reorder_loop_ok fuel : n <= fuel -> forall m s row sw, s + m = n -> between row sw ->
    (forall k, k < s -> nth_error sw k = Some true) ->
    exists row', reorder_loop fuel order (seq s m) row sw = Some (Ok row') /\ length row' = n /\
      forall k, k < n -> nth_error row' k = nth_error row0 (o k).
  Proof.
    intros Hf. induction m as [|m IH]; intros s row sw Hs Hb Hk; cbn [seq reorder_loop].
    - exists row. destruct Hb as (B1 & B2 & B3 & _). repeat split; auto. intros k Hkn. apply B3; [exact Hkn|]. apply Hk. lia.
    - assert (Hsn : s < n) by lia. pose proof Hb as (B1 & B2 & B3 & B4 & B5).
      destruct (nth_error sw s) as [[|]|] eqn:Es; [| |apply nth_error_None in Es; lia].
      + apply IH; [lia|exact Hb|]. intros k Hks. destruct (Nat.eq_dec k s) as [->|]; [exact Es|]. apply Hk. lia.
      + rewrite (order_get s Hsn).
        destruct (follow_cycle_ok fuel s s row (set_nth s true sw) sw row [s]) as (row' & sw' & Hc & Hb' & H1 & H2); auto.
        * rewrite set_nth_length. exact B2.
        * constructor; [intros []|constructor].
        * left; reflexivity.
        * left; reflexivity.
        * intros k [<-|[]]. auto.
        * intros k Hnk. cbn in Hnk. split; [|reflexivity]. apply nth_error_set_nth_neq. intros ->. tauto.
        * intros k [<-|[]]. apply nth_error_set_nth_eq. lia.
        * intros k [<-|[]] Hne. congruence.
        * intros k [<-|[]] Hne. congruence.
        * cbn. lia.
        * rewrite Hc. apply IH; [lia|exact Hb'|]. intros k Hks. destruct (Nat.eq_dec k s) as [->|]; [exact H1|]. apply H2, Hk. lia.
  Qed.

  Lemma reorder_row_ok fuel : n <= fuel ->
    exists r, reorder_row fuel row0 order = Some (Ok r) /\ reorder_vector row0 order = Ok r.
  Proof.
    intros Hf. unfold reorder_row. rewrite order_length, Hrow0, Nat.eqb_refl. cbn [negb].
    destruct (reorder_loop_ok fuel Hf n 0 row0 (repeat false n)) as (r & Hr & Hlen & Hn).
    - reflexivity.
    - split; [exact Hrow0|]. split; [apply repeat_length|]. split; [|split].
      + intros k Hk Ht. rewrite nth_error_repeat in Ht by exact Hk. discriminate.
      + auto.
      + intros k Hk. rewrite !nth_error_repeat; auto using o_lt.
    - intros k Hk. lia.
    - exists r. split; [exact Hr|].
      destruct (reorder_vector_ok row0 order) as (r' & Hr' & Hl' & Hn').
      { apply Forall_forall. intros x Hx. apply (Permutation_in _ Hperm), in_seq in Hx. lia. }
      rewrite Hr'. f_equal. apply nth_error_ext. intros k. destruct (Nat.lt_ge_cases k n) as [Hk|Hk].
      + rewrite (Hn' k (o k) (order_get k Hk)). symmetry. apply Hn, Hk.
      + rewrite !(proj2 (nth_error_None _ _)); auto; rewrite ?Hl', ?order_length, ?Hlen; exact Hk.
  Qed.
End Reorder.

(** *** Range checks *)
Lemma check_range_accepts b P : (b = true <-> P) -> accepts (check_range b) P.
Proof. intros H. unfold accepts, check_range. destruct b; cbn; split; intros HP; try reflexivity; exfalso; intuition congruence. Qed.

Lemma checks_ok {T} (c : comparisons T) (lt le eq : T -> T -> Prop) v l u vs :
  (forall a b, In a (v :: l :: u :: vs) -> In b (v :: l :: u :: vs) -> (op_lt c a b = true <-> lt a b)) ->
  (forall a b, In a (v :: l :: u :: vs) -> In b (v :: l :: u :: vs) -> (op_le c a b = true <-> le a b)) ->
  (forall a b, In a (v :: l :: u :: vs) -> In b (v :: l :: u :: vs) -> (op_eq c a b = true <-> eq a b)) ->
  checks_meaning c lt le eq v l u vs.
Proof.
  intros Hlt Hle Heq.
  assert (Iv : In v (v :: l :: u :: vs)) by (left; auto).
  assert (Il : In l (v :: l :: u :: vs)) by (right; left; auto).
  assert (Iu : In u (v :: l :: u :: vs)) by (right; right; left; auto).
  assert (Ix : forall x, In x vs -> In x (v :: l :: u :: vs)) by (intros x Hx; do 3 right; auto).
  unfold checks_meaning; repeat match goal with |- _ /\ _ => split end; apply check_range_accepts;
    rewrite ?andb_true_iff, ?orb_true_iff, ?negb_true_iff, ?Hlt, ?Hle, ?Heq by assumption; try reflexivity.
  - rewrite <- Heq by assumption. symmetry. apply not_true_iff_false.
  - rewrite existsb_exists. split; intros (x & Hx & H); exists x; split; auto; apply Heq; auto.
  - rewrite forallb_forall. split.
    + intros H x Hx He. apply Heq in He; auto. specialize (H x Hx). rewrite He in H. discriminate.
    + intros H x Hx. destruct (op_eq c x v) eqn:E; [|reflexivity]. exfalso. apply (H x Hx). apply Heq; auto.
Qed.

Lemma checks_int v l u vs : checks_meaning int_ops Z.lt Z.le eq v l u vs.
Proof. apply checks_ok; intros a b _ _; [apply Z.ltb_lt|apply Z.leb_le|apply Z.eqb_eq]. Qed.

Lemma checks_double v l u vs : is_double v -> is_double l -> is_double u -> Forall is_double vs ->
  checks_meaning double_ops xlt xle xeq v l u vs.
Proof.
  intros Hv Hl Hu Hvs.
  assert (H : forall a, In a (v :: l :: u :: vs) -> is_double a).
  { rewrite Forall_forall in Hvs. intros a [<-|[<-|[<-|Ha]]]; auto. }
  apply checks_ok; intros a b Ha Hb; [apply ltb_spec|apply leb_spec|apply feqb_spec]; auto.
Qed.

(** No comparison involving NaN holds: what the checks do with it. *)
Lemma nan_incomparable x : ~ xlt S754_nan x /\ ~ xlt x S754_nan /\ ~ xle S754_nan x /\ ~ xle x S754_nan /\ ~ xeq S754_nan x.
Proof. unfold xle. destruct x as [[]|[]| |[]]; cbn; tauto. Qed.

(** *** Doubles other than NaN are strictly weakly ordered *)
Lemma xlt_trichotomy_weak a b c : is_double a -> is_double b -> is_double c ->
  a <> S754_nan -> b <> S754_nan -> c <> S754_nan -> xlt a c -> xlt a b \/ xlt b c.
Proof.
  intros Ha Hb Hc Na Nb Nc H.
  destruct a as [sa|[]| |sa ma ea]; try congruence; destruct b as [sb|[]| |sb mb eb]; try congruence;
    destruct c as [sc|[]| |sc mc ec]; try congruence; cbn [xlt] in *; auto;
    match goal with |- (?x < ?y)%R \/ (?y < ?z)%R => destruct (Rlt_or_le x y); [left; assumption|right; lra] end.
Qed.

Lemma double_strict_weak v : Forall (fun x => is_double x /\ x <> S754_nan) v -> strict_weak SFltb v.
Proof.
  rewrite Forall_forall. intros H. split.
  - intros a b Ha Hb Hlt. apply H in Ha, Hb. apply ltb_spec in Hlt; try tauto.
    apply not_true_iff_false. intros Hlt'. apply ltb_spec in Hlt'; try tauto.
    pose proof (compare_spec a b (proj1 Ha) (proj1 Hb)) as Hc. destruct (SFcompare a b) as [[| |]|]; tauto.
  - intros a b c Ha Hb Hc Hlt. apply H in Ha, Hb, Hc. rewrite !ltb_spec by tauto. apply ltb_spec in Hlt; try tauto.
    apply xlt_trichotomy_weak; tauto.
Qed.

Lemma nan_rejected l u :
  check_in_closed double_ops S754_nan l u = Throw RangeErr /\ check_in_open double_ops S754_nan l u = Throw RangeErr /\
  check_outside_closed double_ops S754_nan l u = Throw RangeErr /\ check_outside_open double_ops S754_nan l u = Throw RangeErr.
Proof.
  unfold check_in_closed, check_in_open, check_outside_closed, check_outside_open, double_ops, op_lt, op_le, SFleb, SFltb.
  destruct l as [[]|[]| |[]], u as [[]|[]| |[]]; cbn; auto.
Qed.

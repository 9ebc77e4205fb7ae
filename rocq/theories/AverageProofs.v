(** Proofs about averaging. *)
From Coq Require Import QArith Qabs Lqa.
From Verif Require Import Base BaseLemmas FloatModel UndoModel MeshModel NetworkModel NetworkProofs AverageModel AverageSpec.
Local Open Scope nat_scope.

Section Strategies.
  Variable big : Q.
  Variable dist dist2 : qpoint -> qpoint -> Q.

  (** *** Simple average *)
  Lemma sum_bounds lo hi l : (forall v, In v (values l) -> (lo <= v <= hi)%Q) -> forall a,
    (a + inject_Z (Z.of_nat (length l)) * lo <= fold_left (fun v s => v + s_value s) l a <= a + inject_Z (Z.of_nat (length l)) * hi)%Q.
  Proof.
    induction l as [|s t IH]; intros H a; cbn [fold_left length].
    - change (inject_Z (Z.of_nat 0)) with 0%Q. lra.
    - specialize (IH ltac:(intros; apply H; cbn; auto) (a + s_value s)%Q). specialize (H (s_value s) (or_introl eq_refl)).
      rewrite Nat2Z.inj_succ. unfold Z.succ. rewrite inject_Z_plus. change (inject_Z 1) with 1%Q. nra.
  Qed.
  Lemma simple_range n l : l <> [] -> n <= length l -> exists r, simple_average n l = Some r /\ in_range (values l) r.
  Proof.
    intros Hl Hn. unfold simple_average. destruct (Nat.leb_spec n (length l)); [|lia]. destruct l as [|s t]; [easy|].
    eexists. split; [reflexivity|]. intros lo hi B. pose proof (sum_bounds lo hi (s :: t) B 0%Q) as S.
    assert (P : (0 < inject_Z (Z.of_nat (length (s :: t))))%Q) by (change 0%Q with (inject_Z 0); rewrite <- Zlt_Qlt; cbn [length]; lia).
    split; [apply Qle_shift_div_l|apply Qle_shift_div_r]; lra.
  Qed.
  Lemma simple_few n l : length l < n -> simple_average n l = Some missing_q.
  Proof. intros H. unfold simple_average. destruct (Nat.leb_spec n (length l)); [lia|auto]. Qed.

  (** *** Largest, smallest *)
  Lemma qmax_spec a b : (qmax a b = a /\ b <= a \/ qmax a b = b /\ a < b)%Q.
  Proof. unfold qmax. destruct (qltb a b) eqn:E; [right; apply qltb_true in E|left; apply qltb_false in E]; auto. Qed.
  Lemma qmin_spec a b : (qmin a b = a /\ a <= b \/ qmin a b = b /\ b < a)%Q.
  Proof. unfold qmin. destruct (qltb b a) eqn:E; [right; apply qltb_true in E|left; apply qltb_false in E]; auto. Qed.
  Lemma fold_max l : forall a, let r := fold_left (fun r s => qmax r (s_value s)) l a in
    (a <= r /\ forall v, In v (values l) -> v <= r)%Q /\ (r = a \/ In r (values l)).
  Proof.
    induction l as [|s t IH]; intros a; cbn; [repeat split; auto using Qle_refl; easy|].
    destruct (IH (qmax a (s_value s))) as ((H1 & H2) & H3). cbn in *. destruct (qmax_spec a (s_value s)) as [(E & L)|(E & L)]; rewrite E in *.
    - repeat split; auto; [|tauto]. intros v [<-|Hv]; auto. lra.
    - repeat split; [lra| |destruct H3 as [->|]; auto]. intros v [<-|Hv]; auto.
  Qed.
  Lemma fold_min (f : sample -> Q) l : forall a, let r := fold_left (fun r s => qmin r (f s)) l a in
    (r <= a /\ forall v, In v (map f l) -> r <= v)%Q /\ (r = a \/ In r (map f l)).
  Proof.
    induction l as [|s t IH]; intros a; cbn; [repeat split; auto using Qle_refl; easy|].
    destruct (IH (qmin a (f s))) as ((H1 & H2) & H3). cbn in *. destruct (qmin_spec a (f s)) as [(E & L)|(E & L)]; rewrite E in *.
    - repeat split; auto; [|tauto]. intros v [<-|Hv]; auto. lra.
    - repeat split; [lra| |destruct H3 as [->|]; auto]. intros v [<-|Hv]; auto.
  Qed.
  Lemma max_spec l : (exists v, In v (values l) /\ - big < v)%Q -> exists r, max_average big l = Some r /\ largest (values l) r.
  Proof.
    intros (v & Hv & Lv). unfold max_average. destruct (fold_max l (- big)%Q) as ((H1 & H2) & H3). cbn in *.
    set (r := fold_left _ l _) in *. specialize (H2 v Hv) as L.
    destruct (Qeq_bool r (- big)) eqn:E; [apply Qeq_bool_eq in E; exfalso; lra|]. exists r. split; auto. split; auto.
    destruct H3 as [H3|]; auto. rewrite H3 in L. exfalso. lra.
  Qed.
  Lemma min_spec l : (exists v, In v (values l) /\ v < big)%Q -> exists r, min_average big l = Some r /\ smallest (values l) r.
  Proof.
    intros (v & Hv & Lv). unfold min_average. destruct (fold_min s_value l big) as ((H1 & H2) & H3). cbn in *.
    set (r := fold_left _ l _) in *. specialize (H2 v Hv) as L.
    destruct (Qeq_bool r big) eqn:E; [apply Qeq_bool_eq in E; exfalso; lra|]. exists r. split; auto. split; auto.
    destruct H3 as [H3|]; auto. rewrite H3 in L. exfalso. lra.
  Qed.
  Lemma min_abs_spec l : (exists v, In v (values l) /\ Qabs v < big)%Q -> exists r, min_abs_average big l = Some r /\ smallest (map Qabs (values l)) r.
  Proof.
    intros (v & Hv & Lv). unfold min_abs_average. destruct (fold_min (fun s => Qabs (s_value s)) l big) as ((H1 & H2) & H3). cbn in *.
    set (r := fold_left _ l _) in *. unfold values. rewrite map_map.
    assert (L : (r <= Qabs v)%Q). { apply H2. unfold values in Hv. apply in_map_iff in Hv as (s & <- & Hs). apply (in_map (fun s => Qabs (s_value s))). auto. }
    destruct (Qeq_bool r big) eqn:E; [apply Qeq_bool_eq in E; exfalso; lra|]. exists r. split; auto. split; auto.
    destruct H3 as [H3|]; auto. rewrite H3 in L. exfalso. lra.
  Qed.

  (** *** Closest *)
  Lemma fold_closest p l : forall st, exists r d, fold_left (closest_step dist2 p) l st = (r, d) /\
    (d <= snd st /\ forall s, In s l -> d <= dist2 p (s_at s))%Q /\
    ((r, d) = st \/ exists s, In s l /\ r = s_value s /\ d = dist2 p (s_at s)).
  Proof.
    induction l as [|s t IH]; intros st; cbn [fold_left].
    - destruct st as (r & d). exists r, d. repeat split; auto; cbn; [apply Qle_refl|easy].
    - destruct (IH (closest_step dist2 p st s)) as (r & d & -> & (H1 & H2) & H3). exists r, d. split; auto.
      unfold closest_step in H1, H3. destruct (qltb (dist2 p (s_at s)) (snd st)) eqn:E; [apply qltb_true in E|apply qltb_false in E]; cbn [snd] in H1.
      + split; [split; [lra|intros x [<-|Hx]; auto]|]. right. destruct H3 as [H3|(x & Hx & H3)]; [injection H3 as -> ->; exists s; cbn; auto|exists x; cbn; auto].
      + split; [split; [lra|intros x [<-|Hx]; auto; lra]|]. destruct H3 as [H3|(x & Hx & H3)]; [auto|right; exists x; cbn; auto].
  Qed.
  Lemma closest_spec p l : (exists s, In s l /\ dist2 p (s_at s) < big)%Q ->
    exists s, In s l /\ closest_average big dist2 p l = Some (s_value s) /\ forall x, In x l -> (dist2 p (s_at s) <= dist2 p (s_at x))%Q.
  Proof.
    intros (v & Hv & Lv). unfold closest_average. destruct (fold_closest p l (missing_q, big)) as (r & d & -> & (H1 & H2) & H3).
    destruct H3 as [H3|(s & Hs & -> & ->)]; [|exists s; auto]. injection H3 as -> ->. specialize (H2 v Hv). exfalso. lra.
  Qed.

  (** *** Inverse distances *)
  Lemma weight_pos p s : (0 < weight dist p s)%Q.
  Proof.
    unfold weight. destruct (qmax_spec (1 # 100) (dist p (s_at s))) as [(-> & L)|(-> & L)]; [reflexivity|]. apply Qlt_shift_div_l; lra.
  Qed.
  Lemma inverse_bounds p lo hi l : (forall v, In v (values l) -> (lo <= v <= hi)%Q) -> forall st, (0 <= snd st)%Q -> (snd st * lo <= fst st <= snd st * hi)%Q ->
    let st' := fold_left (fun st s => (fst st + weight dist p s * s_value s, snd st + weight dist p s)%Q) l st in
    (snd st <= snd st')%Q /\ (snd st' * lo <= fst st' <= snd st' * hi)%Q /\ (l <> [] -> snd st < snd st')%Q.
  Proof.
    induction l as [|s t IH]; intros H st P B; cbn [fold_left]; [repeat split; try tauto; apply Qle_refl|].
    pose proof (weight_pos p s) as W. pose proof (H (s_value s) (or_introl eq_refl)) as V.
    destruct (IH ltac:(intros; apply H; cbn; auto) (fst st + weight dist p s * s_value s, snd st + weight dist p s)%Q) as (I1 & I2 & _); cbn [fst snd] in *; [lra|nra|].
    cbv zeta. split; [lra|]. split; auto. intros _. lra.
  Qed.
  (** the sum of the weights *)
  Definition total_weight (p : qpoint) (l : list sample) : Q := fold_left (fun w s => w + weight dist p s)%Q l 0%Q.
  Lemma inverse_wall p l : forall a b, snd (fold_left (fun st s => (fst st + weight dist p s * s_value s, snd st + weight dist p s)%Q) l (a, b)) =
    fold_left (fun w s => w + weight dist p s)%Q l b.
  Proof. induction l as [|s t IH]; intros a b; cbn [fold_left fst snd]; auto. Qed.
  Lemma inverse_range n p l : l <> [] -> (inject_Z (Z.of_nat n) <= total_weight p l)%Q ->
    exists r, inverse_average dist n p l = Some r /\ in_range (values l) r.
  Proof.
    intros Hl Hn. unfold inverse_average, total_weight in *. rewrite <- (inverse_wall p l 0%Q 0%Q) in Hn.
    assert (G : forall lo hi, (forall v, In v (values l) -> (lo <= v <= hi)%Q) -> _) by (intros lo hi H; exact (inverse_bounds p lo hi l H (0, 0)%Q ltac:(cbn; lra) ltac:(cbn; lra))).
    cbv zeta in G. destruct (fold_left _ l (0, 0)%Q) as (result & wall). cbn [fst snd] in *.
    assert (Hw : (0 < wall)%Q).
    { set (lo := fold_left (fun r s => qmin r (s_value s)) l 0%Q). set (hi := fold_left (fun r s => qmax r (s_value s)) l 0%Q).
      destruct (G lo hi) as (_ & _ & G'); [|auto]. intros v Hv.
      destruct (fold_min s_value l 0%Q) as ((_ & A) & _). destruct (fold_max l 0%Q) as ((_ & B) & _). split; [apply A|apply B]; auto. }
    apply Qle_bool_iff in Hn. rewrite Hn. destruct (Qeq_bool wall 0) eqn:E; [apply Qeq_bool_eq in E; exfalso; lra|].
    eexists. split; [reflexivity|]. intros lo hi H. destruct (G lo hi H) as (_ & B & _). split; [apply Qle_shift_div_l|apply Qle_shift_div_r]; lra.
  Qed.

  (** *** No samples *)
  Lemma no_samples m n p : 0 < n -> calculate big dist dist2 m n p [] = Some missing_q.
  Proof.
    intros H. destruct m; cbn; auto.
    - unfold simple_average. destruct n; [lia|auto].
    - unfold max_average. cbn. now rewrite (proj2 (Qeq_bool_iff _ _) (Qeq_refl _)).
    - unfold min_average. cbn. now rewrite (proj2 (Qeq_bool_iff _ _) (Qeq_refl _)).
    - unfold inverse_average. cbn. destruct (Qle_bool (inject_Z (Z.of_nat n)) 0) eqn:E; auto. apply Qle_bool_iff in E.
      change 0%Q with (inject_Z 0) in E. rewrite <- Zle_Qle in E. lia.
    - unfold min_abs_average. cbn. now rewrite (proj2 (Qeq_bool_iff _ _) (Qeq_refl _)).
  Qed.
  Lemma no_samples_zero p : calculate big dist dist2 SimpleAveraging 0 p [] = None /\ calculate big dist dist2 InverseWeightedDistance 0 p [] = None.
  Proof. split; reflexivity. Qed.
End Strategies.

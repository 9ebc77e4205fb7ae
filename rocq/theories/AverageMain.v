(** Averaging at the nodes, edges and faces of a mesh. *)
From Coq Require Import QArith Qabs Lqa.
From Verif Require Import Base BaseLemmas FloatModel UndoModel MeshModel NetworkModel NetworkProofs AverageModel AverageSpec AverageProofs.
Local Open Scope nat_scope.

Section Main.
  Variable big : Q.
  Variable dist dist2 : qpoint -> qpoint -> Q.

  Lemma abs_bounded v : (- big < v < big)%Q -> (Qabs v < big)%Q.
  Proof. intros H. apply Qabs_case; intros; lra. Qed.

  Lemma calculate_range m n p l : l <> [] -> bounded big l -> (forall s, In s l -> (dist2 p (s_at s) < big)%Q) ->
    enough m n l (total_weight dist p l) ->
    exists r, calculate big dist dist2 m n p l = Some r /\ in_range (compared m l) r.
  Proof.
    intros Hl B D E. assert (X : exists s, In s l) by (destruct l as [|s t]; [easy|exists s; cbn; auto]). destruct X as (s & Hs).
    pose proof (B s Hs) as Bs. assert (Vs : In (s_value s) (values l)) by now apply in_map.
    destruct m; cbn [calculate compared enough] in *.
    - now apply simple_range.
    - destruct (closest_spec big dist2 p l) as (x & Hx & -> & _); [eauto|]. exists (s_value x). split; auto. intros lo hi H. apply H. now apply in_map.
    - destruct (max_spec big l) as (r & -> & H1 & H2); [exists (s_value s); split; auto; lra|]. exists r. split; auto. intros lo hi H. apply H; auto.
    - destruct (min_spec big l) as (r & -> & H1 & H2); [exists (s_value s); split; auto; lra|]. exists r. split; auto. intros lo hi H. apply H; auto.
    - now apply inverse_range.
    - destruct (min_abs_spec big l) as (r & -> & H1 & H2); [exists (s_value s); split; auto; now apply abs_bounded|]. exists r. split; auto. intros lo hi H. apply H; auto.
  Qed.

  (** Below the threshold the result is the missing value. *)
  Lemma calculate_not_enough m n p l : ~ enough m n l (total_weight dist p l) -> calculate big dist dist2 m n p l = Some missing_q.
  Proof.
    destruct m; cbn; try tauto; intros H.
    - apply simple_few. lia.
    - unfold inverse_average, total_weight in *. rewrite <- (inverse_wall dist p l 0%Q 0%Q) in H. destruct (fold_left _ l (0, 0)%Q) as (r & w). cbn [snd] in H.
      destruct (Qle_bool _ w) eqn:E; auto. apply Qle_bool_iff in E. tauto.
  Qed.
  Lemma enough_dec m n p l : enough m n l (total_weight dist p l) \/ ~ enough m n l (total_weight dist p l).
  Proof.
    destruct m; cbn; auto; [lia|]. destruct (Qlt_le_dec (total_weight dist p l) (inject_Z (Z.of_nat n))); auto. right. lra.
  Qed.

  (** *** One location *)
  Definition usable_samples (samples : list sample) (loc : location) (cache : list sample) : Prop :=
    forall s, In s cache <-> exists i, In i (l_found loc) /\ nth_error samples i = Some s /\ (missing_q < s_value s)%Q /\ l_inside loc i = true.
  Lemma cache_ok samples loc l : (forall i, In i l -> i < length samples) -> forall acc,
    exists r, fold_out (cache_step samples loc) l acc = Ok (acc ++ r) /\
      forall s, In s r <-> exists i, In i l /\ nth_error samples i = Some s /\ (missing_q < s_value s)%Q /\ l_inside loc i = true.
  Proof.
    induction l as [|i t IH]; intros H acc; cbn [fold_out].
    - exists []. rewrite app_nil_r. split; auto. intros s. split; [easy|]. intros (i & [] & _).
    - unfold cache_step at 1. destruct (vget_lt samples i (H i (or_introl eq_refl))) as (s & Hs). rewrite Hs. apply vget_ok in Hs. cbn [bind].
      assert (G : forall acc (b : bool), (b = true <-> (missing_q < s_value s)%Q /\ l_inside loc i = true) ->
        exists r, (let! a := (if b then Ok (acc ++ [s]) else Ok acc) in fold_out (cache_step samples loc) t a) = Ok (acc ++ r) /\
        forall x, In x r <-> exists j, In j (i :: t) /\ nth_error samples j = Some x /\ (missing_q < s_value x)%Q /\ l_inside loc j = true).
      { intros acc' b Hb. assert (Ht : forall j, In j t -> j < length samples) by (intros; apply H; cbn; auto). destruct b; cbn [bind].
        - destruct (IH Ht (acc' ++ [s])) as (r & -> & R). exists (s :: r). rewrite <- app_assoc. split; auto. intros x. cbn [In]. rewrite R. split.
          + intros [<-|(j & Hj & E)]; [exists i; cbn; tauto|exists j; cbn; tauto].
          + intros (j & [<-|Hj] & E); [left; destruct E; congruence|right; eauto].
        - destruct (IH Ht acc') as (r & -> & R). exists r. split; auto. intros x. rewrite R. split.
          + intros (j & Hj & E). exists j. cbn. tauto.
          + intros (j & [<-|Hj] & E); [|eauto]. exfalso. destruct E as (E1 & E2). rewrite Hs in E1. injection E1 as <-. apply Hb in E2. discriminate. }
      destruct (Qle_bool (s_value s) missing_q) eqn:E.
      + apply Qle_bool_iff in E. apply (G acc false). split; [easy|]. intros (L & _). exfalso. lra.
      + assert (L : (missing_q < s_value s)%Q) by (apply Qnot_le_lt; rewrite <- Qle_bool_iff; congruence). apply (G acc (l_inside loc i)). tauto.
  Qed.

  (** The result at one location. *)
  Lemma on_polygon_ok m n use_closest samples loc : l_usable loc = true ->
    (forall i, In i (l_found loc) \/ l_nearest loc = Some i -> i < length samples) ->
    exists r found, on_polygon big dist dist2 m n use_closest samples loc = Ok (r, found) /\
      found = hits use_closest loc /\ (forall i, In i found -> i < length samples) /\
      ((l_found loc = [] /\ (r = Some missing_q \/ exists i s, use_closest = true /\ l_nearest loc = Some i /\ nth_error samples i = Some s /\ r = Some (s_value s))) \/
       (l_found loc <> [] /\ exists cache, usable_samples samples loc cache /\ r = calculate big dist dist2 m n (l_at loc) cache)).
  Proof.
    intros U H. unfold on_polygon, hits. rewrite U. cbn [negb]. destruct (l_found loc) as [|i0 t] eqn:Ef.
    - destruct use_closest; [|exists (Some missing_q), []; repeat split; auto; easy]. destruct (l_nearest loc) as [i|] eqn:En; [|exists (Some missing_q), []; repeat split; auto; easy].
      destruct (vget_lt samples i) as (s & Hs); [auto|]. rewrite Hs. cbn [bind]. apply vget_ok in Hs. exists (Some (s_value s)), [i]. split; auto. split; auto. split.
      + intros j [<-|[]]. auto.
      + left. split; auto. right. exists i, s. auto.
    - rewrite <- Ef in *. destruct (cache_ok samples loc (l_found loc) ltac:(auto) []) as (r & E & R). rewrite E. cbn [bind app].
      eexists _, _. split; [reflexivity|]. split; auto. split; [auto|]. right. split; [rewrite Ef; discriminate|]. exists r. split; auto.
  Qed.

  (** The result lies within the range of all samples, or is missing. *)
  Lemma on_polygon_range m n use_closest samples loc lo hi : l_usable loc = true -> 0 < n -> m <> MinAbsValue ->
    (forall i, In i (l_found loc) \/ l_nearest loc = Some i -> i < length samples) ->
    bounded big samples -> (forall s, In s samples -> (dist2 (l_at loc) (s_at s) < big)%Q) ->
    (forall s, In s samples -> (lo <= s_value s <= hi)%Q) ->
    exists r found, on_polygon big dist dist2 m n use_closest samples loc = Ok (Some r, found) /\ (r = missing_q \/ (lo <= r <= hi)%Q).
  Proof.
    intros U Hn Hm H B D V. destruct (on_polygon_ok m n use_closest samples loc U H) as (r & found & E & _ & _ & C).
    destruct C as [(_ & [->|(i & s & _ & _ & Hs & ->)])|(_ & cache & Hc & ->)].
    - eauto.
    - exists (s_value s), found. split; auto. right. apply V. eapply nth_error_In; eauto.
    - assert (I : forall s, In s cache -> In s samples) by (intros s Hs; apply Hc in Hs as (i & _ & Hs & _); eapply nth_error_In; eauto).
      destruct (enough_dec m n (l_at loc) cache) as [En|En]; [|rewrite E, (calculate_not_enough m n (l_at loc) cache En); eauto].
      destruct cache as [|s0 t]; [rewrite E, no_samples by auto; eauto|].
      destruct (calculate_range m n (l_at loc) (s0 :: t)) as (r & Er & R); auto; [easy|intros s Hs; apply B; auto|].
      rewrite E, Er. exists r, found. split; auto. right. apply R. intros v Hv. assert (Hv' : In v (values (s0 :: t))) by (destruct m; auto; easy).
      apply in_map_iff in Hv' as (s & <- & Hs). auto.
  Qed.
  Lemma nodes_range m n use_closest samples locs lo hi : samples <> [] -> 0 < n -> m <> MinAbsValue -> bounded big samples ->
    (forall s, In s samples -> (lo <= s_value s <= hi)%Q) ->
    (forall loc, In loc locs -> l_usable loc = true /\ (forall i, In i (l_found loc) \/ l_nearest loc = Some i -> i < length samples) /\
       forall s, In s samples -> (dist2 (l_at loc) (s_at s) < big)%Q) ->
    exists rs, compute_nodes big dist dist2 m n use_closest samples locs = Ok rs /\ length rs = length locs /\
      forall x, In x rs -> exists r, x = Some r /\ (r = missing_q \/ (lo <= r <= hi)%Q).
  Proof.
    intros Hs Hn Hm B V H. unfold compute_nodes. assert (G : exists rs, node_results big dist dist2 m n use_closest samples locs = Ok rs /\ length rs = length locs /\
      forall x, In x rs -> exists r, x = Some r /\ (r = missing_q \/ (lo <= r <= hi)%Q)).
    { induction locs as [|loc t IH]; cbn [node_results]; [exists []; cbn; repeat split; easy|].
      destruct (H loc (or_introl eq_refl)) as (U & I & D). destruct (on_polygon_range m n use_closest samples loc lo hi U Hn Hm I B D V) as (r & f & -> & R).
      cbn [bind]. destruct IH as (rs & -> & L & IH); [intros; apply H; cbn; auto|]. cbn [bind]. exists (Some r :: rs). cbn. repeat split; auto.
      intros x [<-|Hx]; eauto. }
    destruct samples; [easy|exact G].
  Qed.

  (** *** Edges *)
  Lemma edge_ok near nodes a b : a < length nodes -> b < length nodes -> exists x y, nth_error nodes a = Some x /\ nth_error nodes b = Some y /\
    edge_result near nodes (Some a, Some b) =
      Ok (match x, y with
          | Some p, Some q => if near p missing_q || near q missing_q then Some missing_q else Some ((1 # 2) * (p + q))%Q
          | Some p, None => if near p missing_q then Some missing_q else None
          | None, Some q => if near q missing_q then Some missing_q else None
          | None, None => None
          end).
  Proof.
    intros Ha Hb. destruct (vget_lt nodes a Ha) as (x & Ex). destruct (vget_lt nodes b Hb) as (y & Ey). exists x, y. unfold edge_result, vget_idx. cbn [fst snd].
    rewrite Ex, Ey. cbn [bind]. apply vget_ok in Ex, Ey. split; auto. split; auto. destruct x as [p|], y as [q|]; cbn; auto.
    - destruct (near p missing_q), (near q missing_q); reflexivity.
    - now destruct (near p missing_q).
    - now destruct (near q missing_q).
  Qed.

  (** *** Faces: every sample is lowered at most once *)
  Definition tracked (samples0 samples : list sample) (visited : list bool) : Prop :=
    length visited = length samples0 /\ length samples = length samples0 /\
    forall i s0, nth_error samples0 i = Some s0 -> exists s v, nth_error samples i = Some s /\ nth_error visited i = Some v /\
      if v then lowered s0 s else s = s0.
  Lemma lower_ok samples0 l : forall samples visited, tracked samples0 samples visited -> (forall i, In i l -> i < length samples0) ->
    exists samples' visited', fold_out lower_step l (samples, visited) = Ok (samples', visited') /\ tracked samples0 samples' visited' /\
      forall i, nth_error visited' i = Some true <-> nth_error visited i = Some true \/ In i l.
  Proof.
    induction l as [|i t IH]; intros samples visited T H; cbn [fold_out].
    - exists samples, visited. split; auto. split; auto. cbn. tauto.
    - destruct T as (L1 & L2 & T). assert (Hi : i < length samples0) by (apply H; cbn; auto).
      destruct (nth_error samples0 i) as [s0|] eqn:E0; [|apply nth_error_None in E0; lia]. destruct (T i s0 E0) as (s & v & Es & Ev & TV).
      unfold lower_step at 1. unfold vget at 1. rewrite Ev. cbn [bind]. destruct v; cbn [bind].
      + destruct (IH samples visited) as (s' & v' & E & T' & V); [split; auto|intros; apply H; cbn; auto|]. exists s', v'. split; auto. split; auto.
        intros j. rewrite V. cbn. split; [tauto|]. intros [Hj|[<-|Hj]]; auto.
      + rewrite vset_lt by lia. unfold vget. rewrite Es. cbn [bind]. rewrite vset_lt by lia. cbn [bind]. subst s.
        destruct (IH (set_nth i (Sample (s_at s0) (s_value s0 - 1)) samples) (set_nth i true visited)) as (s' & v' & E & T' & V).
        * split; [now rewrite set_nth_length|]. split; [now rewrite set_nth_length|]. intros j x Ex. destruct (Nat.eq_dec i j) as [<-|Hij].
          -- rewrite E0 in Ex. injection Ex as <-. exists (Sample (s_at s0) (s_value s0 - 1)), true. rewrite !nth_error_set_nth_eq by lia. repeat split; auto.
          -- rewrite !nth_error_set_nth_neq by auto. apply T; auto.
        * intros; apply H; cbn; auto.
        * exists s', v'. split; auto. split; auto. intros j. rewrite V. destruct (Nat.eq_dec i j) as [<-|Hij].
          -- rewrite nth_error_set_nth_eq by lia. cbn. tauto.
          -- rewrite nth_error_set_nth_neq by auto. cbn. tauto.
  Qed.

  Lemma tracked_init samples : tracked samples samples (repeat false (length samples)).
  Proof.
    split; [apply repeat_length|]. split; auto. intros i s E. exists s, false. split; auto. split; auto.
    apply nth_error_repeat. apply nth_error_Some. congruence.
  Qed.

  Lemma faces_ok m n use_closest transform samples locs : samples <> [] ->
    (forall loc, In loc locs -> l_usable loc = true /\ forall i, In i (l_found loc) \/ l_nearest loc = Some i -> i < length samples) ->
    exists rs samples', compute_faces big dist dist2 m n use_closest transform samples locs = Ok (rs, samples') /\ length rs = length locs /\
      length samples' = length samples /\
      forall i s, nth_error samples i = Some s -> exists s', nth_error samples' i = Some s' /\
        ((transform = true /\ hit_by_positive use_closest locs rs i /\ lowered s s') \/ (~ (transform = true /\ hit_by_positive use_closest locs rs i) /\ s' = s)).
  Proof.
    intros Hs H. unfold compute_faces.
    assert (G : forall samples1 visited results, tracked samples samples1 visited ->
      exists rs samples' visited', fold_out (face_step big dist dist2 m n use_closest transform) locs (results, (samples1, visited)) = Ok (results ++ rs, (samples', visited')) /\
        length rs = length locs /\ tracked samples samples' visited' /\
        forall i, nth_error visited' i = Some true <-> nth_error visited i = Some true \/ (transform = true /\ hit_by_positive use_closest locs rs i)).
    { induction locs as [|loc t IH]; intros samples1 visited results T; cbn [fold_out].
      - exists [], samples1, visited. rewrite app_nil_r. repeat (split; auto). intros [?|(_ & k & l & q & E & _)]; auto. now destruct k.
      - destruct (H loc (or_introl eq_refl)) as (U & I). assert (L : length samples1 = length samples) by apply T.
        destruct (on_polygon_ok m n use_closest samples1 loc U) as (r & found & E & Ef & F & _); [rewrite L; auto|].
        assert (Hh : forall rs i, hit_by_positive use_closest (loc :: t) (r :: rs) i <->
          ((exists q, r = Some q /\ (0 < q)%Q) /\ In i found) \/ hit_by_positive use_closest t rs i).
        { intros rs i. split.
          - intros ([|k] & l & q & E1 & E2 & Q & Hi); cbn in E1, E2; [left|right; exists k, l, q; auto]. injection E1 as <-. injection E2 as ->. subst found. eauto.
          - intros [((q & -> & Q) & Hi)|(k & l & q & E1 & E2 & Q & Hi)]; [exists 0, loc, q; subst found; cbn; auto|exists (S k), l, q; cbn; auto]. }
        assert (Hp : match r with Some q => qltb 0 q | None => false end = true <-> exists q, r = Some q /\ (0 < q)%Q).
        { destruct r as [q|]; [|split; [easy|intros (q & ? & _); easy]]. split; [intros Q; exists q; split; auto; now apply qltb_true|].
          intros (q' & [= <-] & Q). destruct (qltb 0 q) eqn:X; auto. apply qltb_false in X. lra. }
        unfold face_step at 1. rewrite E. cbn [bind]. destruct (transform && _) eqn:Et.
        + apply andb_true_iff in Et as (Et1 & Et2). apply Hp in Et2.
          destruct (lower_ok samples found samples1 visited T) as (s' & v' & El & T' & V'); [rewrite <- L; auto|]. rewrite El. cbn [bind].
          destruct (IH ltac:(intros; apply H; cbn; auto) s' v' (results ++ [r]) T') as (rs & s2 & v2 & E2 & L2 & T2 & V2).
          exists (r :: rs), s2, v2. rewrite E2, <- app_assoc. cbn. split; auto. split; auto. split; auto. intros i. rewrite V2, V', Hh. tauto.
        + cbn [bind]. destruct (IH ltac:(intros; apply H; cbn; auto) samples1 visited (results ++ [r]) T) as (rs & s2 & v2 & E2 & L2 & T2 & V2).
          exists (r :: rs), s2, v2. rewrite E2, <- app_assoc. cbn. split; auto. split; auto. split; auto. intros i. rewrite V2, Hh, <- Hp.
          apply andb_false_iff in Et as [->|Et]; [intuition discriminate|]. rewrite Et. intuition discriminate. }
    destruct (G samples (repeat false (length samples)) [] (tracked_init samples)) as (rs & s' & v' & E & L & (T1 & T2 & T3) & V).
    exists rs, s'. destruct samples as [|s0 t] eqn:Es; [easy|]. rewrite <- Es in *. cbn [app] in E. rewrite E. cbn [bind]. split; auto. split; auto. split; auto.
    assert (V0 : forall i, nth_error v' i = Some true <-> transform = true /\ hit_by_positive use_closest locs rs i).
    { intros i. rewrite V. split; auto. intros [X|X]; auto. apply nth_error_In in X. apply repeat_spec in X. discriminate. }
    intros i s Hi. destruct (T3 i s Hi) as (s1 & v & E1 & E2 & C). exists s1. split; auto. rewrite <- V0, E2. destruct v.
    - left. assert (X := proj1 (V0 i) E2). tauto.
    - right. split; auto. discriminate.
  Qed.
End Main.

(** *** Concrete cases *)
Definition sm (x y v : Z) : sample := Sample (inject_Z x, inject_Z y) (inject_Z v).
Definition huge : Q := inject_Z (2 ^ 100).
Definition line_dist (p q : qpoint) : Q := Qabs (fst p - fst q).
Definition line_dist2 (p q : qpoint) : Q := (line_dist p q * line_dist p q)%Q.


(** Two samples at distances 2 and 3 are missed by an inverse-distance average asking for at least one: the weight is compared with the number. *)
Lemma far_missed : let l := [sm 2 0 5; sm 3 0 6] in
  1 <= length l /\ calculate huge line_dist line_dist2 InverseWeightedDistance 1 (0, 0)%Q l = Some missing_q.
Proof. split; [cbn; lia|vm_compute; reflexivity]. Qed.
(** One sample close by passes for a hundred. *)
Lemma near_counted : exists r, calculate huge line_dist line_dist2 InverseWeightedDistance 100 (0, 0)%Q [sm 0 0 5] = Some r /\ (r == 5)%Q.
Proof. eexists. split; [vm_compute; reflexivity|reflexivity]. Qed.
Definition sample_samples : list sample := [sm 0 0 4; sm 1 0 8; sm 5 0 6].
Definition sample_faces : list location :=
  [Location (0, 0)%Q true [0; 1] (Some 0) (fun _ => true); Location (inject_Z 1, 0)%Q true [1] (Some 1) (fun _ => true);
   Location (inject_Z 9, 0)%Q true [] (Some 2) (fun _ => true)].
Lemma sample_faces_ok : forall loc, In loc sample_faces -> l_usable loc = true /\ (forall i, In i (l_found loc) \/ l_nearest loc = Some i -> i < length sample_samples) /\
  forall s, In s sample_samples -> (line_dist2 (l_at loc) (s_at s) < huge)%Q.
Proof.
  intros loc [<-|[<-|[<-|[]]]]; (split; [reflexivity|]); split; cbn [l_found l_nearest sample_samples length].
  all: try (intros s [<-|[<-|[<-|[]]]]; reflexivity).
  all: intros i; cbn; intros [H|[= <-]]; try lia; destruct H as [<-|H]; try lia; destruct H as [<-|H]; try lia; destruct H.
Qed.
Lemma sample_bounded : bounded huge sample_samples /\ forall s, In s sample_samples -> (inject_Z 4 <= s_value s <= inject_Z 8)%Q.
Proof. split; intros s [<-|[<-|[<-|[]]]]; split; try reflexivity; discriminate. Qed.

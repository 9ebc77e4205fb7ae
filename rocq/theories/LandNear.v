(** Land boundaries: the nearest segment, edges close to a piece, and the pieces. *)
From Verif Require Import Base BaseLemmas FloatModel FloatReal MeshModel MeshSpec FaceModel FaceSpec FlipSpec SplitModel PolyModel PolySpec PolyProofs ContactsProofs RefineProofs LandModel LandSpec.

Lemma SFltb_split x y z : y <> S754_nan -> SFltb x z = true -> SFltb x y = true \/ SFltb y z = true.
Proof.
  intros Hy. unfold SFltb, SFcompare. destruct x as [[]|[]| |[] m1 e1], y as [[]|[]| |[] m2 e2], z as [[]|[]| |[] m3 e3]; try congruence; auto; try (intros; discriminate);
    destruct (Z.compare_spec e1 e2), (Z.compare_spec e2 e3), (Z.compare_spec e1 e3); auto; intros H3; try discriminate; subst; try lia; 
    change (Pos.compare_cont Eq m1 m2) with (Pos.compare m1 m2); change (Pos.compare_cont Eq m2 m3) with (Pos.compare m2 m3); change (Pos.compare_cont Eq m1 m3) with (Pos.compare m1 m3) in H3;
    destruct (Pos.compare_spec m1 m2), (Pos.compare_spec m2 m3), (Pos.compare_spec m1 m3); auto; try discriminate; subst; cbn in *; try discriminate; exfalso; lia.
Qed.
Lemma SFltb_nan_r x : SFltb x S754_nan = false.
Proof. now destruct x as [[]|[]| |[]]. Qed.
Lemma SFltb_nan_l x : SFltb S754_nan x = false.
Proof. reflexivity. Qed.

Section Land.
  Variable dist dist2 : point -> point -> double.
  Variable line : point -> point -> point -> double * point * double.
  Variable inside : point -> bool.

  Lemma point_get land n : n < length land -> vget land n = Ok (point_at land n).
  Proof. intros H. apply vget_ok, nth_error_nth', H. Qed.

  (** *** The nearest segment *)
  Definition best_of (land : list point) (p : point) (a b : nat) (x : double * point * option nat * double) : Prop :=
    let '(d, q, i, r) := x in
    match i with
    | Some i => is_nearest line land a b p i d q r
    | None => d = dbl_max /\ q = p /\ r = double_of (-1) 0 /\ none_near line land a b p
    end.
  Lemma nearest_range land p a k : a + k < length land ->
    exists x, fold_out (nearest_step line land p) (seq a k) (dbl_max, p, None, double_of (-1) 0) = Ok x /\ best_of land p a (a + k) x.
  Proof.
    induction k as [|k IH]; intros Hk.
    - eexists. split; [reflexivity|]. cbn. repeat split; auto. intros n d Hn. lia.
    - destruct IH as ([[[d q] i] r] & E & B); [lia|]. rewrite seq_S, fold_out_app, E. cbn [bind fold_out]. unfold nearest_step at 1. rewrite !point_get by lia. cbn [bind].
      assert (Skip : (forall d', ~ counts line land (a + k) p d') -> best_of land p a (a + S k) (d, q, i, r)).
      { intros No. unfold best_of in *. destruct i as [i|].
        - destruct B as (B1 & B2 & B3 & B4). repeat split; [lia|lia|apply B2|apply B2|apply B2|apply B3|apply B3|apply B3| |].
          + destruct (Nat.eq_dec n (a + k)) as [->|]; [now destruct (No d')|]. apply (B4 n d'); [lia|assumption].
          + destruct (Nat.eq_dec n (a + k)) as [->|]; [now destruct (No d')|]. apply (B4 n d'); [lia|assumption].
        - destruct B as (B1 & B2 & B3 & B4). repeat split; auto. intros n d' Hn. destruct (Nat.eq_dec n (a + k)) as [->|]; [apply No|]. apply B4. lia. }
      destruct (is_valid (point_at land (a + k))) eqn:V1; cbn [negb orb].
      2: { eexists. split; [reflexivity|]. apply Skip. intros d' ((q' & r' & S1 & _) & _). congruence. }
      destruct (is_valid (point_at land (S (a + k)))) eqn:V2; cbn [negb].
      2: { eexists. split; [reflexivity|]. apply Skip. intros d' ((q' & r' & _ & S2 & _) & _). congruence. }
      destruct (line p (point_at land (a + k)) (point_at land (S (a + k)))) as [[d1 q1] r1] eqn:El.
      assert (Seg : segment line land (a + k) p d1 q1 r1) by (repeat split; auto).
      assert (Only : forall d', counts line land (a + k) p d' -> d' = d1) by (intros d' ((q' & r' & S1 & S2 & S3) & _); congruence).
      eexists. split; [reflexivity|]. change zero with (double_of 0 0).
      destruct (SFltb (double_of 0 0) d1) eqn:P1; cbn [andb].
      2: { apply Skip. intros d' C. pose proof (Only d' C). subst d'. destruct C as (_ & C & _). congruence. }
      assert (N1 : d1 <> S754_nan) by (intros ->; rewrite SFltb_nan_r in P1; discriminate).
      destruct (SFltb d1 d) eqn:L1.
      + assert (M1 : SFltb d1 dbl_max = true).
        { destruct i as [i|]; [|destruct B as (-> & _); exact L1]. destruct B as (_ & _ & (_ & _ & B) & _). eapply SFltb_trans; eauto. }
        cbn. repeat split; try lia; auto; [now exists q1, r1| |].
        * destruct (Nat.eq_dec n (a + k)) as [->|Hne]; [rewrite (Only d') by assumption; apply SFltb_irrefl|].
          destruct (SFltb d' d1) eqn:Lt; [|reflexivity]. destruct i as [i|].
          -- destruct B as (_ & _ & _ & B). destruct (B n d') as (B1 & _); [lia|assumption|]. pose proof (SFltb_trans _ _ _ Lt L1). congruence.
          -- destruct B as (_ & _ & _ & B). destruct (B n d'); [lia|assumption].
        * intros Hlt. destruct i as [i|].
          -- destruct B as (_ & _ & _ & B). destruct (B n d') as (B1 & _); [lia|assumption|]. destruct H0 as (_ & P' & _).
             destruct (SFltb_split d1 d' d) as [?|?]; auto; [|congruence]. intros ->. rewrite SFltb_nan_r in P'. discriminate.
          -- destruct B as (_ & _ & _ & B). destruct (B n d'); [lia|assumption].
      + unfold best_of in *. destruct i as [i|].
        * destruct B as (B1 & B2 & B3 & B4). repeat split; [lia|lia|apply B2|apply B2|apply B2|apply B3|apply B3|apply B3| |].
          -- destruct (Nat.eq_dec n (a + k)) as [->|]; [rewrite (Only d') by assumption; exact L1|]. apply (B4 n d'); [lia|assumption].
          -- intros Hn. apply (B4 n d'); [lia|assumption|exact Hn].
        * destruct B as (B1 & B2 & B3 & B4). repeat split; auto. intros n d' Hn C. destruct (Nat.eq_dec n (a + k)) as [->|]; [|eapply B4; [|exact C]; lia].
          pose proof (Only d' C). subst d' d. destruct C as (_ & _ & C). congruence.
  Qed.
  Definition ends_of (land : list point) (range : option (nat * nat)) : nat * nat := match range with None => (0, length land - 1) | Some r => r end.
  Lemma nearest_ok land range p : fst (ends_of land range) <= snd (ends_of land range) < length land ->
    exists x, nearest line land range p = Ok x /\ best_of land p (fst (ends_of land range)) (snd (ends_of land range)) x.
  Proof.
    intros H. unfold nearest. destruct (ends_of land range) as (a, b) eqn:E. cbn [fst snd] in *. unfold ends_of in E. rewrite E.
    destruct (nearest_range land p a (b - a)) as (x & Ex & Bx); [lia|]. exists x. split; [exact Ex|]. now replace (a + (b - a)) with b in Bx by lia.
  Qed.

  (** *** Edges close to a piece *)
  Lemma hop_forth lo hi k : (0 <= k)%Z -> hop 3 lo hi (lo + k) (2 * k) 0 = if (lo + k + 1 <=? hi)%Z then ((lo + (k + 1))%Z, (2 * (k + 1))%Z, 2) else ((lo - (k + 2))%Z, (- (2 * k + 3))%Z, 3).
  Proof.
    intros Hk. cbn [hop]. destruct (Z.ltb_spec (2 * k) 0); [lia|].
    replace (lo + k + (- (2 * k) - 1))%Z with (lo - (k + 1))%Z by lia. destruct (Z.ltb_spec (lo - (k + 1)) lo); [|lia]. cbn [orb].
    destruct (Z.ltb_spec (- (2 * k) - 1) 0); [|lia]. replace (lo - (k + 1) + (- (- (2 * k) - 1) + 1))%Z with (lo + (k + 1))%Z by lia.
    destruct (Z.ltb_spec (lo + (k + 1)) lo); [lia|]. cbn [orb]. replace (- (- (2 * k) - 1) + 1)%Z with (2 * (k + 1))%Z by lia.
    destruct (Z.ltb_spec hi (lo + (k + 1))), (Z.leb_spec (lo + k + 1) hi); try lia; [|reflexivity].
    destruct (Z.ltb_spec (2 * (k + 1)) 0); [lia|]. replace (lo + (k + 1) + (- (2 * (k + 1)) - 1))%Z with (lo - (k + 2))%Z by lia.
    replace (- (2 * (k + 1)) - 1)%Z with (- (2 * k + 3))%Z by lia. now destruct (_ || _).
  Qed.
  Section Close.
    Variables (land : list point) (p q : point) (close : double).
    Local Notation near := (near dist2 line land close p q).
    Local Notation faces_it := (faces_it line land close p q).
    Lemma probe_ok best n : S n < length land -> exists stop best', probe dist2 line land p q close best n = Ok (stop, best') /\
      ((near n /\ best' = Some n /\ (stop = true <-> faces_it n)) \/ (~ near n /\ best' = best /\ stop = false)).
    Proof.
      intros Hn. unfold probe. rewrite !point_get by lia. cbn [bind]. unfold LandSpec.near, LandSpec.faces_it, distance_to, ratio_at. change zero with (double_of 0 0).
      destruct (SFltb (double_of 0 0) (dist2 _ _)); [|eexists _, _; split; [reflexivity|]; right; repeat split; auto; intros (? & _); discriminate].
      destruct (line p (point_at land n) (point_at land (S n))) as [[d1 q1] r1] eqn:E1. cbn [fst snd]. destruct (SFltb d1 close) eqn:L1; cbn [fst snd].
      - eexists _, _. split; [reflexivity|]. left. split; [auto|]. split; [reflexivity|]. rewrite ?E1, ?E2. unfold within. rewrite andb_true_iff. reflexivity.
      - destruct (line q (point_at land n) (point_at land (S n))) as [[d2 q2] r2] eqn:E2. cbn [fst snd]. destruct (SFltb d2 close) eqn:L2; cbn [fst snd].
        + eexists _, _. split; [reflexivity|]. left. split; [auto|]. split; [reflexivity|]. rewrite ?E1, ?E2. unfold within. rewrite andb_true_iff. reflexivity.
        + eexists _, _. split; [reflexivity|]. right. repeat split; auto. intros (_ & [?|?]); discriminate.
    Qed.
    Lemma search_ok a b k : a < b < length land -> forall fuel best, a + k < b -> b - (a + k) <= fuel ->
      close_segment dist2 line land a (a + k) close p q best -> (forall n, a <= n < a + k -> near n -> ~ faces_it n) ->
      exists o, search dist2 line land p q close (Z.of_nat a) (Z.of_nat b - 1) fuel (Z.of_nat a + Z.of_nat k) (2 * Z.of_nat k) best = Ok o /\ close_segment dist2 line land a b close p q o.
    Proof.
      intros Hb. revert k. assert (G : forall t k, t = b - (a + k) -> forall fuel best, a + k < b -> b - (a + k) <= fuel ->
        close_segment dist2 line land a (a + k) close p q best -> (forall n, a <= n < a + k -> near n -> ~ faces_it n) ->
        exists o, search dist2 line land p q close (Z.of_nat a) (Z.of_nat b - 1) fuel (Z.of_nat a + Z.of_nat k) (2 * Z.of_nat k) best = Ok o /\ close_segment dist2 line land a b close p q o); [|eauto].
      induction t as [|t IH]; intros k Et fuel best Hk Hf C No; [lia|]. destruct fuel as [|fuel]; [lia|]. cbn [search]. destruct (Z.ltb_spec (Z.of_nat a + Z.of_nat k) 0); [lia|].
      rewrite <- Nat2Z.inj_add, Nat2Z.id. destruct (probe_ok best (a + k)) as (stop & best' & -> & P); [lia|]. cbn [bind].
      assert (C' : stop = false -> close_segment dist2 line land a (a + S k) close p q best').
      { intros ->. destruct P as [(N & -> & F)|(N & -> & _)]; unfold close_segment in *.
        - repeat split; try lia; [apply N|apply N|intros n Hn; apply No; lia|right; intros n Hn; lia].
        - destruct best as [i|]; [|intros n Hn; destruct (Nat.eq_dec n (a + k)) as [->|]; [exact N|apply C; lia]].
          destruct C as (C1 & C2 & C3 & C4). repeat split; try lia; [apply C2|apply C2|exact C3|]. destruct C4 as [C4|C4]; [now left|right]. intros n Hn. destruct (Nat.eq_dec n (a + k)) as [->|]; [exact N|apply C4; lia]. }
      destruct stop.
      - destruct P as [(N & -> & F)|(_ & _ & F)]; [|discriminate]. eexists. split; [reflexivity|]. unfold close_segment. repeat split; try lia; [apply N|apply N|exact No|left; now apply F].
      - specialize (C' eq_refl). rewrite Nat2Z.inj_add, hop_forth by lia. destruct (Z.leb_spec (Z.of_nat a + Z.of_nat k + 1) (Z.of_nat b - 1)).
        + cbn [Nat.ltb Nat.leb]. replace (Z.of_nat k + 1)%Z with (Z.of_nat (S k)) by lia. apply IH; try lia; [exact C'|]. intros n Hn Nn. destruct (Nat.eq_dec n (a + k)) as [->|]; [|apply No; [lia|exact Nn]].
          destruct P as [(_ & _ & F)|(N & _)]; [|contradiction]. intros Hc. apply F in Hc. discriminate.
        + cbn [Nat.ltb Nat.leb]. eexists. split; [reflexivity|]. now replace (a + S k) with b in C' by lia.
    Qed.
  End Close.
  Lemma close_piece_ok land a b factor m e u v p q : a < b < length land -> nth_error (m_edges m) e = Some (Some u, Some v) -> nth_error (m_nodes m) u = Some p -> nth_error (m_nodes m) v = Some q ->
    exists o, close_piece dist dist2 line land (a, b) factor m e = Ok o /\ close_segment dist2 line land a b (fmul (dist p q) factor) p q o.
  Proof.
    intros Hb He Hu Hv. unfold close_piece, get_edge, node_at. rewrite He. cbn [bind]. rewrite Hu, Hv. cbn [bind fst snd].
    destruct (search_ok land p q (fmul (dist p q) factor) a b 0 Hb (S (b - a)) None) as (o & Eo & Co); [lia|lia|intros n Hn; lia|intros n Hn; lia|].
    exists o. split; [|exact Co]. rewrite Z.add_0_r in Eo. exact Eo.
  Qed.
  Lemma close_piece_dead land range factor m e ed : nth_error (m_edges m) e = Some ed -> (fst ed = None \/ snd ed = None) -> close_piece dist dist2 line land range factor m e = Ok None.
  Proof.
    intros He Hd. unfold close_piece, get_edge. rewrite He. cbn [bind]. destruct ed as [[u|] [v|]]; destruct Hd as [Hd|Hd]; cbn in Hd; try discriminate; reflexivity.
  Qed.

  (** *** The pieces *)
  Lemma land_mask_ok land : land <> [] -> exists l, land_mask inside land = Ok l /\ length l = length land /\ forall n, n < length land -> nth_error l n = Some (touches inside land n && (S n <? length land)).
  Proof.
    intros Hne. assert (H0 : 0 < length land) by (destruct land; [congruence|cbn; lia]).
    destruct (fold_range (fun j l => length l = length land /\ forall n, n < length land -> nth_error l n = Some (touches inside land n && (n <? j))) (fun l n =>
      let! a := vget land n in
      let! b := vget land (S n) in
      if negb (is_valid a) || negb (is_valid b) then Ok l else if inside a || inside b then vset n true l else Ok l) (length land - 1) (repeat false (length land))) as (l & E & L & Hl).
    - split; [apply repeat_length|]. intros n Hn. rewrite andb_false_r. now apply nth_error_repeat.
    - intros j l Hj (L & Hl). rewrite !point_get by lia. cbn [bind].
      assert (Keep : touches inside land j = false -> length l = length land /\ forall n, n < length land -> nth_error l n = Some (touches inside land n && (n <? S j))).
      { intros T. split; [exact L|]. intros n Hn. rewrite Hl by exact Hn. destruct (Nat.eq_dec n j) as [->|]; [now rewrite T|]. f_equal. f_equal. destruct (Nat.ltb_spec n j), (Nat.ltb_spec n (S j)); auto; lia. }
      unfold touches in Keep. destruct (is_valid (point_at land j)) eqn:V1; cbn [negb orb andb] in *; [|eauto]. destruct (is_valid (point_at land (S j))) eqn:V2; cbn [negb orb andb] in *; [|eauto].
      destruct (inside (point_at land j) || inside (point_at land (S j))) eqn:I; [|eauto]. rewrite vset_lt by lia. eexists. split; [reflexivity|]. rewrite set_nth_length. split; [exact L|].
      intros n Hn. destruct (Nat.eq_dec n j) as [->|Hne'].
      + rewrite nth_error_set_nth_eq by lia. unfold touches. rewrite V1, V2, I. cbn [andb]. now rewrite (proj2 (Nat.ltb_lt j (S j))) by lia.
      + rewrite nth_error_set_nth_neq by auto. rewrite Hl by exact Hn. f_equal. f_equal. destruct (Nat.ltb_spec n j), (Nat.ltb_spec n (S j)); auto; lia.
    - exists l. split; [exact E|]. split; [exact L|]. intros n Hn. rewrite Hl by exact Hn. f_equal. f_equal. destruct (Nat.ltb_spec n (length land - 1)), (Nat.ltb_spec (S n) (length land)); auto; lia.
  Qed.
  Lemma halves_ok l : fold_out halve_piece (seq 0 (length l)) l = Ok (cut_in_two l).
  Proof.
    assert (G : forall i, i <= length l -> fold_out halve_piece (seq 0 i) l =
      Ok (map (fun r => if long r then (fst r, middle_of r) else r) (firstn i l) ++ skipn i l ++ map (fun r => (middle_of r, snd r)) (filter long (firstn i l)))).
    { induction i as [|i IH]; intros Hi; [cbn; now rewrite app_nil_r|]. rewrite seq_S, fold_out_app, IH by lia. cbn [bind fold_out Nat.add].
      destruct (nth_error l i) as [r|] eqn:Er; [|apply nth_error_None in Er; lia]. pose proof (nth_error_split l i Er) as (l1 & l2 & -> & L1).
      rewrite <- L1. rewrite !firstn_app, !skipn_app, !firstn_all, !skipn_all, Nat.sub_diag. rewrite (firstn_all2 (n := S (length l1)) l1), (skipn_all2 (n := S (length l1)) l1) by lia. replace (S (length l1) - length l1) with 1 by lia.
      cbn [firstn skipn]. rewrite app_nil_r. rewrite !map_app, filter_app, map_app. cbn [map filter app].
      unfold halve_piece. unfold vget. rewrite nth_error_app2 by (rewrite map_length; lia). rewrite map_length, Nat.sub_diag. cbn [nth_error bind].
      fold (long r). destruct (long r).
      - fold (middle_of r). assert (Lt : length l1 < length (map (fun r => if long r then (fst r, middle_of r) else r) l1 ++ r :: l2 ++ map (fun r => (middle_of r, snd r)) (filter long l1))) by (rewrite app_length, map_length; cbn; lia).
        rewrite vset_lt by exact Lt. cbn [bind]. replace (length l1) with (length (map (fun r => if long r then (fst r, middle_of r) else r) l1) + 0) at 1 by (rewrite map_length; lia). rewrite set_nth_app2. cbn [set_nth map].
        f_equal. rewrite <- !app_assoc. cbn [app]. now rewrite <- ?app_assoc.
      - f_equal. rewrite <- !app_assoc. cbn [map app]. now rewrite app_nil_r. }
    rewrite (G (length l)) by lia. rewrite firstn_all, skipn_all. cbn [app]. reflexivity.
  Qed.
  Lemma pieces_ok land : land <> [] -> exists rs, runs land missing_double 0 (length land) rs /\ pieces_of inside land = Ok (cut_in_two (filter (fun r => touches inside land (fst r)) rs)).
  Proof.
    intros Hne. assert (H0 : 0 < length land) by (destruct land; [congruence|cbn; lia]). destruct (land_mask_ok land Hne) as (mask & Em & Lm & Hm). unfold pieces_of. rewrite Em. cbn [bind].
    destruct (find_indices_full land 0 missing_double) as (rs & Er & Hr). rewrite Nat.max_r in Hr by lia. rewrite Er. cbn [bind].
    assert (Sel : forall l acc, (forall r, In r l -> In r rs) -> fold_out (fun l r => let! v := vget mask (fst r) in Ok (if v : bool then l ++ [r] else l)) l acc = Ok (acc ++ filter (fun r => touches inside land (fst r)) l)).
    { induction l as [|(a, b) l IH]; intros acc Hin; cbn [fold_out filter]; [now rewrite app_nil_r|]. destruct Hr as (R1 & _). destruct (R1 a b (Hin _ (or_introl eq_refl))) as (_ & Ha & Hb & R4 & _ & R6).
      unfold vget at 1. cbn [fst]. rewrite Hm by lia. cbn [bind]. rewrite IH by (intros r Hr; apply Hin; now right).
      destruct (touches inside land a) eqn:T; cbn [andb]; [|reflexivity]. destruct (Nat.ltb_spec (S a) (length land)) as [Hl|Hl]; [now rewrite <- app_assoc|].
      exfalso. unfold touches in T. assert (V : is_valid (point_at land (S a)) = false) by (unfold point_at; rewrite nth_overflow by lia; reflexivity). rewrite V, andb_false_r in T. discriminate. }
    rewrite Sel by auto. cbn [bind app]. rewrite halves_ok. exists rs. auto.
  Qed.
  (** What this means: the pieces are not empty and consist of the segments of the runs that begin inside the polygons, each in one piece only. *)
  Lemma run_long land rs a b : runs land missing_double 0 (length land) rs -> In (a, b) rs -> touches inside land a = true -> a < b < length land.
  Proof.
    intros (R1 & _) Hin T. destruct (R1 a b Hin) as (_ & Ha & Hb & R4 & _ & R6). split; [|lia]. destruct (Nat.eq_dec a b) as [<-|]; [|lia]. exfalso. unfold touches in T.
    assert (V : is_valid (point_at land (S a)) = false); [|rewrite V, andb_false_r in T; discriminate]. destruct R6 as [R6|(p & Ep & Sp)].
    - unfold point_at. rewrite nth_overflow by lia. reflexivity.
    - unfold point_at. replace (S a) with (a + 1) by lia. erewrite nth_error_nth by exact Ep. unfold is_valid, is_valid_for. now rewrite Sp.
  Qed.
  Lemma cut_sound l r : In r (cut_in_two l) -> (forall r, In r l -> fst r < snd r) -> fst r < snd r /\ exists r', In r' l /\ fst r' <= fst r /\ snd r <= snd r'.
  Proof.
    intros Hin Hl. unfold cut_in_two in Hin. apply in_app_or in Hin as [Hin|Hin].
    - apply in_map_iff in Hin as (r' & <- & Hr'). pose proof (Hl r' Hr'). unfold long, middle_of. destruct (Nat.ltb_spec 1 (snd r' - fst r')); cbn [fst snd].
      + assert (0 < (snd r' - fst r') / 2) by (apply Nat.div_str_pos; lia). assert ((snd r' - fst r') / 2 < snd r' - fst r') by (apply Nat.div_lt; lia). split; [lia|]. exists r'. split; [exact Hr'|]. lia.
      + split; [lia|]. exists r'. split; [exact Hr'|]. lia.
    - apply in_map_iff in Hin as (r' & <- & Hr'). apply filter_In in Hr' as (Hr' & L). unfold long in L. apply Nat.ltb_lt in L. unfold middle_of. cbn [fst snd].
      assert (0 < (snd r' - fst r') / 2) by (apply Nat.div_str_pos; lia). assert ((snd r' - fst r') / 2 < snd r' - fst r') by (apply Nat.div_lt; lia). split; [lia|]. exists r'. split; [exact Hr'|]. lia.
  Qed.
  Lemma cut_segments l : Permutation.Permutation (segments (cut_in_two l)) (segments l).
  Proof.
    unfold cut_in_two. induction l as [|r l IH]; [constructor|]. cbn [map filter]. unfold segments in *. cbn [flat_map app]. rewrite flat_map_app in *. 
    destruct (long r) eqn:L; cbn [map flat_map fst snd].
    - unfold long in L. apply Nat.ltb_lt in L. assert (Hm : (snd r - fst r) / 2 < snd r - fst r) by (apply Nat.div_lt; lia).
      assert (E : seq (fst r) (snd r - fst r) = seq (fst r) (middle_of r - fst r) ++ seq (middle_of r) (snd r - middle_of r)).
      { unfold middle_of. replace (seq (fst r + (snd r - fst r) / 2) (snd r - (fst r + (snd r - fst r) / 2))) with (seq (fst r + (fst r + (snd r - fst r) / 2 - fst r)) (snd r - (fst r + (snd r - fst r) / 2))) by (f_equal; lia).
        rewrite <- seq_app. f_equal. lia. }
      rewrite E, <- !app_assoc. apply Permutation.Permutation_app_head. rewrite Permutation.Permutation_app_swap_app. apply Permutation.Permutation_app_head. exact IH.
    - apply Permutation.Permutation_app_head. exact IH.
  Qed.
  Lemma runs_disjoint land rs : runs land missing_double 0 (length land) rs -> NoDup (segments rs).
  Proof.
    intros (_ & Hs & _). unfold segments. induction Hs as [|r l Hs IH Hf]; [constructor|]. cbn [flat_map]. revert IH. generalize (seq_NoDup (snd r - fst r) (fst r)). intros N1 N2.
    assert (D : forall x, In x (seq (fst r) (snd r - fst r)) -> ~ In x (flat_map (fun r => seq (fst r) (snd r - fst r)) l)).
    { intros x Hx Hy. apply in_seq in Hx. apply in_flat_map in Hy as (r' & Hr' & Hy). apply in_seq in Hy. rewrite Forall_forall in Hf. specialize (Hf r' Hr'). cbn in Hf. lia. }
    induction N1 as [|x xs Hx N1 IHx]; [exact N2|]. cbn [app]. constructor; [|apply IHx; intros y Hy; apply D; now right]. intros Hc. apply in_app_or in Hc as [Hc|Hc]; [contradiction|]. apply (D x (or_introl eq_refl) Hc).
  Qed.
  Lemma filter_disjoint (P : nat * nat -> bool) l : NoDup (segments l) -> NoDup (segments (filter P l)).
  Proof.
    unfold segments. induction l as [|r l IH]; cbn [filter flat_map]; [auto|]. intros H. assert (N : NoDup (flat_map (fun r => seq (fst r) (snd r - fst r)) l)).
    { clear IH. induction (seq (fst r) (snd r - fst r)) as [|x xs IHx]; [exact H|]. cbn [app] in H. inversion H; subst. auto. }
    destruct (P r); [|auto]. cbn [flat_map]. specialize (IH N). revert H. induction (seq (fst r) (snd r - fst r)) as [|x xs IHx]; cbn [app]; [auto|]. intros H. inversion H; subst. constructor; [|auto].
    intros Hc. apply H2. apply in_or_app. apply in_app_or in Hc as [Hc|Hc]; [now left|right]. apply in_flat_map in Hc as (r' & Hr' & Hx). apply filter_In in Hr' as (Hr' & _). apply in_flat_map. eauto.
  Qed.
  Theorem pieces_meaning land : land <> [] -> exists rs ps, runs land missing_double 0 (length land) rs /\ pieces_of inside land = Ok ps /\
    (forall a b, In (a, b) ps -> a < b < length land) /\ NoDup (segments ps) /\
    (forall n, In n (segments ps) <-> exists a b, In (a, b) rs /\ touches inside land a = true /\ a <= n < b) /\
    ps = cut_in_two (filter (fun r => touches inside land (fst r)) rs).
  Proof.
    intros Hne. destruct (pieces_ok land Hne) as (rs & Hr & E). exists rs. eexists. split; [exact Hr|]. split; [exact E|].
    assert (Long : forall r, In r (filter (fun r => touches inside land (fst r)) rs) -> fst r < snd r < length land).
    { intros (a, b) Hin. apply filter_In in Hin as (Hin & T). exact (run_long land rs a b Hr Hin T). }
    repeat split.
    - destruct (cut_sound _ _ H (fun r H => proj1 (Long r H))) as (H1 & _). exact H1.
    - destruct (cut_sound _ _ H (fun r H => proj1 (Long r H))) as (H1 & r' & Hr' & _ & H2). apply Long in Hr'. cbn [snd] in *. lia.
    - eapply Permutation.Permutation_NoDup; [symmetry; apply cut_segments|]. apply filter_disjoint. eapply runs_disjoint. exact Hr.
    - intros Hn. apply (Permutation.Permutation_in _ (cut_segments _)) in Hn. unfold segments in Hn. apply in_flat_map in Hn as ((a, b) & Hin & Hn). apply filter_In in Hin as (Hin & T). apply in_seq in Hn. cbn [fst snd] in *. exists a, b. repeat split; auto; lia.
    - intros (a & b & Hin & T & Hn). apply (Permutation.Permutation_in _ (Permutation.Permutation_sym (cut_segments _))). unfold segments. apply in_flat_map. exists (a, b). split; [apply filter_In; auto|]. apply in_seq. cbn [fst snd]. lia.
  Qed.
End Land.

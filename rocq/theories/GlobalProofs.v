(** Proofs about generating a mesh of the globe. *)
From Verif Require Import Base FloatModel GlobalModel GlobalSpec.

Lemma extends_refl g : extends g g.
Proof. exists [], []. rewrite !app_nil_r. auto. Qed.
Lemma extends_trans a b c : extends a b -> extends b c -> extends a c.
Proof. intros (n & e & H1 & H2) (n' & e' & H3 & H4). exists (n ++ n'), (e ++ e'). rewrite H3, H4, H1, H2, !app_assoc. auto. Qed.

Lemma nth_error_snoc {A} (l : list A) x i y : nth_error (l ++ [x]) i = Some y -> nth_error l i = Some y \/ i = length l /\ y = x.
Proof.
  intros H. destruct (lt_dec i (length l)) as [L|L].
  - rewrite nth_error_app1 in H by exact L. auto.
  - right. rewrite nth_error_app2 in H by lia. destruct (i - length l) as [|k] eqn:E; cbn in H.
    + injection H as <-. split; [lia|reflexivity].
    + destruct k; discriminate.
Qed.

Section Proofs.
  Variable same : point -> point -> bool.

  Lemma last_same_spec p nodes : forall i found,
    match last_same same p nodes i found with
    | Some k => found = Some k \/ i <= k /\ exists q, nth_error nodes (k - i) = Some q /\ same p q = true
    | None => found = None /\ forall q, In q nodes -> same p q = false
    end.
  Proof.
    induction nodes as [|a t IH]; intros i found; cbn [last_same].
    - destruct found; [left; reflexivity|split; [reflexivity|intros q []]].
    - specialize (IH (i + 1) (if same p a then Some i else found)).
      destruct (last_same same p t (i + 1) (if same p a then Some i else found)) as [k|].
      + destruct IH as [H|(H & q & Hq & Hs)].
        * destruct (same p a) eqn:E; [|left; exact H]. injection H as <-. right. split; [lia|]. exists a. rewrite Nat.sub_diag. auto.
        * right. split; [lia|]. exists q. replace (k - i) with (S (k - (i + 1))) by lia. auto.
      + destruct IH as [H Hn]. destruct (same p a) eqn:E; [discriminate|]. split; [exact H|]. intros q [<-|Hq]; [exact E|apply Hn, Hq].
  Qed.

  Lemma place_ok g p : proper same g -> let (h, i) := place same g p in
    proper same h /\ extends g h /\ stands_for same h i p /\ forall q, In q (g_nodes h) -> In q (g_nodes g) \/ q = p.
  Proof.
    intros (P1 & P2 & P3). unfold place. pose proof (last_same_spec p (g_nodes g) 0 None) as L.
    destruct (last_same same p (g_nodes g) 0 None) as [i|].
    - split; [split; [exact P1|split; [exact P2|exact P3]]|]. split; [apply extends_refl|].
      destruct L as [L|(_ & q & Hq & Hs)]; [discriminate|]. rewrite Nat.sub_0_r in Hq. split; [exists q|]; auto.
    - destruct L as [_ L]. split; [|split; [|split]].
      + split; [|split; [exact P2|]].
        * cbn [g_nodes]. intros i j a b Lt Ha Hb.
          destruct (nth_error_snoc _ _ _ _ Hb) as [Hb'|[-> ->]].
          -- assert (j < length (g_nodes g)) by (apply nth_error_Some; congruence).
             rewrite nth_error_app1 in Ha by lia. exact (P1 _ _ _ _ Lt Ha Hb').
          -- rewrite nth_error_app1 in Ha by exact Lt. apply L. eapply nth_error_In, Ha.
        * cbn [g_nodes g_edges]. intros e He. rewrite app_length. cbn. specialize (P3 e He). lia.
      + exists [p], []. cbn. rewrite app_nil_r. auto.
      + exists p. cbn [g_nodes]. rewrite nth_error_app2, Nat.sub_diag by lia. auto.
      + cbn [g_nodes]. intros q Hq. apply in_app_or in Hq. destruct Hq as [Hq|[<-|[]]]; auto.
  Qed.

  Lemma stands_extends g h i p : extends g h -> stands_for same g i p -> stands_for same h i p.
  Proof.
    intros (n & e & H & _) (q & Hq & Hs). exists q. split; [|exact Hs]. rewrite H, nth_error_app1; [exact Hq|].
    apply nth_error_Some. congruence.
  Qed.
  Lemma joined_extends g h a b : extends g h -> joined g a b -> joined h a b.
  Proof. intros (n & e & _ & H) [J|J]; [left|right]; rewrite H; apply in_or_app; left; exact J. Qed.
  Lemma drawn_extends g h ps : extends g h -> drawn same g ps -> drawn same h ps.
  Proof.
    intros E (is & F & R). exists is. split.
    - clear R. induction F; constructor; [eapply stands_extends; eassumption|assumption].
    - intros k L. eapply joined_extends; [exact E|apply R, L].
  Qed.

  Lemma place_all_ok ps : forall g, proper same g ->
    let (h, is) := place_all same g ps in proper same h /\ extends g h /\ Forall2 (stands_for same h) is ps /\ g_edges h = g_edges g /\
    forall q, In q (g_nodes h) -> In q (g_nodes g) \/ In q ps.
  Proof.
    induction ps as [|p t IH]; intros g P; cbn [place_all].
    - split; [exact P|split; [apply extends_refl|split; [constructor|split; [reflexivity|auto]]]].
    - pose proof (place_ok g p P) as H. assert (Q : g_edges (fst (place same g p)) = g_edges g) by (unfold place; destruct (last_same _ _ _ _ _); reflexivity).
      destruct (place same g p) as [h i]. destruct H as (P' & E & S & O). cbn [fst] in Q.
      specialize (IH h P'). destruct (place_all same h t) as [k is]. destruct IH as (P'' & E' & F & Q' & O').
      split; [exact P''|split; [eapply extends_trans; eassumption|split; [|split; [congruence|]]]].
      + constructor; [eapply stands_extends; eassumption|exact F].
      + intros q Hq. destruct (O' q Hq) as [H|H]; [|right; right; exact H]. destruct (O q H) as [H'| ->]; [left; exact H'|right; left; reflexivity].
  Qed.

  Lemma joins_ends a b e : joins a b e = true <-> ends e = ends (a, b).
  Proof.
    unfold joins, ends. destruct e as [x y]. cbn [fst snd]. rewrite Bool.orb_true_iff, !Bool.andb_true_iff, !Nat.eqb_eq.
    split; [intros [[-> ->]|[-> ->]]; [reflexivity|f_equal; lia]|]. intros H. injection H as H1 H2. lia.
  Qed.
  Lemma ends_joined g a b e : In e (g_edges g) -> ends e = ends (a, b) -> joined g a b.
  Proof.
    intros H E. destruct e as [x y]. unfold ends in E. cbn [fst snd] in E. injection E as E1 E2.
    assert (D : x = a /\ y = b \/ x = b /\ y = a) by lia. destruct D as [[-> ->]|[-> ->]]; [left|right]; exact H.
  Qed.

  Lemma connect_ok g a b : proper same g -> a < length (g_nodes g) -> b < length (g_nodes g) ->
    proper same (connect g (a, b)) /\ extends g (connect g (a, b)) /\ joined (connect g (a, b)) a b /\ g_nodes (connect g (a, b)) = g_nodes g /\
    (forall e, In e (g_edges (connect g (a, b))) -> In e (g_edges g) \/ e = (a, b)).
  Proof.
    intros P La Lb. unfold connect. cbn [fst snd]. destruct (existsb (joins a b) (g_edges g)) eqn:X.
    - split; [exact P|split; [apply extends_refl|split; [|split; [reflexivity|auto]]]].
      apply existsb_exists in X. destruct X as (e & He & J). apply joins_ends in J. eapply ends_joined; eassumption.
    - destruct P as (P1 & P2 & P3). split; [|split; [|split; [|split; [reflexivity|]]]].
      + split; [exact P1|split].
        * cbn [g_edges]. intros i j e f Lt He Hf.
          destruct (nth_error_snoc _ _ _ _ Hf) as [Hf'|[-> ->]].
          -- assert (j < length (g_edges g)) by (apply nth_error_Some; congruence).
             rewrite nth_error_app1 in He by lia. exact (P2 _ _ _ _ Lt He Hf').
          -- rewrite nth_error_app1 in He by exact Lt. apply nth_error_In in He. intros Q.
             assert (T : existsb (joins a b) (g_edges g) = true) by (apply existsb_exists; exists e; split; [exact He|apply joins_ends, Q]).
             congruence.
        * cbn [g_nodes g_edges]. intros e He. apply in_app_or in He. destruct He as [He|[<-|[]]]; [apply P3, He|]. split; assumption.
      + exists [], [(a, b)]. cbn. rewrite app_nil_r. auto.
      + left. cbn. apply in_or_app. right. left. reflexivity.
      + cbn [g_edges]. intros e He. apply in_app_or in He. destruct He as [He|[<-|[]]]; auto.
  Qed.
  Lemma connects_ok l : forall g, proper same g -> (forall s, In s l -> fst s < length (g_nodes g) /\ snd s < length (g_nodes g)) ->
    proper same (fold_left connect l g) /\ extends g (fold_left connect l g) /\ (forall s, In s l -> joined (fold_left connect l g) (fst s) (snd s)) /\
    (forall e, In e (g_edges (fold_left connect l g)) -> In e (g_edges g) \/ In e l) /\ g_nodes (fold_left connect l g) = g_nodes g.
  Proof.
    induction l as [|[a b] l IH]; intros g P B; cbn [fold_left].
    - split; [exact P|split; [apply extends_refl|split; [intros s []|auto]]].
    - destruct (B (a, b) (or_introl eq_refl)) as [La Lb]. cbn [fst snd] in La, Lb.
      destruct (connect_ok g a b P La Lb) as (P' & E & J & N & O).
      assert (B' : forall s, In s l -> fst s < length (g_nodes (connect g (a, b))) /\ snd s < length (g_nodes (connect g (a, b)))).
      { intros s Hs. rewrite N. apply B. right. exact Hs. }
      destruct (IH _ P' B') as (P'' & E' & J' & O' & N').
      split; [exact P''|split; [eapply extends_trans; eassumption|split; [|split; [|congruence]]]].
      + intros s [<-|Hs]; [cbn [fst snd]; eapply joined_extends; eassumption|apply J', Hs].
      + intros e He. destruct (O' e He) as [H|H]; [|right; right; exact H]. destruct (O e H) as [H'| ->]; [left; exact H'|right; left; reflexivity].
  Qed.

  Lemma sides_spec is s : In s (sides is) <-> exists k, k < length is /\ s = (nth k is 0, nth (after (length is) k) is 0).
  Proof.
    destruct is as [|i t]; [cbn; split; [intros []|intros (k & H & _); lia]|]. unfold sides.
    assert (L : length (combine (i :: t) (t ++ [i])) = S (length t)) by (rewrite combine_length, app_length; cbn [length]; lia).
    assert (V : forall k, k < S (length t) -> nth k (combine (i :: t) (t ++ [i])) (0, 0) = (nth k (i :: t) 0, nth (after (S (length t)) k) (i :: t) 0)).
    { intros k Hk. rewrite combine_nth by (rewrite app_length; cbn [length]; lia). f_equal. unfold after.
      destruct (Nat.eqb_spec (k + 1) (S (length t))) as [Q|Q].
      - rewrite app_nth2 by lia. replace (k - length t) with 0 by lia. reflexivity.
      - rewrite app_nth1 by lia. rewrite Nat.add_1_r. reflexivity. }
    cbn [length]. split.
    - intros H. destruct (In_nth _ _ (0, 0) H) as (k & Hk & <-). rewrite L in Hk. exists k. split; [exact Hk|apply V, Hk].
    - intros (k & Hk & ->). rewrite <- V by exact Hk. apply nth_In. rewrite L. exact Hk.
  Qed.

  Lemma polygon_ok g ps : proper same g ->
    proper same (add_polygon same g ps) /\ extends g (add_polygon same g ps) /\
    exists is, Forall2 (stands_for same (add_polygon same g ps)) is ps /\ ring (add_polygon same g ps) is /\
      (forall q, In q (g_nodes (add_polygon same g ps)) -> In q (g_nodes g) \/ In q ps) /\
      forall e, In e (g_edges (add_polygon same g ps)) -> In e (g_edges g) \/ exists k, k < length is /\ e = (nth k is 0, nth (after (length is) k) is 0).
  Proof.
    intros P. unfold add_polygon. pose proof (place_all_ok ps g P) as H. destruct (place_all same g ps) as [h is].
    destruct H as (P' & E & F & Q & ON).
    assert (B : forall i, In i is -> i < length (g_nodes h)).
    { clear - F. induction F as [|i p is ps S F IH]; intros k [].
      - subst. destruct S as (q & Hq & _). apply nth_error_Some. congruence.
      - apply IH. assumption. }
    assert (B' : forall s, In s (sides is) -> fst s < length (g_nodes h) /\ snd s < length (g_nodes h)).
    { intros s Hs. apply sides_spec in Hs. destruct Hs as (k & Hk & ->). cbn [fst snd]. split; apply B, nth_In; [exact Hk|].
      unfold after. destruct (Nat.eqb_spec (k + 1) (length is)); lia. }
    destruct (connects_ok (sides is) h P' B') as (P'' & E' & J & O & N).
    split; [exact P''|split; [eapply extends_trans; eassumption|]]. exists is. split; [|split; [|split]].
    - revert E'. generalize (fold_left connect (sides is) h). intros h' E'. clear - F E'.
      induction F; constructor; [eapply stands_extends; eassumption|assumption].
    - intros k Hk. apply (J (nth k is 0, nth (after (length is) k) is 0)). apply sides_spec. exists k. auto.
    - rewrite N. exact ON.
    - intros e He. destruct (O e He) as [H|H]; [left; rewrite <- Q; exact H|right; apply sides_spec, H].
  Qed.
  Lemma grown_refl g F : grown same g g F.
  Proof. split; [apply extends_refl|split; auto]. Qed.
  Lemma grown_trans a b c (F G : list point -> Prop) : (forall ps, G ps -> F ps) -> grown same a b F -> grown same b c G -> grown same a c F.
  Proof.
    intros I (E1 & N1 & D1) (E2 & N2 & D2). split; [eapply extends_trans; eassumption|split].
    - intros q H. destruct (N2 q H) as [H'|(ps & Hf & Hq)]; [apply N1, H'|]. right. exists ps. auto.
    - intros e H. destruct (D2 e H) as [H'|(ps & is & k & Hf & S & R)].
      + destruct (D1 e H') as [H''|(ps & is & k & Hf & S & R)]; [left; exact H''|]. right. exists ps, is, k. split; [exact Hf|split; [|exact R]].
        clear - S E2. induction S; constructor; [eapply stands_extends; eassumption|assumption].
      + right. exists ps, is, k. auto.
  Qed.
  Lemma grown_more a b (F G : list point -> Prop) : (forall ps, F ps -> G ps) -> grown same a b F -> grown same a b G.
  Proof. intros I H. eapply grown_trans; [exact I|apply grown_refl|exact H]. Qed.
  Lemma face_ok g ps side : proper same g ->
    proper same (add_face same g ps side) /\ grown same g (add_face same g ps side) (eq (map (on_side side) ps)) /\
    drawn same (add_face same g ps side) (map (on_side side) ps).
  Proof.
    intros P. destruct (polygon_ok g (map (on_side side) ps) P) as (P' & E & is & F & R & N & D).
    split; [exact P'|split; [split; [exact E|split]|exists is; auto]].
    - intros q H. destruct (N q H); [auto|right; eexists; split; [reflexivity|assumption]].
    - intros e H. destruct (D e H) as [H'|(k & Hk & He)]; [auto|right]. exists (map (on_side side) ps), is, k. auto.
  Qed.

  Lemma points_spec b j halfway : face_points (west b j) (b_lat b) (b_dlon b) (b_dlat b) halfway = lower b j halfway ++ upper b j.
  Proof. destruct halfway; reflexivity. Qed.
  Lemma points_third lon lat dlon dlat halfway : px (nth 2 (face_points lon lat dlon dlat halfway) missing_point) = fadd lon dlon.
  Proof. destruct halfway; reflexivity. Qed.

  (** The faces from column [s] on *)
  Definition faces_from (s n : nat) (b : band) (ps : list point) : Prop :=
    exists j side halfway, s <= j < s + n /\ fits b j /\ (side = 1%Z \/ side = (-1)%Z) /\
      (halfway = true <-> b_halfway b = true /\ forall i, i < j -> ~ fits b i) /\ ps = map (on_side side) (lower b j halfway ++ upper b j).
  Lemma around_ok b n : forall s halfway g, proper same g ->
    (halfway = true <-> b_halfway b = true /\ forall i, i < s -> ~ fits b i) ->
    let (h, p) := around same (seq s n) (b_lat b) (b_dlon b) (b_dlat b) halfway g in
    proper same h /\ grown same g h (faces_from s n b) /\ (forall ps, faces_from s n b ps -> drawn same h ps) /\
    (p = true <-> b_halfway b = true /\ forall i, i < s + n -> ~ fits b i).
  Proof.
    induction n as [|n IH]; intros s halfway g P W; cbn [seq around].
    - split; [exact P|split; [apply grown_refl|split]]. { intros ps (j & _ & _ & H & _). lia. } rewrite Nat.add_0_r. exact W.
    - fold (west b s). rewrite points_third, points_spec. destruct (SFleb (fadd (west b s) (b_dlon b)) (double_of 180 0)) eqn:T.
      + destruct (face_ok g (lower b s halfway ++ upper b s) 1 P) as (P1 & E1 & D1).
        destruct (face_ok _ (lower b s halfway ++ upper b s) (-1) P1) as (P2 & E2 & D2).
        set (g2 := add_face same (add_face same g (lower b s halfway ++ upper b s) 1) (lower b s halfway ++ upper b s) (-1)) in *. clearbody g2.
        assert (W' : false = true <-> b_halfway b = true /\ forall i, i < S s -> ~ fits b i).
        { split; [discriminate|]. intros [_ N]. destruct (N s (Nat.lt_succ_diag_r s)). exact T. }
        specialize (IH (S s) false g2 P2 W').
        destruct (around same (seq (S s) n) (b_lat b) (b_dlon b) (b_dlat b) false g2) as [h p]. destruct IH as (P' & E & D & Hp).
        split; [exact P'|split; [|split]].
        * eapply grown_trans with (b := g2) (G := faces_from (S s) n b); [|eapply grown_trans; [|eapply grown_more; [|exact E1]|exact E2]|exact E].
          -- intros ps (j & side & hw & Hj & X). exists j, side, hw. split; [lia|exact X].
          -- intros ps <-. exists s, (-1)%Z, halfway. split; [lia|split; [exact T|split; [auto|split; [exact W|reflexivity]]]].
          -- intros ps <-. exists s, 1%Z, halfway. split; [lia|split; [exact T|split; [auto|split; [exact W|reflexivity]]]].
        * intros ps (j & side & hw & Hj & F & Hs & Hw & ->).
          destruct (Nat.eq_dec j s) as [->|N]; [|apply D; exists j, side, hw; split; [lia|auto]].
          assert (Q : hw = halfway) by (destruct hw, halfway; try reflexivity; [symmetry; apply W, Hw; reflexivity|apply Hw, W; reflexivity]).
          subst hw. eapply drawn_extends; [exact (proj1 E)|]. destruct Hs as [-> | ->]; [|exact D2].
          eapply drawn_extends; [exact (proj1 E2)|exact D1].
        * rewrite Hp. replace (S s + n) with (s + S n) by lia. reflexivity.
      + assert (W' : halfway = true <-> b_halfway b = true /\ forall i, i < S s -> ~ fits b i).
        { rewrite W. split; intros [H N]; (split; [exact H|]); intros i Hi; [|apply N; lia].
          destruct (Nat.eq_dec i s) as [->|X]; [unfold fits; rewrite T; discriminate|apply N; lia]. }
        specialize (IH (S s) halfway g P W').
        destruct (around same (seq (S s) n) (b_lat b) (b_dlon b) (b_dlat b) halfway g) as [h p]. destruct IH as (P' & E & D & Hp).
        split; [exact P'|split; [|split]].
        * eapply grown_more; [|exact E]. intros ps (j & side & hw & Hj & X). exists j, side, hw. split; [lia|exact X].
        * intros ps (j & side & hw & Hj & F & X).
          destruct (Nat.eq_dec j s) as [->|N]; [unfold fits in F; congruence|apply D; exists j, side, hw; split; [lia|auto]].
        * rewrite Hp. replace (S s + n) with (s + S n) by lia. reflexivity.
  Qed.
  Lemma faces_all columns b ps : faces_from 0 columns b ps <-> face_of columns b ps.
  Proof. split; intros (j & side & hw & Hj & X); exists j, side, hw; (split; [lia|exact X]). Qed.
  Lemma band_ok b columns g : proper same g ->
    let (h, p) := around same (seq 0 columns) (b_lat b) (b_dlon b) (b_dlat b) (b_halfway b) g in
    proper same h /\ grown same g h (face_of columns b) /\ (forall ps, face_of columns b ps -> drawn same h ps) /\
    (p = true <-> b_halfway b = true /\ forall i, i < columns -> ~ fits b i).
  Proof.
    intros P. pose proof (around_ok b columns 0 (b_halfway b) g P) as H.
    destruct (around same (seq 0 columns) (b_lat b) (b_dlon b) (b_dlat b) (b_halfway b) g) as [h p].
    destruct H as (P' & E & D & Hp); [split; [intros H; split; [exact H|intros i Hi; lia]|intros [H _]; exact H]|].
    split; [exact P'|split; [|split; [|exact Hp]]].
    - eapply grown_more; [|exact E]. intros ps. apply faces_all.
    - intros ps H. apply D, faces_all, H.
  Qed.

  Variable latitude_step : double -> double -> double.
  Variable short : double -> bool.
  Lemma stacked_iff columns bs lat dlon (A B : Prop) : (A <-> B) -> stacked latitude_step short columns lat dlon A bs -> stacked latitude_step short columns lat dlon B bs.
  Proof.
    intros I. destruct bs as [|b t]; [auto|]. intros (H1 & H2 & H3). split; [exact H1|split; [exact H2|]].
    intros N. destruct (H3 N) as (H4 & H5). split; [rewrite <- I; exact H4|exact H5].
  Qed.
  Lemma upwards_ok columns : forall k lat dlon (pentagon : bool) g, proper same g ->
    exists bs, let h := upwards same latitude_step short k columns lat dlon pentagon g in
      proper same h /\ grown same g h (fun ps => exists b, In b bs /\ face_of columns b ps) /\
      stacked latitude_step short columns lat dlon (pentagon = true) bs /\
      (forall b ps, In b bs -> face_of columns b ps -> drawn same h ps) /\ (length bs = k \/ length bs <= k /\ at_pole bs).
  Proof.
    induction k as [|k IH]; intros lat dlon pentagon g P; cbn [upwards].
    - exists []. split; [exact P|split; [apply grown_refl|split; [exact I|split; [intros b ps []|left; reflexivity]]]].
    - cbv zeta. destruct (beyond lat (latitude_step lat dlon)) eqn:Y.
      + pose (b := Band lat dlon (fsub (double_of 90 0) lat) false). pose proof (band_ok b columns g P) as H.
        cbn [b b_lat b_dlon b_dlat b_halfway] in H. exists [b].
        destruct (around same (seq 0 columns) lat dlon (fsub (double_of 90 0) lat) false g) as [h p]. destruct H as (P' & E & F & _). cbn [fst].
        split; [exact P'|split; [|split; [|split]]].
        * eapply grown_more; [|exact E]. intros ps X. exists b. split; [left; reflexivity|exact X].
        * split; [reflexivity|split; [intros _; repeat split|intros N; destruct (N Y)]].
        * intros b' ps [<-|[]]. apply F.
        * right. split; [cbn; lia|]. exists [], b. repeat split.
      + set (refine := short (latitude_step lat dlon) && negb pentagon).
        set (dlon' := if refine then fmul (double_of 2 0) dlon else dlon).
        assert (R : (if refine then latitude_step lat dlon' else latitude_step lat dlon) = latitude_step lat dlon') by (subst dlon'; destruct refine; reflexivity).
        rewrite R. clear R.
        set (dlat := if beyond lat (latitude_step lat dlon') then fmul (fdiv (double_of 51 0) (double_of 100 0)) (fsub (double_of 90 0) lat) else latitude_step lat dlon').
        pose proof (band_ok (Band lat dlon' dlat refine) columns g P) as H. cbn [b_lat b_dlon b_dlat b_halfway] in H.
        destruct (around same (seq 0 columns) lat dlon' dlat refine g) as [h p]. destruct H as (P' & E & F & Hp).
        destruct (IH (fadd lat dlat) dlon' p h P') as (bs & P2 & E2 & S2 & F2 & L2).
        exists (Band lat dlon' dlat refine :: bs). split; [exact P2|split; [|split; [|split]]].
        * eapply grown_trans; [|eapply grown_more; [|exact E]|exact E2].
          -- intros ps (b & Hb & X). exists b. split; [right; exact Hb|exact X].
          -- intros ps X. eexists. split; [left; reflexivity|exact X].
        * split; [reflexivity|split; [intros X; unfold too_high in X; unfold beyond in Y; congruence|intros _]]. cbn [b_lat b_dlon b_dlat b_halfway].
          split; [|split; [reflexivity|split; [|split; [|eapply stacked_iff; [exact Hp|exact S2]]]]].
          -- unfold refine. rewrite Bool.andb_true_iff, Bool.negb_true_iff. destruct pentagon; intuition congruence.
          -- intros X. unfold dlat, beyond. unfold too_high in X. rewrite X. reflexivity.
          -- intros X. unfold dlat. destruct (beyond lat (latitude_step lat dlon')) eqn:Z; [destruct (X Z)|reflexivity].
        * intros b ps [<-|Hb] X; [eapply drawn_extends; [exact (proj1 E2)|apply F, X]|eapply F2; eassumption].
        * destruct L2 as [L|[L (t & b & -> & A)]]; [left; cbn; lia|right]. split; [cbn in *; lia|]. exists (Band lat dlon' dlat refine :: t), b. split; [reflexivity|exact A].
  Qed.

  Lemma generate_ok columns rows p : 0 < columns -> 0 < rows -> p <> Flat ->
    exists h bs, generate same latitude_step short columns rows p = Ok h /\ proper same h /\
      stacked latitude_step short columns (double_of 0 0) (fdiv (double_of 360 0) (double_of (Z.of_nat columns) 0)) False bs /\
      (forall b ps, In b bs -> face_of columns b ps -> drawn same h ps) /\
      grown same (Globe [] []) h (fun ps => exists b, In b bs /\ face_of columns b ps) /\
      (length bs = rows \/ length bs <= rows /\ at_pole bs).
  Proof.
    intros C R N. assert (P : proper same (Globe [] [])).
    { repeat split; cbn; try contradiction; intros [|i] j ? ? ? H; discriminate. }
    destruct (upwards_ok columns rows (double_of 0 0) (fdiv (double_of 360 0) (double_of (Z.of_nat columns) 0)) false _ P) as (bs & P' & G & S & H & L).
    eexists _, bs. split; [|split; [exact P'|split; [|split; [exact H|split; [exact G|exact L]]]]].
    - unfold generate.
      destruct (Nat.eqb_spec columns 0); [lia|]. destruct (Nat.eqb_spec rows 0); [lia|]. destruct p; [contradiction|reflexivity..].
    - eapply stacked_iff; [|exact S]. split; [discriminate|intros []].
  Qed.
  Lemma generate_refused columns rows p : columns = 0 \/ rows = 0 \/ p = Flat <-> generate same latitude_step short columns rows p = Throw MeshKernelErr.
  Proof.
    unfold generate. destruct (Nat.eqb_spec columns 0) as [->|C]; [tauto|]. destruct (Nat.eqb_spec rows 0) as [->|R]; [tauto|].
    destruct p; [tauto|..]; (split; [intros [H|[H|H]]; [contradiction..|discriminate]|discriminate]).
  Qed.
End Proofs.

Section Latitude.
  Variable cosine root : double -> double.
  Variable radians tolerance lat dlon : double.
  Let it := iterate cosine root radians lat dlon.
  Let done := settled cosine root radians lat dlon tolerance.
  Lemma newton_ok k : forall i, exists n, i <= n <= i + k /\ newton cosine root radians tolerance k lat dlon (it i) = it n /\
    (n = i + k \/ i < n /\ done (n - 1)) /\ forall m, i <= m -> m + 1 < n -> ~ done m.
  Proof.
    induction k as [|k IH]; intros i; cbn [newton].
    - exists i. split; [lia|split; [reflexivity|split; [left; lia|intros m; lia]]].
    - change (fsub (it i) (adjustment cosine root radians lat dlon (it i))) with (it (S i)).
      destruct (SFltb (adjustment cosine root radians lat dlon (it i)) tolerance) eqn:T.
      + exists (S i). split; [lia|split; [reflexivity|split; [|intros m; lia]]]. right. split; [lia|]. replace (S i - 1) with i by lia. exact T.
      + destruct (IH (S i)) as (n & B & E & D & N). exists n. split; [lia|split; [exact E|split]].
        * destruct D as [D|[D1 D2]]; [left; lia|right; split; [lia|exact D2]].
        * intros m Hm Hn. destruct (Nat.eq_dec m i) as [->|X]; [|apply N; lia].
          intros H. change (SFltb (adjustment cosine root radians lat dlon (it i)) tolerance = true) in H. congruence.
  Qed.
  Lemma latitude_ok : exists n, 1 <= n <= 5 /\ delta_latitude cosine root radians tolerance lat dlon = it n /\
    (n = 5 \/ done (n - 1)) /\ forall m, m + 1 < n -> ~ done m.
  Proof.
    destruct (newton_ok 5 0) as (n & B & E & D & N). exists n. split; [destruct D; lia|split; [exact E|split]].
    - destruct D as [D|[_ D]]; auto.
    - intros m. apply N. lia.
  Qed.
End Latitude.

Section Thin.
  Variable level : double -> double -> bool.
  Variable nodes : list point.
  Variable all : list (option nat * option nat).
  Let counts := map (degree all) (seq 0 (length nodes)).
  Definition inside (e : option nat * option nat) : Prop := forall a b, e = (Some a, Some b) -> a < length nodes /\ b < length nodes.
  Lemma counts_at a : a < length nodes -> vget counts a = Ok (degree all a).
  Proof.
    intros H. unfold vget, counts. rewrite nth_error_map, (nth_error_nth' _ 0) by (rewrite seq_length; exact H).
    rewrite seq_nth by exact H. reflexivity.
  Qed.
  Lemma crowded_spec n : crowded n = true <-> 5 <= n <= 6.
  Proof. unfold crowded. rewrite Bool.orb_true_iff, !Nat.eqb_eq. lia. Qed.
  Lemma thin_edge_ok e : inside e -> exists r, thin_edge level nodes counts e = Ok r /\
    (superfluous level nodes all e -> r = (None, None)) /\ (~ superfluous level nodes all e -> r = e).
  Proof.
    intros I. destruct e as [[a|] [b|]];
      try (eexists; split; [reflexivity|split; [intros (? & ? & ? & ? & H & _); discriminate|reflexivity]]).
    destruct (I a b eq_refl) as [La Lb]. unfold thin_edge. rewrite (counts_at a La), (counts_at b Lb). cbn [bind].
    destruct (crowded (degree all a) && crowded (degree all b)) eqn:C.
    - apply Bool.andb_true_iff in C. destruct C as [Ca Cb]. apply crowded_spec in Ca. apply crowded_spec in Cb.
      unfold vget. destruct (nth_error nodes a) as [p|] eqn:Ea; [|apply nth_error_None in Ea; lia].
      destruct (nth_error nodes b) as [q|] eqn:Eb; [|apply nth_error_None in Eb; lia]. cbn [bind].
      eexists. split; [reflexivity|]. destruct (level (py p) (py q)) eqn:L.
      + split; [reflexivity|]. intros N. destruct N. exists a, b, p, q. auto 10.
      + split; [|reflexivity]. intros (a' & b' & p' & q' & H & _ & _ & Hp & Hq & Hl). injection H as <- <-. congruence.
    - eexists. split; [reflexivity|]. split; [|reflexivity]. intros (a' & b' & p' & q' & H & Ca & Cb & _). injection H as <- <-.
      apply crowded_spec in Ca. apply crowded_spec in Cb. rewrite Ca, Cb in C. discriminate.
  Qed.
  Lemma thin_all l : (forall e, In e l -> inside e) -> exists r, thin level nodes counts l = Ok r /\
    Forall2 (fun e x => (superfluous level nodes all e -> x = (None, None)) /\ (~ superfluous level nodes all e -> x = e)) l r.
  Proof.
    induction l as [|e t IH]; intros I; cbn [thin].
    - exists []. split; [reflexivity|constructor].
    - destruct (thin_edge_ok e (I e (or_introl eq_refl))) as (x & Ex & Hx). destruct (IH (fun e H => I e (or_intror H))) as (r & Er & Hr).
      rewrite Ex, Er. exists (x :: r). split; [reflexivity|constructor; assumption].
  Qed.
End Thin.
Lemma thin_ok level nodes edges : (forall a b, In (Some a, Some b) edges -> a < length nodes /\ b < length nodes) ->
  exists r, thin level nodes (map (degree edges) (seq 0 (length nodes))) edges = Ok r /\
    Forall2 (fun e x => (superfluous level nodes edges e -> x = (None, None)) /\ (~ superfluous level nodes edges e -> x = e)) edges r.
Proof. intros I. apply thin_all. intros e He a b ->. apply I, He. Qed.

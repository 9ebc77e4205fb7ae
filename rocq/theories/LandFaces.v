(** Land boundaries: the faces along a piece and the node mask. *)
From Verif Require Import Base BaseLemmas FloatModel FloatReal MeshModel MeshSpec FaceModel FaceSpec FlipSpec NodeTypeSpec NodeTypeProofs SplitModel PolyModel PolySpec RefineProofs RefineMasks
  LandModel LandSpec LandNear.

Section Masking.
  Variables (m : mesh) (f : faces).
  Hypothesis St : in_step m f.
  Local Notation N := (length (m_nodes m)).
  Local Notation E := (length (m_edges m)).
  Local Notation F := (num_faces f).

  Lemma face_at i : i < F -> exists ns es, nth_error (faces_nodes f) i = Some ns /\ nth_error (faces_edges f) i = Some es /\ nth_error (num_faces_nodes f) i = Some (length ns) /\ (forall n, In n ns -> n < N).
  Proof.
    intros Hi. destruct (st_tables m f St) as (T1 & T2 & T3 & T4). destruct (nth_error (faces_nodes f) i) as [ns|] eqn:En; [|apply nth_error_None in En; unfold num_faces in Hi; lia].
    destruct (nth_error (faces_edges f) i) as [es|] eqn:Ee; [|apply nth_error_None in Ee; lia]. exists ns, es. repeat split; auto.
    - rewrite T2, nth_error_map, En. reflexivity.
    - intros n Hn. destruct (st_face m f St i ns es En Ee) as (_ & _ & _ & V). specialize (V n Hn). unfold valid_at in V. destruct (nth_error (m_nodes m) n) eqn:Q; [|discriminate]. apply nth_error_Some. congruence.
  Qed.
  Lemma lists_in i e : lists f i e -> i < F /\ e < E.
  Proof.
    intros L. split.
    - destruct L as (es & H & _). destruct (st_tables m f St) as (T1 & _). rewrite <- T1. apply nth_error_Some. congruence.
    - destruct (used_ends m f St e i L) as (a & b & H & _). destruct (Nat.lt_ge_cases e E) as [|G]; [assumption|]. unfold edge_at in H. rewrite nth_overflow in H by exact G. discriminate.
  Qed.
  Lemma edge_sides i e : lists f i e ->
    (nth_error (edges_num_faces f) e = Some 1 /\ (exists q, nth_error (edges_faces f) e = Some (Some i, q)) /\ forall j, lists f j e -> j = i) \/
    (nth_error (edges_num_faces f) e = Some 2 /\ exists p q j, nth_error (edges_faces f) e = Some (p, q) /\ (if eq_idx (Some i) p then q else p) = Some j /\ j <> i /\ lists f j e /\
       forall k, lists f k e -> k = i \/ k = j).
  Proof.
    intros L. destruct (lists_in i e L) as (_ & He). destruct (st_edge m f St e He) as (p & q & Ep & Hl & Hpq & Hp & Hk). pose proof (proj1 (Hl i) L) as H.
    destruct p as [x|]; [|rewrite Hp in * by reflexivity; destruct H; discriminate]. destruct q as [y|].
    - right. split; [exact Hk|]. assert (x <> y) by (intros ->; specialize (Hpq eq_refl); discriminate). destruct (Nat.eq_dec i x) as [->|Hne].
      + exists (Some x), (Some y), y. split; [exact Ep|]. cbn [eq_idx]. rewrite Nat.eqb_refl. repeat split; auto; [apply Hl; auto|]. intros k Hk'. apply Hl in Hk' as [Hk'|Hk']; injection Hk' as <-; auto.
      + destruct H as [H|H]; [congruence|]. injection H as ->. exists (Some x), (Some i), x. split; [exact Ep|]. cbn [eq_idx]. rewrite (proj2 (Nat.eqb_neq i x) Hne). repeat split; auto; [apply Hl; auto|].
        intros k Hk'. apply Hl in Hk' as [Hk'|Hk']; injection Hk' as <-; auto.
    - left. split; [exact Hk|]. destruct H as [H|H]; [|discriminate]. injection H as ->. split; [eauto|]. intros j Hj. apply Hl in Hj as [Hj|Hj]; congruence.
  Qed.

  Variable c : nat -> bool.
  Variable close : nat -> outcome bool.
  Hypothesis close_ok : forall e i, lists f i e -> close e = Ok (c e).

  Lemma touched_ok j es : nth_error (faces_edges f) j = Some es -> existsb c es = true <-> touched f c j.
  Proof.
    intros He. rewrite existsb_exists. unfold touched, lists. split.
    - intros (e & H1 & H2). exists e. split; [exists es; auto|exact H2].
    - intros (e & (es' & H1 & H2) & H3). exists e. split; [congruence|exact H3].
  Qed.
  Lemma any_close_ok j es : nth_error (faces_edges f) j = Some es -> any_close close es = Ok (existsb c es).
  Proof.
    intros He. assert (G : forall l, (forall e, In e l -> In e es) -> any_close close l = Ok (existsb c l)); [|apply G; auto].
    induction l as [|e l IH]; intros Hl; cbn [any_close existsb]; [reflexivity|]. rewrite (close_ok e j) by (exists es; split; [exact He|apply Hl; now left]). cbn [bind].
    destruct (c e); [reflexivity|]. cbn [orb]. apply IH. intros x Hx. apply Hl. now right.
  Qed.

  Definition flag (fm : list bool) (i : nat) : bool := nth i fm false.
  Lemma flag_get fm i : i < length fm -> vget fm i = Ok (flag fm i).
  Proof. intros H. apply vget_ok, nth_error_nth', H. Qed.
  Lemma flag_set fm i v j : i < length fm -> flag (set_nth i v fm) j = if j =? i then v else flag fm j.
  Proof. intros H. unfold flag. rewrite nth_set by exact H. reflexivity. Qed.

  (** *** No face crossed *)
  Lemma boundary_ok fm : length fm = F -> (forall i, flag fm i = false) ->
    exists fm', fold_out (mask_boundary f close) (seq 0 (length (edges_num_faces f))) fm = Ok fm' /\ length fm' = F /\ forall i, flag fm' i = true <-> along f c None i.
  Proof.
    intros L0 H0. destruct (st_tables m f St) as (T1 & T2 & T3 & T4).
    destruct (fold_range (fun k fm => length fm = F /\ forall i, flag fm i = true <-> touched f c i /\ exists e, e < k /\ lists f i e /\ nth_error (edges_num_faces f) e = Some 1)
      (mask_boundary f close) (length (edges_num_faces f)) fm) as (fm' & Ef & L & H).
    - split; [exact L0|]. intros i. rewrite H0. split; [discriminate|]. intros (_ & e & He & _). lia.
    - intros k fm1 Hk (L1 & H1). unfold mask_boundary, at_boundary. destruct (nth_error (edges_num_faces f) k) as [x|] eqn:Ex; [|apply nth_error_None in Ex; lia].
      unfold vget at 1. rewrite Ex. cbn [bind].
      assert (Keep : (forall i, lists f i k -> x = 1 -> touched f c i -> flag fm1 i = true) -> length fm1 = F /\
        forall i, flag fm1 i = true <-> touched f c i /\ exists e, e < S k /\ lists f i e /\ nth_error (edges_num_faces f) e = Some 1).
      { intros K. split; [exact L1|]. intros i. rewrite H1. split; intros (Ht & e & He & Hl & He1); split; auto.
        - exists e. repeat split; auto.
        - destruct (Nat.eq_dec e k) as [->|]; [|exists e; repeat split; auto; lia]. rewrite Ex in He1. injection He1 as ->. apply H1. now apply K. }
      destruct (Nat.eqb_spec x 1) as [->|Hx]; cbn [negb].
      2: { eexists. split; [reflexivity|]. apply Keep. intros; congruence. }
      destruct (st_edge m f St k ltac:(lia)) as (p & q & Ep & Hl & Hpq & Hp & Hn). unfold vget at 1. rewrite Ep. cbn [bind fst].
      rewrite Ex in Hn. injection Hn as Hn. destruct p as [i|]; [|rewrite Hp in Hn by reflexivity; discriminate]. cbn [row_index bind]. destruct q as [y|]; [cbn in Hn; lia|].
      assert (Li : lists f i k) by (apply Hl; auto). assert (Only : forall j, lists f j k -> j = i) by (intros j Hj; apply Hl in Hj as [Hj|Hj]; congruence).
      destruct (lists_in i k Li) as (Hi & _). rewrite flag_get by lia. cbn [bind]. destruct (flag fm1 i) eqn:Fi.
      { eexists. split; [reflexivity|]. apply Keep. intros j Hj _ _. now rewrite (Only j Hj). }
      destruct (face_at i Hi) as (ns & es & En & Ee & _). unfold vget at 1. rewrite Ee. cbn [bind]. rewrite (any_close_ok i es Ee). cbn [bind].
      destruct (existsb c es) eqn:Ec.
      + rewrite vset_lt by lia. eexists. split; [reflexivity|]. rewrite set_nth_length. split; [exact L1|]. intros j. rewrite flag_set by lia. destruct (Nat.eqb_spec j i) as [->|Hj].
        * split; [intros _|reflexivity]. split; [now apply (touched_ok i es Ee)|]. exists k. repeat split; auto.
        * rewrite H1. split; intros (Ht & e & He & Hle & He1); split; auto; exists e; repeat split; auto. destruct (Nat.eq_dec e k) as [->|]; [|lia]. destruct (Hj (Only j Hle)).
      + eexists. split; [reflexivity|]. apply Keep. intros j Hj _ Ht. rewrite (Only j Hj) in Ht. apply (touched_ok i es Ee) in Ht. congruence.
    - exists fm'. split; [exact Ef|]. split; [exact L|]. intros i. rewrite H. unfold along, at_edge. split.
      + intros (Ht & e & He & Hl & He1). split; [apply (lists_in i e Hl)|]. split; [exists e; auto|exact Ht].
      + intros (Hi & (e & Hl & He1) & Ht). split; [exact Ht|]. exists e. split; [apply nth_error_Some; congruence|auto].
  Qed.

  (** *** Spreading from a face *)
  Definition em_ok (em : list (option nat)) : Prop := length em = E /\ forall e v, nth_error em e = Some (Some v) -> v = if c e then 1 else 0.
  Lemma look_ok j es : nth_error (faces_edges f) j = Some es -> forall em, em_ok em -> exists em', fold_out (look close) es (em, false) = Ok (em', existsb c es) /\ em_ok em'.
  Proof.
    intros He. assert (G : forall l em b, (forall e, In e l -> In e es) -> em_ok em -> exists em', fold_out (look close) l (em, b) = Ok (em', b || existsb c l) /\ em_ok em').
    2: { intros em Hem. destruct (G es em false (fun e H => H) Hem) as (em' & H1 & H2). exists em'. auto. }
    induction l as [|e l IH]; intros em b Hl Hem; cbn [fold_out existsb]; [rewrite orb_false_r; eauto|].
    assert (Le : lists f j e) by (exists es; split; [exact He|apply Hl; now left]). destruct (lists_in j e Le) as (_ & HeE). destruct Hem as (Lem & Hem).
    unfold look at 1. cbn [fst snd]. destruct (nth_error em e) as [v|] eqn:Ev; [|apply nth_error_None in Ev; lia]. unfold vget at 1. rewrite Ev. cbn [bind].
    assert (Next : forall em' b', em_ok em' -> b' = b || c e -> exists em2, fold_out (look close) l (em', b') = Ok (em2, b || (c e || existsb c l)) /\ em_ok em2).
    { intros em' b' H' ->. rewrite orb_assoc. apply IH; [|exact H']. intros x Hx. apply Hl. now right. }
    assert (Same : em_ok em) by (split; auto).
    destruct v as [v|].
    - pose proof (Hem e v Ev) as Hv. cbn [eq_idx]. destruct (c e) eqn:Ce; subst v; cbn [Nat.eqb]; apply Next; auto; [now rewrite orb_true_r|now rewrite orb_false_r].
    - cbn [eq_idx]. rewrite vset_lt by lia. cbn [bind]. rewrite (close_ok e j Le). cbn [bind]. destruct (c e) eqn:Ce.
      + rewrite vset_lt by (rewrite set_nth_length; lia). cbn [bind]. rewrite set_nth_set_nth. apply Next; [|now rewrite orb_true_r]. split; [now rewrite set_nth_length|]. intros x w Hw.
        destruct (Nat.eq_dec x e) as [->|]; [rewrite nth_error_set_nth_eq in Hw by lia; injection Hw as <-; now rewrite Ce|rewrite nth_error_set_nth_neq in Hw by auto; now apply Hem].
      + apply Next; [|now rewrite orb_false_r]. split; [now rewrite set_nth_length|]. intros x w Hw.
        destruct (Nat.eq_dec x e) as [->|]; [rewrite nth_error_set_nth_eq in Hw by lia; injection Hw as <-; now rewrite Ce|rewrite nth_error_set_nth_neq in Hw by auto; now apply Hem].
  Qed.

  Definition total (fm : list bool) : nat := length (filter (fun b => b) fm).
  Lemma total_le fm : total fm <= length fm.
  Proof. unfold total. induction fm as [|[] fm IH]; cbn; lia. Qed.
  Lemma total_set fm i : i < length fm -> flag fm i = false -> total (set_nth i true fm) = S (total fm).
  Proof.
    revert i. induction fm as [|b fm IH]; intros i Hi Hf; cbn in Hi; [lia|]. destruct i as [|i]; cbn in *.
    - subst b. reflexivity.
    - unfold total in *. cbn [filter]. unfold flag in Hf. cbn [nth] in Hf. destruct b; cbn [length]; rewrite IH; auto; lia.
  Qed.

  Variable s : nat.
  Hypothesis Hs : s < F.
  Definition settled (fm : list bool) (i : nat) : Prop := forall j e, lists f i e -> lists f j e -> i <> j -> touched f c j -> flag fm j = true.
  Definition inv (pending : list (option nat)) (st : list bool * list (option nat) * list (option nat)) : Prop :=
    let '(fm, em, next) := st in
    length fm = F /\ em_ok em /\ flag fm s = true /\ (forall i, flag fm i = true -> reached f c s i) /\
    (forall oi, In oi (pending ++ next) -> exists i, oi = Some i /\ flag fm i = true) /\
    (forall i, flag fm i = true -> In (Some i) (pending ++ next) \/ settled fm i).
  Lemma flag_lt fm i : flag fm i = true -> i < length fm.
  Proof. unfold flag. intros H. destruct (Nat.lt_ge_cases i (length fm)); [assumption|]. rewrite nth_overflow in H by assumption. discriminate. Qed.

  Lemma across_ok i pending fm em next : i < F -> inv (Some i :: pending) (fm, em, next) ->
    exists fm' em' next', (let! es := vget (faces_edges f) i in fold_out (mask_across f close i) es (fm, em, next)) = Ok (fm', em', next') /\ inv pending (fm', em', next') /\
      total fm' + length next = total fm + length next'.
  Proof.
    intros Hi I. destruct (face_at i Hi) as (ns & es & En & Ee & _). unfold vget at 1. rewrite Ee. cbn [bind].
    pose (inv' := fun (done : list nat) (st : list bool * list (option nat) * list (option nat)) => inv (Some i :: pending) st /\ 
      (forall e j, In e done -> lists f j e -> i <> j -> touched f c j -> flag (fst (fst st)) j = true) /\ total (fst (fst st)) + length next = total fm + length (snd st)).
    assert (G : forall l d st, es = d ++ l -> inv' d st -> exists st', fold_out (mask_across f close i) l st = Ok st' /\ inv' es st').
    { induction l as [|e l IH]; intros d st Ed H; cbn [fold_out]; [rewrite app_nil_r in Ed; subst d; eauto|].
      assert (Le : lists f i e) by (exists es; split; [exact Ee|]; rewrite Ed; apply in_or_app; right; now left).
      assert (Step : forall st', inv' (d ++ [e]) st' -> exists st2, fold_out (mask_across f close i) l st' = Ok st2 /\ inv' es st2).
      { intros st' H'. apply (IH (d ++ [e])); [rewrite <- app_assoc; exact Ed|exact H']. }
      destruct st as [[fm1 em1] next1]. destruct H as (H1 & H2 & H3). cbn [fst snd] in *.
      assert (Keep : (forall j, lists f j e -> i <> j -> touched f c j -> flag fm1 j = true) -> inv' (d ++ [e]) (fm1, em1, next1)).
      { intros K. split; [exact H1|]. split; [|exact H3]. intros e' j He' Hl Hne Ht. apply in_app_or in He' as [He'|[<-|[]]]; [eapply H2; eauto|apply K; auto]. }
      unfold mask_across at 1, at_boundary at 1. destruct (edge_sides i e Le) as [(K1 & _ & K3)|(K1 & p & q & j & K2 & K3 & K4 & K5 & K6)].
      - unfold vget at 1. rewrite K1. cbn [bind Nat.eqb]. apply Step, Keep. intros j Hj Hne. destruct Hne. symmetry. now apply K3.
      - unfold vget at 1. rewrite K1. cbn [bind Nat.eqb]. unfold vget at 1. rewrite K2. cbn [bind fst snd]. rewrite K3. cbn [row_index bind]. destruct (lists_in j e K5) as (Hj & _).
        destruct H1 as (I1 & I2 & I3 & I4 & I5 & I6). rewrite flag_get by lia. cbn [bind]. destruct (flag fm1 j) eqn:Fj.
        { apply Step, Keep. intros k Hk Hne _. destruct (K6 k Hk) as [Q|Q]; [congruence|now rewrite Q]. }
        destruct (face_at j Hj) as (ns' & es' & En' & Ee' & _). unfold vget at 1. rewrite Ee'. cbn [bind]. destruct (look_ok j es' Ee' em1 I2) as (em2 & -> & Hem2). cbn [bind].
        rewrite vset_lt by lia. cbn [bind]. apply Step. destruct (existsb c es') eqn:Ec.
        + assert (Tj : touched f c j) by (now apply (touched_ok j es' Ee')).
          assert (Mono : forall k, flag fm1 k = true -> flag (set_nth j true fm1) k = true) by (intros k Hk; rewrite flag_set by lia; now destruct (k =? j)).
          split; [|split].
          * split; [now rewrite set_nth_length|]. split; [exact Hem2|]. split; [now apply Mono|]. split; [|split].
            -- intros k Hk. rewrite flag_set in Hk by lia. destruct (Nat.eqb_spec k j) as [Q|Q]; [rewrite Q|now apply I4].
               apply reached_next with (i := i) (e := e); auto. apply I4. destruct (I5 (Some i)) as (i' & Ei & Fi); [now left|]. injection Ei as <-. exact Fi.
            -- intros oi Hoi. rewrite app_assoc in Hoi. apply in_app_or in Hoi as [Hoi|[<-|[]]].
               ++ destruct (I5 oi Hoi) as (k & -> & Hk). exists k. split; [reflexivity|now apply Mono].
               ++ exists j. split; [reflexivity|]. rewrite flag_set by lia. now rewrite Nat.eqb_refl.
            -- intros k Hk. rewrite flag_set in Hk by lia. destruct (Nat.eqb_spec k j) as [Q|Q].
               ++ rewrite Q. left. rewrite app_assoc. apply in_or_app. right. now left.
               ++ destruct (I6 k Hk) as [H|H]; [left; rewrite app_assoc; apply in_or_app; now left|right]. intros x e' Hx1 Hx2 Hx3 Hx4. apply Mono. now apply (H x e').
          * intros e' k He' Hl Hne Ht. cbn [fst]. apply in_app_or in He' as [He'|[<-|[]]]; [apply Mono; eapply H2; eauto|].
            destruct (K6 k Hl) as [->| ->]; [congruence|]. rewrite flag_set by lia. now rewrite Nat.eqb_refl.
          * cbn [fst snd]. rewrite total_set by (auto; lia). rewrite app_length. cbn [length]. lia.
        + assert (Eq : set_nth j false fm1 = fm1) by (apply set_nth_same; rewrite (nth_error_nth' fm1 false) by lia; f_equal; exact Fj). rewrite Eq.
          split; [|split].
          * split; [exact I1|]. split; [exact Hem2|]. auto.
          * intros e' k He' Hl Hne Ht. cbn [fst]. apply in_app_or in He' as [He'|[<-|[]]]; [eapply H2; eauto|].
            destruct (K6 k Hl) as [->| ->]; [congruence|]. apply (touched_ok j es' Ee') in Ht. congruence.
          * cbn [fst snd]. exact H3. }
    destruct (G es [] (fm, em, next) eq_refl) as ([[fm' em'] next'] & H1 & H2).
    { split; [exact I|]. split; [intros e j []|reflexivity]. }
    exists fm', em', next'. split; [exact H1|]. destruct H2 as ((I1 & I2 & I3 & I4 & I5 & I6) & H2 & H3). cbn [fst snd] in *. split; [|exact H3].
    split; [exact I1|]. split; [exact I2|]. split; [exact I3|]. split; [exact I4|]. split; [intros oi Hoi; apply I5; now right|].
    intros k Hk. destruct (I6 k Hk) as [[H|H]|H]; [injection H as ->; right|now left|now right]. intros j e L1 L2 Hne Ht. apply (H2 e j); auto. destruct L1 as (es1 & E1 & L1). congruence.
  Qed.
  Lemma level_ok : 3 <= F -> forall from fm em next, inv from (fm, em, next) ->
    exists fm' em' next', fold_out (mask_from f close) from (fm, em, next) = Ok (fm', em', next') /\ inv [] (fm', em', next') /\ total fm' + length next = total fm + length next'.
  Proof.
    intros HF. induction from as [|oi from IH]; intros fm em next I; cbn [fold_out]; [exists fm, em, next; auto|].
    destruct I as (I1 & I2 & I3 & I4 & I5 & I6). destruct (I5 oi (or_introl eq_refl)) as (i & -> & Fi). unfold mask_from at 1. rewrite (proj2 (Nat.ltb_ge F 3) HF).
    assert (Hi : i < F) by (rewrite <- I1; now apply flag_lt).
    destruct (across_ok i from fm em next Hi) as (fm1 & em1 & next1 & -> & I' & T1); [repeat split; auto; apply I2|]. cbn [bind].
    destruct (IH fm1 em1 next1 I') as (fm2 & em2 & next2 & H1 & H2 & H3). exists fm2, em2, next2. split; [exact H1|]. split; [exact H2|]. lia.
  Qed.
  Lemma spread_ok : 3 <= F -> forall fuel from fm em, inv from (fm, em, []) -> F < total fm + fuel ->
    exists fm' em', mask_faces f close fuel from fm em = Ok (fm', em') /\ length fm' = F /\ forall i, flag fm' i = true <-> reached f c s i.
  Proof.
    intros HF. induction fuel as [|fuel IH]; intros from fm em I Hf.
    - destruct I as (I1 & _). pose proof (total_le fm). lia.
    - cbn [mask_faces]. destruct (level_ok HF from fm em [] I) as (fm1 & em1 & next1 & -> & I' & T1). cbn [bind length] in *. destruct next1 as [|x next1].
      + exists fm1, em1. split; [reflexivity|]. destruct I' as (I1 & I2 & I3 & I4 & I5 & I6). split; [exact I1|]. intros i. split; [apply I4|].
        intros R. induction R as [|i j e R IHR L1 L2 Hne Ht]; [exact I3|]. destruct (I6 i IHR) as [[]|H]. now apply (H j e).
      + apply IH; [unfold inv in I' |- *; rewrite app_nil_r; exact I'|]. cbn [length] in T1. lia.
  Qed.
End Masking.

Section Whole.
  Variables (m : mesh) (f : faces).
  Hypothesis St : in_step m f.
  Local Notation N := (length (m_nodes m)).
  Local Notation E := (length (m_edges m)).
  Local Notation F := (num_faces f).
  Variable c : nat -> bool.
  Variable close : nat -> outcome bool.
  Hypothesis close_ok : forall e i, lists f i e -> close e = Ok (c e).

  Theorem mask_faces_ok start : (forall i, start = Some i -> i < F) ->
    exists fm' em', mask_faces f close (S F) [start] (match start with Some i => set_nth i true (repeat false F) | None => repeat false F end) (repeat None E) = Ok (fm', em') /\
      length fm' = F /\ forall i, flag fm' i = true <-> along f c start i.
  Proof.
    intros Hst. assert (Z : forall i, flag (repeat false F) i = false) by (intros i; unfold flag; apply nth_repeat).
    destruct start as [s|].
    - specialize (Hst s eq_refl). unfold along. destruct (Nat.ltb_spec F 3) as [H3|H3].
      + cbn [mask_faces fold_out]. unfold mask_from. rewrite (proj2 (Nat.ltb_lt F 3) H3). cbn [bind]. eexists _, _. split; [reflexivity|]. rewrite set_nth_length, repeat_length. split; [reflexivity|].
        intros i. rewrite flag_set by (rewrite repeat_length; exact Hst). destruct (Nat.eqb_spec i s) as [->|]; [easy|]. rewrite Z. easy.
      + apply (spread_ok m f St c close close_ok s Hst H3) || apply (spread_ok m f St c close close_ok s H3).
        * split; [now rewrite set_nth_length, repeat_length|]. split; [split; [apply repeat_length|]|].
          { intros e v Hv. destruct (Nat.lt_ge_cases e E); [rewrite nth_error_repeat in Hv by assumption; discriminate|]. rewrite (proj2 (nth_error_None _ _)) in Hv by (rewrite repeat_length; assumption). discriminate. }
          assert (Fs : forall i, flag (set_nth s true (repeat false F)) i = true <-> i = s).
          { intros i. rewrite flag_set by (rewrite repeat_length; exact Hst). destruct (Nat.eqb_spec i s) as [->|]; [easy|]. rewrite Z. easy. }
          split; [now apply Fs|]. split; [intros i Hi; apply Fs in Hi as ->; constructor|]. split.
          -- intros oi [<-|[]]. exists s. split; [reflexivity|now apply Fs].
          -- intros i Hi. apply Fs in Hi as ->. left. now left.
        * rewrite total_set by (rewrite ?repeat_length; auto). lia.
    - cbn [mask_faces fold_out mask_from]. destruct (boundary_ok m f St c close close_ok (repeat false F)) as (fm' & -> & L & H); [apply repeat_length|exact Z|]. cbn [bind]. eauto.
  Qed.
End Whole.

Section NodeMask.
  Variable dist dist2 : point -> point -> double.
  Variable line : point -> point -> point -> double * point * double.
  Variable inside : point -> bool.
  Variable face_of : list (option nat).
  Variable crossed : point -> point -> option nat.
  Variables (m : mesh) (f : faces).
  Hypothesis St : in_step m f.
  Local Notation N := (length (m_nodes m)).
  Local Notation E := (length (m_edges m)).
  Local Notation F := (num_faces f).
  Variable land : list point.
  Hypothesis Lf : length face_of = length land.
  Hypothesis Vf : forall i, In (Some i) face_of -> i < F.
  Hypothesis Vc : forall p q i, crossed p q = Some i -> i < F.

  Lemma crossed_face_ok ns : (forall n, In n ns -> S n < length land) -> crossed_face face_of crossed land ns = Ok (first_known (map (met face_of crossed land) ns)).
  Proof.
    induction ns as [|n ns IH]; intros H; cbn [crossed_face map first_known]; [reflexivity|]. pose proof (H n (or_introl eq_refl)). unfold met at 1.
    rewrite (proj2 (vget_ok face_of n (nth n face_of None))) by (apply nth_error_nth'; lia). cbn [bind]. destruct (nth n face_of None); [reflexivity|]. rewrite !point_get by lia. cbn [bind].
    destruct (crossed _ _); [reflexivity|]. apply IH. intros k Hk. apply H. now right.
  Qed.
  Lemma first_met_in a b i : first_met face_of crossed land a b = Some i -> i < F.
  Proof.
    unfold first_met. induction (seq a (b - a)) as [|n ns IH]; cbn [map first_known]; [discriminate|]. destruct (met face_of crossed land n) eqn:M; [|exact IH]. intros [= <-]. unfold met in M.
    destruct (nth n face_of None) eqn:Q; [|eapply Vc; exact M]. injection M as ->. apply Vf. rewrite <- Q. apply nth_In. destruct (Nat.lt_ge_cases n (length face_of)); [assumption|]. rewrite nth_overflow in Q by assumption. discriminate.
  Qed.

  Definition whichn (mask : list (option nat)) (n : nat) : option nat := nth n mask None.
  Lemma mark_list k ns mask : (forall n, In n ns -> n < N) -> length mask = N ->
    exists mask', fold_out (fun mask j => let! n := vget ns j in vset n (Some k) mask) (seq 0 (length ns)) mask = Ok mask' /\ length mask' = N /\
      (forall n, whichn mask' n = if existsb (Nat.eqb n) ns then Some k else whichn mask n).
  Proof.
    intros Hns L. destruct (fold_range (fun j mask' => length mask' = N /\ forall n, whichn mask' n = if existsb (Nat.eqb n) (firstn j ns) then Some k else whichn mask n)
      (fun mask j => let! n := vget ns j in vset n (Some k) mask) (length ns) mask) as (mask' & E1 & L1 & H1).
    - split; [exact L|]. reflexivity.
    - intros j l Hj (Ll & Hl). destruct (nth_error ns j) as [x|] eqn:Ex; [|apply nth_error_None in Ex; lia]. unfold vget. rewrite Ex. cbn [bind]. assert (Hx : x < N) by (apply Hns; eapply nth_error_In; exact Ex).
      rewrite vset_lt by lia. eexists. split; [reflexivity|]. rewrite set_nth_length. split; [exact Ll|]. intros n. unfold whichn in *. rewrite nth_set by lia. rewrite Hl.
      destruct (Nat.eqb_spec n x) as [Q|Q].
      + assert (T : existsb (Nat.eqb n) (firstn (S j) ns) = true); [|now rewrite T]. apply existsb_exists. exists x. split; [|now apply Nat.eqb_eq]. apply (nth_error_In _ j). rewrite nth_error_firstn by lia. exact Ex.
      + assert (T : existsb (Nat.eqb n) (firstn (S j) ns) = existsb (Nat.eqb n) (firstn j ns)); [|now rewrite T]. clear Hl Hns. revert ns Hj Ex. induction j as [|j IH]; intros ns Hj Ex; destruct ns as [|y ns]; cbn in Hj; try lia.
        * cbn in Ex. injection Ex as ->. cbn. now rewrite (proj2 (Nat.eqb_neq n x) Q).
        * cbn [firstn existsb]. f_equal. apply IH; [lia|exact Ex].
    - exists mask'. rewrite firstn_all in H1. auto.
  Qed.
  Lemma marks_ok k fm : length fm = F ->
    exists mask, fold_out (mark_nodes f k fm) (seq 0 F) (repeat None N) = Ok mask /\ length mask = N /\
      forall n, (whichn mask n = Some k /\ exists i ns, flag fm i = true /\ nth_error (faces_nodes f) i = Some ns /\ In n ns) \/
        (whichn mask n = None /\ forall i ns, flag fm i = true -> nth_error (faces_nodes f) i = Some ns -> ~ In n ns).
  Proof.
    intros L. destruct (fold_range (fun j mask => length mask = N /\ forall n, (whichn mask n = Some k /\ exists i ns, flag fm i = true /\ nth_error (faces_nodes f) i = Some ns /\ In n ns) \/
        (whichn mask n = None /\ forall i ns, i < j -> flag fm i = true -> nth_error (faces_nodes f) i = Some ns -> ~ In n ns)) (mark_nodes f k fm) F (repeat None N)) as (mask & E1 & L1 & H1).
    - split; [apply repeat_length|]. intros n. right. split; [apply nth_repeat|]. intros; lia.
    - intros j l Hj (Ll & Hl). unfold mark_nodes. rewrite flag_get by lia. cbn [bind]. destruct (flag fm j) eqn:Fj.
      + destruct (face_at m f St j Hj) as (ns & es & En & Ee & Ek & Hns). rewrite (proj2 (vget_ok _ _ _) Ek). cbn [bind]. rewrite (proj2 (vget_ok _ _ _) En). cbn [bind].
        destruct (mark_list k ns l Hns Ll) as (l' & -> & L' & H'). eexists. split; [reflexivity|]. split; [exact L'|]. intros n. rewrite H'. destruct (existsb (Nat.eqb n) ns) eqn:X.
        * left. split; [reflexivity|]. exists j, ns. repeat split; auto. apply existsb_exists in X as (y & Hy & X). apply Nat.eqb_eq in X. now subst y.
        * destruct (Hl n) as [H|(H & No)]; [now left|right]. split; [exact H|]. intros i ns' Hi Fi Ei Hin. destruct (Nat.eq_dec i j) as [Q|]; [|now apply (No i ns' ltac:(lia) Fi Ei)].
          subst i. assert (ns' = ns) by congruence. subst ns'. assert (X' : existsb (Nat.eqb n) ns = true) by (apply existsb_exists; exists n; split; [exact Hin|apply Nat.eqb_refl]). congruence.
      + eexists. split; [reflexivity|]. split; [exact Ll|]. intros n. destruct (Hl n) as [H|(H & No)]; [now left|right]. split; [exact H|]. intros i ns Hi Fi Ei. destruct (Nat.eq_dec i j) as [Q|]; [congruence|]. apply (No i ns ltac:(lia) Fi Ei).
    - exists mask. split; [exact E1|]. split; [exact L1|]. intros n. destruct (H1 n) as [H|(H & No)]; [now left|right]. split; [exact H|]. intros i ns Fi Ei. apply (No i ns); auto. apply flag_lt in Fi. lia.
  Qed.
  Lemma restrict_ok mask : length mask = N ->
    exists mask', fold_out (fun mask n =>
      let! v := vget mask n in
      match v with
      | None => Ok mask
      | Some _ => let! p := node_at m (Some n) in if inside p then Ok mask else vset n None mask
      end) (seq 0 N) mask = Ok mask' /\ length mask' = N /\ forall n, n < N -> whichn mask' n = if inside (nth n (m_nodes m) missing_point) then whichn mask n else None.
  Proof.
    intros L. match goal with |- exists _, fold_out ?g _ _ = _ /\ _ => destruct (fold_range (fun j l => length l = N /\ forall n, n < N ->
      whichn l n = if (n <? j) && negb (inside (nth n (m_nodes m) missing_point)) then None else whichn mask n) g N mask) as (l & E1 & L1 & H1) end.
    - split; [exact L|]. reflexivity.
    - intros j l Hj (Ll & Hl). rewrite (proj2 (vget_ok l j (whichn l j))) by (apply nth_error_nth'; lia). cbn [bind]. pose proof (Hl j Hj) as Hj'. rewrite (proj2 (Nat.ltb_ge j j)) in Hj' by lia. cbn [andb] in Hj'.
      assert (Lt : forall n, n <> j -> (n <? S j) = (n <? j)) by (intros n Hn; destruct (Nat.ltb_spec n (S j)), (Nat.ltb_spec n j); auto; lia).
      assert (Keep : whichn l j = None \/ inside (nth j (m_nodes m) missing_point) = true -> length l = N /\ forall n, n < N -> whichn l n = if (n <? S j) && negb (inside (nth n (m_nodes m) missing_point)) then None else whichn mask n).
      { intros K. split; [exact Ll|]. intros n Hn. destruct (Nat.eq_dec n j) as [Q|Q]; [subst n|rewrite Hl, Lt by auto; reflexivity]. destruct K as [K|K].
        - rewrite <- Hj', K. now destruct (_ && _).
        - rewrite K, andb_false_r. exact Hj'. }
      destruct (whichn l j) as [v|] eqn:Wv; [|eexists; split; [reflexivity|apply Keep; now left]]. unfold node_at. rewrite (nth_error_nth' (m_nodes m) missing_point) by exact Hj. cbn [bind].
      destruct (inside (nth j (m_nodes m) missing_point)) eqn:I; [eexists; split; [reflexivity|apply Keep; now right]|]. rewrite vset_lt by lia. eexists. split; [reflexivity|]. rewrite set_nth_length. split; [exact Ll|].
      intros n Hn. unfold whichn in *. rewrite nth_set by lia. destruct (Nat.eqb_spec n j) as [Q|Q].
      + rewrite Q, I. rewrite (proj2 (Nat.ltb_lt j (S j))) by lia. reflexivity.
      + rewrite Hl, Lt by auto. reflexivity.
    - exists l. split; [exact E1|]. split; [exact L1|]. intros n Hn. rewrite H1 by exact Hn. rewrite (proj2 (Nat.ltb_lt n N) Hn). cbn [andb]. now destruct (inside _).
  Qed.

  (** The nodes masked for a piece: the nodes of the faces along it that are inside the polygons. *)
  Definition masked_for (a b : nat) (c : nat -> bool) (n : nat) : Prop :=
    inside (nth n (m_nodes m) missing_point) = true /\
    exists i ns, along f c (first_met face_of crossed land a b) i /\ nth_error (faces_nodes f) i = Some ns /\ In n ns.
  Theorem node_mask_ok a b factor k c : a < b < length land -> (forall e i, lists f i e -> c e = true <-> edge_close dist dist2 line land a b factor m e) ->
    exists mask, node_mask dist dist2 line inside face_of crossed land (a, b) factor k m f = Ok mask /\ length mask = N /\
      forall n, n < N -> (nth_error mask n = Some (Some k) /\ masked_for a b c n) \/ (nth_error mask n = Some None /\ ~ masked_for a b c n).
  Proof.
    intros Hab Hc. unfold node_mask. cbn [fst snd]. rewrite crossed_face_ok by (intros n Hn; apply in_seq in Hn; lia). cbn [bind]. fold (first_met face_of crossed land a b).
    pose proof (first_met_in a b) as Hst. set (start := first_met face_of crossed land a b) in *.
    assert (Ei : match start with Some i => vset i true (repeat false F) | None => Ok (repeat false F) end = Ok (match start with Some i => set_nth i true (repeat false F) | None => repeat false F end)).
    { destruct start as [s|]; [|reflexivity]. apply vset_lt. rewrite repeat_length. now apply Hst. }
    rewrite Ei. cbn [bind].
    destruct (mask_faces_ok m f St c (fun e => let! c := close_piece dist dist2 line land (a, b) factor m e in Ok (match c with Some _ => true | None => false end))) with (start := start) as (fm & em & -> & Lfm & Hfm).
    - intros e i Li. destruct (used_ends m f St e i Li) as (u & v & He & _ & Hu & Hv). destruct (lists_in m f St i e Li) as (_ & HeE).
      destruct (nth_error (m_nodes m) u) as [p|] eqn:Ep; [|apply nth_error_None in Ep; lia]. destruct (nth_error (m_nodes m) v) as [q|] eqn:Eq; [|apply nth_error_None in Eq; lia].
      assert (He' : nth_error (m_edges m) e = Some (Some u, Some v)) by (rewrite (nth_error_nth' (m_edges m) missing_edge) by exact HeE; f_equal; exact He).
      destruct (close_piece_ok dist dist2 line land a b factor m e u v p q Hab He' Ep Eq) as (o & -> & Co). cbn [bind]. f_equal. specialize (Hc e i Li). destruct o as [n|].
      + symmetry. apply Hc. destruct Co as (C1 & C2 & _). exists u, v, p, q, n. auto.
      + destruct (c e); [|reflexivity]. destruct (proj1 Hc eq_refl) as (u' & v' & p' & q' & n & H1 & H2 & H3 & H4 & H5). exfalso. apply (Co n H4). congruence.
    - exact Hst.
    - cbn [bind]. destruct (marks_ok k fm Lfm) as (mask & -> & Lm & Hm). cbn [bind]. destruct (restrict_ok mask Lm) as (mask' & -> & Lm' & Hm'). exists mask'. split; [reflexivity|]. split; [exact Lm'|].
      intros n Hn. assert (G : nth_error mask' n = Some (whichn mask' n)) by (apply nth_error_nth'; lia). rewrite G, Hm' by exact Hn. unfold masked_for. fold start. destruct (inside (nth n (m_nodes m) missing_point)).
      + destruct (Hm n) as [(-> & i & ns & H1 & H2 & H3)|(-> & No)]; [left|right]; split; auto.
        * split; [reflexivity|]. exists i, ns. repeat split; auto. now apply Hfm.
        * intros (_ & i & ns & H1 & H2 & H3). apply (No i ns); auto. now apply Hfm.
      + right. split; [reflexivity|]. intros (? & _). discriminate.
  Qed.
End NodeMask.

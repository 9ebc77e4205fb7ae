(** Invariants of the search for faces. *)
From Coq Require Import Permutation.
From Verif Require Import Base BaseLemmas FloatModel MeshModel MeshSpec FaceModel FaceSpec GridProofs FaceProofs.

Lemma mod_next i k : 0 < k -> S i mod k = if S (i mod k) =? k then 0 else S (i mod k).
Proof.
  intros Hk. pose proof (Nat.div_mod i k ltac:(lia)) as H. pose proof (Nat.mod_upper_bound i k ltac:(lia)) as Hu.
  destruct (S (i mod k) =? k) eqn:E; [apply Nat.eqb_eq in E|apply Nat.eqb_neq in E]; symmetry.
  - apply (Nat.mod_unique _ _ (S (i / k))); nia.
  - apply (Nat.mod_unique _ _ (i / k)); nia.
Qed.

Lemma nodup_map_inj {A B} (f : A -> B) l a b : NoDup (map f l) -> In a l -> In b l -> f a = f b -> a = b.
Proof.
  induction l as [|c t IH]; cbn; intros Hn Ha Hb E; [tauto|]. inversion Hn as [|? ? Hc Ht]; subst.
  destruct Ha as [<-|Ha], Hb as [<-|Hb]; auto.
  - exfalso. apply Hc. rewrite E. apply in_map, Hb.
  - exfalso. apply Hc. rewrite <- E. apply in_map, Ha.
Qed.

Section Faces.
  Variable clockwise : projection -> list point -> bool.
  Variable m : mesh.
  Hypothesis exact : adjacency_exact m.
  Hypothesis settled : forall e, In e (m_edges m) -> e = missing_edge \/ live (m_nodes m) e = true.

  Notation path := (path m).

  Lemma path_item n p ns es last : path n p ns es last -> forall i a e, nth_error ns i = Some a -> nth_error es i = Some e ->
    exists b, joins (edge_at m e) a b /\ e < length (m_edges m) /\ valid_at (m_nodes m) a = true /\
      (if S i =? length ns then b = last else nth_error ns (S i) = Some b).
  Proof.
    induction 1 as [n p o Hn Hin Hj|n p o p' ns es last Hn Hin Hj Ht Hpath IH]; intros i a e Ha He;
      destruct (listed m exact settled n p Hn Hin) as (Hp & o' & Hj' & Hv & _ & Ho & Hio).
    - destruct i as [|i]; [|destruct i; discriminate]. injection Ha as <-. injection He as <-. exists o. cbn. auto.
    - destruct (path_first m _ _ _ _ _ Hpath) as (ns' & es' & -> & -> & _). destruct i as [|i].
      + injection Ha as <-. injection He as <-. exists o. cbn. auto.
      + cbn [nth_error] in Ha, He. destruct (IH i a e Ha He) as (b & Hb). exists b.
        change (length (n :: o :: ns')) with (S (length (o :: ns'))). change (S (S i) =? S (length (o :: ns'))) with (S i =? length (o :: ns')). exact Hb.
  Qed.

  Lemma path_cycle n p ns es : path n p ns es n -> cycle_of_edges m ns es.
  Proof.
    intros H. destruct (path_length m _ _ _ _ _ H) as [Hl H1]. split; [exact Hl|]. intros i a b e Ha Hb He. unfold cyclic in *.
    rewrite Hl in He. rewrite mod_next in Hb by lia. destruct (path_item _ _ _ _ _ H _ _ _ Ha He) as (c & Hc & Hlt & _ & Hn). split; [exact Hlt|].
    destruct (S (i mod length ns) =? length ns).
    - destruct (path_first m _ _ _ _ _ H) as (ns' & es' & -> & -> & _). injection Hb as <-. subst c. exact Hc.
    - congruence.
  Qed.

  Lemma path_turning n p ns es last : path n p ns es last -> forall i a e e', nth_error ns (S i) = Some a -> nth_error es i = Some e -> nth_error es (S i) = Some e' -> turn m a e e'.
  Proof.
    induction 1 as [n p o Hn Hin Hj|n p o p' ns es last Hn Hin Hj Ht Hpath IH]; intros i a e e' Ha He He'; [destruct i; discriminate|].
    destruct (path_first m _ _ _ _ _ Hpath) as (ns' & es' & -> & -> & _). destruct i as [|i].
    - cbn in *. congruence.
    - apply (IH i); assumption.
  Qed.
  Lemma path_walk n p ns es : path n p ns es n -> turning_walk m ns es.
  Proof.
    intros H. split; [eapply path_cycle; eauto|]. split; [|eapply path_turning; eauto].
    intros a e Ha He. destruct (path_first m _ _ _ _ _ H) as (ns' & es' & -> & -> & _ & Hin). cbn in *. congruence.
  Qed.

  (** Every turning walk is a path. *)
  Lemma walk_from es : forall ns n p, 
    n < length (m_nodes m) -> In (Some p) (row_of m n) -> length es = length ns ->
    (forall i a b e, nth_error (n :: ns) i = Some a -> nth_error ns i = Some b -> nth_error (p :: es) i = Some e -> joins (edge_at m e) a b) ->
    (forall i a e e', nth_error ns i = Some a -> nth_error (p :: es) i = Some e -> nth_error es i = Some e' -> turn m a e e') ->
    forall last, (forall a e, nth_error (n :: ns) (length ns) = Some a -> nth_error (p :: es) (length ns) = Some e -> joins (edge_at m e) a last) ->
    path n p (n :: ns) (p :: es) last.
  Proof.
    induction es as [|p' es IH]; intros ns n p Hn Hin Hl Hj Ht last Hlast; destruct ns as [|o ns]; try discriminate.
    - constructor; auto.
    - assert (J : joins (edge_at m p) n o) by (apply (Hj 0); reflexivity).
      assert (T : turn m o p p') by (apply (Ht 0); reflexivity).
      destruct (listed m exact settled n p Hn Hin) as (_ & o' & Hj' & _ & _ & Ho & _).
      assert (o' = o) by (eapply joins_fun; eauto). subst o'.
      eapply path_step; eauto. apply IH; auto.
      + destruct T as (i & _ & Hi). apply (nth_error_In _ _ Hi).
      + intros i a b e H1 H2 H3. apply (Hj (S i)); assumption.
      + intros i a e e' H1 H2 H3. apply (Ht (S i) a e e'); assumption.
  Qed.
  Lemma walk_path ns es : turning_walk m ns es -> 1 <= length ns -> (forall n, In n ns -> n < length (m_nodes m)) -> exists n p, path n p ns es n.
  Proof.
    intros ((Hl & Hc) & Hs & Ht) H1 Hlt. destruct ns as [|n ns]; [cbn in H1; lia|]. destruct es as [|p es]; [discriminate|].
    exists n, p. unfold cyclic in Hc. rewrite Hl in Hc. apply walk_from.
    - apply Hlt. left. reflexivity.
    - apply Hs; reflexivity.
    - cbn in Hl. lia.
    - intros i a b e Ha Hb He.
      assert (Hi : i < length ns) by (apply nth_error_Some; congruence).
      apply (Hc i); rewrite Nat.mod_small by (cbn; lia); assumption.
    - intros i a e e' Ha He He'. apply (Ht i); assumption.
    - intros a e Ha He. apply (Hc (length ns)).
      + rewrite Nat.mod_small by (cbn; lia). exact Ha.
      + rewrite mod_next by (cbn; lia). rewrite Nat.mod_small by (cbn; lia). cbn [length]. rewrite Nat.eqb_refl. reflexivity.
      + rewrite Nat.mod_small by (cbn; lia). exact He.
  Qed.

  (** Different nodes make different edges. *)
  Lemma cycle_nodup ns es : cycle_of_edges m ns es -> 3 <= length ns -> NoDup ns -> NoDup es.
  Proof.
    intros (Hl & Hc) H3 Hn. apply NoDup_nth_error. intros i j Hi E.
    assert (Hj : j < length es) by (apply nth_error_Some; rewrite <- E; apply nth_error_Some; exact Hi).
    destruct (nth_error es i) as [e|] eqn:Ei; [|apply nth_error_None in Ei; lia]. symmetry in E.
    assert (N : forall x, x < length ns -> exists a b, nth_error ns x = Some a /\ nth_error ns (if S x =? length ns then 0 else S x) = Some b /\
      forall e, nth_error es x = Some e -> joins (edge_at m e) a b).
    { intros x Hx. destruct (nth_error ns x) as [a|] eqn:Ea; [|apply nth_error_None in Ea; lia].
      destruct (nth_error ns (if S x =? length ns then 0 else S x)) as [b|] eqn:Eb.
      - exists a, b. split; [reflexivity|]. split; [reflexivity|]. intros e' He'. apply (Hc x); unfold cyclic.
        + rewrite Nat.mod_small by lia. exact Ea.
        + rewrite mod_next by lia. rewrite Nat.mod_small by lia. exact Eb.
        + rewrite Nat.mod_small by lia. exact He'.
      - exfalso. apply nth_error_None in Eb. destruct (S x =? length ns) eqn:B; [lia|]. apply Nat.eqb_neq in B. lia. }
    destruct (N i ltac:(lia)) as (a & b & Ha & Hb & Hab). destruct (N j ltac:(lia)) as (c & d & Hc' & Hd & Hcd).
    specialize (Hab e Ei). specialize (Hcd e E).
    assert (U : forall x y, nth_error ns x = nth_error ns y -> x < length ns -> x = y) by (intros; apply (proj1 (NoDup_nth_error ns) Hn); auto).
    destruct Hab as [Hab|Hab], Hcd as [Hcd|Hcd]; rewrite Hab in Hcd; injection Hcd as E1 E2; subst.
    - apply U; [congruence|lia].
    - assert (X : i = if S j =? length ns then 0 else S j) by (apply U; [congruence|lia]).
      assert (Y : j = if S i =? length ns then 0 else S i) by (apply U; [congruence|lia]).
      destruct (S j =? length ns) eqn:B1, (S i =? length ns) eqn:B2; rewrite ?Nat.eqb_eq, ?Nat.eqb_neq in *; lia.
    - assert (X : i = if S j =? length ns then 0 else S j) by (apply U; [congruence|lia]).
      assert (Y : j = if S i =? length ns then 0 else S i) by (apply U; [congruence|lia]).
      destruct (S j =? length ns) eqn:B1, (S i =? length ns) eqn:B2; rewrite ?Nat.eqb_eq, ?Nat.eqb_neq in *; lia.
    - apply U; [congruence|lia].
  Qed.

  (** *** The state of the search *)
  Definition count (f : faces) (e : nat) : nat := nth e (edges_num_faces f) 0.
  Definition first (f : faces) (e : nat) : option nat := fst (nth e (edges_faces f) (None, None)).
  Definition pts (ns : list nat) : list point := map (fun n => nth n (m_nodes m) missing_point) ns.

  Definition rejected (f : faces) (ns es : list nat) : Prop :=
    ~ NoDup ns \/ clockwise (m_projection m) (pts ns) = true \/ (exists e, In e es /\ 2 <= count f e) \/
    ((forall e, In e es -> 1 <= count f e) /\ ~ NoDup (map (first f) es)).

  Definition grows (f f' : faces) : Prop :=
    forall e, e < length (m_edges m) -> count f e <= count f' e /\ (1 <= count f e -> first f' e = first f e).

  Lemma grows_refl f : grows f f.
  Proof. intros e _. auto. Qed.
  Lemma grows_trans a b c : grows a b -> grows b c -> grows a c.
  Proof. intros H1 H2 e He. destruct (H1 e He) as [A1 B1], (H2 e He) as [A2 B2]. split; [lia|]. intros H. rewrite B2 by lia. auto. Qed.
  Lemma rejected_grows f f' ns es : grows f f' -> (forall e, In e es -> e < length (m_edges m)) -> rejected f ns es -> rejected f' ns es.
  Proof.
    intros G Hlt [H|[H|[(e & He & H)|[H1 H2]]]]; [left; auto|right; left; auto|right; right; left|right; right; right].
    - exists e. split; auto. destruct (G e (Hlt e He)). lia.
    - split.
      + intros e He. destruct (G e (Hlt e He)). specialize (H1 e He). lia.
      + intros Hn. apply H2. erewrite map_ext_in; [exact Hn|]. intros e He. symmetry. apply (G e (Hlt e He)), H1, He.
  Qed.

  Definition added (f : faces) (ns es : list nat) (num : list nat) (ef : list (option nat * option nat)) : faces :=
    Faces num ef (faces_nodes f ++ [ns]) (faces_edges f ++ [es]) (num_faces_nodes f ++ [length ns]).

  Lemma one_edge_ok num es : (forall e, In e es -> e < length num) ->
    exists b, one_edge_has_no_face num es = Ok b /\ if b then exists e, In e es /\ nth e num 0 = 0 else forall e, In e es -> 1 <= nth e num 0.
  Proof.
    induction es as [|e t IH]; intros H; cbn [one_edge_has_no_face]; [exists false; split; [reflexivity|cbn; tauto]|].
    assert (E : vget num e = Ok (nth e num 0)) by (apply vget_ok, nth_error_nth', H; left; reflexivity). rewrite E. cbn [bind].
    destruct (nth e num 0 =? 0) eqn:B.
    - exists true. split; [reflexivity|]. exists e. apply Nat.eqb_eq in B. split; [left; reflexivity|exact B].
    - apply Nat.eqb_neq in B. destruct IH as ([|] & Hb & P); [intros; apply H; right; auto| |]; eexists; (split; [exact Hb|]); cbn.
      + destruct P as (x & Hx & Px). eauto.
      + intros x [<-|Hx]; [lia|auto].
  Qed.

  (** Recording the edges of a new face. *)
  Lemma record_ok F num ef es : length num = length (m_edges m) -> length ef = length (m_edges m) -> NoDup es ->
    (forall e, In e es -> e < length (m_edges m) /\ nth e num 0 <= 1) ->
    exists num' ef', fold_out (record_edge F) es (num, ef) = Ok (num', ef') /\
      length num' = length (m_edges m) /\ length ef' = length (m_edges m) /\
      forall e, e < length (m_edges m) ->
        nth e num' 0 = (if existsb (Nat.eqb e) es then S (nth e num 0) else nth e num 0) /\
        nth e ef' (None, None) = (if existsb (Nat.eqb e) es then
             (if nth e num 0 =? 0 then (Some F, snd (nth e ef (None, None))) else (fst (nth e ef (None, None)), Some F)) else nth e ef (None, None)).
  Proof.
    intros Hn He Hd Hes.
    destruct (fold_pre (record_edge F) (fun l (a : list nat * list (option nat * option nat)) =>
      length (fst a) = length (m_edges m) /\ length (snd a) = length (m_edges m) /\
      forall e, e < length (m_edges m) ->
        nth e (fst a) 0 = (if existsb (Nat.eqb e) l then S (nth e num 0) else nth e num 0) /\
        nth e (snd a) (None, None) = (if existsb (Nat.eqb e) l then
             (if nth e num 0 =? 0 then (Some F, snd (nth e ef (None, None))) else (fst (nth e ef (None, None)), Some F)) else nth e ef (None, None)))
      es (num, ef)) as ((num' & ef') & Hf & Hp); [| |eauto].
    2:{ cbn. auto. }
    intros l1 b l2 [num1 ef1] El (L1 & L2 & Hi). cbn [fst snd] in *. subst es.
    assert (Hb : In b (l1 ++ b :: l2)) by (apply in_or_app; right; left; reflexivity). destruct (Hes b Hb) as [Hlt Hc].
    assert (Hnb : existsb (Nat.eqb b) l1 = false).
    { apply not_true_iff_false. intros X. apply existsb_exists in X as (x & Hx & X). apply Nat.eqb_eq in X. subst x.
      apply NoDup_remove_2 in Hd. apply Hd, in_or_app. auto. }
    destruct (Hi b Hlt) as [C1 C2]. rewrite Hnb in C1, C2. unfold record_edge.
    assert (G1 : vget num1 b = Ok (nth b num 0)) by (rewrite <- C1; apply vget_ok, nth_error_nth'; lia).
    assert (G2 : vget ef1 b = Ok (nth b ef (None, None))) by (rewrite <- C2; apply vget_ok, nth_error_nth'; lia).
    rewrite G1. cbn [bind]. rewrite (vset_lt b _ num1) by lia. cbn [bind]. rewrite G2. cbn [bind].
    assert (Hm : exists p', match nth b num 0 with 0 => Ok (Some F, snd (nth b ef (None, None))) | 1 => Ok (fst (nth b ef (None, None)), Some F) | _ => UB end = Ok p' /\
       p' = if nth b num 0 =? 0 then (Some F, snd (nth b ef (None, None))) else (fst (nth b ef (None, None)), Some F)).
    { destruct (nth b num 0) as [|[|c]]; [cbn; eauto|cbn; eauto|lia]. }
    destruct Hm as (p' & -> & Hp'). cbn [bind]. rewrite (vset_lt b _ ef1) by lia. cbn [bind]. eexists. split; [reflexivity|]. cbn [fst snd].
    rewrite !set_nth_length. split; [exact L1|]. split; [exact L2|]. intros e Hel. destruct (Hi e Hel) as [D1 D2]. rewrite existsb_app. cbn [existsb]. rewrite orb_false_r.
    destruct (Nat.eqb_spec e b) as [->|Hne].
    - rewrite orb_true_r. split; apply nth_error_nth; rewrite nth_error_set_nth_eq; subst; auto; lia.
    - rewrite orb_false_r. split.
      + rewrite <- D1. destruct (nth_error num1 e) eqn:En; [|apply nth_error_None in En; lia]. rewrite (nth_error_nth _ _ _ En). apply nth_error_nth. rewrite nth_error_set_nth_neq; auto.
      + rewrite <- D2. destruct (nth_error ef1 e) eqn:En; [|apply nth_error_None in En; lia]. rewrite (nth_error_nth _ _ _ En). apply nth_error_nth. rewrite nth_error_set_nth_neq; auto.
  Qed.

  Lemma faces_with_added f ns es num ef e : length (faces_edges f) = num_faces f ->
    faces_with (added f ns es num ef) e = faces_with f e ++ (if existsb (Nat.eqb e) es then [num_faces f] else []).
  Proof.
    intros Hl. unfold faces_with, added, num_faces at 1. cbn [faces_nodes faces_edges]. rewrite app_length. cbn [length]. rewrite Nat.add_1_r, seq_S, filter_app. f_equal.
    - apply filter_ext_in. intros i Hi. apply in_seq in Hi. rewrite app_nth1 by (unfold num_faces in *; lia). reflexivity.
    - cbn. unfold num_faces in Hl. rewrite <- Hl, app_nth2, Nat.sub_diag by lia. cbn. rewrite Hl. unfold num_faces. destruct (existsb (Nat.eqb e) es); reflexivity.
  Qed.

  Lemma faces_with_lt f e i : In i (faces_with f e) -> i < num_faces f.
  Proof. unfold faces_with. rewrite filter_In, in_seq. lia. Qed.

  Lemma agree_reads f e : tables_agree m f -> e < length (m_edges m) ->
    count f e = length (faces_with f e) /\ nth e (edges_faces f) (None, None) = (nth_error (faces_with f e) 0, nth_error (faces_with f e) 1) /\ count f e <= 2.
  Proof.
    intros (_ & _ & _ & _ & H) He. destruct (H e He) as (H1 & H2 & H3). unfold count. rewrite (nth_error_nth _ _ _ H2), (nth_error_nth _ _ _ H3). auto.
  Qed.

  (** Adding a face keeps the tables in agreement. *)
  Lemma added_agree f ns es : tables_agree m f -> NoDup es -> (forall e, In e es -> e < length (m_edges m) /\ count f e <= 1) ->
    exists num ef, fold_out (record_edge (num_faces f)) es (edges_num_faces f, edges_faces f) = Ok (num, ef) /\
      tables_agree m (added f ns es num ef) /\
      forall e, e < length (m_edges m) ->
        count (added f ns es num ef) e = (if existsb (Nat.eqb e) es then S (count f e) else count f e) /\
        first (added f ns es num ef) e = (if existsb (Nat.eqb e) es then (if count f e =? 0 then Some (num_faces f) else first f e) else first f e).
  Proof.
    intros Ht Hd Hes. pose proof Ht as (T1 & T2 & T3 & T4 & T5).
    destruct (record_ok (num_faces f) (edges_num_faces f) (edges_faces f) es T3 T4 Hd Hes) as (num & ef & Hr & L1 & L2 & Hi).
    exists num, ef. split; [exact Hr|]. split.
    - split; [unfold added, num_faces in *; cbn; rewrite !app_length; cbn; lia|].
      split; [unfold added; cbn; rewrite T2, map_app; reflexivity|]. split; [exact L1|]. split; [exact L2|].
      intros e He. destruct (Hi e He) as [I1 I2]. destruct (agree_reads f e Ht He) as (R1 & R2 & R3). rewrite (faces_with_added f ns es num ef e T1). unfold count in *.
      cbn [added edges_num_faces edges_faces]. destruct (existsb (Nat.eqb e) es) eqn:B.
      + apply existsb_exists in B as (x & Hx & B). apply Nat.eqb_eq in B. subst x. destruct (Hes e Hx) as [_ Hc]. rewrite R2 in I2.
        destruct (faces_with f e) as [|x [|y t]] eqn:Ef; cbn [length] in R1; try lia.
        * split; [cbn; lia|]. split; [rewrite (nth_error_nth' _ 0) by lia; f_equal; rewrite I1, R1; reflexivity|].
          rewrite (nth_error_nth' _ (None, None)) by lia. f_equal. rewrite I2, R1. reflexivity.
        * split; [cbn; lia|]. split; [rewrite (nth_error_nth' _ 0) by lia; f_equal; rewrite I1, R1; reflexivity|].
          rewrite (nth_error_nth' _ (None, None)) by lia. f_equal. rewrite I2, R1. reflexivity.
      + rewrite app_nil_r. split; [lia|]. split; [rewrite (nth_error_nth' _ 0) by lia; congruence|].
        rewrite (nth_error_nth' _ (None, None)) by lia. congruence.
    - intros e He. destruct (Hi e He) as [I1 I2]. unfold count, first in *. cbn [added edges_num_faces edges_faces]. split; [exact I1|]. rewrite I2.
      destruct (existsb (Nat.eqb e) es); [|reflexivity]. destruct (nth e (edges_num_faces f) 0 =? 0); reflexivity.
  Qed.

  Definition same_edges (es es' : list nat) : Prop := forall e, In e es <-> In e es'.

  Record inv (f : faces) : Prop := {
    inv_tables : tables_agree m f;
    inv_faces : forall i ns es, nth_error (faces_nodes f) i = Some ns -> nth_error (faces_edges f) i = Some es ->
      face_ok clockwise m ns es /\ turning_walk m ns es;
    inv_once : forall i j es es', nth_error (faces_edges f) i = Some es -> nth_error (faces_edges f) j = Some es' -> same_edges es es' -> i = j }.

  (** Sizes of the faces found so far. *)
  Fixpoint rising (l : list nat) : Prop := match l with a :: t => Forall (le a) t /\ rising t | [] => True end.
  Definition sized (k : nat) (f : faces) : Prop := rising (num_faces_nodes f) /\ Forall (fun a => a <= k) (num_faces_nodes f).
  Lemma rising_app l a : rising l -> Forall (fun x => x <= a) l -> rising (l ++ [a]).
  Proof.
    induction l as [|b t IH]; cbn; intros H F; [auto|]. inversion F; subst. destruct H as [Ha Hb]. split; [|auto].
    apply Forall_app. split; [exact Ha|]. auto.
  Qed.
  Lemma sized_le k k' f : k <= k' -> sized k f -> sized k' f.
  Proof. intros H [A B]. split; [exact A|]. eapply Forall_impl; [|exact B]. cbn. lia. Qed.
  Lemma sized_add k f ns es num ef : sized k f -> length ns = k -> sized k (added f ns es num ef).
  Proof.
    intros [A B] <-. unfold sized, added. cbn [num_faces_nodes]. split; [apply rising_app; auto|]. apply Forall_app. split; auto.
  Qed.

  (** *** Closing a walk *)
  Lemma close_ok n p ns es f : path n p ns es n -> 3 <= length ns <= 6 -> inv f -> sized (length ns) f -> (forall e, In e es -> count f e <= 1) ->
    exists f', close_face clockwise m (length ns) es ns f = Ok f' /\ inv f' /\ grows f f' /\ sized (length ns) f' /\ rejected f' ns es.
  Proof.
    intros Hp Hk Hi Hs Hc. pose proof (inv_tables f Hi) as Ht. pose proof Ht as (T1 & T2 & T3 & T4 & _).
    pose proof (path_cycle _ _ _ _ Hp) as Hcy. pose proof (path_length m _ _ _ _ _ Hp) as [Hl _].
    assert (Hitem : forall i a e, nth_error ns i = Some a -> nth_error es i = Some e -> e < length (m_edges m) /\ valid_at (m_nodes m) a = true).
    { intros i a e Ha He. destruct (path_item _ _ _ _ _ Hp i a e Ha He) as (b & H). tauto. }
    assert (Hlt : forall e, In e es -> e < length (m_edges m)).
    { intros e He. apply In_nth_error in He as (i & He). destruct (nth_error ns i) eqn:E; [eapply Hitem; eauto|].
      apply nth_error_None in E. assert (i < length es) by (apply nth_error_Some; congruence). lia. }
    assert (Hv : forall a, In a ns -> valid_at (m_nodes m) a = true).
    { intros a Ha. apply In_nth_error in Ha as (i & Ha). destruct (nth_error es i) eqn:E; [eapply Hitem; eauto|].
      apply nth_error_None in E. assert (i < length ns) by (apply nth_error_Some; congruence). lia. }
    unfold close_face.
    destruct (has_duplicates_ok (length ns) (map Some ns)) as (d & -> & Hd); [apply map_length|lia|]. cbn [bind].
    assert (Hd' : NoDup (map Some ns) <-> NoDup ns).
    { split; [apply NoDup_map_inv|]. intros H. apply FinFun.Injective_map_NoDup; [|exact H]. intros x y E. injection E; auto. }
    rewrite Hd' in Hd. destruct d.
    { exists f. split; [reflexivity|]. split; [exact Hi|]. split; [apply grows_refl|]. split; [exact Hs|]. left. rewrite <- Hd. discriminate. }
    assert (Hn : NoDup ns) by tauto. clear Hd Hd'. assert (Hne : NoDup es) by (eapply cycle_nodup; eauto; lia).
    destruct (one_edge_ok (edges_num_faces f) es) as (one & -> & Hone); [rewrite T3; auto|]. cbn [bind].
    assert (Hrej : exists r, (if one then Ok false else let! ef := read_all (edges_faces f) es in has_duplicates (length ns) (map fst ef)) = Ok r /\
      (r = true -> (forall e, In e es -> 1 <= count f e) /\ ~ NoDup (map (first f) es)) /\
      (r = false -> (exists e, In e es /\ count f e = 0) \/ NoDup (map (first f) es))).
    { destruct one; [exists false; split; [reflexivity|]; split; [discriminate|auto]|].
      rewrite (read_all_ok _ (None, None)) by (rewrite T4; auto). cbn [bind].
      destruct (has_duplicates_ok (length ns) (map fst (map (fun i => nth i (edges_faces f) (None, None)) es))) as (r & -> & Hr); [rewrite !map_length; exact Hl|lia|].
      rewrite map_map in Hr. change (fun x => fst (nth x (edges_faces f) (None, None))) with (first f) in Hr.
      exists r. split; [reflexivity|]. split; intros ->; [split; [exact Hone|]; rewrite <- Hr; discriminate|right; apply Hr; reflexivity]. }
    destruct Hrej as (r & -> & Hr1 & Hr2). cbn [bind]. destruct r.
    { exists f. split; [reflexivity|]. split; [exact Hi|]. split; [apply grows_refl|]. split; [exact Hs|]. right. right. right. auto. }
    specialize (Hr2 eq_refl). clear Hr1.
    rewrite (read_all_ok _ missing_point) by (intros a Ha; eapply valid_lt, Hv, Ha). cbn [bind]. fold (pts ns).
    destruct (clockwise (m_projection m) (pts ns)) eqn:Ecw.
    { exists f. split; [reflexivity|]. split; [exact Hi|]. split; [apply grows_refl|]. split; [exact Hs|]. right. left. exact Ecw. }
    destruct (added_agree f ns es Ht Hne) as (num & ef & -> & Hta & Hcf); [auto|]. cbn [bind].
    fold (added f ns es num ef). set (f' := added f ns es num ef) in *. exists f'. split; [reflexivity|].
    assert (Hin : forall e, In e es -> existsb (Nat.eqb e) es = true).
    { intros e He. apply existsb_exists. exists e. split; [exact He|apply Nat.eqb_refl]. }
    (* a face with the same edges is new *)
    assert (Hnew : forall j es', nth_error (faces_edges f) j = Some es' -> ~ same_edges es es').
    { intros j es' Hj Hsame.
      assert (Hw : forall e, In e es -> In j (faces_with f e)).
      { intros e He. unfold faces_with. apply filter_In. split.
        - apply in_seq. rewrite <- T1. assert (j < length (faces_edges f)) by (apply nth_error_Some; congruence). lia.
        - rewrite (nth_error_nth _ _ _ Hj). apply existsb_exists. exists e. split; [apply Hsame, He|apply Nat.eqb_refl]. }
      assert (Hfst : forall e, In e es -> first f e = Some j).
      { intros e He. destruct (agree_reads f e Ht (Hlt e He)) as (R1 & R2 & _). specialize (Hw e He). specialize (Hc e He). unfold first. rewrite R2. cbn [fst].
        destruct (faces_with f e) as [|x [|y t]]; cbn in R1; [destruct Hw|destruct Hw as [->|[]]; reflexivity|lia]. }
      destruct Hr2 as [(e & He & H0)|Hnd].
      - destruct (agree_reads f e Ht (Hlt e He)) as (R1 & _). specialize (Hw e He). destruct (faces_with f e); [destruct Hw|cbn in R1; lia].
      - destruct es as [|e1 [|e2 t]]; cbn in Hl; try lia.
        assert (e1 = e2) by (eapply nodup_map_inj; [exact Hnd| | |]; [left; auto|right; left; auto|rewrite !Hfst; auto; [right; left; auto|left; auto]]).
        inversion Hne as [|? ? Hx _]. apply Hx. subst. left. reflexivity. }
    split; [split|].
    - exact Hta.
    - intros i ns' es' H1 H2. unfold f', added in H1, H2. cbn [faces_nodes faces_edges] in H1, H2.
      destruct (Nat.lt_ge_cases i (num_faces f)) as [Hlt'|Hge].
      + rewrite nth_error_app1 in H1 by exact Hlt'. rewrite nth_error_app1 in H2 by lia. eapply inv_faces; eauto.
      + unfold num_faces in *. rewrite nth_error_app2 in H1 by lia. rewrite nth_error_app2 in H2 by lia. rewrite T1 in H2.
        destruct (i - length (faces_nodes f)) as [|x]; [|destruct x; discriminate]. injection H1 as <-. injection H2 as <-.
        split; [|eapply path_walk; eauto]. split; [exact Hk|]. split; [exact Hn|]. split; [exact Hne|]. split; [exact Hcy|]. split; [exact Ecw|exact Hv].
    - intros i j ei ej H1 H2 Hse. unfold f', added in H1, H2. cbn [faces_edges] in H1, H2.
      assert (A : forall x ex, nth_error (faces_edges f ++ [es]) x = Some ex -> nth_error (faces_edges f) x = Some ex \/ (x = length (faces_edges f) /\ ex = es)).
      { intros x ex Hx. destruct (Nat.lt_ge_cases x (length (faces_edges f))).
        - left. rewrite nth_error_app1 in Hx by assumption. exact Hx.
        - right. rewrite nth_error_app2 in Hx by assumption. destruct (x - length (faces_edges f)) as [|y] eqn:Ex; [|destruct y; discriminate].
          injection Hx as <-. split; [lia|reflexivity]. }
      destruct (A i ei H1) as [H1'|[-> ->]], (A j ej H2) as [H2'|[-> ->]]; try reflexivity.
      + eapply inv_once; eauto.
      + exfalso. apply (Hnew i ei H1'). intros e. symmetry. apply Hse.
      + exfalso. apply (Hnew j ej H2'). exact Hse.
    - split.
      + intros e He. destruct (Hcf e He) as [-> ->]. destruct (existsb (Nat.eqb e) es); [|auto]. split; [lia|]. intros H. destruct (count f e =? 0) eqn:B; [apply Nat.eqb_eq in B; lia|reflexivity].
      + split; [apply sized_add; auto|].
        destruct (existsb (fun e => 1 <=? count f e) es) eqn:B.
        * right. right. left. apply existsb_exists in B as (e & He & B). apply Nat.leb_le in B. exists e. split; [exact He|].
          destruct (Hcf e (Hlt e He)) as [-> _]. rewrite Hin by exact He. lia.
        * right. right. right.
          assert (Z : forall e, In e es -> count f e = 0).
          { intros e He. destruct (count f e) eqn:E; [reflexivity|]. rewrite <- not_true_iff_false in B. exfalso. apply B. apply existsb_exists. exists e. rewrite E. auto. }
          split.
          { intros e He. destruct (Hcf e (Hlt e He)) as [-> _]. rewrite Hin by exact He. lia. }
          intros Hnd. assert (F : forall e, In e es -> first f' e = Some (num_faces f)).
          { intros e He. destruct (Hcf e (Hlt e He)) as [_ ->]. rewrite Hin by exact He. rewrite Z by exact He. reflexivity. }
          destruct es as [|e1 [|e2 t]]; cbn in Hl; try lia.
          assert (e1 = e2) by (eapply nodup_map_inj; [exact Hnd| | |]; [left; auto|right; left; auto|rewrite !F; auto; [right; left; auto|left; auto]]).
          inversion Hne as [|? ? Hx _]. apply Hx. subst. left. reflexivity.
  Qed.

  (** One walk. *)
  Lemma try_ok k f n p : 3 <= k <= 6 -> inv f -> sized k f -> n < length (m_nodes m) -> In (Some p) (row_of m n) ->
    exists f', find_rec clockwise m k k n n (Some p) [] [] f = Ok f' /\ inv f' /\ grows f f' /\ sized k f' /\
      forall ns es, path n p ns es n -> length ns = k -> rejected f' ns es.
  Proof.
    intros Hk Hi Hs Hn Hin. pose proof (inv_tables f Hi) as (_ & _ & T3 & _).
    destruct (path_exists m exact settled (k - 1) n p Hn Hin) as (ns & es & last & Hp & Hl). replace (S (k - 1)) with k in Hl by lia.
    pose proof (find_rec_ok m exact settled clockwise n p ns es last Hp k n [] [] f T3 ltac:(cbn; lia)) as E. rewrite Hl in E. rewrite E. cbn [app].
    assert (U : forall ns' es', path n p ns' es' n -> length ns' = k -> ns' = ns /\ es' = es /\ last = n).
    { intros ns' es' Hp' Hl'. destruct (path_unique m exact _ _ _ _ _ Hp _ _ _ Hp') as (-> & -> & ->); [lia|auto]. }
    destruct (existsb (full_edge f) es) eqn:B.
    { exists f. split; [reflexivity|]. split; [exact Hi|]. split; [apply grows_refl|]. split; [exact Hs|]. intros ns' es' Hp' Hl'. destruct (U _ _ Hp' Hl') as (-> & -> & _).
      right. right. left. apply existsb_exists in B as (e & He & B). exists e. split; [exact He|]. apply Nat.leb_le, B. }
    destruct (Nat.eqb_spec last n) as [->|Hne].
    - subst k. destruct (close_ok n p ns es f Hp Hk Hi Hs) as (f' & Hf & Hi' & Hg & Hs' & Hr).
      { intros e He. destruct (Nat.le_gt_cases (count f e) 1) as [|H2]; [assumption|]. rewrite <- not_true_iff_false in B. exfalso. apply B.
        apply existsb_exists. exists e. split; [exact He|]. apply Nat.leb_le. exact H2. }
      exists f'. split; [exact Hf|]. split; [exact Hi'|]. split; [exact Hg|]. split; [exact Hs'|]. intros ns' es' Hp' Hl'. destruct (U _ _ Hp' Hl') as (-> & -> & _). exact Hr.
    - exists f. split; [reflexivity|]. split; [exact Hi|]. split; [apply grows_refl|]. split; [exact Hs|]. intros ns' es' Hp' Hl'. destruct (U _ _ Hp' Hl') as (_ & _ & E'). congruence.
  Qed.

  Lemma path_edges n p ns es last : path n p ns es last -> forall e, In e es -> e < length (m_edges m).
  Proof.
    intros H e He. pose proof (path_length m _ _ _ _ _ H) as [Hl _]. apply In_nth_error in He as (i & He).
    destruct (nth_error ns i) eqn:E; [destruct (path_item _ _ _ _ _ H i _ _ E He) as (b & X); tauto|].
    apply nth_error_None in E. assert (i < length es) by (apply nth_error_Some; congruence). lia.
  Qed.

  (** All walks from one node. *)
  Lemma from_ok k f n : 3 <= k <= 6 -> inv f -> sized k f -> n < length (m_nodes m) ->
    exists f', find_from clockwise m k f n = Ok f' /\ inv f' /\ grows f f' /\ sized k f' /\
      forall p ns es, path n p ns es n -> length ns = k -> rejected f' ns es.
  Proof.
    intros Hk Hi Hs Hn. unfold find_from. destruct (vget_lt (m_nodes m) n Hn) as [pt Hpt]. rewrite Hpt. cbn [bind].
    destruct (is_valid pt) eqn:V; cbn [negb].
    2:{ exists f. split; [reflexivity|]. split; [exact Hi|]. split; [apply grows_refl|]. split; [exact Hs|]. intros p ns es Hp _.
        destruct (path_first m _ _ _ _ _ Hp) as (_ & _ & _ & _ & _ & Hin). destruct (listed m exact settled n p Hn Hin) as (_ & o & _ & Hv & _).
        unfold valid_at in Hv. apply vget_ok in Hpt. rewrite Hpt in Hv. congruence. }
    destruct (row_get m exact n Hn) as [Hrow ->]. cbn [bind].
    destruct (fold_pre (fun f e => let! row := vget (m_nodesEdges m) n in let! x := vget row e in find_rec clockwise m k k n n x [] [] f)
      (fun l f' => inv f' /\ grows f f' /\ sized k f' /\ forall i p ns es, In i l -> nth_error (row_of m n) i = Some (Some p) -> path n p ns es n -> length ns = k -> rejected f' ns es)
      (seq 0 (length (row_of m n))) f) as (f' & Hf & I' & G' & S' & R').
    - intros l1 b l2 f1 El (I1 & G1 & S1 & R1). rewrite Hrow. cbn [bind].
      assert (Hb : b < length (row_of m n)).
      { assert (In b (seq 0 (length (row_of m n)))) by (rewrite El; apply in_or_app; right; left; reflexivity). apply in_seq in H. lia. }
      destruct (vget_lt (row_of m n) b Hb) as [x Hx]. rewrite Hx. cbn [bind]. apply vget_ok in Hx. pose proof (nth_error_In _ _ Hx) as Hin.
      destruct (adj_sound m exact n x Hn Hin) as (p & o & -> & _).
      destruct (try_ok k f1 n p Hk I1 S1 Hn Hin) as (f2 & E2 & I2 & G2 & S2 & R2). exists f2. split; [exact E2|]. split; [exact I2|].
      split; [eapply grows_trans; eauto|]. split; [exact S2|]. intros i q ns es Hi' Hq Hp Hl. apply in_app_or in Hi' as [Hi'|[->|[]]].
      + eapply rejected_grows; [exact G2|eapply path_edges; eauto|]. eapply R1; eauto.
      + assert (q = p) by congruence. subst q. apply R2; auto.
    - split; [exact Hi|]. split; [apply grows_refl|]. split; [exact Hs|]. cbn. tauto.
    - exists f'. split; [exact Hf|]. split; [exact I'|]. split; [exact G'|]. split; [exact S'|]. intros p ns es Hp Hl.
      destruct (path_first m _ _ _ _ _ Hp) as (_ & _ & _ & _ & _ & Hin). apply In_nth_error in Hin as (i & Hi').
      eapply R'; eauto. apply in_seq. assert (i < length (row_of m n)) by (apply nth_error_Some; congruence). lia.
  Qed.

  Lemma size_ok k f : 3 <= k <= 6 -> inv f -> sized k f ->
    exists f', find_size clockwise m f k = Ok f' /\ inv f' /\ grows f f' /\ sized k f' /\
      forall n p ns es, path n p ns es n -> length ns = k -> rejected f' ns es.
  Proof.
    intros Hk Hi Hs. unfold find_size.
    destruct (fold_pre (find_from clockwise m k)
      (fun l f' => inv f' /\ grows f f' /\ sized k f' /\ forall n p ns es, In n l -> path n p ns es n -> length ns = k -> rejected f' ns es)
      (seq 0 (length (m_nodes m))) f) as (f' & Hf & I' & G' & S' & R').
    - intros l1 b l2 f1 El (I1 & G1 & S1 & R1).
      assert (Hb : b < length (m_nodes m)).
      { assert (In b (seq 0 (length (m_nodes m)))) by (rewrite El; apply in_or_app; right; left; reflexivity). apply in_seq in H. lia. }
      destruct (from_ok k f1 b Hk I1 S1 Hb) as (f2 & E2 & I2 & G2 & S2 & R2). exists f2. split; [exact E2|]. split; [exact I2|].
      split; [eapply grows_trans; eauto|]. split; [exact S2|]. intros n p ns es Hin Hp Hl. apply in_app_or in Hin as [Hin|[->|[]]].
      + eapply rejected_grows; [exact G2|eapply path_edges; eauto|]. eapply R1; eauto.
      + eapply R2; eauto.
    - split; [exact Hi|]. split; [apply grows_refl|]. split; [exact Hs|]. cbn. tauto.
    - exists f'. split; [exact Hf|]. split; [exact I'|]. split; [exact G'|]. split; [exact S'|]. intros n p ns es Hp Hl. eapply R'; eauto.
      destruct (path_first m _ _ _ _ _ Hp) as (_ & _ & _ & _ & Hn & _). apply in_seq. lia.
  Qed.

  Lemma find_ok f : inv f -> num_faces_nodes f = [] ->
    exists f', find_faces clockwise m f = Ok f' /\ inv f' /\ sized 6 f' /\ forall n p ns es, path n p ns es n -> 3 <= length ns <= 6 -> rejected f' ns es.
  Proof.
    intros Hi Hs. unfold find_faces. change (seq 3 (max_edges_per_face - 2)) with [3; 4; 5; 6].
    destruct (fold_pre (find_size clockwise m)
      (fun l f' => inv f' /\ (forall k, 3 <= k -> (forall x, In x l -> x <= k) -> sized k f') /\ forall n p ns es, path n p ns es n -> In (length ns) l -> rejected f' ns es)
      [3; 4; 5; 6] f) as (f' & Hf & I' & S' & R').
    - intros l1 b l2 f1 El (I1 & S1 & R1).
      assert (Hb : 3 <= b <= 6 /\ forall x, In x l1 -> x <= b).
      { destruct l1 as [|a [|c [|d [|e l1]]]]; cbn in El; injection El; intros; subst; cbn; try (split; [lia|]; intros x Hx; lia).
        destruct l1; discriminate. }
      destruct Hb as [Hb Hle]. destruct (size_ok b f1 Hb I1 (S1 b ltac:(lia) Hle)) as (f2 & E2 & I2 & G2 & S2 & R2). exists f2. split; [exact E2|]. split; [exact I2|]. split.
      + intros k _ Hk'. eapply sized_le; [|exact S2]. apply Hk', in_or_app. right. left. reflexivity.
      + intros n p ns es Hp Hl. apply in_app_or in Hl as [Hl|[Hl|[]]].
        * eapply rejected_grows; [exact G2|eapply path_edges; eauto|]. eapply R1; eauto.
        * eapply R2; eauto.
    - split; [exact Hi|]. split; [|cbn; tauto]. intros k _ _. split; rewrite Hs; cbn; auto.
    - exists f'. split; [exact Hf|]. split; [exact I'|]. split; [apply S'; [lia|cbn; lia]|]. intros n p ns es Hp Hl. eapply R'; eauto. cbn. lia.
  Qed.
End Faces.

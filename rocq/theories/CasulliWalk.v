(** How faces go along their edges. *)
From Verif Require Import Base BaseLemmas FloatModel MeshModel MeshSpec MeshProofs FaceModel FaceSpec FlipModel FlipSpec FlipProofs NodeTypeModel NodeTypeSpec NodeTypeProofs
  SplitModel CasulliModel CasulliSpec.

Section Cyclic.
  Context {A : Type}.
  Implicit Type l : list A.
  Lemma cyclic_some l k : l <> [] -> exists x, cyclic l k = Some x.
  Proof.
    intros H. unfold cyclic. destruct (nth_error l (k mod length l)) as [x|] eqn:E; [eauto|]. apply nth_error_None in E.
    assert (length l <> 0) by (destruct l; [easy|cbn; lia]). pose proof (Nat.mod_upper_bound k (length l) ltac:(assumption)). lia.
  Qed.
  Lemma cyclic_small l k : k < length l -> cyclic l k = nth_error l k.
  Proof. intros H. unfold cyclic. now rewrite Nat.mod_small. Qed.
  Lemma cyclic_in l k x : cyclic l k = Some x -> In x l.
  Proof. unfold cyclic. apply nth_error_In. Qed.
  Lemma cyclic_mod l k : l <> [] -> cyclic l (k mod length l) = cyclic l k.
  Proof. intros H. unfold cyclic. rewrite Nat.mod_mod; [reflexivity|]. destruct l; [easy|cbn; lia]. Qed.
  Lemma cyclic_next l k : l <> [] -> cyclic l (S (k mod length l)) = cyclic l (S k).
  Proof.
    intros H. assert (L : length l <> 0) by (destruct l; [easy|cbn; lia]). unfold cyclic. f_equal.
    replace (S (k mod length l)) with (k mod length l + 1) by lia. rewrite Nat.add_mod_idemp_l by exact L. now rewrite Nat.add_1_r.
  Qed.
  Lemma cyclic_inj l j k x : NoDup l -> cyclic l j = Some x -> cyclic l k = Some x -> j mod length l = k mod length l.
  Proof.
    unfold cyclic. intros N H1 H2. apply (proj1 (NoDup_nth_error l) N); [apply nth_error_Some; congruence|congruence].
  Qed.
  Lemma mod_two k n : 3 <= n -> S (S k) mod n <> k mod n.
  Proof.
    intros H E. pose proof (Nat.div_mod (S (S k)) n ltac:(lia)) as E1. pose proof (Nat.div_mod k n ltac:(lia)) as E2. rewrite E in E1. clear E.
    assert (2 = n * (S (S k) / n - k / n)) by (rewrite Nat.mul_sub_distr_l; lia). destruct (S (S k) / n - k / n) as [|x]; nia.
  Qed.
  Lemma mod_succ_inj j k n : n <> 0 -> S j mod n = S k mod n -> j mod n = k mod n.
  Proof.
    intros H E. assert (X : forall i, (S i + (n - 1)) mod n = i mod n).
    { intros i. replace (S i + (n - 1)) with (i + 1 * n) by lia. apply Nat.mod_add; exact H. }
    rewrite <- (X j), <- (X k), <- (Nat.add_mod_idemp_l (S j)), <- (Nat.add_mod_idemp_l (S k)) by exact H. now rewrite E.
  Qed.
End Cyclic.

Section Walk.
  Variable m : mesh.
  Variable f : faces.
  Hypothesis I : in_step m f.

  Lemma face_both i ns : nth_error (faces_nodes f) i = Some ns -> exists es, nth_error (faces_edges f) i = Some es.
  Proof.
    intros H. destruct (nth_error (faces_edges f) i) as [es|] eqn:E; [eauto|]. apply nth_error_None in E. assert (i < length (faces_nodes f)) by (apply nth_error_Some; congruence).
    pose proof (proj1 (st_tables m f I)) as T. unfold num_faces in T. lia.
  Qed.
  Lemma face_both' i es : nth_error (faces_edges f) i = Some es -> exists ns, nth_error (faces_nodes f) i = Some ns.
  Proof.
    intros H. destruct (nth_error (faces_nodes f) i) as [es'|] eqn:E; [eauto|]. apply nth_error_None in E. assert (i < length (faces_edges f)) by (apply nth_error_Some; congruence).
    pose proof (proj1 (st_tables m f I)) as T. unfold num_faces in T. lia.
  Qed.
  Lemma face_parts i ns es : nth_error (faces_nodes f) i = Some ns -> nth_error (faces_edges f) i = Some es ->
    3 <= length ns /\ NoDup ns /\ length es = length ns /\ ns <> [] /\ es <> [] /\ (forall n, In n ns -> n < length (m_nodes m)) /\ (forall e, In e es -> e < length (m_edges m)).
  Proof.
    intros H1 H2. destruct (st_face m f I i ns es H1 H2) as (L & N & (Le & Cy) & V). assert (Nn : ns <> []) by (intros ->; cbn in L; lia). assert (Ne : es <> []) by (intros ->; cbn in Le; lia).
    repeat (split; [assumption|]). split; [|].
    - intros n Hn. specialize (V n Hn). unfold valid_at in V. destruct (nth_error (m_nodes m) n) eqn:E; [|discriminate]. apply nth_error_Some. congruence.
    - intros e He. apply In_nth_error in He as (k & Hk). assert (Hl : k < length es) by (apply nth_error_Some; congruence). destruct (cyclic_some ns k Nn) as (a & Ha), (cyclic_some ns (S k) Nn) as (b & Hb).
      apply (Cy k a b e Ha Hb). now rewrite cyclic_small.
  Qed.

  Lemma walks_facts i a b e : walks f i a b e -> a <> b /\ joins (edge_at m e) a b /\ e < length (m_edges m) /\ a < length (m_nodes m) /\ b < length (m_nodes m) /\ lists f i e.
  Proof.
    intros (ns & es & k & H1 & H2 & Ha & Hb & He). destruct (st_face m f I i ns es H1 H2) as (L & N & (Le & Cy) & V). destruct (face_parts i ns es H1 H2) as (_ & _ & _ & Nn & Ne & Bn & Be).
    destruct (Cy k a b e Ha Hb He) as (Hl & J). split.
    - intros <-. pose proof (cyclic_inj ns k (S k) a N Ha Hb) as X. assert (E : (k + 1) mod length ns = k mod length ns) by (rewrite Nat.add_1_r; auto).
      pose proof (Nat.div_mod (k + 1) (length ns) ltac:(lia)) as E1. pose proof (Nat.div_mod k (length ns) ltac:(lia)) as E2. rewrite E in E1.
      assert (1 = length ns * ((k + 1) / length ns - k / length ns)) by (rewrite Nat.mul_sub_distr_l; lia). destruct ((k + 1) / length ns - k / length ns); nia.
    - split; [exact J|]. split; [exact Hl|]. split; [apply Bn; eapply cyclic_in; eauto|]. split; [apply Bn; eapply cyclic_in; eauto|]. exists es. split; [exact H2|]. eapply cyclic_in; eauto.
  Qed.
  Lemma walks_from i a b b' e e' : walks f i a b e -> walks f i a b' e' -> b = b' /\ e = e'.
  Proof.
    intros (ns & es & k & H1 & H2 & Ha & Hb & He) (ns' & es' & k' & H1' & H2' & Ha' & Hb' & He'). rewrite H1 in H1'. injection H1' as <-. rewrite H2 in H2'. injection H2' as <-.
    destruct (face_parts i ns es H1 H2) as (_ & N & Le & Nn & Ne & _). pose proof (cyclic_inj ns k k' a N Ha Ha') as X. split.
    - rewrite <- (cyclic_next ns k Nn), X, (cyclic_next ns k' Nn), Hb' in Hb. congruence.
    - rewrite <- (cyclic_mod es k Ne), Le, X, <- Le, (cyclic_mod es k' Ne), He' in He. congruence.
  Qed.
  Lemma walks_to i a a' b e e' : walks f i a b e -> walks f i a' b e' -> a = a' /\ e = e'.
  Proof.
    intros (ns & es & k & H1 & H2 & Ha & Hb & He) (ns' & es' & k' & H1' & H2' & Ha' & Hb' & He'). rewrite H1 in H1'. injection H1' as <-. rewrite H2 in H2'. injection H2' as <-.
    destruct (face_parts i ns es H1 H2) as (L & N & Le & Nn & Ne & _). pose proof (cyclic_inj ns (S k) (S k') b N Hb Hb') as X. apply mod_succ_inj in X; [|lia]. split.
    - rewrite <- (cyclic_mod ns k Nn), X, (cyclic_mod ns k' Nn), Ha' in Ha. congruence.
    - rewrite <- (cyclic_mod es k Ne), Le, X, <- Le, (cyclic_mod es k' Ne), He' in He. congruence.
  Qed.
  Lemma walks_turn i a b e e' : walks f i a b e -> walks f i b a e' -> False.
  Proof.
    intros (ns & es & k & H1 & H2 & Ha & Hb & He) (ns' & es' & k' & H1' & H2' & Ha' & Hb' & He'). rewrite H1 in H1'. injection H1' as <-. rewrite H2 in H2'. injection H2' as <-.
    destruct (face_parts i ns es H1 H2) as (L & N & Le & Nn & Ne & _). pose proof (cyclic_inj ns (S k) k' b N Hb Ha') as X.
    rewrite <- (cyclic_next ns k' Nn), <- X, (cyclic_next ns (S k) Nn) in Hb'. pose proof (cyclic_inj ns _ _ a N Ha Hb') as Y. symmetry in Y. exact (mod_two k (length ns) L Y).
  Qed.
  (** A face goes along an edge once. *)
  Lemma walks_once i a b a' b' e : walks f i a b e -> walks f i a' b' e -> a = a' /\ b = b'.
  Proof.
    intros H1 H2. destruct (walks_facts _ _ _ _ H1) as (_ & J1 & _). destruct (walks_facts _ _ _ _ H2) as (_ & J2 & _).
    destruct (joins_fun _ _ _ _ _ J1 J2) as [X|(-> & ->)]; [exact X|]. exfalso. exact (walks_turn _ _ _ _ _ H1 H2).
  Qed.
  Lemma listed_walks i e : lists f i e -> exists a b, walks f i a b e.
  Proof.
    intros (es & H2 & He). destruct (face_both' i es H2) as (ns & H1). destruct (face_parts i ns es H1 H2) as (L & N & Le & Nn & Ne & _). apply In_nth_error in He as (k & Hk).
    assert (Hl : k < length es) by (apply nth_error_Some; congruence). destruct (cyclic_some ns k Nn) as (a & Ha), (cyclic_some ns (S k) Nn) as (b & Hb). exists a, b, ns, es, k.
    repeat (split; [assumption|]). now rewrite cyclic_small.
  Qed.
  Lemma node_walks i ns n : nth_error (faces_nodes f) i = Some ns -> In n ns -> exists b e, walks f i n b e.
  Proof.
    intros H1 Hn. destruct (face_both i ns H1) as (es & H2). destruct (face_parts i ns es H1 H2) as (L & N & Le & Nn & Ne & _). apply In_nth_error in Hn as (k & Hk).
    assert (Hl : k < length ns) by (apply nth_error_Some; congruence). destruct (cyclic_some es k Ne) as (e & He), (cyclic_some ns (S k) Nn) as (b & Hb). exists b, e, ns, es, k.
    repeat (split; [assumption|]). split; [now rewrite cyclic_small|]. now split.
  Qed.
  Lemma node_walked i ns n : nth_error (faces_nodes f) i = Some ns -> In n ns -> exists a e, walks f i a n e.
  Proof.
    intros H1 Hn. destruct (face_both i ns H1) as (es & H2). destruct (face_parts i ns es H1 H2) as (L & N & Le & Nn & Ne & _). apply In_nth_error in Hn as (k & Hk).
    assert (Hl : k < length ns) by (apply nth_error_Some; congruence). destruct (cyclic_some es (k + length ns - 1) Ne) as (e & He), (cyclic_some ns (k + length ns - 1) Nn) as (a & Ha). exists a, e, ns, es, (k + length ns - 1).
    split; [exact H1|]. split; [exact H2|]. split; [exact Ha|]. split; [|exact He]. replace (S (k + length ns - 1)) with (k + 1 * length ns) by lia. unfold cyclic. rewrite Nat.mod_add by lia. now rewrite Nat.mod_small.
  Qed.
  Lemma walks_nodes i a b e : walks f i a b e -> exists ns, nth_error (faces_nodes f) i = Some ns /\ In a ns /\ In b ns.
  Proof. intros (ns & es & k & H1 & H2 & Ha & Hb & He). exists ns. split; [exact H1|]. split; eapply cyclic_in; eauto. Qed.
  (** The two edges of a face at a node. *)
  Lemma face_at i n ns : nth_error (faces_nodes f) i = Some ns -> In n ns -> exists a b e e', walks f i a n e /\ walks f i n b e' /\ e <> e' /\
    forall x, lists f i x -> ends_in (edge_at m x) n -> x = e \/ x = e'.
  Proof.
    intros H1 Hn. destruct (node_walked i ns n H1 Hn) as (a & e & We), (node_walks i ns n H1 Hn) as (b & e' & We'). exists a, b, e, e'. split; [exact We|]. split; [exact We'|]. split.
    - intros <-. destruct (walks_once _ _ _ _ _ _ We We') as (-> & _). apply (walks_facts _ _ _ _ We). reflexivity.
    - intros x Lx Ex. destruct (listed_walks i x Lx) as (u & v & Wx). destruct (walks_facts _ _ _ _ Wx) as (_ & J & _). destruct (joins_ends _ _ _ _ J Ex) as [->| ->].
      + right. apply (walks_from _ _ _ _ _ _ Wx We').
      + left. apply (walks_to _ _ _ _ _ _ Wx We).
  Qed.
  Lemma listed_node i e n : lists f i e -> ends_in (edge_at m e) n -> exists ns, nth_error (faces_nodes f) i = Some ns /\ In n ns.
  Proof.
    intros L E. destruct (listed_walks i e L) as (u & v & W). destruct (walks_facts _ _ _ _ W) as (_ & J & _). destruct (walks_nodes _ _ _ _ W) as (ns & H & Hu & Hv). exists ns. split; [exact H|].
    destruct (joins_ends _ _ _ _ J E) as [->| ->]; assumption.
  Qed.
  (** At most two edges of a face meet at a node. *)
  Lemma face_two i n x y z : lists f i x -> lists f i y -> lists f i z -> ends_in (edge_at m x) n -> ends_in (edge_at m y) n -> ends_in (edge_at m z) n -> x <> y -> z = x \/ z = y.
  Proof.
    intros Lx Ly Lz Ex Ey Ez Hxy. destruct (listed_node i x n Lx Ex) as (ns & H & Hn). destruct (face_at i n ns H Hn) as (a & b & e & e' & _ & _ & _ & X).
    destruct (X x Lx Ex), (X y Ly Ey), (X z Lz Ez); subst; auto; congruence.
  Qed.
  Lemma other_edge i n x : lists f i x -> ends_in (edge_at m x) n -> exists y, y <> x /\ lists f i y /\ ends_in (edge_at m y) n.
  Proof.
    intros Lx Ex. destruct (listed_node i x n Lx Ex) as (ns & H & Hn). destruct (face_at i n ns H Hn) as (a & b & e & e' & We & We' & D & X).
    destruct (walks_facts _ _ _ _ We) as (_ & J & _ & _ & _ & L). destruct (walks_facts _ _ _ _ We') as (_ & J' & _ & _ & _ & L').
    destruct (X x Lx Ex) as [->| ->]; [exists e'|exists e]; (split; [congruence|]); (split; [assumption|]); [apply (joins_end _ _ _ J')|apply (joins_end _ _ _ J)].
  Qed.
  Lemma lists_lt i e : lists f i e -> i < num_faces f /\ e < length (m_edges m).
  Proof.
    intros L. destruct (listed_walks i e L) as (a & b & W). destruct (walks_nodes _ _ _ _ W) as (ns & H & _). split; [unfold num_faces; apply nth_error_Some; congruence|apply (walks_facts _ _ _ _ W)].
  Qed.
  Lemma edges_nodup i es : nth_error (faces_edges f) i = Some es -> NoDup es.
  Proof.
    intros H2. destruct (face_both' i es H2) as (ns & H1). destruct (face_parts i ns es H1 H2) as (L & N & Le & Nn & Ne & _). apply NoDup_nth_error. intros j k Hj E.
    destruct (nth_error es j) as [e|] eqn:Ej; [|apply nth_error_None in Ej; lia]. assert (Hk : k < length es) by (apply nth_error_Some; congruence).
    destruct (cyclic_some ns j Nn) as (a & Ha), (cyclic_some ns (S j) Nn) as (b & Hb). destruct (cyclic_some ns k Nn) as (a' & Ha'), (cyclic_some ns (S k) Nn) as (b' & Hb').
    assert (W : walks f i a b e) by (exists ns, es, j; repeat (split; [assumption|]); now rewrite cyclic_small).
    assert (W' : walks f i a' b' e) by (exists ns, es, k; repeat (split; [assumption|]); rewrite cyclic_small by exact Hk; congruence).
    destruct (walks_once _ _ _ _ _ _ W W') as (-> & _). pose proof (cyclic_inj ns j k a' N Ha Ha') as X. rewrite !Nat.mod_small in X by lia. exact X.
  Qed.
  Lemma walks_ends i a b e : walks f i a b e -> edge_at m e = (Some a, Some b) \/ edge_at m e = (Some b, Some a).
  Proof. intros W. apply (walks_facts _ _ _ _ W). Qed.

  (** Faces of an edge, as recorded. *)
  Lemma faces_recorded e : e < length (m_edges m) -> exists k p, nth_error (edges_num_faces f) e = Some k /\ nth_error (edges_faces f) e = Some p /\ k <= 2 /\
    (k = 0 <-> forall i, ~ lists f i e) /\ (k = 1 <-> on_boundary f e) /\
    (1 <= k -> exists i, fst p = Some i) /\ (2 <= k -> exists i, snd p = Some i) /\
    (forall i, lists f i e <-> (1 <= k /\ fst p = Some i) \/ (2 <= k /\ snd p = Some i)) /\ (2 <= k -> fst p <> snd p).
  Proof.
    intros He. destruct (st_edge m f I e He) as (p & q & E1 & E2 & E3 & E4 & E5). destruct (faces_of m f I e He) as (k & K1 & K2 & K3 & K4). rewrite K1 in E5. injection E5 as Ek.
    exists k, (p, q). split; [exact K1|]. split; [exact E1|]. split; [exact K2|]. split; [exact K3|]. split; [exact K4|]. cbn [fst snd].
    destruct p as [i|]; [|rewrite E4 in Ek |- * by reflexivity]; [destruct q as [j|]|]; cbn in Ek; subst k.
    - split; [eauto|]. split; [eauto|]. split; [|intros _ X; now specialize (E3 X)]. intros x. rewrite E2. split; [intros [H|H]; [left|right]; (split; [lia|exact H])|intros [(_ & H)|(_ & H)]; auto].
    - split; [eauto|]. split; [lia|]. split; [|intros _; discriminate]. intros x. rewrite E2. split; [intros [H|H]; [left; split; [lia|exact H]|discriminate]|intros [(_ & H)|(H & _)]; [auto|lia]].
    - split; [lia|]. split; [lia|]. split; [|lia]. intros x. rewrite E2. split; [intros [H|H]; [discriminate|rewrite E4 in H by reflexivity; discriminate]|intros [(H & _)|(H & _)]; lia].
  Qed.
  Lemma rim_face e : on_boundary f e -> exists i, lists f i e /\ forall j, lists f j e -> j = i.
  Proof. intros (i & H). exists i. split; [now apply H|]. intros j Hj. now apply H. Qed.
End Walk.

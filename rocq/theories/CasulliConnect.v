(** The new edges of the Casulli refinement. *)
From Coq Require Import Permutation.
From Verif Require Import Base BaseLemmas FloatModel FloatProofs UndoModel UndoSpec UndoProofs ActionModel ActionSpec ActionProofs
  MeshModel MeshSpec MeshProofs MeshAdj MeshConstruct MeshUndo MeshEdits MeshEdits2 MeshFacts FaceModel FaceSpec FlipModel FlipSpec FlipProofs NodeTypeModel NodeTypeSpec NodeTypeProofs
  FaceUseModel FaceUseSpec FaceUse SplitModel SplitEffect RefineProofs RefineSplit CasulliModel CasulliSpec CasulliWalk CasulliMask CasulliTable CasulliNodes.

Lemma index_inj c c' l : In c l -> In c' l -> index_of c l = index_of c' l -> c = c'.
Proof.
  induction l as [|x l IH]; intros H1 H2; [easy|]. cbn [index_of].
  assert (Eq : forall d, (fst d =? fst x) && (snd d =? snd x) = true <-> d = x) by (intros (d1, d2); destruct x as (x1, x2); cbn; rewrite andb_true_iff, !Nat.eqb_eq; split; [intros (-> & ->); reflexivity|intros Q; injection Q as -> ->; auto]).
  destruct ((fst c =? fst x) && (snd c =? snd x)) eqn:Q1, ((fst c' =? fst x) && (snd c' =? snd x)) eqn:Q2; intros H; try discriminate.
  - apply Eq in Q1, Q2. congruence.
  - injection H as H. apply IH; [| |exact H].
    + destruct H1 as [->|H1]; [|exact H1]. rewrite (proj2 (Eq c) eq_refl) in Q1. discriminate.
    + destruct H2 as [->|H2]; [|exact H2]. rewrite (proj2 (Eq c') eq_refl) in Q2. discriminate.
Qed.

Section Connect.
  Variable order : list point -> list edge -> nat -> list (option nat) -> list (option nat).
  Hypothesis order_perm : forall nodes edges n row, Permutation row (order nodes edges n row).
  Notation tree_ok := (recC (restore_leaf order) (commit_leaf order) mesh_le).
  Notation list_ok := (recC_all (restore_leaf order) (commit_leaf order) mesh_le).
  Variable m : mesh.
  Variable f : faces.
  Variable masks masks1 : list mask.
  Variable P : list point.
  Hypothesis I : in_step m f.
  Hypothesis O : oriented f.
  Hypothesis Loose : none_loose m f.
  Hypothesis Old : forall n, lt_mask (nth n masks Unassigned) Unassigned = false.
  Local Notation N := (length (m_nodes m)).
  Local Notation E := (length (m_edges m)).
  Local Notation C := (length (corners masks f)).
  Local Notation S_ := (length (sides masks m f)).
  Hypothesis LP : length P = C + S_.
  Hypothesis LM : N + C + S_ <= length masks1.
  Hypothesis GM : forall n, nth n masks1 Unassigned =
    if (N <=? n) && (n <? N + C) then NewAssigned else if (N + C <=? n) && (n <? N + C + S_) then NewGeneral else nth n masks Unassigned.
  Local Notation table := (map (expected_row m f masks) (seq 0 E)).
  Local Notation marked_ := (marked masks).
  Local Notation in_face_ := (in_face masks m f).
  Local Notation at_side_ := (at_side masks m f).
  Local Notation beside_ := (beside masks m f).

  (** *** Numbers of new nodes *)
  Lemma corner_in i e n : lists f i e -> ends_in (edge_at m e) n -> marked_ n = true -> In (i, n) (corners masks f).
  Proof. intros L En M. apply filter_In. split; [exact (listed_corner m f I i e n L En)|exact M]. Qed.
  Lemma side_in e n : e < E -> on_boundary f e -> ends_in (edge_at m e) n -> marked_ n = true -> In (e, n) (sides masks m f).
  Proof. intros He Bd En M. apply filter_In. split; [apply (sides_to_in m f I E e n (Nat.le_refl _)); auto|exact M]. Qed.
  Lemma in_face_range i e n : lists f i e -> ends_in (edge_at m e) n -> n < N -> (marked_ n = false -> in_face_ i n = n) /\ (marked_ n = true -> N <= in_face_ i n < N + C).
  Proof. intros L En Hn. unfold in_face. destruct (marked_ n) eqn:M; split; try discriminate; [intros _|reflexivity]. pose proof (index_lt _ _ (corner_in i e n L En M)). lia. Qed.
  Lemma at_side_range e n : e < E -> on_boundary f e -> ends_in (edge_at m e) n -> (marked_ n = false -> at_side_ e n = n) /\ (marked_ n = true -> N + C <= at_side_ e n < N + C + S_).
  Proof. intros He Bd En. unfold at_side. destruct (marked_ n) eqn:M; split; try discriminate; [intros _|reflexivity]. pose proof (index_lt _ _ (side_in e n He Bd En M)). lia. Qed.

  (** What stands at either side of an edge of a face. *)
  Lemma sides_of e a b : edge_at m e = (Some a, Some b) -> (exists i, lists f i e) -> forall u v, (u = a /\ v = b) \/ (u = b /\ v = a) ->
    e < E /\ a < N /\ b < N /\ a <> b /\
    ((exists i, walks f i u v e /\ lists f i e /\ face_along f u v e = Some i) \/ (on_boundary f e /\ face_along f u v e = None /\ exists i, walks f i v u e)).
  Proof.
    intros Ee (i & L) u v Huv. destruct (lists_lt m f I i e L) as (_ & He). destruct (used_ends m f I e i L) as (a' & b' & Ee' & D & Ba & Bb). rewrite Ee in Ee'. injection Ee' as <- <-.
    split; [exact He|]. split; [exact Ba|]. split; [exact Bb|]. split; [exact D|]. destruct (face_along f u v e) as [j|] eqn:F.
    - left. apply (along_some m f I) in F. exists j. split; [exact F|]. split; [apply (walks_facts m f I _ _ _ _ F)|reflexivity].
    - right. pose proof (along_none m f I u v e F) as No. assert (W' : forall j, lists f j e -> walks f j v u e).
      { intros j Lj. destruct (listed_walks m f I j e Lj) as (x & y & W). destruct (walks_ends m f I _ _ _ _ W) as [Q|Q]; rewrite Ee in Q; injection Q as <- <-; destruct Huv as [(-> & ->)|(-> & ->)]; auto; now apply No in W. }
      split; [|split; [reflexivity|exists i; auto]]. exists i. intros j. split; [intros Lj; eapply O; [apply W'; exact Lj|apply W'; exact L]|intros ->; exact L].
  Qed.
  Lemma beside_range e a b u v n : edge_at m e = (Some a, Some b) -> (exists i, lists f i e) -> (u = a /\ v = b) \/ (u = b /\ v = a) -> n = a \/ n = b ->
    (marked_ n = false -> beside_ u v e n = n) /\ (marked_ n = true -> N <= beside_ u v e n < N + C + S_).
  Proof.
    intros Ee L Huv Hn. destruct (sides_of e a b Ee L u v Huv) as (He & Ba & Bb & D & Q). assert (En : ends_in (edge_at m e) n) by (rewrite Ee; unfold ends_in; cbn; destruct Hn as [->| ->]; auto).
    assert (Bn : n < N) by (destruct Hn as [->| ->]; assumption). unfold beside. destruct Q as [(i & _ & Li & ->)|(Bd & -> & _)].
    - destruct (in_face_range i e n Li En Bn) as (R1 & R2). split; [exact R1|]. intros M. specialize (R2 M). lia.
    - destruct (at_side_range e n He Bd En) as (R1 & R2). split; [exact R1|]. intros M. specialize (R2 M). lia.
  Qed.
  Lemma beside_ends e a b u v : edge_at m e = (Some a, Some b) -> (exists i, lists f i e) -> (u = a /\ v = b) \/ (u = b /\ v = a) -> beside_ u v e a <> beside_ u v e b.
  Proof.
    intros Ee L Huv Q. destruct (sides_of e a b Ee L u v Huv) as (He & Ba & Bb & D & Z).
    destruct (beside_range e a b u v a Ee L Huv (or_introl eq_refl)) as (A1 & A2), (beside_range e a b u v b Ee L Huv (or_intror eq_refl)) as (B1 & B2).
    assert (Ea : ends_in (edge_at m e) a) by (rewrite Ee; left; reflexivity). assert (Eb : ends_in (edge_at m e) b) by (rewrite Ee; right; reflexivity).
    destruct (marked_ a) eqn:Ma, (marked_ b) eqn:Mb.
    - unfold beside in Q. destruct Z as [(i & _ & Li & Fa)|(Bd & Fa & _)]; rewrite Fa in Q.
      + unfold in_face in Q. rewrite Ma, Mb in Q. assert (X : index_of (i, a) (corners masks f) = index_of (i, b) (corners masks f)) by lia.
        apply index_inj in X; [congruence|eapply corner_in; eauto|eapply corner_in; eauto].
      + unfold at_side in Q. rewrite Ma, Mb in Q. assert (X : index_of (e, a) (sides masks m f) = index_of (e, b) (sides masks m f)) by lia. apply index_inj in X; [congruence|now apply side_in|now apply side_in].
    - specialize (A2 eq_refl). specialize (B1 eq_refl). lia.
    - specialize (A1 eq_refl). specialize (B2 eq_refl). lia.
    - specialize (A1 eq_refl). specialize (B1 eq_refl). congruence.
  Qed.
  Lemma beside_across e a b n : edge_at m e = (Some a, Some b) -> (exists i, lists f i e) -> n = a \/ n = b -> marked_ n = true -> beside_ b a e n <> beside_ a b e n.
  Proof.
    intros Ee L Hn M Q. destruct (sides_of e a b Ee L b a (or_intror (conj eq_refl eq_refl))) as (He & Ba & Bb & D & Z1). destruct (sides_of e a b Ee L a b (or_introl (conj eq_refl eq_refl))) as (_ & _ & _ & _ & Z2).
    assert (En : ends_in (edge_at m e) n) by (rewrite Ee; unfold ends_in; cbn; destruct Hn as [->| ->]; auto). assert (Bn : n < N) by (destruct Hn as [->| ->]; assumption).
    unfold beside in Q. destruct Z1 as [(i & Wi & Li & F1)|(Bd & F1 & j & Wj)], Z2 as [(i' & Wi' & Li' & F2)|(Bd' & F2 & j' & Wj')]; rewrite F1, F2 in Q.
    - unfold in_face in Q. rewrite M in Q. assert (X : index_of (i, n) (corners masks f) = index_of (i', n) (corners masks f)) by lia.
      apply index_inj in X; [|eapply corner_in; eauto|eapply corner_in; eauto]. injection X as ->. exact (walks_turn m f I _ _ _ _ _ Wi Wi').
    - destruct (in_face_range i e n Li En Bn) as (_ & R). specialize (R M). destruct (at_side_range e n He Bd' En) as (_ & R'). specialize (R' M). lia.
    - destruct (in_face_range i' e n Li' En Bn) as (_ & R). specialize (R M). destruct (at_side_range e n He Bd En) as (_ & R'). specialize (R' M). lia.
    - exact (along_none m f I b a e F1 j' Wj').
  Qed.

  (** *** Adding edges *)
  Definition st (m1 : mesh) (new : list (nat * nat)) (s : splitting) : Prop := s_mesh s = grow m P new /\ consistent (s_mesh s) /\ list_ok (s_acts s) m1 (s_mesh s).
  Lemma row_grow new n : n < N -> row_of (grow m P new) n = row_of m n.
  Proof. intros H. unfold row_of. cbn [grow m_nodesEdges]. rewrite app_nth1; [reflexivity|]. now rewrite (co_rows m (st_mesh m f I)). Qed.
  Lemma degree_grow new n : n < N -> degree_of (grow m P new) n = degree_of m n.
  Proof. intros H. unfold degree_of. cbn [grow m_nodesNumEdges]. rewrite app_nth1; [reflexivity|]. now rewrite (co_counts m (st_mesh m f I)). Qed.
  Lemma edge_grow new e : e < E -> edge_at (grow m P new) e = edge_at m e.
  Proof. intros H. unfold edge_at. cbn [grow m_edges]. now rewrite app_nth1. Qed.
  Lemma st_edge_get m1 new s e : st m1 new s -> e < E -> get_edge (s_mesh s) (Some e) = Ok (edge_at m e).
  Proof. intros (H & _) He. rewrite H, get_edge_ok; [now rewrite edge_grow|]. cbn. rewrite app_length. lia. Qed.

  Lemma link_new m1 new s a b : st m1 new s -> a < N + length P -> b < N + length P -> N <= a \/ N <= b -> exists s', link order s (Some a) (Some b) = Ok s' /\ st m1 (new ++ [(a, b)]) s'.
  Proof.
    intros (Em & Hc & L) Ha Hb Hnew. unfold link. assert (Ln : length (m_nodes (s_mesh s)) = N + length P) by (rewrite Em; cbn; now rewrite app_length).
    destruct (connect_nodes_ok order (s_mesh s) a b Hc ltac:(lia) ltac:(lia)) as [H|(m' & -> & E' & T & C')].
    - exfalso. unfold connect_nodes in H. destruct (find_edge_ok (s_mesh s) a b Hc ltac:(lia)) as (r & Hr & Hs). rewrite Hr in H. cbn [bind] in H. destruct r as [e|]; [|apply bind_ok_inv in H as ([x y] & _ & H); discriminate].
      destruct Hs as (H1 & H2 & H3). destruct (Nat.lt_ge_cases a N) as [A|A].
      + destruct Hnew as [Hn|Hn]; [lia|]. assert (Hin : In (Some e) (row_of m a)) by (rewrite <- (row_grow new a A), <- Em; eapply In_firstn; eauto).
        destruct (st_row m f I a A) as (_ & _ & R). destruct (R _ Hin) as (e' & o & X & He & J & _). injection X as <-.
        change (ge (s_mesh s) e) with (edge_at (s_mesh s) e) in H3. rewrite Em, edge_grow in H3 by exact He.
        assert (Eb : ends_in (edge_at m e) b) by (unfold other_node in H3; destruct (eq_idx _ _); [right|left]; exact H3).
        assert (b < N) by (apply (co_ends m (st_mesh m f I) (edge_at m e)); [unfold edge_at; apply nth_In; exact He|assumption]). lia.
      + assert (Z : row_of (s_mesh s) a = []) by (rewrite Em; unfold row_of; cbn; rewrite app_nth2 by (rewrite (co_rows m (st_mesh m f I)); lia); apply nth_repeat). rewrite Z, firstn_nil in H1. easy.
    - cbn [bind compound_add act_state leaf]. eexists. split; [reflexivity|]. split; [|split; [exact C'|cbn [s_mesh s_acts]; eapply list_snoc; eauto]].
      cbn [s_mesh]. rewrite E', Em. unfold grow, set_edges. cbn. rewrite map_app, app_assoc. reflexivity.
  Qed.
  Lemma link_old m1 new s a b e : st m1 new s -> a < N -> In (Some e) (row_of m a) -> joins (edge_at m e) a b -> a <> b -> link order s (Some a) (Some b) = Ok s.
  Proof.
    intros (Em & Hc & _) Ha Hin J D. unfold link. assert (Ln : length (m_nodes (s_mesh s)) = N + length P) by (rewrite Em; cbn; now rewrite app_length).
    unfold connect_nodes. destruct (find_edge_ok (s_mesh s) a b Hc ltac:(lia)) as (r & -> & Hs). cbn [bind]. destruct r as [x|]; [reflexivity|]. exfalso. apply (Hs e).
    - rewrite Em, degree_grow, row_grow by exact Ha. destruct (st_row m f I a Ha) as (-> & _). rewrite firstn_all. exact Hin.
    - destruct (st_row m f I a Ha) as (_ & _ & R). destruct (R _ Hin) as (e' & o & X & He & _). injection X as <-. change (ge (s_mesh s) e) with (edge_at (s_mesh s) e). rewrite Em, edge_grow by exact He.
      unfold other_node. destruct J as [->| ->]; cbn [fst snd eq_idx]; [now rewrite Nat.eqb_refl|]. destruct (Nat.eqb_spec b a); [congruence|reflexivity].
  Qed.
  Lemma collected_ok m1 new new' s go : st m1 new s -> (forall s0, st (s_mesh s) new s0 -> exists s', go s0 = Ok s' /\ st (s_mesh s) new' s') -> exists s', collected go s = Ok s' /\ st m1 new' s'.
  Proof.
    intros (Em & Hc & L) H. unfold collected. destruct (H (Splitting (s_mesh s) [] [])) as (r & -> & Er & Cr & Lr).
    - split; [exact Em|]. split; [exact Hc|]. constructor. apply mesh_le_refl.
    - cbn [bind compound_add act_state compound]. eexists. split; [reflexivity|]. split; [exact Er|]. split; [exact Cr|]. cbn [s_mesh s_acts]. eapply list_snoc; [exact L|]. now constructor.
  Qed.

  (** *** The table *)
  Lemma at_table_ok e k : e < E -> k < 4 -> (exists i, lists f i e) -> at_table table e k = Ok (nth k (full_row m f masks e) None).
  Proof.
    intros He Hk L. unfold at_table. rewrite (nth_vget _ e []) by (rewrite map_length, seq_length; exact He). cbn [bind].
    rewrite (nth_indep _ [] (expected_row m f masks 0)) by (rewrite map_length, seq_length; exact He). rewrite map_nth, seq_nth by exact He. cbn [Nat.add]. unfold expected_row. rewrite (proj2 (used_ok m f I e He) L).
    apply nth_vget. unfold full_row. destruct L as (i & L). destruct (used_ends m f I e i L) as (a & b & -> & _). exact Hk.
  Qed.
  Lemma at_table_none e k : e < E -> k < 4 -> used f e = false -> at_table table e k = Ok None.
  Proof.
    intros He Hk U. unfold at_table. rewrite (nth_vget _ e []) by (rewrite map_length, seq_length; exact He). cbn [bind].
    rewrite (nth_indep _ [] (expected_row m f masks 0)) by (rewrite map_length, seq_length; exact He). rewrite map_nth, seq_nth by exact He. cbn [Nat.add]. unfold expected_row. rewrite U.
    destruct k as [|[|[|[|k]]]]; [reflexivity..|lia].
  Qed.

  (** *** Along and across the edges *)
  Lemma line_add m1 new s a b : st m1 new s -> a < N + length P -> b < N + length P -> N <= a \/ N <= b -> a <> b -> exists s', line order s (Some a) (Some b) = Ok s' /\ st m1 (new ++ [(a, b)]) s'.
  Proof. intros H Ha Hb Hn D. unfold line. destruct (Nat.eqb_spec a b); [congruence|]. now apply link_new. Qed.
  Lemma line_keep m1 new s a b e : st m1 new s -> a < N -> In (Some e) (row_of m a) -> joins (edge_at m e) a b -> a <> b -> line order s (Some a) (Some b) = Ok s.
  Proof. intros H Ha Hin J D. unfold line. destruct (Nat.eqb_spec a b); [congruence|]. eapply link_old; eauto. Qed.
  Lemma connect_edge_ok m1 new s e : st m1 new s -> e < E -> exists s', connect_edge order table s e = Ok s' /\ st m1 (new ++ lines masks m f e) s'.
  Proof.
    intros H He. unfold connect_edge, lines. destruct (used f e) eqn:U.
    - apply (used_ok m f I e He) in U. rewrite !at_table_ok by (auto; lia). cbn [bind]. pose proof U as (i & L). destruct (used_ends m f I e i L) as (a & b & Ee & D & Ba & Bb). unfold full_row. rewrite Ee. cbn [nth].
      assert (Hin : In (Some e) (row_of m a)) by (apply (st_listed m f I i e a L); rewrite Ee; left; reflexivity). assert (J : joins (edge_at m e) a b) by (rewrite Ee; left; reflexivity).
      pose proof (beside_range e a b b a a Ee U ltac:(auto) ltac:(auto)) as (R1 & R1'). pose proof (beside_range e a b b a b Ee U ltac:(auto) ltac:(auto)) as (R2 & R2').
      pose proof (beside_range e a b a b a Ee U ltac:(auto) ltac:(auto)) as (R3 & R3'). pose proof (beside_range e a b a b b Ee U ltac:(auto) ltac:(auto)) as (R4 & R4').
      pose proof (beside_ends e a b b a Ee U ltac:(auto)) as D12. pose proof (beside_ends e a b a b Ee U ltac:(auto)) as D34.
      pose proof (beside_across e a b a Ee U ltac:(auto)) as D13. pose proof (beside_across e a b b Ee U ltac:(auto)) as D24.
      set (n1 := beside_ b a e a) in *. set (n2 := beside_ b a e b) in *. set (n3 := beside_ a b e a) in *. set (n4 := beside_ a b e b) in *. clearbody n1 n2 n3 n4.
      assert (Skip : forall x s0, line order s0 (Some x) (Some x) = Ok s0) by (intros; unfold line; now rewrite Nat.eqb_refl).
      destruct (marked_ a) eqn:Ma, (marked_ b) eqn:Mb; cbn [orb app];
        repeat match goal with Q : ?x = ?x -> _ |- _ => specialize (Q eq_refl) end.
      + destruct (line_add m1 new s n1 n2 H) as (s1 & -> & H1); [lia..|exact D12|]. cbn [bind]. destruct (line_add m1 _ s1 n3 n4 H1) as (s2 & -> & H2); [lia..|exact D34|]. cbn [bind].
        destruct (line_add m1 _ s2 n1 n3 H2) as (s3 & -> & H3); [lia..|exact D13|]. cbn [bind]. destruct (line_add m1 _ s3 n2 n4 H3) as (s4 & -> & H4); [lia..|exact D24|].
        exists s4. split; [reflexivity|]. rewrite <- !app_assoc in H4. exact H4.
      + destruct (line_add m1 new s n1 n2 H) as (s1 & -> & H1); [lia..|exact D12|]. cbn [bind]. destruct (line_add m1 _ s1 n3 n4 H1) as (s2 & -> & H2); [lia..|exact D34|]. cbn [bind].
        destruct (line_add m1 _ s2 n1 n3 H2) as (s3 & -> & H3); [lia..|exact D13|]. cbn [bind]. replace n4 with n2 by congruence. rewrite Skip. exists s3. split; [reflexivity|]. rewrite <- !app_assoc in H3. replace n2 with n4 at 1 by congruence. replace n4 with n2 in H3 by congruence. replace n4 with n2 by congruence. exact H3.
      + destruct (line_add m1 new s n1 n2 H) as (s1 & -> & H1); [lia..|exact D12|]. cbn [bind]. destruct (line_add m1 _ s1 n3 n4 H1) as (s2 & -> & H2); [lia..|exact D34|]. cbn [bind].
        replace (line order s2 (Some n1) (Some n3)) with (Ok s2) by (replace n3 with n1 by congruence; now rewrite Skip). cbn [bind]. destruct (line_add m1 _ s2 n2 n4 H2) as (s4 & -> & H4); [lia..|exact D24|].
        exists s4. split; [reflexivity|]. rewrite <- !app_assoc in H4. exact H4.
      + subst n1 n2 n3 n4. rewrite (line_keep m1 new s a b e H Ba Hin J D). cbn [bind]. rewrite (line_keep m1 new s a b e H Ba Hin J D). cbn [bind]. rewrite !Skip. cbn [bind]. rewrite !Skip. exists s. rewrite app_nil_r. auto.
    - rewrite !at_table_none by (auto; lia). cbn [bind line]. exists s. split; [reflexivity|]. replace (match edge_at m e with (Some _, Some _) => [] | _ => [] end) with (@nil (nat * nat)) by (destruct (edge_at m e) as ([?|] & [?|]); reflexivity). now rewrite app_nil_r.
  Qed.
  Lemma fold_st m1 (step : splitting -> nat -> outcome splitting) (adds : nat -> list (nat * nat)) k : (forall new s n, st m1 new s -> n < k -> exists s', step s n = Ok s' /\ st m1 (new ++ adds n) s') ->
    forall new s, st m1 new s -> exists s', fold_out step (seq 0 k) s = Ok s' /\ st m1 (new ++ flat_map adds (seq 0 k)) s'.
  Proof.
    intros Hs new s H. apply (fold_range (fun j x => st m1 (new ++ flat_map adds (seq 0 j)) x)); [cbn; now rewrite app_nil_r|]. intros j x Hj Hx. rewrite seq_S, flat_map_app. cbn [flat_map Nat.add]. rewrite app_nil_r, app_assoc. now apply Hs.
  Qed.
  Lemma connect_edges_ok m1 new s : st m1 new s -> exists s', connect_edges order table E s = Ok s' /\ st m1 (new ++ flat_map (lines masks m f) (seq 0 E)) s'.
  Proof.
    intros H. unfold connect_edges. apply (collected_ok m1 new); [exact H|]. intros s0 H0. apply fold_st; [|exact H0]. intros new' x e Hx He. now apply connect_edge_ok.
  Qed.

  (** *** Inside faces: nothing is added *)
  Lemma mask_old n : n < N -> vget masks1 n = Ok (nth n masks Unassigned).
  Proof. intros Hn. rewrite (nth_vget _ n Unassigned) by lia. rewrite GM. rewrite (proj2 (Nat.leb_gt N n) Hn), (proj2 (Nat.leb_gt (N + C) n)) by lia. reflexivity. Qed.
  Lemma active_ok ns : (forall n, In n ns -> n < N) -> exists b, active masks1 ns = Ok b /\ (b = true -> forall n, In n ns -> nth n masks Unassigned <> Unassigned).
  Proof.
    induction ns as [|n ns IH]; intros H; cbn [active]; [exists true; split; [reflexivity|easy]|]. rewrite mask_old by (apply H; now left). cbn [bind]. destruct (eq_mask (nth n masks Unassigned) Unassigned) eqn:Q.
    - exists false. split; [reflexivity|discriminate].
    - destruct IH as (b & -> & Hb); [intros; apply H; now right|]. exists b. split; [reflexivity|]. intros Tb x [<-|Hx]; [|now apply Hb]. intros X. apply eq_mask_ok in X. congruence.
  Qed.
  Lemma connect_inside_ok m1 new s i : st m1 new s -> i < num_faces f -> exists s', connect_inside order f masks1 table s i = Ok s' /\ st m1 (new ++ []) s'.
  Proof.
    intros H Hi. rewrite app_nil_r. unfold connect_inside. destruct (nth_error (faces_nodes f) i) as [ns|] eqn:Ns; [|apply nth_error_None in Ns; unfold num_faces in Hi; lia]. destruct (face_both m f I i ns Ns) as (es & Es).
    destruct (face_parts m f I i ns es Ns Es) as (_ & _ & Le & _ & _ & Bn & Be). destruct (st_tables m f I) as (_ & T2 & _).
    assert (Cn : nth_error (num_faces_nodes f) i = Some (length ns)) by (rewrite T2, nth_error_map, Ns; reflexivity). rewrite (vget_some _ _ _ Cn). cbn [bind].
    destruct (Nat.eqb_spec (length ns) 4) as [L4|]; cbn [negb]; [|exists s; auto]. rewrite (vget_some _ _ _ Ns). cbn [bind]. destruct (active_ok ns Bn) as (b & -> & Hb). cbn [bind]. destruct b; [|exists s; auto]. specialize (Hb eq_refl).
    unfold connect_face. apply (collected_ok m1 new); [exact H|]. intros s0 H0. rewrite (vget_some _ _ _ Es). cbn [bind].
    set (good := fun x : option nat * option nat => exists n y, x = (Some n, Some y) /\ In n ns /\ y < N + C + S_).
    assert (One : forall j, j < 4 -> exists x, old_and_new table (s_mesh s0) es (length ns) j = Ok x /\ good x).
    { intros j Hj. unfold old_and_new. rewrite L4. set (j' := if j =? 0 then 4 - 1 else j - 1). assert (Hj' : j' < 4) by (unfold j'; destruct (Nat.eqb_spec j 0); lia).
      destruct (nth_error es j) as [e|] eqn:Ej; [|apply nth_error_None in Ej; lia]. destruct (nth_error es j') as [e'|] eqn:Ej'; [|apply nth_error_None in Ej'; lia].
      rewrite (vget_some _ _ _ Ej), (vget_some _ _ _ Ej'). cbn [bind]. apply nth_error_In in Ej, Ej'. rewrite (st_edge_get _ _ _ e H0 (Be e Ej)), (st_edge_get _ _ _ e' H0 (Be e' Ej')). cbn [bind].
      assert (L : lists f i e) by (exists es; auto). destruct (used_ends m f I e i L) as (a & b & Ee & D & Ba & Bb). assert (U : exists i, lists f i e) by eauto.
      rewrite !at_table_ok by (auto; lia). cbn [bind]. unfold full_row. rewrite Ee. cbn [nth fst snd].
      assert (Inn : forall n, ends_in (edge_at m e) n -> In n ns) by (intros n En; destruct (listed_node m f I i e n L En) as (ns' & X & Y); congruence).
      destruct (beside_range e a b b a b Ee U ltac:(auto) ltac:(auto)) as (R1 & R1'). destruct (beside_range e a b a b a Ee U ltac:(auto) ltac:(auto)) as (R2 & R2').
      destruct (negb _ && negb _); eexists; (split; [reflexivity|]); eexists; eexists; (split; [reflexivity|]); (split; [apply Inn; rewrite Ee; unfold ends_in; cbn; auto|]).
      - destruct (marked_ b); [specialize (R1' eq_refl)|specialize (R1 eq_refl)]; lia.
      - destruct (marked_ a); [specialize (R2' eq_refl)|specialize (R2 eq_refl)]; lia. }
    assert (All : exists l, olds_and_news table (s_mesh s0) es (length ns) (seq 0 (length ns)) = Ok l /\ length l = 4 /\ forall x, In x l -> good x).
    { rewrite L4 in One |- *. cbn [seq olds_and_news].
      destruct (One 0 ltac:(lia)) as (x0 & -> & G0), (One 1 ltac:(lia)) as (x1 & -> & G1), (One 2 ltac:(lia)) as (x2 & -> & G2), (One 3 ltac:(lia)) as (x3 & -> & G3). cbn [bind].
      eexists. split; [reflexivity|]. split; [reflexivity|]. intros x [<-|[<-|[<-|[<-|[]]]]]; assumption. }
    destruct All as (l & -> & Ll & Gl). cbn [bind]. exists s0. split; [|exact H0]. rewrite L4.
    assert (Get : forall j, j < 4 -> exists x, vget l j = Ok x /\ good x).
    { intros j Hj. destruct (nth_error l j) as [x|] eqn:Q; [|apply nth_error_None in Q; lia]. exists x. split; [now apply vget_some|apply Gl; eapply nth_error_In; eauto]. }
    assert (Mk : forall n, In n ns -> exists v, mask_at masks1 (Some n) = Ok v /\ eq_mask v Unassigned = false).
    { intros n Hn. exists (nth n masks Unassigned). cbn [mask_at]. split; [now apply mask_old, Bn|]. destruct (eq_mask (nth n masks Unassigned) Unassigned) eqn:Q; [|reflexivity]. apply eq_mask_ok in Q. now apply Hb in Hn. }
    assert (G : forall js, (forall j, In j js -> j < 4) -> diagonals order masks1 l 4 js s0 = Ok s0).
    { induction js as [|j js IH]; intros Hj; [reflexivity|]. cbn [diagonals]. specialize (IH (fun x Hx => Hj x (or_intror Hx))). specialize (Hj j (or_introl eq_refl)).
      destruct (Get j Hj) as (x1 & -> & (n1 & y1 & -> & _ & By1)). cbn [bind].
      destruct (Get (if j =? 0 then 4 - 1 else j - 1)) as (xb & -> & (n2 & y2 & -> & In2 & _)); [destruct (Nat.eqb_spec j 0); lia|]. cbn [bind].
      destruct (Get (if j =? 4 - 1 then 0 else j + 1)) as (xa & -> & (n3 & y3 & -> & In3 & _)); [destruct (Nat.eqb_spec j (4 - 1)); lia|]. cbn [bind].
      destruct (Get (if j =? 4 - 2 then 0 else if j =? 4 - 1 then 1 else j + 2)) as (xt & -> & (n4 & y4 & -> & In4 & _)); [destruct (Nat.eqb_spec j (4 - 2)); [lia|destruct (Nat.eqb_spec j (4 - 1)); lia]|]. cbn [bind fst snd].
      replace (mask_at masks1 (Some y1)) with (Ok (nth y1 masks1 Unassigned)) by (symmetry; apply nth_vget; lia). cbn [bind]. destruct (negb (lt_mask (nth y1 masks1 Unassigned) Unassigned)); [exact IH|].
      destruct (Mk n2 In2) as (v2 & -> & Q2), (Mk n3 In3) as (v3 & -> & Q3), (Mk n4 In4) as (v4 & -> & Q4). cbn [bind]. rewrite Q2, Q4. cbn [andb]. rewrite andb_false_r. exact IH. }
    apply G. intros j Hj. apply in_seq in Hj. lia.
  Qed.

  (** *** At the nodes of the boundary *)
  Lemma listed_eq n : n < N -> exists l, row_of m n = map Some l /\ listed m n = l /\ length l = degree_of m n /\ NoDup l /\
    forall e, In e l -> e < E /\ (exists i, lists f i e) /\ ends_in (edge_at m e) n.
  Proof.
    intros Hn. destruct (st_row m f I n Hn) as (D & ND & R). exists (listed m n). assert (Q : row_of m n = map Some (listed m n)).
    { unfold listed. clear D ND. induction (row_of m n) as [|x r IH]; [reflexivity|]. destruct (R x (or_introl eq_refl)) as (e & o & -> & _). cbn. rewrite <- IH; [reflexivity|]. intros; apply R; now right. }
    split; [exact Q|]. split; [reflexivity|]. split; [rewrite D, Q; now rewrite map_length|]. split; [rewrite Q in ND; now apply NoDup_map_inv in ND|].
    intros e He. assert (Hin : In (Some e) (row_of m n)) by (rewrite Q; now apply in_map). destruct (R _ Hin) as (e' & o & X & B & J & _). injection X as <-. split; [exact B|]. split; [now apply (Loose n)|]. apply (joins_end _ _ _ J).
  Qed.
  Lemma spokes_ok m1 new s n e : st m1 new s -> marked_ n = true -> e < E -> (exists i, lists f i e) -> ends_in (edge_at m e) n -> exists s', spokes order table n e s = Ok s' /\ st m1 (new ++ to_both masks m f n e) s'.
  Proof.
    intros H M He U En. unfold spokes. rewrite (st_edge_get _ _ _ e H He). cbn [bind]. pose proof U as (i & L). destruct (used_ends m f I e i L) as (a & b & Ee & D & Ba & Bb).
    assert (Hn : n = a \/ n = b) by (rewrite Ee in En; destruct En as [X|X]; cbn in X; injection X as ->; auto). rewrite Ee. cbn [fst].
    assert (Bn : n < N) by (destruct Hn as [->| ->]; assumption).
    assert (X : at_table table e (if eq_idx (Some a) (Some n) then 0 else 1) = Ok (Some (beside_ b a e n)) /\ at_table table e (if eq_idx (Some a) (Some n) then 2 else 3) = Ok (Some (beside_ a b e n))).
    { cbn [eq_idx]. rewrite !at_table_ok by (auto; destruct (a =? n); lia). unfold full_row. rewrite Ee. destruct (Nat.eqb_spec a n) as [->|Dn]; cbn [nth]; [auto|]. destruct Hn as [->| ->]; [congruence|auto]. }
    destruct X as (-> & ->). cbn [bind]. unfold to_both. rewrite Ee.
    destruct (beside_range e a b b a n Ee U ltac:(auto) Hn) as (_ & R1). destruct (beside_range e a b a b n Ee U ltac:(auto) Hn) as (_ & R2). specialize (R1 M). specialize (R2 M).
    destruct (link_new m1 new s n (beside_ b a e n) H ltac:(lia) ltac:(lia) ltac:(lia)) as (s1 & -> & H1). cbn [bind]. destruct (link_new m1 _ s1 n (beside_ a b e n) H1 ltac:(lia) ltac:(lia) ltac:(lia)) as (s2 & -> & H2).
    exists s2. split; [reflexivity|]. rewrite <- app_assoc in H2. exact H2.
  Qed.
  Lemma row_at m1 new s n j l : st m1 new s -> n < N -> row_of m n = map Some l -> j < length l -> edge_of_row (s_mesh s) n j = Ok (nth j l 0).
  Proof.
    intros (Em & Hc & _) Hn Q Hj. unfold edge_of_row. rewrite Em. rewrite (nth_vget _ n []) by (cbn; rewrite app_length, (co_rows m (st_mesh m f I)); lia). cbn [bind]. fold (row_of (grow m P new) n). rewrite row_grow, Q by exact Hn.
    assert (X : nth_error (map Some l) j = Some (Some (nth j l 0))) by (rewrite nth_error_map, (nth_error_nth' _ 0 Hj); reflexivity). rewrite (vget_some _ _ _ X). reflexivity.
  Qed.
  Lemma degree_at m1 new s n : st m1 new s -> n < N -> vget (m_nodesNumEdges (s_mesh s)) n = Ok (degree_of m n).
  Proof. intros (Em & _) Hn. rewrite Em. rewrite (nth_vget _ n 0) by (cbn; rewrite app_length, (co_counts m (st_mesh m f I)); lia). fold (degree_of (grow m P new) n). now rewrite degree_grow. Qed.
  Lemma firstn_next {A} (l : list A) j d : j < length l -> firstn (S j) l = firstn j l ++ [nth j l d].
  Proof. revert j. induction l as [|x l IH]; intros [|j] H; cbn in *; try lia; [reflexivity|]. f_equal. apply IH. lia. Qed.

  Lemma connect_rim_ok m1 new s n : st m1 new s -> n < N -> marked_ n = true ->
    exists s', connect_rim order f table n s = Ok (s', rim_edges m f n) /\ st m1 (new ++ flat_map (to_both masks m f n) (filter (fun e => negb (single f e)) (listed m n))) s'.
  Proof.
    intros H Hn M. destruct (listed_eq n Hn) as (l & Q & Ql & Ld & _ & Hl). unfold connect_rim, rim_edges. rewrite (degree_at _ _ _ n H Hn). cbn [bind]. rewrite Ql, <- Ld. pose proof H as (Em & Hc & La).
    destruct (fold_range (fun j x => st (s_mesh s) (new ++ flat_map (to_both masks m f n) (filter (fun e => negb (single f e)) (firstn j l))) (fst x) /\ snd x = filter (single f) (firstn j l))
      (rim_step order f table n) (length l) (Splitting (s_mesh s) [] [], [])) as ((r & rim) & -> & (Er & Cr & Lr) & Hrim).
    - split; [|reflexivity]. cbn. rewrite app_nil_r. split; [exact Em|]. split; [exact Hc|]. constructor. apply mesh_le_refl.
    - intros j (x & rim) Hj (Hx & Hr). cbn [fst snd] in *. unfold rim_step. rewrite (row_at _ _ x n j l Hx Hn Q Hj). cbn [bind]. set (e := nth j l 0). assert (Ie : In e l) by (now apply nth_In). destruct (Hl e Ie) as (He & U & En).
      destruct (faces_recorded m f I e He) as (k & p & K1 & _). rewrite (vget_some _ _ _ K1). cbn [bind]. assert (Sk : single f e = (k =? 1)) by (unfold single; now rewrite (nth_error_nth _ _ 0 K1)).
      rewrite (firstn_next l j 0 Hj). fold e. rewrite !filter_app. cbn [filter]. rewrite Sk, flat_map_app. destruct (k =? 1); cbn [negb].
      + exists (x, rim ++ [e]). split; [reflexivity|]. cbn [fst snd flat_map]. rewrite app_nil_r, Hr. split; [exact Hx|reflexivity].
      + destruct (spokes_ok _ _ x n e Hx M He U En) as (x' & -> & Hx'). cbn [bind]. exists (x', rim). split; [reflexivity|]. cbn [fst snd flat_map]. rewrite !app_nil_r. split; [now rewrite app_assoc|exact Hr].
    - cbn [bind compound_add act_state compound]. cbn [fst snd] in *. rewrite firstn_all in *. eexists. split; [now rewrite Hrim|]. split; [exact Er|]. split; [exact Cr|]. cbn [s_mesh s_acts]. eapply list_snoc; [exact La|]. now constructor.
  Qed.

  Lemma general_at y : N <= y -> y < N + C + S_ -> mask_at masks1 (Some y) = Ok (if y <? N + C then NewAssigned else NewGeneral).
  Proof.
    intros H1 H2. cbn [mask_at]. rewrite (nth_vget _ y Unassigned) by lia. rewrite GM. rewrite (proj2 (Nat.leb_le N y) H1). cbn [andb]. destruct (Nat.ltb_spec y (N + C)); [reflexivity|].
    rewrite (proj2 (Nat.leb_le (N + C) y)) by lia. rewrite (proj2 (Nat.ltb_lt y (N + C + S_))) by lia. reflexivity.
  Qed.
  Lemma to_connect_ok m1 new s n e : st m1 new s -> marked_ n = true -> e < E -> on_boundary f e -> ends_in (edge_at m e) n -> to_connect masks1 table (s_mesh s) n e = Ok (Some (at_side_ e n)).
  Proof.
    intros H M He Bd En. unfold to_connect. rewrite (st_edge_get _ _ _ e H He). cbn [bind]. destruct (rim_face f e Bd) as (i & L & Ui). assert (U : exists i, lists f i e) by eauto. destruct (used_ends m f I e i L) as (a & b & Ee & D & Ba & Bb).
    assert (Hn : n = a \/ n = b) by (rewrite Ee in En; destruct En as [X|X]; cbn in X; injection X as ->; auto). rewrite Ee. cbn [fst snd].
    assert (Bn : n < N) by (destruct Hn as [->| ->]; assumption).
    destruct (beside_range e a b b a n Ee U ltac:(auto) Hn) as (_ & R1). destruct (beside_range e a b a b n Ee U ltac:(auto) Hn) as (_ & R2). specialize (R1 M). specialize (R2 M).
    destruct (in_face_range i e n L En Bn) as (_ & R3). specialize (R3 M). destruct (at_side_range e n He Bd En) as (_ & R4). specialize (R4 M).
    assert (Z : (beside_ b a e n = in_face_ i n /\ beside_ a b e n = at_side_ e n) \/ (beside_ b a e n = at_side_ e n /\ beside_ a b e n = in_face_ i n)).
    { destruct (sides_of e a b Ee U b a ltac:(auto)) as (_ & _ & _ & _ & Z1). destruct (sides_of e a b Ee U a b ltac:(auto)) as (_ & _ & _ & _ & Z2). unfold beside.
      destruct Z1 as [(i1 & W1 & L1 & F1)|(_ & F1 & j1 & Wj1)], Z2 as [(i2 & W2 & L2 & F2)|(_ & F2 & j2 & Wj2)]; rewrite F1, F2.
      - exfalso. rewrite (Ui i1 L1) in W1. rewrite (Ui i2 L2) in W2. exact (walks_turn m f I _ _ _ _ _ W1 W2).
      - left. rewrite (Ui i1 L1). auto.
      - right. rewrite (Ui i2 L2). auto.
      - exfalso. exact (along_none m f I b a e F1 j2 Wj2). }
    assert (Pick : forall k1 k2, at_table table e k1 = Ok (Some (beside_ b a e n)) -> at_table table e k2 = Ok (Some (beside_ a b e n)) -> (let! x := if_general masks1 table e k1 None in if_general masks1 table e k2 x) = Ok (Some (at_side_ e n))).
    { intros k1 k2 A1 A2. unfold if_general. rewrite A1, A2. cbn [bind]. destruct Z as [(-> & ->)|(-> & ->)]; rewrite !general_at by lia; rewrite (proj2 (Nat.ltb_lt (in_face_ i n) (N + C))) by lia; rewrite (proj2 (Nat.ltb_ge (at_side_ e n) (N + C))) by lia; reflexivity. }
    destruct Hn as [->| ->]; cbn [eq_idx]; rewrite Nat.eqb_refl.
    - rewrite (Pick 0 2); [|rewrite at_table_ok by (auto; lia); unfold full_row; rewrite Ee; reflexivity..]. cbn [bind]. destruct (Nat.eqb_spec b a); [congruence|reflexivity].
    - destruct (Nat.eqb_spec a b); [congruence|]. cbn [bind]. apply (Pick 1 3); rewrite at_table_ok by (auto; lia); unfold full_row; rewrite Ee; reflexivity.
  Qed.
  Lemma all_to_connect_ok m1 new s n rim : st m1 new s -> marked_ n = true -> (forall e, In e rim -> e < E /\ on_boundary f e /\ ends_in (edge_at m e) n) ->
    all_to_connect masks1 table (s_mesh s) n rim = Ok (map (fun e => Some (at_side_ e n)) rim).
  Proof.
    intros H M. induction rim as [|e rim IH]; intros Hr; [reflexivity|]. cbn [all_to_connect map]. destruct (Hr e (or_introl eq_refl)) as (He & Bd & En). rewrite (to_connect_ok _ _ s n e H M He Bd En). cbn [bind].
    rewrite IH; [reflexivity|]. intros; apply Hr; now right.
  Qed.

  Hypothesis Two : forall n, n < N -> nth n masks Unassigned = Boundary -> length (rim_edges m f n) = 2.

  Lemma connect_boundary_ok m1 new s n : st m1 new s -> n < N -> exists s', connect_boundary order f masks1 table s n = Ok s' /\ st m1 (new ++ around masks m f n) s'.
  Proof.
    intros H Hn. unfold connect_boundary, around. rewrite mask_old by exact Hn. cbn [bind]. pose proof (Two n Hn) as T2.
    assert (Mv : marked_ n = lt_mask Unassigned (nth n masks Unassigned)) by (unfold marked; destruct (nth n masks Unassigned); reflexivity).
    assert (Rim : forall e, In e (rim_edges m f n) -> e < E /\ on_boundary f e /\ ends_in (edge_at m e) n).
    { intros e He. apply filter_In in He as (He & Se). destruct (listed_eq n Hn) as (l & _ & <- & _ & _ & Hl). destruct (Hl e He) as (B & _ & En). split; [exact B|]. split; [now apply (single_ok m f I e B)|exact En]. }
    assert (NDr : NoDup (rim_edges m f n)) by (destruct (listed_eq n Hn) as (l & _ & Ql & _ & ND & _); unfold rim_edges; rewrite Ql; now apply NoDup_filter).
    destruct (nth n masks Unassigned) eqn:V; cbn [lt_mask rank Nat.ltb Nat.leb] in Mv |- *; try (exists s; rewrite app_nil_r; auto; fail).
    - (* Boundary *) destruct (connect_rim_ok m1 new s n H Hn Mv) as (s1 & -> & H1). cbn [bind]. specialize (T2 eq_refl). rewrite T2. cbn [Nat.eqb]. rewrite (all_to_connect_ok _ _ s1 n _ H1 Mv Rim). cbn [bind eq_mask rank Nat.eqb negb].
      destruct (rim_edges m f n) as [|e [|e' [|? ?]]]; try discriminate T2. cbn [map].
      destruct (Rim e ltac:(cbn; auto)) as (B1 & D1 & E1), (Rim e' ltac:(cbn; auto)) as (B2 & D2 & E2). destruct (at_side_range e n B1 D1 E1) as (_ & R1). specialize (R1 Mv). destruct (at_side_range e' n B2 D2 E2) as (_ & R2). specialize (R2 Mv).
      assert (Dee : at_side_ e n <> at_side_ e' n).
      { unfold at_side. rewrite Mv. intros X. assert (Y : index_of (e, n) (sides masks m f) = index_of (e', n) (sides masks m f)) by lia. apply index_inj in Y; [|now apply side_in|now apply side_in]. injection Y as ->.
        inversion NDr as [|? ? Hx _]. apply Hx. now left. }
      destruct (line_add m1 _ s1 (at_side_ e n) (at_side_ e' n) H1) as (s2 & -> & H2); [lia..|exact Dee|]. exists s2. split; [reflexivity|]. now rewrite app_assoc.
    - (* Corner *) destruct (connect_rim_ok m1 new s n H Hn Mv) as (s1 & -> & H1). cbn [bind]. clear T2. destruct (Nat.eqb_spec (length (rim_edges m f n)) 0) as [L0|_].
      { exists s1. split; [reflexivity|]. destruct (rim_edges m f n); [|discriminate]. cbn [map]. rewrite app_nil_r. exact H1. }
      rewrite (all_to_connect_ok _ _ s1 n _ H1 Mv Rim). cbn [bind eq_mask rank Nat.eqb negb]. rewrite app_assoc. revert H1 Rim. generalize (new ++ flat_map (to_both masks m f n) (filter (fun e => negb (single f e)) (listed m n))). intros base H1 Rim. clear NDr V.
      revert base s1 H1. induction (rim_edges m f n) as [|e rim IH]; intros base s1 H1; cbn [map fold_out].
      + exists s1. rewrite app_nil_r. auto.
      + destruct (Rim e (or_introl eq_refl)) as (B1 & D1 & E1). destruct (at_side_range e n B1 D1 E1) as (_ & R1). specialize (R1 Mv).
        destruct (line_add m1 base s1 n (at_side_ e n) H1 ltac:(lia) ltac:(lia) ltac:(lia) ltac:(lia)) as (s2 & -> & H2). cbn [bind].
        destruct (IH (fun x Hx => Rim x (or_intror Hx)) _ s2 H2) as (s3 & Q3 & H3). exists s3. split; [exact Q3|]. rewrite <- app_assoc in H3. exact H3.
  Qed.
  Lemma connect_many_ok m1 new s n : st m1 new s -> n < N -> exists s', connect_many order masks1 table s n = Ok s' /\ st m1 (new ++ again masks m f n) s'.
  Proof.
    intros H Hn. unfold connect_many, again. rewrite mask_old by exact Hn. cbn [bind].
    assert (Mv : marked_ n = lt_mask Unassigned (nth n masks Unassigned)) by (unfold marked; destruct (nth n masks Unassigned); reflexivity).
    destruct (nth n masks Unassigned) eqn:V; cbn [eq_mask rank Nat.eqb bind negb orb] in Mv |- *; try (exists s; rewrite app_nil_r; auto; fail).
    rewrite (degree_at _ _ _ n H Hn). cbn [bind]. destruct (Nat.leb_spec (degree_of m n) 4) as [L4|L4].
    - rewrite (proj2 (Nat.ltb_ge 4 _) L4). exists s. rewrite app_nil_r. auto.
    - rewrite (proj2 (Nat.ltb_lt 4 _) L4). destruct (listed_eq n Hn) as (l & Q & Ql & Ld & _ & Hl). rewrite Ql, <- Ld.
      destruct (fold_range (fun j x => st m1 (new ++ flat_map (to_both masks m f n) (firstn j l)) x) (fun s j => let! e := edge_of_row (s_mesh s) n j in spokes order table n e s) (length l) s) as (r & -> & Hr).
      + cbn. now rewrite app_nil_r.
      + intros j x Hj Hx. rewrite (row_at _ _ x n j l Hx Hn Q Hj). cbn [bind]. destruct (Hl _ (nth_In l 0 Hj)) as (He & U & En). destruct (spokes_ok _ _ x n _ Hx Mv He U En) as (x' & -> & Hx'). exists x'. split; [reflexivity|].
        rewrite (firstn_next l j 0 Hj), flat_map_app, app_assoc. cbn [flat_map]. now rewrite app_nil_r.
      + exists r. split; [reflexivity|]. now rewrite firstn_all in Hr.
  Qed.

  Lemma connect_new_ok m1 s : st m1 [] s -> exists s', connect_new order f masks1 table N E s = Ok s' /\ st m1 (new_lines masks m f) s'.
  Proof.
    intros H. unfold connect_new, new_lines. destruct (connect_edges_ok m1 [] s H) as (s1 & -> & H1). cbn [bind app] in *.
    destruct (fold_st m1 (connect_inside order f masks1 table) (fun _ => []) (num_faces f) (fun new s n A B => connect_inside_ok m1 new s n A B) _ s1 H1) as (s2 & -> & H2). cbn [bind].
    replace (flat_map (fun _ : nat => @nil (nat * nat)) (seq 0 (num_faces f))) with (@nil (nat * nat)) in H2 by (induction (seq 0 (num_faces f)); auto). rewrite app_nil_r in H2.
    destruct (collected_ok m1 _ (flat_map (lines masks m f) (seq 0 E) ++ flat_map (around masks m f) (seq 0 N)) s2 (fold_out (connect_boundary order f masks1 table) (seq 0 N)) H2) as (s3 & -> & H3).
    { intros s0 H0. apply (fold_st (s_mesh s2)); [|exact H0]. intros new x n Hx Hn. now apply connect_boundary_ok. }
    cbn [bind]. destruct (fold_st m1 (connect_many order masks1 table) (again masks m f) N (fun new s n A B => connect_many_ok m1 new s n A B) _ s3 H3) as (s4 & -> & H4).
    exists s4. split; [reflexivity|]. rewrite <- app_assoc in H4. exact H4.
  Qed.
End Connect.

(** Reversibility of merging, moving, joining and converting; the collected result for all edits. *)
From Verif Require Import Base BaseLemmas FloatModel FloatProofs UndoModel UndoSpec UndoProofs ActionModel ActionSpec ActionProofs
  MeshModel MeshSpec MeshProofs MeshAdj MeshConstruct MeshUndo MeshEdits.
From Coq Require Import Permutation.

Lemma fold_ok {A B} (f : A -> B -> outcome A) (P : A -> Prop) (l : list B) : forall acc,
  (forall acc x, In x l -> P acc -> exists acc', f acc x = Ok acc' /\ P acc') -> P acc ->
  exists acc', fold_out f l acc = Ok acc' /\ P acc'.
Proof.
  induction l as [|x l IH]; intros acc H Hp; cbn [fold_out]; eauto.
  destruct (H acc x (or_introl eq_refl) Hp) as (acc' & -> & Hp'). cbn [bind]. apply IH; auto. intros; apply H; cbn; auto.
Qed.

Lemma fold_seq_ok {A} (f : A -> nat -> outcome A) (P : nat -> A -> Prop) (k : nat) : forall acc,
  (forall i acc, i < k -> P i acc -> exists acc', f acc i = Ok acc' /\ P (S i) acc') -> P 0 acc ->
  exists acc', fold_out f (seq 0 k) acc = Ok acc' /\ P k acc'.
Proof.
  induction k as [|k IH]; intros acc H Hp; [cbn; eauto|].
  destruct (IH acc) as (acc' & Hf & Hp'); auto. rewrite seq_S, fold_out_app, Hf. cbn [bind Nat.add fold_out].
  destruct (H k acc') as (acc2 & -> & Hp2); auto. cbn. eauto.
Qed.

Lemma near_positions near nodes : forall n, near_indices near n nodes = positions near n nodes.
Proof. induction nodes as [|p nodes IH]; intros n; cbn; auto. rewrite IH. reflexivity. Qed.

Lemma positions_nodup {A} (f : A -> bool) l base : NoDup (positions f base l).
Proof.
  apply NoDup_nth_error. intros i j Hi H.
  destruct (nth_error (positions f base l) i) as [a|] eqn:E; [|apply nth_error_None in E; lia].
  destruct (Nat.lt_total i j) as [Hl|[Hl|Hl]]; auto; exfalso.
  - pose proof (positions_increasing f l base i j a a Hl E (eq_sym H)). lia.
  - pose proof (positions_increasing f l base j i a a Hl (eq_sym H) E). lia.
Qed.

Section Edits2.
  Variable order : list point -> list edge -> nat -> list (option nat) -> list (option nat).
  Hypothesis order_perm : forall nodes edges n row, Permutation row (order nodes edges n row).
  Notation leaf_ok := (reversible (restore_leaf order) (commit_leaf order) mesh_le).
  Notation tree_ok := (recC (restore_leaf order) (commit_leaf order) mesh_le).
  Notation list_ok := (recC_all (restore_leaf order) (commit_leaf order) mesh_le).

  (** *** Merging two nodes *)
  Record merging (m0 : mesh) (acts : list (act mact)) (m : mesh) : Prop := {
    mg_acts : list_ok acts m0 m;
    mg_c : consistent m;
    mg_nodes : m_nodes m = m_nodes m0;
    mg_counts : m_nodesNumEdges m = m_nodesNumEdges m0;
    mg_rows : m_nodesEdges m = m_nodesEdges m0;
    mg_proj : m_projection m = m_projection m0;
    mg_edges : length (m_edges m) = length (m_edges m0) }.

  Lemma merging_delete m0 acts m e : merging m0 acts m -> e < length (m_edges m) ->
    exists acts', add_action acts (delete_edge order m (Some e)) = Ok (acts', set_edges m (set_nth e missing_edge (m_edges m))) /\
      merging m0 acts' (set_edges m (set_nth e missing_edge (m_edges m))).
  Proof.
    intros [H1 H2 H3 H4 H5 H6 H7] He. destruct (delete_edge_ok order m e H2 He) as (Hd & Ht & Hc).
    unfold add_action. rewrite Hd. cbn [bind compound_add leaf act_state].
    eexists. split; [reflexivity|]. constructor; auto.
    - eapply list_snoc; eauto.
    - cbn. now rewrite set_nth_length.
  Qed.

  Lemma merging_reset m0 acts m e ed : merging m0 acts m -> e < length (m_edges m) -> (forall n, ends_in ed n -> n < length (m_nodes m)) ->
    exists acts', add_action acts (reset_edge order m (Some e) ed) = Ok (acts', set_edges m (set_nth e ed (m_edges m))) /\
      merging m0 acts' (set_edges m (set_nth e ed (m_edges m))).
  Proof.
    intros [H1 H2 H3 H4 H5 H6 H7] He Hr. destruct (reset_edge_ok order m e ed H2 He Hr) as (Hd & Ht & Hc).
    unfold add_action. rewrite Hd. cbn [bind compound_add leaf act_state].
    eexists. split; [reflexivity|]. constructor; auto.
    - eapply list_snoc; eauto.
    - cbn. now rewrite set_nth_length.
  Qed.

  Lemma entry_get m n i : consistent m -> n < length (m_nodes m) -> i < degree_of m n ->
    exists e, vget (row_of m n) i = Ok (Some e) /\ e < length (m_edges m).
  Proof.
    intros Hc Hn Hi. pose proof (co_fill m Hc n Hn) as Hf. destruct (vget_lt (row_of m n) i) as (oe & Hg); [lia|].
    rewrite Hg. apply vget_ok, nth_error_In in Hg. destruct (co_listed m Hc n oe Hg) as (e & -> & He). eauto.
  Qed.

  Lemma other_node_end ed n o : other_node ed n = Some o -> ends_in ed o.
  Proof. unfold other_node, ends_in. destruct (eq_idx (fst ed) (Some n)); auto. Qed.

  Lemma merge_inner_ok m0 o b acts m i : merging m0 acts m -> o < length (m_nodes m0) -> i < degree_of m0 o ->
    exists acts' m', merge_inner order o b (acts, m) i = Ok (acts', m') /\ merging m0 acts' m' /\
      (forall e0, vget (row_of m0 o) i = Ok (Some e0) ->
        m' = if eq_idx (other_node (ge m e0) o) (Some b) then set_edges m (set_nth e0 missing_edge (m_edges m)) else m).
  Proof.
    intros Hm Ho Hi. pose proof Hm as [H1 H2 H3 H4 H5 H6 H7]. unfold merge_inner.
    assert (Hd : degree_of m o = degree_of m0 o) by (unfold degree_of; now rewrite H4).
    assert (Hr : row_of m o = row_of m0 o) by (unfold row_of; now rewrite H5).
    rewrite row_get by (auto; rewrite H3; auto). cbn [bind].
    destruct (entry_get m o i H2) as (e & He & Hlt); [rewrite H3; auto|lia|]. rewrite He. cbn [bind vget_idx].
    rewrite ge_get by auto. cbn [bind]. rewrite Hr in He.
    destruct (eq_idx (other_node (ge m e) o) (Some b)) eqn:Eq.
    - destruct (merging_delete m0 acts m e Hm Hlt) as (acts' & Ha & Hm'). eexists _, _. split; [exact Ha|]. split; [exact Hm'|].
      intros e0 He0. rewrite He in He0. injection He0 as <-. now rewrite Eq.
    - eexists _, _. split; [reflexivity|]. split; [exact Hm|]. intros e0 He0. rewrite He in He0. injection He0 as <-. now rewrite Eq.
  Qed.

  Lemma merge_outer_ok m0 a b acts m i : merging m0 acts m -> a < length (m_nodes m0) -> i < degree_of m0 a ->
    exists acts' m', merge_outer order a b (acts, m) i = Ok (acts', m') /\ merging m0 acts' m'.
  Proof.
    intros Hm Ha Hi. pose proof Hm as [H1 H2 H3 H4 H5 H6 H7]. unfold merge_outer.
    assert (Hd : forall n, degree_of m n = degree_of m0 n) by (intros; unfold degree_of; now rewrite H4).
    rewrite row_get by (auto; rewrite H3; auto). cbn [bind].
    destruct (entry_get m a i H2) as (e & He & Hlt); [rewrite H3; auto|rewrite Hd; auto|]. rewrite He. cbn [bind vget_idx].
    rewrite ge_get by auto. cbn [bind].
    destruct (other_node (ge m e) a) as [o|] eqn:Eo; [|eauto].
    destruct (o =? b); [eauto|].
    assert (Hon : o < length (m_nodes m)) by (eapply ends_in_from; eauto; eapply other_node_end; eauto).
    rewrite degree_get by auto. cbn [bind].
    destruct (fold_ok (merge_inner order o b) (fun am => merging m0 (fst am) (snd am)) (seq 0 (degree_of m o)) (acts, m)) as ([acts' m'] & Hf & Hm'); auto.
    - intros [acts1 m1] x Hx Hm1. apply in_seq in Hx. cbn [fst snd] in *.
      destruct (merge_inner_ok m0 o b acts1 m1 x Hm1) as (acts' & m' & Hr & Hm' & _); [rewrite <- H3; auto|rewrite <- Hd; lia|]. exists (acts', m'). auto.
    - eauto.
  Qed.

  Lemma collect_second_ok m b : consistent m -> b < length (m_nodes m) -> degree_of m b <= max_edges_per_node ->
    exists l, fold_out (collect_second b m) (seq 0 (degree_of m b)) [] = Ok l /\ length l <= degree_of m b /\
      (forall oe, In oe l -> exists e, oe = Some e /\ e < length (m_edges m)).
  Proof.
    intros Hc Hb Hk.
    destruct (fold_seq_ok (collect_second b m)
      (fun i l => length l <= i /\ (forall oe, In oe l -> exists e, oe = Some e /\ e < length (m_edges m))) (degree_of m b) []) as (l & Hf & Hl & Hr).
    - intros i l Hi (Hl & Hr). unfold collect_second. rewrite row_get by auto. cbn [bind].
      destruct (entry_get m b i Hc Hb Hi) as (e & -> & He). cbn [bind vget_idx]. rewrite ge_get by auto. cbn [bind].
      destruct (fst (ge m e)); [|exists l; auto].
      destruct (Nat.ltb_spec (length l) max_edges_per_node); [|lia].
      exists (l ++ [Some e]). split; [reflexivity|]. split; [rewrite app_length; cbn; lia|].
      intros oe Hin. apply in_app_or in Hin. destruct Hin as [Hin|[<-|[]]]; eauto.
    - cbn. split; auto. intros oe [].
    - eauto.
  Qed.

  Lemma collect_first_ok m0 a b acts m l k : merging m0 acts m -> a < length (m_nodes m0) -> b < length (m_nodes m0) ->
    k = degree_of m0 a -> length l + k <= max_edges_per_node ->
    (forall oe, In oe l -> exists e, oe = Some e /\ e < length (m_edges m0)) ->
    exists l' acts' m', fold_out (collect_first order a b) (seq 0 k) (l, (acts, m)) = Ok (l', (acts', m')) /\
      merging m0 acts' m' /\ (forall oe, In oe l' -> exists e, oe = Some e /\ e < length (m_edges m0)).
  Proof.
    intros Hm Ha Hb Hk Hl Hr.
    destruct (fold_seq_ok (collect_first order a b)
      (fun i acc => merging m0 (fst (snd acc)) (snd (snd acc)) /\ length (fst acc) <= length l + i /\
        (forall oe, In oe (fst acc) -> exists e, oe = Some e /\ e < length (m_edges m0))) k (l, (acts, m))) as ([l' [acts' m']] & Hf & Hm' & Hl' & Hr').
    - intros i [l1 [acts1 m1]] Hi (Hm1 & Hl1 & Hr1). cbn [fst snd] in *. pose proof Hm1 as [H1 H2 H3 H4 H5 H6 H7].
      unfold collect_first.
      assert (Hd : degree_of m1 a = degree_of m0 a) by (unfold degree_of; now rewrite H4).
      rewrite row_get by (auto; rewrite H3; auto). cbn [bind].
      destruct (entry_get m1 a i H2) as (e & He & Hlt); [rewrite H3; auto|lia|]. rewrite He. cbn [bind vget_idx].
      rewrite ge_get by auto. cbn [bind].
      destruct (fst (ge m1 e)) as [x|] eqn:Ex.
      2:{ eexists. split; [reflexivity|]. cbn [fst snd]. split; [exact Hm1|]. split; [lia|auto]. }
      destruct (Nat.ltb_spec (length l1) max_edges_per_node); [|lia].
      assert (Hin : forall oe, In oe (l1 ++ [Some e]) -> exists e, oe = Some e /\ e < length (m_edges m0)).
      { intros oe Hin. apply in_app_or in Hin. destruct Hin as [Hin|[<-|[]]]; eauto. exists e. split; auto. lia. }
      assert (Hlen : length (l1 ++ [Some e]) <= length l + S i) by (rewrite app_length; cbn; lia).
      assert (Hends : forall n, ends_in (ge m1 e) n -> n < length (m_nodes m1)) by (intros; eapply ends_in_from; eauto).
      destruct (x =? a).
      + destruct (merging_reset m0 acts1 m1 e (Some b, snd (ge m1 e)) Hm1 Hlt) as (acts2 & -> & Hm2).
        { intros n [Hn|Hn]; cbn in Hn; [injection Hn as <-; rewrite H3; auto|apply Hends; right; auto]. }
        cbn [bind]. eexists. split; [reflexivity|]. cbn [fst snd]. auto.
      + destruct (eq_idx (snd (ge m1 e)) (Some a)).
        * destruct (merging_reset m0 acts1 m1 e (Some x, Some b) Hm1 Hlt) as (acts2 & -> & Hm2).
          { intros n [Hn|Hn]; cbn in Hn; injection Hn as <-; [apply Hends; left; auto|rewrite H3; auto]. }
          cbn [bind]. eexists. split; [reflexivity|]. cbn [fst snd]. auto.
        * eexists. split; [reflexivity|]. cbn [fst snd]. auto.
    - cbn [fst snd]. split; auto. split; [lia|auto].
    - exists l', acts', m'. auto.
  Qed.

  Lemma merge_tables_ok m a b l : consistent m -> a < length (m_nodes m) -> b < length (m_nodes m) ->
    (forall oe, In oe l -> exists e, oe = Some e /\ e < length (m_edges m)) ->
    consistent (set_tables m (set_nth a 0 (set_nth b (length l) (m_nodesNumEdges m))) (set_nth a [] (set_nth b l (m_nodesEdges m)))).
  Proof.
    intros [W L1 L2 L3 L4] Ha Hb Hl. constructor; cbn [m_nodes m_edges m_nodesNumEdges m_nodesEdges set_tables]; auto.
    - now rewrite !set_nth_length.
    - now rewrite !set_nth_length.
    - intros n Hn. unfold degree_of, row_of. cbn [m_nodesNumEdges m_nodesEdges set_tables].
      rewrite !nth_set_nth; rewrite ?set_nth_length; try lia.
      destruct (n =? a); [cbn; lia|]. destruct (n =? b); auto. apply L3; auto.
    - intros n oe. unfold row_of. cbn [m_nodesEdges set_tables]. rewrite !nth_set_nth; rewrite ?set_nth_length; try lia.
      destruct (n =? a); [intros []|]. destruct (n =? b); auto. apply L4.
  Qed.

  Lemma merge_ok m a b : consistent m -> a < length (m_nodes m) -> b < length (m_nodes m) -> a <> b ->
    degree_of m a + degree_of m b <= max_edges_per_node ->
    exists t m', merge_two_nodes order m (Some a) (Some b) = Ok (Some (t, m')) /\ tree_ok t m m' /\ consistent m'.
  Proof.
    intros Hc Ha Hb Hab Hdeg. unfold merge_two_nodes.
    rewrite (proj2 (Nat.leb_gt _ _) Ha), (proj2 (Nat.leb_gt _ _) Hb), (proj2 (Nat.eqb_neq _ _) Hab).
    destruct (find_edge_ok m a b Hc Ha) as (r & -> & Hr). cbn [bind].
    assert (Hm0 : merging m [] m) by (constructor; auto; constructor; apply mesh_le_refl).
    assert (Hs : exists acts1 m1, match r with Some _ => add_action [] (delete_edge order m r) | None => Ok ([], m) end = Ok (acts1, m1) /\ merging m acts1 m1).
    { destruct r as [e|]; [|eauto]. destruct Hr as (_ & He & _).
      destruct (merging_delete m [] m e Hm0 He) as (acts1 & H1 & H2). eauto. }
    destruct Hs as (acts1 & m1 & -> & Hm1). cbn [bind].
    pose proof Hm1 as [A1 A2 A3 A4 A5 A6 A7].
    assert (Hd1 : forall n, degree_of m1 n = degree_of m n) by (intros; unfold degree_of; now rewrite A4).
    rewrite degree_get by (auto; rewrite A3; auto). cbn [bind].
    destruct (fold_ok (merge_outer order a b) (fun am => merging m (fst am) (snd am)) (seq 0 (degree_of m1 a)) (acts1, m1)) as ([acts2 m2] & -> & Hm2).
    { intros [acts' m'] x Hx Hm'. apply in_seq in Hx. cbn [fst snd] in *.
      destruct (merge_outer_ok m a b acts' m' x Hm' Ha) as (acts'' & m'' & H1 & H2); [rewrite <- Hd1; lia|]. exists (acts'', m''). auto. }
    { exact Hm1. }
    cbn [bind fst snd] in *. pose proof Hm2 as [B1 B2 B3 B4 B5 B6 B7].
    assert (Hd2 : forall n, degree_of m2 n = degree_of m n) by (intros; unfold degree_of; now rewrite B4).
    rewrite degree_get by (auto; rewrite B3; auto). cbn [bind].
    destruct (collect_second_ok m2 b B2) as (l1 & -> & Hl1 & Hr1); [rewrite B3; auto|rewrite Hd2; lia|]. cbn [bind].
    destruct (collect_first_ok m a b acts2 m2 l1 (degree_of m1 a) Hm2 Ha Hb) as (l2 & acts3 & m3 & -> & Hm3 & Hr2).
    { auto. } { rewrite Hd1. rewrite Hd2 in Hl1. lia. } { intros oe Hin. destruct (Hr1 oe Hin) as (e & -> & He). exists e. split; auto. lia. }
    cbn [bind]. pose proof Hm3 as [D1 D2 D3 D4 D5 D6 D7].
    pose proof (co_counts m3 D2) as Lc. pose proof (co_rows m3 D2) as Lr.
    rewrite vset_lt by (rewrite Lr, D3; auto). cbn [bind].
    rewrite vset_lt by (rewrite Lc, D3; auto). cbn [bind].
    rewrite vset_lt by (rewrite set_nth_length, Lr, D3; auto). cbn [bind].
    rewrite vset_lt by (rewrite set_nth_length, Lc, D3; auto). cbn [bind].
    set (m4 := set_tables m3 _ _).
    assert (C4 : consistent m4).
    { apply merge_tables_ok; auto; try (rewrite D3; auto). intros oe Hin. destruct (Hr2 oe Hin) as (e & -> & He). exists e. split; auto. lia. }
    assert (Hle : mesh_le m3 m4). { split; [exists 0, 0; cbn; now rewrite !app_nil_r|auto]. }
    destruct (reset_node_ok order m4 a missing_point C4) as (Hn & T & C5). { unfold m4. cbn. rewrite D3; auto. }
    unfold add_action. rewrite Hn. cbn [bind compound_add leaf act_state].
    eexists _, _. split; [reflexivity|]. split; [|exact C5].
    apply recC_comp. eapply recC_all_snoc; eauto using mesh_le_refl, mesh_le_trans.
  Qed.

  (** *** Moving nodes *)
  Lemma move_fold moved idx : forall nodes, NoDup idx -> (forall i, In i idx -> i < length nodes) ->
    exists nodes', fold_out (fun l i => let! p := vget l i in vset i (moved p) l) idx nodes = Ok nodes' /\
      length nodes' = length nodes /\
      (forall i, nth i nodes' missing_point = if existsb (Nat.eqb i) idx then moved (nth i nodes missing_point) else nth i nodes missing_point).
  Proof.
    induction idx as [|i idx IH]; intros nodes Hnd Hr; cbn [fold_out].
    - exists nodes. auto.
    - inversion Hnd as [|? ? Hni Hnd']; subst. assert (Hi : i < length nodes) by (apply Hr; cbn; auto).
      assert (Hg : vget nodes i = Ok (nth i nodes missing_point)) by (apply vget_ok; now apply nth_error_nth').
      rewrite Hg. cbn [bind]. rewrite vset_lt by auto. cbn [bind].
      destruct (IH (set_nth i (moved (nth i nodes missing_point)) nodes)) as (nodes' & -> & Hl & Hn); auto.
      { intros j Hj. rewrite set_nth_length. apply Hr; cbn; auto. }
      exists nodes'. split; [reflexivity|]. split; [now rewrite Hl, set_nth_length|].
      intros j. rewrite Hn, nth_set_nth by auto. cbn [existsb]. destruct (Nat.eqb_spec j i) as [->|]; cbn [orb]; auto.
      destruct (existsb (Nat.eqb i) idx) eqn:Ex; auto. apply existsb_exists in Ex. destruct Ex as (x & Hx & E).
      apply Nat.eqb_eq in E. subst. contradiction.
  Qed.

  Lemma gather_ok nodes idx : (forall i, In i idx -> i < length nodes) -> gather nodes idx = Ok (map (fun i => nth i nodes missing_point) idx).
  Proof.
    induction idx as [|i idx IH]; intros H; cbn [gather map]; auto.
    assert (Hg : vget nodes i = Ok (nth i nodes missing_point)) by (apply vget_ok; apply nth_error_nth'; apply H; cbn; auto).
    rewrite Hg. cbn [bind]. rewrite IH by (intros; apply H; cbn; auto). reflexivity.
  Qed.

  Lemma move_ok near moved m n : consistent m -> n < length (m_nodes m) ->
    exists a m', move_node near moved m n = Ok (leaf a, m') /\ leaf_ok a m m' /\ consistent m' /\
      m_nodes m' = map (fun p => if near p then moved p else p) (m_nodes m) /\ m_edges m' = m_edges m /\ m_projection m' = m_projection m.
  Proof.
    intros Hc Hn. unfold move_node. rewrite (proj2 (Nat.leb_gt _ _) Hn).
    rewrite near_positions. set (idx := positions near 0 (m_nodes m)).
    assert (Hnd : NoDup idx) by apply positions_nodup.
    assert (Hin : forall i, In i idx <-> i < length (m_nodes m) /\ near (gn m i) = true).
    { intros i. unfold idx. rewrite positions_in. split.
      - intros (j & p & -> & H1 & H2). cbn. split; [apply nth_error_Some; congruence|]. unfold gn. now rewrite (nth_error_nth _ _ _ H1).
      - intros [H1 H2]. exists i, (gn m i). split; [lia|]. split; auto. now apply nth_error_nth'. }
    assert (Hr : forall i, In i idx -> i < length (m_nodes m)) by (intros i Hi; apply Hin in Hi; tauto).
    destruct (move_fold moved idx (m_nodes m) Hnd Hr) as (nodes' & Hf & Hl & Hg).
    assert (Hnodes : nodes' = map (fun p => if near p then moved p else p) (m_nodes m)).
    { apply nth_ext with (d := missing_point) (d' := missing_point).
      { now rewrite map_length. }
      intros i Hi. rewrite Hl in Hi. rewrite Hg.
      assert (Hmap : nth i (map (fun p => if near p then moved p else p) (m_nodes m)) missing_point = (if near (gn m i) then moved (gn m i) else gn m i)).
      { apply nth_error_nth. rewrite nth_error_map, (nth_error_nth' _ missing_point Hi). reflexivity. }
      rewrite Hmap. fold (gn m i).
      destruct (near (gn m i)) eqn:En.
      - assert (Ex : existsb (Nat.eqb i) idx = true); [|now rewrite Ex].
        apply existsb_exists. exists i. rewrite Nat.eqb_refl. split; auto. apply Hin. auto.
      - destruct (existsb (Nat.eqb i) idx) eqn:Ex; auto. apply existsb_exists in Ex. destruct Ex as (x & Hx & E).
        apply Nat.eqb_eq in E. subst x. apply Hin in Hx. destruct Hx. congruence. }
    set (m' := set_nodes m nodes').
    assert (Hc' : consistent m').
    { apply (consistent_change m); auto. cbn. rewrite Hl. apply (ends_in_from m Hc). }
    unfold create_translation.
    assert (Hlen : length idx <= length (m_nodes m)).
    { rewrite <- (seq_length (length (m_nodes m)) 0). apply NoDup_incl_length; auto. intros i Hi. apply in_seq. specialize (Hr i Hi). lia. }
    rewrite (proj2 (Nat.ltb_ge _ _) Hlen).
    assert (Hx : forall idx' saved a, exchanges a idx' saved None -> (forall i, In i idx -> In i idx') -> (forall i, In i idx' -> i < length (m_nodes m)) ->
       (forall k i, nth_error idx' k = Some i -> gn m i = nth k saved missing_point) -> leaf_ok a m m').
    { intros idx' saved a Ha Hsub Hr' Hs. apply (exchange_reversible order a idx' saved None); auto. constructor; auto.
      - intros i Hi. unfold gn at 1. cbn [m_nodes m' set_nodes]. rewrite Hg.
        destruct (existsb (Nat.eqb i) idx) eqn:Ex; auto. exfalso. apply existsb_exists in Ex. destruct Ex as (x & Hx & E).
        apply Nat.eqb_eq in E. subst x. auto.
      - split; cbn; lia.
      - intros i Hi. cbn. rewrite Hl. auto. }
    destruct ((length idx =? 0) || (length (m_nodes m) * 16 <? length idx * 20)) eqn:Eb; cbn [bind].
    - rewrite Hf. cbn [bind]. eexists _, m'. split; [reflexivity|]. split; [|split; [exact Hc'|cbn; auto]].
      apply (Hx (seq 0 (length (m_nodes m))) (m_nodes m)).
      + constructor.
      + intros i Hi. apply in_seq. specialize (Hr i Hi). lia.
      + intros i Hi. apply in_seq in Hi. lia.
      + intros k i. rewrite nth_error_seq. destruct (k <? length (m_nodes m)); [|discriminate]. intros E. injection E as <-. reflexivity.
    - rewrite gather_ok by auto. cbn [bind]. rewrite Hf. cbn [bind]. eexists _, m'. split; [reflexivity|].
      split; [|split; [exact Hc'|cbn; auto]].
      apply (Hx idx (map (fun i => nth i (m_nodes m) missing_point) idx)); auto.
      + constructor; auto.
        * intros E. rewrite E in Eb. discriminate.
        * now rewrite map_length.
      + intros k i Hk. symmetry. apply nth_error_nth. rewrite nth_error_map, Hk. reflexivity.
  Qed.

  (** *** Joining and converting *)
  Lemma administrated_settled m : consistent m -> administrated m -> m_nodes m <> [] -> m_edges m <> [] -> settled (m_nodes m) (m_edges m).
  Proof.
    intros Hc Ha Hn He. pose proof (co_ends m Hc) as Hw. destruct (proj2 (settled_iff _ _ Hw) Ha). repeat split; auto.
  Qed.

  Lemma administrate_consistent m : consistent m -> exists m', administrate order m = Ok m' /\ consistent m'.
  Proof.
    intros Hc. destruct (administrate_undo_ok order order_perm m Hc) as (m' & new & H & _ & Hc').
    exists m'. unfold administrate. rewrite H. cbn. auto.
  Qed.

  Lemma join_ok m rhs : consistent m -> administrated m -> m_nodes m <> [] -> m_edges m <> [] ->
    well_indexed (m_nodes rhs) (m_edges rhs) ->
    join order m rhs = Throw StdErr \/
    exists a m', join order m rhs = Ok (leaf a, m') /\ leaf_ok a m m' /\ consistent m'.
  Proof.
    intros Hc Ha Hn He Hw. unfold join, add_mesh. destruct (eq_proj (m_projection m) (m_projection rhs)); cbn [negb]; auto. right.
    pose proof (administrated_settled m Hc Ha Hn He) as Hs. pose proof (co_ends m Hc) as Hwm.
    assert (Hself : exists a m', (let! m1 := Ok m in Ok (leaf (FullA (m_nodes m) (m_edges m)), m1)) = Ok (leaf a, m') /\ leaf_ok a m m' /\ consistent m').
    { eexists _, _. split; [reflexivity|]. split; auto. apply full_reversible; auto. constructor; auto. exists 0, 0. cbn. now rewrite !app_nil_r. }
    destruct (m_nodes rhs) as [|p0 pt] eqn:En; [exact Hself|]. destruct (m_edges rhs) as [|e0 et] eqn:Ee; [exact Hself|].
    rewrite <- En, <- Ee in *. clear Hself.
    set (m1 := set_edges _ _).
    assert (Hw1 : well_indexed (m_nodes m1) (m_edges m1)).
    { unfold m1. cbn. intros e n Hin Hend. rewrite app_length. apply in_app_or in Hin. destruct Hin as [Hin|Hin].
      - specialize (Hwm e n Hin Hend). lia.
      - apply in_map_iff in Hin. destruct Hin as (e' & <- & Hin).
        assert (H : forall i, shift_index (length (m_nodes m)) i = Some n -> (forall k, i = Some k -> k < length (m_nodes rhs)) -> n < length (m_nodes m) + length (m_nodes rhs)).
        { intros [i|] Hi Hk; cbn in Hi.
          - injection Hi as <-. specialize (Hk i eq_refl). lia.
          - destruct (length (m_nodes m)); [discriminate|]. injection Hi as <-. lia. }
        destruct Hend as [Hend|Hend]; cbn in Hend; apply (H _ Hend); intros k Hk; apply (Hw e' k Hin); [left|right]; auto. }
    destruct (administrate_safe order order_perm m1 Hw1) as (m' & Hm'). rewrite Hm'. cbn [bind].
    destruct (administrate_result order order_perm m1 m' Hw1 Hm') as (N & E & P & A).
    assert (Hn1 : m_nodes m1 <> []). { unfold m1. cbn. destruct (m_nodes m); [contradiction|discriminate]. }
    assert (He1 : m_edges m1 <> []). { unfold m1. cbn. destruct (m_edges m); [contradiction|discriminate]. }
    assert (Hw' : well_indexed (m_nodes m') (m_edges m')) by (rewrite N, E; apply admin_well_indexed; auto).
    assert (Hc' : consistent m') by (apply exact_consistent; auto).
    eexists _, m'. split; [reflexivity|]. split; auto. apply full_reversible; auto. constructor; auto.
    - destruct (admin_idem (m_nodes m1) (m_edges m1)) as [I1 I2]. rewrite <- N, <- E in I1, I2.
      split; [exact Hw'|]. split; [exact I1|]. split; [exact I2|]. split.
      + rewrite N. intros Hx. apply (f_equal (@length _)) in Hx. rewrite admin_nodes_length in Hx. destruct (m_nodes m1); [contradiction|discriminate].
      + rewrite E. unfold admin_edges. intros Hx. apply map_eq_nil in Hx. contradiction.
    - exists 0, 0. cbn. now rewrite !app_nil_r.
  Qed.

  Lemma convert_ok src dst conv m : consistent m -> administrated m -> (forall p, is_valid p = true -> is_valid (conv p) = true) ->
    convert_projection order src dst conv m = Throw MeshKernelErr \/
    exists a m', convert_projection order src dst conv m = Ok (leaf a, m') /\ leaf_ok a m m' /\ consistent m' /\
      m_nodes m' = map (fun p => if is_valid p then conv p else p) (m_nodes m) /\ m_edges m' = m_edges m /\ m_projection m' = dst.
  Proof.
    intros Hc [Ha1 Ha2] Hv. unfold convert_projection. destruct (eq_proj (m_projection m) src); cbn [negb]; auto. right.
    set (nodes' := map (fun p => if is_valid p then conv p else p) (m_nodes m)).
    set (m1 := set_projection (set_nodes m nodes') dst).
    assert (Hl : length nodes' = length (m_nodes m)) by apply map_length.
    assert (C1 : consistent m1).
    { apply (consistent_change m); auto. cbn. rewrite Hl. apply (ends_in_from m Hc). }
    destruct (administrate_consistent m1 C1) as (m' & Hm' & Hc'). rewrite Hm'. cbn [bind].
    destruct (administrate_result order order_perm m1 m' (co_ends m1 C1) Hm') as (N & E & P & _).
    assert (Hva : forall n, valid_at nodes' n = valid_at (m_nodes m) n).
    { intros n. unfold valid_at, nodes'. rewrite nth_error_map. destruct (nth_error (m_nodes m) n) as [p|]; cbn; auto.
      destruct (is_valid p) eqn:Ep; auto. }
    assert (Hli : forall e, live nodes' e = live (m_nodes m) e).
    { intros [[x|] [y|]]; cbn; auto. now rewrite !Hva. }
    assert (Hs : admin_nodes (m_nodes m1) (m_edges m1) = m_nodes m1 /\ admin_edges (m_nodes m1) (m_edges m1) = m_edges m1).
    { apply settled_iff; [apply (co_ends m1 C1)|]. cbn. split.
      - intros n p Hp. unfold nodes' in Hp. rewrite nth_error_map in Hp. destruct (nth_error (m_nodes m) n) as [q|] eqn:Eq; [|discriminate].
        cbn in Hp. injection Hp as <-. destruct (Ha1 n q Eq) as [->|(e & X1 & X2 & X3)].
        + left. reflexivity.
        + right. exists e. repeat split; auto. now rewrite Hli.
      - intros e He. rewrite Hli. auto. }
    destruct Hs as [Hs1 Hs2]. rewrite Hs1 in N. rewrite Hs2 in E.
    eexists _, m'. split; [reflexivity|]. split; [|split; [exact Hc'|split; [exact N|split; [exact E|exact P]]]].
    apply (exchange_reversible order _ (seq 0 (length (m_nodes m))) (m_nodes m) (Some (m_projection m))); [constructor|].
    constructor; auto.
    - intros i Hi. rewrite in_seq in Hi. unfold gn. rewrite N. cbn. rewrite !nth_overflow; auto; lia.
    - intros k i. rewrite nth_error_seq. destruct (k <? length (m_nodes m)); [|discriminate]. intros E'. injection E' as <-. reflexivity.
    - intros i. unfold ge. now rewrite E.
    - split; [rewrite N; cbn; lia|rewrite E; cbn; lia].
    - intros i Hi. apply in_seq in Hi. rewrite N. cbn. lia.
  Qed.

  (** *** All edits *)
  Lemma medits_reversible :
    edits_reversible (restore_act (restore_leaf order)) (commit_act (commit_leaf order)) (do_medit order) mesh_le medit_pre consistent.
  Proof.
    intros c m Hc Hpre.
    assert (Htree : forall t m', tree_ok t m m' -> reversible (restore_act (restore_leaf order)) (commit_act (commit_leaf order)) mesh_le t m m').
    { intros t m' H. apply recC_reversible; auto using mesh_le_refl. intros; eapply mesh_le_trans; eauto. }
    assert (Hleaf : forall a m', leaf_ok a m m' -> reversible (restore_act (restore_leaf order)) (commit_act (commit_leaf order)) mesh_le (leaf a) m m').
    { intros a m' H. apply Htree. now apply leaf_tree. }
    destruct c as [p|s e|n p|e ed|e|n|a b|near moved n| |rhs|src dst conv]; cbn [do_medit medit_pre] in *.
    - destruct (insert_node_ok order m p Hc) as (m' & -> & _ & _ & _ & T & C). cbn. auto.
    - destruct s as [s|], e as [e|]; try (cbn; exact I).
      destruct Hpre as [H1 H2]. destruct (connect_nodes_ok order m s e Hc H1 H2) as [->|(m' & -> & _ & T & C)]; cbn; auto.
    - destruct (Nat.ltb_spec n (length (m_nodes m))) as [Hn|Hn].
      + destruct (reset_node_ok order m n p Hc Hn) as (-> & T & C). cbn. auto.
      + unfold reset_node. rewrite (proj2 (nth_error_None _ _) Hn). cbn. auto.
    - destruct Hpre as [H1 H2]. destruct (reset_edge_ok order m e ed Hc H1 H2) as (-> & T & C). cbn. auto.
    - destruct e as [e|]; [|cbn; auto]. destruct (delete_edge_ok order m e Hc Hpre) as (-> & T & C). cbn. auto.
    - destruct n as [n|]; [|cbn; auto]. destruct (Nat.ltb_spec n (length (m_nodes m))) as [Hn|Hn].
      + destruct (delete_node_ok order m n Hc Hn) as (a & m' & -> & T & C & _). cbn. auto.
      + unfold delete_node. rewrite (proj2 (nth_error_None _ _) Hn). cbn. auto.
    - destruct a as [a|], b as [b|]; try (cbn; exact I).
      destruct (Nat.ltb_spec a (length (m_nodes m))) as [Ha|Ha].
      2:{ unfold merge_two_nodes. rewrite (proj2 (Nat.leb_le _ _) Ha). exact I. }
      destruct (Nat.ltb_spec b (length (m_nodes m))) as [Hb|Hb].
      2:{ unfold merge_two_nodes. rewrite (proj2 (Nat.leb_gt _ _) Ha), (proj2 (Nat.leb_le _ _) Hb). exact I. }
      destruct (Nat.eq_dec a b) as [<-|Hab].
      { unfold merge_two_nodes. rewrite (proj2 (Nat.leb_gt _ _) Ha), Nat.eqb_refl. exact I. }
      destruct (merge_ok m a b Hc Ha Hb Hab Hpre) as (t & m' & -> & T & C). auto.
    - destruct (Nat.ltb_spec n (length (m_nodes m))) as [Hn|Hn].
      + destruct (move_ok near moved m n Hc Hn) as (a & m' & -> & T & C & _). cbn. auto.
      + unfold move_node. rewrite (proj2 (Nat.leb_le _ _) Hn). exact I.
    - destruct (administrate_undo_ok order order_perm m Hc) as (m' & new & -> & T & C). cbn [bind]. split; auto.
      apply Htree. now apply recC_comp.
    - destruct Hpre as (H1 & H2 & H3 & H4).
      destruct (join_ok m rhs Hc H1 H2 H3 H4) as [->|(a & m' & -> & T & C)]; cbn; auto.
    - destruct Hpre as [H1 H2]. destruct (convert_ok src dst conv m Hc H1 H2) as [->|(a & m' & -> & T & C & _)]; cbn; auto.
  Qed.
End Edits2.

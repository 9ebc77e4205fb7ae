(** Proofs that the elementary mesh actions are reversible. *)
From Verif Require Import Base BaseLemmas FloatModel FloatProofs UndoModel UndoSpec UndoProofs ActionModel ActionSpec ActionProofs
  MeshModel MeshSpec MeshProofs MeshAdj MeshConstruct.
From Coq Require Import Permutation.

Definition gn (m : mesh) (i : nat) : point := nth i (m_nodes m) missing_point.
Definition ge (m : mesh) (i : nat) : edge := nth i (m_edges m) missing_edge.

Lemma nth_app_repeat {A} (d : A) l a i : nth i (l ++ repeat d a) d = nth i l d.
Proof.
  destruct (Nat.ltb_spec i (length l)).
  - now rewrite app_nth1.
  - rewrite app_nth2 by lia. rewrite (nth_overflow l) by lia.
    destruct (Nat.ltb_spec (i - length l) a).
    + apply nth_repeat.
    + apply nth_overflow. rewrite repeat_length. lia.
Qed.

Lemma nth_ext_repeat {A} (d : A) l l' : length l <= length l' -> (forall i, nth i l d = nth i l' d) ->
  l' = l ++ repeat d (length l' - length l).
Proof.
  revert l'. induction l as [|x l IH]; intros l' Hl H; cbn [length app Nat.sub].
  - rewrite Nat.sub_0_r. clear Hl. induction l' as [|y l' IH]; auto. cbn [length repeat]. f_equal.
    + specialize (H 0). cbn in H. auto.
    + apply IH. intros i. specialize (H (S i)). cbn in H. rewrite <- H. destruct i; auto.
  - destruct l' as [|y l']; [cbn in Hl; lia|]. cbn [length Nat.sub]. f_equal.
    + specialize (H 0). cbn in H. auto.
    + apply IH; [cbn in Hl; lia|]. intros i. apply (H (S i)).
Qed.

Lemma extends_iff s t : extends s t <->
  length (m_nodes s) <= length (m_nodes t) /\ length (m_edges s) <= length (m_edges t) /\
  (forall i, gn s i = gn t i) /\ (forall i, ge s i = ge t i) /\ m_projection t = m_projection s.
Proof.
  unfold extends, gn, ge. split.
  - intros (a & b & H1 & H2 & H3). rewrite H1, H2, !app_length. repeat split; auto; try lia; intros i; now rewrite nth_app_repeat.
  - intros (H1 & H2 & H3 & H4 & H5). exists (length (m_nodes t) - length (m_nodes s)), (length (m_edges t) - length (m_edges s)).
    repeat split; auto; apply nth_ext_repeat; auto.
Qed.

Lemma extends_refl m : extends m m.
Proof. apply extends_iff. repeat split; auto. Qed.
Lemma extends_trans a b c : extends a b -> extends b c -> extends a c.
Proof.
  rewrite !extends_iff. intros (A1 & A2 & A3 & A4 & A5) (B1 & B2 & B3 & B4 & B5).
  repeat split; try lia; intros; congruence.
Qed.
Lemma mesh_le_refl m : mesh_le m m.
Proof. split; [apply extends_refl|auto]. Qed.
Lemma mesh_le_trans a b c : mesh_le a b -> mesh_le b c -> mesh_le a c.
Proof. intros [A1 A2] [B1 B2]. split; [eapply extends_trans; eauto|auto]. Qed.

Lemma well_indexed_iff nodes edges :
  well_indexed nodes edges <-> forall i n, ends_in (nth i edges missing_edge) n -> n < length nodes.
Proof.
  unfold well_indexed. split.
  - intros H i n Hn. destruct (Nat.ltb_spec i (length edges)).
    + apply (H (nth i edges missing_edge)); auto. now apply nth_In.
    + rewrite nth_overflow in Hn by lia. destruct Hn; discriminate.
  - intros H e n Hin Hn. apply In_nth with (d := missing_edge) in Hin. destruct Hin as (i & _ & <-). eauto.
Qed.

Lemma nth_set_nth {A} (d : A) l i j x : i < length l -> nth j (set_nth i x l) d = if j =? i then x else nth j l d.
Proof.
  intros H. rewrite Nat.eqb_sym. destruct (Nat.eqb_spec i j) as [->|Hn].
  - apply nth_error_nth. rewrite nth_error_set_nth, Nat.eqb_refl. now apply Nat.ltb_lt in H as ->.
  - destruct (nth_error l j) as [y|] eqn:E.
    + rewrite (nth_error_nth _ _ _ E). apply nth_error_nth. rewrite nth_error_set_nth. apply Nat.eqb_neq in Hn. rewrite Hn. exact E.
    + rewrite !nth_overflow; auto; [|rewrite set_nth_length]; apply nth_error_None; auto.
Qed.

(** Changing nodes and edges but neither their numbers nor the table rows keeps a mesh consistent. *)
Lemma consistent_change m m' :
  consistent m -> length (m_nodes m') = length (m_nodes m) -> length (m_edges m) <= length (m_edges m') ->
  (forall i n, ends_in (ge m' i) n -> n < length (m_nodes m')) ->
  m_nodesEdges m' = m_nodesEdges m -> 
  length (m_nodesNumEdges m') = length (m_nodesNumEdges m) -> (forall n, degree_of m' n <= degree_of m n) ->
  consistent m'.
Proof.
  intros [H1 H2 H3 H4 H5] En Ee Hi Hr Hl Hd. constructor.
  - apply well_indexed_iff. exact Hi.
  - congruence.
  - congruence.
  - intros n Hn. unfold row_of. rewrite Hr. fold (row_of m n). eapply Nat.le_trans; [apply Hd|]. apply H4. lia.
  - intros n oe. unfold row_of. rewrite Hr. intros Hin. destruct (H5 n oe Hin) as (e & -> & He). exists e. split; auto. lia.
Qed.

Lemma ends_in_from m0 : consistent m0 -> forall i n, ends_in (ge m0 i) n -> n < length (m_nodes m0).
Proof. intros [H _ _ _ _]. apply well_indexed_iff. exact H. Qed.

Section Leaves.
  Variable order : list point -> list edge -> nat -> list (option nat) -> list (option nat).
  Hypothesis order_perm : forall nodes edges n row, Permutation row (order nodes edges n row).
  Notation restore := (restore_leaf order).
  Notation commit := (commit_leaf order).
  Notation leaf_ok := (reversible (restore_leaf order) (commit_leaf order) mesh_le).

  (** *** Actions that write one node *)
  Inductive node_put : mact -> nat -> point -> point -> Prop :=
  | np_add n p : node_put (AddNodeA n p) n missing_point p
  | np_reset n p q : node_put (ResetNodeA n p q) n p q
  | np_delete n p : node_put (DeleteNodeA n p) n p missing_point.

  Definition wrote_node (s : mesh) (n : nat) (x : point) (s' : mesh) : Prop :=
    exists nn, s' = Mesh (set_nth n x (m_nodes s)) (m_edges s) nn (m_nodesEdges s) (m_projection s) /\
      (nn = m_nodesNumEdges s \/ nn = set_nth n 0 (m_nodesNumEdges s)).

  Lemma node_put_restore a n x y s : node_put a n x y -> consistent s -> n < length (m_nodes s) ->
    exists s', restore a s = Ok (a, s') /\ wrote_node s n x s'.
  Proof.
    intros H Hc Hn. pose proof (co_counts s Hc) as Hl.
    destruct H; cbn; unfold put_node; rewrite vset_lt by auto; cbn [bind].
    - unfold zero_count. cbn. rewrite vset_lt by lia. cbn. eexists. split; [reflexivity|]. eexists. split; [reflexivity|auto].
    - eexists. split; [reflexivity|]. eexists. split; [reflexivity|auto].
    - eexists. split; [reflexivity|]. eexists. split; [reflexivity|auto].
  Qed.
  Lemma node_put_commit a n x y s : node_put a n x y -> consistent s -> n < length (m_nodes s) ->
    exists s', commit a s = Ok (a, s') /\ wrote_node s n y s'.
  Proof.
    intros H Hc Hn. pose proof (co_counts s Hc) as Hl.
    destruct H; cbn; unfold put_node; rewrite vset_lt by auto; cbn [bind].
    - unfold zero_count. cbn. rewrite vset_lt by lia. cbn. eexists. split; [reflexivity|]. eexists. split; [reflexivity|auto].
    - eexists. split; [reflexivity|]. eexists. split; [reflexivity|auto].
    - eexists. split; [reflexivity|]. eexists. split; [reflexivity|auto].
  Qed.

  Lemma degree_zeroed m n i : degree_of (set_tables m (set_nth n 0 (m_nodesNumEdges m)) (m_nodesEdges m)) i <= degree_of m i.
  Proof.
    unfold degree_of. cbn. destruct (Nat.ltb_spec n (length (m_nodesNumEdges m))).
    - rewrite nth_set_nth by auto. destruct (i =? n); lia.
    - assert (E : set_nth n 0 (m_nodesNumEdges m) = m_nodesNumEdges m); [|rewrite E; auto].
      apply nth_error_ext. intros j. rewrite nth_error_set_nth. apply Nat.ltb_ge in H. rewrite H, andb_false_r. reflexivity.
  Qed.

  Lemma wrote_node_facts s n x s' : wrote_node s n x s' -> consistent s -> n < length (m_nodes s) ->
    consistent s' /\ length (m_nodes s') = length (m_nodes s) /\ length (m_edges s') = length (m_edges s) /\
    (forall i, gn s' i = if i =? n then x else gn s i) /\ (forall i, ge s' i = ge s i) /\ m_projection s' = m_projection s.
  Proof.
    intros (nn & -> & Hnn) Hc Hn.
    assert (Hg : forall i, ge (Mesh (set_nth n x (m_nodes s)) (m_edges s) nn (m_nodesEdges s) (m_projection s)) i = ge s i) by reflexivity.
    split; [|cbn [m_nodes m_edges m_projection]; rewrite set_nth_length; repeat split; auto;
             intros i; unfold gn; cbn [m_nodes]; now apply nth_set_nth].
    apply (consistent_change s); auto; cbn [m_nodes m_edges m_nodesEdges m_nodesNumEdges].
    - apply set_nth_length.
    - rewrite set_nth_length. intros i k. rewrite Hg. apply ends_in_from; auto.
    - destruct Hnn as [->| ->]; auto. apply set_nth_length.
    - intros i. destruct Hnn as [->| ->]; [reflexivity|]. apply (degree_zeroed s n i).
  Qed.

  Record node_rel (n : nat) (x y : point) (w0 w1 : mesh) : Prop := {
    nr_c0 : consistent w0; nr_c1 : consistent w1;
    nr_x : gn w0 n = x; nr_y : gn w1 n = y;
    nr_others : forall i, i <> n -> gn w0 i = gn w1 i;
    nr_edges : forall i, ge w0 i = ge w1 i;
    nr_proj : m_projection w0 = m_projection w1 }.

  Definition smaller (s t : mesh) : Prop := length (m_nodes s) <= length (m_nodes t) /\ length (m_edges s) <= length (m_edges t).

  Lemma node_put_reversible a n x y w0 w1 :
    node_put a n x y -> node_rel n x y w0 w1 -> smaller w0 w1 -> n < length (m_nodes w1) -> leaf_ok a w0 w1.
  Proof.
    intros Ha H0 H1 H2.
    apply (reversible_coind _ _ _
      (fun a w0 w1 => node_put a n x y /\ node_rel n x y w0 w1 /\ smaller w0 w1 /\ n < length (m_nodes w1))
      (fun a w0 w1 => node_put a n x y /\ node_rel n x y w0 w1 /\ smaller w1 w0 /\ n < length (m_nodes w0))); auto.
    - clear. intros a w0 w1 s (Ha & [C0 C1 X Y O E P] & [L1 L2] & Hn) [He Hcs].
      apply extends_iff in He. destruct He as (E1 & E2 & E3 & E4 & E5).
      assert (Cs : consistent s) by auto. assert (Hns : n < length (m_nodes s)) by lia.
      destruct (node_put_restore a n x y s Ha Cs Hns) as (s' & Hr & Hw).
      destruct (wrote_node_facts _ _ _ _ Hw Cs Hns) as (Cs' & F1 & F2 & F3 & F4 & F5).
      exists a, s'. split; [exact Hr|]. split; [split; [apply extends_iff|auto]|].
      + split; [lia|split; [lia|split; [|split; [|congruence]]]].
        * intros i. rewrite F3. destruct (Nat.eqb_spec i n); [subst i; auto|]. rewrite O, E3; auto.
        * intros i. rewrite F4, E, E4; auto.
      + split; auto. split; [|split; [split; lia|lia]]. constructor; auto.
        * rewrite F3, Nat.eqb_refl; auto.
        * rewrite <- E3; auto.
        * intros i Hi. rewrite F3. apply Nat.eqb_neq in Hi. now rewrite Hi.
    - clear. intros a w0 w1 s (Ha & [C0 C1 X Y O E P] & [L1 L2] & Hn) [He Hcs].
      apply extends_iff in He. destruct He as (E1 & E2 & E3 & E4 & E5).
      assert (Cs : consistent s) by auto. assert (Hns : n < length (m_nodes s)) by lia.
      destruct (node_put_commit a n x y s Ha Cs Hns) as (s' & Hr & Hw).
      destruct (wrote_node_facts _ _ _ _ Hw Cs Hns) as (Cs' & F1 & F2 & F3 & F4 & F5).
      exists a, s'. split; [exact Hr|]. split; [split; [apply extends_iff|auto]|].
      + split; [lia|split; [lia|split; [|split; [|congruence]]]].
        * intros i. rewrite F3. destruct (Nat.eqb_spec i n); [subst i; auto|]. rewrite <- O, E3; auto.
        * intros i. rewrite F4, <- E, E4; auto.
      + split; auto. split; [|split; [split; lia|lia]]. constructor; auto.
        * rewrite <- E3; auto.
        * rewrite F3, Nat.eqb_refl; auto.
        * intros i Hi. rewrite F3. apply Nat.eqb_neq in Hi. now rewrite Hi.
  Qed.

  (** *** Actions that write one edge *)
  Inductive edge_put : mact -> nat -> edge -> edge -> Prop :=
  | ep_add e ed : edge_put (AddEdgeA e ed) e missing_edge ed
  | ep_reset e x y : edge_put (ResetEdgeA e x y) e x y
  | ep_delete e ed : edge_put (DeleteEdgeA e ed) e ed missing_edge.

  Lemma edge_put_restore a e x y s : edge_put a e x y -> e < length (m_edges s) ->
    restore a s = Ok (a, set_edges s (set_nth e x (m_edges s))).
  Proof. intros H He. destruct H; cbn; unfold put_edge; rewrite vset_lt by auto; reflexivity. Qed.
  Lemma edge_put_commit a e x y s : edge_put a e x y -> e < length (m_edges s) ->
    commit a s = Ok (a, set_edges s (set_nth e y (m_edges s))).
  Proof. intros H He. destruct H; cbn; unfold put_edge; rewrite vset_lt by auto; reflexivity. Qed.

  Lemma wrote_edge_facts s e x : consistent s -> e < length (m_edges s) -> (forall n, ends_in x n -> n < length (m_nodes s)) ->
    let s' := set_edges s (set_nth e x (m_edges s)) in
    consistent s' /\ length (m_nodes s') = length (m_nodes s) /\ length (m_edges s') = length (m_edges s) /\
    (forall i, gn s' i = gn s i) /\ (forall i, ge s' i = if i =? e then x else ge s i) /\ m_projection s' = m_projection s.
  Proof.
    intros Hc He Hx s'.
    assert (Hg : forall i, ge s' i = if i =? e then x else ge s i) by (intros i; unfold ge, s'; cbn; now apply nth_set_nth).
    split; [|unfold s'; cbn [m_nodes m_edges m_projection set_edges]; rewrite set_nth_length; repeat split; auto].
    apply (consistent_change s); auto.
    - unfold s'. cbn. now rewrite set_nth_length.
    - intros i n. rewrite Hg. destruct (i =? e); auto. apply ends_in_from; auto.
  Qed.

  Record edge_rel (e : nat) (x y : edge) (w0 w1 : mesh) : Prop := {
    er_c0 : consistent w0; er_c1 : consistent w1;
    er_x : ge w0 e = x; er_y : ge w1 e = y;
    er_others : forall i, i <> e -> ge w0 i = ge w1 i;
    er_nodes : forall i, gn w0 i = gn w1 i;
    er_proj : m_projection w0 = m_projection w1 }.

  Lemma edge_put_reversible a e x y w0 w1 :
    edge_put a e x y -> edge_rel e x y w0 w1 -> smaller w0 w1 -> e < length (m_edges w1) -> leaf_ok a w0 w1.
  Proof.
    intros Ha H0 H1 H2.
    apply (reversible_coind _ _ _
      (fun a w0 w1 => edge_put a e x y /\ edge_rel e x y w0 w1 /\ smaller w0 w1 /\ e < length (m_edges w1))
      (fun a w0 w1 => edge_put a e x y /\ edge_rel e x y w0 w1 /\ smaller w1 w0 /\ e < length (m_edges w0))); auto.
    - clear. intros a w0 w1 s (Ha & [C0 C1 X Y O E P] & [L1 L2] & Hn) [He Hcs].
      apply extends_iff in He. destruct He as (E1 & E2 & E3 & E4 & E5).
      assert (Cs : consistent s) by auto. assert (Hes : e < length (m_edges s)) by lia.
      assert (Hx : forall n, ends_in x n -> n < length (m_nodes s)).
      { intros n Hx. rewrite <- X in Hx. pose proof (ends_in_from w0 C0 e n Hx). lia. }
      destruct (wrote_edge_facts s e x Cs Hes Hx) as (Cs' & F1 & F2 & F3 & F4 & F5).
      eexists _, _. split; [exact (edge_put_restore a e x y s Ha Hes)|]. split; [split; [apply extends_iff|auto]|].
      + split; [lia|split; [lia|split; [|split; [|congruence]]]].
        * intros i. rewrite F3, E, E3; auto.
        * intros i. rewrite F4. destruct (Nat.eqb_spec i e); [subst i; auto|]. rewrite O, E4; auto.
      + split; auto. split; [|split; [split; lia|lia]]. constructor; auto.
        * rewrite F4, Nat.eqb_refl; auto.
        * rewrite <- E4; auto.
        * intros i Hi. rewrite F4. apply Nat.eqb_neq in Hi. now rewrite Hi.
    - clear. intros a w0 w1 s (Ha & [C0 C1 X Y O E P] & [L1 L2] & Hn) [He Hcs].
      apply extends_iff in He. destruct He as (E1 & E2 & E3 & E4 & E5).
      assert (Cs : consistent s) by auto. assert (Hes : e < length (m_edges s)) by lia.
      assert (Hx : forall n, ends_in y n -> n < length (m_nodes s)).
      { intros n Hx. rewrite <- Y in Hx. pose proof (ends_in_from w1 C1 e n Hx). lia. }
      destruct (wrote_edge_facts s e y Cs Hes Hx) as (Cs' & F1 & F2 & F3 & F4 & F5).
      eexists _, _. split; [exact (edge_put_commit a e x y s Ha Hes)|]. split; [split; [apply extends_iff|auto]|].
      + split; [lia|split; [lia|split; [|split; [|congruence]]]].
        * intros i. rewrite F3, <- E, E3; auto.
        * intros i. rewrite F4. destruct (Nat.eqb_spec i e); [subst i; auto|]. rewrite <- O, E4; auto.
      + split; auto. split; [|split; [split; lia|lia]]. constructor; auto.
        * rewrite <- E4; auto.
        * rewrite F4, Nat.eqb_refl; auto.
        * intros i Hi. rewrite F4. apply Nat.eqb_neq in Hi. now rewrite Hi.
  Qed.

  (** *** Actions that exchange stored nodes with those of the mesh *)

  (** [exchanges a idx saved p]: the action stores [saved] for the nodes [idx] and projection [p] (if it changes it). *)
  Inductive exchanges : mact -> list nat -> list point -> option projection -> Prop :=
  | ex_all saved : exchanges (TranslationA saved []) (seq 0 (length saved)) saved None
  | ex_some saved idx : idx <> [] -> length saved = length idx -> NoDup idx -> exchanges (TranslationA saved idx) idx saved None
  | ex_conv saved p : exchanges (ConversionA saved p) (seq 0 (length saved)) saved (Some p).

  Lemma swap_indexed_spec idx : forall saved nodes,
    length saved = length idx -> NoDup idx -> (forall i, In i idx -> i < length nodes) ->
    exists nodes', swap_indexed saved idx nodes = Ok (map (fun i => nth i nodes missing_point) idx, nodes') /\
      length nodes' = length nodes /\
      (forall i, ~ In i idx -> nth i nodes' missing_point = nth i nodes missing_point) /\
      (forall k i, nth_error idx k = Some i -> nth i nodes' missing_point = nth k saved missing_point).
  Proof.
    induction idx as [|i idx IH]; intros saved nodes Hl Hnd Hr; cbn [swap_indexed].
    - destruct saved; [|discriminate]. exists nodes. repeat split; auto. intros [|k] i H; discriminate H.
    - destruct saved as [|p saved]; [discriminate|]. inversion Hnd as [|? ? Hni Hnd']; subst.
      assert (Hi : i < length nodes) by (apply Hr; cbn; auto).
      assert (Hg : vget nodes i = Ok (nth i nodes missing_point)).
      { apply vget_ok. now apply nth_error_nth'. }
      cbn [swap_indexed]. rewrite Hg. cbn [bind]. rewrite vset_lt by auto. cbn [bind].
      destruct (IH saved (set_nth i p nodes)) as (nodes' & -> & H1 & H2 & H3); auto.
      { intros j Hj. rewrite set_nth_length. apply Hr; cbn; auto. }
      cbn [bind map]. exists nodes'. split; [|split; [|split]].
      + f_equal. f_equal. f_equal. apply map_ext_in. intros j Hj. rewrite nth_set_nth by auto.
        destruct (Nat.eqb_spec j i); auto. subst; contradiction.
      + now rewrite H1, set_nth_length.
      + intros j Hj. rewrite H2 by (intros Hc; apply Hj; cbn; auto). rewrite nth_set_nth by auto.
        destruct (Nat.eqb_spec j i); auto. subst. exfalso. apply Hj. cbn; auto.
      + intros [|k] j Hk; cbn in Hk.
        * inversion Hk; subst. rewrite H2 by auto. rewrite nth_set_nth, Nat.eqb_refl by auto. reflexivity.
        * cbn [nth]. auto.
  Qed.

  Lemma swap_ranges_spec (saved nodes : list point) : length saved <= length nodes ->
    let (saved', nodes') := swap_ranges saved nodes in
    saved' = map (fun i => nth i nodes missing_point) (seq 0 (length saved)) /\
    length nodes' = length nodes /\
    (forall i, ~ In i (seq 0 (length saved)) -> nth i nodes' missing_point = nth i nodes missing_point) /\
    (forall k i, nth_error (seq 0 (length saved)) k = Some i -> nth i nodes' missing_point = nth k saved missing_point).
  Proof.
    intros H. unfold swap_ranges. split; [|split; [|split]].
    - revert nodes H. induction saved as [|p saved IH]; intros nodes H; auto. destruct nodes as [|q nodes]; [cbn in H; lia|].
      cbn [length firstn seq map nth]. f_equal. rewrite IH by (cbn in H; lia). rewrite <- seq_shift, map_map. reflexivity.
    - rewrite app_length, skipn_length. lia.
    - intros i Hi. rewrite in_seq in Hi. rewrite app_nth2 by lia.
      rewrite <- (firstn_skipn (length saved) nodes) at 2. rewrite app_nth2; rewrite firstn_length_le by lia; auto; lia.
    - intros k i. rewrite nth_error_seq. destruct (Nat.ltb_spec k (length saved)); [|discriminate]. intros E. inversion E; subst.
      now rewrite app_nth1.
  Qed.

  (** The common effect of restoring and committing. *)
  Lemma exchange_effect a idx saved p s :
    exchanges a idx saved p -> (forall i, In i idx -> i < length (m_nodes s)) ->
    exists a' nodes' q, restore a s = Ok (a', Mesh nodes' (m_edges s) (m_nodesNumEdges s) (m_nodesEdges s) q) /\
      commit a s = restore a s /\
      exchanges a' idx (map (gn s) idx) (match p with Some _ => Some (m_projection s) | None => None end) /\
      q = match p with Some p => p | None => m_projection s end /\
      length nodes' = length (m_nodes s) /\
      (forall i, ~ In i idx -> nth i nodes' missing_point = gn s i) /\
      (forall k i, nth_error idx k = Some i -> nth i nodes' missing_point = nth k saved missing_point).
  Proof.
    intros H Hr. unfold gn. destruct H as [saved|saved idx Hne Hl Hnd|saved p].
    - assert (Hle : length saved <= length (m_nodes s)).
      { destruct saved as [|x saved]; [cbn; lia|]. specialize (Hr (length saved)). cbn [length] in *.
        assert (length saved < length (m_nodes s)) by (apply Hr, in_seq; lia). lia. }
      pose proof (swap_ranges_spec saved (m_nodes s) Hle) as Hs.
      cbn [restore_leaf commit_leaf]. unfold translation_swap. apply Nat.ltb_ge in Hle. rewrite Hle.
      destruct (swap_ranges saved (m_nodes s)) as [saved' nodes']. destruct Hs as (S1 & S2 & S3 & S4). cbn.
      eexists _, nodes', _. split; [reflexivity|]. split; [reflexivity|]. split; [|split; [reflexivity|auto]].
      rewrite S1. match goal with |- exchanges (TranslationA ?l _) _ _ _ => assert (E : seq 0 (length saved) = seq 0 (length l)) end.
      { now rewrite map_length, seq_length. }
      rewrite E at 2. constructor.
    - assert (Hle : length saved <= length (m_nodes s)).
      { rewrite Hl. rewrite <- (seq_length (length (m_nodes s)) 0). apply NoDup_incl_length; auto.
        intros i Hi. apply in_seq. specialize (Hr i Hi). lia. }
      destruct (swap_indexed_spec idx saved (m_nodes s) Hl Hnd Hr) as (nodes' & Hs & S2 & S3 & S4).
      cbn [restore_leaf commit_leaf]. unfold translation_swap. apply Nat.ltb_ge in Hle. rewrite Hle.
      destruct idx as [|i0 idx]; [contradiction|]. rewrite Hs. cbn [bind].
      eexists _, nodes', _. split; [reflexivity|]. split; [reflexivity|]. split; [|split; [reflexivity|auto]].
      constructor; auto. now rewrite map_length.
    - assert (Hle : length saved <= length (m_nodes s)).
      { destruct saved as [|x saved]; [cbn; lia|]. specialize (Hr (length saved)). cbn [length] in *.
        assert (length saved < length (m_nodes s)) by (apply Hr, in_seq; lia). lia. }
      pose proof (swap_ranges_spec saved (m_nodes s) Hle) as Hs.
      cbn [restore_leaf commit_leaf]. apply Nat.ltb_ge in Hle. rewrite Hle.
      destruct (swap_ranges saved (m_nodes s)) as [saved' nodes']. destruct Hs as (S1 & S2 & S3 & S4). cbn.
      eexists _, nodes', _. split; [reflexivity|]. split; [reflexivity|]. split; [|split; [reflexivity|auto]].
      rewrite S1. match goal with |- exchanges (ConversionA ?l _) _ _ _ => assert (E : seq 0 (length saved) = seq 0 (length l)) end.
      { now rewrite map_length, seq_length. }
      rewrite E at 2. constructor.
  Qed.

  Record exch_rel (idx : list nat) (saved : list point) (p : option projection) (here there : mesh) : Prop := {
    xr_c0 : consistent here; xr_c1 : consistent there;
    xr_others : forall i, ~ In i idx -> gn here i = gn there i;
    xr_saved : forall k i, nth_error idx k = Some i -> gn there i = nth k saved missing_point;
    xr_edges : forall i, ge here i = ge there i;
    xr_proj : m_projection there = match p with Some q => q | None => m_projection here end;
    xr_size : smaller there here;
    xr_range : forall i, In i idx -> i < length (m_nodes here) }.

  Lemma exchange_step a idx saved p here there s :
    exchanges a idx saved p -> exch_rel idx saved p here there -> mesh_le here s ->
    exists a' s' saved' p', restore a s = Ok (a', s') /\ commit a s = Ok (a', s') /\ mesh_le there s' /\
      exchanges a' idx saved' p' /\ exch_rel idx saved' p' s' s.
  Proof.
    intros Ha [C0 C1 O V E P [L1 L2] R] [He Hcs]. apply extends_iff in He. destruct He as (E1 & E2 & E3 & E4 & E5).
    assert (Cs : consistent s) by auto.
    assert (Rs : forall i, In i idx -> i < length (m_nodes s)) by (intros i Hi; specialize (R i Hi); lia).
    destruct (exchange_effect a idx saved p s Ha Rs) as (a' & nodes' & q & Hr & Hc & Ha' & Hq & Hl & Ho & Hs).
    set (s' := Mesh nodes' (m_edges s) (m_nodesNumEdges s) (m_nodesEdges s) q) in *.
    assert (Cs' : consistent s').
    { apply (consistent_change s); auto. cbn. rewrite Hl. apply (ends_in_from s Cs). }
    exists a', s', (map (gn s) idx), (match p with Some _ => Some (m_projection s) | None => None end).
    split; [exact Hr|]. split; [congruence|]. split; [split; [apply extends_iff|auto]|].
    - repeat split; try (cbn; lia).
      + intros i. unfold gn at 2. cbn [m_nodes s']. destruct (in_dec Nat.eq_dec i idx) as [Hi|Hi].
        * apply In_nth_error in Hi. destruct Hi as (k & Hk). rewrite (Hs k i Hk). auto.
        * rewrite Ho by auto. rewrite <- E3. symmetry. auto.
      + intros i. rewrite <- E. apply E4.
      + cbn. rewrite Hq, P. destruct p; congruence.
    - split; auto. constructor; auto.
      + intros k i Hk. symmetry. apply nth_error_nth. rewrite nth_error_map, Hk. reflexivity.
      + cbn. destruct p; congruence.
      + split; cbn; lia.
      + intros i Hi. cbn. rewrite Hl. auto.
  Qed.

  Lemma exchange_reversible a idx saved p w0 w1 :
    exchanges a idx saved p -> exch_rel idx saved p w1 w0 -> leaf_ok a w0 w1.
  Proof.
    intros Ha Hx.
    apply (reversible_coind _ _ _
      (fun a w0 w1 => exists saved p, exchanges a idx saved p /\ exch_rel idx saved p w1 w0)
      (fun a w0 w1 => exists saved p, exchanges a idx saved p /\ exch_rel idx saved p w0 w1)); eauto.
    - clear. intros a w0 w1 s (saved & p & Ha & Hx) Hle.
      destruct (exchange_step a idx saved p w1 w0 s Ha Hx Hle) as (a' & s' & saved' & p' & H1 & H2 & H3 & H4 & H5). eauto 10.
    - clear. intros a w0 w1 s (saved & p & Ha & Hx) Hle.
      destruct (exchange_step a idx saved p w0 w1 s Ha Hx Hle) as (a' & s' & saved' & p' & H1 & H2 & H3 & H4 & H5). eauto 10.
  Qed.

  (** *** The action that exchanges all nodes and edges *)
  Definition settled (nodes : list point) (edges : list edge) : Prop :=
    well_indexed nodes edges /\ admin_nodes nodes edges = nodes /\ admin_edges nodes edges = edges /\ nodes <> [] /\ edges <> [].

  Lemma exact_consistent m : well_indexed (m_nodes m) (m_edges m) -> adjacency_exact m -> consistent m.
  Proof.
    intros Hw [H1 H2 H3 H4 _ _ _ _]. constructor; auto.
    - intros n Hn. destruct (H3 n Hn) as [-> _]. auto.
    - intros n oe Hin. destruct (Nat.ltb_spec n (length (m_nodes m))) as [Hn|Hn].
      + destruct (H4 n oe Hn Hin) as (e & o & -> & He & _). eauto.
      + unfold row_of in Hin. rewrite nth_overflow in Hin by lia. destruct Hin.
  Qed.

  Lemma full_effect s ns es : settled ns es ->
    exists s', restore (FullA ns es) s = Ok (FullA (m_nodes s) (m_edges s), s') /\
      commit (FullA ns es) s = restore (FullA ns es) s /\
      m_nodes s' = ns /\ m_edges s' = es /\ m_projection s' = m_projection s /\ consistent s'.
  Proof.
    intros (Hw & Hn & He & Hn0 & He0). cbn.
    set (m := set_edges (set_nodes s ns) es).
    destruct (administrate_safe order order_perm m Hw) as (s' & Hs). rewrite Hs. cbn [bind].
    destruct (administrate_result order order_perm m s' Hw Hs) as (N & E & P & A).
    unfold m in N, E, P. cbn [m_nodes m_edges m_projection set_nodes set_edges] in N, E, P.
    exists s'. rewrite Hn in N. rewrite He in E.
    do 2 (split; [reflexivity|]). do 3 (split; [assumption|]).
    apply exact_consistent; auto. rewrite N, E. exact Hw.
  Qed.

  (** Nodes that are missing or connected, edges that are missing or live: administration changes nothing. *)
  Lemma settled_iff nodes edges : well_indexed nodes edges ->
    (admin_nodes nodes edges = nodes /\ admin_edges nodes edges = edges <->
     (forall n p, nth_error nodes n = Some p -> p = missing_point \/ connected nodes edges n) /\
     (forall e, In e edges -> e = missing_edge \/ live nodes e = true)).
  Proof.
    intros Hw. split.
    - intros [Hn He]. split.
      + intros n p Hp. pose proof (admin_nodes_nth nodes edges n p Hp) as Ha. rewrite Hn, Hp in Ha.
        destruct (existsb _ edges) eqn:Ex; [|left; congruence].
        right. apply existsb_exists in Ex. destruct Ex as (e & H1 & H2). apply andb_true_iff in H2. destruct H2 as [H2 H3].
        exists e. repeat split; auto. now apply endsb_spec.
      + intros e Hin. destruct (live nodes e) eqn:El; auto. left.
        apply In_nth_error in Hin. destruct Hin as (i & Hi). pose proof (f_equal (fun l => nth_error l i) He) as Ha. cbn beta in Ha.
        unfold admin_edges in Ha. rewrite nth_error_map, Hi in Ha. cbn in Ha. rewrite El in Ha. congruence.
    - intros [H1 H2]. split.
      + apply nth_error_ext. intros n. destruct (nth_error nodes n) as [p|] eqn:E.
        * rewrite (admin_nodes_nth _ _ _ _ E). f_equal. destruct (H1 n p E) as [->|Hc]; [destruct (existsb _ edges); auto|].
          destruct Hc as (e & C1 & C2 & C3).
          assert (Ex : existsb (fun e => live nodes e && endsb e n) edges = true); [|now rewrite Ex].
          apply existsb_exists. exists e. split; auto. apply endsb_spec in C3. now rewrite C2, C3.
        * apply nth_error_None. rewrite admin_nodes_length. now apply nth_error_None.
      + unfold admin_edges. rewrite <- (map_id edges) at 2. apply map_ext_in. intros e He.
        destruct (H2 e He) as [->|El]; [destruct (live nodes missing_edge); auto|now rewrite El].
  Qed.

  Lemma valid_at_extend nodes a n : valid_at (nodes ++ repeat missing_point a) n = valid_at nodes n.
  Proof.
    unfold valid_at. destruct (Nat.ltb_spec n (length nodes)) as [H|H].
    - now rewrite nth_error_app1.
    - rewrite nth_error_app2 by lia. rewrite (proj2 (nth_error_None nodes n)) by lia.
      destruct (nth_error (repeat missing_point a) (n - length nodes)) eqn:E; auto.
      apply nth_error_In, repeat_spec in E. subst. reflexivity.
  Qed.

  Lemma live_extend nodes a e : live (nodes ++ repeat missing_point a) e = live nodes e.
  Proof. destruct e as [[x|] [y|]]; cbn; auto. now rewrite !valid_at_extend. Qed.

  Lemma settled_extend nodes edges a b : settled nodes edges ->
    settled (nodes ++ repeat missing_point a) (edges ++ repeat missing_edge b).
  Proof.
    intros (Hw & Hn & He & Hn0 & He0).
    assert (Hw' : well_indexed (nodes ++ repeat missing_point a) (edges ++ repeat missing_edge b)).
    { intros e n Hin Hn'. apply in_app_or in Hin. rewrite app_length. destruct Hin as [Hin|Hin].
      - specialize (Hw e n Hin Hn'). lia.
      - apply repeat_spec in Hin. subst. destruct Hn'; discriminate. }
    destruct (proj1 (settled_iff nodes edges Hw) (conj Hn He)) as [S1 S2].
    destruct (proj2 (settled_iff _ _ Hw')) as [S3 S4].
    - split.
      + intros n p Hp. destruct (Nat.ltb_spec n (length nodes)) as [Hl|Hl].
        * rewrite nth_error_app1 in Hp by auto. destruct (S1 n p Hp) as [->|(e & C1 & C2 & C3)]; auto.
          right. exists e. split; [apply in_or_app; auto|]. split; auto. now rewrite live_extend.
        * rewrite nth_error_app2 in Hp by auto. apply nth_error_In, repeat_spec in Hp. auto.
      + intros e Hin. apply in_app_or in Hin. destruct Hin as [Hin|Hin].
        * destruct (S2 e Hin); auto. right. now rewrite live_extend.
        * apply repeat_spec in Hin. auto.
    - split; [exact Hw'|]. split; [exact S3|]. split; [exact S4|]. split.
      + intros Hc. apply app_eq_nil in Hc. tauto.
      + intros Hc. apply app_eq_nil in Hc. tauto.
  Qed.

  (** [FullA]: both states settled, the stored arrays are an extension of the other state. *)
  Record full_rel (ns : list point) (es : list edge) (here there : mesh) : Prop := {
    fr_stored : settled ns es;
    fr_here : settled (m_nodes here) (m_edges here);
    fr_c : consistent there;
    fr_ext : exists a b, ns = m_nodes there ++ repeat missing_point a /\ es = m_edges there ++ repeat missing_edge b;
    fr_proj : m_projection here = m_projection there }.

  Lemma full_step ns es here there s :
    full_rel ns es here there -> mesh_le here s -> consistent here ->
    exists s', restore (FullA ns es) s = Ok (FullA (m_nodes s) (m_edges s), s') /\
      commit (FullA ns es) s = Ok (FullA (m_nodes s) (m_edges s), s') /\
      mesh_le there s' /\ full_rel (m_nodes s) (m_edges s) s' s /\ consistent s'.
  Proof.
    intros [Hs Hh Hc (a & b & Ha & Hb) Hp] [He Hcs] Hch.
    destruct (full_effect s ns es Hs) as (s' & Hr & Hcm & N & E & P & C).
    destruct He as (a' & b' & N' & E' & P').
    exists s'. split; [exact Hr|]. split; [congruence|]. split.
    - split; [|auto]. exists a, b. rewrite N, E, P. repeat split; auto. congruence.
    - split; auto. constructor.
      + rewrite N', E'. apply settled_extend. auto.
      + rewrite N, E. auto.
      + auto.
      + exists 0, 0. cbn. rewrite !app_nil_r. auto.
      + auto.
  Qed.

  Lemma full_reversible ns es w0 w1 : full_rel ns es w1 w0 -> consistent w1 -> leaf_ok (FullA ns es) w0 w1.
  Proof.
    intros H Hc.
    apply (reversible_coind _ _ _
      (fun a w0 w1 => exists ns es, a = FullA ns es /\ full_rel ns es w1 w0 /\ consistent w1)
      (fun a w0 w1 => exists ns es, a = FullA ns es /\ full_rel ns es w0 w1 /\ consistent w0)); eauto.
    - clear - order_perm. intros a w0 w1 s (ns & es & -> & H & Hc) Hle.
      destruct (full_step ns es w1 w0 s H Hle Hc) as (s' & H1 & H2 & H3 & H4 & H5).
      eexists _, s'. split; [exact H1|]. split; [exact H3|]. eauto.
    - clear - order_perm. intros a w0 w1 s (ns & es & -> & H & Hc) Hle.
      destruct (full_step ns es w0 w1 s H Hle Hc) as (s' & H1 & H2 & H3 & H4 & H5).
      eexists _, s'. split; [exact H2|]. split; [exact H3|]. eauto.
  Qed.
End Leaves.

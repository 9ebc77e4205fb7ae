(** Every edit of a mesh is defined within its precondition, keeps the mesh consistent and hands over a reversible action. *)
From Verif Require Import Base BaseLemmas FloatModel FloatProofs UndoModel UndoSpec UndoProofs ActionModel ActionSpec ActionProofs
  MeshModel MeshSpec MeshProofs MeshAdj MeshConstruct MeshUndo.
From Coq Require Import Permutation.

Lemma vresize_snoc {A} (d : A) l : vresize (S (length l)) d l = l ++ [d].
Proof.
  unfold vresize. rewrite firstn_all2 by lia. f_equal. replace (S (length l) - length l) with 1 by lia. reflexivity.
Qed.
Lemma set_nth_snoc {A} (x y : A) l : set_nth (length l) x (l ++ [y]) = l ++ [x].
Proof. induction l as [|z l IH]; cbn; auto. now rewrite IH. Qed.
Lemma vset_snoc {A} (x y : A) l : vset (length l) x (l ++ [y]) = Ok (l ++ [x]).
Proof. rewrite vset_lt by (rewrite app_length; cbn; lia). now rewrite set_nth_snoc. Qed.

Lemma ge_get m e : e < length (m_edges m) -> vget (m_edges m) e = Ok (ge m e).
Proof. intros H. apply vget_ok. unfold ge. now apply nth_error_nth'. Qed.

Lemma row_get m n : consistent m -> n < length (m_nodes m) -> vget (m_nodesEdges m) n = Ok (row_of m n).
Proof. intros Hc H. apply vget_ok. unfold row_of. apply nth_error_nth'. rewrite (co_rows m Hc). exact H. Qed.

Lemma degree_get m n : consistent m -> n < length (m_nodes m) -> vget (m_nodesNumEdges m) n = Ok (degree_of m n).
Proof. intros Hc H. apply vget_ok. unfold degree_of. apply nth_error_nth'. rewrite (co_counts m Hc). exact H. Qed.

Lemma find_in_row_ok edges first second : forall k row,
  k <= length row -> (forall oe, In oe row -> exists e, oe = Some e /\ e < length edges) ->
  exists r, find_in_row edges row k first second = Ok r /\
    match r with
    | Some e => In (Some e) (firstn k row) /\ e < length edges /\ other_node (nth e edges missing_edge) first = Some second
    | None => forall e, In (Some e) (firstn k row) -> other_node (nth e edges missing_edge) first <> Some second
    end.
Proof.
  induction k as [|k IH]; intros row Hk Hr; cbn [find_in_row].
  - exists None. split; [destruct row; reflexivity|intros e []].
  - destruct row as [|oe row]; [cbn in Hk; lia|]. cbn [find_in_row]. destruct (Hr oe (or_introl eq_refl)) as (e & -> & He).
    cbn [vget_idx firstn]. rewrite (edge_of_get edges e He). unfold edge_of. cbn [bind].
    destruct (other_node (nth e edges missing_edge) first) as [o|] eqn:Eo.
    + cbn [eq_idx]. destruct (Nat.eqb_spec o second) as [->|Hne].
      * exists (Some e). split; auto. split; cbn; auto.
      * destruct (IH row) as (r & -> & Hs); [cbn in Hk; lia|intros; apply Hr; cbn; auto|].
        exists r. split; auto. destruct r as [e'|].
        -- destruct Hs as (H1 & H2 & H3). split; cbn; auto.
        -- intros e' [E|H]; auto. inversion E; subst. congruence.
    + cbn [eq_idx]. destruct (IH row) as (r & -> & Hs); [cbn in Hk; lia|intros; apply Hr; cbn; auto|].
      exists r. split; auto. destruct r as [e'|].
      * destruct Hs as (H1 & H2 & H3). split; cbn; auto.
      * intros e' [E|H]; auto. inversion E; subst. congruence.
Qed.

Lemma find_edge_ok m a b : consistent m -> a < length (m_nodes m) ->
  exists r, find_edge m (Some a) (Some b) = Ok r /\
    match r with
    | Some e => In (Some e) (firstn (degree_of m a) (row_of m a)) /\ e < length (m_edges m) /\ other_node (ge m e) a = Some b
    | None => forall e, In (Some e) (firstn (degree_of m a) (row_of m a)) -> other_node (ge m e) a <> Some b
    end.
Proof.
  intros Hc Ha. unfold find_edge. rewrite degree_get by auto. cbn [bind].
  destruct (degree_of m a) as [|k] eqn:Ek; [exists None; split; [reflexivity|intros e []]|].
  rewrite row_get by auto. cbn [bind]. rewrite <- Ek. apply find_in_row_ok.
  - apply co_fill; auto.
  - apply co_listed; auto.
Qed.

Section Edits.
  Variable order : list point -> list edge -> nat -> list (option nat) -> list (option nat).
  Hypothesis order_perm : forall nodes edges n row, Permutation row (order nodes edges n row).
  Notation leaf_ok := (reversible (restore_leaf order) (commit_leaf order) mesh_le).
  Notation tree_ok := (recC (restore_leaf order) (commit_leaf order) mesh_le).
  Notation list_ok := (recC_all (restore_leaf order) (commit_leaf order) mesh_le).

  Lemma leaf_tree a m m' : leaf_ok a m m' -> tree_ok (leaf a) m m'.
  Proof. apply recC_leaf. Qed.

  Lemma list_snoc l a m0 m1 m2 : list_ok l m0 m1 -> tree_ok a m1 m2 -> list_ok (l ++ [a]) m0 m2.
  Proof.
    intros H1 H2. eapply recC_all_snoc; eauto using mesh_le_refl, mesh_le_trans.
  Qed.

  Lemma delete_edge_ok m e : consistent m -> e < length (m_edges m) ->
    let m' := set_edges m (set_nth e missing_edge (m_edges m)) in
    delete_edge order m (Some e) = Ok (leaf (DeleteEdgeA e (ge m e)), m') /\
    tree_ok (leaf (DeleteEdgeA e (ge m e))) m m' /\ consistent m'.
  Proof.
    intros Hc He m'. unfold delete_edge. rewrite ge_get by auto. cbn [bind].
    rewrite (edge_put_commit order _ e (ge m e) missing_edge m (ep_delete e (ge m e)) He). cbn [bind]. split; [reflexivity|].
    destruct (wrote_edge_facts m e missing_edge Hc He) as (C & F1 & F2 & F3 & F4 & F5); [intros n [H|H]; discriminate|].
    fold m' in C, F1, F2, F3, F4, F5. split; auto. apply leaf_tree.
    apply (edge_put_reversible order _ e (ge m e) missing_edge); [constructor| | |lia].
    - constructor; auto.
      + rewrite F4, Nat.eqb_refl; auto.
      + intros i Hi. rewrite F4. apply Nat.eqb_neq in Hi. now rewrite Hi.
    - split; lia.
  Qed.

  Lemma reset_edge_ok m e ed : consistent m -> e < length (m_edges m) -> (forall n, ends_in ed n -> n < length (m_nodes m)) ->
    let m' := set_edges m (set_nth e ed (m_edges m)) in
    reset_edge order m (Some e) ed = Ok (leaf (ResetEdgeA e (ge m e) ed), m') /\
    tree_ok (leaf (ResetEdgeA e (ge m e) ed)) m m' /\ consistent m'.
  Proof.
    intros Hc He Hr m'. unfold reset_edge. rewrite ge_get by auto. cbn [bind].
    rewrite (edge_put_commit order _ e (ge m e) ed m (ep_reset e (ge m e) ed) He). cbn [bind]. split; [reflexivity|].
    destruct (wrote_edge_facts m e ed Hc He Hr) as (C & F1 & F2 & F3 & F4 & F5).
    fold m' in C, F1, F2, F3, F4, F5. split; auto. apply leaf_tree.
    apply (edge_put_reversible order _ e (ge m e) ed); [constructor| | |lia].
    - constructor; auto.
      + rewrite F4, Nat.eqb_refl; auto.
      + intros i Hi. rewrite F4. apply Nat.eqb_neq in Hi. now rewrite Hi.
    - split; lia.
  Qed.

  Lemma node_write_ok a m n x y m' : node_put a n x y -> consistent m -> n < length (m_nodes m) -> gn m n = x ->
    wrote_node m n y m' -> tree_ok (leaf a) m m' /\ consistent m'.
  Proof.
    intros Ha Hc Hn Hx Hw. destruct (wrote_node_facts _ _ _ _ Hw Hc Hn) as (C & F1 & F2 & F3 & F4 & F5).
    split; auto. apply leaf_tree. apply (node_put_reversible order _ n x y); auto; [|split; lia|lia].
    constructor; auto.
    - rewrite F3, Nat.eqb_refl; auto.
    - intros i Hi. rewrite F3. apply Nat.eqb_neq in Hi. now rewrite Hi.
  Qed.

  Lemma reset_node_ok m n p : consistent m -> n < length (m_nodes m) ->
    let m' := set_nodes m (set_nth n p (m_nodes m)) in
    reset_node order m n p = Ok (leaf (ResetNodeA n (gn m n) p), m') /\
    tree_ok (leaf (ResetNodeA n (gn m n) p)) m m' /\ consistent m'.
  Proof.
    intros Hc Hn m'. unfold reset_node. rewrite (nth_error_nth' (m_nodes m) missing_point Hn).
    cbn [commit_leaf]. unfold put_node. rewrite vset_lt by auto. cbn [bind]. split; [reflexivity|].
    apply (node_write_ok (ResetNodeA n (gn m n) p) m n (gn m n) p); auto; [constructor|].
    exists (m_nodesNumEdges m). auto.
  Qed.

  Lemma insert_node_ok m p : consistent m ->
    exists m', insert_node order m p = Ok (length (m_nodes m), leaf (AddNodeA (length (m_nodes m)) p), m') /\
      m_nodes m' = m_nodes m ++ [p] /\ m_edges m' = m_edges m /\ m_projection m' = m_projection m /\
      tree_ok (leaf (AddNodeA (length (m_nodes m)) p)) m m' /\ consistent m'.
  Proof.
    intros Hc. unfold insert_node. set (n := length (m_nodes m)). pose proof Hc as [W L1 L2 L3 L4].
    assert (V1 : vresize (S n) missing_point (m_nodes m) = m_nodes m ++ [missing_point]).
    { unfold vresize. rewrite firstn_all2 by (unfold n; lia). f_equal. replace (S n - length (m_nodes m)) with 1 by (unfold n; lia). reflexivity. }
    assert (V2 : vresize (S n) 0 (m_nodesNumEdges m) = m_nodesNumEdges m ++ [0]).
    { unfold vresize. rewrite firstn_all2 by (unfold n; lia). f_equal. replace (S n - length (m_nodesNumEdges m)) with 1 by (unfold n; lia). reflexivity. }
    assert (V3 : vresize (S n) [] (m_nodesEdges m) = m_nodesEdges m ++ [[]]).
    { unfold vresize. rewrite firstn_all2 by (unfold n; lia). f_equal. replace (S n - length (m_nodesEdges m)) with 1 by (unfold n; lia). reflexivity. }
    rewrite V1, V2, V3. cbn [commit_leaf]. unfold put_node, zero_count. cbn [m_nodes set_tables set_nodes].
    rewrite vset_lt by (rewrite app_length; cbn; unfold n; lia). cbn [bind m_nodesNumEdges set_nodes set_tables].
    rewrite vset_lt by (rewrite app_length; cbn; unfold n; lia). cbn [bind set_nodes set_tables m_nodes m_edges m_nodesNumEdges m_nodesEdges m_projection].
    assert (Sn : forall (A : Type) (l : list A) x y, set_nth (length l) x (l ++ [y]) = l ++ [x]).
    { intros A l x y. induction l as [|z l IH]; cbn; auto. now rewrite IH. }
    assert (S1 : set_nth n p (m_nodes m ++ [missing_point]) = m_nodes m ++ [p]) by apply Sn.
    assert (S2 : set_nth n 0 (m_nodesNumEdges m ++ [0]) = m_nodesNumEdges m ++ [0]) by (unfold n; rewrite <- L1; apply Sn).
    rewrite S1, S2. unfold set_tables, set_nodes. cbn [m_nodes m_edges m_nodesNumEdges m_nodesEdges m_projection].
    eexists. split; [reflexivity|]. cbn [m_nodes m_edges m_projection]. split; [reflexivity|]. split; [reflexivity|]. split; [reflexivity|].
    set (m' := Mesh _ _ _ _ _).
    assert (Hc' : consistent m').
    { constructor; cbn [m' m_nodes m_edges m_nodesNumEdges m_nodesEdges].
      - intros e k He Hk. rewrite app_length. specialize (W e k He Hk). lia.
      - rewrite !app_length. cbn. lia.
      - rewrite !app_length. cbn. lia.
      - intros k Hk. rewrite app_length in Hk. cbn in Hk. unfold degree_of, row_of. cbn [m_nodesNumEdges m_nodesEdges m'].
        destruct (Nat.ltb_spec k (length (m_nodes m))).
        + rewrite !app_nth1 by lia. apply (L3 k). lia.
        + rewrite !app_nth2 by lia. replace (k - length (m_nodesNumEdges m)) with 0 by lia. cbn. lia.
      - intros k oe. unfold row_of. cbn [m_nodesEdges m'].
        destruct (Nat.ltb_spec k (length (m_nodesEdges m))).
        + rewrite app_nth1 by lia. apply L4.
        + rewrite app_nth2 by lia. destruct (k - length (m_nodesEdges m)) as [|[|]]; cbn; tauto. }
    split; [|exact Hc']. apply leaf_tree.
    apply (node_put_reversible order _ n missing_point p); [constructor| | |].
    - constructor; auto.
      + unfold gn. apply nth_overflow. unfold n; lia.
      + unfold gn, m', n. cbn [m_nodes]. rewrite app_nth2, Nat.sub_diag by lia. reflexivity.
      + intros i Hi. unfold gn, m'. cbn [m_nodes]. destruct (Nat.ltb_spec i n).
        * now rewrite app_nth1.
        * rewrite !nth_overflow; auto. rewrite app_length. cbn. unfold n in *. lia.
    - split; cbn [m' m_nodes m_edges]; rewrite ?app_length; lia.
    - cbn [m' m_nodes]. rewrite app_length. cbn. unfold n. lia.
  Qed.

  Lemma connect_nodes_ok m a b : consistent m -> a < length (m_nodes m) -> b < length (m_nodes m) ->
    connect_nodes order m (Some a) (Some b) = Ok None \/
    exists m', connect_nodes order m (Some a) (Some b) = Ok (Some (length (m_edges m), leaf (AddEdgeA (length (m_edges m)) (Some a, Some b)), m')) /\
      m' = set_edges m (m_edges m ++ [(Some a, Some b)]) /\
      tree_ok (leaf (AddEdgeA (length (m_edges m)) (Some a, Some b))) m m' /\ consistent m'.
  Proof.
    intros Hc Ha Hb. unfold connect_nodes. destruct (find_edge_ok m a b Hc Ha) as (r & -> & _). cbn [bind].
    destruct r; auto. right. set (k := length (m_edges m)).
    assert (V : vresize (S k) (Some 0, Some 0) (m_edges m) = m_edges m ++ [(Some 0, Some 0)]) by apply vresize_snoc.
    rewrite V. cbn [commit_leaf]. unfold put_edge. cbn [m_edges set_edges].
    match goal with |- context [@vset ?A ?i ?x ?l] =>
      assert (Sn : @vset A i x l = Ok (m_edges m ++ [(Some a, Some b)])) by apply vset_snoc; rewrite Sn end.
    cbn [bind]. eexists. split; [reflexivity|]. split; [reflexivity|]. set (m' := set_edges _ _).
    assert (Hg : forall i, ge m' i = if i =? k then (Some a, Some b) else ge m i).
    { intros i. unfold ge, m', k. cbn. destruct (Nat.eqb_spec i (length (m_edges m))) as [->|Hi].
      - rewrite app_nth2, Nat.sub_diag by lia. reflexivity.
      - destruct (Nat.ltb_spec i (length (m_edges m))).
        + now rewrite app_nth1.
        + rewrite !nth_overflow; auto. rewrite app_length. cbn. lia. }
    assert (Hc' : consistent m').
    { apply (consistent_change m); auto.
      - cbn. rewrite app_length. lia.
      - intros i n. rewrite Hg. destruct (i =? k).
        + cbn. intros [H|H]; inversion H; subst; auto.
        + cbn. apply ends_in_from; auto. }
    split; [|exact Hc']. apply leaf_tree.
    apply (edge_put_reversible order _ k missing_edge (Some a, Some b)); [constructor| | |].
    - constructor; auto.
      + unfold ge. apply nth_overflow. unfold k; lia.
      + rewrite Hg, Nat.eqb_refl. reflexivity.
      + intros i Hi. rewrite Hg. apply Nat.eqb_neq in Hi. now rewrite Hi.
    - split; cbn; rewrite ?app_length; lia.
    - cbn. rewrite app_length. cbn. unfold k. lia.
  Qed.

  (** *** Deleting a node *)
  Definition del_step (acc : list (act mact) * mesh) (e : option nat) : outcome (list (act mact) * mesh) :=
    let! (a, m1) := delete_edge order (snd acc) e in
    let! acts := compound_add (fst acc) (Some a) in Ok (acts, m1).
  Lemma delete_edges_ok m0 row : forall acts m,
    list_ok acts m0 m -> consistent m -> (forall oe, In oe row -> exists e, oe = Some e /\ e < length (m_edges m)) ->
    exists acts' m', fold_out del_step row (acts, m) = Ok (acts', m') /\
      list_ok acts' m0 m' /\ consistent m' /\
      m_nodes m' = m_nodes m /\ m_nodesNumEdges m' = m_nodesNumEdges m /\ m_nodesEdges m' = m_nodesEdges m /\
      m_projection m' = m_projection m /\ length (m_edges m') = length (m_edges m) /\
      (forall e, ge m' e = if existsb (eq_idx (Some e)) row then missing_edge else ge m e).
  Proof.
    induction row as [|oe row IH]; intros acts m Hl Hc Hr; cbn [fold_out].
    - exists acts, m. auto 10.
    - destruct (Hr oe (or_introl eq_refl)) as (e & -> & He).
      destruct (delete_edge_ok m e Hc He) as (Hd & Ht & Hc1).
      assert (Hs : del_step (acts, m) (Some e) = Ok (acts ++ [leaf (DeleteEdgeA e (ge m e))], set_edges m (set_nth e missing_edge (m_edges m)))).
      { unfold del_step. cbn [fst snd]. rewrite Hd. reflexivity. }
      rewrite Hs. cbn [bind].
      set (m1 := set_edges m (set_nth e missing_edge (m_edges m))) in *.
      destruct (IH (acts ++ [leaf (DeleteEdgeA e (ge m e))]) m1) as (acts' & m' & Hf & H1 & H2 & H3 & H4 & H5 & H6 & H7 & H8); auto.
      { eapply list_snoc; eauto. }
      { intros oe Hin. destruct (Hr oe) as (e' & -> & He'); [cbn; auto|]. exists e'. split; auto.
        unfold m1. cbn. now rewrite set_nth_length. }
      exists acts', m'. rewrite Hf. split; auto. split; auto. split; auto.
      rewrite H3, H4, H5, H6, H7. unfold m1. cbn [m_nodes m_nodesNumEdges m_nodesEdges m_projection m_edges set_edges].
      rewrite set_nth_length. repeat split; auto.
      intros i. rewrite H8. cbn [existsb]. unfold m1. unfold ge at 1. cbn [m_edges set_edges]. rewrite nth_set_nth by auto.
      cbn [eq_idx]. fold (ge m i). destruct (i =? e), (existsb _ row); auto.
  Qed.

  Lemma delete_node_ok m n : consistent m -> n < length (m_nodes m) ->
    exists a m', delete_node order m (Some n) = Ok (a, m') /\ tree_ok a m m' /\ consistent m' /\
      m_nodes m' = set_nth n missing_point (m_nodes m) /\ length (m_edges m') = length (m_edges m) /\
      m_projection m' = m_projection m /\ m_nodesNumEdges m' = m_nodesNumEdges m /\ m_nodesEdges m' = m_nodesEdges m /\
      (forall e, ge m' e = if existsb (eq_idx (Some e)) (row_of m n) then missing_edge else ge m e).
  Proof.
    intros Hc Hn. unfold delete_node. rewrite (nth_error_nth' (m_nodes m) missing_point Hn).
    rewrite row_get by auto. cbn [bind]. unfold delete_edges. fold del_step.
    destruct (delete_edges_ok m (row_of m n) [] m) as (acts & m1 & -> & L & C & F1 & F2 & F3 & F4 & F5 & F6); auto.
    { constructor. apply mesh_le_refl. } { apply co_listed; auto. }
    cbn [bind commit_leaf]. unfold put_node. rewrite F1. rewrite vset_lt by auto. cbn [bind].
    eexists _, _. split; [reflexivity|]. fold (gn m n).
    assert (Hw : wrote_node m1 n missing_point (set_nodes m1 (set_nth n missing_point (m_nodes m)))).
    { exists (m_nodesNumEdges m1). rewrite F1. auto. }
    assert (Hn1 : n < length (m_nodes m1)) by (rewrite F1; auto).
    assert (Hg : gn m1 n = gn m n) by (unfold gn; now rewrite F1).
    destruct (node_write_ok (DeleteNodeA n (gn m n)) m1 n (gn m n) missing_point _ (np_delete n (gn m n)) C Hn1 Hg Hw) as [T C'].
    split; [|split; [exact C'|]].
    - apply recC_comp. eapply list_snoc; eauto.
    - cbn. auto 10.
  Qed.

  (** *** Administration with an undo action *)
  Lemma invalidate_nodes_ok conn : forall n pre nodes m0 m acts, length conn = length nodes -> length pre = n ->
    list_ok acts m0 m -> consistent m -> m_nodes m = pre ++ nodes ->
    let (nodes', new) := invalidate_unconnected n conn nodes in
    let m' := set_nodes m (pre ++ nodes') in
    list_ok (acts ++ map leaf new) m0 m' /\ consistent m'.
  Proof.
    induction conn as [|c conn IH]; intros n pre nodes m0 m acts Hlen Hpre Hl Hc Hn; cbn [invalidate_unconnected].
    - rewrite app_nil_r. destruct nodes; [|discriminate]. rewrite <- Hn. destruct m; auto.
    - destruct nodes as [|p nodes]; [discriminate|].
      destruct c.
      + specialize (IH (S n) (pre ++ [p]) nodes m0 m acts).
        destruct (invalidate_unconnected (S n) conn nodes) as [nodes' new]. rewrite <- !app_assoc in IH. cbn [app] in IH.
        apply IH; auto. { rewrite app_length; cbn; lia. }
      + assert (Hlt : n < length (m_nodes m)) by (rewrite Hn, app_length; cbn; lia).
        assert (Hset : set_nth n missing_point (m_nodes m) = pre ++ missing_point :: nodes).
        { rewrite Hn, <- Hpre. clear. induction pre; cbn; auto. now rewrite IHpre. }
        assert (Hg : gn m n = p). { unfold gn. rewrite Hn, app_nth2 by lia. rewrite Hpre, Nat.sub_diag. reflexivity. }
        destruct (node_write_ok (ResetNodeA n p missing_point) m n p missing_point (set_nodes m (pre ++ missing_point :: nodes))) as [T C]; auto.
        { constructor. } { exists (m_nodesNumEdges m). rewrite Hset. auto. }
        specialize (IH (S n) (pre ++ [missing_point]) nodes m0 (set_nodes m (pre ++ missing_point :: nodes)) (acts ++ [leaf (ResetNodeA n p missing_point)])).
        destruct (invalidate_unconnected (S n) conn nodes) as [nodes' new]. rewrite <- !app_assoc in IH. cbn [app map] in IH |- *.
        apply IH; auto. { rewrite app_length; cbn; lia. }
        eapply list_snoc; eauto.
  Qed.

  Lemma invalidate_edges_ok nodes edges : forall n pre m0 m acts edges' new, length pre = n ->
    list_ok acts m0 m -> consistent m -> m_edges m = pre ++ edges ->
    invalidate_edges n nodes edges = Ok (edges', new) ->
    let m' := set_edges m (pre ++ edges') in
    list_ok (acts ++ map leaf new) m0 m' /\ consistent m'.
  Proof.
    induction edges as [|ed edges IH]; intros n pre m0 m acts edges' new Hpre Hl Hc He Hi; cbn [invalidate_edges] in Hi.
    - injection Hi as <- <-. cbn [map]. rewrite app_nil_r, <- He. destruct m; auto.
    - apply bind_ok_inv in Hi. destruct Hi as (b & _ & Hi). apply bind_ok_inv in Hi. destruct Hi as ([t' new'] & Ht & Hi).
      destruct b.
      + injection Hi as <- <-.
        assert (Hlt : n < length (m_edges m)) by (rewrite He, app_length; cbn; lia).
        assert (Hset : set_nth n missing_edge (m_edges m) = pre ++ missing_edge :: edges).
        { rewrite He, <- Hpre. clear. induction pre; cbn; auto. now rewrite IHpre. }
        assert (Hg : ge m n = ed). { unfold ge. rewrite He, app_nth2 by lia. rewrite Hpre, Nat.sub_diag. reflexivity. }
        destruct (reset_edge_ok m n missing_edge Hc Hlt) as (_ & T & C); [intros k [H|H]; discriminate|].
        rewrite Hset, Hg in *.
        specialize (IH (S n) (pre ++ [missing_edge]) m0 (set_edges m (pre ++ missing_edge :: edges)) (acts ++ [leaf (ResetEdgeA n ed missing_edge)]) t' new').
        rewrite <- !app_assoc in IH. cbn [app map] in IH |- *. refine (IH _ _ C _ Ht); auto.
        { rewrite app_length; cbn; lia. }
        eapply list_snoc; eauto.
      + injection Hi as <- <-. specialize (IH (S n) (pre ++ [ed]) m0 m acts t' new').
        rewrite <- !app_assoc in IH. cbn [app] in IH. apply IH; auto.
        { rewrite app_length; cbn; lia. }
  Qed.

  Lemma set_unconnected_undo m m' new : consistent m -> set_unconnected_invalid m = Ok (m', new) ->
    list_ok (map leaf new) m m' /\ consistent m'.
  Proof.
    intros Hc. unfold set_unconnected_invalid.
    destruct (find_connected_spec m (co_ends m Hc)) as (k & -> & _). cbn [bind].
    pose proof (invalidate_nodes_ok (conn_of (m_nodes m) (m_edges m)) 0 [] (m_nodes m) m m [] (conn_of_length _ _) eq_refl) as H.
    destruct (invalidate_unconnected 0 (conn_of (m_nodes m) (m_edges m)) (m_nodes m)) as [nodes' acts]. cbn [app] in H.
    destruct H as [H1 H2]; auto. { constructor. apply mesh_le_refl. }
    destruct ((k =? 0) && (count_invalid nodes' =? 0)).
    - intros E. injection E as <- <-. auto.
    - intros E. apply bind_ok_inv in E. destruct E as ([edges' acts2] & He & E). injection E as <- <-.
      rewrite map_app. exact (invalidate_edges_ok nodes' (m_edges m) 0 [] m (set_nodes m nodes') (map leaf acts) edges' acts2 eq_refl H1 H2 eq_refl He).
  Qed.

  Lemma rebuild_le m m' : consistent m -> rebuild_tables order m = Ok m' -> mesh_le m m' /\ consistent m'.
  Proof.
    intros Hc H.
    assert (Hok : exists nn ne, m' = set_tables m nn ne /\ consistent m').
    { unfold rebuild_tables in H. destruct (m_nodes m) as [|p pt] eqn:En; [|destruct (m_edges m) as [|e et] eqn:Ee].
      - injection H as <-. exists (m_nodesNumEdges m), (m_nodesEdges m). destruct m; auto.
      - injection H as <-. exists (m_nodesNumEdges m), (m_nodesEdges m). destruct m; auto.
      - destruct (rebuild_exact order order_perm m (co_ends m Hc)) as (nn & ne & Hr & Ha); try congruence.
        unfold rebuild_tables in Hr. rewrite En, Ee in Hr. rewrite Hr in H. injection H as <-. exists nn, ne. split; auto.
        apply exact_consistent; auto. exact (co_ends m Hc). }
    destruct Hok as (nn & ne & -> & Hc'). split; auto. split; auto.
    exists 0, 0. cbn. now rewrite !app_nil_r.
  Qed.

  Lemma administrate_undo_ok m : consistent m ->
    exists m' new, administrate_undo order m = Ok (m', new) /\ list_ok (map leaf new) m m' /\ consistent m'.
  Proof.
    intros Hc. destruct (administrate_ok order order_perm m (co_ends m Hc)) as (nn & ne & new & m' & H & _ & _).
    exists m', new. split; auto. unfold administrate_undo in H. apply bind_ok_inv in H. destruct H as ([m1 acts] & H1 & H).
    apply bind_ok_inv in H. destruct H as (m2 & H2 & H). injection H as -> ->.
    destruct (set_unconnected_undo m m1 new Hc H1) as [L C]. destruct (rebuild_le m1 m' C H2) as [Hle C'].
    split; auto. eapply recC_all_le; eauto. apply mesh_le_trans.
  Qed.
End Edits.

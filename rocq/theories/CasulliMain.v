(** The Casulli refinement: the statements as they are claimed. *)
From Coq Require Import Permutation.
From Verif Require Import Base BaseLemmas FloatModel FloatProofs UndoModel UndoSpec UndoProofs ActionModel ActionSpec ActionProofs
  MeshModel MeshSpec MeshProofs MeshAdj MeshConstruct MeshUndo MeshEdits MeshEdits2 MeshFacts FaceModel FaceSpec FlipModel FlipSpec FlipProofs FlipFinal NodeTypeModel NodeTypeSpec NodeTypeProofs
  FaceUseModel FaceUseSpec FaceUse SplitModel SplitEffect RefineProofs RefineSplit CasulliModel CasulliSpec CasulliWalk CasulliMask CasulliTable CasulliNodes CasulliConnect CasulliFinal.

Lemma mask_unique inside types m f n v v' : mask_is inside types m f n v -> mask_is inside types m f n v' -> v = v'.
Proof. destruct v, v'; cbn; try reflexivity; try tauto. Qed.

Section Main.
  Variable order : list point -> list edge -> nat -> list (option nat) -> list (option nat).
  Hypothesis order_perm : forall nodes edges n row, Permutation row (order nodes edges n row).
  Notation reversible_tree := (reversible (restore_act (restore_leaf order)) (commit_act (commit_leaf order)) mesh_le).
  Notation tree_ok := (recC (restore_leaf order) (commit_leaf order) mesh_le).
  Lemma reversible_of a m0 m1 : tree_ok a m0 m1 -> reversible_tree a m0 m1.
  Proof. apply recC_reversible; eauto using mesh_le_refl, mesh_le_trans. Qed.

  Lemma rows_of (g : nat -> list (option nat)) t k : t = map g (seq 0 k) -> length t = k /\ forall e, e < k -> nth_error t e = Some (g e).
  Proof. intros ->. rewrite map_length, seq_length. split; [reflexivity|]. intros e He. rewrite nth_error_map, (nth_error_nth' _ 0) by (now rewrite seq_length). now rewrite seq_nth. Qed.
  Theorem nodes_made m f centres masks : in_step m f -> oriented f -> apart f -> length centres = num_faces f ->
    (forall n, lt_mask (nth n masks Unassigned) Unassigned = false) -> length (m_nodes m) + length (corners masks f) + length (sides masks m f) <= length masks ->
    exists s, new_nodes order f centres m masks = Ok s /\
      m_nodes (g_mesh s) = m_nodes m ++ new_points masks m f centres /\ m_edges (g_mesh s) = m_edges m /\ consistent (g_mesh s) /\ reversible_tree (compound (g_acts s)) m (g_mesh s) /\
      length (g_masks s) = length masks /\ (forall n, nth n (g_masks s) Unassigned =
        if (length (m_nodes m) <=? n) && (n <? length (m_nodes m) + length (corners masks f)) then NewAssigned
        else if (length (m_nodes m) + length (corners masks f) <=? n) && (n <? length (m_nodes m) + length (corners masks f) + length (sides masks m f)) then NewGeneral
        else nth n masks Unassigned) /\
      length (g_table s) = length (m_edges m) /\
      (forall e a b, e < length (m_edges m) -> edge_at m e = (Some a, Some b) -> (exists i, lists f i e) ->
         nth_error (g_table s) e = Some [Some (beside masks m f b a e a); Some (beside masks m f b a e b); Some (beside masks m f a b e a); Some (beside masks m f a b e b)]) /\
      (forall e, e < length (m_edges m) -> (forall i, ~ lists f i e) -> nth_error (g_table s) e = Some [None; None; None; None]).
  Proof.
    intros I O A Hc Old Room. destruct (new_nodes_ok order m f centres masks I O A Hc Old Room) as (s & H & Em & C & L & Lm & Gm & T). exists s. split; [exact H|].
    split; [now rewrite Em|]. split; [rewrite Em; cbn; apply app_nil_r|]. split; [exact C|]. split; [apply reversible_of; now constructor|]. split; [exact Lm|]. split; [exact Gm|].
    destruct (rows_of _ _ _ T) as (T1 & T2). split; [exact T1|]. split.
    - intros e a b He Ee U. rewrite (T2 e He). unfold expected_row, full_row. rewrite (proj2 (used_ok m f I e He) U), Ee. reflexivity.
    - intros e He U. rewrite (T2 e He). unfold expected_row. destruct (used f e) eqn:Q; [|reflexivity]. apply (used_ok m f I e He) in Q as (i & L1). now apply U in L1.
  Qed.

  Theorem grown inside types m f centres : in_step m f -> oriented f -> apart f -> none_loose m f -> length types = length (m_nodes m) -> length centres = num_faces f ->
    length (m_edges m) <= 3 * length (m_nodes m) ->
    exists masks acts m1 masks1, node_mask inside types m f = Ok masks /\ (forall n, n < length (m_nodes m) -> mask_is inside types m f n (nth n masks Unassigned)) /\
      grow_casulli order inside types centres f m = Ok (acts, m1, masks1) /\ m_nodes m1 = m_nodes m ++ new_points masks m f centres /\ m_edges m1 = edges_after masks m f.
  Proof.
    intros I O A L Ht Hc Pl. destruct (casulli_ok order order_perm (fun _ _ => true) inside types m f centres I O A L Ht Hc Pl) as (masks & H1 & H2 & (a & b & mk & G) & _).
    exists masks, [a; b], (grow m (new_points masks m f centres) (new_lines masks m f)), mk. split; [exact H1|]. split; [exact H2|]. split; [exact G|]. split; reflexivity.
  Qed.
  Theorem refined clockwise inside types m f centres : in_step m f -> oriented f -> apart f -> none_loose m f -> length types = length (m_nodes m) -> length centres = num_faces f ->
    length (m_edges m) <= 3 * length (m_nodes m) ->
    exists masks a m3 f3, node_mask inside types m f = Ok masks /\ (forall n, n < length (m_nodes m) -> mask_is inside types m f n (nth n masks Unassigned)) /\
      casulli order clockwise inside types centres f m = Ok (a, m3, f3) /\ reversible_tree a m m3 /\ in_step m3 f3 /\ administrated m3 /\
      m_edges m3 = map (fun e => if live (points_after masks m f centres) e then e else missing_edge) (edges_after masks m f) /\
      length (m_nodes m3) = length (points_after masks m f centres) /\
      forall n p, nth_error (points_after masks m f centres) n = Some p ->
        (connected (points_after masks m f centres) (edges_after masks m f) n -> nth_error (m_nodes m3) n = Some p) /\
        (~ connected (points_after masks m f centres) (edges_after masks m f) n -> nth_error (m_nodes m3) n = Some missing_point).
  Proof.
    intros I O A L Ht Hc Pl. destruct (casulli_ok order order_perm clockwise inside types m f centres I O A L Ht Hc Pl) as (masks & H1 & H2 & _ & a & m3 & f3 & R & T & St & Ad & Fin).
    exists masks, a, m3, f3. split; [exact H1|]. split; [exact H2|]. split; [exact R|]. split; [now apply reversible_of|]. split; [exact St|]. split; [exact Ad|]. exact Fin.
  Qed.
End Main.

(** The results on refinement in the form in which they are stated. *)
From Coq Require Import Permutation.
From Verif Require Import Base BaseLemmas FloatModel UtilModel UndoModel UndoSpec ActionModel ActionSpec ActionProofs MeshModel MeshSpec MeshProofs MeshAdj MeshUndo MeshEdits MeshFacts
  FaceModel FaceSpec FaceMain FaceUse FlipSpec ConvertModel FlipModel FlipFinal NodeTypeProofs SplitEffect
  RefineModel RefineSpec RefineProofs RefineSpread RefineSplit RefineHang RefineBrothers RefineMasks RefineWhole RefineExact RefineUniform.

Lemma spread_result m f br fm em cache : in_step m f -> at_most_six f -> length br = length (m_edges m) -> length fm = num_faces f -> length em = length (m_edges m) -> zero_or_one em ->
  exists d, spread m f br fm em cache = Ok d /\ length (d_faces d) = num_faces f /\ length (d_edges d) = length (m_edges m) /\ zero_or_one (d_edges d) /\ covers em (d_edges d) /\
    (forall i, value (d_faces d) i = value fm i \/
       (i < num_faces f /\ undecided fm i = true /\ value (d_faces d) i = (if (value fm i =? -1)%Z then -2 else 2)%Z /\ all_marked br (d_edges d) (edges_of f i))) /\
    (forall e, marked (d_edges d) e = true -> marked em e = true \/ exists i, i < num_faces f /\ value (d_faces d) i <> value fm i /\ In e (edges_of f i)) /\
    (forall em', covers em em' -> settled f br fm em' -> covers (d_edges d) em') /\
    (zeros em < max_spread -> settled f br fm (d_edges d)).
Proof.
  intros St A6 Hb Lf Le ZO. unfold spread. destruct (spread_rounds_ok m f br St A6 Hb max_spread (Spreading fm em cache 1)) as (d & -> & (F1 & F2 & F3) & (P1 & P2 & P3 & P4 & P5) & C); [split; [exact Lf|]; split; [exact Le|exact ZO]|].
  cbn [d_faces d_edges] in *. exists d. split; [reflexivity|]. split; [exact F1|]. split; [exact F2|]. split; [exact F3|]. split; [apply raised_covers; exact P1|]. split; [exact P3|]. split; [exact P4|]. split; [exact P5|].
  intros Hz i Hi U M. destruct (P3 i) as [Q|(_ & _ & _ & Q)]; [|exact Q]. exfalso. apply (C Hz i Hi); [|exact M]. unfold undecided in *. now rewrite Q.
Qed.

Section Reversible.
  Variable order : list point -> list edge -> nat -> list (option nat) -> list (option nat).
  Hypothesis order_perm : forall nodes edges n row, Permutation row (order nodes edges n row).
  Notation back := (reversible (restore_act (restore_leaf order)) (commit_act (commit_leaf order)) mesh_le).

  Lemma step_result centre m f em nm fm br : in_step m f -> at_most_six f -> length em = length (m_edges m) -> length nm = length (m_nodes m) -> length fm = num_faces f -> length br = length (m_edges m) ->
    only_sides f em ->
    exists a s, refine_faces order centre f br fm m nm em = Ok (a, s) /\ back a m (r_mesh s) /\ consistent (r_mesh s) /\ (exists ps, m_nodes (r_mesh s) = m_nodes m ++ ps) /\
      ((forall i, i < num_faces f -> marked fm i = true -> length (side_nodes m br em (nodes_of f i) (edges_of f i)) < 6) -> refined (centre m f) m f br fm em nm (r_mesh s) (r_nodes s)).
  Proof.
    intros St A6 Le Ln Lf Lb O. destruct (refine_faces_ok order centre m f St em nm fm br Le Ln Lf Lb A6) as (a & s & H & T & C & _ & P & _ & R); [intros e M; apply side_ends with (f := f); auto|].
    exists a, s. split; [exact H|]. split; [apply tree_reversible; exact T|]. split; [exact C|]. split; [exact P|]. intros K. apply R. intros i Hi (M & X). specialize (K i Hi M). lia.
  Qed.
  Lemma hanging_result m f br : in_step m f -> at_most_six f -> length br = length (m_edges m) ->
    (forall i, i < num_faces f -> connectable br (nodes_of f i) (edges_of f i)) ->
    exists a inner, connect_hanging order f br m = Ok (a, set_edges m (m_edges m ++ map pair_edge inner)) /\ thinned (fun p => neighbour m (fst p) (snd p)) (new_links f br) inner /\
      back a m (set_edges m (m_edges m ++ map pair_edge inner)) /\ consistent (set_edges m (m_edges m ++ map pair_edge inner)).
  Proof.
    intros St A6 Hb K. destruct (connect_hanging_ok order m f St A6 br Hb) as (H & _). destruct (H K) as (a & inner & H1 & H2 & H3 & H4). exists a, inner. split; [exact H1|]. split; [exact H2|]. split; [apply tree_reversible; exact H3|exact H4].
  Qed.
  Lemma hanging_refused m f br : in_step m f -> at_most_six f -> length br = length (m_edges m) ->
    ~ (forall i, i < num_faces f -> connectable br (nodes_of f i) (edges_of f i)) -> connect_hanging order f br m = Throw StdErr \/ connect_hanging order f br m = Throw ConstraintErr.
  Proof. intros St A6 Hb K. exact (proj2 (connect_hanging_ok order m f St A6 br Hb) K). Qed.
  Lemma whole_result clockwise centred centre selected : (forall m f, length (selected m f) = length (m_nodes m)) -> forall by_ levels connect m, consistent m ->
    match refine order clockwise centred centre selected by_ levels connect m with
    | Ok (a, m', f') => back a m m' /\ in_step m' f' /\ administrated m' /\ nodes_kept m m'
    | Throw e => e = AlgorithmErr \/ connect = true /\ (e = StdErr \/ e = ConstraintErr)
    | UB => ~ (levels <= 1 /\ exists small, by_ = BySize small)
    end.
  Proof.
    intros Ls by_ levels connect m Hc. pose proof (refine_whole order order_perm clockwise centred centre selected Ls by_ levels connect m Hc) as H.
    destruct (refine _ _ _ _ _ _ _ _ _) as [((a & m') & f')|e|]; [|exact H|exact H]. destruct H as (T & R). split; [apply tree_reversible; exact T|exact R].
  Qed.
End Reversible.

Lemma settle_result m f br fm em cache : in_step m f -> at_most_six f -> length br = length (m_edges m) -> length fm = num_faces f -> length em = length (m_edges m) -> only_sides f em ->
  match settle f br fm cache em with
  | Ok em' => length em' = length (m_edges m) /\ only_sides f em' /\ zero_or_one em' /\ (forall e, value em e = 1%Z -> value em' e = 1%Z) /\
      (forall e, value em' e = 1%Z -> value em e = 1%Z \/ exists i, i < num_faces f /\ marked fm i = true /\ In e (edges_of f i)) /\
      forall i, i < num_faces f -> marked fm i = true ->
        (length (edges_of f i) <> 4 + count_true cache -> forall j, j < length (edges_of f i) -> on_its_own br (edges_of f i) j = true -> value em' (item (edges_of f i) j) = 1%Z) /\
        (length (edges_of f i) = 4 + count_true cache -> (forall j, with_next br (edges_of f i) j = false) ->
           forall j, j < length (edges_of f i) -> value em (item (edges_of f i) j) = (-1)%Z -> value em' (item (edges_of f i) j) = 1%Z)
  | Throw e => e = AlgorithmErr
  | UB => count_true cache <> 0
  end.
Proof.
  intros St A6 Hb Lf Le O. pose proof (settle_ok m f br fm em cache St A6 Hb Lf (conj Le O)) as H. destruct (settle f br fm cache em); cbn [sound] in H; [|exact H|exact H].
  destruct H as ((H1 & H2) & H3 & H4 & H5 & H6). split; [exact H1|]. split; [exact H2|]. split; [exact H3|]. split; [exact H4|]. split; [exact H5|]. exact H6.
Qed.

Lemma directional_throws m f br wanted times cache : in_step m f -> at_most_six f -> length br = length (m_edges m) -> masks_from_samples wanted true times m f br cache = Throw AlgorithmErr.
Proof.
  intros St A6 Hb. unfold masks_from_samples. match goal with |- (let! x := fold_out ?g ?l ?a in _) = _ => assert (X : exists x, fold_out g l a = Ok x) end.
  { match goal with |- exists x, fold_out ?g ?l ?a = Ok x => destruct (fold_total (fun x : list Z * list Z * list bool => length (fst (fst x)) = length (m_edges m) /\ length (snd (fst x)) = num_faces f) g l a) as (x & Hx & _) end.
    - cbn. rewrite !repeat_length. auto.
    - intros ((em & fm) & c) i Hi (G & L). cbn [fst snd] in *. apply in_seq in Hi. assert (Hi' : i < num_faces f) by lia. destruct (face_read m f St A6 br Hb i Hi') as (R1 & R2 & R3 & R4 & R5 & R6).
      destruct (find_hanging_ok m f St A6 br Hb m i) as (h1 & h2 & H & _); [split; [apply Nat.le_refl|reflexivity]|exact Hi'|]. rewrite H. cbn [bind fst snd]. destruct (fst (wanted h1 i)); [|eexists; split; [reflexivity|]; auto].
      rewrite vset_lt by lia. cbn [bind]. rewrite R1, R3. cbn [bind].
      match goal with |- exists a, (let! em := fold_out ?g ?l ?a0 in _) = _ /\ _ => destruct (fold_total (fun em : list Z => length em = length (m_edges m)) g l a0 G) as (em2 & -> & G2) end.
      { intros em1 n Hn G1. apply in_seq in Hn. destruct (snd (wanted h1 i) n); [|eauto]. rewrite item_at by lia. cbn [bind]. destruct (face_edges_in m f St A6 br Hb i n Hi') as (He & _). rewrite vset_lt by lia. eexists. split; [reflexivity|]. now rewrite set_nth_length. }
      cbn [bind]. eexists. split; [reflexivity|]. cbn [fst snd]. rewrite set_nth_length. auto.
    - eauto. }
  destruct X as (((em & fm) & c) & ->). reflexivity.
Qed.

Lemma no_brothers (m : mesh) : length (repeat (@None nat) (length (m_edges m))) = length (m_edges m).
Proof. apply repeat_length. Qed.
Lemma size_result m f small : in_step m f -> at_most_six f ->
  exists em fm, masks_from_size m f small = Ok (em, fm) /\ length em = length (m_edges m) /\ length fm = num_faces f /\
    (forall e, value em e = if side_of f e && negb (small e) then (-1)%Z else 0%Z) /\
    (forall i, i < num_faces f -> value fm i = if existsb (fun e => negb (small e)) (edges_of f i) then 1%Z else 0%Z).
Proof. intros St A6. exact (from_size_exact m f St A6 _ (no_brothers m) small). Qed.
Lemma perimeter_result m f nm : in_step m f -> at_most_six f -> length nm = length (m_nodes m) ->
  exists nm', perimeter f nm = Ok nm' /\ length nm' = length (m_nodes m) /\ forall n, value nm' n = if (value nm n =? 1)%Z && at_border f nm n then (-2)%Z else value nm n.
Proof. intros St A6. exact (perimeter_exact m f St A6 _ (no_brothers m) nm). Qed.
Lemma limit_result m f first nm fm : in_step m f -> at_most_six f -> length nm = length (m_nodes m) -> length fm = num_faces f ->
  exists fm', limit_faces first f nm fm = Ok fm' /\ length fm' = num_faces f /\ forall i, i < num_faces f -> value fm' i = if takes_part first nm (nodes_of f i) then value fm i else 0%Z.
Proof. intros St A6. exact (limit_exact m f St A6 _ (no_brothers m) first nm fm). Qed.

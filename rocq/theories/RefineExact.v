(** The masks, exactly. *)
From Verif Require Import Base BaseLemmas FloatModel UtilModel UndoModel ActionModel MeshModel MeshSpec MeshProofs MeshEdits FaceModel FaceSpec FlipSpec ConvertModel FlipModel NodeTypeProofs
  RefineModel RefineSpec RefineProofs RefineSpread RefineMasks.

Lemma existsb_seq_S P n : existsb P (seq 0 (S n)) = existsb P (seq 0 n) || P n.
Proof. rewrite seq_S, existsb_app. cbn. now rewrite orb_false_r. Qed.
Lemma existsb_map_item {P : nat -> bool} l : existsb P l = existsb (fun j => P (item l j)) (seq 0 (length l)).
Proof. rewrite (as_items l) at 1. generalize (seq 0 (length l)). intros s. induction s as [|j s IH]; cbn; [reflexivity|]. now rewrite IH. Qed.

Section Exact.
  Variables (m : mesh) (f : faces).
  Hypothesis St : in_step m f.
  Hypothesis A6 : at_most_six f.
  Variable br : list (option nat).
  Hypothesis Hb : length br = length (m_edges m).
  Local Notation N := (length (m_nodes m)).
  Local Notation E := (length (m_edges m)).

  Lemma from_size_exact small : exists em fm, masks_from_size m f small = Ok (em, fm) /\ length em = E /\ length fm = num_faces f /\
    (forall e, value em e = if side_of f e && negb (small e) then (-1)%Z else 0%Z) /\
    (forall i, i < num_faces f -> value fm i = if existsb (fun e => negb (small e)) (edges_of f i) then 1%Z else 0%Z).
  Proof.
    pose (P := fun n (st : list Z * list Z) => length (fst st) = E /\ length (snd st) = num_faces f /\
      (forall e, value (fst st) e = if existsb (fun i => existsb (Nat.eqb e) (edges_of f i)) (seq 0 n) && negb (small e) then (-1)%Z else 0%Z) /\
      (forall i, value (snd st) i = if (i <? n) && existsb (fun e => negb (small e)) (edges_of f i) then 1%Z else 0%Z)).
    unfold masks_from_size.
    match goal with |- exists em fm, fold_out ?g _ ?a = _ /\ _ => destruct (fold_range P g (num_faces f) a) as ((em & fm) & -> & L1 & L2 & V1 & V2) end.
    - split; [apply repeat_length|]. split; [apply repeat_length|]. cbn. unfold value. split; intros; now rewrite nth_repeat.
    - intros n (em & fm) Hn (L1 & L2 & V1 & V2). cbn [fst snd] in *. destruct (face_read m f St A6 br Hb n Hn) as (R1 & R2 & R3 & R4 & R5 & R6). rewrite R1, R3. cbn [bind]. set (es := edges_of f n) in *.
      pose (P' := fun k (st : list Z * list Z) => length (fst st) = E /\ length (snd st) = num_faces f /\
        (forall e, value (fst st) e = if (existsb (fun i => existsb (Nat.eqb e) (edges_of f i)) (seq 0 n) || existsb (fun j => e =? item es j) (seq 0 k)) && negb (small e) then (-1)%Z else 0%Z) /\
        (forall i, value (snd st) i = if ((i <? n) && existsb (fun e => negb (small e)) (edges_of f i)) || ((i =? n) && existsb (fun j => negb (small (item es j))) (seq 0 k)) then 1%Z else 0%Z)).
      match goal with |- exists a, fold_out ?g _ ?a0 = _ /\ _ => destruct (fold_range P' g (length es) a0) as ((em' & fm') & -> & L1' & L2' & V1' & V2') end.
      + split; [exact L1|]. split; [exact L2|]. split; [intros e; cbn [fst seq existsb]; rewrite orb_false_r; apply V1|]. intros i. cbn [snd seq existsb]. rewrite andb_false_r, orb_false_r. apply V2.
      + intros k (em1 & fm1) Hk (K1 & K2 & W1 & W2). cbn [fst snd] in *. rewrite item_at by exact Hk. cbn [bind]. destruct (face_edges_in m f St A6 br Hb n k Hn) as (He & _). fold es in He.
        destruct (Nat.leb_spec E (item es k)); [lia|]. destruct (small (item es k)) eqn:Sm.
        * exists (em1, fm1). split; [reflexivity|]. split; [exact K1|]. split; [exact K2|]. cbn [fst snd]. split.
          -- intros e. rewrite W1, existsb_seq_S. destruct (Nat.eqb_spec e (item es k)) as [->|]; [rewrite Sm, !andb_false_r; reflexivity|now rewrite orb_false_r].
          -- intros i. rewrite W2, existsb_seq_S, Sm. cbn [negb]. now rewrite orb_false_r.
        * rewrite vset_lt by lia. cbn [bind]. rewrite vset_lt by lia. cbn [bind]. eexists. split; [reflexivity|]. split; [cbn; now rewrite set_nth_length|]. split; [cbn; now rewrite set_nth_length|]. cbn [fst snd]. split.
          -- intros e. rewrite value_set by lia. rewrite existsb_seq_S. destruct (Nat.eqb_spec e (item es k)) as [->|]; [rewrite Sm, !orb_true_r; reflexivity|]. rewrite orb_false_r. apply W1.
          -- intros i. rewrite value_set by lia. rewrite existsb_seq_S, Sm. cbn [negb]. rewrite orb_true_r, andb_true_r. destruct (Nat.eqb_spec i n) as [->|]; [now rewrite orb_true_r|]. rewrite W2, (proj2 (Nat.eqb_neq i n)) by assumption. reflexivity.
      + exists (em', fm'). split; [reflexivity|]. split; [exact L1'|]. split; [exact L2'|]. cbn [fst snd]. split.
        * intros e. rewrite V1'. rewrite existsb_seq_S. fold es. now rewrite (existsb_map_item es).
        * intros i. rewrite V2'. rewrite <- (existsb_map_item (P := fun e => negb (small e)) es). destruct (Nat.eqb_spec i n) as [->|Q].
          -- rewrite Nat.ltb_irrefl. rewrite (proj2 (Nat.ltb_lt n (S n))) by lia. reflexivity.
          -- rewrite orb_false_r. replace (i <? S n) with (i <? n); [reflexivity|]. destruct (Nat.ltb_spec i n), (Nat.ltb_spec i (S n)); lia.
    - exists em, fm. split; [reflexivity|]. split; [exact L1|]. split; [exact L2|]. split; [exact V1|]. intros i Hi. cbn [snd] in V2. rewrite V2. now rewrite (proj2 (Nat.ltb_lt i _) Hi).
  Qed.

  Lemma limit_exact first nm fm : length nm = N -> length fm = num_faces f ->
    exists fm', limit_faces first f nm fm = Ok fm' /\ length fm' = num_faces f /\ forall i, i < num_faces f -> value fm' i = if takes_part first nm (nodes_of f i) then value fm i else 0%Z.
  Proof.
    intros Ln L. unfold limit_faces.
    match goal with |- exists a, fold_out ?g _ ?a0 = _ /\ _ => destruct (fold_range (fun n fm' => length fm' = num_faces f /\ forall i, value fm' i = if (n <=? i) || takes_part first nm (nodes_of f i) then value fm i else 0%Z) g (num_faces f) a0) as (fm' & -> & L' & V) end.
    - split; [exact L|]. intros i. reflexivity.
    - intros n fm1 Hn (L1 & V1). destruct (face_read m f St A6 br Hb n Hn) as (R1 & R2 & R3 & R4 & R5 & R6). rewrite R1, R2. cbn [bind]. rewrite <- R4, firstn_all.
      rewrite (read_all_ok nm 0%Z) by (intros x Hx; rewrite Ln; eapply face_nodes_in; eauto). cbn [bind].
      assert (Keep : (if first then existsb (fun v => negb (v =? 0)%Z && negb (v =? -2)%Z) (map (fun i => nth i nm 0%Z) (nodes_of f n)) else negb (existsb (fun v => negb (v =? 1)%Z) (map (fun i => nth i nm 0%Z) (nodes_of f n)))) = takes_part first nm (nodes_of f n)).
      { unfold takes_part. clear. induction (nodes_of f n) as [|a l IH]; cbn; [now destruct first|]. destruct first; [now rewrite IH|]. rewrite negb_orb, negb_involutive. now rewrite IH. }
      rewrite Keep. destruct (takes_part first nm (nodes_of f n)) eqn:T.
      + exists fm1. split; [reflexivity|]. split; [exact L1|]. intros i. rewrite V1. destruct (Nat.eq_dec i n) as [->|]; [now rewrite T, !orb_true_r|]. destruct (Nat.leb_spec n i), (Nat.leb_spec (S n) i); try lia; reflexivity.
      + rewrite vset_lt by lia. eexists. split; [reflexivity|]. split; [now rewrite set_nth_length|]. intros i. rewrite value_set by lia. destruct (Nat.eqb_spec i n) as [->|].
        * rewrite T, orb_false_r. destruct (Nat.leb_spec (S n) n); [lia|reflexivity].
        * rewrite V1. destruct (Nat.leb_spec n i), (Nat.leb_spec (S n) i); try lia; reflexivity.
    - exists fm'. split; [reflexivity|]. split; [exact L'|]. intros i Hi. rewrite V. now rewrite (proj2 (Nat.leb_gt _ i) Hi).
  Qed.

  Lemma perimeter_exact nm : length nm = N -> exists nm', perimeter f nm = Ok nm' /\ length nm' = N /\
    forall n, value nm' n = if (value nm n =? 1)%Z && at_border f nm n then (-2)%Z else value nm n.
  Proof.
    intros L. unfold perimeter.
    pose (B := fun k n => existsb (fun i => existsb (Nat.eqb n) (nodes_of f i) && existsb (fun n' => (value nm n' =? 0)%Z) (nodes_of f i)) (seq 0 k)).
    match goal with |- exists a, fold_out ?g _ ?a0 = _ /\ _ => destruct (fold_range (fun k nm' => length nm' = N /\ forall n, value nm' n = if (value nm n =? 1)%Z && B k n then (-2)%Z else value nm n) g (num_faces f) a0) as (nm' & -> & L' & V) end.
    - split; [exact L|]. intros n. now rewrite andb_false_r.
    - intros i nm1 Hi (L1 & V1). destruct (face_read m f St A6 br Hb i Hi) as (R1 & R2 & R3 & R4 & R5 & R6). rewrite R1, R2. cbn [bind]. rewrite <- R4, firstn_all.
      rewrite (read_all_ok nm1 0%Z) by (intros x Hx; rewrite L1; eapply face_nodes_in; eauto). cbn [bind].
      assert (Z0 : forall n, (value nm1 n =? 0)%Z = (value nm n =? 0)%Z).
      { intros n. rewrite V1. destruct (Z.eqb_spec (value nm n) 1) as [->|]; cbn [andb]; [destruct (B i n); reflexivity|reflexivity]. }
      assert (Ex : existsb (fun v => (v =? 0)%Z) (map (fun i => nth i nm1 0%Z) (nodes_of f i)) = existsb (fun n' => (value nm n' =? 0)%Z) (nodes_of f i)).
      { generalize (nodes_of f i). intros l. induction l as [|a l IH]; cbn; [reflexivity|]. rewrite IH. f_equal. apply Z0. }
      rewrite Ex. assert (BS : forall n, B (S i) n = B i n || (existsb (Nat.eqb n) (nodes_of f i) && existsb (fun n' => (value nm n' =? 0)%Z) (nodes_of f i))) by (intros n; apply existsb_seq_S).
      destruct (existsb (fun n' => (value nm n' =? 0)%Z) (nodes_of f i)) eqn:X.
      + assert (G : forall l nm2, (forall n, In n l -> n < N) -> length nm2 = N -> exists nm3,
          fold_out (fun nodes n => let! v := vget nodes n in if (v =? 1)%Z then vset n (-2)%Z nodes else Ok nodes) l nm2 = Ok nm3 /\ length nm3 = N /\
          forall n, value nm3 n = if (value nm2 n =? 1)%Z && existsb (Nat.eqb n) l then (-2)%Z else value nm2 n).
        { induction l as [|a l IH]; intros nm2 Hl L2; cbn [fold_out]; [exists nm2; split; [reflexivity|]; split; [exact L2|]; intros n; now rewrite andb_false_r|].
          assert (Ha : a < N) by (apply Hl; now left). rewrite value_get by lia. cbn [bind]. destruct (Z.eqb_spec (value nm2 a) 1) as [Q|Q].
          - rewrite vset_lt by lia. cbn [bind]. destruct (IH (set_nth a (-2)%Z nm2)) as (nm3 & -> & L3 & V3); [intros; apply Hl; now right|now rewrite set_nth_length|]. exists nm3. split; [reflexivity|]. split; [exact L3|].
            intros n. rewrite V3, value_set by lia. cbn [existsb]. destruct (Nat.eqb_spec n a) as [->|]; [rewrite Q; reflexivity|reflexivity].
          - cbn [bind]. destruct (IH nm2) as (nm3 & -> & L3 & V3); [intros; apply Hl; now right|exact L2|]. exists nm3. split; [reflexivity|]. split; [exact L3|].
            intros n. rewrite V3. cbn [existsb]. destruct (Nat.eqb_spec n a) as [->|]; [|reflexivity]. rewrite (proj2 (Z.eqb_neq _ _) Q). reflexivity. }
        destruct (G (nodes_of f i) nm1) as (nm2 & -> & L2 & V2); [intros n Hn; eapply face_nodes_in; eauto|exact L1|]. exists nm2. split; [reflexivity|]. split; [exact L2|].
        intros n. rewrite V2, V1, BS. rewrite andb_true_r. destruct (Z.eqb_spec (value nm n) 1) as [Q|Q]; cbn [andb].
        * destruct (B i n); cbn [orb]; [reflexivity|]. rewrite Q. reflexivity.
        * rewrite (proj2 (Z.eqb_neq _ _) Q). reflexivity.
      + exists nm1. split; [reflexivity|]. split; [exact L1|]. intros n. rewrite V1, BS, andb_false_r, orb_false_r. reflexivity.
    - exists nm'. split; [reflexivity|]. split; [exact L'|exact V].
  Qed.
End Exact.

(** Concrete meshes for the Casulli refinement. *)
From Verif Require Import Base BaseLemmas FloatModel FloatProofs ActionModel MeshModel MeshSpec MeshWitness FaceModel FaceSpec FaceUseMain FlipModel FlipSpec NodeTypeModel NodeTypeSpec NodeTypeProofs SplitWitness RefineWitness
  CasulliModel CasulliSpec CasulliWalk CasulliMask CasulliTable.

(** *** Conditions decided *)
Definition orientedb (f : faces) : bool :=
  forallb (fun i => forallb (fun k =>
    match cyclic (nth i (faces_nodes f) []) k, cyclic (nth i (faces_nodes f) []) (S k), cyclic (nth i (faces_edges f) []) k with
    | Some a, Some b, Some e => forallb (fun j => (i =? j) || negb (goes f j a b e)) (seq 0 (num_faces f))
    | _, _, _ => true
    end) (seq 0 (length (nth i (faces_nodes f) [])))) (seq 0 (num_faces f)).
Lemma orientedb_ok m f : in_step m f -> orientedb f = true -> oriented f.
Proof.
  intros I H i j a b e Wi Wj. destruct (walks_facts m f I _ _ _ _ Wi) as (_ & _ & _ & _ & _ & Li). destruct (walks_facts m f I _ _ _ _ Wj) as (_ & _ & _ & _ & _ & Lj).
  pose proof (lists_lt m f I i e Li) as (Bi & _). pose proof (lists_lt m f I j e Lj) as (Bj & _). apply (goes_ok m f i a b e I) in Wi. apply (goes_ok m f j a b e I) in Wj.
  unfold goes in Wi. apply existsb_exists in Wi as (k & Hk & Q). unfold orientedb in H. rewrite forallb_forall in H. specialize (H i ltac:(apply in_seq; lia)). rewrite forallb_forall in H. specialize (H k Hk).
  destruct (cyclic (nth i (faces_nodes f) []) k) as [a'|], (cyclic (nth i (faces_nodes f) []) (S k)) as [b'|], (cyclic (nth i (faces_edges f) []) k) as [e'|]; try discriminate.
  apply andb_true_iff in Q as (Q & Q3). apply andb_true_iff in Q as (Q1 & Q2). apply Nat.eqb_eq in Q1, Q2, Q3. subst a' b' e'. rewrite forallb_forall in H. specialize (H j ltac:(apply in_seq; lia)). rewrite Wj in H. cbn in H. rewrite orb_false_r in H. now apply Nat.eqb_eq.
Qed.
Definition apartb (f : faces) : bool :=
  forallb (fun i => forallb (fun j => (i =? j) || (length (filter (fun e => has_edge f e j) (nth i (faces_edges f) [])) <=? 1)) (seq 0 (num_faces f))) (seq 0 (num_faces f)).
Lemma apartb_ok m f : in_step m f -> apartb f = true -> apart f.
Proof.
  intros I H i j e e' D L1 L2 L3 L4. pose proof (lists_lt m f I i e L1) as (Bi & _). pose proof (lists_lt m f I j e L3) as (Bj & _). unfold apartb in H. rewrite forallb_forall in H. specialize (H i ltac:(apply in_seq; lia)). rewrite forallb_forall in H. specialize (H j ltac:(apply in_seq; lia)).
  apply orb_true_iff in H as [H|H]; [now apply Nat.eqb_eq|]. exfalso. apply Nat.leb_le in H. destruct L1 as (es & Es & I1), L2 as (es' & Es' & I2). rewrite Es in Es'. injection Es' as <-. rewrite (nth_error_nth _ _ _ Es) in H.
  assert (X : length [e; e'] <= length (filter (fun e => has_edge f e j) es)).
  { apply NoDup_incl_length; [repeat constructor; cbn; intuition|]. intros x [<-|[<-|[]]]; apply filter_In; (split; [assumption|]); now apply has_edge_ok. }
  cbn in X. lia.
Qed.
Definition none_looseb (m : mesh) (f : faces) : bool :=
  forallb (fun row => forallb (fun oe => match oe with Some e => existsb (has_edge f e) (seq 0 (num_faces f)) | None => true end) row) (m_nodesEdges m).
Lemma none_looseb_ok m f : none_looseb m f = true -> none_loose m f.
Proof.
  intros H n e Hin. unfold row_of in Hin. destruct (nth_in_or_default n (m_nodesEdges m) []) as [Z|Z]; [|rewrite Z in Hin; easy]. unfold none_looseb in H. rewrite forallb_forall in H. specialize (H _ Z). rewrite forallb_forall in H. specialize (H _ Hin). cbn in H.
  apply existsb_exists in H as (i & _ & H). exists i. now apply has_edge_ok.
Qed.
Definition fit (m : mesh) (f : faces) : Prop := in_step m f /\ oriented f /\ apart f /\ none_loose m f /\ length (m_edges m) <= 3 * length (m_nodes m).
Definition fitb (m : mesh) (f : faces) : bool := orientedb f && apartb f && none_looseb m f && (length (m_edges m) <=? 3 * length (m_nodes m)).
Lemma fit_facts nodes edges : well_indexedb nodes edges = true ->
  administrate2d angle_order shoelace_sign (fst (searched nodes edges)) = Ok (fst (searched nodes edges), snd (searched nodes edges)) ->
  at_most_sixb (snd (searched nodes edges)) = true -> fitb (fst (searched nodes edges)) (snd (searched nodes edges)) = true -> fit (fst (searched nodes edges)) (snd (searched nodes edges)).
Proof.
  intros H1 H2 H3. destruct (start_facts nodes edges H1 H2 H3) as (_ & _ & I & _). unfold fitb. intros H. apply andb_true_iff in H as (H & B4). apply andb_true_iff in H as (H & B3). apply andb_true_iff in H as (B1 & B2).
  split; [exact I|]. split; [exact (orientedb_ok _ _ I B1)|]. split; [exact (apartb_ok _ _ I B2)|]. split; [exact (none_looseb_ok _ _ B3)|]. now apply Nat.leb_le.
Qed.

(** *** What the functions are given in the examples *)
(** Whether the angle at [p] between the directions to [x] and [y] is at most a right one *)
Definition sharp (_ : projection) (p x y : point) : bool :=
  let dx1 := fsub (px x) (px p) in let dy1 := fsub (py x) (py p) in let dx2 := fsub (px y) (px p) in let dy2 := fsub (py y) (py p) in
  SFleb (double_of 0 0) (fadd (fmul dx1 dx2) (fmul dy1 dy2)).
Definition types_of (m : mesh) (f : faces) : list Z := match classify sharp m f with Ok t => t | _ => [] end.
Definition centres_of (m : mesh) (f : faces) : list point := map (centre_mean m f) (seq 0 (num_faces f)).
Definition shown_mask (inside : point -> bool) (r : mesh * faces) : outcome (list mask) :=
  let! l := node_mask inside (types_of (fst r) (snd r)) (fst r) (snd r) in Ok (firstn (length (m_nodes (fst r))) l).
Definition shown_grown (inside : point -> bool) (r : mesh * faces) : outcome (nat * list edge) :=
  let! x := grow_casulli angle_order inside (types_of (fst r) (snd r)) (centres_of (fst r) (snd r)) (snd r) (fst r) in
  let '(_, m1, _) := x in Ok (length (m_nodes m1), skipn (length (m_edges (fst r))) (m_edges m1)).
Definition there (e : edge) : bool := match e with (Some _, Some _) => true | _ => false end.
Definition shown_refined (inside : point -> bool) (r : mesh * faces) : outcome (list edge * list (list nat)) :=
  let! x := casulli angle_order shoelace_sign inside (types_of (fst r) (snd r)) (centres_of (fst r) (snd r)) (snd r) (fst r) in
  let '(_, m1, f1) := x in Ok (filter there (m_edges m1), faces_nodes f1).
Definition all_in (_ : point) : bool := true.
Definition west (p : point) : bool := SFltb (px p) (double_of 12 0).
Definition block (n k : nat) : list point := map (fun i => pt (Z.of_nat (8 * (i mod (S n)))) (Z.of_nat (8 * (i / (S n))))) (seq 0 (S n * S k)).
Definition block_edges (n k : nat) : list edge :=
  flat_map (fun j => flat_map (fun i => let a := j * S n + i in (if i <? n then [(Some a, Some (S a))] else []) ++ (if j <? k then [(Some a, Some (a + S n))] else [])) (seq 0 (S n))) (seq 0 (S k)).

(** Two by two quadrilaterals; two by three, the two western ones refined. *)
Definition four : mesh * faces := searched (block 2 2) (block_edges 2 2).
Lemma four_fit : fit (fst four) (snd four).
Proof. apply fit_facts; vm_compute; reflexivity. Qed.
Lemma four_data : length (types_of (fst four) (snd four)) = length (m_nodes (fst four)) /\ length (centres_of (fst four) (snd four)) = num_faces (snd four).
Proof. vm_compute. auto. Qed.
Definition six_faces : mesh * faces := searched (block 3 2) (block_edges 3 2).
Lemma six_fit : fit (fst six_faces) (snd six_faces).
Proof. apply fit_facts; vm_compute; reflexivity. Qed.
Lemma six_data : length (types_of (fst six_faces) (snd six_faces)) = length (m_nodes (fst six_faces)) /\ length (centres_of (fst six_faces) (snd six_faces)) = num_faces (snd six_faces).
Proof. vm_compute. auto. Qed.
Lemma four_mask : shown_mask all_in four = Ok [Corner; Boundary; Corner; Boundary; Registered; Boundary; Corner; Boundary; Corner].
Proof. vm_compute. reflexivity. Qed.
Lemma four_refined : option_map snd (match shown_refined all_in four with Ok r => Some r | _ => None end) =
  Some [[0; 25; 9; 27]; [2; 31; 14; 30]; [6; 34; 20; 37]; [8; 40; 23; 36]; [9; 10; 11; 12]; [9; 12; 28; 27]; [9; 25; 26; 10]; [10; 13; 16; 11]; [10; 26; 29; 13];
        [11; 16; 21; 18]; [11; 18; 17; 12]; [12; 17; 33; 28]; [13; 14; 15; 16]; [13; 29; 30; 14]; [14; 31; 32; 15]; [15; 32; 35; 22]; [15; 22; 21; 16]; [17; 18; 19; 20];
        [17; 20; 34; 33]; [18; 21; 24; 19]; [19; 24; 39; 38]; [19; 38; 37; 20]; [21; 22; 23; 24]; [22; 35; 36; 23]; [23; 40; 39; 24]].
Proof. vm_compute. reflexivity. Qed.
Lemma six_mask : shown_mask west six_faces = Ok [Corner; Boundary; Unassigned; Unassigned; Boundary; Registered; Unassigned; Unassigned; Corner; Boundary; Unassigned; Unassigned].
Proof. vm_compute. reflexivity. Qed.
Lemma six_grown : shown_grown west six_faces = Ok (34, links_between
  [(24, 25); (12, 13); (24, 12); (25, 13); (12, 15); (26, 27); (12, 26); (15, 27); (28, 2); (16, 2); (28, 16); (16, 17); (13, 14); (16, 13); (17, 14); (15, 14); (18, 19); (15, 18); (14, 19); (18, 21);
   (29, 30); (18, 29); (21, 30); (17, 6); (22, 6); (17, 22); (22, 23); (19, 20); (22, 19); (23, 20); (21, 20); (31, 32); (21, 31); (20, 32); (23, 10); (33, 10); (23, 33); (0, 24); (0, 26); (1, 16);
   (1, 13); (28, 25); (4, 15); (4, 18); (29, 27); (8, 31); (8, 30); (9, 23); (9, 20); (33, 32)]).
Proof. vm_compute. reflexivity. Qed.
Lemma six_refined : option_map snd (match shown_refined west six_faces with Ok r => Some r | _ => None end) =
  Some [[2; 16; 28]; [6; 22; 17]; [10; 33; 23]; [0; 24; 12; 26]; [2; 3; 7; 6]; [2; 6; 17; 16]; [6; 7; 11; 10]; [6; 10; 23; 22]; [8; 30; 21; 31]; [12; 13; 14; 15]; [12; 15; 27; 26]; [12; 24; 25; 13];
        [13; 16; 17; 14]; [13; 25; 28; 16]; [14; 17; 22; 19]; [14; 19; 18; 15]; [15; 18; 29; 27]; [18; 19; 20; 21]; [18; 21; 30; 29]; [19; 22; 23; 20]; [20; 23; 33; 32]; [20; 32; 31; 21]].
Proof. vm_compute. reflexivity. Qed.

(** *** Where it goes wrong *)
(** An edge without a face at a node of the boundary. *)
Definition spur : mesh * faces := searched (block 2 1 ++ [pt 8 40]) (block_edges 2 1 ++ links_between [(4, 6)]).
Lemma spur_fails : exists m f types centres, in_step m f /\ oriented f /\ apart f /\ length types = length (m_nodes m) /\ length centres = num_faces f /\ length (m_edges m) <= 3 * length (m_nodes m) /\
  casulli angle_order shoelace_sign all_in types centres f m = Throw ConstraintErr.
Proof.
  assert (S : RefineWitness.start_ok (block 2 1 ++ [pt 8 40]) (block_edges 2 1 ++ links_between [(4, 6)])) by (apply start_facts; vm_compute; reflexivity). destruct S as (_ & _ & I & _). fold spur in I.
  assert (B1 : orientedb (snd spur) = true) by (vm_compute; reflexivity). assert (B2 : apartb (snd spur) = true) by (vm_compute; reflexivity).
  exists (fst spur), (snd spur), (types_of (fst spur) (snd spur)), (centres_of (fst spur) (snd spur)). split; [exact I|]. split; [exact (orientedb_ok _ _ I B1)|]. split; [exact (apartb_ok _ _ I B2)|].
  split; [vm_compute; reflexivity|]. split; [vm_compute; reflexivity|]. split; [apply Nat.leb_le; vm_compute; reflexivity|]. vm_compute. reflexivity.
Qed.
(** Two fans of faces that meet at a node with five edges: it is joined to the same node twice. *)
Definition fans : mesh * faces := searched [pt 0 0; pt 8 0; pt 8 8; pt 0 8; pt (-8) 8; pt (-8) 0; pt (-4) (-8); pt 4 (-8)] (links_between [(0, 1); (1, 2); (2, 3); (3, 0); (3, 4); (4, 5); (5, 0); (0, 6); (6, 7); (7, 0)]).
Lemma fans_fit : fit (fst fans) (snd fans) /\ length (types_of (fst fans) (snd fans)) = length (m_nodes (fst fans)) /\ length (centres_of (fst fans) (snd fans)) = num_faces (snd fans).
Proof. split; [apply fit_facts; vm_compute; reflexivity|vm_compute; auto]. Qed.
Fixpoint twice_in (l : list edge) : bool := match l with [] => false | e :: t => existsb (fun x => eq_idx (fst x) (fst e) && eq_idx (snd x) (snd e) && there e) t || twice_in t end.
Lemma twice_in_ok l : twice_in l = true -> exists i j a b, i < j /\ nth_error l i = Some (Some a, Some b) /\ nth_error l j = Some (Some a, Some b).
Proof.
  induction l as [|e l IH]; cbn; [discriminate|]. intros H. apply orb_true_iff in H as [H|H].
  - apply existsb_exists in H as ((x1 & x2) & Hx & Q). apply andb_true_iff in Q as (Q & Q3). apply andb_true_iff in Q as (Q1 & Q2). destruct e as ([a|] & [b|]); try discriminate. destruct x1 as [u|]; [|discriminate]. destruct x2 as [v|]; [|discriminate]. cbn in Q1, Q2.
    apply Nat.eqb_eq in Q1, Q2. subst u v. apply In_nth_error in Hx as (j & Hj). exists 0, (S j), a, b. split; [lia|]. split; [reflexivity|exact Hj].
  - destruct (IH H) as (i & j & a & b & H1 & H2 & H3). exists (S i), (S j), a, b. split; [lia|]. auto.
Qed.
Lemma fans_twice : exists m f types centres, in_step m f /\ oriented f /\ apart f /\ none_loose m f /\ length types = length (m_nodes m) /\ length centres = num_faces f /\ length (m_edges m) <= 3 * length (m_nodes m) /\
  exists a m3 f3 i j x y, casulli angle_order shoelace_sign all_in types centres f m = Ok (a, m3, f3) /\ i < j /\ nth_error (m_edges m3) i = Some (Some x, Some y) /\ nth_error (m_edges m3) j = Some (Some x, Some y).
Proof.
  destruct fans_fit as ((H1 & H2 & H3 & H4 & H5) & H6 & H7). exists (fst fans), (snd fans), (types_of (fst fans) (snd fans)), (centres_of (fst fans) (snd fans)). repeat (split; [assumption|]).
  assert (X : exists r, casulli angle_order shoelace_sign all_in (types_of (fst fans) (snd fans)) (centres_of (fst fans) (snd fans)) (snd fans) (fst fans) = Ok r /\ twice_in (m_edges (snd (fst r))) = true).
  { assert (Y : match casulli angle_order shoelace_sign all_in (types_of (fst fans) (snd fans)) (centres_of (fst fans) (snd fans)) (snd fans) (fst fans) with Ok r => twice_in (m_edges (snd (fst r))) | _ => false end = true) by (vm_compute; reflexivity).
    destruct (casulli _ _ _ _ _ _ _) as [r| |]; try discriminate Y. exists r. auto. }
  destruct X as (((a & m3) & f3) & E & T). destruct (twice_in_ok _ T) as (i & j & x & y & T1 & T2 & T3). exists a, m3, f3, i, j, x, y. auto.
Qed.
(** Two faces with two edges in common: a new node of the second one is joined to nothing. *)
Definition bend : mesh * faces := searched [pt 0 0; pt 8 0; pt 12 8; pt 8 16; pt 0 16; pt 24 0; pt 24 16] (links_between [(0, 1); (1, 2); (2, 3); (3, 4); (4, 0); (1, 5); (5, 6); (6, 3)]).
Definition lostb (m : mesh) (f : faces) (types : list Z) (centres : list point) (n : nat) : bool :=
  match node_mask all_in types m f, grow_casulli angle_order all_in types centres f m with
  | Ok masks, Ok (acts, m1, _) => (length (m_nodes m) <=? n) && (n <? length (m_nodes m) + length (corners masks f)) && forallb (fun e => negb (eq_idx (fst e) (Some n)) && negb (eq_idx (snd e) (Some n))) (m_edges m1)
  | _, _ => false
  end.
Lemma lost_ok m f types centres n : lostb m f types centres n = true -> exists masks acts m1 masks1 n, node_mask all_in types m f = Ok masks /\ grow_casulli angle_order all_in types centres f m = Ok (acts, m1, masks1) /\
  length (m_nodes m) <= n < length (m_nodes m) + length (corners masks f) /\ forall e, In e (m_edges m1) -> ~ ends_in e n.
Proof.
  unfold lostb. destruct (node_mask _ _ _ _) as [masks| |]; try discriminate. destruct (grow_casulli _ _ _ _ _ _) as [((acts & m1) & masks1)| |]; try discriminate. intros Y.
  apply andb_true_iff in Y as (Y & Y3). apply andb_true_iff in Y as (Y1 & Y2). apply Nat.leb_le in Y1. apply Nat.ltb_lt in Y2. exists masks, acts, m1, masks1, n. split; [reflexivity|]. split; [reflexivity|]. split; [lia|].
  rewrite forallb_forall in Y3. intros e He En. specialize (Y3 e He). apply andb_true_iff in Y3 as (Z1 & Z2). destruct En as [Q|Q]; rewrite Q in *; cbn in Z1, Z2; rewrite Nat.eqb_refl in *; discriminate.
Qed.
Lemma bend_lost : exists m f types centres, in_step m f /\ oriented f /\ none_loose m f /\ length types = length (m_nodes m) /\ length centres = num_faces f /\ length (m_edges m) <= 3 * length (m_nodes m) /\
  exists masks acts m1 masks1 n, node_mask all_in types m f = Ok masks /\ grow_casulli angle_order all_in types centres f m = Ok (acts, m1, masks1) /\
    length (m_nodes m) <= n < length (m_nodes m) + length (corners masks f) /\ forall e, In e (m_edges m1) -> ~ ends_in e n.
Proof.
  assert (S : RefineWitness.start_ok [pt 0 0; pt 8 0; pt 12 8; pt 8 16; pt 0 16; pt 24 0; pt 24 16] (links_between [(0, 1); (1, 2); (2, 3); (3, 4); (4, 0); (1, 5); (5, 6); (6, 3)])) by (apply start_facts; vm_compute; reflexivity). destruct S as (_ & _ & I & _). fold bend in I.
  assert (B1 : orientedb (snd bend) = true) by (vm_compute; reflexivity). assert (B2 : none_looseb (fst bend) (snd bend) = true) by (vm_compute; reflexivity).
  exists (fst bend), (snd bend), (types_of (fst bend) (snd bend)), (centres_of (fst bend) (snd bend)). split; [exact I|]. split; [exact (orientedb_ok _ _ I B1)|]. split; [exact (none_looseb_ok _ _ B2)|].
  split; [vm_compute; reflexivity|]. split; [vm_compute; reflexivity|]. split; [apply Nat.leb_le; vm_compute; reflexivity|].
  assert (Y : lostb (fst bend) (snd bend) (types_of (fst bend) (snd bend)) (centres_of (fst bend) (snd bend)) 16 = true) by (vm_compute; reflexivity).
  exact (lost_ok _ _ _ _ _ Y).
Qed.

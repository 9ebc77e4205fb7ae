(** The node mask of the Casulli refinement. *)
From Verif Require Import Base BaseLemmas FloatModel MeshModel MeshSpec MeshProofs FaceModel FaceSpec FlipModel FlipSpec FlipProofs NodeTypeModel NodeTypeSpec NodeTypeProofs
  SplitModel RefineProofs CasulliModel CasulliSpec CasulliWalk.

Lemma eq_mask_ok a b : eq_mask a b = true <-> a = b.
Proof. unfold eq_mask. rewrite Nat.eqb_eq. destruct a, b; cbn; split; congruence. Qed.
Lemma nth_vget {A} (l : list A) i d : i < length l -> vget l i = Ok (nth i l d).
Proof. intros H. apply vget_some. now apply nth_error_nth'. Qed.
Lemma nth_same {A} (l : list A) i d : i < length l -> set_nth i (nth i l d) l = l.
Proof. intros H. apply set_nth_same. now apply nth_error_nth'. Qed.
Lemma get_edge_ok m e : e < length (m_edges m) -> get_edge m (Some e) = Ok (edge_at m e).
Proof. intros H. unfold get_edge, edge_at. now rewrite (nth_error_nth' _ missing_edge H). Qed.
Definition count_present (l : list (option nat)) : nat := length (filter present l).
Lemma count_snoc l x : count_present (l ++ [x]) = count_present l + (if present x then 1 else 0).
Proof. unfold count_present. rewrite filter_app, app_length. cbn. destruct (present x); reflexivity. Qed.

Section Mask.
  Variable inside : point -> bool.
  Variable types : list Z.
  Variable m : mesh.
  Variable f : faces.
  Hypothesis I : in_step m f.
  Hypothesis Ht : length types = length (m_nodes m).
  Local Notation N := (length (m_nodes m)).
  Local Notation E := (length (m_edges m)).

  Definition ins (n : nat) : bool := (n <? N) && inside (nth n (m_nodes m) missing_point).

  Lemma has_edge_ok e i : has_edge f e i = true <-> lists f i e.
  Proof.
    unfold has_edge, lists. rewrite existsb_exists. split.
    - intros (x & Hx & Q). apply Nat.eqb_eq in Q. subst x. destruct (nth_error (faces_edges f) i) as [es|] eqn:En.
      + exists es. split; [reflexivity|]. now rewrite (nth_error_nth _ _ [] En) in Hx.
      + apply nth_error_None in En. rewrite nth_overflow in Hx by exact En. easy.
    - intros (es & En & Hx). exists e. rewrite (nth_error_nth _ _ [] En), Nat.eqb_refl. auto.
  Qed.
  Lemma together_ok e e' : together f e e' = true <-> exists i, lists f i e /\ lists f i e'.
  Proof.
    unfold together. rewrite existsb_exists. split.
    - intros (i & _ & H). apply andb_prop in H as (H1 & H2). apply has_edge_ok in H1, H2. eauto.
    - intros (i & H1 & H2). exists i. rewrite (proj2 (has_edge_ok e i) H1), (proj2 (has_edge_ok e' i) H2). split; [|reflexivity].
      apply in_seq. pose proof (proj1 (lists_lt m f I i e H1)). lia.
  Qed.

  (** *** One stage over all nodes *)
  Lemma stage (step : list mask -> nat -> outcome (list mask)) (V V' : nat -> mask -> Prop) L : N <= L ->
    (forall masks n, n < N -> length masks = L -> V n (nth n masks Unassigned) -> exists v, step masks n = Ok (set_nth n v masks) /\ V' n v) ->
    forall masks, length masks = L -> (forall n, n < N -> V n (nth n masks Unassigned)) ->
    exists masks', fold_out step (seq 0 N) masks = Ok masks' /\ length masks' = L /\ (forall n, n < N -> V' n (nth n masks' Unassigned)) /\
      (forall n, N <= n -> nth n masks' Unassigned = nth n masks Unassigned).
  Proof.
    intros HL Hs masks Hl HV.
    destruct (fold_range (fun k x => length x = L /\ (forall n, n < k -> V' n (nth n x Unassigned)) /\ (forall n, k <= n -> nth n x Unassigned = nth n masks Unassigned)) step N masks) as (r & Hr & H1 & H2 & H3).
    - split; [exact Hl|]. split; [intros n Hn; lia|auto].
    - intros k x Hk (H1 & H2 & H3). destruct (Hs x k Hk H1) as (v & Hv & HV'); [rewrite H3 by lia; now apply HV|]. exists (set_nth k v x). split; [exact Hv|]. split; [now rewrite set_nth_length|]. split.
      + intros n Hn. rewrite nth_set by lia. destruct (Nat.eqb_spec n k) as [->|]; [exact HV'|apply H2; lia].
      + intros n Hn. rewrite nth_set by lia. destruct (Nat.eqb_spec n k) as [->|]; [lia|apply H3; lia].
    - exists r. auto.
  Qed.

  (** *** Boundary nodes *)
  Definition sgl (e : nat) : bool := nth e (edges_num_faces f) 0 =? 1.
  Lemma sgl_ok e : e < E -> (sgl e = true <-> on_boundary f e).
  Proof.
    intros He. destruct (faces_recorded m f I e He) as (k & p & K1 & _ & _ & _ & K2 & _). unfold sgl. rewrite (nth_error_nth _ _ 0 K1), Nat.eqb_eq. exact K2.
  Qed.
  Definition rimb (k n : nat) : bool := existsb (fun e => sgl e && touches (edge_at m e) n) (seq 0 k).
  Lemma rimb_S k n : rimb (S k) n = rimb k n || (sgl k && touches (edge_at m k) n).
  Proof. unfold rimb. rewrite seq_S, existsb_app. cbn. now rewrite orb_false_r. Qed.
  Lemma rimb_ok n : rimb E n = true <-> on_rim m f n.
  Proof.
    unfold rimb, on_rim, at_node. rewrite existsb_exists. split.
    - intros (e & He & H). apply in_seq in He. apply andb_prop in H as (H1 & H2). exists e. split; [split; [lia|now apply touches_ends]|apply sgl_ok; [lia|exact H1]].
    - intros (e & (He & H1) & H2). exists e. split; [apply in_seq; lia|]. rewrite (proj2 (sgl_ok e He) H2). now apply touches_ends in H1.
  Qed.
  Definition base (k n : nat) : mask := if ins n then if rimb k n then Boundary else Registered else Unassigned.
  Definition begin : list mask := map (fun p => if inside p then Registered else Unassigned) (m_nodes m) ++ repeat Unassigned (9 * N).
  Lemma begin_ok : length begin = 10 * N /\ forall n, nth n begin Unassigned = base 0 n.
  Proof.
    unfold begin. split; [rewrite app_length, map_length, repeat_length; lia|]. intros n. unfold base, ins, rimb. cbn [seq existsb]. destruct (Nat.ltb_spec n N) as [H|H]; cbn [andb].
    - rewrite app_nth1 by (rewrite map_length; exact H). rewrite (nth_indep _ Unassigned (if inside missing_point then Registered else Unassigned)) by (rewrite map_length; exact H).
      rewrite (map_nth (fun p => if inside p then Registered else Unassigned)). reflexivity.
    - rewrite app_nth2 by (rewrite map_length; exact H). apply nth_repeat.
  Qed.
  Lemma mark_end_ok masks g a : length masks = 10 * N -> a < N -> (forall n, nth n masks Unassigned = g n) ->
    exists masks', mark_end masks (Some a) = Ok masks' /\ length masks' = 10 * N /\ forall n, nth n masks' Unassigned = if (a =? n) && negb (eq_mask (g n) Unassigned) then Boundary else g n.
  Proof.
    intros Hl Ha Hg. unfold mark_end. rewrite (nth_vget masks a Unassigned) by lia. cbn [bind]. rewrite Hg. destruct (eq_mask (g a) Unassigned) eqn:Q.
    - exists masks. split; [reflexivity|]. split; [exact Hl|]. intros n. rewrite Hg. destruct (Nat.eqb_spec a n) as [<-|]; [|reflexivity]. rewrite Q. reflexivity.
    - rewrite vset_lt by lia. exists (set_nth a Boundary masks). split; [reflexivity|]. split; [now rewrite set_nth_length|]. intros n. rewrite nth_set by lia. rewrite Hg.
      destruct (Nat.eqb_spec n a) as [->|Hn]; [now rewrite Nat.eqb_refl, Q|]. destruct (Nat.eqb_spec a n); [congruence|reflexivity].
  Qed.
  Lemma boundary_stage : exists masks, fold_out (mark_boundary m f) (seq 0 E) begin = Ok masks /\ length masks = 10 * N /\ forall n, nth n masks Unassigned = base E n.
  Proof.
    apply (fold_range (fun k x => length x = 10 * N /\ forall n, nth n x Unassigned = base k n)); [exact begin_ok|]. intros e masks He (Hl & Hg). unfold mark_boundary.
    rewrite (get_edge_ok m e He). cbn [bind]. destruct (faces_recorded m f I e He) as (k & p & K1 & _ & _ & _ & K2 & _). rewrite (vget_some _ _ _ K1). cbn [bind].
    assert (Sk : sgl e = (k =? 1)) by (unfold sgl; now rewrite (nth_error_nth _ _ 0 K1)).
    destruct (Nat.eqb_spec k 1) as [->|Hk].
    - destruct (rim_face f e (proj1 K2 eq_refl)) as (i & Li & _). destruct (used_ends m f I e i Li) as (a & b & Ee & Dab & Ha & Hb). rewrite Ee. cbn [fst snd].
      destruct (mark_end_ok masks (base e) a Hl Ha Hg) as (x & -> & Lx & Gx). cbn [bind]. destruct (mark_end_ok x _ b Lx Hb Gx) as (y & -> & Ly & Gy). exists y. split; [reflexivity|]. split; [exact Ly|].
      intros n. rewrite Gy. unfold base. rewrite rimb_S, Sk, Ee. unfold touches. cbn [fst snd eq_idx andb].
      destruct (ins n), (rimb e n), (a =? n), (b =? n); cbn; reflexivity.
    - exists masks. split; [reflexivity|]. split; [exact Hl|]. intros n. rewrite Hg. unfold base. rewrite rimb_S, Sk. cbn [andb]. now rewrite orb_false_r.
  Qed.

  (** *** Corners *)
  Definition V1 (n : nat) (v : mask) : Prop :=
    match v with Unassigned => ins n = false | Registered => ins n = true /\ ~ on_rim m f n | Boundary => ins n = true /\ on_rim m f n | _ => False end.
  Definition V2 (n : nat) (v : mask) : Prop :=
    match v with
    | Unassigned => ins n = false
    | Registered => ins n = true /\ ~ on_rim m f n /\ ~ outer_corner m f n
    | Boundary => ins n = true /\ on_rim m f n /\ ~ outer_corner m f n
    | Corner => ins n = true /\ outer_corner m f n
    | _ => False end.
  Definition V3 (n : nat) (v : mask) : Prop :=
    match v with
    | Unassigned => ins n = false
    | Registered => ins n = true /\ ~ on_rim m f n /\ ~ (outer_corner m f n \/ nth n types 0%Z = 3%Z)
    | Boundary => ins n = true /\ on_rim m f n /\ ~ (outer_corner m f n \/ nth n types 0%Z = 3%Z)
    | Corner => ins n = true /\ (outer_corner m f n \/ nth n types 0%Z = 3%Z)
    | _ => False end.
  Lemma base_V1 n : V1 n (base E n).
  Proof.
    unfold base. pose proof (rimb_ok n) as R. destruct (ins n) eqn:Q; [|exact Q]. destruct (rimb E n) eqn:Z; cbn; (split; [exact Q|]); [now apply R|]. intros X. apply R in X. congruence.
  Qed.

  Lemma second_edge_ok n e1 : forall es left, left = length es - 1 -> (forall e, In e es -> e < E) -> (exists e, In e es /\ e <> e1 /\ ends_in (edge_at m e) n) ->
    exists e2, second_edge m n e1 left es = Ok e2 /\ In e2 es /\ e2 <> e1 /\ ends_in (edge_at m e2) n.
  Proof.
    induction es as [|x es IH]; intros left Hl Hb (e & He & D & Q); [easy|]. cbn [second_edge]. rewrite get_edge_ok by (apply Hb; now left). cbn [bind].
    destruct (negb (touches (edge_at m x) n) || (x =? e1)) eqn:C; cbn [andb].
    - assert (Hin : In e es).
      { destruct He as [<-|He]; [|exact He]. exfalso. apply touches_ends in Q. rewrite Q in C. cbn in C. apply Nat.eqb_eq in C. congruence. }
      destruct es as [|y es]; [easy|]. cbn [length] in Hl. rewrite (proj2 (Nat.ltb_lt 0 left)) by lia. destruct (IH (left - 1)) as (e2 & H1 & H2 & H3); [cbn [length]; lia|intros; apply Hb; now right|eauto|].
      exists e2. split; [exact H1|]. split; [now right|exact H3].
    - apply orb_false_iff in C as (C1 & C2). apply negb_false_iff in C1. apply Nat.eqb_neq in C2. exists x. split; [reflexivity|]. split; [now left|]. split; [exact C2|now apply touches_ends].
  Qed.

  Lemma row_entry n j : n < N -> j < degree_of m n -> exists e o, nth_error (row_of m n) j = Some (Some e) /\ e < E /\ joins (edge_at m e) n o.
  Proof.
    intros Hn Hj. destruct (st_row m f I n Hn) as (D & _ & S). destruct (nth_error (row_of m n) j) as [oe|] eqn:Q; [|apply nth_error_None in Q; lia].
    destruct (S oe (nth_error_In _ _ Q)) as (e & o & -> & He & J & _). eauto.
  Qed.
  Lemma row_vget n : n < N -> vget (m_nodesEdges m) n = Ok (row_of m n).
  Proof. intros H. apply nth_vget. now rewrite (co_rows m (st_mesh m f I)). Qed.
  Lemma deg_vget n : n < N -> vget (m_nodesNumEdges m) n = Ok (degree_of m n).
  Proof. intros H. apply nth_vget. now rewrite (co_counts m (st_mesh m f I)). Qed.
  Lemma in_row n j e : nth_error (row_of m n) j = Some (Some e) -> n < N -> at_node m e n.
  Proof.
    intros H Hn. destruct (st_row m f I n Hn) as (_ & _ & S). destruct (S _ (nth_error_In _ _ H)) as (e' & o & X & He & J & _). injection X as <-. split; [exact He|]. apply (joins_end _ _ _ J).
  Qed.

  (** Entry [j] is a boundary edge, and so is the other edge of its face at the node. *)
  Definition hit (n j : nat) : Prop :=
    exists e1 e2 i, nth_error (row_of m n) j = Some (Some e1) /\ e1 <> e2 /\ lists f i e1 /\ lists f i e2 /\ ends_in (edge_at m e2) n /\ on_boundary f e1 /\ on_boundary f e2.
  Lemma outer_hit n : n < N -> (outer_corner m f n <-> exists j, j < degree_of m n /\ hit n j).
  Proof.
    intros Hn. destruct (st_row m f I n Hn) as (D & _ & _). split.
    - intros (i & e & e' & De & L1 & L2 & (A1 & A2) & (B1 & B2) & O1 & O2). pose proof (st_listed m f I i e n L1 A2) as Hin. apply In_nth_error in Hin as (j & Hj). exists j. split; [rewrite D; apply nth_error_Some; congruence|].
      exists e, e', i. auto 10.
    - intros (j & Hj & e1 & e2 & i & R & De & L1 & L2 & En & O1 & O2). exists i, e1, e2. split; [exact De|]. split; [exact L1|]. split; [exact L2|]. split; [eapply in_row; eauto|].
      split; [split; [apply (lists_lt m f I i e2 L2)|exact En]|auto].
  Qed.
  Lemma mark_corner_ok n masks : n < N -> length masks = 10 * N -> forall js, (forall j, In j js -> j < degree_of m n) ->
    exists v, mark_corner m f n masks js = Ok (set_nth n v masks) /\
      ((v = Corner /\ lt_mask Unassigned (nth n masks Unassigned) = true /\ exists j, In j js /\ hit n j) \/
       (v = nth n masks Unassigned /\ (lt_mask Unassigned v = false \/ forall j, In j js -> ~ hit n j))).
  Proof.
    intros Hn Hl. assert (Same : Ok masks = Ok (set_nth n (nth n masks Unassigned) masks)) by (rewrite nth_same by lia; reflexivity).
    induction js as [|j js IH]; intros Hj; cbn [mark_corner].
    - exists (nth n masks Unassigned). split; [exact Same|]. right. split; [reflexivity|]. right. intros j [].
    - rewrite row_vget by exact Hn. cbn [bind]. destruct (row_entry n j Hn (Hj j (or_introl eq_refl))) as (e1 & o & R & He & J). rewrite (vget_some _ _ _ R). cbn [bind].
      destruct (faces_recorded m f I e1 He) as (k & p & K1 & K2 & _ & _ & K3 & K4 & _ & K5 & _). rewrite (vget_some _ _ _ K1). cbn [bind].
      assert (Next : (~ hit n j) -> exists v, mark_corner m f n masks js = Ok (set_nth n v masks) /\
        ((v = Corner /\ lt_mask Unassigned (nth n masks Unassigned) = true /\ exists j0, In j0 (j :: js) /\ hit n j0) \/
         (v = nth n masks Unassigned /\ (lt_mask Unassigned v = false \/ forall j0, In j0 (j :: js) -> ~ hit n j0)))).
      { intros Nh. destruct IH as (v & Hv & Q); [intros; apply Hj; now right|]. exists v. split; [exact Hv|]. destruct Q as [(A & B & x & C & D)|(A & [B|B])].
        - left. split; [exact A|]. split; [exact B|]. exists x. split; [now right|exact D].
        - right. auto.
        - right. split; [exact A|]. right. intros j0 [<-|H]; [exact Nh|now apply B]. }
      destruct (Nat.eqb_spec k 1) as [->|Hk]; cbn [negb].
      2:{ apply Next. intros (x & y & i & R' & _ & _ & _ & _ & O & _). rewrite R in R'. injection R' as <-. apply K3 in O. congruence. }
      rewrite (vget_some _ _ _ K2). cbn [bind]. destruct (K4 ltac:(lia)) as (i & Ei). rewrite Ei. cbn [bind].
      assert (Li : lists f i e1) by (apply K5; left; split; [lia|exact Ei]). destruct (rim_face f e1 (proj1 K3 eq_refl)) as (i' & Li' & Ui). assert (i = i') by (now apply Ui). subst i'. clear Li'.
      pose proof Li as (es & Es & Ine). destruct (face_both' m f I i es Es) as (ns & Ns). destruct (face_parts m f I i ns es Ns Es) as (L3 & _ & Le & _ & _ & _ & Be).
      destruct (st_tables m f I) as (T1 & T2 & _). rewrite T2. assert (Ec : nth_error (map (@length nat) (faces_nodes f)) i = Some (length ns)) by (rewrite nth_error_map, Ns; reflexivity).
      rewrite (vget_some _ _ _ Ec). cbn [bind]. rewrite (vget_some _ _ _ Es). cbn [bind].
      assert (En : ends_in (edge_at m e1) n) by (apply (joins_end _ _ _ J)).
      destruct (other_edge m f I i n e1 Li En) as (y & Dy & Ly & Ey).
      destruct (second_edge_ok n e1 es (length ns - 1)) as (e2 & H2 & I2 & D2 & E2); [lia|exact Be| |].
      { exists y. split; [|auto]. destruct Ly as (es' & X & Y). rewrite Es in X. injection X as <-. exact Y. }
      rewrite H2. cbn [bind]. assert (L2 : lists f i e2) by (exists es; auto).
      destruct (faces_recorded m f I e2 (Be e2 I2)) as (k2 & p2 & Q1 & Q2 & _ & _ & Q3 & _). rewrite (vget_some _ _ _ Q1). cbn [bind].
      destruct (Nat.eqb_spec k2 1) as [->|Hk2].
      + assert (Hh : hit n j) by (exists e1, e2, i; split; [exact R|]; split; [congruence|]; split; [exact Li|]; split; [exact L2|]; split; [exact E2|]; split; [now apply K3|now apply Q3]).
        rewrite (nth_vget masks n Unassigned) by lia. cbn [bind]. destruct (lt_mask Unassigned (nth n masks Unassigned)) eqn:Lt.
        * exists Corner. split; [apply vset_lt; lia|]. left. split; [reflexivity|]. split; [reflexivity|]. exists j. split; [now left|exact Hh].
        * destruct IH as (v & Hv & Q); [intros; apply Hj; now right|]. exists v. split; [exact Hv|]. destruct Q as [(_ & B & _)|(A & _)]; [congruence|]. right. split; [exact A|]. left. now rewrite A.
      + apply Next. intros (x & z & i0 & R' & Dxz & Lx & Lz & Ez & _ & O). rewrite R in R'. injection R' as <-. assert (i0 = i) by (now apply Ui). subst i0.
        destruct (face_two m f I i n e1 e2 z Li L2 Lz En E2 Ez ltac:(congruence)) as [->| ->]; [congruence|]. apply Q3 in O. congruence.
  Qed.
  Lemma corner_stage masks n : n < N -> length masks = 10 * N -> V1 n (nth n masks Unassigned) -> exists v, mark_corners m f masks n = Ok (set_nth n v masks) /\ V2 n v.
  Proof.
    intros Hn Hl HV. unfold mark_corners. rewrite deg_vget by exact Hn. cbn [bind]. destruct (mark_corner_ok n masks Hn Hl (seq 0 (degree_of m n))) as (v & H & Q); [intros j Hj; apply in_seq in Hj; lia|].
    exists v. split; [exact H|]. pose proof (outer_hit n Hn) as O. destruct Q as [(-> & Lt & j & Hj & Hh)|(-> & C)].
    - apply in_seq in Hj. assert (outer_corner m f n) by (apply O; exists j; split; [lia|exact Hh]). cbn. destruct (nth n masks Unassigned); cbn in HV, Lt; try discriminate; try easy; tauto.
    - assert (Z : lt_mask Unassigned (nth n masks Unassigned) = true -> ~ outer_corner m f n).
      { intros Lt X. apply O in X as (j & Hj & Hh). destruct C as [C|C]; [congruence|]. apply (C j); [apply in_seq; lia|exact Hh]. }
      destruct (nth n masks Unassigned); cbn in HV, Z |- *; try easy; (split; [apply HV|split; [apply HV|apply Z; reflexivity]]).
  Qed.
  Lemma type_stage masks n : n < N -> length masks = 10 * N -> V2 n (nth n masks Unassigned) -> exists v, mark_type types masks n = Ok (set_nth n v masks) /\ V3 n v.
  Proof.
    intros Hn Hl HV. unfold mark_type. rewrite (nth_vget masks n Unassigned) by lia. cbn [bind].
    assert (Same : Ok masks = Ok (set_nth n (nth n masks Unassigned) masks)) by (rewrite nth_same by lia; reflexivity).
    destruct (eq_mask (nth n masks Unassigned) Unassigned) eqn:Q.
    - exists (nth n masks Unassigned). split; [exact Same|]. apply eq_mask_ok in Q. rewrite Q in HV |- *. exact HV.
    - rewrite (nth_vget types n 0%Z) by lia. cbn [bind]. destruct (Z.eqb_spec (nth n types 0%Z) 3) as [H3|H3].
      + exists Corner. split; [apply vset_lt; lia|]. cbn. destruct (nth n masks Unassigned); cbn in HV, Q; try easy; tauto.
      + exists (nth n masks Unassigned). split; [exact Same|]. destruct (nth n masks Unassigned); cbn in HV, Q |- *; try easy; tauto.
  Qed.

  (** *** The faces around a node *)
  Section Around.
    Variable n : nat.
    Hypothesis Hn : n < N.
    Local Notation d := (degree_of m n).
    Local Notation row := (row_of m n).
    Hypothesis Hd : 2 <= d.

    Lemma next_place j : j < d -> (if d <=? S j then 0 else S j) = (j + 1) mod d /\ (j + 1) mod d < d.
    Proof.
      intros Hj. split; [|apply Nat.mod_upper_bound; lia]. rewrite mod_small_or by exact Hj. destruct (Nat.leb_spec d (S j)); destruct (Nat.eqb_spec j (d - 1)); lia.
    Qed.
    Lemma step_around j js prev found : j < d -> exists e1 e2 prev' found', nth_error row j = Some (Some e1) /\ nth_error row ((j + 1) mod d) = Some (Some e2) /\ paired m f n j = together f e1 e2 /\
      faces_at types f n d row (j :: js) prev found = faces_at types f n d row js prev' found' /\
      (prev' = prev \/ prev' = None \/ exists i, prev' = Some i /\ lists f i e1 /\ lists f i e2) /\
      (paired m f n j = false -> count_present found' = count_present found) /\
      (paired m f n j = true -> (forall i, lists f i e1 -> lists f i e2 -> prev <> Some i) -> (d = 2 -> j <> 1) -> count_present found' = S (count_present found)) /\
      count_present found <= count_present found' <= S (count_present found).
    Proof.
      intros Hj. destruct (next_place j Hj) as (P1 & P2). destruct (row_entry n j Hn Hj) as (e1 & o1 & R1 & B1 & J1), (row_entry n _ Hn P2) as (e2 & o2 & R2 & B2 & J2).
      exists e1, e2. assert (Pd : paired m f n j = together f e1 e2) by (unfold paired; rewrite (nth_error_nth _ _ None R1), (nth_error_nth _ _ None R2); reflexivity).
      cbn [faces_at]. rewrite P1, (vget_some _ _ _ R1), (vget_some _ _ _ R2). cbn [bind vget_idx].
      destruct (faces_recorded m f I e1 B1) as (k1 & p & A1 & A2 & A3 & A4 & _ & A5 & A6 & A7 & A8), (faces_recorded m f I e2 B2) as (k2 & q & C1 & C2 & C3 & C4 & _ & C5 & C6 & C7 & C8).
      rewrite (vget_some _ _ _ A1), (vget_some _ _ _ C1). cbn [bind].
      assert (Skip : k1 = 0 \/ k2 = 0 -> together f e1 e2 = false).
      { intros H. destruct (together f e1 e2) eqn:T; [|reflexivity]. apply together_ok in T as (i & L1 & L2). exfalso. destruct H as [H|H]; [exact (proj1 A4 H i L1)|exact (proj1 C4 H i L2)]. }
      destruct (Nat.eqb_spec k1 0) as [H1|H1]; cbn [bind].
      { cbn [Nat.eqb orb]. exists prev, found. rewrite Pd, Skip by auto. split; [exact R1|]. split; [exact R2|]. split; [reflexivity|]. split; [reflexivity|]. split; [auto|]. split; [auto|]. split; [discriminate|lia]. }
      destruct (Nat.eqb_spec k2 0) as [H2|H2]; cbn [orb].
      { exists prev, found. rewrite Pd, Skip by auto. split; [exact R1|]. split; [exact R2|]. split; [reflexivity|]. split; [reflexivity|]. split; [auto|]. split; [auto|]. split; [discriminate|lia]. }
      rewrite (vget_some _ _ _ A2), (vget_some _ _ _ C2). cbn [bind]. cbv zeta.
      assert (Lf : forall (k : nat) (p : option nat * option nat), 1 <= k -> (1 <= k -> exists i, fst p = Some i) -> (2 <= k -> exists i, snd p = Some i) -> exists i, last_face k p = Some i).
      { intros k r Hk X Y. unfold last_face. destruct (Nat.eqb_spec k 1); [apply X; lia|apply Y; lia]. }
      assert (Ls : forall (k : nat) (p : option nat * option nat) e, 1 <= k -> k <= 2 -> (forall i, lists f i e <-> 1 <= k /\ fst p = Some i \/ 2 <= k /\ snd p = Some i) ->
        forall i, lists f i e <-> fst p = Some i \/ last_face k p = Some i).
      { intros k r e Hk Hk2 X i. rewrite X. unfold last_face. destruct (Nat.eqb_spec k 1) as [->|]; [|assert (k = 2) by lia; subst k]; split.
        - intros [(_ & H)|(H & _)]; [now left|lia].
        - intros [H|H]; left; auto.
        - intros [(_ & H)|(_ & H)]; auto.
        - intros [H|H]; [left|right]; auto. }
      specialize (Ls k1 p e1 ltac:(lia) A3 A7) as L1. specialize (Ls k2 q e2 ltac:(lia) C3 C7) as L2. clear Ls.
      destruct (A5 ltac:(lia)) as (i1 & F1). destruct (Lf k1 p ltac:(lia) A5 A6) as (i2 & F2). rewrite F1, F2 in *. clear Lf.
      set (among := fun x => eq_idx x (fst q) || eq_idx x (last_face k2 q)). assert (Am : forall i, among (Some i) = true <-> lists f i e2).
      { intros i. unfold among. rewrite L2, orb_true_iff. assert (Z : forall y, eq_idx (Some i) y = true <-> y = Some i) by (intros [y|]; cbn; [rewrite Nat.eqb_eq; split; congruence|split; discriminate]). now rewrite !Z. }
      set (next := if negb (eq_idx (Some i1) prev) && (eq_idx (Some i1) (fst q) || eq_idx (Some i1) (last_face k2 q)) then Some i1 else if negb (eq_idx (Some i2) prev) && (eq_idx (Some i2) (fst q) || eq_idx (Some i2) (last_face k2 q)) then Some i2 else None).
      assert (Nx : (exists i, next = Some i /\ lists f i e1 /\ lists f i e2 /\ prev <> Some i) \/ (next = None /\ forall i, lists f i e1 -> lists f i e2 -> prev = Some i)).
      { assert (Z : forall i, eq_idx (Some i) prev = true <-> prev = Some i) by (intros i; destruct prev as [y|]; cbn; [rewrite Nat.eqb_eq; split; congruence|split; discriminate]).
        change next with (if negb (eq_idx (Some i1) prev) && among (Some i1) then Some i1 else if negb (eq_idx (Some i2) prev) && among (Some i2) then Some i2 else None). destruct (negb (eq_idx (Some i1) prev) && among (Some i1)) eqn:Q1.
        - apply andb_prop in Q1 as (Q1 & Q2). left. exists i1. split; [reflexivity|]. split; [apply L1; now left|]. split; [now apply Am|]. intros X. apply Z in X. rewrite X in Q1. discriminate.
        - destruct (negb (eq_idx (Some i2) prev) && among (Some i2)) eqn:Q3.
          + apply andb_prop in Q3 as (Q3 & Q4). left. exists i2. split; [reflexivity|]. split; [apply L1; now right|]. split; [now apply Am|]. intros X. apply Z in X. rewrite X in Q3. discriminate.
          + right. split; [reflexivity|]. intros i X Y. apply Am in Y. apply L1 in X as [X|X]; injection X as <-; [rewrite Y, andb_true_r in Q1; apply negb_false_iff in Q1; now apply Z|rewrite Y, andb_true_r in Q3; apply negb_false_iff in Q3; now apply Z]. }
      clearbody next.
      assert (Sm : exists same, (if (d =? 2) && (j =? 1) then let! t := vget types n in Ok ((t =? 3)%Z && match found with [] => false | x :: _ => eq_idx x next end) else Ok false) = Ok same /\ (same = true -> d = 2 /\ j = 1)).
      { destruct (Nat.eqb_spec d 2); [destruct (Nat.eqb_spec j 1)|]; cbn [andb]; [|exists false; split; [reflexivity|discriminate]..]. rewrite (nth_vget types n 0%Z) by lia. cbn [bind]. eexists. split; [reflexivity|auto]. }
      destruct Sm as (same & -> & Hs). cbn [bind]. exists (if same then None else next), (found ++ [if same then None else next]). split; [exact R1|]. split; [exact R2|]. split; [exact Pd|]. split; [reflexivity|].
      split; [destruct same; [right; left; reflexivity|]; destruct Nx as [(i & -> & X & Y & _)|(-> & _)]; [right; right; exists i; auto|right; left; reflexivity]|]. rewrite count_snoc, Pd. split; [|split].
      - intros T. destruct same; [cbn; lia|]. destruct Nx as [(i & -> & X & Y & _)|(-> & _)]; [|cbn; lia]. exfalso. assert (together f e1 e2 = true) by (apply together_ok; eauto). congruence.
      - intros T Hp Hx. destruct same; [destruct (Hs eq_refl) as (X & Y); now apply Hx in X|]. destruct Nx as [(i & -> & _)|(-> & X)]; [cbn; lia|]. exfalso. apply together_ok in T as (i & T1 & T2). exact (Hp i T1 T2 (X i T1 T2)).
      - destruct (present _); lia.
    Qed.

    Lemma row_inj j j' e : nth_error row j = Some (Some e) -> nth_error row j' = Some (Some e) -> j = j'.
    Proof.
      intros H1 H2. destruct (st_row m f I n Hn) as (_ & ND & _). apply (proj1 (NoDup_nth_error row) ND); [apply nth_error_Some; congruence|congruence].
    Qed.
    Lemma around_many : 3 <= d -> forall k j prev found, j + k = d ->
      (forall i, prev = Some i -> exists j' e e', j' < j /\ nth_error row j' = Some (Some e) /\ nth_error row ((j' + 1) mod d) = Some (Some e') /\ lists f i e /\ lists f i e') ->
      exists found', faces_at types f n d row (seq j k) prev found = Ok found' /\ count_present found' = count_present found + length (filter (paired m f n) (seq j k)).
    Proof.
      intros H3. induction k as [|k IH]; intros j prev found Hk Hp.
      - exists found. cbn. split; [reflexivity|lia].
      - cbn [seq]. destruct (step_around j (seq (S j) k) prev found ltac:(lia)) as (e1 & e2 & prev' & found' & R1 & R2 & Pd & -> & Pv & C1 & C2 & _). destruct (IH (S j) prev' found') as (r & -> & Cr); [lia| |].
        { intros i Ei. destruct Pv as [->|[->|(i' & -> & L1 & L2)]]; [|discriminate|].
          - destruct (Hp i Ei) as (j' & X & Y & Hj' & Z). exists j', X, Y. split; [lia|exact Z].
          - injection Ei as ->. exists j, e1, e2. auto. }
        exists r. split; [reflexivity|]. rewrite Cr. cbn [filter]. destruct (paired m f n j) eqn:Q; [|rewrite (C1 eq_refl); reflexivity]. rewrite C2; [cbn [length]; lia|reflexivity| |lia].
        intros i L1 L2 ->. destruct (Hp i eq_refl) as (j' & e & e' & Hj' & X & Y & La & Lb).
        assert (P1 : (j' + 1) mod d = j' + 1) by (apply Nat.mod_small; lia). rewrite P1 in Y.
        assert (Dee : e <> e') by (intros <-; pose proof (row_inj _ _ _ X Y); lia).
        pose proof (in_row n _ _ X Hn) as (_ & Ee). pose proof (in_row n _ _ Y Hn) as (_ & Ee'). pose proof (in_row n _ _ R1 Hn) as (_ & En1). pose proof (in_row n _ _ R2 Hn) as (_ & En2).
        destruct (face_two m f I i n e e' e1 La Lb L1 Ee Ee' En1 Dee) as [->| ->]; [pose proof (row_inj _ _ _ X R1); lia|]. pose proof (row_inj _ _ _ Y R1) as Jj.
        pose proof (mod_small_or j d ltac:(lia)) as Mj. destruct (face_two m f I i n e e' e2 La Lb L2 Ee Ee' En2 Dee) as [->| ->].
        + pose proof (row_inj _ _ _ X R2) as Q2. rewrite Mj in Q2. destruct (Nat.eqb_spec j (d - 1)); lia.
        + pose proof (row_inj _ _ _ Y R2) as Q2. rewrite Mj in Q2. destruct (Nat.eqb_spec j (d - 1)); lia.
    Qed.
    Lemma around_ok : exists found, faces_at types f n d row (seq 0 d) None [] = Ok found /\ let c := count_present found in
      (c = 0 <-> pairs m f n = 0) /\ (c < d - 1 <-> pairs m f n < d - 1) /\ (max_edges_per_node < c <-> max_edges_per_node < pairs m f n).
    Proof.
      destruct (Nat.eq_dec d 2) as [E2|E2].
      - replace (seq 0 d) with [0; 1] by (now rewrite E2). destruct (step_around 0 [1] None [] ltac:(lia)) as (e1 & e2 & prev & found & R1 & R2 & Pd & -> & _ & C1 & C2 & C3).
        destruct (step_around 1 [] prev found ltac:(lia)) as (e1' & e2' & prev' & found' & R1' & R2' & Pd' & -> & _ & C1' & _ & C3'). cbn [faces_at]. exists found'. split; [reflexivity|]. cbn zeta.
        rewrite E2 in R2, R2'. change ((0 + 1) mod 2) with 1 in R2. change ((1 + 1) mod 2) with 0 in R2'. rewrite R1 in R2'. injection R2' as <-. rewrite R2 in R1'. injection R1' as <-.
        assert (Sy : together f e2 e1 = together f e1 e2) by (apply eq_true_iff_eq; rewrite !together_ok; split; intros (x & X & Y); exists x; auto).
        unfold pairs. rewrite E2. cbn [seq filter]. rewrite Pd' in C1' |- *. rewrite Pd in C1, C2 |- *. rewrite Sy in C1' |- *. cbn [count_present filter length] in C1, C2, C3. change (count_present []) with 0 in *.
        assert (M : 16 <= max_edges_per_node) by (unfold max_edges_per_node; lia).
        destruct (together f e1 e2); cbn [length].
        + rewrite C2 in C3' by (try reflexivity; try lia; intros; discriminate). split; [|split]; split; intros; lia.
        + rewrite C1' by reflexivity. rewrite C1 by reflexivity. split; [|split]; split; intros; lia.
      - destruct (around_many ltac:(lia) d 0 None [] eq_refl) as (found & H & C); [discriminate|]. exists found. split; [exact H|]. cbn zeta. rewrite C. change (count_present []) with 0. cbn [Nat.add]. fold (pairs m f n). tauto.
    Qed.
  End Around.

  Lemma face_stage masks n : n < N -> length masks = 10 * N -> V3 n (nth n masks Unassigned) -> exists v, mark_face types m f masks n = Ok (set_nth n v masks) /\ mask_is inside types m f n v.
  Proof.
    intros Hn Hl HV. unfold mark_face. rewrite (nth_vget masks n Unassigned) by lia. cbn [bind]. set (v0 := nth n masks Unassigned) in *.
    assert (Same : Ok masks = Ok (set_nth n v0 masks)) by (unfold v0; rewrite nth_same by lia; reflexivity).
    assert (In_ : ins n = inside (nth n (m_nodes m) missing_point)) by (unfold ins; rewrite (proj2 (Nat.ltb_lt n N) Hn); reflexivity).
    destruct (eq_mask v0 Unassigned) eqn:Q0.
    { apply eq_mask_ok in Q0. exists v0. split; [exact Same|]. rewrite Q0 in HV |- *. cbn in HV |- *. left. congruence. }
    rewrite deg_vget by exact Hn. cbn [bind]. destruct (Nat.leb_spec (degree_of m n) 1) as [Hd|Hd].
    { exists Unassigned. split; [apply vset_lt; lia|]. cbn. right. left. exact Hd. }
    rewrite row_vget by exact Hn. cbn [bind]. destruct (around_ok n Hn Hd) as (found & -> & C1 & C2 & C3). cbn [bind]. fold (count_present found). set (c := count_present found) in *. clearbody c.
    assert (Hin : ins n = true) by (destruct v0; cbn in HV, Q0; try easy; apply HV).
    destruct (Nat.eqb_spec c 0) as [Hc|Hc].
    - rewrite vset_lt by lia. cbn [bind]. rewrite (nth_vget _ n Unassigned) by (rewrite set_nth_length; lia). cbn [bind]. rewrite nth_set by lia. rewrite Nat.eqb_refl. cbn [eq_mask rank Nat.eqb]. rewrite andb_false_r. cbn [bind].
      rewrite (nth_vget _ n Unassigned) by (rewrite set_nth_length; lia). cbn [bind]. rewrite nth_set by lia. rewrite Nat.eqb_refl. change (lt_mask Unassigned Unassigned) with false. rewrite andb_false_r. cbn [andb].
      exists Unassigned. split; [reflexivity|]. cbn. right. right. now apply C1.
    - cbn [bind]. rewrite (nth_vget masks n Unassigned) by lia. cbn [bind]. fold v0.
      assert (Nl : ~ left_alone inside m f n) by (intros [X|[X|X]]; [congruence|lia|apply C1 in X; congruence]).
      destruct (Nat.ltb_spec c (degree_of m n - 1)) as [Hlt|Hge]; cbn [andb].
      + destruct (eq_mask v0 Boundary) eqn:Qb.
        * apply eq_mask_ok in Qb. rewrite vset_lt by lia. cbn [bind]. rewrite (nth_vget _ n Unassigned) by (rewrite set_nth_length; lia). cbn [bind]. rewrite nth_set by lia. rewrite Nat.eqb_refl.
          change (lt_mask Corner Boundary) with false. rewrite !andb_false_r. exists Corner. split; [reflexivity|]. cbn. split; [exact Nl|]. right. right. left. rewrite Qb in HV. split; [apply HV|]. now apply C2.
        * cbn [bind]. rewrite (nth_vget masks n Unassigned) by lia. cbn [bind]. fold v0. destruct (Nat.ltb_spec max_edges_per_node c) as [H16|H16]; cbn [andb].
          -- destruct v0; cbn in HV, Q0, Qb |- *; try easy.
             ++ exists Corner. split; [apply vset_lt; lia|]. split; [exact Nl|]. right. right. right. split; [apply HV|now apply C3].
             ++ exists Corner. split; [exact Same|]. split; [exact Nl|]. unfold cornered. tauto.
          -- destruct v0; cbn in HV, Q0, Qb |- *; try easy.
             ++ exists Registered. split; [exact Same|]. split; [exact Nl|]. split; [|apply HV]. intros [X|[X|[(X & _)|(_ & X)]]]; [tauto..|]. apply C3 in X. lia.
             ++ exists Corner. split; [exact Same|]. split; [exact Nl|]. unfold cornered. tauto.
      + cbn [bind]. rewrite (nth_vget masks n Unassigned) by lia. cbn [bind]. fold v0. destruct (Nat.ltb_spec max_edges_per_node c) as [H16|H16]; cbn [andb].
        * destruct v0; cbn in HV, Q0 |- *; try easy.
          -- exists Corner. split; [apply vset_lt; lia|]. split; [exact Nl|]. right. right. right. split; [apply HV|now apply C3].
          -- exists Boundary. split; [exact Same|]. split; [exact Nl|]. split; [|apply HV]. intros [X|[X|[(_ & X)|(X & _)]]]; [tauto|tauto|apply C2 in X; lia|tauto].
          -- exists Corner. split; [exact Same|]. split; [exact Nl|]. unfold cornered. tauto.
        * destruct v0; cbn in HV, Q0 |- *; try easy.
          -- exists Registered. split; [exact Same|]. split; [exact Nl|]. split; [|apply HV]. intros [X|[X|[(X & _)|(_ & X)]]]; [tauto..|]. apply C3 in X. lia.
          -- exists Boundary. split; [exact Same|]. split; [exact Nl|]. split; [|apply HV]. intros [X|[X|[(_ & X)|(X & _)]]]; [tauto|tauto|apply C2 in X; lia|tauto].
          -- exists Corner. split; [exact Same|]. split; [exact Nl|]. unfold cornered. tauto.
  Qed.

  Lemma mask_ok : exists masks, node_mask inside types m f = Ok masks /\ length masks = 10 * N /\ (forall n, n < N -> mask_is inside types m f n (nth n masks Unassigned)) /\
    (forall n, N <= n -> nth n masks Unassigned = Unassigned).
  Proof.
    unfold node_mask. fold begin. destruct boundary_stage as (m1 & -> & L1 & G1). cbn [bind].
    destruct (stage (mark_corners m f) V1 V2 (10 * N) ltac:(lia) (fun masks n A B => corner_stage masks n A B) m1 L1) as (m2 & -> & L2 & G2 & H2); [intros n Hn; rewrite G1; apply base_V1|]. cbn [bind].
    destruct (stage (mark_type types) V2 V3 (10 * N) ltac:(lia) (fun masks n A B => type_stage masks n A B) m2 L2 G2) as (m3 & -> & L3 & G3 & H3). cbn [bind].
    destruct (stage (mark_face types m f) V3 (mask_is inside types m f) (10 * N) ltac:(lia) (fun masks n A B => face_stage masks n A B) m3 L3 G3) as (m4 & -> & L4 & G4 & H4).
    exists m4. split; [reflexivity|]. split; [exact L4|]. split; [exact G4|]. intros n Hn. rewrite H4, H3, H2, G1 by exact Hn. unfold base, ins. rewrite (proj2 (Nat.ltb_ge n N) Hn). reflexivity.
  Qed.
End Mask.

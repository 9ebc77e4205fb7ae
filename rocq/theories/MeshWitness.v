(** Concrete meshes: a sample meeting the hypotheses of the mesh properties, and the witnesses of the refuted ones. *)
From Verif Require Import Base BaseLemmas FloatModel FloatProofs UndoModel UndoSpec ActionModel ActionSpec
  MeshModel MeshSpec MeshProofs MeshAdj MeshConstruct MeshUndo MeshEdits MeshEdits2 MeshMerge MeshFacts.
From Coq Require Import Permutation.

Definition pt (x y : Z) : point := Pt (double_of x 0) (double_of y 0).

(** An order that leaves rows alone. *)
Definition keep_order (nodes : list point) (edges : list edge) (n : nat) (row : list (option nat)) : list (option nat) := row.
Lemma keep_order_perm : forall nodes edges n row, Permutation row (keep_order nodes edges n row).
Proof. intros. apply Permutation_refl. Qed.

Definition built (nodes : list point) (edges : list edge) : mesh :=
  match construct edges nodes Cartesian with
  | Ok m => match administrate keep_order m with Ok m' => m' | _ => m end
  | _ => Mesh [] [] [] [] Cartesian
  end.

(** Two triangles 0-1-2 and 0-2-3 and a detached edge 4-5. *)
Definition sample_nodes : list point := [pt 0 0; pt 4 0; pt 4 4; pt 0 4; pt 7 7; pt 8 8].
Definition sample_edges : list edge := [(Some 0, Some 1); (Some 1, Some 2); (Some 2, Some 0); (Some 2, Some 3); (Some 3, Some 0); (Some 4, Some 5)].
Definition sample : mesh := built sample_nodes sample_edges.

Definition well_indexedb (nodes : list point) (edges : list edge) : bool :=
  forallb (fun e : edge => match fst e with Some a => a <? length nodes | None => true end &&
                    match snd e with Some a => a <? length nodes | None => true end) edges.
Lemma well_indexedb_ok nodes edges : well_indexedb nodes edges = true -> well_indexed nodes edges.
Proof.
  intros H e n He Hn. unfold well_indexedb in H. rewrite forallb_forall in H. apply H in He. apply andb_true_iff in He.
  destruct He as [H1 H2]. destruct Hn as [Hn|Hn]; rewrite Hn in *; now apply Nat.ltb_lt.
Qed.

Lemma built_facts nodes edges m0 m : well_indexedb nodes edges = true -> construct edges nodes Cartesian = Ok m0 ->
  administrate keep_order m0 = Ok m -> consistent m /\ administrated m.
Proof.
  intros Hw H1 H2. destruct (construct_consistent keep_order keep_order_perm edges nodes Cartesian m0 m (well_indexedb_ok _ _ Hw) H1 H2) as (C & _ & _ & A).
  auto.
Qed.

Lemma built_ok nodes edges : well_indexedb nodes edges = true -> consistent (built nodes edges) /\ administrated (built nodes edges).
Proof.
  intros Hb. pose proof (well_indexedb_ok _ _ Hb) as Hw. destruct (delete_invalid_spec (Mesh nodes edges [] [] Cartesian) Hw) as (m0 & H0 & Hwf & _).
  change (construct edges nodes Cartesian = Ok m0) in H0. pose proof (well_formed_part_valid _ _ _ _ Hwf) as [_ Hend].
  assert (Hw0 : well_indexed (m_nodes m0) (m_edges m0)).
  { intros e n He Hn. destruct (Hend e He) as (a & b & -> & La & Lb). destruct Hn as [Hn|Hn]; cbn in Hn; injection Hn as <-; auto. }
  destruct (administrate_safe keep_order keep_order_perm m0 Hw0) as (m & Hm). unfold built. rewrite H0, Hm. eapply built_facts; eauto.
Qed.

(** Deciding [simple_edges]. *)
Definition joinedb (e f : edge) : bool :=
  match e, f with
  | (Some a, Some b), (Some c, Some d) => (a =? c) && (b =? d) || (a =? d) && (b =? c)
  | _, _ => false
  end.
Definition selfb (e : edge) : bool := match e with (Some a, Some b) => a =? b | _ => false end.
Fixpoint simpleb (l : list edge) : bool :=
  match l with [] => true | e :: t => negb (selfb e) && negb (existsb (joinedb e) t) && simpleb t end.

Lemma joinedb_ok e f n o : joins e n o -> joins f n o -> joinedb e f = true.
Proof.
  intros [-> | ->] [-> | ->]; cbn; rewrite !Nat.eqb_refl; cbn; rewrite ?orb_true_r; reflexivity.
Qed.

Lemma simpleb_ok l : simpleb l = true -> simple_edges l.
Proof.
  induction l as [|e l IH]; intros H.
  - split; [intros e n []|intros [|i] j ei ej n o Hi; discriminate Hi].
  - cbn in H. apply andb_true_iff in H. destruct H as [H H3]. apply andb_true_iff in H. destruct H as [H1 H2].
    apply negb_true_iff in H1, H2. destruct (IH H3) as [S1 S2]. split.
    + intros f n [<-|Hf] Hj; [|exact (S1 f n Hf Hj)]. destruct Hj as [-> | ->]; cbn in H1; rewrite Nat.eqb_refl in H1; discriminate.
    + assert (Hx : forall j ej n o, nth_error l j = Some ej -> joins e n o -> joins ej n o -> False).
      { intros j ej n o Hj J1 J2. assert (existsb (joinedb e) l = true); [|congruence]. apply existsb_exists. exists ej. split; [eapply nth_error_In; eauto|].
        eapply joinedb_ok; eauto. }
      intros [|i] [|j] ei ej n o Hi Hj J1 J2; cbn in Hi, Hj; auto.
      * injection Hi as <-. exfalso. eauto.
      * injection Hj as <-. exfalso. eauto.
      * f_equal. eauto.
Qed.

Lemma built_eq nodes edges m0 m : construct edges nodes Cartesian = Ok m0 -> administrate keep_order m0 = Ok m -> built nodes edges = m.
Proof. intros H1 H2. unfold built. now rewrite H1, H2. Qed.

Lemma sample_facts :
  consistent sample /\ administrated sample /\ lists_all sample /\ simple_edges (m_edges sample) /\
  degree_of sample 0 + degree_of sample 2 <= max_edges_per_node /\ neighbour sample 0 1 /\ neighbour sample 2 1.
Proof.
  assert (E : exists m0 m, construct sample_edges sample_nodes Cartesian = Ok m0 /\ administrate keep_order m0 = Ok m /\ m_nodes m0 <> [] /\ m_edges m0 <> [] /\ well_indexedb (m_nodes m0) (m_edges m0) = true)
    by (eexists _, _; split; [vm_compute; reflexivity|]; split; [vm_compute; reflexivity|]; split; [discriminate|]; split; [discriminate|vm_compute; reflexivity]).
  destruct E as (m0 & m & E1 & E2 & X1 & X2 & X3).
  destruct (built_facts sample_nodes sample_edges m0 m eq_refl E1 E2) as [C A].
  assert (S : simple_edges (m_edges sample)) by (apply simpleb_ok; vm_compute; reflexivity).
  assert (Em : sample = m) by (apply built_eq with m0; auto).
  split; [now rewrite Em|]. split; [now rewrite Em|]. split; [|split; [exact S|split; [vm_compute; lia|split]]].
  - apply lists_all_of_exact; auto.
    + rewrite Em. destruct (administrate_result keep_order keep_order_perm m0 m (well_indexedb_ok _ _ X3) E2) as (_ & _ & _ & H). auto.
    + assert (L6 : length (m_nodes sample) = 6) by (vm_compute; reflexivity). rewrite L6. intros n Hn. do 6 (destruct n as [|n]; [vm_compute; lia|]). lia.
    + rewrite Em. apply C.
  - exists 0. split; [vm_compute; lia|]. left. vm_compute. reflexivity.
  - exists 1. split; [vm_compute; lia|]. right. vm_compute. reflexivity.
Qed.

Lemma sample_merged :
  exists t m', merge_two_nodes keep_order sample (Some 0) (Some 2) = Ok (Some (t, m')) /\
    m_edges m' = [(Some 2, Some 1); missing_edge; missing_edge; missing_edge; (Some 3, Some 2); (Some 4, Some 5)].
Proof. vm_compute. eexists _, _. split; reflexivity. Qed.

Lemma sample_pre :
  medit_pre (EMerge (Some 0) (Some 2)) sample /\ medit_pre (EJoin sample) sample /\ medit_pre (EDeleteEdge (Some 2)) sample /\
  medit_pre (EConvert Cartesian Spherical (fun p => p)) sample.
Proof.
  destruct sample_facts as (C & A & _ & _ & D & _). cbn [medit_pre]. split; [exact D|]. split; [|split; [vm_compute; lia|auto]].
  split; auto. split; [vm_compute; discriminate|]. split; [vm_compute; discriminate|]. apply C.
Qed.

(** *** Refutations *)
Lemma delete_after_insert :
  exists nodes edges m0 m a1 m1 a2 m2 k,
    construct edges nodes Cartesian = Ok m0 /\ administrate keep_order m0 = Ok m /\
    connect_nodes keep_order m (Some 0) (Some 2) = Ok (Some (k, a1, m1)) /\
    delete_node keep_order m1 (Some 0) = Ok (a2, m2) /\
    nth_error (m_nodes m2) 0 = Some missing_point /\ edge_at m2 k = (Some 0, Some 2).
Proof.
  exists [pt 0 0; pt 4 0; pt 4 4], [(Some 0, Some 1); (Some 1, Some 2)].
  do 7 eexists. repeat split; vm_compute; reflexivity.
Qed.

Lemma delete_duplicate :
  exists nodes edges m0 m a m',
    construct edges nodes Cartesian = Ok m0 /\ administrate keep_order m0 = Ok m /\
    delete_node keep_order m (Some 0) = Ok (a, m') /\ exists e, ends_in (edge_at m' e) 0.
Proof.
  exists [pt 0 0; pt 4 0], [(Some 0, Some 1); (Some 1, Some 0)].
  do 4 eexists. split; [vm_compute; reflexivity|]. split; [vm_compute; reflexivity|]. split; [vm_compute; reflexivity|].
  exists 1. right. vm_compute. reflexivity.
Qed.

(** Node 0 with neighbours 2..9, node 1 with neighbours 10..18. *)
Definition star_edges : list edge := map (fun i => (Some 0, Some (i + 2))) (seq 0 8) ++ map (fun i => (Some 1, Some (i + 10))) (seq 0 9).
Definition star_nodes : list point := map (fun i => pt (Z.of_nat i) (Z.of_nat (i * i))) (seq 0 19).
Lemma merge_overflow :
  exists nodes edges m0 m, construct edges nodes Cartesian = Ok m0 /\ administrate keep_order m0 = Ok m /\
    simple_edges (m_edges m) /\ merge_two_nodes keep_order m (Some 0) (Some 1) = UB.
Proof.
  exists star_nodes, star_edges. eexists _, _.
  split; [vm_compute; reflexivity|]. split; [vm_compute; reflexivity|]. split; [apply simpleb_ok; vm_compute; reflexivity|vm_compute; reflexivity].
Qed.

Lemma query_then_undo :
  exists nodes edges m0 m a m1 m2 a' m3,
    construct edges nodes Cartesian = Ok m0 /\ administrate keep_order m0 = Ok m /\
    delete_edge keep_order m (Some 0) = Ok (a, m1) /\ administrate keep_order m1 = Ok m2 /\
    restore_act (restore_leaf keep_order) a m2 = Ok (a', m3) /\
    m_edges m3 = m_edges m /\ ~ extends m m3 /\ (forall n, n < 2 -> nth_error (m_nodes m3) n = Some missing_point).
Proof.
  exists [pt 0 0; pt 4 0], [(Some 0, Some 1)]. do 7 eexists.
  split; [vm_compute; reflexivity|]. split; [vm_compute; reflexivity|]. split; [vm_compute; reflexivity|]. split; [vm_compute; reflexivity|].
  split; [vm_compute; reflexivity|]. split; [vm_compute; reflexivity|]. split.
  - intros (x & y & H & _). cbn in H. discriminate H.
  - intros [|[|n]] Hn; try lia; vm_compute; reflexivity.
Qed.

(** A mesh of two edges, one of which has been deleted and the mesh administrated since. *)
Definition with_deleted : mesh :=
  match delete_edge keep_order (built [pt 0 0; pt 4 0; pt 4 4] [(Some 0, Some 1); (Some 1, Some 2)]) (Some 1) with
  | Ok (_, m) => match administrate keep_order m with Ok m' => m' | _ => m end
  | _ => sample
  end.
Lemma join_missing_edge :
  exists m rhs a m' e,
    consistent m /\ administrated m /\ consistent rhs /\ administrated rhs /\
    nth_error (m_edges rhs) e = Some missing_edge /\
    join keep_order m rhs = Ok (a, m') /\ nth_error (m_edges m') (length (m_edges m) + e) = Some (Some 1, Some 1).
Proof.
  set (A := built [pt 0 0; pt 4 0] [(Some 0, Some 1)]).
  exists A, with_deleted. do 2 eexists. exists 1.
  assert (HA : consistent A /\ administrated A) by (apply built_ok; vm_compute; reflexivity).
  destruct HA as [CA AA]. split; auto. split; auto.
  assert (HB : consistent with_deleted /\ administrated with_deleted).
  { assert (E : exists m, administrate keep_order m = Ok with_deleted /\ well_indexedb (m_nodes m) (m_edges m) = true /\ m_nodes m <> [] /\ m_edges m <> [])
      by (exists (snd (match delete_edge keep_order (built [pt 0 0; pt 4 0; pt 4 4] [(Some 0, Some 1); (Some 1, Some 2)]) (Some 1) with Ok r => r | _ => (leaf (FullA [] []), sample) end));
          split; [vm_compute; reflexivity|]; split; [vm_compute; reflexivity|]; split; vm_compute; discriminate).
    destruct E as (m & E & W & N0 & E0). apply well_indexedb_ok in W.
    destruct (administrate_result keep_order keep_order_perm m with_deleted W E) as (N & Ed & _ & X).
    assert (W' : well_indexed (m_nodes with_deleted) (m_edges with_deleted)) by (apply well_indexedb_ok; vm_compute; reflexivity).
    split; [apply exact_consistent; auto|]. unfold administrated. apply (settled_iff _ _ W').
    destruct (admin_idem (m_nodes m) (m_edges m)) as [I1 I2]. rewrite <- N, <- Ed in I1, I2. exact (conj I1 I2). }
  destruct HB as [CB AB]. split; auto. split; auto.
  split; [vm_compute; reflexivity|]. split; [vm_compute; reflexivity|]. vm_compute. reflexivity.
Qed.

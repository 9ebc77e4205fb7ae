(** A flip keeps all tables in step. *)
From Coq Require Import Permutation.
From Verif Require Import Base BaseLemmas FloatModel UndoModel UndoSpec UndoProofs ActionModel ActionSpec ActionProofs
  MeshModel MeshSpec MeshProofs MeshAdj MeshUndo MeshEdits FaceModel FaceSpec FlipModel FlipSpec FlipProofs.

(** Everything about an edge between two triangles. *)
Record quad (m : mesh) (f : faces) (e a b l r lf rf al bl ar br : nat) : Prop := {
  q_e : e < length (m_edges m);
  q_ed : edge_at m e = (Some a, Some b);
  q_pair : nth_error (edges_faces f) e = Some (Some lf, Some rf);
  q_two : lf <> rf;
  q_nl : exists x y z, nth_error (faces_nodes f) lf = Some [x; y; z] /\ Permutation [x; y; z] [a; b; l];
  q_nr : exists x y z, nth_error (faces_nodes f) rf = Some [x; y; z] /\ Permutation [x; y; z] [a; b; r];
  q_el : exists x y z, nth_error (faces_edges f) lf = Some [x; y; z] /\ Permutation [x; y; z] [e; al; bl];
  q_er : exists x y z, nth_error (faces_edges f) rf = Some [x; y; z] /\ Permutation [x; y; z] [e; ar; br];
  q_ab : a <> b; q_al' : a <> l; q_bl' : b <> l; q_ar' : a <> r; q_br' : b <> r;
  q_al : al < length (m_edges m) /\ joins (edge_at m al) a l;
  q_bl : bl < length (m_edges m) /\ joins (edge_at m bl) b l;
  q_ar : ar < length (m_edges m) /\ joins (edge_at m ar) a r;
  q_br : br < length (m_edges m) /\ joins (edge_at m br) b r;
  q_thirds : third (nth lf (faces_nodes f) []) a b = Ok (Some l) /\ third (nth rf (faces_nodes f) []) a b = Ok (Some r);
  q_others : forall m', length (m_edges m') = length (m_edges m) -> (forall k, k <> e -> edge_at m' k = edge_at m k) ->
    other_edges m' f e lf a b = Ok (Some al, Some bl) /\ other_edges m' f e rf a b = Ok (Some ar, Some br) }.

Lemma quad_of m f e a b lf rf nl nr : in_step m f -> e < length (m_edges m) -> edge_at m e = (Some a, Some b) ->
  nth_error (edges_faces f) e = Some (Some lf, Some rf) -> nth_error (faces_nodes f) lf = Some nl -> nth_error (faces_nodes f) rf = Some nr ->
  length nl = 3 -> length nr = 3 -> exists l r al bl ar br, quad m f e a b l r lf rf al bl ar br.
Proof.
  intros Hs He Hed Hp Hnl Hnr Ll Lr. destruct (st_edge m f Hs e He) as (p & q & Hpq & Hl & Hd & _). rewrite Hp in Hpq. injection Hpq as <- <-.
  assert (D : lf <> rf) by (intros ->; specialize (Hd eq_refl); discriminate).
  destruct (proj2 (Hl lf) (or_introl eq_refl)) as (el & Hel & Il). destruct (proj2 (Hl rf) (or_intror eq_refl)) as (er & Her & Ir).
  destruct (st_face m f Hs lf nl el Hnl Hel) as (_ & N1 & C1 & _). destruct (st_face m f Hs rf nr er Hnr Her) as (_ & N2 & C2 & _).
  destruct (triangle_parts m e a b nl el Ll N1 C1 Il Hed) as (l & al & bl & P1 & P2 & T1 & (D1 & D2 & D3) & A1 & B1 & O1).
  destruct (triangle_parts m e a b nr er Lr N2 C2 Ir Hed) as (r & ar & br & P3 & P4 & T2 & (D4 & D5 & D6) & A2 & B2 & O2).
  exists l, r, al, bl, ar, br. destruct (length3 nl Ll) as (x & y & z & ->). destruct (length3 nr Lr) as (x' & y' & z' & ->).
  destruct (length3 el) as (u & v & w & ->); [destruct C1 as [C1 _]; rewrite C1; reflexivity|]. destruct (length3 er) as (u' & v' & w' & ->); [destruct C2 as [C2 _]; rewrite C2; reflexivity|].
  constructor; auto; try (eexists _, _, _; split; eassumption).
  split; [rewrite (nth_error_nth _ _ _ Hnl); exact T1|rewrite (nth_error_nth _ _ _ Hnr); exact T2].
Qed.

Lemma perm_last (a b l l' : nat) : Permutation [a; b; l] [a; b; l'] -> l = l'.
Proof. intros H. apply Permutation_cons_inv, Permutation_cons_inv in H. apply Permutation_length_1 in H. exact H. Qed.

Lemma quad_between m f e a b l r lf rf : in_step m f -> between m f e a b l r lf rf -> exists al bl ar br, quad m f e a b l r lf rf al bl ar br.
Proof.
  intros Hs (He & Hed & Hp & (nl & Hnl & Pl) & (nr & Hnr & Pr)).
  destruct (quad_of m f e a b lf rf nl nr Hs He Hed Hp Hnl Hnr) as (l' & r' & al & bl & ar & br & Q); [rewrite Pl; reflexivity|rewrite Pr; reflexivity|].
  destruct (q_nl _ _ _ _ _ _ _ _ _ _ _ _ _ Q) as (x & y & z & E & P). rewrite Hnl in E. injection E as ->. rewrite Pl in P. apply perm_last in P. subst l'.
  destruct (q_nr _ _ _ _ _ _ _ _ _ _ _ _ _ Q) as (x' & y' & z' & E & P). rewrite Hnr in E. injection E as ->. rewrite Pr in P. apply perm_last in P. subst r'.
  eauto.
Qed.
Lemma between_quad m f e a b l r lf rf al bl ar br : quad m f e a b l r lf rf al bl ar br -> between m f e a b l r lf rf.
Proof. intros Q. destruct (q_nl _ _ _ _ _ _ _ _ _ _ _ _ _ Q) as (x & y & z & H1 & H2). destruct (q_nr _ _ _ _ _ _ _ _ _ _ _ _ _ Q) as (x' & y' & z' & G1 & G2).
  split; [apply Q|]. split; [apply Q|]. split; [apply Q|]. split; eauto. Qed.

(** The edges of the quadrilateral differ. *)
Lemma quad_distinct m f e a b l r lf rf al bl ar br : quad m f e a b l r lf rf al bl ar br -> l <> r ->
  (al <> e /\ bl <> e /\ ar <> e /\ br <> e) /\ al <> bl /\ al <> ar /\ al <> br /\ bl <> ar /\ bl <> br /\ ar <> br.
Proof.
  intros Q Hlr. destruct Q as [He Hed _ _ _ _ _ _ D1 D2 D3 D4 D5 [_ Ja] [_ Jb] [_ Jc] [_ Jd] _ _].
  assert (K : forall x u v, joins (edge_at m x) u v -> x = e -> (u = a /\ v = b) \/ (u = b /\ v = a)) by (intros x u v J ->; eapply joins_same; eauto).
  assert (K2 : forall x y u v w z, joins (edge_at m x) u v -> joins (edge_at m y) w z -> x = y -> (u = w /\ v = z) \/ (u = z /\ v = w)) by (intros; subst; eapply joins_fun; eauto).
  assert (K' : forall x u v, joins (edge_at m x) u v -> ~ ((u = a /\ v = b) \/ (u = b /\ v = a)) -> x <> e) by (intros x u v J N E; apply N; eapply K; eauto).
  assert (K2' : forall x y u v w z, joins (edge_at m x) u v -> joins (edge_at m y) w z -> ~ ((u = w /\ v = z) \/ (u = z /\ v = w)) -> x <> y) by (intros x y u v w z J1 J2 N E; apply N; eapply K2; eauto).
  split; [split; [|split; [|split]]|split; [|split; [|split; [|split; [|split]]]]]; (eapply K'; [eassumption|lia]) || (eapply K2'; [eassumption|eassumption|lia]).
Qed.

Definition moved (p : option nat * option nat) (old new : nat) : option nat * option nat :=
  if eq_idx (fst p) (Some old) then (Some new, snd p) else (fst p, Some new).

(** The new tables of faces. *)
Definition turned_faces (f : faces) (e a b l r lf rf al bl ar br : nat) (p q : option nat * option nat) : faces :=
  Faces (edges_num_faces f) (set_nth bl (moved q lf rf) (set_nth ar (moved p rf lf) (edges_faces f)))
    (set_nth rf [l; r; b] (set_nth lf [l; r; a] (faces_nodes f))) (set_nth rf [e; br; bl] (set_nth lf [e; ar; al] (faces_edges f))) (num_faces_nodes f).

Lemma faces_step m f e a b l r lf rf al bl ar br : in_step m f -> quad m f e a b l r lf rf al bl ar br -> l <> r ->
  exists p q, nth_error (edges_faces f) ar = Some p /\ nth_error (edges_faces f) bl = Some q /\
    (let! f := set_face f lf (l, r, a) (e, ar, al) in
     let! f := set_face f rf (l, r, b) (e, br, bl) in
     let! f := move_edge f ar rf lf in
     move_edge f bl lf rf) = Ok (turned_faces f e a b l r lf rf al bl ar br p q).
Proof.
  intros Hs Q Hlr. destruct (quad_distinct _ _ _ _ _ _ _ _ _ _ _ _ _ Q Hlr) as ((E1 & E2 & E3 & E4) & D1 & D2 & D3 & D4 & D5 & D6).
  destruct (st_tables m f Hs) as (T1 & T2 & T3 & T4).
  destruct (q_nl _ _ _ _ _ _ _ _ _ _ _ _ _ Q) as (n0 & n1 & n2 & Hnl & _). destruct (q_nr _ _ _ _ _ _ _ _ _ _ _ _ _ Q) as (n0' & n1' & n2' & Hnr & _).
  destruct (q_el _ _ _ _ _ _ _ _ _ _ _ _ _ Q) as (e0 & e1 & e2 & Hel & _). destruct (q_er _ _ _ _ _ _ _ _ _ _ _ _ _ Q) as (e0' & e1' & e2' & Her & _).
  assert (Ll : lf < length (faces_nodes f)) by (apply nth_error_Some; congruence). assert (Lr : rf < length (faces_nodes f)) by (apply nth_error_Some; congruence).
  unfold num_faces in T1. pose proof (q_two _ _ _ _ _ _ _ _ _ _ _ _ _ Q) as Ht.
  destruct (q_ar _ _ _ _ _ _ _ _ _ _ _ _ _ Q) as [Lar _]. destruct (q_bl _ _ _ _ _ _ _ _ _ _ _ _ _ Q) as [Lbl _].
  destruct (nth_error (edges_faces f) ar) as [p|] eqn:Hp; [|apply nth_error_None in Hp; lia]. destruct (nth_error (edges_faces f) bl) as [q|] eqn:Hq; [|apply nth_error_None in Hq; lia].
  exists p, q. split; [reflexivity|]. split; [reflexivity|].
  unfold set_face. rewrite (proj2 (vget_ok _ _ _) Hnl). cbn [bind set_three]. rewrite vset_lt by exact Ll. cbn [bind]. rewrite (proj2 (vget_ok _ _ _) Hel). cbn [bind set_three].
  rewrite vset_lt by lia. cbn [bind edges_num_faces edges_faces faces_nodes faces_edges num_faces_nodes].
  rewrite (proj2 (vget_ok (set_nth lf _ (faces_nodes f)) _ _) (eq_trans (nth_error_set_nth_neq lf _ _ rf Ht) Hnr)). cbn [bind set_three]. rewrite vset_lt by (rewrite set_nth_length; exact Lr). cbn [bind].
  rewrite (proj2 (vget_ok (set_nth lf _ (faces_edges f)) _ _) (eq_trans (nth_error_set_nth_neq lf _ _ rf Ht) Her)). cbn [bind set_three]. rewrite vset_lt by (rewrite set_nth_length; lia). cbn [bind].
  unfold move_edge. cbn [edges_num_faces edges_faces faces_nodes faces_edges num_faces_nodes]. rewrite (proj2 (vget_ok _ _ _) Hp). cbn [bind]. rewrite vset_lt by lia. cbn [bind edges_num_faces edges_faces faces_nodes faces_edges num_faces_nodes].
  rewrite (proj2 (vget_ok (set_nth ar _ (edges_faces f)) _ _) (eq_trans (nth_error_set_nth_neq ar _ _ bl (not_eq_sym D4)) Hq)). cbn [bind]. rewrite vset_lt by (rewrite set_nth_length; lia). reflexivity.
Qed.

Lemma perm_in3 (x y z u v w k : nat) : Permutation [x; y; z] [u; v; w] -> In k [x; y; z] <-> k = u \/ k = v \/ k = w.
Proof. intros P. rewrite P. cbn. intuition congruence. Qed.

(** Which faces have which edges, before and after. *)
Lemma lists_at f i es k : nth_error (faces_edges f) i = Some es -> lists f i k <-> In k es.
Proof. intros H. unfold lists. split; [intros (es' & H1 & H2); congruence|eauto]. Qed.
Lemma lists_old m f e a b l r lf rf al bl ar br : quad m f e a b l r lf rf al bl ar br ->
  forall k, (lists f lf k <-> k = e \/ k = al \/ k = bl) /\ (lists f rf k <-> k = e \/ k = ar \/ k = br).
Proof.
  intros Q k. destruct (q_el _ _ _ _ _ _ _ _ _ _ _ _ _ Q) as (e0 & e1 & e2 & Hel & P1). destruct (q_er _ _ _ _ _ _ _ _ _ _ _ _ _ Q) as (e0' & e1' & e2' & Her & P2).
  rewrite (lists_at _ _ _ _ Hel), (lists_at _ _ _ _ Her). split; apply perm_in3; assumption.
Qed.
Lemma lists_new m f e a b l r lf rf al bl ar br p q : in_step m f -> quad m f e a b l r lf rf al bl ar br ->
  let f' := turned_faces f e a b l r lf rf al bl ar br p q in
  forall k, (lists f' lf k <-> k = e \/ k = ar \/ k = al) /\ (lists f' rf k <-> k = e \/ k = br \/ k = bl) /\ forall i, i <> lf -> i <> rf -> (lists f' i k <-> lists f i k).
Proof.
  intros Hs Q f' k. pose proof (q_two _ _ _ _ _ _ _ _ _ _ _ _ _ Q) as Ht. destruct (q_el _ _ _ _ _ _ _ _ _ _ _ _ _ Q) as (e0 & e1 & e2 & Hel & P1). destruct (q_er _ _ _ _ _ _ _ _ _ _ _ _ _ Q) as (e0' & e1' & e2' & Her & P2).
  assert (Ll : lf < length (faces_edges f)) by (apply nth_error_Some; congruence). assert (Lr : rf < length (faces_edges f)) by (apply nth_error_Some; congruence).
  assert (A1 : nth_error (faces_edges f') lf = Some [e; ar; al]) by (cbn; rewrite nth_error_set_nth_neq by auto; apply nth_error_set_nth_eq; exact Ll).
  assert (A2 : nth_error (faces_edges f') rf = Some [e; br; bl]) by (cbn; apply nth_error_set_nth_eq; rewrite set_nth_length; exact Lr).
  rewrite (lists_at _ _ _ _ A1), (lists_at _ _ _ _ A2). split; [apply perm_in3; reflexivity|]. split; [apply perm_in3; reflexivity|].
  intros i H1 H2. unfold lists, f'. cbn [faces_edges turned_faces]. now rewrite !nth_error_set_nth_neq by auto.
Qed.

Lemma moved_spec p q old new : (Some old = p \/ Some old = q) -> (p = q -> p = None) -> p <> Some new -> q <> Some new -> (p = None -> q = None) -> old <> new ->
  let p' := fst (moved (p, q) old new) in let q' := snd (moved (p, q) old new) in
  (forall i, p' = Some i \/ q' = Some i <-> i = new \/ (i <> old /\ (p = Some i \/ q = Some i))) /\ (p' = q' -> p' = None) /\ (p' = None -> q' = None) /\ known p' + known q' = known p + known q.
Proof.
  intros Ho Hd N1 N2 Hn Hon. unfold moved. cbn [fst snd]. destruct (eq_idx p (Some old)) eqn:E; cbn [fst snd].
  - apply eq_idx_ok in E. subst p. split; [|split; [intros <-; contradiction|split; [discriminate|reflexivity]]].
    intros i. split.
    + intros [H|H]; [injection H as ->; auto|]. right. split; [intros ->; specialize (Hd (eq_sym H)); discriminate|auto].
    + intros [->|(H1 & [H|H])]; auto. injection H as ->. contradiction.
  - assert (Hp : p <> Some old) by (intros ->; cbn in E; rewrite Nat.eqb_refl in E; discriminate). destruct Ho as [Ho|Ho]; [congruence|subst q].
    split; [|split; [intros ->; contradiction|split; [intros H; specialize (Hn H); discriminate|reflexivity]]].
    intros i. split.
    + intros [H|H]; [right; split; [intros ->; contradiction|auto]|injection H as ->; auto].
    + intros [->|(H1 & [H|H])]; auto. injection H as ->. contradiction.
Qed.

Lemma row_in m n x : In x (row_of m n) -> n < length (m_nodesEdges m).
Proof. intros H. destruct (Nat.ltb_spec n (length (m_nodesEdges m))) as [L|L]; [exact L|]. unfold row_of in H. rewrite nth_overflow in H by exact L. destruct H. Qed.

Lemma in_step_turned m f e a b l r lf rf al bl ar br p q m' : in_step m f -> quad m f e a b l r lf rf al bl ar br -> l <> r ->
  nth_error (edges_faces f) ar = Some p -> nth_error (edges_faces f) bl = Some q ->
  consistent m' -> m_nodes m' = m_nodes m -> length (m_edges m') = length (m_edges m) -> edge_at m' e = (Some l, Some r) -> (forall k, k <> e -> edge_at m' k = edge_at m k) ->
  (forall n, n < length (m_nodes m) -> degree_of m' n = length (row_of m' n) /\ NoDup (row_of m' n) /\ (forall oe, In oe (row_of m' n) -> exists x, oe = Some x) /\
    (forall x, x <> e -> (In (Some x) (row_of m' n) <-> In (Some x) (row_of m n))) /\ (In (Some e) (row_of m' n) <-> n = l \/ n = r)) ->
  in_step m' (turned_faces f e a b l r lf rf al bl ar br p q).
Proof.
  intros Hs Q Hlr Hp Hq Hc HN HE Hnew Hold Hrows. set (f' := turned_faces f e a b l r lf rf al bl ar br p q).
  destruct (quad_distinct _ _ _ _ _ _ _ _ _ _ _ _ _ Q Hlr) as ((E1 & E2 & E3 & E4) & D1 & D2 & D3 & D4 & D5 & D6).
  pose proof (lists_old _ _ _ _ _ _ _ _ _ _ _ _ _ Q) as LO. pose proof (lists_new _ _ _ _ _ _ _ _ _ _ _ _ _ p q Hs Q) as LN. fold f' in LN. cbn zeta in LN.
  destruct (st_tables m f Hs) as (T1 & T2 & T3 & T4). pose proof (q_two _ _ _ _ _ _ _ _ _ _ _ _ _ Q) as Ht. pose proof (q_e _ _ _ _ _ _ _ _ _ _ _ _ _ Q) as He.
  destruct (q_nl _ _ _ _ _ _ _ _ _ _ _ _ _ Q) as (n0 & n1 & n2 & Hnl & Pl). destruct (q_nr _ _ _ _ _ _ _ _ _ _ _ _ _ Q) as (n0' & n1' & n2' & Hnr & Pr).
  destruct (q_el _ _ _ _ _ _ _ _ _ _ _ _ _ Q) as (e0 & e1 & e2 & Hel & _). destruct (q_er _ _ _ _ _ _ _ _ _ _ _ _ _ Q) as (e0' & e1' & e2' & Her & _).
  assert (Ll : lf < length (faces_nodes f)) by (apply nth_error_Some; congruence). assert (Lr : rf < length (faces_nodes f)) by (apply nth_error_Some; congruence).
  destruct (st_face m f Hs lf _ _ Hnl Hel) as (_ & _ & _ & V1). destruct (st_face m f Hs rf _ _ Hnr Her) as (_ & _ & _ & V2).
  assert (Va : valid_at (m_nodes m) a = true) by (apply V1; rewrite Pl; cbn; auto). assert (Vb : valid_at (m_nodes m) b = true) by (apply V1; rewrite Pl; cbn; auto).
  assert (Vl : valid_at (m_nodes m) l = true) by (apply V1; rewrite Pl; cbn; auto). assert (Vr : valid_at (m_nodes m) r = true) by (apply V2; rewrite Pr; cbn; auto).
  pose proof (q_ab _ _ _ _ _ _ _ _ _ _ _ _ _ Q) as Nab. pose proof (q_al' _ _ _ _ _ _ _ _ _ _ _ _ _ Q) as Nal. pose proof (q_bl' _ _ _ _ _ _ _ _ _ _ _ _ _ Q) as Nbl.
  pose proof (q_ar' _ _ _ _ _ _ _ _ _ _ _ _ _ Q) as Nar. pose proof (q_br' _ _ _ _ _ _ _ _ _ _ _ _ _ Q) as Nbr.
  destruct (q_al _ _ _ _ _ _ _ _ _ _ _ _ _ Q) as [Lal Jal]. destruct (q_bl _ _ _ _ _ _ _ _ _ _ _ _ _ Q) as [Lbl Jbl].
  destruct (q_ar _ _ _ _ _ _ _ _ _ _ _ _ _ Q) as [Lar Jar]. destruct (q_br _ _ _ _ _ _ _ _ _ _ _ _ _ Q) as [Lbr Jbr].
  assert (Eonly : forall i, lists f i e -> i = lf \/ i = rf).
  { intros i Hi. destruct (st_edge m f Hs e He) as (p0 & q0 & Hpq & Hl & _). rewrite (q_pair _ _ _ _ _ _ _ _ _ _ _ _ _ Q) in Hpq. injection Hpq as <- <-. apply Hl in Hi as [H|H]; injection H as ->; auto. }
  constructor.
  - exact Hc.
  - unfold num_faces in *. cbn. rewrite !set_nth_length, T2, HE. repeat split; auto. apply nth_error_ext. intros i. rewrite !nth_error_map.
    destruct (Nat.eq_dec i rf) as [->|Nr]; [rewrite nth_error_set_nth_eq by (rewrite set_nth_length; exact Lr); rewrite Hnr; reflexivity|]. rewrite (nth_error_set_nth_neq rf) by auto.
    destruct (Nat.eq_dec i lf) as [->|Nl]; [rewrite nth_error_set_nth_eq by exact Ll; rewrite Hnl; reflexivity|]. rewrite nth_error_set_nth_neq by auto. reflexivity.
  - intros i ns es Hns Hes. cbn [f' turned_faces faces_nodes faces_edges] in Hns, Hes.
    assert (Lfe : lf < length (faces_edges f) /\ rf < length (faces_edges f)) by (unfold num_faces in T1; rewrite T1; split; assumption).
    destruct (Nat.eq_dec i rf) as [->|Nr].
    + rewrite nth_error_set_nth_eq in Hns by (rewrite set_nth_length; exact Lr). rewrite nth_error_set_nth_eq in Hes by (rewrite set_nth_length; first [apply Lfe | rewrite T4; assumption]). injection Hns as <-. injection Hes as <-.
      split; [cbn; constructor|]. split; [|split].
      * constructor; [cbn; intuition congruence|]. constructor; [cbn; intuition congruence|]. constructor; [intros []|constructor].
      * apply triangle_cycle. rewrite HE, Hnew, !Hold by assumption. split; [split; [exact He|left; reflexivity]|]. split; split; auto using joins_sym.
      * intros n Hn. rewrite HN. cbn in Hn. intuition congruence.
    + rewrite (nth_error_set_nth_neq rf) in Hns, Hes by auto. destruct (Nat.eq_dec i lf) as [->|Nl].
      * rewrite nth_error_set_nth_eq in Hns by exact Ll. rewrite nth_error_set_nth_eq in Hes by (first [apply Lfe | rewrite T4; assumption]). injection Hns as <-. injection Hes as <-. split; [cbn; constructor|]. split; [|split].
        -- constructor; [cbn; intuition congruence|]. constructor; [cbn; intuition congruence|]. constructor; [intros []|constructor].
        -- apply triangle_cycle. rewrite HE, Hnew, !Hold by assumption. split; [split; [exact He|left; reflexivity]|]. split; split; auto using joins_sym.
        -- intros n Hn. rewrite HN. cbn in Hn. intuition congruence.
      * rewrite nth_error_set_nth_neq in Hns, Hes by auto. destruct (st_face m f Hs i ns es Hns Hes) as (S1 & S2 & (S3 & S3') & S4). split; [exact S1|]. split; [exact S2|]. rewrite HN. split; [|exact S4].
        split; [exact S3|]. intros j x y k Hx Hy Hk. rewrite HE. rewrite Hold; [eapply S3'; eauto|]. intros ->.
        destruct (Eonly i) as [->| ->]; try contradiction. exists es. split; [exact Hes|]. unfold cyclic in Hk. eapply nth_error_In; eauto.
  - intros k Hk. rewrite HE in Hk. destruct (st_edge m f Hs k Hk) as (p0 & q0 & Hpq & Hl & Hd & Hn & Hm). cbn [f' turned_faces edges_faces edges_num_faces].
    destruct (Nat.eq_dec k bl) as [->|Kbl]; [|rewrite (nth_error_set_nth_neq bl) by auto; destruct (Nat.eq_dec k ar) as [->|Kar]].
    + rewrite nth_error_set_nth_eq by (rewrite set_nth_length; first [apply Lfe | rewrite T4; assumption]). assert (q = (p0, q0)) by congruence. subst q.
      destruct (moved_spec p0 q0 lf rf) as (M1 & M2 & M3 & M4); auto.
      { assert (H : lists f lf bl) by (apply LO; auto). apply Hl in H as [H|H]; auto. }
      { intros H. assert (X : lists f rf bl) by (apply Hl; auto). apply LO in X. intuition congruence. }
      { intros H. assert (X : lists f rf bl) by (apply Hl; auto). apply LO in X. intuition congruence. }
      eexists _, _. rewrite <- surjective_pairing. split; [reflexivity|]. split; [|split; [exact M2|split; [exact M3|rewrite M4; exact Hm]]].
      intros i. rewrite M1, <- Hl. destruct (Nat.eq_dec i rf) as [->|Nr]; [|destruct (Nat.eq_dec i lf) as [->|Nl]].
      * rewrite (proj1 (proj2 (LN bl))). intuition congruence.
      * rewrite (proj1 (LN bl)). intuition congruence.
      * rewrite (proj2 (proj2 (LN bl)) i Nl Nr). intuition congruence.
    + rewrite nth_error_set_nth_eq by (first [apply Lfe | rewrite T4; assumption]). assert (p = (p0, q0)) by congruence. subst p.
      destruct (moved_spec p0 q0 rf lf) as (M1 & M2 & M3 & M4); auto.
      { assert (H : lists f rf ar) by (apply LO; auto). apply Hl in H as [H|H]; auto. }
      { intros H. assert (X : lists f lf ar) by (apply Hl; auto). apply LO in X. intuition congruence. }
      { intros H. assert (X : lists f lf ar) by (apply Hl; auto). apply LO in X. intuition congruence. }
      eexists _, _. rewrite <- surjective_pairing. split; [reflexivity|]. split; [|split; [exact M2|split; [exact M3|rewrite M4; exact Hm]]].
      intros i. rewrite M1, <- Hl. destruct (Nat.eq_dec i rf) as [->|Nr]; [|destruct (Nat.eq_dec i lf) as [->|Nl]].
      * rewrite (proj1 (proj2 (LN ar))). intuition congruence.
      * rewrite (proj1 (LN ar)). intuition congruence.
      * rewrite (proj2 (proj2 (LN ar)) i Nl Nr). intuition congruence.
    + rewrite nth_error_set_nth_neq by auto. exists p0, q0. split; [exact Hpq|]. split; [|auto].
      intros i. rewrite <- Hl. destruct (Nat.eq_dec i rf) as [->|Nr]; [|destruct (Nat.eq_dec i lf) as [->|Nl]].
      * rewrite (proj1 (proj2 (LN k))), (proj2 (LO k)). intuition congruence.
      * rewrite (proj1 (LN k)), (proj1 (LO k)). intuition congruence.
      * apply (proj2 (proj2 (LN k)) i Nl Nr).
  - intros n Hn. rewrite HN in Hn. destruct (Hrows n Hn) as (R1 & R2 & R3 & R4 & R5). split; [exact R1|]. split; [exact R2|]. intros oe Ho. destruct (R3 oe Ho) as (x & ->).
    destruct (Nat.eq_dec x e) as [->|Hx].
    + exists e, (if n =? l then r else l). split; [reflexivity|]. rewrite HE. split; [exact He|]. rewrite Hnew. apply R5 in Ho.
      assert (Bl : l < length (m_nodes m) /\ r < length (m_nodes m)) by (split; apply nth_error_Some; unfold valid_at in Vl, Vr; [destruct (nth_error (m_nodes m) l)|destruct (nth_error (m_nodes m) r)]; congruence).
      destruct (Nat.eqb_spec n l) as [->|Nl]; [split; [left; reflexivity|apply Hrows; tauto]|]. destruct Ho as [->| ->]; [contradiction|]. split; [right; reflexivity|apply Hrows; tauto].
    + apply R4 in Ho; [|exact Hx]. destruct (st_row m f Hs n Hn) as (_ & _ & S). destruct (S _ Ho) as (y & o & Ey & Ly & Jy & Iy). injection Ey as <-. exists x, o. split; [reflexivity|]. rewrite HE. split; [exact Ly|].
      rewrite Hold by exact Hx. split; [exact Jy|]. apply Hrows; auto. rewrite <- (co_rows m (st_mesh m f Hs)). eapply row_in; eauto.
  - intros i k n Hk Hn. destruct (Nat.eq_dec k e) as [->|Hx].
    + rewrite Hnew in Hn. assert (X : n = l \/ n = r) by (destruct Hn as [H|H]; cbn in H; injection H as ->; auto).
      apply Hrows; [|exact X]. assert (V : valid_at (m_nodes m) n = true) by (destruct X as [->| ->]; assumption). apply nth_error_Some. unfold valid_at in V. destruct (nth_error (m_nodes m) n); congruence.
    + rewrite Hold in Hn by exact Hx.
      assert (X : exists j, lists f j k).
      { destruct (Nat.eq_dec i rf) as [->|Nr]; [|destruct (Nat.eq_dec i lf) as [->|Nl]].
        - apply LN in Hk as [->|[->| ->]]; [contradiction|exists rf|exists lf]; apply LO; auto.
        - apply LN in Hk as [->|[->| ->]]; [contradiction|exists rf|exists lf]; apply LO; auto.
        - exists i. apply LN; auto. }
      destruct X as (j & Hj). pose proof (st_listed m f Hs j k n Hj Hn) as Hr. apply Hrows; auto. rewrite <- (co_rows m (st_mesh m f Hs)). eapply row_in; eauto.
Qed.

Lemma valid_lt nodes n : valid_at nodes n = true -> n < length nodes.
Proof. intros V. apply nth_error_Some. unfold valid_at in V. destruct (nth_error nodes n); congruence. Qed.

Lemma set_edges_at m e ed k : e < length (m_edges m) -> edge_at (set_edges m (set_nth e ed (m_edges m))) k = if k =? e then ed else edge_at m k.
Proof.
  intros He. unfold edge_at. cbn. destruct (Nat.eqb_spec k e) as [->|Hk].
  - apply nth_error_nth. apply nth_error_set_nth_eq. exact He.
  - destruct (nth_error (m_edges m) k) as [x|] eqn:E.
    + rewrite (nth_error_nth _ _ _ E). apply nth_error_nth. rewrite nth_error_set_nth_neq by auto. exact E.
    + apply nth_error_None in E. rewrite !nth_overflow; auto. rewrite set_nth_length. exact E.
Qed.

Lemma perm_some (e x : nat) l l' : Permutation l (Some e :: l') -> x <> e -> In (Some x) l' <-> In (Some x) l.
Proof. intros P H. rewrite P. cbn. intuition congruence. Qed.

Section Order.
  Variable order : list point -> list edge -> nat -> list (option nat) -> list (option nat).
  Hypothesis order_perm : forall nodes edges n row, Permutation row (order nodes edges n row).

  Lemma flip_ok m f e a b l r lf rf : in_step m f -> between m f e a b l r lf rf -> l <> r ->
    (exists m' f', flip order m f e a b l r lf rf = Ok (leaf (ResetEdgeA e (edge_at m e) (Some l, Some r)), m', f') /\
      turned m f e a b l r lf rf m' f' /\ in_step m' f' /\ degree_of m l < max_edges_per_node /\ degree_of m r < max_edges_per_node /\
      mesh_le (set_edges m (set_nth e (Some l, Some r) (m_edges m))) m') \/
    (flip order m f e a b l r lf rf = UB /\ exists n, n < length (m_nodes m) /\ max_edges_per_node <= degree_of m n).
  Proof.
    intros Hs Hb Hlr. destruct (quad_between m f e a b l r lf rf Hs Hb) as (al & bl & ar & br & Q).
    pose proof (st_mesh m f Hs) as Hc. pose proof (q_e _ _ _ _ _ _ _ _ _ _ _ _ _ Q) as He. pose proof (q_two _ _ _ _ _ _ _ _ _ _ _ _ _ Q) as Ht.
    destruct (q_nl _ _ _ _ _ _ _ _ _ _ _ _ _ Q) as (n0 & n1 & n2 & Hnl & Pl). destruct (q_nr _ _ _ _ _ _ _ _ _ _ _ _ _ Q) as (n0' & n1' & n2' & Hnr & Pr).
    destruct (q_el _ _ _ _ _ _ _ _ _ _ _ _ _ Q) as (e0 & e1 & e2 & Hel & _). destruct (q_er _ _ _ _ _ _ _ _ _ _ _ _ _ Q) as (e0' & e1' & e2' & Her & _).
    destruct (st_face m f Hs lf _ _ Hnl Hel) as (_ & _ & _ & V1). destruct (st_face m f Hs rf _ _ Hnr Her) as (_ & _ & _ & V2).
    assert (Va : a < length (m_nodes m)) by (apply valid_lt, V1; rewrite Pl; cbn; auto). assert (Vb : b < length (m_nodes m)) by (apply valid_lt, V1; rewrite Pl; cbn; auto).
    assert (Vl' : valid_at (m_nodes m) l = true) by (apply V1; rewrite Pl; cbn; auto). assert (Vr' : valid_at (m_nodes m) r = true) by (apply V2; rewrite Pr; cbn; auto).
    pose proof (valid_lt _ _ Vl') as Vl. pose proof (valid_lt _ _ Vr') as Vr. clear V1 V2.
    pose proof (q_ab _ _ _ _ _ _ _ _ _ _ _ _ _ Q) as Nab. pose proof (q_al' _ _ _ _ _ _ _ _ _ _ _ _ _ Q) as Nal. pose proof (q_bl' _ _ _ _ _ _ _ _ _ _ _ _ _ Q) as Nbl.
    pose proof (q_ar' _ _ _ _ _ _ _ _ _ _ _ _ _ Q) as Nar. pose proof (q_br' _ _ _ _ _ _ _ _ _ _ _ _ _ Q) as Nbr.
    pose proof (q_ed _ _ _ _ _ _ _ _ _ _ _ _ _ Q) as Hed.
    set (m1 := set_edges m (set_nth e (Some l, Some r) (m_edges m))).
    destruct (reset_edge_ok order m e (Some l, Some r) Hc He) as (HR & _ & Hc1); [intros n [H|H]; injection H as <-; assumption|]. fold m1 in HR, Hc1. change (ge m e) with (edge_at m e) in HR.
    assert (At1 : forall k, edge_at m1 k = if k =? e then (Some l, Some r) else edge_at m k) by (intros k; apply set_edges_at; exact He).
    assert (L1 : length (m_edges m1) = length (m_edges m)) by (cbn; apply set_nth_length).
    destruct (q_others _ _ _ _ _ _ _ _ _ _ _ _ _ Q m1 L1) as [O1 O2]; [intros k Hk; rewrite At1; apply Nat.eqb_neq in Hk; now rewrite Hk|].
    destruct (faces_step m f e a b l r lf rf al bl ar br Hs Q Hlr) as (p & q & Hp & Hq & HF). apply bind_ok_inv in HF as (f1 & F1 & HF). apply bind_ok_inv in HF as (f2 & F2 & HF). apply bind_ok_inv in HF as (f3 & F3 & F4).
    assert (X0 : In (Some e) (row_of m a) /\ In (Some e) (row_of m b)).
    { assert (HL : lists f lf e) by (apply (lists_old _ _ _ _ _ _ _ _ _ _ _ _ _ Q); auto). split; apply (st_listed m f Hs lf e); auto; rewrite Hed; [left|right]; reflexivity. }
    destruct X0 as [Xa Xb].
    destruct (st_row m f Hs a Va) as (Da & Ua & Sa). destruct (st_row m f Hs b Vb) as (Db & Ub & Sb). destruct (st_row m f Hs l Vl) as (Dl & Ul & Sl). destruct (st_row m f Hs r Vr) as (Dr & Ur & Sr).
    assert (Notl : forall n, n <> a -> n <> b -> n < length (m_nodes m) -> ~ In (Some e) (row_of m n)).
    { intros n Na Nb Hn Hin. destruct (st_row m f Hs n Hn) as (_ & _ & S). destruct (S _ Hin) as (x & o & Ex & _ & J & _). injection Ex as <-. destruct (joins_same _ _ _ _ _ Hed J) as [[H _]|[H _]]; congruence. }
    destruct (length (row_of m a)) as [|da] eqn:La; [destruct (row_of m a); [destruct Xa|discriminate]|]. destruct (length (row_of m b)) as [|db] eqn:Lb; [destruct (row_of m b); [destruct Xb|discriminate]|].
    pose proof (shaped_init m1 Hc1) as S0. change (degree_of m1) with (degree_of m) in S0. change (row_of m1) with (row_of m) in S0.
    assert (NN : m_nodes m1 = m_nodes m) by reflexivity.
    destruct (lower_ok m1 _ _ m1 a da S0) as (m2 & E2 & S2); [exact Va|exact Da|].
    destruct (lower_ok m1 _ _ m2 b db S2) as (m3 & E3 & S3); [exact Vb|rewrite upd_neq by auto; exact Db|].
    destruct (raise_ok m1 _ _ m3 l S3) as (m4 & E4 & S4); [exact Vl|]. destruct (raise_ok m1 _ _ m4 r S4) as (m5 & E5 & S5); [exact Vr|].
    set (deg := upd r _ _) in S5.
    assert (Ga : deg a = da) by (unfold deg; rewrite !(upd_neq r), !(upd_neq l), upd_neq by auto; apply upd_eq).
    assert (Gb : deg b = db) by (unfold deg; rewrite !(upd_neq r), !(upd_neq l) by auto; apply upd_eq).
    assert (Gl : deg l = S (degree_of m l)) by (unfold deg; rewrite upd_neq, upd_eq by auto; f_equal; rewrite !upd_neq by auto; reflexivity).
    assert (Gr : deg r = S (degree_of m r)) by (unfold deg; rewrite upd_eq; f_equal; rewrite !upd_neq by auto; reflexivity).
    assert (Go : forall n, n <> a -> n <> b -> n <> l -> n <> r -> deg n = degree_of m n) by (intros n N1 N2 N3 N4; unfold deg; rewrite !upd_neq by auto; reflexivity).
    destruct (unlist_ok m1 _ _ m5 a e S5) as (rowa & m6 & E6 & Pa & S6); [exact Va|rewrite Ga; exact La|exact Xa|].
    destruct (unlist_ok m1 _ _ m6 b e S6) as (rowb & m7 & E7 & Pb & S7); [exact Vb|rewrite upd_neq, Gb by auto; exact Lb|rewrite upd_neq by auto; exact Xb|]. rewrite upd_neq in Pb by auto.
    assert (Hw1 : well_indexed (m_nodes m1) (m_edges m1)) by apply Hc1.
    assert (HU : flip order m f e a b l r lf rf = let! m8 := enlist order e l m7 in let! m9 := enlist order e r m8 in Ok (leaf (ResetEdgeA e (edge_at m e) (Some l, Some r)), m9, turned_faces f e a b l r lf rf al bl ar br p q)).
    { unfold flip. rewrite HR. cbn [bind]. change (set_edges m (set_nth e (Some l, Some r) (m_edges m))) with m1. rewrite O1. cbn [bind]. rewrite O2. cbn [bind]. rewrite F1. cbn [bind]. rewrite F2. cbn [bind]. rewrite F3. cbn [bind]. rewrite F4. cbn [bind].
      rewrite E2. cbn [bind]. rewrite E3. cbn [bind]. rewrite E4. cbn [bind]. rewrite E5. cbn [bind]. rewrite E6. cbn [bind]. rewrite E7. cbn [bind]. reflexivity. }
    rewrite HU. clear HU.
    assert (Rl : upd b rowb (upd a rowa (row_of m)) l = row_of m l) by (rewrite !upd_neq by auto; reflexivity).
    destruct (enlist_ok order order_perm m1 _ _ m7 l e (degree_of m l) S7) as [K1 K1']; [exact Vl|exact Gl|rewrite Rl; auto|exact Vl'|exact Hw1| |rewrite L1; exact He|].
    { rewrite Rl, L1. intros oe Ho. destruct (Sl oe Ho) as (x & _ & -> & Hx & _). eauto. }
    destruct (Nat.le_gt_cases (S (degree_of m l)) max_edges_per_node) as [Cl|Cl]; [|right; rewrite (K1' Cl); split; [reflexivity|exists l; split; [exact Vl|apply Nat.lt_succ_r; exact Cl]]].
    destruct (K1 Cl) as (rowl & m8 & E8 & P8 & S8). rewrite E8. cbn [bind]. clear K1 K1'. rewrite Rl in P8.
    assert (Rr : upd l rowl (upd b rowb (upd a rowa (row_of m))) r = row_of m r) by (rewrite !upd_neq by auto; reflexivity).
    destruct (enlist_ok order order_perm m1 _ _ m8 r e (degree_of m r) S8) as [K1 K1']; [exact Vr|exact Gr|rewrite Rr; auto|exact Vr'|exact Hw1| |rewrite L1; exact He|].
    { rewrite Rr, L1. intros oe Ho. destruct (Sr oe Ho) as (x & _ & -> & Hx & _). eauto. }
    destruct (Nat.le_gt_cases (S (degree_of m r)) max_edges_per_node) as [Cr|Cr]; [|right; rewrite (K1' Cr); split; [reflexivity|exists r; split; [exact Vr|apply Nat.lt_succ_r; exact Cr]]].
    destruct (K1 Cr) as (rowr & m9 & E9 & P9 & S9). rewrite E9. cbn [bind]. clear K1 K1'. rewrite Rr in P9. left.
    set (rows := upd r rowr _) in S9.
    assert (Ta : rows a = rowa) by (unfold rows; rewrite !(upd_neq r), !(upd_neq l), upd_neq by auto; apply upd_eq).
    assert (Tb : rows b = rowb) by (unfold rows; rewrite !(upd_neq r), !(upd_neq l) by auto; apply upd_eq).
    assert (Tl : rows l = rowl) by (unfold rows; rewrite upd_neq by auto; apply upd_eq).
    assert (Tr : rows r = rowr) by (unfold rows; apply upd_eq).
    assert (To : forall n, n <> a -> n <> b -> n <> l -> n <> r -> rows n = row_of m n) by (intros n N1 N2 N3 N4; unfold rows; rewrite !upd_neq by auto; reflexivity).
    destruct S9 as (nn & ne & E9' & Ln & Le & H9). assert (S9 : shaped m1 deg rows m9) by (exists nn, ne; auto).
    assert (N9 : m_nodes m9 = m_nodes m) by (rewrite E9'; reflexivity). assert (P9' : m_projection m9 = m_projection m) by (rewrite E9'; reflexivity).
    assert (M9 : m_edges m9 = m_edges m1) by (rewrite E9'; reflexivity).
    assert (At9 : forall k, edge_at m9 k = if k =? e then (Some l, Some r) else edge_at m k) by (intros k; unfold edge_at at 1; rewrite M9; apply At1).
    assert (Deg9 : forall n, n < length (m_nodes m) -> degree_of m9 n = deg n /\ row_of m9 n = rows n) by (intros n Hn; apply (shaped_degree m1 _ _ m9 n S9 Hn)).
    assert (HRows : forall n, n < length (m_nodes m) -> degree_of m9 n = length (row_of m9 n) /\ NoDup (row_of m9 n) /\ (forall oe, In oe (row_of m9 n) -> exists x, oe = Some x) /\
      (forall x, x <> e -> (In (Some x) (row_of m9 n) <-> In (Some x) (row_of m n))) /\ (In (Some e) (row_of m9 n) <-> n = l \/ n = r)).
    { intros n Hn. destruct (Deg9 n Hn) as [-> ->]. destruct (st_row m f Hs n Hn) as (Dn & Un & Sn).
      destruct (Nat.eq_dec n a) as [->|Na]; [|destruct (Nat.eq_dec n b) as [->|Nb]; [|destruct (Nat.eq_dec n l) as [->|Nl]; [|destruct (Nat.eq_dec n r) as [->|Nr]]]].
      - rewrite Ga, Ta. rewrite Pa in Un. inversion_clear Un as [|? ? U1 U2]. pose proof (Permutation_length Pa) as PL. rewrite La in PL. cbn in PL. split; [congruence|]. split; [exact U2|].
        split; [|split; [intros x Hx; apply (perm_some e x _ _ Pa Hx)|split; [contradiction|intros [H|H]; contradiction]]].
        intros oe Ho. destruct (Sn oe) as (x & _ & -> & _); [rewrite Pa; right; exact Ho|eauto].
      - rewrite Gb, Tb. rewrite Pb in Un. inversion_clear Un as [|? ? U1 U2]. pose proof (Permutation_length Pb) as PL. rewrite Lb in PL. cbn in PL. split; [congruence|]. split; [exact U2|].
        split; [|split; [intros x Hx; apply (perm_some e x _ _ Pb Hx)|split; [contradiction|intros [H|H]; contradiction]]].
        intros oe Ho. destruct (Sn oe) as (x & _ & -> & _); [rewrite Pb; right; exact Ho|eauto].
      - rewrite Gl, Tl. pose proof (Permutation_length P8) as PL. cbn in PL. split; [congruence|]. split; [rewrite <- P8; constructor; auto|].
        split; [|split; [intros x Hx; symmetry; apply (perm_some e x rowl); [symmetry; exact P8|exact Hx]|split; [auto|intros _; rewrite <- P8; left; reflexivity]]].
        intros oe Ho. rewrite <- P8 in Ho. destruct Ho as [<-|Ho]; [eauto|]. destruct (Sn oe Ho) as (x & _ & -> & _); eauto.
      - rewrite Gr, Tr. pose proof (Permutation_length P9) as PL. cbn in PL. split; [congruence|]. split; [rewrite <- P9; constructor; auto|].
        split; [|split; [intros x Hx; symmetry; apply (perm_some e x rowr); [symmetry; exact P9|exact Hx]|split; [auto|intros _; rewrite <- P9; left; reflexivity]]].
        intros oe Ho. rewrite <- P9 in Ho. destruct Ho as [<-|Ho]; [eauto|]. destruct (Sn oe Ho) as (x & _ & -> & _); eauto.
      - rewrite Go, To by auto. split; [exact Dn|]. split; [exact Un|]. split; [|split; [intros; reflexivity|split; [intros H; exfalso; revert H; apply Notl; auto|intros [H|H]; contradiction]]].
        intros oe Ho. destruct (Sn oe Ho) as (x & _ & -> & _); eauto. }
    assert (Hc9 : consistent m9).
    { constructor.
      - rewrite N9, M9. exact Hw1.
      - rewrite E9'. exact Ln.
      - rewrite E9'. exact Le.
      - intros n Hn. rewrite N9 in Hn. destruct (HRows n Hn) as (-> & _). apply Nat.le_refl.
      - intros n oe Ho. assert (Hn : n < length (m_nodes m)). { apply row_in in Ho. rewrite E9' in Ho. cbn in Ho. rewrite Le in Ho. exact Ho. }
        destruct (HRows n Hn) as (_ & _ & X3 & X4 & X5). destruct (X3 oe Ho) as (x & ->). exists x. split; [reflexivity|]. rewrite M9, L1.
        destruct (Nat.eq_dec x e) as [->|Hx]; [exact He|]. apply X4 in Ho; [|exact Hx]. destruct (st_row m f Hs n Hn) as (_ & _ & S). destruct (S _ Ho) as (y & _ & Ey & Hy & _). injection Ey as <-. exact Hy. }
    exists m9, (turned_faces f e a b l r lf rf al bl ar br p q). split; [reflexivity|].
    assert (HI : in_step m9 (turned_faces f e a b l r lf rf al bl ar br p q)).
    { apply in_step_turned with m; auto.
      - rewrite M9. exact L1.
      - rewrite At9, Nat.eqb_refl. reflexivity.
      - intros k Hk. rewrite At9. apply Nat.eqb_neq in Hk. now rewrite Hk. }
    split; [|split; [exact HI|split; [exact Cl|split; [exact Cr|split; [exists 0, 0; cbn [repeat]; rewrite !app_nil_r; rewrite E9'; repeat split; reflexivity|auto]]]]].
    assert (Ll : lf < length (faces_nodes f)) by (apply nth_error_Some; congruence). assert (Lr : rf < length (faces_nodes f)) by (apply nth_error_Some; congruence).
    split; [rewrite M9; auto|]. split; [rewrite At9, Nat.eqb_refl; reflexivity|]. split; [intros k Hk; rewrite At9; apply Nat.eqb_neq in Hk; now rewrite Hk|].
    split; [unfold num_faces; cbn; now rewrite !set_nth_length|].
    split; [intros i I1 I2; cbn [turned_faces faces_nodes faces_edges]; rewrite !nth_error_set_nth_neq by auto; auto|].
    split; [exists [l; r; a]; split; [cbn [turned_faces faces_nodes]; rewrite nth_error_set_nth_neq by auto; apply nth_error_set_nth_eq; exact Ll|reflexivity]|].
    split; [exists [l; r; b]; split; [cbn [turned_faces faces_nodes]; apply nth_error_set_nth_eq; rewrite set_nth_length; exact Lr|reflexivity]|].
    split; [apply (proj1 (lists_new _ _ _ _ _ _ _ _ _ _ _ _ _ p q Hs Q e)); auto|]. split; [apply (proj1 (proj2 (lists_new _ _ _ _ _ _ _ _ _ _ _ _ _ p q Hs Q e))); auto|].
    intros n. destruct (Nat.ltb_spec n (length (m_nodes m))) as [Hn|Hn].
    - destruct (Deg9 n Hn) as [-> _].
      destruct (Nat.eqb_spec n a) as [->|Na]; [|destruct (Nat.eqb_spec n b) as [->|Nb]; [|destruct (Nat.eqb_spec n l) as [->|Nl]; [|destruct (Nat.eqb_spec n r) as [->|Nr]]]]; cbn [orb].
      + replace (a =? l) with false by (symmetry; now apply Nat.eqb_neq). replace (a =? r) with false by (symmetry; now apply Nat.eqb_neq). cbn [orb]. rewrite Ga, Da, Nat.add_1_r, Nat.add_0_r. reflexivity.
      + replace (b =? l) with false by (symmetry; now apply Nat.eqb_neq). replace (b =? r) with false by (symmetry; now apply Nat.eqb_neq). cbn [orb]. rewrite Gb, Db, Nat.add_1_r, Nat.add_0_r. reflexivity.
      + rewrite Gl, Nat.add_1_r, Nat.add_0_r. reflexivity.
      + rewrite Gr, Nat.add_1_r, Nat.add_0_r. reflexivity.
      + rewrite Go by auto. reflexivity.
    - assert (K : forall x, x < length (m_nodes m) -> (n =? x) = false) by (intros x Hx; apply Nat.eqb_neq; intros ->; exact (Nat.lt_irrefl _ (Nat.lt_le_trans _ _ _ Hx Hn))).
      rewrite !K by assumption. cbn [orb]. f_equal. unfold degree_of. rewrite !nth_overflow; [reflexivity|rewrite (co_counts m Hc); exact Hn|rewrite (co_counts m9 Hc9), N9; exact Hn].
  Qed.
End Order.

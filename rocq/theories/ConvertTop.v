(** Proofs about the conversion of a mesh to a curvilinear grid: the whole conversion. *)
From Verif Require Import Base BaseLemmas FloatModel MeshModel MeshSpec MeshProofs MeshAdj MeshUndo MeshEdits FaceModel FaceSpec FaceMain FaceUseSpec FaceUseMain SplitModel SplitSpec SplitProofs ConvertModel ConvertSpec ConvertProofs ConvertMain ConvertFront ConvertGrow ConvertFinal ConvertComplete.
From Coq Require Import Permutation.

Definition cells_of (vis : list bool) : list nat := filter (fun q => nth q vis false) (seq 0 (length vis)).
Lemma cells_in vis q : In q (cells_of vis) <-> nth_error vis q = Some true.
Proof.
  unfold cells_of. rewrite filter_In, in_seq. split.
  - intros ((_ & H) & Hq). rewrite (nth_error_nth' vis false) by lia. now rewrite Hq.
  - intros H. split; [split; [lia|]; apply nth_error_Some; congruence|]. now apply nth_error_nth.
Qed.

Section Top.
  Variable m : mesh.
  Variable f : faces.
  Hypothesis C : consistent m.
  Hypothesis A : adjacency_exact m.
  Hypothesis U : usable m f.
  Hypothesis P : proper_cells m f.
  Hypothesis NB : no_bare_edges m f.
  Hypothesis Few : num_faces f < 999.

  Lemma quad_points start n0 n1 n2 n3 : quad_nodes f start [n0; n1; n2; n3] -> exists p0 p1 p2 p3, nth_error (m_nodes m) n0 = Some p0 /\ nth_error (m_nodes m) n1 = Some p1 /\ nth_error (m_nodes m) n2 = Some p2 /\ nth_error (m_nodes m) n3 = Some p3.
  Proof using U P.
    intros Q. destruct (quad_facts m f U P start _ Q) as (es & He & _). destruct U as (_ & UU). destruct Q as (Q & _). destruct (UU start _ es Q He) as (_ & _ & Hn & _).
    assert (X : forall n, In n [n0; n1; n2; n3] -> exists p, nth_error (m_nodes m) n = Some p).
    { intros n H. apply Hn in H. destruct (nth_error (m_nodes m) n) eqn:E; [eauto|apply nth_error_None in E; clear Few; lia]. }
    destruct (X n0) as (p0 & H0); [cbn; auto|]. destruct (X n1) as (p1 & H1); [cbn; auto|]. destruct (X n2) as (p2 & H2); [cbn; auto|]. destruct (X n3) as (p3 & H3); [cbn; auto|]. exists p0, p1, p2, p3. auto.
  Qed.
  Lemma compute_front start inside g n0 n1 n2 n3 : quad_nodes f start [n0; n1; n2; n3] -> (forall l, inside l = true) ->
    compute m f start inside g = let! r := front m f start g in match r with None => Ok None | Some (_, s) => let! rows := curvilinear_matrix m s in Ok (Some (rows, c_map s)) end.
  Proof.
    intros Q Hin. destruct (quad_points start _ _ _ _ Q) as (p0 & p1 & p2 & p3 & H0 & H1 & H2 & H3). destruct (quad_facts m f U P start _ Q) as (_ & _ & _ & _ & _ & _ & K). destruct Q as (Q & _).
    unfold compute. unfold vget at 1. rewrite K. cbn [bind Nat.eqb negb]. unfold vget at 1. rewrite Q. cbn [bind vget nth_error]. unfold node_at. rewrite H0, H1, H2, H3. cbn [bind]. rewrite Hin. reflexivity.
  Qed.
  Lemma quad_list start ns : quad_nodes f start ns -> exists n0 n1 n2 n3, ns = [n0; n1; n2; n3].
  Proof. intros (_ & L). destruct ns as [|n0 [|n1 [|n2 [|n3 [|]]]]]; try discriminate. eauto. Qed.
  Lemma start_going (good : conversion -> Prop) next_to (from : nat -> Prop) start ns s : inv m s -> good s -> from start -> quad_nodes f start ns -> unit_cell (grid_pos s) ns ->
    (forall n p, grid_pos s n = Some p -> low 0 p /\ In n ns) -> going m f good next_to from [start] (repeat false (num_faces f)) s.
  Proof.
    intros I G Fr Q Un Lo.
    assert (X : forall q, nth_error (repeat false (num_faces f)) q <> Some true) by (intros q H; apply nth_error_In, repeat_spec in H; discriminate).
    constructor.
    - exact I.
    - exact G.
    - apply repeat_length.
    - intros q [<-|[]]. split; [exact Fr|]. exists ns. split; assumption.
    - intros q H. destruct (X q H).
    - intros n p H. destruct (Lo n p H) as (L1 & L2). rewrite seen_none. split; [exact L1|]. exists start, ns. split; [left; now left|]. split; assumption.
    - intros q nf H. destruct (X q H).
  Qed.
  Lemma cell_neighbours c ns pos a b p q : quad_nodes f c ns -> unit_cell pos ns -> In a ns -> In b ns -> pos a = Some p -> pos b = Some q -> beside p q -> neighbour m a b.
  Proof.
    intros Q (n0 & n1 & n2 & n3 & p0 & p1 & p2 & p3 & -> & P0 & P1 & P2 & P3 & B0 & B1 & B2 & B3 & N1 & N2) Ha Hb Pa Pb B. destruct (quad_facts m f U P c _ Q) as (es & He & Le & _ & _ & (_ & Cy) & _).
    destruct es as [|e0 [|e1 [|e2 [|e3 [|]]]]]; try discriminate.
    assert (J0 : neighbour m n0 n1) by (exists e0; apply (Cy 0); reflexivity). assert (J1 : neighbour m n1 n2) by (exists e1; apply (Cy 1); reflexivity).
    assert (J2 : neighbour m n2 n3) by (exists e2; apply (Cy 2); reflexivity). assert (J3 : neighbour m n3 n0) by (exists e3; apply (Cy 3); reflexivity).
    assert (X02 : ~ beside p0 p2) by (clear - B0 B1; unfold beside in *; destruct p0, p1, p2; cbn in *; lia). assert (X13 : ~ beside p1 p3) by (clear - B1 B2; unfold beside in *; destruct p3, p1, p2; cbn in *; lia).
    destruct Ha as [<-|[<-|[<-|[<-|[]]]]]; destruct Hb as [<-|[<-|[<-|[<-|[]]]]]; rewrite ?P0, ?P1, ?P2, ?P3 in Pa; rewrite ?P0, ?P1, ?P2, ?P3 in Pb; injection Pa as <-; injection Pb as <-;
      first [assumption|apply near_sym; assumption|exfalso; apply beside_neq in B; congruence|exfalso; apply X02; auto using beside_sym; fail|exfalso; apply X13; auto using beside_sym; fail].
  Qed.

  Lemma compute_laid_out start ns inside garbage : quad_nodes f start ns -> (forall l, inside l = true) ->
    exists rows g pos cells, compute m f start inside (fresh garbage) = Ok (Some (rows, g)) /\ laid_out m f start pos cells rows /\
      (forall c ms a b p q, In c cells -> quad_nodes f c ms -> In a ms -> In b ms -> pos a = Some p -> pos b = Some q -> beside p q -> neighbour m a b) /\
      (few_common m -> (forall a b p, pos a = Some p -> pos b = Some p -> a = b) /\ forall a b p q, pos a = Some p -> pos b = Some q -> beside p q -> neighbour m a b).
  Proof.
    intros Q Hin. destruct (quad_list start ns Q) as (n0 & n1 & n2 & n3 & ->). rewrite (compute_front start inside (fresh garbage) _ _ _ _ Q Hin). unfold front.
    destruct (first_cell_ok m f C U P start (fresh garbage) n0 n1 n2 n3 (fresh_clear garbage) Q) as (s & -> & I & O & Un & Lo & G1 & _). cbn [bind].
    destruct (grow_ok m f C A U P NB Few (fun _ => True) (fun _ _ => False)) with (from := fun _ : nat => True) (fuel := S (4 * num_faces f)) (queue := [start]) (vis := repeat false (num_faces f)) (s := s)
      as (vis' & s' & F1 & F2 & F3 & F4 & F5 & F6); auto.
    - intros ? ? ? ? ? ? ? ? ? ? ? ? ? ? ? [].
    - apply (start_going _ _ _ start [n0; n1; n2; n3]); auto.
    - rewrite unseen_all. cbn. lia.
    - rewrite F1. cbn [bind]. destruct (matrix_ok m s' n1 (0, 0)%Z (iv_raw m s' (go_inv _ _ _ _ _ _ _ _ F2)) (F3 _ _ G1)) as (rows & -> & M). cbn [bind].
      exists rows, (c_map s'), (grid_pos s'), (cells_of vis'). split; [reflexivity|].
      assert (Hcell : forall c, In c (cells_of vis') -> exists ms, quad_nodes f c ms /\ unit_cell (grid_pos s') ms) by (intros c Hc; apply cells_in in Hc; apply (go_seen _ _ _ _ _ _ _ _ F2) in Hc as (_ & H); exact H).
      split; [|split].
      + constructor; [apply cells_in, F6; now left|exact Hcell| |exact M]. intros n p Hp. destruct (go_nodes _ _ _ _ _ _ _ _ F2 n p Hp) as (_ & q & ms & [[]|Hq] & X). exists q, ms. split; [now apply cells_in|exact X].
      + intros c ms a b p q Hc Qc Ha Hb Pa Pb B. destruct (Hcell c Hc) as (ms' & Q' & Un'). assert (ms' = ms) as -> by (destruct Qc as (X & _), Q' as (Y & _); congruence). exact (cell_neighbours c ms (grid_pos s') a b p q Qc Un' Ha Hb Pa Pb B).
      + intros Fw. pose proof (F4 Fw O) as Once. split; [exact Once|]. intros a b p q Pa Pb B. pose proof (go_inv _ _ _ _ _ _ _ _ F2) as I'.
        destruct (iv_pos m s' I' a p Pa) as (a' & Ea). destruct (iv_pos m s' I' b q Pb) as (b' & Eb). pose proof (iv_join m s' I' p q a' b' B Ea Eb) as J.
        rewrite (Once a a' p Pa (iv_map m s' I' _ _ Ea)), (Once b b' q Pb (iv_map m s' I' _ _ Eb)). exact J.
  Qed.

  Lemma compute_complete start n0 n1 n2 n3 inside garbage place : quad_nodes f start [n0; n1; n2; n3] -> (forall l, inside l = true) ->
    lists_all m -> cells_once f -> gridded m f place -> place n1 = Some (0, 0)%Z -> place n2 = Some (1, 0)%Z -> place n3 = Some (1, 1)%Z -> place n0 = Some (0, 1)%Z ->
    exists rows g pos cells, compute m f start inside (fresh garbage) = Ok (Some (rows, g)) /\ laid_out m f start pos cells rows /\
      (forall c, In c cells <-> reached f start c) /\ (forall n p, pos n = Some p -> place n = Some p).
  Proof.
    intros Q Hin L O G H1 H2 H3 H0. rewrite (compute_front start inside (fresh garbage) _ _ _ _ Q Hin). unfold front.
    destruct (first_cell_ok m f C U P start (fresh garbage) n0 n1 n2 n3 (fresh_clear garbage) Q) as (s & -> & I & On & Un & Lo & G1 & G2 & G3 & G0). cbn [bind].
    destruct (grow_ok m f C A U P NB Few (placed_right place) (next_to f)) with (from := reached f start) (fuel := S (4 * num_faces f)) (queue := [start]) (vis := repeat false (num_faces f)) (s := s)
      as (vis' & s' & F1 & F2 & F3 & F4 & F5 & F6).
    - intros x y. apply right_same.
    - intros *. exact (right_cross m f C A U P L O place G s0 s' face fns first second nf d vis ns a b c c' pa pb o).
    - intros *. exact (reached_cross m f C A U P L place G start s0 s' face fns first second nf d vis ns a b c c' pa pb o).
    - intros *. exact (right_closes m f C A U P L O place G s0 face ns loc vis news nf o).
    - apply (start_going _ _ _ start [n0; n1; n2; n3]); auto; [|constructor]. intros n p Hp. destruct (Lo n p Hp) as (_ & [<-|[<-|[<-|[<-|[]]]]]); congruence.
    - rewrite unseen_all. cbn. lia.
    - rewrite F1. cbn [bind]. destruct (matrix_ok m s' n1 (0, 0)%Z (iv_raw m s' (go_inv _ _ _ _ _ _ _ _ F2)) (F3 _ _ G1)) as (rows & -> & M). cbn [bind].
      exists rows, (c_map s'), (grid_pos s'), (cells_of vis'). split; [reflexivity|]. split; [|split].
      + constructor; [apply cells_in, F6; now left| | |exact M].
        * intros c Hc. apply cells_in in Hc. apply (go_seen _ _ _ _ _ _ _ _ F2) in Hc as (_ & H). exact H.
        * intros n p Hp. destruct (go_nodes _ _ _ _ _ _ _ _ F2 n p Hp) as (_ & q & ms & [[]|Hq] & X). exists q, ms. split; [now apply cells_in|exact X].
      + intros c. rewrite cells_in. split; [intros H; apply (go_seen _ _ _ _ _ _ _ _ F2 c H)|].
        intros H. induction H as [|a b e ms Ha IH Ia Ib Qb]; [apply F6; now left|]. destruct (Nat.eq_dec b a) as [->|N]; [exact IH|].
        destruct (go_closed _ _ _ _ _ _ _ _ F2 a b IH) as [X|[]]; [|exact X]. split; [exact N|]. exists e, ms. split; [exact Ia|]. split; assumption.
      + exact (go_good _ _ _ _ _ _ _ _ F2).
  Qed.
End Top.

Lemma compute_not_quad m f start inside g k : nth_error (num_faces_nodes f) start = Some k -> k <> 4 -> compute m f start inside g = Throw AlgorithmErr.
Proof. intros H N. unfold compute, vget at 1. rewrite H. cbn [bind]. now rewrite (proj2 (Nat.eqb_neq k 4)). Qed.
Lemma compute_outside m f start ns inside g : usable m f -> proper_cells m f -> quad_nodes f start ns -> (forall l, inside l = false) -> compute m f start inside g = Throw AlgorithmErr.
Proof.
  intros U P Q Hin. destruct (quad_list f start ns Q) as (n0 & n1 & n2 & n3 & ->). destruct (quad_points m f U P start _ _ _ _ Q) as (p0 & p1 & p2 & p3 & H0 & H1 & H2 & H3).
  destruct (quad_facts m f U P start _ Q) as (_ & _ & _ & _ & _ & _ & K). destruct Q as (Q & _).
  unfold compute. unfold vget at 1. rewrite K. cbn [bind Nat.eqb negb]. unfold vget at 1. rewrite Q. cbn [bind vget nth_error]. unfold node_at. rewrite H0, H1, H2, H3. cbn [bind]. rewrite Hin. reflexivity.
Qed.

Section Whole.
  Variable order : list point -> list edge -> nat -> list (option nat) -> list (option nat).
  Hypothesis order_perm : forall nodes edges n row, Permutation row (order nodes edges n row).
  Variable clockwise : projection -> list point -> bool.

  Lemma search_ready m m' f : well_indexed (m_nodes m) (m_edges m) -> administrate2d order clockwise m = Ok (m', f) -> num_faces f <> 0 ->
    consistent m' /\ adjacency_exact m' /\ usable m' f /\ proper_cells m' f /\ cells_once f.
  Proof.
    intros Hw H N. destruct (search_usable order order_perm clockwise m m' f Hw H) as (U & _). destruct (faces_cycles order order_perm clockwise m m' f Hw H) as (Lf & Fc).
    assert (P : proper_cells m' f) by (intros i ns es H1 H2; destruct (Fc i ns es H1 H2) as (_ & D1 & D2 & Cy & _); auto).
    assert (Hx : administrate order m = Ok m') by (destruct (faces_safe order order_perm clockwise m Hw) as (m2 & f2 & X & Y); rewrite H in X; injection X as <- <-; exact Y).
    destruct (administrate_result order order_perm m m' Hw Hx) as (Nn & Ne & _ & Ad).
    assert (E : exists e, e < length (m_edges m') /\ exists n, n < length (m_nodes m')).
    { destruct U as ((T & _) & UU). destruct (faces_nodes f) as [|ns l] eqn:En; [unfold num_faces in N; rewrite En in N; now destruct N|]. unfold num_faces in T. rewrite En in T. destruct (faces_edges f) as [|es l'] eqn:Ee; [discriminate|].
      destruct (UU 0 ns es eq_refl eq_refl) as (L1 & L2 & U1 & U2). destruct es as [|e es]; [cbn in L2; lia|]. destruct ns as [|n ns]; [cbn in L1; lia|]. exists e. split; [apply U2; now left|]. exists n. apply U1. now left. }
    destruct E as (e & He & n & Hn). assert (Hnn : m_nodes m <> []).
    { intros E. rewrite Nn, E in Hn. unfold admin_nodes in Hn. cbn in Hn. lia. }
    assert (Hne : m_edges m <> []). { intros E. rewrite Ne, E in He. cbn in He. lia. }
    pose proof (Ad Hnn Hne) as A. split.
    - apply exact_consistent; [|exact A]. rewrite Nn, Ne. now apply admin_well_indexed.
    - split; [exact A|]. split; [exact U|]. split; [exact P|]. exact (proj1 (faces_once order order_perm clockwise m m' f Hw H)).
  Qed.
  Lemma convert_read m m' f nearest inside garbage : m_nodes m <> [] -> administrate2d order clockwise m = Ok (m', f) -> num_faces f <> 0 ->
    convert order clockwise m nearest inside garbage = let! r := compute m' f (nearest m' f) inside (fresh garbage) in Ok (match r with Some (rows, _) => Some rows | None => None end, m').
  Proof. intros Hn H N. unfold convert. destruct (m_nodes m) eqn:E; [now destruct Hn|]. rewrite H. cbn [bind]. now rewrite (proj2 (Nat.eqb_neq _ _) N). Qed.

  Lemma some_face f start ns : quad_nodes f start ns -> num_faces f <> 0.
  Proof. intros (H & _). assert (start < length (faces_nodes f)) by (apply nth_error_Some; congruence). unfold num_faces. lia. Qed.

  Lemma convert_laid_out m m' f nearest ns inside garbage : well_indexed (m_nodes m) (m_edges m) -> m_nodes m <> [] -> administrate2d order clockwise m = Ok (m', f) ->
    no_bare_edges m' f -> num_faces f < 999 -> quad_nodes f (nearest m' f) ns -> (forall l, inside l = true) ->
    exists rows pos cells, convert order clockwise m nearest inside garbage = Ok (Some rows, m') /\ laid_out m' f (nearest m' f) pos cells rows /\
      (forall c ms a b p q, In c cells -> quad_nodes f c ms -> In a ms -> In b ms -> pos a = Some p -> pos b = Some q -> beside p q -> neighbour m' a b) /\
      (few_common m' -> (forall a b p, pos a = Some p -> pos b = Some p -> a = b) /\ forall a b p q, pos a = Some p -> pos b = Some q -> beside p q -> neighbour m' a b).
  Proof.
    intros Hw Hn H NB Few Q Hin. pose proof (some_face f _ ns Q) as N. destruct (search_ready m m' f Hw H N) as (C & A & U & P & O).
    destruct (compute_laid_out m' f C A U P NB Few (nearest m' f) ns inside garbage Q Hin) as (rows & g & pos & cells & E & R). exists rows, pos, cells. split; [|exact R].
    rewrite (convert_read m m' f nearest inside garbage Hn H N), E. reflexivity.
  Qed.
  Lemma convert_complete m m' f nearest n0 n1 n2 n3 inside garbage place : well_indexed (m_nodes m) (m_edges m) -> m_nodes m <> [] -> administrate2d order clockwise m = Ok (m', f) ->
    no_bare_edges m' f -> num_faces f < 999 -> quad_nodes f (nearest m' f) [n0; n1; n2; n3] -> (forall l, inside l = true) ->
    lists_all m' -> gridded m' f place -> place n1 = Some (0, 0)%Z -> place n2 = Some (1, 0)%Z -> place n3 = Some (1, 1)%Z -> place n0 = Some (0, 1)%Z ->
    exists rows pos cells, convert order clockwise m nearest inside garbage = Ok (Some rows, m') /\ laid_out m' f (nearest m' f) pos cells rows /\
      (forall c, In c cells <-> reached f (nearest m' f) c) /\ (forall n p, pos n = Some p -> place n = Some p).
  Proof.
    intros Hw Hn H NB Few Q Hin L G H1 H2 H3 H0. pose proof (some_face f _ _ Q) as N. destruct (search_ready m m' f Hw H N) as (C & A & U & P & O).
    destruct (compute_complete m' f C A U P NB Few (nearest m' f) n0 n1 n2 n3 inside garbage place Q Hin L O G H1 H2 H3 H0) as (rows & g & pos & cells & E & R). exists rows, pos, cells. split; [|exact R].
    rewrite (convert_read m m' f nearest inside garbage Hn H N), E. reflexivity.
  Qed.
  (** Without nodes, without faces, at a face that is not a quadrilateral, or outside the nearest face: an error. *)
  Lemma convert_errors m nearest inside garbage : well_indexed (m_nodes m) (m_edges m) ->
    (m_nodes m = [] -> convert order clockwise m nearest inside garbage = Throw AlgorithmErr) /\
    forall m' f, administrate2d order clockwise m = Ok (m', f) -> nearest m' f < num_faces f \/ num_faces f = 0 ->
      num_faces f = 0 \/ (forall ns, ~ quad_nodes f (nearest m' f) ns) \/ (forall l, inside l = false) -> convert order clockwise m nearest inside garbage = Throw AlgorithmErr.
  Proof.
    intros Hw. split; [intros E; unfold convert; now rewrite E|]. intros m' f H Hl Hc. destruct (m_nodes m) as [|p l] eqn:En; [unfold convert; now rewrite En|].
    destruct (Nat.eq_dec (num_faces f) 0) as [Z|N]; [unfold convert; rewrite En, H; cbn [bind]; now rewrite Z|]. rewrite <- En in Hw.
    rewrite (convert_read m m' f nearest inside garbage) by (auto; congruence). destruct Hl as [Hl|]; [|contradiction]. destruct (search_ready m m' f Hw H N) as (_ & _ & U & P & _).
    destruct (nth_error (faces_nodes f) (nearest m' f)) as [ns|] eqn:Ens; [|apply nth_error_None in Ens; unfold num_faces in Hl; lia].
    destruct (Nat.eq_dec (length ns) 4) as [L4|N4].
    - destruct Hc as [?|[Hc|Hc]]; [contradiction|destruct (Hc ns); split; auto|]. rewrite (compute_outside m' f (nearest m' f) ns inside (fresh garbage) U P (conj Ens L4) Hc). reflexivity.
    - rewrite (compute_not_quad m' f (nearest m' f) inside (fresh garbage) (length ns)); [reflexivity| |exact N4]. destruct U as ((_ & T & _) & _). rewrite T, nth_error_map, Ens. reflexivity.
  Qed.
End Whole.

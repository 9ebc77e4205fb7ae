(** Proofs about the conversion of a mesh to a curvilinear grid: reading cells and checking connections. *)
From Verif Require Import Base BaseLemmas FloatModel MeshModel MeshSpec MeshAdj MeshEdits FaceModel FaceSpec FaceUseSpec SplitModel SplitSpec SplitProofs ConvertModel ConvertSpec.

(** The value in the growing matrix, none outside its range. *)
Definition map_val (g : growing) (j i : Z) : option nat := if in_range g j i then g_at g j i else None.
Definition grid_pos (s : conversion) (n : nat) : option (Z * Z) :=
  match nth_error (c_i s) n, nth_error (c_j s) n with
  | Some i, Some j => if ((i =? missing_int) || (j =? missing_int))%Z then None else Some (i, j)
  | _, _ => None
  end.

Lemma in_range_iff g j i : in_range g j i = true <-> (g_lo_j g <= j <= g_hi_j g /\ g_lo_i g <= i <= g_hi_i g)%Z.
Proof. unfold in_range. rewrite !andb_true_iff, !Z.leb_le. lia. Qed.
Lemma resize_val g a b c d j i : map_val (map_resize g a b c d) j i = map_val g j i.
Proof.
  unfold map_val. destruct (in_range g j i) eqn:E.
  - assert (in_range (map_resize g a b c d) j i = true) as ->; [|cbn; now rewrite E]. apply in_range_iff in E. apply in_range_iff. cbn. lia.
  - destruct (in_range (map_resize g a b c d) j i); [cbn; now rewrite E|reflexivity].
Qed.
Lemma resize_in g a b c d j i : (a <= j <= c -> b <= i <= d -> in_range (map_resize g a b c d) j i = true)%Z.
Proof. intros. apply in_range_iff. cbn. lia. Qed.
Lemma resize_keeps g a b c d j i : in_range g j i = true -> in_range (map_resize g a b c d) j i = true.
Proof. rewrite !in_range_iff. cbn. lia. Qed.
Lemma set_val g j i n : in_range g j i = true -> exists g', map_set g j i n = Ok g' /\ (forall j' i', in_range g' j' i' = in_range g j' i') /\
  forall j' i', map_val g' j' i' = if ((j' =? j) && (i' =? i))%Z then Some n else map_val g j' i'.
Proof.
  intros H. unfold map_set. rewrite H. eexists. split; [reflexivity|]. split; [reflexivity|]. intros j' i'. unfold map_val at 1. change (in_range (Growing _ _ _ _ _) j' i') with (in_range g j' i'). cbn [g_at].
  unfold map_val. destruct (Z.eqb_spec j' j) as [->|]; destruct (Z.eqb_spec i' i) as [->|]; cbn; try reflexivity. now rewrite H.
Qed.
Lemma get_val g j i : in_range g j i = true -> map_get g j i = Ok (map_val g j i).
Proof. intros H. unfold map_get, map_val. now rewrite H. Qed.

(** *** Cells of the grid *)
Lemma beside_cases i j k l : beside (i, j) (k, l) -> (k = i + 1 /\ l = j \/ k = i - 1 /\ l = j \/ k = i /\ l = j + 1 \/ k = i /\ l = j - 1)%Z.
Proof. unfold beside. cbn. lia. Qed.
Lemma beside_sym p q : beside p q -> beside q p.
Proof. unfold beside. lia. Qed.
Lemma unit_turn pos a b c d : unit_cell pos [a; b; c; d] -> unit_cell pos [b; c; d; a].
Proof. intros (a' & b' & c' & d' & p & q & r & s & E & H). injection E as <- <- <- <-. exists b, c, d, a, q, r, s, p. intuition. Qed.
Lemma pick_found {A} (test : A -> bool) (out : A -> nat) l : forall r, (exists x, In x l /\ test x = true) ->
  exists x, In x l /\ test x = true /\ fold_left (fun r x => if test x then Some (out x) else r) l r = Some (out x).
Proof.
  induction l as [|y l IH]; intros r (x & Hx & T); [destruct Hx|]. cbn [fold_left].
  assert (D : (exists x, In x l /\ test x = true) \/ forall x, In x l -> test x = false).
  { destruct (existsb test l) eqn:E; [left; now apply existsb_exists|]. right. intros z Hz. destruct (test z) eqn:F; [|reflexivity]. assert (existsb test l = true) by (apply existsb_exists; eauto). congruence. }
  destruct D as [D|D]; [destruct (IH (if test y then Some (out y) else r) D) as (z & Hz & Tz & E); exists z; split; [now right|auto]|].
  destruct Hx as [->|Hx]; [|rewrite (D x Hx) in T; discriminate]. exists x. split; [now left|]. split; [exact T|]. rewrite T. clear -D. induction l as [|y l IH]; [reflexivity|]. cbn. rewrite (D y) by now left.
  apply IH. intros z Hz. apply D. now right.
Qed.
Lemma corner i0 j0 i1 j1 i2 j2 i3 j3 (a b : Z) : (a = 0 \/ a = 1)%Z -> (b = 0 \/ b = 1)%Z ->
  beside (i0, j0) (i1, j1) -> beside (i1, j1) (i2, j2) -> beside (i2, j2) (i3, j3) -> beside (i3, j3) (i0, j0) -> (i0, j0) <> (i2, j2) -> (i1, j1) <> (i3, j3) ->
  let mi := Z.min (Z.min i0 i1) (Z.min i2 i3) in let mj := Z.min (Z.min j0 j1) (Z.min j2 j3) in
  (i0 = mi + a /\ j0 = mj + b \/ i1 = mi + a /\ j1 = mj + b \/ i2 = mi + a /\ j2 = mj + b \/ i3 = mi + a /\ j3 = mj + b)%Z.
Proof.
  intros Ha Hb H1 H2 H3 H4 N1 N2 mi mj. assert (N1' : (i0 <> i2 \/ j0 <> j2)%Z) by (destruct (Z.eq_dec i0 i2), (Z.eq_dec j0 j2); auto; subst; congruence).
  assert (N2' : (i1 <> i3 \/ j1 <> j3)%Z) by (destruct (Z.eq_dec i1 i3), (Z.eq_dec j1 j3); auto; subst; congruence). clear N1 N2.
  apply beside_cases in H1, H2, H3, H4. subst mi mj.
  destruct H1 as [(-> & ->)|[(-> & ->)|[(-> & ->)|(-> & ->)]]]; destruct H2 as [(-> & ->)|[(-> & ->)|[(-> & ->)|(-> & ->)]]]; try lia;
    destruct H3 as [(-> & ->)|[(-> & ->)|[(-> & ->)|(-> & ->)]]]; try lia; destruct Ha as [-> | ->], Hb as [-> | ->]; lia.
Qed.
Lemma pos_get s n i j : grid_pos s n = Some (i, j) -> position_of s (Some n) = Ok (i, j) /\ nth_error (c_i s) n = Some i /\ nth_error (c_j s) n = Some j /\ i <> missing_int /\ j <> missing_int.
Proof.
  unfold grid_pos, position_of, vget_idx, vget. destruct (nth_error (c_i s) n); [|discriminate]. destruct (nth_error (c_j s) n); [|discriminate]. destruct (Z.eqb_spec z missing_int); [discriminate|].
  destruct (Z.eqb_spec z0 missing_int); [discriminate|]. intros H. injection H as <- <-. cbn. auto.
Qed.

Lemma local_ok f s face ns : nth_error (faces_nodes f) face = Some ns -> unit_cell (grid_pos s) ns ->
  exists loc i0 j0, local_mapping f s face = Ok loc /\ forall a b, exists n, loc a b = Some n /\ In n ns /\ grid_pos s n = Some (i0 + Z.b2z a, j0 + Z.b2z b)%Z.
Proof.
  intros Hn (n0 & n1 & n2 & n3 & (i0, j0) & (i1, j1) & (i2, j2) & (i3, j3) & -> & P0 & P1 & P2 & P3 & B0 & B1 & B2 & B3 & N1 & N2).
  unfold local_mapping, vget at 1. rewrite Hn. cbn [bind vget nth_error]. rewrite (proj1 (pos_get _ _ _ _ P0)), (proj1 (pos_get _ _ _ _ P1)), (proj1 (pos_get _ _ _ _ P2)), (proj1 (pos_get _ _ _ _ P3)). cbn [bind].
  set (mi := Z.min (Z.min i0 i1) (Z.min i2 i3)). set (mj := Z.min (Z.min j0 j1) (Z.min j2 j3)). eexists. exists mi, mj. split; [reflexivity|]. intros a b.
  destruct (pick_found (fun x => ((snd (fst x) =? mi + Z.b2z a) && (snd x =? mj + Z.b2z b))%Z) (fun x : nat * Z * Z => fst (fst x)) [(n0, i0, j0); (n1, i1, j1); (n2, i2, j2); (n3, i3, j3)] None) as (x & Hx & T & E).
  - pose proof (corner i0 j0 i1 j1 i2 j2 i3 j3 (Z.b2z a) (Z.b2z b)) as K. cbv zeta in K. fold mi mj in K. setoid_rewrite andb_true_iff. setoid_rewrite Z.eqb_eq.
    destruct K as [K|[K|[K|K]]]; auto; try (destruct a; cbn; lia); try (destruct b; cbn; lia);
      [exists (n0, i0, j0)|exists (n1, i1, j1)|exists (n2, i2, j2)|exists (n3, i3, j3)]; (split; [|exact K]); cbn; auto.
  - exists (fst (fst x)). split; [exact E|]. apply andb_true_iff in T as (T1 & T2). apply Z.eqb_eq in T1, T2. destruct Hx as [<-|[<-|[<-|[<-|[]]]]]; cbn [fst snd] in *; rewrite <- T1, <- T2; (split; [cbn; auto|assumption]).
Qed.

Section Cells.
  Variable m : mesh.
  Variable f : faces.
  Hypothesis C : consistent m.
  Hypothesis A : adjacency_exact m.
  Hypothesis U : usable m f.
  Hypothesis P : proper_cells m f.

  Lemma edge_read e : e < length (m_edges m) -> vget (m_edges m) e = Ok (edge_at m e) /\ get_edge m (Some e) = Ok (edge_at m e).
  Proof. intros H. unfold vget, get_edge. rewrite (nth_error_nth' (m_edges m) missing_edge H). auto. Qed.
  Lemma common_ok a b x y z : a < length (m_edges m) -> b < length (m_edges m) -> joins (edge_at m a) x y -> joins (edge_at m b) y z -> x <> y -> x <> z -> find_common m a b = Ok (Some y).
  Proof.
    intros Ha Hb Ja Jb N1 N2. unfold find_common. rewrite (proj1 (edge_read a Ha)), (proj1 (edge_read b Hb)). cbn [bind].
    assert (F1 : (x =? y) = false) by now apply Nat.eqb_neq. assert (F2 : (x =? z) = false) by now apply Nat.eqb_neq.
    destruct Ja as [-> | ->], Jb as [-> | ->]; cbn; rewrite ?F1, ?F2, ?Nat.eqb_refl, ?orb_true_r; cbn; rewrite ?orb_true_r; reflexivity.
  Qed.
  Lemma other_end ed a b : joins ed a b -> other_node ed a = Some b.
  Proof. intros [-> | ->]; unfold other_node; cbn; [now rewrite Nat.eqb_refl|]. destruct (Nat.eqb_spec b a) as [->|]; reflexivity. Qed.
  Lemma end_joins ed a b : ends_in ed a -> other_node ed a = Some b -> joins ed a b.
  Proof.
    unfold other_node. destruct ed as [x y]. cbn. intros [H|H]; cbn in H; subst; cbn; [rewrite Nat.eqb_refl; intros ->; now left|].
    destruct x as [x|]; cbn; [|discriminate]. destruct (Nat.eqb_spec x a) as [->|]; intros H; injection H as ->; [now left|now right].
  Qed.
  Lemma joins_known e a b n : e < length (m_edges m) -> joins (edge_at m e) a b -> n = a \/ n = b -> n < length (m_nodes m).
  Proof. intros He J Hn. apply (co_ends m C (edge_at m e)); [apply nth_In; exact He|]. unfold ends_in. destruct J as [-> | ->], Hn as [-> | ->]; cbn; auto. Qed.

  (** The nodes of a quadrilateral seen from one of its edges. *)
  Definition rotated (ns : list nat) (a b c d : nat) : Prop := ns = [a; b; c; d] \/ ns = [b; c; d; a] \/ ns = [c; d; a; b] \/ ns = [d; a; b; c].
  Lemma rotated_unit pos ns a b c d : rotated ns a b c d -> unit_cell pos ns <-> unit_cell pos [a; b; c; d].
  Proof. intros [->|[->|[->| ->]]]; split; intros H; auto; [do 3 apply unit_turn in H|apply unit_turn in H|do 2 apply unit_turn in H|do 2 apply unit_turn in H|apply unit_turn in H|do 3 apply unit_turn in H]; exact H. Qed.
  Lemma rotated_in ns a b c d n : rotated ns a b c d -> In n ns <-> n = a \/ n = b \/ n = c \/ n = d.
  Proof. intros [->|[->|[->| ->]]]; cbn; intuition. Qed.

  Lemma quad_facts nf ns : quad_nodes f nf ns -> exists es, nth_error (faces_edges f) nf = Some es /\ length es = 4 /\ NoDup ns /\ NoDup es /\ cycle_of_edges m ns es /\
    nth_error (num_faces_nodes f) nf = Some 4.
  Proof.
    intros (Hn & L). destruct U as ((T1 & T2 & _) & UU). assert (Hlt : nf < length (faces_nodes f)) by (apply nth_error_Some; congruence).
    destruct (nth_error (faces_edges f) nf) as [es|] eqn:Ee; [|apply nth_error_None in Ee; unfold num_faces in T1; lia]. exists es. split; [reflexivity|].
    destruct (UU nf ns es Hn Ee) as (_ & L' & _). split; [lia|]. destruct (P nf ns es Hn Ee) as (D1 & D2 & Cy). split; [exact D1|]. split; [exact D2|]. split; [exact Cy|].
    rewrite T2, nth_error_map, Hn. cbn. now rewrite L.
  Qed.
  Lemma quad_of_count nf : nth_error (num_faces_nodes f) nf = Some 4 -> exists ns, quad_nodes f nf ns.
  Proof.
    destruct U as ((_ & T2 & _) & _). rewrite T2, nth_error_map. unfold quad_nodes. destruct (nth_error (faces_nodes f) nf) as [ns|]; [|discriminate]. cbn. intros H. injection H as H. eauto.
  Qed.

  Lemma around nf e ns : In nf (faces_with f e) -> quad_nodes f nf ns -> exists es here next prev a b c d,
    nth_error (faces_edges f) nf = Some es /\ position e (firstn 4 es) = Some here /\
    vget es (if S here =? 4 then 0 else S here) = Ok next /\ vget es (match here with O => 3 | S k => k end) = Ok prev /\
    next < length (m_edges m) /\ prev < length (m_edges m) /\ find_common m e next = Ok (Some b) /\ find_common m e prev = Ok (Some a) /\
    joins (edge_at m e) a b /\ joins (edge_at m next) b c /\ neighbour m c d /\ joins (edge_at m prev) a d /\
    NoDup [a; b; c; d] /\ rotated ns a b c d.
  Proof.
    intros Hw Hq. destruct (edges_of_with m f U e nf Hw) as (es & He & Hin). destruct (quad_facts nf ns Hq) as (es' & He' & L & D1 & D2 & (_ & Cy) & _). rewrite He in He'. injection He' as <-.
    destruct Hq as (Hn & Ln). destruct ns as [|n0 [|n1 [|n2 [|n3 [|]]]]]; try discriminate. destruct es as [|e0 [|e1 [|e2 [|e3 [|]]]]]; try discriminate.
    destruct (Cy 0 n0 n1 e0 eq_refl eq_refl eq_refl) as (L0 & J0). destruct (Cy 1 n1 n2 e1 eq_refl eq_refl eq_refl) as (L1 & J1).
    destruct (Cy 2 n2 n3 e2 eq_refl eq_refl eq_refl) as (L2 & J2). destruct (Cy 3 n3 n0 e3 eq_refl eq_refl eq_refl) as (L3 & J3).
    assert (N : n0 <> n1 /\ n0 <> n2 /\ n0 <> n3 /\ n1 <> n2 /\ n1 <> n3 /\ n2 <> n3).
    { repeat match goal with H : NoDup _ |- _ => inversion H; clear H; subst end. cbn in *. intuition. }
    destruct N as (N01 & N02 & N03 & N12 & N13 & N23).
    assert (E : e0 <> e1 /\ e0 <> e2 /\ e0 <> e3 /\ e1 <> e2 /\ e1 <> e3 /\ e2 <> e3).
    { clear D1. repeat match goal with H : NoDup _ |- _ => inversion H; clear H; subst end. cbn in *. intuition. }
    destruct E as (E01 & E02 & E03 & E12 & E13 & E23). rewrite He.
    assert (S0 := joins_sym _ _ _ J0). assert (S1 := joins_sym _ _ _ J1). assert (S2 := joins_sym _ _ _ J2). assert (S3 := joins_sym _ _ _ J3).
    assert (Nb : forall x y z w : nat, x <> y -> x <> z -> x <> w -> y <> z -> y <> w -> z <> w -> NoDup [x; y; z; w]).
    { intros x y z w; intros. do 4 (constructor; [cbn; intuition congruence|]). constructor. }
    cbn [firstn]. unfold position.
    destruct Hin as [<-|[<-|[<-|[<-|[]]]]].
    - exists [e0; e1; e2; e3], 0, e1, e3, n0, n1, n2, n3. rewrite Nat.eqb_refl. do 4 (split; [reflexivity|]). split; [exact L1|]. split; [exact L3|].
      split; [eapply common_ok; eauto|]. split; [eapply common_ok with (x := n1) (z := n3); eauto|]. split; [exact J0|]. split; [exact J1|]. split; [now exists e2|]. split; [exact S3|]. split; [apply Nb; auto|]. now left.
    - exists [e0; e1; e2; e3], 1, e2, e0, n1, n2, n3, n0. rewrite (proj2 (Nat.eqb_neq e0 e1)), Nat.eqb_refl by auto. do 4 (split; [reflexivity|]). split; [exact L2|]. split; [exact L0|].
      split; [eapply common_ok; eauto|]. split; [eapply common_ok with (x := n2) (z := n0); eauto|]. split; [exact J1|]. split; [exact J2|]. split; [now exists e3|]. split; [exact S0|]. split; [apply Nb; auto|]. right; right; right. reflexivity.
    - exists [e0; e1; e2; e3], 2, e3, e1, n2, n3, n0, n1. rewrite (proj2 (Nat.eqb_neq e0 e2)), (proj2 (Nat.eqb_neq e1 e2)), Nat.eqb_refl by auto. do 4 (split; [reflexivity|]). split; [exact L3|]. split; [exact L1|].
      split; [eapply common_ok; eauto|]. split; [eapply common_ok with (x := n3) (z := n1); eauto|]. split; [exact J2|]. split; [exact J3|]. split; [now exists e0|]. split; [exact S1|]. split; [apply Nb; auto|]. right; right; left. reflexivity.
    - exists [e0; e1; e2; e3], 3, e0, e2, n3, n0, n1, n2. rewrite (proj2 (Nat.eqb_neq e0 e3)), (proj2 (Nat.eqb_neq e1 e3)), (proj2 (Nat.eqb_neq e2 e3)), Nat.eqb_refl by auto. do 4 (split; [reflexivity|]). split; [exact L0|]. split; [exact L2|].
      split; [eapply common_ok; eauto|]. split; [eapply common_ok with (x := n0) (z := n2); eauto|]. split; [exact J3|]. split; [exact J0|]. split; [now exists e1|]. split; [exact S2|]. split; [apply Nb; auto|]. right; left. reflexivity.
  Qed.

  (** *** Checking connections *)
  Hypothesis NB : no_bare_edges m f.

  (** [c] is joined to [n] by a listed edge of a quadrilateral. *)
  Definition connects (c n : nat) : Prop := exists e q, In (Some e) (row_of m c) /\ joins (edge_at m e) c n /\ In q (faces_with f e) /\ nth_error (num_faces_nodes f) q = Some 4.
  Lemma count_read i : i < num_faces f -> exists k, nth_error (num_faces_nodes f) i = Some k.
  Proof. destruct U as ((_ & T & _) & _). intros H. rewrite T. destruct (nth_error (map _ _) i) eqn:E; [eauto|]. apply nth_error_None in E. rewrite map_length in E. unfold num_faces in H. lia. Qed.
  Lemma check_row_ok v c : c < length (m_nodes m) -> forall row, (forall oe, In oe row -> In oe (row_of m c)) ->
    exists b, check_row m f v c row = Ok b /\ (b = true <-> exists e q, In (Some e) row /\ joins (edge_at m e) c v /\ In q (faces_with f e) /\ nth_error (num_faces_nodes f) q = Some 4).
  Proof.
    intros Hc. induction row as [|oe row IH]; intros Hr; cbn [check_row]; [exists false; split; [reflexivity|]; split; [discriminate|intros (e & q & [] & _)]|].
    destruct IH as (b & Hb & Ib); [intros; apply Hr; now right|]. destruct (adj_sound m A c oe Hc (Hr oe (or_introl eq_refl))) as (e & o & -> & He & J).
    rewrite (proj2 (edge_read e He)). cbn [bind vget_idx]. rewrite (edge_faces_ok m f U e He). cbn [bind]. pose proof (NB e c o He J) as Ne. destruct U as ((T1 & T2 & T3 & T4 & T5) & _).
    destruct (T5 e He) as (W & W1 & _). destruct (faces_with f e) as [|q0 qs] eqn:Ew; [congruence|]. change (nth_error (q0 :: qs) 0) with (Some q0). cbn [fst snd vget_idx]. destruct (with_lt m f U e q0) as (L0 & _); [rewrite Ew; now left|].
    destruct (count_read q0 L0) as (k0 & K0). unfold vget at 1. rewrite K0. cbn [bind]. unfold vget at 1. rewrite W1. cbn [bind].
    rewrite (other_end _ _ _ J). cbn [eq_idx].
    assert (Q : exists chk, (if length (q0 :: qs) =? 2 then if k0 =? 4 then Ok true else let! k := vget_idx (num_faces_nodes f) (nth_error (q0 :: qs) 1) in Ok (k =? 4) else Ok (k0 =? 4)) = Ok chk /\
      (chk = true <-> exists q, In q (q0 :: qs) /\ nth_error (num_faces_nodes f) q = Some 4)).
    { destruct qs as [|q1 qs].
      - cbn [length Nat.eqb]. exists (k0 =? 4). split; [reflexivity|]. rewrite Nat.eqb_eq. split; [intros ->; exists q0; split; [now left|exact K0]|]. intros (q & [<-|[]] & Hq). congruence.
      - destruct qs as [|]; [|cbn in W; lia]. cbn [length Nat.eqb nth_error vget_idx]. destruct (with_lt m f U e q1) as (L1 & _); [rewrite Ew; right; now left|]. destruct (count_read q1 L1) as (k1 & K1). unfold vget. rewrite K1. cbn [bind].
        destruct (Nat.eqb_spec k0 4) as [->|N0]; [exists true; split; [reflexivity|]; split; [intros _; exists q0; split; [now left|exact K0]|reflexivity]|].
        exists (k1 =? 4). split; [reflexivity|]. rewrite Nat.eqb_eq. split; [intros ->; exists q1; split; [right; now left|exact K1]|]. intros (q & [<-|[<-|[]]] & Hq); congruence. }
    destruct Q as (chk & -> & Ic). cbn [bind]. destruct (chk && (o =? v)) eqn:Ech.
    - apply andb_true_iff in Ech as (-> & Ev). apply Nat.eqb_eq in Ev as ->. exists true. split; [reflexivity|]. split; [|reflexivity]. intros _. destruct (proj1 Ic eq_refl) as (q & Hq & Kq). exists e, q. rewrite Ew. split; [now left|]. auto.
    - exists b. split; [exact Hb|]. rewrite Ib. split; intros (e' & q & H1 & H2 & H3 & H4); [exists e', q; split; [now right|]; auto|]. destruct H1 as [H1|H1]; [|exists e', q; auto]. injection H1 as <-. exfalso.
      assert (o = v) as -> by (destruct J as [J|J], H2 as [H2|H2]; rewrite J in H2; congruence). rewrite Nat.eqb_refl, andb_true_r in Ech. rewrite Ew in H3.
      rewrite (proj2 Ic) in Ech by eauto. discriminate.
  Qed.
  Lemma check_line_ok v c : c < length (m_nodes m) -> exists b, check_line m f v c = Ok b /\ (b = true <-> connects c v).
  Proof.
    intros Hc. unfold check_line. unfold vget. rewrite (nth_error_nth' (m_nodesEdges m) []) by (rewrite (adj_rows m A); exact Hc). cbn [bind]. change (nth c (m_nodesEdges m) []) with (row_of m c).
    destruct (check_row_ok v c Hc (row_of m c)) as (b & Hb & I); [auto|]. exists b. split; [exact Hb|]. exact I.
  Qed.
  Lemma connects_near c n : connects c n -> neighbour m c n.
  Proof. intros (e & q & He & J & Hq & _). exists e. split; [|exact J]. apply (with_lt m f U e q Hq). Qed.
  Lemma check_at_ok g c j i : c < length (m_nodes m) -> in_range g j i = true -> exists b, check_at m f g c j i = Ok b /\ (b = true <-> forall n, map_val g j i = Some n -> connects c n).
  Proof.
    intros Hc Hr. unfold check_at. rewrite (get_val g j i Hr). cbn [bind]. destruct (map_val g j i) as [n|].
    - destruct (check_line_ok n c Hc) as (b & Hb & I). exists b. split; [exact Hb|]. rewrite I. split; [intros H n' E; injection E as <-; exact H|auto].
    - exists true. split; [reflexivity|]. split; [discriminate|reflexivity].
  Qed.
  Lemma valid_ok s c i j : c < length (m_nodes m) -> exists b, connection_valid m f s (Some c) i j =
      Ok (b, Conversion (c_i s) (c_j s) (map_resize (c_map s) (j - 1) (i - 1) (j + 1) (i + 1))) /\
    (b = true <-> forall i' j' n, beside (i, j) (i', j') -> map_val (c_map s) j' i' = Some n -> connects c n).
  Proof.
    intros Hc. unfold connection_valid. set (g := map_resize _ _ _ _ _).
    assert (R : forall j' i', (j - 1 <= j' <= j + 1 -> i - 1 <= i' <= i + 1 -> in_range g j' i' = true)%Z) by (intros; apply resize_in; lia).
    assert (V : forall j' i', map_val g j' i' = map_val (c_map s) j' i') by (intros; apply resize_val).
    destruct (check_at_ok g c j (i - 1)) as (b1 & -> & I1); [exact Hc|apply R; lia|]. destruct (check_at_ok g c j (i + 1)) as (b2 & -> & I2); [exact Hc|apply R; lia|].
    destruct (check_at_ok g c (j - 1) i) as (b3 & -> & I3); [exact Hc|apply R; lia|]. destruct (check_at_ok g c (j + 1) i) as (b4 & -> & I4); [exact Hc|apply R; lia|]. cbn [bind].
    rewrite V in I1, I2, I3, I4.
    assert (X : forall b, (b = true <-> b1 = true /\ b2 = true /\ b3 = true /\ b4 = true) -> (b = true <-> forall i' j' n, beside (i, j) (i', j') -> map_val (c_map s) j' i' = Some n -> connects c n)).
    { intros b ->. rewrite I1, I2, I3, I4. split.
      - intros (H1 & H2 & H3 & H4) i' j' n B M. apply beside_cases in B as [(-> & ->)|[(-> & ->)|[(-> & ->)|(-> & ->)]]]; auto.
      - intros H. repeat split; intros n M; eapply H; try exact M; unfold beside; cbn; lia. }
    destruct b1; cbn [negb]; [|exists false; split; [reflexivity|apply X; intuition]]. destruct b2; cbn [negb]; [|exists false; split; [reflexivity|apply X; intuition]].
    destruct b3; cbn [negb]; [|exists false; split; [reflexivity|apply X; intuition]]. exists b4. split; [reflexivity|]. apply X. intuition.
  Qed.
End Cells.

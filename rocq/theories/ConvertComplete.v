(** Proofs about the conversion of a mesh to a curvilinear grid: the cells of a grid are all found, at their places. *)
From Verif Require Import Base BaseLemmas FloatModel MeshModel MeshSpec MeshAdj MeshEdits FaceModel FaceSpec FaceUseSpec SplitModel SplitSpec SplitProofs ConvertModel ConvertSpec ConvertProofs ConvertMain ConvertFront ConvertGrow ConvertFinal.

(** The cell on the other side of an edge of a cell is beyond the edge or the same. *)
Lemma other_side d o pa pb pc pd : In d directions -> let u := corner_at o (d_from d) in let v := corner_at o (d_to d) in
  (pa = u /\ pb = v) \/ (pa = v /\ pb = u) -> beside pb pc -> beside pc pd -> beside pd pa -> pa <> pc -> pb <> pd ->
  (pc = shift pb d /\ pd = shift pa d) \/ forall p, p = pa \/ p = pb \/ p = pc \/ p = pd -> exists x y, p = corner_at o (x, y).
Proof.
  intros Hd u v H B1 B2 B3 N1 N2.
  assert (X : (pc = shift pb d /\ pd = shift pa d) \/ (pc = (fst pb - d_i d, snd pb - d_j d) /\ pd = (fst pa - d_i d, snd pa - d_j d))%Z).
  { destruct pa as [a1 a2], pb as [b1 b2], pc as [c1 c2], pd as [d1 d2], o as [i j]. unfold beside in *. cbn [fst snd] in *.
    assert (N1' : ~ (a1 = c1 /\ a2 = c2)%Z) by (intros (E1 & E2); apply N1; now subst). assert (N2' : ~ (b1 = d1 /\ b2 = d2)%Z) by (intros (E1 & E2); apply N2; now subst). clear N1 N2.
    unfold u, v, corner_at, shift in *. destruct Hd as [<-|[<-|[<-|[<-|[]]]]]; cbn -[Z.add Z.sub Z.abs] in H |- *;
      (destruct H as [(H1 & H2)|(H1 & H2)]; injection H1 as -> ->; injection H2 as -> ->;
       rewrite !pair_equal_spec; lia). }
  destruct X as [X|(-> & ->)]; [now left|]. right. intros p Hp. destruct o as [i j]. unfold u, v, corner_at in *.
  destruct Hd as [<-|[<-|[<-|[<-|[]]]]]; cbn -[Z.add Z.sub] in *; destruct H as [(-> & ->)|(-> & ->)]; cbn [fst snd] in Hp; destruct Hp as [->|[->|[->| ->]]];
    first [exists false, false; cbn [Z.b2z fst snd]; f_equal; lia|exists false, true; cbn [Z.b2z fst snd]; f_equal; lia|exists true, false; cbn [Z.b2z fst snd]; f_equal; lia|exists true, true; cbn [Z.b2z fst snd]; f_equal; lia].
Qed.
(** Neighbouring corners are the ends of an edge of the cell. *)
Lemma corner_direction o x y p q : p = corner_at o x -> q = corner_at o y -> beside p q -> exists d, In d directions /\
  ((p = corner_at o (d_from d) /\ q = corner_at o (d_to d)) \/ (p = corner_at o (d_to d) /\ q = corner_at o (d_from d))).
Proof.
  intros -> ->. destruct x as [[|] [|]], y as [[|] [|]]; unfold beside, corner_at, directions; cbn [fst snd Z.b2z]; intros B; try lia.
  - eexists. split; [right; right; left; reflexivity|]. right. auto.
  - eexists. split; [right; right; right; left; reflexivity|]. left. auto.
  - eexists. split; [right; right; left; reflexivity|]. left. auto.
  - eexists. split; [right; left; reflexivity|]. right. auto.
  - eexists. split; [right; right; right; left; reflexivity|]. right. auto.
  - eexists. split; [left; reflexivity|]. right. auto.
  - eexists. split; [right; left; reflexivity|]. left. auto.
  - eexists. split; [left; reflexivity|]. left. auto.
Qed.

Section Complete.
  Variable m : mesh.
  Variable f : faces.
  Hypothesis C : consistent m.
  Hypothesis A : adjacency_exact m.
  Hypothesis U : usable m f.
  Hypothesis P : proper_cells m f.
  Hypothesis NB : no_bare_edges m f.
  Hypothesis L : lists_all m.
  Hypothesis O : cells_once f.
  Variable pos : nat -> option (Z * Z).
  Hypothesis G : gridded m f pos.

  Lemma same_edge a b e e' : e < length (m_edges m) -> e' < length (m_edges m) -> joins (edge_at m e) a b -> joins (edge_at m e') a b -> e = e'.
  Proof.
    intros He He' J J'. assert (Ha : a < length (m_nodes m)) by (eapply (joins_known m C e a b a He J); auto). destruct (L a Ha) as (_ & _ & X).
    apply (adj_one m A a e e' b Ha); auto; apply X; eauto.
  Qed.
  Lemma find_same a b e : e < length (m_edges m) -> joins (edge_at m e) a b -> find_edge m (Some a) (Some b) = Ok (Some e).
  Proof.
    intros He J. assert (Ha : a < length (m_nodes m)) by (eapply (joins_known m C e a b a He J); auto). destruct (L a Ha) as (Dg & _ & X). destruct (find_edge_ok m a b C Ha) as (r & Hr & Y). rewrite Hr. f_equal.
    destruct r as [e'|].
    - f_equal. destruct (find_joined m C A a b e' Ha Hr) as (He' & J'). symmetry. eapply same_edge; eauto.
    - exfalso. apply (Y e); [rewrite Dg, firstn_all; apply X; eauto|]. now apply other_end.
  Qed.
  Lemma joins_connects a b : cell_joins m f a b -> connects m f a b.
  Proof.
    intros (e & c & ns & J & Hc & Q). destruct (with_lt m f U e c Hc) as (_ & He). exists e, c. assert (Ha : a < length (m_nodes m)) by (eapply (joins_known m C e a b a He J); auto). destruct (L a Ha) as (_ & _ & X).
    split; [apply X; eauto|]. split; [exact J|]. split; [exact Hc|]. destruct (quad_facts m f U P c ns Q) as (_ & _ & _ & _ & _ & _ & K). exact K.
  Qed.

  (** Going round a cell *)
  Lemma quad_round q ns es e : quad_nodes f q ns -> nth_error (faces_edges f) q = Some es -> In e es -> exists a b c d, rotated ns a b c d /\ e < length (m_edges m) /\ joins (edge_at m e) a b.
  Proof.
    intros Q He Hin. destruct (quad_facts m f U P q ns Q) as (es' & He' & Le & D & _ & (_ & Cy) & _). rewrite He in He'. injection He' as <-. destruct Q as (_ & Ln).
    destruct ns as [|n0 [|n1 [|n2 [|n3 [|]]]]]; try discriminate. destruct es as [|e0 [|e1 [|e2 [|e3 [|]]]]]; try discriminate. unfold rotated.
    destruct Hin as [<-|[<-|[<-|[<-|[]]]]].
    - exists n0, n1, n2, n3. split; [auto|]. apply (Cy 0); reflexivity.
    - exists n1, n2, n3, n0. split; [auto 6|]. apply (Cy 1); reflexivity.
    - exists n2, n3, n0, n1. split; [auto 6|]. apply (Cy 2); reflexivity.
    - exists n3, n0, n1, n2. split; [auto 6|]. apply (Cy 3); reflexivity.
  Qed.
  Lemma quad_sides q ns es a b p r : quad_nodes f q ns -> nth_error (faces_edges f) q = Some es -> In a ns -> In b ns -> pos a = Some p -> pos b = Some r -> beside p r -> exists e, In e es /\ e < length (m_edges m) /\ joins (edge_at m e) a b.
  Proof.
    intros Q He Ha Hb Pa Pb B. destruct (quad_facts m f U P q ns Q) as (es' & He' & Le & _ & _ & (_ & Cy) & _). rewrite He in He'. injection He' as <-.
    destruct (gr_cell m f pos G q ns Q) as (n0 & n1 & n2 & n3 & p0 & p1 & p2 & p3 & -> & P0 & P1 & P2 & P3 & B0 & B1 & B2 & B3 & N1 & N2). destruct es as [|e0 [|e1 [|e2 [|e3 [|]]]]]; try discriminate.
    destruct (Cy 0 n0 n1 e0 eq_refl eq_refl eq_refl) as (E0 & J0). destruct (Cy 1 n1 n2 e1 eq_refl eq_refl eq_refl) as (E1 & J1).
    destruct (Cy 2 n2 n3 e2 eq_refl eq_refl eq_refl) as (E2 & J2). destruct (Cy 3 n3 n0 e3 eq_refl eq_refl eq_refl) as (E3 & J3).
    assert (X02 : ~ beside p0 p2) by (clear - B0 B1; unfold beside in *; destruct p0, p1, p2; cbn in *; lia). assert (X13 : ~ beside p1 p3) by (clear - B1 B2; unfold beside in *; destruct p3, p1, p2; cbn in *; lia).
    destruct Ha as [<-|[<-|[<-|[<-|[]]]]]; destruct Hb as [<-|[<-|[<-|[<-|[]]]]]; rewrite ?P0, ?P1, ?P2, ?P3 in Pa; rewrite ?P0, ?P1, ?P2, ?P3 in Pb; injection Pa as <-; injection Pb as <-;
      try (exfalso; apply beside_neq in B; congruence); try (exfalso; apply X02; auto using beside_sym; fail); try (exfalso; apply X13; auto using beside_sym; fail);
      first [exists e0; split; [cbn; auto|]; split; [assumption|]; first [assumption|apply joins_sym; assumption]|exists e1; split; [cbn; auto|]; split; [assumption|]; first [assumption|apply joins_sym; assumption]
            |exists e2; split; [cbn; auto|]; split; [assumption|]; first [assumption|apply joins_sym; assumption]|exists e3; split; [cbn; auto 6|]; split; [assumption|]; first [assumption|apply joins_sym; assumption]].
  Qed.
  Lemma unit_rotated ns a b c d : rotated ns a b c d -> unit_cell pos ns -> exists pa pb pc pd, pos a = Some pa /\ pos b = Some pb /\ pos c = Some pc /\ pos d = Some pd /\
    beside pa pb /\ beside pb pc /\ beside pc pd /\ beside pd pa /\ pa <> pc /\ pb <> pd.
  Proof.
    intros R H. apply (rotated_unit pos _ _ _ _ _ R) in H as (x & y & z & w & pa & pb & pc & pd & E & H). injection E as <- <- <- <-. exists pa, pb, pc, pd. exact H.
  Qed.
  Lemma within q ns es q' ns' es' : quad_nodes f q ns -> nth_error (faces_edges f) q = Some es -> quad_nodes f q' ns' -> nth_error (faces_edges f) q' = Some es' ->
    (forall n, In n ns -> In n ns') -> forall e, In e es -> In e es'.
  Proof.
    intros Q He Q' He' Hn e Hin. destruct (quad_round q ns es e Q He Hin) as (a & b & c & d & R & E & J).
    destruct (unit_rotated _ _ _ _ _ R (gr_cell m f pos G q ns Q)) as (pa & pb & pc & pd & Pa & Pb & _ & _ & B & _).
    destruct (quad_sides q' ns' es' a b pa pb Q' He') as (e' & Hin' & E' & J'); auto; [apply Hn, (rotated_in _ _ _ _ _ a R); auto|apply Hn, (rotated_in _ _ _ _ _ b R); auto|].
    rewrite (same_edge a b e e' E E' J J'). exact Hin'.
  Qed.
  Lemma same_cell q ns q' ns' : quad_nodes f q ns -> quad_nodes f q' ns' -> (forall n, In n ns -> In n ns') -> q = q'.
  Proof.
    intros Q Q' Hn. destruct (quad_facts m f U P q ns Q) as (es & He & _ & D & _). destruct (quad_facts m f U P q' ns' Q') as (es' & He' & _ & D' & _).
    assert (Hn' : forall n, In n ns' -> In n ns) by (apply NoDup_length_incl; [exact D|destruct Q as (_ & ->), Q' as (_ & ->); lia|exact Hn]).
    apply (O q q' es es' He He'). intros e. split; [exact (within q ns es q' ns' es' Q He Q' He' Hn e)|exact (within q' ns' es' q ns es Q' He' Q He Hn' e)].
  Qed.

  Definition placed_right (s : conversion) : Prop := forall n p, grid_pos s n = Some p -> pos n = Some p.
  Lemma beyond_other e face nf : In face (faces_with f e) -> beyond f e face = Some nf -> nf <> face /\ In nf (faces_with f e).
  Proof.
    intros Hf. unfold beyond, across. cbn [fst snd]. pose proof (with_nodup f e) as D. destruct (faces_with f e) as [|x [|y l]]; [destruct Hf| |]; cbn [nth_error eq_idx].
    - destruct Hf as [->|[]]. unfold eq_idx. rewrite Nat.eqb_refl. discriminate.
    - unfold eq_idx. destruct (Nat.eqb_spec x face) as [->|N]; intros H; injection H as <-; [|split; [exact N|now left]]. inversion D; subst. split; [intros ->; apply H1; now left|right; now left].
  Qed.
  Lemma other_beyond e face nf : In face (faces_with f e) -> In nf (faces_with f e) -> nf <> face -> beyond f e face = Some nf /\ length (faces_with f e) = 2.
  Proof.
    intros Hf Hn N. pose proof U as ((_ & _ & _ & _ & T) & _). destruct (T e (proj2 (with_lt m f U e face Hf))) as (Le & _). unfold beyond, across. cbn [fst snd].
    destruct (faces_with f e) as [|x [|y [|]]]; cbn in Le; try lia; cbn in Hf, Hn; [easy|destruct Hf as [<-|[]], Hn as [<-|[]]; now destruct N|]. cbn [nth_error eq_idx].
    unfold eq_idx. split; [|reflexivity]. destruct (Nat.eqb_spec x face) as [->|N']; destruct Hn as [<-|[<-|[]]]; auto; try easy. destruct Hf as [<-|[<-|[]]]; easy.
  Qed.

  (** The cell across an edge of a placed cell has its place there. *)
  Lemma across_place s face fns e nf ns a b c c' d o : placed_right s -> In d directions -> quad_nodes f face fns -> (forall x y, exists n, In n fns /\ grid_pos s n = Some (corner_at o (x, y))) ->
    In face (faces_with f e) -> beyond f e face = Some nf -> quad_nodes f nf ns -> rotated ns a b c c' ->
    (grid_pos s a = Some (corner_at o (d_from d)) /\ grid_pos s b = Some (corner_at o (d_to d))) \/ (grid_pos s a = Some (corner_at o (d_to d)) /\ grid_pos s b = Some (corner_at o (d_from d))) ->
    exists pa pb, grid_pos s a = Some pa /\ grid_pos s b = Some pb /\ pos c = Some (shift pb d) /\ pos c' = Some (shift pa d).
  Proof.
    intros R Hd Qf Hc Hf Hb Q Ro Ab. destruct (unit_rotated _ _ _ _ _ Ro (gr_cell m f pos G nf ns Q)) as (pa & pb & pc & pd & Pa & Pb & Pc & Pd & B0 & B1 & B2 & B3 & N1 & N2).
    assert (Ab' : (pa = corner_at o (d_from d) /\ pb = corner_at o (d_to d)) \/ (pa = corner_at o (d_to d) /\ pb = corner_at o (d_from d))).
    { destruct Ab as [(X & Y)|(X & Y)]; apply R in X, Y; [left|right]; split; congruence. }
    exists pa, pb. split; [destruct Ab as [(X & _)|(X & _)]; rewrite X; apply R in X; congruence|]. split; [destruct Ab as [(_ & X)|(_ & X)]; rewrite X; apply R in X; congruence|].
    destruct (other_side d o pa pb pc pd Hd Ab' B1 B2 B3 N1 N2) as [(-> & ->)|X]; [auto|]. exfalso. destruct (beyond_other e face nf Hf Hb) as (N & _). apply N.
    apply (same_cell nf ns face fns Q Qf). intros n Hn. apply (rotated_in _ _ _ _ _ n Ro) in Hn.
    assert (Y : exists p, pos n = Some p /\ (p = pa \/ p = pb \/ p = pc \/ p = pd)) by (destruct Hn as [->|[->|[->| ->]]]; eauto 8).
    destruct Y as (p & Hp & Y). destruct (X p Y) as (x & y & ->). destruct (Hc x y) as (n' & Hn' & Hp'). apply R in Hp'. rewrite (gr_once m f pos G n n' _ Hp Hp'). exact Hn'.
  Qed.

  Lemma cell_edge s face fns d o first second : placed_right s -> In d directions -> quad_nodes f face fns -> (forall x y, exists n, In n fns /\ grid_pos s n = Some (corner_at o (x, y))) ->
    grid_pos s first = Some (corner_at o (d_from d)) -> grid_pos s second = Some (corner_at o (d_to d)) ->
    exists e, find_edge m (Some first) (Some second) = Ok (Some e) /\ In face (faces_with f e) /\ joins (edge_at m e) first second /\ e < length (m_edges m).
  Proof.
    intros R Hd Qf Hc P1 P2. destruct (Hc (fst (d_from d)) (snd (d_from d))) as (n1 & H1 & G1). destruct (Hc (fst (d_to d)) (snd (d_to d))) as (n2 & H2 & G2). rewrite <- surjective_pairing in G1, G2.
    apply R in P1, P2, G1, G2. rewrite (gr_once m f pos G n1 first _ G1 P1) in H1. rewrite (gr_once m f pos G n2 second _ G2 P2) in H2.
    destruct (quad_facts m f U P face fns Qf) as (es & He & _). destruct (quad_sides face fns es first second _ _ Qf He H1 H2 P1 P2) as (e & Hin & Le & J); [apply (direction_ok d o Hd)|].
    exists e. split; [now apply find_same|]. split; [eapply (with_of_in m f U); eauto|auto].
  Qed.

  Lemma right_same s s' : unchanged s s' -> placed_right s -> placed_right s'.
  Proof. intros (H & _) R n p. rewrite H. apply R. Qed.
  Lemma right_cross s s' face fns first second nf d vis ns a b c c' pa pb o : inv m s -> placed_right s -> In d directions -> quad_nodes f face fns -> (forall x y, exists n, In n fns /\ grid_pos s n = Some (corner_at o (x, y))) ->
    grid_pos s first = Some (corner_at o (d_from d)) -> grid_pos s second = Some (corner_at o (d_to d)) -> crossed m f s s' face first second nf d vis ns a b c c' pa pb -> placed_right s'.
  Proof.
    intros I R Hd Qf Hc P1 P2 X. destruct (cell_edge s face fns d o first second R Hd Qf Hc P1 P2) as (e & He & Hf & _). destruct (cr_face _ _ _ _ _ _ _ _ _ _ _ _ _ _ _ _ _ X) as (e' & He' & Hb & _).
    rewrite He in He'. injection He' as <-. destruct (across_place s face fns e nf ns a b c c' d o R Hd Qf Hc Hf Hb) as (pa' & pb' & Ea & Eb & Ec & Ed).
    - apply (cr_quad _ _ _ _ _ _ _ _ _ _ _ _ _ _ _ _ _ X).
    - apply (cr_cycle _ _ _ _ _ _ _ _ _ _ _ _ _ _ _ _ _ X).
    - destruct (cr_first _ _ _ _ _ _ _ _ _ _ _ _ _ _ _ _ _ X) as [(-> & ->)|(-> & ->)]; auto.
    - rewrite (cr_pa _ _ _ _ _ _ _ _ _ _ _ _ _ _ _ _ _ X) in Ea. rewrite (cr_pb _ _ _ _ _ _ _ _ _ _ _ _ _ _ _ _ _ X) in Eb. injection Ea as <-. injection Eb as <-.
      intros n p. rewrite (cr_pos _ _ _ _ _ _ _ _ _ _ _ _ _ _ _ _ _ X). destruct (Nat.eqb_spec n c') as [->|]; [congruence|]. destruct (Nat.eqb_spec n c) as [->|]; [congruence|]. apply R.
  Qed.

  Lemma reached_cross start s s' face fns first second nf d vis ns a b c c' pa pb o : inv m s -> placed_right s -> In d directions -> quad_nodes f face fns -> (forall x y, exists n, In n fns /\ grid_pos s n = Some (corner_at o (x, y))) ->
    grid_pos s first = Some (corner_at o (d_from d)) -> grid_pos s second = Some (corner_at o (d_to d)) -> crossed m f s s' face first second nf d vis ns a b c c' pa pb -> reached f start face -> reached f start nf.
  Proof.
    intros I R Hd Qf Hc P1 P2 X H. destruct (cell_edge s face fns d o first second R Hd Qf Hc P1 P2) as (e & He & Hf & _). destruct (cr_face _ _ _ _ _ _ _ _ _ _ _ _ _ _ _ _ _ X) as (e' & He' & Hb & Hn).
    rewrite He in He'. injection He' as <-. exact (reached_over f start face nf e ns H Hf Hn (cr_quad _ _ _ _ _ _ _ _ _ _ _ _ _ _ _ _ _ X)).
  Qed.

  Definition next_to (face nf : nat) : Prop := nf <> face /\ exists e ns, In face (faces_with f e) /\ In nf (faces_with f e) /\ quad_nodes f nf ns.
  Lemma right_closes s face ns loc vis news nf o : inv m s -> placed_right s -> quad_nodes f face ns -> unit_cell (grid_pos s) ns -> length vis = num_faces f ->
    (forall x y, exists n, loc x y = Some n /\ In n ns /\ grid_pos s n = Some (corner_at o (x, y))) ->
    (forall d, In d directions -> tried m f placed_right s face loc vis news d) -> next_to face nf -> nth_error vis nf = Some true \/ In nf news.
  Proof.
    intros I R Q Un Lv Hloc Ht (N & e & nns & He & Hn & Qn).
    assert (Hc : forall x y, exists n, In n ns /\ grid_pos s n = Some (corner_at o (x, y))) by (intros x y; destruct (Hloc x y) as (n & _ & X); exists n; exact X).
    destruct (other_beyond e face nf He Hn N) as (Hb & L2). destruct (quad_facts m f U P face ns Q) as (es & Ees & _). destruct (quad_facts m f U P nf nns Qn) as (nes & Enes & _).
    assert (Hin : In e es). { apply filter_In in He as (_ & He). apply existsb_exists in He as (x & Hx & Ex). apply Nat.eqb_eq in Ex as ->. now rewrite (nth_error_nth _ _ _ Ees) in Hx. }
    assert (Hnin : In e nes). { apply filter_In in Hn as (_ & Hn). apply existsb_exists in Hn as (x & Hx & Ex). apply Nat.eqb_eq in Ex as ->. now rewrite (nth_error_nth _ _ _ Enes) in Hx. }
    destruct (quad_round face ns es e Q Ees Hin) as (a & b & c & c' & Ro & Le & J). destruct (unit_rotated _ _ _ _ _ Ro (gr_cell m f pos G face ns Q)) as (pa & pb & _ & _ & Pa & Pb & _ & _ & B & _).
    assert (Crn : forall n p, In n ns -> pos n = Some p -> exists x, p = corner_at o x /\ grid_pos s n = Some p).
    { intros n p Hin' Hp. destruct Un as (n0 & n1 & n2 & n3 & p0 & p1 & p2 & p3 & -> & G0 & G1 & G2 & G3 & _).
      assert (Y : grid_pos s n = Some p) by (assert (Z0 : exists p', grid_pos s n = Some p') by (destruct Hin' as [<-|[<-|[<-|[<-|[]]]]]; eauto); destruct Z0 as (p' & Z0); rewrite Z0; apply R in Z0; congruence).
      destruct (Hc false false) as (m0 & M0 & K0). destruct (Hc false true) as (m1 & M1 & K1). destruct (Hc true false) as (m2 & M2 & K2). destruct (Hc true true) as (m3 & M3 & K3).
      assert (Dm : NoDup [m0; m1; m2; m3]).
      { assert (Ne : forall x y u v k, (x, y) <> (u, v) -> grid_pos s k = Some (corner_at o (x, y)) -> grid_pos s k = Some (corner_at o (u, v)) -> False).
        { intros x y u v k Nx X1 X2. rewrite X1 in X2. unfold corner_at in X2. cbn [fst snd] in X2. injection X2 as X2 X3. apply Nx. f_equal; [destruct x, u|destruct y, v]; cbn in *; auto; lia. }
        do 4 (constructor; [cbn; intros H; repeat destruct H as [H|H]; try (subst; match goal with X1 : grid_pos s ?k = Some _, X2 : grid_pos s ?k = Some _ |- _ => refine (Ne _ _ _ _ k _ X1 X2); discriminate end); try easy|]). constructor. }
      assert (Hi : In n [m0; m1; m2; m3]).
      { apply (NoDup_length_incl Dm (l' := [n0; n1; n2; n3])); [cbn; lia| |exact Hin']. intros k [<-|[<-|[<-|[<-|[]]]]]; assumption. }
      destruct Hi as [<-|[<-|[<-|[<-|[]]]]]; [exists (false, false)|exists (false, true)|exists (true, false)|exists (true, true)]; split; auto; congruence. }
    assert (Ia : In a ns) by (apply (rotated_in _ _ _ _ _ a Ro); auto). assert (Ib : In b ns) by (apply (rotated_in _ _ _ _ _ b Ro); auto).
    destruct (Crn a pa Ia Pa) as (x & Hx & Ga). destruct (Crn b pb Ib Pb) as (y & Hy & Gb). destruct (corner_direction o x y pa pb Hx Hy B) as (d & Hd & Dab).
    destruct (Ht d Hd) as (first & second & L1 & Ls & Tr). destruct (Hloc (fst (d_from d)) (snd (d_from d))) as (n1 & L1' & I1 & G1). destruct (Hloc (fst (d_to d)) (snd (d_to d))) as (n2 & L2' & I2 & G2).
    rewrite L1 in L1'. injection L1' as <-. rewrite Ls in L2'. injection L2' as <-. rewrite <- surjective_pairing in G1, G2.
    assert (Fs : (first = a /\ second = b) \/ (first = b /\ second = a)).
    { pose proof (R _ _ G1) as R1. pose proof (R _ _ G2) as R2. destruct Dab as [(E1 & E2)|(E1 & E2)]; [left|right]; (split; [apply (gr_once m f pos G first _ _ R1)|apply (gr_once m f pos G second _ _ R2)]; congruence). }
    assert (Jf : joins (edge_at m e) first second) by (destruct Fs as [(-> & ->)|(-> & ->)]; [exact J|now apply joins_sym]).
    pose proof (find_same first second e Le Jf) as Fe. destruct Tr as [(s' & I' & R' & Ex & Bl)|(e' & nf' & Hnew & Fe' & Hb')].
    - destruct (nth_error vis nf) as [[|]|] eqn:Ev; [now left| |apply nth_error_None in Ev; rewrite Lv in Ev; pose proof (proj1 (with_lt m f U e nf Hn)); lia]. exfalso.
      destruct (quad_round nf nns nes e Qn Enes Hnin) as (a' & b' & k & k' & Ro' & _ & J').
      assert (Fs' : (a' = first /\ b' = second) \/ (a' = second /\ b' = first)).
      { destruct (joins_ends _ _ _ J') as (X1 & X2). destruct (joins_two _ _ _ _ Jf X1) as [->| ->]; destruct (joins_two _ _ _ _ Jf X2) as [->| ->]; auto; exfalso;
          destruct (unit_rotated _ _ _ _ _ Ro' (gr_cell m f pos G nf nns Qn)) as (u & v & _ & _ & Eu & Ev' & _ & _ & Bu & _); rewrite Eu in Ev'; injection Ev' as <-; now apply beside_neq in Bu. }
      assert (Hc' : forall x y, exists n, In n ns /\ grid_pos s' n = Some (corner_at o (x, y))) by (intros x0 y0; destruct (Hc x0 y0) as (n & Y1 & Y2); exists n; split; [exact Y1|now apply Ex]).
      destruct (across_place s' face ns e nf nns a' b' k k' d o R' Hd Q Hc' He Hb Qn Ro') as (qa & qb & Qa & Qb & Qk & Qk').
      { destruct Fs' as [(-> & ->)|(-> & ->)]; [left|right]; split; now apply Ex. }
      assert (Fit : forall n p, pos n = Some p -> fits m f s' n p).
      { intros n p Hp. split; [destruct (grid_pos s' n) as [p'|] eqn:E; [right; apply R' in E; congruence|now left]|]. intros q n' Bq Hq. apply (iv_map m s' I') in Hq. apply R' in Hq. apply joins_connects. eapply (gr_join m f pos G); eauto. }
      exact (Bl e nf nns a' b' k k' qa qb Fe L2 Hb Ev Qn Ro' Fs' Qa Qb (Fit _ _ Qk) (Fit _ _ Qk')).
    - right. rewrite Fe in Fe'. injection Fe' as <-. rewrite Hb in Hb'. injection Hb' as <-. exact Hnew.
  Qed.
End Complete.

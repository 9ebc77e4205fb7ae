(** Proofs about the conversion of a mesh to a curvilinear grid: the growing front. *)
From Verif Require Import Base BaseLemmas FloatModel MeshModel MeshSpec MeshAdj MeshEdits FaceModel FaceSpec FaceUseSpec SplitModel SplitSpec SplitProofs ConvertModel ConvertSpec ConvertProofs ConvertMain ConvertFront.

Definition seen (vis : list bool) : nat := length (filter (fun b => b) vis).
Definition unseen (vis : list bool) : nat := length (filter negb vis).
Lemma seen_set vis k : nth_error vis k = Some false -> seen (set_nth k true vis) = S (seen vis) /\ S (unseen (set_nth k true vis)) = unseen vis.
Proof.
  unfold seen, unseen. revert k. induction vis as [|b vis IH]; intros [|k] H; cbn in H; try discriminate.
  - injection H as ->. cbn. auto.
  - destruct (IH k H) as (H1 & H2). cbn. destruct b; cbn; lia.
Qed.
Lemma seen_le vis : seen vis <= length vis.
Proof. unfold seen. induction vis as [|[] vis IH]; cbn in *; lia. Qed.
Lemma seen_none k : seen (repeat false k) = 0.
Proof. unfold seen. induction k; cbn; auto. Qed.
Lemma unseen_all k : unseen (repeat false k) = k.
Proof. unfold unseen. induction k; cbn; auto. Qed.

Definition low (b : nat) (p : Z * Z) : Prop := (- Z.of_nat b <= fst p /\ - Z.of_nat b <= snd p)%Z.
Lemma low_mono b b' p : b <= b' -> low b p -> low b' p.
Proof. unfold low. lia. Qed.
Lemma low_real b p : b < 999 -> low b p -> real p.
Proof. unfold low, real, missing_int. lia. Qed.

Section Grow.
  Variable m : mesh.
  Variable f : faces.
  Hypothesis C : consistent m.
  Hypothesis A : adjacency_exact m.
  Hypothesis U : usable m f.
  Hypothesis P : proper_cells m f.
  Hypothesis NB : no_bare_edges m f.
  Hypothesis Few : num_faces f < 999.

  Lemma crossed_ok s s' face first second nf d vis ns a b c c' pa pb o : inv m s -> In d directions ->
    grid_pos s first = Some (corner_at o (d_from d)) -> grid_pos s second = Some (corner_at o (d_to d)) -> crossed m f s s' face first second nf d vis ns a b c c' pa pb ->
    inv m s' /\ extends_pos s s' /\ (few_common m -> one_each s -> one_each s') /\ unit_cell (grid_pos s') ns /\
    forall n p, grid_pos s' n = Some p -> grid_pos s n = Some p \/ (In n ns /\ (p = shift (corner_at o (d_from d)) d \/ p = shift (corner_at o (d_to d)) d)).
  Proof.
    intros I Hd P1 P2 X. pose proof (direction_ok d o Hd) as DO. cbv zeta in DO. set (u := corner_at o (d_from d)) in *. set (v := corner_at o (d_to d)) in *.
    assert (Q : (pa = u /\ pb = v) \/ (pa = v /\ pb = u)).
    { pose proof (cr_pa _ _ _ _ _ _ _ _ _ _ _ _ _ _ _ _ _ X) as Ea. pose proof (cr_pb _ _ _ _ _ _ _ _ _ _ _ _ _ _ _ _ _ X) as Eb. destruct (cr_first _ _ _ _ _ _ _ _ _ _ _ _ _ _ _ _ _ X) as [(-> & ->)|(-> & ->)]; [left|right]; split; congruence. }
    assert (G : beside pa pb /\ beside pa (shift pa d) /\ beside pb (shift pb d) /\ beside (shift pa d) (shift pb d) /\ pa <> shift pb d /\ pb <> shift pa d).
    { destruct DO as (O1 & O2 & O3 & O4 & O5 & O6). destruct Q as [(-> & ->)|(-> & ->)]; [tauto|]. repeat split; auto using beside_sym. }
    destruct G as (G1 & G2 & G3 & G4 & G5 & G6). destruct X as [X1 X2 X3 X4 X5 X6 X7 X8 X9 X10 X11 X12 (X13 & X13') (X14 & X14') X15 X16 X17].
    assert (DD : a <> b /\ a <> c /\ a <> c' /\ b <> c /\ b <> c' /\ c <> c').
    { clear - X6. repeat match goal with H : NoDup _ |- _ => inversion H; clear H; subst end. cbn in *. intuition. }
    destruct DD as (D1 & D2 & D3 & D4 & D5 & D6).
    assert (V1 : forall r n, beside (shift pb d) r -> cell_at s r = Some n -> neighbour m c n) by (intros r n H1 H2; eapply (connects_near m f U), X13'; eauto).
    assert (V2 : forall r n, beside (shift pa d) r -> cell_at s r = Some n -> neighbour m c' n) by (intros r n H1 H2; eapply (connects_near m f U), X14'; eauto).
    assert (Bpq : beside (shift pb d) (shift pa d)) by now apply beside_sym.
    split; [eapply (two_inv m f C A U P s s' c c' (shift pb d) (shift pa d)); eauto|]. split; [eapply (two_extends s s' c c' (shift pb d) (shift pa d)); eauto|].
    split; [apply (two_once m f C A U P s s' c c' (shift pb d) (shift pa d) I X17 D6 Bpq X13 X14 X15 X16 X9 V1 V2 a b pa pb); auto using beside_sym|].
    split.
    - apply (rotated_unit _ _ _ _ _ _ X5). exists a, b, c, c', pa, pb, (shift pb d), (shift pa d). split; [reflexivity|]. rewrite !X15, Nat.eqb_refl.
      rewrite (proj2 (Nat.eqb_neq a c')), (proj2 (Nat.eqb_neq a c)), (proj2 (Nat.eqb_neq b c')), (proj2 (Nat.eqb_neq b c)), (proj2 (Nat.eqb_neq c c')) by auto. rewrite Nat.eqb_refl. repeat split; auto using beside_sym.
    - intros n p. rewrite X15. destruct (Nat.eqb_spec n c') as [->|]; [intros H; injection H as <-; right; split; [apply (rotated_in _ _ _ _ _ _ X5); auto|destruct Q as [(-> & _)|(-> & _)]; auto]|].
      destruct (Nat.eqb_spec n c) as [->|]; [intros H; injection H as <-; right; split; [apply (rotated_in _ _ _ _ _ _ X5); auto|destruct Q as [(_ & ->)|(_ & ->)]; auto]|]. now left.
  Qed.

  (** A further invariant, kept by every step, and when two cells are next to each other. *)
  Variable good : conversion -> Prop.
  Variable next_to : nat -> nat -> Prop.
  Hypothesis good_same : forall s s', unchanged s s' -> good s -> good s'.
  Hypothesis good_cross : forall s s' face fns first second nf d vis ns a b c c' pa pb o, inv m s -> good s -> In d directions -> quad_nodes f face fns ->
    (forall x y, exists n, In n fns /\ grid_pos s n = Some (corner_at o (x, y))) ->
    grid_pos s first = Some (corner_at o (d_from d)) -> grid_pos s second = Some (corner_at o (d_to d)) -> crossed m f s s' face first second nf d vis ns a b c c' pa pb -> good s'.
  Variable from : nat -> Prop.
  Hypothesis from_cross : forall s s' face fns first second nf d vis ns a b c c' pa pb o, inv m s -> good s -> In d directions -> quad_nodes f face fns ->
    (forall x y, exists n, In n fns /\ grid_pos s n = Some (corner_at o (x, y))) ->
    grid_pos s first = Some (corner_at o (d_from d)) -> grid_pos s second = Some (corner_at o (d_to d)) -> crossed m f s s' face first second nf d vis ns a b c c' pa pb -> from face -> from nf.
  (** What happened in direction [d]. *)
  Definition tried (s : conversion) (face : nat) (loc : bool -> bool -> option nat) (vis : list bool) (news : list nat) (d : direction) : Prop :=
    exists first second, loc (fst (d_from d)) (snd (d_from d)) = Some first /\ loc (fst (d_to d)) (snd (d_to d)) = Some second /\
      ((exists s', inv m s' /\ good s' /\ extends_pos s s' /\ blocked m f s' face first second d vis) \/
       exists e nf, In nf news /\ find_edge m (Some first) (Some second) = Ok (Some e) /\ beyond f e face = Some nf).
  Hypothesis closes : forall s face ns loc vis news nf o, inv m s -> good s -> quad_nodes f face ns -> unit_cell (grid_pos s) ns -> length vis = num_faces f ->
    (forall x y, exists n, loc x y = Some n /\ In n ns /\ grid_pos s n = Some (corner_at o (x, y))) ->
    (forall d, In d directions -> tried s face loc vis news d) -> next_to face nf -> nth_error vis nf = Some true \/ In nf news.

  Definition placed_cell (s : conversion) (q : nat) : Prop := from q /\ exists ns, quad_nodes f q ns /\ unit_cell (grid_pos s) ns.
  Lemma placed_extends s s' q : extends_pos s s' -> placed_cell s q -> placed_cell s' q.
  Proof. intros E (Fr & ns & Q & (a & b & c & d & p & q' & r & t & -> & H1 & H2 & H3 & H4 & H)). split; [exact Fr|]. exists [a; b; c; d]. split; [exact Q|]. exists a, b, c, d, p, q', r, t. auto 12. Qed.
  Lemma extends_trans s s' s'' : extends_pos s s' -> extends_pos s' s'' -> extends_pos s s''.
  Proof. unfold extends_pos. auto. Qed.

  Lemma advance_ok face fns loc vis o B : from face -> quad_nodes f face fns -> length vis = num_faces f -> low B o -> B < 998 -> forall ds s0, (forall d, In d ds -> In d directions) ->
    (forall x y, exists n, loc x y = Some n /\ In n fns /\ grid_pos s0 n = Some (corner_at o (x, y))) ->
    forall queue s, inv m s -> good s -> extends_pos s0 s ->
    exists news s', fold_out (advance m f face loc vis) ds (queue, s) = Ok (queue ++ news, s') /\ length news <= length ds /\ inv m s' /\ good s' /\ extends_pos s s' /\
      (few_common m -> one_each s -> one_each s') /\
      (forall q, In q news -> nth_error vis q = Some false /\ placed_cell s' q) /\
      (forall n p, grid_pos s' n = Some p -> grid_pos s n = Some p \/ (low (S B) p /\ exists q ns, In q news /\ quad_nodes f q ns /\ In n ns)) /\
      forall d, In d ds -> tried s0 face loc vis news d.
  Proof.
    intros Fr Qf Lv Lo LB. induction ds as [|d ds IH]; intros s0 Hds Hloc queue s I G E.
    - exists [], s. split; [cbn; now rewrite app_nil_r|]. split; [cbn; lia|]. split; [exact I|]. split; [exact G|]. split; [intros n p H; exact H|]. split; [auto|]. split; [intros q []|]. split; [auto|]. intros d [].
    - assert (Hd : In d directions) by (apply Hds; now left). destruct (Hloc (fst (d_from d)) (snd (d_from d))) as (first & L1 & _ & P1). destruct (Hloc (fst (d_to d)) (snd (d_to d))) as (second & L2 & _ & P2).
      rewrite <- surjective_pairing in P1, P2. apply E in P1 as P1', P2 as P2'.
      assert (Real : forall p, p = corner_at o (d_from d) \/ p = corner_at o (d_to d) -> low (S B) (shift p d)).
      { intros p Hp. assert (low B p) as (Lp1 & Lp2).
        { unfold low, corner_at in *. destruct Hp as [-> | ->]; cbn [fst snd]; repeat match goal with |- context[Z.b2z ?x] => destruct x; cbn [Z.b2z] end; lia. }
        destruct (direction_low d p (Z.of_nat B) Hd Lp1 Lp2) as (X1 & X2). unfold low. lia. }
      destruct (neighbouring_ok m f C A U P NB s face loc d vis o first second I Hd Lv L1 L2 P1' P2') as (r & s1 & H1 & Cases); [intros p Hp; apply (low_real (S B)); [lia|auto]|].
      cbn [fold_out]. unfold advance at 1. cbn [fst snd]. rewrite H1. cbn [bind]. destruct Cases as [(-> & Un & Bl)|(nf & ns & a & b & c & c' & pa & pb & -> & Cr)].
      + destruct (IH s0 (fun d H => Hds d (or_intror H)) Hloc queue s1 (unchanged_inv m s s1 Un I) (good_same s s1 Un G)) as (news & s2 & F1 & F2 & F3 & F4 & F5 & F6 & F7 & F8 & F9); [intros n p H; rewrite (proj1 Un); now apply E|].
        exists news, s2. split; [exact F1|]. split; [cbn; lia|]. split; [exact F3|]. split; [exact F4|]. split; [intros n p H; apply F5; now rewrite (proj1 Un)|].
        split; [intros Fw O; apply F6; [exact Fw|]; intros x y p; rewrite !(proj1 Un); apply O|]. split; [exact F7|]. split; [intros n p H; rewrite <- (proj1 Un); now apply F8|].
        intros d' [<-|Hd']; [|now apply F9]. exists first, second. split; [exact L1|]. split; [exact L2|]. left. exists s. auto.
      + destruct (crossed_ok s s1 face first second nf d vis ns a b c c' pa pb o I Hd P1' P2' Cr) as (K1 & K2 & K3 & K4 & K5).
        assert (Hc : forall x y, exists n, In n fns /\ grid_pos s n = Some (corner_at o (x, y))) by (intros x y; destruct (Hloc x y) as (n & _ & Hn & Hp); exists n; auto).
        destruct (IH s0 (fun d H => Hds d (or_intror H)) Hloc (queue ++ [nf]) s1 K1 (good_cross _ _ _ fns _ _ _ _ _ _ _ _ _ _ _ _ o I G Hd Qf Hc P1' P2' Cr) (extends_trans _ _ _ E K2)) as (news & s2 & F1 & F2 & F3 & F4 & F5 & F6 & F7 & F8 & F9).
        exists (nf :: news), s2. split; [rewrite F1, <- app_assoc; reflexivity|]. split; [cbn; lia|]. split; [exact F3|]. split; [exact F4|]. split; [exact (extends_trans _ _ _ K2 F5)|]. split; [auto|].
        split; [|split].
        * intros q [<-|Hq]; [|now apply F7]. split; [apply (cr_new _ _ _ _ _ _ _ _ _ _ _ _ _ _ _ _ _ Cr)|]. apply (placed_extends s1 s2 nf F5). split; [exact (from_cross _ _ _ fns _ _ _ _ _ _ _ _ _ _ _ _ o I G Hd Qf Hc P1' P2' Cr Fr)|]. exists ns. split; [apply (cr_quad _ _ _ _ _ _ _ _ _ _ _ _ _ _ _ _ _ Cr)|exact K4].
        * intros n p H. destruct (F8 n p H) as [H'|(Lp & q & ns' & Hq & Q1 & Q2)]; [|right; split; [exact Lp|]; exists q, ns'; split; [now right|auto]].
          destruct (K5 n p H') as [H2|(Hn & Hp)]; [now left|]. right. split; [destruct Hp as [-> | ->]; apply Real; auto|]. exists nf, ns. split; [now left|]. split; [apply (cr_quad _ _ _ _ _ _ _ _ _ _ _ _ _ _ _ _ _ Cr)|exact Hn].
        * intros d' [<-|Hd'].
          -- exists first, second. split; [exact L1|]. split; [exact L2|]. right. destruct (cr_face _ _ _ _ _ _ _ _ _ _ _ _ _ _ _ _ _ Cr) as (e & E1 & E2 & _). exists e, nf. split; [now left|]. auto.
          -- destruct (F9 d' Hd') as (x & y & T1 & T2 & T). exists x, y. split; [exact T1|]. split; [exact T2|]. destruct T as [T|(e & nf' & T3 & T4)]; [now left|]. right. exists e, nf'. split; [now right|exact T4].
  Qed.

  Record going (queue : list nat) (vis : list bool) (s : conversion) : Prop := {
    go_inv : inv m s;
    go_good : good s;
    go_len : length vis = num_faces f;
    go_queue : forall q, In q queue -> placed_cell s q;
    go_seen : forall q, nth_error vis q = Some true -> placed_cell s q;
    go_nodes : forall n p, grid_pos s n = Some p -> low (seen vis) p /\ exists q ns, (In q queue \/ nth_error vis q = Some true) /\ quad_nodes f q ns /\ In n ns;
    go_closed : forall q nf, nth_error vis q = Some true -> next_to q nf -> nth_error vis nf = Some true \/ In nf queue }.

  Lemma vis_set vis k q : nth_error vis k = Some false -> nth_error (set_nth k true vis) q = Some true <-> q = k \/ nth_error vis q = Some true.
  Proof.
    intros H. assert (k < length vis) by (apply nth_error_Some; congruence). destruct (Nat.eq_dec k q) as [->|N]; [rewrite nth_error_set_nth_eq by lia; tauto|]. rewrite nth_error_set_nth_neq by auto. intuition congruence.
  Qed.
  Lemma placed_quad s q : placed_cell s q -> from q /\ exists ns, quad_nodes f q ns /\ unit_cell (grid_pos s) ns /\ q < num_faces f /\ nth_error (num_faces_nodes f) q = Some 4.
  Proof.
    intros (Fr & ns & Q & H). split; [exact Fr|]. exists ns. split; [exact Q|]. split; [exact H|]. destruct (quad_facts m f U P q ns Q) as (_ & _ & _ & _ & _ & _ & K). split; [|exact K]. destruct Q as (Q & _). unfold num_faces. apply nth_error_Some. congruence.
  Qed.

  Lemma grow_ok : forall fuel queue vis s, going queue vis s -> length queue + 4 * unseen vis <= fuel ->
    exists vis' s', grow m f fuel queue vis s = Ok (Some (vis', s')) /\ going [] vis' s' /\ extends_pos s s' /\ (few_common m -> one_each s -> one_each s') /\
      (forall q, nth_error vis q = Some true -> nth_error vis' q = Some true) /\ forall q, In q queue -> nth_error vis' q = Some true.
  Proof.
    induction fuel as [|fuel IH]; intros queue vis s Go Hf.
    - destruct queue; [|cbn in Hf; lia]. exists vis, s. split; [reflexivity|]. split; [exact Go|]. split; [intros n p H; exact H|]. split; [auto|]. split; [auto|intros q []].
    - destruct queue as [|face queue]; [exists vis, s; split; [reflexivity|]; split; [exact Go|]; split; [intros n p H; exact H|]; split; [auto|]; split; [auto|intros q []]|].
      cbn [grow]. destruct Go as [I G Lv Hq Hs Hn Hcl]. destruct (placed_quad s face (Hq face (or_introl eq_refl))) as (Fr & ns & Q & Un & Lf & K4).
      unfold vget at 1. destruct (nth_error vis face) as [b|] eqn:Eb; [|apply nth_error_None in Eb; lia]. cbn [bind]. destruct b.
      + destruct (IH queue vis s) as (vis' & s' & F1 & F2 & F3 & F4 & F5 & F6).
        * constructor; auto; [intros q Hin; apply Hq; now right| |].
          -- intros n p H. destruct (Hn n p H) as (Lp & q & ns' & [[<-|Hin]|Hin] & R); (split; [exact Lp|]); [exists face, ns'|exists q, ns'|exists q, ns']; auto.
          -- intros q nf H1 H2. destruct (Hcl q nf H1 H2) as [H|[<-|H]]; auto.
        * cbn in Hf. lia.
        * exists vis', s'. split; [exact F1|]. split; [exact F2|]. split; [exact F3|]. split; [exact F4|]. split; [exact F5|]. intros q [<-|Hin]; auto.
      + rewrite vset_lt by lia. cbn [bind]. unfold vget at 1. rewrite K4. cbn [bind Nat.eqb negb]. destruct (local_ok f s face ns (proj1 Q) Un) as (loc & i0 & j0 & -> & Hloc). cbn [bind].
        destruct (seen_set vis face Eb) as (S1 & S2). set (vis1 := set_nth face true vis) in *. assert (Lv1 : length vis1 = num_faces f) by (unfold vis1; now rewrite set_nth_length).
        assert (Hloc' : forall x y, exists n, loc x y = Some n /\ In n ns /\ grid_pos s n = Some (corner_at (i0, j0) (x, y))) by (intros x y; apply (Hloc x y)).
        assert (Lo : low (seen vis) (i0, j0)).
        { destruct (Hloc' false false) as (n & _ & _ & Hp). destruct (Hn n _ Hp) as (L & _). unfold low, corner_at in L. cbn in L. unfold low. cbn. lia. }
        pose proof (seen_le vis1) as SL.
        destruct (advance_ok face ns loc vis1 (i0, j0) (seen vis) Fr Q Lv1 Lo ltac:(lia) directions s (fun d H => H) Hloc' queue s I G (fun n p H => H))
          as (news & s1 & F1 & F2 & F3 & F4 & F5 & F6 & F7 & F8 & F9).
        rewrite F1. cbn [bind]. destruct (IH (queue ++ news) vis1 s1) as (vis' & s' & G1 & G2 & G3 & G4 & G5 & G6).
        * constructor; auto.
          -- intros q Hin. apply in_app_or in Hin as [Hin|Hin]; [apply (placed_extends s s1 q F5), Hq; now right|apply (F7 q Hin)].
          -- intros q H. apply (vis_set vis face q Eb) in H as [->|H]; [apply (placed_extends s s1 face F5), Hq; now left|apply (placed_extends s s1 q F5), Hs, H].
          -- intros n p H. destruct (F8 n p H) as [H'|(Lp & q & ns' & Hin & Q')].
             ++ destruct (Hn n p H') as (Lp & q & ns' & W & R). split; [eapply low_mono; [|exact Lp]; lia|]. exists q, ns'. split; [|exact R].
                destruct W as [[<-|W]|W]; [right; apply (vis_set vis face face Eb); auto|left; apply in_or_app; auto|right; apply (vis_set vis face q Eb); auto].
             ++ split; [rewrite S1; exact Lp|]. exists q, ns'. split; [left; apply in_or_app; auto|exact Q'].
          -- intros q nf H Hx. apply (vis_set vis face q Eb) in H as [->|H].
             ++ destruct (closes s face ns loc vis1 news nf (i0, j0) I G Q Un Lv1 Hloc' F9 Hx) as [R|R]; [now left|right; apply in_or_app; auto].
             ++ destruct (Hcl q nf H Hx) as [R|[<-|R]]; [left; apply (vis_set vis face nf Eb); auto|left; apply (vis_set vis face face Eb); auto|right; apply in_or_app; auto].
        * rewrite app_length. cbn in Hf, F2. lia.
        * exists vis', s'. split; [exact G1|]. split; [exact G2|]. split; [exact (extends_trans _ _ _ F5 G3)|]. split; [auto|]. split.
          -- intros q H. apply G5. apply (vis_set vis face q Eb). auto.
          -- intros q [<-|Hin]; [apply G5, (vis_set vis face face Eb); auto|apply G6, in_or_app; auto].
  Qed.
End Grow.

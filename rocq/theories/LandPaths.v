(** Land boundaries: the shortest path. *)
From Verif Require Import Base BaseLemmas FloatModel FloatReal MeshModel MeshSpec FaceModel FaceSpec FlipSpec NodeTypeProofs SplitModel PolyModel ContactsProofs RefineProofs LandModel LandSpec LandNear FloatSum.

(** A result with [P], or one of two failures that need [Q]. *)
Definition fails {A} (Q : Prop) (P : A -> Prop) (r : outcome A) : Prop := match r with Ok a => P a | Throw e => e = AlgorithmErr /\ Q | UB => Q end.
Lemma fails_bind {A B} (Q : Prop) (P : A -> Prop) (R : B -> Prop) (r : outcome A) (g : A -> outcome B) : fails Q P r -> (forall a, P a -> fails Q R (g a)) -> fails Q R (bind r g).
Proof. intros H Hg. destruct r as [a|e|]; cbn [bind]; [apply Hg; exact H|exact H|exact H]. Qed.
Lemma fails_fold {A B} (Q : Prop) (P : list B -> A -> Prop) (g : A -> B -> outcome A) l : (forall d b t a, l = d ++ b :: t -> P d a -> fails Q (P (d ++ [b])) (g a b)) ->
  forall a, P [] a -> fails Q (P l) (fold_out g l a).
Proof.
  intros H. assert (G : forall t d a, l = d ++ t -> P d a -> fails Q (P l) (fold_out g t a)); [|intros a Ha; now apply (G l [] a)].
  induction t as [|b t IH]; intros d a El Ha; cbn [fold_out]; [rewrite app_nil_r in El; subst d; exact Ha|].
  apply (fails_bind Q (P (d ++ [b]))); [eapply H; eauto|]. intros a' Ha'. apply (IH (d ++ [b])); auto. rewrite <- app_assoc. exact El.
Qed.

Section Nearest.
  Variable line : point -> point -> point -> double * point * double.
  Variable land : list point.
  Lemma nearest_unique a b p i d x r i' d' x' r' : is_nearest line land a b p i d x r -> is_nearest line land a b p i' d' x' r' -> i = i' /\ d = d' /\ x = x' /\ r = r'.
  Proof.
    intros (A1 & A2 & A3 & A4) (B1 & B2 & B3 & B4). assert (i = i').
    { destruct (Nat.lt_trichotomy i i') as [H|[H|H]]; [|exact H|].
      - destruct (B4 i d A1 A3) as (_ & H1). specialize (H1 H). destruct (A4 i' d' B1 B3) as (H2 & _). congruence.
      - destruct (A4 i' d' B1 B3) as (_ & H1). specialize (H1 H). destruct (B4 i d A1 A3) as (H2 & _). congruence. }
    subst i'. destruct A2 as (_ & _ & A2), B2 as (_ & _ & B2). rewrite A2 in B2. injection B2 as -> -> ->. auto.
  Qed.
End Nearest.

Section Paths.
  Variable dist : point -> point -> double.
  Variable line : point -> point -> point -> double * point * double.
  Variables (land : list point) (a b : nat) (outer : bool) (m : mesh) (f : faces).
  Hypothesis dist_good : forall p q, In p (m_nodes m) -> In q (m_nodes m) -> good (dist p q).
  Hypothesis line_double : forall p q r, In p (m_nodes m ++ land) -> In q (m_nodes m ++ land) -> In r (m_nodes m ++ land) -> is_double (fst (fst (line p q r))).
  Hypothesis Hab : a < b < length land.
  Hypothesis St : in_step m f.
  Local Notation N := (length (m_nodes m)).
  Local Notation E := (length (m_edges m)).
  Variable mask : list (option nat).
  Hypothesis Lm : length mask = N.
  Variable k start : nat.
  Hypothesis Hs : start < N.
  Local Notation cost := (step_cost dist line land a b outer m f).
  Local Notation near p i d x r := (is_nearest line land a b p i d x r).
  Definition masked (n : nat) : Prop := nth_error mask n = Some (Some k).
  Local Notation path := (route m masked cost start).
  Local Notation off := (off_land line land a b m).

  Lemma nearest_cases p : (exists i d x r, nearest line land (Some (a, b)) p = Ok (d, x, Some i, r) /\ near p i d x r) \/
    (exists d x r, nearest line land (Some (a, b)) p = Ok (d, x, None, r) /\ none_near line land a b p).
  Proof.
    destruct (nearest_ok line land (Some (a, b)) p) as ([[[d x] [i|]] r] & E1 & B1); [cbn; lia| |]; cbn [ends_of fst snd] in *.
    - left. exists i, d, x, r. auto.
    - right. exists d, x, r. split; [exact E1|]. apply B1.
  Qed.
  Lemma node_in n p : nth_error (m_nodes m) n = Some p -> In p (m_nodes m ++ land).
  Proof. intros H. apply in_or_app. left. eapply nth_error_In. exact H. Qed.
  Lemma land_in i : i < length land -> In (point_at land i) (m_nodes m ++ land).
  Proof. intros H. apply in_or_app. right. now apply nth_In. Qed.
  Lemma near_good n p i d x r : nth_error (m_nodes m) n = Some p -> near p i d x r -> good d.
  Proof.
    intros Hn (Hi & (_ & _ & Hl) & (_ & Hp & _) & _). assert (Dd : is_double d) by (pose proof (line_double p (point_at land i) (point_at land (S i)) (node_in _ _ Hn) (land_in i ltac:(lia)) (land_in (S i) ltac:(lia))) as Q; rewrite Hl in Q; exact Q).
    split; [exact Dd|]. left. apply ltb_spec; [reflexivity|exact Dd|exact Hp].
  Qed.
  Lemma cost_good n e o w : cost n e o w -> good w.
  Proof.
    intros (p & q & i & j & d & d' & x & x' & r & r' & Pp & Pq & N1 & N2 & Ew & Hw). pose proof (nth_error_In _ _ Pp) as Ip. pose proof (nth_error_In _ _ Pq) as Iq.
    assert (Gw : good (widest line land p q i j d d')).
    { unfold widest. assert (G0 : good (larger d d')) by (apply larger_good; [eapply near_good; [exact Pp|exact N1]|eapply near_good; [exact Pq|exact N2]]). assert (Hb : forall y, In y (between_points i j) -> y < length land) by (intros y Hy; apply in_seq in Hy; destruct N1 as (N1 & _), N2 as (N2 & _); lia).
      revert G0 Hb. generalize (larger d d'). generalize (between_points i j).
      induction l as [|y l IH]; intros w0 G0 Hb; cbn [map fold_left]; [exact G0|]. apply IH; [|intros z Hz; apply Hb; now right]. apply larger_good; [exact G0|]. apply line_double; [apply land_in, Hb; now left|eapply node_in; exact Pp|eapply node_in; exact Pq]. }
    assert (G1 : good (if outer && negb match nth_error (edges_num_faces f) e with Some 1 => true | _ => false end then fmul (double_of 1000000 0) (widest line land p q i j d d') else widest line land p q i j d d') \/ w = S754_nan).
    { destruct (outer && _); [|now left]. destruct (fmul_good (double_of 1000000 0) (widest line land p q i j d d')) as [Z|Z]; auto.
      - split; [reflexivity|]. left. apply ltb_spec; reflexivity.
      - right. rewrite Ew, Z. now destruct (dist p q). }
    destruct G1 as [G1|G1]; [|contradiction]. destruct (fmul_good _ _ (dist_good p q Ip Iq) G1) as [Z|Z]; [congruence|]. now rewrite <- Ew in Z.
  Qed.
  Lemma cost_unique n e o w w' : cost n e o w -> cost n e o w' -> w = w'.
  Proof.
    intros (p & q & i & j & d & d' & x & x' & r & r' & P1 & P2 & N1 & N2 & Ew & _) (p1 & q1 & i1 & j1 & d1 & d1' & x1 & x1' & r1 & r1' & P1' & P2' & N1' & N2' & Ew' & _).
    assert (p1 = p) by congruence. assert (q1 = q) by congruence. subst p1 q1. destruct (nearest_unique line land _ _ _ _ _ _ _ _ _ _ _ N1 N1') as (<- & <- & _). destruct (nearest_unique line land _ _ _ _ _ _ _ _ _ _ _ N2 N2') as (<- & <- & _). congruence.
  Qed.
  Lemma weight_ok n o e p q i d x r : e < E -> nth_error (m_nodes m) n = Some p -> nth_error (m_nodes m) o = Some q -> near p i d x r ->
    (none_near line land a b q /\ weight dist line land (a, b) outer f p d i e q = UB) \/
    exists w, weight dist line land (a, b) outer f p d i e q = Ok w /\ forall w', w' <> S754_nan -> w' = w <-> cost n e o w'.
  Proof.
    intros He Hp Hq Np. unfold weight. destruct (nearest_cases q) as [(j & d' & x' & r' & -> & Nq)|(d' & x' & r' & -> & No)]; cbn [bind row_index]; [right|left; auto].
    assert (F : forall l w0, (forall c, In c l -> c < length land) -> fold_out (fun w c => let! c := vget land c in let '(d, _, _) := line c p q in Ok (if SFltb w d then d else w)) l w0 =
      Ok (fold_left larger (map (fun c => fst (fst (line (point_at land c) p q))) l) w0)).
    { induction l as [|c l IH]; intros w0 Hl; cbn [fold_out map fold_left]; [reflexivity|]. rewrite point_get by (apply Hl; now left). cbn [bind]. destruct (line (point_at land c) p q) as [[dc xc] rc] eqn:El. cbn [bind fst].
      rewrite IH by (intros y Hy; apply Hl; now right). reflexivity. }
    pose proof Np as (Hi & _). pose proof Nq as (Hj & _).
    rewrite F by (intros c Hc; apply in_seq in Hc; lia). cbn [bind]. fold (between_points i j). change (fmax d d') with (larger d d'). fold (widest line land p q i j d d').
    destruct (st_tables m f St) as (_ & _ & T3 & _). destruct (nth_error (edges_num_faces f) e) as [y|] eqn:Ey; [|apply nth_error_None in Ey; lia].
    assert (Eq : (if outer then let! b0 := at_boundary f e in Ok (if b0 : bool then widest line land p q i j d d' else fmul (double_of 1000000 0) (widest line land p q i j d d')) else Ok (widest line land p q i j d d')) =
      Ok (if outer && negb match nth_error (edges_num_faces f) e with Some 1 => true | _ => false end then fmul (double_of 1000000 0) (widest line land p q i j d d') else widest line land p q i j d d')).
    { destruct outer; [|reflexivity]. unfold at_boundary, vget. rewrite Ey. cbn [bind andb]. destruct y as [|[|y]]; reflexivity. }
    rewrite Eq. cbn [bind]. eexists. split; [reflexivity|]. intros w' Hw'. split.
    - intros ->. exists p, q, i, j, d, d', x, x', r, r'. repeat (split; [assumption|]). split; [reflexivity|exact Hw'].
    - intros (p1 & q1 & i1 & j1 & d1 & d1' & x1 & x1' & r1 & r1' & P1' & P2' & N1' & N2' & Ew' & _).
      assert (p1 = p) by congruence. assert (q1 = q) by congruence. subst p1 q1. destruct (nearest_unique line land _ _ _ _ _ _ _ _ _ _ _ Np N1') as (<- & <- & _). destruct (nearest_unique line land _ _ _ _ _ _ _ _ _ _ _ Nq N2') as (<- & <- & _). congruence.
  Qed.
  Lemma path_good n l : path n l -> good l.
  Proof. intros H. induction H; [apply good_zero|]. apply fadd_good; [assumption|]. eapply cost_good; eassumption. Qed.

  Definition dst (s : paths) (x : nat) : double := nth x (q_dist s) dbl_max.
  Definition via (s : paths) (x : nat) : option nat := nth x (q_edges s) None.
  Record held (vs : list nat) (done : nat -> nat -> Prop) (s : paths) : Prop := {
    j_len : length (q_edges s) = N /\ length (q_dist s) = N /\ length (q_seen s) = N;
    j_seen : forall x, x < N -> nth_error (q_seen s) x = Some true /\ In x vs \/ nth_error (q_seen s) x = Some false /\ ~ In x vs;
    j_in : NoDup vs /\ forall x, In x vs -> x < N;
    j_good : forall x, good (dst s x) /\ SFltb dbl_max (dst s x) = false;
    j_start : In start vs /\ via s start = None /\ dst s start = double_of 0 0;
    j_tree : forall x, x <> start -> match via s x with
      | None => dst s x = dbl_max
      | Some e => exists o w, In o vs /\ In (Some e) (row_of m o) /\ joins (edge_at m e) o x /\ cost o e x w /\ dst s x = fadd (dst s o) w /\ forall l1 l2, vs = l1 ++ x :: l2 -> In o l2
      end;
    j_allowed : forall x, In x vs -> (x = start \/ masked x \/ x = 0) /\ (x <> start -> via s x <> None);
    j_best : forall x l, In x vs -> x = start \/ masked x -> path x l -> SFltb l (dst s x) = false;
    j_exit : forall x e o w, In x vs -> done x e -> In (Some e) (row_of m x) -> joins (edge_at m e) x o -> cost x e o w -> ~ In o vs -> SFltb (fadd (dst s x) w) (dst s o) = false }.

  (** *** Looking at the edges of a node *)
  Lemma row_edge n oe : n < N -> In oe (row_of m n) -> exists e o p q, oe = Some e /\ e < E /\ joins (edge_at m e) n o /\ o < N /\ get_edge m (Some e) = Ok (edge_at m e) /\
    (exists u v, edge_at m e = (Some u, Some v)) /\ nth_error (m_nodes m) n = Some p /\ nth_error (m_nodes m) o = Some q /\ In (Some e) (row_of m o).
  Proof.
    intros Hn Hoe. destruct (st_row m f St n Hn) as (_ & _ & H). destruct (H oe Hoe) as (e & o & -> & He & J & Hr).
    assert (Ge : nth_error (m_edges m) e = Some (edge_at m e)) by (apply nth_error_nth'; exact He).
    assert (Ho : o < N). { apply (co_ends m (st_mesh m f St) (edge_at m e) o); [eapply nth_error_In; exact Ge|]. destruct J as [-> | ->]; [right|left]; reflexivity. }
    exists e, o, (nth n (m_nodes m) missing_point), (nth o (m_nodes m) missing_point). repeat split; auto.
    - unfold get_edge. rewrite Ge. reflexivity.
    - destruct J as [-> | ->]; eauto.
    - now apply nth_error_nth'.
    - now apply nth_error_nth'.
  Qed.
  Lemma joins_one ed n o o' : joins ed n o -> joins ed n o' -> o' = o.
  Proof. intros J J'. apply ContactsProofs.joins_other in J, J'. congruence. Qed.
  Lemma relax_ok n vs d0 oe rest s p i d x r : row_of m n = d0 ++ oe :: rest -> n < N -> In n vs -> nth_error (m_nodes m) n = Some p -> near p i d x r ->
    held vs (fun y e => y = n -> In (Some e) d0) s ->
    fails (~ off) (held vs (fun y e => y = n -> In (Some e) (d0 ++ [oe]))) (relax m (weight dist line land (a, b) outer f p d i) n s oe).
  Proof.
    intros Er Hn Hv Hp Np H. destruct (row_edge n oe Hn) as (e & o & p' & q & -> & He & J & Ho & Ge & (u & v & Euv) & Gp & Gq & Ro); [rewrite Er; apply in_elt|]. assert (p' = p) by congruence. subst p'.
    unfold relax. rewrite Ge. cbn [bind row_index]. rewrite Euv. rewrite <- Euv. rewrite (ContactsProofs.joins_other _ _ _ J). cbn [bind row_index].
    destruct H as [H1 H2 H3 H4 H5 H6 H7 H8 H9]. destruct H1 as (L1 & L2 & L3).
    destruct (H2 o Ho) as [(Sn & Io)|(Sn & Io)]; unfold vget at 1; rewrite Sn; cbn [bind].
    { cbn [fails]. constructor; auto. intros y e' o' w Hy Hd Hr Hj Hc Hno. destruct (Nat.eq_dec y n) as [->|]; [|eapply H9; eauto; congruence].
      specialize (Hd eq_refl). apply in_app_or in Hd as [Hd|[Hd|[]]]; [eapply H9; eauto|]. injection Hd as ->. destruct Hno. rewrite (joins_one _ _ _ _ J Hj). exact Io. }
    unfold node_at. rewrite Gq. cbn [bind]. destruct (weight_ok n o e p q i d x r He Hp Gq Np) as [(No & ->)|(w & -> & Hw)]; cbn [bind fails].
    { intros Off. destruct (Off o q Gq) as (i' & d' & Hi' & C); [intros Z; rewrite Z in Ro; destruct Ro|]. exact (No i' d' Hi' C). }
    assert (Gn : nth_error (q_dist s) n = Some (dst s n)) by (apply nth_error_nth'; lia). assert (Go : nth_error (q_dist s) o = Some (dst s o)) by (apply nth_error_nth'; lia).
    rewrite (proj2 (vget_ok _ _ _) Gn), (proj2 (vget_ok _ _ _) Go). cbn [bind].
    destruct (SFltb (fadd (dst s n) w) (dst s o)) eqn:Lt.
    - assert (Wn : w <> S754_nan) by (intros ->; destruct (dst s n); discriminate). assert (Cw : cost n e o w) by (now apply Hw). pose proof (cost_good n e o w Cw) as Gw.
      assert (Gs : good (fadd (dst s n) w)) by (apply fadd_good; [apply H4|exact Gw]).
      rewrite vset_lt by lia. cbn [bind]. rewrite vset_lt by lia. cbn [bind].
      set (s' := Paths (set_nth o (Some e) (q_edges s)) (set_nth o (fadd (dst s n) w) (q_dist s)) (q_seen s)).
      assert (D' : forall y, dst s' y = if y =? o then fadd (dst s n) w else dst s y) by (intros y; unfold dst, s'; cbn [q_dist]; apply nth_set; lia).
      assert (V' : forall y, via s' y = if y =? o then Some e else via s y) by (intros y; unfold via, s'; cbn [q_edges]; apply nth_set; lia).
      assert (Dv : forall y, In y vs -> dst s' y = dst s y) by (intros y Hy; rewrite D'; destruct (Nat.eqb_spec y o); [congruence|reflexivity]).
      constructor; auto.
      + unfold s'. cbn [q_edges q_dist q_seen]. rewrite !set_nth_length. auto.
      + intros y. rewrite D'. destruct (y =? o); [|apply H4]. split; [exact Gs|]. apply good_lt_not; [exact Gs|apply good_max|].
        eapply good_lt_le; [exact Gs| |apply good_max|exact Lt|]; apply H4.
      + destruct H5 as (S1 & S2 & S3). split; [exact S1|]. assert (start <> o) by congruence. rewrite V', D'. destruct (Nat.eqb_spec start o); [congruence|]. auto.
      + intros y Hy. rewrite V', D'. destruct (Nat.eqb_spec y o) as [->|Hne].
        * exists n, w. split; [exact Hv|]. split; [rewrite Er; apply in_elt|]. split; [exact J|]. split; [exact Cw|]. split; [now rewrite Dv|]. intros l1 l2 El. destruct Io. rewrite El. apply in_elt.
        * specialize (H6 y Hy). destruct (via s y) as [e'|]; [|exact H6]. destruct H6 as (o' & w' & A1 & A2 & A3 & A4 & A5 & A6). exists o', w'. rewrite Dv by exact A1. auto 10.
      + intros y Hy. destruct (H7 y Hy) as (Q1 & Q2). split; [exact Q1|]. rewrite V'. destruct (y =? o); [discriminate|exact Q2].
      + intros y l Hy Hm Hp'. rewrite Dv by exact Hy. now apply H8.
      + intros y e' o' w' Hy Hd Hr Hj Hc Hno. rewrite Dv by exact Hy. rewrite D'. pose proof (cost_good _ _ _ _ Hc) as Gw'. pose proof (fadd_good _ _ (proj1 (H4 y)) Gw') as Gy.
        assert (Old : (y = n -> In (Some e') d0) -> SFltb (fadd (dst s y) w') (if o' =? o then fadd (dst s n) w else dst s o') = false).
        { intros Hd'. pose proof (H9 y e' o' w' Hy Hd' Hr Hj Hc Hno) as Q. destruct (Nat.eqb_spec o' o) as [->|]; [|exact Q].
          apply good_lt_not; auto. eapply good_lt_le; [exact Gs|apply H4|exact Gy|exact Lt|exact Q]. }
        destruct (Nat.eq_dec y n) as [->|Hyn]; [|apply Old; congruence]. specialize (Hd eq_refl). apply in_app_or in Hd as [Hd|[Hd|[]]]; [apply Old; auto|]. injection Hd as <-.
        pose proof (joins_one _ _ _ _ J Hj) as ->. rewrite Nat.eqb_refl. rewrite (cost_unique _ _ _ _ _ Hc Cw). apply SFltb_irrefl.
    - constructor; auto. intros y e' o' w' Hy Hd Hr Hj Hc Hno. destruct (Nat.eq_dec y n) as [->|]; [|eapply H9; eauto; congruence].
      specialize (Hd eq_refl). apply in_app_or in Hd as [Hd|[Hd|[]]]; [eapply H9; eauto|]. injection Hd as <-. pose proof (joins_one _ _ _ _ J Hj) as ->.
      assert (w' = w); [|congruence]. apply Hw; [|exact Hc]. destruct Hc as (? & ? & ? & ? & ? & ? & ? & ? & ? & ? & ? & ? & ? & ? & ? & Hc). exact Hc.
  Qed.

  (** *** The next node *)
  Lemma pick_ok vs done s : held vs done s -> exists n d, pick mask k s N = Ok (n, d) /\ n < N /\ (masked n \/ n = 0) /\
    (forall o, o < N -> masked o -> ~ In o vs -> SFltb (dst s o) (dst s n) = false) /\
    (In n vs -> forall o, o < N -> masked o -> ~ In o vs -> SFltb (dst s o) dbl_max = false).
  Proof.
    intros H. destruct H as [H1 H2 H3 H4 H5 H6 H7 H8 H9]. destruct H1 as (L1 & L2 & L3).
    destruct (fold_range (fun j (best : nat * double) => (best = (0, dbl_max) /\ forall o, o < j -> masked o -> ~ In o vs -> SFltb (dst s o) dbl_max = false) \/
      (fst best < N /\ masked (fst best) /\ ~ In (fst best) vs /\ snd best = dst s (fst best) /\ forall o, o < j -> masked o -> ~ In o vs -> SFltb (dst s o) (snd best) = false))
      (fun (best : nat * double) n =>
        let! v := vget mask n in
        let! seen := vget (q_seen s) n in
        let! d := vget (q_dist s) n in
        Ok (if eq_idx v (Some k) && negb seen && SFltb d (snd best) then (n, d) else best)) N (0, dbl_max)) as ((n & d) & Ef & P).
    - left. split; [reflexivity|]. intros; lia.
    - intros j best Hj P. destruct (nth_error mask j) as [v|] eqn:Ev; [|apply nth_error_None in Ev; lia]. rewrite (proj2 (vget_ok _ _ _) Ev). cbn [bind].
      assert (Gj : nth_error (q_dist s) j = Some (dst s j)) by (apply nth_error_nth'; lia).
      assert (Hm : eq_idx v (Some k) = true <-> masked j). { unfold masked. rewrite Ev. destruct v as [v|]; cbn; [rewrite Nat.eqb_eq|]; split; congruence. }
      assert (Keep : (masked j -> ~ In j vs -> SFltb (dst s j) (snd best) = false) -> (best = (0, dbl_max) /\ forall o, o < S j -> masked o -> ~ In o vs -> SFltb (dst s o) dbl_max = false) \/
        (fst best < N /\ masked (fst best) /\ ~ In (fst best) vs /\ snd best = dst s (fst best) /\ forall o, o < S j -> masked o -> ~ In o vs -> SFltb (dst s o) (snd best) = false)).
      { intros K. destruct P as [(-> & P)|(P1 & P2 & P3 & P4 & P5)]; [left|right].
        - split; [reflexivity|]. intros o Ho Mo Vo. destruct (Nat.eq_dec o j) as [->|]; [now apply K|apply P; auto; lia].
        - repeat split; auto. intros o Ho Mo Vo. destruct (Nat.eq_dec o j) as [->|]; [now apply K|apply P5; auto; lia]. }
      destruct (H2 j Hj) as [(Sn & Ij)|(Sn & Ij)]; rewrite (proj2 (vget_ok _ _ _) Sn), (proj2 (vget_ok _ _ _) Gj); cbn [bind negb]; rewrite ?andb_false_r, ?andb_true_r; cbn [andb].
      { eexists. split; [reflexivity|]. apply Keep. intros _ Q. contradiction. }
      destruct (eq_idx v (Some k)) eqn:Ek; cbn [andb]; [|eexists; split; [reflexivity|]; apply Keep; intros Q; apply Hm in Q; discriminate].
      destruct (SFltb (dst s j) (snd best)) eqn:Lt; [|eexists; split; [reflexivity|]; apply Keep; auto].
      eexists. split; [reflexivity|]. right. cbn [fst snd]. repeat split; auto; [now apply Hm|]. intros o Ho Mo Vo. destruct (Nat.eq_dec o j) as [->|]; [apply SFltb_irrefl|].
      assert (Gb : good (snd best)) by (destruct P as [(-> & _)|(_ & _ & _ & -> & _)]; [apply good_max|apply H4]).
      assert (Q : SFltb (dst s o) (snd best) = false) by (destruct P as [(-> & P)|(_ & _ & _ & _ & P)]; apply P; auto; lia).
      apply good_lt_not; [apply H4|apply H4|]. eapply good_lt_le; [apply H4|exact Gb|apply H4|exact Lt|exact Q].
    - exists n, d. split; [exact Ef|]. destruct P as [(P0 & P)|(P1 & P2 & P3 & P4 & P5)]; cbn [fst snd] in *.
      + injection P0 as -> ->. split; [lia|]. split; [now right|]. split; [|intros _; exact P]. intros o Ho Mo Vo. eapply good_le_trans; [apply H4|apply good_max|apply H4|apply H4|]. now apply P.
      + split; [exact P1|]. split; [now left|]. rewrite P4 in P5. split; [exact P5|]. intros Q. contradiction.
  Qed.

  (** A path to a node not visited leaves the visited nodes somewhere. *)
  Lemma leaves vs y l : In start vs -> path y l -> ~ In y vs ->
    exists x e o w l', In x vs /\ (x = start \/ masked x) /\ ~ In o vs /\ (o = y \/ masked o) /\ path x l' /\ In (Some e) (row_of m x) /\ joins (edge_at m e) x o /\ cost x e o w /\ SFltb l (fadd l' w) = false.
  Proof.
    intros Hst P. induction P as [|n l e o w P IH Hn Hr Hj Hc]; intros Hy; [contradiction|]. destruct (in_dec Nat.eq_dec n vs) as [Hi|Hi].
    - exists n, e, o, w, l. repeat split; auto. apply SFltb_irrefl.
    - destruct (IH Hi) as (x & e' & o' & w' & l' & A1 & A2 & A3 & A4 & A5 & A6 & A7 & A8 & A9). exists x, e', o', w', l'. repeat split; auto.
      + destruct A4 as [->|A4]; [|now right]. destruct Hn as [->|Hn]; [contradiction|now right].
      + pose proof (path_good _ _ P) as G1. pose proof (cost_good _ _ _ _ Hc) as G2. pose proof (fadd_good _ _ (path_good _ _ A5) (cost_good _ _ _ _ A8)) as G3.
        eapply good_le_trans; [exact G3|exact G1|apply fadd_good; assumption|exact A9|]. now apply fadd_not_less.
  Qed.
  Lemma at_least vs s y l : held vs (fun _ _ => True) s -> masked y -> ~ In y vs -> path y l -> exists o, o < N /\ masked o /\ ~ In o vs /\ SFltb l (dst s o) = false.
  Proof.
    intros H My Vy P. pose proof H as [H1 H2 H3 H4 H5 H6 H7 H8 H9]. destruct (leaves vs y l (proj1 H5) P Vy) as (x & e & o & w & l' & A1 & A2 & A3 & A4 & A5 & A6 & A7 & A8 & A9).
    assert (Mo : masked o) by (destruct A4 as [->|A4]; assumption). exists o. split; [|split; [exact Mo|split; [exact A3|]]].
    - unfold masked in Mo. rewrite <- Lm. apply nth_error_Some. congruence.
    - pose proof (cost_good _ _ _ _ A8) as Gw. pose proof (path_good _ _ A5) as Gl'. pose proof (path_good _ _ P) as Gl.
      pose proof (H8 x l' A1 A2 A5) as B1. pose proof (fadd_mono _ _ w Gl' (proj1 (H4 x)) Gw B1) as B2. pose proof (H9 x e o w A1 I A6 A7 A8 A3) as B3.
      pose proof (fadd_good _ _ Gl' Gw). pose proof (fadd_good _ _ (proj1 (H4 x)) Gw).
      eapply good_le_trans; [apply H4| |exact Gl| |]; [|exact B3|]; [assumption|]. eapply good_le_trans; [| |exact Gl|exact B2|exact A9]; assumption.
  Qed.

  (** *** Visiting a node *)
  Definition fresh : paths := Paths (repeat None N) (set_nth start (double_of 0 0) (repeat dbl_max N)) (repeat false N).
  Definition ready (n : nat) (vs : list nat) (s : paths) : Prop :=
    (vs = [] /\ n = start /\ s = fresh) \/
    (held vs (fun _ _ => True) s /\ ~ In n vs /\ n < N /\ (masked n \/ n = 0) /\ (exists e, via s n = Some e) /\ forall o, o < N -> masked o -> ~ In o vs -> SFltb (dst s o) (dst s n) = false).
  Lemma seen_set (l : list bool) n x : n < length l -> length l = N -> x < N -> nth_error (set_nth n true l) x = if x =? n then Some true else nth_error l x.
  Proof. intros Hn Hl Hx. destruct (Nat.eqb_spec x n) as [->|]; [now rewrite nth_error_set_nth_eq|now rewrite nth_error_set_nth_neq by auto]. Qed.
  Lemma path_start_best l : path start l -> SFltb l (double_of 0 0) = false.
  Proof. intros P. apply path_good in P. apply ltb_ext_false; [exact P|apply good_zero|]. apply (ext_bounds l P). Qed.
  Lemma enter n vs s : ready n vs s -> held (n :: vs) (fun y e => y = n -> In (Some e) []) (Paths (q_edges s) (q_dist s) (set_nth n true (q_seen s))) /\ n < N /\ n < length (q_seen s).
  Proof.
    intros [(-> & -> & ->)|(H & Hn & HnN & Hm & (en & Hen) & Hmin)].
    - assert (D0 : forall x, dst fresh x = if x =? start then double_of 0 0 else dbl_max).
      { intros x. unfold dst, fresh. cbn [q_dist]. rewrite nth_set by (rewrite repeat_length; exact Hs). destruct (x =? start); [reflexivity|]. destruct (Nat.lt_ge_cases x N); [apply nth_repeat|rewrite nth_overflow; [reflexivity|rewrite repeat_length; assumption]]. }
      assert (V0 : forall x, via fresh x = None) by (intros x; apply nth_repeat).
      split; [|split; [exact Hs|unfold fresh; cbn [q_seen]; now rewrite repeat_length]]. 
      change (held [start] (fun y e => y = start -> In (Some e) []) (Paths (q_edges fresh) (q_dist fresh) (set_nth start true (q_seen fresh)))).
      constructor.
      + unfold fresh. cbn [q_edges q_dist q_seen]. rewrite !set_nth_length, !repeat_length. auto.
      + intros x Hx. cbn [q_seen]. rewrite seen_set; try (unfold fresh; cbn [q_seen]; rewrite ?repeat_length; auto); auto. destruct (Nat.eqb_spec x start) as [->|Hne]; [left; split; [reflexivity|now left]|right].
        split; [unfold fresh; cbn [q_seen]; now apply nth_error_repeat|]. intros [Q|[]]. congruence.
      + split; [constructor; [intros []|constructor]|]. intros x [<-|[]]. exact Hs.
      + intros x. change (dst (Paths (q_edges fresh) (q_dist fresh) (set_nth start true (q_seen fresh))) x) with (dst fresh x). rewrite D0. destruct (x =? start); split; try apply good_zero; try apply good_max; reflexivity.
      + split; [now left|]. split; [apply V0|]. change (dst fresh start = double_of 0 0). rewrite D0. now rewrite Nat.eqb_refl.
      + intros x Hx. change (via (Paths (q_edges fresh) (q_dist fresh) (set_nth start true (q_seen fresh))) x) with (via fresh x). rewrite V0. change (dst fresh x = dbl_max). rewrite D0. destruct (Nat.eqb_spec x start); [contradiction|reflexivity].
      + intros x [<-|[]]. split; [now left|congruence].
      + intros x l [<-|[]] _ P. change (SFltb l (dst fresh start) = false). rewrite D0, Nat.eqb_refl. now apply path_start_best.
      + intros x e o w [<-|[]] Hd. destruct (Hd eq_refl).
    - pose proof H as [H1 H2 H3 H4 H5 H6 H7 H8 H9]. destruct H1 as (L1 & L2 & L3). split; [|split; [exact HnN|lia]]. constructor; auto.
      + cbn [q_edges q_dist q_seen]. rewrite set_nth_length. auto.
      + intros x Hx. cbn [q_seen]. rewrite seen_set by lia. destruct (Nat.eqb_spec x n) as [->|Hne]; [left; split; [reflexivity|now left]|].
        destruct (H2 x Hx) as [(A & B)|(A & B)]; [left|right]; split; auto; [now right|]. intros [Q|Q]; [congruence|contradiction].
      + destruct H3 as (A & B). split; [now constructor|]. intros x [<-|Hx]; auto.
      + destruct H5 as (A & B). split; [now right|exact B].
      + intros x Hx. specialize (H6 x Hx). change (via (Paths (q_edges s) (q_dist s) (set_nth n true (q_seen s))) x) with (via s x). destruct (via s x) as [e|] eqn:Ve; [|exact H6].
        destruct H6 as (o & w & A1 & A2 & A3 & A4 & A5 & A6). exists o, w. repeat split; auto; [now right|]. intros l1 l2 El. destruct l1 as [|z l1]; cbn in El; injection El as Ez El.
        * subst l2. exact A1.
        * apply (A6 l1 l2 El).
      + intros x [<-|Hx]; [|now apply H7]. split; [tauto|]. intros _. change (via s n <> None). congruence.
      + intros x l [<-|Hx] Mx P; [|now apply H8]. change (SFltb l (dst s n) = false). destruct Mx as [->|Mx]; [destruct Hn; apply H5|].
        destruct (at_least vs s n l H Mx Hn P) as (o & Ho & Mo & Vo & Q). eapply good_le_trans; [apply H4|apply H4|eapply path_good; exact P| |exact Q]. now apply Hmin.
      + intros x e o w [<-|Hx] Hd Hr Hj Hc Hno; [destruct (Hd eq_refl)|]. change (SFltb (fadd (dst s x) w) (dst s o) = false). eapply H9; eauto. intros Q. apply Hno. now right.
  Qed.
  Definition finished (s : paths) : Prop := exists vs, held vs (fun _ _ => True) s /\ exists d, is_equal d dbl_max = true /\ good d /\ forall o, o < N -> masked o -> ~ In o vs -> SFltb (dst s o) d = false.
  Lemma dijkstra_ok fuel : forall n vs s, ready n vs s -> S N = length vs + fuel -> row_of m start <> [] -> fails (~ off) finished (dijkstra dist line land (a, b) outer k m f mask fuel n s).
  Proof.
    induction fuel as [|fuel IH]; intros n vs s R Hf Hrow.
    - exfalso. destruct R as [(-> & _)|(H & _)]; [cbn in Hf; lia|]. destruct (j_in _ _ _ H) as (Nd & Hin).
      assert (length vs <= N); [|lia]. rewrite <- (seq_length N 0). apply NoDup_incl_length; [exact Nd|]. intros x Hx. apply in_seq. specialize (Hin x Hx). lia.
    - cbn [dijkstra]. destruct (enter n vs s R) as (He & HnN & Hln). rewrite vset_lt by exact Hln. cbn [bind]. set (s1 := Paths (q_edges s) (q_dist s) (set_nth n true (q_seen s))) in *.
      assert (Gp : nth_error (m_nodes m) n = Some (nth n (m_nodes m) missing_point)) by (now apply nth_error_nth'). unfold node_at at 1. rewrite Gp. cbn [bind].
      set (p := nth n (m_nodes m) missing_point) in *.
      destruct (nearest_cases p) as [(i & d & x & r & -> & Np)|(d & x & r & -> & No)]; cbn [bind].
      2: { cbn [fails]. split; [reflexivity|]. intros Off. destruct (Off n p Gp) as (i' & d' & Hi' & C); [|exact (No i' d' Hi' C)].
           destruct R as [(-> & -> & _)|(H & Hn & _ & _ & (en & Hen) & _)]; [exact Hrow|]. destruct (Nat.eq_dec n start) as [->|Hne]; [exact Hrow|]. pose proof (j_tree _ _ _ H n Hne) as T. rewrite Hen in T.
           destruct T as (o & w & A1 & A2 & A3 & _). destruct (j_in _ _ _ H) as (_ & Hin). destruct (st_row m f St o (Hin o A1)) as (_ & _ & Q). destruct (Q _ A2) as (e' & o' & [= <-] & _ & J' & Ro).
           rewrite <- (joins_one _ _ _ _ J' A3) in Ro || rewrite (joins_one _ _ _ _ A3 J') in Ro. intros Z. rewrite Z in Ro. destruct Ro. }
      assert (Gr : nth_error (m_nodesEdges m) n = Some (row_of m n)) by (apply nth_error_nth'; rewrite (co_rows m (st_mesh m f St)); exact HnN). rewrite (proj2 (vget_ok _ _ _) Gr). cbn [bind].
      apply (fails_bind _ (held (n :: vs) (fun y e => y = n -> In (Some e) (row_of m n)))).
      { apply (fails_fold _ (fun d0 => held (n :: vs) (fun y e => y = n -> In (Some e) d0))); [|exact He]. intros d0 oe t s2 Er H2. eapply relax_ok; eauto. now left. }
      intros s2 H2'. assert (H2 : held (n :: vs) (fun _ _ => True) s2).
      { destruct H2' as [A1 A2 A3 A4 A5 A6 A7 A8 A9]. constructor; auto. intros y e o w Hy _ Hr. apply A9; auto. intros ->. exact Hr. }
      destruct (pick_ok _ _ _ H2) as (n' & d' & -> & Hn' & Mn' & Min & Vis). cbn [bind fst]. destruct (Nat.leb_spec N n'); [lia|].
      assert (Gd : nth_error (q_dist s2) n' = Some (dst s2 n')) by (apply nth_error_nth'; rewrite (proj1 (proj2 (j_len _ _ _ H2))); exact Hn'). rewrite (proj2 (vget_ok _ _ _) Gd). cbn [bind].
      destruct (j_seen _ _ _ H2 n' Hn') as [(Sn & Iv)|(Sn & Iv)]; rewrite (proj2 (vget_ok _ _ _) Sn); cbn [bind].
      + rewrite orb_true_r. cbn [fails]. exists (n :: vs). split; [exact H2|]. exists dbl_max. split; [vm_compute; reflexivity|]. split; [apply good_max|]. now apply Vis.
      + rewrite orb_false_r. destruct (is_equal (dst s2 n') dbl_max) eqn:Eq.
        * cbn [fails]. exists (n :: vs). split; [exact H2|]. exists (dst s2 n'). split; [exact Eq|]. split; [apply (j_good _ _ _ H2)|exact Min].
        * apply (IH n' (n :: vs)); [|cbn [length]; lia|exact Hrow]. right. split; [exact H2|]. split; [exact Iv|]. split; [exact Hn'|]. split; [exact Mn'|]. split; [|exact Min].
          destruct (via s2 n') as [e|] eqn:Ve; [eauto|]. exfalso. assert (Hne : n' <> start) by (intros ->; apply Iv; apply (j_start _ _ _ H2)). pose proof (j_tree _ _ _ H2 n' Hne) as T. rewrite Ve in T. assert (T' : dst s2 n' = dbl_max) by exact T. rewrite T' in Eq. vm_compute in Eq. discriminate.
  Qed.

  (** *** The result *)
  Lemma tree_back vs done s : held vs done s -> forall t l1 x l2, vs = l1 ++ x :: l2 -> length l2 = t ->
    exists ns, back m (fun n => masked n \/ n = 0) cost start (q_edges s) (x :: ns) (dst s x) /\ incl ns l2.
  Proof.
    intros H. pose proof H as [H1 H2 H3 H4 H5 H6 H7 H8 H9]. induction t as [t IH] using lt_wf_ind. intros l1 x l2 El Ht.
    destruct (Nat.eq_dec x start) as [->|Hne].
    - exists []. split; [|intros y []]. destruct H5 as (_ & _ & ->). constructor.
    - pose proof (H6 x Hne) as T. destruct (via s x) as [e|] eqn:Ve.
      + destruct T as (o & w & A1 & A2 & A3 & A4 & A5 & A6). specialize (A6 l1 l2 El). apply in_split in A6 as (l3 & l4 & E2). 
        assert (El' : vs = (l1 ++ x :: l3) ++ o :: l4) by (rewrite El, E2, <- app_assoc; reflexivity).
        destruct (IH (length l4)) with (l1 := l1 ++ x :: l3) (x := o) (l2 := l4) as (ns & B & I); [rewrite <- Ht, E2, app_length; cbn; lia|exact El'|reflexivity|].
        assert (Hin : incl (o :: ns) l2) by (rewrite E2; intros y [<-|Hy]; [apply in_elt|]; apply in_or_app; right; right; now apply I).
        exists (o :: ns). split; [|exact Hin]. rewrite A5. eapply back_step; eauto.
        * transitivity (Some (via s x)); [apply nth_error_nth'|now rewrite Ve]. rewrite (proj1 H1). apply (proj2 H3). rewrite El. apply in_elt.
        * intros Q. apply Hin in Q. destruct H3 as (Nd & _). rewrite El in Nd. apply NoDup_remove_2 in Nd. apply Nd. apply in_or_app. now right.
        * destruct (H7 o A1) as ([Q|[Q|Q]] & _); auto.
      + exfalso. assert (Hx : In x vs) by (rewrite El; apply in_elt). exact (proj2 (H7 x Hx) Hne Ve).
  Qed.
  Lemma joins_sym ed n o : joins ed n o -> joins ed o n.
  Proof. intros [->| ->]; [now right|now left]. Qed.
  Lemma back_dst vs done s ns l : held vs done s -> back m (fun n => masked n \/ n = 0) cost start (q_edges s) ns l -> match ns with [] => False | n :: _ => l = dst s n end.
  Proof.
    intros H B. pose proof H as [H1 H2 H3 H4 H5 H6 H7 H8 H9]. induction B as [|o ns l n e w B IH He Hr Hj Hc Hn Ho]; [now destruct H5 as (_ & _ & ->)|].
    assert (Ve : via s n = Some e) by (unfold via; now apply nth_error_nth). assert (Hne : n <> start) by (intros ->; destruct H5 as (_ & Q & _); congruence).
    pose proof (H6 n Hne) as T. rewrite Ve in T. destruct T as (o' & w' & A1 & A2 & A3 & A4 & A5 & A6). pose proof (joins_one _ _ _ _ (joins_sym _ _ _ Hj) (joins_sym _ _ _ A3)) as ->.
    rewrite A5, IH. now rewrite (cost_unique _ _ _ _ _ Hc A4).
  Qed.
  Definition traced (q : paths) : Prop := shortest m masked cost start (q_edges q).
  Theorem shortest_path_ok : row_of m start <> [] -> fails (~ off) traced (shortest_path dist line land (a, b) outer k m f mask start).
  Proof.
    intros Hrow. unfold shortest_path. rewrite vset_lt by (rewrite repeat_length; exact Hs). cbn [bind]. match goal with |- fails _ _ (dijkstra _ _ _ _ _ _ _ _ _ _ _ ?x) => change x with fresh end.
    pose proof (dijkstra_ok (S N) start [] fresh (or_introl (conj eq_refl (conj eq_refl eq_refl))) eq_refl Hrow) as R.
    destruct (dijkstra dist line land (a, b) outer k m f mask (S N) start fresh) as [s| |]; cbn [fails] in *; [|exact R|exact R]. destruct R as (vs & H & d & Ed & Gd & Hd).
    pose proof H as [H1 H2 H3 H4 H5 H6 H7 H8 H9]. destruct H1 as (L1 & L2 & L3).
    assert (Gv : forall n, n < N -> nth_error (q_edges s) n = Some (via s n)) by (intros n Hn; apply nth_error_nth'; lia).
    assert (Best : forall n l', masked n -> path n l' -> SFltb l' (dst s n) = false \/ endless l').
    { intros n l' Mn P. destruct (in_dec Nat.eq_dec n vs) as [Hi|Hi]; [left; apply H8; auto|]. right. destruct (at_least vs s n l' H Mn Hi P) as (o & Ho & Mo & Vo & Q). exists d. split; [exact Ed|].
      apply (good_le_trans d (dst s o) l'); [exact Gd|apply H4|eapply path_good; exact P|now apply Hd|exact Q]. }
    split; [exact L1|]. split; [rewrite Gv by exact Hs; f_equal; apply H5|]. split; [|split].
    - intros n Hn Hne. rewrite Gv by exact Hn. destruct (via s n) as [e|] eqn:Ve; [right|now left]. destruct (in_dec Nat.eq_dec n vs) as [Hi|Hi].
      + apply in_split in Hi as (l1 & l2 & El). destruct (tree_back vs _ s H (length l2) l1 n l2 El eq_refl) as (ns & B & _). eauto.
      + pose proof (H6 n Hne) as T. rewrite Ve in T. destruct T as (o & w & A1 & A2 & A3 & A4 & A5 & A6). pose proof A1 as Hi'. apply in_split in Hi' as (l1 & l2 & El).
        destruct (tree_back vs _ s H (length l2) l1 o l2 El eq_refl) as (ns & B & Inc). exists (o :: ns), (fadd (dst s o) w). eapply back_step; eauto.
        * rewrite Gv by exact Hn. now rewrite Ve.
        * intros [<-|Q]; [contradiction|]. apply Hi. rewrite El. apply in_or_app. right. right. now apply Inc.
        * destruct (H7 o A1) as ([Q|Q] & _); auto.
    - intros n ns l Mn B l' P. rewrite (back_dst vs _ s _ _ H B). now apply Best.
    - intros n Mn Hne Hv l' P. destruct (Best n l' Mn P) as [Q|Q]; [|exact Q]. exists dbl_max. split; [vm_compute; reflexivity|]. 
      assert (Hn : n < N) by (unfold masked in Mn; rewrite <- Lm; apply nth_error_Some; congruence). rewrite Gv in Hv by exact Hn. injection Hv as Hv. pose proof (H6 n Hne) as T. rewrite Hv in T. now rewrite <- T.
  Qed.
  (** A path back that stays on the masked nodes is a path from the start. *)
  Lemma back_route edges ns l : (masked 0 \/ start = 0) -> back m (fun x => masked x \/ x = 0) cost start edges ns l -> match ns with [] => False | n :: _ => path n l end.
  Proof.
    intros H0 B. induction B as [|o ns l n e w B IH He Hr Hj Hc Hn Ho]; [constructor|]. eapply route_step; eauto. destruct Ho as [Ho|[Ho|Ho]]; auto. subst o. destruct H0; auto.
  Qed.
End Paths.

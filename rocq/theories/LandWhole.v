(** Land boundaries: a path along one piece and all of them. *)
From Verif Require Import Base BaseLemmas FloatModel FloatReal MeshModel MeshSpec FaceModel FaceSpec FlipSpec NodeTypeProofs SplitModel PolyModel ContactsProofs RefineProofs LandModel LandSpec LandNear LandFaces FloatSum LandPaths LandWalk.

Section Path.
  Variable dist dist2 : point -> point -> double.
  Variable line : point -> point -> point -> double * point * double.
  Variable inside : point -> bool.
  Variable face_of : list (option nat).
  Variable crossed : point -> point -> option nat.
  Variables (m : mesh) (f : faces).
  Hypothesis St : in_step m f.
  Local Notation N := (length (m_nodes m)).
  Local Notation E := (length (m_edges m)).
  Variable land : list point.
  Hypothesis dist_good : forall p q, In p (m_nodes m) -> In q (m_nodes m) -> good (dist p q).
  Hypothesis line_double : forall p q r, In p (m_nodes m ++ land) -> In q (m_nodes m ++ land) -> In r (m_nodes m ++ land) -> is_double (fst (fst (line p q r))).
  Hypothesis Lf : length face_of = length land.
  Hypothesis Vf : forall i, In (Some i) face_of -> i < num_faces f.
  Hypothesis Vc : forall p q i, crossed p q = Some i -> i < num_faces f.
  Variables (types : list Z) (ps : list (nat * nat)).
  Hypothesis Lt : length types = N.
  Hypothesis Hps : forall i x y, nth_error ps i = Some (x, y) -> x < y < length land.

  (** *** The ends *)
  Definition marked (mask : list (option nat)) (n : nat) : Prop := exists v, nth_error mask n = Some (Some v).
  Definition best_edge (mask : list (option nat)) (p : point) (j : nat) (best : double * option nat) : Prop :=
    (forall e u v d, e < j -> marked_edge line m (marked mask) p e u v d -> SFltb d (fst best) = false) /\
    match snd best with None => fst best = dbl_max | Some e => SFltb (fst best) dbl_max = true /\ exists u v, marked_edge line m (marked mask) p e u v (fst best) end.
  Lemma nearer_ok mask p j best u v : best_edge mask p j best -> nth_error (m_edges m) j = Some (Some u, Some v) -> marked mask u -> marked mask v -> u < N -> v < N ->
    exists best', nearer line m p best j u v = Ok best' /\ best_edge mask p (S j) best'.
  Proof.
    intros (B1 & B2) He Mu Mv Hu Hv. unfold nearer, node_at. rewrite (nth_error_nth' (m_nodes m) missing_point Hu), (nth_error_nth' (m_nodes m) missing_point Hv). cbn [bind].
    destruct (line p (nth u (m_nodes m) missing_point) (nth v (m_nodes m) missing_point)) as [[d x] r] eqn:El. eexists. split; [reflexivity|].
    assert (Me : marked_edge line m (marked mask) p j u v d) by (unfold marked_edge; rewrite El; auto).
    assert (Same : forall u' v' d', marked_edge line m (marked mask) p j u' v' d' -> d' = d) by (intros u' v' d' (A1 & _ & _ & A4); rewrite He in A1; injection A1 as <- <-; rewrite El in A4; exact A4).
    destruct (SFltb d (fst best)) eqn:Lt0; split.
    - cbn [fst]. intros e' u' v' d' He' M'. destruct (Nat.eq_dec e' j) as [->|]; [rewrite (Same _ _ _ M'); apply SFltb_irrefl|].
      assert (Q : SFltb d' (fst best) = false) by (apply (B1 e' u' v'); auto; lia). destruct (SFltb d' d) eqn:Q'; [|reflexivity]. rewrite (SFltb_trans _ _ _ Q' Lt0) in Q. discriminate.
    - cbn [fst snd]. split; [|eauto]. destruct (snd best); [|congruence]. destruct B2 as (B2 & _). exact (SFltb_trans _ _ _ Lt0 B2).
    - intros e' u' v' d' He' M'. destruct (Nat.eq_dec e' j) as [->|]; [now rewrite (Same _ _ _ M')|]. apply (B1 e' u' v'); auto; lia.
    - exact B2.
  Qed.
  Lemma closest_edges_ok mask p q : length mask = N -> exists x y, closest_edges line m mask p q = Ok (x, y) /\ best_edge mask p E x /\ best_edge mask q E y.
  Proof.
    intros Lm. unfold closest_edges.
    destruct (fold_range (fun j (best : (double * option nat) * (double * option nat)) => best_edge mask p j (fst best) /\ best_edge mask q j (snd best))
      (fun (best : (double * option nat) * (double * option nat)) e =>
        let! ed := get_edge m (Some e) in
        match ed with
        | (Some a, Some b) =>
            let! va := vget mask a in
            match va with
            | None => Ok best
            | Some _ =>
                let! vb := vget mask b in
                match vb with
                | None => Ok best
                | Some _ => let! x := nearer line m p (fst best) e a b in let! y := nearer line m q (snd best) e a b in Ok (x, y)
                end
            end
        | _ => Ok best
        end) E ((dbl_max, None), (dbl_max, None))) as ((x & y) & Ef & P).
    - split; split; cbn; try reflexivity; intros; lia.
    - intros j (x & y) Hj (Bx & By). cbn [fst snd] in *. unfold get_edge. destruct (nth_error (m_edges m) j) as [[u v]|] eqn:Ee; [|apply nth_error_None in Ee; lia]. cbn [bind].
      assert (Skip : ~ (exists u' v', u = Some u' /\ v = Some v' /\ marked mask u' /\ marked mask v') -> best_edge mask p (S j) x /\ best_edge mask q (S j) y).
      { intros No. split; [destruct Bx as (B1 & B2)|destruct By as (B1 & B2)]; split; try exact B2; intros e' u' v' d' He' M'; (destruct (Nat.eq_dec e' j) as [->|]; [|apply (B1 e' u' v'); auto; lia]);
          destruct M' as (A1 & A2 & A3 & _); rewrite Ee in A1; injection A1 as -> ->; destruct No; eauto 6. }
      assert (Ends : forall n, u = Some n \/ v = Some n -> n < N) by (intros n Hn; apply (co_ends m (st_mesh m f St) (u, v) n); [eapply nth_error_In; exact Ee|exact Hn]).
      destruct u as [u|]; [|eexists; split; [reflexivity|]; apply Skip; intros (? & ? & ? & _); discriminate]. destruct v as [v|]; [|eexists; split; [reflexivity|]; apply Skip; intros (? & ? & ? & ? & _); discriminate].
      pose proof (Ends u (or_introl eq_refl)) as Hu. pose proof (Ends v (or_intror eq_refl)) as Hv.
      destruct (nth_error mask u) as [[mu|]|] eqn:Eu; [| |apply nth_error_None in Eu; lia]; rewrite (proj2 (vget_ok _ _ _) Eu); cbn [bind].
      2: { eexists. split; [reflexivity|]. apply Skip. intros (? & ? & [= <-] & _ & (w & Q) & _). congruence. }
      destruct (nth_error mask v) as [[mv|]|] eqn:Ev; [| |apply nth_error_None in Ev; lia]; rewrite (proj2 (vget_ok _ _ _) Ev); cbn [bind].
      2: { eexists. split; [reflexivity|]. apply Skip. intros (? & ? & _ & [= <-] & _ & (w & Q)). congruence. }
      assert (Mu : marked mask u) by (now exists mu). assert (Mv : marked mask v) by (now exists mv).
      destruct (nearer_ok mask p j x u v Bx Ee Mu Mv Hu Hv) as (x' & -> & Bx'). cbn [bind]. destruct (nearer_ok mask q j y u v By Ee Mu Mv Hu Hv) as (y' & -> & By'). cbn [bind]. eauto.
    - exists x, y. split; [exact Ef|]. exact P.
  Qed.
  Lemma best_end mask p x e : (forall n, marked mask n -> row_of m n <> []) -> best_edge mask p E x -> snd x = Some e -> exists n, nearer_end dist2 m e p = Ok (Some n) /\ closest_end dist2 line m (marked mask) p n /\ marked mask n /\ n < N /\ row_of m n <> [].
  Proof.
    intros Rw (B1 & B2) Hx. rewrite Hx in B2. destruct B2 as (B2 & u & v & Me). pose proof Me as (Ee & Mu & Mv & Hd).
    assert (Hu : u < N) by (apply (co_ends m (st_mesh m f St) (Some u, Some v) u); [eapply nth_error_In; exact Ee|now left]).
    assert (Hv : v < N) by (apply (co_ends m (st_mesh m f St) (Some u, Some v) v); [eapply nth_error_In; exact Ee|now right]).
    unfold nearer_end, get_edge. rewrite Ee. cbn [bind fst snd node_at]. rewrite (nth_error_nth' (m_nodes m) missing_point Hu), (nth_error_nth' (m_nodes m) missing_point Hv). cbn [bind].
    assert (Min : forall e' u' v' d', marked_edge line m (marked mask) p e' u' v' d' -> SFltb d' (fst x) = false).
    { intros e' u' v' d' M'. apply (B1 e' u' v'); [|exact M']. apply nth_error_Some. destruct M' as (-> & _). discriminate. }
    exists (if SFleb (dist2 (nth u (m_nodes m) missing_point) p) (dist2 (nth v (m_nodes m) missing_point) p) then u else v). split; [now destruct (SFleb _ _)|]. split; [exists e, u, v, (fst x); auto|]. destruct (SFleb _ _); auto.
  Qed.
  Lemma face_row i ns n : nth_error (faces_nodes f) i = Some ns -> In n ns -> n < N /\ row_of m n <> [].
  Proof.
    intros En Hin. destruct (st_tables m f St) as (T1 & _). assert (Hi : i < num_faces f) by (apply nth_error_Some; congruence). destruct (nth_error (faces_edges f) i) as [es|] eqn:Ee; [|apply nth_error_None in Ee; lia].
    destruct (st_face m f St i ns es En Ee) as (L3 & _ & (Lc & Cy) & V). split.
    { specialize (V n Hin). unfold valid_at in V. destruct (nth_error (m_nodes m) n) eqn:Q; [|discriminate]. apply nth_error_Some. congruence. }
    apply In_nth_error in Hin as (j & Hj). assert (Lj : j < length ns) by (apply nth_error_Some; congruence).
    assert (X : exists y, cyclic ns (S j) = Some y). { unfold cyclic. destruct (nth_error ns (S j mod length ns)) as [x|] eqn:Q; [eauto|]. apply nth_error_None in Q. pose proof (Nat.mod_upper_bound (S j) (length ns)). lia. }
    destruct X as (y & Hy). destruct (nth_error es j) as [e|] eqn:Eej; [|apply nth_error_None in Eej; lia].
    destruct (Cy j n y e) as (_ & J); [unfold cyclic; now rewrite Nat.mod_small by exact Lj|exact Hy|unfold cyclic; rewrite Lc, Nat.mod_small by exact Lj; exact Eej|].
    intros Z. pose proof (st_listed m f St i e n) as Q. rewrite Z in Q. apply Q; [exists es; split; [exact Ee|eapply nth_error_In; exact Eej]|]. destruct J as [->| ->]; [left|right]; reflexivity.
  Qed.

  (** *** One path *)
  Definition closeb (a b : nat) (outer : bool) (e : nat) : bool := match close_piece dist dist2 line land (a, b) (factor_of outer) m e with Ok (Some _) => true | _ => false end.
  Lemma closeb_ok a b outer e i : a < b < length land -> lists f i e -> closeb a b outer e = true <-> edge_close dist dist2 line land a b (factor_of outer) m e.
  Proof.
    intros Hab Li. destruct (used_ends m f St e i Li) as (u & v & He & _ & Hu & Hv). destruct (lists_in m f St i e Li) as (_ & HeE).
    assert (He' : nth_error (m_edges m) e = Some (Some u, Some v)) by (rewrite (nth_error_nth' (m_edges m) missing_edge) by exact HeE; f_equal; exact He).
    pose proof (nth_error_nth' (m_nodes m) missing_point Hu) as Ep. pose proof (nth_error_nth' (m_nodes m) missing_point Hv) as Eq.
    destruct (close_piece_ok dist dist2 line land a b (factor_of outer) m e u v _ _ Hab He' Ep Eq) as (o & Eo & Co). unfold closeb. rewrite Eo. destruct o as [n|]; cbn [close_segment] in Co.
    - split; [intros _|reflexivity]. destruct Co as (C1 & C2 & _). eexists u, v, _, _, n. eauto.
    - split; [discriminate|]. intros (u' & v' & p' & q' & n & H1 & H2 & H3 & H4 & H5). exfalso. apply (Co n H4). congruence.
  Qed.
  Lemma back_trail allowed cost start edges ns l : nth_error edges start = Some None -> start < N -> length edges = N -> back m allowed cost start edges ns l -> (forall o e, In (Some e) (row_of m o) -> o < N -> e < E) ->
    trail m edges start ns /\ NoDup ns.
  Proof.
    intros H0 Hs Le B Re. induction B as [|o ns l n e w B IH He Hr Hj Hc Hn Ho].
    - split; [apply trail_end; auto|]. constructor; [intros []|constructor].
    - destruct IH as (IH1 & IH2). assert (HoN : o < N) by (eapply trail_in; [exact IH1|now left]). split; [|now constructor]. eapply trail_next; eauto.
      + rewrite <- Le. apply nth_error_Some. congruence.
      + congruence.
      + apply ContactsProofs.joins_other. destruct Hj as [->| ->]; [right|left]; reflexivity.
  Qed.
  Lemma trail_length edges start ns : trail m edges start ns -> NoDup ns -> length ns <= N.
  Proof. intros T Nd. rewrite <- (seq_length N 0). apply NoDup_incl_length; [exact Nd|]. intros x Hx. apply in_seq. pose proof (trail_in m edges start ns x T Hx). lia. Qed.

  Definition one_path (outer : bool) (k a b : nat) (s : state) (i o : nat) (s' : state) : Prop :=
    exists c mask start stop edges ns takes,
      (forall e i, lists f i e -> c e = true <-> edge_close dist dist2 line land a b (factor_of outer) m e) /\
      length mask = N /\ (forall n, n < N -> (nth_error mask n = Some (Some k) /\ masked_for inside face_of crossed m f land a b c n) \/ (nth_error mask n = Some None /\ ~ masked_for inside face_of crossed m f land a b c n)) /\
      n_mask s' = mask /\
      closest_end dist2 line m (masked mask k) (point_at land b) start /\ closest_end dist2 line m (masked mask k) (point_at land a) stop /\ start <> stop /\ masked mask k start /\ masked mask k stop /\
      shortest m (masked mask k) (step_cost dist line land a b outer m f) start edges /\
      path_taken m (fun x => masked mask k x \/ x = 0) (step_cost dist line land a b outer m f) start edges stop ns /\
      (forall n, In n ns -> takes n = true <-> fits line land types outer ps (a, b) m (n_piece s) n) /\
      map (fun x => nth x (n_piece s') None) ns = settle k takes (fun x => nth x (n_piece s) None) false ns /\
      (forall x, ~ In x ns -> nth x (n_piece s') None = nth x (n_piece s) None) /\
      i = length (filter takes ns) /\ o = length (filter (fun x => negb (takes x)) ns).
  Theorem make_path_ok outer k a b s : nth_error ps k = Some (a, b) -> kept line land ps m s ->
    match make_path dist dist2 line inside face_of crossed types m f outer k s with
    | Ok (i, o, s') => kept line land ps m s' /\ length (n_mask s') = N /\ one_path outer k a b s i o s'
    | Throw e => e = StdErr \/ e = AlgorithmErr
    | UB => ~ off_land line land a b m
    end.
  Proof.
    intros Hk K. pose proof (Hps k a b Hk) as Hab. unfold make_path. rewrite (k_pieces _ _ _ _ _ K). rewrite (proj2 (vget_ok _ _ _) Hk). cbn [bind fst snd]. rewrite (k_land _ _ _ _ _ K).
    destruct (Nat.leb_spec (length land) a); [lia|]. destruct (Nat.leb_spec b a); [lia|]. cbn [orb].
    destruct (node_mask_ok dist dist2 line inside face_of crossed m f St land Lf Vf Vc a b (factor_of outer) k (closeb a b outer) Hab) as (mask & -> & Lm & Hmask).
    { intros e i Li. apply closeb_ok with (i := i); assumption. }
    cbn [bind n_land n_pieces n_piece n_least n_mask]. unfold start_end. cbn [fst snd]. rewrite !point_get by lia. cbn [bind].
    destruct (closest_edges_ok mask (point_at land b) (point_at land a) Lm) as (x & y & -> & Bx & By). cbn [bind].
    assert (Mk : forall n, marked mask n <-> masked mask k n).
    { intros n. split; [|intros H1; exists k; exact H1]. intros (v & Hv). assert (Hn : n < N) by (rewrite <- Lm; apply nth_error_Some; congruence). destruct (Hmask n Hn) as [(Q & _)|(Q & _)]; [exact Q|congruence]. }
    assert (Rw : forall n, marked mask n -> row_of m n <> []).
    { intros n Hn. pose proof (proj1 (Mk n) Hn) as Q. assert (HnN : n < N) by (rewrite <- Lm; unfold masked in Q; apply nth_error_Some; congruence). destruct (Hmask n HnN) as [(_ & _ & i & ns & _ & A & B)|(Q' & _)]; [|unfold masked in Q; congruence]. apply (face_row i ns n A B). }
    assert (Cl : forall p n, closest_end dist2 line m (marked mask) p n -> closest_end dist2 line m (masked mask k) p n).
    { intros p n (e & u & v & d & (A1 & A2 & A3 & A4) & B & C & D). exists e, u, v, d. split; [unfold marked_edge; rewrite <- !Mk; auto|]. split; [exact B|]. split; [|exact D]. intros e' u' v' d' (A1' & A2' & A3' & A4').
      apply (C e' u' v' d'). unfold marked_edge. rewrite !Mk. auto. }
    destruct (snd x) as [e|] eqn:Ex; [|now left]. destruct (snd y) as [e'|] eqn:Ey; [|now left].
    destruct (best_end mask _ x e Rw Bx Ex) as (start & -> & C1 & M1 & Hs & R1). cbn [bind]. destruct (best_end mask _ y e' Rw By Ey) as (stop & -> & C2 & M2 & Ht & R2). cbn [bind].
    destruct (Nat.eqb_spec start stop) as [|Hne]; [now right|].
    pose proof (shortest_path_ok dist line land a b outer m f dist_good line_double Hab St mask Lm k start Hs R1) as Sp.
    destruct (shortest_path dist line land (a, b) outer k m f mask start) as [q|err|]; cbn [fails bind] in *; [|right; apply Sp|exact Sp]. destruct Sp as (S1 & S2 & S3 & S4 & S5).
    assert (Gv : nth_error (n_piece s) stop = Some (nth stop (n_piece s) None)) by (apply nth_error_nth'; rewrite (k_piece _ _ _ _ _ K); exact Ht). rewrite (proj2 (vget_ok _ _ _) Gv). cbn [bind].
    set (s1 := State land ps (n_piece s) (n_least s) mask). assert (K1 : kept line land ps m s1) by (destruct K; constructor; auto).
    assert (Pt : exists ns, path_taken m (fun x => masked mask k x \/ x = 0) (step_cost dist line land a b outer m f) start (q_edges q) stop (stop :: ns) /\ trail m (q_edges q) start (stop :: ns) /\ NoDup (stop :: ns)).
    { destruct (S3 stop Ht ltac:(congruence)) as [S3'|(ns & l & B)].
      - exists []. split; [right; auto|]. split; [apply trail_end; auto|]. constructor; [intros []|constructor].
      - exists ns. split; [left; eauto|]. eapply back_trail; eauto. intros o oe Hr Ho. destruct (st_row m f St o Ho) as (_ & _ & Q). destruct (Q _ Hr) as (e0 & o0 & [= <-] & He0 & _). exact He0. }
    destruct Pt as (ns & Pt & Tr & Nd).
    destruct (follow_ok line land types outer ps k a b m Lt Hps Hk (q_edges q) start (fun x => nth x (n_piece s) None) (S N) ns stop (Walk None (nth stop (n_piece s) None) 0 0 0) s1 Tr Nd) as (s' & Ef & K' & M' & Mp & Oth & _).
    - pose proof (trail_length _ _ _ Tr Nd). lia.
    - exact K1.
    - reflexivity.
    - intros Q. destruct Q. reflexivity.
    - unfold finish in Ef. cbn [w_in w_out w_run Nat.eqb negb Nat.add] in *.
      match goal with |- match ?u with _ => _ end => assert (Eu : u = Ok (count_if (fun x => tk line land types outer ps a b m (nth x (n_piece s) None) x) (stop :: ns), count_if (fun x => negb (tk line land types outer ps a b m (nth x (n_piece s) None) x)) (stop :: ns), s')) end.
      { rewrite <- Ef. destruct (follow line types outer k (a, b) m (q_edges q) start (S N) stop _ s1) as [(w & s2)| |]; reflexivity. }
      rewrite Eu. split; [exact K'|]. split; [rewrite M'; exact Lm|].
      exists (closeb a b outer), mask, start, stop, (q_edges q), (stop :: ns), (fun x => tk line land types outer ps a b m (nth x (n_piece s) None) x).
      split; [intros e0 i Li; apply closeb_ok with (i := i); assumption|]. split; [exact Lm|]. split; [exact Hmask|]. split; [exact M'|]. split; [now apply Cl|]. split; [now apply Cl|]. split; [exact Hne|]. split; [now apply Mk|]. split; [now apply Mk|].
      split; [unfold shortest; auto|]. split; [exact Pt|]. split; [|split; [exact Mp|split; [|split; reflexivity]]].
      + intros n Hn. pose proof (trail_in m _ _ _ n Tr Hn) as HnN. apply (tk_fits line land types outer ps k a b m Lt Hps Hk (n_piece s) n HnN). intros i Hi. apply (k_has _ _ _ _ _ K n i HnN Hi).
      + intros z Hz. apply Oth; [exact Hz|discriminate].
  Qed.
End Path.

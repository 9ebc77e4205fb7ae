(** Land boundaries: the nodes of a path. *)
From Verif Require Import Base BaseLemmas FloatModel FloatReal MeshModel MeshSpec FaceModel FaceSpec FlipSpec NodeTypeProofs SplitModel PolyModel ContactsProofs RefineProofs LandModel LandSpec LandNear LandFaces FloatSum LandPaths.

Section Walk.
  Variable line : point -> point -> point -> double * point * double.
  Variable land : list point.
  Variables (types : list Z) (outer : bool) (ps : list (nat * nat)) (k a b : nat) (m : mesh).
  Local Notation N := (length (m_nodes m)).
  Local Notation E := (length (m_edges m)).
  Hypothesis Lt : length types = N.
  Hypothesis Hps : forall i x y, nth_error ps i = Some (x, y) -> x < y < length land.
  Hypothesis Hk : nth_error ps k = Some (a, b).
  Definition gapf (r : option (nat * nat)) (p : point) : double := match nearest line land r p with Ok x => fst (fst (fst x)) | _ => dbl_max end.
  Definition pos (n : nat) : point := nth n (m_nodes m) missing_point.
  Definition all (n : nat) : double := gapf None (pos n).
  Lemma land_some : 0 < length land. Proof. specialize (Hps k a b Hk). lia. Qed.
  Lemma gapf_ok r p : (match r with None => True | Some r => exists i, nth_error ps i = Some r end) -> exists x, nearest line land r p = Ok x /\ fst (fst (fst x)) = gapf r p /\
    gap line land (fst (ends_of land r)) (snd (ends_of land r)) p (gapf r p).
  Proof.
    intros Hr. destruct (nearest_ok line land r p) as (x & Ex & B). { destruct r as [(x, y)|]; cbn; [destruct Hr as (i & Hr); specialize (Hps i x y Hr); lia|pose proof land_some; lia]. }
    exists x. unfold gapf. rewrite Ex. split; [reflexivity|]. split; [reflexivity|]. destruct x as [[[d q] [i|]] r0]; cbn [best_of fst] in *; [left; eauto|right]. destruct B as (B1 & _ & _ & B). auto.
  Qed.
  Lemma gap_unique x y p d d' : gap line land x y p d -> gap line land x y p d' -> d = d'.
  Proof.
    intros [(i & q & r & H)|(H & ->)] [(i' & q' & r' & H')|(H' & ->)]; [|destruct H as (Hi & _ & Hc & _); now destruct (H' i d Hi Hc)|destruct H' as (Hi & _ & Hc & _); now destruct (H i' d' Hi Hc)|reflexivity].
    apply (nearest_unique line land _ _ _ _ _ _ _ _ _ _ _ H H').
  Qed.
  Definition tk (v : option nat) (n : nat) : bool :=
    let d := gapf (Some (a, b)) (pos n) in
    match v with
    | Some old => SFleb d (gapf (nth_error ps old) (pos n)) && SFltb d (fmul (double_of 2 0) (all n))
    | None => SFltb d (fmul (double_of 2 0) (all n)) && (negb outer || match nth_error types n with Some t => (t =? 2)%Z || (t =? 3)%Z | None => false end)
    end.
  Record kept (s : state) : Prop := {
    k_land : n_land s = land;
    k_pieces : n_pieces s = ps;
    k_piece : length (n_piece s) = N;
    k_least : length (n_least s) = N;
    k_known : forall n, n < N -> nth n (n_least s) dbl_max = missing_double \/ nth n (n_least s) dbl_max = all n;
    k_has : forall n i, n < N -> nth n (n_piece s) None = Some i -> i < length ps /\ nth n (n_least s) dbl_max = all n }.
  Lemma tk_fits piece n : n < N -> (forall i, nth n piece None = Some i -> i < length ps) -> tk (nth n piece None) n = true <-> fits line land types outer ps (a, b) m piece n.
  Proof.
    intros Hn Hi. assert (Gn : nth_error (m_nodes m) n = Some (pos n)) by (now apply nth_error_nth').
    destruct (gapf_ok (Some (a, b)) (pos n)) as (_ & _ & _ & G1); [eauto|]. destruct (gapf_ok None (pos n)) as (_ & _ & _ & G2); [exact I|]. cbn [ends_of fst snd] in *. unfold fits, tk. destruct (nth n piece None) as [old|].
    - destruct (nth_error ps old) as [(a', b')|] eqn:Eo; [|apply nth_error_None in Eo; specialize (Hi old eq_refl); lia]. destruct (gapf_ok (Some (a', b')) (pos n)) as (_ & _ & _ & G3); [eauto|]. cbn [ends_of fst snd] in *. rewrite andb_true_iff. split.
      + intros (H1 & H2). exists (pos n), (gapf (Some (a, b)) (pos n)), (all n). repeat split; auto. exists (a', b'), (gapf (Some (a', b')) (pos n)). auto.
      + intros (p & d & l & Ep & D1 & D2 & H1 & r' & d' & Er & D3 & H2). assert (p = pos n) by congruence. subst p. injection Er as <-. cbn [fst snd] in *.
        rewrite (gap_unique _ _ _ _ _ D1 G1), (gap_unique _ _ _ _ _ D3 G3) in H2. rewrite (gap_unique _ _ _ _ _ D1 G1), (gap_unique _ _ _ _ _ D2 G2) in H1. auto.
    - rewrite andb_true_iff, orb_true_iff, negb_true_iff. split.
      + intros (H1 & H2). exists (pos n), (gapf (Some (a, b)) (pos n)), (all n). repeat split; auto. intros ->. destruct H2 as [H2|H2]; [discriminate|].
        destruct (nth_error types n) as [t|]; [|discriminate]. apply orb_true_iff in H2 as [H2|H2]; apply Z.eqb_eq in H2; subst t; auto.
      + intros (p & d & l & Ep & D1 & D2 & H1 & H2). assert (p = pos n) by congruence. subst p. rewrite (gap_unique _ _ _ _ _ D1 G1), (gap_unique _ _ _ _ _ D2 G2) in H1. split; [exact H1|].
        destruct outer; [right|now left]. destruct (H2 eq_refl) as [-> | ->]; reflexivity.
  Qed.
  Definition known (n : nat) (s : state) : state := State (n_land s) (n_pieces s) (n_piece s) (set_nth n (all n) (n_least s)) (n_mask s).
  Lemma joins_ok s n : kept s -> n < N -> joins_path line types outer (a, b) m s n = Ok (tk (nth n (n_piece s) None) n, known n s).
  Proof.
    intros [H1 H2 H3 H4 H5 H6] Hn. unfold joins_path. assert (Gv : nth_error (n_piece s) n = Some (nth n (n_piece s) None)) by (apply nth_error_nth'; lia). assert (Gl : nth_error (n_least s) n = Some (nth n (n_least s) dbl_max)) by (apply nth_error_nth'; lia).
    assert (Gn : nth_error (m_nodes m) n = Some (pos n)) by (now apply nth_error_nth'). rewrite (proj2 (vget_ok _ _ _) Gv). cbn [bind]. unfold node_at. rewrite Gn. cbn [bind]. specialize (H5 n Hn). specialize (H6 n). unfold tk, known.
    destruct (gapf_ok (Some (a, b)) (pos n)) as (y & Ey & Ey' & _); [eauto|]. destruct (nth n (n_piece s) None) as [old|] eqn:Eo.
    - destruct (H6 old Hn eq_refl) as (Hold & Hl). rewrite H2. destruct (nth_error ps old) as [r|] eqn:Er; [|apply nth_error_None in Er; lia]. rewrite (proj2 (vget_ok _ _ _) Er). cbn [bind].
      destruct (gapf_ok (Some r) (pos n)) as (x & Ex & Ex' & _); [eauto|]. rewrite H1, Ex. cbn [bind]. rewrite Ey. cbn [bind]. rewrite (proj2 (vget_ok _ _ _) Gl). cbn [bind]. rewrite Ex', Ey', Hl.
      rewrite Hl in Gl. rewrite (set_nth_same n _ _ Gl), <- H1, <- H2. now destruct s.
    - rewrite (proj2 (vget_ok _ _ _) Gl). cbn [bind]. rewrite H1. destruct (gapf_ok None (pos n)) as (x & Ex & Ex' & _); [exact I|]. fold (all n) in Ex'.
      assert (Q : (if is_equal (nth n (n_least s) dbl_max) missing_double then let! x := nearest line land None (pos n) in Ok (fst (fst (fst x))) else Ok (nth n (n_least s) dbl_max)) = Ok (all n)).
      { destruct (is_equal (nth n (n_least s) dbl_max) missing_double) eqn:Q; [rewrite Ex; cbn [bind]; now rewrite Ex'|]. destruct H5 as [H5|H5]; [|now rewrite H5]. rewrite H5 in Q. vm_compute in Q. discriminate. }
      rewrite Q. cbn [bind]. rewrite vset_lt by lia. cbn [bind]. rewrite Ey. cbn [bind]. rewrite Ey'. destruct (SFltb _ _); cbn [andb bind]; [|reflexivity]. destruct outer; cbn [negb orb bind]; [|reflexivity].
      destruct (nth_error types n) as [t|] eqn:Et; [|apply nth_error_None in Et; lia]. rewrite (proj2 (vget_ok _ _ _) Et). reflexivity.
  Qed.
  Lemma known_kept s n : kept s -> n < N -> kept (known n s).
  Proof.
    intros [H1 H2 H3 H4 H5 H6] Hn. unfold known. constructor; cbn [n_land n_pieces n_piece n_least]; auto.
    - now rewrite set_nth_length.
    - intros x Hx. rewrite nth_set by lia. destruct (Nat.eqb_spec x n) as [->|]; [now right|auto].
    - intros x i Hx Hi. destruct (H6 x i Hx Hi) as (A & B). split; [exact A|]. rewrite nth_set by lia. destruct (Nat.eqb_spec x n) as [->|]; [reflexivity|exact B].
  Qed.
  Definition with_piece (n : nat) (v : option nat) (s : state) : state := State (n_land s) (n_pieces s) (set_nth n v (n_piece s)) (n_least s) (n_mask s).
  Lemma with_kept s n v : kept s -> n < N -> nth n (n_least s) dbl_max = all n -> (forall i, v = Some i -> i < length ps) -> kept (with_piece n v s).
  Proof.
    intros [H1 H2 H3 H4 H5 H6] Hn Hl Hv. unfold with_piece. constructor; cbn [n_land n_pieces n_piece n_least]; auto.
    - now rewrite set_nth_length.
    - intros x i Hx Hi. rewrite nth_set in Hi by lia. destruct (Nat.eqb_spec x n) as [->|]; [auto|eauto].
  Qed.
  Lemma set_piece_ok s n v : kept s -> n < N -> set_piece n v s = Ok (with_piece n v s).
  Proof. intros H Hn. unfold set_piece. rewrite vset_lt by (rewrite (k_piece s H); exact Hn). reflexivity. Qed.

  Variable edges : list (option nat).
  Variable start : nat.
  Inductive trail : list nat -> Prop :=
  | trail_end n : n < N -> n = start \/ nth_error edges n = Some None -> trail [n]
  | trail_next n e o ns : n < N -> n <> start -> nth_error edges n = Some (Some e) -> e < E -> other_node (edge_at m e) n = Some o -> trail (o :: ns) -> trail (n :: o :: ns).
  Lemma trail_in ns n : trail ns -> In n ns -> n < N.
  Proof. intros H. induction H; intros Hin; cbn [In] in Hin; [destruct Hin as [<-|[]]; assumption|]. destruct Hin as [<-|Hin]; auto. Qed.

  Definition finish (x : walk * state) : outcome (nat * nat * state) :=
    let '(w, s) := x in
    let! s := (if w_run w =? 1 then let! l := row_index (w_last w) in set_piece l (w_old w) s else Ok s) in
    Ok (w_in w, w_out w, s).
  Definition count_if (t : nat -> bool) (ns : list nat) : nat := length (filter t ns).
  (** The last node that joined, if just before. *)
  Definition pending (w : walk) (s : state) (ns : list nat) : Prop :=
    w_run w <> 0 -> exists y, w_last w = Some y /\ y < N /\ ~ In y ns /\ nth y (n_least s) dbl_max = all y /\ forall i, w_old w = Some i -> i < length ps.
  Lemma follow_ok (old : nat -> option nat) fuel : let takes := fun x => tk (old x) x in
    forall ns n w s, trail (n :: ns) -> NoDup (n :: ns) -> length (n :: ns) <= fuel -> kept s -> (forall x, In x (n :: ns) -> nth x (n_piece s) None = old x) -> pending w s (n :: ns) ->
    exists s', (let! x := follow line types outer k (a, b) m edges start fuel n w s in finish x) =
        Ok (w_in w + count_if takes (n :: ns), w_out w + count_if (fun x => negb (takes x)) (n :: ns), s') /\ kept s' /\ n_mask s' = n_mask s /\
      map (fun x => nth x (n_piece s') None) (n :: ns) = settle k takes old (negb (w_run w =? 0)) (n :: ns) /\
      (forall x, ~ In x (n :: ns) -> (w_run w = 1 -> w_last w <> Some x) -> nth x (n_piece s') None = nth x (n_piece s) None) /\
      (w_run w = 1 -> forall y, w_last w = Some y -> nth y (n_piece s') None = if takes n then nth y (n_piece s) None else match w_old w with None => nth y (n_piece s) None | Some i => Some i end).
  Proof.
    intros takes. induction fuel as [|fuel IH]; intros ns n w s T Nd Hf K Hold Pd; [cbn in Hf; lia|]. cbn [follow].
    assert (HnN : n < N) by (eapply trail_in; [exact T|now left]). rewrite (joins_ok s n K HnN). cbn [bind]. rewrite (Hold n (or_introl eq_refl)). change (tk (old n) n) with (takes n).
    pose proof (known_kept s n K HnN) as K1. set (s1 := known n s) in *. assert (P1 : n_piece s1 = n_piece s) by reflexivity. assert (M1 : n_mask s1 = n_mask s) by reflexivity.
    assert (L1 : forall x, nth x (n_least s1) dbl_max = if x =? n then all n else nth x (n_least s) dbl_max) by (intros x; unfold s1, known; cbn [n_least]; apply nth_set; rewrite (k_least s K); exact HnN).
    assert (Ho : forall i, old n = Some i -> i < length ps) by (intros i Hi; apply (k_has s K n i HnN); rewrite Hold; [exact Hi|now left]).
    assert (Hkl : forall i, Some k = Some i -> i < length ps) by (intros i [= <-]; apply nth_error_Some; congruence).
    clearbody s1. cbn [length] in Hf. inversion Nd as [|? ? Nn Nt]; subst.
    destruct (takes n) eqn:Tn.
    - (* the node joins *)
      assert (Gv : nth_error (n_piece s1) n = Some (old n)) by (rewrite P1, <- (Hold n) by (now left); apply nth_error_nth'; rewrite (k_piece s K); exact HnN). rewrite (proj2 (vget_ok _ _ _) Gv). cbn [bind].
      rewrite (set_piece_ok s1 n (Some k) K1 HnN). cbn [bind].
      assert (K2 : kept (with_piece n (Some k) s1)) by (apply with_kept; auto; rewrite L1, Nat.eqb_refl; reflexivity).
      assert (P2 : forall x, nth x (n_piece (with_piece n (Some k) s1)) None = if x =? n then Some k else nth x (n_piece s) None) by (intros x; cbn [with_piece n_piece]; rewrite P1; apply nth_set; rewrite (k_piece s K); exact HnN).
      assert (L2 : n_least (with_piece n (Some k) s1) = n_least s1) by reflexivity. assert (M2 : n_mask (with_piece n (Some k) s1) = n_mask s) by exact M1.
      set (s2 := with_piece n (Some k) s1) in *. clearbody s2.
      set (w1 := Walk (Some n) (old n) (S (w_run w)) (S (w_in w)) (w_out w)) in *.
      assert (Pn : forall y, w_run w = 1 -> w_last w = Some y -> y <> n). { intros y Hr Hy. destruct (Pd ltac:(lia)) as (y' & Hy' & _ & Hi & _). assert (y' = y) by congruence. subst y'. intros ->. apply Hi. now left. }
      inversion T as [? Hn Hst|? e o ns' Hn Hst He HeE Hot T']; subst.
      + (* the path ends *)
        assert (Stop : (if n =? start then Ok (w1, s2) else let! oe := vget edges n in match oe with None => Ok (w1, s2) | Some e => if E <=? e then Ok (w1, s2) else let! ed := get_edge m (Some e) in
          match other_node ed n with None => Ok (w1, s2) | Some o => if N <=? o then Ok (w1, s2) else follow line types outer k (a, b) m edges start fuel o w1 s2 end end) = Ok (w1, s2)).
        { destruct (Nat.eqb_spec n start); [reflexivity|]. destruct Hst as [Hst|Hst]; [contradiction|]. rewrite (proj2 (vget_ok _ _ _) Hst). reflexivity. }
        rewrite Stop. cbn [bind finish w1 w_run w_last w_old w_in w_out]. unfold count_if. cbn [filter length map settle]. rewrite Tn. cbn [negb filter length andb].
        destruct (w_run w) as [|[|rn]] eqn:Er; cbn [Nat.eqb negb orb row_index bind].
        * rewrite (set_piece_ok s2 n (old n) K2 HnN). cbn [bind]. eexists. split; [f_equal; f_equal; f_equal; lia|].
          split; [apply with_kept; auto; rewrite L2, L1, Nat.eqb_refl; reflexivity|]. split; [exact M2|]. split; [|split; [|discriminate]].
          -- f_equal. cbn [with_piece n_piece]. rewrite nth_set by (rewrite (k_piece s2 K2); exact HnN). now rewrite Nat.eqb_refl.
          -- intros x Hx _. cbn [with_piece n_piece]. rewrite nth_set by (rewrite (k_piece s2 K2); exact HnN). rewrite P2. destruct (Nat.eqb_spec x n) as [->|]; [destruct Hx; now left|reflexivity].
        * eexists. split; [f_equal; f_equal; f_equal; lia|]. split; [exact K2|]. split; [exact M2|]. split; [|split].
          -- f_equal. rewrite P2. now rewrite Nat.eqb_refl.
          -- intros x Hx _. rewrite P2. destruct (Nat.eqb_spec x n) as [->|]; [destruct Hx; now left|reflexivity].
          -- intros _ y Hy. rewrite P2. destruct (Nat.eqb_spec y n) as [->|]; [destruct (Pn n eq_refl Hy eq_refl)|reflexivity].
        * eexists. split; [f_equal; f_equal; f_equal; lia|]. split; [exact K2|]. split; [exact M2|]. split; [|split; [|discriminate]].
          -- f_equal. rewrite P2. now rewrite Nat.eqb_refl.
          -- intros x Hx _. rewrite P2. destruct (Nat.eqb_spec x n) as [->|]; [destruct Hx; now left|reflexivity].
      + (* the path goes on *)
        destruct (Nat.eqb_spec n start); [contradiction|]. rewrite (proj2 (vget_ok _ _ _) He). cbn [bind]. destruct (Nat.leb_spec E e); [lia|].
        unfold get_edge. rewrite (nth_error_nth' (m_edges m) missing_edge HeE). cbn [bind]. change (nth e (m_edges m) missing_edge) with (edge_at m e). rewrite Hot.
        assert (HoN : o < N) by (eapply trail_in; [exact T'|now left]). destruct (Nat.leb_spec N o); [lia|].
        destruct (IH ns' o w1 s2 T' Nt ltac:(cbn [length] in *; lia) K2) as (s' & -> & K' & M' & Mp & Oth & Last).
        { intros x Hx. rewrite P2. destruct (Nat.eqb_spec x n) as [->|]; [contradiction|]. apply Hold. now right. }
        { intros _. exists n. split; [reflexivity|]. split; [exact HnN|]. split; [exact Nn|]. split; [rewrite L2, L1, Nat.eqb_refl; reflexivity|exact Ho]. }
        exists s'. split; [unfold count_if; cbn [filter]; rewrite Tn; cbn [negb length w1 w_in w_out]; f_equal; f_equal; f_equal; lia|]. split; [exact K'|]. split; [now rewrite M'|]. split; [|split].
        * cbn [map settle]. rewrite Tn. f_equal; [|cbn [w1 w_run Nat.eqb negb map settle] in Mp; exact Mp]. cbn [andb]. destruct (Nat.eqb_spec (w_run w) 0) as [Er|Er]; cbn [negb orb].
          -- rewrite (Last ltac:(cbn; lia) n eq_refl). rewrite P2, Nat.eqb_refl. cbn [w1 w_old]. destruct (takes o); cbn [orb]; [reflexivity|]. destruct (old n); reflexivity.
          -- rewrite Oth; [rewrite P2, Nat.eqb_refl; reflexivity|exact Nn|]. cbn [w1 w_run]. intros Q. lia.
        * intros x Hx Hw. rewrite Oth; [rewrite P2|intros Q; apply Hx; now right|].
          -- destruct (Nat.eqb_spec x n) as [->|]; [destruct Hx; now left|reflexivity].
          -- cbn [w1 w_last]. intros _ [= Q]. apply Hx. now left.
        * intros Hr y Hy. pose proof (Pn y Hr Hy) as Hyn. destruct (Pd ltac:(lia)) as (y' & Hy' & _ & Hi & _). assert (y' = y) by congruence. subst y'.
          rewrite Oth; [rewrite P2; destruct (Nat.eqb_spec y n); [contradiction|reflexivity]|intros Q; apply Hi; now right|]. cbn [w1 w_run]. lia.
    - (* it does not *)
      set (s2 := match w_old w, w_run w =? 1, w_last w with Some i, true, Some y => with_piece y (Some i) s1 | _, _, _ => s1 end).
      assert (Es2 : (match w_old w with Some _ => if w_run w =? 1 then let! l := row_index (w_last w) in set_piece l (w_old w) s1 else Ok s1 | None => Ok s1 end) = Ok s2 /\ kept s2 /\ n_mask s2 = n_mask s).
      { unfold s2. destruct (w_old w) as [i|] eqn:Ew; [|auto]. destruct (Nat.eqb_spec (w_run w) 1) as [Er|Er]; [|auto]. destruct (Pd ltac:(lia)) as (y & -> & HyN & Hyi & Hyl & Hyo). cbn [row_index bind].
        rewrite (set_piece_ok s1 y (Some i) K1 HyN). split; [reflexivity|]. split; [|exact M1]. apply with_kept; auto.
        - rewrite L1. destruct (Nat.eqb_spec y n) as [->|]; [reflexivity|exact Hyl].
        - intros j [= <-]. now apply Hyo. }
      destruct Es2 as (-> & K2 & M2). cbn [bind].
      assert (P2 : forall x, nth x (n_piece s2) None = match w_old w with Some i => if (w_run w =? 1) && eq_idx (w_last w) (Some x) then Some i else nth x (n_piece s) None | None => nth x (n_piece s) None end).
      { intros x. unfold s2. destruct (w_old w) as [i|]; [|now rewrite P1]. destruct (Nat.eqb_spec (w_run w) 1) as [Er|Er]; [|now rewrite P1]. destruct (Pd ltac:(lia)) as (y & -> & HyN & _). cbn [andb with_piece n_piece].
        rewrite nth_set by (rewrite P1, (k_piece s K); exact HyN). cbn [eq_idx]. rewrite P1, (Nat.eqb_sym x y). reflexivity. }
      assert (P2n : forall x, In x (n :: ns) -> nth x (n_piece s2) None = nth x (n_piece s) None).
      { intros x Hx. rewrite P2. destruct (w_old w) as [i|]; [|reflexivity]. destruct (Nat.eqb_spec (w_run w) 1) as [Er|Er]; [|reflexivity]. destruct (Pd ltac:(lia)) as (y & -> & HyN & Hyi & _). cbn [andb eq_idx].
        destruct (Nat.eqb_spec y x) as [->|]; [contradiction|reflexivity]. }
      assert (P2o : forall x, (w_run w = 1 -> w_last w <> Some x) -> nth x (n_piece s2) None = nth x (n_piece s) None).
      { intros x Hx. rewrite P2. destruct (w_old w) as [i|]; [|reflexivity]. destruct (Nat.eqb_spec (w_run w) 1) as [Er|Er]; [|reflexivity]. specialize (Hx Er). destruct (w_last w) as [y|]; [|reflexivity]. cbn [andb eq_idx].
        destruct (Nat.eqb_spec y x) as [->|]; [congruence|reflexivity]. }
      assert (P2l : w_run w = 1 -> forall y, w_last w = Some y -> nth y (n_piece s2) None = match w_old w with None => nth y (n_piece s) None | Some i => Some i end).
      { intros Er y Hy. rewrite P2, Er, Hy. cbn [Nat.eqb andb eq_idx]. rewrite Nat.eqb_refl. destruct (w_old w); reflexivity. }
      assert (Pn : forall y, w_run w = 1 -> w_last w = Some y -> ~ In y (n :: ns)). { intros y Hr Hy. destruct (Pd ltac:(lia)) as (y' & Hy' & _ & Hi & _). assert (y' = y) by congruence. now subst y'. }
      clearbody s2. set (w1 := Walk (w_last w) (w_old w) 0 (w_in w) (S (w_out w))) in *.
      inversion T as [? Hn Hst|? e o ns' Hn Hst He HeE Hot T']; subst.
      + assert (Stop : (if n =? start then Ok (w1, s2) else let! oe := vget edges n in match oe with None => Ok (w1, s2) | Some e => if E <=? e then Ok (w1, s2) else let! ed := get_edge m (Some e) in
          match other_node ed n with None => Ok (w1, s2) | Some o => if N <=? o then Ok (w1, s2) else follow line types outer k (a, b) m edges start fuel o w1 s2 end end) = Ok (w1, s2)).
        { destruct (Nat.eqb_spec n start); [reflexivity|]. destruct Hst as [Hst|Hst]; [contradiction|]. rewrite (proj2 (vget_ok _ _ _) Hst). reflexivity. }
        rewrite Stop. cbn [bind finish w1 w_run w_last w_old w_in w_out Nat.eqb]. unfold count_if. cbn [filter length map settle]. rewrite Tn. cbn [negb filter length andb].
        exists s2. split; [f_equal; f_equal; f_equal; lia|]. split; [exact K2|]. split; [exact M2|]. split; [|split].
        * f_equal. rewrite P2n by (now left). apply Hold. now left.
        * intros x _ Hx. now apply P2o.
        * intros Er y Hy. now apply P2l.
      + destruct (Nat.eqb_spec n start); [contradiction|]. rewrite (proj2 (vget_ok _ _ _) He). cbn [bind]. destruct (Nat.leb_spec E e); [lia|].
        unfold get_edge. rewrite (nth_error_nth' (m_edges m) missing_edge HeE). cbn [bind]. change (nth e (m_edges m) missing_edge) with (edge_at m e). rewrite Hot.
        assert (HoN : o < N) by (eapply trail_in; [exact T'|now left]). destruct (Nat.leb_spec N o); [lia|].
        destruct (IH ns' o w1 s2 T' Nt ltac:(cbn [length] in *; lia) K2) as (s' & -> & K' & M' & Mp & Oth & Last).
        { intros x Hx. rewrite P2n by (now right). apply Hold. now right. }
        { intros Q. destruct Q. reflexivity. }
        exists s'. split; [unfold count_if; cbn [filter]; rewrite Tn; cbn [negb length w1 w_in w_out]; f_equal; f_equal; f_equal; lia|]. split; [exact K'|]. split; [now rewrite M'|].
        assert (Oth' : forall x, ~ In x (o :: ns') -> nth x (n_piece s') None = nth x (n_piece s2) None) by (intros x Hx; apply Oth; [exact Hx|discriminate]). split; [|split].
        * cbn [map settle]. rewrite Tn. f_equal; [|cbn [w1 w_run Nat.eqb negb map settle] in Mp; exact Mp]. cbn [andb]. rewrite Oth' by exact Nn. rewrite P2n by (now left). apply Hold. now left.
        * intros x Hx Hw. rewrite Oth' by (intros Q; apply Hx; now right). now apply P2o.
        * intros Hr y Hy. rewrite Oth' by (intros Q; apply (Pn y Hr Hy); now right). now apply P2l.
  Qed.
End Walk.

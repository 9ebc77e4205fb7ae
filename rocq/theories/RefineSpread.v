(** The faces that have to be split besides the chosen ones. *)
From Coq Require Import Permutation.
From Verif Require Import Base BaseLemmas FloatModel UtilModel UndoModel ActionModel ActionSpec ActionProofs MeshModel MeshSpec MeshProofs MeshAdj MeshEdits
  FaceModel FaceSpec FlipSpec ConvertModel FlipModel NodeTypeProofs RefineModel RefineSpec RefineProofs.

Lemma value_set i v l j : i < length l -> value (set_nth i v l) j = if j =? i then v else value l j.
Proof. intros H. unfold value. now apply nth_set. Qed.
Lemma value_get l i : i < length l -> vget l i = Ok (value l i).
Proof. intros H. apply vget_ok. unfold value. now apply nth_error_nth'. Qed.
Lemma value_out l i : length l <= i -> value l i = 0%Z.
Proof. intros H. unfold value. now apply nth_overflow. Qed.
Lemma marked_in l i : marked l i = true -> i < length l.
Proof. intros H. destruct (Nat.lt_ge_cases i (length l)); [assumption|]. unfold marked in H. rewrite value_out in H by assumption. discriminate. Qed.
Lemma zeros_set l i : i < length l -> value l i = 0%Z -> zeros (set_nth i 1%Z l) + 1 = zeros l.
Proof.
  unfold zeros, value. revert i. induction l as [|x l IH]; intros [|i] H V; cbn in H; [lia|lia| |]; cbn [set_nth filter nth] in *.
  - subst x. cbn. lia.
  - specialize (IH i ltac:(lia) V). destruct (x =? 0)%Z; cbn [length]; lia.
Qed.
Lemma read_all_ok {A} (v : list A) d l : (forall i, In i l -> i < length v) -> read_all v l = Ok (map (fun i => nth i v d) l).
Proof.
  induction l as [|i l IH]; intros H; cbn [read_all]; [reflexivity|]. rewrite (proj2 (vget_ok v i (nth i v d))) by (apply nth_error_nth', H; left; reflexivity). cbn [bind].
  rewrite IH by (intros; apply H; now right). reflexivity.
Qed.
Lemma as_items l : l = map (item l) (seq 0 (length l)).
Proof.
  apply (nth_ext _ _ 0 0); [now rewrite map_length, seq_length|]. intros j Hj. rewrite (nth_indep (map (item l) (seq 0 (length l))) 0 (item l 0)) by (rewrite map_length, seq_length; lia).
  rewrite map_nth, seq_nth by exact Hj. now rewrite item_small.
Qed.
Lemma filter_map_length {A B} (g : A -> B) P l : length (filter P (map g l)) = length (filter (fun x => P (g x)) l).
Proof. induction l as [|x l IH]; cbn; [reflexivity|]. destruct (P (g x)); cbn; now rewrite IH. Qed.

Section Spread.
  Variables (m : mesh) (f : faces).
  Variable br : list (option nat).
  Hypothesis S : in_step m f.
  Hypothesis A6 : at_most_six f.
  Hypothesis Hb : length br = length (m_edges m).

  Definition fits (s : spreading) : Prop := length (d_faces s) = num_faces f /\ length (d_edges s) = length (m_edges m) /\ zero_or_one (d_edges s).
  Definition after_split (es : list nat) (em : list Z) (e : nat) : Z :=
    if (value em e =? 0)%Z && existsb (fun j => (item es j =? e) && negb (hanging_edge br es j)) (seq 0 (length es)) then 1%Z else value em e.

  Definition split_test (em : list Z) (es : list nat) : bool :=
    existsb (fun j => hanging_edge br es j && (0 <? value em (item es j))%Z) (seq 0 (length es)) ||
    (6 <? length es + count_of (fun j => marked em (item es j)) (length es)) ||
    ((count_of (hanging_node br es) (length es) + count_of (fun j => marked em (item es j)) (length es) <=? length es) &&
     (length es - count_of (hanging_node br es) (length es) - count_of (fun j => marked em (item es j)) (length es) <=? 1)) ||
    (length es - count_of (hanging_edge br es) (length es) / 2 =? count_of (fun j => marked em (item es j)) (length es)).
  Lemma split_test_ok em es : zero_or_one em -> split_test em es = true <-> must_split br em es.
  Proof.
    intros Z. unfold split_test, must_split. set (n := count_of (fun j => marked em (item es j)) (length es)). set (h := count_of (hanging_node br es) (length es)).
    set (g := count_of (hanging_edge br es) (length es)). set (k := length es).
    rewrite !orb_true_iff, andb_true_iff, Nat.ltb_lt, !Nat.leb_le, Nat.eqb_eq, existsb_exists. split.
    - intros [[[(j & Hj & W)|H]|H]|H].
      + left. apply in_seq in Hj. apply andb_true_iff in W as (W1 & W2). exists j. split; [lia|]. split; [exact W1|]. unfold marked. apply Z.ltb_lt in W2. destruct (Z.eqb_spec (value em (item es j)) 0); [lia|reflexivity].
      + right. left. exact H.
      + right. right. left. lia.
      + right. right. right. symmetry. exact H.
    - intros [(j & Hj & W1 & W2)|[H|[H|H]]].
      + left. left. left. exists j. split; [apply in_seq; lia|]. rewrite W1. cbn [andb]. unfold marked in W2. apply Z.ltb_lt. destruct (Z (item es j)) as [V|V]; rewrite V in *; [discriminate|lia].
      + left. left. right. exact H.
      + left. right. lia.
      + right. symmetry. exact H.
  Qed.

  Lemma mark_edges es edges em new : es <> [] -> length em = length (m_edges m) -> (forall j, item es j < length (m_edges m)) -> zero_or_one em ->
    length es <= 6 -> on_positions (hanging_edge br es) (length es) edges ->
    exists em' new', fold_out (fun (st : list Z * nat) n =>
          let! e := vget es n in
          let! h := vget edges n in
          let! v := vget (fst st) e in
          if negb h && (v =? 0)%Z then let! em := vset e 1%Z (fst st) in Ok (em, Datatypes.S (snd st)) else Ok st) (seq 0 (length es)) (em, new) = Ok (em', new') /\
      length em' = length em /\ zero_or_one em' /\ (forall e, value em' e = after_split es em e) /\ zeros em' + new' = zeros em + new.
  Proof.
    intros Hn Le Hi Hz H6 (Lh & Ph).
    destruct (fold_range (fun n (st : list Z * nat) => length (fst st) = length em /\ (forall e, value (fst st) e =
        if (value em e =? 0)%Z && existsb (fun j => (item es j =? e) && negb (hanging_edge br es j)) (seq 0 n) then 1%Z else value em e) /\ zeros (fst st) + snd st = zeros em + new)
      (fun (st : list Z * nat) n =>
          let! e := vget es n in
          let! h := vget edges n in
          let! v := vget (fst st) e in
          if negb h && (v =? 0)%Z then let! em := vset e 1%Z (fst st) in Ok (em, Datatypes.S (snd st)) else Ok st) (length es) (em, new)) as ([em' new'] & E & P1 & P2 & P3).
    - cbn [fst snd seq existsb]. split; [reflexivity|]. split; [|reflexivity]. intros e. now rewrite andb_false_r.
    - intros n [em1 new1] Hk (Q1 & Q2 & Q3). cbn [fst snd] in *. rewrite (item_at es n Hk). cbn [bind].
      rewrite (proj2 (vget_ok edges n (hanging_edge br es n))).
      2:{ rewrite (nth_error_nth' edges false) by lia. rewrite Ph. destruct (Nat.ltb_spec n (length es)); [reflexivity|lia]. }
      cbn [bind]. rewrite value_get by (rewrite Q1, Le; apply Hi). cbn [bind].
      assert (Ex : forall e, existsb (fun j => (item es j =? e) && negb (hanging_edge br es j)) (seq 0 (Datatypes.S n)) =
        existsb (fun j => (item es j =? e) && negb (hanging_edge br es j)) (seq 0 n) || ((item es n =? e) && negb (hanging_edge br es n))).
      { intros e. rewrite seq_S, existsb_app. cbn [existsb Nat.add]. now rewrite orb_false_r. }
      destruct (negb (hanging_edge br es n) && (value em1 (item es n) =? 0)%Z) eqn:C.
      + apply andb_true_iff in C as (C1 & C2). apply Z.eqb_eq in C2. rewrite vset_lt by (rewrite Q1, Le; apply Hi). cbn [bind]. eexists. split; [reflexivity|]. cbn [fst snd].
        split; [now rewrite set_nth_length|]. split.
        * intros e. rewrite value_set by (rewrite Q1, Le; apply Hi). rewrite Ex, C1, andb_true_r. destruct (Nat.eqb_spec e (item es n)) as [->|N].
          -- rewrite Nat.eqb_refl, orb_true_r, andb_true_r. specialize (Q2 (item es n)). rewrite C2 in Q2. destruct (value em (item es n) =? 0)%Z eqn:V; [reflexivity|]. cbn [andb] in Q2. apply Z.eqb_neq in V. congruence.
          -- destruct (Nat.eqb_spec (item es n) e); [congruence|]. rewrite orb_false_r. apply Q2.
        * pose proof (zeros_set em1 (item es n) ltac:(rewrite Q1, Le; apply Hi) C2). lia.
      + eexists. split; [reflexivity|]. cbn [fst snd]. split; [exact Q1|]. split; [|exact Q3]. intros e. rewrite Ex, Q2.
        destruct (value em e =? 0)%Z eqn:V; cbn [andb]; [|reflexivity]. destruct (existsb _ (seq 0 n)) eqn:X; cbn [orb]; [reflexivity|].
        destruct (Nat.eqb_spec (item es n) e) as [<-|]; cbn [andb]; [|reflexivity]. destruct (hanging_edge br es n) eqn:H; cbn [negb]; [reflexivity|]. cbn [negb andb] in C.
        specialize (Q2 (item es n)). rewrite X, andb_false_r in Q2. rewrite Q2 in C. congruence.
    - exists em', new'. split; [exact E|]. cbn [fst snd] in *. split; [exact P1|]. split; [|split; [exact P2|exact P3]].
      intros e. rewrite P2. destruct (_ && _); [now right|apply Hz].
  Qed.

  (** One face. *)
  Definition decided_step (i : nat) (s s' : spreading) : Prop :=
    let es := edges_of f i in
    (undecided (d_faces s) i = true /\ must_split br (d_edges s) es /\
     (forall j, value (d_faces s') j = if j =? i then (if (value (d_faces s) i =? -1)%Z then -2 else 2)%Z else value (d_faces s) j) /\
     (forall e, value (d_edges s') e = after_split es (d_edges s) e) /\ zeros (d_edges s') + d_new s' = zeros (d_edges s) + d_new s) \/
    ((undecided (d_faces s) i = false \/ ~ must_split br (d_edges s) es) /\ d_faces s' = d_faces s /\ d_edges s' = d_edges s /\ d_new s' = d_new s).

  Lemma spread_face_ok i s : fits s -> i < num_faces f -> exists s', spread_face m f br s i = Ok (false, s') /\ fits s' /\ decided_step i s s'.
  Proof.
    intros (F1 & F2 & F3) Hi. destruct (face_get m f S A6 i Hi) as (ns & es & G1 & G2 & G3 & G4 & G5 & G6 & G7 & G8 & G9 & G10 & G11 & G12).
    assert (Hn : es <> []) by (intros Z; rewrite Z in G8; cbn in G8; lia).
    assert (Hit : forall j, item es j < length (m_edges m)) by (intros j; apply (face_edge m ns es (proj1 G9) G11)).
    unfold spread_face. rewrite value_get by lia. cbn [bind]. unfold decided_step. rewrite G4.
    destruct (negb (value (d_faces s) i =? 0)%Z && negb (value (d_faces s) i =? -1)%Z) eqn:U.
    { exists s. split; [reflexivity|]. split; [repeat split; assumption|]. right. split; [|auto]. left. unfold undecided. rewrite <- negb_orb in U. apply negb_true_iff in U. exact U. }
    assert (Un : undecided (d_faces s) i = true) by (unfold undecided; rewrite <- negb_orb in U; now apply negb_false_iff in U).
    rewrite G7, G6. cbn [bind]. unfold count_marked. rewrite firstn_all. rewrite (read_all_ok (d_edges s) 0%Z).
    2:{ intros e He. rewrite F2. apply In_nth with (d := 0) in He as (j & Hj & <-). rewrite <- item_small by exact Hj. apply Hit. }
    cbn [bind]. assert (Cm : length (filter (fun v => negb (v =? 0)%Z) (map (fun i => nth i (d_edges s) 0%Z) es)) = count_of (fun j => marked (d_edges s) (item es j)) (length es)).
    { rewrite (as_items es) at 1. rewrite map_map, filter_map_length. reflexivity. }
    rewrite Cm. clear Cm. destruct (find_hanging_ok m f S A6 br Hb m i) as (nodes & edges & -> & P1 & P2); [split; [lia|auto]|exact Hi|]. rewrite G4 in P1, P2. cbn [bind].
    destruct (Nat.ltb_spec max_edges_per_face (length es)) as [X|_]; [unfold max_edges_per_face in X; lia|].
    assert (On : fold_out (fun b n => let! e := vget es n in let! v := vget (d_edges s) e in let! h := vget edges n in Ok (b || (h && (0 <? v)%Z))) (seq 0 (length es)) false =
      Ok (existsb (fun j => hanging_edge br es j && (0 <? value (d_edges s) (item es j))%Z) (seq 0 (length es)))).
    { destruct (fold_range (fun n (b : bool) => b = existsb (fun j => hanging_edge br es j && (0 <? value (d_edges s) (item es j))%Z) (seq 0 n))
        (fun b n => let! e := vget es n in let! v := vget (d_edges s) e in let! h := vget edges n in Ok (b || (h && (0 <? v)%Z))) (length es) false) as (b & E & ->); [reflexivity| |exact E].
      intros j b Hj ->. rewrite (item_at es j Hj). cbn [bind]. rewrite value_get by (rewrite F2; apply Hit). cbn [bind].
      rewrite (proj2 (vget_ok edges j (hanging_edge br es j))).
      2:{ destruct P2 as (Lh & Ph). rewrite (nth_error_nth' edges false) by lia. rewrite Ph. destruct (Nat.ltb_spec j (length es)); [reflexivity|lia]. }
      cbn [bind]. eexists. split; [reflexivity|]. rewrite seq_S, existsb_app. cbn [existsb Nat.add]. now rewrite orb_false_r. }
    rewrite On. cbn [bind]. clear On. rewrite (count_positions _ _ _ P1 ltac:(lia)), (count_positions _ _ _ P2 ltac:(lia)).
    fold (split_test (d_edges s) es). pose proof (split_test_ok (d_edges s) es F3) as T. unfold split_test in T. unfold max_edges_per_face.
    match type of T with (?x = true <-> _) => match goal with |- context [if ?y then _ else _] => change y with x end; destruct x eqn:B end.
    - rewrite vset_lt by lia. cbn [bind]. destruct (mark_edges es edges (d_edges s) (d_new s) Hn F2 Hit F3 ltac:(lia) P2) as (em' & new' & -> & Q1 & Q2 & Q3 & Q4). cbn [bind fst snd].
      eexists. split; [reflexivity|]. split; [repeat split; cbn; [now rewrite set_nth_length|congruence|exact Q2]|]. left. split; [exact Un|]. split; [now apply T|]. cbn [d_faces d_edges d_new].
      split; [intros j; apply value_set; lia|]. split; [exact Q3|exact Q4].
    - eexists. split; [reflexivity|]. split; [repeat split; assumption|]. right. cbn [d_faces d_edges d_new]. split; [|auto]. right. intros X. apply T in X. discriminate.
  Qed.

  (** *** Marks only grow *)
  Definition raised (em em' : list Z) : Prop := length em' = length em /\ forall e, value em' e = value em e \/ (value em e = 0%Z /\ value em' e = 1%Z).
  Lemma raised_refl em : raised em em.
  Proof. split; auto. Qed.
  Lemma raised_trans a b c : raised a b -> raised b c -> raised a c.
  Proof.
    intros (L1 & H1) (L2 & H2). split; [congruence|]. intros e. destruct (H1 e) as [E1|[E1 E1']], (H2 e) as [E2|[E2 E2']]; [left; congruence|right; split; congruence|right; split; congruence|congruence].
  Qed.
  Lemma raised_covers a b : raised a b -> covers a b.
  Proof. intros (_ & H) e. unfold marked. destruct (H e) as [-> |[-> _]]; [auto|discriminate]. Qed.
  Lemma covers_trans a b c : covers a b -> covers b c -> covers a c.
  Proof. unfold covers. auto. Qed.
  Lemma raised_zeros a b : raised a b -> zeros b <= zeros a /\ (zeros b = zeros a -> b = a).
  Proof.
    intros (L & H). revert b L H. clear. induction a as [|x a IH]; intros [|y b] L H; try discriminate; [auto|].
    cbn in L. specialize (IH b ltac:(lia) (fun e => H (Datatypes.S e))). destruct IH as (I1 & I2). specialize (H 0). cbn in H. unfold zeros in *. cbn [filter].
    destruct H as [-> |[-> ->]].
    - destruct (x =? 0)%Z; cbn [length]; split; try lia; intros E; f_equal; apply I2; lia.
    - cbn. split; lia.
  Qed.
  Lemma after_split_raised es em em' : length em' = length em -> (forall e, value em' e = after_split es em e) -> raised em em'.
  Proof.
    intros L H. split; [exact L|]. intros e. rewrite H. unfold after_split. destruct (Z.eqb_spec (value em e) 0) as [V|V]; cbn [andb]; [|now left]. destruct (existsb _ _); [now right|now left].
  Qed.
  Lemma after_split_all es em em' : (forall e, value em' e = after_split es em e) -> all_marked br em' es.
  Proof.
    intros H j Hj Hh. unfold marked. rewrite H. unfold after_split. destruct (Z.eqb_spec (value em (item es j)) 0) as [V|V]; cbn [andb].
    - replace (existsb _ _) with true; [reflexivity|]. symmetry. apply existsb_exists. exists j. split; [apply in_seq; lia|]. now rewrite Nat.eqb_refl, Hh.
    - destruct (Z.eqb_spec (value em (item es j)) 0); [contradiction|reflexivity].
  Qed.
  Lemma all_marked_covers es em em' : covers em em' -> all_marked br em es -> all_marked br em' es.
  Proof. intros C H j Hj Hh. auto. Qed.

  (** *** More marks, more faces to split *)
  Lemma count_le P Q k : (forall j, j < k -> P j = true -> Q j = true) -> count_of P k <= count_of Q k.
  Proof.
    intros H. unfold count_of. assert (G : forall l, (forall j, In j l -> j < k) -> length (filter P l) <= length (filter Q l)).
    { induction l as [|x l IH]; intros Hl; cbn; [lia|]. specialize (IH (fun j Hj => Hl j (or_intror Hj))). destruct (P x) eqn:E; [rewrite (H x (Hl x (or_introl eq_refl)) E); cbn; lia|].
      destruct (Q x); cbn; lia. }
    apply G. intros j Hj. apply in_seq in Hj. lia.
  Qed.
  Lemma count_disjoint P Q k : (forall j, j < k -> P j = true -> Q j = true -> False) -> count_of P k + count_of Q k <= k.
  Proof.
    intros H. unfold count_of. assert (G : forall l, (forall j, In j l -> j < k) -> length (filter P l) + length (filter Q l) <= length l).
    { induction l as [|x l IH]; intros Hl; cbn; [lia|]. specialize (IH (fun j Hj => Hl j (or_intror Hj))). destruct (P x) eqn:E, (Q x) eqn:F; cbn; try lia.
      exfalso. apply (H x); auto. apply Hl. now left. }
    specialize (G (seq 0 k)). rewrite seq_length in G. apply G. intros j Hj. apply in_seq in Hj. lia.
  Qed.
  Lemma fewer_nodes ns es : 3 <= length ns -> NoDup ns -> cycle_of_edges m ns es -> count_of (hanging_node br es) (length es) <= count_of (hanging_edge br es) (length es).
  Proof.
    intros H3 Hd Hc. unfold count_of. set (k := length es). pose proof (face_length m ns es Hc) as L. fold k in L.
    set (g := fun j => if with_previous br es j then j else (j + k - 1) mod k).
    assert (Wm : forall j, with_next br es (j mod k) = with_next br es j).
    { intros j. unfold with_next. fold k. unfold k. rewrite item_mod. replace (item es (j mod length es + 1)) with (item es (j + 1)); [reflexivity|]. unfold item. now rewrite Nat.add_mod_idemp_l by lia. }
    rewrite <- (map_length g (filter (hanging_node br es) (seq 0 k))). apply NoDup_incl_length.
    - assert (G : forall l, NoDup l -> (forall j, In j l -> j < k /\ hanging_node br es j = true) -> NoDup (map g l)).
      { induction l as [|x l IH]; intros Nd Hl; cbn; [constructor|]. inversion Nd as [|? ? Nx Nd']; subst. constructor; [|apply IH; [exact Nd'|intros; apply Hl; now right]].
        intros X. apply in_map_iff in X as (y & E & Hy). destruct (Hl x (or_introl eq_refl)) as (Hx & Wx), (Hl y (or_intror Hy)) as (Hyk & Wy).
        assert (x <> y) by (intros ->; contradiction). unfold hanging_node in Wx, Wy. unfold g in E.
        assert (Pb : forall a b, a < k -> b < k -> (a + k - 1) mod k = b -> with_previous br es b = true -> with_next br es (a + k - 1) = true -> False).
        { intros a b Ha Hbk Eab Wb Wa. rewrite <- Wm, Eab in Wa. exact (with_both m ns es br H3 Hd Hc b Wb Wa). }
        destruct (with_previous br es x) eqn:Px, (with_previous br es y) eqn:Py; cbn [orb] in Wx, Wy.
        - congruence.
        - apply (Pb y x); auto.
        - apply (Pb x y); auto.
        - rewrite !mod_back in E by assumption. destruct (Nat.eqb_spec x 0), (Nat.eqb_spec y 0); lia. }
      apply G; [apply NoDup_filter, seq_NoDup|]. intros j Hj. apply filter_In in Hj as (Hj & W). apply in_seq in Hj. split; [lia|exact W].
    - intros e He. apply in_map_iff in He as (j & <- & Hj). apply filter_In in Hj as (Hj & W). apply in_seq in Hj. unfold hanging_node in W. unfold g. apply filter_In.
      destruct (with_previous br es j) eqn:P; cbn [orb] in W.
      + split; [apply in_seq; lia|]. unfold hanging_edge. now rewrite P.
      + split; [apply in_seq; assert ((j + k - 1) mod k < k) by (apply Nat.mod_upper_bound; lia); lia|]. unfold hanging_edge. rewrite Wm. fold k in W. rewrite W. apply orb_true_r.
  Qed.
  Lemma must_split_mono i em em' : i < num_faces f -> covers em em' -> must_split br em (edges_of f i) -> must_split br em' (edges_of f i).
  Proof.
    intros Hi C M. destruct (face_get m f S A6 i Hi) as (ns & es & G1 & G2 & G3 & G4 & G5 & G6 & G7 & G8 & G9 & G10 & G11 & G12). rewrite G4 in *.
    pose proof (fewer_nodes ns es (proj1 G9) G10 G11) as Hh. unfold must_split in *.
    set (n := count_of (fun j => marked em (item es j)) (length es)) in *. set (n' := count_of (fun j => marked em' (item es j)) (length es)).
    assert (Hn : n <= n') by (apply count_le; intros j _; apply C).
    assert (X : (exists j, j < length es /\ hanging_edge br es j = true /\ marked em' (item es j) = true) \/ count_of (hanging_edge br es) (length es) + n' <= length es).
    { destruct (existsb (fun j => hanging_edge br es j && marked em' (item es j)) (seq 0 (length es))) eqn:E.
      - left. apply existsb_exists in E as (j & Hj & W). apply in_seq in Hj. apply andb_true_iff in W as (W1 & W2). exists j. split; [lia|]. auto.
      - right. apply count_disjoint. intros j Hj W1 W2. assert (F : existsb (fun j => hanging_edge br es j && marked em' (item es j)) (seq 0 (length es)) = true).
        { apply existsb_exists. exists j. split; [apply in_seq; lia|]. now rewrite W1, W2. } congruence. }
    destruct X as [X|X]; [left; exact X|]. set (he := count_of (hanging_edge br es) (length es)) in *. set (hn := count_of (hanging_node br es) (length es)) in *.
    destruct M as [(j & Hj & W1 & W2)|[M|[M|M]]].
    - left. exists j. auto.
    - right. left. lia.
    - right. right. left. lia.
    - right. right. left. assert (he / 2 <= he) by (apply Nat.div_le_upper_bound; lia). assert (he = he / 2) by lia. assert (he = 0) by (destruct he as [|[|he']]; [reflexivity|cbn in *; lia|]; exfalso;
        assert (Datatypes.S (Datatypes.S he') / 2 < Datatypes.S (Datatypes.S he')) by (apply Nat.div_lt; lia); lia). lia.
  Qed.

  (** *** A pass, and all passes *)
  Definition progress (s s' : spreading) : Prop :=
    raised (d_edges s) (d_edges s') /\ length (d_faces s') = length (d_faces s) /\
    (forall i, value (d_faces s') i = value (d_faces s) i \/
       (i < num_faces f /\ undecided (d_faces s) i = true /\ value (d_faces s') i = (if (value (d_faces s) i =? -1)%Z then -2 else 2)%Z /\ all_marked br (d_edges s') (edges_of f i))) /\
    (forall e, marked (d_edges s') e = true -> marked (d_edges s) e = true \/
       exists i, i < num_faces f /\ value (d_faces s') i <> value (d_faces s) i /\ In e (edges_of f i)) /\
    (forall em, covers (d_edges s) em -> settled f br (d_faces s) em -> covers (d_edges s') em).
  Lemma progress_refl s : progress s s.
  Proof. split; [apply raised_refl|]. split; [reflexivity|]. split; [now left|]. split; [now left|auto]. Qed.
  Lemma decided_value v : ((if v =? -1 then -2 else 2) =? 0)%Z || ((if v =? -1 then -2 else 2) =? -1)%Z = false.
  Proof. destruct (v =? -1)%Z; reflexivity. Qed.
  Lemma decided_differs fm i : undecided fm i = true -> (if (value fm i =? -1)%Z then -2 else 2)%Z <> value fm i.
  Proof. intros U E. unfold undecided in U. rewrite <- E in U. rewrite decided_value in U. discriminate. Qed.
  Lemma progress_trans a b c : progress a b -> progress b c -> progress a c.
  Proof.
    intros (A1 & A2 & A3 & A4 & A5) (B1 & B2 & B3 & B4 & B5). split; [eapply raised_trans; eauto|]. split; [congruence|].
    assert (Keep : forall i, value (d_faces b) i <> value (d_faces a) i -> value (d_faces c) i = value (d_faces b) i).
    { intros i N. destruct (B3 i) as [E|(_ & U & _ & _)]; [exact E|]. destruct (A3 i) as [E|(_ & U' & V & _)]; [contradiction|]. unfold undecided in U. rewrite V, decided_value in U. discriminate. }
    split; [|split].
    - intros i. destruct (A3 i) as [E|(Hi & U & V & M)].
      + destruct (B3 i) as [E'|(Hi & U & V & M)]; [left; congruence|right]. unfold undecided in *. rewrite E in *. auto.
      + right. split; [exact Hi|]. split; [exact U|]. split.
        * rewrite <- V. apply Keep. rewrite V. now apply decided_differs.
        * eapply all_marked_covers; [apply raised_covers, B1|exact M].
    - intros e He. destruct (B4 e He) as [Hb'|(i & Hi & N & He')].
      + destruct (A4 e Hb') as [Ha|(i & Hi & N & He')]; [now left|right]. exists i. split; [exact Hi|]. split; [|exact He']. rewrite Keep; assumption.
      + right. exists i. split; [exact Hi|]. split; [|exact He']. destruct (A3 i) as [E|(_ & U & V & _)]; [congruence|]. exfalso. apply N, Keep. rewrite V. now apply decided_differs.
    - intros em C T. apply B5; [now apply A5|]. intros i Hi U. apply T; [exact Hi|]. destruct (A3 i) as [E|(_ & U' & V & _)]; [unfold undecided in *; now rewrite E in U|exact U'].
  Qed.

  Lemma step_progress i s s' : fits s -> fits s' -> i < num_faces f -> decided_step i s s' ->
    progress s s' /\ zeros (d_edges s') + d_new s' = zeros (d_edges s) + d_new s.
  Proof.
    intros F F' Hi [(U & M & V & E & Z)|(_ & E1 & E2 & E3)].
    - split; [|exact Z]. assert (R : raised (d_edges s) (d_edges s')) by (apply (after_split_raised (edges_of f i)); [destruct F as (_ & -> & _), F' as (_ & -> & _); reflexivity|exact E]).
      split; [exact R|]. split; [destruct F as (-> & _), F' as (-> & _); reflexivity|]. split; [|split].
      + intros j. rewrite V. destruct (Nat.eqb_spec j i) as [->|]; [|now left]. right. split; [exact Hi|]. split; [exact U|]. split; [reflexivity|]. now apply (after_split_all _ (d_edges s)).
      + intros e He. unfold marked in *. rewrite E in He. unfold after_split in He. destruct (value (d_edges s) e =? 0)%Z eqn:V0; cbn [andb negb] in *; [|now left].
        destruct (existsb _ _) eqn:X; [|rewrite V0 in He; discriminate]. right. exists i. split; [exact Hi|]. split; [rewrite V, Nat.eqb_refl; now apply decided_differs|].
        apply existsb_exists in X as (j & Hj & W). apply andb_true_iff in W as (W & _). apply Nat.eqb_eq in W. subst e. apply item_in. apply in_seq in Hj. intros Q. rewrite Q in Hj. cbn in Hj. lia.
      + intros em C T e He. assert (A : all_marked br em (edges_of f i)) by (apply T; [exact Hi|exact U|eapply must_split_mono; eauto]).
        unfold marked in He. rewrite E in He. unfold after_split in He. destruct (value (d_edges s) e =? 0)%Z eqn:V0; cbn [andb negb] in *; [|apply C; unfold marked; now rewrite V0].
        destruct (existsb _ _) eqn:X; [|rewrite V0 in He; discriminate]. apply existsb_exists in X as (j & Hj & W). apply andb_true_iff in W as (W & W2). apply Nat.eqb_eq in W. subst e. apply in_seq in Hj.
        apply A; [lia|now apply negb_true_iff].
    - split; [|congruence]. unfold progress. rewrite E1, E2. apply progress_refl with (s := s).
  Qed.

  Lemma spread_faces_ok l s : (forall i, In i l -> i < num_faces f) -> fits s ->
    exists s', spread_faces m f br l s = Ok (false, s') /\ fits s' /\ progress s s' /\ zeros (d_edges s') + d_new s' = zeros (d_edges s) + d_new s /\
      (d_new s' = d_new s -> d_edges s' = d_edges s /\ forall i, In i l -> undecided (d_faces s') i = true -> ~ must_split br (d_edges s) (edges_of f i)).
  Proof.
    revert s. induction l as [|i l IH]; intros s Hl F; cbn [spread_faces].
    { exists s. split; [reflexivity|]. split; [exact F|]. split; [apply progress_refl|]. split; [reflexivity|]. intros _. split; [reflexivity|intros j []]. }
    destruct (spread_face_ok i s F (Hl i (or_introl eq_refl))) as (s1 & -> & F1 & D). cbn [bind].
    destruct (step_progress i s s1 F F1 (Hl i (or_introl eq_refl)) D) as (P1 & Z1).
    destruct (IH s1 (fun j Hj => Hl j (or_intror Hj)) F1) as (s2 & E2 & F2 & P2 & Z2 & N2). exists s2. split; [exact E2|]. split; [exact F2|]. split; [eapply progress_trans; eauto|]. split; [congruence|].
    intros N. destruct (raised_zeros _ _ (proj1 P1)) as (R1 & R1'), (raised_zeros _ _ (proj1 P2)) as (R2 & R2').
    assert (N1 : d_new s1 = d_new s) by lia. assert (E1 : d_edges s1 = d_edges s) by (apply R1'; lia).
    destruct (N2 ltac:(lia)) as (X1 & X2). split; [congruence|]. rewrite <- E1. intros j [<-|Hj] U; [|now apply X2].
    rewrite E1. destruct D as [(U' & M & V & _)|([U'|M] & Ef & _)].
    - exfalso. destruct P2 as (_ & _ & P2 & _). destruct (P2 i) as [Q|(_ & Q & _)]; unfold undecided in *; rewrite V, Nat.eqb_refl in Q.
      + rewrite Q, decided_value in U. discriminate.
      + rewrite decided_value in Q. discriminate.
    - exfalso. destruct P2 as (_ & _ & P2 & _). destruct (P2 i) as [Q|(_ & Q & _)]; unfold undecided in *; rewrite Ef in Q; [rewrite Q in U|]; congruence.
    - exact M.
  Qed.

  Definition same_masks (s t : spreading) : Prop := d_faces s = d_faces t /\ d_edges s = d_edges t.
  Lemma spread_rounds_ok r s : fits s -> exists s', spread_rounds r m f br s = Ok s' /\ fits s' /\ progress s s' /\
    (zeros (d_edges s) < r -> forall i, i < num_faces f -> undecided (d_faces s') i = true -> ~ must_split br (d_edges s') (edges_of f i)).
  Proof.
    revert s. induction r as [|r IH]; intros s F; cbn [spread_rounds].
    { exists s. split; [reflexivity|]. split; [exact F|]. split; [apply progress_refl|]. lia. }
    set (s0 := Spreading (d_faces s) (d_edges s) (d_cache s) 0). assert (F0 : fits s0) by exact F.
    destruct (spread_faces_ok (seq 0 (num_faces f)) s0) as (s1 & -> & F1 & P1 & Z1 & N1); [intros i Hi; apply in_seq in Hi; lia|exact F0|]. cbn [bind].
    assert (P0 : progress s s1) by exact P1.
    destruct (Nat.eqb_spec (d_new s1) 0) as [E|E].
    - exists s1. split; [reflexivity|]. split; [exact F1|]. split; [exact P0|]. intros _ i Hi U. destruct (N1 E) as (Q1 & Q2). rewrite Q1. apply Q2; [apply in_seq; lia|exact U].
    - destruct (IH s1 F1) as (s2 & E2 & F2 & P2 & C2). exists s2. split; [exact E2|]. split; [exact F2|]. split; [eapply progress_trans; eauto|]. intros Hz. apply C2. cbn [d_edges d_new s0] in Z1. lia.
  Qed.
End Spread.

(** The edges to the hanging nodes. *)
From Coq Require Import Permutation.
From Verif Require Import Base BaseLemmas FloatModel UtilModel UndoModel ActionModel ActionSpec ActionProofs MeshModel MeshSpec MeshProofs MeshAdj MeshEdits MeshFacts
  FaceModel FaceSpec FlipSpec ConvertModel FlipModel NodeTypeProofs SplitEffect RefineModel RefineSpec RefineProofs RefineSpread RefineSplit.

Definition is_throw {A} (r : outcome A) : Prop := exists x, r = Throw x.

Section Hanging.
  Variable order : list point -> list edge -> nat -> list (option nat) -> list (option nat).
  Notation tree_ok := (recC (restore_leaf order) (commit_leaf order) mesh_le).
  Variables (m : mesh) (f : faces).
  Hypothesis St : in_step m f.
  Hypothesis A6 : at_most_six f.
  Variable br : list (option nat).
  Hypothesis Hb : length br = length (m_edges m).
  Local Notation N := (length (m_nodes m)).
  Local Notation joined := (fun p : nat * nat => neighbour m (fst p) (snd p)).
  Local Notation built := (built order m).

  Section Face.
    Variables (ns es : list nat).
    Definition corners_of (k : nat) : list nat := filter (fun j => negb (with_next br es j)) (seq 0 k).
    Definition side_at (j : nat) : nat * option nat := (item ns (j + 1), if with_previous br es j then Some (item ns j) else None).
    Lemma corners_S k : corners_of (S k) = if with_next br es k then corners_of k else corners_of k ++ [k].
    Proof. unfold corners_of. rewrite seq_S, filter_app. cbn. destruct (with_next br es k); cbn; [now rewrite app_nil_r|reflexivity]. Qed.
    Lemma corners_few k : length (corners_of k) <= k.
    Proof. clear - k. induction k; [cbn; lia|]. rewrite corners_S. destruct (with_next br es k); rewrite ?app_length; cbn; lia. Qed.
    Definition padded {A} (g : nat -> option A) (l : list nat) : list (option A) := map g l ++ repeat None (6 - length l).
    Lemma padded_set {A} (g : nat -> option A) l j x : length l < 6 -> g j = x -> vset (length l) x (padded g l) = Ok (padded g (l ++ [j])).
    Proof.
      intros H <-. unfold padded. rewrite vset_lt by (rewrite app_length, map_length, repeat_length; lia). f_equal. rewrite map_app, app_length. cbn [map length].
      replace (6 - length l) with (S (6 - (length l + 1))) by lia. cbn [repeat]. rewrite <- (map_length g l) at 1. rewrite set_nth_mid, <- app_assoc. reflexivity.
    Qed.
    Lemma padded_skip {A} (g : nat -> option A) l j : length l < 6 -> g j = None -> padded g l = padded g (l ++ [j]).
    Proof.
      intros H G. unfold padded. rewrite map_app, app_length. cbn [map length]. rewrite G. replace (6 - length l) with (S (6 - (length l + 1))) by lia. cbn [repeat]. now rewrite <- app_assoc.
    Qed.
    Hypothesis H3 : 3 <= length ns.
    Hypothesis H6 : length ns <= 6.
    Hypothesis Hd : NoDup ns.
    Hypothesis Hc : cycle_of_edges m ns es.
    Lemma corners_ok m1 : same_up_to m m1 ->
      corners m1 br es (length es) = Ok (padded (fun j => Some (fst (side_at j))) (corners_of (length es)), padded (fun j => snd (side_at j)) (corners_of (length es)), length (corners_of (length es))).
    Proof.
      intros Hm. pose proof (face_length m ns es Hc) as L. unfold corners.
      match goal with |- fold_out ?h _ _ = _ => destruct (fold_range (fun n st => st = (padded (fun j => Some (fst (side_at j))) (corners_of n), padded (fun j => snd (side_at j)) (corners_of n), length (corners_of n)))
        h (length es) (repeat None max_edges_per_face, repeat None max_edges_per_face, 0)) as (r & -> & ->) end; [reflexivity| |reflexivity].
      intros j st Hj ->. rewrite (around_ok es j Hj). cbn [bind]. rewrite (brother_get m ns es br H3 Hc Hb). cbn [bind]. rewrite corners_S. pose proof (corners_few j) as Few.
      fold (with_next br es j). fold (with_previous br es j). destruct (with_next br es j); [eexists; split; reflexivity|].
      rewrite (common_next m ns es H3 Hd Hc m1 j Hm). cbn [bind]. rewrite (padded_set (fun j => Some (fst (side_at j))) (corners_of j) j) by (reflexivity || lia). cbn [bind]. rewrite app_length. cbn [length].
      destruct (with_previous br es j) eqn:W.
      - rewrite (common_previous m ns es H3 Hd Hc m1 j Hm). cbn [bind]. rewrite (padded_set (fun j => snd (side_at j)) (corners_of j) j) by (lia || (cbn; now rewrite W)). cbn [bind]. eexists. split; reflexivity.
      - eexists. split; [reflexivity|]. f_equal. f_equal. apply padded_skip; [lia|]. cbn. now rewrite W.
    Qed.
    Lemma sides_eq : sides br ns es = map side_at (corners_of (length es)).
    Proof. reflexivity. Qed.
    Definition tie_each (l : list (option nat * option nat)) (s : refining) : outcome refining := fold_out (fun s p => tie_idx order s (fst p) (snd p)) l s.
    Lemma bind_same {A} (r : outcome A) : bind r (fun a => Ok a) = r.
    Proof. now destruct r. Qed.

    Lemma quad_links s c0 h0 c1 h1 c2 h2 c3 h3 h : 0 < h ->
      hang_quad order [Some c0; Some c1; Some c2; Some c3; None; None] [h0; h1; h2; h3; None; None] h s =
      tie_each (match find (fun x => present (on_side [(c0, h0); (c1, h1); (c2, h2); (c3, h3)] x)) (seq 0 4) with
                | Some x => links_from [(c0, h0); (c1, h1); (c2, h2); (c3, h3)] h x | None => [] end) s.
    Proof.
      intros Hh. destruct h as [|[|[|h]]]; [inversion Hh| | |]; destruct h0, h1, h2, h3; cbv -[tie bind]; cbn [bind]; try reflexivity;
        repeat (match goal with |- bind ?x _ = bind ?x _ => destruct x; cbn [bind]; try reflexivity | |- ?x = bind ?x _ => destruct x; cbn [bind]; reflexivity end).
    Qed.
    Lemma triangle_links s c0 h0 c1 h1 c2 h2 h : 0 < h ->
      hang_triangle order [Some c0; Some c1; Some c2; None; None; None] [h0; h1; h2; None; None; None] h s =
      tie_each (match find (fun x => present (on_side [(c0, h0); (c1, h1); (c2, h2)] x)) (seq 0 3) with
                | Some x => links_from [(c0, h0); (c1, h1); (c2, h2)] h x | None => [] end) s.
    Proof.
      intros Hh. destruct h as [|[|[|h]]]; [inversion Hh| | |]; destruct h0, h1, h2; cbv -[tie bind]; cbn [bind]; try reflexivity;
        repeat (match goal with |- bind ?x _ = bind ?x _ => destruct x; cbn [bind]; try reflexivity | |- ?x = bind ?x _ => destruct x; cbn [bind]; reflexivity end).
    Qed.
    Lemma links_nodes p a : In p (links br ns es) -> fst p = Some a \/ snd p = Some a -> In a ns.
    Proof.
      pose proof (face_length m ns es Hc) as L. assert (Hne : ns <> []) by (intros Z; rewrite Z in H3; cbn in H3; lia).
      assert (Hs : forall q, In q (sides br ns es) -> In (fst q) ns /\ forall a, snd q = Some a -> In a ns).
      { intros q Hq. rewrite sides_eq in Hq. apply in_map_iff in Hq as (j & <- & _). cbn. split; [now apply item_in|]. intros x Hx. destruct (with_previous br es j); [|discriminate]. injection Hx as <-. now apply item_in. }
      unfold links. destruct (find _ _) as [x|] eqn:F; [|easy]. apply find_some in F as (Fx & _). apply in_seq in Fx.
      assert (Hn : forall y, In (nth (y mod length (sides br ns es)) (sides br ns es) (0, None)) (sides br ns es)) by (intros y; apply nth_In, Nat.mod_upper_bound; lia).
      assert (Hco : forall y, corner (sides br ns es) y = Some a -> In a ns) by (intros y Hy; unfold corner in Hy; injection Hy as <-; apply Hs, Hn).
      assert (Hon : forall y, on_side (sides br ns es) y = Some a -> In a ns) by (intros y Hy; eapply Hs; [apply (Hn y)|exact Hy]).
      unfold links_from. intros Hp Ha.
      repeat (match type of Hp with In _ (if ?b then _ else _) => destruct b end); cbn [In] in Hp;
        repeat (match goal with H : _ \/ _ |- _ => destruct H as [H|H] end); try contradiction; subst p; cbn [fst snd] in Ha; eauto;
        repeat (match goal with H : _ \/ _ |- _ => destruct H as [H|H] end); eauto.
      all: try discriminate.
      all: match type of Ha with (if ?b then _ else _) = _ => destruct b end; eauto.
    Qed.
  End Face.

  Lemma tie_each_ok l : forall new s, built [] new s -> (forall p a, In p l -> fst p = Some a \/ snd p = Some a -> a < N) ->
    ((forall p, In p l -> present (fst p) = true /\ present (snd p) = true) ->
     exists s' inner, tie_each l s = Ok s' /\ thinned joined (flat_map both_known l) inner /\ built [] (new ++ inner) s') /\
    ((exists p, In p l /\ (present (fst p) = false \/ present (snd p) = false)) -> tie_each l s = Throw ConstraintErr).
  Proof.
    unfold tie_each. induction l as [|[oa ob] l IH]; intros new s B Hp; cbn [fold_out].
    - split; [|intros (p & [] & _)]. intros _. exists s, []. rewrite app_nil_r. split; [reflexivity|]. split; [constructor|exact B].
    - cbn [fst snd]. destruct oa as [a|]; [destruct ob as [b|]|]; cbn [tie_idx bind].
      + destruct (tie_ok order m f St [] new s a b B) as (s1 & -> & _ & _ & [(-> & J)|B1]).
        { cbn [length]. rewrite Nat.add_0_r. eapply Hp; [now left|now left]. } { cbn [length]. rewrite Nat.add_0_r. eapply Hp; [now left|now right]. }
        * cbn [bind]. destruct (IH new s B (fun q x Hq => Hp q x (or_intror Hq))) as (I1 & I2). split.
          -- intros K. destruct I1 as (s2 & inner & E2 & T & B2); [intros; apply K; now right|]. exists s2, inner. split; [exact E2|]. split; [|exact B2]. cbn. now constructor.
          -- intros (p & [<-|Hin] & K); [cbn in K; now destruct K|]. apply I2. eauto.
        * cbn [bind]. destruct (IH _ s1 B1 (fun q x Hq => Hp q x (or_intror Hq))) as (I1 & I2). split.
          -- intros K. destruct I1 as (s2 & inner & E2 & T & B2); [intros; apply K; now right|]. exists s2, ((a, b) :: inner). split; [exact E2|]. split; [cbn; now constructor|]. now rewrite <- app_assoc in B2.
          -- intros (p & [<-|Hin] & K); [cbn in K; now destruct K|]. apply I2. eauto.
      + split; [|reflexivity]. intros K. destruct (K _ (or_introl eq_refl)) as (_ & X). discriminate.
      + split; [|reflexivity]. intros K. destruct (K _ (or_introl eq_refl)) as (X & _). discriminate.
  Qed.

  Definition face_links (i : nat) : list (nat * nat) :=
    if length (edges_of f i) =? length (sides br (nodes_of f i) (edges_of f i)) then [] else flat_map both_known (links br (nodes_of f i) (edges_of f i)).
  Lemma hang_face_ok i s new : i < num_faces f -> built [] new s ->
    (connectable br (nodes_of f i) (edges_of f i) -> exists s' inner, hang_face order f br s i = Ok s' /\ thinned joined (face_links i) inner /\ built [] (new ++ inner) s') /\
    (~ connectable br (nodes_of f i) (edges_of f i) -> hang_face order f br s i = Throw StdErr \/ hang_face order f br s i = Throw ConstraintErr).
  Proof.
    intros Hi B. unfold face_links, hang_face. destruct (face_get m f St A6 i Hi) as (ns & es & G1 & G2 & G3 & G4 & G5 & G6 & G7 & G8 & G9 & G10 & G11 & G12). rewrite G3, G4, G6, G7. cbn [bind].
    assert (K6 : (max_edges_per_face <? length es) = false) by (apply Nat.ltb_ge; unfold max_edges_per_face; lia). rewrite K6. destruct G9 as (H3 & H6).
    rewrite (corners_ok ns es H3 H6 G10 G11 (r_mesh s)) by (rewrite (proj1 B); apply grow_same). cbn [bind].
    assert (Ls : length (sides br ns es) = length (corners_of es (length es))) by (rewrite sides_eq; apply map_length).
    assert (Few : length (corners_of es (length es)) <= length es) by apply corners_few.
    assert (Hl : forall p a, In p (links br ns es) -> fst p = Some a \/ snd p = Some a -> a < N).
    { intros p a Hp Ha. pose proof (links_nodes ns es H3 H6 G11 p a Hp Ha) as Hin. specialize (G12 a Hin). unfold valid_at in G12. destruct (nth_error (m_nodes m) a) eqn:Q; [|discriminate]. apply nth_error_Some. congruence. }
    destruct (Nat.eqb_spec (length es - length (corners_of es (length es))) 0) as [Z|Z].
    { assert (Q : length es = length (sides br ns es)) by lia. split.
      - intros _. exists s, []. split; [reflexivity|]. rewrite (proj2 (Nat.eqb_eq _ _) Q), app_nil_r. split; [constructor|exact B].
      - intros Hn. exfalso. apply Hn. split; [now left|]. intros X. now destruct (X Q). }
    assert (Q : length es <> length (sides br ns es)) by lia. rewrite (proj2 (Nat.eqb_neq _ _) Q).
    destruct (tie_each_ok (links br ns es) new s B Hl) as (T1 & T2).
    assert (Main : length (sides br ns es) = 3 \/ length (sides br ns es) = 4 ->
      forall r, r = tie_each (links br ns es) s ->
      (connectable br ns es -> exists s' inner, r = Ok s' /\ thinned joined (flat_map both_known (links br ns es)) inner /\ built [] (new ++ inner) s') /\
      (~ connectable br ns es -> r = Throw StdErr \/ r = Throw ConstraintErr)).
    { intros H34 r ->. split.
      - intros (_ & K). apply T1. now apply K.
      - intros Hn. right. apply T2. destruct (forallb (fun p => present (fst p) && present (snd p)) (links br ns es)) eqn:Fb.
        + exfalso. apply Hn. split; [now right|]. intros _ p Hp. rewrite forallb_forall in Fb. specialize (Fb p Hp). now apply andb_true_iff in Fb.
        + assert (X : exists p, In p (links br ns es) /\ present (fst p) && present (snd p) = false).
          { clear - Fb. induction (links br ns es) as [|p l IH]; [discriminate|]. cbn in Fb. apply andb_false_iff in Fb as [Fb|Fb]; [exists p; split; [now left|exact Fb]|]. destruct (IH Fb) as (q & Hq & Kq). exists q. split; [now right|exact Kq]. }
          destruct X as (p & Hp & Kp). exists p. split; [exact Hp|]. now apply andb_false_iff in Kp. }
    destruct (Nat.eqb_spec (length (corners_of es (length es))) 4) as [L4|L4].
    - apply Main; [lia|]. unfold links. rewrite sides_eq, map_length, L4. unfold padded. rewrite L4. cbn [Nat.sub repeat].
      destruct (corners_of es (length es)) as [|j0 [|j1 [|j2 [|j3 [|]]]]]; try discriminate L4. cbn [map app].
      rewrite (surjective_pairing (side_at ns es j0)), (surjective_pairing (side_at ns es j1)), (surjective_pairing (side_at ns es j2)), (surjective_pairing (side_at ns es j3)). apply quad_links. cbn in Z. lia.
    - destruct (Nat.eqb_spec (length (corners_of es (length es))) 3) as [L3|L3].
      + apply Main; [lia|]. unfold links. rewrite sides_eq, map_length, L3. unfold padded. rewrite L3. cbn [Nat.sub repeat].
        destruct (corners_of es (length es)) as [|j0 [|j1 [|j2 [|]]]]; try discriminate L3. cbn [map app].
        rewrite (surjective_pairing (side_at ns es j0)), (surjective_pairing (side_at ns es j1)), (surjective_pairing (side_at ns es j2)). apply triangle_links. cbn in Z. lia.
      + split; [|now left]. intros ([X|[X|X]] & _); lia.
  Qed.

  Theorem connect_hanging_ok :
    ((forall i, i < num_faces f -> connectable br (nodes_of f i) (edges_of f i)) ->
      exists a inner, let m' := set_edges m (m_edges m ++ map pair_edge inner) in
        connect_hanging order f br m = Ok (a, m') /\ thinned joined (new_links f br) inner /\ tree_ok a m m' /\ consistent m') /\
    (~ (forall i, i < num_faces f -> connectable br (nodes_of f i) (edges_of f i)) ->
      connect_hanging order f br m = Throw StdErr \/ connect_hanging order f br m = Throw ConstraintErr).
  Proof.
    unfold connect_hanging.
    assert (B0 : built [] [] (Refining m [] [] [])).
    { split; [|split; [exact (st_mesh m f St)|constructor; apply MeshUndo.mesh_le_refl]]. unfold grow. cbn. rewrite !app_nil_r. now destruct m. }
    assert (G : forall k i s inner, i + k = num_faces f -> thinned joined (flat_map face_links (seq 0 i)) inner -> built [] inner s ->
      ((forall j, i <= j < num_faces f -> connectable br (nodes_of f j) (edges_of f j)) -> exists s' inner', fold_out (hang_face order f br) (seq i k) s = Ok s' /\ thinned joined (new_links f br) inner' /\ built [] inner' s') /\
      (~ (forall j, i <= j < num_faces f -> connectable br (nodes_of f j) (edges_of f j)) ->
         fold_out (hang_face order f br) (seq i k) s = Throw StdErr \/ fold_out (hang_face order f br) (seq i k) s = Throw ConstraintErr)).
    { induction k as [|k IH]; intros i s inner Hk T B; cbn [seq fold_out].
      - replace i with (num_faces f) in * by lia. split; [intros _; exists s, inner; auto|]. intros H. exfalso. apply H. intros j Hj. lia.
      - destruct (hang_face_ok i s inner ltac:(lia) B) as (F1 & F2).
        assert (D : connectable br (nodes_of f i) (edges_of f i) \/ ~ connectable br (nodes_of f i) (edges_of f i)).
        { unfold connectable. set (l := links br (nodes_of f i) (edges_of f i)). set (x := length (edges_of f i)). set (y := length (sides br (nodes_of f i) (edges_of f i))). clearbody l x y. clear.
          assert (D1 : (x = y \/ y = 3 \/ y = 4) \/ ~ (x = y \/ y = 3 \/ y = 4)) by lia. destruct D1 as [D1|D1]; [|right; tauto].
          assert (D2 : x = y \/ x <> y) by lia. destruct D2 as [D2|D2]; [left; tauto|].
          destruct (forallb (fun p => present (fst p) && present (snd p)) l) eqn:Fb.
          - left. split; [exact D1|]. intros _ p Hp. rewrite forallb_forall in Fb. specialize (Fb p Hp). now apply andb_true_iff in Fb.
          - right. intros (_ & K). specialize (K D2). assert (forallb (fun p => present (fst p) && present (snd p)) l = true); [|congruence]. apply forallb_forall. intros p Hp. destruct (K p Hp) as (-> & ->). reflexivity. }
        destruct D as [D|D].
        + destruct (F1 D) as (s1 & in1 & -> & T1 & B1). cbn [bind]. destruct (IH (S i) s1 (inner ++ in1)) as (I1 & I2); [lia| |exact B1|].
          { rewrite seq_S, flat_map_app. cbn [flat_map Nat.add]. rewrite app_nil_r. now apply thinned_app. }
          split; [intros H; apply I1; intros; apply H; lia|]. intros H. apply I2. intros H'. apply H. intros j Hj. destruct (Nat.eq_dec j i) as [->|]; [exact D|]. apply H'. lia.
        + split; [intros H; exfalso; apply D, H; lia|]. intros _. destruct (F2 D) as [->| ->]; cbn [bind]; auto. }
    destruct (G (num_faces f) 0 _ [] eq_refl (thin_nil _) B0) as (G1 & G2). split.
    - intros H. destruct G1 as (s & inner & -> & T & (B1 & B2 & B3)); [intros; apply H; lia|]. cbn [bind]. eexists. exists inner. cbn zeta.
      assert (X : r_mesh s = set_edges m (m_edges m ++ map pair_edge inner)) by (rewrite B1; unfold grow, set_edges; cbn; now rewrite !app_nil_r). rewrite X in *.
      split; [reflexivity|]. split; [exact T|]. split; [apply recC_comp; exact B3|exact B2].
    - intros H. destruct G2 as [->| ->]; cbn [bind]; auto. intros H'. apply H. intros; apply H'; lia.
  Qed.
End Hanging.

(** *** Mutual brothers *)
Lemma ends_list l n : ends_at l n <-> (fix any (l : list (option nat * option nat)) := match l with [] => False | p :: l => fst p = Some n \/ snd p = Some n \/ any l end) l.
Proof.
  induction l as [|p l IH]; [split; [intros (p & [] & _)|easy]|]. rewrite <- IH. unfold ends_at. split.
  - intros (q & [<-|Hq] & H); [tauto|]. right. right. eauto.
  - intros [H|[H|(q & Hq & H)]]; [exists p; split; [now left|tauto]|exists p; split; [now left|tauto]|exists q; split; [now right|exact H]].
Qed.
Lemma links_complete (s : list (nat * option nat)) h : length s = 3 \/ length s = 4 -> length (filter (fun q => present (snd q)) s) = h -> h = 1 \/ h = 2 ->
  let l := match find (fun x => present (on_side s x)) (seq 0 (length s)) with Some x => links_from s h x | None => [] end in
  (forall p, In p l -> present (fst p) = true /\ present (snd p) = true) /\ (forall n, In (Some n) (map snd s) -> ends_at l n).
Proof.
  intros L C H. assert (F : forall l : list (option nat * option nat), forallb (fun p => present (fst p) && present (snd p)) l = true -> forall p, In p l -> present (fst p) = true /\ present (snd p) = true).
  { intros l Hl p Hp. rewrite forallb_forall in Hl. specialize (Hl p Hp). now apply andb_true_iff in Hl. }
  destruct s as [|[c0 h0] [|[c1 h1] [|[c2 h2] [|[c3 h3] [|? ?]]]]]; cbn [length] in L; try lia; cbn [filter snd] in C.
  - destruct h0, h1, h2; cbn in C; subst h; try lia; (split; [apply F; reflexivity|]); intros x0 [Hn|[Hn|[Hn|[]]]]; cbn in Hn; try discriminate; injection Hn as <-;
      rewrite ends_list; cbv; tauto.
  - destruct h0, h1, h2, h3; cbn in C; subst h; try lia; (split; [apply F; reflexivity|]); intros x0 [Hn|[Hn|[Hn|[Hn|[]]]]]; cbn in Hn; try discriminate; injection Hn as <-;
      rewrite ends_list; cbv; tauto.
Qed.

Lemma wrap_previous br es j : es <> [] -> with_previous br es (j + length es) = with_previous br es j.
Proof.
  intros H. unfold with_previous. rewrite item_wrap. replace (j + length es + length es - 1) with (j + length es - 1 + length es) by (destruct es; [easy|cbn; lia]). now rewrite item_wrap.
Qed.
Lemma count_shift P k n : (forall j, P (j + k) = P j) -> k <= n -> length (filter (fun j => P (j + 1)) (seq 0 k)) = length (filter P (seq 0 k)).
Proof.
  intros HP _. assert (E : forall i, length (filter (fun j => P (j + 1)) (seq i k)) = length (filter P (seq (S i) k))).
  { clear HP. induction k as [|k IH]; intros i; cbn [seq filter]; [reflexivity|]. rewrite Nat.add_1_r. destruct (P (S i)); cbn [length]; now rewrite IH. }
  rewrite E. destruct k as [|k]; [reflexivity|]. rewrite seq_S. cbn [seq filter]. rewrite filter_app, app_length. cbn [filter]. replace (1 + k) with (0 + S k) by lia. rewrite HP. destruct (P 0); cbn [length]; lia.
Qed.
Lemma filter_split {A} (P : A -> bool) l : length (filter P l) + length (filter (fun x => negb (P x)) l) = length l.
Proof. induction l as [|x l IH]; cbn; [reflexivity|]. destruct (P x); cbn; lia. Qed.
Lemma filter_filter_if {A} (P Q : A -> bool) l : (forall x, P x = true -> Q x = true) -> length (filter P (filter Q l)) = length (filter P l).
Proof.
  intros H. induction l as [|x l IH]; cbn; [reflexivity|]. destruct (Q x) eqn:E; cbn; destruct (P x) eqn:E'; cbn; auto. rewrite (H x E') in E. discriminate.
Qed.
Theorem mutual_links m ns es br : 3 <= length ns -> NoDup ns -> cycle_of_edges m ns es -> mutual br es ->
  let s := sides br ns es in
  length (filter (fun q => present (snd q)) s) = length es - length s /\ length s <= length es /\
  (length s = 3 \/ length s = 4 -> length es - length s = 1 \/ length es - length s = 2 ->
   (forall p, In p (links br ns es) -> present (fst p) = true /\ present (snd p) = true) /\
   (forall j, j < length es -> with_previous br es j = true -> ends_at (links br ns es) (item ns j))).
Proof.
  intros H3 Hd Hc Hm s. pose proof (face_length m ns es Hc) as L. assert (Hne : es <> []) by (intros Z; rewrite Z in L; cbn in L; lia).
  assert (Ls : length s = length (corners_of br es (length es))) by apply map_length.
  assert (Few : length s <= length es) by (rewrite Ls; apply corners_few).
  assert (Cnt : length (filter (fun q => present (snd q)) s) = length es - length s).
  { rewrite Ls. unfold s, sides. rewrite filter_map_length.
    rewrite (filter_ext (fun x => present (snd (item ns (x + 1), if with_previous br es x then Some (item ns x) else None))) (with_previous br es)) by (intros x; cbn; now destruct (with_previous br es x)).
    rewrite filter_filter_if by (intros x Hx; destruct (with_next br es x) eqn:W; [destruct (with_both m ns es br H3 Hd Hc x Hx W)|reflexivity]).
    pose proof (filter_split (with_next br es) (seq 0 (length es))) as Sp. rewrite seq_length in Sp.
    rewrite (filter_ext (with_next br es) (fun j => with_previous br es (j + 1)) Hm) in Sp. rewrite (count_shift (with_previous br es) (length es) (length es)) in Sp by (intros; now apply wrap_previous || lia).
    fold (corners_of br es (length es)) in Sp. lia. }
  split; [exact Cnt|]. split; [exact Few|]. intros L34 H12. destruct (links_complete s _ L34 Cnt H12) as (A & B). split; [exact A|]. intros j Hj W. apply B. unfold s, sides. rewrite map_map. apply in_map_iff. exists j.
  cbn. rewrite W. split; [reflexivity|]. apply filter_In. split; [apply in_seq; lia|]. destruct (with_next br es j) eqn:W2; [destruct (with_both m ns es br H3 Hd Hc j W W2)|reflexivity].
Qed.

(** The splitting of the marked edges and faces. *)
From Coq Require Import Permutation.
From Verif Require Import Base BaseLemmas FloatModel UtilModel UndoModel ActionModel ActionSpec ActionProofs MeshModel MeshSpec MeshProofs MeshAdj MeshEdits MeshFacts
  FaceModel FaceSpec FaceUse FlipSpec ConvertModel FlipModel NodeTypeProofs SplitEffect RefineModel RefineSpec RefineProofs RefineSpread.

Lemma thinned_app {A} (P : A -> Prop) a a' b b' : thinned P a a' -> thinned P b b' -> thinned P (a ++ b) (a' ++ b').
Proof. intros H1 H2. induction H1; cbn; [exact H2|constructor; auto|constructor; auto]. Qed.
Lemma fold_out_ext {A B} (g h : A -> B -> outcome A) l a : (forall a b, In b l -> g a b = h a b) -> fold_out g l a = fold_out h l a.
Proof.
  revert a. induction l as [|b l IH]; intros a H; cbn [fold_out]; [reflexivity|]. rewrite (H a b (or_introl eq_refl)). destruct (h a b); cbn [bind]; auto. apply IH. intros; apply H; now right.
Qed.
Lemma fold_out_map {A B C} (g : A -> C -> outcome A) (k : B -> C) l a : fold_out (fun a b => g a (k b)) l a = fold_out g (map k l) a.
Proof. revert a. induction l as [|b l IH]; intros a; cbn [fold_out map]; [reflexivity|]. destruct (g a (k b)); cbn [bind]; auto. Qed.
Lemma repeat_snoc {A} (x : A) n : repeat x (n + 1) = repeat x n ++ [x].
Proof. rewrite repeat_app. reflexivity. Qed.

Section Splitting.
  Variable order : list point -> list edge -> nat -> list (option nat) -> list (option nat).
  Variable centre : mesh -> faces -> nat -> point.
  Notation tree_ok := (recC (restore_leaf order) (commit_leaf order) mesh_le).
  Notation list_ok := (recC_all (restore_leaf order) (commit_leaf order) mesh_le).

  Variables (m : mesh) (f : faces).
  Hypothesis St : in_step m f.
  Local Notation N := (length (m_nodes m)).
  Local Notation E := (length (m_edges m)).
  Local Notation joined := (fun p : nat * nat => neighbour m (fst p) (snd p)).

  Definition built (ps : list point) (new : list (nat * nat)) (s : refining) : Prop :=
    r_mesh s = grow m ps new /\ consistent (r_mesh s) /\ list_ok (r_acts s) m (r_mesh s).

  Lemma place_ok ps new s p : built ps new s -> exists s', place order s p = Ok (N + length ps, s') /\ built (ps ++ [p]) new s' /\ r_nodes s' = r_nodes s /\ r_edges s' = r_edges s.
  Proof.
    intros (B1 & B2 & B3). unfold place. destruct (insert_node_table order (r_mesh s) p B2) as (m' & Em & Ei & T & C). rewrite Ei. cbn [bind compound_add act_state leaf].
    assert (Ln : length (m_nodes (r_mesh s)) = N + length ps) by (rewrite B1; cbn; now rewrite app_length). rewrite Ln in *.
    eexists. split; [reflexivity|]. split; [|split; reflexivity]. split; [|split; [exact C|eapply list_snoc; eauto]]. cbn [r_mesh]. rewrite Em, B1. unfold grow. cbn.
    rewrite app_length. cbn. rewrite !repeat_snoc, !app_assoc. reflexivity.
  Qed.
  Lemma tie_ok ps new s a b : built ps new s -> a < N + length ps -> b < N + length ps ->
    exists s', tie order s a b = Ok s' /\ r_nodes s' = r_nodes s /\ r_edges s' = r_edges s /\ ((s' = s /\ neighbour m a b) \/ built ps (new ++ [(a, b)]) s').
  Proof.
    intros (B1 & B2 & B3) Ha Hb. unfold tie. assert (Ln : length (m_nodes (r_mesh s)) = N + length ps) by (rewrite B1; cbn; now rewrite app_length).
    destruct (connect_nodes_ok order (r_mesh s) a b B2) as [H|(m' & H & Em & T & C)]; [lia|lia| |].
    - rewrite H. cbn [bind]. exists s. split; [reflexivity|]. split; [reflexivity|]. split; [reflexivity|]. left. split; [reflexivity|]. unfold connect_nodes in H.
      destruct (find_edge_ok (r_mesh s) a b B2 ltac:(lia)) as (r & Hr & Hs). rewrite Hr in H. cbn [bind] in H. destruct r as [e|]; [|apply bind_ok_inv in H as ([x y] & _ & H); discriminate].
      destruct Hs as (H1 & H2 & H3). pose proof (st_mesh m f St) as Hc. pose proof (co_counts m Hc) as L1. pose proof (co_rows m Hc) as L2.
      destruct (Nat.lt_ge_cases a N) as [A|A].
      + assert (Hin : In (Some e) (row_of m a)).
        { replace (row_of m a) with (row_of (r_mesh s) a) by (rewrite B1; unfold row_of; cbn; rewrite app_nth1 by lia; reflexivity). eapply In_firstn; eauto. }
        destruct (st_row m f St a A) as (_ & _ & Hr2). destruct (Hr2 _ Hin) as (e' & o & X & He & J & _). injection X as <-.
        assert (G : MeshUndo.ge (r_mesh s) e = MeshUndo.ge m e) by (rewrite B1; unfold MeshUndo.ge; cbn; rewrite app_nth1 by lia; reflexivity). rewrite G in H3.
        exists e. split; [exact He|]. unfold edge_at in *. change (MeshUndo.ge m e) with (nth e (m_edges m) missing_edge) in H3.
        assert (o = b) by (unfold other_node in H3; destruct J as [J|J]; rewrite J in H3; cbn in H3;
          [rewrite Nat.eqb_refl in H3|destruct (Nat.eqb_spec o a); [subst; rewrite ?Nat.eqb_refl in H3|]]; cbn in H3; congruence). subst o. exact J.
      + assert (Z : row_of (r_mesh s) a = []) by (rewrite B1; unfold row_of; cbn; rewrite app_nth2 by lia; apply nth_repeat). rewrite Z, firstn_nil in H1. easy.
    - rewrite H. cbn [bind compound_add act_state leaf]. eexists. split; [reflexivity|]. split; [reflexivity|]. split; [reflexivity|]. right. split; [|split; [exact C|eapply list_snoc; eauto]].
      cbn [r_mesh]. rewrite Em, B1. unfold grow, set_edges. cbn. rewrite map_app, app_assoc. reflexivity.
  Qed.
  Lemma ties_ok ps pairs : forall new s, built ps new s -> (forall p, In p pairs -> fst p < N + length ps /\ snd p < N + length ps) ->
    exists s' inner, fold_out (fun s p => tie order s (fst p) (snd p)) pairs s = Ok s' /\ thinned joined pairs inner /\ built ps (new ++ inner) s' /\ r_nodes s' = r_nodes s /\ r_edges s' = r_edges s.
  Proof.
    induction pairs as [|p pairs IH]; intros new s B Hp; cbn [fold_out].
    - exists s, []. split; [reflexivity|]. split; [constructor|]. rewrite app_nil_r. auto.
    - destruct (Hp p (or_introl eq_refl)) as (P1 & P2). destruct (tie_ok ps new s (fst p) (snd p) B P1 P2) as (s1 & -> & R1 & R2 & [(-> & J)|B1]); cbn [bind].
      + destruct (IH new s B (fun q Hq => Hp q (or_intror Hq))) as (s2 & inner & E2 & T & B2 & Q1 & Q2). exists s2, inner. split; [exact E2|]. split; [constructor; [exact J|exact T]|]. auto.
      + destruct (IH _ s1 B1 (fun q Hq => Hp q (or_intror Hq))) as (s2 & inner & E2 & T & B2 & Q1 & Q2). exists s2, (p :: inner). split; [exact E2|]. split; [constructor; exact T|].
        rewrite <- app_assoc in B2. destruct p. split; [exact B2|]. split; congruence.
  Qed.

  Lemma grow_edge ps new e : e < E -> edge_at (grow m ps new) e = edge_at m e.
  Proof. intros H. unfold edge_at. cbn. now apply app_nth1. Qed.
  Lemma grow_same ps new : same_up_to m (grow m ps new).
  Proof. split; [cbn; rewrite app_length; apply Nat.le_add_r|intros e He; now apply grow_edge]. Qed.
  Lemma grow_get ps new e : e < E -> vget (m_edges (grow m ps new)) e = Ok (edge_at m e).
  Proof. intros H. apply vget_ok. cbn. rewrite nth_error_app1 by exact H. unfold edge_at. now apply nth_error_nth'. Qed.
  Lemma grow_node ps new a : a < N -> node_of (grow m ps new) (Some a) = Ok (nth a (m_nodes m) missing_point).
  Proof. intros H. unfold node_of. cbn. rewrite nth_error_app1 by exact H. now rewrite (nth_error_nth' _ missing_point H). Qed.

  Variables em nm fm : list Z.
  Variable br : list (option nat).
  Hypothesis Lem : length em = E.
  Hypothesis Lnm : length nm = N.
  Hypothesis Lfm : length fm = num_faces f.
  Hypothesis Lbr : length br = E.
  Hypothesis A6 : at_most_six f.
  Hypothesis Hem : forall e, marked em e = true -> exists a b, edge_at m e = (Some a, Some b).

  (** *** The nodes in the middle of the edges *)
  Definition chosen (j : nat) : list nat := filter (marked em) (seq 0 j).
  Lemma chosen_S j : chosen (S j) = if marked em j then chosen j ++ [j] else chosen j.
  Proof. unfold chosen. rewrite seq_S, filter_app. cbn. destruct (marked em j); [reflexivity|now rewrite app_nil_r]. Qed.
  Lemma chosen_all : chosen E = marked_edges em.
  Proof. unfold chosen, marked_edges. now rewrite Lem. Qed.
  Lemma ends_of e a b : e < E -> edge_at m e = (Some a, Some b) -> a < N /\ b < N.
  Proof.
    intros He Ee. pose proof (co_ends m (st_mesh m f St)) as W. split; apply (W (edge_at m e)); try (unfold edge_at; apply nth_In; exact He); rewrite Ee; [left|right]; reflexivity.
  Qed.
  Definition middles (j : nat) (s : refining) : Prop :=
    built (map (middle_point m) (chosen j)) [] s /\ length (r_edges s) = E /\
    (forall e, value (r_edges s) e = if (e <? j) && marked em e then Z.of_nat (mid m em e) else value em e) /\
    r_nodes s = nm ++ map (middle_mask m nm) (chosen j).
  Lemma place_middle_ok j s : j < E -> middles j s -> exists s', place_middle order s j = Ok s' /\ middles (S j) s'.
  Proof.
    intros Hj (B & L & V & M). unfold place_middle. rewrite value_get by lia. cbn [bind]. rewrite V.
    assert (X : (j <? j) && marked em j = false) by (rewrite Nat.ltb_irrefl; reflexivity). rewrite X. clear X.
    assert (Same : forall e, e <> j -> (e <? S j) = (e <? j)) by (intros e He; destruct (Nat.ltb_spec e (S j)), (Nat.ltb_spec e j); lia || reflexivity).
    destruct (value em j =? 0)%Z eqn:V0.
    - exists s. split; [reflexivity|]. unfold middles. rewrite chosen_S. assert (Mj : marked em j = false) by (unfold marked; now rewrite V0). rewrite Mj. split; [exact B|]. split; [exact L|]. split; [|exact M].
      intros e. rewrite V. destruct (Nat.eq_dec e j) as [->|He]; [rewrite Mj, !andb_false_r; reflexivity|now rewrite Same].
    - assert (Mj : marked em j = true) by (unfold marked; now rewrite V0). destruct (Hem j Mj) as (a & b & Ee). destruct (ends_of j a b Hj Ee) as (Ha & Hb).
      pose proof (proj1 B) as B1. rewrite B1. rewrite grow_get by exact Hj. cbn [bind]. rewrite Ee. cbn [fst snd]. rewrite !grow_node by assumption. cbn [bind].
      destruct (place_ok _ _ _ (middle_of (nth a (m_nodes m) missing_point) (nth b (m_nodes m) missing_point)) B) as (s1 & -> & B' & R1 & R2). cbn [bind].
      rewrite R2, vset_lt by lia. cbn [bind]. rewrite R1, M. cbn [vget_idx].
      assert (G : forall n, n < N -> vget ((nm ++ map (middle_mask m nm) (chosen j)) ++ [1%Z]) n = Ok (value nm n)).
      { intros n Hn. apply vget_ok. rewrite <- app_assoc, nth_error_app1 by lia. unfold value. apply nth_error_nth'. lia. }
      rewrite !G by assumption. cbn [bind].
      assert (Len : N + length (map (middle_point m) (chosen j)) = length (nm ++ map (middle_mask m nm) (chosen j))) by (rewrite app_length, !map_length, Lnm; reflexivity).
      rewrite Len, vset_snoc. cbn [bind]. eexists. split; [reflexivity|].
      assert (Mid : N + length (map (middle_point m) (chosen j)) = mid m em j) by (rewrite map_length; reflexivity).
      unfold middles. cbn [r_mesh r_acts r_nodes r_edges]. rewrite chosen_S, Mj, !map_app. cbn [map]. split; [|split; [|split]].
      + assert (P : middle_point m j = middle_of (nth a (m_nodes m) missing_point) (nth b (m_nodes m) missing_point)) by (unfold middle_point; rewrite Ee; reflexivity). rewrite P. exact B'.
      + now rewrite set_nth_length.
      + intros e. rewrite value_set by lia. destruct (Nat.eqb_spec e j) as [->|He].
        * assert (Y : (j <? S j) = true) by (apply Nat.ltb_lt; lia). rewrite Y, Mj. cbn [andb]. now rewrite <- Len, Mid.
        * rewrite V, Same by exact He. reflexivity.
      + rewrite <- !app_assoc. do 2 f_equal. unfold middle_mask. rewrite Ee.
        destruct (value nm a =? 0)%Z eqn:A0, (value nm b =? 0)%Z eqn:B0, (value nm a =? 1)%Z eqn:A1, (value nm b =? 1)%Z eqn:B1'; reflexivity.
  Qed.
  Lemma middles_ok : exists s, fold_out (place_middle order) (seq 0 E) (Refining m [] nm em) = Ok s /\ middles E s.
  Proof.
    apply fold_range.
    - unfold middles, chosen, built, grow. cbn. rewrite !app_nil_r. split; [|split; [exact Lem|split; [reflexivity|reflexivity]]].
      split; [destruct m; reflexivity|]. split; [exact (st_mesh m f St)|constructor]. apply MeshUndo.mesh_le_refl.
    - intros j s Hj H. now apply place_middle_ok.
  Qed.

  (** *** The points on the sides of a face *)
  Definition settled_masks (em1 : list Z) : Prop := length em1 = E /\ forall e, e < E -> value em1 e = if marked em e then Z.of_nat (mid m em e) else 0%Z.
  Lemma middles_masks s : middles E s -> settled_masks (r_edges s).
  Proof.
    intros (_ & L & V & _). split; [exact L|]. intros e He. rewrite V. destruct (Nat.ltb_spec e E); [|lia]. cbn [andb]. unfold marked. destruct (Z.eqb_spec (value em e) 0) as [->|]; reflexivity.
  Qed.
  Lemma has_nodes e : marked em e = true -> 0 < N.
  Proof. intros H. destruct (Hem e H) as (a & b & Ee). destruct (ends_of e a b) as (Ha & _); [rewrite <- Lem; now apply marked_in|exact Ee|lia]. Qed.
  Lemma side_points_ok i m1 em1 : i < num_faces f -> same_up_to m m1 -> settled_masks em1 ->
    let q := side_nodes m br em (nodes_of f i) (edges_of f i) in
    side_points m1 br em1 (edges_of f i) (length (edges_of f i)) = Ok (if 6 <=? length q then None else Some q).
  Proof.
    intros Hi Hm (L1 & V1) q. destruct (face_get m f St A6 i Hi) as (ns & es & G1 & G2 & G3 & G4 & G5 & G6 & G7 & G8 & G9 & G10 & G11 & G12). unfold q. rewrite G3, G4. clear q.
    assert (Hit : forall j, item es j < E) by (intros j; apply (face_edge m ns es (proj1 G9) G11)).
    unfold side_nodes, side_points. set (g := fun j : nat => if with_next br es j then [item ns (j + 1)] else if negb (with_previous br es j) && marked em (item es j) then [mid m em (item es j)] else []).
    match goal with |- fold_out ?h _ _ = _ => destruct (fold_range (fun n acc => acc = if 6 <=? length (flat_map g (seq 0 n)) then None else Some (flat_map g (seq 0 n))) h (length es) (Some [])) as (r & -> & ->) end; [reflexivity| |reflexivity].
    intros j acc Hj ->. assert (F : flat_map g (seq 0 (S j)) = flat_map g (seq 0 j) ++ g j) by (rewrite seq_S, flat_map_app; cbn; now rewrite app_nil_r). rewrite F.
    destruct (Nat.leb_spec 6 (length (flat_map g (seq 0 j)))) as [X|X].
    { eexists. split; [reflexivity|]. rewrite app_length. destruct (Nat.leb_spec 6 (length (flat_map g (seq 0 j)) + length (g j))); [reflexivity|lia]. }
    rewrite (around_ok es j Hj). cbn [bind]. rewrite (brother_get m ns es br (proj1 G9) G11 Lbr). cbn [bind].
    fold (with_next br es j). fold (with_previous br es j).
    assert (Gj : g j = if with_next br es j then [item ns (j + 1)] else if negb (with_previous br es j) && marked em (item es j) then [mid m em (item es j)] else []) by reflexivity.
    rewrite Gj. clearbody g. clear F Gj.
    destruct (with_next br es j).
    - rewrite (common_next m ns es (proj1 G9) G10 G11 m1 j Hm). cbn [bind]. eexists. split; reflexivity.
    - destruct (negb (with_previous br es j)); cbn [andb].
      + rewrite value_get by (rewrite L1; apply Hit). cbn [bind]. rewrite V1 by apply Hit. destruct (marked em (item es j)) eqn:M.
        * assert (0 < N) by (eapply has_nodes; eauto). destruct (Z.eqb_spec (Z.of_nat (mid m em (item es j))) 0) as [Q|_]; [unfold mid in Q; lia|]. rewrite Nat2Z.id. eexists. split; reflexivity.
        * cbn. eexists. split; [reflexivity|]. now rewrite !app_nil_r.
      + cbn [bind]. eexists. split; [reflexivity|]. now rewrite !app_nil_r.
  Qed.

  Lemma mid_bound e : marked em e = true -> N <= mid m em e < N + length (marked_edges em).
  Proof.
    intros H. pose proof (marked_in em e H) as He. unfold mid, marked_edges. split; [lia|].
    replace (length em) with (e + (length em - e)) by lia. rewrite seq_app, filter_app, app_length. replace (length em - e) with (S (length em - e - 1)) by lia. cbn [Nat.add seq filter]. rewrite H. cbn. lia.
  Qed.
  Lemma side_nodes_bound i x : i < num_faces f -> In x (side_nodes m br em (nodes_of f i) (edges_of f i)) -> x < N + length (marked_edges em).
  Proof.
    intros Hi Hx. destruct (face_get m f St A6 i Hi) as (ns & es & G1 & G2 & G3 & G4 & G5 & G6 & G7 & G8 & G9 & G10 & G11 & G12). rewrite G3, G4 in Hx. unfold side_nodes in Hx. apply in_flat_map in Hx as (j & Hj & Hx).
    destruct (with_next br es j).
    - destruct Hx as [<-|[]]. assert (V : valid_at (m_nodes m) (item ns (j + 1)) = true) by (apply G12, item_in; intros Z; rewrite Z in G9; cbn in G9; lia).
      unfold valid_at in V. destruct (nth_error (m_nodes m) (item ns (j + 1))) eqn:Q; [|discriminate]. assert (item ns (j + 1) < N) by (apply nth_error_Some; congruence). lia.
    - destruct (negb _ && marked em (item es j)) eqn:M; [|easy]. destruct Hx as [<-|[]]. apply andb_true_iff in M as (_ & M). apply mid_bound. exact M.
  Qed.

  (** *** The edges inside the faces *)
  Definition centres (i : nat) : list nat := filter (gets_centre m f br fm em) (seq 0 i).
  Definition pairs_of (i : nat) : list (nat * nat) :=
    if marked fm i then inside (length (nodes_of f i)) (centre_node m f br fm em i) (side_nodes m br em (nodes_of f i) (edges_of f i)) else [].
  Definition points (i : nat) : list point := map (middle_point m) (marked_edges em) ++ map (centre m f) (centres i).
  Lemma centres_S i : centres (S i) = if gets_centre m f br fm em i then centres i ++ [i] else centres i.
  Proof. unfold centres. rewrite seq_S, filter_app. cbn. destruct (gets_centre m f br fm em i); [reflexivity|now rewrite app_nil_r]. Qed.
  Lemma points_length i : N + length (points i) = centre_node m f br fm em i.
  Proof. unfold points, centre_node. rewrite app_length, !map_length. unfold centres. lia. Qed.
  Definition inners (em1 : list Z) (i : nat) (s : refining) : Prop :=
    exists inner, thinned joined (flat_map pairs_of (seq 0 i)) inner /\ built (points i) inner s /\ r_edges s = em1 /\
    r_nodes s = nm ++ map (middle_mask m nm) (marked_edges em) ++ map (centre_mask f nm) (centres i).
  (** What holds if the function stops early. *)
  Definition stopped (s : refining) : Prop := exists ps new, built ps new s /\ length (r_nodes s) = N + length ps.
  Lemma inners_stopped em1 i s : inners em1 i s -> stopped s.
  Proof.
    intros (inner & _ & B & _ & M). exists (points i), inner. split; [exact B|]. rewrite M, !app_length, !map_length, Lnm. unfold points. rewrite app_length, !map_length. reflexivity.
  Qed.

  Lemma inside_ok ps new s p q crossed k : built ps new s -> length (r_nodes s) = N + length ps -> (forall x, In x q -> x < N + length ps) ->
    exists s' inner, split_inside order p k crossed q s = Ok s' /\ thinned joined (inside k (N + length ps) q) inner /\
      built (if has_centre k q then ps ++ [p] else ps) (new ++ inner) s' /\ r_edges s' = r_edges s /\
      r_nodes s' = (if has_centre k q then r_nodes s ++ [if crossed then (-1)%Z else 1%Z] else r_nodes s).
  Proof.
    intros B Ln Hq. unfold split_inside, inside, has_centre. destruct (Nat.leb_spec 4 k) as [K|K].
    - assert (K' : (k <? 4) = false) by (apply Nat.ltb_ge; lia). rewrite K'. cbn [andb]. destruct (Nat.ltb_spec 2 (length q)) as [Q|Q].
      + destruct (place_ok ps new s p B) as (s1 & -> & B1 & R1 & R2). cbn [bind]. assert (FM : fold_out (fun s x => tie order s x (N + length ps)) q s1 = fold_out (fun s p => tie order s (fst p) (snd p)) (map (fun x => (x, N + length ps)) q) s1)
          by exact (fold_out_map (fun s p => tie order s (fst p) (snd p)) (fun x => (x, N + length ps)) q s1). rewrite FM. clear FM.
        destruct (ties_ok (ps ++ [p]) (map (fun x => (x, N + length ps)) q) new s1 B1) as (s2 & inner & -> & T & B2 & Q1 & Q2).
        { intros x Hx. apply in_map_iff in Hx as (y & <- & Hy). cbn. rewrite app_length. cbn. specialize (Hq y Hy). lia. }
        cbn [bind]. rewrite Q1, R1, <- Ln. destruct crossed.
        * rewrite vset_snoc. cbn [bind]. eexists. exists inner. split; [reflexivity|]. rewrite Ln. split; [exact T|]. split; [exact B2|]. split; [cbn; congruence|reflexivity].
        * cbn [bind]. eexists. exists inner. split; [reflexivity|]. rewrite Ln. split; [exact T|]. split; [exact B2|]. split; [cbn; congruence|reflexivity].
      + destruct (Nat.eqb_spec (length q) 2) as [Q2|Q2].
        * destruct q as [|a [|b [|c q]]]; try discriminate. cbn [vget nth_error bind]. change (item [a; b] 0) with a. change (item [a; b] 1) with b.
          destruct (ties_ok ps [(a, b)] new s B) as (s2 & inner & H & T & B2 & Q1 & Q3). { intros x [<-|[]]. cbn. split; apply Hq; cbn; auto. }
          cbn [fold_out fst snd] in H. destruct (tie order s a b) as [s3| |]; cbn in H; try discriminate. injection H as ->. exists s2, inner. cbn [vget nth_error bind]. auto.
        * exists s, []. split; [reflexivity|]. split; [constructor|]. rewrite app_nil_r. auto.
    - assert (K' : (k <? 4) = true) by (apply Nat.ltb_lt; lia). rewrite K'. cbn [andb].
      set (g := fun s j => tie order s (item q j) (item q (j + 1))).
      rewrite (fold_out_ext _ g).
      + assert (FM : fold_out g (seq 0 (length q)) s = fold_out (fun s p => tie order s (fst p) (snd p)) (map (fun j => (item q j, item q (j + 1))) (seq 0 (length q))) s)
          by exact (fold_out_map (fun s p => tie order s (fst p) (snd p)) (fun j => (item q j, item q (j + 1))) (seq 0 (length q)) s). rewrite FM. clear FM.
        destruct (ties_ok ps (map (fun j => (item q j, item q (j + 1))) (seq 0 (length q))) new s B) as (s2 & inner & -> & T & B2 & Q1 & Q2).
        { intros x Hx. apply in_map_iff in Hx as (j & <- & Hj). apply in_seq in Hj. assert (q <> []) by (destruct q; [cbn in Hj; lia|discriminate]). cbn. split; apply Hq, item_in; assumption. }
        exists s2, inner. auto.
      + intros s0 j Hj. apply in_seq in Hj. assert (j < length q) by lia. rewrite next_forward_ok by assumption. cbn [bind]. unfold g.
        assert (V : forall x, vget q (x mod length q) = Ok (item q x)). { intros x. apply vget_ok. unfold item. apply nth_error_nth'. apply Nat.mod_upper_bound. lia. }
        pose proof (V j) as Vj. rewrite Nat.mod_small in Vj by assumption. rewrite Vj, V. reflexivity.
  Qed.

  Definition too_many (i : nat) : Prop := marked fm i = true /\ 6 <= length (side_nodes m br em (nodes_of f i) (edges_of f i)).
  Lemma split_face_ok em1 i s : settled_masks em1 -> i < num_faces f -> inners em1 i s ->
    exists s', (split_face order centre m f br fm s i = Ok (false, s') /\ inners em1 (S i) s') \/ (split_face order centre m f br fm s i = Ok (true, s') /\ too_many i /\ inners em1 i s').
  Proof.
    intros He Hi I. pose proof I as (inner & T & B & R1 & R2). unfold split_face. rewrite value_get by lia. cbn [bind].
    assert (S1 : flat_map pairs_of (seq 0 (S i)) = flat_map pairs_of (seq 0 i) ++ pairs_of i) by (rewrite seq_S, flat_map_app; cbn; now rewrite app_nil_r).
    destruct (value fm i =? 0)%Z eqn:V0.
    - exists s. left. split; [reflexivity|]. assert (M : marked fm i = false) by (unfold marked; now rewrite V0). exists inner. rewrite S1. unfold pairs_of at 2. rewrite M, app_nil_r.
      unfold points. rewrite centres_S. unfold gets_centre. rewrite M. cbn [andb]. auto.
    - assert (M : marked fm i = true) by (unfold marked; now rewrite V0).
      destruct (face_get m f St A6 i Hi) as (ns & es & G1 & G2 & G3 & G4 & G5 & G6 & G7 & G8 & G9 & G10 & G11 & G12). rewrite G5, G6, G7. cbn [bind]. rewrite G8, firstn_all.
      assert (Hns : forall n, In n ns -> n < N).
      { intros n Hn. specialize (G12 n Hn). unfold valid_at in G12. destruct (nth_error (m_nodes m) n) eqn:Q; [|discriminate]. apply nth_error_Some. congruence. }
      rewrite (read_all_ok (r_nodes s) 0%Z ns) by (intros n Hn; rewrite R2, app_length, Lnm; specialize (Hns n Hn); lia). cbn [bind].
      pose proof (side_points_ok i (r_mesh s) em1 Hi) as SP. cbn zeta in SP. rewrite G3, G4, G8 in SP. rewrite R1, SP; [|rewrite (proj1 B); apply grow_same|exact He]. cbn [bind]. clear SP.
      destruct (Nat.leb_spec 6 (length (side_nodes m br em ns es))) as [Q|Q].
      + exists s. right. split; [reflexivity|]. split; [|exact I]. split; [exact M|]. now rewrite G3, G4.
      + set (q := side_nodes m br em ns es) in *.
        destruct (inside_ok (points i) inner s (centre m f i) q (existsb (fun v => negb (v =? 1)%Z) (map (fun i0 => nth i0 (r_nodes s) 0%Z) ns)) (length ns) B) as (s' & inner' & -> & T' & B' & Q1 & Q2).
        { rewrite R2, !app_length, !map_length, Lnm. unfold points. rewrite app_length, !map_length. reflexivity. }
        { intros x Hx. pose proof (side_nodes_bound i x Hi) as Y. rewrite G3, G4 in Y. specialize (Y Hx). unfold points. rewrite app_length, !map_length. lia. }
        cbn [bind]. exists s'. left. split; [reflexivity|]. exists (inner ++ inner'). rewrite S1.
        assert (P : pairs_of i = inside (length ns) (N + length (points i)) q) by (unfold pairs_of; rewrite M, G3, G4, points_length; reflexivity).
        assert (GC : gets_centre m f br fm em i = has_centre (length ns) q) by (unfold gets_centre; rewrite M, G3, G4; reflexivity).
        assert (CM : (if existsb (fun v => negb (v =? 1)%Z) (map (fun i0 => nth i0 (r_nodes s) 0%Z) ns) then (-1)%Z else 1%Z) = centre_mask f nm i).
        { unfold centre_mask. rewrite G3. assert (X : existsb (fun v => negb (v =? 1)%Z) (map (fun i0 => nth i0 (r_nodes s) 0%Z) ns) = negb (forallb (fun n => (value nm n =? 1)%Z) ns)).
          { clear - Hns R2 Lnm. induction ns as [|n ns IH]; [reflexivity|]. cbn [map existsb forallb]. rewrite IH by (intros; apply Hns; now right). rewrite negb_andb. f_equal. f_equal. f_equal.
            rewrite R2, app_nth1; [reflexivity|]. rewrite Lnm. apply Hns. now left. }
          rewrite X. destruct (forallb _ ns); reflexivity. }
        split; [apply thinned_app; [exact T|rewrite P; exact T']|]. split; [|split; [congruence|]].
        * replace (points (S i)) with (if has_centre (length ns) q then points i ++ [centre m f i] else points i); [exact B'|].
          unfold points. rewrite centres_S, GC. destruct (has_centre (length ns) q); [|reflexivity]. now rewrite map_app, app_assoc.
        * rewrite Q2, CM, R2, centres_S, GC. destruct (has_centre (length ns) q); [|reflexivity]. now rewrite map_app, !app_assoc.
  Qed.
  Lemma split_faces_ok em1 : settled_masks em1 -> forall n i s, i + n = num_faces f -> inners em1 i s ->
    exists s', (split_faces order centre m f br fm (seq i n) s = Ok (false, s') /\ inners em1 (num_faces f) s') \/
      (split_faces order centre m f br fm (seq i n) s = Ok (true, s') /\ (exists j, j < num_faces f /\ too_many j) /\ stopped s').
  Proof.
    intros He. induction n as [|n IH]; intros i s Hn I; cbn [seq split_faces].
    - exists s. left. split; [reflexivity|]. now replace (num_faces f) with i by lia.
    - destruct (split_face_ok em1 i s He ltac:(lia) I) as (s1 & [(-> & I1)|(-> & TM & I1)]); cbn [bind].
      + apply IH; [lia|exact I1].
      + exists s1. right. split; [reflexivity|]. split; [exists i; split; [lia|exact TM]|]. eapply inners_stopped; eauto.
  Qed.

  (** *** The edges cut in two *)
  Section Halves.
    Variables (ps : list point) (inner : list (nat * nat)) (em1 : list Z).
    Hypothesis Hps : length (marked_edges em) <= length ps.
    Hypothesis He1 : settled_masks em1.
    Definition halves (j : nat) (s : refining) : Prop :=
      r_mesh s = set_edges (grow m ps inner) (map (first_half m em) (seq 0 j) ++ skipn j (m_edges m) ++ map pair_edge inner ++ map (second_half m em) (chosen j)) /\
      consistent (r_mesh s) /\ list_ok (r_acts s) m (r_mesh s) /\ r_edges s = em1.
    Lemma skipn_next {A} (d : A) l j : j < length l -> skipn j l = nth j l d :: skipn (S j) l.
    Proof. revert j. induction l as [|x l IH]; intros [|j] H; cbn in *; try lia; [reflexivity|]. apply IH. lia. Qed.
    Lemma set_nth_mid {A} (x y : A) a b : set_nth (length a) x (a ++ y :: b) = a ++ x :: b.
    Proof. induction a; cbn; congruence. Qed.
    Lemma halve_ok j s : j < E -> halves j s -> exists s', halve order s j = Ok s' /\ halves (S j) s' /\ r_nodes s' = r_nodes s.
    Proof.
      intros Hj (M1 & C & L & R). unfold halve. rewrite R. rewrite value_get by (rewrite (proj1 He1); exact Hj). cbn [bind]. rewrite (proj2 He1) by exact Hj.
      assert (Sk : skipn j (m_edges m) = edge_at m j :: skipn (S j) (m_edges m)) by (apply skipn_next; exact Hj).
      assert (Lf : length (map (first_half m em) (seq 0 j)) = j) by (rewrite map_length, seq_length; reflexivity).
      assert (Fs : map (first_half m em) (seq 0 (S j)) = map (first_half m em) (seq 0 j) ++ [first_half m em j]) by (rewrite seq_S, map_app; reflexivity).
      destruct (marked em j) eqn:Mj.
      - pose proof (has_nodes j Mj) as N0. pose proof (mid_bound j Mj) as Mb. destruct (Z.ltb_spec 0 (Z.of_nat (mid m em j))) as [_|X]; [|lia]. rewrite Nat2Z.id.
        destruct (Hem j Mj) as (a & b & Ee). destruct (ends_of j a b Hj Ee) as (Ha & Hb).
        set (A := map (first_half m em) (seq 0 j)) in *. set (B := skipn (S j) (m_edges m) ++ map pair_edge inner ++ map (second_half m em) (chosen j)).
        assert (Ed : m_edges (r_mesh s) = A ++ edge_at m j :: B) by (rewrite M1; cbn [set_edges m_edges]; rewrite Sk; reflexivity).
        assert (Nd : length (m_nodes (r_mesh s)) = N + length ps) by (rewrite M1; cbn; now rewrite app_length).
        assert (Gj : vget (m_edges (r_mesh s)) j = Ok (edge_at m j)). { apply vget_ok. rewrite Ed, nth_error_app2 by lia. rewrite Lf, Nat.sub_diag. reflexivity. }
        rewrite Gj. cbn [bind]. rewrite Ee. cbn [snd].
        destruct (connect_nodes_ok order (r_mesh s) (mid m em j) b C) as [H|(m' & -> & Em & T & C')]; [lia|lia| |].
        + exfalso. unfold connect_nodes in H. destruct (find_edge_ok (r_mesh s) (mid m em j) b C ltac:(lia)) as (r & Hr & Hs). rewrite Hr in H. cbn [bind] in H.
          destruct r as [e|]; [|apply bind_ok_inv in H as ([x y] & _ & H); discriminate]. destruct Hs as (H1 & _). pose proof (co_rows m (st_mesh m f St)) as L2.
          assert (Z : row_of (r_mesh s) (mid m em j) = []) by (rewrite M1; unfold row_of; cbn; rewrite app_nth2 by lia; apply nth_repeat). rewrite Z, firstn_nil in H1. easy.
        + cbn [bind compound_add act_state leaf].
          assert (Ed' : m_edges m' = A ++ edge_at m j :: (B ++ [second_half m em j])).
          { rewrite Em. cbn [set_edges m_edges]. rewrite Ed. unfold second_half. rewrite Ee. cbn [snd]. rewrite <- app_assoc. reflexivity. }
          assert (Gj' : vget (m_edges m') j = Ok (edge_at m j)). { apply vget_ok. rewrite Ed', nth_error_app2 by lia. rewrite Lf, Nat.sub_diag. reflexivity. }
          rewrite Gj'. cbn [bind]. rewrite Ee. cbn [fst].
          destruct (reset_edge_ok order m' j (Some a, Some (mid m em j)) C') as (Hr & T' & C'').
          { rewrite Ed', app_length. cbn. lia. }
          { intros n [Hn|Hn]; cbn in Hn; injection Hn as <-; rewrite Em; cbn; rewrite Nd; lia. }
          rewrite Hr. cbn [bind compound_add act_state leaf]. eexists. split; [reflexivity|]. split; [|reflexivity]. cbn [r_mesh r_acts r_nodes r_edges].
          split; [|split; [exact C''|split; [|reflexivity]]].
          * cbn [r_mesh]. rewrite Fs, chosen_S, Mj. rewrite Ed'. rewrite <- Lf at 1. rewrite set_nth_mid. rewrite Em, M1. unfold set_edges. cbn [m_nodes m_edges m_nodesNumEdges m_nodesEdges m_projection grow]. f_equal. unfold B. rewrite map_app, <- !app_assoc. cbn [app map].
            unfold first_half. rewrite Mj, Ee. reflexivity.
          * cbn [r_mesh r_acts]. eapply list_snoc; [eapply list_snoc; [exact L|exact T]|exact T'].
      - rewrite Z.ltb_irrefl. exists s. split; [reflexivity|]. split; [|reflexivity]. split; [|split; [exact C|split; [exact L|exact R]]].
        rewrite M1, chosen_S, Mj, Fs, Sk, <- app_assoc. assert (X : first_half m em j = edge_at m j) by (unfold first_half; now rewrite Mj). rewrite X. reflexivity.
    Qed.
    Lemma halves_ok s0 : halves 0 s0 -> exists s, fold_out (halve order) (seq 0 E) s0 = Ok s /\ halves E s /\ r_nodes s = r_nodes s0.
    Proof.
      intros H. apply (fold_range (fun j s => halves j s /\ r_nodes s = r_nodes s0)); [auto|]. intros j s Hj (H1 & H2).
      destruct (halve_ok j s Hj H1) as (s' & A & B & D). exists s'. split; [exact A|]. split; [exact B|congruence].
    Qed.
  End Halves.

  (** *** One step *)
  Theorem refine_faces_ok : exists a s, refine_faces order centre f br fm m nm em = Ok (a, s) /\ tree_ok a m (r_mesh s) /\ consistent (r_mesh s) /\
    length (r_nodes s) = length (m_nodes (r_mesh s)) /\ (exists ps, m_nodes (r_mesh s) = m_nodes m ++ ps) /\ m_projection (r_mesh s) = m_projection m /\
    ((forall i, i < num_faces f -> ~ too_many i) -> refined (centre m f) m f br fm em nm (r_mesh s) (r_nodes s)).
  Proof.
    unfold refine_faces. destruct middles_ok as (s1 & -> & M). cbn [bind]. pose proof (middles_masks s1 M) as He. pose proof M as (B & _ & _ & R).
    assert (I : inners (r_edges s1) 0 s1).
    { exists []. split; [constructor|]. unfold points. cbn [centres seq filter map]. rewrite !app_nil_r. rewrite chosen_all in *. auto. }
    destruct (split_faces_ok (r_edges s1) He (num_faces f) 0 s1 eq_refl I) as (s2 & [(-> & I2)|(-> & TM & (ps & new & B2 & L2))]); cbn [bind].
    - pose proof I2 as (inner & T & B2 & R1 & R2).
      destruct (halves_ok (points (num_faces f)) inner (r_edges s1)) with (s0 := s2) as (s3 & -> & (H1 & H2 & H3 & H4) & R3); [unfold points; rewrite app_length, map_length; lia|exact He| |].
      { destruct B2 as (X1 & X2 & X3). split; [|split; [exact X2|split; [exact X3|exact R1]]]. rewrite X1. unfold set_edges, grow. cbn. now rewrite app_nil_r. }
      cbn [bind]. eexists. exists s3. split; [reflexivity|]. split; [apply recC_comp; exact H3|]. split; [exact H2|].
      assert (Nd : m_nodes (r_mesh s3) = m_nodes m ++ points (num_faces f)) by (rewrite H1; reflexivity).
      assert (Nm : r_nodes s3 = nm ++ map (middle_mask m nm) (marked_edges em) ++ map (centre_mask f nm) (centres (num_faces f))) by (rewrite R3; exact R2).
      split; [rewrite Nd, Nm, !app_length, !map_length, Lnm; unfold points; now rewrite app_length, !map_length|]. split; [exists (points (num_faces f)); exact Nd|]. split; [rewrite H1; reflexivity|]. intros _.
      split; [rewrite H1; reflexivity|]. split; [exact Nd|]. split; [|exact Nm]. exists inner. split; [exact T|]. rewrite H1. cbn [set_edges m_edges]. rewrite skipn_all, chosen_all. reflexivity.
    - eexists. exists s2. split; [reflexivity|]. destruct B2 as (X1 & X2 & X3). split; [apply recC_comp; exact X3|]. split; [exact X2|].
      assert (Nd : m_nodes (r_mesh s2) = m_nodes m ++ ps) by (rewrite X1; reflexivity). split; [rewrite L2, Nd, app_length; reflexivity|]. split; [exists ps; exact Nd|]. split; [rewrite X1; reflexivity|].
      intros H. destruct TM as (j & Hj & Tj). destruct (H j Hj Tj).
  Qed.
End Splitting.

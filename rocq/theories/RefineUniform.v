(** Refining every face of a mesh of triangles and quadrilaterals. *)
From Coq Require Import Permutation.
From Verif Require Import Base BaseLemmas FloatModel UtilModel UndoModel ActionModel ActionSpec ActionProofs MeshModel MeshSpec MeshProofs MeshAdj MeshUndo MeshEdits MeshFacts
  FaceModel FaceSpec FaceMain FaceUse FlipSpec ConvertModel FlipModel FlipFinal NodeTypeProofs SplitEffect
  RefineModel RefineSpec RefineProofs RefineSpread RefineSplit RefineHang RefineBrothers RefineMasks RefineWhole RefineExact.

Lemma side_of_ok f e : side_of f e = true <-> exists i, i < num_faces f /\ In e (edges_of f i).
Proof.
  unfold side_of. rewrite existsb_exists. split.
  - intros (i & Hi & H). apply in_seq in Hi. apply existsb_exists in H as (e' & He & Q). apply Nat.eqb_eq in Q. subst e'. exists i. split; [lia|exact He].
  - intros (i & Hi & H). exists i. split; [apply in_seq; lia|]. apply existsb_exists. exists e. split; [exact H|apply Nat.eqb_refl].
Qed.
Lemma value_ext (l l' : list Z) : length l = length l' -> (forall i, value l i = value l' i) -> l = l'.
Proof. intros L H. apply nth_ext with (d := 0%Z) (d' := 0%Z); [exact L|]. intros i _. apply H. Qed.
Lemma filter_eq {A} (P Q : A -> bool) l : (forall x, In x l -> P x = Q x) -> filter P l = filter Q l.
Proof. intros H. induction l as [|a l IH]; cbn; [reflexivity|]. rewrite (H a) by now left. rewrite IH; [reflexivity|]. intros x Hx. apply H. now right. Qed.

Section Uniform.
  Variables (m : mesh) (f : faces).
  Hypothesis St : in_step m f.
  Hypothesis A6 : at_most_six f.
  Variable br : list (option nat).
  Hypothesis Hb : length br = length (m_edges m).
  Hypothesis T34 : three_or_four f.
  Hypothesis Np : no_pairs f br.
  Local Notation N := (length (m_nodes m)).
  Local Notation E := (length (m_edges m)).

  Lemma no_next i j : i < num_faces f -> with_next br (edges_of f i) j = false /\ with_previous br (edges_of f i) j = false.
  Proof. intros Hi. specialize (Np i j Hi). unfold on_its_own in Np. destruct (with_previous _ _ _), (with_next _ _ _); try discriminate. auto. Qed.

  Variable em0 : list Z.
  Hypothesis L0 : length em0 = E.
  Hypothesis V0 : forall e, value em0 e = if side_of f e then (-1)%Z else 0%Z.
  Variable fm : list Z.
  Hypothesis Lf : length fm = num_faces f.
  Hypothesis Vf : forall i, i < num_faces f -> value fm i = 1%Z.

  Lemma good0 : good m f em0.
  Proof.
    split; [exact L0|]. intros e M. unfold marked in M. rewrite V0 in M. destruct (side_of f e) eqn:Q; [|discriminate]. apply side_of_ok in Q as (i & Hi & He). exists i.
    unfold edges_of in He. destruct (nth_error (faces_edges f) i) as [es|] eqn:Ei; [exists es; split; [exact Ei|]; now rewrite (nth_error_nth _ _ _ Ei) in He|].
    rewrite nth_overflow in He by (now apply nth_error_None). destruct He.
  Qed.
  Lemma nonzero em i j : up em0 em -> i < num_faces f -> value em (item (edges_of f i) j) <> 0%Z.
  Proof.
    intros (_ & U) Hi. assert (Q : side_of f (item (edges_of f i) j) = true) by (apply side_of_ok; exists i; split; [exact Hi|]; now apply (item_in m f St A6 br Hb)).
    destruct (U (item (edges_of f i) j)) as [X|X]; rewrite X; [rewrite V0, Q|]; discriminate.
  Qed.
  Lemma number_plain i em quad nums : i < num_faces f -> length (edges_of f i) = 4 -> up em0 em -> good m f em -> length quad = 4 -> length nums = 6 ->
    exists quad' nums', number_edges br (edges_of f i) (length (edges_of f i)) em quad nums = Ok (3, quad', nums') /\ forall j, j < 4 -> value quad' j <> 0%Z.
  Proof.
    intros Hi L4 U G Lq Ln. destruct (face_read m f St A6 br Hb i Hi) as (R1 & R2 & R3 & R4 & R5 & R6). unfold number_edges.
    match goal with |- exists _ _, fold_out ?g _ ?a = _ /\ _ => destruct (fold_range (fun n (x : nat * list Z * list nat) => fst (fst x) = Nat.min n 3 /\ length (snd (fst x)) = 4 /\ length (snd x) = 6 /\
      forall j, j < n -> value (snd (fst x)) j <> 0%Z) g (length (edges_of f i)) a) as (((num & q) & ns) & -> & P1 & P2 & P3 & P4) end.
    - cbn. split; [reflexivity|]. split; [exact Lq|]. split; [exact Ln|]. lia.
    - intros n ((num & q) & ns) Hn (P1 & P2 & P3 & P4). cbn [fst snd] in *. rewrite L4 in Hn. rewrite (around_ok (edges_of f i) n) by lia. cbn [bind]. rewrite vset_lt by lia. cbn [bind].
      destruct (face_edges_in m f St A6 br Hb i n Hi) as (He & _). rewrite value_get by (rewrite (proj1 G); exact He). cbn [bind]. pose proof (nonzero em i n U Hi) as NZ. rewrite (proj2 (Z.eqb_neq _ _) NZ).
      rewrite vset_lt by lia. cbn [bind]. rewrite R6. cbn [bind]. fold (with_next br (edges_of f i) n). destruct (no_next i n Hi) as (W & _). rewrite W. cbn [negb bind]. rewrite andb_true_r. eexists. split; [reflexivity|]. cbn [fst snd].
      split; [rewrite L4; destruct (Nat.eqb_spec n (4 - 1)); cbn [negb]; lia|]. split; [now rewrite set_nth_length|]. split; [now rewrite set_nth_length|]. intros j Hj. rewrite value_set by lia.
      destruct (Nat.eqb_spec j num) as [Q|Q]; [exact NZ|]. apply P4. lia.
    - cbn [fst snd] in *. rewrite L4 in *. exists q, ns. split; [rewrite P1; reflexivity|exact P4].
  Qed.
  Lemma refine_all_full quad : length quad = 4 -> (forall j, j < 4 -> value quad j <> 0%Z) -> refine_all quad = false.
  Proof.
    intros L H. pose proof (H 0 ltac:(lia)) as H0. pose proof (H 1 ltac:(lia)) as H1. pose proof (H 2 ltac:(lia)) as H2. pose proof (H 3 ltac:(lia)) as H3. unfold value in *.
    unfold refine_all. cbn [seq fold_left]. rewrite (proj2 (Z.eqb_neq _ _) H0), (proj2 (Z.eqb_neq _ _) H1), (proj2 (Z.eqb_neq _ _) H2), (proj2 (Z.eqb_neq _ _) H3). reflexivity.
  Qed.
  Lemma settle_face_plain i s : i < num_faces f -> at_work m f fm em0 s -> exists s', settle_face f br fm 0 s i = Ok s' /\ t_repeat s' = t_repeat s.
  Proof.
    intros Hi (G & Ak & U & Lq & Ln). destruct (face_read m f St A6 br Hb i Hi) as (R1 & R2 & R3 & R4 & R5 & R6). unfold settle_face. rewrite value_get by lia. cbn [bind]. rewrite Vf by exact Hi. cbn [Z.eqb].
    rewrite R1, R3. cbn [bind]. destruct (Nat.eqb_spec (length (edges_of f i)) (4 + 0)) as [K|K].
    - destruct (number_plain i (t_edges s) (t_quad s) (t_nums s) Hi K U G Lq Ln) as (quad & nums & Q & Nz). pose proof (number_ok m f St A6 br Hb 0 i (t_edges s) (t_quad s) (t_nums s) Hi G Lq Ln K) as X. rewrite Q in *. cbn [sound fst snd bind] in *.
      destruct X as (X1 & X2 & _). cbn [Nat.add Nat.eqb negb]. rewrite (refine_all_full quad X1 Nz).
      destruct (settle_quad_ok m f St A6 br Hb i nums false (t_edges s) Hi X2 G) as (em' & -> & _). cbn [bind]. eexists. split; [reflexivity|]. cbn. apply orb_false_r.
    - destruct (settle_other_ok m f St A6 br Hb i (t_edges s) Hi G) as (em' & -> & _). cbn [bind]. eexists. split; reflexivity.
  Qed.
  Lemma settle_plain cache : count_true cache = 0 -> exists em, settle f br fm cache em0 = Ok em /\ length em = E /\ (forall e, value em e = if side_of f e then 1%Z else 0%Z).
  Proof.
    intros H0. pose proof (settle_ok m f br fm em0 cache St A6 Hb Lf good0) as S. unfold settle in *. rewrite H0 in *. cbn [settle_rounds] in *.
    match type of S with context[fold_out ?g ?l ?a] => destruct (fold_range (fun n s => at_work m f fm em0 s /\ t_repeat s = false) g (num_faces f) a) as (s & Hs & W & Rp) end.
    - split; [|reflexivity]. split; [exact good0|]. split; [intros e H; now destruct H|]. split; [apply up_refl|]. split; reflexivity.
    - intros n s Hn (W & Rp). destruct (settle_face_plain n s Hn W) as (s' & Es & Er). exists s'. split; [exact Es|]. split; [|congruence].
      pose proof (settle_face_ok m f St A6 br Hb fm em0 0 Lf n s Hn W) as X. rewrite Es in X. apply X.
    - rewrite Hs in *. cbn [bind] in *. rewrite Rp in *. cbn [bind] in *. rewrite Rp in *. eexists. split; [reflexivity|]. cbn [sound] in S. destruct S as ((L & O) & ZO & _ & _ & D). split; [exact L|].
      intros e. match goal with |- value ?x e = _ => set (em := x) in * end. destruct (side_of f e) eqn:Q.
      + apply side_of_ok in Q as (i & Hi & He). destruct (D i Hi) as (D1 & D2); [unfold marked; now rewrite Vf|]. apply In_nth with (d := 0) in He as (j & Hj & Ej). rewrite <- item_small in Ej by exact Hj. subst e.
        destruct (Nat.eq_dec (length (edges_of f i)) (4 + 0)) as [K|K].
        * apply D2; [exact K|intros j'; now apply no_next|exact Hj|]. rewrite V0. rewrite (proj2 (side_of_ok f _)); [reflexivity|]. exists i. split; [exact Hi|]. now apply (item_in m f St A6 br Hb).
        * apply D1; [exact K|exact Hj|]. now apply Np.
      + destruct (ZO e) as [Z|Z]; [exact Z|]. assert (M : marked em e = true) by (unfold marked; now rewrite Z). apply O in M as (i & es & Ei & He). assert (side_of f e = true); [|congruence].
        apply side_of_ok. exists i. split; [|unfold edges_of; now rewrite (nth_error_nth _ _ _ Ei)]. assert (i < length (faces_edges f)) by (apply nth_error_Some; congruence). destruct (st_tables m f St) as (T & _). unfold num_faces in *. lia.
  Qed.
  Lemma spread_plain em cache : length em = E -> zero_or_one em -> exists d, spread m f br fm em cache = Ok d /\ d_faces d = fm /\ d_edges d = em.
  Proof.
    intros L ZO. unfold spread. destruct (spread_rounds_ok m f br St A6 Hb max_spread (Spreading fm em cache 1)) as (d & -> & _ & P & _); [split; [exact Lf|]; split; [exact L|exact ZO]|].
    destruct P as ((P1 & P2) & P3 & P4 & P5 & _). cbn [d_edges d_faces] in *. exists d. split; [reflexivity|].
    assert (F : forall i, value (d_faces d) i = value fm i).
    { intros i. destruct (P4 i) as [X|(Hi & X & _)]; [exact X|]. unfold undecided in X. rewrite Vf in X by exact Hi. discriminate. }
    split; [apply value_ext; [exact P3|exact F]|]. apply value_ext; [exact P1|]. intros e. destruct (P2 e) as [X|(X1 & X2)]; [exact X|]. exfalso.
    destruct (P5 e) as [Y|(i & _ & Y & _)]; [unfold marked; now rewrite X2|unfold marked in Y; rewrite X1 in Y; discriminate|]. now apply Y.
  Qed.

  (** *** The step *)
  Variable em : list Z.
  Hypothesis Le : length em = E.
  Hypothesis Ve : forall e, value em e = if side_of f e then 1%Z else 0%Z.
  Lemma marked_side e : marked em e = side_of f e.
  Proof. unfold marked. rewrite Ve. now destruct (side_of f e). Qed.
  Lemma marked_all : marked_edges em = all_sides m f.
  Proof. unfold marked_edges, all_sides. rewrite Le. apply filter_eq. intros e _. apply marked_side. Qed.
  Lemma mid_half e : mid m em e = half_node m f e.
  Proof. unfold mid, half_node. rewrite (filter_eq (marked em) (side_of f)); [reflexivity|]. intros x _. apply marked_side. Qed.
  Lemma side_nodes_all i : i < num_faces f -> side_nodes m br em (nodes_of f i) (edges_of f i) = map (half_node m f) (edges_of f i).
  Proof.
    intros Hi. unfold side_nodes. replace (map (half_node m f) (edges_of f i)) with (map (fun j => half_node m f (item (edges_of f i) j)) (seq 0 (length (edges_of f i)))) by (rewrite <- (map_map (item (edges_of f i)) (half_node m f)); f_equal; symmetry; apply as_items). set (l := seq 0 (length (edges_of f i))). clearbody l. induction l as [|j l IH]; [reflexivity|]. cbn [flat_map map]. rewrite IH.
    destruct (no_next i j Hi) as (-> & ->). cbn [negb andb]. rewrite marked_side, mid_half. rewrite (proj2 (side_of_ok f _)); [reflexivity|]. exists i. split; [exact Hi|]. now apply (item_in m f St A6 br Hb).
  Qed.
  Lemma marked_face i : i < num_faces f -> marked fm i = true.
  Proof. intros Hi. unfold marked. now rewrite Vf. Qed.
  Lemma node_count i : i < num_faces f -> length (nodes_of f i) = length (edges_of f i).
  Proof. intros Hi. apply (face_read m f St A6 br Hb i Hi). Qed.
  Lemma gets_quad i : i < num_faces f -> gets_centre m f br fm em i = (length (edges_of f i) =? 4).
  Proof.
    intros Hi. unfold gets_centre, has_centre. rewrite marked_face, side_nodes_all, map_length, node_count by exact Hi. destruct (T34 i Hi) as [-> | ->]; reflexivity.
  Qed.
  Lemma centre_faces_quads : centre_faces m f br fm em = quads f.
  Proof. apply filter_eq. intros i Hi. apply in_seq in Hi. apply gets_quad. lia. Qed.
  Lemma centre_node_quad i : i < num_faces f -> centre_node m f br fm em i = quad_node m f i.
  Proof.
    intros Hi. unfold centre_node, quad_node. rewrite marked_all. rewrite (filter_eq (gets_centre m f br fm em) (fun i => length (edges_of f i) =? 4)); [reflexivity|]. intros x Hx. apply in_seq in Hx. apply gets_quad. lia.
  Qed.
  Lemma flat_map_eq {A B} (g h : A -> list B) l : (forall x, In x l -> g x = h x) -> flat_map g l = flat_map h l.
  Proof. intros H. induction l as [|a l IH]; cbn; [reflexivity|]. rewrite (H a) by now left. rewrite IH; [reflexivity|]. intros x Hx. apply H. now right. Qed.
  Lemma inner_within : inner_pairs m f br fm em = flat_map (within_face m f) (seq 0 (num_faces f)).
  Proof.
    apply flat_map_eq. intros i Hi. apply in_seq in Hi. assert (Hi' : i < num_faces f) by lia. rewrite marked_face, side_nodes_all, node_count, centre_node_quad by exact Hi'. unfold within_face, inside.
    destruct (T34 i Hi') as [L|L]; destruct (edges_of f i) as [|a [|b [|c [|d [|]]]]]; try discriminate L; reflexivity.
  Qed.
  Lemma half_new e : N <= half_node m f e.
  Proof. unfold half_node. lia. Qed.
  Lemma within_new i p : In p (within_face m f i) -> N <= fst p.
  Proof.
    unfold within_face. destruct (edges_of f i) as [|a [|b [|c [|d [|]]]]]; cbn [In]; intros H; try contradiction; repeat destruct H as [<-|H]; try contradiction; apply half_new.
  Qed.
  Lemma thinned_all {A} (P : A -> Prop) l l' : thinned P l l' -> (forall x, In x l -> ~ P x) -> l' = l.
  Proof. induction 1 as [|a l l' H IH|a l l' Ha H IH]; intros Hn; [reflexivity| |]. - f_equal. apply IH. intros x Hx. apply Hn. now right. - destruct (Hn a (or_introl eq_refl) Ha). Qed.
  Lemma not_too_many i : i < num_faces f -> ~ too_many m f em fm br i.
  Proof. intros Hi (_ & H). rewrite side_nodes_all, map_length in H by exact Hi. destruct (T34 i Hi) as [L|L]; rewrite L in H; lia. Qed.
  Lemma refined_uniform centre nm m' nm' : refined centre m f br fm em nm m' nm' -> all_halved centre m f m'.
  Proof.
    intros (H1 & H2 & (inner & T & H3) & _). split; [exact H1|]. rewrite marked_all in *. rewrite centre_faces_quads in H2. split; [exact H2|]. rewrite H3. f_equal; [|f_equal].
    - apply map_ext_in. intros e _. unfold first_half. rewrite marked_side, mid_half. reflexivity.
    - f_equal. rewrite (thinned_all _ _ _ T); [apply inner_within|]. rewrite inner_within. intros p Hp (e & He & J). apply in_flat_map in Hp as (i & _ & Hp). apply within_new in Hp.
      assert (X : fst p < N); [|lia]. apply (co_ends m (st_mesh m f St) (edge_at m e)); [apply nth_In; exact He|]. destruct J as [-> | ->]; [left|right]; reflexivity.
    - apply map_ext_in. intros e _. unfold second_half. rewrite mid_half. reflexivity.
  Qed.
End Uniform.

Section Everything.
  Variable order : list point -> list edge -> nat -> list (option nat) -> list (option nat).
  Hypothesis order_perm : forall nodes edges n row, Permutation row (order nodes edges n row).
  Variable clockwise : projection -> list point -> bool.
  Variable centred : point -> point -> point -> bool.
  Variable centre : mesh -> faces -> nat -> point.
  Variable selected : mesh -> faces -> list Z.
  Variable small : mesh -> nat -> bool.

  Theorem refine_everything m m0 f0 : consistent m -> administrate2d order clockwise m = Ok (m0, f0) -> 0 < num_faces f0 -> three_or_four f0 ->
    (forall a b, ~ RefineSpec.halves centred m0 f0 a b) -> length (selected m0 f0) = length (m_nodes m0) -> (forall n, n < length (m_nodes m0) -> value (selected m0 f0) n = 1%Z) ->
    (forall e, e < length (m_edges m0) -> small m0 e = false) ->
    exists a m1 m2 f2, refine order clockwise centred centre selected (BySize small) 1 false m = Ok (a, m2, f2) /\ all_halved (centre m0 f0) m0 f0 m1 /\ administrate2d order clockwise m1 = Ok (m2, f2).
  Proof.
    intros Hc Hm Hf T34 Nh Ls Vs Hsm. unfold refine. destruct (administrate_ready order order_perm clockwise m Hc) as (m' & f' & acts & Eu & La & R & Ln & K).
    destruct (administrate2d_undo_ok order order_perm clockwise m Hc) as (m'' & f'' & acts' & Eu' & Ea & _). rewrite Eu in Eu'. injection Eu' as <- <- <-. rewrite Hm in Ea. injection Ea as <- <-. rewrite Eu. cbn [bind].
    destruct R as (St & A6 & Ad). destruct (find_brothers_ok centred m0 f0 St) as (b & -> & Lb & Sb & _). cbn [bind].
    assert (Nb : forall e, brother b e = None). { intros e. destruct (brother b e) as [x|] eqn:Q; [|reflexivity]. destruct (Nh e x). now apply Sb. }
    assert (Np : no_pairs f0 b). { intros i j Hi. unfold on_its_own, with_previous, with_next. now rewrite Nb. }
    destruct (perimeter_exact m0 f0 St A6 b Lb (selected m0 f0) Ls) as (nm & -> & Lnm & Vnm). cbn [bind].
    assert (Vn : forall n, n < length (m_nodes m0) -> value nm n = 1%Z).
    { intros n Hn. rewrite Vnm, Vs by exact Hn. cbn [Z.eqb andb]. replace (at_border f0 (selected m0 f0) n) with false; [reflexivity|]. symmetry. apply not_true_is_false. intros X.
      apply existsb_exists in X as (i & Hi & X). apply in_seq in Hi. apply andb_true_iff in X as (_ & X). apply existsb_exists in X as (n' & Hn' & X). rewrite Vs in X; [discriminate|]. eapply face_nodes_in; [exact St|exact A6| |exact Hn']. lia. }
    cbn [refine_levels]. unfold refine_level, plan, masks. cbn [l_mesh l_faces l_nodes l_brothers l_cache l_acts].
    destruct (from_size_exact m0 f0 St A6 b Lb (small m0)) as (em0 & fm0 & -> & Le & Lf & Ve & Vf). cbn [bind].
    assert (Side : forall e, side_of f0 e = true -> e < length (m_edges m0)).
    { intros e H. apply side_of_ok in H as (i & Hi & H). apply In_nth with (d := 0) in H as (j & Hj & Ej). rewrite <- item_small in Ej by exact Hj. subst e. now apply (face_edges_in m0 f0 St A6 b Lb i j Hi). }
    assert (V0 : forall e, value em0 e = if side_of f0 e then (-1)%Z else 0%Z). { intros e. rewrite Ve. destruct (side_of f0 e) eqn:Q; [|reflexivity]. rewrite (Hsm e (Side e Q)). reflexivity. }
    destruct (limit_exact m0 f0 St A6 b Lb true nm fm0 Lnm Lf) as (fm & -> & Lf' & Vf'). cbn [bind].
    assert (Vone : forall i, i < num_faces f0 -> value fm i = 1%Z).
    { intros i Hi. destruct (face_read m0 f0 St A6 b Lb i Hi) as (_ & _ & _ & R4 & R5 & _). rewrite Vf' by exact Hi.
      assert (X : takes_part true nm (nodes_of f0 i) = true).
      { unfold takes_part. destruct (nodes_of f0 i) as [|n l] eqn:Q; [cbn in R4; lia|]. cbn [existsb]. rewrite Vn; [reflexivity|]. eapply face_nodes_in; [exact St|exact A6|exact Hi|]. rewrite Q. now left. }
      rewrite X, Vf by exact Hi. destruct (edges_of f0 i) as [|e l] eqn:Q; [cbn in R5; lia|]. cbn [existsb]. rewrite Hsm; [reflexivity|]. apply Side, side_of_ok. exists i. split; [exact Hi|]. rewrite Q. now left. }
    destruct (settle_plain m0 f0 St A6 b Lb Np em0 Le V0 fm Lf' Vone [] eq_refl) as (em & -> & Lem & Vem). cbn [bind].
    destruct (spread_plain m0 f0 St A6 b Lb fm Lf' Vone em [] Lem) as (d & -> & Df & De). { intros e. rewrite Vem. destruct (side_of f0 e); auto. }
    cbn [bind]. rewrite Df, De. replace (forallb (fun v => (v =? 0)%Z) fm) with false.
    2:{ symmetry. apply not_true_is_false. intros X. rewrite forallb_forall in X. specialize (X (value fm 0)). rewrite Vone in X by exact Hf. discriminate X. rewrite <- (Vone 0 Hf). apply nth_In. lia. }
    destruct (refine_faces_ok order centre m0 f0 St em nm fm b Lem Lnm Lf' Lb A6) as (a & r & -> & T & C & Lr & _ & _ & Rf).
    { intros e M. apply side_ends with (f := f0); [exact St|]. unfold marked in M. rewrite Vem in M. destruct (side_of f0 e) eqn:Q; [|discriminate]. apply side_of_ok in Q as (i & Hi & He). exists i. unfold edges_of in He.
      destruct (nth_error (faces_edges f0) i) as [es|] eqn:Ei; [exists es; split; [exact Ei|]; now rewrite (nth_error_nth _ _ _ Ei) in He|]. rewrite nth_overflow in He by (now apply nth_error_None). destruct He. }
    assert (Nt : forall i, i < num_faces f0 -> ~ too_many m0 f0 em fm b i) by (intros i Hi; eapply not_too_many; eauto). specialize (Rf Nt). assert (Au : all_halved (centre m0 f0) m0 f0 (r_mesh r)) by (eapply refined_uniform; eauto).
    cbn [bind compound_add]. rewrite (recC_state _ _ _ _ _ _ T). cbn [bind].
    destruct (administrate2d_undo_ok order order_perm clockwise (r_mesh r) C) as (m2 & f2 & more & -> & Ea2 & _ & St2 & _). cbn [bind].
    destruct (find_brothers_ok centred m2 f2 St2) as (b2 & -> & _). cbn [bind l_acts l_mesh l_faces]. eexists _, (r_mesh r), m2, f2. split; [reflexivity|]. split; [exact Au|exact Ea2].
  Qed.
End Everything.

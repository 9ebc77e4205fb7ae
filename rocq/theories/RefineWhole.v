(** One level and the whole refinement. *)
From Coq Require Import Permutation.
From Verif Require Import Base BaseLemmas FloatModel UtilModel UndoModel ActionModel ActionSpec ActionProofs MeshModel MeshSpec MeshProofs MeshAdj MeshUndo MeshEdits MeshFacts
  FaceModel FaceSpec FaceMain FaceUse FlipSpec ConvertModel FlipModel FlipFinal NodeTypeProofs SplitEffect
  RefineModel RefineSpec RefineProofs RefineSpread RefineSplit RefineHang RefineBrothers RefineMasks.

Lemma kept_refl m : nodes_kept m m.
Proof. split; [reflexivity|]. split; [apply Nat.le_refl|auto]. Qed.
Lemma kept_trans a b c : nodes_kept a b -> nodes_kept b c -> nodes_kept a c.
Proof.
  intros (P1 & L1 & H1) (P2 & L2 & H2). split; [congruence|]. split; [lia|]. intros n Hn. destruct (H2 n) as [X|X]; [lia| |now right]. rewrite X. now apply H1.
Qed.
Lemma kept_grown m m' ps : m_projection m' = m_projection m -> m_nodes m' = m_nodes m ++ ps -> nodes_kept m m'.
Proof. intros P H. split; [exact P|]. rewrite H, app_length. split; [lia|]. intros n Hn. left. now apply app_nth1. Qed.

Lemma bounded_dec (P : nat -> Prop) : (forall i, P i \/ ~ P i) -> forall k, (forall i, i < k -> P i) \/ ~ (forall i, i < k -> P i).
Proof.
  intros D. induction k as [|k [IH|IH]]; [left; lia| |right; intros H; apply IH; intros i Hi; apply H; lia].
  destruct (D k) as [Y|Y]; [left; intros i Hi; destruct (Nat.eq_dec i k) as [->|]; [exact Y|apply IH; lia]|right; intros H; apply Y, H; lia].
Qed.
Lemma connectable_dec br ns es : connectable br ns es \/ ~ connectable br ns es.
Proof.
  unfold connectable. set (l := links br ns es). set (k := length (sides br ns es)).
  assert (D1 : (length es = k \/ k = 3 \/ k = 4) \/ ~ (length es = k \/ k = 3 \/ k = 4)) by lia.
  assert (D2 : (forall p, In p l -> present (fst p) = true /\ present (snd p) = true) \/ ~ (forall p, In p l -> present (fst p) = true /\ present (snd p) = true)).
  { destruct (forallb (fun p => present (fst p) && present (snd p)) l) eqn:F.
    - left. intros p Hp. rewrite forallb_forall in F. apply andb_true_iff. now apply F.
    - right. intros H. assert (forallb (fun p => present (fst p) && present (snd p)) l = true); [|congruence]. apply forallb_forall. intros p Hp. apply andb_true_iff. now apply H. }
  destruct D1 as [D1|D1]; [|right; tauto]. destruct (Nat.eq_dec (length es) k) as [Q|Q]; [left; tauto|]. destruct D2 as [D2|D2]; [left; tauto|right; tauto].
Qed.

Section Whole.
  Variable order : list point -> list edge -> nat -> list (option nat) -> list (option nat).
  Hypothesis order_perm : forall nodes edges n row, Permutation row (order nodes edges n row).
  Variable clockwise : projection -> list point -> bool.
  Variable centred : point -> point -> point -> bool.
  Variable centre : mesh -> faces -> nat -> point.
  Variable selected : mesh -> faces -> list Z.
  Hypothesis selected_length : forall m f, length (selected m f) = length (m_nodes m).
  Variable by_ : criterion.
  Notation tree_ok := (recC (restore_leaf order) (commit_leaf order) mesh_le).
  Notation list_ok := (recC_all (restore_leaf order) (commit_leaf order) mesh_le).

  (** A mesh with the faces found by administration. *)
  Definition ready (m : mesh) (f : faces) : Prop := in_step m f /\ at_most_six f /\ administrated m.
  Lemma administrate_ready m : consistent m -> exists m' f acts, administrate2d_undo order clockwise m = Ok (m', f, acts) /\ list_ok acts m m' /\ ready m' f /\
    length (m_nodes m') = length (m_nodes m) /\ nodes_kept m m'.
  Proof.
    intros Hc. destruct (administrate2d_undo_ok order order_perm clockwise m Hc) as (m' & f & acts & H1 & H2 & H3 & H4 & H5). exists m', f, acts. split; [exact H1|]. split; [exact H3|].
    destruct (faces_cycles order order_perm clockwise m m' f (co_ends m Hc) H2) as (Lf & Hcy).
    split; [split; [exact H4|]; split; [|exact H5]|].
    - intros ns Hns. apply In_nth_error in Hns as (i & Hi). destruct (nth_error (faces_edges f) i) as [es|] eqn:Ei.
      + apply (Hcy i ns es Hi Ei).
      + apply nth_error_None in Ei. assert (i < length (faces_nodes f)) by (apply nth_error_Some; congruence). destruct (st_tables m' f H4) as (T & _). unfold num_faces in T. lia.
    - assert (Hm : administrate order m = Ok m') by (unfold administrate2d in H2; apply bind_ok_inv in H2 as (m2 & X1 & X); apply bind_ok_inv in X as (f2 & X2 & X); injection X as <- _; exact X1).
      destruct (administrate_result order order_perm m m' (co_ends m Hc) Hm) as (Hn & He & Hp & _). split; [rewrite Hn; apply admin_nodes_length|]. split; [exact Hp|]. rewrite Hn, admin_nodes_length. split; [apply Nat.le_refl|].
      intros n Hlt. pose proof (admin_nodes_nth (m_nodes m) (m_edges m) n _ (nth_error_nth' _ missing_point Hlt)) as Q. rewrite (nth_error_nth _ _ missing_point Q). destruct (existsb _ _); auto.
  Qed.

  Definition level_ok (m0 : mesh) (s : level) : Prop :=
    ready (l_mesh s) (l_faces s) /\ list_ok (l_acts s) m0 (l_mesh s) /\ nodes_kept m0 (l_mesh s) /\
    length (l_nodes s) = length (m_nodes (l_mesh s)) /\ length (l_brothers s) = length (m_edges (l_mesh s)).
  Definition no_hanging (c : list bool) : Prop := count_true c = 0.

  Lemma plan_ok first m0 s : level_ok m0 s ->
    sound (~ (no_hanging (l_cache s) /\ exists small, by_ = BySize small))
      (fun d => fits (l_mesh s) (l_faces s) d /\ only_sides (l_faces s) (d_edges d)) (plan by_ first s).
  Proof.
    intros ((St & A6 & Ad) & La & K & Ln & Lb). unfold plan. set (Q := ~ _).
    apply sound_bind with (P := fun x => good (l_mesh s) (l_faces s) (fst (fst x)) /\ length (snd (fst x)) = num_faces (l_faces s) /\ (count_true (snd x) <> 0 -> Q)).
    - unfold masks. destruct by_ as [small|wanted directional times] eqn:By.
      + destruct (from_size_ok (l_mesh s) (l_faces s) St A6 (l_brothers s) Lb (small (l_mesh s))) as (em & fm & -> & G & L). cbn [bind sound fst snd]. split; [exact G|]. split; [exact L|].
        intros X (Y & _). now apply X.
      + pose proof (from_samples_ok (l_mesh s) (l_faces s) St A6 (l_brothers s) Lb (wanted (l_mesh s) (l_faces s)) directional times (l_cache s)) as H.
        destruct (masks_from_samples _ _ _ _ _ _ _) as [x|e|]; [|exact H|destruct H]. destruct H as (H1 & H2). split; [exact H1|]. split; [exact H2|]. intros _ (_ & small & X). congruence.
    - intros ((em & fm) & cache) (G & L & HQ). cbn [fst snd] in *. destruct (limit_ok (l_mesh s) (l_faces s) St A6 (l_brothers s) Lb first (l_nodes s) fm Ln L) as (fm' & -> & L'). cbn [bind].
      pose proof (settle_ok (l_mesh s) (l_faces s) (l_brothers s) fm' em cache St A6 Lb L' G) as H. destruct (settle _ _ _ _ _) as [em'|e|]; cbn [bind]; [|exact H|exact (HQ H)]. destruct H as (G' & Z & _ & _).
      unfold spread. destruct (spread_rounds_ok (l_mesh s) (l_faces s) (l_brothers s) St A6 Lb max_spread (Spreading fm' em' cache 1)) as (d & -> & F & P & _).
      { split; [exact L'|]. split; [apply G'|exact Z]. }
      cbn [sound]. split; [exact F|]. destruct P as (_ & _ & _ & P & _). intros e M. destruct (P e M) as [M'|(i & Hi & _ & Hin)]; [now apply G'|]. exists i. unfold edges_of in Hin.
      destruct (nth_error (faces_edges (l_faces s)) i) as [es|] eqn:Ei; [exists es; split; [exact Ei|]; now rewrite (nth_error_nth _ _ _ Ei) in Hin|].
      rewrite nth_overflow in Hin by (now apply nth_error_None). destruct Hin.
  Qed.
  Lemma side_ends m f e : in_step m f -> (exists i, lists f i e) -> exists a b, edge_at m e = (Some a, Some b).
  Proof.
    intros St (i & es & Hi & He). destruct (st_tables m f St) as (T & _). destruct (nth_error (faces_nodes f) i) as [ns|] eqn:En.
    2:{ apply nth_error_None in En. assert (i < length (faces_edges f)) by (apply nth_error_Some; congruence). unfold num_faces in T. lia. }
    destruct (st_face m f St i ns es En Hi) as (F1 & F2 & F3 & F4). pose proof (face_length m ns es F3) as L. apply In_nth with (d := 0) in He as (j & Hj & Q). rewrite <- item_small in Q by exact Hj.
    destruct (face_edge m ns es F1 F3 j) as (_ & J). rewrite Q in J. destruct J as [J|J]; rewrite J; eauto.
  Qed.
  Definition Bad (first : bool) (s : level) : Prop := ~ (no_hanging (l_cache s) /\ exists small, by_ = BySize small).
  Lemma level_step first m0 s : level_ok m0 s -> sound (Bad first s) (fun x => level_ok m0 (snd x)) (refine_level order clockwise centred centre by_ first s).
  Proof.
    intros Lv. pose proof Lv as ((St & A6 & Ad) & La & K & Ln & Lb). unfold refine_level. pose proof (plan_ok first m0 s Lv) as P. destruct (plan by_ first s) as [d|e|]; cbn [bind]; [|exact P|exact P].
    destruct P as ((F1 & F2 & F3) & O). destruct (forallb _ _); [exact Lv|].
    destruct (refine_faces_ok order centre (l_mesh s) (l_faces s) St (d_edges d) (l_nodes s) (d_faces d) (l_brothers s) F2 Ln F1 Lb A6) as (a & r & -> & T & C & Lr & (ps & Nd) & Pr & _).
    { intros e M. apply side_ends with (1 := St), O, M. }
    cbn [bind compound_add]. rewrite (recC_state _ _ _ _ _ _ T). cbn [bind].
    destruct (administrate_ready (r_mesh r) C) as (m' & f' & acts & -> & La' & R' & Ln' & K'). cbn [bind].
    destruct (find_brothers_ok centred m' f' (proj1 R')) as (b & -> & Lb' & _). cbn [bind sound snd].
    split; [exact R'|]. split; [|split; [|split; [|exact Lb']]]; cbn [l_acts l_mesh l_nodes].
    - eapply rec_all_app; [intros; eapply mesh_le_trans; eauto| |exact La']. eapply list_snoc; eauto.
    - eapply kept_trans; [exact K|]. eapply kept_trans; [|exact K']. eapply kept_grown; eauto.
    - rewrite Lr. now rewrite Ln'.
  Qed.
  Lemma levels_ok k : forall first m0 s, level_ok m0 s -> sound (~ (k <= 1 /\ no_hanging (l_cache s) /\ exists small, by_ = BySize small)) (level_ok m0) (refine_levels order clockwise centred centre by_ k first s).
  Proof.
    induction k as [|k IH]; intros first m0 s L; cbn [refine_levels]; [exact L|]. pose proof (level_step first m0 s L) as H. destruct (refine_level _ _ _ _ _ _ _) as [(more & s')|e|]; cbn [bind sound snd] in *; [|exact H|].
    - destruct more; [|exact H]. destruct k as [|k]; [exact H|]. pose proof (IH false m0 s' H) as H'. destruct (refine_levels _ _ _ _ _ _ _ _) as [s''|e|]; cbn [sound] in *; [exact H'|exact H'|].
      intros (Hk & _). inversion Hk. inversion H1.
    - intros (_ & X). exact (H X).
  Qed.

  Theorem refine_whole levels connect m : consistent m ->
    match refine order clockwise centred centre selected by_ levels connect m with
    | Ok (a, m', f') => tree_ok a m m' /\ in_step m' f' /\ administrated m' /\ nodes_kept m m'
    | Throw e => e = AlgorithmErr \/ connect = true /\ (e = StdErr \/ e = ConstraintErr)
    | UB => ~ (levels <= 1 /\ exists small, by_ = BySize small)
    end.
  Proof.
    intros Hc. unfold refine. destruct (administrate_ready m Hc) as (m1 & f1 & acts & -> & La & R & Ln & K). cbn [bind].
    destruct (find_brothers_ok centred m1 f1 (proj1 R)) as (b & -> & Lb & _). cbn [bind].
    destruct (perimeter_ok m1 f1 (proj1 R) (proj1 (proj2 R)) b Lb (selected m1 f1)) as (nm & -> & Lnm); [apply selected_length|]. cbn [bind].
    pose proof (levels_ok levels true m (Level m1 f1 acts nm b [])) as H. destruct (refine_levels _ _ _ _ _ _ _ _) as [s|e|]; cbn [bind].
    2:{ left. apply H. repeat (split; [assumption|]). assumption. }
    2:{ intros (X & Y). apply H; [repeat (split; [assumption|]); assumption|]. split; [exact X|]. split; [reflexivity|exact Y]. }
    cbn [sound] in H. destruct H as ((St & A6 & Ad) & La' & K' & Ln' & Lb'); [repeat (split; [assumption|]); assumption|].
    destruct connect.
    - destruct (connect_hanging_ok order (l_mesh s) (l_faces s) St A6 (l_brothers s) Lb') as (H1 & H2).
      destruct (bounded_dec _ (fun i => connectable_dec (l_brothers s) (nodes_of (l_faces s) i) (edges_of (l_faces s) i)) (num_faces (l_faces s))) as [Cn|Cn].
      + destruct (H1 Cn) as (a & inner & -> & _ & T & C2). cbn zeta in *.
        cbn [bind compound_add]. rewrite (recC_state _ _ _ _ _ _ T). cbn [bind].
        match goal with |- context[administrate2d_undo _ _ ?x] => destruct (administrate_ready x C2) as (m' & f' & more & -> & La2 & R' & Ln2 & K2) end. cbn [bind].
        split; [apply recC_comp|].
        { eapply rec_all_app; [intros; eapply mesh_le_trans; eauto| |exact La2]. eapply list_snoc; eauto. }
        split; [apply R'|]. split; [apply R'|]. eapply kept_trans; [exact K'|]. eapply kept_trans; [|exact K2]. apply kept_grown with (ps := []); [reflexivity|]. now rewrite app_nil_r.
      + destruct (H2 Cn) as [-> | ->]; cbn [bind]; right; auto.
    - cbn [bind]. split; [now apply recC_comp|]. split; [exact St|]. split; [exact Ad|exact K'].
  Qed.
End Whole.

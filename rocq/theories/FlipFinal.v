(** Flipping of edges: the passes and the whole algorithm. *)
From Coq Require Import Permutation.
From Verif Require Import Base BaseLemmas FloatModel UndoModel UndoSpec UndoProofs ActionModel ActionSpec ActionProofs
  MeshModel MeshSpec MeshProofs MeshAdj MeshUndo MeshEdits MeshEdits2 FaceModel FaceSpec FaceProofs FaceSearch FaceMain FaceUseModel FaceUseSpec FaceUse FlipModel FlipSpec FlipProofs FlipStep FlipMain.

Section Lists.
  Context {L S : Type}.
  Variables (leaf_restore leaf_commit : L -> S -> outcome (L * S)).
  Variable le : S -> S -> Prop.
  Hypothesis le_refl : forall s, le s s.
  Hypothesis le_trans : forall s t u, le s t -> le t u -> le s u.
  Notation rec_all := (recC_all leaf_restore leaf_commit le).
  Lemma rec_all_app l1 l2 s0 s1 s2 : rec_all l1 s0 s1 -> rec_all l2 s1 s2 -> rec_all (l1 ++ l2) s0 s2.
  Proof.
    intros H. revert l2 s2. induction H as [s0 s1 H01|a t s0 u1 u1' u2 Ha Hle Ht IH]; intros l2 s2 H2; cbn [app].
    - apply (proj2 (recC_before_all leaf_restore leaf_commit le le_trans) l2 s1 s2 H2 s0 H01).
    - apply recC_cons with u1 u1'; auto.
  Qed.
End Lists.

Definition full (m : mesh) : Prop := exists n, n < length (m_nodes m) /\ max_edges_per_node <= degree_of m n.

Section Flipping.
  Variable order : list point -> list edge -> nat -> list (option nat) -> list (option nat).
  Hypothesis order_perm : forall nodes edges n row, Permutation row (order nodes edges n row).
  Variable clockwise : projection -> list point -> bool.
  Variable types_of : mesh -> faces -> list nat.
  Variable cross : point -> point -> point -> point -> bool.
  Hypothesis cross_point : forall p q r, cross p q r r = false.
  Variable land : mesh -> nat -> nat -> nat -> option Z.
  Notation tree_ok := (recC (restore_leaf order) (commit_leaf order) mesh_le).
  Notation list_ok := (recC_all (restore_leaf order) (commit_leaf order) mesh_le).
  Notation reversible_tree := (reversible (restore_act (restore_leaf order)) (commit_act (commit_leaf order)) mesh_le).
  Notation flips types := (flips types cross land).
  Notation improvable types := (improvable types cross land).
  Notation wanted types := (wanted types cross land).

  (** *** Sequences of flips *)
  Lemma flips_same types m f k m' f' : flips types m f k m' f' -> m_nodes m' = m_nodes m /\ m_projection m' = m_projection m /\ length (m_edges m') = length (m_edges m) /\ num_faces f' = num_faces f.
  Proof.
    induction 1 as [|k m1 f1 e a b l r lf rf m2 f2 _ IH _ _ _ T _]; [auto|]. destruct IH as (I1 & I2 & I3 & I4). destruct T as ((T1 & T2 & T3) & _ & _ & T4 & _).
    split; [|split; [|split]]; etransitivity; eauto.
  Qed.
  Lemma flips_in_step types m f k m' f' : in_step m f -> flips types m f k m' f' -> in_step m' f'.
  Proof. intros H. destruct 1; auto. Qed.
  Lemma flips_quality types m f k m' f' : (forall m e l r, land m e l r = None) -> in_step m f -> flips types m f k m' f' -> (Z.of_nat k + quality types m' <= quality types m)%Z.
  Proof.
    intros HL Hs. induction 1 as [|k m1 f1 e a b l r lf rf m2 f2 F IH B Hlr [_ W] T I]; [apply Z.le_refl|].
    pose proof (flips_in_step _ _ _ _ _ _ Hs F) as Hs1. pose proof (quality_turned types _ _ _ _ _ _ _ _ _ _ _ Hs1 B Hlr T) as E. rewrite HL in W. unfold better in W.
    rewrite Nat2Z.inj_succ. clear - IH E W. lia.
  Qed.

  Lemma turned_administrated m f e a b l r lf rf m' f' : in_step m f -> between m f e a b l r lf rf -> l <> r -> turned m f e a b l r lf rf m' f' -> administrated m -> administrated m'.
  Proof.
    intros Hs Hb Hlr Ht [A1 A2]. destruct (quad_between m f e a b l r lf rf Hs Hb) as (al & bl & ar & br & Q).
    destruct (quad_distinct _ _ _ _ _ _ _ _ _ _ _ _ _ Q Hlr) as ((D1 & D2 & D3 & D4) & _).
    destruct (q_nl _ _ _ _ _ _ _ _ _ _ _ _ _ Q) as (n0 & n1 & n2 & Hnl & Pl). destruct (q_nr _ _ _ _ _ _ _ _ _ _ _ _ _ Q) as (n0' & n1' & n2' & Hnr & Pr).
    destruct (q_el _ _ _ _ _ _ _ _ _ _ _ _ _ Q) as (e0 & e1 & e2 & Hel & _). destruct (q_er _ _ _ _ _ _ _ _ _ _ _ _ _ Q) as (e0' & e1' & e2' & Her & _).
    destruct (st_face m f Hs lf _ _ Hnl Hel) as (_ & _ & _ & V1). destruct (st_face m f Hs rf _ _ Hnr Her) as (_ & _ & _ & V2).
    assert (Va : valid_at (m_nodes m) a = true) by (apply V1; rewrite Pl; cbn; auto). assert (Vb : valid_at (m_nodes m) b = true) by (apply V1; rewrite Pl; cbn; auto).
    assert (Vl : valid_at (m_nodes m) l = true) by (apply V1; rewrite Pl; cbn; auto). assert (Vr : valid_at (m_nodes m) r = true) by (apply V2; rewrite Pr; cbn; auto).
    destruct (q_al _ _ _ _ _ _ _ _ _ _ _ _ _ Q) as [Lal Jal]. destruct (q_bl _ _ _ _ _ _ _ _ _ _ _ _ _ Q) as [Lbl Jbl].
    pose proof (q_e _ _ _ _ _ _ _ _ _ _ _ _ _ Q) as He. pose proof (q_ed _ _ _ _ _ _ _ _ _ _ _ _ _ Q) as Hed.
    destruct Ht as ((T1 & T2 & T3) & T4 & T5 & _).
    assert (LV : forall ed x y, joins ed x y -> valid_at (m_nodes m) x = true -> valid_at (m_nodes m) y = true -> live (m_nodes m) ed = true) by (intros ed x y [-> | ->] H1 H2; cbn; rewrite H1, H2; reflexivity).
    assert (In' : forall k, k < length (m_edges m) -> In (edge_at m' k) (m_edges m')) by (intros k Hk; unfold edge_at; apply nth_In; rewrite T3; exact Hk).
    split.
    - intros n p Hp. rewrite T1 in Hp |- *. destruct (A1 n p Hp) as [H|H]; [auto|right]. destruct H as (ed & H1 & H2 & H3). apply In_nth_error in H1 as (k & Hk).
      assert (Lk : k < length (m_edges m)) by (apply nth_error_Some; congruence). assert (Ek : edge_at m k = ed) by (unfold edge_at; apply nth_error_nth; exact Hk).
      destruct (Nat.eq_dec k e) as [->|Nk].
      + rewrite Hed in Ek. subst ed. assert (X : n = a \/ n = b) by (destruct H3 as [H3|H3]; cbn in H3; injection H3 as ->; auto). destruct X as [->| ->].
        * exists (edge_at m' al). rewrite T5 by assumption. split; [rewrite <- (T5 al) by assumption; auto|]. split; [eapply LV; eauto|]. exact (proj1 (joins_end _ _ _ Jal)).
        * exists (edge_at m' bl). rewrite T5 by assumption. split; [rewrite <- (T5 bl) by assumption; auto|]. split; [eapply LV; eauto|]. exact (proj1 (joins_end _ _ _ Jbl)).
      + exists ed. split; [rewrite <- Ek, <- (T5 k Nk); auto|auto].
    - intros ed Hin. apply In_nth_error in Hin as (k & Hk). assert (Lk : k < length (m_edges m)) by (rewrite <- T3; apply nth_error_Some; congruence).
      assert (Ek : edge_at m' k = ed) by (unfold edge_at; apply nth_error_nth; exact Hk). rewrite T1. destruct (Nat.eq_dec k e) as [->|Nk].
      + right. rewrite <- Ek, T4. cbn. now rewrite Vl, Vr.
      + rewrite <- Ek, T5 by exact Nk. apply A2. unfold edge_at. apply nth_In. exact Lk.
  Qed.
  Lemma flips_administrated types m f k m' f' : in_step m f -> administrated m -> flips types m f k m' f' -> administrated m'.
  Proof.
    intros Hs Ha. induction 1 as [|k m1 f1 e a b l r lf rf m2 f2 F IH B Hlr W T I]; [exact Ha|].
    exact (turned_administrated _ _ _ _ _ _ _ _ _ _ _ (flips_in_step _ _ _ _ _ _ Hs F) B Hlr T IH).
  Qed.

  (** *** Passes *)
  Section Passes.
    Variable types : list nat.
    Variables (m0 m1 : mesh) (f1 : faces).
    Hypothesis Hs1 : in_step m1 f1.
    Hypothesis Lt : length types = length (m_nodes m1).

    Definition state (k : nat) (s : flipping) : Prop := flips types m1 f1 k (s_mesh s) (s_faces s) /\ list_ok (s_acts s) m0 (s_mesh s).
    Definition stuck (s : flipping) (e : nat) : Prop := ~ improvable types (s_mesh s) (s_faces s) e /\ ~ beside_other (s_faces s) e.

    Lemma sweep_ok es : forall s k, (forall e, In e es -> e < length (m_edges m1)) -> state k s ->
      match sweep order cross land types es s with
      | Ok (stop, s') => exists k', state k' s' /\ s_count s + k' = s_count s' + k /\ s_count s <= s_count s' /\
          (stop = true -> exists e, e < length (m_edges m1) /\ beside_other (s_faces s') e) /\
          (stop = false -> s_count s' = s_count s -> s' = s /\ forall e, In e es -> stuck s e)
      | Throw _ => False
      | UB => exists k' m2 f2, flips types m1 f1 k' m2 f2 /\ full m2
      end.
    Proof.
      induction es as [|e es IH]; intros s k He Hst.
      - cbn [sweep]. exists k. split; [exact Hst|]. split; [lia|]. split; [lia|]. split; [discriminate|]. intros _ _. split; [reflexivity|intros e []].
      - cbn [sweep]. destruct Hst as [Hf Ha]. pose proof (flips_in_step _ _ _ _ _ _ Hs1 Hf) as Hs. destruct (flips_same _ _ _ _ _ _ Hf) as (N1 & N2 & N3 & N4).
        destruct (examine_ok cross cross_point land types (s_mesh s) (s_faces s) e Hs) as [(-> & S1 & S2)|[(-> & S1)|(a & b & l & r & lf & rf & -> & B & Hlr & W)]];
          [rewrite N3; apply He; left; reflexivity|rewrite N1; exact Lt|..]; cbn [bind].
        + specialize (IH s k (fun x Hx => He x (or_intror Hx)) (conj Hf Ha)). destruct (sweep order cross land types es s) as [[stop s']| |]; auto.
          destruct IH as (k' & I1 & I2 & I3 & I4 & I5). exists k'. split; [exact I1|]. split; [exact I2|]. split; [exact I3|]. split; [exact I4|].
          intros H1 H2. destruct (I5 H1 H2) as [-> I6]. split; [reflexivity|]. intros x [<-|Hx]; [split; assumption|apply I6; exact Hx].
        + exists k. split; [split; assumption|]. split; [reflexivity|]. split; [apply Nat.le_refl|]. split; [|discriminate]. intros _. exists e. split; [apply He; left; reflexivity|exact S1].
        + destruct (flip_ok order order_perm _ _ _ _ _ _ _ _ _ Hs B Hlr) as [(m2 & f2 & -> & T & I & _ & _ & Le)|(-> & n & Hn)]; cbn [bind].
          * cbn [compound_add leaf act_state bind].
            assert (HT : state (S k) (Flipping (s_acts s ++ [Leaf Committed (ResetEdgeA e (edge_at (s_mesh s) e) (Some l, Some r))]) m2 f2 (S (s_count s)))).
            { split; cbn [s_mesh s_faces s_acts].
              - eapply flips_more; eauto.
              - destruct B as (Be & _). destruct T as ((T1 & _) & T2 & _).
                assert (V : forall n, ends_in (Some l, Some r) n -> n < length (m_nodes (s_mesh s))).
                { intros n Hn. rewrite <- T1. apply (co_ends m2 (st_mesh m2 f2 I) (edge_at m2 e)); [|rewrite T2; exact Hn].
                  unfold edge_at. destruct (Nat.ltb_spec e (length (m_edges m2))) as [X|X]; [apply nth_In; exact X|]. unfold edge_at in T2. rewrite nth_overflow in T2 by exact X. discriminate. }
                destruct (reset_edge_ok order (s_mesh s) e (Some l, Some r) (st_mesh _ _ Hs) Be V) as (_ & RT & _).
                eapply recC_all_le; [apply mesh_le_trans|eapply list_snoc; [exact Ha|exact RT]|exact Le]. }
            specialize (IH _ (S k) (fun x Hx => He x (or_intror Hx)) HT). cbn [s_count] in IH.
            match goal with |- context [sweep order cross land types es ?s0] => change s0 with (Flipping (s_acts s ++ [Leaf Committed (ResetEdgeA e (edge_at (s_mesh s) e) (Some l, Some r))]) m2 f2 (S (s_count s))) end.
            destruct (sweep order cross land types es _) as [[stop s']| |]; auto. destruct IH as (k' & I1 & I2 & I3 & I4 & I5). exists k'.
            split; [exact I1|]. split; [clear - I2; lia|]. split; [clear - I3; lia|]. split; [exact I4|]. intros _ H. clear - I3 H. lia.
          * exists k, (s_mesh s), (s_faces s). split; [exact Hf|]. exists n. exact Hn.
    Qed.

    Lemma rounds_ok n : forall s k, state k s ->
      match rounds order cross land n types (length (m_edges m1)) s with
      | Ok (stop, s') => exists k', state k' s' /\ (stop = true -> exists e, e < length (m_edges m1) /\ beside_other (s_faces s') e) /\
          (stop = false -> 0 < n -> s_count s' = 0 -> forall e, e < length (m_edges m1) -> stuck s' e) /\
          (stop = false -> 0 < n -> s_count s' <> 0 -> k + n <= k')
      | Throw _ => False
      | UB => exists k' m2 f2, flips types m1 f1 k' m2 f2 /\ full m2
      end.
    Proof.
      induction n as [|n IH]; intros s k Hst.
      - cbn [rounds]. exists k. split; [exact Hst|]. split; [discriminate|]. split; intros _ H; inversion H.
      - cbn [rounds]. assert (Hst0 : state k (Flipping (s_acts s) (s_mesh s) (s_faces s) 0)) by exact Hst.
        pose proof (sweep_ok (seq 0 (length (m_edges m1))) _ k (fun e He => proj2 (proj1 (in_seq _ _ _) He)) Hst0) as Sw. cbn [s_count] in Sw.
        destruct (sweep order cross land types _ _) as [[stop s']| |]; cbn [bind]; auto. destruct Sw as (k' & W1 & W2 & _ & W4 & W5). destruct stop.
        + exists k'. split; [exact W1|]. split; [exact W4|]. split; discriminate.
        + destruct (Nat.eqb_spec (s_count s') 0) as [E|E].
          * exists k'. split; [exact W1|]. split; [discriminate|]. split; [|intros _ _ H; contradiction]. intros _ _ _ e He. destruct (W5 eq_refl E) as [-> Hk]. apply Hk. apply in_seq. split; [apply Nat.le_0_l|exact He].
          * specialize (IH s' k' W1). destruct n as [|n].
            -- cbn [rounds] in IH |- *. exists k'. split; [exact W1|]. split; [discriminate|]. split; [intros _ _ H; contradiction|]. intros _ _ _. clear - W2 E. lia.
            -- destruct (rounds order cross land (S n) types (length (m_edges m1)) s') as [[stop s2]| |]; auto. destruct IH as (k2 & R1 & R2 & R3 & R4). exists k2.
               split; [exact R1|]. split; [exact R2|]. split; [intros H _; apply R3; [exact H|apply Nat.lt_0_succ]|]. intros H _ H2. specialize (R4 H (Nat.lt_0_succ n) H2). clear - R4 W2 E. lia.
    Qed.
  End Passes.

  (** *** The tables after administration *)
  Lemma found_in_step m m' f : consistent m -> administrate2d order clockwise m = Ok (m', f) -> consistent m' -> in_step m' f.
  Proof.
    intros Hc H Hc'. pose proof (co_ends m Hc) as Hw. destruct (faces_cycles order order_perm clockwise m m' f Hw H) as [Lf Hcy].
    pose proof (faces_tables order order_perm clockwise m m' f Hw H) as (T1 & T2 & T3 & T4 & T5).
    destruct (faces_once order order_perm clockwise m m' f Hw H) as (_ & Wk & _).
    assert (Hm : administrate order m = Ok m') by (unfold administrate2d in H; apply bind_ok_inv in H as (m2 & H1 & H); apply bind_ok_inv in H as (f2 & H2 & H); injection H as <- _; exact H1).
    destruct (administrate_live order order_perm m m' Hw Hm) as (Hw' & _ & Hx & Hz).
    assert (R : forall n, n < length (m_nodes m') -> degree_of m' n = length (row_of m' n) /\ NoDup (row_of m' n) /\
      forall oe, In oe (row_of m' n) -> exists e o, oe = Some e /\ e < length (m_edges m') /\ joins (edge_at m' e) n o /\ In (Some e) (row_of m' o)).
    { intros n Hn. assert (D : (m_nodes m = [] \/ m_edges m = []) \/ (m_nodes m <> [] /\ m_edges m <> [])) by (destruct (m_nodes m), (m_edges m); auto; right; split; discriminate).
      destruct D as [D|[D1 D2]].
      - destruct (Hz D) as [[Z|Z] _]; [rewrite Z in Hn; inversion Hn|]. assert (E : row_of m' n = []).
        { destruct (row_of m' n) as [|x l] eqn:E; [reflexivity|]. destruct (co_listed m' Hc' n x) as (e & _ & He); [rewrite E; left; reflexivity|]. rewrite Z in He. inversion He. }
        pose proof (co_fill m' Hc' n Hn) as F. rewrite E in *. split; [cbn in F |- *; lia|]. split; [constructor|intros oe []].
      - specialize (Hx D1 D2). destruct (adj_count m' Hx n Hn) as [C1 _]. split; [exact C1|]. split; [apply (adj_nodup m' Hx n Hn)|]. intros oe Ho.
        destruct (adj_sound m' Hx n oe Hn Ho) as (e & o & -> & He & J). exists e, o. split; [reflexivity|]. split; [exact He|]. split; [exact J|]. eapply (adj_symmetric m' Hx); eauto. }
    assert (FW : forall i e, lists f i e <-> In i (faces_with f e)).
    { intros i e. unfold faces_with. rewrite filter_In, in_seq, existsb_exists. unfold lists. split.
      - intros (es & H1 & H2). assert (i < length (faces_edges f)) by (apply nth_error_Some; congruence). unfold num_faces in *. split; [lia|]. exists e. rewrite (nth_error_nth _ _ _ H1). split; [exact H2|apply Nat.eqb_refl].
      - intros (H1 & x & H2 & H3). apply Nat.eqb_eq in H3. subst x. exists (nth i (faces_edges f) []). split; [apply nth_error_nth'; unfold num_faces in *; lia|exact H2]. }
    assert (FN : forall e, NoDup (faces_with f e)) by (intros e; apply NoDup_filter, seq_NoDup).
    constructor.
    - exact Hc'.
    - auto.
    - intros i ns es H1 H2. destruct (Hcy i ns es H1 H2) as (C1 & C2 & _ & C4 & _ & C6). split; [lia|auto].
    - intros e He. destruct (T5 e He) as (F1 & F2 & F3). eexists _, _. split; [exact F3|]. specialize (FN e). split; [intros i; rewrite FW|split; [|split; [|rewrite F2]]];
        destruct (faces_with f e) as [|x [|y [|z l]]]; cbn in *; try discriminate; try lia; try (split; [intros [->|[]]; auto|intros [H0|H0]; [injection H0; auto|discriminate]]);
        try (split; [intros []|intros [|]; discriminate]); auto.
      + split; [intros [->|[->|[]]]; auto|intros [H0|H0]; injection H0; auto].
      + intros H0. injection H0 as ->. inversion_clear FN as [|? ? X _]. exfalso. apply X. left. reflexivity.
    - exact R.
    - intros i e n (es & Hes & Hin) Hn. assert (Li : i < length (faces_edges f)) by (apply nth_error_Some; congruence).
      destruct (nth_error (faces_nodes f) i) as [ns|] eqn:Hns; [|apply nth_error_None in Hns; unfold num_faces in T1; lia].
      destruct (Wk i ns es Hns Hes) as ((Lc & Cy) & W0 & W1). destruct (Hcy i ns es Hns Hes) as (C1 & _ & _ & _ & _ & C6).
      apply In_nth_error in Hin as (j & Hj). assert (Lj : j < length ns) by (rewrite <- Lc; apply nth_error_Some; congruence).
      destruct (nth_error ns j) as [x|] eqn:Hx'; [|apply nth_error_None in Hx'; lia].
      assert (Hrow : In (Some e) (row_of m' x)).
      { destruct j as [|j]; [apply W0; assumption|]. destruct (nth_error es j) as [e'|] eqn:He'; [|apply nth_error_None in He'; lia].
        destruct (W1 j x e' e Hx' He' Hj) as (i' & _ & H2). eapply nth_error_In; eauto. }
      assert (Lx : x < length (m_nodes m')) by (apply valid_lt, C6; eapply nth_error_In; eauto).
      destruct (R x Lx) as (_ & _ & R3). destruct (R3 _ Hrow) as (e' & o & E & _ & J & I). injection E as <-. destruct (joins_ends _ _ _ _ J Hn) as [->| ->]; assumption.
  Qed.

  Lemma administrate2d_undo_ok m : consistent m -> exists m' f acts, administrate2d_undo order clockwise m = Ok (m', f, acts) /\ administrate2d order clockwise m = Ok (m', f) /\
    list_ok acts m m' /\ in_step m' f /\ administrated m'.
  Proof.
    intros Hc. destruct (administrate_undo_ok order order_perm m Hc) as (m' & new & H & HL & Hc'). destruct (faces_safe order order_perm clockwise m (co_ends m Hc)) as (m2 & f & H2 & H3).
    assert (E : m2 = m') by (unfold administrate in H3; rewrite H in H3; cbn in H3; congruence). subst m2.
    exists m', f, (map leaf new). split; [|split; [exact H2|split; [exact HL|split; [exact (found_in_step m m' f Hc H2 Hc')|]]]].
    - unfold administrate2d_undo. rewrite H. cbn [bind]. unfold administrate2d in H2. rewrite H3 in H2. cbn [bind] in H2. apply bind_ok_inv in H2 as (f2 & H4 & H2). injection H2 as <-. rewrite H4. reflexivity.
    - destruct (administrate_result order order_perm m m' (co_ends m Hc) H3) as (Hn & He & _). destruct (admin_idem (m_nodes m) (m_edges m)) as [I1 I2]. rewrite <- Hn, <- He in I1, I2.
      apply (proj1 (settled_iff _ _ (co_ends m' Hc')) (conj I1 I2)).
  Qed.
  Lemma administrated_kept m m' f : consistent m -> administrated m -> administrate2d order clockwise m = Ok (m', f) -> m_nodes m' = m_nodes m /\ m_edges m' = m_edges m /\ m_projection m' = m_projection m.
  Proof.
    intros Hc Ha H. assert (Hm : administrate order m = Ok m') by (unfold administrate2d in H; apply bind_ok_inv in H as (m2 & H1 & H); apply bind_ok_inv in H as (f2 & H2 & H); injection H as <- _; exact H1).
    destruct (administrate_result order order_perm m m' (co_ends m Hc) Hm) as (Hn & He & Hp & _). destruct (proj2 (settled_iff _ _ (co_ends m Hc)) Ha) as [A1 A2]. rewrite A1 in Hn. rewrite A2 in He. auto.
  Qed.

  (** The mesh the flips start from. *)
  Definition prepared (triangulate : bool) (m m1 : mesh) (f1 : faces) : Prop :=
    if triangulate then exists m0 f0 a m0', administrate2d order clockwise m = Ok (m0, f0) /\ triangulate_faces order f0 m0 = Ok (a, m0') /\ administrate2d order clockwise m0' = Ok (m1, f1)
    else administrate2d order clockwise m = Ok (m1, f1).

  Hypothesis types_length : forall m f, in_step m f -> length (types_of m f) = length (m_nodes m).

  Lemma flip_edges_ok triangulate m : consistent m ->
    exists m1 f1, prepared triangulate m m1 f1 /\ in_step m1 f1 /\ administrated m1 /\
      let types := types_of m1 f1 in
      match flip_edges order clockwise types_of cross land triangulate m with
      | Ok (a, m', f') => reversible_tree a m m' /\ exists k m2 f2, flips types m1 f1 k m2 f2 /\ in_step m2 f2 /\
          ((m' = m2 /\ f' = f2 /\ exists e, e < length (m_edges m2) /\ beside_other f2 e) \/
           (administrate2d order clockwise m2 = Ok (m', f') /\ m_nodes m' = m_nodes m2 /\ m_edges m' = m_edges m2 /\ m_projection m' = m_projection m2 /\ in_step m' f' /\
            forall e, e < length (m_edges m2) -> ~ improvable types m2 f2 e /\ ~ beside_other f2 e))
      | Throw x => x = AlgorithmErr /\ exists k m2 f2, flips types m1 f1 k m2 f2 /\ max_rounds <= k
      | UB => exists k m2 f2, flips types m1 f1 k m2 f2 /\ full m2
      end.
  Proof.
    intros Hc.
    assert (Pre : exists m1 f1 acts, (let! x := administrate2d_undo order clockwise m in let '(m, f, acts) := x in
        (if triangulate then let! (a, m) := triangulate_faces order f m in let! x := administrate2d_undo order clockwise m in let '(m, f, acts') := x in Ok (m, f, acts ++ [a] ++ acts') else Ok (m, f, acts))) = Ok (m1, f1, acts) /\
      prepared triangulate m m1 f1 /\ in_step m1 f1 /\ administrated m1 /\ list_ok acts m m1).
    { destruct (administrate2d_undo_ok m Hc) as (m0 & f0 & acts0 & E0 & A0 & L0 & S0 & D0). rewrite E0. cbn [bind]. destruct triangulate.
      - destruct (triangulate_tree order f0 m0 (st_mesh _ _ S0)) as (acts1 & m0' & E1 & L1 & C1 & _).
        + apply (st_tables _ _ S0).
        + intros ns n Hns Hn. apply In_nth_error in Hns as (i & Hi). destruct (st_tables _ _ S0) as (T1 & _). assert (Li : i < length (faces_nodes f0)) by (apply nth_error_Some; congruence).
          destruct (nth_error (faces_edges f0) i) as [es|] eqn:Hes; [|apply nth_error_None in Hes; unfold num_faces in T1; lia]. destruct (st_face _ _ S0 i ns es Hi Hes) as (_ & _ & _ & V). apply valid_lt, V, Hn.
        + rewrite E1. cbn [bind]. destruct (administrate2d_undo_ok m0' C1) as (m1 & f1 & acts2 & E2 & A2 & L2 & S2 & D2). rewrite E2. cbn [bind]. exists m1, f1, (acts0 ++ [compound acts1] ++ acts2).
          split; [reflexivity|]. split; [exists m0, f0, (compound acts1), m0'; auto|]. split; [exact S2|]. split; [exact D2|].
          rewrite app_assoc. eapply rec_all_app; [intros; eapply mesh_le_trans; eauto| |exact L2]. eapply list_snoc; [exact L0|]. apply recC_comp. exact L1.
      - exists m0, f0, acts0. auto. }
    destruct Pre as (m1 & f1 & acts & E & P & S1 & D1 & L1). exists m1, f1. split; [exact P|]. split; [exact S1|]. split; [exact D1|]. cbn zeta.
    assert (EF : flip_edges order clockwise types_of cross land triangulate m =
      let! (stop, s) := rounds order cross land max_rounds (types_of m1 f1) (length (m_edges m1)) (Flipping acts m1 f1 0) in
      if stop then Ok (compound (s_acts s), s_mesh s, s_faces s)
      else if negb (s_count s =? 0) then Throw AlgorithmErr
      else let! x := administrate2d_undo order clockwise (s_mesh s) in let '(m, f, acts') := x in Ok (compound (s_acts s ++ acts'), m, f)).
    { unfold flip_edges. apply bind_ok_inv in E as (((m0 & f0) & acts0) & -> & E). cbn [bind]. rewrite E. cbn [bind]. reflexivity. }
    rewrite EF. clear EF E.
    pose proof (rounds_ok (types_of m1 f1) m m1 f1 S1 (types_length m1 f1 S1) max_rounds (Flipping acts m1 f1 0) 0 (conj (flips_none _ _ _ m1 f1) L1)) as R.
    destruct (rounds order cross land max_rounds (types_of m1 f1) (length (m_edges m1)) (Flipping acts m1 f1 0)) as [[stop s]| |]; cbn [bind]; [|destruct R|exact R].
    destruct R as (k & [Hf Ha] & R2 & R3 & R4). pose proof (flips_in_step _ _ _ _ _ _ S1 Hf) as Hs. destruct (flips_same _ _ _ _ _ _ Hf) as (N1 & N2 & N3 & N4).
    destruct stop.
    - split; [apply tree_reversible, recC_comp; exact Ha|]. exists k, (s_mesh s), (s_faces s). split; [exact Hf|]. split; [exact Hs|]. left. split; [reflexivity|]. split; [reflexivity|].
      destruct (R2 eq_refl) as (e & He & B). exists e. rewrite N3. auto.
    - destruct (Nat.eqb_spec (s_count s) 0) as [E|E]; cbn [negb].
      + destruct (administrate2d_undo_ok (s_mesh s) (st_mesh _ _ Hs)) as (m' & f' & acts' & -> & A' & L' & S' & _). cbn [bind].
        split; [apply tree_reversible, recC_comp; eapply rec_all_app; [intros; eapply mesh_le_trans; eauto|exact Ha|exact L']|].
        exists k, (s_mesh s), (s_faces s). split; [exact Hf|]. split; [exact Hs|]. right. split; [exact A'|].
        destruct (administrated_kept _ _ _ (st_mesh _ _ Hs) (flips_administrated _ _ _ _ _ _ S1 D1 Hf) A') as (K1 & K2 & K3).
        split; [exact K1|]. split; [exact K2|]. split; [exact K3|]. split; [exact S'|]. intros e He. apply R3; auto; [apply Nat.lt_0_succ|rewrite <- N3; exact He].
      + split; [reflexivity|]. exists k, (s_mesh s), (s_faces s). split; [exact Hf|]. apply (R4 eq_refl); [apply Nat.lt_0_succ|exact E].
  Qed.

  (** *** The statements, for a given start *)
  Lemma prepared_same triangulate m m1 f1 m1' f1' : prepared triangulate m m1 f1 -> prepared triangulate m m1' f1' -> m1 = m1' /\ f1 = f1'.
  Proof.
    unfold prepared. destruct triangulate.
    - intros (m0 & f0 & a & m0' & A & B & C) (m2 & f2 & b & m2' & A' & B' & C'). rewrite A in A'. injection A' as <- <-. rewrite B in B'. injection B' as <- <-. rewrite C in C'. injection C' as <- <-. auto.
    - intros A B. rewrite A in B. injection B as <- <-. auto.
  Qed.

  Lemma flip_start triangulate m : consistent m -> exists m1 f1, prepared triangulate m m1 f1 /\ in_step m1 f1 /\ administrated m1.
  Proof. intros Hc. destruct (flip_edges_ok triangulate m Hc) as (m1 & f1 & P & S & A & _). eauto. Qed.

  Lemma flip_result triangulate m m1 f1 : consistent m -> prepared triangulate m m1 f1 ->
    let types := types_of m1 f1 in
    match flip_edges order clockwise types_of cross land triangulate m with
    | Ok (a, m', f') => reversible_tree a m m' /\ exists k m2 f2, flips types m1 f1 k m2 f2 /\ in_step m2 f2 /\
        ((m' = m2 /\ f' = f2 /\ exists e, e < length (m_edges m2) /\ beside_other f2 e) \/
         (administrate2d order clockwise m2 = Ok (m', f') /\ m_nodes m' = m_nodes m2 /\ m_edges m' = m_edges m2 /\ m_projection m' = m_projection m2 /\ in_step m' f' /\
          forall e, e < length (m_edges m2) -> ~ improvable types m2 f2 e /\ ~ beside_other f2 e))
    | Throw x => x = AlgorithmErr /\ exists k m2 f2, flips types m1 f1 k m2 f2 /\ max_rounds <= k
    | UB => exists k m2 f2, flips types m1 f1 k m2 f2 /\ full m2
    end.
  Proof.
    intros Hc P. destruct (flip_edges_ok triangulate m Hc) as (m1' & f1' & P' & _ & _ & H). destruct (prepared_same _ _ _ _ _ _ P P') as [-> ->]. exact H.
  Qed.

  (** All faces are triangles. *)
  Definition all_triangles (f : faces) : Prop := forall ns, In ns (faces_nodes f) -> length ns = 3.
  Lemma flips_triangles types m f k m' f' : all_triangles f -> flips types m f k m' f' -> all_triangles f'.
  Proof.
    intros Ht. induction 1 as [|k m1 f1 e a b l r lf rf m2 f2 F IH B Hlr W T I]; [exact Ht|]. destruct T as (_ & _ & _ & _ & T1 & (nl & T2 & P2) & (nr & T3 & P3) & _).
    intros ns Hns. apply In_nth_error in Hns as (i & Hi). destruct (Nat.eq_dec i lf) as [->|N1]; [rewrite T2 in Hi; injection Hi as <-; exact (Permutation_length P2)|].
    destruct (Nat.eq_dec i rf) as [->|N2]; [rewrite T3 in Hi; injection Hi as <-; exact (Permutation_length P3)|]. destruct (T1 i N1 N2) as [E _]. rewrite E in Hi. apply IH. eapply nth_error_In; eauto.
  Qed.
  Lemma triangles_beside f e : all_triangles f -> ~ beside_other f e.
  Proof. intros H (i & j & ni & nj & _ & H1 & H2 & H3). apply H3. split; apply H; eapply nth_error_In; eauto. Qed.

  Lemma flip_triangles triangulate m m1 f1 a m' f' : consistent m -> prepared triangulate m m1 f1 -> all_triangles f1 ->
    flip_edges order clockwise types_of cross land triangulate m = Ok (a, m', f') ->
    exists k m2 f2, flips (types_of m1 f1) m1 f1 k m2 f2 /\ administrate2d order clockwise m2 = Ok (m', f') /\ m_nodes m' = m_nodes m1 /\ m_edges m' = m_edges m2 /\ in_step m' f' /\
      forall e, ~ improvable (types_of m1 f1) m2 f2 e.
  Proof.
    intros Hc P Ht E. pose proof (flip_result triangulate m m1 f1 Hc P) as H. cbn zeta in H. rewrite E in H. destruct H as (_ & k & m2 & f2 & F & I & D). exists k, m2, f2. split; [exact F|].
    pose proof (flips_triangles _ _ _ _ _ _ Ht F) as Ht2. destruct (flips_same _ _ _ _ _ _ F) as (N1 & _). destruct D as [(_ & _ & e & _ & B)|(D1 & D2 & D3 & _ & D5 & D6)]; [destruct (triangles_beside _ _ Ht2 B)|].
    split; [exact D1|]. split; [congruence|]. split; [exact D3|]. split; [exact D5|]. intros e Hi. assert (He : e < length (m_edges m2)) by (destruct Hi as (? & ? & ? & ? & ? & ? & (X & _) & _); exact X). exact (proj1 (D6 e He) Hi).
  Qed.

  Lemma flip_succeeds triangulate m m1 f1 : (forall m e l r, land m e l r = None) -> consistent m -> prepared triangulate m m1 f1 -> in_step m1 f1 ->
    ((quality (types_of m1 f1) m1 < 10)%Z -> exists r, flip_edges order clockwise types_of cross land triangulate m = Ok r) /\
    ((quality (types_of m1 f1) m1 < 100)%Z -> flip_edges order clockwise types_of cross land triangulate m <> UB).
  Proof.
    intros HL Hc P Hs. pose proof (flip_result triangulate m m1 f1 Hc P) as H. cbn zeta in H.
    assert (UBn : (exists k m2 f2, flips (types_of m1 f1) m1 f1 k m2 f2 /\ full m2) -> (100 <= quality (types_of m1 f1) m1)%Z).
    { intros (k & m2 & f2 & F & n & Hn & Hd). pose proof (flips_quality _ _ _ _ _ _ HL Hs F) as Q. pose proof (quality_full (types_of m1 f1) m2 n Hn Hd) as Q2. clear - Q Q2. lia. }
    destruct (flip_edges order clockwise types_of cross land triangulate m) as [r|x|].
    - split; [eauto|discriminate].
    - split; [|discriminate]. intros HQ. exfalso. destruct H as (_ & k & m2 & f2 & F & Hk). pose proof (flips_quality _ _ _ _ _ _ HL Hs F) as Q. pose proof (quality_nonneg (types_of m1 f1) m2) as Q0.
      unfold max_rounds in Hk. clear - HQ Q Q0 Hk. lia.
    - apply UBn in H. split; intros HQ; exfalso; clear - H HQ; lia.
  Qed.
End Flipping.

Lemma start_exists order (order_perm : forall nodes edges n row, Permutation row (order nodes edges n row)) clockwise triangulate m : consistent m ->
  exists m1 f1, prepared order clockwise triangulate m m1 f1 /\ in_step m1 f1 /\ administrated m1.
Proof.
  apply (flip_start order order_perm clockwise (fun m _ => repeat 0 (length (m_nodes m))) (fun _ _ _ _ => false) (fun _ _ _ => eq_refl) (fun _ _ _ _ => None)). intros. apply repeat_length.
Qed.

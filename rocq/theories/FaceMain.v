(** Faces after administration. *)
From Coq Require Import Permutation.
From Verif Require Import Base BaseLemmas FloatModel FloatProofs MeshModel MeshSpec MeshProofs MeshAdj MeshConstruct MeshUndo MeshEdits MeshFacts MeshWitness
  FaceModel FaceSpec GridProofs FaceProofs FaceSearch.

Lemma idx_in (a : option nat) l : In a l \/ ~ In a l.
Proof.
  destruct (existsb (eq_idx a) l) eqn:B; [left|right].
  - apply existsb_exists in B as (x & Hx & B). apply eq_idx_ok in B. congruence.
  - intros H. rewrite <- not_true_iff_false in B. apply B, existsb_exists. exists a. split; [exact H|]. apply eq_idx_ok. reflexivity.
Qed.
Lemma not_nodup (l : list (option nat)) : ~ NoDup l -> exists a l1 l2 l3, l = l1 ++ a :: l2 ++ a :: l3.
Proof.
  induction l as [|a t IH]; intros H; [destruct H; constructor|]. destruct (idx_in a t) as [Ha|Ha].
  - apply in_split in Ha as (l1 & l2 & ->). exists a, [], l1, l2. reflexivity.
  - destruct IH as (b & l1 & l2 & l3 & ->); [intros Hn; apply H; constructor; auto|]. exists b, (a :: l1), l2, l3. reflexivity.
Qed.

Lemma no_faces_inv clockwise m : inv clockwise m (no_faces m).
Proof.
  split.
  - unfold tables_agree, no_faces, num_faces, faces_with. cbn. rewrite !repeat_length. split; [reflexivity|]. split; [reflexivity|]. split; [reflexivity|]. split; [reflexivity|].
    intros e He. split; [lia|]. rewrite !nth_error_repeat by exact He. auto.
  - intros [|i] ns es H; discriminate.
  - intros [|i] j es es' H; discriminate.
Qed.

Section Main.
  Variable order : list point -> list edge -> nat -> list (option nat) -> list (option nat).
  Hypothesis order_perm : forall nodes edges n row, Permutation row (order nodes edges n row).
  Variable clockwise : projection -> list point -> bool.

  Lemma no_walk m f : m_nodes m = [] \/ m_edges m = [] -> well_indexed (m_nodes m) (m_edges m) ->
    (forall n, n < length (m_nodes m) -> nth_error (m_nodes m) n = Some missing_point) ->
    find_faces clockwise m f = Ok f /\ forall ns es, turning_walk m ns es -> 1 <= length ns -> False.
  Proof.
    intros He Hw Hm. split.
    - assert (S : forall k f, find_size clockwise m f k = Ok f).
      { intros k f0. unfold find_size. destruct (fold_pre (find_from clockwise m k) (fun _ f' => f' = f0) (seq 0 (length (m_nodes m))) f0) as (f' & H & ->); auto.
        intros l1 b l2 f1 El ->. exists f0. split; [|reflexivity].
        assert (Hb : In b (seq 0 (length (m_nodes m)))) by (rewrite El; apply in_or_app; right; left; reflexivity). apply in_seq in Hb.
        unfold find_from. rewrite (proj2 (vget_ok _ _ _) (Hm b ltac:(lia))). cbn [bind]. reflexivity. }
      unfold find_faces. change (seq 3 (max_edges_per_face - 2)) with [3; 4; 5; 6]. cbn [fold_out]. rewrite !S. cbn [bind]. rewrite !S. cbn [bind]. rewrite !S. cbn [bind]. rewrite S. reflexivity.
    - intros ns es ((Hl & Hc) & _) H1. destruct ns as [|n ns]; [cbn in H1; lia|]. destruct es as [|e es]; [discriminate|].
      destruct (nth_error (n :: ns) (1 mod length (n :: ns))) as [b|] eqn:E.
      2:{ apply nth_error_None in E. pose proof (Nat.mod_upper_bound 1 (length (n :: ns)) ltac:(cbn; lia)). lia. }
      destruct (Hc 0 n b e) as [Hlt Hj]; unfold cyclic; try (rewrite Nat.mod_0_l by (cbn; lia); reflexivity); [exact E|].
      destruct He as [He|He]; [|rewrite He in Hlt; cbn in Hlt; lia].
      assert (n < length (m_nodes m)); [|rewrite He in *; cbn in *; lia].
      apply (Hw (edge_at m e)); [apply nth_In, Hlt|]. unfold ends_in. destruct Hj as [-> | ->]; cbn; auto.
  Qed.

  Lemma rejected_used f m ns es : inv clockwise m f -> turning_walk m ns es -> 3 <= length ns -> NoDup ns ->
    (forall e, In e es -> e < length (m_edges m)) -> clockwise (m_projection m) (pts m ns) = false -> rejected clockwise m f ns es -> used_up f es.
  Proof.
    intros Hi Hw H3 Hn Hlt Hcw [H|[H|[(e & He & H)|[H1 H2]]]]; [tauto|congruence| |].
    - left. exists e. split; [exact He|]. destruct (agree_reads m f e (inv_tables _ _ _ Hi) (Hlt e He)) as (R1 & _ & R3). lia.
    - destruct (existsb (fun e => 2 <=? count f e) es) eqn:B.
      { left. apply existsb_exists in B as (e & He & B). apply Nat.leb_le in B. exists e. split; [exact He|].
        destruct (agree_reads m f e (inv_tables _ _ _ Hi) (Hlt e He)) as (R1 & _ & R3). lia. }
      right. assert (O : forall e, In e es -> length (faces_with f e) = 1).
      { intros e He. destruct (agree_reads m f e (inv_tables _ _ _ Hi) (Hlt e He)) as (R1 & _ & R3). specialize (H1 e He).
        destruct (Nat.le_gt_cases 2 (count f e)) as [G|G]; [|lia]. rewrite <- not_true_iff_false in B. exfalso. apply B. apply existsb_exists. exists e. split; [exact He|apply Nat.leb_le, G]. }
      split; [exact O|].
      apply not_nodup in H2 as (a & l1 & l2 & l3 & E).
      apply map_eq_app in E as (t1 & t2 & -> & _ & E). apply map_eq_cons in E as (e & t3 & -> & Ea & E). apply map_eq_app in E as (t4 & t5 & -> & _ & E).
      apply map_eq_cons in E as (e' & t6 & -> & Ea' & _).
      pose proof (cycle_nodup m _ _ (proj1 Hw) H3 Hn) as Hd. exists e, e'.
      assert (I1 : In e (t1 ++ e :: t4 ++ e' :: t6)) by (apply in_or_app; right; left; reflexivity).
      assert (I2 : In e' (t1 ++ e :: t4 ++ e' :: t6)) by (apply in_or_app; right; right; apply in_or_app; right; left; reflexivity).
      split; [exact I1|]. split; [exact I2|]. split.
      + intros <-. apply NoDup_remove_2 in Hd. apply Hd. apply in_or_app. right. apply in_or_app. right. left. reflexivity.
      + destruct (agree_reads m f e (inv_tables _ _ _ Hi) (Hlt e I1)) as (_ & R1 & _). destruct (agree_reads m f e' (inv_tables _ _ _ Hi) (Hlt e' I2)) as (_ & R2 & _).
        unfold first in Ea, Ea'. rewrite R1 in Ea. rewrite R2 in Ea'. specialize (O e I1) as O1. specialize (O e' I2) as O2. cbn [fst] in *.
        destruct (faces_with f e) as [|x [|y t]], (faces_with f e') as [|x' [|y' t']]; cbn in *; try lia. congruence.
  Qed.

  Lemma administrate_live m m' : well_indexed (m_nodes m) (m_edges m) -> administrate order m = Ok m' ->
    well_indexed (m_nodes m') (m_edges m') /\ (forall e, In e (m_edges m') -> e = missing_edge \/ live (m_nodes m') e = true) /\
    (m_nodes m <> [] -> m_edges m <> [] -> adjacency_exact m') /\
    (m_nodes m = [] \/ m_edges m = [] -> (m_nodes m' = [] \/ m_edges m' = []) /\
      forall n, n < length (m_nodes m') -> nth_error (m_nodes m') n = Some missing_point).
  Proof.
    intros Hw Hm. destruct (administrate_result order order_perm m m' Hw Hm) as (_ & _ & _ & A).
    destruct (administrate_marks order order_perm m Hw) as (m2 & H1 & _ & Ln & Le & _ & Me & Mn).
    rewrite Hm in H1. injection H1 as <-.
    assert (K : forall e, In e (m_edges m') -> e = missing_edge \/ (In e (m_edges m) /\ live (m_nodes m) e = true)).
    { intros e He. apply In_nth_error in He as (i & Hi).
      destruct (nth_error (m_edges m) i) as [ed|] eqn:Ed.
      - destruct (Me i ed Ed) as [M1 M2]. destruct (live (m_nodes m) ed) eqn:L.
        + right. rewrite M1 in Hi by reflexivity. injection Hi as <-. split; [eapply nth_error_In; eauto|exact L].
        + left. rewrite M2 in Hi by reflexivity. injection Hi as <-. reflexivity.
      - exfalso. apply nth_error_None in Ed. assert (i < length (m_edges m')) by (apply nth_error_Some; congruence). lia. }
    split; [|split; [|split]].
    - intros e n He Hn. destruct (K e He) as [-> | [He' _]]; [destruct Hn; discriminate|]. rewrite Ln. apply (Hw e n He' Hn).
    - intros e He. destruct (K e He) as [-> | [He' L]]; [left; reflexivity|right].
      assert (V : forall n, ends_in e n -> valid_at (m_nodes m) n = true -> valid_at (m_nodes m') n = true).
      { intros n Hn Hv. unfold valid_at in *. destruct (nth_error (m_nodes m) n) as [p|] eqn:Ep; [|discriminate].
        destruct (Mn n p Ep) as [M1 _]. rewrite M1; [exact Hv|]. exists e. auto. }
      destruct e as [[a|] [b|]]; cbn [live] in L |- *; try discriminate. apply andb_true_iff in L as [La Lb]. apply andb_true_iff. split; apply V; auto; [left|right]; reflexivity.
    - exact A.
    - intros Hz. split.
      + destruct Hz as [Hz|Hz]; [left|right]; apply length_zero_iff_nil; [rewrite Ln|rewrite Le]; rewrite Hz; reflexivity.
      + intros n Hn. destruct (nth_error (m_nodes m) n) as [p|] eqn:Ep; [|apply nth_error_None in Ep; lia]. apply (Mn n p Ep).
        intros (e & He & Hl & Hen). destruct Hz as [Hz|Hz]; [|rewrite Hz in He; destruct He]. rewrite Hz in *. cbn in *. lia.
  Qed.

  Lemma administrate2d_ok m : well_indexed (m_nodes m) (m_edges m) ->
    exists m' f, administrate2d order clockwise m = Ok (m', f) /\ administrate order m = Ok m' /\ inv clockwise m' f /\ rising (num_faces_nodes f) /\
      forall ns es, turning_walk m' ns es -> 3 <= length ns <= 6 -> NoDup ns -> clockwise (m_projection m') (pts m' ns) = false -> used_up f es.
  Proof.
    intros Hw. destruct (administrate_safe order order_perm m Hw) as (m' & Hm).
    destruct (administrate_live m m' Hw Hm) as (Hw' & Hs & Hx & Hz). unfold administrate2d. rewrite Hm. cbn [bind]. exists m'.
    assert (D : (m_nodes m = [] \/ m_edges m = []) \/ (m_nodes m <> [] /\ m_edges m <> [])).
    { destruct (m_nodes m), (m_edges m); auto; right; split; discriminate. }
    destruct D as [D|[D1 D2]].
    - destruct (Hz D) as [Z1 Z2]. destruct (no_walk m' (no_faces m') Z1 Hw' Z2) as [F NW]. rewrite F. cbn [bind]. exists (no_faces m').
      split; [reflexivity|]. split; [reflexivity|]. split; [apply no_faces_inv|]. split; [exact I|]. intros ns es Hwk Hl. exfalso. apply (NW ns es Hwk). lia.
    - specialize (Hx D1 D2). destruct (find_ok clockwise m' Hx Hs (no_faces m') (no_faces_inv _ _) eq_refl) as (f & -> & Hi & Hsz & Hr). cbn [bind]. exists f.
      split; [reflexivity|]. split; [reflexivity|]. split; [exact Hi|]. split; [apply Hsz|]. intros ns es Hwk Hl Hn Hcw.
      assert (Hj : forall i e, nth_error es i = Some e -> exists a b, nth_error ns i = Some a /\ e < length (m_edges m') /\ joins (edge_at m' e) a b).
      { destruct Hwk as ((Hle & Hc) & _). intros i e He. assert (Hi' : i < length ns) by (rewrite <- Hle; apply nth_error_Some; congruence).
        destruct (nth_error ns i) as [a|] eqn:Ea; [|apply nth_error_None in Ea; lia].
        destruct (nth_error ns (S i mod length ns)) as [b|] eqn:Eb.
        - exists a, b. split; [reflexivity|]. apply (Hc i); unfold cyclic; rewrite ?Hle; rewrite ?(Nat.mod_small i) by lia; assumption.
        - apply nth_error_None in Eb. pose proof (Nat.mod_upper_bound (S i) (length ns) ltac:(lia)). lia. }
      assert (Hlt : forall e, In e es -> e < length (m_edges m')).
      { intros e He. apply In_nth_error in He as (i & He). destruct (Hj i e He) as (a & b & _ & X & _). exact X. }
      destruct (walk_path m' Hx Hs ns es Hwk) as (n & p & Hp); [lia| |].
      { intros a Ha. apply In_nth_error in Ha as (i & Ha). destruct Hwk as ((Hle & _) & _).
        destruct (nth_error es i) as [e|] eqn:Ee; [|apply nth_error_None in Ee; assert (i < length ns) by (apply nth_error_Some; congruence); lia].
        destruct (Hj i e Ee) as (a' & b & Ha' & He & Hjj). assert (a' = a) by congruence. subst a'.
        apply (Hw' (edge_at m' e)); [apply nth_In, He|]. unfold ends_in. destruct Hjj as [-> | ->]; cbn; auto. }
      apply (rejected_used f m' ns es); auto; [lia|]. eapply Hr; eauto.
  Qed.

  (** *** The properties *)
  Lemma faces_cycles m m' f : well_indexed (m_nodes m) (m_edges m) -> administrate2d order clockwise m = Ok (m', f) ->
    length (faces_nodes f) = length (faces_edges f) /\
    forall i ns es, nth_error (faces_nodes f) i = Some ns -> nth_error (faces_edges f) i = Some es -> face_ok clockwise m' ns es.
  Proof.
    intros Hw H. destruct (administrate2d_ok m Hw) as (m2 & f2 & H2 & _ & Hi & _). rewrite H in H2. injection H2 as <- <-.
    split; [symmetry; apply (inv_tables _ _ _ Hi)|]. intros. eapply inv_faces; eauto.
  Qed.
  Lemma faces_tables m m' f : well_indexed (m_nodes m) (m_edges m) -> administrate2d order clockwise m = Ok (m', f) -> tables_agree m' f.
  Proof.
    intros Hw H. destruct (administrate2d_ok m Hw) as (m2 & f2 & H2 & _ & Hi & _). rewrite H in H2. injection H2 as <- <-. apply (inv_tables _ _ _ Hi).
  Qed.
  Lemma faces_safe m : well_indexed (m_nodes m) (m_edges m) -> exists m' f, administrate2d order clockwise m = Ok (m', f) /\ administrate order m = Ok m'.
  Proof. intros Hw. destruct (administrate2d_ok m Hw) as (m2 & f2 & H2 & H3 & _). eauto. Qed.
  Lemma faces_once m m' f : well_indexed (m_nodes m) (m_edges m) -> administrate2d order clockwise m = Ok (m', f) ->
    (forall i j es es', nth_error (faces_edges f) i = Some es -> nth_error (faces_edges f) j = Some es' -> (forall e, In e es <-> In e es') -> i = j) /\
    (forall i ns es, nth_error (faces_nodes f) i = Some ns -> nth_error (faces_edges f) i = Some es -> turning_walk m' ns es) /\
    (forall i j ns ns', i < j -> nth_error (faces_nodes f) i = Some ns -> nth_error (faces_nodes f) j = Some ns' -> length ns <= length ns').
  Proof.
    intros Hw H. destruct (administrate2d_ok m Hw) as (m2 & f2 & H2 & _ & Hi & Hr & _). rewrite H in H2. injection H2 as <- <-.
    split; [apply (inv_once _ _ _ Hi)|]. split; [intros; eapply inv_faces; eauto|]. intros i j ns ns' Hij H1 H2.
    destruct (inv_tables _ _ _ Hi) as (_ & T & _). rewrite T in Hr.
    revert i j Hij H1 H2 Hr. generalize (faces_nodes f) as l. induction l as [|a t IH]; intros i j Hij H1 H2 Hr; [destruct i; discriminate|].
    destruct Hr as [Ha Ht]. destruct j as [|j]; [lia|]. destruct i as [|i].
    - injection H1 as ->. rewrite Forall_forall in Ha. apply Ha, in_map. eapply nth_error_In, H2.
    - eapply (IH i j); eauto. lia.
  Qed.
  Lemma faces_maximal m m' f : well_indexed (m_nodes m) (m_edges m) -> administrate2d order clockwise m = Ok (m', f) ->
    forall ns es, turning_walk m' ns es -> 3 <= length ns <= 6 -> NoDup ns ->
      clockwise (m_projection m') (map (fun n => nth n (m_nodes m') missing_point) ns) = false -> used_up f es.
  Proof.
    intros Hw H. destruct (administrate2d_ok m Hw) as (m2 & f2 & H2 & _ & Hi & _ & Hu). rewrite H in H2. injection H2 as <- <-. exact Hu.
  Qed.
End Main.

(** *** A concrete mesh: two triangles and a detached edge *)
Definition never_clockwise (p : projection) (l : list point) : bool := false.
(** Clockwise by the sign of the area of the first three nodes; enough for convex cells. *)
Definition area_sign (p : projection) (l : list point) : bool :=
  match l with
  | a :: b :: c :: _ => SFltb (fsub (fmul (fsub (px b) (px a)) (fsub (py c) (py a))) (fmul (fsub (px c) (px a)) (fsub (py b) (py a)))) (double_of 0 0)
  | _ => false
  end.

Definition sample_faces : faces :=
  Faces [1; 1; 2; 1; 1; 0]
    [(Some 0, None); (Some 0, None); (Some 0, Some 1); (Some 1, None); (Some 1, None); (None, None)]
    [[2; 0; 1]; [2; 3; 0]] [[2; 0; 1]; [3; 4; 2]] [3; 3].
Lemma sample_found : well_indexed (m_nodes sample) (m_edges sample) /\ administrate2d keep_order area_sign sample = Ok (sample, sample_faces).
Proof. split; [apply well_indexedb_ok; vm_compute; reflexivity|vm_compute; reflexivity]. Qed.
Lemma sample_walk : turning_walk sample [2; 0; 1] [2; 0; 1] /\ area_sign Cartesian (map (fun n => nth n (m_nodes sample) missing_point) [2; 0; 1]) = false.
Proof.
  destruct sample_found as [Hw H]. split; [|vm_compute; reflexivity].
  apply (faces_once keep_order keep_order_perm area_sign sample sample sample_faces Hw H) with (i := 0); reflexivity.
Qed.

(** Export of a mesh and of the polygons of its faces. *)
From Coq Require Import Permutation.
From Verif Require Import Base BaseLemmas FloatModel MeshModel MeshSpec MeshProofs MeshConstruct MeshMerge MeshFacts
  FaceModel FaceSpec FaceSearch FaceMain FaceUseModel FaceUseSpec FaceUse GridProofs GridPolygon.

Lemma written_nil {A} (buffer : list A) : written buffer [] = buffer.
Proof. reflexivity. Qed.
Lemma written_exact {A} (buffer out : list A) : length buffer = length out -> written buffer out = out.
Proof. intros H. unfold written. rewrite skipn_all2 by lia. apply app_nil_r. Qed.
Lemma write_next {A} (buffer out : list A) p i : i = length out -> length out < length buffer -> vset i p (written buffer out) = Ok (written buffer (out ++ [p])).
Proof.
  intros -> H. unfold written. rewrite vset_lt by (rewrite app_length, skipn_length; lia). f_equal.
  rewrite <- app_assoc. replace (length out) with (length out + 0) at 1 by lia. rewrite set_nth_app2. f_equal. rewrite app_length. cbn [length]. rewrite Nat.add_1_r.
  remember (length out) as k eqn:E. clear E. revert k H. induction buffer as [|b t IH]; intros [|k] H; cbn in *; try lia; [reflexivity|]. apply IH. lia.
Qed.
Lemma written_short {A} (buffer out : list A) p i : i = length out -> length buffer <= length out -> vset i p (written buffer out) = UB.
Proof. intros -> H. unfold written. rewrite skipn_all2, app_nil_r by lia. unfold vset. destruct (Nat.ltb_spec (length out) (length out)); [lia|reflexivity]. Qed.

Lemma seq_split l1 i l2 k n : seq k n = l1 ++ i :: l2 -> i = k + length l1 /\ length l1 < n.
Proof.
  intros El. assert (L : length l1 < n) by (rewrite <- (seq_length n k), El, app_length; cbn; lia). split; [|exact L].
  pose proof (f_equal (fun l => nth_error l (length l1)) El) as E1. cbn in E1. rewrite nth_error_app2, Nat.sub_diag in E1 by lia. cbn in E1.
  rewrite (nth_error_nth' _ 0) in E1 by (rewrite seq_length; exact L). rewrite seq_nth in E1 by exact L. injection E1. lia.
Qed.
Lemma firstn_next {A} (l : list A) : forall k x, nth_error l k = Some x -> firstn (S k) l = firstn k l ++ [x].
Proof. induction l as [|h t IH]; intros [|k] x H; try discriminate; cbn in *; [injection H as ->; reflexivity|]. f_equal. apply IH, H. Qed.

(** *** Polygons *)
Section Polygons.
  Variable m : mesh.
  Variable f : faces.
  Hypothesis Hne : forall ns, In ns (faces_nodes f) -> ns <> [].
  Hypothesis Hin : forall ns n, In ns (faces_nodes f) -> In n ns -> n < length (m_nodes m).

  Lemma separated_snoc l p : separated (l ++ [p]) = match l with [] => p | _ => separated l ++ missing_point :: p end.
  Proof.
    induction l as [|q l IH]; [reflexivity|]. destruct l as [|q' l]; [reflexivity|]. change (q ++ missing_point :: separated ((q' :: l) ++ [p]) = (q ++ missing_point :: separated (q' :: l)) ++ missing_point :: p).
    rewrite IH, <- app_assoc. reflexivity.
  Qed.
  Lemma separated_le a b : length (separated a) <= length (separated (a ++ b)).
  Proof.
    revert a. induction b as [|p b IH]; intros a; [rewrite app_nil_r; lia|]. replace (a ++ p :: b) with ((a ++ [p]) ++ b) by (rewrite <- app_assoc; reflexivity).
    eapply Nat.le_trans; [|apply IH]. rewrite separated_snoc. destruct a; [cbn; lia|]. rewrite app_length. cbn; lia.
  Qed.
  Lemma chosen_app {A} m1 m2 (l1 l2 : list A) : length m1 = length l1 -> chosen (m1 ++ m2) (l1 ++ l2) = chosen m1 l1 ++ chosen m2 l2.
  Proof. revert l1. induction m1 as [|b m1 IH]; intros [|a l1] E; cbn in *; try discriminate; [reflexivity|]. rewrite IH by lia. destruct b; reflexivity. Qed.
  Lemma chosen_in {A} mask (l : list A) a : In a (chosen mask l) -> In a l.
  Proof. revert l. induction mask as [|b mask IH]; intros [|x l] H; cbn in *; auto; try contradiction. destruct b; [destruct H as [->|H]; auto|auto]. Qed.

  Notation state buffer out := (written buffer out, length out).

  Lemma put_next buffer out p : length out < length buffer -> put_point (state buffer out) p = Ok (state buffer (out ++ [p])).
  Proof. intros H. unfold put_point. rewrite write_next by auto. cbn [bind]. rewrite app_length, Nat.add_1_r. reflexivity. Qed.
  Lemma put_nodes buffer ns : forall out, length out + length ns <= length buffer -> (forall n, In n ns -> n < length (m_nodes m)) ->
    fold_out (fun acc n => let! p := vget (m_nodes m) n in put_point acc p) ns (state buffer out) = Ok (state buffer (out ++ map (fun n => nth n (m_nodes m) missing_point) ns)).
  Proof.
    induction ns as [|n ns IH]; intros out H Hn; [cbn; rewrite app_nil_r; reflexivity|]. cbn [fold_out]. cbn [length] in H.
    rewrite (vget_nth _ _ missing_point) by (apply Hn; left; reflexivity). cbn [bind]. rewrite put_next by lia. cbn [bind].
    rewrite IH; [|rewrite app_length; cbn; lia|intros; apply Hn; right; auto]. rewrite <- app_assoc. reflexivity.
  Qed.

  Lemma polygon_length ns : ns <> [] -> length (polygon_of m ns) = S (length ns).
  Proof. intros H. destruct ns; [congruence|]. unfold polygon_of. rewrite map_length, app_length. cbn. lia. Qed.

  Lemma fill_one mask buffer done i ns : nth_error (faces_nodes f) i = Some ns -> nth_error mask i = Some true ->
    (forall p, In p done -> p <> []) -> length (separated (done ++ [polygon_of m ns])) <= length buffer ->
    fill_face m f mask (state buffer (separated done)) i = Ok (state buffer (separated (done ++ [polygon_of m ns]))).
  Proof.
    intros Hns Hm Hd Hl. unfold fill_face. rewrite (proj2 (vget_ok _ _ _) Hm). cbn [bind negb]. rewrite (proj2 (vget_ok _ _ _) Hns). cbn [bind snd].
    pose proof (nth_error_In _ _ Hns) as Hin'. pose proof (Hne ns Hin') as Hn. pose proof (polygon_length ns Hn) as Hpl.
    assert (Rest : forall out, length out + S (length ns) <= length buffer ->
      (let! acc := fold_out (fun acc n => let! p := vget (m_nodes m) n in put_point acc p) ns (state buffer out) in
       let! first := vget ns 0 in let! p := vget (m_nodes m) first in put_point acc p) = Ok (state buffer (out ++ polygon_of m ns))).
    { intros out H. rewrite put_nodes; [|lia|intros; eapply Hin; eauto]. cbn [bind]. destruct ns as [|a ns']; [congruence|]. change (vget (a :: ns') 0) with (Ok a). cbn [bind].
      rewrite (vget_nth _ _ missing_point) by (eapply Hin; eauto; left; reflexivity). cbn [bind]. rewrite put_next by (rewrite app_length, map_length; lia).
      unfold polygon_of. rewrite map_app, app_assoc. reflexivity. }
    rewrite separated_snoc in *. destruct done as [|p done].
    - cbn [separated length Nat.eqb bind]. rewrite Rest; [reflexivity|]. cbn. lia.
    - assert (Hpos : length (separated (p :: done)) <> 0).
      { assert (p <> []) by (apply Hd; left; reflexivity). destruct p; [congruence|]. destruct done; cbn; lia. }
      rewrite app_length in Hl. cbn [length] in Hl.
      destruct (Nat.eqb_spec (length (separated (p :: done))) 0) as [E|_]; [lia|]. rewrite put_next by lia. cbn [bind]. rewrite Rest by (rewrite app_length; cbn [length]; lia).
      rewrite <- app_assoc. reflexivity.
  Qed.

  Lemma fill_ok mask buffer : length mask = num_faces f ->
    let out := separated (map (polygon_of m) (chosen mask (faces_nodes f))) in
    length out <= length buffer -> fill_polygons m f mask buffer = Ok (written buffer out, length out).
  Proof.
    intros Hm out Hl. unfold fill_polygons.
    set (part k := map (polygon_of m) (chosen (firstn k mask) (firstn k (faces_nodes f)))).
    destruct (fold_pre (fill_face m f mask) (fun l acc => acc = state buffer (separated (part (length l)))) (seq 0 (num_faces f)) (buffer, 0)) as (r & -> & ->).
    - intros l1 i l2 acc El ->. apply seq_split in El as [-> Hk]. cbn [Nat.add]. rewrite app_length. cbn [length]. rewrite Nat.add_1_r.
      destruct (nth_error (faces_nodes f) (length l1)) as [ns|] eqn:En; [|apply nth_error_None in En; unfold num_faces in *; lia].
      destruct (nth_error mask (length l1)) as [b|] eqn:Eb; [|apply nth_error_None in Eb; lia].
      assert (Ep : part (S (length l1)) = part (length l1) ++ if b then [polygon_of m ns] else []).
      { unfold part. rewrite (firstn_next _ _ _ En), (firstn_next _ _ _ Eb), chosen_app by (rewrite !firstn_length; unfold num_faces in *; lia).
        rewrite map_app. destruct b; reflexivity. }
      assert (Eo : exists rest, map (polygon_of m) (chosen mask (faces_nodes f)) = part (S (length l1)) ++ rest).
      { exists (map (polygon_of m) (chosen (skipn (S (length l1)) mask) (skipn (S (length l1)) (faces_nodes f)))). unfold part. rewrite <- map_app, <- chosen_app, !firstn_skipn; [reflexivity|].
        rewrite !firstn_length. unfold num_faces in *. lia. }
      destruct Eo as [rest Eo]. eexists. split; [|reflexivity]. destruct b.
      + rewrite Ep. apply fill_one; auto.
        * intros p Hp. unfold part in Hp. apply in_map_iff in Hp as (x & <- & Hx). apply chosen_in, In_firstn in Hx. specialize (polygon_length x (Hne x Hx)). destruct (polygon_of m x); [discriminate|discriminate].
        * rewrite <- Ep. eapply Nat.le_trans; [apply (separated_le _ rest)|]. rewrite <- Eo. exact Hl.
      + rewrite Ep, app_nil_r. unfold fill_face. rewrite (proj2 (vget_ok _ _ _) Eb). reflexivity.
    - reflexivity.
    - rewrite seq_length. unfold part. rewrite !firstn_all2 by (unfold num_faces in *; lia). reflexivity.
  Qed.

  (** Two entries more than nodes for every face, one less in all *)
  Definition entries (l : list (list nat)) : nat := fold_right (fun ns k => length ns + 2 + k) 0 l.
  Lemma separated_length l : (forall ns, In ns l -> ns <> []) -> l <> [] -> S (length (separated (map (polygon_of m) l))) = entries l.
  Proof.
    intros H Hl. induction l as [|a l IH]; [congruence|]. assert (Ha : a <> []) by (apply H; left; reflexivity). pose proof (polygon_length a Ha) as Pa.
    destruct l as [|b l]; [cbn; lia|].
    assert (IH' : S (length (separated (map (polygon_of m) (b :: l)))) = entries (b :: l)) by (apply IH; [intros; apply H; right; auto|discriminate]).
    change (separated (map (polygon_of m) (a :: b :: l))) with (polygon_of m a ++ missing_point :: separated (map (polygon_of m) (b :: l))).
    rewrite app_length. cbn [length]. change (entries (a :: b :: l)) with (length a + 2 + entries (b :: l)). lia.
  Qed.

  Lemma chosen_size k : forall l : list (list nat), chosen (map (fun ns => Z.eqb (Z.of_nat (length ns)) k) l) l = filter (fun ns => Z.eqb (Z.of_nat (length ns)) k) l.
  Proof. induction l as [|a l IH]; [reflexivity|]. cbn. rewrite IH. reflexivity. Qed.
  Lemma count_size k (l : list (list nat)) : length (filter (fun b => b) (map (fun ns => Z.eqb (Z.of_nat (length ns)) k) l)) = length (filter (fun ns => Z.eqb (Z.of_nat (length ns)) k) l).
  Proof. induction l as [|a l IH]; [reflexivity|]. cbn. destruct (Z.of_nat (length a) =? k)%Z; cbn; rewrite IH; reflexivity. Qed.

  Lemma polygons_dimension k old buffer : (exists ns, In ns (faces_nodes f) /\ Z.of_nat (length ns) = k) ->
    let out := separated (map (polygon_of m) (filter (fun ns => Z.eqb (Z.of_nat (length ns)) k) (faces_nodes f))) in
    face_polygons_dimension f k old = Z.of_nat (length out) /\
    (length out <= length buffer -> get_face_polygons m f k buffer = Ok (written buffer out, length out)).
  Proof.
    intros (ns & H1 & H2) out. split.
    - unfold face_polygons_dimension. cbv zeta. unfold faces_of_size. rewrite count_size. subst out.
      set (sel := filter (fun ns => Z.eqb (Z.of_nat (length ns)) k) (faces_nodes f)).
      assert (Hns : In ns sel) by (apply filter_In; split; [exact H1|apply Z.eqb_eq, H2]).
      assert (Hall : forall x, In x sel -> Z.of_nat (length x) = k /\ x <> []) by (intros x Hx; apply filter_In in Hx as [X Y]; split; [apply Z.eqb_eq, Y|auto]).
      assert (Hs : sel <> []) by (intros E; rewrite E in Hns; destruct Hns).
      pose proof (separated_length sel (fun x Hx => proj2 (Hall x Hx)) Hs) as L.
      assert (E : Z.of_nat (entries sel) = (Z.of_nat (length sel) * (k + 2))%Z).
      { clear - Hall. induction sel as [|a sel IH]; [reflexivity|]. cbn [entries fold_right length]. fold (entries sel). rewrite !Nat2Z.inj_add, IH by (intros; apply Hall; right; auto).
        destruct (Hall a (or_introl eq_refl)) as [<- _]. lia. }
      assert (0 < length sel) by (destruct sel; [congruence|cbn; lia]).
      destruct (Z.ltb_spec 0 (Z.of_nat (length sel))); [|lia]. lia.
    - intros H. unfold get_face_polygons, faces_of_size. subst out. rewrite <- chosen_size in *. apply fill_ok; [apply map_length|exact H].
  Qed.

  Lemma filtered_dimension_ok mask : length mask = num_faces f ->
    filtered_dimension f mask = Ok (Z.of_nat (length (separated (map (polygon_of m) (chosen mask (faces_nodes f)))))).
  Proof.
    intros Hm. unfold filtered_dimension.
    destruct (fold_pre (fun d i => let! b := vget mask i in if b then let! ns := vget (faces_nodes f) i in Ok (d + Z.of_nat (length ns) + 2)%Z else Ok d)
      (fun l d => d = Z.of_nat (entries (chosen (firstn (length l) mask) (firstn (length l) (faces_nodes f))))) (seq 0 (length mask)) 0%Z) as (r & -> & ->).
    - intros l1 i l2 d El ->. apply seq_split in El as [-> Hk]. cbn [Nat.add]. rewrite app_length. cbn [length]. rewrite Nat.add_1_r.
      destruct (nth_error (faces_nodes f) (length l1)) as [ns|] eqn:En; [|apply nth_error_None in En; unfold num_faces in *; lia].
      destruct (nth_error mask (length l1)) as [b|] eqn:Eb; [|apply nth_error_None in Eb; lia].
      rewrite (proj2 (vget_ok _ _ _) Eb). cbn [bind]. rewrite (firstn_next _ _ _ En), (firstn_next _ _ _ Eb), chosen_app by (rewrite !firstn_length; unfold num_faces in *; lia).
      assert (App : forall a c, entries (a ++ c) = entries a + entries c).
      { intros a c. induction a as [|x a IH]; [reflexivity|]. cbn [app]. change (entries (x :: a ++ c)) with (length x + 2 + entries (a ++ c)). rewrite IH. change (entries (x :: a)) with (length x + 2 + entries a). lia. }
      rewrite App. destruct b; [rewrite (proj2 (vget_ok _ _ _) En)|]; cbn [bind chosen entries fold_right]; eexists; (split; [reflexivity|]); lia.
    - reflexivity.
    - cbn [bind]. rewrite seq_length, !firstn_all2 by (unfold num_faces in *; lia). f_equal.
      destruct (chosen mask (faces_nodes f)) as [|a l] eqn:E; [reflexivity|].
      assert (L : S (length (separated (map (polygon_of m) (a :: l)))) = entries (a :: l)).
      { apply separated_length; [|discriminate]. intros ns H. rewrite <- E in H. apply Hne. eapply chosen_in; eauto. }
      destruct (Z.ltb_spec 0 (Z.of_nat (entries (a :: l)))); lia.
  Qed.
End Polygons.

(** *** Arrays *)
Lemma pair_ints_length l : length (pair_ints l) = 2 * length l.
Proof. induction l as [|a l IH]; [reflexivity|]. cbn [pair_ints flat_map app length] in *. fold (pair_ints l). lia. Qed.

Section Export.
  Variable m : mesh.
  Variable f : faces.
  Hypothesis Hedges : length (edges_faces f) = length (m_edges m).
  Hypothesis Hfaces : Forall2 (fun ns es => length es = length ns) (faces_nodes f) (faces_edges f).

  Lemma export_nodes_ok buffer : length (m_nodes m) <= length buffer -> fold_out (export_node m) (seq 0 (length (m_nodes m))) buffer = Ok (written buffer (m_nodes m)).
  Proof.
    intros H. destruct (fold_pre (export_node m) (fun l acc => acc = written buffer (firstn (length l) (m_nodes m))) (seq 0 (length (m_nodes m))) buffer) as (r & -> & ->).
    - intros l1 i l2 acc El ->. apply seq_split in El as [-> Hk]. cbn [Nat.add]. rewrite app_length. cbn [length]. rewrite Nat.add_1_r.
      destruct (nth_error (m_nodes m) (length l1)) as [p|] eqn:En; [|apply nth_error_None in En; lia].
      unfold export_node. rewrite (proj2 (vget_ok _ _ _) En). cbn [bind]. rewrite write_next; [|rewrite firstn_length; lia|rewrite firstn_length; lia].
      rewrite (firstn_next _ _ _ En). eauto.
    - reflexivity.
    - rewrite seq_length, firstn_all. reflexivity.
  Qed.

  Lemma export_edges_ok en ef : 2 * length (m_edges m) <= length en -> 2 * length (m_edges m) <= length ef ->
    fold_out (export_edge m f) (seq 0 (length (m_edges m))) (en, ef) = Ok (written en (pair_ints (m_edges m)), written ef (pair_ints (edges_faces f))).
  Proof.
    intros H1 H2. destruct (fold_pre (export_edge m f) (fun l acc => acc = (written en (pair_ints (firstn (length l) (m_edges m))), written ef (pair_ints (firstn (length l) (edges_faces f)))))
      (seq 0 (length (m_edges m))) (en, ef)) as (r & -> & ->).
    - intros l1 i l2 acc El ->. apply seq_split in El as [-> Hk]. cbn [Nat.add]. rewrite app_length. cbn [length]. rewrite Nat.add_1_r.
      destruct (nth_error (m_edges m) (length l1)) as [ed|] eqn:Ee; [|apply nth_error_None in Ee; lia].
      destruct (nth_error (edges_faces f) (length l1)) as [fs|] eqn:Ef; [|apply nth_error_None in Ef; lia].
      assert (L1 : length (pair_ints (firstn (length l1) (m_edges m))) = length l1 * 2) by (rewrite pair_ints_length, firstn_length; lia).
      assert (L2 : length (pair_ints (firstn (length l1) (edges_faces f))) = length l1 * 2) by (rewrite pair_ints_length, firstn_length; lia).
      unfold export_edge. rewrite (proj2 (vget_ok _ _ _) Ee). cbn [bind]. rewrite write_next by lia. cbn [bind]. rewrite write_next by (rewrite app_length; cbn [length]; lia). cbn [bind].
      rewrite (proj2 (vget_ok _ _ _) Ef). cbn [bind]. rewrite write_next by lia. cbn [bind]. rewrite write_next by (rewrite app_length; cbn [length]; lia). cbn [bind].
      rewrite (firstn_next _ _ _ Ee), (firstn_next _ _ _ Ef). unfold pair_ints. rewrite !flat_map_app. cbn [flat_map app]. rewrite <- !app_assoc. eauto.
    - reflexivity.
    - rewrite seq_length, firstn_all, <- Hedges, firstn_all. reflexivity.
  Qed.

  Lemma export_items_ok fn fe ns es on oe : length es = length ns -> length on = length oe -> length on + length ns <= length fn -> length oe + length ns <= length fe ->
    fold_out (export_face_item ns es) (seq 0 (length ns)) (written fn on, written fe oe, length on) =
    Ok (written fn (on ++ map Z.of_nat ns), written fe (oe ++ map Z.of_nat es), length on + length ns).
  Proof.
    intros He Ho H1 H2. destruct (fold_pre (export_face_item ns es)
      (fun l acc => acc = (written fn (on ++ map Z.of_nat (firstn (length l) ns)), written fe (oe ++ map Z.of_nat (firstn (length l) es)), length on + length l))
      (seq 0 (length ns)) (written fn on, written fe oe, length on)) as (r & -> & ->).
    - intros l1 i l2 acc El ->. apply seq_split in El as [-> Hk]. cbn [Nat.add]. rewrite app_length. cbn [length]. rewrite Nat.add_1_r.
      destruct (nth_error ns (length l1)) as [n|] eqn:En; [|apply nth_error_None in En; lia].
      destruct (nth_error es (length l1)) as [e|] eqn:Ee; [|apply nth_error_None in Ee; lia].
      assert (L1 : length (on ++ map Z.of_nat (firstn (length l1) ns)) = length on + length l1) by (rewrite app_length, map_length, firstn_length; lia).
      assert (L2 : length (oe ++ map Z.of_nat (firstn (length l1) es)) = length on + length l1) by (rewrite app_length, map_length, firstn_length; lia).
      unfold export_face_item. rewrite (proj2 (vget_ok _ _ _) En). cbn [bind]. rewrite write_next by lia. cbn [bind].
      rewrite (proj2 (vget_ok _ _ _) Ee). cbn [bind]. rewrite write_next by lia. cbn [bind]. eexists. split; [reflexivity|].
      rewrite (firstn_next _ _ _ En), (firstn_next _ _ _ Ee), !map_app, !app_assoc, Nat.add_succ_r. reflexivity.
    - cbn. rewrite !app_nil_r, Nat.add_0_r. reflexivity.
    - rewrite seq_length, firstn_all, <- He, firstn_all. reflexivity.
  Qed.

  Lemma export_faces_ok per fn fe : num_faces f <= length per -> total (faces_nodes f) <= length fn -> total (faces_nodes f) <= length fe ->
    fold_out (export_face f) (seq 0 (num_faces f)) (per, (fn, fe, 0)) =
    Ok (written per (map (fun ns => Z.of_nat (length ns)) (faces_nodes f)),
        (written fn (map Z.of_nat (concat (faces_nodes f))), written fe (map Z.of_nat (concat (faces_edges f))), total (faces_nodes f))).
  Proof.
    intros H0 H1 H2. assert (Lf : length (faces_edges f) = num_faces f) by (unfold num_faces; generalize Hfaces; generalize (faces_nodes f) (faces_edges f); intros a b Hf; induction Hf; cbn; congruence).
    assert (Same : forall k, length (concat (firstn k (faces_edges f))) = length (concat (firstn k (faces_nodes f)))).
    { generalize Hfaces. generalize (faces_nodes f) (faces_edges f). intros a b Hf. induction Hf as [|x y a b Hxy Hf IH]; intros [|k]; cbn; auto. rewrite !app_length, IH, Hxy. reflexivity. }
    assert (Le : forall k ns, nth_error (faces_nodes f) k = Some ns -> length (concat (firstn k (faces_nodes f))) + length ns <= total (faces_nodes f)).
    { intros k ns E. unfold total. rewrite <- (firstn_skipn (S k) (faces_nodes f)) at 2. rewrite (firstn_next _ _ _ E), !concat_app, !app_length. cbn. rewrite app_nil_r. lia. }
    destruct (fold_pre (export_face f)
      (fun l acc => acc = (written per (map (fun ns => Z.of_nat (length ns)) (firstn (length l) (faces_nodes f))),
        (written fn (map Z.of_nat (concat (firstn (length l) (faces_nodes f)))), written fe (map Z.of_nat (concat (firstn (length l) (faces_edges f)))), length (concat (firstn (length l) (faces_nodes f))))))
      (seq 0 (num_faces f)) (per, (fn, fe, 0))) as (r & -> & ->).
    - intros l1 i l2 acc El ->. apply seq_split in El as [-> Hk]. cbn [Nat.add]. rewrite app_length. cbn [length]. rewrite Nat.add_1_r.
      destruct (nth_error (faces_nodes f) (length l1)) as [ns|] eqn:En; [|apply nth_error_None in En; unfold num_faces in *; lia].
      destruct (nth_error (faces_edges f) (length l1)) as [es|] eqn:Ee; [|apply nth_error_None in Ee; lia].
      assert (Len : length es = length ns).
      { generalize Hfaces En Ee. generalize (faces_nodes f) (faces_edges f) (length l1). clear. intros a b k Hf. revert k. induction Hf as [|x y a b Hxy Hf IH]; intros [|k] H1 H2; cbn in *; try discriminate; [congruence|eauto]. }
      pose proof (Le _ _ En). unfold export_face. rewrite (proj2 (vget_ok _ _ _) En). cbn [bind].
      rewrite write_next by (rewrite map_length, firstn_length; unfold num_faces in *; lia). cbn [bind]. rewrite (proj2 (vget_ok _ _ _) Ee). cbn [bind].
      pose proof (export_items_ok fn fe ns es (map Z.of_nat (concat (firstn (length l1) (faces_nodes f)))) (map Z.of_nat (concat (firstn (length l1) (faces_edges f)))) Len) as It.
      rewrite !map_length in It. rewrite It; [|rewrite Same; reflexivity|lia|rewrite Same; lia]. cbn [bind]. eexists. split; [reflexivity|].
      rewrite (firstn_next _ _ _ En), (firstn_next _ _ _ Ee), !concat_app, !map_app, app_length. cbn [concat map]. rewrite !app_nil_r. reflexivity.
    - reflexivity.
    - rewrite seq_length. unfold num_faces. rewrite firstn_all. replace (length (faces_nodes f)) with (length (faces_edges f)) by exact Lf. rewrite firstn_all. reflexivity.
  Qed.

  Lemma dimensions_ok : well_indexed (m_nodes m) (m_edges m) -> exists ve, num_valid_edges m = Ok ve /\
    api_dimensions m f = Ok (Api (length (m_nodes m)) (length (m_edges m)) (num_faces f) (total (faces_nodes f)) (num_valid_nodes m) ve).
  Proof.
    intros Hw. destruct (counts_and_maps m Hw) as (_ & E & _). eexists. split; [exact E|]. unfold api_dimensions.
    destruct (fold_pre (fun k i => let! ns := vget (faces_nodes f) i in Ok (k + length ns)) (fun l k => k = length (concat (firstn (length l) (faces_nodes f)))) (seq 0 (num_faces f)) 0) as (r & -> & ->).
    - intros l1 i l2 acc El ->. apply seq_split in El as [-> Hk]. cbn [Nat.add]. rewrite app_length. cbn [length]. rewrite Nat.add_1_r.
      destruct (nth_error (faces_nodes f) (length l1)) as [ns|] eqn:En; [|apply nth_error_None in En; unfold num_faces in *; lia].
      rewrite (proj2 (vget_ok _ _ _) En). cbn [bind]. eexists. split; [reflexivity|]. rewrite (firstn_next _ _ _ En), concat_app, app_length. cbn. rewrite app_nil_r. reflexivity.
    - reflexivity.
    - cbn [bind]. rewrite E. cbn [bind]. rewrite seq_length. unfold num_faces. rewrite firstn_all. reflexivity.
  Qed.

  Lemma export_ok d : length (m_nodes m) <= length (d_nodes d) -> 2 * length (m_edges m) <= length (d_edge_nodes d) -> 2 * length (m_edges m) <= length (d_edge_faces d) ->
    num_faces f <= length (d_nodes_per_face d) -> total (faces_nodes f) <= length (d_face_nodes d) -> total (faces_nodes f) <= length (d_face_edges d) ->
    export_mesh m f d = Ok (Data (written (d_nodes d) (m_nodes m)) (written (d_edge_nodes d) (pair_ints (m_edges m))) (written (d_edge_faces d) (pair_ints (edges_faces f)))
      (written (d_nodes_per_face d) (map (fun ns => Z.of_nat (length ns)) (faces_nodes f)))
      (written (d_face_nodes d) (map Z.of_nat (concat (faces_nodes f)))) (written (d_face_edges d) (map Z.of_nat (concat (faces_edges f))))).
  Proof.
    intros. unfold export_mesh. rewrite export_nodes_ok by assumption. cbn [bind]. rewrite export_edges_ok by assumption. cbn [bind].
    rewrite export_faces_ok by assumption. reflexivity.
  Qed.
End Export.

(** Land boundaries: all pieces, the boundary nodes in between, and snapping. *)
From Coq Require Import Permutation.
From Verif Require Import Base BaseLemmas FloatModel FloatReal UtilModel UndoModel UndoSpec ActionModel ActionSpec ActionProofs MeshModel MeshProofs MeshUndo MeshEdits MeshFacts FaceUse MeshSpec FaceModel FaceSpec FlipSpec NodeTypeProofs SplitModel PolyModel ContactsProofs RefineProofs LandModel LandSpec LandNear LandFaces FloatSum LandPaths LandWalk LandWhole.

Definition either {A} (P : A -> Prop) (r : outcome A) : Prop := match r with Ok a => P a | Throw e => e = AlgorithmErr | UB => False end.
Lemma either_bind {A B} (P : A -> Prop) (R : B -> Prop) (r : outcome A) (g : A -> outcome B) : either P r -> (forall a, P a -> either R (g a)) -> either R (bind r g).
Proof. intros H Hg. destruct r as [a|e|]; cbn [bind]; [apply Hg; exact H|exact H|exact H]. Qed.
Lemma either_fold {A B} (P : A -> Prop) (g : A -> B -> outcome A) l : (forall b a, In b l -> P a -> either P (g a b)) -> forall a, P a -> either P (fold_out g l a).
Proof.
  induction l as [|b l IH]; intros H a Ha; cbn [fold_out]; [exact Ha|]. apply (either_bind P); [apply H; [now left|exact Ha]|]. intros a' Ha'. apply IH; [|exact Ha']. intros c x Hc. apply H. now right.
Qed.

Section Assign.
  Variable dist2 : point -> point -> double.
  Variable line : point -> point -> point -> double * point * double.
  Variables (m : mesh) (f : faces).
  Hypothesis St : in_step m f.
  Local Notation N := (length (m_nodes m)).
  Local Notation E := (length (m_edges m)).
  Variable s0 : state.
  Hypothesis L0 : 0 < length (n_land s0).
  Hypothesis B0 : forall i x y, nth_error (n_pieces s0) i = Some (x, y) -> x < y < length (n_land s0).
  Hypothesis P0 : length (n_piece s0) = N.
  Hypothesis M0 : length (n_mask s0) = N.
  Hypothesis V0 : forall n i, nth n (n_piece s0) None = Some i -> i < length (n_pieces s0).
  Local Notation has s n := (nth n (n_piece s) None).
  Local Notation A0 := (length (n_land s0)).
  Local Notation K0 := (length (n_pieces s0)).
  Local Notation walked n := (along_boundary m f (fun o => nth o (n_mask s0) None <> None) (fun o => has s0 o <> None) n).
  (** What the boundary nodes get: the piece of the nearest segment, or an added one. *)
  Record grown (s : state) : Prop := {
    g_land : exists ext, n_land s = n_land s0 ++ ext;
    g_pieces : exists ext, n_pieces s = n_pieces s0 ++ ext;
    g_bounds : forall i x y, nth_error (n_pieces s) i = Some (x, y) -> x < y < length (n_land s);
    g_len : length (n_piece s) = N;
    g_mask : n_mask s = n_mask s0;
    g_val : forall n i, has s n = Some i -> i < length (n_pieces s);
    g_keep : forall n i, has s0 n = Some i -> has s n = Some i;
    g_new : forall n i, has s0 n = None -> has s n = Some i -> i < length (n_pieces s0) ->
      exists x y j d q r, nth_error (n_pieces s0) i = Some (x, y) /\ x <= j < y /\ is_nearest line (n_land s0) 0 (length (n_land s0) - 1) (nth n (m_nodes m) missing_point) j d q r;
    g_size : length (n_land s) = place A0 K0 (length (n_pieces s));
    g_where : forall n, has s n <> None -> along_boundary m f (fun o => nth o (n_mask s0) None <> None) (fun o => has s0 o <> None) n;
    g_added : forall k r, K0 <= k -> nth_error (n_pieces s) k = Some r -> added A0 K0 (n_land s) (n_pieces s) dist2 (m_nodes m) k r;
    g_given : forall n i, has s0 n = None -> has s n = Some i -> exists t, K0 <= t <= length (n_pieces s) /\ given A0 K0 (n_land s) (n_pieces s) line (nth n (m_nodes m) missing_point) t i }.
  Lemma grown_start : grown s0.
  Proof.
    constructor; auto; try (exists []; now rewrite app_nil_r); try (intros n i H1 H2; congruence).
    - unfold place. rewrite Nat.sub_diag. lia.
    - intros n H. now constructor.
    - intros k r H1 H2. assert (k < K0) by (apply nth_error_Some; congruence). lia.
  Qed.
  Lemma point_prefix ext n : n < length (n_land s0) -> point_at (n_land s0 ++ ext) n = point_at (n_land s0) n.
  Proof. intros Hn. unfold point_at. now apply app_nth1. Qed.
  Lemma segment_prefix ext n p d q r : S n < length (n_land s0) -> segment line (n_land s0 ++ ext) n p d q r <-> segment line (n_land s0) n p d q r.
  Proof. intros Hn. unfold segment. rewrite !point_prefix by lia. reflexivity. Qed.
  Lemma counts_prefix ext n p d : S n < length (n_land s0) -> counts line (n_land s0 ++ ext) n p d <-> counts line (n_land s0) n p d.
  Proof.
    intros Hn. unfold counts. split; intros ((q & r & A) & B); (split; [exists q, r; apply (segment_prefix ext n p d q r Hn); exact A|exact B]).
  Qed.
  Lemma nearest_prefix ext p j d q r : S j < length (n_land s0) -> is_nearest line (n_land s0 ++ ext) 0 (length (n_land s0 ++ ext) - 1) p j d q r -> is_nearest line (n_land s0) 0 (length (n_land s0) - 1) p j d q r.
  Proof.
    intros Hj (A1 & A2 & A3 & A4). split; [lia|]. split; [now apply (segment_prefix ext)|]. split; [now apply (counts_prefix ext)|].
    intros n d' Hn C. apply A4; [rewrite app_length; lia|]. apply counts_prefix; [lia|exact C].
  Qed.
  Lemma given_more l ps l1 ps1 p t i : K0 <= t <= length ps -> length l = place A0 K0 (length ps) -> given A0 K0 l ps line p t i -> given A0 K0 (l ++ l1) (ps ++ ps1) line p t i.
  Proof.
    intros Ht Hl (k & x & y & c & d & q & r & H1 & H2 & H3 & H4 & H5 & H6). exists k, x, y, c, d, q, r. split; [exact H1|]. split; [rewrite nth_error_app1 by lia; exact H2|]. split; [exact H3|]. split; [|split; [|exact H6]].
    - intros k' x' y' Hk E. rewrite nth_error_app1 in E by lia. eapply H4; eassumption.
    - rewrite firstn_app. assert (Z : place A0 K0 t - length l = 0) by (unfold place in *; lia). rewrite Z. cbn [firstn]. rewrite app_nil_r. exact H5.
  Qed.
  Lemma added_more l ps l1 ps1 k r : K0 <= k < length ps -> length l = place A0 K0 (length ps) -> (forall i x y, nth_error ps i = Some (x, y) -> x < y < length l) ->
    added A0 K0 l ps dist2 (m_nodes m) k r -> added A0 K0 (l ++ l1) (ps ++ ps1) dist2 (m_nodes m) k r.
  Proof.
    intros Hk Hl Hb (H1 & H2 & H3 & i & j & ri & rj & p & H4 & H5 & H6 & H7 & H8 & H9 & H10).
    assert (P : forall n, n < length l -> point_at (l ++ l1) n = point_at l n) by (intros n Hn; unfold point_at; now apply app_nth1).
    assert (Pl : place A0 K0 k + 3 < length l) by (rewrite Hl; unfold place; lia).
    split; [exact H1|]. split; [rewrite P by lia; exact H2|]. split; [rewrite P by lia; exact H3|]. exists i, j, ri, rj, p. split; [exact H4|]. split; [exact H5|].
    split; [rewrite nth_error_app1 by lia; exact H6|]. split; [rewrite nth_error_app1 by lia; exact H7|]. split; [exact H8|]. subst r. cbn [fst snd] in *.
    destruct ri as (xi, yi), rj as (xj, yj). pose proof (Hb _ _ _ H6). pose proof (Hb _ _ _ H7). unfold connects, nearer_point in *. cbn [fst snd] in *. rewrite !P by lia. split; [exact H9|exact H10].
  Qed.
  Lemma set_grown s n i : grown s -> n < N -> i < length (n_pieces s) -> has s0 n = None -> walked n ->
    (exists t, K0 <= t <= length (n_pieces s) /\ given A0 K0 (n_land s) (n_pieces s) line (nth n (m_nodes m) missing_point) t i) ->
    (i < length (n_pieces s0) -> exists x y j d q r, nth_error (n_pieces s0) i = Some (x, y) /\ x <= j < y /\ is_nearest line (n_land s0) 0 (length (n_land s0) - 1) (nth n (m_nodes m) missing_point) j d q r) ->
    exists s', set_piece n (Some i) s = Ok s' /\ grown s' /\ has s' n = Some i /\ forall x, has s x <> None -> has s' x <> None.
  Proof.
    intros [H1 H2 H3 H4 H5 H6 H7 H8 H9 H10 H11 H12] Hn Hi Hnone Hw Hg Hnear. unfold set_piece. rewrite vset_lt by lia. cbn [bind]. eexists. split; [reflexivity|].
    assert (P : forall x, nth x (set_nth n (Some i) (n_piece s)) None = if x =? n then Some i else has s x) by (intros x; apply nth_set; lia).
    split; [constructor; cbn [n_land n_pieces n_piece n_least n_mask]; auto|].
    - now rewrite set_nth_length.
    - intros x j. rewrite P. destruct (x =? n); [intros [= <-]; exact Hi|apply H6].
    - intros x j Hx. rewrite P. destruct (Nat.eqb_spec x n) as [->|]; [congruence|now apply H7].
    - intros x j Hx. rewrite P. destruct (Nat.eqb_spec x n) as [->|]; [intros [= <-]; exact Hnear|now apply H8].
    - intros x. rewrite P. destruct (Nat.eqb_spec x n) as [->|]; [intros _; exact Hw|apply H10].
    - intros x j Hx. rewrite P. destruct (Nat.eqb_spec x n) as [->|]; [intros [= <-]; exact Hg|now apply H12].
    - cbn [n_piece]. split; [rewrite P, Nat.eqb_refl; reflexivity|]. intros x Hx. rewrite P. destruct (x =? n); [discriminate|exact Hx].
  Qed.
  Lemma closest_ok land p r : fst r < length land -> snd r < length land -> closest dist2 land p r = Ok (nearer_point dist2 land p r).
  Proof. intros H1 H2. unfold closest. rewrite !point_get by assumption. reflexivity. Qed.
  Lemma add_ok s first other last i j : grown s -> has s first = Some i -> has s other = Some j -> first < N -> other < N -> last < N ->
    exists l1 r1, add_piece dist2 m first other last s = Ok (State (n_land s ++ l1) (n_pieces s ++ [r1]) (n_piece s) (n_least s) (n_mask s)) /\
      grown (State (n_land s ++ l1) (n_pieces s ++ [r1]) (n_piece s) (n_least s) (n_mask s)).
  Proof.
    intros G Hi Hj Hf Ho Hl. pose proof G as [H1 H2 H3 H4 H5 H6 H7 H8 H9 H10 H11 H12]. unfold add_piece.
    assert (G1 : nth_error (n_piece s) first = Some (Some i)) by (rewrite <- Hi; apply nth_error_nth'; lia). assert (G2 : nth_error (n_piece s) other = Some (Some j)) by (rewrite <- Hj; apply nth_error_nth'; lia).
    rewrite (proj2 (vget_ok _ _ _) G1), (proj2 (vget_ok _ _ _) G2). cbn [bind]. pose proof (H6 _ _ Hi) as Li. pose proof (H6 _ _ Hj) as Lj.
    destruct (Nat.leb_spec (length (n_pieces s)) i); [lia|]. destruct (Nat.leb_spec (length (n_pieces s)) j); [lia|]. cbn [orb].
    destruct (nth_error (n_pieces s) i) as [(a, b)|] eqn:Ei; [|apply nth_error_None in Ei; lia]. rewrite (proj2 (vget_ok _ _ _) Ei). cbn [bind]. pose proof (H3 _ _ _ Ei) as Bi.
    unfold node_at. rewrite (nth_error_nth' (m_nodes m) missing_point Hl). cbn [bind]. rewrite closest_ok by (cbn; lia). cbn [bind fst snd]. set (p := nth last (m_nodes m) missing_point). set (pl := nearer_point dist2 (n_land s) p (a, b)).
    destruct (nth_error (n_pieces s) j) as [(c, d)|] eqn:Ej; [|apply nth_error_None in Ej; lia]. pose proof (H3 _ _ _ Ej) as Bj.
    assert (Epr : exists pr, (if j =? i then let! a := vget (n_land s) a in let! b := vget (n_land s) b in Ok (Pt (fadd (px a) (fsub (px b) (px pl))) (fadd (py a) (fsub (py b) (py pl))))
      else let! r := vget (n_pieces s) j in closest dist2 (n_land s) p r) = Ok pr /\ connects dist2 (n_land s) p (a, b) (c, d) (i =? j) pl pr).
    { unfold connects. rewrite (Nat.eqb_sym i j). destruct (j =? i); [rewrite !point_get by lia; cbn [bind]; eauto|]. rewrite (proj2 (vget_ok _ _ _) Ej). cbn [bind]. rewrite closest_ok by (cbn; lia). eauto. }
    destruct Epr as (pr & -> & Cn). cbn [bind]. rewrite app_length. cbn [length]. exists [missing_point; pl; pr; missing_point]. eexists. split; [reflexivity|].
    assert (P : forall n, n < length (n_land s) -> point_at (n_land s ++ [missing_point; pl; pr; missing_point]) n = point_at (n_land s) n) by (intros n Hn; unfold point_at; now apply app_nth1).
    assert (P' : forall z, point_at (n_land s ++ [missing_point; pl; pr; missing_point]) (length (n_land s) + z) = nth z [missing_point; pl; pr; missing_point] missing_point) by (intros z; unfold point_at; rewrite app_nth2 by lia; f_equal; lia).
    assert (K : K0 <= length (n_pieces s)) by (destruct H2 as (ext & ->); rewrite app_length; lia).
    constructor; cbn [n_land n_pieces n_piece n_least n_mask]; auto.
    - destruct H1 as (ext & ->). rewrite <- app_assoc. eauto.
    - destruct H2 as (ext & ->). rewrite <- app_assoc. eauto.
    - intros k x y Hk. rewrite app_length. cbn [length]. destruct (Nat.lt_ge_cases k (length (n_pieces s))) as [Q|Q].
      + rewrite nth_error_app1 in Hk by exact Q. specialize (H3 _ _ _ Hk). lia.
      + rewrite nth_error_app2 in Hk by exact Q. destruct (k - length (n_pieces s)) as [|[|]]; cbn in Hk; [injection Hk as <- <-; lia|discriminate|discriminate].
    - intros n k Hk. rewrite app_length. specialize (H6 _ _ Hk). lia.
    - rewrite !app_length, H9. cbn [length]. unfold place. lia.
    - intros k r Hk E. destruct (Nat.lt_ge_cases k (length (n_pieces s))) as [Q|Q].
      + rewrite nth_error_app1 in E by exact Q. apply added_more; auto.
      + rewrite nth_error_app2 in E by exact Q. destruct (k - length (n_pieces s)) as [|[|]] eqn:Z; cbn in E; [|discriminate|discriminate]. assert (k = length (n_pieces s)) by lia. subst k. injection E as <-. rewrite H9 in *.
        split; [f_equal; lia|]. rewrite <- H9 in *. split; [rewrite <- (Nat.add_0_r (length (n_land s))); rewrite P'; reflexivity|]. split; [rewrite P'; reflexivity|].
        exists i, j, (a, b), (c, d), p. split; [exact Li|]. split; [exact Lj|]. split; [rewrite nth_error_app1 by lia; exact Ei|]. split; [rewrite nth_error_app1 by lia; exact Ej|]. split; [apply nth_In; exact Hl|].
        cbn [fst snd]. replace (length (n_land s) + 4 - 3) with (length (n_land s) + 1) by lia. replace (length (n_land s) + 4 - 2) with (length (n_land s) + 2) by lia. rewrite !P'. cbn [nth].
        unfold connects, nearer_point in *. cbn [fst snd] in *. rewrite !P by lia. exact Cn.
    - intros n k Hn Hk. destruct (H12 n k Hn Hk) as (t & Ht & Hg). exists t. rewrite app_length. cbn [length]. split; [lia|]. now apply given_more.
  Qed.
  Definition better (s s' : state) : Prop := grown s' /\ forall x, has s x <> None -> has s' x <> None.
  Lemma first_find (g : nat -> bool) num : forall a k, find g (seq a num) = Some k -> forall k', a <= k' < k -> g k' = false.
  Proof.
    induction num as [|num IH]; intros a k; cbn [seq find]; [discriminate|]. destruct (g a) eqn:Ea; [intros [= <-]; lia|]. intros Ef k' Hk'. destruct (Nat.eq_dec k' a) as [->|]; [exact Ea|]. apply (IH (S a) k Ef). lia.
  Qed.
  Lemma node_ok s first other last n i j : grown s -> has s first = Some i -> has s other = Some j -> first < N -> other < N -> last < N -> n < N -> has s0 n = None -> walked n ->
    either (better s) (assign_node dist2 line m first other last s n).
  Proof.
    intros G Hi Hj Hf Ho Hl Hn Hnone Hw. pose proof G as [H1 H2 H3 H4 H5 H6 H7 H8 H9 H10 H11 H12]. unfold assign_node, node_at. rewrite (nth_error_nth' (m_nodes m) missing_point Hn). cbn [bind].
    destruct (nearest_ok line (n_land s) None (nth n (m_nodes m) missing_point)) as ([[[d q] c] r] & -> & B). { cbn. destruct H1 as (ext & ->). rewrite app_length. lia. }
    cbn [bind ends_of fst snd] in *. destruct c as [c|]; [|reflexivity]. cbn [best_of] in B.
    destruct (find _ (seq 0 (length (n_pieces s)))) as [k|] eqn:Ef; [|reflexivity]. pose proof (first_find _ _ _ _ Ef) as First. apply find_some in Ef as (Hk & Hc). apply in_seq in Hk. apply andb_true_iff in Hc as (Hc1 & Hc2). apply Nat.leb_le in Hc1. apply Nat.ltb_lt in Hc2.
    destruct (nth_error (n_pieces s) k) as [(x, y)|] eqn:Ek; [|apply nth_error_None in Ek; lia]. rewrite (proj2 (vget_ok _ _ _) Ek). cbn [bind]. rewrite (nth_error_nth _ _ _ Ek) in *. cbn [fst snd] in *.
    assert (K : K0 <= length (n_pieces s)) by (destruct H2 as (ext & ->); rewrite app_length; lia).
    set (far := ((c =? x) && SFltb r LandModel.zero) || ((c =? y - 1) && SFltb (double_of 1 0) r)).
    assert (Gv : given A0 K0 (n_land s) (n_pieces s) line (nth n (m_nodes m) missing_point) (length (n_pieces s)) (if far then length (n_pieces s) else k)).
    { exists k, x, y, c, d, q, r. split; [lia|]. split; [exact Ek|]. split; [lia|]. split; [|split; [|reflexivity]].
      - intros k' x' y' Hk' E' Q. specialize (First k' ltac:(lia)). cbv beta zeta in First. rewrite (nth_error_nth _ _ _ E') in First. cbn [fst snd] in First. apply andb_false_iff in First as [Z|Z]; [apply Nat.leb_gt in Z|apply Nat.ltb_ge in Z]; lia.
      - rewrite <- H9, firstn_all. exact B. }
    destruct far.
    - destruct (add_ok s first other last i j G Hi Hj Hf Ho Hl) as (l1 & r1 & -> & G1). cbn [bind n_pieces].
      assert (Lp : length (n_pieces s ++ [r1]) - 1 = length (n_pieces s)) by (rewrite app_length; cbn; lia). rewrite Lp.
      destruct (set_grown _ n (length (n_pieces s)) G1 Hn) as (s2 & -> & G2 & _ & Mo); cbn [n_land n_pieces]; [rewrite app_length; cbn; lia|exact Hnone|exact Hw| |lia|].
      + exists (length (n_pieces s)). rewrite app_length. split; [lia|]. apply given_more; [lia|exact H9|exact Gv].
      + cbn [either]. split; [exact G2|]. intros z Hz. apply Mo. exact Hz.
    - destruct (set_grown s n k G Hn) as (s2 & -> & G2 & _ & Mo); [lia|exact Hnone|exact Hw|exists (length (n_pieces s)); split; [lia|exact Gv]| |].
      + intros Lk. exists x, y, c, d, q, r. destruct H2 as (ext & E2). assert (Ek' : nth_error (n_pieces s0) k = Some (x, y)) by (rewrite E2, nth_error_app1 in Ek by exact Lk; exact Ek). pose proof (B0 _ _ _ Ek').
        split; [exact Ek'|]. split; [lia|]. destruct H1 as (ext' & E1). rewrite E1 in B. apply (nearest_prefix ext'); [lia|exact B].
      + cbn [either]. split; assumption.
  Qed.
  Lemma better_refl s : grown s -> better s s. Proof. intros G. split; auto. Qed.
  Lemma better_trans s1 s2 s3 : better s1 s2 -> better s2 s3 -> better s1 s3.
  Proof. intros (_ & A) (G & B). split; auto. Qed.
  Lemma assign_ok fuel : forall first rest s, NoDup (first :: rest) -> (forall n, In n (first :: rest) -> n < N) -> (forall n, In n rest -> has s0 n = None) -> (forall n, In n (first :: rest) -> walked n) -> grown s -> has s first <> None ->
    N < fuel + length (first :: rest) -> either (better s) (assign dist2 line m f fuel (first :: rest) s).
  Proof.
    induction fuel as [|fuel IH]; intros first rest s Nd Hin Hnone Hwalk G Hfirst Hfuel.
    - exfalso. assert (length (first :: rest) <= N); [|lia]. rewrite <- (seq_length N 0). apply NoDup_incl_length; [exact Nd|]. intros x Hx. apply in_seq. specialize (Hin x Hx). lia.
    - cbn [assign]. destruct (list_max (first :: rest) <? length (first :: rest)); [now apply better_refl|].
      set (lst := last (first :: rest) 0). assert (Hlst : In lst (first :: rest)) by (unfold lst; clear; generalize first; induction rest as [|x r IHr]; intros y; [now left|]; right; apply (IHr x)).
      pose proof (Hin lst Hlst) as HlN. destruct (st_row m f St lst HlN) as (Dg & _ & Rows). pose proof (st_mesh m f St) as Co.
      assert (Gd : nth_error (m_nodesNumEdges m) lst = Some (degree_of m lst)) by (apply nth_error_nth'; rewrite (co_counts m Co); exact HlN). rewrite (proj2 (vget_ok _ _ _) Gd). cbn [bind].
      assert (Gr : nth_error (m_nodesEdges m) lst = Some (row_of m lst)) by (apply nth_error_nth'; rewrite (co_rows m Co); exact HlN).
      set (each := fix each (is : list nat) (s : state) : outcome state :=
             match is with
             | [] => Ok s
             | i :: is =>
                 let! row := vget (m_nodesEdges m) lst in
                 let! oe := vget row i in
                 let! e := row_index oe in
                 let! b := at_boundary f e in
                 if negb b then each is s
                 else
                   let! ed := get_edge m (Some e) in
                   let! o := row_index (other_node ed lst) in
                   let! v := vget (n_mask s) o in
                   match v with
                   | None => Ok s
                   | Some _ =>
                       if existsb (Nat.eqb o) (first :: rest) then each is s
                       else
                         let! v := vget (n_piece s) o in
                         match v with
                         | Some _ => let! first0 := vget (first :: rest) 0 in let! s := fold_out (assign_node dist2 line m first0 o lst) (tl (first :: rest)) s in each is s
                         | None => let! s := assign dist2 line m f fuel ((first :: rest) ++ [o]) s in each is s
                         end
                   end
             end).
      assert (Each0 : forall s, each [] s = Ok s) by reflexivity.
      assert (Each1 : forall i is s, each (i :: is) s = (
                 let! row := vget (m_nodesEdges m) lst in
                 let! oe := vget row i in
                 let! e := row_index oe in
                 let! b := at_boundary f e in
                 if negb b then each is s
                 else
                   let! ed := get_edge m (Some e) in
                   let! o := row_index (other_node ed lst) in
                   let! v := vget (n_mask s) o in
                   match v with
                   | None => Ok s
                   | Some _ =>
                       if existsb (Nat.eqb o) (first :: rest) then each is s
                       else
                         let! v := vget (n_piece s) o in
                         match v with
                         | Some _ => let! first0 := vget (first :: rest) 0 in let! s := fold_out (assign_node dist2 line m first0 o lst) (tl (first :: rest)) s in each is s
                         | None => let! s := assign dist2 line m f fuel ((first :: rest) ++ [o]) s in each is s
                         end
                   end
      )) by reflexivity.
      clearbody each.
      assert (Each : forall is, (forall i, In i is -> i < length (row_of m lst)) -> forall s1, better s s1 -> either (better s) (each is s1)).
      { induction is as [|i is IHis]; intros His s1 Bs; [rewrite Each0; exact Bs|]. rewrite Each1. specialize (IHis (fun x Hx => His x (or_intror Hx))). rewrite (proj2 (vget_ok _ _ _) Gr). cbn [bind].
        destruct (nth_error (row_of m lst) i) as [oe|] eqn:Eo; [|apply nth_error_None in Eo; specialize (His i (or_introl eq_refl)); lia]. rewrite (proj2 (vget_ok _ _ _) Eo). cbn [bind].
        destruct (Rows oe (nth_error_In _ _ Eo)) as (e & o & -> & He & J & _). cbn [row_index bind]. destruct (st_tables m f St) as (_ & _ & T3 & _).
        unfold at_boundary at 1. destruct (nth_error (edges_num_faces f) e) as [nf|] eqn:En; [|apply nth_error_None in En; lia]. rewrite (proj2 (vget_ok _ _ _) En). cbn [bind].
        destruct (Nat.eqb_spec nf 1) as [->|]; cbn [negb]; [|now apply IHis]. unfold get_edge at 1. rewrite (nth_error_nth' (m_edges m) missing_edge He). cbn [bind]. change (nth e (m_edges m) missing_edge) with (edge_at m e).
        rewrite (ContactsProofs.joins_other _ _ _ J). cbn [row_index bind].
        assert (HoN : o < N). { apply (co_ends m Co (edge_at m e) o); [apply nth_In; exact He|]. destruct J as [-> | ->]; [right|left]; reflexivity. }
        pose proof Bs as (G1 & Mo1). pose proof G1 as [A1 A2 A3 A4 A5 A6 A7 A8 A9 A10 A11 A12].
        destruct (nth_error (n_mask s1) o) as [[v|]|] eqn:Ev; [| |apply nth_error_None in Ev; rewrite A5 in Ev; lia]; rewrite (proj2 (vget_ok _ _ _) Ev); cbn [bind]; [|exact Bs].
        destruct (existsb (Nat.eqb o) (first :: rest)) eqn:Eb; [now apply IHis|].
        assert (Ho : ~ In o (first :: rest)) by (intros Q; assert (existsb (Nat.eqb o) (first :: rest) = true) by (apply existsb_exists; exists o; split; [exact Q|apply Nat.eqb_refl]); congruence).
        assert (Gp : nth_error (n_piece s1) o = Some (has s1 o)) by (apply nth_error_nth'; lia). rewrite (proj2 (vget_ok _ _ _) Gp). cbn [bind]. destruct (has s1 o) as [j|] eqn:Ej.
        - cbn [vget nth_error bind tl]. apply (either_bind (better s1)); [|intros s2 B2; apply IHis; eapply better_trans; eassumption].
          apply (either_fold (better s1)); [|now apply better_refl]. intros n s2 Hn (G2 & Mo2).
          assert (F2 : has s2 first <> None) by (apply Mo2, Mo1, Hfirst). assert (O2 : has s2 o <> None) by (apply Mo2; congruence). destruct (has s2 first) as [i2|] eqn:E1; [|contradiction]. destruct (has s2 o) as [j2|] eqn:E2; [|contradiction].
          pose proof (node_ok s2 first o lst n i2 j2 G2 E1 E2 (Hin first (or_introl eq_refl)) HoN HlN (Hin n (or_intror Hn)) (Hnone n Hn) (Hwalk n (or_intror Hn))) as R. destruct (assign_node dist2 line m first o lst s2 n) as [s3| |]; cbn [either] in *; try exact R.
          eapply better_trans; [|exact R]. split; assumption.
        - apply (either_bind (better s1)); [|intros s2 B2; apply IHis; eapply better_trans; eassumption].
          assert (Nn : has s0 o = None) by (destruct (has s0 o) as [z|] eqn:Z; [|reflexivity]; apply A7 in Z; congruence).
          apply (IH first (rest ++ [o])); auto.
          + inversion Nd as [|? ? N1 N2]; subst. constructor; [intros Q; apply in_app_or in Q as [Q|[Q|[]]]; [contradiction|]; subst; apply Ho; now left|].
            apply NoDup_rev in N2. rewrite <- (rev_involutive (rest ++ [o])). apply NoDup_rev. rewrite rev_app_distr. cbn [rev app]. constructor; [|exact N2]. intros Q. apply in_rev in Q. apply Ho. now right.
          + intros n [<-|Q]; [apply Hin; now left|]. apply in_app_or in Q as [Q|[<-|[]]]; [apply Hin; now right|exact HoN].
          + intros n Q. apply in_app_or in Q as [Q|[<-|[]]]; auto.
          + intros n [<-|Q]; [apply Hwalk; now left|]. apply in_app_or in Q as [Q|[<-|[]]]; [apply Hwalk; now right|]. apply along_next with (n := lst) (e := e); [now apply Hwalk|exact En|exact J|].
            rewrite <- A5, (nth_error_nth _ _ _ Ev). discriminate.
          + cbn [length] in *. rewrite app_length. cbn [length]. lia. }
      apply Each; [|now apply better_refl]. intros i Hi. apply in_seq in Hi. lia.
  Qed.
  Lemma edge_ok s e : grown s -> e < E -> either grown (assign_edge dist2 line m f s e).
  Proof.
    intros G He. pose proof G as [H1 H2 H3 H4 H5 H6 H7 H8 H9 H10 H11 H12]. unfold assign_edge. destruct (faces_of m f St e He) as (k & Ek & _ & _ & Hk1). unfold at_boundary. rewrite (proj2 (vget_ok _ _ _) Ek). cbn [bind].
    destruct (Nat.eqb_spec k 1) as [Q|Q]; cbn [negb]; [|exact G]. assert (Ek' : nth_error (edges_num_faces f) e = Some 1) by congruence. apply Hk1 in Q. assert (U : exists i, lists f i e) by (destruct Q as (i & Q); exists i; now apply Q). destruct U as (i & Li).
    destruct (used_ends m f St e i Li) as (u & v & Ee & Huv & Hu & Hv). unfold get_edge. rewrite (nth_error_nth' (m_edges m) missing_edge He). cbn [bind]. change (nth e (m_edges m) missing_edge) with (edge_at m e). rewrite Ee.
    assert (Gu : nth_error (n_piece s) u = Some (has s u)) by (apply nth_error_nth'; lia). assert (Gv : nth_error (n_piece s) v = Some (has s v)) by (apply nth_error_nth'; lia).
    rewrite (proj2 (vget_ok _ _ _) Gu), (proj2 (vget_ok _ _ _) Gv). cbn [bind].
    destruct (nth_error (n_mask s) u) as [mu|] eqn:Eu; [|apply nth_error_None in Eu; rewrite H5 in Eu; lia]. destruct (nth_error (n_mask s) v) as [mv|] eqn:Ev; [|apply nth_error_None in Ev; rewrite H5 in Ev; lia].
    assert (Go : forall x y, x < N -> y < N -> x <> y -> joins (edge_at m e) x y -> nth y (n_mask s) None <> None -> has s x <> None -> has s y = None -> either grown (assign dist2 line m f (S (S N)) [x; y] s)).
    { intros x y Hx Hy Hne J My Px Py. assert (R : either (better s) (assign dist2 line m f (S (S N)) [x; y] s)).
      - apply assign_ok; auto.
        + constructor; [intros [Z|[]]; congruence|constructor; [intros []|constructor]].
        + intros z [<-|[<-|[]]]; assumption.
        + intros z [<-|[]]. destruct (has s0 y) as [w|] eqn:Z; [|reflexivity]. apply H7 in Z. congruence.
        + assert (Wx : walked x) by (now apply H10). intros z [<-|[<-|[]]]; [exact Wx|]. apply along_next with (n := x) (e := e); [exact Wx|exact Ek'|exact J|]. now rewrite <- H5.
        + cbn [length]. lia.
      - destruct (assign _ _ _ _ _ _ _) as [s'| |]; cbn [either] in *; [apply R|exact R|exact R]. }
    destruct (has s u) as [pu|] eqn:Pu, (has s v) as [pv|] eqn:Pv; cbn [either]; try exact G; rewrite (proj2 (vget_ok _ _ _) Eu), (proj2 (vget_ok _ _ _) Ev); cbn [bind]; destruct mu, mv; cbn [either]; try exact G; (apply Go; auto; [rewrite Ee; unfold joins; auto|rewrite ?(nth_error_nth _ _ _ Eu), ?(nth_error_nth _ _ _ Ev); discriminate|congruence]).
  Qed.
  Lemma edges_ok : either grown (fold_out (assign_edge dist2 line m f) (seq 0 E) s0).
  Proof. apply (either_fold grown); [|apply grown_start]. intros e s He G. apply in_seq in He. apply edge_ok; [exact G|lia]. Qed.
End Assign.

Section Whole.
  Variable dist dist2 : point -> point -> double.
  Variable line : point -> point -> point -> double * point * double.
  Variable inside : point -> bool.
  Variable face_of : list (option nat).
  Variable crossed : point -> point -> option nat.
  Variables (m : mesh) (f : faces).
  Hypothesis St : in_step m f.
  Local Notation N := (length (m_nodes m)).
  Local Notation E := (length (m_edges m)).
  Variable land : list point.
  Hypothesis dist_good : forall p q, In p (m_nodes m) -> In q (m_nodes m) -> good (dist p q).
  Hypothesis line_double : forall p q r, In p (m_nodes m ++ land) -> In q (m_nodes m ++ land) -> In r (m_nodes m ++ land) -> is_double (fst (fst (line p q r))).
  Hypothesis Lf : length face_of = length land.
  Hypothesis Vf : forall i, In (Some i) face_of -> i < num_faces f.
  Hypothesis Vc : forall p q i, crossed p q = Some i -> i < num_faces f.
  Variable types : list Z.
  Hypothesis Lt : length types = N.
  Definition unassigned (ps : list (nat * nat)) : state := State land ps (repeat None N) (repeat missing_double N) (repeat None N).
  Local Notation path ps := (one_path dist dist2 line inside face_of crossed m f land types ps).
  (** The paths along the first [k] pieces, one after the other. *)
  Inductive paths_done (ps : list (nat * nat)) (outer again : bool) : nat -> state -> Prop :=
  | paths_none : paths_done ps outer again 0 (unassigned ps)
  | paths_next k a b s i o s1 s2 : paths_done ps outer again k s -> nth_error ps k = Some (a, b) -> path ps outer k a b s i o s1 ->
      (if (0 <? o) && again then exists i' o', path ps false k a b s1 i' o' s2 else s2 = s1) -> paths_done ps outer again (S k) s2.
  Lemma trace_ok ps outer again k s : (forall i x y, nth_error ps i = Some (x, y) -> x < y < length land) -> k < length ps -> kept line land ps m s -> length (n_mask s) = N -> paths_done ps outer again k s ->
    match trace dist dist2 line inside face_of crossed types m f outer again s k with
    | Ok s' => kept line land ps m s' /\ length (n_mask s') = N /\ paths_done ps outer again (S k) s'
    | Throw e => e = StdErr \/ e = AlgorithmErr
    | UB => exists a b, In (a, b) ps /\ ~ off_land line land a b m
    end.
  Proof.
    intros Hps Hk K Lm P. destruct (nth_error ps k) as [(a, b)|] eqn:Ek; [|apply nth_error_None in Ek; lia]. unfold trace.
    pose proof (make_path_ok dist dist2 line inside face_of crossed m f St land dist_good line_double Lf Vf Vc types ps Lt Hps outer k a b s Ek K) as R.
    destruct (make_path dist dist2 line inside face_of crossed types m f outer k s) as [((i, o), s1)|e|]; cbn [bind]; [|exact R|exists a, b; split; [eapply nth_error_In; exact Ek|exact R]].
    destruct R as (K1 & L1 & O1). destruct ((0 <? o) && again) eqn:Eo.
    - pose proof (make_path_ok dist dist2 line inside face_of crossed m f St land dist_good line_double Lf Vf Vc types ps Lt Hps false k a b s1 Ek K1) as R.
      destruct (make_path dist dist2 line inside face_of crossed types m f false k s1) as [((i', o'), s2)|e|]; cbn [bind snd]; [|exact R|exists a, b; split; [eapply nth_error_In; exact Ek|exact R]].
      destruct R as (K2 & L2 & O2). split; [exact K2|]. split; [exact L2|]. eapply paths_next; eauto. rewrite Eo. eauto.
    - split; [exact K1|]. split; [exact L1|]. eapply paths_next; eauto. now rewrite Eo.
  Qed.
  Lemma kept_start ps : kept line land ps m (unassigned ps).
  Proof.
    constructor; cbn [unassigned n_land n_pieces n_piece n_least]; auto; rewrite ?repeat_length; auto.
    - intros n Hn. left. rewrite (nth_error_nth _ _ _ (nth_error_repeat _ Hn)). reflexivity.
    - intros n i Hn. rewrite nth_repeat. discriminate.
  Qed.
  Definition outer_of (c : choice) : bool := match c with OuterBoundary | InnerAndOuter => true | _ => false end.
  Definition again_of (c : choice) : bool := match c with InnerAndOuter => true | _ => false end.
  Theorem find_boundary_ok c : land <> [] -> c <> NoProjection -> exists ps, pieces_of inside land = Ok ps /\ (forall a b, In (a, b) ps -> a < b < length land) /\
    match find_boundary dist dist2 line inside face_of crossed types m f land c with
    | Ok None => False
    | Ok (Some s) => exists s1, paths_done ps (outer_of c) (again_of c) (length ps) s1 /\ n_land s1 = land /\ n_pieces s1 = ps /\ length (n_piece s1) = N /\ (forall n i, nth n (n_piece s1) None = Some i -> i < length ps) /\
        if outer_of c then grown dist2 line m f s1 s else s = s1
    | Throw e => e = StdErr \/ e = AlgorithmErr
    | UB => exists a b, In (a, b) ps /\ ~ off_land line land a b m
    end.
  Proof.
    intros Hl Hc. destruct (pieces_meaning inside land Hl) as (rs & ps & _ & Ep & Hps & _). exists ps. split; [exact Ep|]. split; [exact Hps|].
    assert (Hps' : forall i x y, nth_error ps i = Some (x, y) -> x < y < length land) by (intros i x y Hi; apply Hps; eapply nth_error_In; exact Hi).
    assert (Ef : find_boundary dist dist2 line inside face_of crossed types m f land c =
      let! s := fold_out (trace dist dist2 line inside face_of crossed types m f (outer_of c) (again_of c)) (seq 0 (length ps)) (unassigned ps) in
      let! s := (if outer_of c then fold_out (assign_edge dist2 line m f) (seq 0 E) s else Ok s) in Ok (Some s)).
    { unfold find_boundary, unassigned. destruct land as [|p l]; [contradiction|]. destruct c; try contradiction; rewrite Ep; reflexivity. }
    rewrite Ef. clear Ef.
    assert (T : forall n, n <= length ps -> match fold_out (trace dist dist2 line inside face_of crossed types m f (outer_of c) (again_of c)) (seq 0 n) (unassigned ps) with
      | Ok s' => kept line land ps m s' /\ length (n_mask s') = N /\ paths_done ps (outer_of c) (again_of c) n s'
      | Throw e => e = StdErr \/ e = AlgorithmErr
      | UB => exists a b, In (a, b) ps /\ ~ off_land line land a b m
      end).
    { induction n as [|n IH]; intros Hn; [split; [apply kept_start|]; split; [apply repeat_length|constructor]|]. rewrite seq_S, fold_out_app. specialize (IH ltac:(lia)). destruct (fold_out _ (seq 0 n) _) as [s|e|]; cbn [bind fold_out]; [|exact IH|exact IH].
      destruct IH as (K & Lm & P). pose proof (trace_ok ps (outer_of c) (again_of c) n s Hps' ltac:(lia) K Lm P) as R. cbn [Nat.add]. destruct (trace _ _ _ _ _ _ _ _ _ _ _ s n) as [s'|e|]; exact R. }
    specialize (T (length ps) (Nat.le_refl _)). destruct (fold_out _ (seq 0 (length ps)) _) as [s1|e|]; cbn [bind]; [|exact T|exact T]. destruct T as (K & Lm & P). pose proof K as [K1 K2 K3 K4 K5 K6].
    assert (Pv : forall n i, nth n (n_piece s1) None = Some i -> i < length ps).
    { intros n i Hi. destruct (Nat.lt_ge_cases n N) as [Q|Q]; [apply (K6 n i Q Hi)|]. rewrite nth_overflow in Hi by lia. discriminate. }
    destruct (outer_of c).
    - pose proof (edges_ok dist2 line m f St s1) as R. rewrite K1, K2 in R. specialize (R ltac:(destruct land; [contradiction|cbn; lia]) Hps' K3 Lm Pv).
      destruct (fold_out (assign_edge dist2 line m f) (seq 0 E) s1) as [s|e|]; cbn [bind either] in *; [|now right|contradiction]. exists s1. auto 10.
    - cbn [bind]. exists s1. auto 10.
  Qed.
End Whole.

Section Snap.
  Variable order : list point -> list edge -> nat -> list (option nat) -> list (option nat).
  Hypothesis order_perm : forall nodes edges n row, Permutation row (order nodes edges n row).
  Variable line : point -> point -> point -> double * point * double.
  Notation list_ok := (recC_all (restore_leaf order) (commit_leaf order) mesh_le).
  Notation reversible_tree := (reversible (restore_act (restore_leaf order)) (commit_act (commit_leaf order)) mesh_le).
  Theorem snap_ok types m s : consistent m -> length types = length (m_nodes m) -> length (n_piece s) = length (m_nodes m) -> m_nodes m <> [] ->
    (forall n i, nth n (n_piece s) None = Some i -> exists a b, nth_error (n_pieces s) i = Some (a, b) /\ a < b < length (n_land s)) ->
    exists a m', snap line order types m (Some s) = Ok (Some (a, m')) /\ reversible_tree a m m' /\ consistent m' /\ m_edges m' = m_edges m /\ m_projection m' = m_projection m /\ length (m_nodes m') = length (m_nodes m) /\
      forall n, n < length (m_nodes m) -> let p := nth n (m_nodes m) missing_point in let q := nth n (m_nodes m') missing_point in
        (forall k a b, movable types n -> nth n (n_piece s) None = Some k -> nth_error (n_pieces s) k = Some (a, b) -> landing line (n_land s) a b p q) /\
        (~ movable types n \/ nth n (n_piece s) None = None -> q = p).
  Proof.
    intros Hc Lt Lp Hne Hv. unfold snap. set (N := length (m_nodes m)) in *.
    destruct (fold_range (fun j (st : mesh * list _) => list_ok (snd st) m (fst st) /\ consistent (fst st) /\ m_edges (fst st) = m_edges m /\ m_projection (fst st) = m_projection m /\ length (m_nodes (fst st)) = N /\
      (forall n, j <= n -> nth n (m_nodes (fst st)) missing_point = nth n (m_nodes m) missing_point) /\
      forall n, n < j -> let p := nth n (m_nodes m) missing_point in let q := nth n (m_nodes (fst st)) missing_point in
        (forall k a b, movable types n -> nth n (n_piece s) None = Some k -> nth_error (n_pieces s) k = Some (a, b) -> landing line (n_land s) a b p q) /\
        (~ movable types n \/ nth n (n_piece s) None = None -> q = p)) (snap_node line order types s) N (m, [])) as ((m' & acts) & Ef & P1 & P2 & P3 & P4 & P5 & _ & P6).
    - cbn [fst snd]. split; [constructor; apply mesh_le_refl|]. split; [exact Hc|]. do 4 (split; [reflexivity|]). intros n Hn. exfalso. lia.
    - intros n (m1, acts) Hn (P1 & P2 & P3 & P4 & P5 & P6 & P7). cbn [fst snd] in *. unfold snap_node.
      destruct (nth_error types n) as [t|] eqn:Et; [|apply nth_error_None in Et; lia]. rewrite (proj2 (vget_ok _ _ _) Et). cbn [bind].
      assert (Skip : (~ movable types n \/ nth n (n_piece s) None = None) -> forall n', n' < S n -> let p := nth n' (m_nodes m) missing_point in let q := nth n' (m_nodes m1) missing_point in
        (forall k a b, movable types n' -> nth n' (n_piece s) None = Some k -> nth_error (n_pieces s) k = Some (a, b) -> landing line (n_land s) a b p q) /\
        (~ movable types n' \/ nth n' (n_piece s) None = None -> q = p)).
      { intros Hs n' Hn'. destruct (Nat.eq_dec n' n) as [->|]; [|apply P7; lia]. split; [|intros _; apply P6; lia]. intros k a b Mv Hk. destruct Hs as [Hs|Hs]; [contradiction|congruence]. }
      destruct (((t =? 1) || (t =? 2) || (t =? 3))%Z) eqn:Em.
      2: { eexists. split; [reflexivity|]. cbn [fst snd]. repeat (split; [assumption|]). split; [intros; apply P6; lia|]. apply Skip. left. unfold movable. rewrite Et. intros Mv. apply orb_false_iff in Em as (Em & E3). apply orb_false_iff in Em as (E1 & E2).
           apply Z.eqb_neq in E1, E2, E3. destruct Mv as [Mv|[Mv|Mv]]; injection Mv; auto. }
      assert (Mv : movable types n). { unfold movable. rewrite Et. apply orb_true_iff in Em as [Em|E3]; [apply orb_true_iff in Em as [E1|E2]|]; [apply Z.eqb_eq in E1|apply Z.eqb_eq in E2|apply Z.eqb_eq in E3]; subst; auto. }
      assert (Gp : nth_error (n_piece s) n = Some (nth n (n_piece s) None)) by (apply nth_error_nth'; lia). rewrite (proj2 (vget_ok _ _ _) Gp). cbn [bind]. destruct (nth n (n_piece s) None) as [k|] eqn:Ek.
      2: { eexists. split; [reflexivity|]. cbn [fst snd]. repeat (split; [assumption|]). split; [intros; apply P6; lia|]. apply Skip. now right. }
      destruct (Hv n k Ek) as (a & b & Eab & Hab). rewrite (proj2 (vget_ok _ _ _) Eab). cbn [bind]. assert (Hn1 : n < length (m_nodes m1)) by lia. unfold node_at. cbn [fst snd]. rewrite (nth_error_nth' (m_nodes m1) missing_point Hn1). cbn [bind].
      rewrite P6 by lia. destruct (nearest_ok line (n_land s) (Some (a, b)) (nth n (m_nodes m) missing_point)) as ([[[d q] i] r] & -> & B); [cbn; lia|]. cbn [bind fst snd].
      destruct (reset_node_ok order m1 n q P2 Hn1) as (-> & T & C). cbn [bind compound_add act_state leaf]. eexists. split; [reflexivity|]. cbn [fst snd set_nodes m_nodes m_edges m_projection].
      split; [eapply list_snoc; eauto|]. split; [exact C|]. split; [exact P3|]. split; [exact P4|]. split; [rewrite set_nth_length; exact P5|].
      assert (Nn : forall x, nth x (set_nth n q (m_nodes m1)) missing_point = if x =? n then q else nth x (m_nodes m1) missing_point) by (intros x; now apply nth_set).
      split; [intros x Hx; rewrite Nn; destruct (Nat.eqb_spec x n); [lia|apply P6; lia]|].
      intros x Hx. rewrite Nn. destruct (Nat.eqb_spec x n) as [->|]; [|apply P7; lia]. split.
      + intros k' a' b' _ Hk' Hab'. assert (k' = k) by congruence. subst k'. rewrite Eab in Hab'. injection Hab' as <- <-. destruct i as [i|]; cbn [best_of ends_of fst snd] in B; [left; eauto|right]. split; apply B.
      + intros [Q|Q]; [contradiction|congruence].
    - destruct (n_piece s) as [|v l] eqn:Ep; [exfalso; apply Hne; apply length_zero_iff_nil; cbn in Lp; fold N; lia|]. rewrite Ef. cbn [bind]. eexists _, m'. split; [reflexivity|]. cbn [fst snd] in *.
      split; [apply tree_reversible, recC_comp; exact P1|]. repeat (split; [assumption|]). exact P6.
  Qed.
End Snap.

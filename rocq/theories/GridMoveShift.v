(** Shifting a line. *)
From Verif Require Import Base BaseLemmas FloatModel UtilModel UndoModel ActionModel GridModel GridSpec GridProofs GridClean GridTypes GridEdits GridMain GridMoveModel GridMoveSpec GridMoveProofs GridMoveSmooth GridMoveAttract.

Lemma frac_nat a b : frac (Z.of_nat a) (Z.of_nat b) = fdiv (nat_double a) (nat_double b).
Proof. reflexivity. Qed.
Lemma stays_unmoved d : stays d = unmoved d.
Proof. reflexivity. Qed.

Lemma line_node_coord l j : line_node l j = at_coord l j.
Proof. unfold line_node, at_coord, l_fixed, along_n. destruct (_ =? _); reflexivity. Qed.
Lemma first_coord l : l_first l = coord_along l (l_start l).
Proof. unfold l_first, coord_along, along_n. destruct (_ =? _); reflexivity. Qed.
Lemma last_coord l : l_last l = coord_along l (l_end l).
Proof. unfold l_last, coord_along, along_n. destruct (_ =? _); reflexivity. Qed.
Lemma along_at l j : coord_along l (at_coord l j) = j.
Proof. unfold coord_along, at_coord. destruct (_ =? _); reflexivity. Qed.

Lemma proper_coords l : proper l -> coord_along l (l_start l) < coord_along l (l_end l) /\ coord_across l (l_start l) = coord_across l (l_end l).
Proof.
  destruct l as [[s1 s2] [e1 e2]]. unfold proper, straight, coord_along, coord_across. cbn [l_start l_end fst snd].
  intros (S & A & B & N). destruct (Nat.eqb_spec s2 e2) as [->|Ne]; cbn beta iota.
  - split; [|auto]. assert (s1 <> e1) by congruence. lia.
  - split; lia.
Qed.
Lemma at_shown g l j : proper l -> shown2 g (l_start l) -> shown2 g (l_end l) -> j <= coord_along l (l_end l) -> shown2 g (at_coord l j).
Proof.
  destruct l as [[s1 s2] [e1 e2]]. unfold proper, straight, coord_along, at_coord. cbn [l_start l_end fst snd].
  intros (S & A & B & N) [A1 A2] [B1 B2]. cbn in *. destruct (Nat.eqb_spec s2 e2) as [->|Ne]; cbn beta iota; intros; split; cbn; lia.
Qed.
Lemma at_covers l c : proper l -> covers l c -> c = at_coord l (coord_along l c).
Proof.
  destruct l as [[s1 s2] [e1 e2]], c as [n m]. unfold proper, straight, coord_along, covers, at_coord. cbn [l_start l_end fst snd].
  intros (S & A & B & N) C. destruct (Nat.eqb_spec s2 e2) as [->|Ne]; cbn beta iota; f_equal; lia.
Qed.
Lemma covers_at l j : proper l -> coord_along l (l_start l) <= j <= coord_along l (l_end l) -> covers l (at_coord l j).
Proof.
  destruct l as [[s1 s2] [e1 e2]]. unfold proper, straight, coord_along, covers, at_coord. cbn [l_start l_end fst snd].
  intros (S & A & B & N). destruct (Nat.eqb_spec s2 e2) as [->|Ne]; cbn beta iota; cbn [fst snd]; lia.
Qed.
Lemma start_at l : proper l -> l_start l = at_coord l (coord_along l (l_start l)).
Proof. intros P. apply at_covers; auto. destruct P as (_ & A & B & _). unfold covers. lia. Qed.

(** *** Moving nodes by hand *)
Lemma moved_snoc ms c mv : moved_to (ms ++ [mv]) c = if index_same (fst mv) c then Some (snd mv) else moved_to ms c.
Proof. unfold moved_to. rewrite fold_left_app. reflexivity. Qed.

Definition move_leaf g (c : gindex) (p : point) : gact := Leaf Committed (ResetNode (fst c) (snd c) (vis2 g c) p false).

(** The grid after the moves; undoing them in reverse order brings every node back. *)
Lemma put_view g y c p : same_view g y -> shown2 g c -> same_view (put2 g c p) (put2 y c p).
Proof.
  intros (A & B & C) Hc. destruct (rd_num g (put2 g c p)) as [N1 M1]; [apply rd_put; auto|].
  assert (Hy : shown2 y c) by (destruct Hc; split; congruence). destruct (rd_num y (put2 y c p)) as [N2 M2]; [apply rd_put; auto|].
  split; [congruence|]. split; [congruence|]. intros n m Hn Hm. destruct (gindex_dec (n, m) c) as [<-|Nc].
  - change (vis2 (put2 g (n, m) p) (n, m) = vis2 (put2 y (n, m) p) (n, m)). rewrite !vis2_same. reflexivity.
  - change (vis2 (put2 g c p) (n, m) = vis2 (put2 y c p) (n, m)). rewrite !vis2_other by auto. unfold vis2. cbn. apply C; congruence.
Qed.

Lemma moves_ok l rest g : gwf g -> proper l -> forall ms, (forall mv, In mv ms -> shown2 g (fst mv) /\ covers l (fst mv)) ->
  exists g1 acts, fold_out (fun s mv => let! (g, a) := shift_move (l :: rest) (fst s) (fst mv) (snd mv) in Ok (g, snd s ++ [a])) ms (g, []) = Ok (g1, acts) /\
    redrawn g g1 /\ (forall c, vis2 g1 c = now ms g c) /\
    (forall y, gwf y -> same_view g1 y -> exists z, undo_all (rev acts) y = Ok z /\ same_view g z).
Proof.
  intros W P ms. induction ms as [|mv ms IH] using rev_ind; intros H.
  - exists g, []. split; [reflexivity|]. split; [apply rd_refl|]. split; [reflexivity|]. intros y R V. exists y. auto.
  - destruct IH as (g1 & acts & E & R & V & U); [intros; apply H, in_app_iff; auto|].
    destruct (H mv) as [Hs Hc]; [apply in_app_iff; right; left; reflexivity|]. destruct mv as [c p]. cbn [fst snd] in *.
    assert (W1 : gwf g1) by (eapply rd_gwf; eauto). assert (Hs1 : shown2 g1 c) by (apply (rd_shown g g1); auto).
    exists (put2 g1 c p), (acts ++ [move_leaf g1 c p]). split.
    + rewrite fold_out_app, E. cbn [bind fold_out fst snd]. unfold shift_move. apply (covers_on l c P) in Hc. rewrite Hc. cbn [negb].
      unfold move_node. rewrite (get2 g1) by auto. cbn [bind]. rewrite (set2 g1) by auto. reflexivity.
    + split; [eapply rd_trans; [exact R|apply rd_put; auto]|]. split.
      * intros d. unfold now. rewrite moved_snoc. cbn [fst snd]. destruct (index_same c d) eqn:I.
        -- apply same_true in I as ->. apply vis2_same.
        -- apply same_false in I. rewrite vis2_other by congruence. apply V.
      * intros y Wy Vy. rewrite rev_app_distr. cbn [rev app undo_all]. unfold move_leaf, undo_grid. cbn [restore_act grid_restore].
        assert (Hy : shown2 y c) by (destruct Vy as (A & B & _), (rd_num g1 (put2 g1 c p)) as [N M]; [apply rd_put; auto|]; destruct Hs1; split; congruence).
        rewrite (set2 y) by auto. cbn [bind]. apply U; [eapply rd_gwf; [apply rd_put; exact Hy|exact Wy]|].
        pose proof (put_view _ _ c (vis2 g1 c) Vy) as (A & B & C); [apply (rd_shown g1); auto; apply rd_put; auto|].
        assert (R2 : redrawn g1 (put2 (put2 g1 c p) c (vis2 g1 c))) by (eapply rd_trans; apply rd_put; auto; apply (rd_shown g1); auto; apply rd_put; auto).
        destruct (rd_num _ _ R2) as [N2 M2]. split; [congruence|]. split; [congruence|]. intros n m Hn Hm. rewrite <- C by congruence.
        change (vis2 g1 (n, m) = vis2 (put2 (put2 g1 c p) c (vis2 g1 c)) (n, m)).
        destruct (gindex_dec (n, m) c) as [<-|Nd]; [rewrite vis2_same; reflexivity|]. rewrite !vis2_other by auto. reflexivity.
Qed.

Section Shift.
  Variable fade : nat -> nat -> double.
  Variable distance : projection -> point -> point -> double.
  Variables (g o : grid) (l : gline) (ll ur : gindex).
  Hypothesis W : gwf g.
  Hypothesis So : snapshot g o.
  Hypothesis P : proper l.
  Hypothesis S1 : shown2 g (l_start l).
  Hypothesis S2 : shown2 g (l_end l).
  Hypothesis U : shown2 g ur.

  Let first := coord_along l (l_start l).
  Let last := coord_along l (l_end l).

  Lemma cross_in c d : In d (cross_nodes l ll ur c) <-> coord_along l d = coord_along l c /\ level l ll ur d.
  Proof.
    destruct c as [n m], d as [a b]. unfold cross_nodes, coord_along, level, coord_across, along_n. cbn [fst snd].
    destruct (_ =? _); rewrite in_map_iff; (split; [intros (i & E & Hi); apply in_range in Hi; injection E as <- <-; cbn [fst snd]; lia|]);
      intros [-> H]; [exists b|exists a]; (split; [reflexivity|]); apply in_range; cbn [fst snd] in *; lia.
  Qed.
  Lemma cross_nodup c : NoDup (cross_nodes l ll ur c).
  Proof. unfold cross_nodes. destruct (along_n l); apply FinFun.Injective_map_NoDup; auto using range_nodup; intros x y E; congruence. Qed.
  Lemma cross_shown c d : shown2 g c -> In d (cross_nodes l ll ur c) -> shown2 g d.
  Proof.
    intros [A B] H. apply cross_in in H. destruct c as [n m], d as [a b], U as [U1 U2]. unfold coord_along, level, coord_across in H. cbn in *.
    destruct (_ =? _); split; cbn; lia.
  Qed.

  (** One node of the line placed and its cross line dragged. *)
  Definition settled (y z : grid) (j : nat) (p : point) : Prop :=
    forall c, coord_along l c = j ->
      (shown2 g c -> level l ll ur c -> is_valid (vis2 g c) = true -> dragged fade distance g l ll ur c p (vis2 z c)) /\
      (~ level l ll ur c \/ is_valid (vis2 g c) = false -> c = at_coord l j -> vis2 z c = p) /\
      (~ level l ll ur c \/ is_valid (vis2 g c) = false -> c <> at_coord l j -> vis2 z c = vis2 y c).

  Lemma drag_ok y j : redrawn g y -> j <= last ->
    exists z, drag fade distance l ll ur o y (at_coord l j) = Ok z /\ redrawn y z /\ (forall c, coord_along l c <> j -> vis2 z c = vis2 y c) /\
      forall c, coord_along l c = j ->
        (shown2 g c -> level l ll ur c -> is_valid (vis2 g c) = true -> dragged fade distance g l ll ur c (vis2 y (at_coord l j)) (vis2 z c)) /\
        (~ level l ll ur c \/ is_valid (vis2 g c) = false -> vis2 z c = vis2 y c).
  Proof.
    intros R Hj. assert (Hb : shown2 g (at_coord l j)) by (apply at_shown; auto). set (b := at_coord l j) in *.
    assert (Wy : gwf y) by (eapply rd_gwf; eauto). unfold drag.
    rewrite (get2 y) by (auto; apply (rd_shown g y); auto). cbn [bind]. rewrite (snap_get g o) by auto. cbn [bind].
    rewrite (transform_ok distance g o So) by auto. cbn [bind]. set (d := into_frame distance g b (psub (vis2 y b) (vis2 g b))).
    set (val c := if is_valid (vis2 g c) then Some (lift2 fadd (vis2 g c) (out_of_frame distance g c (pscale d (across fade l ll ur c)))) else None).
    destruct (fold_put (drag_node fade distance l ll ur o d) val (cross_nodes l ll ur b) y) as (z & E & Rz & A & B).
    - exact Wy.
    - apply cross_nodup.
    - intros c Hc. apply (rd_shown g y); auto. eapply cross_shown; eauto.
    - intros x c Hc Rx _. pose proof (cross_shown b c Hb Hc) as Sc. unfold drag_node. rewrite (snap_get g o) by auto. cbn [bind]. unfold val.
      destruct (is_valid (vis2 g c)); cbn [negb]; [|reflexivity]. rewrite (transform_ok distance g o So) by auto. cbn [bind].
      apply set2; [eapply rd_gwf; eauto|]. apply (rd_shown y x); auto. apply (rd_shown g y); auto.
    - exists z. split; [exact E|]. split; [exact Rz|]. split.
      + intros c Hc. apply B. rewrite cross_in. unfold b. rewrite along_at. tauto.
      + intros c Hc. split.
        * intros Sc Cb V. assert (Hi : In c (cross_nodes l ll ur b)) by (apply cross_in; unfold b; rewrite along_at; auto).
          rewrite (A c Hi). unfold val. rewrite V. exists (across fade l ll ur c). split; [apply across_ok|]. cbn zeta. rewrite Hc. reflexivity.
        * intros N. destruct (in_dec gindex_dec c (cross_nodes l ll ur b)) as [Hi|Hi]; [|apply B; auto].
          rewrite (A c Hi). unfold val. apply cross_in in Hi as [_ Hi]. destruct N as [N|N]; [tauto|]. rewrite N. reflexivity.
  Qed.

  Lemma place_ok y i0 i d0 d j : redrawn g y -> j <= last ->
    let p := lift2 fadd (lift2 fadd (vis2 g (at_coord l j)) (times (fsub (frac 1 1) (frac (Z.of_nat (j - i0)) (Z.of_nat (i - i0)))) d0))
                        (times (frac (Z.of_nat (j - i0)) (Z.of_nat (i - i0))) d) in
    exists z, place fade distance l ll ur o i0 i d0 d y j = Ok z /\ redrawn y z /\ (forall c, coord_along l c <> j -> vis2 z c = vis2 y c) /\ settled y z j p.
  Proof.
    intros R Hj p. unfold place. rewrite line_node_coord. assert (Hb : shown2 g (at_coord l j)) by (apply at_shown; auto).
    rewrite (snap_get g o) by auto. cbn [bind]. rewrite <- frac_nat.
    assert (Wy : gwf y) by (eapply rd_gwf; eauto). assert (Sy : shown2 y (at_coord l j)) by (apply (rd_shown g y); auto).
    rewrite (set2 y) by auto. cbn [bind]. change (padd (padd (vis2 g (at_coord l j)) _) _) with p.
    destruct (drag_ok (put2 y (at_coord l j) p) j) as (z & E & Rz & A & B); [eapply rd_trans; [exact R|apply rd_put; auto]|auto|].
    exists z. split; [exact E|]. split; [eapply rd_trans; [apply rd_put; exact Sy|exact Rz]|]. split.
    - intros c Hc. rewrite A by auto. apply vis2_other. intros ->. apply Hc, along_at.
    - rewrite vis2_same in B. intros c Hc. destruct (B c Hc) as [B1 B2]. split; [exact B1|]. split.
      + intros N ->. rewrite B2 by auto. apply vis2_same.
      + intros N Nc. rewrite B2 by auto. apply vis2_other. exact Nc.
  Qed.

  Variable moves : list (gindex * point).
  Variable g1 : grid.
  Hypothesis R1 : redrawn g g1.
  Hypothesis V1 : forall c, vis2 g1 c = now moves g c.
  Hypothesis On : forall c p, moved_to moves c = Some p -> covers l c.
  Hypothesis Still : forall j, j < first -> stays (vis2 g (at_coord l j) -. vis2 g (at_coord l j)) = true.

  Let D := delta moves g l.

  (** Node [j] of the line has got its place. *)
  Definition done (y : grid) (j : nat) : Prop := exists i0 i, segment moves g l i0 i j /\ settled g1 y j (interpolated moves g l i0 i j).
  Definition fresh (y : grid) (j : nat) : Prop := forall c, coord_along l c = j -> vis2 y c = vis2 g1 c.

  Lemma settled_other y z j p : settled g1 y j p -> (forall c, coord_along l c = j -> vis2 z c = vis2 y c) -> settled g1 z j p.
  Proof. intros H E c Hc. rewrite (E c Hc). apply H, Hc. Qed.
  Lemma settled_fresh x y j p : settled x y j p -> fresh x j -> settled g1 y j p.
  Proof. intros H F c Hc. destruct (H c Hc) as (A & B & C). split; auto. split; auto. intros N Nc. rewrite C by auto. apply F, Hc. Qed.
  Lemma done_other y z j : done y j -> (forall c, coord_along l c = j -> vis2 z c = vis2 y c) -> done z j.
  Proof. intros (i0 & i & A & B) E. exists i0, i. split; auto. eapply settled_other; eauto. Qed.

  Lemma place_run y i0 i k : redrawn g y -> k <= last -> i0 <= k + 1 ->
    (forall j, i0 <= j <= k -> segment moves g l i0 i j) -> (forall j, i0 <= j -> fresh y j) ->
    exists z, fold_out (place fade distance l ll ur o i0 i (D i0) (D i)) (range i0 (k + 1)) y = Ok z /\ redrawn g z /\
      (forall j, i0 <= j <= k -> done z j) /\ (forall j, j < i0 \/ k < j -> forall c, coord_along l c = j -> vis2 z c = vis2 y c).
  Proof.
    intros R Hk Hi Seg Fr.
    destruct (fold_pre (place fade distance l ll ur o i0 i (D i0) (D i))
      (fun ps z => redrawn g z /\ (forall j, In j ps -> done z j) /\ (forall j, ~ In j ps -> forall c, coord_along l c = j -> vis2 z c = vis2 y c))
      (range i0 (k + 1)) y) as (z & E & Rz & A & B).
    - intros l1 j l2 z El (Rz & A & B).
      assert (Hj : In j (range i0 (k + 1))) by (rewrite El; apply in_elt). apply in_range in Hj.
      assert (Nj : ~ In j l1) by (pose proof (range_nodup i0 (k + 1)) as ND; rewrite El in ND; apply NoDup_remove_2 in ND; rewrite in_app_iff in ND; tauto).
      destruct (place_ok z i0 i (D i0) (D i) j Rz) as (x & E & Rx & O & Se); [lia|]. exists x. split; [exact E|]. split; [eapply rd_trans; eauto|]. split.
      + intros j' Hj'. apply in_app_iff in Hj' as [Hj'|[<-|[]]].
        * apply (done_other z); [apply A; auto|]. intros c Hc. apply O. rewrite Hc. intros ->. contradiction.
        * exists i0, i. split; [apply Seg; lia|]. eapply settled_fresh; [exact Se|]. intros c Hc. rewrite (B j Nj c Hc). apply (Fr j); [lia|exact Hc].
      + intros j' Hj' c Hc. rewrite in_app_iff in Hj'. rewrite O by (rewrite Hc; intros ->; apply Hj'; right; left; reflexivity). apply (B j'); auto.
    - split; [exact R|]. split; [intros j []|auto].
    - exists z. split; [exact E|]. split; [exact Rz|]. split.
      + intros j Hj. apply A, in_range. lia.
      + intros j Hj. apply B. rewrite in_range. lia.
  Qed.

  Lemma delta_read y j : redrawn g y -> fresh y j -> j <= last ->
    (let nm := line_node l j in
     let! p := get_node y (fst nm) (snd nm) in let! q := get_node o (fst nm) (snd nm) in Ok (psub p q)) = Ok (D j).
  Proof.
    intros R F Hj. cbn zeta. rewrite line_node_coord. assert (Hb : shown2 g (at_coord l j)) by (apply at_shown; auto).
    rewrite (get2 y) by (eauto using rd_gwf; apply (rd_shown g y); auto). cbn [bind]. rewrite (snap_get g o) by auto. cbn [bind].
    rewrite (F (at_coord l j)) by apply along_at. rewrite V1. reflexivity.
  Qed.

  Lemma shift_step_eq y i0 d0 j : redrawn g y -> fresh y j -> j <= last ->
    shift_step fade distance l ll ur o (y, i0, d0) j =
    if stays (D j) && negb (j =? last) then Ok (y, i0, d0)
    else let! z := fold_out (place fade distance l ll ur o i0 j d0 (D j)) (range i0 ((if j =? last then j else j - 1) + 1)) y in Ok (z, j, D j).
  Proof.
    intros R F Hj. pose proof (delta_read y j R F Hj) as E. cbn zeta in E. unfold shift_step.
    destruct (get_node y _ _) as [p| |]; cbn [bind] in *; try discriminate. destruct (get_node o _ _) as [q| |]; cbn [bind] in *; try discriminate.
    assert (E' : psub p q = D j) by congruence. rewrite E', last_coord. reflexivity.
  Qed.

  (** After the rounds up to [k]. *)
  Definition reached (k : nat) (y : grid) (i0 : nat) (d0 : point) : Prop :=
    redrawn g y /\
    (k < first -> y = g1 /\ i0 = first /\ d0 = D first) /\
    (first <= k < last -> first <= i0 <= k /\ d0 = D i0 /\ (i0 = first \/ stays (D i0) = false) /\
       (forall j, i0 < j <= k -> stays (D j) = true) /\ (forall j, first <= j < i0 -> done y j) /\ (forall j, i0 <= j \/ j < first -> fresh y j)) /\
    (last <= k -> (forall j, first <= j <= last -> done y j) /\ (forall j, ~ first <= j <= last -> fresh y j)).

  Lemma D_before j : j < first -> stays (D j) = true.
  Proof.
    intros Hj. unfold D, delta, now. destruct (moved_to moves (at_coord l j)) as [p|] eqn:M; [|apply Still; auto]. exfalso.
    apply On in M. clear - M Hj P first. pose proof (proper_coords l P) as [A _]. destruct l as [[s1 s2] [e1 e2]].
    unfold covers, at_coord, first, coord_along in *. cbn [l_start l_end fst snd] in *. destruct (s2 =? e2); cbn in *; lia.
  Qed.

  Lemma rounds k : k <= last -> exists y i0 d0,
    fold_out (shift_step fade distance l ll ur o) (range 1 (k + 1)) (g1, first, D first) = Ok (y, i0, d0) /\ reached k y i0 d0.
  Proof.
    pose proof (proper_coords l P) as [FL _]. fold first last in FL.
    induction k as [|k IH]; intros Hk.
    - exists g1, first, (D first). split; [reflexivity|]. split; [exact R1|]. split; [auto|]. split; [|lia].
      intros Hf. assert (first = 0) by lia. split; [lia|]. split; [auto|]. split; [auto|]. split; [intros; lia|]. split; [intros; lia|]. intros j _ c _. reflexivity.
    - destruct IH as (y & i0 & d0 & E & R & B1 & B2 & B3); [lia|].
      assert (Er : range 1 (S k + 1) = range 1 (k + 1) ++ [S k]).
      { unfold range. replace (S k + 1 - 1) with (S k) by lia. replace (k + 1 - 1) with k by lia. rewrite seq_S. reflexivity. }
      rewrite Er, fold_out_app, E. cbn [bind]. 
      assert (F : fresh y (S k)).
      { destruct (lt_dec k first) as [L|L]; [destruct (B1 L) as (-> & _); intros c _; reflexivity|].
        destruct B2 as (A1 & _ & _ & _ & _ & B2); [lia|]. apply B2. left. lia. }
      cbn [fold_out]. rewrite (shift_step_eq y i0 d0 (S k) R F Hk).
      destruct (stays (D (S k)) && negb (S k =? last)) eqn:St; cbn [bind].
      + (* unmoved *)
        apply andb_true_iff in St as [St Nl]. apply negb_true_iff, Nat.eqb_neq in Nl.
        exists y, i0, d0. split; [reflexivity|]. split; [exact R|]. split; [intros; apply B1; lia|]. split; [|lia].
        intros Hf. destruct (lt_dec k first) as [L|L].
        * destruct (B1 L) as (-> & -> & ->). assert (S k = first) by lia.
          split; [lia|]. split; [auto|]. split; [auto|]. split; [intros; lia|]. split; [intros; lia|]. intros j _ c _. reflexivity.
        * destruct B2 as (A1 & A2 & A3 & A4 & A5 & A6); [lia|]. split; [lia|]. split; [auto|]. split; [auto|].
          split; [|auto]. intros j Hj. destruct (Nat.eq_dec j (S k)) as [->|]; [exact St|]. apply A4. lia.
      + assert (Mv : S k = last \/ stays (D (S k)) = false) by (apply andb_false_iff in St as [St|St]; [auto|left; apply negb_false_iff, Nat.eqb_eq in St; exact St]).
        destruct (lt_dec (S k) first) as [L|L].
        { exfalso. destruct Mv as [Mv|Mv]; [lia|]. rewrite D_before in Mv by auto. discriminate. }
        (* where the run starts *)
        assert (I0 : first <= i0 <= S k /\ d0 = D i0 /\ (i0 = first \/ stays (D i0) = false) /\ (forall j, i0 < j < S k -> stays (D j) = true) /\
                 (forall j, first <= j < i0 -> done y j) /\ (forall j, i0 <= j \/ j < first -> fresh y j) /\ (i0 = S k -> S k = first)).
        { destruct (lt_dec k first) as [L'|L'].
          - destruct (B1 L') as (-> & -> & ->). split; [lia|]. split; [auto|]. split; [auto|]. split; [intros; lia|]. split; [intros; lia|]. split; [intros j _ c _; reflexivity|auto].
          - destruct B2 as (A1 & A2 & A3 & A4 & A5 & A6); [lia|]. split; [lia|]. split; [auto|]. split; [auto|]. split; [intros; apply A4; lia|]. split; [auto|]. split; [auto|lia]. }
        destruct I0 as (I1 & -> & I3 & I4 & I5 & I6 & I7). set (stop := if S k =? last then S k else S k - 1).
        assert (Hs : (S k = last /\ stop = last) \/ (S k <> last /\ stop + 1 = S k)) by (unfold stop; destruct (Nat.eqb_spec (S k) last); lia).
        assert (Ii : i0 < S k \/ S k = first /\ i0 = S k) by lia.
        destruct (place_run y i0 (S k) stop R) as (z & Ez & Rz & Dz & Oz); [lia|lia| |intros; apply I6; auto|].
        { intros j Hj. unfold segment. fold first last. change (delta moves g l) with D. split; [lia|]. split; [lia|]. split; [auto|]. split; [destruct Mv; auto|].
          split; [intros; apply I4; lia|]. lia. }
        rewrite Ez. cbn [bind]. exists z, (S k), (D (S k)). split; [reflexivity|]. split; [exact Rz|]. split; [lia|]. split.
        * intros Hf. assert (stop + 1 = S k) by lia. split; [lia|]. split; [auto|]. split; [destruct Ii as [|[<- _]]; [right; destruct Mv; [lia|auto]|auto]|]. split; [intros; lia|]. split.
          -- intros j Hj. destruct (lt_dec j i0); [apply (done_other y); [apply I5; lia|apply Oz; lia]|apply Dz; lia].
          -- intros j Hj c Hc. rewrite (Oz j) by (auto; lia). apply (I6 j); auto; lia.
        * intros Hf. assert (stop = last) by lia. split.
          -- intros j Hj. destruct (lt_dec j i0); [apply (done_other y); [apply I5; lia|apply Oz; lia]|apply Dz; lia].
          -- intros j Hj c Hc. rewrite (Oz j) by (auto; lia). apply (I6 j); auto; lia.
  Qed.
End Shift.

Section Whole.
  Variable fade : nat -> nat -> double.
  Variable distance : projection -> point -> point -> double.

  Lemma shift_ok moves l rest ll ur g : gwf g -> no_hidden g -> proper l -> shown2 g (l_start l) -> shown2 g (l_end l) -> shown2 g ur ->
    (forall mv, In mv moves -> covers l (fst mv)) ->
    (forall j, j < coord_along l (l_start l) -> stays (vis2 g (at_coord l j) -. vis2 g (at_coord l j)) = true) ->
    exists h acts, shift fade distance moves (l :: rest) ll ur g = Ok (h, acts) /\
      only_within (fun c => along l c /\ (level l ll ur c \/ covers l c)) g h /\
      (forall j, coord_along l (l_start l) <= j <= coord_along l (l_end l) ->
         exists i0 i, segment moves g l i0 i j /\ let p := interpolated moves g l i0 i j in
           forall c, shown2 g c -> coord_along l c = j ->
             (level l ll ur c -> is_valid (vis2 g c) = true -> dragged fade distance g l ll ur c p (vis2 h c)) /\
             (~ level l ll ur c \/ is_valid (vis2 g c) = false -> covers l c -> vis2 h c = p) /\
             (~ level l ll ur c \/ is_valid (vis2 g c) = false -> ~ covers l c -> vis2 h c = vis2 g c)) /\
      (clean g -> level l ll ur (l_start l) -> (forall mv, In mv moves -> is_valid (vis2 g (fst mv)) = true /\ is_valid (snd mv) = true) ->
         exists z, undo_all (rev acts) h = Ok z /\ same_view g z).
  Proof.
    intros W NH P S1 S2 U On Still. pose proof (proper_coords l P) as [FL FA]. set (first := coord_along l (l_start l)) in *. set (last := coord_along l (l_end l)) in *.
    assert (Sh : forall c, covers l c -> shown2 g c).
    { intros c Hc. rewrite (at_covers l c P Hc). apply at_shown; auto. clear - P Hc. pose proof P as (S & A & B & N). unfold covers, coord_along in *. destruct (_ =? _); lia. }
    destruct (moves_ok l rest g W P moves) as (g1 & acts & E1 & R1 & V1 & Un); [intros mv Hm; split; [apply Sh|]; auto|].
    unfold shift. rewrite E1. cbn [bind]. unfold shift_lines.
    pose proof (influence_box l ll ur) as IB. pose proof (influence_shown g l ll ur S2 U) as [I1 I2].
    destruct (influence l ll ur) as [a b]. cbn [fst snd] in I1, I2.
    assert (W1 : gwf g1) by (eapply rd_gwf; eauto). destruct (rd_num g g1 R1) as [N1 M1].
    destruct (block_copy_ok g1 (fst a) (snd a) (fst b + 1) (snd b + 1)) as (block & -> & _ & _ & Hb); [auto|lia|lia|]. cbn [bind].
    pose proof (copy_snapshot g NH W) as So. set (o := copy_ctor g) in *.
    rewrite (get2 g1) by (auto; apply (rd_shown g g1); auto). cbn [bind]. rewrite (snap_get g o) by auto. cbn [bind].
    assert (Dl : psub (vis2 g1 (l_start l)) (vis2 g (l_start l)) = delta moves g l first).
    { unfold delta. pose proof (start_at l P) as Es. fold first in Es. rewrite <- Es, <- V1. reflexivity. }
    rewrite Dl, first_coord, last_coord. fold first last.
    assert (On' : forall c p, moved_to moves c = Some p -> covers l c).
    { clear - On. intros c p. unfold moved_to. induction moves as [|mv ms IH] using rev_ind; [discriminate|]. rewrite fold_left_app. cbn [fold_left].
      destruct (index_same (fst mv) c) eqn:Ec; [apply same_true in Ec as <-; intros _; apply On, in_app_iff; right; left; reflexivity|].
      apply IH. intros; apply On, in_app_iff; auto. }
    destruct (rounds fade distance g o l ll ur W So P S1 S2 U moves g1 R1 V1 On' Still last) as (h & i0 & d0 & Eh & R & _ & _ & K); [apply le_n|].
    fold first in Eh. rewrite Eh. cbn [bind fst]. destruct (K (le_n _)) as [Done Fresh]. fold first last in Done, Fresh.
    exists h, (acts ++ [Leaf Committed (BlockOf (fst a) (snd a) (fst b + 1) (snd b + 1) block)]). split; [reflexivity|].
    destruct (rd_num g h R) as [Hn Hm].
    assert (Off : forall c, ~ covers l c -> vis2 g1 c = vis2 g c).
    { intros c Hc. rewrite V1. unfold now. destruct (moved_to moves c) eqn:Em; [|reflexivity]. apply On' in Em. contradiction. }
    assert (Cat : forall c, first <= coord_along l c <= last -> (c = at_coord l (coord_along l c) <-> covers l c)).
    { intros c Hc. split; [|apply at_covers; auto]. intros Ec. rewrite Ec. apply covers_at; auto. }
    assert (Out : forall c, shown2 g c -> ~ (along l c /\ (level l ll ur c \/ covers l c)) -> vis2 h c = vis2 g1 c).
    { intros c Hc Nc. unfold along in Nc. fold first last in Nc.
      destruct (le_dec first (coord_along l c)) as [L1|L1]; [|apply (Fresh (coord_along l c)); [lia|auto]].
      destruct (le_dec (coord_along l c) last) as [L2|L2]; [|apply (Fresh (coord_along l c)); [lia|auto]].
      destruct (Done (coord_along l c) (conj L1 L2)) as (x & y & _ & Se). destruct (Se c eq_refl) as (_ & _ & Q). apply Q; [left; tauto|].
      rewrite Cat by lia. tauto. }
    assert (CA : forall c, covers l c -> along l c).
    { intros c Hc. unfold along. clear - P Hc. pose proof P as (S & A & B & N). unfold covers, coord_along in *. destruct (_ =? _); lia. }
    split.
    { split; [auto|]. split; [auto|]. intros c Hc Nc. rewrite (Out c Hc Nc). apply Off. intros Hcov. apply Nc. split; auto. }
    split.
    - intros j Hj. destruct (Done j Hj) as (x & y & Sg & Se). exists x, y. split; [exact Sg|]. cbn zeta. intros c Hc Ej.
      destruct (Se c Ej) as (Q1 & Q2 & Q3). specialize (Cat c). rewrite Ej in Cat. specialize (Cat Hj). split; [auto|]. split.
      + intros A B. apply Q2; tauto.
      + intros A B. rewrite Q3 by tauto. apply Off, B.
    - intros C Lv Vm. rewrite rev_app_distr. cbn [rev app undo_all].
      assert (SV : same_valid g g1).
      { split; [auto|]. split; [auto|]. intros c Hc. rewrite V1. unfold now. destruct (moved_to moves c) as [p|] eqn:Em; [|reflexivity].
        assert (In (c, p) moves).
        { clear - Em. unfold moved_to in Em. induction moves as [|mv ms IH] using rev_ind; [discriminate|]. rewrite fold_left_app in Em. cbn [fold_left] in Em.
          apply in_app_iff. destruct (index_same (fst mv) c) eqn:Ec in Em; [right; left; apply same_true in Ec; injection Em as <-; rewrite <- Ec; apply surjective_pairing|left; apply IH, Em]. }
        destruct (Vm _ H) as [A B]. cbn [fst snd] in *. congruence. }
      pose proof (valid_clean g g1 SV C) as C1. unfold undo_grid. cbn [restore_act grid_restore].
      destruct (swap_ok (fst a) (snd a) (fst b + 1) (snd b + 1) block h g1) as (b' & y & -> & Wy & V & _); [eapply rd_gwf; eauto|lia|lia|auto|congruence|congruence|intros i j [Hi Hj]; apply Hb; auto| |].
      + intros i j Hs Hi. change (vis2 h (i, j) = vis2 g1 (i, j)). apply Out; [destruct Hs; split; cbn; congruence|]. intros [A B]. apply Hi.
        assert (Bs : beside l ll ur (i, j)).
        { destruct B as [B|B]; [split; [exact A|exact B]|]. split; [exact A|]. unfold level in Lv.
          assert (coord_across l (i, j) = coord_across l (l_start l)) as ->; [|exact Lv].
          clear - P B. pose proof P as (S & A1 & A2 & N). unfold covers, coord_across, straight in *. cbn [fst snd] in *. destruct (Nat.eqb_spec (snd (l_start l)) (snd (l_end l))); lia. }
        apply (IB (i, j)) in Bs. unfold in_box in Bs. cbn [fst snd] in Bs. unfold in_block. lia.
      + cbn [bind]. apply Un; auto.
  Qed.

  Lemma shift_refused moves lines ll ur g mv : gwf g -> (lines = [] \/ exists l rest, lines = l :: rest /\ proper l /\ ~ covers l (fst mv)) ->
    shift fade distance (mv :: moves) lines ll ur g = Throw StdErr.
  Proof.
    intros W [->|(l & rest & -> & P & N)]; [reflexivity|]. unfold shift. cbn [fold_out fst snd]. unfold shift_move.
    destruct (on_line l (fst mv)) eqn:E; [apply (covers_on l (fst mv) P) in E; contradiction|]. reflexivity.
  Qed.
End Whole.

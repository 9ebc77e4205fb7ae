(** Snapping a grid to a boundary. *)
From Coq Require Import Sorted.
From Verif Require Import Base BaseLemmas FloatModel UtilModel UndoModel ActionModel GridModel GridSpec GridProofs GridClean GridTypes GridEdits GridMain GridMoveModel GridMoveSpec GridMoveProofs GridMoveSmooth GridMoveAttract.

Lemma sorted_app {A} (R : A -> A -> Prop) l1 l2 : StronglySorted R l1 -> StronglySorted R l2 -> (forall x y, In x l1 -> In y l2 -> R x y) -> StronglySorted R (l1 ++ l2).
Proof.
  intros H1 H2 H. induction H1 as [|a l1 S IH F]; [exact H2|]. cbn. constructor; [apply IH; intros; apply H; auto; right; auto|].
  apply Forall_app. split; [exact F|]. apply Forall_forall. intros y Hy. apply H; [left|]; auto.
Qed.
Lemma sorted_split {A} (R : A -> A -> Prop) l1 c l2 : StronglySorted R (l1 ++ c :: l2) -> (forall x, In x l1 -> R x c) /\ (forall y, In y l2 -> R c y).
Proof.
  induction l1 as [|a l1 IH]; cbn; intros S; apply StronglySorted_inv in S as [S F].
  - split; [intros x []|]. apply Forall_forall. exact F.
  - destruct (IH S) as [A1 A2]. split; [|exact A2]. intros x [<-|Hx]; [|auto]. eapply Forall_forall in F; [exact F|]. apply in_elt.
Qed.

Lemma range_cons a b : a < b -> range a b = a :: range (S a) b.
Proof. intros H. unfold range. replace (b - a) with (S (b - S a)) by lia. reflexivity. Qed.
Lemma range_nil a b : b <= a -> range a b = [].
Proof. intros H. unfold range. replace (b - a) with 0 by lia. reflexivity. Qed.
Lemma range_sorted a b : StronglySorted lt (range a b).
Proof.
  remember (b - a) as k eqn:E. revert a E. induction k as [|k IH]; intros a E; [rewrite range_nil by lia; constructor|].
  rewrite range_cons by lia. constructor; [apply IH; lia|]. apply Forall_forall. intros x Hx. apply in_range in Hx. lia.
Qed.

Lemma in_pairs_m a b c : In c (pairs_m a b) <-> in_box a b c.
Proof.
  unfold pairs_m, in_box. rewrite in_map_iff. destruct c as [n m]. cbn [fst snd]. split.
  - intros ([x y] & E & H). injection E as <- <-. apply in_prod_iff in H as [H1 H2]. apply in_range in H1, H2. cbn. lia.
  - intros H. exists (m, n). split; [reflexivity|]. apply in_prod_iff. rewrite !in_range. lia.
Qed.
Lemma pairs_sorted a b : StronglySorted earlier (pairs_m a b).
Proof.
  unfold pairs_m. pose proof (range_sorted (snd a) (snd b + 1)) as S. induction S as [|m l S IH F]; [constructor|].
  cbn [list_prod]. rewrite map_app. apply sorted_app; [|exact IH|].
  - pose proof (range_sorted (fst a) (fst b + 1)) as S'. clear - S'. induction S' as [|n l S IH F]; [constructor|]. cbn. constructor; [exact IH|].
    apply Forall_forall. intros x Hx. rewrite map_map, in_map_iff in Hx. destruct Hx as (k & <- & Hk). eapply Forall_forall in F; [|exact Hk]. unfold earlier. cbn. lia.
  - intros x y Hx Hy. apply in_map_iff in Hx as ([x1 x2] & <- & Hx). apply in_map_iff in Hx as (k & Ek & _). injection Ek as <- <-.
    apply in_map_iff in Hy as ([y1 y2] & <- & Hy). apply in_prod_iff in Hy as [Hy _]. eapply Forall_forall in F; [|exact Hy]. unfold earlier. cbn. lia.
Qed.
Lemma earlier_irrefl a : ~ earlier a a.
Proof. unfold earlier. lia. Qed.
Lemma earlier_asym a b : earlier a b -> ~ earlier b a.
Proof. unfold earlier. lia. Qed.
Lemma sorted_nodup l : StronglySorted earlier l -> NoDup l.
Proof.
  induction 1 as [|a l S IH F]; constructor; auto. intros H. eapply Forall_forall in F; [|exact H]. exact (earlier_irrefl a F).
Qed.

Section Snap.
  Variable nearest : point -> point.
  Variable expansion : point -> gindex -> gindex -> double.
  Variable close : point -> point -> bool.
  Variables (g o : grid).
  Hypothesis W : gwf g.
  Hypothesis So : snapshot g o.

  (** The nodes that follow one node. *)
  Lemma expand_run nm lo hi y : shown2 g nm -> shown2 g hi -> in_box lo hi nm -> redrawn g y -> (forall c, in_box lo hi c -> c <> nm -> vis2 y c = vis2 g c) ->
    is_valid (vis2 g nm) = true ->
    let q := vis2 y nm in
    exists z, fold_out (expand_node expansion o nm (psub q (vis2 g nm))) (pairs_m lo hi) y = Ok z /\ redrawn y z /\ (forall c, ~ in_box lo hi c -> vis2 z c = vis2 y c) /\
      forall c, in_box lo hi c ->
        if is_valid (vis2 g c) then
          exists r, (earlier nm c -> r = vis2 z nm) /\ (~ earlier nm c -> r = q) /\
            let f := expansion r nm c in
            if SFltb zero f then vis2 z c = vis2 g c +. times f (q -. vis2 g nm) else vis2 z c = vis2 y c
        else vis2 z c = vis2 g c.
  Proof.
    intros Hn Hh Bn R Fr Vn q. pose proof (pairs_sorted lo hi) as Srt.
    assert (Sh : forall c, in_box lo hi c -> shown2 g c).
    { intros c Bc. destruct Hh, Bc as [? ?]. split; lia. }
    destruct (fold_pre (expand_node expansion o nm (psub q (vis2 g nm)))
      (fun ps z => redrawn y z /\ (forall c, ~ In c ps -> vis2 z c = vis2 y c) /\
         forall c, In c ps -> if is_valid (vis2 g c) then
          exists r, (earlier nm c -> r = vis2 z nm) /\ (~ earlier nm c -> r = q) /\
            let f := expansion r nm c in
            if SFltb zero f then vis2 z c = vis2 g c +. times f (q -. vis2 g nm) else vis2 z c = vis2 y c
        else vis2 z c = vis2 g c) (pairs_m lo hi) y) as (z & E & Rz & O & A).
    - intros l1 c l2 z El (Rz & O & A). rewrite El in Srt. destruct (sorted_split earlier l1 c l2 Srt) as [B1 B2].
      assert (Bc : in_box lo hi c) by (apply in_pairs_m; rewrite El; apply in_elt).
      assert (Nc : ~ In c l1) by (intros H; exact (earlier_irrefl c (B1 c H))).
      assert (Rg : redrawn g z) by (eapply rd_trans; eauto). assert (Wz : gwf z) by (eapply rd_gwf; eauto).
      unfold expand_node. rewrite (snap_get g o) by auto. cbn [bind].
      destruct (is_valid (vis2 g c)) eqn:Vc; cbn [negb].
      2:{ exists z. split; [reflexivity|]. split; [exact Rz|]. split; [intros d Hd; apply O; intros H; apply Hd, in_app_iff; auto|].
          intros d Hd. apply in_app_iff in Hd as [Hd|[<-|[]]]; [apply A; auto|]. rewrite Vc. rewrite O by auto. apply Fr; [auto|]. intros ->. congruence. }
      rewrite (get2 z) by (auto; apply (rd_shown g z); auto). cbn [bind].
      (* where the snapped node is now *)
      assert (Now : (earlier nm c -> In nm l1) /\ (~ earlier nm c -> ~ In nm l1)).
      { split; [|intros H H'; exact (H (B1 nm H'))]. intros H. apply in_pairs_m in Bn. rewrite El in Bn. apply in_app_iff in Bn as [Bn|[<-|Bn]]; [auto| |].
        - exfalso. exact (earlier_irrefl _ H).
        - exfalso. exact (earlier_asym _ _ H (B2 _ Bn)). }
      set (f := expansion (vis2 z nm) nm c).
      assert (Step : forall x, redrawn z x -> (forall d, d <> c -> vis2 x d = vis2 z d) ->
        (if SFltb zero f then vis2 x c = vis2 g c +. times f (q -. vis2 g nm) else vis2 x c = vis2 z c) ->
        redrawn y x /\ (forall d, ~ In d (l1 ++ [c]) -> vis2 x d = vis2 y d) /\
        forall d, In d (l1 ++ [c]) -> if is_valid (vis2 g d) then
          exists r, (earlier nm d -> r = vis2 x nm) /\ (~ earlier nm d -> r = q) /\
            let f := expansion r nm d in
            if SFltb zero f then vis2 x d = vis2 g d +. times f (q -. vis2 g nm) else vis2 x d = vis2 y d
        else vis2 x d = vis2 g d).
      { intros x Rx Ox Vx. split; [eapply rd_trans; eauto|]. split.
        - intros d Hd. rewrite Ox by (intros ->; apply Hd, in_app_iff; right; left; reflexivity). apply O. intros H. apply Hd, in_app_iff. auto.
        - intros d Hd. apply in_app_iff in Hd as [Hd|[<-|[]]].
          + specialize (A d Hd). assert (d <> c) by (intros ->; contradiction). rewrite (Ox d) by auto. destruct (is_valid (vis2 g d)); [|exact A].
            destruct A as (r & A1 & A2 & A3). exists r. split; [|auto]. intros H'. rewrite A1 by auto. symmetry. apply Ox.
            (* an earlier node came before d, so it is not c *)
            intros ->. exact (earlier_asym _ _ H' (B1 d Hd)).
          + rewrite Vc. exists (vis2 z nm). split; [intros H; symmetry; apply Ox; intros ->; exact (earlier_irrefl c H)|]. split.
            * intros H. apply O. tauto.
            * cbn zeta. fold f. destruct (SFltb zero f); [exact Vx|]. rewrite Vx. apply O, Nc. }
      destruct (SFltb zero f) eqn:Ef.
      + rewrite (set2 z) by (auto; apply (rd_shown g z); auto). eexists. split; [reflexivity|]. apply Step.
        * apply rd_put. apply (rd_shown g z); auto.
        * intros d Hd. apply vis2_other. exact Hd.
        * apply vis2_same.
      + exists z. split; [reflexivity|]. apply Step; auto. apply rd_refl.
    - split; [apply rd_refl|]. split; [auto|]. intros c [].
    - exists z. split; [exact E|]. split; [exact Rz|]. split.
      + intros c Hc. apply O. rewrite in_pairs_m. exact Hc.
      + intros c Hc. apply A, in_pairs_m, Hc.
  Qed.

  Definition following (r : region) (s e a c : gindex) : Prop :=
    match r with
    | LineOnly => follows 80 (0, 0) (num_n g - 1, num_m g - 1) s e a c
    | Box lo hi => follows ten_thousand lo hi s e a c
    end.
  Definition fits (r : region) (s e : gindex) : Prop :=
    shown2 g e /\ fst s <= fst e /\ snd s <= snd e /\
    match r with LineOnly => True | Box lo hi => shown2 g hi /\ fst lo <= fst s /\ snd lo <= snd s /\ fst e <= fst hi /\ snd e <= snd hi end.

  Lemma bounds_box r s e a y : fits r s e -> in_box s e a -> num_n y = num_n g -> num_m y = num_m g ->
    let (lo, hi) := loop_bounds y r s e a in (forall c, in_box lo hi c <-> following r s e a c) /\ shown2 g hi /\ in_box lo hi a.
  Proof.
    intros (Se & L1 & L2 & B) Ba N M. destruct a as [n m], s as [s1 s2], e as [e1 e2]. unfold in_box, shown2, shown in *. cbn [fst snd] in *.
    assert (M1 : min 1 (e1 - s1) = 0 /\ (s1 =? e1) = true /\ s1 = e1 \/ min 1 (e1 - s1) = 1 /\ (s1 =? e1) = false) by (destruct (Nat.eqb_spec s1 e1); [left; repeat split; lia|right; split; [lia|reflexivity]]).
    assert (M2 : min 1 (e2 - s2) = 0 /\ (s2 =? e2) = true /\ s2 = e2 \/ min 1 (e2 - s2) = 1 /\ (s2 =? e2) = false) by (destruct (Nat.eqb_spec s2 e2); [left; repeat split; lia|right; split; [lia|reflexivity]]).
    unfold loop_bounds, indicator. cbn [fst snd]. unfold following, follows, near, reach_low, reach_high.
    destruct r as [|[l1 l2] [h1 h2]]; cbn [fst snd] in *; rewrite ?N, ?M;
      (destruct M1 as [(-> & -> & ?)|(-> & ->)]; destruct M2 as [(-> & -> & ?)|(-> & ->)]; rewrite ?Nat.mul_0_r, ?Nat.mul_1_r;
       (split; [intros [c1 c2]|]); cbn [fst snd]; generalize ten_thousand; lia).
  Qed.

  (** What one node of the line may change. *)
  Lemma snap_node_frame r s e a y : fits r s e -> in_box s e a -> redrawn g y ->
    exists z, snap_node nearest expansion close r s e o y a = Ok z /\ redrawn y z /\
      (forall c, ~ (following r s e a c /\ is_valid (vis2 g c) = true) -> vis2 z c = vis2 y c).
  Proof.
    intros F Ba R. assert (Wy : gwf y) by (eapply rd_gwf; eauto). destruct (rd_num g y R) as [N M].
    assert (Sa : shown2 g a) by (destruct F as (Se & _), Ba as [? ?]; destruct Se; split; lia).
    pose proof (bounds_box r s e a) as BB. unfold snap_node. rewrite (snap_get g o) by auto. cbn [bind].
    destruct (is_valid (vis2 g a)) eqn:Va; cbn [negb]; [|exists y; split; [reflexivity|]; split; [apply rd_refl|auto]].
    assert (Sy : shown2 y a) by (apply (rd_shown g y); auto). rewrite (set2 y) by auto. cbn [bind]. set (y1 := put2 y a (nearest (vis2 g a))).
    assert (Ry : redrawn y y1) by (apply rd_put; auto). assert (R1 : redrawn g y1) by (eapply rd_trans; eauto). destruct (rd_num g y1 R1) as [N1 M1].
    specialize (BB y1 F Ba N1 M1).
    assert (K : forall c, ~ (following r s e a c /\ is_valid (vis2 g c) = true) -> vis2 y1 c = vis2 y c).
    { intros c Hc. apply vis2_other. intros ->. apply Hc. split; [|exact Va]. destruct (loop_bounds y1 r s e a) as [lo hi]. destruct BB as (B1 & _ & B3). apply B1, B3. }
    destruct (close _ _); [exists y1; auto|]. unfold expand. destruct (loop_bounds y1 r s e a) as [lo hi]. destruct BB as (B1 & B2 & B3).
    rewrite (get2 y1) by (eauto using rd_gwf; apply (rd_shown g y1); auto). cbn [bind]. rewrite (snap_get g o) by auto. cbn [bind].
    destruct (fold_within (expand_node expansion o a (psub (vis2 y1 a) (vis2 g a))) (fun c => following r s e a c /\ is_valid (vis2 g c) = true) (pairs_m lo hi) y1)
      as (z & E & Rz & Oz).
    - intros x c Hc Rx. apply in_pairs_m in Hc. assert (Sc : shown2 g c) by (destruct B2, Hc as [? ?]; split; lia).
      assert (Rg : redrawn g x) by (eapply rd_trans; eauto). unfold expand_node. rewrite (snap_get g o) by auto. cbn [bind].
      destruct (is_valid (vis2 g c)) eqn:Vc; cbn [negb]; [|exists x; split; [reflexivity|]; split; [apply rd_refl|auto]].
      rewrite (get2 x) by (eauto using rd_gwf; apply (rd_shown g x); auto). cbn [bind].
      destruct (SFltb _ _); [|exists x; split; [reflexivity|]; split; [apply rd_refl|auto]].
      rewrite (set2 x) by (eauto using rd_gwf; apply (rd_shown g x); auto). eexists. split; [reflexivity|]. split; [apply rd_put; apply (rd_shown g x); auto|].
      intros d Hd. apply vis2_other. intros ->. apply Hd. split; [apply B1, Hc|exact Vc].
    - exists z. split; [exact E|]. split; [eapply rd_trans; eauto|]. intros c Hc. rewrite Oz by auto. auto.
  Qed.

  (** One node of the line, when nothing that follows it was touched. *)
  Lemma snap_node_exact r s e a y z : fits r s e -> in_box s e a -> redrawn g y -> (forall d, following r s e a d -> vis2 y d = vis2 g d) ->
    snap_node nearest expansion close r s e o y a = Ok z -> forall c, following r s e a c -> snapped nearest expansion close g z a c.
  Proof.
    intros F Ba R Fr E c Hc. assert (Wy : gwf y) by (eapply rd_gwf; eauto).
    assert (Sa : shown2 g a) by (destruct F as (Se & _), Ba as [? ?]; destruct Se; split; lia).
    pose proof (bounds_box r s e a) as BB. unfold snap_node in E. rewrite (snap_get g o) in E by auto. cbn [bind] in E. unfold snapped.
    destruct (is_valid (vis2 g a)) eqn:Va; cbn [negb] in E; [|injection E as <-; auto].
    assert (Sy : shown2 y a) by (apply (rd_shown g y); auto). rewrite (set2 y) in E by auto. cbn [bind] in E. set (q := nearest (vis2 g a)) in *. set (y1 := put2 y a q) in *.
    assert (Ry : redrawn y y1) by (apply rd_put; auto). assert (R1 : redrawn g y1) by (eapply rd_trans; eauto). destruct (rd_num g y1 R1) as [N1 M1].
    specialize (BB y1 F Ba N1 M1).
    assert (Q1 : vis2 y1 a = q) by apply vis2_same.
    assert (Q2 : forall d, following r s e a d -> d <> a -> vis2 y1 d = vis2 g d) by (intros d Hd Nd; unfold y1; rewrite vis2_other by auto; apply Fr, Hd).
    destruct (close _ _); [injection E as <-; split; [intros ->; exact Q1|intros; apply Q2; auto]|].
    unfold expand in E. destruct (loop_bounds y1 r s e a) as [lo hi]. destruct BB as (B1 & B2 & B3).
    rewrite (get2 y1) in E by (eauto using rd_gwf; apply (rd_shown g y1); auto). cbn [bind] in E. rewrite (snap_get g o) in E by auto. cbn [bind] in E.
    destruct (expand_run a lo hi y1) as (z' & E' & _ & _ & A); auto; [intros d Hd; apply Q2, B1, Hd|].
    rewrite E in E'. injection E' as <-. apply B1 in Hc. specialize (A c Hc). rewrite Q1 in A. rewrite frac_zero.
    destruct (is_valid (vis2 g c)); [|exact A]. destruct A as (x & A1 & A2 & A3). exists x. split; [auto|]. split; [auto|]. cbn zeta in *.
    destruct (SFltb _ _); [exact A3|]. rewrite A3. split; [intros ->; exact Q1|]. intros Nc. apply Q2; [apply B1, Hc|exact Nc].
  Qed.

  Lemma snap_run r s e : fits r s e ->
    exists h, fold_out (snap_node nearest expansion close r s e o) (pairs_m s e) g = Ok h /\ redrawn g h /\
      (forall c, ~ ((exists a, in_box s e a /\ following r s e a c) /\ is_valid (vis2 g c) = true) -> vis2 h c = vis2 g c) /\
      (fst s = fst e \/ snd s = snd e -> forall a c, in_box s e a -> following r s e a c -> snapped nearest expansion close g h a c).
  Proof.
    intros F.
    assert (Apart : fst s = fst e \/ snd s = snd e -> forall a b c, in_box s e a -> in_box s e b -> following r s e a c -> following r s e b c -> a = b).
    { intros St a b c [A1 A2] [B1 B2] Ha Hb. destruct a as [a1 a2], b as [b1 b2], c as [c1 c2], s as [s1 s2], e as [e1 e2]. cbn [fst snd] in *.
      unfold following, follows in *. cbn [fst snd] in *. destruct r as [|[? ?] [? ?]]; destruct (Nat.eqb_spec s1 e1), (Nat.eqb_spec s2 e2); f_equal; lia. }
    assert (Pair : forall a c h k, vis2 k a = vis2 h a -> vis2 k c = vis2 h c -> snapped nearest expansion close g h a c -> snapped nearest expansion close g k a c).
    { intros a c h k Ea Ec. unfold snapped. rewrite Ea, Ec. auto. }
    assert (Self : forall a, in_box s e a -> following r s e a a).
    { intros a Ha. pose proof (bounds_box r s e a g F Ha eq_refl eq_refl) as BB. destruct (loop_bounds g r s e a) as [lo hi]. destruct BB as (B1 & _ & B3). apply B1, B3. }
    destruct (fold_pre (snap_node nearest expansion close r s e o)
      (fun ps y => redrawn g y /\ (forall c, ~ ((exists a, In a ps /\ following r s e a c) /\ is_valid (vis2 g c) = true) -> vis2 y c = vis2 g c) /\
         (fst s = fst e \/ snd s = snd e -> forall a c, In a ps -> following r s e a c -> snapped nearest expansion close g y a c)) (pairs_m s e) g) as (h & E & R & O & A).
    - intros l1 a l2 y El (R & O & A). pose proof (pairs_sorted s e) as Srt. rewrite El in Srt. destruct (sorted_split earlier l1 a l2 Srt) as [B1 _].
      assert (Ba : in_box s e a) by (apply in_pairs_m; rewrite El; apply in_elt).
      assert (Bl : forall b, In b l1 -> in_box s e b) by (intros b Hb; apply in_pairs_m; rewrite El; apply in_app_iff; auto).
      destruct (snap_node_frame r s e a y F Ba R) as (z & E & Rz & Oz). exists z. split; [exact E|]. split; [eapply rd_trans; eauto|]. split.
      + intros c Hc. rewrite Oz; [apply O|].
        * intros [(b & Hb & Hf) V]. apply Hc. split; [exists b; split; [apply in_app_iff|]; auto|auto].
        * intros [Hf V]. apply Hc. split; [exists a; split; [apply in_app_iff; right; left; reflexivity|auto]|auto].
      + intros St b c Hb Hf. apply in_app_iff in Hb as [Hb|[<-|[]]].
        * assert (Nb : a <> b) by (intros <-; exact (earlier_irrefl a (B1 a Hb))).
          apply (Pair b c y z); [| |apply A; auto]; apply Oz; intros [H _]; apply Nb.
          -- apply (Apart St a b b); auto.
          -- apply (Apart St a b c); auto.
        * apply (snap_node_exact r s e a y z); auto. intros d Hd. apply O. intros [(b & Hb & Hf') _].
          assert (b = a) as -> by (apply (Apart St b a d); auto). exact (earlier_irrefl a (B1 a Hb)).
    - split; [apply rd_refl|]. split; [auto|]. intros _ a c [].
    - exists h. split; [exact E|]. split; [exact R|]. split.
      + intros c Hc. apply O. intros [(a & Ha & Hf) V]. apply Hc. split; [exists a; split; [apply in_pairs_m|]; auto|auto].
      + intros St a c Ha Hf. apply A; auto. apply in_pairs_m, Ha.
  Qed.
End Snap.

Section Whole.
  Variable nearest : point -> point.
  Variable expansion : point -> gindex -> gindex -> double.
  Variable close : point -> point -> bool.

  Lemma region_ok g a b rest : shown2 g a -> shown2 g b -> Forall (shown2 g) rest -> length rest <= 2 ->
    let s := lowest [a; b] in let e := highest [a; b] in
    exists r, snap_region g s e rest = Ok r /\ fits g r s e /\ (forall x c, following g r s e x c <-> snap_reach g (a :: b :: rest) x c).
  Proof.
    intros Sa Sb Sr Ln. cbn zeta. destruct a as [a1 a2], b as [b1 b2]. unfold shown2, shown in Sa, Sb. cbn [fst snd] in Sa, Sb. unfold lowest, highest. cbn [fold_left fst snd].
    destruct rest as [|[x1 x2] [|[y1 y2] [|]]]; [| | |cbn in Ln; lia].
    - exists LineOnly. split; [reflexivity|]. split; [unfold fits, shown2, shown; cbn [fst snd]; lia|]. intros x c. reflexivity.
    - apply Forall_inv in Sr as Sx. unfold shown2, shown in Sx. cbn [fst snd] in Sx.
      eexists. split; [reflexivity|]. unfold fits, shown2, shown. cbn [fst snd]. split; [lia|]. intros x c. unfold following, snap_reach, lowest, highest. cbn [firstn fold_left fst snd].
      change (100 * 100) with ten_thousand. generalize ten_thousand. intros k.
      replace (min (min (min a1 b1) (max a1 b1)) x1) with (min (min a1 b1) x1) by lia. replace (min (min (min a2 b2) (max a2 b2)) x2) with (min (min a2 b2) x2) by lia.
      replace (max (max (min a1 b1) (max a1 b1)) x1) with (max (max a1 b1) x1) by lia. replace (max (max (min a2 b2) (max a2 b2)) x2) with (max (max a2 b2) x2) by lia.
      reflexivity.
    - pose proof (Forall_inv Sr) as Sx. pose proof (Forall_inv (Forall_inv_tail Sr)) as Sy. unfold shown2 in Sx, Sy. cbn [fst snd] in Sx, Sy. unfold snap_region. cbn [fst snd].
      rewrite (block_inside g x1 x2 y1 y2) by auto. cbn [bind fst snd]. unfold shown in Sx, Sy. eexists. split; [reflexivity|]. unfold fits, shown2, shown. cbn [fst snd]. split; [lia|].
      intros x c. unfold following, snap_reach, lowest, highest. cbn [firstn fold_left fst snd].
      change (100 * 100) with ten_thousand. generalize ten_thousand. intros k.
      rewrite !Nat.min_assoc, !Nat.max_assoc. reflexivity.
  Qed.

  Lemma snap_ok points g : gwf g -> no_hidden g -> 2 <= length points <= 4 -> Forall (shown2 g) points ->
    exists h u, snap nearest expansion close points g = Ok (h, u) /\
      only_within (fun c => exists a, snap_line points a /\ snap_reach g points a c) g h /\
      (forall c, shown2 g c -> is_valid (vis2 g c) = false -> vis2 h c = vis2 g c) /\
      (let s := lowest (firstn 2 points) in let e := highest (firstn 2 points) in fst s = fst e \/ snd s = snd e ->
         forall a c, snap_line points a -> snap_reach g points a c -> snapped nearest expansion close g h a c) /\
      (clean g -> undone u g h) /\ (clean g -> clean h -> reversible u g h).
  Proof.
    intros W NH Ln Sp. destruct points as [|a [|b rest]]; [cbn in Ln; lia|cbn in Ln; lia|].
    inversion Sp as [|? ? Sa Sp']. inversion Sp' as [|? ? Sb Sr]. subst. unfold snap.
    assert (L : length rest <= 2) by (cbn [length] in Ln; lia). destruct (Nat.ltb _ _) eqn:Lt; [exfalso; apply Nat.ltb_lt in Lt; exact (Nat.lt_irrefl _ (Nat.lt_le_trans _ _ _ Lt L))|]. unfold shown2 in Sa, Sb. rewrite block_inside by auto. cbn [bind].
    destruct (region_ok g a b rest Sa Sb Sr L) as (r & Er & Fr & Fo). cbn zeta in *. unfold lowest, highest in Er. cbn [fold_left] in Er. rewrite Er. cbn [bind].
    destruct (block_copy_ok g 0 0 (num_n g) (num_m g)) as (block & -> & _ & _ & Hb); [auto|lia|lia|]. cbn [bind].
    pose proof (copy_snapshot g NH W) as So.
    destruct (snap_run nearest expansion close g (copy_ctor g) W So r _ _ Fr) as (h & Eh & R & O & A).
    unfold lowest, highest in Eh. cbn [fold_left] in Eh. rewrite Eh. cbn [bind]. eexists h, _. split; [reflexivity|]. destruct (rd_num g h R) as [N M].
    split; [split; [auto|]; split; [auto|]; intros c _ Hc; apply O; intros [(x & Hx & Hf) _]; apply Hc; exists x; split; [exact Hx|apply Fo; exact Hf]|].
    split; [intros c _ V; apply O; intros [_ V']; congruence|].
    split; [intros St x c Hx Hc; apply A; [exact St|exact Hx|apply Fo; exact Hc]|].
    assert (Wh : gwf h) by (eapply rd_gwf; eauto).
    assert (Hb' : forall i j, in_block 0 0 (num_n g) (num_m g) i j -> entry block (i - 0) (j - 0) = vis g i j) by (intros i j [Hi Hj]; apply Hb; auto).
    assert (Ho' : forall i j, shown g i j -> ~ in_block 0 0 (num_n g) (num_m g) i j -> vis h i j = vis g i j) by (intros i j [Hi Hj] Hn; exfalso; apply Hn; split; lia).
    split; [intros C; apply block_undo; auto; lia|]. intros C C'. apply block_reversible; auto; lia.
  Qed.

  Lemma snap_refused points g : length points < 2 \/ 4 < length points -> snap nearest expansion close points g = Throw ConstraintErr.
  Proof.
    intros H. unfold snap. destruct points as [|a [|b rest]]; auto. cbn [length] in H. destruct (Nat.ltb _ _) eqn:Lt; [reflexivity|]. exfalso. apply Nat.ltb_ge in Lt. assert (2 < length rest) by lia. exact (Nat.lt_irrefl _ (Nat.lt_le_trans _ _ _ H0 Lt)).
  Qed.
End Whole.

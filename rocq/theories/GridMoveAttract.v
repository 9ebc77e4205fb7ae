(** Attraction and repulsion; the frame of a grid line. *)
From Verif Require Import Base BaseLemmas FloatModel UtilModel UndoModel ActionModel GridModel GridSpec GridProofs GridClean GridTypes GridEdits GridMain GridMoveModel GridMoveSpec GridMoveProofs GridMoveSmooth.

Lemma covers_on l c : proper l -> on_line l c = true <-> covers l c.
Proof.
  destruct l as [[s1 s2] [e1 e2]], c as [n m]. unfold proper, straight, covers. rewrite on_line_true. unfold l_first, l_last, l_fixed, along_n. cbn [l_start l_end fst snd].
  intros (S & A & B & N). destruct (Nat.eqb_spec s2 e2); cbn beta iota; [subst; lia|]. assert (s1 = e1) by lia. subst. lia.
Qed.

Lemma copy_view g : no_hidden g -> same_view g (copy_ctor g).
Proof.
  intros (A & B & C & D). unfold same_view, num_n, num_m, vis, copy_ctor. cbn. rewrite A, B, C, D. auto.
Qed.
Lemma copy_wf g : no_hidden g -> gwf g -> gwf (copy_ctor g).
Proof. intros (A & B & C & D). unfold gwf, copy_ctor. cbn. rewrite A, B, C, D. auto. Qed.

(** What the copy made at the start shows. *)
Record snapshot (g o : grid) : Prop := Snapshot { sn_wf : gwf o; sn_view : same_view g o; sn_proj : proj o = Cartesian }.
Lemma copy_snapshot g : no_hidden g -> gwf g -> snapshot g (copy_ctor g).
Proof. intros N W. constructor; [apply copy_wf|apply copy_view|]; auto. Qed.

Lemma view2 g o c : same_view g o -> shown2 g c -> vis2 o c = vis2 g c.
Proof. intros (A & B & C) [H1 H2]. symmetry. apply C; auto. Qed.
Lemma shown_view g o c : same_view g o -> shown2 g c -> shown2 o c.
Proof. intros (A & B & C) [H1 H2]. split; congruence. Qed.
Lemma snap_get g o c : snapshot g o -> shown2 g c -> get_node o (fst c) (snd c) = Ok (vis2 g c).
Proof. intros [W V _] H. rewrite get2 by (auto; eapply shown_view; eauto). rewrite (view2 g o) by auto. reflexivity. Qed.

Section Frame.
  Variable distance : projection -> point -> point -> double.
  Variables g o : grid.
  Hypothesis So : snapshot g o.

  Lemma neighbour_true c d : neighbour g c d = true -> shown2 g d /\ is_valid (vis2 g d) = true /\ c <> d.
  Proof. unfold neighbour. rewrite !andb_true_iff, !Nat.ltb_lt, negb_true_iff, same_false. intros [[[A B] C] D]. split; [split|]; auto. Qed.

  (** The neighbour looked up, if its index is inside. *)
  Definition looked (c d : gindex) (q : option gindex) : Prop :=
    match q with Some e => e = d /\ shown2 g d /\ c <> d | None => ~ shown2 g d \/ c = d end.
  Lemma looked_case c d q : looked c d q -> neighbour g c d = match q with Some e => is_valid (vis2 g e) | None => false end.
  Proof.
    destruct q as [e|]; cbn.
    - intros (-> & [A B] & N). unfold neighbour. apply Nat.ltb_lt in A, B. rewrite A, B. cbn [andb]. apply same_false in N. rewrite N. cbn [negb]. apply andb_true_r.
    - intros H. destruct (neighbour g c d) eqn:E; [|reflexivity]. apply neighbour_true in E. tauto.
  Qed.

  Lemma after_looked (ln : bool) c : shown2 g c -> looked c (if ln then (fst c + 1, snd c) else (fst c, snd c + 1)) (after_node o ln c).
  Proof.
    destruct c as [n m]. intros [A B]. destruct So as [_ (Vn & Vm & _) _]. cbn [fst snd] in *. unfold after_node. rewrite <- Vn, <- Vm.
    destruct ln; [destruct (Nat.ltb_spec (n + 1) (num_n g))|destruct (Nat.ltb_spec (m + 1) (num_m g))]; cbn [looked].
    - split; [auto|]. split; [split; auto|]. intros E. injection E. lia.
    - left. intros [C D]. cbn in *. lia.
    - split; [auto|]. split; [split; auto|]. intros E. injection E. lia.
    - left. intros [C D]. cbn in *. lia.
  Qed.
  Lemma before_looked (ln : bool) c : shown2 g c -> looked c (if ln then (fst c - 1, snd c) else (fst c, snd c - 1)) (before_node ln c).
  Proof.
    destruct c as [n m]. intros [A B]. cbn [fst snd] in *. unfold before_node.
    destruct ln; [destruct (Nat.ltb_spec 0 n)|destruct (Nat.ltb_spec 0 m)]; cbn [looked].
    - split; [auto|]. split; [split; cbn; lia|]. intros E. injection E. lia.
    - right. f_equal; lia.
    - split; [auto|]. split; [split; cbn; lia|]. intros E. injection E. lia.
    - right. f_equal; lia.
  Qed.

  Lemma valid_or_ok c d q : looked c d q -> valid_or o (vis2 g c) q = Ok (if neighbour g c d then vis2 g d else vis2 g c).
  Proof.
    intros H. rewrite (looked_case c d q H). destruct q as [e|]; cbn [valid_or]; [|reflexivity]. destruct H as (-> & Hd & _).
    rewrite (snap_get g o) by auto. reflexivity.
  Qed.

  Lemma transform_ok d c : shown2 g c -> forall local, transform distance o d c local = Ok (if local then into_frame distance g c d else out_of_frame distance g c d).
  Proof.
    intros H local. unfold transform. rewrite (snap_get g o) by auto. cbn [bind].
    rewrite (valid_or_ok c _ _ (after_looked true c H)). cbn [bind]. rewrite (valid_or_ok c _ _ (before_looked true c H)). cbn [bind].
    rewrite (sn_proj _ _ So). unfold turned, into_frame, out_of_frame, axis_length, axis, east, west. rewrite frac_zero.
    destruct (SFltb zero _), local; reflexivity.
  Qed.

  Lemma edge_ok c d q : shown2 g c -> looked c d q ->
    edge_length distance o c q = Ok (if neighbour g c d then Some (distance Cartesian (vis2 g c) (vis2 g d)) else None).
  Proof.
    intros Hc H. rewrite (looked_case c d q H). destruct q as [e|]; cbn [edge_length]; [|reflexivity]. destruct H as (-> & Hd & _).
    unfold node_valid. rewrite (snap_get g o) by auto. cbn [bind]. destruct (is_valid (vis2 g d)); [|reflexivity].
    rewrite (snap_get g o) by auto. cbn [bind]. rewrite (sn_proj _ _ So). reflexivity.
  Qed.

  Lemma average_ok l c : shown2 g c -> exists len, average_distance distance o c (along_n l) = Ok len /\ mean_edge distance g l c len.
  Proof.
    intros H. unfold average_distance. destruct (sn_view _ _ So) as (Vn & Vm & _). pose proof H as [Hn Hm].
    destruct (Nat.ltb_spec (num_m o) (snd c)); [lia|]. destruct (Nat.ltb_spec (num_n o) (fst c)); [lia|]. cbn [orb].
    rewrite (edge_ok c (prev_along l c)) by (auto; unfold prev_along; apply (before_looked (along_n l)); auto). cbn [bind].
    rewrite (edge_ok c (next_along l c)) by (auto; unfold next_along; apply (after_looked (along_n l)); auto). cbn [bind].
    eexists. split; [reflexivity|].
    destruct (neighbour g c (prev_along l c)) eqn:E1, (neighbour g c (next_along l c)) eqn:E2.
    - apply mean_both; auto. - apply mean_prev; auto. - apply mean_next; auto. - apply mean_none; auto.
  Qed.
End Frame.

Section Attract.
  Variable fade : nat -> nat -> double.
  Variable distance : projection -> point -> point -> double.

  Lemma attract_node_ok factor l ll ur g o y c : gwf g -> snapshot g o -> shown2 g c -> redrawn g y -> vis2 y c = vis2 g c ->
    exists p, attracted fade distance factor g l ll ur c p /\
      attract_node fade distance factor l ll ur o y c = Ok (if negb (is_valid (vis2 g c)) || on_line l c then y else put2 y c p).
  Proof.
    intros W So H R Vy. destruct (average_ok distance g o So l c H) as (len & E & Em).
    eexists. split. { exists len, (across fade l ll ur c). split; [exact Em|]. split; [apply across_ok|]. cbn zeta. reflexivity. }
    unfold attract_node, node_valid. rewrite (snap_get g o) by auto. cbn [bind]. destruct (is_valid (vis2 g c)); cbn [negb orb]; [|reflexivity].
    destruct (on_line l c); [reflexivity|]. rewrite E. cbn [bind]. rewrite (transform_ok distance g o So) by auto. cbn [bind].
    rewrite (get2 y) by (eauto using rd_gwf; apply (rd_shown g y); auto). cbn [bind]. rewrite (set2 y) by (eauto using rd_gwf; apply (rd_shown g y); auto).
    rewrite Vy. reflexivity.
  Qed.

  Lemma influence_box l ll ur c : let (a, b) := influence l ll ur in in_box a b c <-> beside l ll ur c.
  Proof.
    unfold influence, beside, in_box, coord_along, coord_across, l_first, l_last, along_n. destruct (_ =? _); cbn [fst snd]; lia.
  Qed.
  Lemma influence_shown g l ll ur : shown2 g (l_end l) -> shown2 g ur -> shown2 g (snd (influence l ll ur)).
  Proof. intros [] []. unfold influence, l_last. destruct (along_n l); split; cbn [fst snd]; auto. Qed.

  Lemma attract_ok factor l rest ll ur g : gwf g -> no_hidden g -> proper l -> shown2 g (l_start l) -> shown2 g (l_end l) -> shown2 g ur -> ~ flat l ll ur ->
    exists h u, attract fade distance factor (l :: rest) ll ur g = Ok (h, u) /\ only_within (beside l ll ur) g h /\
      (forall c, shown2 g c -> beside l ll ur c ->
         (is_valid (vis2 g c) = false \/ covers l c -> vis2 h c = vis2 g c) /\
         (is_valid (vis2 g c) = true -> ~ covers l c -> attracted fade distance factor g l ll ur c (vis2 h c))) /\
      (clean g -> undone u g h) /\ (clean g -> clean h -> reversible u g h).
  Proof.
    intros W NH Pl S1 S2 U NF. unfold attract.
    assert (E0 : empty_nodes g = false).
    { unfold empty_nodes. destruct W as [W1 W2]. destruct (Nat.eqb_spec (mrows (gnodes g)) 0); [lia|]. destruct (Nat.eqb_spec (mcols (gnodes g)) 0); [lia|]. reflexivity. }
    rewrite E0.
    assert (E : flat_across l ll ur = false).
    { unfold flat, coord_across in NF. unfold flat_across, along_n. destruct (_ =? _); apply Nat.eqb_neq; exact NF. }
    rewrite E. pose proof (influence_box l ll ur) as IB. pose proof (influence_shown g l ll ur S2 U) as [I1 I2].
    destruct (influence l ll ur) as [a b]. cbn [fst snd] in I1, I2.
    destruct (block_copy_ok g (fst a) (snd a) (fst b + 1) (snd b + 1)) as (block & -> & _ & _ & Hb); [auto|lia|lia|]. cbn [bind].
    pose proof (copy_snapshot g NH W) as So. set (o := copy_ctor g) in *.
    set (L := pairs (fst a) (fst b + 1) (snd a) (snd b + 1)).
    assert (InL : forall c, In c L <-> beside l ll ur c) by (intros [n m]; rewrite <- IB; unfold L, in_box; rewrite in_pairs; cbn; lia).
    assert (Sg : forall c, In c L -> shown2 g c) by (intros c Hc; apply InL in Hc; apply (beside_shown g l ll ur c); auto).
    set (new c := out_of_frame distance g c).
    set (val c := if negb (is_valid (vis2 g c)) || on_line l c then None
                  else Some (vis2 (match attract_node fade distance factor l ll ur o g c with Ok z => z | _ => g end) c)).
    assert (Val : forall c, In c L -> match val c with Some p => attracted fade distance factor g l ll ur c p /\
        attract_node fade distance factor l ll ur o g c = Ok (put2 g c p) | None => True end).
    { intros c Hc. destruct (attract_node_ok factor l ll ur g o g c W So (Sg c Hc) (rd_refl g) eq_refl) as (p & Hp & Ep). unfold val.
      destruct (negb _ || _); [exact I|]. rewrite Ep, vis2_same. auto. }
    destruct (fold_put (attract_node fade distance factor l ll ur o) val L g) as (h & Eh & R & A & B); auto.
    - apply pairs_nodup.
    - intros y c Hc R Vy. specialize (Val c Hc).
      (* the step depends on the grid only through the node written *)
      unfold attract_node, node_valid in *. rewrite (snap_get g o) in * by auto. cbn [bind] in *. unfold val in *. unfold attract_node, node_valid in *.
      rewrite (snap_get g o) in * by auto. cbn [bind] in *.
      destruct (is_valid (vis2 g c)); cbn [negb orb] in *; [|reflexivity]. destruct (on_line l c); [reflexivity|].
      destruct (average_ok distance g o So l c (Sg c Hc)) as (len & El & _). rewrite El in *. cbn [bind] in *. rewrite (transform_ok distance g o So) in * by auto. cbn [bind] in *.
      rewrite (get2 y) by (eauto using rd_gwf; apply (rd_shown g y); auto). rewrite (get2 g) in * by auto. cbn [bind] in *.
      rewrite (set2 y) by (eauto using rd_gwf; apply (rd_shown g y); auto). rewrite (set2 g) in * by auto. rewrite vis2_same, Vy. reflexivity.
    - rewrite Eh. cbn [bind]. eexists h, _. split; [reflexivity|]. destruct (rd_num g h R) as [Hn Hm].
      assert (Ow : only_within (beside l ll ur) g h) by (split; [auto|]; split; [auto|]; intros c _ Hc; apply B; rewrite InL; exact Hc).
      split; [exact Ow|]. split.
      + intros c Hc Hb'. apply InL in Hb'. specialize (Val c Hb'). rewrite (A c Hb'). unfold val in *. split.
        * intros [V|V]; [rewrite V; reflexivity|]. apply (covers_on l c Pl) in V. rewrite V, orb_true_r. reflexivity.
        * intros V NC. rewrite V in *. cbn [negb orb] in *. destruct (on_line l c) eqn:OL; [apply (covers_on l c Pl) in OL; tauto|]. tauto.
      + assert (Hb' : forall i j, in_block (fst a) (snd a) (fst b + 1) (snd b + 1) i j -> entry block (i - fst a) (j - snd a) = vis g i j) by (intros i j []; apply Hb; auto).
        assert (Ho' : forall i j, shown g i j -> ~ in_block (fst a) (snd a) (fst b + 1) (snd b + 1) i j -> vis h i j = vis g i j).
        { intros i j Hs Hn'. apply (B (i, j)). rewrite InL, <- IB. unfold in_box, in_block in *. cbn. lia. }
        assert (Wh : gwf h) by (eapply rd_gwf; eauto).
        split; [intros C; apply block_undo; auto; lia|]. intros C C'. apply block_reversible; auto; lia.
  Qed.
  Lemma attract_refused factor ll ur g : (forall l rest, flat l ll ur -> attract fade distance factor (l :: rest) ll ur g = Throw StdErr) /\
    attract fade distance factor [] ll ur g = Throw StdErr.
  Proof.
    unfold attract. split; [|destruct (empty_nodes g); reflexivity]. intros l rest Fl. destruct (empty_nodes g); [reflexivity|].
    unfold flat, coord_across in Fl. unfold flat_across, along_n. destruct (_ =? _); apply Nat.eqb_eq in Fl; rewrite Fl; reflexivity.
  Qed.
End Attract.

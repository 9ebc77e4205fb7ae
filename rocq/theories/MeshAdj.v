(** Proofs about the node-edge adjacency tables built by NodeAdministration. *)
From Verif Require Import Base BaseLemmas FloatModel FloatProofs MeshModel MeshSpec MeshProofs.
From Coq Require Import Permutation.

(** Abstract rows: lists of edge numbers. *)
Definition pad (r : list nat) : list (option nat) := map Some r ++ repeat None (max_edges_per_node - length r).
Definition edge_of (edges : list edge) (e : nat) : edge := nth e edges missing_edge.
Definition row (rs : list (list nat)) (n : nat) : list nat := nth n rs [].

Definition add_row (edges : list edge) (e n o : nat) (rs : list (list nat)) : list (list nat) :=
  if existsb (fun e' => endsb (edge_of edges e') o) (row rs n) then rs else set_nth n (row rs n ++ [e]) rs.
Definition step_row (edges : list edge) (rs : list (list nat)) (e : nat) : list (list nat) :=
  match edge_of edges e with
  | (Some a, Some b) =>
      if max_edges_per_node <=? length (row rs a) then rs
      else if max_edges_per_node <=? length (row rs b) then rs
      else add_row edges e b a (add_row edges e a b rs)
  | _ => rs
  end.

Lemma pad_length r : length r <= max_edges_per_node -> length (pad r) = max_edges_per_node.
Proof. intros H. unfold pad. rewrite app_length, map_length, repeat_length. lia. Qed.

Lemma edge_of_nth edges e ed : nth_error edges e = Some ed -> edge_of edges e = ed.
Proof. intros H. unfold edge_of. apply nth_error_nth. exact H. Qed.

Lemma edge_of_get edges e : e < length edges -> vget edges e = Ok (edge_of edges e).
Proof.
  intros H. unfold edge_of. destruct (vget_lt edges e H) as (x & Hx). rewrite Hx. apply vget_ok in Hx.
  apply nth_error_nth with (d := missing_edge) in Hx. congruence.
Qed.

Lemma already_added_spec edges other r : forall rest,
  (forall e, In e r -> e < length edges) ->
  already_added edges (map Some r ++ rest) (length r) other = Ok (existsb (fun e' => endsb (edge_of edges e') other) r).
Proof.
  induction r as [|e r IH]; intros rest H; cbn [length map app already_added existsb]; [destruct rest; reflexivity|].
  cbn [vget_idx]. rewrite edge_of_get by (apply H; cbn; auto). cbn [bind].
  unfold endsb at 1. destruct (eq_idx _ _ || eq_idx _ _); auto. apply IH. intros; apply H; cbn; auto.
Qed.

Lemma set_nth_pad r e : length r < max_edges_per_node -> set_nth (length r) (Some e) (pad r) = pad (r ++ [e]).
Proof.
  intros H. unfold pad. rewrite map_app, app_length. cbn [map length].
  destruct (max_edges_per_node - length r) as [|k] eqn:E; [lia|].
  replace (max_edges_per_node - (length r + 1)) with k by lia.
  cbn [repeat]. rewrite <- app_assoc. cbn [app].
  rewrite <- (map_length Some r) at 1. generalize (map Some r). intros l.
  induction l as [|x l IH]; cbn; auto. now rewrite IH.
Qed.

Lemma map_set_nth {A B} (f : A -> B) (x : A) : forall l n, map f (set_nth n x l) = set_nth n (f x) (map f l).
Proof. induction l as [|y l IH]; intros [|n]; cbn; auto. now rewrite IH. Qed.

Lemma row_nth rs n : n < length rs -> nth_error rs n = Some (row rs n).
Proof. intros H. unfold row. apply nth_error_nth'. exact H. Qed.

Lemma row_set rs n r i : n < length rs -> row (set_nth n r rs) i = if n =? i then r else row rs i.
Proof.
  intros H. unfold row. destruct (Nat.eqb_spec n i) as [->|Hn].
  - apply nth_error_nth. rewrite nth_error_set_nth, Nat.eqb_refl. now apply Nat.ltb_lt in H as ->.
  - destruct (nth_error rs i) as [x|] eqn:E.
    + rewrite (nth_error_nth _ _ _ E). apply nth_error_nth. rewrite nth_error_set_nth.
      apply Nat.eqb_neq in Hn. rewrite Hn. exact E.
    + rewrite !nth_overflow; auto; [|rewrite set_nth_length]; apply nth_error_None; auto.
Qed.

Definition tabs (rs : list (list nat)) : list nat * list (list (option nat)) := (map (@length nat) rs, map pad rs).

Lemma add_to_row_spec edges e n o rs :
  n < length rs -> (forall e', In e' (row rs n) -> e' < length edges) -> length (row rs n) < max_edges_per_node \/
    existsb (fun e' => endsb (edge_of edges e') o) (row rs n) = true ->
  length (row rs n) <= max_edges_per_node ->
  add_to_row edges (tabs rs) e n o = Ok (tabs (add_row edges e n o rs)).
Proof.
  intros Hn Hr Hk Hle. unfold add_to_row, tabs.
  assert (H1 : vget (map (@length nat) rs) n = Ok (length (row rs n))).
  { apply vget_ok. rewrite nth_error_map, (row_nth rs n Hn). reflexivity. }
  assert (H2 : vget (map pad rs) n = Ok (pad (row rs n))).
  { apply vget_ok. rewrite nth_error_map, (row_nth rs n Hn). reflexivity. }
  rewrite H1, H2. cbn [bind]. unfold pad at 1. rewrite already_added_spec by auto. cbn [bind]. unfold add_row.
  destruct (existsb _ (row rs n)) eqn:Ex; auto.
  destruct Hk as [Hk|Hk]; [|discriminate].
  rewrite vset_lt by (rewrite pad_length; lia). cbn [bind]. rewrite set_nth_pad by auto.
  rewrite vset_lt by (rewrite map_length; auto). cbn [bind].
  rewrite vset_lt by (rewrite map_length; auto). cbn [bind].
  do 2 f_equal.
  - rewrite map_set_nth, app_length. cbn [length]. now rewrite Nat.add_1_r.
  - now rewrite map_set_nth.
Qed.

Record rows_ok (nodes : nat) (edges : list edge) (k : nat) (rs : list (list nat)) : Prop := {
  ro_len : length rs = nodes;
  ro_max : forall n, length (row rs n) <= max_edges_per_node;
  ro_sound : forall n e, In e (row rs n) -> e < k /\ exists o, joins (edge_of edges e) n o;
  ro_nodup : forall n, NoDup (row rs n);
  ro_one : forall n ei ej o, In ei (row rs n) -> In ej (row rs n) ->
    joins (edge_of edges ei) n o -> joins (edge_of edges ej) n o -> ei = ej;
  ro_sym : forall n e o, In e (row rs n) -> joins (edge_of edges e) n o -> In e (row rs o);
  ro_complete : forall e n o, e < k -> joins (edge_of edges e) n o ->
    In e (row rs n) \/ (exists e', In e' (row rs n) /\ ends_in (edge_of edges e') o) \/
    length (row rs n) = max_edges_per_node \/ length (row rs o) = max_edges_per_node }.

Lemma joins_ends e n o : joins e n o -> ends_in e n /\ ends_in e o.
Proof. intros [->| ->]; unfold ends_in; cbn; auto. Qed.
Lemma joins_sym e n o : joins e n o -> joins e o n.
Proof. intros [->| ->]; unfold joins; auto. Qed.

Lemma joins_two e n o p : joins e n o -> ends_in e p -> p = n \/ p = o.
Proof. intros [->| ->] [H|H]; cbn in H; inversion H; auto. Qed.

Lemma row_dup_spec edges o r :
  existsb (fun e' => endsb (edge_of edges e') o) r = true <-> exists e', In e' r /\ ends_in (edge_of edges e') o.
Proof.
  rewrite existsb_exists. split; intros (e & H1 & H2); exists e; split; auto; apply endsb_spec; auto.
Qed.

(** Rows extended with edge [k] at both ends. *)
Lemma rows_ok_skip N edges k rs :
  rows_ok N edges k rs ->
  (forall n o, joins (edge_of edges k) n o ->
    (exists e', In e' (row rs n) /\ ends_in (edge_of edges e') o) \/
    length (row rs n) = max_edges_per_node \/ length (row rs o) = max_edges_per_node) ->
  rows_ok N edges (S k) rs.
Proof.
  intros [H1 H2 H3 H4 H5 H6 H7] H. constructor; auto.
  - intros n e He. destruct (H3 n e He). split; auto.
  - intros e n o He Hj. destruct (Nat.eq_dec e k) as [->|Hne].
    + right. auto.
    + apply H7; auto; lia.
Qed.

Lemma rows_ok_add N edges k rs rs' a b :
  rows_ok N edges k rs -> joins (edge_of edges k) a b ->
  length rs' = N ->
  (forall n, row rs' n = row rs n ++ (if (n =? a) || (n =? b) then [k] else [])) ->
  length (row rs a) < max_edges_per_node -> length (row rs b) < max_edges_per_node ->
  (forall e', In e' (row rs a) -> ~ ends_in (edge_of edges e') b) ->
  (forall e', In e' (row rs b) -> ~ ends_in (edge_of edges e') a) ->
  rows_ok N edges (S k) rs'.
Proof.
  intros [H1 H2 H3 H4 H5 H6 H7] Hj HN Hrow Ha Hb Hda Hdb.
  assert (Hin : forall n e, In e (row rs' n) <-> In e (row rs n) \/ (e = k /\ (n = a \/ n = b))).
  { intros n e. rewrite Hrow, in_app_iff. 
    destruct (Nat.eqb_spec n a), (Nat.eqb_spec n b); cbn; intuition lia. }
  assert (Hk : forall n, ~ In k (row rs n)) by (intros n Hi; apply H3 in Hi; lia).
  assert (Hjab : forall n o, joins (edge_of edges k) n o -> (n = a /\ o = b) \/ (n = b /\ o = a)).
  { intros n o Hj2. destruct Hj as [E|E], Hj2 as [E2|E2]; rewrite E in E2; inversion E2; auto. }
  constructor; auto.
  - intros n. rewrite Hrow, app_length.
    destruct (Nat.eqb_spec n a), (Nat.eqb_spec n b); cbn [orb length]; subst; try lia. rewrite Nat.add_0_r. auto.
  - intros n e He. apply Hin in He. destruct He as [He|[-> He]].
    + destruct (H3 n e He). split; auto.
    + split; auto. destruct He as [->| ->]; eauto using joins_sym.
  - intros n. rewrite Hrow. destruct ((n =? a) || (n =? b)); [|rewrite app_nil_r; auto].
    apply Permutation_NoDup with (k :: row rs n); [apply Permutation_cons_append|]. constructor; auto.
  - intros n ei ej o Hi Hj' Hji Hjj. apply Hin in Hi. apply Hin in Hj'.
    destruct Hi as [Hi|[-> Hi]], Hj' as [Hj'|[-> Hj']]; eauto.
    + exfalso. apply Hjab in Hjj. destruct (joins_ends _ _ _ Hji). destruct Hjj as [[-> ->]|[-> ->]]; [eapply Hda|eapply Hdb]; eauto.
    + exfalso. apply Hjab in Hji. destruct (joins_ends _ _ _ Hjj). destruct Hji as [[-> ->]|[-> ->]]; [eapply Hda|eapply Hdb]; eauto.
  - intros n e o He Hjo. apply Hin. apply Hin in He. destruct He as [He|[-> He]]; eauto.
    right. split; auto. apply Hjab in Hjo. intuition.
  - intros e n o He Hjo. destruct (Nat.eq_dec e k) as [->|Hne].
    + left. apply Hin. right. split; auto. apply Hjab in Hjo. intuition.
    + assert (Hlt : e < k) by lia. destruct (H7 e n o Hlt Hjo) as [Hd|[(e' & He' & Hd)|[Hd|Hd]]].
      * left. apply Hin. auto.
      * right; left. exists e'. split; auto. apply Hin; auto.
      * right; right; left. rewrite Hrow. destruct (Nat.eqb_spec n a), (Nat.eqb_spec n b); cbn [orb]; subst; try lia.
        rewrite app_nil_r; auto.
      * right; right; right. rewrite Hrow. destruct (Nat.eqb_spec o a), (Nat.eqb_spec o b); cbn [orb]; subst; try lia.
        rewrite app_nil_r; auto.
Qed.

Lemma administrate_edge_spec N edges k rs :
  rows_ok N edges k rs -> k < length edges -> (forall n, ends_in (edge_of edges k) n -> n < N) ->
  administrate_edge edges (tabs rs) k = Ok (tabs (step_row edges rs k)) /\ rows_ok N edges (S k) (step_row edges rs k).
Proof.
  intros Hrs Hk HN. unfold administrate_edge. rewrite edge_of_get by auto. cbn [bind]. unfold step_row.
  destruct (edge_of edges k) as [[a|] [b|]] eqn:Ek;
    try (split; [reflexivity|apply rows_ok_skip; auto; intros n o [H|H]; rewrite Ek in H; discriminate H]).
  pose proof Hrs as Hrs0. destruct Hrs as [H1 H2 H3 H4 H5 H6 H7].
  assert (Ha : a < length rs) by (rewrite H1; apply HN; left; reflexivity).
  assert (Hb : b < length rs) by (rewrite H1; apply HN; right; reflexivity).
  assert (Hva : forall n, n < length rs -> vget (fst (tabs rs)) n = Ok (length (row rs n))).
  { intros n Hn. apply vget_ok. cbn. rewrite nth_error_map, (row_nth rs n Hn). reflexivity. }
  assert (Hj : joins (edge_of edges k) a b) by (rewrite Ek; left; reflexivity).
  assert (Hjab : forall n o, joins (edge_of edges k) n o -> (n = a /\ o = b) \/ (n = b /\ o = a)).
  { intros n o [E|E]; rewrite Ek in E; inversion E; auto. }
  assert (Hlt : forall n e, In e (row rs n) -> e < length edges) by (intros n e He; apply H3 in He; lia).
  rewrite Hva by auto. cbn [bind]. destruct (Nat.leb_spec max_edges_per_node (length (row rs a))) as [Hfa|Hfa].
  { split; auto. apply rows_ok_skip; auto. intros n o Hno. apply Hjab in Hno. pose proof (H2 a).
    destruct Hno as [[-> ->]|[-> ->]]; right; [left|right]; lia. }
  rewrite Hva by auto. cbn [bind]. destruct (Nat.leb_spec max_edges_per_node (length (row rs b))) as [Hfb|Hfb].
  { split; auto. apply rows_ok_skip; auto. intros n o Hno. apply Hjab in Hno. pose proof (H2 b).
    destruct Hno as [[-> ->]|[-> ->]]; right; [right|left]; lia. }
  rewrite add_to_row_spec by eauto. cbn [bind].
  destruct (existsb (fun e' => endsb (edge_of edges e') b) (row rs a)) eqn:Exa.
  - assert (Er : add_row edges k a b rs = rs) by (unfold add_row; rewrite Exa; reflexivity). rewrite Er.
    rewrite add_to_row_spec by eauto.
    assert (Exb : existsb (fun e' => endsb (edge_of edges e') a) (row rs b) = true).
    { apply row_dup_spec in Exa. apply row_dup_spec. destruct Exa as (e' & He' & Hd).
      destruct (H3 a e' He') as (_ & o & Ho). destruct (joins_ends _ _ _ Ho) as [Hea _].
      exists e'. split; auto. destruct (joins_two _ _ _ _ Ho Hd) as [->| ->]; auto. eauto. }
    unfold add_row. rewrite Exb. split; auto. apply rows_ok_skip; auto.
    intros n o Hno. left. apply Hjab in Hno. destruct Hno as [[-> ->]|[-> ->]]; apply row_dup_spec; auto.
  - destruct (Nat.eq_dec a b) as [<-|Hab].
    + set (rs1 := set_nth a (row rs a ++ [k]) rs).
      assert (Hr1 : forall i, row rs1 i = if a =? i then row rs a ++ [k] else row rs i) by (intros; apply row_set; auto).
      assert (Hd1 : existsb (fun e' => endsb (edge_of edges e') a) (row rs1 a) = true).
      { apply row_dup_spec. exists k. rewrite Hr1, Nat.eqb_refl. split; [apply in_or_app; cbn; auto|].
        rewrite Ek. left; reflexivity. }
      assert (Er : add_row edges k a a rs = rs1) by (unfold add_row; rewrite Exa; reflexivity). rewrite Er.
      rewrite add_to_row_spec.
      * unfold add_row. rewrite Hd1. split; auto.
        apply (rows_ok_add N edges k rs rs1 a a); auto.
        -- unfold rs1. rewrite set_nth_length. auto.
        -- intros n. rewrite Hr1. rewrite (Nat.eqb_sym n a). destruct (Nat.eqb_spec a n) as [->|]; cbn [orb]; auto.
           now rewrite app_nil_r.
        -- intros e' He' Hc. assert (existsb (fun e' => endsb (edge_of edges e') a) (row rs a) = true) by (apply row_dup_spec; eauto). congruence.
        -- intros e' He' Hc. assert (existsb (fun e' => endsb (edge_of edges e') a) (row rs a) = true) by (apply row_dup_spec; eauto). congruence.
      * unfold rs1. rewrite set_nth_length; auto.
      * intros e' He'. rewrite Hr1, Nat.eqb_refl in He'. apply in_app_or in He'. destruct He' as [He'|[<-|[]]]; eauto.
      * auto.
      * rewrite Hr1, Nat.eqb_refl, app_length. cbn. lia.
    + set (rs1 := set_nth a (row rs a ++ [k]) rs).
      assert (Hr1 : forall i, row rs1 i = if a =? i then row rs a ++ [k] else row rs i) by (intros; apply row_set; auto).
      assert (Hr1b : row rs1 b = row rs b).
      { rewrite Hr1. destruct (Nat.eqb_spec a b); auto; contradiction. }
      assert (Exb : existsb (fun e' => endsb (edge_of edges e') a) (row rs1 b) = false).
      { rewrite Hr1b. apply not_true_is_false. intros Hc. apply row_dup_spec in Hc. destruct Hc as (e' & He' & Hd).
        destruct (H3 b e' He') as (_ & o & Ho). destruct (joins_two _ _ _ _ Ho Hd) as [E|E]; [congruence|subst o].
        assert (existsb (fun e' => endsb (edge_of edges e') b) (row rs a) = true); [|congruence].
        apply row_dup_spec. exists e'. split; eauto. apply joins_ends in Ho. tauto. }
      assert (Er : add_row edges k a b rs = rs1) by (unfold add_row; rewrite Exa; reflexivity). rewrite Er.
      rewrite add_to_row_spec.
      * unfold add_row. rewrite Exb. split; auto.
        apply (rows_ok_add N edges k rs _ a b); auto.
        -- rewrite set_nth_length. unfold rs1. rewrite set_nth_length. auto.
        -- intros n. rewrite row_set by (unfold rs1; rewrite set_nth_length; auto). rewrite Hr1b, Hr1.
           rewrite (Nat.eqb_sym n a), (Nat.eqb_sym n b).
           destruct (Nat.eqb_spec b n) as [->|], (Nat.eqb_spec a n) as [->|]; cbn [orb]; auto; try contradiction.
           now rewrite app_nil_r.
        -- intros e' He' Hc. assert (existsb (fun e' => endsb (edge_of edges e') b) (row rs a) = true) by (apply row_dup_spec; eauto). congruence.
        -- intros e' He' Hc. assert (existsb (fun e' => endsb (edge_of edges e') a) (row rs1 b) = true); [|congruence].
           rewrite Hr1b. apply row_dup_spec; eauto.
      * unfold rs1. rewrite set_nth_length; auto.
      * rewrite Hr1b. eauto.
      * left. rewrite Hr1b. auto.
      * rewrite Hr1b. auto.
Qed.

Lemma row_repeat n i : row (repeat [] n) i = [].
Proof. unfold row. revert i. induction n; intros [|i]; cbn; auto. Qed.

Lemma map_repeat_nil {A B} (f : A -> B) x n : map f (repeat x n) = repeat (f x) n.
Proof. induction n; cbn; f_equal; auto. Qed.

Lemma rows_ok_start N edges : rows_ok N edges 0 (repeat [] N).
Proof.
  constructor.
  - apply repeat_length.
  - intros n. rewrite row_repeat. cbn. lia.
  - intros n e. rewrite row_repeat. intros [].
  - intros n. rewrite row_repeat. constructor.
  - intros n ei ej o. rewrite row_repeat. intros [].
  - intros n e o. rewrite row_repeat. intros [].
  - intros. lia.
Qed.

Lemma administrate_all N edges : well_indexed (repeat missing_point N) edges -> forall k, k <= length edges ->
  exists rs, fold_out (administrate_edge edges) (seq 0 k) (tabs (repeat [] N)) = Ok (tabs rs) /\ rows_ok N edges k rs.
Proof.
  intros Hw. induction k as [|k IH]; intros Hk.
  - exists (repeat [] N). split; auto. apply rows_ok_start.
  - destruct IH as (rs & Hf & Hrs); [lia|]. rewrite seq_S, fold_out_app, Hf. cbn [bind Nat.add fold_out].
    destruct (administrate_edge_spec N edges k rs Hrs) as [-> Hrs']; [lia| |].
    + intros n Hn. specialize (Hw (edge_of edges k) n). rewrite repeat_length in Hw. apply Hw; auto.
      apply nth_In. lia.
    + cbn [bind]. eauto.
Qed.

Lemma resize_tabs rs : (forall n, length (row rs n) <= max_edges_per_node) ->
  resize_rows (map (@length nat) rs) (map pad rs) = map (map Some) rs.
Proof.
  induction rs as [|r rs IH]; intros H; cbn [map resize_rows]; auto. f_equal.
  - unfold vresize, pad. specialize (H 0). cbn in H. rewrite app_length, map_length, repeat_length.
    replace (length r - (length r + (max_edges_per_node - length r))) with 0 by lia. cbn [repeat]. rewrite app_nil_r.
    rewrite firstn_app, map_length, Nat.sub_diag. cbn [firstn]. rewrite app_nil_r.
    rewrite <- (map_length Some r) at 1. apply firstn_all.
  - apply IH. intros n. apply (H (S n)).
Qed.

Lemma Forall2_len {A B} (R : A -> B -> Prop) l l' : Forall2 R l l' -> length l = length l'.
Proof. induction 1; cbn; auto. Qed.

Section Order.
  Variable order : list point -> list edge -> nat -> list (option nat) -> list (option nat).
  Hypothesis order_perm : forall nodes edges n row, Permutation row (order nodes edges n row).

  Lemma sort_reads_ok nodes edges r :
    well_indexed nodes edges -> (forall e, In e r -> e < length edges) -> sort_reads nodes edges (map Some r) = Ok tt.
  Proof.
    intros Hw. unfold sort_reads. induction r as [|e r IH]; intros H; cbn [map fold_out]; auto.
    cbn [vget_idx]. rewrite edge_of_get by (apply H; cbn; auto). cbn [bind].
    assert (Hin : In (edge_of edges e) edges) by (apply nth_In, H; cbn; auto).
    destruct (edge_of edges e) as [[a|] [b|]] eqn:E; cbn [bind]; try (apply IH; intros; apply H; cbn; auto).
    destruct (vget_lt nodes a) as (x & ->); [apply (Hw _ a Hin); left; reflexivity|].
    destruct (vget_lt nodes b) as (y & ->); [apply (Hw _ b Hin); right; reflexivity|].
    cbn [bind]. apply IH; intros; apply H; cbn; auto.
  Qed.

  Lemma sort_rows_spec nodes0 edges : well_indexed nodes0 edges -> forall nodes rs n,
    length rs = length nodes -> (forall k e, In e (row rs k) -> e < length edges) ->
    exists rows, sort_rows order nodes0 edges n nodes (map (map Some) rs) = Ok rows /\
      Forall2 (fun r l => Permutation (map Some r) l) rs rows.
  Proof.
    intros Hw. induction nodes as [|p nodes IH]; intros [|r rs] n Hl Hr; try discriminate Hl; cbn [map sort_rows].
    - eauto.
    - destruct (IH rs (S n)) as (rows & -> & Hf); [cbn in Hl; lia|intros k e; apply (Hr (S k))|].
      cbn [bind]. destruct (is_valid p).
      + rewrite sort_reads_ok; auto; [|intros e; apply (Hr 0)]. cbn [bind]. eauto.
      + eauto.
  Qed.

  (** Rebuilding the tables of a well-indexed mesh never fails and gives an exact adjacency. *)
  Lemma rebuild_exact m :
    well_indexed (m_nodes m) (m_edges m) -> m_nodes m <> [] -> m_edges m <> [] ->
    exists nn ne, rebuild_tables order m = Ok (set_tables m nn ne) /\ adjacency_exact (set_tables m nn ne).
  Proof.
    intros Hw Hn He. unfold rebuild_tables.
    destruct (m_nodes m) as [|p0 pt] eqn:En; [contradiction|]. destruct (m_edges m) as [|e0 et] eqn:Ee; [contradiction|].
    rewrite <- En, <- Ee in *. clear En Ee p0 pt e0 et Hn He.
    set (N := length (m_nodes m)). unfold node_administration.
    cbn [m_edges m_nodesNumEdges m_nodesEdges set_tables].
    destruct (administrate_all N (m_edges m)) with (k := length (m_edges m)) as (rs & Hf & Hrs); auto.
    { intros e n. rewrite repeat_length. apply Hw. }
    assert (Ht : (repeat 0 N, repeat (repeat None max_edges_per_node) N) = tabs (repeat [] N)).
    { unfold tabs. rewrite !map_repeat_nil. reflexivity. }
    rewrite Ht, Hf. unfold tabs at 1. cbn [bind m_nodesEdges m_nodes m_edges m_nodesNumEdges m_projection set_tables].
    pose proof Hrs as [H1 H2 H3 H4 H5 H6 H7].
    rewrite resize_tabs by auto.
    destruct (sort_rows_spec (m_nodes m) (m_edges m) Hw (m_nodes m) rs 0) as (rows & Hs & Hp).
    { rewrite H1; reflexivity. } { intros k e Hi. apply H3 in Hi. lia. }
    rewrite Hs. cbn [bind]. exists (map (@length nat) rs), rows. split; [reflexivity|].
    assert (Hrow : forall n, Permutation (map Some (row rs n)) (nth n rows [])).
    { clear - Hp. intros n. revert n. induction Hp as [|r l rs rows Hr Hp IH]; intros [|n]; cbn; auto. apply IH. }
    assert (Hin : forall n e, In (Some e) (nth n rows []) <-> In e (row rs n)).
    { intros n e. split; intros H.
      - apply (Permutation_in _ (Permutation_sym (Hrow n))) in H. apply in_map_iff in H. destruct H as (x & E & H).
        inversion E; subst; auto.
      - apply (Permutation_in _ (Hrow n)). apply in_map. auto. }
    assert (Hdeg : forall n, nth n (map (@length nat) rs) 0 = length (row rs n)).
    { intros n. change 0 with (length (@nil nat)). apply map_nth. }
    constructor; unfold row_of, degree_of, edge_at; cbn [m_nodes m_edges m_nodesNumEdges m_nodesEdges set_tables].
    - apply Forall2_len in Hp. lia.
    - rewrite map_length. lia.
    - intros n _. rewrite Hdeg. split; auto. rewrite <- (Permutation_length (Hrow n)), map_length. reflexivity.
    - intros n oe _ Hi. apply (Permutation_in _ (Permutation_sym (Hrow n))) in Hi. apply in_map_iff in Hi.
      destruct Hi as (e & <- & Hi). destruct (H3 n e Hi) as (Hlt & o & Ho). exists e, o. auto.
    - intros n _. apply (Permutation_NoDup (Hrow n)). apply FinFun.Injective_map_NoDup; auto. intros x y E; inversion E; auto.
    - intros n ei ej o _ Hi Hj. apply Hin in Hi. apply Hin in Hj. eauto.
    - intros n e o _ Hi Hj. apply Hin. apply Hin in Hi. eapply H6; eauto.
    - intros e n o Hlt Hj. destruct (H7 e n o Hlt Hj) as [H|[(e' & H & H')|[H|H]]].
      + left. apply Hin; auto.
      + right; left. exists e'. split; auto. apply Hin; auto.
      + right; right; left. rewrite Hdeg; auto.
      + right; right; right. rewrite Hdeg; auto.
  Qed.

  Lemma rebuild_tables_indep m nn ne m' : m_nodes m <> [] -> m_edges m <> [] ->
    rebuild_tables order m = Ok m' -> rebuild_tables order (set_tables m nn ne) = Ok m'.
  Proof.
    unfold rebuild_tables, set_tables. cbn [m_nodes m_edges].
    destruct (m_nodes m), (m_edges m); try contradiction. auto.
  Qed.

  Lemma administrate_ok m :
    well_indexed (m_nodes m) (m_edges m) ->
    exists nn ne acts m', administrate_undo order m = Ok (m', acts) /\
      m' = Mesh (admin_nodes (m_nodes m) (m_edges m)) (admin_edges (m_nodes m) (m_edges m)) nn ne (m_projection m) /\
      (m_nodes m <> [] -> m_edges m <> [] -> adjacency_exact m').
  Proof.
    intros Hw. unfold administrate_undo. destruct (set_unconnected_spec m Hw) as (acts & ->). cbn [bind].
    set (m1 := set_edges _ _).
    assert (Hn : m_nodes m1 = admin_nodes (m_nodes m) (m_edges m)) by reflexivity.
    assert (He : m_edges m1 = admin_edges (m_nodes m) (m_edges m)) by reflexivity.
    destruct (m_nodes m) as [|p pt] eqn:En; [|destruct (m_edges m) as [|e et] eqn:Ee].
    - exists (m_nodesNumEdges m), (m_nodesEdges m), acts. eexists. split; [|split; [reflexivity|congruence]].
      unfold rebuild_tables. rewrite Hn. reflexivity.
    - exists (m_nodesNumEdges m), (m_nodesEdges m), acts. eexists. split; [|split; [reflexivity|congruence]].
      unfold rebuild_tables. rewrite He, Hn. cbn [admin_edges map]. destruct (admin_nodes (p :: pt) []); reflexivity.
    - destruct (rebuild_exact m1) as (nn & ne & Hr & Ha).
      + rewrite Hn, He. apply admin_well_indexed; auto.
      + rewrite Hn. intros Hc. apply (f_equal (@length _)) in Hc. rewrite admin_nodes_length in Hc. discriminate.
      + rewrite He. discriminate.
      + rewrite Hr. cbn [bind]. exists nn, ne, acts, (set_tables m1 nn ne). split; auto.
  Qed.

  Lemma administrate_result m m' :
    well_indexed (m_nodes m) (m_edges m) -> administrate order m = Ok m' ->
    m_nodes m' = admin_nodes (m_nodes m) (m_edges m) /\ m_edges m' = admin_edges (m_nodes m) (m_edges m) /\
    m_projection m' = m_projection m /\ (m_nodes m <> [] -> m_edges m <> [] -> adjacency_exact m').
  Proof.
    intros Hw H. unfold administrate in H. destruct (administrate_ok m Hw) as (nn & ne & acts & m1 & Hu & E & Ha).
    rewrite Hu in H. cbn [bind] in H. injection H as <-. rewrite E in *. cbn. auto.
  Qed.

  Lemma administrate_safe m :
    well_indexed (m_nodes m) (m_edges m) -> exists m', administrate order m = Ok m'.
  Proof.
    intros Hw. unfold administrate. destruct (administrate_ok m Hw) as (nn & ne & acts & m1 & -> & _). cbn. eauto.
  Qed.

  Lemma administrate_idem m m' :
    well_indexed (m_nodes m) (m_edges m) -> administrate order m = Ok m' -> administrate order m' = Ok m'.
  Proof.
    intros Hw H. destruct (administrate_result m m' Hw H) as (Hn & He & Hp & _).
    assert (Hw' : well_indexed (m_nodes m') (m_edges m')) by (rewrite Hn, He; apply admin_well_indexed; auto).
    destruct (set_unconnected_spec m' Hw') as (acts' & Hs').
    destruct (admin_idem (m_nodes m) (m_edges m)) as [I1 I2]. rewrite <- Hn, <- He in I1, I2. rewrite I1, I2 in Hs'.
    assert (Hid : set_edges (set_nodes m' (m_nodes m')) (m_edges m') = m') by (destruct m'; reflexivity).
    rewrite Hid in Hs'. unfold administrate, administrate_undo. rewrite Hs'. cbn [bind].
    unfold administrate, administrate_undo in H. destruct (set_unconnected_spec m Hw) as (acts & Hs). rewrite Hs in H. cbn [bind] in H.
    apply bind_ok_inv in H. destruct H as ([m2 x] & H & E). apply bind_ok_inv in H. destruct H as (m3 & Hr & E2). injection E as ->.
    injection E2 as -> _.
    assert (Hr' : rebuild_tables order m' = Ok m'); [|rewrite Hr'; reflexivity].
    set (m1 := set_edges _ _) in Hr.
    destruct (m_nodes m') as [|p pt] eqn:En'; [unfold rebuild_tables; rewrite En'; reflexivity|].
    destruct (m_edges m') as [|e et] eqn:Ee'; [unfold rebuild_tables; rewrite En', Ee'; reflexivity|].
    assert (E' : m' = set_tables m1 (m_nodesNumEdges m') (m_nodesEdges m')).
    { unfold m1, set_tables, set_edges, set_nodes. cbn. rewrite <- Hn, <- He, <- Hp, <- En', <- Ee'. destruct m'; reflexivity. }
    rewrite E' at 1. apply rebuild_tables_indep; auto; unfold m1; cbn; rewrite <- ?Hn, <- ?He; discriminate.
  Qed.
End Order.

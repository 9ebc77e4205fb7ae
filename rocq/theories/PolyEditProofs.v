(** Proofs about refining, snapping and offsetting polygons. *)
From Verif Require Import Base BaseLemmas FloatModel PolyModel PolyEditModel PolyEditSpec.

Lemma skipn_skipn {A} (l : list A) i j : skipn i (skipn j l) = skipn (i + j) l.
Proof. revert l. induction j as [|j IH]; intros l; [now rewrite Nat.add_0_r|]. rewrite <- plus_n_Sm. destruct l; cbn [skipn]; [now rewrite skipn_nil|apply IH]. Qed.
Notation node l i := (nth i l missing_point).
Lemma vget_node l i : i < length l -> vget l i = Ok (node l i).
Proof. intros H. apply vget_ok. now apply nth_error_nth'. Qed.
Lemma slice_nodes (l : list point) s k : s + k <= length l -> firstn k (skipn s l) = map (fun i => node l i) (seq s k).
Proof.
  revert s l. induction k as [|k IH]; intros s l H; [reflexivity|]. destruct (skipn s l) as [|p t] eqn:E.
  - assert (length (skipn s l) = 0) by (rewrite E; reflexivity). rewrite skipn_length in *. lia.
  - cbn [firstn seq map]. assert (P : node l s = p).
    { rewrite <- (firstn_skipn s l), E, app_nth2; rewrite firstn_length; [|lia]. replace (s - Nat.min s (length l)) with 0 by lia. reflexivity. }
    rewrite P. f_equal. rewrite <- (IH (S s) l) by lia. f_equal. change t with (skipn 1 (p :: t)). rewrite <- E, skipn_skipn. f_equal.
Qed.
Lemma all_nodes (l : list point) : l = map (fun i => node l i) (seq 0 (length l)).
Proof. rewrite <- slice_nodes by lia. now rewrite firstn_all. Qed.

(** *** Refine *)
Section Refine.
  Variable pieces : point -> point -> Z.
  Variable nodes : list point.
  Let N := length nodes.
  Definition edge_points (c : bool) (i : nat) : list point :=
    node nodes i :: if c then inside_edge (node nodes i) (node nodes (i + 1)) (Z.to_nat (pieces (node nodes i) (node nodes (i + 1)))) else [].

  Lemma segments s k acc : s + k < N -> fold_out (refine_segment pieces nodes) (seq s k) acc = Ok (acc ++ flat_map (edge_points true) (seq s k)).
  Proof.
    revert s acc. induction k as [|k IH]; intros s acc H; cbn [seq fold_out flat_map]; [now rewrite app_nil_r|].
    unfold refine_segment at 1. rewrite !vget_node by (unfold N in *; lia). cbn [bind]. rewrite IH by lia. rewrite <- app_assoc. reflexivity.
  Qed.
  Lemma kept s k : s + k <= N -> firstn k (skipn s nodes) = flat_map (edge_points false) (seq s k).
  Proof. intros H. rewrite slice_nodes by exact H. unfold edge_points. induction (seq s k); cbn; congruence. Qed.
  Lemma flat_chosen chosen b s k : (forall i, s <= i < s + k -> chosen i = b) -> flat_map (fun i => edge_points (chosen i) i) (seq s k) = flat_map (edge_points b) (seq s k).
  Proof. revert s. induction k as [|k IH]; intros s H; cbn [seq flat_map]; [reflexivity|]. rewrite H by lia. f_equal. apply IH. intros i Hi. apply H. lia. Qed.
  Lemma with_inside_from chosen k : forall j, j + S k = N -> with_inside pieces chosen j (skipn j nodes) = flat_map (fun i => edge_points (chosen i) i) (seq j k) ++ [node nodes (N - 1)].
  Proof.
    induction k as [|k IH]; intros j H.
    - assert (E : skipn j nodes = firstn 1 (skipn j nodes)) by (symmetry; apply firstn_all2; rewrite skipn_length; unfold N in *; lia).
      rewrite E, slice_nodes by (unfold N in *; lia). cbn [seq map with_inside flat_map app]. f_equal. f_equal. lia.
    - assert (E : skipn j nodes = node nodes j :: skipn (S j) nodes).
      { assert (A : skipn j nodes = firstn 1 (skipn j nodes) ++ skipn 1 (skipn j nodes)) by (symmetry; apply firstn_skipn). rewrite slice_nodes, skipn_skipn in A by (unfold N in *; lia). exact A. }
      assert (E2 : skipn (S j) nodes = node nodes (S j) :: skipn (S (S j)) nodes).
      { assert (A : skipn (S j) nodes = firstn 1 (skipn (S j) nodes) ++ skipn 1 (skipn (S j) nodes)) by (symmetry; apply firstn_skipn). rewrite slice_nodes, skipn_skipn in A by (unfold N in *; lia). exact A. }
      specialize (IH (S j) ltac:(lia)). rewrite E2 in IH. rewrite E, E2. cbn [with_inside seq flat_map]. cbn [with_inside] in IH.
      unfold edge_points at 1. replace (j + 1) with (S j) by lia. rewrite IH. cbn [app]. f_equal. now rewrite <- app_assoc.
  Qed.
  Lemma refine_ok start stop : start <> stop -> start < N -> stop < N -> refine pieces nodes start stop = Ok (with_inside pieces (edge_chosen start stop) 0 nodes).
  Proof.
    intros D A B. unfold refine. fold N. destruct (Nat.eqb_spec start stop); [lia|]. destruct (Nat.leb_spec N start); [lia|]. destruct (Nat.leb_spec N stop); [lia|]. cbn [orb].
    pose proof (with_inside_from (edge_chosen start stop) (N - 1) 0 ltac:(lia)) as W. cbn [skipn] in W. rewrite W. clear W.
    assert (Tail : forall s, s < N -> skipn s nodes = flat_map (edge_points false) (seq s (N - 1 - s)) ++ [node nodes (N - 1)]).
    { intros s Hs. rewrite <- kept by lia. rewrite <- (firstn_skipn (N - 1 - s) (skipn s nodes)) at 1. f_equal. rewrite skipn_skipn. replace (N - 1 - s + s) with (N - 1) by lia.
      assert (E : skipn (N - 1) nodes = firstn 1 (skipn (N - 1) nodes)) by (symmetry; apply firstn_all2; rewrite skipn_length; unfold N in *; lia). rewrite E, slice_nodes by (unfold N in *; lia). reflexivity. }
    destruct (Nat.ltb_spec start stop) as [L|L].
    - rewrite segments by lia. cbn [bind]. rewrite (Tail stop B). f_equal.
      assert (F : firstn start nodes = flat_map (edge_points false) (seq 0 start)) by (rewrite <- kept by lia; reflexivity). rewrite F.
      assert (Q : seq 0 (N - 1) = seq 0 (start + ((stop - start) + (N - 1 - stop)))) by (f_equal; lia). rewrite Q. rewrite !seq_app, !flat_map_app. cbn [Nat.add].
      replace (start + (stop - start)) with stop by lia.
      rewrite (flat_chosen (edge_chosen start stop) false 0 start), (flat_chosen (edge_chosen start stop) true start), (flat_chosen (edge_chosen start stop) false stop), <- ?app_assoc; [reflexivity|..]; intros i Hi; unfold edge_chosen;
        destruct (Nat.ltb_spec start stop); try lia; destruct (Nat.leb_spec start i), (Nat.ltb_spec i stop); cbn; lia || reflexivity.
    - rewrite segments by lia. cbn [bind app]. rewrite kept by lia. rewrite segments by lia. cbn [bind]. rewrite vget_node by (fold N; lia). cbn [bind]. fold N. f_equal.
      assert (Q : seq 0 (N - 1) = seq 0 (stop + ((start - stop) + (N - 1 - start)))) by (f_equal; lia). rewrite Q. rewrite !seq_app, !flat_map_app. cbn [Nat.add].
      replace (stop + (start - stop)) with start by lia.
      rewrite (flat_chosen (edge_chosen start stop) true 0 stop), (flat_chosen (edge_chosen start stop) false stop), (flat_chosen (edge_chosen start stop) true start), <- ?app_assoc; [reflexivity|..]; intros i Hi; unfold edge_chosen;
        destruct (Nat.ltb_spec start stop); try lia; destruct (Nat.leb_spec start i), (Nat.ltb_spec i stop); cbn; lia || reflexivity.
  Qed.
  Lemma refine_refused start stop : start <> stop -> N <= start \/ N <= stop -> refine pieces nodes start stop = Throw ConstraintErr.
  Proof. intros D H. unfold refine. fold N. destruct (Nat.eqb_spec start stop); [lia|]. destruct (Nat.leb_spec N start), (Nat.leb_spec N stop); try reflexivity. lia. Qed.
  Lemma refine_same start : refine pieces nodes start start = Ok nodes.
  Proof. unfold refine. now rewrite Nat.eqb_refl. Qed.
End Refine.
Lemma with_inside_ends pieces chosen : forall l j, l <> [] -> with_inside pieces chosen j l <> [] /\ node (with_inside pieces chosen j l) 0 = node l 0 /\
  last (with_inside pieces chosen j l) missing_point = last l missing_point.
Proof.
  induction l as [|a t IH]; intros j H; [congruence|]. cbn [with_inside]. split; [discriminate|]. split; [reflexivity|]. destruct t as [|b t]; [reflexivity|].
  destruct (IH (j + 1) ltac:(discriminate)) as (NE & _ & L). set (w := with_inside pieces chosen (j + 1) (b :: t)) in *. clearbody w.
  assert (Q : forall (u v : list point) x, v <> [] -> last (x :: u ++ v) missing_point = last v missing_point).
  { intros u v x Hv. revert x. induction u as [|y u IHu]; intros x; cbn [app]; [destruct v; [congruence|reflexivity]|]. rewrite <- (IHu y). cbn. destruct (u ++ v); reflexivity. }
  rewrite Q by exact NE. rewrite L. reflexivity.
Qed.
Lemma last_nth (l : list point) : last l missing_point = node l (length l - 1).
Proof. induction l as [|a [|b t] IH]; [reflexivity|reflexivity|]. cbn [length Nat.sub] in *. change (last (a :: b :: t) missing_point) with (last (b :: t) missing_point). rewrite IH. cbn. rewrite Nat.sub_0_r. reflexivity. Qed.
Lemma refined_closed pieces chosen l : ends_meet l -> ends_meet (with_inside pieces chosen 0 l).
Proof.
  intros (NE & E). destruct (with_inside_ends pieces chosen l 0 NE) as (A & B & C). split; [exact A|]. rewrite B, <- last_nth, C, last_nth. exact E.
Qed.
Lemma with_inside_length pieces chosen : forall l j, length (with_inside pieces chosen j l) =
  length l + list_sum (map (fun i => if chosen (j + i) then Z.to_nat (pieces (node l i) (node l (i + 1))) - 1 else 0) (seq 0 (length l - 1))).
Proof.
  induction l as [|a t IH]; intros j; [reflexivity|]. cbn [with_inside length Nat.sub]. rewrite Nat.sub_0_r. destruct t as [|b t]; [reflexivity|].
  rewrite app_length, (IH (j + 1)). cbn [length Nat.sub]. rewrite Nat.sub_0_r. cbn [seq map list_sum fold_right nth Nat.add]. rewrite Nat.add_0_r.
  assert (E : length (if chosen j then inside_edge a b (Z.to_nat (pieces a b)) else []) = if chosen j then Z.to_nat (pieces a b) - 1 else 0).
  { destruct (chosen j); [|reflexivity]. unfold inside_edge. now rewrite map_length, seq_length. }
  rewrite E. clear E. rewrite <- seq_shift, map_map.
  assert (M : map (fun i => if chosen (j + 1 + i) then Z.to_nat (pieces (node (b :: t) i) (node (b :: t) (i + 1))) - 1 else 0) (seq 0 (length t)) =
              map (fun x => if chosen (j + S x) then Z.to_nat (pieces (node (a :: b :: t) (S x)) (node (a :: b :: t) (S x + 1))) - 1 else 0) (seq 0 (length t))).
  { apply map_ext. intros i. replace (j + 1 + i) with (j + S i) by lia. reflexivity. }
  cbn [nth Nat.add] in M |- *. unfold list_sum in *. rewrite M. lia.
Qed.

(** *** Snapping *)
Section Snap.
  Variable f : point -> point.
  Variable translate : list point -> list point.
  Lemma replaced_nth chosen : forall l i k, nth_error (replaced f chosen i l) k = match nth_error l k with Some p => Some (if chosen (i + k) && is_valid p then f p else p) | None => None end.
  Proof.
    induction l as [|p t IH]; intros i k; [destruct k; reflexivity|]. destruct k as [|k]; cbn [replaced nth_error]; [now rewrite Nat.add_0_r|]. rewrite IH. now replace (i + 1 + k) with (i + S k) by lia.
  Qed.
  Lemma replaced_length chosen l i : length (replaced f chosen i l) = length l.
  Proof. revert i. induction l; intros i; cbn; congruence. Qed.

  Variable nodes : list point.
  Variables start stop : nat.
  Let N := length nodes.
  Hypothesis Hs : start < N.
  Hypothesis He : stop < N.
  Definition off (k : nat) : nat := if start <=? k then k - start else k + N - start.
  Lemma at_offset i : i < N -> off ((start + i) mod N) = i /\ (start + i) mod N < N /\ (forall k, k < N -> off k = i -> k = (start + i) mod N).
  Proof.
    intros Hi. assert (E : (start + i) mod N = if start + i <? N then start + i else start + i - N).
    { destruct (Nat.ltb_spec (start + i) N) as [L|L]; [now apply Nat.mod_small|]. replace (start + i) with ((start + i - N) + 1 * N) at 1 by lia. rewrite Nat.mod_add by lia. apply Nat.mod_small. lia. }
    rewrite E. unfold off. destruct (Nat.ltb_spec (start + i) N).
    - split; [|split; [lia|]]. { destruct (Nat.leb_spec start (start + i)); lia. } intros k Hk. destruct (Nat.leb_spec start k); lia.
    - split; [|split; [lia|]]. { destruct (Nat.leb_spec start (start + i - N)); lia. } intros k Hk. destruct (Nat.leb_spec start k); lia.
  Qed.
  Lemma chosen_off k : k < N -> node_chosen start stop k = (off k <=? off stop).
  Proof.
    intros Hk. unfold node_chosen, off. destruct (Nat.leb_spec start stop), (Nat.leb_spec start k), (Nat.leb_spec k stop); cbn [andb orb]; symmetry; (apply Nat.leb_le; lia) || (apply Nat.leb_gt; lia).
  Qed.
  Lemma snap_from m : forall j l, j + m = N -> length l = N ->
    (forall k, k < N -> nth_error l k = match nth_error nodes k with Some p => Some (if (off k <? j) && is_valid p then f p else p) | None => None end) ->
    j <= off stop -> snap_loop f (seq j m) start stop l = Ok (replaced f (node_chosen start stop) 0 nodes).
  Proof.
    induction m as [|m IH]; intros j l Hj Hl Hv Ho.
    - exfalso. assert (off stop < N) by (unfold off; destruct (Nat.leb_spec start stop); lia). lia.
    - cbn [seq snap_loop]. rewrite Hl. destruct (at_offset j ltac:(lia)) as (A & B & C). set (c := (start + j) mod N) in *.
      destruct (nth_error nodes c) as [p|] eqn:P; [|apply nth_error_None in P; unfold N in *; lia].
      assert (G : nth_error l c = Some p). { rewrite Hv, P by exact B. rewrite A. destruct (Nat.ltb_spec j j); [lia|reflexivity]. }
      assert (G' : vget l c = Ok p) by now apply vget_ok. rewrite G'. cbn [bind].
      set (l' := if is_valid p then set_nth c (f p) l else l).
      assert (E : (if is_valid p then vset c (f p) l else Ok l) = Ok l') by (unfold l'; destruct (is_valid p); [apply vset_lt; lia|reflexivity]).
      rewrite E. cbn [bind].
      assert (L' : length l' = N) by (unfold l'; destruct (is_valid p); rewrite ?set_nth_length; exact Hl).
      assert (V' : forall k, k < N -> nth_error l' k = match nth_error nodes k with Some q => Some (if (off k <? S j) && is_valid q then f q else q) | None => None end).
      { intros k Hk. destruct (Nat.eq_dec k c) as [->|Ne].
        - rewrite P, A. destruct (Nat.ltb_spec j (S j)); [|lia]. cbn [andb]. unfold l'. destruct (is_valid p); [apply nth_error_set_nth_eq; lia|exact G].
        - assert (X : nth_error l' k = nth_error l k) by (unfold l'; destruct (is_valid p); [apply nth_error_set_nth_neq; congruence|reflexivity]). rewrite X, Hv by exact Hk.
          assert (off k <> j) by (intros Q; apply Ne, C; auto). replace (off k <? S j) with (off k <? j); [reflexivity|]. destruct (Nat.ltb_spec (off k) j), (Nat.ltb_spec (off k) (S j)); lia || reflexivity. }
      destruct (Nat.eqb_spec c stop) as [Q|Q].
      + f_equal. apply nth_error_ext. intros k. rewrite replaced_nth. cbn [Nat.add]. destruct (Nat.lt_ge_cases k N) as [Hk|Hk].
        * rewrite V', chosen_off by exact Hk. rewrite <- Q, A. replace (off k <? S j) with (off k <=? j); [reflexivity|]. destruct (Nat.leb_spec (off k) j), (Nat.ltb_spec (off k) (S j)); lia || reflexivity.
        * assert (X : nth_error l' k = None) by (apply nth_error_None; lia). assert (Y : nth_error nodes k = None) by (apply nth_error_None; unfold N in *; lia). now rewrite X, Y.
      + apply (IH (S j)); auto; [lia|]. assert (off stop <> j) by (intros X; apply Q; symmetry; now apply C). lia.
  Qed.
  Lemma snap_polygon_ok : snap_polygon f translate nodes start stop = Ok (translate (replaced f (node_chosen start stop) 0 nodes)).
  Proof.
    unfold snap_polygon. fold N. destruct (Nat.leb_spec N start); [lia|]. destruct (Nat.leb_spec N stop); [lia|]. rewrite (snap_from N 0 nodes); auto with arith.
    intros k Hk. destruct (nth_error nodes k); [|reflexivity]. destruct (Nat.ltb_spec (off k) 0); [lia|reflexivity].
  Qed.
  Lemma snap_closed : ends_meet nodes -> node_chosen start stop 0 = node_chosen start stop (N - 1) -> ends_meet (replaced f (node_chosen start stop) 0 nodes).
  Proof.
    intros (NE & E) C. assert (P : forall k, k < N -> node (replaced f (node_chosen start stop) 0 nodes) k = if node_chosen start stop k && is_valid (node nodes k) then f (node nodes k) else node nodes k).
    { intros k Hk. apply nth_error_nth. rewrite replaced_nth. rewrite (nth_error_nth' nodes missing_point) by exact Hk. reflexivity. }
    split; [intros X; apply (f_equal (@length _)) in X; rewrite replaced_length in X; fold N in X; cbn in X; lia|]. rewrite replaced_length. fold N in E |- *. rewrite !P by lia. now rewrite <- E, C.
  Qed.
End Snap.
Lemma snap_refused f translate nodes start stop : length nodes <= start \/ length nodes <= stop -> snap_polygon f translate nodes start stop = Throw ConstraintErr.
Proof. intros H. unfold snap_polygon. destruct (Nat.leb_spec (length nodes) start); [reflexivity|]. destruct (Nat.leb_spec (length nodes) stop); [reflexivity|lia]. Qed.

(** *** Offset *)
Section Offset.
  Variable normal displacement : point -> point -> point.
  Notation n_b := (normal_before normal).
  Notation n_a := (normal_after normal).
  Lemma mitres_from nodes m : forall j first, 1 <= j -> j + m = length nodes -> 2 <= length nodes -> first = normal (node nodes 0) (node nodes 1) ->
    forall previous, (m <> 0 -> previous = n_b nodes j) -> mitres normal nodes (seq j m) first previous = Ok (map (fun i => mitre (n_b nodes i) (n_a nodes i)) (seq j m)).
  Proof.
    induction m as [|m IH]; intros j first Hj Hm HN Hf previous Hp; [reflexivity|]. cbn [seq mitres map]. rewrite Hp by lia.
    assert (E : (if j <? length nodes - 1 then let! a := vget nodes j in let! b := vget nodes (j + 1) in Ok (normal a b) else Ok first) = Ok (n_a nodes j)).
    { unfold normal_after. destruct (Nat.ltb_spec j (length nodes - 1)).
      - rewrite !vget_node by lia. cbn [bind]. destruct (Nat.eqb_spec j (length nodes - 1)); [lia|reflexivity].
      - destruct (Nat.eqb_spec j (length nodes - 1)); [now rewrite Hf|lia]. }
    rewrite E. cbn [bind]. destruct (Nat.eqb_spec j 0); [lia|]. rewrite (IH (S j) first); [reflexivity|lia|lia|exact HN|exact Hf|].
    intros Hz. unfold normal_after, normal_before. destruct (Nat.eqb_spec j (length nodes - 1)); [lia|]. cbn [Nat.eqb]. replace (S j - 1) with j by lia. now replace (j + 1) with (S j) by lia.
  Qed.
  Lemma mitres_all nodes first : 2 <= length nodes -> mitres normal nodes (seq 0 (length nodes)) first (normal (node nodes (length nodes - 2)) (node nodes 0)) =
    Ok (map (fun i => mitre (n_b nodes i) (n_a nodes i)) (seq 0 (length nodes))).
  Proof.
    intros H. replace (seq 0 (length nodes)) with (0 :: seq 1 (length nodes - 1)) by (destruct (length nodes); [lia|]; cbn; now rewrite Nat.sub_0_r).
    cbn [mitres map]. destruct (Nat.ltb_spec 0 (length nodes - 1)); [|lia]. rewrite !vget_node by lia. cbn [bind Nat.add Nat.eqb].
    rewrite mitres_from; try lia; try reflexivity.
    - cbn [bind]. assert (A : n_a nodes 0 = normal (node nodes 0) (node nodes 1)) by (unfold normal_after; destruct (Nat.eqb_spec 0 (length nodes - 1)); reflexivity).
      rewrite A. reflexivity.
  Qed.
  Lemma combine_nodes nodes (g : nat -> point) : combine nodes (map g (seq 0 (length nodes))) = map (fun i => (node nodes i, g i)) (seq 0 (length nodes)).
  Proof.
    rewrite (all_nodes nodes) at 1. generalize (length nodes). intros n. generalize 0. induction n as [|n IH]; intros j; cbn [seq map combine]; [reflexivity|]. f_equal. apply IH.
  Qed.
  Lemma offset_ok nodes both : 2 <= length nodes ->
    offset_polygon normal displacement nodes both = Ok (outwards normal displacement nodes ++ if both then missing_point :: inwards normal displacement nodes else []).
  Proof.
    intros H. unfold offset_polygon. destruct (Nat.ltb_spec (length nodes) 2); [lia|]. rewrite !vget_node by lia. cbn [bind]. rewrite mitres_all by exact H. cbn [bind].
    rewrite combine_nodes, !map_map. reflexivity.
  Qed.
  Lemma outwards_length nodes : length (outwards normal displacement nodes) = length nodes.
  Proof. unfold outwards. now rewrite map_length, seq_length. Qed.
  Lemma inwards_length nodes : length (inwards normal displacement nodes) = length nodes.
  Proof. unfold inwards. now rewrite map_length, seq_length. Qed.
  Lemma map_node (g : nat -> point) n i : i < n -> node (map g (seq 0 n)) i = g i.
  Proof. intros H. apply nth_error_nth. rewrite nth_error_map, (nth_error_nth' _ 0) by (rewrite seq_length; exact H). now rewrite seq_nth by exact H. Qed.
  Lemma same_offset nodes : 2 <= length nodes -> ends_meet nodes -> offset_of normal displacement nodes 0 = offset_of normal displacement nodes (length nodes - 1).
  Proof.
    intros H (_ & E). unfold offset_of.
    assert (B : n_b nodes 0 = n_b nodes (length nodes - 1)).
    { unfold normal_before. cbn [Nat.eqb]. destruct (Nat.eqb_spec (length nodes - 1) 0); [lia|]. rewrite E. now replace (length nodes - 1 - 1) with (length nodes - 2) by lia. }
    assert (A : n_a nodes 0 = n_a nodes (length nodes - 1)).
    { unfold normal_after. destruct (Nat.eqb_spec 0 (length nodes - 1)); [lia|]. rewrite Nat.eqb_refl. reflexivity. }
    now rewrite <- A, <- B, <- E.
  Qed.
  Lemma offset_closed nodes : 2 <= length nodes -> ends_meet nodes -> ends_meet (outwards normal displacement nodes) /\ ends_meet (inwards normal displacement nodes).
  Proof.
    intros H E. pose proof (same_offset nodes H E) as S. destruct E as (_ & E). split; split.
    - intros X. apply (f_equal (@length _)) in X. rewrite outwards_length in X. cbn in X. lia.
    - rewrite outwards_length. unfold outwards. rewrite !map_node by lia. cbn zeta. now rewrite <- S, <- E.
    - intros X. apply (f_equal (@length _)) in X. rewrite inwards_length in X. cbn in X. lia.
    - rewrite inwards_length. unfold inwards. rewrite !map_node by lia. cbn zeta. now rewrite <- S, <- E.
  Qed.
  Lemma offset_short nodes both : length nodes < 2 -> offset_polygon normal displacement nodes both = UB.
  Proof. intros H. unfold offset_polygon. destruct (Nat.ltb_spec (length nodes) 2); [reflexivity|lia]. Qed.

  Lemma write_ok ps : forall at_ t, at_ + length ps <= length t -> write_points ps at_ t = Ok (firstn at_ t ++ ps ++ skipn (at_ + length ps) t).
  Proof.
    induction ps as [|p ps IH]; intros a t H; cbn [write_points length] in *; [cbn [app]; now rewrite Nat.add_0_r, firstn_skipn|].
    rewrite vset_lt by lia. cbn [bind]. rewrite IH by (rewrite set_nth_length; lia). f_equal.
    assert (E : set_nth a p t = firstn a t ++ p :: skipn (S a) t).
    { clear -H. revert a H. induction t as [|x t IH]; intros a H; cbn [length] in H; [lia|]. destruct a as [|a]; [reflexivity|]. cbn [set_nth firstn skipn app]. f_equal. apply IH. lia. }
    rewrite E. assert (La : length (firstn a t) = a) by (rewrite firstn_length; lia).
    assert (F : firstn (a + 1) (firstn a t ++ p :: skipn (S a) t) = firstn a t ++ [p]).
    { rewrite firstn_app, La. replace (a + 1 - a) with 1 by lia. cbn [firstn]. f_equal. apply firstn_all2. lia. }
    rewrite F, <- app_assoc. cbn [app]. f_equal. f_equal. f_equal. rewrite skipn_app, La. replace (skipn (a + 1 + length ps) (firstn a t)) with (@nil point) by (symmetry; apply skipn_all2; lia).
    cbn [app]. replace (a + 1 + length ps - a) with (S (length ps)) by lia. change (skipn (S (length ps)) (p :: skipn (S a) t)) with (skipn (length ps) (skipn (S a) t)). rewrite skipn_skipn. f_equal. lia.
  Qed.
  Lemma write_length ps : forall at_ t t', write_points ps at_ t = Ok t' -> length t' = length t.
  Proof.
    induction ps as [|p ps IH]; intros a t t' H; cbn [write_points] in H; [congruence|]. apply bind_ok_inv in H. destruct H as (u & A & B). apply IH in B. rewrite B.
    destruct (Nat.lt_ge_cases a (length t)) as [L|L]; [rewrite vset_lt in A by exact L; injection A as <-; apply set_nth_length|].
    unfold vset in A. destruct (Nat.ltb_spec a (length t)); [lia|discriminate].
  Qed.
  Lemma write_beyond p ps t a : length t <= a -> write_points (p :: ps) a t = UB.
  Proof. intros H. cbn [write_points]. unfold vset. destruct (Nat.ltb_spec a (length t)); [lia|reflexivity]. Qed.

  Definition rings_length (es : list enclosure) : nat := list_sum (map (fun e => length (outer e)) es).

  (** *** Polygons::OffsetCopy *)
  Lemma plain_from es : forall done rest at_ h, Forall (fun e => 2 <= length (outer e) /\ inner e = []) es -> at_ = length done -> rings_length es <= length rest ->
    offset_enclosures normal displacement es false at_ h (done ++ rest) =
    Ok (done ++ flat_map (fun e => outwards normal displacement (outer e)) es ++ skipn (rings_length es) rest).
  Proof.
    induction es as [|e es IH]; intros done rest a h HF -> HL; cbn [offset_enclosures flat_map rings_length map list_sum fold_right]; [reflexivity|].
    apply Forall_cons_iff in HF. destruct HF as ((H2 & Hi) & HF). rewrite offset_ok by exact H2. cbn [bind]. rewrite app_nil_r. unfold rings_length in HL. cbn [map list_sum fold_right] in HL.
    change (fold_right Nat.add 0 (map (fun e0 => length (outer e0)) es)) with (rings_length es) in *.
    rewrite write_ok by (rewrite app_length, outwards_length; lia). cbn [bind]. rewrite outwards_length.
    assert (F : firstn (length done) (done ++ rest) = done) by (rewrite firstn_app, Nat.sub_diag, firstn_all; apply app_nil_r). rewrite F.
    assert (K : skipn (length done + length (outer e)) (done ++ rest) = skipn (length (outer e)) rest).
    { rewrite skipn_app. rewrite skipn_all2 by lia. cbn [app]. f_equal. lia. }
    rewrite K, Hi. cbn [offset_holes bind fst snd]. rewrite (app_assoc done).
    rewrite (IH _ _ _ h HF) by (rewrite ?app_length, ?skipn_length, ?outwards_length; lia). rewrite skipn_skipn, <- !app_assoc. do 5 f_equal. unfold rings_length. unfold list_sum. lia.
  Qed.
  Lemma plain_nodes es : Forall (fun e => 2 <= length (outer e) /\ inner e = []) es -> number_of_nodes es = rings_length es + (length es - 1).
  Proof.
    induction es as [|e es IH]; intros HF; [reflexivity|]. apply Forall_cons_iff in HF. destruct HF as ((_ & Hi) & HF). cbn [number_of_nodes]. rewrite (IH HF), Hi. change (rings_length (e :: es)) with (length (outer e) + rings_length es). cbn [concat length].
    destruct es; cbn [length]; lia.
  Qed.
  Lemma skipn_repeat {A} (x : A) n k : skipn k (repeat x n) = repeat x (n - k).
  Proof. revert n. induction k as [|k IH]; intros [|n]; cbn; auto. Qed.
  Lemma plain_offset es : Forall (fun e => 2 <= length (outer e) /\ inner e = []) es ->
    offset_polygons normal displacement es false = make_polygons (flat_map (fun e => outwards normal displacement (outer e)) es ++ repeat missing_point (length es - 1)).
  Proof.
    intros HF. unfold offset_polygons. rewrite (plain_nodes es HF). 
    match goal with |- context [offset_enclosures _ _ _ _ 0 ?h ?t] => pose proof (plain_from es [] t 0 h HF eq_refl) as Q end. cbn [app] in Q. rewrite Q by (rewrite repeat_length; lia).
    cbn [bind]. rewrite skipn_repeat. do 3 f_equal. lia.
  Qed.
  Lemma single_both e : 2 <= length (outer e) -> inner e = [] -> offset_polygons normal displacement [e] true =
    make_polygons (outwards normal displacement (outer e) ++ missing_point :: inwards normal displacement (outer e)).
  Proof.
    intros H Hi. unfold offset_polygons. cbn [number_of_nodes]. rewrite Hi. cbn [concat length offset_enclosures]. rewrite offset_ok by exact H. cbn [bind].
    rewrite write_ok by (rewrite repeat_length, app_length; cbn [length]; rewrite outwards_length, inwards_length; lia). cbn [bind]. rewrite Hi. cbn [offset_holes bind fst snd firstn app].
    rewrite skipn_repeat. rewrite app_length. cbn [length]. rewrite outwards_length, inwards_length.
    match goal with |- make_polygons (_ ++ repeat _ ?n) = _ => replace n with 0 by lia end. cbn [repeat]. now rewrite app_nil_r.
  Qed.
  Lemma outwards_cons l : 2 <= length l -> exists p t, outwards normal displacement l = p :: t.
  Proof. intros H. destruct (outwards normal displacement l) as [|p t] eqn:E; [|eauto]. apply (f_equal (@length _)) in E. rewrite outwards_length in E. cbn in E. lia. Qed.
  Lemma holes_beyond es : forall at_ t h, Forall long_enclosure es -> Exists (fun e => inner e <> []) es -> at_ + rings_length es <= length t -> length t <= h ->
    offset_enclosures normal displacement es false at_ h t = UB.
  Proof.
    induction es as [|e es IH]; intros a t h HF HE HL Hh; [inversion HE|]. apply Forall_cons_iff in HF. destruct HF as ((H2 & Hi) & HF).
    unfold rings_length in HL. cbn [map list_sum fold_right] in HL. change (fold_right Nat.add 0 (map (fun e0 => length (outer e0)) es)) with (rings_length es) in *.
    cbn [offset_enclosures]. rewrite offset_ok by exact H2. cbn [bind]. rewrite app_nil_r.
    rewrite write_ok by (rewrite outwards_length; lia). cbn [bind]. set (t' := firstn a t ++ _ ++ _).
    assert (Lt : length t' = length t). { unfold t'. rewrite !app_length, firstn_length, skipn_length, outwards_length. lia. } clearbody t'.
    destruct (inner e) as [|q qs] eqn:Ei.
    - cbn [offset_holes bind fst snd]. apply IH; auto.
      + inversion HE; subst; auto. congruence.
      + rewrite outwards_length. lia.
      + lia.
    - cbn [offset_holes]. apply Forall_cons_iff in Hi. destruct Hi as (Hq & _). rewrite offset_ok by exact Hq. cbn [bind].
      destruct (outwards_cons _ H2) as (p & u & E). rewrite E, write_beyond by lia. reflexivity.
  Qed.
  Lemma rings_within es : rings_length es <= number_of_nodes es.
  Proof. induction es as [|e es IH]; [cbn; lia|]. cbn [number_of_nodes]. unfold rings_length in *. cbn [map list_sum fold_right] in *. change (fold_right Nat.add 0 (map (fun e0 => length (outer e0)) es)) with (list_sum (map (fun e0 => length (outer e0)) es)). lia. Qed.
  Lemma holes_outside es : Forall long_enclosure es -> Exists (fun e => inner e <> []) es -> offset_polygons normal displacement es false = UB.
  Proof.
    intros HF HE. unfold offset_polygons. rewrite Nat.add_0_r. rewrite holes_beyond; auto; rewrite repeat_length; pose proof (rings_within es); lia.
  Qed.

  (** *** PolygonalEnclosure::OffsetCopy *)
  Lemma slice_front a b : slice (a ++ b) 0 (length a) = a.
  Proof. unfold slice. cbn [skipn]. rewrite Nat.sub_0_r, firstn_app, Nat.sub_diag, firstn_all. apply app_nil_r. Qed.
  Lemma slice_back (a b : list point) m n : length a = n -> length b = n -> slice (a ++ m :: b) (n + 1) (2 * n + 1) = b.
  Proof. intros A B. unfold slice. rewrite skipn_app, A. rewrite skipn_all2 by lia. replace (n + 1 - n) with 1 by lia. cbn [skipn app]. apply firstn_all2. lia. Qed.
  Definition holes_of (f : list point -> list point) (inner : list (list point)) : list point := flat_map (fun h => separator_point :: f h) inner.
  Notation outw := (outwards normal displacement).
  Notation inw := (inwards normal displacement).
  Lemma enclosure_holes_ok both inner : forall done1 rest1 done2 rest2, Forall (fun h => 2 <= length h) inner ->
    length rest1 = length (concat inner) + length inner -> (both = true -> length done2 = length done1 /\ length rest2 = length rest1) ->
    enclosure_holes normal displacement inner both (length done1) (done1 ++ rest1, done2 ++ rest2) =
    Ok (done1 ++ holes_of outw inner, if both then done2 ++ holes_of inw inner else done2 ++ rest2).
  Proof.
    induction inner as [|h t IH]; intros d1 r1 d2 r2 HF L1 L2.
    - cbn [enclosure_holes holes_of flat_map concat length] in *. destruct r1; [|discriminate]. rewrite !app_nil_r. destruct both; [|reflexivity]. destruct (L2 eq_refl) as (_ & B). destruct r2; [|discriminate]. now rewrite app_nil_r.
    - apply Forall_cons_iff in HF. destruct HF as (Hh & HF). cbn [enclosure_holes concat length] in *. rewrite app_length in L1. rewrite offset_ok by exact Hh. cbn [bind fst snd].
      assert (S1 : forall b, slice (outw h ++ b) 0 (length h) = outw h) by (intros b; rewrite <- (outwards_length h); apply slice_front).
      rewrite S1. rewrite write_ok by (rewrite app_length; cbn [length]; rewrite outwards_length; lia). cbn [bind].
      assert (F : forall d r : list point, firstn (length d) (d ++ r) = d) by (intros d r; rewrite firstn_app, Nat.sub_diag, firstn_all; apply app_nil_r).
      rewrite F. assert (K : forall (d r : list point) k, skipn (length d + k) (d ++ r) = skipn k r) by (intros d r k; rewrite skipn_app, skipn_all2 by lia; cbn [app]; f_equal; lia).
      rewrite K. cbn [length]. rewrite outwards_length. rewrite app_assoc.
      assert (A1 : length d1 + 1 + length h = length (d1 ++ separator_point :: outw h)) by (rewrite app_length; cbn [length]; rewrite outwards_length; lia).
      destruct both.
      + destruct (L2 eq_refl) as (La & Lb). rewrite slice_back by (apply outwards_length || apply inwards_length).
        rewrite <- La. rewrite write_ok by (rewrite app_length; cbn [length]; rewrite inwards_length; lia). cbn [bind]. rewrite F, K. cbn [length]. rewrite inwards_length, La, A1, (app_assoc d2).
        rewrite IH; auto; [|rewrite skipn_length; lia|].
        * unfold holes_of. cbn [flat_map]. now rewrite <- !app_assoc.
        * intros _. rewrite !app_length, !skipn_length. cbn [length]. rewrite outwards_length, inwards_length. lia.
      + cbn [bind]. rewrite A1. rewrite IH; auto; [|rewrite skipn_length; lia|discriminate]. unfold holes_of. cbn [flat_map]. now rewrite <- !app_assoc.
  Qed.
  Lemma enclosure_ok e both : long_enclosure e -> offset_enclosure normal displacement e both =
    (let! a := make_enclosure (with_holes (outw (outer e)) (map outw (inner e))) in
     if both then let! b := make_enclosure (with_holes (inw (outer e)) (map inw (inner e))) in Ok (a, Some b) else Ok (a, None)).
  Proof.
    intros (H & HF). unfold offset_enclosure. rewrite offset_ok by exact H. cbn [bind].
    assert (S1 : forall b, slice (outw (outer e) ++ b) 0 (length (outer e)) = outw (outer e)) by (intros b; rewrite <- (outwards_length (outer e)); apply slice_front).
    rewrite S1. rewrite write_ok by (rewrite repeat_length, outwards_length; lia). cbn [bind firstn app]. rewrite outwards_length. cbn [Nat.add]. rewrite skipn_repeat.
    assert (W : forall f, with_holes (f (outer e)) (map f (inner e)) = f (outer e) ++ holes_of f (inner e)).
    { intros f. unfold with_holes, holes_of. f_equal. generalize (inner e); intros hs; induction hs as [|h t IHt]; cbn [map flat_map]; [reflexivity|]; now rewrite IHt. }
    destruct both.
    - rewrite slice_back by (apply outwards_length || apply inwards_length). rewrite write_ok by (rewrite repeat_length, inwards_length; lia). cbn [bind firstn app]. rewrite inwards_length. cbn [Nat.add]. rewrite skipn_repeat.
      pose proof (enclosure_holes_ok true (inner e) (outw (outer e)) (repeat missing_point (length (outer e) + length (concat (inner e)) + length (inner e) - length (outer e)))
        (inw (outer e)) (repeat missing_point (length (outer e) + length (concat (inner e)) + length (inner e) - length (outer e))) HF) as Q.
      rewrite outwards_length in Q. rewrite Q; [|rewrite repeat_length; lia|intros _; now rewrite inwards_length]. cbn [bind fst snd]. now rewrite !W.
    - cbn [bind]. pose proof (enclosure_holes_ok false (inner e) (outw (outer e)) (repeat missing_point (length (outer e) + length (concat (inner e)) + length (inner e) - length (outer e))) [] [] HF) as Q.
      rewrite outwards_length in Q. cbn [app] in Q. rewrite Q; [|rewrite repeat_length; lia|discriminate]. cbn [bind fst snd]. now rewrite W.
  Qed.
End Offset.

(** *** LinearRefine *)
Section Linear.
  Variable points : list point.
  Variable initial : list double.
  Hypothesis same_length : length initial = length points.
  Notation good_points := (Forall (on_sequence points)).

  Lemma interpolate_on d p : interpolate points initial d = Ok p -> on_sequence points p.
  Proof.
    unfold interpolate. destruct initial as [|c t] eqn:E; [discriminate|]. rewrite <- E. destruct (match first_beyond initial d 0 with Some i => i | None => length initial - 1 end) as [|i] eqn:I; [discriminate|].
    intros H. apply bind_ok_inv in H. destruct H as (a & A & H). apply bind_ok_inv in H. destruct H as (b & B & H). injection H as <-.
    apply vget_ok in A, B. right. exists i. eexists. split; [apply nth_error_Some; rewrite B; discriminate|]. rewrite (nth_error_nth _ _ _ A), (nth_error_nth _ _ _ B). reflexivity.
  Qed.
  Lemma interpolate_all_on : forall cum r, interpolate_all points initial cum = Ok r -> length r = length cum /\ good_points r.
  Proof.
    induction cum as [|d t IH]; intros r H; cbn [interpolate_all] in H; [injection H as <-; auto|]. apply bind_ok_inv in H. destruct H as (p & A & H). apply bind_ok_inv in H. destruct H as (q & B & H). injection H as <-.
    destruct (IH q B) as (L & G). split; [cbn; congruence|]. constructor; [now apply interpolate_on in A|exact G].
  Qed.
  Definition settled (s : lstate) (n : nat) : Prop := length (l_points s) = n /\ length (l_cum s) = n /\ length (l_avg s) = n /\ length (l_actual s) = n /\ good_points (l_points s) /\ 2 <= n.
  Lemma averages_length cum a : averages cum = Ok a -> length a = length cum /\ 2 <= length cum.
  Proof. unfold averages. destruct (Nat.ltb_spec (length cum) 2); [discriminate|]. intros E. injection E as <-. now rewrite map_length, seq_length. Qed.
  Lemma settle_ok f l : forall k s s' n, settle k points initial f l s = Ok s' -> length (l_cum s) = n -> k <> 0 \/ settled s n -> settled s' n.
  Proof.
    induction k as [|k IH]; intros s s' n H L Q; cbn [settle] in H; [injection H as <-; now destruct Q|].
    apply bind_ok_inv in H. destruct H as (r & A & H). apply bind_ok_inv in H. destruct H as (a & B & H).
    destruct (interpolate_all_on _ _ A) as (Lr & G). destruct (averages_length _ _ B) as (La & L2). eapply IH; [exact H| |right; repeat split]; cbn [l_cum l_points l_avg l_actual];
      unfold smooth_cumulative, smooth_averages; rewrite ?map_length, ?seq_length; congruence || auto.
  Qed.
  Lemma extremes avg actual : let (lo, hi) := extreme_ratios avg actual in
    (forall i, snd lo = Some i -> 0 < i < length avg - 1) /\ (forall i, snd hi = Some i -> i < length avg - 1).
  Proof.
    unfold extreme_ratios.
    assert (G : forall l s, (forall i, In i l -> i < length avg - 1) -> (forall i, snd (fst s) = Some i -> 0 < i < length avg - 1) -> (forall i, snd (snd s) = Some i -> i < length avg - 1) ->
      let (lo, hi) := fold_left (ratio_step avg actual) l s in (forall i, snd lo = Some i -> 0 < i < length avg - 1) /\ (forall i, snd hi = Some i -> i < length avg - 1)).
    { induction l as [|x l IH]; intros [lo hi] HI H1 H2; cbn [fold_left]; [auto|]. apply IH; [intros; apply HI; now right|..]; unfold ratio_step; cbn [fst snd] in *; specialize (HI x (or_introl eq_refl)).
      - destruct (Nat.ltb_spec 0 x); cbn [andb]; [|exact H1]. destruct (SFltb _ _); [|exact H1]. cbn [snd]. intros i E. injection E as <-. lia.
      - destruct (SFltb _ _); [|exact H2]. cbn [snd]. intros i E. injection E as <-. lia. }
    apply G; cbn [fst snd]; [|discriminate|discriminate]. intros i Hi. apply in_seq in Hi. lia.
  Qed.
  Lemma firstn_good l k : good_points l -> good_points (firstn k l).
  Proof. intros H. rewrite <- (firstn_skipn k l) in H. apply Forall_app in H. tauto. Qed.
  Lemma adjust_ok s n s' : settled s n -> adjust initial s = Ok (Some s') -> settled s' (length (l_cum s')) /\ length (l_cum s') <= n + 1.
  Proof.
    intros (P1 & P2 & P3 & P4 & P5 & P6) H. unfold adjust in H. pose proof (extremes (l_avg s) (l_actual s)) as X. rewrite P3 in X. rewrite P2 in H.
    destruct (extreme_ratios (l_avg s) (l_actual s)) as [lo hi]. destruct X as (X1 & X2). cbv zeta in H.
    set (r := match snd lo with Some i => _ | None => None end) in H.
    assert (Hr : forall i, r = Some i -> 0 < i < n - 1).
    { intros i E. unfold r in E. destruct (snd lo) as [j|]; [|discriminate]. destruct (SFltb _ _) in E; [|discriminate]. injection E as ->. now apply X1. }
    clearbody r. destruct r as [i|].
    - specialize (Hr i eq_refl). injection H as <-. cbn [l_cum]. rewrite app_length, firstn_length, skipn_length. split; [|lia].
      repeat split; cbn [l_points l_cum l_avg l_actual]; rewrite ?app_length, ?firstn_length, ?skipn_length; try lia. now apply firstn_good.
    - destruct (snd hi) as [i|]; [|discriminate]. specialize (X2 i eq_refl). destruct (SFltb _ _); [|discriminate]. injection H as <-. cbn [l_cum]. rewrite app_length. cbn [length].
      rewrite firstn_length, skipn_length. split; [|lia].
      repeat split; cbn [l_points l_cum l_avg l_actual]; rewrite ?app_length; cbn [length]; rewrite ?firstn_length, ?skipn_length; try lia. apply Forall_app. split; [exact P5|]. constructor; [now left|constructor].
  Qed.
  Lemma linear_loop_next f l k s : linear_loop (S k) points initial f l s =
    (let! s := settle 20 points initial f l s in let! t := adjust initial s in match t with Some s => linear_loop k points initial f l s | None => Ok (l_points s) end).
  Proof. reflexivity. Qed.
  Lemma linear_loop_ok f l : forall k s r n, linear_loop k points initial f l s = Ok r -> length (l_cum s) = n -> k <> 0 \/ settled s n -> 2 <= length r <= n + k /\ good_points r.
  Proof.
    induction k as [|k IH]; intros s r n H L Q.
    - destruct Q as [Q|Q]; [congruence|]. cbn [linear_loop] in H. injection H as <-. destruct Q as (A & _ & _ & _ & G & N). split; [lia|exact G].
    - rewrite linear_loop_next in H. remember 20 as steps eqn:Hs. apply bind_ok_inv in H. destruct H as (s1 & A & H). apply bind_ok_inv in H. destruct H as (t & B & H).
      assert (S1 : settled s1 n). { eapply settle_ok; [exact A|exact L|left; rewrite Hs; discriminate]. }
      destruct t as [s2|].
      + destruct (adjust_ok _ _ _ S1 B) as (S2 & L2). destruct (IH _ _ _ H eq_refl (or_intror S2)) as (C & G). split; [lia|exact G].
      + injection H as <-. destruct S1 as (C & _ & _ & _ & G & N). split; [lia|exact G].
  Qed.
End Linear.
Lemma selection_selected nodes start stop : start < length nodes -> stop < length nodes -> selection nodes start stop = selected nodes start stop.
Proof.
  intros A B. unfold selection, selected. destruct (Nat.ltb_spec start stop).
  - rewrite <- slice_nodes by lia. f_equal. lia.
  - rewrite map_app, <- !slice_nodes by lia. rewrite (firstn_all2 (skipn start nodes)) by (rewrite skipn_length; lia). reflexivity.
Qed.
Section LinearRefine.
  Variable distance : point -> point -> double.
  Lemma cumulative_length : forall l d, length (cumulative distance d l) = length l.
  Proof. induction l as [|a [|b t] IH]; intros d; [reflexivity|reflexivity|]. cbn [cumulative length]. f_equal. apply IH. Qed.
  Lemma selection_length nodes start stop : start < length nodes -> stop < length nodes -> length (selection nodes start stop) = if start <? stop then stop + 1 - start else length nodes - start + stop.
  Proof. intros A B. unfold selection. destruct (Nat.ltb_spec start stop); rewrite ?app_length, ?firstn_length, ?skipn_length; [lia|]. destruct nodes; cbn [tl length] in *; lia. Qed.
  Lemma linear_ok nodes start stop r : linear_refine distance nodes start stop = Ok r -> start <> stop -> 4 <= length nodes ->
    exists mid, r = (if start <? stop then firstn start nodes ++ mid ++ skipn (stop + 1) nodes else firstn (start - stop) (skipn stop nodes) ++ mid) /\
      2 <= length mid <= 2 * length (selected nodes start stop) /\ Forall (on_sequence (selected nodes start stop)) mid.
  Proof.
    intros H D N. unfold linear_refine in H. destruct (Nat.leb_spec (length nodes) start); [discriminate|]. destruct (Nat.leb_spec (length nodes) stop); [discriminate|].
    destruct (Nat.eqb_spec start stop); [lia|]. destruct (Nat.ltb_spec (length nodes) 4); [lia|]. rewrite selection_selected in H by lia. set (points := selected nodes start stop) in *.
    apply bind_ok_inv in H. destruct H as (avg & A & H). apply bind_ok_inv in H. destruct H as (mid & B & H). apply Ok_inj in H. subst r. exists mid. split; [reflexivity|].
    destruct (averages_length _ _ A) as (_ & L2). rewrite cumulative_length in L2.
    apply linear_loop_ok with (n := length points) in B; [|apply cumulative_length..|left; lia]. destruct B as (B & G). split; [lia|exact G].
  Qed.
  Lemma linear_closing nodes : 4 <= length nodes -> linear_refine distance nodes (length nodes - 1) 0 = UB.
  Proof.
    intros H. unfold linear_refine. destruct (Nat.leb_spec (length nodes) (length nodes - 1)); [lia|]. destruct (Nat.leb_spec (length nodes) 0); [lia|].
    destruct (Nat.eqb_spec (length nodes - 1) 0); [lia|]. destruct (Nat.ltb_spec (length nodes) 4); [lia|].
    assert (E : averages (cumulative distance zero_d (selection nodes (length nodes - 1) 0)) = UB).
    { unfold averages. rewrite cumulative_length, selection_length by lia. destruct (Nat.ltb_spec (length nodes - 1) 0); [lia|]. destruct (Nat.ltb_spec (length nodes - (length nodes - 1) + 0) 2); [reflexivity|lia]. }
    rewrite E. reflexivity.
  Qed.
  Lemma linear_unchanged nodes start stop : start < length nodes -> stop < length nodes -> start = stop \/ length nodes < 4 -> linear_refine distance nodes start stop = Ok nodes.
  Proof.
    intros A B C. unfold linear_refine. destruct (Nat.leb_spec (length nodes) start); [lia|]. destruct (Nat.leb_spec (length nodes) stop); [lia|]. destruct (Nat.eqb_spec start stop); [reflexivity|].
    destruct (Nat.ltb_spec (length nodes) 4); [reflexivity|lia].
  Qed.
  Lemma linear_refused nodes start stop : length nodes <= start \/ length nodes <= stop -> linear_refine distance nodes start stop = Throw ConstraintErr.
  Proof. intros C. unfold linear_refine. destruct (Nat.leb_spec (length nodes) start); [reflexivity|]. destruct (Nat.leb_spec (length nodes) stop); [reflexivity|lia]. Qed.
End LinearRefine.

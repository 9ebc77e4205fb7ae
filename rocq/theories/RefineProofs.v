(** Reading faces, their hanging nodes, and the faces that have to be split. *)
From Coq Require Import Permutation.
From Verif Require Import Base BaseLemmas FloatModel UtilModel UndoModel ActionModel ActionSpec ActionProofs MeshModel MeshSpec MeshProofs MeshAdj MeshEdits
  FaceModel FaceSpec FlipSpec ConvertModel FlipModel NodeTypeProofs RefineModel RefineSpec.

Lemma mod_small_or j k : j < k -> (j + 1) mod k = if j =? k - 1 then 0 else j + 1.
Proof.
  intros H. destruct (Nat.eqb_spec j (k - 1)) as [->|N].
  - replace (k - 1 + 1) with k by lia. apply Nat.mod_same. lia.
  - apply Nat.mod_small. lia.
Qed.
Lemma mod_back j k : j < k -> (j + k - 1) mod k = if j =? 0 then k - 1 else j - 1.
Proof.
  intros H. destruct (Nat.eqb_spec j 0) as [->|N].
  - apply Nat.mod_small. lia.
  - replace (j + k - 1) with (j - 1 + 1 * k) by lia. rewrite Nat.mod_add by lia. apply Nat.mod_small. lia.
Qed.

Lemma next_forward_ok j k : j < k -> next_forward j k = Ok ((j + 1) mod k).
Proof.
  intros H. unfold next_forward. destruct (Nat.eqb_spec k 0); [lia|]. destruct (Nat.leb_spec k j); [lia|]. now rewrite mod_small_or.
Qed.
Lemma next_backward_ok j k : j < k -> next_backward j k = Ok ((j + k - 1) mod k).
Proof.
  intros H. unfold next_backward. destruct (Nat.eqb_spec k 0); [lia|]. destruct (Nat.leb_spec k j); [lia|]. now rewrite mod_back.
Qed.
Lemma item_get l j : l <> [] -> vget l (j mod length l) = Ok (item l j).
Proof.
  intros H. apply vget_ok. unfold item. apply nth_error_nth'. apply Nat.mod_upper_bound. destruct l; [easy|cbn; lia].
Qed.
Lemma item_small l j : j < length l -> item l j = nth j l 0.
Proof. intros H. unfold item. now rewrite Nat.mod_small. Qed.
Lemma item_at l j : j < length l -> vget l j = Ok (item l j).
Proof. intros H. rewrite item_small by exact H. apply vget_ok. now apply nth_error_nth'. Qed.
Lemma item_in l j : l <> [] -> In (item l j) l.
Proof. intros H. unfold item. apply nth_In. apply Nat.mod_upper_bound. destruct l; [easy|cbn; lia]. Qed.
Lemma item_mod l j : item l (j mod length l) = item l j.
Proof. unfold item. destruct l as [|a l]; [cbn; now destruct j|]. rewrite Nat.mod_mod by (cbn; lia). reflexivity. Qed.
Lemma item_wrap l j : item l (j + length l) = item l j.
Proof. unfold item. destruct l as [|a l]; [cbn; destruct j; reflexivity|]. rewrite <- (Nat.mul_1_l (length (a :: l))) at 1. rewrite Nat.mod_add by (cbn; lia). reflexivity. Qed.
Lemma item_prev_next l j : l <> [] -> item l (j + length l - 1 + 1) = item l j.
Proof. intros H. replace (j + length l - 1 + 1) with (j + length l) by (destruct l; [easy|cbn; lia]). apply item_wrap. Qed.
Lemma around_ok es j : j < length es -> around es (length es) j = Ok (item es (j + length es - 1), item es j, item es (j + 1)).
Proof.
  intros H. assert (Hn : es <> []) by (intros ->; cbn in H; lia).
  unfold around. rewrite next_backward_ok, next_forward_ok by exact H. cbn [bind]. rewrite item_get by exact Hn. cbn [bind].
  rewrite (item_at es j H). cbn [bind]. rewrite item_get by exact Hn. reflexivity.
Qed.
Lemma item_inj l i j : NoDup l -> i < length l -> j < length l -> item l i = item l j -> i = j.
Proof. intros Hn Hi Hj H. rewrite !item_small in H by assumption. apply (proj1 (NoDup_nth l 0) Hn); assumption. Qed.

(** Two edges of a cycle meet in the node between them. *)
Lemma find_common_ok m x y a b c : x < length (m_edges m) -> y < length (m_edges m) -> joins (edge_at m x) a b -> joins (edge_at m y) b c -> a <> b -> a <> c -> b <> c ->
  find_common m x y = Ok (Some b).
Proof.
  intros Hx Hy Jx Jy N1 N2 N3. unfold find_common.
  rewrite (proj2 (vget_ok (m_edges m) x (edge_at m x)) (nth_error_nth' _ _ Hx)), (proj2 (vget_ok (m_edges m) y (edge_at m y)) (nth_error_nth' _ _ Hy)). cbn [bind].
  destruct Jx as [-> | ->], Jy as [-> | ->]; repeat (match goal with |- context [?p =? ?q] => destruct (Nat.eqb_spec p q); try congruence end; cbn [orb]); try reflexivity; congruence.
Qed.
Lemma joins_sym e a b : joins e a b -> joins e b a.
Proof. intros [H|H]; [right|left]; exact H. Qed.

Definition same_up_to (m m' : mesh) : Prop := length (m_edges m) <= length (m_edges m') /\ forall e, e < length (m_edges m) -> edge_at m' e = edge_at m e.

Section Face.
  Variable m : mesh.
  Variables ns es : list nat.
  Hypothesis H3 : 3 <= length ns.
  Hypothesis Hd : NoDup ns.
  Hypothesis Hc : cycle_of_edges m ns es.

  Lemma face_length : length es = length ns. Proof. exact (proj1 Hc). Qed.
  Lemma face_edge j : item es j < length (m_edges m) /\ joins (edge_at m (item es j)) (item ns j) (item ns (j + 1)).
  Proof.
    pose proof face_length as L. apply (proj2 Hc j); unfold cyclic, item.
    - apply nth_error_nth'. apply Nat.mod_upper_bound. lia.
    - replace (S j) with (j + 1) by lia. apply nth_error_nth'. apply Nat.mod_upper_bound. lia.
    - apply nth_error_nth'. apply Nat.mod_upper_bound. lia.
  Qed.
  Lemma three_items j : item ns j <> item ns (j + 1) /\ item ns j <> item ns (j + 2) /\ item ns (j + 1) <> item ns (j + 2).
  Proof.
    set (k := length ns) in *. assert (Hk : k <> 0) by lia.
    assert (M : forall d, d < 3 -> item ns (j + d) = nth ((j + d) mod k) ns 0) by reflexivity.
    assert (Diff : forall c d, c < d -> d < 3 -> item ns (j + c) <> item ns (j + d)).
    { intros c d Hcd Hd3 E. rewrite !M in E by lia. apply (proj1 (NoDup_nth ns 0) Hd) in E; [|apply Nat.mod_upper_bound; lia..].
      pose proof (Nat.div_mod (j + c) k Hk) as D1. pose proof (Nat.div_mod (j + d) k Hk) as D2. rewrite E in D1.
      assert ((j + d) / k = (j + c) / k \/ (j + c) / k < (j + d) / k) as [Q|Q] by (assert ((j + c) / k <= (j + d) / k) by (apply Nat.div_le_mono; lia); lia).
      - rewrite Q in D2. lia.
      - assert (k * ((j + c) / k) + k <= k * ((j + d) / k)) by nia. lia. }
    replace (item ns j) with (item ns (j + 0)) by (f_equal; lia). repeat split; apply Diff; lia.
  Qed.
  Lemma common_next m' j : same_up_to m m' -> common_or_throw m' (item es j) (item es (j + 1)) = Ok (item ns (j + 1)).
  Proof.
    intros [Hl He]. unfold common_or_throw. destruct (face_edge j) as (L1 & J1), (face_edge (j + 1)) as (L2 & J2). destruct (three_items j) as (N1 & N2 & N3).
    replace (j + 1 + 1) with (j + 2) in J2 by lia. rewrite <- He in J1, J2 by assumption.
    rewrite (find_common_ok m' _ _ _ _ _ (Nat.lt_le_trans _ _ _ L1 Hl) (Nat.lt_le_trans _ _ _ L2 Hl) J1 J2 N1 N2 N3). reflexivity.
  Qed.
  Lemma common_previous m' j : same_up_to m m' -> common_or_throw m' (item es j) (item es (j + length es - 1)) = Ok (item ns j).
  Proof.
    intros [Hl He]. unfold common_or_throw. pose proof face_length as L. set (p := j + length es - 1).
    assert (E0 : item es j = item es (p + 1)) by (unfold p; rewrite item_prev_next; [reflexivity|intros Z; rewrite Z in L; cbn in L; lia]).
    assert (E1 : item ns j = item ns (p + 1)) by (unfold p; rewrite L, item_prev_next; [reflexivity|intros Z; rewrite Z in H3; cbn in H3; lia]).
    rewrite E0, E1. destruct (face_edge p) as (L1 & J1), (face_edge (p + 1)) as (L2 & J2). destruct (three_items p) as (N1 & N2 & N3).
    replace (p + 1 + 1) with (p + 2) in J2 by lia. rewrite <- He in J1, J2 by assumption.
    rewrite (find_common_ok m' _ _ _ _ _ (Nat.lt_le_trans _ _ _ L2 Hl) (Nat.lt_le_trans _ _ _ L1 Hl) (joins_sym _ _ _ J2) (joins_sym _ _ _ J1)); [reflexivity|congruence..].
  Qed.
End Face.

(** *** Folds over ranges *)
Lemma fold_range {A} (P : nat -> A -> Prop) (g : A -> nat -> outcome A) k a :
  P 0 a -> (forall j a, j < k -> P j a -> exists a', g a j = Ok a' /\ P (S j) a') -> exists a', fold_out g (seq 0 k) a = Ok a' /\ P k a'.
Proof.
  intros H0 Hs. assert (G : forall n, n <= k -> exists a', fold_out g (seq 0 n) a = Ok a' /\ P n a').
  { induction n as [|n IH]; intros Hn; [exists a; auto|]. destruct IH as (a1 & E1 & P1); [lia|]. destruct (Hs n a1 ltac:(lia) P1) as (a2 & E2 & P2).
    exists a2. rewrite seq_S, fold_out_app, E1. cbn [bind fold_out Nat.add]. rewrite E2. cbn. auto. }
  apply G. lia.
Qed.
(** The same if the steps may fail in known ways. *)
Lemma fold_range_safe {A} (P : nat -> A -> Prop) (Q : outcome A -> Prop) (g : A -> nat -> outcome A) k a :
  P 0 a -> (forall a', P k a' -> Q (Ok a')) -> (forall j a r, j < k -> P j a -> g a j = r -> match r with Ok a' => P (S j) a' | _ => Q r end) -> Q (fold_out g (seq 0 k) a).
Proof.
  intros H0 Hk Hs. assert (G : forall n, n <= k -> forall b, P (k - n) b -> Q (fold_out g (seq (k - n) n) b)).
  { induction n as [|n IH]; intros Hn b Hb; [cbn; apply Hk; now rewrite Nat.sub_0_r in Hb|]. cbn [seq fold_out]. specialize (Hs (k - S n) b (g b (k - S n)) ltac:(lia) Hb eq_refl).
    destruct (g b (k - S n)) as [b'| |] eqn:E; [|exact Hs|exact Hs]. cbn [bind]. replace (S (k - S n)) with (k - n) in * by lia. apply IH; [lia|exact Hs]. }
  specialize (G k (le_n k) a). rewrite Nat.sub_diag in G. auto.
Qed.

(** *** Hanging nodes and edges *)
Lemma set_nth_same {A} i (a : A) l : nth_error l i = Some a -> set_nth i a l = l.
Proof. revert i; induction l as [|x l IH]; intros [|i] H; cbn in *; try discriminate; [now injection H as ->|f_equal; auto]. Qed.
Lemma mod_next kk d k : k <> 0 -> ((kk + 1) mod k + d) mod k = (kk + S d) mod k.
Proof. intros H. rewrite Nat.add_mod_idemp_l by exact H. f_equal. lia. Qed.

Section Mark.
  Variables (ns : list nat) (t : nat) (nodes : list bool).
  Hypothesis Hd : NoDup ns.
  Hypothesis Ht : t < length ns.
  Hypothesis Hl : length ns <= length nodes.
  Lemma at_t j : j < length ns -> item ns j = item ns t -> j = t.
  Proof. intros H E. apply (item_inj ns); assumption. Qed.
  Lemma mark_done fuel kk : kk < length ns -> nth_error nodes t = Some true ->
    exists kk', kk' < length ns /\ mark_node ns (length ns) (item ns t) fuel nodes kk = Ok (nodes, kk').
  Proof.
    revert kk. induction fuel as [|fuel IH]; intros kk Hk Ho; cbn [mark_node]; [eauto|].
    assert (Hn : (kk + 1) mod length ns < length ns) by (apply Nat.mod_upper_bound; lia).
    rewrite next_forward_ok by exact Hk. cbn [bind]. rewrite (item_at ns _ Hn). cbn [bind].
    destruct (Nat.eqb_spec (item ns ((kk + 1) mod length ns)) (item ns t)) as [E|E]; cbn [bind].
    - apply at_t in E; [|exact Hn]. rewrite E, (proj2 (vget_ok nodes t true) Ho). cbn [bind negb]. apply IH; [lia|exact Ho].
    - apply IH; assumption.
  Qed.
  Lemma mark_found fuel kk d : kk < length ns -> nth_error nodes t = Some false -> d < fuel -> (kk + S d) mod length ns = t ->
    exists kk', kk' < length ns /\ mark_node ns (length ns) (item ns t) fuel nodes kk = Ok (set_nth t true nodes, kk').
  Proof.
    revert kk d. induction fuel as [|fuel IH]; intros kk d Hk Ho Hdf E; [lia|]. cbn [mark_node].
    assert (Hn : (kk + 1) mod length ns < length ns) by (apply Nat.mod_upper_bound; lia).
    rewrite next_forward_ok by exact Hk. cbn [bind]. rewrite (item_at ns _ Hn). cbn [bind].
    destruct (Nat.eqb_spec (item ns ((kk + 1) mod length ns)) (item ns t)) as [Q|Q]; cbn [bind].
    - apply at_t in Q; [|exact Hn]. rewrite Q, (proj2 (vget_ok nodes t false) Ho). cbn [bind negb]. rewrite vset_lt by lia. cbn [bind]. eauto.
    - destruct d as [|d]; [exfalso; apply Q; now rewrite E|]. apply (IH _ d); [exact Hn|exact Ho|lia|]. rewrite mod_next by lia. exact E.
  Qed.
  Lemma mark_ok kk : kk < length ns -> exists kk', kk' < length ns /\ mark_node ns (length ns) (item ns t) (length ns) nodes kk = Ok (set_nth t true nodes, kk').
  Proof.
    intros Hk. destruct (nth_error nodes t) as [[|]|] eqn:Ho.
    - rewrite (set_nth_same t true nodes Ho). now apply mark_done.
    - apply (mark_found _ _ (if kk <? t then t - kk - 1 else t + length ns - kk - 1)); [exact Hk|exact Ho|destruct (Nat.ltb_spec kk t); lia|].
      destruct (Nat.ltb_spec kk t).
      + replace (kk + S (t - kk - 1)) with t by lia. now apply Nat.mod_small.
      + replace (kk + S (t + length ns - kk - 1)) with (t + 1 * length ns) by lia. rewrite Nat.mod_add by lia. now apply Nat.mod_small.
    - apply nth_error_None in Ho. lia.
  Qed.
End Mark.

Lemma joins_both e a b c d : joins e a b -> joins e c d -> (a = c /\ b = d) \/ (a = d /\ b = c).
Proof. intros [-> | ->] [H|H]; injection H as -> ->; auto. Qed.

Section FaceHanging.
  Variable m : mesh.
  Variables ns es : list nat.
  Variable br : list (option nat).
  Hypothesis H3 : 3 <= length ns.
  Hypothesis Hd : NoDup ns.
  Hypothesis Hc : cycle_of_edges m ns es.

  Lemma es_nonempty : es <> [].
  Proof. intros Z. pose proof (face_length m ns es Hc) as L. rewrite Z in L. cbn in L. lia. Qed.
  Lemma neighbours_differ j : item es (j + length es - 1) <> item es (j + 1).
  Proof.
    pose proof (face_length m ns es Hc) as L. set (p := j + length es - 1). destruct (face_edge m ns es H3 Hc p) as (_ & J1), (face_edge m ns es H3 Hc (j + 1)) as (_ & J2).
    assert (E : item ns (p + 1) = item ns j) by (unfold p; rewrite L; apply item_prev_next; intros Z; rewrite Z in H3; cbn in H3; lia). rewrite E in J1.
    destruct (three_items ns H3 Hd j) as (N1 & N2 & _). replace (j + 1 + 1) with (j + 2) in J2 by lia. intros X. rewrite X in J1.
    destruct (joins_both _ _ _ _ _ J1 J2) as [(A & B)|(A & B)]; congruence.
  Qed.
  Lemma with_both j : with_previous br es j = true -> with_next br es j = true -> False.
  Proof.
    unfold with_previous, with_next. intros A B. destruct (brother br (item es j)) as [x|]; [|discriminate]. cbn [eq_idx] in A, B.
    apply Nat.eqb_eq in A, B. apply (neighbours_differ j). congruence.
  Qed.
  Hypothesis H6 : length ns <= 6.
  Hypothesis Hb : length br = length (m_edges m).
  Lemma brother_get j : vget br (item es j) = Ok (brother br (item es j)).
  Proof. apply vget_ok. unfold brother. apply nth_error_nth'. rewrite Hb. apply (face_edge m ns es H3 Hc). Qed.

  Definition hang_step (m' : mesh) (st : list bool * list bool * nat) n : outcome (list bool * list bool * nat) :=
    let '(nodes, edges, kk) := st in
    let! e := vget es n in
    let! b := vget br e in
    match b with
    | None => Ok st
    | Some b =>
        let! (ab) := around es (length es) n in
        let '(a, _, c) := ab in
        let! c := (if b =? a then let! c := common_or_throw m' e a in Ok (Some c)
                   else if b =? c then let! c := common_or_throw m' e c in Ok (Some c) else Ok None) in
        match c with
        | None => Ok st
        | Some c =>
            let! edges := vset n true edges in
            let! (nodes, kk) := mark_node ns (length es) c (length es) nodes kk in
            Ok (nodes, edges, kk)
        end
    end.
  Definition hangs_so_far (n j : nat) : bool :=
    (j <? length es) && existsb (fun i => (with_previous br es i && (i =? j)) || (with_next br es i && ((i + 1) mod length es =? j))) (seq 0 n).

  Lemma hang_steps m' : same_up_to m m' ->
    exists nodes edges kk, fold_out (hang_step m') (seq 0 (length es)) (repeat false max_edges_per_face, repeat false max_edges_per_face, length es - 1) = Ok (nodes, edges, kk) /\
      length nodes = 6 /\ length edges = 6 /\ (forall j, nth j edges false = (j <? length es) && hanging_edge br es j) /\ (forall j, nth j nodes false = hangs_so_far (length es) j).
  Proof.
    intros Hm. pose proof (face_length m ns es Hc) as L.
    destruct (fold_range (fun n st => let '(nodes, edges, kk) := st in kk < length ns /\ length nodes = 6 /\ length edges = 6 /\
      (forall j, nth j edges false = (j <? n) && hanging_edge br es j) /\ (forall j, nth j nodes false = hangs_so_far n j)) (hang_step m') (length es)
      (repeat false max_edges_per_face, repeat false max_edges_per_face, length es - 1)) as ([[nodes edges] kk] & E & P).
    - split; [lia|]. split; [reflexivity|]. split; [reflexivity|]. unfold hangs_so_far. cbn [seq existsb].
      split; intros j; rewrite nth_repeat; [reflexivity|now rewrite andb_false_r].
    - intros n [[nodes edges] kk] Hn (K & L1 & L2 & He & Hh). unfold hang_step. rewrite (item_at es n Hn). cbn [bind]. rewrite brother_get. cbn [bind].
      assert (Step : forall nodes' edges' kk', kk' < length ns -> length nodes' = 6 -> length edges' = 6 ->
        (forall j, nth j edges' false = nth j edges false || ((j =? n) && hanging_edge br es n)) ->
        (forall j, nth j nodes' false = nth j nodes false || ((j <? length es) && ((with_previous br es n && (n =? j)) || (with_next br es n && ((n + 1) mod length es =? j))))) ->
        kk' < length ns /\ length nodes' = 6 /\ length edges' = 6 /\ (forall j, nth j edges' false = (j <? S n) && hanging_edge br es j) /\ (forall j, nth j nodes' false = hangs_so_far (S n) j)).
      { intros nodes' edges' kk' A1 A2 A3 A4 A5. split; [exact A1|]. split; [exact A2|]. split; [exact A3|]. split; intros j.
        - rewrite A4, He. destruct (Nat.eqb_spec j n) as [->|N].
          + destruct (Nat.ltb_spec n n); [lia|]. destruct (Nat.ltb_spec n (S n)); [|lia]. reflexivity.
          + destruct (Nat.ltb_spec j n), (Nat.ltb_spec j (S n)); try lia; cbn [andb orb]; now rewrite ?orb_false_r.
        - rewrite A5, Hh. unfold hangs_so_far. rewrite seq_S, existsb_app. cbn [existsb Nat.add]. rewrite orb_false_r. now rewrite <- andb_orb_distrib_r. }
      destruct (brother br (item es n)) as [b|] eqn:Eb.
      2:{ assert (W : with_previous br es n = false /\ with_next br es n = false) by (unfold with_previous, with_next; rewrite Eb; auto). destruct W as (W1 & W2).
          eexists. split; [reflexivity|]. apply Step; auto; intros j; unfold hanging_edge; rewrite W1, W2; cbn [orb andb]; now rewrite ?andb_false_r, ?orb_false_r. }
      rewrite (around_ok es n Hn). cbn [bind].
      assert (W1 : with_previous br es n = (b =? item es (n + length es - 1))) by (unfold with_previous; rewrite Eb; reflexivity).
      assert (W2 : with_next br es n = (b =? item es (n + 1))) by (unfold with_next; rewrite Eb; reflexivity).
      assert (Mark : forall t kk, kk < length ns -> t < length ns -> exists kk', kk' < length ns /\ mark_node ns (length es) (item ns t) (length es) nodes kk = Ok (set_nth t true nodes, kk')).
      { intros t kk' Hk Ht. rewrite L. apply mark_ok; [exact Hd|exact Ht|lia|exact Hk]. }
      assert (Sn : forall t j, t < 6 -> nth j (set_nth t true nodes) false = nth j nodes false || (t =? j)).
      { intros t j Ht. rewrite nth_set by lia. rewrite (Nat.eqb_sym t j). destruct (Nat.eqb_spec j t); [now rewrite orb_true_r|now rewrite orb_false_r]. }
      assert (Se : forall j, nth j (set_nth n true edges) false = nth j edges false || ((j =? n) && true)).
      { intros j. rewrite nth_set by lia. destruct (Nat.eqb_spec j n); [now rewrite orb_true_r|now rewrite orb_false_r]. }
      destruct (Nat.eqb_spec b (item es (n + length es - 1))) as [B1|B1].
      + rewrite (common_previous m ns es H3 Hd Hc m' n Hm). cbn [bind]. rewrite vset_lt by lia. cbn [bind].
        destruct (Mark n kk K ltac:(lia)) as (kk' & K' & ->). cbn [bind]. eexists. split; [reflexivity|]. apply Step; [exact K'|now rewrite set_nth_length|now rewrite set_nth_length| |].
        * intros j. rewrite Se. unfold hanging_edge. now rewrite W1.
        * intros j. rewrite Sn by lia. f_equal. rewrite W1. destruct (with_next br es n) eqn:Wn; [exfalso; apply (with_both n); [exact W1|exact Wn]|]. cbn [andb]. rewrite orb_false_r.
          destruct (Nat.eqb_spec n j) as [->|]; [|now rewrite andb_false_r]. destruct (Nat.ltb_spec j (length es)); [reflexivity|lia].
      + destruct (Nat.eqb_spec b (item es (n + 1))) as [B2|B2].
        * rewrite (common_next m ns es H3 Hd Hc m' n Hm). cbn [bind]. rewrite vset_lt by lia. cbn [bind].
          assert (Ht : (n + 1) mod length ns < length ns) by (apply Nat.mod_upper_bound; lia).
          destruct (Mark _ kk K Ht) as (kk' & K' & Q). rewrite item_mod in Q. rewrite Q. cbn [bind]. eexists. split; [reflexivity|].
          apply Step; [exact K'|now rewrite set_nth_length|now rewrite set_nth_length| |].
          -- intros j. rewrite Se. unfold hanging_edge. now rewrite W1, W2.
          -- intros j. rewrite Sn by lia. f_equal. rewrite W1, W2. cbn [andb orb]. rewrite L.
             destruct (Nat.eqb_spec ((n + 1) mod length ns) j) as [<-|]; [|now rewrite andb_false_r]. destruct (Nat.ltb_spec ((n + 1) mod length ns) (length ns)); [reflexivity|lia].
        * cbn [bind]. eexists. split; [reflexivity|]. apply Step; auto; intros j; unfold hanging_edge; rewrite W1, W2; cbn [orb andb]; now rewrite ?andb_false_r, ?orb_false_r.
    - exists nodes, edges, kk. split; [exact E|]. tauto.
  Qed.

  Lemma hangs_all j : hangs_so_far (length es) j = (j <? length es) && hanging_node br es j.
  Proof.
    unfold hangs_so_far, hanging_node. pose proof (face_length m ns es Hc) as L. destruct (Nat.ltb_spec j (length es)) as [Hj|]; [|reflexivity]. cbn [andb].
    apply Bool.eq_iff_eq_true. rewrite existsb_exists, orb_true_iff. split.
    - intros (i & Hi & W). apply in_seq in Hi. apply orb_true_iff in W as [W|W]; apply andb_true_iff in W as [W1 W2]; apply Nat.eqb_eq in W2.
      + subst i. auto.
      + right. rewrite mod_small_or in W2 by lia. unfold with_next in *. destruct (Nat.eqb_spec i (length es - 1)) as [E|N]; rewrite <- W2.
        * cbn [Nat.add]. rewrite <- E. exact W1.
        * assert (X : i + 1 + length es - 1 = i + length es) by lia. rewrite X. rewrite item_wrap. replace (i + length es + 1) with (i + 1 + length es) by lia. now rewrite item_wrap.
    - intros [W|W].
      + exists j. split; [apply in_seq; lia|]. rewrite W, Nat.eqb_refl. reflexivity.
      + exists ((j + length es - 1) mod length es). assert (B : (j + length es - 1) mod length es < length es) by (apply Nat.mod_upper_bound; lia). split; [apply in_seq; lia|].
        apply orb_true_iff. right. apply andb_true_iff. split.
        * unfold with_next in *. rewrite item_mod. replace (item es ((j + length es - 1) mod length es + 1)) with (item es (j + length es - 1 + 1)); [exact W|].
          unfold item. now rewrite Nat.add_mod_idemp_l by lia.
        * apply Nat.eqb_eq. rewrite Nat.add_mod_idemp_l by lia. replace (j + length es - 1 + 1) with (j + 1 * length es) by lia. rewrite Nat.mod_add by lia. now apply Nat.mod_small.
  Qed.
End FaceHanging.

Definition on_positions (P : nat -> bool) (k : nat) (l : list bool) : Prop := length l = 6 /\ forall j, nth j l false = (j <? k) && P j.

Section Hanging.
  Variables (m : mesh) (f : faces).
  Hypothesis S : in_step m f.
  Hypothesis A6 : at_most_six f.

  Lemma face_get i : i < num_faces f -> exists ns es, nth_error (faces_nodes f) i = Some ns /\ nth_error (faces_edges f) i = Some es /\ nodes_of f i = ns /\ edges_of f i = es /\
    vget (faces_nodes f) i = Ok ns /\ vget (faces_edges f) i = Ok es /\ vget (num_faces_nodes f) i = Ok (length es) /\ length es = length ns /\
    3 <= length ns <= 6 /\ NoDup ns /\ cycle_of_edges m ns es /\ (forall n, In n ns -> valid_at (m_nodes m) n = true).
  Proof.
    intros Hi. destruct (st_tables m f S) as (T1 & T2 & _). unfold num_faces in *.
    destruct (nth_error (faces_nodes f) i) as [ns|] eqn:En; [|apply nth_error_None in En; lia].
    destruct (nth_error (faces_edges f) i) as [es|] eqn:Ee; [|apply nth_error_None in Ee; lia].
    destruct (st_face m f S i ns es En Ee) as (F1 & F2 & F3 & F4). exists ns, es.
    pose proof (proj1 F3) as L. split; [reflexivity|]. split; [reflexivity|]. split; [unfold nodes_of; now apply nth_error_nth|]. split; [unfold edges_of; now apply nth_error_nth|].
    split; [now apply vget_ok|]. split; [now apply vget_ok|]. split; [apply vget_ok; rewrite T2, nth_error_map, En, L; reflexivity|]. split; [exact L|].
    split; [split; [exact F1|apply A6; eapply nth_error_In; eauto]|]. auto.
  Qed.

  Variable br : list (option nat).
  Hypothesis Hb : length br = length (m_edges m).

  Lemma find_hanging_ok m' i : same_up_to m m' -> i < num_faces f -> exists nodes edges, find_hanging m' f br i = Ok (nodes, edges) /\
    on_positions (hanging_node br (edges_of f i)) (length (edges_of f i)) nodes /\ on_positions (hanging_edge br (edges_of f i)) (length (edges_of f i)) edges.
  Proof.
    intros Hm Hi. destruct (face_get i Hi) as (ns & es & G1 & G2 & G3 & G4 & G5 & G6 & G7 & G8 & G9 & G10 & G11 & G12). rewrite G4.
    unfold find_hanging. rewrite G7. cbn [bind]. destruct (Nat.ltb_spec max_edges_per_node (length es)) as [X|_]; [unfold max_edges_per_node in X; lia|].
    rewrite G5, G6. cbn [bind].
    destruct (hang_steps m ns es br (proj1 G9) G10 G11 (proj2 G9) Hb m' Hm) as (nodes & edges & kk & E & L1 & L2 & P1 & P2).
    match goal with |- context [fold_out ?g (seq 0 (length es)) ?z] => change (fold_out g (seq 0 (length es)) z) with (fold_out (hang_step ns es br m') (seq 0 (length es)) (repeat false max_edges_per_face, repeat false max_edges_per_face, length es - 1)) end.
    rewrite E. cbn [bind]. exists nodes, edges. split; [reflexivity|]. split; split; auto. intros j. rewrite P2. eapply hangs_all; eauto; apply G9.
  Qed.
End Hanging.
  Lemma count_positions P k l : on_positions P k l -> k <= 6 -> count_true l = count_of P k.
  Proof.
    intros (L & H) Hk. unfold count_true, count_of.
    assert (E : l = map P (seq 0 k) ++ repeat false (6 - k)).
    { apply (nth_ext _ _ false false); [rewrite app_length, map_length, seq_length, repeat_length; lia|]. intros j Hj. rewrite H. destruct (Nat.ltb_spec j k).
      - rewrite app_nth1 by (rewrite map_length, seq_length; lia). rewrite nth_indep with (d' := P 0) by (rewrite map_length, seq_length; lia). rewrite map_nth, seq_nth by lia. reflexivity.
      - rewrite app_nth2 by (rewrite map_length, seq_length; lia). rewrite nth_repeat. reflexivity. }
    rewrite E, filter_app, app_length. assert (Z : forall n, filter (fun b : bool => b) (repeat false n) = []) by (induction n; cbn; auto). rewrite Z. cbn. rewrite Nat.add_0_r.
    clear. induction (seq 0 k) as [|x t IH]; cbn; [reflexivity|]. destruct (P x); cbn; now rewrite IH.
  Qed.

(** Where the Casulli refinement keeps a new node. *)
From Verif Require Import Base BaseLemmas FloatModel MeshModel MeshSpec MeshProofs FaceModel FaceSpec FlipModel FlipSpec FlipProofs NodeTypeModel NodeTypeSpec NodeTypeProofs
  SplitModel RefineProofs CasulliModel CasulliSpec CasulliWalk CasulliMask.

Definition tget (table : list (list (option nat))) (e k : nat) : option nat := nth k (nth e table []) None.
Definition shaped (size : nat) (table : list (list (option nat))) : Prop := length table = size /\ forall e, e < size -> length (nth e table []) = 4.

Lemma put_ok size table e k new : shaped size table -> e < size -> k < 4 -> exists table', put_if_missing table e (Z.of_nat k) new = Ok table' /\ shaped size table' /\
  forall x y, tget table' x y = if (x =? e) && (y =? k) then match tget table e k with None => Some new | o => o end else tget table x y.
Proof.
  intros (L & R) He Hk. unfold put_if_missing. rewrite (nth_vget table e []) by lia. cbn [bind]. rewrite (proj2 (Z.ltb_ge (Z.of_nat k) 0)) by lia. rewrite Nat2Z.id.
  rewrite (nth_vget _ k None) by (rewrite R by exact He; exact Hk). cbn [bind]. fold (tget table e k). destruct (tget table e k) as [o|] eqn:Q.
  - exists table. split; [reflexivity|]. split; [split; assumption|]. intros x y. destruct (Nat.eqb_spec x e) as [->|]; cbn [andb]; [|reflexivity]. destruct (Nat.eqb_spec y k) as [->|]; [exact Q|reflexivity].
  - rewrite vset_lt by (rewrite R by exact He; exact Hk). cbn [bind]. rewrite vset_lt by lia. eexists. split; [reflexivity|]. split.
    + split; [now rewrite set_nth_length|]. intros x Hx. rewrite nth_set by lia. destruct (Nat.eqb_spec x e) as [->|]; [rewrite set_nth_length; auto|auto].
    + intros x y. unfold tget. rewrite nth_set by lia. destruct (Nat.eqb_spec x e) as [->|]; cbn [andb]; [|reflexivity]. rewrite nth_set by (rewrite R by exact He; exact Hk). reflexivity.
Qed.

Lemma goes_ok m f i a b e : in_step m f -> (goes f i a b e = true <-> walks f i a b e).
Proof.
  intros I. unfold goes. rewrite existsb_exists. split.
  - intros (k & Hk & H). apply in_seq in Hk. destruct (nth_error (faces_nodes f) i) as [ns|] eqn:H1.
    + destruct (face_both m f I i ns H1) as (es & H2). rewrite (nth_error_nth _ _ [] H1), (nth_error_nth _ _ [] H2) in H.
      destruct (cyclic ns k) as [a'|] eqn:Ca; [|discriminate]. destruct (cyclic ns (S k)) as [b'|] eqn:Cb; [|discriminate]. destruct (cyclic es k) as [e'|] eqn:Ce; [|discriminate].
      apply andb_prop in H as (H & X3). apply andb_prop in H as (X1 & X2). apply Nat.eqb_eq in X1, X2, X3. subst. exists ns, es, k. auto.
    + apply nth_error_None in H1. rewrite nth_overflow in Hk by exact H1. cbn in Hk. lia.
  - intros (ns & es & k & H1 & H2 & Ha & Hb & He). rewrite (nth_error_nth _ _ [] H1), (nth_error_nth _ _ [] H2). destruct (face_parts m f I i ns es H1 H2) as (L3 & _ & Le & Nn & Ne & _).
    exists (k mod length ns). split; [apply in_seq; pose proof (Nat.mod_upper_bound k (length ns) ltac:(lia)); lia|].
    rewrite (cyclic_mod ns k Nn), (cyclic_next ns k Nn), Ha, Hb. rewrite <- Le, (cyclic_mod es k Ne), He, !Nat.eqb_refl. reflexivity.
Qed.

Section Slots.
  Variable m : mesh.
  Variable f : faces.
  Hypothesis I : in_step m f.
  Hypothesis O : oriented f.
  Hypothesis A : apart f.
  Local Notation N := (length (m_nodes m)).
  Local Notation E := (length (m_edges m)).

  (** 1 when face [i] goes along [e] from its first to its second node. *)
  Definition dir (i e : nat) : nat := match edge_at m e with (Some a, Some b) => if goes f i a b e then 1 else 0 | _ => 0 end.
  Definition bit (e n : nat) : nat := if eq_idx (fst (edge_at m e)) (Some n) then 0 else 1.
  Definition slot (e n d : nat) : nat := bit e n + 2 * d.

  Lemma dir_le i e : dir i e <= 1.
  Proof. unfold dir. destruct (edge_at m e) as ([a|] & [b|]); try lia. destruct (goes f i a b e); lia. Qed.
  Lemma bit_le e n : bit e n <= 1.
  Proof. unfold bit. destruct (eq_idx _ _); lia. Qed.
  Lemma slot_lt e n d : d <= 1 -> slot e n d < 4.
  Proof. intros H. pose proof (bit_le e n). unfold slot. lia. Qed.
  Lemma bit_inj e n n' i : lists f i e -> ends_in (edge_at m e) n -> ends_in (edge_at m e) n' -> bit e n = bit e n' -> n = n'.
  Proof.
    intros L E1 E2 H. destruct (used_ends m f I e i L) as (a & b & Ee & D & _). unfold bit in H. rewrite Ee in *. destruct E1 as [X|X], E2 as [Y|Y]; cbn in X, Y, H; injection X as ->; injection Y as ->; try reflexivity;
    rewrite Nat.eqb_refl in H; [destruct (Nat.eqb_spec n n')|destruct (Nat.eqb_spec n' n)]; congruence.
  Qed.
  Lemma slot_inj e n n' d d' i : lists f i e -> ends_in (edge_at m e) n -> ends_in (edge_at m e) n' -> d <= 1 -> d' <= 1 -> slot e n d = slot e n' d' -> n = n' /\ d = d'.
  Proof.
    intros L E1 E2 D1 D2 H. pose proof (bit_le e n). pose proof (bit_le e n'). unfold slot in H. assert (bit e n = bit e n' /\ d = d') as (X & Y) by lia. split; [eapply bit_inj; eauto|exact Y].
  Qed.
  Lemma dir_walks i e : lists f i e -> exists a b, edge_at m e = (Some a, Some b) /\ a <> b /\ a < N /\ b < N /\ ((dir i e = 1 /\ walks f i a b e) \/ (dir i e = 0 /\ walks f i b a e)).
  Proof.
    intros L. destruct (listed_walks m f I i e L) as (u & v & W). destruct (walks_facts m f I i u v e W) as (D & _ & _ & B1 & B2 & _). unfold dir. destruct (walks_ends m f I i u v e W) as [Q|Q]; rewrite Q.
    - exists u, v. split; [reflexivity|]. split; [exact D|]. split; [exact B1|]. split; [exact B2|]. left. rewrite (proj2 (goes_ok m f i u v e I) W). auto.
    - exists v, u. split; [reflexivity|]. split; [congruence|]. split; [exact B2|]. split; [exact B1|]. right. destruct (goes f i v u e) eqn:G; [|auto]. apply (goes_ok m f i v u e I) in G. exfalso. exact (walks_turn m f I _ _ _ _ _ W G).
  Qed.
  Lemma dir_fwd i a b e : edge_at m e = (Some a, Some b) -> walks f i a b e -> dir i e = 1.
  Proof. intros Q W. unfold dir. rewrite Q, (proj2 (goes_ok m f i a b e I) W). reflexivity. Qed.
  Lemma dir_bwd i a b e : edge_at m e = (Some a, Some b) -> walks f i b a e -> dir i e = 0.
  Proof. intros Q W. unfold dir. rewrite Q. destruct (goes f i a b e) eqn:G; [|reflexivity]. apply (goes_ok m f i a b e I) in G. exfalso. exact (walks_turn m f I _ _ _ _ _ W G). Qed.
  Lemma dir_inj i j e : lists f i e -> lists f j e -> dir i e = dir j e -> i = j.
  Proof.
    intros Li Lj H. destruct (dir_walks i e Li) as (a & b & Ee & _ & _ & _ & Wi). destruct (dir_walks j e Lj) as (a' & b' & Ee' & _ & _ & _ & Wj). rewrite Ee in Ee'. injection Ee' as <- <-.
    destruct Wi as [(D1 & W1)|(D1 & W1)], Wj as [(D2 & W2)|(D2 & W2)]; try lia; eapply O; eassumption.
  Qed.

  Section Edges.
    Variable m' : mesh.
    Hypothesis Em : m_edges m' = m_edges m.

    Lemma edge_get' e : e < E -> vget (m_edges m') e = Ok (edge_at m e).
    Proof. intros H. rewrite Em. unfold edge_at. now apply nth_vget. Qed.
    Lemma start_ok e n : e < E -> ends_in (edge_at m e) n -> start_or_end m' e n = Ok (Z.of_nat (bit e n)).
    Proof.
      intros He H. unfold start_or_end. rewrite edge_get' by exact He. cbn [bind]. unfold bit. destruct (eq_idx (fst (edge_at m e)) (Some n)) eqn:Q; [reflexivity|].
      destruct H as [H|H]; rewrite H in *; [cbn in Q; rewrite Nat.eqb_refl in Q; discriminate|]. cbn. rewrite Nat.eqb_refl. reflexivity.
    Qed.

    Lemma edge_and_next_ok e last je jx : je <> jx -> forall es j acc,
      (forall t y, nth_error es t = Some y -> y < E /\ (y = e <-> j + t = je) /\ (y <> e -> (eq_idx (fst (edge_at m y)) last || eq_idx (snd (edge_at m y)) last = true <-> j + t = jx))) ->
      edge_and_next m' e last j es acc =
      Ok (if (j <=? je) && (je <? j + length es) then Some je else fst acc, if (j <=? jx) && (jx <? j + length es) then Some jx else snd acc).
    Proof.
      intros D. induction es as [|y es IH]; intros j acc H; cbn [edge_and_next length].
      - rewrite Nat.add_0_r. replace ((j <=? je) && (je <? j)) with false by (destruct (Nat.leb_spec j je), (Nat.ltb_spec je j); cbn; lia || reflexivity).
        replace ((j <=? jx) && (jx <? j)) with false by (destruct (Nat.leb_spec j jx), (Nat.ltb_spec jx j); cbn; lia || reflexivity). now destruct acc.
      - assert (H' : forall t z, nth_error es t = Some z -> z < E /\ (z = e <-> S j + t = je) /\ (z <> e -> (eq_idx (fst (edge_at m z)) last || eq_idx (snd (edge_at m z)) last = true <-> S j + t = jx))).
        { intros t z Hz. specialize (H (S t) z Hz). replace (S j + t) with (j + S t) by lia. exact H. }
        destruct (H 0 y eq_refl) as (By & He & Hx). rewrite Nat.add_0_r in He, Hx.
        assert (B : forall q, j <> q -> (j <=? q) && (q <? j + S (length es)) = (S j <=? q) && (q <? S j + length es)).
        { intros q Hq. replace (S j + length es) with (j + S (length es)) by lia. f_equal. destruct (Nat.leb_spec j q), (Nat.leb_spec (S j) q); lia || reflexivity. }
        assert (B0 : (j <=? j) && (j <? j + S (length es)) = true) by (rewrite Nat.leb_refl; apply Nat.ltb_lt; lia).
        assert (B1 : (S j <=? j) && (j <? S j + length es) = false) by (rewrite (proj2 (Nat.leb_gt (S j) j)) by lia; reflexivity).
        destruct (Nat.eqb_spec y e) as [Q|Q].
        + apply He in Q. subst je. rewrite IH by exact H'. cbn [fst snd]. rewrite B0, B1. rewrite (B jx) by exact D. reflexivity.
        + rewrite edge_get' by exact By. cbn [bind]. specialize (Hx Q). assert (j <> je) by (intros X; apply Q, He, X). rewrite (B je) by assumption.
          destruct (eq_idx (fst (edge_at m y)) last || eq_idx (snd (edge_at m y)) last) eqn:Z.
          * assert (j = jx) by (now apply Hx). subst jx. rewrite IH by exact H'. cbn [fst snd]. rewrite B0, B1. reflexivity.
          * assert (j <> jx) by (intros X; apply Hx in X; discriminate). rewrite IH by exact H'. rewrite (B jx) by assumption. reflexivity.
    Qed.
    Lemma lr_ok i e : lists f i e -> left_or_right m' f i e = Ok (1 - Z.of_nat (dir i e))%Z.
    Proof.
      intros L. destruct (dir_walks i e L) as (a & b & Ee & Dab & _ & _ & W). destruct (lists_lt m f I i e L) as (_ & He). destruct L as (es & Es & Ine). destruct (face_both' m f I i es Es) as (ns & Ns).
      destruct (face_parts m f I i ns es Ns Es) as (L3 & _ & Le & Nn & Ne & _ & Be). pose proof (edges_nodup m f I i es Es) as ND.
      unfold left_or_right. rewrite edge_get' by exact He. cbn [bind]. rewrite (vget_some _ _ _ Es). cbn [bind]. rewrite Ee. cbn [snd].
      assert (Cnt : vget (num_faces_nodes f) i = Ok (length es)).
      { destruct (st_tables m f I) as (T1 & T2 & _). apply vget_some. rewrite T2, nth_error_map, Ns, Le. reflexivity. }
      assert (Go : forall je jx x, je <> jx -> je < length es -> jx < length es -> nth_error es je = Some e -> nth_error es jx = Some x -> ends_in (edge_at m x) b -> (jx = (je + 1) mod length es \/ je = (jx + 1) mod length es) ->
        (let! x := edge_and_next m' e (Some b) 0 es (None, None) in
         match x with
         | (Some j, Some k) => let! count := vget (num_faces_nodes f) i in
             Ok (if (k =? j + 1) || (k + count =? j + 1) then 0%Z else if (j =? k + 1) || (j + count =? k + 1) then 1%Z else (-1)%Z)
         | _ => Ok (-1)%Z end) = Ok (if jx =? (je + 1) mod length es then 0%Z else 1%Z)).
      { intros je jx x Dj Bj Bx He' Hx Ex Pl. rewrite (edge_and_next_ok e (Some b) je jx Dj es 0 (None, None)).
        - cbn [bind Nat.leb Nat.add fst snd]. rewrite (proj2 (Nat.ltb_lt je _) Bj), (proj2 (Nat.ltb_lt jx _) Bx). cbn [andb]. rewrite Cnt. cbn [bind]. f_equal.
          pose proof (mod_small_or je (length es) Bj) as M1. pose proof (mod_small_or jx (length es) Bx) as M2. rewrite M1 in Pl |- *. rewrite M2 in Pl.
          destruct (Nat.eqb_spec je (length es - 1)), (Nat.eqb_spec jx (length es - 1)).
          all: repeat match goal with |- context [?x =? ?y] => destruct (Nat.eqb_spec x y); cbn [orb] end; try reflexivity; lia.
        - intros t y Ht. cbn [Nat.add]. assert (Iny : In y es) by (eapply nth_error_In; eauto). split; [now apply Be|]. split.
          + split; [intros ->|intros ->; congruence]. apply (proj1 (NoDup_nth_error es) ND); [apply nth_error_Some; congruence|congruence].
          + intros Dy. assert (Z : eq_idx (fst (edge_at m y)) (Some b) || eq_idx (snd (edge_at m y)) (Some b) = true <-> ends_in (edge_at m y) b) by apply touches_ends. rewrite Z. split.
            * intros Ey. assert (Q : y = e \/ y = x).
              { assert (e <> x) by (intros ->; apply Dj; apply (proj1 (NoDup_nth_error es) ND); [lia|congruence]).
                apply (face_two m f I i b e x y); [exists es; auto|exists es; split; [exact Es|eapply nth_error_In; eauto]|exists es; auto|rewrite Ee; right; reflexivity|exact Ex|exact Ey|assumption]. }
              destruct Q as [->| ->]; [congruence|]. apply (proj1 (NoDup_nth_error es) ND); [apply nth_error_Some; congruence|congruence].
            * intros ->. rewrite Hx in Ht. injection Ht as <-. exact Ex. }
      assert (Pos : forall k x, cyclic es k = Some x -> exists j, j = k mod length es /\ j < length es /\ nth_error es j = Some x).
      { intros k x Hk. exists (k mod length es). split; [reflexivity|]. split; [apply Nat.mod_upper_bound; lia|exact Hk]. }
      assert (Far : forall k, k mod length es <> (k + 1) mod length es).
      { intros k X. pose proof (Nat.mod_upper_bound k (length es) ltac:(lia)) as Bk. rewrite <- Nat.add_mod_idemp_l in X by lia. rewrite mod_small_or in X by exact Bk. destruct (Nat.eqb_spec (k mod length es) (length es - 1)); lia. }
      destruct W as [(-> & (ns' & es' & k & H1 & H2 & Ha & Hb & Hk))|(-> & (ns' & es' & k & H1 & H2 & Ha & Hb & Hk))]; rewrite Ns in H1; injection H1 as <-; rewrite Es in H2; injection H2 as <-.
      - destruct (cyclic_some es (S k) Ne) as (x & Hx). destruct (cyclic_some ns (S (S k)) Nn) as (c & Hc). assert (Wx : walks f i b c x) by (exists ns, es, (S k); auto).
        destruct (walks_facts m f I i b c x Wx) as (_ & J & _). destruct (Pos k e Hk) as (je & Ej & Bj & Xj), (Pos (S k) x Hx) as (jx & Ex & Bx & Xx).
        assert (Q : jx = (je + 1) mod length es) by (subst; rewrite Nat.add_mod_idemp_l by lia; now rewrite Nat.add_1_r).
        rewrite (Go je jx x); [|subst je jx; rewrite <- Nat.add_1_r; apply Far|exact Bj|exact Bx|exact Xj|exact Xx|apply (joins_end _ _ _ J)|now left]. rewrite Q, Nat.eqb_refl. reflexivity.
      - (* the edge before *)
        set (k0 := k + length es - 1). assert (Sk : S k0 = k + 1 * length es) by (unfold k0; lia).
        assert (Cy : forall (l : list nat), length l = length es -> cyclic l (S k0) = cyclic l k) by (intros l Hl; unfold cyclic; rewrite Sk, Hl, Nat.mod_add by lia; reflexivity).
        destruct (cyclic_some es k0 Ne) as (x & Hx). destruct (cyclic_some ns k0 Nn) as (c & Hc). assert (Wx : walks f i c b x) by (exists ns, es, k0; rewrite (Cy ns) by lia; auto).
        destruct (walks_facts m f I i c b x Wx) as (_ & J & _). destruct (Pos k e Hk) as (je & Ej & Bj & Xj), (Pos k0 x Hx) as (jx & Ex & Bx & Xx).
        assert (Q : je = (jx + 1) mod length es) by (subst; rewrite Nat.add_mod_idemp_l by lia; rewrite Nat.add_1_r, Sk, Nat.mod_add by lia; reflexivity).
        assert (Q' : jx <> (je + 1) mod length es).
        { rewrite Q, Nat.add_mod_idemp_l by lia. intros X. apply (mod_two jx (length es) ltac:(lia)). replace (S (S jx)) with (jx + 1 + 1) by lia. rewrite <- X. symmetry. now apply Nat.mod_small. }
        rewrite (Go je jx x); [|intros X; apply (Far jx); rewrite (Nat.mod_small jx) by exact Bx; congruence|exact Bj|exact Bx|exact Xj|exact Xx|apply (joins_end _ _ _ J)|now right].
        destruct (Nat.eqb_spec jx ((je + 1) mod length es)); [congruence|reflexivity].
    Qed.

    Lemma first_faces_ok e k p : nth_error (edges_num_faces f) e = Some k -> k <= 2 ->
      (1 <= k -> exists i, fst p = Some i) -> (2 <= k -> exists i, snd p = Some i) -> (forall i, lists f i e <-> 1 <= k /\ fst p = Some i \/ 2 <= k /\ snd p = Some i) ->
      exists l, first_faces k p = Ok l /\ forall o, In o l <-> exists i, o = Some i /\ lists f i e.
    Proof.
      intros _ Hk X Y Z. destruct k as [|[|[|k]]]; [| | |lia]; cbn [first_faces]; eexists; (split; [reflexivity|]); intros o.
      - split; [easy|]. intros (i & _ & L). apply Z in L as [(L & _)|(L & _)]; lia.
      - destruct (X ltac:(lia)) as (i & Hi). rewrite Hi. split.
        + intros [<-|[]]. exists i. split; [reflexivity|]. apply Z. left. split; [lia|exact Hi].
        + intros (j & -> & L). apply Z in L as [(_ & L)|(L & _)]; [|lia]. left. congruence.
      - destruct (X ltac:(lia)) as (i & Hi), (Y ltac:(lia)) as (i' & Hi'). rewrite Hi, Hi'. split.
        + intros [<-|[<-|[]]]; [exists i|exists i']; (split; [reflexivity|]); apply Z; [left|right]; (split; [lia|assumption]).
        + intros (j & -> & L). apply Z in L as [(_ & L)|(_ & L)]; [left|right; left]; congruence.
    Qed.
    Lemma common_ok e1 e2 i : lists f i e1 -> lists f i e2 -> (forall j, lists f j e1 -> lists f j e2 -> j = i) -> common_face f e1 e2 = Ok (Some i).
    Proof.
      intros L1 L2 U. destruct (lists_lt m f I i e1 L1) as (_ & B1), (lists_lt m f I i e2 L2) as (_ & B2).
      destruct (faces_recorded m f I e1 B1) as (k1 & p & A1 & A2 & A3 & _ & _ & A5 & A6 & A7 & _), (faces_recorded m f I e2 B2) as (k2 & q & C1 & C2 & C3 & _ & _ & C5 & C6 & C7 & _).
      unfold common_face. rewrite (vget_some _ _ _ A1), (vget_some _ _ _ C1), (vget_some _ _ _ A2), (vget_some _ _ _ C2). cbn [bind].
      destruct (first_faces_ok e1 k1 p A1 A3 A5 A6 A7) as (l1 & -> & H1), (first_faces_ok e2 k2 q C1 C3 C5 C6 C7) as (l2 & -> & H2). cbn [bind]. f_equal.
      assert (Q : forall x, existsb (eq_idx (Some x)) l2 = true <-> lists f x e2).
      { intros x. rewrite existsb_exists. split.
        - intros (o & Ho & X). apply H2 in Ho as (j & -> & L). cbn in X. apply Nat.eqb_eq in X. now subst.
        - intros L. exists (Some x). split; [apply H2; eauto|cbn; apply Nat.eqb_refl]. }
      destruct (find (fun x => existsb (eq_idx x) l2) l1) as [o|] eqn:F.
      - apply find_some in F as (Ho & X). apply H1 in Ho as (j & -> & L). apply Q in X. f_equal. now apply U.
      - exfalso. pose proof (find_none _ _ F (Some i) (proj2 (H1 (Some i)) (ex_intro _ i (conj eq_refl L1)))) as X. cbn beta in X. rewrite (proj2 (Q i) L2) in X. discriminate.
    Qed.

    Lemma store_corner i n e1 e2 new table : shaped E table -> e1 <> e2 -> lists f i e1 -> lists f i e2 -> ends_in (edge_at m e1) n -> ends_in (edge_at m e2) n ->
      exists table', store m' f n e1 e2 new table = Ok table' /\ shaped E table' /\
      forall x k, tget table' x k = if ((x =? e1) || (x =? e2)) && (k =? slot x n (dir i x)) then match tget table x k with None => Some new | o => o end else tget table x k.
    Proof.
      intros S D L1 L2 N1 N2. destruct (lists_lt m f I i e1 L1) as (_ & B1), (lists_lt m f I i e2 L2) as (_ & B2). unfold store.
      rewrite (common_ok e1 e2 i L1 L2) by (intros j X Y; eapply A; eauto). cbn [bind]. rewrite (lr_ok i e1 L1), (lr_ok i e2 L2). cbn [bind]. rewrite (start_ok e1 n B1 N1), (start_ok e2 n B2 N2). cbn [bind].
      destruct (Nat.eqb_spec e1 e2); [congruence|].
      assert (Q : forall e, (Z.of_nat (bit e n) + 2 * (1 - (1 - Z.of_nat (dir i e))))%Z = Z.of_nat (slot e n (dir i e))) by (intros e; unfold slot; lia). rewrite !Q. clear Q.
      destruct (put_ok E table e1 _ new S B1 (slot_lt e1 n _ (dir_le i e1))) as (t1 & -> & S1 & G1). cbn [bind].
      destruct (put_ok E t1 e2 _ new S1 B2 (slot_lt e2 n _ (dir_le i e2))) as (t2 & -> & S2 & G2). exists t2. split; [reflexivity|]. split; [exact S2|].
      intros x k. rewrite G2, !G1. destruct (Nat.eqb_spec x e2) as [->|D2]; cbn [andb orb].
      - rewrite (proj2 (Nat.eqb_neq e2 e1)) by congruence. cbn [andb orb]. destruct (Nat.eqb_spec k (slot e2 n (dir i e2))) as [->|]; reflexivity.
      - rewrite orb_false_r. destruct (Nat.eqb_spec x e1) as [->|D1]; cbn [andb]; [|reflexivity]. destruct (Nat.eqb_spec k (slot e1 n (dir i e1))) as [->|]; reflexivity.
    Qed.
    Lemma store_side i n e new table : shaped E table -> lists f i e -> (forall j, lists f j e -> j = i) -> ends_in (edge_at m e) n ->
      exists table', store m' f n e e new table = Ok table' /\ shaped E table' /\
      forall x k, tget table' x k = if (x =? e) && (k =? slot x n (1 - dir i x)) then match tget table x k with None => Some new | o => o end else tget table x k.
    Proof.
      intros S L U Nn. destruct (lists_lt m f I i e L) as (_ & B). unfold store. rewrite (common_ok e e i L L) by (intros j X _; now apply U). cbn [bind]. rewrite (lr_ok i e L). cbn [bind]. rewrite (start_ok e n B Nn). cbn [bind].
      rewrite Nat.eqb_refl. pose proof (dir_le i e) as D. assert (Q : (Z.of_nat (bit e n) + 2 * (1 - (1 - (1 - Z.of_nat (dir i e)))))%Z = Z.of_nat (slot e n (1 - dir i e))) by (unfold slot; lia). rewrite !Q. clear Q.
      destruct (put_ok E table e _ new S B (slot_lt e n (1 - dir i e) ltac:(lia))) as (t1 & -> & S1 & G1). cbn [bind].
      destruct (put_ok E t1 e _ new S1 B (slot_lt e n (1 - dir i e) ltac:(lia))) as (t2 & -> & S2 & G2). exists t2. split; [reflexivity|]. split; [exact S2|].
      intros x k. rewrite G2, !G1. rewrite !Nat.eqb_refl. cbn [andb]. destruct (Nat.eqb_spec x e) as [->|]; cbn [andb]; [|reflexivity]. destruct (Nat.eqb_spec k (slot e n (1 - dir i e))) as [->|]; [|reflexivity].
      destruct (tget table e _); reflexivity.
    Qed.

    Lemma edges_at_some n : forall es x, (forall e, In e es -> e < E) -> (exists y, In y es /\ ends_in (edge_at m y) n) ->
      exists y, edges_at m' n es (Some x) = Ok (Some x, Some y) /\ In y es /\ ends_in (edge_at m y) n.
    Proof.
      induction es as [|z es IH]; intros x Hb (y & Hy & Ey); [easy|]. cbn [edges_at]. unfold get_edge. rewrite Em, (nth_error_nth' _ missing_edge (Hb z (or_introl eq_refl))). cbn [bind]. fold (edge_at m z).
      destruct (touches (edge_at m z) n) eqn:T.
      - exists z. split; [reflexivity|]. split; [now left|now apply touches_ends].
      - destruct (IH x) as (y' & H & H1 & H2); [intros; apply Hb; now right| |].
        + exists y. split; [|exact Ey]. destruct Hy as [->|Hy]; [|exact Hy]. apply touches_ends in Ey. congruence.
        + exists y'. split; [exact H|]. split; [now right|exact H2].
    Qed.
    Lemma edges_at_ok n : forall es, NoDup es -> (forall e, In e es -> e < E) -> (exists x y, In x es /\ In y es /\ x <> y /\ ends_in (edge_at m x) n /\ ends_in (edge_at m y) n) ->
      exists x y, edges_at m' n es None = Ok (Some x, Some y) /\ x <> y /\ In x es /\ In y es /\ ends_in (edge_at m x) n /\ ends_in (edge_at m y) n.
    Proof.
      induction es as [|z es IH]; intros ND Hb (x & y & Hx & Hy & D & Ex & Ey); [easy|]. inversion ND as [|? ? Nz ND']; subst. cbn [edges_at]. unfold get_edge. rewrite Em, (nth_error_nth' _ missing_edge (Hb z (or_introl eq_refl))). cbn [bind]. fold (edge_at m z).
      destruct (touches (edge_at m z) n) eqn:T.
      - destruct (edges_at_some n es z) as (y' & H & H1 & H2); [intros; apply Hb; now right| |].
        + destruct Hx as [->|Hx]; [exists y|exists x]; (split; [|assumption]); [destruct Hy as [->|Hy]; [congruence|exact Hy]|exact Hx].
        + exists z, y'. split; [exact H|]. split; [intros ->; contradiction|]. split; [now left|]. split; [now right|]. split; [now apply touches_ends|exact H2].
      - assert (Nt : forall w, In w (z :: es) -> ends_in (edge_at m w) n -> In w es) by (intros w [->|Hw] Ew; [apply touches_ends in Ew; congruence|exact Hw]).
        destruct (IH ND') as (x' & y' & H & H1 & H2 & H3 & H4 & H5); [intros; apply Hb; now right|exists x, y; auto 10|]. exists x', y'. cbn [In]. auto 10.
    Qed.
  End Edges.
End Slots.

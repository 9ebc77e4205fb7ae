(** The search for brothers. *)
From Verif Require Import Base BaseLemmas FloatModel UtilModel UndoModel ActionModel MeshModel MeshSpec MeshProofs MeshEdits FaceModel FaceSpec FlipSpec ConvertModel FlipModel NodeTypeProofs
  RefineModel RefineSpec RefineProofs.

Lemma other_end e n o : joins e n o -> other_node e n = Some o.
Proof.
  intros [H|H]; rewrite H; unfold other_node; cbn.
  - now rewrite Nat.eqb_refl.
  - destruct (Nat.eqb_spec o n) as [->|]; reflexivity.
Qed.

Lemma put_brother (l : list (option nat)) a b x n : length l = n -> a < n -> b < n -> brother (set_nth b (Some a) (set_nth a (Some b) l)) x = if x =? b then Some a else if x =? a then Some b else brother l x.
Proof. intros L Ha Hb. unfold brother. rewrite nth_set by (rewrite set_nth_length; lia). rewrite nth_set by lia. reflexivity. Qed.

Section Brothers.
  Variable centred : point -> point -> point -> bool.
  Variables (m : mesh) (f : faces).
  Hypothesis St : in_step m f.
  Local Notation N := (length (m_nodes m)).
  Local Notation E := (length (m_edges m)).

  Lemma sides_of_ok e : e < E -> (sides_of f e = Ok None /\ forall i, ~ lists f i e) \/ exists x y, sides_of f e = Ok (Some (Some x, Some y)) /\ forall i, lists f i e <-> i = x \/ i = y.
  Proof.
    intros He. destruct (st_edge m f St e He) as (p & q & H1 & H2 & H3 & H4 & H5). unfold sides_of. rewrite (proj2 (vget_ok _ _ _) H5). cbn [bind]. destruct p as [i|].
    - right. destruct q as [j|]; cbn [known Nat.add Nat.ltb Nat.leb]; rewrite (proj2 (vget_ok _ _ _) H1); cbn [bind fst snd Nat.eqb].
      + exists i, j. split; [reflexivity|]. intros x. rewrite H2. split; (intros [X|X]; [left|right]; congruence).
      + exists i, i. split; [reflexivity|]. intros x. rewrite H2. split; intros [X|X]; try discriminate; left; congruence.
    - left. rewrite (H4 eq_refl). split; [reflexivity|]. intros i. rewrite H2, (H4 eq_refl). intros [X|X]; discriminate.
  Qed.
  Lemma node_lookup n : n < N -> node_of m (Some n) = Ok (nth n (m_nodes m) missing_point).
  Proof. intros H. unfold node_of. now rewrite (nth_error_nth' _ missing_point H). Qed.

  Lemma step_ok n j l : n < N -> j < degree_of m n -> length l = E ->
    exists l', brothers_at centred m f n (row_of m n) (degree_of m n) l j = Ok l' /\
      ((l' = l /\ forall a b, ~ halves_at centred m f n j a b) \/
       exists a b, halves_at centred m f n j a b /\ a < E /\ b < E /\ l' = set_nth b (Some a) (set_nth a (Some b) l)).
  Proof.
    intros Hn Hj Hl. destruct (st_row m f St n Hn) as (D & ND & R).
    assert (G : forall x, x < degree_of m n -> exists e o, vget (row_of m n) x = Ok (Some e) /\ nth x (row_of m n) None = Some e /\ e < E /\ joins (edge_at m e) n o /\ o < N).
    { intros x Hx. assert (Hin : In (nth x (row_of m n) None) (row_of m n)) by (apply nth_In; lia). destruct (R _ Hin) as (e & o & X & He & J & _). exists e, o. rewrite X.
      split; [apply vget_ok; rewrite <- X; apply nth_error_nth'; lia|]. split; [reflexivity|]. split; [exact He|]. split; [exact J|].
      apply (co_ends m (st_mesh m f St) (edge_at m e)); [unfold edge_at; now apply nth_In|]. destruct J as [J|J]; rewrite J; [now right|now left]. }
    assert (Hj' : (j + 1) mod degree_of m n < degree_of m n) by (apply Nat.mod_upper_bound; lia).
    destruct (G j Hj) as (a & pa & Va & Na & Ea & Ja & Pa). destruct (G _ Hj') as (b & pb & Vb & Nb & Eb & Jb & Pb).
    unfold brothers_at. rewrite Va. cbn [bind]. rewrite next_forward_ok by exact Hj. cbn [bind]. rewrite Vb. cbn [bind].
    assert (No : (forall i, lists f i a -> lists f i b -> False) -> forall x y, ~ halves_at centred m f n j x y).
    { intros H x y (_ & _ & X & Y & (i & I1 & I2) & _). assert (x = a) by congruence. assert (y = b) by congruence. subst. eauto. }
    destruct (sides_of_ok a Ea) as [(-> & La)|(al & ar & -> & La)]; cbn [bind]; [exists l; split; [reflexivity|]; left; split; [reflexivity|]; apply No; intros i I _; now apply (La i)|].
    destruct (sides_of_ok b Eb) as [(-> & Lb)|(bl & br & -> & Lb)]; cbn [bind]; [exists l; split; [reflexivity|]; left; split; [reflexivity|]; apply No; intros i _ I; now apply (Lb i)|].
    cbn [eq_idx]. destruct ((al =? bl) || (al =? br) || (ar =? bl) || (ar =? br)) eqn:Sh; cbn [negb].
    - assert (Sf : exists i, lists f i a /\ lists f i b).
      { rewrite !orb_true_iff, !Nat.eqb_eq in Sh. destruct Sh as [[[Q|Q]|Q]|Q]; [exists al|exists al|exists ar|exists ar]; (split; [apply La; tauto|apply Lb; subst; tauto]). }
      assert (Ge : forall e, e < E -> vget (m_edges m) e = Ok (edge_at m e)) by (intros e He; apply vget_ok; unfold edge_at; now apply nth_error_nth').
      rewrite !Ge by assumption. cbn [bind]. rewrite (other_end _ _ _ Ja), (other_end _ _ _ Jb), !node_lookup by assumption. cbn [bind].
      destruct (centred _ _ _) eqn:Ce.
      + rewrite vset_lt by lia. cbn [bind]. rewrite vset_lt by (rewrite set_nth_length; lia). eexists. split; [reflexivity|]. right. exists a, b. split; [|auto]. repeat (split; [assumption|]). exists pa, pb. auto.
      + exists l. split; [reflexivity|]. left. split; [reflexivity|]. intros x y (_ & _ & X & Y & _ & (p & q & P & Q & C)). assert (x = a) by congruence. assert (y = b) by congruence. subst.
        assert (p = pa) by (apply other_end in P; apply other_end in Ja; congruence). assert (q = pb) by (apply other_end in Q; apply other_end in Jb; congruence). subst. congruence.
    - exists l. split; [reflexivity|]. left. split; [reflexivity|]. apply No. intros i I1 I2. apply La in I1. apply Lb in I2. rewrite !orb_false_iff, !Nat.eqb_neq in Sh. destruct I1, I2; subst; tauto.
  Qed.

  Definition found (l : list (option nat)) : Prop := length l = E /\ (forall a b, brother l a = Some b -> a < E /\ halves centred m f a b).
  Definition has (l : list (option nat)) (a : nat) : Prop := brother l a <> None.
  Lemma found_step n j l l' : n < N -> j < degree_of m n -> found l -> brothers_at centred m f n (row_of m n) (degree_of m n) l j = Ok l' ->
    found l' /\ (forall a, has l a -> has l' a) /\ forall a b, halves_at centred m f n j a b -> has l' a /\ has l' b.
  Proof.
    intros Hn Hj (L & F) E1. destruct (step_ok n j l Hn Hj L) as (l2 & E2 & [(-> & No)|(a & b & H & Ha & Hb & ->)]); rewrite E1 in E2; injection E2 as ->.
    - split; [split; assumption|]. split; [auto|]. intros a b X. destruct (No a b X).
    - split; [|split].
      + split; [now rewrite !set_nth_length|]. intros x y Q. rewrite (put_brother _ _ _ _ _ L) in Q by assumption.
        destruct (Nat.eqb_spec x b) as [->|]; [injection Q as <-; split; [assumption|exists n, j; auto]|].
        destruct (Nat.eqb_spec x a) as [->|]; [injection Q as <-; split; [assumption|exists n, j; auto]|]. apply F, Q.
      + intros x Q. unfold has in *. rewrite (put_brother _ _ _ _ _ L) by assumption. destruct (x =? b); [discriminate|]. destruct (x =? a); [discriminate|exact Q].
      + intros x y (_ & _ & X & Y & _). destruct H as (_ & _ & X' & Y' & _). assert (x = a) by congruence. assert (y = b) by congruence. subst. unfold has. rewrite !(put_brother _ _ _ _ _ L) by assumption.
        rewrite Nat.eqb_refl. destruct (a =? b); rewrite ?Nat.eqb_refl; split; discriminate.
  Qed.
  Theorem find_brothers_ok : exists l, find_brothers centred m f = Ok l /\ length l = E /\
    (forall a b, brother l a = Some b -> a < E /\ halves centred m f a b) /\ (forall a b, halves centred m f a b -> brother l a <> None).
  Proof.
    unfold find_brothers.
    match goal with |- exists l, fold_out ?g _ _ = _ /\ _ => destruct (fold_range (fun n l => found l /\ forall n' j a b, n' < n -> halves_at centred m f n' j a b -> has l a /\ has l b) g N (repeat None E)) as (l & -> & (L & F) & H) end.
    - split; [|intros; lia]. split; [apply repeat_length|]. intros a b Q. unfold brother in Q. rewrite nth_repeat in Q. discriminate.
    - intros n l Hn (F & H). pose proof (st_mesh m f St) as C. rewrite MeshEdits.degree_get, MeshEdits.row_get by assumption. cbn [bind].
      destruct (fold_range (fun k l' => found l' /\ (forall a, has l a -> has l' a) /\ forall j a b, j < k -> halves_at centred m f n j a b -> has l' a /\ has l' b) (brothers_at centred m f n (row_of m n) (degree_of m n)) (degree_of m n) l)
        as (l' & -> & F' & M & H').
      + split; [exact F|]. split; [auto|]. intros; lia.
      + intros j l1 Hj (F1 & M1 & H1). destruct (step_ok n j l1 Hn Hj (proj1 F1)) as (l2 & E2 & _). destruct (found_step n j l1 l2 Hn Hj F1 E2) as (F2 & M2 & H2). exists l2. split; [exact E2|].
        split; [exact F2|]. split; [auto|]. intros x a b Hx Q. destruct (Nat.eq_dec x j) as [->|]; [now apply H2|]. destruct (H1 x a b ltac:(lia) Q). auto.
      + exists l'. split; [reflexivity|]. split; [exact F'|]. intros n' j a b Hn' Q. destruct (Nat.eq_dec n' n) as [->|].
        * apply (H' j a b); [|exact Q]. now destruct Q as (_ & Q & _).
        * destruct (H n' j a b ltac:(lia) Q). auto.
    - exists l. split; [reflexivity|]. split; [exact L|]. split; [exact F|]. intros a b (n & j & [Q|Q]); destruct (H n j _ _ (proj1 Q) Q); assumption.
  Qed.
  Lemma halves_sym a b : halves centred m f a b -> halves centred m f b a.
  Proof. intros (n & j & H). exists n, j. tauto. Qed.
  Theorem brothers_mutual l : find_brothers centred m f = Ok l -> (forall a b c, halves centred m f a b -> halves centred m f a c -> b = c) ->
    (forall a b, brother l a = Some b <-> halves centred m f a b) /\ forall es, mutual l es.
  Proof.
    intros H U. destruct find_brothers_ok as (l' & H' & L & F & C). rewrite H in H'. injection H' as <-.
    assert (Ex : forall a b, brother l a = Some b <-> halves centred m f a b).
    { intros a b. split; [apply F|]. intros Q. pose proof (C a b Q) as X. destruct (brother l a) as [c|] eqn:B; [|easy]. f_equal. eapply U; [|exact Q]. now apply F. }
    split; [exact Ex|]. intros es j. unfold with_next, with_previous. destruct (Nat.eq_dec (length es) 0) as [Z|Z].
    { apply length_zero_iff_nil in Z. subst es. replace (item [] (j + 1 + length (@nil nat) - 1)) with 0 by (unfold item; cbn; now destruct (j + 1 + 0 - 1)).
      replace (item [] (j + 1)) with 0 by (unfold item; cbn; now destruct (j + 1)). replace (item [] j) with 0 by (unfold item; cbn; now destruct j). reflexivity. }
    replace (j + 1 + length es - 1) with (j + length es) by lia. rewrite item_wrap. set (x := item es j). set (y := item es (j + 1)). clearbody x y.
    assert (Q : forall u v, eq_idx (brother l u) (Some v) = true <-> halves centred m f u v).
    { intros u v. rewrite <- Ex. destruct (brother l u) as [w|]; cbn; [rewrite Nat.eqb_eq; split; congruence|split; discriminate]. }
    apply eq_true_iff_eq. rewrite !Q. split; apply halves_sym.
  Qed.
End Brothers.

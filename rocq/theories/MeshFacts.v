(** Further facts about mesh edits: exactness of redo, deletion, queries, joining, initial consistency. *)
From Verif Require Import Base BaseLemmas FloatModel FloatProofs UndoModel UndoSpec UndoProofs ActionModel ActionSpec ActionProofs
  MeshModel MeshSpec MeshProofs MeshAdj MeshConstruct MeshUndo MeshEdits MeshEdits2 MeshMerge.
From Coq Require Import Permutation.

(** Take apart a successful sequence of steps. *)
Ltac steps H :=
  repeat (match type of H with
          | bind _ _ = Ok _ => let x := fresh "x" in let E := fresh "E" in apply bind_ok_inv in H; destruct H as (x & E & H); lazymatch type of x with (_ * _)%type => destruct x as [? ?] | _ => idtac end
          | context [let (_, _) := ?p in _] => destruct p as [? ?]
          end; cbn beta iota zeta in H).

Definition flatl (a : mact) : bool := match a with FullA _ _ => false | _ => true end.
Fixpoint flat (t : act mact) : bool := match t with Leaf _ a => flatl a | Compound _ l => forallb flat l end.
Definition lens (m : mesh) : nat * nat := (length (m_nodes m), length (m_edges m)).

Lemma put_node_lens m n p m' : put_node m n p = Ok m' -> lens m' = lens m.
Proof. unfold put_node. intros H. steps H. apply vset_ok in E. destruct E as [_ ->]. injection H as <-. unfold lens. cbn. now rewrite set_nth_length. Qed.
Lemma put_edge_lens m n p m' : put_edge m n p = Ok m' -> lens m' = lens m.
Proof. unfold put_edge. intros H. steps H. apply vset_ok in E. destruct E as [_ ->]. injection H as <-. unfold lens. cbn. now rewrite set_nth_length. Qed.
Lemma zero_count_lens m n m' : zero_count m n = Ok m' -> lens m' = lens m.
Proof. unfold zero_count. intros H. steps H. injection H as <-. reflexivity. Qed.

Lemma swap_indexed_length idx : forall saved nodes s' n', swap_indexed saved idx nodes = Ok (s', n') -> length n' = length nodes.
Proof.
  induction idx as [|i idx IH]; intros saved nodes s' n' H; destruct saved; cbn [swap_indexed] in H; try discriminate H;
    [injection H as <- <-; auto|injection H as <- <-; auto|].
  steps H. injection H as <- <-. apply IH in E1. apply vset_ok in E0. destruct E0 as [_ ->]. now rewrite E1, set_nth_length.
Qed.
Lemma swap_ranges_length {A} (saved nodes : list A) : length saved <= length nodes -> length (snd (swap_ranges saved nodes)) = length nodes.
Proof. intros H. unfold swap_ranges. cbn. rewrite app_length, skipn_length. lia. Qed.
Lemma translation_swap_length saved idx nodes s' n' : translation_swap saved idx nodes = Ok (s', n') -> length n' = length nodes.
Proof.
  unfold translation_swap. destruct (Nat.ltb_spec (length nodes) (length saved)); [discriminate|]. destruct idx as [|i idx].
  - intros H'. pose proof (swap_ranges_length saved nodes H) as L. injection H' as <- <-. exact L.
  - apply swap_indexed_length.
Qed.

Section Facts.
  Variable order : list point -> list edge -> nat -> list (option nat) -> list (option nat).

  Lemma leaf_lens a m a' m' : flatl a = true -> (restore_leaf order a m = Ok (a', m') \/ commit_leaf order a m = Ok (a', m')) ->
    flatl a' = true /\ lens m' = lens m.
  Proof.
    assert (Hconv : forall saved p, (if length (m_nodes m) <? length saved then Throw ConstraintErr
        else let (saved', nodes) := swap_ranges saved (m_nodes m) in
             Ok (ConversionA saved' (m_projection m), set_projection (set_nodes m nodes) p)) = Ok (a', m') -> flatl a' = true /\ lens m' = lens m).
    { intros saved p. destruct (Nat.ltb_spec (length (m_nodes m)) (length saved)) as [|L]; [discriminate|].
      intros H. pose proof (swap_ranges_length saved (m_nodes m) L). injection H as <- <-. split; auto. unfold lens. cbn. f_equal. exact H0. }
    intros Ha H. destruct a; try discriminate; destruct H as [H|H]; cbn [restore_leaf commit_leaf] in H; try (eapply Hconv; exact H);
      steps H; injection H as <- <-; (split; [reflexivity|]);
      repeat match goal with
             | E : put_node _ _ _ = Ok _ |- _ => apply put_node_lens in E
             | E : put_edge _ _ _ = Ok _ |- _ => apply put_edge_lens in E
             | E : zero_count _ _ = Ok _ |- _ => apply zero_count_lens in E
             | E : translation_swap _ _ _ = Ok _ |- _ => apply translation_swap_length in E
             end; try congruence; unfold lens; cbn; congruence.
  Qed.

  Fixpoint tree_lens_restore (t : act mact) {struct t} : forall m t' m', flat t = true ->
    restore_act (restore_leaf order) t m = Ok (t', m') -> flat t' = true /\ lens m' = lens m.
  Proof.
    intros m t' m' Hf H. destruct t as [st a|st subs]; destruct st; cbn [restore_act] in H.
    - apply bind_ok_inv in H. destruct H as ([l' s'] & E & H). injection H as <- <-. cbn in *. eapply leaf_lens; eauto.
    - injection H as <- <-. auto.
    - apply bind_ok_inv in H. destruct H as ([l' s'] & E & H). injection H as <- <-. cbn [flat] in *.
      revert m l' s' Hf E. induction subs as [|x subs IH]; intros m l' s' Hf E.
      + injection E as <- <-. auto.
      + apply bind_ok_inv in E. destruct E as ([t1 s1] & E1 & E). apply bind_ok_inv in E. destruct E as ([x1 s2] & E2 & E).
        injection E as <- <-. cbn [forallb] in *. apply andb_true_iff in Hf. destruct Hf as [Hx Hf].
        destruct (IH _ _ _ Hf E1) as [F1 L1]. destruct (tree_lens_restore x _ _ _ Hx E2) as [F2 L2]. rewrite F1, F2. split; auto. congruence.
    - injection H as <- <-. auto.
  Defined.

  Fixpoint tree_lens_commit (t : act mact) {struct t} : forall m t' m', flat t = true ->
    commit_act (commit_leaf order) t m = Ok (t', m') -> flat t' = true /\ lens m' = lens m.
  Proof.
    intros m t' m' Hf H. destruct t as [st a|st subs]; destruct st; cbn [commit_act] in H.
    - injection H as <- <-. auto.
    - apply bind_ok_inv in H. destruct H as ([l' s'] & E & H). injection H as <- <-. cbn in *. eapply leaf_lens; eauto.
    - injection H as <- <-. auto.
    - apply bind_ok_inv in H. destruct H as ([l' s'] & E & H). injection H as <- <-. cbn [flat] in *.
      revert m l' s' Hf E. induction subs as [|x subs IH]; intros m l' s' Hf E.
      + injection E as <- <-. auto.
      + apply bind_ok_inv in E. destruct E as ([x1 s2] & E2 & E). apply bind_ok_inv in E. destruct E as ([t1 s1] & E1 & E).
        injection E as <- <-. cbn [forallb] in *. apply andb_true_iff in Hf. destruct Hf as [Hx Hf].
        destruct (IH _ _ _ Hf E1) as [F1 L1]. destruct (tree_lens_commit x _ _ _ Hx E2) as [F2 L2]. rewrite F1, F2. split; auto. congruence.
  Defined.

  (** The action returned by every edit except joining is flat. *)
  Lemma commit_flat a m a' m' : flatl a = true -> commit_leaf order a m = Ok (a', m') -> flatl a' = true.
  Proof. intros Ha H. eapply leaf_lens; eauto. Qed.

  Lemma delete_edge_flat m e t m' : delete_edge order m e = Ok (t, m') -> flat t = true.
  Proof. unfold delete_edge. destruct e; [|discriminate]. intros H. steps H. injection H as <- <-. cbn. eapply commit_flat; [|eassumption]; reflexivity. Qed.
  Lemma reset_edge_flat m e ed t m' : reset_edge order m e ed = Ok (t, m') -> flat t = true.
  Proof. unfold reset_edge. destruct e; [|discriminate]. intros H. steps H. injection H as <- <-. cbn. eapply commit_flat; [|eassumption]; reflexivity. Qed.
  Lemma reset_node_flat m n p t m' : reset_node order m n p = Ok (t, m') -> flat t = true.
  Proof. unfold reset_node. destruct (nth_error (m_nodes m) n); [|discriminate]. intros H. steps H. injection H as <- <-. cbn. eapply commit_flat; [|eassumption]; reflexivity. Qed.

  Lemma add_action_flat acc r acts m : forallb flat acc = true -> (forall t m, r = Ok (t, m) -> flat t = true) ->
    add_action acc r = Ok (acts, m) -> forallb flat acts = true.
  Proof.
    intros Ha Hr H. unfold add_action in H. steps H. injection H as <- <-. apply Hr in E. unfold compound_add in E0.
    destruct (act_state a); [|discriminate]. injection E0 as <-. rewrite forallb_app, Ha. cbn. now rewrite E.
  Qed.

  Lemma merge_inner_flat o b acc i acc' : forallb flat (fst acc) = true -> merge_inner order o b acc i = Ok acc' -> forallb flat (fst acc') = true.
  Proof.
    destruct acc as [acts m], acc' as [acts' m']. cbn [fst]. intros Ha H. unfold merge_inner in H. steps H.
    destruct (eq_idx _ _).
    - eapply add_action_flat; eauto. intros. eapply delete_edge_flat; eauto.
    - now injection H as <- <-.
  Qed.
  Lemma merge_outer_flat a b acc i acc' : forallb flat (fst acc) = true -> merge_outer order a b acc i = Ok acc' -> forallb flat (fst acc') = true.
  Proof.
    destruct acc as [acts m], acc' as [acts' m']. cbn [fst]. intros Ha H. unfold merge_outer in H. steps H.
    destruct (other_node _ a); [|now injection H as <- <-]. destruct (n =? b); [now injection H as <- <-|]. steps H.
    apply (fold_out_inv (fun acc : list (act mact) * mesh => forallb flat (fst acc) = true) _ _ _ _ H); auto.
    intros; eapply merge_inner_flat; eauto.
  Qed.
  Lemma collect_first_flat a b acc i acc' : forallb flat (fst (snd acc)) = true -> collect_first order a b acc i = Ok acc' -> forallb flat (fst (snd acc')) = true.
  Proof.
    destruct acc as [l [acts m]], acc' as [l' [acts' m']]. cbn [fst snd]. intros Ha H. unfold collect_first in H.
    apply bind_ok_inv in H. destruct H as (row & _ & H). apply bind_ok_inv in H. destruct H as (e & _ & H).
    apply bind_ok_inv in H. destruct H as (ed & _ & H). destruct (fst ed) as [x|].
    - destruct (length l <? max_edges_per_node); [|discriminate]. destruct (x =? a).
      + steps H. injection H as <- <- <-. eapply add_action_flat; eauto. intros; eapply reset_edge_flat; eauto.
      + destruct (eq_idx (snd ed) (Some a)).
        * steps H. injection H as <- <- <-. eapply add_action_flat; eauto. intros; eapply reset_edge_flat; eauto.
        * now injection H as <- <- <-.
    - now injection H as <- <- <-.
  Qed.

  Lemma merge_flat m a b t m' : merge_two_nodes order m a b = Ok (Some (t, m')) -> flat t = true.
  Proof.
    unfold merge_two_nodes. destruct a as [a|], b as [b|]; try discriminate.
    destruct (length (m_nodes m) <=? a); [discriminate|]. destruct (length (m_nodes m) <=? b); [discriminate|]. destruct (a =? b); [discriminate|].
    intros H. apply bind_ok_inv in H. destruct H as (r & _ & H). apply bind_ok_inv in H. destruct H as ([acts1 m1] & E1 & H).
    apply bind_ok_inv in H. destruct H as (ka & _ & H). apply bind_ok_inv in H. destruct H as ([acts2 m2] & E2 & H).
    apply bind_ok_inv in H. destruct H as (kb & _ & H). apply bind_ok_inv in H. destruct H as (l1 & _ & H).
    apply bind_ok_inv in H. destruct H as ([l2 [acts3 m3]] & E3 & H).
    apply bind_ok_inv in H. destruct H as (? & _ & H). apply bind_ok_inv in H. destruct H as (? & _ & H).
    apply bind_ok_inv in H. destruct H as (? & _ & H). apply bind_ok_inv in H. destruct H as (? & _ & H).
    apply bind_ok_inv in H. destruct H as ([acts4 m4] & E4 & H). injection H as <- <-. cbn [flat compound].
    assert (F1 : forallb flat acts1 = true).
    { destruct r; [|injection E1 as <- <-; auto]. eapply add_action_flat; [| |exact E1]; auto. intros; eapply delete_edge_flat; eauto. }
    assert (F2 : forallb flat acts2 = true).
    { apply (fold_out_inv (fun acc : list (act mact) * mesh => forallb flat (fst acc) = true) _ _ _ _ E2); auto. intros; eapply merge_outer_flat; eauto. }
    assert (F3 : forallb flat acts3 = true).
    { apply (fold_out_inv (fun acc : list (option nat) * (list (act mact) * mesh) => forallb flat (fst (snd acc)) = true) _ _ _ _ E3); auto.
      intros; eapply collect_first_flat; eauto. }
    eapply add_action_flat; [| |exact E4]; auto. intros; eapply reset_node_flat; eauto.
  Qed.

  Lemma invalidate_unconnected_flat conn : forall n nodes, forallb flatl (snd (invalidate_unconnected n conn nodes)) = true.
  Proof.
    induction conn as [|c conn IH]; intros n [|p nodes]; cbn; auto. specialize (IH (S n) nodes).
    destruct (invalidate_unconnected (S n) conn nodes). destruct c; cbn in *; auto.
  Qed.
  Lemma invalidate_edges_flat nodes edges : forall e r, invalidate_edges e nodes edges = Ok r -> forallb flatl (snd r) = true.
  Proof.
    induction edges as [|ed edges IH]; intros e [es acts] H; cbn in H; [now injection H as <- <-|].
    apply bind_ok_inv in H. destruct H as (inv & _ & H). apply bind_ok_inv in H. destruct H as ([t' acts'] & E & H).
    apply IH in E. cbn in E. destruct inv; injection H as <- <-; auto.
  Qed.
  Lemma administrate_flat m m' acts : administrate_undo order m = Ok (m', acts) -> forallb flat (map leaf acts) = true.
  Proof.
    intros H. unfold administrate_undo in H. steps H. injection H as <- <-. unfold set_unconnected_invalid in E.
    apply bind_ok_inv in E. destruct E as ([l0 n] & E1 & E).
    pose proof (invalidate_unconnected_flat l0 0 (m_nodes m)) as F. destruct (invalidate_unconnected 0 l0 (m_nodes m)) as [ns acts1]. cbn [snd] in F.
    assert (G : forallb flatl l = true).
    { destruct ((n =? 0) && (count_invalid ns =? 0)); [now injection E as <- <-|].
      apply bind_ok_inv in E. destruct E as ([es acts2] & E2 & E). injection E as <- <-. apply invalidate_edges_flat in E2. cbn in E2.
      now rewrite forallb_app, F. }
    clear - G. induction l as [|a l IH]; auto. cbn in *. apply andb_true_iff in G. destruct G as [-> G]. auto.
  Qed.

  Definition is_join (c : medit) : bool := match c with EJoin _ => true | _ => false end.

  Lemma medit_flat c m t m' : is_join c = false -> do_medit order c m = Ok (Some (t, m')) -> flat t = true.
  Proof.
    intros Hj H. destruct c as [p|s e|n p|e ed|e|n|a b|near moved n| |rhs|src dst conv]; try discriminate Hj; cbn [do_medit] in H.
    - apply bind_ok_inv in H. destruct H as ([[k a] m1] & E & H). injection H as <- <-. unfold insert_node in E. steps E. injection E as <- <- <-.
      cbn. eapply commit_flat; [|eassumption]; reflexivity.
    - apply bind_ok_inv in H. destruct H as ([[[k a] m1]|] & E & H); [|discriminate]. injection H as <- <-. unfold connect_nodes in E.
      apply bind_ok_inv in E. destruct E as ([x|] & _ & E); [discriminate|]. steps E. injection E as <- <- <-. cbn. eapply commit_flat; [|eassumption]; reflexivity.
    - steps H. injection H as <- <-. eapply reset_node_flat; eauto.
    - steps H. injection H as <- <-. eapply reset_edge_flat; eauto.
    - steps H. injection H as <- <-. eapply delete_edge_flat; eauto.
    - steps H. injection H as <- <-. unfold delete_node in E. destruct n as [n|]; [|discriminate]. destruct (nth_error (m_nodes m) n); [|discriminate].
      apply bind_ok_inv in E. destruct E as (row & _ & E). apply bind_ok_inv in E. destruct E as ([acts m1] & E1 & E).
      apply bind_ok_inv in E. destruct E as ([a1 m2] & E2 & E). injection E as <- <-. cbn [flat compound]. rewrite forallb_app.
      assert (F : forallb flat acts = true).
      { unfold delete_edges in E1.
        apply (fold_out_inv (fun acc : list (act mact) * mesh => forallb flat (fst acc) = true) _ _ _ _ E1); auto.
        intros [acc1 m0] b [acc2 m3] _ Ha Hs. cbn [fst snd] in *. apply bind_ok_inv in Hs. destruct Hs as ([a2 m4] & X1 & Hs).
        apply bind_ok_inv in Hs. destruct Hs as (acts' & X2 & Hs). injection Hs as <- <-. apply delete_edge_flat in X1.
        unfold compound_add in X2. destruct (act_state a2); [|discriminate]. injection X2 as <-. rewrite forallb_app, Ha. cbn. now rewrite X1. }
      rewrite F. cbn. rewrite andb_true_r. eapply commit_flat; [|eassumption]; reflexivity.
    - eapply merge_flat; eauto.
    - steps H. injection H as <- <-. unfold move_node in E. destruct (length (m_nodes m) <=? n); [discriminate|]. steps E. injection E as <- <-.
      unfold create_translation in E0. destruct (length (m_nodes m) <? length _); [discriminate|].
      destruct (_ || _); [injection E0 as <-; reflexivity|]. steps E0. injection E0 as <-. reflexivity.
    - steps H. injection H as <- <-. cbn [flat compound]. eapply administrate_flat; eauto.
    - steps H. injection H as <- <-. unfold convert_projection in E. destruct (negb _); [discriminate|]. steps E. injection E as <- <-. reflexivity.
  Qed.

  Lemma extends_same_lens s t : extends s t -> lens t = lens s -> m_nodes t = m_nodes s /\ m_edges t = m_edges s /\ m_projection t = m_projection s.
  Proof.
    intros (a & b & Hn & He & Hp) Hl. unfold lens in Hl. injection Hl as Hl1 Hl2. rewrite Hn in Hl1. rewrite He in Hl2.
    rewrite app_length, repeat_length in Hl1, Hl2. assert (a = 0) by lia. assert (b = 0) by (clear - Hl2; unfold edge in *; lia). subst. cbn in *.
    rewrite app_nil_r in *. auto.
  Qed.

  Hypothesis order_perm : forall nodes edges n row, Permutation row (order nodes edges n row).

  Lemma administrate_lens m m' : well_indexed (m_nodes m) (m_edges m) -> administrate order m = Ok m' -> lens m' = lens m.
  Proof.
    intros Hw H. destruct (administrate_result order order_perm m m' Hw H) as (N & E & _). unfold lens. rewrite N, E.
    rewrite admin_nodes_length. unfold admin_edges. now rewrite map_length.
  Qed.

  Lemma undo_redo_exact c m t m' : consistent m -> medit_pre c m -> do_medit order c m = Ok (Some (t, m')) ->
    exists t1 m1 t2 m2,
      restore_act (restore_leaf order) t m' = Ok (t1, m1) /\ extends m m1 /\ consistent m1 /\
      commit_act (commit_leaf order) t1 m1 = Ok (t2, m2) /\ consistent m2 /\
      m_nodes m2 = m_nodes m' /\ m_edges m2 = m_edges m' /\ m_projection m2 = m_projection m'.
  Proof.
    intros Hc Hp H. pose proof (medits_reversible order order_perm c m Hc Hp) as R. rewrite H in R. destruct R as [R Hc'].
    destruct (R 1 m' (mesh_le_refl m')) as (t1 & m1 & R1 & [L1 C1] & A). cbn in A.
    destruct (A m1 (mesh_le_refl m1)) as (t2 & m2 & R2 & [L2 C2] & _).
    exists t1, m1, t2, m2. split; auto. split; auto. split; auto. split; auto. split; auto.
    apply extends_same_lens; auto. destruct (is_join c) eqn:Ej.
    - destruct c; try discriminate. cbn [do_medit] in H. steps H. injection H as -> ->. unfold join in E. steps E. injection E as <- <-.
      unfold leaf in R1. cbn [restore_act restore_leaf] in R1. steps R1. injection R1 as <- <-. steps E. injection E as <- <-.
      cbn [commit_act commit_leaf] in R2. steps R2. injection R2 as <- <-. steps E. injection E as <- <-.
      match goal with A : administrate order _ = Ok ?x |- lens ?x = _ => apply administrate_lens in A; [exact A|] end. apply (co_ends _ Hc').
    - pose proof (medit_flat c m t m' Ej H) as F. destruct (tree_lens_restore _ _ _ _ F R1) as [F1 X1].
      destruct (tree_lens_commit _ _ _ _ F1 R2) as [_ X2]. congruence.
  Qed.

  (** *** Deleting a node *)
  Lemma delete_node_effect m n : consistent m -> lists_all m -> (forall e, In e (m_edges m) -> e = missing_edge \/ live (m_nodes m) e = true) -> n < length (m_nodes m) ->
    exists a m', delete_node order m (Some n) = Ok (a, m') /\ m_nodes m' = set_nth n missing_point (m_nodes m) /\
      length (m_edges m') = length (m_edges m) /\ m_projection m' = m_projection m /\
      (forall e, (ends_in (edge_at m e) n -> edge_at m' e = missing_edge) /\ (~ ends_in (edge_at m e) n -> edge_at m' e = edge_at m e)).
  Proof.
    intros Hc Hla Hl Hn. destruct (delete_node_ok order m n Hc Hn) as (a & m' & Hd & _ & _ & N & L & P & _ & _ & G).
    exists a, m'. split; auto. split; auto. split; auto. split; auto.
    intros e. specialize (G e). change (ge m' e) with (edge_at m' e) in G. change (ge m e) with (edge_at m e) in G.
    destruct (Hla n Hn) as (_ & _ & Hrow). split; intros He.
    - assert (Hlt : e < length (m_edges m)).
      { destruct (Nat.ltb_spec e (length (m_edges m))); auto. unfold edge_at in He. rewrite nth_overflow in He by auto. destruct He; discriminate. }
      assert (Hj : exists o, joins (edge_at m e) n o).
      { destruct (Hl (edge_at m e)) as [X|X]; [apply nth_In; auto|rewrite X in He; destruct He; discriminate|].
        destruct (edge_at m e) as [[x|] [y|]]; try discriminate X. destruct He as [He|He]; cbn in He; injection He as ->; [exists y; left|exists x; right]; auto. }
      destruct Hj as (o & Hj). rewrite G, (proj2 (existsb_in e (row_of m n))); auto. apply Hrow. exists e, o. auto.
    - rewrite G. destruct (existsb (eq_idx (Some e)) (row_of m n)) eqn:Ex; auto. apply existsb_in, Hrow in Ex.
      destruct Ex as (e' & o & E & _ & Hj). injection E as <-. destruct He. apply (joins_ends _ _ _ Hj).
  Qed.

  (** *** Queries on an administrated mesh *)
  Lemma administrate_settled m : consistent m -> administrated m ->
    exists m', administrate order m = Ok m' /\ m_nodes m' = m_nodes m /\ m_edges m' = m_edges m /\ m_projection m' = m_projection m /\ consistent m'.
  Proof.
    intros Hc Ha. destruct (administrate_consistent order order_perm m Hc) as (m' & H & Hc').
    destruct (administrate_result order order_perm m m' (co_ends m Hc) H) as (N & E & P & _).
    destruct (proj2 (settled_iff _ _ (co_ends m Hc)) Ha) as [S1 S2]. exists m'. rewrite N, E. auto.
  Qed.

  Lemma query_harmless c m t m' : consistent m -> medit_pre c m -> do_medit order c m = Ok (Some (t, m')) -> administrated m' ->
    exists m'' t1 m1, administrate order m' = Ok m'' /\ m_nodes m'' = m_nodes m' /\ m_edges m'' = m_edges m' /\
      restore_act (restore_leaf order) t m'' = Ok (t1, m1) /\ extends m m1.
  Proof.
    intros Hc Hp H Ha. pose proof (medits_reversible order order_perm c m Hc Hp) as R. rewrite H in R. destruct R as [R Hc'].
    destruct (administrate_settled m' Hc' Ha) as (m'' & H1 & N & E & P & C).
    destruct (R 0 m'') as (t1 & m1 & R1 & [L1 _] & _).
    { split; auto. exists 0, 0. cbn. rewrite !app_nil_r. auto. }
    exists m'', t1, m1. auto 10.
  Qed.

  (** *** Administration *)
  Lemma connected_b nodes edges n : existsb (fun e => live nodes e && endsb e n) edges = true <-> connected nodes edges n.
  Proof.
    rewrite existsb_exists. split.
    - intros (e & H1 & H2). apply andb_true_iff in H2. destruct H2 as [H2 H3]. apply endsb_spec in H3. exists e. auto.
    - intros (e & H1 & H2 & H3). exists e. split; auto. apply endsb_spec in H3. now rewrite H2, H3.
  Qed.

  Lemma administrate_marks m : well_indexed (m_nodes m) (m_edges m) ->
    exists m', administrate order m = Ok m' /\ administrate order m' = Ok m' /\
      length (m_nodes m') = length (m_nodes m) /\ length (m_edges m') = length (m_edges m) /\ m_projection m' = m_projection m /\
      (forall e ed, nth_error (m_edges m) e = Some ed ->
         (live (m_nodes m) ed = true -> nth_error (m_edges m') e = Some ed) /\
         (live (m_nodes m) ed = false -> nth_error (m_edges m') e = Some missing_edge)) /\
      (forall n p, nth_error (m_nodes m) n = Some p ->
         (connected (m_nodes m) (m_edges m) n -> nth_error (m_nodes m') n = Some p) /\
         (~ connected (m_nodes m) (m_edges m) n -> nth_error (m_nodes m') n = Some missing_point)).
  Proof.
    intros Hw. destruct (administrate_safe order order_perm m Hw) as (m' & H). exists m'. split; auto.
    split; [eapply administrate_idem; eauto|]. destruct (administrate_result order order_perm m m' Hw H) as (N & E & P & _).
    rewrite N, E. rewrite admin_nodes_length. unfold admin_edges. rewrite map_length. split; auto. split; auto. split; auto. split.
    - intros e ed He. rewrite nth_error_map, He. cbn. split; intros ->; reflexivity.
    - intros n p Hn. rewrite (admin_nodes_nth _ _ _ _ Hn). rewrite <- connected_b.
      destruct (existsb _ _); split; intros X; auto; [destruct X; reflexivity|discriminate].
  Qed.

  (** *** A constructed and administrated mesh is consistent. *)
  Lemma construct_consistent edges nodes p m m' : well_indexed nodes edges -> construct edges nodes p = Ok m -> administrate order m = Ok m' ->
    consistent m' /\ m_nodes m' = m_nodes m /\ m_edges m' = m_edges m /\ administrated m'.
  Proof.
    intros Hw Hk Ha. unfold construct in Hk. set (m0 := Mesh nodes edges [] [] p) in *.
    destruct (delete_invalid_spec m0 Hw) as (m1 & H1 & Hwf & Hp). rewrite Hk in H1. injection H1 as <-.
    pose proof (well_formed_part_valid _ _ _ _ Hwf) as [Hv Hend].
    assert (Hwm : well_indexed (m_nodes m) (m_edges m)).
    { intros e n He Hn. destruct (Hend e He) as (a & b & -> & La & Lb). destruct Hn as [Hn|Hn]; cbn in Hn; injection Hn as <-; auto. }
    destruct (administrate_result order order_perm m m' Hwm Ha) as (N & E & P & X).
    assert (Hcc : forall n, n < length (m_nodes m) -> connected (m_nodes m) (m_edges m) n).
    { pose proof Hwf as (kept & (Hk1 & Hmono) & Hn & He). intros n Hlt.
      assert (Hk2 : exists i, nth_error kept n = Some i).
      { destruct (nth_error kept n) eqn:Ek; eauto. apply nth_error_None in Ek. apply Forall2_len in Hn. lia. }
      destruct Hk2 as (i & Hi). assert (Hin : In i kept) by (eapply nth_error_In; eauto). apply Hk1 in Hin.
      destruct Hin as (e & He1 & He2 & He3).
      assert (Hf : In e (filter (live (m_nodes m0)) (m_edges m0))) by (apply filter_In; auto).
      assert (Hinj : forall u v, nth_error kept u = Some i -> nth_error kept v = Some i -> u = v).
      { intros u v Hu Hv'. destruct (Nat.lt_total u v) as [L|[L|L]]; auto; exfalso.
        - pose proof (Hmono u v i i L Hu Hv'). lia.
        - pose proof (Hmono v u i i L Hv' Hu). lia. }
      assert (He' : exists e', In e' (m_edges m) /\ same_edge kept e e').
      { clear - He Hf. induction He as [|x y l1 l2 Hxy _ IH]; [destruct Hf|]. destruct Hf as [->|Hf]; [exists y; cbn; auto|].
        destruct (IH Hf) as (e' & H1 & H2). exists e'. cbn. auto. }
      destruct He' as (e' & Hin' & (a & b & a' & b' & -> & -> & Ka & Kb)).
      exists (Some a', Some b'). split; [exact Hin'|].
      destruct (Hend _ Hin') as (a1 & b1 & Eab & La & Lb). injection Eab as -> ->.
      split.
      - cbn. unfold valid_at. rewrite (nth_error_nth' _ missing_point La), (nth_error_nth' _ missing_point Lb).
        rewrite !Hv by (apply nth_In; auto). reflexivity.
      - destruct He3 as [E3|E3]; cbn in E3; injection E3 as ->; [left|right]; cbn; f_equal; auto. }
    assert (Hadm : administrated m).
    { split.
      - intros n q Hq. right. apply Hcc. apply nth_error_Some. congruence.
      - intros e He. right. destruct (Hend e He) as (a & b & -> & La & Lb). cbn. unfold valid_at.
        rewrite (nth_error_nth' _ missing_point La), (nth_error_nth' _ missing_point Lb). rewrite !Hv by (apply nth_In; auto). reflexivity. }
    destruct (proj2 (settled_iff _ _ Hwm) Hadm) as [S1 S2]. rewrite S1 in N. rewrite S2 in E.
    split; [|split; [exact N|split; [exact E|]]].
    - destruct (m_edges m) as [|e0 es] eqn:Ee.
      + assert (Hnil : m_nodes m = []).
        { destruct (m_nodes m) as [|q qs] eqn:En; auto. exfalso. destruct (Hcc 0 ltac:(cbn; lia)) as (e & [] & _). }
        unfold administrate in Ha. apply bind_ok_inv in Ha. destruct Ha as ([m2 acts] & Ha & Hx). injection Hx as ->.
        unfold administrate_undo in Ha. apply bind_ok_inv in Ha. destruct Ha as ([m3 acts3] & Ha & Hx).
        apply bind_ok_inv in Hx. destruct Hx as (m4 & Hr & Hx). injection Hx as -> ->.
        destruct (set_unconnected_spec m) as (acts' & Hs). { rewrite Ee. exact Hwm. }
        rewrite Ha in Hs. rewrite Ee, Hnil in Hs. injection Hs as -> ->. cbn in Hr. injection Hr as <-.
        assert (Ht : m_nodesNumEdges m = [] /\ m_nodesEdges m = []).
        { unfold delete_invalid in Hk. apply bind_ok_inv in Hk. destruct Hk as ([conn k] & _ & Hk).
          destruct (invalidate_unconnected 0 conn (m_nodes m0)) as [ns x]. destruct (_ && _).
          - injection Hk as <-. auto.
          - apply bind_ok_inv in Hk. destruct Hk as (es & _ & Hk). injection Hk as <-. auto. }
        destruct Ht as [T1 T2]. constructor; cbn; rewrite ?T1, ?T2; auto.
        * intros e n [].
        * intros n Hn. cbn in Hn. lia.
        * intros n oe. unfold row_of. cbn. rewrite ?T2. destruct n; intros [].
      + apply exact_consistent; [rewrite N, E; exact Hwm|]. apply X; [|discriminate].
        intros Hnil. destruct (Hend e0 (or_introl eq_refl)) as (a & b & _ & La & _). rewrite Hnil in La. cbn in La. lia.
    - destruct Hadm as [D1 D2]. split; rewrite N, E; auto.
  Qed.

  (** *** Joining *)
  Lemma valid_at_app1 A B n : n < length A -> valid_at (A ++ B) n = valid_at A n.
  Proof. intros H. unfold valid_at. now rewrite nth_error_app1. Qed.
  Lemma valid_at_app2 A B n : valid_at (A ++ B) (n + length A) = valid_at B n.
  Proof. unfold valid_at. rewrite nth_error_app2 by lia. now replace (n + length A - length A) with n by lia. Qed.

  Lemma join_content m rhs : consistent m -> administrated m -> administrated rhs -> well_indexed (m_nodes rhs) (m_edges rhs) ->
    m_projection m = m_projection rhs -> (forall e, In e (m_edges rhs) -> e <> missing_edge) -> m_edges rhs <> [] ->
    exists a m', join order m rhs = Ok (a, m') /\ m_nodes m' = m_nodes m ++ m_nodes rhs /\
      m_edges m' = m_edges m ++ map (fun e => (option_map (fun n => n + length (m_nodes m)) (fst e), option_map (fun n => n + length (m_nodes m)) (snd e))) (m_edges rhs) /\
      m_projection m' = m_projection m.
  Proof.
    intros Hc [A1 A2] [B1 B2] Hw Hpr Hnm Hne. unfold join, add_mesh.
    assert (Hep : eq_proj (m_projection m) (m_projection rhs) = true) by (rewrite Hpr; destruct (m_projection rhs); reflexivity).
    rewrite Hep. cbn [negb].
    assert (Hls : forall e, In e (m_edges rhs) -> exists a b, e = (Some a, Some b) /\ live (m_nodes rhs) e = true).
    { intros e He. destruct (B2 e He) as [X|X]; [destruct (Hnm e He X)|]. destruct e as [[a|] [b|]]; try discriminate X. exists a, b. auto. }
    assert (Hn0 : m_nodes rhs <> []).
    { intros X. destruct (m_edges rhs) as [|e es]; [contradiction|]. destruct (Hls e (or_introl eq_refl)) as (a & b & -> & L). rewrite X in L.
      cbn in L. unfold valid_at in L. destruct a; discriminate L. }
    destruct (m_nodes rhs) as [|p0 pt] eqn:En; [contradiction|]. destruct (m_edges rhs) as [|e0 et] eqn:Ee; [contradiction|].
    rewrite <- En, <- Ee in *. set (k := length (m_nodes m)).
    assert (Hmap : map (shift_edge k) (m_edges rhs) = map (fun e => (option_map (fun n => n + k) (fst e), option_map (fun n => n + k) (snd e))) (m_edges rhs)).
    { apply map_ext_in. intros e He. destruct (Hls e He) as (a & b & -> & _). reflexivity. }
    set (m1 := set_edges (set_nodes m (m_nodes m ++ m_nodes rhs)) (m_edges m ++ map (shift_edge k) (m_edges rhs))).
    assert (Hlm : forall e, In e (m_edges m) -> live (m_nodes m ++ m_nodes rhs) e = live (m_nodes m) e).
    { intros e He. pose proof (co_ends m Hc) as W. destruct e as [[a|] [b|]]; auto. cbn.
      rewrite !valid_at_app1; auto; apply (W _ _ He); [right|left]; reflexivity. }
    assert (Hlr : forall e, In e (m_edges rhs) -> live (m_nodes m ++ m_nodes rhs) (shift_edge k e) = true).
    { intros e He. destruct (Hls e He) as (a & b & -> & L). cbn in *. unfold k. now rewrite !valid_at_app2. }
    assert (Hw1 : well_indexed (m_nodes m1) (m_edges m1)).
    { unfold m1. cbn. intros e n Hin Hend. rewrite app_length. apply in_app_or in Hin. destruct Hin as [Hin|Hin].
      - pose proof (co_ends m Hc e n Hin Hend). lia.
      - apply in_map_iff in Hin. destruct Hin as (e' & <- & Hin). destruct (Hls e' Hin) as (a & b & -> & _).
        destruct Hend as [X|X]; cbn in X; injection X as <-.
        + pose proof (Hw _ a Hin (or_introl eq_refl)). unfold k. lia.
        + pose proof (Hw _ b Hin (or_intror eq_refl)). unfold k. lia. }
    assert (Had : administrated m1).
    { unfold m1. split; cbn.
      - intros n p Hn. destruct (Nat.ltb_spec n k) as [L|L].
        + rewrite nth_error_app1 in Hn by auto. destruct (A1 n p Hn) as [X|(e & X1 & X2 & X3)]; auto. right.
          exists e. split; [apply in_or_app; auto|]. split; auto. rewrite Hlm; auto.
        + rewrite nth_error_app2 in Hn by auto. destruct (B1 _ p Hn) as [X|(e & X1 & X2 & X3)]; auto. right.
          exists (shift_edge k e). split; [apply in_or_app; right; now apply in_map|]. split; auto.
          destruct (Hls e X1) as (a & b & -> & _). fold k in X3.
          destruct X3 as [X3|X3]; cbn in X3; injection X3 as ->; [left|right]; cbn; f_equal; lia.
      - intros e He. apply in_app_or in He. destruct He as [He|He].
        + destruct (A2 e He) as [X|X]; auto. right. rewrite Hlm; auto.
        + apply in_map_iff in He. destruct He as (e' & <- & He'). right. auto. }
    destruct (administrate_safe order order_perm m1 Hw1) as (m' & Hm'). rewrite Hm'. cbn [bind].
    destruct (administrate_result order order_perm m1 m' Hw1 Hm') as (N & E & P & _).
    destruct (proj2 (settled_iff _ _ Hw1) Had) as [S1 S2]. rewrite S1 in N. rewrite S2 in E.
    eexists _, m'. split; [reflexivity|]. split; [exact N|]. split; [|exact P]. rewrite E. unfold m1. cbn. f_equal. exact Hmap.
  Qed.
  (** *** The effects of the elementary edits *)
  Lemma edit_effects m : consistent m ->
    (forall p, exists a m', insert_node order m p = Ok (length (m_nodes m), a, m') /\
       m_nodes m' = m_nodes m ++ [p] /\ m_edges m' = m_edges m) /\
    (forall s e, s < length (m_nodes m) -> e < length (m_nodes m) ->
       (connect_nodes order m (Some s) (Some e) = Ok None /\
          exists i, i < length (m_edges m) /\ (fst (edge_at m i) = Some e \/ snd (edge_at m i) = Some e)) \/
       (exists a m', connect_nodes order m (Some s) (Some e) = Ok (Some (length (m_edges m), a, m')) /\
          m_edges m' = m_edges m ++ [(Some s, Some e)] /\ m_nodes m' = m_nodes m)) /\
    (forall e, e < length (m_edges m) ->
       exists a m', delete_edge order m (Some e) = Ok (a, m') /\ m_edges m' = set_nth e missing_edge (m_edges m) /\ m_nodes m' = m_nodes m) /\
    (forall n p, n < length (m_nodes m) ->
       exists a m', reset_node order m n p = Ok (a, m') /\ m_nodes m' = set_nth n p (m_nodes m) /\ m_edges m' = m_edges m) /\
    (forall near moved n, n < length (m_nodes m) ->
       exists a m', move_node near moved m n = Ok (a, m') /\
         m_nodes m' = map (fun p => if near p then moved p else p) (m_nodes m) /\ m_edges m' = m_edges m).
  Proof.
    intros Hc. split; [|split; [|split; [|split]]].
    - intros p. destruct (insert_node_ok order m p Hc) as (m' & H & N & E & _). eauto 10.
    - intros s e Hs He. destruct (connect_nodes_ok order m s e Hc Hs He) as [H|(m' & H & -> & _)].
      + left. split; auto. unfold connect_nodes in H. destruct (find_edge_ok m s e Hc Hs) as (r & Hr & Hx). rewrite Hr in H. cbn [bind] in H.
        destruct r as [i|].
        * destruct Hx as (_ & Hi & Ho). exists i. split; auto. apply other_node_end in Ho. exact Ho.
        * apply bind_ok_inv in H. destruct H as ([a m1] & _ & H). discriminate H.
      + right. eexists _, _. split; [exact H|]. auto.
    - intros e He. destruct (delete_edge_ok order m e Hc He) as (H & _). eexists _, _. split; [exact H|]. auto.
    - intros n p Hn. destruct (reset_node_ok order m n p Hc Hn) as (H & _). eexists _, _. split; [exact H|]. auto.
    - intros near moved n Hn. destruct (move_ok order near moved m n Hc Hn) as (a & m' & H & _ & _ & N & E & _). eauto 10.
  Qed.
End Facts.

(** *** Merging, in words *)
Lemma merged_neighbours m a b m' :
  simple_edges (m_edges m) -> administrated m -> a <> b -> merged_edges m a b m' ->
  (forall e, ~ ends_in (edge_at m' e) a) /\
  (forall o, o <> a -> o <> b -> (neighbour m a o \/ neighbour m b o) -> neighbour m' b o) /\
  (forall e, ~ ends_in (edge_at m e) a -> ~ ends_in (edge_at m e) b -> edge_at m' e = edge_at m e).
Proof.
  intros [S1 S2] [_ A2] Hab [Hl H].
  assert (Hout : forall e, length (m_edges m) <= e -> edge_at m e = missing_edge /\ edge_at m' e = missing_edge).
  { intros e He. unfold edge_at. split; apply nth_overflow; lia. }
  assert (Hloop : forall e n, e < length (m_edges m) -> ~ joins (edge_at m e) n n) by (intros e n He; apply S1; apply nth_In; auto).
  assert (Hndec : forall o, neighbour m a o \/ ~ neighbour m a o).
  { intros o. unfold neighbour.
    assert (D : forall k, (exists e, e < k /\ joins (edge_at m e) a o) \/ ~ (exists e, e < k /\ joins (edge_at m e) a o)).
    { induction k as [|k [IH|IH]]; [right; intros (e & L & _); lia| |].
      - left. destruct IH as (e & L & J). exists e. split; auto; lia.
      - destruct (joins_dec (edge_at m k) a o) as [J|J]; [left; exists k; auto|].
        right. intros (e & L & J'). destruct (Nat.eq_dec e k) as [->|]; auto. apply IH. exists e. split; auto; lia. }
    apply D. }
  split; [|split].
  - intros e. destruct (Nat.ltb_spec e (length (m_edges m))) as [He|He].
    2:{ destruct (Hout e He) as [_ ->]. intros [X|X]; discriminate X. }
    destruct (H e He) as (H1 & H2 & H3 & H4 & H5 & H6).
    destruct (A2 (edge_at m e)) as [X|X]; [apply nth_In; auto|rewrite H6; rewrite X; intros [Y|Y]; discriminate Y|].
    destruct (edge_at m e) as [[x|] [y|]] eqn:Ee; try discriminate X.
    assert (Hxy : x <> y). { intros <-. apply (Hloop e x He). rewrite Ee. left; auto. }
    destruct (Nat.eq_dec x a) as [->|Hxa].
    { destruct (Nat.eq_dec y b) as [->|Hyb]; [rewrite H1 by (left; auto); intros [Y|Y]; discriminate Y|].
      rewrite (H4 y Hyb eq_refl). intros [Y|Y]; injection Y; congruence. }
    destruct (Nat.eq_dec y a) as [->|Hya].
    { destruct (Nat.eq_dec x b) as [->|Hxb]; [rewrite H1 by (right; auto); intros [Y|Y]; discriminate Y|].
      rewrite (H5 x Hxb eq_refl). intros [Y|Y]; injection Y; congruence. }
    assert (Hno : ~ ends_in (Some x, Some y) a) by (intros [Y|Y]; injection Y; congruence).
    destruct (Nat.eq_dec x b) as [->|Hxb].
    { destruct (Hndec y) as [D|D]; [rewrite (H2 y Hya (or_intror eq_refl) D); intros [Y|Y]; discriminate Y|].
      rewrite (H3 y Hya (or_intror eq_refl) D). exact Hno. }
    destruct (Nat.eq_dec y b) as [->|Hyb].
    { destruct (Hndec x) as [D|D]; [rewrite (H2 x Hxa (or_introl eq_refl) D); intros [Y|Y]; discriminate Y|].
      rewrite (H3 x Hxa (or_introl eq_refl) D). exact Hno. }
    rewrite H6; auto. intros [Y|Y]; injection Y; congruence.
  - intros o Hoa Hob Hn. destruct (Hndec o) as [(e & He & [J|J])|D].
    + exists e. split; [lia|]. destruct (H e He) as (_ & _ & _ & H4 & _). rewrite (H4 o Hob J). left; auto.
    + exists e. split; [lia|]. destruct (H e He) as (_ & _ & _ & _ & H5 & _). rewrite (H5 o Hob J). right; auto.
    + destruct Hn as [Hn|(e & He & J)]; [contradiction|]. exists e. split; [lia|]. destruct (H e He) as (_ & _ & H3 & _).
      rewrite (H3 o Hoa (joins_sym _ _ _ J) D). exact J.
  - intros e K1 K2. destruct (Nat.ltb_spec e (length (m_edges m))) as [He|He].
    + apply (H e He); auto.
    + destruct (Hout e He) as [-> ->]. reflexivity.
Qed.

(** *** Counts and maps *)
Lemma counts_and_maps m : well_indexed (m_nodes m) (m_edges m) ->
  num_valid_nodes m = length (filter is_valid (m_nodes m)) /\
  num_valid_edges m = Ok (length (filter (live (m_nodes m)) (m_edges m))) /\
  (exists ns, valid_node_mapping m = Ok ns /\ length ns = num_valid_nodes m /\
     enumerates (fun n => exists p, nth_error (m_nodes m) n = Some p /\ is_valid p = true) ns) /\
  (exists es, valid_edge_mapping m = Ok es /\ num_valid_edges m = Ok (length es) /\
     enumerates (fun e => exists ed, nth_error (m_edges m) e = Some ed /\ live (m_nodes m) ed = true) es).
Proof.
  intros Hw. split; [reflexivity|]. split; [apply num_valid_edges_spec; auto|]. split.
  - eexists. split; [apply valid_node_mapping_spec|]. split; [apply positions_length|apply positions_enumerates].
  - eexists. split; [apply valid_edge_mapping_spec; auto|]. split; [|apply positions_enumerates].
    rewrite positions_length. apply num_valid_edges_spec; auto.
Qed.

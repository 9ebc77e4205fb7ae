(** Boundary edges and polygons: a parity argument. *)
From Coq Require Import Permutation.
From Verif Require Import Base BaseLemmas FloatModel UtilModel GridModel GridSpec GridProofs GridClean GridRefine.

(** *** Order and equality of positions and edges *)
Lemma index_eqb_ok a b : index_eqb a b = true <-> a = b.
Proof.
  unfold index_eqb. rewrite andb_true_iff, !Nat.eqb_eq. destruct a, b; cbn. split; [intros [-> ->]; reflexivity|intros H; injection H; auto].
Qed.
Lemma index_ltb_total a b : index_ltb a b = false -> index_ltb b a = false -> a = b.
Proof.
  unfold index_ltb. rewrite !orb_false_iff, !andb_false_iff, !Nat.ltb_ge, !Nat.eqb_neq. destruct a, b; cbn. intros H1 H2. f_equal; lia.
Qed.
Lemma edge_eqb_ok a b : edge_eqb a b = true <-> a = b.
Proof.
  unfold edge_eqb. rewrite andb_true_iff, !index_eqb_ok. destruct a, b; cbn. split; [intros [-> ->]; reflexivity|intros H; injection H; auto].
Qed.
Lemma edge_eqb_refl a : edge_eqb a a = true.
Proof. apply edge_eqb_ok. reflexivity. Qed.
Lemma edge_ltb_total a b : edge_ltb a b = false -> edge_ltb b a = false -> a = b.
Proof.
  unfold edge_ltb. rewrite !orb_false_iff, !andb_false_iff, !negb_false_iff. intros [H1 H2] [H3 H4].
  assert (E : fst a = fst b) by (apply index_ltb_total; auto).
  assert (L : index_ltb (fst a) (fst b) = false) by exact H1.
  destruct H2 as [H2|H2]; [rewrite H2 in H3; discriminate|]. destruct H4 as [H4|H4]; [rewrite H4 in L; discriminate|].
  destruct a, b; cbn in *. subst. f_equal. apply index_ltb_total; auto.
Qed.

Definition edge_dec (a b : gedge) : {a = b} + {a <> b}.
Proof. destruct (edge_eqb a b) eqn:E; [left; apply edge_eqb_ok, E|right; intros H; apply edge_eqb_ok in H; congruence]. Defined.

(** *** The set *)
Lemma insert_perm e l : ~ In e l -> Permutation (set_insert e l) (e :: l).
Proof.
  induction l as [|h t IH]; intros Hn; cbn; [reflexivity|].
  destruct (edge_ltb e h) eqn:E1; [reflexivity|]. destruct (edge_ltb h e) eqn:E2.
  - rewrite IH by (intros Hi; apply Hn; right; exact Hi). apply perm_swap.
  - exfalso. apply Hn. left. symmetry. apply edge_ltb_total; assumption.
Qed.

Lemma erase_perm e l : NoDup l -> In e l -> Permutation l (e :: set_erase e l).
Proof.
  induction l as [|h t IH]; intros Hd Hi; [destruct Hi|]. inversion Hd as [|x y Hh Ht]; subst. cbn [set_erase filter].
  destruct (edge_eqb e h) eqn:E; cbn [negb].
  - apply edge_eqb_ok in E as <-. apply perm_skip. clear IH Hi Hd Ht. induction t as [|a t IH]; [reflexivity|]. cbn [filter].
    destruct (edge_eqb e a) eqn:E; cbn [negb]; [apply edge_eqb_ok in E; subst; exfalso; apply Hh; left; reflexivity|].
    apply perm_skip, IH. intros H. apply Hh. right. exact H.
  - destruct Hi as [->|Hi]; [rewrite edge_eqb_refl in E; discriminate|].
    rewrite (IH Ht Hi) at 1. apply perm_swap.
Qed.
Lemma erase_in e l x : In x (set_erase e l) <-> In x l /\ x <> e.
Proof.
  unfold set_erase. rewrite filter_In, negb_true_iff. split; intros [H1 H2]; split; auto.
  - intros ->. rewrite edge_eqb_refl in H2. discriminate.
  - destruct (edge_eqb e x) eqn:E; [apply edge_eqb_ok in E; congruence|reflexivity].
Qed.
Lemma erase_nodup e l : NoDup l -> NoDup (set_erase e l).
Proof. apply NoDup_filter. Qed.

Lemma existsb_edge e l : existsb (edge_eqb e) l = true <-> In e l.
Proof.
  rewrite existsb_exists. split; [intros (x & Hx & H); apply edge_eqb_ok in H; subst; exact Hx|intros H; exists e; split; [exact H|apply edge_eqb_refl]].
Qed.

Lemma toggle_nodup s e : NoDup s -> NoDup (toggle s e).
Proof.
  intros Hd. unfold toggle. destruct (existsb (edge_eqb e) s) eqn:E; [apply erase_nodup, Hd|].
  assert (Hn : ~ In e s) by (rewrite <- existsb_edge; congruence).
  eapply Permutation_NoDup; [symmetry; apply insert_perm, Hn|]. constructor; assumption.
Qed.
Lemma toggle_in s e x : In x (toggle s e) <-> (x <> e /\ In x s) \/ (x = e /\ ~ In x s).
Proof.
  unfold toggle. destruct (existsb (edge_eqb e) s) eqn:E.
  - apply existsb_edge in E. rewrite erase_in. split; [intros [H1 H2]; left; auto|]. intros [[H1 H2]|[-> H]]; [auto|contradiction].
  - assert (Hn : ~ In e s) by (rewrite <- existsb_edge; congruence).
    assert (H : In x (set_insert e s) <-> In x (e :: s)).
    { split; apply Permutation_in; [apply insert_perm, Hn|symmetry; apply insert_perm, Hn]. }
    rewrite H. cbn. destruct (edge_dec x e) as [->|Hx]; [tauto|]. split; [intros [H'|H']; [congruence|tauto]|tauto].
Qed.

(** *** Parity of membership *)
Definition odd_in (x : gedge) (l : list gedge) : bool := Nat.odd (count_occ edge_dec l x).

Lemma fold_toggle_nodup l : forall s, NoDup s -> NoDup (fold_left toggle l s).
Proof. induction l as [|e l IH]; intros s Hd; [exact Hd|]. cbn. apply IH, toggle_nodup, Hd. Qed.

Lemma fold_toggle_in l x : forall s, In x (fold_left toggle l s) <-> xorb (if in_dec edge_dec x s then true else false) (odd_in x l) = true.
Proof.
  unfold odd_in. induction l as [|e l IH]; intros s; cbn [fold_left count_occ].
  - cbn. rewrite xorb_false_r. destruct (in_dec edge_dec x s); split; auto; discriminate.
  - rewrite IH. destruct (edge_dec e x) as [->|Hx].
    + rewrite Nat.odd_succ, <- Nat.negb_odd. rewrite <- negb_xorb_r, negb_xorb_l.
      destruct (in_dec edge_dec x (toggle s x)) as [H|H]; destruct (in_dec edge_dec x s) as [H'|H'];
        rewrite toggle_in in H; cbn [negb]; try tauto.
    + destruct (in_dec edge_dec x (toggle s e)) as [H|H]; destruct (in_dec edge_dec x s) as [H'|H'];
        rewrite toggle_in in H; try tauto; exfalso; intuition congruence.
Qed.

(** *** The edges of a cell *)
Lemma cell_edges_eq n m : cell_edges n m =
  [((n, m), (n, m + 1)); ((n, m + 1), (n + 1, m + 1)); ((n + 1, m), (n + 1, m + 1)); ((n, m), (n + 1, m))].
Proof.
  unfold cell_edges, sort_edge, index_ltb. cbn [fst snd].
  assert (H1 : forall k, k <? k = false) by (intros; apply Nat.ltb_ge; lia).
  assert (H2 : forall k, k <? k + 1 = true) by (intros; apply Nat.ltb_lt; lia).
  assert (H3 : forall k, k + 1 <? k = false) by (intros; apply Nat.ltb_ge; lia).
  assert (H4 : forall k, k =? k + 1 = false) by (intros; apply Nat.eqb_neq; lia).
  assert (H5 : forall k, k + 1 =? k = false) by (intros; apply Nat.eqb_neq; lia).
  rewrite !H1, !H2, !H3, !H4, !H5, !Nat.eqb_refl. reflexivity.
Qed.
Lemma in_cell_edges n m e : In e (cell_edges n m) <-> side n m e.
Proof. rewrite cell_edges_eq. unfold side. cbn. intuition (subst; auto). Qed.
Lemma cell_edges_nodup n m : NoDup (cell_edges n m).
Proof.
  rewrite cell_edges_eq. repeat constructor; cbn; intros H; repeat destruct H as [H|H]; try (injection H; intros; lia); auto.
Qed.

(** *** Which edges are left: those of exactly one complete cell *)
Definition sideb (e : gedge) (c : gindex) : bool := if in_dec edge_dec e (cell_edges (fst c) (snd c)) then true else false.
Lemma sideb_ok e c : sideb e c = true <-> side (fst c) (snd c) e.
Proof. unfold sideb. rewrite <- in_cell_edges. destruct (in_dec _ _ _); split; auto; discriminate. Qed.

Lemma odd_cell e n m : odd_in e (cell_edges n m) = sideb e (n, m).
Proof.
  unfold odd_in, sideb. cbn [fst snd]. destruct (in_dec edge_dec e (cell_edges n m)) as [H|H].
  - pose proof (proj1 (NoDup_count_occ' edge_dec _) (cell_edges_nodup n m) e H) as ->. reflexivity.
  - apply (count_occ_not_In edge_dec) in H as ->. reflexivity.
Qed.

Lemma cell_complete_ok g n m : gwf g -> n + 1 < num_n g -> m + 1 < num_m g -> cell_complete g n m = Ok (completeb g n m).
Proof.
  intros W Hn Hm. unfold cell_complete, completeb.
  rewrite !node_valid_ok by (try assumption; split; lia). cbn [bind].
  destruct (is_valid (vis g n m)), (is_valid (vis g n (m + 1))), (is_valid (vis g (n + 1) (m + 1))), (is_valid (vis g (n + 1) m)); reflexivity.
Qed.

(** Every position is an end of an even number of edges. *)
Definition ends (v : gindex) (e : gedge) : bool := index_eqb (fst e) v || index_eqb (snd e) v.
Definition degree (v : gindex) (s : list gedge) : nat := length (filter (ends v) s).
Definition proper (e : gedge) : Prop := fst (fst e) + snd (fst e) < fst (snd e) + snd (snd e).

Lemma degree_perm v s t : Permutation s t -> degree v s = degree v t.
Proof.
  intros H. unfold degree. induction H as [|x s t H IH|x y s|s t u H1 IH1 H2 IH2]; cbn [filter]; auto.
  - destruct (ends v x); cbn; lia.
  - destruct (ends v x), (ends v y); reflexivity.
  - lia.
Qed.
Lemma degree_cons v e s : Nat.odd (degree v (e :: s)) = xorb (ends v e) (Nat.odd (degree v s)).
Proof.
  unfold degree. cbn [filter]. destruct (ends v e); cbn [length]; [|rewrite xorb_false_l; reflexivity].
  rewrite Nat.odd_succ, <- Nat.negb_odd. destruct (Nat.odd _); reflexivity.
Qed.
Lemma degree_toggle v s e : NoDup s -> Nat.odd (degree v (toggle s e)) = xorb (ends v e) (Nat.odd (degree v s)).
Proof.
  intros Hd. unfold toggle. destruct (existsb (edge_eqb e) s) eqn:E.
  - apply existsb_edge in E. rewrite (degree_perm v s _ (erase_perm e s Hd E)), degree_cons.
    destruct (ends v e), (Nat.odd _); reflexivity.
  - rewrite (degree_perm v _ _ (insert_perm e s ltac:(rewrite <- existsb_edge; congruence))). apply degree_cons.
Qed.
Lemma degree_cell v n m s : NoDup s -> Nat.odd (degree v (fold_left toggle (cell_edges n m) s)) = Nat.odd (degree v s).
Proof.
  intros Hd. rewrite cell_edges_eq. cbn [fold_left].
  rewrite !degree_toggle by (repeat apply toggle_nodup; assumption).
  unfold ends. cbn [fst snd].
  assert (X : forall p q, p <> q -> index_eqb p v || index_eqb q v = xorb (index_eqb p v) (index_eqb q v)).
  { intros p q Hne. destruct (index_eqb p v) eqn:E1, (index_eqb q v) eqn:E2; try reflexivity. apply index_eqb_ok in E1, E2. congruence. }
  assert (N : forall a b c d, a <> c \/ b <> d -> ((a, b) : gindex) <> (c, d)).
  { intros a b c d H H'. injection H'. intuition congruence. }
  rewrite !X by (apply N; lia).
  destruct (index_eqb (n, m) v), (index_eqb (n, m + 1) v), (index_eqb (n + 1, m + 1) v), (index_eqb (n + 1, m) v), (Nat.odd (degree v s)); reflexivity.
Qed.

Definition around g e (c : gindex) : bool := completeb g (fst c) (snd c) && sideb e c.

Record boundary_inv g (done : list gindex) (s : list gedge) : Prop := {
  bi_nodup : NoDup s;
  bi_in : forall e, In e s <-> Nat.odd (length (filter (around g e) done)) = true;
  bi_even : forall v, Nat.odd (degree v s) = false;
  bi_from : forall e, In e s -> exists n m, In (n, m) done /\ completeb g n m = true /\ side n m e }.

Lemma boundary_fold g ll ur : gwf g -> fst ur < num_n g -> snd ur < num_m g ->
  exists s, boundary_edges g ll ur = Ok s /\ boundary_inv g (pairs (fst ll) (fst ur) (snd ll) (snd ur)) s.
Proof.
  intros W Hn Hm. unfold boundary_edges.
  apply (fold_pre _ (boundary_inv g)); cycle 1.
  - constructor; [constructor| |reflexivity|].
    + intros e. cbn. split; [tauto|discriminate].
    + intros e [].
  - intros done [n m] rest s Hall [Hd Hi He Hf].
    assert (Hin : In (n, m) (pairs (fst ll) (fst ur) (snd ll) (snd ur))) by (rewrite Hall; apply in_or_app; right; left; reflexivity).
    apply in_pairs in Hin. cbn [fst snd]. rewrite cell_complete_ok by (try assumption; lia). cbn [bind].
    eexists. split; [reflexivity|]. destruct (completeb g n m) eqn:C.
    + constructor.
      * apply fold_toggle_nodup, Hd.
      * intros e. rewrite fold_toggle_in, odd_cell, filter_app, app_length. cbn [filter]. unfold around at 2. cbn [fst snd]. rewrite C. cbn [andb].
        specialize (Hi e). destruct (in_dec edge_dec e s) as [I|I].
        { apply Hi in I. destruct (sideb e (n, m)); cbn [length]; rewrite ?Nat.add_0_r, ?Nat.add_1_r, ?Nat.odd_succ, <- ?Nat.negb_odd, I; cbn; tauto. }
        { assert (I' : Nat.odd (length (filter (around g e) done)) = false)
            by (apply not_true_iff_false; rewrite <- Hi; exact I).
          destruct (sideb e (n, m)); cbn [length]; rewrite ?Nat.add_0_r, ?Nat.add_1_r, ?Nat.odd_succ, <- ?Nat.negb_odd, I'; cbn; tauto. }
      * intros v. rewrite degree_cell by exact Hd. apply He.
      * intros e Hin'. apply fold_toggle_in in Hin'. rewrite odd_cell in Hin'. destruct (in_dec edge_dec e s) as [I|I].
        { destruct (Hf e I) as (a & b & Hab & Hc). exists a, b. split; [apply in_or_app; left; exact Hab|exact Hc]. }
        { rewrite xorb_false_l in Hin'. apply sideb_ok in Hin'. exists n, m. split; [apply in_or_app; right; left; reflexivity|]. split; [exact C|exact Hin']. }
    + constructor; [exact Hd| |exact He|].
      * intros e. rewrite filter_app, app_length. cbn [filter]. unfold around at 2. cbn [fst snd]. rewrite C. cbn [andb length]. rewrite Nat.add_0_r. apply Hi.
      * intros e I. destruct (Hf e I) as (a & b & Hab & Hc). exists a, b. split; [apply in_or_app; left; exact Hab|exact Hc].
Qed.

Lemma side_two e : exists c1 c2 : gindex, forall c, sideb e c = true -> c = c1 \/ c = c2.
Proof.
  destruct e as [[a b] [c d]].
  destruct (Nat.eq_dec a c) as [->|Hac].
  - exists (c, b), (c - 1, b). intros [n m] H. apply sideb_ok in H. cbn [fst snd] in H. unfold side in H.
    destruct H as [H|[H|[H|H]]]; injection H; intros; subst; try lia; [left; reflexivity|right; f_equal; lia].
  - exists (a, b), (a, b - 1). intros [n m] H. apply sideb_ok in H. cbn [fst snd] in H. unfold side in H.
    destruct H as [H|[H|[H|H]]]; injection H; intros; subst; try lia; [left; reflexivity|right; f_equal; lia].
Qed.

Lemma odd_unique {A} (f : A -> bool) (l : list A) c1 c2 : NoDup l -> (forall c, f c = true -> c = c1 \/ c = c2) ->
  Nat.odd (length (filter f l)) = true <-> exists c, (In c l /\ f c = true) /\ forall d, In d l /\ f d = true -> d = c.
Proof.
  intros Hd Ht. pose proof (NoDup_filter f Hd) as Hf.
  assert (Hin : forall x, In x (filter f l) <-> In x l /\ f x = true) by (intros; apply filter_In).
  assert (Hlen : length (filter f l) <= 2).
  { apply (NoDup_incl_length Hf (l' := [c1; c2])). intros x Hx. apply Hin in Hx as [_ Hx]. apply Ht in Hx as [->| ->]; cbn; auto. }
  destruct (filter f l) as [|x [|y [|z t]]] eqn:E; cbn in Hlen; try lia; cbn [length].
  - split; [discriminate|]. intros (c & Hc & _). apply Hin in Hc. destruct Hc.
  - split; [|reflexivity]. intros _. exists x. split; [apply Hin; left; reflexivity|]. intros d Hc. apply Hin in Hc as [->|[]]. reflexivity.
  - split; [discriminate|]. intros (c & Hc & Hu). exfalso.
    assert (Hx : x = c) by (apply Hu, Hin; left; reflexivity). assert (Hy : y = c) by (apply Hu, Hin; right; left; reflexivity).
    subst. inversion Hf as [|? ? Hni]. apply Hni. left. reflexivity.
Qed.

Lemma side_proper n m e : side n m e -> proper e.
Proof. unfold side, proper. intros [-> |[-> |[-> | ->]]]; cbn; lia. Qed.

Lemma boundary_set g ll ur : gwf g -> fst ur < num_n g -> snd ur < num_m g ->
  exists s, boundary_edges g ll ur = Ok s /\ NoDup s /\
    (forall e, In e s <-> exists c : nat * nat,
       (cell_in_block ll ur (fst c) (snd c) /\ complete g (fst c) (snd c) /\ side (fst c) (snd c) e) /\
       forall d : nat * nat, cell_in_block ll ur (fst d) (snd d) /\ complete g (fst d) (snd d) /\ side (fst d) (snd d) e -> d = c) /\
    (forall v, Nat.odd (degree v s) = false).
Proof.
  intros W Hn Hm. destruct (boundary_fold g ll ur W Hn Hm) as (s & Hs & [Hd Hi He _]).
  exists s. split; [exact Hs|]. split; [exact Hd|]. split; [|exact He]. intros e. rewrite Hi.
  destruct (side_two e) as (c1 & c2 & H2).
  rewrite (odd_unique _ _ c1 c2) by (try apply pairs_nodup; intros c Hc; apply andb_true_iff in Hc as [_ Hc]; apply H2, Hc).
  assert (Hcell : forall c : gindex, In c (pairs (fst ll) (fst ur) (snd ll) (snd ur)) /\ completeb g (fst c) (snd c) && sideb e c = true <->
    cell_in_block ll ur (fst c) (snd c) /\ complete g (fst c) (snd c) /\ side (fst c) (snd c) e).
  { intros [n m]. cbn [fst snd]. rewrite in_pairs, andb_true_iff, sideb_ok, complete_b. unfold cell_in_block. cbn [fst snd].
    split; [intros ((A & B) & C & D); repeat split; auto; lia|]. intros ((A & B & C & D) & (E & F & G) & H). repeat split; auto; lia. }
  split; intros (c & Hc & Hu); exists c; (split; [apply Hcell, Hc|]); intros d Hd'; apply Hu, Hcell, Hd'.
Qed.

(** *** Tracing *)
Definition end_of (v w x : gindex) : bool := xorb (index_eqb v x) (index_eqb w x).

Lemma ends_proper v e : proper e -> ends v e = end_of (fst e) (snd e) v.
Proof.
  intros Hp. unfold ends, end_of. destruct (index_eqb (fst e) v) eqn:E1, (index_eqb (snd e) v) eqn:E2; try reflexivity.
  apply index_eqb_ok in E1, E2. unfold proper in Hp. rewrite E1, E2 in Hp. lia.
Qed.

Lemma erase_proper e s : Forall proper s -> Forall proper (set_erase e s).
Proof. rewrite !Forall_forall. intros H x Hx. apply erase_in in Hx as [Hx _]. auto. Qed.

Lemma between_proper e : proper e -> between (fst e) (snd e) = e /\ between (snd e) (fst e) = e.
Proof.
  unfold proper, between. intros H. split.
  - destruct (_ <=? _) eqn:E; [symmetry; apply surjective_pairing|apply Nat.leb_gt in E; lia].
  - destruct (_ <=? _) eqn:E; [apply Nat.leb_le in E; lia|symmetry; apply surjective_pairing].
Qed.

Lemma trace_ok start : forall fuel s shared prev current, NoDup s -> Forall proper s -> In current s ->
  current = between prev shared -> (forall v, Nat.odd (degree v (set_erase current s)) = end_of start shared v) -> length s <= fuel ->
  exists l s', trace fuel start shared current s = Ok (l, s') /\ NoDup s' /\ Forall proper s' /\
    Permutation s (walk_edges (prev :: l ++ [start]) ++ s') /\ (forall v, Nat.odd (degree v s') = false) /\ ~ In start l /\
    (shared <> start -> exists t, l = shared :: t).
Proof.
  induction fuel as [|fuel IH]; intros s shared prev current Hd Hp Hin Hc Hdeg Hf.
  { destruct s; [destruct Hin|cbn in Hf; lia]. }
  pose proof (erase_perm current s Hd Hin) as Hperm.
  assert (Hlen : length s = S (length (set_erase current s))) by (rewrite (Permutation_length Hperm) at 1; reflexivity).
  cbn [trace]. destruct (index_eqb shared start) eqn:E.
  - apply index_eqb_ok in E. subst shared. exists [], (set_erase current s).
    split; [reflexivity|]. split; [apply erase_nodup, Hd|]. split; [apply erase_proper, Hp|].
    split; [cbn [app walk_edges]; rewrite <- Hc; exact Hperm|].
    split; [intros v; rewrite Hdeg; unfold end_of; apply xorb_nilpotent|]. split; [intros []|]. intros H; congruence.
  - assert (Hne : shared <> start) by (intros H; apply index_eqb_ok in H; congruence).
    match goal with |- context [find ?f ?l] => destruct (find f l) as [e|] eqn:F end.
    + apply find_some in F as [Fin Fe]. fold (ends shared e) in Fe.
      assert (He : proper e) by (pose proof (erase_proper current s Hp) as Hq; rewrite Forall_forall in Hq; apply Hq, Fin).
      set (next := if index_eqb (fst e) shared then snd e else fst e).
      assert (Hb : e = between shared next).
      { destruct (between_proper e He) as [B1 B2]. unfold next. destruct (index_eqb (fst e) shared) eqn:E1.
        - apply index_eqb_ok in E1. rewrite <- E1. auto.
        - unfold ends in Fe. rewrite E1 in Fe. cbn in Fe. apply index_eqb_ok in Fe. rewrite <- Fe. auto. }
      assert (Hends : forall v, ends v e = end_of shared next v).
      { intros v. rewrite ends_proper by exact He. unfold next, ends in *. destruct (index_eqb (fst e) shared) eqn:E1.
        - apply index_eqb_ok in E1. rewrite E1. reflexivity.
        - cbn in Fe. apply index_eqb_ok in Fe. rewrite Fe. unfold end_of. apply xorb_comm. }
      pose proof (erase_perm e _ (erase_nodup current s Hd) Fin) as Hperm2.
      destruct (IH (set_erase current s) next shared e) as (l & s' & Ht & Hd' & Hp' & HP & Hdeg' & Hns & _).
      * apply erase_nodup, Hd.
      * apply erase_proper, Hp.
      * exact Fin.
      * exact Hb.
      * intros v. specialize (Hdeg v). rewrite (degree_perm v _ _ Hperm2), degree_cons, Hends in Hdeg.
        unfold end_of in *. destruct (Nat.odd _), (index_eqb start v), (index_eqb shared v), (index_eqb next v); cbn in *; congruence.
      * lia.
      * fold next. rewrite Ht. cbn [bind]. exists (shared :: l), s'. split; [reflexivity|]. split; [exact Hd'|]. split; [exact Hp'|].
        split; [|split; [exact Hdeg'|split; [intros [H|H]; [congruence|contradiction]|intros _; eauto]]].
        cbn [app walk_edges]. rewrite <- Hc. cbn [app]. rewrite Hperm at 1. apply perm_skip. exact HP.
    + exfalso. specialize (Hdeg shared). unfold end_of in Hdeg.
      assert (E1 : index_eqb start shared = false) by (apply not_true_iff_false; rewrite index_eqb_ok; congruence).
      assert (E2 : index_eqb shared shared = true) by (apply index_eqb_ok; reflexivity).
      rewrite E1, E2 in Hdeg. cbn in Hdeg. unfold degree in Hdeg.
      destruct (filter (ends shared) (set_erase current s)) as [|x t] eqn:G; [discriminate|].
      assert (Hx : In x (filter (ends shared) (set_erase current s))) by (rewrite G; left; reflexivity).
      apply filter_In in Hx as [Hx Hx']. pose proof (find_none _ _ F x Hx) as Hf'. cbn beta in Hf'. unfold ends in Hx'. congruence.
Qed.

Lemma trace_all_ok : forall fuel s, NoDup s -> Forall proper s -> (forall v, Nat.odd (degree v s) = false) -> length s <= fuel ->
  exists polys, trace_all fuel s = Ok polys /\ Permutation s (flat_map walk_edges polys) /\ Forall closed_walk polys.
Proof.
  induction fuel as [|fuel IH]; intros s Hd Hp Hdeg Hf.
  { destruct s; [|cbn in Hf; lia]. exists []. cbn. split; [reflexivity|]. split; [constructor|constructor]. }
  destruct s as [|e t] eqn:Es; [exists []; split; [reflexivity|split; constructor]|]. rewrite <- Es in *.
  assert (Hin : In e s) by (rewrite Es; left; reflexivity).
  assert (He : proper e) by (rewrite Forall_forall in Hp; apply Hp, Hin).
  pose proof (erase_perm e s Hd Hin) as Hperm.
  destruct (trace_ok (fst e) (length s) s (snd e) (fst e) e) as (l & s' & Ht & Hd' & Hp' & HP & Hdeg' & Hns & Hhd); auto.
  - symmetry. apply between_proper, He.
  - intros v. specialize (Hdeg v). rewrite (degree_perm v _ _ Hperm), degree_cons, ends_proper in Hdeg by exact He.
    destruct (Nat.odd _), (end_of (fst e) (snd e) v); cbn in *; congruence.
  - destruct Hhd as (t' & ->). { intros H. unfold proper in He. rewrite H in He. lia. }
    assert (Hl : length s = length (walk_edges (fst e :: (snd e :: t') ++ [fst e])) + length s').
    { rewrite (Permutation_length HP), app_length. reflexivity. }
    assert (Hw : 1 <= length (walk_edges (fst e :: (snd e :: t') ++ [fst e]))) by (cbn; lia).
    destruct (IH s' Hd' Hp' Hdeg') as (polys & Hall & HP2 & Hcl); [lia|].
    exists ((fst e :: (snd e :: t') ++ [fst e]) :: polys). split.
    { unfold trace_all at 1. fold trace_all. rewrite Es. rewrite <- Es, Ht. cbn [bind]. rewrite Hall. reflexivity. }
    split; [cbn [flat_map]; rewrite HP, HP2; reflexivity|]. constructor; [|exact Hcl].
    exists (fst e), (snd e :: t'). split; [reflexivity|]. split; [exact Hns|]. destruct t' as [|x t']; [|cbn; lia]. exfalso.
    cbn [app walk_edges] in HP. destruct (between_proper e He) as [B1 B2]. rewrite B1, B2 in HP.
    apply (Permutation_NoDup HP) in Hd. inversion Hd as [|? ? H]. apply H. left. reflexivity.
Qed.

(** *** The points *)
Lemma walk_position : forall l (v : nat * nat), In v l -> 2 <= length l -> exists e, In e (walk_edges l) /\ (v = fst e \/ v = snd e).
Proof.
  intros l. induction l as [|a [|b t] IH]; intros v Hv Hl; cbn [length] in Hl; try lia.
  assert (Hab : forall w, w = a \/ w = b -> exists e, In e (walk_edges (a :: b :: t)) /\ (w = fst e \/ w = snd e)).
  { intros w Hw. exists (between a b). split; [left; reflexivity|]. unfold between. destruct (_ <=? _); cbn; tauto. }
  destruct Hv as [<-|[<-|Hv]]; [apply Hab; auto|apply Hab; auto|].
  destruct t as [|c t]; [destruct Hv|].
  destruct (IH v) as (e & He & Hve); [right; exact Hv|cbn; lia|]. exists e. split; [right; exact He|exact Hve].
Qed.

Lemma join_separators l : join_polygons l = with_separators l.
Proof.
  unfold with_separators. induction l as [|p [|q t] IH]; [reflexivity|cbn; rewrite app_nil_r; reflexivity|].
  cbn [join_polygons flat_map]. change (join_polygons (q :: t)) with (join_polygons (q :: t)) in IH. cbn [join_polygons] in IH. rewrite IH. reflexivity.
Qed.

Lemma side_corner g n m e v : complete g n m -> side n m e -> v = fst e \/ v = snd e -> shown2 g v /\ is_valid (vis2 g v) = true.
Proof.
  unfold complete, shown2, shown, vis2. intros (Hn & Hm & H1 & H2 & H3 & H4) Hs Hv.
  unfold side in Hs. destruct Hs as [-> |[-> |[-> | ->]]]; destruct Hv as [-> | ->]; cbn [fst snd]; (split; [lia|assumption]).
Qed.

Lemma boundary_view g ll ur : gwf g -> fst ur < num_n g -> snd ur < num_m g ->
  exists s polys, boundary_edges g ll ur = Ok s /\ NoDup s /\
    (forall e, In e s <-> exists c : nat * nat,
       (cell_in_block ll ur (fst c) (snd c) /\ complete g (fst c) (snd c) /\ side (fst c) (snd c) e) /\
       forall d : nat * nat, cell_in_block ll ur (fst d) (snd d) /\ complete g (fst d) (snd d) /\ side (fst d) (snd d) e -> d = c) /\
    boundary_polygons g ll ur = Ok (with_separators (map (map (vis2 g)) polys)) /\
    Permutation s (flat_map walk_edges polys) /\ Forall closed_walk polys /\
    forall poly v, In poly polys -> In v poly -> is_valid (vis2 g v) = true.
Proof.
  intros W Hn Hm. destruct (boundary_set g ll ur W Hn Hm) as (s & Hs & Hd & Hi & Hdeg).
  assert (Hp : Forall proper s).
  { apply Forall_forall. intros e He. apply Hi in He as (c & (_ & _ & He) & _). eapply side_proper, He. }
  destruct (trace_all_ok (length s) s Hd Hp Hdeg (le_n _)) as (polys & Ht & HP & Hcl).
  assert (Hpos : forall poly v, In poly polys -> In v poly -> shown2 g v /\ is_valid (vis2 g v) = true).
  { intros poly v Hpoly Hv. destruct (walk_position poly v Hv) as (e & He & Hve).
    { rewrite Forall_forall in Hcl. destruct (Hcl poly Hpoly) as (a & t & -> & _ & Hl). cbn. rewrite app_length. cbn. lia. }
    assert (Hes : In e s). { eapply Permutation_in; [symmetry; exact HP|]. apply in_flat_map. eauto. }
    apply Hi in Hes as (c & (_ & Hc & Hside) & _). eapply side_corner; eauto. }
  exists s, polys. split; [exact Hs|]. split; [exact Hd|]. split; [exact Hi|]. split.
  - unfold boundary_polygons. rewrite Hs. cbn [bind]. rewrite Ht. cbn [bind].
    rewrite (map_out_ok _ (map (vis2 g))).
    + cbn [bind]. rewrite join_separators. reflexivity.
    + intros poly Hpoly. apply map_out_ok. intros v Hv. apply get_node_ok; [exact W|]. apply (Hpos poly v Hpoly Hv).
  - split; [exact HP|]. split; [exact Hcl|]. intros poly v Hpoly Hv. apply (Hpos poly v Hpoly Hv).
Qed.

(** The theorems about networks assembled from NetworkProofs, and concrete networks. *)
From Coq Require Import QArith Qabs Qround Lqa Sorting.Sorted Sorting.Permutation.
From Verif Require Import Base BaseLemmas FloatModel UndoModel MeshModel MeshSpec MeshConstruct NetworkModel NetworkSpec NetworkProofs MeshWitness.
Local Open Scope nat_scope.

(** *** The mesh of a network of one or two polylines *)
Lemma mesh1d_two discs p :
  length (filter nonempty discs) <= 2 -> (forall d, In d discs -> length d <> 1 /\ forall q, In q d -> is_valid q = true) ->
  exists m edges, mesh1d_of discs p = Ok m /\ m_projection m = p /\ m_nodes m = concat discs /\
    m_edges m = map (fun e => (Some (fst e), Some (snd e))) edges /\ NoDup edges /\ forall a b, In (a, b) edges <-> joined discs a b.
Proof.
  intros H2 Hd. pose proof (lists_two discs H2) as L. unfold mesh1d_of. destruct (network_lists discs) as (nodes & edges).
  destruct L as (-> & N & J). set (lift := fun e : nat * nat => (Some (fst e), Some (snd e))).
  assert (Len : forall k d, nth_error discs k = Some d -> length (concat (firstn k discs)) + length d <= length (concat discs)).
  { intros k d Hk. apply nth_error_split in Hk as (l1 & l2 & -> & <-). rewrite firstn_app, Nat.sub_diag, firstn_all, app_nil_r, concat_app. cbn.
    rewrite !app_length. lia. }
  assert (Ed : forall a b, In (a, b) edges -> a < length (concat discs) /\ b < length (concat discs)).
  { intros a b H. apply J in H as (-> & k & d & Hk & H & H'). specialize (Len _ _ Hk). lia. }
  assert (V : forall n, n < length (concat discs) -> valid_at (concat discs) n = true).
  { intros n Hn. unfold valid_at. destruct (nth_error (concat discs) n) as [q|] eqn:E; [|apply nth_error_None in E; lia].
    apply nth_error_In, in_concat in E as (d & H & Hq). now apply (Hd d). }
  assert (Lv : forall e, In e (map lift edges) -> live (concat discs) e = true).
  { intros e He. apply in_map_iff in He as ((a & b) & <- & He). apply Ed in He. cbn. rewrite !V; tauto. }
  assert (WI : well_indexed (concat discs) (map lift edges)).
  { intros e n He Hn. apply in_map_iff in He as ((a & b) & <- & He). apply Ed in He. destruct Hn as [[= <-]|[= <-]]; tauto. }
  destruct (delete_invalid_spec (Mesh (concat discs) (map lift edges) [] [] p) WI) as (m & E & W & Em). cbn in W, Em.
  assert (Hc : forall n, n < length (concat discs) -> connected (concat discs) (map lift edges) n).
  { intros n Hn.
      assert (P : forall (discs : list (list point)) n, n < length (concat discs) -> exists k d, nth_error discs k = Some d /\ length (concat (firstn k discs)) <= n < length (concat (firstn k discs)) + length d).
      { clear. intros discs. induction discs as [|d t IH]; cbn; intros n H; [lia|]. rewrite app_length in H. destruct (Nat.lt_ge_cases n (length d)).
        - exists 0, d. cbn. split; auto. lia.
        - destruct (IH (n - length d) ltac:(lia)) as (k & d' & Hk & B). exists (S k), d'. cbn. rewrite app_length. split; auto. lia. }
      destruct (P discs n Hn) as (k & d & Hk & B). destruct (Hd d (nth_error_In _ _ Hk)) as (H1 & _).
      assert (Q : exists a, In (a, S a) edges /\ (n = a \/ n = S a)).
      { destruct (Nat.eq_dec (S n) (length (concat (firstn k discs)) + length d)).
        - exists (n - 1). split; [|lia]. apply J. split; [lia|]. exists k, d. repeat split; auto; lia.
        - exists n. split; [|lia]. apply J. split; [lia|]. exists k, d. repeat split; auto; lia. }
      destruct Q as (a & Ha & Hna). exists (lift (a, S a)). split; [now apply in_map|]. split; [apply Lv; now apply in_map|]. cbn.
      destruct Hna as [-> | ->]; [left|right]; reflexivity. }
  destruct (well_formed_part_same _ _ _ _ W Lv Hc WI) as (E1 & E2). exists m, edges. rewrite E1, E2. repeat split; auto; apply J; auto.
Qed.

(** *** From polylines to points *)
Lemma map_out_all {A B} (f : A -> outcome B) (P : A -> B -> Prop) l : (forall a, In a l -> exists b, f a = Ok b /\ P a b) ->
  exists r, map_out f l = Ok r /\ Forall2 P l r.
Proof.
  induction l as [|a t IH]; intros H; cbn; [eauto|]. destruct (H a (or_introl eq_refl)) as (b & -> & Pb). cbn.
  destruct IH as (r & -> & F); [intros; apply H; cbn; auto|]. cbn. eauto.
Qed.

Section Pipeline.
  Variable dist : qpoint -> qpoint -> Q.
  Let lens := edge_lengths dist.

  Lemma upto_total l : (upto l (length l) == sum_q l)%Q.
  Proof. unfold upto. rewrite firstn_all. reflexivity. Qed.
  Lemma upto_mono l : (forall x, In x l -> (0 < x)%Q) -> forall j k, j <= k -> (upto l j <= upto l k)%Q.
  Proof.
    intros P j k H. induction H as [|k H IH]; [apply Qle_refl|]. destruct (nth_error l k) as [x|] eqn:E.
    - rewrite (upto_S _ _ _ E). specialize (P x (nth_error_In _ _ E)). lra.
    - apply nth_error_None in E. unfold upto in *. rewrite (firstn_all2 l (n := S k)) by lia. rewrite (firstn_all2 l (n := k)) in IH by lia. auto.
  Qed.
  Lemma running_last l : forall s d, (last (running s l) d == s + sum_q l)%Q.
  Proof.
    induction l as [|x l IH]; intros s d; cbn [running]; [cbn; ring|]. replace (last (s :: running (s + x) l) d) with (last (running (s + x) l) d).
    - rewrite IH. unfold sum_q. cbn [fold_right]. ring.
    - pose proof (running_length l (s + x)%Q). destruct (running (s + x) l); [easy|reflexivity].
  Qed.
  Lemma end_chainages_ok pl : 2 <= length pl -> exists a b, end_chainages dist pl = Ok [a; b] /\ (a == 0)%Q /\ (b == sum_q (lens pl))%Q.
  Proof.
    intros H. unfold end_chainages. rewrite nodal_eq by auto. unfold lens. pose proof (edge_lengths_length dist pl) as L.
    destruct (edge_lengths dist pl) as [|l t]; [cbn in L; lia|]. cbn [running].
    exists 0%Q, (last (running (0 + l) t) 0%Q). split; auto. split; [reflexivity|]. rewrite running_last. unfold sum_q. cbn [fold_right]. ring.
  Qed.

  Lemma spread offset pl : (0 < offset)%Q -> 2 <= length pl -> (forall l, In l (lens pl) -> (offset <= l)%Q) ->
    exists ends ch s ps, end_chainages dist pl = Ok ends /\ offset_line offset ends = Ok ch /\ discretize dist pl ch = Ok (s, ps) /\
      spread_over dist offset pl ps.
  Proof.
    intros Ho H2 Hl. destruct (end_chainages_ok pl H2) as (a & b & Ee & Ea & Eb).
    destruct (offset_ok offset [a; b] Ho) as (ch & Ec & (new & P & N) & G).
    assert (Pos : forall l, In l (lens pl) -> (0 < l)%Q) by (intros l H; specialize (Hl l H); lra).
    assert (LL : length (lens pl) = length pl - 1) by apply edge_lengths_length.
    assert (Et : (upto (lens pl) (length pl - 1) == sum_q (lens pl))%Q) by (rewrite <- LL; apply upto_total).
    assert (Ab : (a <= b)%Q).
    { rewrite Ea, Eb, <- Et. pose proof (upto_mono (lens pl) Pos 0 (length pl - 1) ltac:(lia)) as M. exact M. }
    assert (R : forall c, In c ch -> (a <= c <= b)%Q).
    { intros c Hc. apply (Permutation_in _ (Permutation_sym P)) in Hc. apply in_app_or in Hc as [[<-|[<-|[]]]|Hc]; [lra|lra|].
      destruct (N c Hc) as ((x & [<-|[<-|[]]] & Lx) & (y & [<-|[<-|[]]] & Ly)); lra. }
    assert (Ia : In a ch) by (apply (Permutation_in _ P); cbn; auto).
    assert (Ib : In b ch) by (apply (Permutation_in _ P); cbn; auto).
    destruct (discretize_spec dist pl ch H2 Pos) as (s & ps & Ed & (Ps & Ss) & F).
    - intros c Hc. specialize (R c Hc). unfold lens in Et. rewrite Et. fold lens. lra.
    - intros k Hk1 Hk2 (c & Hc & Lc).
      assert (M0 : (0 <= upto (lens pl) k)%Q). { apply (upto_mono (lens pl) Pos 0 k). lia. }
      destruct (nth_error (lens pl) k) as [x|] eqn:E; [|apply nth_error_None in E; unfold lens in E; lia].
      pose proof (upto_S _ _ _ E) as E2. pose proof (Hl x (nth_error_In _ _ E)) as E3. pose proof (Pos x (nth_error_In _ _ E)) as E4.
      fold lens in Lc |- *. destruct (G (upto (lens pl) k)) as (d & Hd & Ld).
      + exists a. split; auto. lra.
      + exists c. split; auto. lra.
      + exists d. split; auto. lra.
    - exists [a; b], ch, s, ps. repeat split; auto. exists s. split; auto. split.
      + intros x (c & Hc & Lc) (d & Hd & Ld). destruct (G x) as (e & He & Le).
        * exists c. split; auto. apply (Permutation_in _ (Permutation_sym Ps)); auto.
        * exists d. split; auto. apply (Permutation_in _ (Permutation_sym Ps)); auto.
        * exists e. split; auto. apply (Permutation_in _ Ps); auto.
      + split; [exists a; split; auto; apply (Permutation_in _ Ps); auto|]. split; [exists b; split; auto; apply (Permutation_in _ Ps); auto|exact F].
  Qed.

  Lemma network_spread offset lines : (0 < offset)%Q ->
    (forall pl, In pl lines -> 2 <= length pl /\ forall l, In l (lens pl) -> (offset <= l)%Q) ->
    exists n1 n2 n3 ds, new_network dist lines = Ok n1 /\ compute_offset n1 offset = Ok n2 /\ discretizations dist n2 = Ok (n3, ds) /\
      Forall2 (spread_over dist offset) lines ds.
  Proof.
    intros Ho H.
    assert (G : exists e c ss ds, map_out (end_chainages dist) lines = Ok e /\ map_out (offset_line offset) e = Ok c /\
      discretize_all dist lines c = Ok (ss, ds) /\ Forall2 (spread_over dist offset) lines ds).
    { induction lines as [|pl t IH]; [exists [], [], [], []; cbn; auto|].
      destruct IH as (e & c & ss & ds & E1 & E2 & E3 & F); [intros; apply H; cbn; auto|].
      destruct (H pl (or_introl eq_refl)) as (H2 & Hl). destruct (spread offset pl Ho H2 Hl) as (ends & ch & s & ps & F1 & F2 & F3 & F4).
      exists (ends :: e), (ch :: c), (s :: ss), (ps :: ds). cbn. rewrite E1, F1. cbn. rewrite E2, F2. cbn. rewrite F3, E3. cbn. auto. }
    destruct G as (e & c & ss & ds & E1 & E2 & E3 & F).
    exists (Network lines e), (Network lines c), (Network lines ss), ds. unfold new_network, compute_offset, discretizations. cbn.
    rewrite E1. cbn. rewrite E2. cbn. rewrite E3. auto.
  Qed.
End Pipeline.

(** *** Concrete networks.  Distances along the axes. *)
Definition axis_dist (a b : qpoint) : Q := (Qabs (fst a - fst b) + Qabs (snd a - snd b))%Q.
Definition qp (x y : Z) : qpoint := (inject_Z x, inject_Z y).

(** Three sides of a square. *)
Definition sides : list qpoint := [qp 0 0; qp 1 0; qp 1 1; qp 0 1].

Lemma skip_refuted : exists n, new_network axis_dist [sides] = Ok n /\
  exists n' p0 p1, discretizations axis_dist n = Ok (n', [[Some p0; Some p1]]) /\ forall c, ~ at_chainage sides (edge_lengths axis_dist sides) c p1.
Proof.
  eexists. split; [vm_compute; reflexivity|]. do 3 eexists. split; [vm_compute; reflexivity|].
  intros c (k & a & b & len & Ha & Hb & _ & _ & t & _ & Ht & (_ & E)). cbn [snd] in E.
  destruct k as [|[|[|[|k]]]]; cbn in Ha, Hb; try discriminate; injection Ha as <-; injection Hb as <-; cbv [qp fst snd inject_Z] in E; lra.
Qed.
Lemma repeated_refuted : exists n n' p, new_network axis_dist [[qp 0 0; qp 0 0; qp 1 0]] = Ok n /\
  discretizations axis_dist n = Ok (n', [[None; p]]).
Proof. do 3 eexists. split; vm_compute; reflexivity. Qed.
Lemma beyond_refuted : exists n n', new_network axis_dist [[qp 0 0; qp 100 0]] = Ok n /\
  compute_fixed Qeq_bool n [[120%Q]] 5 1 = Ok n' /\ discretizations axis_dist n' = UB.
Proof. do 2 eexists. split; [vm_compute; reflexivity|]. split; vm_compute; reflexivity. Qed.
Lemma start_refuted (near : Q -> Q -> bool) : near 0%Q 0%Q = true ->
  exists l, fixed_line near 5 1 [0; 100]%Q [0; 50]%Q = l /\ (forall c, In c l -> c < 50)%Q /\ (exists c, In c l /\ c < 0)%Q.
Proof.
  intros H. eexists. split; [reflexivity|]. unfold fixed_line. rewrite H. vm_compute fold_left. cbn [fst]. split.
  - intros c Hc. cbn in Hc. repeat destruct Hc as [<-|Hc]; try easy; reflexivity.
  - eexists. split; [cbn; right; left; reflexivity|reflexivity].
Qed.

Definition three_lines : list (list point) := [[pt 0 0; pt 1 0]; [pt 0 2; pt 1 2]; [pt 0 4; pt 1 4]].
Lemma three_lost : exists m, mesh1d_of three_lines Cartesian = Ok m /\ m_nodes m = [pt 0 0; pt 1 0; pt 0 2; pt 1 2] /\
  m_edges m = [(Some 0, Some 1); (Some 2, Some 3)].
Proof. eexists. split; [vm_compute; reflexivity|]. split; vm_compute; reflexivity. Qed.

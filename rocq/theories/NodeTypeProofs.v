(** Node types. *)
From Coq Require Import Permutation.
From Verif Require Import Base BaseLemmas FloatModel MeshModel MeshSpec MeshProofs FaceModel FaceSpec FlipModel FlipSpec FlipProofs FlipStep NodeTypeModel NodeTypeSpec.

Lemma vget_some {A} (l : list A) i x : nth_error l i = Some x -> vget l i = Ok x.
Proof. apply vget_ok. Qed.

Section Types.
  Variable sharp : projection -> point -> point -> point -> bool.
  Variables (m : mesh) (f : faces).
  Hypothesis Hs : in_step m f.

  Lemma faces_of e : e < length (m_edges m) -> exists k, nth_error (edges_num_faces f) e = Some k /\ k <= 2 /\ (k = 0 <-> forall i, ~ lists f i e) /\ (k = 1 <-> on_boundary f e).
  Proof.
    intros He. destruct (st_edge m f Hs e He) as (p & q & _ & L & D & N & K). exists (known p + known q). split; [exact K|].
    destruct p as [p|]; [|rewrite (N eq_refl) in *]; [destruct q as [q|]|]; cbn [known Nat.add].
    - split; [lia|]. split; (split; [discriminate|]).
      + intros H. exfalso. apply (H p). apply L. auto.
      + intros (i & H). exfalso. assert (p = i) by (apply H, L; auto). assert (q = i) by (apply H, L; auto). subst. discriminate D. reflexivity.
    - split; [lia|]. split; (split; [try discriminate|auto]).
      + intros H. exfalso. apply (H p). apply L. auto.
      + intros _. exists p. intros j. rewrite L. split; [intros [E|E]; [injection E; auto|discriminate]|intros ->; auto].
    - split; [lia|]. split; (split; [|auto; try discriminate]).
      + intros _ i H. apply L in H as [H|H]; discriminate.
      + discriminate.
      + intros (i & H). exfalso. assert (X : lists f i e) by (apply H; reflexivity). apply L in X as [X|X]; discriminate.
  Qed.
  Lemma used_ends e i : lists f i e -> exists a b, edge_at m e = (Some a, Some b) /\ a <> b /\ a < length (m_nodes m) /\ b < length (m_nodes m).
  Proof.
    intros (es & Hes & Hin). destruct (st_tables m f Hs) as (T1 & _). assert (Li : i < length (faces_edges f)) by (apply nth_error_Some; congruence).
    destruct (nth_error (faces_nodes f) i) as [ns|] eqn:Hns; [|apply nth_error_None in Hns; unfold num_faces in T1; lia].
    destruct (st_face m f Hs i ns es Hns Hes) as (L3 & ND & (Lc & Cy) & V). apply In_nth_error in Hin as (j & Hj). assert (Lj : j < length ns) by (rewrite <- Lc; apply nth_error_Some; congruence).
    assert (X : forall k, exists x, cyclic ns k = Some x /\ In x ns).
    { intros k. unfold cyclic. destruct (nth_error ns (k mod length ns)) as [x|] eqn:E; [exists x; split; [reflexivity|eapply nth_error_In; eauto]|]. apply nth_error_None in E.
      pose proof (Nat.mod_upper_bound k (length ns)). lia. }
    destruct (X j) as (x & Hx & Ix), (X (S j)) as (y & Hy & Iy). destruct (Cy j x y e Hx Hy) as (_ & J); [unfold cyclic; rewrite Lc, Nat.mod_small by exact Lj; exact Hj|].
    assert (x <> y).
    { intros <-. unfold cyclic in *. pose proof (Nat.mod_upper_bound (S j) (length ns) ltac:(lia)). rewrite Nat.mod_small in Hx by exact Lj.
      assert (E : j = S j mod length ns) by (apply (proj1 (NoDup_nth_error ns) ND); [exact Lj|congruence]).
      destruct (Nat.eq_dec (S j) (length ns)) as [S1|S1]; [rewrite S1, Nat.mod_same in E by lia|rewrite Nat.mod_small in E by lia]; lia. }
    apply V, valid_lt in Ix. apply V, valid_lt in Iy. destruct J as [J|J]; rewrite J; eauto 10.
  Qed.

  Definition bnd (n e : nat) : bool := touches (edge_at m e) n && (nth e (edges_num_faces f) 0 =? 1).
  Definition cnt (k n : nat) : nat := length (filter (bnd n) (seq 0 k)).
  Lemma cnt_S k n : cnt (S k) n = cnt k n + (if bnd n k then 1 else 0).
  Proof. unfold cnt. rewrite seq_S, filter_app, app_length. cbn. now destruct (bnd n k). Qed.
  Lemma touches_ends ed n : touches ed n = true <-> ends_in ed n.
  Proof.
    unfold touches, ends_in. rewrite orb_true_iff. assert (X : forall o : option nat, eq_idx o (Some n) = true <-> o = Some n).
    { intros [o|]; cbn; [rewrite Nat.eqb_eq; split; congruence|split; discriminate]. }
    now rewrite !X.
  Qed.

  Definition counted (k : nat) (types : list Z) : Prop := length types = length (m_nodes m) /\
    (forall n, n < length (m_nodes m) -> (nth n types 0%Z = (-1)%Z /\ exists e, unused m f e /\ ends_in (edge_at m e) n) \/ (0 <= nth n types 0 <= Z.of_nat (cnt k n))%Z) /\
    ((forall e, ~ unused m f e) -> forall n, n < length (m_nodes m) -> nth n types 0%Z = Z.of_nat (cnt k n)).

  Lemma nth_set {A} i x n (l : list A) d : i < length l -> nth n (set_nth i x l) d = if n =? i then x else nth n l d.
  Proof.
    intros Hi. destruct (Nat.eqb_spec n i) as [->|E].
    - apply nth_error_nth. apply nth_error_set_nth_eq. exact Hi.
    - destruct (nth_error l n) as [y|] eqn:Ey.
      + rewrite (nth_error_nth _ _ _ Ey). apply nth_error_nth. rewrite nth_error_set_nth_neq by congruence. exact Ey.
      + apply nth_error_None in Ey. rewrite !nth_overflow; [reflexivity|exact Ey|rewrite set_nth_length; exact Ey].
  Qed.

  Lemma count_edge_ok types e : counted e types -> e < length (m_edges m) -> exists types', count_edge m f types e = Ok types' /\ counted (S e) types'.
  Proof.
    intros (L & C1 & C2) He. unfold count_edge. destruct (nth_error (m_edges m) e) as [ed|] eqn:Ee; [|apply nth_error_None in Ee; lia].
    rewrite (vget_some (m_edges m) e ed Ee). cbn [bind]. assert (Ea : edge_at m e = ed) by (unfold edge_at; apply nth_error_nth; exact Ee).
    destruct (faces_of e He) as (k & Hk & _ & K0 & K1).
    assert (Bk : nth e (edges_num_faces f) 0 = k) by (apply nth_error_nth; exact Hk).
    assert (Keep : forall types', length types' = length types -> (forall n, n < length (m_nodes m) -> nth n types' 0%Z = nth n types 0%Z) -> k <> 1 -> counted (S e) types').
    { intros types' L' Hn Hk1. assert (E : forall n, cnt (S e) n = cnt e n) by (intros n; rewrite cnt_S; unfold bnd; rewrite Bk; destruct (Nat.eqb_spec k 1); [contradiction|]; rewrite andb_false_r; lia).
      split; [congruence|]. split; [intros n H; rewrite Hn, E by exact H; auto|intros U n H; rewrite Hn, E by exact H; auto]. }
    assert (Raise : forall types', types' = types -> (exists u, unused m f u) -> counted (S e) types').
    { intros types' -> U. assert (E : forall n, cnt e n <= cnt (S e) n) by (intros n; rewrite cnt_S; lia).
      split; [exact L|]. split; [|intros H; destruct U as (u & U); destruct (H u U)]. intros n H. destruct (C1 n H) as [X|X]; [auto|right]. specialize (E n). clear - X E. lia. }
    assert (NJ : forall x y, ed = (x, y) -> k = 1 -> exists a b, x = Some a /\ y = Some b /\ a <> b /\ a < length (m_nodes m) /\ b < length (m_nodes m)).
    { intros x y E1 E2. apply K1 in E2. destruct E2 as (i & E2). assert (Li : lists f i e) by (apply E2; reflexivity). destruct (used_ends e i Li) as (a & b & Eab & Hab). rewrite Ea, E1 in Eab. injection Eab as -> ->. eauto 10. }
    destruct ed as [[a|] [b|]].
    2-4: exists types; split; [reflexivity|]; apply Keep; auto; intros ->; destruct (NJ _ _ eq_refl eq_refl) as (? & ? & ? & ? & _); discriminate.
    assert (Ha : a < length (m_nodes m)) by (apply (co_ends m (st_mesh m f Hs) (Some a, Some b)); [eapply nth_error_In; eauto|left; reflexivity]).
    assert (Hb : b < length (m_nodes m)) by (apply (co_ends m (st_mesh m f Hs) (Some a, Some b)); [eapply nth_error_In; eauto|right; reflexivity]).
    assert (G : forall l : list Z, length l = length types -> forall n, n < length (m_nodes m) -> vget l n = Ok (nth n l 0%Z)).
    { intros l Ll n Hn. apply vget_some. apply nth_error_nth'. lia. }
    rewrite (G types eq_refl a Ha), (G types eq_refl b Hb). cbn [bind].
    destruct ((nth a types 0 =? -1) || (nth b types 0 =? -1))%Z eqn:E1.
    - exists types. split; [reflexivity|]. apply Raise; [reflexivity|]. apply orb_true_iff in E1. destruct E1 as [E1|E1]; apply Z.eqb_eq in E1; [specialize (C1 a Ha)|specialize (C1 b Hb)];
        (destruct C1 as [(_ & u & U & _)|X]; [eauto|clear - E1 X; lia]).
    - apply orb_false_iff in E1 as [E1 E2]. apply Z.eqb_neq in E1, E2. rewrite (vget_some _ _ _ Hk). cbn [bind]. destruct (Nat.eqb_spec k 0) as [->|N0].
      + rewrite (vset_lt (A := Z) a _ types) by lia. cbn [bind]. rewrite vset_lt by (rewrite set_nth_length; lia). cbn [bind]. exists (set_nth b (-1)%Z (set_nth a (-1)%Z types)). split; [reflexivity|].
        assert (U : unused m f e) by (split; [exact He|]; split; [exists a, b; exact Ea|apply K0; reflexivity]).
        split; [rewrite !set_nth_length; exact L|]. split; [|intros H; destruct (H e U)].
        intros n Hn. rewrite nth_set by (rewrite set_nth_length; lia). rewrite nth_set by lia. assert (Ce : cnt e n <= cnt (S e) n) by (rewrite cnt_S; lia).
        destruct (Nat.eqb_spec n b) as [->|]; [left; split; [reflexivity|]; exists e; split; [exact U|]; rewrite Ea; right; reflexivity|].
        destruct (Nat.eqb_spec n a) as [->|]; [left; split; [reflexivity|]; exists e; split; [exact U|]; rewrite Ea; left; reflexivity|].
        destruct (C1 n Hn) as [X|X]; [auto|right]. clear - X Ce. lia.
      + cbn [bind]. destruct (Nat.eqb_spec k 1) as [->|N1].
        2:{ exists types. split; [reflexivity|]. apply Keep; auto. }
        destruct (NJ _ _ eq_refl eq_refl) as (a' & b' & Ea' & Eb' & Hab & _). injection Ea' as <-. injection Eb' as <-.
        rewrite (G types eq_refl a Ha). cbn [bind]. rewrite vset_lt by lia. cbn [bind]. rewrite (G (set_nth a _ types)) by (rewrite ?set_nth_length; auto). cbn [bind].
        rewrite vset_lt by (rewrite set_nth_length; lia). eexists. split; [reflexivity|].
        assert (E : forall n, n < length (m_nodes m) -> nth n (set_nth b (nth b (set_nth a (nth a types 0 + 1) types) 0 + 1) (set_nth a (nth a types 0 + 1) types))%Z 0%Z =
          (nth n types 0 + if (n =? a)%nat || (n =? b)%nat then 1 else 0)%Z).
        { intros n Hn. rewrite !nth_set by (rewrite ?set_nth_length; lia). destruct (Nat.eqb_spec b a) as [X|_]; [congruence|].
          destruct (Nat.eqb_spec n b) as [->|_]; [rewrite orb_true_r; reflexivity|]. rewrite orb_false_r. destruct (Nat.eqb_spec n a) as [->|_]; lia. }
        assert (E' : forall n, Z.of_nat (cnt (S e) n) = (Z.of_nat (cnt e n) + if (n =? a)%nat || (n =? b)%nat then 1 else 0)%Z).
        { intros n. rewrite cnt_S. unfold bnd. rewrite Bk, Ea. cbn [Nat.eqb]. rewrite andb_true_r. unfold touches. cbn [fst snd eq_idx]. rewrite (Nat.eqb_sym a n), (Nat.eqb_sym b n).
          destruct ((n =? a) || (n =? b)); lia. }
        split; [rewrite !set_nth_length; exact L|]. split.
        * intros n Hn. rewrite E, E' by exact Hn. destruct (C1 n Hn) as [(X & Y)|X].
          -- left. split; [|exact Y]. destruct (Nat.eqb_spec n a) as [->|_]; [contradiction|]. destruct (Nat.eqb_spec n b) as [->|_]; [contradiction|]. cbn. lia.
          -- right. destruct ((n =? a) || (n =? b)); clear - X; lia.
        * intros U n Hn. rewrite E, E' by exact Hn. rewrite C2 by auto. reflexivity.
  Qed.

  Lemma counting_ok k : k <= length (m_edges m) -> exists types, fold_out (count_edge m f) (seq 0 k) (repeat 0%Z (length (m_nodes m))) = Ok types /\ counted k types.
  Proof.
    induction k as [|k IH]; intros Hk.
    - exists (repeat 0%Z (length (m_nodes m))). split; [reflexivity|]. split; [apply repeat_length|]. assert (E : forall n, nth n (repeat 0%Z (length (m_nodes m))) 0%Z = 0%Z) by (intros n; apply nth_repeat).
      split; [intros n _; rewrite E; right; cbn; lia|intros _ n _; rewrite E; reflexivity].
    - destruct IH as (types & E & C); [lia|]. destruct (count_edge_ok types k C) as (types' & E' & C'); [lia|]. exists types'. split; [|exact C'].
      rewrite seq_S, fold_out_app, E. cbn. rewrite E'. reflexivity.
  Qed.

  Lemma boundary_ends_none n is : n < length (m_nodes m) -> (forall i, In i is -> i < degree_of m n) -> exists y, boundary_ends m f n is None = Ok (None, y).
  Proof.
    intros Hn. destruct (st_row m f Hs n Hn) as (D & _ & R). induction is as [|i is IH]; intros Hi; [exists None; reflexivity|]. cbn [boundary_ends].
    assert (Hr : exists r, nth_error (m_nodesEdges m) n = Some r).
    { destruct (nth_error (m_nodesEdges m) n) as [r|] eqn:E; [eauto|]. assert (X : row_of m n = []) by (unfold row_of; apply nth_overflow; apply nth_error_None; exact E).
      specialize (Hi i (or_introl eq_refl)). rewrite D, X in Hi. inversion Hi. }
    destruct Hr as (r & Hr). assert (Er : row_of m n = r) by (unfold row_of; apply nth_error_nth; exact Hr). rewrite (vget_some _ _ _ Hr). cbn [bind].
    destruct (nth_error r i) as [oe|] eqn:Ei; [|apply nth_error_None in Ei; specialize (Hi i (or_introl eq_refl)); rewrite D, Er in Hi; lia]. rewrite (vget_some _ _ _ Ei). cbn [bind].
    destruct (R oe) as (e & o & -> & He & _); [rewrite Er; eapply nth_error_In; eauto|]. cbn [bind]. destruct (faces_of e He) as (k & Hk & _). rewrite (vget_some _ _ _ Hk). cbn [bind].
    destruct (negb (k =? 1)); [apply IH; intros; apply Hi; right; assumption|]. destruct (nth_error (m_edges m) e) as [ed|] eqn:Ee; [|apply nth_error_None in Ee; lia]. rewrite (vget_some _ _ _ Ee). cbn [bind eq_idx]. eauto.
  Qed.

  Definition final (t : Z) (d : nat) : Z :=
    if d <? 2 then (-1)%Z else if ((t =? 1) || (t =? 2))%Z then if d =? 2 then 3%Z else 2%Z else if (2 <? t)%Z then 3%Z else if negb (t =? -1)%Z then 1%Z else t.
  Lemma degree_get n : n < length (m_nodes m) -> vget (m_nodesNumEdges m) n = Ok (degree_of m n).
  Proof.
    intros Hn. apply vget_some. unfold degree_of. apply nth_error_nth'. rewrite (co_counts m (st_mesh m f Hs)). exact Hn.
  Qed.
  Lemma node_type_ok n t : n < length (m_nodes m) -> node_type sharp m f n t = Ok (final t (degree_of m n)).
  Proof.
    intros Hn. unfold node_type, final. rewrite degree_get by exact Hn. cbn [bind]. destruct ((t =? 1) || (t =? 2))%Z.
    - destruct (Nat.eqb_spec (degree_of m n) 2) as [->|E]; cbn [bind]; [reflexivity|]. destruct (boundary_ends_none n (seq 0 (degree_of m n)) Hn) as (y & ->); [intros i Hi; apply in_seq in Hi; lia|]. reflexivity.
    - reflexivity.
  Qed.
  Lemma finishing_ok types k : length types = length (m_nodes m) -> k <= length (m_nodes m) ->
    exists types', fold_out (fun types n => let! t := vget types n in let! t := node_type sharp m f n t in vset n t types) (seq 0 k) types = Ok types' /\
      length types' = length types /\ forall n, n < length (m_nodes m) -> nth n types' 0%Z = if n <? k then final (nth n types 0%Z) (degree_of m n) else nth n types 0%Z.
  Proof.
    intros L. induction k as [|k IH]; intros Hk; [exists types; auto|]. destruct IH as (t1 & E & L1 & N1); [lia|]. exists (set_nth k (final (nth k types 0%Z) (degree_of m k)) t1).
    split; [|split; [rewrite set_nth_length; exact L1|]].
    - rewrite seq_S, fold_out_app, E. cbn. rewrite (vget_some t1 k (nth k t1 0%Z)) by (apply nth_error_nth'; lia). cbn [bind]. rewrite node_type_ok by lia. cbn [bind]. rewrite vset_lt by lia. cbn. rewrite N1 by lia.
      rewrite Nat.ltb_irrefl. reflexivity.
    - intros n Hn. rewrite nth_set by lia. destruct (Nat.eqb_spec n k) as [->|X].
      + destruct (Nat.ltb_spec k (S k)); [reflexivity|lia].
      + rewrite N1 by exact Hn. destruct (Nat.ltb_spec n k), (Nat.ltb_spec n (S k)); try reflexivity; lia.
  Qed.

  Lemma cnt_boundary n bs : boundary_edges m f n bs -> cnt (length (m_edges m)) n = length bs.
  Proof.
    intros [ND H]. unfold cnt. apply Permutation_length. apply NoDup_Permutation; [apply NoDup_filter, seq_NoDup|exact ND|]. intros e. rewrite filter_In, in_seq, H. unfold bnd. rewrite andb_true_iff, touches_ends, Nat.eqb_eq.
    split; intros (A & B & C); [assert (He : e < length (m_edges m)) by lia|assert (He : e < length (m_edges m)) by exact A]; destruct (faces_of e He) as (k & Hk & _ & _ & K1); rewrite (nth_error_nth _ _ 0 Hk) in *.
    - split; [exact He|]. split; [exact B|apply K1; exact C].
    - split; [lia|]. split; [exact B|apply K1; exact C].
  Qed.
  Lemma boundary_edges_exist n : exists bs, boundary_edges m f n bs.
  Proof.
    exists (filter (bnd n) (seq 0 (length (m_edges m)))). split; [apply NoDup_filter, seq_NoDup|]. intros e. rewrite filter_In, in_seq. unfold bnd. rewrite andb_true_iff, touches_ends, Nat.eqb_eq.
    split; intros (A & B & C); [assert (He : e < length (m_edges m)) by lia|assert (He : e < length (m_edges m)) by exact A]; destruct (faces_of e He) as (k & Hk & _ & _ & K1); rewrite (nth_error_nth _ _ 0 Hk) in *.
    - split; [exact He|]. split; [exact B|apply K1; exact C].
    - split; [lia|]. split; [exact B|apply K1; exact C].
  Qed.

  Lemma classify_ok : exists types, classify sharp m f = Ok types /\ length types = length (m_nodes m) /\
    (forall n t, nth_error types n = Some t -> (t = -1 \/ t = 1 \/ t = 2 \/ t = 3)%Z /\
      (degree_of m n < 2 -> t = (-1)%Z) /\
      (t = (-1)%Z -> degree_of m n < 2 \/ exists e, unused m f e /\ ends_in (edge_at m e) n) /\
      ((2 <= t)%Z -> exists e, e < length (m_edges m) /\ ends_in (edge_at m e) n /\ on_boundary f e)) /\
    ((forall e, ~ unused m f e) -> forall n t bs, nth_error types n = Some t -> boundary_edges m f n bs -> t = type_of (length bs) (degree_of m n)).
  Proof.
    destruct (counting_ok (length (m_edges m)) (Nat.le_refl _)) as (t0 & E0 & L0 & C1 & C2). destruct (finishing_ok t0 (length (m_nodes m)) L0 (Nat.le_refl _)) as (t1 & E1 & L1 & N1).
    exists t1. unfold classify. rewrite E0. cbn [bind]. split; [exact E1|]. split; [congruence|].
    assert (X : forall n t, nth_error t1 n = Some t -> n < length (m_nodes m) /\ t = final (nth n t0 0%Z) (degree_of m n)).
    { intros n t H. assert (Hn : n < length (m_nodes m)) by (rewrite <- L0, <- L1; apply nth_error_Some; congruence). split; [exact Hn|]. specialize (N1 n Hn). rewrite (nth_error_nth _ _ _ H) in N1.
      destruct (Nat.ltb_spec n (length (m_nodes m))); [exact N1|lia]. }
    split.
    - intros n t H. apply X in H as [Hn ->]. destruct (boundary_edges_exist n) as (bs & B). pose proof (cnt_boundary n bs B) as Hc. unfold final.
      specialize (C1 n Hn). rewrite Hc in C1. destruct (Nat.ltb_spec (degree_of m n) 2) as [D|D].
      { split; [auto|]. split; [auto|]. split; [auto|]. intros H. exfalso. clear - H. lia. }
      assert (Y : (1 <= nth n t0 0)%Z -> exists e, e < length (m_edges m) /\ ends_in (edge_at m e) n /\ on_boundary f e).
      { intros H. destruct C1 as [[C1 _]|C1]; [exfalso; clear - C1 H; lia|]. destruct bs as [|e bs]; [exfalso; cbn in C1; clear - C1 H; lia|]. exists e. apply B. left. reflexivity. }
      destruct (Z.eqb_spec (nth n t0 0%Z) 1); [|destruct (Z.eqb_spec (nth n t0 0%Z) 2); [|destruct (Z.ltb_spec 2 (nth n t0 0%Z)); [|destruct (Z.eqb_spec (nth n t0 0%Z) (-1))]]]; cbn [orb negb].
      + destruct (degree_of m n =? 2); (split; [auto|]; split; [lia|]; split; [lia|]; intros _; apply Y; lia).
      + destruct (degree_of m n =? 2); (split; [auto|]; split; [lia|]; split; [lia|]; intros _; apply Y; lia).
      + split; [auto|]. split; [lia|]. split; [lia|]. intros _. apply Y. lia.
      + split; [auto|]. split; [lia|]. split; [|lia]. intros _. right. destruct C1 as [[_ C1]|C1]; [exact C1|exfalso; clear - C1 e; lia].
      + split; [auto|]. split; [lia|]. split; lia.
    - intros U n t bs H B. apply X in H as [Hn ->]. rewrite (C2 U n Hn), (cnt_boundary n bs B). unfold final, type_of. destruct (degree_of m n <? 2); [reflexivity|].
      destruct (length bs) as [|[|[|b]]] eqn:Lb; cbn -[Z.of_nat Nat.eqb]; try reflexivity.
      + destruct (degree_of m n =? 2); reflexivity.
      + destruct (degree_of m n =? 2); reflexivity.
      + destruct (Z.eqb_spec (Z.of_nat (S (S (S b)))) 1); [lia|]. destruct (Z.eqb_spec (Z.of_nat (S (S (S b)))) 2); [lia|]. destruct (Z.ltb_spec 2 (Z.of_nat (S (S (S b))))); [reflexivity|lia].
  Qed.
End Types.

(** The angle plays no part. *)
Lemma classify_same sharp sharp' m f : in_step m f -> classify sharp m f = classify sharp' m f.
Proof.
  intros Hs. destruct (counting_ok m f Hs (length (m_edges m)) (Nat.le_refl _)) as (t0 & E0 & L0 & _). unfold classify. rewrite E0. cbn [bind].
  destruct (finishing_ok sharp m f Hs t0 (length (m_nodes m)) L0 (Nat.le_refl _)) as (t1 & E1 & L1 & N1). destruct (finishing_ok sharp' m f Hs t0 (length (m_nodes m)) L0 (Nat.le_refl _)) as (t2 & E2 & L2 & N2).
  rewrite E1, E2. f_equal. apply nth_ext with 0%Z 0%Z; [congruence|]. intros n Hn. rewrite N1, N2 by congruence. reflexivity.
Qed.

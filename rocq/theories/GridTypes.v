(** C61: the node types are those of the cells around a node. *)
From Verif Require Import Base BaseLemmas FloatModel UtilModel UtilProofs UndoModel ActionModel GridModel GridSpec GridProofs GridClean.

Section Types.
  Variable g : grid.
  Hypothesis W : gwf g.
  Hypothesis Hc : clean g.
  Hypothesis Hm : mask_right g g.

  Definition valid n m := is_valid (vis g n m) = true.

  Lemma two_lines : 2 <= num_n g /\ 2 <= num_m g.
  Proof. unfold gwf, num_n, num_m in *. lia. Qed.

  (** Next to a valid node of the first or last line there is a valid node on the next line. *)
  Lemma inner_first_m n : n < num_n g -> valid n 0 -> valid n 1.
  Proof.
    pose proof two_lines. intros Hn V. destruct (Hc n 0 ltac:(split; lia) V) as (a & b & (A1 & A2 & A3 & A4 & A5 & A6) & [Ha Hb]).
    assert (b = 0) as -> by lia. cbn in *. unfold valid. destruct Ha as [->| ->]; auto.
  Qed.
  Lemma inner_last_m n m : n < num_n g -> m + 2 = num_m g -> valid n (m + 1) -> valid n m.
  Proof.
    intros Hn E V. destruct (Hc n (m + 1) ltac:(split; lia) V) as (a & b & (A1 & A2 & A3 & A4 & A5 & A6) & [Ha Hb]).
    assert (b = m) as -> by lia. unfold valid. destruct Ha as [->| ->]; auto.
  Qed.
  Lemma inner_first_n m : m < num_m g -> valid 0 m -> valid 1 m.
  Proof.
    pose proof two_lines. intros Hn V. destruct (Hc 0 m ltac:(split; lia) V) as (a & b & (A1 & A2 & A3 & A4 & A5 & A6) & [Ha Hb]).
    assert (a = 0) as -> by lia. cbn in *. unfold valid. destruct Hb as [->| ->]; auto.
  Qed.
  Lemma inner_last_n n m : m < num_m g -> n + 2 = num_n g -> valid (n + 1) m -> valid n m.
  Proof.
    intros Hn E V. destruct (Hc (n + 1) m ltac:(split; lia) V) as (a & b & (A1 & A2 & A3 & A4 & A5 & A6) & [Ha Hb]).
    assert (a = n) as -> by lia. unfold valid. destruct Hb as [->| ->]; auto.
  Qed.

  (** A valid node has a complete cell. *)
  Lemma has_cell n m : shown g n m -> valid n m ->
    complete g n m \/ (1 <= n /\ complete g (n - 1) m) \/ (1 <= n /\ 1 <= m /\ complete g (n - 1) (m - 1)) \/ (1 <= m /\ complete g n (m - 1)).
  Proof.
    intros S V. destruct (Hc n m S V) as (a & b & C & [[->| ->] [->| ->]]); auto.
    - right. right. right. replace (b + 1 - 1) with b by lia. split; [lia|auto].
    - right. left. replace (a + 1 - 1) with a by lia. split; [lia|auto].
    - right. right. left. replace (a + 1 - 1) with a by lia. replace (b + 1 - 1) with b by lia. split; [lia|]. split; [lia|auto].
  Qed.

  Lemma complete_valid n m : complete g n m <->
    n + 1 < num_n g /\ m + 1 < num_m g /\ valid n m /\ valid n (m + 1) /\ valid (n + 1) m /\ valid (n + 1) (m + 1).
  Proof. reflexivity. Qed.

  Lemma corner_valid a b n m : complete g a b -> corner_of a b n m -> valid n m.
  Proof. intros (_ & _ & C1 & C2 & C3 & C4) [[->| ->] [->| ->]]; unfold valid; auto. Qed.

  Definition expected_type (n m : nat) (o : option node_type) : Prop :=
    forall tr tl bl br, cell_at g n m 0 0 tr -> cell_at g n m 1 0 tl -> cell_at g n m 1 1 bl -> cell_at g n m 0 1 br ->
      ~ (n = 0 /\ 0 < m < num_m g - 1 /\ br = true /\ tr = false) ->
      type_of tr tl bl br (match o with Some t => t | None => Invalid end).

  Lemma is_false (b : bool) (P : Prop) : (b = true <-> P) -> ~ P -> b = false.
  Proof. destruct b; auto. intros [H _] N. destruct (N (H eq_refl)). Qed.
  Lemma is_true (b : bool) (P : Prop) : (b = true <-> P) -> P -> b = true.
  Proof. intros H. apply H. Qed.

  Lemma step_left n m : shown g n m -> (m = 0 \/ m + 1 = num_m g) -> 1 <= n -> valid n m -> valid (n - 1) m ->
    (m = 0 -> complete g (n - 1) m) /\ (m <> 0 -> complete g (n - 1) (m - 1)).
  Proof.
    intros [Hn Hmm] Hb H1 V V'. pose proof two_lines as [T1 T2]. split; intros Em.
    - subst m. apply complete_valid. replace (n - 1 + 1) with n by lia. cbn.
      pose proof (inner_first_m n Hn V). pose proof (inner_first_m (n - 1) ltac:(lia) V'). repeat split; auto; lia.
    - assert (E : m = (m - 1) + 1) by lia. apply complete_valid. replace (n - 1 + 1) with n by lia. rewrite <- E.
      assert (valid n (m - 1)) by (apply inner_last_m; [lia|lia|rewrite <- E; auto]).
      assert (valid (n - 1) (m - 1)) by (apply inner_last_m; [lia|lia|rewrite <- E; auto]).
      repeat split; auto; lia.
  Qed.
  Lemma step_right n m : shown g n m -> (m = 0 \/ m + 1 = num_m g) -> n + 1 < num_n g -> valid n m -> valid (n + 1) m ->
    (m = 0 -> complete g n m) /\ (m <> 0 -> complete g n (m - 1)).
  Proof.
    intros S Hb H1 V V'. assert (S' : shown g (n + 1) m) by (destruct S; split; auto).
    pose proof (step_left (n + 1) m S' Hb ltac:(lia) V') as K. replace (n + 1 - 1) with n in K by lia. auto.
  Qed.
  Lemma step_down n m : shown g n m -> (n = 0 \/ n + 1 = num_n g) -> 1 <= m -> valid n m -> valid n (m - 1) ->
    (n = 0 -> complete g n (m - 1)) /\ (n <> 0 -> complete g (n - 1) (m - 1)).
  Proof.
    intros [Hn Hmm] Hb H1 V V'. pose proof two_lines as [T1 T2]. split; intros Em.
    - subst n. apply complete_valid. replace (m - 1 + 1) with m by lia. cbn.
      pose proof (inner_first_n m Hmm V). pose proof (inner_first_n (m - 1) ltac:(lia) V'). repeat split; auto; lia.
    - assert (E : n = (n - 1) + 1) by lia. apply complete_valid. replace (m - 1 + 1) with m by lia. rewrite <- E.
      assert (valid (n - 1) m) by (apply inner_last_n; [lia|lia|rewrite <- E; auto]).
      assert (valid (n - 1) (m - 1)) by (apply inner_last_n; [lia|lia|rewrite <- E; auto]).
      repeat split; auto; lia.
  Qed.
  Lemma step_up n m : shown g n m -> (n = 0 \/ n + 1 = num_n g) -> m + 1 < num_m g -> valid n m -> valid n (m + 1) ->
    (n = 0 -> complete g n m) /\ (n <> 0 -> complete g (n - 1) m).
  Proof.
    intros S Hb H1 V V'. assert (S' : shown g n (m + 1)) by (destruct S; split; auto).
    pose proof (step_down n (m + 1) S' Hb ltac:(lia) V') as K. replace (m + 1 - 1) with m in K by lia. auto.
  Qed.

  Lemma not_complete_left n m : 1 <= n -> is_valid (vis g (n - 1) m) = false -> ~ complete g (n - 1) m /\ ~ complete g (n - 1) (m - 1).
  Proof. intros H1 E. split; intros C; pose proof (corner_valid _ _ (n - 1) m C ltac:(split; lia)); unfold valid in *; congruence. Qed.
  Lemma not_complete_right n m : is_valid (vis g (n + 1) m) = false -> ~ complete g n m /\ ~ complete g n (m - 1).
  Proof. intros E. split; intros C; pose proof (corner_valid _ _ (n + 1) m C ltac:(split; lia)); unfold valid in *; congruence. Qed.
  Lemma not_complete_down n m : 1 <= m -> is_valid (vis g n (m - 1)) = false -> ~ complete g n (m - 1) /\ ~ complete g (n - 1) (m - 1).
  Proof. intros H1 E. split; intros C; pose proof (corner_valid _ _ n (m - 1) C ltac:(split; lia)); unfold valid in *; congruence. Qed.
  Lemma not_complete_up n m : is_valid (vis g n (m + 1)) = false -> ~ complete g n m /\ ~ complete g (n - 1) m.
  Proof. intros E. split; intros C; pose proof (corner_valid _ _ n (m + 1) C ltac:(split; lia)); unfold valid in *; congruence. Qed.

  Lemma out_n n m : num_n g <= n + 1 -> ~ complete g n m.
  Proof. intros H C. destruct C as (A & B & _). lia. Qed.
  Lemma out_m n m : num_m g <= m + 1 -> ~ complete g n m.
  Proof. intros H C. destruct C as (A & B & _). lia. Qed.

  Lemma classify_expected n m o : shown g n m -> classify g n m = Ok o -> expected_type n m o.
  Proof.
    intros S E tr tl bl br H1 H2 H3 H4 Hx. pose proof S as [Sn Sm]. pose proof two_lines as [T1 T2].
    unfold cell_at in *. rewrite !Nat.sub_0_r in *.
    unfold classify in E. rewrite node_valid_ok in E by auto. cbn [bind] in E.
    destruct (is_valid (vis g n m)) eqn:V; cbn [negb] in E.
    2:{ injection E as <-.
        assert (A1 : ~ complete g n m) by (intros C; pose proof (corner_valid _ _ n m C ltac:(split; lia)); unfold valid in *; congruence).
        assert (A2 : 1 <= n -> ~ complete g (n - 1) m)
          by (intros ? C; pose proof (corner_valid _ _ n m C ltac:(split; lia)); unfold valid in *; congruence).
        assert (A3 : 1 <= n -> 1 <= m -> ~ complete g (n - 1) (m - 1))
          by (intros ? ? C; pose proof (corner_valid _ _ n m C ltac:(split; lia)); unfold valid in *; congruence).
        assert (A4 : 1 <= m -> ~ complete g n (m - 1))
          by (intros ? C; pose proof (corner_valid _ _ n m C ltac:(split; lia)); unfold valid in *; congruence).
        rewrite (is_false _ _ H1) by tauto. rewrite (is_false _ _ H2) by tauto. rewrite (is_false _ _ H3) by tauto. rewrite (is_false _ _ H4) by tauto.
        constructor. }
    pose proof (has_cell n m S V) as HC.
    destruct (Nat.eqb_spec m 0) as [M0|M0].
    { rewrite (is_false _ _ H3) in * by (intros (? & ? & ?); lia). rewrite (is_false _ _ H4) in * by (intros (? & ? & ?); lia).
      destruct (Nat.eqb_spec n 0) as [N0|N0].
      { injection E as <-. rewrite (is_false _ _ H2) in * by (intros (? & ? & ?); lia).
        rewrite (is_true _ _ H1) by (split; [lia|]; split; [lia|]; destruct HC as [?|[[? ?]|[(? & ? & ?)|[? ?]]]]; auto; lia). constructor. }
      destruct (Nat.eqb_spec n (num_n g - 1)) as [N1|N1].
      { injection E as <-. pose proof (out_n n m ltac:(lia)). rewrite (is_false _ _ H1) in * by tauto.
        rewrite (is_true _ _ H2) by (split; [lia|]; split; [lia|]; destruct HC as [?|[[? ?]|[(? & ? & ?)|[? ?]]]]; auto; lia || tauto). constructor. }
      rewrite node_valid_ok in E by (auto; split; lia). cbn [bind] in E.
      destruct (is_valid (vis g (n - 1) m)) eqn:Va; cbn [negb] in E.
      2:{ injection E as <-. pose proof (not_complete_left n m ltac:(lia) Va). rewrite (is_false _ _ H2) in * by tauto.
          rewrite (is_true _ _ H1) by (split; [lia|]; split; [lia|]; destruct HC as [?|[[? ?]|[(? & ? & ?)|[? ?]]]]; auto; lia || tauto). constructor. }
      rewrite node_valid_ok in E by (auto; split; lia). cbn [bind] in E. injection E as <-.
      pose proof (proj1 (step_left n m S ltac:(lia) ltac:(lia) V Va) M0). rewrite (is_true _ _ H2) by (split; [lia|]; split; [lia|]; auto).
      destruct (is_valid (vis g (n + 1) m)) eqn:Vb; cbn [negb].
      - pose proof (proj1 (step_right n m S ltac:(lia) ltac:(lia) V Vb) M0). rewrite (is_true _ _ H1) by (split; [lia|]; split; [lia|]; auto). constructor.
      - pose proof (not_complete_right n m Vb). rewrite (is_false _ _ H1) by tauto. constructor. }
    destruct (Nat.eqb_spec m (num_m g - 1)) as [M1|M1].
    { pose proof (out_m n m ltac:(lia)). pose proof (out_m (n - 1) m ltac:(lia)).
      rewrite (is_false _ _ H1) in * by tauto. rewrite (is_false _ _ H2) in * by tauto.
      destruct (Nat.eqb_spec n 0) as [N0|N0].
      { injection E as <-. rewrite (is_false _ _ H3) in * by (intros (? & ? & ?); lia).
        rewrite (is_true _ _ H4) by (split; [lia|]; split; [lia|]; destruct HC as [?|[[? ?]|[(? & ? & ?)|[? ?]]]]; auto; lia || tauto). constructor. }
      destruct (Nat.eqb_spec n (num_n g - 1)) as [N1|N1].
      { injection E as <-. pose proof (out_n n (m - 1) ltac:(lia)). rewrite (is_false _ _ H4) in * by tauto.
        rewrite (is_true _ _ H3) by (split; [lia|]; split; [lia|]; destruct HC as [?|[[? ?]|[(? & ? & ?)|[? ?]]]]; auto; lia || tauto). constructor. }
      rewrite node_valid_ok in E by (auto; split; lia). cbn [bind] in E.
      destruct (is_valid (vis g (n - 1) m)) eqn:Va; cbn [negb] in E.
      2:{ injection E as <-. pose proof (not_complete_left n m ltac:(lia) Va). rewrite (is_false _ _ H3) in * by tauto.
          rewrite (is_true _ _ H4) by (split; [lia|]; split; [lia|]; destruct HC as [?|[[? ?]|[(? & ? & ?)|[? ?]]]]; auto; lia || tauto). constructor. }
      rewrite node_valid_ok in E by (auto; split; lia). cbn [bind] in E. injection E as <-.
      pose proof (proj2 (step_left n m S ltac:(lia) ltac:(lia) V Va) M0). rewrite (is_true _ _ H3) by (split; [lia|]; split; [lia|]; auto).
      destruct (is_valid (vis g (n + 1) m)) eqn:Vb; cbn [negb].
      - pose proof (proj2 (step_right n m S ltac:(lia) ltac:(lia) V Vb) M0). rewrite (is_true _ _ H4) by (split; [lia|]; split; [lia|]; auto). constructor.
      - pose proof (not_complete_right n m Vb). rewrite (is_false _ _ H4) by tauto. constructor. }
    destruct (Nat.eqb_spec n 0) as [N0|N0].
    { rewrite (is_false _ _ H2) in * by (intros (? & ? & ?); lia). rewrite (is_false _ _ H3) in * by (intros (? & ? & ?); lia).
      rewrite node_valid_ok in E by (auto; split; lia). cbn [bind] in E.
      destruct (is_valid (vis g n (m - 1))) eqn:Va; cbn [negb] in E.
      2:{ injection E as <-. pose proof (not_complete_down n m ltac:(lia) Va). rewrite (is_false _ _ H4) in * by tauto.
          rewrite (is_true _ _ H1) by (split; [lia|]; split; [lia|]; destruct HC as [?|[[? ?]|[(? & ? & ?)|[? ?]]]]; auto; lia || tauto). constructor. }
      rewrite node_valid_ok in E by (auto; split; lia). cbn [bind] in E. injection E as <-.
      pose proof (proj1 (step_down n m S ltac:(lia) ltac:(lia) V Va) N0). rewrite (is_true _ _ H4) in * by (split; [lia|]; split; [lia|]; auto).
      destruct (is_valid (vis g n (m + 1))) eqn:Vb; cbn [negb].
      - pose proof (proj1 (step_up n m S ltac:(lia) ltac:(lia) V Vb) N0). rewrite (is_true _ _ H1) by (split; [lia|]; split; [lia|]; auto). constructor.
      - pose proof (not_complete_up n m Vb). rewrite (is_false _ _ H1) in * by tauto. destruct Hx. repeat split; auto; lia. }
    destruct (Nat.eqb_spec n (num_n g - 1)) as [N1|N1].
    { pose proof (out_n n m ltac:(lia)). pose proof (out_n n (m - 1) ltac:(lia)).
      rewrite (is_false _ _ H1) in * by tauto. rewrite (is_false _ _ H4) in * by tauto.
      rewrite node_valid_ok in E by (auto; split; lia). cbn [bind] in E.
      destruct (is_valid (vis g n (m - 1))) eqn:Va; cbn [negb] in E.
      2:{ injection E as <-. pose proof (not_complete_down n m ltac:(lia) Va). rewrite (is_false _ _ H3) in * by tauto.
          rewrite (is_true _ _ H2) by (split; [lia|]; split; [lia|]; destruct HC as [?|[[? ?]|[(? & ? & ?)|[? ?]]]]; auto; lia || tauto). constructor. }
      rewrite node_valid_ok in E by (auto; split; lia). cbn [bind] in E. injection E as <-.
      pose proof (proj2 (step_down n m S ltac:(lia) ltac:(lia) V Va) N0). rewrite (is_true _ _ H3) in * by (split; [lia|]; split; [lia|]; auto).
      destruct (is_valid (vis g n (m + 1))) eqn:Vb; cbn [negb].
      - pose proof (proj2 (step_up n m S ltac:(lia) ltac:(lia) V Vb) N0). rewrite (is_true _ _ H2) by (split; [lia|]; split; [lia|]; auto). constructor.
      - pose proof (not_complete_up n m Vb). rewrite (is_false _ _ H2) in * by tauto. constructor. }
    rewrite !(get_mask_ok g g) in E by (auto using sf_refl; lia). cbn [bind] in E.
    assert (B1 : tr = completeb g n m).
    { apply Bool.eq_true_iff_eq. rewrite H1, complete_b. intuition lia. }
    assert (B2 : tl = completeb g (n - 1) m).
    { apply Bool.eq_true_iff_eq. rewrite H2, complete_b. intuition lia. }
    assert (B3 : bl = completeb g (n - 1) (m - 1)).
    { apply Bool.eq_true_iff_eq. rewrite H3, complete_b. intuition lia. }
    assert (B4 : br = completeb g n (m - 1)).
    { apply Bool.eq_true_iff_eq. rewrite H4, complete_b. intuition lia. }
    rewrite <- B1, <- B2, <- B3, <- B4 in E. injection E as <-.
    destruct tr, tl, bl, br; constructor.
  Qed.
End Types.

(** The stored type of a node. *)
Lemma types_of_cells g : gwf g ->
  exists h, compute_node_types g = Ok h /\ gwf h /\ num_n h = num_n g /\ num_m h = num_m g /\
    forall n m tr tl bl br, shown g n m ->
      cell_at g n m 0 0 tr -> cell_at g n m 1 0 tl -> cell_at g n m 1 1 bl -> cell_at g n m 0 1 br ->
      ~ (n = 0 /\ 0 < m < num_m g - 1 /\ br = true /\ tr = false) ->
      exists t, get_type h n m = Ok t /\ type_of tr tl bl br t.
Proof.
  intros W. destruct (compute_node_types_ok g W) as (h & -> & F & Hh & Hs & Hm & Ht). exists h. split; [reflexivity|].
  pose proof (sf_gwf _ _ F W) as Wh. split; [auto|]. split; [apply sf_num_n; auto|]. split; [apply sf_num_m; auto|].
  intros n m tr tl bl br S H1 H2 H3 H4 Hx. assert (Sh : shown h n m) by (apply (sf_shown g h); auto).
  destruct Ht as (Tr & Tc & Te). destruct (Te n m Sh) as (o & Eo & Et).
  exists (match o with Some t => t | None => Invalid end). split.
  - unfold get_type. pose proof (vis_bounds h n m Wh Sh). rewrite mat_get_ok by (rewrite ?Tr, ?Tc; lia). rewrite Et. reflexivity.
  - apply (classify_expected h Wh (swept_is_clean g h F Hs) Hm n m o Sh Eo); unfold cell_at in *; rewrite ?(swept_complete g h _ _ F Hs); auto.
    rewrite (sf_num_m _ _ F). auto.
Qed.

(** Indices, node and edge lists, stray nodes. *)
From Verif Require Import Base BaseLemmas FloatModel UtilModel UtilProofs GridModel GridSpec.

(** *** Loops *)
Lemma fold_pre {A B} (f : A -> B -> outcome A) (P : list B -> A -> Prop) (l : list B) (a : A) :
  (forall l1 b l2 a, l = l1 ++ b :: l2 -> P l1 a -> exists a', f a b = Ok a' /\ P (l1 ++ [b]) a') -> P [] a ->
  exists a', fold_out f l a = Ok a' /\ P l a'.
Proof.
  intros H Hp.
  assert (G : forall l2 l1 a, l = l1 ++ l2 -> P l1 a -> exists a', fold_out f l2 a = Ok a' /\ P l a').
  { induction l2 as [|b l2 IH]; intros l1 a0 E Hp0; cbn [fold_out].
    - rewrite app_nil_r in E. subst l1. eauto.
    - destruct (H l1 b l2 a0 E Hp0) as (a1 & -> & Hp1). cbn [bind]. apply (IH (l1 ++ [b])); auto. rewrite <- app_assoc. exact E. }
  apply (G l [] a); auto.
Qed.

Lemma fold_next {A B} (f : B -> A) (g : list A * nat -> B -> outcome (list A * nat)) (l : list B) :
  (forall acc b, In b l -> g acc b = write_next acc (f b)) ->
  forall pre rest, length l <= length rest ->
  fold_out g l (pre ++ rest, length pre) = Ok (pre ++ map f l ++ skipn (length l) rest, length pre + length l).
Proof.
  induction l as [|b l IH]; intros Hg pre rest Hl; cbn [fold_out map length skipn app].
  - rewrite Nat.add_0_r. reflexivity.
  - destruct rest as [|r rest]; cbn [length] in Hl; [lia|].
    rewrite Hg by (cbn; auto). unfold write_next at 1. cbn [fst snd].
    rewrite vset_lt by (rewrite app_length; cbn; lia). cbn [bind].
    replace (set_nth (length pre) (f b) (pre ++ r :: rest)) with ((pre ++ [f b]) ++ rest).
    2:{ replace (length pre) with (length pre + 0) by lia. rewrite set_nth_app2. cbn. rewrite <- app_assoc. reflexivity. }
    replace (S (length pre)) with (length (pre ++ [f b])) by (rewrite app_length; cbn; lia).
    rewrite IH; [|intros; apply Hg; cbn; auto|lia]. rewrite <- app_assoc, app_length. cbn [skipn length app]. do 2 f_equal. lia.
Qed.

Lemma fold_next_full {A B} (f : B -> A) (g : list A * nat -> B -> outcome (list A * nat)) (l : list B) d k :
  (forall acc b, In b l -> g acc b = write_next acc (f b)) -> k = length l ->
  fold_out g l (repeat d k, 0) = Ok (map f l, k).
Proof.
  intros Hg ->. pose proof (fold_next f g l Hg [] (repeat d (length l))) as H. cbn [app length Nat.add] in H.
  rewrite H by (rewrite repeat_length; lia). rewrite skipn_all2 by (rewrite repeat_length; lia). rewrite app_nil_r. reflexivity.
Qed.

(** *** pairs *)
Lemma in_range a b x : In x (range a b) <-> a <= x < b.
Proof. unfold range. rewrite in_seq. lia. Qed.

Lemma in_pairs n0 n1 m0 m1 n m : In (n, m) (pairs n0 n1 m0 m1) <-> n0 <= n < n1 /\ m0 <= m < m1.
Proof. unfold pairs. rewrite in_prod_iff, !in_range. tauto. Qed.

Lemma range_nodup a b : NoDup (range a b).
Proof. apply seq_NoDup. Qed.

Lemma nodup_app {A} (l r : list A) : NoDup l -> NoDup r -> (forall x, In x l -> ~ In x r) -> NoDup (l ++ r).
Proof.
  induction l as [|a l IH]; cbn; intros Hl Hr H; auto.
  inversion Hl; subst. constructor.
  - rewrite in_app_iff. intros [?|?]; auto. eapply H; eauto.
  - apply IH; auto.
Qed.

Lemma nodup_prod {A B} (l : list A) (r : list B) : NoDup l -> NoDup r -> NoDup (list_prod l r).
Proof.
  intros Hl Hr. induction Hl as [|a l Ha Hl IH]; cbn; [constructor|].
  apply nodup_app; auto.
  - apply FinFun.Injective_map_NoDup; auto. intros x y E. congruence.
  - intros [x y] Hin Hin2. apply in_map_iff in Hin as (z & E & _). apply in_prod_iff in Hin2 as [? _]. congruence.
Qed.

Lemma pairs_nodup n0 n1 m0 m1 : NoDup (pairs n0 n1 m0 m1).
Proof. apply nodup_prod; apply range_nodup. Qed.

Lemma pairs_length n0 n1 m0 m1 : length (pairs n0 n1 m0 m1) = (n1 - n0) * (m1 - m0).
Proof. unfold pairs, range, gindex. rewrite prod_length, !seq_length. reflexivity. Qed.

Lemma prod_nth {A B} (l : list A) (r : list B) : forall i j a b,
  nth_error l i = Some a -> nth_error r j = Some b -> nth_error (list_prod l r) (i * length r + j) = Some (a, b).
Proof.
  induction l as [|x l IH]; intros i j a b Ha Hb; [destruct i; discriminate|].
  assert (Hj : j < length r) by (apply nth_error_Some; congruence).
  destruct i as [|i]; cbn [nth_error] in Ha; cbn [list_prod].
  - injection Ha as ->. cbn [Nat.mul Nat.add]. rewrite nth_error_app1 by (rewrite map_length; auto).
    rewrite nth_error_map, Hb. reflexivity.
  - rewrite nth_error_app2 by (rewrite map_length; cbn; nia). rewrite map_length.
    replace (S i * length r + j - length r) with (i * length r + j) by (cbn; lia). apply IH; auto.
Qed.

Lemma range_nth a b i : i < b - a -> nth_error (range a b) i = Some (a + i).
Proof.
  intros H. unfold range. rewrite (nth_error_nth' _ 0) by (rewrite seq_length; auto). rewrite seq_nth; auto.
Qed.

Lemma pairs_nth N M n m : n < N -> m < M -> nth_error (pairs 0 N 0 M) (n * M + m) = Some (n, m).
Proof.
  intros Hn Hm. replace (n * M + m) with (n * length (range 0 M) + m) by (unfold range; rewrite seq_length; f_equal; lia).
  apply prod_nth; apply range_nth; lia.
Qed.

Lemma divmod_unique M n m i : m < M -> i = n * M + m -> n = i / M /\ m = i mod M.
Proof.
  intros H ->. split.
  - rewrite Nat.div_add_l, Nat.div_small; lia.
  - rewrite Nat.add_comm, Nat.mod_add, Nat.mod_small; lia.
Qed.

Lemma divmod_bound N M i : i < N * M -> i / M < N /\ i mod M < M /\ i = i / M * M + i mod M.
Proof.
  intros H. assert (M <> 0) by nia. pose proof (Nat.mod_upper_bound i M ltac:(auto)).
  pose proof (Nat.div_mod i M ltac:(auto)). split; [apply Nat.div_lt_upper_bound; nia|]. split; auto. lia.
Qed.

Lemma pairs_nth_div N M i : i < N * M -> nth_error (pairs 0 N 0 M) i = Some (i / M, i mod M).
Proof. intros H. destruct (divmod_bound N M i H) as (A & B & C). rewrite C at 1. apply pairs_nth; auto. Qed.

(** *** Access *)
Lemma vis_bounds g n m : gwf g -> shown g n m ->
  n < mrows (gnodes g) /\ m < mcols (gnodes g) /\ n + start_n g < mrows (gnodes g) /\ m + start_m g < mcols (gnodes g).
Proof. unfold gwf, shown, num_n, num_m. lia. Qed.

Lemma mat_get_ok {T} g (x : matrix T) n m : n + start_n g < mrows x -> m + start_m g < mcols x ->
  mat_get g x n m = Ok (entry x (start_n g + n) (start_m g + m)).
Proof.
  intros A B. unfold mat_get. destruct (Nat.leb_spec (mrows x) n); [lia|]. destruct (Nat.leb_spec (mcols x) m); [lia|].
  apply Nat.ltb_lt in A, B. rewrite A, B. cbn [andb]. rewrite (Nat.add_comm n), (Nat.add_comm m). reflexivity.
Qed.

Lemma mat_set_ok {T} g (x : matrix T) n m v : n + start_n g < mrows x -> m + start_m g < mcols x ->
  mat_set g x n m v = Ok (Matrix (mrows x) (mcols x) (put_entry (entry x) (start_n g + n) (start_m g + m) v)).
Proof.
  intros A B. unfold mat_set. destruct (Nat.leb_spec (mrows x) n); [lia|]. destruct (Nat.leb_spec (mcols x) m); [lia|].
  apply Nat.ltb_lt in A, B. rewrite A, B. cbn [andb]. rewrite (Nat.add_comm n), (Nat.add_comm m). reflexivity.
Qed.

Lemma get_node_ok g n m : gwf g -> shown g n m -> get_node g n m = Ok (vis g n m).
Proof. intros H S. destruct (vis_bounds g n m H S) as (_ & _ & A & B). apply mat_get_ok; auto. Qed.

Lemma node_valid_ok g n m : gwf g -> shown g n m -> node_valid g n m = Ok (is_valid (vis g n m)).
Proof. intros H S. unfold node_valid. rewrite get_node_ok by auto. reflexivity. Qed.

(** The grid with one visible node replaced. *)
Definition put_node g n m p :=
  set_gnodes g (Matrix (mrows (gnodes g)) (mcols (gnodes g)) (put_entry (entry (gnodes g)) (start_n g + n) (start_m g + m) p)).

Lemma set_node_ok g n m p : gwf g -> shown g n m -> set_node g n m p = Ok (put_node g n m p).
Proof.
  intros H S. destruct (vis_bounds g n m H S) as (_ & _ & A & B). unfold set_node. rewrite mat_set_ok by auto. reflexivity.
Qed.

(** [h] differs from [g] in nothing but the values of nodes. *)
Record same_frame (g h : grid) : Prop := SameFrame {
  sf_proj : proj h = proj g; sf_rows : mrows (gnodes h) = mrows (gnodes g); sf_cols : mcols (gnodes h) = mcols (gnodes g);
  sf_ind : gindices h = gindices g;
  sf_sn : start_n h = start_n g; sf_sm : start_m h = start_m g; sf_en : end_n h = end_n g; sf_em : end_m h = end_m g }.

Lemma sf_refl g : same_frame g g.
Proof. constructor; reflexivity. Qed.
Lemma sf_trans g h k : same_frame g h -> same_frame h k -> same_frame g k.
Proof. intros [] []. constructor; congruence. Qed.
Lemma sf_sym g h : same_frame g h -> same_frame h g.
Proof. intros []. constructor; congruence. Qed.
Lemma sf_put g n m p : same_frame g (put_node g n m p).
Proof. constructor; reflexivity. Qed.
Lemma sf_fmask g x : same_frame g (set_fmask g x).
Proof. constructor; reflexivity. Qed.
Lemma sf_ntypes g x : same_frame g (set_ntypes g x).
Proof. constructor; reflexivity. Qed.
Lemma sf_num_n g h : same_frame g h -> num_n h = num_n g.
Proof. intros []. unfold num_n. congruence. Qed.
Lemma sf_num_m g h : same_frame g h -> num_m h = num_m g.
Proof. intros []. unfold num_m. congruence. Qed.
Lemma sf_gwf g h : same_frame g h -> gwf g -> gwf h.
Proof. intros []. unfold gwf. rewrite sf_rows0, sf_cols0, sf_sn0, sf_sm0, sf_en0, sf_em0. auto. Qed.
Lemma sf_shown g h n m : same_frame g h -> shown h n m <-> shown g n m.
Proof. intros H. unfold shown. rewrite (sf_num_n _ _ H), (sf_num_m _ _ H). tauto. Qed.

Lemma vis_put_same g n m p : vis (put_node g n m p) n m = p.
Proof. apply put_same. Qed.
Lemma vis_put_other g n m p i j : (i, j) <> (n, m) -> vis (put_node g n m p) i j = vis g i j.
Proof. intros H. unfold vis, put_node. cbn. apply put_other. intros E. injection E as E1 E2. apply H. f_equal; lia. Qed.

Lemma sf_same_view g h : same_frame g h -> (forall n m, shown g n m -> vis h n m = vis g n m) -> same_view g h.
Proof.
  intros H Hv. split; [symmetry; apply sf_num_n; auto|]. split; [symmetry; apply sf_num_m; auto|].
  intros. symmetry. apply Hv. split; auto.
Qed.

(** *** C24 *)
Lemma index_round_trip g n m : shown g n m ->
  exists i, node_index g (Some (n, m)) = Ok i /\ i = number g (n, m) /\ i < num_n g * num_m g /\ node_indices g i = Ok (n, m).
Proof.
  intros [Hn Hm]. exists (m + n * num_m g). split; [reflexivity|]. unfold number; cbn [fst snd]. split; [lia|].
  assert (B : m + n * num_m g < num_n g * num_m g) by nia. split; auto.
  unfold node_indices. destruct (Nat.leb_spec (num_m g * num_n g) (m + n * num_m g)); [nia|].
  destruct (divmod_unique (num_m g) n m (m + n * num_m g)); auto; [lia|]. congruence.
Qed.

Lemma number_round_trip g i : i < num_n g * num_m g ->
  exists n m, shown g n m /\ node_indices g i = Ok (n, m) /\ node_index g (Some (n, m)) = Ok i.
Proof.
  intros H. destruct (divmod_bound _ _ _ H) as (A & B & C). exists (i / num_m g), (i mod num_m g).
  split; [split; auto|]. unfold node_indices. destruct (Nat.leb_spec (num_m g * num_n g) i); [nia|]. split; auto.
  cbn. f_equal. lia.
Qed.

Lemma number_outside g i : num_n g * num_m g <= i -> node_indices g i = Throw AlgorithmErr.
Proof. intros H. unfold node_indices. destruct (Nat.leb_spec (num_m g * num_n g) i); auto. nia. Qed.

Lemma number_inj g a b : shown g (fst a) (snd a) -> shown g (fst b) (snd b) -> number g a = number g b -> a = b.
Proof.
  destruct a as [n m], b as [n' m']. unfold number, shown; cbn [fst snd]. intros [? Hm] [? Hm'] E.
  destruct (divmod_unique _ n m _ Hm eq_refl), (divmod_unique _ n' m' _ Hm' eq_refl). rewrite E in *. congruence.
Qed.

Lemma compute_node_indices_ok g : compute_node_indices g = Ok (pairs 0 (num_n g) 0 (num_m g)).
Proof.
  unfold compute_node_indices. rewrite (fold_next_full (fun nm => nm) _ (pairs 0 (num_n g) 0 (num_m g))).
  - cbn. rewrite map_id. reflexivity.
  - auto.
  - rewrite pairs_length. lia.
Qed.

Lemma node_list_spec g i n m : nth_error (pairs 0 (num_n g) 0 (num_m g)) i = Some (n, m) <-> shown g n m /\ i = number g (n, m).
Proof.
  unfold number, shown. cbn [fst snd]. split.
  - intros H. pose proof (nth_error_In _ _ H) as Hin. apply in_pairs in Hin.
    assert (Hi : i < num_n g * num_m g).
    { pose proof (proj1 (nth_error_Some _ _) ltac:(rewrite H; discriminate)) as Hl. rewrite pairs_length in Hl. nia. }
    rewrite pairs_nth_div in H by auto. injection H as <- <-. destruct (divmod_bound _ _ _ Hi) as (A & B & C). split; auto.
  - intros [[Hn Hm] ->]. apply pairs_nth; auto.
Qed.

Lemma compute_nodes_ok g : gwf g ->
  compute_nodes g = Ok (map (fun nm => vis g (fst nm) (snd nm)) (pairs 0 (num_n g) 0 (num_m g))).
Proof.
  intros H. unfold compute_nodes, grid_valid.
  assert (A : 1 < num_n g /\ 1 < num_m g) by (unfold gwf, num_n, num_m in *; lia).
  destruct (Nat.ltb_spec 1 (num_m g)), (Nat.ltb_spec 1 (num_n g)); try lia. cbn [andb negb].
  rewrite (fold_next_full (fun nm => vis g (fst nm) (snd nm)) _ (pairs 0 (num_n g) 0 (num_m g))); [reflexivity| |rewrite pairs_length; lia].
  intros acc [n m] Hin. apply in_pairs in Hin. cbn [fst snd]. rewrite get_node_ok; auto. split; lia.
Qed.

(** *** C25 *)
Definition vertical g := map (fun ij => (num_m g * fst ij + snd ij, num_m g * (fst ij + 1) + snd ij)) (pairs 0 (num_n g - 1) 0 (num_m g)).
Definition horizontal g := map (fun ij => (num_m g * fst ij + snd ij, num_m g * fst ij + snd ij + 1)) (pairs 0 (num_n g) 0 (num_m g - 1)).

Lemma compute_edges_ok g : gwf g -> compute_edges g = Ok (vertical g ++ horizontal g).
Proof.
  intros H. unfold compute_edges, grid_valid.
  assert (A : 1 < num_n g /\ 1 < num_m g) by (unfold gwf, num_n, num_m in *; lia).
  destruct (Nat.ltb_spec 1 (num_m g)), (Nat.ltb_spec 1 (num_n g)); try lia. cbn [andb negb]. cbv zeta.
  set (v := pairs 0 (num_n g - 1) 0 (num_m g)). set (h := pairs 0 (num_n g) 0 (num_m g - 1)).
  assert (Lv : length v = (num_n g - 1) * num_m g) by (unfold v; rewrite pairs_length; lia).
  assert (Lh : length h = num_n g * (num_m g - 1)) by (unfold h; rewrite pairs_length; lia).
  set (f1 := fun ij : gindex => (num_m g * fst ij + snd ij, num_m g * (fst ij + 1) + snd ij)).
  set (f2 := fun ij : gindex => (num_m g * fst ij + snd ij, num_m g * fst ij + snd ij + 1)).
  set (k := num_m g * (num_n g - 1) + (num_m g - 1) * num_n g).
  assert (E1 := fold_next f1 (fun acc ij => write_next acc (f1 ij)) v ltac:(auto) [] (repeat (0, 0) k)).
  cbn [app length Nat.add] in E1. rewrite repeat_length in E1. specialize (E1 ltac:(unfold k; nia)).
  match goal with |- bind ?X _ = _ => replace X with (Ok (map f1 v ++ skipn (length v) (repeat (0, 0) k), length v)) by (symmetry; exact E1) end.
  cbn [bind].
  assert (E2 := fold_next f2 (fun acc ij => write_next acc (f2 ij)) h ltac:(auto) (map f1 v) (skipn (length v) (repeat (0, 0) k))).
  rewrite map_length in E2. specialize (E2 ltac:(rewrite skipn_length, repeat_length; unfold k; nia)).
  rewrite (skipn_all2 (skipn _ _)), app_nil_r in E2 by (rewrite skipn_length, repeat_length; unfold k; nia).
  match goal with |- bind ?X _ = _ => replace X with (Ok (map f1 v ++ map f2 h, length v + length h)) by (symmetry; exact E2) end.
  reflexivity.
Qed.

Lemma in_edges g a b : In (a, b) (vertical g ++ horizontal g) <->
  exists n m n' m', shown g n m /\ shown g n' m' /\ a = number g (n, m) /\ b = number g (n', m') /\
    ((n' = n + 1 /\ m' = m) \/ (n' = n /\ m' = m + 1)).
Proof.
  rewrite in_app_iff. unfold vertical, horizontal, shown, number. rewrite !in_map_iff. cbn [fst snd]. split.
  - intros [([n m] & E & Hin)|([n m] & E & Hin)]; apply in_pairs in Hin; cbn [fst snd] in E; injection E as <- <-.
    + exists n, m, (n + 1), m. repeat split; lia.
    + exists n, m, n, (m + 1). repeat split; lia.
  - intros (n & m & n' & m' & ? & ? & -> & -> & [[-> ->]|[-> ->]]).
    + left. exists (n, m). rewrite in_pairs. cbn [fst snd]. split; [f_equal|]; lia.
    + right. exists (n, m). rewrite in_pairs. cbn [fst snd]. split; [f_equal|]; lia.
Qed.

Lemma edges_nodup g : gwf g -> NoDup (vertical g ++ horizontal g).
Proof.
  intros H. assert (A : 1 < num_n g /\ 1 < num_m g) by (unfold gwf, num_n, num_m in *; lia).
  assert (Inj : forall n m n' m', m < num_m g -> m' < num_m g -> num_m g * n + m = num_m g * n' + m' -> n = n' /\ m = m').
  { intros n m n' m' Hm Hm' E. destruct (divmod_unique _ n m (num_m g * n + m) Hm), (divmod_unique _ n' m' (num_m g * n + m) Hm'); lia. }
  assert (Map : forall (f : gindex -> nat * nat) l, NoDup l ->
                (forall x y, In x l -> In y l -> f x = f y -> x = y) -> NoDup (map f l)).
  { intros f l Hl. induction Hl as [|x l Hx Hl IH]; cbn; intros Hf; constructor.
    - rewrite in_map_iff. intros (y & E & Hy). apply Hx. rewrite <- (Hf y x); auto.
    - apply IH; auto. }
  apply nodup_app.
  - apply Map; [apply pairs_nodup|]. intros [n m] [n' m'] Hx Hy E. apply in_pairs in Hx, Hy. cbn [fst snd] in E. injection E as E _.
    destruct (Inj n m n' m'); try lia. congruence.
  - apply Map; [apply pairs_nodup|]. intros [n m] [n' m'] Hx Hy E. apply in_pairs in Hx, Hy. cbn [fst snd] in E. injection E as E _.
    destruct (Inj n m n' m'); try lia. congruence.
  - intros [a b] Hv Hh. unfold vertical, horizontal in *. rewrite in_map_iff in *.
    destruct Hv as ([n m] & Ev & _), Hh as ([n' m'] & Eh & _). cbn [fst snd] in *. injection Ev as <- Ev. injection Eh as Eh1 Eh2. nia.
Qed.

Lemma edges_length g : length (vertical g ++ horizontal g) = (num_n g - 1) * num_m g + num_n g * (num_m g - 1).
Proof. unfold vertical, horizontal. rewrite app_length, !map_length, !pairs_length. lia. Qed.

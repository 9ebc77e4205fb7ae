(** Proofs about point sequences and polygons with holes. *)
From Coq Require Import Sorted Reals Lra.
From Verif Require Import Base BaseLemmas FloatModel FloatReal PolyModel PolySpec.

(** *** FindIndices *)
Definition lo_of (st : option nat) (n : nat) : nat := match st with Some a => a | None => n end.
Definition close (st : option nat) (e : nat) : list (nat * nat) := match st with Some a => [(a, e - 1)] | None => [] end.

Lemma at_dec vec sep i : i < length vec -> sep_at vec sep i \/ nonsep_at vec sep i.
Proof.
  intros H. unfold sep_at, nonsep_at. destruct (nth_error vec i) as [p|] eqn:E; [|apply nth_error_None in E; lia].
  destruct (is_equal (px p) sep) eqn:E2; [left|right]; eauto.
Qed.
Lemma at_excl vec sep i : sep_at vec sep i -> nonsep_at vec sep i -> False.
Proof. intros (p & H1 & H2) (q & H3 & H4). congruence. Qed.

Lemma find_loop_spec vec sep e : e <= length vec -> forall k n st, n + k = e ->
  (forall a, st = Some a -> a < n /\ forall i, a <= i < n -> nonsep_at vec sep i) ->
  exists rs st', find_loop vec sep (seq n k) st = Ok (rs, st') /\
    runs vec sep (lo_of st n) e (rs ++ close st' e) /\ (st' = None -> (st = None /\ k = 0) \/ sep_at vec sep (e - 1)).
Proof.
  intros He. induction k as [|k IH]; intros n st Hn Hst; cbn [seq find_loop].
  - exists [], st. split; [reflexivity|]. split; [|auto]. cbn [app]. destruct st as [a|]; cbn [lo_of close].
    + destruct (Hst a eq_refl) as [Ha Hall]. split; [|split].
      * intros x y [E|[]]. injection E as <- <-. repeat split; try lia. intros i Hi. apply Hall. lia.
      * repeat constructor.
      * intros i Hi _. exists a, (e - 1). split; [left; reflexivity|lia].
    + split; [|split].
      * intros x y [].
      * constructor.
      * intros i Hi. lia.
  - destruct (vget_lt vec n) as [p Hp]; [lia|]. rewrite Hp. cbn [bind]. apply vget_ok in Hp. fold (is_sep sep p).
    assert (Hsep : is_sep sep p = true -> sep_at vec sep n) by (intros; exists p; auto).
    assert (Hnon : is_sep sep p = false -> nonsep_at vec sep n) by (intros; exists p; auto).
    destruct (is_sep sep p) eqn:Es.
    + specialize (Hsep eq_refl). clear Hnon. destruct (IH (S n) None) as (rs & st' & Hf & Hr & Hl); [lia|discriminate|].
      cbn [lo_of] in Hr. destruct Hr as (R1 & R2 & R3).
      destruct st as [a|]; cbn [lo_of].
      * destruct (Hst a eq_refl) as [Ha Hall]. rewrite Hf. cbn [bind fst snd]. exists ((a, n - 1) :: rs), st'.
        split; [reflexivity|]. split.
        -- cbn [app]. split; [|split].
           ++ intros x y [E|Hin].
              ** injection E as <- <-. repeat split; try lia; [intros i Hi; apply Hall; lia|].
                 right. replace (n - 1 + 1) with n by lia. exact Hsep.
              ** destruct (R1 x y Hin) as (H1 & H2 & H3 & H4 & H5 & H6). repeat split; auto; [lia|].
                 right. destruct H5 as [->|H5]; [|exact H5]. replace (S n - 1) with n by lia. exact Hsep.
           ++ constructor; [exact R2|]. apply Forall_forall. intros [x y] Hin. cbn. destruct (R1 x y Hin) as (H1 & _). lia.
           ++ intros i Hi Hni. destruct (Nat.lt_ge_cases i n) as [Hlt|Hge].
              ** exists a, (n - 1). split; [left; reflexivity|lia].
              ** destruct (Nat.eq_dec i n) as [->|Hne]; [exfalso; eapply at_excl; eassumption|].
                 destruct (R3 i ltac:(lia) Hni) as (x & y & Hin & Hxy). exists x, y. split; [right; exact Hin|exact Hxy].
        -- intros ->. right. destruct (Hl eq_refl) as [[_ ->]|H]; [|exact H]. replace (e - 1) with n by lia. exact Hsep.
      * rewrite Hf. exists rs, st'. split; [reflexivity|]. split.
        -- split; [|split; [exact R2|]].
           ++ intros x y Hin. destruct (R1 x y Hin) as (H1 & H2 & H3 & H4 & H5 & H6). repeat split; auto; [lia|].
              right. destruct H5 as [->|H5]; [|exact H5]. replace (S n - 1) with n by lia. exact Hsep.
           ++ intros i Hi Hni. destruct (Nat.eq_dec i n) as [->|Hne]; [exfalso; eapply at_excl; eassumption|].
              apply R3; [lia|exact Hni].
        -- intros ->. right. destruct (Hl eq_refl) as [[_ ->]|H]; [|exact H]. replace (e - 1) with n by lia. exact Hsep.
    + specialize (Hnon eq_refl). clear Hsep.
      destruct (IH (S n) (Some (lo_of st n))) as (rs & st' & Hf & Hr & Hl); [lia| |].
      { intros a E. injection E as <-. destruct st as [a|]; cbn [lo_of].
        - destruct (Hst a eq_refl) as [Ha Hall]. split; [lia|]. intros i Hi. destruct (Nat.eq_dec i n) as [->|]; [exact Hnon|]. apply Hall. lia.
        - split; [lia|]. intros i Hi. replace i with n by lia. exact Hnon. }
      exists rs, st'. split; [destruct st; exact Hf|]. split; [exact Hr|].
      intros ->. right. destruct (Hl eq_refl) as [[H _]|H]; [discriminate|exact H].
Qed.

Lemma find_indices_window vec start stop sep : start <= length vec -> stop <= length vec -> vec <> [] ->
  exists rs fin, find_indices vec start stop sep = Ok (rs ++ match fin with Some a => [(a, length vec - 1)] | None => [] end) /\
    runs vec sep start (Nat.max start stop) (rs ++ match fin with Some a => [(a, stop - 1)] | None => [] end) /\
    (fin = None -> stop <= start \/ sep_at vec sep (stop - 1)).
Proof.
  intros Hs He Hne. unfold find_indices. destruct vec as [|p0 vec0]; [congruence|]. set (vec := p0 :: vec0) in *.
  rewrite (proj2 (Nat.ltb_ge _ _)) by exact Hs. rewrite (proj2 (Nat.ltb_ge _ _)) by exact He. cbn [orb].
  destruct (find_loop_spec vec sep (start + (stop - start)) ltac:(lia) (stop - start) start None eq_refl) as (rs & st' & Hf & Hr & Hl);
    [discriminate|].
  rewrite Hf. cbn [bind fst snd]. exists rs, st'. split; [reflexivity|]. cbn [lo_of] in Hr. split.
  - replace (Nat.max start stop) with (start + (stop - start)) by lia.
    destruct st' as [a|]; cbn [close] in Hr; [|exact Hr].
    destruct (Nat.le_gt_cases start stop) as [H|H]; [replace (start + (stop - start)) with stop in * by lia; exact Hr|].
    exfalso. destruct Hr as (R1 & _). destruct (R1 a (start + (stop - start) - 1)) as (H1 & H2 & H3 & _); [apply in_or_app; right; left; reflexivity|].
    lia.
  - intros ->. destruct (Hl eq_refl) as [[_ H]|H]; [left; lia|].
    destruct (Nat.le_gt_cases stop start) as [Hle|Hgt]; [left; exact Hle|]. right.
    replace (stop - 1) with (start + (stop - start) - 1) by lia. exact H.
Qed.

Lemma find_indices_full vec start sep : exists rs, find_indices vec start (length vec) sep = Ok rs /\
  runs vec sep start (Nat.max start (length vec)) rs.
Proof.
  destruct (Nat.le_gt_cases start (length vec)) as [Hs|Hs].
  - destruct vec as [|p vec0] eqn:Ev.
    + exists []. split; [reflexivity|]. split; [intros a b []|]. split; [constructor|]. intros i Hi (p & Hp & _). destruct i; discriminate.
    + rewrite <- Ev in *. destruct (find_indices_window vec start (length vec) sep Hs (Nat.le_refl _)) as (rs & fin & Hf & Hr & _); [congruence|].
      exists (rs ++ match fin with Some a => [(a, length vec - 1)] | None => [] end). auto.
  - exists []. split.
    + unfold find_indices. destruct vec; [reflexivity|]. rewrite (proj2 (Nat.ltb_lt _ _)) by exact Hs. reflexivity.
    + split; [intros a b []|]. split; [constructor|]. intros i Hi. lia.
Qed.

Lemma find_indices_outside vec start stop sep : length vec < start \/ length vec < stop -> find_indices vec start stop sep = Ok [].
Proof.
  intros H. unfold find_indices. destruct vec; [reflexivity|].
  replace ((_ <? start) || (_ <? stop)) with true; [reflexivity|]. symmetry. apply orb_true_iff. rewrite !Nat.ltb_lt. exact H.
Qed.

Lemma runs_unique vec sep s e rs1 rs2 : runs vec sep s e rs1 -> runs vec sep s e rs2 -> rs1 = rs2.
Proof.
  intros (A1 & B1 & C1) (A2 & B2 & C2).
  (* each run of one list is a run of the other *)
  assert (Hin : forall r1 r2 : list (nat * nat),
     (forall a b, In (a, b) r1 -> s <= a /\ a <= b /\ b < e /\ (forall i, a <= i <= b -> nonsep_at vec sep i) /\
        (a = s \/ sep_at vec sep (a - 1)) /\ (b + 1 = e \/ sep_at vec sep (b + 1))) ->
     (forall a b, In (a, b) r2 -> s <= a /\ a <= b /\ b < e /\ (forall i, a <= i <= b -> nonsep_at vec sep i) /\
        (a = s \/ sep_at vec sep (a - 1)) /\ (b + 1 = e \/ sep_at vec sep (b + 1))) ->
     (forall i, s <= i < e -> nonsep_at vec sep i -> exists a b, In (a, b) r2 /\ a <= i <= b) ->
     forall a b, In (a, b) r1 -> In (a, b) r2).
  { intros r1 r2 H1 H2 H3 a b Hab. destruct (H1 a b Hab) as (P1 & P2 & P3 & P4 & P5 & P6).
    destruct (H3 a ltac:(lia) (P4 a ltac:(lia))) as (x & y & Hxy & Hx). destruct (H2 x y Hxy) as (Q1 & Q2 & Q3 & Q4 & Q5 & Q6).
    assert (x = a).
    { destruct P5 as [->|P5]; [lia|]. destruct (Nat.eq_dec x a) as [|Hne]; [assumption|].
      exfalso. apply (at_excl vec sep (a - 1) P5). apply Q4. lia. }
    assert (y = b); [|subst; exact Hxy]. subst x.
    destruct (Nat.lt_trichotomy y b) as [Hlt|[E|Hgt]]; [|exact E|].
    - exfalso. destruct Q6 as [Q6|Q6]; [lia|]. apply (at_excl _ _ _ Q6), P4. lia.
    - exfalso. destruct P6 as [P6|P6]; [lia|]. apply (at_excl _ _ _ P6), Q4. lia. }
  assert (I12 := Hin rs1 rs2 A1 A2 C2). assert (I21 := Hin rs2 rs1 A2 A1 C1).
  assert (L1 : forall a b, In (a, b) rs1 -> a <= b) by (intros a b H; apply A1 in H; lia).
  assert (L2 : forall a b, In (a, b) rs2 -> a <= b) by (intros a b H; apply A2 in H; lia).
  clear Hin A1 A2 C1 C2. revert rs2 B2 I12 I21 L2. induction B1 as [|[a b] t1 Hs1 IH Hf1]; intros rs2 B2 I12 I21 L2.
  - destruct rs2 as [|[c d] t2]; [reflexivity|]. exfalso. apply (I21 c d). left; reflexivity.
  - destruct B2 as [|[c d] t2 Hs2 Hf2]; [exfalso; apply (I12 a b); left; reflexivity|].
    rewrite Forall_forall in Hf1, Hf2.
    assert (E : (a, b) = (c, d)).
    { destruct (I12 a b (or_introl eq_refl)) as [E|Hab]; [auto|]. destruct (I21 c d (or_introl eq_refl)) as [E|Hcd]; [auto|].
      specialize (Hf1 _ Hcd). specialize (Hf2 _ Hab). cbn in Hf1, Hf2.
      pose proof (L1 a b (or_introl eq_refl)). pose proof (L2 c d (or_introl eq_refl)). lia. }
    injection E as <- <-. f_equal. apply IH; auto.
    + intros x y H. apply L1. right; exact H.
    + intros x y H. destruct (I12 x y (or_intror H)) as [E|H']; [|exact H']. injection E as <- <-. specialize (Hf1 _ H). cbn in Hf1.
      pose proof (L1 a b (or_introl eq_refl)). lia.
    + intros x y H. destruct (I21 x y (or_intror H)) as [E|H']; [|exact H']. injection E as <- <-. specialize (Hf2 _ H). cbn in Hf2.
      pose proof (L2 a b (or_introl eq_refl)). lia.
    + intros x y H. apply L2. right; exact H.
Qed.

(** *** Geometry lists *)
Lemma gpoint_holds g pts i p : holds g pts -> nth_error pts i = Some p -> gpoint g i = Ok p.
Proof.
  intros [_ H] Hi. destruct (H i p Hi) as [Hx Hy]. unfold gpoint, vget. rewrite Hx, Hy. cbn. destruct p; reflexivity.
Qed.

(** The conversions as functions of the points held. *)
Fixpoint thin (lastp : point) (l : list point) : list point :=
  match l with [] => [] | p :: t => if point_eq p lastp then thin lastp t else p :: thin p t end.

Lemma to_points_loop_thin g pts : holds g pts -> forall k n q, n + k = length pts ->
  to_points_loop g (seq n k) q = Ok (thin q (skipn n pts)).
Proof.
  intros Hg. induction k as [|k IH]; intros n q Hn; cbn [seq to_points_loop].
  - rewrite skipn_all2 by lia. reflexivity.
  - destruct (nth_error pts n) as [p|] eqn:E; [|apply nth_error_None in E; lia].
    rewrite (gpoint_holds g pts n p Hg E). cbn [bind].
    assert (Hsk : skipn n pts = p :: skipn (S n) pts).
    { clear -E. revert pts E. induction n as [|n IH]; intros [|x pts] E; cbn in *; try discriminate; [congruence|]. apply IH, E. }
    rewrite Hsk. cbn [thin]. destruct (point_eq p q); rewrite IH by lia; reflexivity.
Qed.

Lemma to_points_thin g p pts : holds g (p :: pts) -> to_points g = Ok (p :: thin p pts).
Proof.
  intros Hg. unfold to_points. pose proof Hg as [Hn _]. rewrite Hn. cbn [length Nat.eqb].
  rewrite (gpoint_holds g _ 0 p Hg eq_refl). cbn [bind]. rewrite (to_points_loop_thin g (p :: pts) Hg) by (cbn; lia). reflexivity.
Qed.

Lemma to_points_empty g : holds g [] -> to_points g = Ok [].
Proof. intros [Hn _]. unfold to_points. rewrite Hn. reflexivity. Qed.

Lemma no_repeats_cons p q l : no_repeats (p :: q :: l) <-> point_eq q p = false /\ no_repeats (q :: l).
Proof.
  split.
  - intros H. split; [apply (H 0 p q); reflexivity|]. intros i x y Hx Hy. apply (H (S i) x y); assumption.
  - intros [H1 H2] [|i] x y Hx Hy; cbn in Hx, Hy; [congruence|]. apply (H2 i x y); assumption.
Qed.

Lemma thin_id l : forall p, no_repeats (p :: l) -> thin p l = l.
Proof.
  induction l as [|q l IH]; intros p H; [reflexivity|]. apply no_repeats_cons in H. destruct H as [H1 H2].
  cbn [thin]. rewrite H1. f_equal. auto.
Qed.
Lemma thin_no_repeats l : forall p, no_repeats (p :: thin p l).
Proof.
  induction l as [|q l IH]; intros p; cbn [thin].
  - intros [|i] x y Hx Hy; cbn in Hy; [discriminate|]. destruct i; discriminate.
  - destruct (point_eq q p) eqn:E; [apply IH|]. apply no_repeats_cons. auto.
Qed.
Lemma thin_sub l : forall p, subsequence (thin p l) l.
Proof.
  induction l as [|q l IH]; intros p; cbn [thin]; [constructor|]. destruct (point_eq q p); constructor; apply IH.
Qed.
Lemma thin_near l : forall p q, In q l -> exists r, In r (p :: thin p l) /\ (q = r \/ point_eq q r = true).
Proof.
  induction l as [|x l IH]; intros p q Hq; [destruct Hq|]. cbn [thin]. destruct (point_eq x p) eqn:E.
  - destruct Hq as [<-|Hq]; [exists p; split; [left; reflexivity|auto]|apply IH, Hq].
  - destruct Hq as [<-|Hq].
    + exists x. split; [right; left; reflexivity|auto].
    + destruct (IH x q Hq) as (r & Hr & H). exists r. split; [right; exact Hr|exact H].
Qed.

Lemma to_points_spec g pts : holds g pts ->
  exists out, to_points g = Ok out /\ subsequence out pts /\ no_repeats out /\
    (forall q, In q pts -> exists r, In r out /\ (q = r \/ point_eq q r = true)) /\
    (no_repeats pts -> out = pts).
Proof.
  destruct pts as [|p pts]; intros Hg.
  - exists []. split; [apply to_points_empty, Hg|]. split; [constructor|]. split; [intros [|i]; discriminate|]. split; [intros q []|auto].
  - exists (p :: thin p pts). split; [apply to_points_thin, Hg|]. split; [constructor; apply thin_sub|]. split; [apply thin_no_repeats|].
    split.
    + intros q [<-|Hq]; [exists p; split; [left; reflexivity|auto]|apply thin_near, Hq].
    + intros H. f_equal. apply thin_id, H.
Qed.

Fixpoint split_lines (sep : double) (chunk : list point) (l : list point) : list (list point) :=
  match l with
  | [] => match chunk with [] => [] | _ => [rev chunk] end
  | p :: t => if is_equal (px p) sep then rev chunk :: split_lines sep [] t else split_lines sep (p :: chunk) t
  end.

Lemma skipn_nth {A} (l : list A) n p : nth_error l n = Some p -> skipn n l = p :: skipn (S n) l.
Proof. revert n. induction l as [|x l IH]; intros [|n] E; cbn in *; try discriminate; [congruence|]. apply IH, E. Qed.

Lemma to_polylines_loop_split g pts sep : holds g pts -> forall k n chunk, n + k = length pts ->
  to_polylines_loop g sep (seq n k) chunk = Ok (split_lines sep chunk (skipn n pts)).
Proof.
  intros Hg. induction k as [|k IH]; intros n chunk Hn; cbn [seq to_polylines_loop].
  - rewrite skipn_all2 by lia. reflexivity.
  - destruct (nth_error pts n) as [p|] eqn:E; [|apply nth_error_None in E; lia].
    rewrite (gpoint_holds g pts n p Hg E). cbn [bind]. rewrite (skipn_nth _ _ _ E). cbn [split_lines].
    destruct (is_equal (px p) sep); rewrite IH by lia; reflexivity.
Qed.

Lemma split_lines_line sep l : Forall (fun p => is_equal (px p) sep = false) l -> forall chunk rest,
  split_lines sep chunk (l ++ rest) = split_lines sep (rev l ++ chunk) rest.
Proof.
  induction 1 as [|p l Hp Hl IH]; intros chunk rest; cbn [app rev split_lines]; [reflexivity|].
  rewrite Hp, IH. rewrite <- app_assoc. reflexivity.
Qed.

Lemma split_lines_all sep ls rest :
  Forall (fun '(l, s) => Forall (fun p => is_equal (px p) sep = false) l /\ is_equal (px s) sep = true) ls ->
  Forall (fun p => is_equal (px p) sep = false) rest ->
  split_lines sep [] (flat_map (fun '(l, s) => l ++ [s]) ls ++ rest) = map fst ls ++ match rest with [] => [] | _ => [rest] end.
Proof.
  induction 1 as [|[l s] ls [Hl Hs] Hls IH]; intros Hr; cbn [flat_map map app fst].
  - pose proof (split_lines_line sep rest Hr [] []) as H. rewrite !app_nil_r in H. rewrite H. cbn [split_lines].
    destruct (rev rest) as [|x r] eqn:E.
    + apply (f_equal (@rev _)) in E. rewrite rev_involutive in E. rewrite E. reflexivity.
    + rewrite <- E. rewrite rev_involutive. destruct rest; [discriminate|reflexivity].
  - rewrite <- !app_assoc. rewrite split_lines_line by exact Hl. rewrite app_nil_r. cbn [app split_lines]. rewrite Hs, rev_involutive.
    f_equal. apply IH, Hr.
Qed.

Lemma to_polylines_spec g sep ls rest :
  separated sep ls rest -> holds g (written ls rest) ->
  to_polylines g sep = Ok (map fst ls ++ match rest with [] => [] | _ => [rest] end).
Proof.
  intros [Hls Hr] Hg. unfold to_polylines. destruct Hg as [Hn Hg]. rewrite Hn.
  rewrite (to_polylines_loop_split g _ sep (conj Hn Hg)) by lia. cbn [skipn]. f_equal. apply split_lines_all; assumption.
Qed.

(** Every list of points has the form of the previous lemma. *)
Lemma lines_exist sep pts : exists ls rest, separated sep ls rest /\ pts = written ls rest.
Proof.
  enough (exists ls rest,
  Forall (fun '(l, s) => Forall (fun p => is_equal (px p) sep = false) l /\ is_equal (px s) sep = true) ls /\
  Forall (fun p => is_equal (px p) sep = false) rest /\ pts = flat_map (fun '(l, s) => l ++ [s]) ls ++ rest)
    as (ls & rest & H1 & H2 & H3) by (exists ls, rest; repeat split; assumption).
  induction pts as [|p pts (ls & rest & H1 & H2 & ->)]; [exists [], []; auto|].
  destruct (is_equal (px p) sep) eqn:E.
  - exists (([], p) :: ls), rest. split; [|auto]. constructor; [split; [constructor|exact E]|exact H1].
  - destruct ls as [|[l s] ls].
    + exists [], (p :: rest). repeat split; auto.
    + inversion H1 as [|? ? Hc Hls]; subst. destruct Hc as [Hl Hs]. exists ((p :: l, s) :: ls), rest. split; [|split; [exact H2|reflexivity]].
      constructor; [split; [constructor; assumption|exact Hs]|exact Hls].
Qed.

Lemma from_points_spec pts g :
  gnum g <= length pts -> gnum g <= length (gx g) -> gnum g <= length (gy g) ->
  exists g', from_points pts g = Ok g' /\ holds g' (firstn (gnum g) pts) /\
    (forall i, gnum g <= i -> nth_error (gx g') i = nth_error (gx g) i /\ nth_error (gy g') i = nth_error (gy g) i).
Proof.
  intros Hn Hx Hy. unfold from_points. rewrite (proj2 (Nat.ltb_ge _ _)) by exact Hn.
  set (f := fun g0 i => _).
  assert (H : forall k n g0, n + k = gnum g -> gnum g0 = gnum g -> gnum g <= length (gx g0) -> gnum g <= length (gy g0) ->
     exists g', fold_out f (seq n k) g0 = Ok g' /\ gnum g' = gnum g /\
       (forall i, n <= i < gnum g -> exists p, nth_error pts i = Some p /\ nth_error (gx g') i = Some (px p) /\ nth_error (gy g') i = Some (py p)) /\
       (forall i, i < n \/ gnum g <= i -> nth_error (gx g') i = nth_error (gx g0) i /\ nth_error (gy g') i = nth_error (gy g0) i)).
  { induction k as [|k IH]; intros n g0 Hk Hg0 Hx0 Hy0; cbn [seq fold_out].
    - exists g0. repeat split; auto. intros i Hi. lia.
    - destruct (vget_lt pts n) as [p Hp]; [lia|]. unfold f at 1. rewrite Hp. cbn [bind].
      rewrite vset_lt by lia. cbn [bind]. rewrite vset_lt by lia. cbn [bind].
      destruct (IH (S n) (Geometry (gnum g0) (set_nth n (px p) (gx g0)) (set_nth n (py p) (gy g0)))) as (g' & H1 & H2 & H3 & H4);
        [lia|exact Hg0|cbn; rewrite set_nth_length; exact Hx0|cbn; rewrite set_nth_length; exact Hy0|].
      exists g'. split; [exact H1|]. split; [exact H2|]. cbn [gx gy] in H4. split.
      + intros i Hi. destruct (Nat.eq_dec i n) as [->|Hne]; [|apply H3; lia].
        exists p. split; [apply vget_ok, Hp|]. destruct (H4 n ltac:(lia)) as [-> ->].
        rewrite !nth_error_set_nth_eq by lia. auto.
      + intros i Hi. destruct (H4 i ltac:(lia)) as [-> ->]. rewrite !nth_error_set_nth_neq by lia. auto. }
  destruct (H (gnum g) 0 g eq_refl eq_refl Hx Hy) as (g' & H1 & H2 & H3 & H4). exists g'. split; [exact H1|]. split.
  - split; [rewrite firstn_length; lia|]. intros i p Hi.
    assert (Hlt : i < gnum g) by (assert (nth_error (firstn (gnum g) pts) i <> None) as Hs by congruence; apply nth_error_Some in Hs; rewrite firstn_length in Hs; lia).
    rewrite nth_error_firstn in Hi by exact Hlt. destruct (H3 i ltac:(lia)) as (q & Hq & Hqx & Hqy). rewrite Hi in Hq. injection Hq as <-. auto.
  - intros i Hi. apply H4. right; exact Hi.
Qed.

Lemma from_points_short pts g : length pts < gnum g -> from_points pts g = Throw StdErr.
Proof. intros H. unfold from_points. rewrite (proj2 (Nat.ltb_lt _ _)) by exact H. reflexivity. Qed.

Lemma points_round_trip pts g :
  gnum g = length pts -> length pts <= length (gx g) -> length pts <= length (gy g) -> no_repeats pts ->
  exists g', from_points pts g = Ok g' /\ to_points g' = Ok pts.
Proof.
  intros Hn Hx Hy Hr. destruct (from_points_spec pts g) as (g' & H1 & H2 & _); try lia. exists g'. split; [exact H1|].
  rewrite Hn, firstn_all in H2. destruct (to_points_spec g' pts H2) as (out & H3 & _ & _ & _ & H4). rewrite H3, H4 by exact Hr. reflexivity.
Qed.

(** *** Polygons with holes *)
Lemma find_loop_app vec sep l1 l2 : forall st,
  find_loop vec sep (l1 ++ l2) st =
  let! r1 := find_loop vec sep l1 st in
  let! r2 := find_loop vec sep l2 (snd r1) in Ok (fst r1 ++ fst r2, snd r2).
Proof.
  induction l1 as [|n l1 IH]; intros st; cbn [app find_loop bind fst snd].
  - destruct (find_loop vec sep l2 st) as [[r s]| |]; reflexivity.
  - destruct (vget vec n) as [p| |]; cbn [bind]; [|reflexivity|reflexivity].
    destruct (is_sep sep p), st as [a|]; try apply IH.
    rewrite IH. destruct (find_loop vec sep l1 None) as [[r s]| |]; cbn [bind fst snd]; [|reflexivity|reflexivity].
    destruct (find_loop vec sep l2 s) as [[r2 s2]| |]; reflexivity.
Qed.

Lemma nth_error_mid {A} (pre l post : list A) i : i < length l -> nth_error (pre ++ l ++ post) (length pre + i) = nth_error l i.
Proof.
  intros H. rewrite nth_error_app2 by lia. replace (length pre + i - length pre) with i by lia. apply nth_error_app1, H.
Qed.

Lemma find_loop_nonsep vec sep : forall k n st, (forall i, n <= i < n + k -> nonsep_at vec sep i) ->
  find_loop vec sep (seq n k) st = Ok ([], match st with Some a => Some a | None => match k with 0 => None | _ => Some n end end).
Proof.
  induction k as [|k IH]; intros n st H; cbn [seq find_loop]; [destruct st; reflexivity|].
  destruct (H n ltac:(lia)) as (p & Hp & Hs). unfold vget. rewrite Hp. cbn [bind]. unfold is_sep. rewrite Hs.
  destruct st as [a|]; rewrite IH by (intros i Hi; apply H; lia); reflexivity.
Qed.

(** Rings separated by single separators: the ranges they occupy. *)
Fixpoint ranges_of (off : nat) (rings : list (list point)) : list (nat * nat) :=
  match rings with [] => [] | r :: t => (off, off + length r - 1) :: ranges_of (off + length r + 1) t end.
Definition terminated (s : point) (rings : list (list point)) : list point := flat_map (fun r => r ++ [s]) rings.

Lemma ranges_of_app s off a b : ranges_of off (a ++ b) = ranges_of off a ++ ranges_of (off + length (terminated s a)) b.
Proof.
  revert off. induction a as [|r a IH]; intros off; cbn [app ranges_of terminated flat_map length].
  - rewrite Nat.add_0_r. reflexivity.
  - rewrite IH. cbn [app]. do 2 f_equal. f_equal. fold (terminated s a). rewrite app_length, app_length. cbn. lia.
Qed.

Definition free (sep : double) (r : list point) : Prop := r <> [] /\ Forall (fun p => is_equal (px p) sep = false) r.

Lemma find_loop_rings sep s : is_equal (px s) sep = true -> forall ts pre r post k,
  Forall (free sep) ts -> Forall (fun p => is_equal (px p) sep = false) r -> 1 <= k <= length r ->
  find_loop (pre ++ terminated s ts ++ r ++ post) sep (seq (length pre) (length (terminated s ts) + k)) None =
  Ok (ranges_of (length pre) ts, Some (length pre + length (terminated s ts))).
Proof.
  intros Hs. induction ts as [|t ts IH]; intros pre r post k Hts Hr Hk; cbn [terminated flat_map app length ranges_of].
  - rewrite find_loop_nonsep.
    + cbn [Nat.add]. destruct k; [lia|]. rewrite Nat.add_0_r. reflexivity.
    + intros i Hi. cbn [Nat.add] in Hi. destruct (nth_error r (i - length pre)) as [p|] eqn:E; [|apply nth_error_None in E; lia].
      exists p. split.
      * replace i with (length pre + (i - length pre)) by lia. rewrite nth_error_mid by lia. exact E.
      * rewrite Forall_forall in Hr. apply Hr. eapply nth_error_In, E.
  - fold (terminated s ts). inversion Hts as [|? ? [Hne Hf] Hts']; subst.
    set (vec := pre ++ ((t ++ [s]) ++ terminated s ts) ++ r ++ post).
    assert (Ev : vec = (pre ++ t ++ [s]) ++ terminated s ts ++ r ++ post) by (unfold vec; rewrite <- !app_assoc; reflexivity).
    assert (Hlen : length ((t ++ [s]) ++ terminated s ts) + k = length t + (1 + (length (terminated s ts) + k))).
    { rewrite !app_length. cbn [length]. lia. }
    rewrite Hlen, seq_app, find_loop_app.
    assert (Hnt : length t <> 0) by (destruct t; [congruence|discriminate]).
    rewrite find_loop_nonsep.
    2:{ intros i Hi. destruct (nth_error t (i - length pre)) as [p|] eqn:E; [|apply nth_error_None in E; lia].
        exists p. split.
        - unfold vec. rewrite <- !app_assoc. replace i with (length pre + (i - length pre)) by lia. rewrite nth_error_mid by lia. exact E.
        - rewrite Forall_forall in Hf. apply Hf. eapply nth_error_In, E. }
    cbn [bind fst snd]. destruct (length t) as [|m] eqn:Em; [congruence|]. rewrite <- Em in *. clear Hnt.
    rewrite seq_app, find_loop_app. cbn [seq find_loop].
    assert (Hsat : vget vec (length pre + length t) = Ok s).
    { apply vget_ok. rewrite Ev, <- !app_assoc. rewrite nth_error_app2 by lia.
      replace (length pre + length t - length pre) with (length t) by lia. rewrite nth_error_app2 by lia. rewrite Nat.sub_diag. reflexivity. }
    rewrite Hsat. cbn [bind]. unfold is_sep at 1. rewrite Hs. cbn [bind fst snd].
    specialize (IH (pre ++ t ++ [s]) r post k Hts' Hr Hk). rewrite Ev.
    replace (length (pre ++ t ++ [s])) with (length pre + length t + 1) in IH by (rewrite !app_length; cbn [length]; lia).
    rewrite IH. cbn [bind fst snd app]. do 3 f_equal. rewrite !app_length. cbn [length]. lia.
Qed.

Fixpoint join (s : point) (rings : list (list point)) : list point :=
  match rings with [] => [] | [r] => r | r :: t => r ++ s :: join s t end.

Lemma join_last s ts r : join s (ts ++ [r]) = terminated s ts ++ r.
Proof.
  induction ts as [|t ts IH]; [reflexivity|]. cbn [app join terminated flat_map]. fold (terminated s ts).
  rewrite IH. destruct (ts ++ [r]) as [|x y] eqn:E; [destruct ts; discriminate|]. rewrite <- !app_assoc. reflexivity.
Qed.

Lemma gather_one_join e : gather_one e = join separator_point (outer e :: inner e).
Proof.
  unfold gather_one. destruct e as [o i]. cbn [outer inner]. revert o. induction i as [|r i IH]; intros o; cbn [flat_map].
  - cbn. apply app_nil_r.
  - change (join separator_point (o :: r :: i)) with (o ++ separator_point :: join separator_point (r :: i)).
    f_equal. cbn [app]. f_equal. apply IH.
Qed.
Lemma gather_join es : gather es = join missing_point (map gather_one es).
Proof.
  induction es as [|e es IH]; [reflexivity|]. destruct es as [|e2 es]; [reflexivity|].
  cbn [map join gather] in *. rewrite IH. reflexivity.
Qed.

Lemma find_indices_join sep s rings : is_equal (px s) sep = true -> Forall (free sep) rings ->
  find_indices (join s rings) 0 (length (join s rings)) sep = Ok (ranges_of 0 rings).
Proof.
  intros Hs Hr. assert (Hc : rings = [] \/ rings <> []) by (destruct rings; [left; reflexivity|right; discriminate]).
  destruct Hc as [->|Hne]; [reflexivity|].
  destruct (exists_last Hne) as (ts & r & ->). rewrite join_last. apply Forall_app in Hr. destruct Hr as [Hts Hr].
  inversion Hr as [|? ? [Hrn Hrf] _]; subst.
  assert (Hrl : 1 <= length r) by (destruct r; [congruence|cbn; lia]).
  unfold find_indices. destruct (terminated s ts ++ r) as [|p l] eqn:E; [destruct (terminated s ts); [cbn in E; congruence|discriminate]|].
  rewrite <- E. rewrite (proj2 (Nat.ltb_ge _ 0)) by lia. rewrite Nat.ltb_irrefl. cbn [orb]. rewrite Nat.sub_0_r.
  pose proof (find_loop_rings sep s Hs ts [] r [] (length r) Hts Hrf ltac:(lia)) as H. cbn [app length Nat.add] in H. rewrite app_nil_r in H.
  rewrite app_length, H. cbn [bind fst snd]. rewrite (ranges_of_app s). cbn [ranges_of Nat.add]. reflexivity.
Qed.

Lemma find_indices_inner sep s ts r pre post : is_equal (px s) sep = true -> Forall (free sep) ts ->
  Forall (fun p => is_equal (px p) sep = false) r -> 2 <= length r ->
  let vec := pre ++ (terminated s ts ++ r) ++ post in
  find_indices vec (length pre) (length pre + length (terminated s ts ++ r) - 1) sep =
  Ok (ranges_of (length pre) ts ++ [(length pre + length (terminated s ts), length vec - 1)]).
Proof.
  intros Hs Hts Hr Hl vec. unfold find_indices.
  assert (Hlen : length vec = length pre + (length (terminated s ts) + length r) + length post) by (unfold vec; rewrite !app_length; lia).
  destruct vec as [|p l] eqn:E; [cbn in Hlen; lia|]. rewrite <- E in *. unfold vec in *. clear vec p l E.
  rewrite (proj2 (Nat.ltb_ge _ _)) by lia. rewrite (proj2 (Nat.ltb_ge _ _)) by (rewrite Hlen, app_length; lia). cbn [orb].
  rewrite app_length at 1. replace (length pre + (length (terminated s ts) + length r) - 1 - length pre) with (length (terminated s ts) + (length r - 1)) by lia.
  rewrite <- app_assoc. rewrite (find_loop_rings sep s Hs ts pre r post (length r - 1) Hts Hr ltac:(lia)). reflexivity.
Qed.

Lemma slice_mid {A} (pre l post : list A) : firstn (length l) (skipn (length pre) (pre ++ l ++ post)) = l.
Proof.
  rewrite skipn_app, Nat.sub_diag, skipn_all. cbn [app skipn]. rewrite firstn_app, firstn_all, Nat.sub_diag. cbn. apply app_nil_r.
Qed.

Lemma good_ring_polygon r : good_ring r -> make_polygon r = Ok r.
Proof.
  intros (Hlen & (p & q & t & Hr & Hl & Hpq) & Hf). unfold make_polygon.
  rewrite (proj2 (Nat.ltb_ge (length r) 4)) by exact Hlen. rewrite Bool.andb_false_r.
  assert (H0 : invalid_count r = 0).
  { unfold invalid_count. clear -Hf. induction Hf as [|x l [Hx _] Hl IH]; [reflexivity|]. cbn [filter]. rewrite Hx. exact IH. }
  rewrite H0. cbn [Nat.ltb Nat.leb].
  replace (match r with [] => false | p0 :: _ => negb (point_eq p0 (last r p0)) end) with false; [reflexivity|].
  rewrite Hr in *. rewrite Hl, Hpq. reflexivity.
Qed.

Lemma construct_polygon_mid pre r post : good_ring r ->
  construct_polygon (pre ++ r ++ post) (length pre) (length pre + length r - 1) = Ok r.
Proof.
  intros Hr. pose proof Hr as [Hlen _]. unfold construct_polygon.
  rewrite (proj2 (Nat.ltb_ge _ _)) by lia. rewrite (proj2 (Nat.leb_gt _ _)) by (rewrite !app_length; lia).
  replace (length pre + length r - 1 + 1 - length pre) with (length r) by lia. rewrite slice_mid. apply good_ring_polygon, Hr.
Qed.

Lemma construct_inner_ok s : forall rings pre, Forall good_ring rings ->
  construct_inner (pre ++ join s rings) (ranges_of (length pre) rings) = Ok rings.
Proof.
  induction rings as [|r rings IH]; intros pre Hf; [reflexivity|]. inversion Hf as [|? ? Hr Hf']; subst.
  cbn [ranges_of construct_inner]. destruct rings as [|r2 rings].
  - cbn [join ranges_of construct_inner]. pose proof (construct_polygon_mid pre r [] Hr) as H. rewrite app_nil_r in H. rewrite H. reflexivity.
  - change (join s (r :: r2 :: rings)) with (r ++ s :: join s (r2 :: rings)).
    rewrite (construct_polygon_mid pre r _ Hr). cbn [bind].
    specialize (IH (pre ++ r ++ [s]) Hf').
    replace (length (pre ++ r ++ [s])) with (length pre + length r + 1) in IH by (rewrite !app_length; cbn [length]; lia).
    replace ((pre ++ r ++ [s]) ++ join s (r2 :: rings)) with (pre ++ r ++ s :: join s (r2 :: rings)) in IH by (rewrite <- !app_assoc; reflexivity).
    rewrite IH. reflexivity.
Qed.

Lemma good_ring_free r : good_ring r -> free separator_double r /\ free missing_double r.
Proof.
  intros (Hlen & _ & Hf).
  assert (r <> []) by (intros ->; cbn in Hlen; lia).
  split; (split; [assumption|]); eapply Forall_impl; try exact Hf; cbn; intros p [Hv Hs]; [exact Hs|].
  unfold is_valid, is_valid_for in Hv. apply negb_true_iff, orb_false_iff in Hv. apply Hv.
Qed.

Lemma sep_is_sep : is_equal (px separator_point) separator_double = true.
Proof. vm_compute. reflexivity. Qed.
Lemma missing_is_sep : is_equal (px missing_point) missing_double = true.
Proof. vm_compute. reflexivity. Qed.
Lemma sep_not_missing : is_equal (px separator_point) missing_double = false.
Proof. vm_compute. reflexivity. Qed.

Lemma rings_last e : good_enclosure e -> exists ts r, outer e :: inner e = ts ++ [r] /\ Forall good_ring ts /\ good_ring r.
Proof.
  intros [Ho Hi]. destruct (@exists_last _ (outer e :: inner e)) as (ts & r & E); [discriminate|]. exists ts, r. split; [exact E|].
  assert (H : Forall good_ring (outer e :: inner e)) by (constructor; assumption). rewrite E in H. apply Forall_app in H.
  destruct H as [H1 H2]. inversion H2; auto.
Qed.

Lemma make_enclosure_gather e : good_enclosure e -> make_enclosure (gather_one e) = Ok e.
Proof.
  intros He. destruct (rings_last e He) as (ts & r & E & Hts & Hr).
  rewrite gather_one_join. unfold make_enclosure.
  assert (Hft : Forall (free separator_double) ts) by (eapply Forall_impl; [|exact Hts]; intros x Hx; apply good_ring_free, Hx).
  pose proof (good_ring_free r Hr) as [[_ Hfr] _].
  assert (Hr4 : 4 <= length r) by apply Hr.
  assert (Hfi : find_indices (join separator_point (outer e :: inner e)) 0 (length (join separator_point (outer e :: inner e)) - 1) separator_double =
                Ok (ranges_of 0 (outer e :: inner e))).
  { rewrite E, join_last.
    pose proof (find_indices_inner separator_double separator_point ts r [] [] sep_is_sep Hft Hfr ltac:(lia)) as H.
    cbn [app length Nat.add] in H. rewrite app_nil_r in H. rewrite H. f_equal.
    rewrite (ranges_of_app separator_point). cbn [ranges_of Nat.add]. rewrite app_length. reflexivity. }
  rewrite Hfi. cbn [bind]. destruct e as [o i]. cbn [outer inner] in *. destruct He as [Ho Hi]. cbn [outer inner] in *.
  destruct i as [|i1 i]; cbn [ranges_of].
  - cbn [join]. pose proof (construct_polygon_mid [] o [] Ho) as H. cbn [app length Nat.add] in H. rewrite app_nil_r in H. rewrite H. reflexivity.
  - change (join separator_point (o :: i1 :: i)) with (o ++ separator_point :: join separator_point (i1 :: i)).
    pose proof (construct_polygon_mid [] o (separator_point :: join separator_point (i1 :: i)) Ho) as H. cbn [app length Nat.add] in H.
    cbn [Nat.add]. rewrite H. cbn [bind].
    pose proof (construct_inner_ok separator_point (i1 :: i) (o ++ [separator_point]) Hi) as H2.
    replace (length (o ++ [separator_point])) with (length o + 1) in H2 by (rewrite app_length; reflexivity).
    cbn [ranges_of] in H2. cbn [tl]. rewrite <- app_assoc in H2. cbn [app] in H2. rewrite H2. reflexivity.
Qed.

Lemma gather_one_free e : good_enclosure e -> free missing_double (gather_one e).
Proof.
  intros [Ho Hi]. unfold gather_one. pose proof (good_ring_free _ Ho) as [_ [Hne Hf]]. split.
  - intros H. apply app_eq_nil in H. apply Hne, H.
  - apply Forall_app. split; [exact Hf|]. apply Forall_flat_map. eapply Forall_impl; [|exact Hi]. intros r Hr.
    constructor; [apply sep_not_missing|]. apply good_ring_free in Hr. apply Hr.
Qed.

Lemma make_enclosures_ok : forall es pre post, Forall good_enclosure es ->
  make_enclosures (pre ++ join missing_point (map gather_one es) ++ post) (ranges_of (length pre) (map gather_one es)) =
  Ok (es, outer_ranges (length pre) es).
Proof.
  induction es as [|e es IH]; intros pre post Hf; [reflexivity|]. inversion Hf as [|? ? He Hf']; subst.
  cbn [map ranges_of make_enclosures outer_ranges].
  assert (Hpos : 4 <= length (outer e)) by apply He.
  assert (Hg : length (outer e) <= length (gather_one e)) by (unfold gather_one; rewrite app_length; lia).
  assert (Hsplit : exists rest, join missing_point (gather_one e :: map gather_one es) ++ post = gather_one e ++ rest).
  { destruct (map gather_one es) as [|x l]; [exists post; reflexivity|].
    change (join missing_point (gather_one e :: x :: l)) with (gather_one e ++ missing_point :: join missing_point (x :: l)).
    rewrite <- app_assoc. eauto. }
  destruct Hsplit as [rest Hrest]. rewrite Hrest.
  destruct (rings_last e He) as (ts & r & E & Hts & Hr).
  assert (Hft : Forall (free separator_double) ts) by (eapply Forall_impl; [|exact Hts]; intros x Hx; apply good_ring_free, Hx).
  pose proof (good_ring_free r Hr) as [[_ Hfr] _]. assert (Hr4 : 4 <= length r) by apply Hr.
  pose proof (find_indices_inner separator_double separator_point ts r pre rest sep_is_sep Hft Hfr ltac:(lia)) as Hfi.
  rewrite <- join_last, <- E, <- gather_one_join in Hfi. cbn zeta in Hfi. rewrite Hfi. cbn [bind].
  replace (length pre + length (gather_one e) - 1 + 1 - length pre) with (length (gather_one e)) by lia.
  rewrite slice_mid, (make_enclosure_gather e He). cbn [bind].
  assert (Hrec : make_enclosures (pre ++ gather_one e ++ rest) (ranges_of (length pre + length (gather_one e) + 1) (map gather_one es)) =
                 Ok (es, outer_ranges (length pre + length (gather_one e) + 1) es)).
  { destruct es as [|e2 es]; [reflexivity|].
    rewrite <- Hrest. specialize (IH (pre ++ gather_one e ++ [missing_point]) post Hf').
    replace (length (pre ++ gather_one e ++ [missing_point])) with (length pre + length (gather_one e) + 1) in IH by (rewrite !app_length; cbn [length]; lia).
    cbn [map] in *. change (join missing_point (gather_one e :: gather_one e2 :: map gather_one es)) with
      (gather_one e ++ missing_point :: join missing_point (gather_one e2 :: map gather_one es)).
    rewrite <- !app_assoc in *. exact IH. }
  rewrite Hrec. cbn [bind fst snd]. do 3 f_equal.
  destruct e as [o i]. cbn [outer inner] in *. f_equal. destruct i as [|i1 i].
  - assert (ts = []) as -> by (destruct ts as [|? [|]]; cbn in E; congruence). cbn. unfold gather_one. cbn [outer inner flat_map]. rewrite app_nil_r. reflexivity.
  - destruct ts as [|t ts]; [cbn in E; congruence|]. cbn [app] in E. injection E as <- E.
    cbn [ranges_of app]. destruct ts as [|t2 ts]; cbn [ranges_of app terminated flat_map length].
    + rewrite app_length. cbn [length]. rewrite app_length. cbn [length]. lia.
    + lia.
Qed.

Lemma make_polygons_gather es : Forall good_enclosure es -> make_polygons (gather es) = Ok (es, outer_ranges 0 es).
Proof.
  intros Hf. unfold make_polygons. rewrite gather_join.
  rewrite (find_indices_join missing_double missing_point).
  - cbn [bind]. pose proof (make_enclosures_ok es [] [] Hf) as H. cbn [app length] in H. rewrite app_nil_r in H. exact H.
  - apply missing_is_sep.
  - apply Forall_map. eapply Forall_impl; [|exact Hf]. apply gather_one_free.
Qed.

Lemma number_of_nodes_gather es : number_of_nodes es = length (gather es).
Proof.
  assert (Hone : forall e, length (gather_one e) = length (outer e) + length (concat (inner e)) + length (inner e)).
  { intros e. unfold gather_one. rewrite app_length. rewrite <- Nat.add_assoc. f_equal.
    induction (inner e) as [|r l IH]; [reflexivity|]. cbn [flat_map concat length app]. rewrite !app_length, IH. lia. }
  induction es as [|e es IH]; [reflexivity|]. cbn [number_of_nodes]. rewrite IH. destruct es as [|e2 es].
  - cbn [gather length]. rewrite Hone. lia.
  - change (gather (e :: e2 :: es)) with (gather_one e ++ missing_point :: gather (e2 :: es)). rewrite app_length, Hone. cbn [length]. lia.
Qed.

(** Where a node of an outer ring lies in the gathered list. *)
Lemma outer_ranges_get es : forall off i e, nth_error es i = Some e ->
  exists o, nth_error (outer_ranges off es) i = Some (o, o + length (outer e) - 1) /\ off <= o /\
    forall k p, nth_error (outer e) k = Some p -> nth_error (gather es) (o - off + k) = Some p.
Proof.
  induction es as [|e0 es IH]; intros off [|i] e Hi; cbn [nth_error outer_ranges] in *; try discriminate.
  - injection Hi as <-. exists off. split; [reflexivity|]. split; [lia|]. intros k p Hk. rewrite Nat.sub_diag. cbn [Nat.add].
    assert (Hlt : k < length (outer e0)) by (apply nth_error_Some; congruence).
    assert (H1 : nth_error (gather_one e0) k = Some p) by (unfold gather_one; rewrite nth_error_app1 by exact Hlt; exact Hk).
    destruct es as [|e2 es]; [exact H1|].
    change (gather (e0 :: e2 :: es)) with (gather_one e0 ++ missing_point :: gather (e2 :: es)).
    rewrite nth_error_app1; [exact H1|]. apply nth_error_Some. congruence.
  - destruct (IH (off + length (gather_one e0) + 1) i e Hi) as (o & H1 & H2 & H3). exists o. split; [exact H1|]. split; [lia|].
    intros k p Hk. specialize (H3 k p Hk). destruct es as [|e2 es]; [destruct i; discriminate|].
    change (gather (e0 :: e2 :: es)) with (gather_one e0 ++ missing_point :: gather (e2 :: es)).
    rewrite nth_error_app2 by lia.
    replace (o - off + k - length (gather_one e0)) with (S (o - (off + length (gather_one e0) + 1) + k)) by lia. exact H3.
Qed.

Lemma outer_ranges_loop es : forall off i0 i e o a b, Forall good_enclosure es -> nth_error es i = Some e ->
  nth_error (outer_ranges off es) i = Some (o, o + length (outer e) - 1) -> a <= b < length (outer e) ->
  polygon_index_loop (outer_ranges off es) i0 (o + a) (o + b) = Ok (i0 + i, a, b).
Proof.
  induction es as [|e0 es IH]; intros off i0 [|i] e o a b Hf Hi Ho Hab; cbn [nth_error outer_ranges polygon_index_loop] in *; try discriminate.
  - injection Hi as <-. injection Ho as <- _. rewrite (proj2 (Nat.leb_le _ _)) by lia. rewrite (proj2 (Nat.leb_le _ _)) by lia. cbn [andb].
    repeat f_equal; lia.
  - inversion Hf as [|? ? He Hf']; subst.
    destruct (outer_ranges_get es (off + length (gather_one e0) + 1) i e Hi) as (o' & H1 & H2 & _). rewrite H1 in Ho. injection Ho as <- _.
    assert (Hg : length (outer e0) <= length (gather_one e0)) by (unfold gather_one; rewrite app_length; lia).
    assert (4 <= length (outer e0)) by apply He.
    rewrite (proj2 (Nat.leb_gt (o' + b) _)) by lia. rewrite Bool.andb_false_r.
    rewrite (IH (off + length (gather_one e0) + 1) (i0 + 1) i e o' a b Hf' Hi H1 Hab). f_equal. f_equal. f_equal. lia.
Qed.

Lemma polygon_index_ok es i e a b : Forall good_enclosure es -> nth_error es i = Some e -> a <= b < length (outer e) ->
  exists o, nth_error (outer_ranges 0 es) i = Some (o, o + length (outer e) - 1) /\
    (forall k p, nth_error (outer e) k = Some p -> nth_error (gather es) (o + k) = Some p) /\
    (o + b <> 0 -> polygon_index es (outer_ranges 0 es) (o + a) (o + b) = Ok (i, a, b)).
Proof.
  intros Hf Hi Hab. destruct (outer_ranges_get es 0 i e Hi) as (o & H1 & _ & H3). exists o. split; [exact H1|]. split.
  - intros k p Hk. specialize (H3 k p Hk). rewrite Nat.sub_0_r in H3. exact H3.
  - intros Hnz. unfold polygon_index. destruct es as [|e0 es]; [destruct i; discriminate|].
    replace ((o + a =? 0) && (o + b =? 0)) with false by (symmetry; apply andb_false_iff; right; apply Nat.eqb_neq; lia).
    apply (outer_ranges_loop (e0 :: es) 0 0 i e o a b Hf Hi H1 Hab).
Qed.

(** *** Regions *)
Section Region.
  Variable contains : list point -> point -> bool.

  Notation in_enclosure := (in_enclosure contains).
  Notation in_hole := (in_hole contains).

  Lemma region_spec e p : is_valid p = true ->
    (contains_region contains e p = RExterior <-> in_enclosure e p) /\
    (contains_region contains e p = RInterior <-> in_hole e p) /\
    (contains_region contains e p = RNone <-> contains (outer e) p = false).
  Proof.
    intros Hv. unfold contains_region, PolySpec.in_enclosure, PolySpec.in_hole. rewrite Hv. cbn [andb].
    destruct (contains (outer e) p); [|intuition congruence].
    destruct (existsb (fun i => contains i p) (inner e)) eqn:E.
    - apply existsb_exists in E. destruct E as (i & Hi & Hc). repeat split; try congruence; eauto.
      intros [_ H]. specialize (H i Hi). congruence.
    - assert (H : forall i, In i (inner e) -> contains i p = false).
      { intros i Hi. destruct (contains i p) eqn:Ec; [|reflexivity]. assert (existsb (fun i => contains i p) (inner e) = true) by (apply existsb_exists; eauto). congruence. }
      repeat split; try congruence; auto. intros [_ (i & Hi & Hc)]. rewrite (H i Hi) in Hc. discriminate.
  Qed.

  Lemma in_polygons_loop_spec p : is_valid p = true -> forall es i0,
    match in_polygons_loop contains es i0 p with
    | (true, Some i) => exists k e, i = i0 + k /\ nth_error es k = Some e /\ in_enclosure e p /\
                          forall j f, j < k -> nth_error es j = Some f -> contains (outer f) p = false
    | (false, None) => (forall e, In e es -> ~ in_enclosure e p) \/
                       exists k e, nth_error es k = Some e /\ in_hole e p /\
                          forall j f, j < k -> nth_error es j = Some f -> contains (outer f) p = false
    | _ => False
    end.
  Proof.
    intros Hv. induction es as [|e es IH]; intros i0; cbn [in_polygons_loop].
    - left. intros e [].
    - destruct (region_spec e p Hv) as (H1 & H2 & H3). destruct (contains_region contains e p) eqn:E.
      + specialize (IH (i0 + 1)). assert (Hc := proj1 H3 eq_refl). destruct (in_polygons_loop contains es (i0 + 1) p) as [[|] [i|]]; try exact IH.
        * destruct IH as (k & e' & -> & Hk & Hin & Hbefore). exists (S k), e'. split; [lia|]. split; [exact Hk|]. split; [exact Hin|].
          intros [|j] f Hj Hf; cbn in Hf; [congruence|]. apply (Hbefore j f); [lia|exact Hf].
        * destruct IH as [H|(k & e' & Hk & Hin & Hbefore)].
          -- left. intros f [<-|Hf]; [intros [Ho _]; congruence|auto].
          -- right. exists (S k), e'. split; [exact Hk|]. split; [exact Hin|].
             intros [|j] f Hj Hf; cbn in Hf; [congruence|]. apply (Hbefore j f); [lia|exact Hf].
      + exists 0, e. split; [lia|]. split; [reflexivity|]. split; [apply H1; reflexivity|]. intros j f Hj. lia.
      + right. exists 0, e. split; [reflexivity|]. split; [apply H2; reflexivity|]. intros j f Hj. lia.
  Qed.

  Lemma in_any_same es p : in_any_polygon contains es p = fst (in_polygons contains es p).
  Proof.
    unfold in_any_polygon, in_polygons. destruct es as [|e es]; [reflexivity|]. generalize (e :: es) 0. clear e es.
    induction l as [|e es IH]; intros n; [reflexivity|]. cbn [in_any_loop in_polygons_loop].
    destruct (contains_region contains e p); [apply IH|reflexivity|reflexivity].
  Qed.

  Lemma in_polygons_invalid es p : is_valid p = false -> es <> [] -> in_polygons contains es p = (false, None).
  Proof.
    intros Hv Hne. unfold in_polygons. destruct es as [|e es]; [congruence|]. generalize (e :: es) 0. clear e es Hne.
    induction l as [|e es IH]; intros n; [reflexivity|]. cbn [in_polygons_loop]. unfold contains_region. rewrite Hv. apply IH.
  Qed.

  (** No hole of a polygon hides another polygon. *)
  Lemma in_polygons_ok es p : is_valid p = true -> es <> [] ->
    (forall e, In e es -> in_hole e p -> forall f, In f es -> ~ in_enclosure f p) ->
    (fst (in_polygons contains es p) = true <-> exists e, In e es /\ in_enclosure e p).
  Proof.
    intros Hv Hne Hno. unfold in_polygons. destruct es as [|e0 es]; [congruence|].
    pose proof (in_polygons_loop_spec p Hv (e0 :: es) 0) as H.
    destruct (in_polygons_loop contains (e0 :: es) 0 p) as [[|] [i|]]; try contradiction; cbn [fst]; split; try discriminate; auto.
    - intros _. destruct H as (k & e & _ & Hk & Hin & _). exists e. split; [eapply nth_error_In, Hk|exact Hin].
    - intros (e & He & Hin). exfalso. destruct H as [H|(k & f & Hk & Hh & _)]; [apply (H e He Hin)|].
      apply (Hno f (nth_error_In _ _ Hk) Hh e He Hin).
  Qed.
End Region.

(** *** Witnesses *)
Local Definition D (z : Z) : double := double_of z 0.
Local Definition P (x y : Z) : point := Pt (D x) (D y).

Definition demo_ring : list point := [P 0 0; P 4 0; P 4 4; P 0 0].
Definition demo_hole : list point := [P 1 1; P 2 1; P 2 2; P 1 1].
Definition demo_enclosures : list enclosure := [Enclosure demo_ring [demo_hole; demo_hole]; Enclosure demo_hole []; Enclosure demo_ring [demo_hole]].

Lemma window_refuted : ~ (forall vec start stop sep, start <= stop <= length vec ->
  exists rs, find_indices vec start stop sep = Ok rs /\ runs vec sep start stop rs).
Proof.
  intros H. destruct (H [P 1 1; P 2 2; missing_point] 0 2 missing_double) as (rs & Hf & Hr & _); [cbn; lia|].
  assert (E : find_indices [P 1 1; P 2 2; missing_point] 0 2 missing_double = Ok [(0, 2)]) by (vm_compute; reflexivity).
  rewrite E in Hf. injection Hf as <-. destruct (Hr 0 2) as (_ & _ & H2 & _); [left; reflexivity|lia].
Qed.

(** An island in a hole of the first polygon. *)
Definition by_first (r : list point) (p : point) : bool := match r with q :: _ => SFleb (px q) (px p) | [] => false end.
Lemma island_refuted : ~ (forall contains es p, is_valid p = true -> es <> [] ->
  (fst (in_polygons contains es p) = true <-> exists e, In e es /\ in_enclosure contains e p)).
Proof.
  intros H. set (es := [Enclosure [P 0 0] [[P 1 0]]; Enclosure [P 2 0] []]).
  assert (Hp : fst (in_polygons by_first es (P 3 0)) = true).
  { apply H; [vm_compute; reflexivity|discriminate|]. exists (Enclosure [P 2 0] []). split; [right; left; reflexivity|].
    split; [vm_compute; reflexivity|intros i []]. }
  vm_compute in Hp. discriminate.
Qed.

Lemma ring_good a b c d : point_eq a d = true -> forallb (fun p => is_valid p && negb (is_equal (px p) separator_double)) [a; b; c; d] = true ->
  good_ring [a; b; c; d].
Proof.
  intros He Hf. split; [cbn; lia|]. split; [exists a, d, [b; c; d]; auto|].
  rewrite forallb_forall in Hf. apply Forall_forall. intros p Hp. specialize (Hf p Hp). apply andb_true_iff in Hf. destruct Hf as [H1 H2].
  apply negb_true_iff in H2. auto.
Qed.
Lemma demo_good : Forall good_enclosure demo_enclosures.
Proof.
  assert (good_ring demo_ring) by (apply ring_good; vm_compute; reflexivity).
  assert (good_ring demo_hole) by (apply ring_good; vm_compute; reflexivity).
  repeat (apply Forall_cons; [split; cbn [outer inner]; [assumption|repeat (apply Forall_cons; [assumption|]); apply Forall_nil]|]).
  apply Forall_nil.
Qed.

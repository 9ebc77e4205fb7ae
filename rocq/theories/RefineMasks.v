(** The masks: lengths, and which edges they mark. *)
From Verif Require Import Base BaseLemmas FloatModel UtilModel UndoModel ActionModel MeshModel MeshSpec MeshProofs MeshEdits FaceModel FaceSpec FlipSpec ConvertModel FlipModel NodeTypeProofs
  RefineModel RefineSpec RefineProofs RefineSpread.

Lemma fold_total {A B} (P : A -> Prop) (g : A -> B -> outcome A) l : forall a, P a -> (forall a b, In b l -> P a -> exists a', g a b = Ok a' /\ P a') -> exists a', fold_out g l a = Ok a' /\ P a'.
Proof.
  induction l as [|b l IH]; intros a Ha H; cbn [fold_out]; [eauto|]. destruct (H a b (or_introl eq_refl) Ha) as (a1 & -> & H1). cbn [bind]. apply IH; [exact H1|]. intros; apply H; [now right|assumption].
Qed.
(** Good result, or one of the errors allowed, or undefined behaviour if that is possible at all. *)
Definition sound {A} (Q : Prop) (P : A -> Prop) (r : outcome A) : Prop :=
  match r with Ok a => P a | Throw e => e = AlgorithmErr | UB => Q end.
Lemma fold_sound {A B} (Q : Prop) (P : A -> Prop) (g : A -> B -> outcome A) l : forall a, P a -> (forall a b, In b l -> P a -> sound Q P (g a b)) -> sound Q P (fold_out g l a).
Proof.
  induction l as [|b l IH]; intros a Ha H; cbn [fold_out]; [exact Ha|]. pose proof (H a b (or_introl eq_refl) Ha) as H1. destruct (g a b) as [a1|e|]; cbn [bind]; [|exact H1|exact H1].
  apply IH; [exact H1|]. intros; apply H; [now right|assumption].
Qed.
Lemma sound_bind {A B} (Q : Prop) (P : A -> Prop) (R : B -> Prop) (r : outcome A) (g : A -> outcome B) : sound Q P r -> (forall a, P a -> sound Q R (g a)) -> sound Q R (bind r g).
Proof. intros H Hg. destruct r as [a|e|]; cbn [bind]; [apply Hg; exact H|exact H|exact H]. Qed.
Lemma ok_sound {A} (Q : Prop) (P : A -> Prop) (r : outcome A) : (exists a, r = Ok a /\ P a) -> sound Q P r.
Proof. intros (a & -> & H). exact H. Qed.

Section Masks.
  Variables (m : mesh) (f : faces).
  Hypothesis St : in_step m f.
  Hypothesis A6 : at_most_six f.
  Variable br : list (option nat).
  Hypothesis Hb : length br = length (m_edges m).
  Local Notation N := (length (m_nodes m)).
  Local Notation E := (length (m_edges m)).

  Lemma face_nodes_in i n : i < num_faces f -> In n (nodes_of f i) -> n < N.
  Proof.
    intros Hi Hn. destruct (face_get m f St A6 i Hi) as (ns & es & G1 & G2 & G3 & G4 & G5 & G6 & G7 & G8 & G9 & G10 & G11 & G12). rewrite G3 in Hn. specialize (G12 n Hn).
    unfold valid_at in G12. destruct (nth_error (m_nodes m) n) eqn:Q; [|discriminate]. apply nth_error_Some. congruence.
  Qed.
  Lemma face_edges_in i j : i < num_faces f -> item (edges_of f i) j < E /\ lists f i (item (edges_of f i) j).
  Proof.
    intros Hi. destruct (face_get m f St A6 i Hi) as (ns & es & G1 & G2 & G3 & G4 & G5 & G6 & G7 & G8 & G9 & G10 & G11 & G12). rewrite G4. split.
    - apply (face_edge m ns es (proj1 G9) G11).
    - exists es. split; [exact G2|]. apply item_in. intros Z. rewrite Z in G8. cbn in G8. lia.
  Qed.
  (** What every function reads first. *)
  Lemma face_read i : i < num_faces f -> vget (num_faces_nodes f) i = Ok (length (edges_of f i)) /\ vget (faces_nodes f) i = Ok (nodes_of f i) /\ vget (faces_edges f) i = Ok (edges_of f i) /\
    length (nodes_of f i) = length (edges_of f i) /\ 3 <= length (edges_of f i) <= 6 /\ (forall j, vget br (item (edges_of f i) j) = Ok (brother br (item (edges_of f i) j))).
  Proof.
    intros Hi. destruct (face_get m f St A6 i Hi) as (ns & es & G1 & G2 & G3 & G4 & G5 & G6 & G7 & G8 & G9 & G10 & G11 & G12). rewrite G3, G4. repeat (split; [assumption|]). split; [congruence|]. split; [lia|].
    intros j. apply (brother_get m ns es br (proj1 G9) G11 Hb).
  Qed.
  Lemma only_set em i j v : only_sides f em -> length em = E -> i < num_faces f -> only_sides f (set_nth (item (edges_of f i) j) v em).
  Proof.
    intros H L Hi e M. destruct (face_edges_in i j Hi) as (H1 & H2). unfold marked in M. rewrite value_set in M by lia. destruct (Nat.eqb_spec e (item (edges_of f i) j)) as [Q|Q]; [rewrite Q; eauto|]. now apply H.
  Qed.
  Lemma only_zero k : only_sides f (repeat 0%Z k).
  Proof. intros e M. unfold marked, value in M. rewrite nth_repeat in M. discriminate. Qed.
  Definition good (em : list Z) : Prop := length em = E /\ only_sides f em.
  Lemma good_set em i j v : good em -> i < num_faces f -> exists em', vset (item (edges_of f i) j) v em = Ok em' /\ good em'.
  Proof.
    intros (L & O) Hi. destruct (face_edges_in i j Hi) as (H1 & _). rewrite vset_lt by lia. eexists. split; [reflexivity|]. split; [now rewrite set_nth_length|now apply only_set].
  Qed.
  Lemma good_zero : good (repeat 0%Z E).
  Proof. split; [apply repeat_length|apply only_zero]. Qed.
  Lemma faces_set (fm : list Z) i v : length fm = num_faces f -> i < num_faces f -> exists fm', vset i v fm = Ok fm' /\ length fm' = num_faces f.
  Proof. intros L Hi. rewrite vset_lt by lia. eexists. split; [reflexivity|]. now rewrite set_nth_length. Qed.

  Lemma perimeter_ok nm : length nm = N -> exists nm', perimeter f nm = Ok nm' /\ length nm' = N.
  Proof.
    intros L. apply fold_total; [exact L|]. intros l i Hi Hl. apply in_seq in Hi. destruct (face_read i ltac:(lia)) as (R1 & R2 & R3 & R4 & R5 & R6). rewrite R1, R2. cbn [bind]. rewrite <- R4, firstn_all.
    rewrite (read_all_ok l 0%Z) by (intros n Hn; rewrite Hl; eapply face_nodes_in; [|exact Hn]; lia). cbn [bind]. destruct (existsb _ _); [|eauto].
    apply fold_total; [exact Hl|]. intros l1 n Hn H1. assert (n < N) by (eapply face_nodes_in; [|exact Hn]; lia). rewrite value_get by lia. cbn [bind]. destruct (_ =? 1)%Z; [|eauto]. rewrite vset_lt by lia.
    eexists. split; [reflexivity|]. now rewrite set_nth_length.
  Qed.
  Lemma from_size_ok small : exists em fm, masks_from_size m f small = Ok (em, fm) /\ good em /\ length fm = num_faces f.
  Proof.
    destruct (fold_total (fun st : list Z * list Z => good (fst st) /\ length (snd st) = num_faces f) (fun (st : list Z * list Z) i =>
      let! k := vget (num_faces_nodes f) i in
      let! es := vget (faces_edges f) i in
      fold_out (fun (st : list Z * list Z) n =>
        let! e := vget es n in
        if length (m_edges m) <=? e then UB
        else if small e then Ok st
        else
          let! em := vset e (-1)%Z (fst st) in
          let! fm := vset i 1%Z (snd st) in
          Ok (em, fm)) (seq 0 k) st) (seq 0 (num_faces f)) (repeat 0%Z E, repeat 0%Z (num_faces f))) as ((em & fm) & H & G & L).
    - split; [apply good_zero|apply repeat_length].
    - intros st i Hi H. apply in_seq in Hi. destruct (face_read i ltac:(lia)) as (R1 & R2 & R3 & R4 & R5 & R6). rewrite R1, R3. cbn [bind]. apply fold_total; [exact H|].
      intros (em & fm) n Hn (G & L). apply in_seq in Hn. rewrite item_at by lia. cbn [bind]. destruct (face_edges_in i n ltac:(lia)) as (He & _). destruct (Nat.leb_spec E (item (edges_of f i) n)); [lia|].
      destruct (small _); [exists (em, fm); auto|]. cbn [fst snd] in *. destruct (good_set em i n (-1)%Z G ltac:(lia)) as (em' & -> & G'). cbn [bind]. destruct (faces_set fm i 1%Z L ltac:(lia)) as (fm' & -> & L'). cbn [bind].
      exists (em', fm'). auto.
    - exists em, fm. auto.
  Qed.
  Lemma each_alone_ok {A} (P : A -> Prop) fm set a : length fm = num_faces f -> P a -> (forall i j a, i < num_faces f -> P a -> exists a', set (item (edges_of f i) j) a = Ok a' /\ P a') ->
    exists a', each_alone f br fm set a = Ok a' /\ P a'.
  Proof.
    intros L Ha Hs. apply fold_total; [exact Ha|]. intros b i Hi H. apply in_seq in Hi. destruct (face_read i ltac:(lia)) as (R1 & R2 & R3 & R4 & R5 & R6). rewrite value_get by lia. cbn [bind].
    destruct (negb _); [eauto|]. rewrite R1, R3. cbn [bind]. apply fold_total; [exact H|]. intros c n Hn Hc. apply in_seq in Hn. rewrite (around_ok (edges_of f i) n) by lia. cbn [bind]. rewrite R6. cbn [bind].
    destruct (alone _ _ _); [|eauto]. apply Hs; [lia|exact Hc].
  Qed.
  Lemma smooth_ok directional times em fm : good em -> length fm = num_faces f -> sound False (fun st => good (fst st) /\ length (snd st) = num_faces f) (smooth directional times f br em fm).
  Proof.
    intros G L. unfold smooth. destruct directional; [reflexivity|]. apply fold_sound; [auto|]. intros (em1 & fm1) x _ (G1 & L1). cbn [fst snd] in *. apply ok_sound. unfold smooth_once.
    destruct (each_alone_ok (fun l => length l = E) fm1 (fun e l => vset e true l) (map (fun _ => false) em1) L1) as (split1 & -> & Ls); [rewrite map_length; apply G1| |].
    { intros i j l Hi Hl. destruct (face_edges_in i j Hi) as (He & _). rewrite vset_lt by lia. eexists. split; [reflexivity|]. now rewrite set_nth_length. }
    cbn [bind].
    match goal with |- exists a, (let! fm := fold_out ?g ?l ?a0 in _) = _ /\ _ => destruct (fold_total (fun fm : list Z => length fm = num_faces f) g l a0 L1) as (fm2 & -> & L2) end.
    { intros fm2 i Hi L2. apply in_seq in Hi. destruct (face_read i ltac:(lia)) as (R1 & R2 & R3 & R4 & R5 & R6). rewrite R1, R3. cbn [bind]. apply fold_total; [exact L2|]. intros fm3 n Hn L3. apply in_seq in Hn.
      rewrite item_at by lia. cbn [bind]. destruct (face_edges_in i n ltac:(lia)) as (He & _). rewrite (proj2 (vget_ok split1 _ (nth (item (edges_of f i) n) split1 false))) by (apply nth_error_nth'; lia). cbn [bind].
      destruct (nth _ split1 false); [|eauto]. apply faces_set; [exact L3|lia]. }
    cbn [bind]. destruct (each_alone_ok good fm2 (fun e l => vset e 1%Z l) em1 L2 G1) as (em2 & -> & G2). { intros i j l Hi Hl. now apply good_set. }
    cbn [bind]. exists (em2, fm2). auto.
  Qed.
  Lemma from_samples_ok wanted directional times cache : sound False (fun x => good (fst (fst x)) /\ length (snd (fst x)) = num_faces f) (masks_from_samples wanted directional times m f br cache).
  Proof.
    unfold masks_from_samples. apply sound_bind with (P := fun x => good (fst (fst x)) /\ length (snd (fst x)) = num_faces f).
    - apply ok_sound, fold_total; [cbn; split; [apply good_zero|apply repeat_length]|]. intros ((em & fm) & c) i Hi (G & L). cbn [fst snd] in *. apply in_seq in Hi. destruct (face_read i ltac:(lia)) as (R1 & R2 & R3 & R4 & R5 & R6).
      destruct (find_hanging_ok m f St A6 br Hb m i) as (h1 & h2 & H & _); [split; [apply Nat.le_refl|reflexivity]|lia|]. rewrite H. cbn [bind fst snd]. destruct (fst (wanted h1 i)).
      + destruct (faces_set fm i 1%Z L ltac:(lia)) as (fm' & -> & L'). cbn [bind]. rewrite R1, R3. cbn [bind].
        match goal with |- exists a, (let! em := fold_out ?g ?l ?a0 in _) = _ /\ _ => destruct (fold_total good g l a0 G) as (em2 & -> & G2) end.
        { intros em1 n Hn G1. apply in_seq in Hn. destruct (snd (wanted h1 i) n); [|eauto]. rewrite item_at by lia. cbn [bind]. apply good_set; [exact G1|lia]. }
        cbn [bind]. eexists. split; [reflexivity|]. auto.
      + eexists. split; [reflexivity|]. auto.
    - intros ((em & fm) & c) (G & L). cbn [fst snd] in *. apply sound_bind with (P := fun st => good (fst st) /\ length (snd st) = num_faces f).
      + apply smooth_ok; [|exact L]. destruct G as (G1 & G2). split; [now rewrite map_length|]. intros e M. apply G2. unfold marked, value in *. change 0%Z with (- 0)%Z in M at 1. rewrite map_nth in M.
        destruct (Z.eqb_spec (nth e em 0%Z) 0) as [Q|Q]; [rewrite Q in M; discriminate|reflexivity].
      + intros (em2 & fm2) H. exact H.
  Qed.
  Lemma limit_ok first nm fm : length nm = N -> length fm = num_faces f -> exists fm', limit_faces first f nm fm = Ok fm' /\ length fm' = num_faces f.
  Proof.
    intros Ln L. apply fold_total; [exact L|]. intros fm1 i Hi L1. apply in_seq in Hi. destruct (face_read i ltac:(lia)) as (R1 & R2 & R3 & R4 & R5 & R6). rewrite R1, R2. cbn [bind]. rewrite <- R4, firstn_all.
    rewrite (read_all_ok nm 0%Z) by (intros n Hn; rewrite Ln; eapply face_nodes_in; [|exact Hn]; lia). cbn [bind]. destruct (if first then _ else _); [eauto|]. apply faces_set; [exact L1|lia].
  Qed.

  (** *** The edges to refine of the faces to refine *)
  Definition up (em em' : list Z) : Prop := length em' = length em /\ forall e, value em' e = value em e \/ value em' e = 1%Z.
  Lemma up_refl em : up em em.
  Proof. split; auto. Qed.
  Lemma up_trans a b c : up a b -> up b c -> up a c.
  Proof. intros (L1 & H1) (L2 & H2). split; [congruence|]. intros e. destruct (H2 e) as [X|X]; [|now right]. rewrite X. apply H1. Qed.
  Lemma up_one a b e : up a b -> value a e = 1%Z -> value b e = 1%Z.
  Proof. intros (_ & H) X. destruct (H e); congruence. Qed.
  Lemma up_set em e : e < length em -> up em (set_nth e 1%Z em).
  Proof. intros H. split; [apply set_nth_length|]. intros x. rewrite value_set by exact H. destruct (x =? e); auto. Qed.
  (** Changed at most in edges of a face. *)
  Definition up_in (i : nat) (em em' : list Z) : Prop := up em em' /\ forall e, value em' e <> value em e -> In e (edges_of f i).
  Lemma up_in_refl i em : up_in i em em.
  Proof. split; [apply up_refl|]. intros e H. now destruct H. Qed.
  Lemma up_in_trans i a b c : up_in i a b -> up_in i b c -> up_in i a c.
  Proof. intros (U1 & H1) (U2 & H2). split; [eapply up_trans; eauto|]. intros e H. destruct (Z.eq_dec (value b e) (value a e)) as [Q|Q]; [apply H2; congruence|now apply H1]. Qed.
  Lemma item_in i j : i < num_faces f -> In (item (edges_of f i) j) (edges_of f i).
  Proof. intros Hi. destruct (face_edges_in i j Hi) as (_ & es & E1 & E2). unfold edges_of in *. now rewrite (nth_error_nth _ _ _ E1) in *. Qed.
  Lemma one_set em i j : good em -> i < num_faces f ->
    exists em', vset (item (edges_of f i) j) 1%Z em = Ok em' /\ good em' /\ up_in i em em' /\ value em' (item (edges_of f i) j) = 1%Z.
  Proof.
    intros (L & O) Hi. destruct (face_edges_in i j Hi) as (H1 & _). rewrite vset_lt by lia. eexists. split; [reflexivity|]. split; [split; [now rewrite set_nth_length|now apply only_set]|].
    split; [split; [apply up_set; lia|]; intros x; rewrite value_set by lia; destruct (Nat.eqb_spec x (item (edges_of f i) j)) as [->|]; [intros _; now apply item_in|intros X; now destruct X]|]. rewrite value_set by lia. now rewrite Nat.eqb_refl.
  Qed.
  Lemma settle_other_ok i em : i < num_faces f -> good em -> exists em', settle_other br (edges_of f i) (length (edges_of f i)) em = Ok em' /\ good em' /\ up_in i em em' /\
    forall j, j < length (edges_of f i) -> on_its_own br (edges_of f i) j = true -> value em' (item (edges_of f i) j) = 1%Z.
  Proof.
    intros Hi G. destruct (face_read i Hi) as (R1 & R2 & R3 & R4 & R5 & R6).
    apply (fold_range (fun n em' => good em' /\ up_in i em em' /\ forall j, j < n -> on_its_own br (edges_of f i) j = true -> value em' (item (edges_of f i) j) = 1%Z)); [split; [exact G|]; split; [apply up_in_refl|intros; lia]|].
    intros n em1 Hn (G1 & U1 & D1). rewrite (around_ok (edges_of f i) n Hn). cbn [bind]. rewrite R6. cbn [bind]. change (alone _ _ _) with (on_its_own br (edges_of f i) n). destruct (on_its_own br (edges_of f i) n) eqn:O.
    - destruct (one_set em1 i n G1 Hi) as (em2 & -> & G2 & U2 & V2). exists em2. split; [reflexivity|]. split; [exact G2|]. split; [eapply up_in_trans; eauto|]. intros j Hj Oj. destruct (Nat.eq_dec j n) as [->|]; [exact V2|].
      eapply up_one; [exact (proj1 U2)|]. apply D1; [lia|exact Oj].
    - exists em1. split; [reflexivity|]. split; [exact G1|]. split; [exact U1|]. intros j Hj Oj. apply D1; [|exact Oj]. destruct (Nat.eq_dec j n); [congruence|lia].
  Qed.
  Lemma fold_sound_range {A} (Q : Prop) (P : nat -> A -> Prop) (g : A -> nat -> outcome A) k a :
    P 0 a -> (forall j a, j < k -> P j a -> sound Q (P (S j)) (g a j)) -> sound Q (P k) (fold_out g (seq 0 k) a).
  Proof.
    intros H0 Hs. assert (G : forall n i b, i + n = k -> P i b -> sound Q (P k) (fold_out g (seq i n) b)).
    { induction n as [|n IH]; intros i b Hi Hb'; cbn [seq fold_out]; [now replace k with i by (clear - Hi; lia)|].
      assert (Hik : i < k) by (clear - Hi; lia). pose proof (Hs i b Hik Hb') as H1. destruct (g b i); cbn [bind]; [|exact H1|exact H1]. apply IH; [clear - Hi; lia|exact H1]. }
    apply (G k 0 a eq_refl H0).
  Qed.
  Lemma vset_sound {A} (Q : Prop) (P : list A -> Prop) i v l : (length l <= i -> Q) -> (i < length l -> P (set_nth i v l)) -> sound Q P (vset i v l).
  Proof.
    intros H1 H2. destruct (Nat.lt_ge_cases i (length l)) as [H|H]; [rewrite vset_lt by exact H; now apply H2|]. unfold vset. rewrite (proj2 (Nat.ltb_ge i (length l)) H). now apply H1.
  Qed.
  Lemma number_ok h i em quad nums : i < num_faces f -> good em -> length quad = 4 -> length nums = 6 -> length (edges_of f i) = 4 + h ->
    sound (h <> 0) (fun x => length (snd (fst x)) = 4 /\ length (snd x) = 6 /\ ((forall j, with_next br (edges_of f i) j = false) -> forall j, j < length (edges_of f i) -> nth j (snd x) 0 = j))
      (number_edges br (edges_of f i) (length (edges_of f i)) em quad nums).
  Proof.
    intros Hi G Lq Ln Lk. destruct (face_read i Hi) as (R1 & R2 & R3 & R4 & R5 & R6). set (es := edges_of f i) in *. unfold number_edges.
    match goal with |- sound _ ?R (fold_out ?g _ ?a) => pose (P := fun n (x : nat * list Z * list nat) => fst (fst x) <= n /\ length (snd (fst x)) = 4 /\ length (snd x) = 6 /\
      ((forall j, with_next br es j = false) -> fst (fst x) = Nat.min n (length es - 1) /\ forall j, j < n -> nth j (snd x) 0 = j));
      assert (M : sound (h <> 0) (P (length es)) (fold_out g (seq 0 (length es)) a)) end.
    - apply fold_sound_range; [unfold P; cbn [fst snd]; split; [lia|]; split; [exact Lq|]; split; [exact Ln|]; intros _; split; [reflexivity|intros; lia]|].
      intros n ((num & q1) & n1) Hn (P1 & P2 & P3 & P4). cbn [fst snd] in *. rewrite (around_ok es n Hn). cbn [bind]. destruct (face_edges_in i n Hi) as (He & _). fold es in He.
      rewrite vset_lt by lia. cbn [bind]. rewrite value_get by (rewrite (proj1 G); exact He). cbn [bind].
      assert (Over : forall x : list Z, length x = 4 -> length x <= num -> h <> 0) by (intros x Lx Q; lia).
      apply sound_bind with (P := fun q2 : list Z => length q2 = 4).
      { destruct (_ =? 0)%Z; [exact P2|]. apply vset_sound; [apply Over; exact P2|]. intros _. now rewrite set_nth_length. }
      intros q2 L2. rewrite R6. cbn [bind]. fold (with_next br es n).
      assert (Fin : forall q3, length q3 = 4 -> P (S n) (if negb (n =? length es - 1) && negb (with_next br es n) then num + 1 else num, q3, set_nth n num n1)).
      { intros q3 L3. unfold P. cbn [fst snd]. split; [destruct (_ && _); lia|]. split; [exact L3|]. split; [now rewrite set_nth_length|]. intros W. destruct (P4 W) as (Q1 & Q2). rewrite W. cbn [negb]. rewrite andb_true_r. split.
        - destruct (Nat.eqb_spec n (length es - 1)); cbn [negb]; lia.
        - intros j Hj. rewrite nth_set by lia. destruct (Nat.eqb_spec j n) as [->|]; [lia|]. apply Q2. lia. }
      destruct (with_next br es n) eqn:W.
      + rewrite andb_false_r. rewrite andb_false_r in Fin. apply sound_bind with (P := fun q3 : list Z => length q3 = 4).
        * apply vset_sound; [apply Over; exact L2|]. intros _. now rewrite set_nth_length.
        * intros q3 L3. apply Fin, L3.
      + cbn [bind sound]. apply Fin, L2.
    - destruct (fold_out _ _ _) as [((num & q1) & n1)|e|]; [|exact M|exact M]. destruct M as (M1 & M2 & M3 & M4). cbn [fst snd] in *. cbn [sound fst snd]. split; [exact M2|]. split; [exact M3|]. intros W. apply M4, W.
  Qed.
  Lemma settle_quad_ok i nums all em : i < num_faces f -> length nums = 6 -> good em -> exists em', settle_quad (edges_of f i) (length (edges_of f i)) nums all em = Ok em' /\ good em' /\ up_in i em em' /\
    ((forall j, j < length (edges_of f i) -> nth j nums 0 = j) -> forall j, j < length (edges_of f i) -> value em (item (edges_of f i) j) = (-1)%Z -> value em' (item (edges_of f i) j) = 1%Z).
  Proof.
    intros Hi Ln G. destruct (face_read i Hi) as (R1 & R2 & R3 & R4 & R5 & R6).
    destruct (fold_range (fun n em' => good em' /\ up_in i em em' /\ ((forall j, j < length (edges_of f i) -> nth j nums 0 = j) -> forall j, j < n -> value em (item (edges_of f i) j) = (-1)%Z -> value em' (item (edges_of f i) j) = 1%Z))
      (fun em n =>
        let! e := vget (edges_of f i) n in
        let! v := vget em e in
        if (0 <? v)%Z then Ok em
        else if negb all && negb (v =? -1)%Z then Ok em
        else
          let! p := next_backward n (length (edges_of f i)) in
          let! q := next_forward n (length (edges_of f i)) in
          let! x := vget nums n in
          let! y := vget nums p in
          let! z := vget nums q in
          if negb (x =? y) && negb (x =? z) then vset e 1%Z em else Ok em) (length (edges_of f i)) em) as (em' & H & G' & U & D).
    - split; [exact G|]. split; [apply up_in_refl|intros; lia].
    - intros n em1 Hn (G1 & U1 & D1). rewrite item_at by exact Hn. cbn [bind]. destruct (face_edges_in i n Hi) as (He & _). rewrite value_get by (rewrite (proj1 G1); exact He). cbn [bind].
      set (e := item (edges_of f i) n) in *.
      assert (Keep : (value em e = (-1)%Z -> (forall j, j < length (edges_of f i) -> nth j nums 0 = j) -> value em1 e = 1%Z) ->
        good em1 /\ up_in i em em1 /\ ((forall j, j < length (edges_of f i) -> nth j nums 0 = j) -> forall j, j < S n -> value em (item (edges_of f i) j) = (-1)%Z -> value em1 (item (edges_of f i) j) = 1%Z)).
      { intros K. split; [exact G1|]. split; [exact U1|]. intros W j Hj V. destruct (Nat.eq_dec j n) as [->|]; [now apply K|]. apply D1; [exact W|lia|exact V]. }
      destruct (Z.ltb_spec 0 (value em1 e)) as [V|V].
      { exists em1. split; [reflexivity|]. apply Keep. intros X _. destruct (proj2 (proj1 U1) e); lia. }
      destruct (negb all && negb (value em1 e =? -1)%Z) eqn:B.
      { exists em1. split; [reflexivity|]. apply Keep. intros X _. apply andb_true_iff in B as (_ & B). apply negb_true_iff, Z.eqb_neq in B. destruct (proj2 (proj1 U1) e); lia. }
      rewrite next_backward_ok, next_forward_ok by exact Hn. cbn [bind].
      assert (Vn : forall x, x < length (edges_of f i) -> vget nums x = Ok (nth x nums 0)) by (intros x Hx; apply vget_ok, nth_error_nth'; lia).
      assert (M1 : (n + length (edges_of f i) - 1) mod length (edges_of f i) < length (edges_of f i)) by (apply Nat.mod_upper_bound; lia).
      assert (M2 : (n + 1) mod length (edges_of f i) < length (edges_of f i)) by (apply Nat.mod_upper_bound; lia).
      rewrite !Vn by assumption. cbn [bind].
      destruct (negb (nth n nums 0 =? nth ((n + length (edges_of f i) - 1) mod length (edges_of f i)) nums 0) && negb (nth n nums 0 =? nth ((n + 1) mod length (edges_of f i)) nums 0)) eqn:C.
      + destruct (one_set em1 i n G1 Hi) as (em2 & E2 & G2 & U2 & V2). change (item (edges_of f i) n) with e in E2. rewrite E2. exists em2. split; [reflexivity|]. split; [exact G2|]. split; [eapply up_in_trans; eauto|]. intros W j Hj Vj. destruct (Nat.eq_dec j n) as [->|]; [exact V2|].
        eapply up_one; [exact (proj1 U2)|]. apply D1; [exact W|lia|exact Vj].
      + exists em1. split; [reflexivity|]. apply Keep. intros _ W. exfalso. rewrite !W in C by assumption. set (k := length (edges_of f i)) in *.
        assert (N1 : n <> (n + 1) mod k). { destruct (Nat.eq_dec (n + 1) k) as [Q|Q]; [rewrite Q, Nat.mod_same by lia; lia|rewrite Nat.mod_small by lia; lia]. }
        assert (N2 : n <> (n + k - 1) mod k). { destruct (Nat.eq_dec n 0) as [Q|Q]; [rewrite Q; rewrite Nat.mod_small by lia; lia|]. replace (n + k - 1) with (n - 1 + 1 * k) by lia. rewrite Nat.mod_add, Nat.mod_small by lia. lia. }
        rewrite (proj2 (Nat.eqb_neq _ _) N1), (proj2 (Nat.eqb_neq _ _) N2) in C. discriminate.
    - exists em'. auto.
  Qed.

  Variables (fm em0 : list Z) (h : nat).
  Hypothesis Lfm : length fm = num_faces f.
  Hypothesis G0 : good em0.
  (** Face [i] has been dealt with. *)
  Definition dealt (em : list Z) (i : nat) : Prop :=
    marked fm i = true ->
    (length (edges_of f i) <> 4 + h -> forall j, j < length (edges_of f i) -> on_its_own br (edges_of f i) j = true -> value em (item (edges_of f i) j) = 1%Z) /\
    (length (edges_of f i) = 4 + h -> (forall j, with_next br (edges_of f i) j = false) -> forall j, j < length (edges_of f i) -> value em0 (item (edges_of f i) j) = (-1)%Z -> value em (item (edges_of f i) j) = 1%Z).
  Lemma dealt_up em em' i : up em em' -> dealt em i -> dealt em' i.
  Proof. intros U D M. destruct (D M) as (D1 & D2). split; intros; eapply up_one; try exact U; auto. Qed.
  (** Only edges of faces to refine change. *)
  Definition asked (em : list Z) : Prop := forall e, value em e <> value em0 e -> exists i, i < num_faces f /\ marked fm i = true /\ In e (edges_of f i).
  Lemma asked_up i em em' : i < num_faces f -> marked fm i = true -> asked em -> up_in i em em' -> asked em'.
  Proof. intros Hi Mi A (_ & U) e H. destruct (Z.eq_dec (value em' e) (value em e)) as [Q|Q]; [apply A; congruence|]. exists i. auto. Qed.
  Definition at_work (s : settling) : Prop := good (t_edges s) /\ asked (t_edges s) /\ up em0 (t_edges s) /\ length (t_quad s) = 4 /\ length (t_nums s) = 6.
  Lemma settle_face_ok i s : i < num_faces f -> at_work s -> sound (h <> 0) (fun s' => at_work s' /\ up (t_edges s) (t_edges s') /\ dealt (t_edges s') i) (settle_face f br fm h s i).
  Proof.
    intros Hi (G & Ak & U & Lq & Ln). destruct (face_read i Hi) as (R1 & R2 & R3 & R4 & R5 & R6). unfold settle_face. rewrite value_get by lia. cbn [bind].
    destruct (value fm i =? 0)%Z eqn:V.
    { cbn [sound]. split; [split; [exact G|]; split; [exact Ak|]; split; [exact U|]; split; assumption|]. split; [apply up_refl|]. intros M. unfold marked in M. rewrite V in M. discriminate. }
    assert (Mi : marked fm i = true) by (unfold marked; now rewrite V). rewrite R1, R3. cbn [bind]. destruct (Nat.eqb_spec (length (edges_of f i)) (4 + h)) as [K|K].
    - apply sound_bind with (1 := number_ok h i (t_edges s) (t_quad s) (t_nums s) Hi G Lq Ln K). intros ((num & quad) & nums) (Q1 & Q2 & Q3). cbn [fst snd] in *.
      destruct (negb (num + 1 =? 4)); [reflexivity|]. destruct (settle_quad_ok i nums (refine_all quad) (t_edges s) Hi Q2 G) as (em' & -> & G' & U' & D'). cbn [bind sound t_edges].
      split; [split; [exact G'|split; [exact (asked_up i _ _ Hi Mi Ak U')|split; [eapply up_trans; [exact U|apply U']|split; assumption]]]|]. split; [apply U'|]. intros _. split; [intros X; now destruct (X K)|]. intros _ W j Hj Vj.
      destruct (proj2 U (item (edges_of f i) j)) as [Q|Q]; [apply D'; [auto|exact Hj|congruence]|]. eapply up_one; [apply U'|exact Q].
    - destruct (settle_other_ok i (t_edges s) Hi G) as (em' & -> & G' & U' & D'). cbn [bind sound t_edges]. split; [split; [exact G'|split; [exact (asked_up i _ _ Hi Mi Ak U')|split; [eapply up_trans; [exact U|apply U']|split; assumption]]]|]. split; [apply U'|].
      intros _. split; [auto|]. intros X. now destruct (K X).
  Qed.
  Lemma round_ok s : at_work s -> sound (h <> 0) (fun s' => at_work s' /\ up (t_edges s) (t_edges s') /\ forall i, i < num_faces f -> dealt (t_edges s') i) (fold_out (settle_face f br fm h) (seq 0 (num_faces f)) s).
  Proof.
    intros W. apply (fold_sound_range (h <> 0) (fun n s' => at_work s' /\ up (t_edges s) (t_edges s') /\ forall i, i < n -> dealt (t_edges s') i)); [split; [exact W|]; split; [apply up_refl|intros; lia]|].
    intros n s1 Hn (W1 & U1 & D1). pose proof (settle_face_ok n s1 Hn W1) as H. destruct (settle_face f br fm h s1 n) as [s2|e|]; [|exact H|exact H]. destruct H as (W2 & U2 & D2). split; [exact W2|]. split; [eapply up_trans; eauto|].
    intros i Hi. destruct (Nat.eq_dec i n) as [->|]; [exact D2|]. eapply dealt_up; [exact U2|]. apply D1. lia.
  Qed.
  Lemma rounds_ok r : forall s, at_work s -> sound (h <> 0) (fun s' => at_work s' /\ up (t_edges s) (t_edges s') /\ forall i, i < num_faces f -> dealt (t_edges s') i) (settle_rounds (S r) f br fm h s).
  Proof.
    induction r as [|r IH]; intros s W; cbn [settle_rounds].
    - apply sound_bind with (1 := round_ok (Settling (t_edges s) (t_quad s) (t_nums s) false) W). intros s1 H. destruct (t_repeat s1); exact H.
    - apply sound_bind with (1 := round_ok (Settling (t_edges s) (t_quad s) (t_nums s) false) W). intros s1 (W1 & U1 & D1). destruct (t_repeat s1); [|cbn [sound]; auto].
      pose proof (IH s1 W1) as H. cbn [settle_rounds] in H. match goal with |- sound _ _ ?r => destruct r as [s2|e|] end; [|exact H|exact H]. destruct H as (W2 & U2 & D2). split; [exact W2|]. split; [eapply up_trans; eauto|exact D2].
  Qed.
End Masks.

Theorem settle_ok m f br fm em cache : in_step m f -> at_most_six f -> length br = length (m_edges m) -> length fm = num_faces f -> good m f em ->
  sound (count_true cache <> 0) (fun em' => good m f em' /\ zero_or_one em' /\ (forall e, value em e = 1%Z -> value em' e = 1%Z) /\ (forall e, value em' e = 1%Z -> value em e = 1%Z \/ exists i, i < num_faces f /\ marked fm i = true /\ In e (edges_of f i)) /\ forall i, i < num_faces f -> dealt f br fm em (count_true cache) em' i)
    (settle f br fm cache em).
Proof.
  intros St A6 Hb Lf G. unfold settle.
  apply sound_bind with (P := fun s' => at_work m f fm em s' /\ up em (t_edges s') /\ forall i, i < num_faces f -> dealt f br fm em (count_true cache) (t_edges s') i).
  { apply (rounds_ok m f St A6 br Hb fm em (count_true cache) Lf 5 (Settling em (repeat 0%Z 4) (repeat 0 max_edges_per_face) true)). split; [exact G|]. split; [intros e H; now destruct H|]. split; [apply up_refl|]. split; reflexivity. }
  intros s (((L & O) & Ak & U & _) & _ & D). destruct (t_repeat s); [reflexivity|]. cbn [sound].
  assert (V : forall e, value (map (fun v => if (v =? 1)%Z then 1%Z else 0%Z) (t_edges s)) e = if (value (t_edges s) e =? 1)%Z then 1%Z else 0%Z).
  { intros e. exact (map_nth (fun v => if (v =? 1)%Z then 1%Z else 0%Z) (t_edges s) 0%Z e). }
  assert (V1 : forall e, value (t_edges s) e = 1%Z -> value (map (fun v => if (v =? 1)%Z then 1%Z else 0%Z) (t_edges s)) e = 1%Z) by (intros e He; now rewrite V, He).
  split; [split; [now rewrite map_length|]|].
  - intros e M. apply O. unfold marked in *. rewrite V in M. destruct (Z.eqb_spec (value (t_edges s) e) 1) as [->|]; [reflexivity|discriminate].
  - split; [intros e; rewrite V; destruct (_ =? 1)%Z; auto|]. split; [intros e He; apply V1; eapply up_one; eauto|]. split; [intros e He; rewrite V in He; destruct (Z.eqb_spec (value (t_edges s) e) 1) as [Q|]; [|discriminate]; destruct (Z.eq_dec (value em e) 1) as [|X]; [now left|right; apply Ak; congruence]|]. intros i Hi M. destruct (D i Hi M) as (D1 & D2). split; intros; apply V1; auto.
Qed.

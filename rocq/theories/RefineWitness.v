(** Concrete meshes for the refinement. *)
From Coq Require Import Permutation.
From Verif Require Import Base BaseLemmas FloatModel FloatProofs UndoModel UndoSpec ActionModel ActionSpec MeshModel MeshSpec MeshUndo MeshWitness FaceModel FaceSpec FaceUseMain FaceUseModel ConvertModel FlipModel FlipSpec FlipStep SplitWitness.
From Verif Require FlipWitness.
From Verif Require Import RefineModel RefineSpec.

Definition links_between (l : list (nat * nat)) : list edge := map (fun p => (Some (fst p), Some (snd p))) l.
Definition at_most_sixb (f : faces) : bool := forallb (fun ns => length ns <=? 6) (faces_nodes f).
Lemma at_most_sixb_ok f : at_most_sixb f = true -> at_most_six f.
Proof. unfold at_most_sixb. rewrite forallb_forall. intros H ns Hn. apply Nat.leb_le. now apply H. Qed.
(** A mesh with its faces, as found. *)
Definition start_ok nodes edges : Prop :=
  let m := fst (searched nodes edges) in let f := snd (searched nodes edges) in consistent m /\ administrate2d angle_order shoelace_sign m = Ok (m, f) /\ in_step m f /\ at_most_six f.
Lemma start_facts nodes edges : well_indexedb nodes edges = true ->
  administrate2d angle_order shoelace_sign (fst (searched nodes edges)) = Ok (fst (searched nodes edges), snd (searched nodes edges)) ->
  at_most_sixb (snd (searched nodes edges)) = true -> start_ok nodes edges.
Proof.
  intros H1 H2 H3. destruct (FlipWitness.searched_start nodes edges H1) as [C I]. split; [exact C|]. split; [exact H2|]. split; [exact (I H2)|]. now apply at_most_sixb_ok.
Qed.

(** *** What the functions are given in the examples *)
Definition twice (x : double) : double := fadd x x.
Definition centred_exact (p q n : point) : bool := SFeqb (fadd (px p) (px q)) (twice (px n)) && SFeqb (fadd (py p) (py q)) (twice (py n)).
Definition mean (l : list double) (k : double) : double := fdiv (fold_left fadd l (double_of 0 0)) k.
Definition centre_mean (m : mesh) (f : faces) (i : nat) : point :=
  let ps := map (fun n => nth n (m_nodes m) missing_point) (nodes_of f i) in
  let k := double_of (Z.of_nat (length ps)) 0 in Pt (mean (map px ps) k) (mean (map py ps) k).
Definition everywhere (m : mesh) (f : faces) : list Z := map (fun _ => 1%Z) (m_nodes m).
(** Edges shorter than four are not refined. *)
Definition short (m : mesh) (e : nat) : bool :=
  match edge_at m e with
  | (Some a, Some b) =>
      let p := nth a (m_nodes m) missing_point in let q := nth b (m_nodes m) missing_point in
      let dx := fsub (px p) (px q) in let dy := fsub (py p) (py q) in SFltb (fadd (fmul dx dx) (fmul dy dy)) (double_of 16 0)
  | _ => true
  end.
Definition refine_example (levels : nat) (connect : bool) (m : mesh) := refine angle_order shoelace_sign centred_exact centre_mean everywhere (BySize short) levels connect m.
Definition shown (r : outcome (act mact * mesh * faces)) : outcome (nat * list edge * list (list nat)) := let! x := r in let '(_, m, f) := x in Ok (length (m_nodes m), m_edges m, faces_nodes f).
Lemma everywhere_length m f : length (everywhere m f) = length (m_nodes m).
Proof. apply map_length. Qed.
Lemma everywhere_one m f n : n < length (m_nodes m) -> value (everywhere m f) n = 1%Z.
Proof.
  unfold value, everywhere. revert n. induction (m_nodes m) as [|p l IH]; intros [|n] H; cbn in *; try lia. apply IH. lia.
Qed.

(** Pairs of edges that follow each other at a node that is the middle of their other ends. *)
Definition other_end (e : edge) (n : nat) : nat := match e with (Some a, Some b) => if a =? n then b else a | _ => 0 end.
Definition candidates (centred : point -> point -> point -> bool) (m : mesh) : list (nat * nat) :=
  flat_map (fun n => flat_map (fun j =>
    match nth j (row_of m n) None, nth ((j + 1) mod degree_of m n) (row_of m n) None with
    | Some a, Some b =>
        if centred (nth (other_end (edge_at m a) n) (m_nodes m) missing_point) (nth (other_end (edge_at m b) n) (m_nodes m) missing_point) (nth n (m_nodes m) missing_point)
        then [(a, b); (b, a)] else []
    | _, _ => []
    end) (seq 0 (degree_of m n))) (seq 0 (length (m_nodes m))).
Lemma other_end_ok e n p : joins e n p -> other_end e n = p.
Proof. intros [-> | ->]; cbn; [now rewrite Nat.eqb_refl|]. destruct (Nat.eqb_spec p n); congruence. Qed.
Lemma candidates_ok centred m f a b : halves centred m f a b -> In (a, b) (candidates centred m).
Proof.
  assert (G : forall n j a b, halves_at centred m f n j a b -> In (a, b) (candidates centred m) /\ In (b, a) (candidates centred m)).
  { clear a b. intros n j a b (H1 & H2 & H3 & H4 & _ & p & q & J1 & J2 & H5). apply other_end_ok in J1, J2.
    assert (X : forall x, In x [(a, b); (b, a)] -> In x (candidates centred m)).
    { intros x Hx. apply in_flat_map. exists n. split; [apply in_seq; lia|]. apply in_flat_map. exists j. split; [apply in_seq; lia|]. rewrite H3, H4, J1, J2, H5. exact Hx. }
    split; apply X; cbn; auto. }
  intros (n & j & [H|H]); apply G in H; apply H.
Qed.
Definition one_each (l : list (nat * nat)) : bool := forallb (fun p => forallb (fun q => negb (fst p =? fst q) || (snd p =? snd q)) l) l.
Lemma one_each_ok centred m f : one_each (candidates centred m) = true -> forall a b c, halves centred m f a b -> halves centred m f a c -> b = c.
Proof.
  unfold one_each. rewrite forallb_forall. intros H a b c H1 H2. apply candidates_ok in H1, H2. specialize (H _ H1). rewrite forallb_forall in H. specialize (H _ H2). cbn in H. rewrite Nat.eqb_refl in H. now apply Nat.eqb_eq.
Qed.
Lemma none_ok centred m f : candidates centred m = [] -> forall a b, ~ halves centred m f a b.
Proof. intros H a b X. apply candidates_ok in X. rewrite H in X. destruct X. Qed.

(** *** A square with a triangle on top *)
Definition house_nodes := [pt 0 0; pt 8 0; pt 8 8; pt 0 8; pt 4 16].
Definition house_edges := links_between [(0, 1); (1, 2); (2, 3); (3, 0); (2, 4); (4, 3)].
Definition house : mesh := fst (searched house_nodes house_edges).
Definition house_faces : faces := snd (searched house_nodes house_edges).
Lemma house_start : start_ok house_nodes house_edges.
Proof. apply start_facts; vm_compute; reflexivity. Qed.
Lemma three_or_fourb f : forallb (fun i => (length (edges_of f i) =? 3) || (length (edges_of f i) =? 4)) (seq 0 (num_faces f)) = true -> three_or_four f.
Proof. rewrite forallb_forall. intros H i Hi. specialize (H i). apply orb_true_iff in H as [H|H]; [left|right|apply in_seq; lia]; now apply Nat.eqb_eq. Qed.
Lemma house_conditions : 0 < num_faces house_faces /\ three_or_four house_faces /\ (forall a b, ~ halves centred_exact house house_faces a b) /\
  (forall e, e < length (m_edges house) -> short house e = false).
Proof.
  split; [apply Nat.ltb_lt; vm_compute; reflexivity|]. split; [apply three_or_fourb; vm_compute; reflexivity|]. split; [apply none_ok; vm_compute; reflexivity|].
  assert (X : forallb (fun e => negb (short house e)) (seq 0 (length (m_edges house))) = true) by (vm_compute; reflexivity). rewrite forallb_forall in X. intros e He. apply negb_true_iff, X, in_seq. lia.
Qed.
Lemma house_result : shown (refine_example 1 false house) =
  Ok (12, links_between [(0, 5); (1, 6); (2, 7); (3, 8); (2, 9); (4, 10); (9, 10); (10, 7); (7, 9); (5, 11); (6, 11); (7, 11); (8, 11); (5, 1); (6, 2); (7, 3); (8, 0); (9, 4); (10, 3)],
      [[2; 9; 7]; [3; 7; 10]; [4; 10; 9]; [7; 9; 10]; [0; 5; 11; 8]; [1; 6; 11; 5]; [2; 7; 11; 6]; [3; 8; 11; 7]]).
Proof. vm_compute. reflexivity. Qed.

(** *** A square beside two smaller ones: one hanging node *)
Definition step_nodes := [pt 0 0; pt 8 0; pt 8 8; pt 0 8; pt 12 0; pt 12 4; pt 12 8; pt 8 4].
Definition step_edges := links_between [(0, 1); (1, 7); (7, 2); (2, 3); (3, 0); (1, 4); (4, 5); (5, 7); (5, 6); (6, 2)].
Definition steps : mesh := fst (searched step_nodes step_edges).
Definition step_faces : faces := snd (searched step_nodes step_edges).
Definition step_brothers : list (option nat) := [None; Some 2; Some 1; None; None; None; None; None; None; None].
Lemma step_start : start_ok step_nodes step_edges.
Proof. apply start_facts; vm_compute; reflexivity. Qed.
Lemma step_pairs : find_brothers centred_exact steps step_faces = Ok step_brothers /\ length step_brothers = length (m_edges steps) /\
  (forall a b c, halves centred_exact steps step_faces a b -> halves centred_exact steps step_faces a c -> b = c).
Proof. split; [vm_compute; reflexivity|]. split; [vm_compute; reflexivity|]. apply one_each_ok. vm_compute. reflexivity. Qed.
Definition result_edges {A} (r : outcome (A * mesh)) : list edge := match r with Ok (_, m) => m_edges m | _ => [] end.
Lemma step_links : new_links step_faces step_brothers = [(0, 7); (3, 7)] /\
  result_edges (connect_hanging angle_order step_faces step_brothers steps) = step_edges ++ links_between [(0, 7); (3, 7)].
Proof. split; vm_compute; reflexivity. Qed.
Definition connectableb (br : list (option nat)) (ns es : list nat) : bool :=
  let k := length (sides br ns es) in
  ((length es =? k) || (k =? 3) || (k =? 4)) && ((length es =? k) || forallb (fun p => present (fst p) && present (snd p)) (links br ns es)).
Lemma connectableb_ok br ns es : connectableb br ns es = true -> connectable br ns es.
Proof.
  unfold connectableb, connectable. set (k := length (sides br ns es)). set (l := links br ns es). rewrite andb_true_iff, !orb_true_iff, !Nat.eqb_eq. intros [H1 H2]. split; [tauto|].
  intros N p Hp. destruct H2 as [H2|H2]; [congruence|]. rewrite forallb_forall in H2. apply andb_true_iff. now apply H2.
Qed.
Lemma all_connectable f br : forallb (fun i => connectableb br (nodes_of f i) (edges_of f i)) (seq 0 (num_faces f)) = true -> forall i, i < num_faces f -> connectable br (nodes_of f i) (edges_of f i).
Proof. rewrite forallb_forall. intros H i Hi. apply connectableb_ok, H, in_seq. lia. Qed.
Lemma step_connectable : forall i, i < num_faces step_faces -> connectable step_brothers (nodes_of step_faces i) (edges_of step_faces i).
Proof. apply all_connectable. vm_compute. reflexivity. Qed.
(** The marks of the left square: they spread over the hanging node to no other face; marks at the hanging node do. *)
Definition step_marks : list Z := [0; 1; 0; 0; 0; 0; 0; 0; 0; 0]%Z.
Definition masks_of (r : outcome spreading) : outcome (list Z * list Z) := let! d := r in Ok (d_faces d, d_edges d).
Lemma step_spread : zero_or_one step_marks /\ zeros step_marks < max_spread /\ masks_of (spread steps step_faces step_brothers [0; 0; 0]%Z step_marks []) = Ok ([0; 0; 2], [1; 1; 0; 1; 1; 0; 0; 0; 0; 0])%Z.
Proof.
  split; [|split; [apply Nat.ltb_lt; vm_compute; reflexivity|vm_compute; reflexivity]].
  intros e. unfold value, step_marks. do 10 (destruct e as [|e]; [cbn; auto|]). cbn. destruct e; auto.
Qed.

(** *** Three edges in a line: the middle one has two brothers *)
Definition line_nodes := [pt 0 0; pt 1 0; pt 2 0; pt 3 0; pt 3 3; pt 0 3].
Definition ring_edges := links_between [(0, 1); (1, 2); (2, 3); (3, 4); (4, 5); (5, 0)].
Lemma line_start : start_ok line_nodes ring_edges.
Proof. apply start_facts; vm_compute; reflexivity. Qed.
Lemma line_brothers : exists m f l, in_step m f /\ find_brothers centred_exact m f = Ok l /\ exists a b c, brother l a = Some b /\ brother l b = Some c /\ c <> a.
Proof.
  exists (fst (searched line_nodes ring_edges)), (snd (searched line_nodes ring_edges)), [Some 1; Some 2; Some 1; None; None; None]. split; [apply line_start|]. split; [vm_compute; reflexivity|].
  exists 0, 1, 2. split; [reflexivity|]. split; [reflexivity|discriminate].
Qed.

(** *** A hexagon: it is not split, and in two levels with a hanging node elsewhere there is an access out of range *)
Definition hexa_nodes := [pt 0 0; pt 8 0; pt 16 8; pt 16 16; pt 8 16; pt 0 8; pt 20 0; pt 22 0; pt 22 2; pt 20 2; pt 21 0].
Definition hexa_edges := links_between [(0, 1); (1, 2); (2, 3); (3, 4); (4, 5); (5, 0); (6, 10); (10, 7); (7, 8); (8, 9); (9, 6)].
Definition hexa : mesh := fst (searched hexa_nodes hexa_edges).
Definition hexa_faces : faces := snd (searched hexa_nodes hexa_edges).
Lemma hexa_start : start_ok hexa_nodes hexa_edges.
Proof. apply start_facts; vm_compute; reflexivity. Qed.
Lemma hexa_kept : shown (refine_example 1 false hexa) = Ok (17, hexa_edges, [[6; 10; 7; 8; 9]; [0; 1; 2; 3; 4; 5]]) /\ m_edges hexa = hexa_edges.
Proof. split; vm_compute; reflexivity. Qed.
Lemma hexa_unsafe : exists m, consistent m /\ refine_example 2 false m = UB.
Proof. exists hexa. split; [apply hexa_start|vm_compute; reflexivity]. Qed.
Definition ring_nodes := [pt 0 0; pt 8 0; pt 16 8; pt 16 16; pt 8 16; pt 0 8].
Definition ring : mesh := fst (searched ring_nodes ring_edges).
Definition ring_faces : faces := snd (searched ring_nodes ring_edges).
Definition all_ones : list Z := repeat 1%Z 6.
Definition none_six : list (option nat) := repeat None 6.
Lemma ring_start : start_ok ring_nodes ring_edges.
Proof. apply start_facts; vm_compute; reflexivity. Qed.
Lemma only_sides_marked f em : forallb (fun e => negb (marked em e) || existsb (fun es => existsb (Nat.eqb e) es) (faces_edges f)) (seq 0 (length em)) = true -> only_sides f em.
Proof.
  rewrite forallb_forall. intros H e M. assert (L : e < length em). { destruct (Nat.lt_ge_cases e (length em)) as [X|X]; [exact X|]. unfold marked, value in M. rewrite nth_overflow in M by exact X. discriminate. }
  specialize (H e). rewrite M in H. cbn [negb orb] in H. apply existsb_exists in H as (es & Hes & H); [|apply in_seq; lia]. apply existsb_exists in H as (e' & He & Q). apply Nat.eqb_eq in Q. subst e'.
  apply In_nth_error in Hes as (i & Hi). exists i, es. auto.
Qed.
Lemma ring_kept : exists a s, refine_faces angle_order centre_mean ring_faces none_six [1%Z] ring all_ones all_ones = Ok (a, s) /\ m_edges (r_mesh s) = m_edges ring.
Proof.
  assert (X : forall (r : outcome (act mact * refining)), match r with Ok (_, s) => m_edges (r_mesh s) = m_edges ring | _ => False end -> exists a s, r = Ok (a, s) /\ m_edges (r_mesh s) = m_edges ring).
  { intros [(a & s)|x|] H; [eauto|destruct H|destruct H]. }
  apply X. vm_compute. reflexivity.
Qed.
Lemma ring_only : only_sides ring_faces all_ones.
Proof. apply only_sides_marked. vm_compute. reflexivity. Qed.

(** *** A triangle with three hanging nodes, and a face with five sides *)
Definition three_nodes := [pt 0 0; pt 2 0; pt 4 0; pt 3 2; pt 2 4; pt 1 2].
Definition three : mesh := fst (searched three_nodes ring_edges).
Definition three_faces : faces := snd (searched three_nodes ring_edges).
Definition three_brothers : list (option nat) := [Some 1; Some 0; Some 3; Some 2; Some 5; Some 4].
Lemma three_start : start_ok three_nodes ring_edges.
Proof. apply start_facts; vm_compute; reflexivity. Qed.
Lemma three_left : exists m f br a m', in_step m f /\ find_brothers centred_exact m f = Ok br /\ (exists i j, i < num_faces f /\ j < 6 /\ hanging_node br (edges_of f i) j = true) /\
  connect_hanging angle_order f br m = Ok (a, m') /\ m_edges m' = m_edges m.
Proof.
  assert (X : forall (r : outcome (act mact * mesh)), match r with Ok (_, m') => m_edges m' = m_edges three | _ => False end -> exists a m', r = Ok (a, m') /\ m_edges m' = m_edges three).
  { intros [(a & s)|x|] H; [eauto|destruct H|destruct H]. }
  destruct (X (connect_hanging angle_order three_faces three_brothers three)) as (a & m' & H1 & H2); [vm_compute; reflexivity|].
  exists three, three_faces, three_brothers, a, m'. split; [apply three_start|]. split; [vm_compute; reflexivity|]. split; [|split; [exact H1|exact H2]].
  exists 0, 1. split; [apply Nat.ltb_lt; vm_compute; reflexivity|]. split; [lia|vm_compute; reflexivity].
Qed.
Definition five_nodes := [pt 0 0; pt 2 0; pt 4 0; pt 6 3; pt 3 6; pt (-1) 3].
Lemma five_start : start_ok five_nodes ring_edges.
Proof. apply start_facts; vm_compute; reflexivity. Qed.
Lemma five_refused : exists m, consistent m /\ refine_example 0 true m = Throw StdErr.
Proof. exists (fst (searched five_nodes ring_edges)). split; [apply five_start|vm_compute; reflexivity]. Qed.

(** *** One quadrilateral numbered in two ways; a triangle with a hanging node *)
Definition square_ring := links_between [(0, 1); (1, 2); (2, 3); (3, 0)].
Definition kite_nodes := [pt 0 0; pt 4 0; pt 4 4; pt 1 3].
Definition kite_nodes' := [pt 1 3; pt 0 0; pt 4 0; pt 4 4].
Lemma kites : exists nodes nodes', Permutation nodes nodes' /\
  (let m := fst (searched nodes square_ring) in consistent m /\ shown (refine_example 1 false m) =
     Ok (6, links_between [(0, 4); (1, 5); (2, 3); (3, 0); (4, 5); (4, 1); (5, 2)], [[1; 5; 4]; [0; 4; 5; 2; 3]])) /\
  (let m := fst (searched nodes' square_ring) in consistent m /\ shown (refine_example 1 false m) =
     Ok (9, links_between [(0, 4); (1, 5); (2, 6); (3, 7); (4, 8); (5, 8); (6, 8); (7, 8); (4, 1); (5, 2); (6, 3); (7, 0)], [[0; 4; 8; 7]; [1; 5; 8; 4]; [2; 6; 8; 5]; [3; 7; 8; 6]])).
Proof.
  exists kite_nodes, kite_nodes'. split; [exact (Permutation_cons_append [pt 0 0; pt 4 0; pt 4 4] (pt 1 3)) || apply Permutation_sym, (Permutation_cons_append [pt 0 0; pt 4 0; pt 4 4] (pt 1 3))|].
  split; (split; [apply (start_facts _ square_ring); vm_compute; reflexivity|vm_compute; reflexivity]).
Qed.
Definition tent_nodes := [pt 0 0; pt 5 0; pt 10 0; pt 5 10].
Lemma tent_refused : exists m, consistent m /\ refine_example 1 false m = Throw AlgorithmErr.
Proof. exists (fst (searched tent_nodes square_ring)). split; [apply (start_facts _ square_ring); vm_compute; reflexivity|vm_compute; reflexivity]. Qed.

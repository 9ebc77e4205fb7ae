(** Concrete globes. *)
From Verif Require Import Base FloatModel GlobalModel GlobalSpec GlobalProofs.

Definition same_place (p q : point) : bool := SFeqb (px p) (px q) && SFeqb (py p) (py q).
Definition thirty (lat dlon : double) : double := double_of 30 0.
Definition wide (dlat : double) : bool := false.
Definition narrow (dlat : double) : bool := true.
(** Two squares with a common side. *)
Definition at_ (x y : Z) : point := Pt (double_of x 0) (double_of y 0).
Definition square : globe := add_polygon same_place (Globe [] []) [at_ 0 0; at_ 1 0; at_ 1 1; at_ 0 1].
Definition next_square : list point := [at_ 1 0; at_ 2 0; at_ 2 1; at_ 1 1].
Lemma square_proper : proper same_place square.
Proof.
  apply polygon_ok. repeat split; cbn; try contradiction; intros [|i] j ? ? ? H; discriminate.
Qed.
Lemma two_squares : length (g_nodes square) = 4 /\ length (g_edges square) = 4 /\
  g_edges (add_polygon same_place square next_square) = [(0, 1); (1, 2); (2, 3); (3, 0); (1, 4); (4, 5); (5, 2)].
Proof. vm_compute. auto. Qed.
(** Four columns of ninety degrees, two rows of thirty on both sides of the equator. *)
Lemma small_globe : match generate same_place thirty wide 4 2 Sphere with
  | Ok g => (length (g_nodes g), length (g_edges g)) = (25, 40)
  | _ => False
  end.
Proof. vm_compute. reflexivity. Qed.
(** The first band at once twice as wide: its first face has a halfway node. *)
Definition wide_band : band := Band (double_of 0 0) (double_of 180 0) (double_of 30 0) true.
Lemma wide_fits : fits wide_band 0 /\ fits wide_band 1 /\ ~ fits wide_band 2.
Proof. unfold fits. split; [|split]; vm_compute; [reflexivity..|discriminate]. Qed.
(** With more rows than needed the pole is reached, in three bands. *)
Lemma whole_globe : match generate same_place thirty wide 4 9 Sphere with
  | Ok g => (length (g_nodes g), existsb (same_place (at_ 0 90)) (g_nodes g), existsb (same_place (at_ 0 (-90))) (g_nodes g)) = (35, true, true)
  | _ => False
  end.
Proof. vm_compute. reflexivity. Qed.

(** Two nodes with five edges each, joined at the same latitude; the mutual edge is superfluous. *)
Definition star : list (option nat * option nat) :=
  (Some 0, Some 1) :: map (fun k => (Some 0, Some k)) [2; 3; 4; 5] ++ map (fun k => (Some 1, Some k)) [2; 3; 4; 5].
Definition star_nodes : list point := [at_ 0 0; at_ 2 0; at_ 1 1; at_ 1 2; at_ 1 (-1); at_ 1 (-2)].
Lemma star_inside a b : In (Some a, Some b) star -> a < length star_nodes /\ b < length star_nodes.
Proof. cbn. intros H. repeat (destruct H as [H|H]; [injection H as <- <-; lia|]). destruct H. Qed.
Lemma star_thin : thin SFeqb star_nodes (map (degree star) (seq 0 6)) star = Ok ((None, None) :: tl star).
Proof. vm_compute. reflexivity. Qed.
(** A cosine that is one: the iteration finds the width at once. *)
Lemma flat_latitude : SFeqb (delta_latitude (fun _ => double_of 1 0) (fun x => x) (double_of 1 0) (double_of 1 (-40)) (double_of 0 0) (double_of 3 0)) (double_of 3 0) = true.
Proof. vm_compute. reflexivity. Qed.

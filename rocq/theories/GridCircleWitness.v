(** Concrete parameters for the properties of circular and graded grids. *)
From Verif Require Import Base FloatModel UtilModel GridModel GridSpec GridMakeModel GridMakeSpec GridCircleModel GridCircleSpec.

(** Integer part of a number, and the powers of two with small integer exponents. *)
Definition whole_part (x : double) : Z := match x with S754_finite false m e => Z.shiftl (Zpos m) e | _ => 0%Z end.
Definition power (x e : double) : double :=
  match find (fun k => SFeqb e (dz k)) [-8; -7; -6; -5; -4; -3; -2; -1; 0; 1; 2; 3; 4; 5; 6; 7; 8]%Z with Some k => double_of 1 k | None => x end.
(** Seven columns, three in the middle of size two; three rows of half uniform size. *)
Definition sample (r : Z) : parameters :=
  Parameters 7 3 (dz 0) (Pt (dz 0) (dz 0)) (dz 1) (dz 1) (dz r) (double_of 1 (-2)) (double_of 1 (-1)) (dz 2) (dz 2).
Lemma sample_acceptable r : (0 <= r <= 8)%Z -> acceptable (sample r).
Proof.
  intros H. assert (D : (r = 0 \/ r = 1 \/ r = 2 \/ r = 3 \/ r = 4 \/ r = 5 \/ r = 6 \/ r = 7 \/ r = 8)%Z) by lia.
  unfold acceptable. cbn [sample columns rows angle block_x block_y radius column_fraction row_fraction column_size row_size].
  repeat (destruct D as [->|D]); [..|rewrite D]; repeat split; try reflexivity; repeat constructor.
Qed.
Lemma sample_columns r : uniform (column_fraction (sample r)) (column_size (sample r)) = false /\ whole_part (fmul (dz (columns (sample r) + 1)) (column_fraction (sample r))) = 2%Z.
Proof. split; vm_compute; reflexivity. Qed.
Lemma sample_rows r : uniform (row_fraction (sample r)) (row_size (sample r)) = false /\ whole_part (fmul (dz (rows (sample r) + 1)) (row_fraction (sample r))) = 2%Z.
Proof. split; vm_compute; reflexivity. Qed.
(** The first row lies three quarters of a block above the origin. *)
Lemma first_row : SFeqb (nth 0 (y_values power whole_part (sample 0)) (double_of 0 0)) (double_of 3 (-2)) = true.
Proof. vm_compute. reflexivity. Qed.
Lemma first_row_off : SFeqb (nth 0 (y_values power whole_part (sample 0)) (double_of 0 0)) (double_of 0 0) = false.
Proof. vm_compute. reflexivity. Qed.
(** The first radius is a block larger than asked for. *)
Lemma first_radius_off : SFeqb (nth 0 (radius_values power whole_part (sample 1)) (double_of 0 0)) (radius (sample 1)) = false.
Proof. vm_compute. reflexivity. Qed.
Definition regular : parameters := Parameters 4 3 (dz 0) (Pt (dz 0) (dz 0)) (dz 1) (dz 1) (dz 2) (dz 1) (dz 1) (dz 2) (dz 2).
Lemma regular_uniform : uniform (row_fraction regular) (row_size regular) = true /\ uniform (column_fraction regular) (column_size regular) = true.
Proof. split; vm_compute; reflexivity. Qed.

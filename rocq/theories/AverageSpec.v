(** Plain vocabulary about averages.  Independent of the code in AverageModel, except for its data types. *)
From Coq Require Import QArith Qabs.
From Verif Require Import Base NetworkModel AverageModel.
Local Open Scope Q_scope.

(** [r] lies between the smallest and the largest of [l]. *)
Definition in_range (l : list Q) (r : Q) : Prop := forall lo hi, (forall v, In v l -> lo <= v <= hi) -> lo <= r <= hi.
Definition largest (l : list Q) (r : Q) : Prop := In r l /\ forall v, In v l -> v <= r.
Definition smallest (l : list Q) (r : Q) : Prop := In r l /\ forall v, In v l -> r <= v.

Definition values (l : list sample) : list Q := map s_value l.

(** [s'] is [s] with its value lowered by one. *)
Definition lowered (s s' : sample) : Prop := s_at s' = s_at s /\ s_value s' = (s_value s - 1)%Q.

(** What keeps an average from being computed: too few samples for the simple average, too little weight for the inverse-distance one. *)
Definition enough (m : method) (n : nat) (l : list sample) (wall : Q) : Prop :=
  match m with SimpleAveraging => (n <= length l)%nat | InverseWeightedDistance => inject_Z (Z.of_nat n) <= wall | _ => True end.

(** The numbers compared by a method. *)
Definition compared (m : method) (l : list sample) : list Q := match m with MinAbsValue => map Qabs (values l) | _ => values l end.

(** Values and distances are representable: their absolute values are below the largest number. *)
Definition bounded (big : Q) (l : list sample) : Prop := forall s, In s l -> - big < s_value s < big.

(** The samples a location refers to: those within its radius, or else the nearest one when that is allowed. *)
Definition hits (use_closest : bool) (loc : location) : list nat :=
  match l_found loc with [] => if use_closest then match l_nearest loc with Some i => [i] | None => [] end else [] | f => f end.
(** Sample [i] is referred to by a face with a positive result. *)
Definition hit_by_positive (use_closest : bool) (locs : list location) (rs : list number) (i : nat) : Prop :=
  exists k loc q, nth_error locs k = Some loc /\ nth_error rs k = Some (Some q) /\ 0 < q /\ In i (hits use_closest loc).

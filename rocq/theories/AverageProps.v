(** C47, C66: averaging of samples. *)
From Coq Require Import QArith Qabs.
From Verif Require Import Base BaseLemmas FloatModel UndoModel MeshModel NetworkModel AverageModel AverageSpec AverageProofs AverageMain.
Local Open Scope nat_scope.

(** C47: with samples, and enough of them, every method gives a number within the range of what it compares. *)
Theorem C47_range_partial : forall big dist dist2 m n p l, l <> [] -> bounded big l -> (forall s, In s l -> (dist2 p (s_at s) < big)%Q) ->
  enough m n l (total_weight dist p l) ->
  exists r, calculate big dist dist2 m n p l = Some r /\ in_range (compared m l) r.
Proof. exact calculate_range. Qed.
Example C47_case : sample_samples <> [] /\ bounded huge sample_samples /\ (forall s, In s sample_samples -> (line_dist2 (0, 0)%Q (s_at s) < huge)%Q) /\
  forall m, enough m 1 sample_samples (total_weight line_dist (0, 0)%Q sample_samples).
Proof.
  split; [discriminate|]. split; [apply sample_bounded|]. split; [intros s [<-|[<-|[<-|[]]]]; reflexivity|].
  intros []; cbn; auto; try lia. vm_compute. discriminate.
Qed.

(** C47: the largest, the smallest, the smallest absolute value, and the value of a closest sample. *)
Theorem C47_largest : forall big l, (exists v, In v (values l) /\ (- big < v)%Q) -> exists r, max_average big l = Some r /\ largest (values l) r.
Proof. exact max_spec. Qed.
Theorem C47_smallest : forall big l, (exists v, In v (values l) /\ (v < big)%Q) -> exists r, min_average big l = Some r /\ smallest (values l) r.
Proof. exact min_spec. Qed.
Theorem C47_smallest_absolute : forall big l, (exists v, In v (values l) /\ (Qabs v < big)%Q) ->
  exists r, min_abs_average big l = Some r /\ smallest (map Qabs (values l)) r.
Proof. exact min_abs_spec. Qed.

Theorem C47_closest : forall big dist2 p l, (exists s, In s l /\ dist2 p (s_at s) < big)%Q ->
  exists s, In s l /\ closest_average big dist2 p l = Some (s_value s) /\ forall x, In x l -> (dist2 p (s_at s) <= dist2 p (s_at x))%Q.
Proof. exact closest_spec. Qed.
Example C47_extreme_case : (exists v, In v (values sample_samples) /\ (- huge < v)%Q /\ (v < huge)%Q /\ (Qabs v < huge)%Q) /\
  exists s, In s sample_samples /\ (line_dist2 (0, 0)%Q (s_at s) < huge)%Q.
Proof. split; [exists (inject_Z 4)|exists (sm 0 0 4)]; repeat split; cbn; auto. Qed.

(** C47: below the threshold the answer is the missing value. *)
Theorem C47_not_enough : forall big dist dist2 m n p l, ~ enough m n l (total_weight dist p l) -> calculate big dist dist2 m n p l = Some missing_q.
Proof. exact calculate_not_enough. Qed.
Example C47_not_enough_case : ~ enough SimpleAveraging 4 sample_samples (total_weight line_dist (0, 0)%Q sample_samples).
Proof. cbn. lia. Qed.

(** C47: the inverse-distance average compares the sum of the weights with the required number of samples. *)
Theorem C47_far_samples_refuted : let l := [sm 2 0 5; sm 3 0 6] in
  1 <= length l /\ calculate huge line_dist line_dist2 InverseWeightedDistance 1 (0, 0)%Q l = Some missing_q.
Proof. exact far_missed. Qed.
Theorem C47_single_sample_refuted : exists r, calculate huge line_dist line_dist2 InverseWeightedDistance 100 (0, 0)%Q [sm 0 0 5] = Some r /\ (r == 5)%Q.
Proof. exact near_counted. Qed.
(** C47: no samples give the missing value, unless none are required: then the result is not a number. *)
Theorem C47_no_samples_partial : forall big dist dist2 m n p, 0 < n -> calculate big dist dist2 m n p [] = Some missing_q.
Proof. exact no_samples. Qed.
Theorem C47_no_samples_refuted : forall big dist dist2 p,
  calculate big dist dist2 SimpleAveraging 0 p [] = None /\ calculate big dist dist2 InverseWeightedDistance 0 p [] = None.
Proof. exact no_samples_zero. Qed.

(** C66: every node gets the missing value or a value within the range of all samples. *)
Theorem C66_nodes_in_range : forall big dist dist2 m n use_closest samples locs lo hi, samples <> [] -> 0 < n -> m <> MinAbsValue -> bounded big samples ->
  (forall s, In s samples -> (lo <= s_value s <= hi)%Q) ->
  (forall loc, In loc locs -> l_usable loc = true /\ (forall i, In i (l_found loc) \/ l_nearest loc = Some i -> i < length samples) /\
     forall s, In s samples -> (dist2 (l_at loc) (s_at s) < big)%Q) ->
  exists rs, compute_nodes big dist dist2 m n use_closest samples locs = Ok rs /\ length rs = length locs /\
    forall x, In x rs -> exists r, x = Some r /\ (r = missing_q \/ (lo <= r <= hi)%Q).
Proof. exact nodes_range. Qed.
(** C66: an edge gets the mean of its ends, or the missing value when one of them is missing. *)
Theorem C66_edges : forall near nodes a b, a < length nodes -> b < length nodes -> exists x y, nth_error nodes a = Some x /\ nth_error nodes b = Some y /\
  edge_result near nodes (Some a, Some b) =
    Ok (match x, y with
        | Some p, Some q => if near p missing_q || near q missing_q then Some missing_q else Some ((1 # 2) * (p + q))%Q
        | Some p, None => if near p missing_q then Some missing_q else None
        | None, Some q => if near q missing_q then Some missing_q else None
        | None, None => None
        end).
Proof. exact edge_ok. Qed.
(** C66: the samples lowered are exactly those referred to by a face with a positive result, each by one. *)
Theorem C66_lowered_once : forall big dist dist2 m n use_closest transform samples locs, samples <> [] ->
  (forall loc, In loc locs -> l_usable loc = true /\ forall i, In i (l_found loc) \/ l_nearest loc = Some i -> i < length samples) ->
  exists rs samples', compute_faces big dist dist2 m n use_closest transform samples locs = Ok (rs, samples') /\ length rs = length locs /\
    length samples' = length samples /\
    forall i s, nth_error samples i = Some s -> exists s', nth_error samples' i = Some s' /\
      ((transform = true /\ hit_by_positive use_closest locs rs i /\ lowered s s') \/ (~ (transform = true /\ hit_by_positive use_closest locs rs i) /\ s' = s)).
Proof. exact faces_ok. Qed.
Example C66_case : sample_samples <> [] /\ bounded huge sample_samples /\ (forall s, In s sample_samples -> (inject_Z 4 <= s_value s <= inject_Z 8)%Q) /\
  (forall loc, In loc sample_faces -> l_usable loc = true /\ (forall i, In i (l_found loc) \/ l_nearest loc = Some i -> i < length sample_samples) /\
     forall s, In s sample_samples -> (line_dist2 (l_at loc) (s_at s) < huge)%Q) /\
  exists rs, compute_faces huge line_dist line_dist2 Max 1 true true sample_samples sample_faces =
    Ok (rs, [Sample (0, 0)%Q 3; Sample (inject_Z 1, 0)%Q 7; Sample (inject_Z 5, 0)%Q 5]).
Proof.
  split; [discriminate|]. split; [apply sample_bounded|]. split; [apply sample_bounded|]. split; [exact sample_faces_ok|]. eexists. vm_compute. reflexivity.
Qed.

Print Assumptions C47_range_partial.
Print Assumptions C47_largest.
Print Assumptions C47_smallest.
Print Assumptions C47_smallest_absolute.
Print Assumptions C47_not_enough.
Print Assumptions C47_far_samples_refuted.
Print Assumptions C47_single_sample_refuted.
Print Assumptions C47_closest.
Print Assumptions C47_no_samples_partial.
Print Assumptions C47_no_samples_refuted.
Print Assumptions C66_nodes_in_range.
Print Assumptions C66_edges.
Print Assumptions C66_lowered_once.

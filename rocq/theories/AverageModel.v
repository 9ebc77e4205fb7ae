(** Averaging of samples.
    Source: /repo/libs/MeshKernel/src/AveragingStrategies/*.cpp and AveragingInterpolation.cpp ("AI.cpp").

    Simplifications.  Values and distances are exact rational numbers; [None] is a result that is not a number.  The distance functions, the
    samples found by the search tree, the point-in-polygon test and the test of the search radius are parameters. *)
From Coq Require Import QArith Qabs.
From Verif Require Import Base FloatModel UndoModel MeshModel NetworkModel.
Local Open Scope nat_scope.

Record sample := Sample { s_at : qpoint; s_value : Q }.
Definition number : Type := option Q.

(** constants::missing::doubleValue, Constants.hpp:56 *)
Definition missing_q : Q := -999 # 1.

Definition qmax (a b : Q) : Q := if qltb a b then b else a.
Definition qmin (a b : Q) : Q := if qltb b a then b else a.

(** AveragingInterpolation::Method, AveragingInterpolation.hpp:65-73 *)
Inductive method := SimpleAveraging | Closest | Max | Min | InverseWeightedDistance | MinAbsValue.

Section Strategies.
  Variable big : Q.                      (* std::numeric_limits<double>::max(); lowest() is its negative *)
  Variable dist dist2 : qpoint -> qpoint -> Q.  (* ComputeDistance, ComputeSquaredDistance *)

  (** SimpleAveragingStrategy.cpp:37-44 *)
  Definition simple_average (min_num : nat) (l : list sample) : number :=
    let total := fold_left (fun v s => v + s_value s)%Q l 0%Q in
    if min_num <=? length l then match l with [] => None | _ => Some (total / inject_Z (Z.of_nat (length l)))%Q end
    else Some missing_q.

  (** ClosestAveragingStrategy.cpp:35-51.  State: result, closestSquaredValue. *)
  Definition closest_step (p : qpoint) (st : Q * Q) (s : sample) : Q * Q :=
    let d := dist2 p (s_at s) in if qltb d (snd st) then (s_value s, d) else st.
  Definition closest_average (p : qpoint) (l : list sample) : number := Some (fst (fold_left (closest_step p) l (missing_q, big))).

  (** MaxAveragingStrategy.cpp:33-44 *)
  Definition max_average (l : list sample) : number :=
    let r := fold_left (fun r s => qmax r (s_value s)) l (- big)%Q in Some (if Qeq_bool r (- big) then missing_q else r).
  (** MinAveragingStrategy.cpp:33-44 *)
  Definition min_average (l : list sample) : number :=
    let r := fold_left (fun r s => qmin r (s_value s)) l big in Some (if Qeq_bool r big then missing_q else r).
  (** MinAbsAveragingStrategy.cpp:33-44 *)
  Definition min_abs_average (l : list sample) : number :=
    let r := fold_left (fun r s => qmin r (Qabs (s_value s))) l big in Some (if Qeq_bool r big then missing_q else r).

  (** InverseWeightedAveragingStrategy.cpp:38-52.  State: result, wall. *)
  Definition weight (p : qpoint) (s : sample) : Q := (1 / qmax (1 # 100) (dist p (s_at s)))%Q.
  Definition inverse_average (min_num : nat) (p : qpoint) (l : list sample) : number :=
    let '(result, wall) := fold_left (fun st s => (fst st + weight p s * s_value s, snd st + weight p s)%Q) l (0, 0)%Q in
    if Qle_bool (inject_Z (Z.of_nat min_num)) wall then if Qeq_bool wall 0 then None else Some (result / wall)%Q
    else Some missing_q.

  (** AveragingStrategyFactory.cpp:37-59 and AveragingStrategy::Calculate *)
  Definition calculate (m : method) (min_num : nat) (p : qpoint) (l : list sample) : number :=
    match m with
    | SimpleAveraging => simple_average min_num l
    | Closest => closest_average p l
    | Max => max_average l
    | Min => min_average l
    | InverseWeightedDistance => inverse_average min_num p l
    | MinAbsValue => min_abs_average l
    end.

  (** What the search finds at one location: the point, whether point and radius are usable (AI.cpp:224-236), the samples within the radius,
      the nearest sample, and which samples lie in the search polygon. *)
  Record location := Location { l_at : qpoint; l_usable : bool; l_found : list nat; l_nearest : option nat; l_inside : nat -> bool }.

  (** AI.cpp:199-215: the samples to be averaged *)
  Definition cache_step (samples : list sample) (loc : location) (acc : list sample) (i : nat) : outcome (list sample) :=
    let! s := vget samples i in
    if Qle_bool (s_value s) missing_q then Ok acc
    else if l_inside loc i then Ok (acc ++ [s]) else Ok acc.
  (** ComputeOnPolygon, AI.cpp:220-251 (with ComputeInterpolationResultFromNeighbors, AI.cpp:194-218); also the query result of the tree *)
  Definition on_polygon (m : method) (min_num : nat) (use_closest : bool) (samples : list sample) (loc : location) : outcome (number * list nat) :=
    if negb (l_usable loc) then Throw StdErr
    else
      match l_found loc with
      | [] =>
          if use_closest then
            match l_nearest loc with
            | Some i => let! s := vget samples i in Ok (Some (s_value s), [i])
            | None => Ok (Some missing_q, [])
            end
          else Ok (Some missing_q, [])
      | found =>
          let! cache := fold_out (cache_step samples loc) found [] in
          Ok (calculate m min_num (l_at loc) cache, found)
      end.

  (** AI.cpp:69-84: results at nodes *)
  Fixpoint node_results (m : method) (min_num : nat) (use_closest : bool) (samples : list sample) (locs : list location) : outcome (list number) :=
    match locs with
    | [] => Ok []
    | loc :: t =>
        let! (r, _) := on_polygon m min_num use_closest samples loc in
        let! rs := node_results m min_num use_closest samples t in
        Ok (r :: rs)
    end.
  (** AI.cpp:87-104: results at edges from the results at nodes.  [near] is IsEqual. *)
  Definition not_missing (near : Q -> Q -> bool) (x : number) : bool := match x with Some q => negb (near q missing_q) | None => true end.
  Definition edge_result (near : Q -> Q -> bool) (nodes : list number) (e : edge) : outcome number :=
    let! a := vget_idx nodes (fst e) in
    let! b := vget_idx nodes (snd e) in
    if not_missing near a && not_missing near b then
      match a, b with Some x, Some y => Ok (Some ((1 # 2) * (x + y))%Q) | _, _ => Ok None end
    else Ok (Some missing_q).

  (** AI.cpp:129-136: the samples found are decreased once.  State: samples, visitedSamples. *)
  Definition lower_step (st : list sample * list bool) (i : nat) : outcome (list sample * list bool) :=
    let (samples, visited) := st in
    let! v := vget visited i in
    if v then Ok st
    else
      let! visited := vset i true visited in
      let! s := vget samples i in
      let! samples := vset i (Sample (s_at s) (s_value s - 1)) samples in
      Ok (samples, visited).
  (** AI.cpp:113-138: one face *)
  Definition face_step (m : method) (min_num : nat) (use_closest transform : bool) (st : list number * (list sample * list bool)) (loc : location)
    : outcome (list number * (list sample * list bool)) :=
    let '(results, (samples, visited)) := st in
    let! (r, found) := on_polygon m min_num use_closest samples loc in
    if transform && match r with Some q => qltb 0 q | None => false end then
      let! sv := fold_out lower_step found (samples, visited) in Ok (results ++ [r], sv)
    else Ok (results ++ [r], (samples, visited)).
  (** Compute, AI.cpp:57-139, for faces *)
  Definition compute_faces (m : method) (min_num : nat) (use_closest transform : bool) (samples : list sample) (locs : list location)
    : outcome (list number * list sample) :=
    match samples with
    | [] => Throw AlgorithmErr
    | _ =>
        let! (results, (samples, _)) :=
          fold_out (face_step m min_num use_closest transform) locs ([], (samples, repeat false (length samples))) in
        Ok (results, samples)
    end.
  (** Compute, AI.cpp:57-139, for nodes *)
  Definition compute_nodes (m : method) (min_num : nat) (use_closest : bool) (samples : list sample) (locs : list location) : outcome (list number) :=
    match samples with [] => Throw AlgorithmErr | _ => node_results m min_num use_closest samples locs end.
End Strategies.

(** * Property C80: the Dubins planner in double precision *)
From Coq Require Import Reals ZArith List.
From Verif Require Import Base ModelUtil SpecPath ModelDubins ModelFloat ModelArc SpecArc SpecDubins64 Num ModelDubins64 Dub64Final Dub64Asserts Dub64Dist.
Import ListNotations.
Open Scope R_scope.

(** The exact motion along the planned controls ends at the goal up to three millionths of the turning radius, with a
    heading off by at most two millionths, *)
Theorem C80_plan (sin64 cos64 acos64 : R -> R) (atan264 : R -> R -> R) (kappa : R) (forwards : bool) (s1 s2 : State) :
  accurate_library sin64 cos64 acos64 atan264 -> usual_kappa kappa -> usual_start s1 -> usual_start s2 ->
  within (3 / 10 ^ 6 / kappa) (2 / 10 ^ 6) (drive_all s1 (dubins_get_controls64 sin64 cos64 acos64 atan264 kappa forwards s1 s2)) s2.
Proof. exact (fun L K A B => proj1 (plan_end sin64 cos64 acos64 atan264 L kappa K forwards s1 s2 A B)). Qed.
Print Assumptions C80_plan.

(** and nearly with the right heading if the states are apart. *)
Theorem C80_heading (sin64 cos64 acos64 : R -> R) (atan264 : R -> R -> R) (kappa : R) (forwards : bool) (s1 s2 : State) :
  accurate_library sin64 cos64 acos64 atan264 -> usual_kappa kappa -> usual_start s1 -> usual_start s2 ->
  2 / 10 ^ 6 <= kappa * pos_dist s1 s2 ->
  within (3 / 10 ^ 6 / kappa) (1 / 10 ^ 10) (drive_all s1 (dubins_get_controls64 sin64 cos64 acos64 atan264 kappa forwards s1 s2)) s2.
Proof. exact (fun L K A B => proj1 (proj2 (plan_end sin64 cos64 acos64 atan264 L kappa K forwards s1 s2 A B))). Qed.
Print Assumptions C80_heading.

(** The plan has three controls and is at most 23 radii longer than the distance, so no word that does not exist is chosen. *)
Theorem C80_length (sin64 cos64 acos64 : R -> R) (atan264 : R -> R -> R) (kappa : R) (forwards : bool) (s1 s2 : State) :
  accurate_library sin64 cos64 acos64 atan264 -> usual_kappa kappa -> usual_start s1 -> usual_start s2 ->
  let cs := dubins_get_controls64 sin64 cos64 acos64 atan264 kappa forwards s1 s2 in
  total_length cs <= pos_dist s1 s2 + 23 / kappa /\ length cs = 3%nat.
Proof. exact (fun L K A B => proj2 (proj2 (plan_end sin64 cos64 acos64 atan264 L kappa K forwards s1 s2 A B))). Qed.
Print Assumptions C80_length.

(** The last state of the sampled path, computed in double precision throughout, is close to the goal. *)
Theorem C80_path (sin64 cos64 acos64 : R -> R) (atan264 : R -> R -> R) (kappa disc : R) (forwards : bool) (s1 s2 : State) :
  accurate_library sin64 cos64 acos64 atan264 -> usual_kappa kappa -> usual_disc disc -> usual_start s1 -> usual_start s2 ->
  pos_dist s1 s2 + 23 / kappa <= 100 ->
  within (1 / 10 ^ 4 + 3 / 10 ^ 6 / kappa) (3 / 10 ^ 6) (last (dubins_get_path64 sin64 cos64 acos64 atan264 kappa disc forwards s1 s2) s1) s2.
Proof. exact (fun L K => plan_path sin64 cos64 acos64 atan264 L kappa K forwards disc s1 s2). Qed.
Print Assumptions C80_path.

(** The distance is the length of the controls, and close to or above the straight line. *)
Theorem C80_distance (sin64 cos64 acos64 : R -> R) (atan264 : R -> R -> R) (kappa : R) (forwards : bool) (s1 s2 : State) :
  accurate_library sin64 cos64 acos64 atan264 -> usual_kappa kappa -> usual_start s1 -> usual_start s2 ->
  let dist := dubins_get_distance64 sin64 cos64 acos64 atan264 kappa forwards s1 s2 in
  Rabs (dist - total_length (dubins_get_controls64 sin64 cos64 acos64 atan264 kappa forwards s1 s2)) <= 1 / 10 ^ 10 / kappa /\
  pos_dist s1 s2 - 1 / 10 ^ 5 / kappa <= dist <= pos_dist s1 s2 + 24 / kappa.
Proof. exact (fun L K A B => plan_distance sin64 cos64 acos64 atan264 L kappa K forwards s1 s2 A B). Qed.
Print Assumptions C80_distance.

(** The assertions on the ends of the six words hold as computed (those of the constructor do not all hold, see below). *)
Theorem C80_assertions_partial (sin64 cos64 acos64 : R -> R) (atan264 : R -> R -> R) (d alpha beta : R) :
  accurate_library sin64 cos64 acos64 atan264 -> binary64 d -> binary64 alpha -> binary64 beta -> 0 <= d <= 30000 -> Rabs alpha <= 71 / 10 -> Rabs beta <= 71 / 10 ->
  assertsLSL64 sin64 cos64 atan264 d alpha beta /\ assertsRSR64 sin64 cos64 atan264 d alpha beta /\
  assertsRSL64 sin64 cos64 atan264 d alpha beta /\ assertsLSR64 sin64 cos64 atan264 d alpha beta /\
  assertsRLR64 sin64 cos64 acos64 atan264 d alpha beta /\ assertsLRL64 sin64 cos64 acos64 atan264 d alpha beta.
Proof. exact (fun L _ A B D Ma Mb => all_asserts sin64 cos64 acos64 atan264 L d alpha beta A B D Ma Mb). Qed.
Print Assumptions C80_assertions_partial.

(** The assertion of the constructor that the first length is not negative fails for a heading of the smallest double. *)
Theorem C80_turn_assert_refuted : exists sin64 cos64 acos64 atan264 s1 s2,
  accurate_library sin64 cos64 acos64 atan264 /\ usual_start s1 /\ usual_start s2 /\
  let '(d, alpha, beta) := dubins_args64 atan264 1 s1 s2 in
  DUBINS_ZERO64 <= tmpLSL64 sin64 cos64 d alpha beta /\ dp_t (dubinsLSL64 sin64 cos64 atan264 d alpha beta) < 0.
Proof. exact negative_turn. Qed.
Print Assumptions C80_turn_assert_refuted.

(** Correctly rounded functions are accurate; states and angles of a usual size. *)
Example C80_library : accurate_library (fun x => rnd (sin x)) (fun x => rnd (cos x)) (fun x => rnd (acos x)) (fun y x => rnd (atan2 y x)).
Proof. exact rnd_library. Qed.
Example C80_case : usual_kappa 1 /\ usual_start (mkState 0 0 0 0 0) /\ usual_start (mkState 5 3 1 0 0) /\
  2 / 10 ^ 6 <= 1 * pos_dist (mkState 0 0 0 0 0) (mkState 5 3 1 0 0) /\ pos_dist (mkState 0 0 0 0 0) (mkState 5 3 1 0 0) + 23 / 1 <= 100.
Proof. exact plan_case. Qed.
Example C80_assertions_case : binary64 5 /\ binary64 1 /\ binary64 2 /\ 0 <= 5 <= 30000 /\ Rabs 1 <= 71 / 10 /\ Rabs 2 <= 71 / 10.
Proof. exact asserts_case. Qed.

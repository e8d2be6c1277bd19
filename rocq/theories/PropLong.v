(** * Property C64: no longer path with cusps to the goal is shorter than the distance of the planner *)
From Coq Require Import Reals ZArith List.
From Verif Require Import Base ModelUtil ModelCircle SpecPath SpecTurn SpecSide SpecOpt SpecCusp SpecLong OptCases LongCases.
From Verif Require ModelCC00R ModelHC00R ModelHC0pmR ModelHCpm0R ModelHCpmpmR.
From Verif Require LongCC00R LongHC00R LongHC0pmR LongHCpm0R LongHCpmpmR.
Open Scope R_scope.

(** C64. The same as C63 for the remaining shapes of the planners: CSC|C, C|CSC and C|CSC|C, in which the turn between the
    straight line and a cusp is a quarter turn, and CC|CC and C|CC|C, in which the two turns in the middle are equal. For the
    shapes with a crossing line only one of the two directions is covered, and for CC|CC one of the two ranges of the middle turns:
    in the other cases the planner does not look at this path. *)

Theorem C64_cc00_reeds_shepp (k s : R) (left1 forward1 left2 forward2 : bool) (s1 s2 : State) (cs : list Control) :
  0 < k -> 0 < s -> epsilon < k / s -> Rmax (total_length cs) (pos_dist s1 s2) < DBL_MAX ->
  no_turn_00 k s left1 forward1 s1 s2 -> apart k s true true left1 forward1 left2 forward2 s1 s2 ->
  long_shape k s true true true left1 forward1 left2 forward2 cs -> same_pose (lib_path s1 cs) s2 ->
  exists D, ModelCC00R.get_distance k s s1 s2 = Some (Some D) /\ D <= Rmax (total_length cs) (pos_dist s1 s2).
Proof. exact (LongCC00R.cc00_reeds_shepp_long k s s1 s2 left1 forward1 left2 forward2 cs). Qed.
Print Assumptions C64_cc00_reeds_shepp.

Theorem C64_hc00_reeds_shepp (k s : R) (left1 forward1 left2 forward2 : bool) (s1 s2 : State) (cs : list Control) :
  0 < k -> 0 < s -> epsilon < k / s -> Rmax (total_length cs) (pos_dist s1 s2) < DBL_MAX ->
  no_turn_00 k s left1 forward1 s1 s2 -> apart k s true true left1 forward1 left2 forward2 s1 s2 ->
  long_shape k s false true true left1 forward1 left2 forward2 cs -> same_pose (lib_path s1 cs) s2 ->
  exists D, ModelHC00R.get_distance k s s1 s2 = Some (Some D) /\ D <= Rmax (total_length cs) (pos_dist s1 s2).
Proof. exact (LongHC00R.hc00_reeds_shepp_long k s s1 s2 left1 forward1 left2 forward2 cs). Qed.
Print Assumptions C64_hc00_reeds_shepp.

Theorem C64_hc0pm_reeds_shepp (k s : R) (left1 forward1 left2 forward2 : bool) (s1 s2 : State) (cs : list Control) :
  0 < k -> 0 < s -> epsilon < k / s -> Rmax (total_length cs) (pos_dist s1 s2) < DBL_MAX ->
  no_turn_0pm k s left1 left2 forward1 s1 s2 -> on_side left2 s2 ->
  long_shape k s false true false left1 forward1 left2 forward2 cs -> same_pose (lib_path s1 cs) s2 ->
  exists D, ModelHC0pmR.get_distance k s s1 s2 = Some (Some D) /\ D <= Rmax (total_length cs) (pos_dist s1 s2).
Proof. exact (LongHC0pmR.hc0pm_reeds_shepp_long k s s1 s2 left1 forward1 left2 forward2 cs). Qed.
Print Assumptions C64_hc0pm_reeds_shepp.

Theorem C64_hcpm0_reeds_shepp (k s : R) (left1 forward1 left2 forward2 : bool) (s1 s2 : State) (cs : list Control) :
  0 < k -> 0 < s -> epsilon < k / s -> Rmax (total_length cs) (pos_dist s1 s2) < DBL_MAX ->
  no_turn_pm0 k s left1 left2 forward2 s1 s2 -> on_side left1 s1 ->
  long_shape k s false false true left1 forward1 left2 forward2 cs -> same_pose (lib_path s1 cs) s2 ->
  exists D, ModelHCpm0R.get_distance k s s1 s2 = Some (Some D) /\ D <= Rmax (total_length cs) (pos_dist s1 s2).
Proof. exact (LongHCpm0R.hcpm0_reeds_shepp_long k s s1 s2 left1 forward1 left2 forward2 cs). Qed.
Print Assumptions C64_hcpm0_reeds_shepp.

Theorem C64_hcpmpm_reeds_shepp (k s : R) (left1 forward1 left2 forward2 : bool) (s1 s2 : State) (cs : list Control) :
  0 < k -> 0 < s -> epsilon < k / s -> Rmax (total_length cs) (pos_dist s1 s2) < DBL_MAX ->
  no_turn_pmpm k left1 s1 s2 -> apart k s false false left1 forward1 left2 forward2 s1 s2 -> on_side left1 s1 -> on_side left2 s2 ->
  long_shape k s false false false left1 forward1 left2 forward2 cs -> same_pose (lib_path s1 cs) s2 ->
  exists D, ModelHCpmpmR.get_distance k s s1 s2 = Some (Some D) /\ D <= Rmax (total_length cs) (pos_dist s1 s2).
Proof. exact (LongHCpmpmR.hcpmpm_reeds_shepp_long k s s1 s2 left1 forward1 left2 forward2 cs). Qed.
Print Assumptions C64_hcpmpm_reeds_shepp.

(** A turn to the left, a cusp, a quarter turn to the right, a straight line of length 100, a quarter turn to the right, a cusp
    and a turn to the left, in either direction and for each combination of curvatures at the ends and at the cusps. *)
Example C64_case (forward : bool) :
  (forall zc z1 z2, Rmax (total_length (long_word zc z1 z2 forward)) (pos_dist (case_start z1) (long_goal zc z1 z2 forward)) < DBL_MAX /\
     long_shape 1 1 zc z1 z2 true forward true forward (long_word zc z1 z2 forward) /\ same_pose (lib_path (case_start z1) (long_word zc z1 z2 forward)) (long_goal zc z1 z2 forward)) /\
  (forall zc, no_turn_00 1 1 true forward (case_start true) (long_goal zc true true forward) /\ apart 1 1 true true true forward true forward (case_start true) (long_goal zc true true forward)) /\
  no_turn_0pm 1 1 true true forward (case_start true) (long_goal false true false forward) /\ (forall z1, on_side true (long_goal false z1 false forward)) /\
  no_turn_pm0 1 1 true true forward (case_start false) (long_goal false false true forward) /\ on_side true (case_start false) /\
  no_turn_pmpm 1 true (case_start false) (long_goal false false false forward) /\ apart 1 1 false false true forward true forward (case_start false) (long_goal false false false forward).
Proof.
  exact (conj (fun zc z1 z2 => conj (long_bound zc z1 z2 forward) (long_shape_case zc z1 z2 forward)) (conj (fun zc => long_00 zc forward) (conj (long_0pm forward) (conj (fun z1 => long_side2 false z1 forward)
    (conj (long_pm0 forward) (conj case_side1 (long_pmpm forward))))))).
Qed.

(** The range of the middle turns in CC|CC is not empty. *)
Example C64_pair (zc z1 z2 left forward : bool) : exists m, long_shape 1 1 zc z1 z2 left forward (negb left) (negb forward)
  (turn 1 1 z1 true left forward 1 ++ turn 1 1 true zc (negb left) forward m ++ turn 1 1 zc true left (negb forward) m ++ turn 1 1 true z2 (negb left) (negb forward) 1).
Proof. exact (pair_case zc z1 z2 left forward). Qed.

(** * Property C54: distances are never shorter than the straight line *)
From Coq Require Import Reals ZArith List Lra.
From Verif Require Import Base ModelUtil ModelDubins ModelRS SpecPath DistProofs DubinsCases PropRS.
Open Scope R_scope.

(** C54, Reeds-Shepp: exact. *)
Theorem C54_rs_distance_euclid (kappa : R) (state1 state2 : State) :
  0 < kappa -> kappa * pos_dist state1 state2 <= 10 ^ 299 ->
  pos_dist state1 state2 <= rs_distance kappa state1 state2.
Proof. exact (rs_euclid kappa state1 state2). Qed.
Print Assumptions C54_rs_distance_euclid.

(** C54, Dubins: up to the position tolerance of the planner. *)
Theorem C54_dubins_distance_euclid (kappa : R) (forwards : bool) (state1 state2 : State) :
  0 < kappa -> kappa * pos_dist state1 state2 <= 10 ^ 300 ->
  pos_dist state1 state2 - 1 / 500000 / kappa <= dubins_distance kappa forwards state1 state2.
Proof. exact (dubins_euclid kappa forwards state1 state2). Qed.
Print Assumptions C54_dubins_distance_euclid.

Example C54_case : 0 < 2 /\ 2 * pos_dist (mkState 1 2 3 0 0) (mkState 4 (-2) (-5) 0 0) <= 10 ^ 299.
Proof. exact C17_case. Qed.

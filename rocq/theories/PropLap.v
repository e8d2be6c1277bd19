(** * Property C83: full turns added to the headings, for Dubins and Reeds-Shepp *)
From Coq Require Import Reals ZArith List.
From Verif Require Import Base ModelUtil ModelDubins ModelRS Num SpecPath SpecRigid LapProofs.
Import ListNotations.
Open Scope R_scope.

(** C83 for Dubins: distance and controls depend on the headings only up to full turns. *)
Theorem C83_dubins (kappa : R) (forward : bool) (s1 s2 s1' s2' : State) :
  same_but_turns s1 s1' -> same_but_turns s2 s2' ->
  dubins_distance kappa forward s1' s2' = dubins_distance kappa forward s1 s2 /\
  dubins_get_controls kappa forward s1' s2' = dubins_get_controls kappa forward s1 s2.
Proof. exact (dubins_laps kappa forward s1 s2 s1' s2'). Qed.
Print Assumptions C83_dubins.

(** C83 for Reeds-Shepp: full statement: the distance depends on the headings only up to full turns. Proved: turning a heading by full turns never
    makes the distance longer if the plan has no segment of exactly half a turn or more. Missing: plans with such a segment, because the solvers get
    the heading of the goal as it is and normalise the rest of the turn to either sign of a half turn. *)
Theorem C83_reeds_shepp_partial (kappa : R) (s1 s2 s1' s2' : State) :
  0 < kappa -> same_but_turns s1 s1' -> same_but_turns s2 s2' ->
  (forall c, In c (rs_get_controls kappa s1 s2) -> Rabs (ct_kappa c * ct_delta_s c) < PI) ->
  rs_distance kappa s1' s2' <= rs_distance kappa s1 s2.
Proof. exact (rs_laps kappa s1 s2 s1' s2'). Qed.
Print Assumptions C83_reeds_shepp_partial.

(** The same hypothesis on both plans gives equal distances. *)
Theorem C83_reeds_shepp_equal_partial (kappa : R) (s1 s2 s1' s2' : State) :
  0 < kappa -> same_but_turns s1 s1' -> same_but_turns s2 s2' ->
  (forall c, In c (rs_get_controls kappa s1 s2) -> Rabs (ct_kappa c * ct_delta_s c) < PI) ->
  (forall c, In c (rs_get_controls kappa s1' s2') -> Rabs (ct_kappa c * ct_delta_s c) < PI) ->
  rs_distance kappa s1' s2' = rs_distance kappa s1 s2.
Proof. exact (rs_laps_equal kappa s1 s2 s1' s2'). Qed.
Print Assumptions C83_reeds_shepp_equal_partial.

Example C83_case : same_but_turns (mkState 0 0 0 0 0) (mkState 0 0 (2 * PI) 0 0) /\ same_but_turns (mkState 5 0 0 0 0) (mkState 5 0 (- (4 * PI)) 0 0) /\
  (forall c, In c (rs_get_controls 1 (mkState 0 0 0 0 0) (mkState 5 0 0 0 0)) -> Rabs (ct_kappa c * ct_delta_s c) < PI).
Proof. exact laps_case. Qed.

Example C83_equal_case : same_but_turns (mkState 0 0 0 0 0) (mkState 0 0 (0 + 2 * PI) 0 0) /\ same_but_turns (mkState 5 0 0 0 0) (mkState 5 0 (0 + 2 * PI) 0 0) /\
  (forall c, In c (rs_get_controls 1 (mkState 0 0 0 0 0) (mkState 5 0 0 0 0)) -> Rabs (ct_kappa c * ct_delta_s c) < PI) /\
  (forall c, In c (rs_get_controls 1 (mkState 0 0 (0 + 2 * PI) 0 0) (mkState 5 0 (0 + 2 * PI) 0 0)) -> Rabs (ct_kappa c * ct_delta_s c) < PI).
Proof. exact laps_equal_case. Qed.

(** * Properties of all HC and CC planners *)
From Coq Require Import Reals ZArith List.
From Verif Require Import Base ModelUtil ModelCircle ModelPaths SpecPath SpecTurn SpecPlan PlanRefute PlanCases PlanAll.
From Verif Require ModelCC00D CC00DProofs ModelCC0pmD PlanCC0pmD ModelCCpm0D PlanCCpm0D ModelCCpmpmD PlanCCpmpmD ModelCC00R PlanCC00R ModelHC00R PlanHC00R ModelHC0pmR PlanHC0pmR ModelHCpm0R PlanHCpm0R ModelHCpmpmR PlanHCpmpmR.
Import ListNotations.
Open Scope R_scope.

(** C44: every planner finds a path of finite length. *)
Theorem C44_a_path_is_found (k s : R) (forward : bool) (s1 s2 : State) :
  0 < k -> 0 < s -> pos_dist s1 s2 + detour k s < DBL_MAX ->
  (exists L cs, ModelCC00D.get_distance k s forward s1 s2 = Some (Some L) /\ ModelCC00D.get_controls k s forward s1 s2 = Some cs /\ L < DBL_MAX) /\
  (exists L cs, ModelCC0pmD.get_distance k s forward s1 s2 = Some (Some L) /\ ModelCC0pmD.get_controls k s forward s1 s2 = Some cs /\ L < DBL_MAX) /\
  (exists L cs, ModelCCpm0D.get_distance k s forward s1 s2 = Some (Some L) /\ ModelCCpm0D.get_controls k s forward s1 s2 = Some cs /\ L < DBL_MAX) /\
  (exists L cs, ModelCCpmpmD.get_distance k s forward s1 s2 = Some (Some L) /\ ModelCCpmpmD.get_controls k s forward s1 s2 = Some cs /\ L < DBL_MAX) /\
  (exists L cs, ModelCC00R.get_distance k s s1 s2 = Some (Some L) /\ ModelCC00R.get_controls k s s1 s2 = Some cs /\ L < DBL_MAX) /\
  (exists L cs, ModelHC00R.get_distance k s s1 s2 = Some (Some L) /\ ModelHC00R.get_controls k s s1 s2 = Some cs /\ L < DBL_MAX) /\
  (exists L cs, ModelHC0pmR.get_distance k s s1 s2 = Some (Some L) /\ ModelHC0pmR.get_controls k s s1 s2 = Some cs /\ L < DBL_MAX) /\
  (exists L cs, ModelHCpm0R.get_distance k s s1 s2 = Some (Some L) /\ ModelHCpm0R.get_controls k s s1 s2 = Some cs /\ L < DBL_MAX) /\
  (exists L cs, ModelHCpmpmR.get_distance k s s1 s2 = Some (Some L) /\ ModelHCpmpmR.get_controls k s s1 s2 = Some cs /\ L < DBL_MAX).
Proof. exact (all_found k s forward s1 s2). Qed.
Print Assumptions C44_a_path_is_found.

Example C44_case : 0 < 1 /\ 0 < 1 /\ pos_dist (mkState 0 0 0 1 1) (mkState 3 4 PI (-1) 1) + detour 1 1 < DBL_MAX.
Proof. exact (case_near _ _). Qed.

(** C27: the controls of a planned path are never empty. *)
Theorem C27_controls_nonempty (k s : R) (forward : bool) (s1 s2 : State) :
  0 < k -> 0 < s -> pos_dist s1 s2 + detour k s < DBL_MAX ->
  (exists c cs, ModelCC00D.get_controls k s forward s1 s2 = Some (c :: cs)) /\
  (exists c cs, ModelCC0pmD.get_controls k s forward s1 s2 = Some (c :: cs)) /\
  (exists c cs, ModelCCpm0D.get_controls k s forward s1 s2 = Some (c :: cs)) /\
  (exists c cs, ModelCCpmpmD.get_controls k s forward s1 s2 = Some (c :: cs)) /\
  (exists c cs, ModelCC00R.get_controls k s s1 s2 = Some (c :: cs)) /\
  (exists c cs, ModelHC00R.get_controls k s s1 s2 = Some (c :: cs)) /\
  (exists c cs, ModelHC0pmR.get_controls k s s1 s2 = Some (c :: cs)) /\
  (exists c cs, ModelHCpm0R.get_controls k s s1 s2 = Some (c :: cs)) /\
  (exists c cs, ModelHCpmpmR.get_controls k s s1 s2 = Some (c :: cs)).
Proof. exact (all_nonempty k s forward s1 s2). Qed.
Print Assumptions C27_controls_nonempty.

Example C27_case : 0 < 1 /\ 0 < 1 /\ pos_dist (mkState 0 0 0 1 1) (mkState 3 4 PI (-1) 1) + detour 1 1 < DBL_MAX.
Proof. exact (case_near _ _). Qed.

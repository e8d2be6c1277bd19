(** * Concrete cases for the planners *)
From Coq Require Import Reals ZArith List Lra Lia Bool.
From Verif Require Import Base ModelUtil ModelCircle ModelPaths Num UtilProofs SpecPath SpecTurn SpecPlan PoseAlg TurnProofs MotionProofs TurnBounds LegProofs TangentProofs PlanProofs PlanTactics PlanBounds.
Import ListNotations.
Open Scope R_scope.

Lemma case_near ka kb : 0 < 1 /\ 0 < 1 /\ pos_dist (mkState 0 0 0 ka 1) (mkState 3 4 PI kb 1) + detour 1 1 < DBL_MAX.
Proof.
  split; [lra|split; [lra|]]. unfold pos_dist, detour; cbn [st_x st_y]. replace ((0 - 3) ^ 2 + (0 - 4) ^ 2) with (5 ^ 2) by ring. rewrite sqrt_pow2 by lra.
  apply Rlt_le_trans with 1000; [lra|]. unfold DBL_MAX. apply IZR_le. vm_compute. discriminate.
Qed.
Lemma case_tolerance cs : total_length cs <= 30 -> fresnel_error cs <= 1 / 10 ^ 6 ->
  plan_error 1 1 (dubins_pieces D_TST) (dubins_gap 1 1 D_TST) cs <= 12 / 1000.
Proof.
  intros TL FE. unfold plan_error, dubins_pieces, dubins_gap. assert (H1 : 0 < 1) by lra. pose proof (radius_le 1 1 H1 H1) as RL.
  assert (SL : param_slack 1 1 = 0). { unfold param_slack. destruct (Rlt_dec _ _) as [_|N]; [reflexivity|]. exfalso. apply N. unfold epsilon. lra. }
  rewrite SL. unfold epsilon. lra.
Qed.

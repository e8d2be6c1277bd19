(** * Concrete paths of one turn and one straight line *)
From Coq Require Import Reals ZArith List Lra Lia Bool.
From Verif Require Import Base ModelUtil ModelCircle ModelPaths Num UtilProofs SpecPath SpecTurn SpecSide SpecPlan SpecOpt SpecCusp PoseAlg TurnProofs LegProofs TangentProofs PlanProofs OptProofs OptTangent OptWord OptTactics OptCases CuspWord.
Import ListNotations.
Open Scope R_scope.

Definition unit_word (z1 z2 forward : bool) : list Control := turn 1 1 z1 z2 true forward 1.
Definition unit_goal (z1 z2 forward : bool) : State := let q := lib_path (case_start z1) (unit_word z1 z2 forward) in mkState (st_x q) (st_y q) (st_theta q) (if z2 then 0 else 1) 1.
Lemma unit_same z1 z2 f : same_pose (lib_path (case_start z1) (unit_word z1 z2 f)) (unit_goal z1 z2 f).
Proof. repeat split; apply ang_eq_refl. Qed.
Lemma unit_length z1 z2 f : total_length (unit_word z1 z2 f) <= 3.
Proof. unfold unit_word. assert (H1 : 0 < 1) by lra. rewrite (turn_length 1 1 H1 H1) by lra. unfold turn_len. destruct z1, z2; lra. Qed.
Lemma unit_bound z1 z2 f : Rmax (total_length (unit_word z1 z2 f)) (pos_dist (case_start z1) (unit_goal z1 z2 f)) < DBL_MAX.
Proof.
  pose proof (unit_length z1 z2 f) as T.
  assert (F : fresnel_error (unit_word z1 z2 f) <= 1).
  { assert (SQ : sqrt (PI / 1) <= 2). { rewrite <- (sqrt_pow2 2) by lra. apply sqrt_le_1_alt. pose proof PI_4. lra. }
    assert (SP := sqrt_pos (PI / 1)). unfold unit_word, turn. destruct z1, z2; cbn [app fresnel_error fold_right steer arc unsteer line ct_sigma];
      repeat match goal with |- context [Req_EM_T ?u 0] => destruct (Req_EM_T u 0) end; unfold sign in *; rewrite ?Rabs_Ropp, ?Rmult_1_l, ?Rabs_R1; lra. }
  pose proof (chord (case_start z1) (unit_word z1 z2 f)) as C. change (pos_dist (case_start z1) (unit_goal z1 z2 f) <= total_length (unit_word z1 z2 f) + fresnel_error (unit_word z1 z2 f)) in C.
  apply Rle_lt_trans with 1000; [apply Rmax_lub; lra|]. unfold DBL_MAX. apply IZR_lt. vm_compute. reflexivity.
Qed.
Lemma unit_side z1 f : on_side true (unit_goal z1 false f).
Proof. split; [reflexivity|]. cbn [unit_goal st_kappa]. lra. Qed.
Lemma unit_line f : 5 < DBL_MAX /\ same_pose (lib_path (mkState 1 2 3 0 1) [line f 5]) (mkState (1 + sign f * 5 * cos 3) (2 + sign f * 5 * sin 3) 3 0 1).
Proof.
  split; [unfold DBL_MAX; apply IZR_lt; vm_compute; reflexivity|]. destruct (step_line (mkState 1 2 3 0 1) f 5) as (X & Y & T). cbn [st_x st_y st_theta] in X, Y, T.
  unfold same_pose. cbn [lib_path fold_left st_x st_y st_theta]. auto.
Qed.

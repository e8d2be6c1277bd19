(** * A concrete path of four turns *)
From Coq Require Import Reals ZArith List Lra Lia Bool.
From Verif Require Import DistPlan.
From Verif Require Import Base ModelUtil ModelCircle ModelPaths Num UtilProofs SpecPath SpecTurn SpecSide SpecPlan SpecOpt SpecCusp SpecLong SpecFour PoseAlg TurnProofs MotionProofs LegProofs TangentProofs PlanProofs PlanTactics PlanRefute PlanBounds PlanSelect PlanRadius OptProofs OptTangent OptWord OptTactics OptCases CuspWord CuspCases LongWord LongCases FourWord.
Import ListNotations.
Open Scope R_scope.

(** The arc of a turn that sweeps half a circle more than a full one. *)
Definition half_arc : R := 3 * PI - 1 - 2 * p_mu (hc_cc_param 1 1).
Lemma half_arc_pos : 0 <= half_arc <= 16.
Proof.
  assert (Hk : 0 < 1) by lra. destruct (param_nom 1 1 Hk Hk) as (_ & _ & _ & _ & _ & _ & _ & MU & _). assert (B := atan_bound (nom_X 1 1 / nom_Y 1 1)). rewrite <- MU in B.
  unfold half_arc. assert (P := PI2_3_2). assert (Q := PI_4). lra.
Qed.
Lemma half_swept : swept 1 1 half_arc = 3 * PI.
Proof. unfold swept, turn_angle, half_arc. field. Qed.
Lemma half_cos : cos (swept 1 1 half_arc) = -1.
Proof. rewrite half_swept. replace (3 * PI) with (PI + 2 * INR 1 * PI) by (cbn [INR]; ring). rewrite cos_period. apply cos_PI. Qed.

(** Four turns, the first one to the left. *)
Definition four_word (forward : bool) : list Control :=
  turn 1 1 false true true forward 1 ++ turn 1 1 true true false forward half_arc ++ turn 1 1 true true true forward half_arc ++ turn 1 1 true false false forward 1.
Definition four_goal (forward : bool) : State := lib_path (case_start false) (four_word forward).

Lemma four_shape_case f : four_shape 1 1 false false true f (four_word f) /\ same_pose (lib_path (case_start false) (four_word f)) (four_goal f).
Proof.
  pose proof half_arc_pos as P. split; [apply (CCCC 1 1 false false true f 1 half_arc half_arc 1); try lra|repeat split; apply ang_eq_refl].
  - rewrite half_swept. exists 3%Z. lra.
  - left. rewrite half_cos. lra.
Qed.
Lemma gap_triangle a b c : gap a c <= gap a b + gap b c.
Proof.
  destruct a as [a1 a2], b as [b1 b2], c as [c1 c2]. pose proof (DubinsOpt.pos_dist_triangle (mkState c1 c2 0 0 0) (mkState b1 b2 0 0 0) (mkState a1 a2 0 0 0)) as T.
  unfold pos_dist in T. unfold gap. cbn [fst snd st_x st_y] in *. lra.
Qed.
Lemma four_pmpm f : no_turn_pmpm 1 true (case_start false) (four_goal f).
Proof.
  assert (Hk : 0 < 1) by lra. assert (HE : epsilon < 1 / 1) by (unfold epsilon; lra). destruct (four_shape_case f) as [_ W]. pose proof half_arc_pos as HP.
  set (s1 := case_start false) in *. set (s2 := four_goal f) in *.
  destruct (arc_centre 1 true s1) as [x1 y1] eqn:C1. destruct (arc_centre 1 false s2) as [x2 y2] eqn:C2.
  pose (q0 := configuration 0 0 0 0). pose (c1 := mkCircle q0 true f true x1 y1 0 0 0 0 0 0 0 0). pose (c2 := mkCircle q0 false (negb f) true x2 y2 0 0 0 0 0 0 0 0).
  assert (A : at_start 1 1 false s1 c1 true f) by (split; [reflexivity|split; [reflexivity|]]; change ((x1, y1) = frame (pst s1) 0 (sign true * (1 / 1))); rewrite <- C1; reflexivity).
  assert (B : at_end 1 1 false s2 c2 (negb true) f) by (split; [reflexivity|split; [reflexivity|]]; change ((x2, y2) = frame (pst s2) 0 (sign false * (1 / 1))); rewrite <- C2; reflexivity).
  assert (SW : ang_eq (swept 1 1 half_arc + swept 1 1 half_arc) 0) by (rewrite half_swept; exists 3%Z; lra).
  destruct (CCCC_word 1 1 Hk Hk HE false false s1 s2 c1 c2 true f 1 half_arc half_arc 1 A B ltac:(lra) ltac:(lra) ltac:(lra) ltac:(lra) SW W) as (DD & _).
  rewrite half_cos in DD. change (center_distance c1 c2) with (gap (x1, y1) (x2, y2)) in DD.
  pose proof (radius_half 1 1 Hk Hk) as RH. set (r := p_radius (hc_cc_param 1 1)) in *.
  assert (G0 : 0 <= gap (x1, y1) (x2, y2)) by apply sqrt_pos.
  assert (G1 : gap (arc_centre 1 true s2) (x2, y2) = 2).
  { rewrite <- C2. unfold gap, arc_centre, beside. cbn [fst snd]. unfold sign. rewrite <- (sqrt_pow2 2) by lra. f_equal. pose proof (cos_sq (st_theta s2)) as T. field [T]. }
  pose proof (gap_triangle (x1, y1) (arc_centre 1 true s2) (x2, y2)) as G. unfold no_turn_pmpm. rewrite C1. unfold epsilon. nra.
Qed.
Lemma four_bound f : total_length (four_word f) < DBL_MAX.
Proof.
  pose proof half_arc_pos as HP. assert (T : total_length (four_word f) <= 1000).
  { unfold four_word. rewrite !total_app, !(turn_length 1 1) by lra. unfold turn_len. lra. }
  apply Rle_lt_trans with 1000; [exact T|]. unfold DBL_MAX. apply IZR_lt. vm_compute. reflexivity.
Qed.
Lemma four_side f : on_side false (four_goal f).
Proof.
  split; [|reflexivity]. unfold four_goal, four_word. unfold turn at 4. rewrite !app_assoc. rewrite app_nil_r. rewrite lib_app. set (st := lib_path (case_start _) _).
  change (0 < st_kappa (lib_move st (arc 1 false f 1)) -> false = true). unfold lib_move at 1. cbn [arc ct_sigma].
  destruct (Req_EM_T 0 0) as [_|N]; [|lra]. unfold drive. cbn [ct_kappa ct_delta_s]. destruct (Req_EM_T _ 0); cbn [st_kappa]; unfold sign in *; intros; exfalso; cbn in *; lra.
Qed.

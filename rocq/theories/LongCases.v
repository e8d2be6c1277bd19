(** * Concrete longer paths with cusps *)
From Coq Require Import Reals ZArith List Lra Lia Bool.
From Verif Require Import DistPlan.
From Verif Require Import Base ModelUtil ModelCircle ModelPaths Num UtilProofs SpecPath SpecTurn SpecSide SpecPlan SpecOpt SpecCusp SpecLong PoseAlg TurnProofs MotionProofs LegProofs TangentProofs PlanProofs PlanTactics PlanRefute OptProofs OptTangent OptWord OptTactics OptCases CuspWord CuspCases LongWord.
Import ListNotations.
Open Scope R_scope.

(** The length of the arc in a turn by a quarter. *)
Definition quarter_arc (zc : bool) : R := PI / 2 - 1 / 2 - (if zc then 1 / 2 else 0).
Lemma quarter_arc_pos zc : 0 <= quarter_arc zc <= 2.
Proof. assert (P := PI2_3_2). assert (Q := PI_4). unfold quarter_arc. destruct zc; lra. Qed.
Lemma quarter_case zc : quarter 1 1 zc true (quarter_arc zc) /\ quarter 1 1 true zc (quarter_arc zc).
Proof. split; (exists 0%Z; unfold turn_angle, quarter_arc; destruct zc; lra). Qed.

(** A turn to the left, a cusp, a quarter turn to the right, a straight line of length 100, a quarter turn to the right, a cusp
    and a turn to the left. *)
Definition long_word (zc z1 z2 forward : bool) : list Control :=
  turn 1 1 z1 zc true forward 1 ++ turn 1 1 zc true false (negb forward) (quarter_arc zc) ++ [line (negb forward) 100] ++
  turn 1 1 true zc false (negb forward) (quarter_arc zc) ++ turn 1 1 zc z2 true forward 1.
Definition long_goal (zc z1 z2 forward : bool) : State := lib_path (case_start z1) (long_word zc z1 z2 forward).

Lemma long_shape_case zc z1 z2 f : long_shape 1 1 zc z1 z2 true f true f (long_word zc z1 z2 f) /\ same_pose (lib_path (case_start z1) (long_word zc z1 z2 f)) (long_goal zc z1 z2 f).
Proof. destruct (quarter_case zc) as [QA QB]. pose proof (quarter_arc_pos zc) as QP. split; [apply (C_CSC_C 1 1 zc z1 z2 true true f); try assumption; try lra; discriminate|]. repeat split; apply ang_eq_refl. Qed.
Lemma long_gap zc z1 z2 f : 100 <= gap (end_centre 1 1 z1 true f (case_start z1)) (end_centre 1 1 z2 true (negb f) (long_goal zc z1 z2 f)).
Proof.
  assert (Hk : 0 < 1) by lra. assert (HE : epsilon < 1 / 1) by (unfold epsilon; lra). destruct (XY_eq 1 1 Hk Hk HE) as (_ & _ & XP & YP & _). destruct (long_shape_case zc z1 z2 f) as [_ W].
  set (s1 := case_start z1) in *. set (s2 := long_goal zc z1 z2 f) in *.
  destruct (end_centre 1 1 z1 true f s1) as [x1 y1] eqn:C1. destruct (end_centre 1 1 z2 true (negb f) s2) as [x2 y2] eqn:C2.
  pose (q0 := configuration 0 0 0 0). pose (c1 := mkCircle q0 true f true x1 y1 0 0 0 0 0 0 0 0). pose (c2 := mkCircle q0 true (negb f) true x2 y2 0 0 0 0 0 0 0 0).
  assert (A : at_start 1 1 z1 s1 c1 true f).
  { split; [reflexivity|split; [reflexivity|]]. change ((x1, y1) = frame (pst s1) (if z1 then sign f * (p_radius (hc_cc_param 1 1) * p_sin_mu (hc_cc_param 1 1)) else 0) (sign true * if z1 then p_radius (hc_cc_param 1 1) * p_cos_mu (hc_cc_param 1 1) else 1 / 1)). rewrite <- C1. destruct z1; reflexivity. }
  assert (B : at_end 1 1 z2 s2 c2 true f).
  { split; [reflexivity|split; [reflexivity|]]. change ((x2, y2) = frame (pst s2) (if z2 then - (sign f * (p_radius (hc_cc_param 1 1) * p_sin_mu (hc_cc_param 1 1))) else 0) (sign true * if z2 then p_radius (hc_cc_param 1 1) * p_cos_mu (hc_cc_param 1 1) else 1 / 1)).
    rewrite <- C2. unfold end_centre. destruct z2; [|reflexivity]. unfold turn_centre, beside, frame, pst; cbn [px py pt]. rewrite sign_negb. apply injective_projections; cbn [fst snd]; ring. }
  destruct (quarter_case zc) as [QA QB]. pose proof (quarter_arc_pos zc) as QP.
  destruct (C_CSC_C_word 1 1 Hk Hk HE zc z1 z2 s1 s2 c1 c2 true true f 1 (quarter_arc zc) 100 (quarter_arc zc) 1 A B ltac:(lra) ltac:(lra) ltac:(lra) ltac:(lra) ltac:(lra) QA QB W) as (DD & DP & _).
  change (100 <= center_distance c1 c2). unfold jr in DD. set (X := p_radius _ * p_sin_mu _) in *. set (Y := p_radius _ * p_cos_mu _) in *. cbn [negb] in DD. unfold sign in DD. destruct zc; nra.
Qed.
Lemma long_bound zc z1 z2 f : Rmax (total_length (long_word zc z1 z2 f)) (pos_dist (case_start z1) (long_goal zc z1 z2 f)) < DBL_MAX.
Proof.
  pose proof (quarter_arc_pos zc) as QP. assert (T : total_length (long_word zc z1 z2 f) <= 114).
  { unfold long_word. rewrite !total_app, !(turn_length 1 1) by lra. rewrite line_length by lra. unfold turn_len. destruct zc, z1, z2; lra. }
  assert (F : fresnel_error (long_word zc z1 z2 f) <= 1).
  { assert (SQ : sqrt (PI / 1) <= 2). { rewrite <- (sqrt_pow2 2) by lra. apply sqrt_le_1_alt. pose proof PI_4. lra. }
    assert (SP := sqrt_pos (PI / 1)). unfold long_word, turn. destruct zc, z1, z2; cbn [app fresnel_error fold_right steer arc unsteer line ct_sigma];
      repeat match goal with |- context [Req_EM_T ?u 0] => destruct (Req_EM_T u 0) end; unfold sign in *; rewrite ?Rabs_Ropp, ?Rmult_1_l, ?Rabs_R1; replace (-1 * 1) with (- (1)) by ring; rewrite ?Rabs_Ropp, ?Rabs_R1; lra. }
  pose proof (chord (case_start z1) (long_word zc z1 z2 f)) as C. fold (long_goal zc z1 z2 f) in C.
  apply Rle_lt_trans with 1000; [apply Rmax_lub; lra|]. unfold DBL_MAX. apply IZR_lt. vm_compute. reflexivity.
Qed.
Lemma long_side2 zc z1 f : on_side true (long_goal zc z1 false f).
Proof.
  split; [reflexivity|]. unfold long_goal, long_word. unfold turn at 4. rewrite !app_assoc. rewrite app_nil_r. rewrite lib_app. set (st := lib_path (case_start _) _).
  change (st_kappa (lib_move st (arc 1 true f 1)) < 0 -> true = false). unfold lib_move at 1. cbn [arc ct_sigma].
  destruct (Req_EM_T 0 0) as [_|N]; [|lra]. unfold drive. cbn [ct_kappa ct_delta_s]. destruct (Req_EM_T _ 0); cbn [st_kappa]; unfold sign in *; intros; exfalso; cbn in *; lra.
Qed.
Lemma long_00 zc f : no_turn_00 1 1 true f (case_start true) (long_goal zc true true f) /\ apart 1 1 true true true f true f (case_start true) (long_goal zc true true f).
Proof.
  pose proof (long_gap zc true true f) as G. destruct unit_facts as ((_ & R) & _). split; [eapply Rlt_le_trans; [|exact G]; unfold epsilon; lra|].
  eapply Rlt_le_trans; [|exact G]. lra.
Qed.
Lemma long_0pm f : no_turn_0pm 1 1 true true f (case_start true) (long_goal false true false f).
Proof. eapply Rle_trans; [|exact (long_gap false true false f)]. unfold epsilon. lra. Qed.
Lemma long_pm0 f : no_turn_pm0 1 1 true true f (case_start false) (long_goal false false true f).
Proof. eapply Rle_trans; [|exact (long_gap false false true f)]. unfold epsilon. lra. Qed.
Lemma long_pmpm f : no_turn_pmpm 1 true (case_start false) (long_goal false false false f) /\ apart 1 1 false false true f true f (case_start false) (long_goal false false false f).
Proof. split; (eapply Rlt_le_trans; [|exact (long_gap false false false f)]); unfold epsilon; lra. Qed.

(** The condition of CC|CC is met by turns in the middle that put the two circles opposite each other. *)
Lemma pair_case zc z1 z2 l f : exists m, long_shape 1 1 zc z1 z2 l f (negb l) (negb f)
  (turn 1 1 z1 true l f 1 ++ turn 1 1 true zc (negb l) f m ++ turn 1 1 zc true l (negb f) m ++ turn 1 1 true z2 (negb l) (negb f) 1).
Proof.
  assert (Hk : 0 < 1) by lra. assert (HE : epsilon < 1 / 1) by (unfold epsilon; lra). destruct (XY_eq 1 1 Hk Hk HE) as (_ & _ & XP & YP & _ & _ & RP). destruct (param_nom 1 1 Hk Hk) as (_ & _ & _ & _ & _ & _ & _ & MU & _ & CM).
  assert (B := atan_bound (nom_X 1 1 / nom_Y 1 1)). rewrite <- MU in B. set (mu := p_mu (hc_cc_param 1 1)) in *.
  exists (PI - mu - 1 / 2 - (if zc then 1 / 2 else 0)). assert (P2 := PI2_3_2).
  apply CC_CC; [lra|destruct zc; lra|lra|]. right.
  assert (L : lean 1 1 zc (PI - mu - 1 / 2 - (if zc then 1 / 2 else 0)) = - p_radius (hc_cc_param 1 1)).
  { unfold lean, turn_angle. fold mu. transitivity (p_radius (hc_cc_param 1 1) * cos PI); [f_equal; f_equal; destruct zc; field|rewrite cos_PI; ring]. }
  rewrite L. unfold cusp_reach. fold mu. rewrite <- CM. destruct zc; lra.
Qed.

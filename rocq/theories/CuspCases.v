(** * Concrete paths with two cusps *)
From Coq Require Import Reals ZArith List Lra Lia Bool.
From Verif Require Import DistPlan.
From Verif Require Import Base ModelUtil ModelCircle ModelPaths Num UtilProofs SpecPath SpecTurn SpecSide SpecPlan SpecOpt SpecCusp PoseAlg TurnProofs MotionProofs LegProofs TangentProofs PlanProofs PlanTactics PlanRefute OptProofs OptTangent OptWord OptTactics OptCases CuspWord.
Import ListNotations.
Open Scope R_scope.

(** The circles of a path C|S|C to one side are apart by the straight line less the two clothoids. *)
Lemma c_s_c_gap k s zc z1 z2 l f a1 d a2 s1 s2 : 0 < k -> 0 < s -> epsilon < k / s -> 0 <= a1 -> 0 <= a2 -> 2 * (k / s) <= d ->
  same_pose (lib_path s1 (turn k s z1 zc l f a1 ++ [line (negb f) d] ++ turn k s zc z2 l f a2)) s2 ->
  d - 2 * (k / s) <= gap (end_centre k s z1 l f s1) (end_centre k s z2 l (negb f) s2).
Proof.
  intros Hk Hs HE A1 A2 D W. destruct (XY_eq k s Hk Hs HE) as (_ & _ & XP & _ & XL & _). assert (KS : 0 < k / s) by (apply Rdiv_lt_0_compat; assumption).
  destruct (end_centre k s z1 l f s1) as [x1 y1] eqn:C1. destruct (end_centre k s z2 l (negb f) s2) as [x2 y2] eqn:C2.
  pose (q0 := configuration 0 0 0 0). pose (c1 := mkCircle q0 l f true x1 y1 0 0 0 0 0 0 0 0). pose (c2 := mkCircle q0 l (negb f) true x2 y2 0 0 0 0 0 0 0 0).
  assert (A : at_start k s z1 s1 c1 l f).
  { split; [reflexivity|split; [reflexivity|]]. change ((x1, y1) = frame (pst s1) (if z1 then sign f * (p_radius (hc_cc_param k s) * p_sin_mu (hc_cc_param k s)) else 0) (sign l * if z1 then p_radius (hc_cc_param k s) * p_cos_mu (hc_cc_param k s) else 1 / k)). rewrite <- C1. destruct z1; reflexivity. }
  assert (B : at_end k s z2 s2 c2 l f).
  { split; [reflexivity|split; [reflexivity|]]. change ((x2, y2) = frame (pst s2) (if z2 then - (sign f * (p_radius (hc_cc_param k s) * p_sin_mu (hc_cc_param k s))) else 0) (sign l * if z2 then p_radius (hc_cc_param k s) * p_cos_mu (hc_cc_param k s) else 1 / k)).
    rewrite <- C2. unfold end_centre. destruct z2; [|reflexivity]. unfold turn_centre, beside, frame, pst; cbn [px py pt]. rewrite sign_negb. apply injective_projections; cbn [fst snd]; ring. }
  destruct (line_word k s Hk Hs HE z1 z2 s1 s2 c1 c2 l f l f A B zc zc (negb f) a1 d a2 A1 ltac:(lra) A2 ltac:(unfold in_x, out_x; destruct zc, f; cbn [negb]; unfold sign; lra) W) as [DD _].
  change (d - 2 * (k / s) <= center_distance c1 c2). assert (DP : 0 <= center_distance c1 c2) by apply sqrt_pos.
  apply pow_incr_inv || (apply Rsqr_incr_0_var; [|exact DP]; rewrite !Rsqr_pow2, DD).
  unfold in_x, out_x. set (X := p_radius _ * p_sin_mu _) in *. destruct zc, f; cbn [negb]; unfold sign; replace ((side_y _ _ _ _ - side_y _ _ _ _) ^ 2) with 0 by ring; nra.
Qed.

(** A turn to the left, a cusp, a straight line of length 100, a cusp and a turn to the left. *)
Definition cusp_word (zc z1 z2 forward : bool) : list Control := turn 1 1 z1 zc true forward 1 ++ [line (negb forward) 100] ++ turn 1 1 zc z2 true forward 1.
Definition cusp_goal (zc z1 z2 forward : bool) : State := lib_path (case_start z1) (cusp_word zc z1 z2 forward).

Lemma cusp_bound zc z1 z2 f : Rmax (total_length (cusp_word zc z1 z2 f)) (pos_dist (case_start z1) (cusp_goal zc z1 z2 f)) < DBL_MAX.
Proof.
  assert (H1 : 0 < 1) by lra. assert (T : total_length (cusp_word zc z1 z2 f) <= 106).
  { unfold cusp_word. rewrite !total_app, !(turn_length 1 1) by lra. rewrite line_length by lra. unfold turn_len. destruct zc, z1, z2; lra. }
  assert (F : fresnel_error (cusp_word zc z1 z2 f) <= 1).
  { assert (SQ : sqrt (PI / 1) <= 2). { rewrite <- (sqrt_pow2 2) by lra. apply sqrt_le_1_alt. pose proof PI_4. lra. }
    assert (SP := sqrt_pos (PI / 1)). unfold cusp_word, turn. destruct zc, z1, z2; cbn [app fresnel_error fold_right steer arc unsteer line ct_sigma];
      repeat match goal with |- context [Req_EM_T ?u 0] => destruct (Req_EM_T u 0) end; unfold sign in *; rewrite ?Rabs_Ropp, ?Rmult_1_l, ?Rabs_R1; lra. }
  pose proof (chord (case_start z1) (cusp_word zc z1 z2 f)) as C. fold (cusp_goal zc z1 z2 f) in C.
  apply Rle_lt_trans with 1000; [apply Rmax_lub; lra|]. unfold DBL_MAX. apply IZR_lt. vm_compute. reflexivity.
Qed.
Lemma cusp_shape_case zc z1 z2 f : cusp_shape 1 1 zc z1 z2 true f true f (cusp_word zc z1 z2 f) /\ same_pose (lib_path (case_start z1) (cusp_word zc z1 z2 f)) (cusp_goal zc z1 z2 f).
Proof. split; [apply C_S_C; try intros; lra|]. repeat split; apply ang_eq_refl. Qed.
Lemma cusp_gap zc z1 z2 f : 98 <= gap (end_centre 1 1 z1 true f (case_start z1)) (end_centre 1 1 z2 true (negb f) (cusp_goal zc z1 z2 f)).
Proof. assert (H1 : 0 < 1) by lra. eapply Rle_trans; [|apply (c_s_c_gap 1 1 zc z1 z2 true f 1 100 1); [exact H1|exact H1|unfold epsilon; lra|lra|lra|lra|apply cusp_shape_case]]. lra. Qed.
Lemma cusp_side2 zc z1 f : on_side true (cusp_goal zc z1 false f).
Proof.
  split; [reflexivity|]. unfold cusp_goal, cusp_word, turn. rewrite !app_assoc. rewrite app_nil_r. rewrite lib_app. set (st := lib_path (case_start _) _).
  change (st_kappa (lib_move st (arc 1 true f 1)) < 0 -> true = false). unfold lib_move at 1. cbn [arc ct_sigma].
  destruct (Req_EM_T 0 0) as [_|N]; [|lra]. unfold drive. cbn [ct_kappa ct_delta_s]. destruct (Req_EM_T _ 0); cbn [st_kappa]; unfold sign in *; intros; exfalso; cbn in *; lra.
Qed.
Lemma cusp_00 zc f : no_turn_00 1 1 true f (case_start true) (cusp_goal zc true true f) /\ apart_00 1 1 true f true f (case_start true) (cusp_goal zc true true f).
Proof.
  pose proof (cusp_gap zc true true f) as G. destruct unit_facts as ((_ & R) & _). split; [eapply Rlt_le_trans; [|exact G]; unfold epsilon; lra|].
  intros _. eapply Rle_trans; [|exact G]. unfold epsilon. lra.
Qed.
Lemma cusp_0pm f : no_turn_0pm 1 1 true true f (case_start true) (cusp_goal false true false f).
Proof. eapply Rle_trans; [|exact (cusp_gap false true false f)]. unfold epsilon. lra. Qed.
Lemma cusp_pm0 f : no_turn_pm0 1 1 true true f (case_start false) (cusp_goal false false true f).
Proof. eapply Rle_trans; [|exact (cusp_gap false false true f)]. unfold epsilon. lra. Qed.
Lemma cusp_pmpm f : no_turn_pmpm 1 true (case_start false) (cusp_goal false false false f).
Proof. eapply Rlt_le_trans; [|exact (cusp_gap false false false f)]. unfold epsilon. lra. Qed.

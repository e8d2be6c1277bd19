(** * Concrete turns and the wrap-around of headings *)
From Coq Require Import Reals ZArith List Bool Lra Lia.
From Coquelicot Require Import Coquelicot.
From Verif Require Import Base ModelUtil ModelFresnel ModelIntegrate ModelCircle Num UtilProofs IntegrateProofs SpecPath SpecCloth SpecTurn
  SpecFresnel FresAcc FresProofs FresFinal PoseAlg ParamProofs TurnProofs MotionProofs TurnBounds.
Import ListNotations.
Open Scope R_scope.

(** Left forward regular turns of curvature and sharpness 1 that start in the origin. *)
Definition origin : Configuration := configuration 0 0 0 0.
Definition case_circle : Circle := circle origin true true true (hc_cc_param 1 1).
Definition case_cc : Configuration := configuration 0 (2 * (c_radius case_circle * c_cos_mu case_circle)) PI 0.
Definition case_hc : Configuration := configuration (c_xc case_circle) (c_yc case_circle + 1) PI 1.
Definition case_rs_circle : Circle := circle origin true true true (rs_param 1).
Definition case_rs : Configuration := configuration 0 2 PI 1.

Lemma origin_eq : origin = mkConf 0 0 0 0.
Proof. unfold origin, configuration. rewrite twopify_id; [reflexivity|]. unfold TWO_PI. pose proof PI_gt. lra. Qed.
Lemma twopi_PI : twopify PI = PI.
Proof. apply twopify_id. unfold TWO_PI. pose proof PI_gt. lra. Qed.

Lemma case_center : c_xc case_circle = c_radius case_circle * c_sin_mu case_circle /\ c_yc case_circle = c_radius case_circle * c_cos_mu case_circle.
Proof.
  unfold case_circle, circle. cbn [c_xc c_yc c_radius c_sin_mu c_cos_mu]. unfold global_frame_change. rewrite origin_eq; cbn [q_x q_y q_theta].
  rewrite cos_0, sin_0. cbn [c_xc c_yc c_radius c_sin_mu c_cos_mu]. split; ring.
Qed.
Lemma cc_case : cc_tangent 0 case_circle case_cc /\ deflection case_circle case_cc = PI.
Proof.
  destruct case_center as [CX CY]. split.
  - unfold cc_tangent, centre_gap. rewrite CX, CY.
    change (c_forward case_circle) with true. change (c_left case_circle) with true.
    unfold case_cc at 1 2 3 4 5 6. unfold configuration, sign; cbn [q_x q_y q_theta]. rewrite twopi_PI, cos_PI, sin_PI.
    match goal with |- sqrt ?a <= 0 => replace a with 0 by ring end. rewrite sqrt_0. lra.
  - unfold deflection. change (c_left case_circle && c_forward case_circle || negb (c_left case_circle) && negb (c_forward case_circle)) with true.
    cbn iota. change (c_start case_circle) with origin. rewrite origin_eq. unfold case_cc, configuration; cbn [q_theta].
    rewrite twopi_PI, Rminus_0_r. apply twopi_PI.
Qed.
Lemma hc_case : hc_tangent 0 case_circle case_hc /\ deflection case_circle case_hc = PI.
Proof.
  split.
  - unfold hc_tangent, centre_gap. destruct (curv_fields 1 1 origin true true true) as (EK & _). fold case_circle in EK. rewrite EK.
    unfold case_hc, configuration, sign; cbn [q_x q_y q_theta]. rewrite twopi_PI, cos_PI, sin_PI.
    match goal with |- sqrt ?a <= 0 => replace a with 0 by field end. rewrite sqrt_0. lra.
  - unfold deflection. change (c_left case_circle && c_forward case_circle || negb (c_left case_circle) && negb (c_forward case_circle)) with true.
    cbn iota. change (c_start case_circle) with origin. rewrite origin_eq. unfold case_hc, configuration; cbn [q_theta].
    rewrite twopi_PI, Rminus_0_r. apply twopi_PI.
Qed.
Lemma rs_case : hc_tangent 0 case_rs_circle case_rs /\ rs_turn_length case_rs_circle case_rs = PI.
Proof.
  split.
  - unfold hc_tangent, centre_gap, case_rs_circle, circle, rs_param, set_param, global_frame_change. cbn [p_radius p_sin_mu p_cos_mu p_kappa p_kappa_inv p_sigma c_kappa c_xc c_yc].
    rewrite origin_eq; cbn [q_x q_y q_theta]. rewrite cos_0, sin_0. cbn [c_kappa c_xc c_yc]. unfold case_rs, configuration; cbn [q_x q_y q_theta].
    rewrite twopi_PI, cos_PI, sin_PI.
    match goal with |- sqrt ?a <= 0 => replace a with 0 by field end. rewrite sqrt_0. lra.
  - unfold rs_turn_length, deflection. change (c_left case_rs_circle && c_forward case_rs_circle || negb (c_left case_rs_circle) && negb (c_forward case_rs_circle)) with true.
    cbn iota. change (c_start case_rs_circle) with origin. rewrite origin_eq. unfold case_rs, configuration; cbn [q_theta].
    rewrite twopi_PI, Rminus_0_r, twopi_PI. unfold rs_circular_deflection. change (c_regular case_rs_circle) with true. cbn iota.
    change (c_kappa_inv case_rs_circle) with (1 / 1). replace (1 / 1 * PI) with PI by field. apply Rabs_pos_eq. pose proof PI_gt. lra.
Qed.
Lemma bounds_case : epsilon < configuration_distance origin case_cc -> (1 + 1 / 10 ^ 9) * (configuration_distance origin case_cc + 0 + 2 * param_slack 1 1) <=
  (1 + 1 / 10 ^ 9) * configuration_distance origin case_cc.
Proof. intros _. unfold param_slack. destruct (Rlt_dec _ _) as [_|N]; [lra|]. exfalso. apply N. unfold epsilon. lra. Qed.

(** ** Wrap-around *)
Lemma conf_wrap : exists q1 q2 : Configuration,
  configuration_distance q1 q2 = 0 /\ q_kappa q1 = q_kappa q2 /\ 0 <= q_theta q1 < 2 * PI /\ 0 <= q_theta q2 < 2 * PI /\
  heading_within (epsilon / 2) (st_of q1) (st_of q2) /\ configuration_equal q1 q2 = false.
Proof.
  exists (mkConf 0 0 0 0), (mkConf 0 0 (2 * PI - epsilon / 2) 0). cbn [q_theta q_kappa q_x q_y]. pose proof PI_gt. unfold epsilon in *.
  assert (Z : configuration_distance (mkConf 0 0 0 0) (mkConf 0 0 (2 * PI - 1 / 10000 / 2) 0) = 0).
  { unfold configuration_distance, point_distance; cbn [q_x q_y]. replace ((0 - 0) ^ 2 + (0 - 0) ^ 2) with 0 by ring. apply sqrt_0. }
  split; [exact Z|]. split; [reflexivity|]. split; [lra|]. split; [lra|]. split.
  - exists (-1)%Z. cbn [st_theta st_of q_theta]. rewrite Rabs_pos_eq; lra.
  - unfold configuration_equal; cbn [q_theta]. destruct (Rlt_dec _ _) as [_|N]; [reflexivity|]. exfalso. apply N.
    rewrite Rabs_pos_eq; unfold epsilon; lra.
Qed.
Lemma state_wrap : exists s1 s2 : State,
  pos_dist s1 s2 = 0 /\ st_kappa s1 = st_kappa s2 /\ heading_within (epsilon / 2) s1 s2 /\ state_equal s1 s2 = false.
Proof.
  exists (mkState 0 0 0 0 1), (mkState 0 0 (- (epsilon / 2)) 0 1). cbn [st_theta st_kappa st_x st_y]. pose proof PI_gt. unfold epsilon in *.
  split. { unfold pos_dist; cbn [st_x st_y]. replace ((0 - 0) ^ 2 + (0 - 0) ^ 2) with 0 by ring. apply sqrt_0. }
  split; [reflexivity|]. split.
  - exists 0%Z. cbn [st_theta]. rewrite Rabs_pos_eq; lra.
  - unfold state_equal; cbn [st_theta st_kappa]. destruct (Rlt_dec _ _) as [_|_]; [reflexivity|].
    destruct (Rlt_dec _ _) as [_|N]; [reflexivity|]. exfalso. apply N.
    assert (T0 : twopify 0 = 0) by (apply twopify_id; unfold TWO_PI; lra).
    assert (T1 : twopify (- (1 / 10000 / 2)) = 2 * PI - 1 / 10000 / 2).
    { apply twopify_unique; [exists 1%Z; lra|unfold TWO_PI; lra]. }
    rewrite T0, T1. rewrite Rabs_pos_eq; unfold epsilon; lra.
Qed.
(** Away from the wrap-around the test is exact. *)
Lemma conf_equal_iff q1 q2 : configuration_equal q1 q2 = true <->
  Rabs (q_theta q2 - q_theta q1) <= epsilon /\ configuration_distance q1 q2 <= epsilon.
Proof.
  unfold configuration_equal. destruct (Rlt_dec _ _); [split; [discriminate|lra]|].
  destruct (Rlt_dec _ _); split; try discriminate; lra || (intros _; lra) || reflexivity.
Qed.

Lemma reverse_case : reverse_control (mkControl 2 1 (1 / 2)) = mkControl (-2) 2 (- (1 / 2)).
Proof. unfold reverse_control; cbn [ct_delta_s ct_kappa ct_sigma]. rewrite Rabs_Ropp, Rabs_pos_eq by lra. f_equal; lra. Qed.

(** * Properties of the turns (C32, C33, C34), of reversed controls (C45) and of the tests for equality (C50)

    [circle start left forward regular (hc_cc_param k s)] is the circle of the cc- and hc-turns of curvature [k]
    and sharpness [s] that leave [start]. The tolerances are explicit: [g] is the distance by which the target
    misses the circle, [cc_shortcut] is the deflection when it is below 1e-4 and 0 otherwise, [param_slack] is 0
    unless k/s <= 1e-4, [fresnel_error] is of the order 1e-14. *)
From Coq Require Import Reals ZArith List Bool.
From Verif Require Import Base ModelUtil ModelFresnel ModelIntegrate ModelCircle SpecPath SpecCloth SpecTurn
  TurnProofs MotionProofs TurnBounds TurnCases.
Import ListNotations.
Open Scope R_scope.

(** C32: cc-turns. *)
Theorem C32_cc_turn_reaches (k s : R) (start : Configuration) (left forward regular : bool) (g : R) (q : Configuration) :
  0 < k -> 0 < s -> let c := circle start left forward regular (hc_cc_param k s) in cc_tangent g c q ->
  let cs := cc_turn_controls c q true in let z := cc_shortcut c q in
  reaches (2 * g + 2 * param_slack k s + 3 / 2 * (c_radius c * z) + fresnel_error cs) z (true_path (st_of start) cs) q.
Proof. intros K S c H. exact (reaches_true _ _ _ _ _ (cc_turn_ends k s start left forward regular K S g q true H)). Qed.
Print Assumptions C32_cc_turn_reaches.

Theorem C32_cc_turn_returns (k s : R) (start : Configuration) (left forward regular : bool) (g : R) (q : Configuration) :
  0 < k -> 0 < s -> let c := circle start left forward regular (hc_cc_param k s) in cc_tangent g c q ->
  let cs := cc_turn_controls c q false in let z := cc_shortcut c q in
  reaches (2 * g + 2 * param_slack k s + 3 / 2 * (c_radius c * z) + fresnel_error cs) z (true_path (st_of q) cs) start.
Proof. intros K S c H. exact (reaches_true _ _ _ _ _ (cc_turn_ends k s start left forward regular K S g q false H)). Qed.
Print Assumptions C32_cc_turn_returns.

Example C32_cc_turn_case : cc_tangent 0 case_circle case_cc /\ deflection case_circle case_cc = PI.
Proof. exact cc_case. Qed.

(** C32: hc-turns. *)
Theorem C32_hc_turn_reaches (k s : R) (start : Configuration) (left forward regular : bool) (g : R) (q : Configuration) :
  0 < k -> 0 < s -> let c := circle start left forward regular (hc_cc_param k s) in hc_tangent g c q ->
  let cs := hc_turn_controls c q true in
  reaches (g + param_slack k s + fresnel_error cs) 0 (true_path (st_of start) cs) q.
Proof. intros K S c H. exact (reaches_true _ _ _ _ _ (hc_turn_ends k s start left forward regular K S g q true H)). Qed.
Print Assumptions C32_hc_turn_reaches.

Theorem C32_hc_turn_returns (k s : R) (start : Configuration) (left forward regular : bool) (g : R) (q : Configuration) :
  0 < k -> 0 < s -> let c := circle start left forward regular (hc_cc_param k s) in hc_tangent g c q ->
  let cs := hc_turn_controls c q false in
  reaches (g + param_slack k s + fresnel_error cs) 0 (true_path (st_of q) cs) start.
Proof. intros K S c H. exact (reaches_true _ _ _ _ _ (hc_turn_ends k s start left forward regular K S g q false H)). Qed.
Print Assumptions C32_hc_turn_returns.

Example C32_hc_turn_case : hc_tangent 0 case_circle case_hc /\ deflection case_circle case_hc = PI.
Proof. exact hc_case. Qed.

(** C32: rs-turns; [fresnel_error] is 0 for them as they have no clothoid. *)
Theorem C32_rs_turn_reaches (k : R) (start : Configuration) (left forward regular : bool) (g : R) (q : Configuration) :
  0 < k -> let c := circle start left forward regular (rs_param k) in hc_tangent g c q ->
  let cs := rs_turn_controls c q true in reaches (g + fresnel_error cs) 0 (true_path (st_of start) cs) q.
Proof. intros K c H. exact (reaches_true _ _ _ _ _ (rs_turn_ends k start left forward regular K g q true H)). Qed.
Print Assumptions C32_rs_turn_reaches.

Theorem C32_rs_turn_returns (k : R) (start : Configuration) (left forward regular : bool) (g : R) (q : Configuration) :
  0 < k -> let c := circle start left forward regular (rs_param k) in hc_tangent g c q ->
  let cs := rs_turn_controls c q false in reaches (g + fresnel_error cs) 0 (true_path (st_of q) cs) start.
Proof. intros K c H. exact (reaches_true _ _ _ _ _ (rs_turn_ends k start left forward regular K g q false H)). Qed.
Print Assumptions C32_rs_turn_returns.

Example C32_rs_turn_case : hc_tangent 0 case_rs_circle case_rs /\ rs_turn_length case_rs_circle case_rs = PI.
Proof. exact rs_case. Qed.

(** C33: reported lengths; for every circle, also those that are not built by a constructor. *)
Theorem C33_rs_turn_length (c : Circle) (q : Configuration) (order : bool) :
  total_length (rs_turn_controls c q order) = rs_turn_length c q.
Proof. exact (rs_turn_len c q order). Qed.
Print Assumptions C33_rs_turn_length.

Theorem C33_hc_turn_length (c : Circle) (q : Configuration) (order : bool) :
  total_length (hc_turn_controls c q order) = hc_turn_length c q.
Proof. exact (hc_turn_len c q order). Qed.
Print Assumptions C33_hc_turn_length.

Theorem C33_cc_turn_length (c : Circle) (q : Configuration) (order : bool) : epsilon <= deflection c q ->
  total_length (cc_turn_controls c q order) = cc_turn_length c q.
Proof. exact (cc_turn_len c q order). Qed.
Print Assumptions C33_cc_turn_length.

Theorem C33_cc_turn_length_short (k s : R) (start : Configuration) (left forward regular : bool) (g : R) (q : Configuration) (order : bool) :
  0 < k -> 0 < s -> let c := circle start left forward regular (hc_cc_param k s) in cc_tangent g c q ->
  Rabs (total_length (cc_turn_controls c q order) - cc_turn_length c q) <= g + c_radius c * cc_shortcut c q.
Proof. exact (cc_turn_len_short k s start left forward regular g q order). Qed.
Print Assumptions C33_cc_turn_length_short.

(** C34: curvature continuity with the curvatures of the ends. *)
Theorem C34_cc_turn_continuous (k s : R) (start : Configuration) (left forward regular : bool) (q : Configuration) (order : bool) :
  0 < k -> 0 < s -> curvature_chain 0 (cc_turn_controls (circle start left forward regular (hc_cc_param k s)) q order) 0.
Proof. exact (fun K S => cc_chain k s start left forward regular K S q order). Qed.
Print Assumptions C34_cc_turn_continuous.

Theorem C34_hc_turn_continuous (k s : R) (start : Configuration) (left forward regular : bool) (q : Configuration) :
  0 < k -> 0 < s -> let c := circle start left forward regular (hc_cc_param k s) in
  curvature_chain 0 (hc_turn_controls c q true) (c_kappa c) /\ curvature_chain (c_kappa c) (hc_turn_controls c q false) 0.
Proof. exact (fun K S => hc_chain k s start left forward regular K S q). Qed.
Print Assumptions C34_hc_turn_continuous.

Theorem C34_rs_turn_continuous (c : Circle) (q : Configuration) (order : bool) :
  curvature_chain (c_kappa c) (rs_turn_controls c q order) (c_kappa c).
Proof. exact (rs_chain c q order). Qed.
Print Assumptions C34_rs_turn_continuous.

(** C34: bounds; the elementary path of a cc-turn is fitted to the target, its sharpness exceeds the bound when
    the target misses the circle by [g]. *)
Theorem C34_cc_turn_bounds (k s : R) (start : Configuration) (left forward regular : bool) (g : R) (q : Configuration) (order : bool) (m : R) :
  0 < k -> 0 < s -> let c := circle start left forward regular (hc_cc_param k s) in cc_tangent g c q -> 1 <= m ->
  (epsilon < configuration_distance start q ->
   (1 + 1 / 10 ^ 9) * (configuration_distance start q + g + 2 * param_slack k s) <= m * configuration_distance start q) ->
  Forall (within_bounds (k * m) (s * m ^ 2)) (cc_turn_controls c q order).
Proof. exact (fun K S => cc_bounds k s start left forward regular K S g q order m). Qed.
Print Assumptions C34_cc_turn_bounds.

Example C34_cc_turn_case : cc_tangent 0 case_circle case_cc /\
  (epsilon < configuration_distance origin case_cc ->
   (1 + 1 / 10 ^ 9) * (configuration_distance origin case_cc + 0 + 2 * param_slack 1 1) <= (1 + 1 / 10 ^ 9) * configuration_distance origin case_cc).
Proof. exact (conj (proj1 cc_case) bounds_case). Qed.

Theorem C34_hc_turn_bounds (k s : R) (start : Configuration) (left forward regular : bool) (q : Configuration) (order : bool) :
  0 < k -> 0 < s -> Forall (within_bounds k s) (hc_turn_controls (circle start left forward regular (hc_cc_param k s)) q order).
Proof. exact (fun K S => hc_bounds k s start left forward regular K S q order). Qed.
Print Assumptions C34_hc_turn_bounds.

Theorem C34_rs_turn_bounds (c : Circle) (q : Configuration) (order : bool) :
  Forall (within_bounds (Rabs (c_kappa c)) 0) (rs_turn_controls c q order).
Proof. exact (rs_bounds c q order). Qed.
Print Assumptions C34_rs_turn_bounds.

(** C45: reversed controls. *)
Theorem C45_reverse_involutive (c : Control) : reverse_control (reverse_control c) = c.
Proof. exact (reverse_involutive c). Qed.
Print Assumptions C45_reverse_involutive.

Theorem C45_reverse_returns (s : State) (c : Control) :
  let s' := true_path s [c; reverse_control c] in
  st_x s' = st_x s /\ st_y s' = st_y s /\ st_theta s' = st_theta s /\ st_kappa s' = ct_kappa c.
Proof. exact (reverse_true s c). Qed.
Print Assumptions C45_reverse_returns.

Theorem C45_reverse_curvature (c : Control) :
  ct_kappa (reverse_control c) = ct_kappa c + ct_sigma c * Rabs (ct_delta_s c) /\
  ct_kappa (reverse_control c) + ct_sigma (reverse_control c) * Rabs (ct_delta_s (reverse_control c)) = ct_kappa c /\
  Rabs (ct_delta_s (reverse_control c)) = Rabs (ct_delta_s c).
Proof. exact (reverse_curvature c). Qed.
Print Assumptions C45_reverse_curvature.

Example C45_case : reverse_control (mkControl 2 1 (1 / 2)) = mkControl (-2) 2 (- (1 / 2)).
Proof. exact reverse_case. Qed.

(** C50: headings that agree modulo 2 pi but lie on the two sides of the cut are not recognised. *)
Theorem C50_configuration_equal_refuted : exists q1 q2 : Configuration,
  configuration_distance q1 q2 = 0 /\ q_kappa q1 = q_kappa q2 /\ 0 <= q_theta q1 < 2 * PI /\ 0 <= q_theta q2 < 2 * PI /\
  heading_within (epsilon / 2) (st_of q1) (st_of q2) /\ configuration_equal q1 q2 = false.
Proof. exact conf_wrap. Qed.
Print Assumptions C50_configuration_equal_refuted.

Theorem C50_state_equal_refuted : exists s1 s2 : State,
  pos_dist s1 s2 = 0 /\ st_kappa s1 = st_kappa s2 /\ heading_within (epsilon / 2) s1 s2 /\ state_equal s1 s2 = false.
Proof. exact state_wrap. Qed.
Print Assumptions C50_state_equal_refuted.

(** What holds: the test is exact for headings compared as numbers of [0, 2 pi). *)
Theorem C50_configuration_equal_partial (q1 q2 : Configuration) : configuration_equal q1 q2 = true <->
  Rabs (q_theta q2 - q_theta q1) <= epsilon /\ configuration_distance q1 q2 <= epsilon.
Proof. exact (conf_equal_iff q1 q2). Qed.
Print Assumptions C50_configuration_equal_partial.

(** * Every turn and every straight of a candidate is bounded *)
From Coq Require Import Reals ZArith List Lra Lia Bool.
From Verif Require Import Base ModelUtil ModelCircle ModelPaths Num UtilProofs SpecPath SpecTurn SpecPlan PoseAlg TurnProofs MotionProofs TurnBounds LegProofs TangentProofs PlanProofs PlanTactics.
Import ListNotations.
Open Scope R_scope.

Lemma circ_defl_abs reg m d : 0 <= d < 2 * PI -> Rabs (circular_deflection reg (twopify m) d) <= 2 * PI.
Proof.
  intros DR. pose proof (twopify_range m) as M. pose proof PI_RGT_0. unfold circular_deflection, TWO_PI in *. set (tm := twopify m) in *.
  destruct reg.
  - destruct (Rlt_dec d tm); apply Rabs_le; lra.
  - destruct (Rlt_dec d tm); cbv beta iota zeta; destruct (Rlt_dec (Rabs _) (Rabs _)); apply Rabs_le; lra.
Qed.
Lemma rs_defl_abs c d : 0 <= d < 2 * PI -> Rabs (rs_circular_deflection c d) <= 2 * PI.
Proof.
  intros DR. pose proof PI_RGT_0. unfold rs_circular_deflection, TWO_PI. destruct (c_regular c); [apply Rabs_le; lra|]. destruct (Rle_dec d PI); apply Rabs_le; lra.
Qed.

Section Bounds.
  Variables (k s : R).
  Hypothesis Hk : 0 < k.
  Hypothesis Hs : 0 < s.
  Local Notation p := (hc_cc_param k s).

  Lemma abs_sk l x : Rabs (sign l * (1 / k) * x) = 1 / k * Rabs x.
  Proof.
    assert (0 < 1 / k) by (apply Rdiv_lt_0_compat; lra). rewrite Rmult_assoc, Rabs_mult, Rabs_mult.
    rewrite (Rabs_pos_eq (1 / k)) by lra. replace (Rabs (sign l)) with 1; [ring|]. destruct l; unfold sign; [rewrite Rabs_R1|rewrite Rabs_left]; lra.
  Qed.
  Lemma arc_bound l x : Rabs x <= 2 * PI -> Rabs (sign l * (1 / k) * x) <= 2 * PI / k.
  Proof.
    intros H. assert (0 < 1 / k) by (apply Rdiv_lt_0_compat; lra). rewrite abs_sk. replace (2 * PI / k) with (1 / k * (2 * PI)) by (field; lra).
    apply Rmult_le_compat_l; lra.
  Qed.
  Lemma cc_turn_bound start l f reg q : 0 <= cc_turn_length (circle start l f reg p) q <= 2 * p_radius p + 2 * (k / s) + 2 * PI / k.
  Proof.
    set (c := circle start l f reg p). pose proof (circle_all start l f reg p) as C. cbv zeta in C. fold c in C.
    destruct C as (_ & _ & _ & _ & R1 & _ & S1 & _ & _ & K1). destruct (param_nom k s Hk Hs) as (_ & PI1 & _ & _ & XX & _ & _ & _ & SM & _).
    pose proof (radius_nonneg k s Hk Hs) as RP. assert (KS : 0 < k / s) by (apply Rdiv_lt_0_compat; lra).
    pose proof PI_RGT_0. assert (PK : 0 < 2 * PI / k) by (apply Rdiv_lt_0_compat; lra). destruct (nom_pos k s Hk Hs) as [XP YP].
    unfold cc_turn_length. pose proof (defl_range c q) as DR. destruct (Rlt_dec _ epsilon).
    - rewrite R1, S1. replace (2 * p_radius p * p_sin_mu p) with (2 * (p_radius p * p_sin_mu p)) by ring. split; [rewrite XX; lra|].
      assert (p_radius p * p_sin_mu p <= p_radius p * 1) by (apply Rmult_le_compat_l; [lra|]; rewrite SM; apply SIN_bound). lra.
    - unfold c. rewrite (abs_Lb k s start l f reg Hk Hs). fold c. rewrite K1, PI1.
      pose proof (arc_bound l _ (circ_defl_abs (c_regular c) (2 * c_delta_min c) (deflection c q) DR)) as AB. fold (cc_circular_deflection c (deflection c q)) in AB.
      pose proof (Rabs_pos (sign l * (1 / k) * cc_circular_deflection c (deflection c q))).
      destruct (Rlt_dec _ (2 * c_delta_min c)); [|lra]. destruct (cc_elementary_sharpness _ _ _) as [sg|]; [|lra].
      pose proof (sqrt_pos (deflection c q / Rabs sg)). destruct (Rlt_dec _ _); lra.
  Qed.
  Lemma hc_turn_bound start l f reg q : 0 <= hc_turn_length (circle start l f reg p) q <= 2 * p_radius p + 2 * (k / s) + 2 * PI / k.
  Proof.
    set (c := circle start l f reg p). pose proof (circle_all start l f reg p) as C. cbv zeta in C. fold c in C.
    destruct C as (_ & _ & _ & _ & R1 & _ & S1 & _ & _ & K1). destruct (param_nom k s Hk Hs) as (_ & PI1 & _ & _ & XX & _ & _ & _ & SM & _).
    pose proof (radius_nonneg k s Hk Hs) as RP. assert (KS : 0 < k / s) by (apply Rdiv_lt_0_compat; lra).
    unfold hc_turn_length. pose proof (defl_range c q) as DR. pose proof (abs_Lb k s start l f reg Hk Hs) as AL. fold c in AL. rewrite AL, K1, PI1.
    pose proof (arc_bound l _ (circ_defl_abs (c_regular c) (c_delta_min c) (deflection c q) DR)) as AB. fold (hc_circular_deflection c (deflection c q)) in AB.
    pose proof (Rabs_pos (sign l * (1 / k) * hc_circular_deflection c (deflection c q))). lra.
  Qed.
  Lemma rs_turn_bound start l f reg q : 0 <= rs_turn_length (circle start l f reg (rs_param k)) q <= 2 * PI / k.
  Proof.
    set (c := circle start l f reg (rs_param k)). destruct (rs_fields k start l f reg) as (_ & _ & _ & _ & _ & KI & _). fold c in KI.
    unfold rs_turn_length. rewrite KI. pose proof (defl_range c q) as DR. split; [apply Rabs_pos|]. apply arc_bound, rs_defl_abs, DR.
  Qed.
  Lemma straight_by_dist t q1 q2 : straight_by t q1 q2 -> configuration_distance q1 q2 = Rabs t.
  Proof.
    intros (X & Y & _). unfold configuration_distance, point_distance. rewrite X, Y.
    replace ((q_x q1 + t * cos (q_theta q1) - q_x q1) ^ 2 + (q_y q1 + t * sin (q_theta q1) - q_y q1) ^ 2) with ((t * cos (q_theta q1)) ^ 2 + (t * sin (q_theta q1)) ^ 2) by ring.
    exact (hyp_polar t (q_theta q1)).
  Qed.
  (** Distances of centres. *)
  Lemma off_dist c q lx ly : off c q lx ly -> hyp (c_xc c - q_x q) (c_yc c - q_y q) = hyp lx ly.
  Proof.
    unfold off, frame. intros H. apply pair_equal_spec in H. destruct H as [-> ->]. unfold pcf; cbn [px py pt].
    rewrite <- (hyp_rot lx ly (q_theta q)). unfold hyp. f_equal. ring.
  Qed.
  Lemma radius_XY x y : pm1 x -> pm1 y -> hyp (x * (p_radius p * p_sin_mu p)) (y * (p_radius p * p_cos_mu p)) = p_radius p.
  Proof.
    intros PX PY. rewrite hyp_pm by assumption. destruct (param_nom k s Hk Hs) as (_ & _ & _ & _ & -> & -> & -> & _). reflexivity.
  Qed.
  Lemma centre_far c1 c2 a b u v : hyp (c_xc c1 - q_x a) (c_yc c1 - q_y a) = u -> hyp (c_xc c2 - q_x b) (c_yc c2 - q_y b) = v ->
    center_distance c1 c2 <= u + configuration_distance a b + v.
  Proof.
    intros <- <-. unfold center_distance. change (sqrt ((c_xc c2 - c_xc c1) ^ 2 + (c_yc c2 - c_yc c1) ^ 2)) with (hyp (c_xc c2 - c_xc c1) (c_yc c2 - c_yc c1)).
    replace (c_xc c2 - c_xc c1) with ((- (c_xc c1 - q_x a) + (q_x b - q_x a)) + (c_xc c2 - q_x b)) by ring.
    replace (c_yc c2 - c_yc c1) with ((- (c_yc c1 - q_y a) + (q_y b - q_y a)) + (c_yc c2 - q_y b)) by ring.
    eapply Rle_trans; [apply hyp_add|]. apply Rplus_le_compat_r. eapply Rle_trans; [apply hyp_add|]. rewrite hyp_opp. apply Rle_refl.
  Qed.
  Lemma circle_far start l f reg : hyp (c_xc (circle start l f reg p) - q_x start) (c_yc (circle start l f reg p) - q_y start) = p_radius p.
  Proof. rewrite (off_dist _ _ _ _ (circle_off start l f reg p)). apply radius_XY; apply pm1_sign. Qed.
  Lemma radius_le : p_radius p <= 21 / 10 * (k / s) + 2 / k.
  Proof.
    assert (LP : 0 < k / s) by (apply Rdiv_lt_0_compat; lra). assert (KP : 0 < 1 / k) by (apply Rdiv_lt_0_compat; lra). pose proof FresProofs.PI_gt as PG.
    assert (E2 : 2 / k = 1 / k + 1 / k) by (field; lra). destruct (nom_pos k s Hk Hs) as [XP YP].
    destruct (param_nom k s Hk Hs) as (_ & _ & _ & _ & _ & _ & RR & _). rewrite RR.
    apply Rle_trans with (nom_X k s + nom_Y k s).
    { apply Rsqr_incr_0_var; [|lra]. rewrite Rsqr_sqrt by nra. unfold Rsqr. nra. }
    unfold nom_X, nom_Y. destruct (Rlt_dec epsilon (k / s)) as [_|_]; [|lra]. unfold par_X, par_Y.
    assert (WE : sqrt (PI / s) * (sqrt (s / PI) * (k / s)) = k / s).
    { rewrite <- Rmult_assoc, <- sqrt_mult by (apply Rmult_le_pos; [lra|left; apply Rinv_0_lt_compat; lra]). replace (PI / s * (s / PI)) with 1 by (field; lra). rewrite sqrt_1. ring. }
    assert (RP : 0 <= sqrt (PI / s)) by apply sqrt_pos. assert (WP : 0 <= sqrt (s / PI) * (k / s)) by (apply Rmult_le_pos; [apply sqrt_pos|lra]).
    destruct (lib_upper _ WP) as [C D].
    assert (CX : cl_x s (k / s) <= k / s * (1 + 1 / 100)).
    { eapply Rle_trans; [apply Rle_abs|]. unfold cl_x. rewrite Rabs_mult, (Rabs_pos_eq (sqrt _)) by exact RP.
      replace (k / s * (1 + 1 / 100)) with (sqrt (PI / s) * (sqrt (s / PI) * (k / s) * (1 + 1 / 100))) by (rewrite <- Rmult_assoc, WE; ring).
      apply Rmult_le_compat_l; assumption. }
    assert (CY : cl_y s (k / s) <= k / s * (1 + 1 / 100)).
    { eapply Rle_trans; [apply Rle_abs|]. unfold cl_y. rewrite Rabs_mult, (Rabs_pos_eq (sqrt _)) by exact RP.
      replace (k / s * (1 + 1 / 100)) with (sqrt (PI / s) * (sqrt (s / PI) * (k / s) * (1 + 1 / 100))) by (rewrite <- Rmult_assoc, WE; ring).
      apply Rmult_le_compat_l; assumption. }
    assert (IK : 0 < / k) by (apply Rinv_0_lt_compat; lra). unfold Rdiv at 2 4. pose proof (SIN_bound (par_t k s)) as SB. pose proof (COS_bound (par_t k s)) as CB.
    assert (- sin (par_t k s) * / k <= 1 * / k) by (apply Rmult_le_compat_r; lra). assert (cos (par_t k s) * / k <= 1 * / k) by (apply Rmult_le_compat_r; lra).
    unfold Rdiv in E2 at 2 3. lra.
  Qed.
End Bounds.

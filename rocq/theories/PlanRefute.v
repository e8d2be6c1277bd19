(** * Turns that end on the wrong side of the goal *)
From Coq Require Import Reals ZArith List Lra Lia Bool.
From Coquelicot Require Import Coquelicot.
From Verif Require Import Base ModelUtil ModelFresnel ModelCircle ModelPaths Num UtilProofs SpecPath SpecCloth SpecTurn SpecPlan FresProofs PoseAlg TurnProofs MotionProofs TurnBounds LegProofs TangentProofs PlanProofs PlanTactics PlanFamily PlanBounds PlanSelect PlanRadius.
Import ListNotations.
Open Scope R_scope.

(** ** A car does not move further than the length of its path *)
Lemma sgn_abs x : Rabs (sgn x) = 1.
Proof. unfold sgn. destruct (Rlt_dec x 0); [rewrite Rabs_left|rewrite Rabs_pos_eq]; lra. Qed.
Lemma Rplus_cancel (y i : R) : y + i - y = i.
Proof. ring. Qed.
Lemma y_move s c : Rabs (st_y (true_move s c) - st_y s) <= Rabs (ct_delta_s c).
Proof.
  unfold true_move, true_y; cbv zeta; cbn [st_y]. set (d := sgn _). set (h := Rabs (ct_delta_s c)).
  rewrite (Rplus_cancel (st_y s)).
  assert (H0 : 0 <= h) by apply Rabs_pos. replace h with ((h - 0) * 1) at 2 by ring.
  apply abs_RInt_le_const; [exact H0| |].
  - apply (ex_RInt_continuous (V := R_CompleteNormedModule)). intros z _. apply (ex_derive_continuous (K := R_AbsRing) (V := R_NormedModule)). unfold heading. auto_derive. exact I.
  - intros t _. rewrite Rabs_mult. unfold d. rewrite sgn_abs, Rmult_1_l. pose proof (SIN_bound (heading (st_theta s) (ct_kappa c) (ct_sigma c) (sgn (ct_delta_s c)) t)). apply Rabs_le. lra.
Qed.
Lemma y_path cs : forall s, Rabs (st_y (true_path s cs) - st_y s) <= total_length cs.
Proof.
  induction cs as [|c cs IH]; intros s; unfold true_path; cbn [fold_left total_length fold_right].
  - rewrite Rminus_diag_eq, Rabs_R0 by reflexivity. lra.
  - fold (true_path (true_move s c) cs). fold (total_length cs). pose proof (IH (true_move s c)) as A. pose proof (y_move s c) as B.
    replace (st_y (true_path (true_move s c) cs) - st_y s) with ((st_y (true_path (true_move s c) cs) - st_y (true_move s c)) + (st_y (true_move s c) - st_y s)) by ring.
    eapply Rle_trans; [apply Rabs_triang|]. lra.
Qed.
Lemma y_miss s1 s2 cs g l : total_length cs <= l -> g <= Rabs (st_y s2 - st_y s1) -> g - l <= pos_dist (true_path s1 cs) s2.
Proof.
  intros T G. pose proof (y_path cs s1) as Y. apply Rle_trans with (Rabs (st_y (true_path s1 cs) - st_y s2)).
  - revert Y G. generalize (st_y (true_path s1 cs)) (st_y s1) (st_y s2). intros u v w Y G. pose proof (Rabs_triang (u - v) (- (u - w))) as R. rewrite Rabs_Ropp in R.
    replace (u - v + - (u - w)) with (w - v) in R by ring. lra.
  - unfold pos_dist. rewrite <- sqrt_Rsqr_abs. apply sqrt_le_1_alt. unfold Rsqr.
    match goal with |- ?d * ?d <= ?e ^ 2 + _ => pose proof (pow2_ge_0 e); generalize dependent e; generalize d; intros; nra end.
Qed.

(** ** The half turn of unit curvature and sharpness *)
Lemma tw_half : twopify (1 / 2) = 1 / 2.
Proof. pose proof PI_gt. apply twopify_id. unfold TWO_PI. lra. Qed.
Lemma unit_turn a q l f reg : deflection (circle a l f reg (hc_cc_param 1 1)) q = 1 / 2 -> hc_turn_length (circle a l f reg (hc_cc_param 1 1)) q = 1.
Proof.
  intros D. assert (H1 : 0 < 1) by lra. unfold hc_turn_length. cbv zeta. rewrite D. unfold hc_circular_deflection.
  pose proof (circle_fields a l f reg (hc_cc_param 1 1)) as H. cbv zeta in H. destruct H as (_ & _ & _ & _ & _ & _ & _ & _ & DM & K & KI & SG & _).
  destruct (param_nom 1 1 H1 H1) as (P1 & P2 & P3 & P4 & _). rewrite DM, P4, K, KI, SG, P1, P2, P3. replace (par_t 1 1) with (1 / 2) by (unfold par_t, cl_t; field). rewrite tw_half.
  assert (Z : circular_deflection (c_regular (circle a l f reg (hc_cc_param 1 1))) (1 / 2) (1 / 2) = 0).
  { unfold circular_deflection. pose proof PI_gt. destruct (Rlt_dec (1 / 2) (1 / 2)); [lra|]. rewrite !Rminus_diag_eq by reflexivity. destruct (c_regular _); [reflexivity|].
    rewrite Rabs_R0. destruct (Rlt_dec 0 _) as [_|N]; [reflexivity|]. exfalso. apply N. unfold TWO_PI. rewrite Rabs_left; lra. }
  rewrite Z. rewrite Rmult_0_r, Rabs_R0. destruct l; unfold sign; [rewrite Rabs_pos_eq|rewrite Rabs_pos_eq]; lra.
Qed.
Lemma unit_facts : 0 <= p_radius (hc_cc_param 1 1) <= 42 / 10 /\ 1 / 2 <= p_radius (hc_cc_param 1 1) * p_cos_mu (hc_cc_param 1 1) /\ 7 / 8 <= cos (1 / 2).
Proof.
  assert (H1 : 0 < 1) by lra. pose proof (radius_le 1 1 H1 H1) as RL. pose proof (radius_nonneg 1 1 H1 H1) as RP. pose proof (nom_Y_half 1 1 H1 H1) as Y.
  destruct (param_nom 1 1 H1 H1) as (_ & _ & _ & _ & _ & C & _). rewrite C. repeat split; try lra.
  replace (1 / 2) with (2 * (1 / 4)) by field. rewrite cos_2a_sin. pose proof (ParamProofs.sin_le (1 / 4) ltac:(lra)). pose proof PI_gt. assert (0 <= sin (1 / 4)) by (apply sin_ge_0; lra). nra.
Qed.
Definition unit_X : R := p_radius (hc_cc_param 1 1) * p_sin_mu (hc_cc_param 1 1).
Definition unit_Y : R := p_radius (hc_cc_param 1 1) * p_cos_mu (hc_cc_param 1 1).
(** A goal with a right turn circle around the centre of the left turn circle of the start, and the mirror image. *)
Definition side_start : State := mkState 0 0 0 0 1.
Definition side_goal : State := mkState (unit_X - sin (1 / 2)) (unit_Y + cos (1 / 2)) (1 / 2) (-1) 1.
Definition side_start' : State := mkState (- unit_X + sin (1 / 2)) (unit_Y + cos (1 / 2)) (- (1 / 2)) (-1) 1.
Definition side_goal' : State := mkState 0 0 0 0 1.
Lemma tw_0 : twopify 0 = 0.
Proof. pose proof PI_gt. apply twopify_id. unfold TWO_PI. lra. Qed.
Lemma tw_mhalf : twopify (- (1 / 2)) = 2 * PI - 1 / 2.
Proof. pose proof PI_gt. apply twopify_unique; [exists 1%Z; lra|unfold TWO_PI; lra]. Qed.

Lemma side_centres f1 f2 reg1 reg2 : let a := configuration (st_x side_start) (st_y side_start) (st_theta side_start) 0 in
  let b := configuration (st_x side_goal) (st_y side_goal) (st_theta side_goal) (-1) in
  f1 = true -> center_distance (circle a true f1 reg1 (hc_cc_param 1 1)) (circle b false f2 reg2 (rs_param 1)) = 0 /\
  hc_turn_length (circle a true f1 true (hc_cc_param 1 1)) b = 1 /\ hc_turn_length (circle a true f1 false (hc_cc_param 1 1)) b = 1.
Proof.
  intros a b F. subst f1. split.
  - pose proof (circle_off a true true reg1 (hc_cc_param 1 1)) as O1. destruct (rs_fields 1 b false f2 reg2) as (_ & _ & _ & _ & _ & _ & O2). unfold off in O1.
    apply pair_equal_spec in O1, O2. destruct O1 as [X1 Y1]. destruct O2 as [X2 Y2]. unfold center_distance. rewrite X1, Y1, X2, Y2.
    unfold a, b, pcf, side_start, side_goal, configuration; cbn [px py pt q_x q_y q_theta st_x st_y st_theta sign]. rewrite tw_0, tw_half, sin_0, cos_0. fold unit_X unit_Y.
    match goal with |- sqrt ?e = 0 => replace e with 0 by (field) end. apply sqrt_0.
  - assert (D : forall reg, deflection (circle a true true reg (hc_cc_param 1 1)) b = 1 / 2).
    { intros reg. unfold deflection. cbv zeta. destruct (circle_all a true true reg (hc_cc_param 1 1)) as (-> & -> & -> & _). cbn [andb orb negb]. unfold a, b, side_start, side_goal, configuration; cbn [q_theta st_theta].
      rewrite tw_0, tw_half. replace (1 / 2 - 0) with (1 / 2) by ring. apply tw_half. }
    split; apply unit_turn, D.
Qed.
Lemma side_centres' f1 f2 reg1 reg2 : let a := configuration (st_x side_start') (st_y side_start') (st_theta side_start') (-1) in
  let b := configuration (st_x side_goal') (st_y side_goal') (st_theta side_goal') 0 in
  f2 = false -> center_distance (circle a false f1 reg1 (rs_param 1)) (circle b true f2 reg2 (hc_cc_param 1 1)) = 0 /\
  hc_turn_length (circle b true f2 true (hc_cc_param 1 1)) a = 1 /\ hc_turn_length (circle b true f2 false (hc_cc_param 1 1)) a = 1.
Proof.
  intros a b F. subst f2. pose proof PI_gt. split.
  - pose proof (circle_off b true false reg2 (hc_cc_param 1 1)) as O1. destruct (rs_fields 1 a false f1 reg1) as (_ & _ & _ & _ & _ & _ & O2). unfold off in O1.
    apply pair_equal_spec in O1, O2. destruct O1 as [X1 Y1]. destruct O2 as [X2 Y2]. unfold center_distance. rewrite X1, Y1, X2, Y2.
    unfold a, b, pcf, side_start', side_goal', configuration; cbn [px py pt q_x q_y q_theta st_x st_y st_theta sign]. rewrite tw_0, tw_mhalf, sin_0, cos_0.
    replace (2 * PI - 1 / 2) with (- (1 / 2) + 2 * INR 1 * PI) by (cbn; ring). rewrite sin_period, cos_period, sin_neg, cos_neg. fold unit_X unit_Y.
    match goal with |- sqrt ?e = 0 => replace e with 0 by field end. apply sqrt_0.
  - assert (D : forall reg, deflection (circle b true false reg (hc_cc_param 1 1)) a = 1 / 2).
    { intros reg. unfold deflection. cbv zeta. destruct (circle_all b true false reg (hc_cc_param 1 1)) as (-> & -> & -> & _). cbn [andb orb negb]. unfold a, b, side_start', side_goal', configuration; cbn [q_theta st_theta].
      rewrite tw_0, tw_mhalf. apply twopify_unique; [exists 1%Z; lra|unfold TWO_PI; lra]. }
    split; apply unit_turn, D.
Qed.
Lemma side_gap : 11 / 8 <= Rabs (st_y side_goal - st_y side_start) /\ 11 / 8 <= Rabs (st_y side_goal' - st_y side_start').
Proof.
  destruct unit_facts as (_ & Y & C). unfold side_goal, side_start, side_goal', side_start'; cbn [st_y]. unfold unit_Y. split.
  - rewrite Rabs_pos_eq; lra.
  - rewrite Rabs_left; lra.
Qed.

(** ** Changing the curvature takes a length *)
Lemma chain_change S K cs : forall k0 k1, curvature_chain k0 cs k1 -> List.Forall (within_bounds K S) cs -> Rabs (k1 - k0) <= S * total_length cs.
Proof.
  induction cs as [|c cs IH]; intros k0 k1; cbn [curvature_chain total_length fold_right].
  - intros -> _. rewrite Rminus_diag_eq, Rabs_R0 by reflexivity. lra.
  - intros [E C] F. inversion F as [|? ? [W _] F']; subst. fold (total_length cs). specialize (IH _ _ C F').
    replace (k1 - ct_kappa c) with ((k1 - (ct_kappa c + ct_sigma c * Rabs (ct_delta_s c))) + ct_sigma c * Rabs (ct_delta_s c)) by ring.
    eapply Rle_trans; [apply Rabs_triang|]. rewrite (Rabs_mult (ct_sigma c)), Rabs_Rabsolu. pose proof (Rabs_pos (ct_delta_s c)). nra.
Qed.
(** A goal a hundredth ahead on the left circle of the start that asks for the opposite curvature. *)
Definition turn_start : State := mkState 0 0 0 1 1.
Definition turn_goal : State := mkState (sin (1 / 100)) (1 - cos (1 / 100)) (1 / 100) (-1) 1.
Lemma tw_cent : twopify (1 / 100) = 1 / 100.
Proof. pose proof PI_gt. apply twopify_id. unfold TWO_PI. lra. Qed.
Lemma turn_accepted : let a := configuration (st_x turn_start) (st_y turn_start) (st_theta turn_start) 1 in
  let b := configuration (st_x turn_goal) (st_y turn_goal) (st_theta turn_goal) (-1) in
  let c1 := circle a true true true (rs_param 1) in
  configuration_equal a b = false /\ configuration_on_hc_cc_circle c1 b = true /\ rs_turn_length c1 b = 1 / 100.
Proof.
  intros a b c1. assert (H1 : 0 < 1) by lra. pose proof PI_gt as PG. pose proof PI_4 as P4. destruct (facts_rs 1 c1 a true true true H1 eq_refl) as (S1 & EL1 & F1 & G1 & R1 & M1 & SM1 & CM1 & AK1 & AI1 & KQ1 & K1 & O1).
  assert (TB : q_theta b = 1 / 100) by (unfold b, turn_goal, configuration; cbn [q_theta st_theta]; apply tw_cent).
  assert (TA : q_theta a = 0) by (unfold a, turn_start, configuration; cbn [q_theta st_theta]; apply tw_0).
  split; [|split].
  - unfold configuration_equal. rewrite TA, TB. destruct (Rlt_dec epsilon (Rabs (1 / 100 - 0))) as [_|N]; [reflexivity|]. exfalso. apply N. rewrite Rabs_pos_eq by lra. unfold epsilon. lra.
  - unfold off, frame in O1. apply pair_equal_spec in O1. destruct O1 as [XC YC].
    unfold pcf in XC, YC. cbn [px py pt sign] in XC, YC. rewrite TA, sin_0, cos_0 in XC, YC. unfold a, turn_start, configuration in XC, YC; cbn [q_x q_y st_x st_y] in XC, YC.
    assert (X0 : c_xc c1 = 0) by (rewrite XC; field). assert (Y0 : c_yc c1 = 1) by (rewrite YC; field).
    unfold configuration_on_hc_cc_circle. rewrite X0, Y0, R1, EL1, F1, M1, TB.
    assert (XB : q_x b = sin (1 / 100)) by reflexivity. assert (YB : q_y b = 1 - cos (1 / 100)) by reflexivity. rewrite XB, YB.
    assert (PD : point_distance 0 1 (sin (1 / 100)) (1 - cos (1 / 100)) = 1).
    { unfold point_distance. replace ((sin (1 / 100) - 0) ^ 2 + (1 - cos (1 / 100) - 1) ^ 2) with 1; [apply sqrt_1|]. pose proof (sin2_cos2 (1 / 100)) as T. unfold Rsqr in T. lra. }
    rewrite PD. destruct (Rlt_dec epsilon (Rabs (1 - 1 / 1))) as [N|_]; [exfalso; replace (1 - 1 / 1) with 0 in N by field; rewrite Rabs_R0 in N; unfold epsilon in N; lra|].
    cbv zeta. replace (twopify _) with (1 / 100).
    + rewrite Rminus_diag_eq, Rabs_R0 by reflexivity. apply Num.Rltb_true. unfold epsilon. lra.
    + symmetry. apply twopify_unique; [|unfold TWO_PI; lra].
      pose proof (atan2_polar 1 (1 / 100 - PI / 2) ltac:(lra)) as A. rewrite !Rmult_1_l in A.
      replace (sin (1 / 100 - PI / 2)) with (1 - cos (1 / 100) - 1) in A by (rewrite sin_minus, sin_PI2, cos_PI2; ring).
      replace (cos (1 / 100 - PI / 2)) with (sin (1 / 100) - 0) in A by (rewrite cos_minus, sin_PI2, cos_PI2; ring).
      destruct A as [z A]. exists (- z)%Z. rewrite A, opp_IZR. unfold HALF_PI. lra.
  - unfold rs_turn_length. cbv zeta. unfold deflection, rs_circular_deflection. rewrite S1, EL1, F1, G1, TA, TB. cbn [andb orb]. replace (1 / 100 - 0) with (1 / 100) by ring. rewrite tw_cent, Rabs_mult, AI1, Rabs_pos_eq; lra.
Qed.

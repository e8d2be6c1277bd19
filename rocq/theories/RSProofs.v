(** * Proofs about the Reeds-Shepp word solvers *)
From Coq Require Import Reals ZArith List Bool Lra Lia Psatz.
From Verif Require Import Base ModelUtil ModelFresnel ModelIntegrate ModelDubins ModelRS Num
  UtilProofs SpecPath DubinsProofs DubinsPlan.
Import ListNotations.
Open Scope R_scope.

(** ** Equations of the word solvers *)

Lemma pify_add_pify_sub a b : ang_eq (a + pify (b - a)) b.
Proof.
  eapply ang_eq_trans; [apply ang_eq_add; [apply ang_eq_refl|apply pify_ang]|].
  apply ang_eq_of_eq. ring.
Qed.
Lemma pify_sub_pify_sub a b : ang_eq (a - pify (a - b)) b.
Proof.
  eapply ang_eq_trans; [apply ang_eq_sub; [apply ang_eq_refl|apply pify_ang]|].
  apply ang_eq_of_eq. ring.
Qed.
Lemma pify_0_of a : ang_eq a 0 -> pify a = 0.
Proof. intros H. pose proof PI_RGT_0. apply pify_unique; [apply ang_eq_sym; assumption|lra]. Qed.
Lemma pify_diff_0 a b : ang_eq a b -> pify (a - b) = 0.
Proof. intros [k H]. apply pify_0_of. exists k. lra. Qed.

Lemma atan2_of r a x y : 0 < r -> x = r * cos a -> y = r * sin a -> ang_eq (atan2 y x) a.
Proof. intros R -> ->. apply atan2_polar. assumption. Qed.

Lemma cos_PI_shift x : cos (x + PI) = - cos x.
Proof. rewrite neg_cos. reflexivity. Qed.
Lemma sin_PI_shift x : sin (x + PI) = - sin x.
Proof. rewrite neg_sin. reflexivity. Qed.
Lemma cos_HPI_shift x : cos (x + PI / 2) = - sin x.
Proof. rewrite cos_plus, cos_PI2, sin_PI2. ring. Qed.
Lemma sin_HPI_shift x : sin (x + PI / 2) = cos x.
Proof. rewrite sin_plus, cos_PI2, sin_PI2. ring. Qed.

Lemma sqrt_sub4 rho : 2 <= rho -> sqrt (rho * rho - 4) * sqrt (rho * rho - 4) = rho * rho - 4.
Proof. intros H. apply sqrt_sqrt. nra. Qed.

Lemma eqLpSpLp x y phi t u v : LpSpLp x y phi = Some (t, u, v) ->
  u * cos t + sin phi = x /\ u * sin t - cos phi + 1 = y /\ ang_eq (t + v) phi.
Proof.
  unfold LpSpLp. destruct (polar _ _) as [u' t'] eqn:P. apply polar_spec in P.
  destruct (Rle_dec _ t'); [|discriminate]. destruct (Rle_dec _ (pify _)); [|discriminate].
  intros E; injection E as <- <- <-. split; [lra|]. split; [lra|]. apply pify_add_pify_sub.
Qed.

Lemma eqLpSpRp x y phi t u v : valLpSpRp x y phi = Some (t, u, v) ->
  2 * sin t + u * cos t - sin phi = x /\ -2 * cos t + u * sin t + cos phi + 1 = y /\
  ang_eq (t - v) phi.
Proof.
  unfold valLpSpRp. destruct (polar _ _) as [u1 t1] eqn:P. apply polar_spec in P.
  destruct P as (U & X & Y & _).
  destruct (Rle_dec 4 (u1 * u1)) as [G|]; [|discriminate].
  intros E; injection E as <- <- <-.
  set (u := sqrt (u1 * u1 - 4)).
  assert (Q : u * u = u1 * u1 - 4) by (apply sqrt_sqrt; lra).
  destruct (atan2_pair u 2) as (r & _ & R0 & R1 & R2 & R3).
  assert (r = u1) by (apply Rsqr_inj; unfold Rsqr; lra). subst r.
  set (th := atan2 2 u) in *. pose proof (pify_ang (t1 + th)) as A.
  set (t := pify (t1 + th)) in *.
  assert (B : ang_eq t1 (t - th)).
  { eapply ang_eq_trans; [|apply ang_eq_sub; [apply ang_eq_sym; exact A|apply ang_eq_refl]].
    apply ang_eq_of_eq. ring. }
  rewrite (ang_eq_cos _ _ B) in X. rewrite (ang_eq_sin _ _ B) in Y.
  rewrite cos_minus in X. rewrite sin_minus in Y.
  split; [|split; [|apply pify_sub_pify_sub]].
  - assert (u1 * (cos t * cos th + sin t * sin th) = u * cos t + 2 * sin t)
      by (rewrite <- R2, <- R3; ring). lra.
  - assert (u1 * (sin t * cos th - cos t * sin th) = u * sin t - 2 * cos t)
      by (rewrite <- R2, <- R3; ring). lra.
Qed.

Lemma eqLpRmL x y phi t u v : valLpRmL x y phi = Some (t, u, v) ->
  2 * (sin t - sin (t - u)) + sin phi = x /\ 2 * (- cos t + cos (t - u)) - cos phi + 1 = y /\
  ang_eq (t - u + v) phi.
Proof.
  unfold valLpRmL. destruct (polar _ _) as [u1 th] eqn:P. apply polar_spec in P.
  destruct P as (U & X & Y & _).
  destruct (Rle_dec u1 4) as [G|]; [|discriminate].
  intros E; injection E as <- <- <-.
  set (h := asin (1 / 4 * u1)).
  assert (H : sin h = 1 / 4 * u1) by (apply sin_asin; lra).
  set (t := pify _).
  assert (A : ang_eq t (th - h + PI)).
  { eapply ang_eq_trans; [apply pify_ang|]. apply ang_eq_of_eq. field. }
  assert (B : ang_eq (t - (-2) * h) (th + h + PI)).
  { eapply ang_eq_trans; [apply ang_eq_sub; [exact A|apply ang_eq_refl]|].
    apply ang_eq_of_eq. ring. }
  rewrite (ang_eq_sin _ _ A), (ang_eq_cos _ _ A), (ang_eq_sin _ _ B), (ang_eq_cos _ _ B).
  rewrite !sin_PI_shift, !cos_PI_shift, !sin_minus, !sin_plus, !cos_minus, !cos_plus.
  split; [|split].
  - replace (2 * _ + _) with (4 * cos th * sin h + sin phi) by ring. rewrite H. lra.
  - replace (2 * _ - _) with (4 * sin th * sin h - cos phi) by ring. rewrite H. lra.
  - eapply ang_eq_trans; [apply ang_eq_add; [apply ang_eq_refl|apply pify_ang]|].
    apply ang_eq_of_eq. ring.
Qed.

Lemma cos_2a' u : cos (2 * u) = 2 * cos u * cos u - 1.
Proof. apply cos_2a_cos. Qed.
Lemma sin_2a' u : sin (2 * u) = 2 * sin u * cos u.
Proof. apply sin_2a. Qed.

Lemma eqLpRupLumRm x y phi t u v : valLpRupLumRm x y phi = Some (t, u, v) ->
  2 * (sin t - sin (t - u) + sin (t - 2 * u)) - sin phi = x /\
  2 * (- cos t + cos (t - u) - cos (t - 2 * u)) + cos phi + 1 = y /\
  ang_eq (t - 2 * u - v) phi.
Proof.
  unfold valLpRupLumRm. set (xi := x + sin phi). set (eta := y - 1 - cos phi).
  destruct (atan2_pair xi eta) as (s & Es & S0 & S1 & X & Y). rewrite <- Es.
  set (al := atan2 eta xi) in *.
  destruct (Rle_dec _ 1) as [G|]; [|discriminate].
  unfold tauOmega. intros E; injection E as E1 E2 E3.
  assert (C : cos u = 1 / 4 * (2 + s)) by (rewrite <- E2; apply cos_acos; lra).
  rewrite E2 in *.
  assert (D : ang_eq (pify (u - - u)) (2 * u)).
  { eapply ang_eq_trans; [apply pify_ang|]. apply ang_eq_of_eq. ring. }
  set (del := pify (u - - u)) in *.
  rewrite (ang_eq_sin _ _ D), (ang_eq_cos _ _ D), cos_2a', sin_2a', cos_neg in E1, E3.
  assert (T2 : ~ (2 * (2 * cos u * cos u - 1 - cos u - cos u) + 3 < 0))
    by (pose proof (sq_ge0 (2 * cos u - 1)); lra).
  destruct (Rlt_dec _ 0) in E1; [contradiction|]. destruct (Rlt_dec _ 0) in E3; [contradiction|].
  rewrite E1 in E3.
  assert (V : ang_eq (t - 2 * u - v) phi).
  { rewrite <- E3. replace (t - u + - u - phi) with (t - 2 * u - phi) by ring. apply pify_sub_pify_sub. }
  assert (K : s = 2 * (2 * cos u - 1)) by lra.
  assert (R : forall f g : R, f = s * g -> s = 0 -> f = 0) by (intros; nra).
  assert (F : (sin t - sin (t - u) + sin (t - 2 * u)) = (2 * cos u - 1) * sin (t - u)).
  { replace (sin t) with (sin ((t - u) + u)) by (f_equal; ring).
    replace (sin (t - 2 * u)) with (sin ((t - u) - u)) by (f_equal; ring). generalize (t - u); intros a.
    rewrite sin_plus, sin_minus. ring. }
  assert (F' : (- cos t + cos (t - u) - cos (t - 2 * u)) = - (2 * cos u - 1) * cos (t - u)).
  { replace (cos t) with (cos ((t - u) + u)) by (f_equal; ring).
    replace (cos (t - 2 * u)) with (cos ((t - u) - u)) by (f_equal; ring). generalize (t - u); intros a.
    rewrite cos_plus, cos_minus. ring. }
  rewrite F, F'.
  destruct (Req_dec s 0) as [Z|Z].
  - assert (xi = 0) by (rewrite <- X, Z; ring). assert (eta = 0) by (rewrite <- Y, Z; ring).
    unfold xi, eta in *. replace (2 * cos u - 1) with 0 by lra.
    split; [lra|]. split; [lra|exact V].
  - assert (T : ang_eq t (al + u + PI / 2)).
    { rewrite <- E1. eapply ang_eq_trans; [apply pify_ang|].
      apply (atan2_of (s * (2 * cos u - 1))).
      - assert (0 < s) by lra. apply Rmult_lt_0_compat; lra.
      - rewrite cos_HPI_shift, sin_plus. rewrite <- X, <- Y. ring.
      - rewrite sin_HPI_shift, cos_plus. rewrite <- X, <- Y. ring. }
    assert (T' : ang_eq (t - u) (al + PI / 2)).
    { eapply ang_eq_trans; [apply ang_eq_sub; [exact T|apply ang_eq_refl]|]. apply ang_eq_of_eq. ring. }
    rewrite (ang_eq_sin _ _ T'), (ang_eq_cos _ _ T'), sin_HPI_shift, cos_HPI_shift.
    split; [|split; [|exact V]].
    + replace (2 * ((2 * cos u - 1) * cos al)) with (s * cos al) by (rewrite K; ring).
      rewrite X. unfold xi. ring.
    + replace (2 * (- (2 * cos u - 1) * - sin al)) with (s * sin al) by (rewrite K; ring).
      rewrite Y. unfold eta. ring.
Qed.

Lemma eqLpRumLumRp x y phi t u v : valLpRumLumRp x y phi = Some (t, u, v) ->
  4 * sin t - 2 * sin (t - u) - sin phi = x /\ -4 * cos t + 2 * cos (t - u) + cos phi + 1 = y /\
  ang_eq (t - v) phi.
Proof.
  unfold valLpRumLumRp. set (xi := x + sin phi). set (eta := y - 1 - cos phi).
  destruct (Rle_dec 0 _) as [G0|]; [|discriminate].
  destruct (Rle_dec _ 1) as [G|]; [|discriminate].
  destruct (Rle_dec _ (- acos _)) as [_|]; [|discriminate].
  unfold tauOmega. intros E; injection E as E1 E2 E3.
  assert (C : cos u = (20 - xi * xi - eta * eta) / 16) by (rewrite <- E2, cos_neg; apply cos_acos; lra).
  rewrite E2 in *.
  assert (D : pify (u - u) = 0) by (apply pify_diff_0, ang_eq_refl). rewrite D, sin_0, cos_0 in *.
  pose proof (COS_bound u) as CB.
  assert (T2 : ~ (2 * (1 - cos u - cos u) + 3 < 0)) by lra.
  destruct (Rlt_dec _ 0) in E1; [contradiction|]. destruct (Rlt_dec _ 0) in E3; [contradiction|].
  rewrite E1 in E3.
  replace (t - u + u - phi) with (t - phi) in E3 by ring.
  pose proof (sin2_cos2' u) as Q.
  assert (N : xi * xi + eta * eta = 20 - 16 * cos u) by lra.
  destruct (atan2_pair (xi * (sin u - 0) + eta * (cos u - 1 - 1))
                       (eta * (sin u - 0) - xi * (cos u - 1 - 1))) as (r & _ & R0 & R1 & R2 & R3).
  assert (R : r = 2 * (5 - 4 * cos u)).
  { apply Rsqr_inj; [assumption|lra|]. unfold Rsqr. rewrite R1.
    transitivity ((xi * xi + eta * eta) * (sin u * sin u + cos u * cos u + 4 - 4 * cos u)); [ring|].
    rewrite Q, N. ring. }
  assert (A : ang_eq t (atan2 (eta * (sin u - 0) - xi * (cos u - 1 - 1))
                              (xi * (sin u - 0) + eta * (cos u - 1 - 1)))).
  { rewrite <- E1. apply pify_ang. }
  rewrite <- (ang_eq_cos _ _ A) in R2. rewrite <- (ang_eq_sin _ _ A) in R3.
  assert (r <> 0) by lra.
  split; [|split].
  - rewrite sin_minus.
    assert (r * (4 * sin t - 2 * (sin t * cos u - cos t * sin u)) = r * xi).
    { transitivity ((r * sin t) * (4 - 2 * cos u) + 2 * sin u * (r * cos t)); [ring|].
      rewrite R2, R3, R.
      transitivity (2 * xi * (sin u * sin u + cos u * cos u + 4 - 4 * cos u)); [ring|].
      rewrite Q. ring. }
    apply Rmult_eq_reg_l in H0; [|assumption]. unfold xi in H0. lra.
  - rewrite cos_minus.
    assert (r * (-4 * cos t + 2 * (cos t * cos u + sin t * sin u)) = r * eta).
    { transitivity (- (r * cos t) * (4 - 2 * cos u) + 2 * sin u * (r * sin t)); [ring|].
      rewrite R2, R3, R.
      transitivity (2 * eta * (sin u * sin u + cos u * cos u + 4 - 4 * cos u)); [ring|].
      rewrite Q. ring. }
    apply Rmult_eq_reg_l in H0; [|assumption]. unfold eta in H0. lra.
  - rewrite <- E3. apply pify_sub_pify_sub.
Qed.

Lemma eqLpRmSmLm x y phi t u v : valLpRmSmLm x y phi = Some (t, u, v) ->
  2 * (sin t - cos t) - u * sin t + sin phi = x /\
  -2 * (sin t + cos t) + u * cos t - cos phi + 1 = y /\ ang_eq (t + PI / 2 + v) phi.
Proof.
  unfold valLpRmSmLm. destruct (polar _ _) as [rho th] eqn:P. apply polar_spec in P.
  destruct P as (U & X & Y & _).
  destruct (Rle_dec 2 rho) as [G|]; [|discriminate].
  intros E; injection E as <- <- <-.
  pose proof (sqrt_sub4 rho G) as Q. set (r := sqrt (rho * rho - 4)) in *.
  destruct (atan2_pair (-2) r) as (q & _ & R0 & R1 & R2 & R3).
  assert (q = rho) by (apply Rsqr_inj; unfold Rsqr; lra). subst q.
  set (b := atan2 r (-2)) in *. pose proof (pify_ang (th + b)) as A. set (t := pify (th + b)) in *.
  assert (B : ang_eq th (t - b)).
  { eapply ang_eq_trans; [|apply ang_eq_sub; [apply ang_eq_sym; exact A|apply ang_eq_refl]].
    apply ang_eq_of_eq. ring. }
  rewrite (ang_eq_cos _ _ B) in X. rewrite (ang_eq_sin _ _ B) in Y.
  rewrite cos_minus in X. rewrite sin_minus in Y.
  split; [|split].
  - assert (rho * (cos t * cos b + sin t * sin b) = -2 * cos t + r * sin t)
      by (rewrite <- R2, <- R3; ring). lra.
  - assert (rho * (sin t * cos b - cos t * sin b) = -2 * sin t - r * cos t)
      by (rewrite <- R2, <- R3; ring). lra.
  - eapply ang_eq_trans; [apply ang_eq_add; [apply ang_eq_refl|apply pify_ang]|].
    apply ang_eq_of_eq. field.
Qed.

Lemma eqLpRmSmRm x y phi t u v : valLpRmSmRm x y phi = Some (t, u, v) ->
  2 * sin t - sin phi - u * sin t = x /\ -2 * cos t + cos phi + u * cos t + 1 = y /\
  ang_eq (t + PI / 2 - v) phi.
Proof.
  unfold valLpRmSmRm. destruct (polar _ _) as [rho th] eqn:P. apply polar_spec in P.
  destruct P as (U & X & Y & _).
  destruct (Rle_dec 2 rho) as [G|]; [|discriminate].
  intros E; injection E as <- <- <-.
  split; [|split]; [lra|lra|].
  replace (1 / 2 * PI) with (PI / 2) by field. apply pify_sub_pify_sub.
Qed.

Lemma eqLpRmSLmRp x y phi t u v : valLpRmSLmRp x y phi = Some (t, u, v) ->
  4 * sin t - 2 * cos t - u * sin t - sin phi = x /\
  -4 * cos t - 2 * sin t + u * cos t + cos phi + 1 = y /\ ang_eq (t - v) phi.
Proof.
  unfold valLpRmSLmRp. set (xi := x + sin phi). set (eta := y - 1 - cos phi).
  destruct (polar xi eta) as [rho th] eqn:P.
  assert (P' : rho * rho = xi * xi + eta * eta).
  { unfold polar in P. injection P as <- _. apply sqrt_sqrt. nra. }
  clear P.
  destruct (Rle_dec 2 rho) as [G|]; [|discriminate].
  destruct (Rle_dec _ RS_ZERO) as [_|]; [|discriminate].
  intros E; injection E as <- <- <-.
  pose proof (sqrt_sub4 rho G) as Q. set (w := sqrt (rho * rho - 4)) in *.
  set (u := 4 - w). replace (4 - u) with w by (unfold u; ring). replace (u - 4) with (- w) by (unfold u; ring).
  destruct (atan2_pair (-2 * xi + - w * eta) (w * xi - 2 * eta)) as (r & _ & R0 & R1 & R2 & R3).
  assert (R : r = rho * rho).
  { apply Rsqr_inj; [assumption|nra|]. unfold Rsqr. rewrite R1.
    transitivity ((xi * xi + eta * eta) * (w * w + 4)); [ring|]. rewrite Q, <- P'. ring. }
  set (b := atan2 (w * xi - 2 * eta) (-2 * xi + - w * eta)) in *.
  pose proof (pify_ang b) as A. set (t := pify b) in *.
  rewrite <- (ang_eq_cos _ _ A) in R2. rewrite <- (ang_eq_sin _ _ A) in R3.
  assert (r <> 0) by (rewrite R; nra).
  split; [|split; [|apply pify_sub_pify_sub]].
  - assert (r * (w * sin t - 2 * cos t) = r * xi).
    { transitivity (w * (r * sin t) - 2 * (r * cos t)); [ring|]. rewrite R2, R3.
      transitivity ((w * w + 4) * xi); [ring|]. rewrite Q, R. ring. }
    apply Rmult_eq_reg_l in H0; [|assumption]. unfold xi, u in *. lra.
  - assert (r * (- w * cos t - 2 * sin t) = r * eta).
    { transitivity (- w * (r * cos t) - 2 * (r * sin t)); [ring|]. rewrite R2, R3.
      transitivity ((w * w + 4) * eta); [ring|]. rewrite Q, R. ring. }
    apply Rmult_eq_reg_l in H0; [|assumption]. unfold eta, u in *. lra.
Qed.

(** ** C21: the assertions hold *)

Lemma abs_zero_lt a : a = 0 -> Rabs a < RS_EPS.
Proof. intros ->. unfold RS_EPS. rewrite Rabs_R0. lra. Qed.

Lemma rs_asserts x y phi t u v :
  (LpSpLp x y phi = Some (t, u, v) -> assertLpSpLp x y phi t u v) /\
  (valLpSpRp x y phi = Some (t, u, v) -> assertLpSpRp x y phi t u v) /\
  (valLpRmL x y phi = Some (t, u, v) -> assertLpRmL x y phi t u v) /\
  (valLpRupLumRm x y phi = Some (t, u, v) -> assertLpRupLumRm x y phi t u v) /\
  (valLpRumLumRp x y phi = Some (t, u, v) -> assertLpRumLumRp x y phi t u v) /\
  (valLpRmSmLm x y phi = Some (t, u, v) -> assertLpRmSmLm x y phi t u v) /\
  (valLpRmSmRm x y phi = Some (t, u, v) -> assertLpRmSmRm x y phi t u v) /\
  (valLpRmSLmRp x y phi = Some (t, u, v) -> assertLpRmSLmRp x y phi t u v).
Proof.
  unfold assertLpSpLp, assertLpSpRp, assertLpRmL, assertLpRupLumRm, assertLpRumLumRp, assertLpRmSmLm,
    assertLpRmSmRm, assertLpRmSLmRp.
  split; [|split; [|split; [|split; [|split; [|split; [|split]]]]]]; intros E.
  - apply eqLpSpLp in E. destruct E as (X & Y & A). repeat split; apply abs_zero_lt; try lra. apply pify_diff_0, A.
  - apply eqLpSpRp in E. destruct E as (X & Y & A). repeat split; apply abs_zero_lt; try lra. apply pify_diff_0, A.
  - apply eqLpRmL in E. destruct E as (X & Y & A). repeat split; apply abs_zero_lt; try lra. apply pify_diff_0, A.
  - apply eqLpRupLumRm in E. destruct E as (X & Y & A). repeat split; apply abs_zero_lt; try lra. apply pify_diff_0, A.
  - apply eqLpRumLumRp in E. destruct E as (X & Y & A). repeat split; apply abs_zero_lt; try lra. apply pify_diff_0, A.
  - apply eqLpRmSmLm in E. destruct E as (X & Y & A). repeat split; apply abs_zero_lt; try lra. apply pify_diff_0, A.
  - apply eqLpRmSmRm in E. destruct E as (X & Y & A).
    assert (B : ang_eq (t - v) (phi - PI / 2)).
    { eapply ang_eq_trans; [|apply ang_eq_sub; [exact A|apply ang_eq_refl]]. apply ang_eq_of_eq. ring. }
    rewrite (ang_eq_cos _ _ B), (ang_eq_sin _ _ B), cos_minus, sin_minus, cos_PI2, sin_PI2.
    repeat split; apply abs_zero_lt; try lra. apply pify_diff_0, A.
  - apply eqLpRmSLmRp in E. destruct E as (X & Y & A). repeat split; apply abs_zero_lt; try lra. apply pify_diff_0, A.
Qed.

(** * Model of the extended Kalman filter and of integrate_with_covariance *)
From Coq Require Import Reals ZArith List Bool.
From Verif Require Import Base ModelUtil ModelFresnel ModelIntegrate.
Import ListNotations.
Open Scope R_scope.

(** Eigen matrices used by include/steering_functions/filter/ekf.hpp:28-31 (Matrix2d, Matrix3d,
    Matrix32d, Matrix23d), entries row by row. The operations below are Eigen's products, sums and
    transposes as used in src/filter/ekf.cpp:212-258. *)
Record M33 := mkM33 { m00 : R; m01 : R; m02 : R; m10 : R; m11 : R; m12 : R; m20 : R; m21 : R; m22 : R }.
Record M32 := mkM32 { n00 : R; n01 : R; n10 : R; n11 : R; n20 : R; n21 : R }.
Record M23 := mkM23 { k00 : R; k01 : R; k02 : R; k10 : R; k11 : R; k12 : R }.
Record M22 := mkM22 { q00 : R; q01 : R; q10 : R; q11 : R }.

(** Products, src/filter/ekf.cpp:223, 228-229, 245-253. *)
Definition mul33 (A B : M33) : M33 :=
  mkM33 (m00 A * m00 B + m01 A * m10 B + m02 A * m20 B)
        (m00 A * m01 B + m01 A * m11 B + m02 A * m21 B)
        (m00 A * m02 B + m01 A * m12 B + m02 A * m22 B)
        (m10 A * m00 B + m11 A * m10 B + m12 A * m20 B)
        (m10 A * m01 B + m11 A * m11 B + m12 A * m21 B)
        (m10 A * m02 B + m11 A * m12 B + m12 A * m22 B)
        (m20 A * m00 B + m21 A * m10 B + m22 A * m20 B)
        (m20 A * m01 B + m21 A * m11 B + m22 A * m21 B)
        (m20 A * m02 B + m21 A * m12 B + m22 A * m22 B).
Definition mul32_22 (A : M32) (Q : M22) : M32 :=
  mkM32 (n00 A * q00 Q + n01 A * q10 Q) (n00 A * q01 Q + n01 A * q11 Q)
        (n10 A * q00 Q + n11 A * q10 Q) (n10 A * q01 Q + n11 A * q11 Q)
        (n20 A * q00 Q + n21 A * q10 Q) (n20 A * q01 Q + n21 A * q11 Q).
Definition mul32_23 (A : M32) (B : M23) : M33 :=
  mkM33 (n00 A * k00 B + n01 A * k10 B) (n00 A * k01 B + n01 A * k11 B) (n00 A * k02 B + n01 A * k12 B)
        (n10 A * k00 B + n11 A * k10 B) (n10 A * k01 B + n11 A * k11 B) (n10 A * k02 B + n11 A * k12 B)
        (n20 A * k00 B + n21 A * k10 B) (n20 A * k01 B + n21 A * k11 B) (n20 A * k02 B + n21 A * k12 B).

(** Sums and transposes, src/filter/ekf.cpp:223, 228-229, 245-253. *)
Definition add33 (A B : M33) : M33 :=
  mkM33 (m00 A + m00 B) (m01 A + m01 B) (m02 A + m02 B) (m10 A + m10 B) (m11 A + m11 B) (m12 A + m12 B)
        (m20 A + m20 B) (m21 A + m21 B) (m22 A + m22 B).
Definition sub33 (A B : M33) : M33 :=
  mkM33 (m00 A - m00 B) (m01 A - m01 B) (m02 A - m02 B) (m10 A - m10 B) (m11 A - m11 B) (m12 A - m12 B)
        (m20 A - m20 B) (m21 A - m21 B) (m22 A - m22 B).
Definition tr33 (A : M33) : M33 :=
  mkM33 (m00 A) (m10 A) (m20 A) (m01 A) (m11 A) (m21 A) (m02 A) (m12 A) (m22 A).
Definition tr32 (A : M32) : M23 := mkM23 (n00 A) (n10 A) (n20 A) (n01 A) (n11 A) (n21 A).

(** [Matrix3d::inverse()] at src/filter/ekf.cpp:246: cofactors times 1/determinant; [None] (entries
    that are not finite) if the determinant is zero, which the code does not check. *)
Definition det33 (A : M33) : R :=
  m00 A * (m11 A * m22 A - m12 A * m21 A) - m01 A * (m10 A * m22 A - m12 A * m20 A) +
  m02 A * (m10 A * m21 A - m11 A * m20 A).
Definition inv33 (A : M33) : option M33 :=
  let d := det33 A in
  if Req_EM_T d 0 then None
  else Some (mkM33
    ((m11 A * m22 A - m12 A * m21 A) * (1 / d)) ((m02 A * m21 A - m01 A * m22 A) * (1 / d))
    ((m01 A * m12 A - m02 A * m11 A) * (1 / d)) ((m12 A * m20 A - m10 A * m22 A) * (1 / d))
    ((m00 A * m22 A - m02 A * m20 A) * (1 / d)) ((m02 A * m10 A - m00 A * m12 A) * (1 / d))
    ((m10 A * m21 A - m11 A * m20 A) * (1 / d)) ((m01 A * m20 A - m00 A * m21 A) * (1 / d))
    ((m00 A * m11 A - m01 A * m10 A) * (1 / d))).

(** src/filter/ekf.cpp:26-29: the member I_. *)
Definition I33 : M33 := mkM33 1 0 0 0 1 0 0 0 1.

(** An array [double[16]] (include/steering_functions/steering_functions.hpp:52-61). *)
Definition Arr16 : Type := nat -> R.

(** include/steering_functions/steering_functions.hpp:52-61: default initialisation. *)
Definition arr_zero : Arr16 := fun _ => 0.

(** src/filter/ekf.cpp:39-50 *)
Definition covariance_to_eigen (c : Arr16) : M33 :=
  mkM33 (c 0%nat) (c 1%nat) (c 2%nat) (c 4%nat) (c 5%nat) (c 6%nat) (c 8%nat) (c 9%nat) (c 10%nat).

(** src/filter/ekf.cpp:52-61; the other seven entries of the array keep their value. *)
Definition eigen_to_covariance (m : M33) (c : Arr16) : Arr16 := fun i =>
  match i with
  | 0 => m00 m | 1 => m01 m | 2 => m02 m
  | 4 => m10 m | 5 => m11 m | 6 => m12 m
  | 8 => m20 m | 9 => m21 m | 10 => m22 m
  | _ => c i
  end%nat.

(** include/steering_functions/steering_functions.hpp:79-114: Motion_Noise, Measurement_Noise and
    Controller, set by src/filter/ekf.cpp:31-37. *)
Record Filter := mkFilter
  { alpha1 : R; alpha2 : R; alpha3 : R; alpha4 : R; std_x : R; std_y : R; std_theta : R;
    k1 : R; k2 : R; k3 : R }.

(** src/filter/ekf.cpp:63-164, over the two Fresnel functions [fS], [fC] called in lines 89-90; the
    matrices are zero before the call (src/filter/ekf.cpp:219-220). *)
Definition motion_jacobi (fS fC : R -> R) (state : State) (control : Control) (h : R) : M33 * M32 :=
  let d := sgn (ct_delta_s control) in
  let kappa := st_kappa state in
  let theta := st_theta state in
  let sigma := ct_sigma control in
  if Rlt_dec epsilon (Rabs sigma) then
    let sgn_sigma := sgn sigma in
    let abs_sigma := Rabs sigma in
    let sqrt_sigma_inv := 1 / sqrt abs_sigma in
    let k1 := theta - (1 / 2) * d * kappa * kappa / sigma in
    let k2 := SQRT_PI_INV * sqrt_sigma_inv * (abs_sigma * h + sgn_sigma * kappa) in
    let k3 := SQRT_PI_INV * sqrt_sigma_inv * sgn_sigma * kappa in
    let k4 := k1 + d * sgn_sigma * HALF_PI * k2 * k2 in
    let k5 := k1 + d * sgn_sigma * HALF_PI * k3 * k3 in
    let dC := fC k2 - fC k3 in
    let dS := fS k2 - fS k3 in
    (mkM33 1 0 (SQRT_PI * sqrt_sigma_inv * (- d * sin k1 * dC - sgn_sigma * cos k1 * dS))
           0 1 (SQRT_PI * sqrt_sigma_inv * (d * cos k1 * dC - sgn_sigma * sin k1 * dS))
           0 0 1,
     mkM32 (cos k4)
           (SQRT_PI * sqrt_sigma_inv * kappa * (sgn_sigma * sin k1 * dC + d * cos k1 * dS) / abs_sigma
            + d * (cos k4 - cos k5) / sigma)
           (sin k4)
           (SQRT_PI * sqrt_sigma_inv * kappa * (- sgn_sigma * cos k1 * dC + d * sin k1 * dS) / abs_sigma
            + d * (sin k4 - sin k5) / sigma)
           (kappa + sigma * h) (d * h))
  else if Rlt_dec epsilon (Rabs kappa) then
    let k9 := theta + d * h * kappa in
    (mkM33 1 0 ((- cos theta + cos k9) / kappa) 0 1 ((- sin theta + sin k9) / kappa) 0 0 1,
     mkM32 (cos k9) ((sin theta - sin k9) / (kappa * kappa) + d * h * cos k9 / kappa)
           (sin k9) ((- cos theta + cos k9) / (kappa * kappa) + d * h * sin k9 / kappa)
           kappa (d * h))
  else
    (mkM33 1 0 (- d * h * sin theta) 0 1 (d * h * cos theta) 0 0 1,
     mkM32 (cos theta) 0 (sin theta) 0 kappa (d * h)).

(** src/filter/ekf.cpp:63-164 *)
Definition get_motion_jacobi : State -> Control -> R -> M33 * M32 := motion_jacobi fresnelS fresnelC.

(** src/filter/ekf.cpp:166-169 *)
Definition get_observation_jacobi : M33 := I33.

(** src/filter/ekf.cpp:171-179 *)
Definition get_motion_covariance (f : Filter) (state : State) (h : R) : M22 :=
  mkM22 (alpha1 f * h * h + alpha2 f * st_kappa state * st_kappa state) 0
        0 (alpha3 f * h * h + alpha4 f * st_kappa state * st_kappa state).

(** src/filter/ekf.cpp:181-188 *)
Definition get_observation_covariance (f : Filter) : M33 :=
  mkM33 (std_x f * std_x f) 0 0 0 (std_y f * std_y f) 0 0 0 (std_theta f * std_theta f).

(** src/filter/ekf.cpp:190-197 *)
Definition get_controller_gain (f : Filter) (control : Control) : M23 :=
  mkM23 (k1 f) 0 0 0 (k2 f) (sgn (ct_delta_s control) * k3 f).

(** src/filter/ekf.cpp:199-210 *)
Definition get_rotation_matrix (angle : R) : M33 :=
  mkM33 (cos angle) (sin angle) 0 (- sin angle) (cos angle) 0 0 0 1.

(** The three arrays of include/steering_functions/steering_functions.hpp:46-62. *)
Record Cov := mkCov { Sigma : Arr16; Lambda : Arr16; covariance : Arr16 }.

(** include/steering_functions/steering_functions.hpp:52-61: default initialisation. *)
Definition cov_zero : Cov := mkCov arr_zero arr_zero arr_zero.

(** src/filter/ekf.cpp:212-234; [out] are the arrays of [state_pred] before the call. *)
Definition predict (f : Filter) (state : State) (cov : Cov) (control : Control) (h : R) (out : Cov) : Cov :=
  let S := covariance_to_eigen (Sigma cov) in
  let L := covariance_to_eigen (Lambda cov) in
  let '(F_x, F_u) := get_motion_jacobi state control h in
  let Q := get_motion_covariance f state h in
  let S_pred := add33 (mul33 (mul33 F_x S) (tr33 F_x)) (mul32_23 (mul32_22 F_u Q) (tr32 F_u)) in
  let K := get_controller_gain f control in
  let R_1I := get_rotation_matrix (st_theta state) in
  let F_K := sub33 F_x (mul33 (mul32_23 F_u K) R_1I) in
  let L_pred := mul33 (mul33 F_K L) (tr33 F_K) in
  mkCov (eigen_to_covariance S_pred (Sigma out)) (eigen_to_covariance L_pred (Lambda out))
        (eigen_to_covariance (add33 S_pred L_pred) (covariance out)).

(** src/filter/ekf.cpp:236-258; [None]: the innovation covariance is singular, the gain is not
    finite. *)
Definition update (f : Filter) (cov : Cov) (out : Cov) : option Cov :=
  let S_pred := covariance_to_eigen (Sigma cov) in
  let L_pred := covariance_to_eigen (Lambda cov) in
  let H_x := get_observation_jacobi in
  let R := get_observation_covariance f in
  let S_xz := mul33 S_pred (tr33 H_x) in
  let S_z := add33 (mul33 H_x S_xz) R in
  flet S_z_inv := inv33 S_z in
  let L := mul33 S_xz S_z_inv in
  let I_LH_x := sub33 I33 (mul33 L H_x) in
  let S_corr := add33 (mul33 (mul33 I_LH_x S_pred) (tr33 I_LH_x)) (mul33 (mul33 L R) (tr33 L)) in
  let L_corr := add33 L_pred (mul33 L (tr33 S_xz)) in
  Some (mkCov (eigen_to_covariance S_corr (Sigma out)) (eigen_to_covariance L_corr (Lambda out))
              (eigen_to_covariance (add33 S_corr L_corr) (covariance out))).

(** State_With_Covariance (include/steering_functions/steering_functions.hpp:46-62); [None]: some
    entries of the arrays are not finite. *)
Record StateCov := mkStateCov { sc_state : State; sc_cov : option Cov }.

(** src/dubins_state_space/dubins_state_space.cpp:401-417, one pass of the inner loop: prediction and
    update. [ode] is integrate_ODE of the state space. The local variables [state_pred] and
    [state_next] keep the contents of earlier passes; everything read from them has been written in
    the same pass, except the entries outside the pose block, which are zero from the start. Same
    text in reeds_shepp_state_space.cpp:690-706 and hc_cc_state_space.cpp:192-208. *)
Definition cov_step (f : Filter) (ode : Control -> State -> R -> State) (c : Control) (cur : StateCov) (h : R)
  : StateCov :=
  mkStateCov (ode c (sc_state cur) h)
    (flet cov := sc_cov cur in update f (predict f (sc_state cur) cov c h cov_zero) cov_zero).

(** src/dubins_state_space/dubins_state_space.cpp:384-385, reeds_shepp_state_space.cpp:673-674. *)
Definition cov_enter (c : Control) (p : StateCov) : StateCov := mkStateCov (rs_enter c (sc_state p)) (sc_cov p).

(** src/hc_cc_state_space/hc_cc_state_space.cpp:172-177 *)
Definition hc_cov_enter (c : Control) (p : StateCov) : option StateCov :=
  match hc_enter c (sc_state p) with
  | Some s => Some (mkStateCov s (sc_cov p))
  | None => None
  end.

(** src/dubins_state_space/dubins_state_space.cpp:353-419 (extra = 3),
    src/reeds_shepp_state_space/reeds_shepp_state_space.cpp:642-708 (extra = 5). *)
Definition rs_integrate_with_covariance (f : Filter) (extra : Z) (disc : R) (p : StateCov)
  (controls : list Control) : option (list StateCov) :=
  if reserve_ok disc extra controls then integrate_loop cov_enter (cov_step f rs_ode) disc p controls
  else None.

(** src/hc_cc_state_space/hc_cc_state_space.cpp:137-210 *)
Definition hc_integrate_with_covariance (f : Filter) (disc : R) (p : StateCov) (controls : list Control)
  : option (list StateCov) :=
  if reserve_ok disc 3 controls then
    match controls with
    | [] => None
    | c :: _ =>
        let cur := cov_enter c p in
        flet rest := hc_integrate_loop hc_cov_enter (cov_step f hc_ode) disc cur controls in
        Some (cur :: rest)
    end
  else None.

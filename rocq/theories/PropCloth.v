(** * Properties of clothoids (C09) and of the motion Jacobians (C31) *)
From Coq Require Import Reals ZArith.
From Coquelicot Require Import Coquelicot.
From Verif Require Import Base ModelUtil ModelFresnel ModelIntegrate ModelEKF SpecFresnel SpecCloth ClothProofs JacProofs.
Open Scope R_scope.

(** C09: the end of a clothoid is the solution of the equations of motion, the position up to
    8e-15 * sqrt(pi/|sigma|), heading and curvature exactly. *)
Theorem C09_clothoid_solves_motion (x y th k sg d h X Y T K : R) : sg <> 0 -> d = 1 \/ d = -1 ->
  end_of_clothoid x y th k sg d h = (X, Y, T, K) ->
  Rabs (X - true_x x th k sg d h) <= sqrt (PI / Rabs sg) * (8 / 10 ^ 15) /\
  Rabs (Y - true_y y th k sg d h) <= sqrt (PI / Rabs sg) * (8 / 10 ^ 15) /\
  (exists n : Z, T = heading th k sg d h + 2 * PI * IZR n) /\ K = k + sg * h.
Proof. exact (clothoid_ode x y th k sg d h X Y T K). Qed.
Print Assumptions C09_clothoid_solves_motion.

Theorem C09_clothoid_start (x y th k sg d : R) : exists n : Z,
  end_of_clothoid x y th k sg d 0 = (x, y, th + 2 * PI * IZR n, k).
Proof. exact (clothoid_start x y th k sg d). Qed.
Print Assumptions C09_clothoid_start.

Theorem C09_clothoid_semigroup (x y th k sg d a b x1 y1 th1 k1 x2 y2 th2 k2 x3 y3 th3 k3 : R) : sg <> 0 ->
  end_of_clothoid x y th k sg d a = (x1, y1, th1, k1) -> end_of_clothoid x1 y1 th1 k1 sg d b = (x2, y2, th2, k2) ->
  end_of_clothoid x y th k sg d (a + b) = (x3, y3, th3, k3) ->
  x2 = x3 /\ y2 = y3 /\ (exists n : Z, th2 = th3 + 2 * PI * IZR n) /\ k2 = k3.
Proof. exact (clothoid_add' x y th k sg d a b x1 y1 th1 k1 x2 y2 th2 k2 x3 y3 th3 k3). Qed.
Print Assumptions C09_clothoid_semigroup.

Example C09_case : exists Y, end_of_clothoid 0 0 0 0 PI 1 1 = (fresnelC 1, Y, PI / 2, PI) /\
  true_x 0 0 0 PI 1 1 = FresnelC 1 /\ 3 / 4 < true_x 0 0 0 PI 1 1.
Proof. exact clothoid_case. Qed.

(** C31: clothoids; the columns of theta and kappa carry the error of the Fresnel approximation, the
    other columns are exact. *)
Theorem C31_clothoid_jacobian (s : State) (c : Control) (h : R) : epsilon < Rabs (ct_sigma c) ->
  let e := sqrt (PI / Rabs (ct_sigma c)) * (8 / 10 ^ 15) in
  let '(F_x, F_u) := get_motion_jacobi s c h in
  jac_ok F_x F_u (st_x s) (st_y s) (st_theta s) (st_kappa s) (ct_sigma c) (sgn (ct_delta_s c)) h
    e 0 (e * (Rabs (st_kappa s) / Rabs (ct_sigma c))).
Proof. exact (jacobi_clothoid s c h). Qed.
Print Assumptions C31_clothoid_jacobian.

(** Arcs: exact. *)
Theorem C31_arc_jacobian (s : State) (c : Control) (h : R) :
  Rabs (ct_sigma c) <= epsilon -> epsilon < Rabs (st_kappa s) ->
  let '(F_x, F_u) := get_motion_jacobi s c h in
  jac_ok F_x F_u (st_x s) (st_y s) (st_theta s) (st_kappa s) 0 (sgn (ct_delta_s c)) h 0 0 0.
Proof. exact (jacobi_arc s c h). Qed.
Print Assumptions C31_arc_jacobian.

(** Straight lines: exact for curvature 0, except that the column of the curvature is only within
    h^2/2. *)
Theorem C31_straight_jacobian_partial (s : State) (c : Control) (h : R) :
  Rabs (ct_sigma c) <= epsilon -> Rabs (st_kappa s) <= epsilon -> 0 <= h ->
  let '(F_x, F_u) := get_motion_jacobi s c h in
  jac_ok F_x F_u (st_x s) (st_y s) (st_theta s) (st_kappa s) 0 (sgn (ct_delta_s c)) h
    (Rabs (st_kappa s) * h ^ 2 / 2) (Rabs (st_kappa s) * h) (h ^ 2 / 2).
Proof. exact (jacobi_straight s c h). Qed.
Print Assumptions C31_straight_jacobian_partial.

(** The curvature column of a straight line is wrong. *)
Theorem C31_straight_jacobian_refuted : exists (s : State) (c : Control) (h D : R),
  let d := sgn (ct_delta_s c) in
  0 < h /\ is_derive (fun k => end_pose 0 (st_x s) (st_y s) (st_theta s) k (ct_sigma c) d h) (st_kappa s) D /\
  fu (snd (get_motion_jacobi s c h)) 0 1 <> D.
Proof. exact jacobi_straight_refuted. Qed.
Print Assumptions C31_straight_jacobian_refuted.

Example C31_case : get_motion_jacobi (mkState 0 0 0 1 1) (mkControl 1 1 0) (PI / 2) =
  (mkM33 1 0 (-1) 0 1 1 0 0 1, mkM32 0 (-1) 1 (PI / 2 - 1) 1 (PI / 2)).
Proof. exact arc_jac_case. Qed.

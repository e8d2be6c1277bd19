(** * Properties C61 and C62: the prediction of the filter, and its run along a path *)
From Coq Require Import Reals ZArith List.
From Coquelicot Require Import Coquelicot.
From Verif Require Import Base ModelUtil ModelIntegrate ModelEKF SpecEKF SpecCloth SpecFilter EKFProofs FilterProofs.
Import ListNotations.
Open Scope R_scope.

(** C61: the estimation uncertainty after a prediction is F Sigma F^T + G diag(q) G^T with the Jacobians of C31 and
    the variances of the inputs; *)
Theorem C61_estimation_uncertainty (f : Filter) (s : State) (c : Cov) (u : Control) (h : R) (out : Cov) :
  let '(F, G) := get_motion_jacobi s u h in
  eq3 (at_ (Sigma (predict f s c u h out)))
      (fun i j => spread (fx F) (at_ (Sigma c)) i j + spread2 (fu G) (input_variance f (st_kappa s) h) i j).
Proof. exact (predict_sigma f s c u h out). Qed.
Print Assumptions C61_estimation_uncertainty.

(** the spread of the estimate is A Lambda A^T with the matrix A of the closed loop. *)
Theorem C61_control_spread (f : Filter) (s : State) (c : Cov) (u : Control) (h : R) (out : Cov) :
  let '(F, G) := get_motion_jacobi s u h in
  exists A, closed_loop f (st_theta s) (sgn (ct_delta_s u)) (fx F) (fu G) A /\
    eq3 (at_ (Lambda (predict f s c u h out))) (spread A (at_ (Lambda c))).
Proof. exact (predict_lambda f s c u h out). Qed.
Print Assumptions C61_control_spread.

(** There is only one such matrix. *)
Theorem C61_closed_loop_unique (f : Filter) (th d : R) (F G A B : nat -> nat -> R) :
  closed_loop f th d F G A -> closed_loop f th d F G B -> eq3 A B.
Proof. exact (closed_loop_unique f th d F G A B). Qed.
Print Assumptions C61_closed_loop_unique.

(** On arcs, with the derivatives of the motion itself in the place of the matrices of the library. *)
Theorem C61_arc (f : Filter) (s : State) (c : Cov) (u : Control) (h : R) (out : Cov) (F G : nat -> nat -> R) :
  Rabs (ct_sigma u) <= epsilon -> epsilon < Rabs (st_kappa s) ->
  let d := sgn (ct_delta_s u) in
  (forall i, (i < 3)%nat ->
    is_derive (fun v => end_pose i v (st_y s) (st_theta s) (st_kappa s) 0 d h) (st_x s) (F i 0%nat) /\
    is_derive (fun v => end_pose i (st_x s) v (st_theta s) (st_kappa s) 0 d h) (st_y s) (F i 1%nat) /\
    is_derive (fun v => end_pose i (st_x s) (st_y s) v (st_kappa s) 0 d h) (st_theta s) (F i 2%nat) /\
    is_derive (fun v => end_pose i (st_x s) (st_y s) (st_theta s) (st_kappa s) 0 d (d * v)) (d * h) (G i 0%nat) /\
    is_derive (fun v => end_pose i (st_x s) (st_y s) (st_theta s) v 0 d h) (st_kappa s) (G i 1%nat)) ->
  eq3 (at_ (Sigma (predict f s c u h out)))
      (fun i j => spread F (at_ (Sigma c)) i j + spread2 G (input_variance f (st_kappa s) h) i j) /\
  exists A, closed_loop f (st_theta s) d F G A /\ eq3 (at_ (Lambda (predict f s c u h out))) (spread A (at_ (Lambda c))).
Proof. exact (arc_prediction f s c u h out F G). Qed.
Print Assumptions C61_arc.

(** A quarter of the unit circle, unit noise, Sigma = diag(1, 2, 3). *)
Example C61_case (out : Cov) : let s := mkState 0 0 0 1 1 in let u := mkControl 1 1 0 in
  let c := predict f1 s cov1 u (PI / 2) out in
  at_ (Sigma c) 0 0 = 1 + 3 + ((PI / 2) ^ 2 + 1) /\ at_ (Sigma c) 2 2 = 3 + ((PI / 2) ^ 2 + 1) * (1 + (PI / 2) ^ 2).
Proof. exact (predict_case out). Qed.

(** C62: along integrate_with_covariance every step of the path is one prediction and one update with the control
    and the length of the step; the covariances pass unchanged from one control to the next. *)
Theorem C62_rs_path (f : Filter) (extra : Z) (disc : R) (p : StateCov) (controls : list Control) (path : list StateCov) :
  0 < disc -> rs_integrate_with_covariance f extra disc p controls = Some path -> filtered f rs_ode disc p controls path.
Proof. exact (rs_filtered f extra disc p controls path). Qed.
Print Assumptions C62_rs_path.

Theorem C62_hc_path (f : Filter) (disc : R) (p : StateCov) (controls : list Control) (path : list StateCov) :
  0 < disc -> hc_integrate_with_covariance f disc p controls = Some path ->
  exists q rest, path = q :: rest /\ handed_over p q /\ filtered f hc_ode disc q controls rest.
Proof. exact (hc_filtered f disc p controls path). Qed.
Print Assumptions C62_hc_path.

Example C62_rs_case : exists path, rs_integrate_with_covariance f1 3 1 (mkStateCov (mkState 1 2 0 0 0) (Some cov1))
  [mkControl (-(3 / 2)) 0 0] = Some path /\ length path = 3%nat.
Proof. exact rs_filtered_case. Qed.

Example C62_hc_case : exists path, hc_integrate_with_covariance f1 1 (mkStateCov (mkState 1 2 0 0 0) (Some cov1))
  [mkControl (-(3 / 2)) 0 0; mkControl 2 1 0] = Some path.
Proof. exact hc_filtered_case. Qed.

(** * Curves of constant sharpness, as solutions of the equations of motion *)
From Coq Require Import Reals.
From Coquelicot Require Import Coquelicot.
From Verif Require Import ModelEKF.
Open Scope R_scope.

(** The car drives in direction d (1 or -1) along a curve whose curvature is k + sg*u after the
    length u: theta' = d*(k + sg*u), x' = d*cos theta, y' = d*sin theta. *)
Definition heading (th k sg d u : R) : R := th + d * (k * u + sg * u ^ 2 / 2).
Definition true_x (x th k sg d h : R) : R := x + RInt (fun u => d * cos (heading th k sg d u)) 0 h.
Definition true_y (y th k sg d h : R) : R := y + RInt (fun u => d * sin (heading th k sg d u)) 0 h.

(** The end pose as a function of start pose, curvature and length: component 0, 1, 2 = x, y, heading. *)
Definition end_pose (i : nat) (x y th k sg d h : R) : R :=
  match i with O => true_x x th k sg d h | S O => true_y y th k sg d h | _ => heading th k sg d h end.

(** v is the derivative of f at p up to the error e. *)
Definition near_derive (f : R -> R) (p v e : R) : Prop := exists D, is_derive f p D /\ Rabs (v - D) <= e.

(** Row i, column j of the two Jacobians. *)
Definition fx (F : M33) (i j : nat) : R :=
  match i, j with
  | O, O => m00 F | O, S O => m01 F | O, _ => m02 F
  | S O, O => m10 F | S O, S O => m11 F | S O, _ => m12 F
  | _, O => m20 F | _, S O => m21 F | _, _ => m22 F
  end.
Definition fu (F : M32) (i j : nat) : R :=
  match i, j with
  | O, O => n00 F | O, _ => n01 F
  | S O, O => n10 F | S O, _ => n11 F
  | _, O => n20 F | _, _ => n21 F
  end.

(** The columns of F_x are the derivatives of the end pose with respect to x, y, theta of the start
    pose, the columns of F_u those with respect to the signed length s = d*h and the curvature;
    e_th, e_s, e_k bound the errors of the columns theta, s and kappa. *)
Definition jac_ok (F_x : M33) (F_u : M32) (x y th k sg d h e_th e_s e_k : R) : Prop :=
  forall i, (i < 3)%nat ->
  near_derive (fun v => end_pose i v y th k sg d h) x (fx F_x i 0) 0 /\
  near_derive (fun v => end_pose i x v th k sg d h) y (fx F_x i 1) 0 /\
  near_derive (fun v => end_pose i x y v k sg d h) th (fx F_x i 2) e_th /\
  near_derive (fun s => end_pose i x y th k sg d (d * s)) (d * h) (fu F_u i 0) e_s /\
  near_derive (fun v => end_pose i x y th v sg d h) k (fu F_u i 1) e_k.

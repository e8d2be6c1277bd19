(** * integrate of the Dubins and Reeds-Shepp spaces in double precision

    The states computed by [integrate] with the rounding of every operation (ModelFloat.v, ModelStep.v). The functions
    [sin] and [cos] of the C library are parameters; what is assumed of them is stated with the theorems. Not modelled here: overflow,
    contraction to fused operations, and the conversion of too large a number of steps to int. *)
From Coq Require Import Reals ZArith List.
From Flocq Require Import Core.
From Verif Require Import Base ModelUtil ModelIntegrate ModelFloat ModelStep.
Import ListNotations.
Open Scope R_scope.

(** The literal of include/steering_functions/utilities/utilities.hpp:41 converted to double. *)
Definition epsilon64 : R := rnd (1 / 10000).

Section Library.
  (** The functions sin and cos of the C library, called in src/utilities/utilities.cpp:188-189, 196-197. *)
  Variables sin64 cos64 : R -> R.

  (** end_of_circular_arc, src/utilities/utilities.cpp:185-191 *)
  Definition end_of_circular_arc64 (x_i y_i theta_i kappa direction length : R) : R * R * R :=
    (rnd (x_i + rnd (rnd (1 / kappa) * rnd (- sin64 theta_i + sin64 (rnd (theta_i + rnd (rnd (direction * length) * kappa)))))),
     rnd (y_i + rnd (rnd (1 / kappa) * rnd (cos64 theta_i - cos64 (rnd (theta_i + rnd (rnd (direction * length) * kappa)))))),
     pify64 (rnd (theta_i + rnd (rnd (kappa * direction) * length)))).

  (** end_of_straight_line, src/utilities/utilities.cpp:193-198 *)
  Definition end_of_straight_line64 (x_i y_i theta direction length : R) : R * R :=
    (rnd (x_i + rnd (rnd (direction * length) * cos64 theta)), rnd (y_i + rnd (rnd (direction * length) * sin64 theta))).

  (** integrate_ODE, src/dubins_state_space/dubins_state_space.cpp:484-504, reeds_shepp_state_space.cpp:773-793 *)
  Definition rs_ode64 (control : Control) (s : State) (h : R) : State :=
    let d := sgn (ct_delta_s control) in
    if Rlt_dec epsilon64 (Rabs (st_kappa s)) then
      let '(x, y, th) := end_of_circular_arc64 (st_x s) (st_y s) (st_theta s) (st_kappa s) d h in
      mkState x y th (st_kappa s) d
    else
      let '(x, y) := end_of_straight_line64 (st_x s) (st_y s) (st_theta s) d h in
      mkState x y (st_theta s) (st_kappa s) d.

  (** The states pushed back by the inner loop for the steps [hs],
      src/dubins_state_space/dubins_state_space.cpp:332-348, reeds_shepp_state_space.cpp:621-637 *)
  Fixpoint states64 (control : Control) (cur : State) (hs : list R) : list State :=
    match hs with
    | [] => []
    | h :: hs => let next := rs_ode64 control cur h in next :: states64 control next hs
    end.

  (** integrate, src/dubins_state_space/dubins_state_space.cpp:304-351, reeds_shepp_state_space.cpp:593-640 *)
  Fixpoint integrate64 (disc : R) (cur : State) (controls : list Control) : list State :=
    match controls with
    | [] => []
    | c :: cs =>
      let cur := rs_enter c cur in
      let l := states64 c cur (integration_steps64 (Rabs (ct_delta_s c)) disc) in
      cur :: l ++ integrate64 disc (last l cur) cs
    end.
End Library.

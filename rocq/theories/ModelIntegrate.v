(** * Model of integrate / interpolate of the three base state spaces

    The loops of [integrate] and [integrate_with_covariance] are textually the same; they are
    modelled once, over an arbitrary payload type [P] ([State], or [State] with matrices). *)
From Coq Require Import Reals ZArith List Bool.
From Verif Require Import Base ModelUtil ModelFresnel.
Import ListNotations.
Open Scope R_scope.

(** Largest [int]; conversions of larger doubles to [int] are undefined behaviour.
    Used by src/dubins_state_space/dubins_state_space.cpp:309-315, 332. *)
Definition INT_MAX : Z := 2147483647%Z.

(** [int n = ceil(abs_delta_s / discretization_)], src/dubins_state_space/dubins_state_space.cpp:332,
    src/reeds_shepp_state_space/reeds_shepp_state_space.cpp:621,
    src/hc_cc_state_space/hc_cc_state_space.cpp:116; [None] is undefined behaviour. *)
Definition loop_count (disc abs_delta_s : R) : option nat :=
  let n := ceilZ (abs_delta_s / disc) in
  if (n <=? INT_MAX)%Z then Some (Z.to_nat n) else None.

(** The reserve computation, src/dubins_state_space/dubins_state_space.cpp:309-315,
    src/hc_cc_state_space/hc_cc_state_space.cpp:86-92 (3 extra states; the Reeds-Shepp version
    reeds_shepp_state_space.cpp:598-604 adds 5). [None] is undefined behaviour (integer
    overflow). *)
Fixpoint n_states_loop (disc : R) (n_states : Z) (controls : list Control) : option Z :=
  match controls with
  | [] => Some n_states
  | c :: cs =>
      let n := (n_states + ceilZ (Rabs (ct_delta_s c) / disc))%Z in
      if (n <=? INT_MAX)%Z then n_states_loop disc n cs else None
  end.

(** src/dubins_state_space/dubins_state_space.cpp:315: [n_states + extra] must not overflow. *)
Definition reserve_ok (disc : R) (extra : Z) (controls : list Control) : bool :=
  match n_states_loop disc 0 controls with
  | Some n => (n + extra <=? INT_MAX)%Z
  | None => false
  end.

(** src/dubins_state_space/dubins_state_space.cpp:334-344, one pass of the step-size logic:
    returns (integration_step, s_seg). Same text in reeds_shepp_state_space.cpp:623-633 and
    hc_cc_state_space.cpp:118-128. *)
Definition next_step (disc abs_delta_s s_seg : R) : R * R :=
  let s_seg := s_seg + disc in
  if Rlt_dec abs_delta_s s_seg then (disc - (s_seg - abs_delta_s), abs_delta_s)
  else (disc, s_seg).

(** src/dubins_state_space/dubins_state_space.cpp:332-348, the inner loop with [n] iterations left;
    returns the states pushed back and the final [state_curr]. *)
Fixpoint steps {P} (step : P -> R -> P) (disc abs_delta_s : R) (n : nat) (s_seg : R) (cur : P)
  : list P * P :=
  match n with
  | O => ([], cur)
  | S n' =>
      let '(h, s_seg) := next_step disc abs_delta_s s_seg in
      let next := step cur h in
      let '(l, last) := steps step disc abs_delta_s n' s_seg next in
      (next :: l, last)
  end.

(** Outer loop of integrate in src/dubins_state_space/dubins_state_space.cpp:321-349 and
    src/reeds_shepp_state_space/reeds_shepp_state_space.cpp:610-638. [enter c cur] sets the
    curvature and direction of the current state (328-329). *)
Fixpoint integrate_loop {P} (enter : Control -> P -> P) (step : Control -> P -> R -> P) (disc : R)
  (cur : P) (controls : list Control) : option (list P) :=
  match controls with
  | [] => Some []
  | c :: cs =>
      let a := Rabs (ct_delta_s c) in
      flet n := loop_count disc a in
      let cur := enter c cur in
      let '(l, last) := steps (step c) disc a n 0 cur in
      flet rest := integrate_loop enter step disc last cs in
      Some (cur :: l ++ rest)
  end.

(** Outer loop of integrate in src/hc_cc_state_space/hc_cc_state_space.cpp:101-133; [enter c cur]
    is [Some] new current state if there is a curvature discontinuity (109-114). *)
Fixpoint hc_integrate_loop {P} (enter : Control -> P -> option P) (step : Control -> P -> R -> P)
  (disc : R) (cur : P) (controls : list Control) : option (list P) :=
  match controls with
  | [] => Some []
  | c :: cs =>
      let a := Rabs (ct_delta_s c) in
      flet n := loop_count disc a in
      let '(pushed, cur) := match enter c cur with Some cur' => ([cur'], cur') | None => ([], cur) end in
      let '(l, last) := steps (step c) disc a n 0 cur in
      flet rest := hc_integrate_loop enter step disc last cs in
      Some (pushed ++ l ++ rest)
  end.

(** src/dubins_state_space/dubins_state_space.cpp:484-504,
    src/reeds_shepp_state_space/reeds_shepp_state_space.cpp:773-793. *)
Definition rs_ode (control : Control) (s : State) (h : R) : State :=
  let d := sgn (ct_delta_s control) in
  if Rlt_dec epsilon (Rabs (st_kappa s)) then
    let '(x, y, th) := end_of_circular_arc (st_x s) (st_y s) (st_theta s) (st_kappa s) d h in
    mkState x y th (st_kappa s) d
  else
    let '(x, y) := end_of_straight_line (st_x s) (st_y s) (st_theta s) d h in
    mkState x y (st_theta s) (st_kappa s) d.

(** src/hc_cc_state_space/hc_cc_state_space.cpp:281-310. *)
Definition hc_ode (control : Control) (s : State) (h : R) : State :=
  let sigma := ct_sigma control in
  let d := sgn (ct_delta_s control) in
  if Rlt_dec epsilon (Rabs sigma) then
    let '(x, y, th, k) :=
      end_of_clothoid (st_x s) (st_y s) (st_theta s) (st_kappa s) sigma d h in
    mkState x y th k d
  else if Rlt_dec epsilon (Rabs (st_kappa s)) then
    let '(x, y, th) := end_of_circular_arc (st_x s) (st_y s) (st_theta s) (st_kappa s) d h in
    mkState x y th (st_kappa s) d
  else
    let '(x, y) := end_of_straight_line (st_x s) (st_y s) (st_theta s) d h in
    mkState x y (st_theta s) (st_kappa s) d.

(** src/dubins_state_space/dubins_state_space.cpp:328-329, reeds_shepp_state_space.cpp:617-618. *)
Definition rs_enter (c : Control) (s : State) : State :=
  mkState (st_x s) (st_y s) (st_theta s) (ct_kappa c) (sgn (ct_delta_s c)).

(** src/hc_cc_state_space/hc_cc_state_space.cpp:109-114. *)
Definition hc_enter (c : Control) (s : State) : option State :=
  if Rlt_dec epsilon (Rabs (ct_kappa c - st_kappa s)) then Some (rs_enter c s) else None.

(** src/dubins_state_space/dubins_state_space.cpp:304-351 (extra = 3),
    src/reeds_shepp_state_space/reeds_shepp_state_space.cpp:593-640 (extra = 5). The members kappa
    and d of the first [state_curr] are uninitialised in the code; they are overwritten before
    being read, here they are those of [state]. *)
Definition rs_integrate (extra : Z) (disc : R) (state : State) (controls : list Control)
  : option (list State) :=
  if reserve_ok disc extra controls then integrate_loop rs_enter rs_ode disc state controls else None.

(** src/hc_cc_state_space/hc_cc_state_space.cpp:81-135. [None] on the empty control list models the
    undefined behaviour of [controls.front()]. *)
Definition hc_integrate (disc : R) (state : State) (controls : list Control) : option (list State) :=
  if reserve_ok disc 3 controls then
    match controls with
    | [] => None
    | c :: _ =>
        let cur := rs_enter c state in
        flet rest := hc_integrate_loop hc_enter hc_ode disc cur controls in
        Some (cur :: rest)
    end
  else None.

(** A [State] some of whose members may be uninitialised
    (include/steering_functions/steering_functions.hpp:27-43: [State] has no constructor). *)
Record UState := mkUState
  { u_x : R; u_y : R; u_theta : R; u_kappa : option R; u_d : option R }.

(** A fully initialised state seen as a possibly uninitialised one
    (include/steering_functions/steering_functions.hpp:27-43). *)
Definition ustate (s : State) : UState :=
  mkUState (st_x s) (st_y s) (st_theta s) (Some (st_kappa s)) (Some (st_d s)).

(** src/dubins_state_space/dubins_state_space.cpp:429-434 *)
Definition path_length (controls : list Control) : R :=
  fold_left (fun s c => s + Rabs (ct_delta_s c)) controls 0.

(** src/dubins_state_space/dubins_state_space.cpp:435-440; [None]: t <= 0. *)
Definition s_inter (controls : list Control) (t : R) : option R :=
  if Rle_dec t 0 then None
  else if Rlt_dec 1 t then Some (path_length controls)
  else Some (t * path_length controls).

(** src/dubins_state_space/dubins_state_space.cpp:442-481 (enter always sets curvature),
    src/reeds_shepp_state_space/reeds_shepp_state_space.cpp:731-770. *)
Fixpoint interpolate_loop (enter : Control -> State -> State) (step : Control -> State -> R -> State)
  (disc si s : R) (cur : State) (controls : list Control) : option State :=
  match controls with
  | [] => Some cur
  | c :: cs =>
      let a := Rabs (ct_delta_s c) in
      let cur := enter c cur in
      let s := s + a in
      if Rlt_dec si s then
        let a := a - (s - si) in
        flet n := loop_count disc a in
        Some (snd (steps (step c) disc a n 0 cur))
      else
        flet n := loop_count disc a in
        interpolate_loop enter step disc si s (snd (steps (step c) disc a n 0 cur)) cs
  end.

(** src/hc_cc_state_space/hc_cc_state_space.cpp:248-252 *)
Definition hc_enter' (c : Control) (s : State) : State :=
  match hc_enter c s with Some s' => s' | None => s end.

(** src/dubins_state_space/dubins_state_space.cpp:421-482,
    src/reeds_shepp_state_space/reeds_shepp_state_space.cpp:710-771. If [t <= 0], or if there is no
    control, the members kappa and d of the result are uninitialised. *)
Definition rs_interpolate (disc : R) (state : State) (controls : list Control) (t : R)
  : option UState :=
  let start := mkUState (st_x state) (st_y state) (st_theta state) None None in
  match s_inter controls t with
  | None => Some start
  | Some si =>
      match controls with
      | [] => Some start
      | _ => flet r := interpolate_loop rs_enter rs_ode disc si 0 state controls in Some (ustate r)
      end
  end.

(** src/hc_cc_state_space/hc_cc_state_space.cpp:212-279. [None] on the empty control list models
    the undefined behaviour of [controls.front()]. *)
Definition hc_interpolate (disc : R) (state : State) (controls : list Control) (t : R)
  : option UState :=
  match controls with
  | [] => None
  | c :: _ =>
      let cur := rs_enter c state in
      match s_inter controls t with
      | None => Some (ustate cur)
      | Some si =>
          flet r := interpolate_loop hc_enter' hc_ode disc si 0 cur controls in Some (ustate r)
      end
  end.

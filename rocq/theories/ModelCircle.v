(** * Model of the configurations, circles and turns of the HC/CC state spaces

    src/hc_cc_state_space/configuration.cpp, src/hc_cc_state_space/hc_cc_circle.cpp and the controls of
    src/hc_cc_state_space/paths.cpp. Not modelled: the [print] functions. *)
From Coq Require Import Reals ZArith List Bool.
From Verif Require Import Base ModelUtil ModelFresnel ModelIntegrate.
Import ListNotations.
Open Scope R_scope.

(** include/steering_functions/hc_cc_state_space/configuration.hpp:32-49, the members. *)
Record Configuration := mkConf { q_x : R; q_y : R; q_theta : R; q_kappa : R }.

(** src/hc_cc_state_space/configuration.cpp:37-43, the constructor. *)
Definition configuration (x y theta kappa : R) : Configuration := mkConf x y (twopify theta) kappa.

(** src/hc_cc_state_space/configuration.cpp:54-57 *)
Definition configuration_distance (q1 q2 : Configuration) : R :=
  point_distance (q_x q1) (q_y q1) (q_x q2) (q_y q2).

(** src/hc_cc_state_space/configuration.cpp:59-67 *)
Definition configuration_aligned (q1 q2 : Configuration) : bool :=
  if Rlt_dec epsilon (Rabs (q_theta q2 - q_theta q1)) then false
  else
    let angle := twopify (atan2 (q_y q2 - q_y q1) (q_x q2 - q_x q1)) in
    Rleb (Rabs (angle - q_theta q1)) epsilon.

(** src/hc_cc_state_space/configuration.cpp:69-76 *)
Definition configuration_equal (q1 q2 : Configuration) : bool :=
  if Rlt_dec epsilon (Rabs (q_theta q2 - q_theta q1)) then false
  else if Rlt_dec epsilon (configuration_distance q1 q2) then false
  else true.

(** include/steering_functions/hc_cc_state_space/hc_cc_circle.hpp:34-55, the members. *)
Record Param := mkParam
  { p_kappa : R; p_kappa_inv : R; p_sigma : R; p_radius : R; p_mu : R; p_sin_mu : R; p_cos_mu : R;
    p_delta_min : R }.

(** src/hc_cc_state_space/hc_cc_circle.cpp:39-50 *)
Definition set_param (kappa sigma radius mu sin_mu cos_mu delta_min : R) : Param :=
  mkParam kappa (1 / kappa) sigma radius mu sin_mu cos_mu delta_min.

(** src/hc_cc_state_space/hc_cc_state_space.cpp:28-60, the member hc_cc_circle_param_ set by the
    constructor; the assertion of line 32 is [0 < kappa /\ 0 < sigma]. *)
Definition hc_cc_param (kappa sigma : R) : Param :=
  let length_min := kappa / sigma in
  let '(x_i, y_i, theta_i) :=
    if Rlt_dec epsilon length_min then
      let '(x_i, y_i, theta_i, _) := end_of_clothoid 0 0 0 0 sigma 1 length_min in (x_i, y_i, theta_i)
    else (0, 0, 0) in
  let xc := x_i - sin theta_i / kappa in
  let yc := y_i + cos theta_i / kappa in
  let radius := point_distance xc yc 0 0 in
  let mu := atan (Rabs (xc / yc)) in
  let sin_mu := sin mu in
  let cos_mu := cos mu in
  let delta_min := (1 / 2) * kappa ^ 2 / sigma in
  set_param kappa sigma radius mu sin_mu cos_mu delta_min.

(** The members rs_circle_param_, e.g. src/hc_cc_state_space/hc00_reeds_shepp_state_space.cpp:1498
    and, with the same text, in the other spaces that drive rs-turns. *)
Definition rs_param (kappa : R) : Param := set_param kappa DBL_MAX (1 / kappa) 0 0 1 0.

(** include/steering_functions/hc_cc_state_space/hc_cc_circle.hpp:57-110, the members. *)
Record Circle := mkCircle
  { c_start : Configuration; c_left : bool; c_forward : bool; c_regular : bool; c_xc : R; c_yc : R;
    c_kappa : R; c_kappa_inv : R; c_sigma : R; c_radius : R; c_mu : R; c_sin_mu : R; c_cos_mu : R;
    c_delta_min : R }.

(** src/hc_cc_state_space/hc_cc_circle.cpp:52-86 *)
Definition circle (start : Configuration) (left forward regular : bool) (p : Param) : Circle :=
  let delta_x := p_radius p * p_sin_mu p in
  let delta_y := p_radius p * p_cos_mu p in
  let '(kappa, kappa_inv, sigma, (xc, yc)) :=
    if left then
      (p_kappa p, p_kappa_inv p, p_sigma p,
       if forward then global_frame_change (q_x start) (q_y start) (q_theta start) delta_x delta_y
       else global_frame_change (q_x start) (q_y start) (q_theta start) (- delta_x) delta_y)
    else
      (- p_kappa p, - p_kappa_inv p, - p_sigma p,
       if forward then global_frame_change (q_x start) (q_y start) (q_theta start) delta_x (- delta_y)
       else global_frame_change (q_x start) (q_y start) (q_theta start) (- delta_x) (- delta_y)) in
  mkCircle start left forward regular xc yc kappa kappa_inv sigma
    (p_radius p) (p_mu p) (p_sin_mu p) (p_cos_mu p) (p_delta_min p).

(** src/hc_cc_state_space/hc_cc_circle.cpp:88-114 *)
Definition circle_at (xc yc : R) (left forward regular : bool) (p : Param) : Circle :=
  let '(kappa, kappa_inv, sigma) :=
    if left then (p_kappa p, p_kappa_inv p, p_sigma p)
    else (- p_kappa p, - p_kappa_inv p, - p_sigma p) in
  mkCircle (configuration 0 0 0 0) left forward regular xc yc kappa kappa_inv sigma
    (p_radius p) (p_mu p) (p_sin_mu p) (p_cos_mu p) (p_delta_min p).

(** src/hc_cc_state_space/hc_cc_circle.cpp:116-128 *)
Definition deflection (c : Circle) (q : Configuration) : R :=
  let alpha_c := q_theta (c_start c) in
  let alpha_q := q_theta q in
  if (c_left c && c_forward c) || (negb (c_left c) && negb (c_forward c)) then
    twopify (alpha_q - alpha_c)
  else twopify (alpha_c - alpha_q).

(** src/hc_cc_state_space/hc_cc_circle.cpp:130-136 *)
Definition D1 (alpha : R) : R :=
  let s := sqrt (2 * alpha / PI) in
  cos alpha * fresnelC s + sin alpha * fresnelS s.

(** src/hc_cc_state_space/hc_cc_circle.cpp:138-146 *)
Definition rs_circular_deflection (c : Circle) (delta : R) : R :=
  if c_regular c then delta
  else if Rle_dec delta PI then delta else delta - TWO_PI.

(** The assertion of src/hc_cc_state_space/hc_cc_circle.cpp:150-151 and paths.cpp:322-323. *)
Definition rs_turn_assert (c : Circle) (q : Configuration) : Prop :=
  Rabs (Rabs (c_kappa c) - Rabs (q_kappa q)) < epsilon /\ Rabs (Rabs (c_sigma c) - DBL_MAX) < epsilon.

(** src/hc_cc_state_space/hc_cc_circle.cpp:148-154 *)
Definition rs_turn_length (c : Circle) (q : Configuration) : R :=
  let delta := deflection c q in
  Rabs (c_kappa_inv c * rs_circular_deflection c delta).

(** src/hc_cc_state_space/hc_cc_circle.cpp:156-183 with [m] for delta_min_twopified; the same text with
    two_delta_min_twopified is cc_circular_deflection, 209-236. *)
Definition circular_deflection (regular : bool) (m delta : R) : R :=
  if regular then
    if Rlt_dec delta m then TWO_PI + delta - m else delta - m
  else
    let '(delta_arc1, delta_arc2) :=
      if Rlt_dec delta m then (delta - m, delta - m + TWO_PI) else (delta - m, delta - m - TWO_PI) in
    if Rlt_dec (Rabs delta_arc1) (Rabs delta_arc2) then delta_arc1 else delta_arc2.

(** src/hc_cc_state_space/hc_cc_circle.cpp:156-183 *)
Definition hc_circular_deflection (c : Circle) (delta : R) : R :=
  circular_deflection (c_regular c) (twopify (c_delta_min c)) delta.

(** The assertion of src/hc_cc_state_space/hc_cc_circle.cpp:187 and paths.cpp:338. *)
Definition hc_turn_assert (c : Circle) (q : Configuration) : Prop :=
  Rabs (Rabs (c_kappa c) - Rabs (q_kappa q)) < epsilon.

(** src/hc_cc_state_space/hc_cc_circle.cpp:185-190 *)
Definition hc_turn_length (c : Circle) (q : Configuration) : R :=
  let delta := deflection c q in
  Rabs (c_kappa c / c_sigma c) + Rabs (c_kappa_inv c * hc_circular_deflection c delta).

(** src/hc_cc_state_space/hc_cc_circle.cpp:192-207; [None] is the result false, [Some sigma0] is true. *)
Definition cc_elementary_sharpness (c : Circle) (q : Configuration) (delta : R) : option R :=
  let distance := point_distance (q_x (c_start c)) (q_y (c_start c)) (q_x q) (q_y q) in
  if Rltb delta (45948 / 10000) && Rltb epsilon distance then
    let sigma0 := 4 * PI * (D1 ((1 / 2) * delta)) ^ 2 / distance ^ 2 in
    Some (if c_left c then sigma0 else - sigma0)
  else None.

(** src/hc_cc_state_space/hc_cc_circle.cpp:209-236 *)
Definition cc_circular_deflection (c : Circle) (delta : R) : R :=
  circular_deflection (c_regular c) (twopify (2 * c_delta_min c)) delta.

(** The assertion of src/hc_cc_state_space/hc_cc_circle.cpp:240 and paths.cpp:419. *)
Definition cc_turn_assert (q : Configuration) : Prop := Rabs (q_kappa q) < epsilon.

(** src/hc_cc_state_space/hc_cc_circle.cpp:238-268 *)
Definition cc_turn_length (c : Circle) (q : Configuration) : R :=
  let delta := deflection c q in
  if Rlt_dec delta epsilon then 2 * c_radius c * c_sin_mu c
  else
    let length_min := Rabs (c_kappa c / c_sigma c) in
    let length_default := 2 * length_min + Rabs (c_kappa_inv c * cc_circular_deflection c delta) in
    if Rlt_dec delta (2 * c_delta_min c) then
      match cc_elementary_sharpness c q delta with
      | Some sigma0 =>
          let length_elementary := 2 * sqrt (delta / Rabs sigma0) in
          if Rlt_dec length_elementary length_default then length_elementary else length_default
      | None => length_default
      end
    else length_default.

(** src/hc_cc_state_space/hc_cc_circle.cpp:307-310 *)
Definition center_distance (c1 c2 : Circle) : R :=
  sqrt ((c_xc c2 - c_xc c1) ^ 2 + (c_yc c2 - c_yc c1) ^ 2).

(** src/hc_cc_state_space/hc_cc_circle.cpp:312-338 *)
Definition configuration_on_hc_cc_circle (c : Circle) (q : Configuration) : bool :=
  let distance := point_distance (c_xc c) (c_yc c) (q_x q) (q_y q) in
  if Rlt_dec epsilon (Rabs (distance - c_radius c)) then false
  else
    let angle := atan2 (q_y q - c_yc c) (q_x q - c_xc c) in
    let angle :=
      if c_left c then
        if c_forward c then angle + HALF_PI - c_mu c else angle + HALF_PI + c_mu c
      else
        if c_forward c then angle - HALF_PI + c_mu c else angle - HALF_PI - c_mu c in
    let angle := twopify angle in
    Rltb (Rabs (q_theta q - angle)) epsilon.

(** src/hc_cc_state_space/paths.cpp:263-272 *)
Definition state_equal (state1 state2 : State) : bool :=
  if Rlt_dec epsilon (Rabs (st_kappa state2 - st_kappa state1)) then false
  else if Rlt_dec epsilon (Rabs (twopify (st_theta state2) - twopify (st_theta state1))) then false
  else if Rlt_dec epsilon (point_distance (st_x state1) (st_y state1) (st_x state2) (st_y state2)) then false
  else true.

(** src/hc_cc_state_space/paths.cpp:274-279. Line 277 reads the already negated delta_s. *)
Definition reverse_control (c : Control) : Control :=
  let delta_s := - ct_delta_s c in
  mkControl delta_s (ct_kappa c + Rabs delta_s * ct_sigma c) (- ct_sigma c).

(** The assertion of src/hc_cc_state_space/paths.cpp:283. *)
Definition subtract_control_assert (control1 control2 : Control) : Prop :=
  sgn (ct_delta_s control1) * ct_sigma control1 = sgn (ct_delta_s control2) * ct_sigma control2.

(** src/hc_cc_state_space/paths.cpp:281-289 *)
Definition subtract_control (control1 control2 : Control) : Control :=
  mkControl (ct_delta_s control1 - ct_delta_s control2) (ct_kappa control1) (ct_sigma control1).

(** The functions below append to their argument [controls]; the model returns what is appended. *)

(** src/hc_cc_state_space/paths.cpp:291-298 *)
Definition empty_controls : list Control := [mkControl 0 0 0].

(** src/hc_cc_state_space/paths.cpp:300-310 *)
Definition straight_controls (q1 q2 : Configuration) : list Control :=
  let length := point_distance (q_x q1) (q_y q1) (q_x q2) (q_y q2) in
  let dot_product := cos (q_theta q1) * (q_x q2 - q_x q1) + sin (q_theta q1) * (q_y q2 - q_y q1) in
  let d := sgn dot_product in
  [mkControl (d * length) 0 0].

(** src/hc_cc_state_space/paths.cpp:312-318 *)
Definition direction (forward order : bool) : R :=
  if (forward && order) || (negb forward && negb order) then 1 else -1.

(** src/hc_cc_state_space/paths.cpp:320-334 *)
Definition rs_turn_controls (c : Circle) (q : Configuration) (order : bool) : list Control :=
  let delta := deflection c q in
  let length_arc := Rabs (c_kappa_inv c) * rs_circular_deflection c delta in
  let d := direction (c_forward c) order in
  [mkControl (d * length_arc) (c_kappa c) 0].

(** src/hc_cc_state_space/paths.cpp:336-366 *)
Definition hc_turn_controls (c : Circle) (q : Configuration) (order : bool) : list Control :=
  let delta := deflection c q in
  let length_min := Rabs (c_kappa c / c_sigma c) in
  let length_arc := Rabs (c_kappa_inv c) * hc_circular_deflection c delta in
  let d := direction (c_forward c) order in
  let arc := mkControl (d * length_arc) (c_kappa c) 0 in
  if order then [mkControl (d * length_min) 0 (c_sigma c); arc]
  else [arc; mkControl (d * length_min) (c_kappa c) (- c_sigma c)].

(** src/hc_cc_state_space/paths.cpp:368-390; [None] is the result false. *)
Definition cc_elementary_controls (c : Circle) (q : Configuration) (delta : R) (order : bool)
  : option (list Control) :=
  match cc_elementary_sharpness c q delta with
  | Some sigma0 =>
      let length := sqrt (delta / Rabs sigma0) in
      let d := direction (c_forward c) order in
      Some [mkControl (d * length) 0 sigma0; mkControl (d * length) (sigma0 * length) (- sigma0)]
  | None => None
  end.

(** src/hc_cc_state_space/paths.cpp:392-415 *)
Definition cc_default_controls (c : Circle) (delta : R) (order : bool) : list Control :=
  let length_min := Rabs (c_kappa c / c_sigma c) in
  let length_arc := Rabs (c_kappa_inv c) * cc_circular_deflection c delta in
  let d := direction (c_forward c) order in
  [mkControl (d * length_min) 0 (c_sigma c); mkControl (d * length_arc) (c_kappa c) 0;
   mkControl (d * length_min) (c_kappa c) (- c_sigma c)].

(** src/hc_cc_state_space/paths.cpp:417-460; [path_length] is the accumulate of lines 437-442. *)
Definition cc_turn_controls (c : Circle) (q : Configuration) (order : bool) : list Control :=
  let delta := deflection c q in
  if Rlt_dec delta epsilon then
    if order then straight_controls (c_start c) q else straight_controls q (c_start c)
  else if Rlt_dec delta (2 * c_delta_min c) then
    match cc_elementary_controls c q delta order with
    | Some controls_elementary =>
        let controls_default := cc_default_controls c delta order in
        let length_elementary := path_length controls_elementary in
        let length_default := path_length controls_default in
        if Rlt_dec length_elementary length_default then controls_elementary else controls_default
    | None => cc_default_controls c delta order
    end
  else cc_default_controls c delta order.

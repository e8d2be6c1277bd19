(** * Model of src/hc_cc_state_space/cc00_reeds_shepp_state_space.cpp

    Written from the source function by function. A function filling pointers returns the values stored
    through them, after its own result if it has one. A function that takes a square root, an arc sine,
    an arc cosine or a quotient returns [None] when that is undefined. Functions on [c1.left] and
    [c1.forward] with four exclusive branches have the fourth as their last alternative. A final
    "return max" after a complete case distinction is not modelled, and [None] elsewhere. Allocation and
    [delete] are left out, as are the commented-out print statements.
    The macros CC_REGULAR are false. *)
From Coq Require Import Reals ZArith List Bool.
From Verif Require Import Base ModelUtil ModelCircle ModelPaths.
Import ListNotations.
Open Scope R_scope.

Section Planner.

(** The members kappa_ and sigma_ of src/hc_cc_state_space/hc_cc_state_space.cpp:28-31. *)
Variables (kappa_ sigma_ : R).

Section Helper.

(** src/hc_cc_state_space/cc00_reeds_shepp_state_space.cpp:51-52, the members distance and angle. *)
Variables (distance_ angle_ : R).

(** src/hc_cc_state_space/cc00_reeds_shepp_state_space.cpp:55-66 *)
Definition TT_exists (c1 : Circle) (c2 : Circle) : bool :=
  if Bool.eqb (c_left c1) (c_left c2) then
    false
  else
  if Bool.eqb (c_forward c1) (c_forward c2) then
    false
  else
  Rltb (Rabs (distance_ - (2 * (c_radius c1)))) epsilon.

(** src/hc_cc_state_space/cc00_reeds_shepp_state_space.cpp:68-97 *)
Definition TT_tangent_circles (c1 : Circle) (c2 : Circle) : Configuration :=
  let x := ((c_xc c1) + (c_xc c2)) / 2 in
  let y := ((c_yc c1) + (c_yc c2)) / 2 in
  let angle := atan2 ((c_yc c2) - (c_yc c1)) ((c_xc c2) - (c_xc c1)) in
  let theta :=
    if c_left c1 then
      if c_forward c1 then
        (angle + HALF_PI) - (c_mu c1)
      else
        (angle + HALF_PI) + (c_mu c1)
    else
      if c_forward c1 then
        (angle - HALF_PI) + (c_mu c1)
      else
        (angle - HALF_PI) - (c_mu c1) in
  configuration x y theta 0.

(** src/hc_cc_state_space/cc00_reeds_shepp_state_space.cpp:99-103 *)
Definition TT_path (c1 : Circle) (c2 : Circle) : R * Configuration :=
  let q := TT_tangent_circles c1 c2 in
  ((cc_turn_length c1 q) + (cc_turn_length c2 q), q).

(** src/hc_cc_state_space/cc00_reeds_shepp_state_space.cpp:106-117 *)
Definition TcT_exists (c1 : Circle) (c2 : Circle) : bool :=
  if Bool.eqb (c_left c1) (c_left c2) then
    false
  else
  if negb (Bool.eqb (c_forward c1) (c_forward c2)) then
    false
  else
  Rltb (Rabs (distance_ - ((2 * (c_radius c1)) * (c_cos_mu c1)))) epsilon.

(** src/hc_cc_state_space/cc00_reeds_shepp_state_space.cpp:119-153 *)
Definition TcT_tangent_circles (c1 : Circle) (c2 : Circle) : option (Configuration) :=
  let distance := center_distance c1 c2 in
  let delta_x := (5 / 10) * distance in
  flet delta_y := fsqrt (((c_radius c1) ^ 2) - (delta_x ^ 2)) in
  let angle := atan2 ((c_yc c2) - (c_yc c1)) ((c_xc c2) - (c_xc c1)) in
  let '(theta, x, y) :=
    if c_left c1 then
      let '(theta, x, y) :=
        if c_forward c1 then
          let theta := angle + HALF_PI in
          let '(x, y) := global_frame_change (c_xc c1) (c_yc c1) angle delta_x delta_y in
          (theta, x, y)
        else
          let theta := angle + HALF_PI in
          let '(x, y) := global_frame_change (c_xc c1) (c_yc c1) angle delta_x (- delta_y) in
          (theta, x, y) in
      (theta, x, y)
    else
      let '(theta, x, y) :=
        if c_forward c1 then
          let theta := angle - HALF_PI in
          let '(x, y) := global_frame_change (c_xc c1) (c_yc c1) angle delta_x (- delta_y) in
          (theta, x, y)
        else
          let theta := angle - HALF_PI in
          let '(x, y) := global_frame_change (c_xc c1) (c_yc c1) angle delta_x delta_y in
          (theta, x, y) in
      (theta, x, y) in
  let q := configuration x y theta 0 in
  Some q.

(** src/hc_cc_state_space/cc00_reeds_shepp_state_space.cpp:155-159 *)
Definition TcT_path (c1 : Circle) (c2 : Circle) : option (R * Configuration) :=
  flet q := TcT_tangent_circles c1 c2 in
  Some ((cc_turn_length c1 q) + (cc_turn_length c2 q), q).

(** src/hc_cc_state_space/cc00_reeds_shepp_state_space.cpp:164-175 *)
Definition TcTcT_exists (c1 : Circle) (c2 : Circle) : bool :=
  if negb (Bool.eqb (c_left c1) (c_left c2)) then
    false
  else
  if Bool.eqb (c_forward c1) (c_forward c2) then
    false
  else
  Rleb distance_ ((4 * (c_radius c1)) * (c_cos_mu c1)).

(** src/hc_cc_state_space/cc00_reeds_shepp_state_space.cpp:177-195 *)
Definition TcTcT_tangent_circles (c1 : Circle) (c2 : Circle) : option (Configuration * Configuration *
    Configuration * Configuration) :=
  let theta := angle_ in
  let r := (2 * (c_radius c1)) * (c_cos_mu c1) in
  let delta_x := (5 / 10) * distance_ in
  flet delta_y := fsqrt ((r ^ 2) - (delta_x ^ 2)) in
  let '(x, y) := global_frame_change (c_xc c1) (c_yc c1) theta delta_x delta_y in
  let tgt1 := circle_at x y (negb (c_left c1)) (negb (c_forward c1)) (c_regular c1) (hc_cc_param kappa_
      sigma_) in
  let '(x, y) := global_frame_change (c_xc c1) (c_yc c1) theta delta_x (- delta_y) in
  let tgt2 := circle_at x y (negb (c_left c1)) (negb (c_forward c1)) (c_regular c1) (hc_cc_param kappa_
      sigma_) in
  flet q1 := TcT_tangent_circles c1 tgt1 in
  flet q2 := TcT_tangent_circles tgt1 c2 in
  flet q3 := TcT_tangent_circles c1 tgt2 in
  flet q4 := TcT_tangent_circles tgt2 c2 in
  Some (q1, q2, q3, q4).

(** src/hc_cc_state_space/cc00_reeds_shepp_state_space.cpp:197-230 *)
Definition TcTcT_path (c1 : Circle) (c2 : Circle) : option (R * Configuration * Configuration * Circle) :=
  flet (qa, qb, qc, qd) := TcTcT_tangent_circles c1 c2 in
  let middle1 := circle qa (negb (c_left c1)) (negb (c_forward c1)) (c_regular c1) (hc_cc_param kappa_
      sigma_) in
  let middle2 := circle qc (negb (c_left c1)) (negb (c_forward c1)) (c_regular c1) (hc_cc_param kappa_
      sigma_) in
  let length1 := ((cc_turn_length c1 qa) + (cc_turn_length middle1 qb)) + (cc_turn_length c2 qb) in
  let length2 := ((cc_turn_length c1 qc) + (cc_turn_length middle2 qd)) + (cc_turn_length c2 qd) in
  if Rltb length1 length2 then
    let q1 := qa in
    let q2 := qb in
    let ci := middle1 in
    Some (length1, q1, q2, ci)
  else
    let q1 := qc in
    let q2 := qd in
    let ci := middle2 in
    Some (length2, q1, q2, ci).

(** src/hc_cc_state_space/cc00_reeds_shepp_state_space.cpp:233-244 *)
Definition TcTT_exists (c1 : Circle) (c2 : Circle) : bool :=
  if negb (Bool.eqb (c_left c1) (c_left c2)) then
    false
  else
  if negb (Bool.eqb (c_forward c1) (c_forward c2)) then
    false
  else
  (Rleb distance_ ((2 * (c_radius c1)) * (1 + (c_cos_mu c1)))) && (Rleb ((2 * (c_radius c1)) * (1 - (c_cos_mu
      c1))) distance_).

(** src/hc_cc_state_space/cc00_reeds_shepp_state_space.cpp:246-265 *)
Definition TcTT_tangent_circles (c1 : Circle) (c2 : Circle) : option (Configuration * Configuration *
    Configuration * Configuration) :=
  let theta := angle_ in
  let r1 := (2 * (c_radius c1)) * (c_cos_mu c1) in
  let r2 := 2 * (c_radius c1) in
  flet delta_x := fdiv (((r1 ^ 2) + (distance_ ^ 2)) - (r2 ^ 2)) (2 * distance_) in
  flet delta_y := fsqrt ((r1 ^ 2) - (delta_x ^ 2)) in
  let '(x, y) := global_frame_change (c_xc c1) (c_yc c1) theta delta_x delta_y in
  let tgt1 := circle_at x y (negb (c_left c1)) (negb (c_forward c1)) (c_regular c1) (hc_cc_param kappa_
      sigma_) in
  let '(x, y) := global_frame_change (c_xc c1) (c_yc c1) theta delta_x (- delta_y) in
  let tgt2 := circle_at x y (negb (c_left c1)) (negb (c_forward c1)) (c_regular c1) (hc_cc_param kappa_
      sigma_) in
  flet q1 := TcT_tangent_circles c1 tgt1 in
  let q2 := TT_tangent_circles tgt1 c2 in
  flet q3 := TcT_tangent_circles c1 tgt2 in
  let q4 := TT_tangent_circles tgt2 c2 in
  Some (q1, q2, q3, q4).

(** src/hc_cc_state_space/cc00_reeds_shepp_state_space.cpp:267-300 *)
Definition TcTT_path (c1 : Circle) (c2 : Circle) : option (R * Configuration * Configuration * Circle) :=
  flet (qa, qb, qc, qd) := TcTT_tangent_circles c1 c2 in
  let middle1 := circle qa (negb (c_left c1)) (negb (c_forward c1)) (c_regular c1) (hc_cc_param kappa_
      sigma_) in
  let middle2 := circle qc (negb (c_left c1)) (negb (c_forward c1)) (c_regular c1) (hc_cc_param kappa_
      sigma_) in
  let length1 := ((cc_turn_length c1 qa) + (cc_turn_length middle1 qb)) + (cc_turn_length c2 qb) in
  let length2 := ((cc_turn_length c1 qc) + (cc_turn_length middle2 qd)) + (cc_turn_length c2 qd) in
  if Rltb length1 length2 then
    let q1 := qa in
    let q2 := qb in
    let ci := middle1 in
    Some (length1, q1, q2, ci)
  else
    let q1 := qc in
    let q2 := qd in
    let ci := middle2 in
    Some (length2, q1, q2, ci).

(** src/hc_cc_state_space/cc00_reeds_shepp_state_space.cpp:303-314 *)
Definition TTcT_exists (c1 : Circle) (c2 : Circle) : bool :=
  if negb (Bool.eqb (c_left c1) (c_left c2)) then
    false
  else
  if negb (Bool.eqb (c_forward c1) (c_forward c2)) then
    false
  else
  (Rleb distance_ ((2 * (c_radius c1)) * (1 + (c_cos_mu c1)))) && (Rleb ((2 * (c_radius c1)) * (1 - (c_cos_mu
      c1))) distance_).

(** src/hc_cc_state_space/cc00_reeds_shepp_state_space.cpp:316-335 *)
Definition TTcT_tangent_circles (c1 : Circle) (c2 : Circle) : option (Configuration * Configuration *
    Configuration * Configuration) :=
  let theta := angle_ in
  let r1 := 2 * (c_radius c1) in
  let r2 := (2 * (c_radius c1)) * (c_cos_mu c1) in
  flet delta_x := fdiv (((r1 ^ 2) + (distance_ ^ 2)) - (r2 ^ 2)) (2 * distance_) in
  flet delta_y := fsqrt ((r1 ^ 2) - (delta_x ^ 2)) in
  let '(x, y) := global_frame_change (c_xc c1) (c_yc c1) theta delta_x delta_y in
  let tgt1 := circle_at x y (negb (c_left c1)) (c_forward c1) (c_regular c1) (hc_cc_param kappa_ sigma_) in
  let '(x, y) := global_frame_change (c_xc c1) (c_yc c1) theta delta_x (- delta_y) in
  let tgt2 := circle_at x y (negb (c_left c1)) (c_forward c1) (c_regular c1) (hc_cc_param kappa_ sigma_) in
  let q1 := TT_tangent_circles c1 tgt1 in
  flet q2 := TcT_tangent_circles tgt1 c2 in
  let q3 := TT_tangent_circles c1 tgt2 in
  flet q4 := TcT_tangent_circles tgt2 c2 in
  Some (q1, q2, q3, q4).

(** src/hc_cc_state_space/cc00_reeds_shepp_state_space.cpp:337-370 *)
Definition TTcT_path (c1 : Circle) (c2 : Circle) : option (R * Configuration * Configuration * Circle) :=
  flet (qa, qb, qc, qd) := TTcT_tangent_circles c1 c2 in
  let middle1 := circle qa (negb (c_left c1)) (c_forward c1) (c_regular c1) (hc_cc_param kappa_ sigma_) in
  let middle2 := circle qc (negb (c_left c1)) (c_forward c1) (c_regular c1) (hc_cc_param kappa_ sigma_) in
  let length1 := ((cc_turn_length c1 qa) + (cc_turn_length middle1 qb)) + (cc_turn_length c2 qb) in
  let length2 := ((cc_turn_length c1 qc) + (cc_turn_length middle2 qd)) + (cc_turn_length c2 qd) in
  if Rltb length1 length2 then
    let q1 := qa in
    let q2 := qb in
    let ci := middle1 in
    Some (length1, q1, q2, ci)
  else
    let q1 := qc in
    let q2 := qd in
    let ci := middle2 in
    Some (length2, q1, q2, ci).

(** src/hc_cc_state_space/cc00_reeds_shepp_state_space.cpp:373-384 *)
Definition TiST_exists (c1 : Circle) (c2 : Circle) : bool :=
  if Bool.eqb (c_left c1) (c_left c2) then
    false
  else
  if Bool.eqb (c_forward c1) (c_forward c2) then
    false
  else
  Rleb (2 * (c_radius c1)) distance_.

(** src/hc_cc_state_space/cc00_reeds_shepp_state_space.cpp:386-398 *)
Definition TeST_exists (c1 : Circle) (c2 : Circle) : bool :=
  if negb (Bool.eqb (c_left c1) (c_left c2)) then
    false
  else
  if Bool.eqb (c_forward c1) (c_forward c2) then
    false
  else
  Rleb ((2 * (c_radius c1)) * (c_sin_mu c1)) distance_.

(** src/hc_cc_state_space/cc00_reeds_shepp_state_space.cpp:400-403 *)
Definition TST_exists (c1 : Circle) (c2 : Circle) : bool :=
  (TiST_exists c1 c2) || (TeST_exists c1 c2).

(** src/hc_cc_state_space/cc00_reeds_shepp_state_space.cpp:405-446 *)
Definition TiST_tangent_circles (c1 : Circle) (c2 : Circle) : option (Configuration * Configuration) :=
  let distance := center_distance c1 c2 in
  let angle := atan2 ((c_yc c2) - (c_yc c1)) ((c_xc c2) - (c_xc c1)) in
  flet t1 := fdiv ((2 * (c_radius c1)) * (c_cos_mu c1)) distance in
  flet alpha := fasin t1 in
  let delta_x := (c_radius c1) * (c_sin_mu c1) in
  let delta_y := (c_radius c1) * (c_cos_mu c1) in
  let '(q1, q2) :=
    if (c_left c1) && (c_forward c1) then
      let theta := angle + alpha in
      let '(x, y) := global_frame_change (c_xc c1) (c_yc c1) theta delta_x (- delta_y) in
      let q1 := configuration x y theta 0 in
      let '(x, y) := global_frame_change (c_xc c2) (c_yc c2) theta (- delta_x) delta_y in
      let q2 := configuration x y theta 0 in
      (q1, q2)
    else
    if (c_left c1) && (negb (c_forward c1)) then
      let theta := angle - alpha in
      let '(x, y) := global_frame_change (c_xc c1) (c_yc c1) theta delta_x delta_y in
      let q1 := configuration x y (theta + PI) 0 in
      let '(x, y) := global_frame_change (c_xc c2) (c_yc c2) theta (- delta_x) (- delta_y) in
      let q2 := configuration x y (theta + PI) 0 in
      (q1, q2)
    else
    if (negb (c_left c1)) && (c_forward c1) then
      let theta := angle - alpha in
      let '(x, y) := global_frame_change (c_xc c1) (c_yc c1) theta delta_x delta_y in
      let q1 := configuration x y theta 0 in
      let '(x, y) := global_frame_change (c_xc c2) (c_yc c2) theta (- delta_x) (- delta_y) in
      let q2 := configuration x y theta 0 in
      (q1, q2)
    else
      let theta := angle + alpha in
      let '(x, y) := global_frame_change (c_xc c1) (c_yc c1) theta delta_x (- delta_y) in
      let q1 := configuration x y (theta + PI) 0 in
      let '(x, y) := global_frame_change (c_xc c2) (c_yc c2) theta (- delta_x) delta_y in
      let q2 := configuration x y (theta + PI) 0 in
      (q1, q2) in
  Some (q1, q2).

(** src/hc_cc_state_space/cc00_reeds_shepp_state_space.cpp:448-483 *)
Definition TeST_tangent_circles (c1 : Circle) (c2 : Circle) : Configuration * Configuration :=
  let delta_x := (c_radius c1) * (c_sin_mu c1) in
  let delta_y := (c_radius c1) * (c_cos_mu c1) in
  let theta := atan2 ((c_yc c2) - (c_yc c1)) ((c_xc c2) - (c_xc c1)) in
  let '(q1, q2) :=
    if (c_left c1) && (c_forward c1) then
      let '(x, y) := global_frame_change (c_xc c1) (c_yc c1) theta delta_x (- delta_y) in
      let q1 := configuration x y theta 0 in
      let '(x, y) := global_frame_change (c_xc c2) (c_yc c2) theta (- delta_x) (- delta_y) in
      let q2 := configuration x y theta 0 in
      (q1, q2)
    else
    if (c_left c1) && (negb (c_forward c1)) then
      let '(x, y) := global_frame_change (c_xc c1) (c_yc c1) theta delta_x delta_y in
      let q1 := configuration x y (theta + PI) 0 in
      let '(x, y) := global_frame_change (c_xc c2) (c_yc c2) theta (- delta_x) delta_y in
      let q2 := configuration x y (theta + PI) 0 in
      (q1, q2)
    else
    if (negb (c_left c1)) && (c_forward c1) then
      let '(x, y) := global_frame_change (c_xc c1) (c_yc c1) theta delta_x delta_y in
      let q1 := configuration x y theta 0 in
      let '(x, y) := global_frame_change (c_xc c2) (c_yc c2) theta (- delta_x) delta_y in
      let q2 := configuration x y theta 0 in
      (q1, q2)
    else
      let '(x, y) := global_frame_change (c_xc c1) (c_yc c1) theta delta_x (- delta_y) in
      let q1 := configuration x y (theta + PI) 0 in
      let '(x, y) := global_frame_change (c_xc c2) (c_yc c2) theta (- delta_x) (- delta_y) in
      let q2 := configuration x y (theta + PI) 0 in
      (q1, q2) in
  (q1, q2).

(** src/hc_cc_state_space/cc00_reeds_shepp_state_space.cpp:485-489 *)
Definition TiST_path (c1 : Circle) (c2 : Circle) : option (R * Configuration * Configuration) :=
  flet (q1, q2) := TiST_tangent_circles c1 c2 in
  Some (((cc_turn_length c1 q1) + (configuration_distance q1 q2)) + (cc_turn_length c2 q2), q1, q2).

(** src/hc_cc_state_space/cc00_reeds_shepp_state_space.cpp:491-495 *)
Definition TeST_path (c1 : Circle) (c2 : Circle) : R * Configuration * Configuration :=
  let '(q1, q2) := TeST_tangent_circles c1 c2 in
  (((cc_turn_length c1 q1) + (configuration_distance q1 q2)) + (cc_turn_length c2 q2), q1, q2).

(** src/hc_cc_state_space/cc00_reeds_shepp_state_space.cpp:497-508 *)
Definition TST_path (c1 : Circle) (c2 : Circle) : option (R * Configuration * Configuration) :=
  if TiST_exists c1 c2 then
    TiST_path c1 c2
  else
  if TeST_exists c1 c2 then
    Some (TeST_path c1 c2)
  else
  None.

(** src/hc_cc_state_space/cc00_reeds_shepp_state_space.cpp:511-522 *)
Definition TiSTcT_exists (c1 : Circle) (c2 : Circle) : bool :=
  if negb (Bool.eqb (c_left c1) (c_left c2)) then
    false
  else
  if negb (Bool.eqb (c_forward c1) (c_forward c2)) then
    false
  else
  match fsqrt ((1 + ((2 * (c_sin_mu c1)) * (c_cos_mu c1))) + ((c_cos_mu c1) ^ 2)) with
  | Some t1 =>
  Rleb ((2 * (c_radius c1)) * t1) distance_
  | None => false
  end.

(** src/hc_cc_state_space/cc00_reeds_shepp_state_space.cpp:524-535 *)
Definition TeSTcT_exists (c1 : Circle) (c2 : Circle) : bool :=
  if Bool.eqb (c_left c1) (c_left c2) then
    false
  else
  if negb (Bool.eqb (c_forward c1) (c_forward c2)) then
    false
  else
  Rleb ((2 * (c_radius c1)) * ((c_cos_mu c1) + (c_sin_mu c1))) distance_.

(** src/hc_cc_state_space/cc00_reeds_shepp_state_space.cpp:537-540 *)
Definition TSTcT_exists (c1 : Circle) (c2 : Circle) : bool :=
  (TiSTcT_exists c1 c2) || (TeSTcT_exists c1 c2).

(** src/hc_cc_state_space/cc00_reeds_shepp_state_space.cpp:542-561 *)
Definition TiSTcT_path (c1 : Circle) (c2 : Circle) : option (R * Configuration * Configuration *
    Configuration * Circle) :=
  let theta := angle_ in
  let r := (c_radius c2) * (c_cos_mu c2) in
  flet delta_y := fdiv ((2 * r) ^ 2) distance_ in
  flet t2 := fdiv delta_y distance_ in
  flet t3 := fsqrt (1 - t2) in
  let delta_x := (2 * r) * t3 in
  let '(x, y) := global_frame_change (c_xc c2) (c_yc c2) theta (- delta_x) delta_y in
  let tgt1 := circle_at x y (negb (c_left c2)) (c_forward c2) (c_regular c2) (hc_cc_param kappa_ sigma_) in
  flet (q1, q2) := TiST_tangent_circles c1 tgt1 in
  flet q3 := TcT_tangent_circles tgt1 c2 in
  let ci := circle q2 (negb (c_left c1)) (c_forward c1) (c_regular c1) (hc_cc_param kappa_ sigma_) in
  Some ((((cc_turn_length c1 q1) + (configuration_distance q1 q2)) + (cc_turn_length ci q3)) +
      (cc_turn_length c2 q3), q1, q2, q3, ci).

(** src/hc_cc_state_space/cc00_reeds_shepp_state_space.cpp:563-581 *)
Definition TeSTcT_path (c1 : Circle) (c2 : Circle) : option (R * Configuration * Configuration *
    Configuration * Circle) :=
  let theta := angle_ in
  let delta_x := (2 * (c_radius c2)) * (c_cos_mu c2) in
  let delta_y := 0 in
  let '(x, y) := global_frame_change (c_xc c2) (c_yc c2) theta (- delta_x) delta_y in
  let tgt1 := circle_at x y (negb (c_left c2)) (c_forward c2) (c_regular c2) (hc_cc_param kappa_ sigma_) in
  let '(q1, q2) := TeST_tangent_circles c1 tgt1 in
  flet q3 := TcT_tangent_circles tgt1 c2 in
  let ci := circle q2 (c_left c1) (c_forward c1) (c_regular c1) (hc_cc_param kappa_ sigma_) in
  Some ((((cc_turn_length c1 q1) + (configuration_distance q1 q2)) + (cc_turn_length ci q3)) +
      (cc_turn_length c2 q3), q1, q2, q3, ci).

(** src/hc_cc_state_space/cc00_reeds_shepp_state_space.cpp:583-595 *)
Definition TSTcT_path (c1 : Circle) (c2 : Circle) : option (R * Configuration * Configuration * Configuration
    * Circle) :=
  if TiSTcT_exists c1 c2 then
    TiSTcT_path c1 c2
  else
  if TeSTcT_exists c1 c2 then
    TeSTcT_path c1 c2
  else
  None.

(** src/hc_cc_state_space/cc00_reeds_shepp_state_space.cpp:598-609 *)
Definition TcTiST_exists (c1 : Circle) (c2 : Circle) : bool :=
  if negb (Bool.eqb (c_left c1) (c_left c2)) then
    false
  else
  if negb (Bool.eqb (c_forward c1) (c_forward c2)) then
    false
  else
  match fsqrt ((1 + ((2 * (c_sin_mu c1)) * (c_cos_mu c1))) + ((c_cos_mu c1) ^ 2)) with
  | Some t1 =>
  Rleb ((2 * (c_radius c1)) * t1) distance_
  | None => false
  end.

(** src/hc_cc_state_space/cc00_reeds_shepp_state_space.cpp:611-622 *)
Definition TcTeST_exists (c1 : Circle) (c2 : Circle) : bool :=
  if Bool.eqb (c_left c1) (c_left c2) then
    false
  else
  if negb (Bool.eqb (c_forward c1) (c_forward c2)) then
    false
  else
  Rleb ((2 * (c_radius c1)) * ((c_cos_mu c1) + (c_sin_mu c1))) distance_.

(** src/hc_cc_state_space/cc00_reeds_shepp_state_space.cpp:624-627 *)
Definition TcTST_exists (c1 : Circle) (c2 : Circle) : bool :=
  (TcTiST_exists c1 c2) || (TcTeST_exists c1 c2).

(** src/hc_cc_state_space/cc00_reeds_shepp_state_space.cpp:629-648 *)
Definition TcTiST_path (c1 : Circle) (c2 : Circle) : option (R * Configuration * Configuration *
    Configuration * Circle) :=
  let theta := angle_ in
  let r := (c_radius c1) * (c_cos_mu c1) in
  flet delta_y := fdiv ((2 * r) ^ 2) distance_ in
  flet t2 := fdiv delta_y distance_ in
  flet t3 := fsqrt (1 - t2) in
  let delta_x := (2 * r) * t3 in
  let '(x, y) := global_frame_change (c_xc c1) (c_yc c1) theta delta_x (- delta_y) in
  let tgt1 := circle_at x y (negb (c_left c2)) (negb (c_forward c2)) (c_regular c2) (hc_cc_param kappa_
      sigma_) in
  flet q1 := TcT_tangent_circles c1 tgt1 in
  flet (q2, q3) := TiST_tangent_circles tgt1 c2 in
  let ci := circle q1 (negb (c_left c1)) (negb (c_forward c1)) (c_regular c1) (hc_cc_param kappa_ sigma_) in
  Some ((((cc_turn_length c1 q1) + (cc_turn_length ci q2)) + (configuration_distance q2 q3)) +
      (cc_turn_length c2 q3), q1, q2, q3, ci).

(** src/hc_cc_state_space/cc00_reeds_shepp_state_space.cpp:650-668 *)
Definition TcTeST_path (c1 : Circle) (c2 : Circle) : option (R * Configuration * Configuration *
    Configuration * Circle) :=
  let theta := angle_ in
  let delta_x := (2 * (c_radius c2)) * (c_cos_mu c2) in
  let delta_y := 0 in
  let '(x, y) := global_frame_change (c_xc c1) (c_yc c1) theta delta_x delta_y in
  let tgt1 := circle_at x y (c_left c2) (negb (c_forward c2)) (c_regular c2) (hc_cc_param kappa_ sigma_) in
  flet q1 := TcT_tangent_circles c1 tgt1 in
  let '(q2, q3) := TeST_tangent_circles tgt1 c2 in
  let ci := circle q1 (negb (c_left c1)) (negb (c_forward c1)) (c_regular c1) (hc_cc_param kappa_ sigma_) in
  Some ((((cc_turn_length c1 q1) + (cc_turn_length ci q2)) + (configuration_distance q2 q3)) +
      (cc_turn_length c2 q3), q1, q2, q3, ci).

(** src/hc_cc_state_space/cc00_reeds_shepp_state_space.cpp:670-682 *)
Definition TcTST_path (c1 : Circle) (c2 : Circle) : option (R * Configuration * Configuration * Configuration
    * Circle) :=
  if TcTiST_exists c1 c2 then
    TcTiST_path c1 c2
  else
  if TcTeST_exists c1 c2 then
    TcTeST_path c1 c2
  else
  None.

(** src/hc_cc_state_space/cc00_reeds_shepp_state_space.cpp:685-696 *)
Definition TcTiSTcT_exists (c1 : Circle) (c2 : Circle) : bool :=
  if Bool.eqb (c_left c1) (c_left c2) then
    false
  else
  if Bool.eqb (c_forward c1) (c_forward c2) then
    false
  else
  match fsqrt ((1 + ((4 * (c_cos_mu c1)) * (c_sin_mu c1))) + (4 * ((c_cos_mu c1) ^ 2))) with
  | Some t1 =>
  Rleb ((2 * (c_radius c1)) * t1) distance_
  | None => false
  end.

(** src/hc_cc_state_space/cc00_reeds_shepp_state_space.cpp:698-709 *)
Definition TcTeSTcT_exists (c1 : Circle) (c2 : Circle) : bool :=
  if negb (Bool.eqb (c_left c1) (c_left c2)) then
    false
  else
  if Bool.eqb (c_forward c1) (c_forward c2) then
    false
  else
  Rleb ((2 * (c_radius c1)) * ((2 * (c_cos_mu c1)) + (c_sin_mu c1))) distance_.

(** src/hc_cc_state_space/cc00_reeds_shepp_state_space.cpp:711-714 *)
Definition TcTSTcT_exists (c1 : Circle) (c2 : Circle) : bool :=
  (TcTiSTcT_exists c1 c2) || (TcTeSTcT_exists c1 c2).

(** src/hc_cc_state_space/cc00_reeds_shepp_state_space.cpp:716-739 *)
Definition TcTiSTcT_path (c1 : Circle) (c2 : Circle) : option (R * Configuration * Configuration *
    Configuration * Configuration * Circle * Circle) :=
  let theta := angle_ in
  let r := (c_radius c1) * (c_cos_mu c1) in
  flet delta_y := fdiv ((2 * r) ^ 2) distance_ in
  flet t2 := fdiv delta_y distance_ in
  flet t3 := fsqrt (1 - t2) in
  let delta_x := (2 * r) * t3 in
  let '(x, y) := global_frame_change (c_xc c1) (c_yc c1) theta delta_x delta_y in
  let tgt1 := circle_at x y (negb (c_left c1)) (negb (c_forward c1)) (c_regular c1) (hc_cc_param kappa_
      sigma_) in
  let '(x, y) := global_frame_change (c_xc c2) (c_yc c2) theta (- delta_x) (- delta_y) in
  let tgt2 := circle_at x y (negb (c_left c2)) (c_forward c2) (c_regular c2) (hc_cc_param kappa_ sigma_) in
  flet q1 := TcT_tangent_circles c1 tgt1 in
  flet (q2, q3) := TiST_tangent_circles tgt1 tgt2 in
  flet q4 := TcT_tangent_circles tgt2 c2 in
  let ci1 := circle q1 (negb (c_left c1)) (negb (c_forward c1)) (c_regular c1) (hc_cc_param kappa_ sigma_) in
  let ci2 := circle q3 (negb (c_left c2)) (c_forward c2) (c_regular c2) (hc_cc_param kappa_ sigma_) in
  Some (((((cc_turn_length c1 q1) + (cc_turn_length ci1 q2)) + (configuration_distance q2 q3)) +
      (cc_turn_length ci2 q4)) + (cc_turn_length c2 q4), q1, q2, q3, q4, ci1, ci2).

(** src/hc_cc_state_space/cc00_reeds_shepp_state_space.cpp:741-763 *)
Definition TcTeSTcT_path (c1 : Circle) (c2 : Circle) : option (R * Configuration * Configuration *
    Configuration * Configuration * Circle * Circle) :=
  let theta := angle_ in
  let delta_x := (2 * (c_radius c1)) * (c_cos_mu c1) in
  let delta_y := 0 in
  let '(x, y) := global_frame_change (c_xc c1) (c_yc c1) theta delta_x delta_y in
  let tgt1 := circle_at x y (negb (c_left c1)) (negb (c_forward c1)) (c_regular c1) (hc_cc_param kappa_
      sigma_) in
  let '(x, y) := global_frame_change (c_xc c2) (c_yc c2) theta (- delta_x) delta_y in
  let tgt2 := circle_at x y (negb (c_left c2)) (c_forward c2) (c_regular c2) (hc_cc_param kappa_ sigma_) in
  flet q1 := TcT_tangent_circles c1 tgt1 in
  let '(q2, q3) := TeST_tangent_circles tgt1 tgt2 in
  flet q4 := TcT_tangent_circles tgt2 c2 in
  let ci1 := circle q1 (negb (c_left c1)) (negb (c_forward c1)) (c_regular c1) (hc_cc_param kappa_ sigma_) in
  let ci2 := circle q3 (negb (c_left c2)) (c_forward c2) (c_regular c2) (hc_cc_param kappa_ sigma_) in
  Some (((((cc_turn_length c1 q1) + (cc_turn_length ci1 q2)) + (configuration_distance q2 q3)) +
      (cc_turn_length ci2 q4)) + (cc_turn_length c2 q4), q1, q2, q3, q4, ci1, ci2).

(** src/hc_cc_state_space/cc00_reeds_shepp_state_space.cpp:765-777 *)
Definition TcTSTcT_path (c1 : Circle) (c2 : Circle) : option (R * Configuration * Configuration *
    Configuration * Configuration * Circle * Circle) :=
  if TcTiSTcT_exists c1 c2 then
    TcTiSTcT_path c1 c2
  else
  if TcTeSTcT_exists c1 c2 then
    TcTeSTcT_path c1 c2
  else
  None.

(** src/hc_cc_state_space/cc00_reeds_shepp_state_space.cpp:780-791 *)
Definition TTcTT_exists (c1 : Circle) (c2 : Circle) : bool :=
  if Bool.eqb (c_left c1) (c_left c2) then
    false
  else
  if negb (Bool.eqb (c_forward c1) (c_forward c2)) then
    false
  else
  Rleb distance_ ((2 * (c_radius c1)) * ((c_cos_mu c1) + 2)).

(** src/hc_cc_state_space/cc00_reeds_shepp_state_space.cpp:793-828 *)
Definition TTcTT_tangent_circles (c1 : Circle) (c2 : Circle) : option (Configuration * Configuration *
    Configuration * Configuration * Configuration * Configuration) :=
  let theta := angle_ in
  let r1 := (2 * (c_radius c1)) * (c_cos_mu c1) in
  let r2 := 2 * (c_radius c1) in
  flet (delta_x, delta_y) :=
    (
    if Rltb distance_ ((2 * (c_radius c1)) * ((- (c_cos_mu c1)) + 2)) then
      let delta_x := (distance_ + r1) / 2 in
      flet delta_y := fsqrt ((r2 ^ 2) - (delta_x ^ 2)) in
      Some (delta_x, delta_y)
    else
      let delta_x := (distance_ - r1) / 2 in
      flet delta_y := fsqrt ((r2 ^ 2) - (delta_x ^ 2)) in
      Some (delta_x, delta_y)) in
  let '(x, y) := global_frame_change (c_xc c1) (c_yc c1) theta delta_x delta_y in
  let tgt1 := circle_at x y (negb (c_left c1)) (c_forward c1) (c_regular c1) (hc_cc_param kappa_ sigma_) in
  let '(x, y) := global_frame_change (c_xc c2) (c_yc c2) theta (- delta_x) delta_y in
  let tgt2 := circle_at x y (negb (c_left c2)) (negb (c_forward c2)) (c_regular c2) (hc_cc_param kappa_
      sigma_) in
  let '(x, y) := global_frame_change (c_xc c1) (c_yc c1) theta delta_x (- delta_y) in
  let tgt3 := circle_at x y (negb (c_left c1)) (c_forward c1) (c_regular c1) (hc_cc_param kappa_ sigma_) in
  let '(x, y) := global_frame_change (c_xc c2) (c_yc c2) theta (- delta_x) (- delta_y) in
  let tgt4 := circle_at x y (negb (c_left c2)) (negb (c_forward c2)) (c_regular c2) (hc_cc_param kappa_
      sigma_) in
  let q1 := TT_tangent_circles c1 tgt1 in
  flet q2 := TcT_tangent_circles tgt1 tgt2 in
  let q3 := TT_tangent_circles tgt2 c2 in
  let q4 := TT_tangent_circles c1 tgt3 in
  flet q5 := TcT_tangent_circles tgt3 tgt4 in
  let q6 := TT_tangent_circles tgt4 c2 in
  Some (q1, q2, q3, q4, q5, q6).

(** src/hc_cc_state_space/cc00_reeds_shepp_state_space.cpp:830-875 *)
Definition TTcTT_path (c1 : Circle) (c2 : Circle) : option (R * Configuration * Configuration * Configuration
    * Circle * Circle) :=
  flet (qa, qb, qc, qd, qe, qf) := TTcTT_tangent_circles c1 c2 in
  let middle1 := circle qa (negb (c_left c1)) (c_forward c1) (c_regular c1) (hc_cc_param kappa_ sigma_) in
  let middle2 := circle qb (negb (c_left c2)) (negb (c_forward c2)) (c_regular c2) (hc_cc_param kappa_
      sigma_) in
  let middle3 := circle qd (negb (c_left c1)) (c_forward c1) (c_regular c1) (hc_cc_param kappa_ sigma_) in
  let middle4 := circle qe (negb (c_left c2)) (negb (c_forward c2)) (c_regular c2) (hc_cc_param kappa_
      sigma_) in
  let length1 := (((cc_turn_length c1 qa) + (cc_turn_length middle1 qb)) + (cc_turn_length middle2 qc)) +
      (cc_turn_length c2 qc) in
  let length2 := (((cc_turn_length c1 qd) + (cc_turn_length middle3 qe)) + (cc_turn_length middle4 qf)) +
      (cc_turn_length c2 qf) in
  if Rltb length1 length2 then
    let q1 := qa in
    let q2 := qb in
    let q3 := qc in
    let ci1 := middle1 in
    let ci2 := middle2 in
    Some (length1, q1, q2, q3, ci1, ci2)
  else
    let q1 := qd in
    let q2 := qe in
    let q3 := qf in
    let ci1 := middle3 in
    let ci2 := middle4 in
    Some (length2, q1, q2, q3, ci1, ci2).

(** src/hc_cc_state_space/cc00_reeds_shepp_state_space.cpp:878-889 *)
Definition TcTTcT_exists (c1 : Circle) (c2 : Circle) : bool :=
  if Bool.eqb (c_left c1) (c_left c2) then
    false
  else
  if Bool.eqb (c_forward c1) (c_forward c2) then
    false
  else
  (Rleb distance_ ((2 * (c_radius c1)) * ((2 * (c_cos_mu c1)) + 1))) && (Rleb ((2 * (c_radius c1)) * ((2 *
      (c_cos_mu c1)) - 1)) distance_).

(** src/hc_cc_state_space/cc00_reeds_shepp_state_space.cpp:891-918 *)
Definition TcTTcT_tangent_circles (c1 : Circle) (c2 : Circle) : option (Configuration * Configuration *
    Configuration * Configuration * Configuration * Configuration) :=
  let theta := angle_ in
  let r1 := (2 * (c_radius c1)) * (c_cos_mu c1) in
  let r2 := c_radius c1 in
  flet delta_x := fdiv (((r1 ^ 2) + ((distance_ / 2) ^ 2)) - (r2 ^ 2)) distance_ in
  flet delta_y := fsqrt ((r1 ^ 2) - (delta_x ^ 2)) in
  let '(x, y) := global_frame_change (c_xc c1) (c_yc c1) theta delta_x delta_y in
  let tgt1 := circle_at x y (negb (c_left c1)) (negb (c_forward c1)) (c_regular c1) (hc_cc_param kappa_
      sigma_) in
  let '(x, y) := global_frame_change (c_xc c2) (c_yc c2) theta (- delta_x) (- delta_y) in
  let tgt2 := circle_at x y (negb (c_left c2)) (c_forward c2) (c_regular c2) (hc_cc_param kappa_ sigma_) in
  let '(x, y) := global_frame_change (c_xc c1) (c_yc c1) theta delta_x (- delta_y) in
  let tgt3 := circle_at x y (negb (c_left c1)) (negb (c_forward c1)) (c_regular c1) (hc_cc_param kappa_
      sigma_) in
  let '(x, y) := global_frame_change (c_xc c2) (c_yc c2) theta (- delta_x) delta_y in
  let tgt4 := circle_at x y (negb (c_left c2)) (c_forward c2) (c_regular c2) (hc_cc_param kappa_ sigma_) in
  flet q1 := TcT_tangent_circles c1 tgt1 in
  let q2 := TT_tangent_circles tgt1 tgt2 in
  flet q3 := TcT_tangent_circles tgt2 c2 in
  flet q4 := TcT_tangent_circles c1 tgt3 in
  let q5 := TT_tangent_circles tgt3 tgt4 in
  flet q6 := TcT_tangent_circles tgt4 c2 in
  Some (q1, q2, q3, q4, q5, q6).

(** src/hc_cc_state_space/cc00_reeds_shepp_state_space.cpp:920-965 *)
Definition TcTTcT_path (c1 : Circle) (c2 : Circle) : option (R * Configuration * Configuration *
    Configuration * Circle * Circle) :=
  flet (qa, qb, qc, qd, qe, qf) := TcTTcT_tangent_circles c1 c2 in
  let middle1 := circle qa (negb (c_left c1)) (negb (c_forward c1)) (c_regular c1) (hc_cc_param kappa_
      sigma_) in
  let middle2 := circle qb (c_left c1) (negb (c_forward c1)) (c_regular c1) (hc_cc_param kappa_ sigma_) in
  let middle3 := circle qd (negb (c_left c1)) (negb (c_forward c1)) (c_regular c1) (hc_cc_param kappa_
      sigma_) in
  let middle4 := circle qe (c_left c1) (negb (c_forward c1)) (c_regular c1) (hc_cc_param kappa_ sigma_) in
  let length1 := (((cc_turn_length c1 qa) + (cc_turn_length middle1 qb)) + (cc_turn_length middle2 qc)) +
      (cc_turn_length c2 qc) in
  let length2 := (((cc_turn_length c1 qd) + (cc_turn_length middle3 qe)) + (cc_turn_length middle4 qf)) +
      (cc_turn_length c2 qf) in
  if Rltb length1 length2 then
    let q1 := qa in
    let q2 := qb in
    let q3 := qc in
    let ci1 := middle1 in
    let ci2 := middle2 in
    Some (length1, q1, q2, q3, ci1, ci2)
  else
    let q1 := qd in
    let q2 := qe in
    let q3 := qf in
    let ci1 := middle3 in
    let ci2 := middle4 in
    Some (length2, q1, q2, q3, ci1, ci2).

(** src/hc_cc_state_space/cc00_reeds_shepp_state_space.cpp:970-981 *)
Definition TTT_exists (c1 : Circle) (c2 : Circle) : bool :=
  if negb (Bool.eqb (c_left c1) (c_left c2)) then
    false
  else
  if Bool.eqb (c_forward c1) (c_forward c2) then
    false
  else
  Rleb distance_ (4 * (c_radius c1)).

(** src/hc_cc_state_space/cc00_reeds_shepp_state_space.cpp:983-1001 *)
Definition TTT_tangent_circles (c1 : Circle) (c2 : Circle) : option (Configuration * Configuration *
    Configuration * Configuration) :=
  let theta := angle_ in
  let r := 2 * (c_radius c1) in
  let delta_x := (5 / 10) * distance_ in
  flet delta_y := fsqrt ((r ^ 2) - (delta_x ^ 2)) in
  let '(x, y) := global_frame_change (c_xc c1) (c_yc c1) theta delta_x delta_y in
  let tgt1 := circle_at x y (negb (c_left c1)) (c_forward c1) (c_regular c1) (hc_cc_param kappa_ sigma_) in
  let '(x, y) := global_frame_change (c_xc c1) (c_yc c1) theta delta_x (- delta_y) in
  let tgt2 := circle_at x y (negb (c_left c1)) (c_forward c1) (c_regular c1) (hc_cc_param kappa_ sigma_) in
  let q1 := TT_tangent_circles c1 tgt1 in
  let q2 := TT_tangent_circles tgt1 c2 in
  let q3 := TT_tangent_circles c1 tgt2 in
  let q4 := TT_tangent_circles tgt2 c2 in
  Some (q1, q2, q3, q4).

(** src/hc_cc_state_space/cc00_reeds_shepp_state_space.cpp:1003-1036 *)
Definition TTT_path (c1 : Circle) (c2 : Circle) : option (R * Configuration * Configuration * Circle) :=
  flet (qa, qb, qc, qd) := TTT_tangent_circles c1 c2 in
  let middle1 := circle qa (negb (c_left c1)) (c_forward c1) (c_regular c1) (hc_cc_param kappa_ sigma_) in
  let middle2 := circle qc (negb (c_left c1)) (c_forward c1) (c_regular c1) (hc_cc_param kappa_ sigma_) in
  let length1 := ((cc_turn_length c1 qa) + (cc_turn_length middle1 qb)) + (cc_turn_length c2 qb) in
  let length2 := ((cc_turn_length c1 qc) + (cc_turn_length middle2 qd)) + (cc_turn_length c2 qd) in
  if Rltb length1 length2 then
    let q1 := qa in
    let q2 := qb in
    let ci := middle1 in
    Some (length1, q1, q2, ci)
  else
    let q1 := qc in
    let q2 := qd in
    let ci := middle2 in
    Some (length2, q1, q2, ci).

(** src/hc_cc_state_space/cc00_reeds_shepp_state_space.cpp:1039-1050 *)
Definition TciST_exists (c1 : Circle) (c2 : Circle) : bool :=
  if Bool.eqb (c_left c1) (c_left c2) then
    false
  else
  if negb (Bool.eqb (c_forward c1) (c_forward c2)) then
    false
  else
  Rleb ((2 * (c_radius c1)) * (c_cos_mu c1)) distance_.

(** src/hc_cc_state_space/cc00_reeds_shepp_state_space.cpp:1052-1063 *)
Definition TceST_exists (c1 : Circle) (c2 : Circle) : bool :=
  if negb (Bool.eqb (c_left c1) (c_left c2)) then
    false
  else
  if negb (Bool.eqb (c_forward c1) (c_forward c2)) then
    false
  else
  Rleb epsilon distance_.

(** src/hc_cc_state_space/cc00_reeds_shepp_state_space.cpp:1065-1068 *)
Definition TcST_exists (c1 : Circle) (c2 : Circle) : bool :=
  (TciST_exists c1 c2) || (TceST_exists c1 c2).

(** src/hc_cc_state_space/cc00_reeds_shepp_state_space.cpp:1070-1109 *)
Definition TciST_path (c1 : Circle) (c2 : Circle) : option (R * Configuration * Configuration) :=
  flet t1 := fdiv ((2 * (c_radius c1)) * (c_cos_mu c1)) distance_ in
  flet alpha := fasin t1 in
  let delta_x := (c_radius c1) * (c_sin_mu c1) in
  let delta_y := (c_radius c1) * (c_cos_mu c1) in
  let '(q1, q2) :=
    if (c_left c1) && (c_forward c1) then
      let theta := angle_ - alpha in
      let '(x, y) := global_frame_change (c_xc c1) (c_yc c1) theta (- delta_x) delta_y in
      let q1 := configuration x y (theta + PI) 0 in
      let '(x, y) := global_frame_change (c_xc c2) (c_yc c2) theta (- delta_x) (- delta_y) in
      let q2 := configuration x y (theta + PI) 0 in
      (q1, q2)
    else
    if (c_left c1) && (negb (c_forward c1)) then
      let theta := angle_ + alpha in
      let '(x, y) := global_frame_change (c_xc c1) (c_yc c1) theta (- delta_x) (- delta_y) in
      let q1 := configuration x y theta 0 in
      let '(x, y) := global_frame_change (c_xc c2) (c_yc c2) theta (- delta_x) delta_y in
      let q2 := configuration x y theta 0 in
      (q1, q2)
    else
    if (negb (c_left c1)) && (c_forward c1) then
      let theta := angle_ + alpha in
      let '(x, y) := global_frame_change (c_xc c1) (c_yc c1) theta (- delta_x) (- delta_y) in
      let q1 := configuration x y (theta + PI) 0 in
      let '(x, y) := global_frame_change (c_xc c2) (c_yc c2) theta (- delta_x) delta_y in
      let q2 := configuration x y (theta + PI) 0 in
      (q1, q2)
    else
      let theta := angle_ - alpha in
      let '(x, y) := global_frame_change (c_xc c1) (c_yc c1) theta (- delta_x) delta_y in
      let q1 := configuration x y theta 0 in
      let '(x, y) := global_frame_change (c_xc c2) (c_yc c2) theta (- delta_x) (- delta_y) in
      let q2 := configuration x y theta 0 in
      (q1, q2) in
  Some (((cc_turn_length c1 q1) + (configuration_distance q1 q2)) + (cc_turn_length c2 q2), q1, q2).

(** src/hc_cc_state_space/cc00_reeds_shepp_state_space.cpp:1111-1146 *)
Definition TceST_path (c1 : Circle) (c2 : Circle) : R * Configuration * Configuration :=
  let theta := angle_ in
  let delta_x := (c_radius c1) * (c_sin_mu c1) in
  let delta_y := (c_radius c1) * (c_cos_mu c1) in
  let '(q1, q2) :=
    if (c_left c1) && (c_forward c1) then
      let '(x, y) := global_frame_change (c_xc c1) (c_yc c1) theta (- delta_x) delta_y in
      let q1 := configuration x y (theta + PI) 0 in
      let '(x, y) := global_frame_change (c_xc c2) (c_yc c2) theta (- delta_x) delta_y in
      let q2 := configuration x y (theta + PI) 0 in
      (q1, q2)
    else
    if (c_left c1) && (negb (c_forward c1)) then
      let '(x, y) := global_frame_change (c_xc c1) (c_yc c1) theta (- delta_x) (- delta_y) in
      let q1 := configuration x y theta 0 in
      let '(x, y) := global_frame_change (c_xc c2) (c_yc c2) theta (- delta_x) (- delta_y) in
      let q2 := configuration x y theta 0 in
      (q1, q2)
    else
    if (negb (c_left c1)) && (c_forward c1) then
      let '(x, y) := global_frame_change (c_xc c1) (c_yc c1) theta (- delta_x) (- delta_y) in
      let q1 := configuration x y (theta + PI) 0 in
      let '(x, y) := global_frame_change (c_xc c2) (c_yc c2) theta (- delta_x) (- delta_y) in
      let q2 := configuration x y (theta + PI) 0 in
      (q1, q2)
    else
      let '(x, y) := global_frame_change (c_xc c1) (c_yc c1) theta (- delta_x) delta_y in
      let q1 := configuration x y theta 0 in
      let '(x, y) := global_frame_change (c_xc c2) (c_yc c2) theta (- delta_x) delta_y in
      let q2 := configuration x y theta 0 in
      (q1, q2) in
  (((cc_turn_length c1 q1) + (configuration_distance q1 q2)) + (cc_turn_length c2 q2), q1, q2).

(** src/hc_cc_state_space/cc00_reeds_shepp_state_space.cpp:1148-1159 *)
Definition TcST_path (c1 : Circle) (c2 : Circle) : option (R * Configuration * Configuration) :=
  if TciST_exists c1 c2 then
    TciST_path c1 c2
  else
  if TceST_exists c1 c2 then
    Some (TceST_path c1 c2)
  else
  None.

(** src/hc_cc_state_space/cc00_reeds_shepp_state_space.cpp:1162-1173 *)
Definition TiScT_exists (c1 : Circle) (c2 : Circle) : bool :=
  if Bool.eqb (c_left c1) (c_left c2) then
    false
  else
  if negb (Bool.eqb (c_forward c1) (c_forward c2)) then
    false
  else
  Rleb ((2 * (c_radius c1)) * (c_cos_mu c1)) distance_.

(** src/hc_cc_state_space/cc00_reeds_shepp_state_space.cpp:1175-1186 *)
Definition TeScT_exists (c1 : Circle) (c2 : Circle) : bool :=
  if negb (Bool.eqb (c_left c1) (c_left c2)) then
    false
  else
  if negb (Bool.eqb (c_forward c1) (c_forward c2)) then
    false
  else
  Rleb epsilon distance_.

(** src/hc_cc_state_space/cc00_reeds_shepp_state_space.cpp:1188-1191 *)
Definition TScT_exists (c1 : Circle) (c2 : Circle) : bool :=
  (TiScT_exists c1 c2) || (TeScT_exists c1 c2).

(** src/hc_cc_state_space/cc00_reeds_shepp_state_space.cpp:1193-1232 *)
Definition TiScT_path (c1 : Circle) (c2 : Circle) : option (R * Configuration * Configuration) :=
  flet t1 := fdiv ((2 * (c_radius c1)) * (c_cos_mu c1)) distance_ in
  flet alpha := fasin t1 in
  let delta_x := (c_radius c1) * (c_sin_mu c1) in
  let delta_y := (c_radius c1) * (c_cos_mu c1) in
  let '(q1, q2) :=
    if (c_left c1) && (c_forward c1) then
      let theta := angle_ + alpha in
      let '(x, y) := global_frame_change (c_xc c1) (c_yc c1) theta delta_x (- delta_y) in
      let q1 := configuration x y theta 0 in
      let '(x, y) := global_frame_change (c_xc c2) (c_yc c2) theta delta_x delta_y in
      let q2 := configuration x y theta 0 in
      (q1, q2)
    else
    if (c_left c1) && (negb (c_forward c1)) then
      let theta := angle_ - alpha in
      let '(x, y) := global_frame_change (c_xc c1) (c_yc c1) theta delta_x delta_y in
      let q1 := configuration x y (theta + PI) 0 in
      let '(x, y) := global_frame_change (c_xc c2) (c_yc c2) theta delta_x (- delta_y) in
      let q2 := configuration x y (theta + PI) 0 in
      (q1, q2)
    else
    if (negb (c_left c1)) && (c_forward c1) then
      let theta := angle_ - alpha in
      let '(x, y) := global_frame_change (c_xc c1) (c_yc c1) theta delta_x delta_y in
      let q1 := configuration x y theta 0 in
      let '(x, y) := global_frame_change (c_xc c2) (c_yc c2) theta delta_x (- delta_y) in
      let q2 := configuration x y theta 0 in
      (q1, q2)
    else
      let theta := angle_ + alpha in
      let '(x, y) := global_frame_change (c_xc c1) (c_yc c1) theta delta_x (- delta_y) in
      let q1 := configuration x y (theta + PI) 0 in
      let '(x, y) := global_frame_change (c_xc c2) (c_yc c2) theta delta_x delta_y in
      let q2 := configuration x y (theta + PI) 0 in
      (q1, q2) in
  Some (((cc_turn_length c1 q1) + (configuration_distance q1 q2)) + (cc_turn_length c2 q2), q1, q2).

(** src/hc_cc_state_space/cc00_reeds_shepp_state_space.cpp:1234-1269 *)
Definition TeScT_path (c1 : Circle) (c2 : Circle) : R * Configuration * Configuration :=
  let theta := angle_ in
  let delta_x := (c_radius c1) * (c_sin_mu c1) in
  let delta_y := (c_radius c1) * (c_cos_mu c1) in
  let '(q1, q2) :=
    if (c_left c1) && (c_forward c1) then
      let '(x, y) := global_frame_change (c_xc c1) (c_yc c1) theta delta_x (- delta_y) in
      let q1 := configuration x y theta 0 in
      let '(x, y) := global_frame_change (c_xc c2) (c_yc c2) theta delta_x (- delta_y) in
      let q2 := configuration x y theta 0 in
      (q1, q2)
    else
    if (c_left c1) && (negb (c_forward c1)) then
      let '(x, y) := global_frame_change (c_xc c1) (c_yc c1) theta delta_x delta_y in
      let q1 := configuration x y (theta + PI) 0 in
      let '(x, y) := global_frame_change (c_xc c2) (c_yc c2) theta delta_x delta_y in
      let q2 := configuration x y (theta + PI) 0 in
      (q1, q2)
    else
    if (negb (c_left c1)) && (c_forward c1) then
      let '(x, y) := global_frame_change (c_xc c1) (c_yc c1) theta delta_x delta_y in
      let q1 := configuration x y theta 0 in
      let '(x, y) := global_frame_change (c_xc c2) (c_yc c2) theta delta_x delta_y in
      let q2 := configuration x y theta 0 in
      (q1, q2)
    else
      let '(x, y) := global_frame_change (c_xc c1) (c_yc c1) theta delta_x (- delta_y) in
      let q1 := configuration x y (theta + PI) 0 in
      let '(x, y) := global_frame_change (c_xc c2) (c_yc c2) theta delta_x (- delta_y) in
      let q2 := configuration x y (theta + PI) 0 in
      (q1, q2) in
  (((cc_turn_length c1 q1) + (configuration_distance q1 q2)) + (cc_turn_length c2 q2), q1, q2).

(** src/hc_cc_state_space/cc00_reeds_shepp_state_space.cpp:1271-1282 *)
Definition TScT_path (c1 : Circle) (c2 : Circle) : option (R * Configuration * Configuration) :=
  if TiScT_exists c1 c2 then
    TiScT_path c1 c2
  else
  if TeScT_exists c1 c2 then
    Some (TeScT_path c1 c2)
  else
  None.

(** src/hc_cc_state_space/cc00_reeds_shepp_state_space.cpp:1285-1296 *)
Definition TciScT_exists (c1 : Circle) (c2 : Circle) : bool :=
  if Bool.eqb (c_left c1) (c_left c2) then
    false
  else
  if Bool.eqb (c_forward c1) (c_forward c2) then
    false
  else
  Rleb ((2 * (c_radius c1)) * (c_cos_mu c1)) distance_.

(** src/hc_cc_state_space/cc00_reeds_shepp_state_space.cpp:1298-1309 *)
Definition TceScT_exists (c1 : Circle) (c2 : Circle) : bool :=
  if negb (Bool.eqb (c_left c1) (c_left c2)) then
    false
  else
  if Bool.eqb (c_forward c1) (c_forward c2) then
    false
  else
  Rleb epsilon distance_.

(** src/hc_cc_state_space/cc00_reeds_shepp_state_space.cpp:1311-1314 *)
Definition TcScT_exists (c1 : Circle) (c2 : Circle) : bool :=
  (TciScT_exists c1 c2) || (TceScT_exists c1 c2).

(** src/hc_cc_state_space/cc00_reeds_shepp_state_space.cpp:1316-1355 *)
Definition TciScT_path (c1 : Circle) (c2 : Circle) : option (R * Configuration * Configuration) :=
  flet t1 := fdiv ((2 * (c_radius c1)) * (c_cos_mu c1)) distance_ in
  flet alpha := fasin t1 in
  let delta_x := (c_radius c1) * (c_sin_mu c1) in
  let delta_y := (c_radius c1) * (c_cos_mu c1) in
  let '(q1, q2) :=
    if (c_left c1) && (c_forward c1) then
      let theta := angle_ - alpha in
      let '(x, y) := global_frame_change (c_xc c1) (c_yc c1) theta (- delta_x) delta_y in
      let q1 := configuration x y (theta + PI) 0 in
      let '(x, y) := global_frame_change (c_xc c2) (c_yc c2) theta delta_x (- delta_y) in
      let q2 := configuration x y (theta + PI) 0 in
      (q1, q2)
    else
    if (c_left c1) && (negb (c_forward c1)) then
      let theta := angle_ + alpha in
      let '(x, y) := global_frame_change (c_xc c1) (c_yc c1) theta (- delta_x) (- delta_y) in
      let q1 := configuration x y theta 0 in
      let '(x, y) := global_frame_change (c_xc c2) (c_yc c2) theta delta_x delta_y in
      let q2 := configuration x y theta 0 in
      (q1, q2)
    else
    if (negb (c_left c1)) && (c_forward c1) then
      let theta := angle_ + alpha in
      let '(x, y) := global_frame_change (c_xc c1) (c_yc c1) theta (- delta_x) (- delta_y) in
      let q1 := configuration x y (theta + PI) 0 in
      let '(x, y) := global_frame_change (c_xc c2) (c_yc c2) theta delta_x delta_y in
      let q2 := configuration x y (theta + PI) 0 in
      (q1, q2)
    else
      let theta := angle_ - alpha in
      let '(x, y) := global_frame_change (c_xc c1) (c_yc c1) theta (- delta_x) delta_y in
      let q1 := configuration x y theta 0 in
      let '(x, y) := global_frame_change (c_xc c2) (c_yc c2) theta delta_x (- delta_y) in
      let q2 := configuration x y theta 0 in
      (q1, q2) in
  Some (((cc_turn_length c1 q1) + (configuration_distance q1 q2)) + (cc_turn_length c2 q2), q1, q2).

(** src/hc_cc_state_space/cc00_reeds_shepp_state_space.cpp:1357-1392 *)
Definition TceScT_path (c1 : Circle) (c2 : Circle) : R * Configuration * Configuration :=
  let theta := angle_ in
  let delta_x := (c_radius c1) * (c_sin_mu c1) in
  let delta_y := (c_radius c1) * (c_cos_mu c1) in
  let '(q1, q2) :=
    if (c_left c1) && (c_forward c1) then
      let '(x, y) := global_frame_change (c_xc c1) (c_yc c1) theta (- delta_x) delta_y in
      let q1 := configuration x y (theta + PI) 0 in
      let '(x, y) := global_frame_change (c_xc c2) (c_yc c2) theta delta_x delta_y in
      let q2 := configuration x y (theta + PI) 0 in
      (q1, q2)
    else
    if (c_left c1) && (negb (c_forward c1)) then
      let '(x, y) := global_frame_change (c_xc c1) (c_yc c1) theta (- delta_x) (- delta_y) in
      let q1 := configuration x y theta 0 in
      let '(x, y) := global_frame_change (c_xc c2) (c_yc c2) theta delta_x (- delta_y) in
      let q2 := configuration x y theta 0 in
      (q1, q2)
    else
    if (negb (c_left c1)) && (c_forward c1) then
      let '(x, y) := global_frame_change (c_xc c1) (c_yc c1) theta (- delta_x) (- delta_y) in
      let q1 := configuration x y (theta + PI) 0 in
      let '(x, y) := global_frame_change (c_xc c2) (c_yc c2) theta delta_x (- delta_y) in
      let q2 := configuration x y (theta + PI) 0 in
      (q1, q2)
    else
      let '(x, y) := global_frame_change (c_xc c1) (c_yc c1) theta (- delta_x) delta_y in
      let q1 := configuration x y theta 0 in
      let '(x, y) := global_frame_change (c_xc c2) (c_yc c2) theta delta_x delta_y in
      let q2 := configuration x y theta 0 in
      (q1, q2) in
  (((cc_turn_length c1 q1) + (configuration_distance q1 q2)) + (cc_turn_length c2 q2), q1, q2).

(** src/hc_cc_state_space/cc00_reeds_shepp_state_space.cpp:1394-1405 *)
Definition TcScT_path (c1 : Circle) (c2 : Circle) : option (R * Configuration * Configuration) :=
  if TciScT_exists c1 c2 then
    TciScT_path c1 c2
  else
  if TceScT_exists c1 c2 then
    Some (TceScT_path c1 c2)
  else
  None.

End Helper.

(** src/hc_cc_state_space/cc00_reeds_shepp_state_space.cpp:1470-1475, case TT. *)
Definition entry_TT (distance_ angle_ : R) (c1 c2 : Circle) : Entry :=
  if TT_exists distance_ c1 c2 then
      let '(l, qi1) := TT_path c1 c2 in
      mkEntry (Some l) (Some qi1) None None None (Some c1) (Some c2) None None
  else no_entry.

(** src/hc_cc_state_space/cc00_reeds_shepp_state_space.cpp:1477-1483, case TcT. *)
Definition entry_TcT (distance_ angle_ : R) (c1 c2 : Circle) : Entry :=
  if TcT_exists distance_ c1 c2 then
      match TcT_path c1 c2 with
      | Some (l, qi1) =>
          mkEntry (Some l) (Some qi1) None None None (Some c1) (Some c2) None None
      | None => nan_entry
      end
  else no_entry.

(** src/hc_cc_state_space/cc00_reeds_shepp_state_space.cpp:1486-1493, case TcTcT. *)
Definition entry_TcTcT (distance_ angle_ : R) (c1 c2 : Circle) : Entry :=
  if TcTcT_exists distance_ c1 c2 then
      match TcTcT_path distance_ angle_ c1 c2 with
      | Some (l, qi1, qi2, ci1) =>
          mkEntry (Some l) (Some qi1) (Some qi2) None None (Some c1) (Some c2) (Some ci1) None
      | None => nan_entry
      end
  else no_entry.

(** src/hc_cc_state_space/cc00_reeds_shepp_state_space.cpp:1495-1502, case TcTT. *)
Definition entry_TcTT (distance_ angle_ : R) (c1 c2 : Circle) : Entry :=
  if TcTT_exists distance_ c1 c2 then
      match TcTT_path distance_ angle_ c1 c2 with
      | Some (l, qi1, qi2, ci1) =>
          mkEntry (Some l) (Some qi1) (Some qi2) None None (Some c1) (Some c2) (Some ci1) None
      | None => nan_entry
      end
  else no_entry.

(** src/hc_cc_state_space/cc00_reeds_shepp_state_space.cpp:1504-1511, case TTcT. *)
Definition entry_TTcT (distance_ angle_ : R) (c1 c2 : Circle) : Entry :=
  if TTcT_exists distance_ c1 c2 then
      match TTcT_path distance_ angle_ c1 c2 with
      | Some (l, qi1, qi2, ci1) =>
          mkEntry (Some l) (Some qi1) (Some qi2) None None (Some c1) (Some c2) (Some ci1) None
      | None => nan_entry
      end
  else no_entry.

(** src/hc_cc_state_space/cc00_reeds_shepp_state_space.cpp:1513-1519, case TST. *)
Definition entry_TST (distance_ angle_ : R) (c1 c2 : Circle) : Entry :=
  if TST_exists distance_ c1 c2 then
      match TST_path distance_ c1 c2 with
      | Some (l, qi1, qi2) =>
          mkEntry (Some l) (Some qi1) (Some qi2) None None (Some c1) (Some c2) None None
      | None => nan_entry
      end
  else no_entry.

(** src/hc_cc_state_space/cc00_reeds_shepp_state_space.cpp:1521-1528, case TSTcT. *)
Definition entry_TSTcT (distance_ angle_ : R) (c1 c2 : Circle) : Entry :=
  if TSTcT_exists distance_ c1 c2 then
      match TSTcT_path distance_ angle_ c1 c2 with
      | Some (l, qi1, qi2, qi3, ci1) =>
          mkEntry (Some l) (Some qi1) (Some qi2) (Some qi3) None (Some c1) (Some c2) (Some ci1) None
      | None => nan_entry
      end
  else no_entry.

(** src/hc_cc_state_space/cc00_reeds_shepp_state_space.cpp:1530-1537, case TcTST. *)
Definition entry_TcTST (distance_ angle_ : R) (c1 c2 : Circle) : Entry :=
  if TcTST_exists distance_ c1 c2 then
      match TcTST_path distance_ angle_ c1 c2 with
      | Some (l, qi1, qi2, qi3, ci1) =>
          mkEntry (Some l) (Some qi1) (Some qi2) (Some qi3) None (Some c1) (Some c2) (Some ci1) None
      | None => nan_entry
      end
  else no_entry.

(** src/hc_cc_state_space/cc00_reeds_shepp_state_space.cpp:1539-1546, case TcTSTcT. *)
Definition entry_TcTSTcT (distance_ angle_ : R) (c1 c2 : Circle) : Entry :=
  if TcTSTcT_exists distance_ c1 c2 then
      match TcTSTcT_path distance_ angle_ c1 c2 with
      | Some (l, qi1, qi2, qi3, qi4, ci1, ci2) =>
          mkEntry (Some l) (Some qi1) (Some qi2) (Some qi3) (Some qi4) (Some c1) (Some c2) (Some ci1) (Some
              ci2)
      | None => nan_entry
      end
  else no_entry.

(** src/hc_cc_state_space/cc00_reeds_shepp_state_space.cpp:1548-1555, case TTcTT. *)
Definition entry_TTcTT (distance_ angle_ : R) (c1 c2 : Circle) : Entry :=
  if TTcTT_exists distance_ c1 c2 then
      match TTcTT_path distance_ angle_ c1 c2 with
      | Some (l, qi1, qi2, qi3, ci1, ci2) =>
          mkEntry (Some l) (Some qi1) (Some qi2) (Some qi3) None (Some c1) (Some c2) (Some ci1) (Some ci2)
      | None => nan_entry
      end
  else no_entry.

(** src/hc_cc_state_space/cc00_reeds_shepp_state_space.cpp:1557-1564, case TcTTcT. *)
Definition entry_TcTTcT (distance_ angle_ : R) (c1 c2 : Circle) : Entry :=
  if TcTTcT_exists distance_ c1 c2 then
      match TcTTcT_path distance_ angle_ c1 c2 with
      | Some (l, qi1, qi2, qi3, ci1, ci2) =>
          mkEntry (Some l) (Some qi1) (Some qi2) (Some qi3) None (Some c1) (Some c2) (Some ci1) (Some ci2)
      | None => nan_entry
      end
  else no_entry.

(** src/hc_cc_state_space/cc00_reeds_shepp_state_space.cpp:1567-1573, case TTT. *)
Definition entry_TTT (distance_ angle_ : R) (c1 c2 : Circle) : Entry :=
  if TTT_exists distance_ c1 c2 then
      match TTT_path distance_ angle_ c1 c2 with
      | Some (l, qi1, qi2, ci1) =>
          mkEntry (Some l) (Some qi1) (Some qi2) None None (Some c1) (Some c2) (Some ci1) None
      | None => nan_entry
      end
  else no_entry.

(** src/hc_cc_state_space/cc00_reeds_shepp_state_space.cpp:1575-1581, case TcST. *)
Definition entry_TcST (distance_ angle_ : R) (c1 c2 : Circle) : Entry :=
  if TcST_exists distance_ c1 c2 then
      match TcST_path distance_ angle_ c1 c2 with
      | Some (l, qi1, qi2) =>
          mkEntry (Some l) (Some qi1) (Some qi2) None None (Some c1) (Some c2) None None
      | None => nan_entry
      end
  else no_entry.

(** src/hc_cc_state_space/cc00_reeds_shepp_state_space.cpp:1583-1589, case TScT. *)
Definition entry_TScT (distance_ angle_ : R) (c1 c2 : Circle) : Entry :=
  if TScT_exists distance_ c1 c2 then
      match TScT_path distance_ angle_ c1 c2 with
      | Some (l, qi1, qi2) =>
          mkEntry (Some l) (Some qi1) (Some qi2) None None (Some c1) (Some c2) None None
      | None => nan_entry
      end
  else no_entry.

(** src/hc_cc_state_space/cc00_reeds_shepp_state_space.cpp:1591-1597, case TcScT. *)
Definition entry_TcScT (distance_ angle_ : R) (c1 c2 : Circle) : Entry :=
  if TcScT_exists distance_ c1 c2 then
      match TcScT_path distance_ angle_ c1 c2 with
      | Some (l, qi1, qi2) =>
          mkEntry (Some l) (Some qi1) (Some qi2) None None (Some c1) (Some c2) None None
      | None => nan_entry
      end
  else no_entry.

(** src/hc_cc_state_space/cc00_reeds_shepp_state_space.cpp:1418-1622 *)
Definition circles_table (c1 c2 : Circle) : list Entry :=
  let distance_ := center_distance c1 c2 in
  let angle_ := atan2 (c_yc c2 - c_yc c1) (c_xc c2 - c_xc c1) in
  if configuration_equal (c_start c1) (c_start c2) then
    [(mkEntry (Some 0) None None None None None None None None); no_entry; no_entry; no_entry; no_entry;
        no_entry; no_entry; no_entry; no_entry; no_entry; no_entry; no_entry; no_entry; no_entry; no_entry;
            no_entry; no_entry; no_entry]
  else
  if configuration_aligned (c_start c1) (c_start c2) then
    [no_entry; (mkEntry (Some (configuration_distance (c_start c1) (c_start c2))) None None None None None
        None None None); no_entry; no_entry; no_entry; no_entry; no_entry; no_entry; no_entry; no_entry;
            no_entry; no_entry; no_entry; no_entry; no_entry; no_entry; no_entry; no_entry]
  else
  if configuration_aligned (c_start c2) (c_start c1) then
    [no_entry; (mkEntry (Some (configuration_distance (c_start c2) (c_start c1))) None None None None None
        None None None); no_entry; no_entry; no_entry; no_entry; no_entry; no_entry; no_entry; no_entry;
            no_entry; no_entry; no_entry; no_entry; no_entry; no_entry; no_entry; no_entry]
  else
  if configuration_on_hc_cc_circle c1 (c_start c2) then
    [no_entry; no_entry; (mkEntry (Some (cc_turn_length c1 (c_start c2))) None None None None (Some c1) None
        None None); no_entry; no_entry; no_entry; no_entry; no_entry; no_entry; no_entry; no_entry; no_entry;
            no_entry; no_entry; no_entry; no_entry; no_entry; no_entry]
  else
  [no_entry; no_entry; no_entry; entry_TT distance_ angle_ c1 c2; entry_TcT distance_ angle_ c1 c2;
      entry_TcTcT distance_ angle_ c1 c2; entry_TcTT distance_ angle_ c1 c2; entry_TTcT distance_ angle_ c1
          c2; entry_TST distance_ angle_ c1 c2; entry_TSTcT distance_ angle_ c1 c2; entry_TcTST distance_
              angle_ c1 c2; entry_TcTSTcT distance_ angle_ c1 c2; entry_TTcTT distance_ angle_ c1 c2;
                  entry_TcTTcT distance_ angle_ c1 c2; entry_TTT distance_ angle_ c1 c2; entry_TcST distance_
                      angle_ c1 c2; entry_TScT distance_ angle_ c1 c2; entry_TcScT distance_ angle_ c1 c2].

(** src/hc_cc_state_space/cc00_reeds_shepp_state_space.cpp:1418-1622 *)
Definition cc00_circles_rs_path (c1 c2 : Circle) : option (HPath hc_cc_rs_type) :=
  select_entry hc_cc_rs_types (c_start c1) (c_start c2) (circles_table c1 c2).

(** src/hc_cc_state_space/cc00_reeds_shepp_state_space.cpp:1624-1651, the array start_circle. *)
Definition start_circles (state1 : State) : list Circle :=
  [circle (configuration (st_x state1) (st_y state1) (st_theta state1) 0) true true false (hc_cc_param kappa_
      sigma_);
    circle (configuration (st_x state1) (st_y state1) (st_theta state1) 0) false true false (hc_cc_param
        kappa_ sigma_);
    circle (configuration (st_x state1) (st_y state1) (st_theta state1) 0) true false false (hc_cc_param
        kappa_ sigma_);
    circle (configuration (st_x state1) (st_y state1) (st_theta state1) 0) false false false (hc_cc_param
        kappa_ sigma_)].

(** src/hc_cc_state_space/cc00_reeds_shepp_state_space.cpp:1624-1651, the array end_circle. *)
Definition end_circles (state2 : State) : list Circle :=
  [circle (configuration (st_x state2) (st_y state2) (st_theta state2) 0) true true false (hc_cc_param kappa_
      sigma_);
    circle (configuration (st_x state2) (st_y state2) (st_theta state2) 0) false true false (hc_cc_param
        kappa_ sigma_);
    circle (configuration (st_x state2) (st_y state2) (st_theta state2) 0) true false false (hc_cc_param
        kappa_ sigma_);
    circle (configuration (st_x state2) (st_y state2) (st_theta state2) 0) false false false (hc_cc_param
        kappa_ sigma_)].

(** src/hc_cc_state_space/cc00_reeds_shepp_state_space.cpp:1652-1662, the pairs that are skipped. *)
Definition skipped (state1 state2 : State) (i j : nat) : bool :=
  false.

(** src/hc_cc_state_space/cc00_reeds_shepp_state_space.cpp:1652-1662, the array path:
    entry 4 i + j holds the path for the i-th start circle and the j-th end circle. *)
Definition paths (state1 state2 : State) : list (option (HPath hc_cc_rs_type)) :=
  map (fun '(i, j) =>
         if skipped state1 state2 i j then None
         else
           match nth_error (start_circles state1) i, nth_error (end_circles state2) j with
           | Some c1, Some c2 => cc00_circles_rs_path c1 c2
           | _, _ => None
           end)
      (list_prod (seq 0 4) (seq 0 4)).

(** src/hc_cc_state_space/cc00_reeds_shepp_state_space.cpp:1624-1695 *)
Definition cc00_reeds_shepp (state1 state2 : State) : option (HPath hc_cc_rs_type) :=
  select_path (paths state1 state2).

(** src/hc_cc_state_space/cc00_reeds_shepp_state_space.cpp:1697-1703 *)
Definition get_distance (state1 state2 : State) : option flt :=
  path_distance (cc00_reeds_shepp state1 state2).

(** src/hc_cc_state_space/cc00_reeds_shepp_state_space.cpp:1705-1783, the switch;
    [None] is the dereference of a null pointer. *)
Definition path_controls (p : HPath hc_cc_rs_type) : option (list Control) :=
  let e := h_entry p in
  match h_type p with
  | RS_E =>
      Some (empty_controls)
  | RS_S =>
      Some (straight_controls (h_start p) (h_end p))
  | RS_T =>
      flet cstart := e_cstart e in
      Some (cc_turn_controls cstart (h_end p) true)
  | RS_TT | RS_TcT =>
      flet cstart := e_cstart e in
      flet qi1 := e_qi1 e in
      flet cend := e_cend e in
      Some (cc_turn_controls cstart qi1 true ++ cc_turn_controls cend qi1 false)
  | RS_TcTcT | RS_TcTT | RS_TTcT =>
      flet cstart := e_cstart e in
      flet qi1 := e_qi1 e in
      flet ci1 := e_ci1 e in
      flet qi2 := e_qi2 e in
      flet cend := e_cend e in
      Some (cc_turn_controls cstart qi1 true ++ cc_turn_controls ci1 qi2 true ++ cc_turn_controls cend qi2
          false)
  | RS_TST =>
      flet cstart := e_cstart e in
      flet qi1 := e_qi1 e in
      flet qi2 := e_qi2 e in
      flet cend := e_cend e in
      Some (cc_turn_controls cstart qi1 true ++ straight_controls qi1 qi2 ++ cc_turn_controls cend qi2 false)
  | RS_TSTcT =>
      flet cstart := e_cstart e in
      flet qi1 := e_qi1 e in
      flet qi2 := e_qi2 e in
      flet ci1 := e_ci1 e in
      flet qi3 := e_qi3 e in
      flet cend := e_cend e in
      Some (cc_turn_controls cstart qi1 true ++ straight_controls qi1 qi2 ++ cc_turn_controls ci1 qi3 true ++
          cc_turn_controls cend qi3 false)
  | RS_TcTST =>
      flet cstart := e_cstart e in
      flet qi1 := e_qi1 e in
      flet ci1 := e_ci1 e in
      flet qi2 := e_qi2 e in
      flet qi3 := e_qi3 e in
      flet cend := e_cend e in
      Some (cc_turn_controls cstart qi1 true ++ cc_turn_controls ci1 qi2 true ++ straight_controls qi2 qi3 ++
          cc_turn_controls cend qi3 false)
  | RS_TcTSTcT =>
      flet cstart := e_cstart e in
      flet qi1 := e_qi1 e in
      flet ci1 := e_ci1 e in
      flet qi2 := e_qi2 e in
      flet qi3 := e_qi3 e in
      flet ci2 := e_ci2 e in
      flet qi4 := e_qi4 e in
      flet cend := e_cend e in
      Some (cc_turn_controls cstart qi1 true ++ cc_turn_controls ci1 qi2 true ++ straight_controls qi2 qi3 ++
          cc_turn_controls ci2 qi4 true ++ cc_turn_controls cend qi4 false)
  | RS_TTcTT | RS_TcTTcT =>
      flet cstart := e_cstart e in
      flet qi1 := e_qi1 e in
      flet ci1 := e_ci1 e in
      flet qi2 := e_qi2 e in
      flet ci2 := e_ci2 e in
      flet qi3 := e_qi3 e in
      flet cend := e_cend e in
      Some (cc_turn_controls cstart qi1 true ++ cc_turn_controls ci1 qi2 true ++ cc_turn_controls ci2 qi3
          true ++ cc_turn_controls cend qi3 false)
  | RS_TTT =>
      flet cstart := e_cstart e in
      flet qi1 := e_qi1 e in
      flet ci1 := e_ci1 e in
      flet qi2 := e_qi2 e in
      flet cend := e_cend e in
      Some (cc_turn_controls cstart qi1 true ++ cc_turn_controls ci1 qi2 true ++ cc_turn_controls cend qi2
          false)
  | RS_TcST | RS_TScT | RS_TcScT =>
      flet cstart := e_cstart e in
      flet qi1 := e_qi1 e in
      flet qi2 := e_qi2 e in
      flet cend := e_cend e in
      Some (cc_turn_controls cstart qi1 true ++ straight_controls qi1 qi2 ++ cc_turn_controls cend qi2 false)
  end.

(** src/hc_cc_state_space/cc00_reeds_shepp_state_space.cpp:1705-1783 *)
Definition get_controls (state1 state2 : State) : option (list Control) :=
  match cc00_reeds_shepp state1 state2 with
  | Some p => path_controls p
  | None => None
  end.

End Planner.

(** * Model of src/hc_cc_state_space/hcpmpm_reeds_shepp_state_space.cpp

    Written from the source function by function. A function filling pointers returns the values stored
    through them, after its own result if it has one. A function that takes a square root, an arc sine,
    an arc cosine or a quotient returns [None] when that is undefined. Functions on [c1.left] and
    [c1.forward] with four exclusive branches have the fourth as their last alternative. A final
    "return max" after a complete case distinction is not modelled, and [None] elsewhere. Allocation and
    [delete] are left out, as are the commented-out print statements.
    The macros HC_REGULAR, CC_REGULAR are false. *)
From Coq Require Import Reals ZArith List Bool.
From Verif Require Import Base ModelUtil ModelCircle ModelPaths.
Import ListNotations.
Open Scope R_scope.

Section Planner.

(** The members kappa_ and sigma_ of src/hc_cc_state_space/hc_cc_state_space.cpp:28-31. *)
Variables (kappa_ sigma_ : R).

Section Helper.

(** src/hc_cc_state_space/hcpmpm_reeds_shepp_state_space.cpp:52-53, the members distance and angle. *)
Variables (distance_ angle_ : R).

(** src/hc_cc_state_space/hcpmpm_reeds_shepp_state_space.cpp:56-67 *)
Definition TT_exists (c1 : Circle) (c2 : Circle) : bool :=
  if Bool.eqb (c_left c1) (c_left c2) then
    false
  else
  if Bool.eqb (c_forward c1) (c_forward c2) then
    false
  else
  Rltb (Rabs (distance_ - (2 * (p_radius (hc_cc_param kappa_ sigma_))))) epsilon.

(** src/hc_cc_state_space/hcpmpm_reeds_shepp_state_space.cpp:69-98 *)
Definition TT_tangent_circles (c1 : Circle) (c2 : Circle) : Configuration :=
  let x := ((c_xc c1) + (c_xc c2)) / 2 in
  let y := ((c_yc c1) + (c_yc c2)) / 2 in
  let angle := atan2 ((c_yc c2) - (c_yc c1)) ((c_xc c2) - (c_xc c1)) in
  let theta :=
    if c_left c1 then
      if c_forward c1 then
        (angle + HALF_PI) - (p_mu (hc_cc_param kappa_ sigma_))
      else
        (angle + HALF_PI) + (p_mu (hc_cc_param kappa_ sigma_))
    else
      if c_forward c1 then
        (angle - HALF_PI) + (p_mu (hc_cc_param kappa_ sigma_))
      else
        (angle - HALF_PI) - (p_mu (hc_cc_param kappa_ sigma_)) in
  configuration x y theta 0.

(** src/hc_cc_state_space/hcpmpm_reeds_shepp_state_space.cpp:100-109 *)
Definition TT_path (c1 : Circle) (c2 : Circle) : R * Circle * Circle * Configuration * Configuration *
    Configuration :=
  let q2 := TT_tangent_circles c1 c2 in
  let cstart := circle q2 (c_left c1) (negb (c_forward c1)) false (hc_cc_param kappa_ sigma_) in
  let cend := circle q2 (c_left c2) (negb (c_forward c2)) false (hc_cc_param kappa_ sigma_) in
  let q1 := configuration (q_x (c_start c1)) (q_y (c_start c1)) (q_theta (c_start c1)) (c_kappa c1) in
  let q3 := configuration (q_x (c_start c2)) (q_y (c_start c2)) (q_theta (c_start c2)) (c_kappa c2) in
  ((hc_turn_length cstart q1) + (hc_turn_length cend q3), cstart, cend, q1, q2, q3).

(** src/hc_cc_state_space/hcpmpm_reeds_shepp_state_space.cpp:112-123 *)
Definition TcT_exists (c1 : Circle) (c2 : Circle) : bool :=
  if Bool.eqb (c_left c1) (c_left c2) then
    false
  else
  if negb (Bool.eqb (c_forward c1) (c_forward c2)) then
    false
  else
  Rltb (Rabs (distance_ - (2 * (Rabs (c_kappa_inv c1))))) epsilon.

(** src/hc_cc_state_space/hcpmpm_reeds_shepp_state_space.cpp:125-159 *)
Definition TcT_tangent_circles (c1 : Circle) (c2 : Circle) : Configuration :=
  let distance := center_distance c1 c2 in
  let delta_x := (5 / 10) * distance in
  let delta_y := 0 in
  let angle := atan2 ((c_yc c2) - (c_yc c1)) ((c_xc c2) - (c_xc c1)) in
  let '(theta, x, y) :=
    if c_left c1 then
      let '(theta, x, y) :=
        if c_forward c1 then
          let theta := angle + HALF_PI in
          let '(x, y) := global_frame_change (c_xc c1) (c_yc c1) angle delta_x delta_y in
          (theta, x, y)
        else
          let theta := angle + HALF_PI in
          let '(x, y) := global_frame_change (c_xc c1) (c_yc c1) angle delta_x (- delta_y) in
          (theta, x, y) in
      (theta, x, y)
    else
      let '(theta, x, y) :=
        if c_forward c1 then
          let theta := angle - HALF_PI in
          let '(x, y) := global_frame_change (c_xc c1) (c_yc c1) angle delta_x (- delta_y) in
          (theta, x, y)
        else
          let theta := angle - HALF_PI in
          let '(x, y) := global_frame_change (c_xc c1) (c_yc c1) angle delta_x delta_y in
          (theta, x, y) in
      (theta, x, y) in
  configuration x y theta (c_kappa c1).

(** src/hc_cc_state_space/hcpmpm_reeds_shepp_state_space.cpp:161-168 *)
Definition TcT_path (c1 : Circle) (c2 : Circle) : R * Circle * Circle * Configuration :=
  let q := TcT_tangent_circles c1 c2 in
  let cstart := c1 in
  let cend := c2 in
  ((rs_turn_length cstart q) + (rs_turn_length cend q), cstart, cend, q).

(** src/hc_cc_state_space/hcpmpm_reeds_shepp_state_space.cpp:173-184 *)
Definition TcTcT_exists (c1 : Circle) (c2 : Circle) : bool :=
  if negb (Bool.eqb (c_left c1) (c_left c2)) then
    false
  else
  if Bool.eqb (c_forward c1) (c_forward c2) then
    false
  else
  Rleb distance_ (4 * (Rabs (c_kappa_inv c1))).

(** src/hc_cc_state_space/hcpmpm_reeds_shepp_state_space.cpp:186-204 *)
Definition TcTcT_tangent_circles (c1 : Circle) (c2 : Circle) : option (Configuration * Configuration *
    Configuration * Configuration) :=
  let theta := angle_ in
  let r := 2 * (Rabs (c_kappa_inv c1)) in
  let delta_x := (5 / 10) * distance_ in
  flet delta_y := fsqrt ((r ^ 2) - (delta_x ^ 2)) in
  let '(x, y) := global_frame_change (c_xc c1) (c_yc c1) theta delta_x delta_y in
  let tgt1 := circle_at x y (negb (c_left c1)) (negb (c_forward c1)) true (rs_param kappa_) in
  let '(x, y) := global_frame_change (c_xc c1) (c_yc c1) theta delta_x (- delta_y) in
  let tgt2 := circle_at x y (negb (c_left c1)) (negb (c_forward c1)) true (rs_param kappa_) in
  let q1 := TcT_tangent_circles c1 tgt1 in
  let q2 := TcT_tangent_circles tgt1 c2 in
  let q3 := TcT_tangent_circles c1 tgt2 in
  let q4 := TcT_tangent_circles tgt2 c2 in
  Some (q1, q2, q3, q4).

(** src/hc_cc_state_space/hcpmpm_reeds_shepp_state_space.cpp:206-242 *)
Definition TcTcT_path (c1 : Circle) (c2 : Circle) : option (R * Circle * Circle * Configuration *
    Configuration * Circle) :=
  flet (qa, qb, qc, qd) := TcTcT_tangent_circles c1 c2 in
  let middle1 := circle qa (negb (c_left c1)) (negb (c_forward c1)) true (rs_param kappa_) in
  let middle2 := circle qc (negb (c_left c1)) (negb (c_forward c1)) true (rs_param kappa_) in
  let cstart := c1 in
  let cend := c2 in
  let length1 := ((rs_turn_length cstart qa) + (rs_turn_length middle1 qb)) + (rs_turn_length cend qb) in
  let length2 := ((rs_turn_length cstart qc) + (rs_turn_length middle2 qd)) + (rs_turn_length cend qd) in
  if Rltb length1 length2 then
    let q1 := qa in
    let q2 := qb in
    let ci := middle1 in
    Some (length1, cstart, cend, q1, q2, ci)
  else
    let q1 := qc in
    let q2 := qd in
    let ci := middle2 in
    Some (length2, cstart, cend, q1, q2, ci).

(** src/hc_cc_state_space/hcpmpm_reeds_shepp_state_space.cpp:245-257 *)
Definition TcTT_exists (c1 : Circle) (c2 : Circle) : bool :=
  if negb (Bool.eqb (c_left c1) (c_left c2)) then
    false
  else
  if negb (Bool.eqb (c_forward c1) (c_forward c2)) then
    false
  else
  (Rleb distance_ ((2 * (p_radius (hc_cc_param kappa_ sigma_))) + (2 * (Rabs (c_kappa_inv c1))))) && (Rleb
      ((2 * (p_radius (hc_cc_param kappa_ sigma_))) - (2 * (Rabs (c_kappa_inv c1)))) distance_).

(** src/hc_cc_state_space/hcpmpm_reeds_shepp_state_space.cpp:259-278 *)
Definition TcTT_tangent_circles (c1 : Circle) (c2 : Circle) : option (Configuration * Configuration *
    Configuration * Configuration) :=
  let theta := angle_ in
  let r1 := 2 * (Rabs (c_kappa_inv c1)) in
  let r2 := 2 * (p_radius (hc_cc_param kappa_ sigma_)) in
  flet delta_x := fdiv (((r1 ^ 2) + (distance_ ^ 2)) - (r2 ^ 2)) (2 * distance_) in
  flet delta_y := fsqrt ((r1 ^ 2) - (delta_x ^ 2)) in
  let '(x, y) := global_frame_change (c_xc c1) (c_yc c1) theta delta_x delta_y in
  let tgt1 := circle_at x y (negb (c_left c1)) (negb (c_forward c1)) (c_regular c1) (hc_cc_param kappa_
      sigma_) in
  let '(x, y) := global_frame_change (c_xc c1) (c_yc c1) theta delta_x (- delta_y) in
  let tgt2 := circle_at x y (negb (c_left c1)) (negb (c_forward c1)) (c_regular c1) (hc_cc_param kappa_
      sigma_) in
  let q1 := TcT_tangent_circles c1 tgt1 in
  let q2 := TT_tangent_circles tgt1 c2 in
  let q3 := TcT_tangent_circles c1 tgt2 in
  let q4 := TT_tangent_circles tgt2 c2 in
  Some (q1, q2, q3, q4).

(** src/hc_cc_state_space/hcpmpm_reeds_shepp_state_space.cpp:280-322 *)
Definition TcTT_path (c1 : Circle) (c2 : Circle) : option (R * Circle * Circle * Configuration *
    Configuration * Circle) :=
  flet (qa, qb, qc, qd) := TcTT_tangent_circles c1 c2 in
  let end1 := circle qb (c_left c2) (negb (c_forward c2)) false (hc_cc_param kappa_ sigma_) in
  let end2 := circle qd (c_left c2) (negb (c_forward c2)) false (hc_cc_param kappa_ sigma_) in
  let middle1 := circle qb (negb (c_left c1)) (c_forward c1) true (hc_cc_param kappa_ sigma_) in
  let middle2 := circle qd (negb (c_left c1)) (c_forward c1) true (hc_cc_param kappa_ sigma_) in
  let cstart := c1 in
  let q2 := configuration (q_x (c_start c2)) (q_y (c_start c2)) (q_theta (c_start c2)) (c_kappa c2) in
  let length1 := ((rs_turn_length cstart qa) + (hc_turn_length middle1 qa)) + (hc_turn_length end1 q2) in
  let length2 := ((rs_turn_length cstart qc) + (hc_turn_length middle2 qc)) + (hc_turn_length end2 q2) in
  if Rltb length1 length2 then
    let cend := end1 in
    let q1 := qa in
    let ci := middle1 in
    Some (length1, cstart, cend, q1, q2, ci)
  else
    let cend := end2 in
    let q1 := qc in
    let ci := middle2 in
    Some (length2, cstart, cend, q1, q2, ci).

(** src/hc_cc_state_space/hcpmpm_reeds_shepp_state_space.cpp:325-337 *)
Definition TTcT_exists (c1 : Circle) (c2 : Circle) : bool :=
  if negb (Bool.eqb (c_left c1) (c_left c2)) then
    false
  else
  if negb (Bool.eqb (c_forward c1) (c_forward c2)) then
    false
  else
  (Rleb distance_ ((2 * (p_radius (hc_cc_param kappa_ sigma_))) + (2 * (Rabs (c_kappa_inv c1))))) && (Rleb
      ((2 * (p_radius (hc_cc_param kappa_ sigma_))) - (2 * (Rabs (c_kappa_inv c1)))) distance_).

(** src/hc_cc_state_space/hcpmpm_reeds_shepp_state_space.cpp:339-358 *)
Definition TTcT_tangent_circles (c1 : Circle) (c2 : Circle) : option (Configuration * Configuration *
    Configuration * Configuration) :=
  let theta := angle_ in
  let r1 := 2 * (p_radius (hc_cc_param kappa_ sigma_)) in
  let r2 := 2 * (Rabs (c_kappa_inv c1)) in
  flet delta_x := fdiv (((r1 ^ 2) + (distance_ ^ 2)) - (r2 ^ 2)) (2 * distance_) in
  flet delta_y := fsqrt ((r1 ^ 2) - (delta_x ^ 2)) in
  let '(x, y) := global_frame_change (c_xc c1) (c_yc c1) theta delta_x delta_y in
  let tgt1 := circle_at x y (negb (c_left c1)) (c_forward c1) (c_regular c1) (hc_cc_param kappa_ sigma_) in
  let '(x, y) := global_frame_change (c_xc c1) (c_yc c1) theta delta_x (- delta_y) in
  let tgt2 := circle_at x y (negb (c_left c1)) (c_forward c1) (c_regular c1) (hc_cc_param kappa_ sigma_) in
  let q1 := TT_tangent_circles c1 tgt1 in
  let q2 := TcT_tangent_circles tgt1 c2 in
  let q3 := TT_tangent_circles c1 tgt2 in
  let q4 := TcT_tangent_circles tgt2 c2 in
  Some (q1, q2, q3, q4).

(** src/hc_cc_state_space/hcpmpm_reeds_shepp_state_space.cpp:360-402 *)
Definition TTcT_path (c1 : Circle) (c2 : Circle) : option (R * Circle * Circle * Configuration *
    Configuration * Circle) :=
  flet (qa, qb, qc, qd) := TTcT_tangent_circles c1 c2 in
  let start1 := circle qa (c_left c1) (negb (c_forward c1)) false (hc_cc_param kappa_ sigma_) in
  let start2 := circle qc (c_left c1) (negb (c_forward c1)) false (hc_cc_param kappa_ sigma_) in
  let middle1 := circle qa (negb (c_left c1)) (c_forward c1) true (hc_cc_param kappa_ sigma_) in
  let middle2 := circle qc (negb (c_left c1)) (c_forward c1) true (hc_cc_param kappa_ sigma_) in
  let cend := c2 in
  let q1 := configuration (q_x (c_start c1)) (q_y (c_start c1)) (q_theta (c_start c1)) (c_kappa c1) in
  let length1 := ((hc_turn_length start1 q1) + (hc_turn_length middle1 qb)) + (rs_turn_length cend qb) in
  let length2 := ((hc_turn_length start2 q1) + (hc_turn_length middle2 qd)) + (rs_turn_length cend qd) in
  if Rltb length1 length2 then
    let cstart := start1 in
    let q2 := qb in
    let ci := middle1 in
    Some (length1, cstart, cend, q1, q2, ci)
  else
    let cstart := start2 in
    let q2 := qd in
    let ci := middle2 in
    Some (length2, cstart, cend, q1, q2, ci).

(** src/hc_cc_state_space/hcpmpm_reeds_shepp_state_space.cpp:405-416 *)
Definition TiST_exists (c1 : Circle) (c2 : Circle) : bool :=
  if Bool.eqb (c_left c1) (c_left c2) then
    false
  else
  if Bool.eqb (c_forward c1) (c_forward c2) then
    false
  else
  Rleb (2 * (p_radius (hc_cc_param kappa_ sigma_))) distance_.

(** src/hc_cc_state_space/hcpmpm_reeds_shepp_state_space.cpp:418-429 *)
Definition TeST_exists (c1 : Circle) (c2 : Circle) : bool :=
  if negb (Bool.eqb (c_left c1) (c_left c2)) then
    false
  else
  if Bool.eqb (c_forward c1) (c_forward c2) then
    false
  else
  Rleb ((2 * (p_radius (hc_cc_param kappa_ sigma_))) * (p_sin_mu (hc_cc_param kappa_ sigma_))) distance_.

(** src/hc_cc_state_space/hcpmpm_reeds_shepp_state_space.cpp:431-434 *)
Definition TST_exists (c1 : Circle) (c2 : Circle) : bool :=
  (TiST_exists c1 c2) || (TeST_exists c1 c2).

(** src/hc_cc_state_space/hcpmpm_reeds_shepp_state_space.cpp:436-477 *)
Definition TiST_tangent_circles (c1 : Circle) (c2 : Circle) : option (Configuration * Configuration) :=
  let distance := center_distance c1 c2 in
  let angle := atan2 ((c_yc c2) - (c_yc c1)) ((c_xc c2) - (c_xc c1)) in
  flet t1 := fdiv ((2 * (p_radius (hc_cc_param kappa_ sigma_))) * (p_cos_mu (hc_cc_param kappa_ sigma_)))
      distance in
  flet alpha := fasin t1 in
  let delta_x := (p_radius (hc_cc_param kappa_ sigma_)) * (p_sin_mu (hc_cc_param kappa_ sigma_)) in
  let delta_y := (p_radius (hc_cc_param kappa_ sigma_)) * (p_cos_mu (hc_cc_param kappa_ sigma_)) in
  let '(q1, q2) :=
    if (c_left c1) && (c_forward c1) then
      let theta := angle + alpha in
      let '(x, y) := global_frame_change (c_xc c1) (c_yc c1) theta delta_x (- delta_y) in
      let q1 := configuration x y theta 0 in
      let '(x, y) := global_frame_change (c_xc c2) (c_yc c2) theta (- delta_x) delta_y in
      let q2 := configuration x y theta 0 in
      (q1, q2)
    else
    if (c_left c1) && (negb (c_forward c1)) then
      let theta := angle - alpha in
      let '(x, y) := global_frame_change (c_xc c1) (c_yc c1) theta delta_x delta_y in
      let q1 := configuration x y (theta + PI) 0 in
      let '(x, y) := global_frame_change (c_xc c2) (c_yc c2) theta (- delta_x) (- delta_y) in
      let q2 := configuration x y (theta + PI) 0 in
      (q1, q2)
    else
    if (negb (c_left c1)) && (c_forward c1) then
      let theta := angle - alpha in
      let '(x, y) := global_frame_change (c_xc c1) (c_yc c1) theta delta_x delta_y in
      let q1 := configuration x y theta 0 in
      let '(x, y) := global_frame_change (c_xc c2) (c_yc c2) theta (- delta_x) (- delta_y) in
      let q2 := configuration x y theta 0 in
      (q1, q2)
    else
      let theta := angle + alpha in
      let '(x, y) := global_frame_change (c_xc c1) (c_yc c1) theta delta_x (- delta_y) in
      let q1 := configuration x y (theta + PI) 0 in
      let '(x, y) := global_frame_change (c_xc c2) (c_yc c2) theta (- delta_x) delta_y in
      let q2 := configuration x y (theta + PI) 0 in
      (q1, q2) in
  Some (q1, q2).

(** src/hc_cc_state_space/hcpmpm_reeds_shepp_state_space.cpp:479-514 *)
Definition TeST_tangent_circles (c1 : Circle) (c2 : Circle) : Configuration * Configuration :=
  let delta_x := (p_radius (hc_cc_param kappa_ sigma_)) * (p_sin_mu (hc_cc_param kappa_ sigma_)) in
  let delta_y := (p_radius (hc_cc_param kappa_ sigma_)) * (p_cos_mu (hc_cc_param kappa_ sigma_)) in
  let theta := atan2 ((c_yc c2) - (c_yc c1)) ((c_xc c2) - (c_xc c1)) in
  let '(q1, q2) :=
    if (c_left c1) && (c_forward c1) then
      let '(x, y) := global_frame_change (c_xc c1) (c_yc c1) theta delta_x (- delta_y) in
      let q1 := configuration x y theta 0 in
      let '(x, y) := global_frame_change (c_xc c2) (c_yc c2) theta (- delta_x) (- delta_y) in
      let q2 := configuration x y theta 0 in
      (q1, q2)
    else
    if (c_left c1) && (negb (c_forward c1)) then
      let '(x, y) := global_frame_change (c_xc c1) (c_yc c1) theta delta_x delta_y in
      let q1 := configuration x y (theta + PI) 0 in
      let '(x, y) := global_frame_change (c_xc c2) (c_yc c2) theta (- delta_x) delta_y in
      let q2 := configuration x y (theta + PI) 0 in
      (q1, q2)
    else
    if (negb (c_left c1)) && (c_forward c1) then
      let '(x, y) := global_frame_change (c_xc c1) (c_yc c1) theta delta_x delta_y in
      let q1 := configuration x y theta 0 in
      let '(x, y) := global_frame_change (c_xc c2) (c_yc c2) theta (- delta_x) delta_y in
      let q2 := configuration x y theta 0 in
      (q1, q2)
    else
      let '(x, y) := global_frame_change (c_xc c1) (c_yc c1) theta delta_x (- delta_y) in
      let q1 := configuration x y (theta + PI) 0 in
      let '(x, y) := global_frame_change (c_xc c2) (c_yc c2) theta (- delta_x) (- delta_y) in
      let q2 := configuration x y (theta + PI) 0 in
      (q1, q2) in
  (q1, q2).

(** src/hc_cc_state_space/hcpmpm_reeds_shepp_state_space.cpp:516-525 *)
Definition TiST_path (c1 : Circle) (c2 : Circle) : option (R * Circle * Circle * Configuration *
    Configuration * Configuration * Configuration) :=
  flet (q2, q3) := TiST_tangent_circles c1 c2 in
  let cstart := circle q2 (c_left c1) (negb (c_forward c1)) false (hc_cc_param kappa_ sigma_) in
  let cend := circle q3 (c_left c2) (negb (c_forward c2)) false (hc_cc_param kappa_ sigma_) in
  let q1 := configuration (q_x (c_start c1)) (q_y (c_start c1)) (q_theta (c_start c1)) (c_kappa c1) in
  let q4 := configuration (q_x (c_start c2)) (q_y (c_start c2)) (q_theta (c_start c2)) (c_kappa c2) in
  Some (((hc_turn_length cstart q1) + (configuration_distance q2 q3)) + (hc_turn_length cend q4), cstart,
      cend, q1, q2, q3, q4).

(** src/hc_cc_state_space/hcpmpm_reeds_shepp_state_space.cpp:527-536 *)
Definition TeST_path (c1 : Circle) (c2 : Circle) : R * Circle * Circle * Configuration * Configuration *
    Configuration * Configuration :=
  let '(q2, q3) := TeST_tangent_circles c1 c2 in
  let cstart := circle q2 (c_left c1) (negb (c_forward c1)) false (hc_cc_param kappa_ sigma_) in
  let cend := circle q3 (c_left c2) (negb (c_forward c2)) false (hc_cc_param kappa_ sigma_) in
  let q1 := configuration (q_x (c_start c1)) (q_y (c_start c1)) (q_theta (c_start c1)) (c_kappa c1) in
  let q4 := configuration (q_x (c_start c2)) (q_y (c_start c2)) (q_theta (c_start c2)) (c_kappa c2) in
  (((hc_turn_length cstart q1) + (configuration_distance q2 q3)) + (hc_turn_length cend q4), cstart, cend,
      q1, q2, q3, q4).

(** src/hc_cc_state_space/hcpmpm_reeds_shepp_state_space.cpp:538-550 *)
Definition TST_path (c1 : Circle) (c2 : Circle) : option (R * Circle * Circle * Configuration * Configuration
    * Configuration * Configuration) :=
  if TiST_exists c1 c2 then
    TiST_path c1 c2
  else
  if TeST_exists c1 c2 then
    Some (TeST_path c1 c2)
  else
  None.

(** src/hc_cc_state_space/hcpmpm_reeds_shepp_state_space.cpp:553-565 *)
Definition TiSTcT_exists (c1 : Circle) (c2 : Circle) : bool :=
  if negb (Bool.eqb (c_left c1) (c_left c2)) then
    false
  else
  if negb (Bool.eqb (c_forward c1) (c_forward c2)) then
    false
  else
  match fsqrt (((((2 * (p_radius (hc_cc_param kappa_ sigma_))) * (p_sin_mu (hc_cc_param kappa_ sigma_))) + (2
      * (Rabs (c_kappa_inv c1)))) ^ 2) + (((2 * (p_radius (hc_cc_param kappa_ sigma_))) * (p_cos_mu
          (hc_cc_param kappa_ sigma_))) ^ 2)) with
  | Some t1 =>
  Rleb t1 distance_
  | None => false
  end.

(** src/hc_cc_state_space/hcpmpm_reeds_shepp_state_space.cpp:567-578 *)
Definition TeSTcT_exists (c1 : Circle) (c2 : Circle) : bool :=
  if Bool.eqb (c_left c1) (c_left c2) then
    false
  else
  if negb (Bool.eqb (c_forward c1) (c_forward c2)) then
    false
  else
  Rleb (2 * ((Rabs (c_kappa_inv c1)) + ((p_radius (hc_cc_param kappa_ sigma_)) * (p_sin_mu (hc_cc_param
      kappa_ sigma_))))) distance_.

(** src/hc_cc_state_space/hcpmpm_reeds_shepp_state_space.cpp:580-583 *)
Definition TSTcT_exists (c1 : Circle) (c2 : Circle) : bool :=
  (TiSTcT_exists c1 c2) || (TeSTcT_exists c1 c2).

(** src/hc_cc_state_space/hcpmpm_reeds_shepp_state_space.cpp:585-607 *)
Definition TiSTcT_path (c1 : Circle) (c2 : Circle) : option (R * Circle * Circle * Configuration *
    Configuration * Configuration * Configuration * Circle) :=
  let theta := angle_ in
  flet delta_y := fdiv ((4 * (p_radius (hc_cc_param kappa_ sigma_))) * (p_cos_mu (hc_cc_param kappa_
      sigma_))) ((Rabs (c_kappa c2)) * distance_) in
  flet delta_x := fsqrt (((2 * (c_kappa_inv c2)) ^ 2) - (delta_y ^ 2)) in
  let '(x, y) := global_frame_change (c_xc c2) (c_yc c2) theta (- delta_x) delta_y in
  let tgt1 := circle_at x y (negb (c_left c2)) (c_forward c2) (c_regular c2) (hc_cc_param kappa_ sigma_) in
  flet (q2, q3) := TiST_tangent_circles c1 tgt1 in
  let q4 := TcT_tangent_circles tgt1 c2 in
  let cstart := circle q2 (c_left c1) (negb (c_forward c1)) false (hc_cc_param kappa_ sigma_) in
  let cend := c2 in
  let q1 := configuration (q_x (c_start c1)) (q_y (c_start c1)) (q_theta (c_start c1)) (c_kappa c1) in
  let ci := circle q3 (negb (c_left c1)) (c_forward c1) true (hc_cc_param kappa_ sigma_) in
  Some ((((hc_turn_length cstart q1) + (configuration_distance q2 q3)) + (hc_turn_length ci q4)) +
      (rs_turn_length cend q4), cstart, cend, q1, q2, q3, q4, ci).

(** src/hc_cc_state_space/hcpmpm_reeds_shepp_state_space.cpp:609-631 *)
Definition TeSTcT_path (c1 : Circle) (c2 : Circle) : R * Circle * Circle * Configuration * Configuration *
    Configuration * Configuration * Circle :=
  let theta := angle_ in
  let delta_x := 2 * (Rabs (c_kappa_inv c2)) in
  let delta_y := 0 in
  let '(x, y) := global_frame_change (c_xc c2) (c_yc c2) theta (- delta_x) delta_y in
  let tgt1 := circle_at x y (negb (c_left c2)) (c_forward c2) (c_regular c2) (hc_cc_param kappa_ sigma_) in
  let '(q2, q3) := TeST_tangent_circles c1 tgt1 in
  let q4 := TcT_tangent_circles tgt1 c2 in
  let cstart := circle q2 (c_left c1) (negb (c_forward c1)) false (hc_cc_param kappa_ sigma_) in
  let cend := c2 in
  let q1 := configuration (q_x (c_start c1)) (q_y (c_start c1)) (q_theta (c_start c1)) (c_kappa c1) in
  let ci := circle q3 (c_left c1) (c_forward c1) true (hc_cc_param kappa_ sigma_) in
  ((((hc_turn_length cstart q1) + (configuration_distance q2 q3)) + (hc_turn_length ci q4)) + (rs_turn_length
      cend q4), cstart, cend, q1, q2, q3, q4, ci).

(** src/hc_cc_state_space/hcpmpm_reeds_shepp_state_space.cpp:633-646 *)
Definition TSTcT_path (c1 : Circle) (c2 : Circle) : option (R * Circle * Circle * Configuration *
    Configuration * Configuration * Configuration * Circle) :=
  if TiSTcT_exists c1 c2 then
    TiSTcT_path c1 c2
  else
  if TeSTcT_exists c1 c2 then
    Some (TeSTcT_path c1 c2)
  else
  None.

(** src/hc_cc_state_space/hcpmpm_reeds_shepp_state_space.cpp:649-661 *)
Definition TcTiST_exists (c1 : Circle) (c2 : Circle) : bool :=
  if negb (Bool.eqb (c_left c1) (c_left c2)) then
    false
  else
  if negb (Bool.eqb (c_forward c1) (c_forward c2)) then
    false
  else
  match fsqrt (((((2 * (p_radius (hc_cc_param kappa_ sigma_))) * (p_sin_mu (hc_cc_param kappa_ sigma_))) + (2
      * (Rabs (c_kappa_inv c1)))) ^ 2) + (((2 * (p_radius (hc_cc_param kappa_ sigma_))) * (p_cos_mu
          (hc_cc_param kappa_ sigma_))) ^ 2)) with
  | Some t1 =>
  Rleb t1 distance_
  | None => false
  end.

(** src/hc_cc_state_space/hcpmpm_reeds_shepp_state_space.cpp:663-674 *)
Definition TcTeST_exists (c1 : Circle) (c2 : Circle) : bool :=
  if Bool.eqb (c_left c1) (c_left c2) then
    false
  else
  if negb (Bool.eqb (c_forward c1) (c_forward c2)) then
    false
  else
  Rleb (2 * ((Rabs (c_kappa_inv c1)) + ((p_radius (hc_cc_param kappa_ sigma_)) * (p_sin_mu (hc_cc_param
      kappa_ sigma_))))) distance_.

(** src/hc_cc_state_space/hcpmpm_reeds_shepp_state_space.cpp:676-679 *)
Definition TcTST_exists (c1 : Circle) (c2 : Circle) : bool :=
  (TcTiST_exists c1 c2) || (TcTeST_exists c1 c2).

(** src/hc_cc_state_space/hcpmpm_reeds_shepp_state_space.cpp:681-703 *)
Definition TcTiST_path (c1 : Circle) (c2 : Circle) : option (R * Circle * Circle * Configuration *
    Configuration * Configuration * Configuration * Circle) :=
  let theta := angle_ in
  flet delta_y := fdiv ((4 * (p_radius (hc_cc_param kappa_ sigma_))) * (p_cos_mu (hc_cc_param kappa_
      sigma_))) ((Rabs (c_kappa c2)) * distance_) in
  flet delta_x := fsqrt (((2 * (c_kappa_inv c2)) ^ 2) - (delta_y ^ 2)) in
  let '(x, y) := global_frame_change (c_xc c1) (c_yc c1) theta delta_x (- delta_y) in
  let tgt1 := circle_at x y (negb (c_left c2)) (negb (c_forward c2)) (c_regular c2) (hc_cc_param kappa_
      sigma_) in
  let q1 := TcT_tangent_circles c1 tgt1 in
  flet (q2, q3) := TiST_tangent_circles tgt1 c2 in
  let cstart := c1 in
  let cend := circle q3 (c_left c2) (negb (c_forward c2)) false (hc_cc_param kappa_ sigma_) in
  let q4 := configuration (q_x (c_start c2)) (q_y (c_start c2)) (q_theta (c_start c2)) (c_kappa c2) in
  let ci := circle q2 (negb (c_left c1)) (c_forward c1) true (hc_cc_param kappa_ sigma_) in
  Some ((((rs_turn_length cstart q1) + (hc_turn_length ci q1)) + (configuration_distance q2 q3)) +
      (hc_turn_length cend q4), cstart, cend, q1, q2, q3, q4, ci).

(** src/hc_cc_state_space/hcpmpm_reeds_shepp_state_space.cpp:705-727 *)
Definition TcTeST_path (c1 : Circle) (c2 : Circle) : R * Circle * Circle * Configuration * Configuration *
    Configuration * Configuration * Circle :=
  let theta := angle_ in
  let delta_x := 2 * (Rabs (c_kappa_inv c2)) in
  let delta_y := 0 in
  let '(x, y) := global_frame_change (c_xc c1) (c_yc c1) theta delta_x delta_y in
  let tgt1 := circle_at x y (c_left c2) (negb (c_forward c2)) (c_regular c2) (hc_cc_param kappa_ sigma_) in
  let q1 := TcT_tangent_circles c1 tgt1 in
  let '(q2, q3) := TeST_tangent_circles tgt1 c2 in
  let cstart := c1 in
  let cend := circle q3 (c_left c2) (negb (c_forward c2)) false (hc_cc_param kappa_ sigma_) in
  let q4 := configuration (q_x (c_start c2)) (q_y (c_start c2)) (q_theta (c_start c2)) (c_kappa c2) in
  let ci := circle q2 (negb (c_left c1)) (c_forward c1) true (hc_cc_param kappa_ sigma_) in
  ((((rs_turn_length cstart q1) + (hc_turn_length ci q1)) + (configuration_distance q2 q3)) + (hc_turn_length
      cend q4), cstart, cend, q1, q2, q3, q4, ci).

(** src/hc_cc_state_space/hcpmpm_reeds_shepp_state_space.cpp:729-742 *)
Definition TcTST_path (c1 : Circle) (c2 : Circle) : option (R * Circle * Circle * Configuration *
    Configuration * Configuration * Configuration * Circle) :=
  if TcTiST_exists c1 c2 then
    TcTiST_path c1 c2
  else
  if TcTeST_exists c1 c2 then
    Some (TcTeST_path c1 c2)
  else
  None.

(** src/hc_cc_state_space/hcpmpm_reeds_shepp_state_space.cpp:745-757 *)
Definition TcTiSTcT_exists (c1 : Circle) (c2 : Circle) : bool :=
  if Bool.eqb (c_left c1) (c_left c2) then
    false
  else
  if Bool.eqb (c_forward c1) (c_forward c2) then
    false
  else
  match fsqrt ((((2 * (p_radius (hc_cc_param kappa_ sigma_))) ^ 2) + (((16 * (p_radius (hc_cc_param kappa_
      sigma_))) * (p_sin_mu (hc_cc_param kappa_ sigma_))) * (Rabs (c_kappa_inv c1)))) + ((4 * (c_kappa_inv
          c1)) ^ 2)) with
  | Some t1 =>
  Rleb t1 distance_
  | None => false
  end.

(** src/hc_cc_state_space/hcpmpm_reeds_shepp_state_space.cpp:759-770 *)
Definition TcTeSTcT_exists (c1 : Circle) (c2 : Circle) : bool :=
  if negb (Bool.eqb (c_left c1) (c_left c2)) then
    false
  else
  if Bool.eqb (c_forward c1) (c_forward c2) then
    false
  else
  Rleb ((4 * (Rabs (c_kappa_inv c1))) + ((2 * (p_radius (hc_cc_param kappa_ sigma_))) * (p_sin_mu
      (hc_cc_param kappa_ sigma_)))) distance_.

(** src/hc_cc_state_space/hcpmpm_reeds_shepp_state_space.cpp:772-775 *)
Definition TcTSTcT_exists (c1 : Circle) (c2 : Circle) : bool :=
  (TcTiSTcT_exists c1 c2) || (TcTeSTcT_exists c1 c2).

(** src/hc_cc_state_space/hcpmpm_reeds_shepp_state_space.cpp:777-802 *)
Definition TcTiSTcT_path (c1 : Circle) (c2 : Circle) : option (R * Circle * Circle * Configuration *
    Configuration * Configuration * Configuration * Circle * Circle) :=
  let theta := angle_ in
  flet delta_y := fdiv ((4 * (p_radius (hc_cc_param kappa_ sigma_))) * (p_cos_mu (hc_cc_param kappa_
      sigma_))) (distance_ * (Rabs (c_kappa c1))) in
  flet delta_x := fsqrt (((2 * (c_kappa_inv c1)) ^ 2) - (delta_y ^ 2)) in
  let '(x, y) := global_frame_change (c_xc c1) (c_yc c1) theta delta_x delta_y in
  let tgt1 := circle_at x y (negb (c_left c1)) (negb (c_forward c1)) (c_regular c1) (hc_cc_param kappa_
      sigma_) in
  let '(x, y) := global_frame_change (c_xc c2) (c_yc c2) theta (- delta_x) (- delta_y) in
  let tgt2 := circle_at x y (negb (c_left c2)) (c_forward c2) (c_regular c2) (hc_cc_param kappa_ sigma_) in
  let q1 := TcT_tangent_circles c1 tgt1 in
  flet (q2, q3) := TiST_tangent_circles tgt1 tgt2 in
  let q4 := TcT_tangent_circles tgt2 c2 in
  let cstart := c1 in
  let cend := c2 in
  let ci1 := circle q2 (negb (c_left c1)) (c_forward c1) true (hc_cc_param kappa_ sigma_) in
  let ci2 := circle q3 (negb (c_left c2)) (c_forward c2) true (hc_cc_param kappa_ sigma_) in
  Some (((((rs_turn_length cstart q1) + (hc_turn_length ci1 q1)) + (configuration_distance q2 q3)) +
      (hc_turn_length ci2 q4)) + (rs_turn_length cend q4), cstart, cend, q1, q2, q3, q4, ci1, ci2).

(** src/hc_cc_state_space/hcpmpm_reeds_shepp_state_space.cpp:804-829 *)
Definition TcTeSTcT_path (c1 : Circle) (c2 : Circle) : R * Circle * Circle * Configuration * Configuration *
    Configuration * Configuration * Circle * Circle :=
  let theta := angle_ in
  let delta_x := 2 * (Rabs (c_kappa_inv c1)) in
  let delta_y := 0 in
  let '(x, y) := global_frame_change (c_xc c1) (c_yc c1) theta delta_x delta_y in
  let tgt1 := circle_at x y (negb (c_left c1)) (negb (c_forward c1)) (c_regular c1) (hc_cc_param kappa_
      sigma_) in
  let '(x, y) := global_frame_change (c_xc c2) (c_yc c2) theta (- delta_x) delta_y in
  let tgt2 := circle_at x y (negb (c_left c2)) (c_forward c2) (c_regular c2) (hc_cc_param kappa_ sigma_) in
  let q1 := TcT_tangent_circles c1 tgt1 in
  let '(q2, q3) := TeST_tangent_circles tgt1 tgt2 in
  let q4 := TcT_tangent_circles tgt2 c2 in
  let cstart := c1 in
  let cend := c2 in
  let ci1 := circle q2 (negb (c_left c1)) (c_forward c1) true (hc_cc_param kappa_ sigma_) in
  let ci2 := circle q3 (negb (c_left c2)) (c_forward c2) true (hc_cc_param kappa_ sigma_) in
  (((((rs_turn_length cstart q1) + (hc_turn_length ci1 q1)) + (configuration_distance q2 q3)) +
      (hc_turn_length ci2 q4)) + (rs_turn_length cend q4), cstart, cend, q1, q2, q3, q4, ci1, ci2).

(** src/hc_cc_state_space/hcpmpm_reeds_shepp_state_space.cpp:831-844 *)
Definition TcTSTcT_path (c1 : Circle) (c2 : Circle) : option (R * Circle * Circle * Configuration *
    Configuration * Configuration * Configuration * Circle * Circle) :=
  if TcTiSTcT_exists c1 c2 then
    TcTiSTcT_path c1 c2
  else
  if TcTeSTcT_exists c1 c2 then
    Some (TcTeSTcT_path c1 c2)
  else
  None.

(** src/hc_cc_state_space/hcpmpm_reeds_shepp_state_space.cpp:847-858 *)
Definition TTcTT_exists (c1 : Circle) (c2 : Circle) : bool :=
  if Bool.eqb (c_left c1) (c_left c2) then
    false
  else
  if negb (Bool.eqb (c_forward c1) (c_forward c2)) then
    false
  else
  Rleb distance_ ((4 * (p_radius (hc_cc_param kappa_ sigma_))) + (2 * (Rabs (c_kappa_inv c1)))).

(** src/hc_cc_state_space/hcpmpm_reeds_shepp_state_space.cpp:860-895 *)
Definition TTcTT_tangent_circles (c1 : Circle) (c2 : Circle) : option (Configuration * Configuration *
    Configuration * Configuration * Configuration * Configuration) :=
  let theta := angle_ in
  let r1 := 2 * (Rabs (c_kappa_inv c1)) in
  let r2 := 2 * (p_radius (hc_cc_param kappa_ sigma_)) in
  flet (delta_x, delta_y) :=
    (
    if Rltb distance_ ((4 * (p_radius (hc_cc_param kappa_ sigma_))) - (2 * (Rabs (c_kappa_inv c1)))) then
      let delta_x := (distance_ + r1) / 2 in
      flet delta_y := fsqrt ((r2 ^ 2) - (delta_x ^ 2)) in
      Some (delta_x, delta_y)
    else
      let delta_x := (distance_ - r1) / 2 in
      flet delta_y := fsqrt ((r2 ^ 2) - (delta_x ^ 2)) in
      Some (delta_x, delta_y)) in
  let '(x, y) := global_frame_change (c_xc c1) (c_yc c1) theta delta_x delta_y in
  let tgt1 := circle_at x y (negb (c_left c1)) (c_forward c1) (c_regular c1) (hc_cc_param kappa_ sigma_) in
  let '(x, y) := global_frame_change (c_xc c2) (c_yc c2) theta (- delta_x) delta_y in
  let tgt2 := circle_at x y (negb (c_left c2)) (negb (c_forward c2)) (c_regular c2) (hc_cc_param kappa_
      sigma_) in
  let '(x, y) := global_frame_change (c_xc c1) (c_yc c1) theta delta_x (- delta_y) in
  let tgt3 := circle_at x y (negb (c_left c1)) (c_forward c1) (c_regular c1) (hc_cc_param kappa_ sigma_) in
  let '(x, y) := global_frame_change (c_xc c2) (c_yc c2) theta (- delta_x) (- delta_y) in
  let tgt4 := circle_at x y (negb (c_left c2)) (negb (c_forward c2)) (c_regular c2) (hc_cc_param kappa_
      sigma_) in
  let q1 := TT_tangent_circles c1 tgt1 in
  let q2 := TcT_tangent_circles tgt1 tgt2 in
  let q3 := TT_tangent_circles tgt2 c2 in
  let q4 := TT_tangent_circles c1 tgt3 in
  let q5 := TcT_tangent_circles tgt3 tgt4 in
  let q6 := TT_tangent_circles tgt4 c2 in
  Some (q1, q2, q3, q4, q5, q6).

(** src/hc_cc_state_space/hcpmpm_reeds_shepp_state_space.cpp:897-956 *)
Definition TTcTT_path (c1 : Circle) (c2 : Circle) : option (R * Circle * Circle * Configuration *
    Configuration * Configuration * Circle * Circle) :=
  flet (qa, qb, qc, qd, qe, qf) := TTcTT_tangent_circles c1 c2 in
  let start1 := circle qa (c_left c1) (negb (c_forward c1)) false (hc_cc_param kappa_ sigma_) in
  let middle1 := circle qa (negb (c_left c1)) (c_forward c1) true (hc_cc_param kappa_ sigma_) in
  let middle2 := circle qc (negb (c_left c2)) (c_forward c2) true (hc_cc_param kappa_ sigma_) in
  let end1 := circle qc (c_left c2) (negb (c_forward c2)) false (hc_cc_param kappa_ sigma_) in
  let start2 := circle qd (c_left c1) (negb (c_forward c1)) false (hc_cc_param kappa_ sigma_) in
  let middle3 := circle qd (negb (c_left c1)) (c_forward c1) true (hc_cc_param kappa_ sigma_) in
  let middle4 := circle qf (negb (c_left c2)) (c_forward c2) true (hc_cc_param kappa_ sigma_) in
  let end2 := circle qf (c_left c2) (negb (c_forward c2)) false (hc_cc_param kappa_ sigma_) in
  let q1 := configuration (q_x (c_start c1)) (q_y (c_start c1)) (q_theta (c_start c1)) (c_kappa c1) in
  let q3 := configuration (q_x (c_start c2)) (q_y (c_start c2)) (q_theta (c_start c2)) (c_kappa c2) in
  let length1 := (((hc_turn_length start1 q1) + (hc_turn_length middle1 qb)) + (hc_turn_length middle2 qb)) +
      (hc_turn_length end1 q3) in
  let length2 := (((hc_turn_length start2 q1) + (hc_turn_length middle3 qe)) + (hc_turn_length middle4 qe)) +
      (hc_turn_length end2 q3) in
  if Rltb length1 length2 then
    let cstart := start1 in
    let cend := end1 in
    let ci1 := middle1 in
    let ci2 := middle2 in
    let q2 := qb in
    Some (length1, cstart, cend, q1, q2, q3, ci1, ci2)
  else
    let cstart := start2 in
    let cend := end2 in
    let ci1 := middle3 in
    let ci2 := middle4 in
    let q2 := qe in
    Some (length2, cstart, cend, q1, q2, q3, ci1, ci2).

(** src/hc_cc_state_space/hcpmpm_reeds_shepp_state_space.cpp:959-971 *)
Definition TcTTcT_exists (c1 : Circle) (c2 : Circle) : bool :=
  if Bool.eqb (c_left c1) (c_left c2) then
    false
  else
  if Bool.eqb (c_forward c1) (c_forward c2) then
    false
  else
  (Rleb distance_ ((4 * (Rabs (c_kappa_inv c1))) + (2 * (p_radius (hc_cc_param kappa_ sigma_))))) && (Rleb
      ((4 * (Rabs (c_kappa_inv c1))) - (2 * (p_radius (hc_cc_param kappa_ sigma_)))) distance_).

(** src/hc_cc_state_space/hcpmpm_reeds_shepp_state_space.cpp:973-1000 *)
Definition TcTTcT_tangent_circles (c1 : Circle) (c2 : Circle) : option (Configuration * Configuration *
    Configuration * Configuration * Configuration * Configuration) :=
  let theta := angle_ in
  let r1 := 2 * (Rabs (c_kappa_inv c1)) in
  let r2 := p_radius (hc_cc_param kappa_ sigma_) in
  flet delta_x := fdiv (((r1 ^ 2) + ((distance_ / 2) ^ 2)) - (r2 ^ 2)) distance_ in
  flet delta_y := fsqrt ((r1 ^ 2) - (delta_x ^ 2)) in
  let '(x, y) := global_frame_change (c_xc c1) (c_yc c1) theta delta_x delta_y in
  let tgt1 := circle_at x y (negb (c_left c1)) (negb (c_forward c1)) (c_regular c1) (hc_cc_param kappa_
      sigma_) in
  let '(x, y) := global_frame_change (c_xc c2) (c_yc c2) theta (- delta_x) (- delta_y) in
  let tgt2 := circle_at x y (negb (c_left c2)) (c_forward c2) (c_regular c2) (hc_cc_param kappa_ sigma_) in
  let '(x, y) := global_frame_change (c_xc c1) (c_yc c1) theta delta_x (- delta_y) in
  let tgt3 := circle_at x y (negb (c_left c1)) (negb (c_forward c1)) (c_regular c1) (hc_cc_param kappa_
      sigma_) in
  let '(x, y) := global_frame_change (c_xc c2) (c_yc c2) theta (- delta_x) delta_y in
  let tgt4 := circle_at x y (negb (c_left c2)) (c_forward c2) (c_regular c2) (hc_cc_param kappa_ sigma_) in
  let q1 := TcT_tangent_circles c1 tgt1 in
  let q2 := TT_tangent_circles tgt1 tgt2 in
  let q3 := TcT_tangent_circles tgt2 c2 in
  let q4 := TcT_tangent_circles c1 tgt3 in
  let q5 := TT_tangent_circles tgt3 tgt4 in
  let q6 := TcT_tangent_circles tgt4 c2 in
  Some (q1, q2, q3, q4, q5, q6).

(** src/hc_cc_state_space/hcpmpm_reeds_shepp_state_space.cpp:1002-1050 *)
Definition TcTTcT_path (c1 : Circle) (c2 : Circle) : option (R * Circle * Circle * Configuration *
    Configuration * Circle * Circle) :=
  flet (qa, qb, qc, qd, qe, qf) := TcTTcT_tangent_circles c1 c2 in
  let middle1 := circle qb (negb (c_left c1)) (c_forward c1) true (hc_cc_param kappa_ sigma_) in
  let middle2 := circle qb (c_left c1) (negb (c_forward c1)) true (hc_cc_param kappa_ sigma_) in
  let middle3 := circle qe (negb (c_left c1)) (c_forward c1) true (hc_cc_param kappa_ sigma_) in
  let middle4 := circle qe (c_left c1) (negb (c_forward c1)) true (hc_cc_param kappa_ sigma_) in
  let cstart := c1 in
  let cend := c2 in
  let length1 := (((rs_turn_length cstart qa) + (hc_turn_length middle1 qa)) + (hc_turn_length middle2 qc)) +
      (rs_turn_length cend qc) in
  let length2 := (((rs_turn_length cstart qd) + (hc_turn_length middle3 qd)) + (hc_turn_length middle4 qf)) +
      (rs_turn_length cend qf) in
  if Rltb length1 length2 then
    let q1 := qa in
    let q2 := qc in
    let ci1 := middle1 in
    let ci2 := middle2 in
    Some (length1, cstart, cend, q1, q2, ci1, ci2)
  else
    let q1 := qd in
    let q2 := qf in
    let ci1 := middle3 in
    let ci2 := middle4 in
    Some (length2, cstart, cend, q1, q2, ci1, ci2).

(** src/hc_cc_state_space/hcpmpm_reeds_shepp_state_space.cpp:1055-1066 *)
Definition TTT_exists (c1 : Circle) (c2 : Circle) : bool :=
  if negb (Bool.eqb (c_left c1) (c_left c2)) then
    false
  else
  if Bool.eqb (c_forward c1) (c_forward c2) then
    false
  else
  Rleb distance_ (4 * (p_radius (hc_cc_param kappa_ sigma_))).

(** src/hc_cc_state_space/hcpmpm_reeds_shepp_state_space.cpp:1068-1086 *)
Definition TTT_tangent_circles (c1 : Circle) (c2 : Circle) : option (Configuration * Configuration *
    Configuration * Configuration) :=
  let theta := angle_ in
  let r := 2 * (p_radius (hc_cc_param kappa_ sigma_)) in
  let delta_x := (5 / 10) * distance_ in
  flet delta_y := fsqrt ((r ^ 2) - (delta_x ^ 2)) in
  let '(x, y) := global_frame_change (c_xc c1) (c_yc c1) theta delta_x delta_y in
  let tgt1 := circle_at x y (negb (c_left c1)) (c_forward c1) (c_regular c1) (hc_cc_param kappa_ sigma_) in
  let '(x, y) := global_frame_change (c_xc c1) (c_yc c1) theta delta_x (- delta_y) in
  let tgt2 := circle_at x y (negb (c_left c1)) (c_forward c1) (c_regular c1) (hc_cc_param kappa_ sigma_) in
  let q1 := TT_tangent_circles c1 tgt1 in
  let q2 := TT_tangent_circles tgt1 c2 in
  let q3 := TT_tangent_circles c1 tgt2 in
  let q4 := TT_tangent_circles tgt2 c2 in
  Some (q1, q2, q3, q4).

(** src/hc_cc_state_space/hcpmpm_reeds_shepp_state_space.cpp:1088-1136 *)
Definition TTT_path (c1 : Circle) (c2 : Circle) : option (R * Circle * Circle * Configuration * Configuration
    * Configuration * Circle) :=
  flet (qa, qb, qc, qd) := TTT_tangent_circles c1 c2 in
  let start1 := circle qa (c_left c1) (negb (c_forward c1)) false (hc_cc_param kappa_ sigma_) in
  let middle1 := circle qa (negb (c_left c1)) (c_forward c1) false (hc_cc_param kappa_ sigma_) in
  let end1 := circle qb (c_left c2) (negb (c_forward c2)) false (hc_cc_param kappa_ sigma_) in
  let start2 := circle qc (c_left c1) (negb (c_forward c1)) false (hc_cc_param kappa_ sigma_) in
  let middle2 := circle qc (negb (c_left c1)) (c_forward c1) false (hc_cc_param kappa_ sigma_) in
  let end2 := circle qd (c_left c2) (negb (c_forward c2)) false (hc_cc_param kappa_ sigma_) in
  let q1 := configuration (q_x (c_start c1)) (q_y (c_start c1)) (q_theta (c_start c1)) (c_kappa c1) in
  let q3 := configuration (q_x (c_start c2)) (q_y (c_start c2)) (q_theta (c_start c2)) (c_kappa c2) in
  let length1 := ((hc_turn_length start1 q1) + (cc_turn_length middle1 qb)) + (hc_turn_length end1 q3) in
  let length2 := ((hc_turn_length start2 q1) + (cc_turn_length middle2 qd)) + (hc_turn_length end2 q3) in
  if Rltb length1 length2 then
    let cstart := start1 in
    let ci := middle1 in
    let cend := end1 in
    let q2 := qb in
    Some (length1, cstart, cend, q1, q2, q3, ci)
  else
    let cstart := start2 in
    let ci := middle2 in
    let cend := end2 in
    let q2 := qd in
    Some (length2, cstart, cend, q1, q2, q3, ci).

(** src/hc_cc_state_space/hcpmpm_reeds_shepp_state_space.cpp:1139-1151 *)
Definition TciST_exists (c1 : Circle) (c2 : Circle) : bool :=
  if Bool.eqb (c_left c1) (c_left c2) then
    false
  else
  if negb (Bool.eqb (c_forward c1) (c_forward c2)) then
    false
  else
  match fsqrt ((((p_radius (hc_cc_param kappa_ sigma_)) * (p_sin_mu (hc_cc_param kappa_ sigma_))) ^ 2) +
      ((((p_radius (hc_cc_param kappa_ sigma_)) * (p_cos_mu (hc_cc_param kappa_ sigma_))) + (Rabs
          (c_kappa_inv c1))) ^ 2)) with
  | Some t1 =>
  Rleb t1 distance_
  | None => false
  end.

(** src/hc_cc_state_space/hcpmpm_reeds_shepp_state_space.cpp:1153-1165 *)
Definition TceST_exists (c1 : Circle) (c2 : Circle) : bool :=
  if negb (Bool.eqb (c_left c1) (c_left c2)) then
    false
  else
  if negb (Bool.eqb (c_forward c1) (c_forward c2)) then
    false
  else
  match fsqrt ((((p_radius (hc_cc_param kappa_ sigma_)) * (p_sin_mu (hc_cc_param kappa_ sigma_))) ^ 2) +
      ((((p_radius (hc_cc_param kappa_ sigma_)) * (p_cos_mu (hc_cc_param kappa_ sigma_))) - (Rabs
          (c_kappa_inv c1))) ^ 2)) with
  | Some t1 =>
  Rleb t1 distance_
  | None => false
  end.

(** src/hc_cc_state_space/hcpmpm_reeds_shepp_state_space.cpp:1167-1170 *)
Definition TcST_exists (c1 : Circle) (c2 : Circle) : bool :=
  (TciST_exists c1 c2) || (TceST_exists c1 c2).

(** src/hc_cc_state_space/hcpmpm_reeds_shepp_state_space.cpp:1172-1217 *)
Definition TciST_path (c1 : Circle) (c2 : Circle) : option (R * Circle * Circle * Configuration *
    Configuration * Configuration) :=
  flet t1 := fdiv (((p_radius (hc_cc_param kappa_ sigma_)) * (p_cos_mu (hc_cc_param kappa_ sigma_))) + (Rabs
      (c_kappa_inv c1))) distance_ in
  flet alpha := fasin t1 in
  let delta_x1 := 0 in
  let delta_y1 := Rabs (c_kappa_inv c1) in
  let delta_x2 := (p_radius (hc_cc_param kappa_ sigma_)) * (p_sin_mu (hc_cc_param kappa_ sigma_)) in
  let delta_y2 := (p_radius (hc_cc_param kappa_ sigma_)) * (p_cos_mu (hc_cc_param kappa_ sigma_)) in
  let '(q1, q2) :=
    if (c_left c1) && (c_forward c1) then
      let theta := angle_ - alpha in
      let '(x, y) := global_frame_change (c_xc c1) (c_yc c1) theta (- delta_x1) delta_y1 in
      let q1 := configuration x y (theta + PI) (c_kappa c1) in
      let '(x, y) := global_frame_change (c_xc c2) (c_yc c2) theta (- delta_x2) (- delta_y2) in
      let q2 := configuration x y (theta + PI) 0 in
      (q1, q2)
    else
    if (c_left c1) && (negb (c_forward c1)) then
      let theta := angle_ + alpha in
      let '(x, y) := global_frame_change (c_xc c1) (c_yc c1) theta (- delta_x1) (- delta_y1) in
      let q1 := configuration x y theta (c_kappa c1) in
      let '(x, y) := global_frame_change (c_xc c2) (c_yc c2) theta (- delta_x2) delta_y2 in
      let q2 := configuration x y theta 0 in
      (q1, q2)
    else
    if (negb (c_left c1)) && (c_forward c1) then
      let theta := angle_ + alpha in
      let '(x, y) := global_frame_change (c_xc c1) (c_yc c1) theta (- delta_x1) (- delta_y1) in
      let q1 := configuration x y (theta + PI) (c_kappa c1) in
      let '(x, y) := global_frame_change (c_xc c2) (c_yc c2) theta (- delta_x2) delta_y2 in
      let q2 := configuration x y (theta + PI) 0 in
      (q1, q2)
    else
      let theta := angle_ - alpha in
      let '(x, y) := global_frame_change (c_xc c1) (c_yc c1) theta (- delta_x1) delta_y1 in
      let q1 := configuration x y theta (c_kappa c1) in
      let '(x, y) := global_frame_change (c_xc c2) (c_yc c2) theta (- delta_x2) (- delta_y2) in
      let q2 := configuration x y theta 0 in
      (q1, q2) in
  let q3 := configuration (q_x (c_start c2)) (q_y (c_start c2)) (q_theta (c_start c2)) (c_kappa c2) in
  let cstart := c1 in
  let cend := circle q2 (c_left c2) (negb (c_forward c2)) false (hc_cc_param kappa_ sigma_) in
  Some (((rs_turn_length cstart q1) + (configuration_distance q1 q2)) + (hc_turn_length cend q3), cstart,
      cend, q1, q2, q3).

(** src/hc_cc_state_space/hcpmpm_reeds_shepp_state_space.cpp:1219-1264 *)
Definition TceST_path (c1 : Circle) (c2 : Circle) : option (R * Circle * Circle * Configuration *
    Configuration * Configuration) :=
  flet t1 := fdiv (((p_radius (hc_cc_param kappa_ sigma_)) * (p_cos_mu (hc_cc_param kappa_ sigma_))) - (Rabs
      (c_kappa_inv c1))) distance_ in
  flet alpha := fasin t1 in
  let delta_x1 := 0 in
  let delta_y1 := Rabs (c_kappa_inv c1) in
  let delta_x2 := (p_radius (hc_cc_param kappa_ sigma_)) * (p_sin_mu (hc_cc_param kappa_ sigma_)) in
  let delta_y2 := (p_radius (hc_cc_param kappa_ sigma_)) * (p_cos_mu (hc_cc_param kappa_ sigma_)) in
  let '(q1, q2) :=
    if (c_left c1) && (c_forward c1) then
      let theta := angle_ + alpha in
      let '(x, y) := global_frame_change (c_xc c1) (c_yc c1) theta (- delta_x1) delta_y1 in
      let q1 := configuration x y (theta + PI) (c_kappa c1) in
      let '(x, y) := global_frame_change (c_xc c2) (c_yc c2) theta (- delta_x2) delta_y2 in
      let q2 := configuration x y (theta + PI) 0 in
      (q1, q2)
    else
    if (c_left c1) && (negb (c_forward c1)) then
      let theta := angle_ - alpha in
      let '(x, y) := global_frame_change (c_xc c1) (c_yc c1) theta (- delta_x1) (- delta_y1) in
      let q1 := configuration x y theta (c_kappa c1) in
      let '(x, y) := global_frame_change (c_xc c2) (c_yc c2) theta (- delta_x2) (- delta_y2) in
      let q2 := configuration x y theta 0 in
      (q1, q2)
    else
    if (negb (c_left c1)) && (c_forward c1) then
      let theta := angle_ - alpha in
      let '(x, y) := global_frame_change (c_xc c1) (c_yc c1) theta (- delta_x1) (- delta_y1) in
      let q1 := configuration x y (theta + PI) (c_kappa c1) in
      let '(x, y) := global_frame_change (c_xc c2) (c_yc c2) theta (- delta_x2) (- delta_y2) in
      let q2 := configuration x y (theta + PI) 0 in
      (q1, q2)
    else
      let theta := angle_ + alpha in
      let '(x, y) := global_frame_change (c_xc c1) (c_yc c1) theta (- delta_x1) delta_y1 in
      let q1 := configuration x y theta (c_kappa c1) in
      let '(x, y) := global_frame_change (c_xc c2) (c_yc c2) theta (- delta_x2) delta_y2 in
      let q2 := configuration x y theta 0 in
      (q1, q2) in
  let q3 := configuration (q_x (c_start c2)) (q_y (c_start c2)) (q_theta (c_start c2)) (c_kappa c2) in
  let cstart := c1 in
  let cend := circle q2 (c_left c2) (negb (c_forward c2)) false (hc_cc_param kappa_ sigma_) in
  Some (((rs_turn_length cstart q1) + (configuration_distance q1 q2)) + (hc_turn_length cend q3), cstart,
      cend, q1, q2, q3).

(** src/hc_cc_state_space/hcpmpm_reeds_shepp_state_space.cpp:1266-1278 *)
Definition TcST_path (c1 : Circle) (c2 : Circle) : option (R * Circle * Circle * Configuration *
    Configuration * Configuration) :=
  if TciST_exists c1 c2 then
    TciST_path c1 c2
  else
  if TceST_exists c1 c2 then
    TceST_path c1 c2
  else
  None.

(** src/hc_cc_state_space/hcpmpm_reeds_shepp_state_space.cpp:1281-1293 *)
Definition TiScT_exists (c1 : Circle) (c2 : Circle) : bool :=
  if Bool.eqb (c_left c1) (c_left c2) then
    false
  else
  if negb (Bool.eqb (c_forward c1) (c_forward c2)) then
    false
  else
  match fsqrt ((((p_radius (hc_cc_param kappa_ sigma_)) * (p_sin_mu (hc_cc_param kappa_ sigma_))) ^ 2) +
      ((((p_radius (hc_cc_param kappa_ sigma_)) * (p_cos_mu (hc_cc_param kappa_ sigma_))) + (Rabs
          (c_kappa_inv c1))) ^ 2)) with
  | Some t1 =>
  Rleb t1 distance_
  | None => false
  end.

(** src/hc_cc_state_space/hcpmpm_reeds_shepp_state_space.cpp:1295-1307 *)
Definition TeScT_exists (c1 : Circle) (c2 : Circle) : bool :=
  if negb (Bool.eqb (c_left c1) (c_left c2)) then
    false
  else
  if negb (Bool.eqb (c_forward c1) (c_forward c2)) then
    false
  else
  match fsqrt ((((p_radius (hc_cc_param kappa_ sigma_)) * (p_sin_mu (hc_cc_param kappa_ sigma_))) ^ 2) +
      ((((p_radius (hc_cc_param kappa_ sigma_)) * (p_cos_mu (hc_cc_param kappa_ sigma_))) - (Rabs
          (c_kappa_inv c1))) ^ 2)) with
  | Some t1 =>
  Rleb t1 distance_
  | None => false
  end.

(** src/hc_cc_state_space/hcpmpm_reeds_shepp_state_space.cpp:1309-1312 *)
Definition TScT_exists (c1 : Circle) (c2 : Circle) : bool :=
  (TiScT_exists c1 c2) || (TeScT_exists c1 c2).

(** src/hc_cc_state_space/hcpmpm_reeds_shepp_state_space.cpp:1314-1359 *)
Definition TiScT_path (c1 : Circle) (c2 : Circle) : option (R * Circle * Circle * Configuration *
    Configuration * Configuration) :=
  flet t1 := fdiv (((p_radius (hc_cc_param kappa_ sigma_)) * (p_cos_mu (hc_cc_param kappa_ sigma_))) + (Rabs
      (c_kappa_inv c1))) distance_ in
  flet alpha := fasin t1 in
  let delta_x1 := (p_radius (hc_cc_param kappa_ sigma_)) * (p_sin_mu (hc_cc_param kappa_ sigma_)) in
  let delta_y1 := (p_radius (hc_cc_param kappa_ sigma_)) * (p_cos_mu (hc_cc_param kappa_ sigma_)) in
  let delta_x2 := 0 in
  let delta_y2 := Rabs (c_kappa_inv c1) in
  let '(q2, q3) :=
    if (c_left c1) && (c_forward c1) then
      let theta := angle_ + alpha in
      let '(x, y) := global_frame_change (c_xc c1) (c_yc c1) theta delta_x1 (- delta_y1) in
      let q2 := configuration x y theta 0 in
      let '(x, y) := global_frame_change (c_xc c2) (c_yc c2) theta delta_x2 delta_y2 in
      let q3 := configuration x y theta (c_kappa c2) in
      (q2, q3)
    else
    if (c_left c1) && (negb (c_forward c1)) then
      let theta := angle_ - alpha in
      let '(x, y) := global_frame_change (c_xc c1) (c_yc c1) theta delta_x1 delta_y1 in
      let q2 := configuration x y (theta + PI) 0 in
      let '(x, y) := global_frame_change (c_xc c2) (c_yc c2) theta delta_x2 (- delta_y2) in
      let q3 := configuration x y (theta + PI) (c_kappa c2) in
      (q2, q3)
    else
    if (negb (c_left c1)) && (c_forward c1) then
      let theta := angle_ - alpha in
      let '(x, y) := global_frame_change (c_xc c1) (c_yc c1) theta delta_x1 delta_y1 in
      let q2 := configuration x y theta 0 in
      let '(x, y) := global_frame_change (c_xc c2) (c_yc c2) theta delta_x2 (- delta_y2) in
      let q3 := configuration x y theta (c_kappa c2) in
      (q2, q3)
    else
      let theta := angle_ + alpha in
      let '(x, y) := global_frame_change (c_xc c1) (c_yc c1) theta delta_x1 (- delta_y1) in
      let q2 := configuration x y (theta + PI) 0 in
      let '(x, y) := global_frame_change (c_xc c2) (c_yc c2) theta delta_x2 delta_y2 in
      let q3 := configuration x y (theta + PI) (c_kappa c2) in
      (q2, q3) in
  let q1 := configuration (q_x (c_start c1)) (q_y (c_start c1)) (q_theta (c_start c1)) (c_kappa c1) in
  let cstart := circle q2 (c_left c1) (negb (c_forward c1)) false (hc_cc_param kappa_ sigma_) in
  let cend := c2 in
  Some (((hc_turn_length cstart q1) + (configuration_distance q2 q3)) + (rs_turn_length cend q3), cstart,
      cend, q1, q2, q3).

(** src/hc_cc_state_space/hcpmpm_reeds_shepp_state_space.cpp:1361-1406 *)
Definition TeScT_path (c1 : Circle) (c2 : Circle) : option (R * Circle * Circle * Configuration *
    Configuration * Configuration) :=
  flet t1 := fdiv (((p_radius (hc_cc_param kappa_ sigma_)) * (p_cos_mu (hc_cc_param kappa_ sigma_))) - (Rabs
      (c_kappa_inv c1))) distance_ in
  flet alpha := fasin t1 in
  let delta_x1 := (p_radius (hc_cc_param kappa_ sigma_)) * (p_sin_mu (hc_cc_param kappa_ sigma_)) in
  let delta_y1 := (p_radius (hc_cc_param kappa_ sigma_)) * (p_cos_mu (hc_cc_param kappa_ sigma_)) in
  let delta_x2 := 0 in
  let delta_y2 := Rabs (c_kappa_inv c1) in
  let '(q2, q3) :=
    if (c_left c1) && (c_forward c1) then
      let theta := angle_ + alpha in
      let '(x, y) := global_frame_change (c_xc c1) (c_yc c1) theta delta_x1 (- delta_y1) in
      let q2 := configuration x y theta 0 in
      let '(x, y) := global_frame_change (c_xc c2) (c_yc c2) theta delta_x2 (- delta_y2) in
      let q3 := configuration x y theta (c_kappa c2) in
      (q2, q3)
    else
    if (c_left c1) && (negb (c_forward c1)) then
      let theta := angle_ - alpha in
      let '(x, y) := global_frame_change (c_xc c1) (c_yc c1) theta delta_x1 delta_y1 in
      let q2 := configuration x y (theta + PI) 0 in
      let '(x, y) := global_frame_change (c_xc c2) (c_yc c2) theta delta_x2 delta_y2 in
      let q3 := configuration x y (theta + PI) (c_kappa c2) in
      (q2, q3)
    else
    if (negb (c_left c1)) && (c_forward c1) then
      let theta := angle_ - alpha in
      let '(x, y) := global_frame_change (c_xc c1) (c_yc c1) theta delta_x1 delta_y1 in
      let q2 := configuration x y theta 0 in
      let '(x, y) := global_frame_change (c_xc c2) (c_yc c2) theta delta_x2 delta_y2 in
      let q3 := configuration x y theta (c_kappa c2) in
      (q2, q3)
    else
      let theta := angle_ + alpha in
      let '(x, y) := global_frame_change (c_xc c1) (c_yc c1) theta delta_x1 (- delta_y1) in
      let q2 := configuration x y (theta + PI) 0 in
      let '(x, y) := global_frame_change (c_xc c2) (c_yc c2) theta delta_x2 (- delta_y2) in
      let q3 := configuration x y (theta + PI) (c_kappa c2) in
      (q2, q3) in
  let q1 := configuration (q_x (c_start c1)) (q_y (c_start c1)) (q_theta (c_start c1)) (c_kappa c1) in
  let cstart := circle q2 (c_left c1) (negb (c_forward c1)) false (hc_cc_param kappa_ sigma_) in
  let cend := c2 in
  Some (((hc_turn_length cstart q1) + (configuration_distance q2 q3)) + (rs_turn_length cend q3), cstart,
      cend, q1, q2, q3).

(** src/hc_cc_state_space/hcpmpm_reeds_shepp_state_space.cpp:1408-1420 *)
Definition TScT_path (c1 : Circle) (c2 : Circle) : option (R * Circle * Circle * Configuration *
    Configuration * Configuration) :=
  if TiScT_exists c1 c2 then
    TiScT_path c1 c2
  else
  if TeScT_exists c1 c2 then
    TeScT_path c1 c2
  else
  None.

(** src/hc_cc_state_space/hcpmpm_reeds_shepp_state_space.cpp:1423-1434 *)
Definition TciScT_exists (c1 : Circle) (c2 : Circle) : bool :=
  if Bool.eqb (c_left c1) (c_left c2) then
    false
  else
  if Bool.eqb (c_forward c1) (c_forward c2) then
    false
  else
  Rltb (2 * (Rabs (c_kappa_inv c1))) distance_.

(** src/hc_cc_state_space/hcpmpm_reeds_shepp_state_space.cpp:1436-1447 *)
Definition TceScT_exists (c1 : Circle) (c2 : Circle) : bool :=
  if negb (Bool.eqb (c_left c1) (c_left c2)) then
    false
  else
  if Bool.eqb (c_forward c1) (c_forward c2) then
    false
  else
  Rleb epsilon distance_.

(** src/hc_cc_state_space/hcpmpm_reeds_shepp_state_space.cpp:1449-1452 *)
Definition TcScT_exists (c1 : Circle) (c2 : Circle) : bool :=
  (TciScT_exists c1 c2) || (TceScT_exists c1 c2).

(** src/hc_cc_state_space/hcpmpm_reeds_shepp_state_space.cpp:1454-1496 *)
Definition TciScT_path (c1 : Circle) (c2 : Circle) : option (R * Circle * Circle * Configuration *
    Configuration) :=
  flet t1 := fdiv 2 ((Rabs (c_kappa c1)) * distance_) in
  flet alpha := fasin t1 in
  let delta_x := 0 in
  let delta_y := Rabs (c_kappa_inv c1) in
  let '(q1, q2) :=
    if (c_left c1) && (c_forward c1) then
      let theta := angle_ - alpha in
      let '(x, y) := global_frame_change (c_xc c1) (c_yc c1) theta (- delta_x) delta_y in
      let q1 := configuration x y (theta + PI) (c_kappa c1) in
      let '(x, y) := global_frame_change (c_xc c2) (c_yc c2) theta delta_x (- delta_y) in
      let q2 := configuration x y (theta + PI) (c_kappa c2) in
      (q1, q2)
    else
    if (c_left c1) && (negb (c_forward c1)) then
      let theta := angle_ + alpha in
      let '(x, y) := global_frame_change (c_xc c1) (c_yc c1) theta (- delta_x) (- delta_y) in
      let q1 := configuration x y theta (c_kappa c1) in
      let '(x, y) := global_frame_change (c_xc c2) (c_yc c2) theta delta_x delta_y in
      let q2 := configuration x y theta (c_kappa c2) in
      (q1, q2)
    else
    if (negb (c_left c1)) && (c_forward c1) then
      let theta := angle_ + alpha in
      let '(x, y) := global_frame_change (c_xc c1) (c_yc c1) theta (- delta_x) (- delta_y) in
      let q1 := configuration x y (theta + PI) (c_kappa c1) in
      let '(x, y) := global_frame_change (c_xc c2) (c_yc c2) theta delta_x delta_y in
      let q2 := configuration x y (theta + PI) (c_kappa c2) in
      (q1, q2)
    else
      let theta := angle_ - alpha in
      let '(x, y) := global_frame_change (c_xc c1) (c_yc c1) theta (- delta_x) delta_y in
      let q1 := configuration x y theta (c_kappa c1) in
      let '(x, y) := global_frame_change (c_xc c2) (c_yc c2) theta delta_x (- delta_y) in
      let q2 := configuration x y theta (c_kappa c2) in
      (q1, q2) in
  let cstart := c1 in
  let cend := c2 in
  Some (((rs_turn_length cstart q1) + (configuration_distance q1 q2)) + (rs_turn_length cend q2), cstart,
      cend, q1, q2).

(** src/hc_cc_state_space/hcpmpm_reeds_shepp_state_space.cpp:1498-1536 *)
Definition TceScT_path (c1 : Circle) (c2 : Circle) : R * Circle * Circle * Configuration * Configuration :=
  let theta := angle_ in
  let delta_x := 0 in
  let delta_y := Rabs (c_kappa_inv c1) in
  let '(q1, q2) :=
    if (c_left c1) && (c_forward c1) then
      let '(x, y) := global_frame_change (c_xc c1) (c_yc c1) theta (- delta_x) delta_y in
      let q1 := configuration x y (theta + PI) (c_kappa c1) in
      let '(x, y) := global_frame_change (c_xc c2) (c_yc c2) theta delta_x delta_y in
      let q2 := configuration x y (theta + PI) (c_kappa c2) in
      (q1, q2)
    else
    if (c_left c1) && (negb (c_forward c1)) then
      let '(x, y) := global_frame_change (c_xc c1) (c_yc c1) theta (- delta_x) (- delta_y) in
      let q1 := configuration x y theta (c_kappa c1) in
      let '(x, y) := global_frame_change (c_xc c2) (c_yc c2) theta delta_x (- delta_y) in
      let q2 := configuration x y theta (c_kappa c2) in
      (q1, q2)
    else
    if (negb (c_left c1)) && (c_forward c1) then
      let '(x, y) := global_frame_change (c_xc c1) (c_yc c1) theta (- delta_x) (- delta_y) in
      let q1 := configuration x y (theta + PI) (c_kappa c1) in
      let '(x, y) := global_frame_change (c_xc c2) (c_yc c2) theta delta_x (- delta_y) in
      let q2 := configuration x y (theta + PI) (c_kappa c2) in
      (q1, q2)
    else
      let '(x, y) := global_frame_change (c_xc c1) (c_yc c1) theta (- delta_x) delta_y in
      let q1 := configuration x y theta (c_kappa c1) in
      let '(x, y) := global_frame_change (c_xc c2) (c_yc c2) theta delta_x delta_y in
      let q2 := configuration x y theta (c_kappa c2) in
      (q1, q2) in
  let cstart := c1 in
  let cend := c2 in
  (((rs_turn_length cstart q1) + (configuration_distance q1 q2)) + (rs_turn_length cend q2), cstart, cend,
      q1, q2).

(** src/hc_cc_state_space/hcpmpm_reeds_shepp_state_space.cpp:1538-1550 *)
Definition TcScT_path (c1 : Circle) (c2 : Circle) : option (R * Circle * Circle * Configuration *
    Configuration) :=
  if TciScT_exists c1 c2 then
    TciScT_path c1 c2
  else
  if TceScT_exists c1 c2 then
    Some (TceScT_path c1 c2)
  else
  None.

End Helper.

(** src/hc_cc_state_space/hcpmpm_reeds_shepp_state_space.cpp:1609-1613, case TT. *)
Definition entry_TT (distance_ angle_ : R) (c1 c2 : Circle) : Entry :=
  if TT_exists distance_ c1 c2 then
      let '(l, cstart, cend, qi1, qi2, qi3) := TT_path c1 c2 in
      mkEntry (Some l) (Some qi1) (Some qi2) (Some qi3) None (Some cstart) (Some cend) None None
  else no_entry.

(** src/hc_cc_state_space/hcpmpm_reeds_shepp_state_space.cpp:1615-1619, case TcT. *)
Definition entry_TcT (distance_ angle_ : R) (c1 c2 : Circle) : Entry :=
  if TcT_exists distance_ c1 c2 then
      let '(l, cstart, cend, qi1) := TcT_path c1 c2 in
      mkEntry (Some l) (Some qi1) None None None (Some cstart) (Some cend) None None
  else no_entry.

(** src/hc_cc_state_space/hcpmpm_reeds_shepp_state_space.cpp:1622-1627, case TcTcT. *)
Definition entry_TcTcT (distance_ angle_ : R) (c1 c2 : Circle) : Entry :=
  if TcTcT_exists distance_ c1 c2 then
      match TcTcT_path distance_ angle_ c1 c2 with
      | Some (l, cstart, cend, qi1, qi2, ci1) =>
          mkEntry (Some l) (Some qi1) (Some qi2) None None (Some cstart) (Some cend) (Some ci1) None
      | None => nan_entry
      end
  else no_entry.

(** src/hc_cc_state_space/hcpmpm_reeds_shepp_state_space.cpp:1629-1634, case TcTT. *)
Definition entry_TcTT (distance_ angle_ : R) (c1 c2 : Circle) : Entry :=
  if TcTT_exists distance_ c1 c2 then
      match TcTT_path distance_ angle_ c1 c2 with
      | Some (l, cstart, cend, qi1, qi2, ci1) =>
          mkEntry (Some l) (Some qi1) (Some qi2) None None (Some cstart) (Some cend) (Some ci1) None
      | None => nan_entry
      end
  else no_entry.

(** src/hc_cc_state_space/hcpmpm_reeds_shepp_state_space.cpp:1636-1641, case TTcT. *)
Definition entry_TTcT (distance_ angle_ : R) (c1 c2 : Circle) : Entry :=
  if TTcT_exists distance_ c1 c2 then
      match TTcT_path distance_ angle_ c1 c2 with
      | Some (l, cstart, cend, qi1, qi2, ci1) =>
          mkEntry (Some l) (Some qi1) (Some qi2) None None (Some cstart) (Some cend) (Some ci1) None
      | None => nan_entry
      end
  else no_entry.

(** src/hc_cc_state_space/hcpmpm_reeds_shepp_state_space.cpp:1643-1648, case TST. *)
Definition entry_TST (distance_ angle_ : R) (c1 c2 : Circle) : Entry :=
  if TST_exists distance_ c1 c2 then
      match TST_path distance_ c1 c2 with
      | Some (l, cstart, cend, qi1, qi2, qi3, qi4) =>
          mkEntry (Some l) (Some qi1) (Some qi2) (Some qi3) (Some qi4) (Some cstart) (Some cend) None None
      | None => nan_entry
      end
  else no_entry.

(** src/hc_cc_state_space/hcpmpm_reeds_shepp_state_space.cpp:1650-1655, case TSTcT. *)
Definition entry_TSTcT (distance_ angle_ : R) (c1 c2 : Circle) : Entry :=
  if TSTcT_exists distance_ c1 c2 then
      match TSTcT_path distance_ angle_ c1 c2 with
      | Some (l, cstart, cend, qi1, qi2, qi3, qi4, ci1) =>
          mkEntry (Some l) (Some qi1) (Some qi2) (Some qi3) (Some qi4) (Some cstart) (Some cend) (Some ci1)
              None
      | None => nan_entry
      end
  else no_entry.

(** src/hc_cc_state_space/hcpmpm_reeds_shepp_state_space.cpp:1657-1662, case TcTST. *)
Definition entry_TcTST (distance_ angle_ : R) (c1 c2 : Circle) : Entry :=
  if TcTST_exists distance_ c1 c2 then
      match TcTST_path distance_ angle_ c1 c2 with
      | Some (l, cstart, cend, qi1, qi2, qi3, qi4, ci1) =>
          mkEntry (Some l) (Some qi1) (Some qi2) (Some qi3) (Some qi4) (Some cstart) (Some cend) (Some ci1)
              None
      | None => nan_entry
      end
  else no_entry.

(** src/hc_cc_state_space/hcpmpm_reeds_shepp_state_space.cpp:1664-1669, case TcTSTcT. *)
Definition entry_TcTSTcT (distance_ angle_ : R) (c1 c2 : Circle) : Entry :=
  if TcTSTcT_exists distance_ c1 c2 then
      match TcTSTcT_path distance_ angle_ c1 c2 with
      | Some (l, cstart, cend, qi1, qi2, qi3, qi4, ci1, ci2) =>
          mkEntry (Some l) (Some qi1) (Some qi2) (Some qi3) (Some qi4) (Some cstart) (Some cend) (Some ci1)
              (Some ci2)
      | None => nan_entry
      end
  else no_entry.

(** src/hc_cc_state_space/hcpmpm_reeds_shepp_state_space.cpp:1671-1676, case TTcTT. *)
Definition entry_TTcTT (distance_ angle_ : R) (c1 c2 : Circle) : Entry :=
  if TTcTT_exists distance_ c1 c2 then
      match TTcTT_path distance_ angle_ c1 c2 with
      | Some (l, cstart, cend, qi1, qi2, qi3, ci1, ci2) =>
          mkEntry (Some l) (Some qi1) (Some qi2) (Some qi3) None (Some cstart) (Some cend) (Some ci1) (Some
              ci2)
      | None => nan_entry
      end
  else no_entry.

(** src/hc_cc_state_space/hcpmpm_reeds_shepp_state_space.cpp:1678-1683, case TcTTcT. *)
Definition entry_TcTTcT (distance_ angle_ : R) (c1 c2 : Circle) : Entry :=
  if TcTTcT_exists distance_ c1 c2 then
      match TcTTcT_path distance_ angle_ c1 c2 with
      | Some (l, cstart, cend, qi1, qi2, ci1, ci2) =>
          mkEntry (Some l) (Some qi1) (Some qi2) None None (Some cstart) (Some cend) (Some ci1) (Some ci2)
      | None => nan_entry
      end
  else no_entry.

(** src/hc_cc_state_space/hcpmpm_reeds_shepp_state_space.cpp:1686-1691, case TTT. *)
Definition entry_TTT (distance_ angle_ : R) (c1 c2 : Circle) : Entry :=
  if TTT_exists distance_ c1 c2 then
      match TTT_path distance_ angle_ c1 c2 with
      | Some (l, cstart, cend, qi1, qi2, qi3, ci1) =>
          mkEntry (Some l) (Some qi1) (Some qi2) (Some qi3) None (Some cstart) (Some cend) (Some ci1) None
      | None => nan_entry
      end
  else no_entry.

(** src/hc_cc_state_space/hcpmpm_reeds_shepp_state_space.cpp:1693-1698, case TcST. *)
Definition entry_TcST (distance_ angle_ : R) (c1 c2 : Circle) : Entry :=
  if TcST_exists distance_ c1 c2 then
      match TcST_path distance_ angle_ c1 c2 with
      | Some (l, cstart, cend, qi1, qi2, qi3) =>
          mkEntry (Some l) (Some qi1) (Some qi2) (Some qi3) None (Some cstart) (Some cend) None None
      | None => nan_entry
      end
  else no_entry.

(** src/hc_cc_state_space/hcpmpm_reeds_shepp_state_space.cpp:1700-1705, case TScT. *)
Definition entry_TScT (distance_ angle_ : R) (c1 c2 : Circle) : Entry :=
  if TScT_exists distance_ c1 c2 then
      match TScT_path distance_ angle_ c1 c2 with
      | Some (l, cstart, cend, qi1, qi2, qi3) =>
          mkEntry (Some l) (Some qi1) (Some qi2) (Some qi3) None (Some cstart) (Some cend) None None
      | None => nan_entry
      end
  else no_entry.

(** src/hc_cc_state_space/hcpmpm_reeds_shepp_state_space.cpp:1707-1711, case TcScT. *)
Definition entry_TcScT (distance_ angle_ : R) (c1 c2 : Circle) : Entry :=
  if TcScT_exists distance_ c1 c2 then
      match TcScT_path distance_ angle_ c1 c2 with
      | Some (l, cstart, cend, qi1, qi2) =>
          mkEntry (Some l) (Some qi1) (Some qi2) None None (Some cstart) (Some cend) None None
      | None => nan_entry
      end
  else no_entry.

(** src/hc_cc_state_space/hcpmpm_reeds_shepp_state_space.cpp:1568-1736 *)
Definition circles_table (c1 c2 : Circle) : list Entry :=
  let distance_ := center_distance c1 c2 in
  let angle_ := atan2 (c_yc c2 - c_yc c1) (c_xc c2 - c_xc c1) in
  if configuration_equal (c_start c1) (c_start c2) then
    [(mkEntry (Some 0) None None None None None None None None); no_entry; no_entry; no_entry; no_entry;
        no_entry; no_entry; no_entry; no_entry; no_entry; no_entry; no_entry; no_entry; no_entry; no_entry;
            no_entry; no_entry; no_entry]
  else
  if configuration_on_hc_cc_circle c1 (c_start c2) then
    [no_entry; no_entry; (mkEntry (Some (rs_turn_length (circle (c_start c1) (c_left c1) (c_forward c1) true
        (rs_param kappa_)) (c_start c2))) None None None None (Some (circle (c_start c1) (c_left c1)
            (c_forward c1) true (rs_param kappa_))) None None None); no_entry; no_entry; no_entry; no_entry;
                no_entry; no_entry; no_entry; no_entry; no_entry; no_entry; no_entry; no_entry; no_entry;
                    no_entry; no_entry]
  else
  [no_entry; no_entry; no_entry; entry_TT distance_ angle_ c1 c2; entry_TcT distance_ angle_ c1 c2;
      entry_TcTcT distance_ angle_ c1 c2; entry_TcTT distance_ angle_ c1 c2; entry_TTcT distance_ angle_ c1
          c2; entry_TST distance_ angle_ c1 c2; entry_TSTcT distance_ angle_ c1 c2; entry_TcTST distance_
              angle_ c1 c2; entry_TcTSTcT distance_ angle_ c1 c2; entry_TTcTT distance_ angle_ c1 c2;
                  entry_TcTTcT distance_ angle_ c1 c2; entry_TTT distance_ angle_ c1 c2; entry_TcST distance_
                      angle_ c1 c2; entry_TScT distance_ angle_ c1 c2; entry_TcScT distance_ angle_ c1 c2].

(** src/hc_cc_state_space/hcpmpm_reeds_shepp_state_space.cpp:1568-1736 *)
Definition hcpmpm_circles_rs_path (c1 c2 : Circle) : option (HPath hc_cc_rs_type) :=
  select_entry hc_cc_rs_types (c_start c1) (c_start c2) (circles_table c1 c2).

(** src/hc_cc_state_space/hcpmpm_reeds_shepp_state_space.cpp:1738-1767, the array start_circle. *)
Definition start_circles (state1 : State) : list Circle :=
  [circle (configuration (st_x state1) (st_y state1) (st_theta state1) kappa_) true true true (rs_param
      kappa_);
    circle (configuration (st_x state1) (st_y state1) (st_theta state1) (- kappa_)) false true true (rs_param
        kappa_);
    circle (configuration (st_x state1) (st_y state1) (st_theta state1) kappa_) true false true (rs_param
        kappa_);
    circle (configuration (st_x state1) (st_y state1) (st_theta state1) (- kappa_)) false false true
        (rs_param kappa_)].

(** src/hc_cc_state_space/hcpmpm_reeds_shepp_state_space.cpp:1738-1767, the array end_circle. *)
Definition end_circles (state2 : State) : list Circle :=
  [circle (configuration (st_x state2) (st_y state2) (st_theta state2) kappa_) true true true (rs_param
      kappa_);
    circle (configuration (st_x state2) (st_y state2) (st_theta state2) (- kappa_)) false true true (rs_param
        kappa_);
    circle (configuration (st_x state2) (st_y state2) (st_theta state2) kappa_) true false true (rs_param
        kappa_);
    circle (configuration (st_x state2) (st_y state2) (st_theta state2) (- kappa_)) false false true
        (rs_param kappa_)].

(** src/hc_cc_state_space/hcpmpm_reeds_shepp_state_space.cpp:1768-1796, the pairs that are skipped. *)
Definition skipped (state1 state2 : State) (i j : nat) : bool :=
  ((i =? 0)%nat && Rltb (st_kappa state1) 0) || ((i =? 1)%nat && Rltb 0 (st_kappa state1)) || ((i =? 2)%nat
      && Rltb (st_kappa state1) 0) || ((i =? 3)%nat && Rltb 0 (st_kappa state1)) || ((j =? 0)%nat && Rltb
          (st_kappa state2) 0) || ((j =? 1)%nat && Rltb 0 (st_kappa state2)) || ((j =? 2)%nat && Rltb
              (st_kappa state2) 0) || ((j =? 3)%nat && Rltb 0 (st_kappa state2)).

(** src/hc_cc_state_space/hcpmpm_reeds_shepp_state_space.cpp:1768-1796, the array path:
    entry 4 i + j holds the path for the i-th start circle and the j-th end circle. *)
Definition paths (state1 state2 : State) : list (option (HPath hc_cc_rs_type)) :=
  map (fun '(i, j) =>
         if skipped state1 state2 i j then None
         else
           match nth_error (start_circles state1) i, nth_error (end_circles state2) j with
           | Some c1, Some c2 => hcpmpm_circles_rs_path c1 c2
           | _, _ => None
           end)
      (list_prod (seq 0 4) (seq 0 4)).

(** src/hc_cc_state_space/hcpmpm_reeds_shepp_state_space.cpp:1738-1829 *)
Definition hcpmpm_reeds_shepp (state1 state2 : State) : option (HPath hc_cc_rs_type) :=
  select_path (paths state1 state2).

(** src/hc_cc_state_space/hcpmpm_reeds_shepp_state_space.cpp:1831-1837 *)
Definition get_distance (state1 state2 : State) : option flt :=
  path_distance (hcpmpm_reeds_shepp state1 state2).

(** src/hc_cc_state_space/hcpmpm_reeds_shepp_state_space.cpp:1839-1938, the switch;
    [None] is the dereference of a null pointer. *)
Definition path_controls (p : HPath hc_cc_rs_type) : option (list Control) :=
  let e := h_entry p in
  match h_type p with
  | RS_E =>
      Some (empty_controls)
  | RS_T =>
      flet cstart := e_cstart e in
      Some (rs_turn_controls cstart (h_end p) true)
  | RS_TT =>
      flet cstart := e_cstart e in
      flet qi1 := e_qi1 e in
      flet cend := e_cend e in
      flet qi3 := e_qi3 e in
      Some (hc_turn_controls cstart qi1 false ++ hc_turn_controls cend qi3 true)
  | RS_TcT =>
      flet cstart := e_cstart e in
      flet qi1 := e_qi1 e in
      flet cend := e_cend e in
      Some (rs_turn_controls cstart qi1 true ++ rs_turn_controls cend qi1 false)
  | RS_TcTcT =>
      flet cstart := e_cstart e in
      flet qi1 := e_qi1 e in
      flet ci1 := e_ci1 e in
      flet qi2 := e_qi2 e in
      flet cend := e_cend e in
      Some (rs_turn_controls cstart qi1 true ++ rs_turn_controls ci1 qi2 true ++ rs_turn_controls cend qi2
          false)
  | RS_TcTT =>
      flet cstart := e_cstart e in
      flet qi1 := e_qi1 e in
      flet ci1 := e_ci1 e in
      flet cend := e_cend e in
      flet qi2 := e_qi2 e in
      Some (rs_turn_controls cstart qi1 true ++ hc_turn_controls ci1 qi1 false ++ hc_turn_controls cend qi2
          true)
  | RS_TTcT =>
      flet cstart := e_cstart e in
      flet qi1 := e_qi1 e in
      flet ci1 := e_ci1 e in
      flet qi2 := e_qi2 e in
      flet cend := e_cend e in
      Some (hc_turn_controls cstart qi1 false ++ hc_turn_controls ci1 qi2 true ++ rs_turn_controls cend qi2
          false)
  | RS_TST =>
      flet cstart := e_cstart e in
      flet qi1 := e_qi1 e in
      flet qi2 := e_qi2 e in
      flet qi3 := e_qi3 e in
      flet cend := e_cend e in
      flet qi4 := e_qi4 e in
      Some (hc_turn_controls cstart qi1 false ++ straight_controls qi2 qi3 ++ hc_turn_controls cend qi4 true)
  | RS_TSTcT =>
      flet cstart := e_cstart e in
      flet qi1 := e_qi1 e in
      flet qi2 := e_qi2 e in
      flet qi3 := e_qi3 e in
      flet ci1 := e_ci1 e in
      flet qi4 := e_qi4 e in
      flet cend := e_cend e in
      Some (hc_turn_controls cstart qi1 false ++ straight_controls qi2 qi3 ++ hc_turn_controls ci1 qi4 true
          ++ rs_turn_controls cend qi4 false)
  | RS_TcTST =>
      flet cstart := e_cstart e in
      flet qi1 := e_qi1 e in
      flet ci1 := e_ci1 e in
      flet qi2 := e_qi2 e in
      flet qi3 := e_qi3 e in
      flet cend := e_cend e in
      flet qi4 := e_qi4 e in
      Some (rs_turn_controls cstart qi1 true ++ hc_turn_controls ci1 qi1 false ++ straight_controls qi2 qi3
          ++ hc_turn_controls cend qi4 true)
  | RS_TcTSTcT =>
      flet cstart := e_cstart e in
      flet qi1 := e_qi1 e in
      flet ci1 := e_ci1 e in
      flet qi2 := e_qi2 e in
      flet qi3 := e_qi3 e in
      flet ci2 := e_ci2 e in
      flet qi4 := e_qi4 e in
      flet cend := e_cend e in
      Some (rs_turn_controls cstart qi1 true ++ hc_turn_controls ci1 qi1 false ++ straight_controls qi2 qi3
          ++ hc_turn_controls ci2 qi4 true ++ rs_turn_controls cend qi4 false)
  | RS_TTcTT =>
      flet cstart := e_cstart e in
      flet qi1 := e_qi1 e in
      flet ci1 := e_ci1 e in
      flet qi2 := e_qi2 e in
      flet ci2 := e_ci2 e in
      flet cend := e_cend e in
      flet qi3 := e_qi3 e in
      Some (hc_turn_controls cstart qi1 false ++ hc_turn_controls ci1 qi2 true ++ hc_turn_controls ci2 qi2
          false ++ hc_turn_controls cend qi3 true)
  | RS_TcTTcT =>
      flet cstart := e_cstart e in
      flet qi1 := e_qi1 e in
      flet ci1 := e_ci1 e in
      flet ci2 := e_ci2 e in
      flet qi2 := e_qi2 e in
      flet cend := e_cend e in
      Some (rs_turn_controls cstart qi1 true ++ hc_turn_controls ci1 qi1 false ++ hc_turn_controls ci2 qi2
          true ++ rs_turn_controls cend qi2 false)
  | RS_TTT =>
      flet cstart := e_cstart e in
      flet qi1 := e_qi1 e in
      flet ci1 := e_ci1 e in
      flet qi2 := e_qi2 e in
      flet cend := e_cend e in
      flet qi3 := e_qi3 e in
      Some (hc_turn_controls cstart qi1 false ++ cc_turn_controls ci1 qi2 true ++ hc_turn_controls cend qi3
          true)
  | RS_TcST =>
      flet cstart := e_cstart e in
      flet qi1 := e_qi1 e in
      flet qi2 := e_qi2 e in
      flet cend := e_cend e in
      flet qi3 := e_qi3 e in
      Some (rs_turn_controls cstart qi1 true ++ straight_controls qi1 qi2 ++ hc_turn_controls cend qi3 true)
  | RS_TScT =>
      flet cstart := e_cstart e in
      flet qi1 := e_qi1 e in
      flet qi2 := e_qi2 e in
      flet qi3 := e_qi3 e in
      flet cend := e_cend e in
      Some (hc_turn_controls cstart qi1 false ++ straight_controls qi2 qi3 ++ rs_turn_controls cend qi3 false)
  | RS_TcScT =>
      flet cstart := e_cstart e in
      flet qi1 := e_qi1 e in
      flet qi2 := e_qi2 e in
      flet cend := e_cend e in
      Some (rs_turn_controls cstart qi1 true ++ straight_controls qi1 qi2 ++ rs_turn_controls cend qi2 false)
  | _ => Some []
  end.

(** src/hc_cc_state_space/hcpmpm_reeds_shepp_state_space.cpp:1839-1938 *)
Definition get_controls (state1 state2 : State) : option (list Control) :=
  match hcpmpm_reeds_shepp state1 state2 with
  | Some p => path_controls p
  | None => None
  end.

End Planner.

(** * Model of src/hc_cc_state_space/cc0pm_dubins_state_space.cpp

    Written from the source function by function. A function filling pointers returns the values stored
    through them, after its own result if it has one. A function that takes a square root, an arc sine,
    an arc cosine or a quotient returns [None] when that is undefined. Functions on [c1.left] and
    [c1.forward] with four exclusive branches have the fourth as their last alternative. A final
    "return max" after a complete case distinction is not modelled, and [None] elsewhere. Allocation and
    [delete] are left out, as are the commented-out print statements. *)
From Coq Require Import Reals ZArith List Bool.
From Verif Require Import Base ModelUtil ModelCircle ModelPaths.
Import ListNotations.
Open Scope R_scope.

Section Planner.

(** The members kappa_ and sigma_ of src/hc_cc_state_space/hc_cc_state_space.cpp:28-31 and the
    member forwards_ of src/hc_cc_state_space/cc0pm_dubins_state_space.cpp. *)
Variables (kappa_ sigma_ : R) (forwards_ : bool).

Section Helper.

(** src/hc_cc_state_space/cc0pm_dubins_state_space.cpp:49-50, the members distance and angle. *)
Variables (distance_ angle_ : R).

(** src/hc_cc_state_space/cc0pm_dubins_state_space.cpp:53-64 *)
Definition TT_exists (c1 : Circle) (c2 : Circle) : bool :=
  if Bool.eqb (c_left c1) (c_left c2) then
    false
  else
  if Bool.eqb (c_forward c1) (c_forward c2) then
    false
  else
  Rltb (Rabs (distance_ - (2 * (c_radius c1)))) epsilon.

(** src/hc_cc_state_space/cc0pm_dubins_state_space.cpp:66-95 *)
Definition TT_tangent_circles (c1 : Circle) (c2 : Circle) : Configuration :=
  let x := ((c_xc c1) + (c_xc c2)) / 2 in
  let y := ((c_yc c1) + (c_yc c2)) / 2 in
  let angle := atan2 ((c_yc c2) - (c_yc c1)) ((c_xc c2) - (c_xc c1)) in
  let theta :=
    if c_left c1 then
      if c_forward c1 then
        (angle + HALF_PI) - (c_mu c1)
      else
        (angle + HALF_PI) + (c_mu c1)
    else
      if c_forward c1 then
        (angle - HALF_PI) + (c_mu c1)
      else
        (angle - HALF_PI) - (c_mu c1) in
  configuration x y theta 0.

(** src/hc_cc_state_space/cc0pm_dubins_state_space.cpp:97-105 *)
Definition TT_path (c1 : Circle) (c2 : Circle) : R * Circle * Circle * Configuration * Configuration :=
  let q1 := TT_tangent_circles c1 c2 in
  let cstart := circle (c_start c1) (c_left c1) (c_forward c1) true (hc_cc_param kappa_ sigma_) in
  let cend := circle q1 (c_left c2) (negb (c_forward c2)) true (hc_cc_param kappa_ sigma_) in
  let q2 := configuration (q_x (c_start c2)) (q_y (c_start c2)) (q_theta (c_start c2)) (c_kappa c2) in
  ((cc_turn_length cstart q1) + (hc_turn_length cend q2), cstart, cend, q1, q2).

(** src/hc_cc_state_space/cc0pm_dubins_state_space.cpp:110-121 *)
Definition TiST_exists (c1 : Circle) (c2 : Circle) : bool :=
  if Bool.eqb (c_left c1) (c_left c2) then
    false
  else
  if Bool.eqb (c_forward c1) (c_forward c2) then
    false
  else
  Rleb (2 * (c_radius c1)) distance_.

(** src/hc_cc_state_space/cc0pm_dubins_state_space.cpp:123-134 *)
Definition TeST_exists (c1 : Circle) (c2 : Circle) : bool :=
  if negb (Bool.eqb (c_left c1) (c_left c2)) then
    false
  else
  if Bool.eqb (c_forward c1) (c_forward c2) then
    false
  else
  Rleb ((2 * (c_radius c1)) * (c_sin_mu c1)) distance_.

(** src/hc_cc_state_space/cc0pm_dubins_state_space.cpp:136-139 *)
Definition TST_exists (c1 : Circle) (c2 : Circle) : bool :=
  (TiST_exists c1 c2) || (TeST_exists c1 c2).

(** src/hc_cc_state_space/cc0pm_dubins_state_space.cpp:141-182 *)
Definition TiST_tangent_circles (c1 : Circle) (c2 : Circle) : option (Configuration * Configuration) :=
  let distance := center_distance c1 c2 in
  let angle := atan2 ((c_yc c2) - (c_yc c1)) ((c_xc c2) - (c_xc c1)) in
  flet t1 := fdiv ((2 * (c_radius c1)) * (c_cos_mu c1)) distance in
  flet alpha := fasin t1 in
  let delta_x := (c_radius c1) * (c_sin_mu c1) in
  let delta_y := (c_radius c1) * (c_cos_mu c1) in
  let '(q1, q2) :=
    if (c_left c1) && (c_forward c1) then
      let theta := angle + alpha in
      let '(x, y) := global_frame_change (c_xc c1) (c_yc c1) theta delta_x (- delta_y) in
      let q1 := configuration x y theta 0 in
      let '(x, y) := global_frame_change (c_xc c2) (c_yc c2) theta (- delta_x) delta_y in
      let q2 := configuration x y theta 0 in
      (q1, q2)
    else
    if (c_left c1) && (negb (c_forward c1)) then
      let theta := angle - alpha in
      let '(x, y) := global_frame_change (c_xc c1) (c_yc c1) theta delta_x delta_y in
      let q1 := configuration x y (theta + PI) 0 in
      let '(x, y) := global_frame_change (c_xc c2) (c_yc c2) theta (- delta_x) (- delta_y) in
      let q2 := configuration x y (theta + PI) 0 in
      (q1, q2)
    else
    if (negb (c_left c1)) && (c_forward c1) then
      let theta := angle - alpha in
      let '(x, y) := global_frame_change (c_xc c1) (c_yc c1) theta delta_x delta_y in
      let q1 := configuration x y theta 0 in
      let '(x, y) := global_frame_change (c_xc c2) (c_yc c2) theta (- delta_x) (- delta_y) in
      let q2 := configuration x y theta 0 in
      (q1, q2)
    else
      let theta := angle + alpha in
      let '(x, y) := global_frame_change (c_xc c1) (c_yc c1) theta delta_x (- delta_y) in
      let q1 := configuration x y (theta + PI) 0 in
      let '(x, y) := global_frame_change (c_xc c2) (c_yc c2) theta (- delta_x) delta_y in
      let q2 := configuration x y (theta + PI) 0 in
      (q1, q2) in
  Some (q1, q2).

(** src/hc_cc_state_space/cc0pm_dubins_state_space.cpp:184-219 *)
Definition TeST_tangent_circles (c1 : Circle) (c2 : Circle) : Configuration * Configuration :=
  let delta_x := (c_radius c1) * (c_sin_mu c1) in
  let delta_y := (c_radius c1) * (c_cos_mu c1) in
  let theta := atan2 ((c_yc c2) - (c_yc c1)) ((c_xc c2) - (c_xc c1)) in
  let '(q1, q2) :=
    if (c_left c1) && (c_forward c1) then
      let '(x, y) := global_frame_change (c_xc c1) (c_yc c1) theta delta_x (- delta_y) in
      let q1 := configuration x y theta 0 in
      let '(x, y) := global_frame_change (c_xc c2) (c_yc c2) theta (- delta_x) (- delta_y) in
      let q2 := configuration x y theta 0 in
      (q1, q2)
    else
    if (c_left c1) && (negb (c_forward c1)) then
      let '(x, y) := global_frame_change (c_xc c1) (c_yc c1) theta delta_x delta_y in
      let q1 := configuration x y (theta + PI) 0 in
      let '(x, y) := global_frame_change (c_xc c2) (c_yc c2) theta (- delta_x) delta_y in
      let q2 := configuration x y (theta + PI) 0 in
      (q1, q2)
    else
    if (negb (c_left c1)) && (c_forward c1) then
      let '(x, y) := global_frame_change (c_xc c1) (c_yc c1) theta delta_x delta_y in
      let q1 := configuration x y theta 0 in
      let '(x, y) := global_frame_change (c_xc c2) (c_yc c2) theta (- delta_x) delta_y in
      let q2 := configuration x y theta 0 in
      (q1, q2)
    else
      let '(x, y) := global_frame_change (c_xc c1) (c_yc c1) theta delta_x (- delta_y) in
      let q1 := configuration x y (theta + PI) 0 in
      let '(x, y) := global_frame_change (c_xc c2) (c_yc c2) theta (- delta_x) (- delta_y) in
      let q2 := configuration x y (theta + PI) 0 in
      (q1, q2) in
  (q1, q2).

(** src/hc_cc_state_space/cc0pm_dubins_state_space.cpp:221-229 *)
Definition TiST_path (c1 : Circle) (c2 : Circle) : option (R * Circle * Circle * Configuration *
    Configuration * Configuration) :=
  flet (q1, q2) := TiST_tangent_circles c1 c2 in
  let cstart := circle (c_start c1) (c_left c1) (c_forward c1) true (hc_cc_param kappa_ sigma_) in
  let cend := circle q2 (c_left c2) (negb (c_forward c2)) true (hc_cc_param kappa_ sigma_) in
  let q3 := configuration (q_x (c_start c2)) (q_y (c_start c2)) (q_theta (c_start c2)) (c_kappa c2) in
  Some (((cc_turn_length cstart q1) + (configuration_distance q1 q2)) + (hc_turn_length cend q3), cstart,
      cend, q1, q2, q3).

(** src/hc_cc_state_space/cc0pm_dubins_state_space.cpp:231-239 *)
Definition TeST_path (c1 : Circle) (c2 : Circle) : R * Circle * Circle * Configuration * Configuration *
    Configuration :=
  let '(q1, q2) := TeST_tangent_circles c1 c2 in
  let cstart := circle (c_start c1) (c_left c1) (c_forward c1) true (hc_cc_param kappa_ sigma_) in
  let cend := circle q2 (c_left c2) (negb (c_forward c2)) true (hc_cc_param kappa_ sigma_) in
  let q3 := configuration (q_x (c_start c2)) (q_y (c_start c2)) (q_theta (c_start c2)) (c_kappa c2) in
  (((cc_turn_length cstart q1) + (configuration_distance q1 q2)) + (hc_turn_length cend q3), cstart, cend,
      q1, q2, q3).

(** src/hc_cc_state_space/cc0pm_dubins_state_space.cpp:241-253 *)
Definition TST_path (c1 : Circle) (c2 : Circle) : option (R * Circle * Circle * Configuration * Configuration
    * Configuration) :=
  if TiST_exists c1 c2 then
    TiST_path c1 c2
  else
  if TeST_exists c1 c2 then
    Some (TeST_path c1 c2)
  else
  None.

(** src/hc_cc_state_space/cc0pm_dubins_state_space.cpp:256-267 *)
Definition TTT_exists (c1 : Circle) (c2 : Circle) : bool :=
  if negb (Bool.eqb (c_left c1) (c_left c2)) then
    false
  else
  if Bool.eqb (c_forward c1) (c_forward c2) then
    false
  else
  Rleb distance_ (4 * (c_radius c1)).

(** src/hc_cc_state_space/cc0pm_dubins_state_space.cpp:269-287 *)
Definition TTT_tangent_circles (c1 : Circle) (c2 : Circle) : option (Configuration * Configuration *
    Configuration * Configuration) :=
  let theta := angle_ in
  let r := 2 * (c_radius c1) in
  let delta_x := (5 / 10) * distance_ in
  flet delta_y := fsqrt ((r ^ 2) - (delta_x ^ 2)) in
  let '(x, y) := global_frame_change (c_xc c1) (c_yc c1) theta delta_x delta_y in
  let tgt1 := circle_at x y (negb (c_left c1)) (c_forward c1) (c_regular c1) (hc_cc_param kappa_ sigma_) in
  let '(x, y) := global_frame_change (c_xc c1) (c_yc c1) theta delta_x (- delta_y) in
  let tgt2 := circle_at x y (negb (c_left c1)) (c_forward c1) (c_regular c1) (hc_cc_param kappa_ sigma_) in
  let q1 := TT_tangent_circles c1 tgt1 in
  let q2 := TT_tangent_circles tgt1 c2 in
  let q3 := TT_tangent_circles c1 tgt2 in
  let q4 := TT_tangent_circles tgt2 c2 in
  Some (q1, q2, q3, q4).

(** src/hc_cc_state_space/cc0pm_dubins_state_space.cpp:289-331 *)
Definition TTT_path (c1 : Circle) (c2 : Circle) : option (R * Circle * Circle * Configuration * Configuration
    * Configuration * Circle) :=
  flet (qa, qb, qc, qd) := TTT_tangent_circles c1 c2 in
  let middle1 := circle qa (negb (c_left c1)) (c_forward c1) true (hc_cc_param kappa_ sigma_) in
  let end1 := circle qb (c_left c2) (negb (c_forward c2)) true (hc_cc_param kappa_ sigma_) in
  let middle2 := circle qc (negb (c_left c1)) (c_forward c1) true (hc_cc_param kappa_ sigma_) in
  let end2 := circle qd (c_left c2) (negb (c_forward c2)) true (hc_cc_param kappa_ sigma_) in
  let cstart := circle (c_start c1) (c_left c1) (c_forward c1) true (hc_cc_param kappa_ sigma_) in
  let q3 := configuration (q_x (c_start c2)) (q_y (c_start c2)) (q_theta (c_start c2)) (c_kappa c2) in
  let length1 := ((cc_turn_length cstart qa) + (cc_turn_length middle1 qb)) + (hc_turn_length end1 q3) in
  let length2 := ((cc_turn_length cstart qc) + (cc_turn_length middle2 qd)) + (hc_turn_length end2 q3) in
  if Rltb length1 length2 then
    let cend := end1 in
    let q1 := qa in
    let q2 := qb in
    let ci := middle1 in
    Some (length1, cstart, cend, q1, q2, q3, ci)
  else
    let cend := end2 in
    let q1 := qc in
    let q2 := qd in
    let ci := middle2 in
    Some (length2, cstart, cend, q1, q2, q3, ci).

End Helper.

(** src/hc_cc_state_space/cc0pm_dubins_state_space.cpp:385-389, case TT. *)
Definition entry_TT (distance_ angle_ : R) (c1 c2 : Circle) : Entry :=
  if TT_exists distance_ c1 c2 then
      let '(l, cstart, cend, qi1, qi2) := TT_path c1 c2 in
      mkEntry (Some l) (Some qi1) (Some qi2) None None (Some cstart) (Some cend) None None
  else no_entry.

(** src/hc_cc_state_space/cc0pm_dubins_state_space.cpp:392-396, case TST. *)
Definition entry_TST (distance_ angle_ : R) (c1 c2 : Circle) : Entry :=
  if TST_exists distance_ c1 c2 then
      match TST_path distance_ c1 c2 with
      | Some (l, cstart, cend, qi1, qi2, qi3) =>
          mkEntry (Some l) (Some qi1) (Some qi2) (Some qi3) None (Some cstart) (Some cend) None None
      | None => nan_entry
      end
  else no_entry.

(** src/hc_cc_state_space/cc0pm_dubins_state_space.cpp:398-403, case TTT. *)
Definition entry_TTT (distance_ angle_ : R) (c1 c2 : Circle) : Entry :=
  if TTT_exists distance_ c1 c2 then
      match TTT_path distance_ angle_ c1 c2 with
      | Some (l, cstart, cend, qi1, qi2, qi3, ci1) =>
          mkEntry (Some l) (Some qi1) (Some qi2) (Some qi3) None (Some cstart) (Some cend) (Some ci1) None
      | None => nan_entry
      end
  else no_entry.

(** src/hc_cc_state_space/cc0pm_dubins_state_space.cpp:348-426 *)
Definition circles_table (c1 c2 : Circle) : list Entry :=
  let distance_ := center_distance c1 c2 in
  let angle_ := atan2 (c_yc c2 - c_yc c1) (c_xc c2 - c_xc c1) in
  if configuration_equal (c_start c1) (c_start c2) then
    [(mkEntry (Some 0) None None None None None None None None); no_entry; no_entry; no_entry; no_entry;
        no_entry; no_entry]
  else
  if Rltb distance_ epsilon then
    [no_entry; no_entry; (mkEntry (Some (hc_turn_length (circle (c_start c1) (c_left c1) (c_forward c1) true
        (hc_cc_param kappa_ sigma_)) (c_start c2))) None None None None (Some (circle (c_start c1) (c_left
            c1) (c_forward c1) true (hc_cc_param kappa_ sigma_))) None None None); no_entry; no_entry;
                no_entry; no_entry]
  else
  [no_entry; no_entry; no_entry; entry_TT distance_ angle_ c1 c2; entry_TST distance_ angle_ c1 c2; entry_TTT
      distance_ angle_ c1 c2; no_entry].

(** src/hc_cc_state_space/cc0pm_dubins_state_space.cpp:348-426 *)
Definition cc0pm_circles_dubins_path (c1 c2 : Circle) : option (HPath cc_dubins_type) :=
  select_entry cc_dubins_types (c_start c1) (c_start c2) (circles_table c1 c2).

(** src/hc_cc_state_space/cc0pm_dubins_state_space.cpp:428-457, the array start_circle. *)
Definition start_circles (state1 : State) : list Circle :=
  if forwards_ then
    [circle (configuration (st_x state1) (st_y state1) (st_theta state1) 0) true true true (hc_cc_param
        kappa_ sigma_);
    circle (configuration (st_x state1) (st_y state1) (st_theta state1) 0) false true true (hc_cc_param
        kappa_ sigma_)]
  else
    [circle (configuration (st_x state1) (st_y state1) (st_theta state1) 0) true false true (hc_cc_param
        kappa_ sigma_);
    circle (configuration (st_x state1) (st_y state1) (st_theta state1) 0) false false true (hc_cc_param
        kappa_ sigma_)].

(** src/hc_cc_state_space/cc0pm_dubins_state_space.cpp:428-457, the array end_circle. *)
Definition end_circles (state2 : State) : list Circle :=
  if forwards_ then
    [circle (configuration (st_x state2) (st_y state2) (st_theta state2) kappa_) true false true (rs_param
        kappa_);
    circle (configuration (st_x state2) (st_y state2) (st_theta state2) (- kappa_)) false false true
        (rs_param kappa_)]
  else
    [circle (configuration (st_x state2) (st_y state2) (st_theta state2) kappa_) true true true (rs_param
        kappa_);
    circle (configuration (st_x state2) (st_y state2) (st_theta state2) (- kappa_)) false true true (rs_param
        kappa_)].

(** src/hc_cc_state_space/cc0pm_dubins_state_space.cpp:458-473, the pairs that are skipped. *)
Definition skipped (state1 state2 : State) (i j : nat) : bool :=
  ((j =? 0)%nat && Rltb (st_kappa state2) 0) || ((j =? 1)%nat && Rltb 0 (st_kappa state2)).

(** src/hc_cc_state_space/cc0pm_dubins_state_space.cpp:458-473, the array path:
    entry 2 i + j holds the path for the i-th start circle and the j-th end circle. *)
Definition paths (state1 state2 : State) : list (option (HPath cc_dubins_type)) :=
  map (fun '(i, j) =>
         if skipped state1 state2 i j then None
         else
           match nth_error (start_circles state1) i, nth_error (end_circles state2) j with
           | Some c1, Some c2 => cc0pm_circles_dubins_path c1 c2
           | _, _ => None
           end)
      (list_prod (seq 0 2) (seq 0 2)).

(** src/hc_cc_state_space/cc0pm_dubins_state_space.cpp:428-506 *)
Definition cc0pm_dubins (state1 state2 : State) : option (HPath cc_dubins_type) :=
  select_path (paths state1 state2).

(** src/hc_cc_state_space/cc0pm_dubins_state_space.cpp:508-514 *)
Definition get_distance (state1 state2 : State) : option flt :=
  path_distance (cc0pm_dubins state1 state2).

(** src/hc_cc_state_space/cc0pm_dubins_state_space.cpp:516-549, the switch;
    [None] is the dereference of a null pointer. *)
Definition path_controls (p : HPath cc_dubins_type) : option (list Control) :=
  let e := h_entry p in
  match h_type p with
  | D_E =>
      Some (empty_controls)
  | D_T =>
      flet cstart := e_cstart e in
      Some (hc_turn_controls cstart (h_end p) true)
  | D_TT =>
      flet cstart := e_cstart e in
      flet qi1 := e_qi1 e in
      flet cend := e_cend e in
      flet qi2 := e_qi2 e in
      Some (cc_turn_controls cstart qi1 true ++ hc_turn_controls cend qi2 true)
  | D_TST =>
      flet cstart := e_cstart e in
      flet qi1 := e_qi1 e in
      flet qi2 := e_qi2 e in
      flet cend := e_cend e in
      flet qi3 := e_qi3 e in
      Some (cc_turn_controls cstart qi1 true ++ straight_controls qi1 qi2 ++ hc_turn_controls cend qi3 true)
  | D_TTT =>
      flet cstart := e_cstart e in
      flet qi1 := e_qi1 e in
      flet ci1 := e_ci1 e in
      flet qi2 := e_qi2 e in
      flet cend := e_cend e in
      flet qi3 := e_qi3 e in
      Some (cc_turn_controls cstart qi1 true ++ cc_turn_controls ci1 qi2 true ++ hc_turn_controls cend qi3
          true)
  | _ => Some []
  end.

(** src/hc_cc_state_space/cc0pm_dubins_state_space.cpp:516-549 *)
Definition get_controls (state1 state2 : State) : option (list Control) :=
  match cc0pm_dubins state1 state2 with
  | Some p => path_controls p
  | None => None
  end.

End Planner.

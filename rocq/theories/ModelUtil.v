(** * Model of src/utilities/utilities.cpp (everything except the Fresnel integrals) *)
From Coq Require Import Reals ZArith List Bool.
From Verif Require Import Base.
Import ListNotations.
Open Scope R_scope.

(** include/steering_functions/utilities/utilities.hpp:31-33 (PI, HALF_PI, TWO_PI).
    Simplification: the macros are the real numbers they approximate. *)
Definition HALF_PI : R := PI / 2.
Definition TWO_PI : R := 2 * PI.

(** include/steering_functions/utilities/utilities.hpp:34-36. Simplified as above. *)
Definition SQRT_PI : R := sqrt PI.
Definition SQRT_PI_INV : R := / sqrt PI.
Definition SQRT_TWO_PI_INV : R := / sqrt (2 * PI).

(** include/steering_functions/utilities/utilities.hpp:41, src/utilities/utilities.cpp:34-37
    (get_epsilon). *)
Definition epsilon : R := 1 / 10000.

(** src/utilities/utilities.cpp:39-42 *)
Definition sgn (x : R) : R := if Rlt_dec x 0 then -1 else 1.

(** src/utilities/utilities.cpp:44-47 *)
Definition point_distance (x1 y1 x2 y2 : R) : R := sqrt ((x2 - x1) ^ 2 + (y2 - y1) ^ 2).

(** src/utilities/utilities.cpp:49-53; returns (r, theta). *)
Definition polar (x y : R) : R * R := (sqrt (x * x + y * y), atan2 y x).

(** src/utilities/utilities.cpp:55-58 *)
Definition twopify (alpha : R) : R := alpha - TWO_PI * IZR (floorZ (alpha / TWO_PI)).

(** src/utilities/utilities.cpp:60-68 *)
Definition pify (alpha : R) : R :=
  let v := fmod alpha TWO_PI in
  if Rlt_dec v (- PI) then v + TWO_PI
  else if Rlt_dec PI v then v - TWO_PI
  else v.

(** src/utilities/utilities.cpp:185-191; returns (x_f, y_f, theta_f). *)
Definition end_of_circular_arc (x_i y_i theta_i kappa direction length : R) : R * R * R :=
  (x_i + (1 / kappa) * (- sin theta_i + sin (theta_i + direction * length * kappa)),
   y_i + (1 / kappa) * (cos theta_i - cos (theta_i + direction * length * kappa)),
   pify (theta_i + kappa * direction * length)).

(** src/utilities/utilities.cpp:193-198; returns (x_f, y_f). *)
Definition end_of_straight_line (x_i y_i theta direction length : R) : R * R :=
  (x_i + direction * length * cos theta, y_i + direction * length * sin theta).

(** src/utilities/utilities.cpp:200-207; returns (global_x, global_y). *)
Definition global_frame_change (x y theta local_x local_y : R) : R * R :=
  let sin_th := sin theta in
  let cos_th := cos theta in
  (local_x * cos_th - local_y * sin_th + x, local_x * sin_th + local_y * cos_th + y).

(** src/utilities/utilities.cpp:209-216; returns (local_x, local_y). *)
Definition local_frame_change (x y theta global_x global_y : R) : R * R :=
  let sin_th := sin theta in
  let cos_th := cos theta in
  ((global_x - x) * cos_th + (global_y - y) * sin_th,
   - (global_x - x) * sin_th + (global_y - y) * cos_th).

(** src/utilities/utilities.cpp:222-229, the loop of array_index_min: [i] is the index of the
    head of [l], [index_min] and [min] the loop state. Entries may be NaN ([None]). *)
Fixpoint array_index_min_loop (l : list flt) (i index_min : nat) (min : flt) : nat :=
  match l with
  | [] => index_min
  | a :: l' =>
      if fltb a min then array_index_min_loop l' (S i) i a
      else array_index_min_loop l' (S i) index_min min
  end.

(** src/utilities/utilities.cpp:218-231. [None] models the out of bounds read [array[0]] of an
    empty array. *)
Definition array_index_min (l : list flt) : option nat :=
  match l with
  | [] => None
  | a :: l' => Some (array_index_min_loop l' 1 0 a)
  end.

(** src/utilities/utilities.cpp:233-239 *)
Definition double_array_init (size : nat) (value : R) : list flt := repeat (Some value) size.

(** include/steering_functions/steering_functions.hpp:27-43. The member [d] is the driving
    direction. *)
Record State := mkState { st_x : R; st_y : R; st_theta : R; st_kappa : R; st_d : R }.

(** include/steering_functions/steering_functions.hpp:65-75 *)
Record Control := mkControl { ct_delta_s : R; ct_kappa : R; ct_sigma : R }.

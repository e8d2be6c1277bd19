(** * Model of src/dubins_state_space/dubins_state_space.cpp (planning part) *)
From Coq Require Import Reals ZArith List Bool.
From Verif Require Import Base ModelUtil ModelFresnel ModelIntegrate.
Import ListNotations.
Open Scope R_scope.

(** include/steering_functions/dubins_state_space/dubins_state_space.hpp:90-95 *)
Inductive DSeg := DUBINS_LEFT | DUBINS_STRAIGHT | DUBINS_RIGHT.

(** include/steering_functions/dubins_state_space/dubins_state_space.hpp:101-130: the members
    type_ and length_. *)
Record DPath := mkDPath { dp_type : list DSeg; dp_t : R; dp_p : R; dp_q : R }.

(** src/dubins_state_space/dubins_state_space.cpp:222-226 *)
Definition dubins_path_type (i : nat) : list DSeg :=
  match i with
  | 0 => [DUBINS_LEFT; DUBINS_STRAIGHT; DUBINS_LEFT]
  | 1 => [DUBINS_RIGHT; DUBINS_STRAIGHT; DUBINS_RIGHT]
  | 2 => [DUBINS_RIGHT; DUBINS_STRAIGHT; DUBINS_LEFT]
  | 3 => [DUBINS_LEFT; DUBINS_STRAIGHT; DUBINS_RIGHT]
  | 4 => [DUBINS_RIGHT; DUBINS_LEFT; DUBINS_RIGHT]
  | 5 => [DUBINS_LEFT; DUBINS_RIGHT; DUBINS_LEFT]
  | _ => []
  end%nat.

(** dubins_state_space.hpp:105-110: the default argument of the constructor ("no path"). *)
Definition dp_none : DPath := mkDPath (dubins_path_type 0) 0 DBL_MAX 0.

(** dubins_state_space.hpp:112-114: assertions of the constructor. *)
Definition dp_asserts (P : DPath) : Prop := dp_t P >= 0 /\ dp_p P >= 0 /\ dp_q P >= 0.

(** dubins_state_space.hpp:117-120 *)
Definition dp_length (P : DPath) : R := dp_t P + dp_p P + dp_q P.

(** src/dubins_state_space/dubins_state_space.cpp:73-74 *)
Definition DUBINS_EPS : R := 1 / 1000000.
Definition DUBINS_ZERO : R := - (1 / 1000000000).

(** The value [tmp] of each word: src/dubins_state_space/dubins_state_space.cpp:79, 97, 115, 133,
    151, 169. *)
Definition tmpLSL (d alpha beta : R) : R :=
  let ca := cos alpha in let sa := sin alpha in let cb := cos beta in let sb := sin beta in
  2 + d * d - 2 * (ca * cb + sa * sb - d * (sa - sb)).
Definition tmpRSR (d alpha beta : R) : R :=
  let ca := cos alpha in let sa := sin alpha in let cb := cos beta in let sb := sin beta in
  2 + d * d - 2 * (ca * cb + sa * sb - d * (sb - sa)).
Definition tmpRSL (d alpha beta : R) : R :=
  let ca := cos alpha in let sa := sin alpha in let cb := cos beta in let sb := sin beta in
  d * d - 2 + 2 * (ca * cb + sa * sb - d * (sa + sb)).
Definition tmpLSR (d alpha beta : R) : R :=
  let ca := cos alpha in let sa := sin alpha in let cb := cos beta in let sb := sin beta in
  -2 + d * d + 2 * (ca * cb + sa * sb + d * (sa + sb)).
Definition tmpRLR (d alpha beta : R) : R :=
  let ca := cos alpha in let sa := sin alpha in let cb := cos beta in let sb := sin beta in
  (125 / 1000) * (6 - d * d + 2 * (ca * cb + sa * sb + d * (sa - sb))).
Definition tmpLRL (d alpha beta : R) : R :=
  let ca := cos alpha in let sa := sin alpha in let cb := cos beta in let sb := sin beta in
  (125 / 1000) * (6 - d * d + 2 * (ca * cb + sa * sb - d * (sa - sb))).

(** src/dubins_state_space/dubins_state_space.cpp:82-85, 89 *)
Definition solveLSL (d alpha beta : R) : DPath :=
  let ca := cos alpha in let sa := sin alpha in let cb := cos beta in let sb := sin beta in
  let theta := atan2 (cb - ca) (d + sa - sb) in
  let t := twopify (- alpha + theta) in
  let p := sqrt (Rmax (tmpLSL d alpha beta) 0) in
  let q := twopify (beta - theta) in
  mkDPath (dubins_path_type 0) t p q.

(** src/dubins_state_space/dubins_state_space.cpp:76-92 *)
Definition dubinsLSL (d alpha beta : R) : DPath :=
  if Rle_dec DUBINS_ZERO (tmpLSL d alpha beta) then solveLSL d alpha beta else dp_none.

(** src/dubins_state_space/dubins_state_space.cpp:100-103, 107 *)
Definition solveRSR (d alpha beta : R) : DPath :=
  let ca := cos alpha in let sa := sin alpha in let cb := cos beta in let sb := sin beta in
  let theta := atan2 (ca - cb) (d - sa + sb) in
  let t := twopify (alpha - theta) in
  let p := sqrt (Rmax (tmpRSR d alpha beta) 0) in
  let q := twopify (- beta + theta) in
  mkDPath (dubins_path_type 1) t p q.

(** src/dubins_state_space/dubins_state_space.cpp:94-110 *)
Definition dubinsRSR (d alpha beta : R) : DPath :=
  if Rle_dec DUBINS_ZERO (tmpRSR d alpha beta) then solveRSR d alpha beta else dp_none.

(** src/dubins_state_space/dubins_state_space.cpp:118-121, 125 *)
Definition solveRSL (d alpha beta : R) : DPath :=
  let ca := cos alpha in let sa := sin alpha in let cb := cos beta in let sb := sin beta in
  let p := sqrt (Rmax (tmpRSL d alpha beta) 0) in
  let theta := atan2 (ca + cb) (d - sa - sb) - atan2 2 p in
  let t := twopify (alpha - theta) in
  let q := twopify (beta - theta) in
  mkDPath (dubins_path_type 2) t p q.

(** src/dubins_state_space/dubins_state_space.cpp:112-128 *)
Definition dubinsRSL (d alpha beta : R) : DPath :=
  if Rle_dec DUBINS_ZERO (tmpRSL d alpha beta) then solveRSL d alpha beta else dp_none.

(** src/dubins_state_space/dubins_state_space.cpp:136-139, 143 *)
Definition solveLSR (d alpha beta : R) : DPath :=
  let ca := cos alpha in let sa := sin alpha in let cb := cos beta in let sb := sin beta in
  let p := sqrt (Rmax (tmpLSR d alpha beta) 0) in
  let theta := atan2 (- ca - cb) (d + sa + sb) - atan2 (-2) p in
  let t := twopify (- alpha + theta) in
  let q := twopify (- beta + theta) in
  mkDPath (dubins_path_type 3) t p q.

(** src/dubins_state_space/dubins_state_space.cpp:130-146 *)
Definition dubinsLSR (d alpha beta : R) : DPath :=
  if Rle_dec DUBINS_ZERO (tmpLSR d alpha beta) then solveLSR d alpha beta else dp_none.

(** src/dubins_state_space/dubins_state_space.cpp:154-157, 161 *)
Definition solveRLR (d alpha beta : R) : DPath :=
  let ca := cos alpha in let sa := sin alpha in let cb := cos beta in let sb := sin beta in
  let p := TWO_PI - acos (tmpRLR d alpha beta) in
  let theta := atan2 (ca - cb) (d - sa + sb) in
  let t := twopify (alpha - theta + (1 / 2) * p) in
  let q := twopify (alpha - beta - t + p) in
  mkDPath (dubins_path_type 4) t p q.

(** src/dubins_state_space/dubins_state_space.cpp:148-164; the guard |tmp| < 1 is the domain of
    acos. *)
Definition dubinsRLR (d alpha beta : R) : DPath :=
  if Rlt_dec (Rabs (tmpRLR d alpha beta)) 1 then solveRLR d alpha beta else dp_none.

(** src/dubins_state_space/dubins_state_space.cpp:172-175, 179 *)
Definition solveLRL (d alpha beta : R) : DPath :=
  let ca := cos alpha in let sa := sin alpha in let cb := cos beta in let sb := sin beta in
  let p := TWO_PI - acos (tmpLRL d alpha beta) in
  let theta := atan2 (- ca + cb) (d + sa - sb) in
  let t := twopify (- alpha + theta + (1 / 2) * p) in
  let q := twopify (beta - alpha - t + p) in
  mkDPath (dubins_path_type 5) t p q.

(** src/dubins_state_space/dubins_state_space.cpp:166-182 *)
Definition dubinsLRL (d alpha beta : R) : DPath :=
  if Rlt_dec (Rabs (tmpLRL d alpha beta)) 1 then solveLRL d alpha beta else dp_none.

(** Assertions src/dubins_state_space/dubins_state_space.cpp:86-88 *)
Definition assertsLSL (d alpha beta : R) : Prop :=
  DUBINS_ZERO <= tmpLSL d alpha beta ->
  let '(mkDPath _ t p q) := solveLSL d alpha beta in
  Rabs (p * cos (alpha + t) - sin alpha + sin beta - d) < DUBINS_EPS /\
  Rabs (p * sin (alpha + t) + cos alpha - cos beta) < DUBINS_EPS /\
  twopify (alpha + t + q - beta + (1 / 2) * DUBINS_EPS) < DUBINS_EPS.

(** Assertions src/dubins_state_space/dubins_state_space.cpp:104-106 *)
Definition assertsRSR (d alpha beta : R) : Prop :=
  DUBINS_ZERO <= tmpRSR d alpha beta ->
  let '(mkDPath _ t p q) := solveRSR d alpha beta in
  Rabs (p * cos (alpha - t) + sin alpha - sin beta - d) < DUBINS_EPS /\
  Rabs (p * sin (alpha - t) - cos alpha + cos beta) < DUBINS_EPS /\
  twopify (alpha - t - q - beta + (1 / 2) * DUBINS_EPS) < DUBINS_EPS.

(** Assertions src/dubins_state_space/dubins_state_space.cpp:122-124 *)
Definition assertsRSL (d alpha beta : R) : Prop :=
  DUBINS_ZERO <= tmpRSL d alpha beta ->
  let '(mkDPath _ t p q) := solveRSL d alpha beta in
  Rabs (p * cos (alpha - t) - 2 * sin (alpha - t) + sin alpha + sin beta - d) < DUBINS_EPS /\
  Rabs (p * sin (alpha - t) + 2 * cos (alpha - t) - cos alpha - cos beta) < DUBINS_EPS /\
  twopify (alpha - t + q - beta + (1 / 2) * DUBINS_EPS) < DUBINS_EPS.

(** Assertions src/dubins_state_space/dubins_state_space.cpp:140-142 *)
Definition assertsLSR (d alpha beta : R) : Prop :=
  DUBINS_ZERO <= tmpLSR d alpha beta ->
  let '(mkDPath _ t p q) := solveLSR d alpha beta in
  Rabs (p * cos (alpha + t) + 2 * sin (alpha + t) - sin alpha - sin beta - d) < DUBINS_EPS /\
  Rabs (p * sin (alpha + t) - 2 * cos (alpha + t) + cos alpha + cos beta) < DUBINS_EPS /\
  twopify (alpha + t - q - beta + (1 / 2) * DUBINS_EPS) < DUBINS_EPS.

(** Assertions src/dubins_state_space/dubins_state_space.cpp:158-160 *)
Definition assertsRLR (d alpha beta : R) : Prop :=
  Rabs (tmpRLR d alpha beta) < 1 ->
  let '(mkDPath _ t p q) := solveRLR d alpha beta in
  Rabs (2 * sin (alpha - t + p) - 2 * sin (alpha - t) - d + sin alpha - sin beta) < DUBINS_EPS /\
  Rabs (-2 * cos (alpha - t + p) + 2 * cos (alpha - t) - cos alpha + cos beta) < DUBINS_EPS /\
  twopify (alpha - t + p - q - beta + (1 / 2) * DUBINS_EPS) < DUBINS_EPS.

(** Assertions src/dubins_state_space/dubins_state_space.cpp:176-178 *)
Definition assertsLRL (d alpha beta : R) : Prop :=
  Rabs (tmpLRL d alpha beta) < 1 ->
  let '(mkDPath _ t p q) := solveLRL d alpha beta in
  Rabs (-2 * sin (alpha + t - p) + 2 * sin (alpha + t) - d - sin alpha + sin beta) < DUBINS_EPS /\
  Rabs (2 * cos (alpha + t - p) - 2 * cos (alpha + t) + cos alpha - cos beta) < DUBINS_EPS /\
  twopify (alpha + t - p + q - beta + (1 / 2) * DUBINS_EPS) < DUBINS_EPS.

(** One comparison of src/dubins_state_space/dubins_state_space.cpp:192-217: replace the path by
    the candidate if that is strictly shorter. *)
Definition dp_better (path cand : DPath) : DPath :=
  if Rlt_dec (dp_length cand) (dp_length path) then cand else path.

(** src/dubins_state_space/dubins_state_space.cpp:184-219 (helper function) *)
Definition dubins (d alpha beta : R) : DPath :=
  if Rlt_dec d DUBINS_EPS then
    if Rlt_dec (Rabs (alpha - beta)) DUBINS_EPS then mkDPath (dubins_path_type 0) 0 d 0
    else
      fold_left dp_better
        [dubinsRSR d alpha beta; dubinsRSL d alpha beta; dubinsLSR d alpha beta;
         dubinsRLR d alpha beta; dubinsLRL d alpha beta] (dubinsLSL d alpha beta)
  else
    fold_left dp_better
      [dubinsRSR d alpha beta; dubinsRSL d alpha beta; dubinsLSR d alpha beta;
       dubinsRLR d alpha beta; dubinsLRL d alpha beta] (dubinsLSL d alpha beta).

(** src/dubins_state_space/dubins_state_space.cpp:230-231: the arguments (d, alpha, beta). *)
Definition dubins_args (kappa : R) (state1 state2 : State) : R * R * R :=
  let dx := st_x state2 - st_x state1 in
  let dy := st_y state2 - st_y state1 in
  let th := atan2 dy dx in
  (sqrt (dx * dx + dy * dy) * kappa, twopify (st_theta state1 - th), twopify (st_theta state2 - th)).

(** src/dubins_state_space/dubins_state_space.cpp:228-233 (member function) *)
Definition dubins_path (kappa : R) (state1 state2 : State) : DPath :=
  let '(d, alpha, beta) := dubins_args kappa state1 state2 in dubins d alpha beta.

(** src/dubins_state_space/dubins_state_space.cpp:241-247; kappa_inv_ = 1 / kappa
    (dubins_state_space.hpp:137). *)
Definition dubins_distance (kappa : R) (forwards : bool) (state1 state2 : State) : R :=
  if forwards then (1 / kappa) * dp_length (dubins_path kappa state1 state2)
  else (1 / kappa) * dp_length (dubins_path kappa state2 state1).

(** src/dubins_state_space/dubins_state_space.cpp:261-278 *)
Definition dubins_control (kappa : R) (s : DSeg) (len : R) : Control :=
  match s with
  | DUBINS_LEFT => mkControl ((1 / kappa) * len) kappa 0
  | DUBINS_STRAIGHT => mkControl ((1 / kappa) * len) 0 0
  | DUBINS_RIGHT => mkControl ((1 / kappa) * len) (- kappa) 0
  end.

(** src/dubins_state_space/dubins_state_space.cpp:258-280 *)
Definition dubins_controls (kappa : R) (P : DPath) : list Control :=
  map (fun x => dubins_control kappa (fst x) (snd x)) (combine (dp_type P) [dp_t P; dp_p P; dp_q P]).

(** src/dubins_state_space/dubins_state_space.cpp:285-286 *)
Definition negate_length (c : Control) : Control :=
  mkControl (- ct_delta_s c) (ct_kappa c) (ct_sigma c).

(** src/dubins_state_space/dubins_state_space.cpp:249-289 *)
Definition dubins_get_controls (kappa : R) (forwards : bool) (state1 state2 : State) : list Control :=
  if forwards then dubins_controls kappa (dubins_path kappa state1 state2)
  else map negate_length (rev (dubins_controls kappa (dubins_path kappa state2 state1))).

(** src/dubins_state_space/dubins_state_space.cpp:291-295 *)
Definition dubins_get_path (kappa disc : R) (forwards : bool) (state1 state2 : State)
  : option (list State) :=
  rs_integrate 3 disc state1 (dubins_get_controls kappa forwards state1 state2).

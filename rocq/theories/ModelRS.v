(** * Model of src/reeds_shepp_state_space/reeds_shepp_state_space.cpp (planning part) *)
From Coq Require Import Reals ZArith List Bool.
From Verif Require Import Base ModelUtil ModelFresnel ModelIntegrate.
Import ListNotations.
Open Scope R_scope.

(** include/steering_functions/reeds_shepp_state_space/reeds_shepp_state_space.hpp:90-96 *)
Inductive RSSeg := RS_NOP | RS_LEFT | RS_STRAIGHT | RS_RIGHT.

(** reeds_shepp_state_space.hpp:102-128: the members type_ and length_ (five entries each). *)
Record RSPath := mkRSPath { rs_type : list RSSeg; rs_len : list R }.

(** src/reeds_shepp_state_space/reeds_shepp_state_space.cpp:493-512 *)
Definition rs_path_type (i : nat) : list RSSeg :=
  match i with
  | 0 => [RS_LEFT; RS_RIGHT; RS_LEFT; RS_NOP; RS_NOP]
  | 1 => [RS_RIGHT; RS_LEFT; RS_RIGHT; RS_NOP; RS_NOP]
  | 2 => [RS_LEFT; RS_RIGHT; RS_LEFT; RS_RIGHT; RS_NOP]
  | 3 => [RS_RIGHT; RS_LEFT; RS_RIGHT; RS_LEFT; RS_NOP]
  | 4 => [RS_LEFT; RS_RIGHT; RS_STRAIGHT; RS_LEFT; RS_NOP]
  | 5 => [RS_RIGHT; RS_LEFT; RS_STRAIGHT; RS_RIGHT; RS_NOP]
  | 6 => [RS_LEFT; RS_STRAIGHT; RS_RIGHT; RS_LEFT; RS_NOP]
  | 7 => [RS_RIGHT; RS_STRAIGHT; RS_LEFT; RS_RIGHT; RS_NOP]
  | 8 => [RS_LEFT; RS_RIGHT; RS_STRAIGHT; RS_RIGHT; RS_NOP]
  | 9 => [RS_RIGHT; RS_LEFT; RS_STRAIGHT; RS_LEFT; RS_NOP]
  | 10 => [RS_RIGHT; RS_STRAIGHT; RS_RIGHT; RS_LEFT; RS_NOP]
  | 11 => [RS_LEFT; RS_STRAIGHT; RS_LEFT; RS_RIGHT; RS_NOP]
  | 12 => [RS_LEFT; RS_STRAIGHT; RS_RIGHT; RS_NOP; RS_NOP]
  | 13 => [RS_RIGHT; RS_STRAIGHT; RS_LEFT; RS_NOP; RS_NOP]
  | 14 => [RS_LEFT; RS_STRAIGHT; RS_LEFT; RS_NOP; RS_NOP]
  | 15 => [RS_RIGHT; RS_STRAIGHT; RS_RIGHT; RS_NOP; RS_NOP]
  | 16 => [RS_LEFT; RS_RIGHT; RS_STRAIGHT; RS_LEFT; RS_RIGHT]
  | 17 => [RS_RIGHT; RS_LEFT; RS_STRAIGHT; RS_RIGHT; RS_LEFT]
  | _ => []
  end%nat.

(** reeds_shepp_state_space.hpp:106-108: the default arguments of the constructor ("no path"). *)
Definition rs_none : RSPath := mkRSPath (rs_path_type 0) [DBL_MAX; 0; 0; 0; 0].

(** src/reeds_shepp_state_space/reeds_shepp_state_space.cpp:523: total_length_. *)
Definition rs_length (P : RSPath) : R := fold_left (fun a l => a + Rabs l) (rs_len P) 0.

(** src/reeds_shepp_state_space/reeds_shepp_state_space.cpp:73-74 *)
Definition RS_EPS : R := 1 / 1000000.
Definition RS_ZERO : R := 10 * DBL_EPSILON.

(** Answer of a word solver: [None] models the return value false, [Some (t, u, v)] true. *)
Definition RSSol := option (R * R * R).

(** src/reeds_shepp_state_space/reeds_shepp_state_space.cpp:76-82; returns (tau, omega). *)
Definition tauOmega (u v xi eta phi : R) : R * R :=
  let delta := pify (u - v) in
  let A := sin u - sin delta in
  let B := cos u - cos delta - 1 in
  let t1 := atan2 (eta * A - xi * B) (xi * A + eta * B) in
  let t2 := 2 * (cos delta - cos v - cos u) + 3 in
  let tau := if Rlt_dec t2 0 then pify (t1 + PI) else pify t1 in
  (tau, pify (tau - u + v - phi)).

(** src/reeds_shepp_state_space/reeds_shepp_state_space.cpp:85-100 *)
Definition LpSpLp (x y phi : R) : RSSol :=
  let '(u, t) := polar (x - sin phi) (y - 1 + cos phi) in
  if Rle_dec (- RS_ZERO) t then
    let v := pify (phi - t) in
    if Rle_dec (- RS_ZERO) v then Some (t, u, v) else None
  else None.

(** src/reeds_shepp_state_space/reeds_shepp_state_space.cpp:104-113: the values of (t, u, v) when
    the test [u1 >= 4.] succeeds. *)
Definition valLpSpRp (x y phi : R) : RSSol :=
  let '(u1, t1) := polar (x + sin phi) (y - 1 - cos phi) in
  let u1 := u1 * u1 in
  if Rle_dec 4 u1 then
    let u := sqrt (u1 - 4) in
    let theta := atan2 2 u in
    let t := pify (t1 + theta) in
    let v := pify (t - phi) in
    Some (t, u, v)
  else None.

(** src/reeds_shepp_state_space/reeds_shepp_state_space.cpp:102-120 *)
Definition LpSpRp (x y phi : R) : RSSol :=
  match valLpSpRp x y phi with
  | Some (t, u, v) =>
    if Rle_dec (- RS_ZERO) t then if Rle_dec (- RS_ZERO) v then Some (t, u, v) else None else None
  | None => None
  end.

(** src/reeds_shepp_state_space/reeds_shepp_state_space.cpp:165-171 *)
Definition valLpRmL (x y phi : R) : RSSol :=
  let xi := x - sin phi in
  let eta := y - 1 + cos phi in
  let '(u1, theta) := polar xi eta in
  if Rle_dec u1 4 then
    let u := -2 * asin ((1 / 4) * u1) in
    let t := pify (theta + (1 / 2) * u + PI) in
    let v := pify (phi - t + u) in
    Some (t, u, v)
  else None.

(** src/reeds_shepp_state_space/reeds_shepp_state_space.cpp:163-178 *)
Definition LpRmL (x y phi : R) : RSSol :=
  match valLpRmL x y phi with
  | Some (t, u, v) =>
    if Rle_dec (- RS_ZERO) t then if Rle_dec u RS_ZERO then Some (t, u, v) else None else None
  | None => None
  end.

(** src/reeds_shepp_state_space/reeds_shepp_state_space.cpp:226-230 *)
Definition valLpRupLumRm (x y phi : R) : RSSol :=
  let xi := x + sin phi in
  let eta := y - 1 - cos phi in
  let rho := (1 / 4) * (2 + sqrt (xi * xi + eta * eta)) in
  if Rle_dec rho 1 then
    let u := acos rho in
    let '(t, v) := tauOmega u (- u) xi eta phi in
    Some (t, u, v)
  else None.

(** src/reeds_shepp_state_space/reeds_shepp_state_space.cpp:224-237 *)
Definition LpRupLumRm (x y phi : R) : RSSol :=
  match valLpRupLumRm x y phi with
  | Some (t, u, v) =>
    if Rle_dec (- RS_ZERO) t then if Rle_dec v RS_ZERO then Some (t, u, v) else None else None
  | None => None
  end.

(** src/reeds_shepp_state_space/reeds_shepp_state_space.cpp:241-247 *)
Definition valLpRumLumRp (x y phi : R) : RSSol :=
  let xi := x + sin phi in
  let eta := y - 1 - cos phi in
  let rho := (20 - xi * xi - eta * eta) / 16 in
  if Rle_dec 0 rho then
    if Rle_dec rho 1 then
      let u := - acos rho in
      if Rle_dec (- (1 / 2) * PI) u then
        let '(t, v) := tauOmega u u xi eta phi in
        Some (t, u, v)
      else None
    else None
  else None.

(** src/reeds_shepp_state_space/reeds_shepp_state_space.cpp:239-255 *)
Definition LpRumLumRp (x y phi : R) : RSSol :=
  match valLpRumLumRp x y phi with
  | Some (t, u, v) =>
    if Rle_dec (- RS_ZERO) t then if Rle_dec (- RS_ZERO) v then Some (t, u, v) else None else None
  | None => None
  end.

(** src/reeds_shepp_state_space/reeds_shepp_state_space.cpp:301-308 *)
Definition valLpRmSmLm (x y phi : R) : RSSol :=
  let xi := x - sin phi in
  let eta := y - 1 + cos phi in
  let '(rho, theta) := polar xi eta in
  if Rle_dec 2 rho then
    let r := sqrt (rho * rho - 4) in
    let u := 2 - r in
    let t := pify (theta + atan2 r (-2)) in
    let v := pify (phi - (1 / 2) * PI - t) in
    Some (t, u, v)
  else None.

(** src/reeds_shepp_state_space/reeds_shepp_state_space.cpp:299-315 *)
Definition LpRmSmLm (x y phi : R) : RSSol :=
  match valLpRmSmLm x y phi with
  | Some (t, u, v) =>
    if Rle_dec (- RS_ZERO) t then
      if Rle_dec u RS_ZERO then if Rle_dec v RS_ZERO then Some (t, u, v) else None else None
    else None
  | None => None
  end.

(** src/reeds_shepp_state_space/reeds_shepp_state_space.cpp:319-325 *)
Definition valLpRmSmRm (x y phi : R) : RSSol :=
  let xi := x + sin phi in
  let eta := y - 1 - cos phi in
  let '(rho, theta) := polar (- eta) xi in
  if Rle_dec 2 rho then
    let t := theta in
    let u := 2 - rho in
    let v := pify (t + (1 / 2) * PI - phi) in
    Some (t, u, v)
  else None.

(** src/reeds_shepp_state_space/reeds_shepp_state_space.cpp:317-332 *)
Definition LpRmSmRm (x y phi : R) : RSSol :=
  match valLpRmSmRm x y phi with
  | Some (t, u, v) =>
    if Rle_dec (- RS_ZERO) t then
      if Rle_dec u RS_ZERO then if Rle_dec v RS_ZERO then Some (t, u, v) else None else None
    else None
  | None => None
  end.

(** src/reeds_shepp_state_space/reeds_shepp_state_space.cpp:438-446 *)
Definition valLpRmSLmRp (x y phi : R) : RSSol :=
  let xi := x + sin phi in
  let eta := y - 1 - cos phi in
  let '(rho, theta) := polar xi eta in
  if Rle_dec 2 rho then
    let u := 4 - sqrt (rho * rho - 4) in
    if Rle_dec u RS_ZERO then
      let t := pify (atan2 ((4 - u) * xi - 2 * eta) (-2 * xi + (u - 4) * eta)) in
      let v := pify (t - phi) in
      Some (t, u, v)
    else None
  else None.

(** src/reeds_shepp_state_space/reeds_shepp_state_space.cpp:436-454 *)
Definition LpRmSLmRp (x y phi : R) : RSSol :=
  match valLpRmSLmRp x y phi with
  | Some (t, u, v) =>
    if Rle_dec (- RS_ZERO) t then if Rle_dec (- RS_ZERO) v then Some (t, u, v) else None else None
  | None => None
  end.

(** Assertions src/reeds_shepp_state_space/reeds_shepp_state_space.cpp:93-95 *)
Definition assertLpSpLp (x y phi t u v : R) : Prop :=
  Rabs (u * cos t + sin phi - x) < RS_EPS /\ Rabs (u * sin t - cos phi + 1 - y) < RS_EPS /\
  Rabs (pify (t + v - phi)) < RS_EPS.
(** Assertions src/reeds_shepp_state_space/reeds_shepp_state_space.cpp:114-116 *)
Definition assertLpSpRp (x y phi t u v : R) : Prop :=
  Rabs (2 * sin t + u * cos t - sin phi - x) < RS_EPS /\
  Rabs (-2 * cos t + u * sin t + cos phi + 1 - y) < RS_EPS /\ Rabs (pify (t - v - phi)) < RS_EPS.
(** Assertions src/reeds_shepp_state_space/reeds_shepp_state_space.cpp:172-174 *)
Definition assertLpRmL (x y phi t u v : R) : Prop :=
  Rabs (2 * (sin t - sin (t - u)) + sin phi - x) < RS_EPS /\
  Rabs (2 * (- cos t + cos (t - u)) - cos phi + 1 - y) < RS_EPS /\
  Rabs (pify (t - u + v - phi)) < RS_EPS.
(** Assertions src/reeds_shepp_state_space/reeds_shepp_state_space.cpp:231-233 *)
Definition assertLpRupLumRm (x y phi t u v : R) : Prop :=
  Rabs (2 * (sin t - sin (t - u) + sin (t - 2 * u)) - sin phi - x) < RS_EPS /\
  Rabs (2 * (- cos t + cos (t - u) - cos (t - 2 * u)) + cos phi + 1 - y) < RS_EPS /\
  Rabs (pify (t - 2 * u - v - phi)) < RS_EPS.
(** Assertions src/reeds_shepp_state_space/reeds_shepp_state_space.cpp:248-250 *)
Definition assertLpRumLumRp (x y phi t u v : R) : Prop :=
  Rabs (4 * sin t - 2 * sin (t - u) - sin phi - x) < RS_EPS /\
  Rabs (-4 * cos t + 2 * cos (t - u) + cos phi + 1 - y) < RS_EPS /\
  Rabs (pify (t - v - phi)) < RS_EPS.
(** Assertions src/reeds_shepp_state_space/reeds_shepp_state_space.cpp:309-311 *)
Definition assertLpRmSmLm (x y phi t u v : R) : Prop :=
  Rabs (2 * (sin t - cos t) - u * sin t + sin phi - x) < RS_EPS /\
  Rabs (-2 * (sin t + cos t) + u * cos t - cos phi + 1 - y) < RS_EPS /\
  Rabs (pify (t + PI / 2 + v - phi)) < RS_EPS.
(** Assertions src/reeds_shepp_state_space/reeds_shepp_state_space.cpp:326-328 *)
Definition assertLpRmSmRm (x y phi t u v : R) : Prop :=
  Rabs (2 * sin t - cos (t - v) - u * sin t - x) < RS_EPS /\
  Rabs (-2 * cos t - sin (t - v) + u * cos t + 1 - y) < RS_EPS /\
  Rabs (pify (t + PI / 2 - v - phi)) < RS_EPS.
(** Assertions src/reeds_shepp_state_space/reeds_shepp_state_space.cpp:447-449 *)
Definition assertLpRmSLmRp (x y phi t u v : R) : Prop :=
  Rabs (4 * sin t - 2 * cos t - u * sin t - sin phi - x) < RS_EPS /\
  Rabs (-4 * cos t - 2 * sin t + u * cos t + cos phi + 1 - y) < RS_EPS /\
  Rabs (pify (t - v - phi)) < RS_EPS.

(** A candidate: a word solver's answer and the constructor call that turns it into a path. *)
Definition RSCand : Type := (RSSol * (R -> R -> R -> RSPath))%type.

(** One "if" of the functions CSC .. CCSCC, e.g.
    src/reeds_shepp_state_space/reeds_shepp_state_space.cpp:124-128, with the pair (path, Lmin) as
    state; [two] is the factor of |u| in L (2 in CCCC, lines 259-295, otherwise 1). *)
Definition rs_try (two : R) (st : RSPath * R) (c : RSCand) : RSPath * R :=
  match fst c with
  | Some (t, u, v) =>
    let L := Rabs t + two * Rabs u + Rabs v in
    if Rlt_dec L (snd st) then (snd c t u v, L) else st
  | None => st
  end.

(** The body of CSC .. CCSCC: Lmin starts as the length of the path so far minus [off] (lines 123,
    181, 258, 335, 457); the last "if" does not update Lmin, which nobody reads afterwards. *)
Definition rs_pick (two off : R) (path : RSPath) (cands : list RSCand) : RSPath :=
  fst (fold_left (rs_try two) cands (path, rs_length path - off)).

(** src/reeds_shepp_state_space/reeds_shepp_state_space.cpp:121-161: the candidates in
    the order in which they are tried; every entry is the answer of a word solver together with the
    path built from it. *)
Definition CSC_cands (x y phi : R) : list RSCand :=
  [(LpSpLp x y phi, fun t u v => mkRSPath (rs_path_type 14) [t; u; v; 0; 0]);
   (LpSpLp (- x) y (- phi), fun t u v => mkRSPath (rs_path_type 14) [- t; - u; - v; 0; 0]);
   (LpSpLp x (- y) (- phi), fun t u v => mkRSPath (rs_path_type 15) [t; u; v; 0; 0]);
   (LpSpLp (- x) (- y) phi, fun t u v => mkRSPath (rs_path_type 15) [- t; - u; - v; 0; 0]);
   (LpSpRp x y phi, fun t u v => mkRSPath (rs_path_type 12) [t; u; v; 0; 0]);
   (LpSpRp (- x) y (- phi), fun t u v => mkRSPath (rs_path_type 12) [- t; - u; - v; 0; 0]);
   (LpSpRp x (- y) (- phi), fun t u v => mkRSPath (rs_path_type 13) [t; u; v; 0; 0]);
   (LpSpRp (- x) (- y) phi, fun t u v => mkRSPath (rs_path_type 13) [- t; - u; - v; 0; 0])].

(** src/reeds_shepp_state_space/reeds_shepp_state_space.cpp:121-161 *)
Definition CSC (x y phi : R) (path : RSPath) : RSPath :=
  rs_pick 1 0 path (CSC_cands x y phi).

(** src/reeds_shepp_state_space/reeds_shepp_state_space.cpp:179-222: the candidates in
    the order in which they are tried; every entry is the answer of a word solver together with the
    path built from it. *)
Definition CCC_cands (x y phi : R) : list RSCand :=
  let xb := x * cos phi + y * sin phi in
  let yb := x * sin phi - y * cos phi in
  [(LpRmL x y phi, fun t u v => mkRSPath (rs_path_type 0) [t; u; v; 0; 0]);
   (LpRmL (- x) y (- phi), fun t u v => mkRSPath (rs_path_type 0) [- t; - u; - v; 0; 0]);
   (LpRmL x (- y) (- phi), fun t u v => mkRSPath (rs_path_type 1) [t; u; v; 0; 0]);
   (LpRmL (- x) (- y) phi, fun t u v => mkRSPath (rs_path_type 1) [- t; - u; - v; 0; 0]);
   (LpRmL xb yb phi, fun t u v => mkRSPath (rs_path_type 0) [v; u; t; 0; 0]);
   (LpRmL (- xb) yb (- phi), fun t u v => mkRSPath (rs_path_type 0) [- v; - u; - t; 0; 0]);
   (LpRmL xb (- yb) (- phi), fun t u v => mkRSPath (rs_path_type 1) [v; u; t; 0; 0]);
   (LpRmL (- xb) (- yb) phi, fun t u v => mkRSPath (rs_path_type 1) [- v; - u; - t; 0; 0])].

(** src/reeds_shepp_state_space/reeds_shepp_state_space.cpp:179-222 *)
Definition CCC (x y phi : R) (path : RSPath) : RSPath :=
  rs_pick 1 0 path (CCC_cands x y phi).

(** src/reeds_shepp_state_space/reeds_shepp_state_space.cpp:256-297: the candidates in
    the order in which they are tried; every entry is the answer of a word solver together with the
    path built from it. *)
Definition CCCC_cands (x y phi : R) : list RSCand :=
  [(LpRupLumRm x y phi, fun t u v => mkRSPath (rs_path_type 2) [t; u; - u; v; 0]);
   (LpRupLumRm (- x) y (- phi), fun t u v => mkRSPath (rs_path_type 2) [- t; - u; u; - v; 0]);
   (LpRupLumRm x (- y) (- phi), fun t u v => mkRSPath (rs_path_type 3) [t; u; - u; v; 0]);
   (LpRupLumRm (- x) (- y) phi, fun t u v => mkRSPath (rs_path_type 3) [- t; - u; u; - v; 0]);
   (LpRumLumRp x y phi, fun t u v => mkRSPath (rs_path_type 2) [t; u; u; v; 0]);
   (LpRumLumRp (- x) y (- phi), fun t u v => mkRSPath (rs_path_type 2) [- t; - u; - u; - v; 0]);
   (LpRumLumRp x (- y) (- phi), fun t u v => mkRSPath (rs_path_type 3) [t; u; u; v; 0]);
   (LpRumLumRp (- x) (- y) phi, fun t u v => mkRSPath (rs_path_type 3) [- t; - u; - u; - v; 0])].

(** src/reeds_shepp_state_space/reeds_shepp_state_space.cpp:256-297 *)
Definition CCCC (x y phi : R) (path : RSPath) : RSPath :=
  rs_pick 2 0 path (CCCC_cands x y phi).

(** src/reeds_shepp_state_space/reeds_shepp_state_space.cpp:333-434: the candidates in
    the order in which they are tried; every entry is the answer of a word solver together with the
    path built from it. *)
Definition CCSC_cands (x y phi : R) : list RSCand :=
  let xb := x * cos phi + y * sin phi in
  let yb := x * sin phi - y * cos phi in
  [(LpRmSmLm x y phi, fun t u v => mkRSPath (rs_path_type 4) [t; - (1 / 2) * PI; u; v; 0]);
   (LpRmSmLm (- x) y (- phi), fun t u v => mkRSPath (rs_path_type 4) [- t; (1 / 2) * PI; - u; - v; 0]);
   (LpRmSmLm x (- y) (- phi), fun t u v => mkRSPath (rs_path_type 5) [t; - (1 / 2) * PI; u; v; 0]);
   (LpRmSmLm (- x) (- y) phi, fun t u v => mkRSPath (rs_path_type 5) [- t; (1 / 2) * PI; - u; - v; 0]);
   (LpRmSmRm x y phi, fun t u v => mkRSPath (rs_path_type 8) [t; - (1 / 2) * PI; u; v; 0]);
   (LpRmSmRm (- x) y (- phi), fun t u v => mkRSPath (rs_path_type 8) [- t; (1 / 2) * PI; - u; - v; 0]);
   (LpRmSmRm x (- y) (- phi), fun t u v => mkRSPath (rs_path_type 9) [t; - (1 / 2) * PI; u; v; 0]);
   (LpRmSmRm (- x) (- y) phi, fun t u v => mkRSPath (rs_path_type 9) [- t; (1 / 2) * PI; - u; - v; 0]);
   (LpRmSmLm xb yb phi, fun t u v => mkRSPath (rs_path_type 6) [v; u; - (1 / 2) * PI; t; 0]);
   (LpRmSmLm (- xb) yb (- phi), fun t u v => mkRSPath (rs_path_type 6) [- v; - u; (1 / 2) * PI; - t; 0]);
   (LpRmSmLm xb (- yb) (- phi), fun t u v => mkRSPath (rs_path_type 7) [v; u; - (1 / 2) * PI; t; 0]);
   (LpRmSmLm (- xb) (- yb) phi, fun t u v => mkRSPath (rs_path_type 7) [- v; - u; (1 / 2) * PI; - t; 0]);
   (LpRmSmRm xb yb phi, fun t u v => mkRSPath (rs_path_type 10) [v; u; - (1 / 2) * PI; t; 0]);
   (LpRmSmRm (- xb) yb (- phi), fun t u v => mkRSPath (rs_path_type 10) [- v; - u; (1 / 2) * PI; - t; 0]);
   (LpRmSmRm xb (- yb) (- phi), fun t u v => mkRSPath (rs_path_type 11) [v; u; - (1 / 2) * PI; t; 0]);
   (LpRmSmRm (- xb) (- yb) phi, fun t u v => mkRSPath (rs_path_type 11) [- v; - u; (1 / 2) * PI; - t; 0])].

(** src/reeds_shepp_state_space/reeds_shepp_state_space.cpp:333-434 *)
Definition CCSC (x y phi : R) (path : RSPath) : RSPath :=
  rs_pick 1 ((1 / 2) * PI) path (CCSC_cands x y phi).

(** src/reeds_shepp_state_space/reeds_shepp_state_space.cpp:455-479: the candidates in
    the order in which they are tried; every entry is the answer of a word solver together with the
    path built from it. *)
Definition CCSCC_cands (x y phi : R) : list RSCand :=
  [(LpRmSLmRp x y phi, fun t u v => mkRSPath (rs_path_type 16) [t; - (1 / 2) * PI; u; - (1 / 2) * PI; v]);
   (LpRmSLmRp (- x) y (- phi), fun t u v => mkRSPath (rs_path_type 16) [- t; (1 / 2) * PI; - u; (1 / 2) * PI; - v]);
   (LpRmSLmRp x (- y) (- phi), fun t u v => mkRSPath (rs_path_type 17) [t; - (1 / 2) * PI; u; - (1 / 2) * PI; v]);
   (LpRmSLmRp (- x) (- y) phi, fun t u v => mkRSPath (rs_path_type 17) [- t; (1 / 2) * PI; - u; (1 / 2) * PI; - v])].

(** src/reeds_shepp_state_space/reeds_shepp_state_space.cpp:455-479 *)
Definition CCSCC (x y phi : R) (path : RSPath) : RSPath :=
  rs_pick 1 PI path (CCSCC_cands x y phi).

(** src/reeds_shepp_state_space/reeds_shepp_state_space.cpp:481-490 (helper function) *)
Definition reeds_shepp (x y phi : R) : RSPath :=
  CCSCC x y phi (CCSC x y phi (CCCC x y phi (CCC x y phi (CSC x y phi rs_none)))).

(** src/reeds_shepp_state_space/reeds_shepp_state_space.cpp:529-532: the arguments (x, y, phi). *)
Definition rs_args (kappa : R) (state1 state2 : State) : R * R * R :=
  let dx := st_x state2 - st_x state1 in
  let dy := st_y state2 - st_y state1 in
  let dth := st_theta state2 - st_theta state1 in
  let c := cos (st_theta state1) in
  let s := sin (st_theta state1) in
  let x := c * dx + s * dy in
  let y := - s * dx + c * dy in
  (x * kappa, y * kappa, dth).

(** src/reeds_shepp_state_space/reeds_shepp_state_space.cpp:526-533 (member function) *)
Definition rs_path (kappa : R) (state1 state2 : State) : RSPath :=
  let '(x, y, phi) := rs_args kappa state1 state2 in reeds_shepp x y phi.

(** src/reeds_shepp_state_space/reeds_shepp_state_space.cpp:542-545; kappa_inv_ = 1 / kappa
    (reeds_shepp_state_space.hpp:134). *)
Definition rs_distance (kappa : R) (state1 state2 : State) : R :=
  (1 / kappa) * rs_length (rs_path kappa state1 state2).

(** src/reeds_shepp_state_space/reeds_shepp_state_space.cpp:552-576: the loop over the segments;
    it stops at the first RS_NOP. *)
Fixpoint rs_controls (kappa : R) (types : list RSSeg) (lens : list R) : list Control :=
  match types, lens with
  | ty :: types', len :: lens' =>
    match ty with
    | RS_NOP => []
    | RS_LEFT => mkControl ((1 / kappa) * len) kappa 0 :: rs_controls kappa types' lens'
    | RS_RIGHT => mkControl ((1 / kappa) * len) (- kappa) 0 :: rs_controls kappa types' lens'
    | RS_STRAIGHT => mkControl ((1 / kappa) * len) 0 0 :: rs_controls kappa types' lens'
    end
  | _, _ => []
  end.

(** src/reeds_shepp_state_space/reeds_shepp_state_space.cpp:547-578 *)
Definition rs_get_controls (kappa : R) (state1 state2 : State) : list Control :=
  let P := rs_path kappa state1 state2 in rs_controls kappa (rs_type P) (rs_len P).

(** src/reeds_shepp_state_space/reeds_shepp_state_space.cpp:580-584 *)
Definition rs_get_path (kappa disc : R) (state1 state2 : State) : option (list State) :=
  rs_integrate 5 disc state1 (rs_get_controls kappa state1 state2).

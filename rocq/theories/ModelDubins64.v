(** * The Dubins planner in double precision

    The functions of src/dubins_state_space/dubins_state_space.cpp (see ModelDubins.v) with the rounding of every
    operation. The functions sin, cos, atan2 and acos of the C library are parameters; sqrt, fabs and max are those of
    the standard IEEE 754, correctly rounded. Not modelled here: overflow, the sign of zero and contraction to fused
    operations. Multiplications by 2 and by 1/2 round like all others. *)
From Coq Require Import Reals ZArith List.
From Flocq Require Import Core.
From Verif Require Import Base ModelUtil ModelDubins ModelFloat ModelArc.
Import ListNotations.
Open Scope R_scope.

(** The literals of src/dubins_state_space/dubins_state_space.cpp:73-74 converted to double. *)
Definition DUBINS_EPS64 : R := rnd (1 / 1000000).
Definition DUBINS_ZERO64 : R := - rnd (1 / 1000000000).

Section Library.
  (** The functions of the C library called in src/dubins_state_space/dubins_state_space.cpp:78, 82, 154, 230. *)
  Variables sin64 cos64 acos64 : R -> R.
  Variable atan264 : R -> R -> R.

  (** The value tmp of each word: src/dubins_state_space/dubins_state_space.cpp:79, 97, 115, 133, 151, 169. *)
  Definition dot64 (alpha beta : R) : R :=
    let ca := cos64 alpha in let sa := sin64 alpha in let cb := cos64 beta in let sb := sin64 beta in
    rnd (rnd (ca * cb) + rnd (sa * sb)).
  Definition tmpLSL64 (d alpha beta : R) : R :=
    let sa := sin64 alpha in let sb := sin64 beta in
    rnd (rnd (2 + rnd (d * d)) - rnd (2 * rnd (dot64 alpha beta - rnd (d * rnd (sa - sb))))).
  Definition tmpRSR64 (d alpha beta : R) : R :=
    let sa := sin64 alpha in let sb := sin64 beta in
    rnd (rnd (2 + rnd (d * d)) - rnd (2 * rnd (dot64 alpha beta - rnd (d * rnd (sb - sa))))).
  Definition tmpRSL64 (d alpha beta : R) : R :=
    let sa := sin64 alpha in let sb := sin64 beta in
    rnd (rnd (rnd (d * d) - 2) + rnd (2 * rnd (dot64 alpha beta - rnd (d * rnd (sa + sb))))).
  Definition tmpLSR64 (d alpha beta : R) : R :=
    let sa := sin64 alpha in let sb := sin64 beta in
    rnd (rnd (-2 + rnd (d * d)) + rnd (2 * rnd (dot64 alpha beta + rnd (d * rnd (sa + sb))))).
  Definition tmpRLR64 (d alpha beta : R) : R :=
    let sa := sin64 alpha in let sb := sin64 beta in
    rnd (125 / 1000 * rnd (rnd (6 - rnd (d * d)) + rnd (2 * rnd (dot64 alpha beta + rnd (d * rnd (sa - sb)))))).
  Definition tmpLRL64 (d alpha beta : R) : R :=
    let sa := sin64 alpha in let sb := sin64 beta in
    rnd (125 / 1000 * rnd (rnd (6 - rnd (d * d)) + rnd (2 * rnd (dot64 alpha beta - rnd (d * rnd (sa - sb)))))).

  (** src/dubins_state_space/dubins_state_space.cpp:82-85, 89 *)
  Definition solveLSL64 (d alpha beta : R) : DPath :=
    let ca := cos64 alpha in let sa := sin64 alpha in let cb := cos64 beta in let sb := sin64 beta in
    let theta := atan264 (rnd (cb - ca)) (rnd (rnd (d + sa) - sb)) in
    let t := twopify64 (rnd (- alpha + theta)) in
    let p := rnd (sqrt (Rmax (tmpLSL64 d alpha beta) 0)) in
    let q := twopify64 (rnd (beta - theta)) in
    mkDPath (dubins_path_type 0) t p q.

  (** src/dubins_state_space/dubins_state_space.cpp:100-103, 107 *)
  Definition solveRSR64 (d alpha beta : R) : DPath :=
    let ca := cos64 alpha in let sa := sin64 alpha in let cb := cos64 beta in let sb := sin64 beta in
    let theta := atan264 (rnd (ca - cb)) (rnd (rnd (d - sa) + sb)) in
    let t := twopify64 (rnd (alpha - theta)) in
    let p := rnd (sqrt (Rmax (tmpRSR64 d alpha beta) 0)) in
    let q := twopify64 (rnd (- beta + theta)) in
    mkDPath (dubins_path_type 1) t p q.

  (** src/dubins_state_space/dubins_state_space.cpp:118-121, 125 *)
  Definition solveRSL64 (d alpha beta : R) : DPath :=
    let ca := cos64 alpha in let sa := sin64 alpha in let cb := cos64 beta in let sb := sin64 beta in
    let p := rnd (sqrt (Rmax (tmpRSL64 d alpha beta) 0)) in
    let theta := rnd (atan264 (rnd (ca + cb)) (rnd (rnd (d - sa) - sb)) - atan264 2 p) in
    let t := twopify64 (rnd (alpha - theta)) in
    let q := twopify64 (rnd (beta - theta)) in
    mkDPath (dubins_path_type 2) t p q.

  (** src/dubins_state_space/dubins_state_space.cpp:136-139, 143 *)
  Definition solveLSR64 (d alpha beta : R) : DPath :=
    let ca := cos64 alpha in let sa := sin64 alpha in let cb := cos64 beta in let sb := sin64 beta in
    let p := rnd (sqrt (Rmax (tmpLSR64 d alpha beta) 0)) in
    let theta := rnd (atan264 (rnd (- ca - cb)) (rnd (rnd (d + sa) + sb)) - atan264 (-2) p) in
    let t := twopify64 (rnd (- alpha + theta)) in
    let q := twopify64 (rnd (- beta + theta)) in
    mkDPath (dubins_path_type 3) t p q.

  (** src/dubins_state_space/dubins_state_space.cpp:154-157, 161 *)
  Definition solveRLR64 (d alpha beta : R) : DPath :=
    let ca := cos64 alpha in let sa := sin64 alpha in let cb := cos64 beta in let sb := sin64 beta in
    let p := rnd (TWO_PI64 - acos64 (tmpRLR64 d alpha beta)) in
    let theta := atan264 (rnd (ca - cb)) (rnd (rnd (d - sa) + sb)) in
    let t := twopify64 (rnd (rnd (alpha - theta) + rnd (1 / 2 * p))) in
    let q := twopify64 (rnd (rnd (rnd (alpha - beta) - t) + p)) in
    mkDPath (dubins_path_type 4) t p q.

  (** src/dubins_state_space/dubins_state_space.cpp:172-175, 179 *)
  Definition solveLRL64 (d alpha beta : R) : DPath :=
    let ca := cos64 alpha in let sa := sin64 alpha in let cb := cos64 beta in let sb := sin64 beta in
    let p := rnd (TWO_PI64 - acos64 (tmpLRL64 d alpha beta)) in
    let theta := atan264 (rnd (- ca + cb)) (rnd (rnd (d + sa) - sb)) in
    let t := twopify64 (rnd (rnd (- alpha + theta) + rnd (1 / 2 * p))) in
    let q := twopify64 (rnd (rnd (rnd (beta - alpha) - t) + p)) in
    mkDPath (dubins_path_type 5) t p q.

  (** The words with their tests: src/dubins_state_space/dubins_state_space.cpp:76-92, 94-110, 112-128, 130-146,
      148-164, 166-182. *)
  Definition dubinsLSL64 (d alpha beta : R) : DPath := if Rle_dec DUBINS_ZERO64 (tmpLSL64 d alpha beta) then solveLSL64 d alpha beta else dp_none.
  Definition dubinsRSR64 (d alpha beta : R) : DPath := if Rle_dec DUBINS_ZERO64 (tmpRSR64 d alpha beta) then solveRSR64 d alpha beta else dp_none.
  Definition dubinsRSL64 (d alpha beta : R) : DPath := if Rle_dec DUBINS_ZERO64 (tmpRSL64 d alpha beta) then solveRSL64 d alpha beta else dp_none.
  Definition dubinsLSR64 (d alpha beta : R) : DPath := if Rle_dec DUBINS_ZERO64 (tmpLSR64 d alpha beta) then solveLSR64 d alpha beta else dp_none.
  Definition dubinsRLR64 (d alpha beta : R) : DPath := if Rlt_dec (Rabs (tmpRLR64 d alpha beta)) 1 then solveRLR64 d alpha beta else dp_none.
  Definition dubinsLRL64 (d alpha beta : R) : DPath := if Rlt_dec (Rabs (tmpLRL64 d alpha beta)) 1 then solveLRL64 d alpha beta else dp_none.

  (** The last assertion of each word, with the heading at the end of the word; for example
      src/dubins_state_space/dubins_state_space.cpp:88. *)
  Definition assert_heading64 (heading beta : R) : Prop :=
    twopify64 (rnd (rnd (heading - beta) + rnd (1 / 2 * DUBINS_EPS64))) < DUBINS_EPS64.

  (** Assertions src/dubins_state_space/dubins_state_space.cpp:86-88 *)
  Definition assertsLSL64 (d alpha beta : R) : Prop :=
    DUBINS_ZERO64 <= tmpLSL64 d alpha beta ->
    let ca := cos64 alpha in let sa := sin64 alpha in let cb := cos64 beta in let sb := sin64 beta in
    let '(mkDPath _ t p q) := solveLSL64 d alpha beta in
    Rabs (rnd (rnd (rnd (rnd (p * cos64 (rnd (alpha + t))) - sa) + sb) - d)) < DUBINS_EPS64 /\
    Rabs (rnd (rnd (rnd (p * sin64 (rnd (alpha + t))) + ca) - cb)) < DUBINS_EPS64 /\
    assert_heading64 (rnd (rnd (alpha + t) + q)) beta.

  (** Assertions src/dubins_state_space/dubins_state_space.cpp:104-106 *)
  Definition assertsRSR64 (d alpha beta : R) : Prop :=
    DUBINS_ZERO64 <= tmpRSR64 d alpha beta ->
    let ca := cos64 alpha in let sa := sin64 alpha in let cb := cos64 beta in let sb := sin64 beta in
    let '(mkDPath _ t p q) := solveRSR64 d alpha beta in
    Rabs (rnd (rnd (rnd (rnd (p * cos64 (rnd (alpha - t))) + sa) - sb) - d)) < DUBINS_EPS64 /\
    Rabs (rnd (rnd (rnd (p * sin64 (rnd (alpha - t))) - ca) + cb)) < DUBINS_EPS64 /\
    assert_heading64 (rnd (rnd (alpha - t) - q)) beta.

  (** Assertions src/dubins_state_space/dubins_state_space.cpp:122-124 *)
  Definition assertsRSL64 (d alpha beta : R) : Prop :=
    DUBINS_ZERO64 <= tmpRSL64 d alpha beta ->
    let ca := cos64 alpha in let sa := sin64 alpha in let cb := cos64 beta in let sb := sin64 beta in
    let '(mkDPath _ t p q) := solveRSL64 d alpha beta in
    Rabs (rnd (rnd (rnd (rnd (rnd (p * cos64 (rnd (alpha - t))) - rnd (2 * sin64 (rnd (alpha - t)))) + sa) + sb) - d)) < DUBINS_EPS64 /\
    Rabs (rnd (rnd (rnd (rnd (p * sin64 (rnd (alpha - t))) + rnd (2 * cos64 (rnd (alpha - t)))) - ca) - cb)) < DUBINS_EPS64 /\
    assert_heading64 (rnd (rnd (alpha - t) + q)) beta.

  (** Assertions src/dubins_state_space/dubins_state_space.cpp:140-142 *)
  Definition assertsLSR64 (d alpha beta : R) : Prop :=
    DUBINS_ZERO64 <= tmpLSR64 d alpha beta ->
    let ca := cos64 alpha in let sa := sin64 alpha in let cb := cos64 beta in let sb := sin64 beta in
    let '(mkDPath _ t p q) := solveLSR64 d alpha beta in
    Rabs (rnd (rnd (rnd (rnd (rnd (p * cos64 (rnd (alpha + t))) + rnd (2 * sin64 (rnd (alpha + t)))) - sa) - sb) - d)) < DUBINS_EPS64 /\
    Rabs (rnd (rnd (rnd (rnd (p * sin64 (rnd (alpha + t))) - rnd (2 * cos64 (rnd (alpha + t)))) + ca) + cb)) < DUBINS_EPS64 /\
    assert_heading64 (rnd (rnd (alpha + t) - q)) beta.

  (** Assertions src/dubins_state_space/dubins_state_space.cpp:158-160 *)
  Definition assertsRLR64 (d alpha beta : R) : Prop :=
    Rabs (tmpRLR64 d alpha beta) < 1 ->
    let ca := cos64 alpha in let sa := sin64 alpha in let cb := cos64 beta in let sb := sin64 beta in
    let '(mkDPath _ t p q) := solveRLR64 d alpha beta in
    Rabs (rnd (rnd (rnd (rnd (rnd (2 * sin64 (rnd (rnd (alpha - t) + p))) - rnd (2 * sin64 (rnd (alpha - t)))) - d) + sa) - sb)) < DUBINS_EPS64 /\
    Rabs (rnd (rnd (rnd (rnd (-2 * cos64 (rnd (rnd (alpha - t) + p))) + rnd (2 * cos64 (rnd (alpha - t)))) - ca) + cb)) < DUBINS_EPS64 /\
    assert_heading64 (rnd (rnd (rnd (alpha - t) + p) - q)) beta.

  (** Assertions src/dubins_state_space/dubins_state_space.cpp:176-178 *)
  Definition assertsLRL64 (d alpha beta : R) : Prop :=
    Rabs (tmpLRL64 d alpha beta) < 1 ->
    let ca := cos64 alpha in let sa := sin64 alpha in let cb := cos64 beta in let sb := sin64 beta in
    let '(mkDPath _ t p q) := solveLRL64 d alpha beta in
    Rabs (rnd (rnd (rnd (rnd (rnd (-2 * sin64 (rnd (rnd (alpha + t) - p))) + rnd (2 * sin64 (rnd (alpha + t)))) - d) - sa) + sb)) < DUBINS_EPS64 /\
    Rabs (rnd (rnd (rnd (rnd (2 * cos64 (rnd (rnd (alpha + t) - p))) - rnd (2 * cos64 (rnd (alpha + t)))) + ca) - cb)) < DUBINS_EPS64 /\
    assert_heading64 (rnd (rnd (rnd (alpha + t) - p) + q)) beta.

  (** dubins_state_space.hpp:117-120 *)
  Definition dp_length64 (P : DPath) : R := rnd (rnd (dp_t P + dp_p P) + dp_q P).

  (** One comparison of src/dubins_state_space/dubins_state_space.cpp:192-217 *)
  Definition dp_better64 (path cand : DPath) : DPath := if Rlt_dec (dp_length64 cand) (dp_length64 path) then cand else path.

  (** src/dubins_state_space/dubins_state_space.cpp:184-219 (helper function) *)
  Definition dubins64 (d alpha beta : R) : DPath :=
    let best := fold_left dp_better64
      [dubinsRSR64 d alpha beta; dubinsRSL64 d alpha beta; dubinsLSR64 d alpha beta;
       dubinsRLR64 d alpha beta; dubinsLRL64 d alpha beta] (dubinsLSL64 d alpha beta) in
    if Rlt_dec d DUBINS_EPS64 then
      if Rlt_dec (Rabs (rnd (alpha - beta))) DUBINS_EPS64 then mkDPath (dubins_path_type 0) 0 d 0 else best
    else best.

  (** src/dubins_state_space/dubins_state_space.cpp:230-231: the arguments (d, alpha, beta). *)
  Definition dubins_args64 (kappa : R) (state1 state2 : State) : R * R * R :=
    let dx := rnd (st_x state2 - st_x state1) in
    let dy := rnd (st_y state2 - st_y state1) in
    let th := atan264 dy dx in
    (rnd (rnd (sqrt (rnd (rnd (dx * dx) + rnd (dy * dy)))) * kappa),
     twopify64 (rnd (st_theta state1 - th)), twopify64 (rnd (st_theta state2 - th))).

  (** src/dubins_state_space/dubins_state_space.cpp:228-233 (member function) *)
  Definition dubins_path64 (kappa : R) (state1 state2 : State) : DPath :=
    let '(d, alpha, beta) := dubins_args64 kappa state1 state2 in dubins64 d alpha beta.

  (** src/dubins_state_space/dubins_state_space.cpp:241-247; kappa_inv_ = 1 / kappa (dubins_state_space.hpp:137). *)
  Definition dubins_get_distance64 (kappa : R) (forwards : bool) (state1 state2 : State) : R :=
    rnd (rnd (1 / kappa) * dp_length64 (if forwards then dubins_path64 kappa state1 state2 else dubins_path64 kappa state2 state1)).

  (** src/dubins_state_space/dubins_state_space.cpp:261-278; kappa_inv_ = 1 / kappa (dubins_state_space.hpp:137). *)
  Definition dubins_control64 (kappa : R) (s : DSeg) (len : R) : Control :=
    match s with
    | DUBINS_LEFT => mkControl (rnd (rnd (1 / kappa) * len)) kappa 0
    | DUBINS_STRAIGHT => mkControl (rnd (rnd (1 / kappa) * len)) 0 0
    | DUBINS_RIGHT => mkControl (rnd (rnd (1 / kappa) * len)) (- kappa) 0
    end.

  (** src/dubins_state_space/dubins_state_space.cpp:258-280 *)
  Definition dubins_controls64 (kappa : R) (P : DPath) : list Control :=
    map (fun x => dubins_control64 kappa (fst x) (snd x)) (combine (dp_type P) [dp_t P; dp_p P; dp_q P]).

  (** src/dubins_state_space/dubins_state_space.cpp:249-289 *)
  Definition dubins_get_controls64 (kappa : R) (forwards : bool) (state1 state2 : State) : list Control :=
    if forwards then dubins_controls64 kappa (dubins_path64 kappa state1 state2)
    else map negate_length (rev (dubins_controls64 kappa (dubins_path64 kappa state2 state1))).

  (** src/dubins_state_space/dubins_state_space.cpp:291-295 *)
  Definition dubins_get_path64 (kappa disc : R) (forwards : bool) (state1 state2 : State) : list State :=
    integrate64 sin64 cos64 disc state1 (dubins_get_controls64 kappa forwards state1 state2).
End Library.

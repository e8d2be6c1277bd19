(** * Angle normalisation in double precision

    Functions modelled with their rounding (also: ModelStep.v, ModelInter.v). Doubles are the real numbers of the format binary64
    (53 bits, least exponent -1074), every operation is rounded to nearest, ties to even. Not modelled:
    overflow, the sign of zero, and contraction of [a - b * c] to a fused operation. *)
From Coq Require Import Reals ZArith.
From Flocq Require Import Core.
Open Scope R_scope.

(** The format of the C++ type double. *)
Definition binary64 : R -> Prop := generic_format radix2 (FLT_exp (-1074) 53).

(** The rounding of every operation of the expressions below, e.g. src/utilities/utilities.cpp:57. *)
Definition rnd (x : R) : R := round radix2 (FLT_exp (-1074) 53) ZnearestE x.

(** The literals of include/steering_functions/utilities/utilities.hpp:31, 33, converted to double:
    7074237752028440 * 2^-51 and 7074237752028440 * 2^-50. *)
Definition PI64 : R := 7074237752028440 * / 2 ^ 51.
Definition TWO_PI64 : R := 7074237752028440 * / 2 ^ 50.

(** twopify, src/utilities/utilities.cpp:55-58; floor is exact. *)
Definition twopify64 (alpha : R) : R :=
  rnd (alpha - rnd (TWO_PI64 * IZR (Zfloor (rnd (alpha / TWO_PI64))))).

(** fmod, called in src/utilities/utilities.cpp:62; exact by definition of the C library. *)
Definition fmod64 (x y : R) : R := x - IZR (Ztrunc (x / y)) * y.

(** pify, src/utilities/utilities.cpp:60-68 *)
Definition pify64 (alpha : R) : R :=
  let v := fmod64 alpha TWO_PI64 in
  if Rlt_dec v (- PI64) then rnd (v + TWO_PI64)
  else if Rlt_dec PI64 v then rnd (v - TWO_PI64)
  else v.

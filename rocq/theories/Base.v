(** * Model of the C mathematical library and of C++ doubles

    A [double] is a real number computed exactly (see DESIGN.md, section 1).
    This file only contains definitions. *)
From Coq Require Import Reals ZArith List Bool.
Import ListNotations.
Open Scope R_scope.

(** [atan2(y, x)] as called e.g. in src/utilities/utilities.cpp:52; C99 semantics on reals,
    signed zeros are not modelled and [atan2(0, 0) = 0]. *)
Definition atan2 (y x : R) : R :=
  if Rlt_dec 0 x then atan (y / x)
  else if Rlt_dec x 0 then
    (if Rle_dec 0 y then atan (y / x) + PI else atan (y / x) - PI)
  else if Rlt_dec 0 y then PI / 2
  else if Rlt_dec y 0 then - (PI / 2)
  else 0.

(** [floor] as called in src/utilities/utilities.cpp:57. *)
Definition floorZ (x : R) : Z := Int_part x.

(** [ceil] as called in e.g. src/dubins_state_space/dubins_state_space.cpp (integrate). *)
Definition ceilZ (x : R) : Z := (- Int_part (- x))%Z.

(** Truncation towards zero, used by [fmod] (src/utilities/utilities.cpp:62). *)
Definition truncZ (x : R) : Z := if Rle_dec 0 x then Int_part x else (- Int_part (- x))%Z.

(** [fmod(x, y)] for [y > 0] as called in src/utilities/utilities.cpp:62. *)
Definition fmod (x y : R) : R := x - y * IZR (truncZ (x / y)).

(** [numeric_limits<double>::max()], e.g. src/hc_cc_state_space/cc0pm_dubins_state_space.cpp:341:
    (2 - 2^-52) * 2^1023 = 2^1024 - 2^971. *)
Definition DBL_MAX : R := IZR (2 ^ 1024 - 2 ^ 971)%Z.

(** [numeric_limits<double>::epsilon()], src/reeds_shepp_state_space/reeds_shepp_state_space.cpp
    (RS_ZERO). *)
Definition DBL_EPSILON : R := / IZR (2 ^ 52)%Z.

(** Boolean comparisons of doubles (no NaN operands). Models the C++ operators [<] and [<=]
    wherever they are applied to finite doubles. *)
Definition Rltb (x y : R) : bool := if Rlt_dec x y then true else false.
Definition Rleb (x y : R) : bool := if Rle_dec x y then true else false.

(** A double that may be "not a number / not finite" ([None]).
    Used for the candidate lengths of the planners, e.g.
    src/hc_cc_state_space/hc00_reeds_shepp_state_space.cpp (lengths table). *)
Notation flt := (option R).

(** [a < b] on possibly-NaN doubles: false if one operand is NaN
    (src/utilities/utilities.cpp:224). *)
Definition fltb (a b : flt) : bool :=
  match a, b with
  | Some x, Some y => Rltb x y
  | _, _ => false
  end.

(** [sqrt] on doubles: NaN for negative arguments. *)
Definition fsqrt (x : R) : flt := if Rlt_dec x 0 then None else Some (sqrt x).

(** [asin] on doubles: NaN outside [-1, 1]. *)
Definition fasin (x : R) : flt :=
  if Rlt_dec x (-1) then None else if Rlt_dec 1 x then None else Some (asin x).

(** [acos] on doubles: NaN outside [-1, 1]. *)
Definition facos (x : R) : flt :=
  if Rlt_dec x (-1) then None else if Rlt_dec 1 x then None else Some (acos x).

(** Division on doubles: not finite when the divisor is 0. *)
Definition fdiv (x y : R) : flt := if Req_EM_T y 0 then None else Some (x / y).

(** Propagation of NaN through a computation. *)
Definition fbind {A B} (a : option A) (f : A -> option B) : option B :=
  match a with Some x => f x | None => None end.

Notation "'flet' x := a 'in' b" := (fbind a (fun x => b))
  (at level 200, x pattern, a at level 100, b at level 200).

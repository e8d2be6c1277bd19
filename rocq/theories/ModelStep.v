(** * The step lengths of integrate in double precision

    The bookkeeping of the arc length in the loops of [integrate], with the rounding of every operation
    (ModelFloat.v). Not modelled here: what [integrate_ODE] does with a step (ModelIntegrate.v has it without
    rounding), and the conversion of too large a number of steps to int. *)
From Coq Require Import Reals ZArith List.
From Flocq Require Import Core.
From Verif Require Import ModelFloat.
Import ListNotations.
Open Scope R_scope.

(** The loop src/dubins_state_space/dubins_state_space.cpp:332-348; the same loop in
    reeds_shepp_state_space.cpp:621-637 and hc_cc_state_space.cpp:116-132 and in the variants with covariance
    (dubins_state_space.cpp:388-404, reeds_shepp_state_space.cpp:677-693, hc_cc_state_space.cpp:179-195).
    [n] iterations from the value [s] of s_seg; the result are the values of integration_step. *)
Fixpoint steps64 (n : nat) (abs_delta_s discretization s : R) : list R :=
  match n with
  | O => []
  | S n =>
    let s_seg := rnd (s + discretization) in
    if Rlt_dec abs_delta_s s_seg
    then rnd (discretization - rnd (s_seg - abs_delta_s)) :: steps64 n abs_delta_s discretization abs_delta_s
    else discretization :: steps64 n abs_delta_s discretization s_seg
  end.

(** The number of iterations and the initial s_seg, src/dubins_state_space/dubins_state_space.cpp:325, 332;
    [ceil] is exact. *)
Definition integration_steps64 (abs_delta_s discretization : R) : list R :=
  steps64 (Z.to_nat (Zceil (rnd (abs_delta_s / discretization)))) abs_delta_s discretization 0.

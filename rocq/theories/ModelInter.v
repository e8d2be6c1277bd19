(** * The bookkeeping of interpolate in double precision

    Which part of each control [interpolate] drives, with the rounding of every operation (ModelFloat.v). The
    steps along a part are those of ModelStep.v. Not modelled here: what [integrate_ODE] does with a step. *)
From Coq Require Import Reals ZArith List.
From Flocq Require Import Core.
From Verif Require Import ModelFloat ModelStep.
Import ListNotations.
Open Scope R_scope.

(** The sum s_path, src/dubins_state_space/dubins_state_space.cpp:429-434; the same in
    reeds_shepp_state_space.cpp:718-723 and hc_cc_state_space.cpp:222-227. [lengths] are the values fabs(delta_s). *)
Fixpoint path_length64 (s_path : R) (lengths : list R) : R :=
  match lengths with
  | [] => s_path
  | a :: lengths => path_length64 (rnd (s_path + a)) lengths
  end.

(** s_inter for t > 0, src/dubins_state_space/dubins_state_space.cpp:435-440; the same in
    reeds_shepp_state_space.cpp:724-729 and hc_cc_state_space.cpp:228-233. *)
Definition inter_length64 (t : R) (lengths : list R) : R :=
  let s_path := path_length64 0 lengths in
  if Rlt_dec 1 t then s_path else rnd (t * s_path).

(** The values abs_delta_s of the controls that are driven,
    src/dubins_state_space/dubins_state_space.cpp:442-464; the same in
    reeds_shepp_state_space.cpp:731-753 and hc_cc_state_space.cpp:235-261. *)
Fixpoint driven64 (s_inter s : R) (lengths : list R) : list R :=
  match lengths with
  | [] => []
  | abs_delta_s :: lengths =>
    let s := rnd (s + abs_delta_s) in
    if Rlt_dec s_inter s
    then [rnd (abs_delta_s - rnd (s - s_inter))]
    else abs_delta_s :: driven64 s_inter s lengths
  end.
Definition interpolate64 (t : R) (lengths : list R) : list R := driven64 (inter_length64 t lengths) 0 lengths.

(** All steps of interpolate, src/dubins_state_space/dubins_state_space.cpp:464-480 for each of these parts; the same in
    reeds_shepp_state_space.cpp:753-769 and hc_cc_state_space.cpp:261-277. *)
Definition interpolate_steps64 (t discretization : R) (lengths : list R) : list R :=
  flat_map (fun abs_delta_s => integration_steps64 abs_delta_s discretization) (interpolate64 t lengths).

(** * The spaces for states of any curvature: CC_Dubins_State_Space and HC_Reeds_Shepp_State_Space

    Both predict, for a start or goal of intermediate curvature, states of curvature 0 or +-kappa and
    plan between the predicted states.

    Simplifications: the member [d] of a predicted state is never initialised by the C++ code (the struct
    has no default values); its content is the parameter [junk]. std::sort leaves open which of several
    paths of equal length comes first; the model takes the one that was generated first (libstdc++ sorts up
    to 16 elements by insertion, which keeps the order). [None] is the dereference of a null pointer in
    one of the planners. *)
From Coq Require Import Reals ZArith List Bool.
From Verif Require Import Base ModelUtil ModelFresnel ModelCircle ModelPaths.
From Verif Require ModelCC00D ModelCC0pmD ModelCCpm0D ModelCCpmpmD ModelHC00R ModelHC0pmR ModelHCpm0R ModelHCpmpmR.
Import ListNotations.
Open Scope R_scope.

(** Sequencing of evaluations that may dereference a null pointer: all pushes of the loops
    src/hc_cc_state_space/cc_dubins_state_space.cpp:105-145, 157-212. *)
Fixpoint all_some {A} (l : list (option A)) : option (list A) :=
  match l with
  | [] => Some []
  | None :: _ => None
  | Some a :: l => match all_some l with Some r => Some (a :: r) | None => None end
  end.

(** std::min_element, called in src/hc_cc_state_space/cc_dubins_state_space.cpp:146: the first element that
    is not greater than any other; NaN compares false. [None] models the dereference of the end iterator
    of an empty vector. *)
Definition min_element (l : list flt) : option flt :=
  match l with
  | [] => None
  | a :: l => Some (fold_left (fun m x => if fltb x m then x else m) l a)
  end.

(** src/hc_cc_state_space/cc_dubins_state_space.cpp:202-204: the length of a list of controls, summed from
    the front. *)
Definition controls_distance (cs : list Control) : R :=
  fold_left (fun acc c => acc + Rabs (ct_delta_s c)) cs 0.

(** src/hc_cc_state_space/cc_dubins_state_space.cpp:214-220: sort by length and take the front; [None] is
    the read of the first element of an empty vector. *)
Definition sorted_front (l : list (list Control)) : option (list Control) :=
  match l with
  | [] => None
  | a :: l => Some (fold_left (fun m x => if Rltb (controls_distance x) (controls_distance m) then x else m) l a)
  end.

(** The test "no prediction required":
    src/hc_cc_state_space/cc_dubins_state_space.cpp:44, hc_reeds_shepp_state_space.cpp:44 *)
Definition no_prediction (kappa : R) (state : State) : bool :=
  Rltb (Rabs (st_kappa state)) epsilon || Rltb (kappa - Rabs (st_kappa state)) epsilon.

(** src/hc_cc_state_space/cc_dubins_state_space.cpp:46-52, hc_reeds_shepp_state_space.cpp:46-52 *)
Definition unpredicted (state : State) : State * Control := (state, mkControl 0 (st_kappa state) 0).

(** The body of the loop "predict states with controls",
    src/hc_cc_state_space/cc_dubins_state_space.cpp:86-93, hc_reeds_shepp_state_space.cpp:81-88. *)
Definition predicted (junk : R) (state : State) (c : Control) : State * Control :=
  let d := sgn (ct_delta_s c) in
  let abs_delta_s := Rabs (ct_delta_s c) in
  let sigma := ct_sigma c in
  let '(x, y, theta, kappa) :=
    end_of_clothoid (st_x state) (st_y state) (st_theta state) (st_kappa state) sigma d abs_delta_s in
  (mkState x y theta kappa junk, c).

(** src/hc_cc_state_space/cc_dubins_state_space.cpp:56-83 *)
Definition cc_prediction_controls (kappa sigma : R) (state : State) (forwards : bool) : list Control :=
  let sgn_kappa := sgn (st_kappa state) in
  if forwards then
    [mkControl ((kappa - sgn_kappa * st_kappa state) / sigma) (st_kappa state) (sgn_kappa * sigma);
     mkControl (sgn_kappa * st_kappa state / sigma) (st_kappa state) (- sgn_kappa * sigma)]
  else
    [mkControl (- (kappa - sgn_kappa * st_kappa state) / sigma) (st_kappa state) (sgn_kappa * sigma);
     mkControl (- sgn_kappa * st_kappa state / sigma) (st_kappa state) (- sgn_kappa * sigma)].

(** CC_Dubins_State_Space::predict_state, src/hc_cc_state_space/cc_dubins_state_space.cpp:39-95 *)
Definition cc_predict_state (junk kappa sigma : R) (state : State) (forwards : bool) : list (State * Control) :=
  if no_prediction kappa state then [unpredicted state]
  else map (predicted junk state) (cc_prediction_controls kappa sigma state forwards).

(** src/hc_cc_state_space/hc_reeds_shepp_state_space.cpp:56-78 *)
Definition hc_prediction_controls (kappa sigma : R) (state : State) : list Control :=
  let sgn_kappa := sgn (st_kappa state) in
  let c1 := mkControl ((kappa - sgn_kappa * st_kappa state) / sigma) (st_kappa state) (sgn_kappa * sigma) in
  let c2 := mkControl (- ct_delta_s c1) (st_kappa state) (ct_sigma c1) in
  let c3 := mkControl (sgn_kappa * st_kappa state / sigma) (st_kappa state) (- sgn_kappa * sigma) in
  let c4 := mkControl (- ct_delta_s c3) (st_kappa state) (ct_sigma c3) in
  [c1; c2; c3; c4].

(** HC_Reeds_Shepp_State_Space::predict_state, src/hc_cc_state_space/hc_reeds_shepp_state_space.cpp:39-90 *)
Definition hc_predict_state (junk kappa sigma : R) (state : State) : list (State * Control) :=
  if no_prediction kappa state then [unpredicted state]
  else map (predicted junk state) (hc_prediction_controls kappa sigma state).

(** The loops over all predicted start and end states; their text is the same in
    src/hc_cc_state_space/cc_dubins_state_space.cpp and hc_reeds_shepp_state_space.cpp except for the
    planners that are called. *)
Section Loops.
  Variables dist00 dist0pm distpm0 distpmpm : State -> State -> option flt.
  Variables ctrl00 ctrl0pm ctrlpm0 ctrlpmpm : State -> State -> option (list Control).

  (** "call appropriate state space": src/hc_cc_state_space/cc_dubins_state_space.cpp:122-136,
      hc_reeds_shepp_state_space.cpp:117-131. *)
  Definition call_distance (start_state end_state : State) : option flt :=
    if Rltb (Rabs (st_kappa start_state)) epsilon then
      if Rltb (Rabs (st_kappa end_state)) epsilon then dist00 start_state end_state else dist0pm start_state end_state
    else
      if Rltb (Rabs (st_kappa end_state)) epsilon then distpm0 start_state end_state else distpmpm start_state end_state.

  (** src/hc_cc_state_space/cc_dubins_state_space.cpp:175-188, hc_reeds_shepp_state_space.cpp:170-183 *)
  Definition call_controls (start_state end_state : State) : option (list Control) :=
    if Rltb (Rabs (st_kappa start_state)) epsilon then
      if Rltb (Rabs (st_kappa end_state)) epsilon then ctrl00 start_state end_state else ctrl0pm start_state end_state
    else
      if Rltb (Rabs (st_kappa end_state)) epsilon then ctrlpm0 start_state end_state else ctrlpmpm start_state end_state.

  (** The body of the loops of get_distance: src/hc_cc_state_space/cc_dubins_state_space.cpp:107-143,
      hc_reeds_shepp_state_space.cpp:102-138. *)
  Definition pair_distance (p : (State * Control) * (State * Control)) : option flt :=
    let '((start_state, start_control), (end_state, end_control)) := p in
    if state_equal start_state end_state then
      Some (Some (Rabs (ct_delta_s (subtract_control start_control end_control))))
    else
      match call_distance start_state end_state with
      | None => None
      | Some distance =>
          Some (flet distance := distance in
                let distance := if Rltb epsilon (Rabs (ct_delta_s start_control))
                                then distance + Rabs (ct_delta_s start_control) else distance in
                let distance := if Rltb epsilon (Rabs (ct_delta_s end_control))
                                then distance + Rabs (ct_delta_s end_control) else distance in
                Some distance)
      end.

  (** The body of the loops of get_controls: src/hc_cc_state_space/cc_dubins_state_space.cpp:160-199,
      hc_reeds_shepp_state_space.cpp:155-194. *)
  Definition pair_controls (p : (State * Control) * (State * Control)) : option (list Control) :=
    let '((start_state, start_control), (end_state, end_control)) := p in
    if state_equal start_state end_state then Some [subtract_control start_control end_control]
    else
      match call_controls start_state end_state with
      | None => None
      | Some controls =>
          let controls := if Rltb epsilon (Rabs (ct_delta_s start_control))
                          then start_control :: controls else controls in
          let controls := if Rltb epsilon (Rabs (ct_delta_s end_control))
                          then controls ++ [reverse_control end_control] else controls in
          Some controls
      end.

  (** get_distance: src/hc_cc_state_space/cc_dubins_state_space.cpp:97-147,
      hc_reeds_shepp_state_space.cpp:92-142. *)
  Definition loop_distance (starts ends : list (State * Control)) : option flt :=
    match all_some (map pair_distance (list_prod starts ends)) with
    | Some distances => min_element distances
    | None => None
    end.

  (** get_controls: src/hc_cc_state_space/cc_dubins_state_space.cpp:149-221,
      hc_reeds_shepp_state_space.cpp:144-216. *)
  Definition loop_controls (starts ends : list (State * Control)) : option (list Control) :=
    match all_some (map pair_controls (list_prod starts ends)) with
    | Some candidates => sorted_front candidates
    | None => None
    end.

  (** The assertion of src/hc_cc_state_space/paths.cpp:283 holds in all calls of subtract_control
      (cc_dubins_state_space.cpp:116, 169, hc_reeds_shepp_state_space.cpp:111, 164). *)
  Definition loop_asserts (starts ends : list (State * Control)) : Prop :=
    forall start_state start_control end_state end_control,
      In (start_state, start_control) starts -> In (end_state, end_control) ends ->
      state_equal start_state end_state = true -> subtract_control_assert start_control end_control.
End Loops.

(** The two spaces; the constructors src/hc_cc_state_space/cc_dubins_state_space.cpp:29-37 and
    hc_reeds_shepp_state_space.cpp:30-37 pass kappa and sigma (and forwards) to the planners. *)

(** CC_Dubins_State_Space::get_distance, src/hc_cc_state_space/cc_dubins_state_space.cpp:97-147 *)
Definition cc_dubins_distance (junk kappa sigma : R) (forwards : bool) (state1 state2 : State) : option flt :=
  loop_distance (ModelCC00D.get_distance kappa sigma forwards) (ModelCC0pmD.get_distance kappa sigma forwards)
    (ModelCCpm0D.get_distance kappa sigma forwards) (ModelCCpmpmD.get_distance kappa sigma forwards)
    (cc_predict_state junk kappa sigma state1 forwards) (cc_predict_state junk kappa sigma state2 (negb forwards)).

(** CC_Dubins_State_Space::get_controls, src/hc_cc_state_space/cc_dubins_state_space.cpp:149-221 *)
Definition cc_dubins_controls (junk kappa sigma : R) (forwards : bool) (state1 state2 : State) : option (list Control) :=
  loop_controls (ModelCC00D.get_controls kappa sigma forwards) (ModelCC0pmD.get_controls kappa sigma forwards)
    (ModelCCpm0D.get_controls kappa sigma forwards) (ModelCCpmpmD.get_controls kappa sigma forwards)
    (cc_predict_state junk kappa sigma state1 forwards) (cc_predict_state junk kappa sigma state2 (negb forwards)).

(** The assertion in the calls of subtract_control, src/hc_cc_state_space/cc_dubins_state_space.cpp:116, 169 *)
Definition cc_dubins_asserts (junk kappa sigma : R) (forwards : bool) (state1 state2 : State) : Prop :=
  loop_asserts (cc_predict_state junk kappa sigma state1 forwards) (cc_predict_state junk kappa sigma state2 (negb forwards)).

(** HC_Reeds_Shepp_State_Space::get_distance, src/hc_cc_state_space/hc_reeds_shepp_state_space.cpp:92-142 *)
Definition hc_rs_distance (junk kappa sigma : R) (state1 state2 : State) : option flt :=
  loop_distance (ModelHC00R.get_distance kappa sigma) (ModelHC0pmR.get_distance kappa sigma)
    (ModelHCpm0R.get_distance kappa sigma) (ModelHCpmpmR.get_distance kappa sigma)
    (hc_predict_state junk kappa sigma state1) (hc_predict_state junk kappa sigma state2).

(** HC_Reeds_Shepp_State_Space::get_controls, src/hc_cc_state_space/hc_reeds_shepp_state_space.cpp:144-216 *)
Definition hc_rs_controls (junk kappa sigma : R) (state1 state2 : State) : option (list Control) :=
  loop_controls (ModelHC00R.get_controls kappa sigma) (ModelHC0pmR.get_controls kappa sigma)
    (ModelHCpm0R.get_controls kappa sigma) (ModelHCpmpmR.get_controls kappa sigma)
    (hc_predict_state junk kappa sigma state1) (hc_predict_state junk kappa sigma state2).

(** The assertion in the calls of subtract_control, src/hc_cc_state_space/hc_reeds_shepp_state_space.cpp:111, 164 *)
Definition hc_rs_asserts (junk kappa sigma : R) (state1 state2 : State) : Prop :=
  loop_asserts (hc_predict_state junk kappa sigma state1) (hc_predict_state junk kappa sigma state2).

(** * Properties C23-C26: integrate and interpolate *)
From Coq Require Import Reals ZArith List Lra.
From Verif Require Import Base ModelUtil ModelFresnel ModelIntegrate Num SpecPath IntegrateProofs.
Import ListNotations.
Open Scope R_scope.

(** C23, Dubins ([extra] = 3) and Reeds-Shepp ([extra] = 5) spaces. *)
Theorem C23_integrate_endpoint (extra : Z) (disc : R) (state : State) (controls : list Control)
  (path : list State) :
  0 < disc -> controls <> [] -> rs_integrate extra disc state controls = Some path ->
  (exists q, nth_error path 0 = Some q /\
     st_x q = st_x state /\ st_y q = st_y state /\ st_theta q = st_theta state) /\
  (exists q, nth_error path (length path - 1) = Some q /\
     st_sim q (state_after rs_enter rs_ode state controls)).
Proof.
  exact (fun D N E => proj2 (rs_integrate_spec extra disc state controls path D N E)).
Qed.
Print Assumptions C23_integrate_endpoint.

Example C23_case :
  rs_integrate 3 1 (mkState 1 2 0 0 0) [mkControl (-(3 / 2)) 0 0] =
  Some [mkState 1 2 0 0 (-1); mkState 0 2 0 0 (-1); mkState (-1 / 2) 2 0 0 (-1)].
Proof. exact rs_integrate_case. Qed.

(** C23, HC/CC spaces. The curvature of a new control is only taken over when it differs by more
    than the tolerance ([hc_enter']). *)
Theorem C23_hc_integrate_endpoint (disc : R) (state : State) (c : Control) (cs : list Control)
  (path : list State) :
  0 < disc -> hc_integrate disc state (c :: cs) = Some path ->
  (exists q, nth_error path 0 = Some q /\
     st_x q = st_x state /\ st_y q = st_y state /\ st_theta q = st_theta state) /\
  (exists q, nth_error path (length path - 1) = Some q /\
     st_sim q (state_after hc_enter' hc_ode (rs_enter c state) (c :: cs))).
Proof. exact (fun D E => proj2 (hc_integrate_spec disc state (c :: cs) path D E)). Qed.
Print Assumptions C23_hc_integrate_endpoint.

(** C23, HC/CC spaces, with the curvature of every control taken literally. *)
Theorem C23_hc_integrate_endpoint_nominal (disc : R) (state : State) (c : Control)
  (cs : list Control) (path : list State) :
  0 < disc ->
  no_small_jump rs_enter hc_ode epsilon (rs_enter c state) (c :: cs) ->
  hc_integrate disc state (c :: cs) = Some path ->
  exists q, nth_error path (length path - 1) = Some q /\
    st_sim q (state_after rs_enter hc_ode state (c :: cs)).
Proof. exact (hc_integrate_nominal disc state c cs path). Qed.
Print Assumptions C23_hc_integrate_endpoint_nominal.

(** C23: the end point is the same for every two discretizations. *)
Theorem C23_discretization_independent (extra : Z) (d1 d2 : R) (state : State)
  (controls : list Control) (p1 p2 : list State) (q1 q2 : State) :
  0 < d1 -> 0 < d2 -> controls <> [] ->
  rs_integrate extra d1 state controls = Some p1 -> rs_integrate extra d2 state controls = Some p2 ->
  nth_error p1 (length p1 - 1) = Some q1 -> nth_error p2 (length p2 - 1) = Some q2 -> st_sim q1 q2.
Proof. exact (rs_discretization_independent extra d1 d2 state controls p1 p2 q1 q2). Qed.
Print Assumptions C23_discretization_independent.

Theorem C23_hc_discretization_independent (d1 d2 : R) (state : State)
  (controls : list Control) (p1 p2 : list State) (q1 q2 : State) :
  0 < d1 -> 0 < d2 ->
  hc_integrate d1 state controls = Some p1 -> hc_integrate d2 state controls = Some p2 ->
  nth_error p1 (length p1 - 1) = Some q1 -> nth_error p2 (length p2 - 1) = Some q2 -> st_sim q1 q2.
Proof. exact (hc_discretization_independent d1 d2 state controls p1 p2 q1 q2). Qed.
Print Assumptions C23_hc_discretization_independent.

(** C23: the curvature reported after driving [h] along a control. *)
Theorem C23_curvature_linear (c : Control) (s : State) (h : R) :
  (epsilon < Rabs (ct_sigma c) -> st_kappa (hc_ode c s h) = st_kappa s + ct_sigma c * h) /\
  (Rabs (ct_sigma c) <= epsilon -> st_kappa (hc_ode c s h) = st_kappa s) /\
  st_kappa (rs_ode c s h) = st_kappa s /\
  st_d (hc_ode c s h) = sgn (ct_delta_s c) /\ st_d (rs_ode c s h) = sgn (ct_delta_s c).
Proof. exact (ode_curvature c s h). Qed.
Print Assumptions C23_curvature_linear.

(** C23: integrate is defined (no integer overflow) whenever the number of states fits in an int. *)
Theorem C23_integrate_defined (extra : Z) (disc : R) (state : State) (controls : list Control) :
  0 < disc -> (0 <= extra)%Z ->
  total_length controls / disc + INR (length controls) + IZR extra <= 2147483647 ->
  exists path, rs_integrate extra disc state controls = Some path.
Proof. exact (rs_integrate_total extra disc state controls). Qed.
Print Assumptions C23_integrate_defined.

Theorem C23_hc_integrate_defined (disc : R) (state : State) (controls : list Control) :
  0 < disc -> controls <> [] ->
  total_length controls / disc + INR (length controls) + 3 <= 2147483647 ->
  exists path, hc_integrate disc state controls = Some path.
Proof. exact (hc_integrate_total disc state controls). Qed.
Print Assumptions C23_hc_integrate_defined.

(** C24 *)
Theorem C24_sampling (extra : Z) (disc : R) (state : State) (controls : list Control)
  (path : list State) :
  0 < disc -> controls <> [] -> rs_integrate extra disc state controls = Some path ->
  exists ss, sampling rs_enter rs_ode disc state controls path ss.
Proof. exact (fun D N E => proj1 (rs_integrate_spec extra disc state controls path D N E)). Qed.
Print Assumptions C24_sampling.

Theorem C24_hc_sampling (disc : R) (state : State) (c : Control) (cs : list Control)
  (path : list State) :
  0 < disc -> hc_integrate disc state (c :: cs) = Some path ->
  exists ss, sampling hc_enter' hc_ode disc (rs_enter c state) (c :: cs) path ss.
Proof. exact (fun D E => proj1 (hc_integrate_spec disc state (c :: cs) path D E)). Qed.
Print Assumptions C24_hc_sampling.

(** C25 *)
Theorem C25_interpolate (disc : R) (state : State) (controls : list Control) (t : R) (u : UState) :
  0 < disc -> rs_interpolate disc state controls t = Some u ->
  (t <= 0 -> u_x u = st_x state /\ u_y u = st_y state /\ u_theta u = st_theta state) /\
  (0 < t -> controls <> [] ->
     exists q, u = ustate q /\ interpolated rs_enter rs_ode state controls t q).
Proof. exact (rs_interpolate_spec disc state controls t u). Qed.
Print Assumptions C25_interpolate.

Theorem C25_hc_interpolate (disc : R) (state : State) (c : Control) (cs : list Control) (t : R)
  (u : UState) :
  0 < disc -> hc_interpolate disc state (c :: cs) t = Some u ->
  exists q, u = ustate q /\
  (t <= 0 -> st_x q = st_x state /\ st_y q = st_y state /\ st_theta q = st_theta state /\
             st_kappa q = ct_kappa c) /\
  (0 < t -> interpolated hc_enter' hc_ode (rs_enter c state) (c :: cs) t q).
Proof. exact (hc_interpolate_spec disc state c cs t u). Qed.
Print Assumptions C25_hc_interpolate.

Example C25_case :
  rs_interpolate 1 (mkState 1 2 0 0 0) [mkControl 1 0 0; mkControl (-3) 0 0] (1 / 2) =
  Some (mkUState 1 2 0 (Some 0) (Some (-1))).
Proof. exact rs_interpolate_case. Qed.

(** C26 is false for the Dubins and Reeds-Shepp spaces. *)
Theorem C26_interpolate_initialised_refuted :
  exists (disc : R) (state : State) (controls : list Control) (t : R) (u : UState),
    0 < disc /\ controls <> [] /\
    rs_interpolate disc state controls t = Some u /\ u_kappa u = None /\ u_d u = None.
Proof. exact rs_interpolate_uninit_witness. Qed.
Print Assumptions C26_interpolate_initialised_refuted.

(** C26 holds for them when t > 0, and for the HC/CC spaces always. *)
Theorem C26_interpolate_initialised_partial (disc : R) (state : State) (controls : list Control)
  (t : R) (u : UState) :
  0 < t -> controls <> [] -> rs_interpolate disc state controls t = Some u ->
  u_kappa u <> None /\ u_d u <> None.
Proof. exact (rs_interpolate_init disc state controls t u). Qed.
Print Assumptions C26_interpolate_initialised_partial.

Theorem C26_hc_interpolate_initialised (disc : R) (state : State) (controls : list Control)
  (t : R) (u : UState) :
  hc_interpolate disc state controls t = Some u -> u_kappa u <> None /\ u_d u <> None.
Proof. exact (hc_interpolate_init disc state controls t u). Qed.
Print Assumptions C26_hc_interpolate_initialised.

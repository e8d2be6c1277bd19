(** * Property C76: the curvature and the driving direction of the states of a path *)
From Coq Require Import Reals ZArith List Lra.
From Verif Require Import Base ModelUtil ModelFresnel ModelIntegrate ModelCircle ModelPaths ModelWrap ModelDubins ModelRS SpecCloth SpecPath SpecTurn SpecPlan SpecSide SpecWrap
  DubinsCases PlanCases SideProofs WrapCases StateProofs StatePlan StateFull StateCases.
From Verif Require ModelCC00D ModelCC0pmD ModelCCpm0D ModelCCpmpmD ModelCC00R ModelHC00R ModelHC0pmR ModelHCpm0R ModelHCpmpmR.
Import ListNotations.
Open Scope R_scope.

(** The states of a Dubins path are driven straight or at the bound of the curvature, and in the direction of the space. *)
Theorem C76_dubins (kappa disc : R) (forward : bool) (s1 s2 : State) (path : list State) :
  0 < kappa -> 0 < disc -> dubins_get_path kappa disc forward s1 s2 = Some path ->
  Forall (fun q => (st_kappa q = 0 \/ st_kappa q = kappa \/ st_kappa q = - kappa) /\
    (if forward then st_d q = 1 else st_d q = -1 \/ st_d q = 1 /\ exists c, In c (dubins_get_controls kappa forward s1 s2) /\ ct_delta_s c = 0)) path.
Proof. exact (dubins_states kappa disc forward s1 s2 path). Qed.
Print Assumptions C76_dubins.

(** That a path driven backwards contains only states of direction -1 is false: a control of length 0 yields a state of direction +1. *)
Theorem C76_backward_refuted : exists kappa disc s1 s2 path q,
  0 < kappa /\ 0 < disc /\ dubins_get_path kappa disc false s1 s2 = Some path /\ In q path /\ st_d q = 1.
Proof. exact backward_refuted. Qed.
Print Assumptions C76_backward_refuted.

Theorem C76_reeds_shepp (kappa disc : R) (s1 s2 : State) (path : list State) :
  0 < disc -> rs_get_path kappa disc s1 s2 = Some path ->
  Forall (fun q => (st_kappa q = 0 \/ st_kappa q = kappa \/ st_kappa q = - kappa) /\ (st_d q = 1 \/ st_d q = -1)) path.
Proof. exact (rs_states kappa disc s1 s2 path). Qed.
Print Assumptions C76_reeds_shepp.

Example C76_path_case : (exists path, dubins_get_path 1 1 true (mkState 0 0 0 0 0) (mkState 0 2 PI 0 0) = Some path) /\
  exists path, rs_get_path 1 1 (mkState 0 0 0 0 0) (mkState 5 0 0 0 0) = Some path.
Proof. exact path_case. Qed.

(** Controls within the bounds are driven within the bound of the curvature, up to the tolerance of integrate. *)
Theorem C76_integrate (k g disc : R) (s : State) (cs : list Control) (path : list State) :
  0 < disc -> Forall (within_bounds k g) cs -> hc_integrate disc s cs = Some path -> Forall (fun q => Rabs (st_kappa q) <= k + epsilon) path.
Proof. exact (integrate_kappa k g disc s cs path). Qed.
Print Assumptions C76_integrate.

Theorem C76_interpolate (k g disc : R) (s : State) (c : Control) (cs : list Control) (t : R) (u : UState) :
  0 < disc -> Forall (within_bounds k g) (c :: cs) -> hc_interpolate disc s (c :: cs) t = Some u ->
  exists kp, u_kappa u = Some kp /\ Rabs kp <= k + epsilon.
Proof. exact (interpolate_kappa k g disc s c cs t u). Qed.
Print Assumptions C76_interpolate.

(** Where the planned curvature is continuous, it changes between two states by at most the sharpness times the discretization,
    provided that the clothoids are sharper than the tolerance of the code. *)
Theorem C76_sharpness_partial (g k0 k1 disc : R) (s : State) (cs : list Control) (path : list State) :
  0 < disc -> 0 <= g -> curvature_chain k0 cs k1 ->
  Forall (fun c => (ct_sigma c = 0 \/ epsilon < Rabs (ct_sigma c)) /\ Rabs (ct_sigma c) <= g) cs -> hc_integrate disc s cs = Some path ->
  forall i q q', nth_error path i = Some q -> nth_error path (S i) = Some q' -> Rabs (st_kappa q' - st_kappa q) <= g * disc.
Proof. exact (integrate_sharp g k0 k1 disc s cs path). Qed.
Print Assumptions C76_sharpness_partial.

(** Without this it is false: a clothoid of a sharpness of at most the tolerance is driven with constant curvature, and the curvature jumps at its end. *)
Theorem C76_sharpness_refuted : exists disc s cs path i q q' k1,
  0 < disc /\ curvature_chain 0 cs k1 /\ Forall (fun c => Rabs (ct_sigma c) <= epsilon) cs /\
  hc_integrate disc s cs = Some path /\ nth_error path i = Some q /\ nth_error path (S i) = Some q' /\ epsilon * disc < Rabs (st_kappa q' - st_kappa q).
Proof. exact low_sharpness_refuted. Qed.
Print Assumptions C76_sharpness_refuted.

(** A clothoid, an arc and a clothoid, sampled every 10 centimetres. *)
Example C76_case : let cs := [mkControl 1 0 1; mkControl 3 1 0; mkControl 1 1 (-1)] in
  curvature_chain 0 cs 0 /\ Forall (within_bounds 1 1) cs /\ Forall (fun c => (ct_sigma c = 0 \/ epsilon < Rabs (ct_sigma c)) /\ Rabs (ct_sigma c) <= 1) cs /\
  exists path, hc_integrate (1 / 10) (mkState 1 2 3 0 1) cs = Some path.
Proof. exact sharp_case. Qed.

(** The sampled paths of the planners (planned with the sharpness that hides a gap of the plan, C28-C43). *)
Theorem C76_cc00_dubins (k s : R) (forward : bool) (s1 s2 : State) :
  0 < k -> 0 < s -> pos_dist s1 s2 + detour k s < DBL_MAX ->
  exists t cs, ModelCC00D.get_controls k s forward s1 s2 = Some cs /\
    forall disc path, 0 < disc -> hc_integrate disc s1 cs = Some path -> Forall (fun q => Rabs (st_kappa q) <= k * sharp k s (dubins_gap k s t) + epsilon) path.
Proof. exact (cc00_dubins_below k s forward s1 s2). Qed.
Print Assumptions C76_cc00_dubins.

Theorem C76_cc00_reeds_shepp (k s : R) (s1 s2 : State) :
  0 < k -> 0 < s -> pos_dist s1 s2 + detour k s < DBL_MAX ->
  exists t cs, ModelCC00R.get_controls k s s1 s2 = Some cs /\
    forall disc path, 0 < disc -> hc_integrate disc s1 cs = Some path -> Forall (fun q => Rabs (st_kappa q) <= k * sharp k s (cc_rs_gap k s t) + epsilon) path.
Proof. exact (cc00_reeds_shepp_below k s s1 s2). Qed.
Print Assumptions C76_cc00_reeds_shepp.

Theorem C76_hc00_reeds_shepp (k s : R) (s1 s2 : State) :
  0 < k -> 0 < s -> pos_dist s1 s2 + detour k s < DBL_MAX ->
  exists t cs, ModelHC00R.get_controls k s s1 s2 = Some cs /\
    forall disc path, 0 < disc -> hc_integrate disc s1 cs = Some path -> Forall (fun q => Rabs (st_kappa q) <= k * sharp k s (rs_gap k s t) + epsilon) path.
Proof. exact (hc00_reeds_shepp_below k s s1 s2). Qed.
Print Assumptions C76_hc00_reeds_shepp.

Example C76_planner_case : 0 < 1 /\ 0 < 1 /\ pos_dist (mkState 0 0 0 0 1) (mkState 3 4 PI 0 1) + detour 1 1 < DBL_MAX.
Proof. exact (case_near _ _). Qed.

(** The planners from or to the bound of the curvature: also where the plan ends elsewhere (C36-C43) it keeps to the bound. *)
Theorem C76_cc0pm_dubins (k s : R) (forward : bool) (s1 s2 : State) :
  0 < k -> 0 < s -> pos_dist s1 s2 + detour k s < DBL_MAX ->
  exists t cs, ModelCC0pmD.get_controls k s forward s1 s2 = Some cs /\
    forall disc path, 0 < disc -> hc_integrate disc s1 cs = Some path -> Forall (fun q => Rabs (st_kappa q) <= k * sharp k s (dubins_gap k s t) + epsilon) path.
Proof. exact (cc0pm_dubins_any k s forward s1 s2). Qed.
Print Assumptions C76_cc0pm_dubins.

Theorem C76_ccpm0_dubins (k s : R) (forward : bool) (s1 s2 : State) :
  0 < k -> 0 < s -> pos_dist s1 s2 + detour k s < DBL_MAX ->
  exists t cs, ModelCCpm0D.get_controls k s forward s1 s2 = Some cs /\
    forall disc path, 0 < disc -> hc_integrate disc s1 cs = Some path -> Forall (fun q => Rabs (st_kappa q) <= k * sharp k s (dubins_gap k s t) + epsilon) path.
Proof. exact (ccpm0_dubins_any k s forward s1 s2). Qed.
Print Assumptions C76_ccpm0_dubins.

Theorem C76_ccpmpm_dubins (k s : R) (forward : bool) (s1 s2 : State) :
  0 < k -> 0 < s -> pos_dist s1 s2 + detour k s < DBL_MAX ->
  exists t cs, ModelCCpmpmD.get_controls k s forward s1 s2 = Some cs /\
    forall disc path, 0 < disc -> hc_integrate disc s1 cs = Some path -> Forall (fun q => Rabs (st_kappa q) <= k * sharp k s (dubins_gap k s t) + epsilon) path.
Proof. exact (ccpmpm_dubins_any k s forward s1 s2). Qed.
Print Assumptions C76_ccpmpm_dubins.

Theorem C76_hc0pm_reeds_shepp (k s : R) (s1 s2 : State) :
  0 < k -> 0 < s -> pos_dist s1 s2 + detour k s < DBL_MAX ->
  exists t cs, ModelHC0pmR.get_controls k s s1 s2 = Some cs /\
    forall disc path, 0 < disc -> hc_integrate disc s1 cs = Some path -> Forall (fun q => Rabs (st_kappa q) <= k * sharp k s (rs_gap k s t) + epsilon) path.
Proof. exact (hc0pm_reeds_shepp_any k s s1 s2). Qed.
Print Assumptions C76_hc0pm_reeds_shepp.

Theorem C76_hcpm0_reeds_shepp (k s : R) (s1 s2 : State) :
  0 < k -> 0 < s -> pos_dist s1 s2 + detour k s < DBL_MAX ->
  exists t cs, ModelHCpm0R.get_controls k s s1 s2 = Some cs /\
    forall disc path, 0 < disc -> hc_integrate disc s1 cs = Some path -> Forall (fun q => Rabs (st_kappa q) <= k * sharp k s (rs_gap k s t) + epsilon) path.
Proof. exact (hcpm0_reeds_shepp_any k s s1 s2). Qed.
Print Assumptions C76_hcpm0_reeds_shepp.

Theorem C76_hcpmpm_reeds_shepp (k s : R) (s1 s2 : State) :
  0 < k -> 0 < s -> pos_dist s1 s2 + detour k s < DBL_MAX ->
  exists t cs, ModelHCpmpmR.get_controls k s s1 s2 = Some cs /\
    forall disc path, 0 < disc -> hc_integrate disc s1 cs = Some path -> Forall (fun q => Rabs (st_kappa q) <= k * sharp k s (rs_gap k s t) + epsilon) path.
Proof. exact (hcpmpm_reeds_shepp_any k s s1 s2). Qed.
Print Assumptions C76_hcpmpm_reeds_shepp.

(** Any curvature within the bound, between states that are far from each other. *)
Theorem C76_cc_dubins_partial (junk k s : R) (forward : bool) (s1 s2 : State) :
  0 < k -> 0 < s -> Rabs (st_kappa s1) <= k -> Rabs (st_kappa s2) <= k -> pos_dist s1 s2 + 2 * detour k s < DBL_MAX ->
  epsilon + 5 * (k / s + 1 / k) <= pos_dist s1 s2 ->
  exists t cs, cc_dubins_controls junk k s forward s1 s2 = Some cs /\
    forall disc path, 0 < disc -> hc_integrate disc s1 cs = Some path -> Forall (fun q => Rabs (st_kappa q) <= k * sharp k s (dubins_gap k s t) + epsilon) path.
Proof. exact (cc_dubins_below junk k s forward s1 s2). Qed.
Print Assumptions C76_cc_dubins_partial.

Theorem C76_hc_reeds_shepp_partial (junk k s : R) (s1 s2 : State) :
  0 < k -> 0 < s -> Rabs (st_kappa s1) <= k -> Rabs (st_kappa s2) <= k -> pos_dist s1 s2 + 2 * detour k s < DBL_MAX ->
  epsilon + 5 * (k / s + 1 / k) <= pos_dist s1 s2 ->
  exists t cs, hc_rs_controls junk k s s1 s2 = Some cs /\
    forall disc path, 0 < disc -> hc_integrate disc s1 cs = Some path -> Forall (fun q => Rabs (st_kappa q) <= k * sharp k s (rs_gap k s t) + epsilon) path.
Proof. exact (hc_reeds_shepp_below junk k s s1 s2). Qed.
Print Assumptions C76_hc_reeds_shepp_partial.

Example C76_far_case : let s1 := mkState 0 0 0 (1 / 2) 1 in let s2 := mkState 60 80 0 (- (1 / 4)) 1 in
  Rabs (st_kappa s1) <= 1 /\ Rabs (st_kappa s2) <= 1 /\ pos_dist s1 s2 + 2 * detour 1 1 < DBL_MAX /\ epsilon + 5 * (1 / 1 + 1 / 1) <= pos_dist s1 s2.
Proof. exact far_case. Qed.

(** Near each other it is false: a predicted state of the start is one of the goal and the lengths of both clothoids are added,
    so that the curvature of the sampled path exceeds the bound 1 by four tenths. *)
Theorem C76_any_curvature_refuted (junk : R) : exists s1 s2 cs path q,
  Rabs (st_kappa s1) <= 1 /\ Rabs (st_kappa s2) <= 1 /\ pos_dist s1 s2 <= 3 /\
  cc_dubins_controls junk 1 1 true s1 s2 = Some cs /\ hc_integrate 1 s1 cs = Some path /\ In q path /\ 14 / 10 < st_kappa q.
Proof. exact (sampled_curvature_refuted junk). Qed.
Print Assumptions C76_any_curvature_refuted.

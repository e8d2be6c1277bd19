(** * Properties C69 and C70: the integrated path follows the controls and ends at the goal *)
From Coq Require Import Reals ZArith List Lra.
From Verif Require Import Base ModelUtil ModelFresnel ModelIntegrate ModelCircle ModelPaths ModelWrap SpecCloth SpecPath SpecTurn SpecPlan SpecSide SpecWrap SpecFollow PlanCases SideProofs WrapCases FollowProofs FollowPlan StateFull StateCases.
From Verif Require ModelCC00D ModelCC0pmD ModelCCpm0D ModelCCpmpmD ModelCC00R ModelHC00R ModelHC0pmR ModelHCpm0R ModelHCpmpmR.
Import ListNotations.
Open Scope R_scope.

(** C69: the states of integrate of the HC/CC spaces lie beside the exact motion along the controls, at most this far:
    the library takes curvatures that differ by at most the tolerance for equal, curvatures below it for straight lines
    and clothoids of a sharpness below it for arcs, and it approximates the Fresnel integrals. *)
Theorem C69_integrate_follows (disc : R) (state : State) (c : Control) (cs : list Control) (path : list State) :
  0 < disc -> hc_integrate disc state (c :: cs) = Some path ->
  exists ss, length ss = length path /\ nth_error ss 0 = Some 0 /\ last ss 0 = total_length (c :: cs) /\
    (forall i a b, nth_error ss i = Some a -> nth_error ss (S i) = Some b -> 0 <= b - a <= disc) /\
    forall i q a, nth_error path i = Some q -> nth_error ss i = Some a -> exists q', true_at state (c :: cs) a q' /\
      pos_dist q q' <= path_drift epsilon a + fresnel_error (c :: cs) /\ heading_within (turn_drift epsilon a) q q'.
Proof. exact (integrate_follows disc state c cs path). Qed.
Print Assumptions C69_integrate_follows.

Theorem C69_interpolate_follows (disc : R) (state : State) (c : Control) (cs : list Control) (t : R) (u : UState) :
  0 < disc -> 0 < t < 1 -> 0 < total_length (c :: cs) -> hc_interpolate disc state (c :: cs) t = Some u ->
  exists q q', u = ustate q /\ let a := t * total_length (c :: cs) in true_at state (c :: cs) a q' /\
    pos_dist q q' <= path_drift epsilon a + fresnel_error (c :: cs) /\ heading_within (turn_drift epsilon a) q q'.
Proof. exact (interpolate_follows disc state c cs t u). Qed.
Print Assumptions C69_interpolate_follows.

(** A clothoid, an arc and the way back on a straight line: 6 metres, sampled every 10 centimetres. *)
Example C69_case : let cs := [mkControl 1 0 1; mkControl 3 1 0; mkControl (-2) 0 0] in
  (exists path, hc_integrate (1 / 10) (mkState 1 2 3 0 1) cs = Some path) /\ total_length cs = 6 /\ path_drift epsilon 6 <= 8 / 1000.
Proof. exact follow_case. Qed.

(** C70: planning between states of zero curvature followed by integrate. *)
Theorem C70_cc00_dubins (k s : R) (forward : bool) (s1 s2 : State) :
  0 < k -> 0 < s -> pos_dist s1 s2 + detour k s < DBL_MAX ->
  exists t L cs, ModelCC00D.get_distance k s forward s1 s2 = Some (Some L) /\ ModelCC00D.get_controls k s forward s1 s2 = Some cs /\
    L <= pos_dist s1 s2 + detour k s /\ Rabs (total_length cs - L) <= dubins_pieces t * dubins_gap k s t + dubins_pieces t * epsilon * p_radius (hc_cc_param k s) /\
    sampled_to (plan_error k s (dubins_pieces t) (dubins_gap k s t) cs + sample_error cs) (dubins_pieces t * epsilon + sample_turn cs) s1 s2 cs.
Proof. exact (cc00_dubins_sampled k s forward s1 s2). Qed.
Print Assumptions C70_cc00_dubins.

Theorem C70_cc00_reeds_shepp (k s : R) (s1 s2 : State) :
  0 < k -> 0 < s -> pos_dist s1 s2 + detour k s < DBL_MAX ->
  exists t L cs, ModelCC00R.get_distance k s s1 s2 = Some (Some L) /\ ModelCC00R.get_controls k s s1 s2 = Some cs /\
    L <= pos_dist s1 s2 + detour k s /\ Rabs (total_length cs - L) <= rs_pieces t * cc_rs_gap k s t + rs_pieces t * epsilon * p_radius (hc_cc_param k s) /\
    sampled_to (plan_error k s (rs_pieces t) (cc_rs_gap k s t) cs + sample_error cs) (rs_pieces t * epsilon + sample_turn cs) s1 s2 cs.
Proof. exact (cc00_reeds_shepp_sampled k s s1 s2). Qed.
Print Assumptions C70_cc00_reeds_shepp.

Theorem C70_hc00_reeds_shepp (k s : R) (s1 s2 : State) :
  0 < k -> 0 < s -> pos_dist s1 s2 + detour k s < DBL_MAX ->
  exists t L cs, ModelHC00R.get_distance k s s1 s2 = Some (Some L) /\ ModelHC00R.get_controls k s s1 s2 = Some cs /\
    L <= pos_dist s1 s2 + detour k s /\ Rabs (total_length cs - L) <= rs_pieces t * rs_gap k s t + rs_pieces t * epsilon * p_radius (hc_cc_param k s) /\
    sampled_to (plan_error k s (rs_pieces t) (rs_gap k s t) cs + sample_error cs) (rs_pieces t * epsilon + sample_turn cs) s1 s2 cs.
Proof. exact (hc00_reeds_shepp_sampled k s s1 s2). Qed.
Print Assumptions C70_hc00_reeds_shepp.

Example C70_case : 0 < 1 /\ 0 < 1 /\ pos_dist (mkState 0 0 0 0 1) (mkState 3 4 PI 0 1) + detour 1 1 < DBL_MAX.
Proof. exact (case_near _ _). Qed.

(** From the bound of the curvature to the bound. *)
Theorem C70_ccpmpm_dubins (k s : R) (forward : bool) (s1 s2 : State) :
  0 < k -> 0 < s -> pos_dist s1 s2 + detour k s < DBL_MAX ->
  exists t L cs, ModelCCpmpmD.get_distance k s forward s1 s2 = Some (Some L) /\ ModelCCpmpmD.get_controls k s forward s1 s2 = Some cs /\
    L <= pos_dist s1 s2 + detour k s /\ Rabs (total_length cs - L) <= dubins_pieces t * dubins_gap k s t + dubins_pieces t * epsilon * p_radius (hc_cc_param k s) /\
    sampled_to (plan_error k s (dubins_pieces t) (dubins_gap k s t) cs + sample_error cs) (dubins_pieces t * epsilon + sample_turn cs) s1 s2 cs.
Proof. exact (ccpmpm_dubins_arrives k s forward s1 s2). Qed.
Print Assumptions C70_ccpmpm_dubins.

Theorem C70_hcpmpm_reeds_shepp (k s : R) (s1 s2 : State) :
  0 < k -> 0 < s -> pos_dist s1 s2 + detour k s < DBL_MAX ->
  exists t L cs, ModelHCpmpmR.get_distance k s s1 s2 = Some (Some L) /\ ModelHCpmpmR.get_controls k s s1 s2 = Some cs /\
    L <= pos_dist s1 s2 + detour k s /\ Rabs (total_length cs - L) <= rs_pieces t * rs_gap k s t + rs_pieces t * epsilon * p_radius (hc_cc_param k s) /\
    sampled_to (plan_error k s (rs_pieces t) (rs_gap k s t) cs + sample_error cs) (rs_pieces t * epsilon + sample_turn cs) s1 s2 cs.
Proof. exact (hcpmpm_reeds_shepp_arrives k s s1 s2). Qed.
Print Assumptions C70_hcpmpm_reeds_shepp.

(** The planners with one end at the bound, between states that are clear of each other (C36-C43: otherwise the controls themselves may end elsewhere). *)
Theorem C70_cc0pm_dubins_partial (k s : R) (forward : bool) (s1 s2 : State) :
  0 < k -> 0 < s -> pos_dist s1 s2 + detour k s < DBL_MAX -> clear_0pm k s s1 s2 ->
  exists t L cs, ModelCC0pmD.get_distance k s forward s1 s2 = Some (Some L) /\ ModelCC0pmD.get_controls k s forward s1 s2 = Some cs /\
    L <= pos_dist s1 s2 + detour k s /\ Rabs (total_length cs - L) <= dubins_pieces t * dubins_gap k s t + dubins_pieces t * epsilon * p_radius (hc_cc_param k s) /\
    sampled_to (plan_error k s (dubins_pieces t) (dubins_gap k s t) cs + sample_error cs) (dubins_pieces t * epsilon + sample_turn cs) s1 s2 cs.
Proof. exact (cc0pm_dubins_sampled k s forward s1 s2). Qed.
Print Assumptions C70_cc0pm_dubins_partial.

Theorem C70_ccpm0_dubins_partial (k s : R) (forward : bool) (s1 s2 : State) :
  0 < k -> 0 < s -> pos_dist s1 s2 + detour k s < DBL_MAX -> clear_pm0 k s s1 s2 ->
  exists t L cs, ModelCCpm0D.get_distance k s forward s1 s2 = Some (Some L) /\ ModelCCpm0D.get_controls k s forward s1 s2 = Some cs /\
    L <= pos_dist s1 s2 + detour k s /\ Rabs (total_length cs - L) <= dubins_pieces t * dubins_gap k s t + dubins_pieces t * epsilon * p_radius (hc_cc_param k s) /\
    sampled_to (plan_error k s (dubins_pieces t) (dubins_gap k s t) cs + sample_error cs) (dubins_pieces t * epsilon + sample_turn cs) s1 s2 cs.
Proof. exact (ccpm0_dubins_sampled k s forward s1 s2). Qed.
Print Assumptions C70_ccpm0_dubins_partial.

Theorem C70_hc0pm_reeds_shepp_partial (k s : R) (s1 s2 : State) :
  0 < k -> 0 < s -> pos_dist s1 s2 + detour k s < DBL_MAX -> clear_0pm k s s1 s2 ->
  exists t L cs, ModelHC0pmR.get_distance k s s1 s2 = Some (Some L) /\ ModelHC0pmR.get_controls k s s1 s2 = Some cs /\
    L <= pos_dist s1 s2 + detour k s /\ Rabs (total_length cs - L) <= rs_pieces t * rs_gap k s t + rs_pieces t * epsilon * p_radius (hc_cc_param k s) /\
    sampled_to (plan_error k s (rs_pieces t) (rs_gap k s t) cs + sample_error cs) (rs_pieces t * epsilon + sample_turn cs) s1 s2 cs.
Proof. exact (hc0pm_reeds_shepp_sampled k s s1 s2). Qed.
Print Assumptions C70_hc0pm_reeds_shepp_partial.

Theorem C70_hcpm0_reeds_shepp_partial (k s : R) (s1 s2 : State) :
  0 < k -> 0 < s -> pos_dist s1 s2 + detour k s < DBL_MAX -> clear_pm0 k s s1 s2 ->
  exists t L cs, ModelHCpm0R.get_distance k s s1 s2 = Some (Some L) /\ ModelHCpm0R.get_controls k s s1 s2 = Some cs /\
    L <= pos_dist s1 s2 + detour k s /\ Rabs (total_length cs - L) <= rs_pieces t * rs_gap k s t + rs_pieces t * epsilon * p_radius (hc_cc_param k s) /\
    sampled_to (plan_error k s (rs_pieces t) (rs_gap k s t) cs + sample_error cs) (rs_pieces t * epsilon + sample_turn cs) s1 s2 cs.
Proof. exact (hcpm0_reeds_shepp_sampled k s s1 s2). Qed.
Print Assumptions C70_hcpm0_reeds_shepp_partial.

Example C70_clear_case (ka kb : R) : let s1 := mkState 0 0 0 ka 1 in let s2 := mkState 60 80 0 kb 1 in
  pos_dist s1 s2 = 100 /\ pos_dist s1 s2 + detour 1 1 < DBL_MAX /\ clear_0pm 1 1 s1 s2 /\ clear_pm0 1 1 s1 s2 /\ clear_pmpm 1 s1 s2.
Proof. exact (far_clear ka kb). Qed.

(** Any curvature within the bound, between states that are far from each other. *)
Theorem C70_cc_dubins_partial (junk k s : R) (forward : bool) (s1 s2 : State) :
  0 < k -> 0 < s ->
  Rabs (st_kappa s1) <= k -> Rabs (st_kappa s2) <= k -> pos_dist s1 s2 + 2 * detour k s < DBL_MAX -> epsilon + 5 * (k / s + 1 / k) <= pos_dist s1 s2 ->
  exists t L cs, cc_dubins_distance junk k s forward s1 s2 = Some (Some L) /\ cc_dubins_controls junk k s forward s1 s2 = Some cs /\
    L <= pos_dist s1 s2 + 2 * detour k s /\ Rabs (total_length cs - L) <= length_gap k s /\
    sampled_to (wrap_error k s (dubins_pieces t) (dubins_gap k s t) cs + sample_error cs) ((dubins_pieces t + 2 * k) * epsilon + sample_turn cs) s1 s2 cs.
Proof. exact (cc_dubins_sampled junk k s forward s1 s2). Qed.
Print Assumptions C70_cc_dubins_partial.

Theorem C70_hc_reeds_shepp_partial (junk k s : R) (s1 s2 : State) :
  0 < k -> 0 < s ->
  Rabs (st_kappa s1) <= k -> Rabs (st_kappa s2) <= k -> pos_dist s1 s2 + 2 * detour k s < DBL_MAX -> epsilon + 5 * (k / s + 1 / k) <= pos_dist s1 s2 ->
  exists t L cs, hc_rs_distance junk k s s1 s2 = Some (Some L) /\ hc_rs_controls junk k s s1 s2 = Some cs /\
    L <= pos_dist s1 s2 + 2 * detour k s /\ Rabs (total_length cs - L) <= length_gap k s /\
    sampled_to (wrap_error k s (rs_pieces t) (rs_gap k s t) cs + sample_error cs) ((rs_pieces t + 2 * k) * epsilon + sample_turn cs) s1 s2 cs.
Proof. exact (hc_reeds_shepp_sampled junk k s s1 s2). Qed.
Print Assumptions C70_hc_reeds_shepp_partial.

Example C70_far_case : let s1 := mkState 0 0 0 (1 / 2) 1 in let s2 := mkState 60 80 0 (- (1 / 4)) 1 in
  Rabs (st_kappa s1) <= 1 /\ Rabs (st_kappa s2) <= 1 /\ pos_dist s1 s2 + 2 * detour 1 1 < DBL_MAX /\
  epsilon + 5 * (1 / 1 + 1 / 1) <= pos_dist s1 s2.
Proof. exact far_case. Qed.

(** Near each other it is false: the last state of every sampled path misses the heading of the goal by more than 9/100 of a radian. *)
Theorem C70_cc_dubins_refuted (junk e : R) : exists s1 s2 cs,
  Rabs (st_kappa s1) <= 1 /\ Rabs (st_kappa s2) <= 1 /\ pos_dist s1 s2 <= 1 /\ cc_dubins_controls junk 1 1 true s1 s2 = Some cs /\
  (exists path, hc_integrate (1 / 10) s1 cs = Some path) /\
  forall disc path, 0 < disc -> hc_integrate disc s1 cs = Some path -> ~ arrives e (9 / 100) s2 path.
Proof. exact (cc_sampled_refuted junk e). Qed.
Print Assumptions C70_cc_dubins_refuted.

Theorem C70_hc_reeds_shepp_refuted (junk e : R) : exists s1 s2 cs,
  Rabs (st_kappa s1) <= 1 /\ Rabs (st_kappa s2) <= 1 /\ pos_dist s1 s2 <= 1 /\ hc_rs_controls junk 1 1 s1 s2 = Some cs /\
  (exists path, hc_integrate (1 / 10) s1 cs = Some path) /\
  forall disc path, 0 < disc -> hc_integrate disc s1 cs = Some path -> ~ arrives e (9 / 100) s2 path.
Proof. exact (hc_sampled_refuted junk e). Qed.
Print Assumptions C70_hc_reeds_shepp_refuted.

(** * Properties of the hybrid-curvature planners *)
From Coq Require Import Reals ZArith List.
From Verif Require Import Base ModelUtil ModelCircle ModelPaths SpecPath SpecTurn SpecPlan PlanRefute PlanCases.
From Verif Require ModelHC00R PlanHC00R ModelHC0pmR PlanHC0pmR ModelHCpm0R PlanHCpm0R ModelHCpmpmR PlanHCpmpmR.
Import ListNotations.
Open Scope R_scope.

(** C39 for HC00_Reeds_Shepp_State_Space. *)
Theorem C39_hc00_reeds_shepp (k s : R) (s1 s2 : State) :
  0 < k -> 0 < s -> pos_dist s1 s2 + detour k s < DBL_MAX ->
  exists t L cs, ModelHC00R.get_distance k s s1 s2 = Some (Some L) /\
    ModelHC00R.get_controls k s s1 s2 = Some cs /\
    L <= pos_dist s1 s2 + detour k s /\ cs <> [] /\
    drives k s (rs_pieces t) (rs_gap k s t) s1 s2 cs L /\
      hybrid 0 cs 0.
Proof. exact (PlanHC00R.hc00_reeds_shepp_plan k s s1 s2). Qed.
Print Assumptions C39_hc00_reeds_shepp.

Example C39_case : 0 < 1 /\ 0 < 1 /\ pos_dist (mkState 0 0 0 0 1) (mkState 3 4 PI 0 1) + detour 1 1 < DBL_MAX.
Proof. exact (case_near _ _). Qed.

(** C41 for HC0pm_Reeds_Shepp_State_Space. The full statement is, for all states,
      exists L cs k1, ... drives ... /\ bound_kappa k s2 k1 /\ hybrid 0 cs k1
    without conditions on the type of the path. It is false: states of the same pose are connected by the
    empty path whatever their curvatures are, and a turn around the start circle is accepted without comparing its side with that of the end circle.
    Proved is the statement for all other paths. *)
Theorem C41_hc0pm_reeds_shepp_partial (k s : R) (s1 s2 : State) :
  0 < k -> 0 < s -> pos_dist s1 s2 + detour k s < DBL_MAX ->
  exists p L cs, ModelHC0pmR.hc0pm_reeds_shepp k s s1 s2 = Some p /\
    ModelHC0pmR.get_distance k s s1 s2 = Some (Some L) /\
    ModelHC0pmR.get_controls k s s1 s2 = Some cs /\
    L <= pos_dist s1 s2 + detour k s /\ cs <> [] /\
    bound_kappa k s2 (q_kappa (h_end p)) /\
    Rabs (total_length cs - L) <= rs_pieces (h_type p) * rs_gap k s (h_type p) + rs_pieces (h_type p) * epsilon * p_radius (hc_cc_param k s) /\
    (h_type p = RS_E ->
      drives k s (rs_pieces (h_type p)) (rs_gap k s (h_type p)) s1 s2 cs L) /\
    (h_type p <> RS_E ->
      (h_type p = RS_T -> forall c, e_cstart (h_entry p) = Some c -> c_kappa c = q_kappa (h_end p)) ->
      drives k s (rs_pieces (h_type p)) (rs_gap k s (h_type p)) s1 s2 cs L /\
      hybrid 0 cs (q_kappa (h_end p))).
Proof. exact (PlanHC0pmR.hc0pm_reeds_shepp_plan k s s1 s2). Qed.
Print Assumptions C41_hc0pm_reeds_shepp_partial.

Example C41_case : 0 < 1 /\ 0 < 1 /\ pos_dist (mkState 0 0 0 0 1) (mkState 3 4 PI 1 1) + detour 1 1 < DBL_MAX.
Proof. exact (case_near _ _). Qed.

(** The path does not have the curvature asked for. *)
Theorem C41_hc0pm_reeds_shepp_refuted : exists k s s1 s2 cs, 0 < k /\ 0 < s /\ ModelHC0pmR.get_controls k s s1 s2 = Some cs /\
  forall k0 k1, k0 = 0 -> bound_kappa k s2 k1 -> ~ hybrid k0 cs k1.
Proof. exists 1, 1, (mkState 0 0 0 0 1), (mkState 0 0 0 1 1). destruct PlanHC0pmR.curvature_lost as [cs C]. exists cs. exact (conj Rlt_0_1 (conj Rlt_0_1 C)). Qed.
Print Assumptions C41_hc0pm_reeds_shepp_refuted.

(** The path of length at most 1 ends more than 0.33 away from the goal. *)
Theorem C41_hc0pm_reeds_shepp_goal_refuted : exists k s s1 s2 L cs, 0 < k /\ 0 < s /\
  ModelHC0pmR.get_distance k s s1 s2 = Some (Some L) /\ ModelHC0pmR.get_controls k s s1 s2 = Some cs /\
  L <= 1 /\ 1 / 3 <= pos_dist (true_path s1 cs) s2.
Proof. exists 1, 1, side_start, side_goal. destruct PlanHC0pmR.wrong_side as (L & cs & C). exists L, cs. exact (conj Rlt_0_1 (conj Rlt_0_1 C)). Qed.
Print Assumptions C41_hc0pm_reeds_shepp_goal_refuted.

(** C42 for HCpm0_Reeds_Shepp_State_Space. The full statement is, for all states,
      exists L cs k0, ... drives ... /\ bound_kappa k s1 k0 /\ hybrid k0 cs 0
    without conditions on the type of the path. It is false: states of the same pose are connected by the
    empty path whatever their curvatures are, and a turn around the end circle is accepted without comparing its side with that of the start circle.
    Proved is the statement for all other paths. *)
Theorem C42_hcpm0_reeds_shepp_partial (k s : R) (s1 s2 : State) :
  0 < k -> 0 < s -> pos_dist s1 s2 + detour k s < DBL_MAX ->
  exists p L cs, ModelHCpm0R.hcpm0_reeds_shepp k s s1 s2 = Some p /\
    ModelHCpm0R.get_distance k s s1 s2 = Some (Some L) /\
    ModelHCpm0R.get_controls k s s1 s2 = Some cs /\
    L <= pos_dist s1 s2 + detour k s /\ cs <> [] /\
    bound_kappa k s1 (q_kappa (h_start p)) /\
    Rabs (total_length cs - L) <= rs_pieces (h_type p) * rs_gap k s (h_type p) + rs_pieces (h_type p) * epsilon * p_radius (hc_cc_param k s) /\
    (h_type p = RS_E ->
      drives k s (rs_pieces (h_type p)) (rs_gap k s (h_type p)) s1 s2 cs L) /\
    (h_type p <> RS_E ->
      (h_type p = RS_T -> forall c, e_cend (h_entry p) = Some c -> c_kappa c = q_kappa (h_start p)) ->
      drives k s (rs_pieces (h_type p)) (rs_gap k s (h_type p)) s1 s2 cs L /\
      hybrid (q_kappa (h_start p)) cs 0).
Proof. exact (PlanHCpm0R.hcpm0_reeds_shepp_plan k s s1 s2). Qed.
Print Assumptions C42_hcpm0_reeds_shepp_partial.

Example C42_case : 0 < 1 /\ 0 < 1 /\ pos_dist (mkState 0 0 0 1 1) (mkState 3 4 PI 0 1) + detour 1 1 < DBL_MAX.
Proof. exact (case_near _ _). Qed.

(** The path does not have the curvature asked for. *)
Theorem C42_hcpm0_reeds_shepp_refuted : exists k s s1 s2 cs, 0 < k /\ 0 < s /\ ModelHCpm0R.get_controls k s s1 s2 = Some cs /\
  forall k0 k1, bound_kappa k s1 k0 -> k1 = 0 -> ~ hybrid k0 cs k1.
Proof. exists 1, 1, (mkState 0 0 0 1 1), (mkState 0 0 0 0 1). destruct PlanHCpm0R.curvature_lost as [cs C]. exists cs. exact (conj Rlt_0_1 (conj Rlt_0_1 C)). Qed.
Print Assumptions C42_hcpm0_reeds_shepp_refuted.

(** The path of length at most 1 ends more than 0.33 away from the goal. *)
Theorem C42_hcpm0_reeds_shepp_goal_refuted : exists k s s1 s2 L cs, 0 < k /\ 0 < s /\
  ModelHCpm0R.get_distance k s s1 s2 = Some (Some L) /\ ModelHCpm0R.get_controls k s s1 s2 = Some cs /\
  L <= 1 /\ 1 / 3 <= pos_dist (true_path s1 cs) s2.
Proof. exists 1, 1, side_start', side_goal'. destruct PlanHCpm0R.wrong_side as (L & cs & C). exists L, cs. exact (conj Rlt_0_1 (conj Rlt_0_1 C)). Qed.
Print Assumptions C42_hcpm0_reeds_shepp_goal_refuted.

(** C43 for HCpmpm_Reeds_Shepp_State_Space. The full statement is, for all states,
      exists L cs k0 k1, ... drives ... /\ bound_kappa k s1 k0 /\ bound_kappa k s2 k1 /\ hybrid k0 cs k1
    without conditions on the type of the path. It is false: states of the same pose are connected by the
    empty path whatever their curvatures are, and a single turn is accepted without comparing its side with that of the end circle.
    Proved is the statement for all other paths. *)
Theorem C43_hcpmpm_reeds_shepp_partial (k s : R) (s1 s2 : State) :
  0 < k -> 0 < s -> pos_dist s1 s2 + detour k s < DBL_MAX ->
  exists p L cs, ModelHCpmpmR.hcpmpm_reeds_shepp k s s1 s2 = Some p /\
    ModelHCpmpmR.get_distance k s s1 s2 = Some (Some L) /\
    ModelHCpmpmR.get_controls k s s1 s2 = Some cs /\
    L <= pos_dist s1 s2 + detour k s /\ cs <> [] /\
    bound_kappa k s1 (q_kappa (h_start p)) /\ bound_kappa k s2 (q_kappa (h_end p)) /\
    drives k s (rs_pieces (h_type p)) (rs_gap k s (h_type p)) s1 s2 cs L /\
    (h_type p <> RS_E ->
      exists k1, hybrid (q_kappa (h_start p)) cs k1 /\ ((h_type p = RS_T -> forall c, e_cstart (h_entry p) = Some c -> c_kappa c = q_kappa (h_end p)) -> k1 = q_kappa (h_end p))).
Proof. exact (PlanHCpmpmR.hcpmpm_reeds_shepp_plan k s s1 s2). Qed.
Print Assumptions C43_hcpmpm_reeds_shepp_partial.

Example C43_case : 0 < 1 /\ 0 < 1 /\ pos_dist (mkState 0 0 0 1 1) (mkState 3 4 PI (-1) 1) + detour 1 1 < DBL_MAX.
Proof. exact (case_near _ _). Qed.

(** The path does not have the curvature asked for. *)
Theorem C43_hcpmpm_reeds_shepp_refuted : exists k s s1 s2 cs, 0 < k /\ 0 < s /\ ModelHCpmpmR.get_controls k s s1 s2 = Some cs /\
  forall k0 k1, bound_kappa k s1 k0 -> bound_kappa k s2 k1 -> ~ hybrid k0 cs k1.
Proof. exists 1, 1, (mkState 0 0 0 1 1), (mkState 0 0 0 (-1) 1). destruct PlanHCpmpmR.curvature_lost as [cs C]. exists cs. exact (conj Rlt_0_1 (conj Rlt_0_1 C)). Qed.
Print Assumptions C43_hcpmpm_reeds_shepp_refuted.

(** * Properties of the continuous-curvature planners *)
From Coq Require Import Reals ZArith List.
From Verif Require Import Base ModelUtil ModelCircle ModelPaths SpecPath SpecTurn SpecPlan PlanRefute PlanCases.
From Verif Require ModelCC00D CC00DProofs ModelCC0pmD PlanCC0pmD ModelCCpm0D PlanCCpm0D ModelCCpmpmD PlanCCpmpmD ModelCC00R PlanCC00R.
Import ListNotations.
Open Scope R_scope.

(** C35, C44 and C27 for CC00_Dubins_State_Space. *)
Theorem C35_cc00_dubins (k s : R) (forward : bool) (s1 s2 : State) :
  0 < k -> 0 < s -> pos_dist s1 s2 + detour k s < DBL_MAX ->
  exists t L cs, ModelCC00D.get_distance k s forward s1 s2 = Some (Some L) /\ ModelCC00D.get_controls k s forward s1 s2 = Some cs /\
    L <= pos_dist s1 s2 + detour k s /\
    drives k s (dubins_pieces t) (dubins_gap k s t) s1 s2 cs L /\ curvature_chain 0 cs 0 /\ cs <> [].
Proof. exact (CC00DProofs.cc00_dubins_plan k s forward s1 s2). Qed.
Print Assumptions C35_cc00_dubins.

Example C35_case : 0 < 1 /\ 0 < 1 /\ pos_dist (mkState 0 0 0 0 1) (mkState 3 4 PI 0 1) + detour 1 1 < DBL_MAX.
Proof. exact (case_near _ _). Qed.

(** The tolerances are small: for unit bounds and a path that is not accepted by a comparison with the
    library tolerance, 30 metres of path end within 12 millimetres of the goal and 3e-4 rad of its heading. *)
Example C35_tolerance (cs : list Control) : total_length cs <= 30 -> fresnel_error cs <= 1 / 10 ^ 6 ->
  plan_error 1 1 (dubins_pieces D_TST) (dubins_gap 1 1 D_TST) cs <= 12 / 1000.
Proof. exact (case_tolerance cs). Qed.

(** C36 for CC0pm_Dubins_State_Space. The full statement is, for all states,
      exists L cs k1, ... drives ... /\ bound_kappa k s2 k1 /\ curvature_chain 0 cs k1
    without conditions on the type of the path. It is false: states of the same pose are connected by the
    empty path whatever their curvatures are, and a turn around the start circle is accepted without comparing its side with that of the end circle.
    Proved is the statement for all other paths. *)
Theorem C36_cc0pm_dubins_partial (k s : R) (forward : bool) (s1 s2 : State) :
  0 < k -> 0 < s -> pos_dist s1 s2 + detour k s < DBL_MAX ->
  exists p L cs, ModelCC0pmD.cc0pm_dubins k s forward s1 s2 = Some p /\
    ModelCC0pmD.get_distance k s forward s1 s2 = Some (Some L) /\
    ModelCC0pmD.get_controls k s forward s1 s2 = Some cs /\
    L <= pos_dist s1 s2 + detour k s /\ cs <> [] /\
    bound_kappa k s2 (q_kappa (h_end p)) /\
    Rabs (total_length cs - L) <= dubins_pieces (h_type p) * dubins_gap k s (h_type p) + dubins_pieces (h_type p) * epsilon * p_radius (hc_cc_param k s) /\
    (h_type p = D_E ->
      drives k s (dubins_pieces (h_type p)) (dubins_gap k s (h_type p)) s1 s2 cs L) /\
    (h_type p <> D_E ->
      (h_type p = D_T -> forall c, e_cstart (h_entry p) = Some c -> c_kappa c = q_kappa (h_end p)) ->
      drives k s (dubins_pieces (h_type p)) (dubins_gap k s (h_type p)) s1 s2 cs L /\
      curvature_chain 0 cs (q_kappa (h_end p))).
Proof. exact (PlanCC0pmD.cc0pm_dubins_plan k s forward s1 s2). Qed.
Print Assumptions C36_cc0pm_dubins_partial.

Example C36_case : 0 < 1 /\ 0 < 1 /\ pos_dist (mkState 0 0 0 0 1) (mkState 3 4 PI 1 1) + detour 1 1 < DBL_MAX.
Proof. exact (case_near _ _). Qed.

(** The path does not have the curvature asked for. *)
Theorem C36_cc0pm_dubins_refuted : exists k s forward s1 s2 cs, 0 < k /\ 0 < s /\ ModelCC0pmD.get_controls k s forward s1 s2 = Some cs /\
  forall k0 k1, k0 = 0 -> bound_kappa k s2 k1 -> ~ curvature_chain k0 cs k1.
Proof. exists 1, 1, true, (mkState 0 0 0 0 1), (mkState 0 0 0 1 1). destruct PlanCC0pmD.curvature_lost as [cs C]. exists cs. exact (conj Rlt_0_1 (conj Rlt_0_1 C)). Qed.
Print Assumptions C36_cc0pm_dubins_refuted.

(** The path of length at most 1 ends more than 0.33 away from the goal. *)
Theorem C36_cc0pm_dubins_goal_refuted : exists k s forward s1 s2 L cs, 0 < k /\ 0 < s /\
  ModelCC0pmD.get_distance k s forward s1 s2 = Some (Some L) /\ ModelCC0pmD.get_controls k s forward s1 s2 = Some cs /\
  L <= 1 /\ 1 / 3 <= pos_dist (true_path s1 cs) s2.
Proof. exists 1, 1, true, side_start, side_goal. destruct PlanCC0pmD.wrong_side as (L & cs & C). exists L, cs. exact (conj Rlt_0_1 (conj Rlt_0_1 C)). Qed.
Print Assumptions C36_cc0pm_dubins_goal_refuted.

(** C37 for CCpm0_Dubins_State_Space. The full statement is, for all states,
      exists L cs k0, ... drives ... /\ bound_kappa k s1 k0 /\ curvature_chain k0 cs 0
    without conditions on the type of the path. It is false: states of the same pose are connected by the
    empty path whatever their curvatures are, and a turn around the end circle is accepted without comparing its side with that of the start circle.
    Proved is the statement for all other paths. *)
Theorem C37_ccpm0_dubins_partial (k s : R) (forward : bool) (s1 s2 : State) :
  0 < k -> 0 < s -> pos_dist s1 s2 + detour k s < DBL_MAX ->
  exists p L cs, ModelCCpm0D.ccpm0_dubins k s forward s1 s2 = Some p /\
    ModelCCpm0D.get_distance k s forward s1 s2 = Some (Some L) /\
    ModelCCpm0D.get_controls k s forward s1 s2 = Some cs /\
    L <= pos_dist s1 s2 + detour k s /\ cs <> [] /\
    bound_kappa k s1 (q_kappa (h_start p)) /\
    Rabs (total_length cs - L) <= dubins_pieces (h_type p) * dubins_gap k s (h_type p) + dubins_pieces (h_type p) * epsilon * p_radius (hc_cc_param k s) /\
    (h_type p = D_E ->
      drives k s (dubins_pieces (h_type p)) (dubins_gap k s (h_type p)) s1 s2 cs L) /\
    (h_type p <> D_E ->
      (h_type p = D_T -> forall c, e_cend (h_entry p) = Some c -> c_kappa c = q_kappa (h_start p)) ->
      drives k s (dubins_pieces (h_type p)) (dubins_gap k s (h_type p)) s1 s2 cs L /\
      curvature_chain (q_kappa (h_start p)) cs 0).
Proof. exact (PlanCCpm0D.ccpm0_dubins_plan k s forward s1 s2). Qed.
Print Assumptions C37_ccpm0_dubins_partial.

Example C37_case : 0 < 1 /\ 0 < 1 /\ pos_dist (mkState 0 0 0 1 1) (mkState 3 4 PI 0 1) + detour 1 1 < DBL_MAX.
Proof. exact (case_near _ _). Qed.

(** The path does not have the curvature asked for. *)
Theorem C37_ccpm0_dubins_refuted : exists k s forward s1 s2 cs, 0 < k /\ 0 < s /\ ModelCCpm0D.get_controls k s forward s1 s2 = Some cs /\
  forall k0 k1, bound_kappa k s1 k0 -> k1 = 0 -> ~ curvature_chain k0 cs k1.
Proof. exists 1, 1, true, (mkState 0 0 0 1 1), (mkState 0 0 0 0 1). destruct PlanCCpm0D.curvature_lost as [cs C]. exists cs. exact (conj Rlt_0_1 (conj Rlt_0_1 C)). Qed.
Print Assumptions C37_ccpm0_dubins_refuted.

(** The path of length at most 1 ends more than 0.33 away from the goal. *)
Theorem C37_ccpm0_dubins_goal_refuted : exists k s forward s1 s2 L cs, 0 < k /\ 0 < s /\
  ModelCCpm0D.get_distance k s forward s1 s2 = Some (Some L) /\ ModelCCpm0D.get_controls k s forward s1 s2 = Some cs /\
  L <= 1 /\ 1 / 3 <= pos_dist (true_path s1 cs) s2.
Proof. exists 1, 1, true, side_start', side_goal'. destruct PlanCCpm0D.wrong_side as (L & cs & C). exists L, cs. exact (conj Rlt_0_1 (conj Rlt_0_1 C)). Qed.
Print Assumptions C37_ccpm0_dubins_goal_refuted.

(** C38 for CCpmpm_Dubins_State_Space. The full statement is, for all states,
      exists L cs k0 k1, ... drives ... /\ bound_kappa k s1 k0 /\ bound_kappa k s2 k1 /\ curvature_chain k0 cs k1
    without conditions on the type of the path. It is false: states of the same pose are connected by the
    empty path whatever their curvatures are, and a single turn is accepted without comparing its side with that of the end circle.
    Proved is the statement for all other paths. *)
Theorem C38_ccpmpm_dubins_partial (k s : R) (forward : bool) (s1 s2 : State) :
  0 < k -> 0 < s -> pos_dist s1 s2 + detour k s < DBL_MAX ->
  exists p L cs, ModelCCpmpmD.ccpmpm_dubins k s forward s1 s2 = Some p /\
    ModelCCpmpmD.get_distance k s forward s1 s2 = Some (Some L) /\
    ModelCCpmpmD.get_controls k s forward s1 s2 = Some cs /\
    L <= pos_dist s1 s2 + detour k s /\ cs <> [] /\
    bound_kappa k s1 (q_kappa (h_start p)) /\ bound_kappa k s2 (q_kappa (h_end p)) /\
    drives k s (dubins_pieces (h_type p)) (dubins_gap k s (h_type p)) s1 s2 cs L /\
    (h_type p <> D_E ->
      exists k1, curvature_chain (q_kappa (h_start p)) cs k1 /\ ((h_type p = D_T -> forall c, e_cstart (h_entry p) = Some c -> c_kappa c = q_kappa (h_end p)) -> k1 = q_kappa (h_end p))).
Proof. exact (PlanCCpmpmD.ccpmpm_dubins_plan k s forward s1 s2). Qed.
Print Assumptions C38_ccpmpm_dubins_partial.

Example C38_case : 0 < 1 /\ 0 < 1 /\ pos_dist (mkState 0 0 0 1 1) (mkState 3 4 PI (-1) 1) + detour 1 1 < DBL_MAX.
Proof. exact (case_near _ _). Qed.

(** The path does not have the curvature asked for. *)
Theorem C38_ccpmpm_dubins_refuted : exists k s forward s1 s2 cs, 0 < k /\ 0 < s /\ ModelCCpmpmD.get_controls k s forward s1 s2 = Some cs /\
  forall k0 k1, bound_kappa k s1 k0 -> bound_kappa k s2 k1 -> ~ curvature_chain k0 cs k1.
Proof. exists 1, 1, true, (mkState 0 0 0 1 1), (mkState 0 0 0 (-1) 1). destruct PlanCCpmpmD.curvature_lost as [cs C]. exists cs. exact (conj Rlt_0_1 (conj Rlt_0_1 C)). Qed.
Print Assumptions C38_ccpmpm_dubins_refuted.

(** The path of length at most 0.01 asks for a jump of the curvature. *)
Theorem C38_ccpmpm_dubins_turn_refuted : exists k s forward s1 s2 L cs, 0 < k /\ 0 < s /\
  ModelCCpmpmD.get_distance k s forward s1 s2 = Some (Some L) /\ ModelCCpmpmD.get_controls k s forward s1 s2 = Some cs /\
  L <= 1 / 100 /\ forall k0 k1, bound_kappa k s1 k0 -> bound_kappa k s2 k1 -> ~ curvature_chain k0 cs k1.
Proof. exists 1, 1, true, turn_start, turn_goal. destruct PlanCCpmpmD.wrong_curvature as (L & cs & C). exists L, cs. exact (conj Rlt_0_1 (conj Rlt_0_1 C)). Qed.
Print Assumptions C38_ccpmpm_dubins_turn_refuted.

(** C40 for CC00_Reeds_Shepp_State_Space. *)
Theorem C40_cc00_reeds_shepp (k s : R) (s1 s2 : State) :
  0 < k -> 0 < s -> pos_dist s1 s2 + detour k s < DBL_MAX ->
  exists t L cs, ModelCC00R.get_distance k s s1 s2 = Some (Some L) /\
    ModelCC00R.get_controls k s s1 s2 = Some cs /\
    L <= pos_dist s1 s2 + detour k s /\ cs <> [] /\
    drives k s (rs_pieces t) (cc_rs_gap k s t) s1 s2 cs L /\
      curvature_chain 0 cs 0.
Proof. exact (PlanCC00R.cc00_reeds_shepp_plan k s s1 s2). Qed.
Print Assumptions C40_cc00_reeds_shepp.

Example C40_case : 0 < 1 /\ 0 < 1 /\ pos_dist (mkState 0 0 0 0 1) (mkState 3 4 PI 0 1) + detour 1 1 < DBL_MAX.
Proof. exact (case_near _ _). Qed.

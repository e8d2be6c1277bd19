(** * Properties of the spaces for states of any curvature *)
From Coq Require Import Reals ZArith List.
From Verif Require Import Base ModelUtil ModelCircle ModelPaths ModelWrap SpecPath SpecTurn SpecPlan SpecSide SpecWrap WrapPredict WrapPlan WrapMin WrapCases.
From Verif Require ModelCC00D ModelCC0pmD ModelCCpm0D ModelCCpmpmD ModelHC00R ModelHC0pmR ModelHCpm0R ModelHCpmpmR.
Import ListNotations.
Open Scope R_scope.

(** [junk] is the content of a member that the library leaves uninitialised; the statements hold for any. *)

Theorem C46_cc_prediction (junk k s : R) (st : State) (forward : bool) : 0 < s ->
  (Rabs (st_kappa st) < epsilon \/ k - Rabs (st_kappa st) < epsilon ->
    cc_predict_state junk k s st forward = [(st, mkControl 0 (st_kappa st) 0)]) /\
  (epsilon <= Rabs (st_kappa st) -> epsilon <= k - Rabs (st_kappa st) ->
      (forall q c, In (q, c) (cc_predict_state junk k s st forward) -> leads k s st c q /\ 0 < sign forward * ct_delta_s c) /\
      (exists q c, In (q, c) (cc_predict_state junk k s st forward) /\ st_kappa q = 0) /\
      (exists q c, In (q, c) (cc_predict_state junk k s st forward) /\ st_kappa q = sgn (st_kappa st) * k)).
Proof. exact (fun Hs => cc_prediction junk k s Hs st forward). Qed.
Print Assumptions C46_cc_prediction.

Theorem C46_hc_prediction (junk k s : R) (st : State) : 0 < s ->
  (Rabs (st_kappa st) < epsilon \/ k - Rabs (st_kappa st) < epsilon ->
    hc_predict_state junk k s st = [(st, mkControl 0 (st_kappa st) 0)]) /\
  (epsilon <= Rabs (st_kappa st) -> epsilon <= k - Rabs (st_kappa st) ->
      (forall q c, In (q, c) (hc_predict_state junk k s st) -> leads k s st c q) /\
      (forall forward,
        (exists q c, In (q, c) (hc_predict_state junk k s st) /\ st_kappa q = 0 /\ 0 < sign forward * ct_delta_s c) /\
        (exists q c, In (q, c) (hc_predict_state junk k s st) /\ st_kappa q = sgn (st_kappa st) * k /\ 0 < sign forward * ct_delta_s c))).
Proof. exact (fun Hs => hc_prediction junk k s Hs st). Qed.
Print Assumptions C46_hc_prediction.

Example C46_case : let st := mkState 1 2 3 (- (1 / 2)) 1 in epsilon <= Rabs (st_kappa st) /\ epsilon <= 1 - Rabs (st_kappa st).
Proof. exact prediction_case. Qed.

(** The full statement of C47 is the conclusion of [C47_..._far_partial] without the condition on the distance. It is
    refuted below: if a predicted state of the goal is the start, the control that should cancel the
    prediction has the sharpness of the wrong operand. *)

Theorem C47_cc_dubins_partial (junk k s : R) (forward : bool) (s1 s2 : State) : 0 < k -> 0 < s ->
  Rabs (st_kappa s1) <= k -> Rabs (st_kappa s2) <= k -> pos_dist s1 s2 + 2 * detour k s < DBL_MAX ->
  exists L cs q1 c1 q2 c2, cc_dubins_distance junk k s forward s1 s2 = Some (Some L) /\ cc_dubins_controls junk k s forward s1 s2 = Some cs /\
    L <= pos_dist s1 s2 + 2 * detour k s /\ Rabs (total_length cs - L) <= length_gap k s /\ cs <> [] /\
    In (q1, c1) (cc_predict_state junk k s s1 forward) /\ In (q2, c2) (cc_predict_state junk k s s2 (negb forward)) /\
    (state_equal q1 q2 = true -> cs = [subtract_control c1 c2]) /\
    (state_equal q1 q2 = false -> clear_pair k s q1 q2 -> exists t,
      connects k s (dubins_pieces t) (dubins_gap k s t) s1 s2 cs /\
      continuous_curvature s (st_kappa s1) cs (st_kappa s2)).
Proof. exact (fun Hk Hs => cc_space k s Hk Hs junk forward s1 s2). Qed.
Print Assumptions C47_cc_dubins_partial.

Theorem C47_cc_dubins_far_partial (junk k s : R) (forward : bool) (s1 s2 : State) : 0 < k -> 0 < s ->
  Rabs (st_kappa s1) <= k -> Rabs (st_kappa s2) <= k -> pos_dist s1 s2 + 2 * detour k s < DBL_MAX ->
  epsilon + 5 * (k / s + 1 / k) <= pos_dist s1 s2 ->
  cc_dubins_asserts junk k s forward s1 s2 /\ exists t L cs, cc_dubins_distance junk k s forward s1 s2 = Some (Some L) /\ cc_dubins_controls junk k s forward s1 s2 = Some cs /\
    L <= pos_dist s1 s2 + 2 * detour k s /\ Rabs (total_length cs - L) <= length_gap k s /\ cs <> [] /\
    connects k s (dubins_pieces t) (dubins_gap k s t) s1 s2 cs /\
    continuous_curvature s (st_kappa s1) cs (st_kappa s2).
Proof. exact (fun Hk Hs => cc_far k s Hk Hs junk forward s1 s2). Qed.
Print Assumptions C47_cc_dubins_far_partial.

Theorem C47_cc_dubins_straight_partial (junk k s : R) (forward : bool) (s1 s2 : State) : 0 < k -> 0 < s ->
  Rabs (st_kappa s1) < epsilon -> Rabs (st_kappa s2) < epsilon ->
  Rabs (st_kappa s1) <= k -> Rabs (st_kappa s2) <= k -> pos_dist s1 s2 + 2 * detour k s < DBL_MAX ->
  cc_dubins_asserts junk k s forward s1 s2 /\ exists t L cs, cc_dubins_distance junk k s forward s1 s2 = Some (Some L) /\ cc_dubins_controls junk k s forward s1 s2 = Some cs /\
    L <= pos_dist s1 s2 + 2 * detour k s /\ Rabs (total_length cs - L) <= length_gap k s /\ cs <> [] /\
    connects k s (dubins_pieces t) (dubins_gap k s t) s1 s2 cs /\
    continuous_curvature s (st_kappa s1) cs (st_kappa s2).
Proof. exact (fun Hk Hs => cc_flat k s Hk Hs junk forward s1 s2). Qed.
Print Assumptions C47_cc_dubins_straight_partial.

Theorem C47_cc_dubins_refuted (junk : R) : exists s1 s2 cs,
  Rabs (st_kappa s1) <= 1 /\ Rabs (st_kappa s2) <= 1 /\ pos_dist s1 s2 <= 1 /\ cc_dubins_controls junk 1 1 true s1 s2 = Some cs /\
  ~ heading_within (1 / 10) (true_path s1 cs) s2 /\ ~ cc_dubins_asserts junk 1 1 true s1 s2.
Proof. exact (cc_refuted junk). Qed.
Print Assumptions C47_cc_dubins_refuted.

Theorem C47_hc_reeds_shepp_partial (junk k s : R) (s1 s2 : State) : 0 < k -> 0 < s ->
  Rabs (st_kappa s1) <= k -> Rabs (st_kappa s2) <= k -> pos_dist s1 s2 + 2 * detour k s < DBL_MAX ->
  exists L cs q1 c1 q2 c2, hc_rs_distance junk k s s1 s2 = Some (Some L) /\ hc_rs_controls junk k s s1 s2 = Some cs /\
    L <= pos_dist s1 s2 + 2 * detour k s /\ Rabs (total_length cs - L) <= length_gap k s /\ cs <> [] /\
    In (q1, c1) (hc_predict_state junk k s s1) /\ In (q2, c2) (hc_predict_state junk k s s2) /\
    (state_equal q1 q2 = true -> cs = [subtract_control c1 c2]) /\
    (state_equal q1 q2 = false -> clear_pair k s q1 q2 -> exists t,
      connects k s (rs_pieces t) (rs_gap k s t) s1 s2 cs /\
      hybrid_curvature s (st_kappa s1) cs (st_kappa s2)).
Proof. exact (fun Hk Hs => hc_space k s Hk Hs junk s1 s2). Qed.
Print Assumptions C47_hc_reeds_shepp_partial.

Theorem C47_hc_reeds_shepp_far_partial (junk k s : R) (s1 s2 : State) : 0 < k -> 0 < s ->
  Rabs (st_kappa s1) <= k -> Rabs (st_kappa s2) <= k -> pos_dist s1 s2 + 2 * detour k s < DBL_MAX ->
  epsilon + 5 * (k / s + 1 / k) <= pos_dist s1 s2 ->
  hc_rs_asserts junk k s s1 s2 /\ exists t L cs, hc_rs_distance junk k s s1 s2 = Some (Some L) /\ hc_rs_controls junk k s s1 s2 = Some cs /\
    L <= pos_dist s1 s2 + 2 * detour k s /\ Rabs (total_length cs - L) <= length_gap k s /\ cs <> [] /\
    connects k s (rs_pieces t) (rs_gap k s t) s1 s2 cs /\
    hybrid_curvature s (st_kappa s1) cs (st_kappa s2).
Proof. exact (fun Hk Hs => hc_far k s Hk Hs junk s1 s2). Qed.
Print Assumptions C47_hc_reeds_shepp_far_partial.

Theorem C47_hc_reeds_shepp_straight_partial (junk k s : R) (s1 s2 : State) : 0 < k -> 0 < s ->
  Rabs (st_kappa s1) < epsilon -> Rabs (st_kappa s2) < epsilon ->
  Rabs (st_kappa s1) <= k -> Rabs (st_kappa s2) <= k -> pos_dist s1 s2 + 2 * detour k s < DBL_MAX ->
  hc_rs_asserts junk k s s1 s2 /\ exists t L cs, hc_rs_distance junk k s s1 s2 = Some (Some L) /\ hc_rs_controls junk k s s1 s2 = Some cs /\
    L <= pos_dist s1 s2 + 2 * detour k s /\ Rabs (total_length cs - L) <= length_gap k s /\ cs <> [] /\
    connects k s (rs_pieces t) (rs_gap k s t) s1 s2 cs /\
    hybrid_curvature s (st_kappa s1) cs (st_kappa s2).
Proof. exact (fun Hk Hs => hc_flat k s Hk Hs junk s1 s2). Qed.
Print Assumptions C47_hc_reeds_shepp_straight_partial.

Theorem C47_hc_reeds_shepp_refuted (junk : R) : exists s1 s2 cs,
  Rabs (st_kappa s1) <= 1 /\ Rabs (st_kappa s2) <= 1 /\ pos_dist s1 s2 <= 1 /\ hc_rs_controls junk 1 1 s1 s2 = Some cs /\
  ~ heading_within (1 / 10) (true_path s1 cs) s2 /\ ~ hc_rs_asserts junk 1 1 s1 s2.
Proof. exact (hc_refuted junk). Qed.
Print Assumptions C47_hc_reeds_shepp_refuted.

Theorem C47_cc_dubins_curvature_refuted (junk : R) : exists s1 s2 cs,
  Rabs (st_kappa s1) <= 1 /\ Rabs (st_kappa s2) <= 1 /\ pos_dist s1 s2 <= 3 /\ cc_dubins_controls junk 1 1 true s1 s2 = Some cs /\
  ~ List.Forall (within_bounds (14 / 10) 1) cs /\ ~ cc_dubins_asserts junk 1 1 true s1 s2.
Proof. exact (cc_curvature_refuted junk). Qed.
Print Assumptions C47_cc_dubins_curvature_refuted.

Example C47_far_case : let s1 := mkState 0 0 0 (1 / 2) 1 in let s2 := mkState 60 80 0 (- (1 / 4)) 1 in
  Rabs (st_kappa s1) <= 1 /\ Rabs (st_kappa s2) <= 1 /\ pos_dist s1 s2 + 2 * detour 1 1 < DBL_MAX /\
  epsilon + 5 * (1 / 1 + 1 / 1) <= pos_dist s1 s2.
Proof. exact far_case. Qed.

Example C47_straight_case : let s1 := mkState 0 0 0 0 1 in let s2 := mkState 0 0 0 0 1 in
  Rabs (st_kappa s1) < epsilon /\ Rabs (st_kappa s2) < epsilon /\ Rabs (st_kappa s1) <= 1 /\ Rabs (st_kappa s2) <= 1 /\
  pos_dist s1 s2 + 2 * detour 1 1 < DBL_MAX.
Proof. exact flat_case. Qed.

Theorem C44_any_curvature (junk k s : R) (forward : bool) (s1 s2 : State) : 0 < k -> 0 < s ->
  Rabs (st_kappa s1) <= k -> Rabs (st_kappa s2) <= k -> pos_dist s1 s2 + 2 * detour k s < DBL_MAX ->
  (exists L, cc_dubins_distance junk k s forward s1 s2 = Some (Some L)) /\
  (exists cs, cc_dubins_controls junk k s forward s1 s2 = Some cs) /\
  (exists L, hc_rs_distance junk k s s1 s2 = Some (Some L)) /\
  (exists cs, hc_rs_controls junk k s s1 s2 = Some cs).
Proof. exact (wrap_found junk k s forward s1 s2). Qed.
Print Assumptions C44_any_curvature.

Theorem C27_any_curvature (junk k s : R) (forward : bool) (s1 s2 : State) : 0 < k -> 0 < s ->
  Rabs (st_kappa s1) <= k -> Rabs (st_kappa s2) <= k -> pos_dist s1 s2 + 2 * detour k s < DBL_MAX ->
  (forall cs, cc_dubins_controls junk k s forward s1 s2 = Some cs -> cs <> []) /\
  (forall cs, hc_rs_controls junk k s s1 s2 = Some cs -> cs <> []).
Proof. exact (wrap_nonempty junk k s forward s1 s2). Qed.
Print Assumptions C27_any_curvature.

(** C60: the result is the shortest over all pairs of a predicted start and a predicted goal; predictions not longer
    than the library tolerance are dropped from it. *)
Theorem C60_cc_dubins_shortest (junk k s : R) (forward : bool) (s1 s2 : State) : 0 < k -> 0 < s ->
  pos_dist s1 s2 + 2 * detour k s < DBL_MAX ->
  exists L cs, cc_dubins_distance junk k s forward s1 s2 = Some (Some L) /\ cc_dubins_controls junk k s forward s1 s2 = Some cs /\
    (forall q1 c1 q2 c2, In (q1, c1) (cc_predict_state junk k s s1 forward) -> In (q2, c2) (cc_predict_state junk k s s2 (negb forward)) ->
      (state_equal q1 q2 = true ->
        L <= Rabs (ct_delta_s c1 - ct_delta_s c2) /\ total_length cs <= Rabs (ct_delta_s c1 - ct_delta_s c2)) /\
      (state_equal q1 q2 = false -> forall D mid,
        by_curvature q1 q2 (ModelCC00D.get_distance k s forward q1 q2 = Some (Some D)) (ModelCC0pmD.get_distance k s forward q1 q2 = Some (Some D))
          (ModelCCpm0D.get_distance k s forward q1 q2 = Some (Some D)) (ModelCCpmpmD.get_distance k s forward q1 q2 = Some (Some D)) ->
        by_curvature q1 q2 (ModelCC00D.get_controls k s forward q1 q2 = Some mid) (ModelCC0pmD.get_controls k s forward q1 q2 = Some mid)
          (ModelCCpm0D.get_controls k s forward q1 q2 = Some mid) (ModelCCpmpmD.get_controls k s forward q1 q2 = Some mid) ->
        L <= Rabs (ct_delta_s c1) + D + Rabs (ct_delta_s c2) /\
        total_length cs <= Rabs (ct_delta_s c1) + total_length mid + Rabs (ct_delta_s c2))) /\
    (exists q1 c1 q2 c2, In (q1, c1) (cc_predict_state junk k s s1 forward) /\ In (q2, c2) (cc_predict_state junk k s s2 (negb forward)) /\
      (state_equal q1 q2 = true /\ L = Rabs (ct_delta_s c1 - ct_delta_s c2) \/
       state_equal q1 q2 = false /\ exists D,
        by_curvature q1 q2 (ModelCC00D.get_distance k s forward q1 q2 = Some (Some D)) (ModelCC0pmD.get_distance k s forward q1 q2 = Some (Some D))
          (ModelCCpm0D.get_distance k s forward q1 q2 = Some (Some D)) (ModelCCpmpmD.get_distance k s forward q1 q2 = Some (Some D)) /\
        Rabs (ct_delta_s c1) + D + Rabs (ct_delta_s c2) - 2 * epsilon <= L <= Rabs (ct_delta_s c1) + D + Rabs (ct_delta_s c2))).
Proof. exact (fun Hk Hs => cc_min k s Hk Hs junk forward s1 s2). Qed.
Print Assumptions C60_cc_dubins_shortest.

Theorem C60_hc_reeds_shepp_shortest (junk k s : R) (s1 s2 : State) : 0 < k -> 0 < s ->
  pos_dist s1 s2 + 2 * detour k s < DBL_MAX ->
  exists L cs, hc_rs_distance junk k s s1 s2 = Some (Some L) /\ hc_rs_controls junk k s s1 s2 = Some cs /\
    (forall q1 c1 q2 c2, In (q1, c1) (hc_predict_state junk k s s1) -> In (q2, c2) (hc_predict_state junk k s s2) ->
      (state_equal q1 q2 = true ->
        L <= Rabs (ct_delta_s c1 - ct_delta_s c2) /\ total_length cs <= Rabs (ct_delta_s c1 - ct_delta_s c2)) /\
      (state_equal q1 q2 = false -> forall D mid,
        by_curvature q1 q2 (ModelHC00R.get_distance k s q1 q2 = Some (Some D)) (ModelHC0pmR.get_distance k s q1 q2 = Some (Some D))
          (ModelHCpm0R.get_distance k s q1 q2 = Some (Some D)) (ModelHCpmpmR.get_distance k s q1 q2 = Some (Some D)) ->
        by_curvature q1 q2 (ModelHC00R.get_controls k s q1 q2 = Some mid) (ModelHC0pmR.get_controls k s q1 q2 = Some mid)
          (ModelHCpm0R.get_controls k s q1 q2 = Some mid) (ModelHCpmpmR.get_controls k s q1 q2 = Some mid) ->
        L <= Rabs (ct_delta_s c1) + D + Rabs (ct_delta_s c2) /\
        total_length cs <= Rabs (ct_delta_s c1) + total_length mid + Rabs (ct_delta_s c2))) /\
    (exists q1 c1 q2 c2, In (q1, c1) (hc_predict_state junk k s s1) /\ In (q2, c2) (hc_predict_state junk k s s2) /\
      (state_equal q1 q2 = true /\ L = Rabs (ct_delta_s c1 - ct_delta_s c2) \/
       state_equal q1 q2 = false /\ exists D,
        by_curvature q1 q2 (ModelHC00R.get_distance k s q1 q2 = Some (Some D)) (ModelHC0pmR.get_distance k s q1 q2 = Some (Some D))
          (ModelHCpm0R.get_distance k s q1 q2 = Some (Some D)) (ModelHCpmpmR.get_distance k s q1 q2 = Some (Some D)) /\
        Rabs (ct_delta_s c1) + D + Rabs (ct_delta_s c2) - 2 * epsilon <= L <= Rabs (ct_delta_s c1) + D + Rabs (ct_delta_s c2))).
Proof. exact (fun Hk Hs => hc_min k s Hk Hs junk s1 s2). Qed.
Print Assumptions C60_hc_reeds_shepp_shortest.

(** Without predictions the result is that of the planner for the two curvatures. *)
Theorem C60_cc_dubins_direct (junk k s : R) (forward : bool) (s1 s2 : State) :
  (Rabs (st_kappa s1) < epsilon \/ k - Rabs (st_kappa s1) < epsilon) ->
  (Rabs (st_kappa s2) < epsilon \/ k - Rabs (st_kappa s2) < epsilon) -> state_equal s1 s2 = false ->
  let D := cc_dubins_distance junk k s forward s1 s2 in let C := cc_dubins_controls junk k s forward s1 s2 in
  by_curvature s1 s2 (D = ModelCC00D.get_distance k s forward s1 s2) (D = ModelCC0pmD.get_distance k s forward s1 s2)
    (D = ModelCCpm0D.get_distance k s forward s1 s2) (D = ModelCCpmpmD.get_distance k s forward s1 s2) /\
  by_curvature s1 s2 (C = ModelCC00D.get_controls k s forward s1 s2) (C = ModelCC0pmD.get_controls k s forward s1 s2)
    (C = ModelCCpm0D.get_controls k s forward s1 s2) (C = ModelCCpmpmD.get_controls k s forward s1 s2).
Proof. exact (cc_direct junk k s forward s1 s2). Qed.
Print Assumptions C60_cc_dubins_direct.

Theorem C60_hc_reeds_shepp_direct (junk k s : R) (s1 s2 : State) :
  (Rabs (st_kappa s1) < epsilon \/ k - Rabs (st_kappa s1) < epsilon) ->
  (Rabs (st_kappa s2) < epsilon \/ k - Rabs (st_kappa s2) < epsilon) -> state_equal s1 s2 = false ->
  let D := hc_rs_distance junk k s s1 s2 in let C := hc_rs_controls junk k s s1 s2 in
  by_curvature s1 s2 (D = ModelHC00R.get_distance k s s1 s2) (D = ModelHC0pmR.get_distance k s s1 s2)
    (D = ModelHCpm0R.get_distance k s s1 s2) (D = ModelHCpmpmR.get_distance k s s1 s2) /\
  by_curvature s1 s2 (C = ModelHC00R.get_controls k s s1 s2) (C = ModelHC0pmR.get_controls k s s1 s2)
    (C = ModelHCpm0R.get_controls k s s1 s2) (C = ModelHCpmpmR.get_controls k s s1 s2).
Proof. exact (hc_direct junk k s s1 s2). Qed.
Print Assumptions C60_hc_reeds_shepp_direct.

Example C60_case : let s1 := mkState 0 0 0 (1 / 2) 1 in let s2 := mkState 60 80 0 (- (1 / 4)) 1 in pos_dist s1 s2 + 2 * detour 1 1 < DBL_MAX.
Proof. exact (proj1 (proj2 (proj2 far_case))). Qed.

Example C60_direct_case : let s1 := mkState 0 0 0 0 1 in let s2 := mkState 3 4 0 1 1 in
  (Rabs (st_kappa s1) < epsilon \/ 1 - Rabs (st_kappa s1) < epsilon) /\
  (Rabs (st_kappa s2) < epsilon \/ 1 - Rabs (st_kappa s2) < epsilon) /\ state_equal s1 s2 = false.
Proof. exact direct_case. Qed.

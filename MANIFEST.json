{
 "claims": [
  {
   "property": "C01",
   "status": "proved",
   "theorems": [
    "C01_twopify"
   ],
   "note": ""
  },
  {
   "property": "C02",
   "status": "partial",
   "theorems": [
    "C02_pify_half_open_refuted",
    "C02_pify_partial"
   ],
   "note": "As documented (half-open interval) refuted at pi; closed interval and congruence proved."
  },
  {
   "property": "C03",
   "status": "proved",
   "theorems": [
    "C03_polar"
   ],
   "note": ""
  },
  {
   "property": "C04",
   "status": "proved",
   "theorems": [
    "C04_frame_roundtrip",
    "C04_frame_isometry",
    "C04_frame_axes"
   ],
   "note": ""
  },
  {
   "property": "C05",
   "status": "proved",
   "theorems": [
    "C05_array_index_min",
    "C05_array_index_min_defined"
   ],
   "note": ""
  },
  {
   "property": "C06",
   "status": "proved",
   "theorems": [
    "C06_fresnel_odd",
    "C06_fresnel_zero"
   ],
   "note": ""
  },
  {
   "property": "C07",
   "status": "proved",
   "theorems": [
    "C07_fresnel_accuracy"
   ],
   "note": "Bound 2e-15 for both integrals, all arguments, in exact arithmetic."
  },
  {
   "property": "C08",
   "status": "proved",
   "theorems": [
    "C08_straight_line",
    "C08_circular_arc"
   ],
   "note": ""
  },
  {
   "property": "C09",
   "status": "proved",
   "theorems": [
    "C09_clothoid_solves_motion",
    "C09_clothoid_start",
    "C09_clothoid_semigroup"
   ],
   "note": "Position error bound 8e-15*sqrt(pi/|sigma|); heading, curvature, start and composition law exact."
  },
  {
   "property": "C10",
   "status": "proved",
   "theorems": [
    "C10_controls_reach_goal",
    "C10_path_reaches_goal",
    "C10_small_curvature_refuted"
   ],
   "note": "Proved above the integrator's 1e-4 threshold as stated; C10_small_curvature_refuted shows the threshold is needed."
  },
  {
   "property": "C11",
   "status": "proved",
   "theorems": [
    "C11_distance_is_length"
   ],
   "note": ""
  },
  {
   "property": "C12",
   "status": "proved",
   "theorems": [
    "C12_distance_is_shortest"
   ],
   "note": ""
  },
  {
   "property": "C13",
   "status": "proved",
   "theorems": [
    "C13_assertions_hold",
    "C13_lengths_nonnegative"
   ],
   "note": ""
  },
  {
   "property": "C14",
   "status": "proved",
   "theorems": [
    "C14_backward_is_reversed_forward",
    "C14_backward_retraces"
   ],
   "note": ""
  },
  {
   "property": "C15",
   "status": "partial",
   "theorems": [
    "C15_rigid_motion_refuted",
    "C15_rigid_motion_partial"
   ],
   "note": "Refuted for coincident positions with almost equal headings across the 2 pi wrap-around; proved in all other cases."
  },
  {
   "property": "C16",
   "status": "proved",
   "theorems": [
    "C16_curvature_and_direction"
   ],
   "note": ""
  },
  {
   "property": "C17",
   "status": "proved",
   "theorems": [
    "C17_controls_reach_goal",
    "C17_path_reaches_goal"
   ],
   "note": ""
  },
  {
   "property": "C18",
   "status": "proved",
   "theorems": [
    "C18_distance_is_length"
   ],
   "note": ""
  },
  {
   "property": "C19",
   "status": "proved",
   "theorems": [
    "C19_path_exists",
    "C19_distance_is_shortest",
    "C19_shortest_candidate"
   ],
   "note": ""
  },
  {
   "property": "C20",
   "status": "partial",
   "theorems": [
    "C20_controls_shape_partial",
    "C20_zero_length_refuted"
   ],
   "note": "Number of controls, curvatures and sharpness proved; 'none of zero length' refuted (goal straight ahead gives left 0, straight, left 0)."
  },
  {
   "property": "C21",
   "status": "proved",
   "theorems": [
    "C21_assertions_hold"
   ],
   "note": ""
  },
  {
   "property": "C22",
   "status": "proved",
   "theorems": [
    "C22_rigid_motion"
   ],
   "note": ""
  },
  {
   "property": "C23",
   "status": "proved",
   "theorems": [
    "C23_integrate_endpoint",
    "C23_hc_integrate_endpoint",
    "C23_hc_integrate_endpoint_nominal",
    "C23_discretization_independent",
    "C23_hc_discretization_independent",
    "C23_curvature_linear",
    "C23_integrate_defined",
    "C23_hc_integrate_defined"
   ],
   "note": ""
  },
  {
   "property": "C24",
   "status": "proved",
   "theorems": [
    "C24_sampling",
    "C24_hc_sampling"
   ],
   "note": ""
  },
  {
   "property": "C25",
   "status": "proved",
   "theorems": [
    "C25_interpolate",
    "C25_hc_interpolate"
   ],
   "note": ""
  },
  {
   "property": "C26",
   "status": "partial",
   "theorems": [
    "C26_interpolate_initialised_refuted",
    "C26_interpolate_initialised_partial",
    "C26_hc_interpolate_initialised"
   ],
   "note": "Refuted for Dubins and Reeds-Shepp at t <= 0; proved for t > 0 and for all HC/CC spaces."
  },
  {
   "property": "C27",
   "status": "proved",
   "theorems": [
    "C27_controls_nonempty",
    "C27_any_curvature"
   ],
   "note": "All nine planners and the two spaces for states of any curvature (C27_any_curvature)."
  },
  {
   "property": "C28",
   "status": "partial",
   "theorems": [
    "C28_filter_run_psd_partial",
    "C28_update_finite",
    "C28_rs_path_psd",
    "C28_hc_path_psd",
    "C28_zero_noise_refuted"
   ],
   "note": "Proved for any run of predictions and finite updates and, with positive measurement noise, along every path; refuted for zero measurement noise (the update gives NaN when Sigma is singular)."
  },
  {
   "property": "C29",
   "status": "proved",
   "theorems": [
    "C29_update_decreases",
    "C29_joseph_form"
   ],
   "note": ""
  },
  {
   "property": "C30",
   "status": "proved",
   "theorems": [
    "C30_predict_total",
    "C30_update_total",
    "C30_rs_path_total",
    "C30_hc_path_total",
    "C30_update_keeps_total"
   ],
   "note": ""
  },
  {
   "property": "C31",
   "status": "partial",
   "theorems": [
    "C31_clothoid_jacobian",
    "C31_arc_jacobian",
    "C31_straight_jacobian_partial",
    "C31_straight_jacobian_refuted"
   ],
   "note": "Proved for clothoids (Fresnel error bound), arcs (exact); straight lines: exact except the curvature column of F_u, which the code sets to zero (refuted)."
  },
  {
   "property": "C32",
   "status": "proved",
   "theorems": [
    "C32_cc_turn_reaches",
    "C32_cc_turn_returns",
    "C32_hc_turn_reaches",
    "C32_hc_turn_returns",
    "C32_rs_turn_reaches",
    "C32_rs_turn_returns"
   ],
   "note": "Explicit tolerances: distance g of the target from the circle, Fresnel error ~1e-14, the deflection-below-1e-4 shortcut and the neglected clothoid for kappa/sigma <= 1e-4."
  },
  {
   "property": "C33",
   "status": "proved",
   "theorems": [
    "C33_rs_turn_length",
    "C33_hc_turn_length",
    "C33_cc_turn_length",
    "C33_cc_turn_length_short"
   ],
   "note": "Exact for rs/hc and for cc with deflection >= 1e-4; bound radius*deflection (+ miss distance) in the shortcut."
  },
  {
   "property": "C34",
   "status": "proved",
   "theorems": [
    "C34_cc_turn_continuous",
    "C34_hc_turn_continuous",
    "C34_rs_turn_continuous",
    "C34_cc_turn_bounds",
    "C34_hc_turn_bounds",
    "C34_rs_turn_bounds"
   ],
   "note": "Exact for rs and hc; the elementary cc path respects kappa*m and sigma*m^2, m = 1+1e-9 for exactly tangent targets (Fresnel error), larger m for targets that miss the circle."
  },
  {
   "property": "C35",
   "status": "proved",
   "theorems": [
    "C35_cc00_dubins"
   ],
   "note": "Always a path, with explicit tolerances (1e-4 shortcuts, Fresnel error); also gives C44 and C27 for this space."
  },
  {
   "property": "C36",
   "status": "partial",
   "theorems": [
    "C36_cc0pm_dubins_partial",
    "C36_cc0pm_dubins_refuted",
    "C36_cc0pm_dubins_goal_refuted",
    "C36_cc0pm_dubins_clear_partial"
   ],
   "note": "Up to the tolerances stated in SpecPlan.v (plan_error, sharp). The full statement is false. States of the same pose are connected by the empty path although their curvatures differ (_refuted), and a turn is accepted when the centres of the two circles coincide although they turn to opposite sides; a path of length 1 then ends more than 0.33 away from the goal (_goal_refuted). Proved for all other paths, and the length and the finite detour for all paths."
  },
  {
   "property": "C37",
   "status": "partial",
   "theorems": [
    "C37_ccpm0_dubins_partial",
    "C37_ccpm0_dubins_refuted",
    "C37_ccpm0_dubins_goal_refuted",
    "C37_ccpm0_dubins_clear_partial"
   ],
   "note": "Up to the tolerances stated in SpecPlan.v (plan_error, sharp). The full statement is false. States of the same pose are connected by the empty path although their curvatures differ (_refuted), and a turn is accepted when the centres of the two circles coincide although they turn to opposite sides; a path of length 1 then ends more than 0.33 away from the goal (_goal_refuted). Proved for all other paths, and the length and the finite detour for all paths."
  },
  {
   "property": "C38",
   "status": "partial",
   "theorems": [
    "C38_ccpmpm_dubins_partial",
    "C38_ccpmpm_dubins_refuted",
    "C38_ccpmpm_dubins_turn_refuted",
    "C38_ccpmpm_dubins_clear_partial"
   ],
   "note": "Up to the tolerances stated in SpecPlan.v (plan_error, sharp). The full statement is false. States of the same pose are connected by the empty path although their curvatures differ (_refuted), and a single turn is accepted although it ends with the opposite curvature (_turn_refuted). Proved for all other paths; position, heading, length and bounds for all paths."
  },
  {
   "property": "C39",
   "status": "proved",
   "theorems": [
    "C39_hc00_reeds_shepp"
   ],
   "note": "Up to the tolerances stated in SpecPlan.v (plan_error, sharp). The curvature is continuous except where the driving direction changes (hybrid)."
  },
  {
   "property": "C40",
   "status": "proved",
   "theorems": [
    "C40_cc00_reeds_shepp"
   ],
   "note": "Up to the tolerances stated in SpecPlan.v (plan_error, sharp). Two turns that meet at a cusp are accepted by a comparison with the library tolerance; the gap this leaves is cusp_gap."
  },
  {
   "property": "C41",
   "status": "partial",
   "theorems": [
    "C41_hc0pm_reeds_shepp_partial",
    "C41_hc0pm_reeds_shepp_refuted",
    "C41_hc0pm_reeds_shepp_goal_refuted",
    "C41_hc0pm_reeds_shepp_clear_partial"
   ],
   "note": "Up to the tolerances stated in SpecPlan.v (plan_error, sharp). The full statement is false. States of the same pose are connected by the empty path although their curvatures differ (_refuted), and a turn is accepted when the centres of the two circles coincide although they turn to opposite sides; a path of length 1 then ends more than 0.33 away from the goal (_goal_refuted). Proved for all other paths, and the length and the finite detour for all paths."
  },
  {
   "property": "C42",
   "status": "partial",
   "theorems": [
    "C42_hcpm0_reeds_shepp_partial",
    "C42_hcpm0_reeds_shepp_refuted",
    "C42_hcpm0_reeds_shepp_goal_refuted",
    "C42_hcpm0_reeds_shepp_clear_partial"
   ],
   "note": "Up to the tolerances stated in SpecPlan.v (plan_error, sharp). The full statement is false. States of the same pose are connected by the empty path although their curvatures differ (_refuted), and a turn is accepted when the centres of the two circles coincide although they turn to opposite sides; a path of length 1 then ends more than 0.33 away from the goal (_goal_refuted). Proved for all other paths, and the length and the finite detour for all paths."
  },
  {
   "property": "C43",
   "status": "partial",
   "theorems": [
    "C43_hcpmpm_reeds_shepp_partial",
    "C43_hcpmpm_reeds_shepp_refuted",
    "C43_hcpmpm_reeds_shepp_clear_partial"
   ],
   "note": "Up to the tolerances stated in SpecPlan.v (plan_error, sharp). The full statement is false. States of the same pose are connected by the empty path although their curvatures differ (_refuted). A single turn is also accepted without comparing its curvature at the end. Proved for all other paths; position, heading, length and bounds for all paths."
  },
  {
   "property": "C44",
   "status": "proved",
   "theorems": [
    "C44_a_path_is_found",
    "C44_any_curvature"
   ],
   "note": "All nine planners and the two spaces for states of any curvature (C44_any_curvature), as long as distance plus detour stays below DBL_MAX (the initial value of the minimum search)."
  },
  {
   "property": "C45",
   "status": "proved",
   "theorems": [
    "C45_reverse_involutive",
    "C45_reverse_returns",
    "C45_reverse_curvature"
   ],
   "note": ""
  },
  {
   "property": "C46",
   "status": "proved",
   "theorems": [
    "C46_cc_prediction",
    "C46_hc_prediction"
   ],
   "note": "Up to the error of the Fresnel integrals, about 1e-14."
  },
  {
   "property": "C47",
   "status": "partial",
   "theorems": [
    "C47_cc_dubins_partial",
    "C47_cc_dubins_far_partial",
    "C47_cc_dubins_straight_partial",
    "C47_cc_dubins_refuted",
    "C47_hc_reeds_shepp_partial",
    "C47_hc_reeds_shepp_far_partial",
    "C47_hc_reeds_shepp_straight_partial",
    "C47_hc_reeds_shepp_refuted",
    "C47_cc_dubins_curvature_refuted"
   ],
   "note": "The full statement is false: if the start is a predicted state of the goal, subtract_control gets controls of different sharpness, its assertion fails and (with assertions off) the returned arc misses the heading by 1/8 rad (_refuted, both spaces); if predicted states of start and goal meet, the returned clothoid reaches curvature 1.5 with bound 1 (_curvature_refuted). Proved: distance and controls always exist and agree in length; the path reaches the goal within bounds with continuous (CC) or hybrid (HC) curvature if start and goal are far apart (_far_partial), if both have curvature 0 (_straight_partial), and otherwise whenever the chosen predicted states differ and are clear of each other (_partial)."
  },
  {
   "property": "C48",
   "status": "proved",
   "theorems": [
    "C48_history"
   ],
   "note": "For all eleven HC/CC spaces, every sequence of calls on any objects and every initial content of the members distance and angle. The reads of one case are modelled as one read of each member."
  },
  {
   "property": "C49",
   "status": "partial",
   "theorems": [
    "C49_refuted",
    "C49_objects_partial"
   ],
   "note": "False as stated: the const planning functions write the members distance and angle; a schedule of two threads on one CC00_Dubins_State_Space makes a call return at most 90 instead of at least 900 (_refuted). Proved: calls on different objects are undisturbed under every schedule (_objects_partial). The data race itself is undefined behaviour in C++; the model gives it sequentially consistent semantics, the mildest possible."
  },
  {
   "property": "C50",
   "status": "partial",
   "theorems": [
    "C50_configuration_equal_refuted",
    "C50_state_equal_refuted",
    "C50_configuration_equal_partial"
   ],
   "note": "Refuted across the 0/2pi cut for Configuration and for the path tests; exact characterisation of the test otherwise."
  },
  {
   "property": "C51",
   "status": "partial",
   "theorems": [
    "C51_twopify_refuted",
    "C51_twopify_negative_refuted",
    "C51_twopify_first_turn_partial",
    "C51_twopify_range_partial"
   ],
   "note": "False as stated: twopify of a small negative double is TWO_PI itself, and the least negative double is returned unchanged (_refuted). Proved: doubles of the first turn are returned unchanged, and for every argument range and congruence hold up to (|a|+8)/2^51. Modelled with binary64 rounding (Flocq), without overflow."
  },
  {
   "property": "C52",
   "status": "proved",
   "theorems": [
    "C52_planners_free_what_they_allocate"
   ],
   "note": "For all nine planners, every outcome of the branches on numbers: no dereferencing or deleting of objects that are not allocated, nothing left at the end of get_distance and get_controls. That the selected path and its members are not null where they are dereferenced is C44."
  },
  {
   "property": "C53",
   "status": "proved",
   "theorems": [
    "C53_rs_mean_path",
    "C53_hc_mean_path"
   ],
   "note": ""
  },
  {
   "property": "C54",
   "status": "proved",
   "theorems": [
    "C54_rs_distance_euclid",
    "C54_dubins_distance_euclid"
   ],
   "note": ""
  },
  {
   "property": "C55",
   "status": "proved",
   "theorems": [
    "C55_pify_exact"
   ],
   "note": "binary64 rounding modelled with Flocq; fmod is exact by definition."
  },
  {
   "property": "C56",
   "status": "proved",
   "theorems": [
    "C56_cc_dubins",
    "C56_hc_reeds_shepp"
   ],
   "note": "Proved for both spaces that predict states."
  },
  {
   "property": "C57",
   "status": "partial",
   "theorems": [
    "C57_zero_curvature_partial",
    "C57_curvature_bound_partial",
    "C57_any_curvature_partial",
    "C57_cc0pm_dubins_refuted",
    "C57_hcpm0_reeds_shepp_refuted",
    "C57_any_curvature_refuted"
   ],
   "note": "Full statement for the spaces with zero curvature at both ends; for the others between states that are clear of each other (C36-C43, C47); refuted without that: case T of the 0pm/pm0 planners returns a distance of at most 1 for a goal 1.375 away. For states of any curvature refuted where predicted states coincide: HC_Reeds_Shepp returns distance 0 for states 0.2 apart (_any_curvature_refuted)."
  },
  {
   "property": "C58",
   "status": "proved",
   "theorems": [
    "C58_cc00_dubins",
    "C58_cc0pm_dubins",
    "C58_ccpm0_dubins",
    "C58_ccpmpm_dubins",
    "C58_cc_dubins"
   ],
   "note": "All four CC Dubins planners and the CC_Dubins space. Exact (tolerance 0) for the families S, TST, TTT, TTTT; families T and TT may go back by a multiple of the tolerance with which they accept a mismatch."
  },
  {
   "property": "C59",
   "status": "proved",
   "theorems": [
    "C59_cc00_dubins",
    "C59_cc0pm_dubins",
    "C59_ccpm0_dubins",
    "C59_ccpmpm_dubins",
    "C59_cc00_reeds_shepp",
    "C59_hc00_reeds_shepp",
    "C59_hc0pm_reeds_shepp",
    "C59_hcpm0_reeds_shepp",
    "C59_hcpmpm_reeds_shepp"
   ],
   "note": "All nine planners; exact, except that the straight line between the states enters the bound (the planners take it for aligned states). Goals that the library takes, up to its tolerance, for the end of a single turn are excluded. Clothoids longer than the tolerance (epsilon < k/s). Paths with cusps: C63."
  },
  {
   "property": "C60",
   "status": "proved",
   "theorems": [
    "C60_cc_dubins_shortest",
    "C60_hc_reeds_shepp_shortest",
    "C60_cc_dubins_direct",
    "C60_hc_reeds_shepp_direct"
   ],
   "note": "Both spaces; predictions not longer than the library tolerance 1e-4 are dropped from the distance, so the minimum is attained up to twice the tolerance."
  },
  {
   "property": "C61",
   "status": "proved",
   "theorems": [
    "C61_estimation_uncertainty",
    "C61_control_spread",
    "C61_closed_loop_unique",
    "C61_arc"
   ],
   "note": "Exact; on arcs also stated with the derivatives of the motion instead of the library's matrices. How close the matrices are to the derivatives on clothoids and straight lines is C31."
  },
  {
   "property": "C62",
   "status": "proved",
   "theorems": [
    "C62_rs_path",
    "C62_hc_path"
   ],
   "note": "All three kinds of spaces."
  },
  {
   "property": "C63",
   "status": "proved",
   "theorems": [
    "C63_cc00_reeds_shepp",
    "C63_hc00_reeds_shepp",
    "C63_hc0pm_reeds_shepp",
    "C63_hcpm0_reeds_shepp",
    "C63_hcpmpm_reeds_shepp"
   ],
   "note": "All five Reeds-Shepp planners; exact, except that the straight line between the states enters the bound (the planners take it for aligned states). Excluded: goals that the library takes, up to its tolerance, for the end of a single turn; coinciding circles of a first and last turn to the same side; for CC00 the shape C|S|C with a straight line shorter than two clothoids (the planner assumes that the line leads back past them). The longer shapes: C64."
  },
  {
   "property": "C64",
   "status": "proved",
   "theorems": [
    "C64_cc00_reeds_shepp",
    "C64_hc00_reeds_shepp",
    "C64_hc0pm_reeds_shepp",
    "C64_hcpm0_reeds_shepp",
    "C64_hcpmpm_reeds_shepp"
   ],
   "note": "All five Reeds-Shepp planners; exact, with the exclusions of C63. For a crossing line next to a cusp only the combinations of side and direction for which the planner places the middle circle so that the middle turn is a quarter turn (DESIGN.md section 5), and for CC|CC the range of the middle turns whose circles the planner chooses."
  },
  {
   "property": "C65",
   "status": "proved",
   "theorems": [
    "C65_cc00_dubins_turn",
    "C65_cc0pm_dubins_turn",
    "C65_ccpm0_dubins_turn",
    "C65_ccpmpm_dubins_turn",
    "C65_cc00_reeds_shepp_turn",
    "C65_hc00_reeds_shepp_turn",
    "C65_hc0pm_reeds_shepp_turn",
    "C65_hcpm0_reeds_shepp_turn",
    "C65_hcpmpm_reeds_shepp_turn",
    "C65_cc00_dubins_line",
    "C65_cc00_reeds_shepp_line",
    "C65_hc00_reeds_shepp_line"
   ],
   "note": "All nine planners; exact. For the planners between states of zero curvature the straight line between the states enters the bound of the turns as in C59. These are the goals that C59, C63 and C64 exclude."
  },
  {
   "property": "C66",
   "status": "proved",
   "theorems": [
    "C66_ccpmpm_dubins"
   ],
   "note": "Exact, for the goals that are not at the end of one turn (C65). The middle turns sweep a full circle together because the planner only looks at isosceles trapezoids; of the two trapezoids for circles closer than 2 radii the planner looks at the crossed one only (DESIGN.md section 5)."
  },
  {
   "property": "C67",
   "status": "proved",
   "theorems": [
    "C67_shift",
    "C67_turns",
    "C67_any_curvature_shift",
    "C67_any_curvature_turns"
   ],
   "note": "All nine planners and the two spaces for states of any curvature, no hypothesis on the states: both hold exactly, in every branch."
  },
  {
   "property": "C68",
   "status": "partial",
   "theorems": [
    "C68_zero_curvature_partial",
    "C68_cc00_dubins_partial",
    "C68_one_end_partial",
    "C68_curvature_bound_partial",
    "C68_rotation_refuted"
   ],
   "note": "False for states the library compares by their normalised headings, with a tolerance that does not wrap at 2 pi (C68_rotation_refuted; the cause is that of C50). Proved exactly for all other states: poses that are not taken for equal or aligned, goals for which no single turn is accepted, turns with different centres (for the four spaces with exactly one end of zero curvature: different poses suffice). The remaining hypothesis is a sharpness that makes the clothoids longer than the tolerance."
  },
  {
   "property": "C69",
   "status": "proved",
   "theorems": [
    "C69_integrate_follows",
    "C69_interpolate_follows"
   ],
   "note": "All control lists, without conditions; the bound adds a curvature error of at most 2e-4 at the start of every control and a sharpness error of at most 1e-4."
  },
  {
   "property": "C70",
   "status": "partial",
   "theorems": [
    "C70_cc00_dubins",
    "C70_cc00_reeds_shepp",
    "C70_hc00_reeds_shepp",
    "C70_ccpmpm_dubins",
    "C70_hcpmpm_reeds_shepp",
    "C70_cc0pm_dubins_partial",
    "C70_ccpm0_dubins_partial",
    "C70_hc0pm_reeds_shepp_partial",
    "C70_hcpm0_reeds_shepp_partial",
    "C70_cc_dubins_partial",
    "C70_hc_reeds_shepp_partial",
    "C70_cc_dubins_refuted",
    "C70_hc_reeds_shepp_refuted"
   ],
   "note": "Unconditional for the five planners between states of zero curvature and from bound to bound; for the planners with one end at the bound between states that are clear of each other, because otherwise the controls themselves end elsewhere (C36, C37, C41, C42, refuted there); for any curvature between states that are far from each other, false near each other (C70_cc_dubins_refuted, C70_hc_reeds_shepp_refuted: the last sample misses the heading of the goal). The drift of integrate grows with the cube of the length because clothoids of sharpness below 1e-4 are driven as arcs."
  },
  {
   "property": "C71",
   "status": "partial",
   "theorems": [
    "C71_reeds_shepp_mirror",
    "C71_reeds_shepp_about",
    "C71_dubins_mirror_partial",
    "C71_dubins_mirror_refuted",
    "C71_dubins_about_partial",
    "C71_dubins_about_refuted"
   ],
   "note": "Exact and without conditions for Reeds-Shepp. For Dubins false between states at the same place with nearly equal headings (C71_dubins_mirror_refuted, C71_dubins_about_refuted): the code answers zero only if the goal is turned to the left. Proved for all other states."
  },
  {
   "property": "C72",
   "status": "partial",
   "theorems": [
    "C72_reeds_shepp_exchange_partial",
    "C72_reeds_shepp_way_back_partial"
   ],
   "note": "Proved for plans without a segment of exactly half a turn; open for such plans (for example a goal at the end of a single half turn), because the solvers normalise a heading difference of pi to either sign."
  },
  {
   "property": "C73",
   "status": "partial",
   "theorems": [
    "C73_steps_add_up",
    "C73_number_of_steps",
    "C73_step_length_partial",
    "C73_step_length_refuted",
    "C73_end_of_the_steps"
   ],
   "note": "With the rounding of every operation of the loop (Flocq). That no step is negative is false (C73_step_length_refuted: length 4.9, discretization 0.98, six steps, the last one backwards by 4.4e-16); all other parts are proved in full. The motion along a step is exact here, its rounding is not modelled."
  },
  {
   "property": "C74",
   "status": "partial",
   "theorems": [
    "C74_rs_heading",
    "C74_dubins_heading",
    "C74_zero_curvature",
    "C74_bound_to_bound",
    "C74_zero_and_bound",
    "C74_any_curvature_partial",
    "C74_any_curvature_refuted"
   ],
   "note": "Exact for Reeds-Shepp, up to 1e-6 for Dubins. Unconditional for the nine HC/CC planners, also where their path ends beside the goal. For the two spaces for states of any curvature when start and goal are not close to each other (_partial); false for HC_Reeds_Shepp where predicted states coincide: distance 0 between states whose headings differ by 1 (_any_curvature_refuted)."
  },
  {
   "property": "C75",
   "status": "partial",
   "theorems": [
    "C75_zero_curvature",
    "C75_zero_and_bound",
    "C75_bound_to_bound_partial",
    "C75_any_curvature_partial"
   ],
   "note": "In full between states of zero curvature (also for CC00_Reeds_Shepp), and without the straight line as a second bound where one end has the curvature bound. Between states of the curvature bound open where the Dubins plan consists of four turns (TTTT), which the Reeds-Shepp planner does not try; no such plan is returned between states further apart than 14*(kappa/sigma+1/kappa). For states of any curvature when start and goal are not close to each other."
  },
  {
   "property": "C76",
   "status": "partial",
   "theorems": [
    "C76_dubins",
    "C76_backward_refuted",
    "C76_reeds_shepp",
    "C76_integrate",
    "C76_interpolate",
    "C76_sharpness_partial",
    "C76_sharpness_refuted",
    "C76_cc00_dubins",
    "C76_cc00_reeds_shepp",
    "C76_hc00_reeds_shepp",
    "C76_cc0pm_dubins",
    "C76_ccpm0_dubins",
    "C76_ccpmpm_dubins",
    "C76_hc0pm_reeds_shepp",
    "C76_hcpm0_reeds_shepp",
    "C76_hcpmpm_reeds_shepp",
    "C76_cc_dubins_partial",
    "C76_hc_reeds_shepp_partial",
    "C76_any_curvature_refuted"
   ],
   "note": "Curvature in full for Dubins, Reeds-Shepp, integrate and interpolate of any controls within the bounds, and all nine planners of fixed end curvatures (also where the plan ends elsewhere); for any curvature between states far from each other, false near each other (C76_any_curvature_refuted: the samples exceed the bound by four tenths). That a backward Dubins path has direction -1 everywhere is false at controls of length 0, where sgn(0) = 1 (C76_backward_refuted). The bound on the change of the curvature holds for clothoids sharper than 1e-4 and is false below (C76_sharpness_refuted)."
  },
  {
   "property": "C77",
   "status": "partial",
   "theorems": [
    "C77_end",
    "C77_fraction",
    "C77_steps",
    "C77_monotone",
    "C77_parts_partial",
    "C77_parts_refuted",
    "C77_no_step"
   ],
   "note": "With the rounding of every operation (Flocq), overflow excluded. That the driven part of the last control is never negative is false (C77_parts_refuted: lengths 1 and 3*2^-54, t = 1-2^-52); no step is made then (C77_no_step). All other parts are proved in full, for lists of at most 2^50 controls."
  },
  {
   "property": "C78",
   "status": "partial",
   "theorems": [
    "C78_cc_dubins_mixed",
    "C78_hc_reeds_shepp_mixed",
    "C78_cc00_dubins_partial",
    "C78_cc00_reeds_shepp_partial",
    "C78_hc00_reeds_shepp_partial",
    "C78_ccpmpm_dubins_partial",
    "C78_hcpmpm_reeds_shepp_partial",
    "C78_turn_refuted",
    "C78_cc_dubins_partial",
    "C78_hc_reeds_shepp_partial"
   ],
   "note": "In full between a state of zero curvature and one of the curvature bound. Between states of zero curvature and between states of the curvature bound where no single turn joins them (within the tolerance of the code) and their turns have no common centre; false otherwise, because a turn can be recognised one way only (C78_turn_refuted). For states of any curvature when start and goal are at least 10*(kappa/sigma+1/kappa)+1e-4 apart. All for kappa/sigma > 1e-4 and distances below DBL_MAX."
  },
  {
   "property": "C79",
   "status": "proved",
   "theorems": [
    "C79_step",
    "C79_path",
    "C79_end",
    "C79_usual_sizes"
   ],
   "note": "With the rounding of every operation (Flocq), overflow excluded; sin and cos of the C library are parameters with an error of at most 2^-52 for doubles. Curvatures are 0 or above epsilon (what the code takes for an arc) and at most 10^6. The controls are given: the rounding in the planners is not part of this. The last state is compared with the exact motion along the controls themselves (not only their steps)."
  },
  {
   "property": "C80",
   "status": "partial",
   "theorems": [
    "C80_plan",
    "C80_heading",
    "C80_length",
    "C80_path",
    "C80_distance",
    "C80_assertions_partial",
    "C80_turn_assert_refuted"
   ],
   "note": "With the rounding of every operation (Flocq), overflow excluded; sin, cos, acos and atan2 of the C library are parameters with small errors (SpecDubins64.v), so the choice among words of nearly equal length is whatever rounding makes it. The assertions on the ends of the words hold as computed; the assertion t >= 0 of the constructor of Dubins_Path fails for a heading of the smallest double, because twopify returns a negative value then (C80_turn_assert_refuted). That the planned length is the shortest one up to rounding is not shown."
  },
  {
   "property": "C81",
   "status": "proved",
   "theorems": [
    "C81_turn_assertions",
    "C81_length_assertions"
   ],
   "note": "In exact reals. The predicates asserts_* (ModelAsserts.v) list the assertions of the calls made by get_controls of each planner, calls_* (ModelCalls.v) those of the calls that measure the candidates, with the lines. C81_turn_assertions also states that the plan exists and the controls are built without a null pointer; C81_length_assertions covers a call whether or not the existence test of the candidate succeeds."
  },
  {
   "property": "C82",
   "status": "partial",
   "theorems": [
    "C82_hc0pm_reeds_shepp_partial",
    "C82_hcpm0_reeds_shepp_partial",
    "C82_cc0pm_dubins_partial",
    "C82_ccpm0_dubins_partial",
    "C82_hc00_reeds_shepp_partial",
    "C82_cc00_reeds_shepp_partial",
    "C82_cc00_dubins_partial",
    "C82_hcpmpm_reeds_shepp_partial",
    "C82_ccpmpm_dubins_partial",
    "C82_about_refuted"
   ],
   "note": "For all nine planners, for states that differ by more than the tolerance of the code and distances below DBL_MAX; between states of zero curvature also if neither lies straight ahead of the other and no single turn joins them, between states of the curvature bound also if no single turn joins them. False without the first condition, because headings are compared without regard to full turns (C82_about_refuted). Missing: the states of any curvature (predicted states of CC_Dubins and HC_Reeds_Shepp)."
  },
  {
   "property": "C83",
   "status": "partial",
   "theorems": [
    "C83_dubins",
    "C83_reeds_shepp_partial",
    "C83_reeds_shepp_equal_partial"
   ],
   "note": "Dubins: distance and controls in full. Reeds-Shepp: full turns never make the distance longer, and leave it equal, for plans without a segment of half a turn or more; open for other plans, because the solvers normalise a remaining turn of pi to either sign (as in C72)."
  },
  {
   "property": "C84",
   "status": "proved",
   "theorems": [
    "C84_dubins",
    "C84_reeds_shepp"
   ],
   "note": "In full, for distance and controls. For the HC/CC spaces see C85."
  },
  {
   "property": "C85",
   "status": "partial",
   "theorems": [
    "C85_unit_refuted"
   ],
   "note": "False as stated: positions are compared with an absolute tolerance, so that a plan of length at least 1 becomes the empty path in a unit in which start and goal are closer than 1e-4 (C85_unit_refuted, for CC0pm_Dubins). No positive part is proved."
  }
 ]
}
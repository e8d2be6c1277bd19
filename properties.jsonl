{"id": "C01", "title": "Angle normalisation to [0,2*pi)", "statement": "twopify(a) returns a value in [0, 2*pi) that differs from a by an integer multiple of 2*pi, for every angle a; it is idempotent and two angles that agree modulo 2*pi get the same representative.", "quantifier": "every real angle a, of any magnitude and sign", "why_tests_cant": "the angle domain is unbounded and continuous; tests sample a bounded interval", "anchors": ["src/utilities/utilities.cpp: twopify", "include/steering_functions/utilities/utilities.hpp: twopify"]}
{"id": "C02", "title": "Angle normalisation to [-pi,pi)", "statement": "pify(a) returns a value in the documented half-open interval [-pi, pi) that differs from a by an integer multiple of 2*pi, for every angle a.", "quantifier": "every real angle a", "why_tests_cant": "boundary values (odd multiples of pi) have measure zero, random tests never hit them", "anchors": ["src/utilities/utilities.cpp: pify", "include/steering_functions/utilities/utilities.hpp: pify"]}
{"id": "C03", "title": "Polar conversion round trip", "statement": "polar(x,y) yields r >= 0 and theta with r*cos(theta)=x and r*sin(theta)=y for every point, including the origin and both axes.", "quantifier": "every point of the plane", "why_tests_cant": "quadrant and axis cases of atan2 must all be covered", "anchors": ["src/utilities/utilities.cpp: polar"]}
{"id": "C04", "title": "Frame changes are inverse isometries", "statement": "global_frame_change and local_frame_change are mutually inverse for every frame, and the global image of two local points is exactly as far apart as the local points are.", "quantifier": "every frame (x,y,theta) and every pair of points", "why_tests_cant": "algebraic law over five or seven real parameters", "anchors": ["src/utilities/utilities.cpp: global_frame_change, local_frame_change"]}
{"id": "C05", "title": "Candidate selection returns the first minimum", "statement": "array_index_min over any non-empty array returns an in-range index whose entry is <= every other entry and strictly smaller than every earlier entry; entries that are not numbers at positions other than the first are never selected.", "quantifier": "every array content and every length >= 1", "why_tests_cant": "all orderings, ties and unordered (NaN) entries", "anchors": ["src/utilities/utilities.cpp: array_index_min"]}
{"id": "C06", "title": "Fresnel integrals are odd and vanish at 0", "statement": "fresnel(-s) returns the negated results of fresnel(s) for every s, and fresnel(0)=(0,0).", "quantifier": "every real argument", "why_tests_cant": "continuous unbounded domain", "anchors": ["src/utilities/utilities.cpp: fresnel, fresnel_0_8, fresnel_8_inf"]}
{"id": "C07", "title": "Fresnel approximation accuracy", "statement": "For every s the values returned by fresnel(s) differ from the true Fresnel integrals of cos(pi/2*u^2) and sin(pi/2*u^2) over [0,s] by at most a fixed tiny constant.", "quantifier": "every real argument, both Chebyshev branches", "why_tests_cant": "a uniform error bound over a continuum cannot be sampled", "anchors": ["src/utilities/utilities.cpp: fresnel, fresnel_0_8, fresnel_8_inf", "include/steering_functions/utilities/fresnel.data"]}
{"id": "C08", "title": "Straight lines and arcs solve the vehicle's equations of motion", "statement": "end_of_straight_line and end_of_circular_arc, seen as functions of the length driven, start at the given pose and satisfy dx/ds=d*cos(theta), dy/ds=d*sin(theta), dtheta/ds=d*kappa at every length, for every start pose, direction and non-zero curvature.", "quantifier": "every start pose, every curvature, both directions, every length", "why_tests_cant": "differential law over a continuum", "anchors": ["src/utilities/utilities.cpp: end_of_straight_line, end_of_circular_arc"]}
{"id": "C09", "title": "Clothoids solve the vehicle's equations of motion", "statement": "end_of_clothoid, seen as a function of the length driven, starts at the given pose, has exactly the heading and curvature of a curve of constant sharpness, its position stays within a fixed small multiple of the Fresnel accuracy of the true solution of the equations of motion, and driving L1 then L2 is the same as driving L1+L2.", "quantifier": "every start pose, curvature, non-zero sharpness, direction and length", "why_tests_cant": "differential law and semigroup law over a continuum", "anchors": ["src/utilities/utilities.cpp: end_of_clothoid"]}
{"id": "C10", "title": "Dubins controls lead to the goal", "statement": "Following the controls returned by Dubins_State_Space::get_controls(state1,state2) from state1 ends at the position and heading (mod 2*pi) of state2, up to the solver's published 1e-6/1e-9 tolerances, whether the space drives forwards or backwards.", "quantifier": "every pair of poses, every curvature bound above the integrator's 1e-4 threshold, both directions", "why_tests_cant": "six words over a four-dimensional continuum; degenerate alignments have measure zero", "anchors": ["src/dubins_state_space/dubins_state_space.cpp: dubins, dubinsLSL..dubinsLRL, get_controls, integrate"]}
{"id": "C11", "title": "Dubins distance is the length of the returned path", "statement": "get_distance(state1,state2) equals the sum of |delta_s| over get_controls(state1,state2), for every pair of poses and both driving directions.", "quantifier": "every pair of poses, every positive curvature bound, both directions", "why_tests_cant": "must hold for every word and the degenerate branch", "anchors": ["src/dubins_state_space/dubins_state_space.cpp: get_distance, get_controls"]}
{"id": "C12", "title": "Dubins distance is the shortest", "statement": "get_distance is a lower bound for the length of every Dubins word (CSC with any non-negative angles, CCC with middle arc longer than pi) that joins the two poses.", "quantifier": "every pair of poses and every competing three-segment path", "why_tests_cant": "universally quantified competitor paths", "anchors": ["src/dubins_state_space/dubins_state_space.cpp: dubins"]}
{"id": "C13", "title": "Dubins planning never trips an assertion", "statement": "No assertion in the Dubins word solvers or path constructor can fail and every returned segment length is non-negative, for every pair of poses.", "quantifier": "every pair of poses", "why_tests_cant": "assertions guard closed-form geometry on a continuum", "anchors": ["src/dubins_state_space/dubins_state_space.cpp: dubinsLSL..dubinsLRL", "include/steering_functions/dubins_state_space/dubins_state_space.hpp: Dubins_Path"]}
{"id": "C14", "title": "Backward Dubins is time-reversed forward Dubins", "statement": "A backward-driving Dubins space returns for (state1,state2) the forward distance of (state2,state1), and its controls are the forward controls for (state2,state1) in reverse order with negated lengths.", "quantifier": "every pair of poses", "why_tests_cant": "relational property between two configurations of the API", "anchors": ["src/dubins_state_space/dubins_state_space.cpp: get_distance, get_controls"]}
{"id": "C15", "title": "Dubins planning is invariant under rigid motions", "statement": "Translating and rotating both poses by the same rigid motion changes neither the Dubins distance nor the controls.", "quantifier": "every rigid motion and every pair of poses", "why_tests_cant": "relational property over a continuum of transformations", "anchors": ["src/dubins_state_space/dubins_state_space.cpp: dubins, get_controls, get_distance"]}
{"id": "C16", "title": "Dubins paths respect the curvature bound and driving direction", "statement": "Every control returned has curvature in {0,+kappa,-kappa}, sharpness 0, and non-negative length (non-positive for backward driving); there are exactly three controls.", "quantifier": "every pair of poses, both directions", "why_tests_cant": "holds for all words", "anchors": ["src/dubins_state_space/dubins_state_space.cpp: get_controls, dubins_path_type"]}
{"id": "C17", "title": "Reeds-Shepp controls lead to the goal", "statement": "Following the controls returned by Reeds_Shepp_State_Space::get_controls(state1,state2) from state1 ends exactly at the position and heading (mod 2*pi) of state2.", "quantifier": "every pair of poses, every curvature bound above the integrator's threshold", "why_tests_cant": "48 words over a three-dimensional continuum with measure-zero boundary cases", "anchors": ["src/reeds_shepp_state_space/reeds_shepp_state_space.cpp: reeds_shepp, CSC, CCC, CCCC, CCSC, CCSCC, get_controls"]}
{"id": "C18", "title": "Reeds-Shepp distance is the length of the returned path", "statement": "get_distance(state1,state2) equals the sum of |delta_s| over get_controls(state1,state2).", "quantifier": "every pair of poses, every positive curvature bound", "why_tests_cant": "every word, every sign pattern", "anchors": ["src/reeds_shepp_state_space/reeds_shepp_state_space.cpp: get_distance, get_controls, Reeds_Shepp_Path::length"]}
{"id": "C19", "title": "Reeds-Shepp always finds a path and keeps the shortest candidate", "statement": "For every pair of poses the solver returns a genuine path (never the sentinel of length DBL_MAX), whose length is minimal among all candidates the 12 word formulas produce under time-flip, reflection and backward symmetry.", "quantifier": "every pair of poses", "why_tests_cant": "existence over a continuum, order dependence of 48 candidates", "anchors": ["src/reeds_shepp_state_space/reeds_shepp_state_space.cpp: reeds_shepp, CSC, CCC, CCCC, CCSC, CCSCC"]}
{"id": "C20", "title": "Reeds-Shepp paths respect the curvature bound", "statement": "Every returned control has curvature in {0,+kappa,-kappa} and sharpness 0, there are at most five controls, none of zero length.", "quantifier": "every pair of poses", "why_tests_cant": "holds for all 18 path types", "anchors": ["src/reeds_shepp_state_space/reeds_shepp_state_space.cpp: get_controls, reeds_shepp_path_type"]}
{"id": "C21", "title": "Reeds-Shepp planning never trips an assertion", "statement": "No assertion in the Reeds-Shepp word solvers can fail, for every goal.", "quantifier": "every goal pose", "why_tests_cant": "assertions guard closed-form geometry on a continuum", "anchors": ["src/reeds_shepp_state_space/reeds_shepp_state_space.cpp: LpSpLp..LpRmSLmRp"]}
{"id": "C22", "title": "Reeds-Shepp planning is invariant under rigid motions", "statement": "Translating and rotating both poses by the same rigid motion changes neither distance nor controls.", "quantifier": "every rigid motion and pair of poses", "why_tests_cant": "relational property", "anchors": ["src/reeds_shepp_state_space/reeds_shepp_state_space.cpp: reeds_shepp, get_distance, get_controls"]}
{"id": "C23", "title": "The end of an integrated path does not depend on the discretization", "statement": "integrate(state,controls) starts with the start state and its last state is the pose obtained by driving each control in one step, for every positive discretization, in all three base state spaces; the reported curvature changes linearly along each control.", "quantifier": "every start state, every control list, every positive discretization", "why_tests_cant": "control lists and step counts are unbounded", "anchors": ["src/hc_cc_state_space/hc_cc_state_space.cpp: integrate, integrate_ODE", "src/dubins_state_space/dubins_state_space.cpp: integrate, integrate_ODE", "src/reeds_shepp_state_space/reeds_shepp_state_space.cpp: integrate, integrate_ODE"]}
{"id": "C24", "title": "Sampling is dense and never overshoots", "statement": "The arc length between two consecutive states of an integrated path is non-negative and at most the discretization, and the samples of one control end exactly at the control's end.", "quantifier": "every control list, every positive discretization", "why_tests_cant": "unbounded number of samples", "anchors": ["src/hc_cc_state_space/hc_cc_state_space.cpp: integrate", "src/dubins_state_space/dubins_state_space.cpp: integrate", "src/reeds_shepp_state_space/reeds_shepp_state_space.cpp: integrate"]}
{"id": "C25", "title": "interpolate agrees with the integrated path", "statement": "interpolate(state,controls,t) is the pose reached after driving the fraction t of the total length along the controls, t<=0 gives the start pose and t>=1 the end pose, for every control list and t.", "quantifier": "every t in R, every start state and non-empty control list", "why_tests_cant": "t falls on segment boundaries with measure zero", "anchors": ["src/hc_cc_state_space/hc_cc_state_space.cpp: interpolate", "src/dubins_state_space/dubins_state_space.cpp: interpolate", "src/reeds_shepp_state_space/reeds_shepp_state_space.cpp: interpolate"]}
{"id": "C26", "title": "interpolate returns a fully initialised state", "statement": "Every field (x,y,theta,kappa,d) of the state returned by interpolate is determined by its arguments, for every t.", "quantifier": "every t and every control list", "why_tests_cant": "reading an uninitialised field is invisible to value-based tests", "anchors": ["src/dubins_state_space/dubins_state_space.cpp: interpolate", "src/reeds_shepp_state_space/reeds_shepp_state_space.cpp: interpolate", "src/hc_cc_state_space/hc_cc_state_space.cpp: interpolate"]}
{"id": "C27", "title": "Planned control lists are never empty", "statement": "get_controls never returns an empty list, so that integrate/interpolate of the HC/CC spaces, which read the first control unconditionally, are defined on every planned path.", "quantifier": "every pair of states and every HC/CC space", "why_tests_cant": "undefined behaviour on the empty vector", "anchors": ["src/hc_cc_state_space/hc_cc_state_space.cpp: integrate, interpolate", "src/hc_cc_state_space/*_state_space.cpp: get_controls"]}
{"id": "C28", "title": "Filter covariances stay symmetric positive semidefinite", "statement": "Starting from symmetric positive semidefinite Sigma and Lambda, every prediction and every update of the EKF keeps both matrices symmetric positive semidefinite, along any sequence of predictions and updates.", "quantifier": "every sequence of filter steps, states, controls and noise settings", "why_tests_cant": "unbounded sequences over matrices", "anchors": ["src/filter/ekf.cpp: predict, update"]}
{"id": "C29", "title": "The update does not increase uncertainty", "statement": "After update, Sigma_corr <= Sigma_pred in the positive semidefinite order and the Joseph form equals (I-L)*Sigma_pred.", "quantifier": "every positive semidefinite covariance and every positive definite measurement noise", "why_tests_cant": "matrix inequality over a continuum", "anchors": ["src/filter/ekf.cpp: update"]}
{"id": "C30", "title": "The reported covariance is Sigma+Lambda and an update only moves uncertainty between the two", "statement": "After every predict and update the 3x3 pose block of the reported covariance is exactly Sigma+Lambda; an update leaves this total unchanged: what it removes from the estimation covariance Sigma it adds to the covariance Lambda of the estimate itself.", "quantifier": "every filter step", "why_tests_cant": "matrix identity over a continuum", "anchors": ["src/filter/ekf.cpp: predict, update, eigen_to_covariance"]}
{"id": "C31", "title": "Motion Jacobians are the derivatives of the motion model", "statement": "get_motion_jacobi returns exactly the partial derivatives of the end pose with respect to start pose and to (v,kappa) inputs, for clothoids, arcs and straight lines.", "quantifier": "every state, control and step length", "why_tests_cant": "derivative law over a continuum", "anchors": ["src/filter/ekf.cpp: get_motion_jacobi"]}
{"id": "C32", "title": "Turn controls lead from the start configuration to the target configuration", "statement": "For rs-, hc- and cc-turns on a circle, following the generated controls from the circle's start configuration reaches every configuration that is tangent to that circle in the matching way (and, with reversed order, leads from that configuration back to the start), for left/right, forward/backward, regular/irregular turns.", "quantifier": "every circle, every target configuration on it, both orders", "why_tests_cant": "clothoid geometry over a continuum, 16 orientation combinations", "anchors": ["src/hc_cc_state_space/hc_cc_circle.cpp: HC_CC_Circle, deflection, *_circular_deflection, cc_elementary_sharpness", "src/hc_cc_state_space/paths.cpp: rs_turn_controls, hc_turn_controls, cc_turn_controls, cc_elementary_controls, cc_default_controls"]}
{"id": "C33", "title": "Reported turn lengths are the lengths of the generated controls", "statement": "rs_turn_length, hc_turn_length and cc_turn_length equal the summed |delta_s| of the controls generated for the same turn (up to radius*1e-4 in the cc-turn's zero-deflection shortcut).", "quantifier": "every circle and configuration", "why_tests_cant": "two independent code paths must agree everywhere", "anchors": ["src/hc_cc_state_space/hc_cc_circle.cpp: rs_turn_length, hc_turn_length, cc_turn_length", "src/hc_cc_state_space/paths.cpp: *_turn_controls"]}
{"id": "C34", "title": "Turn controls respect curvature and sharpness bounds and are curvature continuous", "statement": "Along the controls of any turn the curvature is continuous, stays within the curvature bound of the circle, starts and ends with the curvature of the two end configurations, and no clothoid is sharper than the sharpness bound.", "quantifier": "every circle and configuration", "why_tests_cant": "profile property over a continuum of elementary paths", "anchors": ["src/hc_cc_state_space/paths.cpp: hc_turn_controls, cc_turn_controls", "src/hc_cc_state_space/hc_cc_circle.cpp: cc_elementary_sharpness"]}
{"id": "C35", "title": "CC00_Dubins_State_Space plans a continuous-curvature path to the goal", "statement": "For every pair of states the controls returned by CC00_Dubins_State_Space::get_controls lead from the first state to the second (position, heading mod 2*pi, zero curvature), have total length get_distance, keep the curvature within the bound and continuous, up to the 1e-4 shortcuts in the code.", "quantifier": "every pair of states, every curvature and sharpness bound, both driving directions", "why_tests_cant": "all path families over a continuum with shortcut branches", "anchors": ["src/hc_cc_state_space/cc00_dubins_state_space.cpp"]}
{"id": "C36", "title": "CC0pm_Dubins_State_Space plans a continuous-curvature path to the goal", "statement": "For every pair of states the controls returned by CC0pm_Dubins_State_Space::get_controls lead from the first state to the second (position, heading mod 2*pi, curvature 0 to +-kappa), have total length get_distance, keep the curvature within the bound and continuous, up to the 1e-4 shortcuts in the code.", "quantifier": "every pair of states, every curvature and sharpness bound, both driving directions", "why_tests_cant": "all path families over a continuum with shortcut branches", "anchors": ["src/hc_cc_state_space/cc0pm_dubins_state_space.cpp"]}
{"id": "C37", "title": "CCpm0_Dubins_State_Space plans a continuous-curvature path to the goal", "statement": "For every pair of states the controls returned by CCpm0_Dubins_State_Space::get_controls lead from the first state to the second (position, heading mod 2*pi, curvature +-kappa to 0), have total length get_distance, keep the curvature within the bound and continuous, up to the 1e-4 shortcuts in the code.", "quantifier": "every pair of states, every curvature and sharpness bound, both driving directions", "why_tests_cant": "all path families over a continuum with shortcut branches", "anchors": ["src/hc_cc_state_space/ccpm0_dubins_state_space.cpp"]}
{"id": "C38", "title": "CCpmpm_Dubins_State_Space plans a continuous-curvature path to the goal", "statement": "For every pair of states the controls returned by CCpmpm_Dubins_State_Space::get_controls lead from the first state to the second (position, heading mod 2*pi, curvature +-kappa to +-kappa), have total length get_distance, keep the curvature within the bound and continuous, up to the 1e-4 shortcuts in the code.", "quantifier": "every pair of states, every curvature and sharpness bound, both driving directions", "why_tests_cant": "all path families over a continuum with shortcut branches", "anchors": ["src/hc_cc_state_space/ccpmpm_dubins_state_space.cpp"]}
{"id": "C39", "title": "HC00_Reeds_Shepp_State_Space plans a continuous-curvature path to the goal", "statement": "For every pair of states the controls returned by HC00_Reeds_Shepp_State_Space::get_controls lead from the first state to the second (position, heading mod 2*pi, zero curvature), have total length get_distance, keep the curvature within the bound and continuous except at changes of driving direction, up to the 1e-4 shortcuts in the code.", "quantifier": "every pair of states, every curvature and sharpness bound, both driving directions", "why_tests_cant": "all path families over a continuum with shortcut branches", "anchors": ["src/hc_cc_state_space/hc00_reeds_shepp_state_space.cpp"]}
{"id": "C40", "title": "CC00_Reeds_Shepp_State_Space plans a continuous-curvature path to the goal", "statement": "For every pair of states the controls returned by CC00_Reeds_Shepp_State_Space::get_controls lead from the first state to the second (position, heading mod 2*pi, zero curvature), have total length get_distance, keep the curvature within the bound and continuous, up to the 1e-4 shortcuts in the code.", "quantifier": "every pair of states, every curvature and sharpness bound, both driving directions", "why_tests_cant": "all path families over a continuum with shortcut branches", "anchors": ["src/hc_cc_state_space/cc00_reeds_shepp_state_space.cpp"]}
{"id": "C41", "title": "HC0pm_Reeds_Shepp_State_Space plans a continuous-curvature path to the goal", "statement": "For every pair of states the controls returned by HC0pm_Reeds_Shepp_State_Space::get_controls lead from the first state to the second (position, heading mod 2*pi, curvature 0 to +-kappa), have total length get_distance, keep the curvature within the bound and continuous except at changes of driving direction, up to the 1e-4 shortcuts in the code.", "quantifier": "every pair of states, every curvature and sharpness bound, both driving directions", "why_tests_cant": "all path families over a continuum with shortcut branches", "anchors": ["src/hc_cc_state_space/hc0pm_reeds_shepp_state_space.cpp"]}
{"id": "C42", "title": "HCpm0_Reeds_Shepp_State_Space plans a continuous-curvature path to the goal", "statement": "For every pair of states the controls returned by HCpm0_Reeds_Shepp_State_Space::get_controls lead from the first state to the second (position, heading mod 2*pi, curvature +-kappa to 0), have total length get_distance, keep the curvature within the bound and continuous except at changes of driving direction, up to the 1e-4 shortcuts in the code.", "quantifier": "every pair of states, every curvature and sharpness bound, both driving directions", "why_tests_cant": "all path families over a continuum with shortcut branches", "anchors": ["src/hc_cc_state_space/hcpm0_reeds_shepp_state_space.cpp"]}
{"id": "C43", "title": "HCpmpm_Reeds_Shepp_State_Space plans a continuous-curvature path to the goal", "statement": "For every pair of states the controls returned by HCpmpm_Reeds_Shepp_State_Space::get_controls lead from the first state to the second (position, heading mod 2*pi, curvature +-kappa to +-kappa), have total length get_distance, keep the curvature within the bound and continuous except at changes of driving direction, up to the 1e-4 shortcuts in the code.", "quantifier": "every pair of states, every curvature and sharpness bound, both driving directions", "why_tests_cant": "all path families over a continuum with shortcut branches", "anchors": ["src/hc_cc_state_space/hcpmpm_reeds_shepp_state_space.cpp"]}
{"id": "C44", "title": "HC/CC planners always find a path", "statement": "For every pair of states every HC/CC space finds at least one finite candidate, so that no null path is dereferenced.", "quantifier": "every pair of states, every HC/CC space", "why_tests_cant": "existence over a continuum; a null dereference otherwise", "anchors": ["src/hc_cc_state_space/cc00_dubins_state_space.cpp: cc00_dubins", "src/hc_cc_state_space/hc00_reeds_shepp_state_space.cpp: hc00_reeds_shepp"]}
{"id": "C45", "title": "reverse_control reverses a motion", "statement": "Driving a control and then the control obtained from it with reverse_control returns to the initial pose and curvature, and reverse_control is an involution.", "quantifier": "every control and start state", "why_tests_cant": "continuum", "anchors": ["src/hc_cc_state_space/paths.cpp: reverse_control"]}
{"id": "C46", "title": "States with intermediate curvature are connected through predicted states", "statement": "predict_state returns states of curvature 0 or +-kappa from which the accompanying control leads back to the given state (respectively to which it leads), staying within the curvature bound; curvature at the threshold is returned unchanged.", "quantifier": "every state with |curvature| <= kappa", "why_tests_cant": "all sign and direction combinations over a continuum", "anchors": ["src/hc_cc_state_space/cc_dubins_state_space.cpp: predict_state", "src/hc_cc_state_space/hc_reeds_shepp_state_space.cpp: predict_state"]}
{"id": "C47", "title": "Joining predicted states keeps the path correct", "statement": "CC_Dubins_State_Space and HC_Reeds_Shepp_State_Space return, for states of any curvature within the bound, controls that lead from start to goal and have total length get_distance, and the assertion in subtract_control never fails.", "quantifier": "every pair of states with |curvature| <= kappa", "why_tests_cant": "special curvature values and coincidences of predicted states", "anchors": ["src/hc_cc_state_space/cc_dubins_state_space.cpp: get_distance, get_controls", "src/hc_cc_state_space/hc_reeds_shepp_state_space.cpp: get_distance, get_controls", "src/hc_cc_state_space/paths.cpp: subtract_control, state_equal"]}
{"id": "C48", "title": "Planner results do not depend on call history", "statement": "get_distance/get_controls of an HC/CC space return the same result whatever calls were made before on the same object.", "quantifier": "every sequence of previous calls", "why_tests_cant": "unbounded histories over shared mutable members", "anchors": ["src/hc_cc_state_space/hc00_reeds_shepp_state_space.cpp: HC00_Reeds_Shepp::distance, angle"]}
{"id": "C49", "title": "Concurrent planning on one object is safe", "statement": "Two threads calling the const planning functions of the same HC/CC space object obtain the results of sequential calls.", "quantifier": "every interleaving of two calls", "why_tests_cant": "schedules cannot be enumerated by tests", "anchors": ["src/hc_cc_state_space/hc00_reeds_shepp_state_space.cpp: hc00_circles_rs_path (writes distance, angle in a const method)"]}
{"id": "C50", "title": "Coincident states are recognised regardless of the representation of the heading", "statement": "Two states whose positions, curvatures and headings modulo 2*pi agree within the library tolerance are treated as equal, i.e. are at distance 0.", "quantifier": "every pair of nearly equal states, every heading representation", "why_tests_cant": "the failing set has small measure (headings close to 0 mod 2*pi)", "anchors": ["src/hc_cc_state_space/paths.cpp: state_equal", "src/hc_cc_state_space/configuration.cpp: configuration_equal, configuration_aligned"]}
{"id": "C51", "title": "Angle normalisation in double precision stays below 2*pi", "statement": "twopify evaluated in IEEE binary64 returns a value strictly below TWO_PI for every finite argument.", "quantifier": "every finite binary64 argument", "why_tests_cant": "2^64 arguments", "anchors": ["src/utilities/utilities.cpp: twopify"]}
{"id": "C52", "title": "Planning allocates and frees consistently", "statement": "Every intermediate configuration and circle allocated while planning is freed exactly once or handed over to exactly one owner, on every branch.", "quantifier": "every execution path of the planners", "why_tests_cant": "branch combinations; leaks and double frees are invisible to value tests", "anchors": ["src/hc_cc_state_space/*_state_space.cpp: *_path functions, *_circles_*_path", "src/hc_cc_state_space/paths.cpp: ~CC_Dubins_Path, ~HC_CC_RS_Path"]}
{"id": "C53", "title": "The mean path of the filter is the path of integrate", "statement": "The states returned by integrate_with_covariance are exactly those returned by integrate for the same start state and controls, whatever the noise, controller and covariances.", "quantifier": "every filter setting, start state, covariance, discretization and list of controls, all three kinds of spaces", "why_tests_cant": "two independently written loops must agree everywhere", "anchors": ["src/dubins_state_space/dubins_state_space.cpp: integrate, integrate_with_covariance", "src/reeds_shepp_state_space/reeds_shepp_state_space.cpp: integrate, integrate_with_covariance", "src/hc_cc_state_space/hc_cc_state_space.cpp: integrate, integrate_with_covariance"]}
{"id": "C54", "title": "Planner distances are never shorter than the straight line", "statement": "get_distance of the Dubins and Reeds-Shepp spaces is at least the Euclidean distance of the two positions (Dubins: minus the planner's position tolerance).", "quantifier": "every pair of states, every curvature", "why_tests_cant": "continuum; a planner can under-report the length of a path that does reach the goal", "anchors": ["src/dubins_state_space/dubins_state_space.cpp: get_distance", "src/reeds_shepp_state_space/reeds_shepp_state_space.cpp: get_distance"]}
{"id": "C55", "title": "pify is exact in double precision", "statement": "pify evaluated in IEEE binary64 returns, for every finite argument, a double in the closed interval [-PI, PI] that differs from the argument by an exact integer multiple of the double TWO_PI: no rounding error at all, also for huge arguments.", "quantifier": "every finite binary64 argument", "why_tests_cant": "2^64 arguments", "anchors": ["src/utilities/utilities.cpp: pify"]}
{"id": "C56", "title": "The driving direction stored in a state has no influence on planning", "statement": "get_distance and get_controls of CC_Dubins_State_Space and HC_Reeds_Shepp_State_Space do not depend on the member d of the given states nor on the member d of predicted states, which predict_state leaves uninitialised.", "quantifier": "every pair of states, every content of the uninitialised member", "why_tests_cant": "the content of uninitialised memory cannot be enumerated by tests", "anchors": ["src/hc_cc_state_space/cc_dubins_state_space.cpp: predict_state", "src/hc_cc_state_space/hc_reeds_shepp_state_space.cpp: predict_state"]}
{"id": "C57", "title": "HC/CC distances are never shorter than the straight line", "statement": "get_distance of every HC/CC space is at least the Euclidean distance of the two positions, up to the 1e-4 shortcuts in the code.", "quantifier": "every pair of states, every curvature and sharpness bound, both driving directions", "why_tests_cant": "continuum; a planner can under-report the length of a path, or return a short path that ends elsewhere", "anchors": ["src/hc_cc_state_space/*_state_space.cpp: get_distance"]}
{"id": "C58", "title": "The CC Dubins planners drive in one direction", "statement": "Every control returned by a CC Dubins space has the sign of the driving direction of the space (no control goes against it by more than the tolerance of the code).", "quantifier": "every pair of states, every curvature and sharpness bound, both driving directions", "why_tests_cant": "continuum; a candidate family whose existence test is too lax drives a straight part backwards and still reaches the goal", "anchors": ["src/hc_cc_state_space/cc*_dubins_state_space.cpp: TiST_exists, TeST_exists, get_controls", "src/hc_cc_state_space/paths.cpp: cc_turn_controls, straight_controls"]}
{"id": "C59", "title": "No CSC or CCC path to the goal is shorter than the planned one", "statement": "For every path made of two turns with a straight line or a third turn between them (clothoids of full sharpness, arcs of full curvature) that leads from the start to the goal, get_distance of each HC/CC space is at most its length.", "quantifier": "every pair of states, every such path, every curvature and sharpness bound, every sequence of sides, both driving directions", "why_tests_cant": "a dropped candidate, a too strict existence test or a wrong selection still yields a valid but longer path", "anchors": ["src/hc_cc_state_space/*_state_space.cpp: TiST_exists, TeST_exists, TTT_exists, *_path, *_circles_*_path"]}
{"id": "C60", "title": "Joining predicted states keeps the shortest combination", "statement": "CC_Dubins_State_Space and HC_Reeds_Shepp_State_Space return the distance and the controls of the shortest combination of a predicted start, a path of the planner for the curvatures involved, and a predicted goal; if no prediction is needed, the result is exactly that of this planner.", "quantifier": "every pair of states, every curvature and sharpness bound, both driving directions", "why_tests_cant": "a skipped combination or a call of the wrong planner still yields a valid path for most states", "anchors": ["src/hc_cc_state_space/cc_dubins_state_space.cpp: get_distance, get_controls", "src/hc_cc_state_space/hc_reeds_shepp_state_space.cpp: get_distance, get_controls"]}
{"id": "C61", "title": "The filter predicts the covariances of the linearised motion", "statement": "predict propagates the estimation covariance as F*Sigma*F^T plus the covariance of the input noise (alpha1*h^2+alpha2*kappa^2 for the length, alpha3*h^2+alpha4*kappa^2 for the curvature), and the covariance of the estimate as A*Lambda*A^T with the matrix A of the loop closed by the feedback controller, F and G being the Jacobians of the motion.", "quantifier": "every filter setting, state, control, step and covariance", "why_tests_cant": "a wrong noise factor, gain or transposition keeps every matrix symmetric and positive semidefinite", "anchors": ["src/filter/ekf.cpp: predict, get_motion_covariance, get_controller_gain, get_rotation_matrix"]}
{"id": "C62", "title": "The filter runs once per step along the path", "statement": "Along integrate_with_covariance every state is obtained from the one before by one prediction and one update with the control and the length of that step, the step lengths of a control add up to its length, and the covariances pass unchanged from one control to the next.", "quantifier": "every filter setting, start state, control list and positive discretization, all three kinds of spaces", "why_tests_cant": "unbounded number of steps; a skipped update or a stale state is invisible in the mean path", "anchors": ["src/dubins_state_space/dubins_state_space.cpp: integrate_with_covariance", "src/reeds_shepp_state_space/reeds_shepp_state_space.cpp: integrate_with_covariance", "src/hc_cc_state_space/hc_cc_state_space.cpp: integrate_with_covariance"]}
{"id": "C63", "title": "No path with cusps between turns and lines is shorter than the planned one", "statement": "For every path of one of the shapes C|C, C|C|C, C|CC, CC|C, C|SC, CS|C, C|S|C (turns C made of clothoids of full sharpness and arcs of full curvature, straight lines S, cusps |) that leads from the start to the goal, get_distance of each HC/CC Reeds-Shepp space is at most its length.", "quantifier": "every pair of states, every such path, every curvature and sharpness bound, every sequence of sides and driving directions", "why_tests_cant": "continuum; a wrong existence test or a wrong tangent point silently drops the shortest candidate, and the result is still a valid path", "anchors": ["src/hc_cc_state_space/hc00_reeds_shepp_state_space.cpp: TcT_path, TcTcT_path, TcTT_path, TTcT_path, TcST_path, TScT_path, TcScT_path, hc00_circles_rs_path", "src/hc_cc_state_space/cc00_reeds_shepp_state_space.cpp", "src/hc_cc_state_space/hc0pm_reeds_shepp_state_space.cpp", "src/hc_cc_state_space/hcpm0_reeds_shepp_state_space.cpp", "src/hc_cc_state_space/hcpmpm_reeds_shepp_state_space.cpp"]}
{"id": "C64", "title": "No longer path with cusps, of the shapes with quarter turns or paired turns, is shorter than the planned one", "statement": "For every path of one of the shapes CSC|C, C|CSC, C|CSC|C (the turn between the line and a cusp is a quarter turn; for crossing lines the direction is the one the planner searches) and CC|CC, C|CC|C (the two middle turns are equal; for CC|CC in the range the planner searches) that leads from the start to the goal, get_distance of each HC/CC Reeds-Shepp space is at most its length.", "quantifier": "every pair of states, every such path, every curvature and sharpness bound", "why_tests_cant": "continuum; five families of four and five segments per planner with existence tests and square roots that must match the geometry exactly", "anchors": ["src/hc_cc_state_space/hc00_reeds_shepp_state_space.cpp: TSTcT_path, TcTST_path, TcTSTcT_path, TTcTT_path, TcTTcT_path, hc00_circles_rs_path", "src/hc_cc_state_space/cc00_reeds_shepp_state_space.cpp", "src/hc_cc_state_space/hc0pm_reeds_shepp_state_space.cpp", "src/hc_cc_state_space/hcpm0_reeds_shepp_state_space.cpp", "src/hc_cc_state_space/hcpmpm_reeds_shepp_state_space.cpp"]}
{"id": "C65", "title": "A goal at the end of one turn or one straight line is not further away than that", "statement": "For every single turn (clothoids of full sharpness and an arc of full curvature of any length) that leads from the start to the goal, get_distance of each HC/CC space is at most its length, and the same for every single straight line and the planners between states of zero curvature.", "quantifier": "every start state, every such turn or line, every curvature and sharpness bound, both sides and driving directions", "why_tests_cant": "these goals take a special branch of the planners that random states never reach", "anchors": ["src/hc_cc_state_space/*_state_space.cpp: *_circles_*_path (the branches of configuration_equal, configuration_aligned and configuration_on_hc_cc_circle)"]}
{"id": "C66", "title": "No path of four turns to the goal is shorter than the planned one", "statement": "For every path of four turns to alternating sides whose middle turns sweep a full circle together (in the range the planner searches) that leads from the start to the goal, get_distance of CCpmpm_Dubins_State_Space is at most its length.", "quantifier": "every pair of states, every such path, every curvature and sharpness bound, both sides and driving directions", "why_tests_cant": "continuum; a wrong offset of a middle circle or a too strict existence test silently drops the shortest candidate, and the result is still a valid path", "anchors": ["src/hc_cc_state_space/ccpmpm_dubins_state_space.cpp: TTTT_exists, TTTT_tangent_circles, TTTT_path"]}
{"id": "C67", "title": "Planning does not depend on the origin nor on the representation of the headings", "statement": "get_distance and get_controls of each HC/CC space are unchanged if start and goal are shifted by the same vector, or if full turns are added to their headings.", "quantifier": "every pair of states, every shift, every number of turns, every curvature and sharpness bound, both driving directions, also inside every special branch", "why_tests_cant": "a use of an absolute coordinate or of an unnormalised heading shows only far from the origin or for some branches", "anchors": ["src/hc_cc_state_space/*_state_space.cpp: get_distance, get_controls", "src/hc_cc_state_space/configuration.cpp", "src/hc_cc_state_space/hc_cc_circle.cpp: HC_CC_Circle"]}
{"id": "C68", "title": "Planning does not depend on the orientation of the frame", "statement": "get_distance and get_controls of each HC/CC space are unchanged if start and goal are moved by the same rotation and shift.", "quantifier": "every pair of states, every rigid motion, every curvature and sharpness bound, both driving directions", "why_tests_cant": "a wrong rotation of an offset or a missing normalisation shows only for some orientations of start and goal", "anchors": ["src/hc_cc_state_space/*_state_space.cpp: get_distance, get_controls, *_tangent_circles", "src/hc_cc_state_space/configuration.cpp: configuration_equal, configuration_aligned"]}
{"id": "C69", "title": "Integrated paths follow the controls", "statement": "Every state returned by integrate of an HC/CC space lies beside the exact motion along the controls (clothoids, arcs and lines as solutions of the equations of motion) at the same arc length, at most 1e-4*(a^2+a^3/6) away after the length a and turned by at most 1e-4*(2a+a^2/2), plus the error of the Fresnel approximation; the same for interpolate.", "quantifier": "every start state, control list and positive discretization, every state of the path", "why_tests_cant": "the tolerances for small jumps of the curvature, small curvatures and small sharpness interact along an unbounded list of controls", "anchors": ["src/hc_cc_state_space/hc_cc_state_space.cpp: integrate, interpolate, integrate_ODE"]}
{"id": "C70", "title": "Sampled paths end at the goal", "statement": "The last state of get_path of an HC/CC space (get_controls followed by integrate) is the goal, up to the error of the plan and that of integrate, for every discretization, and the path is defined as long as the number of states fits in an int.", "quantifier": "every pair of states (clear of each other where the planner requires it), every curvature and sharpness bound, every positive discretization", "why_tests_cant": "planner and integrator use different formulas and tolerances for the same curves", "anchors": ["src/hc_cc_state_space/hc_cc_state_space.cpp: get_path, integrate", "src/hc_cc_state_space/*_state_space.cpp: get_controls"]}
{"id": "C71", "title": "Mirrored and turned-around states", "statement": "The Dubins and Reeds-Shepp distances do not change if start and goal are replaced by their mirror images. The Reeds-Shepp distance does not change if the car looks the other way at both ends; the Dubins distance from the turned goal to the turned start is that from start to goal.", "quantifier": "every pair of states, every positive curvature bound, both driving directions", "why_tests_cant": "left and right, forward and backward are treated by separate words and separate tests with tolerances", "anchors": ["src/dubins_state_space/dubins_state_space.cpp: dubins", "src/reeds_shepp_state_space/reeds_shepp_state_space.cpp: CSC, CCC, CCCC, CCSC, CCSCC"]}
{"id": "C72", "title": "The Reeds-Shepp distance is symmetric", "statement": "The distance from start to goal is the distance from goal to start.", "quantifier": "every pair of states, every positive curvature bound", "why_tests_cant": "the way back uses other words with other tests; the words CSC, CCCC and CCSCC are not tried from the goal", "anchors": ["src/reeds_shepp_state_space/reeds_shepp_state_space.cpp: get_distance, reeds_shepp"]}
{"id": "C73", "title": "The steps of integrate in double precision add up to the controls", "statement": "Evaluated in IEEE binary64, the step lengths of the loop of integrate add up to the length of the control up to rounding errors (number of steps times 2^-50 of the length), each step lies in [0, discretization], the number of steps is the quotient rounded up, and an exact motion along the steps ends where the control ends.", "quantifier": "every control length and every positive discretization that are doubles", "why_tests_cant": "the accumulated length s_seg, the number of steps and the last step round independently; tests check few discretizations with tolerances", "anchors": ["src/dubins_state_space/dubins_state_space.cpp: integrate", "src/reeds_shepp_state_space/reeds_shepp_state_space.cpp: integrate", "src/hc_cc_state_space/hc_cc_state_space.cpp: integrate"]}
{"id": "C74", "title": "Planner distances cover the difference of the headings", "statement": "The curvature bound times get_distance is at least the difference of the headings of start and goal modulo full turns, for every space, up to the tolerances of the code.", "quantifier": "every pair of states, every curvature and sharpness bound, both driving directions", "why_tests_cant": "continuum; a planner can under-report the length of a turn, or return a path that ends with another heading", "anchors": ["src/dubins_state_space/dubins_state_space.cpp: get_distance", "src/reeds_shepp_state_space/reeds_shepp_state_space.cpp: get_distance", "src/hc_cc_state_space/*_state_space.cpp: get_distance"]}
{"id": "C75", "title": "Being allowed to reverse never makes a plan longer", "statement": "get_distance of an HC/CC Reeds-Shepp space is at most the larger of the straight line and get_distance of the CC Dubins space for the same curvatures at start and goal.", "quantifier": "every pair of states, every curvature and sharpness bound, both driving directions of the Dubins space", "why_tests_cant": "two planners written separately with different candidate lists, tests and turn lengths must agree everywhere", "anchors": ["src/hc_cc_state_space/cc00_dubins_state_space.cpp: get_distance", "src/hc_cc_state_space/hc00_reeds_shepp_state_space.cpp: get_distance", "src/hc_cc_state_space/*_dubins_state_space.cpp", "src/hc_cc_state_space/*_reeds_shepp_state_space.cpp"]}
{"id": "C76", "title": "Curvature and direction of the states of a path", "statement": "Every state of a path returned by get_path carries a curvature within the bound of the space (0 or +-kappa for Dubins and Reeds-Shepp, at most kappa up to the tolerance of the code for the HC/CC spaces, between two states changing by at most the sharpness times the discretization where the planned curvature is continuous) and the driving direction of the control it lies on.", "quantifier": "every pair of states, every curvature and sharpness bound, every positive discretization", "why_tests_cant": "controllers use the curvature of the samples; wrong values occur at segment boundaries and for controls of length 0 only", "anchors": ["src/dubins_state_space/dubins_state_space.cpp: integrate, interpolate", "src/reeds_shepp_state_space/reeds_shepp_state_space.cpp: integrate", "src/hc_cc_state_space/hc_cc_state_space.cpp: integrate, interpolate, integrate_ODE"]}
{"id": "C77", "title": "Interpolation in double precision", "statement": "Evaluated in IEEE binary64, interpolate drives the fraction t of the length of the path up to rounding errors, drives all controls exactly for t = 1, and the driven length of each control never decreases with t; the controls before the last one are driven completely, the last one by a length between 0 and its own.", "quantifier": "every list of control lengths that are doubles, every parameter t > 0, every positive discretization", "why_tests_cant": "the accumulated length and the parameter round independently; failures need special low bits", "anchors": ["src/dubins_state_space/dubins_state_space.cpp: interpolate", "src/reeds_shepp_state_space/reeds_shepp_state_space.cpp: interpolate", "src/hc_cc_state_space/hc_cc_state_space.cpp: interpolate"]}
{"id": "C78", "title": "The way back is as long as the way there", "statement": "get_distance of an HC/CC Reeds-Shepp space from the goal to the start is get_distance from the start to the goal, and the same for the CC Dubins spaces if the way back is driven in the other direction.", "quantifier": "every pair of states, every curvature and sharpness bound, both driving directions of the Dubins spaces", "why_tests_cant": "the way back takes other branches (other circles, other sides, the mirrored word, for mixed curvatures another class) and every one of them must give exactly the same length", "anchors": ["src/hc_cc_state_space/*_state_space.cpp: get_distance, *_path, *_tangent_circles, *_circles_*_path", "src/hc_cc_state_space/cc_dubins_state_space.cpp: get_distance", "src/hc_cc_state_space/hc_reeds_shepp_state_space.cpp: get_distance"]}
{"id": "C79", "title": "Paths of arcs and lines in double precision", "statement": "Evaluated in IEEE binary64, every state of the path of the Dubins and Reeds-Shepp spaces stays close to the exact motion after the same steps, and the last state close to the end of the exact motion along the controls, with an explicit bound on the rounding errors; for paths of a usual size the coordinates are off by at most 1e-8 and 1e-4.", "quantifier": "every start, list of controls and discretization of doubles, every sin and cos with an error of at most 2^-52", "why_tests_cant": "the errors accumulate over all steps; tests sample a few paths with loose tolerances", "anchors": ["src/utilities/utilities.cpp: end_of_circular_arc, end_of_straight_line, pify", "src/dubins_state_space/dubins_state_space.cpp: integrate, integrate_ODE", "src/reeds_shepp_state_space/reeds_shepp_state_space.cpp: integrate, integrate_ODE"]}
{"id": "C80", "title": "The Dubins planner in double precision", "statement": "Evaluated in IEEE binary64, get_controls of Dubins_State_Space returns three controls whose exact motion ends within 3e-6 turning radii of the goal, with the heading off by at most 2e-6 (1e-10 if the states are apart), not more than 23 radii longer than the straight line; get_distance is their length up to 1e-10 radii; the last state of get_path is within 1e-4 of the goal; and the assertions of the planner hold.", "quantifier": "every pair of states of a usual size (coordinates up to 1000), every curvature in [1/100, 10], both driving directions, every C library with accurate sin, cos, acos, atan2", "why_tests_cant": "catastrophic cancellation in the tests against DUBINS_ZERO and in the square roots shows only near the boundaries of the words", "anchors": ["src/dubins_state_space/dubins_state_space.cpp: dubinsLSL ... dubinsLRL, dubins, get_distance, get_controls, get_path", "include/steering_functions/dubins_state_space/dubins_state_space.hpp: Dubins_Path"]}
{"id": "C81", "title": "The assertions on turns hold", "statement": "For every planner of the HC/CC spaces, each turn of the planned path meets the assertion of rs_turn_controls, hc_turn_controls or cc_turn_controls that turns it into controls: it ends with the curvature of its circle or with curvature 0, and arcs without clothoids belong to circles of infinite sharpness. The same holds for the assertions of rs_turn_length, hc_turn_length and cc_turn_length for all candidates that are measured.", "quantifier": "every pair of states, every curvature and sharpness bound, both driving directions of the Dubins spaces", "why_tests_cant": "the assertions abort debug builds and are compiled out of release builds; a wrong circle or configuration in one of more than a hundred word variants shows only for the states where that word is the shortest", "anchors": ["src/hc_cc_state_space/paths.cpp: rs_turn_controls, hc_turn_controls, cc_turn_controls", "src/hc_cc_state_space/hc_cc_circle.cpp: rs_turn_length, hc_turn_length, cc_turn_length", "src/hc_cc_state_space/*_state_space.cpp: get_controls"]}
{"id": "C82", "title": "A car that looks the other way", "statement": "get_distance of a planner of the HC/CC Reeds-Shepp spaces is the same if the car is turned around on the spot at both ends (headings plus pi, curvatures negated), and the same for the planners of the CC Dubins spaces if the car then drives in the other direction.", "quantifier": "every pair of states, every curvature and sharpness bound, both driving directions of the Dubins planners", "why_tests_cant": "turning the car around exchanges left and right as well as forward and backward, so that all other branches of every candidate are taken, and every one of them must give exactly the same length", "anchors": ["src/hc_cc_state_space/*_state_space.cpp: get_distance, *_path, *_tangent_circles, *_circles_*_path", "src/hc_cc_state_space/hc_cc_circle.cpp: HC_CC_Circle, deflection, rs_turn_length, hc_turn_length, cc_turn_length"]}
{"id": "C83", "title": "Dubins and Reeds-Shepp planning do not depend on the representation of the headings", "statement": "get_distance and get_controls of the Dubins space and get_distance of the Reeds-Shepp space are unchanged if full turns are added to the headings of start and goal.", "quantifier": "every pair of states, every number of turns, every positive curvature bound, both driving directions of the Dubins space", "why_tests_cant": "the Reeds-Shepp space passes the difference of the headings on without normalising it; every solver normalises on its own", "anchors": ["src/dubins_state_space/dubins_state_space.cpp: dubins, get_distance, get_controls", "src/reeds_shepp_state_space/reeds_shepp_state_space.cpp: LpSpLp ... LpRmSLmRp, reeds_shepp, get_distance", "src/utilities/utilities.cpp: pify, twopify"]}
{"id": "C84", "title": "Dubins and Reeds-Shepp planning do not depend on the unit of length", "statement": "If the positions of start and goal are multiplied by a positive factor and the curvature bound is divided by it, get_distance is multiplied by this factor and the controls are the same ones in the new unit.", "quantifier": "every pair of states, every positive curvature bound, every positive factor, both driving directions of the Dubins space", "why_tests_cant": "a tolerance compared with a length that is not divided by the turning radius shows only for very small or very large radii", "anchors": ["src/dubins_state_space/dubins_state_space.cpp: dubins, get_distance, get_controls", "src/reeds_shepp_state_space/reeds_shepp_state_space.cpp: reeds_shepp, get_distance, get_controls"]}
{"id": "C85", "title": "HC/CC planning does not depend on the unit of length", "statement": "If the positions of start and goal are multiplied by a positive factor, the curvatures divided by it and the sharpness bound by its square, get_distance of the HC/CC spaces is multiplied by this factor.", "quantifier": "every pair of states, every curvature and sharpness bound, every positive factor", "why_tests_cant": "the absolute tolerances matter only for states that are close to each other in the unit in use", "anchors": ["src/hc_cc_state_space/configuration.cpp: configuration_equal", "src/hc_cc_state_space/*_state_space.cpp: get_distance, *_circles_*_path"]}

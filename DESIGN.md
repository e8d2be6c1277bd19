# Design

Subject: `hbanzhaf/steering_functions` (C++), read as text from `/repo`.
Prover: Coq 8.16.1. Everything lives in `rocq/theories/`; build with
`coq_makefile -f _CoqProject -o Makefile && make -j4` in `rocq/`.

## 0. Trusted base

* Coq's kernel (8.16.1), and the axioms printed by `Print Assumptions` beneath each theorem in the
  `Prop*.v` files. The only axioms that occur are the four below, all from Coq's standard library
  (the real numbers and classical reasoning about them):
  `ClassicalDedekindReals.sig_forall_dec`, `ClassicalDedekindReals.sig_not_dec`,
  `FunctionalExtensionality.functional_extensionality_dep`, `Classical_Prop.classic`.
  Coquelicot (derivatives, integrals) adds none. The list per theorem is in section 6.
* The translation from C++ to the model was made by hand (planner helpers: by a small translator), read
  against the source text; every model definition cites the lines. Nothing was compiled or run.

## 1. Numeric model

* `double` is modelled by the real numbers `R` of Coq's standard library, computed exactly.
  Rounding, overflow and signed zeros are **not** modelled, except in the separate
  binary64 side models used for C51, C55, C73, C77, C79 and C80.
* `PI`, `HALF_PI`, `TWO_PI`, `SQRT_PI` ... are the real numbers they approximate.
  Decimal literals (`1e-4`, `1e-6`, `4.5948`, the Chebyshev coefficients) are exact rationals.
  `numeric_limits<double>::max()` is the real number (2 - 2^-52) * 2^1023.
* A `double` computation that leaves the domain of `sqrt`, `asin`, `acos`, or divides by a
  quantity that may be zero, gives `None` ("not a number / not finite") in the planner models,
  and a comparison with `None` is false, as with NaN.
* Null pointers are `None`; a null dereference, an out of bounds access or reading an
  uninitialised field is an explicit error outcome, never a default value.
* `assert`s are modelled as predicates that are proved to hold (or refuted).
* `atan2(y,x)` is modelled by the usual case distinction over `atan` with `atan2(0,0)=0`;
  `fmod`, `floor`, `ceil` by their mathematical definition.

## 2. Files

| file | content |
|------|---------|
| `Base.v` | C mathematical library on reals: `atan2`, `fmod`, comparisons with a possibly-NaN number |
| `Model*.v` | the model, function by function, each definition citing the lines of `/repo`; no proofs |
| `ModelCC00D.v` ... `ModelHCpmpmR.v` | the nine HC/CC planners, translated mechanically from the C++ text (the translator emits the line citations) |
| `ModelOwn*.v` | the pointer statements of the same nine planners, also translated mechanically |
| `Spec*.v` | vocabulary of the statements, independent of the model's helper functions |
| `Num.v`, `*Proofs.v`, `Fam*.v`, `Side*.v`, `Plan*.v`, `Wrap*.v`, `Shared*.v`, `Dir*.v`, `Opt*.v`, `Cusp*.v`, `Long*.v`, `Unit*.v`, `Four*.v`, `Rigid*.v`, `Moved*.v`, `Sym*.v`, `Follow*.v`, `Step*.v`, `State*.v`, `Inter*.v`, `Head*.v`, `Rev*.v`, `Filter*.v`, `HeapCheck.v` and the other files | lemmas |
| `Prop*.v` | property theorems only, each closed by `exact`, with `Print Assumptions` beneath and `Example`s that meet the hypotheses |

## 3. Per-property plan

C01-C04 modelled literally over R, proved by interval/ring reasoning; C02 as documented is refuted (pify(pi)=pi), the closed interval version is proved.
C05 loop over a list of possibly-NaN lengths; induction.
C06, C07 `fresnel` is modelled with the exact decimal coefficients of `fresnel.data`; oddness by case analysis;
 accuracy by showing that the derivative of the approximation is close to the integrand (polynomial residuals in rational arithmetic).
C08, C09 derivative statements with Coquelicot's `is_derive`; composition law algebraically.
C10-C16 Dubins: the six words, selection and control generation are modelled literally; reaching the goal is trigonometric algebra per word;
 optimality is proved against an independent specification of "a word with parameters (t,p,q) joins the poses".
C17-C22 Reeds-Shepp: same, per word formula, with the symmetry wrappers.
C23-C26 `integrate`/`interpolate` modelled over lists; semigroup law of the one-step integrator, induction on steps and controls. Uninitialised fields are modelled as `option`.
C27 from the case analysis of the `get_controls` switches.
C28-C31 EKF over 3x3 real matrices with an explicit quadratic-form definition of positive semidefiniteness; Jacobians with `is_derive`.
C32-C34 circles and turns: poses form the group SE(2), each control acts by right translation; turn lemmas.
C35-C44 planners: translated model; each family is a chain of tangency facts and turn lemmas.
C45-C47 controls reversal/prediction/subtraction; C47 is refuted in corner cases, with the safe domain proved.
C48 the helper members `distance`/`angle` are explicit state; C49 interleaving model of two calls, refuted.
C50 refuted (wrap-around at 0 mod 2*pi). C51 Flocq binary64 model, refuted (twopify(-2^-60)).
C52 ownership model of allocations/deletions per function.
C57 from C35-C43 and C47: a path that reaches the goal is at least as long as the straight line.
C58 the conditions of the TST families are inequalities on centre distances: they give the sign of the straight part; turns by induction on their controls.
C59 a path CSC or CCC determines the tangent configurations between the circles of its ends; the candidate is built from the same configurations and its turns are the shortest ones.
C60 the loops over predicted states are minima over lists; every candidate is finite by C44.
C61 the matrix expressions of `predict`, entry by entry; on arcs with unique derivatives. C62 induction over the steps and controls.
C63 the same for the paths with cusps: the joint of two turns at a cusp, or of a turn and a line, is determined by the distance and the direction of the two centres (two choices for a third circle; the planner takes the shorter path).
C64 the same for the longer shapes with quarter turns or with two equal middle turns: the coordinates of the middle centres in the frame of the outer centres solve the equations that the planner solves.
C65 goals at the end of one turn or one line: the centre of the turn is the centre of the circle of the start, so that the special branch of the planner is taken, and its length is the length of the turn.
C66 four turns of the CC Dubins planner between states of the curvature of the bound: as C64, with a tangent circle of twice the radius in the middle.
C67 the origin and the headings, C68 the orientation: a rigid motion is carried through every helper of the planner text (`Rigid*.v`): circles and tangent configurations move along, lengths, angles and tests stay. Only the tests of `configuration_equal`, `configuration_aligned` and the single-turn branch see the normalised heading, and these agree for shifts and full turns; for rotations C68 takes the states for which they are all negative. `MovedWrap.v` carries shifts and full turns through the predictions and loops of the two any-curvature spaces.
C69 integrated paths, C70 sampled plans: the motion with the tolerances of `integrate_ODE` is the exact motion with a wrong curvature; the error of the heading is the integral of that of the curvature and the error of the position that of the heading, control by control. C70 adds the error of the plan.
C71 mirrored and turned states, C72 exchanged states: the six Dubins words permute; the lists of Reeds-Shepp candidates are closed under the two reflections (`keyed_sym`), the words tried from the goal as well are closed under the exchange, and for the others the solver of the reversed word finds the same lengths, tolerances included (`SymRS.v`).
C73 error analysis of the loop with Flocq's rounding: the accumulated length and the number of steps each carry relative errors; the last step corrects the sum.
C74 from C10, C17, C35-C43 and C47: a path of curvature at most k and length L turns by at most k L.
C75 every candidate of a CC Dubins planner is also a candidate of the Reeds-Shepp planner, built from the same circles and tangent configurations, with turns that are no longer (`Rev*.v`).
C76 the states of `integrate` lie on parts of the controls (`IntegrateProofs.v`), the curvature of each part is read off its control (`State*.v`). A plan that turns on one circle only keeps to the bound whether or not it ends at the goal (`StateFull.v`).
C77 forward error analysis of the two accumulations of `interpolate`; monotonicity in t from the monotonicity of rounding (`Inter*.v`).
C78 every word of every planner is matched with the word driven on the way back (circles exchanged, sides kept, directions flipped) and shown to be
    exactly as long (`Swap*.v`); the minima over the tables, the circles and the predicted states then agree.
C79 forward error analysis of one step (arc, line, pify), then of a list of steps against the exact motion with the same steps; the end by C73 (`Arc*.v`).
C80 forward error analysis of the six words (`Near.v`, `Dub64Tmp.v`, `Dub64Words.v`): the square under the root is compared with the length of the vector it
    stands for, so that a cancellation costs at most a root of the error; then the transformation to the frame of the planner and back
    (`Dub64Plan.v`, `Dub64End.v`), the path by C79 (`Dub64Final.v`), the assertions as computed (`Dub64Asserts.v`) and the distance (`Dub64Dist.v`).
C81 the curvature and the sharpness of every circle and configuration of a candidate are computed family by family (`AssertTac.v`, one file `Assert<planner>.v` per planner); the calls that measure candidates likewise (`Calls.v`).
C82 every circle, tangent configuration and candidate of the turned car is the turned one of the original car, computed case by case for the four kinds of circles at both ends
    (`About*.v`); the plans then choose among the same lengths.
C83 the Dubins arguments are normalised first; every Reeds-Shepp solver uses the heading only through its sine, its cosine and one call of pify (`LapProofs.v`).
C84 both planners divide all lengths by the turning radius first; atan2 and the square root are homogeneous (`ScaleProofs.v`).
C85 is refuted by two states that the absolute tolerance takes for equal in the smaller unit (`ScaleCases.v`).

## 4. What is modelled, file by file

| code | model | simplifications |
|------|-------|-----------------|
| `utilities.cpp`, `utilities.hpp` | `Base.v`, `ModelUtil.v` | exact reals; `pointer_array_init`, `double_array_init` are the initial tables of the planners |
| `twopify`, `pify` of `utilities.cpp`, once more with rounding | `ModelFloat.v` | binary64 through Flocq, round to nearest even; no overflow, no sign of zero, no fused multiply-add |
| the bookkeeping of the arc length in the loops of `integrate`, once more with rounding | `ModelStep.v` | as for `ModelFloat.v`; the step lengths only, not the states |
| the bookkeeping of `interpolate` (path length, fraction t, truncated control), once more with rounding | `ModelInter.v` | as for `ModelStep.v` |
| `end_of_circular_arc`, `end_of_straight_line` and `integrate` of the Dubins and Reeds-Shepp spaces, once more with rounding | `ModelArc.v` | as for `ModelStep.v`; sin and cos of the C library are parameters (error at most 2^-52) |
| `dubins_state_space.cpp` (planner, `get_distance`, `get_controls`, `get_path`) and the assertions of the words, once more with rounding | `ModelDubins64.v` | as for `ModelArc.v`; acos and atan2 are parameters, too; the NaN of `acos` or `sqrt` outside their domains cannot occur after the tests |
| the assertions of the turns in `paths.cpp` as met by `get_controls` of the nine planners | `ModelAsserts.v` | stated as propositions on the planned path |
| the assertions of the turns in `hc_cc_circle.cpp` as met by the functions that measure candidates | `ModelCalls.v` | the computation of the circles and configurations of each such function once more, with the assertions of its calls as result; the tests whether the candidate exists are left out |
| `fresnel.data`, Fresnel part of `utilities.cpp` | `FresnelData.v`, `ModelFresnel.v` | exact rational coefficients |
| `integrate`/`interpolate`/`integrate_ODE` of the Dubins, Reeds-Shepp and HC/CC spaces | `ModelIntegrate.v` | state vectors are lists; loop counters are natural numbers; conversion of a too large double to `int` is an explicit error |
| `dubins_state_space.cpp` (planner) | `ModelDubins.v` | none beyond section 1 |
| `reeds_shepp_state_space.cpp` (planner) | `ModelRS.v` | non-existing solutions are `None`; the chain of `if`s is a fold over the list of candidates in program order |
| `filter/ekf.cpp`, `integrate_with_covariance` of the three base spaces | `ModelEKF.v` | Eigen matrices are records of entries, `inverse()` is adjugate over determinant, singular gives `None`; the entries of `state_pred`/`state_next` outside the pose block are the zeros they are initialised with |
| `configuration.cpp`, `hc_cc_circle.cpp`, the control functions of `paths.cpp` | `ModelCircle.v` | `print` functions omitted |
| `paths.hpp`, the path classes, selection of the shortest | `ModelPaths.v` | pointers are options |
| the nine planners `cc00_dubins` ... `hcpmpm_reeds_shepp` | `ModelCC00D`, `ModelCC0pmD`, `ModelCCpm0D`, `ModelCCpmpmD`, `ModelCC00R`, `ModelHC00R`, `ModelHC0pmR`, `ModelHCpm0R`, `ModelHCpmpmR` | an intermediate NaN makes the whole candidate NaN; in the four-way chains on `left`/`forward` the last branch is the `else`; the unreachable `return max` after a chain is `None`; `delete` and output statements are omitted here; the members `distance` and `angle` are arguments here |
| the same nine planners: their members `distance` and `angle` | `ModelShared.v` | one read of each member per case; threads interleave sequentially consistently |
| the same nine planners and the destructors in `paths.cpp`: `new`, `delete`, pointer copies | `ModelHeap.v`, `ModelOwn*.v` | numbers are dropped, so every branch on a number may go either way; where a pointer may be null the dereference is allowed (`UseOrNull`; that it is not null is the subject of C44); functions with a `**` parameter are inlined; pointer members are stored under the name of the pointer variable; `bad_alloc` not modelled |
| `cc_dubins_state_space.cpp`, `hc_reeds_shepp_state_space.cpp` | `ModelWrap.v` | the uninitialised member `d` of predicted states is a parameter (C56: it has no influence); `std::sort` is stable on the at most 16 paths; `None` is a null dereference in a planner |

Not modelled: `steering_functions_node.cpp` (ROS visualisation), `test/`, `scripts/`, the `print` functions,
copy and virtual dispatch of the state space classes (each theorem names the class it is about),
and rounding other than in `ModelFloat.v`, `ModelStep.v`, `ModelInter.v`, `ModelArc.v` and `ModelDubins64.v`.

## 5. Findings

Proved as `_refuted` theorems (the witness is in the theorem):

* `pify` is documented with values in [-pi, pi) but `pify(pi) = pi` (C02).
* Curvatures up to 1e-4 are integrated as straight lines, so the paths of planners with such a curvature miss the goal (C10).
* Dubins: for poses with equal position and headings 0 and 2 pi - 1e-7 the planned path depends on the frame (C15).
* Dubins: at equal position a goal turned by 1e-7 to the left costs nothing, one turned by 1e-7 to the right a full turn (C71).
* Reeds-Shepp: `get_controls` returns controls of length zero (C20).
* Dubins/Reeds-Shepp `interpolate` at t <= 0 returns uninitialised fields (C26).
* EKF: with zero measurement noise and zero covariance the update computes 0/0 (C28).
* EKF: on straight lines the Jacobian with respect to the curvature is set to zero, the derivative is
  -h^2/2 sin(theta) (C31).
* CC0pm/CCpm0/HC0pm/HCpm0: case T (start and goal on one circle) does not compare the sides of the circles. The
  planner returns a path of length at most 1 that misses the goal by more than 1/3 (C36, C37, C41, C42 `_goal_refuted`).
* CC/HC pm planners: case E compares the poses but not the curvatures, so the empty path is returned between
  states of opposite curvature (C36-C38, C41-C43 `_refuted`).
* As a consequence the distance of these planners can be at most 1 for a goal that is 1.375 away, which makes it unusable
  as an upper bound of the Euclidean distance (C57 `_refuted`).
* CCpmpm: case T accepts an end of the opposite curvature (C38 `_turn_refuted`).
* CC_Dubins/HC_Reeds_Shepp: when predicted start and goal states coincide, `subtract_control` is called on controls
  of different curvature. Its assertion fails, or without assertions the path misses the heading by 1/8 or exceeds the
  curvature bound (C47).
* HC_Reeds_Shepp: for the same reason the distance between different states can be zero: a state in a left turn and one in a
  right turn of the same curvature that straighten into the same pose are at distance 0, with empty controls, although
  they are more than 0.2 apart and their headings differ by 1 (C57, C74 `_any_curvature_refuted`).
* Two threads planning on one object race on the members `distance` and `angle`: a distance of at most 90 can be
  returned where it is at least 900 (C49).
* `configuration_equal` and `state_equal` compare normalised headings without wrap-around: 0 and 2 pi - 1e-5 are
  different (C50).
* In binary64 `twopify(-2^-60)` is the double 2 pi and `twopify(-2^-1074)` is negative (C51).
* In binary64 `integrate` cuts a control of length 4.9 with discretization 0.98 into six steps, the last of which goes
  backwards by 4.4e-16: the number of steps and the accumulated length round differently (C73).
* HC/CC: positions are compared with an absolute tolerance of 1e-4, so the plan depends on the unit of length: from (0, 0, 0) to (1, 0, 0) with goal
  curvature 1 and both bounds 1 the CC0pm Dubins path has length at least 1, with all lengths multiplied by 5e-5 it is empty (C85).
* In binary64 the assertion `t >= 0` in the constructor of `Dubins_Path` fails from (0, 0, 2^-1074) to (5, 0, 2^-1074), because `twopify`
  adds nothing to a negative number that is too small (C80).

Observed while proving, and visible in the error bounds of the statements:

* Case S of the HC/CC planners accepts a lateral error that grows with the length (up to 2 eps L).
* Case TT joins circles whose distance matches up to the tolerance, so a clothoid of the turn may exceed the sharpness bound slightly.
* CC00R TcT: circles meet up to the tolerance, which leaves a gap at the cusp.
* `TcTTcT_exists` tests that the distance of the centers is at least 4/kappa - 2 r, but not that it is at least 2 r - 4/kappa, which matters for long
  clothoids (r > 2/kappa); the candidate is NaN there and is ignored.
* The candidates TiSTcT, TcTiST and TcTiSTcT of the Reeds-Shepp planners (a crossing line next to a cusp) place the circle of the middle turn with the
  same sign of `delta_y` for all sides and directions. The middle turn is then a quarter turn, and the candidate the shortest path of its shape, for only
  half of the combinations (start circle left and goal reached backwards, say, for TiSTcT); for the mirrored pose the candidate is a valid but longer path, so
  the lengths of these candidates are not symmetric under reflection. C64 therefore carries a condition that relates the side and the direction.
* TTTT of CCpmpm Dubins only looks at circles whose centers form an isosceles trapezoid; if the outer centers are closer than two radii it takes the
  trapezoid with crossing sides, never the other one, although both give valid paths of four turns. C66 covers the range of the middle turns that the planner searches.
* TTcTT takes one of two possible pairs of middle circles, chosen by the distance of the centers; C64 covers the range of the middle turn that belongs to
  the chosen pair.
* `configuration_equal` and `configuration_aligned` compare headings in [0, 2 pi) without wrapping, so the planned path depends on the orientation of the frame: two poses
  with headings 0 and -eps/2 are taken for different and get a path of length at least 1, the same poses turned by pi have distance 0 (C68, refuted).
* Clothoids with |sigma| <= 1e-4 are integrated as arcs, which makes `integrate` miss the goal for such a sharpness bound.
* The HC/CC `integrate` uses the accumulated curvature when the jump is at most eps.
* CC_Dubins/HC_Reeds_Shepp drop start and end controls of length at most eps.
* No leak, double `delete` or dangling dereference was found (C52).
* C76: a control of length 0 has the direction `sgn(0) = 1`, so a path of the backward Dubins space may contain a state with `d = +1` although the car only drives backwards (start (0,2,pi), goal (0,0,0), curvature 1). A clothoid of a sharpness of at most 1e-4 is integrated with constant curvature, after which the curvature of the samples jumps to that of the next control although the planned curvature is continuous.
* C77: in double precision the part of a control that `interpolate` drives can have a negative length (lengths 1 and 3*2^-54, t = 1 - 2^-52); the number of steps is 0 then, so this has no effect.
* C78: `configuration_on_hc_cc_circle` compares the heading in [0, 2 pi) with the expected one without regard to the jump, so that a turn off by half
  the tolerance (1e-4) is taken from (0, 0, 0) to (1 + 5e-5, 1, pi/2), length pi/2, and rejected on the way back, which takes at least 2 (kappa = sigma = 1).
  Where no such turn exists the two distances agree exactly.

The status of each property is in `MANIFEST.json`; this file is updated as the model grows.

## 6. Assumptions per theorem

Printed by `Print Assumptions` beneath each theorem. Abbreviations: D = `ClassicalDedekindReals.sig_forall_dec`,
N = `ClassicalDedekindReals.sig_not_dec`, F = `FunctionalExtensionality.functional_extensionality_dep`,
C = `Classical_Prop.classic`.

* D, N, F, C (255 theorems): `C03_polar`, `C07_fresnel_accuracy`, `C08_circular_arc`, `C08_straight_line`, `C09_clothoid_solves_motion`, `C10_controls_reach_goal`, `C10_path_reaches_goal`, `C10_small_curvature_refuted`, `C11_distance_is_length`, `C12_distance_is_shortest`, `C13_assertions_hold`, `C13_lengths_nonnegative`, `C14_backward_is_reversed_forward`, `C14_backward_retraces`, `C15_rigid_motion_partial`, `C15_rigid_motion_refuted`, `C16_curvature_and_direction`, `C17_controls_reach_goal`, `C17_path_reaches_goal`, `C18_distance_is_length`, `C19_distance_is_shortest`, `C19_path_exists`, `C19_shortest_candidate`, `C20_controls_shape_partial`, `C20_zero_length_refuted`, `C21_assertions_hold`, `C22_rigid_motion`, `C27_any_curvature`, `C27_controls_nonempty`, `C31_arc_jacobian`, `C31_clothoid_jacobian`, `C31_straight_jacobian_partial`, `C31_straight_jacobian_refuted`, `C32_cc_turn_reaches`, `C32_cc_turn_returns`, `C32_hc_turn_reaches`, `C32_hc_turn_returns`, `C32_rs_turn_reaches`, `C32_rs_turn_returns`, `C33_cc_turn_length_short`, `C34_cc_turn_bounds`, `C34_cc_turn_continuous`, `C34_hc_turn_bounds`, `C34_hc_turn_continuous`, `C35_cc00_dubins`, `C36_cc0pm_dubins_clear_partial`, `C36_cc0pm_dubins_goal_refuted`, `C36_cc0pm_dubins_partial`, `C36_cc0pm_dubins_refuted`, `C37_ccpm0_dubins_clear_partial`, `C37_ccpm0_dubins_goal_refuted`, `C37_ccpm0_dubins_partial`, `C37_ccpm0_dubins_refuted`, `C38_ccpmpm_dubins_clear_partial`, `C38_ccpmpm_dubins_partial`, `C38_ccpmpm_dubins_refuted`, `C38_ccpmpm_dubins_turn_refuted`, `C39_hc00_reeds_shepp`, `C40_cc00_reeds_shepp`, `C41_hc0pm_reeds_shepp_clear_partial`, `C41_hc0pm_reeds_shepp_goal_refuted`, `C41_hc0pm_reeds_shepp_partial`, `C41_hc0pm_reeds_shepp_refuted`, `C42_hcpm0_reeds_shepp_clear_partial`, `C42_hcpm0_reeds_shepp_goal_refuted`, `C42_hcpm0_reeds_shepp_partial`, `C42_hcpm0_reeds_shepp_refuted`, `C43_hcpmpm_reeds_shepp_clear_partial`, `C43_hcpmpm_reeds_shepp_partial`, `C43_hcpmpm_reeds_shepp_refuted`, `C44_a_path_is_found`, `C44_any_curvature`, `C45_reverse_returns`, `C46_cc_prediction`, `C46_hc_prediction`, `C47_cc_dubins_curvature_refuted`, `C47_cc_dubins_far_partial`, `C47_cc_dubins_partial`, `C47_cc_dubins_refuted`, `C47_cc_dubins_straight_partial`, `C47_hc_reeds_shepp_far_partial`, `C47_hc_reeds_shepp_partial`, `C47_hc_reeds_shepp_refuted`, `C47_hc_reeds_shepp_straight_partial`, `C48_history`, `C49_objects_partial`, `C49_refuted`, `C50_configuration_equal_refuted`, `C50_state_equal_refuted`, `C51_twopify_first_turn_partial`, `C51_twopify_negative_refuted`, `C51_twopify_range_partial`, `C51_twopify_refuted`, `C54_dubins_distance_euclid`, `C54_rs_distance_euclid`, `C55_pify_exact`, `C56_cc_dubins`, `C56_hc_reeds_shepp`, `C57_any_curvature_partial`, `C57_any_curvature_refuted`, `C57_cc0pm_dubins_refuted`, `C57_curvature_bound_partial`, `C57_hcpm0_reeds_shepp_refuted`, `C57_zero_curvature_partial`, `C58_cc00_dubins`, `C58_cc0pm_dubins`, `C58_cc_dubins`, `C58_ccpm0_dubins`, `C58_ccpmpm_dubins`, `C59_cc00_dubins`, `C59_cc00_reeds_shepp`, `C59_cc0pm_dubins`, `C59_ccpm0_dubins`, `C59_ccpmpm_dubins`, `C59_hc00_reeds_shepp`, `C59_hc0pm_reeds_shepp`, `C59_hcpm0_reeds_shepp`, `C59_hcpmpm_reeds_shepp`, `C60_cc_dubins_direct`, `C60_cc_dubins_shortest`, `C60_hc_reeds_shepp_direct`, `C60_hc_reeds_shepp_shortest`, `C61_arc`, `C63_cc00_reeds_shepp`, `C63_hc00_reeds_shepp`, `C63_hc0pm_reeds_shepp`, `C63_hcpm0_reeds_shepp`, `C63_hcpmpm_reeds_shepp`, `C64_cc00_reeds_shepp`, `C64_hc00_reeds_shepp`, `C64_hc0pm_reeds_shepp`, `C64_hcpm0_reeds_shepp`, `C64_hcpmpm_reeds_shepp`, `C65_cc00_dubins_line`, `C65_cc00_dubins_turn`, `C65_cc00_reeds_shepp_line`, `C65_cc00_reeds_shepp_turn`, `C65_cc0pm_dubins_turn`, `C65_ccpm0_dubins_turn`, `C65_ccpmpm_dubins_turn`, `C65_hc00_reeds_shepp_line`, `C65_hc00_reeds_shepp_turn`, `C65_hc0pm_reeds_shepp_turn`, `C65_hcpm0_reeds_shepp_turn`, `C65_hcpmpm_reeds_shepp_turn`, `C66_ccpmpm_dubins`, `C67_any_curvature_shift`, `C67_any_curvature_turns`, `C67_shift`, `C67_turns`, `C68_cc00_dubins_partial`, `C68_curvature_bound_partial`, `C68_one_end_partial`, `C68_rotation_refuted`, `C68_zero_curvature_partial`, `C69_integrate_follows`, `C69_interpolate_follows`, `C70_cc00_dubins`, `C70_cc00_reeds_shepp`, `C70_cc0pm_dubins_partial`, `C70_cc_dubins_partial`, `C70_cc_dubins_refuted`, `C70_ccpm0_dubins_partial`, `C70_ccpmpm_dubins`, `C70_hc00_reeds_shepp`, `C70_hc0pm_reeds_shepp_partial`, `C70_hc_reeds_shepp_partial`, `C70_hc_reeds_shepp_refuted`, `C70_hcpm0_reeds_shepp_partial`, `C70_hcpmpm_reeds_shepp`, `C71_dubins_about_partial`, `C71_dubins_about_refuted`, `C71_dubins_mirror_partial`, `C71_dubins_mirror_refuted`, `C71_reeds_shepp_about`, `C71_reeds_shepp_mirror`, `C72_reeds_shepp_exchange_partial`, `C72_reeds_shepp_way_back_partial`, `C73_end_of_the_steps`, `C73_number_of_steps`, `C73_step_length_partial`, `C73_step_length_refuted`, `C73_steps_add_up`, `C74_any_curvature_partial`, `C74_any_curvature_refuted`, `C74_bound_to_bound`, `C74_dubins_heading`, `C74_rs_heading`, `C74_zero_and_bound`, `C74_zero_curvature`, `C75_any_curvature_partial`, `C75_bound_to_bound_partial`, `C75_zero_and_bound`, `C75_zero_curvature`, `C76_any_curvature_refuted`, `C76_backward_refuted`, `C76_cc00_dubins`, `C76_cc00_reeds_shepp`, `C76_cc0pm_dubins`, `C76_cc_dubins_partial`, `C76_ccpm0_dubins`, `C76_ccpmpm_dubins`, `C76_dubins`, `C76_hc00_reeds_shepp`, `C76_hc0pm_reeds_shepp`, `C76_hc_reeds_shepp_partial`, `C76_hcpm0_reeds_shepp`, `C76_hcpmpm_reeds_shepp`, `C76_reeds_shepp`, `C77_end`, `C77_fraction`, `C77_monotone`, `C77_no_step`, `C77_parts_partial`, `C77_parts_refuted`, `C77_steps`, `C78_cc00_dubins_partial`, `C78_cc00_reeds_shepp_partial`, `C78_cc_dubins_mixed`, `C78_cc_dubins_partial`, `C78_ccpmpm_dubins_partial`, `C78_hc00_reeds_shepp_partial`, `C78_hc_reeds_shepp_mixed`, `C78_hc_reeds_shepp_partial`, `C78_hcpmpm_reeds_shepp_partial`, `C78_turn_refuted`, `C79_end`, `C79_path`, `C79_step`, `C79_usual_sizes`, `C80_assertions_partial`, `C80_distance`, `C80_heading`, `C80_length`, `C80_path`, `C80_plan`, `C80_turn_assert_refuted`, `C81_length_assertions`, `C81_turn_assertions`, `C82_about_refuted`, `C82_cc00_dubins_partial`, `C82_cc00_reeds_shepp_partial`, `C82_cc0pm_dubins_partial`, `C82_ccpm0_dubins_partial`, `C82_ccpmpm_dubins_partial`, `C82_hc00_reeds_shepp_partial`, `C82_hc0pm_reeds_shepp_partial`, `C82_hcpm0_reeds_shepp_partial`, `C82_hcpmpm_reeds_shepp_partial`, `C83_dubins`, `C83_reeds_shepp_equal_partial`, `C83_reeds_shepp_partial`, `C84_dubins`, `C84_reeds_shepp`, `C85_unit_refuted`.
* D, N, F (48 theorems): `C01_twopify`, `C02_pify_half_open_refuted`, `C02_pify_partial`, `C04_frame_axes`, `C04_frame_isometry`, `C04_frame_roundtrip`, `C06_fresnel_odd`, `C06_fresnel_zero`, `C09_clothoid_semigroup`, `C09_clothoid_start`, `C23_curvature_linear`, `C23_discretization_independent`, `C23_hc_discretization_independent`, `C23_hc_integrate_defined`, `C23_hc_integrate_endpoint`, `C23_hc_integrate_endpoint_nominal`, `C23_integrate_defined`, `C23_integrate_endpoint`, `C24_hc_sampling`, `C24_sampling`, `C25_hc_interpolate`, `C25_interpolate`, `C26_hc_interpolate_initialised`, `C26_interpolate_initialised_partial`, `C26_interpolate_initialised_refuted`, `C28_filter_run_psd_partial`, `C28_hc_path_psd`, `C28_rs_path_psd`, `C30_hc_path_total`, `C30_predict_total`, `C30_rs_path_total`, `C33_cc_turn_length`, `C33_hc_turn_length`, `C33_rs_turn_length`, `C34_rs_turn_bounds`, `C34_rs_turn_continuous`, `C50_configuration_equal_partial`, `C53_hc_mean_path`, `C53_rs_mean_path`, `C61_closed_loop_unique`, `C61_control_spread`, `C61_estimation_uncertainty`, `C62_hc_path`, `C62_rs_path`, `C76_integrate`, `C76_interpolate`, `C76_sharpness_partial`, `C76_sharpness_refuted`.
* D, F (10 theorems): `C05_array_index_min`, `C05_array_index_min_defined`, `C28_update_finite`, `C28_zero_noise_refuted`, `C29_joseph_form`, `C29_update_decreases`, `C30_update_keeps_total`, `C30_update_total`, `C45_reverse_curvature`, `C45_reverse_involutive`.
* none ("Closed under the global context") (1 theorems): `C52_planners_free_what_they_allocate`.

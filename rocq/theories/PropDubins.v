(** * Properties C10-C16: the Dubins planner *)
From Coq Require Import Reals ZArith List Bool Lra.
From Verif Require Import Base ModelUtil ModelIntegrate ModelDubins Num SpecPath
  DubinsProofs DubinsPlan DubinsOpt DubinsCases.
Import ListNotations.
Open Scope R_scope.

(** C10. [drive_all] is the exact motion along arcs and straight lines. The end of the path is
    within 2e-6/kappa of the goal, heading within 1e-6; if the two poses do not almost coincide, it
    is within 1e-9/kappa and the heading is exact. The bound 1e300 keeps the problem away from the
    sentinel DBL_MAX. *)
Theorem C10_controls_reach_goal (kappa : R) (forwards : bool) (state1 state2 : State) :
  0 < kappa -> kappa * pos_dist state1 state2 <= 10 ^ 300 ->
  let q := drive_all state1 (dubins_get_controls kappa forwards state1 state2) in
  pos_dist q state2 <= 1 / 500000 / kappa /\ heading_within (1 / 1000000) q state2 /\
  (1 / 1000000 <= kappa * pos_dist state1 state2 \/
     ~ heading_within (1 / 1000000) state1 state2 ->
   pos_dist q state2 <= 1 / 1000000000 / kappa /\ ang_eq (st_theta q) (st_theta state2)).
Proof. exact (dubins_controls_reach kappa forwards state1 state2). Qed.
Print Assumptions C10_controls_reach_goal.

Example C10_case :
  dubins_get_controls 1 true (mkState 0 0 0 0 0) (mkState 0 2 PI 0 0) =
  [mkControl (PI / 2) 1 0; mkControl 0 0 0; mkControl (PI / 2) 1 0].
Proof. exact half_circle_controls. Qed.

(** C10 for the path returned by get_path, for every discretization. *)
Theorem C10_path_reaches_goal (kappa disc : R) (forwards : bool) (state1 state2 : State)
  (path : list State) :
  epsilon < kappa -> 0 < disc -> kappa * pos_dist state1 state2 <= 10 ^ 300 ->
  dubins_get_path kappa disc forwards state1 state2 = Some path ->
  exists q, nth_error path (length path - 1) = Some q /\
    pos_dist q state2 <= 1 / 500000 / kappa /\ heading_within (1 / 1000000) q state2 /\
    (1 / 1000000 <= kappa * pos_dist state1 state2 \/
       ~ heading_within (1 / 1000000) state1 state2 ->
     pos_dist q state2 <= 1 / 1000000000 / kappa /\ ang_eq (st_theta q) (st_theta state2)).
Proof. exact (dubins_path_reaches kappa disc forwards state1 state2 path). Qed.
Print Assumptions C10_path_reaches_goal.

(** The hypothesis [epsilon < kappa] cannot be dropped: the integrator treats curvatures up to
    1e-4 as straight lines. *)
Theorem C10_small_curvature_refuted : exists kappa disc state1 state2 path q,
  0 < kappa /\ 0 < disc /\ dubins_get_path kappa disc true state1 state2 = Some path /\
  nth_error path (length path - 1) = Some q /\ ~ heading_within 1 q state2.
Proof. exact small_curvature_refuted. Qed.
Print Assumptions C10_small_curvature_refuted.

(** C11 *)
Theorem C11_distance_is_length (kappa : R) (forwards : bool) (state1 state2 : State) :
  0 < kappa ->
  dubins_distance kappa forwards state1 state2 =
  total_length (dubins_get_controls kappa forwards state1 state2).
Proof. exact (dubins_distance_length kappa forwards state1 state2). Qed.
Print Assumptions C11_distance_is_length.

Example C11_case :
  total_length (dubins_get_controls 1 true (mkState 0 0 0 0 0) (mkState 0 2 PI 0 0)) = PI.
Proof.
  rewrite half_circle_controls. simpl. pose proof PI_RGT_0.
  rewrite Rabs_R0, (Rabs_pos_eq (PI / 2)) by lra. lra.
Qed.

(** C12. Competitors: three segments of curvature ±kappa, 0, ±kappa, or ±kappa, ∓kappa, ±kappa
    whose middle arc is longer than pi ([dubins_word]). *)
Theorem C12_distance_is_shortest (kappa : R) (forwards : bool) (state1 state2 : State)
  (k1 k2 k3 a b c : R) :
  0 < kappa -> dubins_word kappa k1 k2 k3 (Rabs b) ->
  (if forwards then 0 <= a /\ 0 <= b /\ 0 <= c else a <= 0 /\ b <= 0 /\ c <= 0) ->
  same_pose (drive_all state1 [mkControl a k1 0; mkControl b k2 0; mkControl c k3 0]) state2 ->
  dubins_distance kappa forwards state1 state2 <= Rabs a + Rabs b + Rabs c.
Proof. exact (dubins_min kappa forwards state1 state2 k1 k2 k3 a b c). Qed.
Print Assumptions C12_distance_is_shortest.

(** A competitor: right, straight, left from (0,0,0) to (2,-4,0) for kappa = 1. *)
Example C12_case :
  dubins_word 1 (-1) 0 1 (Rabs 2) /\
  same_pose (drive_all (mkState 0 0 0 0 0)
    [mkControl (PI / 2) (-1) 0; mkControl 2 0 0; mkControl (PI / 2) 1 0]) (mkState 2 (-4) 0 0 0).
Proof.
  split; [split; [right; lra|split; [left; lra|left; reflexivity]]|].
  unfold drive_all, same_pose; simpl. unfold drive; simpl.
  destruct (Req_EM_T (-1) 0) as [N|_]; [lra|]. destruct (Req_EM_T 0 0) as [_|N]; [|lra].
  destruct (Req_EM_T 1 0) as [N|_]; [lra|]. cbn [st_x st_y st_theta].
  replace (0 + -1 * (PI / 2)) with (- (PI / 2)) by field.
  replace (- (PI / 2) + 1 * (PI / 2)) with 0 by field.
  rewrite sin_neg, cos_neg, sin_0, cos_0, sin_PI2, cos_PI2.
  repeat split; try field. apply ang_eq_refl.
Qed.

(** C13: the assertions at the end of each word solver, and those of the path constructor for each
    candidate and for the chosen path (1e-6 tolerances as in the code). *)
Theorem C13_assertions_hold (d alpha beta : R) :
  0 <= d ->
  assertsLSL d alpha beta /\ assertsRSR d alpha beta /\ assertsRSL d alpha beta /\
  assertsLSR d alpha beta /\ assertsRLR d alpha beta /\ assertsLRL d alpha beta /\
  (forall c, In c (candidates d alpha beta) -> dp_t c >= 0 /\ dp_p c >= 0 /\ dp_q c >= 0) /\
  (let P := dubins d alpha beta in dp_t P >= 0 /\ dp_p P >= 0 /\ dp_q P >= 0).
Proof.
  intros D. destruct (words_asserts d alpha beta) as (A1 & A2 & A3 & A4 & A5 & A6).
  exact (conj (assertsLSL_hold d alpha beta) (conj (assertsRSR_hold d alpha beta)
    (conj (assertsRSL_hold d alpha beta) (conj (assertsLSR_hold d alpha beta)
    (conj (assertsRLR_hold d alpha beta) (conj (assertsLRL_hold d alpha beta)
    (conj (fun c H => match H with
       | or_introl E => eq_ind _ dp_asserts A1 _ E
       | or_intror (or_introl E) => eq_ind _ dp_asserts A2 _ E
       | or_intror (or_intror (or_introl E)) => eq_ind _ dp_asserts A3 _ E
       | or_intror (or_intror (or_intror (or_introl E))) => eq_ind _ dp_asserts A4 _ E
       | or_intror (or_intror (or_intror (or_intror (or_introl E)))) => eq_ind _ dp_asserts A5 _ E
       | or_intror (or_intror (or_intror (or_intror (or_intror (or_introl E))))) => eq_ind _ dp_asserts A6 _ E
       | or_intror (or_intror (or_intror (or_intror (or_intror (or_intror F))))) => False_ind _ F
       end) (dubins_asserts d alpha beta D)))))))).
Qed.
Print Assumptions C13_assertions_hold.

(** C13 at the interface of the planner. *)
Theorem C13_lengths_nonnegative (kappa : R) (state1 state2 : State) : 0 < kappa ->
  let P := dubins_path kappa state1 state2 in dp_t P >= 0 /\ dp_p P >= 0 /\ dp_q P >= 0.
Proof. exact (dubins_lengths kappa state1 state2). Qed.
Print Assumptions C13_lengths_nonnegative.

(** The guards under which the assertions are evaluated are satisfiable for each word. *)
Example C13_case : DUBINS_ZERO <= tmpRSL 4 0 0 /\ DUBINS_ZERO <= tmpLSR 4 0 0 /\
  Rabs (tmpRLR 1 0 0) < 1 /\ Rabs (tmpLRL 1 0 0) < 1.
Proof.
  unfold DUBINS_ZERO, tmpRSL, tmpLSR, tmpRLR, tmpLRL. rewrite sin_0, cos_0.
  split; [lra|]. split; [lra|]. split; rewrite Rabs_pos_eq; lra.
Qed.

(** C14 *)
Theorem C14_backward_is_reversed_forward (kappa : R) (state1 state2 : State) :
  dubins_distance kappa false state1 state2 = dubins_distance kappa true state2 state1 /\
  length (dubins_get_controls kappa false state1 state2) =
    length (dubins_get_controls kappa true state2 state1) /\
  (forall i c, nth_error (dubins_get_controls kappa true state2 state1) i = Some c ->
     nth_error (dubins_get_controls kappa false state1 state2) (2 - i) =
       Some (mkControl (- ct_delta_s c) (ct_kappa c) (ct_sigma c))).
Proof. exact (dubins_backward kappa state1 state2). Qed.
Print Assumptions C14_backward_is_reversed_forward.

(** C14: the backward controls drive the forward path from state2 back to its beginning. *)
Theorem C14_backward_retraces (kappa : R) (state1 state2 : State) :
  same_pose
    (drive_all (drive_all state2 (dubins_get_controls kappa true state2 state1))
       (dubins_get_controls kappa false state1 state2))
    state2.
Proof. exact (drive_all_undo (dubins_get_controls kappa true state2 state1) state2). Qed.
Print Assumptions C14_backward_retraces.

Example C14_case :
  dubins_get_controls 1 false (mkState 0 2 PI 0 0) (mkState 0 0 0 0 0) =
  [mkControl (- (PI / 2)) 1 0; mkControl (- 0) 0 0; mkControl (- (PI / 2)) 1 0].
Proof. exact half_circle_backward. Qed.

(** C15 is false in general: the test for almost coincident poses compares the headings without
    regard to the wrap-around at 2 pi. *)
Theorem C15_rigid_motion_refuted : exists kappa u v rho state1 state2, 0 < kappa /\
  dubins_distance kappa true (rigid u v rho state1) (rigid u v rho state2) = 0 /\
  0 < dubins_distance kappa true state1 state2.
Proof. exact rigid_refuted. Qed.
Print Assumptions C15_rigid_motion_refuted.

(** C15 holds unless the positions coincide and the headings differ, but by less than 1e-6. *)
Theorem C15_rigid_motion_partial (kappa : R) (forwards : bool) (u v rho : R)
  (state1 state2 : State) : 0 < kappa ->
  (st_x state1 <> st_x state2 \/ st_y state1 <> st_y state2) \/
  ang_eq (st_theta state1) (st_theta state2) \/ ~ heading_within (1 / 1000000) state1 state2 ->
  dubins_distance kappa forwards (rigid u v rho state1) (rigid u v rho state2) =
    dubins_distance kappa forwards state1 state2 /\
  dubins_get_controls kappa forwards (rigid u v rho state1) (rigid u v rho state2) =
    dubins_get_controls kappa forwards state1 state2.
Proof. exact (dubins_rigid_all kappa forwards u v rho state1 state2). Qed.
Print Assumptions C15_rigid_motion_partial.

Example C15_case : exists s1 s2 u v rho,
  st_x s1 <> st_x s2 /\ rigid u v rho s1 <> s1 /\ rigid u v rho s2 <> s2.
Proof.
  exists (mkState 0 0 0 0 0), (mkState 3 1 2 0 0), 5, 6, 7. unfold rigid; simpl.
  split; [lra|]. split; intros H; injection H; intros; lra.
Qed.

(** C16 *)
Theorem C16_curvature_and_direction (kappa : R) (forwards : bool) (state1 state2 : State) :
  0 < kappa ->
  length (dubins_get_controls kappa forwards state1 state2) = 3%nat /\
  forall c, In c (dubins_get_controls kappa forwards state1 state2) ->
    (ct_kappa c = 0 \/ ct_kappa c = kappa \/ ct_kappa c = - kappa) /\ ct_sigma c = 0 /\
    (if forwards then 0 <= ct_delta_s c else ct_delta_s c <= 0).
Proof. exact (dubins_control_shape kappa forwards state1 state2). Qed.
Print Assumptions C16_curvature_and_direction.

Example C16_case : In (mkControl (PI / 2) 1 0)
  (dubins_get_controls 1 true (mkState 0 0 0 0 0) (mkState 0 2 PI 0 0)).
Proof. rewrite half_circle_controls. left. reflexivity. Qed.

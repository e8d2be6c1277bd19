(** * Properties C17-C22: the Reeds-Shepp planner *)
From Coq Require Import Reals ZArith List Bool Lra.
From Verif Require Import Base ModelUtil ModelIntegrate ModelDubins ModelRS Num UtilProofs SpecPath SpecRS
  DubinsPlan DubinsOpt RSProofs RSPlan RSExist RSSelect RSOpt.
Import ListNotations.
Open Scope R_scope.

(** C17. The end of the path is exactly the goal. The bound 1e299 keeps the problem away from the
    sentinel DBL_MAX. *)
Theorem C17_controls_reach_goal (kappa : R) (state1 state2 : State) :
  0 < kappa -> kappa * pos_dist state1 state2 <= 10 ^ 299 ->
  same_pose (drive_all state1 (rs_get_controls kappa state1 state2)) state2.
Proof. exact (rs_reach_goal kappa state1 state2). Qed.
Print Assumptions C17_controls_reach_goal.

(** C17 for the path returned by get_path, for every discretization. *)
Theorem C17_path_reaches_goal (kappa disc : R) (state1 state2 : State) (path : list State) :
  epsilon < kappa -> 0 < disc -> kappa * pos_dist state1 state2 <= 10 ^ 299 ->
  rs_get_path kappa disc state1 state2 = Some path ->
  exists q, nth_error path (length path - 1) = Some q /\ same_pose q state2.
Proof. exact (rs_path_reaches kappa disc state1 state2 path). Qed.
Print Assumptions C17_path_reaches_goal.

Example C17_case : 0 < 2 /\ 2 * pos_dist (mkState 1 2 3 0 0) (mkState 4 (-2) (-5) 0 0) <= 10 ^ 299.
Proof.
  split; [lra|]. unfold pos_dist; simpl st_x; simpl st_y.
  replace ((1 - 4) ^ 2 + (2 - -2) ^ 2) with (5 * 5) by ring. rewrite sqrt_square by lra.
  replace 299%nat with (1 + 298)%nat by reflexivity. rewrite pow_add.
  assert (1 <= 10 ^ 298) by (apply pow_R1_Rle; lra). lra.
Qed.

(** C18 *)
Theorem C18_distance_is_length (kappa : R) (state1 state2 : State) :
  0 < kappa -> rs_distance kappa state1 state2 = total_length (rs_get_controls kappa state1 state2).
Proof. exact (rs_distance_length kappa state1 state2). Qed.
Print Assumptions C18_distance_is_length.

Example C18_case : total_length (rs_get_controls 1 (mkState 0 0 0 0 0) (mkState 5 0 0 0 0)) = 5.
Proof.
  rewrite straight_controls; [simpl; rewrite Rabs_R0, Rabs_pos_eq; lra|].
  split; [lra|]. replace 299%nat with (1 + 298)%nat by reflexivity. rewrite pow_add.
  assert (1 <= 10 ^ 298) by (apply pow_R1_Rle; lra). lra.
Qed.

(** C19, existence: the planner never falls back on the sentinel; its path has a length of the order
    of the distance to be covered and reaches the goal. *)
Theorem C19_path_exists (kappa : R) (state1 state2 : State) :
  0 < kappa -> kappa * pos_dist state1 state2 <= 10 ^ 299 ->
  rs_distance kappa state1 state2 <= 8 * pos_dist state1 state2 + 30 / kappa /\
  same_pose (drive_all state1 (rs_get_controls kappa state1 state2)) state2.
Proof. exact (rs_path_found kappa state1 state2). Qed.
Print Assumptions C19_path_exists.

(** C19, optimality: no word of Reeds and Shepp ([rs_word]: all families of words with mirror
    images, time flips and reversals) reaches the goal on a shorter way. *)
Theorem C19_distance_is_shortest (kappa : R) (state1 state2 : State) (cs : list Control) :
  0 < kappa -> rs_word kappa cs -> same_pose (drive_all state1 cs) state2 ->
  rs_distance kappa state1 state2 <= total_length cs.
Proof. exact (rs_min kappa state1 state2 cs). Qed.
Print Assumptions C19_distance_is_shortest.

(** C19, optimality among the candidates of the word solvers. *)
Theorem C19_shortest_candidate (x y phi : R) (c : RSCand) (t u v : R) :
  In c (CSC_cands x y phi ++ CCC_cands x y phi ++ CCCC_cands x y phi ++ CCSC_cands x y phi ++
        CCSCC_cands x y phi) ->
  fst c = Some (t, u, v) ->
  rs_length (reeds_shepp x y phi) <= rs_length (snd c t u v).
Proof. exact (rs_cand_min x y phi c t u v). Qed.
Print Assumptions C19_shortest_candidate.

(** A competitor: left forwards, right backwards, left forwards (a three-point turn). *)
Example C19_case :
  rs_word 1 [mkControl (PI / 3) 1 0; mkControl (- (PI / 3)) (-1) 0; mkControl (PI / 3) 1 0] /\
  same_pose (drive_all (mkState 0 0 0 0 0)
    [mkControl (PI / 3) 1 0; mkControl (- (PI / 3)) (-1) 0; mkControl (PI / 3) 1 0])
    (mkState 0 0 PI 0 0).
Proof. exact three_point_turn. Qed.

(** C20, without "none of zero length". *)
Theorem C20_controls_shape_partial (kappa : R) (state1 state2 : State) :
  (3 <= length (rs_get_controls kappa state1 state2) <= 5)%nat /\
  forall c, In c (rs_get_controls kappa state1 state2) ->
    (ct_kappa c = 0 \/ ct_kappa c = kappa \/ ct_kappa c = - kappa) /\ ct_sigma c = 0.
Proof. exact (rs_controls_shape kappa state1 state2). Qed.
Print Assumptions C20_controls_shape_partial.

(** C20: "none of zero length" is false: straight ahead, the path is left 0, straight 5, left 0. *)
Theorem C20_zero_length_refuted : exists kappa state1 state2,
  0 < kappa /\ state1 <> state2 /\
  exists c, In c (rs_get_controls kappa state1 state2) /\ ct_delta_s c = 0.
Proof. exact zero_length_control. Qed.
Print Assumptions C20_zero_length_refuted.

(** C21: the assertions of the eight word solvers. *)
Theorem C21_assertions_hold (x y phi t u v : R) :
  (LpSpLp x y phi = Some (t, u, v) -> assertLpSpLp x y phi t u v) /\
  (valLpSpRp x y phi = Some (t, u, v) -> assertLpSpRp x y phi t u v) /\
  (valLpRmL x y phi = Some (t, u, v) -> assertLpRmL x y phi t u v) /\
  (valLpRupLumRm x y phi = Some (t, u, v) -> assertLpRupLumRm x y phi t u v) /\
  (valLpRumLumRp x y phi = Some (t, u, v) -> assertLpRumLumRp x y phi t u v) /\
  (valLpRmSmLm x y phi = Some (t, u, v) -> assertLpRmSmLm x y phi t u v) /\
  (valLpRmSmRm x y phi = Some (t, u, v) -> assertLpRmSmRm x y phi t u v) /\
  (valLpRmSLmRp x y phi = Some (t, u, v) -> assertLpRmSLmRp x y phi t u v).
Proof. exact (rs_asserts x y phi t u v). Qed.
Print Assumptions C21_assertions_hold.

Example C21_case : LpSpLp 5 0 0 = Some (0, 5, 0).
Proof. exact LSL_straight. Qed.

(** C22 *)
Theorem C22_rigid_motion (kappa u v rho : R) (state1 state2 : State) :
  rs_distance kappa (rigid u v rho state1) (rigid u v rho state2) = rs_distance kappa state1 state2 /\
  rs_get_controls kappa (rigid u v rho state1) (rigid u v rho state2) =
  rs_get_controls kappa state1 state2.
Proof. exact (rs_rigid kappa u v rho state1 state2). Qed.
Print Assumptions C22_rigid_motion.

Example C22_case : rigid 1 2 (PI / 2) (mkState 3 4 0 0 0) <> mkState 3 4 0 0 0.
Proof.
  unfold rigid; simpl. rewrite cos_PI2, sin_PI2. intros E. injection E as E1 E2 _. lra.
Qed.

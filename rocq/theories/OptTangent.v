(** * The tangents of the planners are those of the paths CSC and CCC *)
From Coq Require Import Reals ZArith List Lra Lia Bool.
From Verif Require Import Base ModelUtil ModelCircle ModelPaths Num UtilProofs SpecPath SpecTurn SpecSide SpecOpt PoseAlg TurnProofs LegProofs TangentProofs PlanProofs PlanTactics PlanBounds PlanRadius OptProofs.
Import ListNotations.
Open Scope R_scope.

Definition conf_of (st : State) : Configuration := mkConf (st_x st) (st_y st) (st_theta st) (st_kappa st).

(** A rotation is determined by the image of one vector. *)
Lemma head_unique a b u v : u ^ 2 + v ^ 2 <> 0 -> u * cos a - v * sin a = u * cos b - v * sin b -> u * sin a + v * cos a = u * sin b + v * cos b -> ang_eq a b.
Proof.
  intros N A B. apply ang_eq_of_cos_sin; apply Rmult_eq_reg_l with (u ^ 2 + v ^ 2); try exact N.
  - transitivity (u * (u * cos a - v * sin a) + v * (u * sin a + v * cos a)); [ring|]. rewrite A, B. ring.
  - transitivity (u * (u * sin a + v * cos a) - v * (u * cos a - v * sin a)); [ring|]. rewrite A, B. ring.
Qed.
Lemma vec c1 c2 q1 q2 a b c d w : off c1 q1 a b -> off c2 q2 c d -> straight_by w q1 q2 ->
  c_xc c2 - c_xc c1 = (w + c - a) * cos (q_theta q1) - (d - b) * sin (q_theta q1) /\ c_yc c2 - c_yc c1 = (w + c - a) * sin (q_theta q1) + (d - b) * cos (q_theta q1).
Proof.
  unfold off, frame, straight_by. cbn [pcf px py pt]. intros A B (X & Y & T). apply pair_equal_spec in A, B. destruct A as [A1 A2], B as [B1 B2].
  rewrite (ang_eq_cos _ _ T), (ang_eq_sin _ _ T) in B1, B2. rewrite A1, A2, B1, B2, X, Y. split; ring.
Qed.
Lemma vec_dist c1 c2 u v a : c_xc c2 - c_xc c1 = u * cos a - v * sin a -> c_yc c2 - c_yc c1 = u * sin a + v * cos a -> center_distance c1 c2 = hyp u v.
Proof. intros A B. unfold center_distance. rewrite A, B. exact (hyp_rot u v a). Qed.

Section Tangents.
  Variables (R0 sm cm : R).
  Local Notation X := (R0 * sm).
  Local Notation Y := (R0 * cm).
  Hypothesis XP : 0 < X.
  Hypothesis YP : 0 < Y.

  Lemma TeST_unique c1 c2 l f qa qb d : c_left c1 = l -> c_forward c1 = f -> off c1 qa (- (sign f * X)) (sign l * Y) -> off c2 qb (sign f * X) (sign l * Y) ->
    straight_by (sign f * d) qa qb -> 0 <= d ->
    center_distance c1 c2 = 2 * X + d /\
    forall q1 q2, gTeST R0 sm cm c1 c2 = (q1, q2) -> ang_eq (q_theta q1) (q_theta qa) /\ ang_eq (q_theta q2) (q_theta qb) /\ configuration_distance q1 q2 = d.
  Proof.
    intros EL EF A B S D0. destruct (vec _ _ _ _ _ _ _ _ _ A B S) as [VX VY].
    replace (sign f * d + sign f * X - - (sign f * X)) with (sign f * (2 * X + d)) in VX, VY by ring. replace (sign l * Y - sign l * Y) with 0 in VX, VY by ring.
    assert (D : center_distance c1 c2 = 2 * X + d).
    { rewrite (vec_dist _ _ _ _ _ VX VY). apply hyp_eq; [lra|]. pose proof (pm1_sq _ (pm1_sign f)) as SQ. replace ((sign f * (2 * X + d)) ^ 2 + 0 ^ 2) with (sign f * sign f * (2 * X + d) ^ 2) by ring. rewrite SQ. ring. }
    split; [exact D|]. intros q1 q2 G. destruct (TeST_off _ _ _ _ _ _ _ G) as (O1 & O2 & SB). rewrite EF, EL, D in *.
    destruct (vec _ _ _ _ _ _ _ _ _ O1 O2 SB) as [WX WY]. replace (sign f * (2 * X + d - 2 * X) + sign f * X - - sign f * X) with (sign f * (2 * X + d)) in WX, WY by ring. replace (sign l * Y - sign l * Y) with 0 in WX, WY by ring.
    assert (H : ang_eq (q_theta q1) (q_theta qa)).
    { apply head_unique with (sign f * (2 * X + d)) 0; [|congruence|congruence]. pose proof (pm1_sq _ (pm1_sign f)) as SQ. replace ((sign f * (2 * X + d)) ^ 2 + 0 ^ 2) with (sign f * sign f * (2 * X + d) ^ 2) by ring. rewrite SQ. nra. }
    split; [exact H|]. split.
    - destruct SB as (_ & _ & S1), S as (_ & _ & S2). eapply ang_eq_trans; [exact S1|]. eapply ang_eq_trans; [exact H|]. apply ang_eq_sym, S2.
    - rewrite (straight_by_dist _ _ _ SB). replace (2 * X + d - 2 * X) with d by ring. apply abs_pm; [apply pm1_sign|exact D0].
  Qed.

  Lemma TiST_unique c1 c2 l f qa qb d : c_left c1 = l -> c_forward c1 = f -> off c1 qa (- (sign f * X)) (sign l * Y) -> off c2 qb (sign f * X) (- (sign l * Y)) ->
    straight_by (sign f * d) qa qb -> 0 <= d -> 0 <= R0 -> R0 ^ 2 = X ^ 2 + Y ^ 2 ->
    2 * R0 <= center_distance c1 c2 /\ 0 < center_distance c1 c2 /\
    forall q1 q2, gTiST R0 sm cm c1 c2 = Some (q1, q2) -> ang_eq (q_theta q1) (q_theta qa) /\ ang_eq (q_theta q2) (q_theta qb) /\ configuration_distance q1 q2 = d.
  Proof.
    intros EL EF A B S D0 RP RR. destruct (vec _ _ _ _ _ _ _ _ _ A B S) as [VX VY].
    replace (sign f * d + sign f * X - - (sign f * X)) with (sign f * (2 * X + d)) in VX, VY by ring. replace (- (sign l * Y) - sign l * Y) with (- sign l * (2 * Y)) in VX, VY by ring.
    pose proof (pm1_sq _ (pm1_sign f)) as SF. pose proof (pm1_sq _ (pm1_sign l)) as SL.
    assert (D : center_distance c1 c2 ^ 2 = (2 * X + d) ^ 2 + (2 * Y) ^ 2).
    { rewrite (vec_dist _ _ _ _ _ VX VY), hyp_sq. replace ((sign f * (2 * X + d)) ^ 2) with (sign f * sign f * (2 * X + d) ^ 2) by ring. replace ((- sign l * (2 * Y)) ^ 2) with (sign l * sign l * (2 * Y) ^ 2) by ring. rewrite SF, SL. ring. }
    assert (DP : 0 <= center_distance c1 c2) by apply sqrt_pos. set (DD := center_distance c1 c2) in *.
    split; [apply Rsqr_incr_0_var; [unfold Rsqr; nra|exact DP]|]. split; [destruct DP as [DP|DP]; [exact DP|rewrite <- DP in D; nra]|].
    intros q1 q2 G. destruct (TiST_off _ _ _ _ _ _ _ G) as (O1 & O2 & w & W0 & W2 & SB). fold DD in W2. rewrite EF, EL in *.
    assert (W : w = 2 * X + d) by (apply Rsqr_inj; [exact W0|lra|unfold Rsqr; nra]). subst w.
    destruct (vec _ _ _ _ _ _ _ _ _ O1 O2 SB) as [WX WY]. replace (sign f * (2 * X + d - 2 * X) + sign f * X - - sign f * X) with (sign f * (2 * X + d)) in WX, WY by ring. replace (- sign l * Y - sign l * Y) with (- sign l * (2 * Y)) in WX, WY by ring.
    assert (H : ang_eq (q_theta q1) (q_theta qa)).
    { apply head_unique with (sign f * (2 * X + d)) (- sign l * (2 * Y)); [|congruence|congruence].
      replace ((sign f * (2 * X + d)) ^ 2) with (sign f * sign f * (2 * X + d) ^ 2) by ring. replace ((- sign l * (2 * Y)) ^ 2) with (sign l * sign l * (2 * Y) ^ 2) by ring. rewrite SF, SL. nra. }
    split; [exact H|]. split.
    - destruct SB as (_ & _ & S1), S as (_ & _ & S2). eapply ang_eq_trans; [exact S1|]. eapply ang_eq_trans; [exact H|]. apply ang_eq_sym, S2.
    - rewrite (straight_by_dist _ _ _ SB). replace (2 * X + d - 2 * X) with d by ring. apply abs_pm; [apply pm1_sign|exact D0].
  Qed.

  Lemma straight_0 q : straight_by 0 q q.
  Proof. unfold straight_by. rewrite !Rmult_0_l, !Rplus_0_r. repeat split; apply ang_eq_refl. Qed.

  (** Two turns that meet without a straight line between them. *)
  Lemma TT_unique c1 c2 l f mu q : c_left c1 = l -> c_forward c1 = f -> sm = sin mu -> cm = cos mu -> 0 <= R0 -> off c1 q (- (sign f * X)) (sign l * Y) -> off c2 q (sign f * X) (- (sign l * Y)) ->
    center_distance c1 c2 = 2 * R0 /\ ang_eq (q_theta (gTT mu c1 c2)) (q_theta q).
  Proof.
    intros EL EF SM CM RP A B. destruct (vec _ _ _ _ _ _ _ _ _ A B (straight_0 q)) as [VX VY].
    replace (0 + sign f * X - - (sign f * X)) with (sign f * (2 * X)) in VX, VY by ring. replace (- (sign l * Y) - sign l * Y) with (- sign l * (2 * Y)) in VX, VY by ring.
    pose proof (pm1_sq _ (pm1_sign f)) as SF. pose proof (pm1_sq _ (pm1_sign l)) as SL.
    assert (D : center_distance c1 c2 = 2 * R0).
    { rewrite (vec_dist _ _ _ _ _ VX VY). apply hyp_eq; [lra|]. replace ((sign f * (2 * X)) ^ 2) with (sign f * sign f * (2 * X) ^ 2) by ring. replace ((- sign l * (2 * Y)) ^ 2) with (sign l * sign l * (2 * Y) ^ 2) by ring. rewrite SF, SL, SM, CM.
      pose proof (sin2_cos2' mu) as T. replace (1 * (2 * (R0 * sin mu)) ^ 2 + 1 * (2 * (R0 * cos mu)) ^ 2) with ((2 * R0) ^ 2 * (sin mu * sin mu + cos mu * cos mu)) by ring. rewrite T. ring. }
    split; [exact D|]. destruct (TT_off mu c1 c2) as [O1 O2]. rewrite D, EF, EL in O1, O2. replace (2 * R0 / 2) with R0 in O1, O2 by field. rewrite <- SM, <- CM in O1, O2.
    destruct (vec _ _ _ _ _ _ _ _ _ O1 O2 (straight_0 _)) as [WX WY]. replace (0 + sign f * X - - sign f * X) with (sign f * (2 * X)) in WX, WY by ring. replace (- sign l * Y - sign l * Y) with (- sign l * (2 * Y)) in WX, WY by ring.
    apply head_unique with (sign f * (2 * X)) (- sign l * (2 * Y)); [|congruence|congruence].
    replace ((sign f * (2 * X)) ^ 2) with (sign f * sign f * (2 * X) ^ 2) by ring. replace ((- sign l * (2 * Y)) ^ 2) with (sign l * sign l * (2 * Y) ^ 2) by ring. rewrite SF, SL. nra.
  Qed.
End Tangents.

(** The points at a distance from two centres. *)
Lemma apex c1 c2 u v rho : let D := center_distance c1 c2 in let an := atan2 (c_yc c2 - c_yc c1) (c_xc c2 - c_xc c1) in
  0 < D -> 0 <= rho -> hyp (u - c_xc c1) (v - c_yc c1) = rho -> hyp (c_xc c2 - u) (c_yc c2 - v) = rho ->
  D <= 2 * rho /\ let dy := sqrt (rho ^ 2 - (5 / 10 * D) ^ 2) in
  (global_frame_change (c_xc c1) (c_yc c1) an (5 / 10 * D) dy = (u, v) \/ global_frame_change (c_xc c1) (c_yc c1) an (5 / 10 * D) (- dy) = (u, v)).
Proof.
  intros D an DP RP A B. destruct (centres c1 c2) as (_ & X2 & Y2). fold D an in X2, Y2.
  set (p := (u - c_xc c1) * cos an + (v - c_yc c1) * sin an). set (q := - (u - c_xc c1) * sin an + (v - c_yc c1) * cos an).
  pose proof (cos_sq an) as T.
  assert (U : u = c_xc c1 + p * cos an - q * sin an) by (unfold p, q; ring [T]). assert (V : v = c_yc c1 + p * sin an + q * cos an) by (unfold p, q; ring [T]).
  assert (E1 : p ^ 2 + q ^ 2 = rho ^ 2) by (rewrite <- A, hyp_sq; unfold p, q; ring [T]).
  assert (E2 : (D - p) ^ 2 + q ^ 2 = rho ^ 2).
  { rewrite <- B, hyp_sq. rewrite X2, Y2, U, V. ring [T]. }
  assert (P : p = 5 / 10 * D) by nra.
  assert (Q : rho ^ 2 - (5 / 10 * D) ^ 2 = q ^ 2) by (rewrite <- P; lra).
  split; [apply Rsqr_incr_0_var; [unfold Rsqr; nra|lra]|]. cbv zeta. rewrite Q, <- P. unfold global_frame_change.
  destruct (Rle_dec 0 q) as [QP|QN].
  - left. rewrite sqrt_pow2 by exact QP. rewrite U at 1. rewrite V at 1. f_equal; ring.
  - right. replace (q ^ 2) with ((- q) ^ 2) by ring. rewrite sqrt_pow2 by lra. rewrite U at 1. rewrite V at 1. f_equal; ring.
Qed.

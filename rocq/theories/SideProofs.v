(** * The circles of states that are clear of each other *)
From Coq Require Import Reals ZArith List Lra Lia Bool.
From Verif Require Import Base ModelUtil ModelCircle ModelPaths Num UtilProofs SpecPath SpecTurn SpecPlan SpecSide PoseAlg TurnProofs TurnCases MotionProofs TangentProofs PlanProofs PlanTactics PlanHybrid PlanFamily PlanBounds PlanSelect PlanRefute.
Import ListNotations.
Open Scope R_scope.

Lemma apart_unequal s1 s2 a b : poses_apart s1 s2 ->
  a = configuration (st_x s1) (st_y s1) (st_theta s1) (q_kappa a) -> b = configuration (st_x s2) (st_y s2) (st_theta s2) (q_kappa b) -> configuration_equal a b = false.
Proof.
  intros A C1 C2. destruct (configuration_equal a b) eqn:E; [|reflexivity]. exfalso. apply conf_equal_iff in E. destruct E as (ET & ED). rewrite C1, C2 in ET, ED.
  unfold configuration_distance, point_distance, configuration in ET, ED; cbn [q_x q_y q_theta] in ET, ED. destruct A as [A|A]; [|lra].
  unfold pos_dist in A. replace ((st_x s1 - st_x s2) ^ 2 + (st_y s1 - st_y s2) ^ 2) with ((st_x s2 - st_x s1) ^ 2 + (st_y s2 - st_y s1) ^ 2) in A by ring. lra.
Qed.
Lemma off_beside c s1 a lx ly : a = configuration (st_x s1) (st_y s1) (st_theta s1) (q_kappa a) -> off c a lx ly -> (c_xc c, c_yc c) = beside s1 lx ly.
Proof.
  intros C O. unfold off in O. rewrite O. rewrite C. unfold frame, beside, pcf, configuration; cbn [px py pt q_x q_y q_theta].
  rewrite (ang_eq_sin _ _ (twopify_ang (st_theta s1))), (ang_eq_cos _ _ (twopify_ang (st_theta s1))). reflexivity.
Qed.
Lemma gap_centres c1 c2 u v : (c_xc c1, c_yc c1) = u -> (c_xc c2, c_yc c2) = v -> center_distance c1 c2 = gap u v.
Proof. intros <- <-. reflexivity. Qed.
Lemma arc_away k s1 l c1 b s2 : (c_xc c1, c_yc c1) = arc_centre k l s1 -> c_radius c1 = 1 / k -> b = configuration (st_x s2) (st_y s2) (st_theta s2) (q_kappa b) ->
  epsilon < Rabs (gap (arc_centre k l s1) (st_x s2, st_y s2) - 1 / k) -> configuration_on_hc_cc_circle c1 b = false.
Proof.
  intros O R1 C2 A. unfold configuration_on_hc_cc_circle. cbv zeta. rewrite <- O in A. unfold gap in A; cbn [fst snd] in A.
  destruct (Rlt_dec _ _) as [_|N]; [reflexivity|]. exfalso. apply N. rewrite R1. rewrite C2. unfold point_distance, configuration; cbn [q_x q_y]. exact A.
Qed.

Lemma pos_left x y : 0 < x -> 0 < x * y -> 0 < y.
Proof. intros X P. destruct (Rlt_dec 0 y) as [Y|Y]; [exact Y|]. exfalso. assert (x * y <= x * 0) by (apply Rmult_le_compat_l; lra). lra. Qed.
Lemma neg_both x y : ~ 0 < x -> 0 < x * y -> x < 0 /\ y < 0.
Proof.
  intros X P. assert (x < 0) by (destruct (Req_dec x 0) as [->|]; lra). split; [assumption|].
  apply Ropp_lt_cancel. rewrite Ropp_0. apply (pos_left (- x)); [lra|]. replace (- x * - y) with (x * y) by ring. exact P.
Qed.

(** ** A concrete case: states that are far apart *)
Lemma beside_far q lx ly : hyp (fst (beside q lx ly) - st_x q) (snd (beside q lx ly) - st_y q) = hyp lx ly.
Proof.
  unfold beside, hyp; cbn [fst snd]. f_equal. pose proof (sin2_cos2 (st_theta q)) as E. unfold Rsqr in E.
  replace (st_x q + lx * cos (st_theta q) - ly * sin (st_theta q) - st_x q) with (lx * cos (st_theta q) - ly * sin (st_theta q)) by ring.
  replace (st_y q + lx * sin (st_theta q) + ly * cos (st_theta q) - st_y q) with (lx * sin (st_theta q) + ly * cos (st_theta q)) by ring.
  transitivity ((lx ^ 2 + ly ^ 2) * (sin (st_theta q) * sin (st_theta q) + cos (st_theta q) * cos (st_theta q))); [ring|rewrite E; ring].
Qed.
Lemma gap_far s1 s2 lx1 ly1 lx2 ly2 : pos_dist s1 s2 <= gap (beside s1 lx1 ly1) (beside s2 lx2 ly2) + hyp lx1 ly1 + hyp lx2 ly2.
Proof.
  rewrite <- (beside_far s1 lx1 ly1), <- (beside_far s2 lx2 ly2). destruct (beside s1 lx1 ly1) as [x1 y1]. destruct (beside s2 lx2 ly2) as [x2 y2]. unfold gap; cbn [fst snd].
  change (sqrt ((x2 - x1) ^ 2 + (y2 - y1) ^ 2)) with (hyp (x2 - x1) (y2 - y1)). change (pos_dist s1 s2) with (hyp (st_x s1 - st_x s2) (st_y s1 - st_y s2)).
  rewrite <- (hyp_opp (x2 - x1)), <- (hyp_opp (x1 - st_x s1)).
  pose proof (hyp_add (- (x2 - x1)) (- (y2 - y1)) (- (x1 - st_x s1)) (- (y1 - st_y s1))) as A.
  pose proof (hyp_add (- (x2 - x1) + - (x1 - st_x s1)) (- (y2 - y1) + - (y1 - st_y s1)) (x2 - st_x s2) (y2 - st_y s2)) as B.
  replace (- (x2 - x1) + - (x1 - st_x s1) + (x2 - st_x s2)) with (st_x s1 - st_x s2) in B by ring.
  replace (- (y2 - y1) + - (y1 - st_y s1) + (y2 - st_y s2)) with (st_y s1 - st_y s2) in B by ring. lra.
Qed.
Lemma far_clear ka kb : let s1 := mkState 0 0 0 ka 1 in let s2 := mkState 60 80 0 kb 1 in
  pos_dist s1 s2 = 100 /\ pos_dist s1 s2 + detour 1 1 < DBL_MAX /\ clear_0pm 1 1 s1 s2 /\ clear_pm0 1 1 s1 s2 /\ clear_pmpm 1 s1 s2.
Proof.
  intros s1 s2. assert (D : pos_dist s1 s2 = 100).
  { unfold s1, s2, pos_dist; cbn [st_x st_y]. replace ((0 - 60) ^ 2 + (0 - 80) ^ 2) with (100 ^ 2) by ring. apply sqrt_pow2; lra. }
  split; [exact D|]. split; [rewrite D; unfold detour; apply Rlt_le_trans with 1000; [lra|]; unfold DBL_MAX; apply IZR_le; vm_compute; discriminate|].
  assert (A : poses_apart s1 s2) by (left; rewrite D; unfold epsilon; lra). destruct unit_facts as ((R0 & R1) & _). assert (H1 : 0 < 1) by lra.
  assert (T : forall l f, hyp (sign f * (p_radius (hc_cc_param 1 1) * p_sin_mu (hc_cc_param 1 1))) (sign l * (p_radius (hc_cc_param 1 1) * p_cos_mu (hc_cc_param 1 1))) <= 42 / 10).
  { intros l f. rewrite (radius_XY 1 1 H1 H1 _ _ (pm1_sign f) (pm1_sign l)). lra. }
  assert (C : forall l, hyp 0 (sign l * (1 / 1)) = 1) by (intros l; apply hyp_eq; [lra|]; destruct l; unfold sign; field).
  split; [|split]; (split; [exact A|]).
  - intros l f. pose proof (gap_far s1 s2 (sign f * (p_radius (hc_cc_param 1 1) * p_sin_mu (hc_cc_param 1 1))) (sign l * (p_radius (hc_cc_param 1 1) * p_cos_mu (hc_cc_param 1 1))) 0 (sign (negb l) * (1 / 1))) as G.
    rewrite C in G. pose proof (T l f). unfold turn_centre, arc_centre, epsilon. lra.
  - intros l f. pose proof (gap_far s1 s2 0 (sign (negb l) * (1 / 1)) (sign f * (p_radius (hc_cc_param 1 1) * p_sin_mu (hc_cc_param 1 1))) (sign l * (p_radius (hc_cc_param 1 1) * p_cos_mu (hc_cc_param 1 1)))) as G.
    rewrite C in G. pose proof (T l f). unfold turn_centre, arc_centre, epsilon. lra.
  - right. intros l. pose proof (gap_far s1 s2 0 (sign l * (1 / 1)) 0 0) as G. rewrite C, hyp_00 in G. replace (beside s2 0 0) with (st_x s2, st_y s2) in G by (unfold beside; f_equal; ring).
    unfold arc_centre, epsilon. rewrite Rabs_pos_eq; lra.
Qed.

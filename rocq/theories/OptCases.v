(** * Concrete paths CSC *)
From Coq Require Import Reals ZArith List Lra Lia Bool.
From Verif Require Import DistPlan.
From Verif Require DubinsOpt.
From Verif Require Import Base ModelUtil ModelCircle ModelPaths Num UtilProofs SpecPath SpecTurn SpecSide SpecPlan SpecOpt PoseAlg TurnProofs MotionProofs LegProofs TangentProofs PlanProofs PlanTactics PlanRefute OptProofs OptTangent OptWord OptTactics.
Import ListNotations.
Open Scope R_scope.

(** The chord of a path of the library. *)
Lemma chord st cs : pos_dist st (lib_path st cs) <= total_length cs + fresnel_error cs.
Proof.
  pose proof (path_dist cs st) as A. destruct (lib_path_near cs st st 0) as [B _].
  { split; [unfold hyp; rewrite !Rminus_diag_eq by reflexivity; replace (0 ^ 2 + 0 ^ 2) with 0 by ring; rewrite sqrt_0; lra|]. exists 0%Z. replace (pt (pst st) - pt (pst st) - 2 * PI * 0) with 0 by ring. rewrite Rabs_R0. lra. }
  pose proof (DubinsOpt.pos_dist_triangle st (true_path st cs) (lib_path st cs)) as C. change (pos_dist (true_path st cs) (lib_path st cs) <= 0 + fresnel_error cs) in B. lra.
Qed.

(** The circles of a path CSC to one side are apart by the straight line and the two turns. *)
Lemma csc_gap k s z1 z2 l f a1 d a2 s1 s2 : 0 < k -> 0 < s -> epsilon < k / s -> 0 <= d -> same_pose (lib_path s1 (csc k s z1 z2 l l f a1 d a2)) s2 ->
  d <= gap (end_centre k s z1 l f s1) (end_centre k s z2 l (negb f) s2).
Proof.
  intros Hk Hs HE D W. destruct (csc_word k s Hk Hs HE _ _ _ _ _ _ _ _ _ _ W) as (qa & qb & T1 & S & T2). destruct (XY_eq k s Hk Hs HE) as (_ & _ & XP & _).
  destruct (end_centre k s z1 l f s1) as [x1 y1] eqn:C1. destruct (end_centre k s z2 l (negb f) s2) as [x2 y2] eqn:C2.
  pose (c1 := mkCircle qa l f true x1 y1 0 0 0 0 0 0 0 0). pose (c2 := mkCircle qb l (negb f) true x2 y2 0 0 0 0 0 0 0 0).
  assert (A : at_start k s z1 s1 c1 l f).
  { split; [reflexivity|split; [reflexivity|]]. change ((x1, y1) = frame (pst s1) (if z1 then sign f * (p_radius (hc_cc_param k s) * p_sin_mu (hc_cc_param k s)) else 0) (sign l * if z1 then p_radius (hc_cc_param k s) * p_cos_mu (hc_cc_param k s) else 1 / k)). rewrite <- C1. destruct z1; reflexivity. }
  assert (B : (x2, y2) = frame (pst s2) (if z2 then - (sign f * (p_radius (hc_cc_param k s) * p_sin_mu (hc_cc_param k s))) else 0) (sign l * if z2 then p_radius (hc_cc_param k s) * p_cos_mu (hc_cc_param k s) else 1 / k)).
  { rewrite <- C2. unfold end_centre. destruct z2; [|reflexivity]. unfold turn_centre, beside, frame, pst; cbn [px py pt]. rewrite sign_negb. apply injective_projections; cbn [fst snd]; ring. }
  destruct A as (_ & _ & A).
  assert (OA : off c1 qa (- (sign f * (p_radius (hc_cc_param k s) * p_sin_mu (hc_cc_param k s)))) (sign l * (p_radius (hc_cc_param k s) * p_cos_mu (hc_cc_param k s)))) by (unfold off; rewrite A; exact (proj1 T1)).
  assert (OB : off c2 qb (sign f * (p_radius (hc_cc_param k s) * p_sin_mu (hc_cc_param k s))) (sign l * (p_radius (hc_cc_param k s) * p_cos_mu (hc_cc_param k s)))).
  { unfold off. change ((x2, y2) = frame (pcf qb) (sign f * (p_radius (hc_cc_param k s) * p_sin_mu (hc_cc_param k s))) (sign l * (p_radius (hc_cc_param k s) * p_cos_mu (hc_cc_param k s)))). rewrite B. symmetry. exact (proj1 T2). }
  destruct (TeST_unique _ _ _ XP c1 c2 l f qa qb d eq_refl eq_refl OA OB S D) as [G _].
  change (d <= center_distance c1 c2). lra.
Qed.

(** A turn, a straight line of length 100 and a turn, all to the left. *)
Definition case_start (z : bool) : State := mkState 1 2 3 (if z then 0 else 1) 1.
Definition case_word (z1 z2 forward : bool) : list Control := csc 1 1 z1 z2 true true forward 1 100 1.
Definition case_goal (z1 z2 forward : bool) : State := lib_path (case_start z1) (case_word z1 z2 forward).

Lemma case_bound z1 z2 f : Rmax (total_length (case_word z1 z2 f)) (pos_dist (case_start z1) (case_goal z1 z2 f)) < DBL_MAX.
Proof.
  assert (H1 : 0 < 1) by lra. assert (T : total_length (case_word z1 z2 f) <= 106).
  { unfold case_word. rewrite (csc_length 1 1 H1 H1) by lra. unfold end_len. destruct z1, z2; lra. }
  assert (F : fresnel_error (case_word z1 z2 f) <= 1).
  { assert (SQ : sqrt (PI / 1) <= 2). { rewrite <- (sqrt_pow2 2) by lra. apply sqrt_le_1_alt. pose proof PI_4. lra. }
    assert (SP := sqrt_pos (PI / 1)). unfold case_word, csc, first_turn, last_turn. destruct z1, z2; cbn [app fresnel_error fold_right steer arc unsteer line ct_sigma];
      repeat match goal with |- context [Req_EM_T ?u 0] => destruct (Req_EM_T u 0) end; unfold sign in *; rewrite ?Rabs_Ropp, ?Rmult_1_l, ?Rabs_R1; lra. }
  pose proof (chord (case_start z1) (case_word z1 z2 f)) as C. fold (case_goal z1 z2 f) in C.
  apply Rle_lt_trans with 1000; [apply Rmax_lub; lra|]. unfold DBL_MAX. apply IZR_lt. vm_compute. reflexivity.
Qed.
Lemma case_shape z1 z2 f : dubins_shape 1 1 z1 z2 f true true (case_word z1 z2 f) /\ same_pose (lib_path (case_start z1) (case_word z1 z2 f)) (case_goal z1 z2 f).
Proof. split; [apply shape_csc; lra|]. repeat split; apply ang_eq_refl. Qed.
Lemma case_gap z1 z2 f : 100 <= gap (end_centre 1 1 z1 true f (case_start z1)) (end_centre 1 1 z2 true (negb f) (case_goal z1 z2 f)).
Proof. assert (H1 : 0 < 1) by lra. apply (csc_gap 1 1 z1 z2 true f 1 100 1); [exact H1|exact H1|unfold epsilon; lra|lra|apply case_shape]. Qed.
Lemma case_side1 : on_side true (case_start false).
Proof. split; [reflexivity|]. cbn [case_start st_kappa]. lra. Qed.
Lemma case_side2 z1 f : on_side true (case_goal z1 false f).
Proof.
  split; [reflexivity|]. unfold case_goal, case_word, csc, last_turn. rewrite (app_assoc (first_turn _ _ _ _ _ _)), lib_app. set (st := lib_path (case_start _) _).
  change (st_kappa (lib_move (lib_move st (steer 1 1 true f)) (arc 1 true f 1)) < 0 -> true = false). unfold lib_move at 1. cbn [arc ct_sigma].
  destruct (Req_EM_T 0 0) as [_|N]; [|lra]. unfold drive. cbn [ct_kappa ct_delta_s]. destruct (Req_EM_T _ 0); cbn [st_kappa]; unfold sign in *; intros; exfalso; cbn in *; lra.
Qed.
Lemma case_00 f : no_turn_00 1 1 true f (case_start true) (case_goal true true f).
Proof. destruct unit_facts as ((_ & R) & _). eapply Rlt_le_trans; [|exact (case_gap true true f)]. unfold epsilon. lra. Qed.
Lemma case_0pm f : no_turn_0pm 1 1 true true f (case_start true) (case_goal true false f).
Proof. eapply Rle_trans; [|exact (case_gap true false f)]. unfold epsilon. lra. Qed.
Lemma case_pm0 f : no_turn_pm0 1 1 true true f (case_start false) (case_goal false true f).
Proof. eapply Rle_trans; [|exact (case_gap false true f)]. unfold epsilon. lra. Qed.
Lemma case_pmpm f : no_turn_pmpm 1 true (case_start false) (case_goal false false f).
Proof. eapply Rlt_le_trans; [|exact (case_gap false false f)]. unfold epsilon. lra. Qed.

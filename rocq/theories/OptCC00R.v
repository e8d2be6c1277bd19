(** * Candidates of ModelCC00R.v against the paths CSC and CCC *)
From Coq Require Import Reals ZArith List Lra Lia Bool.
From Verif Require Import PlanCC00R.
From Verif Require Import Base ModelUtil ModelCircle ModelPaths ModelCC00R Num UtilProofs SpecPath SpecTurn SpecSide SpecPlan SpecOpt PoseAlg TurnProofs LegProofs TangentProofs PlanProofs PlanTactics PlanFamily PlanBounds PlanSelect PlanRadius OptProofs OptTangent OptWord OptTactics.
Import ListNotations.
Open Scope R_scope.

Lemma TT_eq k s c1 c2 : c_mu c1 = (p_mu (hc_cc_param k s)) -> TT_tangent_circles c1 c2 = gTT (p_mu (hc_cc_param k s)) c1 c2.
Proof. intros M. change (TT_tangent_circles c1 c2) with (gTT (c_mu c1) c1 c2). rewrite M. reflexivity. Qed.
Lemma TiST_eq k s c1 c2 : c_radius c1 = (p_radius (hc_cc_param k s)) -> c_sin_mu c1 = (p_sin_mu (hc_cc_param k s)) -> c_cos_mu c1 = (p_cos_mu (hc_cc_param k s)) -> TiST_tangent_circles c1 c2 = gTiST (p_radius (hc_cc_param k s)) (p_sin_mu (hc_cc_param k s)) (p_cos_mu (hc_cc_param k s)) c1 c2.
Proof. intros R1 S1 C1. rewrite <- R1, <- S1, <- C1. reflexivity. Qed.
Lemma TeST_eq k s c1 c2 : c_radius c1 = (p_radius (hc_cc_param k s)) -> c_sin_mu c1 = (p_sin_mu (hc_cc_param k s)) -> c_cos_mu c1 = (p_cos_mu (hc_cc_param k s)) -> TeST_tangent_circles c1 c2 = gTeST (p_radius (hc_cc_param k s)) (p_sin_mu (hc_cc_param k s)) (p_cos_mu (hc_cc_param k s)) c1 c2.
Proof. intros R1 S1 C1. rewrite <- R1, <- S1, <- C1. reflexivity. Qed.

Lemma opt_table k s s1 s2 a b l1 l2 f c1 c2 cs : 0 < k -> 0 < s -> epsilon < k / s -> at_conf s1 a -> at_conf s2 b ->
  c1 = circle a l1 f false (hc_cc_param k s) -> c2 = circle b l2 (negb f) false (hc_cc_param k s) -> no_turn_00 k s l1 f s1 s2 ->
  dubins_shape k s true true f l1 l2 cs -> same_pose (lib_path s1 cs) s2 ->
  exists e w, In e (circles_table k s c1 c2) /\ e_length e = Some w /\ w <= Rmax (total_length cs) (pos_dist s1 s2).
Proof.
  intros Hk Hs HE A B H1 H2 NT SH W. pose proof (total_nonneg cs) as TN.
  destruct (facts_cc k s c1 a l1 f false Hk H1) as (S1 & EL1 & F1 & G1 & R1 & M1 & SM1 & CM1 & _ & _ & _ & _ & O1). destruct (facts_cc k s c2 b l2 (negb f) false Hk H2) as (S2 & EL2 & F2 & G2 & R2 & M2 & SM2 & CM2 & _ & _ & _ & _ & O2).
  assert (AS : at_start k s true s1 c1 l1 f) by (apply (start_cc k s s1 a); assumption). assert (AE : at_end k s true s2 c2 l2 f) by (apply (end_cc k s s2 b); assumption).
  unfold circles_table. cbv zeta. rewrite S1, S2. set (an := atan2 _ _).
  destruct (configuration_equal a b); [eexists _, 0; split; [left; reflexivity|split; [reflexivity|eapply Rle_trans; [exact TN|apply Rmax_l]]]|].
  destruct (configuration_aligned a b); [eexists _, _; split; [right; left; reflexivity|split; [reflexivity|rewrite (conf_dist_states s1 s2 a b A B); apply Rmax_r]]|].
  destruct (configuration_aligned b a); [eexists _, _; split; [right; left; reflexivity|split; [reflexivity|rewrite (conf_dist_states s2 s1 b a B A), pos_dist_flip; apply Rmax_r]]|].
  destruct (configuration_on_hc_cc_circle c1 b) eqn:QT; [exfalso; exact (no_turn_cc k s s1 s2 b l1 f c1 Hk Hs AS B R1 M1 SM1 CM1 NT QT)|].
  destruct SH as [l1 l2 a1 d a2 A1 D A2|l a1 a2 a3 A1 A2 A3].
  - destruct (Bool.bool_dec l1 l2) as [E|E].
    + destruct E. destruct (csc_same k s Hk Hs HE true true f s1 s2 a b c1 c2 A B l1 a1 d a2 AS AE A1 D A2 W) as [LE U].
      apply in_table with (e := entry_TST (center_distance c1 c2) an c1 c2); [do 8 right; left; reflexivity|]. unfold entry_TST, TST_exists, TST_path, TiST_exists, TeST_exists. opt_flags.
      unfold TeST_path. rewrite (TeST_eq k s) by assumption. destruct (gTeST _ _ _ c1 c2) as [q1 q2] eqn:G. destruct (U q1 q2 eq_refl) as (T1 & DD & T2). opt_close (csc_length k s Hk Hs).
    + assert (E2 : negb l1 = l2) by (clear - E; destruct l1, l2; try reflexivity; exfalso; apply E; reflexivity). destruct E2. destruct (csc_other k s Hk Hs HE true true f s1 s2 a b c1 c2 A B l1 a1 d a2 AS AE A1 D A2 W) as (LE & q1 & q2 & G & T1 & DD & T2).
      apply in_table with (e := entry_TST (center_distance c1 c2) an c1 c2); [do 8 right; left; reflexivity|]. unfold entry_TST, TST_exists, TST_path, TiST_exists, TeST_exists. opt_flags.
      unfold TiST_path. rewrite (TiST_eq k s) by assumption. rewrite G. opt_close (csc_length k s Hk Hs).
  - pose proof (far_00 k s s1 s2 c1 c2 l f Hk Hs AS AE NT) as D0.
    destruct (ccc_any k s Hk Hs HE true true f s1 s2 a b c1 c2 A B l a1 a2 a3 AS AE D0 A1 A2 A3 W) as (LE & SQ & U).
    apply in_table with (e := entry_TTT k s (center_distance c1 c2) an c1 c2); [do 14 right; left; reflexivity|]. unfold entry_TTT, TTT_exists. opt_flags.
    unfold TTT_path, TTT_tangent_circles. opt_middle U. rewrite !(TT_eq k s) by assumption. opt_pick (ccc_length k s Hk Hs).
Qed.

Theorem cc00_reeds_shepp_opt k s s1 s2 l1 l2 f cs : 0 < k -> 0 < s -> epsilon < k / s -> Rmax (total_length cs) (pos_dist s1 s2) < DBL_MAX -> no_turn_00 k s l1 f s1 s2 ->
  dubins_shape k s true true f l1 l2 cs -> same_pose (lib_path s1 cs) s2 ->
  exists D, get_distance k s s1 s2 = Some (Some D) /\ D <= Rmax (total_length cs) (pos_dist s1 s2).
Proof.
  intros Hk Hs HE LM NT SH W.
  assert (ST : forall i j c1 c2 a b, (i < 4)%nat -> (j < 4)%nat -> skipped s1 s2 i j = false -> nth_error (start_circles k s s1) i = Some c1 -> nth_error (end_circles k s s2) j = Some c2 ->
    c1 = circle a l1 f false (hc_cc_param k s) -> c2 = circle b l2 (negb f) false (hc_cc_param k s) -> at_conf s1 a -> at_conf s2 b -> exists D, get_distance k s s1 s2 = Some (Some D) /\ D <= Rmax (total_length cs) (pos_dist s1 s2)).
  { intros i j c1 c2 a b LI LJ SK N1 N2 H1 H2 A B. destruct (opt_table k s s1 s2 a b l1 l2 f c1 c2 cs Hk Hs HE A B H1 H2 NT SH W) as (e & w & IN & EW & LE).
    destruct (plan_exists hc_cc_rs_types (circles_table k s) (skipped s1 s2) (start_circles k s s1) (end_circles k s s2) 4 4 i j c1 c2 e w (table_first k s) (table_length k s) LI LJ SK N1 N2 IN EW ltac:(lra)) as (p & L & P & EP & LM2 & LW).
    assert (PP : cc00_reeds_shepp k s s1 s2 = Some p) by exact P. exists L. unfold get_distance. rewrite PP. unfold path_distance. rewrite EP. split; [reflexivity|lra]. }
  clear NT SH. destruct l1, l2, f.
  - refine (ST 0%nat 2%nat _ _ _ _ ltac:(lia) ltac:(lia) _ eq_refl eq_refl eq_refl eq_refl (at_configuration _ _) (at_configuration _ _)). opt_skip.
  - refine (ST 2%nat 0%nat _ _ _ _ ltac:(lia) ltac:(lia) _ eq_refl eq_refl eq_refl eq_refl (at_configuration _ _) (at_configuration _ _)). opt_skip.
  - refine (ST 0%nat 3%nat _ _ _ _ ltac:(lia) ltac:(lia) _ eq_refl eq_refl eq_refl eq_refl (at_configuration _ _) (at_configuration _ _)). opt_skip.
  - refine (ST 2%nat 1%nat _ _ _ _ ltac:(lia) ltac:(lia) _ eq_refl eq_refl eq_refl eq_refl (at_configuration _ _) (at_configuration _ _)). opt_skip.
  - refine (ST 1%nat 2%nat _ _ _ _ ltac:(lia) ltac:(lia) _ eq_refl eq_refl eq_refl eq_refl (at_configuration _ _) (at_configuration _ _)). opt_skip.
  - refine (ST 3%nat 0%nat _ _ _ _ ltac:(lia) ltac:(lia) _ eq_refl eq_refl eq_refl eq_refl (at_configuration _ _) (at_configuration _ _)). opt_skip.
  - refine (ST 1%nat 3%nat _ _ _ _ ltac:(lia) ltac:(lia) _ eq_refl eq_refl eq_refl eq_refl (at_configuration _ _) (at_configuration _ _)). opt_skip.
  - refine (ST 3%nat 1%nat _ _ _ _ ltac:(lia) ltac:(lia) _ eq_refl eq_refl eq_refl eq_refl (at_configuration _ _) (at_configuration _ _)). opt_skip.
Qed.

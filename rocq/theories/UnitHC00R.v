(** * Candidates of ModelHC00R.v for goals at the end of one turn or one straight line *)
From Coq Require Import Reals ZArith List Lra Lia Bool.
From Verif Require Import PlanHC00R.
From Verif Require Import Base ModelUtil ModelCircle ModelPaths ModelHC00R Num UtilProofs SpecPath SpecTurn SpecSide SpecPlan SpecOpt SpecCusp PoseAlg TurnProofs LegProofs TangentProofs PlanProofs PlanTactics PlanFamily PlanBounds PlanSelect PlanRadius OptProofs OptTangent OptWord OptTactics CuspWord UnitWord.
Import ListNotations.
Open Scope R_scope.

Lemma unit_table k s s1 s2 a b l f u c1 c2 : 0 < k -> 0 < s -> epsilon < k / s -> at_conf s1 a -> at_conf s2 b -> 0 <= q_theta b < TWO_PI ->
  c1 = circle a l f true (hc_cc_param k s) -> c2 = circle b l (negb f) true (hc_cc_param k s) -> 0 <= u -> same_pose (lib_path s1 (turn k s true true l f u)) s2 ->
  exists e w, In e (circles_table k s c1 c2) /\ e_length e = Some w /\ w <= Rmax (total_length (turn k s true true l f u)) (pos_dist s1 s2).
Proof.
  intros Hk Hs HE A B QR H1 H2 U W. pose proof (total_nonneg (turn k s true true l f u)) as TN. pose proof (unit_seg k s Hk Hs HE _ _ _ _ _ _ _ _ _ U W A B) as SG.
  destruct (facts_cc k s c1 a l f true Hk H1) as (S1 & EL1 & F1 & G1 & R1 & M1 & SM1 & CM1 & _ & _ & _ & _ & O1). destruct (facts_cc k s c2 b l (negb f) true Hk H2) as (S2 & EL2 & F2 & G2 & R2 & M2 & SM2 & CM2 & _ & _ & _ & _ & O2).
  assert (AS : at_start k s true s1 c1 l f) by (apply (start_cc k s s1 a); assumption). assert (AE : at_end k s true s2 c2 l f) by (apply (end_cc k s s2 b); assumption).
  unfold circles_table. cbv zeta. rewrite S1, S2.
  destruct (configuration_equal a b); [eexists _, 0; split; [left; reflexivity|split; [reflexivity|eapply Rle_trans; [exact TN|apply Rmax_l]]]|].
  destruct (configuration_aligned a b); [eexists _, _; split; [right; left; reflexivity|split; [reflexivity|rewrite (conf_dist_states s1 s2 a b A B); apply Rmax_r]]|].
  destruct (configuration_aligned b a); [eexists _, _; split; [right; left; reflexivity|split; [reflexivity|rewrite (conf_dist_states s2 s1 b a B A), pos_dist_flip; apply Rmax_r]]|].
  rewrite (unit_on_cc k s Hk Hs HE l f u s1 s2 b c1 W AS B QR R1 M1 SM1 CM1). eexists _, _; split; [do 2 right; left; reflexivity|split; [reflexivity|]].
  eapply Rle_trans; [|apply Rmax_l]. rewrite (turn_length k s Hk Hs) by exact U. unit_close.
Qed.

Theorem hc00_reeds_shepp_unit k s s1 s2 l f u : 0 < k -> 0 < s -> epsilon < k / s -> Rmax (total_length (turn k s true true l f u)) (pos_dist s1 s2) < DBL_MAX ->
  0 <= u -> same_pose (lib_path s1 (turn k s true true l f u)) s2 ->
  exists D, get_distance k s s1 s2 = Some (Some D) /\ D <= Rmax (total_length (turn k s true true l f u)) (pos_dist s1 s2).
Proof.
  intros Hk Hs HE LM U W.
  assert (ST : forall i j c1 c2 a b, (i < 4)%nat -> (j < 4)%nat -> skipped s1 s2 i j = false -> nth_error (start_circles k s s1) i = Some c1 -> nth_error (end_circles k s s2) j = Some c2 ->
    c1 = circle a l f true (hc_cc_param k s) -> c2 = circle b l (negb f) true (hc_cc_param k s) -> at_conf s1 a -> at_conf s2 b -> 0 <= q_theta b < TWO_PI -> exists D, get_distance k s s1 s2 = Some (Some D) /\ D <= Rmax (total_length (turn k s true true l f u)) (pos_dist s1 s2)).
  { intros i j c1 c2 a b LI LJ SK N1 N2 H1 H2 A B QR. destruct (unit_table k s s1 s2 a b l f u c1 c2 Hk Hs HE A B QR H1 H2 U W) as (e & w & IN & EW & LE).
    destruct (plan_exists hc_cc_rs_types (circles_table k s) (skipped s1 s2) (start_circles k s s1) (end_circles k s s2) 4 4 i j c1 c2 e w (table_first k s) (table_length k s) LI LJ SK N1 N2 IN EW ltac:(lra)) as (p & L & P & EP & LM2 & LW).
    assert (PP : hc00_reeds_shepp k s s1 s2 = Some p) by exact P. exists L. unfold get_distance. rewrite PP. unfold path_distance. rewrite EP. split; [reflexivity|lra]. }
  destruct l, f.
  - refine (ST 0%nat 2%nat _ _ _ _ ltac:(lia) ltac:(lia) _ eq_refl eq_refl eq_refl eq_refl (at_configuration _ _) (at_configuration _ _) (twopify_range _)). opt_skip.
  - refine (ST 2%nat 0%nat _ _ _ _ ltac:(lia) ltac:(lia) _ eq_refl eq_refl eq_refl eq_refl (at_configuration _ _) (at_configuration _ _) (twopify_range _)). opt_skip.
  - refine (ST 1%nat 3%nat _ _ _ _ ltac:(lia) ltac:(lia) _ eq_refl eq_refl eq_refl eq_refl (at_configuration _ _) (at_configuration _ _) (twopify_range _)). opt_skip.
  - refine (ST 3%nat 1%nat _ _ _ _ ltac:(lia) ltac:(lia) _ eq_refl eq_refl eq_refl eq_refl (at_configuration _ _) (at_configuration _ _) (twopify_range _)). opt_skip.
Qed.

Theorem hc00_reeds_shepp_line k s s1 s2 f d : 0 < k -> 0 < s -> d < DBL_MAX -> 0 <= d -> same_pose (lib_path s1 [line f d]) s2 ->
  exists D, get_distance k s s1 s2 = Some (Some D) /\ D <= d.
Proof.
  intros Hk Hs LM D W. pose proof (line_pos f d s1 s2 D W) as PD.
  set (c1 := circle (conf s1 0) true true true (hc_cc_param k s)). set (c2 := circle (conf s2 0) true true true (hc_cc_param k s)).
  assert (TB : exists e w, In e (circles_table k s c1 c2) /\ e_length e = Some w /\ w <= d).
  { destruct (facts_cc k s c1 (conf s1 0) _ _ _ Hk eq_refl) as (S1 & _). destruct (facts_cc k s c2 (conf s2 0) _ _ _ Hk eq_refl) as (S2 & _).
    unfold circles_table. cbv zeta. rewrite S1, S2. pose proof (at_configuration s1 0 : at_conf s1 (conf s1 0)) as A. pose proof (at_configuration s2 0 : at_conf s2 (conf s2 0)) as B.
    destruct (configuration_equal (conf s1 0) (conf s2 0)) eqn:EQ; [eexists _, 0; split; [left; reflexivity|split; [reflexivity|exact D]]|].
    assert (DP : 0 < d) by (destruct (Rle_lt_or_eq_dec 0 d D) as [|Z]; [assumption|exfalso; rewrite (line_equal f s1 s2 0 0) in EQ; [discriminate|rewrite Z; exact W]]).
    pose proof (line_aligned f d s1 s2 0 0 DP W) as AL.
    destruct (configuration_aligned (conf s1 0) (conf s2 0)) eqn:QA; [eexists _, _; split; [right; left; reflexivity|split; [reflexivity|rewrite (conf_dist_states s1 s2 _ _ A B), PD; apply Rle_refl]]|].
    destruct f; [discriminate AL|]. rewrite AL. eexists _, _; split; [right; left; reflexivity|split; [reflexivity|]].
    rewrite (conf_dist_states s2 s1 _ _ B A), pos_dist_flip, PD. apply Rle_refl. }
  destruct TB as (e & w & IN & EW & LE).
  destruct (plan_exists hc_cc_rs_types (circles_table k s) (skipped s1 s2) (start_circles k s s1) (end_circles k s s2) 4 4 0%nat 0%nat c1 c2 e w (table_first k s) (table_length k s) ltac:(lia) ltac:(lia) eq_refl eq_refl eq_refl IN EW ltac:(lra)) as (p & L & P & EP & LM2 & LW).
  assert (PP : hc00_reeds_shepp k s s1 s2 = Some p) by exact P. exists L. unfold get_distance. rewrite PP. unfold path_distance. rewrite EP. split; [reflexivity|lra].
Qed.

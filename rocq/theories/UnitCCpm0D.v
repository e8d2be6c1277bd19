(** * Candidates of ModelCCpm0D.v for goals at the end of one turn *)
From Coq Require Import Reals ZArith List Lra Lia Bool.
From Verif Require Import PlanCCpm0D.
From Verif Require Import Base ModelUtil ModelCircle ModelPaths ModelCCpm0D Num UtilProofs SpecPath SpecTurn SpecSide SpecPlan SpecOpt SpecCusp PoseAlg TurnProofs LegProofs TangentProofs PlanProofs PlanTactics PlanFamily PlanBounds PlanSelect PlanRadius OptProofs OptTangent OptWord OptTactics CuspWord UnitWord.
Import ListNotations.
Open Scope R_scope.

Lemma unit_table k s s1 s2 a b l f u c1 c2 : 0 < k -> 0 < s -> epsilon < k / s -> at_conf s1 a -> at_conf s2 b -> 0 <= q_theta b < TWO_PI ->
  c1 = circle a l f true (rs_param k) -> c2 = circle b l (negb f) true (hc_cc_param k s) -> 0 <= u -> same_pose (lib_path s1 (turn k s false true l f u)) s2 ->
  exists e w, In e (circles_table k s c1 c2) /\ e_length e = Some w /\ w <= total_length (turn k s false true l f u).
Proof.
  intros Hk Hs HE A B QR H1 H2 U W. pose proof (total_nonneg (turn k s false true l f u)) as TN. pose proof (unit_seg k s Hk Hs HE _ _ _ _ _ _ _ _ _ U W A B) as SG.
  destruct (facts_rs k c1 a l f true Hk H1) as (S1 & EL1 & F1 & G1 & R1 & M1 & SM1 & CM1 & _ & _ & _ & _ & O1). destruct (facts_cc k s c2 b l (negb f) true Hk H2) as (S2 & EL2 & F2 & G2 & R2 & M2 & SM2 & CM2 & _ & _ & _ & _ & O2).
  assert (AS : at_start k s false s1 c1 l f) by (apply (start_rs k s s1 a); assumption). assert (AE : at_end k s true s2 c2 l f) by (apply (end_cc k s s2 b); assumption).
  unfold circles_table. cbv zeta. rewrite S1, S2.
  destruct (configuration_equal a b); [eexists _, 0; split; [left; reflexivity|split; [reflexivity|exact TN]]|].
  rewrite (unit_centre k s Hk Hs HE _ _ _ _ _ _ _ _ _ W AS AE). unfold Rltb. destruct (Rlt_dec 0 epsilon) as [_|N]; [|exfalso; apply N; unfold epsilon; lra]. eexists _, _; split; [do 2 right; left; reflexivity|split; [reflexivity|]].
  rewrite (turn_length k s Hk Hs) by exact U. unit_close.
Qed.

Theorem ccpm0_dubins_unit k s fw s1 s2 l u : 0 < k -> 0 < s -> epsilon < k / s -> total_length (turn k s false true l fw u) < DBL_MAX -> on_side l s1 ->
  0 <= u -> same_pose (lib_path s1 (turn k s false true l fw u)) s2 ->
  exists D, get_distance k s fw s1 s2 = Some (Some D) /\ D <= total_length (turn k s false true l fw u).
Proof.
  intros Hk Hs HE LM OS1 U W.
  assert (ST : forall i j c1 c2 a b, (i < 2)%nat -> (j < 2)%nat -> skipped s1 s2 i j = false -> nth_error (start_circles k fw s1) i = Some c1 -> nth_error (end_circles k s fw s2) j = Some c2 ->
    c1 = circle a l fw true (rs_param k) -> c2 = circle b l (negb fw) true (hc_cc_param k s) -> at_conf s1 a -> at_conf s2 b -> 0 <= q_theta b < TWO_PI -> exists D, get_distance k s fw s1 s2 = Some (Some D) /\ D <= total_length (turn k s false true l fw u)).
  { intros i j c1 c2 a b LI LJ SK N1 N2 H1 H2 A B QR. destruct (unit_table k s s1 s2 a b l fw u c1 c2 Hk Hs HE A B QR H1 H2 U W) as (e & w & IN & EW & LE).
    destruct (plan_exists cc_dubins_types (circles_table k s) (skipped s1 s2) (start_circles k fw s1) (end_circles k s fw s2) 2 2 i j c1 c2 e w (table_first k s) (table_length k s) LI LJ SK N1 N2 IN EW ltac:(lra)) as (p & L & P & EP & LM2 & LW).
    assert (PP : ccpm0_dubins k s fw s1 s2 = Some p) by exact P. exists L. unfold get_distance. rewrite PP. unfold path_distance. rewrite EP. split; [reflexivity|lra]. }
  destruct l, fw.
  - refine (ST 0%nat 0%nat _ _ _ _ ltac:(lia) ltac:(lia) _ eq_refl eq_refl eq_refl eq_refl (at_configuration _ _) (at_configuration _ _) (twopify_range _)). opt_skip.
  - refine (ST 0%nat 0%nat _ _ _ _ ltac:(lia) ltac:(lia) _ eq_refl eq_refl eq_refl eq_refl (at_configuration _ _) (at_configuration _ _) (twopify_range _)). opt_skip.
  - refine (ST 1%nat 1%nat _ _ _ _ ltac:(lia) ltac:(lia) _ eq_refl eq_refl eq_refl eq_refl (at_configuration _ _) (at_configuration _ _) (twopify_range _)). opt_skip.
  - refine (ST 1%nat 1%nat _ _ _ _ ltac:(lia) ltac:(lia) _ eq_refl eq_refl eq_refl eq_refl (at_configuration _ _) (at_configuration _ _) (twopify_range _)). opt_skip.
Qed.

(** * Candidates of ModelCCpmpmD.v against the paths of four turns *)
From Coq Require Import Reals ZArith List Lra Lia Bool.
From Verif Require Import PlanCCpmpmD.
From Verif Require Import Base ModelUtil ModelCircle ModelPaths ModelCCpmpmD Num UtilProofs SpecPath SpecTurn SpecSide SpecPlan SpecOpt SpecCusp SpecLong SpecFour PoseAlg TurnProofs TurnBounds LegProofs TangentProofs PlanProofs PlanTactics PlanHybrid PlanFamily PlanBounds PlanSelect PlanRadius OptProofs OptTangent OptWord OptTactics OptCCpmpmD CuspWord CuspTactics LongWord LongTactics FourWord.
Import ListNotations.
Open Scope R_scope.

Lemma sq_pos_eq x y : 0 <= x -> 0 <= y -> x ^ 2 = y ^ 2 -> x = y.
Proof. intros. nra. Qed.

Section Four.
  Variables (k s : R) (s1 s2 : State) (a b : Configuration) (l f : bool) (c1 c2 : Circle) (D an : R).
  Hypothesis Hk : 0 < k.
  Hypothesis Hs : 0 < s.
  Hypothesis HE : epsilon < k / s.
  Hypothesis A : at_conf s1 a.
  Hypothesis B : at_conf s2 b.
  Hypothesis H1 : c1 = circle a l f true (rs_param k).
  Hypothesis H2 : c2 = circle b (negb l) (negb f) true (rs_param k).
  Hypothesis HD : D = center_distance c1 c2.
  Hypothesis HA : an = atan2 (c_yc c2 - c_yc c1) (c_xc c2 - c_xc c1).
  Local Notation r := (p_radius (hc_cc_param k s)).

  Lemma CCCC_ok a1 m1 m2 a2 cs : 0 <= a1 -> 0 <= m1 -> 0 <= m2 -> 0 <= a2 -> ang_eq (swept k s m1 + swept k s m2) 0 -> cos (swept k s m1) <= 0 \/ 1 / 2 < cos (swept k s m1) < 1 ->
    cs = turn k s false true l f a1 ++ turn k s true true (negb l) f m1 ++ turn k s true true l f m2 ++ turn k s true false (negb l) f a2 -> same_pose (lib_path s1 cs) s2 ->
    exists w, e_length (entry_TTTT k s D an c1 c2) = Some w /\ w <= total_length cs.
  Proof.
    intros Pa1 Pm1 Pm2 Pa2 SW CO -> W. cusp_setup k s.
    assert (AS : at_start k s false s1 c1 l f) by (apply (start_rs k s s1 a); assumption). assert (AE : at_end k s false s2 c2 (negb l) f) by (apply (end_rs k s s2 b); assumption).
    destruct (CCCC_word k s Hk Hs HE false false s1 s2 c1 c2 l f a1 m1 m2 a2 AS AE Pa1 Pm1 Pm2 Pa2 SW W) as (DQ & U).
    rewrite <- HD in DQ, U. rewrite <- HA in U. unfold jr in U. cbv beta iota in U. set (C := cos (swept k s m1)) in *.
    assert (D0 : 0 <= D) by (rewrite HD; unfold center_distance, point_distance; apply sqrt_pos). pose proof (COS_bound (swept k s m1)) as CB. fold C in CB.
    destruct CO as [CO|CO].
    - assert (DE : D = 1 * (2 * r * (1 - 2 * C))) by (apply sq_pos_eq; [exact D0|nra|rewrite DQ; ring]). assert (FAR : 0 < D) by nra. destruct (U 1 ((D - 2 * r) / 2) FAR (or_introl eq_refl) DE ltac:(lra)) as (RT & DST & dz & EZ & V).
      assert (DB : D <= 6 * r) by nra. assert (DL : ~ D < 2 * r) by nra.
      unfold entry_TTTT, TTTT_exists. long_flags ltac:(fail) ltac:(lra). unfold TTTT_path, TTTT_tangent_circles. long_branch ltac:(lra).
      rewrite (fsqrt_def _ RT). cbn [fbind]. set (dx := (D - 2 * r) / 2) in *. set (dy := sqrt ((2 * r) ^ 2 - dx ^ 2)) in *.
      long_circle t1. long_circle t2. long_circle t3. long_circle t4.
      assert (S1' : c_left t1 = negb l) by long_side. assert (S2' : c_left t2 = l) by long_side. assert (S3' : c_left t3 = negb l) by long_side. assert (S4' : c_left t4 = l) by long_side.
      assert (W1' : c_forward t1 = f) by long_side. assert (W2' : c_forward t2 = f) by long_side. assert (W3' : c_forward t3 = f) by long_side. assert (W4' : c_forward t4 = f) by long_side.
      destruct (DST dy t1 t2 (or_introl eq_refl) CT CT0) as (DA1 & DA2 & DA3). destruct (DST (- dy) t3 t4 (or_intror eq_refl) CT1 CT2) as (DB1 & DB2 & DB3).
      rewrite !(TT_eq k s).
      destruct EZ as [EZ|EZ]; rewrite EZ in V; clear EZ.
      + destruct (V t1 t2 CT CT0 _ _ _ (use_TT k s Hk Hs true _ c1 t1 _ _ eq_refl EL1 F1 DA1) (use_TT k s Hk Hs true _ t1 t2 _ _ eq_refl S1' W1' DA2) (use_TT k s Hk Hs true _ t2 c2 _ _ eq_refl S2' W2' DA3)) as (TA & TB1 & TC & TD). cusp_pick k s.
      + destruct (V t3 t4 CT1 CT2 _ _ _ (use_TT k s Hk Hs true _ c1 t3 _ _ eq_refl EL1 F1 DB1) (use_TT k s Hk Hs true _ t3 t4 _ _ eq_refl S3' W3' DB2) (use_TT k s Hk Hs true _ t4 c2 _ _ eq_refl S4' W4' DB3)) as (TA & TB1 & TC & TD). cusp_pick k s.
    - assert (DE : D = (-1) * (2 * r * (1 - 2 * C))) by (apply sq_pos_eq; [exact D0|nra|rewrite DQ; ring]). assert (FAR : 0 < D) by nra. destruct (U (-1) ((D + 2 * r) / 2) FAR (or_intror eq_refl) DE ltac:(lra)) as (RT & DST & dz & EZ & V).
      assert (DB : D <= 6 * r) by nra. assert (DL : D < 2 * r) by nra.
      unfold entry_TTTT, TTTT_exists. long_flags ltac:(fail) ltac:(lra). unfold TTTT_path, TTTT_tangent_circles. long_branch ltac:(lra).
      rewrite (fsqrt_def _ RT). cbn [fbind]. set (dx := (D + 2 * r) / 2) in *. set (dy := sqrt ((2 * r) ^ 2 - dx ^ 2)) in *.
      long_circle t1. long_circle t2. long_circle t3. long_circle t4.
      assert (S1' : c_left t1 = negb l) by long_side. assert (S2' : c_left t2 = l) by long_side. assert (S3' : c_left t3 = negb l) by long_side. assert (S4' : c_left t4 = l) by long_side.
      assert (W1' : c_forward t1 = f) by long_side. assert (W2' : c_forward t2 = f) by long_side. assert (W3' : c_forward t3 = f) by long_side. assert (W4' : c_forward t4 = f) by long_side.
      destruct (DST dy t1 t2 (or_introl eq_refl) CT CT0) as (DA1 & DA2 & DA3). destruct (DST (- dy) t3 t4 (or_intror eq_refl) CT1 CT2) as (DB1 & DB2 & DB3).
      rewrite !(TT_eq k s).
      destruct EZ as [EZ|EZ]; rewrite EZ in V; clear EZ.
      + destruct (V t1 t2 CT CT0 _ _ _ (use_TT k s Hk Hs true _ c1 t1 _ _ eq_refl EL1 F1 DA1) (use_TT k s Hk Hs true _ t1 t2 _ _ eq_refl S1' W1' DA2) (use_TT k s Hk Hs true _ t2 c2 _ _ eq_refl S2' W2' DA3)) as (TA & TB1 & TC & TD). cusp_pick k s.
      + destruct (V t3 t4 CT1 CT2 _ _ _ (use_TT k s Hk Hs true _ c1 t3 _ _ eq_refl EL1 F1 DB1) (use_TT k s Hk Hs true _ t3 t4 _ _ eq_refl S3' W3' DB2) (use_TT k s Hk Hs true _ t4 c2 _ _ eq_refl S4' W4' DB3)) as (TA & TB1 & TC & TD). cusp_pick k s.
  Qed.
End Four.

Lemma four_table k s s1 s2 a b l f c1 c2 cs : 0 < k -> 0 < s -> epsilon < k / s -> at_conf s1 a -> at_conf s2 b ->
  c1 = circle a l f true (rs_param k) -> c2 = circle b (negb l) (negb f) true (rs_param k) -> no_turn_pmpm k l s1 s2 ->
  four_shape k s false false l f cs -> same_pose (lib_path s1 cs) s2 ->
  exists e w, In e (circles_table k s c1 c2) /\ e_length e = Some w /\ w <= total_length cs.
Proof.
  intros Hk Hs HE A B H1 H2 NT SH W. pose proof (total_nonneg cs) as TN.
  destruct (facts_rs k c1 a l f true Hk H1) as (S1 & EL1 & F1 & G1 & R1 & M1 & SM1 & CM1 & _ & _ & _ & _ & O1). destruct (facts_rs k c2 b (negb l) (negb f) true Hk H2) as (S2 & EL2 & F2 & G2 & R2 & M2 & SM2 & CM2 & _ & _ & _ & _ & O2).
  assert (AS : at_start k s false s1 c1 l f) by (apply (start_rs k s s1 a); assumption).
  unfold circles_table. cbv zeta. rewrite S1, S2. set (an := atan2 _ _).
  destruct (configuration_equal a b); [eexists _, 0; split; [left; reflexivity|split; [reflexivity|exact TN]]|].
  destruct (configuration_on_hc_cc_circle c1 b) eqn:QT; [exfalso; exact (no_turn_rs k s s1 s2 b l f c1 Hk AS B R1 M1 SM1 CM1 NT QT)|].
  destruct SH as [a1 m1 m2 a2 A1 M1' M2' A2 SW CO].
  destruct (CCCC_ok k s s1 s2 a b l f c1 c2 _ an Hk Hs HE A B H1 H2 eq_refl eq_refl a1 m1 m2 a2 _ A1 M1' M2' A2 SW CO eq_refl W) as (w & EW & LE).
  exists (entry_TTTT k s (center_distance c1 c2) an c1 c2), w. split; [do 6 right; left; reflexivity|]. split; [exact EW|]. exact LE.
Qed.

Theorem ccpmpm_dubins_four k s fw s1 s2 l1 cs : 0 < k -> 0 < s -> epsilon < k / s -> total_length cs < DBL_MAX -> no_turn_pmpm k l1 s1 s2 -> on_side l1 s1 -> on_side (negb l1) s2 ->
  four_shape k s false false l1 fw cs -> same_pose (lib_path s1 cs) s2 ->
  exists D, get_distance k s fw s1 s2 = Some (Some D) /\ D <= total_length cs.
Proof.
  intros Hk Hs HE LM NT OS1 OS2 SH W.
  assert (ST : forall i j c1 c2 a b, (i < 2)%nat -> (j < 2)%nat -> skipped s1 s2 i j = false -> nth_error (start_circles k fw s1) i = Some c1 -> nth_error (end_circles k fw s2) j = Some c2 ->
    c1 = circle a l1 fw true (rs_param k) -> c2 = circle b (negb l1) (negb fw) true (rs_param k) -> at_conf s1 a -> at_conf s2 b -> exists D, get_distance k s fw s1 s2 = Some (Some D) /\ D <= total_length cs).
  { intros i j c1 c2 a b LI LJ SK N1 N2 H1 H2 A B. destruct (four_table k s s1 s2 a b l1 fw c1 c2 cs Hk Hs HE A B H1 H2 NT SH W) as (e & w & IN & EW & LE).
    destruct (plan_exists cc_dubins_types (circles_table k s) (skipped s1 s2) (start_circles k fw s1) (end_circles k fw s2) 2 2 i j c1 c2 e w (table_first k s) (table_length k s) LI LJ SK N1 N2 IN EW ltac:(lra)) as (p & L & P & EP & LM2 & LW).
    assert (PP : ccpmpm_dubins k s fw s1 s2 = Some p) by exact P. exists L. unfold get_distance. rewrite PP. unfold path_distance. rewrite EP. split; [reflexivity|lra]. }
  clear NT SH. destruct l1, fw; cbn [negb] in OS2.
  - refine (ST 0%nat 1%nat _ _ _ _ ltac:(lia) ltac:(lia) _ eq_refl eq_refl eq_refl eq_refl (at_configuration _ _) (at_configuration _ _)). opt_skip.
  - refine (ST 0%nat 1%nat _ _ _ _ ltac:(lia) ltac:(lia) _ eq_refl eq_refl eq_refl eq_refl (at_configuration _ _) (at_configuration _ _)). opt_skip.
  - refine (ST 1%nat 0%nat _ _ _ _ ltac:(lia) ltac:(lia) _ eq_refl eq_refl eq_refl eq_refl (at_configuration _ _) (at_configuration _ _)). opt_skip.
  - refine (ST 1%nat 0%nat _ _ _ _ ltac:(lia) ltac:(lia) _ eq_refl eq_refl eq_refl eq_refl (at_configuration _ _) (at_configuration _ _)). opt_skip.
Qed.

(** * States between which the distance depends on the unit of length *)
From Coq Require Import Reals ZArith List Lra Lia Bool.
From Coquelicot Require Import Rcomplements.
From Verif Require Import PlanCC0pmD.
From Verif Require Import Base ModelUtil ModelCircle ModelPaths Num UtilProofs SpecPath SpecTurn SpecSide SpecPlan SpecOpt SpecRigid PoseAlg TurnProofs LegProofs TurnBounds TangentProofs PlanProofs PlanFamily PlanTactics PlanBounds PlanSelect PlanCases PlanRefute SideProofs ModelCC0pmD SpecScale MovedCases.
Import ListNotations.
Open Scope R_scope.

Lemma unit_refuted : exists c s1 s2 L, 0 < c /\ get_distance 1 1 true s1 s2 = Some (Some L) /\ 1 <= L /\
  get_distance (1 / c) (1 / (c * c)) true (scaled c s1) (scaled c s2) = Some (Some 0).
Proof.
  set (c := epsilon / 2). set (s1 := mkState 0 0 0 0 1). set (s2 := mkState 1 0 0 1 1). assert (H1 : 0 < 1) by lra. pose proof PI_RGT_0 as PG.
  assert (EC : 0 < c) by (unfold c, epsilon; lra). assert (Z0 : twopify 0 = 0) by (apply twopify_id; unfold TWO_PI; lra).
  assert (PD : pos_dist s1 s2 + detour 1 1 < DBL_MAX).
  { destruct (case_near 0 0) as (_ & _ & C). revert C. unfold pos_dist, s1, s2; cbn [st_x st_y].
    replace ((0 - 3) ^ 2 + (0 - 4) ^ 2) with (5 * 5) by ring. rewrite sqrt_square by lra. replace ((0 - 1) ^ 2 + (0 - 0) ^ 2) with 1 by ring. rewrite sqrt_1. lra. }
  exists c, s1, s2.
  destruct (cc0pm_dubins_plan 1 1 true s1 s2 H1 H1 PD) as (p & L & cs & P & G & _).
  exists L. split; [exact EC|]. split; [exact G|].
  assert (IN : In (Some p) (paths 1 1 true s1 s2)) by (apply select_path_in; exact P).
  split.
  - apply paths_in in IN. destruct IN as (i & j & c1 & c2 & SK & N1 & N2 & S). unfold cc0pm_circles_dubins_path in S. destruct (select_entry_in _ _ _ _ _ S) as (IC & _ & _).
    apply in_combine_r in IC. unfold get_distance in G. rewrite P in G. unfold path_distance in G. injection G as G.
    apply (table_low c1 c2 (h_entry p) L); [|exact IC|exact G].
    assert (E1 : c_start c1 = mkConf 0 0 0 (q_kappa (c_start c1))).
    { unfold start_circles in N1. destruct i as [|[|n]]; cbn [nth_error] in N1; [| |destruct n; discriminate N1]; injection N1 as <-;
        rewrite (proj1 (circle_all _ _ _ _ _)); unfold configuration, s1; cbn [st_x st_y st_theta q_kappa]; rewrite Z0; reflexivity. }
    assert (E2 : c_start c2 = mkConf 1 0 0 (q_kappa (c_start c2))).
    { unfold end_circles in N2. destruct j as [|[|n]]; cbn [nth_error] in N2; [| |destruct n; discriminate N2]; injection N2 as <-;
        rewrite (proj1 (circle_all _ _ _ _ _)); unfold configuration, s2; cbn [st_x st_y st_theta q_kappa]; rewrite Z0; reflexivity. }
    rewrite E1, E2. unfold configuration_equal, configuration_distance, point_distance; cbn [q_x q_y q_theta].
    destruct (Rlt_dec epsilon (Rabs _)); [reflexivity|]. destruct (Rlt_dec epsilon (sqrt _)) as [|N]; [reflexivity|]. exfalso. apply N.
    match goal with |- _ < sqrt ?a => replace a with 1 by ring end. rewrite sqrt_1. unfold epsilon. lra.
  - set (k := 1 / c). set (s := 1 / (c * c)). set (r1 := scaled c s1). set (r2 := scaled c s2).
    assert (TH : forall c1 c2 i j, nth_error (start_circles k s true r1) i = Some c1 -> nth_error (end_circles k true r2) j = Some c2 -> configuration_equal (c_start c1) (c_start c2) = true).
    { intros c1 c2 i j N1 N2.
      assert (E1 : c_start c1 = mkConf 0 0 0 (q_kappa (c_start c1))).
      { unfold start_circles in N1. destruct i as [|[|n]]; cbn [nth_error] in N1; [| |destruct n; discriminate N1]; injection N1 as <-;
          rewrite (proj1 (circle_all _ _ _ _ _)); unfold configuration, r1, s1, scaled; cbn [st_x st_y st_theta q_kappa]; rewrite Z0, Rmult_0_r; reflexivity. }
      assert (E2 : c_start c2 = mkConf c 0 0 (q_kappa (c_start c2))).
      { unfold end_circles in N2. destruct j as [|[|n]]; cbn [nth_error] in N2; [| |destruct n; discriminate N2]; injection N2 as <-;
          rewrite (proj1 (circle_all _ _ _ _ _)); unfold configuration, r2, s2, scaled; cbn [st_x st_y st_theta q_kappa]; rewrite Z0, Rmult_0_r, Rmult_1_r; reflexivity. }
      rewrite E1, E2. unfold configuration_equal, configuration_distance, point_distance; cbn [q_x q_y q_theta].
      destruct (Rlt_dec epsilon (Rabs _)) as [N|]; [exfalso; rewrite Rminus_0_r, Rabs_R0 in N; unfold epsilon in N; lra|].
      destruct (Rlt_dec epsilon (sqrt _)) as [N|]; [|reflexivity]. exfalso. revert N. match goal with |- _ < sqrt ?a -> _ => replace a with (c * c) by ring end.
      rewrite sqrt_square by lra. unfold c, epsilon. lra. }
    assert (M1 : exists d1, nth_error (start_circles k s true r1) 0 = Some d1) by (eexists; reflexivity). destruct M1 as [d1 M1].
    assert (M2 : exists d2, nth_error (end_circles k true r2) 0 = Some d2) by (eexists; reflexivity). destruct M2 as [d2 M2].
    destruct (plan_exists cc_dubins_types (circles_table k s) (skipped r1 r2) (start_circles k s true r1) (end_circles k true r2) 2 2 0 0 d1 d2 (mkEntry (Some 0) None None None None None None None None) 0
      (table_first k s) (table_length k s) ltac:(lia) ltac:(lia)) as (p' & L' & P' & EL' & LM & LW).
    + unfold skipped. cbn [Nat.eqb andb orb]. destruct (Rltb (st_kappa r2) 0) eqn:Q; [|reflexivity]. apply Rltb_true in Q. cbn in Q. pose proof (Rinv_0_lt_compat c EC). lra.
    + exact M1.
    + exact M2.
    + unfold circles_table. rewrite (TH d1 d2 0%nat 0%nat M1 M2). left. reflexivity.
    + reflexivity.
    + pose proof dbl_big. lra.
    + assert (PP : cc0pm_dubins k s true r1 r2 = Some p') by exact P'. unfold get_distance. rewrite PP. unfold path_distance. rewrite EL'. do 2 f_equal.
      pose proof (select_path_in _ _ P') as IN'. apply paths_in in IN'. destruct IN' as (i & j & c1 & c2 & SK & N1 & N2 & S). destruct (select_entry_in _ _ _ _ _ S) as (IC & _ & _). apply in_combine_r in IC.
      unfold circles_table in IC. rewrite (TH c1 c2 i j N1 N2) in IC. pose proof dbl_big as DB. cbn [In] in IC. repeat destruct IC as [E|IC]; try contradiction; rewrite <- E in EL'; cbn in EL'; injection EL' as <-; lra.
Qed.

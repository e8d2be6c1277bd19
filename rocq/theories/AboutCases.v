(** * States between which the planners find the same distance for a car that looks the other way, and states between which they do not *)
From Coq Require Import Reals ZArith List Lra Lia Bool.
From Coquelicot Require Import Rcomplements.
From Verif Require Import PlanCC0pmD.
From Verif Require Import Base ModelUtil ModelCircle ModelPaths Num UtilProofs SpecPath SpecTurn SpecSide SpecPlan SpecOpt SpecRigid PoseAlg TurnProofs LegProofs TurnBounds TangentProofs PlanProofs PlanFamily PlanTactics PlanBounds PlanSelect PlanCases PlanRefute SideProofs ModelCC0pmD SpecAbout MovedCases AboutPlan.
Import ListNotations.
Open Scope R_scope.

Lemma about_case ka kb : let s1 := mkState 0 0 0 ka 1 in let s2 := mkState 60 80 1 kb 1 in
  distinct s1 s2 /\ never_aligned s1 s2 /\ (forall l f, no_turn_00 1 1 l f s1 s2) /\ (forall l, no_turn_pmpm 1 l s1 s2).
Proof.
  intros s1 s2. destruct (moved_case ka kb) as (_ & _ & DI & _ & _ & A & _ & B & _). split; [exact DI|]. split; [|split; assumption].
  assert (HW : ~ heading_within epsilon s1 s2) by exact apart_headings.
  assert (HW2 : ~ heading_within epsilon s2 s1).
  { intros [n N]. apply HW. exists (- n)%Z. rewrite opp_IZR. replace (st_theta s1 - st_theta s2 - 2 * PI * - IZR n) with (- (st_theta s2 - st_theta s1 - 2 * PI * IZR n)) by ring. rewrite Rabs_Ropp. exact N. }
  split; [left; exact HW|split; [left; exact HW2|split; left; intros H; apply heading_turned in H; contradiction]].
Qed.

Lemma about_refuted : exists s1 s2 L, get_distance 1 1 true s1 s2 = Some (Some L) /\ 1 <= L /\
  get_distance 1 1 false (turned s1) (turned s2) = Some (Some 0).
Proof.
  set (s1 := mkState 0 0 0 0 1). set (s2 := mkState 0 0 (- (epsilon / 2)) 1 1). assert (H1 : 0 < 1) by lra. pose proof FresProofs.PI_gt as PG. pose proof PI_4 as P4.
  assert (PD : forall a b, st_x a = st_x b -> st_y a = st_y b -> pos_dist a b + detour 1 1 < DBL_MAX).
  { intros a b X Y. unfold pos_dist. rewrite X, Y. replace ((st_x b - st_x b) ^ 2 + (st_y b - st_y b) ^ 2) with 0 by ring. rewrite sqrt_0. destruct (case_near 0 0) as (_ & _ & C). pose proof (sqrt_pos ((0 - 3) ^ 2 + (0 - 4) ^ 2)) as SP. unfold pos_dist in C; cbn [st_x st_y] in C. lra. }
  exists s1, s2.
  destruct (cc0pm_dubins_plan 1 1 true s1 s2 H1 H1 (PD s1 s2 eq_refl eq_refl)) as (p & L & cs & P & G & _).
  exists L. split; [exact G|].
  assert (IN : In (Some p) (paths 1 1 true s1 s2)) by (apply select_path_in; exact P).
  split.
  - apply paths_in in IN. destruct IN as (i & j & c1 & c2 & SK & N1 & N2 & S). unfold cc0pm_circles_dubins_path in S. destruct (select_entry_in _ _ _ _ _ S) as (IC & _ & _).
    apply in_combine_r in IC. unfold get_distance in G. rewrite P in G. unfold path_distance in G. injection G as G.
    apply (table_low c1 c2 (h_entry p) L); [|exact IC|exact G].
    assert (E1 : q_theta (c_start c1) = 0).
    { unfold start_circles in N1. assert (Z : twopify 0 = 0) by (apply twopify_id; unfold TWO_PI; lra). destruct i as [|[|n]]; cbn [nth_error] in N1; [| |destruct n; discriminate N1]; injection N1 as <-;
        rewrite (proj1 (circle_all _ _ _ _ _)); exact Z. }
    assert (E2 : q_theta (c_start c2) = 2 * PI - epsilon / 2).
    { unfold end_circles in N2. destruct j as [|[|n]]; cbn [nth_error] in N2; [| |destruct n; discriminate N2]; injection N2 as <-;
        rewrite (proj1 (circle_all _ _ _ _ _)); exact near_two_pi. }
    unfold configuration_equal. rewrite E1, E2. destruct (Rlt_dec epsilon _) as [|N]; [reflexivity|]. exfalso. apply N. rewrite Rabs_pos_eq; unfold epsilon; lra.
  - set (r1 := turned s1). set (r2 := turned s2).
    assert (TH : forall c1 c2 i j, nth_error (start_circles 1 1 false r1) i = Some c1 -> nth_error (end_circles 1 false r2) j = Some c2 -> configuration_equal (c_start c1) (c_start c2) = true).
    { intros c1 c2 i j N1 N2.
      assert (E1 : c_start c1 = mkConf 0 0 PI (q_kappa (c_start c1))).
      { unfold start_circles in N1. destruct i as [|[|n]]; cbn [nth_error] in N1; [| |destruct n; discriminate N1]; injection N1 as <-;
          rewrite (proj1 (circle_all _ _ _ _ _)); unfold configuration, r1, s1, turned; cbn [st_x st_y st_theta q_kappa]; f_equal; try ring; rewrite Rplus_0_l; apply twopify_id; unfold TWO_PI; lra. }
      assert (E2 : c_start c2 = mkConf 0 0 (PI - epsilon / 2) (q_kappa (c_start c2))).
      { unfold end_circles in N2. destruct j as [|[|n]]; cbn [nth_error] in N2; [| |destruct n; discriminate N2]; injection N2 as <-;
          rewrite (proj1 (circle_all _ _ _ _ _)); unfold configuration, r2, s2, turned; cbn [st_x st_y st_theta q_kappa]; f_equal; try ring; replace (- (epsilon / 2) + PI) with (PI - epsilon / 2) by ring; apply twopify_id; unfold epsilon, TWO_PI; lra. }
      rewrite E1, E2. unfold configuration_equal, configuration_distance, point_distance; cbn [q_x q_y q_theta].
      destruct (Rlt_dec epsilon (Rabs _)) as [N|]; [exfalso; replace (PI - epsilon / 2 - PI) with (- (epsilon / 2)) in N by ring; rewrite Rabs_Ropp, Rabs_pos_eq in N; unfold epsilon in *; lra|].
      destruct (Rlt_dec epsilon _) as [N|]; [|reflexivity]. exfalso. replace ((0 - 0) ^ 2 + (0 - 0) ^ 2) with 0 in N by ring. rewrite sqrt_0 in N. unfold epsilon in N. lra. }
    assert (M1 : exists d1, nth_error (start_circles 1 1 false r1) 0 = Some d1) by (eexists; reflexivity). destruct M1 as [d1 M1].
    assert (M2 : exists d2, nth_error (end_circles 1 false r2) 1 = Some d2) by (eexists; reflexivity). destruct M2 as [d2 M2].
    destruct (plan_exists cc_dubins_types (circles_table 1 1) (skipped r1 r2) (start_circles 1 1 false r1) (end_circles 1 false r2) 2 2 0 1 d1 d2 (mkEntry (Some 0) None None None None None None None None) 0
      (table_first 1 1) (table_length 1 1) ltac:(lia) ltac:(lia)) as (p' & L' & P' & EL' & LM & LW).
    + unfold skipped. cbn [Nat.eqb andb orb]. destruct (Rltb 0 (st_kappa r2)) eqn:Q; [|reflexivity]. apply Rltb_true in Q. cbn in Q. lra.
    + exact M1.
    + exact M2.
    + unfold circles_table. rewrite (TH d1 d2 0%nat 1%nat M1 M2). left. reflexivity.
    + reflexivity.
    + pose proof dbl_big. lra.
    + assert (PP : cc0pm_dubins 1 1 false r1 r2 = Some p') by exact P'. unfold get_distance. rewrite PP. unfold path_distance. rewrite EL'. do 2 f_equal.
      pose proof (select_path_in _ _ P') as IN'. apply paths_in in IN'. destruct IN' as (i & j & c1 & c2 & SK & N1 & N2 & S). destruct (select_entry_in _ _ _ _ _ S) as (IC & _ & _). apply in_combine_r in IC.
      unfold circles_table in IC. rewrite (TH c1 c2 i j N1 N2) in IC. pose proof dbl_big as DB. cbn [In] in IC. repeat destruct IC as [E|IC]; try contradiction; rewrite <- E in EL'; cbn in EL'; injection EL' as <-; lra.
Qed.

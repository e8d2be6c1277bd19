(** * A turn that is recognised one way only *)
From Coq Require Import Reals ZArith List Lra Lia Bool.
From Verif Require Import PlanCCpmpmD MovedCases.
From Verif Require Import Base ModelUtil ModelCircle ModelPaths ModelCCpmpmD Num UtilProofs SpecPath SpecTurn SpecSide SpecPlan PoseAlg TurnProofs LegProofs TurnBounds PlanProofs PlanTactics PlanBounds PlanSelect PlanCases DubinsCases.
Import ListNotations.
Open Scope R_scope.

(** The goal lies a quarter turn ahead of the start, off its circle by half the tolerance. *)
Definition quarter_start : State := mkState 0 0 0 1 1.
Definition quarter_goal : State := mkState (1 + epsilon / 2) 1 (PI / 2) 1 1.
Lemma rs_centre a l f : let c := circle a l f true (rs_param 1) in c_radius c = 1 /\ c_mu c = 0 /\ c_xc c = q_x a - sign l * sin (q_theta a) /\ c_yc c = q_y a + sign l * cos (q_theta a) /\ c_kappa_inv c = sign l.
Proof. unfold circle, rs_param, set_param; destruct l, f; cbn; repeat split; field. Qed.
Lemma half_config x y : configuration x y (PI / 2) 1 = mkConf x y (PI / 2) 1.
Proof. pose proof PI_RGT_0. unfold configuration. f_equal. apply twopify_id. unfold TWO_PI. lra. Qed.
Lemma zero_config x y : configuration x y 0 1 = mkConf x y 0 1.
Proof. pose proof PI_RGT_0. unfold configuration. f_equal. apply twopify_id. unfold TWO_PI. lra. Qed.
Lemma pmpm_low c1 c2 e w : configuration_equal (c_start c1) (c_start c2) = false -> configuration_on_hc_cc_circle c1 (c_start c2) = false ->
  In e (circles_table 1 1 c1 c2) -> e_length e = Some w -> 2 <= w.
Proof.
  intros Q T. assert (DB : 2 <= DBL_MAX) by (unfold DBL_MAX; apply IZR_le; vm_compute; discriminate). unfold circles_table. cbv zeta. rewrite Q, T.
  cbn [In]. intros IN EW. repeat destruct IN as [<-|IN]; try contradiction.
  all: try (cbn in EW; injection EW as <-; exact DB).
  - unfold entry_TT in EW. destruct (TT_exists _ _ _); [|cbn in EW; injection EW as <-; exact DB]. unfold TT_path in EW; cbn [e_length] in EW. injection EW as <-. low.
  - unfold entry_TST in EW. destruct (TST_exists _ _ _); [|cbn in EW; injection EW as <-; exact DB]. unfold TST_path in EW.
    destruct (TiST_exists _ _ _).
    + unfold TiST_path in EW. destruct (TiST_tangent_circles 1 1 c1 c2) as [[q1 q2]|]; cbn [fbind e_length] in EW; [injection EW as <-; low|discriminate EW].
    + destruct (TeST_exists _ _ _); [|discriminate EW]. unfold TeST_path in EW. destruct (TeST_tangent_circles 1 1 c1 c2) as [q1 q2]. cbn [e_length] in EW. injection EW as <-. low.
  - unfold entry_TTT in EW. destruct (TTT_exists _ _ _); [|cbn in EW; injection EW as <-; exact DB]. unfold TTT_path in EW.
    destruct (TTT_tangent_circles _ _ _ _ c1 c2) as [[[[q1 q2] q3] q4]|]; cbn [fbind e_length] in EW; [|discriminate EW].
    destruct (Rltb _ _); cbn [e_length] in EW; injection EW as <-; low.
  - unfold entry_TTTT in EW. destruct (TTTT_exists _ _ _); [|cbn in EW; injection EW as <-; exact DB]. unfold TTTT_path in EW.
    destruct (TTTT_tangent_circles _ _ _ _ c1 c2) as [[[[[[q1 q2] q3] q4] q5] q6]|]; cbn [fbind e_length] in EW; [|discriminate EW].
    destruct (Rltb _ _); cbn [e_length] in EW; injection EW as <-; low.
Qed.
Lemma quarter_there : exists L, get_distance 1 1 true quarter_start quarter_goal = Some (Some L) /\ L <= PI / 2.
Proof.
  pose proof FresProofs.PI_gt as PG. pose proof PI_4 as P4. assert (DB : 2 <= DBL_MAX) by (unfold DBL_MAX; apply IZR_le; vm_compute; discriminate).
  set (a := mkConf 0 0 0 1). set (b := mkConf (1 + epsilon / 2) 1 (PI / 2) 1).
  set (c1 := circle a true true true (rs_param 1)). set (c2 := circle b true false true (rs_param 1)).
  destruct (rs_centre a true true) as (R1 & M1 & X1 & Y1 & K1). fold c1 in R1, M1, X1, Y1, K1. unfold a in X1, Y1; cbn [q_x q_y q_theta] in X1, Y1. rewrite sin_0 in X1. rewrite cos_0 in Y1. unfold sign in X1, Y1, K1.
  assert (NE : configuration_equal a b = false).
  { unfold configuration_equal, a, b; cbn [q_theta]. destruct (Rlt_dec epsilon _) as [|N]; [reflexivity|]. exfalso. apply N. rewrite Rabs_pos_eq; unfold epsilon; lra. }
  assert (OC : configuration_on_hc_cc_circle c1 b = true).
  { unfold configuration_on_hc_cc_circle. destruct (circle_all a true true true (rs_param 1)) as (_ & LL & FF & _). fold c1 in LL, FF. rewrite LL, FF, R1, M1, X1, Y1. unfold b; cbn [q_x q_y q_theta].
    assert (D : point_distance (0 - 1 * 0) (0 + 1 * 1) (1 + epsilon / 2) 1 = 1 + epsilon / 2).
    { unfold point_distance. replace (_ + _) with ((1 + epsilon / 2) ^ 2) by ring. apply sqrt_pow2. unfold epsilon. lra. }
    rewrite D. destruct (Rlt_dec epsilon _) as [N|_]; [exfalso; replace (1 + epsilon / 2 - 1) with (epsilon / 2) in N by ring; rewrite Rabs_pos_eq in N; unfold epsilon in *; lra|].
    replace (1 - (0 + 1 * 1)) with 0 by ring. rewrite atan2_pos_x by (unfold epsilon; lra). unfold HALF_PI. replace (0 + PI / 2 - 0) with (PI / 2) by ring. rewrite twopify_id by (unfold TWO_PI; lra).
    unfold Rltb. destruct (Rlt_dec _ _) as [|N]; [reflexivity|exfalso; apply N]. rewrite Rminus_diag_eq by reflexivity. rewrite Rabs_R0. unfold epsilon. lra. }
  assert (LT : rs_turn_length c1 b = PI / 2).
  { unfold rs_turn_length, deflection. destruct (circle_all a true true true (rs_param 1)) as (SS & LL & FF & RR & _). fold c1 in SS, LL, FF, RR. rewrite SS, LL, FF, K1. unfold rs_circular_deflection. rewrite RR. cbn [andb orb]. unfold a, b; cbn [q_theta].
    rewrite twopify_id by (unfold TWO_PI; lra). rewrite Rabs_pos_eq by lra. ring. }
  assert (IN : exists e, In e (circles_table 1 1 c1 c2) /\ e_length e = Some (PI / 2)).
  { unfold circles_table. cbv zeta. assert (S1 : c_start c1 = a) by apply circle_all. assert (S2 : c_start c2 = b) by apply circle_all. rewrite S1, S2, NE, OC.
    eexists. split; [right; right; left; reflexivity|]. cbn [e_length]. f_equal. exact LT. }
  destruct IN as (e & IN & EW).
  assert (SK : skipped quarter_start quarter_goal 0 0 = false).
  { unfold skipped, quarter_start, quarter_goal; cbn [st_kappa Nat.eqb andb orb]. unfold Rltb. repeat match goal with |- context [Rlt_dec ?u ?v] => destruct (Rlt_dec u v); cbn [orb]; try (exfalso; lra) end; reflexivity. }
  assert (N1 : nth_error (start_circles 1 true quarter_start) 0 = Some c1) by (unfold start_circles, quarter_start; cbn [nth_error st_x st_y st_theta]; rewrite zero_config; reflexivity).
  assert (N2 : nth_error (end_circles 1 true quarter_goal) 0 = Some c2) by (unfold end_circles, quarter_goal; cbn [nth_error st_x st_y st_theta]; rewrite half_config; reflexivity).
  destruct (plan_exists cc_dubins_types (circles_table 1 1) (skipped quarter_start quarter_goal) (start_circles 1 true quarter_start) (end_circles 1 true quarter_goal) 2 2 0 0 c1 c2 e (PI / 2)
    (table_first 1 1) (table_length 1 1) ltac:(lia) ltac:(lia) SK N1 N2 IN EW ltac:(lra)) as (p & L & P & EP & LM & LW).
  assert (PP : ccpmpm_dubins 1 1 true quarter_start quarter_goal = Some p) by exact P.
  exists L. unfold get_distance. rewrite PP. unfold path_distance. rewrite EP. split; [reflexivity|exact LW].
Qed.
Lemma quarter_back : exists L, get_distance 1 1 false quarter_goal quarter_start = Some (Some L) /\ 2 <= L.
Proof.
  pose proof FresProofs.PI_gt as PG. pose proof PI_4 as P4. assert (H1 : 0 < 1) by lra.
  assert (PD : pos_dist quarter_goal quarter_start <= 3).
  { unfold pos_dist, quarter_goal, quarter_start; cbn [st_x st_y]. rewrite <- (sqrt_pow2 3) by lra. apply sqrt_le_1_alt. unfold epsilon. lra. }
  destruct (ccpmpm_dubins_exists 1 1 false quarter_goal quarter_start H1 H1) as (p & L & P & EL & LM & _).
  { destruct (max_facts 1 1 H1 H1) as (_ & _ & _ & _ & DT). unfold detour, DBL_MAX in *. assert (HB : IZR 1000 <= IZR (2 ^ 1024 - 2 ^ 971)) by (apply IZR_le; vm_compute; discriminate). lra. }
  exists L. unfold get_distance. rewrite P. unfold path_distance. rewrite EL. split; [reflexivity|].
  assert (IN : In (Some p) (paths 1 1 false quarter_goal quarter_start)) by (apply select_path_in; exact P).
  apply paths_in in IN. destruct IN as (i & j & c1 & c2 & SK & N1 & N2 & S). unfold ccpmpm_circles_dubins_path in S. destruct (select_entry_in _ _ _ _ _ S) as (IC & _ & _). apply in_combine_r in IC.
  assert (IJ : i = 0%nat /\ j = 0%nat).
  { assert (T1 : Rltb 0 1 = true) by (unfold Rltb; destruct (Rlt_dec 0 1); [reflexivity|lra]). unfold skipped, quarter_goal, quarter_start in SK; cbn [st_kappa] in SK. rewrite T1 in SK.
    destruct i as [|[|i]]; [|cbn in SK; rewrite ?orb_true_r in SK; discriminate SK|destruct i; discriminate N1]. destruct j as [|[|j]]; [auto|cbn in SK; rewrite ?orb_true_r in SK; discriminate SK|destruct j; discriminate N2]. }
  destruct IJ as (-> & ->). unfold start_circles, quarter_goal in N1; cbn [nth_error st_x st_y st_theta] in N1. rewrite half_config in N1. injection N1 as <-. unfold end_circles, quarter_start in N2; cbn [nth_error st_x st_y st_theta] in N2. rewrite zero_config in N2. injection N2 as <-.
  set (a := mkConf 0 0 0 1) in *. set (b := mkConf (1 + epsilon / 2) 1 (PI / 2) 1) in *. set (c1 := circle b true false true (rs_param 1)) in *. set (c2 := circle a true true true (rs_param 1)) in *.
  assert (S1 : c_start c1 = b) by apply circle_all. assert (S2 : c_start c2 = a) by apply circle_all.
  apply (pmpm_low c1 c2 (h_entry p) L); rewrite ?S1, ?S2; [| |exact IC|exact EL].
  - unfold configuration_equal, a, b; cbn [q_theta]. destruct (Rlt_dec epsilon _) as [|N]; [reflexivity|]. exfalso. apply N. rewrite Rabs_minus_sym, Rabs_pos_eq; unfold epsilon; lra.
  - destruct (rs_centre b true false) as (R1 & M1 & X1 & Y1 & _). fold c1 in R1, M1, X1, Y1. unfold b in X1, Y1; cbn [q_x q_y q_theta] in X1, Y1. rewrite sin_PI2 in X1. rewrite cos_PI2 in Y1. unfold sign in X1, Y1.
    unfold configuration_on_hc_cc_circle. destruct (circle_all b true false true (rs_param 1)) as (_ & LL & FF & _). fold c1 in LL, FF. rewrite LL, FF, M1, X1, Y1. unfold a; cbn [q_x q_y q_theta].
    destruct (Rlt_dec epsilon _) as [_|_]; [reflexivity|]. set (g := twopify _). destruct (Rltb (Rabs (0 - g)) epsilon) eqn:Q; [|reflexivity]. exfalso. apply Rltb_true in Q.
    replace (0 - (1 + 1 * 0)) with (-1) in g by ring. replace (0 - (1 + epsilon / 2 - 1 * 1)) with (- (epsilon / 2)) in g by ring.
    assert (G0 : 0 <= g <= PI). { assert (T : 0 <= g) by apply twopify_range. split; [lra|]. rewrite Rabs_minus_sym, Rabs_pos_eq in Q by lra; unfold epsilon in Q; lra. }
    assert (SG : sin g = cos (atan2 (-1) (- (epsilon / 2)))).
    { unfold g. rewrite (ang_eq_sin _ _ (twopify_ang _)), Rplus_0_r. unfold HALF_PI. rewrite sin_plus, cos_PI2, sin_PI2. ring_simplify. f_equal. f_equal; ring. }
    pose proof (sin_ge_0 g (proj1 G0) (proj2 G0)) as SP. pose proof (atan2_cos (- (epsilon / 2)) (-1)) as AC. rewrite <- SG in AC. pose proof (sqrt_pos (- (epsilon / 2) * - (epsilon / 2) + -1 * -1)) as SQ.
    assert (0 <= sqrt (- (epsilon / 2) * - (epsilon / 2) + -1 * -1) * sin g) by (apply Rmult_le_pos; assumption). unfold epsilon in *. lra.
Qed.
Lemma quarter_refuted : exists s1 s2 L L', get_distance 1 1 true s1 s2 = Some (Some L) /\ L <= PI / 2 /\ get_distance 1 1 false s2 s1 = Some (Some L') /\ 2 <= L'.
Proof. destruct quarter_there as (L & A & B). destruct quarter_back as (L' & C & D). exists quarter_start, quarter_goal, L, L'. auto. Qed.

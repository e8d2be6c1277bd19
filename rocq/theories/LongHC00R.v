(** * Candidates of ModelHC00R.v against the longer paths with cusps *)
From Coq Require Import Reals ZArith List Lra Lia Bool.
From Verif Require Import PlanHC00R.
From Verif Require Import Base ModelUtil ModelCircle ModelPaths ModelHC00R Num UtilProofs SpecPath SpecTurn SpecSide SpecPlan SpecOpt SpecCusp SpecLong PoseAlg TurnProofs LegProofs TangentProofs PlanProofs PlanTactics PlanFamily PlanBounds PlanSelect PlanRadius OptProofs OptTangent OptWord OptTactics CuspWord CuspTactics LongWord LongTactics OptHC00R CuspHC00R.
Import ListNotations.
Open Scope R_scope.

Section Table.
  Variables (k s : R) (s1 s2 : State) (a b : Configuration) (l1 f1 l2 f2 : bool) (c1 c2 : Circle) (D an : R).
  Local Notation r := (p_radius (hc_cc_param k s)).
  Local Notation sm := (p_sin_mu (hc_cc_param k s)).
  Local Notation cm := (p_cos_mu (hc_cc_param k s)).
  Local Notation X := (p_radius (hc_cc_param k s) * p_sin_mu (hc_cc_param k s)).
  Local Notation Y := (p_radius (hc_cc_param k s) * p_cos_mu (hc_cc_param k s)).
  Hypothesis Hk : 0 < k.
  Hypothesis Hs : 0 < s.
  Hypothesis HE : epsilon < k / s.
  Hypothesis A : at_conf s1 a.
  Hypothesis B : at_conf s2 b.
  Hypothesis H1 : c1 = circle a l1 f1 true (hc_cc_param k s).
  Hypothesis H2 : c2 = circle b l2 (negb f2) true (hc_cc_param k s).
  Hypothesis HD : D = center_distance c1 c2.
  Hypothesis HA : an = atan2 (c_yc c2 - c_yc c1) (c_xc c2 - c_xc c1).
  Hypothesis FAR : 0 < D.

  Lemma CSC_C_ok a1 t m a2 cs : f2 = (negb f1) -> 0 <= a1 -> 0 <= t -> 0 <= m -> 0 <= a2 -> quarter k s true false m -> (l2 = l1 -> f1 = negb l1) -> cs = turn k s true true l1 f1 a1 ++ [line f1 t] ++ turn k s true false (negb l2) f1 m ++ turn k s false true l2 f2 a2 -> same_pose (lib_path s1 cs) s2 ->
    exists w, e_length (entry_TSTcT k s D an c1 c2) = Some w /\ w <= total_length cs.
  Proof.
    intros EF Pa1 Pt Pm Pa2 Q0 CO -> W. cusp_setup k s.
    assert (AS : at_start k s true s1 c1 l1 f1) by (apply (start_cc k s s1 a); assumption). assert (AE : at_end k s true s2 c2 l2 f2) by (apply (end_cc k s s2 b); assumption).
    subst f2. destruct (CSC_C_word k s Hk Hs HE false true true s1 s2 c1 c2 l1 l2 f1 a1 t m a2 AS AE Pa1 Pt Pm Pa2 Q0 W) as (DQ & _ & U).
    rewrite <- HD in DQ, U. rewrite <- HA in U. unfold jr in DQ, U. cbv beta iota in DQ, U. assert (DP : 0 <= D) by lra.
    pose proof (grow t (2 * X + (2 * (1 / k))) Pt ltac:(nra)) as GR. rewrite <- Rplus_assoc in GR.
    destruct (Bool.bool_dec l1 l2) as [E|E]; [destruct E|assert (E2 : negb l1 = l2) by (clear - E; destruct l1, l2; try reflexivity; exfalso; apply E; reflexivity); destruct E2].
    - assert (DQ2 : D ^ 2 = (t + 2 * X + (2 * (1 / k))) ^ 2 + (2 * Y) ^ 2) by (rewrite DQ; f_equal; destruct l1; cbn [negb]; unfold sign; ring).
      assert (FE : f1 = negb l1) by (apply CO; reflexivity).
      unfold entry_TSTcT, TSTcT_exists, TSTcT_path, TiSTcT_exists, TeSTcT_exists. long_flags ltac:(first [apply Rplus_le_le_0_compat; apply pow2_ge_0|repeat apply Rplus_le_le_0_compat; try apply pow2_ge_0; apply Rmult_le_pos; nra]) ltac:(first [apply sqrt_le_D; [lra|rewrite DQ2; nra]|lra]).
      unfold TiSTcT_path. fields_goal. rewrite ?AK1, ?AK2, ?KQ1, ?KQ2. destruct (fdiv_def (4 * r * cm) (k * D) ltac:(nra)) as (dy & FY & EY0). rewrite FY. cbn [fbind].
      assert (EY : D * dy = (2 * (1 / k)) * (2 * Y)) by (apply Rmult_eq_reg_l with k; [transitivity ((k * D) * dy); [ring|rewrite EY0; field; lra]|lra]).
      destruct (cross_root D _ Y (2 * (1 / k)) dy FAR DQ2 ltac:(lra) EY) as (RT & DXP & DXQ). rewrite (fsqrt_def _ RT). cbn [fbind]. set (dx := sqrt ((2 * (1 / k)) ^ 2 - dy ^ 2)) in *.
      long_circle tg. assert (YN : D * dy = (2 * (1 / k)) * (sign f1 * (sign (negb l1) * Y - sign l1 * Y))) by (rewrite FE; destruct l1; cbn [negb]; unfold sign; lra).
      destruct (U dx dy DXP DXQ YN tg CT) as [DT LO]. rewrite ?negb_involutive, ?eqb_reflx, ?eqb_negb_r, ?eqb_negb_s in LO. cbv beta iota in LO. unfold line_ok in LO. cbv beta iota in LO.
      assert (EL' : c_left tg = negb l1) by long_side. assert (EF' : c_forward tg = f1) by long_side.
      destruct LO as (qa & qb & G & CD & V). rewrite (TiST_eq k s c1 tg) by assumption. rewrite G. cbn [fbind].
      rewrite !TcT_eq.
      destruct (V _ (use_TcT k s Hk (c_kappa tg) tg c2 _ _ EL' EF' DT)) as (TA & TB1 & TC). cusp_close k s.
    - assert (DQ2 : D ^ 2 = (t + 2 * X + (2 * (1 / k))) ^ 2) by (rewrite DQ; destruct l1; cbn [negb]; unfold sign; ring). assert (DE : D = (t + 2 * X + (2 * (1 / k)))) by nra.
      unfold entry_TSTcT, TSTcT_exists, TSTcT_path, TiSTcT_exists, TeSTcT_exists. long_flags ltac:(fail) ltac:(lra).
      unfold TeSTcT_path. fields_goal.
      long_circle tg. assert (YN : D * 0 = (2 * (1 / k)) * (sign f1 * (sign (negb (negb l1)) * Y - sign l1 * Y))) by (destruct l1, f1; cbn [negb]; unfold sign; lra).
      destruct (U (2 * (1 / k)) 0 ltac:(lra) ltac:(ring) YN tg CT) as [DT LO]. rewrite ?negb_involutive, ?eqb_reflx, ?eqb_negb_r, ?eqb_negb_s in LO. cbv beta iota in LO. unfold line_ok in LO. cbv beta iota in LO.
      assert (EL' : c_left tg = l1) by long_side. assert (EF' : c_forward tg = f1) by long_side.
      rewrite (TeST_eq k s c1 tg) by assumption. destruct (gTeST r sm cm c1 tg) as [qa qb] eqn:G. destruct (LO qa qb eq_refl) as [CD V].
      rewrite !TcT_eq.
      destruct (V _ (use_TcT k s Hk (c_kappa tg) tg c2 _ _ EL' EF' DT)) as (TA & TB1 & TC). cusp_close k s.
  Qed.

  Lemma C_CSC_ok a1 m t a2 cs : f2 = (negb f1) -> 0 <= a1 -> 0 <= m -> 0 <= t -> 0 <= a2 -> quarter k s false true m -> (l2 = l1 -> f1 = negb l1) -> cs = turn k s true false l1 f1 a1 ++ turn k s false true (negb l1) (negb f1) m ++ [line (negb f1) t] ++ turn k s true true l2 f2 a2 -> same_pose (lib_path s1 cs) s2 ->
    exists w, e_length (entry_TcTST k s D an c1 c2) = Some w /\ w <= total_length cs.
  Proof.
    intros EF Pa1 Pm Pt Pa2 Q0 CO -> W. cusp_setup k s.
    assert (AS : at_start k s true s1 c1 l1 f1) by (apply (start_cc k s s1 a); assumption). assert (AE : at_end k s true s2 c2 l2 f2) by (apply (end_cc k s s2 b); assumption).
    subst f2. destruct (C_CSC_word k s Hk Hs HE false true true s1 s2 c1 c2 l1 l2 f1 a1 m t a2 AS AE Pa1 Pm Pt Pa2 Q0 W) as (DQ & _ & U).
    rewrite <- HD in DQ, U. rewrite <- HA in U. unfold jr in DQ, U. cbv beta iota in DQ, U. assert (DP : 0 <= D) by lra.
    pose proof (grow t (2 * X + (2 * (1 / k))) Pt ltac:(nra)) as GR. rewrite <- Rplus_assoc in GR.
    destruct (Bool.bool_dec l1 l2) as [E|E]; [destruct E|assert (E2 : negb l1 = l2) by (clear - E; destruct l1, l2; try reflexivity; exfalso; apply E; reflexivity); destruct E2].
    - assert (DQ2 : D ^ 2 = (t + 2 * X + (2 * (1 / k))) ^ 2 + (2 * Y) ^ 2) by (rewrite DQ; f_equal; destruct l1; cbn [negb]; unfold sign; ring).
      assert (FE : f1 = negb l1) by (apply CO; reflexivity).
      unfold entry_TcTST, TcTST_exists, TcTST_path, TcTiST_exists, TcTeST_exists. long_flags ltac:(first [apply Rplus_le_le_0_compat; apply pow2_ge_0|repeat apply Rplus_le_le_0_compat; try apply pow2_ge_0; apply Rmult_le_pos; nra]) ltac:(first [apply sqrt_le_D; [lra|rewrite DQ2; nra]|lra]).
      unfold TcTiST_path. fields_goal. rewrite ?AK1, ?AK2, ?KQ1, ?KQ2. destruct (fdiv_def (4 * r * cm) (k * D) ltac:(nra)) as (dy & FY & EY0). rewrite FY. cbn [fbind].
      assert (EY : D * dy = (2 * (1 / k)) * (2 * Y)) by (apply Rmult_eq_reg_l with k; [transitivity ((k * D) * dy); [ring|rewrite EY0; field; lra]|lra]).
      destruct (cross_root D _ Y (2 * (1 / k)) dy FAR DQ2 ltac:(lra) EY) as (RT & DXP & DXQ). rewrite (fsqrt_def _ RT). cbn [fbind]. set (dx := sqrt ((2 * (1 / k)) ^ 2 - dy ^ 2)) in *.
      long_circle tg. assert (YN : D * dy = (2 * (1 / k)) * (sign (negb f1) * (sign l1 * Y - sign (negb l1) * Y))) by (rewrite FE; destruct l1; cbn [negb]; unfold sign; lra).
      assert (EL' : c_left tg = negb l1) by long_side. assert (EF' : c_forward tg = negb f1) by long_side.
      destruct (U dx dy DXP DXQ YN tg CT EL' EF') as [DT LO]. rewrite ?negb_involutive, ?eqb_reflx, ?eqb_negb_r, ?eqb_negb_s in LO. cbv beta iota in LO. unfold line_ok in LO. cbv beta iota in LO.
      destruct LO as (qa & qb & G & CD & V). rewrite (TiST_eq k s tg c2) by assumption. rewrite G. cbn [fbind].
      rewrite !TcT_eq.
      destruct (V _ (use_TcT k s Hk (c_kappa c1) c1 tg _ _ EL1 F1 DT)) as (TA & TB1 & TC). cusp_close k s.
    - assert (DQ2 : D ^ 2 = (t + 2 * X + (2 * (1 / k))) ^ 2) by (rewrite DQ; destruct l1; cbn [negb]; unfold sign; ring). assert (DE : D = (t + 2 * X + (2 * (1 / k)))) by nra.
      unfold entry_TcTST, TcTST_exists, TcTST_path, TcTiST_exists, TcTeST_exists. long_flags ltac:(fail) ltac:(lra).
      unfold TcTeST_path. fields_goal.
      long_circle tg. assert (YN : D * 0 = (2 * (1 / k)) * (sign (negb f1) * (sign (negb l1) * Y - sign (negb l1) * Y))) by (destruct l1, f1; cbn [negb]; unfold sign; lra).
      assert (EL' : c_left tg = negb l1) by long_side. assert (EF' : c_forward tg = negb f1) by long_side.
      destruct (U (2 * (1 / k)) 0 ltac:(lra) ltac:(ring) YN tg ltac:(rewrite Ropp_0; exact CT) EL' EF') as [DT LO]. rewrite ?negb_involutive, ?eqb_reflx, ?eqb_negb_r, ?eqb_negb_s in LO. cbv beta iota in LO. unfold line_ok in LO. cbv beta iota in LO.
      rewrite (TeST_eq k s tg c2) by assumption. destruct (gTeST r sm cm tg c2) as [qa qb] eqn:G. destruct (LO qa qb eq_refl) as [CD V].
      rewrite !TcT_eq.
      destruct (V _ (use_TcT k s Hk (c_kappa c1) c1 tg _ _ EL1 F1 DT)) as (TA & TB1 & TC). cusp_close k s.
  Qed.

  Lemma C_CSC_C_ok a1 m1 t m2 a2 cs : f2 = f1 -> 0 <= a1 -> 0 <= m1 -> 0 <= t -> 0 <= m2 -> 0 <= a2 -> quarter k s false true m1 -> quarter k s true false m2 -> (l2 = negb l1 -> f1 = l1) -> cs = turn k s true false l1 f1 a1 ++ turn k s false true (negb l1) (negb f1) m1 ++ [line (negb f1) t] ++ turn k s true false (negb l2) (negb f1) m2 ++ turn k s false true l2 f2 a2 -> same_pose (lib_path s1 cs) s2 ->
    exists w, e_length (entry_TcTSTcT k s D an c1 c2) = Some w /\ w <= total_length cs.
  Proof.
    intros EF Pa1 Pm1 Pt Pm2 Pa2 Q0 Q1 CO -> W. cusp_setup k s.
    assert (AS : at_start k s true s1 c1 l1 f1) by (apply (start_cc k s s1 a); assumption). assert (AE : at_end k s true s2 c2 l2 f2) by (apply (end_cc k s s2 b); assumption).
    subst f2. destruct (C_CSC_C_word k s Hk Hs HE false true true s1 s2 c1 c2 l1 l2 f1 a1 m1 t m2 a2 AS AE Pa1 Pm1 Pt Pm2 Pa2 Q0 Q1 W) as (DQ & _ & U).
    rewrite <- HD in DQ, U. rewrite <- HA in U. unfold jr in DQ, U. cbv beta iota in DQ, U. assert (DP : 0 <= D) by lra.
    pose proof (grow t (2 * X + 2 * (2 * (1 / k))) Pt ltac:(nra)) as GR. rewrite <- Rplus_assoc in GR.
    destruct (Bool.bool_dec l1 l2) as [E|E]; [destruct E|assert (E2 : negb l1 = l2) by (clear - E; destruct l1, l2; try reflexivity; exfalso; apply E; reflexivity); destruct E2].
    - assert (DQ2 : D ^ 2 = (t + 2 * X + 2 * (2 * (1 / k))) ^ 2) by (rewrite DQ; destruct l1; cbn [negb]; unfold sign; ring). assert (DE : D = (t + 2 * X + 2 * (2 * (1 / k)))) by nra.
      unfold entry_TcTSTcT, TcTSTcT_exists, TcTSTcT_path, TcTiSTcT_exists, TcTeSTcT_exists. long_flags ltac:(fail) ltac:(lra).
      unfold TcTeSTcT_path. fields_goal.
      long_circle tg. long_circle th. assert (YN : D * 0 = (2 * (1 / k)) * (sign (negb f1) * (sign (negb l1) * Y - sign (negb l1) * Y))) by (destruct l1, f1; cbn [negb]; unfold sign; lra).
      assert (EL' : c_left tg = negb l1) by long_side. assert (EF' : c_forward tg = negb f1) by long_side. assert (EM' : c_left th = negb l1) by long_side. assert (EG' : c_forward th = negb f1) by long_side.
      destruct (U (2 * (1 / k)) 0 ltac:(lra) ltac:(ring) YN tg th ltac:(rewrite Ropp_0; exact CT) CT0 EL' EF') as (DT & DT2 & LO). rewrite ?negb_involutive, ?eqb_reflx, ?eqb_negb_r, ?eqb_negb_s in LO. cbv beta iota in LO. unfold line_ok in LO. cbv beta iota in LO.
      rewrite (TeST_eq k s tg th) by assumption. destruct (gTeST r sm cm tg th) as [qa qb] eqn:G. destruct (LO qa qb eq_refl) as [CD V].
      rewrite !TcT_eq.
      destruct (V _ _ (use_TcT k s Hk (c_kappa c1) c1 tg _ _ EL1 F1 DT) (use_TcT k s Hk (c_kappa th) th c2 _ _ EM' EG' DT2)) as (TA & TB1 & TC & TD). cusp_close k s.
    - assert (DQ2 : D ^ 2 = (t + 2 * X + 2 * (2 * (1 / k))) ^ 2 + (2 * Y) ^ 2) by (rewrite DQ; f_equal; destruct l1; cbn [negb]; unfold sign; ring).
      assert (FE : f1 = l1) by (apply CO; reflexivity).
      unfold entry_TcTSTcT, TcTSTcT_exists, TcTSTcT_path, TcTiSTcT_exists, TcTeSTcT_exists. long_flags ltac:(first [apply Rplus_le_le_0_compat; apply pow2_ge_0|repeat apply Rplus_le_le_0_compat; try apply pow2_ge_0; apply Rmult_le_pos; nra]) ltac:(first [apply sqrt_le_D; [lra|rewrite DQ2; nra]|lra]).
      unfold TcTiSTcT_path. fields_goal. rewrite ?AK1, ?AK2, ?KQ1, ?KQ2. destruct (fdiv_def (4 * r * cm) (D * k) ltac:(nra)) as (dy & FY & EY0). rewrite FY. cbn [fbind].
      assert (EY : D * dy = (2 * (1 / k)) * (2 * Y)) by (apply Rmult_eq_reg_l with k; [transitivity ((D * k) * dy); [ring|rewrite EY0; field; lra]|lra]).
      destruct (cross_root D _ Y (2 * (1 / k)) dy FAR DQ2 ltac:(lra) EY) as (RT & DXP & DXQ). rewrite (fsqrt_def _ RT). cbn [fbind]. set (dx := sqrt ((2 * (1 / k)) ^ 2 - dy ^ 2)) in *.
      long_circle tg. long_circle th. assert (YN : D * (- dy) = (2 * (1 / k)) * (sign (negb f1) * (sign (negb (negb l1)) * Y - sign (negb l1) * Y))) by (rewrite FE; destruct l1; cbn [negb]; unfold sign; lra).
      assert (EL' : c_left tg = negb l1) by long_side. assert (EF' : c_forward tg = negb f1) by long_side. assert (EM' : c_left th = l1) by long_side. assert (EG' : c_forward th = negb f1) by long_side.
      destruct (U dx (- dy) DXP ltac:(rewrite <- DXQ; ring) YN tg th ltac:(rewrite Ropp_involutive; exact CT) CT0 EL' EF') as (DT & DT2 & LO). rewrite ?negb_involutive, ?eqb_reflx, ?eqb_negb_r, ?eqb_negb_s in LO. cbv beta iota in LO. unfold line_ok in LO. cbv beta iota in LO.
      destruct LO as (qa & qb & G & CD & V). rewrite (TiST_eq k s tg th) by assumption. rewrite G. cbn [fbind].
      rewrite !TcT_eq.
      destruct (V _ _ (use_TcT k s Hk (c_kappa c1) c1 tg _ _ EL1 F1 DT) (use_TcT k s Hk (c_kappa th) th c2 _ _ EM' EG' DT2)) as (TA & TB1 & TC & TD). cusp_close k s.
  Qed.

  Lemma CC_CC_ok a1 m a2 cs : l2 = negb l1 -> f2 = negb f1 -> 0 <= a1 -> 0 <= m -> 0 <= a2 -> cusp_reach k s false < 2 * lean k s false m < 2 * r \/ lean k s false m <= cusp_reach k s false - r -> cs = turn k s true true l1 f1 a1 ++ turn k s true false (negb l1) f1 m ++ turn k s false true l1 (negb f1) m ++ turn k s true true l2 f2 a2 -> same_pose (lib_path s1 cs) s2 ->
    exists w, e_length (entry_TTcTT k s D an c1 c2) = Some w /\ w <= total_length cs.
  Proof.
    intros ES EF Pa1 Pm Pa2 CO -> W. cusp_setup k s.
    assert (AS : at_start k s true s1 c1 l1 f1) by (apply (start_cc k s s1 a); assumption). assert (AE : at_end k s true s2 c2 l2 f2) by (apply (end_cc k s s2 b); assumption).
    subst l2 f2. destruct (CC_CC_word k s Hk Hs HE false true true s1 s2 c1 c2 l1 f1 a1 m a2 AS AE Pa1 Pm Pa2 W) as (DQ & LB & U).
    rewrite <- HD in DQ, U. rewrite <- HA in U. unfold jr in DQ, U. cbv beta iota in DQ, U.
    set (v := lean k s false m) in *. assert (CR : 2 * cusp_reach k s false = (2 * (1 / k))) by reflexivity.
    assert (YR : (2 * (1 / k)) <= 4 * r) by (pose proof (radius_half k s Hk Hs); lra).
    destruct CO as [CO|CO].
    - assert (DE : D = (-1) * ((2 * (1 / k)) - 4 * v)) by nra. destruct (U (-1) ((D + (2 * (1 / k))) / 2) FAR (or_intror eq_refl) DE ltac:(lra)) as (RT & DST & dz & EZ & V).
      unfold entry_TTcTT, TTcTT_exists. long_flags ltac:(fail) ltac:(lra). unfold TTcTT_path, TTcTT_tangent_circles. long_branch ltac:(lra).
      rewrite (fsqrt_def _ RT). cbn [fbind]. set (dx := (D + (2 * (1 / k))) / 2) in *. set (dy := sqrt ((2 * r) ^ 2 - dx ^ 2)) in *.
      long_circle t1. long_circle t2. long_circle t3. long_circle t4.
      assert (S1' : c_left t1 = negb l1) by long_side. assert (S2' : c_left t2 = l1) by long_side. assert (S3' : c_left t3 = negb l1) by long_side. assert (S4' : c_left t4 = l1) by long_side.
      assert (W1' : c_forward t1 = f1) by long_side. assert (W2' : c_forward t2 = negb f1) by long_side. assert (W3' : c_forward t3 = f1) by long_side. assert (W4' : c_forward t4 = negb f1) by long_side.
      destruct (DST dy t1 t2 (or_introl eq_refl) CT CT0) as (DA1 & DA2 & DA3). destruct (DST (- dy) t3 t4 (or_intror eq_refl) CT1 CT2) as (DB1 & DB2 & DB3).
      rewrite !(TT_eq k s) by assumption.
      rewrite !TcT_eq.
      destruct EZ as [EZ|EZ]; rewrite EZ in V; clear EZ.
      + destruct (V t1 t2 CT CT0 _ _ _ (use_TT k s Hk Hs false _ c1 t1 _ _ eq_refl EL1 F1 DA1) (use_TcT k s Hk (c_kappa t1) t1 t2 _ _ S1' W1' DA2) (use_TT k s Hk Hs false _ t2 c2 _ _ eq_refl S2' W2' DA3)) as (TA & TB1 & TC & TD). cusp_pick k s.
      + destruct (V t3 t4 CT1 CT2 _ _ _ (use_TT k s Hk Hs false _ c1 t3 _ _ eq_refl EL1 F1 DB1) (use_TcT k s Hk (c_kappa t3) t3 t4 _ _ S3' W3' DB2) (use_TT k s Hk Hs false _ t4 c2 _ _ eq_refl S4' W4' DB3)) as (TA & TB1 & TC & TD). cusp_pick k s.
    - assert (DE : D = 1 * ((2 * (1 / k)) - 4 * v)) by nra. destruct (U 1 ((D - (2 * (1 / k))) / 2) FAR (or_introl eq_refl) DE ltac:(lra)) as (RT & DST & dz & EZ & V).
      unfold entry_TTcTT, TTcTT_exists. long_flags ltac:(fail) ltac:(lra). unfold TTcTT_path, TTcTT_tangent_circles. long_branch ltac:(lra).
      rewrite (fsqrt_def _ RT). cbn [fbind]. set (dx := (D - (2 * (1 / k))) / 2) in *. set (dy := sqrt ((2 * r) ^ 2 - dx ^ 2)) in *.
      long_circle t1. long_circle t2. long_circle t3. long_circle t4.
      assert (S1' : c_left t1 = negb l1) by long_side. assert (S2' : c_left t2 = l1) by long_side. assert (S3' : c_left t3 = negb l1) by long_side. assert (S4' : c_left t4 = l1) by long_side.
      assert (W1' : c_forward t1 = f1) by long_side. assert (W2' : c_forward t2 = negb f1) by long_side. assert (W3' : c_forward t3 = f1) by long_side. assert (W4' : c_forward t4 = negb f1) by long_side.
      destruct (DST dy t1 t2 (or_introl eq_refl) CT CT0) as (DA1 & DA2 & DA3). destruct (DST (- dy) t3 t4 (or_intror eq_refl) CT1 CT2) as (DB1 & DB2 & DB3).
      rewrite !(TT_eq k s) by assumption.
      rewrite !TcT_eq.
      destruct EZ as [EZ|EZ]; rewrite EZ in V; clear EZ.
      + destruct (V t1 t2 CT CT0 _ _ _ (use_TT k s Hk Hs false _ c1 t1 _ _ eq_refl EL1 F1 DA1) (use_TcT k s Hk (c_kappa t1) t1 t2 _ _ S1' W1' DA2) (use_TT k s Hk Hs false _ t2 c2 _ _ eq_refl S2' W2' DA3)) as (TA & TB1 & TC & TD). cusp_pick k s.
      + destruct (V t3 t4 CT1 CT2 _ _ _ (use_TT k s Hk Hs false _ c1 t3 _ _ eq_refl EL1 F1 DB1) (use_TcT k s Hk (c_kappa t3) t3 t4 _ _ S3' W3' DB2) (use_TT k s Hk Hs false _ t4 c2 _ _ eq_refl S4' W4' DB3)) as (TA & TB1 & TC & TD). cusp_pick k s.
  Qed.

  Lemma C_CC_C_ok a1 m a2 cs : l2 = negb l1 -> f2 = f1 -> 0 <= a1 -> 0 <= m -> 0 <= a2 -> cs = turn k s true false l1 f1 a1 ++ turn k s false true (negb l1) (negb f1) m ++ turn k s true false l1 (negb f1) m ++ turn k s false true l2 f2 a2 -> same_pose (lib_path s1 cs) s2 ->
    exists w, e_length (entry_TcTTcT k s D an c1 c2) = Some w /\ w <= total_length cs.
  Proof.
    intros ES EF Pa1 Pm Pa2 -> W. cusp_setup k s.
    assert (AS : at_start k s true s1 c1 l1 f1) by (apply (start_cc k s s1 a); assumption). assert (AE : at_end k s true s2 c2 l2 f2) by (apply (end_cc k s s2 b); assumption).
    subst l2 f2. destruct (C_CC_C_word k s Hk Hs HE false true true s1 s2 c1 c2 l1 f1 a1 m a2 AS AE Pa1 Pm Pa2 W) as (DQ & LB & U).
    rewrite <- HD in DQ, LB, U. rewrite <- HA in U. unfold jr in DQ, LB, U. cbv beta iota in DQ, LB, U.
    - unfold entry_TcTTcT, TcTTcT_exists. long_flags ltac:(fail) ltac:(lra). unfold TcTTcT_path, TcTTcT_tangent_circles. long_branch ltac:(lra).
      destruct (fdiv_def ((2 * (1 / k)) ^ 2 + (D / 2) ^ 2 - r ^ 2) D ltac:(lra)) as (dx & FX & EX). rewrite FX. cbn [fbind]. destruct (U dx FAR EX) as (RT & DST & dz & EZ & V).
      rewrite (fsqrt_def _ RT). cbn [fbind]. set (dy := sqrt ((2 * (1 / k)) ^ 2 - dx ^ 2)) in *.
      long_circle t1. long_circle t2. long_circle t3. long_circle t4.
      assert (S1' : c_left t1 = negb l1) by long_side. assert (S2' : c_left t2 = l1) by long_side. assert (S3' : c_left t3 = negb l1) by long_side. assert (S4' : c_left t4 = l1) by long_side.
      assert (W1' : c_forward t1 = negb f1) by long_side. assert (W2' : c_forward t2 = negb f1) by long_side. assert (W3' : c_forward t3 = negb f1) by long_side. assert (W4' : c_forward t4 = negb f1) by long_side.
      destruct (DST dy t1 t2 (or_introl eq_refl) CT CT0) as (DA1 & DA2 & DA3). destruct (DST (- dy) t3 t4 (or_intror eq_refl) CT1 ltac:(rewrite Ropp_involutive; exact CT2)) as (DB1 & DB2 & DB3).
      rewrite !(TT_eq k s) by assumption.
      rewrite !TcT_eq.
      destruct EZ as [EZ|EZ]; rewrite EZ in V; clear EZ.
      + destruct (V t1 t2 CT CT0 _ _ _ (use_TcT k s Hk (c_kappa c1) c1 t1 _ _ EL1 F1 DA1) (use_TT k s Hk Hs false _ t1 t2 _ _ eq_refl S1' W1' DA2) (use_TcT k s Hk (c_kappa t2) t2 c2 _ _ S2' W2' DA3)) as (TA & TB1 & TC & TD). cusp_pick k s.
      + destruct (V t3 t4 CT1 ltac:(rewrite Ropp_involutive; exact CT2) _ _ _ (use_TcT k s Hk (c_kappa c1) c1 t3 _ _ EL1 F1 DB1) (use_TT k s Hk Hs false _ t3 t4 _ _ eq_refl S3' W3' DB2) (use_TcT k s Hk (c_kappa t4) t4 c2 _ _ S4' W4' DB3)) as (TA & TB1 & TC & TD). cusp_pick k s.
  Qed.

End Table.

Lemma long_table k s s1 s2 a b l1 f1 l2 f2 c1 c2 cs : 0 < k -> 0 < s -> epsilon < k / s -> at_conf s1 a -> at_conf s2 b ->
  c1 = circle a l1 f1 true (hc_cc_param k s) -> c2 = circle b l2 (negb f2) true (hc_cc_param k s) -> no_turn_00 k s l1 f1 s1 s2 -> apart k s true true l1 f1 l2 f2 s1 s2 ->
  long_shape k s false true true l1 f1 l2 f2 cs -> same_pose (lib_path s1 cs) s2 ->
  exists e w, In e (circles_table k s c1 c2) /\ e_length e = Some w /\ w <= Rmax (total_length cs) (pos_dist s1 s2).
Proof.
  intros Hk Hs HE A B H1 H2 NT AP SH W. pose proof (total_nonneg cs) as TN.
  destruct (facts_cc k s c1 a l1 f1 true Hk H1) as (S1 & EL1 & F1 & G1 & R1 & M1 & SM1 & CM1 & _ & _ & _ & _ & O1). destruct (facts_cc k s c2 b l2 (negb f2) true Hk H2) as (S2 & EL2 & F2 & G2 & R2 & M2 & SM2 & CM2 & _ & _ & _ & _ & O2).
  assert (AS : at_start k s true s1 c1 l1 f1) by (apply (start_cc k s s1 a); assumption). assert (AE : at_end k s true s2 c2 l2 f2) by (apply (end_cc k s s2 b); assumption).
  assert (FAR : 0 < center_distance c1 c2) by (rewrite <- (apart_gap k s _ _ _ _ _ _ _ _ _ _ AS AE); exact AP).
  unfold circles_table. cbv zeta. rewrite S1, S2. set (an := atan2 _ _).
  destruct (configuration_equal a b); [eexists _, 0; split; [left; reflexivity|split; [reflexivity|eapply Rle_trans; [exact TN|apply Rmax_l]]]|].
  destruct (configuration_aligned a b); [eexists _, _; split; [right; left; reflexivity|split; [reflexivity|rewrite (conf_dist_states s1 s2 a b A B); apply Rmax_r]]|].
  destruct (configuration_aligned b a); [eexists _, _; split; [right; left; reflexivity|split; [reflexivity|rewrite (conf_dist_states s2 s1 b a B A), pos_dist_flip; apply Rmax_r]]|].
  destruct (configuration_on_hc_cc_circle c1 b) eqn:QT; [exfalso; exact (no_turn_cc k s s1 s2 b l1 f1 c1 Hk Hs AS B R1 M1 SM1 CM1 NT QT)|].
  match goal with |- exists e w, In e ?T /\ _ => assert (MX : forall e, In e T -> (exists w, e_length e = Some w /\ w <= total_length cs) -> exists e w, In e T /\ e_length e = Some w /\ w <= Rmax (total_length cs) (pos_dist s1 s2)) end.
  { intros e IN (w & EW & LE). exists e, w. split; [exact IN|split; [exact EW|]]. eapply Rle_trans; [exact LE|apply Rmax_l]. }
  clear R1 M1 R2 M2 F1 F2. destruct SH as [l1 l2 f a1 t m a2 A1 T0 M0 A2 QU CO|l1 l2 f a1 m t a2 A1 M0 T0 A2 QU CO|l1 l2 f a1 m1 t m2 a2 A1 M1 T0 M2 A2 Q1 Q2 CO|l f a1 m a2 A1 M0 A2 CO|l f a1 m a2 A1 M0 A2].
  - apply MX with (e := entry_TSTcT k s (center_distance c1 c2) an c1 c2); [do 9 right; left; reflexivity|]. exact (CSC_C_ok k s s1 s2 a b _ _ _ _ c1 c2 _ an Hk Hs HE A B H1 H2 eq_refl eq_refl FAR a1 t m a2 _ eq_refl A1 T0 M0 A2 QU CO eq_refl W).
  - apply MX with (e := entry_TcTST k s (center_distance c1 c2) an c1 c2); [do 10 right; left; reflexivity|]. exact (C_CSC_ok k s s1 s2 a b _ _ _ _ c1 c2 _ an Hk Hs HE A B H1 H2 eq_refl eq_refl FAR a1 m t a2 _ eq_refl A1 M0 T0 A2 QU CO eq_refl W).
  - apply MX with (e := entry_TcTSTcT k s (center_distance c1 c2) an c1 c2); [do 11 right; left; reflexivity|]. exact (C_CSC_C_ok k s s1 s2 a b _ _ _ _ c1 c2 _ an Hk Hs HE A B H1 H2 eq_refl eq_refl FAR a1 m1 t m2 a2 _ eq_refl A1 M1 T0 M2 A2 Q1 Q2 CO eq_refl W).
  - apply MX with (e := entry_TTcTT k s (center_distance c1 c2) an c1 c2); [do 12 right; left; reflexivity|]. exact (CC_CC_ok k s s1 s2 a b _ _ _ _ c1 c2 _ an Hk Hs HE A B H1 H2 eq_refl eq_refl FAR a1 m a2 _ eq_refl eq_refl A1 M0 A2 CO eq_refl W).
  - apply MX with (e := entry_TcTTcT k s (center_distance c1 c2) an c1 c2); [do 13 right; left; reflexivity|]. exact (C_CC_C_ok k s s1 s2 a b _ _ _ _ c1 c2 _ an Hk Hs HE A B H1 H2 eq_refl eq_refl FAR a1 m a2 _ eq_refl eq_refl A1 M0 A2 eq_refl W).
Qed.

Theorem hc00_reeds_shepp_long k s s1 s2 l1 f1 l2 f2 cs : 0 < k -> 0 < s -> epsilon < k / s -> Rmax (total_length cs) (pos_dist s1 s2) < DBL_MAX -> no_turn_00 k s l1 f1 s1 s2 -> apart k s true true l1 f1 l2 f2 s1 s2 ->
  long_shape k s false true true l1 f1 l2 f2 cs -> same_pose (lib_path s1 cs) s2 ->
  exists D, get_distance k s s1 s2 = Some (Some D) /\ D <= Rmax (total_length cs) (pos_dist s1 s2).
Proof.
  intros Hk Hs HE LM NT AP SH W.
  assert (ST : forall i j c1 c2 a b, (i < 4)%nat -> (j < 4)%nat -> skipped s1 s2 i j = false -> nth_error (start_circles k s s1) i = Some c1 -> nth_error (end_circles k s s2) j = Some c2 ->
    c1 = circle a l1 f1 true (hc_cc_param k s) -> c2 = circle b l2 (negb f2) true (hc_cc_param k s) -> at_conf s1 a -> at_conf s2 b -> exists D, get_distance k s s1 s2 = Some (Some D) /\ D <= Rmax (total_length cs) (pos_dist s1 s2)).
  { intros i j c1 c2 a b LI LJ SK N1 N2 H1 H2 A B. destruct (long_table k s s1 s2 a b l1 f1 l2 f2 c1 c2 cs Hk Hs HE A B H1 H2 NT AP SH W) as (e & w & IN & EW & LE).
    destruct (plan_exists hc_cc_rs_types (circles_table k s) (skipped s1 s2) (start_circles k s s1) (end_circles k s s2) 4 4 i j c1 c2 e w (table_first k s) (table_length k s) LI LJ SK N1 N2 IN EW ltac:(lra)) as (p & L & P & EP & LM2 & LW).
    assert (PP : hc00_reeds_shepp k s s1 s2 = Some p) by exact P. exists L. unfold get_distance. rewrite PP. unfold path_distance. rewrite EP. split; [reflexivity|lra]. }
  clear NT AP SH. destruct l1, f1, l2, f2.
  - refine (ST 0%nat 2%nat _ _ _ _ ltac:(lia) ltac:(lia) _ eq_refl eq_refl eq_refl eq_refl (at_configuration _ _) (at_configuration _ _)). opt_skip.
  - refine (ST 0%nat 0%nat _ _ _ _ ltac:(lia) ltac:(lia) _ eq_refl eq_refl eq_refl eq_refl (at_configuration _ _) (at_configuration _ _)). opt_skip.
  - refine (ST 0%nat 3%nat _ _ _ _ ltac:(lia) ltac:(lia) _ eq_refl eq_refl eq_refl eq_refl (at_configuration _ _) (at_configuration _ _)). opt_skip.
  - refine (ST 0%nat 1%nat _ _ _ _ ltac:(lia) ltac:(lia) _ eq_refl eq_refl eq_refl eq_refl (at_configuration _ _) (at_configuration _ _)). opt_skip.
  - refine (ST 2%nat 2%nat _ _ _ _ ltac:(lia) ltac:(lia) _ eq_refl eq_refl eq_refl eq_refl (at_configuration _ _) (at_configuration _ _)). opt_skip.
  - refine (ST 2%nat 0%nat _ _ _ _ ltac:(lia) ltac:(lia) _ eq_refl eq_refl eq_refl eq_refl (at_configuration _ _) (at_configuration _ _)). opt_skip.
  - refine (ST 2%nat 3%nat _ _ _ _ ltac:(lia) ltac:(lia) _ eq_refl eq_refl eq_refl eq_refl (at_configuration _ _) (at_configuration _ _)). opt_skip.
  - refine (ST 2%nat 1%nat _ _ _ _ ltac:(lia) ltac:(lia) _ eq_refl eq_refl eq_refl eq_refl (at_configuration _ _) (at_configuration _ _)). opt_skip.
  - refine (ST 1%nat 2%nat _ _ _ _ ltac:(lia) ltac:(lia) _ eq_refl eq_refl eq_refl eq_refl (at_configuration _ _) (at_configuration _ _)). opt_skip.
  - refine (ST 1%nat 0%nat _ _ _ _ ltac:(lia) ltac:(lia) _ eq_refl eq_refl eq_refl eq_refl (at_configuration _ _) (at_configuration _ _)). opt_skip.
  - refine (ST 1%nat 3%nat _ _ _ _ ltac:(lia) ltac:(lia) _ eq_refl eq_refl eq_refl eq_refl (at_configuration _ _) (at_configuration _ _)). opt_skip.
  - refine (ST 1%nat 1%nat _ _ _ _ ltac:(lia) ltac:(lia) _ eq_refl eq_refl eq_refl eq_refl (at_configuration _ _) (at_configuration _ _)). opt_skip.
  - refine (ST 3%nat 2%nat _ _ _ _ ltac:(lia) ltac:(lia) _ eq_refl eq_refl eq_refl eq_refl (at_configuration _ _) (at_configuration _ _)). opt_skip.
  - refine (ST 3%nat 0%nat _ _ _ _ ltac:(lia) ltac:(lia) _ eq_refl eq_refl eq_refl eq_refl (at_configuration _ _) (at_configuration _ _)). opt_skip.
  - refine (ST 3%nat 3%nat _ _ _ _ ltac:(lia) ltac:(lia) _ eq_refl eq_refl eq_refl eq_refl (at_configuration _ _) (at_configuration _ _)). opt_skip.
  - refine (ST 3%nat 1%nat _ _ _ _ ltac:(lia) ltac:(lia) _ eq_refl eq_refl eq_refl eq_refl (at_configuration _ _) (at_configuration _ _)). opt_skip.
Qed.

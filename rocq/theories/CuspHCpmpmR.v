(** * Candidates of ModelHCpmpmR.v against the paths with cusps *)
From Coq Require Import Reals ZArith List Lra Lia Bool.
From Verif Require Import PlanHCpmpmR.
From Verif Require Import Base ModelUtil ModelCircle ModelPaths ModelHCpmpmR Num UtilProofs SpecPath SpecTurn SpecSide SpecPlan SpecOpt SpecCusp PoseAlg TurnProofs LegProofs TangentProofs PlanProofs PlanTactics PlanFamily PlanBounds PlanSelect PlanRadius OptProofs OptTangent OptWord OptTactics CuspWord CuspTactics OptHCpmpmR.
Import ListNotations.
Open Scope R_scope.

Lemma TcT_eq c1 c2 : TcT_tangent_circles c1 c2 = gTcT (c_kappa c1) 0 c1 c2.
Proof. reflexivity. Qed.

Section Table.
  Variables (k s : R) (s1 s2 : State) (a b : Configuration) (l1 f1 l2 f2 : bool) (c1 c2 : Circle) (D an : R).
  Local Notation X := (p_radius (hc_cc_param k s) * p_sin_mu (hc_cc_param k s)).
  Local Notation Y := (p_radius (hc_cc_param k s) * p_cos_mu (hc_cc_param k s)).
  Hypothesis Hk : 0 < k.
  Hypothesis Hs : 0 < s.
  Hypothesis HE : epsilon < k / s.
  Hypothesis A : at_conf s1 a.
  Hypothesis B : at_conf s2 b.
  Hypothesis H1 : c1 = circle a l1 f1 true (rs_param k).
  Hypothesis H2 : c2 = circle b l2 (negb f2) true (rs_param k).
  Hypothesis HD : D = center_distance c1 c2.
  Hypothesis HA : an = atan2 (c_yc c2 - c_yc c1) (c_xc c2 - c_xc c1).
  Hypothesis FAR : l2 = l1 -> epsilon <= D.

  Lemma C_C_ok a1 a2 cs : l2 = negb l1 -> f2 = negb f1 -> 0 <= a1 -> 0 <= a2 -> cs = turn k s false false l1 f1 a1 ++ turn k s false false l2 f2 a2 -> same_pose (lib_path s1 cs) s2 ->
    exists w, e_length (entry_TcT D an c1 c2) = Some w /\ w <= total_length cs.
  Proof.
    intros EL EF A1 A2 -> W. cusp_setup k s.
    assert (AS : at_start k s false s1 c1 l1 f1) by (apply (start_rs k s s1 a); assumption). assert (AE : at_end k s false s2 c2 l2 f2) by (apply (end_rs k s s2 b); assumption).
    subst l2 f2. destruct (two_word k s Hk Hs HE false false false s1 s2 c1 c2 l1 f1 a1 a2 AS AE A1 A2 W) as [JD U]. assert (JD2 : D = 2 * (1 / k)) by (rewrite HD; exact JD).
    unfold entry_TcT, TcT_exists. cusp_flags ltac:(replace (D - 2 * (1 / k)) with 0 by lra; rewrite Rabs_R0; exact EP).
    destruct (U _ (use_TcT k s Hk (c_kappa c1) c1 c2 l1 f1 EL1 F1 JD)) as [T1 T2]. unfold TcT_path. rewrite TcT_eq. cusp_close k s.
  Qed.

  Lemma C_C_C_ok a1 a2 a3 cs : l2 = l1 -> f2 = f1 -> 0 <= a1 -> 0 <= a2 -> 0 <= a3 -> cs = turn k s false false l1 f1 a1 ++ turn k s false false (negb l1) (negb f1) a2 ++ turn k s false false l2 f2 a3 -> same_pose (lib_path s1 cs) s2 ->
    exists w, e_length (entry_TcTcT k D an c1 c2) = Some w /\ w <= total_length cs.
  Proof.
    intros EL EF A1 A2 A3 -> W. cusp_setup k s. pose proof (FAR EL) as FD.
    assert (AS : at_start k s false s1 c1 l1 f1) by (apply (start_rs k s s1 a); assumption). assert (AE : at_end k s false s2 c2 l2 f2) by (apply (end_rs k s s2 b); assumption).
    subst l2 f2. assert (D0 : 0 < center_distance c1 c2) by lra.
    destruct (three_word k s Hk Hs HE false false false s1 s2 c1 c2 true true l1 f1 (negb f1) f1 a1 a2 a3 (5 / 10 * D) eq_refl (eq_sym (negb_involutive f1)) AS AE D0 A1 A2 A3 W ltac:(cbv zeta; rewrite <- HD; unfold jr; field; lra)) as (LE1 & LE2 & LE3 & SQ & U).
    unfold jr in LE1, LE2, LE3, SQ. unfold entry_TcTcT, TcTcT_exists. cusp_flags ltac:(lra).
    unfold TcTcT_path, TcTcT_tangent_circles. fields_goal. rewrite ?negb_involutive.
    rewrite fsqrt_def by exact SQ. cbn [fbind]. cusp_middle HA U.
    rewrite !TcT_eq.
    cbn [fbind]. destruct EQ as [-> | ->].
    - destruct (V _ _ (use_TcT k s Hk (c_kappa c1) c1 t1 _ _ EL1 F1 DA1) (use_TcT k s Hk (c_kappa t1) t1 c2 _ _ E1 W1 DB1)) as (T1 & TM & T2). cusp_pick k s.
    - destruct (V _ _ (use_TcT k s Hk (c_kappa c1) c1 t2 _ _ EL1 F1 DA2) (use_TcT k s Hk (c_kappa t2) t2 c2 _ _ E2 W2 DB2)) as (T1 & TM & T2). cusp_pick k s.
  Qed.

  Lemma C_CC_ok a1 a2 a3 cs : l2 = l1 -> f2 = (negb f1) -> 0 <= a1 -> 0 <= a2 -> 0 <= a3 -> cs = turn k s false false l1 f1 a1 ++ turn k s false true (negb l1) (negb f1) a2 ++ turn k s true false l2 f2 a3 -> same_pose (lib_path s1 cs) s2 ->
    exists w, e_length (entry_TcTT k s D an c1 c2) = Some w /\ w <= total_length cs.
  Proof.
    intros EL EF A1 A2 A3 -> W. cusp_setup k s. pose proof (FAR EL) as FD.
    assert (AS : at_start k s false s1 c1 l1 f1) by (apply (start_rs k s s1 a); assumption). assert (AE : at_end k s false s2 c2 l2 f2) by (apply (end_rs k s s2 b); assumption).
    subst l2 f2. assert (D0 : 0 < center_distance c1 c2) by lra.
    destruct (fdiv_def ((2 * (1 / k)) ^ 2 + D ^ 2 - (2 * p_radius (hc_cc_param k s)) ^ 2) (2 * D) ltac:(lra)) as (dx & FX & EX).
    destruct (three_word k s Hk Hs HE false false false s1 s2 c1 c2 true false l1 f1 (negb f1) (negb f1) a1 a2 a3 dx eq_refl eq_refl AS AE D0 A1 A2 A3 W ltac:(cbv zeta; rewrite <- HD; exact EX)) as (LE1 & LE2 & LE3 & SQ & U).
    unfold jr in LE1, LE2, LE3, SQ. unfold entry_TcTT, TcTT_exists. cusp_flags ltac:(lra).
    unfold TcTT_path, TcTT_tangent_circles. fields_goal. rewrite ?negb_involutive.
    rewrite FX. cbn [fbind].
    rewrite fsqrt_def by exact SQ. cbn [fbind]. cusp_middle HA U.
    rewrite !TcT_eq.
    rewrite !(TT_eq k s) by assumption.
    cbn [fbind]. destruct EQ as [-> | ->].
    - destruct (V _ _ (use_TcT k s Hk (c_kappa c1) c1 t1 _ _ EL1 F1 DA1) (use_TT k s Hk Hs false _ t1 c2 _ _ eq_refl E1 W1 DB1)) as (T1 & TM & T2). cusp_pick k s.
    - destruct (V _ _ (use_TcT k s Hk (c_kappa c1) c1 t2 _ _ EL1 F1 DA2) (use_TT k s Hk Hs false _ t2 c2 _ _ eq_refl E2 W2 DB2)) as (T1 & TM & T2). cusp_pick k s.
  Qed.

  Lemma CC_C_ok a1 a2 a3 cs : l2 = l1 -> f2 = (negb f1) -> 0 <= a1 -> 0 <= a2 -> 0 <= a3 -> cs = turn k s false true l1 f1 a1 ++ turn k s true false (negb l1) f1 a2 ++ turn k s false false l2 f2 a3 -> same_pose (lib_path s1 cs) s2 ->
    exists w, e_length (entry_TTcT k s D an c1 c2) = Some w /\ w <= total_length cs.
  Proof.
    intros EL EF A1 A2 A3 -> W. cusp_setup k s. pose proof (FAR EL) as FD.
    assert (AS : at_start k s false s1 c1 l1 f1) by (apply (start_rs k s s1 a); assumption). assert (AE : at_end k s false s2 c2 l2 f2) by (apply (end_rs k s s2 b); assumption).
    subst l2 f2. assert (D0 : 0 < center_distance c1 c2) by lra.
    destruct (fdiv_def ((2 * p_radius (hc_cc_param k s)) ^ 2 + D ^ 2 - (2 * (1 / k)) ^ 2) (2 * D) ltac:(lra)) as (dx & FX & EX).
    destruct (three_word k s Hk Hs HE false false false s1 s2 c1 c2 false true l1 f1 f1 (negb f1) a1 a2 a3 dx eq_refl eq_refl AS AE D0 A1 A2 A3 W ltac:(cbv zeta; rewrite <- HD; exact EX)) as (LE1 & LE2 & LE3 & SQ & U).
    unfold jr in LE1, LE2, LE3, SQ. unfold entry_TTcT, TTcT_exists. cusp_flags ltac:(lra).
    unfold TTcT_path, TTcT_tangent_circles. fields_goal. rewrite ?negb_involutive.
    rewrite FX. cbn [fbind].
    rewrite fsqrt_def by exact SQ. cbn [fbind]. cusp_middle HA U.
    rewrite !TcT_eq.
    rewrite !(TT_eq k s) by assumption.
    cbn [fbind]. destruct EQ as [-> | ->].
    - destruct (V _ _ (use_TT k s Hk Hs false _ c1 t1 _ _ eq_refl EL1 F1 DA1) (use_TcT k s Hk (c_kappa t1) t1 c2 _ _ E1 W1 DB1)) as (T1 & TM & T2). cusp_pick k s.
    - destruct (V _ _ (use_TT k s Hk Hs false _ c1 t2 _ _ eq_refl EL1 F1 DA2) (use_TcT k s Hk (c_kappa t2) t2 c2 _ _ E2 W2 DB2)) as (T1 & TM & T2). cusp_pick k s.
  Qed.

  Lemma C_SC_ok a1 t a2 cs : f2 = (negb f1) -> 0 <= a1 -> 0 <= t -> 0 <= a2 -> cs = turn k s false false l1 f1 a1 ++ [line (negb f1) t] ++ turn k s true false l2 f2 a2 -> same_pose (lib_path s1 cs) s2 ->
    exists w, e_length (entry_TcST k s D an c1 c2) = Some w /\ w <= total_length cs.
  Proof.
    intros EF A1 T0 A2 -> W. cusp_setup k s. pose proof T0 as TP.
    assert (AS : at_start k s false s1 c1 l1 f1) by (apply (start_rs k s s1 a); assumption). assert (AE : at_end k s false s2 c2 l2 f2) by (apply (end_rs k s s2 b); assumption).
    subst f2.
    destruct (line_word k s Hk Hs HE false false s1 s2 c1 c2 l1 f1 l2 (negb f1) AS AE false true (negb f1) a1 t a2 A1 TP A2 ltac:(unfold in_x, out_x; destruct f1; cbn [negb]; unfold sign; lra) W) as [DD U0]. rewrite <- HD in U0.
    assert (DP : 0 <= D) by (rewrite HD; apply sqrt_pos).
    destruct (Bool.bool_dec l1 l2) as [E|E]; [destruct E|assert (E2 : negb l1 = l2) by (clear - E; destruct l1, l2; try reflexivity; exfalso; apply E; reflexivity); destruct E2].
    - assert (DQ : D ^ 2 = (t + X) ^ 2 + (Y - 1 / k) ^ 2) by (rewrite HD, DD; unfold in_x, out_x, side_y; destruct l1, f1; cbn [negb]; unfold sign; ring).
      pose proof (FAR eq_refl) as FD. pose proof (U0 ltac:(lra)) as U.
      unfold entry_TcST, TcST_exists, TcST_path, TciST_exists, TceST_exists. cusp_flags ltac:(apply sqrt_below with ((t + X) ^ 2 - X ^ 2); [lra|lra|nra]).
      unfold TceST_path. fields_goal. destruct (fdiv_def (Y - 1 / k) D ltac:(lra)) as (v & FV & EV). rewrite FV. cbn [fbind].
      destruct (fasin_def v (quot_range D v _ _ ltac:(lra) EV DQ)) as (al & FA & SA & CA). rewrite FA. cbn [fbind]. rewrite <- SA in EV. assert (DC : 0 <= D * cos al) by (apply Rmult_le_pos; lra).
      destruct l1, f1; cusp_line U; cusp_close k s.
    - assert (DQ : D ^ 2 = (t + X) ^ 2 + (Y + 1 / k) ^ 2) by (rewrite HD, DD; unfold in_x, out_x, side_y; destruct l1, f1; cbn [negb]; unfold sign; ring).
      assert (DPP : 0 < D) by nra. pose proof (U0 DPP) as U.
      unfold entry_TcST, TcST_exists, TcST_path, TciST_exists, TceST_exists. cusp_flags ltac:(apply sqrt_below with ((t + X) ^ 2 - X ^ 2); [lra|lra|nra]).
      unfold TciST_path. fields_goal. destruct (fdiv_def (Y + 1 / k) D ltac:(lra)) as (v & FV & EV). rewrite FV. cbn [fbind].
      destruct (fasin_def v (quot_range D v _ _ ltac:(lra) EV DQ)) as (al & FA & SA & CA). rewrite FA. cbn [fbind]. rewrite <- SA in EV. assert (DC : 0 <= D * cos al) by (apply Rmult_le_pos; lra).
      destruct l1, f1; cusp_line U; cusp_close k s.
  Qed.

  Lemma CS_C_ok a1 t a2 cs : f2 = (negb f1) -> 0 <= a1 -> 0 <= t -> 0 <= a2 -> cs = turn k s false true l1 f1 a1 ++ [line f1 t] ++ turn k s false false l2 f2 a2 -> same_pose (lib_path s1 cs) s2 ->
    exists w, e_length (entry_TScT k s D an c1 c2) = Some w /\ w <= total_length cs.
  Proof.
    intros EF A1 T0 A2 -> W. cusp_setup k s. pose proof T0 as TP.
    assert (AS : at_start k s false s1 c1 l1 f1) by (apply (start_rs k s s1 a); assumption). assert (AE : at_end k s false s2 c2 l2 f2) by (apply (end_rs k s s2 b); assumption).
    subst f2.
    destruct (line_word k s Hk Hs HE false false s1 s2 c1 c2 l1 f1 l2 (negb f1) AS AE true false f1 a1 t a2 A1 TP A2 ltac:(unfold in_x, out_x; destruct f1; cbn [negb]; unfold sign; lra) W) as [DD U0]. rewrite <- HD in U0.
    assert (DP : 0 <= D) by (rewrite HD; apply sqrt_pos).
    destruct (Bool.bool_dec l1 l2) as [E|E]; [destruct E|assert (E2 : negb l1 = l2) by (clear - E; destruct l1, l2; try reflexivity; exfalso; apply E; reflexivity); destruct E2].
    - assert (DQ : D ^ 2 = (t + X) ^ 2 + (Y - 1 / k) ^ 2) by (rewrite HD, DD; unfold in_x, out_x, side_y; destruct l1, f1; cbn [negb]; unfold sign; ring).
      pose proof (FAR eq_refl) as FD. pose proof (U0 ltac:(lra)) as U.
      unfold entry_TScT, TScT_exists, TScT_path, TiScT_exists, TeScT_exists. cusp_flags ltac:(apply sqrt_below with ((t + X) ^ 2 - X ^ 2); [lra|lra|nra]).
      unfold TeScT_path. fields_goal. destruct (fdiv_def (Y - 1 / k) D ltac:(lra)) as (v & FV & EV). rewrite FV. cbn [fbind].
      destruct (fasin_def v (quot_range D v _ _ ltac:(lra) EV DQ)) as (al & FA & SA & CA). rewrite FA. cbn [fbind]. rewrite <- SA in EV. assert (DC : 0 <= D * cos al) by (apply Rmult_le_pos; lra).
      destruct l1, f1; cusp_line U; cusp_close k s.
    - assert (DQ : D ^ 2 = (t + X) ^ 2 + (Y + 1 / k) ^ 2) by (rewrite HD, DD; unfold in_x, out_x, side_y; destruct l1, f1; cbn [negb]; unfold sign; ring).
      assert (DPP : 0 < D) by nra. pose proof (U0 DPP) as U.
      unfold entry_TScT, TScT_exists, TScT_path, TiScT_exists, TeScT_exists. cusp_flags ltac:(apply sqrt_below with ((t + X) ^ 2 - X ^ 2); [lra|lra|nra]).
      unfold TiScT_path. fields_goal. destruct (fdiv_def (Y + 1 / k) D ltac:(lra)) as (v & FV & EV). rewrite FV. cbn [fbind].
      destruct (fasin_def v (quot_range D v _ _ ltac:(lra) EV DQ)) as (al & FA & SA & CA). rewrite FA. cbn [fbind]. rewrite <- SA in EV. assert (DC : 0 <= D * cos al) by (apply Rmult_le_pos; lra).
      destruct l1, f1; cusp_line U; cusp_close k s.
  Qed.

  Lemma C_S_C_ok a1 t a2 cs : f2 = f1 -> 0 <= a1 -> 0 < t -> 0 <= a2 -> cs = turn k s false false l1 f1 a1 ++ [line (negb f1) t] ++ turn k s false false l2 f2 a2 -> same_pose (lib_path s1 cs) s2 ->
    exists w, e_length (entry_TcScT D an c1 c2) = Some w /\ w <= total_length cs.
  Proof.
    intros EF A1 T0 A2 -> W. cusp_setup k s. pose proof (Rlt_le _ _ T0) as TP.
    assert (AS : at_start k s false s1 c1 l1 f1) by (apply (start_rs k s s1 a); assumption). assert (AE : at_end k s false s2 c2 l2 f2) by (apply (end_rs k s s2 b); assumption).
    subst f2.
    destruct (line_word k s Hk Hs HE false false s1 s2 c1 c2 l1 f1 l2 f1 AS AE false false (negb f1) a1 t a2 A1 TP A2 ltac:(unfold in_x, out_x; destruct f1; cbn [negb]; unfold sign; lra) W) as [DD U0]. rewrite <- HD in U0.
    assert (DP : 0 <= D) by (rewrite HD; apply sqrt_pos).
    destruct (Bool.bool_dec l1 l2) as [E|E]; [destruct E|assert (E2 : negb l1 = l2) by (clear - E; destruct l1, l2; try reflexivity; exfalso; apply E; reflexivity); destruct E2].
    - assert (DQ : D ^ 2 = (t) ^ 2 + (0) ^ 2) by (rewrite HD, DD; unfold in_x, out_x, side_y; destruct l1, f1; cbn [negb]; unfold sign; ring).
      pose proof (FAR eq_refl) as FD. pose proof (U0 ltac:(lra)) as U.
      unfold entry_TcScT, TcScT_exists, TcScT_path, TciScT_exists, TceScT_exists. cusp_flags ltac:(first [lra|nra]).
      unfold TceScT_path. 
      destruct l1, f1; cusp_line U; cusp_close k s.
    - assert (DQ : D ^ 2 = (t) ^ 2 + (2 * (1 / k)) ^ 2) by (rewrite HD, DD; unfold in_x, out_x, side_y; destruct l1, f1; cbn [negb]; unfold sign; ring).
      assert (DPP : 0 < D) by nra. pose proof (U0 DPP) as U.
      unfold entry_TcScT, TcScT_exists, TcScT_path, TciScT_exists, TceScT_exists. cusp_flags ltac:(first [lra|nra]).
      unfold TciScT_path. fields_goal. rewrite ?AK1, ?AK2. destruct (fdiv_def 2 (k * D) ltac:(nra)) as (v & FV & EV0). rewrite FV. cbn [fbind].
      assert (EV : D * v = 2 * (1 / k)) by (apply Rmult_eq_reg_l with k; [rewrite <- Rmult_assoc, EV0; field|]; lra).
      destruct (fasin_def v (quot_range D v _ _ ltac:(lra) EV DQ)) as (al & FA & SA & CA). rewrite FA. cbn [fbind]. rewrite <- SA in EV. assert (DC : 0 <= D * cos al) by (apply Rmult_le_pos; lra).
      destruct l1, f1; cusp_line U; cusp_close k s.
  Qed.

End Table.

Lemma cusp_table k s s1 s2 a b l1 f1 l2 f2 c1 c2 cs : 0 < k -> 0 < s -> epsilon < k / s -> at_conf s1 a -> at_conf s2 b ->
  c1 = circle a l1 f1 true (rs_param k) -> c2 = circle b l2 (negb f2) true (rs_param k) -> no_turn_pmpm k l1 s1 s2 ->
  cusp_shape k s false false false l1 f1 l2 f2 cs -> same_pose (lib_path s1 cs) s2 ->
  exists e w, In e (circles_table k s c1 c2) /\ e_length e = Some w /\ w <= Rmax (total_length cs) (pos_dist s1 s2).
Proof.
  intros Hk Hs HE A B H1 H2 NT SH W. pose proof (total_nonneg cs) as TN.
  destruct (facts_rs k c1 a l1 f1 true Hk H1) as (S1 & EL1 & F1 & G1 & R1 & M1 & SM1 & CM1 & _ & _ & _ & _ & O1). destruct (facts_rs k c2 b l2 (negb f2) true Hk H2) as (S2 & EL2 & F2 & G2 & R2 & M2 & SM2 & CM2 & _ & _ & _ & _ & O2).
  assert (AS : at_start k s false s1 c1 l1 f1) by (apply (start_rs k s s1 a); assumption). assert (AE : at_end k s false s2 c2 l2 f2) by (apply (end_rs k s s2 b); assumption).
  assert (FAR : l2 = l1 -> epsilon <= center_distance c1 c2).
  { intros EL. rewrite <- (apart_gap k s _ _ _ _ _ _ _ _ _ _ AS AE). rewrite EL. unfold end_centre. assert (KP : 0 < 1 / k) by (apply Rdiv_lt_0_compat; lra). unfold no_turn_pmpm in NT. pose proof eps_pos. nra. }
  unfold circles_table. cbv zeta. rewrite S1, S2. set (an := atan2 _ _).
  destruct (configuration_equal a b); [eexists _, 0; split; [left; reflexivity|split; [reflexivity|eapply Rle_trans; [exact TN|apply Rmax_l]]]|].
  destruct (configuration_on_hc_cc_circle c1 b) eqn:QT; [exfalso; exact (no_turn_rs k s s1 s2 b l1 f1 c1 Hk AS B R1 M1 SM1 CM1 NT QT)|].
  match goal with |- exists e w, In e ?T /\ _ => assert (MX : forall e, In e T -> (exists w, e_length e = Some w /\ w <= total_length cs) -> exists e w, In e T /\ e_length e = Some w /\ w <= Rmax (total_length cs) (pos_dist s1 s2)) end.
  { intros e IN (w & EW & LE). exists e, w. split; [exact IN|split; [exact EW|]]. eapply Rle_trans; [exact LE|apply Rmax_l]. }
  destruct SH as [l f a1 a2 A1 A2|l f a1 a2 a3 A1 A2 A3|l f a1 a2 a3 A1 A2 A3|l f a1 a2 a3 A1 A2 A3|l1 l2 f a1 t a2 A1 T0 A2|l1 l2 f a1 t a2 A1 T0 A2|l1 l2 f a1 t a2 A1 T0 TL A2].
  - apply MX with (e := entry_TcT (center_distance c1 c2) an c1 c2); [do 4 right; left; reflexivity|]. exact (C_C_ok k s s1 s2 a b _ _ _ _ c1 c2 _ an Hk Hs HE A B H1 H2 eq_refl eq_refl FAR a1 a2 _ eq_refl eq_refl A1 A2 eq_refl W).
  - apply MX with (e := entry_TcTcT k (center_distance c1 c2) an c1 c2); [do 5 right; left; reflexivity|]. exact (C_C_C_ok k s s1 s2 a b _ _ _ _ c1 c2 _ an Hk Hs HE A B H1 H2 eq_refl eq_refl FAR a1 a2 a3 _ eq_refl eq_refl A1 A2 A3 eq_refl W).
  - apply MX with (e := entry_TcTT k s (center_distance c1 c2) an c1 c2); [do 6 right; left; reflexivity|]. exact (C_CC_ok k s s1 s2 a b _ _ _ _ c1 c2 _ an Hk Hs HE A B H1 H2 eq_refl eq_refl FAR a1 a2 a3 _ eq_refl eq_refl A1 A2 A3 eq_refl W).
  - apply MX with (e := entry_TTcT k s (center_distance c1 c2) an c1 c2); [do 7 right; left; reflexivity|]. exact (CC_C_ok k s s1 s2 a b _ _ _ _ c1 c2 _ an Hk Hs HE A B H1 H2 eq_refl eq_refl FAR a1 a2 a3 _ eq_refl eq_refl A1 A2 A3 eq_refl W).
  - apply MX with (e := entry_TcST k s (center_distance c1 c2) an c1 c2); [do 15 right; left; reflexivity|]. exact (C_SC_ok k s s1 s2 a b _ _ _ _ c1 c2 _ an Hk Hs HE A B H1 H2 eq_refl eq_refl FAR a1 t a2 _ eq_refl A1 T0 A2 eq_refl W).
  - apply MX with (e := entry_TScT k s (center_distance c1 c2) an c1 c2); [do 16 right; left; reflexivity|]. exact (CS_C_ok k s s1 s2 a b _ _ _ _ c1 c2 _ an Hk Hs HE A B H1 H2 eq_refl eq_refl FAR a1 t a2 _ eq_refl A1 T0 A2 eq_refl W).
  - apply MX with (e := entry_TcScT (center_distance c1 c2) an c1 c2); [do 17 right; left; reflexivity|]. exact (C_S_C_ok k s s1 s2 a b _ _ _ _ c1 c2 _ an Hk Hs HE A B H1 H2 eq_refl eq_refl FAR a1 t a2 _ eq_refl A1 T0 A2 eq_refl W).
Qed.

Theorem hcpmpm_reeds_shepp_cusp k s s1 s2 l1 f1 l2 f2 cs : 0 < k -> 0 < s -> epsilon < k / s -> Rmax (total_length cs) (pos_dist s1 s2) < DBL_MAX -> no_turn_pmpm k l1 s1 s2 -> on_side l1 s1 -> on_side l2 s2 ->
  cusp_shape k s false false false l1 f1 l2 f2 cs -> same_pose (lib_path s1 cs) s2 ->
  exists D, get_distance k s s1 s2 = Some (Some D) /\ D <= Rmax (total_length cs) (pos_dist s1 s2).
Proof.
  intros Hk Hs HE LM NT OS1 OS2 SH W.
  assert (ST : forall i j c1 c2 a b, (i < 4)%nat -> (j < 4)%nat -> skipped s1 s2 i j = false -> nth_error (start_circles k s1) i = Some c1 -> nth_error (end_circles k s2) j = Some c2 ->
    c1 = circle a l1 f1 true (rs_param k) -> c2 = circle b l2 (negb f2) true (rs_param k) -> at_conf s1 a -> at_conf s2 b -> exists D, get_distance k s s1 s2 = Some (Some D) /\ D <= Rmax (total_length cs) (pos_dist s1 s2)).
  { intros i j c1 c2 a b LI LJ SK N1 N2 H1 H2 A B. destruct (cusp_table k s s1 s2 a b l1 f1 l2 f2 c1 c2 cs Hk Hs HE A B H1 H2 NT SH W) as (e & w & IN & EW & LE).
    destruct (plan_exists hc_cc_rs_types (circles_table k s) (skipped s1 s2) (start_circles k s1) (end_circles k s2) 4 4 i j c1 c2 e w (table_first k s) (table_length k s) LI LJ SK N1 N2 IN EW ltac:(lra)) as (p & L & P & EP & LM2 & LW).
    assert (PP : hcpmpm_reeds_shepp k s s1 s2 = Some p) by exact P. exists L. unfold get_distance. rewrite PP. unfold path_distance. rewrite EP. split; [reflexivity|lra]. }
  clear NT SH. destruct l1, f1, l2, f2.
  - refine (ST 0%nat 2%nat _ _ _ _ ltac:(lia) ltac:(lia) _ eq_refl eq_refl eq_refl eq_refl (at_configuration _ _) (at_configuration _ _)). opt_skip.
  - refine (ST 0%nat 0%nat _ _ _ _ ltac:(lia) ltac:(lia) _ eq_refl eq_refl eq_refl eq_refl (at_configuration _ _) (at_configuration _ _)). opt_skip.
  - refine (ST 0%nat 3%nat _ _ _ _ ltac:(lia) ltac:(lia) _ eq_refl eq_refl eq_refl eq_refl (at_configuration _ _) (at_configuration _ _)). opt_skip.
  - refine (ST 0%nat 1%nat _ _ _ _ ltac:(lia) ltac:(lia) _ eq_refl eq_refl eq_refl eq_refl (at_configuration _ _) (at_configuration _ _)). opt_skip.
  - refine (ST 2%nat 2%nat _ _ _ _ ltac:(lia) ltac:(lia) _ eq_refl eq_refl eq_refl eq_refl (at_configuration _ _) (at_configuration _ _)). opt_skip.
  - refine (ST 2%nat 0%nat _ _ _ _ ltac:(lia) ltac:(lia) _ eq_refl eq_refl eq_refl eq_refl (at_configuration _ _) (at_configuration _ _)). opt_skip.
  - refine (ST 2%nat 3%nat _ _ _ _ ltac:(lia) ltac:(lia) _ eq_refl eq_refl eq_refl eq_refl (at_configuration _ _) (at_configuration _ _)). opt_skip.
  - refine (ST 2%nat 1%nat _ _ _ _ ltac:(lia) ltac:(lia) _ eq_refl eq_refl eq_refl eq_refl (at_configuration _ _) (at_configuration _ _)). opt_skip.
  - refine (ST 1%nat 2%nat _ _ _ _ ltac:(lia) ltac:(lia) _ eq_refl eq_refl eq_refl eq_refl (at_configuration _ _) (at_configuration _ _)). opt_skip.
  - refine (ST 1%nat 0%nat _ _ _ _ ltac:(lia) ltac:(lia) _ eq_refl eq_refl eq_refl eq_refl (at_configuration _ _) (at_configuration _ _)). opt_skip.
  - refine (ST 1%nat 3%nat _ _ _ _ ltac:(lia) ltac:(lia) _ eq_refl eq_refl eq_refl eq_refl (at_configuration _ _) (at_configuration _ _)). opt_skip.
  - refine (ST 1%nat 1%nat _ _ _ _ ltac:(lia) ltac:(lia) _ eq_refl eq_refl eq_refl eq_refl (at_configuration _ _) (at_configuration _ _)). opt_skip.
  - refine (ST 3%nat 2%nat _ _ _ _ ltac:(lia) ltac:(lia) _ eq_refl eq_refl eq_refl eq_refl (at_configuration _ _) (at_configuration _ _)). opt_skip.
  - refine (ST 3%nat 0%nat _ _ _ _ ltac:(lia) ltac:(lia) _ eq_refl eq_refl eq_refl eq_refl (at_configuration _ _) (at_configuration _ _)). opt_skip.
  - refine (ST 3%nat 3%nat _ _ _ _ ltac:(lia) ltac:(lia) _ eq_refl eq_refl eq_refl eq_refl (at_configuration _ _) (at_configuration _ _)). opt_skip.
  - refine (ST 3%nat 1%nat _ _ _ _ ltac:(lia) ltac:(lia) _ eq_refl eq_refl eq_refl eq_refl (at_configuration _ _) (at_configuration _ _)). opt_skip.
Qed.

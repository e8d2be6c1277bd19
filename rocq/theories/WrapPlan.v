(** * The two spaces for states of any curvature *)
From Coq Require Import Reals ZArith List Lra Lia Bool Classical_Prop.
From Verif Require Import Base ModelUtil ModelFresnel ModelCircle ModelPaths ModelWrap Num SpecPath SpecTurn SpecPlan SpecSide SpecWrap FresProofs PoseAlg TurnProofs MotionProofs TurnBounds LegProofs IntegrateProofs TangentProofs PlanTactics PlanBounds PlanSelect PlanRefute PlanHybrid SideProofs WrapPredict WrapProofs WrapLoop WrapSpace.
From Verif Require CC00DProofs PlanCC0pmD PlanCCpm0D PlanCCpmpmD PlanHC00R PlanHC0pmR PlanHCpm0R PlanHCpmpmR.
From Verif Require SideCC0pmD SideCCpm0D SideCCpmpmD SideHC0pmR SideHCpm0R SideHCpmpmR.
Import ListNotations.
Open Scope R_scope.

Lemma classic_dec (P : Prop) : P \/ ~ P.
Proof. exact (classic P). Qed.

Section Plans.
  Variables (k s : R).
  Hypothesis Hk : 0 < k.
  Hypothesis Hs : 0 < s.
  Notation r := (p_radius (hc_cc_param k s)).

  Lemma dubins_len t : dubins_pieces t * dubins_gap k s t + dubins_pieces t * epsilon * r <= length_gap k s.
  Proof.
    pose proof (radius_nonneg k s Hk Hs). assert (0 < 1 / k) by (apply Rdiv_lt_0_compat; lra).
    unfold length_gap, epsilon. destruct t; unfold dubins_pieces, dubins_gap, epsilon; lra.
  Qed.
  Lemma rs_len t : rs_pieces t * rs_gap k s t + rs_pieces t * epsilon * r <= length_gap k s.
  Proof.
    pose proof (radius_nonneg k s Hk Hs). assert (0 < 1 / k) by (apply Rdiv_lt_0_compat; lra).
    unfold length_gap, epsilon. destruct t; unfold rs_pieces, rs_gap, epsilon; lra.
  Qed.
  Lemma dubins_pieces_nonneg t : 0 <= dubins_pieces t.
  Proof. destruct t; unfold dubins_pieces; lra. Qed.
  Lemma rs_pieces_nonneg t : 0 <= rs_pieces t.
  Proof. destruct t; unfold rs_pieces; lra. Qed.
  Lemma dubins_gap_nonneg t : 0 <= dubins_gap k s t.
  Proof.
    pose proof (radius_nonneg k s Hk Hs). assert (0 < 1 / k) by (apply Rdiv_lt_0_compat; lra). destruct t; unfold dubins_gap, epsilon; try lra.
  Qed.
  Lemma rs_gap_nonneg t : 0 <= rs_gap k s t.
  Proof.
    pose proof (radius_nonneg k s Hk Hs). assert (0 < 1 / k) by (apply Rdiv_lt_0_compat; lra). destruct t; unfold rs_gap, epsilon; try lra.
  Qed.
  Lemma joint_0 q : Rabs (st_kappa q) < epsilon -> joint k q 0.
  Proof. intros H. split; [reflexivity|intros; lra]. Qed.
  Lemma joint_b q x : epsilon <= Rabs (st_kappa q) -> bound_kappa k q x -> joint k q x.
  Proof. intros H B. split; [intros; lra|intros _; exact B]. Qed.

  Lemma cc_contract fw q1 q2 : pos_dist q1 q2 + detour k s < DBL_MAX ->
    found k s (ModelCC00D.get_distance k s fw) (ModelCC0pmD.get_distance k s fw) (ModelCCpm0D.get_distance k s fw) (ModelCCpmpmD.get_distance k s fw) (ModelCC00D.get_controls k s fw) (ModelCC0pmD.get_controls k s fw) (ModelCCpm0D.get_controls k s fw) (ModelCCpmpmD.get_controls k s fw) curvature_chain cc_dubins_type dubins_pieces (dubins_gap k s) q1 q2.
  Proof.
    intros LM. unfold found, call_distance, call_controls, Rltb.
    destruct (Rlt_dec (Rabs (st_kappa q1)) epsilon) as [Z1|Z1]; destruct (Rlt_dec (Rabs (st_kappa q2)) epsilon) as [Z2|Z2].
    - destruct (CC00DProofs.cc00_dubins_plan k s fw q1 q2 Hk Hs LM) as (t & L & mid & D & C & LE & DR & CH & NM).
      exists t, L, mid. split; [exact D|split; [exact C|split; [exact LE|split; [exact NM|split]]]].
      + pose proof (dubins_len t). destruct DR as (_ & _ & DL & _). lra.
      + intros _. split; [exact DR|]. exists 0, 0. split; [exact (joint_0 _ Z1)|split; [exact (joint_0 _ Z2)|exact CH]].
    - destruct (PlanCC0pmD.cc0pm_dubins_plan k s fw q1 q2 Hk Hs LM) as (p & L & mid & _ & D & C & LE & NM & _ & DL & _).
      destruct (classic_dec (clear_pair k s q1 q2)) as [CP|NC].
      + destruct (SideCC0pmD.cc0pm_dubins_clear k s fw q1 q2 Hk Hs LM ((proj1 CP) ltac:(lra) ltac:(lra))) as (t' & L' & mid' & k1 & D' & C' & _ & _ & B2 & DR' & CH).
        exists t', L', mid'. rewrite D in D'. rewrite C in C'. assert (L' = L) by congruence. assert (mid' = mid) by congruence. subst L' mid'.
        split; [exact D|split; [exact C|split; [exact LE|split; [exact NM|split]]]].
        * pose proof (dubins_len t'). destruct DR' as (_ & _ & DL' & _). lra.
        * intros _. split; [exact DR'|]. exists 0, k1. split; [exact (joint_0 q1 Z1)|split; [exact (joint_b q2 k1 ltac:(lra) B2)|exact CH]].
      + exists (h_type p), L, mid. split; [exact D|split; [exact C|split; [exact LE|split; [exact NM|split; [|contradiction]]]]].
        pose proof (dubins_len (h_type p)). lra.
    - destruct (PlanCCpm0D.ccpm0_dubins_plan k s fw q1 q2 Hk Hs LM) as (p & L & mid & _ & D & C & LE & NM & _ & DL & _).
      destruct (classic_dec (clear_pair k s q1 q2)) as [CP|NC].
      + destruct (SideCCpm0D.ccpm0_dubins_clear k s fw q1 q2 Hk Hs LM ((proj1 (proj2 CP)) ltac:(lra) ltac:(lra))) as (t' & L' & mid' & k0 & D' & C' & _ & _ & B1 & DR' & CH).
        exists t', L', mid'. rewrite D in D'. rewrite C in C'. assert (L' = L) by congruence. assert (mid' = mid) by congruence. subst L' mid'.
        split; [exact D|split; [exact C|split; [exact LE|split; [exact NM|split]]]].
        * pose proof (dubins_len t'). destruct DR' as (_ & _ & DL' & _). lra.
        * intros _. split; [exact DR'|]. exists k0, 0. split; [exact (joint_b q1 k0 ltac:(lra) B1)|split; [exact (joint_0 q2 Z2)|exact CH]].
      + exists (h_type p), L, mid. split; [exact D|split; [exact C|split; [exact LE|split; [exact NM|split; [|contradiction]]]]].
        pose proof (dubins_len (h_type p)). lra.
    - destruct (PlanCCpmpmD.ccpmpm_dubins_plan k s fw q1 q2 Hk Hs LM) as (p & L & mid & _ & D & C & LE & NM & _ & _ & DR & _).
      destruct (classic_dec (clear_pair k s q1 q2)) as [CP|NC].
      + destruct (SideCCpmpmD.ccpmpm_dubins_clear k s fw q1 q2 Hk Hs LM ((proj2 (proj2 CP)) ltac:(lra) ltac:(lra))) as (t' & L' & mid' & k0 & k1 & D' & C' & _ & _ & B1 & B2 & DR' & CH).
        exists t', L', mid'. rewrite D in D'. rewrite C in C'. assert (L' = L) by congruence. assert (mid' = mid) by congruence. subst L' mid'.
        split; [exact D|split; [exact C|split; [exact LE|split; [exact NM|split]]]].
        * pose proof (dubins_len t'). destruct DR' as (_ & _ & DL' & _). lra.
        * intros _. split; [exact DR'|]. exists k0, k1. split; [exact (joint_b q1 k0 ltac:(lra) B1)|split; [exact (joint_b q2 k1 ltac:(lra) B2)|exact CH]].
      + exists (h_type p), L, mid. split; [exact D|split; [exact C|split; [exact LE|split; [exact NM|split; [|contradiction]]]]].
        pose proof (dubins_len (h_type p)). destruct DR as (_ & _ & DL & _). lra.
  Qed.

  Lemma hc_contract q1 q2 : pos_dist q1 q2 + detour k s < DBL_MAX ->
    found k s (ModelHC00R.get_distance k s) (ModelHC0pmR.get_distance k s) (ModelHCpm0R.get_distance k s) (ModelHCpmpmR.get_distance k s) (ModelHC00R.get_controls k s) (ModelHC0pmR.get_controls k s) (ModelHCpm0R.get_controls k s) (ModelHCpmpmR.get_controls k s) hybrid hc_cc_rs_type rs_pieces (rs_gap k s) q1 q2.
  Proof.
    intros LM. unfold found, call_distance, call_controls, Rltb.
    destruct (Rlt_dec (Rabs (st_kappa q1)) epsilon) as [Z1|Z1]; destruct (Rlt_dec (Rabs (st_kappa q2)) epsilon) as [Z2|Z2].
    - destruct (PlanHC00R.hc00_reeds_shepp_plan k s q1 q2 Hk Hs LM) as (t & L & mid & D & C & LE & NM & DR & CH).
      exists t, L, mid. split; [exact D|split; [exact C|split; [exact LE|split; [exact NM|split]]]].
      + pose proof (rs_len t). destruct DR as (_ & _ & DL & _). lra.
      + intros _. split; [exact DR|]. exists 0, 0. split; [exact (joint_0 _ Z1)|split; [exact (joint_0 _ Z2)|exact CH]].
    - destruct (PlanHC0pmR.hc0pm_reeds_shepp_plan k s q1 q2 Hk Hs LM) as (p & L & mid & _ & D & C & LE & NM & _ & DL & _).
      destruct (classic_dec (clear_pair k s q1 q2)) as [CP|NC].
      + destruct (SideHC0pmR.hc0pm_reeds_shepp_clear k s q1 q2 Hk Hs LM ((proj1 CP) ltac:(lra) ltac:(lra))) as (t' & L' & mid' & k1 & D' & C' & _ & _ & B2 & DR' & CH).
        exists t', L', mid'. rewrite D in D'. rewrite C in C'. assert (L' = L) by congruence. assert (mid' = mid) by congruence. subst L' mid'.
        split; [exact D|split; [exact C|split; [exact LE|split; [exact NM|split]]]].
        * pose proof (rs_len t'). destruct DR' as (_ & _ & DL' & _). lra.
        * intros _. split; [exact DR'|]. exists 0, k1. split; [exact (joint_0 q1 Z1)|split; [exact (joint_b q2 k1 ltac:(lra) B2)|exact CH]].
      + exists (h_type p), L, mid. split; [exact D|split; [exact C|split; [exact LE|split; [exact NM|split; [|contradiction]]]]].
        pose proof (rs_len (h_type p)). lra.
    - destruct (PlanHCpm0R.hcpm0_reeds_shepp_plan k s q1 q2 Hk Hs LM) as (p & L & mid & _ & D & C & LE & NM & _ & DL & _).
      destruct (classic_dec (clear_pair k s q1 q2)) as [CP|NC].
      + destruct (SideHCpm0R.hcpm0_reeds_shepp_clear k s q1 q2 Hk Hs LM ((proj1 (proj2 CP)) ltac:(lra) ltac:(lra))) as (t' & L' & mid' & k0 & D' & C' & _ & _ & B1 & DR' & CH).
        exists t', L', mid'. rewrite D in D'. rewrite C in C'. assert (L' = L) by congruence. assert (mid' = mid) by congruence. subst L' mid'.
        split; [exact D|split; [exact C|split; [exact LE|split; [exact NM|split]]]].
        * pose proof (rs_len t'). destruct DR' as (_ & _ & DL' & _). lra.
        * intros _. split; [exact DR'|]. exists k0, 0. split; [exact (joint_b q1 k0 ltac:(lra) B1)|split; [exact (joint_0 q2 Z2)|exact CH]].
      + exists (h_type p), L, mid. split; [exact D|split; [exact C|split; [exact LE|split; [exact NM|split; [|contradiction]]]]].
        pose proof (rs_len (h_type p)). lra.
    - destruct (PlanHCpmpmR.hcpmpm_reeds_shepp_plan k s q1 q2 Hk Hs LM) as (p & L & mid & _ & D & C & LE & NM & _ & _ & DR & _).
      destruct (classic_dec (clear_pair k s q1 q2)) as [CP|NC].
      + destruct (SideHCpmpmR.hcpmpm_reeds_shepp_clear k s q1 q2 Hk Hs LM ((proj2 (proj2 CP)) ltac:(lra) ltac:(lra))) as (t' & L' & mid' & k0 & k1 & D' & C' & _ & _ & B1 & B2 & DR' & CH).
        exists t', L', mid'. rewrite D in D'. rewrite C in C'. assert (L' = L) by congruence. assert (mid' = mid) by congruence. subst L' mid'.
        split; [exact D|split; [exact C|split; [exact LE|split; [exact NM|split]]]].
        * pose proof (rs_len t'). destruct DR' as (_ & _ & DL' & _). lra.
        * intros _. split; [exact DR'|]. exists k0, k1. split; [exact (joint_b q1 k0 ltac:(lra) B1)|split; [exact (joint_b q2 k1 ltac:(lra) B2)|exact CH]].
      + exists (h_type p), L, mid. split; [exact D|split; [exact C|split; [exact LE|split; [exact NM|split; [|contradiction]]]]].
        pose proof (rs_len (h_type p)). destruct DR as (_ & _ & DL & _). lra.
  Qed.

  (** Equal states are connected by a control of length zero. *)
  Lemma equal_connects s1 s2 n g : Rabs (st_kappa s1) <= k -> state_equal s1 s2 = true -> 1 <= n -> 0 <= g ->
    connects k s n g s1 s2 [mkControl 0 (st_kappa s1) 0] /\ continuous_curvature s (st_kappa s1) [mkControl 0 (st_kappa s1) 0] (st_kappa s2) /\ hybrid_curvature s (st_kappa s1) [mkControl 0 (st_kappa s1) 0] (st_kappa s2).
  Proof.
    intros KB E N1 G0. assert (E0 : 0 < epsilon) by (unfold epsilon; lra). pose proof (slack_nonneg k s Hk Hs) as SL. pose proof (radius_nonneg k s Hk Hs) as R0.
    unfold state_equal in E. destruct (Rlt_dec _ _) as [|EK] in E; [discriminate E|]. destruct (Rlt_dec _ _) as [|ET] in E; [discriminate E|]. destruct (Rlt_dec _ _) as [|EP] in E; [discriminate E|]. clear E.
    assert (KG : epsilon <= kappa_gap s) by (unfold kappa_gap; assert (0 < s * epsilon) by (apply Rmult_lt_0_compat; lra); lra).
    assert (CC : curvature_chain (st_kappa s1) [mkControl 0 (st_kappa s1) 0] (st_kappa s1)) by (cbn [curvature_chain ct_kappa ct_sigma ct_delta_s]; split; [reflexivity|ring]).
    assert (KD : Rabs (st_kappa s1 - st_kappa s2) <= epsilon) by (rewrite Rabs_minus_sym; lra).
    assert (Z : Rabs (st_kappa s1 - st_kappa s1) <= kappa_gap s) by (rewrite Rminus_diag_eq, Rabs_R0 by reflexivity; lra).
    split; [|split].
    - assert (W0 : within_bounds k s (mkControl 0 (st_kappa s1) 0)).
      { split; cbn [ct_sigma ct_delta_s ct_kappa]; [rewrite Rabs_R0; lra|]. intros u _. replace (st_kappa s1 + 0 * u) with (st_kappa s1) by ring. exact KB. }
      assert (TM : near 0 0 (pst (true_path s1 [mkControl 0 (st_kappa s1) 0])) (pst s1)).
      { unfold true_path; cbn [fold_left]. apply near_sym. pose proof (move_near k s s1 _ W0) as M. cbn [ct_delta_s] in M. rewrite Rabs_R0, Rmult_0_r in M. exact M. }
      assert (TL : total_length [mkControl 0 (st_kappa s1) 0] = 0) by (unfold total_length; cbn [fold_right ct_delta_s]; rewrite Rabs_R0; ring).
      assert (PD : pos_dist s1 s2 <= epsilon) by (unfold point_distance in EP; rewrite pos_dist_sym; unfold pos_dist; lra).
      assert (HD : heading_within epsilon s1 s2).
      { destruct (Num.twopify_ang (st_theta s1)) as (z1 & A1). destruct (Num.twopify_ang (st_theta s2)) as (z2 & A2). exists (z2 - z1)%Z. rewrite minus_IZR.
        rewrite Rabs_minus_sym in ET. eapply Rle_trans; [|apply Rnot_lt_le, ET]. right. f_equal. unfold TWO_PI in *. lra. }
      destruct (near_dist _ _ _ _ (near_trans _ _ _ _ _ _ _ TM (dist_near _ _ _ _ PD HD))) as (FP & FH).
      assert (SH : 1 <= sharp k s g).
      { unfold sharp. assert (0 <= (g + 2 * param_slack k s) / epsilon) by (apply Rmult_le_pos; [lra|left; apply Rinv_0_lt_compat; lra]).
        set (u := (g + 2 * param_slack k s) / epsilon) in *. assert (0 <= 1 / 10 ^ 9 * u) by (apply Rmult_le_pos; lra). lra. }
      assert (SH2 : 1 <= sharp k s g ^ 2) by (rewrite <- (pow1 2); apply pow_incr; lra).
      split; [|split].
      + unfold wrap_error, plan_error. rewrite TL. assert (0 <= fresnel_error [mkControl 0 (st_kappa s1) 0]) by (unfold fresnel_error; cbn [fold_right ct_sigma]; destruct (Req_EM_T 0 0); lra).
        assert (0 <= n * (2 * g + 2 * param_slack k s)) by (apply Rmult_le_pos; lra). assert (0 <= n * epsilon * (3 / 2 * r + 0)) by (repeat apply Rmult_le_pos; lra).
        assert (0 <= sqrt (PI / s) * (12 / 10 ^ 15)) by (apply Rmult_le_pos; [apply sqrt_pos|lra]). lra.
      + destruct FH as (z & FH). exists z. assert (epsilon <= (n + 2 * k) * epsilon) by (rewrite <- (Rmult_1_l epsilon) at 1; apply Rmult_le_compat_r; lra). lra.
      + constructor; [|constructor]. apply (within_weaken k s _ _ _ W0).
        * rewrite <- (Rmult_1_r k) at 1. apply Rmult_le_compat_l; lra.
        * rewrite <- (Rmult_1_r s) at 1. apply Rmult_le_compat_l; lra.
    - exists (st_kappa s1), (st_kappa s1). split; [exact Z|split; [lra|exact CC]].
    - exists [], [mkControl 0 (st_kappa s1) 0], [], (st_kappa s1), (st_kappa s1). split; [reflexivity|split; [apply chain_hybrid; [exact CC|discriminate]|split; left; split; [reflexivity|exact Z|reflexivity|lra]]].
  Qed.

  Lemma cc_starts junk st fw : cc_predict_state junk k s st fw <> [].
  Proof. unfold cc_predict_state. destruct (no_prediction k st); [discriminate|]. destruct fw; discriminate. Qed.
  Theorem cc_space junk fw s1 s2 : Rabs (st_kappa s1) <= k -> Rabs (st_kappa s2) <= k -> pos_dist s1 s2 + 2 * detour k s < DBL_MAX ->
    exists L cs q1 c1 q2 c2, cc_dubins_distance junk k s fw s1 s2 = Some (Some L) /\ cc_dubins_controls junk k s fw s1 s2 = Some cs /\ L <= pos_dist s1 s2 + 2 * detour k s /\ Rabs (total_length cs - L) <= length_gap k s /\ cs <> [] /\
      In (q1, c1) (cc_predict_state junk k s s1 fw) /\ In (q2, c2) (cc_predict_state junk k s s2 (negb fw)) /\
      (state_equal q1 q2 = true -> cs = [subtract_control c1 c2]) /\
      (state_equal q1 q2 = false -> clear_pair k s q1 q2 -> exists t, connects k s (dubins_pieces t) (dubins_gap k s t) s1 s2 cs /\ continuous_curvature s (st_kappa s1) cs (st_kappa s2)).
  Proof.
    intros K1 K2 LM. unfold cc_dubins_distance, cc_dubins_controls.
    destruct (space_result k s Hk Hs (ModelCC00D.get_distance k s fw) (ModelCC0pmD.get_distance k s fw) (ModelCCpm0D.get_distance k s fw) (ModelCCpmpmD.get_distance k s fw) (ModelCC00D.get_controls k s fw) (ModelCC0pmD.get_controls k s fw) (ModelCCpm0D.get_controls k s fw) (ModelCCpmpmD.get_controls k s fw) curvature_chain cc_dubins_type dubins_pieces (dubins_gap k s) dubins_pieces_nonneg dubins_gap_nonneg (cc_contract fw) s1 s2
      (cc_predict_state junk k s s1 fw) (cc_predict_state junk k s s2 (negb fw)) K1 K2 LM (cc_starts _ _ _) (cc_starts _ _ _) (fun p => cc_forecast junk k s Hs _ _ p) (fun p => cc_forecast junk k s Hs _ _ p))
      as (L & cs & q1 & c1 & q2 & c2 & A & B & LE & LG & NE & I1 & I2 & EQ & UN).
    exists L, cs, q1, c1, q2, c2. split; [exact A|split; [exact B|split; [exact LE|split; [exact LG|split; [exact NE|split; [exact I1|split; [exact I2|split; [exact EQ|]]]]]]]].
    intros NQ CP. destruct (UN NQ CP) as (t & CO & JO). exists t. split; [exact CO|exact (joined_continuous s _ cs _ Hs JO)].
  Qed.
  Theorem cc_far junk fw s1 s2 : Rabs (st_kappa s1) <= k -> Rabs (st_kappa s2) <= k -> pos_dist s1 s2 + 2 * detour k s < DBL_MAX -> epsilon + 5 * (k / s + 1 / k) <= pos_dist s1 s2 ->
    cc_dubins_asserts junk k s fw s1 s2 /\ exists t L cs, cc_dubins_distance junk k s fw s1 s2 = Some (Some L) /\ cc_dubins_controls junk k s fw s1 s2 = Some cs /\ L <= pos_dist s1 s2 + 2 * detour k s /\ Rabs (total_length cs - L) <= length_gap k s /\ cs <> [] /\
      connects k s (dubins_pieces t) (dubins_gap k s t) s1 s2 cs /\ continuous_curvature s (st_kappa s1) cs (st_kappa s2).
  Proof.
    intros K1 K2 LM FR. split.
    - intros q1 c1 q2 c2 I1 I2 E. destruct (far_states k s Hk Hs s1 s2 q1 c1 q2 c2 (cc_forecast junk k s Hs _ _ _ I1) (cc_forecast junk k s Hs _ _ _ I2) FR) as (N & _). congruence.
    - destruct (cc_space junk fw s1 s2 K1 K2 LM) as (L & cs & q1 & c1 & q2 & c2 & A & B & LE & LG & NE & I1 & I2 & _ & UN).
      destruct (far_states k s Hk Hs s1 s2 q1 c1 q2 c2 (cc_forecast junk k s Hs _ _ _ I1) (cc_forecast junk k s Hs _ _ _ I2) FR) as (N & CP). destruct (UN N CP) as (t & CO & JO).
      exists t, L, cs. repeat (split; [assumption|]). assumption.
  Qed.
  Theorem cc_flat junk fw s1 s2 : Rabs (st_kappa s1) < epsilon -> Rabs (st_kappa s2) < epsilon -> Rabs (st_kappa s1) <= k -> Rabs (st_kappa s2) <= k -> pos_dist s1 s2 + 2 * detour k s < DBL_MAX ->
    cc_dubins_asserts junk k s fw s1 s2 /\ exists t L cs, cc_dubins_distance junk k s fw s1 s2 = Some (Some L) /\ cc_dubins_controls junk k s fw s1 s2 = Some cs /\ L <= pos_dist s1 s2 + 2 * detour k s /\ Rabs (total_length cs - L) <= length_gap k s /\ cs <> [] /\
      connects k s (dubins_pieces t) (dubins_gap k s t) s1 s2 cs /\ continuous_curvature s (st_kappa s1) cs (st_kappa s2).
  Proof.
    intros Z1 Z2 K1 K2 LM.
    assert (S : forall st b p, Rabs (st_kappa st) < epsilon -> In p (cc_predict_state junk k s st b) -> p = (st, mkControl 0 (st_kappa st) 0)).
    { intros st b p Z I. unfold cc_predict_state in I. replace (no_prediction k st) with true in I; [destruct I as [I|[]]; symmetry; exact I|]. symmetry. apply no_prediction_true. left. exact Z. }
    split.
    - intros q1 c1 q2 c2 I1 I2 _. apply S in I1; [|exact Z1]. apply S in I2; [|exact Z2]. apply pair_equal_spec in I1. apply pair_equal_spec in I2. destruct I1 as (_ & ->). destruct I2 as (_ & ->).
      unfold subtract_control_assert. cbn [ct_delta_s ct_sigma]. reflexivity.
    - destruct (cc_space junk fw s1 s2 K1 K2 LM) as (L & cs & q1 & c1 & q2 & c2 & A & B & LE & LG & NE & I1 & I2 & EQ & UN).
      apply S in I1; [|exact Z1]. apply S in I2; [|exact Z2]. apply pair_equal_spec in I1. apply pair_equal_spec in I2. destruct I1 as (-> & ->). destruct I2 as (-> & ->).
      destruct (state_equal s1 s2) eqn:E.
      + pose proof (EQ eq_refl) as EC. destruct (equal_connects s1 s2 (dubins_pieces D_E) (dubins_gap k s D_E) K1 E ltac:(unfold dubins_pieces; lra) (dubins_gap_nonneg _)) as (CO & CU & CH). exists D_E, L, cs. rewrite EC in *. unfold subtract_control in *. cbn [ct_delta_s ct_kappa ct_sigma] in *.
        replace (0 - 0) with 0 in * by ring. repeat (split; [assumption|]). exact CU.
      + assert (CP : clear_pair k s s1 s2) by (split; [|split]; intros; lra). destruct (UN eq_refl CP) as (t & CO & JO). exists t, L, cs. repeat (split; [assumption|]). assumption.
  Qed.

  Lemma hc_starts junk st : hc_predict_state junk k s st <> [].
  Proof. unfold hc_predict_state. destruct (no_prediction k st); [discriminate|]. discriminate. Qed.
  Theorem hc_space junk s1 s2 : Rabs (st_kappa s1) <= k -> Rabs (st_kappa s2) <= k -> pos_dist s1 s2 + 2 * detour k s < DBL_MAX ->
    exists L cs q1 c1 q2 c2, hc_rs_distance junk k s s1 s2 = Some (Some L) /\ hc_rs_controls junk k s s1 s2 = Some cs /\ L <= pos_dist s1 s2 + 2 * detour k s /\ Rabs (total_length cs - L) <= length_gap k s /\ cs <> [] /\
      In (q1, c1) (hc_predict_state junk k s s1) /\ In (q2, c2) (hc_predict_state junk k s s2) /\
      (state_equal q1 q2 = true -> cs = [subtract_control c1 c2]) /\
      (state_equal q1 q2 = false -> clear_pair k s q1 q2 -> exists t, connects k s (rs_pieces t) (rs_gap k s t) s1 s2 cs /\ hybrid_curvature s (st_kappa s1) cs (st_kappa s2)).
  Proof.
    intros K1 K2 LM. unfold hc_rs_distance, hc_rs_controls.
    destruct (space_result k s Hk Hs (ModelHC00R.get_distance k s) (ModelHC0pmR.get_distance k s) (ModelHCpm0R.get_distance k s) (ModelHCpmpmR.get_distance k s) (ModelHC00R.get_controls k s) (ModelHC0pmR.get_controls k s) (ModelHCpm0R.get_controls k s) (ModelHCpmpmR.get_controls k s) hybrid hc_cc_rs_type rs_pieces (rs_gap k s) rs_pieces_nonneg rs_gap_nonneg (hc_contract) s1 s2
      (hc_predict_state junk k s s1) (hc_predict_state junk k s s2) K1 K2 LM (hc_starts _ _) (hc_starts _ _) (fun p => hc_forecast junk k s Hs _ p) (fun p => hc_forecast junk k s Hs _ p))
      as (L & cs & q1 & c1 & q2 & c2 & A & B & LE & LG & NE & I1 & I2 & EQ & UN).
    exists L, cs, q1, c1, q2, c2. split; [exact A|split; [exact B|split; [exact LE|split; [exact LG|split; [exact NE|split; [exact I1|split; [exact I2|split; [exact EQ|]]]]]]]].
    intros NQ CP. destruct (UN NQ CP) as (t & CO & JO). exists t. split; [exact CO|exact JO].
  Qed.
  Theorem hc_far junk s1 s2 : Rabs (st_kappa s1) <= k -> Rabs (st_kappa s2) <= k -> pos_dist s1 s2 + 2 * detour k s < DBL_MAX -> epsilon + 5 * (k / s + 1 / k) <= pos_dist s1 s2 ->
    hc_rs_asserts junk k s s1 s2 /\ exists t L cs, hc_rs_distance junk k s s1 s2 = Some (Some L) /\ hc_rs_controls junk k s s1 s2 = Some cs /\ L <= pos_dist s1 s2 + 2 * detour k s /\ Rabs (total_length cs - L) <= length_gap k s /\ cs <> [] /\
      connects k s (rs_pieces t) (rs_gap k s t) s1 s2 cs /\ hybrid_curvature s (st_kappa s1) cs (st_kappa s2).
  Proof.
    intros K1 K2 LM FR. split.
    - intros q1 c1 q2 c2 I1 I2 E. destruct (far_states k s Hk Hs s1 s2 q1 c1 q2 c2 (hc_forecast junk k s Hs _ _ I1) (hc_forecast junk k s Hs _ _ I2) FR) as (N & _). congruence.
    - destruct (hc_space junk s1 s2 K1 K2 LM) as (L & cs & q1 & c1 & q2 & c2 & A & B & LE & LG & NE & I1 & I2 & _ & UN).
      destruct (far_states k s Hk Hs s1 s2 q1 c1 q2 c2 (hc_forecast junk k s Hs _ _ I1) (hc_forecast junk k s Hs _ _ I2) FR) as (N & CP). destruct (UN N CP) as (t & CO & JO).
      exists t, L, cs. repeat (split; [assumption|]). assumption.
  Qed.
  Theorem hc_flat junk s1 s2 : Rabs (st_kappa s1) < epsilon -> Rabs (st_kappa s2) < epsilon -> Rabs (st_kappa s1) <= k -> Rabs (st_kappa s2) <= k -> pos_dist s1 s2 + 2 * detour k s < DBL_MAX ->
    hc_rs_asserts junk k s s1 s2 /\ exists t L cs, hc_rs_distance junk k s s1 s2 = Some (Some L) /\ hc_rs_controls junk k s s1 s2 = Some cs /\ L <= pos_dist s1 s2 + 2 * detour k s /\ Rabs (total_length cs - L) <= length_gap k s /\ cs <> [] /\
      connects k s (rs_pieces t) (rs_gap k s t) s1 s2 cs /\ hybrid_curvature s (st_kappa s1) cs (st_kappa s2).
  Proof.
    intros Z1 Z2 K1 K2 LM.
    assert (S : forall st p, Rabs (st_kappa st) < epsilon -> In p (hc_predict_state junk k s st) -> p = (st, mkControl 0 (st_kappa st) 0)).
    { intros st p Z I. unfold hc_predict_state in I. replace (no_prediction k st) with true in I; [destruct I as [I|[]]; symmetry; exact I|]. symmetry. apply no_prediction_true. left. exact Z. }
    split.
    - intros q1 c1 q2 c2 I1 I2 _. apply S in I1; [|exact Z1]. apply S in I2; [|exact Z2]. apply pair_equal_spec in I1. apply pair_equal_spec in I2. destruct I1 as (_ & ->). destruct I2 as (_ & ->).
      unfold subtract_control_assert. cbn [ct_delta_s ct_sigma]. reflexivity.
    - destruct (hc_space junk s1 s2 K1 K2 LM) as (L & cs & q1 & c1 & q2 & c2 & A & B & LE & LG & NE & I1 & I2 & EQ & UN).
      apply S in I1; [|exact Z1]. apply S in I2; [|exact Z2]. apply pair_equal_spec in I1. apply pair_equal_spec in I2. destruct I1 as (-> & ->). destruct I2 as (-> & ->).
      destruct (state_equal s1 s2) eqn:E.
      + pose proof (EQ eq_refl) as EC. destruct (equal_connects s1 s2 (rs_pieces RS_E) (rs_gap k s RS_E) K1 E ltac:(unfold rs_pieces; lra) (rs_gap_nonneg _)) as (CO & CU & CH). exists RS_E, L, cs. rewrite EC in *. unfold subtract_control in *. cbn [ct_delta_s ct_kappa ct_sigma] in *.
        replace (0 - 0) with 0 in * by ring. repeat (split; [assumption|]). exact CH.
      + assert (CP : clear_pair k s s1 s2) by (split; [|split]; intros; lra). destruct (UN eq_refl CP) as (t & CO & JO). exists t, L, cs. repeat (split; [assumption|]). assumption.
  Qed.
End Plans.

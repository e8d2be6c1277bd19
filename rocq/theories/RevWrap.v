(** * The space for states of any curvature that may reverse against the one that may not *)
From Coq Require Import Reals ZArith List Lra Lia Bool.
From Verif Require Import Base ModelUtil ModelFresnel ModelCircle ModelPaths ModelWrap Num UtilProofs SpecPath SpecTurn SpecPlan SpecSide SpecWrap PoseAlg TurnProofs MotionProofs TurnBounds LegProofs IntegrateProofs TangentProofs PlanTactics PlanProofs PlanHybrid PlanFamily PlanBounds PlanEnds PlanSelect WrapPredict WrapProofs WrapLoop WrapSpace WrapPlan WrapMin RevPlan.
From Verif Require ModelCC00D ModelCC0pmD ModelCCpm0D ModelCCpmpmD ModelCC00R ModelHC00R ModelHC0pmR ModelHCpm0R ModelHCpmpmR PlanCC0pmD PlanCCpm0D PlanCCpmpmD PlanHCpmpmR CC00DProofs.
Import ListNotations.
Open Scope R_scope.

(** ** The predictions of the one space are predictions of the other *)
Lemma predictions_in junk k s st fw p : In p (cc_predict_state junk k s st fw) -> In p (hc_predict_state junk k s st).
Proof.
  unfold cc_predict_state, hc_predict_state. destruct (no_prediction k st); [auto|]. unfold cc_prediction_controls, hc_prediction_controls. cbv zeta. cbn [ct_delta_s ct_sigma].
  destruct fw; cbn [map In]; intros [<-|[<-|[]]].
  - left. reflexivity.
  - do 2 right. left. reflexivity.
  - right. left. do 2 f_equal. unfold Rdiv. ring.
  - do 3 right. left. do 2 f_equal. unfold Rdiv. ring.
Qed.

Section Wrap.
  Variables (k s : R).
  Hypothesis Hk : 0 < k.
  Hypothesis Hs : 0 < s.

  Lemma loop_pairs dist00 dist0pm distpm0 distpmpm ctrl00 ctrl0pm ctrlpm0 ctrlpmpm s1 s2 starts ends : pos_dist s1 s2 + 2 * detour k s < DBL_MAX ->
    starts <> [] -> ends <> [] -> (forall p, In p starts -> forecast k s s1 p) -> (forall p, In p ends -> forecast k s s2 p) ->
    (forall q1 q2, pos_dist q1 q2 + detour k s < DBL_MAX -> exists L mid, call_distance dist00 dist0pm distpm0 distpmpm q1 q2 = Some (Some L) /\ call_controls ctrl00 ctrl0pm ctrlpm0 ctrlpmpm q1 q2 = Some mid /\ Rabs (total_length mid - L) <= length_gap k s) ->
    exists L, loop_distance dist00 dist0pm distpm0 distpmpm starts ends = Some (Some L) /\
      (forall p1 p2 L', In p1 starts -> In p2 ends -> pair_distance dist00 dist0pm distpm0 distpmpm (p1, p2) = Some (Some L') -> L <= L') /\
      (exists p1 p2, In p1 starts /\ In p2 ends /\ pair_distance dist00 dist0pm distpm0 distpmpm (p1, p2) = Some (Some L)).
  Proof.
    intros LM NS NE FS FE CT. pose proof (length_gap_nonneg k s Hk Hs) as G0. pose proof (extra k s Hk Hs) as EX. assert (KS : 0 < k / s) by (apply Rdiv_lt_0_compat; lra).
    destruct (loop_result dist00 dist0pm distpm0 distpmpm ctrl00 ctrl0pm ctrlpm0 ctrlpmpm starts ends (length_gap k s) NS NE) as (L & cs & _ & _ & D & _ & _ & _ & _ & _ & ML & _ & AT); [|exists L; auto].
    intros [q1 c1] [q2 c2] I1 I2. destruct (state_equal q1 q2) eqn:E.
    - destruct (pair_equal dist00 dist0pm distpm0 distpmpm ctrl00 ctrl0pm ctrlpm0 ctrlpmpm q1 c1 q2 c2 E) as (D & C). eexists _, _. split; [exact D|split; [exact C|]]. rewrite Rminus_diag_eq, Rabs_R0 by reflexivity. exact G0.
    - destruct (CT q1 q2) as (L & mid & D & C & LG).
      { pose proof (pair_near k s Hk Hs _ _ _ _ _ _ (FS _ I1) (FE _ I2)) as P. unfold Rabs in P. destruct (Rcase_abs _) in P; lra. }
      destruct (pair_unequal _ _ _ _ _ _ _ _ q1 c1 q2 c2 L mid E D C) as (PD & PC). eexists _, _. split; [exact PD|split; [exact PC|]].
      rewrite !total_length_app. rewrite post_length.
      replace (total_length (pre c1) + (total_length mid + total_length (pre c2)) - (L + total_length (pre c1) + total_length (pre c2))) with (total_length mid - L) by ring. exact LG.
  Qed.

  Lemma plan_of {ty} (o : option (HPath ty)) L : path_distance o = Some (Some L) -> exists p, o = Some p /\ e_length (h_entry p) = Some L.
  Proof. destruct o as [p|]; cbn; [|discriminate]. intros H. exists p. split; [reflexivity|]. congruence. Qed.

  (** Four turns are tried for states that are close to each other only. *)
  Lemma far_not_four fw s1 s2 p L : ModelCCpmpmD.ccpmpm_dubins k s fw s1 s2 = Some p -> e_length (h_entry p) = Some L -> L < DBL_MAX ->
    14 * (k / s + 1 / k) < pos_dist s1 s2 -> h_type p <> D_TTTT.
  Proof.
    intros P EL LM FAR TY. apply select_path_in in P. unfold ModelCCpmpmD.paths in P. apply paths_in in P. destruct P as (i & j & c1 & c2 & SK & N1 & N2 & S).
    unfold ModelCCpmpmD.ccpmpm_circles_dubins_path in S. apply select_entry_in in S. destruct S as (IN & _ & _).
    destruct (PlanCCpmpmD.circles_of k s fw s1 s2 i j c1 c2 SK N1 N2) as (a & b & l1 & f1 & l2 & f2 & C1 & C2 & A & B & _).
    assert (DB : pos_dist s1 s2 <= 1 / k + center_distance c1 c2 + 1 / k).
    { rewrite <- (conf_dist_states s1 s2 a b A B). pose proof (rs_far k s Hk Hs a l1 f1 true) as H1. pose proof (rs_far k s Hk Hs b l2 f2 true) as H2. rewrite <- C1 in H1. rewrite <- C2 in H2.
      unfold configuration_distance, point_distance, center_distance. change (hyp (q_x b - q_x a) (q_y b - q_y a) <= 1 / k + hyp (c_xc c2 - c_xc c1) (c_yc c2 - c_yc c1) + 1 / k). rewrite <- H1 at 1. rewrite <- H2.
      replace (q_x b - q_x a) with ((c_xc c1 - q_x a) + (c_xc c2 - c_xc c1) + - (c_xc c2 - q_x b)) by ring. replace (q_y b - q_y a) with ((c_yc c1 - q_y a) + (c_yc c2 - c_yc c1) + - (c_yc c2 - q_y b)) by ring.
      eapply Rle_trans; [apply hyp_add|]. rewrite hyp_opp. apply Rplus_le_compat_r. apply hyp_add. }
    destruct p as [ty qa qb e]. cbn [h_type h_entry] in *. unfold ModelCCpmpmD.circles_table in IN. cbv zeta in IN. pose proof (radius_le k s Hk Hs) as RL. assert (KS : 0 < k / s) by (apply Rdiv_lt_0_compat; lra). assert (KP : 0 < 1 / k) by (apply Rdiv_lt_0_compat; lra). replace (2 / k) with (2 * (1 / k)) in RL by (field; lra).
    repeat match type of IN with context [if ?b then _ else _] => destruct b; [cbn [cc_dubins_types combine In] in IN; entries; discriminate TY|] end.
    cbn [cc_dubins_types combine In] in IN. entries; try discriminate TY. revert EL. unfold ModelCCpmpmD.entry_TTTT, ModelCCpmpmD.TTTT_exists. unfold Rleb. destruct (Bool.eqb _ _); [|destruct (Bool.eqb _ _); [|destruct (Rle_dec _ _); [exfalso; lra|]]]; cbn [no_entry e_length]; intros EL;
      apply (f_equal (fun o => match o with Some y => y | None => 0 end)) in EL; cbn in EL; lra.
  Qed.

  (** One pair of states. *)
  Lemma pair_rev fw q1 q2 D : pos_dist q1 q2 + detour k s < DBL_MAX ->
    call_distance (ModelCC00D.get_distance k s fw) (ModelCC0pmD.get_distance k s fw) (ModelCCpm0D.get_distance k s fw) (ModelCCpmpmD.get_distance k s fw) q1 q2 = Some (Some D) ->
    exists D', call_distance (ModelHC00R.get_distance k s) (ModelHC0pmR.get_distance k s) (ModelHCpm0R.get_distance k s) (ModelHCpmpmR.get_distance k s) q1 q2 = Some (Some D') /\
      (D' <= D \/ Rabs (st_kappa q1) < epsilon /\ Rabs (st_kappa q2) < epsilon /\ D' <= pos_dist q1 q2 \/
       epsilon <= Rabs (st_kappa q1) /\ epsilon <= Rabs (st_kappa q2) /\ exists p, ModelCCpmpmD.ccpmpm_dubins k s fw q1 q2 = Some p /\ h_type p = D_TTTT).
  Proof.
    intros LM CD. destruct (cc_contract k s Hk Hs fw q1 q2 LM) as (t & L & mid & A & _ & LE & _). rewrite CD in A. assert (L = D) by congruence. subst L. clear A.
    destruct (hc_contract k s Hk Hs q1 q2 LM) as (t' & D' & mid' & HD & _). assert (0 <= detour k s) by (unfold detour; assert (0 < k / s) by (apply Rdiv_lt_0_compat; lra); assert (0 < 1 / k) by (apply Rdiv_lt_0_compat; lra); lra).
    unfold call_distance in CD, HD |- *. unfold Rltb in *. destruct (Rlt_dec (Rabs (st_kappa q1)) epsilon) as [Z1|Z1]; destruct (Rlt_dec (Rabs (st_kappa q2)) epsilon) as [Z2|Z2].
    - destruct (plan_of _ _ CD) as (p & P & EL). destruct (hc00r_plan k s fw q1 q2 p D P EL ltac:(lra) ltac:(lra)) as (LR & E & B). exists LR. split; [exact E|]. destruct B; auto.
    - destruct (plan_of _ _ CD) as (p & P & EL). destruct (hc0pmr_plan k s fw q1 q2 p D P EL ltac:(lra)) as (LR & E & B). exists LR. auto.
    - destruct (plan_of _ _ CD) as (p & P & EL). destruct (hcpm0r_plan k s fw q1 q2 p D P EL ltac:(lra)) as (LR & E & B). exists LR. auto.
    - destruct (plan_of _ _ CD) as (p & P & EL). exists D'. split; [exact HD|].
      destruct (h_type p) eqn:TY; try (left; destruct (hcpmpmr_plan k s fw q1 q2 p D P EL ltac:(lra) ltac:(rewrite TY; discriminate)) as (LR & E & B); rewrite HD in E; assert (D' = LR) by congruence; lra).
      right. right. split; [lra|split; [lra|]]. exists p. auto.
  Qed.

  Theorem wrap_rev junk fw s1 s2 : pos_dist s1 s2 + 2 * detour k s < DBL_MAX ->
    exists LC LH, cc_dubins_distance junk k s fw s1 s2 = Some (Some LC) /\ hc_rs_distance junk k s s1 s2 = Some (Some LH) /\
      (LH <= LC \/ exists q1 c1 q2 c2, In (q1, c1) (cc_predict_state junk k s s1 fw) /\ In (q2, c2) (cc_predict_state junk k s s2 (negb fw)) /\
        (Rabs (st_kappa q1) < epsilon /\ Rabs (st_kappa q2) < epsilon /\ LH <= Rabs (ct_delta_s c1) + pos_dist q1 q2 + Rabs (ct_delta_s c2) \/
         epsilon <= Rabs (st_kappa q1) /\ epsilon <= Rabs (st_kappa q2) /\ exists p, ModelCCpmpmD.ccpmpm_dubins k s fw q1 q2 = Some p /\ h_type p = D_TTTT)).
  Proof.
    intros LM. pose proof (extra k s Hk Hs) as EX. assert (KS : 0 < k / s) by (apply Rdiv_lt_0_compat; lra).
    destruct (loop_pairs _ _ _ _ _ _ _ _ s1 s2 _ _ LM (cc_starts k s junk s1 fw) (cc_starts k s junk s2 (negb fw)) (fun p => cc_forecast junk k s Hs _ _ p) (fun p => cc_forecast junk k s Hs _ _ p) (cc_both k s Hk Hs fw))
      as (LC & DC & _ & [q1 c1] & [q2 c2] & I1 & I2 & AT).
    destruct (loop_pairs _ _ _ _ _ _ _ _ s1 s2 _ _ LM (hc_starts k s junk s1) (hc_starts k s junk s2) (fun p => hc_forecast junk k s Hs _ p) (fun p => hc_forecast junk k s Hs _ p) (hc_both k s Hk Hs))
      as (LH & DH & MH & _).
    exists LC, LH. split; [exact DC|split; [exact DH|]].
    pose proof (predictions_in junk k s s1 fw _ I1) as J1. pose proof (predictions_in junk k s s2 (negb fw) _ I2) as J2.
    destruct (state_equal q1 q2) eqn:E.
    - left. apply (MH _ _ _ J1 J2). unfold pair_distance in AT |- *. rewrite E in AT |- *. exact AT.
    - assert (PM : pos_dist q1 q2 + detour k s < DBL_MAX).
      { pose proof (pair_near k s Hk Hs _ _ _ _ _ _ (cc_forecast junk k s Hs _ _ _ I1) (cc_forecast junk k s Hs _ _ _ I2)) as P. unfold Rabs in P. destruct (Rcase_abs _) in P; lra. }
      destruct (cc_both k s Hk Hs fw q1 q2 PM) as (D & mid & CD & CC & _). destruct (pair_unequal _ _ _ _ _ _ _ _ q1 c1 q2 c2 D mid E CD CC) as (PD & _). rewrite AT in PD.
      assert (EL : LC = D + total_length (pre c1) + total_length (post c2)) by congruence. clear PD AT.
      destruct (pair_rev fw q1 q2 D PM CD) as (D' & HD & B). destruct (hc_both k s Hk Hs q1 q2 PM) as (D2 & mid' & HD2 & HC & _).
      destruct (pair_unequal _ _ _ _ _ _ _ _ q1 c1 q2 c2 D' mid' E HD HC) as (PD & _). pose proof (MH _ _ _ J1 J2 PD) as LE. pose proof (pre_le c1). pose proof (pre_le c2). rewrite post_length in *.
      destruct B as [B|[(Z1 & Z2 & B)|(Z1 & Z2 & B)]].
      + left. lra.
      + right. exists q1, c1, q2, c2. split; [exact I1|split; [exact I2|]]. left. split; [exact Z1|split; [exact Z2|]]. lra.
      + right. exists q1, c1, q2, c2. split; [exact I1|split; [exact I2|]]. right. auto.
  Qed.
  Theorem wrap_rev_far junk fw s1 s2 : pos_dist s1 s2 + 2 * detour k s < DBL_MAX -> 30 * (k / s + 1 / k) <= pos_dist s1 s2 ->
    exists LC LH, cc_dubins_distance junk k s fw s1 s2 = Some (Some LC) /\ hc_rs_distance junk k s s1 s2 = Some (Some LH) /\
      (LH <= LC \/ exists q1 c1 q2 c2, In (q1, c1) (cc_predict_state junk k s s1 fw) /\ In (q2, c2) (cc_predict_state junk k s s2 (negb fw)) /\
        Rabs (st_kappa q1) < epsilon /\ Rabs (st_kappa q2) < epsilon /\ LH <= Rabs (ct_delta_s c1) + pos_dist q1 q2 + Rabs (ct_delta_s c2)).
  Proof.
    intros LM FAR. pose proof (extra k s Hk Hs) as EX. assert (KS : 0 < k / s) by (apply Rdiv_lt_0_compat; lra). assert (KP : 0 < 1 / k) by (apply Rdiv_lt_0_compat; lra).
    destruct (wrap_rev junk fw s1 s2 LM) as (LC & LH & DC & DH & B). exists LC, LH. split; [exact DC|split; [exact DH|]]. destruct B as [B|(q1 & c1 & q2 & c2 & I1 & I2 & B)]; [left; exact B|].
    destruct B as [(Z1 & Z2 & B)|(Z1 & Z2 & p & P & TY)]; [right; exists q1, c1, q2, c2; auto|]. exfalso.
    pose proof (pair_near k s Hk Hs _ _ _ _ _ _ (cc_forecast junk k s Hs _ _ _ I1) (cc_forecast junk k s Hs _ _ _ I2)) as N. pose proof (tol_le k s Hk Hs) as TL.
    assert (PM : pos_dist q1 q2 + detour k s < DBL_MAX) by (unfold Rabs in N; destruct (Rcase_abs _) in N; lra).
    destruct (max_facts k s Hk Hs) as (_ & _ & _ & _ & DT). destruct (PlanCCpmpmD.ccpmpm_dubins_exists k s fw q1 q2 Hk Hs ltac:(lra)) as (p' & L & P' & EL & LL & _). rewrite P in P'. assert (p = p') by congruence. subst p'.
    apply (far_not_four fw q1 q2 p L P EL LL); [|exact TY]. unfold Rabs in N; destruct (Rcase_abs _) in N; lra.
  Qed.

  (** The planners for fixed curvatures at both ends. *)
  Lemma zero_rev fw s1 s2 : pos_dist s1 s2 + detour k s < DBL_MAX ->
    exists LD LC LH, ModelCC00D.get_distance k s fw s1 s2 = Some (Some LD) /\ ModelCC00R.get_distance k s s1 s2 = Some (Some LC) /\ ModelHC00R.get_distance k s s1 s2 = Some (Some LH) /\
      LC <= Rmax LD (pos_dist s1 s2) /\ LH <= Rmax LD (pos_dist s1 s2).
  Proof.
    intros LM. destruct (max_facts k s Hk Hs) as (RP & KS & KP & _ & DT). assert (D0 : 0 <= detour k s) by (unfold detour; lra).
    destruct (CC00DProofs.cc00_dubins_plan k s fw s1 s2 Hk Hs LM) as (t & L & cs & GD & _ & LE & _). destruct (plan_of _ _ GD) as (p & P & EL).
    destruct (cc00r_plan k s fw s1 s2 p L P EL ltac:(lra) ltac:(lra)) as (LC & EC & BC). destruct (hc00r_plan k s fw s1 s2 p L P EL ltac:(lra) ltac:(lra)) as (LH & EH & BH).
    exists L, LC, LH. split; [exact GD|split; [exact EC|split; [exact EH|]]]. pose proof (Rmax_l L (pos_dist s1 s2)). pose proof (Rmax_r L (pos_dist s1 s2)). lra.
  Qed.
  Lemma one_end_rev fw s1 s2 : pos_dist s1 s2 + detour k s < DBL_MAX ->
    (exists LD LH, ModelCC0pmD.get_distance k s fw s1 s2 = Some (Some LD) /\ ModelHC0pmR.get_distance k s s1 s2 = Some (Some LH) /\ LH <= LD) /\
    (exists LD LH, ModelCCpm0D.get_distance k s fw s1 s2 = Some (Some LD) /\ ModelHCpm0R.get_distance k s s1 s2 = Some (Some LH) /\ LH <= LD).
  Proof.
    intros LM. destruct (max_facts k s Hk Hs) as (RP & KS & KP & _ & DT). split.
    - destruct (PlanCC0pmD.cc0pm_dubins_exists k s fw s1 s2 Hk Hs ltac:(lra)) as (p & L & P & EL & LL & _). destruct (hc0pmr_plan k s fw s1 s2 p L P EL LL) as (LH & EH & BH).
      exists L, LH. split; [unfold ModelCC0pmD.get_distance; rewrite P; cbn [path_distance]; rewrite EL; reflexivity|auto].
    - destruct (PlanCCpm0D.ccpm0_dubins_exists k s fw s1 s2 Hk Hs ltac:(lra)) as (p & L & P & EL & LL & _). destruct (hcpm0r_plan k s fw s1 s2 p L P EL LL) as (LH & EH & BH).
      exists L, LH. split; [unfold ModelCCpm0D.get_distance; rewrite P; cbn [path_distance]; rewrite EL; reflexivity|auto].
  Qed.
  Lemma both_rev fw s1 s2 : pos_dist s1 s2 + detour k s < DBL_MAX ->
    exists p LD LH, ModelCCpmpmD.ccpmpm_dubins k s fw s1 s2 = Some p /\ ModelCCpmpmD.get_distance k s fw s1 s2 = Some (Some LD) /\ ModelHCpmpmR.get_distance k s s1 s2 = Some (Some LH) /\
      (h_type p <> D_TTTT \/ 14 * (k / s + 1 / k) < pos_dist s1 s2 -> LH <= LD).
  Proof.
    intros LM. destruct (max_facts k s Hk Hs) as (RP & KS & KP & _ & DT).
    destruct (PlanCCpmpmD.ccpmpm_dubins_exists k s fw s1 s2 Hk Hs ltac:(lra)) as (p & L & P & EL & LL & _). destruct (PlanHCpmpmR.hcpmpm_reeds_shepp_exists k s s1 s2 Hk Hs ltac:(lra)) as (p' & LH & P' & EL' & LL' & _).
    assert (GH : ModelHCpmpmR.get_distance k s s1 s2 = Some (Some LH)) by (unfold ModelHCpmpmR.get_distance; rewrite P'; cbn [path_distance]; rewrite EL'; reflexivity).
    exists p, L, LH. split; [exact P|]. split; [unfold ModelCCpmpmD.get_distance; rewrite P; cbn [path_distance]; rewrite EL; reflexivity|]. split; [exact GH|]. intros H.
    assert (NT : h_type p <> D_TTTT) by (destruct H as [H|H]; [exact H|exact (far_not_four fw s1 s2 p L P EL LL H)]).
    destruct (hcpmpmr_plan k s fw s1 s2 p L P EL LL NT) as (LR & E & B). rewrite GH in E. assert (LH = LR) by congruence. lra.
  Qed.
End Wrap.

Lemma rev_far_case ka kb : let s1 := mkState 0 0 0 ka 1 in let s2 := mkState 60 80 0 kb 1 in 14 * (1 / 1 + 1 / 1) < pos_dist s1 s2 /\ 30 * (1 / 1 + 1 / 1) <= pos_dist s1 s2.
Proof. cbv zeta. unfold pos_dist; cbn [st_x st_y]. replace ((0 - 60) ^ 2 + (0 - 80) ^ 2) with (100 ^ 2) by ring. rewrite sqrt_pow2 by lra. lra. Qed.

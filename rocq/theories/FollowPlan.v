(** * Sampled paths of the HC/CC planners end at the goal *)
From Coq Require Import Reals ZArith List Bool Lra.
From Verif Require Import Base ModelUtil ModelFresnel ModelIntegrate ModelCircle ModelPaths ModelWrap Num IntegrateProofs DubinsOpt MotionProofs PoseAlg SpecCloth SpecPath SpecTurn SpecPlan SpecSide SpecWrap SpecFollow FollowProofs.
From Verif Require ModelCC00D ModelCC0pmD ModelCCpm0D ModelCCpmpmD ModelCC00R ModelHC00R ModelHC0pmR ModelHCpm0R ModelHCpmpmR.
From Verif Require CC00DProofs PlanCC00R PlanHC00R SideCC0pmD SideCCpm0D SideCCpmpmD SideHC0pmR SideHCpm0R SideHCpmpmR WrapPlan.
Import ListNotations.
Open Scope R_scope.

Lemma sampled_near e h s1 s2 cs : cs <> [] -> pos_dist (true_path s1 cs) s2 <= e -> heading_within h (true_path s1 cs) s2 ->
  sampled_to (e + sample_error cs) (h + sample_turn cs) s1 s2 cs.
Proof.
  intros NE P H disc D. split; [exact (hc_integrate_total disc s1 cs D NE)|]. intros path E. destruct cs as [|c cs]; [contradiction|].
  destruct (integrate_ends disc s1 c cs path D E) as (q & Q & N). exists q. split; [exact Q|].
  assert (G : near e h (pst (true_path s1 (c :: cs))) (pst s2)) by (split; [exact P|exact H]).
  destruct (near_trans _ _ _ _ _ _ _ N G) as [A B]. unfold sample_error, sample_turn. split.
  - eapply Rle_trans; [exact A|]. lra.
  - destruct B as [z B]. exists z. cbn [pst pt] in B. lra.
Qed.

Lemma drives_sampled k s n g s1 s2 cs L : cs <> [] -> drives k s n g s1 s2 cs L ->
  Rabs (total_length cs - L) <= n * g + n * epsilon * p_radius (hc_cc_param k s) /\
  sampled_to (plan_error k s n g cs + sample_error cs) (n * epsilon + sample_turn cs) s1 s2 cs.
Proof. intros NE (A & B & C & _). split; [exact C|]. apply sampled_near; assumption. Qed.

Lemma connects_sampled k s n g s1 s2 cs : cs <> [] -> connects k s n g s1 s2 cs ->
  sampled_to (wrap_error k s n g cs + sample_error cs) ((n + 2 * k) * epsilon + sample_turn cs) s1 s2 cs.
Proof. intros NE (A & B & _). apply sampled_near; assumption. Qed.

Ltac sampled H := destruct H as (t & L & cs & E); exists t, L, cs;
  repeat match goal with X : exists _, _ |- _ => destruct X as [? X] | X : _ /\ _ |- _ => destruct X as [? X] end;
  repeat (split; [assumption|]); apply drives_sampled; assumption.

Lemma cc00_dubins_sampled (k s : R) (forward : bool) (s1 s2 : State) :
  0 < k -> 0 < s -> pos_dist s1 s2 + detour k s < DBL_MAX ->
  exists t L cs, ModelCC00D.get_distance k s forward s1 s2 = Some (Some L) /\ ModelCC00D.get_controls k s forward s1 s2 = Some cs /\
    L <= pos_dist s1 s2 + detour k s /\ Rabs (total_length cs - L) <= dubins_pieces t * dubins_gap k s t + dubins_pieces t * epsilon * p_radius (hc_cc_param k s) /\
    sampled_to (plan_error k s (dubins_pieces t) (dubins_gap k s t) cs + sample_error cs) (dubins_pieces t * epsilon + sample_turn cs) s1 s2 cs.
Proof. intros Hk Hs DB. sampled (CC00DProofs.cc00_dubins_plan k s forward s1 s2 Hk Hs DB). Qed.
Lemma cc00_reeds_shepp_sampled (k s : R) (s1 s2 : State) :
  0 < k -> 0 < s -> pos_dist s1 s2 + detour k s < DBL_MAX ->
  exists t L cs, ModelCC00R.get_distance k s s1 s2 = Some (Some L) /\ ModelCC00R.get_controls k s s1 s2 = Some cs /\
    L <= pos_dist s1 s2 + detour k s /\ Rabs (total_length cs - L) <= rs_pieces t * cc_rs_gap k s t + rs_pieces t * epsilon * p_radius (hc_cc_param k s) /\
    sampled_to (plan_error k s (rs_pieces t) (cc_rs_gap k s t) cs + sample_error cs) (rs_pieces t * epsilon + sample_turn cs) s1 s2 cs.
Proof. intros Hk Hs DB. sampled (PlanCC00R.cc00_reeds_shepp_plan k s s1 s2 Hk Hs DB). Qed.
Lemma hc00_reeds_shepp_sampled (k s : R) (s1 s2 : State) :
  0 < k -> 0 < s -> pos_dist s1 s2 + detour k s < DBL_MAX ->
  exists t L cs, ModelHC00R.get_distance k s s1 s2 = Some (Some L) /\ ModelHC00R.get_controls k s s1 s2 = Some cs /\
    L <= pos_dist s1 s2 + detour k s /\ Rabs (total_length cs - L) <= rs_pieces t * rs_gap k s t + rs_pieces t * epsilon * p_radius (hc_cc_param k s) /\
    sampled_to (plan_error k s (rs_pieces t) (rs_gap k s t) cs + sample_error cs) (rs_pieces t * epsilon + sample_turn cs) s1 s2 cs.
Proof. intros Hk Hs DB. sampled (PlanHC00R.hc00_reeds_shepp_plan k s s1 s2 Hk Hs DB). Qed.
Lemma cc0pm_dubins_sampled (k s : R) (forward : bool) (s1 s2 : State) :
  0 < k -> 0 < s -> pos_dist s1 s2 + detour k s < DBL_MAX -> clear_0pm k s s1 s2 ->
  exists t L cs, ModelCC0pmD.get_distance k s forward s1 s2 = Some (Some L) /\ ModelCC0pmD.get_controls k s forward s1 s2 = Some cs /\
    L <= pos_dist s1 s2 + detour k s /\ Rabs (total_length cs - L) <= dubins_pieces t * dubins_gap k s t + dubins_pieces t * epsilon * p_radius (hc_cc_param k s) /\
    sampled_to (plan_error k s (dubins_pieces t) (dubins_gap k s t) cs + sample_error cs) (dubins_pieces t * epsilon + sample_turn cs) s1 s2 cs.
Proof. intros Hk Hs DB Cl. sampled (SideCC0pmD.cc0pm_dubins_clear k s forward s1 s2 Hk Hs DB Cl). Qed.
Lemma ccpm0_dubins_sampled (k s : R) (forward : bool) (s1 s2 : State) :
  0 < k -> 0 < s -> pos_dist s1 s2 + detour k s < DBL_MAX -> clear_pm0 k s s1 s2 ->
  exists t L cs, ModelCCpm0D.get_distance k s forward s1 s2 = Some (Some L) /\ ModelCCpm0D.get_controls k s forward s1 s2 = Some cs /\
    L <= pos_dist s1 s2 + detour k s /\ Rabs (total_length cs - L) <= dubins_pieces t * dubins_gap k s t + dubins_pieces t * epsilon * p_radius (hc_cc_param k s) /\
    sampled_to (plan_error k s (dubins_pieces t) (dubins_gap k s t) cs + sample_error cs) (dubins_pieces t * epsilon + sample_turn cs) s1 s2 cs.
Proof. intros Hk Hs DB Cl. sampled (SideCCpm0D.ccpm0_dubins_clear k s forward s1 s2 Hk Hs DB Cl). Qed.
Lemma ccpmpm_dubins_sampled (k s : R) (forward : bool) (s1 s2 : State) :
  0 < k -> 0 < s -> pos_dist s1 s2 + detour k s < DBL_MAX -> clear_pmpm k s1 s2 ->
  exists t L cs, ModelCCpmpmD.get_distance k s forward s1 s2 = Some (Some L) /\ ModelCCpmpmD.get_controls k s forward s1 s2 = Some cs /\
    L <= pos_dist s1 s2 + detour k s /\ Rabs (total_length cs - L) <= dubins_pieces t * dubins_gap k s t + dubins_pieces t * epsilon * p_radius (hc_cc_param k s) /\
    sampled_to (plan_error k s (dubins_pieces t) (dubins_gap k s t) cs + sample_error cs) (dubins_pieces t * epsilon + sample_turn cs) s1 s2 cs.
Proof. intros Hk Hs DB Cl. sampled (SideCCpmpmD.ccpmpm_dubins_clear k s forward s1 s2 Hk Hs DB Cl). Qed.
Lemma hc0pm_reeds_shepp_sampled (k s : R) (s1 s2 : State) :
  0 < k -> 0 < s -> pos_dist s1 s2 + detour k s < DBL_MAX -> clear_0pm k s s1 s2 ->
  exists t L cs, ModelHC0pmR.get_distance k s s1 s2 = Some (Some L) /\ ModelHC0pmR.get_controls k s s1 s2 = Some cs /\
    L <= pos_dist s1 s2 + detour k s /\ Rabs (total_length cs - L) <= rs_pieces t * rs_gap k s t + rs_pieces t * epsilon * p_radius (hc_cc_param k s) /\
    sampled_to (plan_error k s (rs_pieces t) (rs_gap k s t) cs + sample_error cs) (rs_pieces t * epsilon + sample_turn cs) s1 s2 cs.
Proof. intros Hk Hs DB Cl. sampled (SideHC0pmR.hc0pm_reeds_shepp_clear k s s1 s2 Hk Hs DB Cl). Qed.
Lemma hcpm0_reeds_shepp_sampled (k s : R) (s1 s2 : State) :
  0 < k -> 0 < s -> pos_dist s1 s2 + detour k s < DBL_MAX -> clear_pm0 k s s1 s2 ->
  exists t L cs, ModelHCpm0R.get_distance k s s1 s2 = Some (Some L) /\ ModelHCpm0R.get_controls k s s1 s2 = Some cs /\
    L <= pos_dist s1 s2 + detour k s /\ Rabs (total_length cs - L) <= rs_pieces t * rs_gap k s t + rs_pieces t * epsilon * p_radius (hc_cc_param k s) /\
    sampled_to (plan_error k s (rs_pieces t) (rs_gap k s t) cs + sample_error cs) (rs_pieces t * epsilon + sample_turn cs) s1 s2 cs.
Proof. intros Hk Hs DB Cl. sampled (SideHCpm0R.hcpm0_reeds_shepp_clear k s s1 s2 Hk Hs DB Cl). Qed.
Lemma hcpmpm_reeds_shepp_sampled (k s : R) (s1 s2 : State) :
  0 < k -> 0 < s -> pos_dist s1 s2 + detour k s < DBL_MAX -> clear_pmpm k s1 s2 ->
  exists t L cs, ModelHCpmpmR.get_distance k s s1 s2 = Some (Some L) /\ ModelHCpmpmR.get_controls k s s1 s2 = Some cs /\
    L <= pos_dist s1 s2 + detour k s /\ Rabs (total_length cs - L) <= rs_pieces t * rs_gap k s t + rs_pieces t * epsilon * p_radius (hc_cc_param k s) /\
    sampled_to (plan_error k s (rs_pieces t) (rs_gap k s t) cs + sample_error cs) (rs_pieces t * epsilon + sample_turn cs) s1 s2 cs.
Proof. intros Hk Hs DB Cl. sampled (SideHCpmpmR.hcpmpm_reeds_shepp_clear k s s1 s2 Hk Hs DB Cl). Qed.
Lemma cc_dubins_sampled (junk k s : R) (forward : bool) (s1 s2 : State) :
  0 < k -> 0 < s ->
  Rabs (st_kappa s1) <= k -> Rabs (st_kappa s2) <= k -> pos_dist s1 s2 + 2 * detour k s < DBL_MAX -> epsilon + 5 * (k / s + 1 / k) <= pos_dist s1 s2 ->
  exists t L cs, cc_dubins_distance junk k s forward s1 s2 = Some (Some L) /\ cc_dubins_controls junk k s forward s1 s2 = Some cs /\
    L <= pos_dist s1 s2 + 2 * detour k s /\ Rabs (total_length cs - L) <= length_gap k s /\
    sampled_to (wrap_error k s (dubins_pieces t) (dubins_gap k s t) cs + sample_error cs) ((dubins_pieces t + 2 * k) * epsilon + sample_turn cs) s1 s2 cs.
Proof.
  intros Hk Hs K1 K2 DB F. destruct (WrapPlan.cc_far k s Hk Hs junk forward s1 s2 K1 K2 DB F) as (_ & t & L & cs & A & B & C & D & NE & X & _).
  exists t, L, cs. repeat (split; [assumption|]). exact (connects_sampled _ _ _ _ _ _ _ NE X).
Qed.
Lemma hc_reeds_shepp_sampled (junk k s : R) (s1 s2 : State) :
  0 < k -> 0 < s ->
  Rabs (st_kappa s1) <= k -> Rabs (st_kappa s2) <= k -> pos_dist s1 s2 + 2 * detour k s < DBL_MAX -> epsilon + 5 * (k / s + 1 / k) <= pos_dist s1 s2 ->
  exists t L cs, hc_rs_distance junk k s s1 s2 = Some (Some L) /\ hc_rs_controls junk k s s1 s2 = Some cs /\
    L <= pos_dist s1 s2 + 2 * detour k s /\ Rabs (total_length cs - L) <= length_gap k s /\
    sampled_to (wrap_error k s (rs_pieces t) (rs_gap k s t) cs + sample_error cs) ((rs_pieces t + 2 * k) * epsilon + sample_turn cs) s1 s2 cs.
Proof.
  intros Hk Hs K1 K2 DB F. destruct (WrapPlan.hc_far k s Hk Hs junk s1 s2 K1 K2 DB F) as (_ & t & L & cs & A & B & C & D & NE & X & _).
  exists t, L, cs. repeat (split; [assumption|]). exact (connects_sampled _ _ _ _ _ _ _ NE X).
Qed.

Lemma follow_case : let cs := [mkControl 1 0 1; mkControl 3 1 0; mkControl (-2) 0 0] in
  (exists path, hc_integrate (1 / 10) (mkState 1 2 3 0 1) cs = Some path) /\ total_length cs = 6 /\ path_drift epsilon 6 <= 8 / 1000.
Proof.
  intros cs. assert (T : total_length cs = 6). { unfold cs, total_length; cbn [fold_right ct_delta_s]. unfold Rabs. repeat destruct (Rcase_abs _); lra. }
  split; [|split; [exact T|unfold path_drift, epsilon; lra]]. apply hc_integrate_total; [lra|discriminate|]. rewrite T. unfold cs; cbn [length INR]. lra.
Qed.

(** * The assertions on turns: all planners *)
From Coq Require Import Reals List Lra Bool.
From Verif Require Import Base ModelUtil ModelCircle ModelPaths ModelAsserts SpecPath SpecPlan PlanCases PlanAll.
From Verif Require ModelCC00D ModelCC0pmD ModelCCpm0D ModelCCpmpmD ModelCC00R ModelHC00R ModelHC0pmR ModelHCpm0R ModelHCpmpmR.
From Verif Require AssertCC00D AssertCC0pmD AssertCCpm0D AssertCCpmpmD AssertCC00R AssertHC00R AssertHC0pmR AssertHCpm0R AssertHCpmpmR.
Open Scope R_scope.

Lemma all_asserts_hold (k s : R) (forward : bool) (s1 s2 : State) : 0 < k -> 0 < s -> pos_dist s1 s2 + detour k s < DBL_MAX ->
  (exists p cs, ModelCC00D.cc00_dubins k s forward s1 s2 = Some p /\ ModelCC00D.path_controls p = Some cs /\ asserts_CC00D p) /\
  (exists p cs, ModelCC0pmD.cc0pm_dubins k s forward s1 s2 = Some p /\ ModelCC0pmD.path_controls p = Some cs /\ asserts_CC0pmD p) /\
  (exists p cs, ModelCCpm0D.ccpm0_dubins k s forward s1 s2 = Some p /\ ModelCCpm0D.path_controls p = Some cs /\ asserts_CCpm0D p) /\
  (exists p cs, ModelCCpmpmD.ccpmpm_dubins k s forward s1 s2 = Some p /\ ModelCCpmpmD.path_controls p = Some cs /\ asserts_CCpmpmD p) /\
  (exists p cs, ModelCC00R.cc00_reeds_shepp k s s1 s2 = Some p /\ ModelCC00R.path_controls p = Some cs /\ asserts_CC00R p) /\
  (exists p cs, ModelHC00R.hc00_reeds_shepp k s s1 s2 = Some p /\ ModelHC00R.path_controls p = Some cs /\ asserts_HC00R p) /\
  (exists p cs, ModelHC0pmR.hc0pm_reeds_shepp k s s1 s2 = Some p /\ ModelHC0pmR.path_controls p = Some cs /\ asserts_HC0pmR p) /\
  (exists p cs, ModelHCpm0R.hcpm0_reeds_shepp k s s1 s2 = Some p /\ ModelHCpm0R.path_controls p = Some cs /\ asserts_HCpm0R p) /\
  (exists p cs, ModelHCpmpmR.hcpmpm_reeds_shepp k s s1 s2 = Some p /\ ModelHCpmpmR.path_controls p = Some cs /\ asserts_HCpmpmR p).
Proof.
  intros K S D. destruct (all_found k s forward s1 s2 K S D) as ((L0 & cs0 & _ & E0 & _) & (L1 & cs1 & _ & E1 & _) & (L2 & cs2 & _ & E2 & _) & (L3 & cs3 & _ & E3 & _) & (L4 & cs4 & _ & E4 & _) & (L5 & cs5 & _ & E5 & _) & (L6 & cs6 & _ & E6 & _) & (L7 & cs7 & _ & E7 & _) & (L8 & cs8 & _ & E8 & _)).
  split. { unfold ModelCC00D.get_controls in E0. destruct (ModelCC00D.cc00_dubins k s forward s1 s2) as [p|] eqn:P; [|discriminate]. exists p, cs0. split; [reflexivity|]. split; [exact E0|]. exact (AssertCC00D.cc00_dubins_asserts k s forward s1 s2 p P). }
  split. { unfold ModelCC0pmD.get_controls in E1. destruct (ModelCC0pmD.cc0pm_dubins k s forward s1 s2) as [p|] eqn:P; [|discriminate]. exists p, cs1. split; [reflexivity|]. split; [exact E1|]. exact (AssertCC0pmD.cc0pm_dubins_asserts k s forward s1 s2 p P). }
  split. { unfold ModelCCpm0D.get_controls in E2. destruct (ModelCCpm0D.ccpm0_dubins k s forward s1 s2) as [p|] eqn:P; [|discriminate]. exists p, cs2. split; [reflexivity|]. split; [exact E2|]. exact (AssertCCpm0D.ccpm0_dubins_asserts k s forward s1 s2 p P). }
  split. { unfold ModelCCpmpmD.get_controls in E3. destruct (ModelCCpmpmD.ccpmpm_dubins k s forward s1 s2) as [p|] eqn:P; [|discriminate]. exists p, cs3. split; [reflexivity|]. split; [exact E3|]. exact (AssertCCpmpmD.ccpmpm_dubins_asserts k s forward s1 s2 p P). }
  split. { unfold ModelCC00R.get_controls in E4. destruct (ModelCC00R.cc00_reeds_shepp k s s1 s2) as [p|] eqn:P; [|discriminate]. exists p, cs4. split; [reflexivity|]. split; [exact E4|]. exact (AssertCC00R.cc00_reeds_shepp_asserts k s s1 s2 p P). }
  split. { unfold ModelHC00R.get_controls in E5. destruct (ModelHC00R.hc00_reeds_shepp k s s1 s2) as [p|] eqn:P; [|discriminate]. exists p, cs5. split; [reflexivity|]. split; [exact E5|]. exact (AssertHC00R.hc00_reeds_shepp_asserts k s s1 s2 p P). }
  split. { unfold ModelHC0pmR.get_controls in E6. destruct (ModelHC0pmR.hc0pm_reeds_shepp k s s1 s2) as [p|] eqn:P; [|discriminate]. exists p, cs6. split; [reflexivity|]. split; [exact E6|]. exact (AssertHC0pmR.hc0pm_reeds_shepp_asserts k s s1 s2 p P). }
  split. { unfold ModelHCpm0R.get_controls in E7. destruct (ModelHCpm0R.hcpm0_reeds_shepp k s s1 s2) as [p|] eqn:P; [|discriminate]. exists p, cs7. split; [reflexivity|]. split; [exact E7|]. exact (AssertHCpm0R.hcpm0_reeds_shepp_asserts k s s1 s2 p P). }
   { unfold ModelHCpmpmR.get_controls in E8. destruct (ModelHCpmpmR.hcpmpm_reeds_shepp k s s1 s2) as [p|] eqn:P; [|discriminate]. exists p, cs8. split; [reflexivity|]. split; [exact E8|]. exact (AssertHCpmpmR.hcpmpm_reeds_shepp_asserts k s s1 s2 p P). }
Qed.

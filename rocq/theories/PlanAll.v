(** * All planners together *)
From Coq Require Import Reals ZArith List Lra.
From Verif Require Import Base ModelUtil ModelCircle ModelPaths SpecPath SpecTurn SpecPlan PlanRefute PlanCases.
From Verif Require ModelCC00D CC00DProofs ModelCC0pmD PlanCC0pmD ModelCCpm0D PlanCCpm0D ModelCCpmpmD PlanCCpmpmD ModelCC00R PlanCC00R ModelHC00R PlanHC00R ModelHC0pmR PlanHC0pmR ModelHCpm0R PlanHCpm0R ModelHCpmpmR PlanHCpmpmR.
Import ListNotations.
Open Scope R_scope.

Lemma all_found k s forward s1 s2 : 0 < k -> 0 < s -> pos_dist s1 s2 + detour k s < DBL_MAX ->
  (exists L cs, ModelCC00D.get_distance k s forward s1 s2 = Some (Some L) /\ ModelCC00D.get_controls k s forward s1 s2 = Some cs /\ L < DBL_MAX) /\
  (exists L cs, ModelCC0pmD.get_distance k s forward s1 s2 = Some (Some L) /\ ModelCC0pmD.get_controls k s forward s1 s2 = Some cs /\ L < DBL_MAX) /\
  (exists L cs, ModelCCpm0D.get_distance k s forward s1 s2 = Some (Some L) /\ ModelCCpm0D.get_controls k s forward s1 s2 = Some cs /\ L < DBL_MAX) /\
  (exists L cs, ModelCCpmpmD.get_distance k s forward s1 s2 = Some (Some L) /\ ModelCCpmpmD.get_controls k s forward s1 s2 = Some cs /\ L < DBL_MAX) /\
  (exists L cs, ModelCC00R.get_distance k s s1 s2 = Some (Some L) /\ ModelCC00R.get_controls k s s1 s2 = Some cs /\ L < DBL_MAX) /\
  (exists L cs, ModelHC00R.get_distance k s s1 s2 = Some (Some L) /\ ModelHC00R.get_controls k s s1 s2 = Some cs /\ L < DBL_MAX) /\
  (exists L cs, ModelHC0pmR.get_distance k s s1 s2 = Some (Some L) /\ ModelHC0pmR.get_controls k s s1 s2 = Some cs /\ L < DBL_MAX) /\
  (exists L cs, ModelHCpm0R.get_distance k s s1 s2 = Some (Some L) /\ ModelHCpm0R.get_controls k s s1 s2 = Some cs /\ L < DBL_MAX) /\
  (exists L cs, ModelHCpmpmR.get_distance k s s1 s2 = Some (Some L) /\ ModelHCpmpmR.get_controls k s s1 s2 = Some cs /\ L < DBL_MAX).
Proof.
  intros Hk Hs LM. repeat split.
  - destruct (CC00DProofs.cc00_dubins_plan k s forward s1 s2 Hk Hs LM) as (t & L & cs & A & B & C & D & E & NE). exists L, cs. split; [exact A|split; [exact B|lra]].
  - destruct (PlanCC0pmD.cc0pm_dubins_plan k s forward s1 s2 Hk Hs LM) as (p & L & cs & _ & A & B & C & NE & _). exists L, cs. split; [exact A|split; [exact B|lra]].
  - destruct (PlanCCpm0D.ccpm0_dubins_plan k s forward s1 s2 Hk Hs LM) as (p & L & cs & _ & A & B & C & NE & _). exists L, cs. split; [exact A|split; [exact B|lra]].
  - destruct (PlanCCpmpmD.ccpmpm_dubins_plan k s forward s1 s2 Hk Hs LM) as (p & L & cs & _ & A & B & C & NE & _). exists L, cs. split; [exact A|split; [exact B|lra]].
  - destruct (PlanCC00R.cc00_reeds_shepp_plan k s s1 s2 Hk Hs LM) as (t & L & cs & A & B & C & NE & _). exists L, cs. split; [exact A|split; [exact B|lra]].
  - destruct (PlanHC00R.hc00_reeds_shepp_plan k s s1 s2 Hk Hs LM) as (t & L & cs & A & B & C & NE & _). exists L, cs. split; [exact A|split; [exact B|lra]].
  - destruct (PlanHC0pmR.hc0pm_reeds_shepp_plan k s s1 s2 Hk Hs LM) as (p & L & cs & _ & A & B & C & NE & _). exists L, cs. split; [exact A|split; [exact B|lra]].
  - destruct (PlanHCpm0R.hcpm0_reeds_shepp_plan k s s1 s2 Hk Hs LM) as (p & L & cs & _ & A & B & C & NE & _). exists L, cs. split; [exact A|split; [exact B|lra]].
  - destruct (PlanHCpmpmR.hcpmpm_reeds_shepp_plan k s s1 s2 Hk Hs LM) as (p & L & cs & _ & A & B & C & NE & _). exists L, cs. split; [exact A|split; [exact B|lra]].
Qed.
Lemma all_nonempty k s forward s1 s2 : 0 < k -> 0 < s -> pos_dist s1 s2 + detour k s < DBL_MAX ->
  (exists c cs, ModelCC00D.get_controls k s forward s1 s2 = Some (c :: cs)) /\
  (exists c cs, ModelCC0pmD.get_controls k s forward s1 s2 = Some (c :: cs)) /\
  (exists c cs, ModelCCpm0D.get_controls k s forward s1 s2 = Some (c :: cs)) /\
  (exists c cs, ModelCCpmpmD.get_controls k s forward s1 s2 = Some (c :: cs)) /\
  (exists c cs, ModelCC00R.get_controls k s s1 s2 = Some (c :: cs)) /\
  (exists c cs, ModelHC00R.get_controls k s s1 s2 = Some (c :: cs)) /\
  (exists c cs, ModelHC0pmR.get_controls k s s1 s2 = Some (c :: cs)) /\
  (exists c cs, ModelHCpm0R.get_controls k s s1 s2 = Some (c :: cs)) /\
  (exists c cs, ModelHCpmpmR.get_controls k s s1 s2 = Some (c :: cs)).
Proof.
  intros Hk Hs LM. repeat split.
  - destruct (CC00DProofs.cc00_dubins_plan k s forward s1 s2 Hk Hs LM) as (t & L & cs & A & B & C & D & E & NE). destruct cs as [|c cs]; [contradiction|]. exists c, cs. exact B.
  - destruct (PlanCC0pmD.cc0pm_dubins_plan k s forward s1 s2 Hk Hs LM) as (p & L & cs & _ & A & B & C & NE & _). destruct cs as [|c cs]; [contradiction|]. exists c, cs. exact B.
  - destruct (PlanCCpm0D.ccpm0_dubins_plan k s forward s1 s2 Hk Hs LM) as (p & L & cs & _ & A & B & C & NE & _). destruct cs as [|c cs]; [contradiction|]. exists c, cs. exact B.
  - destruct (PlanCCpmpmD.ccpmpm_dubins_plan k s forward s1 s2 Hk Hs LM) as (p & L & cs & _ & A & B & C & NE & _). destruct cs as [|c cs]; [contradiction|]. exists c, cs. exact B.
  - destruct (PlanCC00R.cc00_reeds_shepp_plan k s s1 s2 Hk Hs LM) as (t & L & cs & A & B & C & NE & _). destruct cs as [|c cs]; [contradiction|]. exists c, cs. exact B.
  - destruct (PlanHC00R.hc00_reeds_shepp_plan k s s1 s2 Hk Hs LM) as (t & L & cs & A & B & C & NE & _). destruct cs as [|c cs]; [contradiction|]. exists c, cs. exact B.
  - destruct (PlanHC0pmR.hc0pm_reeds_shepp_plan k s s1 s2 Hk Hs LM) as (p & L & cs & _ & A & B & C & NE & _). destruct cs as [|c cs]; [contradiction|]. exists c, cs. exact B.
  - destruct (PlanHCpm0R.hcpm0_reeds_shepp_plan k s s1 s2 Hk Hs LM) as (p & L & cs & _ & A & B & C & NE & _). destruct cs as [|c cs]; [contradiction|]. exists c, cs. exact B.
  - destruct (PlanHCpmpmR.hcpmpm_reeds_shepp_plan k s s1 s2 Hk Hs LM) as (p & L & cs & _ & A & B & C & NE & _). destruct cs as [|c cs]; [contradiction|]. exists c, cs. exact B.
Qed.

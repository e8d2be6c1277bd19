(** * Property C78: the way back *)
From Coq Require Import Reals ZArith List Lra Lia Bool.
From Verif Require Import Base ModelUtil ModelFresnel ModelCircle ModelPaths ModelWrap Num UtilProofs SpecPath SpecCloth SpecTurn SpecSide SpecPlan SpecOpt SpecWrap SwapCases SwapDist SwapWrap SwapRefute.
From Verif Require ModelCC00D ModelCC0pmD ModelCCpm0D ModelCCpmpmD ModelCC00R ModelHC00R ModelHC0pmR ModelHCpm0R ModelHCpmpmR.
Open Scope R_scope.

(** Full statement: for every pair of states, the distance from the first to the second is the distance from the second to the first, driving in
    the other direction if the space is one of the Dubins spaces. *)

(** Between a state of zero curvature and one of the curvature of the bound, where two different planners give the two distances. *)
Theorem C78_cc_dubins_mixed (k s : R) (forward : bool) (s1 s2 : State) (L : R) : 0 < k -> 0 < s -> epsilon < k / s -> L < DBL_MAX ->
  (ModelCC0pmD.get_distance k s forward s1 s2 = Some (Some L) <-> ModelCCpm0D.get_distance k s (negb forward) s2 s1 = Some (Some L)).
Proof. intros Hk Hs HE. exact (cc0pm_dubins_back k s forward s1 s2 L Hk Hs HE). Qed.
Print Assumptions C78_cc_dubins_mixed.
Theorem C78_hc_reeds_shepp_mixed (k s : R) (s1 s2 : State) (L : R) : 0 < k -> 0 < s -> epsilon < k / s -> L < DBL_MAX ->
  (ModelHC0pmR.get_distance k s s1 s2 = Some (Some L) <-> ModelHCpm0R.get_distance k s s2 s1 = Some (Some L)).
Proof. intros Hk Hs HE. exact (hc0pm_reeds_shepp_back k s s1 s2 L Hk Hs HE). Qed.
Print Assumptions C78_hc_reeds_shepp_mixed.

(** Between states of zero curvature. Missing for the full statement: states between which a single turn leads (within the tolerance of the code),
    and states with a common centre of their turns. *)
Theorem C78_cc00_dubins_partial (k s : R) (forward : bool) (s1 s2 : State) (L : R) : 0 < k -> 0 < s -> epsilon < k / s ->
  (forall left, no_turn_00 k s left forward s1 s2) -> (forall l1 l2, turn_centre k s l1 forward s1 <> turn_centre k s l2 (negb forward) s2) -> L < DBL_MAX ->
  (ModelCC00D.get_distance k s forward s1 s2 = Some (Some L) <-> ModelCC00D.get_distance k s (negb forward) s2 s1 = Some (Some L)).
Proof. intros Hk Hs HE. exact (cc00_dubins_back k s forward s1 s2 L Hk Hs HE). Qed.
Print Assumptions C78_cc00_dubins_partial.
Theorem C78_cc00_reeds_shepp_partial (k s : R) (s1 s2 : State) (L : R) : 0 < k -> 0 < s -> epsilon < k / s ->
  (forall left forward, no_turn_00 k s left forward s1 s2) -> (forall l1 l2 f1 f2, turn_centre k s l1 f1 s1 <> turn_centre k s l2 f2 s2) -> L < DBL_MAX ->
  (ModelCC00R.get_distance k s s1 s2 = Some (Some L) <-> ModelCC00R.get_distance k s s2 s1 = Some (Some L)).
Proof. intros Hk Hs HE. exact (cc00_reeds_shepp_back k s s1 s2 L Hk Hs HE). Qed.
Print Assumptions C78_cc00_reeds_shepp_partial.
Theorem C78_hc00_reeds_shepp_partial (k s : R) (s1 s2 : State) (L : R) : 0 < k -> 0 < s -> epsilon < k / s ->
  (forall left forward, no_turn_00 k s left forward s1 s2) -> (forall l1 l2 f1 f2, turn_centre k s l1 f1 s1 <> turn_centre k s l2 f2 s2) -> L < DBL_MAX ->
  (ModelHC00R.get_distance k s s1 s2 = Some (Some L) <-> ModelHC00R.get_distance k s s2 s1 = Some (Some L)).
Proof. intros Hk Hs HE. exact (hc00_reeds_shepp_back k s s1 s2 L Hk Hs HE). Qed.
Print Assumptions C78_hc00_reeds_shepp_partial.

(** Between states of the curvature of the bound; the same is missing. *)
Theorem C78_ccpmpm_dubins_partial (k s : R) (forward : bool) (s1 s2 : State) (L : R) : 0 < k -> 0 < s -> epsilon < k / s ->
  (forall left, on_side left s1 \/ on_side left s2 -> no_turn_pmpm k left s1 s2) ->
  (forall l1 l2, on_side l1 s1 -> on_side l2 s2 -> arc_centre k l1 s1 <> arc_centre k l2 s2) -> L < DBL_MAX ->
  (ModelCCpmpmD.get_distance k s forward s1 s2 = Some (Some L) <-> ModelCCpmpmD.get_distance k s (negb forward) s2 s1 = Some (Some L)).
Proof. intros Hk Hs HE. exact (ccpmpm_dubins_back k s forward s1 s2 L Hk Hs HE). Qed.
Print Assumptions C78_ccpmpm_dubins_partial.
Theorem C78_hcpmpm_reeds_shepp_partial (k s : R) (s1 s2 : State) (L : R) : 0 < k -> 0 < s -> epsilon < k / s ->
  (forall left, on_side left s1 \/ on_side left s2 -> no_turn_pmpm k left s1 s2) ->
  (forall l1 l2, on_side l1 s1 -> on_side l2 s2 -> arc_centre k l1 s1 <> arc_centre k l2 s2) -> L < DBL_MAX ->
  (ModelHCpmpmR.get_distance k s s1 s2 = Some (Some L) <-> ModelHCpmpmR.get_distance k s s2 s1 = Some (Some L)).
Proof. intros Hk Hs HE. exact (hcpmpm_reeds_shepp_back k s s1 s2 L Hk Hs HE). Qed.
Print Assumptions C78_hcpmpm_reeds_shepp_partial.

(** The full statement is false: a turn off the circle by half the tolerance is accepted one way and rejected on the way back, because the heading 0
    of the goal is compared with an angle slightly below 2 pi. *)
Theorem C78_turn_refuted : exists s1 s2 L L', ModelCCpmpmD.get_distance 1 1 true s1 s2 = Some (Some L) /\ L <= PI / 2 /\
  ModelCCpmpmD.get_distance 1 1 false s2 s1 = Some (Some L') /\ 2 <= L'.
Proof. exact quarter_refuted. Qed.
Print Assumptions C78_turn_refuted.

(** Between states of any curvature. Missing for the full statement: states closer to each other than a few turns. *)
Theorem C78_cc_dubins_partial (junk k s : R) (forward : bool) (s1 s2 : State) : 0 < k -> 0 < s -> epsilon < k / s ->
  epsilon + 10 * (k / s + 1 / k) <= pos_dist s1 s2 -> pos_dist s1 s2 + 2 * detour k s < DBL_MAX ->
  cc_dubins_distance junk k s forward s1 s2 = cc_dubins_distance junk k s (negb forward) s2 s1.
Proof. intros Hk Hs HE. exact (cc_dubins_way_back k s Hk Hs HE junk forward s1 s2). Qed.
Print Assumptions C78_cc_dubins_partial.
Theorem C78_hc_reeds_shepp_partial (junk k s : R) (s1 s2 : State) : 0 < k -> 0 < s -> epsilon < k / s ->
  epsilon + 10 * (k / s + 1 / k) <= pos_dist s1 s2 -> pos_dist s1 s2 + 2 * detour k s < DBL_MAX ->
  hc_rs_distance junk k s s1 s2 = hc_rs_distance junk k s s2 s1.
Proof. intros Hk Hs HE. exact (hc_rs_way_back k s Hk Hs HE junk s1 s2). Qed.
Print Assumptions C78_hc_reeds_shepp_partial.

(** States that meet all the conditions above. *)
Example C78_case (ka kb : R) : let s1 := mkState 0 0 0 ka 1 in let s2 := mkState 60 80 1 kb 1 in epsilon < 1 / 1 /\
  (forall l f, no_turn_00 1 1 l f s1 s2) /\ (forall l1 l2 f1 f2, turn_centre 1 1 l1 f1 s1 <> turn_centre 1 1 l2 f2 s2) /\
  (forall l, no_turn_pmpm 1 l s1 s2) /\ (forall l1 l2, arc_centre 1 l1 s1 <> arc_centre 1 l2 s2) /\
  epsilon + 10 * (1 / 1 + 1 / 1) <= pos_dist s1 s2 /\ pos_dist s1 s2 + 2 * detour 1 1 < DBL_MAX.
Proof. exact (back_case ka kb). Qed.

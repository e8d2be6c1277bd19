(** * Property C82: the car looking the other way *)
From Coq Require Import Reals ZArith List Lra Lia Bool.
From Verif Require Import Base ModelUtil ModelCircle ModelPaths Num SpecPath SpecTurn SpecSide SpecOpt SpecRigid SpecAbout AboutDist AboutCases.
From Verif Require ModelCC00D ModelCC0pmD ModelCCpm0D ModelCCpmpmD ModelCC00R ModelHC00R ModelHC0pmR ModelHCpm0R ModelHCpmpmR.
Open Scope R_scope.

(** Full statement: for every pair of states, the distance of an HC/CC Reeds-Shepp space is the same if the car looks the other way at both ends; the
    same for the CC Dubins spaces if it also drives in the other direction. *)

(** Between a state of zero curvature and one of the curvature of the bound. Missing for the full statement: states of the same pose within the
    tolerance of the code. *)
Theorem C82_hc0pm_reeds_shepp_partial (k s : R) (s1 s2 : State) (L : R) : 0 < k -> 0 < s -> distinct s1 s2 -> L < DBL_MAX ->
  (ModelHC0pmR.get_distance k s (turned s1) (turned s2) = Some (Some L) <-> ModelHC0pmR.get_distance k s s1 s2 = Some (Some L)).
Proof. exact (hc0pm_reeds_shepp_about k s s1 s2 L). Qed.
Print Assumptions C82_hc0pm_reeds_shepp_partial.
Theorem C82_hcpm0_reeds_shepp_partial (k s : R) (s1 s2 : State) (L : R) : 0 < k -> 0 < s -> distinct s1 s2 -> L < DBL_MAX ->
  (ModelHCpm0R.get_distance k s (turned s1) (turned s2) = Some (Some L) <-> ModelHCpm0R.get_distance k s s1 s2 = Some (Some L)).
Proof. exact (hcpm0_reeds_shepp_about k s s1 s2 L). Qed.
Print Assumptions C82_hcpm0_reeds_shepp_partial.
Theorem C82_cc0pm_dubins_partial (k s : R) (forward : bool) (s1 s2 : State) (L : R) : 0 < k -> 0 < s -> distinct s1 s2 -> L < DBL_MAX ->
  (ModelCC0pmD.get_distance k s (negb forward) (turned s1) (turned s2) = Some (Some L) <-> ModelCC0pmD.get_distance k s forward s1 s2 = Some (Some L)).
Proof. exact (cc0pm_dubins_about k s forward s1 s2 L). Qed.
Print Assumptions C82_cc0pm_dubins_partial.
Theorem C82_ccpm0_dubins_partial (k s : R) (forward : bool) (s1 s2 : State) (L : R) : 0 < k -> 0 < s -> distinct s1 s2 -> L < DBL_MAX ->
  (ModelCCpm0D.get_distance k s (negb forward) (turned s1) (turned s2) = Some (Some L) <-> ModelCCpm0D.get_distance k s forward s1 s2 = Some (Some L)).
Proof. exact (ccpm0_dubins_about k s forward s1 s2 L). Qed.
Print Assumptions C82_ccpm0_dubins_partial.
(** Between states of zero curvature. Missing: also states on a line, and states joined by a single turn (within the tolerance of the code). *)
Theorem C82_hc00_reeds_shepp_partial (k s : R) (s1 s2 : State) (L : R) : 0 < k -> 0 < s -> distinct s1 s2 -> never_aligned s1 s2 -> (forall left forward, no_turn_00 k s left forward s1 s2) -> L < DBL_MAX ->
  (ModelHC00R.get_distance k s (turned s1) (turned s2) = Some (Some L) <-> ModelHC00R.get_distance k s s1 s2 = Some (Some L)).
Proof. exact (hc00_reeds_shepp_about k s s1 s2 L). Qed.
Print Assumptions C82_hc00_reeds_shepp_partial.
Theorem C82_cc00_reeds_shepp_partial (k s : R) (s1 s2 : State) (L : R) : 0 < k -> 0 < s -> distinct s1 s2 -> never_aligned s1 s2 -> (forall left forward, no_turn_00 k s left forward s1 s2) -> L < DBL_MAX ->
  (ModelCC00R.get_distance k s (turned s1) (turned s2) = Some (Some L) <-> ModelCC00R.get_distance k s s1 s2 = Some (Some L)).
Proof. exact (cc00_reeds_shepp_about k s s1 s2 L). Qed.
Print Assumptions C82_cc00_reeds_shepp_partial.
Theorem C82_cc00_dubins_partial (k s : R) (forward : bool) (s1 s2 : State) (L : R) : 0 < k -> 0 < s -> distinct s1 s2 -> never_aligned s1 s2 -> (forall left, no_turn_00 k s left forward s1 s2) -> L < DBL_MAX ->
  (ModelCC00D.get_distance k s (negb forward) (turned s1) (turned s2) = Some (Some L) <-> ModelCC00D.get_distance k s forward s1 s2 = Some (Some L)).
Proof. exact (cc00_dubins_about k s forward s1 s2 L). Qed.
Print Assumptions C82_cc00_dubins_partial.
(** Between states of the curvature of the bound. Missing: also states joined by a single turn (within the tolerance of the code). *)
Theorem C82_hcpmpm_reeds_shepp_partial (k s : R) (s1 s2 : State) (L : R) : 0 < k -> 0 < s -> distinct s1 s2 -> (forall left, on_side left s1 -> no_turn_pmpm k left s1 s2) -> L < DBL_MAX ->
  (ModelHCpmpmR.get_distance k s (turned s1) (turned s2) = Some (Some L) <-> ModelHCpmpmR.get_distance k s s1 s2 = Some (Some L)).
Proof. exact (hcpmpm_reeds_shepp_about k s s1 s2 L). Qed.
Print Assumptions C82_hcpmpm_reeds_shepp_partial.
Theorem C82_ccpmpm_dubins_partial (k s : R) (forward : bool) (s1 s2 : State) (L : R) : 0 < k -> 0 < s -> distinct s1 s2 -> (forall left, on_side left s1 -> no_turn_pmpm k left s1 s2) -> L < DBL_MAX ->
  (ModelCCpmpmD.get_distance k s (negb forward) (turned s1) (turned s2) = Some (Some L) <-> ModelCCpmpmD.get_distance k s forward s1 s2 = Some (Some L)).
Proof. exact (ccpmpm_dubins_about k s forward s1 s2 L). Qed.
Print Assumptions C82_ccpmpm_dubins_partial.

Example C82_case (ka kb : R) : let s1 := mkState 0 0 0 ka 1 in let s2 := mkState 60 80 1 kb 1 in
  distinct s1 s2 /\ never_aligned s1 s2 /\ (forall l f, no_turn_00 1 1 l f s1 s2) /\ (forall l, no_turn_pmpm 1 l s1 s2).
Proof. exact (about_case ka kb). Qed.

(** The full statement is false: start and goal of the same pose up to half the tolerance, whose headings lie on both sides of 0. *)
Theorem C82_about_refuted : exists s1 s2 L, ModelCC0pmD.get_distance 1 1 true s1 s2 = Some (Some L) /\ 1 <= L /\
  ModelCC0pmD.get_distance 1 1 false (turned s1) (turned s2) = Some (Some 0).
Proof. exact about_refuted. Qed.
Print Assumptions C82_about_refuted.

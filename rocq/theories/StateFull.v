(** * The curvature of the states of planned paths between any states, and where sampled paths end *)
From Coq Require Import Reals ZArith List Bool Lra Lia.
From Verif Require Import Base ModelUtil ModelFresnel ModelIntegrate ModelCircle ModelPaths ModelWrap Num IntegrateProofs SpecCloth SpecPath SpecTurn SpecPlan SpecSide SpecWrap SpecFollow TurnBounds PlanProofs StateProofs StatePlan FollowProofs FollowPlan.
From Verif Require ModelCC00D ModelCC0pmD ModelCCpm0D ModelCCpmpmD ModelCC00R ModelHC00R ModelHC0pmR ModelHCpm0R ModelHCpmpmR.
From Verif Require PlanCC0pmD PlanCCpm0D PlanCCpmpmD PlanHC0pmR PlanHCpm0R PlanHCpmpmR WrapPlan.
Import ListNotations.
Open Scope R_scope.

Definition own_turn (k s : R) (o : option Circle) : Prop := forall c, o = Some c -> exists a l f r, c = circle a l f r (hc_cc_param k s).
Lemma own_none k s : own_turn k s None.
Proof. intros c E. discriminate E. Qed.
Lemma own_some k s a l f r : own_turn k s (Some (circle a l f r (hc_cc_param k s))).
Proof. intros c E. injection E as <-. exists a, l, f, r. reflexivity. Qed.
Ltac own_entries IC := repeat (destruct IC as [IC|IC]; [try discriminate IC; let E := fresh "E" in injection IC as E; rewrite <- E; first [apply own_none|apply own_some]|]); contradiction.
Lemma turn_below k s g s1 c q o : 0 < k -> 0 < s -> 0 <= g -> (exists a l f r, c = circle a l f r (hc_cc_param k s)) -> kappa_below (k * sharp k s g + epsilon) s1 (hc_turn_controls c q o).
Proof.
  intros Hk Hs G (a & l & f & r & ->) disc path D E. pose proof (hc_bounds k s a l f r Hk Hs q o) as B. pose proof (integrate_kappa k s disc s1 _ path D B E) as F.
  pose proof (sharp_1 k s Hk Hs g G) as S. eapply Forall_impl; [|exact F]. cbv beta. intros x X. nra.
Qed.

Lemma cc0pm_dubins_own (k s : R) (fw : bool) s1 s2 p : ModelCC0pmD.cc0pm_dubins k s fw s1 s2 = Some p -> h_type p = D_T -> own_turn k s (e_cstart (h_entry p)).
Proof.
  intros P T. unfold ModelCC0pmD.cc0pm_dubins in P. pose proof (select_path_in _ _ P) as IN. apply paths_in in IN. destruct IN as (i & j & c1 & c2 & _ & _ & _ & S). unfold ModelCC0pmD.cc0pm_circles_dubins_path in S.
  destruct (select_entry_in _ _ _ _ _ S) as (IC & _ & _). rewrite T in IC. unfold ModelCC0pmD.circles_table, cc_dubins_types in IC. cbv zeta in IC.
  destruct (configuration_equal _ _); [|destruct (Rltb _ _)]; cbn [combine In] in IC; own_entries IC.
Qed.
Lemma cc0pm_dubins_any (k s : R) (fw : bool) s1 s2 : 0 < k -> 0 < s -> pos_dist s1 s2 + detour k s < DBL_MAX ->
  exists t cs, ModelCC0pmD.get_controls k s fw s1 s2 = Some cs /\ kappa_below (k * sharp k s (dubins_gap k s t) + epsilon) s1 cs.
Proof.
  intros Hk Hs DB. destruct (PlanCC0pmD.cc0pm_dubins_plan k s fw s1 s2 Hk Hs DB) as (p & L & cs & P & _ & C & _ & _ & _ & _ & E & O). exists (h_type p), cs. split; [exact C|].
  assert (TD : h_type p = D_E \/ h_type p = D_T \/ (h_type p <> D_E /\ h_type p <> D_T)) by (destruct (h_type p); [left; reflexivity|..]; first [right; left; reflexivity|right; right; split; discriminate]).
  destruct TD as [T|[T|[T T']]].
  - exact (drives_below _ _ _ _ _ _ _ _ (E T)).
  - pose proof (cc0pm_dubins_own k s fw s1 s2 p P T) as OW. unfold ModelCC0pmD.get_controls in C. rewrite P in C. unfold ModelCC0pmD.path_controls in C. rewrite T in C.
    destruct (e_cstart (h_entry p)) as [c|]; [|discriminate C]. cbn [fbind] in C. assert (E0 : hc_turn_controls c (h_end p) true = cs) by congruence. rewrite <- E0. apply turn_below; [exact Hk|exact Hs|apply WrapPlan.dubins_gap_nonneg; assumption|exact (OW c eq_refl)].
  - exact (drives_below _ _ _ _ _ _ _ _ (proj1 (O T (fun T0 => False_ind _ (T' T0))))).
Qed.

Lemma ccpm0_dubins_own (k s : R) (fw : bool) s1 s2 p : ModelCCpm0D.ccpm0_dubins k s fw s1 s2 = Some p -> h_type p = D_T -> own_turn k s (e_cend (h_entry p)).
Proof.
  intros P T. unfold ModelCCpm0D.ccpm0_dubins in P. pose proof (select_path_in _ _ P) as IN. apply paths_in in IN. destruct IN as (i & j & c1 & c2 & _ & _ & _ & S). unfold ModelCCpm0D.ccpm0_circles_dubins_path in S.
  destruct (select_entry_in _ _ _ _ _ S) as (IC & _ & _). rewrite T in IC. unfold ModelCCpm0D.circles_table, cc_dubins_types in IC. cbv zeta in IC.
  destruct (configuration_equal _ _); [|destruct (Rltb _ _)]; cbn [combine In] in IC; own_entries IC.
Qed.
Lemma ccpm0_dubins_any (k s : R) (fw : bool) s1 s2 : 0 < k -> 0 < s -> pos_dist s1 s2 + detour k s < DBL_MAX ->
  exists t cs, ModelCCpm0D.get_controls k s fw s1 s2 = Some cs /\ kappa_below (k * sharp k s (dubins_gap k s t) + epsilon) s1 cs.
Proof.
  intros Hk Hs DB. destruct (PlanCCpm0D.ccpm0_dubins_plan k s fw s1 s2 Hk Hs DB) as (p & L & cs & P & _ & C & _ & _ & _ & _ & E & O). exists (h_type p), cs. split; [exact C|].
  assert (TD : h_type p = D_E \/ h_type p = D_T \/ (h_type p <> D_E /\ h_type p <> D_T)) by (destruct (h_type p); [left; reflexivity|..]; first [right; left; reflexivity|right; right; split; discriminate]).
  destruct TD as [T|[T|[T T']]].
  - exact (drives_below _ _ _ _ _ _ _ _ (E T)).
  - pose proof (ccpm0_dubins_own k s fw s1 s2 p P T) as OW. unfold ModelCCpm0D.get_controls in C. rewrite P in C. unfold ModelCCpm0D.path_controls in C. rewrite T in C.
    destruct (e_cend (h_entry p)) as [c|]; [|discriminate C]. cbn [fbind] in C. assert (E0 : hc_turn_controls c (h_start p) false = cs) by congruence. rewrite <- E0. apply turn_below; [exact Hk|exact Hs|apply WrapPlan.dubins_gap_nonneg; assumption|exact (OW c eq_refl)].
  - exact (drives_below _ _ _ _ _ _ _ _ (proj1 (O T (fun T0 => False_ind _ (T' T0))))).
Qed.

Lemma hc0pm_reeds_shepp_own (k s : R) s1 s2 p : ModelHC0pmR.hc0pm_reeds_shepp k s s1 s2 = Some p -> h_type p = RS_T -> own_turn k s (e_cstart (h_entry p)).
Proof.
  intros P T. unfold ModelHC0pmR.hc0pm_reeds_shepp in P. pose proof (select_path_in _ _ P) as IN. apply paths_in in IN. destruct IN as (i & j & c1 & c2 & _ & _ & _ & S). unfold ModelHC0pmR.hc0pm_circles_rs_path in S.
  destruct (select_entry_in _ _ _ _ _ S) as (IC & _ & _). rewrite T in IC. unfold ModelHC0pmR.circles_table, hc_cc_rs_types in IC. cbv zeta in IC.
  destruct (configuration_equal _ _); [|destruct (Rltb _ _)]; cbn [combine In] in IC; own_entries IC.
Qed.
Lemma hc0pm_reeds_shepp_any (k s : R) s1 s2 : 0 < k -> 0 < s -> pos_dist s1 s2 + detour k s < DBL_MAX ->
  exists t cs, ModelHC0pmR.get_controls k s s1 s2 = Some cs /\ kappa_below (k * sharp k s (rs_gap k s t) + epsilon) s1 cs.
Proof.
  intros Hk Hs DB. destruct (PlanHC0pmR.hc0pm_reeds_shepp_plan k s s1 s2 Hk Hs DB) as (p & L & cs & P & _ & C & _ & _ & _ & _ & E & O). exists (h_type p), cs. split; [exact C|].
  assert (TD : h_type p = RS_E \/ h_type p = RS_T \/ (h_type p <> RS_E /\ h_type p <> RS_T)) by (destruct (h_type p); [left; reflexivity|..]; first [right; left; reflexivity|right; right; split; discriminate]).
  destruct TD as [T|[T|[T T']]].
  - exact (drives_below _ _ _ _ _ _ _ _ (E T)).
  - pose proof (hc0pm_reeds_shepp_own k s s1 s2 p P T) as OW. unfold ModelHC0pmR.get_controls in C. rewrite P in C. unfold ModelHC0pmR.path_controls in C. rewrite T in C.
    destruct (e_cstart (h_entry p)) as [c|]; [|discriminate C]. cbn [fbind] in C. assert (E0 : hc_turn_controls c (h_end p) true = cs) by congruence. rewrite <- E0. apply turn_below; [exact Hk|exact Hs|apply WrapPlan.rs_gap_nonneg; assumption|exact (OW c eq_refl)].
  - exact (drives_below _ _ _ _ _ _ _ _ (proj1 (O T (fun T0 => False_ind _ (T' T0))))).
Qed.

Lemma hcpm0_reeds_shepp_own (k s : R) s1 s2 p : ModelHCpm0R.hcpm0_reeds_shepp k s s1 s2 = Some p -> h_type p = RS_T -> own_turn k s (e_cend (h_entry p)).
Proof.
  intros P T. unfold ModelHCpm0R.hcpm0_reeds_shepp in P. pose proof (select_path_in _ _ P) as IN. apply paths_in in IN. destruct IN as (i & j & c1 & c2 & _ & _ & _ & S). unfold ModelHCpm0R.hcpm0_circles_rs_path in S.
  destruct (select_entry_in _ _ _ _ _ S) as (IC & _ & _). rewrite T in IC. unfold ModelHCpm0R.circles_table, hc_cc_rs_types in IC. cbv zeta in IC.
  destruct (configuration_equal _ _); [|destruct (Rltb _ _)]; cbn [combine In] in IC; own_entries IC.
Qed.
Lemma hcpm0_reeds_shepp_any (k s : R) s1 s2 : 0 < k -> 0 < s -> pos_dist s1 s2 + detour k s < DBL_MAX ->
  exists t cs, ModelHCpm0R.get_controls k s s1 s2 = Some cs /\ kappa_below (k * sharp k s (rs_gap k s t) + epsilon) s1 cs.
Proof.
  intros Hk Hs DB. destruct (PlanHCpm0R.hcpm0_reeds_shepp_plan k s s1 s2 Hk Hs DB) as (p & L & cs & P & _ & C & _ & _ & _ & _ & E & O). exists (h_type p), cs. split; [exact C|].
  assert (TD : h_type p = RS_E \/ h_type p = RS_T \/ (h_type p <> RS_E /\ h_type p <> RS_T)) by (destruct (h_type p); [left; reflexivity|..]; first [right; left; reflexivity|right; right; split; discriminate]).
  destruct TD as [T|[T|[T T']]].
  - exact (drives_below _ _ _ _ _ _ _ _ (E T)).
  - pose proof (hcpm0_reeds_shepp_own k s s1 s2 p P T) as OW. unfold ModelHCpm0R.get_controls in C. rewrite P in C. unfold ModelHCpm0R.path_controls in C. rewrite T in C.
    destruct (e_cend (h_entry p)) as [c|]; [|discriminate C]. cbn [fbind] in C. assert (E0 : hc_turn_controls c (h_start p) false = cs) by congruence. rewrite <- E0. apply turn_below; [exact Hk|exact Hs|apply WrapPlan.rs_gap_nonneg; assumption|exact (OW c eq_refl)].
  - exact (drives_below _ _ _ _ _ _ _ _ (proj1 (O T (fun T0 => False_ind _ (T' T0))))).
Qed.

Lemma ccpmpm_dubins_any (k s : R) (fw : bool) s1 s2 : 0 < k -> 0 < s -> pos_dist s1 s2 + detour k s < DBL_MAX ->
  exists t cs, ModelCCpmpmD.get_controls k s fw s1 s2 = Some cs /\ kappa_below (k * sharp k s (dubins_gap k s t) + epsilon) s1 cs.
Proof.
  intros Hk Hs DB. destruct (PlanCCpmpmD.ccpmpm_dubins_plan k s fw s1 s2 Hk Hs DB) as (p & L & cs & _ & _ & C & _ & _ & _ & _ & D & _). exists (h_type p), cs. split; [exact C|].
  exact (drives_below _ _ _ _ _ _ _ _ D).
Qed.
Lemma ccpmpm_dubins_arrives (k s : R) (fw : bool) (s1 s2 : State) :
  0 < k -> 0 < s -> pos_dist s1 s2 + detour k s < DBL_MAX ->
  exists t L cs, ModelCCpmpmD.get_distance k s fw s1 s2 = Some (Some L) /\ ModelCCpmpmD.get_controls k s fw s1 s2 = Some cs /\
    L <= pos_dist s1 s2 + detour k s /\ Rabs (total_length cs - L) <= dubins_pieces t * dubins_gap k s t + dubins_pieces t * epsilon * p_radius (hc_cc_param k s) /\
    sampled_to (plan_error k s (dubins_pieces t) (dubins_gap k s t) cs + sample_error cs) (dubins_pieces t * epsilon + sample_turn cs) s1 s2 cs.
Proof.
  intros Hk Hs DB. destruct (PlanCCpmpmD.ccpmpm_dubins_plan k s fw s1 s2 Hk Hs DB) as (p & L & cs & _ & G & C & LE & NE & _ & _ & D & _). exists (h_type p), L, cs.
  split; [exact G|split; [exact C|split; [exact LE|]]]. exact (drives_sampled _ _ _ _ _ _ _ _ NE D).
Qed.

Lemma hcpmpm_reeds_shepp_any (k s : R) s1 s2 : 0 < k -> 0 < s -> pos_dist s1 s2 + detour k s < DBL_MAX ->
  exists t cs, ModelHCpmpmR.get_controls k s s1 s2 = Some cs /\ kappa_below (k * sharp k s (rs_gap k s t) + epsilon) s1 cs.
Proof.
  intros Hk Hs DB. destruct (PlanHCpmpmR.hcpmpm_reeds_shepp_plan k s s1 s2 Hk Hs DB) as (p & L & cs & _ & _ & C & _ & _ & _ & _ & D & _). exists (h_type p), cs. split; [exact C|].
  exact (drives_below _ _ _ _ _ _ _ _ D).
Qed.
Lemma hcpmpm_reeds_shepp_arrives (k s : R) (s1 s2 : State) :
  0 < k -> 0 < s -> pos_dist s1 s2 + detour k s < DBL_MAX ->
  exists t L cs, ModelHCpmpmR.get_distance k s s1 s2 = Some (Some L) /\ ModelHCpmpmR.get_controls k s s1 s2 = Some cs /\
    L <= pos_dist s1 s2 + detour k s /\ Rabs (total_length cs - L) <= rs_pieces t * rs_gap k s t + rs_pieces t * epsilon * p_radius (hc_cc_param k s) /\
    sampled_to (plan_error k s (rs_pieces t) (rs_gap k s t) cs + sample_error cs) (rs_pieces t * epsilon + sample_turn cs) s1 s2 cs.
Proof.
  intros Hk Hs DB. destruct (PlanHCpmpmR.hcpmpm_reeds_shepp_plan k s s1 s2 Hk Hs DB) as (p & L & cs & _ & G & C & LE & NE & _ & _ & D & _). exists (h_type p), L, cs.
  split; [exact G|split; [exact C|split; [exact LE|]]]. exact (drives_sampled _ _ _ _ _ _ _ _ NE D).
Qed.

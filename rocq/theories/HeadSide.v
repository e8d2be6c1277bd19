(** * The difference of the headings for the planners between zero curvature and the curvature bound *)
From Coq Require Import Reals ZArith List Lra Lia Bool.
From Verif Require Import Base ModelUtil ModelCircle ModelPaths Num UtilProofs SpecPath SpecTurn SpecPlan PoseAlg TurnProofs MotionProofs TurnBounds LegProofs TangentProofs PlanProofs PlanTactics PlanHybrid PlanFamily PlanEnds PlanBounds PlanSelect PlanRadius SpecHead HeadProofs.
From Verif Require ModelCC0pmD PlanCC0pmD ModelCCpm0D PlanCCpm0D ModelHC0pmR PlanHC0pmR ModelHCpm0R PlanHCpm0R.
Import ListNotations.
Open Scope R_scope.

Lemma within_sym e a b : heading_within e a b -> heading_within e b a.
Proof.
  intros (z & E). exists (- z)%Z. rewrite opp_IZR. rewrite Rabs_minus_sym in E.
  replace (st_theta b - st_theta a - 2 * PI * - IZR z) with (2 * PI * IZR z - (st_theta a - st_theta b)) by ring. exact E.
Qed.
Lemma within_ang e a b s1 s2 : ang_eq (st_theta s1) (st_theta a) -> ang_eq (st_theta s2) (st_theta b) -> heading_within e a b -> heading_within e s1 s2.
Proof.
  intros (u & U) (v & V) (z & E). exists (z + u - v)%Z. rewrite U, V, minus_IZR, plus_IZR.
  match goal with |- Rabs ?x <= _ => replace x with (st_theta a - st_theta b - 2 * PI * IZR z) by ring end. exact E.
Qed.
(** Any turn turns by the heading, also a turn that does not end at its goal. *)
Lemma hc_turn_heading k s a l f reg b s1 s2 : 0 < k -> 0 < s -> at_conf s1 a -> at_conf s2 b ->
  heading_within (k * hc_turn_length (circle a l f reg (hc_cc_param k s)) b) s1 s2.
Proof.
  intros Hk Hs (_ & _ & A1) (_ & _ & A2). cbn [pst pcf pt] in A1, A2. set (c := circle a l f reg (hc_cc_param k s)).
  apply within_ang with (st_of a) (st_of b); [exact A1|exact A2|].
  pose proof (reaches_true _ _ _ _ _ (hc_turn_ends k s a l f reg Hk Hs (centre_gap c b 0 (1 / c_kappa c)) b true (Rle_refl _))) as (_ & H).
  apply within_weaken with (k * hc_turn_length c b + 0); [lra|]. apply within_shift with (true_path (st_of a) (hc_turn_controls c b true)); [|exact H].
  rewrite <- (hc_turn_len c b true). apply path_turn with s. exact (hc_bounds k s a l f reg Hk Hs b true).
Qed.
Lemma turn_enough k s n g s1 s2 L : 0 < k -> 0 < s -> 0 <= n -> 0 <= g -> heading_within (k * L) s1 s2 -> 0 <= L -> turns_enough k s n g s1 s2 L.
Proof.
  intros Hk Hs N G H L0. unfold turns_enough. destruct (max_facts k s Hk Hs) as (RP & _). pose proof (sharp_1 k s Hk Hs g G) as S1.
  pose proof eps_pos as EP. apply within_weaken with (k * L); [|exact H].
  assert (0 <= n * g) by (apply Rmult_le_pos; lra). assert (0 <= n * epsilon) by (apply Rmult_le_pos; lra). assert (0 <= n * epsilon * p_radius (hc_cc_param k s)) by (apply Rmult_le_pos; lra).
  assert (k * L <= k * sharp k s g * (L + n * g + n * epsilon * p_radius (hc_cc_param k s))).
  { rewrite Rmult_assoc. apply Rmult_le_compat_l; [lra|]. apply Rle_trans with (1 * L); [lra|]. apply Rmult_le_compat; lra. }
  lra.
Qed.
Lemma cc0pmd_turn k s fw s1 s2 p L : 0 < k -> 0 < s -> ModelCC0pmD.cc0pm_dubins k s fw s1 s2 = Some p -> e_length (h_entry p) = Some L -> L < DBL_MAX -> h_type p = D_T -> heading_within (k * L) s1 s2 /\ 0 <= L.
Proof.
  intros Hk Hs P EL LM TY. apply select_path_in in P. unfold ModelCC0pmD.paths in P. apply paths_in in P. destruct P as (i & j & c1 & c2 & SK & N1 & N2 & S).
  destruct (PlanCC0pmD.circles_of k s fw s1 s2 i j c1 c2 SK N1 N2) as (a & b & l1 & f1 & l2 & f2 & H1 & H2 & A1 & A2 & _).
  unfold ModelCC0pmD.cc0pm_circles_dubins_path in S. apply select_entry_in in S. destruct S as (IN & _ & _).
  assert (S1 : c_start c1 = a) by (subst c1; apply circle_all). assert (S2 : c_start c2 = b) by (subst c2; apply circle_all).
  destruct p as [t u v e]. cbn [h_type h_entry] in *. unfold ModelCC0pmD.circles_table in IN. cbv zeta in IN. rewrite S1, S2 in IN. unfold cc_dubins_types in IN.
  destruct (configuration_equal a b) eqn:QE; [cbn [combine In] in IN; entries|destruct (Rltb (center_distance c1 c2) epsilon) eqn:QT; [cbn [combine In] in IN; entries|cbn [combine In] in IN; entries]].
  all: try discriminate TY. all: entry_length L EL.
  all: split; [|rewrite <- (hc_turn_len _ _ true); apply total_nonneg].
  all: subst c1 c2; destruct (circle_all a l1 f1 true (hc_cc_param k s)) as (_ & E1 & E2 & _); rewrite ?E1, ?E2; exact (hc_turn_heading k s a _ _ _ b s1 s2 Hk Hs A1 A2).
Qed.
Lemma ccpm0d_turn k s fw s1 s2 p L : 0 < k -> 0 < s -> ModelCCpm0D.ccpm0_dubins k s fw s1 s2 = Some p -> e_length (h_entry p) = Some L -> L < DBL_MAX -> h_type p = D_T -> heading_within (k * L) s1 s2 /\ 0 <= L.
Proof.
  intros Hk Hs P EL LM TY. apply select_path_in in P. unfold ModelCCpm0D.paths in P. apply paths_in in P. destruct P as (i & j & c1 & c2 & SK & N1 & N2 & S).
  destruct (PlanCCpm0D.circles_of k s fw s1 s2 i j c1 c2 SK N1 N2) as (a & b & l1 & f1 & l2 & f2 & H1 & H2 & A1 & A2 & _).
  unfold ModelCCpm0D.ccpm0_circles_dubins_path in S. apply select_entry_in in S. destruct S as (IN & _ & _).
  assert (S1 : c_start c1 = a) by (subst c1; apply circle_all). assert (S2 : c_start c2 = b) by (subst c2; apply circle_all).
  destruct p as [t u v e]. cbn [h_type h_entry] in *. unfold ModelCCpm0D.circles_table in IN. cbv zeta in IN. rewrite S1, S2 in IN. unfold cc_dubins_types in IN.
  destruct (configuration_equal a b) eqn:QE; [cbn [combine In] in IN; entries|destruct (Rltb (center_distance c1 c2) epsilon) eqn:QT; [cbn [combine In] in IN; entries|cbn [combine In] in IN; entries]].
  all: try discriminate TY. all: entry_length L EL.
  all: split; [|rewrite <- (hc_turn_len _ _ true); apply total_nonneg].
  all: subst c1 c2; destruct (circle_all b l2 f2 true (hc_cc_param k s)) as (_ & E1 & E2 & _); rewrite ?E1, ?E2; apply within_sym; exact (hc_turn_heading k s b _ _ _ a s2 s1 Hk Hs A2 A1).
Qed.
Lemma hc0pmr_turn k s s1 s2 p L : 0 < k -> 0 < s -> ModelHC0pmR.hc0pm_reeds_shepp k s s1 s2 = Some p -> e_length (h_entry p) = Some L -> L < DBL_MAX -> h_type p = RS_T -> heading_within (k * L) s1 s2 /\ 0 <= L.
Proof.
  intros Hk Hs P EL LM TY. apply select_path_in in P. unfold ModelHC0pmR.paths in P. apply paths_in in P. destruct P as (i & j & c1 & c2 & SK & N1 & N2 & S).
  destruct (PlanHC0pmR.circles_of k s s1 s2 i j c1 c2 SK N1 N2) as (a & b & l1 & f1 & l2 & f2 & H1 & H2 & A1 & A2 & _).
  unfold ModelHC0pmR.hc0pm_circles_rs_path in S. apply select_entry_in in S. destruct S as (IN & _ & _).
  assert (S1 : c_start c1 = a) by (subst c1; apply circle_all). assert (S2 : c_start c2 = b) by (subst c2; apply circle_all).
  destruct p as [t u v e]. cbn [h_type h_entry] in *. unfold ModelHC0pmR.circles_table in IN. cbv zeta in IN. rewrite S1, S2 in IN. unfold hc_cc_rs_types in IN.
  destruct (configuration_equal a b) eqn:QE; [cbn [combine In] in IN; entries|destruct (Rltb (center_distance c1 c2) epsilon) eqn:QT; [cbn [combine In] in IN; entries|cbn [combine In] in IN; entries]].
  all: try discriminate TY. all: entry_length L EL.
  all: split; [|rewrite <- (hc_turn_len _ _ true); apply total_nonneg].
  all: subst c1 c2; destruct (circle_all a l1 f1 true (hc_cc_param k s)) as (_ & E1 & E2 & _); rewrite ?E1, ?E2; exact (hc_turn_heading k s a _ _ _ b s1 s2 Hk Hs A1 A2).
Qed.
Lemma hcpm0r_turn k s s1 s2 p L : 0 < k -> 0 < s -> ModelHCpm0R.hcpm0_reeds_shepp k s s1 s2 = Some p -> e_length (h_entry p) = Some L -> L < DBL_MAX -> h_type p = RS_T -> heading_within (k * L) s1 s2 /\ 0 <= L.
Proof.
  intros Hk Hs P EL LM TY. apply select_path_in in P. unfold ModelHCpm0R.paths in P. apply paths_in in P. destruct P as (i & j & c1 & c2 & SK & N1 & N2 & S).
  destruct (PlanHCpm0R.circles_of k s s1 s2 i j c1 c2 SK N1 N2) as (a & b & l1 & f1 & l2 & f2 & H1 & H2 & A1 & A2 & _).
  unfold ModelHCpm0R.hcpm0_circles_rs_path in S. apply select_entry_in in S. destruct S as (IN & _ & _).
  assert (S1 : c_start c1 = a) by (subst c1; apply circle_all). assert (S2 : c_start c2 = b) by (subst c2; apply circle_all).
  destruct p as [t u v e]. cbn [h_type h_entry] in *. unfold ModelHCpm0R.circles_table in IN. cbv zeta in IN. rewrite S1, S2 in IN. unfold hc_cc_rs_types in IN.
  destruct (configuration_equal a b) eqn:QE; [cbn [combine In] in IN; entries|destruct (Rltb (center_distance c1 c2) epsilon) eqn:QT; [cbn [combine In] in IN; entries|cbn [combine In] in IN; entries]].
  all: try discriminate TY. all: entry_length L EL.
  all: split; [|rewrite <- (hc_turn_len _ _ true); apply total_nonneg].
  all: subst c1 c2; destruct (circle_all b l2 f2 true (hc_cc_param k s)) as (_ & E1 & E2 & _); rewrite ?E1, ?E2; apply within_sym; exact (hc_turn_heading k s b _ _ _ a s2 s1 Hk Hs A2 A1).
Qed.
Lemma cc0pmd_turns k s fw s1 s2 : 0 < k -> 0 < s -> pos_dist s1 s2 + detour k s < DBL_MAX ->
  exists t L, ModelCC0pmD.get_distance k s fw s1 s2 = Some (Some L) /\ turns_enough k s (dubins_pieces t) (dubins_gap k s t) s1 s2 L.
Proof.
  intros Hk Hs F. destruct (PlanCC0pmD.cc0pm_dubins_plan k s fw s1 s2 Hk Hs F) as (p & L & cs & P & A & _ & LE & N & _ & _ & GE & GN). exists (h_type p), L. split; [exact A|].
  assert (EE : h_type p = D_E \/ h_type p <> D_E) by (destruct (h_type p); first [left; reflexivity|right; discriminate]).
  assert (TT : h_type p = D_T \/ h_type p <> D_T) by (destruct (h_type p); first [left; reflexivity|right; discriminate]).
  destruct EE as [EE|EE]; [exact (drives_turns _ _ _ _ _ _ _ _ N (GE EE))|].
  destruct TT as [TT|TT]; [|exact (drives_turns _ _ _ _ _ _ _ _ N (proj1 (GN EE ltac:(intros; contradiction))))].
  unfold ModelCC0pmD.get_distance in A. rewrite P in A. apply (f_equal (fun o => match o with Some x => x | None => None end)) in A; cbv beta iota in A.
  destruct (cc0pmd_turn k s fw s1 s2 p L Hk Hs P A ltac:(lra) TT) as (H & L0). destruct (max_facts k s Hk Hs) as (RP & _ & KP & _).
  apply turn_enough; [exact Hk|exact Hs| | |exact H|exact L0]; rewrite TT; unfold dubins_pieces, dubins_gap, epsilon; nra.
Qed.
Lemma ccpm0d_turns k s fw s1 s2 : 0 < k -> 0 < s -> pos_dist s1 s2 + detour k s < DBL_MAX ->
  exists t L, ModelCCpm0D.get_distance k s fw s1 s2 = Some (Some L) /\ turns_enough k s (dubins_pieces t) (dubins_gap k s t) s1 s2 L.
Proof.
  intros Hk Hs F. destruct (PlanCCpm0D.ccpm0_dubins_plan k s fw s1 s2 Hk Hs F) as (p & L & cs & P & A & _ & LE & N & _ & _ & GE & GN). exists (h_type p), L. split; [exact A|].
  assert (EE : h_type p = D_E \/ h_type p <> D_E) by (destruct (h_type p); first [left; reflexivity|right; discriminate]).
  assert (TT : h_type p = D_T \/ h_type p <> D_T) by (destruct (h_type p); first [left; reflexivity|right; discriminate]).
  destruct EE as [EE|EE]; [exact (drives_turns _ _ _ _ _ _ _ _ N (GE EE))|].
  destruct TT as [TT|TT]; [|exact (drives_turns _ _ _ _ _ _ _ _ N (proj1 (GN EE ltac:(intros; contradiction))))].
  unfold ModelCCpm0D.get_distance in A. rewrite P in A. apply (f_equal (fun o => match o with Some x => x | None => None end)) in A; cbv beta iota in A.
  destruct (ccpm0d_turn k s fw s1 s2 p L Hk Hs P A ltac:(lra) TT) as (H & L0). destruct (max_facts k s Hk Hs) as (RP & _ & KP & _).
  apply turn_enough; [exact Hk|exact Hs| | |exact H|exact L0]; rewrite TT; unfold dubins_pieces, dubins_gap, epsilon; nra.
Qed.
Lemma hc0pmr_turns k s s1 s2 : 0 < k -> 0 < s -> pos_dist s1 s2 + detour k s < DBL_MAX ->
  exists t L, ModelHC0pmR.get_distance k s s1 s2 = Some (Some L) /\ turns_enough k s (rs_pieces t) (rs_gap k s t) s1 s2 L.
Proof.
  intros Hk Hs F. destruct (PlanHC0pmR.hc0pm_reeds_shepp_plan k s s1 s2 Hk Hs F) as (p & L & cs & P & A & _ & LE & N & _ & _ & GE & GN). exists (h_type p), L. split; [exact A|].
  assert (EE : h_type p = RS_E \/ h_type p <> RS_E) by (destruct (h_type p); first [left; reflexivity|right; discriminate]).
  assert (TT : h_type p = RS_T \/ h_type p <> RS_T) by (destruct (h_type p); first [left; reflexivity|right; discriminate]).
  destruct EE as [EE|EE]; [exact (drives_turns _ _ _ _ _ _ _ _ N (GE EE))|].
  destruct TT as [TT|TT]; [|exact (drives_turns _ _ _ _ _ _ _ _ N (proj1 (GN EE ltac:(intros; contradiction))))].
  unfold ModelHC0pmR.get_distance in A. rewrite P in A. apply (f_equal (fun o => match o with Some x => x | None => None end)) in A; cbv beta iota in A.
  destruct (hc0pmr_turn k s s1 s2 p L Hk Hs P A ltac:(lra) TT) as (H & L0). destruct (max_facts k s Hk Hs) as (RP & _ & KP & _).
  apply turn_enough; [exact Hk|exact Hs| | |exact H|exact L0]; rewrite TT; unfold rs_pieces, rs_gap, epsilon; nra.
Qed.
Lemma hcpm0r_turns k s s1 s2 : 0 < k -> 0 < s -> pos_dist s1 s2 + detour k s < DBL_MAX ->
  exists t L, ModelHCpm0R.get_distance k s s1 s2 = Some (Some L) /\ turns_enough k s (rs_pieces t) (rs_gap k s t) s1 s2 L.
Proof.
  intros Hk Hs F. destruct (PlanHCpm0R.hcpm0_reeds_shepp_plan k s s1 s2 Hk Hs F) as (p & L & cs & P & A & _ & LE & N & _ & _ & GE & GN). exists (h_type p), L. split; [exact A|].
  assert (EE : h_type p = RS_E \/ h_type p <> RS_E) by (destruct (h_type p); first [left; reflexivity|right; discriminate]).
  assert (TT : h_type p = RS_T \/ h_type p <> RS_T) by (destruct (h_type p); first [left; reflexivity|right; discriminate]).
  destruct EE as [EE|EE]; [exact (drives_turns _ _ _ _ _ _ _ _ N (GE EE))|].
  destruct TT as [TT|TT]; [|exact (drives_turns _ _ _ _ _ _ _ _ N (proj1 (GN EE ltac:(intros; contradiction))))].
  unfold ModelHCpm0R.get_distance in A. rewrite P in A. apply (f_equal (fun o => match o with Some x => x | None => None end)) in A; cbv beta iota in A.
  destruct (hcpm0r_turn k s s1 s2 p L Hk Hs P A ltac:(lra) TT) as (H & L0). destruct (max_facts k s Hk Hs) as (RP & _ & KP & _).
  apply turn_enough; [exact Hk|exact Hs| | |exact H|exact L0]; rewrite TT; unfold rs_pieces, rs_gap, epsilon; nra.
Qed.
Theorem zero_bound_turns k s fw s1 s2 : 0 < k -> 0 < s -> pos_dist s1 s2 + detour k s < DBL_MAX ->
  (exists t L, ModelCC0pmD.get_distance k s fw s1 s2 = Some (Some L) /\ turns_enough k s (dubins_pieces t) (dubins_gap k s t) s1 s2 L) /\
  (exists t L, ModelCCpm0D.get_distance k s fw s1 s2 = Some (Some L) /\ turns_enough k s (dubins_pieces t) (dubins_gap k s t) s1 s2 L) /\
  (exists t L, ModelHC0pmR.get_distance k s s1 s2 = Some (Some L) /\ turns_enough k s (rs_pieces t) (rs_gap k s t) s1 s2 L) /\
  (exists t L, ModelHCpm0R.get_distance k s s1 s2 = Some (Some L) /\ turns_enough k s (rs_pieces t) (rs_gap k s t) s1 s2 L).
Proof. intros Hk Hs F. split; [exact (cc0pmd_turns k s fw s1 s2 Hk Hs F)|split; [exact (ccpm0d_turns k s fw s1 s2 Hk Hs F)|split; [exact (hc0pmr_turns k s s1 s2 Hk Hs F)|exact (hcpm0r_turns k s s1 s2 Hk Hs F)]]]. Qed.

(** * Driving direction of the planner of ModelCCpmpmD.v *)
From Coq Require Import Reals ZArith List Lra Lia Bool.
From Verif Require Import Base ModelUtil ModelCircle ModelPaths ModelCCpmpmD Num UtilProofs SpecPath SpecTurn SpecPlan SpecDir PoseAlg TurnProofs MotionProofs TurnBounds LegProofs TangentProofs PlanProofs PlanTactics PlanHybrid PlanFamily PlanEnds PlanBounds PlanSelect DirProofs.
From Verif Require PlanCCpmpmD.
Import ListNotations.
Open Scope R_scope.

Lemma TT_dir k s a b l1 f1 l2 f2 c1 c2 D an L : 0 < k -> 0 < s -> c1 = circle a l1 f1 true (rs_param k) -> c2 = circle b l2 f2 true (rs_param k) ->
  D = center_distance c1 c2 -> an = atan2 (c_yc c2 - c_yc c1) (c_xc c2 - c_xc c1) -> e_length (entry_TT k s D an c1 c2) = Some L -> L < DBL_MAX ->
  exists cs, path_controls (mkHPath D_TT a b (entry_TT k s D an c1 c2)) = Some cs /\ aimed k s (dubins_gap k s D_TT) f1 cs.
Proof.
  intros Hk Hs H1 H2 HD HA EL LM. unfold entry_TT in *. entry X P. setup2. cbv beta delta [TT_path ] in P.
  unfold TT_exists in X; conditions X; fields_in P; steps P.
  all: circles_dir.
Qed.

Lemma TST_dir k s a b l1 f1 l2 f2 c1 c2 D an L : 0 < k -> 0 < s -> c1 = circle a l1 f1 true (rs_param k) -> c2 = circle b l2 f2 true (rs_param k) ->
  D = center_distance c1 c2 -> an = atan2 (c_yc c2 - c_yc c1) (c_xc c2 - c_xc c1) -> e_length (entry_TST k s D an c1 c2) = Some L -> L < DBL_MAX ->
  exists cs, path_controls (mkHPath D_TST a b (entry_TST k s D an c1 c2)) = Some cs /\ aimed k s (dubins_gap k s D_TST) f1 cs.
Proof.
  intros Hk Hs H1 H2 HD HA EL LM. unfold entry_TST in *. entry X P. setup2. cbv beta delta [TST_path TiST_path TeST_path] in P.
  fields_in P; steps P.
  all: repeat match goal with B : TiST_exists _ _ _ _ _ = true |- _ => unfold TiST_exists in B; conditions B | B : TeST_exists _ _ _ _ _ = true |- _ => unfold TeST_exists in B; conditions B end.
  all: circles_dir.
Qed.

Lemma TTT_dir k s a b l1 f1 l2 f2 c1 c2 D an L : 0 < k -> 0 < s -> c1 = circle a l1 f1 true (rs_param k) -> c2 = circle b l2 f2 true (rs_param k) ->
  D = center_distance c1 c2 -> an = atan2 (c_yc c2 - c_yc c1) (c_xc c2 - c_xc c1) -> e_length (entry_TTT k s D an c1 c2) = Some L -> L < DBL_MAX ->
  exists cs, path_controls (mkHPath D_TTT a b (entry_TTT k s D an c1 c2)) = Some cs /\ aimed k s (dubins_gap k s D_TTT) f1 cs.
Proof.
  intros Hk Hs H1 H2 HD HA EL LM. unfold entry_TTT in *. entry X P. setup2. cbv beta delta [TTT_path TTT_tangent_circles] in P.
  unfold TTT_exists in X; conditions X; fields_in P; steps P.
  all: circles_dir.
Qed.

Lemma TTTT_dir k s a b l1 f1 l2 f2 c1 c2 D an L : 0 < k -> 0 < s -> c1 = circle a l1 f1 true (rs_param k) -> c2 = circle b l2 f2 true (rs_param k) ->
  D = center_distance c1 c2 -> an = atan2 (c_yc c2 - c_yc c1) (c_xc c2 - c_xc c1) -> e_length (entry_TTTT k s D an c1 c2) = Some L -> L < DBL_MAX ->
  exists cs, path_controls (mkHPath D_TTTT a b (entry_TTTT k s D an c1 c2)) = Some cs /\ aimed k s (dubins_gap k s D_TTTT) f1 cs.
Proof.
  intros Hk Hs H1 H2 HD HA EL LM. unfold entry_TTTT in *. entry X P. setup2. cbv beta delta [TTTT_path TTTT_tangent_circles] in P.
  unfold TTTT_exists in X; conditions X; fields_in P; steps P.
  all: circles_dir.
Qed.

Lemma table_dir k s a b l1 f1 l2 c1 c2 t e L : 0 < k -> 0 < s ->
  c1 = circle a l1 f1 true (rs_param k) -> c2 = circle b l2 (negb f1) true (rs_param k) ->
  In (t, e) (combine cc_dubins_types (circles_table k s c1 c2)) -> e_length e = Some L -> L < DBL_MAX ->
  exists cs, path_controls (mkHPath t a b e) = Some cs /\ aimed k s (dubins_gap k s t) f1 cs.
Proof.
  intros Hk Hs H1 H2 IN EL LM. pose proof (gap_nonneg k s D_T Hk Hs) as GT. pose proof (gap_nonneg k s D_E Hk Hs) as GE.
  assert (S1 : c_start c1 = a) by (subst c1; apply circle_all). assert (S2 : c_start c2 = b) by (subst c2; apply circle_all).
  unfold circles_table in IN. cbv zeta in IN. rewrite S1, S2 in IN. unfold cc_dubins_types in IN.
  destruct (configuration_equal a b) eqn:QE; [cbn [combine In] in IN; entries|destruct (configuration_on_hc_cc_circle c1 b) eqn:QT; [cbn [combine In] in IN; entries|cbn [combine In] in IN; entries]].
  - exists empty_controls. split; [reflexivity|]. apply onward_empty. lra.
  - subst c1 c2. destruct (circle_all a l1 f1 true (rs_param k)) as (_ & EL1 & F1 & _). destruct (circle_all b l2 (negb f1) true (rs_param k)) as (_ & EL2 & F2 & _). rewrite ?EL1, ?F1, ?EL2, ?F2 in *.
    eexists. split; [reflexivity|]. unfold aimed. onward_tac.
  - exact (TT_dir k s a b l1 f1 l2 (negb f1) c1 c2 _ _ L Hk Hs H1 H2 eq_refl eq_refl EL LM).
  - exact (TST_dir k s a b l1 f1 l2 (negb f1) c1 c2 _ _ L Hk Hs H1 H2 eq_refl eq_refl EL LM).
  - exact (TTT_dir k s a b l1 f1 l2 (negb f1) c1 c2 _ _ L Hk Hs H1 H2 eq_refl eq_refl EL LM).
  - exact (TTTT_dir k s a b l1 f1 l2 (negb f1) c1 c2 _ _ L Hk Hs H1 H2 eq_refl eq_refl EL LM).
Qed.

Theorem ccpmpm_dubins_direction k s fw s1 s2 : 0 < k -> 0 < s -> pos_dist s1 s2 + detour k s < DBL_MAX ->
  exists p cs, ccpmpm_dubins k s fw s1 s2 = Some p /\ get_controls k s fw s1 s2 = Some cs /\ keeps_direction (3 * dubins_gap k s (h_type p)) fw cs.
Proof.
  intros Hk Hs LM. destruct (max_facts k s Hk Hs) as (_ & _ & _ & _ & DT).
  destruct (PlanCCpmpmD.ccpmpm_dubins_exists k s fw s1 s2 Hk Hs ltac:(lra)) as (p & L & P & EL & LM' & _). pose proof P as P'.
  apply select_path_in in P. unfold paths in P. apply paths_in in P. destruct P as (i & j & c1 & c2 & SK & N1 & N2 & S).
  destruct (PlanCCpmpmD.circles_of k s fw s1 s2 i j c1 c2 SK N1 N2) as (a & b & l1 & f1 & l2 & f2 & H1 & H2 & _ & _ & _ & _ & _ & _ & F1 & F2 & _). subst f1 f2.
  unfold ccpmpm_circles_dubins_path in S. apply select_entry_in in S. destruct S as (IN & ST & EN).
  assert (S1 : c_start c1 = a) by (subst c1; apply circle_all). assert (S2 : c_start c2 = b) by (subst c2; apply circle_all).
  destruct (table_dir k s a b l1 fw l2 c1 c2 _ _ L Hk Hs H1 H2 IN EL LM') as (cs & PC & G). exists p, cs. split; [exact P'|].
  unfold get_controls. rewrite P'. destruct p as [t u v e]; cbn [h_type h_entry h_start h_end] in *. rewrite S1 in ST. rewrite S2 in EN. subst u v. split; [exact PC|exact G].
Qed.

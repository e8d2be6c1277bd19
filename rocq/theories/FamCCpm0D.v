(** * The families of candidates of the planner of ModelCCpm0D.v *)
From Coq Require Import Reals ZArith List Lra Lia Bool.
From Verif Require Import Base ModelUtil ModelCircle ModelPaths ModelCCpm0D Num UtilProofs SpecPath SpecTurn SpecPlan PoseAlg TurnProofs MotionProofs TurnBounds LegProofs TangentProofs PlanProofs PlanTactics PlanHybrid PlanFamily.
Import ListNotations.
Open Scope R_scope.

Lemma TT_good k s a b l1 f1 l2 f2 c1 c2 D an L : 0 < k -> 0 < s -> c1 = circle a l1 f1 true (rs_param k) -> c2 = circle b l2 f2 true (hc_cc_param k s) ->
  D = center_distance c1 c2 -> an = atan2 (c_yc c2 - c_yc c1) (c_xc c2 - c_xc c1) -> e_length (entry_TT k s D an c1 c2) = Some L -> L < DBL_MAX ->
  exists cs, path_controls (mkHPath D_TT a b (entry_TT k s D an c1 c2)) = Some cs /\ good k s (dubins_gap k s D_TT) (dubins_pieces D_TT) a b (sign l1 * k) 0 cs L.
Proof.
  intros Hk Hs H1 H2 HD HA EL LM. unfold entry_TT in *. entry X P. setup2. cbv beta delta [TT_path] in P.
  unfold TT_exists in X; conditions X; fields_in P; steps P.
  all: circles2.
Qed.

Lemma TST_good k s a b l1 f1 l2 f2 c1 c2 D an L : 0 < k -> 0 < s -> c1 = circle a l1 f1 true (rs_param k) -> c2 = circle b l2 f2 true (hc_cc_param k s) ->
  D = center_distance c1 c2 -> an = atan2 (c_yc c2 - c_yc c1) (c_xc c2 - c_xc c1) -> e_length (entry_TST k s D an c1 c2) = Some L -> L < DBL_MAX ->
  exists cs, path_controls (mkHPath D_TST a b (entry_TST k s D an c1 c2)) = Some cs /\ good k s (dubins_gap k s D_TST) (dubins_pieces D_TST) a b (sign l1 * k) 0 cs L.
Proof.
  intros Hk Hs H1 H2 HD HA EL LM. unfold entry_TST in *. entry X P. setup2. cbv beta delta [TST_path TiST_path TeST_path] in P.
  fields_in P; steps P.
  all: repeat match goal with B : TiST_exists _ _ _ = true |- _ => unfold TiST_exists in B; conditions B | B : TeST_exists _ _ _ = true |- _ => unfold TeST_exists in B; conditions B end.
  all: circles2.
Qed.

Lemma TTT_good k s a b l1 f1 l2 f2 c1 c2 D an L : 0 < k -> 0 < s -> c1 = circle a l1 f1 true (rs_param k) -> c2 = circle b l2 f2 true (hc_cc_param k s) ->
  D = center_distance c1 c2 -> an = atan2 (c_yc c2 - c_yc c1) (c_xc c2 - c_xc c1) -> e_length (entry_TTT k s D an c1 c2) = Some L -> L < DBL_MAX ->
  exists cs, path_controls (mkHPath D_TTT a b (entry_TTT k s D an c1 c2)) = Some cs /\ good k s (dubins_gap k s D_TTT) (dubins_pieces D_TTT) a b (sign l1 * k) 0 cs L.
Proof.
  intros Hk Hs H1 H2 HD HA EL LM. unfold entry_TTT in *. entry X P. setup2. cbv beta delta [TTT_path TTT_tangent_circles] in P.
  unfold TTT_exists in X; conditions X; fields_in P; steps P.
  all: circles2.
Qed.


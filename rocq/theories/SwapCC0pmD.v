(** * Candidates of ModelCC0pmD.v and ModelCCpm0D.v with start and goal exchanged *)
From Coq Require Import Reals ZArith List Lra Lia Bool.
From Verif Require Import Base ModelUtil ModelIntegrate ModelCircle ModelPaths Num UtilProofs SpecPath SpecTurn PoseAlg TurnProofs MotionProofs TurnBounds LegProofs TangentProofs PlanProofs PlanFamily PlanTactics RigidBase RigidTactics SwapBase SwapTactics.
From Verif Require ModelCC0pmD ModelCCpm0D.
Import ListNotations.
Open Scope R_scope.

Ltac sw_tan ::=
  match goal with
  | |- context [ModelCC0pmD.TT_tangent_circles ?a ?b] => change (ModelCC0pmD.TT_tangent_circles a b) with (gTT (c_mu a) a b)
  | |- context [ModelCC0pmD.TiST_tangent_circles ?a ?b] => change (ModelCC0pmD.TiST_tangent_circles a b) with (gTiST (c_radius a) (c_sin_mu a) (c_cos_mu a) a b)
  | |- context [ModelCC0pmD.TeST_tangent_circles ?a ?b] => change (ModelCC0pmD.TeST_tangent_circles a b) with (gTeST (c_radius a) (c_sin_mu a) (c_cos_mu a) a b)
  | |- context [ModelCCpm0D.TT_tangent_circles ?a ?b] => change (ModelCCpm0D.TT_tangent_circles a b) with (gTT (c_mu b) a b)
  | |- context [ModelCCpm0D.TiST_tangent_circles ?a ?b] => change (ModelCCpm0D.TiST_tangent_circles a b) with (gTiST (c_radius b) (c_sin_mu b) (c_cos_mu b) a b)
  | |- context [ModelCCpm0D.TeST_tangent_circles ?a ?b] => change (ModelCCpm0D.TeST_tangent_circles a b) with (gTeST (c_radius b) (c_sin_mu b) (c_cos_mu b) a b)
  end.

Section Pair.
  Variables (k s : R) (c1 c2 : Circle) (D an an' : R).
  Hypothesis HD : D = center_distance c1 c2.
  Hypothesis HA : an = atan2 (c_yc c2 - c_yc c1) (c_xc c2 - c_xc c1).
  Hypothesis HA' : ang_eq an' (an + PI).
  Hypothesis HP : apart 1 k s true false c1 c2.
  Hypothesis XY : c_xc c2 = c_xc c1 + D * cos an /\ c_yc c2 = c_yc c1 + D * sin an.
  Hypothesis CS : cos an' = - cos an /\ sin an' = - sin an.
  Hypothesis P1 : par true k s true c1.
  Hypothesis P2 : par true k s false c2.

  Lemma sw_TT : e_length (ModelCC0pmD.entry_TT k s D an c1 c2) = e_length (ModelCCpm0D.entry_TT k s D an' c2 c1).
  Proof. unfold ModelCC0pmD.entry_TT, ModelCC0pmD.TT_exists, ModelCC0pmD.TT_path, ModelCCpm0D.entry_TT, ModelCCpm0D.TT_exists, ModelCCpm0D.TT_path. sw_entry P1 P2 c1 c2. Qed.
  Lemma sw_TST : e_length (ModelCC0pmD.entry_TST k s D an c1 c2) = e_length (ModelCCpm0D.entry_TST k s D an' c2 c1).
  Proof. unfold ModelCC0pmD.entry_TST, ModelCC0pmD.TST_exists, ModelCC0pmD.TST_path, ModelCC0pmD.TiST_exists, ModelCC0pmD.TiST_path, ModelCC0pmD.TeST_exists, ModelCC0pmD.TeST_path, ModelCCpm0D.entry_TST, ModelCCpm0D.TST_exists, ModelCCpm0D.TST_path, ModelCCpm0D.TiST_exists, ModelCCpm0D.TiST_path, ModelCCpm0D.TeST_exists, ModelCCpm0D.TeST_path. sw_entry P1 P2 c1 c2. Qed.
  Lemma sw_TTT : e_length (ModelCC0pmD.entry_TTT k s D an c1 c2) = e_length (ModelCCpm0D.entry_TTT k s D an' c2 c1).
  Proof. unfold ModelCC0pmD.entry_TTT, ModelCC0pmD.TTT_exists, ModelCC0pmD.TTT_path, ModelCC0pmD.TTT_tangent_circles, ModelCCpm0D.entry_TTT, ModelCCpm0D.TTT_exists, ModelCCpm0D.TTT_path, ModelCCpm0D.TTT_tangent_circles. sw_entry P1 P2 c1 c2. Qed.
End Pair.


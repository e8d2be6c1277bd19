(** * Candidates of ModelCC00D.v with start and goal exchanged *)
From Coq Require Import Reals ZArith List Lra Lia Bool.
From Verif Require Import Base ModelUtil ModelIntegrate ModelCircle ModelPaths ModelCC00D Num UtilProofs SpecPath SpecTurn PoseAlg TurnProofs MotionProofs TurnBounds LegProofs TangentProofs PlanProofs PlanFamily PlanTactics RigidBase RigidTactics SwapBase SwapTactics.
Import ListNotations.
Open Scope R_scope.

Ltac sw_tan ::=
  match goal with
  | |- context [TT_tangent_circles ?a ?b] => change (TT_tangent_circles a b) with (gTT (c_mu a) a b)
  | |- context [TiST_tangent_circles ?a ?b] => change (TiST_tangent_circles a b) with (gTiST (c_radius a) (c_sin_mu a) (c_cos_mu a) a b)
  | |- context [TeST_tangent_circles ?a ?b] => change (TeST_tangent_circles a b) with (gTeST (c_radius a) (c_sin_mu a) (c_cos_mu a) a b)
  end.

Section Pair.
  Variables (k s : R) (c1 c2 : Circle) (D an an' : R).
  Hypothesis HD : D = center_distance c1 c2.
  Hypothesis HA : an = atan2 (c_yc c2 - c_yc c1) (c_xc c2 - c_xc c1).
  Hypothesis HA' : ang_eq an' (an + PI).
  Hypothesis HP : apart 1 k s true true c1 c2.
  Hypothesis XY : c_xc c2 = c_xc c1 + D * cos an /\ c_yc c2 = c_yc c1 + D * sin an.
  Hypothesis CS : cos an' = - cos an /\ sin an' = - sin an.
  Hypothesis P1 : par true k s true c1.
  Hypothesis P2 : par true k s true c2.

  Lemma sw_TT : e_length (entry_TT D an c1 c2) = e_length (entry_TT D an' c2 c1).
  Proof. unfold entry_TT, TT_exists, TT_path. sw_entry P1 P2 c1 c2. Qed.
  Lemma sw_TST : e_length (entry_TST D an c1 c2) = e_length (entry_TST D an' c2 c1).
  Proof. unfold entry_TST, TST_exists, TST_path, TiST_exists, TiST_path, TeST_exists, TeST_path. sw_entry P1 P2 c1 c2. Qed.
  Lemma sw_TTT : e_length (entry_TTT k s D an c1 c2) = e_length (entry_TTT k s D an' c2 c1).
  Proof. unfold entry_TTT, TTT_exists, TTT_path, TTT_tangent_circles. sw_entry P1 P2 c1 c2. Qed.
End Pair.


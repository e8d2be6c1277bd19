(** * Candidates of ModelHC0pmR.v and ModelHCpm0R.v with start and goal exchanged *)
From Coq Require Import Reals ZArith List Lra Lia Bool.
From Verif Require Import Base ModelUtil ModelIntegrate ModelCircle ModelPaths Num UtilProofs SpecPath SpecTurn PoseAlg TurnProofs MotionProofs TurnBounds LegProofs TangentProofs PlanProofs PlanFamily PlanTactics RigidBase RigidTactics SwapBase SwapTactics.
From Verif Require ModelHC0pmR ModelHCpm0R.
Import ListNotations.
Open Scope R_scope.

Ltac sw_tan ::=
  match goal with
  | |- context [ModelHC0pmR.TT_tangent_circles ?a ?b] => change (ModelHC0pmR.TT_tangent_circles a b) with (gTT (c_mu a) a b)
  | |- context [ModelHC0pmR.TcT_tangent_circles ?a ?b] => change (ModelHC0pmR.TcT_tangent_circles a b) with (gTcT (c_kappa a) 0 a b)
  | |- context [ModelHC0pmR.TiST_tangent_circles ?a ?b] => change (ModelHC0pmR.TiST_tangent_circles a b) with (gTiST (c_radius a) (c_sin_mu a) (c_cos_mu a) a b)
  | |- context [ModelHC0pmR.TeST_tangent_circles ?a ?b] => change (ModelHC0pmR.TeST_tangent_circles a b) with (gTeST (c_radius a) (c_sin_mu a) (c_cos_mu a) a b)
  | |- context [ModelHCpm0R.TT_tangent_circles ?a ?b] => change (ModelHCpm0R.TT_tangent_circles a b) with (gTT (c_mu b) a b)
  | |- context [ModelHCpm0R.TcT_tangent_circles ?a ?b] => change (ModelHCpm0R.TcT_tangent_circles a b) with (gTcT (c_kappa a) 0 a b)
  | |- context [ModelHCpm0R.TiST_tangent_circles ?a ?b] => change (ModelHCpm0R.TiST_tangent_circles a b) with (gTiST (c_radius b) (c_sin_mu b) (c_cos_mu b) a b)
  | |- context [ModelHCpm0R.TeST_tangent_circles ?a ?b] => change (ModelHCpm0R.TeST_tangent_circles a b) with (gTeST (c_radius b) (c_sin_mu b) (c_cos_mu b) a b)
  end.

Section Pair.
  Variables (k s : R) (c1 c2 : Circle) (D an an' : R).
  Hypothesis HD : D = center_distance c1 c2.
  Hypothesis HA : an = atan2 (c_yc c2 - c_yc c1) (c_xc c2 - c_xc c1).
  Hypothesis HA' : ang_eq an' (an + PI).
  Hypothesis HP : apart 1 k s true false c1 c2.
  Hypothesis XY : c_xc c2 = c_xc c1 + D * cos an /\ c_yc c2 = c_yc c1 + D * sin an.
  Hypothesis CS : cos an' = - cos an /\ sin an' = - sin an.
  Hypothesis P1 : par true k s true c1.
  Hypothesis P2 : par true k s false c2.

  Lemma sw_TT : e_length (ModelHC0pmR.entry_TT k s D an c1 c2) = e_length (ModelHCpm0R.entry_TT k s D an' c2 c1).
  Proof. unfold ModelHC0pmR.entry_TT, ModelHC0pmR.TT_exists, ModelHC0pmR.TT_path, ModelHCpm0R.entry_TT, ModelHCpm0R.TT_exists, ModelHCpm0R.TT_path. sw_entry P1 P2 c1 c2. Qed.
  Lemma sw_TcT : e_length (ModelHC0pmR.entry_TcT D an c1 c2) = e_length (ModelHCpm0R.entry_TcT D an' c2 c1).
  Proof. unfold ModelHC0pmR.entry_TcT, ModelHC0pmR.TcT_exists, ModelHC0pmR.TcT_path, ModelHCpm0R.entry_TcT, ModelHCpm0R.TcT_exists, ModelHCpm0R.TcT_path. sw_entry P1 P2 c1 c2. Qed.
  Lemma sw_TcTcT : e_length (ModelHC0pmR.entry_TcTcT k D an c1 c2) = e_length (ModelHCpm0R.entry_TcTcT k D an' c2 c1).
  Proof. unfold ModelHC0pmR.entry_TcTcT, ModelHC0pmR.TcTcT_exists, ModelHC0pmR.TcTcT_path, ModelHC0pmR.TcTcT_tangent_circles, ModelHCpm0R.entry_TcTcT, ModelHCpm0R.TcTcT_exists, ModelHCpm0R.TcTcT_path, ModelHCpm0R.TcTcT_tangent_circles. sw_entry P1 P2 c1 c2. Qed.
  Lemma sw_TcTT : e_length (ModelHC0pmR.entry_TcTT k s D an c1 c2) = e_length (ModelHCpm0R.entry_TTcT k s D an' c2 c1).
  Proof. unfold ModelHC0pmR.entry_TcTT, ModelHC0pmR.TcTT_exists, ModelHC0pmR.TcTT_path, ModelHC0pmR.TcTT_tangent_circles, ModelHCpm0R.entry_TTcT, ModelHCpm0R.TTcT_exists, ModelHCpm0R.TTcT_path, ModelHCpm0R.TTcT_tangent_circles. sw_entry P1 P2 c1 c2. Qed.
  Lemma sw_TTcT : e_length (ModelHC0pmR.entry_TTcT k s D an c1 c2) = e_length (ModelHCpm0R.entry_TcTT k s D an' c2 c1).
  Proof. unfold ModelHC0pmR.entry_TTcT, ModelHC0pmR.TTcT_exists, ModelHC0pmR.TTcT_path, ModelHC0pmR.TTcT_tangent_circles, ModelHCpm0R.entry_TcTT, ModelHCpm0R.TcTT_exists, ModelHCpm0R.TcTT_path, ModelHCpm0R.TcTT_tangent_circles. sw_entry P1 P2 c1 c2. Qed.
  Lemma sw_TST : e_length (ModelHC0pmR.entry_TST k s D an c1 c2) = e_length (ModelHCpm0R.entry_TST k s D an' c2 c1).
  Proof. unfold ModelHC0pmR.entry_TST, ModelHC0pmR.TST_exists, ModelHC0pmR.TST_path, ModelHC0pmR.TiST_exists, ModelHC0pmR.TiST_path, ModelHC0pmR.TeST_exists, ModelHC0pmR.TeST_path, ModelHCpm0R.entry_TST, ModelHCpm0R.TST_exists, ModelHCpm0R.TST_path, ModelHCpm0R.TiST_exists, ModelHCpm0R.TiST_path, ModelHCpm0R.TeST_exists, ModelHCpm0R.TeST_path. sw_entry P1 P2 c1 c2. Qed.
  Lemma sw_TSTcT : e_length (ModelHC0pmR.entry_TSTcT k s D an c1 c2) = e_length (ModelHCpm0R.entry_TcTST k s D an' c2 c1).
  Proof. unfold ModelHC0pmR.entry_TSTcT, ModelHC0pmR.TSTcT_exists, ModelHC0pmR.TSTcT_path, ModelHC0pmR.TiSTcT_exists, ModelHC0pmR.TiSTcT_path, ModelHC0pmR.TeSTcT_exists, ModelHC0pmR.TeSTcT_path, ModelHCpm0R.entry_TcTST, ModelHCpm0R.TcTST_exists, ModelHCpm0R.TcTST_path, ModelHCpm0R.TcTiST_exists, ModelHCpm0R.TcTiST_path, ModelHCpm0R.TcTeST_exists, ModelHCpm0R.TcTeST_path. sw_entry P1 P2 c1 c2. Qed.
  Lemma sw_TcTST : e_length (ModelHC0pmR.entry_TcTST k s D an c1 c2) = e_length (ModelHCpm0R.entry_TSTcT k s D an' c2 c1).
  Proof. unfold ModelHC0pmR.entry_TcTST, ModelHC0pmR.TcTST_exists, ModelHC0pmR.TcTST_path, ModelHC0pmR.TcTiST_exists, ModelHC0pmR.TcTiST_path, ModelHC0pmR.TcTeST_exists, ModelHC0pmR.TcTeST_path, ModelHCpm0R.entry_TSTcT, ModelHCpm0R.TSTcT_exists, ModelHCpm0R.TSTcT_path, ModelHCpm0R.TiSTcT_exists, ModelHCpm0R.TiSTcT_path, ModelHCpm0R.TeSTcT_exists, ModelHCpm0R.TeSTcT_path. sw_entry P1 P2 c1 c2. Qed.
  Lemma sw_TcTSTcT : e_length (ModelHC0pmR.entry_TcTSTcT k s D an c1 c2) = e_length (ModelHCpm0R.entry_TcTSTcT k s D an' c2 c1).
  Proof. unfold ModelHC0pmR.entry_TcTSTcT, ModelHC0pmR.TcTSTcT_exists, ModelHC0pmR.TcTSTcT_path, ModelHC0pmR.TcTiSTcT_exists, ModelHC0pmR.TcTiSTcT_path, ModelHC0pmR.TcTeSTcT_exists, ModelHC0pmR.TcTeSTcT_path, ModelHCpm0R.entry_TcTSTcT, ModelHCpm0R.TcTSTcT_exists, ModelHCpm0R.TcTSTcT_path, ModelHCpm0R.TcTiSTcT_exists, ModelHCpm0R.TcTiSTcT_path, ModelHCpm0R.TcTeSTcT_exists, ModelHCpm0R.TcTeSTcT_path. sw_entry P1 P2 c1 c2. Qed.
  Lemma sw_TTcTT : e_length (ModelHC0pmR.entry_TTcTT k s D an c1 c2) = e_length (ModelHCpm0R.entry_TTcTT k s D an' c2 c1).
  Proof. unfold ModelHC0pmR.entry_TTcTT, ModelHC0pmR.TTcTT_exists, ModelHC0pmR.TTcTT_path, ModelHC0pmR.TTcTT_tangent_circles, ModelHCpm0R.entry_TTcTT, ModelHCpm0R.TTcTT_exists, ModelHCpm0R.TTcTT_path, ModelHCpm0R.TTcTT_tangent_circles. sw_entry P1 P2 c1 c2. Qed.
  Lemma sw_TcTTcT : e_length (ModelHC0pmR.entry_TcTTcT k s D an c1 c2) = e_length (ModelHCpm0R.entry_TcTTcT k s D an' c2 c1).
  Proof. unfold ModelHC0pmR.entry_TcTTcT, ModelHC0pmR.TcTTcT_exists, ModelHC0pmR.TcTTcT_path, ModelHC0pmR.TcTTcT_tangent_circles, ModelHCpm0R.entry_TcTTcT, ModelHCpm0R.TcTTcT_exists, ModelHCpm0R.TcTTcT_path, ModelHCpm0R.TcTTcT_tangent_circles. sw_entry P1 P2 c1 c2. Qed.
  Lemma sw_TTT : e_length (ModelHC0pmR.entry_TTT k s D an c1 c2) = e_length (ModelHCpm0R.entry_TTT k s D an' c2 c1).
  Proof. unfold ModelHC0pmR.entry_TTT, ModelHC0pmR.TTT_exists, ModelHC0pmR.TTT_path, ModelHC0pmR.TTT_tangent_circles, ModelHCpm0R.entry_TTT, ModelHCpm0R.TTT_exists, ModelHCpm0R.TTT_path, ModelHCpm0R.TTT_tangent_circles. sw_entry P1 P2 c1 c2. Qed.
  Lemma sw_TcST : e_length (ModelHC0pmR.entry_TcST k s D an c1 c2) = e_length (ModelHCpm0R.entry_TScT k s D an' c2 c1).
  Proof. unfold ModelHC0pmR.entry_TcST, ModelHC0pmR.TcST_exists, ModelHC0pmR.TcST_path, ModelHC0pmR.TciST_exists, ModelHC0pmR.TciST_path, ModelHC0pmR.TceST_exists, ModelHC0pmR.TceST_path, ModelHCpm0R.entry_TScT, ModelHCpm0R.TScT_exists, ModelHCpm0R.TScT_path, ModelHCpm0R.TiScT_exists, ModelHCpm0R.TiScT_path, ModelHCpm0R.TeScT_exists, ModelHCpm0R.TeScT_path. sw_entry P1 P2 c1 c2. Qed.
  Lemma sw_TScT : e_length (ModelHC0pmR.entry_TScT k s D an c1 c2) = e_length (ModelHCpm0R.entry_TcST k s D an' c2 c1).
  Proof. unfold ModelHC0pmR.entry_TScT, ModelHC0pmR.TScT_exists, ModelHC0pmR.TScT_path, ModelHC0pmR.TiScT_exists, ModelHC0pmR.TiScT_path, ModelHC0pmR.TeScT_exists, ModelHC0pmR.TeScT_path, ModelHCpm0R.entry_TcST, ModelHCpm0R.TcST_exists, ModelHCpm0R.TcST_path, ModelHCpm0R.TciST_exists, ModelHCpm0R.TciST_path, ModelHCpm0R.TceST_exists, ModelHCpm0R.TceST_path. sw_entry P1 P2 c1 c2. Qed.
  Lemma sw_TcScT : e_length (ModelHC0pmR.entry_TcScT D an c1 c2) = e_length (ModelHCpm0R.entry_TcScT D an' c2 c1).
  Proof. unfold ModelHC0pmR.entry_TcScT, ModelHC0pmR.TcScT_exists, ModelHC0pmR.TcScT_path, ModelHC0pmR.TciScT_exists, ModelHC0pmR.TciScT_path, ModelHC0pmR.TceScT_exists, ModelHC0pmR.TceScT_path, ModelHCpm0R.entry_TcScT, ModelHCpm0R.TcScT_exists, ModelHCpm0R.TcScT_path, ModelHCpm0R.TciScT_exists, ModelHCpm0R.TciScT_path, ModelHCpm0R.TceScT_exists, ModelHCpm0R.TceScT_path. sw_entry P1 P2 c1 c2. Qed.
End Pair.


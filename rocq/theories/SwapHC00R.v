(** * Candidates of ModelHC00R.v with start and goal exchanged *)
From Coq Require Import Reals ZArith List Lra Lia Bool.
From Verif Require Import Base ModelUtil ModelIntegrate ModelCircle ModelPaths ModelHC00R Num UtilProofs SpecPath SpecTurn PoseAlg TurnProofs MotionProofs TurnBounds LegProofs TangentProofs PlanProofs PlanFamily PlanTactics RigidBase RigidTactics SwapBase SwapTactics.
Import ListNotations.
Open Scope R_scope.

Ltac sw_tan ::=
  match goal with
  | |- context [TT_tangent_circles ?a ?b] => change (TT_tangent_circles a b) with (gTT (c_mu a) a b)
  | |- context [TcT_tangent_circles ?a ?b] => change (TcT_tangent_circles a b) with (gTcT (c_kappa a) 0 a b)
  | |- context [TiST_tangent_circles ?a ?b] => change (TiST_tangent_circles a b) with (gTiST (c_radius a) (c_sin_mu a) (c_cos_mu a) a b)
  | |- context [TeST_tangent_circles ?a ?b] => change (TeST_tangent_circles a b) with (gTeST (c_radius a) (c_sin_mu a) (c_cos_mu a) a b)
  end.

Section Pair.
  Variables (k s : R) (c1 c2 : Circle) (D an an' : R).
  Hypothesis HD : D = center_distance c1 c2.
  Hypothesis HA : an = atan2 (c_yc c2 - c_yc c1) (c_xc c2 - c_xc c1).
  Hypothesis HA' : ang_eq an' (an + PI).
  Hypothesis HP : apart 1 k s true true c1 c2.
  Hypothesis XY : c_xc c2 = c_xc c1 + D * cos an /\ c_yc c2 = c_yc c1 + D * sin an.
  Hypothesis CS : cos an' = - cos an /\ sin an' = - sin an.
  Hypothesis P1 : par true k s true c1.
  Hypothesis P2 : par true k s true c2.

  Lemma sw_TT : e_length (entry_TT k s D an c1 c2) = e_length (entry_TT k s D an' c2 c1).
  Proof. unfold entry_TT, TT_exists, TT_path. sw_entry P1 P2 c1 c2. Qed.
  Lemma sw_TcT : e_length (entry_TcT D an c1 c2) = e_length (entry_TcT D an' c2 c1).
  Proof. unfold entry_TcT, TcT_exists, TcT_path. sw_entry P1 P2 c1 c2. Qed.
  Lemma sw_TcTcT : e_length (entry_TcTcT k s D an c1 c2) = e_length (entry_TcTcT k s D an' c2 c1).
  Proof. unfold entry_TcTcT, TcTcT_exists, TcTcT_path, TcTcT_tangent_circles. sw_entry P1 P2 c1 c2. Qed.
  Lemma sw_TcTT : e_length (entry_TcTT k s D an c1 c2) = e_length (entry_TTcT k s D an' c2 c1).
  Proof. unfold entry_TcTT, TcTT_exists, TcTT_path, TcTT_tangent_circles, entry_TTcT, TTcT_exists, TTcT_path, TTcT_tangent_circles. sw_entry P1 P2 c1 c2. Qed.
  Lemma sw_TTcT : e_length (entry_TTcT k s D an c1 c2) = e_length (entry_TcTT k s D an' c2 c1).
  Proof. unfold entry_TTcT, TTcT_exists, TTcT_path, TTcT_tangent_circles, entry_TcTT, TcTT_exists, TcTT_path, TcTT_tangent_circles. sw_entry P1 P2 c1 c2. Qed.
  Lemma sw_TST : e_length (entry_TST k s D an c1 c2) = e_length (entry_TST k s D an' c2 c1).
  Proof. unfold entry_TST, TST_exists, TST_path, TiST_exists, TiST_path, TeST_exists, TeST_path. sw_entry P1 P2 c1 c2. Qed.
  Lemma sw_TSTcT : e_length (entry_TSTcT k s D an c1 c2) = e_length (entry_TcTST k s D an' c2 c1).
  Proof. unfold entry_TSTcT, TSTcT_exists, TSTcT_path, TiSTcT_exists, TiSTcT_path, TeSTcT_exists, TeSTcT_path, entry_TcTST, TcTST_exists, TcTST_path, TcTiST_exists, TcTiST_path, TcTeST_exists, TcTeST_path. sw_entry P1 P2 c1 c2. Qed.
  Lemma sw_TcTST : e_length (entry_TcTST k s D an c1 c2) = e_length (entry_TSTcT k s D an' c2 c1).
  Proof. unfold entry_TcTST, TcTST_exists, TcTST_path, TcTiST_exists, TcTiST_path, TcTeST_exists, TcTeST_path, entry_TSTcT, TSTcT_exists, TSTcT_path, TiSTcT_exists, TiSTcT_path, TeSTcT_exists, TeSTcT_path. sw_entry P1 P2 c1 c2. Qed.
  Lemma sw_TcTSTcT : e_length (entry_TcTSTcT k s D an c1 c2) = e_length (entry_TcTSTcT k s D an' c2 c1).
  Proof. unfold entry_TcTSTcT, TcTSTcT_exists, TcTSTcT_path, TcTiSTcT_exists, TcTiSTcT_path, TcTeSTcT_exists, TcTeSTcT_path. sw_entry P1 P2 c1 c2. Qed.
  Lemma sw_TTcTT : e_length (entry_TTcTT k s D an c1 c2) = e_length (entry_TTcTT k s D an' c2 c1).
  Proof. unfold entry_TTcTT, TTcTT_exists, TTcTT_path, TTcTT_tangent_circles. sw_entry P1 P2 c1 c2. Qed.
  Lemma sw_TcTTcT : e_length (entry_TcTTcT k s D an c1 c2) = e_length (entry_TcTTcT k s D an' c2 c1).
  Proof. unfold entry_TcTTcT, TcTTcT_exists, TcTTcT_path, TcTTcT_tangent_circles. sw_entry P1 P2 c1 c2. Qed.
  Lemma sw_TTT : e_length (entry_TTT k s D an c1 c2) = e_length (entry_TTT k s D an' c2 c1).
  Proof. unfold entry_TTT, TTT_exists, TTT_path, TTT_tangent_circles. sw_entry P1 P2 c1 c2. Qed.
  Lemma sw_TcST : e_length (entry_TcST k s D an c1 c2) = e_length (entry_TScT k s D an' c2 c1).
  Proof. unfold entry_TcST, TcST_exists, TcST_path, TciST_exists, TciST_path, TceST_exists, TceST_path, entry_TScT, TScT_exists, TScT_path, TiScT_exists, TiScT_path, TeScT_exists, TeScT_path. sw_entry P1 P2 c1 c2. Qed.
  Lemma sw_TScT : e_length (entry_TScT k s D an c1 c2) = e_length (entry_TcST k s D an' c2 c1).
  Proof. unfold entry_TScT, TScT_exists, TScT_path, TiScT_exists, TiScT_path, TeScT_exists, TeScT_path, entry_TcST, TcST_exists, TcST_path, TciST_exists, TciST_path, TceST_exists, TceST_path. sw_entry P1 P2 c1 c2. Qed.
  Lemma sw_TcScT : e_length (entry_TcScT D an c1 c2) = e_length (entry_TcScT D an' c2 c1).
  Proof. unfold entry_TcScT, TcScT_exists, TcScT_path, TciScT_exists, TciScT_path, TceScT_exists, TceScT_path. sw_entry P1 P2 c1 c2. Qed.
End Pair.


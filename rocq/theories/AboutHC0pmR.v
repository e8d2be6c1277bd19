(** * Candidates of ModelHC0pmR.v for a car that looks the other way *)
From Coq Require Import Reals ZArith List Lra Lia Bool.
From Verif Require Import Base ModelUtil ModelIntegrate ModelCircle ModelPaths ModelHC0pmR Num UtilProofs SpecPath SpecTurn PoseAlg TurnProofs MotionProofs TurnBounds LegProofs TangentProofs PlanProofs PlanFamily PlanTactics RigidBase RigidTactics AboutBase.
Import ListNotations.
Open Scope R_scope.

Lemma TT_ab a b c1 c2 : TT_tangent_circles (abg a c1) (abg b c2) = ab (TT_tangent_circles c1 c2).
Proof. exact (gTT_ab (c_mu c1) a b c1 c2). Qed.
Lemma TcT_ab a b c1 c2 : TcT_tangent_circles (abg a c1) (abg b c2) = ab (TcT_tangent_circles c1 c2).
Proof. exact (gTcT_ab (c_kappa c1) 0 a b c1 c2). Qed.
Lemma TiST_ab a b c1 c2 : TiST_tangent_circles (abg a c1) (abg b c2) = option_map ab2 (TiST_tangent_circles c1 c2).
Proof. exact (gTiST_ab (c_radius c1) (c_sin_mu c1) (c_cos_mu c1) a b c1 c2). Qed.
Lemma TeST_ab a b c1 c2 : TeST_tangent_circles (abg a c1) (abg b c2) = ab2 (TeST_tangent_circles c1 c2).
Proof. exact (gTeST_ab (c_radius c1) (c_sin_mu c1) (c_cos_mu c1) a b c1 c2). Qed.
Ltac ab_tan ::=
  match goal with
  | |- context [TT_tangent_circles ?X ?Y] =>
      let c1 := abcore X in let c2 := abcore Y in
      replace (TT_tangent_circles X Y) with (ab (TT_tangent_circles c1 c2)) by (symmetry; apply TT_ab);
      generalize (TT_tangent_circles c1 c2); intros ?
  | |- context [TcT_tangent_circles ?X ?Y] =>
      let c1 := abcore X in let c2 := abcore Y in
      replace (TcT_tangent_circles X Y) with (ab (TcT_tangent_circles c1 c2)) by (symmetry; apply TcT_ab);
      generalize (TcT_tangent_circles c1 c2); intros ?
  | |- context [TiST_tangent_circles ?X ?Y] =>
      let c1 := abcore X in let c2 := abcore Y in
      replace (TiST_tangent_circles X Y) with (option_map ab2 (TiST_tangent_circles c1 c2)) by (symmetry; apply TiST_ab);
      destruct (TiST_tangent_circles c1 c2) as [[? ?]|]; cbn [option_map ab2 fst snd fbind]; unfold ab2; cbn [fst snd]; [|reflexivity]
  | |- context [TeST_tangent_circles ?X ?Y] =>
      let c1 := abcore X in let c2 := abcore Y in
      replace (TeST_tangent_circles X Y) with (ab2 (TeST_tangent_circles c1 c2)) by (symmetry; apply TeST_ab);
      destruct (TeST_tangent_circles c1 c2) as [? ?]; unfold ab2; cbn [fst snd]
  end.

Section Pair.
  Variables (k s D an : R) (c1 c2 : Circle).
  Lemma ab_TT : entry_TT k s D an (abc c1) (abc c2) = abE (entry_TT k s D an c1 c2).
  Proof. unfold entry_TT, TT_exists, TT_path. ab_entry c1 c2. Qed.
  Lemma ab_TcT : entry_TcT D an (abc c1) (abc c2) = abE (entry_TcT D an c1 c2).
  Proof. unfold entry_TcT, TcT_exists, TcT_path. ab_entry c1 c2. Qed.
  Lemma ab_TcTcT : entry_TcTcT k D an (abc c1) (abc c2) = abE (entry_TcTcT k D an c1 c2).
  Proof. unfold entry_TcTcT, TcTcT_exists, TcTcT_path, TcTcT_tangent_circles. ab_entry c1 c2. Qed.
  Lemma ab_TcTT : entry_TcTT k s D an (abc c1) (abc c2) = abE (entry_TcTT k s D an c1 c2).
  Proof. unfold entry_TcTT, TcTT_exists, TcTT_path, TcTT_tangent_circles. ab_entry c1 c2. Qed.
  Lemma ab_TTcT : entry_TTcT k s D an (abc c1) (abc c2) = abE (entry_TTcT k s D an c1 c2).
  Proof. unfold entry_TTcT, TTcT_exists, TTcT_path, TTcT_tangent_circles. ab_entry c1 c2. Qed.
  Lemma ab_TST : entry_TST k s D an (abc c1) (abc c2) = abE (entry_TST k s D an c1 c2).
  Proof. unfold entry_TST, TST_exists, TST_path, TiST_exists, TiST_path, TeST_exists, TeST_path. ab_entry c1 c2. Qed.
  Lemma ab_TSTcT : entry_TSTcT k s D an (abc c1) (abc c2) = abE (entry_TSTcT k s D an c1 c2).
  Proof. unfold entry_TSTcT, TSTcT_exists, TSTcT_path, TiSTcT_exists, TiSTcT_path, TeSTcT_exists, TeSTcT_path. ab_entry c1 c2. Qed.
  Lemma ab_TcTST : entry_TcTST k s D an (abc c1) (abc c2) = abE (entry_TcTST k s D an c1 c2).
  Proof. unfold entry_TcTST, TcTST_exists, TcTST_path, TcTiST_exists, TcTiST_path, TcTeST_exists, TcTeST_path. ab_entry c1 c2. Qed.
  Lemma ab_TcTSTcT : entry_TcTSTcT k s D an (abc c1) (abc c2) = abE (entry_TcTSTcT k s D an c1 c2).
  Proof. unfold entry_TcTSTcT, TcTSTcT_exists, TcTSTcT_path, TcTiSTcT_exists, TcTiSTcT_path, TcTeSTcT_exists, TcTeSTcT_path. ab_entry c1 c2. Qed.
  Lemma ab_TTcTT : entry_TTcTT k s D an (abc c1) (abc c2) = abE (entry_TTcTT k s D an c1 c2).
  Proof. unfold entry_TTcTT, TTcTT_exists, TTcTT_path, TTcTT_tangent_circles. ab_entry c1 c2. Qed.
  Lemma ab_TcTTcT : entry_TcTTcT k s D an (abc c1) (abc c2) = abE (entry_TcTTcT k s D an c1 c2).
  Proof. unfold entry_TcTTcT, TcTTcT_exists, TcTTcT_path, TcTTcT_tangent_circles. ab_entry c1 c2. Qed.
  Lemma ab_TTT : entry_TTT k s D an (abc c1) (abc c2) = abE (entry_TTT k s D an c1 c2).
  Proof. unfold entry_TTT, TTT_exists, TTT_path, TTT_tangent_circles. ab_entry c1 c2. Qed.
  Lemma ab_TcST : entry_TcST k s D an (abc c1) (abc c2) = abE (entry_TcST k s D an c1 c2).
  Proof. unfold entry_TcST, TcST_exists, TcST_path, TciST_exists, TciST_path, TceST_exists, TceST_path. ab_entry c1 c2. Qed.
  Lemma ab_TScT : entry_TScT k s D an (abc c1) (abc c2) = abE (entry_TScT k s D an c1 c2).
  Proof. unfold entry_TScT, TScT_exists, TScT_path, TiScT_exists, TiScT_path, TeScT_exists, TeScT_path. ab_entry c1 c2. Qed.
  Lemma ab_TcScT : entry_TcScT D an (abc c1) (abc c2) = abE (entry_TcScT D an c1 c2).
  Proof. unfold entry_TcScT, TcScT_exists, TcScT_path, TciScT_exists, TciScT_path, TceScT_exists, TceScT_path. ab_entry c1 c2. Qed.
End Pair.

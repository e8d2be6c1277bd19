(** * Candidates of ModelCC00D.v for a car that looks the other way *)
From Coq Require Import Reals ZArith List Lra Lia Bool.
From Verif Require Import Base ModelUtil ModelIntegrate ModelCircle ModelPaths ModelCC00D Num UtilProofs SpecPath SpecTurn PoseAlg TurnProofs MotionProofs TurnBounds LegProofs TangentProofs PlanProofs PlanFamily PlanTactics RigidBase RigidTactics AboutBase.
Import ListNotations.
Open Scope R_scope.

Lemma TT_ab a b c1 c2 : TT_tangent_circles (abg a c1) (abg b c2) = ab (TT_tangent_circles c1 c2).
Proof. exact (gTT_ab (c_mu c1) a b c1 c2). Qed.
Lemma TiST_ab a b c1 c2 : TiST_tangent_circles (abg a c1) (abg b c2) = option_map ab2 (TiST_tangent_circles c1 c2).
Proof. exact (gTiST_ab (c_radius c1) (c_sin_mu c1) (c_cos_mu c1) a b c1 c2). Qed.
Lemma TeST_ab a b c1 c2 : TeST_tangent_circles (abg a c1) (abg b c2) = ab2 (TeST_tangent_circles c1 c2).
Proof. exact (gTeST_ab (c_radius c1) (c_sin_mu c1) (c_cos_mu c1) a b c1 c2). Qed.
Ltac ab_tan ::=
  match goal with
  | |- context [TT_tangent_circles ?X ?Y] =>
      let c1 := abcore X in let c2 := abcore Y in
      replace (TT_tangent_circles X Y) with (ab (TT_tangent_circles c1 c2)) by (symmetry; apply TT_ab);
      generalize (TT_tangent_circles c1 c2); intros ?
  | |- context [TiST_tangent_circles ?X ?Y] =>
      let c1 := abcore X in let c2 := abcore Y in
      replace (TiST_tangent_circles X Y) with (option_map ab2 (TiST_tangent_circles c1 c2)) by (symmetry; apply TiST_ab);
      destruct (TiST_tangent_circles c1 c2) as [[? ?]|]; cbn [option_map ab2 fst snd fbind]; unfold ab2; cbn [fst snd]; [|reflexivity]
  | |- context [TeST_tangent_circles ?X ?Y] =>
      let c1 := abcore X in let c2 := abcore Y in
      replace (TeST_tangent_circles X Y) with (ab2 (TeST_tangent_circles c1 c2)) by (symmetry; apply TeST_ab);
      destruct (TeST_tangent_circles c1 c2) as [? ?]; unfold ab2; cbn [fst snd]
  end.

Section Pair.
  Variables (k s D an : R) (c1 c2 : Circle).
  Lemma ab_TT : entry_TT D an (abc c1) (abc c2) = abE (entry_TT D an c1 c2).
  Proof. unfold entry_TT, TT_exists, TT_path. ab_entry c1 c2. Qed.
  Lemma ab_TST : entry_TST D an (abc c1) (abc c2) = abE (entry_TST D an c1 c2).
  Proof. unfold entry_TST, TST_exists, TST_path, TiST_exists, TiST_path, TeST_exists, TeST_path. ab_entry c1 c2. Qed.
  Lemma ab_TTT : entry_TTT k s D an (abc c1) (abc c2) = abE (entry_TTT k s D an c1 c2).
  Proof. unfold entry_TTT, TTT_exists, TTT_path, TTT_tangent_circles. ab_entry c1 c2. Qed.
End Pair.

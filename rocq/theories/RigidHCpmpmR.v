(** * Candidates of ModelHCpmpmR.v in a moved frame *)
From Coq Require Import Reals ZArith List Lra Lia Bool.
From Verif Require Import Base ModelUtil ModelIntegrate ModelCircle ModelPaths ModelHCpmpmR Num UtilProofs SpecPath SpecTurn PoseAlg TurnProofs MotionProofs TurnBounds LegProofs TangentProofs PlanProofs PlanFamily PlanTactics RigidBase RigidTactics.
Import ListNotations.
Open Scope R_scope.

Lemma TT_mv u v rho k s a b c1 c2 : far rho c1 c2 -> TT_tangent_circles k s (mvg u v rho a c1) (mvg u v rho b c2) = mvq u v rho (TT_tangent_circles k s c1 c2).
Proof. exact (gTT_move u v rho (p_mu (hc_cc_param k s)) a b c1 c2). Qed.
Lemma TcT_mv u v rho a b c1 c2 : far rho c1 c2 -> TcT_tangent_circles (mvg u v rho a c1) (mvg u v rho b c2) = mvq u v rho (TcT_tangent_circles c1 c2).
Proof. exact (gTcT_move u v rho (c_kappa c1) 0 a b c1 c2). Qed.
Lemma TiST_mv u v rho k s a b c1 c2 : TiST_tangent_circles k s (mvg u v rho a c1) (mvg u v rho b c2) = option_map (mvq2 u v rho) (TiST_tangent_circles k s c1 c2).
Proof. exact (gTiST_move u v rho (p_radius (hc_cc_param k s)) (p_sin_mu (hc_cc_param k s)) (p_cos_mu (hc_cc_param k s)) a b c1 c2). Qed.
Lemma TeST_mv u v rho k s a b c1 c2 : far rho c1 c2 -> TeST_tangent_circles k s (mvg u v rho a c1) (mvg u v rho b c2) = mvq2 u v rho (TeST_tangent_circles k s c1 c2).
Proof. exact (gTeST_move u v rho (p_radius (hc_cc_param k s)) (p_sin_mu (hc_cc_param k s)) (p_cos_mu (hc_cc_param k s)) a b c1 c2). Qed.
Ltac mv_tan ::=
  match goal with
  | |- context [TT_tangent_circles ?k ?s ?X ?Y] =>
      let c1 := core X in let c2 := core Y in
      lazymatch goal with _ : in_frame ?u ?v ?rho |- _ =>
        replace (TT_tangent_circles k s X Y) with (mvq u v rho (TT_tangent_circles k s c1 c2)) by (symmetry; apply TT_mv; far_tac);
        generalize (TT_tangent_circles k s c1 c2); intros ? end
  | |- context [TcT_tangent_circles ?X ?Y] =>
      let c1 := core X in let c2 := core Y in
      lazymatch goal with _ : in_frame ?u ?v ?rho |- _ =>
        replace (TcT_tangent_circles X Y) with (mvq u v rho (TcT_tangent_circles c1 c2)) by (symmetry; apply TcT_mv; far_tac);
        generalize (TcT_tangent_circles c1 c2); intros ? end
  | |- context [TiST_tangent_circles ?k ?s ?X ?Y] =>
      let c1 := core X in let c2 := core Y in
      lazymatch goal with _ : in_frame ?u ?v ?rho |- _ =>
        replace (TiST_tangent_circles k s X Y) with (option_map (mvq2 u v rho) (TiST_tangent_circles k s c1 c2)) by (symmetry; apply TiST_mv);
        let E := fresh "TI" in destruct (TiST_tangent_circles k s c1 c2) as [[? ?]|] eqn:E; cbn [option_map mvq2 fst snd fbind]; [|reflexivity] end
  | |- context [TeST_tangent_circles ?k ?s ?X ?Y] =>
      let c1 := core X in let c2 := core Y in
      lazymatch goal with _ : in_frame ?u ?v ?rho |- _ =>
        replace (TeST_tangent_circles k s X Y) with (mvq2 u v rho (TeST_tangent_circles k s c1 c2)) by (symmetry; apply TeST_mv; far_tac);
        destruct (TeST_tangent_circles k s c1 c2) as [? ?]; cbn [mvq2 fst snd] end
  end.

Section Pair.
  Variables (u v rho k s : R) (c1 c2 : Circle) (D an an' : R).
  Hypothesis UVR : in_frame u v rho.
  Hypothesis HD : D = center_distance c1 c2.
  Hypothesis HA : an = atan2 (c_yc c2 - c_yc c1) (c_xc c2 - c_xc c1).
  Hypothesis HA' : ang_eq an' (an + rho).
  Hypothesis HP : apart rho k s false false c1 c2.

  Lemma mv_TT : entry_TT k s D an' (mvc u v rho c1) (mvc u v rho c2) = mvE u v rho (entry_TT k s D an c1 c2).
  Proof. unfold entry_TT, TT_exists, TT_path. mv_entry HA'. Qed.
  Lemma mv_TcT : entry_TcT D an' (mvc u v rho c1) (mvc u v rho c2) = mvE u v rho (entry_TcT D an c1 c2).
  Proof. unfold entry_TcT, TcT_exists, TcT_path. mv_entry HA'. Qed.
  Lemma mv_TcTcT : entry_TcTcT k D an' (mvc u v rho c1) (mvc u v rho c2) = mvE u v rho (entry_TcTcT k D an c1 c2).
  Proof. unfold entry_TcTcT, TcTcT_exists, TcTcT_path, TcTcT_tangent_circles. mv_entry HA'. Qed.
  Lemma mv_TcTT : entry_TcTT k s D an' (mvc u v rho c1) (mvc u v rho c2) = mvE u v rho (entry_TcTT k s D an c1 c2).
  Proof. unfold entry_TcTT, TcTT_exists, TcTT_path, TcTT_tangent_circles. mv_entry HA'. Qed.
  Lemma mv_TTcT : entry_TTcT k s D an' (mvc u v rho c1) (mvc u v rho c2) = mvE u v rho (entry_TTcT k s D an c1 c2).
  Proof. unfold entry_TTcT, TTcT_exists, TTcT_path, TTcT_tangent_circles. mv_entry HA'. Qed.
  Lemma mv_TST : entry_TST k s D an' (mvc u v rho c1) (mvc u v rho c2) = mvE u v rho (entry_TST k s D an c1 c2).
  Proof. unfold entry_TST, TST_exists, TST_path, TiST_exists, TiST_path, TeST_exists, TeST_path. mv_entry HA'. Qed.
  Lemma mv_TSTcT : entry_TSTcT k s D an' (mvc u v rho c1) (mvc u v rho c2) = mvE u v rho (entry_TSTcT k s D an c1 c2).
  Proof. unfold entry_TSTcT, TSTcT_exists, TSTcT_path, TiSTcT_exists, TiSTcT_path, TeSTcT_exists, TeSTcT_path. mv_entry HA'. Qed.
  Lemma mv_TcTST : entry_TcTST k s D an' (mvc u v rho c1) (mvc u v rho c2) = mvE u v rho (entry_TcTST k s D an c1 c2).
  Proof. unfold entry_TcTST, TcTST_exists, TcTST_path, TcTiST_exists, TcTiST_path, TcTeST_exists, TcTeST_path. mv_entry HA'. Qed.
  Lemma mv_TcTSTcT : entry_TcTSTcT k s D an' (mvc u v rho c1) (mvc u v rho c2) = mvE u v rho (entry_TcTSTcT k s D an c1 c2).
  Proof. unfold entry_TcTSTcT, TcTSTcT_exists, TcTSTcT_path, TcTiSTcT_exists, TcTiSTcT_path, TcTeSTcT_exists, TcTeSTcT_path. mv_entry HA'. Qed.
  Lemma mv_TTcTT : entry_TTcTT k s D an' (mvc u v rho c1) (mvc u v rho c2) = mvE u v rho (entry_TTcTT k s D an c1 c2).
  Proof. unfold entry_TTcTT, TTcTT_exists, TTcTT_path, TTcTT_tangent_circles. mv_entry HA'. Qed.
  Lemma mv_TcTTcT : entry_TcTTcT k s D an' (mvc u v rho c1) (mvc u v rho c2) = mvE u v rho (entry_TcTTcT k s D an c1 c2).
  Proof. unfold entry_TcTTcT, TcTTcT_exists, TcTTcT_path, TcTTcT_tangent_circles. mv_entry HA'. Qed.
  Lemma mv_TTT : entry_TTT k s D an' (mvc u v rho c1) (mvc u v rho c2) = mvE u v rho (entry_TTT k s D an c1 c2).
  Proof. unfold entry_TTT, TTT_exists, TTT_path, TTT_tangent_circles. mv_entry HA'. Qed.
  Lemma mv_TcST : entry_TcST k s D an' (mvc u v rho c1) (mvc u v rho c2) = mvE u v rho (entry_TcST k s D an c1 c2).
  Proof. unfold entry_TcST, TcST_exists, TcST_path, TciST_exists, TciST_path, TceST_exists, TceST_path. mv_entry HA'. Qed.
  Lemma mv_TScT : entry_TScT k s D an' (mvc u v rho c1) (mvc u v rho c2) = mvE u v rho (entry_TScT k s D an c1 c2).
  Proof. unfold entry_TScT, TScT_exists, TScT_path, TiScT_exists, TiScT_path, TeScT_exists, TeScT_path. mv_entry HA'. Qed.
  Lemma mv_TcScT : entry_TcScT D an' (mvc u v rho c1) (mvc u v rho c2) = mvE u v rho (entry_TcScT D an c1 c2).
  Proof. unfold entry_TcScT, TcScT_exists, TcScT_path, TciScT_exists, TciScT_path, TceScT_exists, TceScT_path. mv_entry HA'. Qed.
End Pair.

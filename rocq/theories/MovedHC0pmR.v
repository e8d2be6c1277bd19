(** * The planner of ModelHC0pmR.v in a moved frame *)
From Coq Require Import Reals ZArith List Lra Lia Bool.
From Verif Require Import Base ModelUtil ModelIntegrate ModelCircle ModelPaths ModelHC0pmR Num UtilProofs SpecPath SpecTurn SpecSide SpecOpt SpecRigid PoseAlg TurnProofs PlanProofs PlanFamily RigidBase RigidTactics RigidTests RigidHC0pmR.
Import ListNotations.
Open Scope R_scope.

Ltac pair_hyps := first [exact I | eassumption | reflexivity].
Lemma table_mv u v rho k s c1 c2 :
    configuration_equal (mvq u v rho (c_start c1)) (mvq u v rho (c_start c2)) = configuration_equal (c_start c1) (c_start c2) ->
    (epsilon <= center_distance c1 c2 -> apart rho k s true false c1 c2) ->
    circles_table k s (mvc u v rho c1) (mvc u v rho c2) = map (mvE u v rho) (circles_table k s c1 c2).
Proof.
  intros QE HP. unfold circles_table. cbv zeta.
  change (c_start (mvc u v rho c1)) with (mvq u v rho (c_start c1)). change (c_start (mvc u v rho c2)) with (mvq u v rho (c_start c2)).
  change (center_distance (mvc u v rho c1) (mvc u v rho c2)) with (center_distance (mvg u v rho (mvq u v rho (c_start c1)) c1) (mvg u v rho (mvq u v rho (c_start c2)) c2)).
  rewrite center_move, QE.
  destruct (configuration_equal (c_start c1) (c_start c2)); [reflexivity|].
  destruct (Rltb (center_distance c1 c2) epsilon) eqn:QT; [mv_fields; repeat mv_rest; reflexivity|].
  apply Rltb_false in QT. specialize (HP ltac:(lra)).
  assert (FA : far rho c1 c2) by (destruct HP as [Z|[Z _]]; [left|right]; exact Z).
  pose proof (atan_move u v rho c1 c2 FA) as HA. mv_fields.
  cbn [map].
  apply f_equal2; [reflexivity|].
  apply f_equal2; [reflexivity|].
  apply f_equal2; [reflexivity|].
  apply f_equal2; [eapply mv_TT; pair_hyps|].
  apply f_equal2; [eapply mv_TcT; pair_hyps|].
  apply f_equal2; [eapply mv_TcTcT; pair_hyps|].
  apply f_equal2; [eapply mv_TcTT; pair_hyps|].
  apply f_equal2; [eapply mv_TTcT; pair_hyps|].
  apply f_equal2; [eapply mv_TST; pair_hyps|].
  apply f_equal2; [eapply mv_TSTcT; pair_hyps|].
  apply f_equal2; [eapply mv_TcTST; pair_hyps|].
  apply f_equal2; [eapply mv_TcTSTcT; pair_hyps|].
  apply f_equal2; [eapply mv_TTcTT; pair_hyps|].
  apply f_equal2; [eapply mv_TcTTcT; pair_hyps|].
  apply f_equal2; [eapply mv_TTT; pair_hyps|].
  apply f_equal2; [eapply mv_TcST; pair_hyps|].
  apply f_equal2; [eapply mv_TScT; pair_hyps|].
  apply f_equal2; [eapply mv_TcScT; pair_hyps|].
  reflexivity.
Qed.
Lemma controls_mv u v rho (p : HPath hc_cc_rs_type) : path_controls (mvP u v rho p) = path_controls p.
Proof.
  destruct p as [t a b e]. destruct e as [L q1 q2 q3 q4 ca cb cc cd]. unfold path_controls, mvP, mvE; cbn [h_entry h_type h_start h_end e_length e_qi1 e_qi2 e_qi3 e_qi4 e_cstart e_cend e_ci1 e_ci2].
  destruct t; repeat match goal with |- context [option_map _ ?o] => destruct o; cbn [option_map fbind]; [|reflexivity] end;
    rewrite ?cc_ctl_move, ?hc_ctl_move, ?rs_ctl_move, ?straight_ctl_move; reflexivity.
Qed.
Lemma start_is (k s : R) s1 s2 i j c : skipped s1 s2 i j = false -> nth_error (start_circles k s s1) i = Some c ->
  exists a l f, c = circle a l f true (hc_cc_param k s) /\ at_conf s1 a /\ std a.
Proof.
  unfold skipped, start_circles. intros SK. destruct i as [|[|[|[|n]]]]; cbn [nth_error]; intros E; try (destruct n; discriminate E); injection E as <-;
    (do 3 eexists; split; [reflexivity|split; [apply at_configuration|apply std_conf]]).
Qed.
Lemma end_is (k s : R) s1 s2 i j c : skipped s1 s2 i j = false -> nth_error (end_circles k s2) j = Some c ->
  exists a l f, c = circle a l f true (rs_param k) /\ at_conf s2 a /\ std a.
Proof.
  unfold skipped, end_circles. intros SK. destruct j as [|[|[|[|n]]]]; cbn [nth_error]; intros E; try (destruct n; discriminate E); injection E as <-;
    (do 3 eexists; split; [reflexivity|split; [apply at_configuration|apply std_conf]]).
Qed.
Lemma plan_mv u v rho (k s : R) s1 s2 : rho = 0 \/ 0 < k /\ 0 < s /\ epsilon < k / s /\ distinct s1 s2 ->
  hc0pm_reeds_shepp k s (rigid u v rho s1) (rigid u v rho s2) = option_map (mvP u v rho) (hc0pm_reeds_shepp k s s1 s2).
Proof.
  intros H. unfold hc0pm_reeds_shepp. rewrite <- select_path_move. f_equal. unfold paths.
  assert (S1 : start_circles k s (rigid u v rho s1) = map (mvc u v rho) (start_circles k s s1)) by (unfold start_circles; cbn [map]; rewrite !mv_conf_of, !circle_mvq; reflexivity).
  assert (S2 : end_circles k (rigid u v rho s2) = map (mvc u v rho) (end_circles k s2)) by (unfold end_circles; cbn [map]; rewrite !mv_conf_of, !circle_mvq; reflexivity).
  rewrite S1, S2. change (skipped (rigid u v rho s1) (rigid u v rho s2)) with (skipped s1 s2). apply paths_move. intros i j c1 c2 SK N1 N2.
  destruct (start_is k s s1 s2 i j c1 SK N1) as (a & l1 & f1 & E1 & A & SA). destruct (end_is k s s1 s2 i j c2 SK N2) as (b & l2 & f2 & E2 & B & SB). subst c1 c2. set (c1 := circle a _ _ _ _) in *. set (c2 := circle b _ _ _ _) in *.
  unfold hc0pm_circles_rs_path. change (c_start (mvc u v rho c1)) with (mvq u v rho (c_start c1)). change (c_start (mvc u v rho c2)) with (mvq u v rho (c_start c2)).
  rewrite table_mv; [apply select_entry_move|..]; unfold c1, c2; rewrite ?circle_start.
  - apply (equal_move u v rho s1 s2); try assumption. destruct H as [Z|(Hk & Hs & HE & DI)]; [left; exact Z|right; exact DI].
  - intros ED. destruct H as [Z|(Hk & Hs & HE & DI)]; [left; exact Z|]. apply apart_0pm; try assumption. unfold epsilon in ED. lra.
Qed.
Theorem hc0pm_reeds_shepp_moved u v rho (k s : R) s1 s2 : rho = 0 \/ 0 < k /\ 0 < s /\ epsilon < k / s /\ distinct s1 s2 ->
  get_distance k s (rigid u v rho s1) (rigid u v rho s2) = get_distance k s s1 s2 /\ get_controls k s (rigid u v rho s1) (rigid u v rho s2) = get_controls k s s1 s2.
Proof.
  intros H. unfold get_distance, get_controls. rewrite (plan_mv u v rho k s s1 s2 H). split; [apply path_distance_move|].
  destruct (hc0pm_reeds_shepp k s s1 s2); [apply controls_mv|reflexivity].
Qed.
Theorem hc0pm_reeds_shepp_turns (k s : R) s1 s2 s1' s2' : same_but_turns s1 s1' -> same_but_turns s2 s2' -> get_distance k s s1' s2' = get_distance k s s1 s2 /\ get_controls k s s1' s2' = get_controls k s s1 s2.
Proof.
  intros (X1 & Y1 & [n1 T1] & K1) (X2 & Y2 & [n2 T2] & K2).
  assert (S1 : start_circles k s s1' = start_circles k s s1) by (unfold start_circles; rewrite X1, Y1; rewrite ?(conf_turns (st_x s1) (st_y s1) (st_theta s1') (st_theta s1)) by (exists n1; exact T1); reflexivity).
  assert (S2 : end_circles k s2' = end_circles k s2) by (unfold end_circles; rewrite X2, Y2; rewrite ?(conf_turns (st_x s2) (st_y s2) (st_theta s2') (st_theta s2)) by (exists n2; exact T2); reflexivity).
  unfold get_distance, get_controls. assert (P : hc0pm_reeds_shepp k s s1' s2' = hc0pm_reeds_shepp k s s1 s2); [|rewrite P; split; reflexivity].
  unfold hc0pm_reeds_shepp, paths. rewrite S1, S2. unfold skipped. rewrite ?K1, ?K2. reflexivity.
Qed.

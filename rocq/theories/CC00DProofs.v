(** * CC00_Dubins_State_Space *)
From Coq Require Import Reals ZArith List Lra Lia Bool.
From Verif Require Import Base ModelUtil ModelCircle ModelPaths ModelCC00D Num UtilProofs SpecPath SpecTurn SpecPlan PoseAlg TurnProofs MotionProofs TurnBounds LegProofs TangentProofs PlanProofs PlanTactics PlanBounds PlanEnds.
Import ListNotations.
Open Scope R_scope.

Lemma TT_good k s a b fw l1 l2 c1 c2 D L q : 0 < k -> 0 < s -> c1 = circle a l1 fw true (hc_cc_param k s) -> c2 = circle b l2 (negb fw) true (hc_cc_param k s) ->
  D = center_distance c1 c2 -> TT_exists D c1 c2 = true -> TT_path c1 c2 = (L, q) ->
  good k s (epsilon / 2) 2 a b 0 0 (cc_turn_controls c1 q true ++ cc_turn_controls c2 q false) L.
Proof.
  intros Hk Hs H1 H2 HD X P. setup. unfold TT_exists in X. rewrite EL1, EL2, F1, F2, R1 in X. flags X. bounds X.
  open TT_path in P. steps P. subst D.
  destruct (joint_TT_gap k s Hk Hs _ c1 c2 l1 fw _ Q M1 EL1 F1 X) as (h & O3 & O4 & GH).
  eapply (by_chain k s Hk Hs _ [LC c1 q0 true; LC c2 q0 false] _ _ [(0, 0); (0, 0)]).
  - lra.
  - discriminate.
  - subst c1 c2. eapply ch_cons; [apply conf_eq_refl| |eapply ch_cons; [apply conf_eq_refl| |apply ch_nil, conf_eq_refl]].
    + apply ok_cc. eapply mk_cc_gap; [exact O1|exact O3|]. apply (GH (- sign fw) (sign l1)); [apply pm1_opp|]; apply pm1_sign.
    + apply ok_cc'. eapply mk_cc_gap; [eapply off_conv; [exact O2|sring|sring]|exact O4|].
      rewrite !sign_negb, Ropp_involutive. apply (GH (sign fw) (- sign l1)); [|apply pm1_opp]; apply pm1_sign.
  - cbn; auto.
  - unfold legs_controls; cbn [flat_map leg_controls]; rewrite ?app_nil_r; reflexivity.
  - unfold legs_length; cbn [fold_right leg_length]; ring.
  - cbn [length INR]; ring.
Qed.
Lemma TST_good k s a b fw l1 l2 c1 c2 D L q1 q2 : 0 < k -> 0 < s -> c1 = circle a l1 fw true (hc_cc_param k s) -> c2 = circle b l2 (negb fw) true (hc_cc_param k s) ->
  TST_path D c1 c2 = Some (L, q1, q2) ->
  good k s 0 3 a b 0 0 (cc_turn_controls c1 q1 true ++ straight_controls q1 q2 ++ cc_turn_controls c2 q2 false) L.
Proof.
  intros Hk Hs H1 H2 P. setup. unfold TST_path, TiST_exists, TeST_exists in P. rewrite EL1, EL2, F1, F2, R1, SM1 in P. flags P.
  - step P; [|discriminate]. step P. unfold TeST_path in P.
    destruct (TeST_tangent_circles c1 c2) as [u1 u2] eqn:T. steps P.
    destruct (joint_TeST k s _ _ _ c1 c2 l1 fw _ _ T R1 SM1 CM1 EL1 F1) as (O3 & O4 & ST).
    close.
  - open TiST_path in P. step P; [|discriminate]. destruct (TiST_tangent_circles c1 c2) as [[u1 u2]|] eqn:T; [|discriminate]. steps P.
    destruct (joint_TiST k s _ _ _ c1 c2 l1 fw _ _ T R1 SM1 CM1 EL1 F1) as (O3 & O4 & ST).
    close.
Qed.
Lemma TTT_good k s a b fw l1 l2 c1 c2 D an L q1 q2 ci : 0 < k -> 0 < s -> c1 = circle a l1 fw true (hc_cc_param k s) -> c2 = circle b l2 (negb fw) true (hc_cc_param k s) ->
  D = center_distance c1 c2 -> an = atan2 (c_yc c2 - c_yc c1) (c_xc c2 - c_xc c1) ->
  TTT_exists D c1 c2 = true -> TTT_path k s D an c1 c2 = Some (L, q1, q2, ci) ->
  good k s 0 3 a b 0 0 (cc_turn_controls c1 q1 true ++ cc_turn_controls ci q2 true ++ cc_turn_controls c2 q2 false) L.
Proof.
  intros Hk Hs H1 H2 HD HA X P. setup. unfold TTT_exists in X. rewrite EL1, EL2, F1, F2, R1 in X. flags X.
  open TTT_path in P. open TTT_tangent_circles in P. rewrite EL1, F1, G1, R1 in P. steps P.
  all: tgts; dist_as (2 * p_radius (hc_cc_param k s)); joint_all; close.
Qed.
Lemma table_good k s a b fw l1 l2 c1 c2 t e L : 0 < k -> 0 < s ->
  c1 = circle a l1 fw true (hc_cc_param k s) -> c2 = circle b l2 (negb fw) true (hc_cc_param k s) ->
  In (t, e) (combine cc_dubins_types (circles_table k s fw c1 c2)) -> e_length e = Some L -> L < DBL_MAX ->
  exists cs, path_controls (mkHPath t a b e) = Some cs /\ good k s (dubins_gap k s t) (dubins_pieces t) a b 0 0 cs L.
Proof.
  intros Hk Hs H1 H2 IN EL LM.
  assert (S1 : c_start c1 = a) by (subst c1; apply circle_all). assert (S2 : c_start c2 = b) by (subst c2; apply circle_all).
  assert (NO : forall t', In (t, e) [(t', no_entry)] -> False).
  { intros t' [E|[]]. apply pair_equal_spec in E. destruct E as [_ <-]. cbn in EL. injection EL as <-. lra. }
  unfold circles_table in IN. rewrite S1, S2 in IN. unfold cc_dubins_types in IN.
  Ltac others NO := match goal with IN : _ \/ _ |- _ => destruct IN as [IN|IN]; [try (exfalso; eapply NO; left; exact IN)|others NO] | IN : False |- _ => destruct IN | _ => idtac end.
  destruct (configuration_equal a b) eqn:QE; [|destruct (fw && configuration_aligned a b) eqn:QF; [|destruct (negb fw && configuration_aligned b a) eqn:QB;
    [|destruct (configuration_on_hc_cc_circle c1 b) eqn:QT]]]; cbn [combine In] in IN; others NO;
    try (apply pair_equal_spec in IN; destruct IN as [<- <-]; cbn [e_length] in EL).
  - injection EL as <-. exists empty_controls. split; [reflexivity|]. exact (equal_good k s Hk Hs a b QE).
  - injection EL as <-. exists (straight_controls a b). split; [reflexivity|]. apply andb_prop in QF. exact (aligned_forward k s Hk Hs a b (proj2 QF)).
  - injection EL as <-. exists (straight_controls a b). split; [reflexivity|]. apply andb_prop in QB. exact (aligned_backward k s Hk Hs a b (proj2 QB)).
  - injection EL as <-. exists (cc_turn_controls c1 b true). split; [reflexivity|]. subst c1. exact (T_cc k s Hk Hs a b l1 fw true true QT).
  - unfold entry_TT in *. destruct (TT_exists _ c1 c2) eqn:EX; [|exfalso; eapply NO; left; reflexivity].
    destruct (TT_path c1 c2) as [len q] eqn:PA. cbn [e_length] in EL. injection EL as ->.
    eexists. split; [reflexivity|]. exact (TT_good k s a b fw l1 l2 c1 c2 _ L q Hk Hs H1 H2 eq_refl EX PA).
  - unfold entry_TST in *. destruct (TST_exists _ c1 c2) eqn:EX; [|exfalso; eapply NO; left; reflexivity].
    destruct (TST_path _ c1 c2) as [[[len q1] q2]|] eqn:PA; [|discriminate]. cbn [e_length] in EL. injection EL as ->.
    eexists. split; [reflexivity|]. exact (TST_good k s a b fw l1 l2 c1 c2 _ L q1 q2 Hk Hs H1 H2 PA).
  - unfold entry_TTT in *. destruct (TTT_exists _ c1 c2) eqn:EX; [|exfalso; eapply NO; left; reflexivity].
    destruct (TTT_path _ _ _ _ c1 c2) as [[[[len q1] q2] ci]|] eqn:PA; [|discriminate]. cbn [e_length] in EL. injection EL as ->.
    eexists. split; [reflexivity|]. exact (TTT_good k s a b fw l1 l2 c1 c2 _ _ L q1 q2 ci Hk Hs H1 H2 eq_refl eq_refl EX PA).
Qed.

Lemma circles_of k s fw s1 s2 i j c1 c2 : nth_error (start_circles k s fw s1) i = Some c1 -> nth_error (end_circles k s fw s2) j = Some c2 ->
  exists l1 l2, c1 = circle (configuration (st_x s1) (st_y s1) (st_theta s1) 0) l1 fw true (hc_cc_param k s) /\
    c2 = circle (configuration (st_x s2) (st_y s2) (st_theta s2) 0) l2 (negb fw) true (hc_cc_param k s).
Proof.
  unfold start_circles, end_circles. intros A B.
  destruct fw; destruct i as [|[|[|]]]; try discriminate; destruct j as [|[|[|]]]; try discriminate; cbn [nth_error] in A, B; apply (f_equal (fun o => match o with Some x => x | None => c1 end)) in A; apply (f_equal (fun o => match o with Some x => x | None => c2 end)) in B; cbv beta iota in A, B; subst; eexists _, _; split; reflexivity.
Qed.

Theorem cc00_dubins_drives k s fw s1 s2 p L : 0 < k -> 0 < s -> cc00_dubins k s fw s1 s2 = Some p -> e_length (h_entry p) = Some L -> L < DBL_MAX ->
  exists cs, path_controls p = Some cs /\ drives k s (dubins_pieces (h_type p)) (dubins_gap k s (h_type p)) s1 s2 cs L /\ curvature_chain 0 cs 0 /\ cs <> [].
Proof.
  intros Hk Hs P EL LM. apply select_path_in in P. unfold paths in P. apply paths_in in P. destruct P as (i & j & c1 & c2 & _ & N1 & N2 & S).
  destruct (circles_of _ _ _ _ _ _ _ _ _ N1 N2) as (l1 & l2 & H1 & H2).
  unfold cc00_circles_dubins_path in S. apply select_entry_in in S. destruct S as (IN & ST & EN).
  assert (S1 : c_start c1 = configuration (st_x s1) (st_y s1) (st_theta s1) 0) by (subst c1; apply circle_all).
  assert (S2 : c_start c2 = configuration (st_x s2) (st_y s2) (st_theta s2) 0) by (subst c2; apply circle_all).
  destruct (table_good k s _ _ fw l1 l2 c1 c2 _ _ L Hk Hs H1 H2 IN EL LM) as (cs & PC & G).
  exists cs. destruct p as [t u v e]; cbn [h_type h_entry h_start h_end] in *. rewrite <- S1, <- ST, <- S2, <- EN in PC. split; [exact PC|].
  exact (good_drives _ _ _ _ _ _ _ _ _ _ s1 s2 Hk Hs (at_configuration _ _) (at_configuration _ _) G).
Qed.

(** ** Some candidate always exists *)
Section Existence.
  Variables (k s : R) (fw : bool) (s1 s2 : State).
  Hypothesis Hk : 0 < k.
  Hypothesis Hs : 0 < s.
  Local Notation r := (p_radius (hc_cc_param k s)).
  Let T := 2 * r + 2 * (k / s) + 2 * PI / k.
  Let a := configuration (st_x s1) (st_y s1) (st_theta s1) 0.
  Let b := configuration (st_x s2) (st_y s2) (st_theta s2) 0.
  Let c1 := circle a true fw true (hc_cc_param k s).
  Let c2 := circle b true (negb fw) true (hc_cc_param k s).

  Lemma states_dist : configuration_distance a b = pos_dist s1 s2.
  Proof. unfold configuration_distance, point_distance, pos_dist, a, b, configuration; cbn [q_x q_y]. f_equal. ring. Qed.

  Lemma table_some : exists e w, In e (circles_table k s fw c1 c2) /\ e_length e = Some w /\ w <= pos_dist s1 s2 + 3 * T + 2 * r.
  Proof.
    pose proof (radius_nonneg k s Hk Hs) as RP. assert (KS : 0 < k / s) by (apply Rdiv_lt_0_compat; lra).
    pose proof PI_RGT_0. assert (PK : 0 < 2 * PI / k) by (apply Rdiv_lt_0_compat; lra). assert (TP : 2 * r <= T) by (unfold T; lra).
    assert (DP : 0 <= pos_dist s1 s2) by apply sqrt_pos.
    assert (S1 : c_start c1 = a) by apply circle_all. assert (S2 : c_start c2 = b) by apply circle_all.
    unfold circles_table. rewrite S1, S2.
    destruct (configuration_equal a b); [eexists _, 0; split; [left; reflexivity|split; [reflexivity|lra]]|].
    destruct (fw && _).
    { eexists _, (configuration_distance a b). split; [right; left; reflexivity|split; [reflexivity|]]. rewrite states_dist. lra. }
    destruct (negb fw && _).
    { eexists _, (configuration_distance b a). split; [right; left; reflexivity|split; [reflexivity|]]. rewrite conf_dist_sym, states_dist. lra. }
    destruct (configuration_on_hc_cc_circle c1 b).
    { eexists _, (cc_turn_length c1 b). split; [right; right; left; reflexivity|split; [reflexivity|]]. pose proof (cc_turn_bound k s Hk Hs a true fw true b) as CB. fold c1 T in CB. lra. }
    destruct (circle_set k s c1 a true fw true eq_refl) as (EL1 & F1 & G1 & R1 & M1 & SM1 & CM1 & _).
    destruct (circle_set k s c2 b true (negb fw) true eq_refl) as (EL2 & F2 & G2 & R2 & M2 & SM2 & CM2 & _).
    set (D := center_distance c1 c2). set (an := atan2 (c_yc c2 - c_yc c1) (c_xc c2 - c_xc c1)).
    assert (DB : D <= r + pos_dist s1 s2 + r).
    { rewrite <- states_dist. apply centre_far; apply (circle_far k s Hk Hs). }
    assert (D0 : 0 <= D) by apply sqrt_pos. destruct (mu_sin k s Hk Hs) as [SM _].
    assert (SB : p_sin_mu (hc_cc_param k s) <= 1) by (rewrite SM; apply SIN_bound).
    assert (SB2 : -1 <= p_sin_mu (hc_cc_param k s)) by (rewrite SM; apply SIN_bound).
    destruct (Rle_dec (2 * r * p_sin_mu (hc_cc_param k s)) D) as [LE|NLE].
    - exists (entry_TST D an c1 c2). unfold entry_TST, TST_exists, TST_path, TiST_exists, TeST_exists. rewrite EL1, EL2, F1, F2, R1, SM1, eqb_negb_r.
      cbn [eqb negb orb]. unfold Rleb. destruct (Rle_dec _ _) as [_|]; [|contradiction]. unfold TeST_path. destruct (TeST_tangent_circles c1 c2) as [q1 q2] eqn:TE.
      destruct (TeST_off (c_radius c1) (c_sin_mu c1) (c_cos_mu c1) c1 c2 q1 q2 TE) as (_ & _ & SB'). fold D in SB'.
      eexists. split; [do 4 right; left; reflexivity|split; [reflexivity|]]. rewrite (straight_by_dist _ _ _ SB'), F1, SM1, R1.
      pose proof (cc_turn_bound k s Hk Hs a true fw true q1) as B1. pose proof (cc_turn_bound k s Hk Hs b true (negb fw) true q2) as B2. fold c1 T in B1. fold c2 T in B2.
      rewrite Rabs_mult. replace (Rabs (sign fw)) with 1 by (destruct fw; unfold sign; [rewrite Rabs_R1|rewrite Rabs_left]; lra). rewrite Rmult_1_l.
      assert (Rabs (D - 2 * (r * p_sin_mu (hc_cc_param k s))) <= D + 2 * r) by (apply Rabs_le; nra). lra.
    - assert (D4 : D <= 4 * r) by nra. exists (entry_TTT k s D an c1 c2). unfold entry_TTT, TTT_exists. rewrite EL1, EL2, F1, F2, R1, eqb_negb_r.
      cbn [eqb negb]. unfold Rleb. destruct (Rle_dec _ _) as [_|]; [|contradiction]. unfold TTT_path, TTT_tangent_circles. rewrite EL1, F1, G1, R1.
      unfold fsqrt. destruct (Rlt_dec _ 0) as [NEG|_]; [exfalso; nra|]. cbn [fbind].
      destruct (global_frame_change (c_xc c1) (c_yc c1) an (5 / 10 * D) (sqrt _)) as [x y]. destruct (global_frame_change (c_xc c1) (c_yc c1) an (5 / 10 * D) (- sqrt _)) as [x' y'].
      cbn [fbind]. set (qa := TT_tangent_circles c1 _). set (qb := TT_tangent_circles _ c2). set (qc := TT_tangent_circles c1 _). set (qd := TT_tangent_circles _ c2).
      destruct (Rltb _ _).
      all: eexists; split; [do 5 right; left; reflexivity|split; [reflexivity|]].
      + pose proof (cc_turn_bound k s Hk Hs a true fw true qa) as B1. pose proof (cc_turn_bound k s Hk Hs b true (negb fw) true qb) as B2. fold c1 T in B1. fold c2 T in B2.
        pose proof (cc_turn_bound k s Hk Hs qa (negb true) fw true qb) as B3. fold T in B3. lra.
      + pose proof (cc_turn_bound k s Hk Hs a true fw true qc) as B1. pose proof (cc_turn_bound k s Hk Hs b true (negb fw) true qd) as B2. fold c1 T in B1. fold c2 T in B2.
        pose proof (cc_turn_bound k s Hk Hs qc (negb true) fw true qd) as B3. fold T in B3. lra.
  Qed.
  Lemma table_first d1 d2 : exists x0, nth_error (map e_length (circles_table k s fw d1 d2)) 0 = Some (Some x0).
  Proof.
    unfold circles_table. destruct (configuration_equal _ _); [eexists; reflexivity|]. destruct (fw && _); [eexists; reflexivity|].
    destruct (negb fw && _); [eexists; reflexivity|]. destruct (configuration_on_hc_cc_circle _ _); eexists; reflexivity.
  Qed.
  Lemma table_length d1 d2 : (length (circles_table k s fw d1 d2) <= length cc_dubins_types)%nat.
  Proof.
    unfold circles_table. destruct (configuration_equal _ _); [cbn; lia|]. destruct (fw && _); [cbn; lia|].
    destruct (negb fw && _); [cbn; lia|]. destruct (configuration_on_hc_cc_circle _ _); cbn; lia.
  Qed.
  Theorem cc00_dubins_exists : pos_dist s1 s2 + 3 * T + 2 * r < DBL_MAX ->
    exists p L, cc00_dubins k s fw s1 s2 = Some p /\ e_length (h_entry p) = Some L /\ L < DBL_MAX /\ L <= pos_dist s1 s2 + 3 * T + 2 * r.
  Proof.
    intros LM. destruct table_some as (e & w & IN & EL & LE).
    destruct (plan_exists cc_dubins_types (circles_table k s fw) (skipped s1 s2) (start_circles k s fw s1) (end_circles k s fw s2) 2 2 0 0 c1 c2 e w) as (p & L & S & EP & LM' & LW);
      try assumption; try reflexivity; try lia; try apply table_first; try apply table_length; try lra.
    - unfold start_circles, c1, a. destruct fw; reflexivity.
    - unfold end_circles, c2, b. destruct fw; reflexivity.
    - exists p, L. split; [exact S|split; [exact EP|split; [exact LM'|lra]]].
  Qed.
End Existence.

Theorem cc00_dubins_plan k s fw s1 s2 : 0 < k -> 0 < s -> pos_dist s1 s2 + detour k s < DBL_MAX ->
  exists t L cs, get_distance k s fw s1 s2 = Some (Some L) /\ get_controls k s fw s1 s2 = Some cs /\ L <= pos_dist s1 s2 + detour k s /\
    drives k s (dubins_pieces t) (dubins_gap k s t) s1 s2 cs L /\ curvature_chain 0 cs 0 /\ cs <> [].
Proof.
  intros Hk Hs LM.
  assert (B : 3 * (2 * p_radius (hc_cc_param k s) + 2 * (k / s) + 2 * PI / k) + 2 * p_radius (hc_cc_param k s) <= detour k s).
  { pose proof (radius_le k s Hk Hs) as RL. pose proof FresProofs.PI_gt as PG. assert (0 < k / s) by (apply Rdiv_lt_0_compat; lra). unfold detour.
    assert (IK : 0 < / k) by (apply Rinv_0_lt_compat; lra). assert (PI * / k <= 4 * / k) by (apply Rmult_le_compat_r; lra). replace (2 * PI / k) with (2 * (PI * / k)) by (field; lra).
    replace (2 / k) with (2 * / k) in RL by (field; lra). replace (1 / k) with (/ k) by (field; lra). lra. }
  destruct (cc00_dubins_exists k s fw s1 s2 Hk Hs ltac:(lra)) as (p & L & P & EL & LM' & LE).
  destruct (cc00_dubins_drives k s fw s1 s2 p L Hk Hs P EL LM') as (cs & PC & DR & CC & NE).
  exists (h_type p), L, cs. unfold get_distance, get_controls. rewrite P. unfold path_distance. rewrite EL. repeat (split; [first [reflexivity|assumption|lra]|]). exact NE.
Qed.

(** * Driving direction of the planner of ModelCC00D.v *)
From Coq Require Import Reals ZArith List Lra Lia Bool.
From Verif Require Import Base ModelUtil ModelCircle ModelPaths ModelCC00D Num UtilProofs SpecPath SpecTurn SpecPlan SpecDir PoseAlg TurnProofs MotionProofs TurnBounds LegProofs TangentProofs PlanProofs PlanTactics PlanHybrid PlanFamily PlanEnds PlanBounds PlanSelect DirProofs.
From Verif Require CC00DProofs.
Import ListNotations.
Open Scope R_scope.

Lemma TT_dir k s a b fw l1 l2 c1 c2 D L q : 0 < k -> 0 < s -> c1 = circle a l1 fw true (hc_cc_param k s) -> c2 = circle b l2 (negb fw) true (hc_cc_param k s) ->
  D = center_distance c1 c2 -> TT_exists D c1 c2 = true -> TT_path c1 c2 = (L, q) ->
  aimed k s (epsilon / 2) fw (cc_turn_controls c1 q true ++ cc_turn_controls c2 q false).
Proof.
  intros Hk Hs H1 H2 HD X P. setup2. cbv beta delta [TT_path] in P. unfold TT_exists in X; conditions X; fields_in P; steps P.
  all: circles_dir.
Qed.
Lemma TST_dir k s a b fw l1 l2 c1 c2 D L q1 q2 : 0 < k -> 0 < s -> c1 = circle a l1 fw true (hc_cc_param k s) -> c2 = circle b l2 (negb fw) true (hc_cc_param k s) ->
  D = center_distance c1 c2 -> TST_path D c1 c2 = Some (L, q1, q2) ->
  aimed k s 0 fw (cc_turn_controls c1 q1 true ++ straight_controls q1 q2 ++ cc_turn_controls c2 q2 false).
Proof.
  intros Hk Hs H1 H2 HD P. setup2. cbv beta delta [TST_path TiST_path TeST_path] in P. fields_in P; steps P.
  all: repeat match goal with B : TiST_exists _ _ _ = true |- _ => unfold TiST_exists in B; conditions B | B : TeST_exists _ _ _ = true |- _ => unfold TeST_exists in B; conditions B end.
  all: circles_dir.
Qed.
Lemma TTT_dir k s a b fw l1 l2 c1 c2 D an L q1 q2 ci : 0 < k -> 0 < s -> c1 = circle a l1 fw true (hc_cc_param k s) -> c2 = circle b l2 (negb fw) true (hc_cc_param k s) ->
  D = center_distance c1 c2 -> an = atan2 (c_yc c2 - c_yc c1) (c_xc c2 - c_xc c1) ->
  TTT_exists D c1 c2 = true -> TTT_path k s D an c1 c2 = Some (L, q1, q2, ci) ->
  aimed k s 0 fw (cc_turn_controls c1 q1 true ++ cc_turn_controls ci q2 true ++ cc_turn_controls c2 q2 false).
Proof.
  intros Hk Hs H1 H2 HD HA X P. setup2. cbv beta delta [TTT_path TTT_tangent_circles] in P. unfold TTT_exists in X; conditions X; fields_in P; steps P.
  all: circles_dir.
Qed.
Lemma T_dir k s a b l f : 0 < k -> 0 < s -> configuration_on_hc_cc_circle (circle a l f true (hc_cc_param k s)) b = true ->
  aimed k s (dubins_gap k s D_T) f (cc_turn_controls (circle a l f true (hc_cc_param k s)) b true).
Proof.
  intros Hk Hs T. destruct (gap_T k s Hk Hs) as (EP & RP & KP & G0 & G1 & _).
  destruct (circle_set k s _ a l f true eq_refl) as (EL1 & F1 & G & R1 & M1 & SM1 & CM1 & _). destruct (mu_sin k s Hk Hs) as [SM CM].
  apply on_circle_gap in T; [|congruence|congruence|rewrite R1; exact RP]. rewrite R1 in T.
  unfold aimed. replace (sign f) with (wsign f true) by same_way. apply (onward_cc k s Hk Hs); unfold dubins_gap; [lra|]. unfold cc_tangent in *. lra.
Qed.
Lemma table_dir k s a b fw l1 l2 c1 c2 t e L : 0 < k -> 0 < s ->
  c1 = circle a l1 fw true (hc_cc_param k s) -> c2 = circle b l2 (negb fw) true (hc_cc_param k s) ->
  In (t, e) (combine cc_dubins_types (circles_table k s fw c1 c2)) -> e_length e = Some L -> L < DBL_MAX ->
  exists cs, path_controls (mkHPath t a b e) = Some cs /\ aimed k s (dubins_gap k s t) fw cs.
Proof.
  intros Hk Hs H1 H2 IN EL LM. pose proof (gap_nonneg k s D_E Hk Hs) as GE.
  assert (S1 : c_start c1 = a) by (subst c1; apply circle_all). assert (S2 : c_start c2 = b) by (subst c2; apply circle_all).
  unfold circles_table in IN. rewrite S1, S2 in IN. unfold cc_dubins_types in IN.
  destruct (configuration_equal a b) eqn:QE; [cbn [combine In] in IN; entries|destruct (fw && configuration_aligned a b) eqn:QF; [cbn [combine In] in IN; entries|destruct (negb fw && configuration_aligned b a) eqn:QB; [cbn [combine In] in IN; entries|
    destruct (configuration_on_hc_cc_circle c1 b) eqn:QT; cbn [combine In] in IN; entries]]].
  - exists empty_controls. split; [reflexivity|]. apply onward_empty. lra.
  - exists (straight_controls a b). split; [reflexivity|]. apply andb_prop in QF. destruct QF as [-> QF]. apply (onward_le 0); [cbn; lra|]. exact (dir_forward a b QF).
  - exists (straight_controls a b). split; [reflexivity|]. apply andb_prop in QB. destruct QB as [FW QB]. destruct fw; [discriminate FW|]. apply (onward_le 0); [cbn; lra|]. exact (dir_backward a b QB).
  - exists (cc_turn_controls c1 b true). split; [reflexivity|]. subst c1. exact (T_dir k s a b l1 fw Hk Hs QT).
  - unfold entry_TT in *. destruct (TT_exists _ c1 c2) eqn:EX; [|exfalso; cbn in EL; injection EL as <-; lra].
    destruct (TT_path c1 c2) as [len q] eqn:PA. eexists. split; [reflexivity|]. exact (TT_dir k s a b fw l1 l2 c1 c2 _ len q Hk Hs H1 H2 eq_refl EX PA).
  - unfold entry_TST in *. destruct (TST_exists _ c1 c2) eqn:EX; [|exfalso; cbn in EL; injection EL as <-; lra].
    destruct (TST_path _ c1 c2) as [[[len q1] q2]|] eqn:PA; [|discriminate]. eexists. split; [reflexivity|]. exact (TST_dir k s a b fw l1 l2 c1 c2 _ len q1 q2 Hk Hs H1 H2 eq_refl PA).
  - unfold entry_TTT in *. destruct (TTT_exists _ c1 c2) eqn:EX; [|exfalso; cbn in EL; injection EL as <-; lra].
    destruct (TTT_path _ _ _ _ c1 c2) as [[[[len q1] q2] ci]|] eqn:PA; [|discriminate]. eexists. split; [reflexivity|].
    exact (TTT_dir k s a b fw l1 l2 c1 c2 _ _ len q1 q2 ci Hk Hs H1 H2 eq_refl eq_refl EX PA).
Qed.

Theorem cc00_dubins_direction k s fw s1 s2 : 0 < k -> 0 < s -> pos_dist s1 s2 + detour k s < DBL_MAX ->
  exists p cs, cc00_dubins k s fw s1 s2 = Some p /\ get_controls k s fw s1 s2 = Some cs /\ keeps_direction (3 * dubins_gap k s (h_type p)) fw cs.
Proof.
  intros Hk Hs LM. destruct (max_facts k s Hk Hs) as (RP & KS & KP & TM & DT). assert (0 < 2 * PI / k) by (apply Rdiv_lt_0_compat; [pose proof PI_RGT_0|]; lra). unfold turn_max in *.
  destruct (CC00DProofs.cc00_dubins_exists k s fw s1 s2 Hk Hs ltac:(lra)) as (p & L & P & EL & LM' & _). pose proof P as P'.
  apply select_path_in in P. unfold paths in P. apply paths_in in P. destruct P as (i & j & c1 & c2 & SK & N1 & N2 & S).
  destruct (CC00DProofs.circles_of k s fw s1 s2 i j c1 c2 N1 N2) as (l1 & l2 & H1 & H2).
  unfold cc00_circles_dubins_path in S. apply select_entry_in in S. destruct S as (IN & ST & EN).
  assert (S1 : c_start c1 = configuration (st_x s1) (st_y s1) (st_theta s1) 0) by (subst c1; apply circle_all).
  assert (S2 : c_start c2 = configuration (st_x s2) (st_y s2) (st_theta s2) 0) by (subst c2; apply circle_all).
  destruct (table_dir k s _ _ fw l1 l2 c1 c2 _ _ L Hk Hs H1 H2 IN EL LM') as (cs & PC & G). exists p, cs. split; [exact P'|].
  unfold get_controls. rewrite P'. destruct p as [t u v e]; cbn [h_type h_entry h_start h_end] in *. rewrite S1 in ST. rewrite S2 in EN. subst u v. split; [exact PC|exact G].
Qed.

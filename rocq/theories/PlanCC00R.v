(** * The planner of ModelCC00R.v *)
From Coq Require Import Reals ZArith List Lra Lia Bool.
From Verif Require Import Base ModelUtil ModelCircle ModelPaths ModelCC00R Num UtilProofs SpecPath SpecTurn SpecPlan PoseAlg TurnProofs MotionProofs TurnBounds LegProofs TangentProofs PlanProofs PlanTactics PlanHybrid PlanFamily PlanEnds PlanBounds PlanSelect PlanRadius FamCC00R.
Import ListNotations.
Open Scope R_scope.

Lemma table_good k s a b l1 f1 l2 f2 c1 c2 t e L : 0 < k -> 0 < s ->
  c1 = circle a l1 f1 false (hc_cc_param k s) -> c2 = circle b l2 f2 false (hc_cc_param k s) ->
  In (t, e) (combine hc_cc_rs_types (circles_table k s c1 c2)) -> e_length e = Some L -> L < DBL_MAX ->
  exists cs, path_controls (mkHPath t a b e) = Some cs /\ cs <> [] /\
    good k s (cc_rs_gap k s t) (rs_pieces t) a b 0 0 cs L.
Proof.
  intros Hk Hs H1 H2 IN EL LM.
  assert (S1 : c_start c1 = a) by (subst c1; apply circle_all). assert (S2 : c_start c2 = b) by (subst c2; apply circle_all).
  assert (NE : forall g n k0 k1 cs, good k s g n a b k0 k1 cs L -> cs <> []) by (intros g n k0 k1 cs (z & _ & _ & _ & _ & _ & A); exact A).
  unfold circles_table in IN. cbv zeta in IN. rewrite S1, S2 in IN. unfold hc_cc_rs_types in IN.
  destruct (configuration_equal a b) eqn:QE; [cbn [combine In] in IN; entries|destruct (configuration_aligned a b) eqn:QF; [cbn [combine In] in IN; entries|destruct (configuration_aligned b a) eqn:QB; [cbn [combine In] in IN; entries|destruct (configuration_on_hc_cc_circle c1 b) eqn:QT; [cbn [combine In] in IN; entries|cbn [combine In] in IN; entries]]]].
  - entry_length L EL. exists (empty_controls). split; [reflexivity|]. pose proof (equal_good k s Hk Hs a b QE) as G. split; [exact (NE _ _ _ _ _ G)|exact G].
  - entry_length L EL. exists (straight_controls a b). split; [reflexivity|]. pose proof (aligned_forward k s Hk Hs a b QF) as G. split; [exact (NE _ _ _ _ _ G)|exact G].
  - entry_length L EL. exists (straight_controls a b). split; [reflexivity|]. pose proof (aligned_backward k s Hk Hs a b QB) as G. split; [exact (NE _ _ _ _ _ G)|exact G].
  - entry_length L EL. subst c1. destruct (circle_all a l1 f1 false (hc_cc_param k s)) as (_ & EL1 & F1 & _). rewrite ?EL1, ?F1 in *. exists (cc_turn_controls (circle a l1 f1 false (hc_cc_param k s)) b true). split; [reflexivity|]. pose proof (T_cc k s Hk Hs a b l1 f1 false false QT) as G. split; [exact (NE _ _ _ _ _ G)|exact G].
  - destruct (TT_good k s a b l1 f1 l2 f2 c1 c2 _ _ L Hk Hs H1 H2 eq_refl eq_refl EL LM) as (cs & PC & G). exists cs. split; [exact PC|split; [exact (NE _ _ _ _ _ G)|exact G]].
  - destruct (TcT_good k s a b l1 f1 l2 f2 c1 c2 _ _ L Hk Hs H1 H2 eq_refl eq_refl EL LM) as (cs & PC & G). exists cs. split; [exact PC|split; [exact (NE _ _ _ _ _ G)|exact G]].
  - destruct (TcTcT_good k s a b l1 f1 l2 f2 c1 c2 _ _ L Hk Hs H1 H2 eq_refl eq_refl EL LM) as (cs & PC & G). exists cs. split; [exact PC|split; [exact (NE _ _ _ _ _ G)|exact G]].
  - destruct (TcTT_good k s a b l1 f1 l2 f2 c1 c2 _ _ L Hk Hs H1 H2 eq_refl eq_refl EL LM) as (cs & PC & G). exists cs. split; [exact PC|split; [exact (NE _ _ _ _ _ G)|exact G]].
  - destruct (TTcT_good k s a b l1 f1 l2 f2 c1 c2 _ _ L Hk Hs H1 H2 eq_refl eq_refl EL LM) as (cs & PC & G). exists cs. split; [exact PC|split; [exact (NE _ _ _ _ _ G)|exact G]].
  - destruct (TST_good k s a b l1 f1 l2 f2 c1 c2 _ _ L Hk Hs H1 H2 eq_refl eq_refl EL LM) as (cs & PC & G). exists cs. split; [exact PC|split; [exact (NE _ _ _ _ _ G)|exact G]].
  - destruct (TSTcT_good k s a b l1 f1 l2 f2 c1 c2 _ _ L Hk Hs H1 H2 eq_refl eq_refl EL LM) as (cs & PC & G). exists cs. split; [exact PC|split; [exact (NE _ _ _ _ _ G)|exact G]].
  - destruct (TcTST_good k s a b l1 f1 l2 f2 c1 c2 _ _ L Hk Hs H1 H2 eq_refl eq_refl EL LM) as (cs & PC & G). exists cs. split; [exact PC|split; [exact (NE _ _ _ _ _ G)|exact G]].
  - destruct (TcTSTcT_good k s a b l1 f1 l2 f2 c1 c2 _ _ L Hk Hs H1 H2 eq_refl eq_refl EL LM) as (cs & PC & G). exists cs. split; [exact PC|split; [exact (NE _ _ _ _ _ G)|exact G]].
  - destruct (TTcTT_good k s a b l1 f1 l2 f2 c1 c2 _ _ L Hk Hs H1 H2 eq_refl eq_refl EL LM) as (cs & PC & G). exists cs. split; [exact PC|split; [exact (NE _ _ _ _ _ G)|exact G]].
  - destruct (TcTTcT_good k s a b l1 f1 l2 f2 c1 c2 _ _ L Hk Hs H1 H2 eq_refl eq_refl EL LM) as (cs & PC & G). exists cs. split; [exact PC|split; [exact (NE _ _ _ _ _ G)|exact G]].
  - destruct (TTT_good k s a b l1 f1 l2 f2 c1 c2 _ _ L Hk Hs H1 H2 eq_refl eq_refl EL LM) as (cs & PC & G). exists cs. split; [exact PC|split; [exact (NE _ _ _ _ _ G)|exact G]].
  - destruct (TcST_good k s a b l1 f1 l2 f2 c1 c2 _ _ L Hk Hs H1 H2 eq_refl eq_refl EL LM) as (cs & PC & G). exists cs. split; [exact PC|split; [exact (NE _ _ _ _ _ G)|exact G]].
  - destruct (TScT_good k s a b l1 f1 l2 f2 c1 c2 _ _ L Hk Hs H1 H2 eq_refl eq_refl EL LM) as (cs & PC & G). exists cs. split; [exact PC|split; [exact (NE _ _ _ _ _ G)|exact G]].
  - destruct (TcScT_good k s a b l1 f1 l2 f2 c1 c2 _ _ L Hk Hs H1 H2 eq_refl eq_refl EL LM) as (cs & PC & G). exists cs. split; [exact PC|split; [exact (NE _ _ _ _ _ G)|exact G]].
Qed.

Lemma circles_of (k s : R) s1 s2 i j c1 c2 : skipped s1 s2 i j = false -> nth_error (start_circles k s s1) i = Some c1 -> nth_error (end_circles k s s2) j = Some c2 ->
  exists a b l1 f1 l2 f2, c1 = circle a l1 f1 false (hc_cc_param k s) /\ c2 = circle b l2 f2 false (hc_cc_param k s) /\ at_conf s1 a /\ at_conf s2 b /\
    a = configuration (st_x s1) (st_y s1) (st_theta s1) (q_kappa a) /\ b = configuration (st_x s2) (st_y s2) (st_theta s2) (q_kappa b) /\ q_kappa a = 0 /\ q_kappa b = 0 /\
    True.
Proof.
  unfold skipped, start_circles, end_circles. intros SK A B. destruct i as [|[|[|[|[|]]]]]; try discriminate; destruct j as [|[|[|[|[|]]]]]; try discriminate; cbn [nth_error] in A, B;
    apply (f_equal (fun o => match o with Some x => x | None => c1 end)) in A; apply (f_equal (fun o => match o with Some x => x | None => c2 end)) in B; cbv beta iota in A, B; subst c1 c2;
    cbn [Nat.eqb andb orb] in SK; eexists _, _, _, _, _, _;
    (split; [reflexivity|split; [reflexivity|split; [apply at_configuration|split; [apply at_configuration|split; [reflexivity|split; [reflexivity|]]]]]]); (split; [cbn [configuration q_kappa sign]; ring|]); (split; [cbn [configuration q_kappa sign]; ring|]);
    exact I.
Qed.

Theorem cc00_reeds_shepp_drives k s s1 s2 p L : 0 < k -> 0 < s -> cc00_reeds_shepp k s s1 s2 = Some p -> e_length (h_entry p) = Some L -> L < DBL_MAX ->
  exists cs, path_controls p = Some cs /\ cs <> [] /\ drives k s (rs_pieces (h_type p)) (cc_rs_gap k s (h_type p)) s1 s2 cs L /\ curvature_chain 0 cs 0.
Proof.
  intros Hk Hs P EL LM. apply select_path_in in P. unfold paths in P. apply paths_in in P. destruct P as (i & j & c1 & c2 & SK & N1 & N2 & S).
  destruct (circles_of k s s1 s2 i j c1 c2 SK N1 N2) as (a & b & l1 & f1 & l2 & f2 & H1 & H2 & A1 & A2 & C1 & C2 & Q1 & Q2 & SIDE).
  unfold cc00_circles_rs_path in S. apply select_entry_in in S. destruct S as (IN & ST & EN).
  assert (S1 : c_start c1 = a) by (subst c1; apply circle_all). assert (S2 : c_start c2 = b) by (subst c2; apply circle_all).
  destruct (table_good k s a b l1 f1 l2 f2 c1 c2 _ _ L Hk Hs H1 H2 IN EL LM) as (cs & PC & NE & G).
  exists cs. destruct p as [t u v e]; cbn [h_type h_entry h_start h_end] in *. rewrite S1 in ST. rewrite S2 in EN. subst u v. split; [exact PC|split; [exact NE|]].
  destruct (good_drives k s _ _ a b _ _ cs L s1 s2 Hk Hs A1 A2 G) as (DR & CH & _). auto.
Qed.

Lemma same_some k s a b l f c1 c2 : 0 < k -> 0 < s -> c1 = circle a l f false (hc_cc_param k s) -> c2 = circle b l (negb f) false (hc_cc_param k s) ->
  exists e w, In e (circles_table k s c1 c2) /\ e_length e = Some w /\ w <= configuration_distance a b + 4 * turn_max k s.
Proof.
  intros Hk Hs H1 H2. destruct (facts_cc k s c1 a l f false Hk H1) as (S1 & EL1 & F1 & G1 & R1 & M1 & SM1 & CM1 & AK1 & AI1 & KQ1 & K1 & O1). destruct (facts_cc k s c2 b l (negb f) false Hk H2) as (S2 & EL2 & F2 & G2 & R2 & M2 & SM2 & CM2 & AK2 & AI2 & KQ2 & K2 & O2).
  destruct (max_facts k s Hk Hs) as (RP & KS & KP & TM & _). pose proof (sqrt_pos ((q_x b - q_x a) ^ 2 + (q_y b - q_y a) ^ 2)) as DD. change (sqrt _) with (configuration_distance a b) in DD.
  set (D := center_distance c1 c2) in *. assert (D0 : 0 <= D) by apply sqrt_pos.
  assert (DB : D <= p_radius (hc_cc_param k s) + configuration_distance a b + p_radius (hc_cc_param k s)).
  { apply centre_far; [rewrite H1; apply (circle_far k s Hk Hs)|rewrite H2; apply (circle_far k s Hk Hs)]. }
  pose proof (sin_mu_bound k s Hk Hs) as SB. unfold circles_table. cbv zeta. rewrite S1, S2. fold D. set (an := atan2 _ _).
  destruct (configuration_equal a b); [eexists _, 0; split; [left; reflexivity|split; [reflexivity|lra]]|].
  destruct (configuration_aligned a b); [eexists _, (configuration_distance a b); split; [right; left; reflexivity|split; [reflexivity|lra]]|].
  destruct (configuration_aligned b a); [eexists _, (configuration_distance b a); split; [right; left; reflexivity|split; [reflexivity|rewrite conf_dist_sym; lra]]|].
  destruct (configuration_on_hc_cc_circle c1 b); [eexists; eexists; split; [right; right; left; reflexivity|split; [reflexivity|rewrite ?EL1, ?F1, ?EL2, ?F2; subst c1 c2; turn_bounds; lra]]|].
  destruct (Rle_dec (2 * p_radius (hc_cc_param k s) * p_sin_mu (hc_cc_param k s)) D) as [LE|NLE].
  - apply in_table with (e := entry_TST D an c1 c2); [do 8 right; left; reflexivity|]. unfold entry_TST, TST_exists, TST_path, TiST_exists, TeST_exists. fields_goal. rewrite eqb_reflx, eqb_negb_r. cbn [negb andb orb]. unfold Rleb; destruct (Rle_dec _ _) as [_|NN]; [|exfalso; apply NN; lra]; cbn [negb andb orb fbind]. unfold TeST_path.
    destruct (TeST_tangent_circles  c1 c2) as [q1 q2] eqn:TE.
    destruct (TeST_off (c_radius c1) (c_sin_mu c1) (c_cos_mu c1) c1 c2 q1 q2 TE) as (_ & _ & SB').
    eexists. split; [reflexivity|]. rewrite (straight_by_dist _ _ _ SB'), ?F1, ?SM1, ?R1, ?SM2, ?R2. fold D.
    pose proof (straight_TeST k s Hk Hs (sign f) D (pm1_sign f) D0) as ST. rewrite ?EL1, ?EL2, ?F2, ?S1, ?S2. subst c1 c2. turn_bounds. lra.
  - assert (D4 : D <= 4 * p_radius (hc_cc_param k s)) by nra. apply in_table with (e := entry_TTT k s D an c1 c2); [do 14 right; left; reflexivity|]. unfold entry_TTT, TTT_exists. fields_goal. rewrite eqb_reflx, eqb_negb_r.
    cbn [negb]. unfold Rleb; destruct (Rle_dec _ _) as [_|NN]; [|exfalso; apply NN; lra]; cbn [negb andb orb fbind]. unfold TTT_path, TTT_tangent_circles. fields_goal. root_goal. frames_goal. destruct (Rltb _ _).
    all: eexists; split; [reflexivity|]. all: subst c1 c2; turn_bounds; lra.
Qed.

Lemma table_first (k s : R) d1 d2 : exists x0, nth_error (map e_length (circles_table k s d1 d2)) 0 = Some (Some x0).
Proof. unfold circles_table. cbv zeta. repeat match goal with |- context [if ?b then _ else _] => destruct b; [eexists; reflexivity|] end. eexists; reflexivity. Qed.
Lemma table_length (k s : R) d1 d2 : (length (circles_table k s d1 d2) <= length hc_cc_rs_types)%nat.
Proof. unfold circles_table. cbv zeta. repeat match goal with |- context [if ?b then _ else _] => destruct b; [cbn; lia|] end. cbn; lia. Qed.

Theorem cc00_reeds_shepp_exists k s s1 s2 : 0 < k -> 0 < s -> pos_dist s1 s2 + 4 * turn_max k s < DBL_MAX ->
  exists p L, cc00_reeds_shepp k s s1 s2 = Some p /\ e_length (h_entry p) = Some L /\ L < DBL_MAX /\ L <= pos_dist s1 s2 + 4 * turn_max k s.
Proof.
  intros Hk Hs LM.
  assert (ST : forall i j c1 c2 a b, (i < 4)%nat -> (j < 4)%nat -> skipped s1 s2 i j = false -> nth_error (start_circles k s s1) i = Some c1 -> nth_error (end_circles k s s2) j = Some c2 ->
    at_conf s1 a -> at_conf s2 b ->
    (exists e w, In e (circles_table k s c1 c2) /\ e_length e = Some w /\ w <= configuration_distance a b + 4 * turn_max k s) ->
    exists p L, cc00_reeds_shepp k s s1 s2 = Some p /\ e_length (h_entry p) = Some L /\ L < DBL_MAX /\ L <= pos_dist s1 s2 + 4 * turn_max k s).
  { intros i j c1 c2 a b LI LJ SK N1 N2 A B (e & w & IN & EW & LE). rewrite (conf_dist_states s1 s2 a b A B) in LE.
    destruct (plan_exists hc_cc_rs_types (circles_table k s) (skipped s1 s2) (start_circles k s s1) (end_circles k s s2) 4 4 i j c1 c2 e w (table_first k s) (table_length k s) LI LJ SK N1 N2 IN EW ltac:(lra)) as (p & L & P & EP & LM' & LW).
    exists p, L. split; [exact P|split; [exact EP|split; [exact LM'|lra]]]. }
  Ltac skip_tac := unfold skipped; cbn [Nat.eqb andb orb]; unfold Rltb; repeat match goal with |- context [Rlt_dec ?u ?v] => destruct (Rlt_dec u v); cbn [orb]; try (exfalso; lra) end; reflexivity.
  refine (ST 0%nat 2%nat _ _ (configuration (st_x s1) (st_y s1) (st_theta s1) 0) (configuration (st_x s2) (st_y s2) (st_theta s2) 0) ltac:(lia) ltac:(lia) _ _ _ (at_configuration _ _) (at_configuration _ _) (same_some k s _ _ true true _ _ Hk Hs eq_refl eq_refl)); [skip_tac|unfold start_circles; reflexivity|unfold end_circles; reflexivity].
Qed.

Theorem cc00_reeds_shepp_plan k s s1 s2 : 0 < k -> 0 < s -> pos_dist s1 s2 + detour k s < DBL_MAX ->
  exists t L cs, get_distance k s s1 s2 = Some (Some L) /\ get_controls k s s1 s2 = Some cs /\ L <= pos_dist s1 s2 + detour k s /\ cs <> [] /\
    drives k s (rs_pieces t) (cc_rs_gap k s t) s1 s2 cs L /\ curvature_chain 0 cs 0.
Proof.
  intros Hk Hs LM. destruct (max_facts k s Hk Hs) as (_ & _ & _ & _ & DT).
  destruct (cc00_reeds_shepp_exists k s s1 s2 Hk Hs ltac:(lra)) as (p & L & P & EL & LM' & LE).
  destruct (cc00_reeds_shepp_drives k s s1 s2 p L Hk Hs P EL LM') as (cs & PC & NE & DR & CH).
  exists (h_type p), L, cs. unfold get_distance, get_controls. rewrite P. unfold path_distance. rewrite EL. repeat (split; [first [reflexivity|assumption|lra]|]). exact CH.
Qed.

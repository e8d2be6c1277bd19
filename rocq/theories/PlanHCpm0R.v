(** * The planner of ModelHCpm0R.v *)
From Coq Require Import Reals ZArith List Lra Lia Bool.
From Verif Require Import Base ModelUtil ModelCircle ModelPaths ModelHCpm0R Num UtilProofs SpecPath SpecTurn SpecPlan PoseAlg TurnProofs MotionProofs TurnBounds LegProofs TangentProofs PlanProofs PlanTactics PlanHybrid PlanFamily PlanEnds PlanBounds PlanSelect PlanRadius PlanRefute FamHCpm0R.
Import ListNotations.
Open Scope R_scope.

Lemma table_good k s a b l1 f1 l2 f2 c1 c2 t e L : 0 < k -> 0 < s ->
  c1 = circle a l1 f1 true (rs_param k) -> c2 = circle b l2 f2 true (hc_cc_param k s) ->
  In (t, e) (combine hc_cc_rs_types (circles_table k s c1 c2)) -> e_length e = Some L -> L < DBL_MAX ->
  exists cs, path_controls (mkHPath t a b e) = Some cs /\ cs <> [] /\
    (t = RS_T -> total_length cs = L) /\
    (t = RS_E -> goodh k s (rs_gap k s t) (rs_pieces t) a b 0 0 cs L) /\
    (t <> RS_E -> (t = RS_T -> forall c, e_cend e = Some c -> c_kappa c = sign l1 * k) -> goodh k s (rs_gap k s t) (rs_pieces t) a b (sign l1 * k) 0 cs L).
Proof.
  intros Hk Hs H1 H2 IN EL LM.
  assert (S1 : c_start c1 = a) by (subst c1; apply circle_all). assert (S2 : c_start c2 = b) by (subst c2; apply circle_all).
  assert (NE : forall g n k0 k1 cs, goodh k s g n a b k0 k1 cs L -> cs <> []) by (intros g n k0 k1 cs (z & _ & _ & _ & _ & _ & A); exact A).
  unfold circles_table in IN. cbv zeta in IN. rewrite S1, S2 in IN. unfold hc_cc_rs_types in IN.
  destruct (configuration_equal a b) eqn:QE; [cbn [combine In] in IN; entries|destruct (Rltb (center_distance c1 c2) epsilon) eqn:QT; [cbn [combine In] in IN; entries|cbn [combine In] in IN; entries]].
  - entry_length L EL. exists empty_controls. split; [reflexivity|]. pose proof (good_goodh _ _ _ _ _ _ _ _ _ _ (equal_good k s Hk Hs a b QE)) as G. split; [exact (NE _ _ _ _ _ G)|]. split; [discriminate|]. split; [intros _; exact G|congruence].
  - entry_length L EL. subst c1 c2. destruct (circle_all a l1 f1 true (rs_param k)) as (_ & EL1 & F1 & _). destruct (circle_all b l2 f2 true (hc_cc_param k s)) as (_ & EL2 & F2 & _). rewrite ?EL1, ?F1, ?EL2, ?F2 in *.
    exists (hc_turn_controls (circle b l2 f2 false (hc_cc_param k s)) a false). split; [reflexivity|]. split; [unfold hc_turn_controls; discriminate|]. split; [intros _; apply hc_turn_len|]. split; [discriminate|]. intros _ SD.
    apply Rltb_true in QT. destruct (facts_cc k s _ b l2 f2 false Hk eq_refl) as (_ & _ & _ & _ & _ & _ & _ & _ & _ & _ & _ & K1 & _). pose proof (SD eq_refl _ eq_refl) as E. rewrite K1 in E.
    assert (l1 = l2) by (destruct l1, l2; try reflexivity; unfold sign in E; lra). subst l2. exact (good_goodh _ _ _ _ _ _ _ _ _ _ (T_hc' k s Hk Hs a b l1 f1 f2 false true true QT)).
  - destruct (TT_good k s a b l1 f1 l2 f2 c1 c2 _ _ L Hk Hs H1 H2 eq_refl eq_refl EL LM) as (cs & PC & G). exists cs. split; [exact PC|split; [exact (NE _ _ _ _ _ G)|split; [discriminate|split; [discriminate|intros _ _; exact G]]]].
  - destruct (TcT_good k s a b l1 f1 l2 f2 c1 c2 _ _ L Hk Hs H1 H2 eq_refl eq_refl EL LM) as (cs & PC & G). exists cs. split; [exact PC|split; [exact (NE _ _ _ _ _ G)|split; [discriminate|split; [discriminate|intros _ _; exact G]]]].
  - destruct (TcTcT_good k s a b l1 f1 l2 f2 c1 c2 _ _ L Hk Hs H1 H2 eq_refl eq_refl EL LM) as (cs & PC & G). exists cs. split; [exact PC|split; [exact (NE _ _ _ _ _ G)|split; [discriminate|split; [discriminate|intros _ _; exact G]]]].
  - destruct (TcTT_good k s a b l1 f1 l2 f2 c1 c2 _ _ L Hk Hs H1 H2 eq_refl eq_refl EL LM) as (cs & PC & G). exists cs. split; [exact PC|split; [exact (NE _ _ _ _ _ G)|split; [discriminate|split; [discriminate|intros _ _; exact G]]]].
  - destruct (TTcT_good k s a b l1 f1 l2 f2 c1 c2 _ _ L Hk Hs H1 H2 eq_refl eq_refl EL LM) as (cs & PC & G). exists cs. split; [exact PC|split; [exact (NE _ _ _ _ _ G)|split; [discriminate|split; [discriminate|intros _ _; exact G]]]].
  - destruct (TST_good k s a b l1 f1 l2 f2 c1 c2 _ _ L Hk Hs H1 H2 eq_refl eq_refl EL LM) as (cs & PC & G). exists cs. split; [exact PC|split; [exact (NE _ _ _ _ _ G)|split; [discriminate|split; [discriminate|intros _ _; exact G]]]].
  - destruct (TSTcT_good k s a b l1 f1 l2 f2 c1 c2 _ _ L Hk Hs H1 H2 eq_refl eq_refl EL LM) as (cs & PC & G). exists cs. split; [exact PC|split; [exact (NE _ _ _ _ _ G)|split; [discriminate|split; [discriminate|intros _ _; exact G]]]].
  - destruct (TcTST_good k s a b l1 f1 l2 f2 c1 c2 _ _ L Hk Hs H1 H2 eq_refl eq_refl EL LM) as (cs & PC & G). exists cs. split; [exact PC|split; [exact (NE _ _ _ _ _ G)|split; [discriminate|split; [discriminate|intros _ _; exact G]]]].
  - destruct (TcTSTcT_good k s a b l1 f1 l2 f2 c1 c2 _ _ L Hk Hs H1 H2 eq_refl eq_refl EL LM) as (cs & PC & G). exists cs. split; [exact PC|split; [exact (NE _ _ _ _ _ G)|split; [discriminate|split; [discriminate|intros _ _; exact G]]]].
  - destruct (TTcTT_good k s a b l1 f1 l2 f2 c1 c2 _ _ L Hk Hs H1 H2 eq_refl eq_refl EL LM) as (cs & PC & G). exists cs. split; [exact PC|split; [exact (NE _ _ _ _ _ G)|split; [discriminate|split; [discriminate|intros _ _; exact G]]]].
  - destruct (TcTTcT_good k s a b l1 f1 l2 f2 c1 c2 _ _ L Hk Hs H1 H2 eq_refl eq_refl EL LM) as (cs & PC & G). exists cs. split; [exact PC|split; [exact (NE _ _ _ _ _ G)|split; [discriminate|split; [discriminate|intros _ _; exact G]]]].
  - destruct (TTT_good k s a b l1 f1 l2 f2 c1 c2 _ _ L Hk Hs H1 H2 eq_refl eq_refl EL LM) as (cs & PC & G). exists cs. split; [exact PC|split; [exact (NE _ _ _ _ _ G)|split; [discriminate|split; [discriminate|intros _ _; exact G]]]].
  - destruct (TcST_good k s a b l1 f1 l2 f2 c1 c2 _ _ L Hk Hs H1 H2 eq_refl eq_refl EL LM) as (cs & PC & G). exists cs. split; [exact PC|split; [exact (NE _ _ _ _ _ G)|split; [discriminate|split; [discriminate|intros _ _; exact G]]]].
  - destruct (TScT_good k s a b l1 f1 l2 f2 c1 c2 _ _ L Hk Hs H1 H2 eq_refl eq_refl EL LM) as (cs & PC & G). exists cs. split; [exact PC|split; [exact (NE _ _ _ _ _ G)|split; [discriminate|split; [discriminate|intros _ _; exact G]]]].
  - destruct (TcScT_good k s a b l1 f1 l2 f2 c1 c2 _ _ L Hk Hs H1 H2 eq_refl eq_refl EL LM) as (cs & PC & G). exists cs. split; [exact PC|split; [exact (NE _ _ _ _ _ G)|split; [discriminate|split; [discriminate|intros _ _; exact G]]]].
Qed.

Lemma circles_of (k s : R) s1 s2 i j c1 c2 : skipped s1 s2 i j = false -> nth_error (start_circles k s1) i = Some c1 -> nth_error (end_circles k s s2) j = Some c2 ->
  exists a b l1 f1 l2 f2, c1 = circle a l1 f1 true (rs_param k) /\ c2 = circle b l2 f2 true (hc_cc_param k s) /\ at_conf s1 a /\ at_conf s2 b /\
    a = configuration (st_x s1) (st_y s1) (st_theta s1) (q_kappa a) /\ b = configuration (st_x s2) (st_y s2) (st_theta s2) (q_kappa b) /\ q_kappa a = sign l1 * k /\ q_kappa b = 0 /\
    (0 < st_kappa s1 -> l1 = true) /\ (st_kappa s1 < 0 -> l1 = false).
Proof.
  unfold skipped, start_circles, end_circles. intros SK A B. destruct i as [|[|[|[|[|]]]]]; try discriminate; destruct j as [|[|[|[|[|]]]]]; try discriminate; cbn [nth_error] in A, B;
    apply (f_equal (fun o => match o with Some x => x | None => c1 end)) in A; apply (f_equal (fun o => match o with Some x => x | None => c2 end)) in B; cbv beta iota in A, B; subst c1 c2;
    cbn [Nat.eqb andb orb] in SK; eexists _, _, _, _, _, _;
    (split; [reflexivity|split; [reflexivity|split; [apply at_configuration|split; [apply at_configuration|split; [reflexivity|split; [reflexivity|]]]]]]); (split; [cbn [configuration q_kappa sign]; ring|]); (split; [cbn [configuration q_kappa sign]; ring|]);
    unfold Rltb in SK; repeat match type of SK with context [Rlt_dec ?u ?v] => destruct (Rlt_dec u v); cbn [orb] in SK end; try discriminate SK; repeat split; intros; solve [reflexivity|lra].
Qed.

Theorem hcpm0_reeds_shepp_drives k s s1 s2 p L : 0 < k -> 0 < s -> hcpm0_reeds_shepp k s s1 s2 = Some p -> e_length (h_entry p) = Some L -> L < DBL_MAX ->
  exists cs, path_controls p = Some cs /\ cs <> [] /\ bound_kappa k s1 (q_kappa (h_start p)) /\ Rabs (total_length cs - L) <= rs_pieces (h_type p) * rs_gap k s (h_type p) + rs_pieces (h_type p) * epsilon * p_radius (hc_cc_param k s) /\
    (h_type p = RS_E -> drives k s (rs_pieces (h_type p)) (rs_gap k s (h_type p)) s1 s2 cs L) /\
    (h_type p <> RS_E -> (h_type p = RS_T -> forall c, e_cend (h_entry p) = Some c -> c_kappa c = q_kappa (h_start p)) -> drives k s (rs_pieces (h_type p)) (rs_gap k s (h_type p)) s1 s2 cs L /\ hybrid (q_kappa (h_start p)) cs 0).
Proof.
  intros Hk Hs P EL LM. apply select_path_in in P. unfold paths in P. apply paths_in in P. destruct P as (i & j & c1 & c2 & SK & N1 & N2 & S).
  destruct (circles_of k s s1 s2 i j c1 c2 SK N1 N2) as (a & b & l1 & f1 & l2 & f2 & H1 & H2 & A1 & A2 & C1 & C2 & Q1 & Q2 & SIDE).
  unfold hcpm0_circles_rs_path in S. apply select_entry_in in S. destruct S as (IN & ST & EN).
  assert (S1 : c_start c1 = a) by (subst c1; apply circle_all). assert (S2 : c_start c2 = b) by (subst c2; apply circle_all).
  destruct (table_good k s a b l1 f1 l2 f2 c1 c2 _ _ L Hk Hs H1 H2 IN EL LM) as (cs & PC & NE & G).
  exists cs. destruct p as [t u v e]; cbn [h_type h_entry h_start h_end] in *. rewrite S1 in ST. rewrite S2 in EN. subst u v. split; [exact PC|split; [exact NE|]].
  destruct SIDE as (SP & SN). destruct G as (GT & GE & GN). split; [unfold bound_kappa; rewrite Q1; split; [destruct l1; unfold sign; [left|right]; ring|]; split; intros J; [rewrite (SP J)|rewrite (SN J)]; unfold sign; ring|]. rewrite Q1. split.
  { assert (DL : forall k0 k1, goodh k s (rs_gap k s t) (rs_pieces t) a b k0 k1 cs L -> Rabs (total_length cs - L) <= rs_pieces t * rs_gap k s t + rs_pieces t * epsilon * p_radius (hc_cc_param k s)) by (intros k0 k1 GG; apply (goodh_drives k s _ _ a b _ _ cs L s1 s2 Hk Hs A1 A2 GG)).
    assert (TT : t = RS_T \/ t <> RS_T) by (destruct t; first [left; reflexivity|right; discriminate]). assert (EE : t = RS_E \/ t <> RS_E) by (destruct t; first [left; reflexivity|right; discriminate]).
    destruct TT as [TT|TT]; [|destruct EE as [EE|EE]; [exact (DL _ _ (GE EE))|exact (DL _ _ (GN EE ltac:(intros; contradiction)))]].
    rewrite (GT TT), Rminus_diag_eq, Rabs_R0 by reflexivity. destruct (max_facts k s Hk Hs) as (RP & _ & KP & _). subst t. unfold rs_pieces, rs_gap, epsilon. nra. }
  split; [intros E0; exact (proj1 (goodh_drives k s _ _ a b _ _ cs L s1 s2 Hk Hs A1 A2 (GE E0)))|]. intros N0 SD. destruct (goodh_drives k s _ _ a b _ _ cs L s1 s2 Hk Hs A1 A2 (GN N0 SD)) as (DR & CH & _). auto.
Qed.

(** States of the same pose are connected by the empty path. *)
Lemma same_pose k s s1 s2 p L : st_x s1 = st_x s2 -> st_y s1 = st_y s2 -> st_theta s1 = st_theta s2 -> hcpm0_reeds_shepp k s s1 s2 = Some p -> e_length (h_entry p) = Some L -> L < DBL_MAX -> path_controls p = Some empty_controls.
Proof.
  intros EX EY ET P EL LM. apply select_path_in in P. unfold paths in P. apply paths_in in P. destruct P as (i & j & c1 & c2 & SK & N1 & N2 & S).
  destruct (circles_of k s s1 s2 i j c1 c2 SK N1 N2) as (a & b & l1 & f1 & l2 & f2 & H1 & H2 & _ & _ & C1 & C2 & _).
  unfold hcpm0_circles_rs_path in S. apply select_entry_in in S. destruct S as (IN & _ & _).
  assert (S1 : c_start c1 = a) by (subst c1; apply circle_all). assert (S2 : c_start c2 = b) by (subst c2; apply circle_all).
  unfold circles_table in IN. cbv zeta in IN. rewrite S1, S2 in IN.
  assert (Q : configuration_equal a b = true).
  { rewrite C1, C2. unfold configuration_equal, configuration_distance, point_distance, configuration; cbn [q_x q_y q_theta]. rewrite EX, EY, ET.
    rewrite !Rminus_diag_eq by reflexivity. replace (0 ^ 2 + 0 ^ 2) with 0 by ring. rewrite sqrt_0, Rabs_R0. unfold epsilon. destruct (Rlt_dec _ _); [lra|reflexivity]. }
  rewrite Q in IN. destruct p as [t u v e]. cbn [h_type h_entry] in IN. unfold hc_cc_rs_types in IN. cbn [combine In] in IN.
  cbn [h_entry] in EL. entries. reflexivity.
Qed.

Lemma same_some k s a b l f c1 c2 : 0 < k -> 0 < s -> c1 = circle a l f true (rs_param k) -> c2 = circle b l (negb f) true (hc_cc_param k s) ->
  exists e w, In e (circles_table k s c1 c2) /\ e_length e = Some w /\ w <= configuration_distance a b + 4 * turn_max k s.
Proof.
  intros Hk Hs H1 H2. destruct (facts_rs k c1 a l f true Hk H1) as (S1 & EL1 & F1 & G1 & R1 & M1 & SM1 & CM1 & AK1 & AI1 & KQ1 & K1 & O1). destruct (facts_cc k s c2 b l (negb f) true Hk H2) as (S2 & EL2 & F2 & G2 & R2 & M2 & SM2 & CM2 & AK2 & AI2 & KQ2 & K2 & O2).
  destruct (max_facts k s Hk Hs) as (RP & KS & KP & TM & _). pose proof (sqrt_pos ((q_x b - q_x a) ^ 2 + (q_y b - q_y a) ^ 2)) as DD. change (sqrt _) with (configuration_distance a b) in DD.
  set (D := center_distance c1 c2) in *. assert (D0 : 0 <= D) by apply sqrt_pos.
  assert (DB : D <= 1 / k + configuration_distance a b + p_radius (hc_cc_param k s)).
  { apply centre_far; [rewrite H1; apply (rs_far k s Hk Hs)|rewrite H2; apply (circle_far k s Hk Hs)]. }
  pose proof (sin_mu_bound k s Hk Hs) as SB. unfold circles_table. cbv zeta. rewrite S1, S2. fold D. set (an := atan2 _ _).
  destruct (configuration_equal a b); [eexists _, 0; split; [left; reflexivity|split; [reflexivity|lra]]|].
  destruct (Rltb D epsilon); [eexists; eexists; split; [right; right; left; reflexivity|split; [reflexivity|rewrite ?EL1, ?F1, ?EL2, ?F2; subst c1 c2; turn_bounds; lra]]|].
  destruct (Rle_dec (2 * p_radius (hc_cc_param k s) * p_sin_mu (hc_cc_param k s)) D) as [LE|NLE].
  - apply in_table with (e := entry_TST k s D an c1 c2); [do 8 right; left; reflexivity|]. unfold entry_TST, TST_exists, TST_path, TiST_exists, TeST_exists. fields_goal. rewrite eqb_reflx, eqb_negb_r. cbn [negb andb orb]. unfold Rleb; destruct (Rle_dec _ _) as [_|NN]; [|exfalso; apply NN; lra]; cbn [negb andb orb fbind]. unfold TeST_path.
    destruct (TeST_tangent_circles  c1 c2) as [q1 q2] eqn:TE.
    destruct (TeST_off (c_radius c2) (c_sin_mu c2) (c_cos_mu c2) c1 c2 q1 q2 TE) as (_ & _ & SB').
    eexists. split; [reflexivity|]. rewrite (straight_by_dist _ _ _ SB'), ?F1, ?SM1, ?R1, ?SM2, ?R2. fold D.
    pose proof (straight_TeST k s Hk Hs (sign f) D (pm1_sign f) D0) as ST. rewrite ?EL1, ?EL2, ?F2, ?S1, ?S2. subst c1 c2. turn_bounds. lra.
  - assert (D4 : D <= 4 * p_radius (hc_cc_param k s)) by nra. apply in_table with (e := entry_TTT k s D an c1 c2); [do 14 right; left; reflexivity|]. unfold entry_TTT, TTT_exists. fields_goal. rewrite eqb_reflx, eqb_negb_r.
    cbn [negb]. unfold Rleb; destruct (Rle_dec _ _) as [_|NN]; [|exfalso; apply NN; lra]; cbn [negb andb orb fbind]. unfold TTT_path, TTT_tangent_circles. fields_goal. root_goal. frames_goal. destruct (Rltb _ _).
    all: eexists; split; [reflexivity|]. all: subst c1 c2; turn_bounds; lra.
Qed.

Lemma table_first (k s : R) d1 d2 : exists x0, nth_error (map e_length (circles_table k s d1 d2)) 0 = Some (Some x0).
Proof. unfold circles_table. cbv zeta. repeat match goal with |- context [if ?b then _ else _] => destruct b; [eexists; reflexivity|] end. eexists; reflexivity. Qed.
Lemma table_length (k s : R) d1 d2 : (length (circles_table k s d1 d2) <= length hc_cc_rs_types)%nat.
Proof. unfold circles_table. cbv zeta. repeat match goal with |- context [if ?b then _ else _] => destruct b; [cbn; lia|] end. cbn; lia. Qed.

Theorem hcpm0_reeds_shepp_exists k s s1 s2 : 0 < k -> 0 < s -> pos_dist s1 s2 + 4 * turn_max k s < DBL_MAX ->
  exists p L, hcpm0_reeds_shepp k s s1 s2 = Some p /\ e_length (h_entry p) = Some L /\ L < DBL_MAX /\ L <= pos_dist s1 s2 + 4 * turn_max k s.
Proof.
  intros Hk Hs LM.
  assert (ST : forall i j c1 c2 a b, (i < 4)%nat -> (j < 4)%nat -> skipped s1 s2 i j = false -> nth_error (start_circles k s1) i = Some c1 -> nth_error (end_circles k s s2) j = Some c2 ->
    at_conf s1 a -> at_conf s2 b ->
    (exists e w, In e (circles_table k s c1 c2) /\ e_length e = Some w /\ w <= configuration_distance a b + 4 * turn_max k s) ->
    exists p L, hcpm0_reeds_shepp k s s1 s2 = Some p /\ e_length (h_entry p) = Some L /\ L < DBL_MAX /\ L <= pos_dist s1 s2 + 4 * turn_max k s).
  { intros i j c1 c2 a b LI LJ SK N1 N2 A B (e & w & IN & EW & LE). rewrite (conf_dist_states s1 s2 a b A B) in LE.
    destruct (plan_exists hc_cc_rs_types (circles_table k s) (skipped s1 s2) (start_circles k s1) (end_circles k s s2) 4 4 i j c1 c2 e w (table_first k s) (table_length k s) LI LJ SK N1 N2 IN EW ltac:(lra)) as (p & L & P & EP & LM' & LW).
    exists p, L. split; [exact P|split; [exact EP|split; [exact LM'|lra]]]. }
  Ltac skip_tac := unfold skipped; cbn [Nat.eqb andb orb]; unfold Rltb; repeat match goal with |- context [Rlt_dec ?u ?v] => destruct (Rlt_dec u v); cbn [orb]; try (exfalso; lra) end; reflexivity.
  destruct (Rle_dec 0 (st_kappa s1)) as [SG|SG].
  - refine (ST 0%nat 2%nat _ _ (configuration (st_x s1) (st_y s1) (st_theta s1) k) (configuration (st_x s2) (st_y s2) (st_theta s2) 0) ltac:(lia) ltac:(lia) _ _ _ (at_configuration _ _) (at_configuration _ _) (same_some k s _ _ true true _ _ Hk Hs eq_refl eq_refl)); [skip_tac|unfold start_circles; reflexivity|unfold end_circles; reflexivity].
  - refine (ST 1%nat 3%nat _ _ (configuration (st_x s1) (st_y s1) (st_theta s1) (- k)) (configuration (st_x s2) (st_y s2) (st_theta s2) 0) ltac:(lia) ltac:(lia) _ _ _ (at_configuration _ _) (at_configuration _ _) (same_some k s _ _ false true _ _ Hk Hs eq_refl eq_refl)); [skip_tac|unfold start_circles; reflexivity|unfold end_circles; reflexivity].
Qed.

Theorem hcpm0_reeds_shepp_plan k s s1 s2 : 0 < k -> 0 < s -> pos_dist s1 s2 + detour k s < DBL_MAX ->
  exists p L cs, hcpm0_reeds_shepp k s s1 s2 = Some p /\ get_distance k s s1 s2 = Some (Some L) /\ get_controls k s s1 s2 = Some cs /\ L <= pos_dist s1 s2 + detour k s /\ cs <> [] /\
    bound_kappa k s1 (q_kappa (h_start p)) /\ Rabs (total_length cs - L) <= rs_pieces (h_type p) * rs_gap k s (h_type p) + rs_pieces (h_type p) * epsilon * p_radius (hc_cc_param k s) /\
    (h_type p = RS_E -> drives k s (rs_pieces (h_type p)) (rs_gap k s (h_type p)) s1 s2 cs L) /\
    (h_type p <> RS_E -> (h_type p = RS_T -> forall c, e_cend (h_entry p) = Some c -> c_kappa c = q_kappa (h_start p)) -> drives k s (rs_pieces (h_type p)) (rs_gap k s (h_type p)) s1 s2 cs L /\ hybrid (q_kappa (h_start p)) cs 0).
Proof.
  intros Hk Hs LM. destruct (max_facts k s Hk Hs) as (_ & _ & _ & _ & DT).
  destruct (hcpm0_reeds_shepp_exists k s s1 s2 Hk Hs ltac:(lra)) as (p & L & P & EL & LM' & LE).
  destruct (hcpm0_reeds_shepp_drives k s s1 s2 p L Hk Hs P EL LM') as (cs & PC & NE & REST).
  exists p, L, cs. unfold get_distance, get_controls. rewrite P. unfold path_distance. rewrite EL. repeat (split; [first [reflexivity|assumption|lra]|]). exact REST.
Qed.

(** The empty path is returned although the curvatures differ. *)
Lemma curvature_lost : exists cs, get_controls 1 1 (mkState 0 0 0 1 1) (mkState 0 0 0 0 1) = Some cs /\ forall k0 k1, bound_kappa 1 (mkState 0 0 0 1 1) k0 -> k1 = 0 -> ~ hybrid k0 cs k1.
Proof.
  assert (H1 : 0 < 1) by lra.
  assert (BIG : pos_dist (mkState 0 0 0 1 1) (mkState 0 0 0 0 1) + detour 1 1 < DBL_MAX).
  { unfold pos_dist, detour; cbn [st_x st_y]. replace ((0 - 0) ^ 2 + (0 - 0) ^ 2) with 0 by ring. rewrite sqrt_0. apply Rlt_le_trans with 1000; [lra|]. unfold DBL_MAX. apply IZR_le. vm_compute. discriminate. }
  destruct (max_facts 1 1 H1 H1) as (_ & _ & _ & _ & DT).
  destruct (hcpm0_reeds_shepp_exists 1 1 (mkState 0 0 0 1 1) (mkState 0 0 0 0 1) H1 H1 ltac:(lra)) as (p & L & P & EL & LM & _).
  pose proof (same_pose 1 1 (mkState 0 0 0 1 1) (mkState 0 0 0 0 1) p L eq_refl eq_refl eq_refl P EL LM) as PC.
  exists empty_controls. split; [unfold get_controls; rewrite P; exact PC|]. intros k0 k1 B0 B1. unfold empty_controls, hybrid.
  intros (c0 & c1 & cs1 & cs2 & d0 & d1 & E0 & E1 & K0 & _ & K1 & _). apply (f_equal (hd c0)) in E0. cbn in E0. change [mkControl 0 0 0] with ([] ++ [mkControl 0 0 0]) in E1. apply app_inj_tail in E1. destruct E1 as [_ E1]. subst c0 c1. cbn [ct_kappa ct_sigma ct_delta_s] in K0, K1. rewrite Rmult_0_l, Rplus_0_r in K1.
  destruct B0 as ([B0|B0] & _); lra.
Qed.

(** The turn is accepted although it ends on the other side of the goal. *)
Lemma wrong_side : exists L cs, get_distance 1 1 side_start' side_goal' = Some (Some L) /\ get_controls 1 1 side_start' side_goal' = Some cs /\ L <= 1 /\ 1 / 3 <= pos_dist (true_path side_start' cs) side_goal'.
Proof.
  assert (H1 : 0 < 1) by lra. destruct (side_centres' true false true true eq_refl) as (CD & LT & LF).
  set (a := configuration (st_x side_start') (st_y side_start') (st_theta side_start') (-1)) in *. set (b := configuration (st_x side_goal') (st_y side_goal') (st_theta side_goal') 0) in *.
  set (c1 := circle a false true true (rs_param 1)) in *. set (c2 := circle b true false true (hc_cc_param 1 1)) in *.
  assert (IN : exists e, In e (circles_table 1 1 c1 c2) /\ e_length e = Some 1).
  { unfold circles_table. cbv zeta. rewrite CD. assert (S1 : c_start c1 = a) by apply circle_all. assert (S2 : c_start c2 = b) by apply circle_all. rewrite S1, S2.
    replace (configuration_equal a b) with false.
    2: { symmetry. unfold configuration_equal. destruct (Rlt_dec epsilon (Rabs (q_theta b - q_theta a))) as [_|N]; [reflexivity|]. exfalso. apply N. pose proof FresProofs.PI_gt.
      unfold a, b, configuration, side_start', side_goal'; cbn [q_theta st_theta]. rewrite tw_0. rewrite tw_mhalf, Rabs_left by lra. unfold epsilon. lra. }
    rewrite (proj2 (Num.Rltb_true 0 epsilon) ltac:(unfold epsilon; lra)).
    eexists. split; [right; right; left; reflexivity|]. cbn [e_length]. f_equal. exact LF. }
  destruct IN as (e & IN & EW).
  assert (SK : skipped side_start' side_goal' 1 2 = false).
  { unfold skipped, side_start', side_goal'; cbn [st_kappa Nat.eqb andb orb]. unfold Rltb. repeat match goal with |- context [Rlt_dec ?u ?v] => destruct (Rlt_dec u v); cbn [orb]; try (exfalso; lra) end; reflexivity. }
  assert (BIG : 1 < DBL_MAX) by (apply Rlt_le_trans with 1000; [lra|]; unfold DBL_MAX; apply IZR_le; vm_compute; discriminate).
  destruct (plan_exists hc_cc_rs_types (circles_table 1 1) (skipped side_start' side_goal') (start_circles 1 side_start') (end_circles 1 1 side_goal') 4 4 1 2 c1 c2 e 1
    (table_first 1 1) (table_length 1 1) ltac:(lia) ltac:(lia) SK eq_refl eq_refl IN EW BIG) as (p & L & P & EP & LM & LW).
  assert (PP : hcpm0_reeds_shepp 1 1 side_start' side_goal' = Some p) by exact P.
  destruct (hcpm0_reeds_shepp_drives 1 1 side_start' side_goal' p L H1 H1 PP EP LM) as (cs & PC & _ & _ & RL & _).
  exists L, cs. unfold get_distance, get_controls. rewrite PP. unfold path_distance. rewrite EP. split; [reflexivity|split; [exact PC|split; [exact LW|]]].
  destruct unit_facts as ((RP & RM) & _). assert (B : rs_pieces (h_type p) * rs_gap 1 1 (h_type p) + rs_pieces (h_type p) * epsilon * p_radius (hc_cc_param 1 1) <= 1 / 100).
  { unfold rs_gap, rs_pieces, epsilon. destruct (h_type p); lra. }
  pose proof (Rle_abs (total_length cs - L)). destruct side_gap as [G1 G2]. pose proof (y_miss side_start' side_goal' cs (11 / 8) (1 + 1 / 100) ltac:(lra) G2). lra.
Qed.

(** * States between which the planners are indifferent to rotations, and states between which they are not *)
From Coq Require Import Reals ZArith List Lra Lia Bool.
From Coquelicot Require Import Rcomplements.
From Verif Require Import PlanCC0pmD.
From Verif Require Import Base ModelUtil ModelCircle ModelPaths Num UtilProofs SpecPath SpecTurn SpecSide SpecPlan SpecOpt SpecRigid PoseAlg TurnProofs LegProofs TurnBounds TangentProofs PlanProofs PlanFamily PlanTactics PlanBounds PlanSelect PlanCases PlanRefute SideProofs ModelCC0pmD.
Import ListNotations.
Open Scope R_scope.

(** ** Far states with different headings *)
Lemma apart_headings : ~ heading_within epsilon (mkState 0 0 0 0 1) (mkState 60 80 1 0 1).
Proof.
  intros [n N]. cbn [st_theta] in N. pose proof PI_RGT_0. pose proof FresProofs.PI_gt. apply Rabs_le_between in N. unfold epsilon in N.
  destruct (Z_le_gt_dec 0 n) as [L|L].
  - apply IZR_le in L. assert (0 <= PI * IZR n) by (apply Rmult_le_pos; lra). lra.
  - assert (L' : (n <= -1)%Z) by lia. apply IZR_le in L'. assert (PI * IZR n <= PI * -1) by (apply Rmult_le_compat_l; lra). lra.
Qed.
Lemma moved_case ka kb : let s1 := mkState 0 0 0 ka 1 in let s2 := mkState 60 80 1 kb 1 in
  0 < 1 /\ epsilon < 1 / 1 /\ distinct s1 s2 /\ unaligned s1 s2 /\ unaligned s2 s1 /\
  (forall l f, no_turn_00 1 1 l f s1 s2) /\ (forall l1 l2 f1 f2, turn_centre 1 1 l1 f1 s1 <> turn_centre 1 1 l2 f2 s2) /\
  (forall l, no_turn_pmpm 1 l s1 s2) /\ (forall l1 l2, arc_centre 1 l1 s1 <> arc_centre 1 l2 s2).
Proof.
  intros s1 s2. assert (D : pos_dist s1 s2 = 100).
  { unfold s1, s2, pos_dist; cbn [st_x st_y]. replace ((0 - 60) ^ 2 + (0 - 80) ^ 2) with (100 ^ 2) by ring. apply sqrt_pow2; lra. }
  assert (H1 : 0 < 1) by lra. destruct unit_facts as ((R0 & R1) & _).
  assert (HW : ~ heading_within epsilon s1 s2) by exact apart_headings.
  assert (HW2 : ~ heading_within epsilon s2 s1).
  { intros [n N]. apply HW. exists (- n)%Z. rewrite opp_IZR. replace (st_theta s1 - st_theta s2 - 2 * PI * - IZR n) with (- (st_theta s2 - st_theta s1 - 2 * PI * IZR n)) by ring. rewrite Rabs_Ropp. exact N. }
  assert (T : forall l f, hyp (sign f * (p_radius (hc_cc_param 1 1) * p_sin_mu (hc_cc_param 1 1))) (sign l * (p_radius (hc_cc_param 1 1) * p_cos_mu (hc_cc_param 1 1))) <= 42 / 10).
  { intros l f. rewrite (radius_XY 1 1 H1 H1 _ _ (pm1_sign f) (pm1_sign l)). lra. }
  assert (C : forall l, hyp 0 (sign l * (1 / 1)) = 1) by (intros l; apply hyp_eq; [lra|]; destruct l; unfold sign; field).
  assert (GT : forall l1 l2 f1 f2, 91 <= gap (turn_centre 1 1 l1 f1 s1) (turn_centre 1 1 l2 f2 s2)).
  { intros l1 l2 f1 f2. unfold turn_centre.
    pose proof (gap_far s1 s2 (sign f1 * (p_radius (hc_cc_param 1 1) * p_sin_mu (hc_cc_param 1 1))) (sign l1 * (p_radius (hc_cc_param 1 1) * p_cos_mu (hc_cc_param 1 1))) (sign f2 * (p_radius (hc_cc_param 1 1) * p_sin_mu (hc_cc_param 1 1))) (sign l2 * (p_radius (hc_cc_param 1 1) * p_cos_mu (hc_cc_param 1 1)))) as G.
    pose proof (T l1 f1). pose proof (T l2 f2). lra. }
  assert (GA : forall l1 l2, 91 <= gap (arc_centre 1 l1 s1) (arc_centre 1 l2 s2)).
  { intros l1 l2. unfold arc_centre. pose proof (gap_far s1 s2 0 (sign l1 * (1 / 1)) 0 (sign l2 * (1 / 1))) as G. rewrite !C in G. lra. }
  assert (Z : forall a b, 91 <= gap a b -> a <> b).
  { intros a b G E. destruct E. unfold gap in G. replace ((fst a - fst a) ^ 2 + (snd a - snd a) ^ 2) with 0 in G by ring. rewrite sqrt_0 in G. lra. }
  split; [exact H1|]. split; [unfold epsilon; lra|]. split; [left; exact HW|]. split; [left; exact HW|]. split; [left; exact HW2|].
  split; [|split; [|split]].
  - intros l f. unfold no_turn_00. specialize (GT l l f (negb f)). unfold epsilon. lra.
  - intros l1 l2 f1 f2. apply Z, GT.
  - intros l. unfold no_turn_pmpm. specialize (GA l l). unfold epsilon. lra.
  - intros l1 l2. apply Z, GA.
Qed.

(** ** Headings next to 0 and next to 2 pi *)
Lemma hc_turn_low start l f reg q : 1 <= hc_turn_length (circle start l f reg (hc_cc_param 1 1)) q.
Proof.
  assert (H1 : 0 < 1) by lra. unfold hc_turn_length. rewrite (abs_Lb 1 1 start l f reg H1 H1). set (c := circle _ _ _ _ _).
  pose proof (Rabs_pos (c_kappa_inv c * hc_circular_deflection c (deflection c q))). lra.
Qed.
Lemma cc_turn_low start l f reg q : 0 <= cc_turn_length (circle start l f reg (hc_cc_param 1 1)) q.
Proof. assert (H1 : 0 < 1) by lra. apply (cc_turn_bound 1 1 H1 H1). Qed.
Lemma dbl_big : 1 <= DBL_MAX.
Proof. unfold DBL_MAX. apply IZR_le. vm_compute. discriminate. Qed.
Ltac low :=
  repeat match goal with
  | |- context [hc_turn_length (circle ?a ?b ?c ?d (hc_cc_param 1 1)) ?q] => lazymatch goal with H : 1 <= hc_turn_length (circle a b c d (hc_cc_param 1 1)) q |- _ => fail | _ => pose proof (hc_turn_low a b c d q) end
  | |- context [cc_turn_length (circle ?a ?b ?c ?d (hc_cc_param 1 1)) ?q] => lazymatch goal with H : 0 <= cc_turn_length (circle a b c d (hc_cc_param 1 1)) q |- _ => fail | _ => pose proof (cc_turn_low a b c d q) end
  | |- context [configuration_distance ?a ?b] => lazymatch goal with H : 0 <= configuration_distance a b |- _ => fail | _ => assert (0 <= configuration_distance a b) by apply sqrt_pos end
  end; lra.
Lemma table_low c1 c2 e w : configuration_equal (c_start c1) (c_start c2) = false -> In e (circles_table 1 1 c1 c2) -> e_length e = Some w -> 1 <= w.
Proof.
  intros Q. pose proof dbl_big as DB. unfold circles_table. cbv zeta. rewrite Q. destruct (Rltb _ epsilon).
  - cbn [In]. intros IN EW. repeat destruct IN as [<-|IN]; try contradiction; cbn in EW; injection EW as <-; first [exact DB|low].
  - cbn [In]. intros IN EW. repeat destruct IN as [<-|IN]; try contradiction.
    all: try (cbn in EW; injection EW as <-; exact DB).
    + unfold entry_TT in EW. destruct (TT_exists _ _ _); [|cbn in EW; injection EW as <-; exact DB]. unfold TT_path in EW; cbn [e_length] in EW. injection EW as <-. low.
    + unfold entry_TST in EW. destruct (TST_exists _ _ _); [|cbn in EW; injection EW as <-; exact DB]. unfold TST_path in EW.
      destruct (TiST_exists _ _ _).
      * unfold TiST_path in EW. destruct (TiST_tangent_circles c1 c2) as [[q1 q2]|]; cbn [fbind e_length] in EW; [injection EW as <-; low|discriminate EW].
      * destruct (TeST_exists _ _ _); [|discriminate EW]. unfold TeST_path in EW. destruct (TeST_tangent_circles c1 c2) as [q1 q2]. cbn [e_length] in EW. injection EW as <-. low.
    + unfold entry_TTT in EW. destruct (TTT_exists _ _ _); [|cbn in EW; injection EW as <-; exact DB]. unfold TTT_path in EW.
      destruct (TTT_tangent_circles _ _ _ _ c1 c2) as [[[[q1 q2] q3] q4]|]; cbn [fbind e_length] in EW; [|discriminate EW].
      destruct (Rltb _ _); cbn [e_length] in EW; injection EW as <-; low.
Qed.
Lemma near_two_pi : twopify (- (epsilon / 2)) = 2 * PI - epsilon / 2.
Proof.
  pose proof FresProofs.PI_gt. pose proof (twopify_range (- (epsilon / 2))) as R0. destruct (twopify_ang (- (epsilon / 2))) as [n N]. rewrite N in R0 |- *.
  assert (n = 1%Z); [|subst n; ring].
  assert (L1 : IZR 0 < IZR n). { apply Rmult_lt_reg_l with (2 * PI); [lra|]. unfold epsilon in R0. lra. }
  assert (L2 : IZR n < IZR 2). { apply Rmult_lt_reg_l with (2 * PI); [lra|]. unfold epsilon, TWO_PI in R0. lra. }
  apply lt_IZR in L1, L2. lia.
Qed.
Lemma rotation_refuted : exists s1 s2 L, get_distance 1 1 true s1 s2 = Some (Some L) /\ 1 <= L /\
  get_distance 1 1 true (rigid 0 0 PI s1) (rigid 0 0 PI s2) = Some (Some 0).
Proof.
  set (s1 := mkState 0 0 0 0 1). set (s2 := mkState 0 0 (- (epsilon / 2)) 1 1). assert (H1 : 0 < 1) by lra. pose proof FresProofs.PI_gt as PG. pose proof PI_4 as P4.
  assert (PD : forall a b, st_x a = st_x b -> st_y a = st_y b -> pos_dist a b + detour 1 1 < DBL_MAX).
  { intros a b X Y. unfold pos_dist. rewrite X, Y. replace ((st_x b - st_x b) ^ 2 + (st_y b - st_y b) ^ 2) with 0 by ring. rewrite sqrt_0. destruct (case_near 0 0) as (_ & _ & C). pose proof (sqrt_pos ((0 - 3) ^ 2 + (0 - 4) ^ 2)) as SP. unfold pos_dist in C; cbn [st_x st_y] in C. lra. }
  exists s1, s2.
  destruct (cc0pm_dubins_plan 1 1 true s1 s2 H1 H1 (PD s1 s2 eq_refl eq_refl)) as (p & L & cs & P & G & _).
  exists L. split; [exact G|].
  assert (IN : In (Some p) (paths 1 1 true s1 s2)) by (apply select_path_in; exact P).
  split.
  - apply paths_in in IN. destruct IN as (i & j & c1 & c2 & SK & N1 & N2 & S). unfold cc0pm_circles_dubins_path in S. destruct (select_entry_in _ _ _ _ _ S) as (IC & _ & _).
    apply in_combine_r in IC. unfold get_distance in G. rewrite P in G. unfold path_distance in G. injection G as G.
    apply (table_low c1 c2 (h_entry p) L); [|exact IC|exact G].
    assert (E1 : q_theta (c_start c1) = 0).
    { unfold start_circles in N1. assert (Z : twopify 0 = 0) by (apply twopify_id; unfold TWO_PI; lra). destruct i as [|[|n]]; cbn [nth_error] in N1; [| |destruct n; discriminate N1]; injection N1 as <-;
        rewrite (proj1 (circle_all _ _ _ _ _)); exact Z. }
    assert (E2 : q_theta (c_start c2) = 2 * PI - epsilon / 2).
    { unfold end_circles in N2. destruct j as [|[|n]]; cbn [nth_error] in N2; [| |destruct n; discriminate N2]; injection N2 as <-;
        rewrite (proj1 (circle_all _ _ _ _ _)); exact near_two_pi. }
    unfold configuration_equal. rewrite E1, E2. destruct (Rlt_dec epsilon _) as [|N]; [reflexivity|]. exfalso. apply N. rewrite Rabs_pos_eq; unfold epsilon; lra.
  - set (r1 := rigid 0 0 PI s1). set (r2 := rigid 0 0 PI s2).
    assert (TH : forall c1 c2 i j, nth_error (start_circles 1 1 true r1) i = Some c1 -> nth_error (end_circles 1 true r2) j = Some c2 -> configuration_equal (c_start c1) (c_start c2) = true).
    { intros c1 c2 i j N1 N2.
      assert (E1 : c_start c1 = mkConf 0 0 PI (q_kappa (c_start c1))).
      { unfold start_circles in N1. destruct i as [|[|n]]; cbn [nth_error] in N1; [| |destruct n; discriminate N1]; injection N1 as <-;
          rewrite (proj1 (circle_all _ _ _ _ _)); unfold configuration, r1, s1, rigid; cbn [st_x st_y st_theta q_kappa]; f_equal; try ring; rewrite Rplus_0_l; apply twopify_id; unfold TWO_PI; lra. }
      assert (E2 : c_start c2 = mkConf 0 0 (PI - epsilon / 2) (q_kappa (c_start c2))).
      { unfold end_circles in N2. destruct j as [|[|n]]; cbn [nth_error] in N2; [| |destruct n; discriminate N2]; injection N2 as <-;
          rewrite (proj1 (circle_all _ _ _ _ _)); unfold configuration, r2, s2, rigid; cbn [st_x st_y st_theta q_kappa]; f_equal; try ring; replace (- (epsilon / 2) + PI) with (PI - epsilon / 2) by ring; apply twopify_id; unfold epsilon, TWO_PI; lra. }
      rewrite E1, E2. unfold configuration_equal, configuration_distance, point_distance; cbn [q_x q_y q_theta].
      destruct (Rlt_dec epsilon (Rabs _)) as [N|]; [exfalso; replace (PI - epsilon / 2 - PI) with (- (epsilon / 2)) in N by ring; rewrite Rabs_Ropp, Rabs_pos_eq in N; unfold epsilon in *; lra|].
      destruct (Rlt_dec epsilon _) as [N|]; [|reflexivity]. exfalso. replace ((0 - 0) ^ 2 + (0 - 0) ^ 2) with 0 in N by ring. rewrite sqrt_0 in N. unfold epsilon in N. lra. }
    assert (M1 : exists d1, nth_error (start_circles 1 1 true r1) 0 = Some d1) by (eexists; reflexivity). destruct M1 as [d1 M1].
    assert (M2 : exists d2, nth_error (end_circles 1 true r2) 0 = Some d2) by (eexists; reflexivity). destruct M2 as [d2 M2].
    destruct (plan_exists cc_dubins_types (circles_table 1 1) (skipped r1 r2) (start_circles 1 1 true r1) (end_circles 1 true r2) 2 2 0 0 d1 d2 (mkEntry (Some 0) None None None None None None None None) 0
      (table_first 1 1) (table_length 1 1) ltac:(lia) ltac:(lia)) as (p' & L' & P' & EL' & LM & LW).
    + unfold skipped. cbn [Nat.eqb andb orb]. destruct (Rltb (st_kappa r2) 0) eqn:Q; [|reflexivity]. apply Rltb_true in Q. cbn in Q. lra.
    + exact M1.
    + exact M2.
    + unfold circles_table. rewrite (TH d1 d2 0%nat 0%nat M1 M2). left. reflexivity.
    + reflexivity.
    + pose proof dbl_big. lra.
    + assert (PP : cc0pm_dubins 1 1 true r1 r2 = Some p') by exact P'. unfold get_distance. rewrite PP. unfold path_distance. rewrite EL'. do 2 f_equal.
      pose proof (select_path_in _ _ P') as IN'. apply paths_in in IN'. destruct IN' as (i & j & c1 & c2 & SK & N1 & N2 & S). destruct (select_entry_in _ _ _ _ _ S) as (IC & _ & _). apply in_combine_r in IC.
      unfold circles_table in IC. rewrite (TH c1 c2 i j N1 N2) in IC. pose proof dbl_big as DB. cbn [In] in IC. repeat destruct IC as [E|IC]; try contradiction; rewrite <- E in EL'; cbn in EL'; injection EL' as <-; lra.
Qed.

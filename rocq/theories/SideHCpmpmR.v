(** * The planner of ModelHCpmpmR.v between states that are clear of each other *)
From Coq Require Import Reals ZArith List Lra Lia Bool.
From Verif Require Import Base ModelUtil ModelCircle ModelPaths ModelHCpmpmR Num UtilProofs SpecPath SpecTurn SpecPlan SpecSide PoseAlg TurnProofs MotionProofs TurnBounds LegProofs TangentProofs PlanProofs PlanTactics PlanHybrid PlanFamily PlanEnds PlanBounds PlanSelect PlanHCpmpmR SideProofs.
Import ListNotations.
Open Scope R_scope.

Lemma table_type k s a b l1 f1 l2 f2 c1 c2 t e L : 0 < k -> 0 < s ->
  c1 = circle a l1 f1 true (rs_param k) -> c2 = circle b l2 f2 true (rs_param k) ->
  In (t, e) (combine hc_cc_rs_types (circles_table k s c1 c2)) -> e_length e = Some L -> L < DBL_MAX ->
  (t = RS_E -> configuration_equal a b = true) /\
  (t = RS_T -> (configuration_on_hc_cc_circle c1 b = true) /\ forall c, e_cstart e = Some c -> c_kappa c = sign l1 * k).
Proof.
  intros Hk Hs H1 H2 IN EL LM.
  assert (S1 : c_start c1 = a) by (subst c1; apply circle_all). assert (S2 : c_start c2 = b) by (subst c2; apply circle_all).
  destruct (facts_rs k c1 a l1 f1 _ Hk H1) as (_ & EL1 & F1 & _ & _ & _ & _ & _ & _ & _ & _ & K1 & _). destruct (facts_rs k c2 b l2 f2 _ Hk H2) as (_ & EL2 & F2 & _ & _ & _ & _ & _ & _ & _ & _ & K2 & _).
  unfold circles_table in IN. cbv zeta in IN. rewrite S1, S2 in IN. unfold hc_cc_rs_types in IN.
  destruct (configuration_equal a b) eqn:QE; [cbn [combine In] in IN; entries|destruct (configuration_on_hc_cc_circle c1 b) eqn:QT; [cbn [combine In] in IN; entries|cbn [combine In] in IN; entries]].
  all: split; intros E0; try discriminate E0; try reflexivity. split; [reflexivity|]. intros c EC.
  cbn [e_cstart] in EC. apply (f_equal (fun o => match o with Some y => y | None => c end)) in EC; cbv beta iota in EC. subst c.
  rewrite ?EL1, ?F1, ?EL2, ?F2. apply (facts_rs k _ a l1 f1 _ Hk eq_refl).
Qed.

Theorem hcpmpm_reeds_shepp_types k s s1 s2 p L : 0 < k -> 0 < s -> hcpmpm_reeds_shepp k s s1 s2 = Some p -> e_length (h_entry p) = Some L -> L < DBL_MAX -> clear_pmpm k s1 s2 ->
  h_type p <> RS_E /\ (h_type p = RS_T -> forall c, e_cstart (h_entry p) = Some c -> c_kappa c = q_kappa (h_end p)).
Proof.
  intros Hk Hs P EL LM CL. apply select_path_in in P. unfold paths in P. apply paths_in in P. destruct P as (i & j & c1 & c2 & SK & N1 & N2 & S).
  destruct (circles_of k s s1 s2 i j c1 c2 SK N1 N2) as (a & b & l1 & f1 & l2 & f2 & H1 & H2 & A1 & A2 & C1 & C2 & Q1 & Q2 & SIDE).
  unfold hcpmpm_circles_rs_path in S. apply select_entry_in in S. destruct S as (IN & ST & EN).
  destruct (table_type k s a b l1 f1 l2 f2 c1 c2 _ _ L Hk Hs H1 H2 IN EL LM) as (TE & TT).
  assert (S1 : c_start c1 = a) by (subst c1; apply circle_all). assert (S2 : c_start c2 = b) by (subst c2; apply circle_all). rewrite S1 in ST. rewrite S2 in EN.
  destruct (facts_rs k c1 a l1 f1 _ Hk H1) as (_ & _ & _ & _ & R1 & _ & _ & _ & _ & _ & _ & _ & O1). destruct (facts_rs k c2 b l2 f2 _ Hk H2) as (_ & _ & _ & _ & _ & _ & _ & _ & _ & _ & _ & _ & O2).
  destruct CL as (AP & CL). split; [intros E0; pose proof (apart_unequal s1 s2 a b AP C1 C2) as NE; rewrite (TE E0) in NE; discriminate NE|].
  intros E0 c EC. destruct (TT E0) as (QT & KC). rewrite (KC c EC), EN, Q2.
  destruct CL as [CL|CL].
  - destruct SIDE as (SP1 & SN1 & SP2 & SN2). destruct (Rlt_dec 0 (st_kappa s1)) as [P1|P1].
    + rewrite (SP1 P1), (SP2 (pos_left _ _ P1 CL)). reflexivity.
    + destruct (neg_both _ _ P1 CL) as (P1' & P2'). rewrite (SN1 P1'), (SN2 P2'). reflexivity.
  - pose proof (arc_away k s1 l1 c1 b s2 (off_beside c1 s1 a _ _ C1 O1) R1 C2 (CL l1)) as NO. rewrite QT in NO. discriminate NO.
Qed.

Theorem hcpmpm_reeds_shepp_clear k s s1 s2 : 0 < k -> 0 < s -> pos_dist s1 s2 + detour k s < DBL_MAX -> clear_pmpm k s1 s2 ->
  exists t L cs k0 k1, get_distance k s s1 s2 = Some (Some L) /\ get_controls k s s1 s2 = Some cs /\ L <= pos_dist s1 s2 + detour k s /\ cs <> [] /\
    bound_kappa k s1 k0 /\ bound_kappa k s2 k1 /\ drives k s (rs_pieces t) (rs_gap k s t) s1 s2 cs L /\ hybrid k0 cs k1.
Proof.
  intros Hk Hs LM CL. destruct (max_facts k s Hk Hs) as (_ & _ & _ & _ & DT).
  destruct (hcpmpm_reeds_shepp_exists k s s1 s2 Hk Hs ltac:(lra)) as (p & L & P & EL & LM' & LE).
  destruct (hcpmpm_reeds_shepp_types k s s1 s2 p L Hk Hs P EL LM' CL) as (NE & TT).
  destruct (hcpmpm_reeds_shepp_drives k s s1 s2 p L Hk Hs P EL LM') as (cs & PC & NC & B0 & B1 & DR & CH). destruct (CH NE) as (k1 & CC & EK). rewrite (EK TT) in CC.
  exists (h_type p), L, cs, (q_kappa (h_start p)), (q_kappa (h_end p)). unfold get_distance, get_controls. rewrite P. unfold path_distance. rewrite EL. repeat (split; [first [reflexivity|assumption|lra]|]). exact CC.
Qed.

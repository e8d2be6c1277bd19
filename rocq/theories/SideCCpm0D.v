(** * The planner of ModelCCpm0D.v between states that are clear of each other *)
From Coq Require Import Reals ZArith List Lra Lia Bool.
From Verif Require Import Base ModelUtil ModelCircle ModelPaths ModelCCpm0D Num UtilProofs SpecPath SpecTurn SpecPlan SpecSide PoseAlg TurnProofs MotionProofs TurnBounds LegProofs TangentProofs PlanProofs PlanTactics PlanHybrid PlanFamily PlanEnds PlanBounds PlanSelect PlanCCpm0D SideProofs.
Import ListNotations.
Open Scope R_scope.

Lemma table_type k s a b l1 f1 l2 f2 c1 c2 t e L : 0 < k -> 0 < s ->
  c1 = circle a l1 f1 true (rs_param k) -> c2 = circle b l2 f2 true (hc_cc_param k s) ->
  In (t, e) (combine cc_dubins_types (circles_table k s c1 c2)) -> e_length e = Some L -> L < DBL_MAX ->
  (t = D_E -> configuration_equal a b = true) /\
  (t = D_T -> Rltb (center_distance c1 c2) epsilon = true /\ forall c, e_cend e = Some c -> c_kappa c = sign l2 * k).
Proof.
  intros Hk Hs H1 H2 IN EL LM.
  assert (S1 : c_start c1 = a) by (subst c1; apply circle_all). assert (S2 : c_start c2 = b) by (subst c2; apply circle_all).
  destruct (facts_rs k c1 a l1 f1 _ Hk H1) as (_ & EL1 & F1 & _ & _ & _ & _ & _ & _ & _ & _ & K1 & _). destruct (facts_cc k s c2 b l2 f2 _ Hk H2) as (_ & EL2 & F2 & _ & _ & _ & _ & _ & _ & _ & _ & K2 & _).
  unfold circles_table in IN. cbv zeta in IN. rewrite S1, S2 in IN. unfold cc_dubins_types in IN.
  destruct (configuration_equal a b) eqn:QE; [cbn [combine In] in IN; entries|destruct (Rltb (center_distance c1 c2) epsilon) eqn:QT; [cbn [combine In] in IN; entries|cbn [combine In] in IN; entries]].
  all: split; intros E0; try discriminate E0; try reflexivity. split; [reflexivity|]. intros c EC.
  cbn [e_cend] in EC. apply (f_equal (fun o => match o with Some y => y | None => c end)) in EC; cbv beta iota in EC. subst c.
  rewrite ?EL1, ?F1, ?EL2, ?F2. apply (facts_cc k s _ b l2 f2 _ Hk eq_refl).
Qed.

Theorem ccpm0_dubins_types k s fw s1 s2 p L : 0 < k -> 0 < s -> ccpm0_dubins k s fw s1 s2 = Some p -> e_length (h_entry p) = Some L -> L < DBL_MAX -> clear_pm0 k s s1 s2 ->
  h_type p <> D_E /\ (h_type p = D_T -> forall c, e_cend (h_entry p) = Some c -> c_kappa c = q_kappa (h_start p)).
Proof.
  intros Hk Hs P EL LM CL. apply select_path_in in P. unfold paths in P. apply paths_in in P. destruct P as (i & j & c1 & c2 & SK & N1 & N2 & S).
  destruct (circles_of k s fw s1 s2 i j c1 c2 SK N1 N2) as (a & b & l1 & f1 & l2 & f2 & H1 & H2 & A1 & A2 & C1 & C2 & Q1 & Q2 & _ & _ & SIDE).
  unfold ccpm0_circles_dubins_path in S. apply select_entry_in in S. destruct S as (IN & ST & EN).
  destruct (table_type k s a b l1 f1 l2 f2 c1 c2 _ _ L Hk Hs H1 H2 IN EL LM) as (TE & TT).
  assert (S1 : c_start c1 = a) by (subst c1; apply circle_all). assert (S2 : c_start c2 = b) by (subst c2; apply circle_all). rewrite S1 in ST. rewrite S2 in EN.
  destruct (facts_rs k c1 a l1 f1 _ Hk H1) as (_ & _ & _ & _ & R1 & _ & _ & _ & _ & _ & _ & _ & O1). destruct (facts_cc k s c2 b l2 f2 _ Hk H2) as (_ & _ & _ & _ & _ & _ & _ & _ & _ & _ & _ & _ & O2).
  destruct CL as (AP & CL). split; [intros E0; pose proof (apart_unequal s1 s2 a b AP C1 C2) as NE; rewrite (TE E0) in NE; discriminate NE|].
  intros E0 c EC. destruct (TT E0) as (QT & KC). rewrite (KC c EC), ST, Q1.
  apply Num.Rltb_true in QT. destruct (bool_dec l2 l1) as [->|NL]; [reflexivity|]. exfalso. assert (l1 = negb l2) by (destruct l1, l2; try reflexivity; elim NL; reflexivity). subst l1.
  pose proof (CL l2 f2) as C. rewrite (gap_centres c1 c2 _ _ (off_beside c1 s1 a _ _ C1 O1) (off_beside c2 s2 b _ _ C2 O2)) in QT. unfold turn_centre, arc_centre in C. lra.
Qed.

Theorem ccpm0_dubins_clear k s fw s1 s2 : 0 < k -> 0 < s -> pos_dist s1 s2 + detour k s < DBL_MAX -> clear_pm0 k s s1 s2 ->
  exists t L cs k0, get_distance k s fw s1 s2 = Some (Some L) /\ get_controls k s fw s1 s2 = Some cs /\ L <= pos_dist s1 s2 + detour k s /\ cs <> [] /\
    bound_kappa k s1 k0 /\ drives k s (dubins_pieces t) (dubins_gap k s t) s1 s2 cs L /\ curvature_chain k0 cs 0.
Proof.
  intros Hk Hs LM CL. destruct (max_facts k s Hk Hs) as (_ & _ & _ & _ & DT).
  destruct (ccpm0_dubins_exists k s fw s1 s2 Hk Hs ltac:(lra)) as (p & L & P & EL & LM' & LE).
  destruct (ccpm0_dubins_types k s fw s1 s2 p L Hk Hs P EL LM' CL) as (NE & TT).
  destruct (ccpm0_dubins_drives k s fw s1 s2 p L Hk Hs P EL LM') as (cs & PC & NC & B1 & _ & _ & DR). destruct (DR NE TT) as (DR' & CC).
  exists (h_type p), L, cs, (q_kappa (h_start p)). unfold get_distance, get_controls. rewrite P. unfold path_distance. rewrite EL. repeat (split; [first [reflexivity|assumption|lra]|]). exact CC.
Qed.

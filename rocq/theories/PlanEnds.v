(** * Paths of a single turn *)
From Coq Require Import Reals ZArith List Lra Lia Bool.
From Verif Require Import Base ModelUtil ModelCircle ModelPaths Num UtilProofs SpecPath SpecTurn SpecPlan PoseAlg TurnProofs MotionProofs TurnBounds LegProofs TangentProofs PlanProofs PlanTactics PlanHybrid PlanFamily.
Import ListNotations.
Open Scope R_scope.

Section Ends.
  Variables (k s : R).
  Hypothesis Hk : 0 < k.
  Hypothesis Hs : 0 < s.
  Local Notation p := (hc_cc_param k s).
  Local Notation g := (epsilon * (1 + p_radius p + 1 / k)).

  Lemma gap_T : 0 <= epsilon /\ 0 <= p_radius p /\ 0 < 1 / k /\ epsilon <= g /\ epsilon * (1 + p_radius p) <= g /\ epsilon * (1 + 1 / k) <= g.
  Proof.
    pose proof (radius_nonneg k s Hk Hs) as RP. pose proof eps_pos as EP. assert (0 < 1 / k) by (apply Rdiv_lt_0_compat; lra).
    assert (0 <= epsilon * p_radius p) by (apply Rmult_le_pos; lra). assert (0 <= epsilon * (1 / k)) by (apply Rmult_le_pos; lra). lra.
  Qed.
  Lemma single l a b k0 k1 : leg_ok k s g l a k0 b k1 -> good k s g 1 a b k0 k1 (leg_controls l) (leg_length l).
  Proof.
    intros H. destruct gap_T as (EP & RP & KP & G0 & _). eapply (by_chain k s Hk Hs _ [l] _ _ [(k0, k1)]).
    - lra.
    - discriminate.
    - eapply ch_cons; [apply conf_eq_refl|exact H|apply ch_nil, conf_eq_refl].
    - cbn; auto.
    - unfold legs_controls; cbn [flat_map]; rewrite ?app_nil_r; reflexivity.
    - unfold legs_length; cbn [fold_right]; ring.
    - cbn [length INR]; ring.
  Qed.
  (** The goal lies on the circle of the start: curvature 0 at both ends. *)
  Lemma T_cc a b l f reg reg' : configuration_on_hc_cc_circle (circle a l f reg p) b = true ->
    good k s g 1 a b 0 0 (cc_turn_controls (circle a l f reg' p) b true) (cc_turn_length (circle a l f reg' p) b).
  Proof.
    intros T. assert (T' : configuration_on_hc_cc_circle (circle a l f reg' p) b = true) by (rewrite <- T; destruct l, f; reflexivity). clear T; rename T' into T. destruct gap_T as (EP & RP & KP & _ & G1 & _).
    destruct (circle_set k s _ a l f reg' eq_refl) as (EL1 & F1 & G & R1 & M1 & SM1 & CM1 & _). destruct (mu_sin k s Hk Hs) as [SM CM].
    apply on_circle_gap in T; [|congruence|congruence|rewrite R1; exact RP]. rewrite R1 in T.
    apply (single (LC (circle a l f reg' p) b true)), ok_cc. unfold cc_tangent in *. lra.
  Qed.
  (** The circles of the two ends coincide. *)
  Lemma centre_near c1 c2 q lx ly : off c2 q lx ly -> center_distance c1 c2 < epsilon -> gapped c1 q lx ly epsilon.
  Proof.
    unfold off, gapped, centre_gap, frame, pcf, center_distance; cbn [px py pt]. intros O D. apply pair_equal_spec in O. destruct O as [OX OY].
    rewrite <- OX, <- OY. unfold point_distance in D. left. exact D.
  Qed.
  Lemma center_distance_sym c1 c2 : center_distance c1 c2 = center_distance c2 c1.
  Proof. unfold center_distance. f_equal. ring. Qed.
  Lemma T_hc a b l f f2 reg reg1 reg2 : center_distance (circle a l f reg1 p) (circle b l f2 reg2 (rs_param k)) < epsilon ->
    good k s g 1 a b 0 (sign l * k) (hc_turn_controls (circle a l f reg p) b true) (hc_turn_length (circle a l f reg p) b).
  Proof.
    intros D. destruct gap_T as (EP & RP & KP & G0 & _). apply (single (LH (circle a l f reg p) b true)), ok_hc.
    destruct (rs_fields k b l f2 reg2) as (_ & _ & _ & _ & _ & _ & O2). pose proof (centre_near _ _ _ _ _ O2 D) as G2.
    eapply (mk_hc2 k s Hk g 0 epsilon a l f reg b); [apply gapped_0, circle_off|exact G2|lra].
  Qed.
  Lemma T_hc' a b l f f2 reg reg1 reg2 : center_distance (circle a l f reg1 (rs_param k)) (circle b l f2 reg2 p) < epsilon ->
    good k s g 1 a b (sign l * k) 0 (hc_turn_controls (circle b l f2 reg p) a false) (hc_turn_length (circle b l f2 reg p) a).
  Proof.
    intros D. destruct gap_T as (EP & RP & KP & G0 & _). apply (single (LH (circle b l f2 reg p) a false)), ok_hc'.
    destruct (rs_fields k a l f reg1) as (_ & _ & _ & _ & _ & _ & O1). rewrite center_distance_sym in D. pose proof (centre_near _ _ _ _ _ O1 D) as G2.
    eapply (mk_hc2 k s Hk g 0 epsilon b l f2 reg a); [apply gapped_0, circle_off|exact G2|lra].
  Qed.
  (** The goal lies on the arc of the start. *)
  Lemma T_rs a b l f reg reg' : configuration_on_hc_cc_circle (circle a l f reg (rs_param k)) b = true ->
    good k s g 1 a b (sign l * k) (sign l * k) (rs_turn_controls (circle a l f reg' (rs_param k)) b true) (rs_turn_length (circle a l f reg' (rs_param k)) b).
  Proof.
    intros T. assert (T' : configuration_on_hc_cc_circle (circle a l f reg' (rs_param k)) b = true) by (rewrite <- T; destruct l, f; reflexivity). clear T; rename T' into T. destruct gap_T as (EP & RP & KP & _ & _ & G2).
    destruct (facts_rs k _ a l f reg' Hk eq_refl) as (S1 & EL1 & F1 & G & R1 & M1 & SM1 & CM1 & AK1 & AI1 & KQ1 & K1 & O1).
    apply on_circle_gap in T; [|rewrite SM1, M1, sin_0; reflexivity|rewrite CM1, M1, cos_0; reflexivity|rewrite R1; lra]. rewrite R1 in T.
    apply (single (LR (circle a l f reg' (rs_param k)) b true)), ok_rs. unfold hc_tangent, cc_tangent in *. rewrite SM1, CM1, EL1, F1, R1 in T. rewrite K1.
    eapply Rle_trans; [|exact G2]. eapply Rle_trans; [|exact T]. right. f_equal; [ring|]. destruct l; unfold sign; field; lra.
  Qed.
End Ends.

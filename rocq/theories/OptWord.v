(** * Lengths of the candidates against the lengths of the paths CSC and CCC *)
From Coq Require Import Reals ZArith List Lra Lia Bool.
From Verif Require Import Base ModelUtil ModelCircle ModelPaths Num UtilProofs SpecPath SpecTurn SpecSide SpecOpt PoseAlg TurnProofs LegProofs TangentProofs PlanProofs PlanTactics PlanBounds PlanRadius OptProofs OptTangent.
Import ListNotations.
Open Scope R_scope.

Section Word.
  Variables (k s : R).
  Hypothesis Hk : 0 < k.
  Hypothesis Hs : 0 < s.
  Hypothesis HE : epsilon < k / s.
  Local Notation p := (hc_cc_param k s).
  Local Notation r := (p_radius p).
  Local Notation X := (p_radius p * p_sin_mu p).
  Local Notation Y := (p_radius p * p_cos_mu p).
  Local Notation L := (k / s).

  Lemma lib_app st a b : lib_path st (a ++ b) = lib_path (lib_path st a) b.
  Proof. apply fold_left_app. Qed.
  Lemma csc_word z1 z2 l1 l2 f a1 d a2 s1 s2 : same_pose (lib_path s1 (csc k s z1 z2 l1 l2 f a1 d a2)) s2 ->
    exists qa qb, turn_rel k s z1 true l1 f a1 (pst s1) (pcf qa) /\ straight_by (sign f * d) qa qb /\ turn_rel k s true z2 l2 f a2 (pcf qb) (pst s2).
  Proof.
    unfold csc. rewrite !lib_app. set (st1 := lib_path s1 _). set (st2 := lib_path st1 _). intros E. exists (conf_of st1), (conf_of st2).
    split; [exact (first_rel k s Hk Hs HE z1 l1 f a1 s1)|]. split; [exact (step_line st1 f d)|].
    refine (turn_rel_congr _ _ _ _ _ _ _ _ _ _ _ (peq_refl _) _ (last_rel k s Hk Hs HE z2 l2 f a2 st2)). exact E.
  Qed.
  Lemma ccc_word z1 z2 l f a1 a2 a3 s1 s2 : same_pose (lib_path s1 (ccc k s z1 z2 l f a1 a2 a3)) s2 ->
    exists qa qb, turn_rel k s z1 true l f a1 (pst s1) (pcf qa) /\ turn_rel k s true true (negb l) f a2 (pcf qa) (pcf qb) /\ turn_rel k s true z2 l f a3 (pcf qb) (pst s2).
  Proof.
    unfold ccc. rewrite !lib_app. set (st1 := lib_path s1 _). set (st2 := lib_path st1 _). intros E. exists (conf_of st1), (conf_of st2).
    split; [exact (first_rel k s Hk Hs HE z1 l f a1 s1)|]. split; [exact (first_rel k s Hk Hs HE true (negb l) f a2 st1)|].
    refine (turn_rel_congr _ _ _ _ _ _ _ _ _ _ _ (peq_refl _) _ (last_rel k s Hk Hs HE z2 l f a3 st2)). exact E.
  Qed.

  Definition end_len (z : bool) (a : R) : R := if z then 2 * L + a else L + a.
  Lemma abs_step f a : 0 <= a -> Rabs (sign f * a) = a.
  Proof. apply abs_pm, pm1_sign. Qed.
  Lemma csc_length z1 z2 l1 l2 f a1 d a2 : 0 <= a1 -> 0 <= d -> 0 <= a2 -> total_length (csc k s z1 z2 l1 l2 f a1 d a2) = end_len z1 a1 + d + end_len z2 a2.
  Proof.
    intros A1 D A2. pose proof (L_pos' k s Hk Hs) as LP. unfold csc, first_turn, last_turn, end_len. destruct z1, z2; cbn [app total_length fold_right steer arc unsteer line ct_delta_s]; rewrite !abs_step by lra; ring.
  Qed.
  Lemma ccc_length z1 z2 l f a1 a2 a3 : 0 <= a1 -> 0 <= a2 -> 0 <= a3 -> total_length (ccc k s z1 z2 l f a1 a2 a3) = end_len z1 a1 + end_len true a2 + end_len z2 a3.
  Proof.
    intros A1 A2 A3. pose proof (L_pos' k s Hk Hs) as LP. unfold ccc, first_turn, last_turn, end_len. destruct z1, z2; cbn [app total_length fold_right steer arc unsteer line ct_delta_s]; rewrite !abs_step by lra; ring.
  Qed.

  (** The turns at the ends and between two turns, as the planners build them. *)
  Definition first_ok (z l f : bool) (A : R) (a q : Configuration) : Prop :=
    if z then forall reg, cc_turn_length (circle a l f reg p) q <= A
    else forall reg a', ang_eq (q_theta a') (q_theta a) -> hc_turn_length (circle q l (negb f) reg p) a' <= A.
  Definition last_ok (z l f : bool) (A : R) (b q : Configuration) : Prop :=
    if z then forall reg, cc_turn_length (circle b l (negb f) reg p) q <= A
    else forall reg b', ang_eq (q_theta b') (q_theta b) -> hc_turn_length (circle q l f reg p) b' <= A.
  Definition mid_ok (l f : bool) (A : R) (q1 q2 : Configuration) : Prop := forall reg, cc_turn_length (circle q1 l f reg p) q2 <= A.

  Lemma rel_ang z1 z2 l f a P Q q1 q2 : turn_rel k s z1 z2 l f a P Q -> ang_eq q1 (pt P) -> ang_eq q2 (pt Q) ->
    ang_eq q2 (q1 + sign f * sign l * ((if z1 then par_t k s else 0) + (if z2 then par_t k s else 0) + k * a)).
  Proof. intros [_ A] B C. eapply ang_eq_trans; [exact C|]. eapply ang_eq_trans; [exact A|]. apply ang_eq_add; [apply ang_eq_sym, B|apply ang_eq_refl]. Qed.
  Lemma ang_conv x y z : ang_eq x y -> y = z -> ang_eq x z. Proof. intros A <-. exact A. Qed.

  Lemma first_len z l f a s1 qs qa q : 0 <= a -> turn_rel k s z true l f a (pst s1) (pcf qa) -> at_conf s1 qs -> ang_eq (q_theta q) (q_theta qa) -> first_ok z l f (end_len z a) qs q.
  Proof.
    intros A0 T (_ & _ & A) B. cbn [pst pcf pt] in A. unfold first_ok, end_len. destruct z.
    - intros reg. apply (cc_len k s Hk Hs HE); [exact A0|]. eapply ang_conv; [exact (rel_ang _ _ _ _ _ _ _ _ _ T (ang_eq_sym _ _ A) B)|cbv beta iota; ring].
    - intros reg a' A'. apply (hc_len k s Hk Hs); [exact A0|]. apply turn_rel_sym in T.
      eapply ang_conv; [exact (rel_ang _ _ _ _ _ _ _ _ _ T B (ang_eq_trans _ _ _ A' (ang_eq_sym _ _ A)))|cbv beta iota; ring].
  Qed.
  Lemma last_len z l f a s2 qe qb q : 0 <= a -> turn_rel k s true z l f a (pcf qb) (pst s2) -> at_conf s2 qe -> ang_eq (q_theta q) (q_theta qb) -> last_ok z l f (end_len z a) qe q.
  Proof.
    intros A0 T (_ & _ & A) B. cbn [pst pcf pt] in A. unfold last_ok, end_len. destruct z.
    - intros reg. apply (cc_len k s Hk Hs HE); [exact A0|]. apply turn_rel_sym in T. eapply ang_conv; [exact (rel_ang _ _ _ _ _ _ _ _ _ T (ang_eq_sym _ _ A) B)|cbv beta iota; ring].
    - intros reg b' A'. apply (hc_len k s Hk Hs); [exact A0|].
      eapply ang_conv; [exact (rel_ang _ _ _ _ _ _ _ _ _ T B (ang_eq_trans _ _ _ A' (ang_eq_sym _ _ A)))|cbv beta iota; ring].
  Qed.
  Lemma mid_len l f a qa qb q1 q2 : 0 <= a -> turn_rel k s true true l f a (pcf qa) (pcf qb) -> ang_eq (q_theta q1) (q_theta qa) -> ang_eq (q_theta q2) (q_theta qb) -> mid_ok l f (end_len true a) q1 q2.
  Proof.
    intros A0 T A B reg. apply (cc_len k s Hk Hs HE); [exact A0|]. eapply ang_conv; [exact (rel_ang _ _ _ _ _ _ _ _ _ T A B)|cbv beta iota; ring].
  Qed.

  (** Circles of the ends of the path. *)
  Definition at_start (z : bool) (s1 : State) (c1 : Circle) (l f : bool) : Prop :=
    c_left c1 = l /\ c_forward c1 = f /\ (c_xc c1, c_yc c1) = frame (pst s1) (if z then sign f * X else 0) (sign l * if z then Y else 1 / k).
  Definition at_end (z : bool) (s2 : State) (c2 : Circle) (l f : bool) : Prop :=
    c_left c2 = l /\ c_forward c2 = negb f /\ (c_xc c2, c_yc c2) = frame (pst s2) (if z then - (sign f * X) else 0) (sign l * if z then Y else 1 / k).

  Section Shapes.
    Variables (z1 z2 f : bool) (s1 s2 : State) (qs qe : Configuration) (c1 c2 : Circle).
    Hypothesis Q1 : at_conf s1 qs.
    Hypothesis Q2 : at_conf s2 qe.

    Lemma csc_same l a1 d a2 : at_start z1 s1 c1 l f -> at_end z2 s2 c2 l f -> 0 <= a1 -> 0 <= d -> 0 <= a2 -> same_pose (lib_path s1 (csc k s z1 z2 l l f a1 d a2)) s2 ->
      2 * r * p_sin_mu p <= center_distance c1 c2 /\
      forall q1 q2, gTeST r (p_sin_mu p) (p_cos_mu p) c1 c2 = (q1, q2) ->
        first_ok z1 l f (end_len z1 a1) qs q1 /\ configuration_distance q1 q2 = d /\ last_ok z2 l f (end_len z2 a2) qe q2.
    Proof.
      intros (E1 & F1 & O1) (E2 & F2 & O2) A1 D A2 W. destruct (csc_word _ _ _ _ _ _ _ _ _ _ W) as (qa & qb & T1 & S & T2).
      destruct (XY_eq k s Hk Hs HE) as (_ & _ & XP & YP & _).
      assert (OA : off c1 qa (- (sign f * X)) (sign l * Y)) by (unfold off; rewrite O1; exact (proj1 T1)).
      assert (OB : off c2 qb (sign f * X) (sign l * Y)) by (unfold off; rewrite O2; symmetry; exact (proj1 T2)).
      destruct (TeST_unique r (p_sin_mu p) (p_cos_mu p) XP c1 c2 l f qa qb d E1 F1 OA OB S D) as [DD U].
      split; [lra|]. intros q1 q2 G. destruct (U q1 q2 G) as (H1 & H2 & H3). split; [eapply first_len; eassumption|]. split; [exact H3|]. eapply last_len; eassumption.
    Qed.
    Lemma csc_other l a1 d a2 : at_start z1 s1 c1 l f -> at_end z2 s2 c2 (negb l) f -> 0 <= a1 -> 0 <= d -> 0 <= a2 -> same_pose (lib_path s1 (csc k s z1 z2 l (negb l) f a1 d a2)) s2 ->
      2 * r <= center_distance c1 c2 /\
      exists q1 q2, gTiST r (p_sin_mu p) (p_cos_mu p) c1 c2 = Some (q1, q2) /\
        first_ok z1 l f (end_len z1 a1) qs q1 /\ configuration_distance q1 q2 = d /\ last_ok z2 (negb l) f (end_len z2 a2) qe q2.
    Proof.
      intros (E1 & F1 & O1) (E2 & F2 & O2) A1 D A2 W. destruct (csc_word _ _ _ _ _ _ _ _ _ _ W) as (qa & qb & T1 & S & T2).
      destruct (XY_eq k s Hk Hs HE) as (_ & _ & XP & YP & _ & RR & RP).
      assert (OA : off c1 qa (- (sign f * X)) (sign l * Y)) by (unfold off; rewrite O1; exact (proj1 T1)).
      assert (OB : off c2 qb (sign f * X) (- (sign l * Y))) by (unfold off; rewrite O2; symmetry; rewrite <- Ropp_mult_distr_l_reverse, <- sign_negb; exact (proj1 T2)).
      assert (R2 : r ^ 2 = X ^ 2 + Y ^ 2) by (rewrite RR at 1; apply hyp_sq).
      destruct (TiST_unique r (p_sin_mu p) (p_cos_mu p) XP YP c1 c2 l f qa qb d E1 F1 OA OB S D ltac:(lra) R2) as (DD & DP & U).
      split; [exact DD|]. destruct (param_nom k s Hk Hs) as (_ & _ & _ & _ & _ & _ & _ & _ & _ & CM).
      assert (CB : -1 <= p_cos_mu p <= 1) by (rewrite CM; apply COS_bound).
      pose proof (TiST_defined r (p_sin_mu p) (p_cos_mu p) c1 c2 DP ltac:(lra) CB DD) as N. destruct (gTiST _ _ _ c1 c2) as [[q1 q2]|] eqn:G; [|congruence].
      exists q1, q2. split; [reflexivity|]. destruct (U q1 q2 eq_refl) as (H1 & H2 & H3). split; [eapply first_len; eassumption|]. split; [exact H3|]. eapply last_len; eassumption.
    Qed.
    Lemma ccc_any l a1 a2 a3 : at_start z1 s1 c1 l f -> at_end z2 s2 c2 l f -> 0 < center_distance c1 c2 -> 0 <= a1 -> 0 <= a2 -> 0 <= a3 -> same_pose (lib_path s1 (ccc k s z1 z2 l f a1 a2 a3)) s2 ->
      let D := center_distance c1 c2 in let an := atan2 (c_yc c2 - c_yc c1) (c_xc c2 - c_xc c1) in let dy := sqrt ((2 * r) ^ 2 - (5 / 10 * D) ^ 2) in
      D <= 4 * r /\ 0 <= (2 * r) ^ 2 - (5 / 10 * D) ^ 2 /\
      forall t1 t2, (c_xc t1, c_yc t1) = global_frame_change (c_xc c1) (c_yc c1) an (5 / 10 * D) dy -> (c_xc t2, c_yc t2) = global_frame_change (c_xc c1) (c_yc c1) an (5 / 10 * D) (- dy) ->
        c_left t1 = negb l -> c_left t2 = negb l -> c_forward t1 = f -> c_forward t2 = f ->
        exists t, (t = t1 \/ t = t2) /\ let q1 := gTT (p_mu p) c1 t in let q2 := gTT (p_mu p) t c2 in
          first_ok z1 l f (end_len z1 a1) qs q1 /\ mid_ok (negb l) f (end_len true a2) q1 q2 /\ last_ok z2 l f (end_len z2 a3) qe q2.
    Proof.
      intros (E1 & F1 & O1) (E2 & F2 & O2) D0 A1 A2 A3 W D an dy. destruct (ccc_word _ _ _ _ _ _ _ _ _ W) as (qa & qb & T1 & TM & T2).
      destruct (XY_eq k s Hk Hs HE) as (_ & _ & XP & YP & _ & RR & RP).
      assert (OA : off c1 qa (- (sign f * X)) (sign l * Y)) by (unfold off; rewrite O1; exact (proj1 T1)).
      assert (OB : off c2 qb (sign f * X) (sign l * Y)) by (unfold off; rewrite O2; symmetry; exact (proj1 T2)).
      destruct (param_nom k s Hk Hs) as (_ & _ & _ & _ & _ & _ & _ & _ & SM & CM).
      destruct (frame (pcf qa) (sign f * X) (sign (negb l) * Y)) as [u v] eqn:M. assert (M2 := proj1 TM). cbv beta iota in M2. rewrite M in M2.
      assert (ANY : forall t, (c_xc t, c_yc t) = (u, v) -> c_left t = negb l -> c_forward t = f ->
        center_distance c1 t = 2 * r /\ center_distance t c2 = 2 * r /\ ang_eq (q_theta (gTT (p_mu p) c1 t)) (q_theta qa) /\ ang_eq (q_theta (gTT (p_mu p) t c2)) (q_theta qb)).
      { intros t CT LT FT.
        assert (B1 : off t qa (sign f * X) (- (sign l * Y))) by (unfold off; rewrite CT, <- M, sign_negb; f_equal; ring).
        assert (B2 : off t qb (- (sign f * X)) (sign (negb l) * Y)) by (unfold off; rewrite CT; exact M2).
        assert (B3 : off c2 qb (sign f * X) (- (sign (negb l) * Y))) by (eapply off_conv; [exact OB|reflexivity|rewrite sign_negb; ring]).
        destruct (TT_unique r (p_sin_mu p) (p_cos_mu p) YP c1 t l f (p_mu p) qa E1 F1 SM CM ltac:(lra) OA B1) as [DA HA].
        destruct (TT_unique r (p_sin_mu p) (p_cos_mu p) YP t c2 (negb l) f (p_mu p) qb LT FT SM CM ltac:(lra) B2 B3) as [DB HB]. auto. }
      destruct (ANY (mkCircle qa (negb l) f true u v (c_kappa c1) (c_kappa_inv c1) (c_sigma c1) (c_radius c1) (c_mu c1) (c_sin_mu c1) (c_cos_mu c1) (c_delta_min c1)) eq_refl eq_refl eq_refl) as (G1 & G2 & _).
      destruct (apex c1 c2 u v (2 * r) D0 ltac:(lra) G1 G2) as [D4 AP]. fold D an in D4, AP. cbv zeta in AP. fold dy in AP.
      split; [lra|]. split; [fold D in D0; nra|]. intros t1 t2 C1 C2 L1 L2 F1' F2'.
      assert (FIN : exists t, (t = t1 \/ t = t2) /\ (c_xc t, c_yc t) = (u, v) /\ c_left t = negb l /\ c_forward t = f).
      { destruct AP as [AP|AP]; [exists t1|exists t2]; rewrite <- AP; auto. }
      destruct FIN as (t & EQ & CT & LT & FT). exists t. split; [exact EQ|]. destruct (ANY t CT LT FT) as (_ & _ & H1 & H2).
      split; [eapply first_len; eassumption|]. split; [eapply mid_len; eassumption|]. eapply last_len; eassumption.
    Qed.
  End Shapes.
End Word.

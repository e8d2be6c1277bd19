(** * Paths with cusps against the candidates of the Reeds-Shepp planners *)
From Coq Require Import Reals ZArith List Lra Lia Bool.
From Verif Require Import Base ModelUtil ModelCircle ModelPaths Num UtilProofs SpecPath SpecTurn SpecSide SpecOpt SpecCusp PoseAlg TurnProofs TurnBounds LegProofs TangentProofs PlanProofs PlanTactics PlanHybrid PlanFamily PlanBounds PlanRadius OptProofs OptTangent OptWord.
Import ListNotations.
Open Scope R_scope.

(** The points at given distances from two centres. *)
Lemma apex2 c1 c2 u v r1 r2 dx : let D := center_distance c1 c2 in let an := atan2 (c_yc c2 - c_yc c1) (c_xc c2 - c_xc c1) in
  0 < D -> 0 <= r1 -> 0 <= r2 -> hyp (u - c_xc c1) (v - c_yc c1) = r1 -> hyp (c_xc c2 - u) (c_yc c2 - v) = r2 -> 2 * D * dx = r1 ^ 2 + D ^ 2 - r2 ^ 2 ->
  D <= r1 + r2 /\ r1 - r2 <= D /\ r2 - r1 <= D /\ 0 <= r1 ^ 2 - dx ^ 2 /\
  let dy := sqrt (r1 ^ 2 - dx ^ 2) in
  (global_frame_change (c_xc c1) (c_yc c1) an dx dy = (u, v) \/ global_frame_change (c_xc c1) (c_yc c1) an dx (- dy) = (u, v)).
Proof.
  intros D an DP R1 R2 A B DX. destruct (centres c1 c2) as (_ & X2 & Y2). fold D an in X2, Y2.
  set (p := (u - c_xc c1) * cos an + (v - c_yc c1) * sin an). set (q := - (u - c_xc c1) * sin an + (v - c_yc c1) * cos an).
  pose proof (cos_sq an) as T.
  assert (U : u = c_xc c1 + p * cos an - q * sin an) by (unfold p, q; ring [T]). assert (V : v = c_yc c1 + p * sin an + q * cos an) by (unfold p, q; ring [T]).
  assert (E1 : p ^ 2 + q ^ 2 = r1 ^ 2) by (rewrite <- A, hyp_sq; unfold p, q; ring [T]).
  assert (E2 : (D - p) ^ 2 + q ^ 2 = r2 ^ 2).
  { rewrite <- B, hyp_sq. rewrite X2, Y2, U, V. ring [T]. }
  assert (P : p = dx) by nra. clearbody p q. subst p.
  assert (Q : r1 ^ 2 - dx ^ 2 = q ^ 2) by lra.
  assert (M1 : - r1 <= dx <= r1) by (pose proof (pow2_ge_0 q); split; nra). assert (M2 : - r2 <= D - dx <= r2) by (pose proof (pow2_ge_0 q); split; nra).
  assert (S1 : r1 ^ 2 <= (D + r2) ^ 2) by nra. assert (S2 : r2 ^ 2 <= (D + r1) ^ 2) by nra.
  split; [lra|]. split; [nra|]. split; [nra|]. split; [rewrite Q; apply pow2_ge_0|].
  cbv zeta. rewrite Q. unfold global_frame_change.
  destruct (Rle_dec 0 q) as [QP|QN].
  - left. rewrite sqrt_pow2 by exact QP. rewrite U at 1. rewrite V at 1. f_equal; ring.
  - right. replace (q ^ 2) with ((- q) ^ 2) by ring. rewrite sqrt_pow2 by lra. rewrite U at 1. rewrite V at 1. f_equal; ring.
Qed.

(** A straight line at given offsets from two circles is determined by its direction. *)
Lemma line_unique c1 c2 qa qb q1 q2 a b c d w w' g : pm1 g -> off c1 qa a b -> off c2 qb c d -> straight_by w qa qb -> off c1 q1 a b -> off c2 q2 c d -> straight_by w' q1 q2 ->
  0 <= g * (w + c - a) -> 0 <= g * (w' + c - a) -> 0 < center_distance c1 c2 -> w' = w /\ ang_eq (q_theta q1) (q_theta qa) /\ ang_eq (q_theta q2) (q_theta qb).
Proof.
  intros G A B S A' B' S' P P' D0. destruct (vec _ _ _ _ _ _ _ _ _ A B S) as [VX VY]. destruct (vec _ _ _ _ _ _ _ _ _ A' B' S') as [WX WY].
  pose proof (vec_dist _ _ _ _ _ VX VY) as E1. pose proof (vec_dist _ _ _ _ _ WX WY) as E2.
  assert (SQ : (w + c - a) ^ 2 + (d - b) ^ 2 = (w' + c - a) ^ 2 + (d - b) ^ 2) by (rewrite <- !hyp_sq, <- E1, <- E2; reflexivity).
  assert (EQ : w' = w). { assert (H : g * (w + c - a) = g * (w' + c - a)) by (pose proof (pm1_sq g G) as Q; apply Rsqr_inj; [exact P|exact P'|unfold Rsqr; nra]). destruct G as [-> | ->]; lra. }
  subst w'. split; [reflexivity|].
  assert (H : ang_eq (q_theta q1) (q_theta qa)).
  { apply head_unique with (w + c - a) (d - b); [|congruence|congruence]. rewrite <- hyp_sq, <- E1. nra. }
  split; [exact H|]. destruct S as (_ & _ & S1), S' as (_ & _ & S2). eapply ang_eq_trans; [exact S2|]. eapply ang_eq_trans; [exact H|]. apply ang_eq_sym, S1.
Qed.

Lemma same_peq a b : same_pose a b -> peq (pst a) (pst b).
Proof. intros H. exact H. Qed.

Section Cusp.
  Variables (k s : R).
  Hypothesis Hk : 0 < k.
  Hypothesis Hs : 0 < s.
  Hypothesis HE : epsilon < k / s.
  Local Notation p := (hc_cc_param k s).
  Local Notation r := (p_radius p).
  Local Notation X := (p_radius p * p_sin_mu p).
  Local Notation Y := (p_radius p * p_cos_mu p).
  Local Notation L := (k / s).
  Local Notation t := (par_t k s).

  Lemma turn_turn_rel z1 z2 l f a st : turn_rel k s z1 z2 l f a (pst st) (pst (lib_path st (turn k s z1 z2 l f a))).
  Proof.
    destruct z2; [exact (first_rel k s Hk Hs HE z1 l f a st)|]. unfold turn, lib_path. destruct z1; cbn [app fold_left].
    - exact (last_rel k s Hk Hs HE false l f a st).
    - destruct (step_arc k Hk st l f a) as [A B]. split; [cbv beta iota; congruence|]. cbv beta iota. rewrite !Rplus_0_l. exact B.
  Qed.
  Definition turn_len (z1 z2 : bool) (a : R) : R := (if z1 then L else 0) + (if z2 then L else 0) + a.
  Lemma turn_length z1 z2 l f a : 0 <= a -> total_length (turn k s z1 z2 l f a) = turn_len z1 z2 a.
  Proof.
    intros A. pose proof (L_pos' k s Hk Hs) as LP. unfold turn, turn_len. destruct z1, z2; cbn [app total_length fold_right steer arc unsteer ct_delta_s]; rewrite !abs_step by lra; ring.
  Qed.
  Lemma line_length f d : 0 <= d -> total_length [line f d] = d.
  Proof. intros D. cbn [total_length fold_right line ct_delta_s]. rewrite abs_step by exact D. ring. Qed.
  Lemma rs_len start l f reg q a : 0 <= a -> ang_eq (q_theta q) (q_theta start + sign f * sign l * (k * a)) -> rs_turn_length (circle start l f reg (rs_param k)) q <= a.
  Proof.
    intros A H. set (c := circle start l f reg (rs_param k)). destruct (facts_rs k c start l f reg Hk eq_refl) as (ST & EL & EF & ER & _ & _ & _ & _ & _ & AI & _).
    assert (DA : ang_eq (deflection c q) (k * a)) by (apply (defl_rel l f); [exact EL|exact EF|rewrite ST; exact H]).
    pose proof (defl_range c q) as DR. unfold rs_turn_length. set (dl := deflection c q) in *. rewrite Rabs_mult, AI.
    pose proof (ang_le dl (k * a) DR ltac:(nra) DA) as LE. assert (CL : Rabs (rs_circular_deflection c dl) <= k * a).
    { eapply Rle_trans; [|exact LE]. unfold rs_circular_deflection, TWO_PI. destruct (c_regular c); [apply Req_le, Rabs_pos_eq; lra|]. destruct (Rle_dec dl PI); [apply Req_le, Rabs_pos_eq; lra|]. unfold Rabs. destruct (Rcase_abs _); lra. }
    apply Rmult_le_reg_l with k; [exact Hk|]. rewrite <- Rmult_assoc. replace (k * (1 / k)) with 1 by (field; lra). lra.
  Qed.

  (** The lengths of a turn between two headings, as the planners build it from either end. *)
  Definition seg (z1 z2 l f : bool) (A h1 h2 : R) : Prop :=
    forall q1 q2 reg, ang_eq (q_theta q1) h1 -> ang_eq (q_theta q2) h2 ->
      if z1 then if z2 then cc_turn_length (circle q1 l f reg p) q2 <= A /\ cc_turn_length (circle q2 l (negb f) reg p) q1 <= A
                 else hc_turn_length (circle q1 l f reg p) q2 <= A
      else if z2 then hc_turn_length (circle q2 l (negb f) reg p) q1 <= A
           else rs_turn_length (circle q1 l f reg (rs_param k)) q2 <= A /\ rs_turn_length (circle q2 l (negb f) reg (rs_param k)) q1 <= A.
  Lemma seg_of_rel z1 z2 l f a P Q h1 h2 : 0 <= a -> turn_rel k s z1 z2 l f a P Q -> ang_eq h1 (pt P) -> ang_eq h2 (pt Q) -> seg z1 z2 l f (turn_len z1 z2 a) h1 h2.
  Proof.
    intros A0 T HP HQ q1 q2 reg A B. pose proof (ang_eq_trans _ _ _ A HP) as A'. pose proof (ang_eq_trans _ _ _ B HQ) as B'.
    pose proof (rel_ang _ _ _ _ _ _ _ _ _ _ _ T A' B') as F. pose proof (rel_ang _ _ _ _ _ _ _ _ _ _ _ (turn_rel_sym _ _ _ _ _ _ _ _ _ T) B' A') as G. unfold turn_len.
    destruct z1, z2; cbv beta iota in F, G |- *.
    - replace (L + L + a) with (2 * L + a) by ring. split; apply (cc_len k s Hk Hs HE); try exact A0; (eapply ang_conv; [first [exact F|exact G]|ring]).
    - rewrite Rplus_0_r. apply (hc_len k s Hk Hs); [exact A0|]. eapply ang_conv; [exact F|ring].
    - rewrite Rplus_0_l. apply (hc_len k s Hk Hs); [exact A0|]. eapply ang_conv; [exact G|ring].
    - rewrite !Rplus_0_l. split; apply rs_len; try exact A0; (eapply ang_conv; [first [exact F|exact G]|ring]).
  Qed.
  Lemma seg_congr z1 z2 l f A h1 h2 h1' h2' : ang_eq h1' h1 -> ang_eq h2' h2 -> seg z1 z2 l f A h1 h2 -> seg z1 z2 l f A h1' h2'.
  Proof. intros E1 E2 H q1 q2 reg A1 A2. apply H; eapply ang_eq_trans; eassumption. Qed.

  (** Offsets of the centre of a turn from its ends. *)
  Definition out_x (z f : bool) : R := if z then - (sign f * X) else 0.
  Definition in_x (z f : bool) : R := if z then sign f * X else 0.
  Definition side_y (z l : bool) : R := sign l * (if z then Y else 1 / k).

  Section Ends.
    Variables (z1 z2 : bool) (s1 s2 : State) (c1 c2 : Circle) (l1 f1 l2 f2 : bool).
    Hypothesis AS : at_start k s z1 s1 c1 l1 f1.
    Hypothesis AE : at_end k s z2 s2 c2 l2 f2.

    Lemma start_off zj a q : turn_rel k s z1 zj l1 f1 a (pst s1) (pcf q) -> off c1 q (out_x zj f1) (side_y zj l1).
    Proof. intros [T _]. destruct AS as (_ & _ & O). unfold off. rewrite O. exact T. Qed.
    Lemma end_off zj a q : turn_rel k s zj z2 l2 f2 a (pcf q) (pst s2) -> off c2 q (in_x zj f2) (side_y zj l2).
    Proof. intros [T _]. destruct AE as (_ & _ & O). unfold off. rewrite O. symmetry. exact T. Qed.

    (** *** A straight line between two turns *)
    Lemma line_word za zb fl a1 d a2 : 0 <= a1 -> 0 <= d -> 0 <= a2 ->
      0 <= sign fl * (sign fl * d + in_x zb f2 - out_x za f1) ->
      same_pose (lib_path s1 (turn k s z1 za l1 f1 a1 ++ [line fl d] ++ turn k s zb z2 l2 f2 a2)) s2 ->
      center_distance c1 c2 ^ 2 = (sign fl * d + in_x zb f2 - out_x za f1) ^ 2 + (side_y zb l2 - side_y za l1) ^ 2 /\
      (0 < center_distance c1 c2 -> forall q1 q2 w, off c1 q1 (out_x za f1) (side_y za l1) -> off c2 q2 (in_x zb f2) (side_y zb l2) -> straight_by w q1 q2 -> 0 <= sign fl * (w + in_x zb f2 - out_x za f1) ->
        seg z1 za l1 f1 (turn_len z1 za a1) (st_theta s1) (q_theta q1) /\ configuration_distance q1 q2 = d /\ seg zb z2 l2 f2 (turn_len zb z2 a2) (q_theta q2) (st_theta s2)).
    Proof.
      intros A1 D A2 P W. rewrite !lib_app in W. set (st1 := lib_path s1 _) in W. set (st2 := lib_path st1 _) in W.
      pose proof (turn_turn_rel z1 za l1 f1 a1 s1) as T1. fold st1 in T1. pose proof (step_line st1 fl d) as S. change (straight_by (sign fl * d) (conf_of st1) (conf_of st2)) in S.
      pose proof (turn_rel_congr _ _ _ _ _ _ _ _ _ _ _ (peq_refl _) (same_peq _ _ W) (turn_turn_rel zb z2 l2 f2 a2 st2)) as T2.
      pose proof (start_off za a1 (conf_of st1) T1) as O1. pose proof (end_off zb a2 (conf_of st2) T2) as O2.
      destruct (vec _ _ _ _ _ _ _ _ _ O1 O2 S) as [VX VY]. split; [rewrite (vec_dist _ _ _ _ _ VX VY); apply hyp_sq|].
      intros D0 q1 q2 w B1 B2 SB P'. destruct (line_unique c1 c2 _ _ q1 q2 _ _ _ _ _ w (sign fl) (pm1_sign fl) O1 O2 S B1 B2 SB P P' D0) as (EW & H1 & H2). subst w.
      split; [exact (seg_of_rel _ _ _ _ _ _ _ _ _ A1 T1 (ang_eq_refl _) H1)|]. split; [rewrite (straight_by_dist _ _ _ SB); apply abs_step, D|].
      exact (seg_of_rel _ _ _ _ _ _ _ _ _ A2 T2 H2 (ang_eq_refl _)).
    Qed.
  End Ends.

  (** *** Joints of two turns *)
  Section Joints.
    Variable zc : bool.
    Definition jz (j : bool) : bool := if j then zc else true.
    Definition jf (j f : bool) : bool := if j then negb f else f.
    Definition jr (j : bool) : R := if j then 2 * (if zc then Y else 1 / k) else 2 * r.
    Definition joint (j : bool) (ca cb : Circle) (l f : bool) (q : Configuration) : Prop :=
      off ca q (out_x (jz j) f) (side_y (jz j) l) /\ off cb q (in_x (jz j) (jf j f)) (side_y (jz j) (negb l)).
    Lemma jr_pos j : 0 < jr j.
    Proof. destruct (XY_eq k s Hk Hs HE) as (_ & _ & _ & YP & _ & _ & RP). assert (0 < 1 / k) by (apply Rdiv_lt_0_compat; lra). unfold jr. destruct j; [destruct zc|]; lra. Qed.
    Lemma joint_dist j ca cb l f q : joint j ca cb l f q -> center_distance ca cb = jr j.
    Proof.
      intros [A B]. destruct (XY_eq k s Hk Hs HE) as (_ & _ & XP & YP & _ & RR & RP). destruct (vec _ _ _ _ _ _ _ _ _ A B (straight_0 q)) as [VX VY]. rewrite (vec_dist _ _ _ _ _ VX VY).
      assert (R2 : r ^ 2 = X ^ 2 + Y ^ 2) by (rewrite RR at 1; apply hyp_sq). pose proof (jr_pos j) as JP. apply hyp_eq; [lra|].
      pose proof (pm1_sq _ (pm1_sign f)) as SF. pose proof (pm1_sq _ (pm1_sign l)) as SL. unfold out_x, in_x, side_y, jz, jf, jr in *. destruct j; [destruct zc|]; rewrite !sign_negb.
      - transitivity (4 * (sign l * sign l) * Y ^ 2); [ring|]. rewrite SL. ring.
      - transitivity (4 * (sign l * sign l) * (1 / k) ^ 2); [ring|]. rewrite SL. ring.
      - transitivity (4 * (sign f * sign f) * X ^ 2 + 4 * (sign l * sign l) * Y ^ 2); [ring|]. rewrite SF, SL. replace ((2 * r) ^ 2) with (4 * r ^ 2) by ring. rewrite R2. ring.
    Qed.
    Lemma joint_unique j ca cb l f q q' : joint j ca cb l f q -> joint j ca cb l f q' -> ang_eq (q_theta q') (q_theta q).
    Proof.
      intros J J'. pose proof (joint_dist _ _ _ _ _ _ J) as D. pose proof (jr_pos j) as JP. destruct J as [A B], J' as [A' B'].
      destruct (vec _ _ _ _ _ _ _ _ _ A B (straight_0 q)) as [VX VY]. destruct (vec _ _ _ _ _ _ _ _ _ A' B' (straight_0 q')) as [WX WY]. pose proof (vec_dist _ _ _ _ _ VX VY) as E.
      eapply head_unique; [|rewrite <- WX; exact VX|rewrite <- WY; exact VY]. rewrite <- hyp_sq, <- E, D. nra.
    Qed.

    Variables (z1 z2 : bool) (s1 s2 : State) (c1 c2 : Circle).
    Lemma two_word l f a1 a2 : at_start k s z1 s1 c1 l f -> at_end k s z2 s2 c2 (negb l) (negb f) -> 0 <= a1 -> 0 <= a2 ->
      same_pose (lib_path s1 (turn k s z1 zc l f a1 ++ turn k s zc z2 (negb l) (negb f) a2)) s2 ->
      center_distance c1 c2 = jr true /\
      forall q, joint true c1 c2 l f q -> seg z1 zc l f (turn_len z1 zc a1) (st_theta s1) (q_theta q) /\ seg zc z2 (negb l) (negb f) (turn_len zc z2 a2) (q_theta q) (st_theta s2).
    Proof.
      intros AS AE A1 A2 W. rewrite lib_app in W. set (st1 := lib_path s1 _) in W.
      pose proof (turn_turn_rel z1 zc l f a1 s1) as T1. fold st1 in T1. pose proof (turn_rel_congr _ _ _ _ _ _ _ _ _ _ _ (peq_refl _) (same_peq _ _ W) (turn_turn_rel zc z2 (negb l) (negb f) a2 st1)) as T2.
      assert (J : joint true c1 c2 l f (conf_of st1)) by (split; [exact (start_off _ _ _ _ _ AS zc a1 (conf_of st1) T1)|exact (end_off _ _ _ _ _ AE zc a2 (conf_of st1) T2)]).
      split; [exact (joint_dist _ _ _ _ _ _ J)|]. intros q Jq. pose proof (joint_unique _ _ _ _ _ _ _ J Jq) as H.
      split; [exact (seg_of_rel _ _ _ _ _ _ _ _ _ A1 T1 (ang_eq_refl _) H)|exact (seg_of_rel _ _ _ _ _ _ _ _ _ A2 T2 H (ang_eq_refl _))].
    Qed.
    Lemma three_word j1 j2 l f f2 f3 a1 a2 a3 dx : f2 = jf j1 f -> f3 = jf j2 f2 ->
      at_start k s z1 s1 c1 l f -> at_end k s z2 s2 c2 l f3 -> 0 < center_distance c1 c2 -> 0 <= a1 -> 0 <= a2 -> 0 <= a3 ->
      same_pose (lib_path s1 (turn k s z1 (jz j1) l f a1 ++ turn k s (jz j1) (jz j2) (negb l) f2 a2 ++ turn k s (jz j2) z2 l f3 a3)) s2 ->
      let D := center_distance c1 c2 in let an := atan2 (c_yc c2 - c_yc c1) (c_xc c2 - c_xc c1) in
      2 * D * dx = jr j1 ^ 2 + D ^ 2 - jr j2 ^ 2 -> let dy := sqrt (jr j1 ^ 2 - dx ^ 2) in
      D <= jr j1 + jr j2 /\ jr j1 - jr j2 <= D /\ jr j2 - jr j1 <= D /\ 0 <= jr j1 ^ 2 - dx ^ 2 /\
      forall t1 t2, (c_xc t1, c_yc t1) = global_frame_change (c_xc c1) (c_yc c1) an dx dy -> (c_xc t2, c_yc t2) = global_frame_change (c_xc c1) (c_yc c1) an dx (- dy) ->
        center_distance c1 t1 = jr j1 /\ center_distance t1 c2 = jr j2 /\ center_distance c1 t2 = jr j1 /\ center_distance t2 c2 = jr j2 /\
        exists t, (t = t1 \/ t = t2) /\
          forall q1 q2, joint j1 c1 t l f q1 -> joint j2 t c2 (negb l) f2 q2 ->
            seg z1 (jz j1) l f (turn_len z1 (jz j1) a1) (st_theta s1) (q_theta q1) /\ seg (jz j1) (jz j2) (negb l) f2 (turn_len (jz j1) (jz j2) a2) (q_theta q1) (q_theta q2) /\
            seg (jz j2) z2 l f3 (turn_len (jz j2) z2 a3) (q_theta q2) (st_theta s2).
    Proof.
      intros EF2 EF3 AS AE D0 A1 A2 A3 W D an DX dy. rewrite !lib_app in W. set (st1 := lib_path s1 _) in W. set (st2 := lib_path st1 _) in W.
      pose proof (turn_turn_rel z1 (jz j1) l f a1 s1) as T1. fold st1 in T1. pose proof (turn_turn_rel (jz j1) (jz j2) (negb l) f2 a2 st1) as TM. fold st2 in TM.
      pose proof (turn_rel_congr _ _ _ _ _ _ _ _ _ _ _ (peq_refl _) (same_peq _ _ W) (turn_turn_rel (jz j2) z2 l f3 a3 st2)) as T2.
      pose proof (start_off _ _ _ _ _ AS _ a1 (conf_of st1) T1) as O1. pose proof (end_off _ _ _ _ _ AE _ a3 (conf_of st2) T2) as O2.
      destruct (frame (pst st1) (in_x (jz j1) f2) (side_y (jz j1) (negb l))) as [u v] eqn:M. assert (M2 : (u, v) = frame (pst st2) (out_x (jz j2) f2) (side_y (jz j2) (negb l))) by (rewrite <- M; exact (proj1 TM)).
      assert (ANY : forall t, (c_xc t, c_yc t) = (u, v) -> joint j1 c1 t l f (conf_of st1) /\ joint j2 t c2 (negb l) f2 (conf_of st2)).
      { intros t0 CT. split; (split; [|]).
        - exact O1.
        - unfold off. rewrite CT, <- M, <- EF2. reflexivity.
        - unfold off. rewrite CT. exact M2.
        - rewrite negb_involutive, <- EF3. exact O2. }
      destruct (ANY (mkCircle (conf_of st1) (negb l) f true u v (c_kappa c1) (c_kappa_inv c1) (c_sigma c1) (c_radius c1) (c_mu c1) (c_sin_mu c1) (c_cos_mu c1) (c_delta_min c1)) eq_refl) as [J1 J2].
      pose proof (joint_dist _ _ _ _ _ _ J1) as G1. pose proof (joint_dist _ _ _ _ _ _ J2) as G2. pose proof (jr_pos j1) as P1. pose proof (jr_pos j2) as P2.
      destruct (apex2 c1 c2 u v (jr j1) (jr j2) dx D0 (Rlt_le _ _ P1) (Rlt_le _ _ P2) G1 G2 DX) as (B1 & B2 & B3 & B4 & AP).
      split; [exact B1|]. split; [exact B2|]. split; [exact B3|]. split; [exact B4|]. intros t1 t2 C1 C2.
      assert (DI : forall dz t0, dz ^ 2 = dy ^ 2 -> (c_xc t0, c_yc t0) = global_frame_change (c_xc c1) (c_yc c1) an dx dz -> center_distance c1 t0 = jr j1 /\ center_distance t0 c2 = jr j2).
      { intros dz t0 DZ CT. destruct (tgt_dist c1 c2 D an t0 (c_xc t0) (c_yc t0) dx dz eq_refl eq_refl eq_refl eq_refl (eq_sym CT)) as [E1 E2].
        assert (Y2 : dz ^ 2 = jr j1 ^ 2 - dx ^ 2) by (rewrite DZ; apply pow2_sqrt, B4). rewrite E1, E2. split; apply hyp_of; try lra. }
      destruct (DI dy t1 eq_refl C1) as [DA DB]. destruct (DI (- dy) t2 ltac:(ring) C2) as [DC DE]. split; [exact DA|]. split; [exact DB|]. split; [exact DC|]. split; [exact DE|].
      assert (FIN : exists t, (t = t1 \/ t = t2) /\ (c_xc t, c_yc t) = (u, v)).
      { destruct AP as [AP|AP]; [exists t1|exists t2]; rewrite <- AP; auto. }
      destruct FIN as (t0 & EQ & CT). destruct (ANY t0 CT) as [I1 I2]. exists t0. split; [exact EQ|].
      intros q1 q2 Q1 Q2. pose proof (joint_unique _ _ _ _ _ _ _ I1 Q1) as H1. pose proof (joint_unique _ _ _ _ _ _ _ I2 Q2) as H2.
      split; [exact (seg_of_rel _ _ _ _ _ _ _ _ _ A1 T1 (ang_eq_refl _) H1)|]. split; [exact (seg_of_rel _ _ _ _ _ _ _ _ _ A2 TM H1 H2)|exact (seg_of_rel _ _ _ _ _ _ _ _ _ A3 T2 H2 (ang_eq_refl _))].
    Qed.
  End Joints.
End Cusp.

(** * The circles of a path of four turns *)
From Coq Require Import Reals ZArith List Lra Lia Bool.
From Verif Require Import Base ModelUtil ModelCircle ModelPaths Num UtilProofs SpecPath SpecTurn SpecSide SpecOpt SpecCusp SpecLong SpecFour PoseAlg TurnProofs LegProofs TangentProofs PlanProofs PlanTactics PlanHybrid PlanFamily PlanBounds PlanSelect PlanRadius OptProofs OptTangent OptWord CuspWord LongWord.
Import ListNotations.
Open Scope R_scope.

Section Word.
  Variables (k s : R).
  Hypothesis Hk : 0 < k.
  Hypothesis Hs : 0 < s.
  Hypothesis HE : epsilon < k / s.
  Local Notation p := (hc_cc_param k s).
  Local Notation r := (p_radius p).
  Local Notation X := (p_radius p * p_sin_mu p).
  Local Notation Y := (p_radius p * p_cos_mu p).
  Variables (z1 z2 : bool) (s1 s2 : State) (c1 c2 : Circle).

  (** The heading seen from the centres, in terms of the angle swept. *)
  Lemma swept_first m : let phi := turn_angle k s true true m in let C := cos (swept k s m) in let S := sin (swept k s m) in
    X * cos phi + Y * sin phi = S * Y - C * X /\ Y * cos phi - X * sin phi = C * Y + S * X.
  Proof.
    intros phi C S. destruct (param_nom k s Hk Hs) as (_ & _ & _ & _ & _ & _ & _ & _ & SM & CM). set (mu := p_mu p) in *.
    assert (E : phi = swept k s m - 2 * mu) by (unfold swept, phi, mu; ring). rewrite E, cos_minus, sin_minus. fold C S. rewrite cos_2a, sin_2a, SM, CM. pose proof (cos_sq mu) as T. split; ring [T].
  Qed.
  Lemma swept_second m1 m2 : ang_eq (swept k s m1 + swept k s m2) 0 -> let phi := turn_angle k s true true m2 in let C := cos (swept k s m1) in let S := sin (swept k s m1) in
    X * cos phi + Y * sin phi = - (S * Y) - C * X /\ Y * cos phi - X * sin phi = C * Y - S * X.
  Proof.
    intros A phi C S. destruct (swept_first m2) as [E1 E2]. fold phi in E1, E2. rewrite E1, E2.
    assert (B : ang_eq (swept k s m2) (- swept k s m1)) by (destruct A as [n A]; exists n; lra). rewrite (ang_eq_cos _ _ B), (ang_eq_sin _ _ B), cos_neg, sin_neg. fold C S. split; ring.
  Qed.

  Lemma CCCC_word l f a1 m1 m2 a2 : at_start k s z1 s1 c1 l f -> at_end k s z2 s2 c2 (negb l) f -> 0 <= a1 -> 0 <= m1 -> 0 <= m2 -> 0 <= a2 -> ang_eq (swept k s m1 + swept k s m2) 0 ->
    same_pose (lib_path s1 (turn k s z1 true l f a1 ++ turn k s true true (negb l) f m1 ++ turn k s true true l f m2 ++ turn k s true z2 (negb l) f a2)) s2 ->
    let D := center_distance c1 c2 in let an := atan2 (c_yc c2 - c_yc c1) (c_xc c2 - c_xc c1) in let C := cos (swept k s m1) in
    D ^ 2 = (2 * r * (1 - 2 * C)) ^ 2 /\
    forall g dx, 0 < D -> pm1 g -> D = g * (2 * r * (1 - 2 * C)) -> D - 2 * dx = g * (2 * r) ->
      let dy := sqrt ((2 * r) ^ 2 - dx ^ 2) in 0 <= (2 * r) ^ 2 - dx ^ 2 /\
      (forall dz t1 t2, dz = dy \/ dz = - dy -> (c_xc t1, c_yc t1) = global_frame_change (c_xc c1) (c_yc c1) an dx dz -> (c_xc t2, c_yc t2) = global_frame_change (c_xc c2) (c_yc c2) an (- dx) dz ->
        center_distance c1 t1 = jr k s true false /\ center_distance t1 t2 = jr k s true false /\ center_distance t2 c2 = jr k s true false) /\
      exists dz, (dz = dy \/ dz = - dy) /\
        forall t1 t2, (c_xc t1, c_yc t1) = global_frame_change (c_xc c1) (c_yc c1) an dx dz -> (c_xc t2, c_yc t2) = global_frame_change (c_xc c2) (c_yc c2) an (- dx) dz ->
        forall q1 q2 q3, joint k s true false c1 t1 l f q1 -> joint k s true false t1 t2 (negb l) f q2 -> joint k s true false t2 c2 l f q3 ->
          seg k s z1 true l f (turn_len k s z1 true a1) (st_theta s1) (q_theta q1) /\ seg k s true true (negb l) f (turn_len k s true true m1) (q_theta q1) (q_theta q2) /\
          seg k s true true l f (turn_len k s true true m2) (q_theta q2) (q_theta q3) /\ seg k s true z2 (negb l) f (turn_len k s true z2 a2) (q_theta q3) (st_theta s2).
  Proof.
    intros AS AE A1 M1 M2 A2 SW W D an C. rewrite !lib_app in W. set (st1 := lib_path s1 _) in W. set (st2 := lib_path st1 _) in W. set (st3 := lib_path st2 _) in W.
    pose proof (turn_turn_rel k s Hk Hs HE z1 true l f a1 s1) as T1. fold st1 in T1. pose proof (turn_turn_rel k s Hk Hs HE true true (negb l) f m1 st1) as TM. fold st2 in TM.
    pose proof (turn_turn_rel k s Hk Hs HE true true l f m2 st2) as TN. fold st3 in TN.
    pose proof (turn_rel_congr _ _ _ _ _ _ _ _ _ _ _ (peq_refl _) (same_peq _ _ W) (turn_turn_rel k s Hk Hs HE true z2 (negb l) f a2 st3)) as T2.
    pose proof (start_off _ _ _ _ _ _ _ AS true a1 (conf_of st1) T1) as O1. pose proof (end_off _ _ _ _ _ _ _ AE true a2 (conf_of st3) T2) as O2.
    assert (ANY1 : forall tg, (c_xc tg, c_yc tg) = frame (pst st1) (in_x k s true f) (side_y k s true (negb l)) -> joint k s true false c1 tg l f (conf_of st1) /\ off tg (conf_of st2) (out_x k s true f) (side_y k s true (negb l))).
    { intros tg CT. split; [split; [exact O1|exact CT]|]. unfold off; rewrite CT; exact (proj1 TM). }
    assert (ANY2 : forall tg, (c_xc tg, c_yc tg) = frame (pst st3) (out_x k s true f) (side_y k s true l) -> off tg (conf_of st2) (in_x k s true f) (side_y k s true l) /\ joint k s true false tg c2 l f (conf_of st3)).
    { intros tg CT. split; [unfold off; rewrite CT; symmetry; exact (proj1 TN)|]. split; [exact CT|exact O2]. }
    destruct (frame (pst st1) (in_x k s true f) (side_y k s true (negb l))) as [tx ty] eqn:CE. set (tm := at_point tx ty c1). destruct (ANY1 tm eq_refl) as [[JA JB] OM].
    destruct (frame (pst st3) (out_x k s true f) (side_y k s true l)) as [vx vy] eqn:CF. set (tn := at_point vx vy c1). destruct (ANY2 tn eq_refl) as [ON [KA KB]].
    destruct (turn_head k s Hs _ _ _ _ _ _ _ (turn_rel_sym _ _ _ _ _ _ _ _ _ TM)) as [CH SH]. destruct (turn_head k s Hs _ _ _ _ _ _ _ TN) as [CK SK]. cbn [pst pt] in CH, SH, CK, SK.
    destruct (swept_first m1) as [W1 Q1]. destruct (swept_second m1 m2 SW) as [W2 Q2]. fold C in W1, Q1, W2, Q2. set (S := sin (swept k s m1)) in *. set (phi1 := turn_angle k s true true m1) in *. set (phi2 := turn_angle k s true true m2) in *.
    destruct (vec _ _ _ _ _ _ _ _ _ JA JB (straight_0 _)) as [WX WY]. destruct (vec _ _ _ _ _ _ _ _ _ OM ON (straight_0 _)) as [VX VY]. destruct (vec _ _ _ _ _ _ _ _ _ KA KB (straight_0 _)) as [ZX ZY].
    cbn [conf_of q_theta] in VX, VY, WX, WY, ZX, ZY. rewrite CH, SH in WX, WY. rewrite CK, SK in ZX, ZY. set (h := st_theta st2) in *.
    destruct (XY_eq k s Hk Hs HE) as (_ & _ & XP & YP & _ & RR & RP). pose proof (pm1_sq _ (pm1_sign f)) as SF. pose proof (pm1_sq _ (pm1_sign l)) as SL.
    assert (R2 : r ^ 2 = X ^ 2 + Y ^ 2) by (rewrite RR at 1; apply hyp_sq).
    set (XX := X) in *. set (YY := Y) in *.
    assert (WX' : c_xc tm - c_xc c1 = 2 * (sign f * (XX * cos phi1 + YY * sin phi1)) * cos h + 2 * (sign l * (YY * cos phi1 - XX * sin phi1)) * sin h) by (rewrite WX; unfold out_x, in_x, side_y, jz, jf; rewrite !sign_negb; fold XX YY; ring [SF SL]).
    assert (WY' : c_yc tm - c_yc c1 = 2 * (sign f * (XX * cos phi1 + YY * sin phi1)) * sin h - 2 * (sign l * (YY * cos phi1 - XX * sin phi1)) * cos h) by (rewrite WY; unfold out_x, in_x, side_y, jz, jf; rewrite !sign_negb; fold XX YY; ring [SF SL]).
    assert (VX' : c_xc tn - c_xc tm = 2 * (sign f * XX) * cos h - 2 * (sign l * YY) * sin h) by (rewrite VX; unfold out_x, in_x, side_y; rewrite !sign_negb; fold XX YY; ring).
    assert (VY' : c_yc tn - c_yc tm = 2 * (sign f * XX) * sin h + 2 * (sign l * YY) * cos h) by (rewrite VY; unfold out_x, in_x, side_y; rewrite !sign_negb; fold XX YY; ring).
    assert (ZX' : c_xc c2 - c_xc tn = 2 * (sign f * (XX * cos phi2 + YY * sin phi2)) * cos h + 2 * (sign l * (YY * cos phi2 - XX * sin phi2)) * sin h) by (rewrite ZX; unfold out_x, in_x, side_y, jz, jf; rewrite !sign_negb; fold XX YY; ring [SF SL]).
    assert (ZY' : c_yc c2 - c_yc tn = 2 * (sign f * (XX * cos phi2 + YY * sin phi2)) * sin h - 2 * (sign l * (YY * cos phi2 - XX * sin phi2)) * cos h) by (rewrite ZY; unfold out_x, in_x, side_y, jz, jf; rewrite !sign_negb; fold XX YY; ring [SF SL]).
    rewrite W1, Q1 in WX', WY'. rewrite W2, Q2 in ZX', ZY'.
    assert (DX : c_xc c2 - c_xc c1 = (2 * (1 - 2 * C)) * (sign f * XX) * cos h - (2 * (1 - 2 * C)) * (sign l * YY) * sin h) by (transitivity ((c_xc tm - c_xc c1) + (c_xc tn - c_xc tm) + (c_xc c2 - c_xc tn)); [ring|]; rewrite WX', VX', ZX'; ring).
    assert (DY : c_yc c2 - c_yc c1 = (2 * (1 - 2 * C)) * (sign f * XX) * sin h + (2 * (1 - 2 * C)) * (sign l * YY) * cos h) by (transitivity ((c_yc tm - c_yc c1) + (c_yc tn - c_yc tm) + (c_yc c2 - c_yc tn)); [ring|]; rewrite WY', VY', ZY'; ring).
    pose proof (cos_sq h) as TH. assert (CS : S ^ 2 = 1 - C ^ 2) by (unfold S, C; pose proof (cos_sq (swept k s m1)) as T; ring [T]).
    split.
    { unfold D. rewrite (vec_dist c1 c2 ((2 * (1 - 2 * C)) * (sign f * XX)) ((2 * (1 - 2 * C)) * (sign l * YY)) h) by (rewrite ?DX, ?DY; ring). rewrite hyp_sq. transitivity (r ^ 2 * (2 * (1 - 2 * C)) ^ 2); [rewrite R2; ring [SF SL]|ring]. }
    intros g dx DP G EG EX dy. pose proof (pm1_sq g G) as GG. assert (DXQ : dx = - (2 * (g * (r * C)))) by lra.
    assert (C2 : C ^ 2 <= 1) by (pose proof (pow2_ge_0 S); lra).
    assert (DX2 : dx ^ 2 = 4 * r ^ 2 * C ^ 2) by (rewrite DXQ; ring [GG]). assert (P0 : 0 <= (2 * r) ^ 2 - dx ^ 2) by (rewrite DX2; nra). split; [exact P0|].
    assert (RJ : jr k s true false = 2 * r) by reflexivity.
    split.
    { intros dz t1 t2 Z C1' C2'. assert (DZ : dz ^ 2 = (2 * r) ^ 2 - dx ^ 2) by (rewrite <- (pow2_sqrt _ P0); fold dy; destruct Z as [-> | ->]; ring).
      destruct (tgt_dist12 c1 c2 D an t1 t2 _ _ _ _ dx dz dx dz eq_refl eq_refl eq_refl eq_refl (eq_sym C1') eq_refl eq_refl (eq_sym C2')) as (E1 & E2 & E3).
      split; [rewrite E1, RJ; apply hyp_of; lra|]. split; [rewrite E3, RJ; apply hyp_eq; [lra|]; replace (D - dx - dx) with (g * (2 * r)) by lra; ring [GG]|rewrite E2, RJ; apply hyp_of; lra]. }
    destruct (in_frame c1 c2 DP (c_xc c1) (c_yc c1) tx ty) as (a & b & F1 & DA & DB & AB). destruct (in_frame c1 c2 DP (c_xc c2) (c_yc c2) vx vy) as (a' & b' & F2 & DA' & DB' & _). fold an D in F1, F2, DA, DB, DA', DB'.
    change tx with (c_xc tm) in DA, DB, AB. change ty with (c_yc tm) in DA, DB, AB. change vx with (c_xc tn) in DA', DB'. change vy with (c_yc tn) in DA', DB'.
    assert (ZX2 : c_xc tn - c_xc c2 = - (c_xc c2 - c_xc tn)) by ring. assert (ZY2 : c_yc tn - c_yc c2 = - (c_yc c2 - c_yc tn)) by ring. rewrite ZX' in ZX2. rewrite ZY' in ZY2.
    assert (AQ : a = dx). { apply Rmult_eq_reg_l with D; [|lra]. rewrite DA, WX', WY', DX, DY, DXQ, EG. transitivity (- (2 * C) * (2 * (1 - 2 * C)) * (XX ^ 2 + YY ^ 2)); [ring [SF SL TH]|rewrite <- R2; ring [GG]]. }
    assert (AQ' : a' = - dx). { apply Rmult_eq_reg_l with D; [|lra]. rewrite DA', ZX2, ZY2, DX, DY, DXQ, EG. transitivity (2 * C * (2 * (1 - 2 * C)) * (XX ^ 2 + YY ^ 2)); [ring [SF SL TH]|rewrite <- R2; ring [GG]]. }
    assert (BQ : b' = b). { apply Rmult_eq_reg_l with D; [|lra]. rewrite DB', DB, ZX2, ZY2, WX', WY', DX, DY. ring [SF SL TH]. }
    assert (B2 : b ^ 2 = (2 * r) ^ 2 - dx ^ 2). { rewrite AQ, WX', WY' in AB. assert (E : dx ^ 2 + b ^ 2 = 4 * (XX ^ 2 + YY ^ 2)) by (rewrite AB; ring [SF SL TH CS]). rewrite <- R2 in E. lra. }
    exists b. split; [exact (pm_sqrt _ _ B2)|]. intros t1 t2 C1' C2' q1 q2 q3 J1 J2 J3. rewrite AQ in F1. rewrite AQ', BQ in F2. rewrite <- F1 in C1'. rewrite <- F2 in C2'.
    destruct (ANY1 t1 C1') as [K1 P1]. destruct (ANY2 t2 C2') as [P2 K3]. assert (K2 : joint k s true false t1 t2 (negb l) f (conf_of st2)) by (split; [exact P1|]; unfold jz, jf; rewrite negb_involutive; exact P2).
    pose proof (joint_unique k s Hk Hs HE _ _ _ _ _ _ _ _ K1 J1) as H1. pose proof (joint_unique k s Hk Hs HE _ _ _ _ _ _ _ _ K2 J2) as H2. pose proof (joint_unique k s Hk Hs HE _ _ _ _ _ _ _ _ K3 J3) as H3.
    split; [exact (seg_of_rel k s Hk Hs HE _ _ _ _ _ _ _ _ _ A1 T1 (ang_eq_refl _) H1)|]. split; [exact (seg_of_rel k s Hk Hs HE _ _ _ _ _ _ _ _ _ M1 TM H1 H2)|].
    split; [exact (seg_of_rel k s Hk Hs HE _ _ _ _ _ _ _ _ _ M2 TN H2 H3)|exact (seg_of_rel k s Hk Hs HE _ _ _ _ _ _ _ _ _ A2 T2 H3 (ang_eq_refl _))].
  Qed.
End Word.

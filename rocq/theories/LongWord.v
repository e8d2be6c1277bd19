(** * Longer paths with cusps against the candidates of the Reeds-Shepp planners *)
From Coq Require Import Reals ZArith List Lra Lia Bool.
From Verif Require Import Base ModelUtil ModelCircle ModelPaths Num UtilProofs SpecPath SpecTurn SpecSide SpecOpt SpecCusp SpecLong PoseAlg TurnProofs TurnBounds LegProofs TangentProofs PlanProofs PlanTactics PlanHybrid PlanFamily PlanBounds PlanRadius OptProofs OptTangent OptWord CuspWord.
Import ListNotations.
Open Scope R_scope.

(** Any point in the frame of two centres. *)
Lemma in_frame c1 c2 : let D := center_distance c1 c2 in let an := atan2 (c_yc c2 - c_yc c1) (c_xc c2 - c_xc c1) in
  0 < D -> forall x y u v, exists a b, (u, v) = global_frame_change x y an a b /\
    D * a = (u - x) * (c_xc c2 - c_xc c1) + (v - y) * (c_yc c2 - c_yc c1) /\ D * b = (v - y) * (c_xc c2 - c_xc c1) - (u - x) * (c_yc c2 - c_yc c1) /\
    a ^ 2 + b ^ 2 = (u - x) ^ 2 + (v - y) ^ 2.
Proof.
  intros D an DP x y u v. destruct (centres c1 c2) as (_ & X2 & Y2). fold D an in X2, Y2. rewrite X2, Y2. pose proof (cos_sq an) as T.
  exists ((u - x) * cos an + (v - y) * sin an), ((v - y) * cos an - (u - x) * sin an). unfold global_frame_change. split; [f_equal; ring [T]|]. split; [ring|]. split; ring [T].
Qed.

(** A circle around a given point. *)
Definition at_point (x y : R) (c : Circle) : Circle :=
  mkCircle (c_start c) (c_left c) (c_forward c) (c_regular c) x y (c_kappa c) (c_kappa_inv c) (c_sigma c) (c_radius c) (c_mu c) (c_sin_mu c) (c_cos_mu c) (c_delta_min c).

Section Long.
  Variables (k s : R).
  Hypothesis Hk : 0 < k.
  Hypothesis Hs : 0 < s.
  Hypothesis HE : epsilon < k / s.
  Local Notation p := (hc_cc_param k s).
  Local Notation r := (p_radius p).
  Local Notation X := (p_radius p * p_sin_mu p).
  Local Notation Y := (p_radius p * p_cos_mu p).
  Local Notation t := (par_t k s).

  Lemma angle_t z1 z2 a : turn_angle k s z1 z2 a = (if z1 then t else 0) + (if z2 then t else 0) + k * a.
  Proof. unfold turn_angle. rewrite par_t_eq by exact Hs. destruct z1, z2; field; lra. Qed.

  (** *** A straight line between two circles, as the planners build it *)
  Definition line_ok (ca cb : Circle) (same : bool) (d : R) (P : Configuration -> Configuration -> Prop) : Prop :=
    if same then forall q1 q2, gTeST r (p_sin_mu p) (p_cos_mu p) ca cb = (q1, q2) -> configuration_distance q1 q2 = d /\ P q1 q2
    else exists q1 q2, gTiST r (p_sin_mu p) (p_cos_mu p) ca cb = Some (q1, q2) /\ configuration_distance q1 q2 = d /\ P q1 q2.
  Lemma line_link ca cb la lb f d qa qb (P : Configuration -> Configuration -> Prop) : c_left ca = la -> c_forward ca = f -> off ca qa (out_x k s true f) (side_y k s true la) -> off cb qb (in_x k s true f) (side_y k s true lb) ->
    straight_by (sign f * d) qa qb -> 0 <= d -> (forall q1 q2, ang_eq (q_theta q1) (q_theta qa) -> ang_eq (q_theta q2) (q_theta qb) -> P q1 q2) -> line_ok ca cb (Bool.eqb la lb) d P.
  Proof.
    intros EL EF OA OB S D HP. destruct (XY_eq k s Hk Hs HE) as (_ & _ & XP & YP & _ & RR & RP). unfold out_x, in_x, side_y in OA, OB. unfold line_ok.
    destruct (Bool.eqb la lb) eqn:Q.
    - apply Bool.eqb_prop in Q. destruct Q. intros q1 q2 G. destruct (TeST_unique r (p_sin_mu p) (p_cos_mu p) XP ca cb la f qa qb d EL EF OA OB S D) as [_ U]. destruct (U q1 q2 G) as (H1 & H2 & H3). split; [exact H3|exact (HP _ _ H1 H2)].
    - assert (E : lb = negb la) by (destruct la, lb; try reflexivity; discriminate). subst lb. rewrite sign_negb, Ropp_mult_distr_l_reverse in OB.
      assert (R2 : r ^ 2 = X ^ 2 + Y ^ 2) by (rewrite RR at 1; apply hyp_sq).
      destruct (TiST_unique r (p_sin_mu p) (p_cos_mu p) XP YP ca cb la f qa qb d EL EF OA OB S D ltac:(lra) R2) as (DD & DP & U).
      destruct (param_nom k s Hk Hs) as (_ & _ & _ & _ & _ & _ & _ & _ & _ & CM). assert (CB : -1 <= p_cos_mu p <= 1) by (rewrite CM; apply COS_bound).
      pose proof (TiST_defined r (p_sin_mu p) (p_cos_mu p) ca cb DP ltac:(lra) CB DD) as N. destruct (gTiST _ _ _ ca cb) as [[q1 q2]|] eqn:G; [|congruence].
      exists q1, q2. split; [reflexivity|]. destruct (U q1 q2 eq_refl) as (H1 & H2 & H3). split; [exact H3|exact (HP _ _ H1 H2)].
  Qed.

  (** The centres of circles beside a straight line, in the frame of the centres of the ends. *)
  Lemma beside_line c1 c2 g M N h u : pm1 g -> let D := center_distance c1 c2 in let an := atan2 (c_yc c2 - c_yc c1) (c_xc c2 - c_xc c1) in
    c_xc c2 - c_xc c1 = g * M * cos h - N * sin h -> c_yc c2 - c_yc c1 = g * M * sin h + N * cos h -> 0 < M -> 0 < u ->
    D ^ 2 = M ^ 2 + N ^ 2 /\ 0 < D /\
    forall dx dy, 0 <= dx -> dx ^ 2 + dy ^ 2 = u ^ 2 -> D * dy = u * (g * N) ->
      global_frame_change (c_xc c1) (c_yc c1) an dx (- dy) = (c_xc c1 + u * (g * cos h), c_yc c1 + u * (g * sin h)) /\
      global_frame_change (c_xc c2) (c_yc c2) an (- dx) dy = (c_xc c2 - u * (g * cos h), c_yc c2 - u * (g * sin h)).
  Proof.
    intros G D an VX VY MP UP. pose proof (pm1_sq g G) as GG. destruct (centres c1 c2) as (DP & X2 & Y2). fold D an in DP, X2, Y2.
    assert (DD : D ^ 2 = M ^ 2 + N ^ 2). { unfold D. rewrite (vec_dist c1 c2 _ _ _ VX VY), hyp_sq. transitivity (g * g * M ^ 2 + N ^ 2); [ring|rewrite GG; ring]. }
    assert (D0 : 0 < D) by nra. split; [exact DD|]. split; [exact D0|]. intros dx dy P0 Q DY.
    assert (DX : D * dx = u * M).
    { assert (SQ : (D * dx) ^ 2 = (u * M) ^ 2).
      { transitivity (D ^ 2 * (u ^ 2 - dy ^ 2)); [rewrite <- Q; ring|]. transitivity (D ^ 2 * u ^ 2 - (D * dy) ^ 2); [ring|]. rewrite DY, DD. transitivity (u ^ 2 * (M ^ 2 + N ^ 2 - g * g * N ^ 2)); [ring|rewrite GG; ring]. }
      apply Rsqr_inj; [apply Rmult_le_pos; lra|apply Rmult_le_pos; lra|unfold Rsqr; nra]. }
    assert (CA : D * cos an = g * M * cos h - N * sin h) by lra. assert (SA : D * sin an = g * M * sin h + N * cos h) by lra.
    assert (E1 : dx * cos an + dy * sin an = u * (g * cos h)).
    { apply Rmult_eq_reg_l with (D ^ 2); [|nra]. transitivity ((D * dx) * (D * cos an) + (D * dy) * (D * sin an)); [ring|]. rewrite DX, DY, CA, SA, DD. transitivity (u * (g * M ^ 2 * cos h + g * N ^ 2 * cos h) + u * M * N * sin h * (g * g - 1)); [ring|rewrite GG; ring]. }
    assert (E2 : dx * sin an - dy * cos an = u * (g * sin h)).
    { apply Rmult_eq_reg_l with (D ^ 2); [|nra]. transitivity ((D * dx) * (D * sin an) - (D * dy) * (D * cos an)); [ring|]. rewrite DX, DY, CA, SA, DD. transitivity (u * (g * M ^ 2 * sin h + g * N ^ 2 * sin h) + u * M * N * cos h * (1 - g * g)); [ring|rewrite GG; ring]. }
    unfold global_frame_change. split; f_equal; lra.
  Qed.

  Section Words.
    Variables (zc z1 z2 : bool) (s1 s2 : State) (c1 c2 : Circle).
    Local Notation u := (jr k s zc true).

    (** Heading before or after a quarter turn. *)
    Lemma quarter_head za zb l f a P Q : turn_rel k s za zb l f a P Q -> quarter k s za zb a ->
      cos (pt Q) = - (sign f * sign l * sin (pt P)) /\ sin (pt Q) = sign f * sign l * cos (pt P).
    Proof.
      intros [_ A] B. unfold quarter in B. rewrite angle_t in B.
      assert (H : ang_eq (pt Q) (pt P + sign f * sign l * (PI / 2))).
      { eapply ang_eq_trans; [exact A|]. apply ang_eq_add; [apply ang_eq_refl|]. destruct B as [n B]. destruct l, f; unfold sign; [exists n|exists (- n)%Z|exists (- n)%Z|exists n]; rewrite ?opp_IZR; lra. }
      rewrite (ang_eq_cos _ _ H), (ang_eq_sin _ _ H). destruct l, f; unfold sign; rewrite ?Rmult_1_l, ?Rmult_1_r;
        try (replace (-1 * -1 * (PI / 2)) with (PI / 2) by ring); try (replace (1 * -1 * (PI / 2)) with (- (PI / 2)) by ring); try (replace (-1 * (PI / 2)) with (- (PI / 2)) by ring);
        rewrite cos_plus, sin_plus, ?cos_neg, ?sin_neg, cos_PI2, sin_PI2; split; ring.
    Qed.
    Lemma u_eq : u = 2 * (if zc then Y else 1 / k). Proof. reflexivity. Qed.
    Lemma CSC_C_word l1 l2 f a1 d m a2 : at_start k s z1 s1 c1 l1 f -> at_end k s z2 s2 c2 l2 (negb f) -> 0 <= a1 -> 0 <= d -> 0 <= m -> 0 <= a2 -> quarter k s true zc m ->
      same_pose (lib_path s1 (turn k s z1 true l1 f a1 ++ [line f d] ++ turn k s true zc (negb l2) f m ++ turn k s zc z2 l2 (negb f) a2)) s2 ->
      let D := center_distance c1 c2 in let an := atan2 (c_yc c2 - c_yc c1) (c_xc c2 - c_xc c1) in let N := sign (negb l2) * Y - sign l1 * Y in
      D ^ 2 = (d + 2 * X + u) ^ 2 + N ^ 2 /\ 0 < D /\
      forall dx dy, 0 <= dx -> dx ^ 2 + dy ^ 2 = u ^ 2 -> D * dy = u * (sign f * N) ->
        forall tg, (c_xc tg, c_yc tg) = global_frame_change (c_xc c2) (c_yc c2) an (- dx) dy ->
          center_distance tg c2 = u /\
          line_ok c1 tg (Bool.eqb l1 (negb l2)) d (fun q1 q2 => forall q3, joint k s zc true tg c2 (negb l2) f q3 ->
            seg k s z1 true l1 f (turn_len k s z1 true a1) (st_theta s1) (q_theta q1) /\ seg k s true zc (negb l2) f (turn_len k s true zc m) (q_theta q2) (q_theta q3) /\
            seg k s zc z2 l2 (negb f) (turn_len k s zc z2 a2) (q_theta q3) (st_theta s2)).
    Proof.
      intros AS AE A1 D0 M0 A2 QU W D an N. rewrite !lib_app in W. set (st1 := lib_path s1 _) in W. set (st2 := lib_path st1 _) in W. set (st3 := lib_path st2 _) in W.
      pose proof (turn_turn_rel k s Hk Hs HE z1 true l1 f a1 s1) as T1. fold st1 in T1. pose proof (step_line st1 f d) as S. change (straight_by (sign f * d) (conf_of st1) (conf_of st2)) in S.
      pose proof (turn_turn_rel k s Hk Hs HE true zc (negb l2) f m st2) as TM. fold st3 in TM.
      pose proof (turn_rel_congr _ _ _ _ _ _ _ _ _ _ _ (peq_refl _) (same_peq _ _ W) (turn_turn_rel k s Hk Hs HE zc z2 l2 (negb f) a2 st3)) as T2.
      pose proof (start_off _ _ _ _ _ _ _ AS true a1 (conf_of st1) T1) as O1. pose proof (end_off _ _ _ _ _ _ _ AE zc a2 (conf_of st3) T2) as O2.
      destruct (quarter_head _ _ _ _ _ _ _ TM QU) as [CH SH]. cbn [pst pt] in CH, SH. destruct S as (SX & SY & SA). pose proof (conj SX (conj SY SA)) as S. cbn [conf_of q_theta q_x q_y] in SA. rewrite (ang_eq_cos _ _ SA) in SH. rewrite (ang_eq_sin _ _ SA) in CH.
      assert (ANY : forall tg, (c_xc tg, c_yc tg) = frame (pst st3) (out_x k s zc f) (side_y k s zc (negb l2)) -> off tg (conf_of st2) (in_x k s true f) (side_y k s true (negb l2)) /\ joint k s zc true tg c2 (negb l2) f (conf_of st3)).
      { intros tg CT. split; [unfold off; rewrite CT; symmetry; exact (proj1 TM)|]. split; [exact CT|]. unfold jz, jf. rewrite negb_involutive. exact O2. }
      destruct (frame (pst st3) (out_x k s zc f) (side_y k s zc (negb l2))) as [tx ty] eqn:CE. set (tm := at_point tx ty c1). destruct (ANY tm eq_refl) as [OM [JA JB]].
      destruct (vec _ _ _ _ _ _ _ _ _ O1 OM S) as [VX VY]. destruct (vec _ _ _ _ _ _ _ _ _ JA JB (straight_0 _)) as [WX WY]. cbn [conf_of q_theta] in VX, VY, WX, WY. rewrite CH, SH in WX, WY.
      destruct (XY_eq k s Hk Hs HE) as (_ & _ & XP & YP & _). pose proof (jr_pos k s Hk Hs HE zc true) as UP. pose proof (pm1_sq _ (pm1_sign f)) as SF. pose proof (pm1_sq _ (pm1_sign l2)) as SL.
      assert (UX : c_xc c2 - c_xc tm = u * (sign f * cos (st_theta st1))).
      { rewrite WX. unfold out_x, in_x, side_y, jz, jf, jr. rewrite !sign_negb. destruct zc; ring [SF SL]. }
      assert (UY : c_yc c2 - c_yc tm = u * (sign f * sin (st_theta st1))).
      { rewrite WY. unfold out_x, in_x, side_y, jz, jf, jr. rewrite !sign_negb. destruct zc; ring [SF SL]. }
      destruct (beside_line c1 c2 (sign f) (d + 2 * X + u) N (st_theta st1) u (pm1_sign f)) as (DD & DP & U).
      { unfold N. transitivity ((c_xc tm - c_xc c1) + (c_xc c2 - c_xc tm)); [ring|]. rewrite VX, UX. unfold out_x, in_x, side_y. ring. }
      { unfold N. transitivity ((c_yc tm - c_yc c1) + (c_yc c2 - c_yc tm)); [ring|]. rewrite VY, UY. unfold out_x, in_x, side_y. ring. }
      { lra. } { exact UP. }
      split; [exact DD|]. split; [exact DP|]. intros dx dy P0 Q DY tg CT. destruct (U dx dy P0 Q DY) as [_ U2]. fold an in U2. rewrite U2 in CT.
      assert (CT2 : (c_xc tg, c_yc tg) = (tx, ty)). { rewrite CT. change tx with (c_xc tm). change ty with (c_yc tm). f_equal; lra. }
      destruct (ANY tg CT2) as [OG JG]. split; [exact (joint_dist k s Hk Hs HE _ _ _ _ _ _ _ JG)|].
      refine (line_link c1 tg l1 (negb l2) f d (conf_of st1) (conf_of st2) _ (proj1 AS) (proj1 (proj2 AS)) O1 OG S D0 _).
      intros q1 q2 H1 H2 q3 J3. pose proof (joint_unique k s Hk Hs HE _ _ _ _ _ _ _ _ JG J3) as H3.
      split; [exact (seg_of_rel k s Hk Hs HE _ _ _ _ _ _ _ _ _ A1 T1 (ang_eq_refl _) H1)|]. split; [exact (seg_of_rel k s Hk Hs HE _ _ _ _ _ _ _ _ _ M0 TM H2 H3)|exact (seg_of_rel k s Hk Hs HE _ _ _ _ _ _ _ _ _ A2 T2 H3 (ang_eq_refl _))].
    Qed.

    Lemma quarter_sym za zb a : quarter k s za zb a -> quarter k s zb za a.
    Proof. unfold quarter. rewrite !angle_t. intros H. eapply ang_eq_trans; [|exact H]. exists 0%Z. ring. Qed.

    Lemma C_CSC_word l1 l2 f a1 m d a2 : at_start k s z1 s1 c1 l1 f -> at_end k s z2 s2 c2 l2 (negb f) -> 0 <= a1 -> 0 <= m -> 0 <= d -> 0 <= a2 -> quarter k s zc true m ->
      same_pose (lib_path s1 (turn k s z1 zc l1 f a1 ++ turn k s zc true (negb l1) (negb f) m ++ [line (negb f) d] ++ turn k s true z2 l2 (negb f) a2)) s2 ->
      let D := center_distance c1 c2 in let an := atan2 (c_yc c2 - c_yc c1) (c_xc c2 - c_xc c1) in let N := sign l2 * Y - sign (negb l1) * Y in
      D ^ 2 = (d + 2 * X + u) ^ 2 + N ^ 2 /\ 0 < D /\
      forall dx dy, 0 <= dx -> dx ^ 2 + dy ^ 2 = u ^ 2 -> D * dy = u * (sign (negb f) * N) ->
        forall tg, (c_xc tg, c_yc tg) = global_frame_change (c_xc c1) (c_yc c1) an dx (- dy) -> c_left tg = negb l1 -> c_forward tg = negb f ->
          center_distance c1 tg = u /\
          line_ok tg c2 (Bool.eqb (negb l1) l2) d (fun q2 q3 => forall q1, joint k s zc true c1 tg l1 f q1 ->
            seg k s z1 zc l1 f (turn_len k s z1 zc a1) (st_theta s1) (q_theta q1) /\ seg k s zc true (negb l1) (negb f) (turn_len k s zc true m) (q_theta q1) (q_theta q2) /\
            seg k s true z2 l2 (negb f) (turn_len k s true z2 a2) (q_theta q3) (st_theta s2)).
    Proof.
      intros AS AE A1 M0 D0 A2 QU W D an N. rewrite !lib_app in W. set (st1 := lib_path s1 _) in W. set (st2 := lib_path st1 _) in W. set (st3 := lib_path st2 _) in W.
      pose proof (turn_turn_rel k s Hk Hs HE z1 zc l1 f a1 s1) as T1. fold st1 in T1. pose proof (turn_turn_rel k s Hk Hs HE zc true (negb l1) (negb f) m st1) as TM. fold st2 in TM.
      pose proof (step_line st2 (negb f) d) as S. change (straight_by (sign (negb f) * d) (conf_of st2) (conf_of st3)) in S.
      pose proof (turn_rel_congr _ _ _ _ _ _ _ _ _ _ _ (peq_refl _) (same_peq _ _ W) (turn_turn_rel k s Hk Hs HE true z2 l2 (negb f) a2 st3)) as T2.
      pose proof (start_off _ _ _ _ _ _ _ AS zc a1 (conf_of st1) T1) as O1. pose proof (end_off _ _ _ _ _ _ _ AE true a2 (conf_of st3) T2) as O2.
      destruct (quarter_head _ _ _ _ _ _ _ (turn_rel_sym _ _ _ _ _ _ _ _ _ TM) (quarter_sym _ _ _ QU)) as [CH SH]. cbn [pst pt] in CH, SH.
      assert (ANY : forall tg, (c_xc tg, c_yc tg) = frame (pst st1) (in_x k s zc (negb f)) (side_y k s zc (negb l1)) -> joint k s zc true c1 tg l1 f (conf_of st1) /\ off tg (conf_of st2) (out_x k s true (negb f)) (side_y k s true (negb l1))).
      { intros tg CT. split; [split; [exact O1|exact CT]|]. unfold off; rewrite CT; exact (proj1 TM). }
      destruct (frame (pst st1) (in_x k s zc (negb f)) (side_y k s zc (negb l1))) as [tx ty] eqn:CE. set (tm := at_point tx ty c1). destruct (ANY tm eq_refl) as [[JA JB] OM].
      destruct (vec _ _ _ _ _ _ _ _ _ OM O2 S) as [VX VY]. destruct (vec _ _ _ _ _ _ _ _ _ JA JB (straight_0 _)) as [WX WY]. cbn [conf_of q_theta] in VX, VY, WX, WY. rewrite CH, SH in WX, WY.
      destruct (XY_eq k s Hk Hs HE) as (_ & _ & XP & YP & _). pose proof (jr_pos k s Hk Hs HE zc true) as UP. pose proof (pm1_sq _ (pm1_sign f)) as SF. pose proof (pm1_sq _ (pm1_sign l1)) as SL.
      assert (UX : c_xc tm - c_xc c1 = u * (sign (negb f) * cos (st_theta st2))).
      { rewrite WX. unfold out_x, in_x, side_y, jz, jf, jr. rewrite !sign_negb. destruct zc; ring [SF SL]. }
      assert (UY : c_yc tm - c_yc c1 = u * (sign (negb f) * sin (st_theta st2))).
      { rewrite WY. unfold out_x, in_x, side_y, jz, jf, jr. rewrite !sign_negb. destruct zc; ring [SF SL]. }
      destruct (beside_line c1 c2 (sign (negb f)) (d + 2 * X + u) N (st_theta st2) u (pm1_sign (negb f))) as (DD & DP & U).
      { unfold N. transitivity ((c_xc tm - c_xc c1) + (c_xc c2 - c_xc tm)); [ring|]. rewrite VX, UX. unfold out_x, in_x, side_y. ring. }
      { unfold N. transitivity ((c_yc tm - c_yc c1) + (c_yc c2 - c_yc tm)); [ring|]. rewrite VY, UY. unfold out_x, in_x, side_y. ring. }
      { lra. } { exact UP. }
      split; [exact DD|]. split; [exact DP|]. intros dx dy P0 Q DY tg CT EL EF. destruct (U dx dy P0 Q DY) as [U1 _]. fold an in U1. rewrite U1 in CT.
      assert (CT2 : (c_xc tg, c_yc tg) = (tx, ty)). { rewrite CT. change tx with (c_xc tm). change ty with (c_yc tm). f_equal; lra. }
      destruct (ANY tg CT2) as [JG OG]. split; [exact (joint_dist k s Hk Hs HE _ _ _ _ _ _ _ JG)|].
      refine (line_link tg c2 (negb l1) l2 (negb f) d (conf_of st2) (conf_of st3) _ EL EF OG O2 S D0 _).
      intros q2 q3 H2 H3 q1 J1. pose proof (joint_unique k s Hk Hs HE _ _ _ _ _ _ _ _ JG J1) as H1.
      split; [exact (seg_of_rel k s Hk Hs HE _ _ _ _ _ _ _ _ _ A1 T1 (ang_eq_refl _) H1)|]. split; [exact (seg_of_rel k s Hk Hs HE _ _ _ _ _ _ _ _ _ M0 TM H1 H2)|exact (seg_of_rel k s Hk Hs HE _ _ _ _ _ _ _ _ _ A2 T2 H3 (ang_eq_refl _))].
    Qed.

    Lemma C_CSC_C_word l1 l2 f a1 m1 d m2 a2 : at_start k s z1 s1 c1 l1 f -> at_end k s z2 s2 c2 l2 f -> 0 <= a1 -> 0 <= m1 -> 0 <= d -> 0 <= m2 -> 0 <= a2 -> quarter k s zc true m1 -> quarter k s true zc m2 ->
      same_pose (lib_path s1 (turn k s z1 zc l1 f a1 ++ turn k s zc true (negb l1) (negb f) m1 ++ [line (negb f) d] ++ turn k s true zc (negb l2) (negb f) m2 ++ turn k s zc z2 l2 f a2)) s2 ->
      let D := center_distance c1 c2 in let an := atan2 (c_yc c2 - c_yc c1) (c_xc c2 - c_xc c1) in let N := sign (negb l2) * Y - sign (negb l1) * Y in
      D ^ 2 = (d + 2 * X + 2 * u) ^ 2 + N ^ 2 /\ 0 < D /\
      forall dx dy, 0 <= dx -> dx ^ 2 + dy ^ 2 = u ^ 2 -> D * dy = u * (sign (negb f) * N) ->
        forall t1 t2, (c_xc t1, c_yc t1) = global_frame_change (c_xc c1) (c_yc c1) an dx (- dy) -> (c_xc t2, c_yc t2) = global_frame_change (c_xc c2) (c_yc c2) an (- dx) dy -> c_left t1 = negb l1 -> c_forward t1 = negb f ->
          center_distance c1 t1 = u /\ center_distance t2 c2 = u /\
          line_ok t1 t2 (Bool.eqb (negb l1) (negb l2)) d (fun q2 q3 => forall q1 q4, joint k s zc true c1 t1 l1 f q1 -> joint k s zc true t2 c2 (negb l2) (negb f) q4 ->
            seg k s z1 zc l1 f (turn_len k s z1 zc a1) (st_theta s1) (q_theta q1) /\ seg k s zc true (negb l1) (negb f) (turn_len k s zc true m1) (q_theta q1) (q_theta q2) /\
            seg k s true zc (negb l2) (negb f) (turn_len k s true zc m2) (q_theta q3) (q_theta q4) /\ seg k s zc z2 l2 f (turn_len k s zc z2 a2) (q_theta q4) (st_theta s2)).
    Proof.
      intros AS AE A1 M1 D0 M2 A2 QU1 QU2 W D an N. rewrite !lib_app in W. set (st1 := lib_path s1 _) in W. set (st2 := lib_path st1 _) in W. set (st3 := lib_path st2 _) in W. set (st4 := lib_path st3 _) in W.
      pose proof (turn_turn_rel k s Hk Hs HE z1 zc l1 f a1 s1) as T1. fold st1 in T1. pose proof (turn_turn_rel k s Hk Hs HE zc true (negb l1) (negb f) m1 st1) as TM. fold st2 in TM.
      pose proof (step_line st2 (negb f) d) as S. change (straight_by (sign (negb f) * d) (conf_of st2) (conf_of st3)) in S.
      pose proof (turn_turn_rel k s Hk Hs HE true zc (negb l2) (negb f) m2 st3) as TN. fold st4 in TN.
      pose proof (turn_rel_congr _ _ _ _ _ _ _ _ _ _ _ (peq_refl _) (same_peq _ _ W) (turn_turn_rel k s Hk Hs HE zc z2 l2 f a2 st4)) as T2.
      pose proof (start_off _ _ _ _ _ _ _ AS zc a1 (conf_of st1) T1) as O1. pose proof (end_off _ _ _ _ _ _ _ AE zc a2 (conf_of st4) T2) as O2.
      destruct (quarter_head _ _ _ _ _ _ _ (turn_rel_sym _ _ _ _ _ _ _ _ _ TM) (quarter_sym _ _ _ QU1)) as [CH SH]. cbn [pst pt] in CH, SH.
      destruct (quarter_head _ _ _ _ _ _ _ TN QU2) as [CK SK]. cbn [pst pt] in CK, SK. destruct S as (SX & SY & SA). pose proof (conj SX (conj SY SA)) as S. cbn [conf_of q_theta q_x q_y] in SA. rewrite (ang_eq_cos _ _ SA) in SK. rewrite (ang_eq_sin _ _ SA) in CK.
      assert (ANY1 : forall tg, (c_xc tg, c_yc tg) = frame (pst st1) (in_x k s zc (negb f)) (side_y k s zc (negb l1)) -> joint k s zc true c1 tg l1 f (conf_of st1) /\ off tg (conf_of st2) (out_x k s true (negb f)) (side_y k s true (negb l1))).
      { intros tg CT. split; [split; [exact O1|exact CT]|]. unfold off; rewrite CT; exact (proj1 TM). }
      assert (ANY2 : forall tg, (c_xc tg, c_yc tg) = frame (pst st4) (out_x k s zc (negb f)) (side_y k s zc (negb l2)) -> off tg (conf_of st3) (in_x k s true (negb f)) (side_y k s true (negb l2)) /\ joint k s zc true tg c2 (negb l2) (negb f) (conf_of st4)).
      { intros tg CT. split; [unfold off; rewrite CT; symmetry; exact (proj1 TN)|]. split; [exact CT|]. unfold jz, jf. rewrite !negb_involutive. exact O2. }
      destruct (frame (pst st1) (in_x k s zc (negb f)) (side_y k s zc (negb l1))) as [tx ty] eqn:CE. set (tm := at_point tx ty c1). destruct (ANY1 tm eq_refl) as [[JA JB] OM].
      destruct (frame (pst st4) (out_x k s zc (negb f)) (side_y k s zc (negb l2))) as [vx vy] eqn:CF. set (tn := at_point vx vy c1). destruct (ANY2 tn eq_refl) as [ON [KA KB]].
      destruct (vec _ _ _ _ _ _ _ _ _ OM ON S) as [VX VY]. destruct (vec _ _ _ _ _ _ _ _ _ JA JB (straight_0 _)) as [WX WY]. destruct (vec _ _ _ _ _ _ _ _ _ KA KB (straight_0 _)) as [ZX ZY].
      cbn [conf_of q_theta] in VX, VY, WX, WY, ZX, ZY. rewrite CH, SH in WX, WY. rewrite CK, SK in ZX, ZY.
      destruct (XY_eq k s Hk Hs HE) as (_ & _ & XP & YP & _). pose proof (jr_pos k s Hk Hs HE zc true) as UP. pose proof (pm1_sq _ (pm1_sign f)) as SF. pose proof (pm1_sq _ (pm1_sign l1)) as SL. pose proof (pm1_sq _ (pm1_sign l2)) as SL2.
      assert (UX : c_xc tm - c_xc c1 = u * (sign (negb f) * cos (st_theta st2))).
      { rewrite WX. unfold out_x, in_x, side_y, jz, jf, jr. rewrite !sign_negb. destruct zc; ring [SF SL]. }
      assert (UY : c_yc tm - c_yc c1 = u * (sign (negb f) * sin (st_theta st2))).
      { rewrite WY. unfold out_x, in_x, side_y, jz, jf, jr. rewrite !sign_negb. destruct zc; ring [SF SL]. }
      assert (RX : c_xc c2 - c_xc tn = u * (sign (negb f) * cos (st_theta st2))).
      { rewrite ZX. unfold out_x, in_x, side_y, jz, jf, jr. rewrite !sign_negb. destruct zc; ring [SF SL2]. }
      assert (RY : c_yc c2 - c_yc tn = u * (sign (negb f) * sin (st_theta st2))).
      { rewrite ZY. unfold out_x, in_x, side_y, jz, jf, jr. rewrite !sign_negb. destruct zc; ring [SF SL2]. }
      destruct (beside_line c1 c2 (sign (negb f)) (d + 2 * X + 2 * u) N (st_theta st2) u (pm1_sign (negb f))) as (DD & DP & U).
      { unfold N. transitivity ((c_xc tm - c_xc c1) + (c_xc tn - c_xc tm) + (c_xc c2 - c_xc tn)); [ring|]. rewrite VX, UX, RX. unfold out_x, in_x, side_y. ring. }
      { unfold N. transitivity ((c_yc tm - c_yc c1) + (c_yc tn - c_yc tm) + (c_yc c2 - c_yc tn)); [ring|]. rewrite VY, UY, RY. unfold out_x, in_x, side_y. ring. }
      { lra. } { exact UP. }
      split; [exact DD|]. split; [exact DP|]. intros dx dy P0 Q DY t1 t2 CT1 CT2 EL EF. destruct (U dx dy P0 Q DY) as [U1 U2]. fold an in U1, U2. rewrite U1 in CT1. rewrite U2 in CT2.
      assert (C1 : (c_xc t1, c_yc t1) = (tx, ty)). { rewrite CT1. change tx with (c_xc tm). change ty with (c_yc tm). f_equal; lra. }
      assert (C2 : (c_xc t2, c_yc t2) = (vx, vy)). { rewrite CT2. change vx with (c_xc tn). change vy with (c_yc tn). f_equal; lra. }
      destruct (ANY1 t1 C1) as [JG OG]. destruct (ANY2 t2 C2) as [OI JI]. split; [exact (joint_dist k s Hk Hs HE _ _ _ _ _ _ _ JG)|]. split; [exact (joint_dist k s Hk Hs HE _ _ _ _ _ _ _ JI)|].
      refine (line_link t1 t2 (negb l1) (negb l2) (negb f) d (conf_of st2) (conf_of st3) _ EL EF OG OI S D0 _).
      intros q2 q3 H2 H3 q1 q4 J1 J4. pose proof (joint_unique k s Hk Hs HE _ _ _ _ _ _ _ _ JG J1) as H1. pose proof (joint_unique k s Hk Hs HE _ _ _ _ _ _ _ _ JI J4) as H4.
      split; [exact (seg_of_rel k s Hk Hs HE _ _ _ _ _ _ _ _ _ A1 T1 (ang_eq_refl _) H1)|]. split; [exact (seg_of_rel k s Hk Hs HE _ _ _ _ _ _ _ _ _ M1 TM H1 H2)|].
      split; [exact (seg_of_rel k s Hk Hs HE _ _ _ _ _ _ _ _ _ M2 TN H3 H4)|exact (seg_of_rel k s Hk Hs HE _ _ _ _ _ _ _ _ _ A2 T2 H4 (ang_eq_refl _))].
    Qed.

    (** Heading after a turn. *)
    Lemma turn_head za zb l f a P Q : turn_rel k s za zb l f a P Q -> let phi := turn_angle k s za zb a in
      cos (pt Q) = cos (pt P) * cos phi - sign f * sign l * sin (pt P) * sin phi /\ sin (pt Q) = sin (pt P) * cos phi + sign f * sign l * cos (pt P) * sin phi.
    Proof.
      intros [_ A] phi. rewrite <- angle_t in A. fold phi in A. rewrite (ang_eq_cos _ _ A), (ang_eq_sin _ _ A).
      destruct l, f; unfold sign; rewrite ?Rmult_1_l, ?Rmult_1_r; try (replace (-1 * -1 * phi) with phi by ring); try (replace (1 * -1 * phi) with (- phi) by ring); try (replace (-1 * phi) with (- phi) by ring);
        rewrite cos_plus, sin_plus, ?cos_neg, ?sin_neg; split; ring.
    Qed.
    Lemma angle_sym za zb a : turn_angle k s za zb a = turn_angle k s zb za a.
    Proof. rewrite !angle_t. ring. Qed.
    Lemma lean_eq m : let phi := turn_angle k s true zc m in lean k s zc m = Y * cos phi - X * sin phi /\ lean k s zc m ^ 2 + (X * cos phi + Y * sin phi) ^ 2 = r ^ 2.
    Proof.
      intros phi. destruct (param_nom k s Hk Hs) as (_ & _ & _ & _ & _ & _ & _ & _ & SM & CM). destruct (XY_eq k s Hk Hs HE) as (_ & _ & _ & _ & _ & RR & _).
      assert (E : lean k s zc m = Y * cos phi - X * sin phi) by (unfold lean; fold phi; rewrite cos_plus, SM, CM; ring). split; [exact E|]. rewrite E.
      assert (R2 : r ^ 2 = X ^ 2 + Y ^ 2) by (rewrite RR at 1; apply hyp_sq). pose proof (cos_sq phi) as T. rewrite R2. ring [T].
    Qed.
    Lemma pm_sqrt b e : b ^ 2 = e -> b = sqrt e \/ b = - sqrt e.
    Proof. intros <-. destruct (Rle_dec 0 b); [left; symmetry; apply sqrt_pow2; assumption|right]. replace (b ^ 2) with ((- b) ^ 2) by ring. rewrite sqrt_pow2 by lra. ring. Qed.

    Lemma CC_CC_word l f a1 m a2 : at_start k s z1 s1 c1 l f -> at_end k s z2 s2 c2 (negb l) (negb f) -> 0 <= a1 -> 0 <= m -> 0 <= a2 ->
      same_pose (lib_path s1 (turn k s z1 true l f a1 ++ turn k s true zc (negb l) f m ++ turn k s zc true l (negb f) m ++ turn k s true z2 (negb l) (negb f) a2)) s2 ->
      let D := center_distance c1 c2 in let an := atan2 (c_yc c2 - c_yc c1) (c_xc c2 - c_xc c1) in
      D ^ 2 = (u - 4 * lean k s zc m) ^ 2 /\ - r <= lean k s zc m <= r /\
      forall g dx, 0 < D -> pm1 g -> D = g * (u - 4 * lean k s zc m) -> D - 2 * dx = g * u ->
        let dy := sqrt ((2 * r) ^ 2 - dx ^ 2) in 0 <= (2 * r) ^ 2 - dx ^ 2 /\
        (forall dz t1 t2, dz = dy \/ dz = - dy -> (c_xc t1, c_yc t1) = global_frame_change (c_xc c1) (c_yc c1) an dx dz -> (c_xc t2, c_yc t2) = global_frame_change (c_xc c2) (c_yc c2) an (- dx) dz ->
          center_distance c1 t1 = jr k s zc false /\ center_distance t1 t2 = u /\ center_distance t2 c2 = jr k s zc false) /\
        exists dz, (dz = dy \/ dz = - dy) /\
          forall t1 t2, (c_xc t1, c_yc t1) = global_frame_change (c_xc c1) (c_yc c1) an dx dz -> (c_xc t2, c_yc t2) = global_frame_change (c_xc c2) (c_yc c2) an (- dx) dz ->
          forall q1 q2 q3, joint k s zc false c1 t1 l f q1 -> joint k s zc true t1 t2 (negb l) f q2 -> joint k s zc false t2 c2 l (negb f) q3 ->
            seg k s z1 true l f (turn_len k s z1 true a1) (st_theta s1) (q_theta q1) /\ seg k s true zc (negb l) f (turn_len k s true zc m) (q_theta q1) (q_theta q2) /\
            seg k s zc true l (negb f) (turn_len k s zc true m) (q_theta q2) (q_theta q3) /\ seg k s true z2 (negb l) (negb f) (turn_len k s true z2 a2) (q_theta q3) (st_theta s2).
    Proof.
      intros AS AE A1 M0 A2 W D an. rewrite !lib_app in W. set (st1 := lib_path s1 _) in W. set (st2 := lib_path st1 _) in W. set (st3 := lib_path st2 _) in W.
      pose proof (turn_turn_rel k s Hk Hs HE z1 true l f a1 s1) as T1. fold st1 in T1. pose proof (turn_turn_rel k s Hk Hs HE true zc (negb l) f m st1) as TM. fold st2 in TM.
      pose proof (turn_turn_rel k s Hk Hs HE zc true l (negb f) m st2) as TN. fold st3 in TN.
      pose proof (turn_rel_congr _ _ _ _ _ _ _ _ _ _ _ (peq_refl _) (same_peq _ _ W) (turn_turn_rel k s Hk Hs HE true z2 (negb l) (negb f) a2 st3)) as T2.
      pose proof (start_off _ _ _ _ _ _ _ AS true a1 (conf_of st1) T1) as O1. pose proof (end_off _ _ _ _ _ _ _ AE true a2 (conf_of st3) T2) as O2.
      assert (ANY1 : forall tg, (c_xc tg, c_yc tg) = frame (pst st1) (in_x k s true f) (side_y k s true (negb l)) -> joint k s zc false c1 tg l f (conf_of st1) /\ off tg (conf_of st2) (out_x k s zc f) (side_y k s zc (negb l))).
      { intros tg CT. split; [split; [exact O1|exact CT]|]. unfold off; rewrite CT; exact (proj1 TM). }
      assert (ANY2 : forall tg, (c_xc tg, c_yc tg) = frame (pst st3) (out_x k s true (negb f)) (side_y k s true l) -> off tg (conf_of st2) (in_x k s zc (negb f)) (side_y k s zc l) /\ joint k s zc false tg c2 l (negb f) (conf_of st3)).
      { intros tg CT. split; [unfold off; rewrite CT; symmetry; exact (proj1 TN)|]. split; [exact CT|exact O2]. }
      destruct (frame (pst st1) (in_x k s true f) (side_y k s true (negb l))) as [tx ty] eqn:CE. set (tm := at_point tx ty c1). destruct (ANY1 tm eq_refl) as [[JA JB] OM].
      destruct (frame (pst st3) (out_x k s true (negb f)) (side_y k s true l)) as [vx vy] eqn:CF. set (tn := at_point vx vy c1). destruct (ANY2 tn eq_refl) as [ON [KA KB]].
      destruct (turn_head _ _ _ _ _ _ _ (turn_rel_sym _ _ _ _ _ _ _ _ _ TM)) as [CH SH]. rewrite (angle_sym zc true m) in CH, SH. destruct (turn_head _ _ _ _ _ _ _ TN) as [CK SK]. rewrite (angle_sym zc true m) in CK, SK. cbn [pst pt] in CH, SH, CK, SK.
      destruct (lean_eq m) as [LE LS]. set (phi := turn_angle k s true zc m) in *. set (q := lean k s zc m) in *. set (w := X * cos phi + Y * sin phi) in *.
      destruct (vec _ _ _ _ _ _ _ _ _ JA JB (straight_0 _)) as [WX WY]. destruct (vec _ _ _ _ _ _ _ _ _ OM ON (straight_0 _)) as [VX VY]. destruct (vec _ _ _ _ _ _ _ _ _ KA KB (straight_0 _)) as [ZX ZY].
      cbn [conf_of q_theta] in VX, VY, WX, WY, ZX, ZY. rewrite CH, SH in WX, WY. rewrite CK, SK in ZX, ZY. set (h := st_theta st2) in *.
      destruct (XY_eq k s Hk Hs HE) as (_ & _ & XP & YP & _ & _ & RP). pose proof (jr_pos k s Hk Hs HE zc true) as UP. pose proof (pm1_sq _ (pm1_sign f)) as SF. pose proof (pm1_sq _ (pm1_sign l)) as SL.
      assert (WX' : c_xc tm - c_xc c1 = 2 * (sign f * w) * cos h + 2 * (sign l * q) * sin h) by (rewrite WX, LE; unfold w, out_x, in_x, side_y, jz, jf; rewrite !sign_negb; ring [SF SL]).
      assert (WY' : c_yc tm - c_yc c1 = 2 * (sign f * w) * sin h - 2 * (sign l * q) * cos h) by (rewrite WY, LE; unfold w, out_x, in_x, side_y, jz, jf; rewrite !sign_negb; ring [SF SL]).
      assert (VX' : c_xc tn - c_xc tm = - (sign l * u) * sin h) by (rewrite VX; unfold out_x, in_x, side_y, jz, jf, jr; rewrite !sign_negb; destruct zc; ring [SF SL]).
      assert (VY' : c_yc tn - c_yc tm = sign l * u * cos h) by (rewrite VY; unfold out_x, in_x, side_y, jz, jf, jr; rewrite !sign_negb; destruct zc; ring [SF SL]).
      assert (ZX' : c_xc c2 - c_xc tn = - (2 * (sign f * w) * cos h) + 2 * (sign l * q) * sin h) by (rewrite ZX, LE; unfold w, out_x, in_x, side_y, jz, jf; rewrite !sign_negb; ring [SF SL]).
      assert (ZY' : c_yc c2 - c_yc tn = - (2 * (sign f * w) * sin h) - 2 * (sign l * q) * cos h) by (rewrite ZY, LE; unfold w, out_x, in_x, side_y, jz, jf; rewrite !sign_negb; ring [SF SL]).
      assert (DX : c_xc c2 - c_xc c1 = - (sign l * (u - 4 * q)) * sin h) by (transitivity ((c_xc tm - c_xc c1) + (c_xc tn - c_xc tm) + (c_xc c2 - c_xc tn)); [ring|]; rewrite WX', VX', ZX'; ring).
      assert (DY : c_yc c2 - c_yc c1 = sign l * (u - 4 * q) * cos h) by (transitivity ((c_yc tm - c_yc c1) + (c_yc tn - c_yc tm) + (c_yc c2 - c_yc tn)); [ring|]; rewrite WY', VY', ZY'; ring).
      pose proof (cos_sq h) as TH. assert (QR : - r <= q <= r) by (pose proof (pow2_ge_0 w); split; nra).
      split; [|split; [exact QR|]].
      { unfold D. rewrite (vec_dist c1 c2 0 (sign l * (u - 4 * q)) h) by (rewrite ?DX, ?DY; ring). rewrite hyp_sq. ring [SL]. }
      intros g dx DP G EG EX dy. pose proof (pm1_sq g G) as GG. assert (DXQ : dx = - (2 * (g * q))) by lra.
      assert (DX2 : dx ^ 2 = 4 * q ^ 2) by (rewrite DXQ; ring [GG]). assert (P0 : 0 <= (2 * r) ^ 2 - dx ^ 2) by (rewrite DX2; nra). split; [exact P0|].
      assert (RJ : jr k s zc false = 2 * r) by reflexivity.
      split.
      { intros dz t1 t2 Z C1 C2. assert (DZ : dz ^ 2 = (2 * r) ^ 2 - dx ^ 2) by (rewrite <- (pow2_sqrt _ P0); fold dy; destruct Z as [-> | ->]; ring).
        destruct (tgt_dist12 c1 c2 D an t1 t2 _ _ _ _ dx dz dx dz eq_refl eq_refl eq_refl eq_refl (eq_sym C1) eq_refl eq_refl (eq_sym C2)) as (E1 & E2 & E3).
        split; [rewrite E1, RJ; apply hyp_of; lra|]. split; [rewrite E3; apply hyp_eq; [lra|]; replace (D - dx - dx) with (g * u) by lra; ring [GG]|rewrite E2, RJ; apply hyp_of; lra]. }
      destruct (in_frame c1 c2 DP (c_xc c1) (c_yc c1) tx ty) as (a & b & F1 & DA & DB & AB). destruct (in_frame c1 c2 DP (c_xc c2) (c_yc c2) vx vy) as (a' & b' & F2 & DA' & DB' & _). fold an D in F1, F2, DA, DB, DA', DB'.
      change tx with (c_xc tm) in DA, DB, AB. change ty with (c_yc tm) in DA, DB, AB. change vx with (c_xc tn) in DA', DB'. change vy with (c_yc tn) in DA', DB'.
      assert (ZX2 : c_xc tn - c_xc c2 = 2 * (sign f * w) * cos h - 2 * (sign l * q) * sin h) by lra. assert (ZY2 : c_yc tn - c_yc c2 = 2 * (sign f * w) * sin h + 2 * (sign l * q) * cos h) by lra.
      assert (AQ : a = dx). { apply Rmult_eq_reg_l with D; [|lra]. rewrite DA, WX', WY', DX, DY, DXQ, EG. transitivity (- (2 * q) * (u - 4 * q)); [ring [SL TH]|ring [GG]]. }
      assert (AQ' : a' = - dx). { apply Rmult_eq_reg_l with D; [|lra]. rewrite DA', ZX2, ZY2, DX, DY, DXQ, EG. transitivity (2 * q * (u - 4 * q)); [ring [SL TH]|ring [GG]]. }
      assert (BQ : b' = b). { apply Rmult_eq_reg_l with D; [|lra]. rewrite DB', DB, ZX2, ZY2, WX', WY', DX, DY. ring [SL TH]. }
      assert (B2 : b ^ 2 = (2 * r) ^ 2 - dx ^ 2). { rewrite AQ, WX', WY' in AB. assert (E : dx ^ 2 + b ^ 2 = 4 * (q ^ 2 + w ^ 2)) by (rewrite AB; ring [SF SL TH]). rewrite LS in E. lra. }
      exists b. split; [exact (pm_sqrt _ _ B2)|]. intros t1 t2 C1 C2 q1 q2 q3 J1 J2 J3. rewrite AQ in F1. rewrite AQ', BQ in F2. rewrite <- F1 in C1. rewrite <- F2 in C2.
      destruct (ANY1 t1 C1) as [K1 P1]. destruct (ANY2 t2 C2) as [P2 K3]. assert (K2 : joint k s zc true t1 t2 (negb l) f (conf_of st2)) by (split; [exact P1|]; unfold jz, jf; rewrite negb_involutive; exact P2).
      pose proof (joint_unique k s Hk Hs HE _ _ _ _ _ _ _ _ K1 J1) as H1. pose proof (joint_unique k s Hk Hs HE _ _ _ _ _ _ _ _ K2 J2) as H2. pose proof (joint_unique k s Hk Hs HE _ _ _ _ _ _ _ _ K3 J3) as H3.
      split; [exact (seg_of_rel k s Hk Hs HE _ _ _ _ _ _ _ _ _ A1 T1 (ang_eq_refl _) H1)|]. split; [exact (seg_of_rel k s Hk Hs HE _ _ _ _ _ _ _ _ _ M0 TM H1 H2)|].
      split; [exact (seg_of_rel k s Hk Hs HE _ _ _ _ _ _ _ _ _ M0 TN H2 H3)|exact (seg_of_rel k s Hk Hs HE _ _ _ _ _ _ _ _ _ A2 T2 H3 (ang_eq_refl _))].
    Qed.

    Lemma C_CC_C_word l f a1 m a2 : at_start k s z1 s1 c1 l f -> at_end k s z2 s2 c2 (negb l) f -> 0 <= a1 -> 0 <= m -> 0 <= a2 ->
      same_pose (lib_path s1 (turn k s z1 zc l f a1 ++ turn k s zc true (negb l) (negb f) m ++ turn k s true zc l (negb f) m ++ turn k s zc z2 (negb l) f a2)) s2 ->
      let D := center_distance c1 c2 in let an := atan2 (c_yc c2 - c_yc c1) (c_xc c2 - c_xc c1) in
      D <= 2 * u + 2 * r /\ 2 * u - 2 * r <= D /\
      forall dx, 0 < D -> D * dx = u ^ 2 + (D / 2) ^ 2 - r ^ 2 ->
        let dy := sqrt (u ^ 2 - dx ^ 2) in 0 <= u ^ 2 - dx ^ 2 /\
        (forall dz t1 t2, dz = dy \/ dz = - dy -> (c_xc t1, c_yc t1) = global_frame_change (c_xc c1) (c_yc c1) an dx dz -> (c_xc t2, c_yc t2) = global_frame_change (c_xc c2) (c_yc c2) an (- dx) (- dz) ->
          center_distance c1 t1 = u /\ center_distance t1 t2 = jr k s zc false /\ center_distance t2 c2 = u) /\
        exists dz, (dz = dy \/ dz = - dy) /\
          forall t1 t2, (c_xc t1, c_yc t1) = global_frame_change (c_xc c1) (c_yc c1) an dx dz -> (c_xc t2, c_yc t2) = global_frame_change (c_xc c2) (c_yc c2) an (- dx) (- dz) ->
          forall q1 q2 q3, joint k s zc true c1 t1 l f q1 -> joint k s zc false t1 t2 (negb l) (negb f) q2 -> joint k s zc true t2 c2 l (negb f) q3 ->
            seg k s z1 zc l f (turn_len k s z1 zc a1) (st_theta s1) (q_theta q1) /\ seg k s zc true (negb l) (negb f) (turn_len k s zc true m) (q_theta q1) (q_theta q2) /\
            seg k s true zc l (negb f) (turn_len k s true zc m) (q_theta q2) (q_theta q3) /\ seg k s zc z2 (negb l) f (turn_len k s zc z2 a2) (q_theta q3) (st_theta s2).
    Proof.
      intros AS AE A1 M0 A2 W D an. rewrite !lib_app in W. set (st1 := lib_path s1 _) in W. set (st2 := lib_path st1 _) in W. set (st3 := lib_path st2 _) in W.
      pose proof (turn_turn_rel k s Hk Hs HE z1 zc l f a1 s1) as T1. fold st1 in T1. pose proof (turn_turn_rel k s Hk Hs HE zc true (negb l) (negb f) m st1) as TM. fold st2 in TM.
      pose proof (turn_turn_rel k s Hk Hs HE true zc l (negb f) m st2) as TN. fold st3 in TN.
      pose proof (turn_rel_congr _ _ _ _ _ _ _ _ _ _ _ (peq_refl _) (same_peq _ _ W) (turn_turn_rel k s Hk Hs HE zc z2 (negb l) f a2 st3)) as T2.
      pose proof (start_off _ _ _ _ _ _ _ AS zc a1 (conf_of st1) T1) as O1. pose proof (end_off _ _ _ _ _ _ _ AE zc a2 (conf_of st3) T2) as O2.
      assert (ANY1 : forall tg, (c_xc tg, c_yc tg) = frame (pst st1) (in_x k s zc (negb f)) (side_y k s zc (negb l)) -> joint k s zc true c1 tg l f (conf_of st1) /\ off tg (conf_of st2) (out_x k s true (negb f)) (side_y k s true (negb l))).
      { intros tg CT. split; [split; [exact O1|exact CT]|]. unfold off; rewrite CT; exact (proj1 TM). }
      assert (ANY2 : forall tg, (c_xc tg, c_yc tg) = frame (pst st3) (out_x k s zc (negb f)) (side_y k s zc l) -> off tg (conf_of st2) (in_x k s true (negb f)) (side_y k s true l) /\ joint k s zc true tg c2 l (negb f) (conf_of st3)).
      { intros tg CT. split; [unfold off; rewrite CT; symmetry; exact (proj1 TN)|]. split; [exact CT|]. unfold jz, jf. rewrite negb_involutive. exact O2. }
      destruct (frame (pst st1) (in_x k s zc (negb f)) (side_y k s zc (negb l))) as [tx ty] eqn:CE. set (tm := at_point tx ty c1). destruct (ANY1 tm eq_refl) as [[JA JB] OM].
      destruct (frame (pst st3) (out_x k s zc (negb f)) (side_y k s zc l)) as [vx vy] eqn:CF. set (tn := at_point vx vy c1). destruct (ANY2 tn eq_refl) as [ON [KA KB]].
      destruct (turn_head _ _ _ _ _ _ _ TM) as [CH SH]. rewrite (angle_sym zc true m) in CH, SH. cbn [pst pt] in CH, SH.
      assert (HH : ang_eq (st_theta st3) (st_theta st1)).
      { destruct TM as [_ TM], TN as [_ TN]. cbn [pst pt] in TM, TN. cbv beta iota in TM, TN. rewrite !sign_negb in TM, TN. destruct TM as [n1 TM], TN as [n2 TN]. exists (n1 + n2)%Z. rewrite plus_IZR. rewrite TN, TM, ?sign_negb. ring. }
      destruct (lean_eq m) as [LE LS]. set (phi := turn_angle k s true zc m) in *. set (q := lean k s zc m) in *. set (w := X * cos phi + Y * sin phi) in *.
      destruct (vec _ _ _ _ _ _ _ _ _ JA JB (straight_0 _)) as [WX WY]. destruct (vec _ _ _ _ _ _ _ _ _ OM ON (straight_0 _)) as [VX VY]. destruct (vec _ _ _ _ _ _ _ _ _ KA KB (straight_0 _)) as [ZX ZY].
      cbn [conf_of q_theta] in VX, VY, WX, WY, ZX, ZY. rewrite CH, SH in VX, VY. rewrite (ang_eq_cos _ _ HH), (ang_eq_sin _ _ HH) in ZX, ZY. set (h := st_theta st1) in *.
      destruct (XY_eq k s Hk Hs HE) as (_ & _ & XP & YP & _ & _ & RP). pose proof (jr_pos k s Hk Hs HE zc true) as UP. pose proof (pm1_sq _ (pm1_sign f)) as SF. pose proof (pm1_sq _ (pm1_sign l)) as SL.
      assert (WX' : c_xc tm - c_xc c1 = sign l * u * sin h) by (rewrite WX; unfold out_x, in_x, side_y, jz, jf, jr; rewrite !sign_negb; destruct zc; ring [SF SL]).
      assert (WY' : c_yc tm - c_yc c1 = - (sign l * u * cos h)) by (rewrite WY; unfold out_x, in_x, side_y, jz, jf, jr; rewrite !sign_negb; destruct zc; ring [SF SL]).
      assert (VX' : c_xc tn - c_xc tm = - (2 * (sign f * w) * cos h) - 2 * (sign l * q) * sin h) by (rewrite VX, LE; unfold w, out_x, in_x, side_y, jz, jf; rewrite !sign_negb; ring [SF SL]).
      assert (VY' : c_yc tn - c_yc tm = - (2 * (sign f * w) * sin h) + 2 * (sign l * q) * cos h) by (rewrite VY, LE; unfold w, out_x, in_x, side_y, jz, jf; rewrite !sign_negb; ring [SF SL]).
      assert (ZX' : c_xc c2 - c_xc tn = sign l * u * sin h) by (rewrite ZX; unfold out_x, in_x, side_y, jz, jf, jr; rewrite !sign_negb; destruct zc; ring [SF SL]).
      assert (ZY' : c_yc c2 - c_yc tn = - (sign l * u * cos h)) by (rewrite ZY; unfold out_x, in_x, side_y, jz, jf, jr; rewrite !sign_negb; destruct zc; ring [SF SL]).
      assert (DX : c_xc c2 - c_xc c1 = - (2 * (sign f * w)) * cos h - sign l * (2 * q - 2 * u) * sin h) by (transitivity ((c_xc tm - c_xc c1) + (c_xc tn - c_xc tm) + (c_xc c2 - c_xc tn)); [ring|]; rewrite WX', VX', ZX'; ring).
      assert (DY : c_yc c2 - c_yc c1 = - (2 * (sign f * w)) * sin h + sign l * (2 * q - 2 * u) * cos h) by (transitivity ((c_yc tm - c_yc c1) + (c_yc tn - c_yc tm) + (c_yc c2 - c_yc tn)); [ring|]; rewrite WY', VY', ZY'; ring).
      pose proof (cos_sq h) as TH. assert (QR : - r <= q <= r) by (pose proof (pow2_ge_0 w); split; nra).
      assert (D2 : D ^ 2 = 4 * (r ^ 2 + u ^ 2 - 2 * u * q)). { unfold D. rewrite (vec_dist c1 c2 _ _ _ DX DY), hyp_sq. rewrite <- LS. ring [SF SL]. }
      assert (DN : 0 <= D) by apply sqrt_pos. split; [apply Rsqr_incr_0_var; [unfold Rsqr; nra|lra]|]. split; [destruct (Rle_dec (2 * u - 2 * r) 0); [lra|apply Rsqr_incr_0_var; [unfold Rsqr; nra|lra]]|].
      intros dx DP EX dy. assert (EX2 : D * dx = 2 * u * (u - q)). { rewrite EX. replace ((D / 2) ^ 2) with (D ^ 2 / 4) by field. rewrite D2. field. }
      destruct (in_frame c1 c2 DP (c_xc c1) (c_yc c1) tx ty) as (a & b & F1 & DA & DB & AB). destruct (in_frame c1 c2 DP (c_xc c2) (c_yc c2) vx vy) as (a' & b' & F2 & DA' & DB' & _). fold an D in F1, F2, DA, DB, DA', DB'.
      change tx with (c_xc tm) in DA, DB, AB. change ty with (c_yc tm) in DA, DB, AB. change vx with (c_xc tn) in DA', DB'. change vy with (c_yc tn) in DA', DB'.
      assert (ZX2 : c_xc tn - c_xc c2 = - (sign l * u * sin h)) by lra. assert (ZY2 : c_yc tn - c_yc c2 = sign l * u * cos h) by lra.
      assert (AQ : a = dx). { apply Rmult_eq_reg_l with D; [|lra]. rewrite DA, WX', WY', DX, DY, EX2. ring [SL SF TH]. }
      assert (AQ' : a' = - dx). { apply Rmult_eq_reg_l with D; [|lra]. transitivity (- (D * dx)); [|ring]. rewrite DA', ZX2, ZY2, DX, DY, EX2. ring [SL SF TH]. }
      assert (BQ : b' = - b). { apply Rmult_eq_reg_l with D; [|lra]. transitivity (- (D * b)); [|ring]. rewrite DB', DB, ZX2, ZY2, WX', WY', DX, DY. ring [SL SF TH]. }
      assert (B2 : b ^ 2 = u ^ 2 - dx ^ 2). { rewrite AQ, WX', WY' in AB. assert (E : dx ^ 2 + b ^ 2 = u ^ 2) by (rewrite AB; ring [SF SL TH]). lra. }
      assert (P0 : 0 <= u ^ 2 - dx ^ 2) by (rewrite <- B2; apply pow2_ge_0). split; [exact P0|]. assert (RJ : jr k s zc false = 2 * r) by reflexivity.
      split.
      { intros dz t1 t2 Z C1 C2. assert (DZ : dz ^ 2 = u ^ 2 - dx ^ 2) by (rewrite <- (pow2_sqrt _ P0); fold dy; destruct Z as [-> | ->]; ring).
        destruct (tgt_dist12 c1 c2 D an t1 t2 _ _ _ _ dx dz dx (- dz) eq_refl eq_refl eq_refl eq_refl (eq_sym C1) eq_refl eq_refl (eq_sym C2)) as (E1 & E2 & E3).
        split; [rewrite E1; apply hyp_of; lra|]. split; [rewrite E3, RJ; apply hyp_eq; [lra|]|rewrite E2; apply hyp_of; [lra|rewrite <- DZ; ring]].
        transitivity (D ^ 2 - 4 * (D * dx) + 4 * dx ^ 2 + 4 * dz ^ 2); [ring|]. rewrite DZ, EX. field. }
      exists b. split; [exact (pm_sqrt _ _ B2)|]. intros t1 t2 C1 C2 q1 q2 q3 J1 J2 J3. rewrite AQ in F1. rewrite AQ', BQ in F2. rewrite <- F1 in C1. rewrite <- F2 in C2.
      destruct (ANY1 t1 C1) as [K1 P1]. destruct (ANY2 t2 C2) as [P2 K3]. assert (K2 : joint k s zc false t1 t2 (negb l) (negb f) (conf_of st2)) by (split; [exact P1|]; unfold jz, jf; rewrite negb_involutive; exact P2).
      pose proof (joint_unique k s Hk Hs HE _ _ _ _ _ _ _ _ K1 J1) as H1. pose proof (joint_unique k s Hk Hs HE _ _ _ _ _ _ _ _ K2 J2) as H2. pose proof (joint_unique k s Hk Hs HE _ _ _ _ _ _ _ _ K3 J3) as H3.
      split; [exact (seg_of_rel k s Hk Hs HE _ _ _ _ _ _ _ _ _ A1 T1 (ang_eq_refl _) H1)|]. split; [exact (seg_of_rel k s Hk Hs HE _ _ _ _ _ _ _ _ _ M0 TM H1 H2)|].
      split; [exact (seg_of_rel k s Hk Hs HE _ _ _ _ _ _ _ _ _ M0 TN H2 H3)|exact (seg_of_rel k s Hk Hs HE _ _ _ _ _ _ _ _ _ A2 T2 H3 (ang_eq_refl _))].
    Qed.
  End Words.
End Long.

(** * Tactics for the families of candidates of the hybrid-curvature planners *)
From Coq Require Import Reals ZArith List Lra Lia Bool.
From Verif Require Import Base ModelUtil ModelCircle ModelPaths Num UtilProofs SpecPath SpecTurn SpecPlan PoseAlg TurnProofs MotionProofs TurnBounds LegProofs TangentProofs PlanProofs PlanTactics PlanHybrid.
Import ListNotations.
Open Scope R_scope.

(** The fields of the circles of a candidate. *)
Lemma facts_cc k s c start l f reg : 0 < k -> c = circle start l f reg (hc_cc_param k s) ->
  c_start c = start /\ c_left c = l /\ c_forward c = f /\ c_regular c = reg /\ c_radius c = p_radius (hc_cc_param k s) /\ c_mu c = p_mu (hc_cc_param k s) /\
  c_sin_mu c = p_sin_mu (hc_cc_param k s) /\ c_cos_mu c = p_cos_mu (hc_cc_param k s) /\ Rabs (c_kappa c) = k /\ Rabs (c_kappa_inv c) = 1 / k /\
  (2 * c_kappa_inv c) ^ 2 = (2 * (1 / k)) ^ 2 /\ c_kappa c = sign l * k /\
  off c start (sign f * (p_radius (hc_cc_param k s) * p_sin_mu (hc_cc_param k s))) (sign l * (p_radius (hc_cc_param k s) * p_cos_mu (hc_cc_param k s))).
Proof.
  intros Hk ->. destruct (circle_all start l f reg (hc_cc_param k s)) as (Z & A & B & C & E & F & G & H & I & J). destruct (param_basic k s) as (C1 & C2 & _). rewrite C1 in I. rewrite C2 in J.
  repeat (split; [assumption|]). rewrite I, J. assert (0 < 1 / k) by (apply Rdiv_lt_0_compat; lra). rewrite !abs_sign_mul by lra. repeat (split; [first [reflexivity|destruct l; unfold sign; ring]|]). apply circle_off.
Qed.
Lemma facts_rs k c start l f reg : 0 < k -> c = circle start l f reg (rs_param k) ->
  c_start c = start /\ c_left c = l /\ c_forward c = f /\ c_regular c = reg /\ c_radius c = 1 / k /\ c_mu c = 0 /\
  c_sin_mu c = 0 /\ c_cos_mu c = 1 /\ Rabs (c_kappa c) = k /\ Rabs (c_kappa_inv c) = 1 / k /\
  (2 * c_kappa_inv c) ^ 2 = (2 * (1 / k)) ^ 2 /\ c_kappa c = sign l * k /\ off c start 0 (sign l * (1 / k)).
Proof.
  intros Hk E0. subst c. destruct (circle_all start l f reg (rs_param k)) as (Z & A & B & C & E & F & G & H & _). destruct (rs_fields k start l f reg) as (_ & _ & _ & _ & I & J & O).
  repeat (split; [first [assumption|rewrite E || rewrite F || rewrite G || rewrite H; unfold rs_param, set_param; cbn; reflexivity]|]).
  rewrite I, J. assert (0 < 1 / k) by (apply Rdiv_lt_0_compat; lra). rewrite !abs_sign_mul by lra. repeat (split; [first [reflexivity|destruct l; unfold sign; ring]|]). exact O.
Qed.
Ltac facts k H :=
  lazymatch type of H with
  | ?c = circle ?st ?l ?f ?reg (hc_cc_param k ?s) => constr:(facts_cc k s c st l f reg ltac:(assumption) H)
  | ?c = circle ?st ?l ?f ?reg (rs_param k) => constr:(facts_rs k c st l f reg ltac:(assumption) H)
  end.

(** Tangents with a straight line between two circles, given in the frame of the line. *)
Lemma S_joint c1 c2 D an th x1 y1 x2 y2 u1 v1 u2 v2 : D = center_distance c1 c2 -> an = atan2 (c_yc c2 - c_yc c1) (c_xc c2 - c_xc c1) ->
  global_frame_change (c_xc c1) (c_yc c1) th x1 y1 = (u1, v1) -> global_frame_change (c_xc c2) (c_yc c2) th x2 y2 = (u2, v2) ->
  D * sin (th - an) = y2 - y1 ->
  (forall k1 k2, off c1 (configuration u1 v1 th k1) (- x1) (- y1) /\ off c2 (configuration u2 v2 th k2) (- x2) (- y2) /\
     straight_by (D * cos (th - an) + x2 - x1) (configuration u1 v1 th k1) (configuration u2 v2 th k2)) /\
  (forall k1 k2, off c1 (configuration u1 v1 (th + PI) k1) x1 y1 /\ off c2 (configuration u2 v2 (th + PI) k2) x2 y2 /\
     straight_by (- (D * cos (th - an) + x2 - x1)) (configuration u1 v1 (th + PI) k1) (configuration u2 v2 (th + PI) k2)).
Proof.
  intros ED EA G1 G2 LA. destruct (centres c1 c2) as (_ & X & Y). rewrite <- ED, <- EA in X, Y. unfold global_frame_change in G1, G2.
  apply pair_equal_spec in G1. apply pair_equal_spec in G2. destruct G1 as [U1 V1], G2 as [U2 V2].
  set (be := th - an) in *. assert (CX : D * cos an = D * cos be * cos th + D * sin be * sin th).
  { replace an with (th - be) by (unfold be; ring). rewrite cos_minus. ring. }
  assert (CY : D * sin an = D * cos be * sin th - D * sin be * cos th).
  { replace an with (th - be) by (unfold be; ring). rewrite sin_minus. ring. }
  rewrite LA in CX, CY. rewrite CX in X. rewrite CY in Y. clear CX CY. pose proof (cos_sq th) as T.
  assert (W : u2 = u1 + (D * cos be + x2 - x1) * cos th /\ v2 = v1 + (D * cos be + x2 - x1) * sin th) by (rewrite <- U1, <- V1, <- U2, <- V2, X, Y; split; ring).
  destruct W as [WX WY]. split; intros k1 k2.
  - split; [|split].
    + unfold off, frame, pcf; cbn [px py pt]. rewrite conf_cos, conf_sin. cbn [configuration q_x q_y]. apply pair_equal_spec. split; lra.
    + unfold off, frame, pcf; cbn [px py pt]. rewrite conf_cos, conf_sin. cbn [configuration q_x q_y]. apply pair_equal_spec. split; lra.
    + apply straight_conf; [exact WX|exact WY|apply ang_eq_refl].
  - assert (CP : cos (th + PI) = - cos th) by apply neg_cos. assert (SP : sin (th + PI) = - sin th) by apply neg_sin. split; [|split].
    + unfold off, frame, pcf; cbn [px py pt]. rewrite conf_cos, conf_sin, CP, SP. cbn [configuration q_x q_y]. apply pair_equal_spec. split; lra.
    + unfold off, frame, pcf; cbn [px py pt]. rewrite conf_cos, conf_sin, CP, SP. cbn [configuration q_x q_y]. apply pair_equal_spec. split; lra.
    + apply straight_conf; [rewrite CP, WX; ring|rewrite SP, WY; ring|apply ang_eq_refl].
Qed.
(** The straight line does not go back. *)
Lemma cos_bound D al t x v : 0 <= D -> 0 <= cos al -> D * sin al = v -> t ^ 2 = x ^ 2 + v ^ 2 -> t <= D -> 0 <= t -> x <= D * cos al.
Proof.
  intros DP CP SV T LE TP. assert (C2 : (D * cos al) ^ 2 = D ^ 2 - v ^ 2).
  { rewrite <- SV. pose proof (cos_sq al). replace ((D * cos al) ^ 2) with (D ^ 2 * cos al ^ 2) by ring. rewrite H. ring. }
  assert (x ^ 2 <= (D * cos al) ^ 2) by nra. assert (0 <= D * cos al) by (apply Rmult_le_pos; assumption). apply Rsqr_incr_0_var; [|assumption]. unfold Rsqr. lra.
Qed.
Lemma cos_strict D al v : 0 <= D -> 0 <= cos al -> D * sin al = v -> 0 <= v -> v < D -> 0 < D * cos al.
Proof.
  intros DP CP SV VP LT. assert (C2 : (D * cos al) ^ 2 = D ^ 2 - v ^ 2).
  { rewrite <- SV. pose proof (cos_sq al). replace ((D * cos al) ^ 2) with (D ^ 2 * cos al ^ 2) by ring. rewrite H. ring. }
  assert (0 <= D * cos al) by (apply Rmult_le_pos; assumption). assert (0 < (D * cos al) ^ 2) by nra. nra.
Qed.

(** A configuration and its copy with another curvature. *)
Lemma copy_eq q a kap : q = configuration (q_x a) (q_y a) (q_theta a) kap -> conf_eq q a /\ conf_eq a q.
Proof.
  intros ->. unfold conf_eq, peq, pcf, configuration; cbn. pose proof (twopify_ang (q_theta a)) as T. split; (split; [reflexivity|split; [reflexivity|]]); [exact T|apply ang_eq_sym, T].
Qed.
Lemma off_copy c q a kap lx ly : q = configuration (q_x a) (q_y a) (q_theta a) kap -> off c a lx ly -> off c q lx ly.
Proof. intros -> H. unfold off, frame, pcf in *; cbn [px py pt] in *. rewrite conf_cos, conf_sin. exact H. Qed.

(** Lines at an angle to the line of centres. *)
Lemma S_plus c1 c2 D an al x1 y1 x2 y2 u1 v1 u2 v2 : D = center_distance c1 c2 -> an = atan2 (c_yc c2 - c_yc c1) (c_xc c2 - c_xc c1) ->
  global_frame_change (c_xc c1) (c_yc c1) (an + al) x1 y1 = (u1, v1) -> global_frame_change (c_xc c2) (c_yc c2) (an + al) x2 y2 = (u2, v2) ->
  D * sin al = y2 - y1 ->
  (forall k1 k2, off c1 (configuration u1 v1 (an + al) k1) (- x1) (- y1) /\ off c2 (configuration u2 v2 (an + al) k2) (- x2) (- y2) /\
     straight_by (D * cos al + x2 - x1) (configuration u1 v1 (an + al) k1) (configuration u2 v2 (an + al) k2)) /\
  (forall k1 k2, off c1 (configuration u1 v1 (an + al + PI) k1) x1 y1 /\ off c2 (configuration u2 v2 (an + al + PI) k2) x2 y2 /\
     straight_by (- (D * cos al + x2 - x1)) (configuration u1 v1 (an + al + PI) k1) (configuration u2 v2 (an + al + PI) k2)).
Proof.
  intros ED EA G1 G2 LA. pose proof (S_joint c1 c2 D an (an + al) x1 y1 x2 y2 u1 v1 u2 v2 ED EA G1 G2) as H.
  replace (an + al - an) with al in H by ring. exact (H LA).
Qed.
Lemma S_minus c1 c2 D an al x1 y1 x2 y2 u1 v1 u2 v2 : D = center_distance c1 c2 -> an = atan2 (c_yc c2 - c_yc c1) (c_xc c2 - c_xc c1) ->
  global_frame_change (c_xc c1) (c_yc c1) (an - al) x1 y1 = (u1, v1) -> global_frame_change (c_xc c2) (c_yc c2) (an - al) x2 y2 = (u2, v2) ->
  D * sin al = y1 - y2 ->
  (forall k1 k2, off c1 (configuration u1 v1 (an - al) k1) (- x1) (- y1) /\ off c2 (configuration u2 v2 (an - al) k2) (- x2) (- y2) /\
     straight_by (D * cos al + x2 - x1) (configuration u1 v1 (an - al) k1) (configuration u2 v2 (an - al) k2)) /\
  (forall k1 k2, off c1 (configuration u1 v1 (an - al + PI) k1) x1 y1 /\ off c2 (configuration u2 v2 (an - al + PI) k2) x2 y2 /\
     straight_by (- (D * cos al + x2 - x1)) (configuration u1 v1 (an - al + PI) k1) (configuration u2 v2 (an - al + PI) k2)).
Proof.
  intros ED EA G1 G2 LA. pose proof (S_joint c1 c2 D an (an - al) x1 y1 x2 y2 u1 v1 u2 v2 ED EA G1 G2) as H.
  replace (an - al - an) with (- al) in H by ring. rewrite sin_neg, cos_neg in H. apply H. lra.
Qed.
Lemma S_zero c1 c2 D an x1 y1 x2 y2 u1 v1 u2 v2 : D = center_distance c1 c2 -> an = atan2 (c_yc c2 - c_yc c1) (c_xc c2 - c_xc c1) ->
  global_frame_change (c_xc c1) (c_yc c1) an x1 y1 = (u1, v1) -> global_frame_change (c_xc c2) (c_yc c2) an x2 y2 = (u2, v2) ->
  y1 = y2 ->
  (forall k1 k2, off c1 (configuration u1 v1 an k1) (- x1) (- y1) /\ off c2 (configuration u2 v2 an k2) (- x2) (- y2) /\
     straight_by (D + x2 - x1) (configuration u1 v1 an k1) (configuration u2 v2 an k2)) /\
  (forall k1 k2, off c1 (configuration u1 v1 (an + PI) k1) x1 y1 /\ off c2 (configuration u2 v2 (an + PI) k2) x2 y2 /\
     straight_by (- (D + x2 - x1)) (configuration u1 v1 (an + PI) k1) (configuration u2 v2 (an + PI) k2)).
Proof.
  intros ED EA G1 G2 LA. pose proof (S_joint c1 c2 D an an x1 y1 x2 y2 u1 v1 u2 v2 ED EA G1 G2) as H.
  rewrite Rminus_eq_0, sin_0, cos_0, Rmult_1_r in H. apply H. lra.
Qed.

(** Two turns that meet at a cusp with zero curvature. *)
Definition gTcTc (r : R) (c1 : Circle) (c2 : Circle) : option (Configuration) :=
  let distance := center_distance c1 c2 in
  let delta_x := (5 / 10) * distance in
  flet delta_y := fsqrt ((r ^ 2) - (delta_x ^ 2)) in
  let angle := atan2 ((c_yc c2) - (c_yc c1)) ((c_xc c2) - (c_xc c1)) in
  let '(theta, x, y) :=
    if c_left c1 then
      let '(theta, x, y) :=
        if c_forward c1 then
          let theta := angle + HALF_PI in
          let '(x, y) := global_frame_change (c_xc c1) (c_yc c1) angle delta_x delta_y in
          (theta, x, y)
        else
          let theta := angle + HALF_PI in
          let '(x, y) := global_frame_change (c_xc c1) (c_yc c1) angle delta_x (- delta_y) in
          (theta, x, y) in
      (theta, x, y)
    else
      let '(theta, x, y) :=
        if c_forward c1 then
          let theta := angle - HALF_PI in
          let '(x, y) := global_frame_change (c_xc c1) (c_yc c1) angle delta_x (- delta_y) in
          (theta, x, y)
        else
          let theta := angle - HALF_PI in
          let '(x, y) := global_frame_change (c_xc c1) (c_yc c1) angle delta_x delta_y in
          (theta, x, y) in
      (theta, x, y) in
  let q := configuration x y theta 0 in
  Some q.
Lemma gTcTc_some r c1 c2 q : gTcTc r c1 c2 = Some q -> exists dy, 0 <= dy /\ dy ^ 2 = r ^ 2 - (5 / 10 * center_distance c1 c2) ^ 2 /\ q = gTcT 0 dy c1 c2.
Proof.
  unfold gTcTc. intros E. apply fbind_some in E. destruct E as (dy & F & E). apply fsqrt_some in F. destruct F as [F G]. exists dy. split; [exact F|split; [exact G|]].
  unfold gTcT in *. destruct (c_left c1), (c_forward c1); destruct (global_frame_change _ _ _ _ _) as [x y] eqn:H in E; apply (f_equal (fun o => match o with Some x => x | None => q end)) in E; rewrite <- E;
  replace (center_distance c1 c2 / 2) with (5 / 10 * center_distance c1 c2) by field; rewrite ?H; reflexivity.
Qed.
Lemma le_quotient a b c : 0 < b -> a * b <= c -> a <= c / b.
Proof. intros B H. apply (Rmult_le_reg_r b); [exact B|]. unfold Rdiv. rewrite Rmult_assoc, Rinv_l, Rmult_1_r by lra. exact H. Qed.
Lemma cusp_bound r X Y dy h : 0 <= r -> 0 <= X -> 0 <= Y -> X ^ 2 + Y ^ 2 = r ^ 2 -> 0 <= dy -> dy ^ 2 = r ^ 2 - h ^ 2 -> Rabs (h - Y) < epsilon / 2 -> 0 <= h ->
  Rabs (X - dy) <= 2 * (epsilon * (r + epsilon)) / (X + sqrt (epsilon * (r + epsilon))).
Proof.
  intros RP XP YP XY DP DY HY HP. pose proof eps_pos as EP. set (E := epsilon * (r + epsilon)). assert (E0 : 0 < E) by (unfold E; nra).
  assert (YR : Y <= r) by nra. apply Rabs_def2 in HY. destruct HY as [HY1 HY2].
  assert (S : Rabs (X ^ 2 - dy ^ 2) <= E).
  { replace (X ^ 2 - dy ^ 2) with ((h - Y) * (h + Y)) by nra. apply Rabs_le. unfold E. split; nra. }
  set (w := sqrt E). assert (W0 : 0 < w) by (apply sqrt_lt_R0; exact E0). assert (W2 : w * w = E) by (apply sqrt_sqrt; lra).
  apply le_quotient; [lra|]. replace (X ^ 2 - dy ^ 2) with ((X - dy) * (X + dy)) in S by ring. rewrite Rabs_mult, (Rabs_pos_eq (X + dy)) in S by lra.
  pose proof (Rabs_pos (X - dy)) as AP. set (A := Rabs (X - dy)) in *. assert (AL : A <= X + dy) by (unfold A; apply Rabs_le; lra).
  destruct (Rle_lt_dec w X) as [L|L]; [nra|]. assert (A * A <= w * w) by nra. assert (A <= w) by nra. nra.
Qed.
Section Cusp.
  Variables (k s : R).
  Hypothesis Hk : 0 < k.
  Hypothesis Hs : 0 < s.
  Local Notation p := (hc_cc_param k s).
  Local Notation X := (p_radius p * p_sin_mu p).
  Local Notation Y := (p_radius p * p_cos_mu p).
  Lemma XY_r : 0 <= X /\ 0 <= Y /\ X ^ 2 + Y ^ 2 = p_radius p ^ 2.
  Proof.
    destruct (param_nom k s Hk Hs) as (_ & _ & _ & _ & A & B & C & _). destruct (nom_pos k s Hk Hs) as [P Q]. rewrite A, B, C. split; [exact P|split; [lra|]].
    rewrite pow2_sqrt; [reflexivity|]. nra.
  Qed.
  Lemma joint_cusp r ca cb la fa q : gTcTc r ca cb = Some q -> r = p_radius p -> c_left ca = la -> c_forward ca = fa -> center_distance ca cb = 2 * Y ->
    off ca q (- sign fa * X) (sign la * Y) /\ off cb q (- sign fa * X) (- sign la * Y).
  Proof.
    intros E -> EL EF ED. apply gTcTc_some in E. destruct E as (dy & DP & DY & ->). destruct (TcT_off 0 dy ca cb) as [A B]. rewrite ED, EL, EF in A, B. rewrite ED in DY.
    destruct XY_r as (XP & YP & XY). replace (2 * Y / 2) with Y in A, B by field.
    assert (DX : dy = X). { assert (dy ^ 2 = X ^ 2) by (rewrite DY; rewrite <- XY; field). apply Rsqr_inj; [exact DP|exact XP|]. unfold Rsqr. lra. }
    rewrite DX in A, B |- *. auto.
  Qed.
  Lemma joint_cusp_near r ca cb la fa q : gTcTc r ca cb = Some q -> r = p_radius p -> c_left ca = la -> c_forward ca = fa -> Rabs (center_distance ca cb - 2 * p_radius p * p_cos_mu p) < epsilon ->
    gapped ca q (- sign fa * X) (sign la * Y) (cusp_gap k s) /\ gapped cb q (- sign fa * X) (- sign la * Y) (cusp_gap k s).
  Proof.
    intros E -> EL EF ED. apply gTcTc_some in E. destruct E as (dy & DP & DY & ->). destruct (TcT_off 0 dy ca cb) as [A B]. rewrite EL, EF in A, B.
    destruct XY_r as (XP & YP & XY). pose proof (radius_nonneg k s Hk Hs) as RP. set (D := center_distance ca cb) in *. assert (D0 : 0 <= D) by apply sqrt_pos. set (h := D / 2) in *.
    assert (HY : Rabs (h - Y) < epsilon / 2).
    { replace (h - Y) with ((D - 2 * p_radius p * p_cos_mu p) * (1 / 2)) by (unfold h; field). rewrite Rabs_mult, (Rabs_pos_eq (1 / 2)) by lra. lra. }
    assert (H2 : dy ^ 2 = p_radius p ^ 2 - h ^ 2) by (rewrite DY; unfold h; field).
    assert (HX := cusp_bound (p_radius p) X Y dy h RP XP YP XY DP H2 HY ltac:(unfold h; lra)).
    assert (G : forall x y, pm1 x -> pm1 y -> hyp (x * X - x * dy) (y * Y - y * h) <= cusp_gap k s).
    { intros x y PX PY. replace (x * X - x * dy) with (x * (X - dy)) by ring. replace (y * Y - y * h) with (y * (Y - h)) by ring. rewrite hyp_pm by assumption.
      unfold cusp_gap. rewrite Rabs_minus_sym in HY. set (B1 := 2 * _ / _) in *. replace (X - dy) with ((X - dy) + 0) by ring. replace (Y - h) with (0 + (Y - h)) by ring.
      eapply Rle_trans; [apply hyp_add|].
      replace (hyp (X - dy) 0) with (Rabs (X - dy)) by (unfold hyp; rewrite <- sqrt_Rsqr_abs; f_equal; unfold Rsqr; ring).
      replace (hyp 0 (Y - h)) with (Rabs (Y - h)) by (unfold hyp; rewrite <- sqrt_Rsqr_abs; f_equal; unfold Rsqr; ring). lra. }
    unfold gapped. split.
    - rewrite (gap_off _ _ _ _ _ _ A). apply (G (- sign fa) (sign la)); [apply pm1_opp|]; apply pm1_sign.
    - rewrite (gap_off _ _ _ _ _ _ B). apply (G (- sign fa) (- sign la)); apply pm1_opp; apply pm1_sign.
  Qed.
  Lemma cusp_gap_nonneg : 0 <= cusp_gap k s.
  Proof.
    destruct XY_r as (XP & _ & _). pose proof (radius_nonneg k s Hk Hs) as RP. pose proof eps_pos as EP. unfold cusp_gap. assert (E0 : 0 < epsilon * (p_radius p + epsilon)) by nra.
    pose proof (sqrt_lt_R0 _ E0). assert (0 <= 2 * (epsilon * (p_radius p + epsilon)) / (X + sqrt (epsilon * (p_radius p + epsilon)))) by (apply le_quotient; lra). lra.
  Qed.
End Cusp.

(** ** Tactics *)
Ltac with_ks tac :=
  lazymatch goal with
  | |- good ?k ?s _ _ _ _ _ _ _ _ => tac k s
  | |- goodh ?k ?s _ _ _ _ _ _ _ _ => tac k s
  end.
Ltac setup2 :=
  match goal with
  | K : 0 < ?k, H1 : ?c1 = circle _ _ _ _ _, H2 : ?c2 = circle _ _ _ _ _, HD : ?D = center_distance ?c1 ?c2 |- _ =>
      let T1 := facts k H1 in let T2 := facts k H2 in
      destruct T1 as (S1 & EL1 & F1 & G1 & R1 & M1 & SM1 & CM1 & AK1 & AI1 & KQ1 & K1 & O1);
      destruct T2 as (S2 & EL2 & F2 & G2 & R2 & M2 & SM2 & CM2 & AK2 & AI2 & KQ2 & K2 & O2);
      assert (DP : 0 <= D) by (rewrite HD; apply sqrt_pos); assert (KP : 0 < 1 / k) by (apply Rdiv_lt_0_compat; lra);
      pose proof eps_pos as EP
  end;
  with_ks ltac:(fun k s => pose proof (radius_nonneg k s ltac:(assumption) ltac:(assumption)) as RP;
    destruct (XY_r k s ltac:(assumption) ltac:(assumption)) as (XP & YP & _)).
Ltac fields_in P :=
  repeat match goal with
  | H : c_start ?c = _ |- _ => lazymatch type of P with context [c_start c] => rewrite H in P end
  | H : c_left ?c = _ |- _ => lazymatch type of P with context [c_left c] => rewrite H in P end
  | H : c_forward ?c = _ |- _ => lazymatch type of P with context [c_forward c] => rewrite H in P end
  | H : c_regular ?c = _ |- _ => lazymatch type of P with context [c_regular c] => rewrite H in P end
  | H : c_radius ?c = _ |- _ => lazymatch type of P with context [c_radius c] => rewrite H in P end
  | H : c_mu ?c = _ |- _ => lazymatch type of P with context [c_mu c] => rewrite H in P end
  | H : c_sin_mu ?c = _ |- _ => lazymatch type of P with context [c_sin_mu c] => rewrite H in P end
  | H : c_cos_mu ?c = _ |- _ => lazymatch type of P with context [c_cos_mu c] => rewrite H in P end
  | H : Rabs (c_kappa ?c) = _ |- _ => lazymatch type of P with context [Rabs (c_kappa c)] => rewrite H in P end
  | H : Rabs (c_kappa_inv ?c) = _ |- _ => lazymatch type of P with context [Rabs (c_kappa_inv c)] => rewrite H in P end
  | H : (2 * c_kappa_inv ?c) ^ 2 = _ |- _ => lazymatch type of P with context [(2 * c_kappa_inv c) ^ 2] => rewrite H in P end
  | H : c_kappa ?c = _ |- _ => lazymatch type of P with context [c_kappa c] => rewrite H in P end
  end.
(** The conditions of a candidate. *)
Ltac root X :=
  repeat lazymatch type of X with
  | (match fsqrt ?e with _ => _ end) = true => let H := fresh "RT" in destruct (fsqrt e) eqn:H; [apply fsqrt_some in H; destruct H|discriminate X]
  | (match fdiv ?e ?d with _ => _ end) = true => let H := fresh "DV" in destruct (fdiv e d) eqn:H; [apply fdiv_some in H; destruct H|discriminate X]
  end.
Ltac conditions X := fields_in X; flags X; root X; bounds X.
(** Quotients. *)
Ltac quotients :=
  repeat match goal with
  | N : ?d <> 0, E : ?v = ?a / ?d |- _ =>
      lazymatch goal with
      | _ : d * v = a |- _ => fail
      | _ => assert (d * v = a) by (rewrite E; field; nz_tac)
      end
  end.
Ltac hyp_tac2 :=
  rewrite ?hyp_opp2; apply hyp_of;
  [first [assumption | lra | nra]|
   first [lra | repeat match goal with H : ?v ^ 2 = _ |- context [?v ^ 2] => rewrite H end;
          repeat match goal with H : ?v = _ / _ |- context [?v] => is_var v; rewrite H end; first [field; nz_tac | field]
        | rewrite ?Rpow_mult_distr; repeat match goal with H : ?v ^ 2 = _ |- context [?v ^ 2] => rewrite H end;
          repeat match goal with H : ?v = _ / _ |- context [?v] => is_var v; rewrite H end; field; nz_tac]].
Ltac dist_as2 e := repeat match goal with H : center_distance ?u ?v = hyp ?dx ?dy |- _ => replace (hyp dx dy) with e in H by (symmetry; hyp_tac2) end.

(** Joints of turns. *)
Ltac side := first [eassumption | reflexivity].
Ltac side_near := first [eassumption | match goal with HD : _ = center_distance ?a ?b |- Rabs (center_distance ?a ?b - _) < _ => rewrite <- HD; eassumption end].
Ltac joint2 k s :=
  match goal with
  | Q : ?q = _ ?ca ?cb |- _ =>
      match type of q with Configuration => idtac end; match type of ca with Circle => idtac end; match type of cb with Circle => idtac end;
      let A := fresh "OA" in let B := fresh "OB" in
      first [destruct (joint_TT k s ltac:(assumption) ltac:(assumption) _ ca cb _ _ q Q ltac:(side) ltac:(side) ltac:(side) ltac:(eassumption)) as [A B]
            |destruct (joint_TcT k ltac:(assumption) _ ca cb _ _ q Q ltac:(side) ltac:(side) ltac:(eassumption)) as [A B]
            |destruct (joint_TT_near k s ltac:(assumption) ltac:(assumption) _ ca cb _ _ q Q ltac:(side) ltac:(side) ltac:(side) ltac:(side_near)) as [A B]
            |destruct (joint_TcT_near k ltac:(assumption) _ ca cb _ _ q Q ltac:(side) ltac:(side) ltac:(side_near)) as [A B]];
      clear Q
  | Q : _ ?ca ?cb = Some ?q |- _ =>
      match type of q with Configuration => idtac end; match type of ca with Circle => idtac end; match type of cb with Circle => idtac end;
      let A := fresh "OA" in let B := fresh "OB" in
      first [destruct (joint_cusp k s ltac:(assumption) ltac:(assumption) _ ca cb _ _ q Q ltac:(side) ltac:(side) ltac:(side) ltac:(eassumption)) as [A B]
            |destruct (joint_cusp_near k s ltac:(assumption) ltac:(assumption) _ ca cb _ _ q Q ltac:(side) ltac:(side) ltac:(side) ltac:(side_near)) as [A B]];
      clear Q
  | Q : _ ?ca ?cb = Some (?q1, ?q2) |- _ =>
      match type of q1 with Configuration => idtac end; match type of ca with Circle => idtac end; match type of cb with Circle => idtac end;
      let A := fresh "OA" in let B := fresh "OB" in let S := fresh "ST" in
      destruct (joint_TiST k s _ _ _ ca cb _ _ q1 q2 Q ltac:(side) ltac:(side) ltac:(side) ltac:(side) ltac:(side)) as (A & B & S);
      clear Q
  | Q : _ ?ca ?cb = (?q1, ?q2) |- _ =>
      match type of q1 with Configuration => idtac end; match type of ca with Circle => idtac end; match type of cb with Circle => idtac end;
      let A := fresh "OA" in let B := fresh "OB" in let S := fresh "ST" in
      destruct (joint_TeST k s _ _ _ ca cb _ _ q1 q2 Q ltac:(side) ltac:(side) ltac:(side) ltac:(side) ltac:(side)) as (A & B & S);
      clear Q
  end.
Ltac joints2 := with_ks ltac:(fun k s => repeat joint2 k s).

(** Joints of a turn and a straight line, with the direction of the line. *)
Ltac s_use Q1 Q2 A :=
  match type of Q1 with ?q1 = configuration _ _ _ ?k1 => match type of Q2 with ?q2 = configuration _ _ _ ?k2 =>
    let OA := fresh "OA" in let OB := fresh "OB" in let S := fresh "SB" in
    destruct (A k1 k2) as (OA & OB & S); rewrite <- Q1, <- Q2 in S; rewrite <- Q1 in OA; rewrite <- Q2 in OB; clear Q1 Q2
  end end.
Ltac s_side :=
  first [lra | match goal with HS : sin ?al = ?v, HV : ?v = _ / _ |- _ * sin ?al = _ => rewrite HS, HV; field; nz_tac end].
Ltac s_joint :=
  match goal with
  | HD : ?D = center_distance ?c1 ?c2, HA : ?an = atan2 (c_yc ?c2 - c_yc ?c1) (c_xc ?c2 - c_xc ?c1),
    G1 : global_frame_change (c_xc ?c1) (c_yc ?c1) ?th ?x1 ?y1 = (?u1, ?v1), G2 : global_frame_change (c_xc ?c2) (c_yc ?c2) ?th ?x2 ?y2 = (?u2, ?v2),
    Q1 : ?q1 = configuration ?u1 ?v1 ?h _, Q2 : ?q2 = configuration ?u2 ?v2 ?h _ |- _ =>
      let H := fresh "SJ" in let A := fresh "SA" in let B := fresh "SC" in
      lazymatch th with
      | an + ?al => assert (H := fun L => S_plus c1 c2 D an al x1 y1 x2 y2 u1 v1 u2 v2 HD HA G1 G2 L)
      | an - ?al => assert (H := fun L => S_minus c1 c2 D an al x1 y1 x2 y2 u1 v1 u2 v2 HD HA G1 G2 L)
      | an => assert (H := fun L => S_zero c1 c2 D an x1 y1 x2 y2 u1 v1 u2 v2 HD HA G1 G2 L)
      end;
      destruct H as [A B]; [s_side|];
      lazymatch h with
      | th => s_use Q1 Q2 A
      | th + PI => s_use Q1 Q2 B
      end; clear A B
  end.
Ltac s_bound :=
  try match goal with
  | DP : 0 <= ?D, CP : 0 <= cos ?al, SJ : straight_by _ _ _, HS : sin ?al = ?v, HV : ?v = ?val / ?dd, T2 : ?t ^ 2 = _ ^ 2 + ?w ^ 2, TP : 0 <= ?t, LE : ?t <= ?D |- _ =>
      let H := fresh "CB" in assert (H := cos_bound D al t _ w DP CP ltac:(rewrite HS, HV; field; nz_tac) T2 LE TP)
  | DP : 0 <= ?D, CP : 0 <= cos ?al, SJ : straight_by _ _ _, HS : sin ?al = ?v, HV : ?v = ?val / ?dd, LT : ?w < ?D |- _ =>
      let H := fresh "CB" in assert (H := cos_strict D al w DP CP ltac:(rewrite HS, HV; field; nz_tac) ltac:(lra) LT)
  end.

(** Copies of the ends. *)
Ltac copies :=
  repeat match goal with
  | Q : ?q = configuration (q_x ?a) (q_y ?a) (q_theta ?a) ?kap |- _ =>
      let C1 := fresh "CE" in let C2 := fresh "CE" in destruct (copy_eq q a kap Q) as [C1 C2];
      repeat match goal with
      | O : off ?c a ?x ?y |- _ => lazymatch goal with _ : off c q _ _ |- _ => fail | _ => let H := fresh "OC" in pose proof (off_copy c q a kap x y Q O) as H end
      end; clear Q
  end.

(** ** Assembling *)
Ltac sring2 := rewrite ?sign_negb; first [ring | unfold sign; cbn; ring].
Ltac all_gapped :=
  repeat match goal with
  | O : off ?c ?q ?x ?y |- _ => lazymatch goal with _ : gapped c q x y 0 |- _ => fail | _ => let H := fresh "GP" in pose proof (gapped_0 c q x y O) as H end
  end.
Ltac gap_tac :=
  match goal with
  | H1 : gapped ?t ?st _ _ _ |- cc_tangent _ (circle ?st _ _ _ (hc_cc_param ?k ?s)) ?q =>
      match goal with
      | H2 : gapped t q _ _ _ |- _ => solve [eapply (mk_cc2 k s _ _ _ st _ _ _ q t); [eapply gapped_conv; [exact H1|sring2|sring2]|eapply gapped_conv; [exact H2|sring2|sring2]|lra]]
      end
  | H1 : gapped ?t ?st _ _ _ |- hc_tangent _ (circle ?st _ _ _ (hc_cc_param ?k ?s)) ?q =>
      match goal with
      | H2 : gapped t q _ _ _ |- _ => solve [eapply (mk_hc2 k s ltac:(assumption) _ _ _ st _ _ _ q t); [eapply gapped_conv; [exact H1|sring2|sring2]|eapply gapped_conv; [exact H2|sring2|sring2]|lra]]
      end
  | H1 : gapped ?t ?st _ _ _ |- hc_tangent _ (circle ?st _ _ _ (rs_param ?k)) ?q =>
      match goal with
      | H2 : gapped t q _ _ _ |- _ => solve [eapply (mk_rs2 k ltac:(assumption) _ _ _ st _ _ _ q t); [eapply gapped_conv; [exact H1|sring2|sring2]|eapply gapped_conv; [exact H2|sring2|sring2]|lra]]
      end
  end.
Ltac tan2 :=
  match goal with
  | H1 : off ?t ?st _ _ |- cc_tangent _ (circle ?st _ _ _ (hc_cc_param ?k ?s)) ?q =>
      match goal with
      | H2 : off t q _ _ |- _ => solve [apply (mk_cc k s st _ _ _ q t); [eapply off_conv; [exact H1|sring2|sring2]|eapply off_conv; [exact H2|sring2|sring2]]]
      end
  | H1 : off ?t ?st _ _ |- hc_tangent _ (circle ?st _ _ _ (hc_cc_param ?k ?s)) ?q =>
      match goal with
      | H2 : off t q _ _ |- _ => solve [apply (mk_hc k s ltac:(assumption) st _ _ _ q t); [eapply off_conv; [exact H1|sring2|sring2]|eapply off_conv; [exact H2|sring2|sring2]]]
      end
  | H1 : off ?t ?st _ _ |- hc_tangent _ (circle ?st _ _ _ (rs_param ?k)) ?q =>
      match goal with
      | H2 : off t q _ _ |- _ => solve [apply (mk_rs k ltac:(assumption) st _ _ _ q t); [eapply off_conv; [exact H1|sring2|sring2]|eapply off_conv; [exact H2|sring2|sring2]]]
      end
  | |- _ => gap_tac
  end.
Ltac line_tac := first [eapply ok_s; assumption | eapply ok_s; eexists; eassumption].
Ltac leg2 :=
  lazymatch goal with
  | |- leg_ok _ _ _ (LC _ _ true) _ _ _ _ => eapply ok_cc; tan2
  | |- leg_ok _ _ _ (LC _ _ false) _ _ _ _ => eapply ok_cc'; tan2
  | |- leg_ok _ _ _ (LH _ _ true) _ _ _ _ => eapply ok_hc; tan2
  | |- leg_ok _ _ _ (LH _ _ false) _ _ _ _ => eapply ok_hc'; tan2
  | |- leg_ok _ _ _ (LR _ _ true) _ _ _ _ => eapply ok_rs; tan2
  | |- leg_ok _ _ _ (LR _ _ false) _ _ _ _ => eapply ok_rs'; tan2
  | |- leg_ok _ _ _ (LS _ _) _ _ _ _ => line_tac
  end.
Ltac chain2 :=
  lazymatch goal with
  | |- chain _ _ _ [] _ _ _ => eapply ch_nil; conf_tac
  | |- chain _ _ _ (_ :: _) _ _ _ => eapply ch_cons; [|leg2|chain2]; [conf_tac]
  end.
Ltac line_run :=
  match goal with
  | S : straight_by ?t ?q1 ?q2 |- runs (straight_controls ?q1 ?q2) _ =>
      first [eapply (runs_s' t 1); [exact S|left; reflexivity|lra] | eapply (runs_s' t (- (1))); [exact S|right; reflexivity|lra]
            |eapply (runs_s t 1); [exact S|left; reflexivity|lra] | eapply (runs_s t (- (1))); [exact S|right; reflexivity|lra]]
  | |- _ => apply runs_s_any
  end.
Ltac run_tac :=
  lazymatch goal with
  | |- runs (cc_turn_controls _ _ _) _ => first [eapply runs_cc; [assumption|assumption|tan2] | eapply runs_cc_any; assumption]
  | |- runs (hc_turn_controls (circle _ _ _ true _) _ _) _ => eapply runs_hc; assumption
  | |- runs (hc_turn_controls (circle _ _ _ false _) _ _) _ => eapply runs_hc_any; assumption
  | |- runs (rs_turn_controls _ _ _) _ => eapply runs_rs; assumption
  | |- runs (straight_controls _ _) _ => line_run
  end.
Ltac end_tac :=
  first [left; sring2 | right; unfold wsign, sign; cbn [negb]; lra
        |right; unfold wsign; rewrite ?sign_negb; match goal with |- context [sign ?f] => destruct f; unfold sign; cbn; lra end].
Ltac ways_tac :=
  lazymatch goal with
  | |- _ /\ _ => split; ways_tac
  | |- true = true -> _ => intros _; ways_tac
  | |- false = true -> _ => let H := fresh in intros H; discriminate H
  | |- _ \/ _ => end_tac
  | |- _ => first [reflexivity | sring2]
  end.
Ltac ends_tac := cbn [ends_ok ways_ok last w_in w_out fst snd]; ways_tac.
Ltac legs_side :=
  [> unfold legs_controls; cbn [flat_map leg_controls]; rewrite ?app_nil_r; reflexivity
   | unfold legs_length; cbn [fold_right leg_length]; ring | cbn [length INR]; ring].
Ltac assemble2 :=
  lazymatch goal with
  | |- good ?k ?s ?g ?n ?a ?b ?k0 ?k1 ?cs ?L =>
      let ls := legs_of cs in
      eapply (by_chain k s ltac:(assumption) ltac:(assumption) g ls); [first [lra | apply cusp_gap_nonneg; assumption | idtac]|discriminate|chain2|joints_tac|..]; legs_side
  | |- goodh ?k ?s ?g ?n ?a ?b ?k0 ?k1 ?cs ?L =>
      let ls := legs_of cs in
      eapply (by_chainh k s g ls); [assumption|assumption|try lra|discriminate|chain2|cbn [map leg_controls]; repeat (first [apply List.Forall2_nil | apply List.Forall2_cons; [run_tac|]])|ends_tac|..]; legs_side
  end.
Ltac close2 :=
  match goal with
  | H1 : ?c1 = circle _ _ _ _ _, H2 : ?c2 = circle _ _ _ _ _ |- _ => subst c1 c2
  end; assemble2.
Ltac circles2 :=
  with_ks ltac:(fun k s =>
    quotients; tgts; dist_as2 (2 * p_radius (hc_cc_param k s)); dist_as2 (2 * (1 / k)); dist_as2 (2 * (p_radius (hc_cc_param k s) * p_cos_mu (hc_cc_param k s))); joints2; copies; all_gapped; close2).
Ltac lines2 := s_joint; s_bound; copies; close2.
(** The entry of a table. *)
Ltac entry X P :=
  match goal with
  | EL : e_length (if ?x then _ else _) = Some ?L, LM : ?L < DBL_MAX |- _ =>
      destruct x eqn:X; [|apply (f_equal (fun o => match o with Some y => y | None => 0 end)) in EL; cbn in EL; lra]
  end;
  match goal with
  | EL : e_length (match ?x with _ => _ end) = Some ?L |- _ =>
      let t := type of x in let p := fresh "p" in
      lazymatch eval hnf in t with
      | option _ => destruct x as [p|] eqn:P; [explode p|discriminate EL]
      | _ => remember x as p eqn:P; symmetry in P; explode p
      end;
      cbv iota in EL; cbn [e_length] in EL; injection EL as EL; subst L
  end; eexists; split; [reflexivity|]; cbv beta iota delta [rs_pieces rs_gap cc_rs_gap dubins_pieces dubins_gap].

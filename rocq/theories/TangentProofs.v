(** * Common tangent configurations of circles *)
From Coq Require Import Reals ZArith List Lra Lia Bool.
From Verif Require Import Base ModelUtil ModelCircle Num UtilProofs SpecPath SpecTurn PoseAlg TurnProofs TurnBounds LegProofs.
Import ListNotations.
Open Scope R_scope.

(** The centre of [c] is the point (lx, ly) of the frame of [q]. *)
Definition off (c : Circle) (q : Configuration) (lx ly : R) : Prop := (c_xc c, c_yc c) = frame (pcf q) lx ly.

Lemma off_ext c c' q lx ly lx' ly' : off c q lx ly -> (c_xc c, c_yc c) = (c_xc c', c_yc c') -> lx = lx' -> ly = ly' -> off c' q lx' ly'.
Proof. unfold off. intros H <- <- <-. exact H. Qed.
Lemma off_conv c q lx ly lx' ly' : off c q lx ly -> lx = lx' -> ly = ly' -> off c q lx' ly'.
Proof. intros H E F. eapply off_ext; eauto. Qed.

Lemma gap_off c q a b lx ly : off c q a b -> centre_gap c q lx ly = hyp (lx - a) (ly - b).
Proof.
  unfold off, frame, pcf; cbn [px py pt]. intros H. apply pair_equal_spec in H. destruct H as [X Y].
  unfold centre_gap. rewrite X, Y. fold (hyp (q_x q + lx * cos (q_theta q) - ly * sin (q_theta q) - (q_x q + a * cos (q_theta q) - b * sin (q_theta q))) (q_y q + lx * sin (q_theta q) + ly * cos (q_theta q) - (q_y q + a * sin (q_theta q) + b * cos (q_theta q)))).
  rewrite <- (hyp_rot (lx - a) (ly - b) (q_theta q)). f_equal; ring.
Qed.
Lemma hyp_00 : hyp 0 0 = 0.
Proof. apply hyp_eq; lra. Qed.

Lemma conf_cos x y th kp : cos (q_theta (configuration x y th kp)) = cos th.
Proof. cbn. apply ang_eq_cos, twopify_ang. Qed.
Lemma conf_sin x y th kp : sin (q_theta (configuration x y th kp)) = sin th.
Proof. cbn. apply ang_eq_sin, twopify_ang. Qed.

(** Direction and distance of the centres. *)
Lemma centres c1 c2 : let D := center_distance c1 c2 in let an := atan2 (c_yc c2 - c_yc c1) (c_xc c2 - c_xc c1) in
  0 <= D /\ c_xc c2 = c_xc c1 + D * cos an /\ c_yc c2 = c_yc c1 + D * sin an.
Proof.
  intros D an. split; [apply sqrt_pos|].
  assert (E : D = sqrt ((c_xc c2 - c_xc c1) * (c_xc c2 - c_xc c1) + (c_yc c2 - c_yc c1) * (c_yc c2 - c_yc c1))).
  { unfold D, center_distance. f_equal. ring. }
  unfold an. rewrite E, atan2_cos, atan2_sin. split; ring.
Qed.

(** A point given in the frame of the line of centres. *)
Lemma dist_frame c1 c2 tgt dx dy : let D := center_distance c1 c2 in let an := atan2 (c_yc c2 - c_yc c1) (c_xc c2 - c_xc c1) in
  (c_xc tgt, c_yc tgt) = global_frame_change (c_xc c1) (c_yc c1) an dx dy ->
  center_distance c1 tgt = hyp dx dy /\ center_distance tgt c2 = hyp (D - dx) dy.
Proof.
  intros D an. unfold global_frame_change. intros H. apply pair_equal_spec in H. destruct H as [X Y].
  destruct (centres c1 c2) as (_ & X2 & Y2). fold D an in X2, Y2. unfold center_distance. rewrite X2, Y2, X, Y. split.
  - rewrite <- (hyp_rot dx dy an). unfold hyp. f_equal. ring.
  - rewrite <- (hyp_refl (D - dx) dy an). unfold hyp. f_equal. ring.
Qed.
Lemma dist_frame2 c1 c2 tgt dx dy : let D := center_distance c1 c2 in let an := atan2 (c_yc c2 - c_yc c1) (c_xc c2 - c_xc c1) in
  (c_xc tgt, c_yc tgt) = global_frame_change (c_xc c2) (c_yc c2) an (- dx) dy ->
  center_distance tgt c2 = hyp dx dy /\ center_distance c1 tgt = hyp (D - dx) dy.
Proof.
  intros D an. unfold global_frame_change. intros H. apply pair_equal_spec in H. destruct H as [X Y].
  destruct (centres c1 c2) as (_ & X2 & Y2). fold D an in X2, Y2. unfold center_distance. rewrite X, Y, X2, Y2. split.
  - rewrite <- (hyp_refl dx dy an). unfold hyp. f_equal. ring.
  - rewrite <- (hyp_rot (D - dx) dy an). unfold hyp. f_equal. ring.
Qed.

(** Two circles tangent at a configuration of curvature zero, the driving direction being kept. *)
Definition gTT (mu : R) (c1 c2 : Circle) : Configuration :=
  let x := ((c_xc c1) + (c_xc c2)) / 2 in
  let y := ((c_yc c1) + (c_yc c2)) / 2 in
  let angle := atan2 ((c_yc c2) - (c_yc c1)) ((c_xc c2) - (c_xc c1)) in
  let theta :=
    if c_left c1 then
      if c_forward c1 then
        (angle + HALF_PI) - mu
      else
        (angle + HALF_PI) + mu
    else
      if c_forward c1 then
        (angle - HALF_PI) + mu
      else
        (angle - HALF_PI) - mu in
  configuration x y theta 0.


Lemma cos_sq a : cos a ^ 2 = 1 - sin a ^ 2.
Proof. pose proof (sin2_cos2' a). lra. Qed.

Ltac trig := unfold HALF_PI; repeat rewrite ?conf_cos, ?conf_sin, ?cos_plus, ?sin_plus, ?cos_minus, ?sin_minus, ?cos_PI2, ?sin_PI2, ?cos_PI, ?sin_PI.

Lemma TT_off mu c1 c2 : let q := gTT mu c1 c2 in let h := center_distance c1 c2 / 2 in
  let sf := sign (c_forward c1) in let sl := sign (c_left c1) in
  off c1 q (- sf * (h * sin mu)) (sl * (h * cos mu)) /\ off c2 q (sf * (h * sin mu)) (- sl * (h * cos mu)).
Proof.
  intros q h sf sl. destruct (centres c1 c2) as (_ & X & Y). unfold q, gTT.
  set (an := atan2 (c_yc c2 - c_yc c1) (c_xc c2 - c_xc c1)) in *. replace (center_distance c1 c2) with (2 * h) in X, Y by (unfold h; field).
  unfold off, frame, pcf; cbn [px py pt]. rewrite X, Y, !pair_equal_spec.
  unfold sf, sl. destruct (c_left c1), (c_forward c1); cbn [sign]; trig; cbn [configuration q_x q_y];
  pose proof (cos_sq mu) as T; repeat split; field [T].
Qed.

(** The same with a change of the driving direction; [delta_y] is 0 on arcs of maximal curvature. *)
Definition gTcT (kap delta_y : R) (c1 c2 : Circle) : Configuration :=
  let distance := center_distance c1 c2 in
  let delta_x := (5 / 10) * distance in
  let angle := atan2 ((c_yc c2) - (c_yc c1)) ((c_xc c2) - (c_xc c1)) in
  let '(theta, x, y) :=
    if c_left c1 then
      let '(theta, x, y) :=
        if c_forward c1 then
          let theta := angle + HALF_PI in
          let '(x, y) := global_frame_change (c_xc c1) (c_yc c1) angle delta_x delta_y in
          (theta, x, y)
        else
          let theta := angle + HALF_PI in
          let '(x, y) := global_frame_change (c_xc c1) (c_yc c1) angle delta_x (- delta_y) in
          (theta, x, y) in
      (theta, x, y)
    else
      let '(theta, x, y) :=
        if c_forward c1 then
          let theta := angle - HALF_PI in
          let '(x, y) := global_frame_change (c_xc c1) (c_yc c1) angle delta_x (- delta_y) in
          (theta, x, y)
        else
          let theta := angle - HALF_PI in
          let '(x, y) := global_frame_change (c_xc c1) (c_yc c1) angle delta_x delta_y in
          (theta, x, y) in
      (theta, x, y) in
  configuration x y theta kap.

Lemma TcT_off kap dy c1 c2 : let q := gTcT kap dy c1 c2 in let h := center_distance c1 c2 / 2 in
  let sf := sign (c_forward c1) in let sl := sign (c_left c1) in
  off c1 q (- sf * dy) (sl * h) /\ off c2 q (- sf * dy) (- sl * h).
Proof.
  intros q h sf sl. destruct (centres c1 c2) as (_ & X & Y). unfold q, gTcT.
  set (an := atan2 (c_yc c2 - c_yc c1) (c_xc c2 - c_xc c1)) in *. replace (center_distance c1 c2) with (2 * h) in * by (unfold h; field).
  unfold off, frame, pcf; cbn [px py pt]. rewrite X, Y, !pair_equal_spec.
  unfold sf, sl. destruct (c_left c1), (c_forward c1); cbn [sign]; unfold global_frame_change; trig; cbn [configuration q_x q_y];
  pose proof (cos_sq an) as T; repeat split; field [T].
Qed.

(** Inner and outer tangents. *)
Definition gTiST (R0 sm cm : R) (c1 c2 : Circle) : option (Configuration * Configuration) :=
  let distance := center_distance c1 c2 in
  let angle := atan2 ((c_yc c2) - (c_yc c1)) ((c_xc c2) - (c_xc c1)) in
  flet t1 := fdiv ((2 * R0) * cm) distance in
  flet alpha := fasin t1 in
  let delta_x := R0 * sm in
  let delta_y := R0 * cm in
  let '(q1, q2) :=
    if (c_left c1) && (c_forward c1) then
      let theta := angle + alpha in
      let '(x, y) := global_frame_change (c_xc c1) (c_yc c1) theta delta_x (- delta_y) in
      let q1 := configuration x y theta 0 in
      let '(x, y) := global_frame_change (c_xc c2) (c_yc c2) theta (- delta_x) delta_y in
      let q2 := configuration x y theta 0 in
      (q1, q2)
    else
    if (c_left c1) && (negb (c_forward c1)) then
      let theta := angle - alpha in
      let '(x, y) := global_frame_change (c_xc c1) (c_yc c1) theta delta_x delta_y in
      let q1 := configuration x y (theta + PI) 0 in
      let '(x, y) := global_frame_change (c_xc c2) (c_yc c2) theta (- delta_x) (- delta_y) in
      let q2 := configuration x y (theta + PI) 0 in
      (q1, q2)
    else
    if (negb (c_left c1)) && (c_forward c1) then
      let theta := angle - alpha in
      let '(x, y) := global_frame_change (c_xc c1) (c_yc c1) theta delta_x delta_y in
      let q1 := configuration x y theta 0 in
      let '(x, y) := global_frame_change (c_xc c2) (c_yc c2) theta (- delta_x) (- delta_y) in
      let q2 := configuration x y theta 0 in
      (q1, q2)
    else
      let theta := angle + alpha in
      let '(x, y) := global_frame_change (c_xc c1) (c_yc c1) theta delta_x (- delta_y) in
      let q1 := configuration x y (theta + PI) 0 in
      let '(x, y) := global_frame_change (c_xc c2) (c_yc c2) theta (- delta_x) delta_y in
      let q2 := configuration x y (theta + PI) 0 in
      (q1, q2) in
  Some (q1, q2).

Definition gTeST (R0 sm cm : R) (c1 c2 : Circle) : Configuration * Configuration :=
  let delta_x := R0 * sm in
  let delta_y := R0 * cm in
  let theta := atan2 ((c_yc c2) - (c_yc c1)) ((c_xc c2) - (c_xc c1)) in
  let '(q1, q2) :=
    if (c_left c1) && (c_forward c1) then
      let '(x, y) := global_frame_change (c_xc c1) (c_yc c1) theta delta_x (- delta_y) in
      let q1 := configuration x y theta 0 in
      let '(x, y) := global_frame_change (c_xc c2) (c_yc c2) theta (- delta_x) (- delta_y) in
      let q2 := configuration x y theta 0 in
      (q1, q2)
    else
    if (c_left c1) && (negb (c_forward c1)) then
      let '(x, y) := global_frame_change (c_xc c1) (c_yc c1) theta delta_x delta_y in
      let q1 := configuration x y (theta + PI) 0 in
      let '(x, y) := global_frame_change (c_xc c2) (c_yc c2) theta (- delta_x) delta_y in
      let q2 := configuration x y (theta + PI) 0 in
      (q1, q2)
    else
    if (negb (c_left c1)) && (c_forward c1) then
      let '(x, y) := global_frame_change (c_xc c1) (c_yc c1) theta delta_x delta_y in
      let q1 := configuration x y theta 0 in
      let '(x, y) := global_frame_change (c_xc c2) (c_yc c2) theta (- delta_x) delta_y in
      let q2 := configuration x y theta 0 in
      (q1, q2)
    else
      let '(x, y) := global_frame_change (c_xc c1) (c_yc c1) theta delta_x (- delta_y) in
      let q1 := configuration x y (theta + PI) 0 in
      let '(x, y) := global_frame_change (c_xc c2) (c_yc c2) theta (- delta_x) (- delta_y) in
      let q2 := configuration x y (theta + PI) 0 in
      (q1, q2) in
  (q1, q2).

Lemma straight_conf t x y th kp x' y' th' kp' : x' = x + t * cos th -> y' = y + t * sin th -> ang_eq th' th ->
  straight_by t (configuration x y th kp) (configuration x' y' th' kp').
Proof.
  intros X Y A. unfold straight_by. rewrite conf_cos, conf_sin. cbn [configuration q_x q_y q_theta]. repeat split; [exact X|exact Y|].
  eapply ang_eq_trans; [apply twopify_ang|]. eapply ang_eq_trans; [exact A|]. apply ang_eq_sym, twopify_ang.
Qed.

Lemma TiST_off R0 sm cm c1 c2 q1 q2 : gTiST R0 sm cm c1 c2 = Some (q1, q2) ->
  let D := center_distance c1 c2 in let sf := sign (c_forward c1) in let sl := sign (c_left c1) in
  off c1 q1 (- sf * (R0 * sm)) (sl * (R0 * cm)) /\ off c2 q2 (sf * (R0 * sm)) (- sl * (R0 * cm)) /\
  exists w, 0 <= w /\ w ^ 2 = D ^ 2 - (2 * (R0 * cm)) ^ 2 /\ straight_by (sf * (w - 2 * (R0 * sm))) q1 q2.
Proof.
  intros E D sf sl. destruct (centres c1 c2) as (DP & X & Y). unfold gTiST in E.
  set (an := atan2 (c_yc c2 - c_yc c1) (c_xc c2 - c_xc c1)) in *. fold D in E, DP, X, Y.
  unfold fdiv in E. destruct (Req_EM_T D 0) as [Z|NZ]; [discriminate|]. cbn [fbind] in E. unfold fasin in E.
  destruct (Rlt_dec (2 * R0 * cm / D) (-1)) as [|A1]; [discriminate|]. destruct (Rlt_dec 1 (2 * R0 * cm / D)) as [|A2]; [discriminate|]. cbn [fbind] in E.
  set (al := asin (2 * R0 * cm / D)) in *.
  assert (SA : D * sin al = 2 * (R0 * cm)). { unfold al. rewrite sin_asin by lra. field. exact NZ. }
  assert (CA : 0 <= cos al). { apply cos_ge_0; unfold al; pose proof (asin_bound (2 * R0 * cm / D)); lra. }
  set (XX := R0 * sm) in *. set (YY := R0 * cm) in *. apply (f_equal (fun o => match o with Some x => x | None => (q1, q2) end)) in E. cbv beta iota in E.
  assert (W : 0 <= D * cos al /\ (D * cos al) ^ 2 = D ^ 2 - (2 * YY) ^ 2).
  { split; [apply Rmult_le_pos; lra|]. rewrite <- SA. pose proof (sin2_cos2' al). replace (D ^ 2) with (D ^ 2 * (sin al * sin al + cos al * cos al)) by (rewrite H; ring). ring. }
  destruct W as [W0 W1].
  assert (G : off c1 q1 (- sf * XX) (sl * YY) /\ off c2 q2 (sf * XX) (- sl * YY) /\ straight_by (sf * (D * cos al - 2 * XX)) q1 q2).
  { unfold sf, sl, off, frame, pcf. destruct (c_left c1), (c_forward c1); cbn [andb negb] in E; unfold global_frame_change in E;
    apply pair_equal_spec in E; destruct E as [<- <-]; cbn [px py pt sign]; rewrite !pair_equal_spec; repeat split;
    try (trig; cbn [configuration q_x q_y]; pose proof (cos_sq an) as T; pose proof (cos_sq al) as T2; ring [T T2]);
    try apply straight_conf; try apply ang_eq_refl; trig; rewrite X || rewrite Y; pose proof (cos_sq al) as T2; ring [T2 SA]. }
  destruct G as (G1 & G2 & G3). split; [exact G1|split; [exact G2|]]. exists (D * cos al). auto.
Qed.

Lemma TeST_off R0 sm cm c1 c2 q1 q2 : gTeST R0 sm cm c1 c2 = (q1, q2) ->
  let D := center_distance c1 c2 in let sf := sign (c_forward c1) in let sl := sign (c_left c1) in
  off c1 q1 (- sf * (R0 * sm)) (sl * (R0 * cm)) /\ off c2 q2 (sf * (R0 * sm)) (sl * (R0 * cm)) /\
  straight_by (sf * (D - 2 * (R0 * sm))) q1 q2.
Proof.
  intros E D sf sl. destruct (centres c1 c2) as (DP & X & Y). unfold gTeST in E.
  set (an := atan2 (c_yc c2 - c_yc c1) (c_xc c2 - c_xc c1)) in *. fold D in DP, X, Y.
  set (XX := R0 * sm) in *. set (YY := R0 * cm) in *.
  unfold sf, sl, off, frame, pcf. destruct (c_left c1), (c_forward c1); cbn [andb negb] in E; unfold global_frame_change in E;
    apply pair_equal_spec in E; destruct E as [<- <-]; cbn [px py pt sign]; rewrite !pair_equal_spec; repeat split;
    try (trig; cbn [configuration q_x q_y]; pose proof (cos_sq an) as T; ring [T]);
    try apply straight_conf; try apply ang_eq_refl; trig; rewrite X || rewrite Y; ring.
Qed.

(** Circles. *)
Lemma circle_off start l f reg p : off (circle start l f reg p) start (sign f * (p_radius p * p_sin_mu p)) (sign l * (p_radius p * p_cos_mu p)).
Proof. pose proof (circle_fields start l f reg p) as H. cbv zeta in H. unfold off. tauto. Qed.

Section Ends.
  Variables (k s : R).
  Hypothesis Hk : 0 < k.
  Hypothesis Hs : 0 < s.
  Let p := hc_cc_param k s.
  Let X := p_radius p * p_sin_mu p.
  Let Y := p_radius p * p_cos_mu p.

  Lemma circle_cen start l f reg tgt : off tgt start (sign f * X) (sign l * Y) ->
    (c_xc (circle start l f reg p), c_yc (circle start l f reg p)) = (c_xc tgt, c_yc tgt).
  Proof. intros H. pose proof (circle_off start l f reg p) as O. fold X Y in O. unfold off in *. congruence. Qed.
  Lemma rs_cen start l f reg tgt : off tgt start 0 (sign l * (1 / k)) ->
    (c_xc (circle start l f reg (rs_param k)), c_yc (circle start l f reg (rs_param k))) = (c_xc tgt, c_yc tgt).
  Proof. intros H. destruct (rs_fields k start l f reg) as (_ & _ & _ & _ & _ & _ & E). unfold off in *. congruence. Qed.

  Lemma mk_cc_gap g start l f reg q tgt a b : off tgt start (sign f * X) (sign l * Y) -> off tgt q a b ->
    hyp (- sign f * X - a) (sign l * Y - b) <= g -> cc_tangent g (circle start l f reg p) q.
  Proof.
    intros A B G. unfold cc_tangent.
    pose proof (circle_fields start l f reg p) as H. cbv zeta in H. destruct H as (_ & EL & EF & _ & ER & _ & ES & EC & _).
    rewrite EL, EF, ER, ES, EC. fold X Y. rewrite (gap_off _ q a b); [exact G|].
    eapply off_ext; [exact B|symmetry; apply circle_cen, A|reflexivity|reflexivity].
  Qed.
  Lemma mk_cc start l f reg q tgt : off tgt start (sign f * X) (sign l * Y) -> off tgt q (- sign f * X) (sign l * Y) ->
    cc_tangent 0 (circle start l f reg p) q.
  Proof.
    intros A B. eapply mk_cc_gap; [exact A|exact B|]. rewrite !Rminus_eq_0, hyp_00. lra.
  Qed.
  Lemma mk_hc_gap g start l f reg q tgt a b : off tgt start (sign f * X) (sign l * Y) -> off tgt q a b ->
    hyp (0 - a) (sign l * (1 / k) - b) <= g -> hc_tangent g (circle start l f reg p) q.
  Proof.
    intros A B G. unfold hc_tangent. destruct (curv_fields k s start l f reg) as (EK & _). fold p in EK. rewrite EK.
    rewrite (gap_off _ q a b).
    - replace (1 / (sign l * k)) with (sign l * (1 / k)) by (destruct l; unfold sign; field; lra). exact G.
    - eapply off_ext; [exact B|symmetry; apply circle_cen, A|reflexivity|reflexivity].
  Qed.
  Lemma mk_hc start l f reg q tgt : off tgt start (sign f * X) (sign l * Y) -> off tgt q 0 (sign l * (1 / k)) ->
    hc_tangent 0 (circle start l f reg p) q.
  Proof. intros A B. eapply mk_hc_gap; [exact A|exact B|]. rewrite !Rminus_eq_0, hyp_00. lra. Qed.
  Lemma mk_rs_gap g start l f reg q tgt a b : off tgt start 0 (sign l * (1 / k)) -> off tgt q a b ->
    hyp (0 - a) (sign l * (1 / k) - b) <= g -> hc_tangent g (circle start l f reg (rs_param k)) q.
  Proof.
    intros A B G. unfold hc_tangent. destruct (rs_fields k start l f reg) as (_ & _ & _ & _ & EK & _). rewrite EK.
    rewrite (gap_off _ q a b).
    - replace (1 / (sign l * k)) with (sign l * (1 / k)) by (destruct l; unfold sign; field; lra). exact G.
    - eapply off_ext; [exact B|symmetry; apply rs_cen, A|reflexivity|reflexivity].
  Qed.
  Lemma mk_rs start l f reg q tgt : off tgt start 0 (sign l * (1 / k)) -> off tgt q 0 (sign l * (1 / k)) ->
    hc_tangent 0 (circle start l f reg (rs_param k)) q.
  Proof. intros A B. eapply mk_rs_gap; [exact A|exact B|]. rewrite !Rminus_eq_0, hyp_00. lra. Qed.
End Ends.

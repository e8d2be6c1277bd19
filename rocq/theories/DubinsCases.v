(** * Concrete Dubins problems *)
From Coq Require Import Reals ZArith List Bool Lra Lia Psatz.
From Verif Require Import Base ModelUtil ModelFresnel ModelIntegrate ModelDubins Num UtilProofs
  SpecPath IntegrateProofs DubinsProofs DubinsPlan DubinsOpt.
Import ListNotations.
Open Scope R_scope.

Lemma sin_3PI2' : sin (3 * (PI / 2)) = -1.
Proof. rewrite sin_3PI2. reflexivity. Qed.
Lemma cos_3PI2 : cos (3 * (PI / 2)) = 0.
Proof. replace (3 * (PI / 2)) with (PI / 2 + PI) by field. rewrite neg_cos, cos_PI2. ring. Qed.

Lemma atan2_pos_x x : 0 < x -> atan2 0 x = 0.
Proof.
  intros H. unfold atan2. destruct (Rlt_dec 0 x); [|lra]. unfold Rdiv. rewrite Rmult_0_l. apply atan_0.
Qed.
Lemma atan2_pos_y y : 0 < y -> atan2 y 0 = PI / 2.
Proof.
  intros H. unfold atan2. destruct (Rlt_dec 0 0); [lra|].
  destruct (Rlt_dec 0 y); [reflexivity|lra].
Qed.
Lemma atan2_neg_y y : y < 0 -> atan2 y 0 = - (PI / 2).
Proof.
  intros H. unfold atan2. destruct (Rlt_dec 0 0); [lra|].
  destruct (Rlt_dec 0 y); [lra|]. destruct (Rlt_dec y 0); [reflexivity|lra].
Qed.

Ltac tw k := rewrite (twopify_unique k);
  [| first [exists 0%Z; unfold TWO_PI; lra | exists 1%Z; unfold TWO_PI; lra | exists (-1)%Z; unfold TWO_PI; lra]
   | unfold TWO_PI; pose proof PI_RGT_0; lra].

(** Half a circle to the left. *)
Lemma dubins_half_circle : dubins_path 1 (mkState 0 0 0 0 0) (mkState 0 2 PI 0 0) =
  mkDPath (dubins_path_type 0) (PI / 2) 0 (PI / 2).
Proof.
  unfold dubins_path, dubins_args; cbn [st_x st_y st_theta].
  rewrite !Rminus_0_r, Rmult_0_l, Rplus_0_l, sqrt_square, Rmult_1_r by lra.
  rewrite atan2_pos_y by lra.
  pose proof PI_RGT_0 as P.
  tw (3 * (PI / 2)). tw (PI / 2).
  unfold dubins. destruct (Rlt_dec 2 DUBINS_EPS) as [N|_]; [unfold DUBINS_EPS in N; lra|].
  cbn [fold_left].
  assert (LSL : dubinsLSL 2 (3 * (PI / 2)) (PI / 2) = mkDPath (dubins_path_type 0) (PI / 2) 0 (PI / 2)).
  { unfold dubinsLSL, solveLSL. rewrite !tmpLSL_sq, cos_3PI2, sin_3PI2', cos_PI2, sin_PI2.
    destruct (Rle_dec DUBINS_ZERO _) as [_|N]; [|unfold DUBINS_ZERO in N; lra].
    replace (2 + -1 - 1) with 0 by ring. rewrite !Rminus_0_r, atan2_00, Rmult_0_l, !Rplus_0_r.
    rewrite Rmax_left, sqrt_0, Rminus_0_r by lra. f_equal; [tw (PI / 2)|tw (PI / 2)]; reflexivity. }
  rewrite LSL.
  set (best := mkDPath _ _ 0 _).
  assert (B : dp_length best = PI) by (unfold best, dp_length; simpl; field).
  assert (KEEP : forall c, PI <= dp_length c -> dp_better best c = best).
  { intros c H. unfold dp_better. destruct (Rlt_dec _ _); [lra|reflexivity]. }
  assert (NONE : PI <= dp_length dp_none).
  { unfold dp_length, dp_none; simpl. pose proof DBL_MAX_big. pose proof PI_4.
    pose proof (pow_lt 10 300 ltac:(lra)). lra. }
  rewrite (KEEP (dubinsRSR _ _ _)).
  2:{ unfold dubinsRSR, solveRSR. rewrite !tmpRSR_sq, cos_3PI2, sin_3PI2', cos_PI2, sin_PI2.
      destruct (Rle_dec DUBINS_ZERO _) as [_|_]; [|assumption].
      rewrite Rminus_0_r, atan2_pos_x, Rminus_0_r by lra.
      unfold dp_length; cbn [dp_t dp_p dp_q]. tw (3 * (PI / 2)).
      pose proof (sqrt_pos (Rmax ((2 - -1 + 1) * (2 - -1 + 1) + 0 * 0) 0)).
      pose proof (twopify_range (- (PI / 2) + 0)). lra. }
  rewrite (KEEP (dubinsRSL _ _ _)).
  2:{ unfold dubinsRSL, solveRSL.
      assert (T : tmpRSL 2 (3 * (PI / 2)) (PI / 2) = 0).
      { unfold tmpRSL. rewrite cos_3PI2, sin_3PI2', cos_PI2, sin_PI2. ring. }
      rewrite T. destruct (Rle_dec DUBINS_ZERO 0) as [_|_]; [|assumption].
      rewrite Rmax_left, sqrt_0 by lra. rewrite cos_3PI2, sin_3PI2', cos_PI2, sin_PI2.
      rewrite Rplus_0_r, atan2_pos_x, (atan2_pos_y 2) by lra.
      unfold dp_length; cbn [dp_t dp_p dp_q]. tw 0. tw PI. lra. }
  rewrite (KEEP (dubinsLSR _ _ _)).
  2:{ unfold dubinsLSR, solveLSR.
      assert (T : tmpLSR 2 (3 * (PI / 2)) (PI / 2) = 0).
      { unfold tmpLSR. rewrite cos_3PI2, sin_3PI2', cos_PI2, sin_PI2. ring. }
      rewrite T. destruct (Rle_dec DUBINS_ZERO 0) as [_|_]; [|assumption].
      rewrite Rmax_left, sqrt_0 by lra. rewrite cos_3PI2, sin_3PI2', cos_PI2, sin_PI2.
      rewrite Ropp_0, Rminus_0_r, atan2_pos_x, (atan2_neg_y (-2)) by lra.
      unfold dp_length; cbn [dp_t dp_p dp_q]. tw PI. tw 0. lra. }
  rewrite (KEEP (dubinsRLR _ _ _)).
  2:{ unfold dubinsRLR.
      assert (T : tmpRLR 2 (3 * (PI / 2)) (PI / 2) = -1).
      { unfold tmpRLR. rewrite cos_3PI2, sin_3PI2', cos_PI2, sin_PI2. field. }
      rewrite T. destruct (Rlt_dec (Rabs (-1)) 1) as [N|_]; [|assumption].
      rewrite Rabs_left in N; lra. }
  rewrite (KEEP (dubinsLRL _ _ _)).
  2:{ unfold dubinsLRL.
      assert (T : tmpLRL 2 (3 * (PI / 2)) (PI / 2) = 1).
      { unfold tmpLRL. rewrite cos_3PI2, sin_3PI2', cos_PI2, sin_PI2. field. }
      rewrite T. destruct (Rlt_dec (Rabs 1) 1) as [N|_]; [|assumption].
      rewrite Rabs_pos_eq in N; lra. }
  reflexivity.
Qed.

Lemma half_circle_controls :
  dubins_get_controls 1 true (mkState 0 0 0 0 0) (mkState 0 2 PI 0 0) =
  [mkControl (PI / 2) 1 0; mkControl 0 0 0; mkControl (PI / 2) 1 0].
Proof.
  unfold dubins_get_controls. rewrite dubins_half_circle.
  unfold dubins_controls; cbn [dp_type dp_t dp_p dp_q dubins_path_type combine map fst snd dubins_control].
  replace (1 / 1 * (PI / 2)) with (PI / 2) by field. replace (1 / 1 * 0) with 0 by field. reflexivity.
Qed.

Lemma half_circle_backward :
  dubins_get_controls 1 false (mkState 0 2 PI 0 0) (mkState 0 0 0 0 0) =
  [mkControl (- (PI / 2)) 1 0; mkControl (- 0) 0 0; mkControl (- (PI / 2)) 1 0].
Proof.
  pose proof half_circle_controls as H. unfold dubins_get_controls in *. rewrite H. reflexivity.
Qed.

(** ** The degenerate case is not recognised across the wrap-around of the heading *)

Lemma dubins_reach_zero d alpha beta : 0 <= d -> d <= 10 ^ 300 ->
  ~ (d < DUBINS_EPS /\ Rabs (alpha - beta) < DUBINS_EPS) ->
  dp_length (dubins d alpha beta) = 0 -> ang_eq alpha beta.
Proof.
  intros D0 D N L. destruct (dubins_reach d alpha beta D0 D N) as (e & _ & _ & A).
  destruct (dubins_asserts d alpha beta D0) as (T & P & Q). unfold dp_length in L.
  assert (T0 : dp_t (dubins d alpha beta) = 0) by lra.
  assert (P0 : dp_p (dubins d alpha beta) = 0) by lra.
  assert (Q0 : dp_q (dubins d alpha beta) = 0) by lra.
  pose proof (dubins_path_types d alpha beta) as TL.
  rewrite T0, P0, Q0 in A.
  destruct (dp_type (dubins d alpha beta)) as [|a [|b [|c [|]]]]; try discriminate TL.
  assert (Z : snd (uword [a; b; c] [0; 0; 0] (0, 0, alpha)) = alpha).
  { unfold uword. destruct a, b, c; simpl; ring. }
  rewrite Z in A. assumption.
Qed.

Lemma dubins_args_same kappa s1 s2 : st_x s1 = st_x s2 -> st_y s1 = st_y s2 ->
  dubins_args kappa s1 s2 = (0, twopify (st_theta s1), twopify (st_theta s2)).
Proof.
  intros X Y. unfold dubins_args. rewrite X, Y, !minus_self, atan2_00, !Rmult_0_l, Rplus_0_l, sqrt_0,
    Rmult_0_l, !Rminus_0_r. reflexivity.
Qed.

Lemma rigid_refuted : exists kappa u v rho s1 s2, 0 < kappa /\
  dubins_distance kappa true (rigid u v rho s1) (rigid u v rho s2) = 0 /\
  0 < dubins_distance kappa true s1 s2.
Proof.
  exists 1, 0, 0, 1, (mkState 0 0 0 0 0), (mkState 0 0 (- (1 / 10000000)) 0 0).
  split; [lra|].
  unfold dubins_distance, dubins_path.
  rewrite !dubins_args_same by reflexivity. cbn [rigid st_theta].
  pose proof PI2_3_2 as P3. split.
  - rewrite (twopify_id (0 + 1)) by (unfold TWO_PI; lra).
    rewrite (twopify_id (- (1 / 10000000) + 1)) by (unfold TWO_PI; lra).
    destruct (dubins_cases 0 (0 + 1) (- (1 / 10000000) + 1)) as [(_ & _ & ->)|(N & _)].
    + unfold dp_length; simpl. field.
    + exfalso. apply N. unfold DUBINS_EPS. split; [lra|].
      rewrite Rabs_pos_eq; lra.
  - rewrite (twopify_id 0) by (unfold TWO_PI; lra).
    rewrite (twopify_unique (2 * PI - 1 / 10000000) (- (1 / 10000000)));
      [|exists 1%Z; ring|unfold TWO_PI; lra].
    destruct (dubins_asserts 0 0 (2 * PI - 1 / 10000000) ltac:(lra)) as (T & P & Q).
    assert (G : dp_length (dubins 0 0 (2 * PI - 1 / 10000000)) <> 0).
    { intros Z. apply dubins_reach_zero in Z.
      - destruct Z as [k Z].
        assert (K : IZR k < 0 /\ -1 < IZR k) by (split; nra).
        destruct K as [K1 K2]. apply lt_IZR in K1. apply (lt_IZR (-1)) in K2. lia.
      - lra.
      - left. apply pow_lt. lra.
      - intros [_ H]. unfold DUBINS_EPS in H. rewrite Rabs_left in H; lra. }
    unfold dp_length in *. lra.
Qed.

(** ** Curvature bounds below the integrator's tolerance *)

Lemma state_after_heading cs : forall s, (forall c, In c cs -> Rabs (ct_kappa c) <= epsilon) ->
  st_theta (state_after rs_enter rs_ode s cs) = st_theta s.
Proof.
  induction cs as [|c cs IH] using rev_ind; intros s H; [reflexivity|].
  unfold state_after. rewrite fold_left_app. simpl.
  fold (state_after rs_enter rs_ode s cs).
  unfold rs_ode at 1, rs_enter at 1. cbn [st_kappa].
  pose proof (H c ltac:(apply in_or_app; right; left; reflexivity)) as K.
  destruct (Rlt_dec epsilon (Rabs (ct_kappa c))) as [N|_]; [lra|].
  unfold end_of_straight_line. cbn [st_theta]. apply IH.
  intros c' I. apply H. apply in_or_app. auto.
Qed.

Lemma small_curvature_refuted : exists kappa disc s1 s2 path q,
  0 < kappa /\ 0 < disc /\ dubins_get_path kappa disc true s1 s2 = Some path /\
  nth_error path (length path - 1) = Some q /\ ~ heading_within 1 q s2.
Proof.
  set (s1 := mkState 0 0 0 0 0). set (s2 := mkState 0 20000 PI 0 0).
  set (cs := dubins_get_controls epsilon true s1 s2).
  assert (T0 : 0 <= total_length cs).
  { clearbody cs. induction cs as [|c cs IH]; simpl; [lra|]. pose proof (Rabs_pos (ct_delta_s c)). lra. }
  set (disc := total_length cs + 1).
  assert (D : 0 < disc) by (unfold disc; lra).
  pose proof (dubins_controls_nonempty epsilon true s1 s2) as L. fold cs in L.
  destruct (rs_integrate_total 3 disc s1 cs D ltac:(lia)) as [path E].
  { rewrite L. simpl INR.
    assert (total_length cs / disc <= 1); [|lra].
    apply Rmult_le_reg_r with disc; [assumption|]. unfold Rdiv.
    rewrite Rmult_assoc, Rinv_l by lra. unfold disc. lra. }
  destruct (rs_integrate_spec 3 disc s1 cs path D) as (_ & _ & q & Q & _ & _ & TH & _);
    [intros Z; rewrite Z in L; discriminate|exact E|].
  exists epsilon, disc, s1, s2, path, q.
  assert (0 < epsilon) by (unfold epsilon; lra).
  split; [assumption|]. split; [assumption|]. split; [exact E|]. split; [exact Q|].
  rewrite state_after_heading in TH.
  - intros [k H']. destruct TH as [k' TH]. rewrite TH in H'. simpl in H'.
    pose proof PI2_3_2. apply abs_bounds in H'.
    assert (Z : IZR (k' - k) < 1 /\ 0 < IZR (k' - k)) by (rewrite minus_IZR; split; nra).
    destruct Z as [Z1 Z2]. apply lt_IZR in Z1. apply lt_IZR in Z2. lia.
  - intros c I. apply dubins_get_controls_in in I.
    destruct I as [[I|[I|I]] _]; rewrite I; rewrite ?Rabs_R0, ?Rabs_Ropp, ?(Rabs_pos_eq epsilon); lra.
Qed.

(** ** Full statement of C10 with the integrated path *)

Lemma dubins_path_reaches kappa disc fw s1 s2 path : epsilon < kappa -> 0 < disc ->
  kappa * pos_dist s1 s2 <= 10 ^ 300 -> dubins_get_path kappa disc fw s1 s2 = Some path ->
  exists q, nth_error path (length path - 1) = Some q /\
    pos_dist q s2 <= 1 / 500000 / kappa /\ heading_within (1 / 1000000) q s2 /\
    (1 / 1000000 <= kappa * pos_dist s1 s2 \/ ~ heading_within (1 / 1000000) s1 s2 ->
     pos_dist q s2 <= 1 / 1000000000 / kappa /\ ang_eq (st_theta q) (st_theta s2)).
Proof.
  intros K D B E. destruct (dubins_integrated kappa disc fw s1 s2 path K D E) as (q & Q & X & Y & T).
  assert (0 < kappa) by (unfold epsilon in K; lra).
  exists q. split; [assumption|].
  rewrite (pos_dist_xy _ _ s2 X Y).
  assert (HW : forall e, heading_within e (drive_all s1 (dubins_get_controls kappa fw s1 s2)) s2 -> heading_within e q s2).
  { intros e [k H']. destruct T as [k' T]. exists (k + k')%Z. rewrite T, plus_IZR.
    match goal with |- Rabs ?a <= _ => match type of H' with Rabs ?b <= _ => replace a with b by ring end end.
    assumption. }
  destruct (dubins_reaches kappa fw s1 s2 H B) as [(A1 & A2 & A3 & A4)|(A1 & A2)].
  - split; [assumption|]. split; [apply HW; assumption|]. intros [C|C]; [lra|contradiction].
  - assert (LE : 1 / 1000000000 / kappa <= 1 / 500000 / kappa).
    { apply Rmult_le_compat_r; [left; apply Rinv_0_lt_compat; assumption|lra]. }
    split; [lra|]. split.
    + apply HW. apply heading_within_eq; [lra|assumption].
    + intros _. split; [assumption|]. eapply ang_eq_trans; eassumption.
Qed.

Lemma dubins_controls_reach kappa fw s1 s2 : 0 < kappa -> kappa * pos_dist s1 s2 <= 10 ^ 300 ->
  let q := drive_all s1 (dubins_get_controls kappa fw s1 s2) in
  pos_dist q s2 <= 1 / 500000 / kappa /\ heading_within (1 / 1000000) q s2 /\
  (1 / 1000000 <= kappa * pos_dist s1 s2 \/ ~ heading_within (1 / 1000000) s1 s2 ->
   pos_dist q s2 <= 1 / 1000000000 / kappa /\ ang_eq (st_theta q) (st_theta s2)).
Proof.
  intros K B q. subst q.
  destruct (dubins_reaches kappa fw s1 s2 K B) as [(A1 & A2 & A3 & A4)|(A1 & A2)].
  - split; [assumption|]. split; [assumption|]. intros [C|C]; [lra|contradiction].
  - assert (LE : 1 / 1000000000 / kappa <= 1 / 500000 / kappa).
    { apply Rmult_le_compat_r; [left; apply Rinv_0_lt_compat; assumption|lra]. }
    split; [lra|]. split.
    + apply heading_within_eq; [lra|assumption].
    + intros _. auto.
Qed.

Lemma dubins_rigid_all kappa fw u v rho s1 s2 : 0 < kappa ->
  (st_x s1 <> st_x s2 \/ st_y s1 <> st_y s2) \/ ang_eq (st_theta s1) (st_theta s2) \/
  ~ heading_within (1 / 1000000) s1 s2 ->
  dubins_distance kappa fw (rigid u v rho s1) (rigid u v rho s2) = dubins_distance kappa fw s1 s2 /\
  dubins_get_controls kappa fw (rigid u v rho s1) (rigid u v rho s2) =
    dubins_get_controls kappa fw s1 s2.
Proof.
  intros K H. unfold dubins_distance, dubins_get_controls. destruct fw.
  - rewrite dubins_rigid by assumption. auto.
  - assert (H' : (st_x s2 <> st_x s1 \/ st_y s2 <> st_y s1) \/ ang_eq (st_theta s2) (st_theta s1) \/
      ~ heading_within (1 / 1000000) s2 s1).
    { destruct H as [[H|H]|[H|H]]; [left; left; auto|left; right; auto|right; left; apply ang_eq_sym; assumption|].
      right. right. intros [k G]. apply H. exists (- k)%Z. rewrite opp_IZR.
      replace (_ - _ - _) with (- (st_theta s2 - st_theta s1 - 2 * PI * IZR k)) by ring.
      rewrite Rabs_Ropp. assumption. }
    rewrite dubins_rigid by assumption. auto.
Qed.

Lemma dubins_backward kappa s1 s2 :
  dubins_distance kappa false s1 s2 = dubins_distance kappa true s2 s1 /\
  length (dubins_get_controls kappa false s1 s2) = length (dubins_get_controls kappa true s2 s1) /\
  (forall i c, nth_error (dubins_get_controls kappa true s2 s1) i = Some c ->
     nth_error (dubins_get_controls kappa false s1 s2) (2 - i) =
       Some (mkControl (- ct_delta_s c) (ct_kappa c) (ct_sigma c))).
Proof.
  split; [reflexivity|]. split; [rewrite !dubins_controls_nonempty; reflexivity|].
  intros i c. pose proof (dubins_controls_nonempty kappa true s2 s1) as L.
  unfold dubins_get_controls in *.
  destruct (dubins_controls kappa (dubins_path kappa s2 s1)) as [|x [|y [|z [|]]]]; try discriminate L.
  destruct i as [|[|[|i]]]; simpl; intros H; try (injection H as <-; reflexivity).
  destruct i; discriminate H.
Qed.

Lemma dubins_control_shape kappa (fw : bool) s1 s2 : 0 < kappa ->
  length (dubins_get_controls kappa fw s1 s2) = 3%nat /\
  forall c, In c (dubins_get_controls kappa fw s1 s2) ->
    (ct_kappa c = 0 \/ ct_kappa c = kappa \/ ct_kappa c = - kappa) /\ ct_sigma c = 0 /\
    (if fw then 0 <= ct_delta_s c else ct_delta_s c <= 0).
Proof.
  intros K. split; [apply dubins_controls_nonempty|]. intros c H.
  destruct (dubins_get_controls_in kappa fw s1 s2 c H) as [A B].
  split; [assumption|]. split; [assumption|]. eapply dubins_control_signs; eassumption.
Qed.

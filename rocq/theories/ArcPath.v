(** * Paths of integrate in double precision: proofs *)
From Coq Require Import Reals ZArith List Lra Lia Psatz.
From Flocq Require Import Core.
From Coquelicot Require Import Rcomplements.
From Verif Require Import Base ModelUtil SpecPath Num ModelIntegrate ModelFloat ModelStep ModelArc SpecArc DubinsOpt JacProofs FloatProofs StepProofs StepEnd ArcProofs.
Import ListNotations.
Open Scope R_scope.

Lemma sgn_pm x : sgn x = 1 \/ sgn x = -1.
Proof. unfold sgn. destruct (Rlt_dec _ _); [right|left]; reflexivity. Qed.
Lemma sgn_abs x : sgn x * Rabs x = x.
Proof. unfold sgn, Rabs. destruct (Rlt_dec _ _), (Rcase_abs x); lra. Qed.
Lemma eps64_pos : 0 <= epsilon64.
Proof. unfold epsilon64. rewrite <- (rnd_id 0 fmt_0). apply rnd_le. lra. Qed.

(** ** Exact motion from two starts *)
Lemma drive_two e h s s' c : 0 <= h -> within e h s s' -> within (e + Rabs (ct_delta_s c) * h) h (drive s c) (drive s' c).
Proof.
  intros H0 (X & Y & z & Z). set (t := st_theta s' + 2 * PI * IZR z).
  assert (T : Rabs (st_theta s - t) <= h) by (unfold t; replace (st_theta s - (st_theta s' + 2 * PI * IZR z)) with (st_theta s - st_theta s' - 2 * PI * IZR z) by ring; exact Z).
  assert (AE : ang_eq (st_theta s') t) by (apply ang_eq_2PI_r, ang_eq_refl).
  unfold drive. destruct (Req_EM_T (ct_kappa c) 0) as [K|K]; cbn [st_x st_y st_theta].
  - split; [|split]; cbn [st_x st_y].
    + replace (st_x s + ct_delta_s c * cos (st_theta s) - (st_x s' + ct_delta_s c * cos (st_theta s'))) with ((st_x s - st_x s') + ct_delta_s c * (cos (st_theta s) - cos t)) by (rewrite (ang_eq_cos _ _ AE); ring).
      eapply Rle_trans; [apply Rabs_triang|]. apply Rplus_le_compat; [exact X|]. rewrite Rabs_mult. apply Rmult_le_compat_l; [apply Rabs_pos|]. eapply Rle_trans; [apply cos_lip|exact T].
    + replace (st_y s + ct_delta_s c * sin (st_theta s) - (st_y s' + ct_delta_s c * sin (st_theta s'))) with ((st_y s - st_y s') + ct_delta_s c * (sin (st_theta s) - sin t)) by (rewrite (ang_eq_sin _ _ AE); ring).
      eapply Rle_trans; [apply Rabs_triang|]. apply Rplus_le_compat; [exact Y|]. rewrite Rabs_mult. apply Rmult_le_compat_l; [apply Rabs_pos|]. eapply Rle_trans; [apply sin_lip|exact T].
    + exists z. cbn [st_theta]. exact Z.
  - set (k := ct_kappa c) in *. set (l := ct_delta_s c). 
    assert (CH : Rabs (2 * sin (k * l / 2) / k) <= Rabs l).
    { unfold Rdiv. rewrite !Rabs_mult, Rabs_inv. rewrite (Rabs_pos_eq 2) by lra. pose proof (abs_sin_le (k * l / 2)) as S. unfold Rdiv in S. rewrite !Rabs_mult, Rabs_inv, (Rabs_pos_eq 2) in S by lra.
      assert (KP : 0 < Rabs k) by (apply Rabs_pos_lt; exact K). apply (Rmult_le_reg_r (Rabs k)); [exact KP|]. rewrite Rmult_assoc, Rinv_l by lra. lra. }
    assert (SS : forall a, sin (a + k * l) - sin a = 2 * sin (k * l / 2) * cos (a + k * l / 2)).
    { intros a. replace (a + k * l) with ((a + k * l / 2) + k * l / 2) by field. replace (sin a) with (sin ((a + k * l / 2) - k * l / 2)) by (f_equal; field). rewrite sin_plus, sin_minus. ring. }
    assert (CC : forall a, cos a - cos (a + k * l) = 2 * sin (k * l / 2) * sin (a + k * l / 2)).
    { intros a. replace (a + k * l) with ((a + k * l / 2) + k * l / 2) by field. replace (cos a) with (cos ((a + k * l / 2) - k * l / 2)) by (f_equal; field). rewrite cos_plus, cos_minus. ring. }
    assert (AE2 : ang_eq (st_theta s' + k * l / 2) (t + k * l / 2)) by (apply ang_eq_add; [exact AE|apply ang_eq_refl]).
    split; [|split]; cbn [st_x st_y].
    + rewrite !SS. replace (st_x s + 2 * sin (k * l / 2) * cos (st_theta s + k * l / 2) / k - (st_x s' + 2 * sin (k * l / 2) * cos (st_theta s' + k * l / 2) / k)) with ((st_x s - st_x s') + 2 * sin (k * l / 2) / k * (cos (st_theta s + k * l / 2) - cos (t + k * l / 2))) by (rewrite <- (ang_eq_cos _ _ AE2); field; exact K).
      eapply Rle_trans; [apply Rabs_triang|]. apply Rplus_le_compat; [exact X|]. rewrite Rabs_mult. apply Rmult_le_compat; try apply Rabs_pos; [exact CH|].
      eapply Rle_trans; [apply cos_lip|]. replace (st_theta s + k * l / 2 - (t + k * l / 2)) with (st_theta s - t) by ring. exact T.
    + rewrite !CC. replace (st_y s + 2 * sin (k * l / 2) * sin (st_theta s + k * l / 2) / k - (st_y s' + 2 * sin (k * l / 2) * sin (st_theta s' + k * l / 2) / k)) with ((st_y s - st_y s') + 2 * sin (k * l / 2) / k * (sin (st_theta s + k * l / 2) - sin (t + k * l / 2))) by (rewrite <- (ang_eq_sin _ _ AE2); field; exact K).
      eapply Rle_trans; [apply Rabs_triang|]. apply Rplus_le_compat; [exact Y|]. rewrite Rabs_mult. apply Rmult_le_compat; try apply Rabs_pos; [exact CH|].
      eapply Rle_trans; [apply sin_lip|]. replace (st_theta s + k * l / 2 - (t + k * l / 2)) with (st_theta s - t) by ring. exact T.
    + exists z. cbn [st_theta]. replace (st_theta s + k * l - (st_theta s' + k * l) - 2 * PI * IZR z) with (st_theta s - st_theta s' - 2 * PI * IZR z) by ring. exact Z.
Qed.

Lemma within_trans e h e' h' a b c : within e h a b -> within e' h' b c -> within (e + e') (h + h') a c.
Proof.
  intros (X & Y & z & Z) (X' & Y' & z' & Z'). split; [|split].
  - replace (st_x a - st_x c) with ((st_x a - st_x b) + (st_x b - st_x c)) by ring. eapply Rle_trans; [apply Rabs_triang|lra].
  - replace (st_y a - st_y c) with ((st_y a - st_y b) + (st_y b - st_y c)) by ring. eapply Rle_trans; [apply Rabs_triang|lra].
  - exists (z + z')%Z. rewrite plus_IZR. replace (st_theta a - st_theta c - 2 * PI * (IZR z + IZR z')) with ((st_theta a - st_theta b - 2 * PI * IZR z) + (st_theta b - st_theta c - 2 * PI * IZR z')) by ring. eapply Rle_trans; [apply Rabs_triang|lra].
Qed.
Lemma within_le e h e' h' a b : e <= e' -> h <= h' -> within e h a b -> within e' h' a b.
Proof. intros E H (X & Y & z & Z). split; [lra|split; [lra|exists z; lra]]. Qed.

(** The coordinates after a motion. *)
Lemma drive_far s c m : Rabs (st_x s) <= m -> Rabs (st_y s) <= m -> Rabs (st_x (drive s c)) <= m + Rabs (ct_delta_s c) /\ Rabs (st_y (drive s c)) <= m + Rabs (ct_delta_s c).
Proof.
  intros X Y. pose proof (drive_dist s c) as D. unfold pos_dist in D.
  assert (H : forall a b, Rabs a <= sqrt (a ^ 2 + b ^ 2)).
  { intros a b. rewrite <- (sqrt_Rsqr_abs a). apply sqrt_le_1_alt. unfold Rsqr. pose proof (pow2_ge_0 b). lra. }
  pose proof (H (st_x (drive s c) - st_x s) (st_y (drive s c) - st_y s)) as A.
  pose proof (H (st_y (drive s c) - st_y s) (st_x (drive s c) - st_x s)) as B. rewrite Rplus_comm in B.
  pose proof (Rabs_triang (st_x (drive s c) - st_x s) (st_x s)) as A'. replace (st_x (drive s c) - st_x s + st_x s) with (st_x (drive s c)) in A' by ring.
  pose proof (Rabs_triang (st_y (drive s c) - st_y s) (st_y s)) as B'. replace (st_y (drive s c) - st_y s + st_y s) with (st_y (drive s c)) in B' by ring.
  assert (DD : sqrt ((st_x (drive s c) - st_x s) ^ 2 + (st_y (drive s c) - st_y s) ^ 2) <= Rabs (ct_delta_s c)) by (first [exact D|eapply Rle_trans; [|exact D]; apply Req_le; f_equal; ring]).
  lra.
Qed.

Section Library.
  Variables sin64 cos64 : R -> R.
  Hypothesis SIN : accurate64 sin sin64.
  Hypothesis COS : accurate64 cos cos64.
  Variables K r : R.
  Hypothesis K6 : K <= 10 ^ 6.

  Let step (c : Control) (h : R) : Control := mkControl (sgn (ct_delta_s c) * h) (ct_kappa c) 0.
  Lemma u52 : / 2 ^ 52 = 2 * u64. Proof. unfold u64. lra. Qed.

  (** ** One step *)
  Lemma step_within c s h : double_state s -> double_control K r c -> binary64 h -> K * Rabs h <= 100 -> 0 <= r -> 0 <= K ->
    let q := rs_ode64 sin64 cos64 c (rs_enter c s) h in
    double_state q /\ Rabs (st_x q - st_x (drive s (step c h))) <= u64 * (Rabs (st_x s) + 5 * Rabs h + 26 * r + 1) /\
    Rabs (st_y q - st_y (drive s (step c h))) <= u64 * (Rabs (st_y s) + 5 * Rabs h + 26 * r + 1) /\
    heading_within (u64 * (14 + 4 * K * Rabs h)) q (drive s (step c h)).
  Proof.
    intros (FX & FY & FT & T4) (_ & FK & KK) FH KH R0 KP q. pose proof u64_pos as U. pose proof eps64_pos as EP. pose proof (sgn_pm (ct_delta_s c)) as SG. set (e := sgn (ct_delta_s c)) in *.
    unfold q, rs_ode64. cbn [rs_enter st_kappa st_x st_y st_theta]. fold e.
    destruct KK as [K0|(KE & KB & KR)].
    - rewrite K0, Rabs_R0. destruct (Rlt_dec epsilon64 0); [lra|]. unfold end_of_straight_line64. unfold drive, step; cbn [ct_kappa ct_delta_s]. rewrite K0. destruct (Req_EM_T 0 0); [|congruence]. cbn [st_x st_y st_theta]. fold e.
      destruct (SIN _ FT) as [SF SE]. destruct (COS _ FT) as [CF CE]. rewrite u52 in SE, CE.
      assert (U26 : 0 <= u64 * (26 * r)) by (apply Rmult_le_pos; lra).
      pose proof (line_err _ h e _ _ FX FH CF SG CE (proj2 (Rabs_le_between _ _) (COS_bound _))) as LX. pose proof (line_err _ h e _ _ FY FH SF SG SE (proj2 (Rabs_le_between _ _) (SIN_bound _))) as LY.
      split; [|split; [|split]].
      + repeat split; cbn [st_x st_y st_theta]; [apply rnd_format|apply rnd_format|exact FT|exact T4].
      + lra.
      + lra.
      + exists 0%Z. cbn [st_theta]. rewrite Rmult_0_r, Rminus_0_r, Rminus_eq_0, Rabs_R0. assert (0 <= u64 * (K * Rabs h)) by (apply Rmult_le_pos; [lra|apply Rmult_le_pos; [lra|apply Rabs_pos]]). lra.
    - destruct (Rlt_dec epsilon64 (Rabs (ct_kappa c))) as [_|N]; [|contradiction]. set (k := ct_kappa c) in *. unfold end_of_circular_arc64.
      destruct (phi_same (st_theta s) k e h SG FK FH) as [P1 P2]. rewrite P1, P2.
      assert (K0 : k <> 0). { intros E. rewrite E, Rabs_R0 in KE. lra. }
      assert (KP0 : 0 < Rabs k) by (apply Rabs_pos_lt; exact K0).
      assert (AK : Rabs (h * k) <= K * Rabs h) by (rewrite Rabs_mult, Rmult_comm; apply Rmult_le_compat_r; [apply Rabs_pos|exact KB]).
      assert (A100 : Rabs (h * k) <= 100) by lra.
      pose proof (phi_err (st_theta s) k e h SG FT T4 A100) as PE. assert (PF : binary64 (phi64 (st_theta s) k e h)) by apply rnd_format. set (phi := phi64 (st_theta s) k e h) in *.
      set (a := Rabs (h * k)) in *. assert (A0 : 0 <= a) by apply Rabs_pos.
      destruct (SIN _ FT) as [SF SE]. destruct (COS _ FT) as [CF CE]. destruct (SIN _ PF) as [SF' SE']. destruct (COS _ PF) as [CF' CE']. rewrite u52 in *.
      unfold drive, step; cbn [ct_kappa ct_delta_s]. fold k e. destruct (Req_EM_T k 0); [contradiction|]. cbn [st_x st_y st_theta].
      replace (k * (e * h)) with (e * h * k) by ring. set (psi := st_theta s + e * h * k) in *.
      assert (KI : / 10 ^ 6 <= / Rabs k) by (apply Rinv_le_contravar; lra).
      assert (SX : Rabs (- sin64 (st_theta s) + sin64 phi - (sin psi - sin (st_theta s))) <= u64 * (9 + 3 * a)).
      { pose proof (sin_lip phi psi) as L. 
        replace (- sin64 (st_theta s) + sin64 phi - (sin psi - sin (st_theta s))) with (- (sin64 (st_theta s) - sin (st_theta s)) + ((sin64 phi - sin phi) + (sin phi - sin psi))) by ring.
        eapply Rle_trans; [apply Rabs_triang|]. rewrite Rabs_Ropp. pose proof (Rabs_triang (sin64 phi - sin phi) (sin phi - sin psi)). lra. }
      assert (SY : Rabs (cos64 (st_theta s) + - cos64 phi - (cos (st_theta s) - cos psi)) <= u64 * (9 + 3 * a)).
      { pose proof (cos_lip phi psi) as L. 
        replace (cos64 (st_theta s) + - cos64 phi - (cos (st_theta s) - cos psi)) with ((cos64 (st_theta s) - cos (st_theta s)) + - ((cos64 phi - cos phi) + (cos phi - cos psi))) by ring.
        eapply Rle_trans; [apply Rabs_triang|]. rewrite Rabs_Ropp. pose proof (Rabs_triang (cos64 phi - cos phi) (cos phi - cos psi)). lra. }
      assert (BX : Rabs (sin psi - sin (st_theta s)) <= 2) by (pose proof (SIN_bound psi); pose proof (SIN_bound (st_theta s)); apply Rabs_le_between; lra).
      assert (BY : Rabs (cos (st_theta s) - cos psi) <= 2) by (pose proof (COS_bound psi); pose proof (COS_bound (st_theta s)); apply Rabs_le_between; lra).
      pose proof (coord_err (st_x s) k a _ _ _ FX (fmt_opp _ SF) SF' KI K0 (conj A0 A100) SX BX) as CX.
      pose proof (coord_err (st_y s) k a _ _ _ FY CF (fmt_opp _ CF') KI K0 (conj A0 A100) SY BY) as CY.
      assert (RR : (26 + 3 * a) / Rabs k <= 26 * r + 3 * Rabs h).
      { unfold a. rewrite Rabs_mult. replace ((26 + 3 * (Rabs h * Rabs k)) / Rabs k) with (26 * / Rabs k + 3 * Rabs h) by (field; lra). lra. }
      assert (UR : u64 * ((26 + 3 * a) / Rabs k) <= u64 * (26 * r + 3 * Rabs h)) by (apply Rmult_le_compat_l; lra).
      assert (UH : 0 <= u64 * Rabs h) by (apply Rmult_le_pos; [lra|apply Rabs_pos]).
      split; [|split; [|split]].
      + destruct (pify_exact phi PF) as (FP & _). destruct (pify_err phi PF) as (_ & _ & P4). repeat split; cbn [st_x st_y st_theta]; [apply rnd_format|apply rnd_format|exact FP|exact P4].
      + lra.
      + unfold Rminus at 2. lra.
      + destruct (pify_err phi PF) as (z & Z & _). exists (- z)%Z. cbn [st_theta]. rewrite opp_IZR.
        replace (pify64 phi - psi - 2 * PI * - IZR z) with ((pify64 phi - (phi - 2 * PI * IZR z)) + (phi - psi)) by ring.
        eapply Rle_trans; [apply Rabs_triang|].
        assert (PB : Rabs phi <= 4 + a + 1).
        { assert (AE : Rabs (e * h * k) = a) by (unfold a; destruct SG as [->| ->]; [f_equal; ring|replace (-1 * h * k) with (- (h * k)) by ring; apply Rabs_Ropp]).
          replace phi with ((phi - psi) + (st_theta s + e * h * k)) by (unfold psi; ring). eapply Rle_trans; [apply Rabs_triang|]. pose proof (Rabs_triang (st_theta s) (e * h * k)) as TT. rewrite AE in TT.
          assert (u64 * (5 + 3 * a) <= / 1000000 * (5 + 3 * a)) by (apply Rmult_le_compat_r; lra). lra. }
        assert (u64 * (4 + Rabs phi) <= u64 * (9 + a)) by (apply Rmult_le_compat_l; lra).
        assert (u64 * a <= u64 * (K * Rabs h)) by (apply Rmult_le_compat_l; lra). lra.
  Qed.

  (** ** Many steps *)
  Variable m : R.
  Hypotheses (M0 : 0 <= m) (R0 : 0 <= r) (KP : 0 <= K).

  Lemma turn_S n w h : 0 <= h -> round_turn K (n + 1) (w + h) = round_turn K n w + u64 * (14 + 4 * K * h).
  Proof. intros H. unfold round_turn, u64. field. Qed.
  Lemma turn_pos n w : 0 <= n -> 0 <= w -> 0 <= round_turn K n w.
  Proof. intros N W. unfold round_turn. assert (0 <= K * w) by (apply Rmult_le_pos; assumption). apply Rdiv_le_0_compat; lra. Qed.
  Lemma turn_mono n w n' w' : n <= n' -> w <= w' -> round_turn K n w <= round_turn K n' w'.
  Proof. intros N W. unfold round_turn. assert (K * w <= K * w') by (apply Rmult_le_compat_l; assumption). apply Rmult_le_compat_r; [lra|]. lra. Qed.
  Lemma drift_mono n w n' w' : 0 <= n <= n' -> 0 <= w <= w' -> round_drift m K r n w <= round_drift m K r n' w'.
  Proof.
    intros N W. unfold round_drift. pose proof (turn_mono n w n' w' ltac:(lra) ltac:(lra)). pose proof (turn_pos n w ltac:(lra) ltac:(lra)).
    apply Rplus_le_compat; [|apply Rmult_le_compat; lra]. apply Rmult_le_compat_r; [lra|]. apply Rplus_le_compat; [|lra]. apply Rmult_le_compat; lra.
  Qed.
  Lemma drift_S n w h : 0 <= n -> 0 <= w -> 0 <= h ->
    round_drift m K r n w + h * round_turn K n w + u64 * (m + w + 1 + 5 * h + 26 * r + 1) <= round_drift m K r (n + 1) (w + h).
  Proof.
    intros N W H. unfold round_drift. rewrite turn_S by exact H. pose proof u64_pos as U. pose proof (turn_pos n w N W) as T0. set (T := round_turn K n w) in *.
    assert (A : 0 <= (w + h) * (u64 * (14 + 4 * K * h))). { assert (0 <= K * h) by (apply Rmult_le_pos; lra). apply Rmult_le_pos; [lra|]. apply Rmult_le_pos; lra. }
    assert (B : 0 <= u64 * ((n + 1) * h)) by (apply Rmult_le_pos; [lra|apply Rmult_le_pos; lra]).
    unfold u64 in *. unfold Rdiv. lra.
  Qed.

  Definition okp (p : Control * R) : Prop := double_control K r (fst p) /\ binary64 (snd p) /\ K * Rabs (snd p) <= 100.
  (** The invariant after [n] steps of the total length [w]. *)
  Definition inv (n w : R) (s s' : State) : Prop :=
    double_state s /\ within (round_drift m K r n w) (round_turn K n w) s s' /\ Rabs (st_x s') <= m + w /\ Rabs (st_y s') <= m + w.

  Lemma inv_step n w s s' c h : 0 <= n -> 0 <= w -> okp (c, h) -> inv n w s s' -> round_drift m K r n w <= 1 ->
    inv (n + 1) (w + Rabs h) (rs_ode64 sin64 cos64 c (rs_enter c s) h) (exact_steps s' [(c, h)]).
  Proof.
    intros N W (DC & FH & KH) (DS & WI & MX & MY) D1. cbn [fst snd] in *. pose proof (Rabs_pos h) as H0. pose proof u64_pos as U.
    destruct (step_within c s h DS DC FH KH R0 KP) as (DS' & X & Y & T). pose proof (turn_pos n w N W) as T0.
    pose proof (drive_two _ _ s s' (step c h) T0 WI) as TW. change (exact_steps s' [(c, h)]) with (drive s' (step c h)).
    assert (AH : Rabs (ct_delta_s (step c h)) = Rabs h). { unfold step; cbn [ct_delta_s]. rewrite Rabs_mult. destruct (sgn_pm (ct_delta_s c)) as [->| ->]; [rewrite Rabs_R1|rewrite Rabs_left by lra]; ring. }
    rewrite AH in TW. destruct (drive_far s' (step c h) _ MX MY) as [FX FY]. rewrite AH in FX, FY.
    destruct WI as (WX & WY & _).
    assert (AX : Rabs (st_x s) <= m + w + 1). { replace (st_x s) with ((st_x s - st_x s') + st_x s') by ring. eapply Rle_trans; [apply Rabs_triang|lra]. }
    assert (AY : Rabs (st_y s) <= m + w + 1). { replace (st_y s) with ((st_y s - st_y s') + st_y s') by ring. eapply Rle_trans; [apply Rabs_triang|lra]. }
    assert (UX : u64 * (Rabs (st_x s) + 5 * Rabs h + 26 * r + 1) <= u64 * (m + w + 1 + 5 * Rabs h + 26 * r + 1)) by (apply Rmult_le_compat_l; lra).
    assert (UY : u64 * (Rabs (st_y s) + 5 * Rabs h + 26 * r + 1) <= u64 * (m + w + 1 + 5 * Rabs h + 26 * r + 1)) by (apply Rmult_le_compat_l; lra).
    pose proof (drift_S n w (Rabs h) N W H0) as DR.
    split; [exact DS'|]. split; [|split; lra].
    eapply within_le; [| |eapply within_trans; [split; [exact (Rle_trans _ _ _ X UX)|split; [exact (Rle_trans _ _ _ Y UY)|exact T]]|exact TW]].
    - lra.
    - rewrite turn_S by exact H0. lra.
  Qed.

  Variables D T NN WW : R.
  Hypotheses (DD : round_drift m K r NN WW <= D) (TT : round_turn K NN WW <= T) (D1 : round_drift m K r NN WW <= 1).
  Lemma inv_within n w s s' : 0 <= n <= NN -> 0 <= w <= WW -> inv n w s s' -> within D T s s'.
  Proof. intros N W (_ & I & _). eapply within_le; [| |exact I]; [eapply Rle_trans; [apply drift_mono|exact DD]|eapply Rle_trans; [apply turn_mono|exact TT]]; lra. Qed.

  Lemma rs_enter_inv c n w s s' : inv n w s s' -> inv n w (rs_enter c s) s'.
  Proof. intros I. exact I. Qed.
  Lemma ode_enter c s h : rs_enter c (rs_ode64 sin64 cos64 c (rs_enter c s) h) = rs_ode64 sin64 cos64 c (rs_enter c s) h.
  Proof. unfold rs_ode64. cbn [rs_enter st_kappa]. destruct (Rlt_dec _ _); unfold rs_enter; reflexivity. Qed.

  Lemma driven_pos l : 0 <= driven l.
  Proof. induction l as [|p l IH]; cbn [driven fold_right]; [lra|]. pose proof (Rabs_pos (snd p)). unfold driven in IH. lra. Qed.
  Lemma driven_app l l' : driven (l ++ l') = driven l + driven l'.
  Proof. induction l as [|p l IH]; cbn [driven fold_right app]; [unfold driven; lra|]. unfold driven in *. rewrite IH. ring. Qed.

  Lemma exact_steps_cons s p l : exact_steps s (p :: l) = exact_steps (exact_steps s [p]) l.
  Proof. reflexivity. Qed.
  Lemma exact_steps_app l : forall s l', exact_steps s (l ++ l') = exact_steps (exact_steps s l) l'.
  Proof. induction l as [|p l IH]; intros s l'; [reflexivity|]. cbn [app]. rewrite exact_steps_cons, IH. reflexivity. Qed.

  Lemma states_within c hs : forall n w s s', s = rs_enter c s -> 0 <= n -> 0 <= w -> inv n w s s' ->
    Forall (fun h => okp (c, h)) hs -> n + INR (length hs) <= NN -> w + driven (map (pair c) hs) <= WW ->
    Forall2 (within D T) (s :: states64 sin64 cos64 c s hs) (exact_way s' c hs) /\
    inv (n + INR (length hs)) (w + driven (map (pair c) hs)) (last (states64 sin64 cos64 c s hs) s) (exact_steps s' (map (pair c) hs)).
  Proof.
    induction hs as [|h hs IH]; intros n w s s' ES N W I OK LN LW.
    - cbn [length INR map driven fold_right] in *. rewrite !Rplus_0_r in *. split; [|exact I]. constructor; [|constructor]. eapply inv_within; [| |exact I]; lra.
    - cbn [map] in *. cbn [driven fold_right snd] in *. fold (driven (map (pair c) hs)) in *. cbn [length] in *. rewrite S_INR in *.
      pose proof (driven_pos (map (pair c) hs)) as DP. pose proof (Rabs_pos h) as H0. pose proof (pos_INR (length hs)) as NP. inversion_clear OK as [|? ? O OK'].
      assert (D1' : round_drift m K r n w <= 1) by (eapply Rle_trans; [apply drift_mono|exact D1]; lra).
      pose proof (inv_step n w s s' c h N W O I D1') as I'. 
      set (q := rs_ode64 sin64 cos64 c (rs_enter c s) h) in *.
      destruct (IH (n + 1) (w + Rabs h) q (exact_steps s' [(c, h)])) as [F L]; [symmetry; apply ode_enter|lra|lra|exact I'|exact OK'|lra|lra|].
      cbn [states64].
      replace (rs_ode64 sin64 cos64 c s h) with q by (unfold q; rewrite <- ES; reflexivity).
      split.
      + cbn [exact_way]. constructor; [|exact F]. eapply inv_within; [| |exact I]; lra.
      + rewrite exact_steps_cons. replace (n + (INR (length hs) + 1)) with (n + 1 + INR (length hs)) by ring. replace (w + (Rabs h + driven (map (pair c) hs))) with (w + Rabs h + driven (map (pair c) hs)) by ring.
        assert (LL : forall (l : list State) (a b : State), last (a :: l) b = last l a) by (intros l0; induction l0 as [|z l0 IHl]; intros; [reflexivity|cbn [last] in *; destruct l0; [reflexivity|apply IHl]]).
        rewrite LL. exact L.
  Qed.

  Lemma integrate_within disc cs : forall n w s s', 0 <= n -> 0 <= w -> inv n w s s' ->
    Forall okp (steps_of disc cs) -> n + INR (length (steps_of disc cs)) <= NN -> w + driven (steps_of disc cs) <= WW ->
    Forall2 (within D T) (integrate64 sin64 cos64 disc s cs) (exact_path disc s' cs).
  Proof.
    induction cs as [|c cs IH]; intros n w s s' N W I OK LN LW; [constructor|].
    cbn [integrate64 exact_path]. set (hs := integration_steps64 (Rabs (ct_delta_s c)) disc) in *.
    change (steps_of disc (c :: cs)) with (map (pair c) hs ++ steps_of disc cs) in *.
    rewrite app_length, map_length, plus_INR in LN. rewrite driven_app in LW. apply Forall_app in OK. destruct OK as [O1 O2].
    pose proof (driven_pos (map (pair c) hs)) as P1. pose proof (driven_pos (steps_of disc cs)) as P2. pose proof (pos_INR (length hs)) as P3. pose proof (pos_INR (length (steps_of disc cs))) as P4.
    destruct (states_within c hs n w (rs_enter c s) s') as [F L]; [reflexivity|exact N|exact W|apply rs_enter_inv; exact I| |lra|lra|].
    { apply Forall_forall. intros h H. rewrite Forall_forall in O1. apply O1. apply in_map. exact H. }
    rewrite app_comm_cons. apply Forall2_app; [exact F|].
    replace (steps_of disc [c]) with (map (pair c) hs) by (unfold steps_of, hs; cbn [flat_map]; rewrite app_nil_r; reflexivity).
    eapply IH; [| |exact L|exact O2| |]; lra.
  Qed.
End Library.

(** ** The steps of a control *)
Lemma fmt_abs x : binary64 x -> binary64 (Rabs x).
Proof. apply generic_format_abs. Qed.
Lemma steps_fmt n : forall L d s, binary64 d -> Forall binary64 (steps64 n L d s).
Proof. induction n as [|n IH]; intros L d s F; [constructor|]. cbn [steps64]. destruct (Rlt_dec _ _); constructor; try (apply rnd_format); try exact F; apply IH; exact F. Qed.

Lemma abs_sum (l : list R) (e : R) : Forall (fun a => - e <= a) l -> 0 <= e -> fold_right (fun a w => Rabs a + w) 0 l <= sum l + 2 * INR (length l) * e.
Proof.
  intros F E. induction F as [|a l A F IH]; [cbn; lra|]. unfold sum in *. cbn [fold_right length]. rewrite S_INR.
  assert (Rabs a <= a + 2 * e) by (apply Rabs_le_between; lra). lra.
Qed.
Lemma driven_map c l : driven (map (pair c) l) = fold_right (fun a w => Rabs a + w) 0 l.
Proof. induction l as [|a l IH]; [reflexivity|]. cbn [map driven fold_right snd] in *. unfold driven in IH. rewrite IH. reflexivity. Qed.

Lemma control_driven c disc : binary64 (ct_delta_s c) -> binary64 disc -> 0 < disc ->
  let l := integration_steps64 (Rabs (ct_delta_s c)) disc in
  driven (map (pair c) l) <= Rabs (ct_delta_s c) + (2 * INR (length l) + 1) * ((Rabs (ct_delta_s c) + disc) / 2 ^ 50).
Proof.
  intros FD FI D0 l. pose proof (fmt_abs _ FD) as FL. pose proof (Rabs_pos (ct_delta_s c)) as L0. set (L := Rabs (ct_delta_s c)) in *.
  pose proof (steps_sum L disc FL FI L0 D0) as S. fold l in S. apply Rabs_le_between in S.
  rewrite driven_map. assert (E0 : 0 <= (L + disc) / 2 ^ 51) by (apply Rdiv_le_0_compat; lra).
  pose proof (abs_sum l ((L + disc) / 2 ^ 51)) as A.
  assert (F : Forall (fun a => - ((L + disc) / 2 ^ 51) <= a) l) by (apply Forall_forall; intros a I; exact (proj1 (steps_range L disc a FL FI L0 D0 I))).
  specialize (A F E0). unfold Rdiv in *. lra.
Qed.

Lemma driven_le K r disc cs : binary64 disc -> 0 < disc -> Forall (double_control K r) cs ->
  driven (steps_of disc cs) <= total_length cs + slack disc cs.
Proof.
  intros FI D0 F. induction F as [|c cs (FD & _) F IH]; [cbn; lra|].
  change (steps_of disc (c :: cs)) with (map (pair c) (integration_steps64 (Rabs (ct_delta_s c)) disc) ++ steps_of disc cs).
  assert (DA : forall l l', driven (l ++ l') = driven l + driven l').
  { intros l l'. induction l as [|p l IHl]; cbn [driven fold_right app]; [unfold driven; lra|]. unfold driven in *. rewrite IHl. ring. }
  rewrite DA. pose proof (control_driven c disc FD FI D0) as C. cbn zeta in C.
  change (total_length (c :: cs)) with (Rabs (ct_delta_s c) + total_length cs). cbn [slack fold_right]. fold (slack disc cs). lra.
Qed.

Lemma slack_pos disc cs : 0 < disc -> 0 <= slack disc cs.
Proof.
  intros D. induction cs as [|c cs IH]; cbn [slack fold_right]; [lra|]. fold (slack disc cs). pose proof (pos_INR (length (integration_steps64 (Rabs (ct_delta_s c)) disc))). pose proof (Rabs_pos (ct_delta_s c)).
  assert (0 <= (2 * INR (length (integration_steps64 (Rabs (ct_delta_s c)) disc)) + 1) * ((Rabs (ct_delta_s c) + disc) / 2 ^ 50)) by (apply Rmult_le_pos; [lra|apply Rdiv_le_0_compat; lra]). lra.
Qed.

(** ** The end of the exact steps *)
Lemma pos_dist_coords a b e : pos_dist a b <= e -> Rabs (st_x a - st_x b) <= e /\ Rabs (st_y a - st_y b) <= e.
Proof.
  unfold pos_dist. intros D.
  assert (H : forall u v, Rabs u <= sqrt (u ^ 2 + v ^ 2)) by (intros u v; rewrite <- (sqrt_Rsqr_abs u); apply sqrt_le_1_alt; unfold Rsqr; pose proof (pow2_ge_0 v); lra).
  split; [eapply Rle_trans; [apply (H (st_x a - st_x b) (st_y a - st_y b))|exact D]|].
  eapply Rle_trans; [apply (H (st_y a - st_y b) (st_x a - st_x b))|]. rewrite Rplus_comm. exact D.
Qed.

Lemma control_end K r disc c s : binary64 disc -> 0 < disc -> 0 <= K -> double_control K r c ->
  let l := integration_steps64 (Rabs (ct_delta_s c)) disc in
  let e := (2 * INR (length l) + 1) * ((Rabs (ct_delta_s c) + disc) / 2 ^ 50) in
  within e (K * e) (exact_steps s (map (pair c) l)) (drive s c).
Proof.
  intros FI D0 KP (FD & FK & KK) l e. pose proof (fmt_abs _ FD) as FL. pose proof (Rabs_pos (ct_delta_s c)) as L0. set (L := Rabs (ct_delta_s c)) in *. pose proof (pos_INR (length l)) as NP.
  pose proof (steps_sum L disc FL FI L0 D0) as S. fold l in S.
  assert (E : Rabs (sum l - L) <= e).
  { eapply Rle_trans; [exact S|]. unfold e. apply Rmult_le_compat_r; [apply Rdiv_le_0_compat; lra|lra]. }
  set (d := sgn (ct_delta_s c)).
  assert (P : exact_pose (exact_steps s (map (pair c) l)) (drive s (mkControl (d * sum l) (ct_kappa c) 0))).
  { unfold exact_steps. rewrite map_map. cbn [fst snd]. fold d. destruct l as [|a l'].
    - cbn [map drive_all fold_left]. unfold sum; cbn [fold_right]. rewrite Rmult_0_r. unfold exact_pose, drive; cbn [ct_kappa ct_delta_s]. destruct (Req_EM_T _ _); cbn [st_x st_y st_theta]; rewrite ?Rmult_0_r, ?Rmult_0_l, ?Rplus_0_r; repeat split; try ring; field; assumption.
    - apply drive_steps. discriminate. }
  assert (Q : exact_pose (drive s (mkControl (d * L) (ct_kappa c) 0)) (drive s c)).
  { unfold d, L. rewrite sgn_abs. unfold exact_pose, drive; cbn [ct_kappa ct_delta_s]. destruct (Req_EM_T _ _); auto. }
  destruct (drive_close s (ct_kappa c) (d * sum l) (d * L)) as [A B].
  assert (AB : Rabs (d * sum l - d * L) <= e).
  { replace (d * sum l - d * L) with (d * (sum l - L)) by ring. rewrite Rabs_mult. replace (Rabs d) with 1 by (unfold d; destruct (sgn_pm (ct_delta_s c)) as [->| ->]; [rewrite Rabs_R1|rewrite Rabs_left]; lra). lra. }
  destruct (pos_dist_coords _ _ _ (Rle_trans _ _ _ A AB)) as [X Y].
  destruct P as (P1 & P2 & P3). destruct Q as (Q1 & Q2 & Q3). split; [|split].
  - rewrite P1, <- Q1. exact X.
  - rewrite P2, <- Q2. exact Y.
  - exists 0%Z. rewrite P3, <- Q3, Rmult_0_r, Rminus_0_r, B, Rabs_mult. apply Rmult_le_compat; try apply Rabs_pos; [|exact AB].
    destruct KK as [->|(_ & KB & _)]; [rewrite Rabs_R0; exact KP|exact KB].
Qed.

Lemma exact_end K r disc cs : binary64 disc -> 0 < disc -> 0 <= K -> Forall (double_control K r) cs -> forall s s' E H, 0 <= H -> within E H s s' ->
  within (E + slack disc cs + total_length cs * (H + K * slack disc cs)) (H + K * slack disc cs) (exact_steps s (steps_of disc cs)) (drive_all s' cs).
Proof.
  intros FI D0 KP F. induction F as [|c cs DC F IH]; intros s s' E H H0 WI.
  - cbn [steps_of flat_map slack fold_right]. unfold exact_steps, total_length; cbn. eapply within_le; [| |exact WI]; lra.
  - change (steps_of disc (c :: cs)) with (map (pair c) (integration_steps64 (Rabs (ct_delta_s c)) disc) ++ steps_of disc cs).
    assert (EA : forall l s l', exact_steps s (l ++ l') = exact_steps (exact_steps s l) l').
    { induction l as [|p l IHl]; intros s0 l'; [reflexivity|]. cbn [app]. change (exact_steps s0 (p :: l ++ l')) with (exact_steps (exact_steps s0 [p]) (l ++ l')). rewrite IHl. reflexivity. }
    rewrite EA. change (drive_all s' (c :: cs)) with (drive_all (drive s' c) cs). change (total_length (c :: cs)) with (Rabs (ct_delta_s c) + total_length cs).
    pose proof (control_end K r disc c s FI D0 KP DC) as CE. cbn zeta in CE. cbn [slack fold_right]. fold (slack disc cs).
    set (e := (2 * INR (length (integration_steps64 (Rabs (ct_delta_s c)) disc)) + 1) * ((Rabs (ct_delta_s c) + disc) / 2 ^ 50)) in *.
    pose proof (slack_pos disc cs D0) as SP. set (S := slack disc cs) in *. pose proof (pos_INR (length (integration_steps64 (Rabs (ct_delta_s c)) disc))). pose proof (Rabs_pos (ct_delta_s c)) as L0.
    assert (E0 : 0 <= e) by (apply Rmult_le_pos; [lra|apply Rdiv_le_0_compat; lra]).
    assert (KE : 0 <= K * e) by (apply Rmult_le_pos; assumption). assert (KS : 0 <= K * S) by (apply Rmult_le_pos; assumption).
    pose proof (drive_two E H s s' c H0 WI) as TW. pose proof (within_trans _ _ _ _ _ _ _ CE TW) as W2.
    eapply within_le; [| |apply (IH _ _ _ _ (Rplus_le_le_0_compat _ _ KE H0) W2)]; [|lra].
    assert (0 <= Rabs (ct_delta_s c) * (K * e)) by (apply Rmult_le_pos; assumption). assert (0 <= Rabs (ct_delta_s c) * (K * S)) by (apply Rmult_le_pos; assumption).
    lra.
Qed.

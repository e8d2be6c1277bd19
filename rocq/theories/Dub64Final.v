(** * The Dubins planner in double precision: both directions, sampled paths and cases *)
From Coq Require Import Reals ZArith List Lra Lia Psatz.
From Flocq Require Import Core.
From Coquelicot Require Import Rcomplements.
From Verif Require Import Base ModelUtil SpecPath ModelDubins ModelFloat ModelArc SpecArc SpecDubins64 Num JacProofs FloatProofs StepProofs ArcProofs ArcPath ArcEnd Near ModelDubins64 DubinsProofs DubinsPlan Dub64Tmp Dub64Words Dub64Plan Dub64End.
Import ListNotations.
Open Scope R_scope.

Lemma within_sym e h a b : within e h a b -> within e h b a.
Proof.
  intros (X & Y & n & T). split; [rewrite Rabs_minus_sym; exact X|split; [rewrite Rabs_minus_sym; exact Y|]]. exists (- n)%Z. rewrite opp_IZR.
  replace (st_theta b - st_theta a - 2 * PI * - IZR n) with (- (st_theta a - st_theta b - 2 * PI * IZR n)) by ring. rewrite Rabs_Ropp. exact T.
Qed.
Lemma same_within a b : same_pose a b -> within 0 0 a b.
Proof.
  intros (X & Y & n & T). split; [rewrite X, Rminus_eq_0, Rabs_R0; lra|split; [rewrite Y, Rminus_eq_0, Rabs_R0; lra|]]. exists n. rewrite T.
  replace (st_theta b + 2 * PI * IZR n - st_theta b - 2 * PI * IZR n) with 0 by ring. rewrite Rabs_R0. lra.
Qed.
Lemma eps64_bounds : 999 / 10 ^ 9 <= DUBINS_EPS64 <= 10001 / 10 ^ 10.
Proof. unfold DUBINS_EPS64. pose proof (rnd_err (1 / 1000000)) as E. rewrite (Rabs_pos_eq (1 / 1000000)) in E by lra. apply Rabs_le_between in E. pose proof tiny. lra. Qed.

Section Final.
  Variables sin64 cos64 acos64 : R -> R.
  Variable atan264 : R -> R -> R.
  Hypothesis LIB : accurate_library sin64 cos64 acos64 atan264.
  Variable kappa : R.
  Hypothesis UK : usual_kappa kappa.

  Notation path := (dubins_path64 sin64 cos64 acos64 atan264 kappa).

  (** The plan from [s1] to [s2]: by the shortcut for nearly equal poses, or by a word. *)
  Lemma forward_end s1 s2 : usual_start s1 -> usual_start s2 -> let cs := dubins_controls64 kappa (path s1 s2) in
    (within (25 / 10 ^ 7 / kappa) (11 / 10 ^ 7) (drive_all s1 cs) s2 /\ kappa * pos_dist s1 s2 < 2 / 10 ^ 6 /\ total_length cs <= 2 / 10 ^ 6 / kappa \/
     within (111 / 10 ^ 8 / kappa) (32 / 10 ^ 12) (drive_all s1 cs) s2 /\ total_length cs <= 29200 / kappa) /\
    total_length cs <= pos_dist s1 s2 + 23 / kappa /\ length cs = 3%nat.
  Proof.
    intros U1 U2 cs. destruct (dubins_args64 atan264 kappa s1 s2) as [[d al] be] eqn:E.
    destruct (args_near _ _ _ _ LIB kappa s1 s2 d al be UK U1 U2 E) as (th & Fd & Fa & Fb & D & BA & BB & A1 & A2 & NX & NY & ND).
    assert (D' : 0 <= d <= 30000) by lra. pose proof (dubins64_ends _ _ _ _ LIB d al be Fd Fa Fb D' BA BB) as C.
    assert (EP : path s1 s2 = dubins64 sin64 cos64 acos64 atan264 d al be) by (unfold dubins_path64; rewrite E; reflexivity). rewrite <- EP in C. pose proof (proj2 UK) as K. unfold cs. set (P := path s1 s2) in *. clearbody P. clear EP.
    pose proof (inv_range kappa K) as IK. assert (DI : forall v, v / kappa = v * (1 / kappa)) by (intros v; field; lra). assert (KI : kappa * (1 / kappa) = 1) by (field; lra). unfold near in ND. rewrite (DI d) in ND. apply Rabs_le_between in ND.
    assert (KD : kappa * (d * (1 / kappa)) = d) by (field; lra).
    destruct C as [(CD & CA & ->)|EN].
    - pose proof eps64_bounds as EB. pose proof (rnd_err (al - be)) as RE. assert (AB : Rabs (al - be) <= 1001 / 10 ^ 9).
      { assert (M : Rabs (al - be) <= 15) by (eapply Rle_trans; [apply (abs_dif2 _ _ _ _ BA BB)|lra]). assert (/ 2 ^ 53 * Rabs (al - be) <= / 2 ^ 53 * 15) by (apply Rmult_le_compat_l; lra). pose proof tiny. apply Rabs_lt_between in CA. apply Rabs_le_between in RE. apply Rabs_le_between. lra. }
      destruct (world kappa s1 s2 d al be th (mkDPath (dubins_path_type 0) 0 d 0) (2001 / 10 ^ 9) (1001 / 10 ^ 9) UK D A1 A2 NX NY) as (W & T).
      + do 3 eexists; reflexivity.
      + cbn [dp_t]. rewrite Rabs_R0. lra.
      + cbn [dp_p]. rewrite Rabs_pos_eq; lra.
      + cbn [dp_q]. rewrite Rabs_R0. lra.
      + lra.
      + do 3 eexists. split; [reflexivity|]. cbn [dp_type dubins_path_type dp_t dp_p dp_q uword combine fold_left useg fst snd]. split.
        * rewrite !Rplus_0_r. replace ((0 + (sin al - sin al) + d * cos al + (sin al - sin al) - d) * (0 + (sin al - sin al) + d * cos al + (sin al - sin al) - d) + (0 + (cos al - cos al) + d * sin al + (cos al - cos al)) * (0 + (cos al - cos al) + d * sin al + (cos al - cos al))) with (d * d * (sin al * sin al + cos al * cos al) + d * d - 2 * (d * d) * cos al) by ring.
          rewrite sin2_cos2'. pose proof (COS_bound al) as CB. assert (DD : d * d <= 10001 / 10 ^ 10 * (10001 / 10 ^ 10)) by (apply Rmult_le_compat; lra). assert (0 <= d * d * (cos al + 1)) by (apply Rmult_le_pos; [apply Rle_0_sqr|lra]). lra.
        * rewrite !Rplus_0_r. apply near_ang_of. exact AB.
      + cbn [dp_t dp_p dp_q] in T. rewrite Rabs_R0, (Rabs_pos_eq d) in T by lra. rewrite DI in T.
        split; [left; split; [|split]|split; [|reflexivity]].
        * eapply within_le; [| |exact W]; [apply Rmult_le_compat_r; [apply Rlt_le, Rinv_0_lt_compat; lra|lra]|lra].
        * assert (kappa * pos_dist s1 s2 <= kappa * (d * (1 / kappa) + 1 / 10 ^ 11)) by (apply Rmult_le_compat_l; lra). lra.
        * rewrite DI. assert (d * (1 / kappa) <= 10001 / 10 ^ 10 * (1 / kappa)) by (apply Rmult_le_compat_r; lra). lra.
        * rewrite DI. lra.
    - destruct EN as (TY & _ & _ & _ & BT & BP & BQ & x & y & w & EU & EX & EY & EW).
      destruct (world kappa s1 s2 d al be th P (71 / 10 ^ 8) (1 / 10 ^ 12) UK D A1 A2 NX NY TY) as (W & T).
      + apply Rabs_le_between. lra.
      + rewrite Rabs_pos_eq; lra.
      + apply Rabs_le_between. lra.
      + lra.
      + exists x, y, w. split; [exact EU|split; [|exact EW]]. apply Rabs_le_between in EX. apply Rabs_le_between in EY. assert ((x - d) * (x - d) <= 5 / 10 ^ 7 * (5 / 10 ^ 7)) by nra. assert (y * y <= 5 / 10 ^ 7 * (5 / 10 ^ 7)) by nra. lra.
      + assert (AT : Rabs (dp_t P) <= 71 / 10) by (apply Rabs_le_between; lra). assert (AQ : Rabs (dp_q P) <= 71 / 10) by (apply Rabs_le_between; lra). rewrite (Rabs_pos_eq (dp_p P)) in T by lra. rewrite DI in T.
        assert (TT : total_length (dubins_controls64 kappa P) <= (d + 223 / 10) * (1 / kappa)) by (eapply Rle_trans; [exact T|]; apply Rmult_le_compat_r; lra).
        split; [right; split|split].
        * eapply within_le; [| |exact W]; [apply Rmult_le_compat_r; [apply Rlt_le, Rinv_0_lt_compat; lra|lra]|lra].
        * rewrite DI. assert ((d + 223 / 10) * (1 / kappa) <= 29200 * (1 / kappa)) by (apply Rmult_le_compat_r; lra). lra.
        * rewrite DI. lra.
        * destruct TY as (a & b & c & TY). unfold dubins_controls64. rewrite TY. reflexivity.
  Qed.

  Notation plan := (dubins_get_controls64 sin64 cos64 acos64 atan264 kappa).

  Lemma plan_end fw s1 s2 : usual_start s1 -> usual_start s2 ->
    within (3 / 10 ^ 6 / kappa) (2 / 10 ^ 6) (drive_all s1 (plan fw s1 s2)) s2 /\
    (2 / 10 ^ 6 <= kappa * pos_dist s1 s2 -> within (3 / 10 ^ 6 / kappa) (1 / 10 ^ 10) (drive_all s1 (plan fw s1 s2)) s2) /\
    total_length (plan fw s1 s2) <= pos_dist s1 s2 + 23 / kappa /\ length (plan fw s1 s2) = 3%nat.
  Proof.
    intros U1 U2. pose proof (proj2 UK) as K. pose proof (inv_range kappa K) as IK. assert (DI : forall v, v / kappa = v * (1 / kappa)) by (intros v; field; lra). set (i := 1 / kappa) in *.
    destruct fw; cbn [dubins_get_controls64].
    - destruct (forward_end s1 s2 U1 U2) as (C & T & L). cbv zeta in C. split; [|split; [|split; [exact T|exact L]]].
      + destruct C as [(W & _)|(W & _)]; (eapply within_le; [| |exact W]; rewrite ?DI; lra).
      + intros FAR. destruct C as [(_ & N & _)|(W & _)]; [lra|]. eapply within_le; [| |exact W]; rewrite ?DI; lra.
    - destruct (forward_end s2 s1 U2 U1) as (C & T & L). cbv zeta in C. set (cs := dubins_controls64 kappa (path s2 s1)) in *. rewrite (pos_dist_sym s2 s1) in *.
      assert (TR := total_length_negrev cs).
      assert (B : forall E H, 0 <= H -> within E H (drive_all s2 cs) s1 -> within (E + total_length cs * H) H (drive_all s1 (map negate_length (rev cs))) s2).
      { intros E H H0 W. pose proof (drive_all_two (map negate_length (rev cs)) _ _ _ _ H0 (within_sym _ _ _ _ W)) as W1. rewrite TR in W1.
        pose proof (within_trans _ _ _ _ _ _ _ W1 (same_within _ _ (drive_all_undo cs s2))) as W2. eapply within_le; [| |exact W2]; lra. }
      split; [|split; [|split; [rewrite TR; exact T|rewrite map_length, rev_length; exact L]]].
      + destruct C as [(W & _ & TL)|(W & TL)]; apply B in W; try lra; (eapply within_le; [| |exact W]; rewrite ?DI in *; lra).
      + intros FAR. destruct C as [(_ & N & _)|(W & TL)]; [lra|]. apply B in W; [|lra]. eapply within_le; [| |exact W]; rewrite ?DI in *; lra.
  Qed.

  (** The sampled path. *)
  Lemma plan_usual fw s1 s2 : usual_start s1 -> usual_start s2 -> pos_dist s1 s2 + 23 / kappa <= 100 -> usual_controls (plan fw s1 s2).
  Proof.
    intros U1 U2 B. destruct (plan_end fw s1 s2 U1 U2) as (_ & _ & T & L). destruct UK as (FK & K). split; [|split; [rewrite L; lia|lra]].
    assert (G : forall P, Forall (fun c => binary64 (ct_delta_s c) /\ binary64 (ct_kappa c) /\ (ct_kappa c = 0 \/ 1 / 100 <= Rabs (ct_kappa c) <= 10)) (dubins_controls64 kappa P)).
    { intros P. unfold dubins_controls64. apply Forall_map. apply Forall_forall. intros [g l] _. cbn [fst snd]. destruct g; cbn [dubins_control64 ct_delta_s ct_kappa]; (split; [apply rnd_format|split]).
      - exact FK.
      - right. rewrite Rabs_pos_eq; lra.
      - apply fmt_0.
      - left. reflexivity.
      - apply fmt_opp. exact FK.
      - right. rewrite Rabs_Ropp, Rabs_pos_eq; lra. }
    destruct fw; cbn [dubins_get_controls64]; [apply G|]. apply Forall_map. apply Forall_rev. eapply Forall_impl; [|apply G]. intros c (A & C & E). cbn [negate_length ct_delta_s ct_kappa]. split; [apply fmt_opp; exact A|split; assumption].
  Qed.
  Lemma plan_path fw disc s1 s2 : usual_disc disc -> usual_start s1 -> usual_start s2 -> pos_dist s1 s2 + 23 / kappa <= 100 ->
    within (1 / 10 ^ 4 + 3 / 10 ^ 6 / kappa) (3 / 10 ^ 6) (last (dubins_get_path64 sin64 cos64 acos64 atan264 kappa disc fw s1 s2) s1) s2.
  Proof.
    intros UD U1 U2 B. destruct (plan_end fw s1 s2 U1 U2) as (W & _ & _ & L). destruct LIB as (SI & CO & _). unfold dubins_get_path64.
    assert (NE : plan fw s1 s2 <> []) by (intros Z; rewrite Z in L; discriminate).
    pose proof (usual_end sin64 cos64 SI CO disc s1 (plan fw s1 s2) UD U1 (plan_usual fw s1 s2 U1 U2 B) NE) as V.
    pose proof (within_trans _ _ _ _ _ _ _ V W) as X. eapply within_le; [| |exact X]; lra.
  Qed.
End Final.

(** ** Cases *)
Lemma rnd_library : accurate_library (fun x => rnd (sin x)) (fun x => rnd (cos x)) (fun x => rnd (acos x)) (fun y x => rnd (atan2 y x)).
Proof.
  pose proof PI_4 as P4. pose proof tiny as T. split; [apply rnd_accurate, SIN_bound|]. split; [apply rnd_accurate, COS_bound|]. split.
  - intros x _ B. split; [apply rnd_format|]. pose proof (acos_bound x) as A. eapply Rle_trans; [apply rnd_err|]. rewrite Rabs_pos_eq by lra. assert (/ 2 ^ 53 * acos x <= / 2 ^ 53 * (39 / 10)); [|lra]. apply Rmult_le_compat_l; [lra|]. pose proof T_bounds. pose proof two_pi_err as E. apply Rabs_le_between in E. unfold u64 in E. lra.
  - intros y x _ _. pose proof (atan2_range y x) as A. assert (B : Rabs (atan2 y x) <= 4) by (apply Rabs_le_between; lra).
    assert (E : Rabs (rnd (atan2 y x) - atan2 y x) <= / 2 ^ 50) by (eapply Rle_trans; [apply rnd_err|]; assert (/ 2 ^ 53 * Rabs (atan2 y x) <= / 2 ^ 53 * 4) by (apply Rmult_le_compat_l; lra); lra).
    split; [apply rnd_format|]. split.
    + assert (F4 : binary64 4) by (apply (fmt_int 4); reflexivity). apply Rabs_le_between in B. apply Rabs_le_between. rewrite <- (rnd_id 4 F4) at 2. rewrite <- (rnd_id (-4) (fmt_opp 4 F4)) at 1. split; apply rnd_le; lra.
    + split.
      * replace (sqrt (x * x + y * y) * cos (rnd (atan2 y x)) - x) with (sqrt (x * x + y * y) * (cos (rnd (atan2 y x)) - cos (atan2 y x))) by (rewrite Rmult_minus_distr_l, atan2_cos; reflexivity). rewrite Rabs_mult, (Rabs_pos_eq (sqrt _)) by apply sqrt_pos. apply Rmult_le_compat_l; [apply sqrt_pos|]. eapply Rle_trans; [apply cos_lip|exact E].
      * replace (sqrt (x * x + y * y) * sin (rnd (atan2 y x)) - y) with (sqrt (x * x + y * y) * (sin (rnd (atan2 y x)) - sin (atan2 y x))) by (rewrite Rmult_minus_distr_l, atan2_sin; reflexivity). rewrite Rabs_mult, (Rabs_pos_eq (sqrt _)) by apply sqrt_pos. apply Rmult_le_compat_l; [apply sqrt_pos|]. eapply Rle_trans; [apply sin_lip|exact E].
Qed.
Lemma start_int x y t : (Z.abs x <= 1000)%Z -> (Z.abs y <= 1000)%Z -> (Z.abs t <= 4)%Z -> usual_start (mkState (IZR x) (IZR y) (IZR t) 0 0).
Proof.
  intros X Y T. unfold usual_start, double_state. cbn [st_x st_y st_theta]. repeat split; try (apply fmt_int; lia); rewrite <- abs_IZR; [apply (IZR_le _ 4)|apply (IZR_le _ 1000)|apply (IZR_le _ 1000)]; assumption.
Qed.
Lemma plan_case : usual_kappa 1 /\ usual_start (mkState 0 0 0 0 0) /\ usual_start (mkState 5 3 1 0 0) /\ 2 / 10 ^ 6 <= 1 * pos_dist (mkState 0 0 0 0 0) (mkState 5 3 1 0 0) /\ pos_dist (mkState 0 0 0 0 0) (mkState 5 3 1 0 0) + 23 / 1 <= 100.
Proof.
  split; [split; [apply fmt_1|lra]|]. split; [apply (start_int 0 0 0); simpl; lia|]. split; [apply (start_int 5 3 1); simpl; lia|].
  assert (B : 2 <= pos_dist (mkState 0 0 0 0 0) (mkState 5 3 1 0 0) <= 10).
  { unfold pos_dist. cbn [st_x st_y]. split; [rewrite <- (sqrt_square 2) by lra|rewrite <- (sqrt_square 10) by lra]; apply sqrt_le_1_alt; lra. }
  split; lra.
Qed.

Lemma one_bit_negative : twopify64 (- bpow radix2 (-1074)) < 0.
Proof.
  pose proof T_bounds as T. pose proof (bpow_gt_0 radix2 (-1074)) as B0.
  assert (F : binary64 (- bpow radix2 (-1074))) by (apply fmt_opp; replace (bpow radix2 (-1074)) with (IZR 1 * bpow radix2 (-1074)) by ring; apply fmt_F2R; lia).
  unfold twopify64.
  assert (Q : rnd (- bpow radix2 (-1074) / TWO_PI64) = 0).
  { unfold rnd. apply round_N_small with (ex := (-1076)%Z); [|reflexivity]. unfold Rdiv. rewrite <- Ropp_mult_distr_l, Rabs_Ropp, Rabs_pos_eq by (apply Rmult_le_pos; [lra|left; apply Rinv_0_lt_compat; lra]).
    replace (bpow radix2 (-1076 - 1)) with (bpow radix2 (-1074) * / 8) by (change (-1076 - 1)%Z with (-1074 + - (3))%Z; rewrite bpow_plus, bp by lia; f_equal; f_equal; simpl; ring).
    replace (bpow radix2 (-1076)) with (bpow radix2 (-1074) * / 4) by (change (-1076)%Z with (-1074 + - (2))%Z; rewrite bpow_plus, bp by lia; f_equal; f_equal; simpl; ring).
    split; [apply Rmult_le_compat_l; [lra|]; apply Rinv_le_contravar; lra|apply Rmult_lt_compat_l; [lra|]; apply Rinv_lt_contravar; lra]. }
  rewrite Q, (Zfloor_IZR 0). rewrite Rmult_0_r, (rnd_id 0) by apply fmt_0. rewrite Rminus_0_r, (rnd_id _ F). lra.
Qed.

(** A heading of one bit: the first turn of LSL is computed as negative. *)
Lemma negative_turn : exists sin64 cos64 acos64 atan264 s1 s2, accurate_library sin64 cos64 acos64 atan264 /\ usual_start s1 /\ usual_start s2 /\
  let '(d, al, be) := dubins_args64 atan264 1 s1 s2 in DUBINS_ZERO64 <= tmpLSL64 sin64 cos64 d al be /\ dp_t (dubinsLSL64 sin64 cos64 atan264 d al be) < 0.
Proof.
  set (w := bpow radix2 (-1074)). assert (W0 : 0 < w) by apply bpow_gt_0. assert (W1 : w <= 1) by (change 1 with (bpow radix2 0); apply bpow_le; lia).
  assert (FW : binary64 w) by (unfold w; replace (bpow radix2 (-1074)) with (IZR 1 * bpow radix2 (-1074)) by ring; apply fmt_F2R; lia).
  pose (s1 := mkState 0 0 w 0 0). pose (s2 := mkState 5 0 w 0 0).
  exists (fun x => rnd (sin x)), (fun x => rnd (cos x)), (fun x => rnd (acos x)), (fun y x => rnd (atan2 y x)), s1, s2.
  assert (F5 : binary64 5) by (apply (fmt_int 5); reflexivity). assert (F25 : binary64 25) by (apply (fmt_int 25); reflexivity).
  assert (US : forall x, binary64 x -> Rabs x <= 1000 -> usual_start (mkState x 0 w 0 0)).
  { intros x F B. unfold usual_start, double_state. cbn [st_x st_y st_theta]. repeat split; try assumption; try apply fmt_0; [apply Rabs_le_between; lra|rewrite Rabs_R0; lra]. }
  assert (U1 : usual_start s1) by (apply US; [apply fmt_0|rewrite Rabs_R0; lra]). assert (U2 : usual_start s2) by (apply US; [exact F5|apply Rabs_le_between; lra]).
  split; [exact rnd_library|]. split; [exact U1|]. split; [exact U2|].
  assert (A0 : forall x, 0 < x -> rnd (atan2 0 x) = 0).
  { intros x X. assert (A : atan2 0 x = 0) by (unfold atan2; destruct (Rlt_dec 0 x); [|lra]; replace (0 / x) with 0 by (field; lra); apply atan_0). rewrite A. apply rnd_id, fmt_0. }
  assert (EA : dubins_args64 (fun y x => rnd (atan2 y x)) 1 s1 s2 = (5, w, w)).
  { unfold dubins_args64, s1, s2. cbn [st_x st_y st_theta]. rewrite !Rminus_0_r, (rnd_id 5 F5), (rnd_id 0 fmt_0), A0 by lra. replace (5 * 5) with 25 by ring. rewrite Rmult_0_r, (rnd_id 0 fmt_0), (rnd_id 25 F25), Rplus_0_r, (rnd_id 25 F25).
    replace (sqrt 25) with 5 by (symmetry; replace 25 with (5 * 5) by ring; apply sqrt_square; lra). rewrite (rnd_id 5 F5), Rmult_1_r, (rnd_id 5 F5), Rminus_0_r, (rnd_id w FW), (twopify_first w FW); [reflexivity|]. pose proof T_bounds. lra. }
  rewrite EA. destruct (arm 5 (tmpLSL64 (fun x => rnd (sin x)) (fun x => rnd (cos x)) 5 w w) 5 ltac:(lra) ltac:(lra) ltac:(lra)) as (_ & TP).
  { pose proof (LSL_near _ _ _ _ rnd_library 5 w w FW FW ltac:(lra)) as N. replace ((5 + sin w - sin w) ^ 2 + (cos w - cos w) ^ 2) with (5 * 5) in N by ring. exact N. }
  assert (Z : DUBINS_ZERO64 <= tmpLSL64 (fun x => rnd (sin x)) (fun x => rnd (cos x)) 5 w w).
  { unfold DUBINS_ZERO64. pose proof (rnd_err (1 / 1000000000)) as E. rewrite (Rabs_pos_eq (1 / 1000000000)) in E by lra. apply Rabs_le_between in E. pose proof tiny. lra. }
  split; [exact Z|]. unfold dubinsLSL64. destruct (Rle_dec DUBINS_ZERO64 _) as [_|N]; [|contradiction]. unfold solveLSL64. cbn [dp_t].
  rewrite Rminus_eq_0, (rnd_id 0 fmt_0), A0.
  - rewrite Rplus_0_r, (rnd_id _ (fmt_opp _ FW)). exact one_bit_negative.
  - pose proof (SIN_bound w) as SB. assert (R1 : -1 <= rnd (sin w) <= 1) by (split; [apply Rle_trans with (rnd (-1)); [rewrite (rnd_id (-1) (fmt_opp 1 fmt_1)); lra|apply rnd_le; lra]|apply Rle_trans with (rnd 1); [apply rnd_le; lra|rewrite (rnd_id 1 fmt_1); lra]]).
    assert (F3 : binary64 3) by (apply (fmt_int 3); reflexivity). assert (F4 : binary64 4) by (apply (fmt_int 4); reflexivity).
    assert (R2 : 4 <= rnd (5 + rnd (sin w))) by (rewrite <- (rnd_id 4 F4); apply rnd_le; lra). assert (R3 : 3 <= rnd (rnd (5 + rnd (sin w)) - rnd (sin w))) by (rewrite <- (rnd_id 3 F3); apply rnd_le; lra). lra.
Qed.

(** * The Dubins planner in double precision: the end of the planned motion *)
From Coq Require Import Reals ZArith List Lra Lia Psatz.
From Flocq Require Import Core.
From Coquelicot Require Import Rcomplements.
From Verif Require Import Base ModelUtil SpecPath ModelDubins ModelFloat ModelArc SpecArc SpecDubins64 Num JacProofs FloatProofs StepProofs ArcProofs ArcPath ArcEnd Near ModelDubins64 DubinsProofs DubinsPlan Dub64Tmp Dub64Words Dub64Plan.
Import ListNotations.
Open Scope R_scope.

(** ** Distance *)
Lemma eta_small : 0 <= / 2 ^ 1000 <= / 2 ^ 140.
Proof. split; [apply Rlt_le, Rinv_0_lt_compat, pow_lt; lra|]. apply Rinv_le_contravar; [apply pow_lt; lra|]. apply Rle_pow; [lra|lia]. Qed.
Lemma dist64 x y : hyp x y <= 2900 -> near (2 / 10 ^ 12) (rnd (sqrt (rnd (rnd (x * x) + rnd (y * y))))) (hyp x y) /\ 0 <= rnd (sqrt (rnd (rnd (x * x) + rnd (y * y)))).
Proof.
  intros B. pose proof (hyp_pos x y) as R0. pose proof (hyp_sq x y) as R2. set (r := hyp x y) in *. pose proof eta_small as H. set (h := / 2 ^ 1000) in *. pose proof u64_pos as U. assert (U' : u64 <= 1 / 10 ^ 15) by (unfold u64; lra).
  set (S := rnd (rnd (x * x) + rnd (y * y))). pose proof (Rle_0_sqr x) as X2. pose proof (Rle_0_sqr y) as Y2. unfold Rsqr in X2, Y2.
  assert (ND : forall v, 0 <= v -> 0 <= rnd v) by (intros v V; rewrite <- (rnd_id 0 fmt_0); apply rnd_le; exact V).
  pose proof (ND _ X2) as RX. pose proof (ND _ Y2) as RY. assert (S0 : 0 <= S) by (apply ND; lra).
  assert (ES : Rabs (S - r * r) <= 3 * u64 * (r * r) + 4 * h).
  { pose proof (rnd_err (x * x)) as E1. pose proof (rnd_err (y * y)) as E2. pose proof (rnd_err (rnd (x * x) + rnd (y * y))) as E3. fold S u64 h in E1, E2, E3. rewrite (Rabs_pos_eq (rnd (x * x) + rnd (y * y))) in E3 by lra. rewrite (Rabs_pos_eq (x * x)) in E1 by lra. rewrite (Rabs_pos_eq (y * y)) in E2 by lra.
    apply Rabs_le_between in E1. apply Rabs_le_between in E2. apply Rabs_le_between in E3.
    assert (SB : rnd (x * x) + rnd (y * y) <= 101 / 100 * (r * r) + 2 * h) by (rewrite R2; assert (u64 * (x * x) <= 1 / 10 ^ 15 * (x * x)) by (apply Rmult_le_compat_r; lra); assert (u64 * (y * y) <= 1 / 10 ^ 15 * (y * y)) by (apply Rmult_le_compat_r; lra); lra).
    assert (SU : u64 * (rnd (x * x) + rnd (y * y)) <= u64 * (101 / 100 * (r * r) + 2 * h)) by (apply Rmult_le_compat_l; lra).
    assert (UH : u64 * h <= 1 / 10 ^ 15 * h) by (apply Rmult_le_compat_r; lra). assert (UR : u64 * (r * r) = u64 * (x * x) + u64 * (y * y)) by (rewrite R2; ring). assert (0 <= u64 * (r * r)) by (apply Rmult_le_pos; [lra|]; apply Rle_0_sqr).
    apply Rabs_le_between. lra. }
  assert (NZ : near (1 / 10 ^ 12) (sqrt S) r).
  { assert (Z0 : 0 <= sqrt S) by apply sqrt_pos. assert (Z2 : sqrt S * sqrt S = S) by (apply sqrt_sqrt; exact S0). set (z := sqrt S) in *. set (v := 1 / 10 ^ 20). assert (V : 4 * h <= v * v) by (unfold v; lra). assert (V0 : 0 < v) by (unfold v; lra).
    set (k := 3 * u64) in *. assert (K0 : 0 < k) by (unfold k; lra). assert (K1 : k <= 1 / 10 ^ 14) by (unfold k; lra). apply Rabs_le_between in ES. unfold near. apply Rabs_le_between.
    assert (KR : k * r <= 1 / 10 ^ 12 - v) by (unfold k, v, u64; lra). assert (KR0 : 0 <= k * r) by (apply Rmult_le_pos; lra). 
    split.
    - destruct (Rle_dec (r - k * r - v) z) as [L|L]; [lra|]. exfalso. apply Rnot_le_lt in L. set (w := r - k * r) in *. assert (W : v < w) by lra. assert (A : z * z < (w - v) * (w - v)) by (apply Rmult_le_0_lt_compat; lra).
      assert (C : 0 <= 2 * v * (w - v)) by (apply Rmult_le_pos; lra). assert (B2 : w * w <= r * r - k * (r * r)).
      { unfold w. assert (0 <= k * r * (r - k * r)) by (apply Rmult_le_pos; [lra|fold w; lra]). lra. }
      lra.
    - destruct (Rle_dec z (r + k * r + v)) as [L|L]; [lra|]. exfalso. apply Rnot_le_lt in L. set (w := r + k * r) in *. assert (W0 : 0 <= w) by (unfold w; lra). assert (A : (w + v) * (w + v) < z * z) by (apply Rmult_le_0_lt_compat; lra).
      assert (C : 0 <= w * v) by (apply Rmult_le_pos; lra). assert (B2 : r * r + k * (r * r) <= w * w).
      { unfold w. assert (0 <= k * r * (r + k * r)) by (apply Rmult_le_pos; lra). lra. }
      lra. }
  split; [|apply ND; apply sqrt_pos]. apply near_le with (1 / 10 ^ 12 + 101 / 100 * u64 * 2900); [unfold u64; lra|]. apply near_rnd; [exact NZ|rewrite Rabs_pos_eq; lra|lra|lra].
Qed.

Lemma rot_le a b th r : 0 <= r -> a * a + b * b <= r * r -> Rabs (a * cos th - b * sin th) <= r /\ Rabs (a * sin th + b * cos th) <= r.
Proof.
  intros R0 H. pose proof (sin2_cos2' th) as Q.
  assert (K : forall v w, v * v + w * w = a * a + b * b -> Rabs v <= r).
  { intros v w E. rewrite <- (sqrt_Rsqr_abs v), <- (sqrt_square r R0). apply sqrt_le_1_alt. unfold Rsqr. pose proof (Rle_0_sqr w) as W. unfold Rsqr in W. lra. }
  split; [apply (K _ (a * sin th + b * cos th))|apply (K _ (a * cos th - b * sin th))];
    (transitivity ((a * a + b * b) * (sin th * sin th + cos th * cos th)); [ring|rewrite Q; ring]).
Qed.

Section End.
  Variables sin64 cos64 acos64 : R -> R.
  Variable atan264 : R -> R -> R.
  Hypothesis LIB : accurate_library sin64 cos64 acos64 atan264.

  Lemma args_near kappa s1 s2 d al be : usual_kappa kappa -> usual_start s1 -> usual_start s2 -> dubins_args64 atan264 kappa s1 s2 = (d, al, be) ->
    exists th, binary64 d /\ binary64 al /\ binary64 be /\ 0 <= d <= 29100 /\ Rabs al <= 71 / 10 /\ Rabs be <= 71 / 10 /\
    near_ang (2 / 10 ^ 13) (al + th) (st_theta s1) /\ near_ang (2 / 10 ^ 13) (be + th) (st_theta s2) /\
    near (1 / 10 ^ 11) (st_x s1 + d / kappa * cos th) (st_x s2) /\ near (1 / 10 ^ 11) (st_y s1 + d / kappa * sin th) (st_y s2) /\
    near (1 / 10 ^ 11) (d / kappa) (pos_dist s1 s2).
  Proof.
    intros (FK & K) (D1 & X1 & Y1) (D2 & X2 & Y2) E. unfold dubins_args64 in E. injection E as <- <- <-.
    destruct D1 as (_ & _ & _ & T1). destruct D2 as (_ & _ & _ & T2). set (dx := rnd (st_x s2 - st_x s1)). set (dy := rnd (st_y s2 - st_y s1)).
    assert (FX : binary64 dx) by apply rnd_format. assert (FY : binary64 dy) by apply rnd_format.
    assert (NX : near (3 / 10 ^ 13) dx (st_x s2 - st_x s1)).
    { apply near_le with (0 + 101 / 100 * u64 * 2000); [unfold u64; lra|]. apply near_rnd; [apply near_refl| |lra|lra]. eapply Rle_trans; [apply (abs_dif2 _ _ _ _ X2 X1)|lra]. }
    assert (NY : near (3 / 10 ^ 13) dy (st_y s2 - st_y s1)).
    { apply near_le with (0 + 101 / 100 * u64 * 2000); [unfold u64; lra|]. apply near_rnd; [apply near_refl| |lra|lra]. eapply Rle_trans; [apply (abs_dif2 _ _ _ _ Y2 Y1)|lra]. }
    assert (HB : hyp dx dy <= 2900).
    { assert (BX : Rabs dx <= 2001) by (eapply Rle_trans; [apply (near_abs _ _ _ 2000 NX); eapply Rle_trans; [apply (abs_dif2 _ _ _ _ X2 X1)|lra]|lra]).
      assert (BY : Rabs dy <= 2001) by (eapply Rle_trans; [apply (near_abs _ _ _ 2000 NY); eapply Rle_trans; [apply (abs_dif2 _ _ _ _ Y2 Y1)|lra]|lra]).
      apply Rle_trans with (sqrt (2900 * 2900)); [|rewrite sqrt_square; lra]. unfold hyp. apply sqrt_le_1_alt. apply Rabs_le_between in BX. apply Rabs_le_between in BY.
      assert (dx * dx <= 2001 * 2001) by nra. assert (dy * dy <= 2001 * 2001) by nra. lra. }
    destruct (dist64 dx dy HB) as (ND & PD). destruct (atan_dir _ _ _ _ LIB dy dx FY FX) as (C & S). pose proof (atan_le _ _ _ _ LIB dy dx FY FX) as TH. set (th := atan264 dy dx) in *. exists th.
    pose proof (hyp_pos dx dy) as HP. set (r := hyp dx dy) in *. set (z := rnd (sqrt (rnd (rnd (dx * dx) + rnd (dy * dy))))) in *. pose proof u64_pos as U. assert (U' : u64 <= 1 / 10 ^ 15) by (unfold u64; lra).
    assert (NDK : near (3 / 10 ^ 12 * kappa) (rnd (z * kappa)) (r * kappa)).
    { assert (u64 * kappa <= 1 / 10 ^ 15 * kappa) by (apply Rmult_le_compat_r; lra).
      apply (near_mul (2 / 10 ^ 12) 0 2900 kappa (2900 * kappa)); [exact ND|apply near_refl|rewrite Rabs_pos_eq; lra|rewrite Rabs_pos_eq; lra|lra|lra|lra|].
      replace (101 / 100 * u64 * (2900 * kappa)) with (101 / 100 * 2900 * u64 * kappa) by ring. assert (101 / 100 * 2900 * u64 * kappa <= 1 / 10 ^ 12 * kappa) by (apply Rmult_le_compat_r; [lra|unfold u64; lra]). lra. }
    assert (P : 0 <= rnd (z * kappa)) by (rewrite <- (rnd_id 0 fmt_0); apply rnd_le; apply Rmult_le_pos; lra).
    set (d := rnd (z * kappa)) in *. assert (NDQ : near (3 / 10 ^ 12) (d / kappa) r).
    { unfold near in *. apply (Rmult_le_reg_r kappa); [lra|]. rewrite <- (Rabs_pos_eq kappa) at 2 by lra. rewrite <- Rabs_mult. replace ((d / kappa - r) * kappa) with (d - r * kappa) by (field; lra). exact NDK. }
    assert (DB : d <= 29100) by (unfold near in NDK; apply Rabs_le_between in NDK; assert (r * kappa <= 2900 * 10) by (apply Rmult_le_compat; lra); lra).
    assert (AR : forall t, Rabs t <= 4 -> near_ang (2 / 10 ^ 13) (twopify64 (rnd (t - th)) + th) t /\ binary64 (twopify64 (rnd (t - th))) /\ Rabs (twopify64 (rnd (t - th))) <= 71 / 10).
    { intros t Ht. assert (N8 : near (1 / 10 ^ 13) (rnd (t - th)) (t - th)) by (apply (rnd_dif t th 4 4 Ht TH); lra).
      destruct (tw (rnd (t - th)) (t - th) N8) as (A & F & B).
      - eapply Rle_trans; [apply (abs_dif2 _ _ 4 4 Ht TH)|lra].
      - split; [|split; [exact F|apply Rabs_le_between; lra]]. replace t with ((t - th) + th) at 2 by ring. replace (2 / 10 ^ 13) with (2 / 10 ^ 13 + 0) by ring. apply near_ang_plus; [exact A|apply near_ang_of, near_refl]. }
    destruct (AR _ T1) as (A1 & F1 & B1). destruct (AR _ T2) as (A2 & F2 & B2).
    assert (RQ : r / 2 ^ 50 <= 3 / 10 ^ 12) by lra.
    assert (SC : forall v, Rabs v <= 1 -> near (3 / 10 ^ 12) (d / kappa * v) (r * v)).
    { intros v V. unfold near in *. rewrite <- Rmult_minus_distr_r, Rabs_mult. replace (3 / 10 ^ 12) with (3 / 10 ^ 12 * 1) by ring. apply Rmult_le_compat; try apply Rabs_pos; assumption. }
    repeat split; try assumption; try apply rnd_format.
    - pose proof (SC _ (abs_cos1 th)) as Q. unfold near in *. apply Rabs_le_between in Q. apply Rabs_le_between in C. apply Rabs_le_between in NX. apply Rabs_le_between. lra.
    - pose proof (SC _ (abs_sin1 th)) as Q. unfold near in *. apply Rabs_le_between in Q. apply Rabs_le_between in S. apply Rabs_le_between in NY. apply Rabs_le_between. lra.
    - assert (HD : pos_dist s1 s2 = hyp (st_x s2 - st_x s1) (st_y s2 - st_y s1)) by (unfold pos_dist, hyp; f_equal; ring). rewrite HD.
      apply near_le with (3 / 10 ^ 12 + 6 / 10 ^ 13); [lra|]. apply (near_trans _ _ _ r); [exact NDQ|]. unfold near, r. eapply Rle_trans; [apply hyp_lip|]. unfold near in NX, NY. lra.
  Qed.

  (** From the word to the motion of the vehicle. *)
  Lemma world kappa s1 s2 d al be th P rho H : usual_kappa kappa -> 0 <= d <= 29100 ->
    near_ang (2 / 10 ^ 13) (al + th) (st_theta s1) -> near_ang (2 / 10 ^ 13) (be + th) (st_theta s2) ->
    near (1 / 10 ^ 11) (st_x s1 + d / kappa * cos th) (st_x s2) -> near (1 / 10 ^ 11) (st_y s1 + d / kappa * sin th) (st_y s2) ->
    (exists a b c, dp_type P = [a; b; c]) -> Rabs (dp_t P) <= 8 -> Rabs (dp_p P) <= d + 8 -> Rabs (dp_q P) <= 8 -> 0 <= rho ->
    (exists x y w, uword (dp_type P) [dp_t P; dp_p P; dp_q P] (0, 0, al) = (x, y, w) /\ (x - d) * (x - d) + y * y <= rho * rho /\ near_ang H w be) ->
    within ((rho + 4 / 10 ^ 7) / kappa) (H + 305 / 10 ^ 13) (drive_all s1 (dubins_controls64 kappa P)) s2 /\
    total_length (dubins_controls64 kappa P) <= (Rabs (dp_t P) + Rabs (dp_p P) + Rabs (dp_q P) + 1 / 10 ^ 10) / kappa.
  Proof.
    intros (FK & K) D A1 A2 NX NY TY BT BP BQ R0 (x & y & w & EU & EN & HW).
    assert (D' : 0 <= d <= 30000) by lra. destruct (controls_near kappa d P (mkState (st_x s1) (st_y s1) (al + th) (st_kappa s1) (st_d s1)) K D' TY BT BP BQ) as (CN & TL). split; [|exact TL].
    pose proof (inv_range kappa K) as IK. set (i := 1 / kappa) in *. assert (DI : forall v, v / kappa = v * i) by (intros v; unfold i; field; lra). assert (KI : i * kappa = 1) by (unfold i; field; lra). 
    set (s0 := mkState (st_x s1) (st_y s1) (al + th) (st_kappa s1) (st_d s1)) in *.
    assert (W0 : within 0 (2 / 10 ^ 13) s1 s0).
    { split; [|split]; cbn [s0 st_x st_y]; try (rewrite Rminus_eq_0, Rabs_R0; lra). destruct A1 as (n & A). exists (- n)%Z. cbn [s0 st_theta]. rewrite opp_IZR.
      replace (st_theta s1 - (al + th) - 2 * PI * - IZR n) with (- (al + th - st_theta s1 - 2 * PI * IZR n)) by ring. rewrite Rabs_Ropp. exact A. }
    assert (H2 : 0 <= 2 / 10 ^ 13) by lra. pose proof (drive_all_two (dubins_controls64 kappa P) s1 s0 _ _ H2 W0) as W1.
    pose proof (within_trans _ _ _ _ _ _ _ W1 CN) as W2.
    assert (PL : psim (pose (drive_all s0 (dubins_controls kappa P))) (place kappa (st_x s1) (st_y s1) th (x, y, w))).
    { rewrite <- EU. unfold dubins_controls. apply drive_all_place; [lra|]. unfold psim, place, pose, px, py, pth, s0; cbn [fst snd st_x st_y st_theta]. split; [field; lra|split; [field; lra|apply ang_eq_refl]]. }
    destruct PL as (PX & PY & PT). unfold place, pose, px, py, pth in PX, PY, PT. cbn [fst snd] in PX, PY, PT.
    destruct (rot_le (x - d) y th rho R0 EN) as (RX & RY).
    assert (W3 : within (rho * i + 1 / 10 ^ 11) (H + 2 / 10 ^ 13) (drive_all s0 (dubins_controls kappa P)) s2).
    { split; [|split].
      - rewrite PX. replace (st_x s1 + (x * cos th - y * sin th) / kappa - st_x s2) with (((x - d) * cos th - y * sin th) * i + (st_x s1 + d / kappa * cos th - st_x s2)) by (unfold i; field; lra).
        eapply Rle_trans; [apply Rabs_triang|]. rewrite Rabs_mult, (Rabs_pos_eq i) by lra. apply Rplus_le_compat; [apply Rmult_le_compat_r; lra|exact NX].
      - rewrite PY. replace (st_y s1 + (x * sin th + y * cos th) / kappa - st_y s2) with (((x - d) * sin th + y * cos th) * i + (st_y s1 + d / kappa * sin th - st_y s2)) by (unfold i; field; lra).
        eapply Rle_trans; [apply Rabs_triang|]. rewrite Rabs_mult, (Rabs_pos_eq i) by lra. apply Rplus_le_compat; [apply Rmult_le_compat_r; lra|exact NY].
      - assert (NA : near_ang (H + 0 + 2 / 10 ^ 13) (w + th) (st_theta s2)) by (apply (near_ang_trans _ _ _ (be + th)); [apply near_ang_plus; [exact HW|apply near_ang_of, near_refl]|exact A2]).
        destruct NA as (n & NA). destruct PT as (m & PT). exists (n + m)%Z. rewrite PT, plus_IZR.
        replace (w + th + 2 * PI * IZR m - st_theta s2 - 2 * PI * (IZR n + IZR m)) with (w + th - st_theta s2 - 2 * PI * IZR n) by ring. lra. }
    pose proof (within_trans _ _ _ _ _ _ _ W2 W3) as W4. eapply within_le; [| |exact W4]; [|lra].
    rewrite !DI in *. assert (TB : total_length (dubins_controls64 kappa P) <= 30000 * i) by (eapply Rle_trans; [exact TL|]; apply Rmult_le_compat_r; lra). lra.
  Qed.
End End.

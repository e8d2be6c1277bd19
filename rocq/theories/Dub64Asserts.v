(** * The Dubins words in double precision: the assertions of the code *)
From Coq Require Import Reals ZArith List Lra Lia Psatz.
From Flocq Require Import Core.
From Coquelicot Require Import Rcomplements.
From Verif Require Import Base ModelUtil ModelDubins ModelFloat SpecArc SpecDubins64 Num JacProofs FloatProofs StepProofs ArcProofs Near ModelDubins64 DubinsProofs Dub64Tmp Dub64Words Dub64Plan Dub64Final.
Import ListNotations.
Open Scope R_scope.

Lemma badd ea eb a a' b b' : near ea a a' -> near eb b b' -> Rabs (a' + b') <= 80000 -> ea + eb <= 10 -> near (ea + eb + 1 / 10 ^ 11) (rnd (a + b)) (a' + b').
Proof. intros A B M E. apply (near_add ea eb 80000); [exact A|exact B|exact M|lra|lra|unfold u64; lra]. Qed.
Lemma bsub ea eb a a' b b' : near ea a a' -> near eb b b' -> Rabs (a' - b') <= 80000 -> ea + eb <= 10 -> near (ea + eb + 1 / 10 ^ 11) (rnd (a - b)) (a' - b').
Proof. intros A B. apply (badd ea eb a a' (- b) (- b') A (near_opp _ _ _ B)). Qed.
(** Angles. *)
Lemma aadd ea a a' b : near ea a a' -> Rabs (a' + b) <= 40 -> ea <= 1 / 1000 -> near (ea + 1 / 10 ^ 14) (rnd (a + b)) (a' + b).
Proof. intros A M E. apply (near_add ea 0 40); [exact A|apply near_refl|exact M|lra|lra|unfold u64; lra]. Qed.
Lemma asub ea a a' b : near ea a a' -> Rabs (a' - b) <= 40 -> ea <= 1 / 1000 -> near (ea + 1 / 10 ^ 14) (rnd (a - b)) (a' - b).
Proof. intros A M E. apply (near_sub ea 0 40); [exact A|apply near_refl|exact M|lra|lra|unfold u64; lra]. Qed.

Lemma heading_ok w w' be : near (1 / 10 ^ 12) w w' -> near_ang (1 / 10 ^ 12) w' be -> Rabs (w' - be) <= 39 -> assert_heading64 w be.
Proof.
  intros N A M. unfold assert_heading64. pose proof eps64_bounds as EB. pose proof two_pi_err as TE. pose proof T_bounds as TB.
  assert (H0 : near (1 / 10 ^ 14) (rnd (1 / 2 * DUBINS_EPS64)) (1 / 2 * DUBINS_EPS64)) by (apply rnd_small with 1; [apply Rabs_le_between; lra|lra|lra]).
  assert (H1 : near (2 / 10 ^ 12) (rnd (w - be)) (w' - be)) by (apply (near_sub (1 / 10 ^ 12) 0 40); [exact N|apply near_refl|lra|lra|lra|unfold u64; lra]).
  assert (H2 : near (3 / 10 ^ 12) (rnd (rnd (w - be) + rnd (1 / 2 * DUBINS_EPS64))) ((w' - be) + 1 / 2 * DUBINS_EPS64)).
  { apply (near_add (2 / 10 ^ 12) (1 / 10 ^ 14) 40); [exact H1|exact H0|apply Rabs_le_between in M; apply Rabs_le_between; lra|lra|lra|unfold u64; lra]. }
  set (z := rnd (rnd (w - be) + rnd (1 / 2 * DUBINS_EPS64))) in *.
  destruct (twopify_near z) as (B & _ & R); [unfold near in H2; apply Rabs_le_between in H2; apply Rabs_le_between in M; apply Rabs_le_between; lra|].
  assert (C : near_ang (5 / 10 ^ 12) (twopify64 z) (1 / 2 * DUBINS_EPS64)).
  { apply near_ang_le with (1 / 10 ^ 13 + (3 / 10 ^ 12 + (1 / 10 ^ 12 + 0))); [lra|]. apply (near_ang_trans _ _ _ z); [exact B|]. apply (near_ang_trans _ _ _ ((w' - be) + 1 / 2 * DUBINS_EPS64)); [apply near_ang_of; exact H2|].
    replace (1 / 2 * DUBINS_EPS64) with (0 + 1 / 2 * DUBINS_EPS64) at 2 by ring. apply near_ang_plus; [|apply near_ang_of, near_refl]. destruct A as (n & A). exists n. rewrite Rminus_0_r. exact A. }
  destruct C as (n & C). apply Rabs_le_between in C. apply Rabs_le_between in TE. unfold u64 in TE.
  assert (N0 : n = 0%Z).
  { destruct (Z.lt_trichotomy n 0) as [L|[E|G]]; [exfalso|exact E|exfalso].
    - assert (IZR n <= -1) by (apply (IZR_le n (-1)); lia). assert (2 * PI * IZR n <= 2 * PI * -1) by (apply Rmult_le_compat_l; lra). lra.
    - assert (1 <= IZR n) by (apply (IZR_le 1 n); lia). assert (2 * PI * 1 <= 2 * PI * IZR n) by (apply Rmult_le_compat_l; lra). lra. }
  subst n. lra.
Qed.
Lemma small_ok v V : near (1 / 10 ^ 7) v V -> Rabs V <= 6 / 10 ^ 7 -> Rabs v < DUBINS_EPS64.
Proof. intros N B. pose proof (near_abs _ _ _ _ N B). pose proof eps64_bounds. lra. Qed.

Section Asserts.
  Variables sin64 cos64 acos64 : R -> R.
  Variable atan264 : R -> R -> R.
  Hypothesis LIB : accurate_library sin64 cos64 acos64 atan264.
  Variables d al be : R.
  Hypothesis Fd : binary64 d.
  Hypothesis Fal : binary64 al.
  Hypothesis Fbe : binary64 be.
  Hypothesis d0 : 0 <= d <= 30000.
  Hypothesis al0 : Rabs al <= 71 / 10.
  Hypothesis be0 : Rabs be <= 71 / 10.

  Lemma cosn a a' : binary64 a -> near (1 / 10 ^ 13) a a' -> near (2 / 10 ^ 13) (cos64 a) (cos a').
  Proof.
    intros F N. apply near_le with (2 * u64 + 1 / 10 ^ 13); [unfold u64; lra|]. apply (near_trans _ _ _ (cos a)); [apply (cos_near _ _ _ _ LIB); exact F|]. unfold near. eapply Rle_trans; [apply cos_lip|exact N].
  Qed.
  Lemma sinn a a' : binary64 a -> near (1 / 10 ^ 13) a a' -> near (2 / 10 ^ 13) (sin64 a) (sin a').
  Proof.
    intros F N. apply near_le with (2 * u64 + 1 / 10 ^ 13); [unfold u64; lra|]. apply (near_trans _ _ _ (sin a)); [apply (sin_near _ _ _ _ LIB); exact F|]. unfold near. eapply Rle_trans; [apply sin_lip|exact N].
  Qed.
  Lemma pmul p v v' : 0 <= p <= d + 8 -> near (2 / 10 ^ 13) v v' -> Rabs v' <= 1 -> near (1 / 10 ^ 8) (rnd (p * v)) (p * v') /\ Rabs (p * v') <= 30008.
  Proof.
    intros P N B. split.
    - apply (near_mul 0 (2 / 10 ^ 13) 30008 1 30008); [apply near_refl|exact N|apply Rabs_le_between; lra|exact B|lra|lra|lra|unfold u64; lra].
    - rewrite Rabs_mult. replace 30008 with (30008 * 1) by ring. apply Rmult_le_compat; try apply Rabs_pos; [apply Rabs_le_between; lra|exact B].
  Qed.
  Lemma twos c v v' : Rabs c <= 2 -> near (2 / 10 ^ 13) v v' -> Rabs v' <= 1 -> near (1 / 10 ^ 8) (rnd (c * v)) (c * v') /\ Rabs (c * v') <= 2.
  Proof.
    intros C N B. split.
    - apply (near_mul 0 (2 / 10 ^ 13) 2 1 2); [apply near_refl|exact N|exact C|exact B|lra|lra|lra|unfold u64; lra].
    - rewrite Rabs_mult. replace 2 with (2 * 1) by ring. apply Rmult_le_compat; try apply Rabs_pos; assumption.
  Qed.
  Lemma trig_al : near (1 / 10 ^ 15) (sin64 al) (sin al) /\ near (1 / 10 ^ 15) (cos64 al) (cos al) /\ near (1 / 10 ^ 15) (sin64 be) (sin be) /\ near (1 / 10 ^ 15) (cos64 be) (cos be).
  Proof. repeat split; (apply near_le with (2 * u64); [unfold u64; lra|]); first [apply (sin_near _ _ _ _ LIB)|apply (cos_near _ _ _ _ LIB)]; assumption. Qed.

  Ltac chain := lazymatch goal with
    | |- near _ (rnd (_ + _)) _ => eapply badd; [chain|chain| | ]
    | |- near _ (rnd (_ - _)) _ => eapply bsub; [chain|chain| | ]
    | _ => first [eassumption|apply near_refl] end.
  Ltac btw := repeat match goal with H : Rabs _ <= _ |- _ => apply Rabs_le_between in H end.
  Ltac fin := eapply small_ok; [eapply near_le; [|chain]; [lra|..]; first [lra|apply Rabs_le_between; lra]|apply Rabs_le_between; lra].

  Lemma LSL_asserts : assertsLSL64 sin64 cos64 atan264 d al be.
  Proof.
    intros Z. cbv zeta. pose proof (LSL_ends _ _ _ _ LIB d al be Fal Fbe d0 al0 be0) as E. assert (TY : dp_type (solveLSL64 sin64 cos64 atan264 d al be) = [DUBINS_LEFT; DUBINS_STRAIGHT; DUBINS_LEFT]) by reflexivity.
    destruct (solveLSL64 sin64 cos64 atan264 d al be) as [ty t p q]. destruct E as (_ & Ft & Fp & Fq & BT & BP & BQ & x & y & w & EU & EX & EY & EW). cbn [dp_type dp_t dp_p dp_q] in *. subst ty.
    cbn [uword combine fold_left useg fst snd] in EU. injection EU as <- <- <-. destruct trig_al as (SA & CA & SB & CB).
    pose proof (SIN_bound al). pose proof (COS_bound al). pose proof (SIN_bound be). pose proof (COS_bound be). pose proof al0 as AB. pose proof be0 as BB. apply Rabs_le_between in AB. apply Rabs_le_between in BB.
    set (w := al + t) in *. assert (WB : Rabs w <= 15) by (apply Rabs_le_between; unfold w; lra). assert (NA : near (1 / 10 ^ 14) (rnd w) w) by (apply rnd_small with 15; [exact WB|lra|lra]).
    assert (FA : binary64 (rnd w)) by apply rnd_format. assert (NA' : near (1 / 10 ^ 13) (rnd w) w) by (apply near_le with (2 := NA); lra).
    destruct (pmul p _ _ BP (cosn _ _ FA NA') (abs_cos1 w)) as (MC & BC). destruct (pmul p _ _ BP (sinn _ _ FA NA') (abs_sin1 w)) as (MS & BS).
    assert (NH : near (1 / 10 ^ 12) (rnd (rnd w + q)) (w + q)) by (apply near_le with (1 / 10 ^ 14 + 1 / 10 ^ 14); [lra|]; apply aadd; [exact NA|apply Rabs_le_between in WB; apply Rabs_le_between; lra|lra]).
    split; [|split; [|apply (heading_ok _ _ _ NH EW); unfold w; apply Rabs_le_between; lra]].
    all: pose proof (near_ang_sin _ _ _ EW) as OS; pose proof (near_ang_cos _ _ _ EW) as OC; unfold near in OS, OC; btw; fin.
  Qed.

  Lemma RSR_asserts : assertsRSR64 sin64 cos64 atan264 d al be.
  Proof.
    intros Z. cbv zeta. pose proof (RSR_ends _ _ _ _ LIB d al be Fal Fbe d0 al0 be0) as E. assert (TY : dp_type (solveRSR64 sin64 cos64 atan264 d al be) = [DUBINS_RIGHT; DUBINS_STRAIGHT; DUBINS_RIGHT]) by reflexivity.
    destruct (solveRSR64 sin64 cos64 atan264 d al be) as [ty t p q]. destruct E as (_ & Ft & Fp & Fq & BT & BP & BQ & x & y & w & EU & EX & EY & EW). cbn [dp_type dp_t dp_p dp_q] in *. subst ty.
    cbn [uword combine fold_left useg fst snd] in EU. injection EU as <- <- <-. destruct trig_al as (SA & CA & SB & CB).
    pose proof (SIN_bound al). pose proof (COS_bound al). pose proof (SIN_bound be). pose proof (COS_bound be). pose proof al0 as AB. pose proof be0 as BB. apply Rabs_le_between in AB. apply Rabs_le_between in BB.
    set (w := al - t) in *. assert (WB : Rabs w <= 15) by (apply Rabs_le_between; unfold w; lra). assert (NA : near (1 / 10 ^ 14) (rnd w) w) by (apply rnd_small with 15; [exact WB|lra|lra]).
    assert (FA : binary64 (rnd w)) by apply rnd_format. assert (NA' : near (1 / 10 ^ 13) (rnd w) w) by (apply near_le with (2 := NA); lra).
    destruct (pmul p _ _ BP (cosn _ _ FA NA') (abs_cos1 w)) as (MC & BC). destruct (pmul p _ _ BP (sinn _ _ FA NA') (abs_sin1 w)) as (MS & BS).
    assert (NH : near (1 / 10 ^ 12) (rnd (rnd w - q)) (w - q)) by (apply near_le with (1 / 10 ^ 14 + 1 / 10 ^ 14); [lra|]; apply asub; [exact NA|apply Rabs_le_between in WB; apply Rabs_le_between; lra|lra]).
    split; [|split; [|apply (heading_ok _ _ _ NH EW); unfold w; apply Rabs_le_between; lra]].
    all: pose proof (near_ang_sin _ _ _ EW) as OS; pose proof (near_ang_cos _ _ _ EW) as OC; unfold near in OS, OC; btw; fin.
  Qed.

  Lemma RSL_asserts : assertsRSL64 sin64 cos64 atan264 d al be.
  Proof.
    intros Z. cbv zeta. pose proof (RSL_ends _ _ _ _ LIB d al be Fal Fbe d0 al0 be0 Z) as E. assert (TY : dp_type (solveRSL64 sin64 cos64 atan264 d al be) = [DUBINS_RIGHT; DUBINS_STRAIGHT; DUBINS_LEFT]) by reflexivity.
    destruct (solveRSL64 sin64 cos64 atan264 d al be) as [ty t p q]. destruct E as (_ & Ft & Fp & Fq & BT & BP & BQ & x & y & w & EU & EX & EY & EW). cbn [dp_type dp_t dp_p dp_q] in *. subst ty.
    cbn [uword combine fold_left useg fst snd] in EU. injection EU as <- <- <-. destruct trig_al as (SA & CA & SB & CB).
    pose proof (SIN_bound al). pose proof (COS_bound al). pose proof (SIN_bound be). pose proof (COS_bound be). pose proof al0 as AB. pose proof be0 as BB. apply Rabs_le_between in AB. apply Rabs_le_between in BB.
    set (w := al - t) in *. assert (WB : Rabs w <= 15) by (apply Rabs_le_between; unfold w; lra). assert (NA : near (1 / 10 ^ 14) (rnd w) w) by (apply rnd_small with 15; [exact WB|lra|lra]).
    assert (FA : binary64 (rnd w)) by apply rnd_format. assert (NA' : near (1 / 10 ^ 13) (rnd w) w) by (apply near_le with (2 := NA); lra).
    destruct (pmul p _ _ BP (cosn _ _ FA NA') (abs_cos1 w)) as (MC & BC). destruct (pmul p _ _ BP (sinn _ _ FA NA') (abs_sin1 w)) as (MS & BS).
    destruct (twos 2 _ _ (abs2) (cosn _ _ FA NA') (abs_cos1 w)) as (TC & TCB). destruct (twos 2 _ _ (abs2) (sinn _ _ FA NA') (abs_sin1 w)) as (TS & TSB).
    assert (NH : near (1 / 10 ^ 12) (rnd (rnd w + q)) (w + q)) by (apply near_le with (1 / 10 ^ 14 + 1 / 10 ^ 14); [lra|]; apply aadd; [exact NA|apply Rabs_le_between in WB; apply Rabs_le_between; lra|lra]).
    split; [|split; [|apply (heading_ok _ _ _ NH EW); unfold w; apply Rabs_le_between; lra]].
    all: pose proof (near_ang_sin _ _ _ EW) as OS; pose proof (near_ang_cos _ _ _ EW) as OC; unfold near in OS, OC; btw; fin.
  Qed.

  Lemma LSR_asserts : assertsLSR64 sin64 cos64 atan264 d al be.
  Proof.
    intros Z. cbv zeta. pose proof (LSR_ends _ _ _ _ LIB d al be Fal Fbe d0 al0 be0 Z) as E. assert (TY : dp_type (solveLSR64 sin64 cos64 atan264 d al be) = [DUBINS_LEFT; DUBINS_STRAIGHT; DUBINS_RIGHT]) by reflexivity.
    destruct (solveLSR64 sin64 cos64 atan264 d al be) as [ty t p q]. destruct E as (_ & Ft & Fp & Fq & BT & BP & BQ & x & y & w & EU & EX & EY & EW). cbn [dp_type dp_t dp_p dp_q] in *. subst ty.
    cbn [uword combine fold_left useg fst snd] in EU. injection EU as <- <- <-. destruct trig_al as (SA & CA & SB & CB).
    pose proof (SIN_bound al). pose proof (COS_bound al). pose proof (SIN_bound be). pose proof (COS_bound be). pose proof al0 as AB. pose proof be0 as BB. apply Rabs_le_between in AB. apply Rabs_le_between in BB.
    set (w := al + t) in *. assert (WB : Rabs w <= 15) by (apply Rabs_le_between; unfold w; lra). assert (NA : near (1 / 10 ^ 14) (rnd w) w) by (apply rnd_small with 15; [exact WB|lra|lra]).
    assert (FA : binary64 (rnd w)) by apply rnd_format. assert (NA' : near (1 / 10 ^ 13) (rnd w) w) by (apply near_le with (2 := NA); lra).
    destruct (pmul p _ _ BP (cosn _ _ FA NA') (abs_cos1 w)) as (MC & BC). destruct (pmul p _ _ BP (sinn _ _ FA NA') (abs_sin1 w)) as (MS & BS).
    destruct (twos 2 _ _ (abs2) (cosn _ _ FA NA') (abs_cos1 w)) as (TC & TCB). destruct (twos 2 _ _ (abs2) (sinn _ _ FA NA') (abs_sin1 w)) as (TS & TSB).
    assert (NH : near (1 / 10 ^ 12) (rnd (rnd w - q)) (w - q)) by (apply near_le with (1 / 10 ^ 14 + 1 / 10 ^ 14); [lra|]; apply asub; [exact NA|apply Rabs_le_between in WB; apply Rabs_le_between; lra|lra]).
    split; [|split; [|apply (heading_ok _ _ _ NH EW); unfold w; apply Rabs_le_between; lra]].
    all: pose proof (near_ang_sin _ _ _ EW) as OS; pose proof (near_ang_cos _ _ _ EW) as OC; unfold near in OS, OC; btw; fin.
  Qed.

  Lemma RLR_asserts : assertsRLR64 sin64 cos64 acos64 atan264 d al be.
  Proof.
    intros Z. cbv zeta. pose proof (RLR_ends _ _ _ _ LIB d al be Fal Fbe d0 al0 be0 Z) as E. assert (TY : dp_type (solveRLR64 sin64 cos64 acos64 atan264 d al be) = [DUBINS_RIGHT; DUBINS_LEFT; DUBINS_RIGHT]) by reflexivity.
    assert (BP7 : dp_p (solveRLR64 sin64 cos64 acos64 atan264 d al be) <= 71 / 10) by (refine (proj2 (proj2 (acos_near _ _ _ _ LIB _ _ _ _ Z))); first [exact d0|apply rnd_format]).
    destruct (solveRLR64 sin64 cos64 acos64 atan264 d al be) as [ty t p q]. destruct E as (_ & Ft & Fp & Fq & BT & BP & BQ & x & y & w & EU & EX & EY & EW). cbn [dp_type dp_t dp_p dp_q] in *. subst ty.
    cbn [uword combine fold_left useg fst snd] in EU. injection EU as <- <- <-. destruct trig_al as (SA & CA & SB & CB).
    pose proof (SIN_bound al). pose proof (COS_bound al). pose proof (SIN_bound be). pose proof (COS_bound be). pose proof al0 as AB. pose proof be0 as BB. apply Rabs_le_between in AB. apply Rabs_le_between in BB.
    set (w := al - t) in *. set (v := w + p) in *. assert (WB : Rabs w <= 15) by (apply Rabs_le_between; unfold w; lra). assert (NA : near (1 / 10 ^ 14) (rnd w) w) by (apply rnd_small with 15; [exact WB|lra|lra]).
    assert (VB : Rabs v <= 23) by (apply Rabs_le_between; unfold v, w; lra). assert (NV : near (1 / 10 ^ 14 + 1 / 10 ^ 14) (rnd (rnd w + p)) v) by (apply aadd; [exact NA|fold v; lra|lra]).
    assert (FA : binary64 (rnd w)) by apply rnd_format. assert (FV : binary64 (rnd (rnd w + p))) by apply rnd_format.
    assert (NA' : near (1 / 10 ^ 13) (rnd w) w) by (apply near_le with (2 := NA); lra). assert (NV' : near (1 / 10 ^ 13) (rnd (rnd w + p)) v) by (apply near_le with (2 := NV); lra).
    assert (NH : near (1 / 10 ^ 12) (rnd (rnd (rnd w + p) - q)) (v - q)) by (apply near_le with ((1 / 10 ^ 14 + 1 / 10 ^ 14) + 1 / 10 ^ 14); [lra|]; apply asub; [exact NV|apply Rabs_le_between in VB; apply Rabs_le_between; lra|lra]).
    destruct (twos 2 _ _ (abs2) (cosn _ _ FA NA') (abs_cos1 w)) as (TC & TCB). destruct (twos 2 _ _ (abs2) (sinn _ _ FA NA') (abs_sin1 w)) as (TS & TSB).
    destruct (twos (-2) _ _ (absm2) (cosn _ _ FV NV') (abs_cos1 v)) as (VC & VCB). destruct (twos 2 _ _ (abs2) (sinn _ _ FV NV') (abs_sin1 v)) as (VS & VSB).
    split; [|split; [|apply (heading_ok _ _ _ NH EW); unfold v, w; apply Rabs_le_between; lra]].
    all: pose proof (near_ang_sin _ _ _ EW) as OS; pose proof (near_ang_cos _ _ _ EW) as OC; unfold near in OS, OC; btw; fin.
  Qed.

  Lemma LRL_asserts : assertsLRL64 sin64 cos64 acos64 atan264 d al be.
  Proof.
    intros Z. cbv zeta. pose proof (LRL_ends _ _ _ _ LIB d al be Fal Fbe d0 al0 be0 Z) as E. assert (TY : dp_type (solveLRL64 sin64 cos64 acos64 atan264 d al be) = [DUBINS_LEFT; DUBINS_RIGHT; DUBINS_LEFT]) by reflexivity.
    assert (BP7 : dp_p (solveLRL64 sin64 cos64 acos64 atan264 d al be) <= 71 / 10) by (refine (proj2 (proj2 (acos_near _ _ _ _ LIB _ _ _ _ Z))); first [exact d0|apply rnd_format]).
    destruct (solveLRL64 sin64 cos64 acos64 atan264 d al be) as [ty t p q]. destruct E as (_ & Ft & Fp & Fq & BT & BP & BQ & x & y & w & EU & EX & EY & EW). cbn [dp_type dp_t dp_p dp_q] in *. subst ty.
    cbn [uword combine fold_left useg fst snd] in EU. injection EU as <- <- <-. destruct trig_al as (SA & CA & SB & CB).
    pose proof (SIN_bound al). pose proof (COS_bound al). pose proof (SIN_bound be). pose proof (COS_bound be). pose proof al0 as AB. pose proof be0 as BB. apply Rabs_le_between in AB. apply Rabs_le_between in BB.
    set (w := al + t) in *. set (v := w - p) in *. assert (WB : Rabs w <= 15) by (apply Rabs_le_between; unfold w; lra). assert (NA : near (1 / 10 ^ 14) (rnd w) w) by (apply rnd_small with 15; [exact WB|lra|lra]).
    assert (VB : Rabs v <= 23) by (apply Rabs_le_between; unfold v, w; lra). assert (NV : near (1 / 10 ^ 14 + 1 / 10 ^ 14) (rnd (rnd w - p)) v) by (apply asub; [exact NA|fold v; lra|lra]).
    assert (FA : binary64 (rnd w)) by apply rnd_format. assert (FV : binary64 (rnd (rnd w - p))) by apply rnd_format.
    assert (NA' : near (1 / 10 ^ 13) (rnd w) w) by (apply near_le with (2 := NA); lra). assert (NV' : near (1 / 10 ^ 13) (rnd (rnd w - p)) v) by (apply near_le with (2 := NV); lra).
    assert (NH : near (1 / 10 ^ 12) (rnd (rnd (rnd w - p) + q)) (v + q)) by (apply near_le with ((1 / 10 ^ 14 + 1 / 10 ^ 14) + 1 / 10 ^ 14); [lra|]; apply aadd; [exact NV|apply Rabs_le_between in VB; apply Rabs_le_between; lra|lra]).
    destruct (twos 2 _ _ (abs2) (cosn _ _ FA NA') (abs_cos1 w)) as (TC & TCB). destruct (twos 2 _ _ (abs2) (sinn _ _ FA NA') (abs_sin1 w)) as (TS & TSB).
    destruct (twos 2 _ _ (abs2) (cosn _ _ FV NV') (abs_cos1 v)) as (VC & VCB). destruct (twos (-2) _ _ (absm2) (sinn _ _ FV NV') (abs_sin1 v)) as (VS & VSB).
    split; [|split; [|apply (heading_ok _ _ _ NH EW); unfold v, w; apply Rabs_le_between; lra]].
    all: pose proof (near_ang_sin _ _ _ EW) as OS; pose proof (near_ang_cos _ _ _ EW) as OC; unfold near in OS, OC; btw; fin.
  Qed.
End Asserts.

Lemma all_asserts sin64 cos64 acos64 atan264 : accurate_library sin64 cos64 acos64 atan264 -> forall d al be, binary64 al -> binary64 be -> 0 <= d <= 30000 -> Rabs al <= 71 / 10 -> Rabs be <= 71 / 10 ->
  assertsLSL64 sin64 cos64 atan264 d al be /\ assertsRSR64 sin64 cos64 atan264 d al be /\ assertsRSL64 sin64 cos64 atan264 d al be /\ assertsLSR64 sin64 cos64 atan264 d al be /\
  assertsRLR64 sin64 cos64 acos64 atan264 d al be /\ assertsLRL64 sin64 cos64 acos64 atan264 d al be.
Proof.
  intros L d al be A B D Ma Mb. split; [apply LSL_asserts with acos64; assumption|]. split; [apply RSR_asserts with acos64; assumption|]. split; [apply RSL_asserts with acos64; assumption|].
  split; [apply LSR_asserts with acos64; assumption|]. split; [apply RLR_asserts; assumption|apply LRL_asserts; assumption].
Qed.

(** * Angle normalisation in double precision: proofs *)
From Coq Require Import Reals ZArith Lra Lia Psatz.
From Flocq Require Import Core Relative Sterbenz Div_sqrt_error.
From Verif Require Import ModelFloat.
Open Scope R_scope.

#[local] Instance prec_pos : Prec_gt_0 53.
Proof. unfold Prec_gt_0. lia. Qed.
Notation fexp := (FLT_exp (-1074) 53).
#[local] Instance fexp_valid : Valid_exp fexp := FLT_exp_valid (-1074) 53.
#[local] Instance fexp_mono : Monotone_exp fexp := FLT_exp_monotone (-1074) 53.

Lemma rnd_le x y : x <= y -> rnd x <= rnd y.
Proof. apply round_le; typeclasses eauto. Qed.
Lemma rnd_id x : binary64 x -> rnd x = x.
Proof. apply round_generic; typeclasses eauto. Qed.
Lemma rnd_format x : binary64 (rnd x).
Proof. apply generic_format_round; typeclasses eauto. Qed.
Lemma fmt_F2R m e : (Z.abs m < 2 ^ 53)%Z -> (-1074 <= e)%Z -> binary64 (IZR m * bpow radix2 e).
Proof.
  intros M E. apply generic_format_FLT. exists (Float radix2 m e); [reflexivity|exact M|exact E].
Qed.
Lemma bp n : (0 <= n)%Z -> bpow radix2 (- n) = / 2 ^ Z.to_nat n.
Proof. intros N. rewrite bpow_opp. f_equal. rewrite <- (Z2Nat.id n N) at 1. rewrite bpow_powerRZ, <- pow_powerRZ. reflexivity. Qed.
Lemma T_eq : TWO_PI64 = IZR 7074237752028440 * bpow radix2 (-50).
Proof. unfold TWO_PI64. change (-50)%Z with (- (50))%Z. rewrite bp by lia. reflexivity. Qed.
Lemma P_eq : PI64 = IZR 7074237752028440 * bpow radix2 (-51).
Proof. unfold PI64. change (-51)%Z with (- (51))%Z. rewrite bp by lia. reflexivity. Qed.
Lemma T_format : binary64 TWO_PI64.
Proof. rewrite T_eq. apply fmt_F2R; lia. Qed.
Lemma P_format : binary64 PI64.
Proof. rewrite P_eq. apply fmt_F2R; lia. Qed.
Lemma T_bounds : 6 < TWO_PI64 < 7.
Proof. unfold TWO_PI64. lra. Qed.
Lemma T_two : TWO_PI64 = 2 * PI64.
Proof. unfold TWO_PI64, PI64. lra. Qed.
Lemma fmt_opp x : binary64 x -> binary64 (- x).
Proof. apply generic_format_opp. Qed.
Lemma fmt_1 : binary64 1.
Proof. replace 1 with (IZR 1 * bpow radix2 0) by (simpl; ring). apply fmt_F2R; lia. Qed.
Lemma fmt_0 : binary64 0.
Proof. apply generic_format_0. Qed.

(** Rounding of a number close to the next double at exponent -50. *)
Lemma rnd_at x m : 4 <= x < 8 -> Rabs (x * 2 ^ 50 - IZR m) < 1 / 2 -> rnd x = IZR m * bpow radix2 (-50).
Proof.
  intros X M. unfold rnd, round, F2R; cbn [Fnum Fexp]. assert (C : cexp radix2 fexp x = (-50)%Z).
  { unfold cexp. rewrite (mag_unique radix2 x 3); [reflexivity|]. rewrite Rabs_pos_eq by lra. simpl. lra. }
  rewrite C. f_equal. f_equal. unfold scaled_mantissa. rewrite C. apply Znearest_imp.
  replace (bpow radix2 (- -50)) with (2 ^ 50); [|change (- -50)%Z with 50%Z; simpl; lra]. lra.
Qed.

(** ** Small negative angles give TWO_PI *)
Theorem twopify_top : exists a, binary64 a /\ -1 <= a <= 1 /\ twopify64 a = TWO_PI64.
Proof.
  exists (- bpow radix2 (-60)). assert (B : bpow radix2 (-60) = / 2 ^ 60) by (change (-60)%Z with (- (60))%Z; rewrite bp by lia; reflexivity).
  assert (B0 : 0 < / 2 ^ 60 < 1) by lra. pose proof T_bounds as T.
  assert (F : binary64 (- bpow radix2 (-60))) by (apply fmt_opp; replace (bpow radix2 (-60)) with (IZR 1 * bpow radix2 (-60)) by ring; apply fmt_F2R; lia).
  split; [exact F|split; [rewrite B; lra|]]. unfold twopify64.
  assert (Q : Zfloor (rnd (- bpow radix2 (-60) / TWO_PI64)) = (-1)%Z).
  { apply Zfloor_imp. split.
    - rewrite <- (rnd_id (IZR (-1))); [|apply (fmt_opp 1), fmt_1]. apply rnd_le. rewrite B. unfold Rdiv. rewrite <- Ropp_mult_distr_l.
      assert (/ 2 ^ 60 * / TWO_PI64 <= 1); [|lra]. apply Rmult_le_reg_r with TWO_PI64; [lra|]. rewrite Rmult_assoc, Rinv_l by lra. lra.
    - simpl (IZR (-1 + 1)). apply Rle_lt_trans with (- bpow radix2 (-63)).
      + rewrite <- (rnd_id (- bpow radix2 (-63))); [|apply fmt_opp; replace (bpow radix2 (-63)) with (IZR 1 * bpow radix2 (-63)) by ring; apply fmt_F2R; lia].
        apply rnd_le. unfold Rdiv. rewrite <- Ropp_mult_distr_l. apply Ropp_le_contravar. apply Rmult_le_reg_r with TWO_PI64; [lra|]. rewrite Rmult_assoc, Rinv_l by lra.
        replace (bpow radix2 (-63)) with (/ 2 ^ 63) by (change (-63)%Z with (- (63))%Z; rewrite bp by lia; reflexivity). rewrite B. lra.
      + pose proof (bpow_gt_0 radix2 (-63)). lra. }
  rewrite Q. replace (TWO_PI64 * -1) with (- TWO_PI64) by ring. rewrite (rnd_id (- TWO_PI64)) by apply fmt_opp, T_format.
  rewrite T_eq at 2. apply rnd_at; rewrite B; unfold TWO_PI64; [lra|]. rewrite Rabs_left; lra.
Qed.

(** ** The least negative double is returned unchanged *)
Theorem twopify_negative : exists a, binary64 a /\ -1 <= a <= 1 /\ twopify64 a < 0.
Proof.
  exists (- bpow radix2 (-1074)). pose proof T_bounds as T. pose proof (bpow_gt_0 radix2 (-1074)) as B0.
  assert (B1 : bpow radix2 (-1074) <= 1) by (change 1 with (bpow radix2 0); apply bpow_le; lia).
  assert (F : binary64 (- bpow radix2 (-1074))) by (apply fmt_opp; replace (bpow radix2 (-1074)) with (IZR 1 * bpow radix2 (-1074)) by ring; apply fmt_F2R; lia).
  split; [exact F|split; [lra|]]. unfold twopify64.
  assert (Q : rnd (- bpow radix2 (-1074) / TWO_PI64) = 0).
  { unfold rnd. apply round_N_small with (ex := (-1076)%Z); [|reflexivity]. unfold Rdiv. rewrite <- Ropp_mult_distr_l, Rabs_Ropp, Rabs_pos_eq by (apply Rmult_le_pos; [lra|left; apply Rinv_0_lt_compat; lra]).
    replace (bpow radix2 (-1076 - 1)) with (bpow radix2 (-1074) * / 8) by (change (-1076 - 1)%Z with (-1074 + - (3))%Z; rewrite bpow_plus, bp by lia; f_equal; f_equal; simpl; ring).
    replace (bpow radix2 (-1076)) with (bpow radix2 (-1074) * / 4) by (change (-1076)%Z with (-1074 + - (2))%Z; rewrite bpow_plus, bp by lia; f_equal; f_equal; simpl; ring).
    split; [apply Rmult_le_compat_l; [lra|]; apply Rinv_le_contravar; lra|apply Rmult_lt_compat_l; [lra|]; apply Rinv_lt_contravar; lra]. }
  rewrite Q, (Zfloor_IZR 0). rewrite Rmult_0_r, (rnd_id 0) by apply fmt_0. rewrite Rminus_0_r, (rnd_id _ F). lra.
Qed.

(** ** Angles of the first turn are returned unchanged *)
Theorem twopify_first a : binary64 a -> 0 <= a < TWO_PI64 -> twopify64 a = a.
Proof.
  intros F A. pose proof T_bounds as T.
  assert (L : a <= TWO_PI64 - / 2 ^ 50).
  { destruct (Rlt_dec a 4) as [|N]; [lra|]. unfold binary64, generic_format, F2R in F; cbn [Fnum Fexp] in F.
    assert (C : cexp radix2 fexp a = (-50)%Z) by (unfold cexp; rewrite (mag_unique radix2 a 3); [reflexivity|]; rewrite Rabs_pos_eq by lra; simpl; lra).
    rewrite C in F. set (m := Ztrunc _) in F. replace (bpow radix2 (-50)) with (/ 2 ^ 50) in F by (change (-50)%Z with (- (50))%Z; rewrite bp by lia; reflexivity).
    assert (ML : (m < 7074237752028440)%Z). { apply lt_IZR. unfold TWO_PI64 in A. apply Rmult_lt_reg_r with (/ 2 ^ 50); [lra|]. rewrite <- F. apply A. }
    assert (MI : IZR m <= 7074237752028439) by (apply IZR_le; lia). rewrite F. unfold TWO_PI64. lra. }
  assert (Q : Zfloor (rnd (a / TWO_PI64)) = 0%Z).
  { apply Zfloor_imp. split.
    - rewrite <- (rnd_id (IZR 0)) by apply fmt_0. apply rnd_le. apply Rmult_le_pos; [lra|left; apply Rinv_0_lt_compat; lra].
    - simpl (IZR (0 + 1)). apply Rle_lt_trans with (IZR 9007199254740991 * bpow radix2 (-53)).
      + rewrite <- (rnd_id (IZR 9007199254740991 * bpow radix2 (-53))) by (apply fmt_F2R; lia). apply rnd_le.
        apply Rmult_le_reg_r with TWO_PI64; [lra|]. unfold Rdiv. rewrite Rmult_assoc, Rinv_l by lra.
        replace (bpow radix2 (-53)) with (/ 2 ^ 53) by (change (-53)%Z with (- (53))%Z; rewrite bp by lia; reflexivity). unfold TWO_PI64 in *. lra.
      + replace (bpow radix2 (-53)) with (/ 2 ^ 53) by (change (-53)%Z with (- (53))%Z; rewrite bp by lia; reflexivity). lra. }
  unfold twopify64. rewrite Q, Rmult_0_r, (rnd_id 0) by apply fmt_0. rewrite Rminus_0_r. apply rnd_id, F.
Qed.

(** ** General bound *)
Lemma rnd_err x : Rabs (rnd x - x) <= / 2 ^ 53 * Rabs x + / 2 ^ 1000.
Proof.
  destruct (error_N_FLT radix2 (-1074) 53 ltac:(lia) (fun x => negb (Z.even x)) x) as (e & h & E & H & _ & R). unfold rnd. rewrite R. clear R.
  replace (x * (1 + e) + h - x) with (e * x + h) by ring. eapply Rle_trans; [apply Rabs_triang|]. rewrite Rabs_mult. apply Rplus_le_compat.
  - apply Rmult_le_compat_r; [apply Rabs_pos|]. eapply Rle_trans; [exact E|].
    change (- (53) + 1)%Z with (- (52))%Z. rewrite (bp 52) by lia. change (Z.to_nat 52) with 52%nat. lra.
  - eapply Rle_trans; [exact H|]. apply Rle_trans with (bpow radix2 (-1000)).
    + apply Rle_trans with (bpow radix2 (-1074)); [pose proof (bpow_gt_0 radix2 (-1074)); lra|apply bpow_le; lia].
    + change (-1000)%Z with (- (1000))%Z. rewrite bp by lia. apply Rle_refl.
Qed.

Lemma tiny : 0 <= / 2 ^ 1000 <= / 2 ^ 90.
Proof.
  split; [left; apply Rinv_0_lt_compat, pow_lt; lra|]. apply Rinv_le_contravar; [apply pow_lt; lra|]. apply Rle_pow; [lra|lia].
Qed.
Theorem twopify_range a : exists n : Z, Rabs (twopify64 a - (a - IZR n * TWO_PI64)) <= (Rabs a + 8) / 2 ^ 52 /\
  - ((Rabs a + 8) / 2 ^ 51) <= twopify64 a <= TWO_PI64 + (Rabs a + 8) / 2 ^ 51.
Proof.
  pose proof T_bounds as T. pose proof tiny as TN. set (t := / 2 ^ 1000) in *. unfold twopify64. set (q := rnd (a / TWO_PI64)). set (n := Zfloor q). set (p := rnd (TWO_PI64 * IZR n)).
  exists n. set (A := Rabs a). assert (A0 : 0 <= A) by apply Rabs_pos.
  assert (Q : Rabs (TWO_PI64 * q - a) <= / 2 ^ 53 * A + 7 * t).
  { pose proof (rnd_err (a / TWO_PI64)) as E. fold q t in E. replace (TWO_PI64 * q - a) with (TWO_PI64 * (q - a / TWO_PI64)) by (field; lra). rewrite Rabs_mult, (Rabs_pos_eq TWO_PI64) by lra.
    unfold Rdiv in E. rewrite Rabs_mult, (Rabs_pos_eq (/ TWO_PI64)) in E by (left; apply Rinv_0_lt_compat; lra). fold A in E.
    apply Rle_trans with (TWO_PI64 * (/ 2 ^ 53 * (A * / TWO_PI64) + t)); [apply Rmult_le_compat_l; [lra|exact E]|].
    replace (TWO_PI64 * (/ 2 ^ 53 * (A * / TWO_PI64) + t)) with (/ 2 ^ 53 * A + TWO_PI64 * t) by (field; lra).
    apply Rplus_le_compat_l, Rmult_le_compat_r; lra. }
  assert (N : TWO_PI64 * q - TWO_PI64 <= TWO_PI64 * IZR n <= TWO_PI64 * q).
  { pose proof (Zfloor_lb q) as L. pose proof (Zfloor_ub q) as U. fold n in L, U. split; [|apply Rmult_le_compat_l; lra].
    replace (TWO_PI64 * q - TWO_PI64) with (TWO_PI64 * (q - 1)) by ring. apply Rmult_le_compat_l; lra. }
  set (N0 := TWO_PI64 * IZR n) in *. set (Q0 := TWO_PI64 * q) in *.
  apply Rabs_le_inv in Q. pose proof (Rle_abs a) as A1. pose proof (Rle_abs (- a)) as A2. rewrite Rabs_Ropp in A2. fold A in A1, A2.
  assert (NA : Rabs N0 <= 2 * A + 8) by (apply Rabs_le; lra).
  pose proof (rnd_err N0) as EP. fold p t in EP. apply Rabs_le_inv in EP.
  assert (NB : / 2 ^ 53 * Rabs N0 <= / 2 ^ 53 * (A + / 2 ^ 53 * A + 15 / 2)).
  { apply Rmult_le_compat_l; [lra|]. apply Rabs_le. lra. }
  assert (AP : Rabs (a - p) <= 15 / 2 + / 2 ^ 50 * A) by (apply Rabs_le; lra).
  pose proof (rnd_err (a - p)) as ER. fold t in ER. apply Rabs_le_inv in ER.
  assert (NC : / 2 ^ 53 * Rabs (a - p) <= / 2 ^ 53 * (15 / 2 + / 2 ^ 50 * A)) by (apply Rmult_le_compat_l; lra).
  replace (IZR n * TWO_PI64) with N0 by (unfold N0; ring). set (res := rnd (a - p)) in *. clearbody res N0 Q0 p A t. split; [apply Rabs_le|]; lra.
Qed.

(** ** pify is exact *)
Lemma fmod_bounds a : - TWO_PI64 < fmod64 a TWO_PI64 < TWO_PI64.
Proof.
  pose proof T_bounds as T. unfold fmod64. set (x := a / TWO_PI64). replace a with (x * TWO_PI64) by (unfold x; field; lra).
  assert (B : -1 < x - IZR (Ztrunc x) < 1).
  { unfold Ztrunc. destruct (Rlt_bool_spec x 0) as [X|X]; [pose proof (Zceil_ub x); pose proof (Zceil_lb x)|pose proof (Zfloor_lb x); pose proof (Zfloor_ub x)]; lra. }
  replace (x * TWO_PI64 - IZR (Ztrunc x) * TWO_PI64) with ((x - IZR (Ztrunc x)) * TWO_PI64) by ring. split.
  - replace (- TWO_PI64) with (-1 * TWO_PI64) by ring. apply Rmult_lt_compat_r; lra.
  - rewrite <- (Rmult_1_l TWO_PI64) at 2. apply Rmult_lt_compat_r; lra.
Qed.
Lemma fmod_format a : binary64 a -> binary64 (fmod64 a TWO_PI64).
Proof.
  intros F. unfold fmod64. apply (format_REM radix2 fexp Ztrunc); [typeclasses eauto| |exact F|exact T_format].
  intros H. unfold Ztrunc. apply Rabs_lt_inv in H. destruct (Rlt_bool_spec (a / TWO_PI64) 0) as [X|X]; [apply Zceil_imp; simpl; lra|apply Zfloor_imp; simpl; lra].
Qed.
Theorem pify_exact a : binary64 a -> binary64 (pify64 a) /\ - PI64 <= pify64 a <= PI64 /\ exists n : Z, pify64 a = a - IZR n * TWO_PI64.
Proof.
  intros F. pose proof T_bounds as T. pose proof T_two as T2. pose proof (fmod_bounds a) as B. pose proof (fmod_format a F) as FM. unfold pify64. cbv zeta. set (z := Ztrunc (a / TWO_PI64)).
  assert (E : fmod64 a TWO_PI64 = a - IZR z * TWO_PI64) by reflexivity. set (v := fmod64 a TWO_PI64) in *. destruct (Rlt_dec v (- PI64)) as [L|L].
  - rewrite rnd_id; [split; [|split; [lra|exists (z - 1)%Z; rewrite minus_IZR, E; ring]]|]; (replace (v + TWO_PI64) with (TWO_PI64 - - v) by ring; apply sterbenz; [typeclasses eauto|typeclasses eauto|exact T_format|apply fmt_opp, FM|lra]).
  - destruct (Rlt_dec PI64 v) as [G|G].
    + rewrite rnd_id; [split; [|split; [lra|exists (z + 1)%Z; rewrite plus_IZR, E; ring]]|]; (apply sterbenz; [typeclasses eauto|typeclasses eauto|exact FM|exact T_format|lra]).
    + split; [exact FM|split; [lra|exists z; exact E]].
Qed.

Lemma fmt_int z : (Z.abs z < 2 ^ 53)%Z -> binary64 (IZR z).
Proof. intros H. replace (IZR z) with (IZR z * bpow radix2 0) by (simpl; ring). apply fmt_F2R; [exact H|lia]. Qed.
Lemma twopify_case : binary64 6 /\ 0 <= 6 < TWO_PI64 /\ twopify64 6 = 6.
Proof. pose proof T_bounds. assert (F : binary64 6) by (apply fmt_int; lia). split; [exact F|split; [lra|apply twopify_first; [exact F|lra]]]. Qed.
Lemma pify_case : binary64 4 /\ pify64 4 = 4 - TWO_PI64.
Proof.
  assert (F : binary64 4) by (apply fmt_int; lia). split; [exact F|]. pose proof T_bounds as T. pose proof T_two as T2. unfold pify64, fmod64. cbv zeta.
  assert (Z : Ztrunc (4 / TWO_PI64) = 0%Z).
  { unfold Ztrunc. assert (0 < 4 / TWO_PI64) by (apply Rdiv_lt_0_compat; lra). assert (4 / TWO_PI64 < 1) by (apply Rmult_lt_reg_r with TWO_PI64; [lra|]; unfold Rdiv; rewrite Rmult_assoc, Rinv_l by lra; lra).
    destruct (Rlt_bool_spec (4 / TWO_PI64) 0) as [X|X]; [lra|apply Zfloor_imp; simpl; lra]. }
  rewrite Z, Rmult_0_l, Rminus_0_r. destruct (Rlt_dec 4 (- PI64)); [lra|]. destruct (Rlt_dec PI64 4); [|lra]. apply rnd_id. apply sterbenz; [typeclasses eauto|typeclasses eauto|exact F|exact T_format|lra].
Qed.

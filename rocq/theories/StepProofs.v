(** * Step lengths in double precision: proofs *)
From Coq Require Import Reals ZArith List Lra Lia Psatz.
From Flocq Require Import Core Relative Plus_error.
From Coquelicot Require Rcomplements.
From Verif Require Import ModelFloat ModelStep FloatProofs.
Import ListNotations.
Open Scope R_scope.

#[local] Instance prec_pos' : Prec_gt_0 53.
Proof. unfold Prec_gt_0. lia. Qed.

Definition u64 : R := / 2 ^ 53.
Lemma u64_pos : 0 < u64 < 1 / 1000000.
Proof. unfold u64. split; [apply Rinv_0_lt_compat, pow_lt; lra|lra]. Qed.

Lemma plus_err x y : binary64 x -> binary64 y -> Rabs (rnd (x + y) - (x + y)) <= u64 * Rabs (x + y).
Proof.
  intros X Y. destruct (FLT_plus_error_N_ex radix2 (-1074) 53 (fun x => negb (Z.even x)) x y X Y) as (e & E & R).
  unfold rnd. rewrite R. replace ((x + y) * (1 + e) - (x + y)) with (e * (x + y)) by ring.
  rewrite Rabs_mult. apply Rmult_le_compat_r; [apply Rabs_pos|]. eapply Rle_trans; [exact E|].
  unfold u_ro. change (- (53) + 1)%Z with (- (52))%Z. rewrite (bp 52) by lia. change (Z.to_nat 52) with 52%nat.
  replace (/ 2 * / 2 ^ 52) with u64 by (unfold u64; lra). pose proof u64_pos.
  apply Rcomplements.Rle_div_l; nra.
Qed.
Lemma minus_err x y : binary64 x -> binary64 y -> Rabs (rnd (x - y) - (x - y)) <= u64 * Rabs (x - y).
Proof. intros X Y. apply plus_err; [assumption|apply fmt_opp; assumption]. Qed.

Definition sum (l : list R) : R := fold_right Rplus 0 l.

Section Loop.
  Variables L d : R.
  Hypothesis fL : binary64 L.
  Hypothesis fd : binary64 d.
  Hypothesis L0 : 0 <= L.
  Hypothesis d0 : 0 < d.

  (** One iteration: the new value of s_seg and the step. *)
  Definition next (s : R) : R := if Rlt_dec L (rnd (s + d)) then L else rnd (s + d).
  Definition step (s : R) : R := if Rlt_dec L (rnd (s + d)) then rnd (d - rnd (rnd (s + d) - L)) else d.

  Lemma steps_S n s : steps64 (S n) L d s = step s :: steps64 n L d (next s).
  Proof. cbn [steps64]. unfold step, next. destruct (Rlt_dec _ _); reflexivity. Qed.

  Lemma next_ok s : binary64 s -> 0 <= s <= L -> binary64 (next s) /\ 0 <= next s <= L.
  Proof.
    intros F S. unfold next. destruct (Rlt_dec _ _) as [H|H]; [split; [assumption|lra]|].
    split; [apply rnd_format|]. split; [|lra]. rewrite <- (rnd_id 0 fmt_0). apply rnd_le. lra.
  Qed.

  (** The step is the increase of s_seg up to the rounding errors. *)
  Lemma step_err s : binary64 s -> 0 <= s <= L -> Rabs (step s - (next s - s)) <= 4 * u64 * (L + d).
  Proof.
    intros F S. pose proof u64_pos as U. pose proof (plus_err s d F fd) as E1. rewrite (Rabs_pos_eq (s + d)) in E1 by lra.
    assert (B : u64 * (s + d) <= u64 * (L + d)) by (apply Rmult_le_compat_l; lra).
    assert (B0 : 0 <= u64 * (L + d)) by (apply Rmult_le_pos; lra).
    unfold step, next. set (s1 := rnd (s + d)) in *. apply Rcomplements.Rabs_le_between in E1.
    destruct (Rlt_dec L s1) as [H|H].
    - pose proof (minus_err s1 L (rnd_format _) fL) as E2. rewrite (Rabs_pos_eq (s1 - L)) in E2 by lra.
      set (w := rnd (s1 - L)) in *. pose proof (minus_err d w fd (rnd_format _)) as E3.
      set (z := rnd (d - w)) in *.
      assert (W0 : s1 - L <= d + u64 * (L + d)) by lra.
      assert (W1 : u64 * (s1 - L) <= u64 * (d + u64 * (L + d))) by (apply Rmult_le_compat_l; lra).
      assert (W2 : u64 * (u64 * (L + d)) <= / 1000000 * (u64 * (L + d))) by (apply Rmult_le_compat_r; lra).
      assert (W3 : u64 * d <= u64 * (L + d)) by (apply Rmult_le_compat_l; lra).
      apply Rcomplements.Rabs_le_between in E2.
      assert (W : 0 <= w <= 2 * d + L).
      { split; [unfold w; rewrite <- (rnd_id 0 fmt_0); apply rnd_le; lra|].
        assert (u64 * (L + d) <= / 1000000 * (L + d)) by (apply Rmult_le_compat_r; lra). lra. }
      assert (DW : Rabs (d - w) <= L + d) by (apply Rcomplements.Rabs_le_between; lra).
      assert (W4 : u64 * Rabs (d - w) <= u64 * (L + d)) by (apply Rmult_le_compat_l; lra).
      apply Rcomplements.Rabs_le_between in E3. apply Rcomplements.Rabs_le_between. lra.
    - apply Rcomplements.Rabs_le_between. lra.
  Qed.

  Lemma step_le s : step s <= d.
  Proof.
    unfold step. destruct (Rlt_dec _ _) as [H|H]; [|lra].
    rewrite <- (rnd_id d fd) at 3. apply rnd_le.
    assert (0 <= rnd (rnd (s + d) - L)) by (rewrite <- (rnd_id 0 fmt_0); apply rnd_le; lra). lra.
  Qed.

  Lemma next_ge s : binary64 s -> 0 <= s <= L -> s <= next s.
  Proof.
    intros F S. unfold next. destruct (Rlt_dec _ _); [lra|]. rewrite <- (rnd_id s F) at 1. apply rnd_le. lra.
  Qed.
  Lemma step_ge s : binary64 s -> 0 <= s <= L -> - (4 * u64 * (L + d)) <= step s.
  Proof. intros F S. pose proof (step_err s F S) as E. pose proof (next_ge s F S). apply Rcomplements.Rabs_le_between in E. lra. Qed.

  Fixpoint last_s (n : nat) (s : R) : R := match n with O => s | S n => last_s n (next s) end.

  Lemma sum_err n : forall s, binary64 s -> 0 <= s <= L ->
    Rabs (sum (steps64 n L d s) - (last_s n s - s)) <= INR n * (4 * u64 * (L + d)).
  Proof.
    induction n as [|n IH]; intros s F S; [cbn [steps64 sum fold_right last_s]; rewrite Rabs_right; simpl; lra|].
    rewrite steps_S. unfold sum in *. cbn [fold_right last_s]. destruct (next_ok s F S) as [F' S']. specialize (IH _ F' S').
    pose proof (step_err s F S) as E. rewrite S_INR.
    apply Rcomplements.Rabs_le_between in E. apply Rcomplements.Rabs_le_between in IH. apply Rcomplements.Rabs_le_between. lra.
  Qed.

  Lemma at_end n : last_s n L = L.
  Proof.
    induction n as [|n IH]; [reflexivity|]. cbn [last_s].
    replace (next L) with L; [assumption|]. unfold next. destruct (Rlt_dec _ _) as [H|H]; [reflexivity|].
    apply Rle_antisym; [|lra]. rewrite <- (rnd_id L fL) at 1. apply rnd_le. lra.
  Qed.

  Lemma last_ge n : forall s, binary64 s -> 0 <= s <= L ->
    last_s n s = L \/ s + INR n * d - INR n * (u64 * (L + d)) <= last_s n s <= L.
  Proof.
    induction n as [|n IH]; intros s F S; [right; simpl; lra|].
    cbn [last_s]. rewrite S_INR. destruct (next_ok s F S) as [F' S']. specialize (IH _ F' S').
    pose proof u64_pos as U. pose proof (plus_err s d F fd) as E1. rewrite (Rabs_pos_eq (s + d)) in E1 by lra.
    apply Rcomplements.Rabs_le_between in E1.
    assert (B : u64 * (s + d) <= u64 * (L + d)) by (apply Rmult_le_compat_l; lra).
    unfold next in *. destruct (Rlt_dec L _) as [H|H]; [left; apply at_end|].
    destruct IH as [IH|IH]; [left; assumption|right; lra].
  Qed.

  Lemma steps_length n s : length (steps64 n L d s) = n.
  Proof. revert s. induction n as [|n IH]; intros s; [reflexivity|]. rewrite steps_S. cbn [length]. rewrite IH. reflexivity. Qed.

  Lemma steps_all n : forall s, binary64 s -> 0 <= s <= L ->
    Forall (fun a => - (4 * u64 * (L + d)) <= a <= d) (steps64 n L d s).
  Proof.
    induction n as [|n IH]; intros s F S; [constructor|]. rewrite steps_S. destruct (next_ok s F S) as [F' S'].
    constructor; [split; [apply step_ge; assumption|apply step_le]|apply IH; assumption].
  Qed.

  Lemma ratio0 : 0 <= rnd (L / d).
  Proof. rewrite <- (rnd_id 0 fmt_0). apply rnd_le. apply Rcomplements.Rdiv_le_0_compat; lra. Qed.

  Lemma steps_number : L * (1 - u64) - d / 2 ^ 90 <= INR (length (integration_steps64 L d)) * d.
  Proof.
    unfold integration_steps64. rewrite steps_length.
    pose proof ratio0 as R0. pose proof (rnd_err (L / d)) as E. pose proof tiny as T.
    assert (Q : 0 <= L / d) by (apply Rcomplements.Rdiv_le_0_compat; lra).
    rewrite (Rabs_pos_eq (L / d)) in E by assumption. fold u64 in E.
    pose proof (Zceil_ub (rnd (L / d))) as C. set (n := Zceil (rnd (L / d))) in *.
    assert (N : (0 <= n)%Z) by (apply le_IZR; lra).
    rewrite INR_IZR_INZ, Z2Nat.id by assumption.
    assert (B : L / d * (1 - u64) - / 2 ^ 90 <= IZR n).
    { apply Rcomplements.Rabs_le_between in E. lra. }
    apply Rmult_le_compat_r with (r := d) in B; [|lra].
    replace (L * (1 - u64)) with (L / d * (1 - u64) * d) by (field; lra). unfold Rdiv at 2. lra.
  Qed.

  Lemma steps_sum : Rabs (sum (integration_steps64 L d) - L) <=
    (INR (length (integration_steps64 L d)) + 1) * ((L + d) / 2 ^ 50).
  Proof.
    pose proof steps_number as N. revert N. unfold integration_steps64. rewrite steps_length.
    set (n := Z.to_nat _). intros N.
    pose proof (sum_err n 0 fmt_0 ltac:(lra)) as S. pose proof (last_ge n 0 fmt_0 ltac:(lra)) as G.
    rewrite Rminus_0_r in S. apply Rcomplements.Rabs_le_between in S. apply Rcomplements.Rabs_le_between.
    pose proof u64_pos as U. pose proof (pos_INR n) as P.
    assert (K : (L + d) / 2 ^ 50 = 8 * (u64 * (L + d))) by (unfold u64; field).
    rewrite K. set (e := u64 * (L + d)) in *. replace (4 * u64 * (L + d)) with (4 * e) in S by (unfold e; ring).
    assert (E0 : 0 <= e) by (apply Rmult_le_pos; lra).
    assert (NE : 0 <= INR n * e) by (apply Rmult_le_pos; lra).
    assert (D : d / 2 ^ 90 <= e).
    { unfold e. assert (X : d / 2 ^ 90 <= d * u64) by (unfold Rdiv; apply Rmult_le_compat_l; [lra|unfold u64; lra]).
      assert (0 <= L * u64) by (apply Rmult_le_pos; lra). lra. }
    assert (LU : L * u64 <= e) by (unfold e; assert (0 <= d * u64) by (apply Rmult_le_pos; lra); lra).
    destruct G as [G|G]; lra.
  Qed.
End Loop.

(** ** A step backwards *)
Lemma rnd_tie x m : 4 <= x < 8 -> x * 2 ^ 50 = IZR m + 1 / 2 -> Z.even m = false -> rnd x = IZR (m + 1) * bpow radix2 (-50).
Proof.
  intros X M V. unfold rnd, round, F2R; cbn [Fnum Fexp]. assert (C : cexp radix2 (FLT_exp (-1074) 53) x = (-50)%Z).
  { unfold cexp. rewrite (mag_unique radix2 x 3); [reflexivity|]. rewrite Rabs_pos_eq by lra. simpl. lra. }
  rewrite C. f_equal. f_equal. unfold scaled_mantissa. rewrite C.
  replace (bpow radix2 (- -50)) with (2 ^ 50) by (change (- -50)%Z with 50%Z; simpl; lra). rewrite M.
  unfold Znearest. assert (FL : Zfloor (IZR m + 1 / 2) = m) by (apply Zfloor_imp; rewrite plus_IZR; lra). rewrite FL.
  rewrite Rcompare_Eq by lra. rewrite V. cbn [negb].
  apply Zceil_imp. rewrite plus_IZR. replace (m + 1 - 1)%Z with m by ring. lra.
Qed.

(** The doubles next to 0.98 and 4.9. *)
Definition d98 : R := IZR 8827055269646172 * bpow radix2 (-53).
Definition L49 : R := IZR 5516909543528858 * bpow radix2 (-50).
Lemma b53 : bpow radix2 (-53) = / 2 ^ 53. Proof. change (-53)%Z with (- (53))%Z. apply bp. lia. Qed.
Lemma b50 : bpow radix2 (-50) = / 2 ^ 50. Proof. change (-50)%Z with (- (50))%Z. apply bp. lia. Qed.
Lemma b51 : bpow radix2 (-51) = / 2 ^ 51. Proof. change (-51)%Z with (- (51))%Z. apply bp. lia. Qed.
Lemma d98_fmt : binary64 d98. Proof. apply fmt_F2R; lia. Qed.
Lemma L49_fmt : binary64 L49. Proof. apply fmt_F2R; lia. Qed.

Lemma fmt_is m e x : (Z.abs m < 2 ^ 53)%Z -> (-1074 <= e)%Z -> x = IZR m * bpow radix2 e -> rnd x = x.
Proof. intros M E ->. apply rnd_id, fmt_F2R; assumption. Qed.

Lemma steps_98 : integration_steps64 L49 d98 = [d98; d98; d98; d98; d98; - bpow radix2 (-51)].
Proof.
  assert (N : Zceil (rnd (L49 / d98)) = 6%Z).
  { assert (Q : L49 / d98 = 5 + IZR 4 / IZR 8827055269646172).
    { unfold L49, d98. rewrite b50, b53. field. }
    rewrite (rnd_at _ 5629499534213121).
    - rewrite b50. apply Zceil_imp. split; simpl; lra.
    - rewrite Q. lra.
    - rewrite Q. apply Rcomplements.Rabs_lt_between. lra. }
  unfold integration_steps64. rewrite N. change (Z.to_nat 6) with 6%nat. cbn [steps64].
  assert (S1 : rnd (0 + d98) = d98) by (rewrite Rplus_0_l; apply rnd_id, d98_fmt).
  assert (S2 : rnd (d98 + d98) = d98 + d98).
  { apply (fmt_is 8827055269646172 (-52)); [lia|lia|]. unfold d98. change (-52)%Z with (- (52))%Z. rewrite (bp 52), b53 by lia. change (Z.to_nat 52) with 52%nat. field. }
  assert (S3 : rnd (d98 + d98 + d98) = d98 + d98 + d98).
  { apply (fmt_is (3 * 2206763817411543) (-51)); [lia|lia|]. unfold d98. rewrite b51, b53, mult_IZR. field. }
  assert (S4 : rnd (d98 + d98 + d98 + d98) = d98 + d98 + d98 + d98).
  { apply (fmt_is 8827055269646172 (-51)); [lia|lia|]. unfold d98. rewrite b51, b53. field. }
  assert (S5 : rnd (d98 + d98 + d98 + d98 + d98) = L49).
  { rewrite (rnd_tie _ 5516909543528857); [reflexivity| | |reflexivity]; unfold d98; rewrite b53; lra. }
  assert (S6 : rnd (L49 + d98) = IZR 6620291452234630 * bpow radix2 (-50)).
  { rewrite (rnd_tie _ 6620291452234629); [reflexivity| | |reflexivity]; unfold d98, L49; rewrite b53, b50; lra. }
  assert (D : IZR 6620291452234630 * bpow radix2 (-50) - L49 = IZR 8827055269646176 * bpow radix2 (-53)).
  { unfold L49. rewrite b50, b53. lra. }
  rewrite S1, S2, S3, S4, S5, S6.
  do 5 (destruct (Rlt_dec _ _) as [H|H]; [exfalso; revert H; unfold L49, d98; rewrite ?b50, ?b53; lra|clear H]).
  destruct (Rlt_dec _ _) as [_|H]; [|exfalso; apply H; unfold L49; rewrite b50; lra].
  rewrite D, (rnd_id (IZR _ * _)) by (apply fmt_F2R; lia).
  replace (d98 - IZR 8827055269646176 * bpow radix2 (-53)) with (- bpow radix2 (-51)) by (unfold d98; rewrite b51, b53; lra).
  rewrite (rnd_id (- _)); [reflexivity|]. replace (- bpow radix2 (-51)) with (IZR (-1) * bpow radix2 (-51)) by (rewrite b51; lra).
  apply fmt_F2R; lia.
Qed.

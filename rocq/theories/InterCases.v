(** * The bookkeeping of interpolate in double precision: cases *)
From Coq Require Import Reals ZArith List Lra Lia.
From Flocq Require Import Core.
From Verif Require Import ModelFloat ModelStep ModelInter FloatProofs StepProofs InterProofs.
Import ListNotations.
Open Scope R_scope.

Lemma bpn n : (0 <= n)%Z -> bpow radix2 (- n) = / 2 ^ Z.to_nat n.
Proof. apply bp. Qed.
Lemma one_fmt : binary64 1.
Proof. replace 1 with (IZR 1 * bpow radix2 0) by (simpl; lra). apply fmt_F2R; lia. Qed.

(** Two controls, the second of 3/4 of the distance from 1 to the next double. *)
Definition tail54 : R := 3 * / 2 ^ 54.
Definition before1 : R := 1 - / 2 ^ 52.
Lemma tail54_fmt : binary64 tail54.
Proof. unfold tail54. replace (3 * / 2 ^ 54) with (IZR 3 * bpow radix2 (- (54))); [apply fmt_F2R; lia|]. rewrite bpn by lia. change (Z.to_nat 54) with 54%nat. lra. Qed.
Lemma before1_fmt : binary64 before1.
Proof. unfold before1. replace (1 - / 2 ^ 52) with (IZR 4503599627370495 * bpow radix2 (- (52))); [apply fmt_F2R; lia|]. rewrite bpn by lia. change (Z.to_nat 52) with 52%nat. lra. Qed.

Lemma rnd_near1 x m : 1 <= x < 2 -> Rabs (x * 2 ^ 52 - IZR m) < 1 / 2 -> rnd x = IZR m * / 2 ^ 52.
Proof.
  intros X M. unfold rnd, round, F2R; cbn [Fnum Fexp]. assert (C : cexp radix2 (FLT_exp (-1074) 53) x = (-52)%Z).
  { unfold cexp. rewrite (mag_unique radix2 x 1); [reflexivity|]. rewrite Rabs_pos_eq by lra. simpl. lra. }
  rewrite C. change (-52)%Z with (- (52))%Z. rewrite (bpn 52) by lia. change (Z.to_nat 52) with 52%nat. f_equal. f_equal. unfold scaled_mantissa. rewrite C.
  replace (bpow radix2 (- -52)) with (2 ^ 52) by (change (- -52)%Z with 52%Z; simpl; lra). apply Znearest_imp. lra.
Qed.
Lemma rnd_below1 x m : 1 / 2 <= x < 1 -> Rabs (x * 2 ^ 53 - IZR m) < 1 / 2 -> rnd x = IZR m * / 2 ^ 53.
Proof.
  intros X M. unfold rnd, round, F2R; cbn [Fnum Fexp]. assert (C : cexp radix2 (FLT_exp (-1074) 53) x = (-53)%Z).
  { unfold cexp. rewrite (mag_unique radix2 x 0); [reflexivity|]. rewrite Rabs_pos_eq by lra. simpl. lra. }
  rewrite C. change (-53)%Z with (- (53))%Z. rewrite (bpn 53) by lia. change (Z.to_nat 53) with 53%nat. f_equal. f_equal. unfold scaled_mantissa. rewrite C.
  replace (bpow radix2 (- -53)) with (2 ^ 53) by (change (- -53)%Z with 53%Z; simpl; lra). apply Znearest_imp. lra.
Qed.

Lemma negative_part : interpolate64 before1 [1; tail54] = [1; - / 2 ^ 54].
Proof.
  assert (P2 : path_length64 0 [1; tail54] = 4503599627370497 * / 2 ^ 52).
  { cbn [path_length64]. rewrite Rplus_0_l, (rnd_id 1 one_fmt). apply (rnd_near1 _ 4503599627370497); unfold tail54; [lra|]. unfold Rabs; destruct (Rcase_abs _); lra. }
  unfold interpolate64, inter_length64. rewrite P2. destruct (Rlt_dec 1 before1) as [B|_]; [unfold before1 in B; lra|].
  assert (SI : rnd (before1 * (4503599627370497 * / 2 ^ 52)) = 1).
  { rewrite (rnd_below1 _ 9007199254740992); [lra| |]; unfold before1; [lra|]. unfold Rabs; destruct (Rcase_abs _); lra. }
  rewrite SI. cbn [driven64]. rewrite Rplus_0_l, (rnd_id 1 one_fmt). destruct (Rlt_dec 1 1); [lra|]. f_equal.
  replace (rnd (1 + tail54)) with (4503599627370497 * / 2 ^ 52).
  2: { symmetry. apply (rnd_near1 _ 4503599627370497); unfold tail54; [lra|]. unfold Rabs; destruct (Rcase_abs _); lra. }
  destruct (Rlt_dec 1 _) as [_|B]; [|exfalso; lra]. f_equal.
  assert (W : rnd (4503599627370497 * / 2 ^ 52 - 1) = / 2 ^ 52).
  { apply eq_trans with (4503599627370497 * / 2 ^ 52 - 1); [|lra]. apply (fmt_is 1 (- (52))); [lia|lia|]. rewrite bpn by lia. change (Z.to_nat 52) with 52%nat. lra. }
  rewrite W. unfold tail54. apply eq_trans with (3 * / 2 ^ 54 - / 2 ^ 52); [|lra]. apply (fmt_is (-1) (- (54))); [lia|lia|]. rewrite bpn by lia. change (Z.to_nat 54) with 54%nat. lra.
Qed.

Lemma part_refuted : exists t ls a, binary64 t /\ 0 < t < 1 /\ lengths64 ls /\ In a (interpolate64 t ls) /\ a < 0.
Proof.
  exists before1, [1; tail54], (- / 2 ^ 54). split; [apply before1_fmt|]. split; [unfold before1; lra|]. split.
  { repeat constructor; [apply one_fmt|lra|apply tail54_fmt|unfold tail54; lra]. }
  rewrite negative_part. split; [right; left; reflexivity|lra].
Qed.

(** Half of two controls of lengths 1 and 2, in steps of 1. *)
Lemma inter_case : lengths64 [1; 2] /\ INR (length [1; 2]) <= 2 ^ 50 /\ interpolate64 (1 / 2) [1; 2] = [1; 1 / 2].
Proof.
  assert (F2 : binary64 2) by (replace 2 with (IZR 2 * bpow radix2 0) by (simpl; lra); apply fmt_F2R; lia).
  split; [repeat constructor; [apply one_fmt|lra|exact F2|lra]|]. split; [simpl; lra|].
  assert (R3 : rnd (1 + 2) = 3) by (apply eq_trans with (1 + 2); [|lra]; apply (fmt_is 3 0); [lia|lia|simpl; lra]).
  unfold interpolate64, inter_length64. cbn [path_length64 driven64]. rewrite Rplus_0_l, (rnd_id 1 one_fmt), R3. destruct (Rlt_dec 1 (1 / 2)); [lra|].
  assert (SI : rnd (1 / 2 * 3) = 3 / 2) by (apply eq_trans with (1 / 2 * 3); [|lra]; apply (fmt_is 3 (-1)); [lia|lia|simpl; lra]).
  rewrite SI. destruct (Rlt_dec (3 / 2) 1); [lra|]. destruct (Rlt_dec (3 / 2) 3); [|lra]. f_equal. f_equal.
  assert (W : rnd (3 - 3 / 2) = 3 / 2) by (apply eq_trans with (3 - 3 / 2); [|lra]; apply (fmt_is 3 (-1)); [lia|lia|simpl; lra]).
  rewrite W. apply eq_trans with (2 - 3 / 2); [|lra]. apply (fmt_is 1 (-1)); [lia|lia|simpl; lra].
Qed.

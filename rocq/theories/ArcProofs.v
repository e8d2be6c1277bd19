(** * One step of integrate in double precision: proofs *)
From Coq Require Import Reals ZArith List Lra Lia Psatz.
From Flocq Require Import Core.
From Coquelicot Require Import Rcomplements.
From Verif Require Import Base ModelUtil SpecPath ModelIntegrate ModelFloat ModelStep ModelArc FresAcc FloatProofs StepProofs.
Import ListNotations.
Open Scope R_scope.

Definition tiny64 : R := / 2 ^ 1000.
Lemma tiny_u : 0 <= tiny64 <= u64 / 10 ^ 9.
Proof.
  unfold tiny64, u64. destruct tiny as [T0 T1]. split; [exact T0|]. eapply Rle_trans; [exact T1|]. 
  apply (Rmult_le_reg_l (2 ^ 90)); [apply pow_lt; lra|]. rewrite Rinv_r by (apply pow_nonzero; lra). lra.
Qed.
Lemma mult_err x : Rabs (rnd x - x) <= u64 * Rabs x + tiny64.
Proof. apply rnd_err. Qed.

Lemma rnd_sign e x : e = 1 \/ e = -1 -> binary64 x -> rnd (e * x) = e * x.
Proof. intros [->| ->] F; apply rnd_id; [rewrite Rmult_1_l; exact F|replace (-1 * x) with (- x) by ring; apply fmt_opp; exact F]. Qed.

(** The heading before it is normalised. *)
Definition phi64 (th k e h : R) : R := rnd (th + rnd (e * h * k)).
Lemma phi_same th k e h : e = 1 \/ e = -1 -> binary64 k -> binary64 h ->
  rnd (th + rnd (rnd (e * h) * k)) = phi64 th k e h /\ rnd (th + rnd (rnd (k * e) * h)) = phi64 th k e h.
Proof.
  intros E K H. unfold phi64. rewrite (rnd_sign e h E H). rewrite (Rmult_comm k e), (rnd_sign e k E K). split; [reflexivity|].
  replace (e * k * h) with (e * h * k) by ring. reflexivity.
Qed.
Lemma phi_err th k e h : e = 1 \/ e = -1 -> binary64 th -> Rabs th <= 4 -> Rabs (h * k) <= 100 ->
  Rabs (phi64 th k e h - (th + e * h * k)) <= u64 * (5 + 3 * Rabs (h * k)).
Proof.
  intros E T T4 A. unfold phi64. pose proof u64_pos as U. pose proof tiny_u as TI.
  assert (AE : Rabs (e * h * k) = Rabs (h * k)) by (destruct E as [->| ->]; [f_equal; ring|replace (-1 * h * k) with (- (h * k)) by ring; apply Rabs_Ropp]).
  pose proof (mult_err (e * h * k)) as M. rewrite AE in M. set (p := rnd (e * h * k)) in *. pose proof (plus_err th p T (rnd_format _)) as P.
  set (a := Rabs (h * k)) in *. assert (A0 : 0 <= a) by apply Rabs_pos. assert (UA : u64 * a <= u64 * 100) by (apply Rmult_le_compat_l; lra). assert (UA0 : 0 <= u64 * a) by (apply Rmult_le_pos; lra).
  assert (PB : Rabs p <= a + 1).
  { replace p with ((p - e * h * k) + e * h * k) by ring. eapply Rle_trans; [apply Rabs_triang|]. rewrite AE. fold a. lra. }
  assert (SB : Rabs (th + p) <= 4 + a + (u64 * a + tiny64)).
  { replace (th + p) with (th + (e * h * k + (p - e * h * k))) by ring. eapply Rle_trans; [apply Rabs_triang|]. 
    pose proof (Rabs_triang (e * h * k) (p - e * h * k)) as TR. rewrite AE in TR. fold a in TR. lra. }
  assert (SU : u64 * Rabs (th + p) <= u64 * (4 + a + (u64 * a + tiny64))) by (apply Rmult_le_compat_l; lra).
  assert (UU : u64 * (u64 * a) <= / 1000000 * (u64 * a)) by (apply Rmult_le_compat_r; lra).
  assert (UT : u64 * tiny64 <= 1 * tiny64) by (apply Rmult_le_compat_r; lra).
  replace (rnd (th + p) - (th + e * h * k)) with ((rnd (th + p) - (th + p)) + (p - e * h * k)) by ring.
  eapply Rle_trans; [apply Rabs_triang|]. lra.
Qed.

(** One coordinate of the end of an arc. *)
Lemma coord_err x k a A B S : binary64 x -> binary64 A -> binary64 B -> / 10 ^ 6 <= / Rabs k -> k <> 0 -> 0 <= a <= 100 ->
  Rabs (A + B - S) <= u64 * (9 + 3 * a) -> Rabs S <= 2 ->
  Rabs (rnd (x + rnd (rnd (1 / k) * rnd (A + B))) - (x + S / k)) <= u64 * (Rabs x + (26 + 3 * a) / Rabs k).
Proof.
  intros X FA FB K K0 A0 E S2. pose proof u64_pos as U. pose proof tiny_u as TI.
  set (r := / Rabs k) in *. assert (R0 : 0 < r) by (apply Rinv_0_lt_compat, Rabs_pos_lt; exact K0).
  assert (RI : Rabs (1 / k) = r) by (unfold Rdiv; rewrite Rmult_1_l, Rabs_inv; reflexivity).
  assert (UR : u64 * / 10 ^ 6 <= u64 * r) by (apply Rmult_le_compat_l; lra).
  assert (TR : tiny64 <= u64 * r / 1000) by lra.
  pose proof (plus_err A B FA FB) as P. set (D := rnd (A + B)) in *.
  assert (AB : Rabs (A + B) <= 2 + u64 * (9 + 3 * a)). { replace (A + B) with ((A + B - S) + S) by ring. eapply Rle_trans; [apply Rabs_triang|]. lra. }
  assert (UA : u64 * a <= u64 * 100) by (apply Rmult_le_compat_l; lra). assert (UA0 : 0 <= u64 * a) by (apply Rmult_le_pos; lra).
  assert (AB3 : u64 * Rabs (A + B) <= u64 * (2 + / 10)) by (apply Rmult_le_compat_l; lra).
  assert (DS : Rabs (D - S) <= u64 * (12 + 3 * a)). { replace (D - S) with ((D - (A + B)) + (A + B - S)) by ring. eapply Rle_trans; [apply Rabs_triang|]. lra. }
  assert (DB : Rabs D <= 2 + / 5). { replace D with ((D - S) + S) by ring. eapply Rle_trans; [apply Rabs_triang|]. lra. }
  pose proof (mult_err (1 / k)) as M. rewrite RI in M. set (q := rnd (1 / k)) in *.
  assert (Q : Rabs (q - 1 / k) <= 2 * (u64 * r)) by lra.
  assert (QB : Rabs q <= r * (1 + / 100)). { replace q with ((q - 1 / k) + 1 / k) by ring. eapply Rle_trans; [apply Rabs_triang|]. rewrite RI. assert (u64 * r <= / 1000000 * r) by (apply Rmult_le_compat_r; lra). lra. }
  assert (PR : Rabs (q * D - S / k) <= u64 * r * (17 + 3 * a)).
  { replace (q * D - S / k) with ((q - 1 / k) * D + 1 / k * (D - S)) by (field; exact K0). eapply Rle_trans; [apply Rabs_triang|]. rewrite !Rabs_mult, RI.
    assert (Rabs (q - 1 / k) * Rabs D <= 2 * (u64 * r) * (2 + / 5)) by (apply Rmult_le_compat; try apply Rabs_pos; assumption).
    assert (r * Rabs (D - S) <= r * (u64 * (12 + 3 * a))) by (apply Rmult_le_compat_l; lra).
    assert (0 <= u64 * r) by (apply Rmult_le_pos; lra). lra. }
  pose proof (mult_err (q * D)) as M2. set (z := rnd (q * D)) in *.
  assert (QD : Rabs (q * D) <= r * (2 + / 2)). { rewrite Rabs_mult. assert (Rabs q * Rabs D <= r * (1 + / 100) * (2 + / 5)) by (apply Rmult_le_compat; try apply Rabs_pos; assumption). lra. }
  assert (UQ : u64 * Rabs (q * D) <= u64 * (r * (2 + / 2))) by (apply Rmult_le_compat_l; lra).
  assert (ZS : Rabs (z - S / k) <= u64 * r * (20 + 3 * a)). { replace (z - S / k) with ((z - q * D) + (q * D - S / k)) by ring. eapply Rle_trans; [apply Rabs_triang|]. lra. }
  assert (ZB : Rabs z <= 3 * r). { replace z with ((z - q * D) + q * D) by ring. eapply Rle_trans; [apply Rabs_triang|]. assert (u64 * r <= / 1000000 * r) by (apply Rmult_le_compat_r; lra). lra. }
  pose proof (plus_err x z X (rnd_format _)) as P2.
  assert (XZ : u64 * Rabs (x + z) <= u64 * (Rabs x + 3 * r)) by (apply Rmult_le_compat_l; [lra|]; pose proof (Rabs_triang x z); lra).
  replace (rnd (x + z) - (x + S / k)) with ((rnd (x + z) - (x + z)) + (z - S / k)) by ring.
  eapply Rle_trans; [apply Rabs_triang|]. unfold Rdiv. fold r. assert (0 <= u64 * r) by (apply Rmult_le_pos; lra). lra.
Qed.

Lemma line_err x h e c C : binary64 x -> binary64 h -> binary64 c -> e = 1 \/ e = -1 -> Rabs (c - C) <= 2 * u64 -> Rabs C <= 1 ->
  Rabs (rnd (x + rnd (rnd (e * h) * c)) - (x + e * h * C)) <= u64 * (Rabs x + 5 * Rabs h + 1).
Proof.
  intros X H FC E CC C1. pose proof u64_pos as U. pose proof tiny_u as TI. rewrite (rnd_sign e h E H).
  assert (AE : Rabs (e * h) = Rabs h) by (destruct E as [->| ->]; [f_equal; ring|replace (-1 * h) with (- h) by ring; apply Rabs_Ropp]).
  pose proof (mult_err (e * h * c)) as M. rewrite Rabs_mult, AE in M. set (b := rnd (e * h * c)) in *.
  assert (CB : Rabs c <= 1 + / 100). { replace c with ((c - C) + C) by ring. eapply Rle_trans; [apply Rabs_triang|]. lra. }
  assert (H0 : 0 <= Rabs h) by apply Rabs_pos. assert (UH : 0 <= u64 * Rabs h) by (apply Rmult_le_pos; lra).
  assert (HC : Rabs h * Rabs c <= Rabs h * (1 + / 100)) by (apply Rmult_le_compat_l; assumption).
  assert (UHC : u64 * (Rabs h * Rabs c) <= u64 * (Rabs h * (1 + / 100))) by (apply Rmult_le_compat_l; lra).
  assert (BE : Rabs (b - e * h * C) <= u64 * (3 * Rabs h + / 50 * Rabs h) + tiny64).
  { replace (b - e * h * C) with ((b - e * h * c) + e * h * (c - C)) by ring. eapply Rle_trans; [apply Rabs_triang|]. rewrite (Rabs_mult (e * h)), AE.
    assert (Rabs h * Rabs (c - C) <= Rabs h * (2 * u64)) by (apply Rmult_le_compat_l; assumption). lra. }
  assert (BB : Rabs b <= Rabs h * (1 + / 50) + tiny64). { replace b with ((b - e * h * c) + e * h * c) by ring. eapply Rle_trans; [apply Rabs_triang|]. rewrite (Rabs_mult (e * h) c), AE. assert (u64 * Rabs h <= / 1000000 * Rabs h) by (apply Rmult_le_compat_r; lra). lra. }
  pose proof (plus_err x b X (rnd_format _)) as P.
  assert (XB : u64 * Rabs (x + b) <= u64 * (Rabs x + (Rabs h * (1 + / 50) + tiny64))) by (apply Rmult_le_compat_l; [lra|]; pose proof (Rabs_triang x b); lra).
  assert (UT : u64 * tiny64 <= 1 * tiny64) by (apply Rmult_le_compat_r; lra).
  replace (rnd (x + b) - (x + e * h * C)) with ((rnd (x + b) - (x + b)) + (b - e * h * C)) by ring.
  eapply Rle_trans; [apply Rabs_triang|]. lra.
Qed.

(** The double 2 pi. *)
Lemma two_pi_err : Rabs (2 * PI - TWO_PI64) <= 3 * u64.
Proof. pose proof PI_bounds as B. unfold TWO_PI64, u64. apply Rabs_le_between. split; lra. Qed.

Lemma pify_err th : binary64 th -> exists n : Z, Rabs (pify64 th - (th - 2 * PI * IZR n)) <= u64 * (4 + Rabs th) /\ Rabs (pify64 th) <= 4.
Proof.
  intros F. destruct (pify_exact th F) as (_ & B & n & E). exists n. pose proof u64_pos as U. pose proof two_pi_err as TP. pose proof T_bounds as TB. pose proof T_two as T2.
  split; [|apply Rabs_le_between; lra].
  rewrite E. replace (th - IZR n * TWO_PI64 - (th - 2 * PI * IZR n)) with (IZR n * (2 * PI - TWO_PI64)) by ring. rewrite Rabs_mult.
  assert (N : Rabs (IZR n) * 3 <= Rabs th + 4).
  { assert (Rabs (IZR n) * TWO_PI64 <= Rabs th + 4).
    { rewrite <- (Rabs_pos_eq TWO_PI64) by lra. rewrite <- Rabs_mult. replace (IZR n * TWO_PI64) with (th - pify64 th) by lra. unfold Rminus. eapply Rle_trans; [apply Rabs_triang|]. rewrite Rabs_Ropp. assert (Rabs (pify64 th) <= 4) by (apply Rabs_le_between; lra). lra. }
    pose proof (Rabs_pos (IZR n)). nra. }
  eapply Rle_trans; [apply Rmult_le_compat_l; [apply Rabs_pos|exact TP]|].
  assert (u64 * (Rabs (IZR n) * 3) <= u64 * (Rabs th + 4)) by (apply Rmult_le_compat_l; lra). lra.
Qed.

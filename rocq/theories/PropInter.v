(** * Property C77: interpolate in double precision *)
From Coq Require Import Reals ZArith List.
From Verif Require Import ModelFloat ModelStep ModelInter InterProofs InterCases.
Import ListNotations.
Open Scope R_scope.

(** For t = 1 (and beyond) all controls are driven, exactly: interpolate ends where integrate ends. *)
Theorem C77_end (ls : list R) (t : R) : Forall (fun a => binary64 a /\ 0 <= a) ls -> 1 <= t -> interpolate64 t ls = ls.
Proof. exact (fun L => interpolate_full ls L t). Qed.
Print Assumptions C77_end.

(** The driven length is the fraction t of the length of the path, up to rounding errors, *)
Theorem C77_fraction (ls : list R) (t : R) : Forall (fun a => binary64 a /\ 0 <= a) ls -> INR (length ls) <= 2 ^ 50 -> 0 < t ->
  Rabs (fold_right Rplus 0 (interpolate64 t ls) - Rmin t 1 * fold_right Rplus 0 ls) <=
    (2 * INR (length ls) + 3) * (fold_right Rplus 0 ls / 2 ^ 51) + / 2 ^ 1000.
Proof. exact (fun L N => interpolate_sum ls L N t). Qed.
Print Assumptions C77_fraction.

(** and so is the sum of the steps that are made. *)
Theorem C77_steps (ls : list R) (t d : R) : Forall (fun a => binary64 a /\ 0 <= a) ls -> INR (length ls) <= 2 ^ 50 -> binary64 d -> 0 < d -> 0 < t ->
  Rabs (fold_right Rplus 0 (interpolate_steps64 t d ls) - Rmin t 1 * fold_right Rplus 0 ls) <=
    (INR (length (interpolate_steps64 t d ls)) + 2 * INR (length ls) + 5) * ((fold_right Rplus 0 ls + d) / 2 ^ 50) + / 2 ^ 1000.
Proof. exact (interpolate_steps_sum t d ls). Qed.
Print Assumptions C77_steps.

(** The driven length never decreases with t, in no control and without any tolerance. *)
Theorem C77_monotone (ls : list R) (t t' : R) (i : nat) (x : R) : Forall (fun a => binary64 a /\ 0 <= a) ls -> 0 < t <= t' ->
  nth_error (interpolate64 t ls) i = Some x -> exists x', nth_error (interpolate64 t' ls) i = Some x' /\ x <= x'.
Proof. exact (fun L => interpolate_mono ls L t t' i x). Qed.
Print Assumptions C77_monotone.

(** The controls before the last one are driven completely, the last one not beyond its end. The full statement is
    [0 <= a' <= a]; the length of the last part can be negative by a rounding error, *)
Theorem C77_parts_partial (ls : list R) (t : R) : Forall (fun a => binary64 a /\ 0 <= a) ls -> INR (length ls) <= 2 ^ 50 -> 0 < t ->
  interpolate64 t ls = ls \/
  exists l a a' r, ls = l ++ a :: r /\ interpolate64 t ls = l ++ [a'] /\ binary64 a' /\ - (fold_right Rplus 0 ls / 2 ^ 49) <= a' <= a.
Proof. exact (fun L N => interpolate_parts ls L N t). Qed.
Print Assumptions C77_parts_partial.

Theorem C77_parts_refuted : exists t ls a, binary64 t /\ 0 < t < 1 /\ Forall (fun a => binary64 a /\ 0 <= a) ls /\ In a (interpolate64 t ls) /\ a < 0.
Proof. exact part_refuted. Qed.
Print Assumptions C77_parts_refuted.

(** in which case no step is made. *)
Theorem C77_no_step (a d : R) : a <= 0 -> 0 < d -> integration_steps64 a d = [].
Proof. exact (steps_none a d). Qed.
Print Assumptions C77_no_step.

(** Half of two controls of lengths 1 and 2. *)
Example C77_case : Forall (fun a => binary64 a /\ 0 <= a) [1; 2] /\ INR (length [1; 2]) <= 2 ^ 50 /\ interpolate64 (1 / 2) [1; 2] = [1; 1 / 2].
Proof. exact inter_case. Qed.

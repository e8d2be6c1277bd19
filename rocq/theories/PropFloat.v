(** * Properties of the angle normalisation in double precision *)
From Coq Require Import Reals ZArith.
From Verif Require Import ModelFloat FloatProofs.
Open Scope R_scope.

(** The full statement of C51, "twopify64 a < TWO_PI64 for every double", is refuted by a small negative
    angle; the least negative double is even returned unchanged. *)
Theorem C51_twopify_refuted : exists a, binary64 a /\ -1 <= a <= 1 /\ twopify64 a = TWO_PI64.
Proof. exact twopify_top. Qed.
Print Assumptions C51_twopify_refuted.

Theorem C51_twopify_negative_refuted : exists a, binary64 a /\ -1 <= a <= 1 /\ twopify64 a < 0.
Proof. exact twopify_negative. Qed.
Print Assumptions C51_twopify_negative_refuted.

Theorem C51_twopify_first_turn_partial (a : R) : binary64 a -> 0 <= a < TWO_PI64 -> twopify64 a = a.
Proof. exact (twopify_first a). Qed.
Print Assumptions C51_twopify_first_turn_partial.

(** What holds for every argument: the range and the congruence up to an error proportional to the argument. *)
Theorem C51_twopify_range_partial (a : R) : exists n : Z,
  Rabs (twopify64 a - (a - IZR n * TWO_PI64)) <= (Rabs a + 8) / 2 ^ 52 /\
  - ((Rabs a + 8) / 2 ^ 51) <= twopify64 a <= TWO_PI64 + (Rabs a + 8) / 2 ^ 51.
Proof. exact (twopify_range a). Qed.
Print Assumptions C51_twopify_range_partial.

Example C51_case : binary64 6 /\ 0 <= 6 < TWO_PI64 /\ twopify64 6 = 6.
Proof. exact twopify_case. Qed.

Theorem C55_pify_exact (a : R) : binary64 a ->
  binary64 (pify64 a) /\ - PI64 <= pify64 a <= PI64 /\ exists n : Z, pify64 a = a - IZR n * TWO_PI64.
Proof. exact (pify_exact a). Qed.
Print Assumptions C55_pify_exact.

Example C55_case : binary64 4 /\ pify64 4 = 4 - TWO_PI64.
Proof. exact pify_case. Qed.

(** * Property C73: the step lengths of integrate in double precision *)
From Coq Require Import Reals ZArith List.
From Verif Require Import Base ModelUtil SpecPath ModelFloat ModelStep StepProofs StepEnd.
Import ListNotations.
Open Scope R_scope.

(** The steps add up to the length of the control, up to the rounding errors of the loop, *)
Theorem C73_steps_add_up (L d : R) : binary64 L -> binary64 d -> 0 <= L -> 0 < d ->
  Rabs (fold_right Rplus 0 (integration_steps64 L d) - L) <=
    (INR (length (integration_steps64 L d)) + 1) * ((L + d) / 2 ^ 50).
Proof. exact (steps_sum L d). Qed.
Print Assumptions C73_steps_add_up.

(** their number is the quotient rounded up, up to the rounding error of the division, *)
Theorem C73_number_of_steps (L d : R) : binary64 L -> binary64 d -> 0 <= L -> 0 < d ->
  L / d * (1 - / 2 ^ 53) - / 2 ^ 90 <= INR (length (integration_steps64 L d)) < L / d * (1 + / 2 ^ 53) + / 2 ^ 90 + 1.
Proof. exact (steps_count L d). Qed.
Print Assumptions C73_number_of_steps.

(** no step is longer than the discretization. The full statement is [0 <= a <= d]; a step can be
    negative by a rounding error. *)
Theorem C73_step_length_partial (L d a : R) : binary64 L -> binary64 d -> 0 <= L -> 0 < d ->
  In a (integration_steps64 L d) -> - ((L + d) / 2 ^ 51) <= a <= d.
Proof. exact (steps_range L d a). Qed.
Print Assumptions C73_step_length_partial.

(** With the discretization 0.98 the last of the steps of a control of length 4.9 goes backwards. *)
Theorem C73_step_length_refuted : exists L d, binary64 L /\ binary64 d /\ 0 < d < L /\ L < 5 /\
  exists a, In a (integration_steps64 L d) /\ a < 0.
Proof. exact steps_negative. Qed.
Print Assumptions C73_step_length_refuted.

(** An exact motion along these steps ends where the motion along the control ends. *)
Theorem C73_end_of_the_steps (q : State) (k e L d : R) :
  binary64 L -> binary64 d -> 0 < L -> 0 < d -> e = 1 \/ e = -1 -> integration_steps64 L d <> [] ->
  pos_dist (drive_all q (map (fun a => mkControl (e * a) k 0) (integration_steps64 L d))) (drive q (mkControl (e * L) k 0))
    <= (INR (length (integration_steps64 L d)) + 1) * ((L + d) / 2 ^ 50) /\
  Rabs (st_theta (drive_all q (map (fun a => mkControl (e * a) k 0) (integration_steps64 L d))) -
        st_theta (drive q (mkControl (e * L) k 0)))
    <= Rabs k * ((INR (length (integration_steps64 L d)) + 1) * ((L + d) / 2 ^ 50)).
Proof. exact (steps_end q k e L d). Qed.
Print Assumptions C73_end_of_the_steps.

Example C73_case : binary64 L49 /\ binary64 d98 /\ 0 < L49 /\ 0 < d98 /\ integration_steps64 L49 d98 <> [] /\
  length (integration_steps64 L49 d98) = 6%nat.
Proof. exact steps_case. Qed.

(** * Properties of the Fresnel approximation (C07) *)
From Coq Require Import Reals.
From Verif Require Import Base ModelUtil ModelFresnel SpecFresnel FresFinal.
Open Scope R_scope.

(** C07: over all real arguments the approximation is within 2e-15 of the Fresnel integrals. *)
Theorem C07_fresnel_accuracy (s S_f C_f : R) : fresnel s = (S_f, C_f) ->
  Rabs (S_f - FresnelS s) <= 2 / 10 ^ 15 /\ Rabs (C_f - FresnelC s) <= 2 / 10 ^ 15.
Proof. exact (accuracy_pair s S_f C_f). Qed.
Print Assumptions C07_fresnel_accuracy.

(** Both branches occur, and the integrals are not trivial: the two arguments below lie on
    either side of the border, and the value at 1 is bounded away from 0. *)
Example C07_case :
  PI / 2 * 1 ^ 2 <= 8 < PI / 2 * 4 ^ 2 /\ 3 / 4 < FresnelC 1 /\ 74 / 100 < snd (fresnel 1).
Proof. exact accuracy_case. Qed.

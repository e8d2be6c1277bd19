(** * Distances returned by the planners compared with the Euclidean distance *)
From Coq Require Import Reals ZArith List Lra.
From Verif Require Import Base ModelUtil ModelDubins ModelRS Num SpecPath DubinsProofs DubinsPlan DubinsOpt DubinsCases
  RSProofs RSPlan RSSelect RSOpt.
Import ListNotations.
Open Scope R_scope.

Lemma rs_euclid kappa s1 s2 : 0 < kappa -> kappa * pos_dist s1 s2 <= 10 ^ 299 ->
  pos_dist s1 s2 <= rs_distance kappa s1 s2.
Proof.
  intros K B. rewrite rs_distance_length by exact K. apply drive_all_total. apply rs_reach_goal; assumption.
Qed.

Lemma dubins_euclid kappa fwd s1 s2 : 0 < kappa -> kappa * pos_dist s1 s2 <= 10 ^ 300 ->
  pos_dist s1 s2 - 1 / 500000 / kappa <= dubins_distance kappa fwd s1 s2.
Proof.
  intros K B. rewrite dubins_distance_length by exact K.
  pose proof (dubins_controls_reach kappa fwd s1 s2 K B) as H. cbv zeta in H. destruct H as (H & _).
  set (cs := dubins_get_controls kappa fwd s1 s2) in *.
  pose proof (pos_dist_triangle s1 (drive_all s1 cs) s2) as T.
  assert (D : pos_dist s1 (drive_all s1 cs) <= total_length cs).
  { apply drive_all_total. repeat split; auto. apply ang_eq_refl. }
  lra.
Qed.

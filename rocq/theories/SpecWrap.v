(** * What the spaces for states of any curvature have to achieve *)
From Coq Require Import Reals ZArith List.
From Verif Require Import Base ModelUtil ModelCircle SpecPath SpecTurn SpecPlan SpecSide.
Import ListNotations.
Open Scope R_scope.

(** Bound on the position error: that of the planned part, the displacement and the rotation by two controls
    that are dropped because they are not longer than the library tolerance, and the error of the Fresnel
    integrals in the two predictions. *)
Definition wrap_error (k s n g : R) (cs : list Control) : R :=
  plan_error k s n g cs + 2 * epsilon + k * epsilon * total_length cs + 2 * (sqrt (PI / s) * (12 / 10 ^ 15)).

(** Bound on the difference between the length of the controls and the distance. *)
Definition length_gap (k s : R) : R := epsilon * (1 + 6 * p_radius (hc_cc_param k s) + 1 / k).

(** Curvatures closer than this are treated as equal. *)
Definition kappa_gap (s : R) : R := (1 + s) * epsilon.

(** The controls lead from [s1] to [s2] within the bounds. *)
Definition connects (k s n g : R) (s1 s2 : State) (cs : list Control) : Prop :=
  pos_dist (true_path s1 cs) s2 <= wrap_error k s n g cs /\
  heading_within ((n + 2 * k) * epsilon) (true_path s1 cs) s2 /\
  List.Forall (within_bounds (k * sharp k s g) (s * sharp k s g ^ 2)) cs.

(** The curvature is continuous from about [ka] to about [kb]. *)
Definition continuous_curvature (s ka : R) (cs : list Control) (kb : R) : Prop :=
  exists k0 k1, Rabs (k0 - ka) <= kappa_gap s /\ Rabs (k1 - kb) <= kappa_gap s /\ curvature_chain k0 cs k1.

(** The path consists of at most one clothoid, a part whose curvature is continuous except where the
    driving direction changes, and at most one more clothoid, without jumps of the curvature between them. *)
Definition hybrid_curvature (s ka : R) (cs : list Control) (kb : R) : Prop :=
  exists pre mid post k0 k1, cs = pre ++ mid ++ post /\ hybrid k0 mid k1 /\
    (pre = [] /\ Rabs (k0 - ka) <= kappa_gap s \/ exists c, pre = [c] /\ curvature_chain ka pre k0) /\
    (post = [] /\ Rabs (k1 - kb) <= kappa_gap s \/ exists c, post = [c] /\ curvature_chain k1 post kb).

(** The condition under which the planner for the curvatures of [q1] and [q2] reaches the goal. *)
Definition clear_pair (k s : R) (q1 q2 : State) : Prop :=
  (Rabs (st_kappa q1) < epsilon -> epsilon <= Rabs (st_kappa q2) -> clear_0pm k s q1 q2) /\
  (epsilon <= Rabs (st_kappa q1) -> Rabs (st_kappa q2) < epsilon -> clear_pm0 k s q1 q2) /\
  (epsilon <= Rabs (st_kappa q1) -> epsilon <= Rabs (st_kappa q2) -> clear_pmpm k q1 q2).

(** A prediction: the control [c] leads from the state [st] to the state [q] of curvature 0 or +-k. *)
Definition leads (k s : R) (st : State) (c : Control) (q : State) : Prop :=
  ct_kappa c = st_kappa st /\ within_bounds k s c /\
  (st_kappa q = 0 \/ st_kappa q = sgn (st_kappa st) * k) /\
  (let st' := true_path st [c] in
   pos_dist st' q <= sqrt (PI / s) * (12 / 10 ^ 15) /\ heading_within 0 st' q /\ st_kappa st' = st_kappa q) /\
  (let st' := true_path q [reverse_control c] in
   pos_dist st' st <= sqrt (PI / s) * (12 / 10 ^ 15) /\ heading_within 0 st' st /\ st_kappa st' = st_kappa st).

(** Of four statements, the one for the curvatures of [q1] and [q2]: both zero, zero and nonzero, nonzero and
    zero, both nonzero. *)
Definition by_curvature (q1 q2 : State) (P00 P0pm Ppm0 Ppmpm : Prop) : Prop :=
  (Rabs (st_kappa q1) < epsilon -> Rabs (st_kappa q2) < epsilon -> P00) /\
  (Rabs (st_kappa q1) < epsilon -> epsilon <= Rabs (st_kappa q2) -> P0pm) /\
  (epsilon <= Rabs (st_kappa q1) -> Rabs (st_kappa q2) < epsilon -> Ppm0) /\
  (epsilon <= Rabs (st_kappa q1) -> epsilon <= Rabs (st_kappa q2) -> Ppmpm).

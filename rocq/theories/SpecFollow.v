(** * What it means for sampled states to follow the controls *)
From Coq Require Import Reals ZArith List.
From Verif Require Import Base ModelUtil ModelIntegrate SpecPath SpecCloth SpecTurn.
Import ListNotations.
Open Scope R_scope.

(** The first [u] metres of a control. *)
Definition part (c : Control) (u : R) : Control := mkControl (sgn (ct_delta_s c) * u) (ct_kappa c) (ct_sigma c).

(** [q] is the state of the exact motion along [cs] after the length [a]. *)
Definition true_at (s : State) (cs : list Control) (a : R) (q : State) : Prop :=
  exists n c u, nth_error cs n = Some c /\ 0 <= u <= Rabs (ct_delta_s c) /\ a = total_length (firstn n cs) + u /\
    q = true_path s (firstn n cs ++ [part c u]).

(** A motion whose curvature is wrong by at most 2 e at the start of every control and whose sharpness is wrong
    by at most e misses heading and position after the length [a] by no more than this. *)
Definition turn_drift (e a : R) : R := e * (2 * a + a ^ 2 / 2).
Definition path_drift (e a : R) : R := e * (a ^ 2 + a ^ 3 / 6).

(** The last state of the path is the goal up to [e] in position and [h] in heading. *)
Definition arrives (e h : R) (goal : State) (path : list State) : Prop :=
  exists q, nth_error path (length path - 1) = Some q /\ pos_dist q goal <= e /\ heading_within h q goal.

(** For every discretization the path integrated along the controls is defined as long as the number of states fits
    in an int, and it arrives at the goal. *)
Definition sampled_to (e h : R) (start goal : State) (cs : list Control) : Prop :=
  forall disc, 0 < disc ->
    (total_length cs / disc + INR (length cs) + 3 <= 2147483647 -> exists path, hc_integrate disc start cs = Some path) /\
    forall path, hc_integrate disc start cs = Some path -> arrives e h goal path.

(** What integrate adds to the error of a plan. *)
Definition sample_error (cs : list Control) : R := path_drift epsilon (total_length cs) + fresnel_error cs.
Definition sample_turn (cs : list Control) : R := turn_drift epsilon (total_length cs).

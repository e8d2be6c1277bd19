(** * Vocabulary for the prediction step of the filter and for its run along a path *)
From Coq Require Import Reals List.
From Verif Require Import Base ModelUtil ModelEKF SpecEKF.
Import ListNotations.
Open Scope R_scope.

(** Variances of the errors of the two inputs, signed length and curvature, over a step of length h driven with
    curvature k: a*h^2 + b*k^2 with the noise factors of the input. *)
Definition input_variance (f : Filter) (k h : R) (i : nat) : R :=
  match i with O => alpha1 f * h ^ 2 + alpha2 f * k ^ 2 | _ => alpha3 f * h ^ 2 + alpha4 f * k ^ 2 end.

(** The controller: for a deviation e of the pose from a nominal pose of heading th, the length is corrected by
    gain 1 times the longitudinal deviation, the curvature by gain 2 times the lateral deviation and, with the
    sign of the driving direction d, gain 3 times the deviation of the heading. *)
Definition feedback (f : Filter) (th d : R) (e : nat -> R) (i : nat) : R :=
  match i with
  | O => k1 f * (cos th * e 0%nat + sin th * e 1%nat)
  | _ => k2 f * (- sin th * e 0%nat + cos th * e 1%nat) + d * k3 f * e 2%nat
  end.

(** Product of a 3x3 matrix with a vector. *)
Definition apply3 (A : nat -> nat -> R) (e : nat -> R) (i : nat) : R := sum3 (fun j => A i j * e j).

(** A S A^T *)
Definition spread (A S : nat -> nat -> R) (i j : nat) : R := sum3 (fun k => sum3 (fun l => A i k * S k l * A j l)).

(** G diag(q 0, q 1) G^T for a 3x2 matrix G. *)
Definition spread2 (G : nat -> nat -> R) (q : nat -> R) (i j : nat) : R :=
  G i 0%nat * q 0%nat * G j 0%nat + G i 1%nat * q 1%nat * G j 1%nat.

(** The linear map F is the matrix of the closed loop: deviations spread by F and are corrected by the controller
    through G. *)
Definition closed_loop (f : Filter) (th d : R) (F G A : nat -> nat -> R) : Prop :=
  forall e i, (i < 3)%nat ->
    apply3 A e i = apply3 F e i - (G i 0%nat * feedback f th d e 0 + G i 1%nat * feedback f th d e 1).

(** One step of length h along the control c: the state moves along the control, its covariances go through one
    prediction and one update. [None]: not finite. *)
Definition filter_step (f : Filter) (ode : Control -> State -> R -> State) (c : Control) (h : R) (q q' : StateCov) : Prop :=
  sc_state q' = ode c (sc_state q) h /\
  match sc_cov q with
  | Some cov => sc_cov q' = update f (predict f (sc_state q) cov c h cov_zero) cov_zero
  | None => sc_cov q' = None
  end.

(** Steps of lengths hs from q along the control c. *)
Inductive filter_steps (f : Filter) (ode : Control -> State -> R -> State) (c : Control) :
  StateCov -> list R -> list StateCov -> Prop :=
| fs_nil : forall q, filter_steps f ode c q [] []
| fs_cons : forall q h hs q' l, filter_step f ode c h q q' -> filter_steps f ode c q' hs l ->
    filter_steps f ode c q (h :: hs) (q' :: l).

(** A new control begins: same pose and covariances. *)
Definition handed_over (q q' : StateCov) : Prop :=
  st_x (sc_state q') = st_x (sc_state q) /\ st_y (sc_state q') = st_y (sc_state q) /\
  st_theta (sc_state q') = st_theta (sc_state q) /\ sc_cov q' = sc_cov q.

(** The states of a path along controls, from q: for each control the state with which it begins (listed, or not
    if it is the state before), then steps of at most [disc] that add up to the length of the control. *)
Inductive filtered (f : Filter) (ode : Control -> State -> R -> State) (disc : R) :
  StateCov -> list Control -> list StateCov -> Prop :=
| fd_nil : forall q, filtered f ode disc q [] []
| fd_cons : forall q c cs q0 first hs block rest,
    handed_over q q0 -> (first = [q0] \/ first = [] /\ q0 = q) ->
    filter_steps f ode c q0 hs block -> (forall h, In h hs -> 0 < h <= disc) ->
    fold_right Rplus 0 hs = Rabs (ct_delta_s c) ->
    filtered f ode disc (last block q0) cs rest ->
    filtered f ode disc q (c :: cs) (first ++ block ++ rest).

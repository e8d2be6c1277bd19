(** * What it means for a state to lie on the path described by a list of controls

    Specification, independent of the loops of integrate/interpolate. *)
From Coq Require Import Reals ZArith List.
From Verif Require Import Base ModelUtil Num.
Import ListNotations.
Open Scope R_scope.

(** Equal position, heading modulo 2 pi and curvature. *)
Definition st_sim (a b : State) : Prop :=
  st_x a = st_x b /\ st_y a = st_y b /\ ang_eq (st_theta a) (st_theta b) /\ st_kappa a = st_kappa b.

(** Equal position and heading modulo 2 pi. *)
Definition same_pose (a b : State) : Prop :=
  st_x a = st_x b /\ st_y a = st_y b /\ ang_eq (st_theta a) (st_theta b).

(** Total arc length of a list of controls. *)
Definition total_length (cs : list Control) : R :=
  fold_right (fun c acc => Rabs (ct_delta_s c) + acc) 0 cs.

Section Path.
  (** [ode c s h] drives the distance [h] along control [c]; [enter c s] is the state [s] with the
      curvature it has when control [c] begins. *)
  Variable enter : Control -> State -> State.
  Variable ode : Control -> State -> R -> State.

  (** State after driving all controls, each of them in a single step. *)
  Definition state_after (s : State) (cs : list Control) : State :=
    fold_left (fun s c => ode c (enter c s) (Rabs (ct_delta_s c))) cs s.

  (** [q] is the state at arc length [sl] of the path that starts in [s]: it is reached by driving
      the first [k] controls completely and then [u] along control number [k]. *)
  Definition on_path (s : State) (cs : list Control) (sl : R) (q : State) : Prop :=
    exists k c u,
      nth_error cs k = Some c /\ 0 <= u <= Rabs (ct_delta_s c) /\
      sl = total_length (firstn k cs) + u /\
      st_sim q (ode c (enter c (state_after s (firstn k cs))) u).

  (** [ss] are the arc lengths at which the states of [path] lie on the path: from 0 to the total
      length, in steps between 0 and [disc], including every junction of two controls. *)
  Definition sampling (disc : R) (s : State) (cs : list Control) (path : list State) (ss : list R)
    : Prop :=
    length ss = length path /\
    nth_error ss 0 = Some 0 /\ last ss 0 = total_length cs /\
    (forall i a b, nth_error ss i = Some a -> nth_error ss (S i) = Some b -> 0 <= b - a <= disc) /\
    (forall k, In (total_length (firstn k cs)) ss) /\
    (forall i q a, nth_error path i = Some q -> nth_error ss i = Some a -> on_path s cs a q).

  (** [q] is the state at the fraction [t] of the total length. *)
  Definition interpolated (s : State) (cs : list Control) (t : R) (q : State) : Prop :=
    (1 <= t \/ total_length cs = 0 -> st_sim q (state_after s cs)) /\
    (t < 1 -> 0 < total_length cs -> on_path s cs (t * total_length cs) q).

  (** The curvature at the end of every control equals that of the next control or differs from
      it by more than [eps]. *)
  Definition no_small_jump (eps : R) (s : State) (cs : list Control) : Prop :=
    forall k c, nth_error cs k = Some c ->
      let kp := st_kappa (state_after s (firstn k cs)) in
      ct_kappa c = kp \/ eps < Rabs (ct_kappa c - kp).
End Path.


(** ** Exact motion along arcs and straight lines *)

(** State reached by driving the signed length [ct_delta_s c] with the constant curvature
    [ct_kappa c] (the exact solution of x' = cos theta, y' = sin theta, theta' = kappa). *)
Definition drive (s : State) (c : Control) : State :=
  let ds := ct_delta_s c in
  let k := ct_kappa c in
  let th := st_theta s in
  if Req_EM_T k 0 then
    mkState (st_x s + ds * cos th) (st_y s + ds * sin th) th k (sgn ds)
  else
    mkState (st_x s + (sin (th + k * ds) - sin th) / k)
            (st_y s + (cos th - cos (th + k * ds)) / k) (th + k * ds) k (sgn ds).

Definition drive_all (s : State) (cs : list Control) : State := fold_left drive cs s.

(** Distance between the positions of two states. *)
Definition pos_dist (a b : State) : R := sqrt ((st_x a - st_x b) ^ 2 + (st_y a - st_y b) ^ 2).

(** The headings differ by at most [e] modulo 2 pi. *)
Definition heading_within (e : R) (a b : State) : Prop :=
  exists k : Z, Rabs (st_theta a - st_theta b - 2 * PI * IZR k) <= e.

(** Curvatures of the three segments of a Dubins word; [b] is the length of the middle segment. *)
Definition dubins_word (kappa : R) (k1 k2 k3 b : R) : Prop :=
  (k1 = kappa \/ k1 = - kappa) /\ (k3 = kappa \/ k3 = - kappa) /\
  (k2 = 0 \/ k1 = k3 /\ k2 = - k1 /\ PI < kappa * b < 2 * PI).

(** Rotation by [rho] about the origin followed by the translation (u,v). *)
Definition rigid (u v rho : R) (s : State) : State :=
  mkState (u + (st_x s * cos rho - st_y s * sin rho)) (v + (st_x s * sin rho + st_y s * cos rho))
    (st_theta s + rho) (st_kappa s) (st_d s).

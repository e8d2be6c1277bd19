(** * What it means for controls to lead from one configuration to another *)
From Coq Require Import Reals ZArith List.
From Verif Require Import Base ModelUtil ModelFresnel ModelIntegrate ModelCircle Num SpecPath SpecCloth.
Import ListNotations.
Open Scope R_scope.

(** The exact motion: the solution of x' = cos theta, y' = sin theta, theta' = kappa, kappa' = sigma along the
    length |delta_s| in the direction sgn(delta_s), starting with the curvature of the control. *)
Definition true_move (s : State) (c : Control) : State :=
  let d := sgn (ct_delta_s c) in
  let h := Rabs (ct_delta_s c) in
  mkState (true_x (st_x s) (st_theta s) (ct_kappa c) (ct_sigma c) d h)
          (true_y (st_y s) (st_theta s) (ct_kappa c) (ct_sigma c) d h)
          (heading (st_theta s) (ct_kappa c) (ct_sigma c) d h) (ct_kappa c + ct_sigma c * h) d.
Definition true_path (s : State) (cs : list Control) : State := fold_left true_move cs s.

(** The same motion with the Fresnel integrals replaced by the library's approximations. *)
Definition lib_move (s : State) (c : Control) : State :=
  if Req_EM_T (ct_sigma c) 0 then drive s c
  else
    let '(x, y, th, k) :=
      end_of_clothoid (st_x s) (st_y s) (st_theta s) (ct_kappa c) (ct_sigma c)
        (sgn (ct_delta_s c)) (Rabs (ct_delta_s c)) in
    mkState x y th k (sgn (ct_delta_s c)).
Definition lib_path (s : State) (cs : list Control) : State := fold_left lib_move cs s.

(** A configuration as a state. *)
Definition st_of (q : Configuration) : State := mkState (q_x q) (q_y q) (q_theta q) (q_kappa q) 0.

(** The state [s] has the position of [q] up to [e] and the heading of [q] modulo 2 pi up to [h]. *)
Definition reaches (e h : R) (s : State) (q : Configuration) : Prop :=
  pos_dist s (st_of q) <= e /\ heading_within h s (st_of q).

(** [+1] for left turns (forward driving), [-1] for right turns (backward driving). *)
Definition sign (b : bool) : R := if b then 1 else -1.

(** Distance between the centre of [c] and the point (lx, ly) of the frame of [q]. *)
Definition centre_gap (c : Circle) (q : Configuration) (lx ly : R) : R :=
  let x := q_x q + lx * cos (q_theta q) - ly * sin (q_theta q) in
  let y := q_y q + lx * sin (q_theta q) + ly * cos (q_theta q) in
  sqrt ((x - c_xc c) ^ 2 + (y - c_yc c) ^ 2).

(** [q] is, up to [e], a configuration at which a cc-turn on [c] ends that started in the start
    configuration of [c]: the centre of the circle that starts in [q] with the same turning direction and the
    opposite driving direction is the centre of [c]. *)
Definition cc_tangent (e : R) (c : Circle) (q : Configuration) : Prop :=
  centre_gap c q (- sign (c_forward c) * (c_radius c * c_sin_mu c)) (sign (c_left c) * (c_radius c * c_cos_mu c)) <= e.

(** [q] lies, up to [e], on the arc of maximal curvature inside [c]. *)
Definition hc_tangent (e : R) (c : Circle) (q : Configuration) : Prop :=
  centre_gap c q 0 (1 / c_kappa c) <= e.

(** The curvature is continuous along the controls, starting with [k0]; [k1] is the curvature at the end. *)
Fixpoint curvature_chain (k0 : R) (cs : list Control) (k1 : R) : Prop :=
  match cs with
  | [] => k0 = k1
  | c :: cs => ct_kappa c = k0 /\ curvature_chain (ct_kappa c + ct_sigma c * Rabs (ct_delta_s c)) cs k1
  end.

(** Curvature and sharpness along [c] are bounded by [k] and [s]. *)
Definition within_bounds (k s : R) (c : Control) : Prop :=
  Rabs (ct_sigma c) <= s /\
  forall u, 0 <= u <= Rabs (ct_delta_s c) -> Rabs (ct_kappa c + ct_sigma c * u) <= k.

(** A cc-turn of a deflection below the library tolerance is driven straight, this is the heading it misses. *)
Definition cc_shortcut (c : Circle) (q : Configuration) : R :=
  if Rlt_dec (deflection c q) epsilon then deflection c q else 0.

(** Bound on the position error that the approximation of the Fresnel integrals causes along the controls:
    12e-15 times the length scale sqrt(pi/|sigma|) of every clothoid. *)
Definition fresnel_error (cs : list Control) : R :=
  fold_right (fun c acc => (if Req_EM_T (ct_sigma c) 0 then 0 else sqrt (PI / Rabs (ct_sigma c)) * (12 / 10 ^ 15)) + acc) 0 cs.

(** The constructor of the circle parameters neglects the clothoid when it is not longer than the library
    tolerance; this bounds the displacement of the centre that it causes. *)
Definition param_slack (k s : R) : R := if Rlt_dec epsilon (k / s) then 0 else 4 * (k / s).

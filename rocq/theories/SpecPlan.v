(** * What a planned path has to achieve *)
From Coq Require Import Reals ZArith List.
From Verif Require Import Base ModelUtil ModelCircle ModelPaths SpecPath SpecTurn.
Import ListNotations.
Open Scope R_scope.

(** Bound on the position error of a path of [n] pieces that fit up to [g]: each piece may end [g] beside
    the nominal point and start [g] beside it, the clothoid neglected by the circle parameters shifts it,
    every turn whose deflection is below the library tolerance is driven straight, and the Fresnel
    integrals are approximated. *)
Definition plan_error (k s n g : R) (cs : list Control) : R :=
  n * (2 * g + 2 * param_slack k s) +
  n * epsilon * (3 / 2 * p_radius (hc_cc_param k s) + total_length cs) + fresnel_error cs.

(** Factor by which curvature (and, squared, sharpness) may exceed the bounds: an elementary path is fitted
    through a chord of length at least the library tolerance whose ends are only known up to [g]. *)
Definition sharp (k s g : R) : R := (1 + 1 / 10 ^ 9) * (1 + (g + 2 * param_slack k s) / epsilon).

(** The controls [cs] lead from [s1] to [s2] in [n] pieces that fit up to [g], with the length [L]. *)
Definition drives (k s n g : R) (s1 s2 : State) (cs : list Control) (L : R) : Prop :=
  pos_dist (true_path s1 cs) s2 <= plan_error k s n g cs /\
  heading_within (n * epsilon) (true_path s1 cs) s2 /\
  Rabs (total_length cs - L) <= n * g + n * epsilon * p_radius (hc_cc_param k s) /\
  List.Forall (within_bounds (k * sharp k s g) (s * sharp k s g ^ 2)) cs.

(** Bound on the detour of a planned path. *)
Definition detour (k s : R) : R := 60 * (k / s + 1 / k).

(** The curvature is continuous along the controls except where the driving direction changes. [k0] and
    [d0] are curvature and direction before the controls, [k1] and [d1] those after them. Controls of zero
    length do not move the car. *)
Fixpoint hybrid_chain (k0 d0 : R) (cs : list Control) (d1 k1 : R) : Prop :=
  match cs with
  | [] => k0 = k1 \/ d0 * d1 < 0
  | c :: cs =>
      if Req_EM_T (ct_delta_s c) 0 then hybrid_chain k0 d0 cs d1 k1
      else (ct_kappa c = k0 \/ d0 * ct_delta_s c < 0) /\
           hybrid_chain (ct_kappa c + ct_sigma c * Rabs (ct_delta_s c)) (sgn (ct_delta_s c)) cs d1 k1
  end.
(** The first control starts with curvature [k0], the last one ends with [k1]; the directions before and
    after the controls are those of the first and the last control. *)
Definition hybrid (k0 : R) (cs : list Control) (k1 : R) : Prop :=
  exists c0 c1 cs1 cs2 d0 d1, cs = c0 :: cs1 /\ cs = cs2 ++ [c1] /\
    ct_kappa c0 = k0 /\ 0 <= d0 * ct_delta_s c0 /\
    ct_kappa c1 + ct_sigma c1 * Rabs (ct_delta_s c1) = k1 /\ 0 <= d1 * ct_delta_s c1 /\
    hybrid_chain k0 d0 cs d1 k1.

(** Number of pieces and size of the gaps for the path types of the Dubins planners: paths that are
    accepted by a comparison with the library tolerance miss the goal by that tolerance. *)
Definition dubins_pieces (t : cc_dubins_type) : R :=
  match t with D_E => 1 | D_S => 2 | D_T => 1 | D_TT => 2 | D_TST => 3 | D_TTT => 3 | D_TTTT => 4 end.
Definition dubins_gap (k s : R) (t : cc_dubins_type) : R :=
  match t with
  | D_E | D_TT => epsilon / 2
  | D_T => epsilon * (1 + p_radius (hc_cc_param k s) + 1 / k)
  | D_S | D_TST | D_TTT | D_TTTT => 0
  end.
(** The same for the Reeds-Shepp planners. *)
Definition rs_pieces (t : hc_cc_rs_type) : R :=
  match t with
  | RS_E | RS_T => 1
  | RS_S | RS_TT | RS_TcT => 2
  | RS_TcTcT | RS_TcTT | RS_TTcT | RS_TST | RS_TTT | RS_TcST | RS_TScT | RS_TcScT => 3
  | RS_TSTcT | RS_TcTST | RS_TTcTT | RS_TcTTcT => 4
  | RS_TcTSTcT => 5
  end.
Definition rs_gap (k s : R) (t : hc_cc_rs_type) : R :=
  match t with
  | RS_E | RS_TT | RS_TcT => epsilon / 2
  | RS_T => epsilon * (1 + p_radius (hc_cc_param k s) + 1 / k)
  | _ => 0
  end.
(** Two turns of the CC00 Reeds-Shepp planner that meet at a cusp within the library tolerance. *)
Definition cusp_gap (k s : R) : R :=
  let r := p_radius (hc_cc_param k s) in let e := epsilon * (r + epsilon) in
  epsilon / 2 + 2 * e / (r * p_sin_mu (hc_cc_param k s) + sqrt e).
Definition cc_rs_gap (k s : R) (t : hc_cc_rs_type) : R :=
  match t with RS_TcT => cusp_gap k s | _ => rs_gap k s t end.

(** A curvature with which a path may start or end in a state for which the planner expects the curvature
    bound: the bound with the sign of the curvature of the state, if it has one. *)
Definition bound_kappa (k : R) (q : State) (x : R) : Prop :=
  (x = k \/ x = - k) /\ (0 < st_kappa q -> x = k) /\ (st_kappa q < 0 -> x = - k).

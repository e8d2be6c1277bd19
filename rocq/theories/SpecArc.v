(** * Vocabulary for paths computed in double precision *)
From Coq Require Import Reals ZArith List.
From Verif Require Import Base ModelUtil SpecPath ModelFloat ModelStep ModelArc.
Import ListNotations.
Open Scope R_scope.

(** What is assumed of the functions sin and cos of the C library: doubles are mapped to doubles, with an error of at
    most two units in the last place of numbers just below 1. *)
Definition accurate64 (f f64 : R -> R) : Prop := forall x, binary64 x -> binary64 (f64 x) /\ Rabs (f64 x - f x) <= / 2 ^ 52.

(** A state of doubles with a heading of about the range that the library uses. *)
Definition double_state (s : State) : Prop :=
  binary64 (st_x s) /\ binary64 (st_y s) /\ binary64 (st_theta s) /\ Rabs (st_theta s) <= 4.

(** A control of doubles without change of the curvature: straight, or an arc that the code takes for an arc, with a
    curvature of at most [K] and a radius of at most [r]. *)
Definition double_control (K r : R) (c : Control) : Prop :=
  binary64 (ct_delta_s c) /\ binary64 (ct_kappa c) /\
  (ct_kappa c = 0 \/ epsilon64 < Rabs (ct_kappa c) /\ Rabs (ct_kappa c) <= K /\ / Rabs (ct_kappa c) <= r).

(** Both coordinates differ by at most [e] and the headings by at most [h] modulo 2 pi. *)
Definition within (e h : R) (a b : State) : Prop :=
  Rabs (st_x a - st_x b) <= e /\ Rabs (st_y a - st_y b) <= e /\ heading_within h a b.

(** Rounding errors of [n] steps of a total length of [w], with curvatures of at most [K] and radii of at most [r],
    from a start with coordinates of at most [m]. *)
Definition round_turn (K n w : R) : R := (14 * n + 4 * K * w) / 2 ^ 53.
Definition round_drift (m K r n w : R) : R := (n * (m + w + 26 * r + 2) + 5 * w) / 2 ^ 53 + w * round_turn K n w.

(** The exact motion along steps [(c, h)]: the length [h] in the direction and with the curvature of the control [c]. *)
Definition exact_steps (s : State) (l : list (Control * R)) : State :=
  drive_all s (map (fun p => mkControl (sgn (ct_delta_s (fst p)) * snd p) (ct_kappa (fst p)) 0) l).

(** The steps of the integration of a list of controls (C73). *)
Definition steps_of (disc : R) (cs : list Control) : list (Control * R) :=
  flat_map (fun c => map (pair c) (integration_steps64 (Rabs (ct_delta_s c)) disc)) cs.
Definition driven (l : list (Control * R)) : R := fold_right (fun p w => Rabs (snd p) + w) 0 l.

(** The exact path with the same steps: the start of every control and the states after its steps. *)
Fixpoint exact_way (s : State) (c : Control) (hs : list R) : list State :=
  s :: match hs with [] => [] | h :: hs => exact_way (exact_steps s [(c, h)]) c hs end.
Fixpoint exact_path (disc : R) (s : State) (cs : list Control) : list State :=
  match cs with
  | [] => []
  | c :: cs => exact_way s c (integration_steps64 (Rabs (ct_delta_s c)) disc) ++ exact_path disc (exact_steps s (steps_of disc [c])) cs
  end.

(** By how much the steps may miss the length of their control, all controls together (C73). *)
Definition slack (disc : R) (cs : list Control) : R :=
  fold_right (fun c w => (2 * INR (length (integration_steps64 (Rabs (ct_delta_s c)) disc)) + 1) * ((Rabs (ct_delta_s c) + disc) / 2 ^ 50) + w) 0 cs.

(** Controls, discretization and start of a usual size: curvatures between 1/100 and 10, at most 20 controls of
    a total length of at most 100, steps between 1/100 and 10, coordinates of at most 1000. *)
Definition usual_controls (cs : list Control) : Prop :=
  Forall (fun c => binary64 (ct_delta_s c) /\ binary64 (ct_kappa c) /\ (ct_kappa c = 0 \/ 1 / 100 <= Rabs (ct_kappa c) <= 10)) cs /\
  (length cs <= 20)%nat /\ total_length cs <= 100.
Definition usual_disc (disc : R) : Prop := binary64 disc /\ 1 / 100 <= disc <= 10.
Definition usual_start (s : State) : Prop := double_state s /\ Rabs (st_x s) <= 1000 /\ Rabs (st_y s) <= 1000.

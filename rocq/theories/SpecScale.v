(** * Another unit of length *)
From Coq Require Import Reals.
From Verif Require Import Base ModelUtil.
Open Scope R_scope.

(** The state in a unit of length that is c times shorter: lengths are multiplied by c, curvatures divided by c. *)
Definition scaled (c : R) (q : State) : State := mkState (c * st_x q) (c * st_y q) (st_theta q) (st_kappa q / c) (st_d q).
(** The control in this unit. *)
Definition scaled_control (c : R) (u : Control) : Control := mkControl (c * ct_delta_s u) (ct_kappa u / c) (ct_sigma u / (c * c)).

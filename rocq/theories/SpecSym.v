(** * Mirror images and states looking the other way *)
From Coq Require Import Reals.
From Verif Require Import Base ModelUtil.
Open Scope R_scope.

(** The mirror image at the x axis: left and right are exchanged. *)
Definition mirror (q : State) : State := mkState (st_x q) (- st_y q) (- st_theta q) (- st_kappa q) (st_d q).
(** The car at the same place looking backwards. *)
Definition about (q : State) : State := mkState (st_x q) (st_y q) (st_theta q + PI) (- st_kappa q) (st_d q).

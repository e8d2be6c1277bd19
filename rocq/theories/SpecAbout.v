(** * The car looking the other way *)
From Coq Require Import Reals.
From Verif Require Import Base ModelUtil SpecPath SpecTurn SpecSide SpecOpt SpecRigid.
Open Scope R_scope.

(** The car turned around on the spot: its left side is the former right side, and driving forwards is the former driving backwards. *)
Definition turned (q : State) : State := mkState (st_x q) (st_y q) (st_theta q + PI) (- st_kappa q) (st_d q).
(** Neither state is taken for a state straight ahead of the other one, whichever way the car looks. *)
Definition never_aligned (s1 s2 : State) : Prop :=
  unaligned s1 s2 /\ unaligned s2 s1 /\ unaligned (turned s1) (turned s2) /\ unaligned (turned s2) (turned s1).

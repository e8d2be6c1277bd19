(** * Driving in one direction *)
From Coq Require Import Reals List.
From Verif Require Import Base ModelUtil SpecTurn.
Open Scope R_scope.

(** All controls are driven in the direction [forward], except that a control may go at most [e] the other way. *)
Definition keeps_direction (e : R) (forward : bool) (cs : list Control) : Prop :=
  List.Forall (fun c => - e <= sign forward * ct_delta_s c) cs.

(** * What it means that a program frees what it allocates *)
From Coq Require Import List String.
From Verif Require Import ModelHeap.
Import ListNotations.

(** No undefined behaviour on pointers, and no block is left at the end, whatever the branches. *)
Definition frees_all (functions : list (string * list Stm)) (p : list Stm) : Prop :=
  forall choices, exists h rest,
    (run_program functions p choices = Normal h rest \/ run_program functions p choices = Returned h rest) /\ h_live h = [].

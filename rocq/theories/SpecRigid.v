(** * Planning in a moved frame *)
From Coq Require Import Reals ZArith List.
From Verif Require Import Base ModelUtil ModelCircle SpecPath SpecTurn SpecSide SpecOpt.
Open Scope R_scope.

(** Translation by (u,v). *)
Definition shift (u v : R) (q : State) : State := mkState (st_x q + u) (st_y q + v) (st_theta q) (st_kappa q) (st_d q).

(** [b] lies in the cone of half angle [e] in front of [a]. *)
Definition ahead (e : R) (a b : State) : Prop :=
  exists t phi, 0 <= t /\ Rabs (phi - st_theta a) <= e /\ st_x b = st_x a + t * cos phi /\ st_y b = st_y a + t * sin phi.

(** The poses differ by more than the tolerance of the library, whatever multiple of 2 pi is added to a heading. *)
Definition distinct (s1 s2 : State) : Prop := ~ heading_within epsilon s1 s2 \/ epsilon < pos_dist s1 s2.
(** The second state is not taken for a state straight ahead of the first one. *)
Definition unaligned (s1 s2 : State) : Prop := ~ heading_within epsilon s1 s2 \/ ~ ahead epsilon s1 s2.

(** The same state, up to full turns of the heading and the direction. *)
Definition same_but_turns (a b : State) : Prop :=
  st_x b = st_x a /\ st_y b = st_y a /\ (exists n : Z, st_theta b = st_theta a + 2 * PI * IZR n) /\ st_kappa b = st_kappa a.

(** * Specification: the Fresnel integrals *)
From Coq Require Import Reals.
From Coquelicot Require Import Coquelicot.
Open Scope R_scope.

(** Integrals of cos(pi/2 u^2) and sin(pi/2 u^2) from 0 to s. *)
Definition FresnelC (s : R) : R := RInt (fun u => cos (PI / 2 * u ^ 2)) 0 s.
Definition FresnelS (s : R) : R := RInt (fun u => sin (PI / 2 * u ^ 2)) 0 s.

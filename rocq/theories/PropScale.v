(** * Properties C84 and C85: another unit of length *)
From Coq Require Import Reals ZArith List.
From Verif Require Import Base ModelUtil ModelDubins ModelRS SpecScale ScaleProofs ScaleCases.
From Verif Require ModelCC0pmD.
Open Scope R_scope.

(** C84: if all lengths are multiplied by c and all curvatures divided by c, the planned path is the same one in these units. *)
Theorem C84_dubins (c kappa : R) (forward : bool) (s1 s2 : State) : 0 < c -> 0 < kappa ->
  dubins_distance (kappa / c) forward (scaled c s1) (scaled c s2) = c * dubins_distance kappa forward s1 s2 /\
  dubins_get_controls (kappa / c) forward (scaled c s1) (scaled c s2) = map (scaled_control c) (dubins_get_controls kappa forward s1 s2).
Proof. exact (dubins_scale c kappa forward s1 s2). Qed.
Print Assumptions C84_dubins.

Theorem C84_reeds_shepp (c kappa : R) (s1 s2 : State) : 0 < c -> 0 < kappa ->
  rs_distance (kappa / c) (scaled c s1) (scaled c s2) = c * rs_distance kappa s1 s2 /\
  rs_get_controls (kappa / c) (scaled c s1) (scaled c s2) = map (scaled_control c) (rs_get_controls kappa s1 s2).
Proof. exact (rs_scale c kappa s1 s2). Qed.
Print Assumptions C84_reeds_shepp.

(** Metres to millimetres for a car with a turning radius of 5 m. *)
Example C84_case : 0 < 1000 /\ 0 < 1 / 5 /\ scaled 1000 (mkState 1 2 3 4 1) = mkState 1000 2000 3 (1 / 250) 1.
Proof. exact scaled_case. Qed.

(** C85: the same for the HC/CC spaces, with the sharpness bound divided by the square of c. This is false, because they compare positions with an
    absolute tolerance: a plan of length 1 or more becomes the empty path in a unit in which start and goal are closer than the tolerance. *)
Theorem C85_unit_refuted : exists c s1 s2 L, 0 < c /\ ModelCC0pmD.get_distance 1 1 true s1 s2 = Some (Some L) /\ 1 <= L /\
  ModelCC0pmD.get_distance (1 / c) (1 / (c * c)) true (scaled c s1) (scaled c s2) = Some (Some 0).
Proof. exact unit_refuted. Qed.
Print Assumptions C85_unit_refuted.

(** * Longer paths with cusps

    The other shapes of the paths of the Reeds-Shepp planners: CSC|C, C|CSC and C|CSC|C, in which the turns between the straight
    line and a cusp change the heading by a quarter turn, and CC|CC and C|CC|C, in which the two turns in the middle are equal. *)
From Coq Require Import Reals ZArith List.
From Verif Require Import Base ModelUtil ModelCircle Num SpecPath SpecTurn SpecSide SpecOpt SpecCusp.
Import ListNotations.
Open Scope R_scope.

Section Longer.
  Variables (k s : R).
  Let r : R := p_radius (hc_cc_param k s).
  Let mu : R := p_mu (hc_cc_param k s).

  (** The change of heading of [turn z1 z2 left forward a], without its sign: a clothoid of length k / s adds k^2 / (2 s). *)
  Definition turn_angle (z1 z2 : bool) (a : R) : R :=
    k * a + (if z1 then k ^ 2 / (2 * s) else 0) + (if z2 then k ^ 2 / (2 * s) else 0).
  Definition quarter (z1 z2 : bool) (a : R) : Prop := ang_eq (turn_angle z1 z2 a) (PI / 2).
  (** Distance of the centre of a turn from the tangent at a cusp. *)
  Definition cusp_reach (zc : bool) : R := if zc then r * cos mu else 1 / k.
  (** How far the centre of the turn before the middle one lies beyond the centre of the middle one, as seen from the cusp. *)
  Definition lean (zc : bool) (a : R) : R := r * cos (turn_angle true zc a + mu).

  (** [long_shape zc z1 z2 left1 forward1 left2 forward2 cs]: as [cusp_shape]. The conditions that relate a side and a direction
      are those under which the planner puts the circle of the middle turn of a crossing line on the right side, and the condition
      of CC|CC is that under which it takes the right one of the two middle circles. *)
  Inductive long_shape (zc z1 z2 : bool) : bool -> bool -> bool -> bool -> list Control -> Prop :=
  | CSC_C l1 l2 f a1 t m a2 : 0 <= a1 -> 0 <= t -> 0 <= m -> 0 <= a2 -> quarter true zc m -> (l2 = l1 -> f = negb l1) ->
      long_shape zc z1 z2 l1 f l2 (negb f)
        (turn k s z1 true l1 f a1 ++ [line f t] ++ turn k s true zc (negb l2) f m ++ turn k s zc z2 l2 (negb f) a2)
  | C_CSC l1 l2 f a1 m t a2 : 0 <= a1 -> 0 <= m -> 0 <= t -> 0 <= a2 -> quarter zc true m -> (l2 = l1 -> f = negb l1) ->
      long_shape zc z1 z2 l1 f l2 (negb f)
        (turn k s z1 zc l1 f a1 ++ turn k s zc true (negb l1) (negb f) m ++ [line (negb f) t] ++ turn k s true z2 l2 (negb f) a2)
  | C_CSC_C l1 l2 f a1 m1 t m2 a2 : 0 <= a1 -> 0 <= m1 -> 0 <= t -> 0 <= m2 -> 0 <= a2 -> quarter zc true m1 -> quarter true zc m2 ->
      (l2 = negb l1 -> f = l1) ->
      long_shape zc z1 z2 l1 f l2 f
        (turn k s z1 zc l1 f a1 ++ turn k s zc true (negb l1) (negb f) m1 ++ [line (negb f) t] ++ turn k s true zc (negb l2) (negb f) m2 ++
         turn k s zc z2 l2 f a2)
  | CC_CC l f a1 m a2 : 0 <= a1 -> 0 <= m -> 0 <= a2 ->
      cusp_reach zc < 2 * lean zc m < 2 * r \/ lean zc m <= cusp_reach zc - r ->
      long_shape zc z1 z2 l f (negb l) (negb f)
        (turn k s z1 true l f a1 ++ turn k s true zc (negb l) f m ++ turn k s zc true l (negb f) m ++ turn k s true z2 (negb l) (negb f) a2)
  | C_CC_C l f a1 m a2 : 0 <= a1 -> 0 <= m -> 0 <= a2 ->
      long_shape zc z1 z2 l f (negb l) f
        (turn k s z1 zc l f a1 ++ turn k s zc true (negb l) (negb f) m ++ turn k s true zc l (negb f) m ++ turn k s zc z2 (negb l) f a2).

  (** The circles of the first and of the last turn have different centres. *)
  Definition centre_of (z left forward : bool) (q : State) : R * R := if z then turn_centre k s left forward q else arc_centre k left q.
  Definition apart (z1 z2 left1 forward1 left2 forward2 : bool) (s1 s2 : State) : Prop :=
    0 < gap (centre_of z1 left1 forward1 s1) (centre_of z2 left2 (negb forward2) s2).
End Longer.

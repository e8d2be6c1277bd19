(** * Paths with cusps

    The shapes of the paths of the Reeds-Shepp planners in which the driving direction changes between two turns or between a
    turn and a straight line: C|C, C|C|C, C|CC, CC|C, C|SC, CS|C and C|S|C, where the bar is the cusp. *)
From Coq Require Import Reals ZArith List.
From Verif Require Import Base ModelUtil ModelCircle SpecPath SpecTurn SpecSide SpecOpt.
Import ListNotations.
Open Scope R_scope.

Section Cusps.
  Variables (k s : R).

  (** A turn; [z1] and [z2] say whether the curvature is 0 at its ends, otherwise it is the bound there. *)
  Definition turn (z1 z2 left forward : bool) (a : R) : list Control :=
    (if z1 then [steer k s left forward] else []) ++ [arc k left forward a] ++ (if z2 then [unsteer k s left forward] else []).

  (** [cusp_shape zc z1 z2 left1 forward1 left2 forward2 cs]: [cs] has one of these shapes; the curvature is 0 at the cusps if
      [zc], and otherwise it jumps there. At the ends of the path it is 0 as [z1] and [z2] say. The sides and directions are those
      of the first and of the last turn. If the curvature is 0 at the cusps of C|S|C, then the straight line must lead back past
      the two clothoids, as the planner assumes. *)
  Inductive cusp_shape (zc z1 z2 : bool) : bool -> bool -> bool -> bool -> list Control -> Prop :=
  | C_C l f a1 a2 : 0 <= a1 -> 0 <= a2 ->
      cusp_shape zc z1 z2 l f (negb l) (negb f) (turn z1 zc l f a1 ++ turn zc z2 (negb l) (negb f) a2)
  | C_C_C l f a1 a2 a3 : 0 <= a1 -> 0 <= a2 -> 0 <= a3 ->
      cusp_shape zc z1 z2 l f l f (turn z1 zc l f a1 ++ turn zc zc (negb l) (negb f) a2 ++ turn zc z2 l f a3)
  | C_CC l f a1 a2 a3 : 0 <= a1 -> 0 <= a2 -> 0 <= a3 ->
      cusp_shape zc z1 z2 l f l (negb f) (turn z1 zc l f a1 ++ turn zc true (negb l) (negb f) a2 ++ turn true z2 l (negb f) a3)
  | CC_C l f a1 a2 a3 : 0 <= a1 -> 0 <= a2 -> 0 <= a3 ->
      cusp_shape zc z1 z2 l f l (negb f) (turn z1 true l f a1 ++ turn true zc (negb l) f a2 ++ turn zc z2 l (negb f) a3)
  | C_SC l1 l2 f a1 t a2 : 0 <= a1 -> 0 <= t -> 0 <= a2 ->
      cusp_shape zc z1 z2 l1 f l2 (negb f) (turn z1 zc l1 f a1 ++ [line (negb f) t] ++ turn true z2 l2 (negb f) a2)
  | CS_C l1 l2 f a1 t a2 : 0 <= a1 -> 0 <= t -> 0 <= a2 ->
      cusp_shape zc z1 z2 l1 f l2 (negb f) (turn z1 true l1 f a1 ++ [line f t] ++ turn zc z2 l2 (negb f) a2)
  | C_S_C l1 l2 f a1 t a2 : 0 <= a1 -> 0 < t -> (zc = true -> 2 * (k / s) <= t) -> 0 <= a2 ->
      cusp_shape zc z1 z2 l1 f l2 f (turn z1 zc l1 f a1 ++ [line (negb f) t] ++ turn zc z2 l2 f a2).
End Cusps.

(** The circles of the first and the last turn are apart if both turns are to the same side. *)
Definition apart_00 (k s : R) (left1 forward1 left2 forward2 : bool) (s1 s2 : State) : Prop :=
  left2 = left1 -> epsilon <= gap (turn_centre k s left1 forward1 s1) (turn_centre k s left2 (negb forward2) s2).

(** * Properties C71 and C72: mirrored, turned-around and exchanged states *)
From Coq Require Import Reals ZArith List.
From Verif Require Import Base ModelUtil ModelDubins ModelRS Num SpecPath SpecSym SymDubins SymRS SymCases.
Import ListNotations.
Open Scope R_scope.

(** C71: the mirror images of start and goal are as far apart as start and goal, *)
Theorem C71_reeds_shepp_mirror (kappa : R) (s1 s2 : State) :
  rs_distance kappa (mirror s1) (mirror s2) = rs_distance kappa s1 s2.
Proof. exact (rs_mirror kappa s1 s2). Qed.
Print Assumptions C71_reeds_shepp_mirror.

Example C71_reeds_shepp_mirror_case : mirror (mkState 1 2 3 4 1) = mkState 1 (-2) (-3) (-4) 1.
Proof. exact mirror_case. Qed.

(** and a car that looks the other way at both ends drives as far. *)
Theorem C71_reeds_shepp_about (kappa : R) (s1 s2 : State) :
  rs_distance kappa (about s1) (about s2) = rs_distance kappa s1 s2.
Proof. exact (rs_about kappa s1 s2). Qed.
Print Assumptions C71_reeds_shepp_about.

Example C71_reeds_shepp_about_case : about (mkState 1 2 3 4 1) = mkState 1 2 (3 + PI) (-4) 1.
Proof. exact about_case. Qed.

(** C71 for Dubins: full statement without the middle hypothesis.  Missing: states at the same place
    (up to 1e-6 of the turning radius) whose headings differ by up to 1e-6 but not by full turns. *)
Theorem C71_dubins_mirror_partial (kappa : R) (forward : bool) (s1 s2 : State) :
  0 < kappa ->
  1 / 1000000 <= kappa * pos_dist s1 s2 \/ ~ heading_within (1 / 1000000) s1 s2 \/ ang_eq (st_theta s1) (st_theta s2) ->
  dubins_distance kappa forward (mirror s1) (mirror s2) = dubins_distance kappa forward s1 s2.
Proof. exact (dubins_mirror kappa forward s1 s2). Qed.
Print Assumptions C71_dubins_mirror_partial.

Example C71_dubins_mirror_case : 0 < 1 /\ 1 / 1000000 <= 1 * pos_dist (mkState 0 0 0 0 0) (mkState 3 4 1 0 0).
Proof. exact far_case. Qed.

(** Without it the claim is false: a goal turned by 1e-7 to the right costs a full turn, its mirror
    image costs nothing. *)
Theorem C71_dubins_mirror_refuted : exists kappa s1 s2, 0 < kappa /\
  dubins_distance kappa true (mirror s1) (mirror s2) = 0 /\ 0 < dubins_distance kappa true s1 s2.
Proof. exact mirror_refuted. Qed.
Print Assumptions C71_dubins_mirror_refuted.

(** The way from the goal to the start, both looking the other way, is the same path driven from
    its end.  Missing: the same states. *)
Theorem C71_dubins_about_partial (kappa : R) (forward : bool) (s1 s2 : State) :
  0 < kappa ->
  1 / 1000000 <= kappa * pos_dist s1 s2 \/ ~ heading_within (1 / 1000000) s1 s2 \/ ang_eq (st_theta s1) (st_theta s2) ->
  dubins_distance kappa forward (about s2) (about s1) = dubins_distance kappa forward s1 s2.
Proof. exact (dubins_about kappa forward s1 s2). Qed.
Print Assumptions C71_dubins_about_partial.

Example C71_dubins_about_case : 0 < 1 /\ ~ heading_within (1 / 1000000) (mkState 0 0 0 0 0) (mkState 0 0 1 0 0).
Proof. exact turned_case. Qed.

Theorem C71_dubins_about_refuted : exists kappa s1 s2, 0 < kappa /\
  dubins_distance kappa true (about s2) (about s1) = 0 /\ 0 < dubins_distance kappa true s1 s2.
Proof. exact about_refuted. Qed.
Print Assumptions C71_dubins_about_refuted.

(** C72: full statement: [0 < kappa -> rs_distance kappa s2 s1 = rs_distance kappa s1 s2].  Missing:
    plans with a segment that turns the car by exactly half a turn, where the two signs of the heading
    difference pi make a difference to the solvers. *)
Theorem C72_reeds_shepp_exchange_partial (kappa : R) (s1 s2 : State) :
  0 < kappa ->
  (forall c, In c (rs_get_controls kappa s1 s2) -> Rabs (ct_kappa c * ct_delta_s c) < PI) ->
  (forall c, In c (rs_get_controls kappa s2 s1) -> Rabs (ct_kappa c * ct_delta_s c) < PI) ->
  rs_distance kappa s2 s1 = rs_distance kappa s1 s2.
Proof. exact (fun K A B => Rle_antisym _ _ (rs_swap kappa s1 s2 K A) (rs_swap kappa s2 s1 K B)). Qed.
Print Assumptions C72_reeds_shepp_exchange_partial.

(** One of the two hypotheses gives one of the two inequalities. *)
Theorem C72_reeds_shepp_way_back_partial (kappa : R) (s1 s2 : State) :
  0 < kappa ->
  (forall c, In c (rs_get_controls kappa s1 s2) -> Rabs (ct_kappa c * ct_delta_s c) < PI) ->
  rs_distance kappa s2 s1 <= rs_distance kappa s1 s2.
Proof. exact (rs_swap kappa s1 s2). Qed.
Print Assumptions C72_reeds_shepp_way_back_partial.

Example C72_reeds_shepp_case : 0 < 1 /\
  (forall c, In c (rs_get_controls 1 (mkState 0 0 0 0 0) (mkState 5 0 0 0 0)) -> Rabs (ct_kappa c * ct_delta_s c) < PI).
Proof. exact straight_case. Qed.

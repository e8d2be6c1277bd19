(** * Specification: the words of Reeds and Shepp *)
From Coq Require Import Reals List.
From Verif Require Import Base ModelUtil.
Import ListNotations.
Open Scope R_scope.

(** A word is a list of segments: curvature 1, 0, -1 (in multiples of the maximal curvature) and
    signed length (in multiples of the minimal radius; negative = driven backwards).
    [rs_base] lists one representative of each of the families in Reeds and Shepp, "Optimal paths
    for a car that goes both forwards and backwards" (1990), Lemma/Table 1: CSC, C|C|C and C|CC,
    CC|CC, C|CC|C, C|CSC, C|CSC|C. *)
Inductive rs_base : list (R * R) -> Prop :=
| base_csc e t u v : e = 1 \/ e = -1 -> 0 <= t < PI -> 0 <= u -> 0 <= v < PI ->
    rs_base [(1, t); (0, u); (e, v)]
| base_ccc t u v : 0 <= t < PI -> 0 < u <= PI -> - PI < v < PI ->
    rs_base [(1, t); (-1, - u); (1, v)]
| base_cccc_inner t u v : 0 <= t < PI -> 0 <= u < PI / 3 -> 0 <= v < PI ->
    rs_base [(1, t); (-1, u); (1, - u); (-1, - v)]
| base_cccc_outer t u v : 0 <= t < PI -> 0 <= u <= PI / 2 -> 0 <= v < PI ->
    rs_base [(1, t); (-1, - u); (1, - u); (-1, v)]
| base_ccsc e t u v : e = 1 \/ e = -1 -> 0 <= t < PI -> 0 <= u -> 0 <= v < PI ->
    rs_base [(1, t); (-1, - (PI / 2)); (0, - u); (e, - v)]
| base_ccscc t u v : 0 <= t < PI -> 0 <= u -> 0 <= v < PI ->
    rs_base [(1, t); (-1, - (PI / 2)); (0, - u); (1, - (PI / 2)); (-1, v)].

(** The controls of a word for maximal curvature [kappa], after mirroring left and right ([m] = -1)
    and swapping forwards and backwards ([s] = -1). *)
Definition word_controls (kappa m s : R) (w : list (R * R)) : list Control :=
  map (fun p => mkControl (s * snd p / kappa) (m * fst p * kappa) 0) w.

(** All words: the representatives, their mirror images, time flips and reversals. *)
Definition rs_word (kappa : R) (cs : list Control) : Prop :=
  exists w m s, rs_base w /\ (m = 1 \/ m = -1) /\ (s = 1 \/ s = -1) /\
    (cs = word_controls kappa m s w \/ cs = word_controls kappa m s (rev w)).

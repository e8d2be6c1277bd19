(** * Model of the path records of the HC/CC planners

    include/steering_functions/hc_cc_state_space/paths.hpp and the selection shared by the planners.
    A pointer is an [option]; [None] is the null pointer. Allocation and [delete] are not modelled
    here, they are the subject of ModelHeap.v. *)
From Coq Require Import Reals ZArith List Bool.
From Verif Require Import Base ModelUtil ModelCircle.
Import ListNotations.
Open Scope R_scope.

(** include/steering_functions/hc_cc_state_space/paths.hpp:55-69, the enumeration. *)
Inductive cc_dubins_type := D_E | D_S | D_T | D_TT | D_TST | D_TTT | D_TTTT.

(** include/steering_functions/hc_cc_state_space/paths.hpp:58-71, the enumerators in order; the cast
    of an index to the enumeration reads this list. *)
Definition cc_dubins_types : list cc_dubins_type := [D_E; D_S; D_T; D_TT; D_TST; D_TTT; D_TTTT].

(** include/steering_functions/hc_cc_state_space/paths.hpp:97-122, the enumeration. *)
Inductive hc_cc_rs_type :=
| RS_E | RS_S | RS_T | RS_TT | RS_TcT | RS_TcTcT | RS_TcTT | RS_TTcT | RS_TST | RS_TSTcT | RS_TcTST
| RS_TcTSTcT | RS_TTcTT | RS_TcTTcT | RS_TTT | RS_TcST | RS_TScT | RS_TcScT.

(** include/steering_functions/hc_cc_state_space/paths.hpp:100-124, the enumerators in order. *)
Definition hc_cc_rs_types : list hc_cc_rs_type :=
  [RS_E; RS_S; RS_T; RS_TT; RS_TcT; RS_TcTcT; RS_TcTT; RS_TTcT; RS_TST; RS_TSTcT; RS_TcTST;
   RS_TcTSTcT; RS_TTcTT; RS_TcTTcT; RS_TTT; RS_TcST; RS_TScT; RS_TcScT].

(** One column of the tables length, qi1, ..., qi4, cstart, ci1, ci2, cend, e.g.
    src/hc_cc_state_space/ccpmpm_dubins_state_space.cpp:474-492. *)
Record Entry := mkEntry
  { e_length : flt; e_qi1 : option Configuration; e_qi2 : option Configuration;
    e_qi3 : option Configuration; e_qi4 : option Configuration; e_cstart : option Circle;
    e_cend : option Circle; e_ci1 : option Circle; e_ci2 : option Circle }.

(** The initial value of a column, e.g. src/hc_cc_state_space/cc00_dubins_state_space.cpp:325-337. *)
Definition no_entry : Entry := mkEntry (Some DBL_MAX) None None None None None None None None.

(** A column whose length is NaN: a square root, arc sine, arc cosine or quotient was undefined, and
    the NaN reaches the length (DESIGN.md, section 4); the pointers are not null in the code. *)
Definition nan_entry : Entry := mkEntry None None None None None None None None None.

(** include/steering_functions/hc_cc_state_space/paths.hpp:30-95 and 126-150, the members of Path,
    CC_Dubins_Path and HC_CC_RS_Path; kappa and sigma, which are only printed, are left out. *)
Record HPath (ty : Type) := mkHPath
  { h_type : ty; h_start : Configuration; h_end : Configuration; h_entry : Entry }.
Arguments mkHPath {ty}.
Arguments h_type {ty}.
Arguments h_start {ty}.
Arguments h_end {ty}.
Arguments h_entry {ty}.

(** The selection of the shortest column, e.g.
    src/hc_cc_state_space/cc00_dubins_state_space.cpp:392-397, same text in the other planners. *)
Definition select_entry {ty} (types : list ty) (start fin : Configuration) (table : list Entry)
  : option (HPath ty) :=
  match array_index_min (map e_length table) with
  | Some best =>
      match nth_error types best, nth_error table best with
      | Some t, Some e => Some (mkHPath t start fin e)
      | _, _ => None
      end
  | None => None
  end.

(** The selection of the shortest path over the pairs of circles, e.g.
    src/hc_cc_state_space/cc00_dubins_state_space.cpp:438-456; [None] is a null pointer. *)
Definition select_path {ty} (path : list (option (HPath ty))) : option (HPath ty) :=
  let lg := map (fun p => match p with Some p => e_length (h_entry p) | None => Some DBL_MAX end) path in
  match array_index_min lg with
  | Some best => nth best path None
  | None => None
  end.

(** get_distance of the planners, e.g. src/hc_cc_state_space/cc00_dubins_state_space.cpp:488-494;
    the outer [None] is the dereference of a null pointer. *)
Definition path_distance {ty} (p : option (HPath ty)) : option flt :=
  match p with Some p => Some (e_length (h_entry p)) | None => None end.

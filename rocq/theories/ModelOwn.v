(** * Names and objects of the pointer statements

    Common part of the files ModelOwn*.v. *)
From Coq Require Import List String Bool Arith DecimalString.
From Verif Require Import ModelHeap.
Import ListNotations.
Open Scope string_scope.
Open Scope list_scope.

(** The element [i] of the array [a], e.g. qi1[cc_dubins::TT] of
    src/hc_cc_state_space/cc00_dubins_state_space.cpp:372. *)
Definition at_index (a i : string) : string := (a ++ "[" ++ i ++ "]")%string.

(** A number as an index, e.g. of start_circle[0] in src/hc_cc_state_space/cc00_dubins_state_space.cpp:424. *)
Definition num (n : nat) : string := NilZero.string_of_uint (Nat.to_uint n).

(** The member [m] of the object that [p] points to, e.g. p->cstart in
    src/hc_cc_state_space/cc00_dubins_state_space.cpp:510. *)
Definition member (p m : string) : string := (p ++ "->" ++ m)%string.

(** The pointer members of a path, include/steering_functions/hc_cc_state_space/paths.hpp:90-94, 146-150. *)
Definition members : list string := ["qi1"; "qi2"; "qi3"; "qi4"; "cstart"; "cend"; "ci1"; "ci2"].

(** A pointer to a path, e.g. src/hc_cc_state_space/cc00_dubins_state_space.cpp:395. The members of the object
    pointed to are kept under the name of the variable that points to it. *)
Definition declare_path (p : string) : list Stm := Declare p :: map (fun m => Declare (member p m)) members.

(** A null pointer to a path, e.g. src/hc_cc_state_space/cc00_dubins_state_space.cpp:438. *)
Definition null_path (p : string) : list Stm := SetNull p :: map (fun m => SetNull (member p m)) members.

(** The end of the lifetime of a pointer to a path, e.g.
    src/hc_cc_state_space/cc00_dubins_state_space.cpp:412. *)
Definition drop_path (p : string) : list Stm := Drop p :: map (fun m => Drop (member p m)) members.

(** p = q for pointers to paths, e.g. the result in src/hc_cc_state_space/cc00_dubins_state_space.cpp:411 stored
    in src/hc_cc_state_space/cc00_dubins_state_space.cpp:447. *)
Definition move_path (p q : string) : list Stm :=
  Assign p q :: map (fun m => Assign (member p m) (member q m)) members.

(** The variables that hold the result of a function returning a pointer to a path. *)
Definition results : list string := "result" :: map (member "result") members.

(** Any of the alternatives, e.g. the index of the shortest path in
    src/hc_cc_state_space/cc00_dubins_state_space.cpp:394. *)
Fixpoint choose {A : Type} (f : A -> list Stm) (l : list A) : Stm :=
  match l with
  | [] => Call []
  | [x] => Either (f x) (f x)
  | x :: l => Either (f x) [choose f l]
  end.

(** Any values of c1.left and c1.forward, e.g. src/hc_cc_state_space/cc00_dubins_state_space.cpp:81-108. *)
Definition for_flags (f : bool -> bool -> list Stm) : list Stm :=
  [Either [Either (f true true) (f true false)] [Either (f false true) (f false false)]].

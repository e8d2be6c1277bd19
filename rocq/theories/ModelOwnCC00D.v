(** * The pointer statements of src/hc_cc_state_space/cc00_dubins_state_space.cpp

    Written from the source function by function in the language of ModelHeap.v; every pointer statement
    and every dereferencing is kept, in the order of the source. A function with parameters of type
    "Configuration **" or "HC_CC_Circle **" takes the names of the variables they point to. Branches on
    [c1.left] and [c1.forward] are branches on parameters, the other ones may go either way. *)
From Coq Require Import List String Bool Arith.
From Verif Require Import ModelHeap ModelOwn.
Import ListNotations.
Open Scope string_scope.
Open Scope list_scope.

(** include/steering_functions/hc_cc_state_space/paths.hpp:58-71 *)
Definition types : list string :=
  ["E"; "S"; "T"; "TT"; "TST"; "TTT"; "TTTT"].

(** The destructor in src/hc_cc_state_space/paths.cpp:66-75; deleting a null pointer does nothing. *)
Definition delete_path (p : string) : list Stm :=
  map (fun m => Delete (member p m)) ["qi1"; "qi2"; "qi3"; "qi4"; "cstart"; "cend"; "ci1"; "ci2"] ++ [Delete p].

(** src/hc_cc_state_space/cc00_dubins_state_space.cpp:66-95 *)
Definition TT_tangent_circles (left forward : bool) (q : string) : list Stm :=
  (if left then if forward then [] else [] else if forward then [] else []) ++ [New q].

(** src/hc_cc_state_space/cc00_dubins_state_space.cpp:97-101 *)
Definition TT_path (q : string) : list Stm :=
  [Call ((for_flags (fun left forward => TT_tangent_circles left forward q)) ++ [Use q; Use q; Return])].

(** src/hc_cc_state_space/cc00_dubins_state_space.cpp:137-178 *)
Definition TiST_tangent_circles (left forward : bool) (q1 q2 : string) : list Stm :=
  (if (left && forward) then [New q1; New q2] else []) ++ (if (left && negb forward) then [New q1; New q2]
    else []) ++ (if (negb left && forward) then [New q1; New q2] else []) ++ (if (negb left && negb forward)
    then [New q1; New q2] else []).

(** src/hc_cc_state_space/cc00_dubins_state_space.cpp:180-215 *)
Definition TeST_tangent_circles (left forward : bool) (q1 q2 : string) : list Stm :=
  (if (left && forward) then [New q1; New q2] else []) ++ (if (left && negb forward) then [New q1; New q2]
    else []) ++ (if (negb left && forward) then [New q1; New q2] else []) ++ (if (negb left && negb forward)
    then [New q1; New q2] else []).

(** src/hc_cc_state_space/cc00_dubins_state_space.cpp:217-221 *)
Definition TiST_path (q1 q2 : string) : list Stm :=
  [Call ((for_flags (fun left forward => TiST_tangent_circles left forward q1 q2)) ++ [Use q1; Use q1; Use q2;
    Use q2; Return])].

(** src/hc_cc_state_space/cc00_dubins_state_space.cpp:223-227 *)
Definition TeST_path (q1 q2 : string) : list Stm :=
  [Call ((for_flags (fun left forward => TeST_tangent_circles left forward q1 q2)) ++ [Use q1; Use q1; Use q2;
    Use q2; Return])].

(** src/hc_cc_state_space/cc00_dubins_state_space.cpp:229-240 *)
Definition TST_path (q1 q2 : string) : list Stm :=
  [Call ([Either ((TiST_path q1 q2) ++ [Return]) ([]); Either ((TeST_path q1 q2) ++ [Return]) ([]); Return])].

(** src/hc_cc_state_space/cc00_dubins_state_space.cpp:256-274 *)
Definition TTT_tangent_circles (q1 q2 q3 q4 : string) : list Stm :=
  (for_flags (fun left forward => TT_tangent_circles left forward q1)) ++ (for_flags (fun left forward =>
    TT_tangent_circles left forward q2)) ++ (for_flags (fun left forward =>
    TT_tangent_circles left forward q3)) ++ (for_flags (fun left forward =>
    TT_tangent_circles left forward q4)).

(** src/hc_cc_state_space/cc00_dubins_state_space.cpp:276-309 *)
Definition TTT_path (q1 q2 ci : string) : list Stm :=
  [Call ([Declare "TTT_path.qa"; Declare "TTT_path.qb"; Declare "TTT_path.qc"; Declare "TTT_path.qd";
    Declare "TTT_path.middle1"; Declare "TTT_path.middle2"] ++
    (TTT_tangent_circles "TTT_path.qa" "TTT_path.qb" "TTT_path.qc" "TTT_path.qd") ++ [Use "TTT_path.qa";
    New "TTT_path.middle1"; Use "TTT_path.qc"; New "TTT_path.middle2"; Use "TTT_path.qa";
    Use "TTT_path.middle1"; Use "TTT_path.qb"; Use "TTT_path.qb"; Use "TTT_path.qc"; Use "TTT_path.middle2";
    Use "TTT_path.qd"; Use "TTT_path.qd"; Either ([Assign q1 "TTT_path.qa"; Assign q2 "TTT_path.qb";
    Assign ci "TTT_path.middle1"; Delete "TTT_path.qc"; Delete "TTT_path.qd"; Delete "TTT_path.middle2";
    Return]) ([Assign q1 "TTT_path.qc"; Assign q2 "TTT_path.qd"; Assign ci "TTT_path.middle2";
    Delete "TTT_path.qa"; Delete "TTT_path.qb"; Delete "TTT_path.middle1"; Return]); Return])] ++
    [Drop "TTT_path.qa"; Drop "TTT_path.qb"; Drop "TTT_path.qc"; Drop "TTT_path.qd"; Drop "TTT_path.middle1";
    Drop "TTT_path.middle2"].

(** src/hc_cc_state_space/cc00_dubins_state_space.cpp:323-391, up to the label. *)
Definition table : list Stm :=
  [Call ((map (fun i => SetNull (at_index "qi1" i)) types) ++ (map (fun i => SetNull (at_index "qi2" i))
    types) ++ (map (fun i => SetNull (at_index "cstart" i)) types) ++ (map (fun i => SetNull
    (at_index "ci1" i)) types) ++ (map (fun i => SetNull (at_index "cend" i)) types) ++ [Either ([Return])
    ([]); Either ([Return]) ([]); Either ([Return]) ([]); Either ([New (at_index "cstart" "T"); Use
    (at_index "cstart" "T"); Return]) ([]); Either ([New (at_index "cstart" "TT"); New (at_index "cend" "TT");
    Use (at_index "cstart" "TT"); Use (at_index "cend" "TT")] ++ (TT_path (at_index "qi1" "TT"))) ([]); Either
    ([New (at_index "cstart" "TST"); New (at_index "cend" "TST"); Use (at_index "cstart" "TST"); Use
    (at_index "cend" "TST")] ++ (TST_path (at_index "qi1" "TST") (at_index "qi2" "TST"))) ([]); Either ([New
    (at_index "cstart" "TTT"); New (at_index "cend" "TTT"); Use (at_index "cstart" "TTT"); Use
    (at_index "cend" "TTT")] ++ (TTT_path (at_index "qi1" "TTT") (at_index "qi2" "TTT")
    (at_index "ci1" "TTT"))) ([])])].

(** src/hc_cc_state_space/cc00_dubins_state_space.cpp:323-412;
  the result is stored in the variable [result]. *)
Definition cc00_circles_dubins_path : list Stm :=
  declare_path "result" ++ flat_map (fun i => map (fun a => Declare (at_index a i)) ["qi1"; "qi2"; "cstart";
    "ci1"; "cend"]) types ++
  declare_path "path" ++ table ++ [Call ([choose (fun best => [Assign (member "path" "qi1")
    (at_index "qi1" best); Assign (member "path" "qi2") (at_index "qi2" best); SetNull (member "path" "qi3");
    SetNull (member "path" "qi4"); Assign (member "path" "cstart") (at_index "cstart" best); Assign
    (member "path" "cend") (at_index "cend" best); Assign (member "path" "ci1") (at_index "ci1" best); SetNull
    (member "path" "ci2"); New "path"] ++ (flat_map (fun i => if String.eqb i best then [] else [Delete
    (at_index "qi1" i); Delete (at_index "qi2" i); Delete (at_index "cstart" i); Delete (at_index "ci1" i);
    Delete (at_index "cend" i)]) types) ++ (move_path "result" "path") ++ [Return]) types])] ++
    drop_path "path" ++
  flat_map (fun i => map (fun a => Drop (at_index a i)) ["qi1"; "qi2"; "cstart"; "ci1"; "cend"]) types.

(** src/hc_cc_state_space/cc00_dubins_state_space.cpp:414-486;
  the result is stored in the variable [result]. *)
Definition cc00_dubins : list Stm :=
  declare_path "result" ++ flat_map (fun i => [Declare (at_index "start_circle" (num i)); Declare
    (at_index "end_circle" (num i))]) (seq 0 2) ++
  flat_map (fun k => declare_path (at_index "path" (num k))) (seq 0 4) ++
  [Call ([Either ([New (at_index "start_circle" (num (0))); New (at_index "start_circle" (num (1))); New
    (at_index "end_circle" (num (0))); New (at_index "end_circle" (num (1)))]) ([New (at_index "start_circle"
    (num (0))); New (at_index "start_circle" (num (1))); New (at_index "end_circle" (num (0))); New
    (at_index "end_circle" (num (1)))])] ++ (flat_map (fun k => null_path (at_index "path" (num k)))
    (seq 0 4)) ++ (flat_map (fun i => flat_map (fun j => [Use (at_index "start_circle" (num (i))); Use
    (at_index "end_circle" (num (j))); Proc "cc00_circles_dubins_path" results] ++ (move_path (at_index "path"
    (num (2 * i + j))) "result") ++ [Either ([UseOrNull (at_index "path" (num (2 * i + j)))]) ([])])
    (seq 0 2)) (seq 0 2)) ++ [choose (fun best => (flat_map (fun i => [Delete (at_index "start_circle" (num
    (i))); Delete (at_index "end_circle" (num (i)))]) (seq 0 2)) ++ (flat_map (fun i => if Nat.eqb i best then
    [] else delete_path (at_index "path" (num (i)))) (seq 0 4)) ++ (move_path "result" (at_index "path" (num
    (best)))) ++ [Return]) (seq 0 4)])] ++
  flat_map (fun i => [Drop (at_index "start_circle" (num i)); Drop (at_index "end_circle" (num i))]) (seq 0 2)
    ++
  flat_map (fun k => drop_path (at_index "path" (num k))) (seq 0 4).

(** The functions that return a pointer: src/hc_cc_state_space/cc00_dubins_state_space.cpp:414, 323. *)
Definition functions : list (string * list Stm) :=
  [("cc00_dubins", cc00_dubins); ("cc00_circles_dubins_path", cc00_circles_dubins_path)].

(** src/hc_cc_state_space/cc00_dubins_state_space.cpp:488-494 *)
Definition get_distance : list Stm :=
  declare_path "result" ++ declare_path "p" ++ [Call ([Proc "cc00_dubins" results] ++ (move_path "p" "result")
    ++ [UseOrNull "p"] ++ (delete_path "p") ++ [Return])] ++ drop_path "p".

(** src/hc_cc_state_space/cc00_dubins_state_space.cpp:496-532 *)
Definition get_controls : list Stm :=
  declare_path "result" ++ declare_path "p" ++ [Call ([Proc "cc00_dubins" results] ++ (move_path "p" "result")
    ++ [UseOrNull "p"; choose (fun uses => uses) [[];
    [UseOrNull "p"; UseOrNull "p"];
    [UseOrNull (member "p" "cstart"); UseOrNull "p"];
    [UseOrNull (member "p" "cstart"); UseOrNull (member "p" "qi1"); UseOrNull (member "p" "cend"); UseOrNull
      (member "p" "qi1")];
    [UseOrNull (member "p" "cstart"); UseOrNull (member "p" "qi1"); UseOrNull (member "p" "qi1"); UseOrNull
      (member "p" "qi2"); UseOrNull (member "p" "cend"); UseOrNull (member "p" "qi2")];
    [UseOrNull (member "p" "cstart"); UseOrNull (member "p" "qi1"); UseOrNull (member "p" "ci1"); UseOrNull
      (member "p" "qi2"); UseOrNull (member "p" "cend"); UseOrNull (member "p" "qi2")];
    []]] ++ (delete_path "p") ++ [Return])] ++ drop_path "p".

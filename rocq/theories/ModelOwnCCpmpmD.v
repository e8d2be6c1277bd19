(** * The pointer statements of src/hc_cc_state_space/ccpmpm_dubins_state_space.cpp

    Written from the source function by function in the language of ModelHeap.v; every pointer statement
    and every dereferencing is kept, in the order of the source. A function with parameters of type
    "Configuration **" or "HC_CC_Circle **" takes the names of the variables they point to. Branches on
    [c1.left] and [c1.forward] are branches on parameters, the other ones may go either way. *)
From Coq Require Import List String Bool Arith.
From Verif Require Import ModelHeap ModelOwn.
Import ListNotations.
Open Scope string_scope.
Open Scope list_scope.

(** include/steering_functions/hc_cc_state_space/paths.hpp:58-71 *)
Definition types : list string :=
  ["E"; "S"; "T"; "TT"; "TST"; "TTT"; "TTTT"].

(** The destructor in src/hc_cc_state_space/paths.cpp:66-75; deleting a null pointer does nothing. *)
Definition delete_path (p : string) : list Stm :=
  map (fun m => Delete (member p m)) ["qi1"; "qi2"; "qi3"; "qi4"; "cstart"; "cend"; "ci1"; "ci2"] ++ [Delete p].

(** src/hc_cc_state_space/ccpmpm_dubins_state_space.cpp:66-95 *)
Definition TT_tangent_circles (left forward : bool) (q : string) : list Stm :=
  (if left then if forward then [] else [] else if forward then [] else []) ++ [New q].

(** src/hc_cc_state_space/ccpmpm_dubins_state_space.cpp:97-106 *)
Definition TT_path (cstart cend q1 q2 q3 : string) : list Stm :=
  [Call ((for_flags (fun left forward => TT_tangent_circles left forward q2)) ++ [Use q2; New cstart; Use q2;
    New cend; New q1; New q3; Use cstart; Use q1; Use cend; Use q3; Return])].

(** src/hc_cc_state_space/ccpmpm_dubins_state_space.cpp:142-183 *)
Definition TiST_tangent_circles (left forward : bool) (q1 q2 : string) : list Stm :=
  (if (left && forward) then [New q1; New q2] else []) ++ (if (left && negb forward) then [New q1; New q2]
    else []) ++ (if (negb left && forward) then [New q1; New q2] else []) ++ (if (negb left && negb forward)
    then [New q1; New q2] else []).

(** src/hc_cc_state_space/ccpmpm_dubins_state_space.cpp:185-220 *)
Definition TeST_tangent_circles (left forward : bool) (q1 q2 : string) : list Stm :=
  (if (left && forward) then [New q1; New q2] else []) ++ (if (left && negb forward) then [New q1; New q2]
    else []) ++ (if (negb left && forward) then [New q1; New q2] else []) ++ (if (negb left && negb forward)
    then [New q1; New q2] else []).

(** src/hc_cc_state_space/ccpmpm_dubins_state_space.cpp:222-231 *)
Definition TiST_path (cstart cend q1 q2 q3 q4 : string) : list Stm :=
  [Call ((for_flags (fun left forward => TiST_tangent_circles left forward q2 q3)) ++ [Use q2; New cstart;
    Use q3; New cend; New q1; New q4; Use cstart; Use q1; Use q2; Use q3; Use cend; Use q4; Return])].

(** src/hc_cc_state_space/ccpmpm_dubins_state_space.cpp:233-242 *)
Definition TeST_path (cstart cend q1 q2 q3 q4 : string) : list Stm :=
  [Call ((for_flags (fun left forward => TeST_tangent_circles left forward q2 q3)) ++ [Use q2; New cstart;
    Use q3; New cend; New q1; New q4; Use cstart; Use q1; Use q2; Use q3; Use cend; Use q4; Return])].

(** src/hc_cc_state_space/ccpmpm_dubins_state_space.cpp:244-256 *)
Definition TST_path (cstart cend q1 q2 q3 q4 : string) : list Stm :=
  [Call ([Either ((TiST_path cstart cend q1 q2 q3 q4) ++ [Return]) ([]); Either
    ((TeST_path cstart cend q1 q2 q3 q4) ++ [Return]) ([]); Return])].

(** src/hc_cc_state_space/ccpmpm_dubins_state_space.cpp:272-290 *)
Definition TTT_tangent_circles (q1 q2 q3 q4 : string) : list Stm :=
  (for_flags (fun left forward => TT_tangent_circles left forward q1)) ++ (for_flags (fun left forward =>
    TT_tangent_circles left forward q2)) ++ (for_flags (fun left forward =>
    TT_tangent_circles left forward q3)) ++ (for_flags (fun left forward =>
    TT_tangent_circles left forward q4)).

(** src/hc_cc_state_space/ccpmpm_dubins_state_space.cpp:292-340 *)
Definition TTT_path (cstart cend q1 q2 q3 ci : string) : list Stm :=
  [Call ([Declare "TTT_path.qa"; Declare "TTT_path.qb"; Declare "TTT_path.qc"; Declare "TTT_path.qd";
    Declare "TTT_path.start1"; Declare "TTT_path.start2"; Declare "TTT_path.end1"; Declare "TTT_path.end2";
    Declare "TTT_path.middle1"; Declare "TTT_path.middle2"] ++
    (TTT_tangent_circles "TTT_path.qa" "TTT_path.qb" "TTT_path.qc" "TTT_path.qd") ++ [Use "TTT_path.qa";
    New "TTT_path.start1"; Use "TTT_path.qa"; New "TTT_path.middle1"; Use "TTT_path.qb"; New "TTT_path.end1";
    Use "TTT_path.qc"; New "TTT_path.start2"; Use "TTT_path.qc"; New "TTT_path.middle2"; Use "TTT_path.qd";
    New "TTT_path.end2"; New q1; New q3; Use "TTT_path.start1"; Use q1; Use "TTT_path.middle1";
    Use "TTT_path.qb"; Use "TTT_path.end1"; Use q3; Use "TTT_path.start2"; Use q1; Use "TTT_path.middle2";
    Use "TTT_path.qd"; Use "TTT_path.end2"; Use q3; Either ([Assign cstart "TTT_path.start1";
    Assign ci "TTT_path.middle1"; Assign cend "TTT_path.end1"; Assign q2 "TTT_path.qb"; Delete "TTT_path.qa";
    Delete "TTT_path.qc"; Delete "TTT_path.qd"; Delete "TTT_path.start2"; Delete "TTT_path.middle2";
    Delete "TTT_path.end2"; Return]) ([Assign cstart "TTT_path.start2"; Assign ci "TTT_path.middle2";
    Assign cend "TTT_path.end2"; Assign q2 "TTT_path.qd"; Delete "TTT_path.qa"; Delete "TTT_path.qb";
    Delete "TTT_path.qc"; Delete "TTT_path.start1"; Delete "TTT_path.middle1"; Delete "TTT_path.end1";
    Return]); Return])] ++ [Drop "TTT_path.qa"; Drop "TTT_path.qb"; Drop "TTT_path.qc"; Drop "TTT_path.qd";
    Drop "TTT_path.start1"; Drop "TTT_path.start2"; Drop "TTT_path.end1"; Drop "TTT_path.end2";
    Drop "TTT_path.middle1"; Drop "TTT_path.middle2"].

(** src/hc_cc_state_space/ccpmpm_dubins_state_space.cpp:358-392 *)
Definition TTTT_tangent_circles (q1 q2 q3 q4 q5 q6 : string) : list Stm :=
  [Either ([]) ([])] ++ (for_flags (fun left forward => TT_tangent_circles left forward q1)) ++ (for_flags
    (fun left forward => TT_tangent_circles left forward q2)) ++ (for_flags (fun left forward =>
    TT_tangent_circles left forward q3)) ++ (for_flags (fun left forward =>
    TT_tangent_circles left forward q4)) ++ (for_flags (fun left forward =>
    TT_tangent_circles left forward q5)) ++ (for_flags (fun left forward =>
    TT_tangent_circles left forward q6)).

(** src/hc_cc_state_space/ccpmpm_dubins_state_space.cpp:394-453 *)
Definition TTTT_path (cstart cend q1 q2 q3 ci1 ci2 : string) : list Stm :=
  [Call ([Declare "TTTT_path.qa"; Declare "TTTT_path.qb"; Declare "TTTT_path.qc"; Declare "TTTT_path.qd";
    Declare "TTTT_path.qe"; Declare "TTTT_path.qf"; Declare "TTTT_path.start1"; Declare "TTTT_path.start2";
    Declare "TTTT_path.end1"; Declare "TTTT_path.end2"; Declare "TTTT_path.middle1";
    Declare "TTTT_path.middle2"; Declare "TTTT_path.middle3"; Declare "TTTT_path.middle4"] ++
    (TTTT_tangent_circles "TTTT_path.qa" "TTTT_path.qb" "TTTT_path.qc" "TTTT_path.qd" "TTTT_path.qe" "TTTT_path.qf")
    ++ [Use "TTTT_path.qa"; New "TTTT_path.start1"; Use "TTTT_path.qa"; New "TTTT_path.middle1";
    Use "TTTT_path.qc"; New "TTTT_path.middle2"; Use "TTTT_path.qc"; New "TTTT_path.end1"; Use "TTTT_path.qd";
    New "TTTT_path.start2"; Use "TTTT_path.qd"; New "TTTT_path.middle3"; Use "TTTT_path.qf";
    New "TTTT_path.middle4"; Use "TTTT_path.qf"; New "TTTT_path.end2"; New q1; New q3; Use "TTTT_path.start1";
    Use q1; Use "TTTT_path.middle1"; Use "TTTT_path.qb"; Use "TTTT_path.middle2"; Use "TTTT_path.qb";
    Use "TTTT_path.end1"; Use q3; Use "TTTT_path.start2"; Use q1; Use "TTTT_path.middle3"; Use "TTTT_path.qe";
    Use "TTTT_path.middle4"; Use "TTTT_path.qe"; Use "TTTT_path.end2"; Use q3; Either
    ([Assign cstart "TTTT_path.start1"; Assign cend "TTTT_path.end1"; Assign ci1 "TTTT_path.middle1";
    Assign ci2 "TTTT_path.middle2"; Assign q2 "TTTT_path.qb"; Delete "TTTT_path.qa"; Delete "TTTT_path.qc";
    Delete "TTTT_path.qd"; Delete "TTTT_path.qe"; Delete "TTTT_path.qf"; Delete "TTTT_path.start2";
    Delete "TTTT_path.end2"; Delete "TTTT_path.middle3"; Delete "TTTT_path.middle4"; Return])
    ([Assign cstart "TTTT_path.start2"; Assign cend "TTTT_path.end2"; Assign ci1 "TTTT_path.middle3";
    Assign ci2 "TTTT_path.middle4"; Assign q2 "TTTT_path.qe"; Delete "TTTT_path.qa"; Delete "TTTT_path.qb";
    Delete "TTTT_path.qc"; Delete "TTTT_path.qd"; Delete "TTTT_path.qf"; Delete "TTTT_path.start1";
    Delete "TTTT_path.end1"; Delete "TTTT_path.middle1"; Delete "TTTT_path.middle2"; Return]); Return])] ++
    [Drop "TTTT_path.qa"; Drop "TTTT_path.qb"; Drop "TTTT_path.qc"; Drop "TTTT_path.qd"; Drop "TTTT_path.qe";
    Drop "TTTT_path.qf"; Drop "TTTT_path.start1"; Drop "TTTT_path.start2"; Drop "TTTT_path.end1";
    Drop "TTTT_path.end2"; Drop "TTTT_path.middle1"; Drop "TTTT_path.middle2"; Drop "TTTT_path.middle3";
    Drop "TTTT_path.middle4"].

(** src/hc_cc_state_space/ccpmpm_dubins_state_space.cpp:472-540, up to the label. *)
Definition table : list Stm :=
  [Call ((map (fun i => SetNull (at_index "qi1" i)) types) ++ (map (fun i => SetNull (at_index "qi2" i))
    types) ++ (map (fun i => SetNull (at_index "qi3" i)) types) ++ (map (fun i => SetNull (at_index "qi4" i))
    types) ++ (map (fun i => SetNull (at_index "cstart" i)) types) ++ (map (fun i => SetNull
    (at_index "ci1" i)) types) ++ (map (fun i => SetNull (at_index "ci2" i)) types) ++ (map (fun i => SetNull
    (at_index "cend" i)) types) ++ [Either ([Return]) ([]); Either ([New (at_index "cstart" "T"); Use
    (at_index "cstart" "T"); Return]) ([]); Either (TT_path (at_index "cstart" "TT") (at_index "cend" "TT")
    (at_index "qi1" "TT") (at_index "qi2" "TT") (at_index "qi3" "TT")) ([]); Either (TST_path
    (at_index "cstart" "TST") (at_index "cend" "TST") (at_index "qi1" "TST") (at_index "qi2" "TST")
    (at_index "qi3" "TST") (at_index "qi4" "TST")) ([]); Either (TTT_path (at_index "cstart" "TTT")
    (at_index "cend" "TTT") (at_index "qi1" "TTT") (at_index "qi2" "TTT") (at_index "qi3" "TTT")
    (at_index "ci1" "TTT")) ([]); Either (TTTT_path (at_index "cstart" "TTTT") (at_index "cend" "TTTT")
    (at_index "qi1" "TTTT") (at_index "qi2" "TTTT") (at_index "qi3" "TTTT") (at_index "ci1" "TTTT")
    (at_index "ci2" "TTTT")) ([])])].

(** src/hc_cc_state_space/ccpmpm_dubins_state_space.cpp:472-565;
  the result is stored in the variable [result]. *)
Definition ccpmpm_circles_dubins_path : list Stm :=
  declare_path "result" ++ flat_map (fun i => map (fun a => Declare (at_index a i)) ["qi1"; "qi2"; "qi3";
    "qi4"; "cstart"; "ci1"; "ci2"; "cend"]) types ++
  declare_path "path" ++ table ++ [Call ([choose (fun best => [Assign (member "path" "qi1")
    (at_index "qi1" best); Assign (member "path" "qi2") (at_index "qi2" best); Assign (member "path" "qi3")
    (at_index "qi3" best); Assign (member "path" "qi4") (at_index "qi4" best); Assign (member "path" "cstart")
    (at_index "cstart" best); Assign (member "path" "cend") (at_index "cend" best); Assign
    (member "path" "ci1") (at_index "ci1" best); Assign (member "path" "ci2") (at_index "ci2" best);
    New "path"] ++ (flat_map (fun i => if String.eqb i best then [] else [Delete (at_index "qi1" i); Delete
    (at_index "qi2" i); Delete (at_index "qi3" i); Delete (at_index "qi4" i); Delete (at_index "cstart" i);
    Delete (at_index "ci1" i); Delete (at_index "ci2" i); Delete (at_index "cend" i)]) types) ++
    (move_path "result" "path") ++ [Return]) types])] ++ drop_path "path" ++
  flat_map (fun i => map (fun a => Drop (at_index a i)) ["qi1"; "qi2"; "qi3"; "qi4"; "cstart"; "ci1"; "ci2";
    "cend"]) types.

(** src/hc_cc_state_space/ccpmpm_dubins_state_space.cpp:567-651;
  the result is stored in the variable [result]. *)
Definition ccpmpm_dubins : list Stm :=
  declare_path "result" ++ flat_map (fun i => [Declare (at_index "start_circle" (num i)); Declare
    (at_index "end_circle" (num i))]) (seq 0 2) ++
  flat_map (fun k => declare_path (at_index "path" (num k))) (seq 0 4) ++
  [Call ([Either ([New (at_index "start_circle" (num (0))); New (at_index "start_circle" (num (1))); New
    (at_index "end_circle" (num (0))); New (at_index "end_circle" (num (1)))]) ([New (at_index "start_circle"
    (num (0))); New (at_index "start_circle" (num (1))); New (at_index "end_circle" (num (0))); New
    (at_index "end_circle" (num (1)))])] ++ (flat_map (fun k => null_path (at_index "path" (num k)))
    (seq 0 4)) ++ (flat_map (fun i => [Call ([Either ([Return]) ([Either ([Return]) ([])])] ++ (flat_map
    (fun j => [Call ([Either ([Return]) ([Either ([Return]) ([])]); Use (at_index "start_circle" (num (i)));
    Use (at_index "end_circle" (num (j))); Proc "ccpmpm_circles_dubins_path" results] ++ (move_path
    (at_index "path" (num (2 * i + j))) "result") ++ [Either ([UseOrNull (at_index "path" (num (2 * i + j)))])
    ([])])]) (seq 0 2)))]) (seq 0 2)) ++ [choose (fun best => (flat_map (fun i => [Delete
    (at_index "start_circle" (num (i))); Delete (at_index "end_circle" (num (i)))]) (seq 0 2)) ++ (flat_map
    (fun i => if Nat.eqb i best then [] else delete_path (at_index "path" (num (i)))) (seq 0 4)) ++
    (move_path "result" (at_index "path" (num (best)))) ++ [Return]) (seq 0 4)])] ++
  flat_map (fun i => [Drop (at_index "start_circle" (num i)); Drop (at_index "end_circle" (num i))]) (seq 0 2)
    ++
  flat_map (fun k => drop_path (at_index "path" (num k))) (seq 0 4).

(** The functions that return a pointer: src/hc_cc_state_space/ccpmpm_dubins_state_space.cpp:567, 472. *)
Definition functions : list (string * list Stm) :=
  [("ccpmpm_dubins", ccpmpm_dubins); ("ccpmpm_circles_dubins_path", ccpmpm_circles_dubins_path)].

(** src/hc_cc_state_space/ccpmpm_dubins_state_space.cpp:653-659 *)
Definition get_distance : list Stm :=
  declare_path "result" ++ declare_path "p" ++ [Call ([Proc "ccpmpm_dubins" results] ++
    (move_path "p" "result") ++ [UseOrNull "p"] ++ (delete_path "p") ++ [Return])] ++ drop_path "p".

(** src/hc_cc_state_space/ccpmpm_dubins_state_space.cpp:661-701 *)
Definition get_controls : list Stm :=
  declare_path "result" ++ declare_path "p" ++ [Call ([Proc "ccpmpm_dubins" results] ++
    (move_path "p" "result") ++ [UseOrNull "p"; choose (fun uses => uses) [[];
    [UseOrNull (member "p" "cstart"); UseOrNull "p"];
    [UseOrNull (member "p" "cstart"); UseOrNull (member "p" "qi1"); UseOrNull (member "p" "cend"); UseOrNull
      (member "p" "qi3")];
    [UseOrNull (member "p" "cstart"); UseOrNull (member "p" "qi1"); UseOrNull (member "p" "qi2"); UseOrNull
      (member "p" "qi3"); UseOrNull (member "p" "cend"); UseOrNull (member "p" "qi4")];
    [UseOrNull (member "p" "cstart"); UseOrNull (member "p" "qi1"); UseOrNull (member "p" "ci1"); UseOrNull
      (member "p" "qi2"); UseOrNull (member "p" "cend"); UseOrNull (member "p" "qi3")];
    [UseOrNull (member "p" "cstart"); UseOrNull (member "p" "qi1"); UseOrNull (member "p" "ci1"); UseOrNull
      (member "p" "qi2"); UseOrNull (member "p" "ci2"); UseOrNull (member "p" "qi2"); UseOrNull
      (member "p" "cend"); UseOrNull (member "p" "qi3")];
    []]] ++ (delete_path "p") ++ [Return])] ++ drop_path "p".

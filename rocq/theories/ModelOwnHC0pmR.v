(** * The pointer statements of src/hc_cc_state_space/hc0pm_reeds_shepp_state_space.cpp

    Written from the source function by function in the language of ModelHeap.v; every pointer statement
    and every dereferencing is kept, in the order of the source. A function with parameters of type
    "Configuration **" or "HC_CC_Circle **" takes the names of the variables they point to. Branches on
    [c1.left] and [c1.forward] are branches on parameters, the other ones may go either way. *)
From Coq Require Import List String Bool Arith.
From Verif Require Import ModelHeap ModelOwn.
Import ListNotations.
Open Scope string_scope.
Open Scope list_scope.

(** include/steering_functions/hc_cc_state_space/paths.hpp:100-124 *)
Definition types : list string :=
  ["E"; "S"; "T"; "TT"; "TcT"; "TcTcT"; "TcTT"; "TTcT"; "TST"; "TSTcT"; "TcTST"; "TcTSTcT"; "TTcTT"; "TcTTcT"; "TTT"; "TcST"; "TScT"; "TcScT"].

(** The destructor in src/hc_cc_state_space/paths.cpp:157-166; deleting a null pointer does nothing. *)
Definition delete_path (p : string) : list Stm :=
  map (fun m => Delete (member p m)) ["qi1"; "qi2"; "qi3"; "qi4"; "cstart"; "ci1"; "ci2"; "cend"] ++ [Delete p].

(** src/hc_cc_state_space/hc0pm_reeds_shepp_state_space.cpp:69-98 *)
Definition TT_tangent_circles (left forward : bool) (q : string) : list Stm :=
  (if left then if forward then [] else [] else if forward then [] else []) ++ [New q].

(** src/hc_cc_state_space/hc0pm_reeds_shepp_state_space.cpp:100-108 *)
Definition TT_path (cstart cend q1 q2 : string) : list Stm :=
  [Call ((for_flags (fun left forward => TT_tangent_circles left forward q1)) ++ [New cstart; Use q1;
    New cend; New q2; Use cstart; Use q1; Use cend; Use q2; Return])].

(** src/hc_cc_state_space/hc0pm_reeds_shepp_state_space.cpp:124-158 *)
Definition TcT_tangent_circles (left forward : bool) (q : string) : list Stm :=
  (if left then if forward then [] else [] else if forward then [] else []) ++ [New q].

(** src/hc_cc_state_space/hc0pm_reeds_shepp_state_space.cpp:160-167 *)
Definition TcT_path (cstart cend q : string) : list Stm :=
  [Call ((for_flags (fun left forward => TcT_tangent_circles left forward q)) ++ [New cstart; New cend;
    Use cstart; Use q; Use cend; Use q; Return])].

(** src/hc_cc_state_space/hc0pm_reeds_shepp_state_space.cpp:185-203 *)
Definition TcTcT_tangent_circles (q1 q2 q3 q4 : string) : list Stm :=
  (for_flags (fun left forward => TcT_tangent_circles left forward q1)) ++ (for_flags (fun left forward =>
    TcT_tangent_circles left forward q2)) ++ (for_flags (fun left forward =>
    TcT_tangent_circles left forward q3)) ++ (for_flags (fun left forward =>
    TcT_tangent_circles left forward q4)).

(** src/hc_cc_state_space/hc0pm_reeds_shepp_state_space.cpp:205-241 *)
Definition TcTcT_path (cstart cend q1 q2 ci : string) : list Stm :=
  [Call ([Declare "TcTcT_path.qa"; Declare "TcTcT_path.qb"; Declare "TcTcT_path.qc"; Declare "TcTcT_path.qd";
    Declare "TcTcT_path.middle1"; Declare "TcTcT_path.middle2"] ++
    (TcTcT_tangent_circles "TcTcT_path.qa" "TcTcT_path.qb" "TcTcT_path.qc" "TcTcT_path.qd") ++
    [Use "TcTcT_path.qa"; New "TcTcT_path.middle1"; Use "TcTcT_path.qc"; New "TcTcT_path.middle2"; New cstart;
    New cend; Use cstart; Use "TcTcT_path.qa"; Use "TcTcT_path.middle1"; Use "TcTcT_path.qb"; Use cend;
    Use "TcTcT_path.qb"; Use cstart; Use "TcTcT_path.qc"; Use "TcTcT_path.middle2"; Use "TcTcT_path.qd";
    Use cend; Use "TcTcT_path.qd"; Either ([Assign q1 "TcTcT_path.qa"; Assign q2 "TcTcT_path.qb";
    Assign ci "TcTcT_path.middle1"; Delete "TcTcT_path.qc"; Delete "TcTcT_path.qd";
    Delete "TcTcT_path.middle2"; Return]) ([Assign q1 "TcTcT_path.qc"; Assign q2 "TcTcT_path.qd";
    Assign ci "TcTcT_path.middle2"; Delete "TcTcT_path.qa"; Delete "TcTcT_path.qb";
    Delete "TcTcT_path.middle1"; Return]); Return])] ++ [Drop "TcTcT_path.qa"; Drop "TcTcT_path.qb";
    Drop "TcTcT_path.qc"; Drop "TcTcT_path.qd"; Drop "TcTcT_path.middle1"; Drop "TcTcT_path.middle2"].

(** src/hc_cc_state_space/hc0pm_reeds_shepp_state_space.cpp:257-276 *)
Definition TcTT_tangent_circles (q1 q2 q3 q4 : string) : list Stm :=
  (for_flags (fun left forward => TcT_tangent_circles left forward q1)) ++ (for_flags (fun left forward =>
    TT_tangent_circles left forward q2)) ++ (for_flags (fun left forward =>
    TcT_tangent_circles left forward q3)) ++ (for_flags (fun left forward =>
    TT_tangent_circles left forward q4)).

(** src/hc_cc_state_space/hc0pm_reeds_shepp_state_space.cpp:278-320 *)
Definition TcTT_path (cstart cend q1 q2 ci : string) : list Stm :=
  [Call ([Declare "TcTT_path.qa"; Declare "TcTT_path.qb"; Declare "TcTT_path.qc"; Declare "TcTT_path.qd";
    Declare "TcTT_path.end1"; Declare "TcTT_path.end2"; Declare "TcTT_path.middle1";
    Declare "TcTT_path.middle2"] ++
    (TcTT_tangent_circles "TcTT_path.qa" "TcTT_path.qb" "TcTT_path.qc" "TcTT_path.qd") ++ [Use "TcTT_path.qb";
    New "TcTT_path.middle1"; Use "TcTT_path.qd"; New "TcTT_path.middle2"; Use "TcTT_path.qb";
    New "TcTT_path.end1"; Use "TcTT_path.qd"; New "TcTT_path.end2"; New cstart; New q2; Use cstart;
    Use "TcTT_path.qa"; Use "TcTT_path.middle1"; Use "TcTT_path.qa"; Use "TcTT_path.end1"; Use q2; Use cstart;
    Use "TcTT_path.qc"; Use "TcTT_path.middle2"; Use "TcTT_path.qc"; Use "TcTT_path.end2"; Use q2; Either
    ([Assign cend "TcTT_path.end1"; Assign q1 "TcTT_path.qa"; Assign ci "TcTT_path.middle1";
    Delete "TcTT_path.qb"; Delete "TcTT_path.qc"; Delete "TcTT_path.qd"; Delete "TcTT_path.middle2";
    Delete "TcTT_path.end2"; Return]) ([Assign cend "TcTT_path.end2"; Assign q1 "TcTT_path.qc";
    Assign ci "TcTT_path.middle2"; Delete "TcTT_path.qa"; Delete "TcTT_path.qb"; Delete "TcTT_path.qd";
    Delete "TcTT_path.middle1"; Delete "TcTT_path.end1"; Return]); Return])] ++ [Drop "TcTT_path.qa";
    Drop "TcTT_path.qb"; Drop "TcTT_path.qc"; Drop "TcTT_path.qd"; Drop "TcTT_path.end1";
    Drop "TcTT_path.end2"; Drop "TcTT_path.middle1"; Drop "TcTT_path.middle2"].

(** src/hc_cc_state_space/hc0pm_reeds_shepp_state_space.cpp:336-355 *)
Definition TTcT_tangent_circles (q1 q2 q3 q4 : string) : list Stm :=
  (for_flags (fun left forward => TT_tangent_circles left forward q1)) ++ (for_flags (fun left forward =>
    TcT_tangent_circles left forward q2)) ++ (for_flags (fun left forward =>
    TT_tangent_circles left forward q3)) ++ (for_flags (fun left forward =>
    TcT_tangent_circles left forward q4)).

(** src/hc_cc_state_space/hc0pm_reeds_shepp_state_space.cpp:357-393 *)
Definition TTcT_path (cstart cend q1 q2 ci : string) : list Stm :=
  [Call ([Declare "TTcT_path.qa"; Declare "TTcT_path.qb"; Declare "TTcT_path.qc"; Declare "TTcT_path.qd";
    Declare "TTcT_path.middle1"; Declare "TTcT_path.middle2"] ++
    (TTcT_tangent_circles "TTcT_path.qa" "TTcT_path.qb" "TTcT_path.qc" "TTcT_path.qd") ++ [Use "TTcT_path.qa";
    New "TTcT_path.middle1"; Use "TTcT_path.qc"; New "TTcT_path.middle2"; New cstart; New cend; Use cstart;
    Use "TTcT_path.qa"; Use "TTcT_path.middle1"; Use "TTcT_path.qb"; Use cend; Use "TTcT_path.qb"; Use cstart;
    Use "TTcT_path.qc"; Use "TTcT_path.middle2"; Use "TTcT_path.qd"; Use cend; Use "TTcT_path.qd"; Either
    ([Assign q1 "TTcT_path.qa"; Assign q2 "TTcT_path.qb"; Assign ci "TTcT_path.middle1";
    Delete "TTcT_path.qc"; Delete "TTcT_path.qd"; Delete "TTcT_path.middle2"; Return])
    ([Assign q1 "TTcT_path.qc"; Assign q2 "TTcT_path.qd"; Assign ci "TTcT_path.middle2";
    Delete "TTcT_path.qa"; Delete "TTcT_path.qb"; Delete "TTcT_path.middle1"; Return]); Return])] ++
    [Drop "TTcT_path.qa"; Drop "TTcT_path.qb"; Drop "TTcT_path.qc"; Drop "TTcT_path.qd";
    Drop "TTcT_path.middle1"; Drop "TTcT_path.middle2"].

(** src/hc_cc_state_space/hc0pm_reeds_shepp_state_space.cpp:427-468 *)
Definition TiST_tangent_circles (left forward : bool) (q1 q2 : string) : list Stm :=
  (if (left && forward) then [New q1; New q2] else []) ++ (if (left && negb forward) then [New q1; New q2]
    else []) ++ (if (negb left && forward) then [New q1; New q2] else []) ++ (if (negb left && negb forward)
    then [New q1; New q2] else []).

(** src/hc_cc_state_space/hc0pm_reeds_shepp_state_space.cpp:470-505 *)
Definition TeST_tangent_circles (left forward : bool) (q1 q2 : string) : list Stm :=
  (if (left && forward) then [New q1; New q2] else []) ++ (if (left && negb forward) then [New q1; New q2]
    else []) ++ (if (negb left && forward) then [New q1; New q2] else []) ++ (if (negb left && negb forward)
    then [New q1; New q2] else []).

(** src/hc_cc_state_space/hc0pm_reeds_shepp_state_space.cpp:507-515 *)
Definition TiST_path (cstart cend q1 q2 q3 : string) : list Stm :=
  [Call ((for_flags (fun left forward => TiST_tangent_circles left forward q1 q2)) ++ [New cstart; Use q2;
    New cend; New q3; Use cstart; Use q1; Use q1; Use q2; Use cend; Use q3; Return])].

(** src/hc_cc_state_space/hc0pm_reeds_shepp_state_space.cpp:517-525 *)
Definition TeST_path (cstart cend q1 q2 q3 : string) : list Stm :=
  [Call ((for_flags (fun left forward => TeST_tangent_circles left forward q1 q2)) ++ [New cstart; Use q2;
    New cend; New q3; Use cstart; Use q1; Use q1; Use q2; Use cend; Use q3; Return])].

(** src/hc_cc_state_space/hc0pm_reeds_shepp_state_space.cpp:527-539 *)
Definition TST_path (cstart cend q1 q2 q3 : string) : list Stm :=
  [Call ([Either ((TiST_path cstart cend q1 q2 q3) ++ [Return]) ([]); Either ((TeST_path cstart cend q1 q2 q3)
    ++ [Return]) ([]); Return])].

(** src/hc_cc_state_space/hc0pm_reeds_shepp_state_space.cpp:574-594 *)
Definition TiSTcT_path (cstart cend q1 q2 q3 ci : string) : list Stm :=
  [Call ((for_flags (fun left forward => TiST_tangent_circles left forward q1 q2)) ++ (for_flags
    (fun left forward => TcT_tangent_circles left forward q3)) ++ [New cstart; New cend; Use q2; New ci;
    Use cstart; Use q1; Use q1; Use q2; Use ci; Use q3; Use cend; Use q3; Return])].

(** src/hc_cc_state_space/hc0pm_reeds_shepp_state_space.cpp:596-616 *)
Definition TeSTcT_path (cstart cend q1 q2 q3 ci : string) : list Stm :=
  [Call ((for_flags (fun left forward => TeST_tangent_circles left forward q1 q2)) ++ (for_flags
    (fun left forward => TcT_tangent_circles left forward q3)) ++ [New cstart; New cend; Use q2; New ci;
    Use cstart; Use q1; Use q1; Use q2; Use ci; Use q3; Use cend; Use q3; Return])].

(** src/hc_cc_state_space/hc0pm_reeds_shepp_state_space.cpp:618-630 *)
Definition TSTcT_path (cstart cend q1 q2 q3 ci : string) : list Stm :=
  [Call ([Either ((TiSTcT_path cstart cend q1 q2 q3 ci) ++ [Return]) ([]); Either
    ((TeSTcT_path cstart cend q1 q2 q3 ci) ++ [Return]) ([]); Return])].

(** src/hc_cc_state_space/hc0pm_reeds_shepp_state_space.cpp:665-687 *)
Definition TcTiST_path (cstart cend q1 q2 q3 q4 ci : string) : list Stm :=
  [Call ((for_flags (fun left forward => TcT_tangent_circles left forward q1)) ++ (for_flags
    (fun left forward => TiST_tangent_circles left forward q2 q3)) ++ [New cstart; Use q3; New cend; New q4;
    Use q2; New ci; Use cstart; Use q1; Use ci; Use q1; Use q2; Use q3; Use cend; Use q4; Return])].

(** src/hc_cc_state_space/hc0pm_reeds_shepp_state_space.cpp:689-711 *)
Definition TcTeST_path (cstart cend q1 q2 q3 q4 ci : string) : list Stm :=
  [Call ((for_flags (fun left forward => TcT_tangent_circles left forward q1)) ++ (for_flags
    (fun left forward => TeST_tangent_circles left forward q2 q3)) ++ [New cstart; Use q3; New cend; New q4;
    Use q2; New ci; Use cstart; Use q1; Use ci; Use q1; Use q2; Use q3; Use cend; Use q4; Return])].

(** src/hc_cc_state_space/hc0pm_reeds_shepp_state_space.cpp:713-726 *)
Definition TcTST_path (cstart cend q1 q2 q3 q4 ci : string) : list Stm :=
  [Call ([Either ((TcTiST_path cstart cend q1 q2 q3 q4 ci) ++ [Return]) ([]); Either
    ((TcTeST_path cstart cend q1 q2 q3 q4 ci) ++ [Return]) ([]); Return])].

(** src/hc_cc_state_space/hc0pm_reeds_shepp_state_space.cpp:761-786 *)
Definition TcTiSTcT_path (cstart cend q1 q2 q3 q4 ci1 ci2 : string) : list Stm :=
  [Call ((for_flags (fun left forward => TcT_tangent_circles left forward q1)) ++ (for_flags
    (fun left forward => TiST_tangent_circles left forward q2 q3)) ++ (for_flags (fun left forward =>
    TcT_tangent_circles left forward q4)) ++ [New cstart; New cend; Use q2; New ci1; Use q3; New ci2;
    Use cstart; Use q1; Use ci1; Use q1; Use q2; Use q3; Use ci2; Use q4; Use cend; Use q4; Return])].

(** src/hc_cc_state_space/hc0pm_reeds_shepp_state_space.cpp:788-813 *)
Definition TcTeSTcT_path (cstart cend q1 q2 q3 q4 ci1 ci2 : string) : list Stm :=
  [Call ((for_flags (fun left forward => TcT_tangent_circles left forward q1)) ++ (for_flags
    (fun left forward => TeST_tangent_circles left forward q2 q3)) ++ (for_flags (fun left forward =>
    TcT_tangent_circles left forward q4)) ++ [New cstart; New cend; Use q2; New ci1; Use q3; New ci2;
    Use cstart; Use q1; Use ci1; Use q1; Use q2; Use q3; Use ci2; Use q4; Use cend; Use q4; Return])].

(** src/hc_cc_state_space/hc0pm_reeds_shepp_state_space.cpp:815-828 *)
Definition TcTSTcT_path (cstart cend q1 q2 q3 q4 ci1 ci2 : string) : list Stm :=
  [Call ([Either ((TcTiSTcT_path cstart cend q1 q2 q3 q4 ci1 ci2) ++ [Return]) ([]); Either
    ((TcTeSTcT_path cstart cend q1 q2 q3 q4 ci1 ci2) ++ [Return]) ([]); Return])].

(** src/hc_cc_state_space/hc0pm_reeds_shepp_state_space.cpp:844-879 *)
Definition TTcTT_tangent_circles (q1 q2 q3 q4 q5 q6 : string) : list Stm :=
  [Either ([]) ([])] ++ (for_flags (fun left forward => TT_tangent_circles left forward q1)) ++ (for_flags
    (fun left forward => TcT_tangent_circles left forward q2)) ++ (for_flags (fun left forward =>
    TT_tangent_circles left forward q3)) ++ (for_flags (fun left forward =>
    TT_tangent_circles left forward q4)) ++ (for_flags (fun left forward =>
    TcT_tangent_circles left forward q5)) ++ (for_flags (fun left forward =>
    TT_tangent_circles left forward q6)).

(** src/hc_cc_state_space/hc0pm_reeds_shepp_state_space.cpp:881-936 *)
Definition TTcTT_path (cstart cend q1 q2 q3 ci1 ci2 : string) : list Stm :=
  [Call ([Declare "TTcTT_path.qa"; Declare "TTcTT_path.qb"; Declare "TTcTT_path.qc"; Declare "TTcTT_path.qd";
    Declare "TTcTT_path.qe"; Declare "TTcTT_path.qf"; Declare "TTcTT_path.end1"; Declare "TTcTT_path.end2";
    Declare "TTcTT_path.middle1"; Declare "TTcTT_path.middle2"; Declare "TTcTT_path.middle3";
    Declare "TTcTT_path.middle4"] ++
    (TTcTT_tangent_circles "TTcTT_path.qa" "TTcTT_path.qb" "TTcTT_path.qc" "TTcTT_path.qd" "TTcTT_path.qe" "TTcTT_path.qf")
    ++ [Use "TTcTT_path.qa"; New "TTcTT_path.middle1"; Use "TTcTT_path.qc"; New "TTcTT_path.middle2";
    Use "TTcTT_path.qc"; New "TTcTT_path.end1"; Use "TTcTT_path.qd"; New "TTcTT_path.middle3";
    Use "TTcTT_path.qf"; New "TTcTT_path.middle4"; Use "TTcTT_path.qf"; New "TTcTT_path.end2"; New cstart;
    New q3; Use cstart; Use "TTcTT_path.qa"; Use "TTcTT_path.middle1"; Use "TTcTT_path.qb";
    Use "TTcTT_path.middle2"; Use "TTcTT_path.qb"; Use "TTcTT_path.end1"; Use q3; Use cstart;
    Use "TTcTT_path.qd"; Use "TTcTT_path.middle3"; Use "TTcTT_path.qe"; Use "TTcTT_path.middle4";
    Use "TTcTT_path.qe"; Use "TTcTT_path.end2"; Use q3; Either ([Assign cend "TTcTT_path.end1";
    Assign q1 "TTcTT_path.qa"; Assign q2 "TTcTT_path.qb"; Assign ci1 "TTcTT_path.middle1";
    Assign ci2 "TTcTT_path.middle2"; Delete "TTcTT_path.qc"; Delete "TTcTT_path.qd"; Delete "TTcTT_path.qe";
    Delete "TTcTT_path.qf"; Delete "TTcTT_path.middle3"; Delete "TTcTT_path.middle4";
    Delete "TTcTT_path.end2"; Return]) ([Assign cend "TTcTT_path.end2"; Assign q1 "TTcTT_path.qd";
    Assign q2 "TTcTT_path.qe"; Assign ci1 "TTcTT_path.middle3"; Assign ci2 "TTcTT_path.middle4";
    Delete "TTcTT_path.qa"; Delete "TTcTT_path.qb"; Delete "TTcTT_path.qc"; Delete "TTcTT_path.qf";
    Delete "TTcTT_path.middle1"; Delete "TTcTT_path.middle2"; Delete "TTcTT_path.end1"; Return]); Return])] ++
    [Drop "TTcTT_path.qa"; Drop "TTcTT_path.qb"; Drop "TTcTT_path.qc"; Drop "TTcTT_path.qd";
    Drop "TTcTT_path.qe"; Drop "TTcTT_path.qf"; Drop "TTcTT_path.end1"; Drop "TTcTT_path.end2";
    Drop "TTcTT_path.middle1"; Drop "TTcTT_path.middle2"; Drop "TTcTT_path.middle3";
    Drop "TTcTT_path.middle4"].

(** src/hc_cc_state_space/hc0pm_reeds_shepp_state_space.cpp:952-979 *)
Definition TcTTcT_tangent_circles (q1 q2 q3 q4 q5 q6 : string) : list Stm :=
  (for_flags (fun left forward => TcT_tangent_circles left forward q1)) ++ (for_flags (fun left forward =>
    TT_tangent_circles left forward q2)) ++ (for_flags (fun left forward =>
    TcT_tangent_circles left forward q3)) ++ (for_flags (fun left forward =>
    TcT_tangent_circles left forward q4)) ++ (for_flags (fun left forward =>
    TT_tangent_circles left forward q5)) ++ (for_flags (fun left forward =>
    TcT_tangent_circles left forward q6)).

(** src/hc_cc_state_space/hc0pm_reeds_shepp_state_space.cpp:981-1029 *)
Definition TcTTcT_path (cstart cend q1 q2 ci1 ci2 : string) : list Stm :=
  [Call ([Declare "TcTTcT_path.qa"; Declare "TcTTcT_path.qb"; Declare "TcTTcT_path.qc";
    Declare "TcTTcT_path.qd"; Declare "TcTTcT_path.qe"; Declare "TcTTcT_path.qf";
    Declare "TcTTcT_path.middle1"; Declare "TcTTcT_path.middle2"; Declare "TcTTcT_path.middle3";
    Declare "TcTTcT_path.middle4"] ++
    (TcTTcT_tangent_circles "TcTTcT_path.qa" "TcTTcT_path.qb" "TcTTcT_path.qc" "TcTTcT_path.qd" "TcTTcT_path.qe" "TcTTcT_path.qf")
    ++ [Use "TcTTcT_path.qb"; New "TcTTcT_path.middle1"; Use "TcTTcT_path.qb"; New "TcTTcT_path.middle2";
    Use "TcTTcT_path.qe"; New "TcTTcT_path.middle3"; Use "TcTTcT_path.qe"; New "TcTTcT_path.middle4";
    New cstart; New cend; Use cstart; Use "TcTTcT_path.qa"; Use "TcTTcT_path.middle1"; Use "TcTTcT_path.qa";
    Use "TcTTcT_path.middle2"; Use "TcTTcT_path.qc"; Use cend; Use "TcTTcT_path.qc"; Use cstart;
    Use "TcTTcT_path.qd"; Use "TcTTcT_path.middle3"; Use "TcTTcT_path.qd"; Use "TcTTcT_path.middle4";
    Use "TcTTcT_path.qf"; Use cend; Use "TcTTcT_path.qf"; Either ([Assign q1 "TcTTcT_path.qa";
    Assign q2 "TcTTcT_path.qc"; Assign ci1 "TcTTcT_path.middle1"; Assign ci2 "TcTTcT_path.middle2";
    Delete "TcTTcT_path.qb"; Delete "TcTTcT_path.qd"; Delete "TcTTcT_path.qe"; Delete "TcTTcT_path.qf";
    Delete "TcTTcT_path.middle3"; Delete "TcTTcT_path.middle4"; Return]) ([Assign q1 "TcTTcT_path.qd";
    Assign q2 "TcTTcT_path.qf"; Assign ci1 "TcTTcT_path.middle3"; Assign ci2 "TcTTcT_path.middle4";
    Delete "TcTTcT_path.qa"; Delete "TcTTcT_path.qb"; Delete "TcTTcT_path.qc"; Delete "TcTTcT_path.qe";
    Delete "TcTTcT_path.middle1"; Delete "TcTTcT_path.middle2"; Return]); Return])] ++ [Drop "TcTTcT_path.qa";
    Drop "TcTTcT_path.qb"; Drop "TcTTcT_path.qc"; Drop "TcTTcT_path.qd"; Drop "TcTTcT_path.qe";
    Drop "TcTTcT_path.qf"; Drop "TcTTcT_path.middle1"; Drop "TcTTcT_path.middle2"; Drop "TcTTcT_path.middle3";
    Drop "TcTTcT_path.middle4"].

(** src/hc_cc_state_space/hc0pm_reeds_shepp_state_space.cpp:1047-1065 *)
Definition TTT_tangent_circles (q1 q2 q3 q4 : string) : list Stm :=
  (for_flags (fun left forward => TT_tangent_circles left forward q1)) ++ (for_flags (fun left forward =>
    TT_tangent_circles left forward q2)) ++ (for_flags (fun left forward =>
    TT_tangent_circles left forward q3)) ++ (for_flags (fun left forward =>
    TT_tangent_circles left forward q4)).

(** src/hc_cc_state_space/hc0pm_reeds_shepp_state_space.cpp:1067-1109 *)
Definition TTT_path (cstart cend q1 q2 q3 ci : string) : list Stm :=
  [Call ([Declare "TTT_path.qa"; Declare "TTT_path.qb"; Declare "TTT_path.qc"; Declare "TTT_path.qd";
    Declare "TTT_path.end1"; Declare "TTT_path.end2"; Declare "TTT_path.middle1"; Declare "TTT_path.middle2"]
    ++ (TTT_tangent_circles "TTT_path.qa" "TTT_path.qb" "TTT_path.qc" "TTT_path.qd") ++ [Use "TTT_path.qa";
    New "TTT_path.middle1"; Use "TTT_path.qb"; New "TTT_path.end1"; Use "TTT_path.qc"; New "TTT_path.middle2";
    Use "TTT_path.qd"; New "TTT_path.end2"; New cstart; New q3; Use cstart; Use "TTT_path.qa";
    Use "TTT_path.middle1"; Use "TTT_path.qb"; Use "TTT_path.end1"; Use q3; Use cstart; Use "TTT_path.qc";
    Use "TTT_path.middle2"; Use "TTT_path.qd"; Use "TTT_path.end2"; Use q3; Either
    ([Assign cend "TTT_path.end1"; Assign q1 "TTT_path.qa"; Assign q2 "TTT_path.qb";
    Assign ci "TTT_path.middle1"; Delete "TTT_path.qc"; Delete "TTT_path.qd"; Delete "TTT_path.middle2";
    Delete "TTT_path.end2"; Return]) ([Assign cend "TTT_path.end2"; Assign q1 "TTT_path.qc";
    Assign q2 "TTT_path.qd"; Assign ci "TTT_path.middle2"; Delete "TTT_path.qa"; Delete "TTT_path.qb";
    Delete "TTT_path.middle1"; Delete "TTT_path.end1"; Return]); Return])] ++ [Drop "TTT_path.qa";
    Drop "TTT_path.qb"; Drop "TTT_path.qc"; Drop "TTT_path.qd"; Drop "TTT_path.end1"; Drop "TTT_path.end2";
    Drop "TTT_path.middle1"; Drop "TTT_path.middle2"].

(** src/hc_cc_state_space/hc0pm_reeds_shepp_state_space.cpp:1143-1188 *)
Definition TciST_path (left forward : bool) (cstart cend q1 q2 q3 : string) : list Stm :=
  [Call ((if (left && forward) then [New q1; New q2] else []) ++ (if (left && negb forward) then [New q1;
    New q2] else []) ++ (if (negb left && forward) then [New q1; New q2] else []) ++ (if
    (negb left && negb forward) then [New q1; New q2] else []) ++ [New q3; New cstart; Use q2; New cend;
    Use cstart; Use q1; Use q1; Use q2; Use cend; Use q3; Return])].

(** src/hc_cc_state_space/hc0pm_reeds_shepp_state_space.cpp:1190-1235 *)
Definition TceST_path (left forward : bool) (cstart cend q1 q2 q3 : string) : list Stm :=
  [Call ((if (left && forward) then [New q1; New q2] else []) ++ (if (left && negb forward) then [New q1;
    New q2] else []) ++ (if (negb left && forward) then [New q1; New q2] else []) ++ (if
    (negb left && negb forward) then [New q1; New q2] else []) ++ [New q3; New cstart; Use q2; New cend;
    Use cstart; Use q1; Use q1; Use q2; Use cend; Use q3; Return])].

(** src/hc_cc_state_space/hc0pm_reeds_shepp_state_space.cpp:1237-1249 *)
Definition TcST_path (cstart cend q1 q2 q3 : string) : list Stm :=
  [Call ([Either ((for_flags (fun left forward => TciST_path left forward cstart cend q1 q2 q3)) ++ [Return])
    ([]); Either ((for_flags (fun left forward => TceST_path left forward cstart cend q1 q2 q3)) ++ [Return])
    ([]); Return])].

(** src/hc_cc_state_space/hc0pm_reeds_shepp_state_space.cpp:1283-1328 *)
Definition TiScT_path (left forward : bool) (cstart cend q1 q2 : string) : list Stm :=
  [Call ((if (left && forward) then [New q1; New q2] else []) ++ (if (left && negb forward) then [New q1;
    New q2] else []) ++ (if (negb left && forward) then [New q1; New q2] else []) ++ (if
    (negb left && negb forward) then [New q1; New q2] else []) ++ [New cstart; New cend; Use cstart; Use q1;
    Use q1; Use q2; Use cend; Use q2; Return])].

(** src/hc_cc_state_space/hc0pm_reeds_shepp_state_space.cpp:1330-1374 *)
Definition TeScT_path (left forward : bool) (cstart cend q1 q2 : string) : list Stm :=
  [Call ((if (left && forward) then [New q1; New q2] else []) ++ (if (left && negb forward) then [New q1;
    New q2] else []) ++ (if (negb left && forward) then [New q1; New q2] else []) ++ (if
    (negb left && negb forward) then [New q1; New q2] else []) ++ [New cstart; New cend; Use cstart; Use q1;
    Use q1; Use q2; Use cend; Use q2; Return])].

(** src/hc_cc_state_space/hc0pm_reeds_shepp_state_space.cpp:1376-1388 *)
Definition TScT_path (cstart cend q1 q2 : string) : list Stm :=
  [Call ([Either ((for_flags (fun left forward => TiScT_path left forward cstart cend q1 q2)) ++ [Return])
    ([]); Either ((for_flags (fun left forward => TeScT_path left forward cstart cend q1 q2)) ++ [Return])
    ([]); Return])].

(** src/hc_cc_state_space/hc0pm_reeds_shepp_state_space.cpp:1422-1464 *)
Definition TciScT_path (left forward : bool) (cstart cend q1 q2 : string) : list Stm :=
  [Call ((if (left && forward) then [New q1; New q2] else []) ++ (if (left && negb forward) then [New q1;
    New q2] else []) ++ (if (negb left && forward) then [New q1; New q2] else []) ++ (if
    (negb left && negb forward) then [New q1; New q2] else []) ++ [New cstart; New cend; Use cstart; Use q1;
    Use q1; Use q2; Use cend; Use q2; Return])].

(** src/hc_cc_state_space/hc0pm_reeds_shepp_state_space.cpp:1466-1504 *)
Definition TceScT_path (left forward : bool) (cstart cend q1 q2 : string) : list Stm :=
  [Call ((if (left && forward) then [New q1; New q2] else []) ++ (if (left && negb forward) then [New q1;
    New q2] else []) ++ (if (negb left && forward) then [New q1; New q2] else []) ++ (if
    (negb left && negb forward) then [New q1; New q2] else []) ++ [New cstart; New cend; Use cstart; Use q1;
    Use q1; Use q2; Use cend; Use q2; Return])].

(** src/hc_cc_state_space/hc0pm_reeds_shepp_state_space.cpp:1506-1518 *)
Definition TcScT_path (cstart cend q1 q2 : string) : list Stm :=
  [Call ([Either ((for_flags (fun left forward => TciScT_path left forward cstart cend q1 q2)) ++ [Return])
    ([]); Either ((for_flags (fun left forward => TceScT_path left forward cstart cend q1 q2)) ++ [Return])
    ([]); Return])].

(** src/hc_cc_state_space/hc0pm_reeds_shepp_state_space.cpp:1534-1675, up to the label. *)
Definition table : list Stm :=
  [Call ((map (fun i => SetNull (at_index "qi1" i)) types) ++ (map (fun i => SetNull (at_index "qi2" i))
    types) ++ (map (fun i => SetNull (at_index "qi3" i)) types) ++ (map (fun i => SetNull (at_index "qi4" i))
    types) ++ (map (fun i => SetNull (at_index "cstart" i)) types) ++ (map (fun i => SetNull
    (at_index "ci1" i)) types) ++ (map (fun i => SetNull (at_index "ci2" i)) types) ++ (map (fun i => SetNull
    (at_index "cend" i)) types) ++ [Either ([Return]) ([]); Either ([New (at_index "cstart" "T"); Use
    (at_index "cstart" "T"); Return]) ([]); Either (TT_path (at_index "cstart" "TT") (at_index "cend" "TT")
    (at_index "qi1" "TT") (at_index "qi2" "TT")) ([]); Either (TcT_path (at_index "cstart" "TcT")
    (at_index "cend" "TcT") (at_index "qi1" "TcT")) ([]); Either (TcTcT_path (at_index "cstart" "TcTcT")
    (at_index "cend" "TcTcT") (at_index "qi1" "TcTcT") (at_index "qi2" "TcTcT") (at_index "ci1" "TcTcT"))
    ([]); Either (TcTT_path (at_index "cstart" "TcTT") (at_index "cend" "TcTT") (at_index "qi1" "TcTT")
    (at_index "qi2" "TcTT") (at_index "ci1" "TcTT")) ([]); Either (TTcT_path (at_index "cstart" "TTcT")
    (at_index "cend" "TTcT") (at_index "qi1" "TTcT") (at_index "qi2" "TTcT") (at_index "ci1" "TTcT")) ([]);
    Either (TST_path (at_index "cstart" "TST") (at_index "cend" "TST") (at_index "qi1" "TST")
    (at_index "qi2" "TST") (at_index "qi3" "TST")) ([]); Either (TSTcT_path (at_index "cstart" "TSTcT")
    (at_index "cend" "TSTcT") (at_index "qi1" "TSTcT") (at_index "qi2" "TSTcT") (at_index "qi3" "TSTcT")
    (at_index "ci1" "TSTcT")) ([]); Either (TcTST_path (at_index "cstart" "TcTST") (at_index "cend" "TcTST")
    (at_index "qi1" "TcTST") (at_index "qi2" "TcTST") (at_index "qi3" "TcTST") (at_index "qi4" "TcTST")
    (at_index "ci1" "TcTST")) ([]); Either (TcTSTcT_path (at_index "cstart" "TcTSTcT")
    (at_index "cend" "TcTSTcT") (at_index "qi1" "TcTSTcT") (at_index "qi2" "TcTSTcT")
    (at_index "qi3" "TcTSTcT") (at_index "qi4" "TcTSTcT") (at_index "ci1" "TcTSTcT")
    (at_index "ci2" "TcTSTcT")) ([]); Either (TTcTT_path (at_index "cstart" "TTcTT") (at_index "cend" "TTcTT")
    (at_index "qi1" "TTcTT") (at_index "qi2" "TTcTT") (at_index "qi3" "TTcTT") (at_index "ci1" "TTcTT")
    (at_index "ci2" "TTcTT")) ([]); Either (TcTTcT_path (at_index "cstart" "TcTTcT")
    (at_index "cend" "TcTTcT") (at_index "qi1" "TcTTcT") (at_index "qi2" "TcTTcT") (at_index "ci1" "TcTTcT")
    (at_index "ci2" "TcTTcT")) ([]); Either (TTT_path (at_index "cstart" "TTT") (at_index "cend" "TTT")
    (at_index "qi1" "TTT") (at_index "qi2" "TTT") (at_index "qi3" "TTT") (at_index "ci1" "TTT")) ([]); Either
    (TcST_path (at_index "cstart" "TcST") (at_index "cend" "TcST") (at_index "qi1" "TcST")
    (at_index "qi2" "TcST") (at_index "qi3" "TcST")) ([]); Either (TScT_path (at_index "cstart" "TScT")
    (at_index "cend" "TScT") (at_index "qi1" "TScT") (at_index "qi2" "TScT")) ([]); Either (TcScT_path
    (at_index "cstart" "TcScT") (at_index "cend" "TcScT") (at_index "qi1" "TcScT") (at_index "qi2" "TcScT"))
    ([])])].

(** src/hc_cc_state_space/hc0pm_reeds_shepp_state_space.cpp:1534-1700;
  the result is stored in the variable [result]. *)
Definition hc0pm_circles_rs_path : list Stm :=
  declare_path "result" ++ flat_map (fun i => map (fun a => Declare (at_index a i)) ["qi1"; "qi2"; "qi3";
    "qi4"; "cstart"; "ci1"; "ci2"; "cend"]) types ++
  declare_path "path" ++ table ++ [Call ([choose (fun best => [Assign (member "path" "qi1")
    (at_index "qi1" best); Assign (member "path" "qi2") (at_index "qi2" best); Assign (member "path" "qi3")
    (at_index "qi3" best); Assign (member "path" "qi4") (at_index "qi4" best); Assign (member "path" "cstart")
    (at_index "cstart" best); Assign (member "path" "cend") (at_index "cend" best); Assign
    (member "path" "ci1") (at_index "ci1" best); Assign (member "path" "ci2") (at_index "ci2" best);
    New "path"] ++ (flat_map (fun i => if String.eqb i best then [] else [Delete (at_index "qi1" i); Delete
    (at_index "qi2" i); Delete (at_index "qi3" i); Delete (at_index "qi4" i); Delete (at_index "cstart" i);
    Delete (at_index "ci1" i); Delete (at_index "ci2" i); Delete (at_index "cend" i)]) types) ++
    (move_path "result" "path") ++ [Return]) types])] ++ drop_path "path" ++
  flat_map (fun i => map (fun a => Drop (at_index a i)) ["qi1"; "qi2"; "qi3"; "qi4"; "cstart"; "ci1"; "ci2";
    "cend"]) types.

(** src/hc_cc_state_space/hc0pm_reeds_shepp_state_space.cpp:1702-1783;
  the result is stored in the variable [result]. *)
Definition hc0pm_reeds_shepp : list Stm :=
  declare_path "result" ++ flat_map (fun i => [Declare (at_index "start_circle" (num i)); Declare
    (at_index "end_circle" (num i))]) (seq 0 4) ++
  flat_map (fun k => declare_path (at_index "path" (num k))) (seq 0 16) ++
  [Call ([New (at_index "start_circle" (num (0))); New (at_index "start_circle" (num (1))); New
    (at_index "start_circle" (num (2))); New (at_index "start_circle" (num (3))); New (at_index "end_circle"
    (num (0))); New (at_index "end_circle" (num (1))); New (at_index "end_circle" (num (2))); New
    (at_index "end_circle" (num (3)))] ++ (flat_map (fun k => null_path (at_index "path" (num k))) (seq 0 16))
    ++ (flat_map (fun i => [Call (flat_map (fun j => [Call ([Either ([Return]) ([Either ([Return]) ([Either
    ([Return]) ([Either ([Return]) ([])])])]); Use (at_index "start_circle" (num (i))); Use
    (at_index "end_circle" (num (j))); Proc "hc0pm_circles_rs_path" results] ++ (move_path (at_index "path"
    (num (4 * i + j))) "result") ++ [Either ([UseOrNull (at_index "path" (num (4 * i + j)))]) ([])])])
    (seq 0 4))]) (seq 0 4)) ++ [choose (fun best => (flat_map (fun i => [Delete (at_index "start_circle" (num
    (i))); Delete (at_index "end_circle" (num (i)))]) (seq 0 4)) ++ (flat_map (fun i => if Nat.eqb i best then
    [] else delete_path (at_index "path" (num (i)))) (seq 0 16)) ++ (move_path "result" (at_index "path" (num
    (best)))) ++ [Return]) (seq 0 16)])] ++
  flat_map (fun i => [Drop (at_index "start_circle" (num i)); Drop (at_index "end_circle" (num i))]) (seq 0 4)
    ++
  flat_map (fun k => drop_path (at_index "path" (num k))) (seq 0 16).

(** The functions that return a pointer: src/hc_cc_state_space/hc0pm_reeds_shepp_state_space.cpp:1702, 1534. *)
Definition functions : list (string * list Stm) :=
  [("hc0pm_reeds_shepp", hc0pm_reeds_shepp); ("hc0pm_circles_rs_path", hc0pm_circles_rs_path)].

(** src/hc_cc_state_space/hc0pm_reeds_shepp_state_space.cpp:1785-1791 *)
Definition get_distance : list Stm :=
  declare_path "result" ++ declare_path "p" ++ [Call ([Proc "hc0pm_reeds_shepp" results] ++
    (move_path "p" "result") ++ [UseOrNull "p"] ++ (delete_path "p") ++ [Return])] ++ drop_path "p".

(** src/hc_cc_state_space/hc0pm_reeds_shepp_state_space.cpp:1793-1891 *)
Definition get_controls : list Stm :=
  declare_path "result" ++ declare_path "p" ++ [Call ([Proc "hc0pm_reeds_shepp" results] ++
    (move_path "p" "result") ++ [UseOrNull "p"; choose (fun uses => uses) [[];
    [UseOrNull (member "p" "cstart"); UseOrNull "p"];
    [UseOrNull (member "p" "cstart"); UseOrNull (member "p" "qi1"); UseOrNull (member "p" "cend"); UseOrNull
      (member "p" "qi2")];
    [UseOrNull (member "p" "cstart"); UseOrNull (member "p" "qi1"); UseOrNull (member "p" "cend"); UseOrNull
      (member "p" "qi1")];
    [UseOrNull (member "p" "cstart"); UseOrNull (member "p" "qi1"); UseOrNull (member "p" "ci1"); UseOrNull
      (member "p" "qi2"); UseOrNull (member "p" "cend"); UseOrNull (member "p" "qi2")];
    [UseOrNull (member "p" "cstart"); UseOrNull (member "p" "qi1"); UseOrNull (member "p" "ci1"); UseOrNull
      (member "p" "qi1"); UseOrNull (member "p" "cend"); UseOrNull (member "p" "qi2")];
    [UseOrNull (member "p" "cstart"); UseOrNull (member "p" "qi1"); UseOrNull (member "p" "ci1"); UseOrNull
      (member "p" "qi2"); UseOrNull (member "p" "cend"); UseOrNull (member "p" "qi2")];
    [UseOrNull (member "p" "cstart"); UseOrNull (member "p" "qi1"); UseOrNull (member "p" "qi1"); UseOrNull
      (member "p" "qi2"); UseOrNull (member "p" "cend"); UseOrNull (member "p" "qi3")];
    [UseOrNull (member "p" "cstart"); UseOrNull (member "p" "qi1"); UseOrNull (member "p" "qi1"); UseOrNull
      (member "p" "qi2"); UseOrNull (member "p" "ci1"); UseOrNull (member "p" "qi3"); UseOrNull
      (member "p" "cend"); UseOrNull (member "p" "qi3")];
    [UseOrNull (member "p" "cstart"); UseOrNull (member "p" "qi1"); UseOrNull (member "p" "ci1"); UseOrNull
      (member "p" "qi1"); UseOrNull (member "p" "qi2"); UseOrNull (member "p" "qi3"); UseOrNull
      (member "p" "cend"); UseOrNull (member "p" "qi4")];
    [UseOrNull (member "p" "cstart"); UseOrNull (member "p" "qi1"); UseOrNull (member "p" "ci1"); UseOrNull
      (member "p" "qi1"); UseOrNull (member "p" "qi2"); UseOrNull (member "p" "qi3"); UseOrNull
      (member "p" "ci2"); UseOrNull (member "p" "qi4"); UseOrNull (member "p" "cend"); UseOrNull
      (member "p" "qi4")];
    [UseOrNull (member "p" "cstart"); UseOrNull (member "p" "qi1"); UseOrNull (member "p" "ci1"); UseOrNull
      (member "p" "qi2"); UseOrNull (member "p" "ci2"); UseOrNull (member "p" "qi2"); UseOrNull
      (member "p" "cend"); UseOrNull (member "p" "qi3")];
    [UseOrNull (member "p" "cstart"); UseOrNull (member "p" "qi1"); UseOrNull (member "p" "ci1"); UseOrNull
      (member "p" "qi1"); UseOrNull (member "p" "ci2"); UseOrNull (member "p" "qi2"); UseOrNull
      (member "p" "cend"); UseOrNull (member "p" "qi2")];
    [UseOrNull (member "p" "cstart"); UseOrNull (member "p" "qi1"); UseOrNull (member "p" "ci1"); UseOrNull
      (member "p" "qi2"); UseOrNull (member "p" "cend"); UseOrNull (member "p" "qi3")];
    [UseOrNull (member "p" "cstart"); UseOrNull (member "p" "qi1"); UseOrNull (member "p" "qi1"); UseOrNull
      (member "p" "qi2"); UseOrNull (member "p" "cend"); UseOrNull (member "p" "qi3")];
    [UseOrNull (member "p" "cstart"); UseOrNull (member "p" "qi1"); UseOrNull (member "p" "qi1"); UseOrNull
      (member "p" "qi2"); UseOrNull (member "p" "cend"); UseOrNull (member "p" "qi2")];
    [UseOrNull (member "p" "cstart"); UseOrNull (member "p" "qi1"); UseOrNull (member "p" "qi1"); UseOrNull
      (member "p" "qi2"); UseOrNull (member "p" "cend"); UseOrNull (member "p" "qi2")];
    []]] ++ (delete_path "p") ++ [Return])] ++ drop_path "p".

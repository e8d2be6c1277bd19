(** * The members distance and angle of the planning functions

    Each of the nine helper classes of src/hc_cc_state_space/*_state_space.cpp has two members, distance
    and angle, e.g. hc00_reeds_shepp_state_space.cpp:51-52. A *_circles_*_path function stores the distance
    of the centers and the direction between them in these members and the cases read them from there. The
    models ModelCC00D.v etc. pass the two values as arguments; this file models the reads and writes.
    A program is a tree of reads and writes of members. The reads of one case are modelled as one read of
    each of the two members before the case is computed from the values; the member functions called for a
    case do not write them. Machine-generated from the definitions [circles_table] of the models. *)
From Coq Require Import Reals ZArith List Bool Arith.
From Verif Require Import Base ModelUtil ModelCircle ModelPaths ModelWrap.
From Verif Require ModelCC00D ModelCC0pmD ModelCCpm0D ModelCCpmpmD ModelCC00R ModelHC00R ModelHC0pmR ModelHCpm0R ModelHCpmpmR.
Import ListNotations.
Open Scope R_scope.

(** src/hc_cc_state_space/hc00_reeds_shepp_state_space.cpp:51-52 and the same members of the other helpers. *)
Inductive Member : Set := Distance | Angle.

(** A member of a helper object; every state space allocates its own helper,
    e.g. src/hc_cc_state_space/hc00_reeds_shepp_state_space.cpp:1496. *)
Definition Address : Set := (nat * Member)%type.

(** The contents of the members of all objects, src/hc_cc_state_space/hc00_reeds_shepp_state_space.cpp:51-52. *)
Definition Memory := Address -> R.

(** Equality of members, used to model the assignments
    src/hc_cc_state_space/hc00_reeds_shepp_state_space.cpp:1526-1527. *)
Definition address_eqb (a b : Address) : bool :=
  Nat.eqb (fst a) (fst b) &&
  match snd a, snd b with Distance, Distance => true | Angle, Angle => true | _, _ => false end.

(** An assignment to a member, src/hc_cc_state_space/hc00_reeds_shepp_state_space.cpp:1526-1527 *)
Definition store (mem : Memory) (a : Address) (v : R) : Memory :=
  fun b => if address_eqb b a then v else mem b.

(** The sequence of accesses to the members made by a call, with the values that depend on them. *)
Inductive Prog (A : Type) : Type :=
  | Done (a : A)
  | Read (a : Address) (k : R -> Prog A)
  | Write (a : Address) (v : R) (k : Prog A).
Arguments Done {A} a.
Arguments Read {A} a k.
Arguments Write {A} a v k.

(** Sequential composition of statements of the planners. *)
Fixpoint bind {A B} (p : Prog A) (f : A -> Prog B) : Prog B :=
  match p with
  | Done a => f a
  | Read a k => Read a (fun v => bind (k v) f)
  | Write a v k => Write a v (bind k f)
  end.

(** The cases or circle pairs one after the other, e.g. the loops of
    src/hc_cc_state_space/hc00_reeds_shepp_state_space.cpp:1696-1703. *)
Fixpoint in_order {A} (ps : list (Prog A)) : Prog (list A) :=
  match ps with
  | [] => Done []
  | p :: ps => bind p (fun a => bind (in_order ps) (fun l => Done (a :: l)))
  end.

(** A case that reads the members of the helper object,
    e.g. src/hc_cc_state_space/hc00_reeds_shepp_state_space.cpp:1556-1561. *)
Definition with_members {A} (object : nat) (f : R -> R -> A) : Prog A :=
  Read (object, Distance) (fun distance => Read (object, Angle) (fun angle => Done (f distance angle))).

(** A call on an object that no other thread uses. *)
Fixpoint run {A} (p : Prog A) (mem : Memory) : A * Memory :=
  match p with
  | Done a => (a, mem)
  | Read a k => run (k (mem a)) mem
  | Write a v k => run k (store mem a v)
  end.

(** Two threads; [schedule] says which one makes the next access. *)
Fixpoint interleave {A B} (schedule : list bool) (p : Prog A) (q : Prog B) (mem : Memory)
  : Prog A * Prog B * Memory :=
  match schedule with
  | [] => (p, q, mem)
  | true :: schedule =>
      match p with
      | Done a => interleave schedule p q mem
      | Read a k => interleave schedule (k (mem a)) q mem
      | Write a v k => interleave schedule k q (store mem a v)
      end
  | false :: schedule =>
      match q with
      | Done b => interleave schedule p q mem
      | Read a k => interleave schedule p (k (mem a)) mem
      | Write a v k => interleave schedule p k (store mem a v)
      end
  end.


Section CC00D.
(** The members kappa_ and sigma_ and forwards_ of the space, and the helper object. *)
Variables (kappa_ sigma_ : R) (forwards_ : bool) (object : nat).

(** src/hc_cc_state_space/cc00_dubins_state_space.cpp:323-412 *)
Definition cc00d_table (c1 c2 : Circle) : Prog (list Entry) :=
  Write (object, Distance) (center_distance c1 c2)
  (Write (object, Angle) (atan2 (c_yc c2 - c_yc c1) (c_xc c2 - c_xc c1)) (
  if configuration_equal (c_start c1) (c_start c2) then in_order [Done (mkEntry (Some 0) None None None
    None None None None None); Done no_entry; Done no_entry; Done no_entry; Done no_entry; Done
    no_entry; Done no_entry] else
   if forwards_ && (configuration_aligned (c_start c1) (c_start c2)) then in_order [Done no_entry; Done
    (mkEntry (Some (configuration_distance (c_start c1) (c_start c2))) None None None None None None
    None None); Done no_entry; Done no_entry; Done no_entry; Done no_entry; Done no_entry] else
   if (negb forwards_) && (configuration_aligned (c_start c2) (c_start c1)) then in_order [Done
    no_entry; Done (mkEntry (Some (configuration_distance (c_start c2) (c_start c1))) None None None
    None None None None None); Done no_entry; Done no_entry; Done no_entry; Done no_entry; Done
    no_entry] else
   if configuration_on_hc_cc_circle c1 (c_start c2) then in_order [Done no_entry; Done no_entry; Done
    (mkEntry (Some (cc_turn_length c1 (c_start c2))) None None None None (Some c1) None None None); Done
    no_entry; Done no_entry; Done no_entry; Done no_entry] else
   in_order [Done no_entry; Done no_entry; Done no_entry; with_members object (fun distance_ angle_ =>
    ModelCC00D.entry_TT distance_ angle_ c1 c2); with_members object (fun distance_ angle_ =>
    ModelCC00D.entry_TST distance_ angle_ c1 c2); with_members object (fun distance_ angle_ =>
    ModelCC00D.entry_TTT kappa_ sigma_ distance_ angle_ c1 c2); Done no_entry])).

(** src/hc_cc_state_space/cc00_dubins_state_space.cpp:323-412 *)
Definition cc00d_circles (c1 c2 : Circle) : Prog (option (HPath cc_dubins_type)) :=
  bind (cc00d_table c1 c2) (fun table => Done (select_entry cc_dubins_types (c_start c1) (c_start c2) table)).

(** src/hc_cc_state_space/cc00_dubins_state_space.cpp:443-453 *)
Definition cc00d_paths (state1 state2 : State) : Prog (list (option (HPath cc_dubins_type))) :=
  in_order (map (fun '(i, j) =>
    if ModelCC00D.skipped state1 state2 i j then Done None
    else
      match nth_error (ModelCC00D.start_circles kappa_ sigma_ forwards_ state1) i, nth_error (ModelCC00D.end_circles kappa_ sigma_ forwards_ state2) j with
      | Some c1, Some c2 => cc00d_circles c1 c2
      | _, _ => Done None
      end) (list_prod (seq 0 2) (seq 0 2))).

(** src/hc_cc_state_space/cc00_dubins_state_space.cpp:414-486 *)
Definition cc00d_plan (state1 state2 : State) : Prog (option (HPath cc_dubins_type)) :=
  bind (cc00d_paths state1 state2) (fun l => Done (select_path l)).

(** src/hc_cc_state_space/cc00_dubins_state_space.cpp:488-494 *)
Definition cc00d_get_distance (state1 state2 : State) : Prog (option flt) :=
  bind (cc00d_plan state1 state2) (fun p => Done (path_distance p)).

(** src/hc_cc_state_space/cc00_dubins_state_space.cpp:496-532 *)
Definition cc00d_get_controls (state1 state2 : State) : Prog (option (list Control)) :=
  bind (cc00d_plan state1 state2)
    (fun p => Done (match p with Some p => ModelCC00D.path_controls p | None => None end)).

End CC00D.

Section CC0pmD.
(** The members kappa_ and sigma_ and forwards_ of the space, and the helper object. *)
Variables (kappa_ sigma_ : R) (forwards_ : bool) (object : nat).

(** src/hc_cc_state_space/cc0pm_dubins_state_space.cpp:348-426 *)
Definition cc0pmd_table (c1 c2 : Circle) : Prog (list Entry) :=
  Write (object, Distance) (center_distance c1 c2)
  (Write (object, Angle) (atan2 (c_yc c2 - c_yc c1) (c_xc c2 - c_xc c1)) (
  if configuration_equal (c_start c1) (c_start c2) then in_order [Done (mkEntry (Some 0) None None None
    None None None None None); Done no_entry; Done no_entry; Done no_entry; Done no_entry; Done
    no_entry; Done no_entry] else
   Read (object, Distance) (fun distance_ => if Rltb distance_ epsilon then in_order [Done no_entry;
    Done no_entry; Done (mkEntry (Some (hc_turn_length (circle (c_start c1) (c_left c1) (c_forward c1)
    true (hc_cc_param kappa_ sigma_)) (c_start c2))) None None None None (Some (circle (c_start c1)
    (c_left c1) (c_forward c1) true (hc_cc_param kappa_ sigma_))) None None None); Done no_entry; Done
    no_entry; Done no_entry; Done no_entry] else
   in_order [Done no_entry; Done no_entry; Done no_entry; with_members object (fun distance_ angle_ =>
    ModelCC0pmD.entry_TT kappa_ sigma_ distance_ angle_ c1 c2); with_members object (fun distance_
    angle_ => ModelCC0pmD.entry_TST kappa_ sigma_ distance_ angle_ c1 c2); with_members object (fun
    distance_ angle_ => ModelCC0pmD.entry_TTT kappa_ sigma_ distance_ angle_ c1 c2); Done no_entry]))).

(** src/hc_cc_state_space/cc0pm_dubins_state_space.cpp:348-426 *)
Definition cc0pmd_circles (c1 c2 : Circle) : Prog (option (HPath cc_dubins_type)) :=
  bind (cc0pmd_table c1 c2) (fun table => Done (select_entry cc_dubins_types (c_start c1) (c_start c2) table)).

(** src/hc_cc_state_space/cc0pm_dubins_state_space.cpp:458-473 *)
Definition cc0pmd_paths (state1 state2 : State) : Prog (list (option (HPath cc_dubins_type))) :=
  in_order (map (fun '(i, j) =>
    if ModelCC0pmD.skipped state1 state2 i j then Done None
    else
      match nth_error (ModelCC0pmD.start_circles kappa_ sigma_ forwards_ state1) i, nth_error (ModelCC0pmD.end_circles kappa_ forwards_ state2) j with
      | Some c1, Some c2 => cc0pmd_circles c1 c2
      | _, _ => Done None
      end) (list_prod (seq 0 2) (seq 0 2))).

(** src/hc_cc_state_space/cc0pm_dubins_state_space.cpp:428-506 *)
Definition cc0pmd_plan (state1 state2 : State) : Prog (option (HPath cc_dubins_type)) :=
  bind (cc0pmd_paths state1 state2) (fun l => Done (select_path l)).

(** src/hc_cc_state_space/cc0pm_dubins_state_space.cpp:508-514 *)
Definition cc0pmd_get_distance (state1 state2 : State) : Prog (option flt) :=
  bind (cc0pmd_plan state1 state2) (fun p => Done (path_distance p)).

(** src/hc_cc_state_space/cc0pm_dubins_state_space.cpp:516-549 *)
Definition cc0pmd_get_controls (state1 state2 : State) : Prog (option (list Control)) :=
  bind (cc0pmd_plan state1 state2)
    (fun p => Done (match p with Some p => ModelCC0pmD.path_controls p | None => None end)).

End CC0pmD.

Section CCpm0D.
(** The members kappa_ and sigma_ and forwards_ of the space, and the helper object. *)
Variables (kappa_ sigma_ : R) (forwards_ : bool) (object : nat).

(** src/hc_cc_state_space/ccpm0_dubins_state_space.cpp:348-425 *)
Definition ccpm0d_table (c1 c2 : Circle) : Prog (list Entry) :=
  Write (object, Distance) (center_distance c1 c2)
  (Write (object, Angle) (atan2 (c_yc c2 - c_yc c1) (c_xc c2 - c_xc c1)) (
  if configuration_equal (c_start c1) (c_start c2) then in_order [Done (mkEntry (Some 0) None None None
    None None None None None); Done no_entry; Done no_entry; Done no_entry; Done no_entry; Done
    no_entry; Done no_entry] else
   Read (object, Distance) (fun distance_ => if Rltb distance_ epsilon then in_order [Done no_entry;
    Done no_entry; Done (mkEntry (Some (hc_turn_length (circle (c_start c2) (c_left c2) (c_forward c2)
    true (hc_cc_param kappa_ sigma_)) (c_start c1))) None None None None None (Some (circle (c_start c2)
    (c_left c2) (c_forward c2) true (hc_cc_param kappa_ sigma_))) None None); Done no_entry; Done
    no_entry; Done no_entry; Done no_entry] else
   in_order [Done no_entry; Done no_entry; Done no_entry; with_members object (fun distance_ angle_ =>
    ModelCCpm0D.entry_TT kappa_ sigma_ distance_ angle_ c1 c2); with_members object (fun distance_
    angle_ => ModelCCpm0D.entry_TST kappa_ sigma_ distance_ angle_ c1 c2); with_members object (fun
    distance_ angle_ => ModelCCpm0D.entry_TTT kappa_ sigma_ distance_ angle_ c1 c2); Done no_entry]))).

(** src/hc_cc_state_space/ccpm0_dubins_state_space.cpp:348-425 *)
Definition ccpm0d_circles (c1 c2 : Circle) : Prog (option (HPath cc_dubins_type)) :=
  bind (ccpm0d_table c1 c2) (fun table => Done (select_entry cc_dubins_types (c_start c1) (c_start c2) table)).

(** src/hc_cc_state_space/ccpm0_dubins_state_space.cpp:457-472 *)
Definition ccpm0d_paths (state1 state2 : State) : Prog (list (option (HPath cc_dubins_type))) :=
  in_order (map (fun '(i, j) =>
    if ModelCCpm0D.skipped state1 state2 i j then Done None
    else
      match nth_error (ModelCCpm0D.start_circles kappa_ forwards_ state1) i, nth_error (ModelCCpm0D.end_circles kappa_ sigma_ forwards_ state2) j with
      | Some c1, Some c2 => ccpm0d_circles c1 c2
      | _, _ => Done None
      end) (list_prod (seq 0 2) (seq 0 2))).

(** src/hc_cc_state_space/ccpm0_dubins_state_space.cpp:427-505 *)
Definition ccpm0d_plan (state1 state2 : State) : Prog (option (HPath cc_dubins_type)) :=
  bind (ccpm0d_paths state1 state2) (fun l => Done (select_path l)).

(** src/hc_cc_state_space/ccpm0_dubins_state_space.cpp:507-513 *)
Definition ccpm0d_get_distance (state1 state2 : State) : Prog (option flt) :=
  bind (ccpm0d_plan state1 state2) (fun p => Done (path_distance p)).

(** src/hc_cc_state_space/ccpm0_dubins_state_space.cpp:515-548 *)
Definition ccpm0d_get_controls (state1 state2 : State) : Prog (option (list Control)) :=
  bind (ccpm0d_plan state1 state2)
    (fun p => Done (match p with Some p => ModelCCpm0D.path_controls p | None => None end)).

End CCpm0D.

Section CCpmpmD.
(** The members kappa_ and sigma_ and forwards_ of the space, and the helper object. *)
Variables (kappa_ sigma_ : R) (forwards_ : bool) (object : nat).

(** src/hc_cc_state_space/ccpmpm_dubins_state_space.cpp:472-565 *)
Definition ccpmpmd_table (c1 c2 : Circle) : Prog (list Entry) :=
  Write (object, Distance) (center_distance c1 c2)
  (Write (object, Angle) (atan2 (c_yc c2 - c_yc c1) (c_xc c2 - c_xc c1)) (
  if configuration_equal (c_start c1) (c_start c2) then in_order [Done (mkEntry (Some 0) None None None
    None None None None None); Done no_entry; Done no_entry; Done no_entry; Done no_entry; Done
    no_entry; Done no_entry] else
   if configuration_on_hc_cc_circle c1 (c_start c2) then in_order [Done no_entry; Done no_entry; Done
    (mkEntry (Some (rs_turn_length (circle (c_start c1) (c_left c1) (c_forward c1) true (rs_param
    kappa_)) (c_start c2))) None None None None (Some (circle (c_start c1) (c_left c1) (c_forward c1)
    true (rs_param kappa_))) None None None); Done no_entry; Done no_entry; Done no_entry; Done
    no_entry] else
   in_order [Done no_entry; Done no_entry; Done no_entry; with_members object (fun distance_ angle_ =>
    ModelCCpmpmD.entry_TT kappa_ sigma_ distance_ angle_ c1 c2); with_members object (fun distance_
    angle_ => ModelCCpmpmD.entry_TST kappa_ sigma_ distance_ angle_ c1 c2); with_members object (fun
    distance_ angle_ => ModelCCpmpmD.entry_TTT kappa_ sigma_ distance_ angle_ c1 c2); with_members
    object (fun distance_ angle_ => ModelCCpmpmD.entry_TTTT kappa_ sigma_ distance_ angle_ c1 c2)])).

(** src/hc_cc_state_space/ccpmpm_dubins_state_space.cpp:472-565 *)
Definition ccpmpmd_circles (c1 c2 : Circle) : Prog (option (HPath cc_dubins_type)) :=
  bind (ccpmpmd_table c1 c2) (fun table => Done (select_entry cc_dubins_types (c_start c1) (c_start c2) table)).

(** src/hc_cc_state_space/ccpmpm_dubins_state_space.cpp:598-618 *)
Definition ccpmpmd_paths (state1 state2 : State) : Prog (list (option (HPath cc_dubins_type))) :=
  in_order (map (fun '(i, j) =>
    if ModelCCpmpmD.skipped state1 state2 i j then Done None
    else
      match nth_error (ModelCCpmpmD.start_circles kappa_ forwards_ state1) i, nth_error (ModelCCpmpmD.end_circles kappa_ forwards_ state2) j with
      | Some c1, Some c2 => ccpmpmd_circles c1 c2
      | _, _ => Done None
      end) (list_prod (seq 0 2) (seq 0 2))).

(** src/hc_cc_state_space/ccpmpm_dubins_state_space.cpp:567-651 *)
Definition ccpmpmd_plan (state1 state2 : State) : Prog (option (HPath cc_dubins_type)) :=
  bind (ccpmpmd_paths state1 state2) (fun l => Done (select_path l)).

(** src/hc_cc_state_space/ccpmpm_dubins_state_space.cpp:653-659 *)
Definition ccpmpmd_get_distance (state1 state2 : State) : Prog (option flt) :=
  bind (ccpmpmd_plan state1 state2) (fun p => Done (path_distance p)).

(** src/hc_cc_state_space/ccpmpm_dubins_state_space.cpp:661-701 *)
Definition ccpmpmd_get_controls (state1 state2 : State) : Prog (option (list Control)) :=
  bind (ccpmpmd_plan state1 state2)
    (fun p => Done (match p with Some p => ModelCCpmpmD.path_controls p | None => None end)).

End CCpmpmD.

Section CC00R.
(** The members kappa_ and sigma_ of the space, and the helper object. *)
Variables (kappa_ sigma_ : R) (object : nat).

(** src/hc_cc_state_space/cc00_reeds_shepp_state_space.cpp:1418-1622 *)
Definition cc00r_table (c1 c2 : Circle) : Prog (list Entry) :=
  Write (object, Distance) (center_distance c1 c2)
  (Write (object, Angle) (atan2 (c_yc c2 - c_yc c1) (c_xc c2 - c_xc c1)) (
  if configuration_equal (c_start c1) (c_start c2) then in_order [Done (mkEntry (Some 0) None None None
    None None None None None); Done no_entry; Done no_entry; Done no_entry; Done no_entry; Done
    no_entry; Done no_entry; Done no_entry; Done no_entry; Done no_entry; Done no_entry; Done no_entry;
    Done no_entry; Done no_entry; Done no_entry; Done no_entry; Done no_entry; Done no_entry] else
   if configuration_aligned (c_start c1) (c_start c2) then in_order [Done no_entry; Done (mkEntry (Some
    (configuration_distance (c_start c1) (c_start c2))) None None None None None None None None); Done
    no_entry; Done no_entry; Done no_entry; Done no_entry; Done no_entry; Done no_entry; Done no_entry;
    Done no_entry; Done no_entry; Done no_entry; Done no_entry; Done no_entry; Done no_entry; Done
    no_entry; Done no_entry; Done no_entry] else
   if configuration_aligned (c_start c2) (c_start c1) then in_order [Done no_entry; Done (mkEntry (Some
    (configuration_distance (c_start c2) (c_start c1))) None None None None None None None None); Done
    no_entry; Done no_entry; Done no_entry; Done no_entry; Done no_entry; Done no_entry; Done no_entry;
    Done no_entry; Done no_entry; Done no_entry; Done no_entry; Done no_entry; Done no_entry; Done
    no_entry; Done no_entry; Done no_entry] else
   if configuration_on_hc_cc_circle c1 (c_start c2) then in_order [Done no_entry; Done no_entry; Done
    (mkEntry (Some (cc_turn_length c1 (c_start c2))) None None None None (Some c1) None None None); Done
    no_entry; Done no_entry; Done no_entry; Done no_entry; Done no_entry; Done no_entry; Done no_entry;
    Done no_entry; Done no_entry; Done no_entry; Done no_entry; Done no_entry; Done no_entry; Done
    no_entry; Done no_entry] else
   in_order [Done no_entry; Done no_entry; Done no_entry; with_members object (fun distance_ angle_ =>
    ModelCC00R.entry_TT distance_ angle_ c1 c2); with_members object (fun distance_ angle_ =>
    ModelCC00R.entry_TcT distance_ angle_ c1 c2); with_members object (fun distance_ angle_ =>
    ModelCC00R.entry_TcTcT kappa_ sigma_ distance_ angle_ c1 c2); with_members object (fun distance_
    angle_ => ModelCC00R.entry_TcTT kappa_ sigma_ distance_ angle_ c1 c2); with_members object (fun
    distance_ angle_ => ModelCC00R.entry_TTcT kappa_ sigma_ distance_ angle_ c1 c2); with_members object
    (fun distance_ angle_ => ModelCC00R.entry_TST distance_ angle_ c1 c2); with_members object (fun
    distance_ angle_ => ModelCC00R.entry_TSTcT kappa_ sigma_ distance_ angle_ c1 c2); with_members
    object (fun distance_ angle_ => ModelCC00R.entry_TcTST kappa_ sigma_ distance_ angle_ c1 c2);
    with_members object (fun distance_ angle_ => ModelCC00R.entry_TcTSTcT kappa_ sigma_ distance_ angle_
    c1 c2); with_members object (fun distance_ angle_ => ModelCC00R.entry_TTcTT kappa_ sigma_ distance_
    angle_ c1 c2); with_members object (fun distance_ angle_ => ModelCC00R.entry_TcTTcT kappa_ sigma_
    distance_ angle_ c1 c2); with_members object (fun distance_ angle_ => ModelCC00R.entry_TTT kappa_
    sigma_ distance_ angle_ c1 c2); with_members object (fun distance_ angle_ => ModelCC00R.entry_TcST
    distance_ angle_ c1 c2); with_members object (fun distance_ angle_ => ModelCC00R.entry_TScT
    distance_ angle_ c1 c2); with_members object (fun distance_ angle_ => ModelCC00R.entry_TcScT
    distance_ angle_ c1 c2)])).

(** src/hc_cc_state_space/cc00_reeds_shepp_state_space.cpp:1418-1622 *)
Definition cc00r_circles (c1 c2 : Circle) : Prog (option (HPath hc_cc_rs_type)) :=
  bind (cc00r_table c1 c2) (fun table => Done (select_entry hc_cc_rs_types (c_start c1) (c_start c2) table)).

(** src/hc_cc_state_space/cc00_reeds_shepp_state_space.cpp:1652-1662 *)
Definition cc00r_paths (state1 state2 : State) : Prog (list (option (HPath hc_cc_rs_type))) :=
  in_order (map (fun '(i, j) =>
    if ModelCC00R.skipped state1 state2 i j then Done None
    else
      match nth_error (ModelCC00R.start_circles kappa_ sigma_ state1) i, nth_error (ModelCC00R.end_circles kappa_ sigma_ state2) j with
      | Some c1, Some c2 => cc00r_circles c1 c2
      | _, _ => Done None
      end) (list_prod (seq 0 4) (seq 0 4))).

(** src/hc_cc_state_space/cc00_reeds_shepp_state_space.cpp:1624-1695 *)
Definition cc00r_plan (state1 state2 : State) : Prog (option (HPath hc_cc_rs_type)) :=
  bind (cc00r_paths state1 state2) (fun l => Done (select_path l)).

(** src/hc_cc_state_space/cc00_reeds_shepp_state_space.cpp:1697-1703 *)
Definition cc00r_get_distance (state1 state2 : State) : Prog (option flt) :=
  bind (cc00r_plan state1 state2) (fun p => Done (path_distance p)).

(** src/hc_cc_state_space/cc00_reeds_shepp_state_space.cpp:1705-1783 *)
Definition cc00r_get_controls (state1 state2 : State) : Prog (option (list Control)) :=
  bind (cc00r_plan state1 state2)
    (fun p => Done (match p with Some p => ModelCC00R.path_controls p | None => None end)).

End CC00R.

Section HC00R.
(** The members kappa_ and sigma_ of the space, and the helper object. *)
Variables (kappa_ sigma_ : R) (object : nat).

(** src/hc_cc_state_space/hc00_reeds_shepp_state_space.cpp:1503-1679 *)
Definition hc00r_table (c1 c2 : Circle) : Prog (list Entry) :=
  Write (object, Distance) (center_distance c1 c2)
  (Write (object, Angle) (atan2 (c_yc c2 - c_yc c1) (c_xc c2 - c_xc c1)) (
  if configuration_equal (c_start c1) (c_start c2) then in_order [Done (mkEntry (Some 0) None None None
    None None None None None); Done no_entry; Done no_entry; Done no_entry; Done no_entry; Done
    no_entry; Done no_entry; Done no_entry; Done no_entry; Done no_entry; Done no_entry; Done no_entry;
    Done no_entry; Done no_entry; Done no_entry; Done no_entry; Done no_entry; Done no_entry] else
   if configuration_aligned (c_start c1) (c_start c2) then in_order [Done no_entry; Done (mkEntry (Some
    (configuration_distance (c_start c1) (c_start c2))) None None None None None None None None); Done
    no_entry; Done no_entry; Done no_entry; Done no_entry; Done no_entry; Done no_entry; Done no_entry;
    Done no_entry; Done no_entry; Done no_entry; Done no_entry; Done no_entry; Done no_entry; Done
    no_entry; Done no_entry; Done no_entry] else
   if configuration_aligned (c_start c2) (c_start c1) then in_order [Done no_entry; Done (mkEntry (Some
    (configuration_distance (c_start c2) (c_start c1))) None None None None None None None None); Done
    no_entry; Done no_entry; Done no_entry; Done no_entry; Done no_entry; Done no_entry; Done no_entry;
    Done no_entry; Done no_entry; Done no_entry; Done no_entry; Done no_entry; Done no_entry; Done
    no_entry; Done no_entry; Done no_entry] else
   if configuration_on_hc_cc_circle c1 (c_start c2) then in_order [Done no_entry; Done no_entry; Done
    (mkEntry (Some (cc_turn_length (circle (c_start c1) (c_left c1) (c_forward c1) false (hc_cc_param
    kappa_ sigma_)) (c_start c2))) None None None None (Some (circle (c_start c1) (c_left c1) (c_forward
    c1) false (hc_cc_param kappa_ sigma_))) None None None); Done no_entry; Done no_entry; Done
    no_entry; Done no_entry; Done no_entry; Done no_entry; Done no_entry; Done no_entry; Done no_entry;
    Done no_entry; Done no_entry; Done no_entry; Done no_entry; Done no_entry; Done no_entry] else
   in_order [Done no_entry; Done no_entry; Done no_entry; with_members object (fun distance_ angle_ =>
    ModelHC00R.entry_TT kappa_ sigma_ distance_ angle_ c1 c2); with_members object (fun distance_ angle_
    => ModelHC00R.entry_TcT distance_ angle_ c1 c2); with_members object (fun distance_ angle_ =>
    ModelHC00R.entry_TcTcT kappa_ sigma_ distance_ angle_ c1 c2); with_members object (fun distance_
    angle_ => ModelHC00R.entry_TcTT kappa_ sigma_ distance_ angle_ c1 c2); with_members object (fun
    distance_ angle_ => ModelHC00R.entry_TTcT kappa_ sigma_ distance_ angle_ c1 c2); with_members object
    (fun distance_ angle_ => ModelHC00R.entry_TST kappa_ sigma_ distance_ angle_ c1 c2); with_members
    object (fun distance_ angle_ => ModelHC00R.entry_TSTcT kappa_ sigma_ distance_ angle_ c1 c2);
    with_members object (fun distance_ angle_ => ModelHC00R.entry_TcTST kappa_ sigma_ distance_ angle_
    c1 c2); with_members object (fun distance_ angle_ => ModelHC00R.entry_TcTSTcT kappa_ sigma_
    distance_ angle_ c1 c2); with_members object (fun distance_ angle_ => ModelHC00R.entry_TTcTT kappa_
    sigma_ distance_ angle_ c1 c2); with_members object (fun distance_ angle_ => ModelHC00R.entry_TcTTcT
    kappa_ sigma_ distance_ angle_ c1 c2); with_members object (fun distance_ angle_ =>
    ModelHC00R.entry_TTT kappa_ sigma_ distance_ angle_ c1 c2); with_members object (fun distance_
    angle_ => ModelHC00R.entry_TcST kappa_ sigma_ distance_ angle_ c1 c2); with_members object (fun
    distance_ angle_ => ModelHC00R.entry_TScT kappa_ sigma_ distance_ angle_ c1 c2); with_members object
    (fun distance_ angle_ => ModelHC00R.entry_TcScT distance_ angle_ c1 c2)])).

(** src/hc_cc_state_space/hc00_reeds_shepp_state_space.cpp:1503-1679 *)
Definition hc00r_circles (c1 c2 : Circle) : Prog (option (HPath hc_cc_rs_type)) :=
  bind (hc00r_table c1 c2) (fun table => Done (select_entry hc_cc_rs_types (c_start c1) (c_start c2) table)).

(** src/hc_cc_state_space/hc00_reeds_shepp_state_space.cpp:1709-1719 *)
Definition hc00r_paths (state1 state2 : State) : Prog (list (option (HPath hc_cc_rs_type))) :=
  in_order (map (fun '(i, j) =>
    if ModelHC00R.skipped state1 state2 i j then Done None
    else
      match nth_error (ModelHC00R.start_circles kappa_ sigma_ state1) i, nth_error (ModelHC00R.end_circles kappa_ sigma_ state2) j with
      | Some c1, Some c2 => hc00r_circles c1 c2
      | _, _ => Done None
      end) (list_prod (seq 0 4) (seq 0 4))).

(** src/hc_cc_state_space/hc00_reeds_shepp_state_space.cpp:1681-1752 *)
Definition hc00r_plan (state1 state2 : State) : Prog (option (HPath hc_cc_rs_type)) :=
  bind (hc00r_paths state1 state2) (fun l => Done (select_path l)).

(** src/hc_cc_state_space/hc00_reeds_shepp_state_space.cpp:1754-1760 *)
Definition hc00r_get_distance (state1 state2 : State) : Prog (option flt) :=
  bind (hc00r_plan state1 state2) (fun p => Done (path_distance p)).

(** src/hc_cc_state_space/hc00_reeds_shepp_state_space.cpp:1762-1864 *)
Definition hc00r_get_controls (state1 state2 : State) : Prog (option (list Control)) :=
  bind (hc00r_plan state1 state2)
    (fun p => Done (match p with Some p => ModelHC00R.path_controls p | None => None end)).

End HC00R.

Section HC0pmR.
(** The members kappa_ and sigma_ of the space, and the helper object. *)
Variables (kappa_ sigma_ : R) (object : nat).

(** src/hc_cc_state_space/hc0pm_reeds_shepp_state_space.cpp:1534-1700 *)
Definition hc0pmr_table (c1 c2 : Circle) : Prog (list Entry) :=
  Write (object, Distance) (center_distance c1 c2)
  (Write (object, Angle) (atan2 (c_yc c2 - c_yc c1) (c_xc c2 - c_xc c1)) (
  if configuration_equal (c_start c1) (c_start c2) then in_order [Done (mkEntry (Some 0) None None None
    None None None None None); Done no_entry; Done no_entry; Done no_entry; Done no_entry; Done
    no_entry; Done no_entry; Done no_entry; Done no_entry; Done no_entry; Done no_entry; Done no_entry;
    Done no_entry; Done no_entry; Done no_entry; Done no_entry; Done no_entry; Done no_entry] else
   Read (object, Distance) (fun distance_ => if Rltb distance_ epsilon then in_order [Done no_entry;
    Done no_entry; Done (mkEntry (Some (hc_turn_length (circle (c_start c1) (c_left c1) (c_forward c1)
    false (hc_cc_param kappa_ sigma_)) (c_start c2))) None None None None (Some (circle (c_start c1)
    (c_left c1) (c_forward c1) false (hc_cc_param kappa_ sigma_))) None None None); Done no_entry; Done
    no_entry; Done no_entry; Done no_entry; Done no_entry; Done no_entry; Done no_entry; Done no_entry;
    Done no_entry; Done no_entry; Done no_entry; Done no_entry; Done no_entry; Done no_entry; Done
    no_entry] else
   in_order [Done no_entry; Done no_entry; Done no_entry; with_members object (fun distance_ angle_ =>
    ModelHC0pmR.entry_TT kappa_ sigma_ distance_ angle_ c1 c2); with_members object (fun distance_
    angle_ => ModelHC0pmR.entry_TcT distance_ angle_ c1 c2); with_members object (fun distance_ angle_
    => ModelHC0pmR.entry_TcTcT kappa_ distance_ angle_ c1 c2); with_members object (fun distance_ angle_
    => ModelHC0pmR.entry_TcTT kappa_ sigma_ distance_ angle_ c1 c2); with_members object (fun distance_
    angle_ => ModelHC0pmR.entry_TTcT kappa_ sigma_ distance_ angle_ c1 c2); with_members object (fun
    distance_ angle_ => ModelHC0pmR.entry_TST kappa_ sigma_ distance_ angle_ c1 c2); with_members object
    (fun distance_ angle_ => ModelHC0pmR.entry_TSTcT kappa_ sigma_ distance_ angle_ c1 c2); with_members
    object (fun distance_ angle_ => ModelHC0pmR.entry_TcTST kappa_ sigma_ distance_ angle_ c1 c2);
    with_members object (fun distance_ angle_ => ModelHC0pmR.entry_TcTSTcT kappa_ sigma_ distance_
    angle_ c1 c2); with_members object (fun distance_ angle_ => ModelHC0pmR.entry_TTcTT kappa_ sigma_
    distance_ angle_ c1 c2); with_members object (fun distance_ angle_ => ModelHC0pmR.entry_TcTTcT
    kappa_ sigma_ distance_ angle_ c1 c2); with_members object (fun distance_ angle_ =>
    ModelHC0pmR.entry_TTT kappa_ sigma_ distance_ angle_ c1 c2); with_members object (fun distance_
    angle_ => ModelHC0pmR.entry_TcST kappa_ sigma_ distance_ angle_ c1 c2); with_members object (fun
    distance_ angle_ => ModelHC0pmR.entry_TScT kappa_ sigma_ distance_ angle_ c1 c2); with_members
    object (fun distance_ angle_ => ModelHC0pmR.entry_TcScT distance_ angle_ c1 c2)]))).

(** src/hc_cc_state_space/hc0pm_reeds_shepp_state_space.cpp:1534-1700 *)
Definition hc0pmr_circles (c1 c2 : Circle) : Prog (option (HPath hc_cc_rs_type)) :=
  bind (hc0pmr_table c1 c2) (fun table => Done (select_entry hc_cc_rs_types (c_start c1) (c_start c2) table)).

(** src/hc_cc_state_space/hc0pm_reeds_shepp_state_space.cpp:1731-1750 *)
Definition hc0pmr_paths (state1 state2 : State) : Prog (list (option (HPath hc_cc_rs_type))) :=
  in_order (map (fun '(i, j) =>
    if ModelHC0pmR.skipped state1 state2 i j then Done None
    else
      match nth_error (ModelHC0pmR.start_circles kappa_ sigma_ state1) i, nth_error (ModelHC0pmR.end_circles kappa_ state2) j with
      | Some c1, Some c2 => hc0pmr_circles c1 c2
      | _, _ => Done None
      end) (list_prod (seq 0 4) (seq 0 4))).

(** src/hc_cc_state_space/hc0pm_reeds_shepp_state_space.cpp:1702-1783 *)
Definition hc0pmr_plan (state1 state2 : State) : Prog (option (HPath hc_cc_rs_type)) :=
  bind (hc0pmr_paths state1 state2) (fun l => Done (select_path l)).

(** src/hc_cc_state_space/hc0pm_reeds_shepp_state_space.cpp:1785-1791 *)
Definition hc0pmr_get_distance (state1 state2 : State) : Prog (option flt) :=
  bind (hc0pmr_plan state1 state2) (fun p => Done (path_distance p)).

(** src/hc_cc_state_space/hc0pm_reeds_shepp_state_space.cpp:1793-1891 *)
Definition hc0pmr_get_controls (state1 state2 : State) : Prog (option (list Control)) :=
  bind (hc0pmr_plan state1 state2)
    (fun p => Done (match p with Some p => ModelHC0pmR.path_controls p | None => None end)).

End HC0pmR.

Section HCpm0R.
(** The members kappa_ and sigma_ of the space, and the helper object. *)
Variables (kappa_ sigma_ : R) (object : nat).

(** src/hc_cc_state_space/hcpm0_reeds_shepp_state_space.cpp:1534-1699 *)
Definition hcpm0r_table (c1 c2 : Circle) : Prog (list Entry) :=
  Write (object, Distance) (center_distance c1 c2)
  (Write (object, Angle) (atan2 (c_yc c2 - c_yc c1) (c_xc c2 - c_xc c1)) (
  if configuration_equal (c_start c1) (c_start c2) then in_order [Done (mkEntry (Some 0) None None None
    None None None None None); Done no_entry; Done no_entry; Done no_entry; Done no_entry; Done
    no_entry; Done no_entry; Done no_entry; Done no_entry; Done no_entry; Done no_entry; Done no_entry;
    Done no_entry; Done no_entry; Done no_entry; Done no_entry; Done no_entry; Done no_entry] else
   Read (object, Distance) (fun distance_ => if Rltb distance_ epsilon then in_order [Done no_entry;
    Done no_entry; Done (mkEntry (Some (hc_turn_length (circle (c_start c2) (c_left c2) (c_forward c2)
    false (hc_cc_param kappa_ sigma_)) (c_start c1))) None None None None None (Some (circle (c_start
    c2) (c_left c2) (c_forward c2) false (hc_cc_param kappa_ sigma_))) None None); Done no_entry; Done
    no_entry; Done no_entry; Done no_entry; Done no_entry; Done no_entry; Done no_entry; Done no_entry;
    Done no_entry; Done no_entry; Done no_entry; Done no_entry; Done no_entry; Done no_entry; Done
    no_entry] else
   in_order [Done no_entry; Done no_entry; Done no_entry; with_members object (fun distance_ angle_ =>
    ModelHCpm0R.entry_TT kappa_ sigma_ distance_ angle_ c1 c2); with_members object (fun distance_
    angle_ => ModelHCpm0R.entry_TcT distance_ angle_ c1 c2); with_members object (fun distance_ angle_
    => ModelHCpm0R.entry_TcTcT kappa_ distance_ angle_ c1 c2); with_members object (fun distance_ angle_
    => ModelHCpm0R.entry_TcTT kappa_ sigma_ distance_ angle_ c1 c2); with_members object (fun distance_
    angle_ => ModelHCpm0R.entry_TTcT kappa_ sigma_ distance_ angle_ c1 c2); with_members object (fun
    distance_ angle_ => ModelHCpm0R.entry_TST kappa_ sigma_ distance_ angle_ c1 c2); with_members object
    (fun distance_ angle_ => ModelHCpm0R.entry_TSTcT kappa_ sigma_ distance_ angle_ c1 c2); with_members
    object (fun distance_ angle_ => ModelHCpm0R.entry_TcTST kappa_ sigma_ distance_ angle_ c1 c2);
    with_members object (fun distance_ angle_ => ModelHCpm0R.entry_TcTSTcT kappa_ sigma_ distance_
    angle_ c1 c2); with_members object (fun distance_ angle_ => ModelHCpm0R.entry_TTcTT kappa_ sigma_
    distance_ angle_ c1 c2); with_members object (fun distance_ angle_ => ModelHCpm0R.entry_TcTTcT
    kappa_ sigma_ distance_ angle_ c1 c2); with_members object (fun distance_ angle_ =>
    ModelHCpm0R.entry_TTT kappa_ sigma_ distance_ angle_ c1 c2); with_members object (fun distance_
    angle_ => ModelHCpm0R.entry_TcST kappa_ sigma_ distance_ angle_ c1 c2); with_members object (fun
    distance_ angle_ => ModelHCpm0R.entry_TScT kappa_ sigma_ distance_ angle_ c1 c2); with_members
    object (fun distance_ angle_ => ModelHCpm0R.entry_TcScT distance_ angle_ c1 c2)]))).

(** src/hc_cc_state_space/hcpm0_reeds_shepp_state_space.cpp:1534-1699 *)
Definition hcpm0r_circles (c1 c2 : Circle) : Prog (option (HPath hc_cc_rs_type)) :=
  bind (hcpm0r_table c1 c2) (fun table => Done (select_entry hc_cc_rs_types (c_start c1) (c_start c2) table)).

(** src/hc_cc_state_space/hcpm0_reeds_shepp_state_space.cpp:1730-1749 *)
Definition hcpm0r_paths (state1 state2 : State) : Prog (list (option (HPath hc_cc_rs_type))) :=
  in_order (map (fun '(i, j) =>
    if ModelHCpm0R.skipped state1 state2 i j then Done None
    else
      match nth_error (ModelHCpm0R.start_circles kappa_ state1) i, nth_error (ModelHCpm0R.end_circles kappa_ sigma_ state2) j with
      | Some c1, Some c2 => hcpm0r_circles c1 c2
      | _, _ => Done None
      end) (list_prod (seq 0 4) (seq 0 4))).

(** src/hc_cc_state_space/hcpm0_reeds_shepp_state_space.cpp:1701-1781 *)
Definition hcpm0r_plan (state1 state2 : State) : Prog (option (HPath hc_cc_rs_type)) :=
  bind (hcpm0r_paths state1 state2) (fun l => Done (select_path l)).

(** src/hc_cc_state_space/hcpm0_reeds_shepp_state_space.cpp:1783-1789 *)
Definition hcpm0r_get_distance (state1 state2 : State) : Prog (option flt) :=
  bind (hcpm0r_plan state1 state2) (fun p => Done (path_distance p)).

(** src/hc_cc_state_space/hcpm0_reeds_shepp_state_space.cpp:1791-1889 *)
Definition hcpm0r_get_controls (state1 state2 : State) : Prog (option (list Control)) :=
  bind (hcpm0r_plan state1 state2)
    (fun p => Done (match p with Some p => ModelHCpm0R.path_controls p | None => None end)).

End HCpm0R.

Section HCpmpmR.
(** The members kappa_ and sigma_ of the space, and the helper object. *)
Variables (kappa_ sigma_ : R) (object : nat).

(** src/hc_cc_state_space/hcpmpm_reeds_shepp_state_space.cpp:1568-1736 *)
Definition hcpmpmr_table (c1 c2 : Circle) : Prog (list Entry) :=
  Write (object, Distance) (center_distance c1 c2)
  (Write (object, Angle) (atan2 (c_yc c2 - c_yc c1) (c_xc c2 - c_xc c1)) (
  if configuration_equal (c_start c1) (c_start c2) then in_order [Done (mkEntry (Some 0) None None None
    None None None None None); Done no_entry; Done no_entry; Done no_entry; Done no_entry; Done
    no_entry; Done no_entry; Done no_entry; Done no_entry; Done no_entry; Done no_entry; Done no_entry;
    Done no_entry; Done no_entry; Done no_entry; Done no_entry; Done no_entry; Done no_entry] else
   if configuration_on_hc_cc_circle c1 (c_start c2) then in_order [Done no_entry; Done no_entry; Done
    (mkEntry (Some (rs_turn_length (circle (c_start c1) (c_left c1) (c_forward c1) true (rs_param
    kappa_)) (c_start c2))) None None None None (Some (circle (c_start c1) (c_left c1) (c_forward c1)
    true (rs_param kappa_))) None None None); Done no_entry; Done no_entry; Done no_entry; Done
    no_entry; Done no_entry; Done no_entry; Done no_entry; Done no_entry; Done no_entry; Done no_entry;
    Done no_entry; Done no_entry; Done no_entry; Done no_entry; Done no_entry] else
   in_order [Done no_entry; Done no_entry; Done no_entry; with_members object (fun distance_ angle_ =>
    ModelHCpmpmR.entry_TT kappa_ sigma_ distance_ angle_ c1 c2); with_members object (fun distance_
    angle_ => ModelHCpmpmR.entry_TcT distance_ angle_ c1 c2); with_members object (fun distance_ angle_
    => ModelHCpmpmR.entry_TcTcT kappa_ distance_ angle_ c1 c2); with_members object (fun distance_
    angle_ => ModelHCpmpmR.entry_TcTT kappa_ sigma_ distance_ angle_ c1 c2); with_members object (fun
    distance_ angle_ => ModelHCpmpmR.entry_TTcT kappa_ sigma_ distance_ angle_ c1 c2); with_members
    object (fun distance_ angle_ => ModelHCpmpmR.entry_TST kappa_ sigma_ distance_ angle_ c1 c2);
    with_members object (fun distance_ angle_ => ModelHCpmpmR.entry_TSTcT kappa_ sigma_ distance_ angle_
    c1 c2); with_members object (fun distance_ angle_ => ModelHCpmpmR.entry_TcTST kappa_ sigma_
    distance_ angle_ c1 c2); with_members object (fun distance_ angle_ => ModelHCpmpmR.entry_TcTSTcT
    kappa_ sigma_ distance_ angle_ c1 c2); with_members object (fun distance_ angle_ =>
    ModelHCpmpmR.entry_TTcTT kappa_ sigma_ distance_ angle_ c1 c2); with_members object (fun distance_
    angle_ => ModelHCpmpmR.entry_TcTTcT kappa_ sigma_ distance_ angle_ c1 c2); with_members object (fun
    distance_ angle_ => ModelHCpmpmR.entry_TTT kappa_ sigma_ distance_ angle_ c1 c2); with_members
    object (fun distance_ angle_ => ModelHCpmpmR.entry_TcST kappa_ sigma_ distance_ angle_ c1 c2);
    with_members object (fun distance_ angle_ => ModelHCpmpmR.entry_TScT kappa_ sigma_ distance_ angle_
    c1 c2); with_members object (fun distance_ angle_ => ModelHCpmpmR.entry_TcScT distance_ angle_ c1
    c2)])).

(** src/hc_cc_state_space/hcpmpm_reeds_shepp_state_space.cpp:1568-1736 *)
Definition hcpmpmr_circles (c1 c2 : Circle) : Prog (option (HPath hc_cc_rs_type)) :=
  bind (hcpmpmr_table c1 c2) (fun table => Done (select_entry hc_cc_rs_types (c_start c1) (c_start c2) table)).

(** src/hc_cc_state_space/hcpmpm_reeds_shepp_state_space.cpp:1768-1796 *)
Definition hcpmpmr_paths (state1 state2 : State) : Prog (list (option (HPath hc_cc_rs_type))) :=
  in_order (map (fun '(i, j) =>
    if ModelHCpmpmR.skipped state1 state2 i j then Done None
    else
      match nth_error (ModelHCpmpmR.start_circles kappa_ state1) i, nth_error (ModelHCpmpmR.end_circles kappa_ state2) j with
      | Some c1, Some c2 => hcpmpmr_circles c1 c2
      | _, _ => Done None
      end) (list_prod (seq 0 4) (seq 0 4))).

(** src/hc_cc_state_space/hcpmpm_reeds_shepp_state_space.cpp:1738-1829 *)
Definition hcpmpmr_plan (state1 state2 : State) : Prog (option (HPath hc_cc_rs_type)) :=
  bind (hcpmpmr_paths state1 state2) (fun l => Done (select_path l)).

(** src/hc_cc_state_space/hcpmpm_reeds_shepp_state_space.cpp:1831-1837 *)
Definition hcpmpmr_get_distance (state1 state2 : State) : Prog (option flt) :=
  bind (hcpmpmr_plan state1 state2) (fun p => Done (path_distance p)).

(** src/hc_cc_state_space/hcpmpm_reeds_shepp_state_space.cpp:1839-1938 *)
Definition hcpmpmr_get_controls (state1 state2 : State) : Prog (option (list Control)) :=
  bind (hcpmpmr_plan state1 state2)
    (fun p => Done (match p with Some p => ModelHCpmpmR.path_controls p | None => None end)).

End HCpmpmR.

(** The spaces for states of any curvature call four planners, each with its own helper object;
    src/hc_cc_state_space/cc_dubins_state_space.cpp and hc_reeds_shepp_state_space.cpp. *)
Section Loops.
  Variables dist00 dist0pm distpm0 distpmpm : State -> State -> Prog (option flt).
  Variables ctrl00 ctrl0pm ctrlpm0 ctrlpmpm : State -> State -> Prog (option (list Control)).

  (** "call appropriate state space": src/hc_cc_state_space/cc_dubins_state_space.cpp:122-136,
      hc_reeds_shepp_state_space.cpp:117-131. *)
  Definition shared_call_distance (start_state end_state : State) : Prog (option flt) :=
    if Rltb (Rabs (st_kappa start_state)) epsilon then
      if Rltb (Rabs (st_kappa end_state)) epsilon then dist00 start_state end_state else dist0pm start_state end_state
    else
      if Rltb (Rabs (st_kappa end_state)) epsilon then distpm0 start_state end_state else distpmpm start_state end_state.

  (** src/hc_cc_state_space/cc_dubins_state_space.cpp:175-188, hc_reeds_shepp_state_space.cpp:170-183 *)
  Definition shared_call_controls (start_state end_state : State) : Prog (option (list Control)) :=
    if Rltb (Rabs (st_kappa start_state)) epsilon then
      if Rltb (Rabs (st_kappa end_state)) epsilon then ctrl00 start_state end_state else ctrl0pm start_state end_state
    else
      if Rltb (Rabs (st_kappa end_state)) epsilon then ctrlpm0 start_state end_state else ctrlpmpm start_state end_state.

  (** The body of the loops of get_distance: src/hc_cc_state_space/cc_dubins_state_space.cpp:107-143,
      hc_reeds_shepp_state_space.cpp:102-138. *)
  Definition shared_pair_distance (p : (State * Control) * (State * Control)) : Prog (option flt) :=
    let '((start_state, start_control), (end_state, end_control)) := p in
    if state_equal start_state end_state then
      Done (Some (Some (Rabs (ct_delta_s (subtract_control start_control end_control)))))
    else
      bind (shared_call_distance start_state end_state) (fun d => Done (
        match d with
        | None => None
        | Some distance =>
            Some (flet distance := distance in
                  let distance := if Rltb epsilon (Rabs (ct_delta_s start_control))
                                  then distance + Rabs (ct_delta_s start_control) else distance in
                  let distance := if Rltb epsilon (Rabs (ct_delta_s end_control))
                                  then distance + Rabs (ct_delta_s end_control) else distance in
                  Some distance)
        end)).

  (** The body of the loops of get_controls: src/hc_cc_state_space/cc_dubins_state_space.cpp:160-199,
      hc_reeds_shepp_state_space.cpp:155-194. *)
  Definition shared_pair_controls (p : (State * Control) * (State * Control)) : Prog (option (list Control)) :=
    let '((start_state, start_control), (end_state, end_control)) := p in
    if state_equal start_state end_state then Done (Some [subtract_control start_control end_control])
    else
      bind (shared_call_controls start_state end_state) (fun c => Done (
        match c with
        | None => None
        | Some controls =>
            let controls := if Rltb epsilon (Rabs (ct_delta_s start_control))
                            then start_control :: controls else controls in
            let controls := if Rltb epsilon (Rabs (ct_delta_s end_control))
                            then controls ++ [reverse_control end_control] else controls in
            Some controls
        end)).

  (** get_distance: src/hc_cc_state_space/cc_dubins_state_space.cpp:97-147,
      hc_reeds_shepp_state_space.cpp:92-142. *)
  Definition shared_loop_distance (starts ends : list (State * Control)) : Prog (option flt) :=
    bind (in_order (map shared_pair_distance (list_prod starts ends))) (fun l => Done (
      match all_some l with
      | Some distances => min_element distances
      | None => None
      end)).

  (** get_controls: src/hc_cc_state_space/cc_dubins_state_space.cpp:149-221,
      hc_reeds_shepp_state_space.cpp:144-216. *)
  Definition shared_loop_controls (starts ends : list (State * Control)) : Prog (option (list Control)) :=
    bind (in_order (map shared_pair_controls (list_prod starts ends))) (fun l => Done (
      match all_some l with
      | Some candidates => sorted_front candidates
      | None => None
      end)).
End Loops.

(** The helper objects of the four planners of a space,
    src/hc_cc_state_space/hc_reeds_shepp_state_space.cpp:30-37, cc_dubins_state_space.cpp:29-37. *)
Definition part (object planner : nat) : nat := (4 * object + planner)%nat.

(** src/hc_cc_state_space/cc_dubins_state_space.cpp:97-147 *)
Definition cc_dubins_get_distance (junk kappa sigma : R) (forwards : bool) (object : nat) (state1 state2 : State) : Prog (option flt) :=
  shared_loop_distance (cc00d_get_distance kappa sigma forwards (part object 0)) (cc0pmd_get_distance kappa sigma forwards (part object 1))
    (ccpm0d_get_distance kappa sigma forwards (part object 2)) (ccpmpmd_get_distance kappa sigma forwards (part object 3))
    (cc_predict_state junk kappa sigma state1 forwards) (cc_predict_state junk kappa sigma state2 (negb forwards)).

(** src/hc_cc_state_space/cc_dubins_state_space.cpp:149-221 *)
Definition cc_dubins_get_controls (junk kappa sigma : R) (forwards : bool) (object : nat) (state1 state2 : State) : Prog (option (list Control)) :=
  shared_loop_controls (cc00d_get_controls kappa sigma forwards (part object 0)) (cc0pmd_get_controls kappa sigma forwards (part object 1))
    (ccpm0d_get_controls kappa sigma forwards (part object 2)) (ccpmpmd_get_controls kappa sigma forwards (part object 3))
    (cc_predict_state junk kappa sigma state1 forwards) (cc_predict_state junk kappa sigma state2 (negb forwards)).

(** src/hc_cc_state_space/hc_reeds_shepp_state_space.cpp:92-142 *)
Definition hc_rs_get_distance (junk kappa sigma : R) (object : nat) (state1 state2 : State) : Prog (option flt) :=
  shared_loop_distance (hc00r_get_distance kappa sigma (part object 0)) (hc0pmr_get_distance kappa sigma (part object 1))
    (hcpm0r_get_distance kappa sigma (part object 2)) (hcpmpmr_get_distance kappa sigma (part object 3))
    (hc_predict_state junk kappa sigma state1) (hc_predict_state junk kappa sigma state2).

(** src/hc_cc_state_space/hc_reeds_shepp_state_space.cpp:144-216 *)
Definition hc_rs_get_controls (junk kappa sigma : R) (object : nat) (state1 state2 : State) : Prog (option (list Control)) :=
  shared_loop_controls (hc00r_get_controls kappa sigma (part object 0)) (hc0pmr_get_controls kappa sigma (part object 1))
    (hcpm0r_get_controls kappa sigma (part object 2)) (hcpmpmr_get_controls kappa sigma (part object 3))
    (hc_predict_state junk kappa sigma state1) (hc_predict_state junk kappa sigma state2).

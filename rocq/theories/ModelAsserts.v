(** * The assertions met while a plan is turned into controls

    get_controls of the nine planners calls one function of paths.cpp per turn, and each of them begins with an
    assertion on the turn it is given (src/hc_cc_state_space/paths.cpp:322-323, 338, 419). For every planner the
    assertions of these calls, in the order of the calls; straight_controls has none. What is read from a null pointer
    is left out (C44: there is none). *)
From Coq Require Import Reals List.
From Verif Require Import Base ModelUtil ModelCircle ModelPaths.
Open Scope R_scope.

(** The pointers of a path, for example src/hc_cc_state_space/cc00_dubins_state_space.cpp:462-488. *)
Definition given {A : Type} (o : option A) (P : A -> Prop) : Prop := match o with Some a => P a | None => True end.

(** src/hc_cc_state_space/cc00_dubins_state_space.cpp:496-532, the switch: the assertions of the calls. *)
Definition asserts_CC00D (p : HPath cc_dubins_type) : Prop :=
  let e := h_entry p in
  match h_type p with
  | D_E =>
      True
  | D_S =>
      True
  | D_T =>
      cc_turn_assert (h_end p)
  | D_TT =>
      given (e_qi1 e) (fun qi1 =>
      cc_turn_assert qi1 /\ cc_turn_assert qi1)
  | D_TST =>
      given (e_qi1 e) (fun qi1 =>
      given (e_qi2 e) (fun qi2 =>
      cc_turn_assert qi1 /\ cc_turn_assert qi2))
  | D_TTT =>
      given (e_qi1 e) (fun qi1 =>
      given (e_qi2 e) (fun qi2 =>
      cc_turn_assert qi1 /\ cc_turn_assert qi2 /\ cc_turn_assert qi2))
  | _ => True
  end.

(** src/hc_cc_state_space/cc0pm_dubins_state_space.cpp:516-549, the switch: the assertions of the calls. *)
Definition asserts_CC0pmD (p : HPath cc_dubins_type) : Prop :=
  let e := h_entry p in
  match h_type p with
  | D_E =>
      True
  | D_T =>
      given (e_cstart e) (fun cstart =>
      hc_turn_assert cstart (h_end p))
  | D_TT =>
      given (e_qi1 e) (fun qi1 =>
      given (e_cend e) (fun cend =>
      given (e_qi2 e) (fun qi2 =>
      cc_turn_assert qi1 /\ hc_turn_assert cend qi2)))
  | D_TST =>
      given (e_qi1 e) (fun qi1 =>
      given (e_cend e) (fun cend =>
      given (e_qi3 e) (fun qi3 =>
      cc_turn_assert qi1 /\ hc_turn_assert cend qi3)))
  | D_TTT =>
      given (e_qi1 e) (fun qi1 =>
      given (e_qi2 e) (fun qi2 =>
      given (e_cend e) (fun cend =>
      given (e_qi3 e) (fun qi3 =>
      cc_turn_assert qi1 /\ cc_turn_assert qi2 /\ hc_turn_assert cend qi3))))
  | _ => True
  end.

(** src/hc_cc_state_space/ccpm0_dubins_state_space.cpp:515-548, the switch: the assertions of the calls. *)
Definition asserts_CCpm0D (p : HPath cc_dubins_type) : Prop :=
  let e := h_entry p in
  match h_type p with
  | D_E =>
      True
  | D_T =>
      given (e_cend e) (fun cend =>
      hc_turn_assert cend (h_start p))
  | D_TT =>
      given (e_cstart e) (fun cstart =>
      given (e_qi1 e) (fun qi1 =>
      given (e_qi2 e) (fun qi2 =>
      hc_turn_assert cstart qi1 /\ cc_turn_assert qi2)))
  | D_TST =>
      given (e_cstart e) (fun cstart =>
      given (e_qi1 e) (fun qi1 =>
      given (e_qi3 e) (fun qi3 =>
      hc_turn_assert cstart qi1 /\ cc_turn_assert qi3)))
  | D_TTT =>
      given (e_cstart e) (fun cstart =>
      given (e_qi1 e) (fun qi1 =>
      given (e_qi2 e) (fun qi2 =>
      hc_turn_assert cstart qi1 /\ cc_turn_assert qi2 /\ cc_turn_assert qi2)))
  | _ => True
  end.

(** src/hc_cc_state_space/ccpmpm_dubins_state_space.cpp:661-701, the switch: the assertions of the calls. *)
Definition asserts_CCpmpmD (p : HPath cc_dubins_type) : Prop :=
  let e := h_entry p in
  match h_type p with
  | D_E =>
      True
  | D_T =>
      given (e_cstart e) (fun cstart =>
      rs_turn_assert cstart (h_end p))
  | D_TT =>
      given (e_cstart e) (fun cstart =>
      given (e_qi1 e) (fun qi1 =>
      given (e_cend e) (fun cend =>
      given (e_qi3 e) (fun qi3 =>
      hc_turn_assert cstart qi1 /\ hc_turn_assert cend qi3))))
  | D_TST =>
      given (e_cstart e) (fun cstart =>
      given (e_qi1 e) (fun qi1 =>
      given (e_cend e) (fun cend =>
      given (e_qi4 e) (fun qi4 =>
      hc_turn_assert cstart qi1 /\ hc_turn_assert cend qi4))))
  | D_TTT =>
      given (e_cstart e) (fun cstart =>
      given (e_qi1 e) (fun qi1 =>
      given (e_qi2 e) (fun qi2 =>
      given (e_cend e) (fun cend =>
      given (e_qi3 e) (fun qi3 =>
      hc_turn_assert cstart qi1 /\ cc_turn_assert qi2 /\ hc_turn_assert cend qi3)))))
  | D_TTTT =>
      given (e_cstart e) (fun cstart =>
      given (e_qi1 e) (fun qi1 =>
      given (e_qi2 e) (fun qi2 =>
      given (e_cend e) (fun cend =>
      given (e_qi3 e) (fun qi3 =>
      hc_turn_assert cstart qi1 /\ cc_turn_assert qi2 /\ cc_turn_assert qi2 /\ hc_turn_assert cend qi3)))))
  | _ => True
  end.

(** src/hc_cc_state_space/cc00_reeds_shepp_state_space.cpp:1705-1783, the switch: the assertions of the calls. *)
Definition asserts_CC00R (p : HPath hc_cc_rs_type) : Prop :=
  let e := h_entry p in
  match h_type p with
  | RS_E =>
      True
  | RS_S =>
      True
  | RS_T =>
      cc_turn_assert (h_end p)
  | RS_TT | RS_TcT =>
      given (e_qi1 e) (fun qi1 =>
      cc_turn_assert qi1 /\ cc_turn_assert qi1)
  | RS_TcTcT | RS_TcTT | RS_TTcT =>
      given (e_qi1 e) (fun qi1 =>
      given (e_qi2 e) (fun qi2 =>
      cc_turn_assert qi1 /\ cc_turn_assert qi2 /\ cc_turn_assert qi2))
  | RS_TST =>
      given (e_qi1 e) (fun qi1 =>
      given (e_qi2 e) (fun qi2 =>
      cc_turn_assert qi1 /\ cc_turn_assert qi2))
  | RS_TSTcT =>
      given (e_qi1 e) (fun qi1 =>
      given (e_qi3 e) (fun qi3 =>
      cc_turn_assert qi1 /\ cc_turn_assert qi3 /\ cc_turn_assert qi3))
  | RS_TcTST =>
      given (e_qi1 e) (fun qi1 =>
      given (e_qi2 e) (fun qi2 =>
      given (e_qi3 e) (fun qi3 =>
      cc_turn_assert qi1 /\ cc_turn_assert qi2 /\ cc_turn_assert qi3)))
  | RS_TcTSTcT =>
      given (e_qi1 e) (fun qi1 =>
      given (e_qi2 e) (fun qi2 =>
      given (e_qi4 e) (fun qi4 =>
      cc_turn_assert qi1 /\ cc_turn_assert qi2 /\ cc_turn_assert qi4 /\ cc_turn_assert qi4)))
  | RS_TTcTT | RS_TcTTcT =>
      given (e_qi1 e) (fun qi1 =>
      given (e_qi2 e) (fun qi2 =>
      given (e_qi3 e) (fun qi3 =>
      cc_turn_assert qi1 /\ cc_turn_assert qi2 /\ cc_turn_assert qi3 /\ cc_turn_assert qi3)))
  | RS_TTT =>
      given (e_qi1 e) (fun qi1 =>
      given (e_qi2 e) (fun qi2 =>
      cc_turn_assert qi1 /\ cc_turn_assert qi2 /\ cc_turn_assert qi2))
  | RS_TcST | RS_TScT | RS_TcScT =>
      given (e_qi1 e) (fun qi1 =>
      given (e_qi2 e) (fun qi2 =>
      cc_turn_assert qi1 /\ cc_turn_assert qi2))
  end.

(** src/hc_cc_state_space/hc00_reeds_shepp_state_space.cpp:1762-1864, the switch: the assertions of the calls. *)
Definition asserts_HC00R (p : HPath hc_cc_rs_type) : Prop :=
  let e := h_entry p in
  match h_type p with
  | RS_E =>
      True
  | RS_S =>
      True
  | RS_T =>
      cc_turn_assert (h_end p)
  | RS_TT =>
      given (e_qi1 e) (fun qi1 =>
      cc_turn_assert qi1 /\ cc_turn_assert qi1)
  | RS_TcT =>
      given (e_cstart e) (fun cstart =>
      given (e_qi1 e) (fun qi1 =>
      given (e_cend e) (fun cend =>
      hc_turn_assert cstart qi1 /\ hc_turn_assert cend qi1)))
  | RS_TcTcT =>
      given (e_cstart e) (fun cstart =>
      given (e_qi1 e) (fun qi1 =>
      given (e_ci1 e) (fun ci1 =>
      given (e_qi2 e) (fun qi2 =>
      given (e_cend e) (fun cend =>
      hc_turn_assert cstart qi1 /\ rs_turn_assert ci1 qi2 /\ hc_turn_assert cend qi2)))))
  | RS_TcTT =>
      given (e_cstart e) (fun cstart =>
      given (e_qi1 e) (fun qi1 =>
      given (e_ci1 e) (fun ci1 =>
      given (e_qi2 e) (fun qi2 =>
      hc_turn_assert cstart qi1 /\ hc_turn_assert ci1 qi1 /\ cc_turn_assert qi2))))
  | RS_TTcT =>
      given (e_qi1 e) (fun qi1 =>
      given (e_ci1 e) (fun ci1 =>
      given (e_qi2 e) (fun qi2 =>
      given (e_cend e) (fun cend =>
      cc_turn_assert qi1 /\ hc_turn_assert ci1 qi2 /\ hc_turn_assert cend qi2))))
  | RS_TST =>
      given (e_qi1 e) (fun qi1 =>
      given (e_qi2 e) (fun qi2 =>
      cc_turn_assert qi1 /\ cc_turn_assert qi2))
  | RS_TSTcT =>
      given (e_qi1 e) (fun qi1 =>
      given (e_ci1 e) (fun ci1 =>
      given (e_qi3 e) (fun qi3 =>
      given (e_cend e) (fun cend =>
      cc_turn_assert qi1 /\ hc_turn_assert ci1 qi3 /\ hc_turn_assert cend qi3))))
  | RS_TcTST =>
      given (e_cstart e) (fun cstart =>
      given (e_qi1 e) (fun qi1 =>
      given (e_ci1 e) (fun ci1 =>
      given (e_qi3 e) (fun qi3 =>
      hc_turn_assert cstart qi1 /\ hc_turn_assert ci1 qi1 /\ cc_turn_assert qi3))))
  | RS_TcTSTcT =>
      given (e_cstart e) (fun cstart =>
      given (e_qi1 e) (fun qi1 =>
      given (e_ci1 e) (fun ci1 =>
      given (e_ci2 e) (fun ci2 =>
      given (e_qi4 e) (fun qi4 =>
      given (e_cend e) (fun cend =>
      hc_turn_assert cstart qi1 /\ hc_turn_assert ci1 qi1 /\ hc_turn_assert ci2 qi4 /\ hc_turn_assert cend qi4))))))
  | RS_TTcTT =>
      given (e_qi1 e) (fun qi1 =>
      given (e_ci1 e) (fun ci1 =>
      given (e_qi2 e) (fun qi2 =>
      given (e_ci2 e) (fun ci2 =>
      given (e_qi3 e) (fun qi3 =>
      cc_turn_assert qi1 /\ hc_turn_assert ci1 qi2 /\ hc_turn_assert ci2 qi2 /\ cc_turn_assert qi3)))))
  | RS_TcTTcT =>
      given (e_cstart e) (fun cstart =>
      given (e_qi1 e) (fun qi1 =>
      given (e_ci1 e) (fun ci1 =>
      given (e_ci2 e) (fun ci2 =>
      given (e_qi3 e) (fun qi3 =>
      given (e_cend e) (fun cend =>
      hc_turn_assert cstart qi1 /\ hc_turn_assert ci1 qi1 /\ hc_turn_assert ci2 qi3 /\ hc_turn_assert cend qi3))))))
  | RS_TTT =>
      given (e_qi1 e) (fun qi1 =>
      given (e_qi2 e) (fun qi2 =>
      cc_turn_assert qi1 /\ cc_turn_assert qi2 /\ cc_turn_assert qi2))
  | RS_TcST =>
      given (e_cstart e) (fun cstart =>
      given (e_qi1 e) (fun qi1 =>
      given (e_qi2 e) (fun qi2 =>
      hc_turn_assert cstart qi1 /\ cc_turn_assert qi2)))
  | RS_TScT =>
      given (e_qi1 e) (fun qi1 =>
      given (e_qi2 e) (fun qi2 =>
      given (e_cend e) (fun cend =>
      cc_turn_assert qi1 /\ hc_turn_assert cend qi2)))
  | RS_TcScT =>
      given (e_cstart e) (fun cstart =>
      given (e_qi1 e) (fun qi1 =>
      given (e_qi2 e) (fun qi2 =>
      given (e_cend e) (fun cend =>
      hc_turn_assert cstart qi1 /\ hc_turn_assert cend qi2))))
  end.

(** src/hc_cc_state_space/hc0pm_reeds_shepp_state_space.cpp:1793-1891, the switch: the assertions of the calls. *)
Definition asserts_HC0pmR (p : HPath hc_cc_rs_type) : Prop :=
  let e := h_entry p in
  match h_type p with
  | RS_E =>
      True
  | RS_T =>
      given (e_cstart e) (fun cstart =>
      hc_turn_assert cstart (h_end p))
  | RS_TT =>
      given (e_qi1 e) (fun qi1 =>
      given (e_cend e) (fun cend =>
      given (e_qi2 e) (fun qi2 =>
      cc_turn_assert qi1 /\ hc_turn_assert cend qi2)))
  | RS_TcT =>
      given (e_cstart e) (fun cstart =>
      given (e_qi1 e) (fun qi1 =>
      given (e_cend e) (fun cend =>
      hc_turn_assert cstart qi1 /\ rs_turn_assert cend qi1)))
  | RS_TcTcT =>
      given (e_cstart e) (fun cstart =>
      given (e_qi1 e) (fun qi1 =>
      given (e_ci1 e) (fun ci1 =>
      given (e_qi2 e) (fun qi2 =>
      given (e_cend e) (fun cend =>
      hc_turn_assert cstart qi1 /\ rs_turn_assert ci1 qi2 /\ rs_turn_assert cend qi2)))))
  | RS_TcTT =>
      given (e_cstart e) (fun cstart =>
      given (e_qi1 e) (fun qi1 =>
      given (e_ci1 e) (fun ci1 =>
      given (e_cend e) (fun cend =>
      given (e_qi2 e) (fun qi2 =>
      hc_turn_assert cstart qi1 /\ hc_turn_assert ci1 qi1 /\ hc_turn_assert cend qi2)))))
  | RS_TTcT =>
      given (e_qi1 e) (fun qi1 =>
      given (e_ci1 e) (fun ci1 =>
      given (e_qi2 e) (fun qi2 =>
      given (e_cend e) (fun cend =>
      cc_turn_assert qi1 /\ hc_turn_assert ci1 qi2 /\ rs_turn_assert cend qi2))))
  | RS_TST =>
      given (e_qi1 e) (fun qi1 =>
      given (e_cend e) (fun cend =>
      given (e_qi3 e) (fun qi3 =>
      cc_turn_assert qi1 /\ hc_turn_assert cend qi3)))
  | RS_TSTcT =>
      given (e_qi1 e) (fun qi1 =>
      given (e_ci1 e) (fun ci1 =>
      given (e_qi3 e) (fun qi3 =>
      given (e_cend e) (fun cend =>
      cc_turn_assert qi1 /\ hc_turn_assert ci1 qi3 /\ rs_turn_assert cend qi3))))
  | RS_TcTST =>
      given (e_cstart e) (fun cstart =>
      given (e_qi1 e) (fun qi1 =>
      given (e_ci1 e) (fun ci1 =>
      given (e_cend e) (fun cend =>
      given (e_qi4 e) (fun qi4 =>
      hc_turn_assert cstart qi1 /\ hc_turn_assert ci1 qi1 /\ hc_turn_assert cend qi4)))))
  | RS_TcTSTcT =>
      given (e_cstart e) (fun cstart =>
      given (e_qi1 e) (fun qi1 =>
      given (e_ci1 e) (fun ci1 =>
      given (e_ci2 e) (fun ci2 =>
      given (e_qi4 e) (fun qi4 =>
      given (e_cend e) (fun cend =>
      hc_turn_assert cstart qi1 /\ hc_turn_assert ci1 qi1 /\ hc_turn_assert ci2 qi4 /\ rs_turn_assert cend qi4))))))
  | RS_TTcTT =>
      given (e_qi1 e) (fun qi1 =>
      given (e_ci1 e) (fun ci1 =>
      given (e_qi2 e) (fun qi2 =>
      given (e_ci2 e) (fun ci2 =>
      given (e_cend e) (fun cend =>
      given (e_qi3 e) (fun qi3 =>
      cc_turn_assert qi1 /\ hc_turn_assert ci1 qi2 /\ hc_turn_assert ci2 qi2 /\ hc_turn_assert cend qi3))))))
  | RS_TcTTcT =>
      given (e_cstart e) (fun cstart =>
      given (e_qi1 e) (fun qi1 =>
      given (e_ci1 e) (fun ci1 =>
      given (e_ci2 e) (fun ci2 =>
      given (e_qi2 e) (fun qi2 =>
      given (e_cend e) (fun cend =>
      hc_turn_assert cstart qi1 /\ hc_turn_assert ci1 qi1 /\ hc_turn_assert ci2 qi2 /\ rs_turn_assert cend qi2))))))
  | RS_TTT =>
      given (e_qi1 e) (fun qi1 =>
      given (e_qi2 e) (fun qi2 =>
      given (e_cend e) (fun cend =>
      given (e_qi3 e) (fun qi3 =>
      cc_turn_assert qi1 /\ cc_turn_assert qi2 /\ hc_turn_assert cend qi3))))
  | RS_TcST =>
      given (e_cstart e) (fun cstart =>
      given (e_qi1 e) (fun qi1 =>
      given (e_cend e) (fun cend =>
      given (e_qi3 e) (fun qi3 =>
      hc_turn_assert cstart qi1 /\ hc_turn_assert cend qi3))))
  | RS_TScT =>
      given (e_qi1 e) (fun qi1 =>
      given (e_qi2 e) (fun qi2 =>
      given (e_cend e) (fun cend =>
      cc_turn_assert qi1 /\ rs_turn_assert cend qi2)))
  | RS_TcScT =>
      given (e_cstart e) (fun cstart =>
      given (e_qi1 e) (fun qi1 =>
      given (e_qi2 e) (fun qi2 =>
      given (e_cend e) (fun cend =>
      hc_turn_assert cstart qi1 /\ rs_turn_assert cend qi2))))
  | _ => True
  end.

(** src/hc_cc_state_space/hcpm0_reeds_shepp_state_space.cpp:1791-1889, the switch: the assertions of the calls. *)
Definition asserts_HCpm0R (p : HPath hc_cc_rs_type) : Prop :=
  let e := h_entry p in
  match h_type p with
  | RS_E =>
      True
  | RS_T =>
      given (e_cend e) (fun cend =>
      hc_turn_assert cend (h_start p))
  | RS_TT =>
      given (e_cstart e) (fun cstart =>
      given (e_qi1 e) (fun qi1 =>
      given (e_qi2 e) (fun qi2 =>
      hc_turn_assert cstart qi1 /\ cc_turn_assert qi2)))
  | RS_TcT =>
      given (e_cstart e) (fun cstart =>
      given (e_qi1 e) (fun qi1 =>
      given (e_cend e) (fun cend =>
      rs_turn_assert cstart qi1 /\ hc_turn_assert cend qi1)))
  | RS_TcTcT =>
      given (e_cstart e) (fun cstart =>
      given (e_qi1 e) (fun qi1 =>
      given (e_ci1 e) (fun ci1 =>
      given (e_qi2 e) (fun qi2 =>
      given (e_cend e) (fun cend =>
      rs_turn_assert cstart qi1 /\ rs_turn_assert ci1 qi2 /\ hc_turn_assert cend qi2)))))
  | RS_TcTT =>
      given (e_cstart e) (fun cstart =>
      given (e_qi1 e) (fun qi1 =>
      given (e_ci1 e) (fun ci1 =>
      given (e_qi2 e) (fun qi2 =>
      rs_turn_assert cstart qi1 /\ hc_turn_assert ci1 qi1 /\ cc_turn_assert qi2))))
  | RS_TTcT =>
      given (e_cstart e) (fun cstart =>
      given (e_qi1 e) (fun qi1 =>
      given (e_ci1 e) (fun ci1 =>
      given (e_qi2 e) (fun qi2 =>
      given (e_cend e) (fun cend =>
      hc_turn_assert cstart qi1 /\ hc_turn_assert ci1 qi2 /\ hc_turn_assert cend qi2)))))
  | RS_TST =>
      given (e_cstart e) (fun cstart =>
      given (e_qi1 e) (fun qi1 =>
      given (e_qi3 e) (fun qi3 =>
      hc_turn_assert cstart qi1 /\ cc_turn_assert qi3)))
  | RS_TSTcT =>
      given (e_cstart e) (fun cstart =>
      given (e_qi1 e) (fun qi1 =>
      given (e_ci1 e) (fun ci1 =>
      given (e_qi4 e) (fun qi4 =>
      given (e_cend e) (fun cend =>
      hc_turn_assert cstart qi1 /\ hc_turn_assert ci1 qi4 /\ hc_turn_assert cend qi4)))))
  | RS_TcTST =>
      given (e_cstart e) (fun cstart =>
      given (e_qi1 e) (fun qi1 =>
      given (e_ci1 e) (fun ci1 =>
      given (e_qi3 e) (fun qi3 =>
      rs_turn_assert cstart qi1 /\ hc_turn_assert ci1 qi1 /\ cc_turn_assert qi3))))
  | RS_TcTSTcT =>
      given (e_cstart e) (fun cstart =>
      given (e_qi1 e) (fun qi1 =>
      given (e_ci1 e) (fun ci1 =>
      given (e_ci2 e) (fun ci2 =>
      given (e_qi4 e) (fun qi4 =>
      given (e_cend e) (fun cend =>
      rs_turn_assert cstart qi1 /\ hc_turn_assert ci1 qi1 /\ hc_turn_assert ci2 qi4 /\ hc_turn_assert cend qi4))))))
  | RS_TTcTT =>
      given (e_cstart e) (fun cstart =>
      given (e_qi1 e) (fun qi1 =>
      given (e_ci1 e) (fun ci1 =>
      given (e_qi2 e) (fun qi2 =>
      given (e_ci2 e) (fun ci2 =>
      given (e_qi3 e) (fun qi3 =>
      hc_turn_assert cstart qi1 /\ hc_turn_assert ci1 qi2 /\ hc_turn_assert ci2 qi2 /\ cc_turn_assert qi3))))))
  | RS_TcTTcT =>
      given (e_cstart e) (fun cstart =>
      given (e_qi1 e) (fun qi1 =>
      given (e_ci1 e) (fun ci1 =>
      given (e_ci2 e) (fun ci2 =>
      given (e_qi2 e) (fun qi2 =>
      given (e_cend e) (fun cend =>
      rs_turn_assert cstart qi1 /\ hc_turn_assert ci1 qi1 /\ hc_turn_assert ci2 qi2 /\ hc_turn_assert cend qi2))))))
  | RS_TTT =>
      given (e_cstart e) (fun cstart =>
      given (e_qi1 e) (fun qi1 =>
      given (e_qi2 e) (fun qi2 =>
      hc_turn_assert cstart qi1 /\ cc_turn_assert qi2 /\ cc_turn_assert qi2)))
  | RS_TcST =>
      given (e_cstart e) (fun cstart =>
      given (e_qi1 e) (fun qi1 =>
      given (e_qi2 e) (fun qi2 =>
      rs_turn_assert cstart qi1 /\ cc_turn_assert qi2)))
  | RS_TScT =>
      given (e_cstart e) (fun cstart =>
      given (e_qi1 e) (fun qi1 =>
      given (e_qi3 e) (fun qi3 =>
      given (e_cend e) (fun cend =>
      hc_turn_assert cstart qi1 /\ hc_turn_assert cend qi3))))
  | RS_TcScT =>
      given (e_cstart e) (fun cstart =>
      given (e_qi1 e) (fun qi1 =>
      given (e_qi2 e) (fun qi2 =>
      given (e_cend e) (fun cend =>
      rs_turn_assert cstart qi1 /\ hc_turn_assert cend qi2))))
  | _ => True
  end.

(** src/hc_cc_state_space/hcpmpm_reeds_shepp_state_space.cpp:1839-1938, the switch: the assertions of the calls. *)
Definition asserts_HCpmpmR (p : HPath hc_cc_rs_type) : Prop :=
  let e := h_entry p in
  match h_type p with
  | RS_E =>
      True
  | RS_T =>
      given (e_cstart e) (fun cstart =>
      rs_turn_assert cstart (h_end p))
  | RS_TT =>
      given (e_cstart e) (fun cstart =>
      given (e_qi1 e) (fun qi1 =>
      given (e_cend e) (fun cend =>
      given (e_qi3 e) (fun qi3 =>
      hc_turn_assert cstart qi1 /\ hc_turn_assert cend qi3))))
  | RS_TcT =>
      given (e_cstart e) (fun cstart =>
      given (e_qi1 e) (fun qi1 =>
      given (e_cend e) (fun cend =>
      rs_turn_assert cstart qi1 /\ rs_turn_assert cend qi1)))
  | RS_TcTcT =>
      given (e_cstart e) (fun cstart =>
      given (e_qi1 e) (fun qi1 =>
      given (e_ci1 e) (fun ci1 =>
      given (e_qi2 e) (fun qi2 =>
      given (e_cend e) (fun cend =>
      rs_turn_assert cstart qi1 /\ rs_turn_assert ci1 qi2 /\ rs_turn_assert cend qi2)))))
  | RS_TcTT =>
      given (e_cstart e) (fun cstart =>
      given (e_qi1 e) (fun qi1 =>
      given (e_ci1 e) (fun ci1 =>
      given (e_cend e) (fun cend =>
      given (e_qi2 e) (fun qi2 =>
      rs_turn_assert cstart qi1 /\ hc_turn_assert ci1 qi1 /\ hc_turn_assert cend qi2)))))
  | RS_TTcT =>
      given (e_cstart e) (fun cstart =>
      given (e_qi1 e) (fun qi1 =>
      given (e_ci1 e) (fun ci1 =>
      given (e_qi2 e) (fun qi2 =>
      given (e_cend e) (fun cend =>
      hc_turn_assert cstart qi1 /\ hc_turn_assert ci1 qi2 /\ rs_turn_assert cend qi2)))))
  | RS_TST =>
      given (e_cstart e) (fun cstart =>
      given (e_qi1 e) (fun qi1 =>
      given (e_cend e) (fun cend =>
      given (e_qi4 e) (fun qi4 =>
      hc_turn_assert cstart qi1 /\ hc_turn_assert cend qi4))))
  | RS_TSTcT =>
      given (e_cstart e) (fun cstart =>
      given (e_qi1 e) (fun qi1 =>
      given (e_ci1 e) (fun ci1 =>
      given (e_qi4 e) (fun qi4 =>
      given (e_cend e) (fun cend =>
      hc_turn_assert cstart qi1 /\ hc_turn_assert ci1 qi4 /\ rs_turn_assert cend qi4)))))
  | RS_TcTST =>
      given (e_cstart e) (fun cstart =>
      given (e_qi1 e) (fun qi1 =>
      given (e_ci1 e) (fun ci1 =>
      given (e_cend e) (fun cend =>
      given (e_qi4 e) (fun qi4 =>
      rs_turn_assert cstart qi1 /\ hc_turn_assert ci1 qi1 /\ hc_turn_assert cend qi4)))))
  | RS_TcTSTcT =>
      given (e_cstart e) (fun cstart =>
      given (e_qi1 e) (fun qi1 =>
      given (e_ci1 e) (fun ci1 =>
      given (e_ci2 e) (fun ci2 =>
      given (e_qi4 e) (fun qi4 =>
      given (e_cend e) (fun cend =>
      rs_turn_assert cstart qi1 /\ hc_turn_assert ci1 qi1 /\ hc_turn_assert ci2 qi4 /\ rs_turn_assert cend qi4))))))
  | RS_TTcTT =>
      given (e_cstart e) (fun cstart =>
      given (e_qi1 e) (fun qi1 =>
      given (e_ci1 e) (fun ci1 =>
      given (e_qi2 e) (fun qi2 =>
      given (e_ci2 e) (fun ci2 =>
      given (e_cend e) (fun cend =>
      given (e_qi3 e) (fun qi3 =>
      hc_turn_assert cstart qi1 /\ hc_turn_assert ci1 qi2 /\ hc_turn_assert ci2 qi2 /\ hc_turn_assert cend qi3)))))))
  | RS_TcTTcT =>
      given (e_cstart e) (fun cstart =>
      given (e_qi1 e) (fun qi1 =>
      given (e_ci1 e) (fun ci1 =>
      given (e_ci2 e) (fun ci2 =>
      given (e_qi2 e) (fun qi2 =>
      given (e_cend e) (fun cend =>
      rs_turn_assert cstart qi1 /\ hc_turn_assert ci1 qi1 /\ hc_turn_assert ci2 qi2 /\ rs_turn_assert cend qi2))))))
  | RS_TTT =>
      given (e_cstart e) (fun cstart =>
      given (e_qi1 e) (fun qi1 =>
      given (e_qi2 e) (fun qi2 =>
      given (e_cend e) (fun cend =>
      given (e_qi3 e) (fun qi3 =>
      hc_turn_assert cstart qi1 /\ cc_turn_assert qi2 /\ hc_turn_assert cend qi3)))))
  | RS_TcST =>
      given (e_cstart e) (fun cstart =>
      given (e_qi1 e) (fun qi1 =>
      given (e_cend e) (fun cend =>
      given (e_qi3 e) (fun qi3 =>
      rs_turn_assert cstart qi1 /\ hc_turn_assert cend qi3))))
  | RS_TScT =>
      given (e_cstart e) (fun cstart =>
      given (e_qi1 e) (fun qi1 =>
      given (e_qi3 e) (fun qi3 =>
      given (e_cend e) (fun cend =>
      hc_turn_assert cstart qi1 /\ rs_turn_assert cend qi3))))
  | RS_TcScT =>
      given (e_cstart e) (fun cstart =>
      given (e_qi1 e) (fun qi1 =>
      given (e_qi2 e) (fun qi2 =>
      given (e_cend e) (fun cend =>
      rs_turn_assert cstart qi1 /\ rs_turn_assert cend qi2))))
  | _ => True
  end.


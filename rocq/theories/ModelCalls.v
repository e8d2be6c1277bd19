(** * The assertions met while the candidates of a planner are measured

    rs_turn_length, hc_turn_length and cc_turn_length begin with an assertion on the turn they measure
    (src/hc_cc_state_space/hc_cc_circle.cpp:150-151, 187, 240). For every function of the nine planners that calls
    them: the circles and configurations as it computes them, and the assertions of its calls. A candidate is only
    measured if it exists; here it is taken to be measured whenever its square roots, arc sines and quotients are
    defined. *)
From Coq Require Import Reals List Bool.
From Verif Require Import Base ModelUtil ModelCircle ModelPaths ModelAsserts.
From Verif Require ModelCC00D ModelCC0pmD ModelCCpm0D ModelCCpmpmD ModelCC00R ModelHC00R ModelHC0pmR ModelHCpm0R ModelHCpmpmR.
Import ListNotations.
Open Scope R_scope.

(** ** ModelCC00D.v *)
(** src/hc_cc_state_space/cc00_dubins_state_space.cpp:97-101 *)
Definition calls_CC00D_TT (c1 c2 : Circle) : Prop :=
  let q := ModelCC00D.TT_tangent_circles c1 c2 in
  cc_turn_assert q /\ cc_turn_assert q.

(** src/hc_cc_state_space/cc00_dubins_state_space.cpp:217-221 *)
Definition calls_CC00D_TiST (c1 c2 : Circle) : Prop :=
  given (ModelCC00D.TiST_tangent_circles c1 c2) (fun '(q1, q2) =>
  cc_turn_assert q1 /\ cc_turn_assert q2).

(** src/hc_cc_state_space/cc00_dubins_state_space.cpp:223-227 *)
Definition calls_CC00D_TeST (c1 c2 : Circle) : Prop :=
  let '(q1, q2) := ModelCC00D.TeST_tangent_circles c1 c2 in
  cc_turn_assert q1 /\ cc_turn_assert q2.

(** src/hc_cc_state_space/cc00_dubins_state_space.cpp:276-309 *)
Definition calls_CC00D_TTT (kappa_ sigma_ distance_ angle_ : R) (c1 c2 : Circle) : Prop :=
  given (ModelCC00D.TTT_tangent_circles kappa_ sigma_ distance_ angle_ c1 c2) (fun '(qa, qb, qc, qd) =>
  let middle1 := circle qa (negb (c_left c1)) (c_forward c1) (c_regular c1) (hc_cc_param kappa_ sigma_) in
  let middle2 := circle qc (negb (c_left c1)) (c_forward c1) (c_regular c1) (hc_cc_param kappa_ sigma_) in
  cc_turn_assert qa /\ cc_turn_assert qb /\ cc_turn_assert qb /\ cc_turn_assert qc /\ cc_turn_assert qd /\ cc_turn_assert qd).

(** src/hc_cc_state_space/cc00_dubins_state_space.cpp:323-412: all calls for two circles. *)
Definition calls_CC00D (kappa_ sigma_ : R) (c1 c2 : Circle) : Prop :=
  let distance_ := center_distance c1 c2 in
  let angle_ := atan2 (c_yc c2 - c_yc c1) (c_xc c2 - c_xc c1) in
  cc_turn_assert (c_start c2) /\
  calls_CC00D_TT c1 c2 /\
  calls_CC00D_TiST c1 c2 /\
  calls_CC00D_TeST c1 c2 /\
  calls_CC00D_TTT kappa_ sigma_ distance_ angle_ c1 c2.

(** ** ModelCC0pmD.v *)
(** src/hc_cc_state_space/cc0pm_dubins_state_space.cpp:97-105 *)
Definition calls_CC0pmD_TT (kappa_ sigma_ : R) (c1 c2 : Circle) : Prop :=
  let q1 := ModelCC0pmD.TT_tangent_circles c1 c2 in
  let cstart := circle (c_start c1) (c_left c1) (c_forward c1) true (hc_cc_param kappa_ sigma_) in
  let cend := circle q1 (c_left c2) (negb (c_forward c2)) true (hc_cc_param kappa_ sigma_) in
  let q2 := configuration (q_x (c_start c2)) (q_y (c_start c2)) (q_theta (c_start c2)) (c_kappa c2) in
  cc_turn_assert q1 /\ hc_turn_assert cend q2.

(** src/hc_cc_state_space/cc0pm_dubins_state_space.cpp:221-229 *)
Definition calls_CC0pmD_TiST (kappa_ sigma_ : R) (c1 c2 : Circle) : Prop :=
  given (ModelCC0pmD.TiST_tangent_circles c1 c2) (fun '(q1, q2) =>
  let cstart := circle (c_start c1) (c_left c1) (c_forward c1) true (hc_cc_param kappa_ sigma_) in
  let cend := circle q2 (c_left c2) (negb (c_forward c2)) true (hc_cc_param kappa_ sigma_) in
  let q3 := configuration (q_x (c_start c2)) (q_y (c_start c2)) (q_theta (c_start c2)) (c_kappa c2) in
  cc_turn_assert q1 /\ hc_turn_assert cend q3).

(** src/hc_cc_state_space/cc0pm_dubins_state_space.cpp:231-239 *)
Definition calls_CC0pmD_TeST (kappa_ sigma_ : R) (c1 c2 : Circle) : Prop :=
  let '(q1, q2) := ModelCC0pmD.TeST_tangent_circles c1 c2 in
  let cstart := circle (c_start c1) (c_left c1) (c_forward c1) true (hc_cc_param kappa_ sigma_) in
  let cend := circle q2 (c_left c2) (negb (c_forward c2)) true (hc_cc_param kappa_ sigma_) in
  let q3 := configuration (q_x (c_start c2)) (q_y (c_start c2)) (q_theta (c_start c2)) (c_kappa c2) in
  cc_turn_assert q1 /\ hc_turn_assert cend q3.

(** src/hc_cc_state_space/cc0pm_dubins_state_space.cpp:289-331 *)
Definition calls_CC0pmD_TTT (kappa_ sigma_ distance_ angle_ : R) (c1 c2 : Circle) : Prop :=
  given (ModelCC0pmD.TTT_tangent_circles kappa_ sigma_ distance_ angle_ c1 c2) (fun '(qa, qb, qc, qd) =>
  let middle1 := circle qa (negb (c_left c1)) (c_forward c1) true (hc_cc_param kappa_ sigma_) in
  let end1 := circle qb (c_left c2) (negb (c_forward c2)) true (hc_cc_param kappa_ sigma_) in
  let middle2 := circle qc (negb (c_left c1)) (c_forward c1) true (hc_cc_param kappa_ sigma_) in
  let end2 := circle qd (c_left c2) (negb (c_forward c2)) true (hc_cc_param kappa_ sigma_) in
  let cstart := circle (c_start c1) (c_left c1) (c_forward c1) true (hc_cc_param kappa_ sigma_) in
  let q3 := configuration (q_x (c_start c2)) (q_y (c_start c2)) (q_theta (c_start c2)) (c_kappa c2) in
  cc_turn_assert qa /\ cc_turn_assert qb /\ hc_turn_assert end1 q3 /\ cc_turn_assert qc /\ cc_turn_assert qd /\ hc_turn_assert end2 q3).

(** src/hc_cc_state_space/cc0pm_dubins_state_space.cpp:348-426: all calls for two circles. *)
Definition calls_CC0pmD (kappa_ sigma_ : R) (c1 c2 : Circle) : Prop :=
  let distance_ := center_distance c1 c2 in
  let angle_ := atan2 (c_yc c2 - c_yc c1) (c_xc c2 - c_xc c1) in
  hc_turn_assert (circle (c_start c1) (c_left c1) (c_forward c1) true (hc_cc_param kappa_ sigma_)) (c_start c2) /\
  calls_CC0pmD_TT kappa_ sigma_ c1 c2 /\
  calls_CC0pmD_TiST kappa_ sigma_ c1 c2 /\
  calls_CC0pmD_TeST kappa_ sigma_ c1 c2 /\
  calls_CC0pmD_TTT kappa_ sigma_ distance_ angle_ c1 c2.

(** ** ModelCCpm0D.v *)
(** src/hc_cc_state_space/ccpm0_dubins_state_space.cpp:97-105 *)
Definition calls_CCpm0D_TT (kappa_ sigma_ : R) (c1 c2 : Circle) : Prop :=
  let q2 := ModelCCpm0D.TT_tangent_circles c1 c2 in
  let cstart := circle q2 (negb (c_left c2)) (c_forward c2) true (hc_cc_param kappa_ sigma_) in
  let cend := circle (c_start c2) (c_left c2) (c_forward c2) true (hc_cc_param kappa_ sigma_) in
  let q1 := configuration (q_x (c_start c1)) (q_y (c_start c1)) (q_theta (c_start c1)) (c_kappa c1) in
  hc_turn_assert cstart q1 /\ cc_turn_assert q2.

(** src/hc_cc_state_space/ccpm0_dubins_state_space.cpp:221-229 *)
Definition calls_CCpm0D_TiST (kappa_ sigma_ : R) (c1 c2 : Circle) : Prop :=
  given (ModelCCpm0D.TiST_tangent_circles c1 c2) (fun '(q2, q3) =>
  let cstart := circle q2 (c_left c1) (negb (c_forward c1)) true (hc_cc_param kappa_ sigma_) in
  let cend := circle (c_start c2) (c_left c2) (c_forward c2) true (hc_cc_param kappa_ sigma_) in
  let q1 := configuration (q_x (c_start c1)) (q_y (c_start c1)) (q_theta (c_start c1)) (c_kappa c1) in
  hc_turn_assert cstart q1 /\ cc_turn_assert q3).

(** src/hc_cc_state_space/ccpm0_dubins_state_space.cpp:231-239 *)
Definition calls_CCpm0D_TeST (kappa_ sigma_ : R) (c1 c2 : Circle) : Prop :=
  let '(q2, q3) := ModelCCpm0D.TeST_tangent_circles c1 c2 in
  let cstart := circle q2 (c_left c1) (negb (c_forward c1)) true (hc_cc_param kappa_ sigma_) in
  let cend := circle (c_start c2) (c_left c2) (c_forward c2) true (hc_cc_param kappa_ sigma_) in
  let q1 := configuration (q_x (c_start c1)) (q_y (c_start c1)) (q_theta (c_start c1)) (c_kappa c1) in
  hc_turn_assert cstart q1 /\ cc_turn_assert q3.

(** src/hc_cc_state_space/ccpm0_dubins_state_space.cpp:289-331 *)
Definition calls_CCpm0D_TTT (kappa_ sigma_ distance_ angle_ : R) (c1 c2 : Circle) : Prop :=
  given (ModelCCpm0D.TTT_tangent_circles kappa_ sigma_ distance_ angle_ c1 c2) (fun '(qa, qb, qc, qd) =>
  let start1 := circle qa (c_left c1) (negb (c_forward c1)) true (hc_cc_param kappa_ sigma_) in
  let middle1 := circle qa (negb (c_left c1)) (c_forward c1) true (hc_cc_param kappa_ sigma_) in
  let start2 := circle qc (c_left c1) (negb (c_forward c1)) true (hc_cc_param kappa_ sigma_) in
  let middle2 := circle qc (negb (c_left c1)) (c_forward c1) true (hc_cc_param kappa_ sigma_) in
  let cend := circle (c_start c2) (c_left c2) (c_forward c2) true (hc_cc_param kappa_ sigma_) in
  let q1 := configuration (q_x (c_start c1)) (q_y (c_start c1)) (q_theta (c_start c1)) (c_kappa c1) in
  hc_turn_assert start1 q1 /\ cc_turn_assert qb /\ cc_turn_assert qb /\ hc_turn_assert start2 q1 /\ cc_turn_assert qd /\ cc_turn_assert qd).

(** src/hc_cc_state_space/ccpm0_dubins_state_space.cpp:348-425: all calls for two circles. *)
Definition calls_CCpm0D (kappa_ sigma_ : R) (c1 c2 : Circle) : Prop :=
  let distance_ := center_distance c1 c2 in
  let angle_ := atan2 (c_yc c2 - c_yc c1) (c_xc c2 - c_xc c1) in
  hc_turn_assert (circle (c_start c2) (c_left c2) (c_forward c2) true (hc_cc_param kappa_ sigma_)) (c_start c1) /\
  calls_CCpm0D_TT kappa_ sigma_ c1 c2 /\
  calls_CCpm0D_TiST kappa_ sigma_ c1 c2 /\
  calls_CCpm0D_TeST kappa_ sigma_ c1 c2 /\
  calls_CCpm0D_TTT kappa_ sigma_ distance_ angle_ c1 c2.

(** ** ModelCCpmpmD.v *)
(** src/hc_cc_state_space/ccpmpm_dubins_state_space.cpp:97-106 *)
Definition calls_CCpmpmD_TT (kappa_ sigma_ : R) (c1 c2 : Circle) : Prop :=
  let q2 := ModelCCpmpmD.TT_tangent_circles kappa_ sigma_ c1 c2 in
  let cstart := circle q2 (c_left c1) (negb (c_forward c1)) true (hc_cc_param kappa_ sigma_) in
  let cend := circle q2 (c_left c2) (negb (c_forward c2)) true (hc_cc_param kappa_ sigma_) in
  let q1 := configuration (q_x (c_start c1)) (q_y (c_start c1)) (q_theta (c_start c1)) (c_kappa c1) in
  let q3 := configuration (q_x (c_start c2)) (q_y (c_start c2)) (q_theta (c_start c2)) (c_kappa c2) in
  hc_turn_assert cstart q1 /\ hc_turn_assert cend q3.

(** src/hc_cc_state_space/ccpmpm_dubins_state_space.cpp:222-231 *)
Definition calls_CCpmpmD_TiST (kappa_ sigma_ : R) (c1 c2 : Circle) : Prop :=
  given (ModelCCpmpmD.TiST_tangent_circles kappa_ sigma_ c1 c2) (fun '(q2, q3) =>
  let cstart := circle q2 (c_left c1) (negb (c_forward c1)) true (hc_cc_param kappa_ sigma_) in
  let cend := circle q3 (c_left c2) (negb (c_forward c2)) true (hc_cc_param kappa_ sigma_) in
  let q1 := configuration (q_x (c_start c1)) (q_y (c_start c1)) (q_theta (c_start c1)) (c_kappa c1) in
  let q4 := configuration (q_x (c_start c2)) (q_y (c_start c2)) (q_theta (c_start c2)) (c_kappa c2) in
  hc_turn_assert cstart q1 /\ hc_turn_assert cend q4).

(** src/hc_cc_state_space/ccpmpm_dubins_state_space.cpp:233-242 *)
Definition calls_CCpmpmD_TeST (kappa_ sigma_ : R) (c1 c2 : Circle) : Prop :=
  let '(q2, q3) := ModelCCpmpmD.TeST_tangent_circles kappa_ sigma_ c1 c2 in
  let cstart := circle q2 (c_left c1) (negb (c_forward c1)) true (hc_cc_param kappa_ sigma_) in
  let cend := circle q3 (c_left c2) (negb (c_forward c2)) true (hc_cc_param kappa_ sigma_) in
  let q1 := configuration (q_x (c_start c1)) (q_y (c_start c1)) (q_theta (c_start c1)) (c_kappa c1) in
  let q4 := configuration (q_x (c_start c2)) (q_y (c_start c2)) (q_theta (c_start c2)) (c_kappa c2) in
  hc_turn_assert cstart q1 /\ hc_turn_assert cend q4.

(** src/hc_cc_state_space/ccpmpm_dubins_state_space.cpp:292-340 *)
Definition calls_CCpmpmD_TTT (kappa_ sigma_ distance_ angle_ : R) (c1 c2 : Circle) : Prop :=
  given (ModelCCpmpmD.TTT_tangent_circles kappa_ sigma_ distance_ angle_ c1 c2) (fun '(qa, qb, qc, qd) =>
  let start1 := circle qa (c_left c1) (negb (c_forward c1)) true (hc_cc_param kappa_ sigma_) in
  let middle1 := circle qa (negb (c_left c1)) (c_forward c1) true (hc_cc_param kappa_ sigma_) in
  let end1 := circle qb (c_left c2) (negb (c_forward c2)) true (hc_cc_param kappa_ sigma_) in
  let start2 := circle qc (c_left c1) (negb (c_forward c1)) true (hc_cc_param kappa_ sigma_) in
  let middle2 := circle qc (negb (c_left c1)) (c_forward c1) true (hc_cc_param kappa_ sigma_) in
  let end2 := circle qd (c_left c2) (negb (c_forward c2)) true (hc_cc_param kappa_ sigma_) in
  let q1 := configuration (q_x (c_start c1)) (q_y (c_start c1)) (q_theta (c_start c1)) (c_kappa c1) in
  let q3 := configuration (q_x (c_start c2)) (q_y (c_start c2)) (q_theta (c_start c2)) (c_kappa c2) in
  hc_turn_assert start1 q1 /\ cc_turn_assert qb /\ hc_turn_assert end1 q3 /\ hc_turn_assert start2 q1 /\ cc_turn_assert qd /\ hc_turn_assert end2 q3).

(** src/hc_cc_state_space/ccpmpm_dubins_state_space.cpp:394-453 *)
Definition calls_CCpmpmD_TTTT (kappa_ sigma_ distance_ angle_ : R) (c1 c2 : Circle) : Prop :=
  given (ModelCCpmpmD.TTTT_tangent_circles kappa_ sigma_ distance_ angle_ c1 c2) (fun '(qa, qb, qc, qd, qe, qf) =>
  let start1 := circle qa (c_left c1) (negb (c_forward c1)) true (hc_cc_param kappa_ sigma_) in
  let middle1 := circle qa (negb (c_left c1)) (c_forward c1) true (hc_cc_param kappa_ sigma_) in
  let middle2 := circle qc (negb (c_left c2)) (c_forward c2) true (hc_cc_param kappa_ sigma_) in
  let end1 := circle qc (c_left c2) (negb (c_forward c2)) true (hc_cc_param kappa_ sigma_) in
  let start2 := circle qd (c_left c1) (negb (c_forward c1)) true (hc_cc_param kappa_ sigma_) in
  let middle3 := circle qd (negb (c_left c1)) (c_forward c1) true (hc_cc_param kappa_ sigma_) in
  let middle4 := circle qf (negb (c_left c2)) (c_forward c2) true (hc_cc_param kappa_ sigma_) in
  let end2 := circle qf (c_left c2) (negb (c_forward c2)) true (hc_cc_param kappa_ sigma_) in
  let q1 := configuration (q_x (c_start c1)) (q_y (c_start c1)) (q_theta (c_start c1)) (c_kappa c1) in
  let q3 := configuration (q_x (c_start c2)) (q_y (c_start c2)) (q_theta (c_start c2)) (c_kappa c2) in
  hc_turn_assert start1 q1 /\ cc_turn_assert qb /\ cc_turn_assert qb /\ hc_turn_assert end1 q3 /\ hc_turn_assert start2 q1 /\ cc_turn_assert qe /\ cc_turn_assert qe /\ hc_turn_assert end2 q3).

(** src/hc_cc_state_space/ccpmpm_dubins_state_space.cpp:472-565: all calls for two circles. *)
Definition calls_CCpmpmD (kappa_ sigma_ : R) (c1 c2 : Circle) : Prop :=
  let distance_ := center_distance c1 c2 in
  let angle_ := atan2 (c_yc c2 - c_yc c1) (c_xc c2 - c_xc c1) in
  rs_turn_assert (circle (c_start c1) (c_left c1) (c_forward c1) true (rs_param kappa_)) (c_start c2) /\
  calls_CCpmpmD_TT kappa_ sigma_ c1 c2 /\
  calls_CCpmpmD_TiST kappa_ sigma_ c1 c2 /\
  calls_CCpmpmD_TeST kappa_ sigma_ c1 c2 /\
  calls_CCpmpmD_TTT kappa_ sigma_ distance_ angle_ c1 c2 /\
  calls_CCpmpmD_TTTT kappa_ sigma_ distance_ angle_ c1 c2.

(** ** ModelCC00R.v *)
(** src/hc_cc_state_space/cc00_reeds_shepp_state_space.cpp:99-103 *)
Definition calls_CC00R_TT (c1 c2 : Circle) : Prop :=
  let q := ModelCC00R.TT_tangent_circles c1 c2 in
  cc_turn_assert q /\ cc_turn_assert q.

(** src/hc_cc_state_space/cc00_reeds_shepp_state_space.cpp:155-159 *)
Definition calls_CC00R_TcT (c1 c2 : Circle) : Prop :=
  given (ModelCC00R.TcT_tangent_circles c1 c2) (fun q =>
  cc_turn_assert q /\ cc_turn_assert q).

(** src/hc_cc_state_space/cc00_reeds_shepp_state_space.cpp:197-230 *)
Definition calls_CC00R_TcTcT (kappa_ sigma_ distance_ angle_ : R) (c1 c2 : Circle) : Prop :=
  given (ModelCC00R.TcTcT_tangent_circles kappa_ sigma_ distance_ angle_ c1 c2) (fun '(qa, qb, qc, qd) =>
  let middle1 := circle qa (negb (c_left c1)) (negb (c_forward c1)) (c_regular c1) (hc_cc_param kappa_ sigma_) in
  let middle2 := circle qc (negb (c_left c1)) (negb (c_forward c1)) (c_regular c1) (hc_cc_param kappa_ sigma_) in
  cc_turn_assert qa /\ cc_turn_assert qb /\ cc_turn_assert qb /\ cc_turn_assert qc /\ cc_turn_assert qd /\ cc_turn_assert qd).

(** src/hc_cc_state_space/cc00_reeds_shepp_state_space.cpp:267-300 *)
Definition calls_CC00R_TcTT (kappa_ sigma_ distance_ angle_ : R) (c1 c2 : Circle) : Prop :=
  given (ModelCC00R.TcTT_tangent_circles kappa_ sigma_ distance_ angle_ c1 c2) (fun '(qa, qb, qc, qd) =>
  let middle1 := circle qa (negb (c_left c1)) (negb (c_forward c1)) (c_regular c1) (hc_cc_param kappa_ sigma_) in
  let middle2 := circle qc (negb (c_left c1)) (negb (c_forward c1)) (c_regular c1) (hc_cc_param kappa_ sigma_) in
  cc_turn_assert qa /\ cc_turn_assert qb /\ cc_turn_assert qb /\ cc_turn_assert qc /\ cc_turn_assert qd /\ cc_turn_assert qd).

(** src/hc_cc_state_space/cc00_reeds_shepp_state_space.cpp:337-370 *)
Definition calls_CC00R_TTcT (kappa_ sigma_ distance_ angle_ : R) (c1 c2 : Circle) : Prop :=
  given (ModelCC00R.TTcT_tangent_circles kappa_ sigma_ distance_ angle_ c1 c2) (fun '(qa, qb, qc, qd) =>
  let middle1 := circle qa (negb (c_left c1)) (c_forward c1) (c_regular c1) (hc_cc_param kappa_ sigma_) in
  let middle2 := circle qc (negb (c_left c1)) (c_forward c1) (c_regular c1) (hc_cc_param kappa_ sigma_) in
  cc_turn_assert qa /\ cc_turn_assert qb /\ cc_turn_assert qb /\ cc_turn_assert qc /\ cc_turn_assert qd /\ cc_turn_assert qd).

(** src/hc_cc_state_space/cc00_reeds_shepp_state_space.cpp:485-489 *)
Definition calls_CC00R_TiST (c1 c2 : Circle) : Prop :=
  given (ModelCC00R.TiST_tangent_circles c1 c2) (fun '(q1, q2) =>
  cc_turn_assert q1 /\ cc_turn_assert q2).

(** src/hc_cc_state_space/cc00_reeds_shepp_state_space.cpp:491-495 *)
Definition calls_CC00R_TeST (c1 c2 : Circle) : Prop :=
  let '(q1, q2) := ModelCC00R.TeST_tangent_circles c1 c2 in
  cc_turn_assert q1 /\ cc_turn_assert q2.

(** src/hc_cc_state_space/cc00_reeds_shepp_state_space.cpp:542-561 *)
Definition calls_CC00R_TiSTcT (kappa_ sigma_ distance_ angle_ : R) (c1 c2 : Circle) : Prop :=
  let theta := angle_ in
  let r := (c_radius c2) * (c_cos_mu c2) in
  given (fdiv ((2 * r) ^ 2) distance_) (fun delta_y =>
  given (fdiv delta_y distance_) (fun t2 =>
  given (fsqrt (1 - t2)) (fun t3 =>
  let delta_x := (2 * r) * t3 in
  let '(x, y) := global_frame_change (c_xc c2) (c_yc c2) theta (- delta_x) delta_y in
  let tgt1 := circle_at x y (negb (c_left c2)) (c_forward c2) (c_regular c2) (hc_cc_param kappa_ sigma_) in
  given (ModelCC00R.TiST_tangent_circles c1 tgt1) (fun '(q1, q2) =>
  given (ModelCC00R.TcT_tangent_circles tgt1 c2) (fun q3 =>
  let ci := circle q2 (negb (c_left c1)) (c_forward c1) (c_regular c1) (hc_cc_param kappa_ sigma_) in
  cc_turn_assert q1 /\ cc_turn_assert q3 /\ cc_turn_assert q3))))).

(** src/hc_cc_state_space/cc00_reeds_shepp_state_space.cpp:563-581 *)
Definition calls_CC00R_TeSTcT (kappa_ sigma_ angle_ : R) (c1 c2 : Circle) : Prop :=
  let theta := angle_ in
  let delta_x := (2 * (c_radius c2)) * (c_cos_mu c2) in
  let delta_y := 0 in
  let '(x, y) := global_frame_change (c_xc c2) (c_yc c2) theta (- delta_x) delta_y in
  let tgt1 := circle_at x y (negb (c_left c2)) (c_forward c2) (c_regular c2) (hc_cc_param kappa_ sigma_) in
  let '(q1, q2) := ModelCC00R.TeST_tangent_circles c1 tgt1 in
  given (ModelCC00R.TcT_tangent_circles tgt1 c2) (fun q3 =>
  let ci := circle q2 (c_left c1) (c_forward c1) (c_regular c1) (hc_cc_param kappa_ sigma_) in
  cc_turn_assert q1 /\ cc_turn_assert q3 /\ cc_turn_assert q3).

(** src/hc_cc_state_space/cc00_reeds_shepp_state_space.cpp:629-648 *)
Definition calls_CC00R_TcTiST (kappa_ sigma_ distance_ angle_ : R) (c1 c2 : Circle) : Prop :=
  let theta := angle_ in
  let r := (c_radius c1) * (c_cos_mu c1) in
  given (fdiv ((2 * r) ^ 2) distance_) (fun delta_y =>
  given (fdiv delta_y distance_) (fun t2 =>
  given (fsqrt (1 - t2)) (fun t3 =>
  let delta_x := (2 * r) * t3 in
  let '(x, y) := global_frame_change (c_xc c1) (c_yc c1) theta delta_x (- delta_y) in
  let tgt1 := circle_at x y (negb (c_left c2)) (negb (c_forward c2)) (c_regular c2) (hc_cc_param kappa_ sigma_) in
  given (ModelCC00R.TcT_tangent_circles c1 tgt1) (fun q1 =>
  given (ModelCC00R.TiST_tangent_circles tgt1 c2) (fun '(q2, q3) =>
  let ci := circle q1 (negb (c_left c1)) (negb (c_forward c1)) (c_regular c1) (hc_cc_param kappa_ sigma_) in
  cc_turn_assert q1 /\ cc_turn_assert q2 /\ cc_turn_assert q3))))).

(** src/hc_cc_state_space/cc00_reeds_shepp_state_space.cpp:650-668 *)
Definition calls_CC00R_TcTeST (kappa_ sigma_ angle_ : R) (c1 c2 : Circle) : Prop :=
  let theta := angle_ in
  let delta_x := (2 * (c_radius c2)) * (c_cos_mu c2) in
  let delta_y := 0 in
  let '(x, y) := global_frame_change (c_xc c1) (c_yc c1) theta delta_x delta_y in
  let tgt1 := circle_at x y (c_left c2) (negb (c_forward c2)) (c_regular c2) (hc_cc_param kappa_ sigma_) in
  given (ModelCC00R.TcT_tangent_circles c1 tgt1) (fun q1 =>
  let '(q2, q3) := ModelCC00R.TeST_tangent_circles tgt1 c2 in
  let ci := circle q1 (negb (c_left c1)) (negb (c_forward c1)) (c_regular c1) (hc_cc_param kappa_ sigma_) in
  cc_turn_assert q1 /\ cc_turn_assert q2 /\ cc_turn_assert q3).

(** src/hc_cc_state_space/cc00_reeds_shepp_state_space.cpp:716-739 *)
Definition calls_CC00R_TcTiSTcT (kappa_ sigma_ distance_ angle_ : R) (c1 c2 : Circle) : Prop :=
  let theta := angle_ in
  let r := (c_radius c1) * (c_cos_mu c1) in
  given (fdiv ((2 * r) ^ 2) distance_) (fun delta_y =>
  given (fdiv delta_y distance_) (fun t2 =>
  given (fsqrt (1 - t2)) (fun t3 =>
  let delta_x := (2 * r) * t3 in
  let '(x, y) := global_frame_change (c_xc c1) (c_yc c1) theta delta_x delta_y in
  let tgt1 := circle_at x y (negb (c_left c1)) (negb (c_forward c1)) (c_regular c1) (hc_cc_param kappa_ sigma_) in
  let '(x, y) := global_frame_change (c_xc c2) (c_yc c2) theta (- delta_x) (- delta_y) in
  let tgt2 := circle_at x y (negb (c_left c2)) (c_forward c2) (c_regular c2) (hc_cc_param kappa_ sigma_) in
  given (ModelCC00R.TcT_tangent_circles c1 tgt1) (fun q1 =>
  given (ModelCC00R.TiST_tangent_circles tgt1 tgt2) (fun '(q2, q3) =>
  given (ModelCC00R.TcT_tangent_circles tgt2 c2) (fun q4 =>
  let ci1 := circle q1 (negb (c_left c1)) (negb (c_forward c1)) (c_regular c1) (hc_cc_param kappa_ sigma_) in
  let ci2 := circle q3 (negb (c_left c2)) (c_forward c2) (c_regular c2) (hc_cc_param kappa_ sigma_) in
  cc_turn_assert q1 /\ cc_turn_assert q2 /\ cc_turn_assert q4 /\ cc_turn_assert q4)))))).

(** src/hc_cc_state_space/cc00_reeds_shepp_state_space.cpp:741-763 *)
Definition calls_CC00R_TcTeSTcT (kappa_ sigma_ angle_ : R) (c1 c2 : Circle) : Prop :=
  let theta := angle_ in
  let delta_x := (2 * (c_radius c1)) * (c_cos_mu c1) in
  let delta_y := 0 in
  let '(x, y) := global_frame_change (c_xc c1) (c_yc c1) theta delta_x delta_y in
  let tgt1 := circle_at x y (negb (c_left c1)) (negb (c_forward c1)) (c_regular c1) (hc_cc_param kappa_ sigma_) in
  let '(x, y) := global_frame_change (c_xc c2) (c_yc c2) theta (- delta_x) delta_y in
  let tgt2 := circle_at x y (negb (c_left c2)) (c_forward c2) (c_regular c2) (hc_cc_param kappa_ sigma_) in
  given (ModelCC00R.TcT_tangent_circles c1 tgt1) (fun q1 =>
  let '(q2, q3) := ModelCC00R.TeST_tangent_circles tgt1 tgt2 in
  given (ModelCC00R.TcT_tangent_circles tgt2 c2) (fun q4 =>
  let ci1 := circle q1 (negb (c_left c1)) (negb (c_forward c1)) (c_regular c1) (hc_cc_param kappa_ sigma_) in
  let ci2 := circle q3 (negb (c_left c2)) (c_forward c2) (c_regular c2) (hc_cc_param kappa_ sigma_) in
  cc_turn_assert q1 /\ cc_turn_assert q2 /\ cc_turn_assert q4 /\ cc_turn_assert q4)).

(** src/hc_cc_state_space/cc00_reeds_shepp_state_space.cpp:830-875 *)
Definition calls_CC00R_TTcTT (kappa_ sigma_ distance_ angle_ : R) (c1 c2 : Circle) : Prop :=
  given (ModelCC00R.TTcTT_tangent_circles kappa_ sigma_ distance_ angle_ c1 c2) (fun '(qa, qb, qc, qd, qe, qf) =>
  let middle1 := circle qa (negb (c_left c1)) (c_forward c1) (c_regular c1) (hc_cc_param kappa_ sigma_) in
  let middle2 := circle qb (negb (c_left c2)) (negb (c_forward c2)) (c_regular c2) (hc_cc_param kappa_ sigma_) in
  let middle3 := circle qd (negb (c_left c1)) (c_forward c1) (c_regular c1) (hc_cc_param kappa_ sigma_) in
  let middle4 := circle qe (negb (c_left c2)) (negb (c_forward c2)) (c_regular c2) (hc_cc_param kappa_ sigma_) in
  cc_turn_assert qa /\ cc_turn_assert qb /\ cc_turn_assert qc /\ cc_turn_assert qc /\ cc_turn_assert qd /\ cc_turn_assert qe /\ cc_turn_assert qf /\ cc_turn_assert qf).

(** src/hc_cc_state_space/cc00_reeds_shepp_state_space.cpp:920-965 *)
Definition calls_CC00R_TcTTcT (kappa_ sigma_ distance_ angle_ : R) (c1 c2 : Circle) : Prop :=
  given (ModelCC00R.TcTTcT_tangent_circles kappa_ sigma_ distance_ angle_ c1 c2) (fun '(qa, qb, qc, qd, qe, qf) =>
  let middle1 := circle qa (negb (c_left c1)) (negb (c_forward c1)) (c_regular c1) (hc_cc_param kappa_ sigma_) in
  let middle2 := circle qb (c_left c1) (negb (c_forward c1)) (c_regular c1) (hc_cc_param kappa_ sigma_) in
  let middle3 := circle qd (negb (c_left c1)) (negb (c_forward c1)) (c_regular c1) (hc_cc_param kappa_ sigma_) in
  let middle4 := circle qe (c_left c1) (negb (c_forward c1)) (c_regular c1) (hc_cc_param kappa_ sigma_) in
  cc_turn_assert qa /\ cc_turn_assert qb /\ cc_turn_assert qc /\ cc_turn_assert qc /\ cc_turn_assert qd /\ cc_turn_assert qe /\ cc_turn_assert qf /\ cc_turn_assert qf).

(** src/hc_cc_state_space/cc00_reeds_shepp_state_space.cpp:1003-1036 *)
Definition calls_CC00R_TTT (kappa_ sigma_ distance_ angle_ : R) (c1 c2 : Circle) : Prop :=
  given (ModelCC00R.TTT_tangent_circles kappa_ sigma_ distance_ angle_ c1 c2) (fun '(qa, qb, qc, qd) =>
  let middle1 := circle qa (negb (c_left c1)) (c_forward c1) (c_regular c1) (hc_cc_param kappa_ sigma_) in
  let middle2 := circle qc (negb (c_left c1)) (c_forward c1) (c_regular c1) (hc_cc_param kappa_ sigma_) in
  cc_turn_assert qa /\ cc_turn_assert qb /\ cc_turn_assert qb /\ cc_turn_assert qc /\ cc_turn_assert qd /\ cc_turn_assert qd).

(** src/hc_cc_state_space/cc00_reeds_shepp_state_space.cpp:1070-1109 *)
Definition calls_CC00R_TciST (distance_ angle_ : R) (c1 c2 : Circle) : Prop :=
  given (fdiv ((2 * (c_radius c1)) * (c_cos_mu c1)) distance_) (fun t1 =>
  given (fasin t1) (fun alpha =>
  let delta_x := (c_radius c1) * (c_sin_mu c1) in
  let delta_y := (c_radius c1) * (c_cos_mu c1) in
  let '(q1, q2) := if (c_left c1) && (c_forward c1) then let theta := angle_ - alpha in
  let '(x, y) := global_frame_change (c_xc c1) (c_yc c1) theta (- delta_x) delta_y in
  let q1 := configuration x y (theta + PI) 0 in
  let '(x, y) := global_frame_change (c_xc c2) (c_yc c2) theta (- delta_x) (- delta_y) in
  let q2 := configuration x y (theta + PI) 0 in (q1, q2) else if (c_left c1) && (negb (c_forward c1)) then let theta := angle_ + alpha in
  let '(x, y) := global_frame_change (c_xc c1) (c_yc c1) theta (- delta_x) (- delta_y) in
  let q1 := configuration x y theta 0 in
  let '(x, y) := global_frame_change (c_xc c2) (c_yc c2) theta (- delta_x) delta_y in
  let q2 := configuration x y theta 0 in (q1, q2) else if (negb (c_left c1)) && (c_forward c1) then let theta := angle_ + alpha in
  let '(x, y) := global_frame_change (c_xc c1) (c_yc c1) theta (- delta_x) (- delta_y) in
  let q1 := configuration x y (theta + PI) 0 in
  let '(x, y) := global_frame_change (c_xc c2) (c_yc c2) theta (- delta_x) delta_y in
  let q2 := configuration x y (theta + PI) 0 in (q1, q2) else let theta := angle_ - alpha in
  let '(x, y) := global_frame_change (c_xc c1) (c_yc c1) theta (- delta_x) delta_y in
  let q1 := configuration x y theta 0 in
  let '(x, y) := global_frame_change (c_xc c2) (c_yc c2) theta (- delta_x) (- delta_y) in
  let q2 := configuration x y theta 0 in (q1, q2) in
  cc_turn_assert q1 /\ cc_turn_assert q2)).

(** src/hc_cc_state_space/cc00_reeds_shepp_state_space.cpp:1111-1146 *)
Definition calls_CC00R_TceST (angle_ : R) (c1 c2 : Circle) : Prop :=
  let theta := angle_ in
  let delta_x := (c_radius c1) * (c_sin_mu c1) in
  let delta_y := (c_radius c1) * (c_cos_mu c1) in
  let '(q1, q2) := if (c_left c1) && (c_forward c1) then let '(x, y) := global_frame_change (c_xc c1) (c_yc c1) theta (- delta_x) delta_y in
  let q1 := configuration x y (theta + PI) 0 in
  let '(x, y) := global_frame_change (c_xc c2) (c_yc c2) theta (- delta_x) delta_y in
  let q2 := configuration x y (theta + PI) 0 in (q1, q2) else if (c_left c1) && (negb (c_forward c1)) then let '(x, y) := global_frame_change (c_xc c1) (c_yc c1) theta (- delta_x) (- delta_y) in
  let q1 := configuration x y theta 0 in
  let '(x, y) := global_frame_change (c_xc c2) (c_yc c2) theta (- delta_x) (- delta_y) in
  let q2 := configuration x y theta 0 in (q1, q2) else if (negb (c_left c1)) && (c_forward c1) then let '(x, y) := global_frame_change (c_xc c1) (c_yc c1) theta (- delta_x) (- delta_y) in
  let q1 := configuration x y (theta + PI) 0 in
  let '(x, y) := global_frame_change (c_xc c2) (c_yc c2) theta (- delta_x) (- delta_y) in
  let q2 := configuration x y (theta + PI) 0 in (q1, q2) else let '(x, y) := global_frame_change (c_xc c1) (c_yc c1) theta (- delta_x) delta_y in
  let q1 := configuration x y theta 0 in
  let '(x, y) := global_frame_change (c_xc c2) (c_yc c2) theta (- delta_x) delta_y in
  let q2 := configuration x y theta 0 in (q1, q2) in
  cc_turn_assert q1 /\ cc_turn_assert q2.

(** src/hc_cc_state_space/cc00_reeds_shepp_state_space.cpp:1193-1232 *)
Definition calls_CC00R_TiScT (distance_ angle_ : R) (c1 c2 : Circle) : Prop :=
  given (fdiv ((2 * (c_radius c1)) * (c_cos_mu c1)) distance_) (fun t1 =>
  given (fasin t1) (fun alpha =>
  let delta_x := (c_radius c1) * (c_sin_mu c1) in
  let delta_y := (c_radius c1) * (c_cos_mu c1) in
  let '(q1, q2) := if (c_left c1) && (c_forward c1) then let theta := angle_ + alpha in
  let '(x, y) := global_frame_change (c_xc c1) (c_yc c1) theta delta_x (- delta_y) in
  let q1 := configuration x y theta 0 in
  let '(x, y) := global_frame_change (c_xc c2) (c_yc c2) theta delta_x delta_y in
  let q2 := configuration x y theta 0 in (q1, q2) else if (c_left c1) && (negb (c_forward c1)) then let theta := angle_ - alpha in
  let '(x, y) := global_frame_change (c_xc c1) (c_yc c1) theta delta_x delta_y in
  let q1 := configuration x y (theta + PI) 0 in
  let '(x, y) := global_frame_change (c_xc c2) (c_yc c2) theta delta_x (- delta_y) in
  let q2 := configuration x y (theta + PI) 0 in (q1, q2) else if (negb (c_left c1)) && (c_forward c1) then let theta := angle_ - alpha in
  let '(x, y) := global_frame_change (c_xc c1) (c_yc c1) theta delta_x delta_y in
  let q1 := configuration x y theta 0 in
  let '(x, y) := global_frame_change (c_xc c2) (c_yc c2) theta delta_x (- delta_y) in
  let q2 := configuration x y theta 0 in (q1, q2) else let theta := angle_ + alpha in
  let '(x, y) := global_frame_change (c_xc c1) (c_yc c1) theta delta_x (- delta_y) in
  let q1 := configuration x y (theta + PI) 0 in
  let '(x, y) := global_frame_change (c_xc c2) (c_yc c2) theta delta_x delta_y in
  let q2 := configuration x y (theta + PI) 0 in (q1, q2) in
  cc_turn_assert q1 /\ cc_turn_assert q2)).

(** src/hc_cc_state_space/cc00_reeds_shepp_state_space.cpp:1234-1269 *)
Definition calls_CC00R_TeScT (angle_ : R) (c1 c2 : Circle) : Prop :=
  let theta := angle_ in
  let delta_x := (c_radius c1) * (c_sin_mu c1) in
  let delta_y := (c_radius c1) * (c_cos_mu c1) in
  let '(q1, q2) := if (c_left c1) && (c_forward c1) then let '(x, y) := global_frame_change (c_xc c1) (c_yc c1) theta delta_x (- delta_y) in
  let q1 := configuration x y theta 0 in
  let '(x, y) := global_frame_change (c_xc c2) (c_yc c2) theta delta_x (- delta_y) in
  let q2 := configuration x y theta 0 in (q1, q2) else if (c_left c1) && (negb (c_forward c1)) then let '(x, y) := global_frame_change (c_xc c1) (c_yc c1) theta delta_x delta_y in
  let q1 := configuration x y (theta + PI) 0 in
  let '(x, y) := global_frame_change (c_xc c2) (c_yc c2) theta delta_x delta_y in
  let q2 := configuration x y (theta + PI) 0 in (q1, q2) else if (negb (c_left c1)) && (c_forward c1) then let '(x, y) := global_frame_change (c_xc c1) (c_yc c1) theta delta_x delta_y in
  let q1 := configuration x y theta 0 in
  let '(x, y) := global_frame_change (c_xc c2) (c_yc c2) theta delta_x delta_y in
  let q2 := configuration x y theta 0 in (q1, q2) else let '(x, y) := global_frame_change (c_xc c1) (c_yc c1) theta delta_x (- delta_y) in
  let q1 := configuration x y (theta + PI) 0 in
  let '(x, y) := global_frame_change (c_xc c2) (c_yc c2) theta delta_x (- delta_y) in
  let q2 := configuration x y (theta + PI) 0 in (q1, q2) in
  cc_turn_assert q1 /\ cc_turn_assert q2.

(** src/hc_cc_state_space/cc00_reeds_shepp_state_space.cpp:1316-1355 *)
Definition calls_CC00R_TciScT (distance_ angle_ : R) (c1 c2 : Circle) : Prop :=
  given (fdiv ((2 * (c_radius c1)) * (c_cos_mu c1)) distance_) (fun t1 =>
  given (fasin t1) (fun alpha =>
  let delta_x := (c_radius c1) * (c_sin_mu c1) in
  let delta_y := (c_radius c1) * (c_cos_mu c1) in
  let '(q1, q2) := if (c_left c1) && (c_forward c1) then let theta := angle_ - alpha in
  let '(x, y) := global_frame_change (c_xc c1) (c_yc c1) theta (- delta_x) delta_y in
  let q1 := configuration x y (theta + PI) 0 in
  let '(x, y) := global_frame_change (c_xc c2) (c_yc c2) theta delta_x (- delta_y) in
  let q2 := configuration x y (theta + PI) 0 in (q1, q2) else if (c_left c1) && (negb (c_forward c1)) then let theta := angle_ + alpha in
  let '(x, y) := global_frame_change (c_xc c1) (c_yc c1) theta (- delta_x) (- delta_y) in
  let q1 := configuration x y theta 0 in
  let '(x, y) := global_frame_change (c_xc c2) (c_yc c2) theta delta_x delta_y in
  let q2 := configuration x y theta 0 in (q1, q2) else if (negb (c_left c1)) && (c_forward c1) then let theta := angle_ + alpha in
  let '(x, y) := global_frame_change (c_xc c1) (c_yc c1) theta (- delta_x) (- delta_y) in
  let q1 := configuration x y (theta + PI) 0 in
  let '(x, y) := global_frame_change (c_xc c2) (c_yc c2) theta delta_x delta_y in
  let q2 := configuration x y (theta + PI) 0 in (q1, q2) else let theta := angle_ - alpha in
  let '(x, y) := global_frame_change (c_xc c1) (c_yc c1) theta (- delta_x) delta_y in
  let q1 := configuration x y theta 0 in
  let '(x, y) := global_frame_change (c_xc c2) (c_yc c2) theta delta_x (- delta_y) in
  let q2 := configuration x y theta 0 in (q1, q2) in
  cc_turn_assert q1 /\ cc_turn_assert q2)).

(** src/hc_cc_state_space/cc00_reeds_shepp_state_space.cpp:1357-1392 *)
Definition calls_CC00R_TceScT (angle_ : R) (c1 c2 : Circle) : Prop :=
  let theta := angle_ in
  let delta_x := (c_radius c1) * (c_sin_mu c1) in
  let delta_y := (c_radius c1) * (c_cos_mu c1) in
  let '(q1, q2) := if (c_left c1) && (c_forward c1) then let '(x, y) := global_frame_change (c_xc c1) (c_yc c1) theta (- delta_x) delta_y in
  let q1 := configuration x y (theta + PI) 0 in
  let '(x, y) := global_frame_change (c_xc c2) (c_yc c2) theta delta_x delta_y in
  let q2 := configuration x y (theta + PI) 0 in (q1, q2) else if (c_left c1) && (negb (c_forward c1)) then let '(x, y) := global_frame_change (c_xc c1) (c_yc c1) theta (- delta_x) (- delta_y) in
  let q1 := configuration x y theta 0 in
  let '(x, y) := global_frame_change (c_xc c2) (c_yc c2) theta delta_x (- delta_y) in
  let q2 := configuration x y theta 0 in (q1, q2) else if (negb (c_left c1)) && (c_forward c1) then let '(x, y) := global_frame_change (c_xc c1) (c_yc c1) theta (- delta_x) (- delta_y) in
  let q1 := configuration x y (theta + PI) 0 in
  let '(x, y) := global_frame_change (c_xc c2) (c_yc c2) theta delta_x (- delta_y) in
  let q2 := configuration x y (theta + PI) 0 in (q1, q2) else let '(x, y) := global_frame_change (c_xc c1) (c_yc c1) theta (- delta_x) delta_y in
  let q1 := configuration x y theta 0 in
  let '(x, y) := global_frame_change (c_xc c2) (c_yc c2) theta delta_x delta_y in
  let q2 := configuration x y theta 0 in (q1, q2) in
  cc_turn_assert q1 /\ cc_turn_assert q2.

(** src/hc_cc_state_space/cc00_reeds_shepp_state_space.cpp:1418-1622: all calls for two circles. *)
Definition calls_CC00R (kappa_ sigma_ : R) (c1 c2 : Circle) : Prop :=
  let distance_ := center_distance c1 c2 in
  let angle_ := atan2 (c_yc c2 - c_yc c1) (c_xc c2 - c_xc c1) in
  cc_turn_assert (c_start c2) /\
  calls_CC00R_TT c1 c2 /\
  calls_CC00R_TcT c1 c2 /\
  calls_CC00R_TcTcT kappa_ sigma_ distance_ angle_ c1 c2 /\
  calls_CC00R_TcTT kappa_ sigma_ distance_ angle_ c1 c2 /\
  calls_CC00R_TTcT kappa_ sigma_ distance_ angle_ c1 c2 /\
  calls_CC00R_TiST c1 c2 /\
  calls_CC00R_TeST c1 c2 /\
  calls_CC00R_TiSTcT kappa_ sigma_ distance_ angle_ c1 c2 /\
  calls_CC00R_TeSTcT kappa_ sigma_ angle_ c1 c2 /\
  calls_CC00R_TcTiST kappa_ sigma_ distance_ angle_ c1 c2 /\
  calls_CC00R_TcTeST kappa_ sigma_ angle_ c1 c2 /\
  calls_CC00R_TcTiSTcT kappa_ sigma_ distance_ angle_ c1 c2 /\
  calls_CC00R_TcTeSTcT kappa_ sigma_ angle_ c1 c2 /\
  calls_CC00R_TTcTT kappa_ sigma_ distance_ angle_ c1 c2 /\
  calls_CC00R_TcTTcT kappa_ sigma_ distance_ angle_ c1 c2 /\
  calls_CC00R_TTT kappa_ sigma_ distance_ angle_ c1 c2 /\
  calls_CC00R_TciST distance_ angle_ c1 c2 /\
  calls_CC00R_TceST angle_ c1 c2 /\
  calls_CC00R_TiScT distance_ angle_ c1 c2 /\
  calls_CC00R_TeScT angle_ c1 c2 /\
  calls_CC00R_TciScT distance_ angle_ c1 c2 /\
  calls_CC00R_TceScT angle_ c1 c2.

(** ** ModelHC00R.v *)
(** src/hc_cc_state_space/hc00_reeds_shepp_state_space.cpp:99-106 *)
Definition calls_HC00R_TT (kappa_ sigma_ : R) (c1 c2 : Circle) : Prop :=
  let q := ModelHC00R.TT_tangent_circles c1 c2 in
  let cstart := circle (c_start c1) (c_left c1) (c_forward c1) false (hc_cc_param kappa_ sigma_) in
  let cend := circle (c_start c2) (c_left c2) (c_forward c2) false (hc_cc_param kappa_ sigma_) in
  cc_turn_assert q /\ cc_turn_assert q.

(** src/hc_cc_state_space/hc00_reeds_shepp_state_space.cpp:158-165 *)
Definition calls_HC00R_TcT (c1 c2 : Circle) : Prop :=
  let q := ModelHC00R.TcT_tangent_circles c1 c2 in
  let cstart := c1 in
  let cend := c2 in
  hc_turn_assert cstart q /\ hc_turn_assert cend q.

(** src/hc_cc_state_space/hc00_reeds_shepp_state_space.cpp:203-239 *)
Definition calls_HC00R_TcTcT (kappa_ sigma_ distance_ angle_ : R) (c1 c2 : Circle) : Prop :=
  given (ModelHC00R.TcTcT_tangent_circles kappa_ sigma_ distance_ angle_ c1 c2) (fun '(qa, qb, qc, qd) =>
  let middle1 := circle qa (negb (c_left c1)) (negb (c_forward c1)) true (rs_param kappa_) in
  let middle2 := circle qc (negb (c_left c1)) (negb (c_forward c1)) true (rs_param kappa_) in
  let cstart := c1 in
  let cend := c2 in
  hc_turn_assert cstart qa /\ rs_turn_assert middle1 qb /\ hc_turn_assert cend qb /\ hc_turn_assert cstart qc /\ rs_turn_assert middle2 qd /\ hc_turn_assert cend qd).

(** src/hc_cc_state_space/hc00_reeds_shepp_state_space.cpp:276-312 *)
Definition calls_HC00R_TcTT (kappa_ sigma_ distance_ angle_ : R) (c1 c2 : Circle) : Prop :=
  given (ModelHC00R.TcTT_tangent_circles kappa_ sigma_ distance_ angle_ c1 c2) (fun '(qa, qb, qc, qd) =>
  let middle1 := circle qb (negb (c_left c1)) (c_forward c1) true (hc_cc_param kappa_ sigma_) in
  let middle2 := circle qd (negb (c_left c1)) (c_forward c1) true (hc_cc_param kappa_ sigma_) in
  let cstart := c1 in
  let cend := circle (c_start c2) (c_left c2) (c_forward c2) false (hc_cc_param kappa_ sigma_) in
  hc_turn_assert cstart qa /\ hc_turn_assert middle1 qa /\ cc_turn_assert qb /\ hc_turn_assert cstart qc /\ hc_turn_assert middle2 qc /\ cc_turn_assert qd).

(** src/hc_cc_state_space/hc00_reeds_shepp_state_space.cpp:349-385 *)
Definition calls_HC00R_TTcT (kappa_ sigma_ distance_ angle_ : R) (c1 c2 : Circle) : Prop :=
  given (ModelHC00R.TTcT_tangent_circles kappa_ sigma_ distance_ angle_ c1 c2) (fun '(qa, qb, qc, qd) =>
  let middle1 := circle qa (negb (c_left c1)) (c_forward c1) true (hc_cc_param kappa_ sigma_) in
  let middle2 := circle qc (negb (c_left c1)) (c_forward c1) true (hc_cc_param kappa_ sigma_) in
  let cstart := circle (c_start c1) (c_left c1) (c_forward c1) false (hc_cc_param kappa_ sigma_) in
  let cend := c2 in
  cc_turn_assert qa /\ hc_turn_assert middle1 qb /\ hc_turn_assert cend qb /\ cc_turn_assert qc /\ hc_turn_assert middle2 qd /\ hc_turn_assert cend qd).

(** src/hc_cc_state_space/hc00_reeds_shepp_state_space.cpp:500-507 *)
Definition calls_HC00R_TiST (kappa_ sigma_ : R) (c1 c2 : Circle) : Prop :=
  given (ModelHC00R.TiST_tangent_circles c1 c2) (fun '(q1, q2) =>
  let cstart := circle (c_start c1) (c_left c1) (c_forward c1) false (hc_cc_param kappa_ sigma_) in
  let cend := circle (c_start c2) (c_left c2) (c_forward c2) false (hc_cc_param kappa_ sigma_) in
  cc_turn_assert q1 /\ cc_turn_assert q2).

(** src/hc_cc_state_space/hc00_reeds_shepp_state_space.cpp:509-516 *)
Definition calls_HC00R_TeST (kappa_ sigma_ : R) (c1 c2 : Circle) : Prop :=
  let '(q1, q2) := ModelHC00R.TeST_tangent_circles c1 c2 in
  let cstart := circle (c_start c1) (c_left c1) (c_forward c1) false (hc_cc_param kappa_ sigma_) in
  let cend := circle (c_start c2) (c_left c2) (c_forward c2) false (hc_cc_param kappa_ sigma_) in
  cc_turn_assert q1 /\ cc_turn_assert q2.

(** src/hc_cc_state_space/hc00_reeds_shepp_state_space.cpp:565-585 *)
Definition calls_HC00R_TiSTcT (kappa_ sigma_ distance_ angle_ : R) (c1 c2 : Circle) : Prop :=
  let theta := angle_ in
  given (fdiv ((4 * (c_radius c2)) * (c_cos_mu c2)) ((Rabs (c_kappa c2)) * distance_)) (fun delta_y =>
  given (fsqrt (((2 * (c_kappa_inv c2)) ^ 2) - (delta_y ^ 2))) (fun delta_x =>
  let '(x, y) := global_frame_change (c_xc c2) (c_yc c2) theta (- delta_x) delta_y in
  let tgt1 := circle_at x y (negb (c_left c2)) (c_forward c2) (c_regular c2) (hc_cc_param kappa_ sigma_) in
  given (ModelHC00R.TiST_tangent_circles c1 tgt1) (fun '(q1, q2) =>
  let q3 := ModelHC00R.TcT_tangent_circles tgt1 c2 in
  let cstart := circle (c_start c1) (c_left c1) (c_forward c1) false (hc_cc_param kappa_ sigma_) in
  let cend := c2 in
  let ci := circle q2 (negb (c_left c1)) (c_forward c1) true (hc_cc_param kappa_ sigma_) in
  cc_turn_assert q1 /\ hc_turn_assert ci q3 /\ hc_turn_assert cend q3))).

(** src/hc_cc_state_space/hc00_reeds_shepp_state_space.cpp:587-607 *)
Definition calls_HC00R_TeSTcT (kappa_ sigma_ angle_ : R) (c1 c2 : Circle) : Prop :=
  let theta := angle_ in
  let delta_x := 2 * (Rabs (c_kappa_inv c2)) in
  let delta_y := 0 in
  let '(x, y) := global_frame_change (c_xc c2) (c_yc c2) theta (- delta_x) delta_y in
  let tgt1 := circle_at x y (negb (c_left c2)) (c_forward c2) (c_regular c2) (hc_cc_param kappa_ sigma_) in
  let '(q1, q2) := ModelHC00R.TeST_tangent_circles c1 tgt1 in
  let q3 := ModelHC00R.TcT_tangent_circles tgt1 c2 in
  let cstart := circle (c_start c1) (c_left c1) (c_forward c1) false (hc_cc_param kappa_ sigma_) in
  let cend := c2 in
  let ci := circle q2 (c_left c1) (c_forward c1) true (hc_cc_param kappa_ sigma_) in
  cc_turn_assert q1 /\ hc_turn_assert ci q3 /\ hc_turn_assert cend q3.

(** src/hc_cc_state_space/hc00_reeds_shepp_state_space.cpp:656-676 *)
Definition calls_HC00R_TcTiST (kappa_ sigma_ distance_ angle_ : R) (c1 c2 : Circle) : Prop :=
  let theta := angle_ in
  given (fdiv ((4 * (c_radius c2)) * (c_cos_mu c2)) ((Rabs (c_kappa c2)) * distance_)) (fun delta_y =>
  given (fsqrt (((2 * (c_kappa_inv c2)) ^ 2) - (delta_y ^ 2))) (fun delta_x =>
  let '(x, y) := global_frame_change (c_xc c1) (c_yc c1) theta delta_x (- delta_y) in
  let tgt1 := circle_at x y (negb (c_left c2)) (negb (c_forward c2)) (c_regular c2) (hc_cc_param kappa_ sigma_) in
  let q1 := ModelHC00R.TcT_tangent_circles c1 tgt1 in
  given (ModelHC00R.TiST_tangent_circles tgt1 c2) (fun '(q2, q3) =>
  let cstart := c1 in
  let cend := circle (c_start c2) (c_left c2) (c_forward c2) false (hc_cc_param kappa_ sigma_) in
  let ci := circle q2 (negb (c_left c1)) (c_forward c1) true (hc_cc_param kappa_ sigma_) in
  hc_turn_assert cstart q1 /\ hc_turn_assert ci q1 /\ cc_turn_assert q3))).

(** src/hc_cc_state_space/hc00_reeds_shepp_state_space.cpp:678-698 *)
Definition calls_HC00R_TcTeST (kappa_ sigma_ angle_ : R) (c1 c2 : Circle) : Prop :=
  let theta := angle_ in
  let delta_x := 2 * (Rabs (c_kappa_inv c2)) in
  let delta_y := 0 in
  let '(x, y) := global_frame_change (c_xc c1) (c_yc c1) theta delta_x delta_y in
  let tgt1 := circle_at x y (c_left c2) (negb (c_forward c2)) (c_regular c2) (hc_cc_param kappa_ sigma_) in
  let q1 := ModelHC00R.TcT_tangent_circles c1 tgt1 in
  let '(q2, q3) := ModelHC00R.TeST_tangent_circles tgt1 c2 in
  let cstart := c1 in
  let cend := circle (c_start c2) (c_left c2) (c_forward c2) false (hc_cc_param kappa_ sigma_) in
  let ci := circle q2 (negb (c_left c1)) (c_forward c1) true (hc_cc_param kappa_ sigma_) in
  hc_turn_assert cstart q1 /\ hc_turn_assert ci q1 /\ cc_turn_assert q3.

(** src/hc_cc_state_space/hc00_reeds_shepp_state_space.cpp:747-772 *)
Definition calls_HC00R_TcTiSTcT (kappa_ sigma_ distance_ angle_ : R) (c1 c2 : Circle) : Prop :=
  let theta := angle_ in
  given (fdiv ((4 * (c_radius c1)) * (c_cos_mu c1)) (distance_ * (Rabs (c_kappa c1)))) (fun delta_y =>
  given (fsqrt (((2 * (c_kappa_inv c1)) ^ 2) - (delta_y ^ 2))) (fun delta_x =>
  let '(x, y) := global_frame_change (c_xc c1) (c_yc c1) theta delta_x delta_y in
  let tgt1 := circle_at x y (negb (c_left c1)) (negb (c_forward c1)) (c_regular c1) (hc_cc_param kappa_ sigma_) in
  let '(x, y) := global_frame_change (c_xc c2) (c_yc c2) theta (- delta_x) (- delta_y) in
  let tgt2 := circle_at x y (negb (c_left c2)) (c_forward c2) (c_regular c2) (hc_cc_param kappa_ sigma_) in
  let q1 := ModelHC00R.TcT_tangent_circles c1 tgt1 in
  given (ModelHC00R.TiST_tangent_circles tgt1 tgt2) (fun '(q2, q3) =>
  let q4 := ModelHC00R.TcT_tangent_circles tgt2 c2 in
  let cstart := c1 in
  let cend := c2 in
  let ci1 := circle q2 (negb (c_left c1)) (c_forward c1) true (hc_cc_param kappa_ sigma_) in
  let ci2 := circle q3 (negb (c_left c2)) (c_forward c2) true (hc_cc_param kappa_ sigma_) in
  hc_turn_assert cstart q1 /\ hc_turn_assert ci1 q1 /\ hc_turn_assert ci2 q4 /\ hc_turn_assert cend q4))).

(** src/hc_cc_state_space/hc00_reeds_shepp_state_space.cpp:774-799 *)
Definition calls_HC00R_TcTeSTcT (kappa_ sigma_ angle_ : R) (c1 c2 : Circle) : Prop :=
  let theta := angle_ in
  let delta_x := 2 * (Rabs (c_kappa_inv c1)) in
  let delta_y := 0 in
  let '(x, y) := global_frame_change (c_xc c1) (c_yc c1) theta delta_x delta_y in
  let tgt1 := circle_at x y (negb (c_left c1)) (negb (c_forward c1)) (c_regular c1) (hc_cc_param kappa_ sigma_) in
  let '(x, y) := global_frame_change (c_xc c2) (c_yc c2) theta (- delta_x) delta_y in
  let tgt2 := circle_at x y (negb (c_left c2)) (c_forward c2) (c_regular c2) (hc_cc_param kappa_ sigma_) in
  let q1 := ModelHC00R.TcT_tangent_circles c1 tgt1 in
  let '(q2, q3) := ModelHC00R.TeST_tangent_circles tgt1 tgt2 in
  let q4 := ModelHC00R.TcT_tangent_circles tgt2 c2 in
  let cstart := c1 in
  let cend := c2 in
  let ci1 := circle q2 (negb (c_left c1)) (c_forward c1) true (hc_cc_param kappa_ sigma_) in
  let ci2 := circle q3 (negb (c_left c2)) (c_forward c2) true (hc_cc_param kappa_ sigma_) in
  hc_turn_assert cstart q1 /\ hc_turn_assert ci1 q1 /\ hc_turn_assert ci2 q4 /\ hc_turn_assert cend q4.

(** src/hc_cc_state_space/hc00_reeds_shepp_state_space.cpp:866-915 *)
Definition calls_HC00R_TTcTT (kappa_ sigma_ distance_ angle_ : R) (c1 c2 : Circle) : Prop :=
  given (ModelHC00R.TTcTT_tangent_circles kappa_ sigma_ distance_ angle_ c1 c2) (fun '(qa, qb, qc, qd, qe, qf) =>
  let middle1 := circle qa (negb (c_left c1)) (c_forward c1) true (hc_cc_param kappa_ sigma_) in
  let middle2 := circle qc (negb (c_left c2)) (c_forward c2) true (hc_cc_param kappa_ sigma_) in
  let middle3 := circle qd (negb (c_left c1)) (c_forward c1) true (hc_cc_param kappa_ sigma_) in
  let middle4 := circle qf (negb (c_left c2)) (c_forward c2) true (hc_cc_param kappa_ sigma_) in
  let cstart := circle (c_start c1) (c_left c1) (c_forward c1) false (hc_cc_param kappa_ sigma_) in
  let cend := circle (c_start c2) (c_left c2) (c_forward c2) false (hc_cc_param kappa_ sigma_) in
  cc_turn_assert qa /\ hc_turn_assert middle1 qb /\ hc_turn_assert middle2 qb /\ cc_turn_assert qc /\ cc_turn_assert qd /\ hc_turn_assert middle3 qe /\ hc_turn_assert middle4 qe /\ cc_turn_assert qf).

(** src/hc_cc_state_space/hc00_reeds_shepp_state_space.cpp:960-1009 *)
Definition calls_HC00R_TcTTcT (kappa_ sigma_ distance_ angle_ : R) (c1 c2 : Circle) : Prop :=
  given (ModelHC00R.TcTTcT_tangent_circles kappa_ sigma_ distance_ angle_ c1 c2) (fun '(qa, qb, qc, qd, qe, qf) =>
  let middle1 := circle qb (negb (c_left c1)) (c_forward c1) true (hc_cc_param kappa_ sigma_) in
  let middle2 := circle qb (c_left c1) (negb (c_forward c1)) true (hc_cc_param kappa_ sigma_) in
  let middle3 := circle qe (negb (c_left c1)) (c_forward c1) true (hc_cc_param kappa_ sigma_) in
  let middle4 := circle qe (c_left c1) (negb (c_forward c1)) true (hc_cc_param kappa_ sigma_) in
  let cstart := c1 in
  let cend := c2 in
  hc_turn_assert cstart qa /\ hc_turn_assert middle1 qa /\ hc_turn_assert middle2 qc /\ hc_turn_assert cend qc /\ hc_turn_assert cstart qd /\ hc_turn_assert middle3 qd /\ hc_turn_assert middle4 qf /\ hc_turn_assert cend qf).

(** src/hc_cc_state_space/hc00_reeds_shepp_state_space.cpp:1047-1083 *)
Definition calls_HC00R_TTT (kappa_ sigma_ distance_ angle_ : R) (c1 c2 : Circle) : Prop :=
  given (ModelHC00R.TTT_tangent_circles kappa_ sigma_ distance_ angle_ c1 c2) (fun '(qa, qb, qc, qd) =>
  let middle1 := circle qa (negb (c_left c1)) (c_forward c1) true (hc_cc_param kappa_ sigma_) in
  let middle2 := circle qc (negb (c_left c1)) (c_forward c1) true (hc_cc_param kappa_ sigma_) in
  let cstart := circle (c_start c1) (c_left c1) (c_forward c1) false (hc_cc_param kappa_ sigma_) in
  let cend := circle (c_start c2) (c_left c2) (c_forward c2) false (hc_cc_param kappa_ sigma_) in
  cc_turn_assert qa /\ cc_turn_assert qb /\ cc_turn_assert qb /\ cc_turn_assert qc /\ cc_turn_assert qd /\ cc_turn_assert qd).

(** src/hc_cc_state_space/hc00_reeds_shepp_state_space.cpp:1117-1161 *)
Definition calls_HC00R_TciST (kappa_ sigma_ distance_ angle_ : R) (c1 c2 : Circle) : Prop :=
  given (fdiv (((c_radius c1) * (c_cos_mu c1)) + (Rabs (c_kappa_inv c1))) distance_) (fun t1 =>
  given (fasin t1) (fun alpha =>
  let delta_x1 := 0 in
  let delta_y1 := Rabs (c_kappa_inv c1) in
  let delta_x2 := (c_radius c1) * (c_sin_mu c1) in
  let delta_y2 := (c_radius c1) * (c_cos_mu c1) in
  let '(q1, q2) := if (c_left c1) && (c_forward c1) then let theta := angle_ - alpha in
  let '(x, y) := global_frame_change (c_xc c1) (c_yc c1) theta (- delta_x1) delta_y1 in
  let q1 := configuration x y (theta + PI) (c_kappa c1) in
  let '(x, y) := global_frame_change (c_xc c2) (c_yc c2) theta (- delta_x2) (- delta_y2) in
  let q2 := configuration x y (theta + PI) 0 in (q1, q2) else if (c_left c1) && (negb (c_forward c1)) then let theta := angle_ + alpha in
  let '(x, y) := global_frame_change (c_xc c1) (c_yc c1) theta (- delta_x1) (- delta_y1) in
  let q1 := configuration x y theta (c_kappa c1) in
  let '(x, y) := global_frame_change (c_xc c2) (c_yc c2) theta (- delta_x2) delta_y2 in
  let q2 := configuration x y theta 0 in (q1, q2) else if (negb (c_left c1)) && (c_forward c1) then let theta := angle_ + alpha in
  let '(x, y) := global_frame_change (c_xc c1) (c_yc c1) theta (- delta_x1) (- delta_y1) in
  let q1 := configuration x y (theta + PI) (c_kappa c1) in
  let '(x, y) := global_frame_change (c_xc c2) (c_yc c2) theta (- delta_x2) delta_y2 in
  let q2 := configuration x y (theta + PI) 0 in (q1, q2) else let theta := angle_ - alpha in
  let '(x, y) := global_frame_change (c_xc c1) (c_yc c1) theta (- delta_x1) delta_y1 in
  let q1 := configuration x y theta (c_kappa c1) in
  let '(x, y) := global_frame_change (c_xc c2) (c_yc c2) theta (- delta_x2) (- delta_y2) in
  let q2 := configuration x y theta 0 in (q1, q2) in
  let cstart := c1 in
  let cend := circle (c_start c2) (c_left c2) (c_forward c2) false (hc_cc_param kappa_ sigma_) in
  hc_turn_assert cstart q1 /\ cc_turn_assert q2)).

(** src/hc_cc_state_space/hc00_reeds_shepp_state_space.cpp:1163-1207 *)
Definition calls_HC00R_TceST (kappa_ sigma_ distance_ angle_ : R) (c1 c2 : Circle) : Prop :=
  given (fdiv (((c_radius c1) * (c_cos_mu c1)) - (Rabs (c_kappa_inv c1))) distance_) (fun t1 =>
  given (fasin t1) (fun alpha =>
  let delta_x1 := 0 in
  let delta_y1 := Rabs (c_kappa_inv c1) in
  let delta_x2 := (c_radius c1) * (c_sin_mu c1) in
  let delta_y2 := (c_radius c1) * (c_cos_mu c1) in
  let '(q1, q2) := if (c_left c1) && (c_forward c1) then let theta := angle_ + alpha in
  let '(x, y) := global_frame_change (c_xc c1) (c_yc c1) theta (- delta_x1) delta_y1 in
  let q1 := configuration x y (theta + PI) (c_kappa c1) in
  let '(x, y) := global_frame_change (c_xc c2) (c_yc c2) theta (- delta_x2) delta_y2 in
  let q2 := configuration x y (theta + PI) 0 in (q1, q2) else if (c_left c1) && (negb (c_forward c1)) then let theta := angle_ - alpha in
  let '(x, y) := global_frame_change (c_xc c1) (c_yc c1) theta (- delta_x1) (- delta_y1) in
  let q1 := configuration x y theta (c_kappa c1) in
  let '(x, y) := global_frame_change (c_xc c2) (c_yc c2) theta (- delta_x2) (- delta_y2) in
  let q2 := configuration x y theta 0 in (q1, q2) else if (negb (c_left c1)) && (c_forward c1) then let theta := angle_ - alpha in
  let '(x, y) := global_frame_change (c_xc c1) (c_yc c1) theta (- delta_x1) (- delta_y1) in
  let q1 := configuration x y (theta + PI) (c_kappa c1) in
  let '(x, y) := global_frame_change (c_xc c2) (c_yc c2) theta (- delta_x2) (- delta_y2) in
  let q2 := configuration x y (theta + PI) 0 in (q1, q2) else let theta := angle_ + alpha in
  let '(x, y) := global_frame_change (c_xc c1) (c_yc c1) theta (- delta_x1) delta_y1 in
  let q1 := configuration x y theta (c_kappa c1) in
  let '(x, y) := global_frame_change (c_xc c2) (c_yc c2) theta (- delta_x2) delta_y2 in
  let q2 := configuration x y theta 0 in (q1, q2) in
  let cstart := c1 in
  let cend := circle (c_start c2) (c_left c2) (c_forward c2) false (hc_cc_param kappa_ sigma_) in
  hc_turn_assert cstart q1 /\ cc_turn_assert q2)).

(** src/hc_cc_state_space/hc00_reeds_shepp_state_space.cpp:1255-1299 *)
Definition calls_HC00R_TiScT (kappa_ sigma_ distance_ angle_ : R) (c1 c2 : Circle) : Prop :=
  given (fdiv (((c_radius c1) * (c_cos_mu c1)) + (Rabs (c_kappa_inv c1))) distance_) (fun t1 =>
  given (fasin t1) (fun alpha =>
  let delta_x1 := (c_radius c1) * (c_sin_mu c1) in
  let delta_y1 := (c_radius c1) * (c_cos_mu c1) in
  let delta_x2 := 0 in
  let delta_y2 := Rabs (c_kappa_inv c1) in
  let '(q1, q2) := if (c_left c1) && (c_forward c1) then let theta := angle_ + alpha in
  let '(x, y) := global_frame_change (c_xc c1) (c_yc c1) theta delta_x1 (- delta_y1) in
  let q1 := configuration x y theta 0 in
  let '(x, y) := global_frame_change (c_xc c2) (c_yc c2) theta delta_x2 delta_y2 in
  let q2 := configuration x y theta (c_kappa c2) in (q1, q2) else if (c_left c1) && (negb (c_forward c1)) then let theta := angle_ - alpha in
  let '(x, y) := global_frame_change (c_xc c1) (c_yc c1) theta delta_x1 delta_y1 in
  let q1 := configuration x y (theta + PI) 0 in
  let '(x, y) := global_frame_change (c_xc c2) (c_yc c2) theta delta_x2 (- delta_y2) in
  let q2 := configuration x y (theta + PI) (c_kappa c2) in (q1, q2) else if (negb (c_left c1)) && (c_forward c1) then let theta := angle_ - alpha in
  let '(x, y) := global_frame_change (c_xc c1) (c_yc c1) theta delta_x1 delta_y1 in
  let q1 := configuration x y theta 0 in
  let '(x, y) := global_frame_change (c_xc c2) (c_yc c2) theta delta_x2 (- delta_y2) in
  let q2 := configuration x y theta (c_kappa c2) in (q1, q2) else let theta := angle_ + alpha in
  let '(x, y) := global_frame_change (c_xc c1) (c_yc c1) theta delta_x1 (- delta_y1) in
  let q1 := configuration x y (theta + PI) 0 in
  let '(x, y) := global_frame_change (c_xc c2) (c_yc c2) theta delta_x2 delta_y2 in
  let q2 := configuration x y (theta + PI) (c_kappa c2) in (q1, q2) in
  let cstart := circle (c_start c1) (c_left c1) (c_forward c1) false (hc_cc_param kappa_ sigma_) in
  let cend := c2 in
  cc_turn_assert q1 /\ hc_turn_assert cend q2)).

(** src/hc_cc_state_space/hc00_reeds_shepp_state_space.cpp:1301-1345 *)
Definition calls_HC00R_TeScT (kappa_ sigma_ distance_ angle_ : R) (c1 c2 : Circle) : Prop :=
  given (fdiv (((c_radius c1) * (c_cos_mu c1)) - (Rabs (c_kappa_inv c1))) distance_) (fun t1 =>
  given (fasin t1) (fun alpha =>
  let delta_x1 := (c_radius c1) * (c_sin_mu c1) in
  let delta_y1 := (c_radius c1) * (c_cos_mu c1) in
  let delta_x2 := 0 in
  let delta_y2 := Rabs (c_kappa_inv c1) in
  let '(q1, q2) := if (c_left c1) && (c_forward c1) then let theta := angle_ + alpha in
  let '(x, y) := global_frame_change (c_xc c1) (c_yc c1) theta delta_x1 (- delta_y1) in
  let q1 := configuration x y theta 0 in
  let '(x, y) := global_frame_change (c_xc c2) (c_yc c2) theta delta_x2 (- delta_y2) in
  let q2 := configuration x y theta (c_kappa c2) in (q1, q2) else if (c_left c1) && (negb (c_forward c1)) then let theta := angle_ - alpha in
  let '(x, y) := global_frame_change (c_xc c1) (c_yc c1) theta delta_x1 delta_y1 in
  let q1 := configuration x y (theta + PI) 0 in
  let '(x, y) := global_frame_change (c_xc c2) (c_yc c2) theta delta_x2 delta_y2 in
  let q2 := configuration x y (theta + PI) (c_kappa c2) in (q1, q2) else if (negb (c_left c1)) && (c_forward c1) then let theta := angle_ - alpha in
  let '(x, y) := global_frame_change (c_xc c1) (c_yc c1) theta delta_x1 delta_y1 in
  let q1 := configuration x y theta 0 in
  let '(x, y) := global_frame_change (c_xc c2) (c_yc c2) theta delta_x2 delta_y2 in
  let q2 := configuration x y theta (c_kappa c2) in (q1, q2) else let theta := angle_ + alpha in
  let '(x, y) := global_frame_change (c_xc c1) (c_yc c1) theta delta_x1 (- delta_y1) in
  let q1 := configuration x y (theta + PI) 0 in
  let '(x, y) := global_frame_change (c_xc c2) (c_yc c2) theta delta_x2 (- delta_y2) in
  let q2 := configuration x y (theta + PI) (c_kappa c2) in (q1, q2) in
  let cstart := circle (c_start c1) (c_left c1) (c_forward c1) false (hc_cc_param kappa_ sigma_) in
  let cend := c2 in
  cc_turn_assert q1 /\ hc_turn_assert cend q2)).

(** src/hc_cc_state_space/hc00_reeds_shepp_state_space.cpp:1393-1435 *)
Definition calls_HC00R_TciScT (distance_ angle_ : R) (c1 c2 : Circle) : Prop :=
  given (fdiv 2 ((Rabs (c_kappa c1)) * distance_)) (fun t1 =>
  given (fasin t1) (fun alpha =>
  let delta_x := 0 in
  let delta_y := Rabs (c_kappa_inv c1) in
  let '(q1, q2) := if (c_left c1) && (c_forward c1) then let theta := angle_ - alpha in
  let '(x, y) := global_frame_change (c_xc c1) (c_yc c1) theta (- delta_x) delta_y in
  let q1 := configuration x y (theta + PI) (c_kappa c1) in
  let '(x, y) := global_frame_change (c_xc c2) (c_yc c2) theta delta_x (- delta_y) in
  let q2 := configuration x y (theta + PI) (c_kappa c2) in (q1, q2) else if (c_left c1) && (negb (c_forward c1)) then let theta := angle_ + alpha in
  let '(x, y) := global_frame_change (c_xc c1) (c_yc c1) theta (- delta_x) (- delta_y) in
  let q1 := configuration x y theta (c_kappa c1) in
  let '(x, y) := global_frame_change (c_xc c2) (c_yc c2) theta delta_x delta_y in
  let q2 := configuration x y theta (c_kappa c2) in (q1, q2) else if (negb (c_left c1)) && (c_forward c1) then let theta := angle_ + alpha in
  let '(x, y) := global_frame_change (c_xc c1) (c_yc c1) theta (- delta_x) (- delta_y) in
  let q1 := configuration x y (theta + PI) (c_kappa c1) in
  let '(x, y) := global_frame_change (c_xc c2) (c_yc c2) theta delta_x delta_y in
  let q2 := configuration x y (theta + PI) (c_kappa c2) in (q1, q2) else let theta := angle_ - alpha in
  let '(x, y) := global_frame_change (c_xc c1) (c_yc c1) theta (- delta_x) delta_y in
  let q1 := configuration x y theta (c_kappa c1) in
  let '(x, y) := global_frame_change (c_xc c2) (c_yc c2) theta delta_x (- delta_y) in
  let q2 := configuration x y theta (c_kappa c2) in (q1, q2) in
  let cstart := c1 in
  let cend := c2 in
  hc_turn_assert cstart q1 /\ hc_turn_assert cend q2)).

(** src/hc_cc_state_space/hc00_reeds_shepp_state_space.cpp:1437-1475 *)
Definition calls_HC00R_TceScT (angle_ : R) (c1 c2 : Circle) : Prop :=
  let theta := angle_ in
  let delta_x := 0 in
  let delta_y := Rabs (c_kappa_inv c1) in
  let '(q1, q2) := if (c_left c1) && (c_forward c1) then let '(x, y) := global_frame_change (c_xc c1) (c_yc c1) theta (- delta_x) delta_y in
  let q1 := configuration x y (theta + PI) (c_kappa c1) in
  let '(x, y) := global_frame_change (c_xc c2) (c_yc c2) theta delta_x delta_y in
  let q2 := configuration x y (theta + PI) (c_kappa c2) in (q1, q2) else if (c_left c1) && (negb (c_forward c1)) then let '(x, y) := global_frame_change (c_xc c1) (c_yc c1) theta (- delta_x) (- delta_y) in
  let q1 := configuration x y theta (c_kappa c1) in
  let '(x, y) := global_frame_change (c_xc c2) (c_yc c2) theta delta_x (- delta_y) in
  let q2 := configuration x y theta (c_kappa c2) in (q1, q2) else if (negb (c_left c1)) && (c_forward c1) then let '(x, y) := global_frame_change (c_xc c1) (c_yc c1) theta (- delta_x) (- delta_y) in
  let q1 := configuration x y (theta + PI) (c_kappa c1) in
  let '(x, y) := global_frame_change (c_xc c2) (c_yc c2) theta delta_x (- delta_y) in
  let q2 := configuration x y (theta + PI) (c_kappa c2) in (q1, q2) else let '(x, y) := global_frame_change (c_xc c1) (c_yc c1) theta (- delta_x) delta_y in
  let q1 := configuration x y theta (c_kappa c1) in
  let '(x, y) := global_frame_change (c_xc c2) (c_yc c2) theta delta_x delta_y in
  let q2 := configuration x y theta (c_kappa c2) in (q1, q2) in
  let cstart := c1 in
  let cend := c2 in
  hc_turn_assert cstart q1 /\ hc_turn_assert cend q2.

(** src/hc_cc_state_space/hc00_reeds_shepp_state_space.cpp:1503-1679: all calls for two circles. *)
Definition calls_HC00R (kappa_ sigma_ : R) (c1 c2 : Circle) : Prop :=
  let distance_ := center_distance c1 c2 in
  let angle_ := atan2 (c_yc c2 - c_yc c1) (c_xc c2 - c_xc c1) in
  cc_turn_assert (c_start c2) /\
  calls_HC00R_TT kappa_ sigma_ c1 c2 /\
  calls_HC00R_TcT c1 c2 /\
  calls_HC00R_TcTcT kappa_ sigma_ distance_ angle_ c1 c2 /\
  calls_HC00R_TcTT kappa_ sigma_ distance_ angle_ c1 c2 /\
  calls_HC00R_TTcT kappa_ sigma_ distance_ angle_ c1 c2 /\
  calls_HC00R_TiST kappa_ sigma_ c1 c2 /\
  calls_HC00R_TeST kappa_ sigma_ c1 c2 /\
  calls_HC00R_TiSTcT kappa_ sigma_ distance_ angle_ c1 c2 /\
  calls_HC00R_TeSTcT kappa_ sigma_ angle_ c1 c2 /\
  calls_HC00R_TcTiST kappa_ sigma_ distance_ angle_ c1 c2 /\
  calls_HC00R_TcTeST kappa_ sigma_ angle_ c1 c2 /\
  calls_HC00R_TcTiSTcT kappa_ sigma_ distance_ angle_ c1 c2 /\
  calls_HC00R_TcTeSTcT kappa_ sigma_ angle_ c1 c2 /\
  calls_HC00R_TTcTT kappa_ sigma_ distance_ angle_ c1 c2 /\
  calls_HC00R_TcTTcT kappa_ sigma_ distance_ angle_ c1 c2 /\
  calls_HC00R_TTT kappa_ sigma_ distance_ angle_ c1 c2 /\
  calls_HC00R_TciST kappa_ sigma_ distance_ angle_ c1 c2 /\
  calls_HC00R_TceST kappa_ sigma_ distance_ angle_ c1 c2 /\
  calls_HC00R_TiScT kappa_ sigma_ distance_ angle_ c1 c2 /\
  calls_HC00R_TeScT kappa_ sigma_ distance_ angle_ c1 c2 /\
  calls_HC00R_TciScT distance_ angle_ c1 c2 /\
  calls_HC00R_TceScT angle_ c1 c2.

(** ** ModelHC0pmR.v *)
(** src/hc_cc_state_space/hc0pm_reeds_shepp_state_space.cpp:100-108 *)
Definition calls_HC0pmR_TT (kappa_ sigma_ : R) (c1 c2 : Circle) : Prop :=
  let q1 := ModelHC0pmR.TT_tangent_circles c1 c2 in
  let cstart := circle (c_start c1) (c_left c1) (c_forward c1) false (hc_cc_param kappa_ sigma_) in
  let cend := circle q1 (c_left c2) (negb (c_forward c2)) false (hc_cc_param kappa_ sigma_) in
  let q2 := configuration (q_x (c_start c2)) (q_y (c_start c2)) (q_theta (c_start c2)) (c_kappa c2) in
  cc_turn_assert q1 /\ hc_turn_assert cend q2.

(** src/hc_cc_state_space/hc0pm_reeds_shepp_state_space.cpp:160-167 *)
Definition calls_HC0pmR_TcT (c1 c2 : Circle) : Prop :=
  let q := ModelHC0pmR.TcT_tangent_circles c1 c2 in
  let cstart := c1 in
  let cend := c2 in
  hc_turn_assert cstart q /\ rs_turn_assert cend q.

(** src/hc_cc_state_space/hc0pm_reeds_shepp_state_space.cpp:205-241 *)
Definition calls_HC0pmR_TcTcT (kappa_ distance_ angle_ : R) (c1 c2 : Circle) : Prop :=
  given (ModelHC0pmR.TcTcT_tangent_circles kappa_ distance_ angle_ c1 c2) (fun '(qa, qb, qc, qd) =>
  let middle1 := circle qa (negb (c_left c2)) (c_forward c2) true (rs_param kappa_) in
  let middle2 := circle qc (negb (c_left c2)) (c_forward c2) true (rs_param kappa_) in
  let cstart := c1 in
  let cend := c2 in
  hc_turn_assert cstart qa /\ rs_turn_assert middle1 qb /\ rs_turn_assert cend qb /\ hc_turn_assert cstart qc /\ rs_turn_assert middle2 qd /\ rs_turn_assert cend qd).

(** src/hc_cc_state_space/hc0pm_reeds_shepp_state_space.cpp:278-320 *)
Definition calls_HC0pmR_TcTT (kappa_ sigma_ distance_ angle_ : R) (c1 c2 : Circle) : Prop :=
  given (ModelHC0pmR.TcTT_tangent_circles kappa_ sigma_ distance_ angle_ c1 c2) (fun '(qa, qb, qc, qd) =>
  let middle1 := circle qb (negb (c_left c1)) (c_forward c1) true (hc_cc_param kappa_ sigma_) in
  let middle2 := circle qd (negb (c_left c1)) (c_forward c1) true (hc_cc_param kappa_ sigma_) in
  let end1 := circle qb (c_left c2) (negb (c_forward c2)) false (hc_cc_param kappa_ sigma_) in
  let end2 := circle qd (c_left c2) (negb (c_forward c2)) false (hc_cc_param kappa_ sigma_) in
  let cstart := c1 in
  let q2 := configuration (q_x (c_start c2)) (q_y (c_start c2)) (q_theta (c_start c2)) (c_kappa c2) in
  hc_turn_assert cstart qa /\ hc_turn_assert middle1 qa /\ hc_turn_assert end1 q2 /\ hc_turn_assert cstart qc /\ hc_turn_assert middle2 qc /\ hc_turn_assert end2 q2).

(** src/hc_cc_state_space/hc0pm_reeds_shepp_state_space.cpp:357-393 *)
Definition calls_HC0pmR_TTcT (kappa_ sigma_ distance_ angle_ : R) (c1 c2 : Circle) : Prop :=
  given (ModelHC0pmR.TTcT_tangent_circles kappa_ sigma_ distance_ angle_ c1 c2) (fun '(qa, qb, qc, qd) =>
  let middle1 := circle qa (negb (c_left c1)) (c_forward c1) true (hc_cc_param kappa_ sigma_) in
  let middle2 := circle qc (negb (c_left c1)) (c_forward c1) true (hc_cc_param kappa_ sigma_) in
  let cstart := circle (c_start c1) (c_left c1) (c_forward c1) false (hc_cc_param kappa_ sigma_) in
  let cend := c2 in
  cc_turn_assert qa /\ hc_turn_assert middle1 qb /\ rs_turn_assert cend qb /\ cc_turn_assert qc /\ hc_turn_assert middle2 qd /\ rs_turn_assert cend qd).

(** src/hc_cc_state_space/hc0pm_reeds_shepp_state_space.cpp:507-515 *)
Definition calls_HC0pmR_TiST (kappa_ sigma_ : R) (c1 c2 : Circle) : Prop :=
  given (ModelHC0pmR.TiST_tangent_circles c1 c2) (fun '(q1, q2) =>
  let cstart := circle (c_start c1) (c_left c1) (c_forward c1) false (hc_cc_param kappa_ sigma_) in
  let cend := circle q2 (c_left c2) (negb (c_forward c2)) false (hc_cc_param kappa_ sigma_) in
  let q3 := configuration (q_x (c_start c2)) (q_y (c_start c2)) (q_theta (c_start c2)) (c_kappa c2) in
  cc_turn_assert q1 /\ hc_turn_assert cend q3).

(** src/hc_cc_state_space/hc0pm_reeds_shepp_state_space.cpp:517-525 *)
Definition calls_HC0pmR_TeST (kappa_ sigma_ : R) (c1 c2 : Circle) : Prop :=
  let '(q1, q2) := ModelHC0pmR.TeST_tangent_circles c1 c2 in
  let cstart := circle (c_start c1) (c_left c1) (c_forward c1) false (hc_cc_param kappa_ sigma_) in
  let cend := circle q2 (c_left c2) (negb (c_forward c2)) false (hc_cc_param kappa_ sigma_) in
  let q3 := configuration (q_x (c_start c2)) (q_y (c_start c2)) (q_theta (c_start c2)) (c_kappa c2) in
  cc_turn_assert q1 /\ hc_turn_assert cend q3.

(** src/hc_cc_state_space/hc0pm_reeds_shepp_state_space.cpp:574-594 *)
Definition calls_HC0pmR_TiSTcT (kappa_ sigma_ distance_ angle_ : R) (c1 c2 : Circle) : Prop :=
  let theta := angle_ in
  given (fdiv ((4 * (c_radius c1)) * (c_cos_mu c1)) ((Rabs (c_kappa c1)) * distance_)) (fun delta_y =>
  given (fsqrt (((2 * (c_kappa_inv c1)) ^ 2) - (delta_y ^ 2))) (fun delta_x =>
  let '(x, y) := global_frame_change (c_xc c2) (c_yc c2) theta (- delta_x) delta_y in
  let tgt1 := circle_at x y (negb (c_left c2)) (c_forward c2) (c_regular c2) (hc_cc_param kappa_ sigma_) in
  given (ModelHC0pmR.TiST_tangent_circles c1 tgt1) (fun '(q1, q2) =>
  let q3 := ModelHC0pmR.TcT_tangent_circles tgt1 c2 in
  let cstart := circle (c_start c1) (c_left c1) (c_forward c1) false (hc_cc_param kappa_ sigma_) in
  let cend := c2 in
  let ci := circle q2 (negb (c_left c1)) (c_forward c1) true (hc_cc_param kappa_ sigma_) in
  cc_turn_assert q1 /\ hc_turn_assert ci q3 /\ rs_turn_assert cend q3))).

(** src/hc_cc_state_space/hc0pm_reeds_shepp_state_space.cpp:596-616 *)
Definition calls_HC0pmR_TeSTcT (kappa_ sigma_ angle_ : R) (c1 c2 : Circle) : Prop :=
  let theta := angle_ in
  let delta_x := 2 * (Rabs (c_kappa_inv c2)) in
  let delta_y := 0 in
  let '(x, y) := global_frame_change (c_xc c2) (c_yc c2) theta (- delta_x) delta_y in
  let tgt1 := circle_at x y (negb (c_left c2)) (c_forward c2) (c_regular c2) (hc_cc_param kappa_ sigma_) in
  let '(q1, q2) := ModelHC0pmR.TeST_tangent_circles c1 tgt1 in
  let q3 := ModelHC0pmR.TcT_tangent_circles tgt1 c2 in
  let cstart := circle (c_start c1) (c_left c1) (c_forward c1) false (hc_cc_param kappa_ sigma_) in
  let cend := c2 in
  let ci := circle q2 (c_left c1) (c_forward c1) true (hc_cc_param kappa_ sigma_) in
  cc_turn_assert q1 /\ hc_turn_assert ci q3 /\ rs_turn_assert cend q3.

(** src/hc_cc_state_space/hc0pm_reeds_shepp_state_space.cpp:665-687 *)
Definition calls_HC0pmR_TcTiST (kappa_ sigma_ distance_ angle_ : R) (c1 c2 : Circle) : Prop :=
  let theta := angle_ in
  given (fdiv ((4 * (c_radius c1)) * (c_cos_mu c1)) ((Rabs (c_kappa c1)) * distance_)) (fun delta_y =>
  given (fsqrt (((2 * (c_kappa_inv c1)) ^ 2) - (delta_y ^ 2))) (fun delta_x =>
  let '(x, y) := global_frame_change (c_xc c1) (c_yc c1) theta delta_x (- delta_y) in
  let tgt1 := circle_at x y (negb (c_left c1)) (negb (c_forward c1)) (c_regular c1) (hc_cc_param kappa_ sigma_) in
  let q1 := ModelHC0pmR.TcT_tangent_circles c1 tgt1 in
  given (ModelHC0pmR.TiST_tangent_circles tgt1 c2) (fun '(q2, q3) =>
  let cstart := c1 in
  let cend := circle q3 (c_left c2) (negb (c_forward c2)) false (hc_cc_param kappa_ sigma_) in
  let q4 := configuration (q_x (c_start c2)) (q_y (c_start c2)) (q_theta (c_start c2)) (c_kappa c2) in
  let ci := circle q2 (negb (c_left c1)) (c_forward c1) true (hc_cc_param kappa_ sigma_) in
  hc_turn_assert cstart q1 /\ hc_turn_assert ci q1 /\ hc_turn_assert cend q4))).

(** src/hc_cc_state_space/hc0pm_reeds_shepp_state_space.cpp:689-711 *)
Definition calls_HC0pmR_TcTeST (kappa_ sigma_ angle_ : R) (c1 c2 : Circle) : Prop :=
  let theta := angle_ in
  let delta_x := 2 * (Rabs (c_kappa_inv c2)) in
  let delta_y := 0 in
  let '(x, y) := global_frame_change (c_xc c1) (c_yc c1) theta delta_x delta_y in
  let tgt1 := circle_at x y (negb (c_left c1)) (negb (c_forward c1)) (c_regular c1) (hc_cc_param kappa_ sigma_) in
  let q1 := ModelHC0pmR.TcT_tangent_circles c1 tgt1 in
  let '(q2, q3) := ModelHC0pmR.TeST_tangent_circles tgt1 c2 in
  let cstart := c1 in
  let cend := circle q3 (c_left c2) (negb (c_forward c2)) false (hc_cc_param kappa_ sigma_) in
  let q4 := configuration (q_x (c_start c2)) (q_y (c_start c2)) (q_theta (c_start c2)) (c_kappa c2) in
  let ci := circle q2 (negb (c_left c1)) (c_forward c1) true (hc_cc_param kappa_ sigma_) in
  hc_turn_assert cstart q1 /\ hc_turn_assert ci q1 /\ hc_turn_assert cend q4.

(** src/hc_cc_state_space/hc0pm_reeds_shepp_state_space.cpp:761-786 *)
Definition calls_HC0pmR_TcTiSTcT (kappa_ sigma_ distance_ angle_ : R) (c1 c2 : Circle) : Prop :=
  let theta := angle_ in
  given (fdiv ((4 * (c_radius c1)) * (c_cos_mu c1)) (distance_ * (Rabs (c_kappa c1)))) (fun delta_y =>
  given (fsqrt (((2 * (c_kappa_inv c1)) ^ 2) - (delta_y ^ 2))) (fun delta_x =>
  let '(x, y) := global_frame_change (c_xc c1) (c_yc c1) theta delta_x delta_y in
  let tgt1 := circle_at x y (negb (c_left c1)) (negb (c_forward c1)) (c_regular c1) (hc_cc_param kappa_ sigma_) in
  let '(x, y) := global_frame_change (c_xc c2) (c_yc c2) theta (- delta_x) (- delta_y) in
  let tgt2 := circle_at x y (negb (c_left c2)) (c_forward c2) (c_regular c2) (hc_cc_param kappa_ sigma_) in
  let q1 := ModelHC0pmR.TcT_tangent_circles c1 tgt1 in
  given (ModelHC0pmR.TiST_tangent_circles tgt1 tgt2) (fun '(q2, q3) =>
  let q4 := ModelHC0pmR.TcT_tangent_circles tgt2 c2 in
  let cstart := c1 in
  let cend := c2 in
  let ci1 := circle q2 (negb (c_left c1)) (c_forward c1) true (hc_cc_param kappa_ sigma_) in
  let ci2 := circle q3 (negb (c_left c2)) (c_forward c2) true (hc_cc_param kappa_ sigma_) in
  hc_turn_assert cstart q1 /\ hc_turn_assert ci1 q1 /\ hc_turn_assert ci2 q4 /\ rs_turn_assert cend q4))).

(** src/hc_cc_state_space/hc0pm_reeds_shepp_state_space.cpp:788-813 *)
Definition calls_HC0pmR_TcTeSTcT (kappa_ sigma_ angle_ : R) (c1 c2 : Circle) : Prop :=
  let theta := angle_ in
  let delta_x := 2 * (Rabs (c_kappa_inv c1)) in
  let delta_y := 0 in
  let '(x, y) := global_frame_change (c_xc c1) (c_yc c1) theta delta_x delta_y in
  let tgt1 := circle_at x y (negb (c_left c1)) (negb (c_forward c1)) (c_regular c1) (hc_cc_param kappa_ sigma_) in
  let '(x, y) := global_frame_change (c_xc c2) (c_yc c2) theta (- delta_x) delta_y in
  let tgt2 := circle_at x y (negb (c_left c2)) (c_forward c2) (c_regular c2) (hc_cc_param kappa_ sigma_) in
  let q1 := ModelHC0pmR.TcT_tangent_circles c1 tgt1 in
  let '(q2, q3) := ModelHC0pmR.TeST_tangent_circles tgt1 tgt2 in
  let q4 := ModelHC0pmR.TcT_tangent_circles tgt2 c2 in
  let cstart := c1 in
  let cend := c2 in
  let ci1 := circle q2 (negb (c_left c1)) (c_forward c1) true (hc_cc_param kappa_ sigma_) in
  let ci2 := circle q3 (negb (c_left c2)) (c_forward c2) true (hc_cc_param kappa_ sigma_) in
  hc_turn_assert cstart q1 /\ hc_turn_assert ci1 q1 /\ hc_turn_assert ci2 q4 /\ rs_turn_assert cend q4.

(** src/hc_cc_state_space/hc0pm_reeds_shepp_state_space.cpp:881-936 *)
Definition calls_HC0pmR_TTcTT (kappa_ sigma_ distance_ angle_ : R) (c1 c2 : Circle) : Prop :=
  given (ModelHC0pmR.TTcTT_tangent_circles kappa_ sigma_ distance_ angle_ c1 c2) (fun '(qa, qb, qc, qd, qe, qf) =>
  let middle1 := circle qa (negb (c_left c1)) (c_forward c1) true (hc_cc_param kappa_ sigma_) in
  let middle2 := circle qc (negb (c_left c2)) (c_forward c2) true (hc_cc_param kappa_ sigma_) in
  let end1 := circle qc (c_left c2) (negb (c_forward c2)) false (hc_cc_param kappa_ sigma_) in
  let middle3 := circle qd (negb (c_left c1)) (c_forward c1) true (hc_cc_param kappa_ sigma_) in
  let middle4 := circle qf (negb (c_left c2)) (c_forward c2) true (hc_cc_param kappa_ sigma_) in
  let end2 := circle qf (c_left c2) (negb (c_forward c2)) false (hc_cc_param kappa_ sigma_) in
  let cstart := circle (c_start c1) (c_left c1) (c_forward c1) false (hc_cc_param kappa_ sigma_) in
  let q3 := configuration (q_x (c_start c2)) (q_y (c_start c2)) (q_theta (c_start c2)) (c_kappa c2) in
  cc_turn_assert qa /\ hc_turn_assert middle1 qb /\ hc_turn_assert middle2 qb /\ hc_turn_assert end1 q3 /\ cc_turn_assert qd /\ hc_turn_assert middle3 qe /\ hc_turn_assert middle4 qe /\ hc_turn_assert end2 q3).

(** src/hc_cc_state_space/hc0pm_reeds_shepp_state_space.cpp:981-1029 *)
Definition calls_HC0pmR_TcTTcT (kappa_ sigma_ distance_ angle_ : R) (c1 c2 : Circle) : Prop :=
  given (ModelHC0pmR.TcTTcT_tangent_circles kappa_ sigma_ distance_ angle_ c1 c2) (fun '(qa, qb, qc, qd, qe, qf) =>
  let middle1 := circle qb (negb (c_left c1)) (c_forward c1) true (hc_cc_param kappa_ sigma_) in
  let middle2 := circle qb (c_left c1) (negb (c_forward c1)) true (hc_cc_param kappa_ sigma_) in
  let middle3 := circle qe (negb (c_left c1)) (c_forward c1) true (hc_cc_param kappa_ sigma_) in
  let middle4 := circle qe (c_left c1) (negb (c_forward c1)) true (hc_cc_param kappa_ sigma_) in
  let cstart := c1 in
  let cend := c2 in
  hc_turn_assert cstart qa /\ hc_turn_assert middle1 qa /\ hc_turn_assert middle2 qc /\ rs_turn_assert cend qc /\ hc_turn_assert cstart qd /\ hc_turn_assert middle3 qd /\ hc_turn_assert middle4 qf /\ rs_turn_assert cend qf).

(** src/hc_cc_state_space/hc0pm_reeds_shepp_state_space.cpp:1067-1109 *)
Definition calls_HC0pmR_TTT (kappa_ sigma_ distance_ angle_ : R) (c1 c2 : Circle) : Prop :=
  given (ModelHC0pmR.TTT_tangent_circles kappa_ sigma_ distance_ angle_ c1 c2) (fun '(qa, qb, qc, qd) =>
  let middle1 := circle qa (negb (c_left c1)) (c_forward c1) false (hc_cc_param kappa_ sigma_) in
  let end1 := circle qb (c_left c2) (negb (c_forward c2)) false (hc_cc_param kappa_ sigma_) in
  let middle2 := circle qc (negb (c_left c1)) (c_forward c1) false (hc_cc_param kappa_ sigma_) in
  let end2 := circle qd (c_left c2) (negb (c_forward c2)) false (hc_cc_param kappa_ sigma_) in
  let cstart := circle (c_start c1) (c_left c1) (c_forward c1) false (hc_cc_param kappa_ sigma_) in
  let q3 := configuration (q_x (c_start c2)) (q_y (c_start c2)) (q_theta (c_start c2)) (c_kappa c2) in
  cc_turn_assert qa /\ cc_turn_assert qb /\ hc_turn_assert end1 q3 /\ cc_turn_assert qc /\ cc_turn_assert qd /\ hc_turn_assert end2 q3).

(** src/hc_cc_state_space/hc0pm_reeds_shepp_state_space.cpp:1143-1188 *)
Definition calls_HC0pmR_TciST (kappa_ sigma_ distance_ angle_ : R) (c1 c2 : Circle) : Prop :=
  given (fdiv (((c_radius c1) * (c_cos_mu c1)) + (Rabs (c_kappa_inv c1))) distance_) (fun t1 =>
  given (fasin t1) (fun alpha =>
  let delta_x1 := 0 in
  let delta_y1 := Rabs (c_kappa_inv c1) in
  let delta_x2 := (c_radius c1) * (c_sin_mu c1) in
  let delta_y2 := (c_radius c1) * (c_cos_mu c1) in
  let '(q1, q2) := if (c_left c1) && (c_forward c1) then let theta := angle_ - alpha in
  let '(x, y) := global_frame_change (c_xc c1) (c_yc c1) theta (- delta_x1) delta_y1 in
  let q1 := configuration x y (theta + PI) (c_kappa c1) in
  let '(x, y) := global_frame_change (c_xc c2) (c_yc c2) theta (- delta_x2) (- delta_y2) in
  let q2 := configuration x y (theta + PI) 0 in (q1, q2) else if (c_left c1) && (negb (c_forward c1)) then let theta := angle_ + alpha in
  let '(x, y) := global_frame_change (c_xc c1) (c_yc c1) theta (- delta_x1) (- delta_y1) in
  let q1 := configuration x y theta (c_kappa c1) in
  let '(x, y) := global_frame_change (c_xc c2) (c_yc c2) theta (- delta_x2) delta_y2 in
  let q2 := configuration x y theta 0 in (q1, q2) else if (negb (c_left c1)) && (c_forward c1) then let theta := angle_ + alpha in
  let '(x, y) := global_frame_change (c_xc c1) (c_yc c1) theta (- delta_x1) (- delta_y1) in
  let q1 := configuration x y (theta + PI) (c_kappa c1) in
  let '(x, y) := global_frame_change (c_xc c2) (c_yc c2) theta (- delta_x2) delta_y2 in
  let q2 := configuration x y (theta + PI) 0 in (q1, q2) else let theta := angle_ - alpha in
  let '(x, y) := global_frame_change (c_xc c1) (c_yc c1) theta (- delta_x1) delta_y1 in
  let q1 := configuration x y theta (c_kappa c1) in
  let '(x, y) := global_frame_change (c_xc c2) (c_yc c2) theta (- delta_x2) (- delta_y2) in
  let q2 := configuration x y theta 0 in (q1, q2) in
  let q3 := configuration (q_x (c_start c2)) (q_y (c_start c2)) (q_theta (c_start c2)) (c_kappa c2) in
  let cstart := c1 in
  let cend := circle q2 (c_left c2) (negb (c_forward c2)) false (hc_cc_param kappa_ sigma_) in
  hc_turn_assert cstart q1 /\ hc_turn_assert cend q3)).

(** src/hc_cc_state_space/hc0pm_reeds_shepp_state_space.cpp:1190-1235 *)
Definition calls_HC0pmR_TceST (kappa_ sigma_ distance_ angle_ : R) (c1 c2 : Circle) : Prop :=
  given (fdiv (((c_radius c1) * (c_cos_mu c1)) - (Rabs (c_kappa_inv c1))) distance_) (fun t1 =>
  given (fasin t1) (fun alpha =>
  let delta_x1 := 0 in
  let delta_y1 := Rabs (c_kappa_inv c1) in
  let delta_x2 := (c_radius c1) * (c_sin_mu c1) in
  let delta_y2 := (c_radius c1) * (c_cos_mu c1) in
  let '(q1, q2) := if (c_left c1) && (c_forward c1) then let theta := angle_ + alpha in
  let '(x, y) := global_frame_change (c_xc c1) (c_yc c1) theta (- delta_x1) delta_y1 in
  let q1 := configuration x y (theta + PI) (c_kappa c1) in
  let '(x, y) := global_frame_change (c_xc c2) (c_yc c2) theta (- delta_x2) delta_y2 in
  let q2 := configuration x y (theta + PI) 0 in (q1, q2) else if (c_left c1) && (negb (c_forward c1)) then let theta := angle_ - alpha in
  let '(x, y) := global_frame_change (c_xc c1) (c_yc c1) theta (- delta_x1) (- delta_y1) in
  let q1 := configuration x y theta (c_kappa c1) in
  let '(x, y) := global_frame_change (c_xc c2) (c_yc c2) theta (- delta_x2) (- delta_y2) in
  let q2 := configuration x y theta 0 in (q1, q2) else if (negb (c_left c1)) && (c_forward c1) then let theta := angle_ - alpha in
  let '(x, y) := global_frame_change (c_xc c1) (c_yc c1) theta (- delta_x1) (- delta_y1) in
  let q1 := configuration x y (theta + PI) (c_kappa c1) in
  let '(x, y) := global_frame_change (c_xc c2) (c_yc c2) theta (- delta_x2) (- delta_y2) in
  let q2 := configuration x y (theta + PI) 0 in (q1, q2) else let theta := angle_ + alpha in
  let '(x, y) := global_frame_change (c_xc c1) (c_yc c1) theta (- delta_x1) delta_y1 in
  let q1 := configuration x y theta (c_kappa c1) in
  let '(x, y) := global_frame_change (c_xc c2) (c_yc c2) theta (- delta_x2) delta_y2 in
  let q2 := configuration x y theta 0 in (q1, q2) in
  let q3 := configuration (q_x (c_start c2)) (q_y (c_start c2)) (q_theta (c_start c2)) (c_kappa c2) in
  let cstart := c1 in
  let cend := circle q2 (c_left c2) (negb (c_forward c2)) false (hc_cc_param kappa_ sigma_) in
  hc_turn_assert cstart q1 /\ hc_turn_assert cend q3)).

(** src/hc_cc_state_space/hc0pm_reeds_shepp_state_space.cpp:1283-1328 *)
Definition calls_HC0pmR_TiScT (kappa_ sigma_ distance_ angle_ : R) (c1 c2 : Circle) : Prop :=
  given (fdiv (((c_radius c1) * (c_cos_mu c1)) + (Rabs (c_kappa_inv c1))) distance_) (fun t1 =>
  given (fasin t1) (fun alpha =>
  let delta_x1 := (c_radius c1) * (c_sin_mu c1) in
  let delta_y1 := (c_radius c1) * (c_cos_mu c1) in
  let delta_x2 := 0 in
  let delta_y2 := Rabs (c_kappa_inv c1) in
  let '(q1, q2) := if (c_left c1) && (c_forward c1) then let theta := angle_ + alpha in
  let '(x, y) := global_frame_change (c_xc c1) (c_yc c1) theta delta_x1 (- delta_y1) in
  let q1 := configuration x y theta 0 in
  let '(x, y) := global_frame_change (c_xc c2) (c_yc c2) theta delta_x2 delta_y2 in
  let q2 := configuration x y theta (c_kappa c2) in (q1, q2) else if (c_left c1) && (negb (c_forward c1)) then let theta := angle_ - alpha in
  let '(x, y) := global_frame_change (c_xc c1) (c_yc c1) theta delta_x1 delta_y1 in
  let q1 := configuration x y (theta + PI) 0 in
  let '(x, y) := global_frame_change (c_xc c2) (c_yc c2) theta delta_x2 (- delta_y2) in
  let q2 := configuration x y (theta + PI) (c_kappa c2) in (q1, q2) else if (negb (c_left c1)) && (c_forward c1) then let theta := angle_ - alpha in
  let '(x, y) := global_frame_change (c_xc c1) (c_yc c1) theta delta_x1 delta_y1 in
  let q1 := configuration x y theta 0 in
  let '(x, y) := global_frame_change (c_xc c2) (c_yc c2) theta delta_x2 (- delta_y2) in
  let q2 := configuration x y theta (c_kappa c2) in (q1, q2) else let theta := angle_ + alpha in
  let '(x, y) := global_frame_change (c_xc c1) (c_yc c1) theta delta_x1 (- delta_y1) in
  let q1 := configuration x y (theta + PI) 0 in
  let '(x, y) := global_frame_change (c_xc c2) (c_yc c2) theta delta_x2 delta_y2 in
  let q2 := configuration x y (theta + PI) (c_kappa c2) in (q1, q2) in
  let cstart := circle (c_start c1) (c_left c1) (c_forward c1) false (hc_cc_param kappa_ sigma_) in
  let cend := c2 in
  cc_turn_assert q1 /\ rs_turn_assert cend q2)).

(** src/hc_cc_state_space/hc0pm_reeds_shepp_state_space.cpp:1330-1374 *)
Definition calls_HC0pmR_TeScT (kappa_ sigma_ distance_ angle_ : R) (c1 c2 : Circle) : Prop :=
  given (fdiv (((c_radius c1) * (c_cos_mu c1)) - (Rabs (c_kappa_inv c1))) distance_) (fun t1 =>
  given (fasin t1) (fun alpha =>
  let delta_x1 := (c_radius c1) * (c_sin_mu c1) in
  let delta_y1 := (c_radius c1) * (c_cos_mu c1) in
  let delta_x2 := 0 in
  let delta_y2 := Rabs (c_kappa_inv c1) in
  let '(q1, q2) := if (c_left c1) && (c_forward c1) then let theta := angle_ + alpha in
  let '(x, y) := global_frame_change (c_xc c1) (c_yc c1) theta delta_x1 (- delta_y1) in
  let q1 := configuration x y theta 0 in
  let '(x, y) := global_frame_change (c_xc c2) (c_yc c2) theta delta_x2 (- delta_y2) in
  let q2 := configuration x y theta (c_kappa c2) in (q1, q2) else if (c_left c1) && (negb (c_forward c1)) then let theta := angle_ - alpha in
  let '(x, y) := global_frame_change (c_xc c1) (c_yc c1) theta delta_x1 delta_y1 in
  let q1 := configuration x y (theta + PI) 0 in
  let '(x, y) := global_frame_change (c_xc c2) (c_yc c2) theta delta_x2 delta_y2 in
  let q2 := configuration x y (theta + PI) (c_kappa c2) in (q1, q2) else if (negb (c_left c1)) && (c_forward c1) then let theta := angle_ - alpha in
  let '(x, y) := global_frame_change (c_xc c1) (c_yc c1) theta delta_x1 delta_y1 in
  let q1 := configuration x y theta 0 in
  let '(x, y) := global_frame_change (c_xc c2) (c_yc c2) theta delta_x2 delta_y2 in
  let q2 := configuration x y theta (c_kappa c2) in (q1, q2) else let theta := angle_ + alpha in
  let '(x, y) := global_frame_change (c_xc c1) (c_yc c1) theta delta_x1 (- delta_y1) in
  let q1 := configuration x y (theta + PI) 0 in
  let '(x, y) := global_frame_change (c_xc c2) (c_yc c2) theta delta_x2 (- delta_y2) in
  let q2 := configuration x y (theta + PI) (c_kappa c2) in (q1, q2) in
  let cstart := circle (c_start c1) (c_left c1) (c_forward c1) false (hc_cc_param kappa_ sigma_) in
  let cend := c2 in
  cc_turn_assert q1 /\ rs_turn_assert cend q2)).

(** src/hc_cc_state_space/hc0pm_reeds_shepp_state_space.cpp:1422-1464 *)
Definition calls_HC0pmR_TciScT (distance_ angle_ : R) (c1 c2 : Circle) : Prop :=
  given (fdiv 2 ((Rabs (c_kappa c1)) * distance_)) (fun t1 =>
  given (fasin t1) (fun alpha =>
  let delta_x := 0 in
  let delta_y := Rabs (c_kappa_inv c1) in
  let '(q1, q2) := if (c_left c1) && (c_forward c1) then let theta := angle_ - alpha in
  let '(x, y) := global_frame_change (c_xc c1) (c_yc c1) theta (- delta_x) delta_y in
  let q1 := configuration x y (theta + PI) (c_kappa c1) in
  let '(x, y) := global_frame_change (c_xc c2) (c_yc c2) theta delta_x (- delta_y) in
  let q2 := configuration x y (theta + PI) (c_kappa c2) in (q1, q2) else if (c_left c1) && (negb (c_forward c1)) then let theta := angle_ + alpha in
  let '(x, y) := global_frame_change (c_xc c1) (c_yc c1) theta (- delta_x) (- delta_y) in
  let q1 := configuration x y theta (c_kappa c1) in
  let '(x, y) := global_frame_change (c_xc c2) (c_yc c2) theta delta_x delta_y in
  let q2 := configuration x y theta (c_kappa c2) in (q1, q2) else if (negb (c_left c1)) && (c_forward c1) then let theta := angle_ + alpha in
  let '(x, y) := global_frame_change (c_xc c1) (c_yc c1) theta (- delta_x) (- delta_y) in
  let q1 := configuration x y (theta + PI) (c_kappa c1) in
  let '(x, y) := global_frame_change (c_xc c2) (c_yc c2) theta delta_x delta_y in
  let q2 := configuration x y (theta + PI) (c_kappa c2) in (q1, q2) else let theta := angle_ - alpha in
  let '(x, y) := global_frame_change (c_xc c1) (c_yc c1) theta (- delta_x) delta_y in
  let q1 := configuration x y theta (c_kappa c1) in
  let '(x, y) := global_frame_change (c_xc c2) (c_yc c2) theta delta_x (- delta_y) in
  let q2 := configuration x y theta (c_kappa c2) in (q1, q2) in
  let cstart := c1 in
  let cend := c2 in
  hc_turn_assert cstart q1 /\ rs_turn_assert cend q2)).

(** src/hc_cc_state_space/hc0pm_reeds_shepp_state_space.cpp:1466-1504 *)
Definition calls_HC0pmR_TceScT (angle_ : R) (c1 c2 : Circle) : Prop :=
  let delta_x := 0 in
  let delta_y := Rabs (c_kappa_inv c1) in
  let theta := angle_ in
  let '(q1, q2) := if (c_left c1) && (c_forward c1) then let '(x, y) := global_frame_change (c_xc c1) (c_yc c1) theta (- delta_x) delta_y in
  let q1 := configuration x y (theta + PI) (c_kappa c1) in
  let '(x, y) := global_frame_change (c_xc c2) (c_yc c2) theta delta_x delta_y in
  let q2 := configuration x y (theta + PI) (c_kappa c2) in (q1, q2) else if (c_left c1) && (negb (c_forward c1)) then let '(x, y) := global_frame_change (c_xc c1) (c_yc c1) theta (- delta_x) (- delta_y) in
  let q1 := configuration x y theta (c_kappa c1) in
  let '(x, y) := global_frame_change (c_xc c2) (c_yc c2) theta delta_x (- delta_y) in
  let q2 := configuration x y theta (c_kappa c2) in (q1, q2) else if (negb (c_left c1)) && (c_forward c1) then let '(x, y) := global_frame_change (c_xc c1) (c_yc c1) theta (- delta_x) (- delta_y) in
  let q1 := configuration x y (theta + PI) (c_kappa c1) in
  let '(x, y) := global_frame_change (c_xc c2) (c_yc c2) theta delta_x (- delta_y) in
  let q2 := configuration x y (theta + PI) (c_kappa c2) in (q1, q2) else let '(x, y) := global_frame_change (c_xc c1) (c_yc c1) theta (- delta_x) delta_y in
  let q1 := configuration x y theta (c_kappa c1) in
  let '(x, y) := global_frame_change (c_xc c2) (c_yc c2) theta delta_x delta_y in
  let q2 := configuration x y theta (c_kappa c2) in (q1, q2) in
  let cstart := c1 in
  let cend := c2 in
  hc_turn_assert cstart q1 /\ rs_turn_assert cend q2.

(** src/hc_cc_state_space/hc0pm_reeds_shepp_state_space.cpp:1534-1700: all calls for two circles. *)
Definition calls_HC0pmR (kappa_ sigma_ : R) (c1 c2 : Circle) : Prop :=
  let distance_ := center_distance c1 c2 in
  let angle_ := atan2 (c_yc c2 - c_yc c1) (c_xc c2 - c_xc c1) in
  hc_turn_assert (circle (c_start c1) (c_left c1) (c_forward c1) false (hc_cc_param kappa_ sigma_)) (c_start c2) /\
  calls_HC0pmR_TT kappa_ sigma_ c1 c2 /\
  calls_HC0pmR_TcT c1 c2 /\
  calls_HC0pmR_TcTcT kappa_ distance_ angle_ c1 c2 /\
  calls_HC0pmR_TcTT kappa_ sigma_ distance_ angle_ c1 c2 /\
  calls_HC0pmR_TTcT kappa_ sigma_ distance_ angle_ c1 c2 /\
  calls_HC0pmR_TiST kappa_ sigma_ c1 c2 /\
  calls_HC0pmR_TeST kappa_ sigma_ c1 c2 /\
  calls_HC0pmR_TiSTcT kappa_ sigma_ distance_ angle_ c1 c2 /\
  calls_HC0pmR_TeSTcT kappa_ sigma_ angle_ c1 c2 /\
  calls_HC0pmR_TcTiST kappa_ sigma_ distance_ angle_ c1 c2 /\
  calls_HC0pmR_TcTeST kappa_ sigma_ angle_ c1 c2 /\
  calls_HC0pmR_TcTiSTcT kappa_ sigma_ distance_ angle_ c1 c2 /\
  calls_HC0pmR_TcTeSTcT kappa_ sigma_ angle_ c1 c2 /\
  calls_HC0pmR_TTcTT kappa_ sigma_ distance_ angle_ c1 c2 /\
  calls_HC0pmR_TcTTcT kappa_ sigma_ distance_ angle_ c1 c2 /\
  calls_HC0pmR_TTT kappa_ sigma_ distance_ angle_ c1 c2 /\
  calls_HC0pmR_TciST kappa_ sigma_ distance_ angle_ c1 c2 /\
  calls_HC0pmR_TceST kappa_ sigma_ distance_ angle_ c1 c2 /\
  calls_HC0pmR_TiScT kappa_ sigma_ distance_ angle_ c1 c2 /\
  calls_HC0pmR_TeScT kappa_ sigma_ distance_ angle_ c1 c2 /\
  calls_HC0pmR_TciScT distance_ angle_ c1 c2 /\
  calls_HC0pmR_TceScT angle_ c1 c2.

(** ** ModelHCpm0R.v *)
(** src/hc_cc_state_space/hcpm0_reeds_shepp_state_space.cpp:100-108 *)
Definition calls_HCpm0R_TT (kappa_ sigma_ : R) (c1 c2 : Circle) : Prop :=
  let q2 := ModelHCpm0R.TT_tangent_circles c1 c2 in
  let cstart := circle q2 (negb (c_left c2)) (c_forward c2) false (hc_cc_param kappa_ sigma_) in
  let cend := circle (c_start c2) (c_left c2) (c_forward c2) false (hc_cc_param kappa_ sigma_) in
  let q1 := configuration (q_x (c_start c1)) (q_y (c_start c1)) (q_theta (c_start c1)) (c_kappa c1) in
  hc_turn_assert cstart q1 /\ cc_turn_assert q2.

(** src/hc_cc_state_space/hcpm0_reeds_shepp_state_space.cpp:160-167 *)
Definition calls_HCpm0R_TcT (c1 c2 : Circle) : Prop :=
  let q := ModelHCpm0R.TcT_tangent_circles c1 c2 in
  let cstart := c1 in
  let cend := c2 in
  rs_turn_assert cstart q /\ hc_turn_assert cend q.

(** src/hc_cc_state_space/hcpm0_reeds_shepp_state_space.cpp:205-241 *)
Definition calls_HCpm0R_TcTcT (kappa_ distance_ angle_ : R) (c1 c2 : Circle) : Prop :=
  given (ModelHCpm0R.TcTcT_tangent_circles kappa_ distance_ angle_ c1 c2) (fun '(qa, qb, qc, qd) =>
  let middle1 := circle qa (negb (c_left c2)) (c_forward c2) true (rs_param kappa_) in
  let middle2 := circle qc (negb (c_left c2)) (c_forward c2) true (rs_param kappa_) in
  let cstart := c1 in
  let cend := c2 in
  rs_turn_assert cstart qa /\ rs_turn_assert middle1 qb /\ hc_turn_assert cend qb /\ rs_turn_assert cstart qc /\ rs_turn_assert middle2 qd /\ hc_turn_assert cend qd).

(** src/hc_cc_state_space/hcpm0_reeds_shepp_state_space.cpp:278-314 *)
Definition calls_HCpm0R_TcTT (kappa_ sigma_ distance_ angle_ : R) (c1 c2 : Circle) : Prop :=
  given (ModelHCpm0R.TcTT_tangent_circles kappa_ sigma_ distance_ angle_ c1 c2) (fun '(qa, qb, qc, qd) =>
  let middle1 := circle qb (negb (c_left c1)) (c_forward c1) true (hc_cc_param kappa_ sigma_) in
  let middle2 := circle qd (negb (c_left c1)) (c_forward c1) true (hc_cc_param kappa_ sigma_) in
  let cstart := c1 in
  let cend := circle (c_start c2) (c_left c2) (c_forward c2) false (hc_cc_param kappa_ sigma_) in
  rs_turn_assert cstart qa /\ hc_turn_assert middle1 qa /\ cc_turn_assert qb /\ rs_turn_assert cstart qc /\ hc_turn_assert middle2 qc /\ cc_turn_assert qd).

(** src/hc_cc_state_space/hcpm0_reeds_shepp_state_space.cpp:351-393 *)
Definition calls_HCpm0R_TTcT (kappa_ sigma_ distance_ angle_ : R) (c1 c2 : Circle) : Prop :=
  given (ModelHCpm0R.TTcT_tangent_circles kappa_ sigma_ distance_ angle_ c1 c2) (fun '(qa, qb, qc, qd) =>
  let start1 := circle qa (c_left c1) (negb (c_forward c1)) false (hc_cc_param kappa_ sigma_) in
  let middle1 := circle qa (negb (c_left c1)) (c_forward c1) true (hc_cc_param kappa_ sigma_) in
  let start2 := circle qc (c_left c1) (negb (c_forward c1)) false (hc_cc_param kappa_ sigma_) in
  let middle2 := circle qc (negb (c_left c1)) (c_forward c1) true (hc_cc_param kappa_ sigma_) in
  let cend := c2 in
  let q1 := configuration (q_x (c_start c1)) (q_y (c_start c1)) (q_theta (c_start c1)) (c_kappa c1) in
  hc_turn_assert start1 q1 /\ hc_turn_assert middle1 qb /\ hc_turn_assert cend qb /\ hc_turn_assert start2 q1 /\ hc_turn_assert middle2 qd /\ hc_turn_assert cend qd).

(** src/hc_cc_state_space/hcpm0_reeds_shepp_state_space.cpp:507-515 *)
Definition calls_HCpm0R_TiST (kappa_ sigma_ : R) (c1 c2 : Circle) : Prop :=
  given (ModelHCpm0R.TiST_tangent_circles c1 c2) (fun '(q2, q3) =>
  let cstart := circle q2 (c_left c1) (negb (c_forward c1)) false (hc_cc_param kappa_ sigma_) in
  let cend := circle (c_start c2) (c_left c2) (c_forward c2) false (hc_cc_param kappa_ sigma_) in
  let q1 := configuration (q_x (c_start c1)) (q_y (c_start c1)) (q_theta (c_start c1)) (c_kappa c1) in
  hc_turn_assert cstart q1 /\ cc_turn_assert q3).

(** src/hc_cc_state_space/hcpm0_reeds_shepp_state_space.cpp:517-525 *)
Definition calls_HCpm0R_TeST (kappa_ sigma_ : R) (c1 c2 : Circle) : Prop :=
  let '(q2, q3) := ModelHCpm0R.TeST_tangent_circles c1 c2 in
  let cstart := circle q2 (c_left c1) (negb (c_forward c1)) false (hc_cc_param kappa_ sigma_) in
  let cend := circle (c_start c2) (c_left c2) (c_forward c2) false (hc_cc_param kappa_ sigma_) in
  let q1 := configuration (q_x (c_start c1)) (q_y (c_start c1)) (q_theta (c_start c1)) (c_kappa c1) in
  hc_turn_assert cstart q1 /\ cc_turn_assert q3.

(** src/hc_cc_state_space/hcpm0_reeds_shepp_state_space.cpp:574-596 *)
Definition calls_HCpm0R_TiSTcT (kappa_ sigma_ distance_ angle_ : R) (c1 c2 : Circle) : Prop :=
  let theta := angle_ in
  given (fdiv ((4 * (c_radius c2)) * (c_cos_mu c2)) ((Rabs (c_kappa c2)) * distance_)) (fun delta_y =>
  given (fsqrt (((2 * (c_kappa_inv c2)) ^ 2) - (delta_y ^ 2))) (fun delta_x =>
  let '(x, y) := global_frame_change (c_xc c2) (c_yc c2) theta (- delta_x) delta_y in
  let tgt1 := circle_at x y (negb (c_left c2)) (c_forward c2) (c_regular c2) (hc_cc_param kappa_ sigma_) in
  given (ModelHCpm0R.TiST_tangent_circles c1 tgt1) (fun '(q2, q3) =>
  let q4 := ModelHCpm0R.TcT_tangent_circles tgt1 c2 in
  let cstart := circle q2 (c_left c1) (negb (c_forward c1)) false (hc_cc_param kappa_ sigma_) in
  let cend := c2 in
  let q1 := configuration (q_x (c_start c1)) (q_y (c_start c1)) (q_theta (c_start c1)) (c_kappa c1) in
  let ci := circle q3 (negb (c_left c1)) (c_forward c1) true (hc_cc_param kappa_ sigma_) in
  hc_turn_assert cstart q1 /\ hc_turn_assert ci q4 /\ hc_turn_assert cend q4))).

(** src/hc_cc_state_space/hcpm0_reeds_shepp_state_space.cpp:598-620 *)
Definition calls_HCpm0R_TeSTcT (kappa_ sigma_ angle_ : R) (c1 c2 : Circle) : Prop :=
  let theta := angle_ in
  let delta_x := 2 * (Rabs (c_kappa_inv c2)) in
  let delta_y := 0 in
  let '(x, y) := global_frame_change (c_xc c2) (c_yc c2) theta (- delta_x) delta_y in
  let tgt1 := circle_at x y (negb (c_left c2)) (c_forward c2) (c_regular c2) (hc_cc_param kappa_ sigma_) in
  let '(q2, q3) := ModelHCpm0R.TeST_tangent_circles c1 tgt1 in
  let q4 := ModelHCpm0R.TcT_tangent_circles tgt1 c2 in
  let cstart := circle q2 (c_left c1) (negb (c_forward c1)) false (hc_cc_param kappa_ sigma_) in
  let cend := c2 in
  let q1 := configuration (q_x (c_start c1)) (q_y (c_start c1)) (q_theta (c_start c1)) (c_kappa c1) in
  let ci := circle q3 (negb (c_left c2)) (c_forward c2) true (hc_cc_param kappa_ sigma_) in
  hc_turn_assert cstart q1 /\ hc_turn_assert ci q4 /\ hc_turn_assert cend q4.

(** src/hc_cc_state_space/hcpm0_reeds_shepp_state_space.cpp:670-690 *)
Definition calls_HCpm0R_TcTiST (kappa_ sigma_ distance_ angle_ : R) (c1 c2 : Circle) : Prop :=
  let theta := angle_ in
  given (fdiv ((4 * (c_radius c2)) * (c_cos_mu c2)) ((Rabs (c_kappa c2)) * distance_)) (fun delta_y =>
  given (fsqrt (((2 * (c_kappa_inv c2)) ^ 2) - (delta_y ^ 2))) (fun delta_x =>
  let '(x, y) := global_frame_change (c_xc c1) (c_yc c1) theta delta_x (- delta_y) in
  let tgt1 := circle_at x y (negb (c_left c1)) (negb (c_forward c1)) (c_regular c1) (hc_cc_param kappa_ sigma_) in
  let q1 := ModelHCpm0R.TcT_tangent_circles c1 tgt1 in
  given (ModelHCpm0R.TiST_tangent_circles tgt1 c2) (fun '(q2, q3) =>
  let cstart := c1 in
  let cend := circle (c_start c2) (c_left c2) (c_forward c2) false (hc_cc_param kappa_ sigma_) in
  let ci := circle q2 (negb (c_left c1)) (c_forward c1) true (hc_cc_param kappa_ sigma_) in
  rs_turn_assert cstart q1 /\ hc_turn_assert ci q1 /\ cc_turn_assert q3))).

(** src/hc_cc_state_space/hcpm0_reeds_shepp_state_space.cpp:692-712 *)
Definition calls_HCpm0R_TcTeST (kappa_ sigma_ angle_ : R) (c1 c2 : Circle) : Prop :=
  let theta := angle_ in
  let delta_x := 2 * (Rabs (c_kappa_inv c2)) in
  let delta_y := 0 in
  let '(x, y) := global_frame_change (c_xc c1) (c_yc c1) theta delta_x delta_y in
  let tgt1 := circle_at x y (negb (c_left c1)) (negb (c_forward c1)) (c_regular c1) (hc_cc_param kappa_ sigma_) in
  let q1 := ModelHCpm0R.TcT_tangent_circles c1 tgt1 in
  let '(q2, q3) := ModelHCpm0R.TeST_tangent_circles tgt1 c2 in
  let cstart := c1 in
  let cend := circle (c_start c2) (c_left c2) (c_forward c2) false (hc_cc_param kappa_ sigma_) in
  let ci := circle q2 (negb (c_left c1)) (c_forward c1) true (hc_cc_param kappa_ sigma_) in
  rs_turn_assert cstart q1 /\ hc_turn_assert ci q1 /\ cc_turn_assert q3.

(** src/hc_cc_state_space/hcpm0_reeds_shepp_state_space.cpp:761-786 *)
Definition calls_HCpm0R_TcTiSTcT (kappa_ sigma_ distance_ angle_ : R) (c1 c2 : Circle) : Prop :=
  let theta := angle_ in
  given (fdiv ((4 * (c_radius c2)) * (c_cos_mu c2)) (distance_ * (Rabs (c_kappa c2)))) (fun delta_y =>
  given (fsqrt (((2 * (c_kappa_inv c2)) ^ 2) - (delta_y ^ 2))) (fun delta_x =>
  let '(x, y) := global_frame_change (c_xc c1) (c_yc c1) theta delta_x delta_y in
  let tgt1 := circle_at x y (negb (c_left c1)) (negb (c_forward c1)) (c_regular c1) (hc_cc_param kappa_ sigma_) in
  let '(x, y) := global_frame_change (c_xc c2) (c_yc c2) theta (- delta_x) (- delta_y) in
  let tgt2 := circle_at x y (negb (c_left c2)) (c_forward c2) (c_regular c2) (hc_cc_param kappa_ sigma_) in
  let q1 := ModelHCpm0R.TcT_tangent_circles c1 tgt1 in
  given (ModelHCpm0R.TiST_tangent_circles tgt1 tgt2) (fun '(q2, q3) =>
  let q4 := ModelHCpm0R.TcT_tangent_circles tgt2 c2 in
  let cstart := c1 in
  let cend := c2 in
  let ci1 := circle q2 (negb (c_left c1)) (c_forward c1) true (hc_cc_param kappa_ sigma_) in
  let ci2 := circle q3 (negb (c_left c2)) (c_forward c2) true (hc_cc_param kappa_ sigma_) in
  rs_turn_assert cstart q1 /\ hc_turn_assert ci1 q1 /\ hc_turn_assert ci2 q4 /\ hc_turn_assert cend q4))).

(** src/hc_cc_state_space/hcpm0_reeds_shepp_state_space.cpp:788-813 *)
Definition calls_HCpm0R_TcTeSTcT (kappa_ sigma_ angle_ : R) (c1 c2 : Circle) : Prop :=
  let theta := angle_ in
  let delta_x := 2 * (Rabs (c_kappa_inv c1)) in
  let delta_y := 0 in
  let '(x, y) := global_frame_change (c_xc c1) (c_yc c1) theta delta_x delta_y in
  let tgt1 := circle_at x y (negb (c_left c1)) (negb (c_forward c1)) (c_regular c1) (hc_cc_param kappa_ sigma_) in
  let '(x, y) := global_frame_change (c_xc c2) (c_yc c2) theta (- delta_x) delta_y in
  let tgt2 := circle_at x y (negb (c_left c2)) (c_forward c2) (c_regular c2) (hc_cc_param kappa_ sigma_) in
  let q1 := ModelHCpm0R.TcT_tangent_circles c1 tgt1 in
  let '(q2, q3) := ModelHCpm0R.TeST_tangent_circles tgt1 tgt2 in
  let q4 := ModelHCpm0R.TcT_tangent_circles tgt2 c2 in
  let cstart := c1 in
  let cend := c2 in
  let ci1 := circle q2 (negb (c_left c1)) (c_forward c1) true (hc_cc_param kappa_ sigma_) in
  let ci2 := circle q3 (negb (c_left c2)) (c_forward c2) true (hc_cc_param kappa_ sigma_) in
  rs_turn_assert cstart q1 /\ hc_turn_assert ci1 q1 /\ hc_turn_assert ci2 q4 /\ hc_turn_assert cend q4.

(** src/hc_cc_state_space/hcpm0_reeds_shepp_state_space.cpp:881-937 *)
Definition calls_HCpm0R_TTcTT (kappa_ sigma_ distance_ angle_ : R) (c1 c2 : Circle) : Prop :=
  given (ModelHCpm0R.TTcTT_tangent_circles kappa_ sigma_ distance_ angle_ c1 c2) (fun '(qa, qb, qc, qd, qe, qf) =>
  let start1 := circle qa (c_left c1) (negb (c_forward c1)) false (hc_cc_param kappa_ sigma_) in
  let middle1 := circle qa (negb (c_left c1)) (c_forward c1) true (hc_cc_param kappa_ sigma_) in
  let middle2 := circle qc (negb (c_left c2)) (c_forward c2) true (hc_cc_param kappa_ sigma_) in
  let start2 := circle qd (c_left c1) (negb (c_forward c1)) false (hc_cc_param kappa_ sigma_) in
  let middle3 := circle qd (negb (c_left c1)) (c_forward c1) true (hc_cc_param kappa_ sigma_) in
  let middle4 := circle qf (negb (c_left c2)) (c_forward c2) true (hc_cc_param kappa_ sigma_) in
  let cend := circle (c_start c2) (c_left c2) (c_forward c2) false (hc_cc_param kappa_ sigma_) in
  let q1 := configuration (q_x (c_start c1)) (q_y (c_start c1)) (q_theta (c_start c1)) (c_kappa c1) in
  hc_turn_assert start1 q1 /\ hc_turn_assert middle1 qb /\ hc_turn_assert middle2 qb /\ cc_turn_assert qc /\ hc_turn_assert start2 q1 /\ hc_turn_assert middle3 qe /\ hc_turn_assert middle4 qe /\ cc_turn_assert qf).

(** src/hc_cc_state_space/hcpm0_reeds_shepp_state_space.cpp:982-1030 *)
Definition calls_HCpm0R_TcTTcT (kappa_ sigma_ distance_ angle_ : R) (c1 c2 : Circle) : Prop :=
  given (ModelHCpm0R.TcTTcT_tangent_circles kappa_ sigma_ distance_ angle_ c1 c2) (fun '(qa, qb, qc, qd, qe, qf) =>
  let middle1 := circle qb (negb (c_left c1)) (c_forward c1) true (hc_cc_param kappa_ sigma_) in
  let middle2 := circle qb (c_left c1) (negb (c_forward c1)) true (hc_cc_param kappa_ sigma_) in
  let middle3 := circle qe (negb (c_left c1)) (c_forward c1) true (hc_cc_param kappa_ sigma_) in
  let middle4 := circle qe (c_left c1) (negb (c_forward c1)) true (hc_cc_param kappa_ sigma_) in
  let cstart := c1 in
  let cend := c2 in
  rs_turn_assert cstart qa /\ hc_turn_assert middle1 qa /\ hc_turn_assert middle2 qc /\ hc_turn_assert cend qc /\ rs_turn_assert cstart qd /\ hc_turn_assert middle3 qd /\ hc_turn_assert middle4 qf /\ hc_turn_assert cend qf).

(** src/hc_cc_state_space/hcpm0_reeds_shepp_state_space.cpp:1068-1110 *)
Definition calls_HCpm0R_TTT (kappa_ sigma_ distance_ angle_ : R) (c1 c2 : Circle) : Prop :=
  given (ModelHCpm0R.TTT_tangent_circles kappa_ sigma_ distance_ angle_ c1 c2) (fun '(qa, qb, qc, qd) =>
  let start1 := circle qa (c_left c1) (negb (c_forward c1)) false (hc_cc_param kappa_ sigma_) in
  let middle1 := circle qa (negb (c_left c1)) (c_forward c1) false (hc_cc_param kappa_ sigma_) in
  let start2 := circle qc (c_left c1) (negb (c_forward c1)) false (hc_cc_param kappa_ sigma_) in
  let middle2 := circle qc (negb (c_left c1)) (c_forward c1) false (hc_cc_param kappa_ sigma_) in
  let cend := circle (c_start c2) (c_left c2) (c_forward c2) false (hc_cc_param kappa_ sigma_) in
  let q1 := configuration (q_x (c_start c1)) (q_y (c_start c1)) (q_theta (c_start c1)) (c_kappa c1) in
  hc_turn_assert start1 q1 /\ cc_turn_assert qb /\ cc_turn_assert qb /\ hc_turn_assert start2 q1 /\ cc_turn_assert qd /\ cc_turn_assert qd).

(** src/hc_cc_state_space/hcpm0_reeds_shepp_state_space.cpp:1144-1188 *)
Definition calls_HCpm0R_TciST (kappa_ sigma_ distance_ angle_ : R) (c1 c2 : Circle) : Prop :=
  given (fdiv (((c_radius c2) * (c_cos_mu c2)) + (Rabs (c_kappa_inv c2))) distance_) (fun t1 =>
  given (fasin t1) (fun alpha =>
  let delta_x1 := 0 in
  let delta_y1 := Rabs (c_kappa_inv c2) in
  let delta_x2 := (c_radius c2) * (c_sin_mu c2) in
  let delta_y2 := (c_radius c2) * (c_cos_mu c2) in
  let '(q1, q2) := if (c_left c1) && (c_forward c1) then let theta := angle_ - alpha in
  let '(x, y) := global_frame_change (c_xc c1) (c_yc c1) theta (- delta_x1) delta_y1 in
  let q1 := configuration x y (theta + PI) (c_kappa c1) in
  let '(x, y) := global_frame_change (c_xc c2) (c_yc c2) theta (- delta_x2) (- delta_y2) in
  let q2 := configuration x y (theta + PI) 0 in (q1, q2) else if (c_left c1) && (negb (c_forward c1)) then let theta := angle_ + alpha in
  let '(x, y) := global_frame_change (c_xc c1) (c_yc c1) theta (- delta_x1) (- delta_y1) in
  let q1 := configuration x y theta (c_kappa c1) in
  let '(x, y) := global_frame_change (c_xc c2) (c_yc c2) theta (- delta_x2) delta_y2 in
  let q2 := configuration x y theta 0 in (q1, q2) else if (negb (c_left c1)) && (c_forward c1) then let theta := angle_ + alpha in
  let '(x, y) := global_frame_change (c_xc c1) (c_yc c1) theta (- delta_x1) (- delta_y1) in
  let q1 := configuration x y (theta + PI) (c_kappa c1) in
  let '(x, y) := global_frame_change (c_xc c2) (c_yc c2) theta (- delta_x2) delta_y2 in
  let q2 := configuration x y (theta + PI) 0 in (q1, q2) else let theta := angle_ - alpha in
  let '(x, y) := global_frame_change (c_xc c1) (c_yc c1) theta (- delta_x1) delta_y1 in
  let q1 := configuration x y theta (c_kappa c1) in
  let '(x, y) := global_frame_change (c_xc c2) (c_yc c2) theta (- delta_x2) (- delta_y2) in
  let q2 := configuration x y theta 0 in (q1, q2) in
  let cstart := c1 in
  let cend := circle (c_start c2) (c_left c2) (c_forward c2) false (hc_cc_param kappa_ sigma_) in
  rs_turn_assert cstart q1 /\ cc_turn_assert q2)).

(** src/hc_cc_state_space/hcpm0_reeds_shepp_state_space.cpp:1190-1234 *)
Definition calls_HCpm0R_TceST (kappa_ sigma_ distance_ angle_ : R) (c1 c2 : Circle) : Prop :=
  given (fdiv (((c_radius c2) * (c_cos_mu c2)) - (Rabs (c_kappa_inv c2))) distance_) (fun t1 =>
  given (fasin t1) (fun alpha =>
  let delta_x1 := 0 in
  let delta_y1 := Rabs (c_kappa_inv c2) in
  let delta_x2 := (c_radius c2) * (c_sin_mu c2) in
  let delta_y2 := (c_radius c2) * (c_cos_mu c2) in
  let '(q1, q2) := if (c_left c1) && (c_forward c1) then let theta := angle_ + alpha in
  let '(x, y) := global_frame_change (c_xc c1) (c_yc c1) theta (- delta_x1) delta_y1 in
  let q1 := configuration x y (theta + PI) (c_kappa c1) in
  let '(x, y) := global_frame_change (c_xc c2) (c_yc c2) theta (- delta_x2) delta_y2 in
  let q2 := configuration x y (theta + PI) 0 in (q1, q2) else if (c_left c1) && (negb (c_forward c1)) then let theta := angle_ - alpha in
  let '(x, y) := global_frame_change (c_xc c1) (c_yc c1) theta (- delta_x1) (- delta_y1) in
  let q1 := configuration x y theta (c_kappa c1) in
  let '(x, y) := global_frame_change (c_xc c2) (c_yc c2) theta (- delta_x2) (- delta_y2) in
  let q2 := configuration x y theta 0 in (q1, q2) else if (negb (c_left c1)) && (c_forward c1) then let theta := angle_ - alpha in
  let '(x, y) := global_frame_change (c_xc c1) (c_yc c1) theta (- delta_x1) (- delta_y1) in
  let q1 := configuration x y (theta + PI) (c_kappa c1) in
  let '(x, y) := global_frame_change (c_xc c2) (c_yc c2) theta (- delta_x2) (- delta_y2) in
  let q2 := configuration x y (theta + PI) 0 in (q1, q2) else let theta := angle_ + alpha in
  let '(x, y) := global_frame_change (c_xc c1) (c_yc c1) theta (- delta_x1) delta_y1 in
  let q1 := configuration x y theta (c_kappa c1) in
  let '(x, y) := global_frame_change (c_xc c2) (c_yc c2) theta (- delta_x2) delta_y2 in
  let q2 := configuration x y theta 0 in (q1, q2) in
  let cstart := c1 in
  let cend := circle (c_start c2) (c_left c2) (c_forward c2) false (hc_cc_param kappa_ sigma_) in
  rs_turn_assert cstart q1 /\ cc_turn_assert q2)).

(** src/hc_cc_state_space/hcpm0_reeds_shepp_state_space.cpp:1282-1327 *)
Definition calls_HCpm0R_TiScT (kappa_ sigma_ distance_ angle_ : R) (c1 c2 : Circle) : Prop :=
  given (fdiv (((c_radius c2) * (c_cos_mu c2)) + (Rabs (c_kappa_inv c2))) distance_) (fun t1 =>
  given (fasin t1) (fun alpha =>
  let delta_x1 := (c_radius c2) * (c_sin_mu c2) in
  let delta_y1 := (c_radius c2) * (c_cos_mu c2) in
  let delta_x2 := 0 in
  let delta_y2 := Rabs (c_kappa_inv c2) in
  let '(q2, q3) := if (c_left c1) && (c_forward c1) then let theta := angle_ + alpha in
  let '(x, y) := global_frame_change (c_xc c1) (c_yc c1) theta delta_x1 (- delta_y1) in
  let q2 := configuration x y theta 0 in
  let '(x, y) := global_frame_change (c_xc c2) (c_yc c2) theta delta_x2 delta_y2 in
  let q3 := configuration x y theta (c_kappa c2) in (q2, q3) else if (c_left c1) && (negb (c_forward c1)) then let theta := angle_ - alpha in
  let '(x, y) := global_frame_change (c_xc c1) (c_yc c1) theta delta_x1 delta_y1 in
  let q2 := configuration x y (theta + PI) 0 in
  let '(x, y) := global_frame_change (c_xc c2) (c_yc c2) theta delta_x2 (- delta_y2) in
  let q3 := configuration x y (theta + PI) (c_kappa c2) in (q2, q3) else if (negb (c_left c1)) && (c_forward c1) then let theta := angle_ - alpha in
  let '(x, y) := global_frame_change (c_xc c1) (c_yc c1) theta delta_x1 delta_y1 in
  let q2 := configuration x y theta 0 in
  let '(x, y) := global_frame_change (c_xc c2) (c_yc c2) theta delta_x2 (- delta_y2) in
  let q3 := configuration x y theta (c_kappa c2) in (q2, q3) else let theta := angle_ + alpha in
  let '(x, y) := global_frame_change (c_xc c1) (c_yc c1) theta delta_x1 (- delta_y1) in
  let q2 := configuration x y (theta + PI) 0 in
  let '(x, y) := global_frame_change (c_xc c2) (c_yc c2) theta delta_x2 delta_y2 in
  let q3 := configuration x y (theta + PI) (c_kappa c2) in (q2, q3) in
  let cstart := circle q2 (c_left c1) (negb (c_forward c1)) false (hc_cc_param kappa_ sigma_) in
  let cend := c2 in
  let q1 := configuration (q_x (c_start c1)) (q_y (c_start c1)) (q_theta (c_start c1)) (c_kappa c1) in
  hc_turn_assert cstart q1 /\ hc_turn_assert cend q3)).

(** src/hc_cc_state_space/hcpm0_reeds_shepp_state_space.cpp:1329-1374 *)
Definition calls_HCpm0R_TeScT (kappa_ sigma_ distance_ angle_ : R) (c1 c2 : Circle) : Prop :=
  given (fdiv (((c_radius c2) * (c_cos_mu c2)) - (Rabs (c_kappa_inv c2))) distance_) (fun t1 =>
  given (fasin t1) (fun alpha =>
  let delta_x1 := (c_radius c2) * (c_sin_mu c2) in
  let delta_y1 := (c_radius c2) * (c_cos_mu c2) in
  let delta_x2 := 0 in
  let delta_y2 := Rabs (c_kappa_inv c2) in
  let '(q2, q3) := if (c_left c1) && (c_forward c1) then let theta := angle_ + alpha in
  let '(x, y) := global_frame_change (c_xc c1) (c_yc c1) theta delta_x1 (- delta_y1) in
  let q2 := configuration x y theta 0 in
  let '(x, y) := global_frame_change (c_xc c2) (c_yc c2) theta delta_x2 (- delta_y2) in
  let q3 := configuration x y theta (c_kappa c2) in (q2, q3) else if (c_left c1) && (negb (c_forward c1)) then let theta := angle_ - alpha in
  let '(x, y) := global_frame_change (c_xc c1) (c_yc c1) theta delta_x1 delta_y1 in
  let q2 := configuration x y (theta + PI) 0 in
  let '(x, y) := global_frame_change (c_xc c2) (c_yc c2) theta delta_x2 delta_y2 in
  let q3 := configuration x y (theta + PI) (c_kappa c2) in (q2, q3) else if (negb (c_left c1)) && (c_forward c1) then let theta := angle_ - alpha in
  let '(x, y) := global_frame_change (c_xc c1) (c_yc c1) theta delta_x1 delta_y1 in
  let q2 := configuration x y theta 0 in
  let '(x, y) := global_frame_change (c_xc c2) (c_yc c2) theta delta_x2 delta_y2 in
  let q3 := configuration x y theta (c_kappa c2) in (q2, q3) else let theta := angle_ + alpha in
  let '(x, y) := global_frame_change (c_xc c1) (c_yc c1) theta delta_x1 (- delta_y1) in
  let q2 := configuration x y (theta + PI) 0 in
  let '(x, y) := global_frame_change (c_xc c2) (c_yc c2) theta delta_x2 (- delta_y2) in
  let q3 := configuration x y (theta + PI) (c_kappa c2) in (q2, q3) in
  let q1 := configuration (q_x (c_start c1)) (q_y (c_start c1)) (q_theta (c_start c1)) (c_kappa c1) in
  let cstart := circle q2 (c_left c1) (negb (c_forward c1)) false (hc_cc_param kappa_ sigma_) in
  let cend := c2 in
  hc_turn_assert cstart q1 /\ hc_turn_assert cend q3)).

(** src/hc_cc_state_space/hcpm0_reeds_shepp_state_space.cpp:1422-1464 *)
Definition calls_HCpm0R_TciScT (distance_ angle_ : R) (c1 c2 : Circle) : Prop :=
  given (fdiv 2 ((Rabs (c_kappa c2)) * distance_)) (fun t1 =>
  given (fasin t1) (fun alpha =>
  let delta_x := 0 in
  let delta_y := Rabs (c_kappa_inv c2) in
  let '(q1, q2) := if (c_left c1) && (c_forward c1) then let theta := angle_ - alpha in
  let '(x, y) := global_frame_change (c_xc c1) (c_yc c1) theta (- delta_x) delta_y in
  let q1 := configuration x y (theta + PI) (c_kappa c1) in
  let '(x, y) := global_frame_change (c_xc c2) (c_yc c2) theta delta_x (- delta_y) in
  let q2 := configuration x y (theta + PI) (c_kappa c2) in (q1, q2) else if (c_left c1) && (negb (c_forward c1)) then let theta := angle_ + alpha in
  let '(x, y) := global_frame_change (c_xc c1) (c_yc c1) theta (- delta_x) (- delta_y) in
  let q1 := configuration x y theta (c_kappa c1) in
  let '(x, y) := global_frame_change (c_xc c2) (c_yc c2) theta delta_x delta_y in
  let q2 := configuration x y theta (c_kappa c2) in (q1, q2) else if (negb (c_left c1)) && (c_forward c1) then let theta := angle_ + alpha in
  let '(x, y) := global_frame_change (c_xc c1) (c_yc c1) theta (- delta_x) (- delta_y) in
  let q1 := configuration x y (theta + PI) (c_kappa c1) in
  let '(x, y) := global_frame_change (c_xc c2) (c_yc c2) theta delta_x delta_y in
  let q2 := configuration x y (theta + PI) (c_kappa c2) in (q1, q2) else let theta := angle_ - alpha in
  let '(x, y) := global_frame_change (c_xc c1) (c_yc c1) theta (- delta_x) delta_y in
  let q1 := configuration x y theta (c_kappa c1) in
  let '(x, y) := global_frame_change (c_xc c2) (c_yc c2) theta delta_x (- delta_y) in
  let q2 := configuration x y theta (c_kappa c2) in (q1, q2) in
  let cstart := c1 in
  let cend := c2 in
  rs_turn_assert cstart q1 /\ hc_turn_assert cend q2)).

(** src/hc_cc_state_space/hcpm0_reeds_shepp_state_space.cpp:1466-1504 *)
Definition calls_HCpm0R_TceScT (angle_ : R) (c1 c2 : Circle) : Prop :=
  let delta_x := 0 in
  let delta_y := Rabs (c_kappa_inv c2) in
  let theta := angle_ in
  let '(q1, q2) := if (c_left c1) && (c_forward c1) then let '(x, y) := global_frame_change (c_xc c1) (c_yc c1) theta (- delta_x) delta_y in
  let q1 := configuration x y (theta + PI) (c_kappa c1) in
  let '(x, y) := global_frame_change (c_xc c2) (c_yc c2) theta delta_x delta_y in
  let q2 := configuration x y (theta + PI) (c_kappa c2) in (q1, q2) else if (c_left c1) && (negb (c_forward c1)) then let '(x, y) := global_frame_change (c_xc c1) (c_yc c1) theta (- delta_x) (- delta_y) in
  let q1 := configuration x y theta (c_kappa c1) in
  let '(x, y) := global_frame_change (c_xc c2) (c_yc c2) theta delta_x (- delta_y) in
  let q2 := configuration x y theta (c_kappa c2) in (q1, q2) else if (negb (c_left c1)) && (c_forward c1) then let '(x, y) := global_frame_change (c_xc c1) (c_yc c1) theta (- delta_x) (- delta_y) in
  let q1 := configuration x y (theta + PI) (c_kappa c1) in
  let '(x, y) := global_frame_change (c_xc c2) (c_yc c2) theta delta_x (- delta_y) in
  let q2 := configuration x y (theta + PI) (c_kappa c2) in (q1, q2) else let '(x, y) := global_frame_change (c_xc c1) (c_yc c1) theta (- delta_x) delta_y in
  let q1 := configuration x y theta (c_kappa c1) in
  let '(x, y) := global_frame_change (c_xc c2) (c_yc c2) theta delta_x delta_y in
  let q2 := configuration x y theta (c_kappa c2) in (q1, q2) in
  let cstart := c1 in
  let cend := c2 in
  rs_turn_assert cstart q1 /\ hc_turn_assert cend q2.

(** src/hc_cc_state_space/hcpm0_reeds_shepp_state_space.cpp:1534-1699: all calls for two circles. *)
Definition calls_HCpm0R (kappa_ sigma_ : R) (c1 c2 : Circle) : Prop :=
  let distance_ := center_distance c1 c2 in
  let angle_ := atan2 (c_yc c2 - c_yc c1) (c_xc c2 - c_xc c1) in
  hc_turn_assert (circle (c_start c2) (c_left c2) (c_forward c2) false (hc_cc_param kappa_ sigma_)) (c_start c1) /\
  calls_HCpm0R_TT kappa_ sigma_ c1 c2 /\
  calls_HCpm0R_TcT c1 c2 /\
  calls_HCpm0R_TcTcT kappa_ distance_ angle_ c1 c2 /\
  calls_HCpm0R_TcTT kappa_ sigma_ distance_ angle_ c1 c2 /\
  calls_HCpm0R_TTcT kappa_ sigma_ distance_ angle_ c1 c2 /\
  calls_HCpm0R_TiST kappa_ sigma_ c1 c2 /\
  calls_HCpm0R_TeST kappa_ sigma_ c1 c2 /\
  calls_HCpm0R_TiSTcT kappa_ sigma_ distance_ angle_ c1 c2 /\
  calls_HCpm0R_TeSTcT kappa_ sigma_ angle_ c1 c2 /\
  calls_HCpm0R_TcTiST kappa_ sigma_ distance_ angle_ c1 c2 /\
  calls_HCpm0R_TcTeST kappa_ sigma_ angle_ c1 c2 /\
  calls_HCpm0R_TcTiSTcT kappa_ sigma_ distance_ angle_ c1 c2 /\
  calls_HCpm0R_TcTeSTcT kappa_ sigma_ angle_ c1 c2 /\
  calls_HCpm0R_TTcTT kappa_ sigma_ distance_ angle_ c1 c2 /\
  calls_HCpm0R_TcTTcT kappa_ sigma_ distance_ angle_ c1 c2 /\
  calls_HCpm0R_TTT kappa_ sigma_ distance_ angle_ c1 c2 /\
  calls_HCpm0R_TciST kappa_ sigma_ distance_ angle_ c1 c2 /\
  calls_HCpm0R_TceST kappa_ sigma_ distance_ angle_ c1 c2 /\
  calls_HCpm0R_TiScT kappa_ sigma_ distance_ angle_ c1 c2 /\
  calls_HCpm0R_TeScT kappa_ sigma_ distance_ angle_ c1 c2 /\
  calls_HCpm0R_TciScT distance_ angle_ c1 c2 /\
  calls_HCpm0R_TceScT angle_ c1 c2.

(** ** ModelHCpmpmR.v *)
(** src/hc_cc_state_space/hcpmpm_reeds_shepp_state_space.cpp:100-109 *)
Definition calls_HCpmpmR_TT (kappa_ sigma_ : R) (c1 c2 : Circle) : Prop :=
  let q2 := ModelHCpmpmR.TT_tangent_circles kappa_ sigma_ c1 c2 in
  let cstart := circle q2 (c_left c1) (negb (c_forward c1)) false (hc_cc_param kappa_ sigma_) in
  let cend := circle q2 (c_left c2) (negb (c_forward c2)) false (hc_cc_param kappa_ sigma_) in
  let q1 := configuration (q_x (c_start c1)) (q_y (c_start c1)) (q_theta (c_start c1)) (c_kappa c1) in
  let q3 := configuration (q_x (c_start c2)) (q_y (c_start c2)) (q_theta (c_start c2)) (c_kappa c2) in
  hc_turn_assert cstart q1 /\ hc_turn_assert cend q3.

(** src/hc_cc_state_space/hcpmpm_reeds_shepp_state_space.cpp:161-168 *)
Definition calls_HCpmpmR_TcT (c1 c2 : Circle) : Prop :=
  let q := ModelHCpmpmR.TcT_tangent_circles c1 c2 in
  let cstart := c1 in
  let cend := c2 in
  rs_turn_assert cstart q /\ rs_turn_assert cend q.

(** src/hc_cc_state_space/hcpmpm_reeds_shepp_state_space.cpp:206-242 *)
Definition calls_HCpmpmR_TcTcT (kappa_ distance_ angle_ : R) (c1 c2 : Circle) : Prop :=
  given (ModelHCpmpmR.TcTcT_tangent_circles kappa_ distance_ angle_ c1 c2) (fun '(qa, qb, qc, qd) =>
  let middle1 := circle qa (negb (c_left c1)) (negb (c_forward c1)) true (rs_param kappa_) in
  let middle2 := circle qc (negb (c_left c1)) (negb (c_forward c1)) true (rs_param kappa_) in
  let cstart := c1 in
  let cend := c2 in
  rs_turn_assert cstart qa /\ rs_turn_assert middle1 qb /\ rs_turn_assert cend qb /\ rs_turn_assert cstart qc /\ rs_turn_assert middle2 qd /\ rs_turn_assert cend qd).

(** src/hc_cc_state_space/hcpmpm_reeds_shepp_state_space.cpp:280-322 *)
Definition calls_HCpmpmR_TcTT (kappa_ sigma_ distance_ angle_ : R) (c1 c2 : Circle) : Prop :=
  given (ModelHCpmpmR.TcTT_tangent_circles kappa_ sigma_ distance_ angle_ c1 c2) (fun '(qa, qb, qc, qd) =>
  let end1 := circle qb (c_left c2) (negb (c_forward c2)) false (hc_cc_param kappa_ sigma_) in
  let end2 := circle qd (c_left c2) (negb (c_forward c2)) false (hc_cc_param kappa_ sigma_) in
  let middle1 := circle qb (negb (c_left c1)) (c_forward c1) true (hc_cc_param kappa_ sigma_) in
  let middle2 := circle qd (negb (c_left c1)) (c_forward c1) true (hc_cc_param kappa_ sigma_) in
  let cstart := c1 in
  let q2 := configuration (q_x (c_start c2)) (q_y (c_start c2)) (q_theta (c_start c2)) (c_kappa c2) in
  rs_turn_assert cstart qa /\ hc_turn_assert middle1 qa /\ hc_turn_assert end1 q2 /\ rs_turn_assert cstart qc /\ hc_turn_assert middle2 qc /\ hc_turn_assert end2 q2).

(** src/hc_cc_state_space/hcpmpm_reeds_shepp_state_space.cpp:360-402 *)
Definition calls_HCpmpmR_TTcT (kappa_ sigma_ distance_ angle_ : R) (c1 c2 : Circle) : Prop :=
  given (ModelHCpmpmR.TTcT_tangent_circles kappa_ sigma_ distance_ angle_ c1 c2) (fun '(qa, qb, qc, qd) =>
  let start1 := circle qa (c_left c1) (negb (c_forward c1)) false (hc_cc_param kappa_ sigma_) in
  let start2 := circle qc (c_left c1) (negb (c_forward c1)) false (hc_cc_param kappa_ sigma_) in
  let middle1 := circle qa (negb (c_left c1)) (c_forward c1) true (hc_cc_param kappa_ sigma_) in
  let middle2 := circle qc (negb (c_left c1)) (c_forward c1) true (hc_cc_param kappa_ sigma_) in
  let cend := c2 in
  let q1 := configuration (q_x (c_start c1)) (q_y (c_start c1)) (q_theta (c_start c1)) (c_kappa c1) in
  hc_turn_assert start1 q1 /\ hc_turn_assert middle1 qb /\ rs_turn_assert cend qb /\ hc_turn_assert start2 q1 /\ hc_turn_assert middle2 qd /\ rs_turn_assert cend qd).

(** src/hc_cc_state_space/hcpmpm_reeds_shepp_state_space.cpp:516-525 *)
Definition calls_HCpmpmR_TiST (kappa_ sigma_ : R) (c1 c2 : Circle) : Prop :=
  given (ModelHCpmpmR.TiST_tangent_circles kappa_ sigma_ c1 c2) (fun '(q2, q3) =>
  let cstart := circle q2 (c_left c1) (negb (c_forward c1)) false (hc_cc_param kappa_ sigma_) in
  let cend := circle q3 (c_left c2) (negb (c_forward c2)) false (hc_cc_param kappa_ sigma_) in
  let q1 := configuration (q_x (c_start c1)) (q_y (c_start c1)) (q_theta (c_start c1)) (c_kappa c1) in
  let q4 := configuration (q_x (c_start c2)) (q_y (c_start c2)) (q_theta (c_start c2)) (c_kappa c2) in
  hc_turn_assert cstart q1 /\ hc_turn_assert cend q4).

(** src/hc_cc_state_space/hcpmpm_reeds_shepp_state_space.cpp:527-536 *)
Definition calls_HCpmpmR_TeST (kappa_ sigma_ : R) (c1 c2 : Circle) : Prop :=
  let '(q2, q3) := ModelHCpmpmR.TeST_tangent_circles kappa_ sigma_ c1 c2 in
  let cstart := circle q2 (c_left c1) (negb (c_forward c1)) false (hc_cc_param kappa_ sigma_) in
  let cend := circle q3 (c_left c2) (negb (c_forward c2)) false (hc_cc_param kappa_ sigma_) in
  let q1 := configuration (q_x (c_start c1)) (q_y (c_start c1)) (q_theta (c_start c1)) (c_kappa c1) in
  let q4 := configuration (q_x (c_start c2)) (q_y (c_start c2)) (q_theta (c_start c2)) (c_kappa c2) in
  hc_turn_assert cstart q1 /\ hc_turn_assert cend q4.

(** src/hc_cc_state_space/hcpmpm_reeds_shepp_state_space.cpp:585-607 *)
Definition calls_HCpmpmR_TiSTcT (kappa_ sigma_ distance_ angle_ : R) (c1 c2 : Circle) : Prop :=
  let theta := angle_ in
  given (fdiv ((4 * (p_radius (hc_cc_param kappa_ sigma_))) * (p_cos_mu (hc_cc_param kappa_ sigma_))) ((Rabs (c_kappa c2)) * distance_)) (fun delta_y =>
  given (fsqrt (((2 * (c_kappa_inv c2)) ^ 2) - (delta_y ^ 2))) (fun delta_x =>
  let '(x, y) := global_frame_change (c_xc c2) (c_yc c2) theta (- delta_x) delta_y in
  let tgt1 := circle_at x y (negb (c_left c2)) (c_forward c2) (c_regular c2) (hc_cc_param kappa_ sigma_) in
  given (ModelHCpmpmR.TiST_tangent_circles kappa_ sigma_ c1 tgt1) (fun '(q2, q3) =>
  let q4 := ModelHCpmpmR.TcT_tangent_circles tgt1 c2 in
  let cstart := circle q2 (c_left c1) (negb (c_forward c1)) false (hc_cc_param kappa_ sigma_) in
  let cend := c2 in
  let q1 := configuration (q_x (c_start c1)) (q_y (c_start c1)) (q_theta (c_start c1)) (c_kappa c1) in
  let ci := circle q3 (negb (c_left c1)) (c_forward c1) true (hc_cc_param kappa_ sigma_) in
  hc_turn_assert cstart q1 /\ hc_turn_assert ci q4 /\ rs_turn_assert cend q4))).

(** src/hc_cc_state_space/hcpmpm_reeds_shepp_state_space.cpp:609-631 *)
Definition calls_HCpmpmR_TeSTcT (kappa_ sigma_ angle_ : R) (c1 c2 : Circle) : Prop :=
  let theta := angle_ in
  let delta_x := 2 * (Rabs (c_kappa_inv c2)) in
  let delta_y := 0 in
  let '(x, y) := global_frame_change (c_xc c2) (c_yc c2) theta (- delta_x) delta_y in
  let tgt1 := circle_at x y (negb (c_left c2)) (c_forward c2) (c_regular c2) (hc_cc_param kappa_ sigma_) in
  let '(q2, q3) := ModelHCpmpmR.TeST_tangent_circles kappa_ sigma_ c1 tgt1 in
  let q4 := ModelHCpmpmR.TcT_tangent_circles tgt1 c2 in
  let cstart := circle q2 (c_left c1) (negb (c_forward c1)) false (hc_cc_param kappa_ sigma_) in
  let cend := c2 in
  let q1 := configuration (q_x (c_start c1)) (q_y (c_start c1)) (q_theta (c_start c1)) (c_kappa c1) in
  let ci := circle q3 (c_left c1) (c_forward c1) true (hc_cc_param kappa_ sigma_) in
  hc_turn_assert cstart q1 /\ hc_turn_assert ci q4 /\ rs_turn_assert cend q4.

(** src/hc_cc_state_space/hcpmpm_reeds_shepp_state_space.cpp:681-703 *)
Definition calls_HCpmpmR_TcTiST (kappa_ sigma_ distance_ angle_ : R) (c1 c2 : Circle) : Prop :=
  let theta := angle_ in
  given (fdiv ((4 * (p_radius (hc_cc_param kappa_ sigma_))) * (p_cos_mu (hc_cc_param kappa_ sigma_))) ((Rabs (c_kappa c2)) * distance_)) (fun delta_y =>
  given (fsqrt (((2 * (c_kappa_inv c2)) ^ 2) - (delta_y ^ 2))) (fun delta_x =>
  let '(x, y) := global_frame_change (c_xc c1) (c_yc c1) theta delta_x (- delta_y) in
  let tgt1 := circle_at x y (negb (c_left c2)) (negb (c_forward c2)) (c_regular c2) (hc_cc_param kappa_ sigma_) in
  let q1 := ModelHCpmpmR.TcT_tangent_circles c1 tgt1 in
  given (ModelHCpmpmR.TiST_tangent_circles kappa_ sigma_ tgt1 c2) (fun '(q2, q3) =>
  let cstart := c1 in
  let cend := circle q3 (c_left c2) (negb (c_forward c2)) false (hc_cc_param kappa_ sigma_) in
  let q4 := configuration (q_x (c_start c2)) (q_y (c_start c2)) (q_theta (c_start c2)) (c_kappa c2) in
  let ci := circle q2 (negb (c_left c1)) (c_forward c1) true (hc_cc_param kappa_ sigma_) in
  rs_turn_assert cstart q1 /\ hc_turn_assert ci q1 /\ hc_turn_assert cend q4))).

(** src/hc_cc_state_space/hcpmpm_reeds_shepp_state_space.cpp:705-727 *)
Definition calls_HCpmpmR_TcTeST (kappa_ sigma_ angle_ : R) (c1 c2 : Circle) : Prop :=
  let theta := angle_ in
  let delta_x := 2 * (Rabs (c_kappa_inv c2)) in
  let delta_y := 0 in
  let '(x, y) := global_frame_change (c_xc c1) (c_yc c1) theta delta_x delta_y in
  let tgt1 := circle_at x y (c_left c2) (negb (c_forward c2)) (c_regular c2) (hc_cc_param kappa_ sigma_) in
  let q1 := ModelHCpmpmR.TcT_tangent_circles c1 tgt1 in
  let '(q2, q3) := ModelHCpmpmR.TeST_tangent_circles kappa_ sigma_ tgt1 c2 in
  let cstart := c1 in
  let cend := circle q3 (c_left c2) (negb (c_forward c2)) false (hc_cc_param kappa_ sigma_) in
  let q4 := configuration (q_x (c_start c2)) (q_y (c_start c2)) (q_theta (c_start c2)) (c_kappa c2) in
  let ci := circle q2 (negb (c_left c1)) (c_forward c1) true (hc_cc_param kappa_ sigma_) in
  rs_turn_assert cstart q1 /\ hc_turn_assert ci q1 /\ hc_turn_assert cend q4.

(** src/hc_cc_state_space/hcpmpm_reeds_shepp_state_space.cpp:777-802 *)
Definition calls_HCpmpmR_TcTiSTcT (kappa_ sigma_ distance_ angle_ : R) (c1 c2 : Circle) : Prop :=
  let theta := angle_ in
  given (fdiv ((4 * (p_radius (hc_cc_param kappa_ sigma_))) * (p_cos_mu (hc_cc_param kappa_ sigma_))) (distance_ * (Rabs (c_kappa c1)))) (fun delta_y =>
  given (fsqrt (((2 * (c_kappa_inv c1)) ^ 2) - (delta_y ^ 2))) (fun delta_x =>
  let '(x, y) := global_frame_change (c_xc c1) (c_yc c1) theta delta_x delta_y in
  let tgt1 := circle_at x y (negb (c_left c1)) (negb (c_forward c1)) (c_regular c1) (hc_cc_param kappa_ sigma_) in
  let '(x, y) := global_frame_change (c_xc c2) (c_yc c2) theta (- delta_x) (- delta_y) in
  let tgt2 := circle_at x y (negb (c_left c2)) (c_forward c2) (c_regular c2) (hc_cc_param kappa_ sigma_) in
  let q1 := ModelHCpmpmR.TcT_tangent_circles c1 tgt1 in
  given (ModelHCpmpmR.TiST_tangent_circles kappa_ sigma_ tgt1 tgt2) (fun '(q2, q3) =>
  let q4 := ModelHCpmpmR.TcT_tangent_circles tgt2 c2 in
  let cstart := c1 in
  let cend := c2 in
  let ci1 := circle q2 (negb (c_left c1)) (c_forward c1) true (hc_cc_param kappa_ sigma_) in
  let ci2 := circle q3 (negb (c_left c2)) (c_forward c2) true (hc_cc_param kappa_ sigma_) in
  rs_turn_assert cstart q1 /\ hc_turn_assert ci1 q1 /\ hc_turn_assert ci2 q4 /\ rs_turn_assert cend q4))).

(** src/hc_cc_state_space/hcpmpm_reeds_shepp_state_space.cpp:804-829 *)
Definition calls_HCpmpmR_TcTeSTcT (kappa_ sigma_ angle_ : R) (c1 c2 : Circle) : Prop :=
  let theta := angle_ in
  let delta_x := 2 * (Rabs (c_kappa_inv c1)) in
  let delta_y := 0 in
  let '(x, y) := global_frame_change (c_xc c1) (c_yc c1) theta delta_x delta_y in
  let tgt1 := circle_at x y (negb (c_left c1)) (negb (c_forward c1)) (c_regular c1) (hc_cc_param kappa_ sigma_) in
  let '(x, y) := global_frame_change (c_xc c2) (c_yc c2) theta (- delta_x) delta_y in
  let tgt2 := circle_at x y (negb (c_left c2)) (c_forward c2) (c_regular c2) (hc_cc_param kappa_ sigma_) in
  let q1 := ModelHCpmpmR.TcT_tangent_circles c1 tgt1 in
  let '(q2, q3) := ModelHCpmpmR.TeST_tangent_circles kappa_ sigma_ tgt1 tgt2 in
  let q4 := ModelHCpmpmR.TcT_tangent_circles tgt2 c2 in
  let cstart := c1 in
  let cend := c2 in
  let ci1 := circle q2 (negb (c_left c1)) (c_forward c1) true (hc_cc_param kappa_ sigma_) in
  let ci2 := circle q3 (negb (c_left c2)) (c_forward c2) true (hc_cc_param kappa_ sigma_) in
  rs_turn_assert cstart q1 /\ hc_turn_assert ci1 q1 /\ hc_turn_assert ci2 q4 /\ rs_turn_assert cend q4.

(** src/hc_cc_state_space/hcpmpm_reeds_shepp_state_space.cpp:897-956 *)
Definition calls_HCpmpmR_TTcTT (kappa_ sigma_ distance_ angle_ : R) (c1 c2 : Circle) : Prop :=
  given (ModelHCpmpmR.TTcTT_tangent_circles kappa_ sigma_ distance_ angle_ c1 c2) (fun '(qa, qb, qc, qd, qe, qf) =>
  let start1 := circle qa (c_left c1) (negb (c_forward c1)) false (hc_cc_param kappa_ sigma_) in
  let middle1 := circle qa (negb (c_left c1)) (c_forward c1) true (hc_cc_param kappa_ sigma_) in
  let middle2 := circle qc (negb (c_left c2)) (c_forward c2) true (hc_cc_param kappa_ sigma_) in
  let end1 := circle qc (c_left c2) (negb (c_forward c2)) false (hc_cc_param kappa_ sigma_) in
  let start2 := circle qd (c_left c1) (negb (c_forward c1)) false (hc_cc_param kappa_ sigma_) in
  let middle3 := circle qd (negb (c_left c1)) (c_forward c1) true (hc_cc_param kappa_ sigma_) in
  let middle4 := circle qf (negb (c_left c2)) (c_forward c2) true (hc_cc_param kappa_ sigma_) in
  let end2 := circle qf (c_left c2) (negb (c_forward c2)) false (hc_cc_param kappa_ sigma_) in
  let q1 := configuration (q_x (c_start c1)) (q_y (c_start c1)) (q_theta (c_start c1)) (c_kappa c1) in
  let q3 := configuration (q_x (c_start c2)) (q_y (c_start c2)) (q_theta (c_start c2)) (c_kappa c2) in
  hc_turn_assert start1 q1 /\ hc_turn_assert middle1 qb /\ hc_turn_assert middle2 qb /\ hc_turn_assert end1 q3 /\ hc_turn_assert start2 q1 /\ hc_turn_assert middle3 qe /\ hc_turn_assert middle4 qe /\ hc_turn_assert end2 q3).

(** src/hc_cc_state_space/hcpmpm_reeds_shepp_state_space.cpp:1002-1050 *)
Definition calls_HCpmpmR_TcTTcT (kappa_ sigma_ distance_ angle_ : R) (c1 c2 : Circle) : Prop :=
  given (ModelHCpmpmR.TcTTcT_tangent_circles kappa_ sigma_ distance_ angle_ c1 c2) (fun '(qa, qb, qc, qd, qe, qf) =>
  let middle1 := circle qb (negb (c_left c1)) (c_forward c1) true (hc_cc_param kappa_ sigma_) in
  let middle2 := circle qb (c_left c1) (negb (c_forward c1)) true (hc_cc_param kappa_ sigma_) in
  let middle3 := circle qe (negb (c_left c1)) (c_forward c1) true (hc_cc_param kappa_ sigma_) in
  let middle4 := circle qe (c_left c1) (negb (c_forward c1)) true (hc_cc_param kappa_ sigma_) in
  let cstart := c1 in
  let cend := c2 in
  rs_turn_assert cstart qa /\ hc_turn_assert middle1 qa /\ hc_turn_assert middle2 qc /\ rs_turn_assert cend qc /\ rs_turn_assert cstart qd /\ hc_turn_assert middle3 qd /\ hc_turn_assert middle4 qf /\ rs_turn_assert cend qf).

(** src/hc_cc_state_space/hcpmpm_reeds_shepp_state_space.cpp:1088-1136 *)
Definition calls_HCpmpmR_TTT (kappa_ sigma_ distance_ angle_ : R) (c1 c2 : Circle) : Prop :=
  given (ModelHCpmpmR.TTT_tangent_circles kappa_ sigma_ distance_ angle_ c1 c2) (fun '(qa, qb, qc, qd) =>
  let start1 := circle qa (c_left c1) (negb (c_forward c1)) false (hc_cc_param kappa_ sigma_) in
  let middle1 := circle qa (negb (c_left c1)) (c_forward c1) false (hc_cc_param kappa_ sigma_) in
  let end1 := circle qb (c_left c2) (negb (c_forward c2)) false (hc_cc_param kappa_ sigma_) in
  let start2 := circle qc (c_left c1) (negb (c_forward c1)) false (hc_cc_param kappa_ sigma_) in
  let middle2 := circle qc (negb (c_left c1)) (c_forward c1) false (hc_cc_param kappa_ sigma_) in
  let end2 := circle qd (c_left c2) (negb (c_forward c2)) false (hc_cc_param kappa_ sigma_) in
  let q1 := configuration (q_x (c_start c1)) (q_y (c_start c1)) (q_theta (c_start c1)) (c_kappa c1) in
  let q3 := configuration (q_x (c_start c2)) (q_y (c_start c2)) (q_theta (c_start c2)) (c_kappa c2) in
  hc_turn_assert start1 q1 /\ cc_turn_assert qb /\ hc_turn_assert end1 q3 /\ hc_turn_assert start2 q1 /\ cc_turn_assert qd /\ hc_turn_assert end2 q3).

(** src/hc_cc_state_space/hcpmpm_reeds_shepp_state_space.cpp:1172-1217 *)
Definition calls_HCpmpmR_TciST (kappa_ sigma_ distance_ angle_ : R) (c1 c2 : Circle) : Prop :=
  given (fdiv (((p_radius (hc_cc_param kappa_ sigma_)) * (p_cos_mu (hc_cc_param kappa_ sigma_))) + (Rabs (c_kappa_inv c1))) distance_) (fun t1 =>
  given (fasin t1) (fun alpha =>
  let delta_x1 := 0 in
  let delta_y1 := Rabs (c_kappa_inv c1) in
  let delta_x2 := (p_radius (hc_cc_param kappa_ sigma_)) * (p_sin_mu (hc_cc_param kappa_ sigma_)) in
  let delta_y2 := (p_radius (hc_cc_param kappa_ sigma_)) * (p_cos_mu (hc_cc_param kappa_ sigma_)) in
  let '(q1, q2) := if (c_left c1) && (c_forward c1) then let theta := angle_ - alpha in
  let '(x, y) := global_frame_change (c_xc c1) (c_yc c1) theta (- delta_x1) delta_y1 in
  let q1 := configuration x y (theta + PI) (c_kappa c1) in
  let '(x, y) := global_frame_change (c_xc c2) (c_yc c2) theta (- delta_x2) (- delta_y2) in
  let q2 := configuration x y (theta + PI) 0 in (q1, q2) else if (c_left c1) && (negb (c_forward c1)) then let theta := angle_ + alpha in
  let '(x, y) := global_frame_change (c_xc c1) (c_yc c1) theta (- delta_x1) (- delta_y1) in
  let q1 := configuration x y theta (c_kappa c1) in
  let '(x, y) := global_frame_change (c_xc c2) (c_yc c2) theta (- delta_x2) delta_y2 in
  let q2 := configuration x y theta 0 in (q1, q2) else if (negb (c_left c1)) && (c_forward c1) then let theta := angle_ + alpha in
  let '(x, y) := global_frame_change (c_xc c1) (c_yc c1) theta (- delta_x1) (- delta_y1) in
  let q1 := configuration x y (theta + PI) (c_kappa c1) in
  let '(x, y) := global_frame_change (c_xc c2) (c_yc c2) theta (- delta_x2) delta_y2 in
  let q2 := configuration x y (theta + PI) 0 in (q1, q2) else let theta := angle_ - alpha in
  let '(x, y) := global_frame_change (c_xc c1) (c_yc c1) theta (- delta_x1) delta_y1 in
  let q1 := configuration x y theta (c_kappa c1) in
  let '(x, y) := global_frame_change (c_xc c2) (c_yc c2) theta (- delta_x2) (- delta_y2) in
  let q2 := configuration x y theta 0 in (q1, q2) in
  let q3 := configuration (q_x (c_start c2)) (q_y (c_start c2)) (q_theta (c_start c2)) (c_kappa c2) in
  let cstart := c1 in
  let cend := circle q2 (c_left c2) (negb (c_forward c2)) false (hc_cc_param kappa_ sigma_) in
  rs_turn_assert cstart q1 /\ hc_turn_assert cend q3)).

(** src/hc_cc_state_space/hcpmpm_reeds_shepp_state_space.cpp:1219-1264 *)
Definition calls_HCpmpmR_TceST (kappa_ sigma_ distance_ angle_ : R) (c1 c2 : Circle) : Prop :=
  given (fdiv (((p_radius (hc_cc_param kappa_ sigma_)) * (p_cos_mu (hc_cc_param kappa_ sigma_))) - (Rabs (c_kappa_inv c1))) distance_) (fun t1 =>
  given (fasin t1) (fun alpha =>
  let delta_x1 := 0 in
  let delta_y1 := Rabs (c_kappa_inv c1) in
  let delta_x2 := (p_radius (hc_cc_param kappa_ sigma_)) * (p_sin_mu (hc_cc_param kappa_ sigma_)) in
  let delta_y2 := (p_radius (hc_cc_param kappa_ sigma_)) * (p_cos_mu (hc_cc_param kappa_ sigma_)) in
  let '(q1, q2) := if (c_left c1) && (c_forward c1) then let theta := angle_ + alpha in
  let '(x, y) := global_frame_change (c_xc c1) (c_yc c1) theta (- delta_x1) delta_y1 in
  let q1 := configuration x y (theta + PI) (c_kappa c1) in
  let '(x, y) := global_frame_change (c_xc c2) (c_yc c2) theta (- delta_x2) delta_y2 in
  let q2 := configuration x y (theta + PI) 0 in (q1, q2) else if (c_left c1) && (negb (c_forward c1)) then let theta := angle_ - alpha in
  let '(x, y) := global_frame_change (c_xc c1) (c_yc c1) theta (- delta_x1) (- delta_y1) in
  let q1 := configuration x y theta (c_kappa c1) in
  let '(x, y) := global_frame_change (c_xc c2) (c_yc c2) theta (- delta_x2) (- delta_y2) in
  let q2 := configuration x y theta 0 in (q1, q2) else if (negb (c_left c1)) && (c_forward c1) then let theta := angle_ - alpha in
  let '(x, y) := global_frame_change (c_xc c1) (c_yc c1) theta (- delta_x1) (- delta_y1) in
  let q1 := configuration x y (theta + PI) (c_kappa c1) in
  let '(x, y) := global_frame_change (c_xc c2) (c_yc c2) theta (- delta_x2) (- delta_y2) in
  let q2 := configuration x y (theta + PI) 0 in (q1, q2) else let theta := angle_ + alpha in
  let '(x, y) := global_frame_change (c_xc c1) (c_yc c1) theta (- delta_x1) delta_y1 in
  let q1 := configuration x y theta (c_kappa c1) in
  let '(x, y) := global_frame_change (c_xc c2) (c_yc c2) theta (- delta_x2) delta_y2 in
  let q2 := configuration x y theta 0 in (q1, q2) in
  let q3 := configuration (q_x (c_start c2)) (q_y (c_start c2)) (q_theta (c_start c2)) (c_kappa c2) in
  let cstart := c1 in
  let cend := circle q2 (c_left c2) (negb (c_forward c2)) false (hc_cc_param kappa_ sigma_) in
  rs_turn_assert cstart q1 /\ hc_turn_assert cend q3)).

(** src/hc_cc_state_space/hcpmpm_reeds_shepp_state_space.cpp:1314-1359 *)
Definition calls_HCpmpmR_TiScT (kappa_ sigma_ distance_ angle_ : R) (c1 c2 : Circle) : Prop :=
  given (fdiv (((p_radius (hc_cc_param kappa_ sigma_)) * (p_cos_mu (hc_cc_param kappa_ sigma_))) + (Rabs (c_kappa_inv c1))) distance_) (fun t1 =>
  given (fasin t1) (fun alpha =>
  let delta_x1 := (p_radius (hc_cc_param kappa_ sigma_)) * (p_sin_mu (hc_cc_param kappa_ sigma_)) in
  let delta_y1 := (p_radius (hc_cc_param kappa_ sigma_)) * (p_cos_mu (hc_cc_param kappa_ sigma_)) in
  let delta_x2 := 0 in
  let delta_y2 := Rabs (c_kappa_inv c1) in
  let '(q2, q3) := if (c_left c1) && (c_forward c1) then let theta := angle_ + alpha in
  let '(x, y) := global_frame_change (c_xc c1) (c_yc c1) theta delta_x1 (- delta_y1) in
  let q2 := configuration x y theta 0 in
  let '(x, y) := global_frame_change (c_xc c2) (c_yc c2) theta delta_x2 delta_y2 in
  let q3 := configuration x y theta (c_kappa c2) in (q2, q3) else if (c_left c1) && (negb (c_forward c1)) then let theta := angle_ - alpha in
  let '(x, y) := global_frame_change (c_xc c1) (c_yc c1) theta delta_x1 delta_y1 in
  let q2 := configuration x y (theta + PI) 0 in
  let '(x, y) := global_frame_change (c_xc c2) (c_yc c2) theta delta_x2 (- delta_y2) in
  let q3 := configuration x y (theta + PI) (c_kappa c2) in (q2, q3) else if (negb (c_left c1)) && (c_forward c1) then let theta := angle_ - alpha in
  let '(x, y) := global_frame_change (c_xc c1) (c_yc c1) theta delta_x1 delta_y1 in
  let q2 := configuration x y theta 0 in
  let '(x, y) := global_frame_change (c_xc c2) (c_yc c2) theta delta_x2 (- delta_y2) in
  let q3 := configuration x y theta (c_kappa c2) in (q2, q3) else let theta := angle_ + alpha in
  let '(x, y) := global_frame_change (c_xc c1) (c_yc c1) theta delta_x1 (- delta_y1) in
  let q2 := configuration x y (theta + PI) 0 in
  let '(x, y) := global_frame_change (c_xc c2) (c_yc c2) theta delta_x2 delta_y2 in
  let q3 := configuration x y (theta + PI) (c_kappa c2) in (q2, q3) in
  let q1 := configuration (q_x (c_start c1)) (q_y (c_start c1)) (q_theta (c_start c1)) (c_kappa c1) in
  let cstart := circle q2 (c_left c1) (negb (c_forward c1)) false (hc_cc_param kappa_ sigma_) in
  let cend := c2 in
  hc_turn_assert cstart q1 /\ rs_turn_assert cend q3)).

(** src/hc_cc_state_space/hcpmpm_reeds_shepp_state_space.cpp:1361-1406 *)
Definition calls_HCpmpmR_TeScT (kappa_ sigma_ distance_ angle_ : R) (c1 c2 : Circle) : Prop :=
  given (fdiv (((p_radius (hc_cc_param kappa_ sigma_)) * (p_cos_mu (hc_cc_param kappa_ sigma_))) - (Rabs (c_kappa_inv c1))) distance_) (fun t1 =>
  given (fasin t1) (fun alpha =>
  let delta_x1 := (p_radius (hc_cc_param kappa_ sigma_)) * (p_sin_mu (hc_cc_param kappa_ sigma_)) in
  let delta_y1 := (p_radius (hc_cc_param kappa_ sigma_)) * (p_cos_mu (hc_cc_param kappa_ sigma_)) in
  let delta_x2 := 0 in
  let delta_y2 := Rabs (c_kappa_inv c1) in
  let '(q2, q3) := if (c_left c1) && (c_forward c1) then let theta := angle_ + alpha in
  let '(x, y) := global_frame_change (c_xc c1) (c_yc c1) theta delta_x1 (- delta_y1) in
  let q2 := configuration x y theta 0 in
  let '(x, y) := global_frame_change (c_xc c2) (c_yc c2) theta delta_x2 (- delta_y2) in
  let q3 := configuration x y theta (c_kappa c2) in (q2, q3) else if (c_left c1) && (negb (c_forward c1)) then let theta := angle_ - alpha in
  let '(x, y) := global_frame_change (c_xc c1) (c_yc c1) theta delta_x1 delta_y1 in
  let q2 := configuration x y (theta + PI) 0 in
  let '(x, y) := global_frame_change (c_xc c2) (c_yc c2) theta delta_x2 delta_y2 in
  let q3 := configuration x y (theta + PI) (c_kappa c2) in (q2, q3) else if (negb (c_left c1)) && (c_forward c1) then let theta := angle_ - alpha in
  let '(x, y) := global_frame_change (c_xc c1) (c_yc c1) theta delta_x1 delta_y1 in
  let q2 := configuration x y theta 0 in
  let '(x, y) := global_frame_change (c_xc c2) (c_yc c2) theta delta_x2 delta_y2 in
  let q3 := configuration x y theta (c_kappa c2) in (q2, q3) else let theta := angle_ + alpha in
  let '(x, y) := global_frame_change (c_xc c1) (c_yc c1) theta delta_x1 (- delta_y1) in
  let q2 := configuration x y (theta + PI) 0 in
  let '(x, y) := global_frame_change (c_xc c2) (c_yc c2) theta delta_x2 (- delta_y2) in
  let q3 := configuration x y (theta + PI) (c_kappa c2) in (q2, q3) in
  let q1 := configuration (q_x (c_start c1)) (q_y (c_start c1)) (q_theta (c_start c1)) (c_kappa c1) in
  let cstart := circle q2 (c_left c1) (negb (c_forward c1)) false (hc_cc_param kappa_ sigma_) in
  let cend := c2 in
  hc_turn_assert cstart q1 /\ rs_turn_assert cend q3)).

(** src/hc_cc_state_space/hcpmpm_reeds_shepp_state_space.cpp:1454-1496 *)
Definition calls_HCpmpmR_TciScT (distance_ angle_ : R) (c1 c2 : Circle) : Prop :=
  given (fdiv 2 ((Rabs (c_kappa c1)) * distance_)) (fun t1 =>
  given (fasin t1) (fun alpha =>
  let delta_x := 0 in
  let delta_y := Rabs (c_kappa_inv c1) in
  let '(q1, q2) := if (c_left c1) && (c_forward c1) then let theta := angle_ - alpha in
  let '(x, y) := global_frame_change (c_xc c1) (c_yc c1) theta (- delta_x) delta_y in
  let q1 := configuration x y (theta + PI) (c_kappa c1) in
  let '(x, y) := global_frame_change (c_xc c2) (c_yc c2) theta delta_x (- delta_y) in
  let q2 := configuration x y (theta + PI) (c_kappa c2) in (q1, q2) else if (c_left c1) && (negb (c_forward c1)) then let theta := angle_ + alpha in
  let '(x, y) := global_frame_change (c_xc c1) (c_yc c1) theta (- delta_x) (- delta_y) in
  let q1 := configuration x y theta (c_kappa c1) in
  let '(x, y) := global_frame_change (c_xc c2) (c_yc c2) theta delta_x delta_y in
  let q2 := configuration x y theta (c_kappa c2) in (q1, q2) else if (negb (c_left c1)) && (c_forward c1) then let theta := angle_ + alpha in
  let '(x, y) := global_frame_change (c_xc c1) (c_yc c1) theta (- delta_x) (- delta_y) in
  let q1 := configuration x y (theta + PI) (c_kappa c1) in
  let '(x, y) := global_frame_change (c_xc c2) (c_yc c2) theta delta_x delta_y in
  let q2 := configuration x y (theta + PI) (c_kappa c2) in (q1, q2) else let theta := angle_ - alpha in
  let '(x, y) := global_frame_change (c_xc c1) (c_yc c1) theta (- delta_x) delta_y in
  let q1 := configuration x y theta (c_kappa c1) in
  let '(x, y) := global_frame_change (c_xc c2) (c_yc c2) theta delta_x (- delta_y) in
  let q2 := configuration x y theta (c_kappa c2) in (q1, q2) in
  let cstart := c1 in
  let cend := c2 in
  rs_turn_assert cstart q1 /\ rs_turn_assert cend q2)).

(** src/hc_cc_state_space/hcpmpm_reeds_shepp_state_space.cpp:1498-1536 *)
Definition calls_HCpmpmR_TceScT (angle_ : R) (c1 c2 : Circle) : Prop :=
  let theta := angle_ in
  let delta_x := 0 in
  let delta_y := Rabs (c_kappa_inv c1) in
  let '(q1, q2) := if (c_left c1) && (c_forward c1) then let '(x, y) := global_frame_change (c_xc c1) (c_yc c1) theta (- delta_x) delta_y in
  let q1 := configuration x y (theta + PI) (c_kappa c1) in
  let '(x, y) := global_frame_change (c_xc c2) (c_yc c2) theta delta_x delta_y in
  let q2 := configuration x y (theta + PI) (c_kappa c2) in (q1, q2) else if (c_left c1) && (negb (c_forward c1)) then let '(x, y) := global_frame_change (c_xc c1) (c_yc c1) theta (- delta_x) (- delta_y) in
  let q1 := configuration x y theta (c_kappa c1) in
  let '(x, y) := global_frame_change (c_xc c2) (c_yc c2) theta delta_x (- delta_y) in
  let q2 := configuration x y theta (c_kappa c2) in (q1, q2) else if (negb (c_left c1)) && (c_forward c1) then let '(x, y) := global_frame_change (c_xc c1) (c_yc c1) theta (- delta_x) (- delta_y) in
  let q1 := configuration x y (theta + PI) (c_kappa c1) in
  let '(x, y) := global_frame_change (c_xc c2) (c_yc c2) theta delta_x (- delta_y) in
  let q2 := configuration x y (theta + PI) (c_kappa c2) in (q1, q2) else let '(x, y) := global_frame_change (c_xc c1) (c_yc c1) theta (- delta_x) delta_y in
  let q1 := configuration x y theta (c_kappa c1) in
  let '(x, y) := global_frame_change (c_xc c2) (c_yc c2) theta delta_x delta_y in
  let q2 := configuration x y theta (c_kappa c2) in (q1, q2) in
  let cstart := c1 in
  let cend := c2 in
  rs_turn_assert cstart q1 /\ rs_turn_assert cend q2.

(** src/hc_cc_state_space/hcpmpm_reeds_shepp_state_space.cpp:1568-1736: all calls for two circles. *)
Definition calls_HCpmpmR (kappa_ sigma_ : R) (c1 c2 : Circle) : Prop :=
  let distance_ := center_distance c1 c2 in
  let angle_ := atan2 (c_yc c2 - c_yc c1) (c_xc c2 - c_xc c1) in
  rs_turn_assert (circle (c_start c1) (c_left c1) (c_forward c1) true (rs_param kappa_)) (c_start c2) /\
  calls_HCpmpmR_TT kappa_ sigma_ c1 c2 /\
  calls_HCpmpmR_TcT c1 c2 /\
  calls_HCpmpmR_TcTcT kappa_ distance_ angle_ c1 c2 /\
  calls_HCpmpmR_TcTT kappa_ sigma_ distance_ angle_ c1 c2 /\
  calls_HCpmpmR_TTcT kappa_ sigma_ distance_ angle_ c1 c2 /\
  calls_HCpmpmR_TiST kappa_ sigma_ c1 c2 /\
  calls_HCpmpmR_TeST kappa_ sigma_ c1 c2 /\
  calls_HCpmpmR_TiSTcT kappa_ sigma_ distance_ angle_ c1 c2 /\
  calls_HCpmpmR_TeSTcT kappa_ sigma_ angle_ c1 c2 /\
  calls_HCpmpmR_TcTiST kappa_ sigma_ distance_ angle_ c1 c2 /\
  calls_HCpmpmR_TcTeST kappa_ sigma_ angle_ c1 c2 /\
  calls_HCpmpmR_TcTiSTcT kappa_ sigma_ distance_ angle_ c1 c2 /\
  calls_HCpmpmR_TcTeSTcT kappa_ sigma_ angle_ c1 c2 /\
  calls_HCpmpmR_TTcTT kappa_ sigma_ distance_ angle_ c1 c2 /\
  calls_HCpmpmR_TcTTcT kappa_ sigma_ distance_ angle_ c1 c2 /\
  calls_HCpmpmR_TTT kappa_ sigma_ distance_ angle_ c1 c2 /\
  calls_HCpmpmR_TciST kappa_ sigma_ distance_ angle_ c1 c2 /\
  calls_HCpmpmR_TceST kappa_ sigma_ distance_ angle_ c1 c2 /\
  calls_HCpmpmR_TiScT kappa_ sigma_ distance_ angle_ c1 c2 /\
  calls_HCpmpmR_TeScT kappa_ sigma_ distance_ angle_ c1 c2 /\
  calls_HCpmpmR_TciScT distance_ angle_ c1 c2 /\
  calls_HCpmpmR_TceScT angle_ c1 c2.

(** * Properties C67 and C68: the HC/CC planners in other frames *)
From Coq Require Import Reals ZArith List.
From Verif Require Import Base ModelUtil ModelCircle ModelPaths ModelWrap SpecPath SpecSide SpecOpt SpecRigid RigidTests MovedCases MovedWrap.
From Verif Require ModelCC00D MovedCC00D ModelCC0pmD MovedCC0pmD ModelCCpm0D MovedCCpm0D ModelCCpmpmD MovedCCpmpmD ModelCC00R MovedCC00R ModelHC00R MovedHC00R ModelHC0pmR MovedHC0pmR ModelHCpm0R MovedHCpm0R ModelHCpmpmR MovedHCpmpmR.
Import ListNotations.
Open Scope R_scope.

(** C67: distances and controls do not change if start and goal are shifted, *)
Theorem C67_shift (u v k s : R) (forward : bool) (s1 s2 : State) :
  (ModelCC00D.get_distance k s forward (shift u v s1) (shift u v s2) = ModelCC00D.get_distance k s forward s1 s2 /\ ModelCC00D.get_controls k s forward (shift u v s1) (shift u v s2) = ModelCC00D.get_controls k s forward s1 s2) /\
  (ModelCC0pmD.get_distance k s forward (shift u v s1) (shift u v s2) = ModelCC0pmD.get_distance k s forward s1 s2 /\ ModelCC0pmD.get_controls k s forward (shift u v s1) (shift u v s2) = ModelCC0pmD.get_controls k s forward s1 s2) /\
  (ModelCCpm0D.get_distance k s forward (shift u v s1) (shift u v s2) = ModelCCpm0D.get_distance k s forward s1 s2 /\ ModelCCpm0D.get_controls k s forward (shift u v s1) (shift u v s2) = ModelCCpm0D.get_controls k s forward s1 s2) /\
  (ModelCCpmpmD.get_distance k s forward (shift u v s1) (shift u v s2) = ModelCCpmpmD.get_distance k s forward s1 s2 /\ ModelCCpmpmD.get_controls k s forward (shift u v s1) (shift u v s2) = ModelCCpmpmD.get_controls k s forward s1 s2) /\
  (ModelCC00R.get_distance k s (shift u v s1) (shift u v s2) = ModelCC00R.get_distance k s s1 s2 /\ ModelCC00R.get_controls k s (shift u v s1) (shift u v s2) = ModelCC00R.get_controls k s s1 s2) /\
  (ModelHC00R.get_distance k s (shift u v s1) (shift u v s2) = ModelHC00R.get_distance k s s1 s2 /\ ModelHC00R.get_controls k s (shift u v s1) (shift u v s2) = ModelHC00R.get_controls k s s1 s2) /\
  (ModelHC0pmR.get_distance k s (shift u v s1) (shift u v s2) = ModelHC0pmR.get_distance k s s1 s2 /\ ModelHC0pmR.get_controls k s (shift u v s1) (shift u v s2) = ModelHC0pmR.get_controls k s s1 s2) /\
  (ModelHCpm0R.get_distance k s (shift u v s1) (shift u v s2) = ModelHCpm0R.get_distance k s s1 s2 /\ ModelHCpm0R.get_controls k s (shift u v s1) (shift u v s2) = ModelHCpm0R.get_controls k s s1 s2) /\
  (ModelHCpmpmR.get_distance k s (shift u v s1) (shift u v s2) = ModelHCpmpmR.get_distance k s s1 s2 /\ ModelHCpmpmR.get_controls k s (shift u v s1) (shift u v s2) = ModelHCpmpmR.get_controls k s s1 s2).
Proof.
  rewrite !shift_rigid.
  exact (conj (MovedCC00D.cc00_dubins_moved u v 0 k s forward s1 s2 (or_introl eq_refl)) (conj (MovedCC0pmD.cc0pm_dubins_moved u v 0 k s forward s1 s2 (or_introl eq_refl)) (conj (MovedCCpm0D.ccpm0_dubins_moved u v 0 k s forward s1 s2 (or_introl eq_refl)) (conj (MovedCCpmpmD.ccpmpm_dubins_moved u v 0 k s forward s1 s2 (or_introl eq_refl)) (conj (MovedCC00R.cc00_reeds_shepp_moved u v 0 k s s1 s2 (or_introl eq_refl)) (conj (MovedHC00R.hc00_reeds_shepp_moved u v 0 k s s1 s2 (or_introl eq_refl)) (conj (MovedHC0pmR.hc0pm_reeds_shepp_moved u v 0 k s s1 s2 (or_introl eq_refl)) (conj (MovedHCpm0R.hcpm0_reeds_shepp_moved u v 0 k s s1 s2 (or_introl eq_refl)) (MovedHCpmpmR.hcpmpm_reeds_shepp_moved u v 0 k s s1 s2 (or_introl eq_refl)))))))))).
Qed.
Print Assumptions C67_shift.

Example C67_shift_case : shift 3 4 (mkState 1 2 PI 0 1) = mkState (1 + 3) (2 + 4) PI 0 1.
Proof. reflexivity. Qed.

(** nor if full turns are added to the headings. *)
Theorem C67_turns (k s : R) (forward : bool) (s1 s2 s1' s2' : State) :
  same_but_turns s1 s1' -> same_but_turns s2 s2' ->
  (ModelCC00D.get_distance k s forward s1' s2' = ModelCC00D.get_distance k s forward s1 s2 /\ ModelCC00D.get_controls k s forward s1' s2' = ModelCC00D.get_controls k s forward s1 s2) /\
  (ModelCC0pmD.get_distance k s forward s1' s2' = ModelCC0pmD.get_distance k s forward s1 s2 /\ ModelCC0pmD.get_controls k s forward s1' s2' = ModelCC0pmD.get_controls k s forward s1 s2) /\
  (ModelCCpm0D.get_distance k s forward s1' s2' = ModelCCpm0D.get_distance k s forward s1 s2 /\ ModelCCpm0D.get_controls k s forward s1' s2' = ModelCCpm0D.get_controls k s forward s1 s2) /\
  (ModelCCpmpmD.get_distance k s forward s1' s2' = ModelCCpmpmD.get_distance k s forward s1 s2 /\ ModelCCpmpmD.get_controls k s forward s1' s2' = ModelCCpmpmD.get_controls k s forward s1 s2) /\
  (ModelCC00R.get_distance k s s1' s2' = ModelCC00R.get_distance k s s1 s2 /\ ModelCC00R.get_controls k s s1' s2' = ModelCC00R.get_controls k s s1 s2) /\
  (ModelHC00R.get_distance k s s1' s2' = ModelHC00R.get_distance k s s1 s2 /\ ModelHC00R.get_controls k s s1' s2' = ModelHC00R.get_controls k s s1 s2) /\
  (ModelHC0pmR.get_distance k s s1' s2' = ModelHC0pmR.get_distance k s s1 s2 /\ ModelHC0pmR.get_controls k s s1' s2' = ModelHC0pmR.get_controls k s s1 s2) /\
  (ModelHCpm0R.get_distance k s s1' s2' = ModelHCpm0R.get_distance k s s1 s2 /\ ModelHCpm0R.get_controls k s s1' s2' = ModelHCpm0R.get_controls k s s1 s2) /\
  (ModelHCpmpmR.get_distance k s s1' s2' = ModelHCpmpmR.get_distance k s s1 s2 /\ ModelHCpmpmR.get_controls k s s1' s2' = ModelHCpmpmR.get_controls k s s1 s2).
Proof.
  exact (fun H1 H2 => (conj (MovedCC00D.cc00_dubins_turns k s forward s1 s2 s1' s2' H1 H2) (conj (MovedCC0pmD.cc0pm_dubins_turns k s forward s1 s2 s1' s2' H1 H2) (conj (MovedCCpm0D.ccpm0_dubins_turns k s forward s1 s2 s1' s2' H1 H2) (conj (MovedCCpmpmD.ccpmpm_dubins_turns k s forward s1 s2 s1' s2' H1 H2) (conj (MovedCC00R.cc00_reeds_shepp_turns k s s1 s2 s1' s2' H1 H2) (conj (MovedHC00R.hc00_reeds_shepp_turns k s s1 s2 s1' s2' H1 H2) (conj (MovedHC0pmR.hc0pm_reeds_shepp_turns k s s1 s2 s1' s2' H1 H2) (conj (MovedHCpm0R.hcpm0_reeds_shepp_turns k s s1 s2 s1' s2' H1 H2) (MovedHCpmpmR.hcpmpm_reeds_shepp_turns k s s1 s2 s1' s2' H1 H2)))))))))).
Qed.
Print Assumptions C67_turns.

Example C67_turns_case : same_but_turns (mkState 1 2 1 0 1) (mkState 1 2 (1 + 2 * PI * IZR (-3)) 0 (-1)).
Proof. exact (conj eq_refl (conj eq_refl (conj (ex_intro _ (-3)%Z eq_refl) eq_refl))). Qed.

(** The same holds of the two spaces for states of any curvature, whose predicted states move along, *)
Theorem C67_any_curvature_shift (u v junk k s : R) (forward : bool) (s1 s2 : State) :
  (cc_dubins_distance junk k s forward (shift u v s1) (shift u v s2) = cc_dubins_distance junk k s forward s1 s2 /\ cc_dubins_controls junk k s forward (shift u v s1) (shift u v s2) = cc_dubins_controls junk k s forward s1 s2) /\
  (hc_rs_distance junk k s (shift u v s1) (shift u v s2) = hc_rs_distance junk k s s1 s2 /\ hc_rs_controls junk k s (shift u v s1) (shift u v s2) = hc_rs_controls junk k s s1 s2).
Proof. exact (any_curvature_shift u v junk k s forward s1 s2). Qed.
Print Assumptions C67_any_curvature_shift.

Example C67_any_curvature_shift_case : shift 3 4 (mkState 1 2 PI (1 / 2) 1) = mkState (1 + 3) (2 + 4) PI (1 / 2) 1.
Proof. reflexivity. Qed.

(** also with full turns added to the headings. *)
Theorem C67_any_curvature_turns (junk k s : R) (forward : bool) (s1 s2 s1' s2' : State) :
  same_but_turns s1 s1' -> same_but_turns s2 s2' ->
  (cc_dubins_distance junk k s forward s1' s2' = cc_dubins_distance junk k s forward s1 s2 /\ cc_dubins_controls junk k s forward s1' s2' = cc_dubins_controls junk k s forward s1 s2) /\
  (hc_rs_distance junk k s s1' s2' = hc_rs_distance junk k s s1 s2 /\ hc_rs_controls junk k s s1' s2' = hc_rs_controls junk k s s1 s2).
Proof. exact (any_curvature_turns junk k s forward s1 s2 s1' s2'). Qed.
Print Assumptions C67_any_curvature_turns.

Example C67_any_curvature_turns_case : same_but_turns (mkState 1 2 1 (1 / 2) 1) (mkState 1 2 (1 + 2 * PI * IZR 5) (1 / 2) (-1)).
Proof. exact (conj eq_refl (conj eq_refl (conj (ex_intro _ 5%Z eq_refl) eq_refl))). Qed.

(** C68: the full statement is, for all u, v, rho and all states, that distance and controls between the moved states
    are those between the states. It is false, see the end of the file: headings just above 0 and just below 2 pi
    are not taken for equal. Proved is the statement for states whose poses are not taken for equal or aligned,
    for which no single turn is accepted and whose turns have different centres. *)
Theorem C68_zero_curvature_partial (u v rho k s : R) (s1 s2 : State) :
  0 < k -> 0 < s -> epsilon < k / s -> distinct s1 s2 -> unaligned s1 s2 -> unaligned s2 s1 ->
  (forall left forward, no_turn_00 k s left forward s1 s2) ->
  (forall l1 l2 f1 f2, turn_centre k s l1 f1 s1 <> turn_centre k s l2 f2 s2) ->
  (ModelCC00R.get_distance k s (rigid u v rho s1) (rigid u v rho s2) = ModelCC00R.get_distance k s s1 s2 /\ ModelCC00R.get_controls k s (rigid u v rho s1) (rigid u v rho s2) = ModelCC00R.get_controls k s s1 s2) /\
  (ModelHC00R.get_distance k s (rigid u v rho s1) (rigid u v rho s2) = ModelHC00R.get_distance k s s1 s2 /\ ModelHC00R.get_controls k s (rigid u v rho s1) (rigid u v rho s2) = ModelHC00R.get_controls k s s1 s2).
Proof.
  exact (fun Hk Hs HE HD U1 U2 NT NC => conj (MovedCC00R.cc00_reeds_shepp_moved u v rho k s s1 s2 (or_intror (conj Hk (conj Hs (conj HE (conj HD (conj U1 (conj U2 (conj NT NC)))))))))
    (MovedHC00R.hc00_reeds_shepp_moved u v rho k s s1 s2 (or_intror (conj Hk (conj Hs (conj HE (conj HD (conj U1 (conj U2 (conj NT NC)))))))))).
Qed.
Print Assumptions C68_zero_curvature_partial.

Theorem C68_cc00_dubins_partial (u v rho k s : R) (forward : bool) (s1 s2 : State) :
  0 < k -> 0 < s -> epsilon < k / s -> distinct s1 s2 -> (if forward then unaligned s1 s2 else unaligned s2 s1) ->
  (forall left, no_turn_00 k s left forward s1 s2) ->
  (forall l1 l2, turn_centre k s l1 forward s1 <> turn_centre k s l2 (negb forward) s2) ->
  (ModelCC00D.get_distance k s forward (rigid u v rho s1) (rigid u v rho s2) = ModelCC00D.get_distance k s forward s1 s2 /\ ModelCC00D.get_controls k s forward (rigid u v rho s1) (rigid u v rho s2) = ModelCC00D.get_controls k s forward s1 s2).
Proof.
  exact (fun Hk Hs HE HD U NT NC => MovedCC00D.cc00_dubins_moved u v rho k s forward s1 s2 (or_intror (conj Hk (conj Hs (conj HE (conj HD (conj U (conj NT NC)))))))).
Qed.
Print Assumptions C68_cc00_dubins_partial.

(** The spaces that compare the centres before they accept a single turn only need different poses. *)
Theorem C68_one_end_partial (u v rho k s : R) (forward : bool) (s1 s2 : State) :
  0 < k -> 0 < s -> epsilon < k / s -> distinct s1 s2 ->
  (ModelCC0pmD.get_distance k s forward (rigid u v rho s1) (rigid u v rho s2) = ModelCC0pmD.get_distance k s forward s1 s2 /\ ModelCC0pmD.get_controls k s forward (rigid u v rho s1) (rigid u v rho s2) = ModelCC0pmD.get_controls k s forward s1 s2) /\
  (ModelCCpm0D.get_distance k s forward (rigid u v rho s1) (rigid u v rho s2) = ModelCCpm0D.get_distance k s forward s1 s2 /\ ModelCCpm0D.get_controls k s forward (rigid u v rho s1) (rigid u v rho s2) = ModelCCpm0D.get_controls k s forward s1 s2) /\
  (ModelHC0pmR.get_distance k s (rigid u v rho s1) (rigid u v rho s2) = ModelHC0pmR.get_distance k s s1 s2 /\ ModelHC0pmR.get_controls k s (rigid u v rho s1) (rigid u v rho s2) = ModelHC0pmR.get_controls k s s1 s2) /\
  (ModelHCpm0R.get_distance k s (rigid u v rho s1) (rigid u v rho s2) = ModelHCpm0R.get_distance k s s1 s2 /\ ModelHCpm0R.get_controls k s (rigid u v rho s1) (rigid u v rho s2) = ModelHCpm0R.get_controls k s s1 s2).
Proof.
  exact (fun Hk Hs HE HD => let H := or_intror (conj Hk (conj Hs (conj HE HD))) in (conj (MovedCC0pmD.cc0pm_dubins_moved u v rho k s forward s1 s2 H) (conj (MovedCCpm0D.ccpm0_dubins_moved u v rho k s forward s1 s2 H) (conj (MovedHC0pmR.hc0pm_reeds_shepp_moved u v rho k s s1 s2 H) (MovedHCpm0R.hcpm0_reeds_shepp_moved u v rho k s s1 s2 H))))).
Qed.
Print Assumptions C68_one_end_partial.

Theorem C68_curvature_bound_partial (u v rho k s : R) (forward : bool) (s1 s2 : State) :
  0 < k -> 0 < s -> epsilon < k / s -> distinct s1 s2 ->
  (forall left, on_side left s1 -> no_turn_pmpm k left s1 s2) ->
  (forall l1 l2, on_side l1 s1 -> on_side l2 s2 -> arc_centre k l1 s1 <> arc_centre k l2 s2) ->
  (ModelCCpmpmD.get_distance k s forward (rigid u v rho s1) (rigid u v rho s2) = ModelCCpmpmD.get_distance k s forward s1 s2 /\ ModelCCpmpmD.get_controls k s forward (rigid u v rho s1) (rigid u v rho s2) = ModelCCpmpmD.get_controls k s forward s1 s2) /\
  (ModelHCpmpmR.get_distance k s (rigid u v rho s1) (rigid u v rho s2) = ModelHCpmpmR.get_distance k s s1 s2 /\ ModelHCpmpmR.get_controls k s (rigid u v rho s1) (rigid u v rho s2) = ModelHCpmpmR.get_controls k s s1 s2).
Proof.
  exact (fun Hk Hs HE HD NT NC => let H := or_intror (conj Hk (conj Hs (conj HE (conj HD (conj NT NC))))) in (conj (MovedCCpmpmD.ccpmpm_dubins_moved u v rho k s forward s1 s2 H) (MovedHCpmpmR.hcpmpm_reeds_shepp_moved u v rho k s s1 s2 H))).
Qed.
Print Assumptions C68_curvature_bound_partial.

Example C68_case (ka kb : R) : let s1 := mkState 0 0 0 ka 1 in let s2 := mkState 60 80 1 kb 1 in
  0 < 1 /\ epsilon < 1 / 1 /\ distinct s1 s2 /\ unaligned s1 s2 /\ unaligned s2 s1 /\
  (forall l f, no_turn_00 1 1 l f s1 s2) /\ (forall l1 l2 f1 f2, turn_centre 1 1 l1 f1 s1 <> turn_centre 1 1 l2 f2 s2) /\
  (forall l, no_turn_pmpm 1 l s1 s2) /\ (forall l1 l2, arc_centre 1 l1 s1 <> arc_centre 1 l2 s2).
Proof. exact (moved_case ka kb). Qed.

(** The full statement fails: start and goal of the same pose up to half the tolerance. *)
Theorem C68_rotation_refuted : exists s1 s2 L,
  ModelCC0pmD.get_distance 1 1 true s1 s2 = Some (Some L) /\ 1 <= L /\
  ModelCC0pmD.get_distance 1 1 true (rigid 0 0 PI s1) (rigid 0 0 PI s2) = Some (Some 0).
Proof. exact rotation_refuted. Qed.
Print Assumptions C68_rotation_refuted.

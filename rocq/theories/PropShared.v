(** * Properties of calls on shared planning objects *)
From Coq Require Import Reals List.
From Verif Require Import Base ModelUtil ModelWrap ModelShared SpecShared SharedPlanners SharedRace WrapJunk.
Import ListNotations.
Open Scope R_scope.

(** Whatever was called before on whichever objects, and whatever the members held at first, a call returns the
    value computed without shared members. *)
Theorem C48_history (calls : list Call) (mem : Memory) (space : Space) (object : nat) (state1 state2 : State) :
  fst (run (space_distance space object state1 state2) (after calls mem)) = pure_distance space state1 state2 /\
  fst (run (space_controls space object state1 state2) (after calls mem)) = pure_controls space state1 state2.
Proof. exact (history_free calls mem space object state1 state2). Qed.
Print Assumptions C48_history.

(** Planning does change the members. *)
Example C48_case : exists c1 c2 (mem : Memory),
  snd (run (cc00d_table 1 1 true 0 c1 c2) mem) (0%nat, Distance) <> mem (0%nat, Distance).
Proof. exact members_change. Qed.

(** The full statement of C49, "two threads on the same object obtain the results of sequential calls", is
    refuted: a call that returns at least 900 on its own returns at most 90. *)
Theorem C49_refuted : exists s1 s2 s3 schedule mem mem' L L' b,
  let space := CC00_Dubins 1 1 true in
  (forall mem0, fst (run (space_distance space 0 s1 s2) mem0) = Some (Some L)) /\
  interleave schedule (space_distance space 0 s1 s2) (space_distance space 0 s1 s3) mem
    = (Done (Some (Some L')), Done b, mem') /\
  900 <= L /\ L' <= 90.
Proof. exact race. Qed.
Print Assumptions C49_refuted.

(** What holds: calls on different objects do not disturb each other. *)
Theorem C49_objects_partial (space1 space2 : Space) (object1 object2 : nat) (a b c d : State) : object1 <> object2 ->
  undisturbed (space_distance space1 object1 a b) (space_distance space2 object2 c d) /\
  undisturbed (space_distance space1 object1 a b) (space_controls space2 object2 c d) /\
  undisturbed (space_controls space1 object1 a b) (space_distance space2 object2 c d) /\
  undisturbed (space_controls space1 object1 a b) (space_controls space2 object2 c d).
Proof. exact (objects_apart space1 space2 object1 object2 a b c d). Qed.
Print Assumptions C49_objects_partial.

Example C49_case : forall (mem : Memory), 0%nat <> 1%nat /\
  exists schedule a b mem', interleave schedule
    (space_distance (HC_Reeds_Shepp 0 1 1) 0 (mkState 0 0 0 (1 / 2) 1) (mkState 5 0 0 0 1))
    (space_controls (CC_Dubins 0 1 1 true) 1 (mkState 0 0 0 0 1) (mkState 5 5 0 0 1)) mem = (Done a, Done b, mem').
Proof. intros mem; split; [discriminate | exact (finishing _ _ mem)]. Qed.

(** The direction stored in the given states and the uninitialised one of predicted states have no influence. *)
Theorem C56_cc_dubins (junk junk' k s : R) (forward : bool) (x1 y1 t1 k1 d1 d1' x2 y2 t2 k2 d2 d2' : R) :
  cc_dubins_distance junk k s forward (mkState x1 y1 t1 k1 d1) (mkState x2 y2 t2 k2 d2) =
    cc_dubins_distance junk' k s forward (mkState x1 y1 t1 k1 d1') (mkState x2 y2 t2 k2 d2') /\
  cc_dubins_controls junk k s forward (mkState x1 y1 t1 k1 d1) (mkState x2 y2 t2 k2 d2) =
    cc_dubins_controls junk' k s forward (mkState x1 y1 t1 k1 d1') (mkState x2 y2 t2 k2 d2').
Proof. exact (cc_junk junk junk' k s forward (mkState x1 y1 t1 k1 d1) (mkState x2 y2 t2 k2 d2)
  (mkState x1 y1 t1 k1 d1') (mkState x2 y2 t2 k2 d2') eq_refl eq_refl). Qed.
Print Assumptions C56_cc_dubins.

Theorem C56_hc_reeds_shepp (junk junk' k s : R) (x1 y1 t1 k1 d1 d1' x2 y2 t2 k2 d2 d2' : R) :
  hc_rs_distance junk k s (mkState x1 y1 t1 k1 d1) (mkState x2 y2 t2 k2 d2) =
    hc_rs_distance junk' k s (mkState x1 y1 t1 k1 d1') (mkState x2 y2 t2 k2 d2') /\
  hc_rs_controls junk k s (mkState x1 y1 t1 k1 d1) (mkState x2 y2 t2 k2 d2) =
    hc_rs_controls junk' k s (mkState x1 y1 t1 k1 d1') (mkState x2 y2 t2 k2 d2').
Proof. exact (hc_junk junk junk' k s (mkState x1 y1 t1 k1 d1) (mkState x2 y2 t2 k2 d2)
  (mkState x1 y1 t1 k1 d1') (mkState x2 y2 t2 k2 d2') eq_refl eq_refl). Qed.
Print Assumptions C56_hc_reeds_shepp.

(** A case in which a state is predicted, so that the uninitialised member is there to be read. *)
Example C56_case : exists p q, hc_predict_state 7 1 1 (mkState 0 0 0 (1 / 2) 1) = p :: q /\ st_d (fst p) = 7.
Proof. exact predicted_junk. Qed.

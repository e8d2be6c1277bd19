(** * The distances of the planners that may reverse against the planners that may not *)
From Coq Require Import Reals ZArith List Lra Lia Bool.
From Verif Require Import Base ModelUtil ModelCircle ModelPaths Num UtilProofs SpecPath SpecTurn SpecPlan PoseAlg TurnProofs PlanProofs PlanTactics PlanFamily PlanBounds PlanSelect RevProofs.
From Verif Require ModelCC00D ModelCC0pmD ModelCCpm0D ModelCCpmpmD ModelCC00R ModelHC00R ModelHC0pmR ModelHCpm0R ModelHCpmpmR.
From Verif Require CC00DProofs PlanCC00R PlanHC00R PlanHC0pmR PlanHCpm0R PlanHCpmpmR.
Import ListNotations.
Open Scope R_scope.

(** The circles of the one list are circles of the other. *)
Ltac rev_false := eexists _, _, _, _, _, _, _, _; split; [lia|split; [lia|split; [reflexivity|split; [reflexivity|split; [apply at_configuration|split; [apply at_configuration|repeat split; reflexivity]]]]]].
Ltac rev_circle SK A B := split; [lia|split; [lia|split; [cbn [Nat.eqb andb orb]; rewrite ?orb_false_r in *; exact SK|split; [exact A|exact B]]]].

Lemma hc00r_circles (k s : R) fw s1 s2 i j c1 c2 : ModelCC00D.skipped s1 s2 i j = false -> nth_error (ModelCC00D.start_circles k s fw s1) i = Some c1 -> nth_error (ModelCC00D.end_circles k s fw s2) j = Some c2 ->
  exists i' j', (i' < 4)%nat /\ (j' < 4)%nat /\ ModelHC00R.skipped s1 s2 i' j' = false /\ nth_error (ModelHC00R.start_circles k s s1) i' = Some c1 /\ nth_error (ModelHC00R.end_circles k s s2) j' = Some c2.
Proof.
  unfold ModelCC00D.skipped, ModelHC00R.skipped, ModelCC00D.start_circles, ModelCC00D.end_circles, ModelHC00R.start_circles, ModelHC00R.end_circles. intros SK A B.
  destruct fw; destruct i as [|[|[|]]]; try discriminate A; destruct j as [|[|[|]]]; try discriminate B; cbn [Nat.eqb andb orb] in SK; cbn [nth_error] in A, B.
  - exists 0%nat, 2%nat. rev_circle SK A B.
  - exists 0%nat, 3%nat. rev_circle SK A B.
  - exists 1%nat, 2%nat. rev_circle SK A B.
  - exists 1%nat, 3%nat. rev_circle SK A B.
  - exists 2%nat, 0%nat. rev_circle SK A B.
  - exists 2%nat, 1%nat. rev_circle SK A B.
  - exists 3%nat, 0%nat. rev_circle SK A B.
  - exists 3%nat, 1%nat. rev_circle SK A B.
Qed.
Lemma hc00r_plan k s fw s1 s2 p LD : ModelCC00D.cc00_dubins k s fw s1 s2 = Some p -> e_length (h_entry p) = Some LD -> LD < DBL_MAX -> pos_dist s1 s2 < DBL_MAX ->
  exists LR, ModelHC00R.get_distance k s s1 s2 = Some (Some LR) /\ (LR <= LD \/ LR <= pos_dist s1 s2).
Proof.
  intros P EL LM PM. apply select_path_in in P. unfold ModelCC00D.paths in P. apply paths_in in P. destruct P as (i & j & c1 & c2 & SK & N1 & N2 & S).
  unfold ModelCC00D.cc00_circles_dubins_path in S. apply select_entry_in in S. destruct S as (IN & _ & _). destruct (hc00r_circles k s fw s1 s2 i j c1 c2 SK N1 N2) as (i' & j' & LI & LJ & SK' & N1' & N2').
  destruct (CC00DProofs.circles_of k s fw s1 s2 i j c1 c2 N1 N2) as (l1 & l2 & H1 & H2).
  destruct (table_00 k s fw s1 s2 _ _ l1 fw l2 (negb fw) c1 c2 (at_configuration _ _) (at_configuration _ _) H1 H2 _ _ _ I IN EL LM) as (e' & w' & IN' & EW & LE).
  destruct (plan_exists hc_cc_rs_types (ModelHC00R.circles_table k s) (ModelHC00R.skipped s1 s2) (ModelHC00R.start_circles k s s1) (ModelHC00R.end_circles k s s2) 4 4 i' j' c1 c2 e' w' (PlanHC00R.table_first k s) (PlanHC00R.table_length k s) LI LJ SK' N1' N2' IN' EW ltac:(lra)) as (p' & L & P & EP & LM2 & LW).
  assert (PP : ModelHC00R.hc00_reeds_shepp k s s1 s2 = Some p') by exact P. exists L. unfold ModelHC00R.get_distance. rewrite PP. unfold path_distance. rewrite EP. split; [reflexivity|lra].
Qed.

Lemma hc0pmr_circles (k s : R) fw s1 s2 i j c1 c2 : ModelCC0pmD.skipped s1 s2 i j = false -> nth_error (ModelCC0pmD.start_circles k s fw s1) i = Some c1 -> nth_error (ModelCC0pmD.end_circles k fw s2) j = Some c2 ->
  exists i' j', (i' < 4)%nat /\ (j' < 4)%nat /\ ModelHC0pmR.skipped s1 s2 i' j' = false /\ nth_error (ModelHC0pmR.start_circles k s s1) i' = Some c1 /\ nth_error (ModelHC0pmR.end_circles k s2) j' = Some c2.
Proof.
  unfold ModelCC0pmD.skipped, ModelHC0pmR.skipped, ModelCC0pmD.start_circles, ModelCC0pmD.end_circles, ModelHC0pmR.start_circles, ModelHC0pmR.end_circles. intros SK A B.
  destruct fw; destruct i as [|[|[|]]]; try discriminate A; destruct j as [|[|[|]]]; try discriminate B; cbn [Nat.eqb andb orb] in SK; cbn [nth_error] in A, B.
  - exists 0%nat, 2%nat. rev_circle SK A B.
  - exists 0%nat, 3%nat. rev_circle SK A B.
  - exists 1%nat, 2%nat. rev_circle SK A B.
  - exists 1%nat, 3%nat. rev_circle SK A B.
  - exists 2%nat, 0%nat. rev_circle SK A B.
  - exists 2%nat, 1%nat. rev_circle SK A B.
  - exists 3%nat, 0%nat. rev_circle SK A B.
  - exists 3%nat, 1%nat. rev_circle SK A B.
Qed.
Lemma hc0pmr_plan k s fw s1 s2 p LD : ModelCC0pmD.cc0pm_dubins k s fw s1 s2 = Some p -> e_length (h_entry p) = Some LD -> LD < DBL_MAX -> 
  exists LR, ModelHC0pmR.get_distance k s s1 s2 = Some (Some LR) /\ LR <= LD.
Proof.
  intros P EL LM. apply select_path_in in P. unfold ModelCC0pmD.paths in P. apply paths_in in P. destruct P as (i & j & c1 & c2 & SK & N1 & N2 & S).
  unfold ModelCC0pmD.cc0pm_circles_dubins_path in S. apply select_entry_in in S. destruct S as (IN & _ & _). destruct (hc0pmr_circles k s fw s1 s2 i j c1 c2 SK N1 N2) as (i' & j' & LI & LJ & SK' & N1' & N2').
  destruct (table_0pm k s c1 c2 _ _ _ I IN EL LM) as (e' & w' & IN' & EW & LE).
  destruct (plan_exists hc_cc_rs_types (ModelHC0pmR.circles_table k s) (ModelHC0pmR.skipped s1 s2) (ModelHC0pmR.start_circles k s s1) (ModelHC0pmR.end_circles k s2) 4 4 i' j' c1 c2 e' w' (PlanHC0pmR.table_first k s) (PlanHC0pmR.table_length k s) LI LJ SK' N1' N2' IN' EW ltac:(lra)) as (p' & L & P & EP & LM2 & LW).
  assert (PP : ModelHC0pmR.hc0pm_reeds_shepp k s s1 s2 = Some p') by exact P. exists L. unfold ModelHC0pmR.get_distance. rewrite PP. unfold path_distance. rewrite EP. split; [reflexivity|lra].
Qed.

Lemma hcpm0r_circles (k s : R) fw s1 s2 i j c1 c2 : ModelCCpm0D.skipped s1 s2 i j = false -> nth_error (ModelCCpm0D.start_circles k fw s1) i = Some c1 -> nth_error (ModelCCpm0D.end_circles k s fw s2) j = Some c2 ->
  exists i' j', (i' < 4)%nat /\ (j' < 4)%nat /\ ModelHCpm0R.skipped s1 s2 i' j' = false /\ nth_error (ModelHCpm0R.start_circles k s1) i' = Some c1 /\ nth_error (ModelHCpm0R.end_circles k s s2) j' = Some c2.
Proof.
  unfold ModelCCpm0D.skipped, ModelHCpm0R.skipped, ModelCCpm0D.start_circles, ModelCCpm0D.end_circles, ModelHCpm0R.start_circles, ModelHCpm0R.end_circles. intros SK A B.
  destruct fw; destruct i as [|[|[|]]]; try discriminate A; destruct j as [|[|[|]]]; try discriminate B; cbn [Nat.eqb andb orb] in SK; cbn [nth_error] in A, B.
  - exists 0%nat, 2%nat. rev_circle SK A B.
  - exists 0%nat, 3%nat. rev_circle SK A B.
  - exists 1%nat, 2%nat. rev_circle SK A B.
  - exists 1%nat, 3%nat. rev_circle SK A B.
  - exists 2%nat, 0%nat. rev_circle SK A B.
  - exists 2%nat, 1%nat. rev_circle SK A B.
  - exists 3%nat, 0%nat. rev_circle SK A B.
  - exists 3%nat, 1%nat. rev_circle SK A B.
Qed.
Lemma hcpm0r_plan k s fw s1 s2 p LD : ModelCCpm0D.ccpm0_dubins k s fw s1 s2 = Some p -> e_length (h_entry p) = Some LD -> LD < DBL_MAX -> 
  exists LR, ModelHCpm0R.get_distance k s s1 s2 = Some (Some LR) /\ LR <= LD.
Proof.
  intros P EL LM. apply select_path_in in P. unfold ModelCCpm0D.paths in P. apply paths_in in P. destruct P as (i & j & c1 & c2 & SK & N1 & N2 & S).
  unfold ModelCCpm0D.ccpm0_circles_dubins_path in S. apply select_entry_in in S. destruct S as (IN & _ & _). destruct (hcpm0r_circles k s fw s1 s2 i j c1 c2 SK N1 N2) as (i' & j' & LI & LJ & SK' & N1' & N2').
  destruct (table_pm0 k s c1 c2 _ _ _ I IN EL LM) as (e' & w' & IN' & EW & LE).
  destruct (plan_exists hc_cc_rs_types (ModelHCpm0R.circles_table k s) (ModelHCpm0R.skipped s1 s2) (ModelHCpm0R.start_circles k s1) (ModelHCpm0R.end_circles k s s2) 4 4 i' j' c1 c2 e' w' (PlanHCpm0R.table_first k s) (PlanHCpm0R.table_length k s) LI LJ SK' N1' N2' IN' EW ltac:(lra)) as (p' & L & P & EP & LM2 & LW).
  assert (PP : ModelHCpm0R.hcpm0_reeds_shepp k s s1 s2 = Some p') by exact P. exists L. unfold ModelHCpm0R.get_distance. rewrite PP. unfold path_distance. rewrite EP. split; [reflexivity|lra].
Qed.

Lemma hcpmpmr_circles (k s : R) fw s1 s2 i j c1 c2 : ModelCCpmpmD.skipped s1 s2 i j = false -> nth_error (ModelCCpmpmD.start_circles k fw s1) i = Some c1 -> nth_error (ModelCCpmpmD.end_circles k fw s2) j = Some c2 ->
  exists i' j', (i' < 4)%nat /\ (j' < 4)%nat /\ ModelHCpmpmR.skipped s1 s2 i' j' = false /\ nth_error (ModelHCpmpmR.start_circles k s1) i' = Some c1 /\ nth_error (ModelHCpmpmR.end_circles k s2) j' = Some c2.
Proof.
  unfold ModelCCpmpmD.skipped, ModelHCpmpmR.skipped, ModelCCpmpmD.start_circles, ModelCCpmpmD.end_circles, ModelHCpmpmR.start_circles, ModelHCpmpmR.end_circles. intros SK A B.
  destruct fw; destruct i as [|[|[|]]]; try discriminate A; destruct j as [|[|[|]]]; try discriminate B; cbn [Nat.eqb andb orb] in SK; cbn [nth_error] in A, B.
  - exists 0%nat, 2%nat. rev_circle SK A B.
  - exists 0%nat, 3%nat. rev_circle SK A B.
  - exists 1%nat, 2%nat. rev_circle SK A B.
  - exists 1%nat, 3%nat. rev_circle SK A B.
  - exists 2%nat, 0%nat. rev_circle SK A B.
  - exists 2%nat, 1%nat. rev_circle SK A B.
  - exists 3%nat, 0%nat. rev_circle SK A B.
  - exists 3%nat, 1%nat. rev_circle SK A B.
Qed.
Lemma hcpmpmr_plan k s fw s1 s2 p LD : ModelCCpmpmD.ccpmpm_dubins k s fw s1 s2 = Some p -> e_length (h_entry p) = Some LD -> LD < DBL_MAX -> h_type p <> D_TTTT ->
  exists LR, ModelHCpmpmR.get_distance k s s1 s2 = Some (Some LR) /\ LR <= LD.
Proof.
  intros P EL LM NT. apply select_path_in in P. unfold ModelCCpmpmD.paths in P. apply paths_in in P. destruct P as (i & j & c1 & c2 & SK & N1 & N2 & S).
  unfold ModelCCpmpmD.ccpmpm_circles_dubins_path in S. apply select_entry_in in S. destruct S as (IN & _ & _). destruct (hcpmpmr_circles k s fw s1 s2 i j c1 c2 SK N1 N2) as (i' & j' & LI & LJ & SK' & N1' & N2').
  destruct (table_pmpm k s c1 c2 _ _ _ NT IN EL LM) as (e' & w' & IN' & EW & LE).
  destruct (plan_exists hc_cc_rs_types (ModelHCpmpmR.circles_table k s) (ModelHCpmpmR.skipped s1 s2) (ModelHCpmpmR.start_circles k s1) (ModelHCpmpmR.end_circles k s2) 4 4 i' j' c1 c2 e' w' (PlanHCpmpmR.table_first k s) (PlanHCpmpmR.table_length k s) LI LJ SK' N1' N2' IN' EW ltac:(lra)) as (p' & L & P & EP & LM2 & LW).
  assert (PP : ModelHCpmpmR.hcpmpm_reeds_shepp k s s1 s2 = Some p') by exact P. exists L. unfold ModelHCpmpmR.get_distance. rewrite PP. unfold path_distance. rewrite EP. split; [reflexivity|lra].
Qed.

Lemma cc00r_circles (k s : R) fw s1 s2 i j c1 c2 : nth_error (ModelCC00D.start_circles k s fw s1) i = Some c1 -> nth_error (ModelCC00D.end_circles k s fw s2) j = Some c2 ->
  exists i' j' a b l1 f1 l2 f2 d1 d2, (i' < 4)%nat /\ (j' < 4)%nat /\ nth_error (ModelCC00R.start_circles k s s1) i' = Some d1 /\ nth_error (ModelCC00R.end_circles k s s2) j' = Some d2 /\ at_conf s1 a /\ at_conf s2 b /\
    c1 = circle a l1 f1 true (hc_cc_param k s) /\ c2 = circle b l2 f2 true (hc_cc_param k s) /\ d1 = circle a l1 f1 false (hc_cc_param k s) /\ d2 = circle b l2 f2 false (hc_cc_param k s).
Proof.
  unfold ModelCC00D.start_circles, ModelCC00D.end_circles, ModelCC00R.start_circles, ModelCC00R.end_circles. intros A B.
  destruct fw; destruct i as [|[|[|]]]; try discriminate A; destruct j as [|[|[|]]]; try discriminate B; cbn [nth_error] in A, B;
    apply (f_equal (fun o => match o with Some x => x | None => c1 end)) in A; apply (f_equal (fun o => match o with Some x => x | None => c2 end)) in B; cbv beta iota in A, B; subst c1 c2.
  - exists 0%nat, 2%nat. rev_false.
  - exists 0%nat, 3%nat. rev_false.
  - exists 1%nat, 2%nat. rev_false.
  - exists 1%nat, 3%nat. rev_false.
  - exists 2%nat, 0%nat. rev_false.
  - exists 2%nat, 1%nat. rev_false.
  - exists 3%nat, 0%nat. rev_false.
  - exists 3%nat, 1%nat. rev_false.
Qed.
Lemma cc00r_plan k s fw s1 s2 p LD : ModelCC00D.cc00_dubins k s fw s1 s2 = Some p -> e_length (h_entry p) = Some LD -> LD < DBL_MAX -> pos_dist s1 s2 < DBL_MAX ->
  exists LR, ModelCC00R.get_distance k s s1 s2 = Some (Some LR) /\ (LR <= LD \/ LR <= pos_dist s1 s2).
Proof.
  intros P EL LM PM. apply select_path_in in P. unfold ModelCC00D.paths in P. apply paths_in in P. destruct P as (i & j & c1 & c2 & SK & N1 & N2 & S).
  unfold ModelCC00D.cc00_circles_dubins_path in S. apply select_entry_in in S. destruct S as (IN & _ & _).
  destruct (cc00r_circles k s fw s1 s2 i j c1 c2 N1 N2) as (i' & j' & a & b & l1 & f1 & l2 & f2 & d1 & d2 & LI & LJ & N1' & N2' & A & B & H1 & H2 & K1 & K2).
  destruct (table_cc00 k s fw s1 s2 a b l1 f1 l2 f2 c1 c2 d1 d2 A B H1 H2 K1 K2 _ _ _ I IN EL LM) as (e' & w' & IN' & EW & LE).
  destruct (plan_exists hc_cc_rs_types (ModelCC00R.circles_table k s) (ModelCC00R.skipped s1 s2) (ModelCC00R.start_circles k s s1) (ModelCC00R.end_circles k s s2) 4 4 i' j' d1 d2 e' w' (PlanCC00R.table_first k s) (PlanCC00R.table_length k s) LI LJ eq_refl N1' N2' IN' EW ltac:(lra)) as (p' & L & P & EP & LM2 & LW).
  assert (PP : ModelCC00R.cc00_reeds_shepp k s s1 s2 = Some p') by exact P. exists L. unfold ModelCC00R.get_distance. rewrite PP. unfold path_distance. rewrite EP. split; [reflexivity|lra].
Qed.

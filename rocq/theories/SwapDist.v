(** * The distances of the HC/CC planners with start and goal exchanged *)
From Coq Require Import Reals ZArith List Lra Lia Bool.
From Verif Require Import Base ModelUtil ModelCircle ModelPaths Num UtilProofs SpecPath SpecTurn SpecSide SpecOpt SpecRigid PoseAlg TurnProofs PlanProofs PlanFamily RigidBase RigidTactics RigidTests SwapBase SwapTactics SwapPlan SwapTables.
From Verif Require ModelCC00D ModelCC0pmD ModelCCpm0D ModelCCpmpmD ModelCC00R ModelHC00R ModelHC0pmR ModelHCpm0R ModelHCpmpmR.
From Verif Require MovedCC00D MovedCC0pmD MovedCCpm0D MovedCCpmpmD MovedCC00R MovedHC00R MovedHC0pmR MovedHCpm0R MovedHCpmpmR.
From Verif Require CC00DProofs PlanCC0pmD PlanCCpm0D PlanCCpmpmD PlanCC00R PlanHC00R PlanHC0pmR PlanHCpm0R PlanHCpmpmR.
Import ListNotations.
Open Scope R_scope.

Lemma gap_sym p q : gap p q = gap q p.
Proof. unfold gap. f_equal. ring. Qed.
Lemma no_turn_00_back k s l f s1 s2 : no_turn_00 k s l (negb f) s1 s2 -> no_turn_00 k s l f s2 s1.
Proof. unfold no_turn_00. rewrite negb_involutive, gap_sym. auto. Qed.
Lemma no_turn_pmpm_back k l s1 s2 : no_turn_pmpm k l s1 s2 -> no_turn_pmpm k l s2 s1.
Proof. unfold no_turn_pmpm. rewrite gap_sym. auto. Qed.
Lemma orb_swap a b c d : a || b || c || d = c || d || a || b.
Proof. destruct a, b, c, d; reflexivity. Qed.
Lemma orb_swap8 a b c d e f g h : a || b || c || d || e || f || g || h = e || f || g || h || a || b || c || d.
Proof. destruct a, b, c, d, e, f, g, h; reflexivity. Qed.

Lemma cc00d_rows k s (fw : bool) s1 s2 : 0 < k -> 0 < s -> epsilon < k / s -> (forall l, no_turn_00 k s l fw s1 s2) -> (forall l1 l2, turn_centre k s l1 fw s1 <> turn_centre k s l2 (negb fw) s2) -> 
  forall i j c1 c2, ModelCC00D.skipped s1 s2 i j = false -> nth_error (ModelCC00D.start_circles k s fw s1) i = Some c1 -> nth_error (ModelCC00D.end_circles k s fw s2) j = Some c2 ->
  forall e, In e (ModelCC00D.circles_table k s fw c1 c2) -> exists e', In e' (ModelCC00D.circles_table k s (negb fw) c2 c1) /\ e_length e' = e_length e.
Proof.
  intros Hk Hs HE NT NC i j c1 c2 SK N1 N2. destruct (MovedCC00D.start_is k s fw s1 s2 i j c1 SK N1) as (a & l1 & E1 & A & _). destruct (MovedCC00D.end_is k s fw s1 s2 i j c2 SK N2) as (b & l2 & E2 & B & _).
  apply (cc00d_table k s fw c1 c2); [apply (par_zero true k s c1 a l1 fw Hk E1)|apply (par_zero true k s c2 b l2 (negb fw) Hk E2)|..]; rewrite E1, E2, ?circle_start.
  - apply (on_cc_no k s s1 s2); try assumption. exact (NT l1).
  - apply (on_cc_no k s s2 s1); try assumption. exact (no_turn_00_back k s l2 (negb fw) s1 s2 (eq_ind_r (fun b => no_turn_00 k s l2 b s1 s2) (NT l2) (negb_involutive fw))).
  - apply apart_00; try assumption. apply (centres_00 k s s1 s2); try assumption. exact (NC l1 l2).
Qed.
Lemma cc00d_half k s (fw : bool) s1 s2 : 0 < k -> 0 < s -> epsilon < k / s -> (forall l, no_turn_00 k s l fw s1 s2) -> (forall l1 l2, turn_centre k s l1 fw s1 <> turn_centre k s l2 (negb fw) s2) -> 
  forall L, ModelCC00D.get_distance k s fw s1 s2 = Some (Some L) -> L < DBL_MAX -> exists L', ModelCC00D.get_distance k s (negb fw) s2 s1 = Some (Some L') /\ L' < DBL_MAX /\ L' <= L.
Proof.
  intros Hk Hs HE NT NC L E LM. unfold ModelCC00D.get_distance in E. destruct (ModelCC00D.cc00_dubins k s fw s1 s2) as [p|] eqn:P; [|discriminate E]. unfold path_distance in E. assert (EL : e_length (h_entry p) = Some L) by congruence.
  destruct (swap_plan _ _ cc_dubins_types cc_dubins_types (ModelCC00D.circles_table k s fw) (ModelCC00D.circles_table k s (negb fw)) (ModelCC00D.skipped s1 s2) (ModelCC00D.skipped s2 s1) (ModelCC00D.start_circles k s fw s1) (ModelCC00D.end_circles k s fw s2) (ModelCC00D.start_circles k s (negb fw) s2) (ModelCC00D.end_circles k s (negb fw) s1) 2 2 (CC00DProofs.table_first k s (negb fw)) (CC00DProofs.table_length k s (negb fw))
    ltac:(destruct fw; reflexivity) ltac:(destruct fw; reflexivity) ltac:(destruct fw; reflexivity) ltac:(destruct fw; reflexivity) ltac:(intros i j; reflexivity) (cc00d_rows k s fw s1 s2 Hk Hs HE NT NC) p L P EL LM) as (p' & L' & P' & E' & LM' & LE).
  assert (PP : ModelCC00D.cc00_dubins k s (negb fw) s2 s1 = Some p') by exact P'. exists L'. unfold ModelCC00D.get_distance. rewrite PP. unfold path_distance. rewrite E'. auto.
Qed.
Lemma cc0pmd_rows k s (fw : bool) s1 s2 : 0 < k -> 0 < s -> epsilon < k / s -> 
  forall i j c1 c2, ModelCC0pmD.skipped s1 s2 i j = false -> nth_error (ModelCC0pmD.start_circles k s fw s1) i = Some c1 -> nth_error (ModelCC0pmD.end_circles k fw s2) j = Some c2 ->
  forall e, In e (ModelCC0pmD.circles_table k s c1 c2) -> exists e', In e' (ModelCCpm0D.circles_table k s c2 c1) /\ e_length e' = e_length e.
Proof.
  intros Hk Hs HE i j c1 c2 SK N1 N2. destruct (MovedCC0pmD.start_is k s fw s1 s2 i j c1 SK N1) as (a & l1 & E1 & A & _). destruct (MovedCC0pmD.end_is k s fw s1 s2 i j c2 SK N2) as (b & l2 & E2 & B & _).
  apply (cc0pmd_table k s c1 c2); [apply (par_zero true k s c1 a l1 fw Hk E1)|apply (par_max true k s c2 b l2 (negb fw) Hk E2)|]. intros N. rewrite E1, E2 in N |- *. apply (apart_0pm 1 k s a b Hk Hs HE); exact N.
Qed.
Lemma cc0pmd_half k s (fw : bool) s1 s2 : 0 < k -> 0 < s -> epsilon < k / s -> 
  forall L, ModelCC0pmD.get_distance k s fw s1 s2 = Some (Some L) -> L < DBL_MAX -> exists L', ModelCCpm0D.get_distance k s (negb fw) s2 s1 = Some (Some L') /\ L' < DBL_MAX /\ L' <= L.
Proof.
  intros Hk Hs HE L E LM. unfold ModelCC0pmD.get_distance in E. destruct (ModelCC0pmD.cc0pm_dubins k s fw s1 s2) as [p|] eqn:P; [|discriminate E]. unfold path_distance in E. assert (EL : e_length (h_entry p) = Some L) by congruence.
  destruct (swap_plan _ _ cc_dubins_types cc_dubins_types (ModelCC0pmD.circles_table k s) (ModelCCpm0D.circles_table k s) (ModelCC0pmD.skipped s1 s2) (ModelCCpm0D.skipped s2 s1) (ModelCC0pmD.start_circles k s fw s1) (ModelCC0pmD.end_circles k fw s2) (ModelCCpm0D.start_circles k (negb fw) s2) (ModelCCpm0D.end_circles k s (negb fw) s1) 2 2 (PlanCCpm0D.table_first k s) (PlanCCpm0D.table_length k s)
    ltac:(destruct fw; reflexivity) ltac:(destruct fw; reflexivity) ltac:(destruct fw; reflexivity) ltac:(destruct fw; reflexivity) ltac:(intros i j; reflexivity) (cc0pmd_rows k s fw s1 s2 Hk Hs HE) p L P EL LM) as (p' & L' & P' & E' & LM' & LE).
  assert (PP : ModelCCpm0D.ccpm0_dubins k s (negb fw) s2 s1 = Some p') by exact P'. exists L'. unfold ModelCCpm0D.get_distance. rewrite PP. unfold path_distance. rewrite E'. auto.
Qed.
Lemma ccpm0d_rows k s (fw : bool) s1 s2 : 0 < k -> 0 < s -> epsilon < k / s -> 
  forall i j c1 c2, ModelCCpm0D.skipped s1 s2 i j = false -> nth_error (ModelCCpm0D.start_circles k fw s1) i = Some c1 -> nth_error (ModelCCpm0D.end_circles k s fw s2) j = Some c2 ->
  forall e, In e (ModelCCpm0D.circles_table k s c1 c2) -> exists e', In e' (ModelCC0pmD.circles_table k s c2 c1) /\ e_length e' = e_length e.
Proof.
  intros Hk Hs HE i j c1 c2 SK N1 N2. destruct (MovedCCpm0D.start_is k s fw s1 s2 i j c1 SK N1) as (a & l1 & E1 & A & _). destruct (MovedCCpm0D.end_is k s fw s1 s2 i j c2 SK N2) as (b & l2 & E2 & B & _).
  apply (ccpm0d_table k s c2 c1); [apply (par_zero true k s c2 b l2 (negb fw) Hk E2)|apply (par_max true k s c1 a l1 fw Hk E1)|]. intros N. rewrite E1, E2 in N |- *. apply (apart_0pm 1 k s b a Hk Hs HE); exact N.
Qed.
Lemma ccpm0d_half k s (fw : bool) s1 s2 : 0 < k -> 0 < s -> epsilon < k / s -> 
  forall L, ModelCCpm0D.get_distance k s fw s1 s2 = Some (Some L) -> L < DBL_MAX -> exists L', ModelCC0pmD.get_distance k s (negb fw) s2 s1 = Some (Some L') /\ L' < DBL_MAX /\ L' <= L.
Proof.
  intros Hk Hs HE L E LM. unfold ModelCCpm0D.get_distance in E. destruct (ModelCCpm0D.ccpm0_dubins k s fw s1 s2) as [p|] eqn:P; [|discriminate E]. unfold path_distance in E. assert (EL : e_length (h_entry p) = Some L) by congruence.
  destruct (swap_plan _ _ cc_dubins_types cc_dubins_types (ModelCCpm0D.circles_table k s) (ModelCC0pmD.circles_table k s) (ModelCCpm0D.skipped s1 s2) (ModelCC0pmD.skipped s2 s1) (ModelCCpm0D.start_circles k fw s1) (ModelCCpm0D.end_circles k s fw s2) (ModelCC0pmD.start_circles k s (negb fw) s2) (ModelCC0pmD.end_circles k (negb fw) s1) 2 2 (PlanCC0pmD.table_first k s) (PlanCC0pmD.table_length k s)
    ltac:(destruct fw; reflexivity) ltac:(destruct fw; reflexivity) ltac:(destruct fw; reflexivity) ltac:(destruct fw; reflexivity) ltac:(intros i j; reflexivity) (ccpm0d_rows k s fw s1 s2 Hk Hs HE) p L P EL LM) as (p' & L' & P' & E' & LM' & LE).
  assert (PP : ModelCC0pmD.cc0pm_dubins k s (negb fw) s2 s1 = Some p') by exact P'. exists L'. unfold ModelCC0pmD.get_distance. rewrite PP. unfold path_distance. rewrite E'. auto.
Qed.
Lemma ccpmpmd_rows k s (fw : bool) s1 s2 : 0 < k -> 0 < s -> epsilon < k / s -> (forall l, on_side l s1 \/ on_side l s2 -> no_turn_pmpm k l s1 s2) -> (forall l1 l2, on_side l1 s1 -> on_side l2 s2 -> arc_centre k l1 s1 <> arc_centre k l2 s2) -> 
  forall i j c1 c2, ModelCCpmpmD.skipped s1 s2 i j = false -> nth_error (ModelCCpmpmD.start_circles k fw s1) i = Some c1 -> nth_error (ModelCCpmpmD.end_circles k fw s2) j = Some c2 ->
  forall e, In e (ModelCCpmpmD.circles_table k s c1 c2) -> exists e', In e' (ModelCCpmpmD.circles_table k s c2 c1) /\ e_length e' = e_length e.
Proof.
  intros Hk Hs HE NT NC i j c1 c2 SK N1 N2. destruct (MovedCCpmpmD.start_is k s fw s1 s2 i j c1 SK N1) as (a & l1 & E1 & A & _ & O1). destruct (MovedCCpmpmD.end_is k s fw s1 s2 i j c2 SK N2) as (b & l2 & E2 & B & _ & O2).
  apply (ccpmpmd_table k s c1 c2); [apply (par_max true k s c1 a l1 fw Hk E1)|apply (par_max true k s c2 b l2 (negb fw) Hk E2)|..]; rewrite E1, E2, ?circle_start.
  - apply (on_rs_no k s1 s2); try assumption. exact ((NT l1 (or_introl O1))).
  - apply (on_rs_no k s2 s1); try assumption. exact (no_turn_pmpm_back k l2 s1 s2 (NT l2 (or_intror O2))).
  - apply apart_pmpm; try assumption. apply (centres_pmpm k s1 s2); try assumption. exact (NC l1 l2 O1 O2).
Qed.
Lemma ccpmpmd_half k s (fw : bool) s1 s2 : 0 < k -> 0 < s -> epsilon < k / s -> (forall l, on_side l s1 \/ on_side l s2 -> no_turn_pmpm k l s1 s2) -> (forall l1 l2, on_side l1 s1 -> on_side l2 s2 -> arc_centre k l1 s1 <> arc_centre k l2 s2) -> 
  forall L, ModelCCpmpmD.get_distance k s fw s1 s2 = Some (Some L) -> L < DBL_MAX -> exists L', ModelCCpmpmD.get_distance k s (negb fw) s2 s1 = Some (Some L') /\ L' < DBL_MAX /\ L' <= L.
Proof.
  intros Hk Hs HE NT NC L E LM. unfold ModelCCpmpmD.get_distance in E. destruct (ModelCCpmpmD.ccpmpm_dubins k s fw s1 s2) as [p|] eqn:P; [|discriminate E]. unfold path_distance in E. assert (EL : e_length (h_entry p) = Some L) by congruence.
  destruct (swap_plan _ _ cc_dubins_types cc_dubins_types (ModelCCpmpmD.circles_table k s) (ModelCCpmpmD.circles_table k s) (ModelCCpmpmD.skipped s1 s2) (ModelCCpmpmD.skipped s2 s1) (ModelCCpmpmD.start_circles k fw s1) (ModelCCpmpmD.end_circles k fw s2) (ModelCCpmpmD.start_circles k (negb fw) s2) (ModelCCpmpmD.end_circles k (negb fw) s1) 2 2 (PlanCCpmpmD.table_first k s) (PlanCCpmpmD.table_length k s)
    ltac:(destruct fw; reflexivity) ltac:(destruct fw; reflexivity) ltac:(destruct fw; reflexivity) ltac:(destruct fw; reflexivity) ltac:(intros i j; apply orb_swap) (ccpmpmd_rows k s fw s1 s2 Hk Hs HE NT NC) p L P EL LM) as (p' & L' & P' & E' & LM' & LE).
  assert (PP : ModelCCpmpmD.ccpmpm_dubins k s (negb fw) s2 s1 = Some p') by exact P'. exists L'. unfold ModelCCpmpmD.get_distance. rewrite PP. unfold path_distance. rewrite E'. auto.
Qed.
Lemma cc00r_rows k s s1 s2 : 0 < k -> 0 < s -> epsilon < k / s -> (forall l f, no_turn_00 k s l f s1 s2) -> (forall l1 l2 f1 f2, turn_centre k s l1 f1 s1 <> turn_centre k s l2 f2 s2) -> 
  forall i j c1 c2, ModelCC00R.skipped s1 s2 i j = false -> nth_error (ModelCC00R.start_circles k s s1) i = Some c1 -> nth_error (ModelCC00R.end_circles k s s2) j = Some c2 ->
  forall e, In e (ModelCC00R.circles_table k s c1 c2) -> exists e', In e' (ModelCC00R.circles_table k s c2 c1) /\ e_length e' = e_length e.
Proof.
  intros Hk Hs HE NT NC i j c1 c2 SK N1 N2. destruct (MovedCC00R.start_is k s s1 s2 i j c1 SK N1) as (a & l1 & f1 & E1 & A & _). destruct (MovedCC00R.end_is k s s1 s2 i j c2 SK N2) as (b & l2 & f2 & E2 & B & _).
  apply (cc00r_table k s c1 c2); [apply (par_zero false k s c1 a l1 f1 Hk E1)|apply (par_zero false k s c2 b l2 f2 Hk E2)|..]; rewrite E1, E2, ?circle_start.
  - apply (on_cc_no k s s1 s2); try assumption. exact (NT l1 f1).
  - apply (on_cc_no k s s2 s1); try assumption. exact (no_turn_00_back k s l2 f2 s1 s2 (NT l2 (negb f2))).
  - apply apart_00; try assumption. apply (centres_00 k s s1 s2); try assumption. exact (NC l1 l2 f1 f2).
Qed.
Lemma cc00r_half k s s1 s2 : 0 < k -> 0 < s -> epsilon < k / s -> (forall l f, no_turn_00 k s l f s1 s2) -> (forall l1 l2 f1 f2, turn_centre k s l1 f1 s1 <> turn_centre k s l2 f2 s2) -> 
  forall L, ModelCC00R.get_distance k s s1 s2 = Some (Some L) -> L < DBL_MAX -> exists L', ModelCC00R.get_distance k s s2 s1 = Some (Some L') /\ L' < DBL_MAX /\ L' <= L.
Proof.
  intros Hk Hs HE NT NC L E LM. unfold ModelCC00R.get_distance in E. destruct (ModelCC00R.cc00_reeds_shepp k s s1 s2) as [p|] eqn:P; [|discriminate E]. unfold path_distance in E. assert (EL : e_length (h_entry p) = Some L) by congruence.
  destruct (swap_plan _ _ hc_cc_rs_types hc_cc_rs_types (ModelCC00R.circles_table k s) (ModelCC00R.circles_table k s) (ModelCC00R.skipped s1 s2) (ModelCC00R.skipped s2 s1) (ModelCC00R.start_circles k s s1) (ModelCC00R.end_circles k s s2) (ModelCC00R.start_circles k s s2) (ModelCC00R.end_circles k s s1) 4 4 (PlanCC00R.table_first k s) (PlanCC00R.table_length k s)
    ltac:(reflexivity) ltac:(reflexivity) ltac:(reflexivity) ltac:(reflexivity) ltac:(intros i j; reflexivity) (cc00r_rows k s s1 s2 Hk Hs HE NT NC) p L P EL LM) as (p' & L' & P' & E' & LM' & LE).
  assert (PP : ModelCC00R.cc00_reeds_shepp k s s2 s1 = Some p') by exact P'. exists L'. unfold ModelCC00R.get_distance. rewrite PP. unfold path_distance. rewrite E'. auto.
Qed.
Lemma hc00r_rows k s s1 s2 : 0 < k -> 0 < s -> epsilon < k / s -> (forall l f, no_turn_00 k s l f s1 s2) -> (forall l1 l2 f1 f2, turn_centre k s l1 f1 s1 <> turn_centre k s l2 f2 s2) -> 
  forall i j c1 c2, ModelHC00R.skipped s1 s2 i j = false -> nth_error (ModelHC00R.start_circles k s s1) i = Some c1 -> nth_error (ModelHC00R.end_circles k s s2) j = Some c2 ->
  forall e, In e (ModelHC00R.circles_table k s c1 c2) -> exists e', In e' (ModelHC00R.circles_table k s c2 c1) /\ e_length e' = e_length e.
Proof.
  intros Hk Hs HE NT NC i j c1 c2 SK N1 N2. destruct (MovedHC00R.start_is k s s1 s2 i j c1 SK N1) as (a & l1 & f1 & E1 & A & _). destruct (MovedHC00R.end_is k s s1 s2 i j c2 SK N2) as (b & l2 & f2 & E2 & B & _).
  apply (hc00r_table k s c1 c2); [apply (par_zero true k s c1 a l1 f1 Hk E1)|apply (par_zero true k s c2 b l2 f2 Hk E2)|..]; rewrite E1, E2, ?circle_start.
  - apply (on_cc_no k s s1 s2); try assumption. exact (NT l1 f1).
  - apply (on_cc_no k s s2 s1); try assumption. exact (no_turn_00_back k s l2 f2 s1 s2 (NT l2 (negb f2))).
  - apply apart_00; try assumption. apply (centres_00 k s s1 s2); try assumption. exact (NC l1 l2 f1 f2).
Qed.
Lemma hc00r_half k s s1 s2 : 0 < k -> 0 < s -> epsilon < k / s -> (forall l f, no_turn_00 k s l f s1 s2) -> (forall l1 l2 f1 f2, turn_centre k s l1 f1 s1 <> turn_centre k s l2 f2 s2) -> 
  forall L, ModelHC00R.get_distance k s s1 s2 = Some (Some L) -> L < DBL_MAX -> exists L', ModelHC00R.get_distance k s s2 s1 = Some (Some L') /\ L' < DBL_MAX /\ L' <= L.
Proof.
  intros Hk Hs HE NT NC L E LM. unfold ModelHC00R.get_distance in E. destruct (ModelHC00R.hc00_reeds_shepp k s s1 s2) as [p|] eqn:P; [|discriminate E]. unfold path_distance in E. assert (EL : e_length (h_entry p) = Some L) by congruence.
  destruct (swap_plan _ _ hc_cc_rs_types hc_cc_rs_types (ModelHC00R.circles_table k s) (ModelHC00R.circles_table k s) (ModelHC00R.skipped s1 s2) (ModelHC00R.skipped s2 s1) (ModelHC00R.start_circles k s s1) (ModelHC00R.end_circles k s s2) (ModelHC00R.start_circles k s s2) (ModelHC00R.end_circles k s s1) 4 4 (PlanHC00R.table_first k s) (PlanHC00R.table_length k s)
    ltac:(reflexivity) ltac:(reflexivity) ltac:(reflexivity) ltac:(reflexivity) ltac:(intros i j; reflexivity) (hc00r_rows k s s1 s2 Hk Hs HE NT NC) p L P EL LM) as (p' & L' & P' & E' & LM' & LE).
  assert (PP : ModelHC00R.hc00_reeds_shepp k s s2 s1 = Some p') by exact P'. exists L'. unfold ModelHC00R.get_distance. rewrite PP. unfold path_distance. rewrite E'. auto.
Qed.
Lemma hc0pmr_rows k s s1 s2 : 0 < k -> 0 < s -> epsilon < k / s -> 
  forall i j c1 c2, ModelHC0pmR.skipped s1 s2 i j = false -> nth_error (ModelHC0pmR.start_circles k s s1) i = Some c1 -> nth_error (ModelHC0pmR.end_circles k s2) j = Some c2 ->
  forall e, In e (ModelHC0pmR.circles_table k s c1 c2) -> exists e', In e' (ModelHCpm0R.circles_table k s c2 c1) /\ e_length e' = e_length e.
Proof.
  intros Hk Hs HE i j c1 c2 SK N1 N2. destruct (MovedHC0pmR.start_is k s s1 s2 i j c1 SK N1) as (a & l1 & f1 & E1 & A & _). destruct (MovedHC0pmR.end_is k s s1 s2 i j c2 SK N2) as (b & l2 & f2 & E2 & B & _).
  apply (hc0pmr_table k s c1 c2); [apply (par_zero true k s c1 a l1 f1 Hk E1)|apply (par_max true k s c2 b l2 f2 Hk E2)|]. intros N. rewrite E1, E2 in N |- *. apply (apart_0pm 1 k s a b Hk Hs HE); exact N.
Qed.
Lemma hc0pmr_half k s s1 s2 : 0 < k -> 0 < s -> epsilon < k / s -> 
  forall L, ModelHC0pmR.get_distance k s s1 s2 = Some (Some L) -> L < DBL_MAX -> exists L', ModelHCpm0R.get_distance k s s2 s1 = Some (Some L') /\ L' < DBL_MAX /\ L' <= L.
Proof.
  intros Hk Hs HE L E LM. unfold ModelHC0pmR.get_distance in E. destruct (ModelHC0pmR.hc0pm_reeds_shepp k s s1 s2) as [p|] eqn:P; [|discriminate E]. unfold path_distance in E. assert (EL : e_length (h_entry p) = Some L) by congruence.
  destruct (swap_plan _ _ hc_cc_rs_types hc_cc_rs_types (ModelHC0pmR.circles_table k s) (ModelHCpm0R.circles_table k s) (ModelHC0pmR.skipped s1 s2) (ModelHCpm0R.skipped s2 s1) (ModelHC0pmR.start_circles k s s1) (ModelHC0pmR.end_circles k s2) (ModelHCpm0R.start_circles k s2) (ModelHCpm0R.end_circles k s s1) 4 4 (PlanHCpm0R.table_first k s) (PlanHCpm0R.table_length k s)
    ltac:(reflexivity) ltac:(reflexivity) ltac:(reflexivity) ltac:(reflexivity) ltac:(intros i j; reflexivity) (hc0pmr_rows k s s1 s2 Hk Hs HE) p L P EL LM) as (p' & L' & P' & E' & LM' & LE).
  assert (PP : ModelHCpm0R.hcpm0_reeds_shepp k s s2 s1 = Some p') by exact P'. exists L'. unfold ModelHCpm0R.get_distance. rewrite PP. unfold path_distance. rewrite E'. auto.
Qed.
Lemma hcpm0r_rows k s s1 s2 : 0 < k -> 0 < s -> epsilon < k / s -> 
  forall i j c1 c2, ModelHCpm0R.skipped s1 s2 i j = false -> nth_error (ModelHCpm0R.start_circles k s1) i = Some c1 -> nth_error (ModelHCpm0R.end_circles k s s2) j = Some c2 ->
  forall e, In e (ModelHCpm0R.circles_table k s c1 c2) -> exists e', In e' (ModelHC0pmR.circles_table k s c2 c1) /\ e_length e' = e_length e.
Proof.
  intros Hk Hs HE i j c1 c2 SK N1 N2. destruct (MovedHCpm0R.start_is k s s1 s2 i j c1 SK N1) as (a & l1 & f1 & E1 & A & _). destruct (MovedHCpm0R.end_is k s s1 s2 i j c2 SK N2) as (b & l2 & f2 & E2 & B & _).
  apply (hcpm0r_table k s c2 c1); [apply (par_zero true k s c2 b l2 f2 Hk E2)|apply (par_max true k s c1 a l1 f1 Hk E1)|]. intros N. rewrite E1, E2 in N |- *. apply (apart_0pm 1 k s b a Hk Hs HE); exact N.
Qed.
Lemma hcpm0r_half k s s1 s2 : 0 < k -> 0 < s -> epsilon < k / s -> 
  forall L, ModelHCpm0R.get_distance k s s1 s2 = Some (Some L) -> L < DBL_MAX -> exists L', ModelHC0pmR.get_distance k s s2 s1 = Some (Some L') /\ L' < DBL_MAX /\ L' <= L.
Proof.
  intros Hk Hs HE L E LM. unfold ModelHCpm0R.get_distance in E. destruct (ModelHCpm0R.hcpm0_reeds_shepp k s s1 s2) as [p|] eqn:P; [|discriminate E]. unfold path_distance in E. assert (EL : e_length (h_entry p) = Some L) by congruence.
  destruct (swap_plan _ _ hc_cc_rs_types hc_cc_rs_types (ModelHCpm0R.circles_table k s) (ModelHC0pmR.circles_table k s) (ModelHCpm0R.skipped s1 s2) (ModelHC0pmR.skipped s2 s1) (ModelHCpm0R.start_circles k s1) (ModelHCpm0R.end_circles k s s2) (ModelHC0pmR.start_circles k s s2) (ModelHC0pmR.end_circles k s1) 4 4 (PlanHC0pmR.table_first k s) (PlanHC0pmR.table_length k s)
    ltac:(reflexivity) ltac:(reflexivity) ltac:(reflexivity) ltac:(reflexivity) ltac:(intros i j; reflexivity) (hcpm0r_rows k s s1 s2 Hk Hs HE) p L P EL LM) as (p' & L' & P' & E' & LM' & LE).
  assert (PP : ModelHC0pmR.hc0pm_reeds_shepp k s s2 s1 = Some p') by exact P'. exists L'. unfold ModelHC0pmR.get_distance. rewrite PP. unfold path_distance. rewrite E'. auto.
Qed.
Lemma hcpmpmr_rows k s s1 s2 : 0 < k -> 0 < s -> epsilon < k / s -> (forall l, on_side l s1 \/ on_side l s2 -> no_turn_pmpm k l s1 s2) -> (forall l1 l2, on_side l1 s1 -> on_side l2 s2 -> arc_centre k l1 s1 <> arc_centre k l2 s2) -> 
  forall i j c1 c2, ModelHCpmpmR.skipped s1 s2 i j = false -> nth_error (ModelHCpmpmR.start_circles k s1) i = Some c1 -> nth_error (ModelHCpmpmR.end_circles k s2) j = Some c2 ->
  forall e, In e (ModelHCpmpmR.circles_table k s c1 c2) -> exists e', In e' (ModelHCpmpmR.circles_table k s c2 c1) /\ e_length e' = e_length e.
Proof.
  intros Hk Hs HE NT NC i j c1 c2 SK N1 N2. destruct (MovedHCpmpmR.start_is k s s1 s2 i j c1 SK N1) as (a & l1 & f1 & E1 & A & _ & O1). destruct (MovedHCpmpmR.end_is k s s1 s2 i j c2 SK N2) as (b & l2 & f2 & E2 & B & _ & O2).
  apply (hcpmpmr_table k s c1 c2); [apply (par_max true k s c1 a l1 f1 Hk E1)|apply (par_max true k s c2 b l2 f2 Hk E2)|..]; rewrite E1, E2, ?circle_start.
  - apply (on_rs_no k s1 s2); try assumption. exact ((NT l1 (or_introl O1))).
  - apply (on_rs_no k s2 s1); try assumption. exact (no_turn_pmpm_back k l2 s1 s2 (NT l2 (or_intror O2))).
  - apply apart_pmpm; try assumption. apply (centres_pmpm k s1 s2); try assumption. exact (NC l1 l2 O1 O2).
Qed.
Lemma hcpmpmr_half k s s1 s2 : 0 < k -> 0 < s -> epsilon < k / s -> (forall l, on_side l s1 \/ on_side l s2 -> no_turn_pmpm k l s1 s2) -> (forall l1 l2, on_side l1 s1 -> on_side l2 s2 -> arc_centre k l1 s1 <> arc_centre k l2 s2) -> 
  forall L, ModelHCpmpmR.get_distance k s s1 s2 = Some (Some L) -> L < DBL_MAX -> exists L', ModelHCpmpmR.get_distance k s s2 s1 = Some (Some L') /\ L' < DBL_MAX /\ L' <= L.
Proof.
  intros Hk Hs HE NT NC L E LM. unfold ModelHCpmpmR.get_distance in E. destruct (ModelHCpmpmR.hcpmpm_reeds_shepp k s s1 s2) as [p|] eqn:P; [|discriminate E]. unfold path_distance in E. assert (EL : e_length (h_entry p) = Some L) by congruence.
  destruct (swap_plan _ _ hc_cc_rs_types hc_cc_rs_types (ModelHCpmpmR.circles_table k s) (ModelHCpmpmR.circles_table k s) (ModelHCpmpmR.skipped s1 s2) (ModelHCpmpmR.skipped s2 s1) (ModelHCpmpmR.start_circles k s1) (ModelHCpmpmR.end_circles k s2) (ModelHCpmpmR.start_circles k s2) (ModelHCpmpmR.end_circles k s1) 4 4 (PlanHCpmpmR.table_first k s) (PlanHCpmpmR.table_length k s)
    ltac:(reflexivity) ltac:(reflexivity) ltac:(reflexivity) ltac:(reflexivity) ltac:(intros i j; apply orb_swap8) (hcpmpmr_rows k s s1 s2 Hk Hs HE NT NC) p L P EL LM) as (p' & L' & P' & E' & LM' & LE).
  assert (PP : ModelHCpmpmR.hcpmpm_reeds_shepp k s s2 s1 = Some p') by exact P'. exists L'. unfold ModelHCpmpmR.get_distance. rewrite PP. unfold path_distance. rewrite E'. auto.
Qed.
Theorem cc00_dubins_back k s (fw : bool) s1 s2 L : 0 < k -> 0 < s -> epsilon < k / s -> (forall l, no_turn_00 k s l fw s1 s2) -> (forall l1 l2, turn_centre k s l1 fw s1 <> turn_centre k s l2 (negb fw) s2) -> L < DBL_MAX ->
  (ModelCC00D.get_distance k s fw s1 s2 = Some (Some L) <-> ModelCC00D.get_distance k s (negb fw) s2 s1 = Some (Some L)).
Proof.
  intros Hk Hs HE NT NC LM. pose proof (cc00d_half k s fw s1 s2 Hk Hs HE NT NC) as H. pose proof (cc00d_half k s (negb fw) s2 s1 Hk Hs HE) as H'.
  rewrite ?negb_involutive in H'.
  specialize (H' (fun l => no_turn_00_back k s l (negb fw) s1 s2 (eq_ind_r (fun b => no_turn_00 k s l b s1 s2) (NT l) (negb_involutive fw)))). specialize (H' (fun l1 l2 E => NC l2 l1 (eq_sym E))).
  split; intros E; [exact (swap_both _ _ H H' L LM E)|exact (swap_both _ _ H' H L LM E)].
Qed.
Theorem cc0pm_dubins_back k s (fw : bool) s1 s2 L : 0 < k -> 0 < s -> epsilon < k / s -> L < DBL_MAX ->
  (ModelCC0pmD.get_distance k s fw s1 s2 = Some (Some L) <-> ModelCCpm0D.get_distance k s (negb fw) s2 s1 = Some (Some L)).
Proof.
  intros Hk Hs HE LM. pose proof (cc0pmd_half k s fw s1 s2 Hk Hs HE) as H. pose proof (ccpm0d_half k s (negb fw) s2 s1 Hk Hs HE) as H'.
  rewrite ?negb_involutive in H'.
  split; intros E; [exact (swap_both _ _ H H' L LM E)|exact (swap_both _ _ H' H L LM E)].
Qed.
Theorem ccpm0_dubins_back k s (fw : bool) s1 s2 L : 0 < k -> 0 < s -> epsilon < k / s -> L < DBL_MAX ->
  (ModelCCpm0D.get_distance k s fw s1 s2 = Some (Some L) <-> ModelCC0pmD.get_distance k s (negb fw) s2 s1 = Some (Some L)).
Proof.
  intros Hk Hs HE LM. pose proof (ccpm0d_half k s fw s1 s2 Hk Hs HE) as H. pose proof (cc0pmd_half k s (negb fw) s2 s1 Hk Hs HE) as H'.
  rewrite ?negb_involutive in H'.
  split; intros E; [exact (swap_both _ _ H H' L LM E)|exact (swap_both _ _ H' H L LM E)].
Qed.
Theorem ccpmpm_dubins_back k s (fw : bool) s1 s2 L : 0 < k -> 0 < s -> epsilon < k / s -> (forall l, on_side l s1 \/ on_side l s2 -> no_turn_pmpm k l s1 s2) -> (forall l1 l2, on_side l1 s1 -> on_side l2 s2 -> arc_centre k l1 s1 <> arc_centre k l2 s2) -> L < DBL_MAX ->
  (ModelCCpmpmD.get_distance k s fw s1 s2 = Some (Some L) <-> ModelCCpmpmD.get_distance k s (negb fw) s2 s1 = Some (Some L)).
Proof.
  intros Hk Hs HE NT NC LM. pose proof (ccpmpmd_half k s fw s1 s2 Hk Hs HE NT NC) as H. pose proof (ccpmpmd_half k s (negb fw) s2 s1 Hk Hs HE) as H'.
  rewrite ?negb_involutive in H'.
  specialize (H' (fun l O => no_turn_pmpm_back k l s1 s2 (NT l (match O with or_introl a => or_intror a | or_intror a => or_introl a end)))). specialize (H' (fun l1 l2 O1 O2 E => NC l2 l1 O2 O1 (eq_sym E))).
  split; intros E; [exact (swap_both _ _ H H' L LM E)|exact (swap_both _ _ H' H L LM E)].
Qed.
Theorem cc00_reeds_shepp_back k s s1 s2 L : 0 < k -> 0 < s -> epsilon < k / s -> (forall l f, no_turn_00 k s l f s1 s2) -> (forall l1 l2 f1 f2, turn_centre k s l1 f1 s1 <> turn_centre k s l2 f2 s2) -> L < DBL_MAX ->
  (ModelCC00R.get_distance k s s1 s2 = Some (Some L) <-> ModelCC00R.get_distance k s s2 s1 = Some (Some L)).
Proof.
  intros Hk Hs HE NT NC LM. pose proof (cc00r_half k s s1 s2 Hk Hs HE NT NC) as H. pose proof (cc00r_half k s s2 s1 Hk Hs HE) as H'.
  specialize (H' (fun l f => no_turn_00_back k s l f s1 s2 (NT l (negb f)))). specialize (H' (fun l1 l2 f1 f2 E => NC l2 l1 f2 f1 (eq_sym E))).
  split; intros E; [exact (swap_both _ _ H H' L LM E)|exact (swap_both _ _ H' H L LM E)].
Qed.
Theorem hc00_reeds_shepp_back k s s1 s2 L : 0 < k -> 0 < s -> epsilon < k / s -> (forall l f, no_turn_00 k s l f s1 s2) -> (forall l1 l2 f1 f2, turn_centre k s l1 f1 s1 <> turn_centre k s l2 f2 s2) -> L < DBL_MAX ->
  (ModelHC00R.get_distance k s s1 s2 = Some (Some L) <-> ModelHC00R.get_distance k s s2 s1 = Some (Some L)).
Proof.
  intros Hk Hs HE NT NC LM. pose proof (hc00r_half k s s1 s2 Hk Hs HE NT NC) as H. pose proof (hc00r_half k s s2 s1 Hk Hs HE) as H'.
  specialize (H' (fun l f => no_turn_00_back k s l f s1 s2 (NT l (negb f)))). specialize (H' (fun l1 l2 f1 f2 E => NC l2 l1 f2 f1 (eq_sym E))).
  split; intros E; [exact (swap_both _ _ H H' L LM E)|exact (swap_both _ _ H' H L LM E)].
Qed.
Theorem hc0pm_reeds_shepp_back k s s1 s2 L : 0 < k -> 0 < s -> epsilon < k / s -> L < DBL_MAX ->
  (ModelHC0pmR.get_distance k s s1 s2 = Some (Some L) <-> ModelHCpm0R.get_distance k s s2 s1 = Some (Some L)).
Proof.
  intros Hk Hs HE LM. pose proof (hc0pmr_half k s s1 s2 Hk Hs HE) as H. pose proof (hcpm0r_half k s s2 s1 Hk Hs HE) as H'.
  split; intros E; [exact (swap_both _ _ H H' L LM E)|exact (swap_both _ _ H' H L LM E)].
Qed.
Theorem hcpm0_reeds_shepp_back k s s1 s2 L : 0 < k -> 0 < s -> epsilon < k / s -> L < DBL_MAX ->
  (ModelHCpm0R.get_distance k s s1 s2 = Some (Some L) <-> ModelHC0pmR.get_distance k s s2 s1 = Some (Some L)).
Proof.
  intros Hk Hs HE LM. pose proof (hcpm0r_half k s s1 s2 Hk Hs HE) as H. pose proof (hc0pmr_half k s s2 s1 Hk Hs HE) as H'.
  split; intros E; [exact (swap_both _ _ H H' L LM E)|exact (swap_both _ _ H' H L LM E)].
Qed.
Theorem hcpmpm_reeds_shepp_back k s s1 s2 L : 0 < k -> 0 < s -> epsilon < k / s -> (forall l, on_side l s1 \/ on_side l s2 -> no_turn_pmpm k l s1 s2) -> (forall l1 l2, on_side l1 s1 -> on_side l2 s2 -> arc_centre k l1 s1 <> arc_centre k l2 s2) -> L < DBL_MAX ->
  (ModelHCpmpmR.get_distance k s s1 s2 = Some (Some L) <-> ModelHCpmpmR.get_distance k s s2 s1 = Some (Some L)).
Proof.
  intros Hk Hs HE NT NC LM. pose proof (hcpmpmr_half k s s1 s2 Hk Hs HE NT NC) as H. pose proof (hcpmpmr_half k s s2 s1 Hk Hs HE) as H'.
  specialize (H' (fun l O => no_turn_pmpm_back k l s1 s2 (NT l (match O with or_introl a => or_intror a | or_intror a => or_introl a end)))). specialize (H' (fun l1 l2 O1 O2 E => NC l2 l1 O2 O1 (eq_sym E))).
  split; intros E; [exact (swap_both _ _ H H' L LM E)|exact (swap_both _ _ H' H L LM E)].
Qed.

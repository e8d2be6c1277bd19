(** * The distances of the HC/CC planners for a car that looks the other way *)
From Coq Require Import Reals ZArith List Lra Lia Bool.
From Verif Require Import Base ModelUtil ModelCircle ModelPaths Num UtilProofs SpecPath SpecTurn SpecSide SpecOpt SpecRigid SpecAbout PoseAlg TurnProofs PlanProofs PlanFamily RigidBase RigidTactics RigidTests SwapPlan AboutBase AboutPlan.
From Verif Require ModelCC00D ModelCC0pmD ModelCCpm0D ModelCCpmpmD ModelCC00R ModelHC00R ModelHC0pmR ModelHCpm0R ModelHCpmpmR.
From Verif Require MovedCC00D MovedCC0pmD MovedCCpm0D MovedCCpmpmD MovedCC00R MovedHC00R MovedHC0pmR MovedHCpm0R MovedHCpmpmR.
From Verif Require AboutCC00D AboutCC0pmD AboutCCpm0D AboutCCpmpmD AboutCC00R AboutHC00R AboutHC0pmR AboutHCpm0R AboutHCpmpmR.
From Verif Require CC00DProofs PlanCC0pmD PlanCCpm0D PlanCCpmpmD PlanCC00R PlanHC00R PlanHC0pmR PlanHCpm0R PlanHCpmpmR.
Import ListNotations.
Open Scope R_scope.

(** *** ModelHC00R.v *)
Ltac ab_row ::= first [apply AboutHC00R.ab_TT | apply AboutHC00R.ab_TcT | apply AboutHC00R.ab_TcTcT | apply AboutHC00R.ab_TcTT | apply AboutHC00R.ab_TTcT | apply AboutHC00R.ab_TST | apply AboutHC00R.ab_TSTcT | apply AboutHC00R.ab_TcTST | apply AboutHC00R.ab_TcTSTcT | apply AboutHC00R.ab_TTcTT | apply AboutHC00R.ab_TcTTcT | apply AboutHC00R.ab_TTT | apply AboutHC00R.ab_TcST | apply AboutHC00R.ab_TScT | apply AboutHC00R.ab_TcScT].
Lemma hc00r_table k s c1 c2 : configuration_equal (c_start c1) (c_start c2) = false -> configuration_equal (ab (c_start c1)) (ab (c_start c2)) = false -> configuration_aligned (c_start c1) (c_start c2) = false -> configuration_aligned (c_start c2) (c_start c1) = false -> configuration_aligned (ab (c_start c1)) (ab (c_start c2)) = false -> configuration_aligned (ab (c_start c2)) (ab (c_start c1)) = false -> configuration_on_hc_cc_circle c1 (c_start c2) = false -> configuration_on_hc_cc_circle (abc c1) (ab (c_start c2)) = false ->
  ModelHC00R.circles_table k s (abc c1) (abc c2) = map abE (ModelHC00R.circles_table k s c1 c2).
Proof.
  intros E1 E2 A1 A2 A3 A4 T1 T2. unfold ModelHC00R.circles_table. cbv zeta. change (c_start (abc c1)) with (ab (c_start c1)). change (c_start (abc c2)) with (ab (c_start c2)).
  rewrite E1, E2, ?A1, ?A2, ?A3, ?A4, ?andb_false_r, ?T1, ?T2. ab_rows c1 c2.
Qed.
Lemma hc00r_start k s q : ModelHC00R.start_circles k s (turned q) = rev (map abc (ModelHC00R.start_circles k s q)).
Proof. unfold ModelHC00R.start_circles; cbn [negb rev app map]; rewrite !conf0_turned, !circle_ab; reflexivity. Qed.
Lemma hc00r_end k s q : ModelHC00R.end_circles k s (turned q) = rev (map abc (ModelHC00R.end_circles k s q)).
Proof. unfold ModelHC00R.end_circles; cbn [negb rev app map]; rewrite !conf0_turned, !circle_ab; reflexivity. Qed.
Lemma hc00r_rows k s s1 s2 : 0 < k -> 0 < s -> distinct s1 s2 -> never_aligned s1 s2 -> (forall l f, no_turn_00 k s l f s1 s2) -> 
  forall i j c1 c2, ModelHC00R.skipped s1 s2 i j = false -> nth_error (ModelHC00R.start_circles k s s1) i = Some c1 -> nth_error (ModelHC00R.end_circles k s s2) j = Some c2 ->
  ModelHC00R.circles_table k s (abc c1) (abc c2) = map abE (ModelHC00R.circles_table k s c1 c2).
Proof.
  intros Hk Hs DI NV NT i j c1 c2 SK N1 N2. destruct (MovedHC00R.start_is k s s1 s2 i j c1 SK N1) as (a & l1 & f1 & E1 & A & _). destruct (MovedHC00R.end_is k s s1 s2 i j c2 SK N2) as (b & l2 & f2 & E2 & B & _).
  pose proof (at_turned s1 a A) as A'. pose proof (at_turned s2 b B) as B'.
  apply hc00r_table; rewrite E1, E2, ?circle_start, ?abc_circle.
  - exact (equal_no s1 s2 a b A B DI).
  - exact (equal_no _ _ _ _ A' B' (distinct_turned s1 s2 DI)).
  - exact (aligned_no s1 s2 a b A B (proj1 NV)).
  - exact (aligned_no s2 s1 b a B A (proj1 (proj2 NV))).
  - exact (aligned_no _ _ _ _ A' B' (proj1 (proj2 (proj2 NV)))).
  - exact (aligned_no _ _ _ _ B' A' (proj2 (proj2 (proj2 NV)))).
  - apply (on_cc_no k s s1 s2); try assumption. exact (NT l1 f1).
  - apply (on_cc_no k s (turned s1) (turned s2)); try assumption. apply no_turn_00_turned. rewrite !negb_involutive. exact (NT l1 f1).
Qed.
Lemma hc00r_half k s s1 s2 : 0 < k -> 0 < s -> distinct s1 s2 -> never_aligned s1 s2 -> (forall l f, no_turn_00 k s l f s1 s2) -> 
  forall L, ModelHC00R.get_distance k s s1 s2 = Some (Some L) -> L < DBL_MAX -> exists L', ModelHC00R.get_distance k s (turned s1) (turned s2) = Some (Some L') /\ L' < DBL_MAX /\ L' <= L.
Proof.
  intros Hk Hs DI NV NT L E LM. unfold ModelHC00R.get_distance in E. destruct (ModelHC00R.hc00_reeds_shepp k s s1 s2) as [p|] eqn:P; [|discriminate E]. unfold path_distance in E. assert (EL : e_length (h_entry p) = Some L) by congruence.
  assert (SA : length (ModelHC00R.start_circles k s s1) = 4%nat) by (reflexivity). assert (SB : length (ModelHC00R.end_circles k s s2) = 4%nat) by (reflexivity).
  assert (SK : forall i j c1 c2, nth_error (ModelHC00R.start_circles k s s1) i = Some c1 -> nth_error (ModelHC00R.end_circles k s s2) j = Some c2 -> ModelHC00R.skipped (turned s1) (turned s2) (4 - 1 - i)%nat (4 - 1 - j)%nat = ModelHC00R.skipped s1 s2 i j).
  { intros i j c1 c2 N1 N2. unfold ModelHC00R.skipped. sk_tac 4%nat i j N1 N2 SA SB. }
  destruct (turned_plan _ hc_cc_rs_types (ModelHC00R.circles_table k s) (ModelHC00R.circles_table k s) (ModelHC00R.skipped s1 s2) (ModelHC00R.skipped (turned s1) (turned s2)) (ModelHC00R.start_circles k s s1) (ModelHC00R.end_circles k s s2) (ModelHC00R.start_circles k s (turned s1)) (ModelHC00R.end_circles k s (turned s2)) 4
    (PlanHC00R.table_first k s) (PlanHC00R.table_length k s) (nth4 _ _ SA (hc00r_start k s s1)) (nth4 _ _ SB (hc00r_end k s s2)) SK (hc00r_rows k s s1 s2 Hk Hs DI NV NT) p L P EL LM) as (p' & L' & P' & E' & LM' & LE).
  assert (PP : ModelHC00R.hc00_reeds_shepp k s (turned s1) (turned s2) = Some p') by exact P'. exists L'. unfold ModelHC00R.get_distance. rewrite PP. unfold path_distance. rewrite E'. auto.
Qed.
Theorem hc00_reeds_shepp_about k s s1 s2 L : 0 < k -> 0 < s -> distinct s1 s2 -> never_aligned s1 s2 -> (forall l f, no_turn_00 k s l f s1 s2) -> L < DBL_MAX ->
  (ModelHC00R.get_distance k s (turned s1) (turned s2) = Some (Some L) <-> ModelHC00R.get_distance k s s1 s2 = Some (Some L)).
Proof.
  intros Hk Hs DI NV NT LM. pose proof (hc00r_half k s s1 s2 Hk Hs DI NV NT) as F. pose proof (hc00r_half k s (turned s1) (turned s2) Hk Hs (distinct_turned s1 s2 DI) (never_aligned_turned s1 s2 NV) (fun l f => no_turn_00_turned k s l f s1 s2 (NT (negb l) (negb f)))) as H.
  destruct (MovedHC00R.hc00_reeds_shepp_turns k s s1 s2 _ _ (turned_twice s1) (turned_twice s2)) as [T _]. rewrite T in H. split; intros E; [exact (swap_both _ _ H F L LM E)|exact (swap_both _ _ F H L LM E)].
Qed.

(** *** ModelCC00R.v *)
Ltac ab_row ::= first [apply AboutCC00R.ab_TT | apply AboutCC00R.ab_TcT | apply AboutCC00R.ab_TcTcT | apply AboutCC00R.ab_TcTT | apply AboutCC00R.ab_TTcT | apply AboutCC00R.ab_TST | apply AboutCC00R.ab_TSTcT | apply AboutCC00R.ab_TcTST | apply AboutCC00R.ab_TcTSTcT | apply AboutCC00R.ab_TTcTT | apply AboutCC00R.ab_TcTTcT | apply AboutCC00R.ab_TTT | apply AboutCC00R.ab_TcST | apply AboutCC00R.ab_TScT | apply AboutCC00R.ab_TcScT].
Lemma cc00r_table k s c1 c2 : configuration_equal (c_start c1) (c_start c2) = false -> configuration_equal (ab (c_start c1)) (ab (c_start c2)) = false -> configuration_aligned (c_start c1) (c_start c2) = false -> configuration_aligned (c_start c2) (c_start c1) = false -> configuration_aligned (ab (c_start c1)) (ab (c_start c2)) = false -> configuration_aligned (ab (c_start c2)) (ab (c_start c1)) = false -> configuration_on_hc_cc_circle c1 (c_start c2) = false -> configuration_on_hc_cc_circle (abc c1) (ab (c_start c2)) = false ->
  ModelCC00R.circles_table k s (abc c1) (abc c2) = map abE (ModelCC00R.circles_table k s c1 c2).
Proof.
  intros E1 E2 A1 A2 A3 A4 T1 T2. unfold ModelCC00R.circles_table. cbv zeta. change (c_start (abc c1)) with (ab (c_start c1)). change (c_start (abc c2)) with (ab (c_start c2)).
  rewrite E1, E2, ?A1, ?A2, ?A3, ?A4, ?andb_false_r, ?T1, ?T2. ab_rows c1 c2.
Qed.
Lemma cc00r_start k s q : ModelCC00R.start_circles k s (turned q) = rev (map abc (ModelCC00R.start_circles k s q)).
Proof. unfold ModelCC00R.start_circles; cbn [negb rev app map]; rewrite !conf0_turned, !circle_ab; reflexivity. Qed.
Lemma cc00r_end k s q : ModelCC00R.end_circles k s (turned q) = rev (map abc (ModelCC00R.end_circles k s q)).
Proof. unfold ModelCC00R.end_circles; cbn [negb rev app map]; rewrite !conf0_turned, !circle_ab; reflexivity. Qed.
Lemma cc00r_rows k s s1 s2 : 0 < k -> 0 < s -> distinct s1 s2 -> never_aligned s1 s2 -> (forall l f, no_turn_00 k s l f s1 s2) -> 
  forall i j c1 c2, ModelCC00R.skipped s1 s2 i j = false -> nth_error (ModelCC00R.start_circles k s s1) i = Some c1 -> nth_error (ModelCC00R.end_circles k s s2) j = Some c2 ->
  ModelCC00R.circles_table k s (abc c1) (abc c2) = map abE (ModelCC00R.circles_table k s c1 c2).
Proof.
  intros Hk Hs DI NV NT i j c1 c2 SK N1 N2. destruct (MovedCC00R.start_is k s s1 s2 i j c1 SK N1) as (a & l1 & f1 & E1 & A & _). destruct (MovedCC00R.end_is k s s1 s2 i j c2 SK N2) as (b & l2 & f2 & E2 & B & _).
  pose proof (at_turned s1 a A) as A'. pose proof (at_turned s2 b B) as B'.
  apply cc00r_table; rewrite E1, E2, ?circle_start, ?abc_circle.
  - exact (equal_no s1 s2 a b A B DI).
  - exact (equal_no _ _ _ _ A' B' (distinct_turned s1 s2 DI)).
  - exact (aligned_no s1 s2 a b A B (proj1 NV)).
  - exact (aligned_no s2 s1 b a B A (proj1 (proj2 NV))).
  - exact (aligned_no _ _ _ _ A' B' (proj1 (proj2 (proj2 NV)))).
  - exact (aligned_no _ _ _ _ B' A' (proj2 (proj2 (proj2 NV)))).
  - apply (on_cc_no k s s1 s2); try assumption. exact (NT l1 f1).
  - apply (on_cc_no k s (turned s1) (turned s2)); try assumption. apply no_turn_00_turned. rewrite !negb_involutive. exact (NT l1 f1).
Qed.
Lemma cc00r_half k s s1 s2 : 0 < k -> 0 < s -> distinct s1 s2 -> never_aligned s1 s2 -> (forall l f, no_turn_00 k s l f s1 s2) -> 
  forall L, ModelCC00R.get_distance k s s1 s2 = Some (Some L) -> L < DBL_MAX -> exists L', ModelCC00R.get_distance k s (turned s1) (turned s2) = Some (Some L') /\ L' < DBL_MAX /\ L' <= L.
Proof.
  intros Hk Hs DI NV NT L E LM. unfold ModelCC00R.get_distance in E. destruct (ModelCC00R.cc00_reeds_shepp k s s1 s2) as [p|] eqn:P; [|discriminate E]. unfold path_distance in E. assert (EL : e_length (h_entry p) = Some L) by congruence.
  assert (SA : length (ModelCC00R.start_circles k s s1) = 4%nat) by (reflexivity). assert (SB : length (ModelCC00R.end_circles k s s2) = 4%nat) by (reflexivity).
  assert (SK : forall i j c1 c2, nth_error (ModelCC00R.start_circles k s s1) i = Some c1 -> nth_error (ModelCC00R.end_circles k s s2) j = Some c2 -> ModelCC00R.skipped (turned s1) (turned s2) (4 - 1 - i)%nat (4 - 1 - j)%nat = ModelCC00R.skipped s1 s2 i j).
  { intros i j c1 c2 N1 N2. unfold ModelCC00R.skipped. sk_tac 4%nat i j N1 N2 SA SB. }
  destruct (turned_plan _ hc_cc_rs_types (ModelCC00R.circles_table k s) (ModelCC00R.circles_table k s) (ModelCC00R.skipped s1 s2) (ModelCC00R.skipped (turned s1) (turned s2)) (ModelCC00R.start_circles k s s1) (ModelCC00R.end_circles k s s2) (ModelCC00R.start_circles k s (turned s1)) (ModelCC00R.end_circles k s (turned s2)) 4
    (PlanCC00R.table_first k s) (PlanCC00R.table_length k s) (nth4 _ _ SA (cc00r_start k s s1)) (nth4 _ _ SB (cc00r_end k s s2)) SK (cc00r_rows k s s1 s2 Hk Hs DI NV NT) p L P EL LM) as (p' & L' & P' & E' & LM' & LE).
  assert (PP : ModelCC00R.cc00_reeds_shepp k s (turned s1) (turned s2) = Some p') by exact P'. exists L'. unfold ModelCC00R.get_distance. rewrite PP. unfold path_distance. rewrite E'. auto.
Qed.
Theorem cc00_reeds_shepp_about k s s1 s2 L : 0 < k -> 0 < s -> distinct s1 s2 -> never_aligned s1 s2 -> (forall l f, no_turn_00 k s l f s1 s2) -> L < DBL_MAX ->
  (ModelCC00R.get_distance k s (turned s1) (turned s2) = Some (Some L) <-> ModelCC00R.get_distance k s s1 s2 = Some (Some L)).
Proof.
  intros Hk Hs DI NV NT LM. pose proof (cc00r_half k s s1 s2 Hk Hs DI NV NT) as F. pose proof (cc00r_half k s (turned s1) (turned s2) Hk Hs (distinct_turned s1 s2 DI) (never_aligned_turned s1 s2 NV) (fun l f => no_turn_00_turned k s l f s1 s2 (NT (negb l) (negb f)))) as H.
  destruct (MovedCC00R.cc00_reeds_shepp_turns k s s1 s2 _ _ (turned_twice s1) (turned_twice s2)) as [T _]. rewrite T in H. split; intros E; [exact (swap_both _ _ H F L LM E)|exact (swap_both _ _ F H L LM E)].
Qed.

(** *** ModelHC0pmR.v *)
Ltac ab_row ::= first [apply AboutHC0pmR.ab_TT | apply AboutHC0pmR.ab_TcT | apply AboutHC0pmR.ab_TcTcT | apply AboutHC0pmR.ab_TcTT | apply AboutHC0pmR.ab_TTcT | apply AboutHC0pmR.ab_TST | apply AboutHC0pmR.ab_TSTcT | apply AboutHC0pmR.ab_TcTST | apply AboutHC0pmR.ab_TcTSTcT | apply AboutHC0pmR.ab_TTcTT | apply AboutHC0pmR.ab_TcTTcT | apply AboutHC0pmR.ab_TTT | apply AboutHC0pmR.ab_TcST | apply AboutHC0pmR.ab_TScT | apply AboutHC0pmR.ab_TcScT].
Lemma hc0pmr_table k s c1 c2 : configuration_equal (c_start c1) (c_start c2) = false -> configuration_equal (ab (c_start c1)) (ab (c_start c2)) = false ->
  ModelHC0pmR.circles_table k s (abc c1) (abc c2) = map abE (ModelHC0pmR.circles_table k s c1 c2).
Proof.
  intros E1 E2. unfold ModelHC0pmR.circles_table. cbv zeta. change (c_start (abc c1)) with (ab (c_start c1)). change (c_start (abc c2)) with (ab (c_start c2)).
  rewrite E1, E2. change (center_distance (abc c1) (abc c2)) with (center_distance c1 c2). destruct (Rltb (center_distance c1 c2) epsilon); [ab_fields; repeat ab_rest; rewrite ?circle_ab, ?negb_involutive, ?hc_len_ab; reflexivity|]. ab_rows c1 c2.
Qed.
Lemma hc0pmr_start k s q : ModelHC0pmR.start_circles k s (turned q) = rev (map abc (ModelHC0pmR.start_circles k s q)).
Proof. unfold ModelHC0pmR.start_circles; cbn [negb rev app map]; rewrite !conf0_turned, !circle_ab; reflexivity. Qed.
Lemma hc0pmr_end k q : ModelHC0pmR.end_circles k (turned q) = rev (map abc (ModelHC0pmR.end_circles k q)).
Proof. unfold ModelHC0pmR.end_circles; cbn [negb rev app map]; rewrite !(confp_turned q k), !(confm_turned q k), !circle_ab; reflexivity. Qed.
Lemma hc0pmr_rows k s s1 s2 : 0 < k -> 0 < s -> distinct s1 s2 -> 
  forall i j c1 c2, ModelHC0pmR.skipped s1 s2 i j = false -> nth_error (ModelHC0pmR.start_circles k s s1) i = Some c1 -> nth_error (ModelHC0pmR.end_circles k s2) j = Some c2 ->
  ModelHC0pmR.circles_table k s (abc c1) (abc c2) = map abE (ModelHC0pmR.circles_table k s c1 c2).
Proof.
  intros Hk Hs DI i j c1 c2 SK N1 N2. destruct (MovedHC0pmR.start_is k s s1 s2 i j c1 SK N1) as (a & l1 & f1 & E1 & A & _). destruct (MovedHC0pmR.end_is k s s1 s2 i j c2 SK N2) as (b & l2 & f2 & E2 & B & _).
  pose proof (at_turned s1 a A) as A'. pose proof (at_turned s2 b B) as B'.
  apply hc0pmr_table; rewrite E1, E2, ?circle_start, ?abc_circle.
  - exact (equal_no s1 s2 a b A B DI).
  - exact (equal_no _ _ _ _ A' B' (distinct_turned s1 s2 DI)).
Qed.
Lemma hc0pmr_half k s s1 s2 : 0 < k -> 0 < s -> distinct s1 s2 -> 
  forall L, ModelHC0pmR.get_distance k s s1 s2 = Some (Some L) -> L < DBL_MAX -> exists L', ModelHC0pmR.get_distance k s (turned s1) (turned s2) = Some (Some L') /\ L' < DBL_MAX /\ L' <= L.
Proof.
  intros Hk Hs DI L E LM. unfold ModelHC0pmR.get_distance in E. destruct (ModelHC0pmR.hc0pm_reeds_shepp k s s1 s2) as [p|] eqn:P; [|discriminate E]. unfold path_distance in E. assert (EL : e_length (h_entry p) = Some L) by congruence.
  assert (SA : length (ModelHC0pmR.start_circles k s s1) = 4%nat) by (reflexivity). assert (SB : length (ModelHC0pmR.end_circles k s2) = 4%nat) by (reflexivity).
  assert (SK : forall i j c1 c2, nth_error (ModelHC0pmR.start_circles k s s1) i = Some c1 -> nth_error (ModelHC0pmR.end_circles k s2) j = Some c2 -> ModelHC0pmR.skipped (turned s1) (turned s2) (4 - 1 - i)%nat (4 - 1 - j)%nat = ModelHC0pmR.skipped s1 s2 i j).
  { intros i j c1 c2 N1 N2. unfold ModelHC0pmR.skipped. sk_tac 4%nat i j N1 N2 SA SB. }
  destruct (turned_plan _ hc_cc_rs_types (ModelHC0pmR.circles_table k s) (ModelHC0pmR.circles_table k s) (ModelHC0pmR.skipped s1 s2) (ModelHC0pmR.skipped (turned s1) (turned s2)) (ModelHC0pmR.start_circles k s s1) (ModelHC0pmR.end_circles k s2) (ModelHC0pmR.start_circles k s (turned s1)) (ModelHC0pmR.end_circles k (turned s2)) 4
    (PlanHC0pmR.table_first k s) (PlanHC0pmR.table_length k s) (nth4 _ _ SA (hc0pmr_start k s s1)) (nth4 _ _ SB (hc0pmr_end k s2)) SK (hc0pmr_rows k s s1 s2 Hk Hs DI) p L P EL LM) as (p' & L' & P' & E' & LM' & LE).
  assert (PP : ModelHC0pmR.hc0pm_reeds_shepp k s (turned s1) (turned s2) = Some p') by exact P'. exists L'. unfold ModelHC0pmR.get_distance. rewrite PP. unfold path_distance. rewrite E'. auto.
Qed.
Theorem hc0pm_reeds_shepp_about k s s1 s2 L : 0 < k -> 0 < s -> distinct s1 s2 -> L < DBL_MAX ->
  (ModelHC0pmR.get_distance k s (turned s1) (turned s2) = Some (Some L) <-> ModelHC0pmR.get_distance k s s1 s2 = Some (Some L)).
Proof.
  intros Hk Hs DI LM. pose proof (hc0pmr_half k s s1 s2 Hk Hs DI) as F. pose proof (hc0pmr_half k s (turned s1) (turned s2) Hk Hs (distinct_turned s1 s2 DI)) as H.
  destruct (MovedHC0pmR.hc0pm_reeds_shepp_turns k s s1 s2 _ _ (turned_twice s1) (turned_twice s2)) as [T _]. rewrite T in H. split; intros E; [exact (swap_both _ _ H F L LM E)|exact (swap_both _ _ F H L LM E)].
Qed.

(** *** ModelHCpm0R.v *)
Ltac ab_row ::= first [apply AboutHCpm0R.ab_TT | apply AboutHCpm0R.ab_TcT | apply AboutHCpm0R.ab_TcTcT | apply AboutHCpm0R.ab_TcTT | apply AboutHCpm0R.ab_TTcT | apply AboutHCpm0R.ab_TST | apply AboutHCpm0R.ab_TSTcT | apply AboutHCpm0R.ab_TcTST | apply AboutHCpm0R.ab_TcTSTcT | apply AboutHCpm0R.ab_TTcTT | apply AboutHCpm0R.ab_TcTTcT | apply AboutHCpm0R.ab_TTT | apply AboutHCpm0R.ab_TcST | apply AboutHCpm0R.ab_TScT | apply AboutHCpm0R.ab_TcScT].
Lemma hcpm0r_table k s c1 c2 : configuration_equal (c_start c1) (c_start c2) = false -> configuration_equal (ab (c_start c1)) (ab (c_start c2)) = false ->
  ModelHCpm0R.circles_table k s (abc c1) (abc c2) = map abE (ModelHCpm0R.circles_table k s c1 c2).
Proof.
  intros E1 E2. unfold ModelHCpm0R.circles_table. cbv zeta. change (c_start (abc c1)) with (ab (c_start c1)). change (c_start (abc c2)) with (ab (c_start c2)).
  rewrite E1, E2. change (center_distance (abc c1) (abc c2)) with (center_distance c1 c2). destruct (Rltb (center_distance c1 c2) epsilon); [ab_fields; repeat ab_rest; rewrite ?circle_ab, ?negb_involutive, ?hc_len_ab; reflexivity|]. ab_rows c1 c2.
Qed.
Lemma hcpm0r_start k q : ModelHCpm0R.start_circles k (turned q) = rev (map abc (ModelHCpm0R.start_circles k q)).
Proof. unfold ModelHCpm0R.start_circles; cbn [negb rev app map]; rewrite !(confp_turned q k), !(confm_turned q k), !circle_ab; reflexivity. Qed.
Lemma hcpm0r_end k s q : ModelHCpm0R.end_circles k s (turned q) = rev (map abc (ModelHCpm0R.end_circles k s q)).
Proof. unfold ModelHCpm0R.end_circles; cbn [negb rev app map]; rewrite !conf0_turned, !circle_ab; reflexivity. Qed.
Lemma hcpm0r_rows k s s1 s2 : 0 < k -> 0 < s -> distinct s1 s2 -> 
  forall i j c1 c2, ModelHCpm0R.skipped s1 s2 i j = false -> nth_error (ModelHCpm0R.start_circles k s1) i = Some c1 -> nth_error (ModelHCpm0R.end_circles k s s2) j = Some c2 ->
  ModelHCpm0R.circles_table k s (abc c1) (abc c2) = map abE (ModelHCpm0R.circles_table k s c1 c2).
Proof.
  intros Hk Hs DI i j c1 c2 SK N1 N2. destruct (MovedHCpm0R.start_is k s s1 s2 i j c1 SK N1) as (a & l1 & f1 & E1 & A & _). destruct (MovedHCpm0R.end_is k s s1 s2 i j c2 SK N2) as (b & l2 & f2 & E2 & B & _).
  pose proof (at_turned s1 a A) as A'. pose proof (at_turned s2 b B) as B'.
  apply hcpm0r_table; rewrite E1, E2, ?circle_start, ?abc_circle.
  - exact (equal_no s1 s2 a b A B DI).
  - exact (equal_no _ _ _ _ A' B' (distinct_turned s1 s2 DI)).
Qed.
Lemma hcpm0r_half k s s1 s2 : 0 < k -> 0 < s -> distinct s1 s2 -> 
  forall L, ModelHCpm0R.get_distance k s s1 s2 = Some (Some L) -> L < DBL_MAX -> exists L', ModelHCpm0R.get_distance k s (turned s1) (turned s2) = Some (Some L') /\ L' < DBL_MAX /\ L' <= L.
Proof.
  intros Hk Hs DI L E LM. unfold ModelHCpm0R.get_distance in E. destruct (ModelHCpm0R.hcpm0_reeds_shepp k s s1 s2) as [p|] eqn:P; [|discriminate E]. unfold path_distance in E. assert (EL : e_length (h_entry p) = Some L) by congruence.
  assert (SA : length (ModelHCpm0R.start_circles k s1) = 4%nat) by (reflexivity). assert (SB : length (ModelHCpm0R.end_circles k s s2) = 4%nat) by (reflexivity).
  assert (SK : forall i j c1 c2, nth_error (ModelHCpm0R.start_circles k s1) i = Some c1 -> nth_error (ModelHCpm0R.end_circles k s s2) j = Some c2 -> ModelHCpm0R.skipped (turned s1) (turned s2) (4 - 1 - i)%nat (4 - 1 - j)%nat = ModelHCpm0R.skipped s1 s2 i j).
  { intros i j c1 c2 N1 N2. unfold ModelHCpm0R.skipped. sk_tac 4%nat i j N1 N2 SA SB. }
  destruct (turned_plan _ hc_cc_rs_types (ModelHCpm0R.circles_table k s) (ModelHCpm0R.circles_table k s) (ModelHCpm0R.skipped s1 s2) (ModelHCpm0R.skipped (turned s1) (turned s2)) (ModelHCpm0R.start_circles k s1) (ModelHCpm0R.end_circles k s s2) (ModelHCpm0R.start_circles k (turned s1)) (ModelHCpm0R.end_circles k s (turned s2)) 4
    (PlanHCpm0R.table_first k s) (PlanHCpm0R.table_length k s) (nth4 _ _ SA (hcpm0r_start k s1)) (nth4 _ _ SB (hcpm0r_end k s s2)) SK (hcpm0r_rows k s s1 s2 Hk Hs DI) p L P EL LM) as (p' & L' & P' & E' & LM' & LE).
  assert (PP : ModelHCpm0R.hcpm0_reeds_shepp k s (turned s1) (turned s2) = Some p') by exact P'. exists L'. unfold ModelHCpm0R.get_distance. rewrite PP. unfold path_distance. rewrite E'. auto.
Qed.
Theorem hcpm0_reeds_shepp_about k s s1 s2 L : 0 < k -> 0 < s -> distinct s1 s2 -> L < DBL_MAX ->
  (ModelHCpm0R.get_distance k s (turned s1) (turned s2) = Some (Some L) <-> ModelHCpm0R.get_distance k s s1 s2 = Some (Some L)).
Proof.
  intros Hk Hs DI LM. pose proof (hcpm0r_half k s s1 s2 Hk Hs DI) as F. pose proof (hcpm0r_half k s (turned s1) (turned s2) Hk Hs (distinct_turned s1 s2 DI)) as H.
  destruct (MovedHCpm0R.hcpm0_reeds_shepp_turns k s s1 s2 _ _ (turned_twice s1) (turned_twice s2)) as [T _]. rewrite T in H. split; intros E; [exact (swap_both _ _ H F L LM E)|exact (swap_both _ _ F H L LM E)].
Qed.

(** *** ModelHCpmpmR.v *)
Ltac ab_row ::= first [apply AboutHCpmpmR.ab_TT | apply AboutHCpmpmR.ab_TcT | apply AboutHCpmpmR.ab_TcTcT | apply AboutHCpmpmR.ab_TcTT | apply AboutHCpmpmR.ab_TTcT | apply AboutHCpmpmR.ab_TST | apply AboutHCpmpmR.ab_TSTcT | apply AboutHCpmpmR.ab_TcTST | apply AboutHCpmpmR.ab_TcTSTcT | apply AboutHCpmpmR.ab_TTcTT | apply AboutHCpmpmR.ab_TcTTcT | apply AboutHCpmpmR.ab_TTT | apply AboutHCpmpmR.ab_TcST | apply AboutHCpmpmR.ab_TScT | apply AboutHCpmpmR.ab_TcScT].
Lemma hcpmpmr_table k s c1 c2 : configuration_equal (c_start c1) (c_start c2) = false -> configuration_equal (ab (c_start c1)) (ab (c_start c2)) = false -> configuration_on_hc_cc_circle c1 (c_start c2) = false -> configuration_on_hc_cc_circle (abc c1) (ab (c_start c2)) = false ->
  ModelHCpmpmR.circles_table k s (abc c1) (abc c2) = map abE (ModelHCpmpmR.circles_table k s c1 c2).
Proof.
  intros E1 E2 T1 T2. unfold ModelHCpmpmR.circles_table. cbv zeta. change (c_start (abc c1)) with (ab (c_start c1)). change (c_start (abc c2)) with (ab (c_start c2)).
  rewrite E1, E2, T1, T2. ab_rows c1 c2.
Qed.
Lemma hcpmpmr_start k q : ModelHCpmpmR.start_circles k (turned q) = rev (map abc (ModelHCpmpmR.start_circles k q)).
Proof. unfold ModelHCpmpmR.start_circles; cbn [negb rev app map]; rewrite !(confp_turned q k), !(confm_turned q k), !circle_ab; reflexivity. Qed.
Lemma hcpmpmr_end k q : ModelHCpmpmR.end_circles k (turned q) = rev (map abc (ModelHCpmpmR.end_circles k q)).
Proof. unfold ModelHCpmpmR.end_circles; cbn [negb rev app map]; rewrite !(confp_turned q k), !(confm_turned q k), !circle_ab; reflexivity. Qed.
Lemma hcpmpmr_rows k s s1 s2 : 0 < k -> 0 < s -> distinct s1 s2 -> (forall l, on_side l s1 -> no_turn_pmpm k l s1 s2) -> 
  forall i j c1 c2, ModelHCpmpmR.skipped s1 s2 i j = false -> nth_error (ModelHCpmpmR.start_circles k s1) i = Some c1 -> nth_error (ModelHCpmpmR.end_circles k s2) j = Some c2 ->
  ModelHCpmpmR.circles_table k s (abc c1) (abc c2) = map abE (ModelHCpmpmR.circles_table k s c1 c2).
Proof.
  intros Hk Hs DI NT i j c1 c2 SK N1 N2. destruct (MovedHCpmpmR.start_is k s s1 s2 i j c1 SK N1) as (a & l1 & f1 & E1 & A & _ & O1). destruct (MovedHCpmpmR.end_is k s s1 s2 i j c2 SK N2) as (b & l2 & f2 & E2 & B & _).
  pose proof (at_turned s1 a A) as A'. pose proof (at_turned s2 b B) as B'.
  apply hcpmpmr_table; rewrite E1, E2, ?circle_start, ?abc_circle.
  - exact (equal_no s1 s2 a b A B DI).
  - exact (equal_no _ _ _ _ A' B' (distinct_turned s1 s2 DI)).
  - apply (on_rs_no k s1 s2); try assumption. exact (NT l1 O1).
  - apply (on_rs_no k (turned s1) (turned s2)); try assumption. apply no_turn_pmpm_turned. rewrite !negb_involutive. exact (NT l1 O1).
Qed.
Lemma hcpmpmr_half k s s1 s2 : 0 < k -> 0 < s -> distinct s1 s2 -> (forall l, on_side l s1 -> no_turn_pmpm k l s1 s2) -> 
  forall L, ModelHCpmpmR.get_distance k s s1 s2 = Some (Some L) -> L < DBL_MAX -> exists L', ModelHCpmpmR.get_distance k s (turned s1) (turned s2) = Some (Some L') /\ L' < DBL_MAX /\ L' <= L.
Proof.
  intros Hk Hs DI NT L E LM. unfold ModelHCpmpmR.get_distance in E. destruct (ModelHCpmpmR.hcpmpm_reeds_shepp k s s1 s2) as [p|] eqn:P; [|discriminate E]. unfold path_distance in E. assert (EL : e_length (h_entry p) = Some L) by congruence.
  assert (SA : length (ModelHCpmpmR.start_circles k s1) = 4%nat) by (reflexivity). assert (SB : length (ModelHCpmpmR.end_circles k s2) = 4%nat) by (reflexivity).
  assert (SK : forall i j c1 c2, nth_error (ModelHCpmpmR.start_circles k s1) i = Some c1 -> nth_error (ModelHCpmpmR.end_circles k s2) j = Some c2 -> ModelHCpmpmR.skipped (turned s1) (turned s2) (4 - 1 - i)%nat (4 - 1 - j)%nat = ModelHCpmpmR.skipped s1 s2 i j).
  { intros i j c1 c2 N1 N2. unfold ModelHCpmpmR.skipped. sk_tac 4%nat i j N1 N2 SA SB. }
  destruct (turned_plan _ hc_cc_rs_types (ModelHCpmpmR.circles_table k s) (ModelHCpmpmR.circles_table k s) (ModelHCpmpmR.skipped s1 s2) (ModelHCpmpmR.skipped (turned s1) (turned s2)) (ModelHCpmpmR.start_circles k s1) (ModelHCpmpmR.end_circles k s2) (ModelHCpmpmR.start_circles k (turned s1)) (ModelHCpmpmR.end_circles k (turned s2)) 4
    (PlanHCpmpmR.table_first k s) (PlanHCpmpmR.table_length k s) (nth4 _ _ SA (hcpmpmr_start k s1)) (nth4 _ _ SB (hcpmpmr_end k s2)) SK (hcpmpmr_rows k s s1 s2 Hk Hs DI NT) p L P EL LM) as (p' & L' & P' & E' & LM' & LE).
  assert (PP : ModelHCpmpmR.hcpmpm_reeds_shepp k s (turned s1) (turned s2) = Some p') by exact P'. exists L'. unfold ModelHCpmpmR.get_distance. rewrite PP. unfold path_distance. rewrite E'. auto.
Qed.
Theorem hcpmpm_reeds_shepp_about k s s1 s2 L : 0 < k -> 0 < s -> distinct s1 s2 -> (forall l, on_side l s1 -> no_turn_pmpm k l s1 s2) -> L < DBL_MAX ->
  (ModelHCpmpmR.get_distance k s (turned s1) (turned s2) = Some (Some L) <-> ModelHCpmpmR.get_distance k s s1 s2 = Some (Some L)).
Proof.
  intros Hk Hs DI NT LM. pose proof (hcpmpmr_half k s s1 s2 Hk Hs DI NT) as F. pose proof (hcpmpmr_half k s (turned s1) (turned s2) Hk Hs (distinct_turned s1 s2 DI) (fun l O => no_turn_pmpm_turned k l s1 s2 (NT (negb l) (side_turned l s1 O)))) as H.
  destruct (MovedHCpmpmR.hcpmpm_reeds_shepp_turns k s s1 s2 _ _ (turned_twice s1) (turned_twice s2)) as [T _]. rewrite T in H. split; intros E; [exact (swap_both _ _ H F L LM E)|exact (swap_both _ _ F H L LM E)].
Qed.

(** *** ModelCC00D.v *)
Ltac ab_row ::= first [apply AboutCC00D.ab_TT | apply AboutCC00D.ab_TST | apply AboutCC00D.ab_TTT].
Lemma cc00d_table k s (fw : bool) c1 c2 : configuration_equal (c_start c1) (c_start c2) = false -> configuration_equal (ab (c_start c1)) (ab (c_start c2)) = false -> configuration_aligned (c_start c1) (c_start c2) = false -> configuration_aligned (c_start c2) (c_start c1) = false -> configuration_aligned (ab (c_start c1)) (ab (c_start c2)) = false -> configuration_aligned (ab (c_start c2)) (ab (c_start c1)) = false -> configuration_on_hc_cc_circle c1 (c_start c2) = false -> configuration_on_hc_cc_circle (abc c1) (ab (c_start c2)) = false ->
  ModelCC00D.circles_table k s (negb fw) (abc c1) (abc c2) = map abE (ModelCC00D.circles_table k s fw c1 c2).
Proof.
  intros E1 E2 A1 A2 A3 A4 T1 T2. unfold ModelCC00D.circles_table. cbv zeta. change (c_start (abc c1)) with (ab (c_start c1)). change (c_start (abc c2)) with (ab (c_start c2)).
  rewrite E1, E2, ?A1, ?A2, ?A3, ?A4, ?andb_false_r, ?T1, ?T2. ab_rows c1 c2.
Qed.
Lemma cc00d_start k s (fw : bool) q : ModelCC00D.start_circles k s (negb fw) (turned q) = rev (map abc (ModelCC00D.start_circles k s fw q)).
Proof. destruct fw; unfold ModelCC00D.start_circles; cbn [negb rev app map]; rewrite !conf0_turned, !circle_ab; reflexivity. Qed.
Lemma cc00d_end k s (fw : bool) q : ModelCC00D.end_circles k s (negb fw) (turned q) = rev (map abc (ModelCC00D.end_circles k s fw q)).
Proof. destruct fw; unfold ModelCC00D.end_circles; cbn [negb rev app map]; rewrite !conf0_turned, !circle_ab; reflexivity. Qed.
Lemma cc00d_rows k s (fw : bool) s1 s2 : 0 < k -> 0 < s -> distinct s1 s2 -> never_aligned s1 s2 -> (forall l, no_turn_00 k s l fw s1 s2) -> 
  forall i j c1 c2, ModelCC00D.skipped s1 s2 i j = false -> nth_error (ModelCC00D.start_circles k s fw s1) i = Some c1 -> nth_error (ModelCC00D.end_circles k s fw s2) j = Some c2 ->
  ModelCC00D.circles_table k s (negb fw) (abc c1) (abc c2) = map abE (ModelCC00D.circles_table k s fw c1 c2).
Proof.
  intros Hk Hs DI NV NT i j c1 c2 SK N1 N2. destruct (MovedCC00D.start_is k s fw s1 s2 i j c1 SK N1) as (a & l1 & E1 & A & _). destruct (MovedCC00D.end_is k s fw s1 s2 i j c2 SK N2) as (b & l2 & E2 & B & _).
  pose proof (at_turned s1 a A) as A'. pose proof (at_turned s2 b B) as B'.
  apply cc00d_table; rewrite E1, E2, ?circle_start, ?abc_circle.
  - exact (equal_no s1 s2 a b A B DI).
  - exact (equal_no _ _ _ _ A' B' (distinct_turned s1 s2 DI)).
  - exact (aligned_no s1 s2 a b A B (proj1 NV)).
  - exact (aligned_no s2 s1 b a B A (proj1 (proj2 NV))).
  - exact (aligned_no _ _ _ _ A' B' (proj1 (proj2 (proj2 NV)))).
  - exact (aligned_no _ _ _ _ B' A' (proj2 (proj2 (proj2 NV)))).
  - apply (on_cc_no k s s1 s2); try assumption. exact (NT l1).
  - apply (on_cc_no k s (turned s1) (turned s2)); try assumption. apply no_turn_00_turned. rewrite !negb_involutive. exact (NT l1).
Qed.
Lemma cc00d_half k s (fw : bool) s1 s2 : 0 < k -> 0 < s -> distinct s1 s2 -> never_aligned s1 s2 -> (forall l, no_turn_00 k s l fw s1 s2) -> 
  forall L, ModelCC00D.get_distance k s fw s1 s2 = Some (Some L) -> L < DBL_MAX -> exists L', ModelCC00D.get_distance k s (negb fw) (turned s1) (turned s2) = Some (Some L') /\ L' < DBL_MAX /\ L' <= L.
Proof.
  intros Hk Hs DI NV NT L E LM. unfold ModelCC00D.get_distance in E. destruct (ModelCC00D.cc00_dubins k s fw s1 s2) as [p|] eqn:P; [|discriminate E]. unfold path_distance in E. assert (EL : e_length (h_entry p) = Some L) by congruence.
  assert (SA : length (ModelCC00D.start_circles k s fw s1) = 2%nat) by (destruct fw; reflexivity). assert (SB : length (ModelCC00D.end_circles k s fw s2) = 2%nat) by (destruct fw; reflexivity).
  assert (SK : forall i j c1 c2, nth_error (ModelCC00D.start_circles k s fw s1) i = Some c1 -> nth_error (ModelCC00D.end_circles k s fw s2) j = Some c2 -> ModelCC00D.skipped (turned s1) (turned s2) (2 - 1 - i)%nat (2 - 1 - j)%nat = ModelCC00D.skipped s1 s2 i j).
  { intros i j c1 c2 N1 N2. unfold ModelCC00D.skipped. sk_tac 2%nat i j N1 N2 SA SB. }
  destruct (turned_plan _ cc_dubins_types (ModelCC00D.circles_table k s fw) (ModelCC00D.circles_table k s (negb fw)) (ModelCC00D.skipped s1 s2) (ModelCC00D.skipped (turned s1) (turned s2)) (ModelCC00D.start_circles k s fw s1) (ModelCC00D.end_circles k s fw s2) (ModelCC00D.start_circles k s (negb fw) (turned s1)) (ModelCC00D.end_circles k s (negb fw) (turned s2)) 2
    (CC00DProofs.table_first k s (negb fw)) (CC00DProofs.table_length k s (negb fw)) (nth2 _ _ SA (cc00d_start k s fw s1)) (nth2 _ _ SB (cc00d_end k s fw s2)) SK (cc00d_rows k s fw s1 s2 Hk Hs DI NV NT) p L P EL LM) as (p' & L' & P' & E' & LM' & LE).
  assert (PP : ModelCC00D.cc00_dubins k s (negb fw) (turned s1) (turned s2) = Some p') by exact P'. exists L'. unfold ModelCC00D.get_distance. rewrite PP. unfold path_distance. rewrite E'. auto.
Qed.
Theorem cc00_dubins_about k s (fw : bool) s1 s2 L : 0 < k -> 0 < s -> distinct s1 s2 -> never_aligned s1 s2 -> (forall l, no_turn_00 k s l fw s1 s2) -> L < DBL_MAX ->
  (ModelCC00D.get_distance k s (negb fw) (turned s1) (turned s2) = Some (Some L) <-> ModelCC00D.get_distance k s fw s1 s2 = Some (Some L)).
Proof.
  intros Hk Hs DI NV NT LM. pose proof (cc00d_half k s fw s1 s2 Hk Hs DI NV NT) as F. pose proof (cc00d_half k s (negb fw) (turned s1) (turned s2) Hk Hs (distinct_turned s1 s2 DI) (never_aligned_turned s1 s2 NV) (fun l => no_turn_00_turned k s l (negb fw) s1 s2 (eq_ind_r (fun b => no_turn_00 k s (negb l) b s1 s2) (NT (negb l)) (negb_involutive fw)))) as H.
  rewrite (negb_involutive fw) in H. destruct (MovedCC00D.cc00_dubins_turns k s fw s1 s2 _ _ (turned_twice s1) (turned_twice s2)) as [T _]. rewrite T in H. split; intros E; [exact (swap_both _ _ H F L LM E)|exact (swap_both _ _ F H L LM E)].
Qed.

(** *** ModelCC0pmD.v *)
Ltac ab_row ::= first [apply AboutCC0pmD.ab_TT | apply AboutCC0pmD.ab_TST | apply AboutCC0pmD.ab_TTT].
Lemma cc0pmd_table k s c1 c2 : configuration_equal (c_start c1) (c_start c2) = false -> configuration_equal (ab (c_start c1)) (ab (c_start c2)) = false ->
  ModelCC0pmD.circles_table k s (abc c1) (abc c2) = map abE (ModelCC0pmD.circles_table k s c1 c2).
Proof.
  intros E1 E2. unfold ModelCC0pmD.circles_table. cbv zeta. change (c_start (abc c1)) with (ab (c_start c1)). change (c_start (abc c2)) with (ab (c_start c2)).
  rewrite E1, E2. change (center_distance (abc c1) (abc c2)) with (center_distance c1 c2). destruct (Rltb (center_distance c1 c2) epsilon); [ab_fields; repeat ab_rest; rewrite ?circle_ab, ?negb_involutive, ?hc_len_ab; reflexivity|]. ab_rows c1 c2.
Qed.
Lemma cc0pmd_start k s (fw : bool) q : ModelCC0pmD.start_circles k s (negb fw) (turned q) = rev (map abc (ModelCC0pmD.start_circles k s fw q)).
Proof. destruct fw; unfold ModelCC0pmD.start_circles; cbn [negb rev app map]; rewrite !conf0_turned, !circle_ab; reflexivity. Qed.
Lemma cc0pmd_end k (fw : bool) q : ModelCC0pmD.end_circles k (negb fw) (turned q) = rev (map abc (ModelCC0pmD.end_circles k fw q)).
Proof. destruct fw; unfold ModelCC0pmD.end_circles; cbn [negb rev app map]; rewrite !(confp_turned q k), !(confm_turned q k), !circle_ab; reflexivity. Qed.
Lemma cc0pmd_rows k s (fw : bool) s1 s2 : 0 < k -> 0 < s -> distinct s1 s2 -> 
  forall i j c1 c2, ModelCC0pmD.skipped s1 s2 i j = false -> nth_error (ModelCC0pmD.start_circles k s fw s1) i = Some c1 -> nth_error (ModelCC0pmD.end_circles k fw s2) j = Some c2 ->
  ModelCC0pmD.circles_table k s (abc c1) (abc c2) = map abE (ModelCC0pmD.circles_table k s c1 c2).
Proof.
  intros Hk Hs DI i j c1 c2 SK N1 N2. destruct (MovedCC0pmD.start_is k s fw s1 s2 i j c1 SK N1) as (a & l1 & E1 & A & _). destruct (MovedCC0pmD.end_is k s fw s1 s2 i j c2 SK N2) as (b & l2 & E2 & B & _).
  pose proof (at_turned s1 a A) as A'. pose proof (at_turned s2 b B) as B'.
  apply cc0pmd_table; rewrite E1, E2, ?circle_start, ?abc_circle.
  - exact (equal_no s1 s2 a b A B DI).
  - exact (equal_no _ _ _ _ A' B' (distinct_turned s1 s2 DI)).
Qed.
Lemma cc0pmd_half k s (fw : bool) s1 s2 : 0 < k -> 0 < s -> distinct s1 s2 -> 
  forall L, ModelCC0pmD.get_distance k s fw s1 s2 = Some (Some L) -> L < DBL_MAX -> exists L', ModelCC0pmD.get_distance k s (negb fw) (turned s1) (turned s2) = Some (Some L') /\ L' < DBL_MAX /\ L' <= L.
Proof.
  intros Hk Hs DI L E LM. unfold ModelCC0pmD.get_distance in E. destruct (ModelCC0pmD.cc0pm_dubins k s fw s1 s2) as [p|] eqn:P; [|discriminate E]. unfold path_distance in E. assert (EL : e_length (h_entry p) = Some L) by congruence.
  assert (SA : length (ModelCC0pmD.start_circles k s fw s1) = 2%nat) by (destruct fw; reflexivity). assert (SB : length (ModelCC0pmD.end_circles k fw s2) = 2%nat) by (destruct fw; reflexivity).
  assert (SK : forall i j c1 c2, nth_error (ModelCC0pmD.start_circles k s fw s1) i = Some c1 -> nth_error (ModelCC0pmD.end_circles k fw s2) j = Some c2 -> ModelCC0pmD.skipped (turned s1) (turned s2) (2 - 1 - i)%nat (2 - 1 - j)%nat = ModelCC0pmD.skipped s1 s2 i j).
  { intros i j c1 c2 N1 N2. unfold ModelCC0pmD.skipped. sk_tac 2%nat i j N1 N2 SA SB. }
  destruct (turned_plan _ cc_dubins_types (ModelCC0pmD.circles_table k s) (ModelCC0pmD.circles_table k s) (ModelCC0pmD.skipped s1 s2) (ModelCC0pmD.skipped (turned s1) (turned s2)) (ModelCC0pmD.start_circles k s fw s1) (ModelCC0pmD.end_circles k fw s2) (ModelCC0pmD.start_circles k s (negb fw) (turned s1)) (ModelCC0pmD.end_circles k (negb fw) (turned s2)) 2
    (PlanCC0pmD.table_first k s) (PlanCC0pmD.table_length k s) (nth2 _ _ SA (cc0pmd_start k s fw s1)) (nth2 _ _ SB (cc0pmd_end k fw s2)) SK (cc0pmd_rows k s fw s1 s2 Hk Hs DI) p L P EL LM) as (p' & L' & P' & E' & LM' & LE).
  assert (PP : ModelCC0pmD.cc0pm_dubins k s (negb fw) (turned s1) (turned s2) = Some p') by exact P'. exists L'. unfold ModelCC0pmD.get_distance. rewrite PP. unfold path_distance. rewrite E'. auto.
Qed.
Theorem cc0pm_dubins_about k s (fw : bool) s1 s2 L : 0 < k -> 0 < s -> distinct s1 s2 -> L < DBL_MAX ->
  (ModelCC0pmD.get_distance k s (negb fw) (turned s1) (turned s2) = Some (Some L) <-> ModelCC0pmD.get_distance k s fw s1 s2 = Some (Some L)).
Proof.
  intros Hk Hs DI LM. pose proof (cc0pmd_half k s fw s1 s2 Hk Hs DI) as F. pose proof (cc0pmd_half k s (negb fw) (turned s1) (turned s2) Hk Hs (distinct_turned s1 s2 DI)) as H.
  rewrite (negb_involutive fw) in H. destruct (MovedCC0pmD.cc0pm_dubins_turns k s fw s1 s2 _ _ (turned_twice s1) (turned_twice s2)) as [T _]. rewrite T in H. split; intros E; [exact (swap_both _ _ H F L LM E)|exact (swap_both _ _ F H L LM E)].
Qed.

(** *** ModelCCpm0D.v *)
Ltac ab_row ::= first [apply AboutCCpm0D.ab_TT | apply AboutCCpm0D.ab_TST | apply AboutCCpm0D.ab_TTT].
Lemma ccpm0d_table k s c1 c2 : configuration_equal (c_start c1) (c_start c2) = false -> configuration_equal (ab (c_start c1)) (ab (c_start c2)) = false ->
  ModelCCpm0D.circles_table k s (abc c1) (abc c2) = map abE (ModelCCpm0D.circles_table k s c1 c2).
Proof.
  intros E1 E2. unfold ModelCCpm0D.circles_table. cbv zeta. change (c_start (abc c1)) with (ab (c_start c1)). change (c_start (abc c2)) with (ab (c_start c2)).
  rewrite E1, E2. change (center_distance (abc c1) (abc c2)) with (center_distance c1 c2). destruct (Rltb (center_distance c1 c2) epsilon); [ab_fields; repeat ab_rest; rewrite ?circle_ab, ?negb_involutive, ?hc_len_ab; reflexivity|]. ab_rows c1 c2.
Qed.
Lemma ccpm0d_start k (fw : bool) q : ModelCCpm0D.start_circles k (negb fw) (turned q) = rev (map abc (ModelCCpm0D.start_circles k fw q)).
Proof. destruct fw; unfold ModelCCpm0D.start_circles; cbn [negb rev app map]; rewrite !(confp_turned q k), !(confm_turned q k), !circle_ab; reflexivity. Qed.
Lemma ccpm0d_end k s (fw : bool) q : ModelCCpm0D.end_circles k s (negb fw) (turned q) = rev (map abc (ModelCCpm0D.end_circles k s fw q)).
Proof. destruct fw; unfold ModelCCpm0D.end_circles; cbn [negb rev app map]; rewrite !conf0_turned, !circle_ab; reflexivity. Qed.
Lemma ccpm0d_rows k s (fw : bool) s1 s2 : 0 < k -> 0 < s -> distinct s1 s2 -> 
  forall i j c1 c2, ModelCCpm0D.skipped s1 s2 i j = false -> nth_error (ModelCCpm0D.start_circles k fw s1) i = Some c1 -> nth_error (ModelCCpm0D.end_circles k s fw s2) j = Some c2 ->
  ModelCCpm0D.circles_table k s (abc c1) (abc c2) = map abE (ModelCCpm0D.circles_table k s c1 c2).
Proof.
  intros Hk Hs DI i j c1 c2 SK N1 N2. destruct (MovedCCpm0D.start_is k s fw s1 s2 i j c1 SK N1) as (a & l1 & E1 & A & _). destruct (MovedCCpm0D.end_is k s fw s1 s2 i j c2 SK N2) as (b & l2 & E2 & B & _).
  pose proof (at_turned s1 a A) as A'. pose proof (at_turned s2 b B) as B'.
  apply ccpm0d_table; rewrite E1, E2, ?circle_start, ?abc_circle.
  - exact (equal_no s1 s2 a b A B DI).
  - exact (equal_no _ _ _ _ A' B' (distinct_turned s1 s2 DI)).
Qed.
Lemma ccpm0d_half k s (fw : bool) s1 s2 : 0 < k -> 0 < s -> distinct s1 s2 -> 
  forall L, ModelCCpm0D.get_distance k s fw s1 s2 = Some (Some L) -> L < DBL_MAX -> exists L', ModelCCpm0D.get_distance k s (negb fw) (turned s1) (turned s2) = Some (Some L') /\ L' < DBL_MAX /\ L' <= L.
Proof.
  intros Hk Hs DI L E LM. unfold ModelCCpm0D.get_distance in E. destruct (ModelCCpm0D.ccpm0_dubins k s fw s1 s2) as [p|] eqn:P; [|discriminate E]. unfold path_distance in E. assert (EL : e_length (h_entry p) = Some L) by congruence.
  assert (SA : length (ModelCCpm0D.start_circles k fw s1) = 2%nat) by (destruct fw; reflexivity). assert (SB : length (ModelCCpm0D.end_circles k s fw s2) = 2%nat) by (destruct fw; reflexivity).
  assert (SK : forall i j c1 c2, nth_error (ModelCCpm0D.start_circles k fw s1) i = Some c1 -> nth_error (ModelCCpm0D.end_circles k s fw s2) j = Some c2 -> ModelCCpm0D.skipped (turned s1) (turned s2) (2 - 1 - i)%nat (2 - 1 - j)%nat = ModelCCpm0D.skipped s1 s2 i j).
  { intros i j c1 c2 N1 N2. unfold ModelCCpm0D.skipped. sk_tac 2%nat i j N1 N2 SA SB. }
  destruct (turned_plan _ cc_dubins_types (ModelCCpm0D.circles_table k s) (ModelCCpm0D.circles_table k s) (ModelCCpm0D.skipped s1 s2) (ModelCCpm0D.skipped (turned s1) (turned s2)) (ModelCCpm0D.start_circles k fw s1) (ModelCCpm0D.end_circles k s fw s2) (ModelCCpm0D.start_circles k (negb fw) (turned s1)) (ModelCCpm0D.end_circles k s (negb fw) (turned s2)) 2
    (PlanCCpm0D.table_first k s) (PlanCCpm0D.table_length k s) (nth2 _ _ SA (ccpm0d_start k fw s1)) (nth2 _ _ SB (ccpm0d_end k s fw s2)) SK (ccpm0d_rows k s fw s1 s2 Hk Hs DI) p L P EL LM) as (p' & L' & P' & E' & LM' & LE).
  assert (PP : ModelCCpm0D.ccpm0_dubins k s (negb fw) (turned s1) (turned s2) = Some p') by exact P'. exists L'. unfold ModelCCpm0D.get_distance. rewrite PP. unfold path_distance. rewrite E'. auto.
Qed.
Theorem ccpm0_dubins_about k s (fw : bool) s1 s2 L : 0 < k -> 0 < s -> distinct s1 s2 -> L < DBL_MAX ->
  (ModelCCpm0D.get_distance k s (negb fw) (turned s1) (turned s2) = Some (Some L) <-> ModelCCpm0D.get_distance k s fw s1 s2 = Some (Some L)).
Proof.
  intros Hk Hs DI LM. pose proof (ccpm0d_half k s fw s1 s2 Hk Hs DI) as F. pose proof (ccpm0d_half k s (negb fw) (turned s1) (turned s2) Hk Hs (distinct_turned s1 s2 DI)) as H.
  rewrite (negb_involutive fw) in H. destruct (MovedCCpm0D.ccpm0_dubins_turns k s fw s1 s2 _ _ (turned_twice s1) (turned_twice s2)) as [T _]. rewrite T in H. split; intros E; [exact (swap_both _ _ H F L LM E)|exact (swap_both _ _ F H L LM E)].
Qed.

(** *** ModelCCpmpmD.v *)
Ltac ab_row ::= first [apply AboutCCpmpmD.ab_TT | apply AboutCCpmpmD.ab_TST | apply AboutCCpmpmD.ab_TTT | apply AboutCCpmpmD.ab_TTTT].
Lemma ccpmpmd_table k s c1 c2 : configuration_equal (c_start c1) (c_start c2) = false -> configuration_equal (ab (c_start c1)) (ab (c_start c2)) = false -> configuration_on_hc_cc_circle c1 (c_start c2) = false -> configuration_on_hc_cc_circle (abc c1) (ab (c_start c2)) = false ->
  ModelCCpmpmD.circles_table k s (abc c1) (abc c2) = map abE (ModelCCpmpmD.circles_table k s c1 c2).
Proof.
  intros E1 E2 T1 T2. unfold ModelCCpmpmD.circles_table. cbv zeta. change (c_start (abc c1)) with (ab (c_start c1)). change (c_start (abc c2)) with (ab (c_start c2)).
  rewrite E1, E2, T1, T2. ab_rows c1 c2.
Qed.
Lemma ccpmpmd_start k (fw : bool) q : ModelCCpmpmD.start_circles k (negb fw) (turned q) = rev (map abc (ModelCCpmpmD.start_circles k fw q)).
Proof. destruct fw; unfold ModelCCpmpmD.start_circles; cbn [negb rev app map]; rewrite !(confp_turned q k), !(confm_turned q k), !circle_ab; reflexivity. Qed.
Lemma ccpmpmd_end k (fw : bool) q : ModelCCpmpmD.end_circles k (negb fw) (turned q) = rev (map abc (ModelCCpmpmD.end_circles k fw q)).
Proof. destruct fw; unfold ModelCCpmpmD.end_circles; cbn [negb rev app map]; rewrite !(confp_turned q k), !(confm_turned q k), !circle_ab; reflexivity. Qed.
Lemma ccpmpmd_rows k s (fw : bool) s1 s2 : 0 < k -> 0 < s -> distinct s1 s2 -> (forall l, on_side l s1 -> no_turn_pmpm k l s1 s2) -> 
  forall i j c1 c2, ModelCCpmpmD.skipped s1 s2 i j = false -> nth_error (ModelCCpmpmD.start_circles k fw s1) i = Some c1 -> nth_error (ModelCCpmpmD.end_circles k fw s2) j = Some c2 ->
  ModelCCpmpmD.circles_table k s (abc c1) (abc c2) = map abE (ModelCCpmpmD.circles_table k s c1 c2).
Proof.
  intros Hk Hs DI NT i j c1 c2 SK N1 N2. destruct (MovedCCpmpmD.start_is k s fw s1 s2 i j c1 SK N1) as (a & l1 & E1 & A & _ & O1). destruct (MovedCCpmpmD.end_is k s fw s1 s2 i j c2 SK N2) as (b & l2 & E2 & B & _).
  pose proof (at_turned s1 a A) as A'. pose proof (at_turned s2 b B) as B'.
  apply ccpmpmd_table; rewrite E1, E2, ?circle_start, ?abc_circle.
  - exact (equal_no s1 s2 a b A B DI).
  - exact (equal_no _ _ _ _ A' B' (distinct_turned s1 s2 DI)).
  - apply (on_rs_no k s1 s2); try assumption. exact (NT l1 O1).
  - apply (on_rs_no k (turned s1) (turned s2)); try assumption. apply no_turn_pmpm_turned. rewrite !negb_involutive. exact (NT l1 O1).
Qed.
Lemma ccpmpmd_half k s (fw : bool) s1 s2 : 0 < k -> 0 < s -> distinct s1 s2 -> (forall l, on_side l s1 -> no_turn_pmpm k l s1 s2) -> 
  forall L, ModelCCpmpmD.get_distance k s fw s1 s2 = Some (Some L) -> L < DBL_MAX -> exists L', ModelCCpmpmD.get_distance k s (negb fw) (turned s1) (turned s2) = Some (Some L') /\ L' < DBL_MAX /\ L' <= L.
Proof.
  intros Hk Hs DI NT L E LM. unfold ModelCCpmpmD.get_distance in E. destruct (ModelCCpmpmD.ccpmpm_dubins k s fw s1 s2) as [p|] eqn:P; [|discriminate E]. unfold path_distance in E. assert (EL : e_length (h_entry p) = Some L) by congruence.
  assert (SA : length (ModelCCpmpmD.start_circles k fw s1) = 2%nat) by (destruct fw; reflexivity). assert (SB : length (ModelCCpmpmD.end_circles k fw s2) = 2%nat) by (destruct fw; reflexivity).
  assert (SK : forall i j c1 c2, nth_error (ModelCCpmpmD.start_circles k fw s1) i = Some c1 -> nth_error (ModelCCpmpmD.end_circles k fw s2) j = Some c2 -> ModelCCpmpmD.skipped (turned s1) (turned s2) (2 - 1 - i)%nat (2 - 1 - j)%nat = ModelCCpmpmD.skipped s1 s2 i j).
  { intros i j c1 c2 N1 N2. unfold ModelCCpmpmD.skipped. sk_tac 2%nat i j N1 N2 SA SB. }
  destruct (turned_plan _ cc_dubins_types (ModelCCpmpmD.circles_table k s) (ModelCCpmpmD.circles_table k s) (ModelCCpmpmD.skipped s1 s2) (ModelCCpmpmD.skipped (turned s1) (turned s2)) (ModelCCpmpmD.start_circles k fw s1) (ModelCCpmpmD.end_circles k fw s2) (ModelCCpmpmD.start_circles k (negb fw) (turned s1)) (ModelCCpmpmD.end_circles k (negb fw) (turned s2)) 2
    (PlanCCpmpmD.table_first k s) (PlanCCpmpmD.table_length k s) (nth2 _ _ SA (ccpmpmd_start k fw s1)) (nth2 _ _ SB (ccpmpmd_end k fw s2)) SK (ccpmpmd_rows k s fw s1 s2 Hk Hs DI NT) p L P EL LM) as (p' & L' & P' & E' & LM' & LE).
  assert (PP : ModelCCpmpmD.ccpmpm_dubins k s (negb fw) (turned s1) (turned s2) = Some p') by exact P'. exists L'. unfold ModelCCpmpmD.get_distance. rewrite PP. unfold path_distance. rewrite E'. auto.
Qed.
Theorem ccpmpm_dubins_about k s (fw : bool) s1 s2 L : 0 < k -> 0 < s -> distinct s1 s2 -> (forall l, on_side l s1 -> no_turn_pmpm k l s1 s2) -> L < DBL_MAX ->
  (ModelCCpmpmD.get_distance k s (negb fw) (turned s1) (turned s2) = Some (Some L) <-> ModelCCpmpmD.get_distance k s fw s1 s2 = Some (Some L)).
Proof.
  intros Hk Hs DI NT LM. pose proof (ccpmpmd_half k s fw s1 s2 Hk Hs DI NT) as F. pose proof (ccpmpmd_half k s (negb fw) (turned s1) (turned s2) Hk Hs (distinct_turned s1 s2 DI) (fun l O => no_turn_pmpm_turned k l s1 s2 (NT (negb l) (side_turned l s1 O)))) as H.
  rewrite (negb_involutive fw) in H. destruct (MovedCCpmpmD.ccpmpm_dubins_turns k s fw s1 s2 _ _ (turned_twice s1) (turned_twice s2)) as [T _]. rewrite T in H. split; intros E; [exact (swap_both _ _ H F L LM E)|exact (swap_both _ _ F H L LM E)].
Qed.

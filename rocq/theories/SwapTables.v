(** * The tables of candidates with start and goal exchanged *)
From Coq Require Import Reals ZArith List Lra Lia Bool.
From Verif Require Import Base ModelUtil ModelIntegrate ModelCircle ModelPaths Num UtilProofs SpecPath SpecTurn PoseAlg TurnProofs MotionProofs TangentProofs PlanProofs PlanFamily PlanTactics RigidBase RigidTactics SwapBase SwapTactics.
From Verif Require ModelCC00D ModelCC0pmD ModelCCpm0D ModelCCpmpmD ModelCC00R ModelHC00R ModelHC0pmR ModelHCpm0R ModelHCpmpmR.
From Verif Require SwapCC00D SwapCC0pmD SwapCCpmpmD SwapCC00R SwapHC00R SwapHC0pmR SwapHCpmpmR.
Import ListNotations.
Open Scope R_scope.

(** ** The tables *)
Lemma equal_flip a b : configuration_equal b a = configuration_equal a b.
Proof.
  unfold configuration_equal. rewrite (Rabs_minus_sym (q_theta a)). replace (configuration_distance b a) with (configuration_distance a b); [reflexivity|].
  unfold configuration_distance, point_distance. f_equal. ring.
Qed.
Lemma dist_flip a b : configuration_distance b a = configuration_distance a b.
Proof. unfold configuration_distance, point_distance. f_equal. ring. Qed.
(** The rows of the planner at hand; redefined for each. *)
Ltac sw_rows := fail.
Ltac sw_in := cbn [In]; repeat (first [left; reflexivity | right]).
Ltac sw_pick l :=
  lazymatch l with ?h :: ?t => first [exists h; split; [solve [sw_in]|cbn [e_length no_entry]; first [reflexivity | apply f_equal; apply dist_flip]] | sw_pick t] end.
Ltac sw_row :=
  first [ exists no_entry; split; [solve [sw_in]|reflexivity]
        | eexists; split; cycle 1; [solve [symmetry; sw_rows | sw_rows]|solve [sw_in]]
        | match goal with |- exists e', In e' ?l /\ _ => sw_pick l end ].
Ltac sw_all := let e := fresh "e" in let IN := fresh "IN" in intros e IN; cbn [In] in IN; repeat (destruct IN as [<-|IN]; [sw_row|]); destruct IN.
Ltac sw_pair c1 c2 N :=
  let XY := fresh "XY" in let CS := fresh "CS" in let A := fresh "A" in
  pose proof (proj2 (centres c1 c2)) as XY; pose proof (atan_flip c1 c2 N) as A;
  pose proof (conj (flip_cos _ _ A) (flip_sin _ _ A)) as CS; cbv zeta in XY.
Ltac sw_table c1 c2 O1 O2 HP :=
  rewrite ?(equal_flip (c_start c1) (c_start c2)), (center_flip c1 c2), O1, O2, ?negb_involutive;
  destruct (configuration_equal (c_start c1) (c_start c2)); [sw_all|];
  try (destruct (configuration_aligned (c_start c1) (c_start c2)), (configuration_aligned (c_start c2) (c_start c1)); try match goal with |- context [if ?f && _ then _ else _] => is_var f; destruct f end; cbn [negb andb]);
  try solve [sw_all];
  (assert (N : center_distance c1 c2 <> 0) by (let Z := fresh "Z" in destruct HP as [Z|[Z _]]; [lra|exact Z]); sw_pair c1 c2 N; pose proof (eq_refl (center_distance c1 c2)) as HD; pose proof (eq_refl (atan2 (c_yc c2 - c_yc c1) (c_xc c2 - c_xc c1))) as HA; sw_all).
Ltac sw_table_mixed c1 c2 HP :=
  rewrite ?(equal_flip (c_start c1) (c_start c2)), (center_flip c1 c2);
  destruct (configuration_equal (c_start c1) (c_start c2)); [sw_all|];
  let E := fresh "E" in destruct (Rltb (center_distance c1 c2) epsilon) eqn:E; [sw_all|];
  (assert (N : center_distance c1 c2 <> 0) by (apply Rltb_false in E; unfold epsilon in E; lra); specialize (HP N); sw_pair c1 c2 N; pose proof (eq_refl (center_distance c1 c2)) as HD; pose proof (eq_refl (atan2 (c_yc c2 - c_yc c1) (c_xc c2 - c_xc c1))) as HA; sw_all).

Ltac sw_rows ::=
  first [eapply SwapHC00R.sw_TT; eassumption
    | eapply SwapHC00R.sw_TcT; eassumption
    | eapply SwapHC00R.sw_TcTcT; eassumption
    | eapply SwapHC00R.sw_TcTT; eassumption
    | eapply SwapHC00R.sw_TTcT; eassumption
    | eapply SwapHC00R.sw_TST; eassumption
    | eapply SwapHC00R.sw_TSTcT; eassumption
    | eapply SwapHC00R.sw_TcTST; eassumption
    | eapply SwapHC00R.sw_TcTSTcT; eassumption
    | eapply SwapHC00R.sw_TTcTT; eassumption
    | eapply SwapHC00R.sw_TcTTcT; eassumption
    | eapply SwapHC00R.sw_TTT; eassumption
    | eapply SwapHC00R.sw_TcST; eassumption
    | eapply SwapHC00R.sw_TScT; eassumption
    | eapply SwapHC00R.sw_TcScT; eassumption].
Lemma hc00r_table k s c1 c2 : par true k s true c1 -> par true k s true c2 -> configuration_on_hc_cc_circle c1 (c_start c2) = false -> configuration_on_hc_cc_circle c2 (c_start c1) = false -> apart 1 k s true true c1 c2 ->
  forall e, In e (ModelHC00R.circles_table k s c1 c2) -> exists e', In e' (ModelHC00R.circles_table k s c2 c1) /\ e_length e' = e_length e.
Proof.
  intros P1 P2 O1 O2 HP. unfold ModelHC00R.circles_table. cbv zeta. sw_table c1 c2 O1 O2 HP.
Qed.

Ltac sw_rows ::=
  first [eapply SwapCC00D.sw_TT; eassumption
    | eapply SwapCC00D.sw_TST; eassumption
    | eapply SwapCC00D.sw_TTT; eassumption].
Lemma cc00d_table k s (fw : bool) c1 c2 : par true k s true c1 -> par true k s true c2 -> configuration_on_hc_cc_circle c1 (c_start c2) = false -> configuration_on_hc_cc_circle c2 (c_start c1) = false -> apart 1 k s true true c1 c2 ->
  forall e, In e (ModelCC00D.circles_table k s fw c1 c2) -> exists e', In e' (ModelCC00D.circles_table k s (negb fw) c2 c1) /\ e_length e' = e_length e.
Proof.
  intros P1 P2 O1 O2 HP. unfold ModelCC00D.circles_table. cbv zeta. sw_table c1 c2 O1 O2 HP.
Qed.

Ltac sw_rows ::=
  first [eapply SwapCC0pmD.sw_TT; eassumption
    | eapply SwapCC0pmD.sw_TST; eassumption
    | eapply SwapCC0pmD.sw_TTT; eassumption].
Lemma cc0pmd_table k s c1 c2 : par true k s true c1 -> par true k s false c2 -> (center_distance c1 c2 <> 0 -> apart 1 k s true false c1 c2) ->
  forall e, In e (ModelCC0pmD.circles_table k s c1 c2) -> exists e', In e' (ModelCCpm0D.circles_table k s c2 c1) /\ e_length e' = e_length e.
Proof.
  intros P1 P2 HP. unfold ModelCC0pmD.circles_table, ModelCCpm0D.circles_table. cbv zeta. sw_table_mixed c1 c2 HP.
Qed.
Lemma ccpm0d_table k s c1 c2 : par true k s true c1 -> par true k s false c2 -> (center_distance c1 c2 <> 0 -> apart 1 k s true false c1 c2) ->
  forall e, In e (ModelCCpm0D.circles_table k s c2 c1) -> exists e', In e' (ModelCC0pmD.circles_table k s c1 c2) /\ e_length e' = e_length e.
Proof.
  intros P1 P2 HP. unfold ModelCC0pmD.circles_table, ModelCCpm0D.circles_table. cbv zeta. sw_table_mixed c1 c2 HP.
Qed.

Ltac sw_rows ::=
  first [eapply SwapCCpmpmD.sw_TT; eassumption
    | eapply SwapCCpmpmD.sw_TST; eassumption
    | eapply SwapCCpmpmD.sw_TTT; eassumption
    | eapply SwapCCpmpmD.sw_TTTT; eassumption].
Lemma ccpmpmd_table k s c1 c2 : par true k s false c1 -> par true k s false c2 -> configuration_on_hc_cc_circle c1 (c_start c2) = false -> configuration_on_hc_cc_circle c2 (c_start c1) = false -> apart 1 k s false false c1 c2 ->
  forall e, In e (ModelCCpmpmD.circles_table k s c1 c2) -> exists e', In e' (ModelCCpmpmD.circles_table k s c2 c1) /\ e_length e' = e_length e.
Proof.
  intros P1 P2 O1 O2 HP. unfold ModelCCpmpmD.circles_table. cbv zeta. sw_table c1 c2 O1 O2 HP.
Qed.

Ltac sw_rows ::=
  first [eapply SwapCC00R.sw_TT; eassumption
    | eapply SwapCC00R.sw_TcT; eassumption
    | eapply SwapCC00R.sw_TcTcT; eassumption
    | eapply SwapCC00R.sw_TcTT; eassumption
    | eapply SwapCC00R.sw_TTcT; eassumption
    | eapply SwapCC00R.sw_TST; eassumption
    | eapply SwapCC00R.sw_TSTcT; eassumption
    | eapply SwapCC00R.sw_TcTST; eassumption
    | eapply SwapCC00R.sw_TcTSTcT; eassumption
    | eapply SwapCC00R.sw_TTcTT; eassumption
    | eapply SwapCC00R.sw_TcTTcT; eassumption
    | eapply SwapCC00R.sw_TTT; eassumption
    | eapply SwapCC00R.sw_TcST; eassumption
    | eapply SwapCC00R.sw_TScT; eassumption
    | eapply SwapCC00R.sw_TcScT; eassumption].
Lemma cc00r_table k s c1 c2 : par false k s true c1 -> par false k s true c2 -> configuration_on_hc_cc_circle c1 (c_start c2) = false -> configuration_on_hc_cc_circle c2 (c_start c1) = false -> apart 1 k s true true c1 c2 ->
  forall e, In e (ModelCC00R.circles_table k s c1 c2) -> exists e', In e' (ModelCC00R.circles_table k s c2 c1) /\ e_length e' = e_length e.
Proof.
  intros P1 P2 O1 O2 HP. unfold ModelCC00R.circles_table. cbv zeta. sw_table c1 c2 O1 O2 HP.
Qed.

Ltac sw_rows ::=
  first [eapply SwapHC0pmR.sw_TT; eassumption
    | eapply SwapHC0pmR.sw_TcT; eassumption
    | eapply SwapHC0pmR.sw_TcTcT; eassumption
    | eapply SwapHC0pmR.sw_TcTT; eassumption
    | eapply SwapHC0pmR.sw_TTcT; eassumption
    | eapply SwapHC0pmR.sw_TST; eassumption
    | eapply SwapHC0pmR.sw_TSTcT; eassumption
    | eapply SwapHC0pmR.sw_TcTST; eassumption
    | eapply SwapHC0pmR.sw_TcTSTcT; eassumption
    | eapply SwapHC0pmR.sw_TTcTT; eassumption
    | eapply SwapHC0pmR.sw_TcTTcT; eassumption
    | eapply SwapHC0pmR.sw_TTT; eassumption
    | eapply SwapHC0pmR.sw_TcST; eassumption
    | eapply SwapHC0pmR.sw_TScT; eassumption
    | eapply SwapHC0pmR.sw_TcScT; eassumption].
Lemma hc0pmr_table k s c1 c2 : par true k s true c1 -> par true k s false c2 -> (center_distance c1 c2 <> 0 -> apart 1 k s true false c1 c2) ->
  forall e, In e (ModelHC0pmR.circles_table k s c1 c2) -> exists e', In e' (ModelHCpm0R.circles_table k s c2 c1) /\ e_length e' = e_length e.
Proof.
  intros P1 P2 HP. unfold ModelHC0pmR.circles_table, ModelHCpm0R.circles_table. cbv zeta. sw_table_mixed c1 c2 HP.
Qed.
Lemma hcpm0r_table k s c1 c2 : par true k s true c1 -> par true k s false c2 -> (center_distance c1 c2 <> 0 -> apart 1 k s true false c1 c2) ->
  forall e, In e (ModelHCpm0R.circles_table k s c2 c1) -> exists e', In e' (ModelHC0pmR.circles_table k s c1 c2) /\ e_length e' = e_length e.
Proof.
  intros P1 P2 HP. unfold ModelHC0pmR.circles_table, ModelHCpm0R.circles_table. cbv zeta. sw_table_mixed c1 c2 HP.
Qed.

Ltac sw_rows ::=
  first [eapply SwapHCpmpmR.sw_TT; eassumption
    | eapply SwapHCpmpmR.sw_TcT; eassumption
    | eapply SwapHCpmpmR.sw_TcTcT; eassumption
    | eapply SwapHCpmpmR.sw_TcTT; eassumption
    | eapply SwapHCpmpmR.sw_TTcT; eassumption
    | eapply SwapHCpmpmR.sw_TST; eassumption
    | eapply SwapHCpmpmR.sw_TSTcT; eassumption
    | eapply SwapHCpmpmR.sw_TcTST; eassumption
    | eapply SwapHCpmpmR.sw_TcTSTcT; eassumption
    | eapply SwapHCpmpmR.sw_TTcTT; eassumption
    | eapply SwapHCpmpmR.sw_TcTTcT; eassumption
    | eapply SwapHCpmpmR.sw_TTT; eassumption
    | eapply SwapHCpmpmR.sw_TcST; eassumption
    | eapply SwapHCpmpmR.sw_TScT; eassumption
    | eapply SwapHCpmpmR.sw_TcScT; eassumption].
Lemma hcpmpmr_table k s c1 c2 : par true k s false c1 -> par true k s false c2 -> configuration_on_hc_cc_circle c1 (c_start c2) = false -> configuration_on_hc_cc_circle c2 (c_start c1) = false -> apart 1 k s false false c1 c2 ->
  forall e, In e (ModelHCpmpmR.circles_table k s c1 c2) -> exists e', In e' (ModelHCpmpmR.circles_table k s c2 c1) /\ e_length e' = e_length e.
Proof.
  intros P1 P2 O1 O2 HP. unfold ModelHCpmpmR.circles_table. cbv zeta. sw_table c1 c2 O1 O2 HP.
Qed.


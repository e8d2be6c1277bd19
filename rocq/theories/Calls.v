(** * The assertions on measured turns hold *)
From Coq Require Import Reals List Lra Bool.
From Verif Require Import Base ModelUtil ModelCircle ModelPaths ModelAsserts ModelCalls Num AssertTac.
From Verif Require ModelCC00D ModelCC0pmD ModelCCpm0D ModelCCpmpmD ModelCC00R ModelHC00R ModelHC0pmR ModelHCpm0R ModelHCpmpmR.
Import ListNotations.
Open Scope R_scope.

(** Follow the computation of the circles and configurations in the goal. *)
Ltac cut_goal x := let E := fresh "E" in destruct x eqn:E.
Ltac follow := repeat match goal with
  | |- True => exact I
  | |- given ?x _ => cut_goal x; cbn [given]
  | |- (match ?x with _ => _ end) => cut_goal x
  | |- _ => progress cbv zeta beta
  end.
Ltac call := match goal with |- ?t => let h := head t in unfold h end; follow; repeat step; asserts.
Ltac calls := cbv zeta; repeat lazymatch goal with |- _ /\ _ => split end; try solve [asserts]; call.

Lemma calls_hold_CC00D (k s : R) c1 c2 : straight_end k c1 -> straight_end k c2 -> calls_CC00D k s c1 c2.
Proof. intros (K1 & Q1) (K2 & Q2). unfold calls_CC00D. calls. Qed.
Lemma calls_hold_CC0pmD (k s : R) c1 c2 : straight_end k c1 -> curved_end k c2 -> calls_CC0pmD k s c1 c2.
Proof. intros (K1 & Q1) (K2 & Q2). unfold calls_CC0pmD. destruct Q2 as (Q2 & S2). calls. Qed.
Lemma calls_hold_CCpm0D (k s : R) c1 c2 : curved_end k c1 -> straight_end k c2 -> calls_CCpm0D k s c1 c2.
Proof. intros (K1 & Q1) (K2 & Q2). unfold calls_CCpm0D. destruct Q1 as (Q1 & S1). calls. Qed.
Lemma calls_hold_CCpmpmD (k s : R) c1 c2 : curved_end k c1 -> curved_end k c2 -> calls_CCpmpmD k s c1 c2.
Proof. intros (K1 & Q1) (K2 & Q2). unfold calls_CCpmpmD. destruct Q1 as (Q1 & S1). destruct Q2 as (Q2 & S2). calls. Qed.
Lemma calls_hold_CC00R (k s : R) c1 c2 : straight_end k c1 -> straight_end k c2 -> calls_CC00R k s c1 c2.
Proof. intros (K1 & Q1) (K2 & Q2). unfold calls_CC00R. calls. Qed.
Lemma calls_hold_HC00R (k s : R) c1 c2 : straight_end k c1 -> straight_end k c2 -> calls_HC00R k s c1 c2.
Proof. intros (K1 & Q1) (K2 & Q2). unfold calls_HC00R. calls. Qed.
Lemma calls_hold_HC0pmR (k s : R) c1 c2 : straight_end k c1 -> curved_end k c2 -> calls_HC0pmR k s c1 c2.
Proof. intros (K1 & Q1) (K2 & Q2). unfold calls_HC0pmR. destruct Q2 as (Q2 & S2). calls. Qed.
Lemma calls_hold_HCpm0R (k s : R) c1 c2 : curved_end k c1 -> straight_end k c2 -> calls_HCpm0R k s c1 c2.
Proof. intros (K1 & Q1) (K2 & Q2). unfold calls_HCpm0R. destruct Q1 as (Q1 & S1). calls. Qed.
Lemma calls_hold_HCpmpmR (k s : R) c1 c2 : curved_end k c1 -> curved_end k c2 -> calls_HCpmpmR k s c1 c2.
Proof. intros (K1 & Q1) (K2 & Q2). unfold calls_HCpmpmR. destruct Q1 as (Q1 & S1). destruct Q2 as (Q2 & S2). calls. Qed.

Lemma all_calls_hold (k s : R) (forward : bool) (s1 s2 : State) :
  (forall c1 c2, In c1 (ModelCC00D.start_circles k s forward s1) -> In c2 (ModelCC00D.end_circles k s forward s2) -> calls_CC00D k s c1 c2) /\
  (forall c1 c2, In c1 (ModelCC0pmD.start_circles k s forward s1) -> In c2 (ModelCC0pmD.end_circles k forward s2) -> calls_CC0pmD k s c1 c2) /\
  (forall c1 c2, In c1 (ModelCCpm0D.start_circles k forward s1) -> In c2 (ModelCCpm0D.end_circles k s forward s2) -> calls_CCpm0D k s c1 c2) /\
  (forall c1 c2, In c1 (ModelCCpmpmD.start_circles k forward s1) -> In c2 (ModelCCpmpmD.end_circles k forward s2) -> calls_CCpmpmD k s c1 c2) /\
  (forall c1 c2, In c1 (ModelCC00R.start_circles k s s1) -> In c2 (ModelCC00R.end_circles k s s2) -> calls_CC00R k s c1 c2) /\
  (forall c1 c2, In c1 (ModelHC00R.start_circles k s s1) -> In c2 (ModelHC00R.end_circles k s s2) -> calls_HC00R k s c1 c2) /\
  (forall c1 c2, In c1 (ModelHC0pmR.start_circles k s s1) -> In c2 (ModelHC0pmR.end_circles k s2) -> calls_HC0pmR k s c1 c2) /\
  (forall c1 c2, In c1 (ModelHCpm0R.start_circles k s1) -> In c2 (ModelHCpm0R.end_circles k s s2) -> calls_HCpm0R k s c1 c2) /\
  (forall c1 c2, In c1 (ModelHCpmpmR.start_circles k s1) -> In c2 (ModelHCpmpmR.end_circles k s2) -> calls_HCpmpmR k s c1 c2).
Proof.
  split. { intros c1 c2 I1 I2. apply calls_hold_CC00D; [unfold ModelCC00D.start_circles in I1; destruct forward; ends|unfold ModelCC00D.end_circles in I2; destruct forward; ends]. }
  split. { intros c1 c2 I1 I2. apply calls_hold_CC0pmD; [unfold ModelCC0pmD.start_circles in I1; destruct forward; ends|unfold ModelCC0pmD.end_circles in I2; destruct forward; ends]. }
  split. { intros c1 c2 I1 I2. apply calls_hold_CCpm0D; [unfold ModelCCpm0D.start_circles in I1; destruct forward; ends|unfold ModelCCpm0D.end_circles in I2; destruct forward; ends]. }
  split. { intros c1 c2 I1 I2. apply calls_hold_CCpmpmD; [unfold ModelCCpmpmD.start_circles in I1; destruct forward; ends|unfold ModelCCpmpmD.end_circles in I2; destruct forward; ends]. }
  split. { intros c1 c2 I1 I2. apply calls_hold_CC00R; [unfold ModelCC00R.start_circles in I1; ends|unfold ModelCC00R.end_circles in I2; ends]. }
  split. { intros c1 c2 I1 I2. apply calls_hold_HC00R; [unfold ModelHC00R.start_circles in I1; ends|unfold ModelHC00R.end_circles in I2; ends]. }
  split. { intros c1 c2 I1 I2. apply calls_hold_HC0pmR; [unfold ModelHC0pmR.start_circles in I1; ends|unfold ModelHC0pmR.end_circles in I2; ends]. }
  split. { intros c1 c2 I1 I2. apply calls_hold_HCpm0R; [unfold ModelHCpm0R.start_circles in I1; ends|unfold ModelHCpm0R.end_circles in I2; ends]. }
  { intros c1 c2 I1 I2. apply calls_hold_HCpmpmR; [unfold ModelHCpmpmR.start_circles in I1; ends|unfold ModelHCpmpmR.end_circles in I2; ends]. }
Qed.

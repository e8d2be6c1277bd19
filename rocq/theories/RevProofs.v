(** * The planners that may reverse against the planners that may not *)
From Coq Require Import Reals ZArith List Lra Lia Bool.
From Verif Require Import Base ModelUtil ModelCircle ModelPaths Num UtilProofs SpecPath SpecTurn SpecPlan PoseAlg TurnProofs PlanProofs PlanTactics PlanFamily PlanBounds PlanSelect.
From Verif Require ModelCC00D ModelCC0pmD ModelCCpm0D ModelCCpmpmD ModelCC00R ModelHC00R ModelHC0pmR ModelHCpm0R ModelHCpmpmR.
From Verif Require CC00DProofs PlanCC00R PlanHC00R PlanHC0pmR PlanHCpm0R PlanHCpmpmR PlanCC0pmD PlanCCpm0D PlanCCpmpmD.
Import ListNotations.
Open Scope R_scope.

(** ** A turn that may reverse is not longer *)
Lemma circular_le m d : Rabs (circular_deflection false m d) <= Rabs (circular_deflection true m d).
Proof.
  unfold circular_deflection. destruct (Rlt_dec d m) as [A|A].
  - destruct (Rlt_dec (Rabs (d - m)) (Rabs (d - m + TWO_PI))) as [B|B].
    + replace (TWO_PI + d - m) with (d - m + TWO_PI) by ring. lra.
    + right. f_equal. ring.
  - destruct (Rlt_dec (Rabs (d - m)) (Rabs (d - m - TWO_PI))) as [B|B]; [right; reflexivity|]. apply Rnot_lt_le in B. exact B.
Qed.
Lemma circle_irregular start l f reg p : let c := circle start l f reg p in let d := circle start l f true p in
  c_start c = c_start d /\ c_left c = c_left d /\ c_forward c = c_forward d /\ c_xc c = c_xc d /\ c_yc c = c_yc d /\ c_kappa c = c_kappa d /\ c_kappa_inv c = c_kappa_inv d /\ c_sigma c = c_sigma d /\
  c_radius c = c_radius d /\ c_mu c = c_mu d /\ c_sin_mu c = c_sin_mu d /\ c_cos_mu c = c_cos_mu d /\ c_delta_min c = c_delta_min d /\ c_regular c = reg /\ c_regular d = true.
Proof.
  cbv zeta. unfold circle. destruct l, f; match goal with |- context [global_frame_change ?a ?b ?c ?d ?e] => destruct (global_frame_change a b c d e) end; cbn; repeat split.
Qed.
Lemma deflection_irregular start l f reg p q : deflection (circle start l f reg p) q = deflection (circle start l f true p) q.
Proof. destruct (circle_irregular start l f reg p) as (A & B & C & _). unfold deflection. rewrite A, B, C. reflexivity. Qed.
Lemma hc_turn_irregular start l f p q : hc_turn_length (circle start l f false p) q <= hc_turn_length (circle start l f true p) q.
Proof.
  unfold hc_turn_length. cbv zeta. rewrite deflection_irregular. destruct (circle_irregular start l f false p) as (A & B & C & _ & _ & K & KI & S & _ & _ & _ & _ & DM & R & R').
  rewrite K, KI, S. apply Rplus_le_compat_l. rewrite !Rabs_mult. apply Rmult_le_compat_l; [apply Rabs_pos|]. unfold hc_circular_deflection. rewrite R, R', DM. apply circular_le.
Qed.
Lemma cc_turn_irregular start l f p q : cc_turn_length (circle start l f false p) q <= cc_turn_length (circle start l f true p) q.
Proof.
  unfold cc_turn_length. cbv zeta. rewrite deflection_irregular. destruct (circle_irregular start l f false p) as (A & B & C & _ & _ & K & KI & S & RA & _ & SM & _ & DM & R & R').
  rewrite K, KI, S, RA, SM, DM. destruct (Rlt_dec _ epsilon); [lra|].
  assert (D : Rabs (c_kappa_inv (circle start l f true p) * cc_circular_deflection (circle start l f false p) (deflection (circle start l f true p) q)) <=
    Rabs (c_kappa_inv (circle start l f true p) * cc_circular_deflection (circle start l f true p) (deflection (circle start l f true p) q))).
  { rewrite !Rabs_mult. apply Rmult_le_compat_l; [apply Rabs_pos|]. unfold cc_circular_deflection. rewrite R, R', DM. apply circular_le. }
  set (u := Rabs (_ * cc_circular_deflection (circle start l f false p) _)) in *. set (v := Rabs (_ * cc_circular_deflection (circle start l f true p) _)) in *. clearbody u v.
  assert (ES : cc_elementary_sharpness (circle start l f false p) q (deflection (circle start l f true p) q) = cc_elementary_sharpness (circle start l f true p) q (deflection (circle start l f true p) q)).
  { unfold cc_elementary_sharpness. rewrite A, B. reflexivity. }
  rewrite ES. generalize dependent (cc_elementary_sharpness (circle start l f true p) q (deflection (circle start l f true p) q)). intros z _.
  generalize (2 * Rabs (c_kappa (circle start l f true p) / c_sigma (circle start l f true p))). intros m.
  destruct (Rlt_dec _ (2 * c_delta_min _)); [|lra]. destruct z as [z|]; [|lra].
  repeat match goal with |- context [Rlt_dec ?a ?b] => destruct (Rlt_dec a b) end; lra.
Qed.

(** ** The tables of candidates *)
Definition not_longer (P : cc_dubins_type -> Prop) (t1 t2 : list Entry) (M : R -> R -> Prop) : Prop :=
  forall t e w, P t -> In (t, e) (combine cc_dubins_types t1) -> e_length e = Some w -> w < DBL_MAX -> exists e' w', In e' t2 /\ e_length e' = Some w' /\ M w' w.
Lemma no_entry_length w : e_length no_entry = Some w -> w < DBL_MAX -> False.
Proof. intros E L. apply (f_equal (fun o => match o with Some y => y | None => 0 end)) in E. cbn in E. lra. Qed.
Definition entry_le (e e' : Entry) : Prop := forall w, e_length e = Some w -> w < DBL_MAX -> exists w', e_length e' = Some w' /\ w' <= w.
Lemma entry_le_refl e : entry_le e e.
Proof. intros w E _. exists w. split; [exact E|lra]. Qed.
Lemma circle_self c start l f p : c = circle start l f true p -> circle (c_start c) (c_left c) (c_forward c) true p = c.
Proof.
  intros ->. destruct (circle_all start l f true p) as (A & B & C & _). rewrite A, B, C. reflexivity.
Qed.
Ltac le_turns :=
  repeat match goal with
  | |- context [cc_turn_length (circle ?st ?l ?f false ?p) ?q] =>
      let B := fresh "TB" in pose proof (cc_turn_irregular st l f p q) as B; try match goal with W : circle st l f true p = _ |- _ => rewrite W in B end; generalize dependent (cc_turn_length (circle st l f false p) q); intros ? B
  | |- context [hc_turn_length (circle ?st ?l ?f false ?p) ?q] =>
      let B := fresh "TB" in pose proof (hc_turn_irregular st l f p q) as B; generalize dependent (hc_turn_length (circle st l f false p) q); intros ? B
  end; intros; lra.
Ltac le_exists := match goal with |- entry_le (if ?b then _ else _) _ => destruct b; [|apply entry_le_refl] end.
Ltac le_start := cbn [e_length] in *; match goal with E : Some _ = Some ?w |- _ => apply (f_equal (fun o => match o with Some y => y | None => 0 end)) in E; cbv iota in E; subst w end; eexists; split; [reflexivity|].
Ltac le_which :=
  match goal with |- context [if ?b then _ else _] => destruct b end;
  [match goal with |- context [fbind ?o _] => destruct o as [[q1 q2]|] end; cbn [fbind]; [|intros w E; discriminate E]|
   match goal with |- context [if ?b then _ else _] => destruct b end; [match goal with |- context [let '(_, _) := ?o in _] => lazymatch o with context [let '(_, _) := _ in _] => fail | _ => destruct o as [q1 q2] end end|intros w E; discriminate E]].
Ltac le_pick :=
  unfold Rltb in *;
  match goal with E : context [Rlt_dec ?u ?v] |- _ => let RC := fresh "RC" in destruct (Rlt_dec u v) as [RC|RC] end;
  try match goal with |- context [Rlt_dec ?u ?v] => let RC := fresh "RD" in destruct (Rlt_dec u v) as [RC|RC] end;
  le_start; repeat match goal with RC : _ < _ |- _ => revert RC | RC : ~ _ < _ |- _ => revert RC end; le_turns.
Lemma cc00d_hc00r_TT k s dist an a b l1 f1 l2 f2 c1 c2 : c1 = circle a l1 f1 true (hc_cc_param k s) -> c2 = circle b l2 f2 true (hc_cc_param k s) -> entry_le (ModelCC00D.entry_TT dist an c1 c2) (ModelHC00R.entry_TT k s dist an c1 c2).
Proof.
  intros H1 H2. pose proof (circle_self _ _ _ _ _ H1) as W1; pose proof (circle_self _ _ _ _ _ H2) as W2; destruct (circle_all a l1 f1 true (hc_cc_param k s)) as (_ & _ & _ & G1 & _); rewrite <- H1 in G1. unfold ModelCC00D.entry_TT, ModelHC00R.entry_TT, ModelCC00D.TT_path, ModelHC00R.TT_path.
  change ModelHC00R.TT_exists with ModelCC00D.TT_exists. change ModelHC00R.TT_tangent_circles with ModelCC00D.TT_tangent_circles. change ModelHC00R.TiST_exists with ModelCC00D.TiST_exists. change ModelHC00R.TiST_tangent_circles with ModelCC00D.TiST_tangent_circles. change ModelHC00R.TeST_exists with ModelCC00D.TeST_exists. change ModelHC00R.TeST_tangent_circles with ModelCC00D.TeST_tangent_circles. change ModelHC00R.TST_exists with ModelCC00D.TST_exists. change ModelHC00R.TTT_exists with ModelCC00D.TTT_exists. change ModelHC00R.TTT_tangent_circles with ModelCC00D.TTT_tangent_circles.
  le_exists. cbv zeta. intros w E _. le_start. le_turns.
Qed.
Lemma cc00d_hc00r_TST k s dist an a b l1 f1 l2 f2 c1 c2 : c1 = circle a l1 f1 true (hc_cc_param k s) -> c2 = circle b l2 f2 true (hc_cc_param k s) -> entry_le (ModelCC00D.entry_TST dist an c1 c2) (ModelHC00R.entry_TST k s dist an c1 c2).
Proof.
  intros H1 H2. pose proof (circle_self _ _ _ _ _ H1) as W1; pose proof (circle_self _ _ _ _ _ H2) as W2; destruct (circle_all a l1 f1 true (hc_cc_param k s)) as (_ & _ & _ & G1 & _); rewrite <- H1 in G1. unfold ModelCC00D.entry_TST, ModelHC00R.entry_TST, ModelCC00D.TST_path, ModelHC00R.TST_path, ModelCC00D.TiST_path, ModelHC00R.TiST_path, ModelCC00D.TeST_path, ModelHC00R.TeST_path.
  change ModelHC00R.TT_exists with ModelCC00D.TT_exists. change ModelHC00R.TT_tangent_circles with ModelCC00D.TT_tangent_circles. change ModelHC00R.TiST_exists with ModelCC00D.TiST_exists. change ModelHC00R.TiST_tangent_circles with ModelCC00D.TiST_tangent_circles. change ModelHC00R.TeST_exists with ModelCC00D.TeST_exists. change ModelHC00R.TeST_tangent_circles with ModelCC00D.TeST_tangent_circles. change ModelHC00R.TST_exists with ModelCC00D.TST_exists. change ModelHC00R.TTT_exists with ModelCC00D.TTT_exists. change ModelHC00R.TTT_tangent_circles with ModelCC00D.TTT_tangent_circles.
  le_exists. le_which.
  all: cbv zeta; intros w E _; le_start; le_turns.
Qed.
Lemma cc00d_hc00r_TTT k s dist an a b l1 f1 l2 f2 c1 c2 : c1 = circle a l1 f1 true (hc_cc_param k s) -> c2 = circle b l2 f2 true (hc_cc_param k s) -> entry_le (ModelCC00D.entry_TTT k s dist an c1 c2) (ModelHC00R.entry_TTT k s dist an c1 c2).
Proof.
  intros H1 H2. pose proof (circle_self _ _ _ _ _ H1) as W1; pose proof (circle_self _ _ _ _ _ H2) as W2; destruct (circle_all a l1 f1 true (hc_cc_param k s)) as (_ & _ & _ & G1 & _); rewrite <- H1 in G1. unfold ModelCC00D.entry_TTT, ModelHC00R.entry_TTT, ModelCC00D.TTT_path, ModelHC00R.TTT_path.
  change ModelHC00R.TT_exists with ModelCC00D.TT_exists. change ModelHC00R.TT_tangent_circles with ModelCC00D.TT_tangent_circles. change ModelHC00R.TiST_exists with ModelCC00D.TiST_exists. change ModelHC00R.TiST_tangent_circles with ModelCC00D.TiST_tangent_circles. change ModelHC00R.TeST_exists with ModelCC00D.TeST_exists. change ModelHC00R.TeST_tangent_circles with ModelCC00D.TeST_tangent_circles. change ModelHC00R.TST_exists with ModelCC00D.TST_exists. change ModelHC00R.TTT_exists with ModelCC00D.TTT_exists. change ModelHC00R.TTT_tangent_circles with ModelCC00D.TTT_tangent_circles.
  le_exists. match goal with |- context [fbind ?o _] => destruct o as [[[[qa qb] qc] qd]|] end; cbn [fbind]; [|intros w E; discriminate E].
  cbv zeta. rewrite ?G1. intros w E _. le_pick.
Qed.
Lemma cc0pmd_hc0pmr_TT k s dist an c1 c2 : entry_le (ModelCC0pmD.entry_TT k s dist an c1 c2) (ModelHC0pmR.entry_TT k s dist an c1 c2).
Proof.
  unfold ModelCC0pmD.entry_TT, ModelHC0pmR.entry_TT, ModelCC0pmD.TT_path, ModelHC0pmR.TT_path.
  change ModelHC0pmR.TT_exists with ModelCC0pmD.TT_exists. change ModelHC0pmR.TT_tangent_circles with ModelCC0pmD.TT_tangent_circles. change ModelHC0pmR.TiST_exists with ModelCC0pmD.TiST_exists. change ModelHC0pmR.TiST_tangent_circles with ModelCC0pmD.TiST_tangent_circles. change ModelHC0pmR.TeST_exists with ModelCC0pmD.TeST_exists. change ModelHC0pmR.TeST_tangent_circles with ModelCC0pmD.TeST_tangent_circles. change ModelHC0pmR.TST_exists with ModelCC0pmD.TST_exists. change ModelHC0pmR.TTT_exists with ModelCC0pmD.TTT_exists. change ModelHC0pmR.TTT_tangent_circles with ModelCC0pmD.TTT_tangent_circles.
  le_exists. cbv zeta. intros w E _. le_start. le_turns.
Qed.
Lemma cc0pmd_hc0pmr_TST k s dist an c1 c2 : entry_le (ModelCC0pmD.entry_TST k s dist an c1 c2) (ModelHC0pmR.entry_TST k s dist an c1 c2).
Proof.
  unfold ModelCC0pmD.entry_TST, ModelHC0pmR.entry_TST, ModelCC0pmD.TST_path, ModelHC0pmR.TST_path, ModelCC0pmD.TiST_path, ModelHC0pmR.TiST_path, ModelCC0pmD.TeST_path, ModelHC0pmR.TeST_path.
  change ModelHC0pmR.TT_exists with ModelCC0pmD.TT_exists. change ModelHC0pmR.TT_tangent_circles with ModelCC0pmD.TT_tangent_circles. change ModelHC0pmR.TiST_exists with ModelCC0pmD.TiST_exists. change ModelHC0pmR.TiST_tangent_circles with ModelCC0pmD.TiST_tangent_circles. change ModelHC0pmR.TeST_exists with ModelCC0pmD.TeST_exists. change ModelHC0pmR.TeST_tangent_circles with ModelCC0pmD.TeST_tangent_circles. change ModelHC0pmR.TST_exists with ModelCC0pmD.TST_exists. change ModelHC0pmR.TTT_exists with ModelCC0pmD.TTT_exists. change ModelHC0pmR.TTT_tangent_circles with ModelCC0pmD.TTT_tangent_circles.
  le_exists. le_which.
  all: cbv zeta; intros w E _; le_start; le_turns.
Qed.
Lemma cc0pmd_hc0pmr_TTT k s dist an c1 c2 : entry_le (ModelCC0pmD.entry_TTT k s dist an c1 c2) (ModelHC0pmR.entry_TTT k s dist an c1 c2).
Proof.
  unfold ModelCC0pmD.entry_TTT, ModelHC0pmR.entry_TTT, ModelCC0pmD.TTT_path, ModelHC0pmR.TTT_path.
  change ModelHC0pmR.TT_exists with ModelCC0pmD.TT_exists. change ModelHC0pmR.TT_tangent_circles with ModelCC0pmD.TT_tangent_circles. change ModelHC0pmR.TiST_exists with ModelCC0pmD.TiST_exists. change ModelHC0pmR.TiST_tangent_circles with ModelCC0pmD.TiST_tangent_circles. change ModelHC0pmR.TeST_exists with ModelCC0pmD.TeST_exists. change ModelHC0pmR.TeST_tangent_circles with ModelCC0pmD.TeST_tangent_circles. change ModelHC0pmR.TST_exists with ModelCC0pmD.TST_exists. change ModelHC0pmR.TTT_exists with ModelCC0pmD.TTT_exists. change ModelHC0pmR.TTT_tangent_circles with ModelCC0pmD.TTT_tangent_circles.
  le_exists. match goal with |- context [fbind ?o _] => destruct o as [[[[qa qb] qc] qd]|] end; cbn [fbind]; [|intros w E; discriminate E].
  cbv zeta. intros w E _. le_pick.
Qed.
Lemma ccpm0d_hcpm0r_TT k s dist an c1 c2 : entry_le (ModelCCpm0D.entry_TT k s dist an c1 c2) (ModelHCpm0R.entry_TT k s dist an c1 c2).
Proof.
  unfold ModelCCpm0D.entry_TT, ModelHCpm0R.entry_TT, ModelCCpm0D.TT_path, ModelHCpm0R.TT_path.
  change ModelHCpm0R.TT_exists with ModelCCpm0D.TT_exists. change ModelHCpm0R.TT_tangent_circles with ModelCCpm0D.TT_tangent_circles. change ModelHCpm0R.TiST_exists with ModelCCpm0D.TiST_exists. change ModelHCpm0R.TiST_tangent_circles with ModelCCpm0D.TiST_tangent_circles. change ModelHCpm0R.TeST_exists with ModelCCpm0D.TeST_exists. change ModelHCpm0R.TeST_tangent_circles with ModelCCpm0D.TeST_tangent_circles. change ModelHCpm0R.TST_exists with ModelCCpm0D.TST_exists. change ModelHCpm0R.TTT_exists with ModelCCpm0D.TTT_exists. change ModelHCpm0R.TTT_tangent_circles with ModelCCpm0D.TTT_tangent_circles.
  le_exists. cbv zeta. intros w E _. le_start. le_turns.
Qed.
Lemma ccpm0d_hcpm0r_TST k s dist an c1 c2 : entry_le (ModelCCpm0D.entry_TST k s dist an c1 c2) (ModelHCpm0R.entry_TST k s dist an c1 c2).
Proof.
  unfold ModelCCpm0D.entry_TST, ModelHCpm0R.entry_TST, ModelCCpm0D.TST_path, ModelHCpm0R.TST_path, ModelCCpm0D.TiST_path, ModelHCpm0R.TiST_path, ModelCCpm0D.TeST_path, ModelHCpm0R.TeST_path.
  change ModelHCpm0R.TT_exists with ModelCCpm0D.TT_exists. change ModelHCpm0R.TT_tangent_circles with ModelCCpm0D.TT_tangent_circles. change ModelHCpm0R.TiST_exists with ModelCCpm0D.TiST_exists. change ModelHCpm0R.TiST_tangent_circles with ModelCCpm0D.TiST_tangent_circles. change ModelHCpm0R.TeST_exists with ModelCCpm0D.TeST_exists. change ModelHCpm0R.TeST_tangent_circles with ModelCCpm0D.TeST_tangent_circles. change ModelHCpm0R.TST_exists with ModelCCpm0D.TST_exists. change ModelHCpm0R.TTT_exists with ModelCCpm0D.TTT_exists. change ModelHCpm0R.TTT_tangent_circles with ModelCCpm0D.TTT_tangent_circles.
  le_exists. le_which.
  all: cbv zeta; intros w E _; le_start; le_turns.
Qed.
Lemma ccpm0d_hcpm0r_TTT k s dist an c1 c2 : entry_le (ModelCCpm0D.entry_TTT k s dist an c1 c2) (ModelHCpm0R.entry_TTT k s dist an c1 c2).
Proof.
  unfold ModelCCpm0D.entry_TTT, ModelHCpm0R.entry_TTT, ModelCCpm0D.TTT_path, ModelHCpm0R.TTT_path.
  change ModelHCpm0R.TT_exists with ModelCCpm0D.TT_exists. change ModelHCpm0R.TT_tangent_circles with ModelCCpm0D.TT_tangent_circles. change ModelHCpm0R.TiST_exists with ModelCCpm0D.TiST_exists. change ModelHCpm0R.TiST_tangent_circles with ModelCCpm0D.TiST_tangent_circles. change ModelHCpm0R.TeST_exists with ModelCCpm0D.TeST_exists. change ModelHCpm0R.TeST_tangent_circles with ModelCCpm0D.TeST_tangent_circles. change ModelHCpm0R.TST_exists with ModelCCpm0D.TST_exists. change ModelHCpm0R.TTT_exists with ModelCCpm0D.TTT_exists. change ModelHCpm0R.TTT_tangent_circles with ModelCCpm0D.TTT_tangent_circles.
  le_exists. match goal with |- context [fbind ?o _] => destruct o as [[[[qa qb] qc] qd]|] end; cbn [fbind]; [|intros w E; discriminate E].
  cbv zeta. intros w E _. le_pick.
Qed.
Lemma ccpmpmd_hcpmpmr_TT k s dist an c1 c2 : entry_le (ModelCCpmpmD.entry_TT k s dist an c1 c2) (ModelHCpmpmR.entry_TT k s dist an c1 c2).
Proof.
  unfold ModelCCpmpmD.entry_TT, ModelHCpmpmR.entry_TT, ModelCCpmpmD.TT_path, ModelHCpmpmR.TT_path.
  change ModelHCpmpmR.TT_exists with ModelCCpmpmD.TT_exists. change ModelHCpmpmR.TT_tangent_circles with ModelCCpmpmD.TT_tangent_circles. change ModelHCpmpmR.TiST_exists with ModelCCpmpmD.TiST_exists. change ModelHCpmpmR.TiST_tangent_circles with ModelCCpmpmD.TiST_tangent_circles. change ModelHCpmpmR.TeST_exists with ModelCCpmpmD.TeST_exists. change ModelHCpmpmR.TeST_tangent_circles with ModelCCpmpmD.TeST_tangent_circles. change ModelHCpmpmR.TST_exists with ModelCCpmpmD.TST_exists. change ModelHCpmpmR.TTT_exists with ModelCCpmpmD.TTT_exists. change ModelHCpmpmR.TTT_tangent_circles with ModelCCpmpmD.TTT_tangent_circles.
  le_exists. cbv zeta. intros w E _. le_start. le_turns.
Qed.
Lemma ccpmpmd_hcpmpmr_TST k s dist an c1 c2 : entry_le (ModelCCpmpmD.entry_TST k s dist an c1 c2) (ModelHCpmpmR.entry_TST k s dist an c1 c2).
Proof.
  unfold ModelCCpmpmD.entry_TST, ModelHCpmpmR.entry_TST, ModelCCpmpmD.TST_path, ModelHCpmpmR.TST_path, ModelCCpmpmD.TiST_path, ModelHCpmpmR.TiST_path, ModelCCpmpmD.TeST_path, ModelHCpmpmR.TeST_path.
  change ModelHCpmpmR.TT_exists with ModelCCpmpmD.TT_exists. change ModelHCpmpmR.TT_tangent_circles with ModelCCpmpmD.TT_tangent_circles. change ModelHCpmpmR.TiST_exists with ModelCCpmpmD.TiST_exists. change ModelHCpmpmR.TiST_tangent_circles with ModelCCpmpmD.TiST_tangent_circles. change ModelHCpmpmR.TeST_exists with ModelCCpmpmD.TeST_exists. change ModelHCpmpmR.TeST_tangent_circles with ModelCCpmpmD.TeST_tangent_circles. change ModelHCpmpmR.TST_exists with ModelCCpmpmD.TST_exists. change ModelHCpmpmR.TTT_exists with ModelCCpmpmD.TTT_exists. change ModelHCpmpmR.TTT_tangent_circles with ModelCCpmpmD.TTT_tangent_circles.
  le_exists. le_which.
  all: cbv zeta; intros w E _; le_start; le_turns.
Qed.
Lemma ccpmpmd_hcpmpmr_TTT k s dist an c1 c2 : entry_le (ModelCCpmpmD.entry_TTT k s dist an c1 c2) (ModelHCpmpmR.entry_TTT k s dist an c1 c2).
Proof.
  unfold ModelCCpmpmD.entry_TTT, ModelHCpmpmR.entry_TTT, ModelCCpmpmD.TTT_path, ModelHCpmpmR.TTT_path.
  change ModelHCpmpmR.TT_exists with ModelCCpmpmD.TT_exists. change ModelHCpmpmR.TT_tangent_circles with ModelCCpmpmD.TT_tangent_circles. change ModelHCpmpmR.TiST_exists with ModelCCpmpmD.TiST_exists. change ModelHCpmpmR.TiST_tangent_circles with ModelCCpmpmD.TiST_tangent_circles. change ModelHCpmpmR.TeST_exists with ModelCCpmpmD.TeST_exists. change ModelHCpmpmR.TeST_tangent_circles with ModelCCpmpmD.TeST_tangent_circles. change ModelHCpmpmR.TST_exists with ModelCCpmpmD.TST_exists. change ModelHCpmpmR.TTT_exists with ModelCCpmpmD.TTT_exists. change ModelHCpmpmR.TTT_tangent_circles with ModelCCpmpmD.TTT_tangent_circles.
  le_exists. match goal with |- context [fbind ?o _] => destruct o as [[[[qa qb] qc] qd]|] end; cbn [fbind]; [|intros w E; discriminate E].
  cbv zeta. intros w E _. le_pick.
Qed.

(** ** The tables *)
Tactic Notation "le_at" integer(n) := eexists _, _; split; [do n right; left; reflexivity|split; [reflexivity|]].
Tactic Notation "le_entry" integer(n) constr(H) := let w' := fresh "w'" in let A := fresh in let B := fresh in
  match goal with EL : e_length _ = Some ?w, LM : ?w < DBL_MAX |- _ => destruct (H w EL LM) as (w' & A & B) end; eexists _, w'; split; [do n right; left; reflexivity|split; [exact A|]].
Lemma table_00 k s fw s1 s2 a b l1 f1 l2 f2 c1 c2 : at_conf s1 a -> at_conf s2 b -> c1 = circle a l1 f1 true (hc_cc_param k s) -> c2 = circle b l2 f2 true (hc_cc_param k s) ->
  not_longer (fun _ => True) (ModelCC00D.circles_table k s fw c1 c2) (ModelHC00R.circles_table k s c1 c2) (fun w' w => w' <= w \/ w' <= pos_dist s1 s2).
Proof.
  intros A B H1 H2. pose proof (circle_self _ _ _ _ _ H1) as W1. destruct (circle_all a l1 f1 true (hc_cc_param k s)) as (S1 & _). rewrite <- H1 in S1. destruct (circle_all b l2 f2 true (hc_cc_param k s)) as (S2 & _). rewrite <- H2 in S2.
  intros t e w _ IN EL LM; unfold ModelCC00D.circles_table, ModelHC00R.circles_table in *; cbv zeta in *; rewrite ?S1, ?S2 in *; unfold cc_dubins_types in IN;
    (destruct (configuration_equal a b); [cbn [combine In] in IN; entries; entry_length w EL; le_at 0; left; lra|]);
    (destruct (configuration_aligned a b); [le_at 1; right; rewrite (conf_dist_states s1 s2 a b A B); lra|]);
    (destruct (configuration_aligned b a); [le_at 1; right; rewrite (conf_dist_states s2 s1 b a B A); right; unfold pos_dist; f_equal; ring|]);
    rewrite ?andb_false_r in IN;
    (destruct (configuration_on_hc_cc_circle c1 b); [cbn [combine In] in IN; entries; entry_length w EL; le_at 2; left|cbn [combine In] in IN; entries]).
  - rewrite <- S1 in W1. pose proof (cc_turn_irregular a (c_left c1) (c_forward c1) (hc_cc_param k s) b) as I. rewrite S1 in W1. rewrite W1 in I. exact I.
  - le_entry 3 (cc00d_hc00r_TT k s (center_distance c1 c2) (atan2 (c_yc c2 - c_yc c1) (c_xc c2 - c_xc c1)) a b l1 f1 l2 f2 c1 c2 H1 H2). left. assumption.
  - le_entry 8 (cc00d_hc00r_TST k s (center_distance c1 c2) (atan2 (c_yc c2 - c_yc c1) (c_xc c2 - c_xc c1)) a b l1 f1 l2 f2 c1 c2 H1 H2). left. assumption.
  - le_entry 14 (cc00d_hc00r_TTT k s (center_distance c1 c2) (atan2 (c_yc c2 - c_yc c1) (c_xc c2 - c_xc c1)) a b l1 f1 l2 f2 c1 c2 H1 H2). left. assumption.
Qed.

(** The circles of the CC Reeds-Shepp planner are the circles of the CC Dubins planner on which a turn may reverse. *)
Definition similar (c d : Circle) : Prop :=
  c_start c = c_start d /\ c_left c = c_left d /\ c_forward c = c_forward d /\ c_xc c = c_xc d /\ c_yc c = c_yc d /\ c_kappa c = c_kappa d /\ c_kappa_inv c = c_kappa_inv d /\ c_sigma c = c_sigma d /\
  c_radius c = c_radius d /\ c_mu c = c_mu d /\ c_sin_mu c = c_sin_mu d /\ c_cos_mu c = c_cos_mu d /\ c_delta_min c = c_delta_min d.
Lemma similar_circle start l f reg p : similar (circle start l f reg p) (circle start l f true p).
Proof. destruct (circle_irregular start l f reg p) as (A & B & C & D & E & F & G & H & I & J & K & L & M & _). unfold similar. repeat split; assumption. Qed.
Lemma similar_at x y l f reg reg' p : similar (circle_at x y l f reg p) (circle_at x y l f reg' p).
Proof. unfold similar, circle_at. destruct l; cbn; repeat split. Qed.
Ltac by_fields c d := destruct c, d; unfold similar in *; cbn [c_start c_left c_forward c_xc c_yc c_kappa c_kappa_inv c_sigma c_radius c_mu c_sin_mu c_cos_mu c_delta_min] in *;
  match goal with H : _ /\ _ |- _ => decompose [and] H; clear H end; subst.
Section Similar.
  Variables (k s dist an : R) (c1 c2 d1 d2 : Circle).
  Hypothesis H1 : similar c1 d1.
  Hypothesis H2 : similar c2 d2.
  Lemma sim_centers : center_distance c1 c2 = center_distance d1 d2.
  Proof. revert H1 H2. intros A B. by_fields c1 d1. by_fields c2 d2. reflexivity. Qed.
  Lemma sim_angle : atan2 (c_yc c2 - c_yc c1) (c_xc c2 - c_xc c1) = atan2 (c_yc d2 - c_yc d1) (c_xc d2 - c_xc d1).
  Proof. revert H1 H2. intros A B. by_fields c1 d1. by_fields c2 d2. reflexivity. Qed.
  Lemma sim_on q : configuration_on_hc_cc_circle c1 q = configuration_on_hc_cc_circle d1 q.
  Proof. revert H1. clear H2. intros A. by_fields c1 d1. reflexivity. Qed.
  Lemma sim_TT_exists : ModelCC00R.TT_exists dist c1 c2 = ModelCC00D.TT_exists dist d1 d2.
  Proof. revert H1 H2. intros A B. by_fields c1 d1. by_fields c2 d2. reflexivity. Qed.
  Lemma sim_TT : ModelCC00R.TT_tangent_circles c1 c2 = ModelCC00D.TT_tangent_circles d1 d2.
  Proof. revert H1 H2. intros A B. by_fields c1 d1. by_fields c2 d2. reflexivity. Qed.
  Lemma sim_TiST_exists : ModelCC00R.TiST_exists dist c1 c2 = ModelCC00D.TiST_exists dist d1 d2.
  Proof. revert H1 H2. intros A B. by_fields c1 d1. by_fields c2 d2. reflexivity. Qed.
  Lemma sim_TeST_exists : ModelCC00R.TeST_exists dist c1 c2 = ModelCC00D.TeST_exists dist d1 d2.
  Proof. revert H1 H2. intros A B. by_fields c1 d1. by_fields c2 d2. reflexivity. Qed.
  Lemma sim_TST_exists : ModelCC00R.TST_exists dist c1 c2 = ModelCC00D.TST_exists dist d1 d2.
  Proof. unfold ModelCC00R.TST_exists, ModelCC00D.TST_exists. rewrite sim_TiST_exists, sim_TeST_exists. reflexivity. Qed.
  Lemma sim_TTT_exists : ModelCC00R.TTT_exists dist c1 c2 = ModelCC00D.TTT_exists dist d1 d2.
  Proof. revert H1 H2. intros A B. by_fields c1 d1. by_fields c2 d2. reflexivity. Qed.
  Lemma sim_TiST : ModelCC00R.TiST_tangent_circles c1 c2 = ModelCC00D.TiST_tangent_circles d1 d2.
  Proof. revert H1 H2. intros A B. by_fields c1 d1. by_fields c2 d2. reflexivity. Qed.
  Lemma sim_TeST : ModelCC00R.TeST_tangent_circles c1 c2 = ModelCC00D.TeST_tangent_circles d1 d2.
  Proof. revert H1 H2. intros A B. by_fields c1 d1. by_fields c2 d2. reflexivity. Qed.
End Similar.
Lemma sim_TTT k s dist an c1 c2 d1 d2 : similar c1 d1 -> similar c2 d2 -> ModelCC00R.TTT_tangent_circles k s dist an c1 c2 = ModelCC00D.TTT_tangent_circles k s dist an d1 d2.
Proof.
  intros A B. unfold ModelCC00R.TTT_tangent_circles, ModelCC00D.TTT_tangent_circles. pose proof A as (_ & AL & AF & AX & AY & _ & _ & _ & AR & _). rewrite AL, AF, AX, AY, AR. cbv zeta.
  destruct (fsqrt _) as [z|]; [|reflexivity]. cbn [fbind].
  repeat match goal with |- context [global_frame_change ?x ?y ?t ?u ?v] => destruct (global_frame_change x y t u v) end.
  repeat match goal with |- context [ModelCC00R.TT_tangent_circles c1 (circle_at ?x ?y ?l ?f ?g ?p)] => rewrite (sim_TT c1 (circle_at x y l f g p) d1 (circle_at x y l f (c_regular d1) p) A (similar_at x y l f g _ p)) end.
  repeat match goal with |- context [ModelCC00R.TT_tangent_circles (circle_at ?x ?y ?l ?f ?g ?p) c2] => rewrite (sim_TT (circle_at x y l f g p) c2 (circle_at x y l f (c_regular d1) p) d2 (similar_at x y l f g _ p) B) end.
  reflexivity.
Qed.
Section Irregular.
  Variables (k s dist an : R) (a b : Configuration) (l1 f1 l2 f2 : bool) (c1 c2 d1 d2 : Circle).
  Local Notation p := (hc_cc_param k s).
  Hypothesis D1 : d1 = circle a l1 f1 true p.
  Hypothesis D2 : d2 = circle b l2 f2 true p.
  Hypothesis C1 : c1 = circle a l1 f1 false p.
  Hypothesis C2 : c2 = circle b l2 f2 false p.
  Lemma irr_1 q : cc_turn_length c1 q <= cc_turn_length d1 q.
  Proof. rewrite C1, D1. apply cc_turn_irregular. Qed.
  Lemma irr_2 q : cc_turn_length c2 q <= cc_turn_length d2 q.
  Proof. rewrite C2, D2. apply cc_turn_irregular. Qed.
  Lemma irr_s1 : similar c1 d1.
  Proof. rewrite C1, D1. apply similar_circle. Qed.
  Lemma irr_s2 : similar c2 d2.
  Proof. rewrite C2, D2. apply similar_circle. Qed.
  Lemma cc00r_TT : entry_le (ModelCC00D.entry_TT dist an d1 d2) (ModelCC00R.entry_TT dist an c1 c2).
  Proof.
    unfold ModelCC00D.entry_TT, ModelCC00R.entry_TT, ModelCC00D.TT_path, ModelCC00R.TT_path. rewrite (sim_TT_exists dist c1 c2 d1 d2 irr_s1 irr_s2), (sim_TT c1 c2 d1 d2 irr_s1 irr_s2).
    le_exists. cbv zeta. intros w E _. le_start. apply Rplus_le_compat; [apply irr_1|apply irr_2].
  Qed.
  Lemma cc00r_TST : entry_le (ModelCC00D.entry_TST dist an d1 d2) (ModelCC00R.entry_TST dist an c1 c2).
  Proof.
    unfold ModelCC00D.entry_TST, ModelCC00R.entry_TST, ModelCC00D.TST_path, ModelCC00R.TST_path, ModelCC00D.TiST_path, ModelCC00R.TiST_path, ModelCC00D.TeST_path, ModelCC00R.TeST_path.
    rewrite (sim_TST_exists dist c1 c2 d1 d2 irr_s1 irr_s2), (sim_TiST_exists dist c1 c2 d1 d2 irr_s1 irr_s2), (sim_TeST_exists dist c1 c2 d1 d2 irr_s1 irr_s2), (sim_TiST c1 c2 d1 d2 irr_s1 irr_s2), (sim_TeST c1 c2 d1 d2 irr_s1 irr_s2).
    le_exists. le_which; cbv zeta; intros w E _; le_start; pose proof (irr_1 q1); pose proof (irr_2 q2); lra.
  Qed.
  Lemma cc00r_TTT : entry_le (ModelCC00D.entry_TTT k s dist an d1 d2) (ModelCC00R.entry_TTT k s dist an c1 c2).
  Proof.
    unfold ModelCC00D.entry_TTT, ModelCC00R.entry_TTT, ModelCC00D.TTT_path, ModelCC00R.TTT_path. rewrite (sim_TTT_exists dist c1 c2 d1 d2 irr_s1 irr_s2), (sim_TTT k s dist an c1 c2 d1 d2 irr_s1 irr_s2).
    assert (GD : c_regular d1 = true) by (rewrite D1; apply circle_all). assert (GC : c_regular c1 = false) by (rewrite C1; apply circle_all).
    pose proof irr_s1 as (_ & AL & AF & _). rewrite AL, AF, GD, GC.
    le_exists. match goal with |- context [fbind ?o _] => destruct o as [[[[qa qb] qc] qd]|] end; cbn [fbind]; [|intros w E; discriminate E].
    cbv zeta. intros w E _. pose proof (irr_1 qa). pose proof (irr_1 qc). pose proof (irr_2 qb). pose proof (irr_2 qd). le_pick.
  Qed.
End Irregular.
Lemma table_cc00 k s fw s1 s2 a b l1 f1 l2 f2 d1 d2 c1 c2 : at_conf s1 a -> at_conf s2 b -> d1 = circle a l1 f1 true (hc_cc_param k s) -> d2 = circle b l2 f2 true (hc_cc_param k s) ->
  c1 = circle a l1 f1 false (hc_cc_param k s) -> c2 = circle b l2 f2 false (hc_cc_param k s) ->
  not_longer (fun _ => True) (ModelCC00D.circles_table k s fw d1 d2) (ModelCC00R.circles_table k s c1 c2) (fun w' w => w' <= w \/ w' <= pos_dist s1 s2).
Proof.
  intros A B D1 D2 C1 C2. pose proof (irr_s1 k s a l1 f1 c1 d1 D1 C1) as I1. pose proof (irr_s2 k s b l2 f2 c2 d2 D2 C2) as I2.
  assert (S1 : c_start d1 = a) by (rewrite D1; apply circle_all). assert (S2 : c_start d2 = b) by (rewrite D2; apply circle_all). assert (T1 : c_start c1 = a) by (rewrite C1; apply circle_all). assert (T2 : c_start c2 = b) by (rewrite C2; apply circle_all).
  intros t e w _ IN EL LM; unfold ModelCC00D.circles_table, ModelCC00R.circles_table in *; cbv zeta in *; rewrite ?S1, ?S2, ?T1, ?T2, ?(sim_centers c1 c2 d1 d2 I1 I2), ?(sim_angle c1 c2 d1 d2 I1 I2), ?(sim_on c1 d1 I1) in *; unfold cc_dubins_types in IN;
    (destruct (configuration_equal a b); [cbn [combine In] in IN; entries; entry_length w EL; le_at 0; left; lra|]);
    (destruct (configuration_aligned a b); [le_at 1; right; rewrite (conf_dist_states s1 s2 a b A B); lra|]);
    (destruct (configuration_aligned b a); [le_at 1; right; rewrite (conf_dist_states s2 s1 b a B A); right; unfold pos_dist; f_equal; ring|]);
    rewrite ?andb_false_r in IN;
    (destruct (configuration_on_hc_cc_circle d1 b); [cbn [combine In] in IN; entries; entry_length w EL; le_at 2; left|cbn [combine In] in IN; entries]).
  - exact (irr_1 k s a l1 f1 c1 d1 D1 C1 b).
  - le_entry 3 (cc00r_TT k s (center_distance d1 d2) (atan2 (c_yc d2 - c_yc d1) (c_xc d2 - c_xc d1)) a b l1 f1 l2 f2 c1 c2 d1 d2 D1 D2 C1 C2). left. assumption.
  - le_entry 8 (cc00r_TST k s (center_distance d1 d2) (atan2 (c_yc d2 - c_yc d1) (c_xc d2 - c_xc d1)) a b l1 f1 l2 f2 c1 c2 d1 d2 D1 D2 C1 C2). left. assumption.
  - le_entry 14 (cc00r_TTT k s (center_distance d1 d2) (atan2 (c_yc d2 - c_yc d1) (c_xc d2 - c_xc d1)) a b l1 f1 l2 f2 c1 c2 d1 d2 D1 D2 C1 C2). left. assumption.
Qed.
Lemma table_0pm k s c1 c2 : not_longer (fun _ => True) (ModelCC0pmD.circles_table k s c1 c2) (ModelHC0pmR.circles_table k s c1 c2) Rle.
Proof.
  intros t e w _ IN EL LM. unfold ModelCC0pmD.circles_table, ModelHC0pmR.circles_table in *. cbv zeta in *. unfold cc_dubins_types in IN.
  destruct (configuration_equal _ _); [cbn [combine In] in IN; entries; entry_length w EL; le_at 0; lra|].
  destruct (Rltb _ epsilon); [cbn [combine In] in IN; entries; entry_length w EL; le_at 2; apply hc_turn_irregular|cbn [combine In] in IN; entries].
  - le_entry 3 (cc0pmd_hc0pmr_TT k s (center_distance c1 c2) (atan2 (c_yc c2 - c_yc c1) (c_xc c2 - c_xc c1)) c1 c2). assumption.
  - le_entry 8 (cc0pmd_hc0pmr_TST k s (center_distance c1 c2) (atan2 (c_yc c2 - c_yc c1) (c_xc c2 - c_xc c1)) c1 c2). assumption.
  - le_entry 14 (cc0pmd_hc0pmr_TTT k s (center_distance c1 c2) (atan2 (c_yc c2 - c_yc c1) (c_xc c2 - c_xc c1)) c1 c2). assumption.
Qed.
Lemma table_pm0 k s c1 c2 : not_longer (fun _ => True) (ModelCCpm0D.circles_table k s c1 c2) (ModelHCpm0R.circles_table k s c1 c2) Rle.
Proof.
  intros t e w _ IN EL LM. unfold ModelCCpm0D.circles_table, ModelHCpm0R.circles_table in *. cbv zeta in *. unfold cc_dubins_types in IN.
  destruct (configuration_equal _ _); [cbn [combine In] in IN; entries; entry_length w EL; le_at 0; lra|].
  destruct (Rltb _ epsilon); [cbn [combine In] in IN; entries; entry_length w EL; le_at 2; apply hc_turn_irregular|cbn [combine In] in IN; entries].
  - le_entry 3 (ccpm0d_hcpm0r_TT k s (center_distance c1 c2) (atan2 (c_yc c2 - c_yc c1) (c_xc c2 - c_xc c1)) c1 c2). assumption.
  - le_entry 8 (ccpm0d_hcpm0r_TST k s (center_distance c1 c2) (atan2 (c_yc c2 - c_yc c1) (c_xc c2 - c_xc c1)) c1 c2). assumption.
  - le_entry 14 (ccpm0d_hcpm0r_TTT k s (center_distance c1 c2) (atan2 (c_yc c2 - c_yc c1) (c_xc c2 - c_xc c1)) c1 c2). assumption.
Qed.
Lemma table_pmpm k s c1 c2 : not_longer (fun t => t <> D_TTTT) (ModelCCpmpmD.circles_table k s c1 c2) (ModelHCpmpmR.circles_table k s c1 c2) Rle.
Proof.
  intros t e w NT IN EL LM. unfold ModelCCpmpmD.circles_table, ModelHCpmpmR.circles_table in *. cbv zeta in *. unfold cc_dubins_types in IN.
  destruct (configuration_equal _ _); [cbn [combine In] in IN; entries; entry_length w EL; le_at 0; lra|].
  destruct (configuration_on_hc_cc_circle _ _); [cbn [combine In] in IN; entries; entry_length w EL; le_at 2; lra|cbn [combine In] in IN; entries].
  - le_entry 3 (ccpmpmd_hcpmpmr_TT k s (center_distance c1 c2) (atan2 (c_yc c2 - c_yc c1) (c_xc c2 - c_xc c1)) c1 c2). assumption.
  - le_entry 8 (ccpmpmd_hcpmpmr_TST k s (center_distance c1 c2) (atan2 (c_yc c2 - c_yc c1) (c_xc c2 - c_xc c1)) c1 c2). assumption.
  - le_entry 14 (ccpmpmd_hcpmpmr_TTT k s (center_distance c1 c2) (atan2 (c_yc c2 - c_yc c1) (c_xc c2 - c_xc c1)) c1 c2). assumption.
  - exfalso. apply NT. reflexivity.
Qed.


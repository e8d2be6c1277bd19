(** * Driving direction of CC_Dubins_State_Space *)
From Coq Require Import Reals ZArith List Lra Lia Bool.
From Verif Require Import Base ModelUtil ModelFresnel ModelCircle ModelPaths ModelWrap Num UtilProofs SpecPath SpecTurn SpecPlan SpecSide SpecWrap SpecDir TurnProofs LegProofs TangentProofs PlanProofs PlanTactics PlanHybrid PlanSelect DirProofs WrapPredict WrapProofs WrapLoop WrapSpace WrapPlan.
From Verif Require ModelCC00D ModelCC0pmD ModelCCpm0D ModelCCpmpmD DirCC00D DirCC0pmD DirCCpm0D DirCCpmpmD.
Import ListNotations.
Open Scope R_scope.

Lemma all_some_in {A B} (f : A -> option B) l r x : all_some (map f l) = Some r -> In x r -> exists a, In a l /\ f a = Some x.
Proof.
  revert r. induction l as [|a l IH]; cbn [map all_some]; intros r E I; [injection E as <-; destruct I|].
  destruct (f a) as [b|] eqn:FA; [|discriminate]. destruct (all_some (map f l)) as [r'|] eqn:R; [|discriminate]. injection E as <-.
  destruct I as [<-|I]; [exists a; split; [left; reflexivity|exact FA]|]. destruct (IH r' eq_refl I) as (a' & I' & E'). exists a'. split; [right; exact I'|exact E'].
Qed.
Lemma loop_controls_in c00 c0p cp0 cpp starts ends cs : loop_controls c00 c0p cp0 cpp starts ends = Some cs ->
  exists p1 p2, In p1 starts /\ In p2 ends /\ pair_controls c00 c0p cp0 cpp (p1, p2) = Some cs.
Proof.
  unfold loop_controls. destruct (all_some _) as [[|a l]|] eqn:E; [discriminate| |discriminate]. cbn [sorted_front]. intros H.
  assert (I : In cs (a :: l)). { injection H as <-. apply (front_fold l a). }
  destruct (all_some_in _ _ _ _ E I) as ([p1 p2] & IN & EQ). apply in_prod_iff in IN. exists p1, p2. destruct IN; auto.
Qed.

Section Space.
  Variables (k s : R).
  Hypothesis Hk : 0 < k.
  Hypothesis Hs : 0 < s.
  Let e := 3 * dubins_gap k s D_T.
  Lemma gap_max t : 3 * dubins_gap k s t <= e.
  Proof. pose proof (radius_nonneg k s Hk Hs) as RP. assert (0 < 1 / k) by (apply Rdiv_lt_0_compat; lra). unfold e, dubins_gap, epsilon. destruct t; nra. Qed.
  Lemma call_direction fw q1 q2 mid : pos_dist q1 q2 + detour k s < DBL_MAX ->
    call_controls (ModelCC00D.get_controls k s fw) (ModelCC0pmD.get_controls k s fw) (ModelCCpm0D.get_controls k s fw) (ModelCCpmpmD.get_controls k s fw) q1 q2 = Some mid -> onward e (sign fw) mid.
  Proof.
    intros LM. unfold call_controls. destruct (Rltb (Rabs (st_kappa q1)) epsilon); destruct (Rltb (Rabs (st_kappa q2)) epsilon); intros C.
    - destruct (DirCC00D.cc00_dubins_direction k s fw q1 q2 Hk Hs LM) as (p & cs & _ & E & D). rewrite E in C. injection C as <-. eapply onward_le; [apply gap_max|exact D].
    - destruct (DirCC0pmD.cc0pm_dubins_direction k s fw q1 q2 Hk Hs LM) as (p & cs & _ & E & D). rewrite E in C. injection C as <-. eapply onward_le; [apply gap_max|exact D].
    - destruct (DirCCpm0D.ccpm0_dubins_direction k s fw q1 q2 Hk Hs LM) as (p & cs & _ & E & D). rewrite E in C. injection C as <-. eapply onward_le; [apply gap_max|exact D].
    - destruct (DirCCpmpmD.ccpmpm_dubins_direction k s fw q1 q2 Hk Hs LM) as (p & cs & _ & E & D). rewrite E in C. injection C as <-. eapply onward_le; [apply gap_max|exact D].
  Qed.
  (** The controls between a state and its predictions go in the direction of prediction. *)
  Lemma predict_direction junk st fw q c : Rabs (st_kappa st) <= k -> In (q, c) (cc_predict_state junk k s st fw) -> 0 <= sign fw * ct_delta_s c.
  Proof.
    intros K. unfold cc_predict_state. destruct (no_prediction k st); [intros [E|[]]; injection E as _ <-; cbn [ct_delta_s]; lra|].
    assert (IS : 0 < / s) by (apply Rinv_0_lt_compat; exact Hs). set (z := sgn (st_kappa st) * st_kappa st).
    assert (Z : 0 <= z <= k). { unfold z, sgn. revert K. unfold Rabs. destruct (Rcase_abs _); destruct (Rlt_dec _ 0); lra. }
    assert (P1 : 0 <= (k - z) / s) by (apply Rmult_le_pos; lra). assert (P2 : 0 <= z / s) by (apply Rmult_le_pos; lra).
    intros I. apply in_map_iff in I. destruct I as (c0 & E & I). assert (EC : c = c0). { unfold predicted in E. destruct (end_of_clothoid _ _ _ _ _ _ _) as [[[x y] t] kk]. injection E as _ E. congruence. }
    subst c0. unfold cc_prediction_controls in I. fold z in I.
    destruct fw; destruct I as [I|[I|[]]]; rewrite <- I; cbn [ct_delta_s sign]; fold z.
    - lra.
    - lra.
    - replace (-1 * (- (k - z) / s)) with ((k - z) / s) by (field; lra). exact P1.
    - replace (-1 * (- sgn (st_kappa st) * st_kappa st / s)) with (z / s) by (unfold z; field; lra). exact P2.
  Qed.
  Theorem cc_dubins_direction junk fw s1 s2 : Rabs (st_kappa s1) <= k -> Rabs (st_kappa s2) <= k -> pos_dist s1 s2 + 2 * detour k s < DBL_MAX ->
    exists cs, cc_dubins_controls junk k s fw s1 s2 = Some cs /\ keeps_direction e fw cs.
  Proof.
    intros K1 K2 LM. destruct (cc_space k s Hk Hs junk fw s1 s2 K1 K2 LM) as (_ & cs & _ & _ & _ & _ & _ & C & _). exists cs. split; [exact C|].
    unfold cc_dubins_controls in C. apply loop_controls_in in C. destruct C as ([q1 c1] & [q2 c2] & I1 & I2 & PC).
    pose proof (predict_direction junk s1 fw q1 c1 K1 I1) as D1. pose proof (predict_direction junk s2 (negb fw) q2 c2 K2 I2) as D2. rewrite sign_negb in D2.
    pose proof (gap_nonneg k s D_T Hk Hs) as GT. assert (E0 : 0 <= e) by (unfold e; lra).
    pose proof (pair_near k s Hk Hs s1 s2 q1 c1 q2 c2 (cc_forecast junk k s Hs _ _ _ I1) (cc_forecast junk k s Hs _ _ _ I2)) as P. pose proof (extra k s Hk Hs) as EX.
    assert (KS : 0 < k / s) by (apply Rdiv_lt_0_compat; lra). pose proof (tol_nonneg s) as T0.
    unfold pair_controls in PC. destruct (state_equal q1 q2).
    - injection PC as <-. constructor; [|constructor]. unfold subtract_control; cbn [ct_delta_s]. rewrite Rmult_minus_distr_l. lra.
    - destruct (call_controls _ _ _ _ q1 q2) as [mid|] eqn:CC; [|discriminate].
      assert (M : onward e (sign fw) mid). { apply (call_direction fw q1 q2 mid); [|exact CC]. unfold Rabs in P. destruct (Rcase_abs _) in P; lra. }
      assert (R : onward e (sign fw) [reverse_control c2]) by (constructor; [|constructor]; unfold reverse_control; cbn [ct_delta_s]; lra).
      destruct (Rltb epsilon (Rabs (ct_delta_s c1))), (Rltb epsilon (Rabs (ct_delta_s c2))); injection PC as <-.
      + constructor; [lra|]. apply onward_app; assumption.
      + constructor; [lra|assumption].
      + apply onward_app; assumption.
      + assumption.
  Qed.
End Space.

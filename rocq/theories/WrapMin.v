(** * The spaces for states of any curvature return the shortest candidate *)
From Coq Require Import Reals ZArith List Lra Lia Bool.
From Verif Require Import Base ModelUtil ModelFresnel ModelCircle ModelPaths ModelWrap Num SpecPath SpecTurn SpecPlan SpecSide SpecWrap IntegrateProofs PlanSelect WrapPredict WrapProofs WrapLoop WrapSpace WrapPlan.
From Verif Require ModelCC00D ModelCC0pmD ModelCCpm0D ModelCCpmpmD ModelHC00R ModelHC0pmR ModelHCpm0R ModelHCpmpmR.
Import ListNotations.
Open Scope R_scope.

Lemma call_by_curvature {A} (q1 q2 : State) (v : A) (a b c d : A) :
  by_curvature q1 q2 (a = v) (b = v) (c = v) (d = v) <->
  (if Rltb (Rabs (st_kappa q1)) epsilon then if Rltb (Rabs (st_kappa q2)) epsilon then a else b
   else if Rltb (Rabs (st_kappa q2)) epsilon then c else d) = v.
Proof.
  unfold by_curvature, Rltb. destruct (Rlt_dec (Rabs (st_kappa q1)) epsilon), (Rlt_dec (Rabs (st_kappa q2)) epsilon);
    (split; [intros (H1 & H2 & H3 & H4); first [apply H1|apply H2|apply H3|apply H4]; lra|intros H; repeat split; intros; first [exact H|lra]]).
Qed.

Section Min.
  Variables (k s : R).
  Hypothesis Hk : 0 < k.
  Hypothesis Hs : 0 < s.
  Variables dist00 dist0pm distpm0 distpmpm : State -> State -> option flt.
  Variables ctrl00 ctrl0pm ctrlpm0 ctrlpmpm : State -> State -> option (list Control).
  Notation CD := (call_distance dist00 dist0pm distpm0 distpmpm).
  Notation CC := (call_controls ctrl00 ctrl0pm ctrlpm0 ctrlpmpm).
  Notation BD q1 q2 D := (by_curvature q1 q2 (dist00 q1 q2 = Some (Some D)) (dist0pm q1 q2 = Some (Some D)) (distpm0 q1 q2 = Some (Some D)) (distpmpm q1 q2 = Some (Some D))).
  Notation BC q1 q2 D := (by_curvature q1 q2 (ctrl00 q1 q2 = Some D) (ctrl0pm q1 q2 = Some D) (ctrlpm0 q1 q2 = Some D) (ctrlpmpm q1 q2 = Some D)).

  Lemma pre_ge c : Rabs (ct_delta_s c) - epsilon <= total_length (pre c).
  Proof. rewrite pre_length. pose proof (Rabs_pos (ct_delta_s c)). unfold Rltb. assert (0 < epsilon) by (unfold epsilon; lra). destruct (Rlt_dec _ _); lra. Qed.

  Theorem loop_min s1 s2 starts ends : pos_dist s1 s2 + 2 * detour k s < DBL_MAX ->
    starts <> [] -> ends <> [] -> (forall p, In p starts -> forecast k s s1 p) -> (forall p, In p ends -> forecast k s s2 p) ->
    (forall q1 q2, pos_dist q1 q2 + detour k s < DBL_MAX -> exists L mid, CD q1 q2 = Some (Some L) /\ CC q1 q2 = Some mid /\ Rabs (total_length mid - L) <= length_gap k s) ->
    exists L cs, loop_distance dist00 dist0pm distpm0 distpmpm starts ends = Some (Some L) /\ loop_controls ctrl00 ctrl0pm ctrlpm0 ctrlpmpm starts ends = Some cs /\
      (forall q1 c1 q2 c2, In (q1, c1) starts -> In (q2, c2) ends ->
        (state_equal q1 q2 = true -> L <= Rabs (ct_delta_s c1 - ct_delta_s c2) /\ total_length cs <= Rabs (ct_delta_s c1 - ct_delta_s c2)) /\
        (state_equal q1 q2 = false -> forall D mid, BD q1 q2 D -> BC q1 q2 mid ->
          L <= Rabs (ct_delta_s c1) + D + Rabs (ct_delta_s c2) /\ total_length cs <= Rabs (ct_delta_s c1) + total_length mid + Rabs (ct_delta_s c2))) /\
      (exists q1 c1 q2 c2, In (q1, c1) starts /\ In (q2, c2) ends /\
        (state_equal q1 q2 = true /\ L = Rabs (ct_delta_s c1 - ct_delta_s c2) \/
         state_equal q1 q2 = false /\ exists D, BD q1 q2 D /\ Rabs (ct_delta_s c1) + D + Rabs (ct_delta_s c2) - 2 * epsilon <= L <= Rabs (ct_delta_s c1) + D + Rabs (ct_delta_s c2))).
  Proof.
    intros LM NS NE FS FE CT. pose proof (length_gap_nonneg k s Hk Hs) as G0. pose proof (extra k s Hk Hs) as EX. assert (KS : 0 < k / s) by (apply Rdiv_lt_0_compat; lra).
    assert (FO : forall q1 c1 q2 c2, In (q1, c1) starts -> In (q2, c2) ends -> exists L mid, CD q1 q2 = Some (Some L) /\ CC q1 q2 = Some mid /\ Rabs (total_length mid - L) <= length_gap k s).
    { intros q1 c1 q2 c2 I1 I2. apply CT. pose proof (pair_near k s Hk Hs _ _ _ _ _ _ (FS _ I1) (FE _ I2)) as P. unfold Rabs in P. destruct (Rcase_abs _) in P; lra. }
    assert (SUB : forall c1 c2, total_length [subtract_control c1 c2] = Rabs (ct_delta_s c1 - ct_delta_s c2)) by (intros; unfold total_length, subtract_control; cbn [fold_right ct_delta_s]; ring).
    destruct (loop_result dist00 dist0pm distpm0 distpmpm ctrl00 ctrl0pm ctrlpm0 ctrlpmpm starts ends (length_gap k s) NS NE) as (L & cs & _ & _ & D & C & _ & _ & _ & _ & ML & MC & [q1 c1] & [q2 c2] & I1 & I2 & AT).
    { intros [q1 c1] [q2 c2] I1 I2. destruct (state_equal q1 q2) eqn:E.
      - destruct (pair_equal dist00 dist0pm distpm0 distpmpm ctrl00 ctrl0pm ctrlpm0 ctrlpmpm q1 c1 q2 c2 E) as (D & C). eexists _, _. split; [exact D|split; [exact C|]]. rewrite Rminus_diag_eq, Rabs_R0 by reflexivity. exact G0.
      - destruct (FO _ _ _ _ I1 I2) as (L & mid & D & C & LG). destruct (pair_unequal _ _ _ _ _ _ _ _ q1 c1 q2 c2 L mid E D C) as (PD & PC). eexists _, _. split; [exact PD|split; [exact PC|]].
        rewrite !total_length_app. rewrite post_length.
        replace (total_length (pre c1) + (total_length mid + total_length (pre c2)) - (L + total_length (pre c1) + total_length (pre c2))) with (total_length mid - L) by ring. exact LG. }
    exists L, cs. split; [exact D|split; [exact C|split]].
    - intros p1 d1 p2 d2 J1 J2. split.
      + intros E. destruct (pair_equal dist00 dist0pm distpm0 distpmpm ctrl00 ctrl0pm ctrlpm0 ctrlpmpm p1 d1 p2 d2 E) as (PD & PC). rewrite <- SUB. split; [exact (ML _ _ _ J1 J2 PD)|exact (MC _ _ _ J1 J2 PC)].
      + intros E D' mid HD HC. apply call_by_curvature in HD. apply call_by_curvature in HC. destruct (pair_unequal _ _ _ _ _ _ _ _ p1 d1 p2 d2 D' mid E HD HC) as (PD & PC).
        pose proof (ML _ _ _ J1 J2 PD). pose proof (MC _ _ _ J1 J2 PC) as M. rewrite !total_length_app in M. rewrite post_length in *. pose proof (pre_le d1). pose proof (pre_le d2). split; lra.
    - exists q1, c1, q2, c2. split; [exact I1|split; [exact I2|]]. destruct (state_equal q1 q2) eqn:E.
      + left. split; [reflexivity|]. destruct (pair_equal dist00 dist0pm distpm0 distpmpm ctrl00 ctrl0pm ctrlpm0 ctrlpmpm q1 c1 q2 c2 E) as (PD & _). rewrite AT, SUB in PD. congruence.
      + right. split; [reflexivity|]. destruct (FO _ _ _ _ I1 I2) as (D' & mid & HD & HC & _). destruct (pair_unequal _ _ _ _ _ _ _ _ q1 c1 q2 c2 D' mid E HD HC) as (PD & _).
        rewrite AT, post_length in PD. assert (EL : L = D' + total_length (pre c1) + total_length (pre c2)) by congruence. exists D'. split; [apply call_by_curvature; exact HD|].
        pose proof (pre_le c1). pose proof (pre_le c2). pose proof (pre_ge c1). pose proof (pre_ge c2). lra.
  Qed.
End Min.

Section Spaces.
  Variables (k s : R).
  Hypothesis Hk : 0 < k.
  Hypothesis Hs : 0 < s.

  Lemma cc_both fw q1 q2 : pos_dist q1 q2 + detour k s < DBL_MAX -> exists L mid,
    call_distance (ModelCC00D.get_distance k s fw) (ModelCC0pmD.get_distance k s fw) (ModelCCpm0D.get_distance k s fw) (ModelCCpmpmD.get_distance k s fw) q1 q2 = Some (Some L) /\
    call_controls (ModelCC00D.get_controls k s fw) (ModelCC0pmD.get_controls k s fw) (ModelCCpm0D.get_controls k s fw) (ModelCCpmpmD.get_controls k s fw) q1 q2 = Some mid /\ Rabs (total_length mid - L) <= length_gap k s.
  Proof. intros H. destruct (cc_contract k s Hk Hs fw q1 q2 H) as (t & L & mid & A & B & _ & _ & G & _). exists L, mid. auto. Qed.
  Lemma hc_both q1 q2 : pos_dist q1 q2 + detour k s < DBL_MAX -> exists L mid,
    call_distance (ModelHC00R.get_distance k s) (ModelHC0pmR.get_distance k s) (ModelHCpm0R.get_distance k s) (ModelHCpmpmR.get_distance k s) q1 q2 = Some (Some L) /\
    call_controls (ModelHC00R.get_controls k s) (ModelHC0pmR.get_controls k s) (ModelHCpm0R.get_controls k s) (ModelHCpmpmR.get_controls k s) q1 q2 = Some mid /\ Rabs (total_length mid - L) <= length_gap k s.
  Proof. intros H. destruct (hc_contract k s Hk Hs q1 q2 H) as (t & L & mid & A & B & _ & _ & G & _). exists L, mid. auto. Qed.
  Definition cc_min junk fw s1 s2 (LM : pos_dist s1 s2 + 2 * detour k s < DBL_MAX) :=
    loop_min k s Hk Hs (ModelCC00D.get_distance k s fw) (ModelCC0pmD.get_distance k s fw) (ModelCCpm0D.get_distance k s fw) (ModelCCpmpmD.get_distance k s fw)
      (ModelCC00D.get_controls k s fw) (ModelCC0pmD.get_controls k s fw) (ModelCCpm0D.get_controls k s fw) (ModelCCpmpmD.get_controls k s fw) s1 s2
      (cc_predict_state junk k s s1 fw) (cc_predict_state junk k s s2 (negb fw)) LM (cc_starts k s _ _ _) (cc_starts k s _ _ _) (fun p => cc_forecast junk k s Hs _ _ p) (fun p => cc_forecast junk k s Hs _ _ p)
      (cc_both fw).
  Definition hc_min junk s1 s2 (LM : pos_dist s1 s2 + 2 * detour k s < DBL_MAX) :=
    loop_min k s Hk Hs (ModelHC00R.get_distance k s) (ModelHC0pmR.get_distance k s) (ModelHCpm0R.get_distance k s) (ModelHCpmpmR.get_distance k s)
      (ModelHC00R.get_controls k s) (ModelHC0pmR.get_controls k s) (ModelHCpm0R.get_controls k s) (ModelHCpmpmR.get_controls k s) s1 s2
      (hc_predict_state junk k s s1) (hc_predict_state junk k s s2) LM (hc_starts k s _ _) (hc_starts k s _ _) (fun p => hc_forecast junk k s Hs _ p) (fun p => hc_forecast junk k s Hs _ p)
      hc_both.
End Spaces.

Section Direct.
  Variables dist00 dist0pm distpm0 distpmpm : State -> State -> option flt.
  Variables ctrl00 ctrl0pm ctrlpm0 ctrlpmpm : State -> State -> option (list Control).

  Lemma zero_dropped : Rltb epsilon (Rabs 0) = false.
  Proof. unfold Rltb, epsilon. rewrite Rabs_R0. destruct (Rlt_dec _ _); [lra|reflexivity]. Qed.
  Lemma direct_distance s1 s2 : state_equal s1 s2 = false ->
    loop_distance dist00 dist0pm distpm0 distpmpm [unpredicted s1] [unpredicted s2] = call_distance dist00 dist0pm distpm0 distpmpm s1 s2.
  Proof.
    intros E. unfold loop_distance, unpredicted. cbn [list_prod map app]. unfold pair_distance. rewrite E. cbn [ct_delta_s]. rewrite zero_dropped.
    destruct (call_distance _ _ _ _ s1 s2) as [[d|]|]; reflexivity.
  Qed.
  Lemma direct_controls s1 s2 : state_equal s1 s2 = false ->
    loop_controls ctrl00 ctrl0pm ctrlpm0 ctrlpmpm [unpredicted s1] [unpredicted s2] = call_controls ctrl00 ctrl0pm ctrlpm0 ctrlpmpm s1 s2.
  Proof.
    intros E. unfold loop_controls, unpredicted. cbn [list_prod map app]. unfold pair_controls. rewrite E. cbn [ct_delta_s]. rewrite zero_dropped.
    destruct (call_controls _ _ _ _ s1 s2) as [d|]; reflexivity.
  Qed.
End Direct.

Lemma by_sym {A} (q1 q2 : State) (v a b c d : A) : (if Rltb (Rabs (st_kappa q1)) epsilon then if Rltb (Rabs (st_kappa q2)) epsilon then a else b
   else if Rltb (Rabs (st_kappa q2)) epsilon then c else d) = v -> by_curvature q1 q2 (v = a) (v = b) (v = c) (v = d).
Proof. intros H. apply call_by_curvature in H. destruct H as (H1 & H2 & H3 & H4). repeat split; intros; symmetry; auto. Qed.

Lemma cc_direct junk k s fw s1 s2 : (Rabs (st_kappa s1) < epsilon \/ k - Rabs (st_kappa s1) < epsilon) -> (Rabs (st_kappa s2) < epsilon \/ k - Rabs (st_kappa s2) < epsilon) ->
  state_equal s1 s2 = false ->
  by_curvature s1 s2 (cc_dubins_distance junk k s fw s1 s2 = ModelCC00D.get_distance k s fw s1 s2) (cc_dubins_distance junk k s fw s1 s2 = ModelCC0pmD.get_distance k s fw s1 s2)
    (cc_dubins_distance junk k s fw s1 s2 = ModelCCpm0D.get_distance k s fw s1 s2) (cc_dubins_distance junk k s fw s1 s2 = ModelCCpmpmD.get_distance k s fw s1 s2) /\
  by_curvature s1 s2 (cc_dubins_controls junk k s fw s1 s2 = ModelCC00D.get_controls k s fw s1 s2) (cc_dubins_controls junk k s fw s1 s2 = ModelCC0pmD.get_controls k s fw s1 s2)
    (cc_dubins_controls junk k s fw s1 s2 = ModelCCpm0D.get_controls k s fw s1 s2) (cc_dubins_controls junk k s fw s1 s2 = ModelCCpmpmD.get_controls k s fw s1 s2).
Proof.
  intros N1 N2 E. apply no_prediction_true in N1. apply no_prediction_true in N2. split; apply by_sym; symmetry;
    unfold cc_dubins_distance, cc_dubins_controls, cc_predict_state; rewrite N1, N2; [apply direct_distance|apply direct_controls]; exact E.
Qed.
Lemma hc_direct junk k s s1 s2 : (Rabs (st_kappa s1) < epsilon \/ k - Rabs (st_kappa s1) < epsilon) -> (Rabs (st_kappa s2) < epsilon \/ k - Rabs (st_kappa s2) < epsilon) ->
  state_equal s1 s2 = false ->
  by_curvature s1 s2 (hc_rs_distance junk k s s1 s2 = ModelHC00R.get_distance k s s1 s2) (hc_rs_distance junk k s s1 s2 = ModelHC0pmR.get_distance k s s1 s2)
    (hc_rs_distance junk k s s1 s2 = ModelHCpm0R.get_distance k s s1 s2) (hc_rs_distance junk k s s1 s2 = ModelHCpmpmR.get_distance k s s1 s2) /\
  by_curvature s1 s2 (hc_rs_controls junk k s s1 s2 = ModelHC00R.get_controls k s s1 s2) (hc_rs_controls junk k s s1 s2 = ModelHC0pmR.get_controls k s s1 s2)
    (hc_rs_controls junk k s s1 s2 = ModelHCpm0R.get_controls k s s1 s2) (hc_rs_controls junk k s s1 s2 = ModelHCpmpmR.get_controls k s s1 s2).
Proof.
  intros N1 N2 E. apply no_prediction_true in N1. apply no_prediction_true in N2. split; apply by_sym; symmetry;
    unfold hc_rs_distance, hc_rs_controls, hc_predict_state; rewrite N1, N2; [apply direct_distance|apply direct_controls]; exact E.
Qed.

Lemma direct_case : let s1 := mkState 0 0 0 0 1 in let s2 := mkState 3 4 0 1 1 in
  (Rabs (st_kappa s1) < epsilon \/ 1 - Rabs (st_kappa s1) < epsilon) /\ (Rabs (st_kappa s2) < epsilon \/ 1 - Rabs (st_kappa s2) < epsilon) /\ state_equal s1 s2 = false.
Proof.
  cbn [st_kappa]. rewrite Rabs_R0, Rabs_R1. unfold epsilon. split; [left; lra|split; [right; lra|]].
  unfold state_equal. cbn [st_kappa st_theta st_x st_y]. destruct (Rlt_dec _ _) as [_|N]; [reflexivity|]. exfalso. apply N.
  replace (1 - 0) with 1 by ring. rewrite Rabs_R1. unfold epsilon. lra.
Qed.

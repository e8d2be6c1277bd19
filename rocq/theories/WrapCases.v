(** * Cases in which the spaces for states of any curvature fail *)
From Coq Require Import Reals ZArith List Lra Lia Bool.
From Verif Require Import Base ModelUtil ModelFresnel ModelCircle ModelPaths ModelWrap Num UtilProofs SpecPath SpecCloth SpecTurn SpecPlan SpecSide SpecWrap FresProofs PoseAlg TurnProofs MotionProofs TurnBounds LegProofs IntegrateProofs TangentProofs PlanTactics PlanBounds PlanSelect PlanRefute PlanHybrid SideProofs WrapPredict WrapProofs WrapLoop WrapSpace WrapPlan.
Import ListNotations.
Open Scope R_scope.

Lemma state_equal_refl q : state_equal q q = true.
Proof.
  unfold state_equal. rewrite !Rminus_diag_eq, Rabs_R0 by reflexivity. assert (0 < epsilon) by (unfold epsilon; lra).
  destruct (Rlt_dec epsilon 0); [lra|]. destruct (Rlt_dec epsilon _) as [N|]; [|reflexivity]. exfalso. unfold point_distance in N. rewrite !Rminus_diag_eq in N by reflexivity.
  replace (0 ^ 2 + 0 ^ 2) with 0 in N by ring. rewrite sqrt_0 in N. lra.
Qed.

Section First.
  Variables (k s : R).
  Hypothesis Hk : 0 < k.
  Hypothesis Hs : 0 < s.
  Variables dist00 dist0pm distpm0 distpmpm : State -> State -> option flt.
  Variables ctrl00 ctrl0pm ctrlpm0 ctrlpmpm : State -> State -> option (list Control).
  Variable chain : R -> list Control -> R -> Prop.
  Variable ty : Type.
  Variables pieces gapf : ty -> R.
  Notation FOUND := (found k s dist00 dist0pm distpm0 distpmpm ctrl00 ctrl0pm ctrlpm0 ctrlpmpm chain ty pieces gapf).
  Notation PC := (pair_controls ctrl00 ctrl0pm ctrlpm0 ctrlpmpm).

  Lemma fold_first (l : list (list Control)) a : (forall x, In x l -> total_length a <= total_length x) ->
    fold_left (fun m x => if Rltb (controls_distance x) (controls_distance m) then x else m) l a = a.
  Proof.
    induction l as [|b l IH]; intros H; cbn [fold_left]; [reflexivity|]. rewrite !controls_distance_total. unfold Rltb at 2. destruct (Rlt_dec _ _) as [LT|_].
    - pose proof (H b (or_introl eq_refl)). lra.
    - apply IH. intros x I. apply H. right; exact I.
  Qed.
  (** Every candidate is at least as long as the two predictions if these are longer than the tolerance. *)
  Lemma pair_long q1 c1 q2 c2 m : FOUND q1 q2 -> m <= Rabs (ct_delta_s c1 - ct_delta_s c2) -> m <= total_length (pre c1) + total_length (pre c2) ->
    exists cs, PC ((q1, c1), (q2, c2)) = Some cs /\ m <= total_length cs.
  Proof.
    intros (t & L & mid & D & C & _) M1 M2. destruct (state_equal q1 q2) eqn:E.
    - destruct (pair_equal dist00 dist0pm distpm0 distpmpm ctrl00 ctrl0pm ctrlpm0 ctrlpmpm q1 c1 q2 c2 E) as (_ & P). eexists. split; [exact P|].
      unfold total_length, subtract_control; cbn [fold_right ct_delta_s]. lra.
    - destruct (pair_unequal _ _ _ _ _ _ _ _ q1 c1 q2 c2 L mid E D C) as (_ & P). eexists. split; [exact P|]. rewrite !total_length_app, post_length. pose proof (total_length_pos mid). lra.
  Qed.
  Lemma loop_first p1 ps p2 qs cs : PC (p1, p2) = Some cs ->
    (forall x y, In x (p1 :: ps) -> In y (p2 :: qs) -> exists cs', PC (x, y) = Some cs' /\ total_length cs <= total_length cs') ->
    loop_controls ctrl00 ctrl0pm ctrlpm0 ctrlpmpm (p1 :: ps) (p2 :: qs) = Some cs.
  Proof.
    intros P H. unfold loop_controls. rewrite (all_some_map _ (fun p => match PC p with Some c => c | None => [] end)).
    - assert (E : list_prod (p1 :: ps) (p2 :: qs) = (p1, p2) :: (map (fun y => (p1, y)) qs ++ list_prod ps (p2 :: qs))) by reflexivity.
      rewrite E. cbn [map sorted_front]. rewrite P. f_equal. apply fold_first. intros x I. apply in_map_iff in I. destruct I as ([a b] & <- & I).
      assert (J : In (a, b) (list_prod (p1 :: ps) (p2 :: qs))) by (rewrite E; right; exact I). apply in_prod_iff in J. destruct J as (J1 & J2). destruct (H a b J1 J2) as (cs' & -> & L). exact L.
    - intros [a b] J. apply in_prod_iff in J. destruct J as (J1 & J2). destruct (H a b J1 J2) as (cs' & -> & _). reflexivity.
  Qed.
End First.

Lemma tol_unit : lib_tol 1 <= 1 / 10 ^ 9.
Proof. pose proof (tol_le 1 1 Rlt_0_1 Rlt_0_1) as T. replace (1 / 1) with 1 in T by field. lra. Qed.
Lemma big_max : 1000 < DBL_MAX.
Proof. pose proof DubinsProofs.DBL_MAX_big. assert (0 < 10 ^ 300) by (apply pow_lt; lra). lra. Qed.
Lemma detour_unit : detour 1 1 = 120.
Proof. unfold detour. field. Qed.
Lemma half_sgn : sgn (1 / 2) = 1.
Proof. unfold sgn. destruct (Rlt_dec (1 / 2) 0); lra. Qed.
Lemma half_neg_sgn : sgn (- (1 / 2)) = -1.
Proof. unfold sgn. destruct (Rlt_dec (- (1 / 2)) 0); lra. Qed.
Lemma half_abs : Rabs (1 / 2) = 1 / 2 /\ Rabs (- (1 / 2)) = 1 / 2.
Proof. split; [apply Rabs_pos_eq|rewrite Rabs_Ropp; apply Rabs_pos_eq]; lra. Qed.
Lemma half_np st : st_kappa st = 1 / 2 -> no_prediction 1 st = false.
Proof.
  intros E. unfold no_prediction. rewrite E, (proj1 half_abs). unfold Rltb, epsilon. destruct (Rlt_dec _ _); [lra|]. destruct (Rlt_dec _ _); [lra|]. reflexivity.
Qed.
Lemma one_np st : st_kappa st = 1 -> no_prediction 1 st = true.
Proof. intros E. apply no_prediction_true. right. rewrite E, Rabs_R1. unfold epsilon. lra. Qed.
Lemma half_controls st fw : st_kappa st = 1 / 2 -> cc_prediction_controls 1 1 st fw =
  if fw then [mkControl (1 / 2) (1 / 2) 1; mkControl (1 / 2) (1 / 2) (-1)] else [mkControl (- (1 / 2)) (1 / 2) 1; mkControl (- (1 / 2)) (1 / 2) (-1)].
Proof.
  intros E. unfold cc_prediction_controls. rewrite E, half_sgn.
  destruct fw; (apply f_equal2; [f_equal; field|apply f_equal2; [f_equal; field|reflexivity]]).
Qed.
Lemma half_controls_hc st : st_kappa st = 1 / 2 -> hc_prediction_controls 1 1 st =
  [mkControl (1 / 2) (1 / 2) 1; mkControl (- (1 / 2)) (1 / 2) 1; mkControl (1 / 2) (1 / 2) (-1); mkControl (- (1 / 2)) (1 / 2) (-1)].
Proof.
  intros E. unfold hc_prediction_controls. rewrite E, half_sgn. cbn [ct_delta_s ct_sigma]. repeat (apply f_equal2; [f_equal; field|]). reflexivity.
Qed.
Lemma pre_half d x y : Rabs d = 1 / 2 -> total_length (pre (mkControl d x y)) = 1 / 2.
Proof. intros E. rewrite pre_length. cbn [ct_delta_s]. rewrite E. unfold Rltb, epsilon. destruct (Rlt_dec _ _); lra. Qed.
Lemma pre_zero x y : total_length (pre (mkControl 0 x y)) = 0.
Proof. rewrite pre_length. cbn [ct_delta_s]. rewrite Rabs_R0. unfold Rltb, epsilon. destruct (Rlt_dec _ _); lra. Qed.
Lemma predicted_kappa junk st c : st_kappa (fst (predicted junk st c)) = st_kappa st + ct_sigma c * Rabs (ct_delta_s c) /\ snd (predicted junk st c) = c /\
  ang_eq (st_theta (fst (predicted junk st c))) (st_theta st + st_kappa st * sgn (ct_delta_s c) * Rabs (ct_delta_s c) + 1 / 2 * ct_sigma c * sgn (ct_delta_s c) * Rabs (ct_delta_s c) * Rabs (ct_delta_s c)).
Proof. unfold predicted, end_of_clothoid. cbn [fst snd st_kappa st_theta]. split; [reflexivity|split; [reflexivity|apply Num.pify_ang]]. Qed.
Lemma miss_heading st a b e : ang_eq (st_theta st) (a - 0) -> Rabs (a - b) <= 1 -> e < Rabs (a - b) -> forall st', st_theta st' = b -> ~ heading_within e st st'.
Proof.
  intros (z1 & A) B LT st' TB (z & H). pose proof FresProofs.PI_gt as P3. rewrite TB, A in H. replace (a - 0 + 2 * PI * IZR z1 - b - 2 * PI * IZR z) with (a - b - 2 * PI * IZR (z - z1)) in H by (rewrite minus_IZR; ring).
  destruct (Z.eq_dec (z - z1) 0) as [Z|Z].
  - rewrite Z, Rmult_0_r, Rminus_0_r in H. lra.
  - assert (1 <= Rabs (IZR (z - z1))) by (rewrite <- abs_IZR; apply IZR_le; lia).
    pose proof (Rabs_triang_inv (2 * PI * IZR (z - z1)) (a - b)) as T. rewrite (Rabs_minus_sym (2 * PI * IZR (z - z1))) in T. rewrite !Rabs_mult, (Rabs_pos_eq 2), (Rabs_pos_eq PI) in T by lra.
    assert (2 * PI * 1 <= 2 * PI * Rabs (IZR (z - z1))) by (apply Rmult_le_compat_l; lra). lra.
Qed.

(** ** The start is a predicted state of the goal *)
Section Meet.
  Variable junk : R.
  Let goal := mkState 0 0 0 (1 / 2) 1.
  Let start_cc := fst (predicted junk goal (mkControl (- (1 / 2)) (1 / 2) 1)).
  Let start_hc := fst (predicted junk goal (mkControl (1 / 2) (1 / 2) 1)).
  Lemma start_kappa : st_kappa start_cc = 1 /\ st_kappa start_hc = 1.
  Proof.
    destruct half_abs as (A & B). split; [destruct (predicted_kappa junk goal (mkControl (- (1 / 2)) (1 / 2) 1)) as (E & _)|destruct (predicted_kappa junk goal (mkControl (1 / 2) (1 / 2) 1)) as (E & _)];
      cbn [ct_sigma ct_delta_s] in E; rewrite ?A, ?B in E; [unfold start_cc|unfold start_hc]; rewrite E; cbn [st_kappa goal]; field.
  Qed.
  Lemma one_forecast q : st_kappa q = 1 -> forecast 1 1 q (q, mkControl 0 1 0).
  Proof. intros E. left. split; [right; rewrite E, Rabs_R1; unfold epsilon; lra|rewrite E; reflexivity]. Qed.
  Lemma meet_near q : forecast 1 1 goal (q, mkControl (- (1 / 2)) (1 / 2) 1) \/ forecast 1 1 goal (q, mkControl (1 / 2) (1 / 2) 1) -> pos_dist q goal <= 1.
  Proof.
    intros F. pose proof tol_unit. destruct half_abs as (A & B). rewrite pos_dist_sym.
    destruct F as [F|F]; destruct (forecast_dist 1 1 Rlt_0_1 Rlt_0_1 _ _ _ F) as (D & _); cbn [ct_delta_s] in D; rewrite ?A, ?B in D; lra.
  Qed.
  Lemma cc_ends st fw : st_kappa st = 1 / 2 -> cc_predict_state junk 1 1 st fw = map (predicted junk st) (if fw then [mkControl (1 / 2) (1 / 2) 1; mkControl (1 / 2) (1 / 2) (-1)] else [mkControl (- (1 / 2)) (1 / 2) 1; mkControl (- (1 / 2)) (1 / 2) (-1)]).
  Proof. intros E. unfold cc_predict_state. rewrite (half_np _ E), (half_controls _ _ E). reflexivity. Qed.
  Lemma hc_ends st : st_kappa st = 1 / 2 -> hc_predict_state junk 1 1 st = map (predicted junk st) [mkControl (1 / 2) (1 / 2) 1; mkControl (- (1 / 2)) (1 / 2) 1; mkControl (1 / 2) (1 / 2) (-1); mkControl (- (1 / 2)) (1 / 2) (-1)].
  Proof. intros E. unfold hc_predict_state. rewrite (half_np _ E), (half_controls_hc _ E). reflexivity. Qed.
  Lemma predicted_pair st c : predicted junk st c = (fst (predicted junk st c), c).
  Proof. rewrite (surjective_pairing (predicted junk st c)) at 1. destruct (predicted_kappa junk st c) as (_ & -> & _). reflexivity. Qed.
  (** All predictions from a state of curvature 1/2 have the length 1/2. *)
  Lemma half_length st p : st_kappa st = 1 / 2 -> In p (cc_predict_state junk 1 1 st false) \/ In p (cc_predict_state junk 1 1 st true) \/ In p (hc_predict_state junk 1 1 st) ->
    total_length (pre (snd p)) = 1 / 2 /\ Rabs (ct_delta_s (snd p)) = 1 / 2.
  Proof.
    intros E I. destruct half_abs as (A & B).
    assert (G : exists d y, snd p = mkControl d (1 / 2) y /\ Rabs d = 1 / 2).
    { rewrite !(cc_ends st _ E), (hc_ends st E) in I. cbn [map In] in I.
      assert (H : forall d y, Rabs d = 1 / 2 -> predicted junk st (mkControl d (1 / 2) y) = p -> exists d y, snd p = mkControl d (1 / 2) y /\ Rabs d = 1 / 2).
      { intros d y D <-. exists d, y. split; [apply predicted_kappa|exact D]. }
      destruct I as [[I|[I|[]]]|[[I|[I|[]]]|[I|[I|[I|[I|[]]]]]]]; eapply H; try exact I; assumption. }
    destruct G as (d & y & -> & D). split; [apply pre_half, D|exact D].
  Qed.

  Theorem cc_meet : cc_dubins_controls junk 1 1 true start_cc goal = Some [mkControl (1 / 2) 1 0].
  Proof.
    destruct start_kappa as (SK & _). assert (GK : st_kappa goal = 1 / 2) by reflexivity. pose proof big_max. pose proof tol_unit. pose proof detour_unit as DU. destruct half_abs as (A & B).
    assert (FE : forall p, In p (cc_predict_state junk 1 1 goal false) -> forecast 1 1 goal p) by (intros p; apply (cc_forecast junk 1 1 Rlt_0_1)).
    assert (I0 : In (start_cc, mkControl (- (1 / 2)) (1 / 2) 1) (cc_predict_state junk 1 1 goal false)) by (rewrite (cc_ends _ _ GK); left; apply predicted_pair).
    pose proof (meet_near start_cc (or_introl (FE _ I0))) as ND.
    unfold cc_dubins_controls. replace (cc_predict_state junk 1 1 start_cc true) with [(start_cc, mkControl 0 1 0)] by (unfold cc_predict_state; rewrite (one_np _ SK); unfold unpredicted; rewrite SK; reflexivity).
    assert (EE : cc_predict_state junk 1 1 goal (negb true) = (start_cc, mkControl (- (1 / 2)) (1 / 2) 1) :: [predicted junk goal (mkControl (- (1 / 2)) (1 / 2) (-1))]) by (cbn [negb]; rewrite (cc_ends _ _ GK); cbn [map]; rewrite (predicted_pair _ (mkControl (- (1 / 2)) (1 / 2) 1)); reflexivity).
    rewrite EE. apply loop_first.
    - unfold pair_controls. rewrite state_equal_refl. unfold subtract_control; cbn [ct_delta_s ct_kappa ct_sigma]. do 3 f_equal. ring.
    - rewrite <- EE. cbn [negb]. intros x [q2 c2] [<-|[]] I2.
      destruct (half_length goal (q2, c2) GK (or_introl I2)) as (L1 & L2). cbn [snd] in L1, L2.
      eapply (pair_long 1 1); [|cbn [ct_delta_s]; rewrite Rminus_0_l, Rabs_Ropp, L2|rewrite L1, pre_zero]; try (unfold total_length; cbn [fold_right ct_delta_s]; rewrite A; lra).
      apply (cc_contract 1 1 Rlt_0_1 Rlt_0_1 true). pose proof (pair_near 1 1 Rlt_0_1 Rlt_0_1 _ _ _ _ _ _ (one_forecast _ SK) (FE _ I2)) as P. rewrite DU. unfold Rabs in P. destruct (Rcase_abs _) in P; lra.
  Qed.
  Theorem hc_meet : hc_rs_controls junk 1 1 start_hc goal = Some [mkControl (- (1 / 2)) 1 0].
  Proof.
    destruct start_kappa as (_ & SK). assert (GK : st_kappa goal = 1 / 2) by reflexivity. pose proof big_max. pose proof tol_unit. pose proof detour_unit as DU. destruct half_abs as (A & B).
    assert (FE : forall p, In p (hc_predict_state junk 1 1 goal) -> forecast 1 1 goal p) by (intros p; apply (hc_forecast junk 1 1 Rlt_0_1)).
    assert (I0 : In (start_hc, mkControl (1 / 2) (1 / 2) 1) (hc_predict_state junk 1 1 goal)) by (rewrite (hc_ends _ GK); left; apply predicted_pair).
    pose proof (meet_near start_hc (or_intror (FE _ I0))) as ND.
    unfold hc_rs_controls. replace (hc_predict_state junk 1 1 start_hc) with [(start_hc, mkControl 0 1 0)] by (unfold hc_predict_state; rewrite (one_np _ SK); unfold unpredicted; rewrite SK; reflexivity).
    assert (EE : hc_predict_state junk 1 1 goal = (start_hc, mkControl (1 / 2) (1 / 2) 1) :: map (predicted junk goal) [mkControl (- (1 / 2)) (1 / 2) 1; mkControl (1 / 2) (1 / 2) (-1); mkControl (- (1 / 2)) (1 / 2) (-1)]) by (rewrite (hc_ends _ GK); cbn [map]; rewrite (predicted_pair _ (mkControl (1 / 2) (1 / 2) 1)); reflexivity).
    rewrite EE. apply loop_first.
    - unfold pair_controls. rewrite state_equal_refl. unfold subtract_control; cbn [ct_delta_s ct_kappa ct_sigma]. do 3 f_equal. ring.
    - rewrite <- EE. intros x [q2 c2] [<-|[]] I2.
      destruct (half_length goal (q2, c2) GK (or_intror (or_intror I2))) as (L1 & L2). cbn [snd] in L1, L2.
      eapply (pair_long 1 1); [|cbn [ct_delta_s]; rewrite Rminus_0_l, Rabs_Ropp, L2|rewrite L1, pre_zero]; try (unfold total_length; cbn [fold_right ct_delta_s]; rewrite B; lra).
      apply (hc_contract 1 1 Rlt_0_1 Rlt_0_1). pose proof (pair_near 1 1 Rlt_0_1 Rlt_0_1 _ _ _ _ _ _ (one_forecast _ SK) (FE _ I2)) as P. rewrite DU. unfold Rabs in P. destruct (Rcase_abs _) in P; lra.
  Qed.
  Lemma cc_refuted_case : exists s1 s2, Rabs (st_kappa s1) <= 1 /\ Rabs (st_kappa s2) <= 1 /\ pos_dist s1 s2 <= 1 /\ cc_dubins_controls junk 1 1 true s1 s2 = Some [mkControl (1 / 2) 1 0] /\
    ~ heading_within (1 / 10) (true_path s1 [mkControl (1 / 2) 1 0]) s2 /\ ~ cc_dubins_asserts junk 1 1 true s1 s2.
  Proof.
    exists start_cc, goal. destruct start_kappa as (SK & _). assert (GK : st_kappa goal = 1 / 2) by reflexivity. destruct half_abs as (A & B).
    assert (I0 : In (start_cc, mkControl (- (1 / 2)) (1 / 2) 1) (cc_predict_state junk 1 1 goal false)) by (rewrite (cc_ends _ _ GK); left; apply predicted_pair).
    split; [rewrite SK, Rabs_R1; lra|split; [rewrite GK, A; lra|split; [apply meet_near; left; apply (cc_forecast junk 1 1 Rlt_0_1 _ _ _ I0)|split; [apply cc_meet|split]]]].
    - apply (miss_heading _ (1 / 8) 0); [|rewrite Rabs_pos_eq; lra|rewrite Rabs_pos_eq; lra|reflexivity].
      destruct (predicted_kappa junk goal (mkControl (- (1 / 2)) (1 / 2) 1)) as (_ & _ & z & T). fold start_cc in T. exists z. unfold true_path, true_move; cbn [fold_left st_theta ct_delta_s ct_kappa ct_sigma] in T |- *. rewrite half_sgn, A. rewrite half_neg_sgn, B in T. unfold heading. rewrite T. cbn [goal st_theta st_kappa]. field.
    - intros H. specialize (H start_cc (mkControl 0 1 0) start_cc (mkControl (- (1 / 2)) (1 / 2) 1)). unfold subtract_control_assert in H; cbn [ct_delta_s ct_sigma] in H. rewrite half_neg_sgn in H.
      assert (-1 = 0); [|lra]. rewrite <- (Rmult_1_r (-1)), <- H; [ring| |exact I0|apply state_equal_refl]. unfold cc_predict_state. rewrite (one_np _ SK). unfold unpredicted. rewrite SK. left. reflexivity.
  Qed.
  Theorem cc_refuted : exists s1 s2 cs, Rabs (st_kappa s1) <= 1 /\ Rabs (st_kappa s2) <= 1 /\ pos_dist s1 s2 <= 1 /\ cc_dubins_controls junk 1 1 true s1 s2 = Some cs /\
    ~ heading_within (1 / 10) (true_path s1 cs) s2 /\ ~ cc_dubins_asserts junk 1 1 true s1 s2.
  Proof. destruct cc_refuted_case as (s1 & s2 & H). exists s1, s2, [mkControl (1 / 2) 1 0]. exact H. Qed.
  Lemma hc_refuted_case : exists s1 s2, Rabs (st_kappa s1) <= 1 /\ Rabs (st_kappa s2) <= 1 /\ pos_dist s1 s2 <= 1 /\ hc_rs_controls junk 1 1 s1 s2 = Some [mkControl (- (1 / 2)) 1 0] /\
    ~ heading_within (1 / 10) (true_path s1 [mkControl (- (1 / 2)) 1 0]) s2 /\ ~ hc_rs_asserts junk 1 1 s1 s2.
  Proof.
    exists start_hc, goal. destruct start_kappa as (_ & SK). assert (GK : st_kappa goal = 1 / 2) by reflexivity. destruct half_abs as (A & B).
    assert (I0 : In (start_hc, mkControl (1 / 2) (1 / 2) 1) (hc_predict_state junk 1 1 goal)) by (rewrite (hc_ends _ GK); left; apply predicted_pair).
    split; [rewrite SK, Rabs_R1; lra|split; [rewrite GK, A; lra|split; [apply meet_near; right; apply (hc_forecast junk 1 1 Rlt_0_1 _ _ I0)|split; [apply hc_meet|split]]]].
    - apply (miss_heading _ (- (1 / 8)) 0); [|rewrite Rabs_left; lra|rewrite Rabs_left; lra|reflexivity].
      destruct (predicted_kappa junk goal (mkControl (1 / 2) (1 / 2) 1)) as (_ & _ & z & T). fold start_hc in T. exists z. unfold true_path, true_move; cbn [fold_left st_theta ct_delta_s ct_kappa ct_sigma] in T |- *. rewrite half_neg_sgn, B. rewrite half_sgn, A in T. unfold heading. rewrite T. cbn [goal st_theta st_kappa]. field.
    - intros H. specialize (H start_hc (mkControl 0 1 0) start_hc (mkControl (1 / 2) (1 / 2) 1)). unfold subtract_control_assert in H; cbn [ct_delta_s ct_sigma] in H. rewrite half_sgn in H.
      assert (1 = 0); [|lra]. rewrite <- (Rmult_1_r 1), <- H; [ring| |exact I0|apply state_equal_refl]. unfold hc_predict_state. rewrite (one_np _ SK). unfold unpredicted. rewrite SK. left. reflexivity.
  Qed.
  Theorem hc_refuted : exists s1 s2 cs, Rabs (st_kappa s1) <= 1 /\ Rabs (st_kappa s2) <= 1 /\ pos_dist s1 s2 <= 1 /\ hc_rs_controls junk 1 1 s1 s2 = Some cs /\
    ~ heading_within (1 / 10) (true_path s1 cs) s2 /\ ~ hc_rs_asserts junk 1 1 s1 s2.
  Proof. destruct hc_refuted_case as (s1 & s2 & H). exists s1, s2, [mkControl (- (1 / 2)) 1 0]. exact H. Qed.

  (** ** Predicted states of start and goal meet *)
  Let meet := predicted junk goal (mkControl (- (1 / 2)) (1 / 2) 1).
  Let away := predicted junk (mkState 0 0 (- (3 / 4)) (1 / 2) 1) (mkControl (1 / 2) (1 / 2) 1).
  Let origin := mkState (st_x (fst meet) - st_x (fst away)) (st_y (fst meet) - st_y (fst away)) (- (3 / 4)) (1 / 2) 1.
  Lemma origin_meets : let p := fst (predicted junk origin (mkControl (1 / 2) (1 / 2) 1)) in
    st_x p = st_x (fst meet) /\ st_y p = st_y (fst meet) /\ ang_eq (st_theta p) (st_theta (fst meet)) /\ st_kappa p = st_kappa (fst meet).
  Proof.
    cbv zeta. split; [|split; [|split]].
    - unfold origin, away at 1, predicted, end_of_clothoid. cbn [fst st_x st_y st_theta st_kappa ct_delta_s ct_sigma]. ring.
    - unfold origin, away at 2, predicted, end_of_clothoid. cbn [fst st_x st_y st_theta st_kappa ct_delta_s ct_sigma]. ring.
    - destruct half_abs as (A & B). destruct (predicted_kappa junk origin (mkControl (1 / 2) (1 / 2) 1)) as (_ & _ & z1 & T1). destruct (predicted_kappa junk goal (mkControl (- (1 / 2)) (1 / 2) 1)) as (_ & _ & z2 & T2). fold meet in T2.
      exists (z1 - z2)%Z. rewrite minus_IZR, T1, T2. cbn [ct_delta_s ct_sigma origin goal st_theta st_kappa]. rewrite half_sgn, half_neg_sgn, A, B. field.
    - destruct half_abs as (A & B). destruct (predicted_kappa junk origin (mkControl (1 / 2) (1 / 2) 1)) as (T1 & _). destruct (predicted_kappa junk goal (mkControl (- (1 / 2)) (1 / 2) 1)) as (T2 & _). fold meet in T2. rewrite T1, T2. cbn [ct_delta_s ct_sigma]. rewrite A, B. reflexivity.
  Qed.
  Lemma same_equal a b : st_x a = st_x b -> st_y a = st_y b -> ang_eq (st_theta a) (st_theta b) -> st_kappa a = st_kappa b -> state_equal a b = true.
  Proof.
    intros X Y T K. rewrite <- (state_equal_refl b). unfold state_equal. rewrite X, Y, K, (Num.twopify_congr _ _ T). reflexivity.
  Qed.
  Lemma cc_curvature_case : exists s1 s2, st_kappa s1 = 1 / 2 /\ Rabs (st_kappa s1) <= 1 /\ Rabs (st_kappa s2) <= 1 /\ pos_dist s1 s2 <= 3 /\ cc_dubins_controls junk 1 1 true s1 s2 = Some [mkControl 1 (1 / 2) 1] /\
    ~ List.Forall (within_bounds (14 / 10) 1) [mkControl 1 (1 / 2) 1] /\ ~ cc_dubins_asserts junk 1 1 true s1 s2.
  Proof.
    exists origin, goal. split; [reflexivity|]. assert (OK : st_kappa origin = 1 / 2) by reflexivity. assert (GK : st_kappa goal = 1 / 2) by reflexivity. pose proof big_max. pose proof tol_unit. pose proof detour_unit as DU. destruct half_abs as (A & B).
    destruct origin_meets as (MX & MY & MT & MK). set (P1 := fst (predicted junk origin (mkControl (1 / 2) (1 / 2) 1))) in *.
    assert (EQ : state_equal P1 (fst meet) = true) by (apply same_equal; assumption).
    assert (FS : forall p, In p (cc_predict_state junk 1 1 origin true) -> forecast 1 1 origin p) by (intros p; apply (cc_forecast junk 1 1 Rlt_0_1)).
    assert (FE : forall p, In p (cc_predict_state junk 1 1 goal false) -> forecast 1 1 goal p) by (intros p; apply (cc_forecast junk 1 1 Rlt_0_1)).
    assert (I1 : In (P1, mkControl (1 / 2) (1 / 2) 1) (cc_predict_state junk 1 1 origin true)) by (rewrite (cc_ends _ _ OK); left; apply predicted_pair).
    assert (I2 : In (fst meet, mkControl (- (1 / 2)) (1 / 2) 1) (cc_predict_state junk 1 1 goal false)) by (rewrite (cc_ends _ _ GK); left; apply predicted_pair).
    assert (ND : pos_dist origin goal <= 3).
    { destruct (forecast_dist 1 1 Rlt_0_1 Rlt_0_1 _ _ _ (FS _ I1)) as (D1 & _). destruct (forecast_dist 1 1 Rlt_0_1 Rlt_0_1 _ _ _ (FE _ I2)) as (D2 & _). cbn [ct_delta_s] in D1, D2. rewrite A in D1. rewrite B in D2.
      pose proof (pos_dist_tri origin P1 goal) as T. replace (pos_dist P1 goal) with (pos_dist goal (fst meet)) in T; [lra|]. rewrite pos_dist_sym. unfold pos_dist. rewrite MX, MY. reflexivity. }
    split; [rewrite OK, A; lra|split; [rewrite GK, A; lra|split; [exact ND|split; [|split]]]].
    - unfold cc_dubins_controls.
      assert (ES : cc_predict_state junk 1 1 origin true = (P1, mkControl (1 / 2) (1 / 2) 1) :: [predicted junk origin (mkControl (1 / 2) (1 / 2) (-1))]) by (rewrite (cc_ends _ _ OK); cbn [map]; rewrite (predicted_pair _ (mkControl (1 / 2) (1 / 2) 1)); reflexivity).
      assert (EE : cc_predict_state junk 1 1 goal (negb true) = (fst meet, mkControl (- (1 / 2)) (1 / 2) 1) :: [predicted junk goal (mkControl (- (1 / 2)) (1 / 2) (-1))]) by (cbn [negb]; rewrite (cc_ends _ _ GK); cbn [map]; rewrite (predicted_pair _ (mkControl (- (1 / 2)) (1 / 2) 1)); reflexivity).
      rewrite ES, EE. apply loop_first.
      + unfold pair_controls. rewrite EQ. unfold subtract_control; cbn [ct_delta_s ct_kappa ct_sigma]. do 3 f_equal. field.
      + rewrite <- ES, <- EE. cbn [negb]. intros [q1 c1] [q2 c2] J1 J2.
        destruct (half_length origin (q1, c1) OK (or_intror (or_introl J1))) as (L1 & _). destruct (half_length goal (q2, c2) GK (or_introl J2)) as (L2 & _). cbn [snd] in L1, L2.
        eapply (pair_long 1 1); [| |rewrite L1, L2; unfold total_length; cbn [fold_right ct_delta_s]; rewrite Rabs_R1; lra].
        * apply (cc_contract 1 1 Rlt_0_1 Rlt_0_1 true). pose proof (pair_near 1 1 Rlt_0_1 Rlt_0_1 _ _ _ _ _ _ (FS _ J1) (FE _ J2)) as P. rewrite DU. unfold Rabs in P. destruct (Rcase_abs _) in P; lra.
        * assert (D1 : ct_delta_s c1 = 1 / 2).
          { rewrite ES in J1. destruct J1 as [J|[J|[]]]; [apply pair_equal_spec in J; destruct J as (_ & <-); reflexivity|]. rewrite predicted_pair in J. apply pair_equal_spec in J; destruct J as (_ & <-); reflexivity. }
          assert (D2 : ct_delta_s c2 = - (1 / 2)).
          { cbn [negb] in EE. rewrite EE in J2. destruct J2 as [J|[J|[]]]; [apply pair_equal_spec in J; destruct J as (_ & <-); reflexivity|]. rewrite predicted_pair in J. apply pair_equal_spec in J; destruct J as (_ & <-); reflexivity. }
          rewrite D1, D2. unfold total_length; cbn [fold_right ct_delta_s]. replace (1 / 2 - - (1 / 2)) with 1 by field. lra.
    - intros F. apply List.Forall_inv in F. destruct F as (_ & F). cbn [ct_delta_s ct_kappa ct_sigma] in F. rewrite Rabs_R1 in F. specialize (F 1 ltac:(lra)). rewrite Rabs_pos_eq in F; lra.
    - intros H1. specialize (H1 P1 (mkControl (1 / 2) (1 / 2) 1) (fst meet) (mkControl (- (1 / 2)) (1 / 2) 1) I1 I2 EQ). unfold subtract_control_assert in H1; cbn [ct_delta_s ct_sigma] in H1. rewrite half_sgn, half_neg_sgn in H1. lra.
  Qed.
  Theorem cc_curvature_refuted : exists s1 s2 cs, Rabs (st_kappa s1) <= 1 /\ Rabs (st_kappa s2) <= 1 /\ pos_dist s1 s2 <= 3 /\ cc_dubins_controls junk 1 1 true s1 s2 = Some cs /\
    ~ List.Forall (within_bounds (14 / 10) 1) cs /\ ~ cc_dubins_asserts junk 1 1 true s1 s2.
  Proof. destruct cc_curvature_case as (s1 & s2 & _ & H). exists s1, s2, [mkControl 1 (1 / 2) 1]. exact H. Qed.
End Meet.

Lemma far_case : let s1 := mkState 0 0 0 (1 / 2) 1 in let s2 := mkState 60 80 0 (- (1 / 4)) 1 in
  Rabs (st_kappa s1) <= 1 /\ Rabs (st_kappa s2) <= 1 /\ pos_dist s1 s2 + 2 * detour 1 1 < DBL_MAX /\ epsilon + 5 * (1 / 1 + 1 / 1) <= pos_dist s1 s2.
Proof.
  cbv zeta. cbn [st_kappa]. rewrite Rabs_Ropp, !Rabs_pos_eq by lra. assert (P : pos_dist (mkState 0 0 0 (1 / 2) 1) (mkState 60 80 0 (- (1 / 4)) 1) = 100).
  { unfold pos_dist; cbn [st_x st_y]. replace ((0 - 60) ^ 2 + (0 - 80) ^ 2) with (100 * 100) by ring. apply sqrt_square. lra. }
  rewrite P, detour_unit. pose proof big_max. unfold epsilon. lra.
Qed.
Lemma prediction_case : let st := mkState 1 2 3 (- (1 / 2)) 1 in epsilon <= Rabs (st_kappa st) /\ epsilon <= 1 - Rabs (st_kappa st).
Proof. cbv zeta. cbn [st_kappa]. rewrite Rabs_Ropp, Rabs_pos_eq by lra. unfold epsilon. lra. Qed.
Lemma flat_case : let s1 := mkState 0 0 0 0 1 in let s2 := mkState 0 0 0 0 1 in
  Rabs (st_kappa s1) < epsilon /\ Rabs (st_kappa s2) < epsilon /\ Rabs (st_kappa s1) <= 1 /\ Rabs (st_kappa s2) <= 1 /\ pos_dist s1 s2 + 2 * detour 1 1 < DBL_MAX.
Proof.
  cbv zeta. cbn [st_kappa]. rewrite Rabs_R0, detour_unit. pose proof big_max. unfold epsilon, pos_dist; cbn [st_x st_y].
  replace ((0 - 0) ^ 2 + (0 - 0) ^ 2) with 0 by ring. rewrite sqrt_0. lra.
Qed.

Lemma wrap_found junk k s fw s1 s2 : 0 < k -> 0 < s -> Rabs (st_kappa s1) <= k -> Rabs (st_kappa s2) <= k -> pos_dist s1 s2 + 2 * detour k s < DBL_MAX ->
  (exists L, cc_dubins_distance junk k s fw s1 s2 = Some (Some L)) /\ (exists cs, cc_dubins_controls junk k s fw s1 s2 = Some cs) /\
  (exists L, hc_rs_distance junk k s s1 s2 = Some (Some L)) /\ (exists cs, hc_rs_controls junk k s s1 s2 = Some cs).
Proof.
  intros Hk Hs K1 K2 LM. destruct (cc_space k s Hk Hs junk fw s1 s2 K1 K2 LM) as (L & cs & _ & _ & _ & _ & D & C & _). destruct (hc_space k s Hk Hs junk s1 s2 K1 K2 LM) as (L' & cs' & _ & _ & _ & _ & D' & C' & _).
  split; [eauto|split; [eauto|split; eauto]].
Qed.
Lemma wrap_nonempty junk k s fw s1 s2 : 0 < k -> 0 < s -> Rabs (st_kappa s1) <= k -> Rabs (st_kappa s2) <= k -> pos_dist s1 s2 + 2 * detour k s < DBL_MAX ->
  (forall cs, cc_dubins_controls junk k s fw s1 s2 = Some cs -> cs <> []) /\ (forall cs, hc_rs_controls junk k s s1 s2 = Some cs -> cs <> []).
Proof.
  intros Hk Hs K1 K2 LM. destruct (cc_space k s Hk Hs junk fw s1 s2 K1 K2 LM) as (L & cs & _ & _ & _ & _ & _ & C & _ & _ & N & _). destruct (hc_space k s Hk Hs junk s1 s2 K1 K2 LM) as (L' & cs' & _ & _ & _ & _ & _ & C' & _ & _ & N' & _).
  split; intros x X; rewrite X in *; [replace x with cs by congruence|replace x with cs' by congruence]; assumption.
Qed.

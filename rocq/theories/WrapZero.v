(** * Different states at distance zero *)
From Coq Require Import Reals ZArith List Lra Lia Bool.
From Coquelicot Require Import Coquelicot.
From Verif Require Import Base ModelUtil ModelFresnel ModelCircle ModelPaths ModelWrap Num UtilProofs SpecPath SpecCloth SpecTurn SpecPlan SpecSide SpecWrap FresProofs JacProofs PoseAlg TurnProofs MotionProofs TurnBounds LegProofs IntegrateProofs WrapPredict WrapProofs WrapLoop WrapSpace WrapPlan WrapMin WrapCases.
Import ListNotations.
Open Scope R_scope.

Section Zero.
  Variable junk : R.
  (** Both states turn into a straight line within the length 2, the one from the right, the other from the left. *)
  Let ca := mkControl 2 (1 / 2) (- (1 / 4)).
  Let cb := mkControl 2 (- (1 / 2)) (1 / 4).
  Let pa := fst (predicted junk (mkState 0 0 (- (1 / 2)) (1 / 2) 1) ca).
  Let pb := fst (predicted junk (mkState 0 0 (1 / 2) (- (1 / 2)) 1) cb).
  Let sa := mkState (- st_x pa) (- st_y pa) (- (1 / 2)) (1 / 2) 1.
  Let sb := mkState (- st_x pb) (- st_y pb) (1 / 2) (- (1 / 2)) 1.
  Let qa := fst (predicted junk sa ca).
  Let qb := fst (predicted junk sb cb).

  Lemma quarter_facts : 0 < 1 / 4 /\ 1 / (1 / 4) = 4 /\ sgn 2 = 1 /\ Rabs 2 = 2.
  Proof. split; [lra|split; [field|split; [unfold sgn; destruct (Rlt_dec 2 0); lra|apply Rabs_pos_eq; lra]]]. Qed.
  Lemma ends_at : st_x qa = 0 /\ st_y qa = 0 /\ st_x qb = 0 /\ st_y qb = 0.
  Proof. unfold qa, qb, sa, sb, pa, pb, predicted, end_of_clothoid. cbn [fst st_x st_y st_theta st_kappa ct_delta_s ct_sigma ca cb]. repeat split; ring. Qed.
  Lemma same_end : state_equal qa qb = true.
  Proof.
    destruct ends_at as (A1 & A2 & B1 & B2). destruct quarter_facts as (_ & _ & S2 & R2).
    destruct (predicted_kappa junk sa ca) as (KA & _ & za & TA). destruct (predicted_kappa junk sb cb) as (KB & _ & zb & TB). fold qa in KA, TA. fold qb in KB, TB.
    cbn [ca cb sa sb ct_delta_s ct_sigma st_kappa st_theta] in KA, TA, KB, TB. rewrite S2, R2 in *.
    apply same_equal; [congruence|congruence| |rewrite KA, KB; field].
    exists (za - zb)%Z. rewrite minus_IZR, TA, TB. field.
  Qed.
  Lemma abs_half_neg : Rabs (- (1 / 2)) = 1 / 2.
  Proof. apply half_abs. Qed.
  Lemma in_a : In (qa, ca) (hc_predict_state junk 1 (1 / 4) sa).
  Proof.
    assert (NP : no_prediction 1 sa = false) by (apply half_np; reflexivity). unfold hc_predict_state. rewrite NP. unfold hc_prediction_controls. cbv zeta. cbn [sa st_kappa]. rewrite half_sgn.
    do 2 right. left. replace (mkControl _ _ _) with ca; [apply predicted_pair|]. unfold ca. f_equal; field.
  Qed.
  Lemma in_b : In (qb, cb) (hc_predict_state junk 1 (1 / 4) sb).
  Proof.
    assert (NP : no_prediction 1 sb = false).
    { unfold no_prediction. cbn [sb st_kappa]. rewrite abs_half_neg. unfold Rltb, epsilon. destruct (Rlt_dec _ _); [lra|]. destruct (Rlt_dec _ _); [lra|]. reflexivity. }
    unfold hc_predict_state. rewrite NP. unfold hc_prediction_controls. cbv zeta. cbn [sb st_kappa]. rewrite half_neg_sgn.
    do 2 right. left. replace (mkControl _ _ _) with cb; [apply predicted_pair|]. unfold cb. f_equal; field.
  Qed.
  Lemma drop_y a : (forall u, 0 <= u <= 2 -> sin (a u) <= 0) -> (forall u, 0 <= u <= 1 -> sin (a u) <= - (12 / 100)) -> (forall u, continuous (fun u => 1 * sin (a u)) u) -> RInt (fun u => 1 * sin (a u)) 0 2 <= - (12 / 100).
  Proof.
    intros N P C. assert (X : forall u v, ex_RInt (fun u => 1 * sin (a u)) u v) by (intros u v; apply (ex_RInt_continuous (fun u => 1 * sin (a u))); intros; apply C).
    rewrite <- (RInt_Chasles (fun u => 1 * sin (a u)) 0 1 2 (X _ _) (X _ _)). change plus with Rplus.
    assert (A : RInt (fun u => 1 * sin (a u)) 0 1 <= RInt (fun _ => - (12 / 100)) 0 1).
    { apply RInt_le; [lra|apply X|apply ex_RInt_const|]. intros u U. pose proof (P u ltac:(lra)). lra. }
    assert (B : RInt (fun u => 1 * sin (a u)) 1 2 <= RInt (fun _ => 0) 1 2).
    { apply RInt_le; [lra|apply X|apply ex_RInt_const|]. intros u U. pose proof (N u ltac:(lra)). lra. }
    rewrite RInt_const in A, B. change (scal (1 - 0) (- (12 / 100))) with ((1 - 0) * - (12 / 100)) in A. change (scal (2 - 1) 0) with ((2 - 1) * 0) in B. lra.
  Qed.
  Lemma sin_low x : 1 / 8 <= x <= 1 / 2 -> 12 / 100 <= sin x.
  Proof. intros X. pose proof (ParamProofs.sin_lower_cub x ltac:(lra)). assert (0 <= x ^ 2 <= 1 / 4) by (split; [apply pow2_ge_0|nra]). assert (x ^ 3 <= 1 / 4 * x) by (replace (x ^ 3) with (x ^ 2 * x) by ring; nra). nra. Qed.
  Lemma sin_up x : 0 <= x <= 1 / 2 -> 0 <= sin x.
  Proof. intros X. pose proof FresProofs.PI_gt. apply sin_ge_0; lra. Qed.
  Lemma cont_sin th ka sg u : continuous (fun u => 1 * sin (heading th ka sg 1 u)) u.
  Proof. apply (ex_derive_continuous (fun u => 1 * sin (heading th ka sg 1 u))). unfold heading. auto_derive. exact I. Qed.
  Lemma low_a : true_y 0 (- (1 / 2)) (1 / 2) (- (1 / 4)) 1 2 <= - (12 / 100).
  Proof.
    unfold true_y. rewrite Rplus_0_l. apply (drop_y (heading (- (1 / 2)) (1 / 2) (- (1 / 4)) 1)).
    - intros u U. replace (heading _ _ _ _ u) with (- ((2 - u) ^ 2 / 8)) by (unfold heading; field). rewrite sin_neg. pose proof (sin_up ((2 - u) ^ 2 / 8) ltac:(nra)). lra.
    - intros u U. replace (heading _ _ _ _ u) with (- ((2 - u) ^ 2 / 8)) by (unfold heading; field). rewrite sin_neg. pose proof (sin_low ((2 - u) ^ 2 / 8) ltac:(nra)). lra.
    - intros u. apply cont_sin.
  Qed.
  Lemma high_b : 12 / 100 <= true_y 0 (1 / 2) (- (1 / 2)) (1 / 4) 1 2.
  Proof.
    assert (E : true_y 0 (1 / 2) (- (1 / 2)) (1 / 4) 1 2 = - true_y 0 (- (1 / 2)) (1 / 2) (- (1 / 4)) 1 2).
    { unfold true_y. rewrite !Rplus_0_l. rewrite <- (RInt_opp (fun u => 1 * sin (heading (- (1 / 2)) (1 / 2) (- (1 / 4)) 1 u))); [|apply (ex_RInt_continuous (fun u => 1 * sin (heading (- (1 / 2)) (1 / 2) (- (1 / 4)) 1 u))); intros; apply cont_sin].
      apply RInt_ext. intros u _. change (1 * sin (heading (1 / 2) (- (1 / 2)) (1 / 4) 1 u) = - (1 * sin (heading (- (1 / 2)) (1 / 2) (- (1 / 4)) 1 u))). replace (heading (1 / 2) (- (1 / 2)) (1 / 4) 1 u) with (- heading (- (1 / 2)) (1 / 2) (- (1 / 4)) 1 u) by (unfold heading; field). rewrite sin_neg. ring. }
    rewrite E. pose proof low_a. lra.
  Qed.
  Lemma tol_quarter : lib_tol (1 / 4) <= 1 / 10 ^ 6.
  Proof. destruct quarter_facts as (Q & E & _). pose proof (tol_le 1 (1 / 4) Rlt_0_1 Q) as T. rewrite E in T. replace (1 / 1) with 1 in T by field. lra. Qed.
  Lemma y_of y th ka sg q : forecast 1 (1 / 4) (mkState 0 y th ka 1) (q, mkControl 2 ka sg) -> epsilon <= Rabs ka -> epsilon <= 1 - Rabs ka -> Rabs (true_y y th ka sg 1 2 - st_y q) <= 1 / 10 ^ 6.
  Proof.
    intros F E1 E2. destruct quarter_facts as (_ & _ & S2 & R2). pose proof tol_quarter as TQ. destruct F as [(H & _)|(_ & _ & _ & (N & _) & _)]; [cbn [st_kappa] in H; lra|].
    cbn [snd fst pst px py] in N. unfold true_move in N; cbn [ct_delta_s ct_kappa ct_sigma st_x st_y st_theta] in N. rewrite S2, R2 in N. eapply Rle_trans; [|eapply Rle_trans; [exact N|exact TQ]].
    unfold hyp. rewrite <- (sqrt_pow2 (Rabs _) (Rabs_pos _)) at 1. apply sqrt_le_1_alt. rewrite <- (pow2_abs (true_y _ _ _ _ _ _ - st_y q)). pose proof (pow2_ge_0 (true_x 0 th ka sg 1 2 - st_x q)). lra.
  Qed.
  Lemma fore st c q : In (q, c) (hc_predict_state junk 1 (1 / 4) st) -> forecast 1 (1 / 4) st (q, c).
  Proof. apply (hc_forecast junk 1 (1 / 4) (proj1 quarter_facts)). Qed.

  Theorem zero_apart : exists s1 s2 L cs, Rabs (st_kappa s1) <= 1 /\ Rabs (st_kappa s2) <= 1 /\
    hc_rs_distance junk 1 (1 / 4) s1 s2 = Some (Some L) /\ L <= 0 /\ hc_rs_controls junk 1 (1 / 4) s1 s2 = Some cs /\ total_length cs <= 0 /\
    1 / 5 <= pos_dist s1 s2 /\ ~ heading_within (9 / 10) s1 s2.
  Proof.
    destruct quarter_facts as (Q & E4 & S2 & R2). pose proof half_abs as (HA & HB). pose proof tol_quarter as TQ. pose proof big_max as BM.
    assert (AP : 1 / 5 <= pos_dist sa sb).
    { assert (YA : st_y pa <= - (11 / 100)).
      { assert (I : In (pa, ca) (hc_predict_state junk 1 (1 / 4) (mkState 0 0 (- (1 / 2)) (1 / 2) 1))).
        { unfold hc_predict_state. rewrite half_np by reflexivity. unfold hc_prediction_controls. cbv zeta. cbn [st_kappa]. rewrite half_sgn. do 2 right. left. replace (mkControl _ _ _) with ca; [apply predicted_pair|]. unfold ca. f_equal; field. }
        pose proof (y_of 0 _ _ _ _ (fore _ _ _ I) ltac:(rewrite HA; unfold epsilon; lra) ltac:(rewrite HA; unfold epsilon; lra)) as Y. pose proof low_a. unfold Rabs in Y. destruct (Rcase_abs _) in Y; lra. }
      assert (YB : 11 / 100 <= st_y pb).
      { assert (I : In (pb, cb) (hc_predict_state junk 1 (1 / 4) (mkState 0 0 (1 / 2) (- (1 / 2)) 1))).
        { unfold hc_predict_state. replace (no_prediction _ _) with false. 2: { unfold no_prediction. cbn [st_kappa]. rewrite HB. unfold Rltb, epsilon. destruct (Rlt_dec _ _); [lra|]. destruct (Rlt_dec _ _); [lra|]. reflexivity. }
          unfold hc_prediction_controls. cbv zeta. cbn [st_kappa]. rewrite half_neg_sgn. do 2 right. left. replace (mkControl _ _ _) with cb; [apply predicted_pair|]. unfold cb. f_equal; field. }
        pose proof (y_of 0 _ _ _ _ (fore _ _ _ I) ltac:(rewrite HB; unfold epsilon; lra) ltac:(rewrite HB; unfold epsilon; lra)) as Y. pose proof high_b. unfold Rabs in Y. destruct (Rcase_abs _) in Y; lra. }
      unfold pos_dist. cbn [sa sb st_x st_y]. apply Rle_trans with (sqrt ((1 / 5) ^ 2)); [rewrite sqrt_pow2; lra|]. apply sqrt_le_1_alt. pose proof (pow2_ge_0 (- st_x pa - - st_x pb)). nra. }
    assert (LM : pos_dist sa sb + 2 * detour 1 (1 / 4) < DBL_MAX).
    { destruct (forecast_dist 1 (1 / 4) Rlt_0_1 Q _ _ _ (fore _ _ _ in_a)) as (DA & _). destruct (forecast_dist 1 (1 / 4) Rlt_0_1 Q _ _ _ (fore _ _ _ in_b)) as (DB & _). cbn [ca cb ct_delta_s] in DA, DB. rewrite R2 in DA, DB.
      destruct ends_at as (A1 & A2 & B1 & B2). pose proof (pos_dist_tri sa qa sb) as T. replace (pos_dist qa sb) with (pos_dist sb qb) in T by (rewrite pos_dist_sym; unfold pos_dist; congruence).
      unfold detour. rewrite E4. lra. }
    destruct (hc_min 1 (1 / 4) Rlt_0_1 Q junk sa sb LM) as (L & cs & D & C & MIN & _).
    destruct (proj1 (MIN qa ca qb cb in_a in_b) same_end) as (M1 & M2). replace (ct_delta_s ca - ct_delta_s cb) with 0 in M1, M2 by (cbn [ca cb ct_delta_s]; ring). rewrite Rabs_R0 in M1, M2.
    exists sa, sb, L, cs. split; [cbn [sa st_kappa]; rewrite HA; lra|split; [cbn [sb st_kappa]; rewrite HB; lra|]]. split; [exact D|split; [exact M1|split; [exact C|split; [exact M2|split; [exact AP|]]]]].
    apply (miss_heading _ (- (1 / 2)) (1 / 2)); [exists 0%Z; cbn [sa st_theta]; ring|rewrite Rabs_left; lra|rewrite Rabs_left; lra|reflexivity].
  Qed.
End Zero.

Corollary zero_apart_position junk : exists s1 s2 L cs,
  Rabs (st_kappa s1) <= 1 /\ Rabs (st_kappa s2) <= 1 /\ hc_rs_distance junk 1 (1 / 4) s1 s2 = Some (Some L) /\ L <= 0 /\
  hc_rs_controls junk 1 (1 / 4) s1 s2 = Some cs /\ total_length cs <= 0 /\ 1 / 5 <= pos_dist s1 s2.
Proof. destruct (zero_apart junk) as (s1 & s2 & L & cs & A & B & C & D & E & F & G & _). exists s1, s2, L, cs. auto 10. Qed.
Corollary zero_apart_heading junk : exists s1 s2 L,
  Rabs (st_kappa s1) <= 1 /\ Rabs (st_kappa s2) <= 1 /\ hc_rs_distance junk 1 (1 / 4) s1 s2 = Some (Some L) /\ L <= 0 /\
  ~ heading_within (9 / 10) s1 s2.
Proof. destruct (zero_apart junk) as (s1 & s2 & L & cs & A & B & C & D & E & F & G & H). exists s1, s2, L. auto 10. Qed.

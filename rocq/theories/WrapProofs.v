(** * Joining predicted states *)
From Coq Require Import Reals ZArith List Lra Lia Bool.
From Verif Require Import Base ModelUtil ModelFresnel ModelCircle ModelPaths ModelWrap Num UtilProofs SpecPath SpecCloth SpecTurn SpecPlan SpecSide SpecWrap FresProofs PoseAlg TurnProofs MotionProofs TurnBounds LegProofs IntegrateProofs PlanSelect WrapPredict.
Import ListNotations.
Open Scope R_scope.

(** ** A single control *)
Lemma move_near k s st c : within_bounds k s c -> near (Rabs (ct_delta_s c)) (k * Rabs (ct_delta_s c)) (pst st) (pst (true_move st c)).
Proof.
  intros (_ & WB). split.
  - rewrite true_move_disp. unfold pmul; cbn [px py]. pose proof (tdisp_len c) as T.
    replace (px (pst st) - (px (pst st) + (px (tdisp c) * cos (pt (pst st)) - py (tdisp c) * sin (pt (pst st))))) with (- (px (tdisp c) * cos (pt (pst st)) - py (tdisp c) * sin (pt (pst st)))) by ring.
    replace (py (pst st) - (py (pst st) + (px (tdisp c) * sin (pt (pst st)) + py (tdisp c) * cos (pt (pst st))))) with (- (px (tdisp c) * sin (pt (pst st)) + py (tdisp c) * cos (pt (pst st)))) by ring.
    rewrite hyp_opp, TurnProofs.hyp_rot. exact T.
  - exists 0%Z. unfold true_move, pst; cbn [pt st_theta]. unfold heading. set (h := Rabs (ct_delta_s c)) in *. assert (0 <= h) by apply Rabs_pos.
    rewrite Rmult_0_r, Rminus_0_r.
    replace (st_theta st - (st_theta st + sgn (ct_delta_s c) * (ct_kappa c * h + ct_sigma c * h ^ 2 / 2))) with (- sgn (ct_delta_s c) * ((ct_kappa c + ct_sigma c * (h / 2)) * h)) by field.
    rewrite Rabs_mult, Rabs_Ropp, Num.sgn_abs1, Rmult_1_l, Rabs_mult, (Rabs_pos_eq h) by assumption. apply Rmult_le_compat_r; [assumption|]. apply WB. lra.
Qed.
Lemma within_reverse k s c : within_bounds k s c -> within_bounds k s (reverse_control c).
Proof.
  intros (A & B). unfold within_bounds, reverse_control; cbn [ct_sigma ct_kappa ct_delta_s]. rewrite Rabs_Ropp. split; [exact A|]. rewrite !Rabs_Ropp. intros u U.
  replace (ct_kappa c + Rabs (ct_delta_s c) * ct_sigma c + - ct_sigma c * u) with (ct_kappa c + ct_sigma c * (Rabs (ct_delta_s c) - u)) by ring. apply B. lra.
Qed.

Section Join.
  Variables (k s : R).
  Hypothesis Hk : 0 < k.
  Hypothesis Hs : 0 < s.
  Notation tol := (lib_tol s).

  Lemma tol_nonneg : 0 <= tol.
  Proof. unfold lib_tol. apply Rmult_le_pos; [apply sqrt_pos|lra]. Qed.
  Lemma tol_le : tol <= (k / s + 1 / k) / 10 ^ 10.
  Proof.
    unfold lib_tol. assert (0 < k / s) by (apply Rdiv_lt_0_compat; lra). assert (0 < 1 / k) by (apply Rdiv_lt_0_compat; lra).
    assert (E : sqrt (PI / s) <= 2 * (k / s + 1 / k)).
    { rewrite <- (sqrt_pow2 (2 * (k / s + 1 / k))) by lra. apply sqrt_le_1_alt. pose proof PI_4. replace (PI / s) with (PI * ((k / s) * (1 / k))) by (field; lra).
      assert (0 < (k / s) * (1 / k)) by (apply Rmult_lt_0_compat; assumption). nra. }
    replace (10 ^ 15) with (10 ^ 10 * 100000) by ring. assert (0 <= sqrt (PI / s)) by apply sqrt_pos. lra.
  Qed.

  (** The start of the planned part. *)
  Definition pre (c : Control) : list Control := if Rltb epsilon (Rabs (ct_delta_s c)) then [c] else [].
  Definition post (c : Control) : list Control := if Rltb epsilon (Rabs (ct_delta_s c)) then [reverse_control c] else [].
  Lemma forecast_near st q c : forecast k s st (q, c) -> near (Rabs (ct_delta_s c) + tol) (k * Rabs (ct_delta_s c)) (pst st) (pst q).
  Proof.
    pose proof tol_nonneg. intros [(_ & E)|(_ & _ & (_ & WB & _) & N & _)].
    - apply pair_equal_spec in E. destruct E as (-> & ->). cbn [ct_delta_s]. rewrite Rabs_R0, Rmult_0_r, Rplus_0_l. eapply near_weaken; [apply near_refl|lra|lra].
    - cbn [fst snd] in *. eapply near_weaken; [exact (near_trans _ _ _ _ _ _ _ (move_near k s st c WB) N)|lra|lra].
  Qed.
  Lemma pre_near st q c : forecast k s st (q, c) -> near (epsilon + tol) (k * epsilon) (pst (true_path st (pre c))) (pst q).
  Proof.
    intros F. pose proof tol_nonneg. assert (E0 : 0 < epsilon) by (unfold epsilon; lra). assert (0 <= k * epsilon) by (apply Rmult_le_pos; lra). unfold pre. destruct (Rltb epsilon (Rabs (ct_delta_s c))) eqn:E.
    - apply Num.Rltb_true in E. destruct F as [(_ & P)|(_ & _ & _ & N & _)].
      + apply pair_equal_spec in P. destruct P as (-> & ->). cbn [ct_delta_s] in E. rewrite Rabs_R0 in E. lra.
      + eapply near_weaken; [exact N|lra|lra].
    - pose proof (forecast_near st q c F) as N. assert (L : Rabs (ct_delta_s c) <= epsilon) by (destruct (Rle_dec (Rabs (ct_delta_s c)) epsilon); [assumption|]; exfalso; assert (T : Rltb epsilon (Rabs (ct_delta_s c)) = true) by (apply Num.Rltb_true; lra); congruence).
      unfold true_path; cbn [fold_left]. eapply near_weaken; [exact N|lra|]. apply Rmult_le_compat_l; lra.
  Qed.
  Lemma post_near st q c p e h : forecast k s st (q, c) -> near e h p (pst q) ->
    near (e + h * total_length (post c) + epsilon + tol) (h + k * epsilon) (pmul p (tdisps (post c))) (pst st).
  Proof.
    intros F N. pose proof tol_nonneg. assert (E0 : 0 < epsilon) by (unfold epsilon; lra). assert (0 <= k * epsilon) by (apply Rmult_le_pos; lra). unfold post. destruct (Rltb epsilon (Rabs (ct_delta_s c))) eqn:E.
    - apply Num.Rltb_true in E. destruct F as [(_ & P)|(_ & _ & _ & M & _)].
      + apply pair_equal_spec in P. destruct P as (-> & ->). cbn [ct_delta_s] in E. rewrite Rabs_R0 in E. lra.
      + cbn [fst snd] in M. cbn [tdisps]. rewrite pmul_id_r. pose proof (near_mul _ _ _ _ (tdisp (reverse_control c)) N) as A. rewrite <- true_move_disp in A.
        pose proof (near_trans _ _ _ _ _ _ _ A (back_near c st q _ M)) as B. pose proof (near_h_nonneg _ _ _ _ N). pose proof (tdisp_len (reverse_control c)) as T.
        assert (h * hyp (px (tdisp (reverse_control c))) (py (tdisp (reverse_control c))) <= h * Rabs (ct_delta_s (reverse_control c))) by (apply Rmult_le_compat_l; assumption).
        unfold total_length; cbn [fold_right]. eapply near_weaken; [exact B|lra|lra].
    - pose proof (forecast_near st q c F) as M. assert (L : Rabs (ct_delta_s c) <= epsilon) by (destruct (Rle_dec (Rabs (ct_delta_s c)) epsilon); [assumption|]; exfalso; assert (T : Rltb epsilon (Rabs (ct_delta_s c)) = true) by (apply Num.Rltb_true; lra); congruence).
      cbn [tdisps]. rewrite pmul_id_r. pose proof (near_trans _ _ _ _ _ _ _ N (near_sym _ _ _ _ M)) as B. unfold total_length; cbn [fold_right].
      assert (k * Rabs (ct_delta_s c) <= k * epsilon) by (apply Rmult_le_compat_l; lra). eapply near_weaken; [exact B|lra|lra].
  Qed.

  Lemma pre_bounds st q c k' s' : forecast k s st (q, c) -> k <= k' -> s <= s' -> List.Forall (within_bounds k' s') (pre c).
  Proof.
    intros F A B. unfold pre. destruct (Rltb epsilon (Rabs (ct_delta_s c))) eqn:E; [|constructor]. constructor; [|constructor].
    destruct F as [(_ & P)|(_ & _ & (_ & WB & _) & _)]; [|eapply within_weaken; eassumption]. exfalso. apply Num.Rltb_true in E. apply pair_equal_spec in P. destruct P as (-> & ->).
    cbn [ct_delta_s] in E. rewrite Rabs_R0 in E. unfold epsilon in E. lra.
  Qed.
  Lemma post_bounds st q c k' s' : forecast k s st (q, c) -> k <= k' -> s <= s' -> List.Forall (within_bounds k' s') (post c).
  Proof.
    intros F A B. pose proof (pre_bounds st q c k' s' F A B) as P. unfold pre in P. unfold post. destruct (Rltb epsilon (Rabs (ct_delta_s c))); [|constructor].
    inversion P; subst. constructor; [apply within_reverse; assumption|constructor].
  Qed.

  Theorem join s1 s2 q1 c1 q2 c2 n g mid L : forecast k s s1 (q1, c1) -> forecast k s s2 (q2, c2) -> 0 <= n -> 0 <= g -> drives k s n g q1 q2 mid L ->
    connects k s n g s1 s2 (pre c1 ++ mid ++ post c2).
  Proof.
    intros F1 F2 N0 G0 (DP & DH & _ & DB). set (cs := pre c1 ++ mid ++ post c2). assert (E0 : 0 < epsilon) by (unfold epsilon; lra).
    assert (KE : 0 <= k * epsilon) by (apply Rmult_le_pos; lra). assert (NE : 0 <= n * epsilon) by (apply Rmult_le_pos; lra).
    assert (TN : forall l, 0 <= total_length l) by (induction l as [|c l IH]; unfold total_length; cbn [fold_right]; [lra|fold (total_length l); pose proof (Rabs_pos (ct_delta_s c)); lra]).
    assert (FN : forall l, 0 <= fresnel_error l).
    { induction l as [|c l IH]; unfold fresnel_error; cbn [fold_right]; [lra|fold (fresnel_error l)]. destruct (Req_EM_T _ _); [lra|]. assert (0 <= sqrt (PI / Rabs (ct_sigma c)) * (12 / 10 ^ 15)) by (apply Rmult_le_pos; [apply sqrt_pos|lra]). lra. }
    assert (LC : total_length cs = total_length (pre c1) + total_length mid + total_length (post c2)) by (unfold cs; rewrite !total_length_app; ring).
    assert (FC : fresnel_error mid <= fresnel_error cs) by (unfold cs; rewrite !fresnel_app; pose proof (FN (pre c1)); pose proof (FN (post c2)); lra).
    pose proof (TN (pre c1)). pose proof (TN (post c2)). pose proof (TN mid).
    pose proof (pre_near s1 q1 c1 F1) as A. pose proof (near_mul _ _ _ _ (tdisps mid) A) as A2. rewrite <- !true_path_disp in A2.
    pose proof (near_trans _ _ _ _ _ _ _ A2 (dist_near _ _ _ _ DP DH)) as A3.
    pose proof (post_near s2 q2 c2 _ _ _ F2 A3) as A4. rewrite <- true_path_disp in A4. rewrite <- !true_path_app in A4. try rewrite <- app_assoc in A4. fold cs in A4.
    destruct (near_dist _ _ _ _ A4) as (P & HW). split; [|split].
    - eapply Rle_trans; [exact P|]. unfold wrap_error, plan_error. pose proof (tdisps_len mid) as TL.
      assert (k * epsilon * hyp (px (tdisps mid)) (py (tdisps mid)) <= k * epsilon * total_length mid) by (apply Rmult_le_compat_l; lra).
      assert (0 <= (n * epsilon) * total_length (pre c1)) by (apply Rmult_le_pos; lra). assert (0 <= (k * epsilon) * total_length (pre c1)) by (apply Rmult_le_pos; lra).
      fold tol. rewrite LC. assert (0 <= k * epsilon * total_length mid) by (apply Rmult_le_pos; lra). lra.
    - destruct HW as [z HW]. exists z. eapply Rle_trans; [exact HW|]. lra.
    - assert (SH : 1 <= sharp k s g).
      { unfold sharp. pose proof (slack_nonneg k s Hk Hs). assert (0 <= (g + 2 * param_slack k s) / epsilon) by (apply Rmult_le_pos; [lra|left; apply Rinv_0_lt_compat; lra]). rewrite <- (Rmult_1_l 1) at 1. apply Rmult_le_compat; lra. }
      set (z := sharp k s g) in *. assert (1 <= z ^ 2) by nra. assert (k <= k * z) by nra. assert (s <= s * z ^ 2) by nra.
      unfold cs. apply Forall_app. split; [eapply pre_bounds; eassumption|]. apply Forall_app. split; [exact DB|eapply post_bounds; eassumption].
  Qed.

  (** ** Curvature at the joints *)
  Definition joint (q : State) (x : R) : Prop := (Rabs (st_kappa q) < epsilon -> x = 0) /\ (epsilon <= Rabs (st_kappa q) -> bound_kappa k q x).
  Lemma joint_cases st q c x : Rabs (st_kappa st) <= k -> forecast k s st (q, c) -> joint q x ->
    (Rabs (ct_delta_s c) = 0 /\ Rabs (x - st_kappa st) <= epsilon) \/
    (ct_kappa c = st_kappa st /\ Rabs (ct_sigma c) = s /\ x = st_kappa st + ct_sigma c * Rabs (ct_delta_s c)).
  Proof.
    intros KB F (J0 & J1). assert (E0 : 0 < epsilon) by (unfold epsilon; lra). destruct F as [(N & P)|(N1 & N2 & LD & _ & SG & _)].
    - left. apply pair_equal_spec in P. destruct P as (-> & ->). cbn [ct_delta_s]. split; [apply Rabs_R0|]. destruct (Rlt_dec (Rabs (st_kappa st)) epsilon) as [Z|Z].
      + rewrite (J0 Z). rewrite Rminus_0_l, Rabs_Ropp. lra.
      + assert (K : epsilon <= Rabs (st_kappa st)) by lra. destruct (J1 K) as (_ & BP & BN). destruct N as [N|N]; [lra|]. destruct (Rtotal_order (st_kappa st) 0) as [T|[T|T]].
        * rewrite (BN T). rewrite (Rabs_left _ T) in *. rewrite Rabs_left1; lra.
        * rewrite T, Rabs_R0 in K. lra.
        * rewrite (BP T). rewrite (Rabs_pos_eq (st_kappa st)) in * by lra. rewrite Rabs_pos_eq; lra.
    - right. cbn [fst snd] in *. destruct LD as (KC & _ & KQ & (_ & _ & KT) & _). unfold true_path, true_move in KT; cbn [fold_left st_kappa] in KT. rewrite KC in KT.
      split; [exact KC|split; [exact SG|]]. rewrite KT. destruct KQ as [Q|Q].
      + rewrite Q. apply J0. rewrite Q, Rabs_R0. lra.
      + assert (AQ : Rabs (st_kappa q) = k) by (rewrite Q, Rabs_mult, Num.sgn_abs1, Rabs_pos_eq by lra; ring). pose proof (Rabs_pos (st_kappa st)).
        assert (KK : epsilon <= Rabs (st_kappa q)) by lra. destruct (J1 KK) as (_ & BP & BN). rewrite Q. unfold sgn in Q |- *. destruct (Rlt_dec (st_kappa st) 0); [rewrite BN; lra|rewrite BP; lra].
  Qed.
  Lemma pre_curvature st q c x : Rabs (st_kappa st) <= k -> forecast k s st (q, c) -> joint q x ->
    (pre c = [] /\ Rabs (x - st_kappa st) <= kappa_gap s) \/ (exists c', pre c = [c'] /\ curvature_chain (st_kappa st) (pre c) x).
  Proof.
    intros KB F J. assert (E0 : 0 < epsilon) by (unfold epsilon; lra). unfold pre, kappa_gap. assert (0 < s * epsilon) by (apply Rmult_lt_0_compat; lra).
    destruct (joint_cases st q c x KB F J) as [(Z & A)|(A & B & C)].
    - left. rewrite Z. replace (Rltb epsilon 0) with false; [split; [reflexivity|lra]|]. unfold Rltb. destruct (Rlt_dec epsilon 0); [lra|reflexivity].
    - destruct (Rltb epsilon (Rabs (ct_delta_s c))) eqn:E.
      + right. exists c. split; [reflexivity|]. cbn [curvature_chain]. split; [exact A|]. rewrite A. symmetry. exact C.
      + left. split; [reflexivity|]. assert (L : Rabs (ct_delta_s c) <= epsilon) by (destruct (Rle_dec (Rabs (ct_delta_s c)) epsilon); [assumption|]; exfalso; assert (T : Rltb epsilon (Rabs (ct_delta_s c)) = true) by (apply Num.Rltb_true; lra); congruence).
        rewrite C. replace (st_kappa st + ct_sigma c * Rabs (ct_delta_s c) - st_kappa st) with (ct_sigma c * Rabs (ct_delta_s c)) by ring. rewrite Rabs_mult, B, Rabs_Rabsolu.
        assert (s * Rabs (ct_delta_s c) <= s * epsilon) by (apply Rmult_le_compat_l; lra). lra.
  Qed.
  Lemma post_curvature st q c x : Rabs (st_kappa st) <= k -> forecast k s st (q, c) -> joint q x ->
    (post c = [] /\ Rabs (x - st_kappa st) <= kappa_gap s) \/ (exists c', post c = [c'] /\ curvature_chain x (post c) (st_kappa st)).
  Proof.
    intros KB F J. pose proof (pre_curvature st q c x KB F J) as P. unfold pre in P. unfold post. destruct (Rltb epsilon (Rabs (ct_delta_s c))).
    - right. exists (reverse_control c). split; [reflexivity|]. destruct P as [(P & _)|(c' & _ & P)]; [discriminate P|]. cbn [curvature_chain] in P |- *. destruct P as (A & B).
      destruct (reverse_curvature c) as (R1 & R2 & _). rewrite R1. split; [exact B|]. rewrite R1 in R2. rewrite R2. exact A.
    - left. destruct P as [P|(c' & P & _)]; [exact P|discriminate P].
  Qed.
End Join.

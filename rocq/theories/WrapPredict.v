(** * The predicted states *)
From Coq Require Import Reals ZArith List Lra Lia Bool.
From Verif Require Import Base ModelUtil ModelFresnel ModelCircle ModelPaths ModelWrap Num UtilProofs SpecPath SpecCloth SpecTurn SpecPlan SpecSide SpecWrap FresProofs PoseAlg TurnProofs MotionProofs TurnBounds.
Import ListNotations.
Open Scope R_scope.

(** ** Going back *)
Lemma near_sym e h a b : near e h a b -> near e h b a.
Proof.
  intros (A & z & B). split.
  - replace (px b - px a) with (- (px a - px b)) by ring. replace (py b - py a) with (- (py a - py b)) by ring. rewrite hyp_opp. exact A.
  - exists (- z)%Z. rewrite opp_IZR. rewrite <- Rabs_Ropp. match goal with |- Rabs ?x <= _ => replace x with (pt a - pt b - 2 * PI * IZR z) by ring end. exact B.
Qed.
Lemma near_dist e h a b : near e h (pst a) (pst b) -> pos_dist a b <= e /\ heading_within h a b.
Proof. intros (A & B). split; [exact A|exact B]. Qed.
Lemma dist_near e h a b : pos_dist a b <= e -> heading_within h a b -> near e h (pst a) (pst b).
Proof. intros A B. exact (conj A B). Qed.

Lemma back_near c a b e : near e 0 (pst (true_move a c)) (pst b) -> near e 0 (pst (true_move b (reverse_control c))) (pst a).
Proof.
  intros N. pose proof (near_mul _ _ _ _ (tdisp (reverse_control c)) (near_sym _ _ _ _ N)) as M. rewrite Rmult_0_l, Rplus_0_r in M. rewrite <- !true_move_disp in M.
  pose proof (reverse_true a c) as R. cbv zeta in R. unfold true_path in R; cbn [fold_left] in R.
  destruct R as (X & Y & T & _). eapply near_peq; [apply peq_refl| |exact M].
  unfold peq, pst; cbn [px py pt]. rewrite X, Y, T. split; [reflexivity|split; [reflexivity|exists 0%Z; ring]].
Qed.

(** ** A single prediction *)
Section Predict.
  Variables (junk k s : R).
  Hypothesis Hk : 0 < k.
  Hypothesis Hs : 0 < s.

  Lemma predicted_leads st c q : predicted junk st c = (q, snd (predicted junk st c)) -> ct_kappa c = st_kappa st -> Rabs (ct_sigma c) = s -> within_bounds k s c ->
    (st_kappa st + ct_sigma c * Rabs (ct_delta_s c) = 0 \/ st_kappa st + ct_sigma c * Rabs (ct_delta_s c) = sgn (st_kappa st) * k) ->
    snd (predicted junk st c) = c /\ leads k s st c q /\ st_kappa q = st_kappa st + ct_sigma c * Rabs (ct_delta_s c) /\
    near (sqrt (PI / s) * (12 / 10 ^ 15)) 0 (pst (true_move st c)) (pst q).
  Proof.
    intros E KC SC WB KE. pose proof (lib_move_near st c) as N. unfold lib_err, lib_move in N. unfold predicted in E |- *. cbv zeta in E.
    destruct (Req_EM_T (ct_sigma c) 0) as [Z|NZ]; [exfalso; rewrite Z, Rabs_R0 in SC; lra|].
    rewrite KC in N. assert (KF : snd (end_of_clothoid (st_x st) (st_y st) (st_theta st) (st_kappa st) (ct_sigma c) (sgn (ct_delta_s c)) (Rabs (ct_delta_s c))) = st_kappa st + ct_sigma c * Rabs (ct_delta_s c)) by reflexivity.
    destruct (end_of_clothoid _ _ _ _ _ _ _) as [[[x y] th] kap]. cbn [snd] in *. apply pair_equal_spec in E. destruct E as (E & _). subst q kap. rewrite SC in N.
    assert (N' : near (sqrt (PI / s) * (12 / 10 ^ 15)) 0 (pst (true_move st c)) (pst (mkState x y th (st_kappa st + ct_sigma c * Rabs (ct_delta_s c)) junk))) by exact N. clear N.
    split; [reflexivity|]. split; [|split; [reflexivity|exact N']].
    split; [exact KC|split; [exact WB|split; [exact KE|split]]]; cbv zeta.
    - destruct (near_dist _ _ _ _ N') as (A & B). split; [exact A|split; [exact B|]]. unfold true_path, true_move; cbn [fold_left st_kappa]. rewrite KC. reflexivity.
    - destruct (near_dist _ _ _ _ (back_near c st _ _ N')) as (A & B). split; [exact A|split; [exact B|]]. unfold true_path, true_move; cbn [fold_left st_kappa].
      destruct (reverse_curvature c) as (_ & R & _). rewrite R, KC. reflexivity.
  Qed.

  (** ** All controls of the predictions *)
  Definition up (d : R) (st : State) : Control := mkControl (d * ((k - Rabs (st_kappa st)) / s)) (st_kappa st) (sgn (st_kappa st) * s).
  Definition down (d : R) (st : State) : Control := mkControl (d * (Rabs (st_kappa st) / s)) (st_kappa st) (- sgn (st_kappa st) * s).
  Lemma cc_controls_eq st fw : cc_prediction_controls k s st fw = [up (sign fw) st; down (sign fw) st].
  Proof. unfold cc_prediction_controls, up, down. pose proof (sgn_mul_self (st_kappa st)) as E. destruct fw; unfold sign; rewrite <- E; repeat match goal with |- _ :: _ = _ :: _ => f_equal | |- mkControl _ _ _ = mkControl _ _ _ => f_equal end; try reflexivity; field; lra. Qed.
  Lemma hc_controls_eq st : hc_prediction_controls k s st = [up 1 st; up (-1) st; down 1 st; down (-1) st].
  Proof. unfold hc_prediction_controls, up, down. cbn [ct_delta_s ct_sigma]. pose proof (sgn_mul_self (st_kappa st)) as E. rewrite <- E; repeat match goal with |- _ :: _ = _ :: _ => f_equal | |- mkControl _ _ _ = mkControl _ _ _ => f_equal end; try reflexivity; field; lra. Qed.

  Lemma sgn_lin x u : Rabs (x + sgn x * u) = Rabs (Rabs x + u).
  Proof. rewrite <- (Num.sgn_abs x) at 1. replace (sgn x * Rabs x + sgn x * u) with (sgn x * (Rabs x + u)) by ring. rewrite Rabs_mult, Num.sgn_abs1. ring. Qed.
  Lemma up_facts d st : Rabs d = 1 -> Rabs (st_kappa st) < k -> ct_kappa (up d st) = st_kappa st /\ Rabs (ct_sigma (up d st)) = s /\ within_bounds k s (up d st) /\
    Rabs (ct_delta_s (up d st)) = (k - Rabs (st_kappa st)) / s /\ st_kappa st + ct_sigma (up d st) * Rabs (ct_delta_s (up d st)) = sgn (st_kappa st) * k.
  Proof.
    intros D1 LT. set (x := st_kappa st) in *. pose proof (Rabs_pos x). assert (P : 0 < (k - Rabs x) / s) by (apply Rdiv_lt_0_compat; lra).
    assert (SA : Rabs (sgn x * s) = s) by (rewrite Rabs_mult, Num.sgn_abs1, Rabs_pos_eq by lra; ring).
    assert (L : Rabs (d * ((k - Rabs x) / s)) = (k - Rabs x) / s) by (rewrite Rabs_mult, D1, Rabs_pos_eq by lra; ring).
    unfold up; cbn [ct_kappa ct_sigma ct_delta_s]. fold x. split; [reflexivity|split; [exact SA|split; [split; cbn [ct_kappa ct_sigma ct_delta_s]|split; [exact L|]]]].
    - rewrite SA. lra.
    - intros u. rewrite L. intros (U0 & U1). replace (x + sgn x * s * u) with (x + sgn x * (s * u)) by ring. rewrite sgn_lin.
      assert (s * u <= s * ((k - Rabs x) / s)) by (apply Rmult_le_compat_l; lra). replace (s * ((k - Rabs x) / s)) with (k - Rabs x) in * by (field; lra).
      assert (0 <= s * u) by (apply Rmult_le_pos; lra). rewrite Rabs_pos_eq; lra.
    - rewrite L. rewrite <- (Num.sgn_abs x) at 1. field. lra.
  Qed.
  Lemma down_facts d st : Rabs d = 1 -> Rabs (st_kappa st) < k -> ct_kappa (down d st) = st_kappa st /\ Rabs (ct_sigma (down d st)) = s /\ within_bounds k s (down d st) /\
    Rabs (ct_delta_s (down d st)) = Rabs (st_kappa st) / s /\ st_kappa st + ct_sigma (down d st) * Rabs (ct_delta_s (down d st)) = 0.
  Proof.
    intros D1 LT. set (x := st_kappa st) in *. pose proof (Rabs_pos x). assert (P : 0 <= Rabs x / s) by (apply Rmult_le_pos; [lra|left; apply Rinv_0_lt_compat; lra]).
    assert (SA : Rabs (- sgn x * s) = s) by (rewrite Rabs_mult, Rabs_Ropp, Num.sgn_abs1, Rabs_pos_eq by lra; ring).
    assert (L : Rabs (d * (Rabs x / s)) = Rabs x / s) by (rewrite Rabs_mult, D1, (Rabs_pos_eq (Rabs x / s)) by lra; ring).
    unfold down; cbn [ct_kappa ct_sigma ct_delta_s]. fold x. split; [reflexivity|split; [exact SA|split; [split; cbn [ct_kappa ct_sigma ct_delta_s]|split; [exact L|]]]].
    - rewrite SA. lra.
    - intros u. rewrite L. intros (U0 & U1). replace (x + - sgn x * s * u) with (x + sgn x * (- (s * u))) by ring. rewrite sgn_lin.
      assert (s * u <= s * (Rabs x / s)) by (apply Rmult_le_compat_l; lra). replace (s * (Rabs x / s)) with (Rabs x) in * by (field; lra).
      assert (0 <= s * u) by (apply Rmult_le_pos; lra). rewrite Rabs_pos_eq; lra.
    - rewrite L. rewrite <- (Num.sgn_abs x) at 1. field. lra.
  Qed.

  (** ** What every pair of a state and a control satisfies *)
  Definition lib_tol : R := sqrt (PI / s) * (12 / 10 ^ 15).
  Definition forecast (st : State) (p : State * Control) : Prop :=
    ((Rabs (st_kappa st) < epsilon \/ k - Rabs (st_kappa st) < epsilon) /\ p = (st, mkControl 0 (st_kappa st) 0)) \/
    (epsilon <= Rabs (st_kappa st) /\ epsilon <= k - Rabs (st_kappa st) /\ leads k s st (snd p) (fst p) /\
     near lib_tol 0 (pst (true_move st (snd p))) (pst (fst p)) /\ Rabs (ct_sigma (snd p)) = s /\ 0 < Rabs (ct_delta_s (snd p)) <= k / s).
  Lemma no_prediction_true st : no_prediction k st = true <-> Rabs (st_kappa st) < epsilon \/ k - Rabs (st_kappa st) < epsilon.
  Proof. unfold no_prediction. rewrite orb_true_iff, !Num.Rltb_true. reflexivity. Qed.
  Lemma eps_pos : 0 < epsilon.
  Proof. unfold epsilon. lra. Qed.
  Lemma forecast_up d st : Rabs d = 1 -> no_prediction k st = false -> forecast st (predicted junk st (up d st)) /\ snd (predicted junk st (up d st)) = up d st /\ st_kappa (fst (predicted junk st (up d st))) = sgn (st_kappa st) * k.
  Proof.
    intros D1 NP. assert (N : ~ (Rabs (st_kappa st) < epsilon \/ k - Rabs (st_kappa st) < epsilon)) by (rewrite <- no_prediction_true, NP; discriminate). pose proof eps_pos.
    destruct (up_facts d st D1 ltac:(lra)) as (A & B & C & D & E). destruct (predicted junk st (up d st)) as [q c] eqn:P. pose proof P as P'. replace c with (snd (predicted junk st (up d st))) in P' by (rewrite P; reflexivity).
    destruct (predicted_leads st (up d st) q P' A B C (or_intror E)) as (F & G & K & I). rewrite P in F; cbn [snd] in F. subst c. cbn [fst snd]. split; [|split; [reflexivity|rewrite K, E; reflexivity]]. right. cbn [fst snd].
    split; [lra|split; [lra|split; [exact G|split; [exact I|split; [exact B|]]]]]. rewrite D. split; [apply Rdiv_lt_0_compat; lra|]. apply Rmult_le_compat_r; [left; apply Rinv_0_lt_compat; lra|lra].
  Qed.
  Lemma forecast_down d st : Rabs d = 1 -> no_prediction k st = false -> forecast st (predicted junk st (down d st)) /\ snd (predicted junk st (down d st)) = down d st /\ st_kappa (fst (predicted junk st (down d st))) = 0.
  Proof.
    intros D1 NP. assert (N : ~ (Rabs (st_kappa st) < epsilon \/ k - Rabs (st_kappa st) < epsilon)) by (rewrite <- no_prediction_true, NP; discriminate). pose proof eps_pos.
    destruct (down_facts d st D1 ltac:(lra)) as (A & B & C & D & E). destruct (predicted junk st (down d st)) as [q c] eqn:P. pose proof P as P'. replace c with (snd (predicted junk st (down d st))) in P' by (rewrite P; reflexivity).
    destruct (predicted_leads st (down d st) q P' A B C (or_introl E)) as (F & G & K & I). rewrite P in F; cbn [snd] in F. subst c. cbn [fst snd]. split; [|split; [reflexivity|rewrite K, E; reflexivity]]. right. cbn [fst snd].
    split; [lra|split; [lra|split; [exact G|split; [exact I|split; [exact B|]]]]]. rewrite D. split; [apply Rdiv_lt_0_compat; lra|]. apply Rmult_le_compat_r; [left; apply Rinv_0_lt_compat; lra|lra].
  Qed.
  Lemma unpredicted_forecast st : no_prediction k st = true -> forecast st (unpredicted st).
  Proof. intros NP. left. split; [apply no_prediction_true; exact NP|reflexivity]. Qed.
  Lemma cc_forecast st fw p : In p (cc_predict_state junk k s st fw) -> forecast st p.
  Proof.
    unfold cc_predict_state. destruct (no_prediction k st) eqn:NP; [intros [<-|[]]; apply unpredicted_forecast, NP|].
    rewrite cc_controls_eq. assert (D : Rabs (sign fw) = 1) by (destruct fw; unfold sign; [rewrite Rabs_pos_eq|rewrite Rabs_left]; lra).
    intros [<-|[<-|[]]]; [apply (forecast_up _ st D NP)|apply (forecast_down _ st D NP)].
  Qed.
  Lemma hc_forecast st p : In p (hc_predict_state junk k s st) -> forecast st p.
  Proof.
    unfold hc_predict_state. destruct (no_prediction k st) eqn:NP; [intros [<-|[]]; apply unpredicted_forecast, NP|].
    rewrite hc_controls_eq. assert (D : Rabs 1 = 1) by (rewrite Rabs_pos_eq; lra). assert (D' : Rabs (-1) = 1) by (rewrite Rabs_left; lra).
    intros [<-|[<-|[<-|[<-|[]]]]]; first [apply (forecast_up _ st D NP)|apply (forecast_up _ st D' NP)|apply (forecast_down _ st D NP)|apply (forecast_down _ st D' NP)].
  Qed.

  (** ** C46 *)
  Theorem cc_prediction st fw : (Rabs (st_kappa st) < epsilon \/ k - Rabs (st_kappa st) < epsilon -> cc_predict_state junk k s st fw = [(st, mkControl 0 (st_kappa st) 0)]) /\
    (epsilon <= Rabs (st_kappa st) -> epsilon <= k - Rabs (st_kappa st) ->
      (forall q c, In (q, c) (cc_predict_state junk k s st fw) -> leads k s st c q /\ 0 < sign fw * ct_delta_s c) /\
      (exists q c, In (q, c) (cc_predict_state junk k s st fw) /\ st_kappa q = 0) /\ (exists q c, In (q, c) (cc_predict_state junk k s st fw) /\ st_kappa q = sgn (st_kappa st) * k)).
  Proof.
    assert (D : Rabs (sign fw) = 1) by (destruct fw; unfold sign; [rewrite Rabs_pos_eq|rewrite Rabs_left]; lra). assert (DD : sign fw * sign fw = 1) by (destruct fw; unfold sign; ring). pose proof eps_pos. split.
    - intros N. apply no_prediction_true in N. unfold cc_predict_state. rewrite N. reflexivity.
    - intros N1 N2. assert (NP : no_prediction k st = false) by (destruct (no_prediction k st) eqn:E; [|reflexivity]; apply no_prediction_true in E; lra).
      destruct (forecast_up _ st D NP) as (FU & CU & KU). destruct (forecast_down _ st D NP) as (FD & CD & KD).
      unfold cc_predict_state. rewrite NP, cc_controls_eq. cbn [map In]. split; [|split].
      + intros q c [E|[E|[]]]; rewrite E in *; cbn [fst snd] in *; subst c.
        * destruct FU as [(N & _)|(_ & _ & L & _)]; [lra|]. split; [exact L|]. unfold up; cbn [ct_delta_s]. rewrite <- Rmult_assoc, DD, Rmult_1_l. apply Rdiv_lt_0_compat; lra.
        * destruct FD as [(N & _)|(_ & _ & L & _)]; [lra|]. split; [exact L|]. unfold down; cbn [ct_delta_s]. rewrite <- Rmult_assoc, DD, Rmult_1_l. apply Rdiv_lt_0_compat; lra.
      + eexists _, _. split; [right; left; apply surjective_pairing|exact KD].
      + eexists _, _. split; [left; apply surjective_pairing|exact KU].
  Qed.
  Theorem hc_prediction st : (Rabs (st_kappa st) < epsilon \/ k - Rabs (st_kappa st) < epsilon -> hc_predict_state junk k s st = [(st, mkControl 0 (st_kappa st) 0)]) /\
    (epsilon <= Rabs (st_kappa st) -> epsilon <= k - Rabs (st_kappa st) ->
      (forall q c, In (q, c) (hc_predict_state junk k s st) -> leads k s st c q) /\
      (forall fw, (exists q c, In (q, c) (hc_predict_state junk k s st) /\ st_kappa q = 0 /\ 0 < sign fw * ct_delta_s c) /\
        (exists q c, In (q, c) (hc_predict_state junk k s st) /\ st_kappa q = sgn (st_kappa st) * k /\ 0 < sign fw * ct_delta_s c))).
  Proof.
    pose proof eps_pos. split.
    - intros N. apply no_prediction_true in N. unfold hc_predict_state. rewrite N. reflexivity.
    - intros N1 N2. assert (NP : no_prediction k st = false) by (destruct (no_prediction k st) eqn:E; [|reflexivity]; apply no_prediction_true in E; lra).
      split.
      + intros q c I. destruct (hc_forecast st (q, c) I) as [(N & _)|(_ & _ & L & _)]; [lra|exact L].
      + intros fw. assert (D : Rabs (sign fw) = 1) by (destruct fw; unfold sign; [rewrite Rabs_pos_eq|rewrite Rabs_left]; lra). assert (DD : sign fw * sign fw = 1) by (destruct fw; unfold sign; ring).
        destruct (forecast_up _ st D NP) as (FU & CU & KU). destruct (forecast_down _ st D NP) as (FD & CD & KD).
        unfold hc_predict_state. rewrite NP, hc_controls_eq. cbn [map In]. unfold sign in *. destruct fw.
        * split; [exists (fst (predicted junk st (down 1 st))), (down 1 st)|exists (fst (predicted junk st (up 1 st))), (up 1 st)].
          -- split; [do 2 right; left; rewrite <- CD; apply surjective_pairing|split; [exact KD|]]. unfold down; cbn [ct_delta_s]; rewrite <- Rmult_assoc, DD, Rmult_1_l; apply Rdiv_lt_0_compat; lra.
          -- split; [left; rewrite <- CU; apply surjective_pairing|split; [exact KU|]]. unfold up; cbn [ct_delta_s]; rewrite <- Rmult_assoc, DD, Rmult_1_l; apply Rdiv_lt_0_compat; lra.
        * split; [exists (fst (predicted junk st (down (-1) st))), (down (-1) st)|exists (fst (predicted junk st (up (-1) st))), (up (-1) st)].
          -- split; [do 3 right; left; rewrite <- CD; apply surjective_pairing|split; [exact KD|]]. unfold down; cbn [ct_delta_s]; rewrite <- Rmult_assoc, DD, Rmult_1_l; apply Rdiv_lt_0_compat; lra.
          -- split; [right; left; rewrite <- CU; apply surjective_pairing|split; [exact KU|]]. unfold up; cbn [ct_delta_s]; rewrite <- Rmult_assoc, DD, Rmult_1_l; apply Rdiv_lt_0_compat; lra.
  Qed.
End Predict.

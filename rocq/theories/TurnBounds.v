(** * Lengths and curvatures of the turns, reversal of controls *)
From Coq Require Import Reals ZArith List Bool Lra Lia.
From Coquelicot Require Import Coquelicot.
From Verif Require Import Base ModelUtil ModelFresnel ModelIntegrate ModelCircle Num UtilProofs IntegrateProofs SpecPath SpecCloth SpecTurn
  SpecFresnel FresAcc FresProofs FresFinal ClothProofs PoseAlg ParamProofs TurnProofs MotionProofs.
Import ListNotations.
Open Scope R_scope.

(** ** Lengths *)
Lemma abs_dir f o x : Rabs (direction f o * x) = Rabs x.
Proof. apply abs_pm1. rewrite pm1_direction. apply pm1_mul; apply pm1_sign. Qed.

Lemma rs_turn_len c q o : total_length (rs_turn_controls c q o) = rs_turn_length c q.
Proof.
  unfold rs_turn_controls, rs_turn_length, total_length; cbn [fold_right ct_delta_s].
  rewrite abs_dir, !Rabs_mult, Rabs_Rabsolu. ring.
Qed.
Lemma hc_turn_len c q o : total_length (hc_turn_controls c q o) = hc_turn_length c q.
Proof.
  unfold hc_turn_controls, hc_turn_length, total_length. destruct o; cbn [fold_right ct_delta_s];
  rewrite !abs_dir, !Rabs_mult, !Rabs_Rabsolu; ring.
Qed.
Lemma path_length_total cs : path_length cs = total_length cs.
Proof.
  unfold path_length, total_length.
  assert (H : forall a, fold_left (fun s c => s + Rabs (ct_delta_s c)) cs a = a + fold_right (fun c acc => Rabs (ct_delta_s c) + acc) 0 cs).
  { induction cs as [|c cs IH]; intros a; cbn; [ring|]. rewrite IH. ring. }
  rewrite H. ring.
Qed.
Lemma default_len c dl o : total_length (cc_default_controls c dl o) =
  2 * Rabs (c_kappa c / c_sigma c) + Rabs (c_kappa_inv c * cc_circular_deflection c dl).
Proof.
  unfold cc_default_controls, total_length; cbn [fold_right ct_delta_s].
  rewrite !abs_dir, (Rabs_mult (Rabs (c_kappa_inv c))), (Rabs_mult (c_kappa_inv c)), !Rabs_Rabsolu. ring.
Qed.
Lemma elem_len c q dl o cs s0 : cc_elementary_controls c q dl o = Some cs -> cc_elementary_sharpness c q dl = Some s0 ->
  total_length cs = 2 * sqrt (dl / Rabs s0).
Proof.
  unfold cc_elementary_controls. intros H E. rewrite E in H.
  apply (f_equal (fun o => match o with Some x => x | None => [] end)) in H. cbv beta iota in H. rewrite <- H.
  unfold total_length; cbn [fold_right ct_delta_s]. rewrite !abs_dir, Rabs_pos_eq by apply sqrt_pos. ring.
Qed.
Lemma cc_turn_len c q o : epsilon <= deflection c q -> total_length (cc_turn_controls c q o) = cc_turn_length c q.
Proof.
  intros B. unfold cc_turn_controls, cc_turn_length. destruct (Rlt_dec (deflection c q) epsilon) as [N|_]; [lra|].
  destruct (Rlt_dec _ _); [|rewrite default_len; reflexivity].
  destruct (cc_elementary_sharpness c q (deflection c q)) as [s0|] eqn:E.
  - destruct (cc_elementary_controls c q (deflection c q) o) as [cs|] eqn:F; [|unfold cc_elementary_controls in F; rewrite E in F; discriminate].
    pose proof (elem_len c q _ o cs s0 F E) as LE. cbv zeta. rewrite !path_length_total, LE, default_len.
    destruct (Rlt_dec _ _); [exact LE|apply default_len].
  - unfold cc_elementary_controls. rewrite E. apply default_len.
Qed.
Lemma straight_len q1 q2 : total_length (straight_controls q1 q2) = configuration_distance q1 q2.
Proof.
  unfold straight_controls, total_length, configuration_distance; cbn [fold_right ct_delta_s].
  rewrite Rabs_mult, sgn_abs1, Rabs_pos_eq by apply sqrt_pos. ring.
Qed.
Lemma conf_dist_sym q1 q2 : configuration_distance q1 q2 = configuration_distance q2 q1.
Proof. unfold configuration_distance, point_distance. f_equal. ring. Qed.

Lemma cc_turn_len_short k s start l f reg g q o : 0 < k -> 0 < s ->
  let c := circle start l f reg (hc_cc_param k s) in
  cc_tangent g c q -> Rabs (total_length (cc_turn_controls c q o) - cc_turn_length c q) <= g + c_radius c * cc_shortcut c q.
Proof.
  intros K S c G. assert (G0 : 0 <= g) by (eapply Rle_trans; [|exact G]; apply sqrt_pos).
  unfold cc_shortcut. destruct (Rlt_dec (deflection c q) epsilon) as [B|B].
  - unfold cc_turn_controls, cc_turn_length. destruct (Rlt_dec (deflection c q) epsilon) as [_|N]; [|contradiction].
    pose proof (cc_fields k s start l f reg K S) as F. fold c in F. destruct F as (ES & _ & _ & _ & EX & EY & _).
    rewrite ES. pose proof (chord_dist k s start l f reg K S g q G) as D. cbv zeta in D. fold c in D.
    assert (TL : total_length (if o then straight_controls start q else straight_controls q start) = point_distance (q_x start) (q_y start) (q_x q) (q_y q)).
    { destruct o; rewrite straight_len; [|rewrite conf_dist_sym]; reflexivity. }
    rewrite TL. replace (2 * c_radius c * c_sin_mu c) with (2 * nom_X k s) by (rewrite <- EX; ring).
    set (dl := deflection c q) in *. set (ds := point_distance _ _ _ _) in *.
    pose proof (defl_range c q) as DR. fold dl in DR. destruct (nom_pos k s K S) as [XP YP].
    pose proof (radius_hyp k s start l f reg K S) as RH. fold c in RH.
    assert (RP : 0 <= c_radius c) by (rewrite RH; apply hyp_pos).
    set (X := nom_X k s) in *. set (Y := nom_Y k s) in *.
    assert (Q : Rabs (2 * (X * cos (dl / 2) + Y * sin (dl / 2)) - 2 * X) <= c_radius c * dl).
    { replace (2 * (X * cos (dl / 2) + Y * sin (dl / 2)) - 2 * X) with (2 * (X * (cos (dl / 2) - 1) + Y * sin (dl / 2))) by ring.
      rewrite Rabs_mult, (Rabs_pos_eq 2) by lra. replace (c_radius c * dl) with (2 * (c_radius c * (dl / 2))) by field.
      apply Rmult_le_compat_l; [lra|]. set (h := dl / 2) in *.
      assert (RD : hyp (cos h - 1) (sin h) <= h).
      { pose proof (rot_dist 1 0 h 0 h ltac:(rewrite Rminus_0_r, Rabs_pos_eq; unfold h; lra)) as RD.
        rewrite cos_0, sin_0 in RD. replace (hyp 1 0) with 1 in RD by (symmetry; apply hyp_eq; lra).
        replace (1 * cos h - 0 * sin h - (1 * 1 - 0 * 0)) with (cos h - 1) in RD by ring.
        replace (1 * sin h + 0 * cos h - (1 * 0 + 0 * 1)) with (sin h) in RD by ring. lra. }
      pose proof (hyp_dot X Y (cos h - 1) (sin h)) as P1. pose proof (hyp_dot (- X) (- Y) (cos h - 1) (sin h)) as P2. rewrite hyp_opp in P2. rewrite <- RH in P1, P2.
      assert (c_radius c * hyp (cos h - 1) (sin h) <= c_radius c * h) by (apply Rmult_le_compat_l; assumption).
      apply Rabs_le. lra. }
    set (A := 2 * (X * cos (dl / 2) + Y * sin (dl / 2))) in *.
    assert (AA : Rabs (Rabs A - 2 * X) <= Rabs (A - 2 * X)).
    { rewrite <- (Rabs_pos_eq (2 * X)) at 1 by lra. apply Rabs_triang_inv2. }
    apply Rabs_le_between in D. apply Rabs_le_between in AA. apply Rabs_le. lra.
  - rewrite cc_turn_len by lra. rewrite Rminus_eq_0, Rabs_R0. rewrite Rmult_0_r. lra.
Qed.

(** ** Curvature *)
Lemma param_basic k s : let p := hc_cc_param k s in
  p_kappa p = k /\ p_kappa_inv p = 1 / k /\ p_sigma p = s /\ p_delta_min p = 1 / 2 * k ^ 2 / s.
Proof. cbv zeta. unfold hc_cc_param. destruct (Rlt_dec epsilon (k / s)); cbn; auto. Qed.

Section Curv.
  Variables (k s : R) (start : Configuration) (l f reg : bool).
  Hypothesis Hk : 0 < k.
  Hypothesis Hs : 0 < s.
  Let c := circle start l f reg (hc_cc_param k s).
  Let e := sign l.

  Lemma curv_fields : c_kappa c = e * k /\ c_sigma c = e * s /\ c_left c = l /\ c_delta_min c = 1 / 2 * k ^ 2 / s.
  Proof.
    pose proof (circle_fields start l f reg (hc_cc_param k s)) as H. cbv zeta in H. fold c in H.
    destruct H as (_ & A2 & _ & _ & _ & _ & _ & _ & A9 & B1 & _ & B3 & _).
    destruct (param_basic k s) as (C1 & _ & C3 & C4). rewrite A9, B1, B3, C1, C3, C4. auto.
  Qed.
  Lemma abs_Lb : Rabs (c_kappa c / c_sigma c) = k / s.
  Proof.
    destruct curv_fields as (-> & -> & _). pose proof (pm1_sign l) as P. fold e in P.
    replace (e * k / (e * s)) with (k / s) by (destruct P as [->| ->]; field; lra). apply Rabs_pos_eq, div_nonneg; lra.
  Qed.

  Lemma default_chain dl o : curvature_chain 0 (cc_default_controls c dl o) 0.
  Proof.
    unfold cc_default_controls; cbn [curvature_chain ct_kappa ct_sigma ct_delta_s].
    rewrite !abs_dir, !Rabs_Rabsolu, abs_Lb. destruct curv_fields as (-> & -> & _).
    repeat split; field; lra.
  Qed.
  Lemma elem_chain q dl o cs : cc_elementary_controls c q dl o = Some cs -> curvature_chain 0 cs 0.
  Proof.
    unfold cc_elementary_controls. destruct (cc_elementary_sharpness c q dl) as [s0|]; [|discriminate].
    intros H. apply (f_equal (fun o => match o with Some x => x | None => [] end)) in H. cbv beta iota in H. rewrite <- H.
    cbn [curvature_chain ct_kappa ct_sigma ct_delta_s]. rewrite !abs_dir, (Rabs_pos_eq (sqrt _)) by apply sqrt_pos.
    repeat split; ring.
  Qed.
  Lemma straight_chain q1 q2 : curvature_chain 0 (straight_controls q1 q2) 0.
  Proof. unfold straight_controls; cbn [curvature_chain ct_kappa ct_sigma ct_delta_s]. split; ring. Qed.

  Lemma cc_chain q o : curvature_chain 0 (cc_turn_controls c q o) 0.
  Proof.
    unfold cc_turn_controls. destruct (Rlt_dec _ _); [destruct o; apply straight_chain|].
    destruct (Rlt_dec _ _); [|apply default_chain].
    destruct (cc_elementary_controls c q (deflection c q) o) as [cs|] eqn:E; [|apply default_chain].
    cbv zeta. destruct (Rlt_dec _ _); [eapply elem_chain; exact E|apply default_chain].
  Qed.
  Lemma hc_chain q : curvature_chain 0 (hc_turn_controls c q true) (c_kappa c) /\ curvature_chain (c_kappa c) (hc_turn_controls c q false) 0.
  Proof.
    unfold hc_turn_controls; split; cbn [curvature_chain ct_kappa ct_sigma ct_delta_s];
    rewrite !abs_dir, !Rabs_Rabsolu, abs_Lb; destruct curv_fields as (-> & -> & _); repeat split; field; lra.
  Qed.

  Lemma clothoid_in_bounds d : within_bounds k s (mkControl (d * Rabs (c_kappa c / c_sigma c)) 0 (c_sigma c)) <-> within_bounds k s (mkControl (d * (k / s)) 0 (e * s)).
  Proof. rewrite abs_Lb. destruct curv_fields as (_ & -> & _). reflexivity. Qed.

  Lemma wb_in D L0 k0 s0 : 0 <= s0 -> 0 <= L0 -> s0 * L0 <= k0 -> pm1 D -> within_bounds k0 s0 (mkControl (D * L0) 0 (e * s0)).
  Proof.
    intros S0 L P DP. unfold within_bounds; cbn [ct_sigma ct_kappa ct_delta_s]. rewrite (abs_pm e s0) by (try apply pm1_sign; lra). split; [lra|].
    intros u U. rewrite (abs_pm D L0) in U by (try assumption; lra). rewrite Rplus_0_l, Rmult_assoc, (abs_pm1 e) by apply pm1_sign.
    rewrite Rabs_pos_eq by (apply Rmult_le_pos; lra). eapply Rle_trans; [|exact P]. apply Rmult_le_compat_l; lra.
  Qed.
  Lemma wb_out D L0 k0 s0 : 0 <= s0 -> 0 <= L0 -> s0 * L0 <= k0 -> pm1 D -> within_bounds k0 s0 (mkControl (D * L0) (e * (s0 * L0)) (- (e * s0))).
  Proof.
    intros S0 L P DP. unfold within_bounds; cbn [ct_sigma ct_kappa ct_delta_s]. rewrite Rabs_Ropp, (abs_pm e s0) by (try apply pm1_sign; lra). split; [lra|].
    intros u U. rewrite (abs_pm D L0) in U by (try assumption; lra).
    replace (e * (s0 * L0) + - (e * s0) * u) with (e * (s0 * (L0 - u))) by ring. rewrite (abs_pm1 e) by apply pm1_sign.
    rewrite Rabs_pos_eq by (apply Rmult_le_pos; lra). eapply Rle_trans; [|exact P]. apply Rmult_le_compat_l; lra.
  Qed.
  Lemma wb_arc k0 s0 ds kk : 0 <= s0 -> Rabs kk <= k0 -> within_bounds k0 s0 (mkControl ds kk 0).
  Proof.
    intros S0 K. unfold within_bounds; cbn [ct_sigma ct_kappa ct_delta_s]. rewrite Rabs_R0. split; [exact S0|].
    intros u _. replace (kk + 0 * u) with kk by ring. exact K.
  Qed.
  Lemma pm1_dir o : pm1 (direction f o).
  Proof. rewrite pm1_direction. apply pm1_mul; apply pm1_sign. Qed.

  Lemma within_weaken k1 s1 k2 s2 ct : within_bounds k1 s1 ct -> k1 <= k2 -> s1 <= s2 -> within_bounds k2 s2 ct.
  Proof. intros [A B] K S. split; [lra|]. intros u U. specialize (B u U). lra. Qed.

  Lemma default_bounds dl o : List.Forall (within_bounds k s) (cc_default_controls c dl o).
  Proof.
    unfold cc_default_controls. rewrite abs_Lb. destruct curv_fields as (-> & -> & _).
    pose proof (pm1_dir o) as PD. assert (L0 : 0 <= k / s) by (apply div_nonneg; lra).
    assert (EK : s * (k / s) = k) by (field; lra).
    assert (FW : c_forward c = f).
    { pose proof (circle_fields start l f reg (hc_cc_param k s)) as H. cbv zeta in H. fold c in H. tauto. }
    rewrite FW. apply List.Forall_cons; [|apply List.Forall_cons; [|apply List.Forall_cons; [|apply List.Forall_nil]]].
    - apply wb_in; lra || assumption.
    - apply (wb_arc k s); [lra|]. rewrite (abs_pm e k); [lra|apply pm1_sign|lra].
    - replace (e * k) with (e * (s * (k / s))) by (rewrite EK; reflexivity). apply wb_out; lra || assumption.
  Qed.
  Lemma hc_bounds q o : List.Forall (within_bounds k s) (hc_turn_controls c q o).
  Proof.
    unfold hc_turn_controls. rewrite abs_Lb. destruct curv_fields as (-> & -> & _).
    pose proof (pm1_dir o) as PD. assert (L0 : 0 <= k / s) by (apply div_nonneg; lra).
    assert (EK : s * (k / s) = k) by (field; lra).
    assert (FW : c_forward c = f).
    { pose proof (circle_fields start l f reg (hc_cc_param k s)) as H. cbv zeta in H. fold c in H. tauto. }
    rewrite FW. destruct o; (apply List.Forall_cons; [|apply List.Forall_cons; [|apply List.Forall_nil]]).
    - apply wb_in; lra || assumption.
    - apply (wb_arc k s); [lra|]. rewrite (abs_pm e k); [lra|apply pm1_sign|lra].
    - apply (wb_arc k s); [lra|]. rewrite (abs_pm e k); [lra|apply pm1_sign|lra].
    - replace (e * k) with (e * (s * (k / s))) by (rewrite EK; reflexivity). apply wb_out; lra || assumption.
  Qed.

  Lemma chord_slack dl : Rabs (2 * (par_X k s * cos (dl / 2) + par_Y k s * sin (dl / 2)) - 2 * (nom_X k s * cos (dl / 2) + nom_Y k s * sin (dl / 2))) <= 2 * param_slack k s.
  Proof.
    pose proof (nom_gap k s Hk Hs) as G. fold (hyp (par_X k s - nom_X k s) (par_Y k s - nom_Y k s)) in G.
    set (a := par_X k s - nom_X k s) in *. set (b := par_Y k s - nom_Y k s) in *. set (h := dl / 2).
    replace (2 * (par_X k s * cos h + par_Y k s * sin h) - 2 * (nom_X k s * cos h + nom_Y k s * sin h)) with (2 * (a * cos h + b * sin h)) by (unfold a, b; ring).
    assert (H1 : hyp (cos h) (sin h) = 1). { apply hyp_eq; [lra|]. pose proof (sin2_cos2' h). lra. }
    pose proof (hyp_dot a b (cos h) (sin h)) as P1. pose proof (hyp_dot (- a) (- b) (cos h) (sin h)) as P2. rewrite hyp_opp in P2.
    rewrite H1 in P1, P2. apply Rabs_le. lra.
  Qed.

  Lemma elem_sharp g q (m : R) : cc_tangent g c q -> let dl := deflection c q in
    let ds := configuration_distance start q in
    epsilon <= dl -> dl < 2 * c_delta_min c -> dl < 45948 / 10000 -> epsilon < ds -> 0 <= m -> (1 + 1 / 10 ^ 9) * (ds + g + 2 * param_slack k s) <= m * ds ->
    let s0 := 4 * PI * (D1 (1 / 2 * dl)) ^ 2 / ds ^ 2 in 0 < s0 <= s * m ^ 2.
  Proof.
    intros G dl ds B1 B2 B3 B4 M0 M s0. pose proof PI_gt as P. unfold epsilon in B4.
    assert (EP : epsilon <= dl <= 2 * al) by (unfold al; lra).
    assert (T2 : dl <= 2 * par_t k s). { destruct curv_fields as (_ & _ & _ & E). rewrite E in B2. rewrite par_t_eq by assumption. lra. }
    pose proof (D1_pos (1 / 2 * dl) ltac:(unfold epsilon in *; lra)) as DP.
    pose proof (chord_D1 k s Hk Hs dl EP T2) as CD. pose proof (chord_pos k s Hk Hs dl EP T2) as AP.
    pose proof (chord_dist k s start l f reg Hk Hs g q G) as DD. cbv zeta in DD. fold c dl in DD.
    change (point_distance (q_x start) (q_y start) (q_x q) (q_y q)) with ds in DD.
    pose proof (chord_slack dl) as CS.
    assert (CG : 2 * (par_X k s * cos (dl / 2) + par_Y k s * sin (dl / 2)) = 2 * sqrt (PI / s) * (Ul (par_w k s) * cos (dl / 2) + Vl (par_w k s) * sin (dl / 2)))
      by (rewrite par_X_U, par_Y_V by assumption; ring).
    set (A := 2 * (par_X k s * cos (dl / 2) + par_Y k s * sin (dl / 2))) in *.
    set (A' := 2 * (nom_X k s * cos (dl / 2) + nom_Y k s * sin (dl / 2))) in *.
    rewrite (Rabs_pos_eq A') in DD by lra. apply Rabs_le_between in DD. apply Rabs_le_between in CS.
    set (Gl := Ul (par_w k s) * cos (dl / 2) + Vl (par_w k s) * sin (dl / 2)) in *.
    set (D := D1 (1 / 2 * dl)) in *.
    assert (DG : D <= (1 + 1 / 10 ^ 9) * Gl) by lra.
    set (r := sqrt (PI / s)) in *. assert (RP : 0 < r) by (apply sqrt_lt_R0, Rdiv_lt_0_compat; lra).
    assert (RQ : r ^ 2 = PI / s) by (unfold r; apply pow2_sqrt, div_nonneg; lra).
    assert (E1 : 2 * r * D <= m * ds).
    { assert (2 * r * D <= 2 * r * ((1 + 1 / 10 ^ 9) * Gl)) by (apply Rmult_le_compat_l; lra). 
      replace (2 * r * ((1 + 1 / 10 ^ 9) * Gl)) with ((1 + 1 / 10 ^ 9) * A) in * by (rewrite CG; ring). lra. }
    split; [apply elem_s0_pos; unfold D in *; lra|].
    assert (DS2 : 0 < ds ^ 2) by (apply pow_lt; lra).
    assert (E2 : (2 * r * D) ^ 2 <= (m * ds) ^ 2) by (apply pow_incr; split; [|exact E1]; apply Rmult_le_pos; [lra|]; lra).
    replace ((2 * r * D) ^ 2) with (4 * (PI / s) * D ^ 2) in E2 by (rewrite <- RQ; ring).
    unfold s0. fold D. apply (Rmult_le_reg_r (ds ^ 2)); [exact DS2|].
    replace (4 * PI * D ^ 2 / ds ^ 2 * ds ^ 2) with (s * (4 * (PI / s) * D ^ 2)) by (field; split; [apply pow_nonzero; lra|lra] || (field; lra)).
    replace (s * m ^ 2 * ds ^ 2) with (s * (m * ds) ^ 2) by ring. apply Rmult_le_compat_l; lra.
  Qed.

  Lemma cc_bounds g q o (m : R) : cc_tangent g c q -> 1 <= m ->
    (epsilon < configuration_distance start q ->
     (1 + 1 / 10 ^ 9) * (configuration_distance start q + g + 2 * param_slack k s) <= m * configuration_distance start q) ->
    List.Forall (within_bounds (k * m) (s * m ^ 2)) (cc_turn_controls c q o).
  Proof.
    intros G M0 M. assert (M2 : 1 <= m ^ 2) by nra.
    assert (KM : k <= k * m) by nra. assert (SM : s <= s * m ^ 2) by nra.
    assert (DB : forall dl, List.Forall (within_bounds (k * m) (s * m ^ 2)) (cc_default_controls c dl o)).
    { intros dl. eapply List.Forall_impl; [|apply default_bounds]. intros ct W. eapply within_weaken; [exact W|lra|lra]. }
    assert (SB : forall q1 q2, List.Forall (within_bounds (k * m) (s * m ^ 2)) (straight_controls q1 q2)).
    { intros q1 q2. unfold straight_controls. constructor; [|constructor]. apply wb_arc; [nra|rewrite Rabs_R0; nra]. }
    unfold cc_turn_controls. destruct (Rlt_dec _ _) as [_|B1]; [destruct o; apply SB|].
    destruct (Rlt_dec _ _) as [B2|_]; [|apply DB].
    destruct (cc_elementary_controls c q (deflection c q) o) as [cs|] eqn:E; [|apply DB].
    cbv zeta. destruct (Rlt_dec _ _) as [_|_]; [|apply DB].
    destruct (elem_some k s start l f reg Hk Hs q (deflection c q) o cs E) as (C1 & C2 & C3). cbv zeta in C2, C3.
    change (point_distance (q_x start) (q_y start) (q_x q) (q_y q)) with (configuration_distance start q) in C2, C3.
    destruct (elem_sharp g q m G ltac:(lra) B2 C1 C2 ltac:(lra) (M C2)) as [S0 SS]. rewrite (C3 S0).
    set (dl := deflection c q) in *. set (s0 := 4 * PI * D1 (1 / 2 * dl) ^ 2 / configuration_distance start q ^ 2) in *.
    set (L0 := sqrt (dl / s0)). assert (LP : 0 <= L0) by apply sqrt_pos. unfold epsilon in B1.
    assert (LQ : L0 ^ 2 = dl / s0) by (apply pow2_sqrt, div_nonneg; lra).
    assert (KK : s0 * L0 <= k * m).
    { apply Rsqr_incr_0_var; [|nra]. unfold Rsqr. replace (s0 * L0 * (s0 * L0)) with (s0 ^ 2 * L0 ^ 2) by ring. rewrite LQ.
      replace (s0 ^ 2 * (dl / s0)) with (s0 * dl) by (field; lra).
      destruct curv_fields as (_ & _ & _ & DM). rewrite DM in B2.
      assert (B3 : dl <= k ^ 2 / s) by (replace (k ^ 2 / s) with (2 * (1 / 2 * k ^ 2 / s)) by (field; lra); lra).
      assert (s0 * dl <= s * m ^ 2 * (k ^ 2 / s)) by (apply Rmult_le_compat; lra).
      replace (s * m ^ 2 * (k ^ 2 / s)) with (k * m * (k * m)) in * by (field; lra). lra. }
    pose proof (pm1_dir o) as PD.
    apply List.Forall_cons; [|apply List.Forall_cons; [|apply List.Forall_nil]].
    - eapply within_weaken; [apply wb_in; [lra|exact LP|exact KK|exact PD]|lra|exact SS].
    - fold e; replace (e * s0 * L0) with (e * (s0 * L0)) by ring.
      eapply within_weaken; [apply wb_out; [lra|exact LP|exact KK|exact PD]|lra|exact SS].
  Qed.
End Curv.

Lemma rs_chain c q o : curvature_chain (c_kappa c) (rs_turn_controls c q o) (c_kappa c).
Proof. unfold rs_turn_controls; cbn [curvature_chain ct_kappa ct_sigma ct_delta_s]. split; ring. Qed.
Lemma rs_bounds c q o : List.Forall (within_bounds (Rabs (c_kappa c)) 0) (rs_turn_controls c q o).
Proof. unfold rs_turn_controls. constructor; [|constructor]. apply wb_arc; lra. Qed.

(** ** Reversal *)
Lemma reverse_involutive c : reverse_control (reverse_control c) = c.
Proof.
  destruct c as [ds k s]. unfold reverse_control; cbn [ct_delta_s ct_kappa ct_sigma].
  rewrite Ropp_involutive, !Rabs_Ropp. f_equal; ring.
Qed.

Lemma sgn_opp x : x <> 0 -> sgn (- x) = - sgn x.
Proof. intros H. unfold sgn. destruct (Rlt_dec x 0), (Rlt_dec (- x) 0); lra. Qed.

Lemma heading_reverse th k s d h u : heading (heading th k s d h) (k + h * s) (- s) (- d) u = heading th k s d (h - u).
Proof. unfold heading. field. Qed.

Lemma RInt_rev (f : R -> R) h : (forall u, continuous f u) -> RInt (fun u => - f (h - u)) 0 h = - RInt f 0 h.
Proof.
  intros C. assert (E : forall a b, ex_RInt f a b) by (intros; apply (ex_RInt_continuous f); intros; apply C).
  rewrite (int_of_primitive (fun u => RInt f 0 (h - u) - RInt f 0 h) (fun u => - f (h - u)) h).
  - rewrite Rminus_eq_0, RInt_point. unfold zero; cbn. ring.
  - intros u. evar_last.
    { apply @is_derive_minus; [|apply @is_derive_const].
      apply (is_derive_comp (fun v => RInt f 0 v) (fun u => h - u)).
      - apply (is_derive_RInt f (fun v => RInt f 0 v) 0 (h - u)); [|apply C].
        exists (mkposreal 1 Rlt_0_1). intros y _. apply (RInt_correct f 0 y (E 0 y)).
      - apply @is_derive_minus; [apply @is_derive_const|apply @is_derive_id]. }
    unfold minus, plus, opp, scal, zero, one; cbn. unfold mult; cbn.
    match goal with |- ?a = ?b => change (@eq R a b) end. ring.
  - intros u. apply (continuous_opp (fun u => f (h - u)) u). apply (continuous_comp (fun u => h - u) f u); [|apply C].
    apply (continuous_minus (fun _ => h) (fun u => u)); [apply continuous_const|apply continuous_id].
  - rewrite Rminus_0_r. match goal with |- ?a = ?b => change (@eq R a b) end. ring.
Qed.

Lemma reverse_true' st c : ct_delta_s c <> 0 ->
  let st' := true_path st [c; reverse_control c] in
  st_x st' = st_x st /\ st_y st' = st_y st /\ st_theta st' = st_theta st /\ st_kappa st' = ct_kappa c.
Proof.
  intros NZ st'. unfold st', true_path; cbn [fold_left]. unfold true_move, reverse_control; cbn [ct_delta_s ct_kappa ct_sigma st_x st_y st_theta st_kappa].
  rewrite (sgn_opp _ NZ), !Rabs_Ropp. set (d := sgn (ct_delta_s c)). set (h := Rabs (ct_delta_s c)).
  set (k := ct_kappa c). set (s := ct_sigma c). set (th := st_theta st).
  repeat split.
  - unfold true_x. rewrite (RInt_ext (fun u => - d * cos (heading (heading th k s d h) (k + h * s) (- s) (- d) u)) (fun u => - (d * cos (heading th k s d (h - u))))).
    + rewrite (RInt_rev (fun u => d * cos (heading th k s d u)) h); [|intros; apply cont_cos_h].
      match goal with |- ?a = ?b => change (@eq R a b) end. ring.
    + intros u _. rewrite heading_reverse. match goal with |- ?a = ?b => change (@eq R a b) end. ring.
  - unfold true_y. rewrite (RInt_ext (fun u => - d * sin (heading (heading th k s d h) (k + h * s) (- s) (- d) u)) (fun u => - (d * sin (heading th k s d (h - u))))).
    + rewrite (RInt_rev (fun u => d * sin (heading th k s d u)) h); [|intros; apply cont_sin_h].
      match goal with |- ?a = ?b => change (@eq R a b) end. ring.
    + intros u _. rewrite heading_reverse. match goal with |- ?a = ?b => change (@eq R a b) end. ring.
  - rewrite heading_reverse. unfold heading. field.
  - ring.
Qed.

Lemma reverse_true st c :
  let st' := true_path st [c; reverse_control c] in
  st_x st' = st_x st /\ st_y st' = st_y st /\ st_theta st' = st_theta st /\ st_kappa st' = ct_kappa c.
Proof.
  destruct (Req_EM_T (ct_delta_s c) 0) as [Z|N]; [|apply reverse_true'; exact N].
  intros st'. unfold st', true_path; cbn [fold_left]. unfold true_move, reverse_control; cbn [ct_delta_s ct_kappa ct_sigma st_x st_y st_theta st_kappa].
  rewrite Z, Ropp_0, !Rabs_R0. unfold true_x, true_y, heading. rewrite !RInt_point. unfold zero; cbn. repeat split; match goal with |- ?a = ?b => change (@eq R a b) end; field.
Qed.

(** The reversed control ends with the curvature with which the control starts, and vice versa. *)
Lemma reverse_curvature c :
  ct_kappa (reverse_control c) = ct_kappa c + ct_sigma c * Rabs (ct_delta_s c) /\
  ct_kappa (reverse_control c) + ct_sigma (reverse_control c) * Rabs (ct_delta_s (reverse_control c)) = ct_kappa c /\
  Rabs (ct_delta_s (reverse_control c)) = Rabs (ct_delta_s c).
Proof. unfold reverse_control; cbn [ct_delta_s ct_kappa ct_sigma]. rewrite !Rabs_Ropp. repeat split; ring. Qed.

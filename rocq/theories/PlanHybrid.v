(** * Curvature along paths with changes of the driving direction *)
From Coq Require Import Reals ZArith List Lra Lia Bool.
From Verif Require Import Base ModelUtil ModelCircle ModelPaths Num UtilProofs SpecPath SpecTurn SpecPlan PoseAlg TurnProofs MotionProofs TurnBounds LegProofs TangentProofs PlanProofs PlanTactics.
Import ListNotations.
Open Scope R_scope.

(** Curvatures at the ends of a leg, its directions there and whether it may have zero length. *)
Definition way : Type := (R * R * R * R * bool)%type.
Definition runs (cs : list Control) (w : way) : Prop :=
  let '(ka, kb, di, do, v) := w in
  (forall k0 d0 rest d1 k1, (ka = k0 \/ d0 * di < 0) -> hybrid_chain kb do rest d1 k1 -> (v = true -> hybrid_chain k0 d0 rest d1 k1) ->
     hybrid_chain k0 d0 (cs ++ rest) d1 k1) /\
  exists c0 c1 cs1 cs2, cs = c0 :: cs1 /\ cs = cs2 ++ [c1] /\ ct_kappa c0 = ka /\ 0 <= di * ct_delta_s c0 /\
    ct_kappa c1 + ct_sigma c1 * Rabs (ct_delta_s c1) = kb /\ 0 <= do * ct_delta_s c1.

Fixpoint ways_ok (k0 d0 : R) (ws : list way) (d1 k1 : R) : Prop :=
  match ws with
  | [] => k0 = k1 \/ d0 * d1 < 0
  | (ka, kb, di, do, v) :: ws => (ka = k0 \/ d0 * di < 0) /\ ways_ok kb do ws d1 k1 /\ (v = true -> ways_ok k0 d0 ws d1 k1)
  end.
Definition w_in (w : way) : R * R := let '(ka, kb, di, do, v) := w in (ka, di).
Definition w_out (w : way) : R * R := let '(ka, kb, di, do, v) := w in (kb, do).
Definition ends_ok (k0 : R) (ws : list way) (k1 : R) : Prop :=
  match ws with
  | [] => False
  | w :: _ => fst (w_in w) = k0 /\ fst (w_out (last ws w)) = k1 /\ ways_ok k0 (snd (w_in w)) ws (snd (w_out (last ws w))) k1
  end.

Lemma ways_hybrid (ls : list (list Control)) ws : List.Forall2 runs ls ws -> forall k0 d0 d1 k1, ways_ok k0 d0 ws d1 k1 -> hybrid_chain k0 d0 (concat ls) d1 k1.
Proof.
  induction 1 as [|l [[[[ka kb] di] do] v] ls ws R F IH]; intros k0 d0 d1 k1; cbn [concat ways_ok]; [auto|].
  intros (J & A & B). destruct R as [R _]. apply R; [exact J|apply IH, A|]. intros V. apply IH, B, V.
Qed.
Lemma last_split {A} (w d : A) ws : exists ws2, w :: ws = ws2 ++ [last (w :: ws) d].
Proof.
  revert w. induction ws as [|w' ws IH]; intros w; [exists []; reflexivity|]. destruct (IH w') as [ws2 E]. exists (w :: ws2).
  change (last (w :: w' :: ws) d) with (last (w' :: ws) d). cbn [app]. rewrite <- E. reflexivity.
Qed.
Lemma hybrid_of ls ws k0 k1 : List.Forall2 runs ls ws -> ends_ok k0 ws k1 -> hybrid k0 (concat ls) k1.
Proof.
  intros F E. destruct ws as [|w ws]; [destruct E|]. cbn [ends_ok] in E. destruct E as (EA & EB & W).
  assert (H1 : exists c0 cs1, concat ls = c0 :: cs1 /\ ct_kappa c0 = k0 /\ 0 <= snd (w_in w) * ct_delta_s c0).
  { destruct ls as [|l ls']; [inversion F|]. inversion F as [|? ? ? ? R F']; subst. destruct w as [[[[ka kb] di] do] v].
    destruct R as (_ & c0 & c1 & cs1 & cs2 & -> & _ & A & B & _). exists c0, (cs1 ++ concat ls'). cbn [concat app]. repeat split; assumption. }
  assert (H2 : exists c1 cs2, concat ls = cs2 ++ [c1] /\ ct_kappa c1 + ct_sigma c1 * Rabs (ct_delta_s c1) = k1 /\ 0 <= snd (w_out (last (w :: ws) w)) * ct_delta_s c1).
  { destruct (last_split w w ws) as [ws2 E2]. rewrite E2 in F. set (w' := last (w :: ws) w) in *. clearbody w'.
    apply List.Forall2_app_inv_r in F. destruct F as (l1 & l2 & F1 & F2 & ->). inversion F2 as [|l ? ? ? R F3]; subst. inversion F3; subst. destruct w' as [[[[ka kb] di] do] v].
    destruct R as (_ & c0 & c1 & cs1 & cs2 & _ & -> & _ & _ & A & B). rewrite concat_app. cbn [concat]. rewrite app_nil_r, app_assoc. eauto 10. }
  destruct H1 as (c0 & cs1 & A1 & A2 & A3). destruct H2 as (c1 & cs2 & B1 & B2 & B3).
  exists c0, c1, cs1, cs2, (snd (w_in w)), (snd (w_out (last (w :: ws) w))). repeat (split; [assumption|]). exact (ways_hybrid _ _ F _ _ _ _ W).
Qed.

Lemma sgn_pos x : 0 < x -> sgn x = 1.
Proof. intros H. unfold sgn. destruct (Rlt_dec x 0); lra. Qed.
Lemma sgn_neg x : x < 0 -> sgn x = -1.
Proof. intros H. unfold sgn. destruct (Rlt_dec x 0); lra. Qed.

(** Only the sign of a direction matters. *)
Lemma hybrid_sign k0 d d' cs d1 k1 : d' = sgn (d * 1) -> d <> 0 -> hybrid_chain k0 d cs d1 k1 -> hybrid_chain k0 d' cs d1 k1.
Proof.
  intros E N. rewrite Rmult_1_r in E. assert (S : 0 < d /\ d' = 1 \/ d < 0 /\ d' = -1).
  { destruct (Rtotal_order d 0) as [L|[L|L]]; [right|contradiction|left]; (split; [exact L|]); rewrite E; [apply sgn_neg|apply sgn_pos]; exact L. }
  induction cs as [|c cs IH]; cbn [hybrid_chain].
  - intros [->|H]; [left; reflexivity|right]. destruct S as [[P ->]|[P ->]]; nra.
  - destruct (Req_EM_T _ _); [exact IH|]. intros ([A|A] & B); (split; [|exact B]); [left; exact A|right]. destruct S as [[P ->]|[P ->]]; nra.
Qed.
Lemma hybrid_way k0 d x cs d1 k1 : pm1 d -> 0 < d * x -> hybrid_chain k0 d cs d1 k1 -> hybrid_chain k0 (sgn x) cs d1 k1.
Proof. intros P X H. replace (sgn x) with d; [exact H|]. destruct P as [->| ->]; [rewrite sgn_pos|rewrite sgn_neg]; lra. Qed.

Section Runs.
  Variables (k s : R).
  Hypothesis Hk : 0 < k.
  Hypothesis Hs : 0 < s.
  Local Notation p := (hc_cc_param k s).

  (** A single control. *)
  Lemma run_one c d v : pm1 d -> 0 <= d * ct_delta_s c -> (v = false -> ct_delta_s c <> 0) ->
    runs [c] (ct_kappa c, ct_kappa c + ct_sigma c * Rabs (ct_delta_s c), d, d, v).
  Proof.
    intros P D V. split.
    - intros k0 d0 rest d1 k1 J A B. cbn [app hybrid_chain]. destruct (Req_EM_T _ _) as [Z|N].
      + destruct v; [auto|]. exfalso. exact (V eq_refl Z).
      + assert (0 < d * ct_delta_s c) by (destruct P as [->| ->]; lra). split; [|eapply hybrid_way; eassumption].
        destruct J as [J|J]; [left; exact J|right]. destruct P as [->| ->]; nra.
    - exists c, c, [], []. repeat split; assumption.
  Qed.
  (** Legs put together. *)
  Lemma run_skip c d : pm1 d -> 0 <= d * ct_delta_s c -> ct_sigma c = 0 -> runs [c] (ct_kappa c, ct_kappa c, d, d, true).
  Proof. intros P D S. pose proof (run_one c d true P D ltac:(discriminate)) as R. rewrite S, Rmult_0_l, Rplus_0_r in R. exact R. Qed.
  Lemma run_app cs1 cs2 ka km kb d v1 v2 : (v1 = false \/ v2 = false) -> runs cs1 (ka, km, d, d, v1) -> runs cs2 (km, kb, d, d, v2) -> (v1 = true -> ka = km) -> (v2 = true -> km = kb) ->
    runs (cs1 ++ cs2) (ka, kb, d, d, false).
  Proof.
    intros V [R1 (c0 & c1 & x1 & y1 & A1 & B1 & C1 & D1 & E1 & F1)] [R2 (c2 & c3 & x2 & y2 & A2 & B2 & C2 & D2 & E2 & F2)] S1 S2. split.
    - intros k0 d0 rest d1 k1 J A _. rewrite <- app_assoc.
      apply R1; [exact J| |].
      + apply R2; [left; reflexivity|exact A|]. intros V2. rewrite (S2 V2). exact A.
      + intros V1. apply R2; [rewrite <- (S1 V1); exact J|exact A|]. intros V2. destruct V; congruence.
    - exists c0, c3, (x1 ++ cs2), (cs1 ++ y2). split; [rewrite A1; reflexivity|]. split; [rewrite B2 at 1; apply app_assoc|]. repeat split; assumption.
  Qed.

  Definition wsign (f o : bool) : R := sign f * sign o.
  Lemma wsign_pm f o : pm1 (wsign f o).
  Proof. destruct f, o; unfold wsign, sign, pm1; lra. Qed.
  Lemma direction_w f o : direction f o = wsign f o.
  Proof. destruct f, o; unfold direction, wsign, sign; cbn; lra. Qed.
  Lemma pm_mul d x : pm1 d -> d * (d * x) = x.
  Proof. intros [->| ->]; ring. Qed.

  Lemma regular_pos m d : 0 <= d < 2 * PI -> 0 <= circular_deflection true (twopify m) d.
  Proof.
    intros D. pose proof (twopify_range m) as M. unfold TWO_PI in *. unfold circular_deflection. destruct (Rlt_dec _ _); unfold TWO_PI; lra.
  Qed.

  Lemma runs_rs start l f q o : runs (rs_turn_controls (circle start l f true (rs_param k)) q o) (sign l * k, sign l * k, wsign f o, wsign f o, true).
  Proof.
    set (c := circle start l f true (rs_param k)). destruct (rs_fields k start l f true) as (_ & _ & EF & ER & EK & _). fold c in EF, ER, EK.
    unfold rs_turn_controls. rewrite EF, EK, direction_w.
    pose proof (run_skip (mkControl (wsign f o * (Rabs (c_kappa_inv c) * rs_circular_deflection c (deflection c q))) (sign l * k) 0) (wsign f o) (wsign_pm f o)) as R.
    cbn [ct_delta_s ct_kappa ct_sigma] in R. apply R; [|reflexivity]. rewrite pm_mul by apply wsign_pm. pose proof (defl_range c q) as DR.
    unfold rs_circular_deflection. rewrite ER. apply Rmult_le_pos; [apply Rabs_pos|lra].
  Qed.
  Lemma runs_hc start l f q : runs (hc_turn_controls (circle start l f true p) q true) (0, sign l * k, wsign f true, wsign f true, false) /\
    runs (hc_turn_controls (circle start l f true p) q false) (sign l * k, 0, wsign f false, wsign f false, false).
  Proof.
    set (c := circle start l f true p). destruct (curv_fields k s start l f true) as (EK & ES & EKI & EM). fold c in EK, ES, EKI, EM.
    destruct (circle_all start l f true p) as (_ & _ & EF & ER & _). fold c in EF, ER.
    assert (LM : Rabs (c_kappa c / c_sigma c) = k / s).
    { rewrite EK, ES. assert (0 < k / s) by (apply Rdiv_lt_0_compat; lra). replace (sign l * k / (sign l * s)) with (k / s) by (unfold sign; destruct l; field; lra). apply Rabs_pos_eq. lra. }
    assert (LP : 0 < k / s) by (apply Rdiv_lt_0_compat; lra).
    assert (AP : 0 <= Rabs (c_kappa_inv c) * hc_circular_deflection c (deflection c q)).
    { apply Rmult_le_pos; [apply Rabs_pos|]. unfold hc_circular_deflection. rewrite ER. apply regular_pos, defl_range. }
    set (A := Rabs (c_kappa_inv c) * hc_circular_deflection c (deflection c q)) in *.
    assert (RA : forall o, runs [mkControl (wsign f o * A) (sign l * k) 0] (sign l * k, sign l * k, wsign f o, wsign f o, true)).
    { intros o. apply (run_skip (mkControl (wsign f o * A) (sign l * k) 0)); cbn [ct_delta_s ct_sigma]; [apply wsign_pm|rewrite pm_mul by apply wsign_pm; exact AP|reflexivity]. }
    assert (AL : forall o, Rabs (wsign f o * (k / s)) = k / s) by (intros o; apply abs_pm; [apply wsign_pm|lra]).
    assert (NZ : forall o, wsign f o * (k / s) <> 0) by (intros o; destruct (wsign_pm f o) as [->| ->]; lra).
    unfold hc_turn_controls. rewrite LM, EF, !direction_w. fold A. rewrite EK, ES. split.
    - change [?a; ?b] with ([a] ++ [b]). eapply (run_app _ _ 0 (sign l * k) (sign l * k) (wsign f true) false true); [auto| |apply RA|discriminate|reflexivity].
      pose proof (run_one (mkControl (wsign f true * (k / s)) 0 (sign l * s)) (wsign f true) false (wsign_pm _ _)) as R. cbn [ct_delta_s ct_kappa ct_sigma] in R.
      rewrite AL in R. replace (0 + sign l * s * (k / s)) with (sign l * k) in R by (field; lra). apply R; [rewrite pm_mul by apply wsign_pm; lra|auto].
    - change [?a; ?b] with ([a] ++ [b]). eapply (run_app _ _ (sign l * k) (sign l * k) 0 (wsign f false) true false); [auto|apply RA| |reflexivity|discriminate].
      pose proof (run_one (mkControl (wsign f false * (k / s)) (sign l * k) (- (sign l * s))) (wsign f false) false (wsign_pm _ _)) as R. cbn [ct_delta_s ct_kappa ct_sigma] in R.
      rewrite AL in R. replace (sign l * k + - (sign l * s) * (k / s)) with 0 in R by (field; lra). apply R; [rewrite pm_mul by apply wsign_pm; lra|auto].
  Qed.

  Lemma runs_default start l f reg q o : let c := circle start l f reg p in
    runs (cc_default_controls c (deflection c q) o) (0, 0, wsign f o, wsign f o, true).
  Proof.
    intros c. destruct (curv_fields k s start l f reg) as (EK & ES & _ & _). fold c in EK, ES.
    destruct (circle_all start l f reg p) as (_ & _ & EF & ER & _). fold c in EF, ER.
    assert (LP : 0 < k / s) by (apply Rdiv_lt_0_compat; lra).
    assert (LM : Rabs (c_kappa c / c_sigma c) = k / s).
    { rewrite EK, ES. replace (sign l * k / (sign l * s)) with (k / s) by (unfold sign; destruct l; field; lra). apply Rabs_pos_eq. lra. }
    unfold cc_default_controls. rewrite LM, EF, direction_w, EK, ES. set (A := Rabs (c_kappa_inv c) * _). clearbody A.
    assert (AL : Rabs (wsign f o * (k / s)) = k / s) by (apply abs_pm; [apply wsign_pm|lra]).
    assert (NZ : wsign f o * (k / s) <> 0) by (destruct (wsign_pm f o) as [->| ->]; lra).
    assert (SG : 0 < wsign f o * (wsign f o * (k / s))) by (rewrite pm_mul by apply wsign_pm; exact LP).
    assert (K1 : 0 + sign l * s * (k / s) = sign l * k) by (field; lra).
    assert (K2 : sign l * k + - (sign l * s) * (k / s) = 0) by (field; lra). split.
    - intros k0 d0 rest d1 k1 J B _. cbn [app hybrid_chain ct_delta_s ct_kappa ct_sigma]. rewrite AL, K1, K2.
      destruct (Req_EM_T (wsign f o * (k / s)) 0) as [Z|_]; [contradiction|]. split.
      { destruct J as [J|J]; [left; exact J|right]. replace (d0 * (wsign f o * (k / s))) with ((d0 * wsign f o) * (k / s)) by ring. nra. }
      pose proof (hybrid_way 0 (wsign f o) _ rest d1 k1 (wsign_pm f o) SG B) as B'.
      destruct (Req_EM_T (wsign f o * A) 0) as [Z|N]; (split; [left|]); [reflexivity|exact B'|ring|]. split; [left; ring|exact B'].
    - do 2 eexists. exists [mkControl (wsign f o * A) (sign l * k) 0; mkControl (wsign f o * (k / s)) (sign l * k) (- (sign l * s))].
      exists [mkControl (wsign f o * (k / s)) 0 (sign l * s); mkControl (wsign f o * A) (sign l * k) 0]. split; [reflexivity|]. split; [reflexivity|]. cbn [ct_delta_s ct_kappa ct_sigma].
      rewrite AL, K2. repeat split; lra.
  Qed.
  Lemma runs_elementary start l f reg q o dl cs : let c := circle start l f reg p in
    cc_elementary_controls c q dl o = Some cs -> runs cs (0, 0, wsign f o, wsign f o, true).
  Proof.
    intros c. destruct (circle_all start l f reg p) as (_ & _ & EF & ER & _). fold c in EF, ER.
    unfold cc_elementary_controls. destruct (cc_elementary_sharpness c q dl) as [s0|]; [|discriminate]. intros E. injection E as <-. rewrite EF, direction_w.
    set (L := sqrt _). assert (LP : 0 <= L) by apply sqrt_pos. clearbody L.
    assert (AL : Rabs (wsign f o * L) = L) by (apply abs_pm; [apply wsign_pm|lra]).
    assert (SG : 0 <= wsign f o * (wsign f o * L)) by (rewrite pm_mul by apply wsign_pm; exact LP).
    split.
    - intros k0 d0 rest d1 k1 J B V. cbn [app hybrid_chain ct_delta_s ct_kappa ct_sigma]. rewrite AL.
      destruct (Req_EM_T (wsign f o * L) 0) as [Z|N]; [exact (V eq_refl)|].
      assert (LQ : 0 < L) by (destruct (Req_dec L 0) as [Z|]; [subst L; exfalso; apply N; ring|lra]).
      split; [destruct J as [J|J]; [left; exact J|right]; replace (d0 * (wsign f o * L)) with ((d0 * wsign f o) * L) by ring; nra|].
      split; [left; ring|]. replace (s0 * L + - s0 * L) with 0 by ring. eapply hybrid_way; [apply (wsign_pm f o)| |exact B]. rewrite pm_mul by apply wsign_pm. exact LQ.
    - do 2 eexists. exists [mkControl (wsign f o * L) (s0 * L) (- s0)]. exists [mkControl (wsign f o * L) 0 s0]. split; [reflexivity|]. split; [reflexivity|].
      cbn [ct_delta_s ct_kappa ct_sigma]. rewrite AL. repeat split; lra.
  Qed.
  Lemma runs_straight q1 q2 d : pm1 d ->
    0 <= d * (sgn (cos (q_theta q1) * (q_x q2 - q_x q1) + sin (q_theta q1) * (q_y q2 - q_y q1)) * point_distance (q_x q1) (q_y q1) (q_x q2) (q_y q2)) ->
    runs (straight_controls q1 q2) (0, 0, d, d, true).
  Proof.
    intros P D. unfold straight_controls.
    apply (run_skip (mkControl (sgn (cos (q_theta q1) * (q_x q2 - q_x q1) + sin (q_theta q1) * (q_y q2 - q_y q1)) * point_distance (q_x q1) (q_y q1) (q_x q2) (q_y q2)) 0 0)); cbn [ct_delta_s ct_sigma]; [exact P|exact D|reflexivity].
  Qed.
  Lemma pd_nonneg x y x' y' : 0 <= point_distance x y x' y'.
  Proof. apply sqrt_pos. Qed.
  Lemma sgn_pm x : pm1 (sgn x).
  Proof. unfold sgn, pm1. destruct (Rlt_dec x 0); lra. Qed.
  Definition sdir (q1 q2 : Configuration) : R := sgn (cos (q_theta q1) * (q_x q2 - q_x q1) + sin (q_theta q1) * (q_y q2 - q_y q1)).
  Lemma runs_s_any q1 q2 : runs (straight_controls q1 q2) (0, 0, sdir q1 q2, sdir q1 q2, true).
  Proof. apply runs_straight; [apply sgn_pm|]. fold (sdir q1 q2). rewrite pm_mul by apply sgn_pm. apply pd_nonneg. Qed.
  Definition cc_dir (c : Circle) (q : Configuration) (o : bool) : R :=
    if Rlt_dec (deflection c q) epsilon then if o then sdir (c_start c) q else sdir q (c_start c) else wsign (c_forward c) o.
  Lemma runs_cc_any start l f reg q o : let c := circle start l f reg p in runs (cc_turn_controls c q o) (0, 0, cc_dir c q o, cc_dir c q o, true).
  Proof.
    intros c. unfold cc_turn_controls, cc_dir. destruct (circle_all start l f reg p) as (_ & _ & EF & _). fold c in EF.
    assert (F : runs (cc_default_controls c (deflection c q) o) (0, 0, wsign (c_forward c) o, wsign (c_forward c) o, true)) by (rewrite EF; apply runs_default).
    destruct (Rlt_dec _ epsilon); [destruct o; apply runs_s_any|]. destruct (Rlt_dec _ _); [|exact F].
    destruct (cc_elementary_controls c q (deflection c q) o) as [cs|] eqn:E; [|exact F]. destruct (Rlt_dec _ _); [|exact F].
    rewrite EF. eapply runs_elementary, E.
  Qed.
  Definition hc_dir (c : Circle) (q : Configuration) (o : bool) : R :=
    let ds := wsign (c_forward c) o * (Rabs (c_kappa_inv c) * hc_circular_deflection c (deflection c q)) in
    if Req_EM_T ds 0 then wsign (c_forward c) o else sgn ds.
  Lemma runs_hc_any start l f reg q : let c := circle start l f reg p in
    runs (hc_turn_controls c q true) (0, sign l * k, wsign f true, hc_dir c q true, false) /\
    runs (hc_turn_controls c q false) (sign l * k, 0, hc_dir c q false, wsign f false, false).
  Proof.
    intros c. destruct (curv_fields k s start l f reg) as (EK & ES & _ & _). fold c in EK, ES.
    destruct (circle_all start l f reg p) as (_ & _ & EF & ER & _ & _ & _ & _ & _ & EI). fold c in EF, ER, EI.
    assert (LP : 0 < k / s) by (apply Rdiv_lt_0_compat; lra).
    assert (LM : Rabs (c_kappa c / c_sigma c) = k / s).
    { rewrite EK, ES. replace (sign l * k / (sign l * s)) with (k / s) by (unfold sign; destruct l; field; lra). apply Rabs_pos_eq. lra. }
    unfold hc_turn_controls. rewrite LM, EF, !direction_w, EK, ES. unfold hc_dir. rewrite EF. set (A := Rabs (c_kappa_inv c) * _). clearbody A.
    assert (AL : forall o, Rabs (wsign f o * (k / s)) = k / s) by (intros o; apply abs_pm; [apply wsign_pm|lra]).
    assert (NZ : forall o, wsign f o * (k / s) <> 0) by (intros o; destruct (wsign_pm f o) as [->| ->]; lra).
    assert (SG : forall o, 0 < wsign f o * (wsign f o * (k / s))) by (intros o; rewrite pm_mul by apply wsign_pm; exact LP).
    assert (K1 : 0 + sign l * s * (k / s) = sign l * k) by (field; lra).
    assert (K2 : sign l * k + - (sign l * s) * (k / s) = 0) by (field; lra).
    assert (SP : forall x, x <> 0 -> 0 < sgn x * x). { intros x N. unfold sgn. destruct (Rlt_dec x 0); lra. }
    split.
    - specialize (AL true). specialize (NZ true). specialize (SG true). set (w := wsign f true * A). split.
      + intros k0 d0 rest d1 k1 J B _. cbn [app hybrid_chain ct_delta_s ct_kappa ct_sigma]. rewrite AL, K1.
        destruct (Req_EM_T (wsign f true * (k / s)) 0) as [Z|_]; [contradiction|]. split.
        { destruct J as [J|J]; [left; exact J|right]. replace (d0 * (wsign f true * (k / s))) with ((d0 * wsign f true) * (k / s)) by ring. nra. }
        rewrite Rmult_0_l, Rplus_0_r. fold w. destruct (Req_EM_T w 0) as [Z|N]; [|split; [left; reflexivity|exact B]].
        eapply hybrid_way; [apply (wsign_pm f true)|exact SG|exact B].
      + do 2 eexists. exists [mkControl w (sign l * k) 0], [mkControl (wsign f true * (k / s)) 0 (sign l * s)]. split; [reflexivity|]. split; [reflexivity|]. cbn [ct_delta_s ct_kappa ct_sigma].
        split; [reflexivity|]. split; [lra|]. split; [ring|]. fold w. destruct (Req_EM_T w 0) as [Z|N]; [rewrite Z; lra|]. specialize (SP w N). lra.
    - specialize (AL false). specialize (NZ false). specialize (SG false). set (w := wsign f false * A). split.
      + intros k0 d0 rest d1 k1 J B _. cbn [app hybrid_chain ct_delta_s ct_kappa ct_sigma]. rewrite AL, K2.
        destruct (Req_EM_T (wsign f false * (k / s)) 0) as [Z|_]; [contradiction|].
        pose proof (hybrid_way 0 (wsign f false) _ rest d1 k1 (wsign_pm f false) SG B) as B'. fold w.
        destruct (Req_EM_T w 0) as [Z|N].
        * split; [|exact B']. destruct J as [J|J]; [left; exact J|right]. replace (d0 * (wsign f false * (k / s))) with ((d0 * wsign f false) * (k / s)) by ring. nra.
        * split; [|split; [left; ring|exact B']]. destruct J as [J|J]; [left; exact J|right]. specialize (SP w N). destruct (sgn_pm w) as [E|E]; rewrite E in *; nra.
      + do 2 eexists. exists [mkControl (wsign f false * (k / s)) (sign l * k) (- (sign l * s))], [mkControl w (sign l * k) 0]. split; [reflexivity|]. split; [reflexivity|]. cbn [ct_delta_s ct_kappa ct_sigma].
        split; [reflexivity|]. rewrite AL, K2. split; [|split; [reflexivity|lra]]. fold w. destruct (Req_EM_T w 0) as [Z|N]; [rewrite Z; lra|]. specialize (SP w N). lra.
  Qed.

  Lemma sgn_scaled a c x : 0 < c -> 0 <= a -> a = Rabs x -> sgn (x * c) * a = x.
  Proof.
    intros C A E. subst a. unfold sgn. destruct (Rlt_dec (x * c) 0) as [L|L].
    - assert (x < 0) by nra. rewrite Rabs_left; lra.
    - assert (0 <= x) by nra. rewrite Rabs_pos_eq; lra.
  Qed.
  Lemma runs_cc start l f reg q o : cc_tangent 0 (circle start l f reg p) q -> runs (cc_turn_controls (circle start l f reg p) q o) (0, 0, wsign f o, wsign f o, true).
  Proof.
    intros TG. set (c := circle start l f reg p) in *. unfold cc_turn_controls.
    assert (F : runs (cc_default_controls c (deflection c q) o) (0, 0, wsign f o, wsign f o, true)) by apply runs_default.
    destruct (Rlt_dec _ epsilon) as [SM|_].
    - assert (EP : epsilon <= 1) by (unfold epsilon; lra). pose proof (defl_range c q) as DR. pose proof PI2_1 as PB.
      destruct (chord_end k s start l f reg Hk Hs 0 q TG) as (u & v & N & EX & EY). fold c in EX, EY. set (dl := deflection c q) in *.
      destruct (nom_pos k s Hk Hs) as [NX NY]. set (A := 2 * (nom_X k s * cos (dl / 2) + nom_Y k s * sin (dl / 2))) in *.
      assert (CP : 0 < cos (dl / 2)) by (apply cos_gt_0; lra). assert (SP : 0 <= sin (dl / 2)) by (apply sin_ge_0; lra).
      assert (AP : 0 <= A) by (unfold A; nra).
      assert (UV : u = 0 /\ v = 0). { unfold hyp in N. assert (Z : u ^ 2 + v ^ 2 = 0) by (apply sqrt_eq_0; [nra|]; pose proof (sqrt_pos (u ^ 2 + v ^ 2)); lra). split; nra. }
      destruct UV as [-> ->]. rewrite Rplus_0_r in EX, EY.
      destruct (circle_all start l f reg p) as (ST & EL & EF & _). fold c in ST, EL, EF.
      pose proof (defl_ang c q) as DA. rewrite ST, EL, EF in DA. fold dl in DA.
      assert (CH : Rabs (sign f * A) = A) by (apply abs_sign_mul; exact AP).
      assert (PD : forall a b, point_distance (q_x start) (q_y start) (q_x q) (q_y q) = a -> point_distance (q_x q) (q_y q) (q_x start) (q_y start) = b -> a = A /\ b = A).
      { intros a b <- <-. unfold point_distance. rewrite EX, EY. set (th := q_theta start + _). split.
        - transitivity (Rabs (sign f * A)); [|exact CH]. rewrite <- (hyp_polar (sign f * A) th). unfold hyp. f_equal. ring.
        - transitivity (Rabs (sign f * A)); [|exact CH]. rewrite <- (hyp_polar (sign f * A) th). unfold hyp. f_equal. ring. }
      destruct (PD _ _ eq_refl eq_refl) as [P1 P2]. rewrite ST. destruct o; (apply runs_straight; [apply wsign_pm|]).
      + rewrite P1. replace (cos (q_theta start) * _ + _) with (sign f * A * cos (dl / 2)).
        * rewrite sgn_scaled by (assumption || (symmetry; exact CH)). unfold wsign. destruct f; unfold sign; lra.
        * rewrite EX, EY. rewrite cos_plus, sin_plus. pose proof (cos_sq (q_theta start)) as T.
          replace (cos (sign f * sign l * (dl / 2))) with (cos (dl / 2)) by (symmetry; apply cos_pm; destruct f, l; unfold sign, pm1; lra). ring [T].
      + rewrite P2. replace (cos (q_theta q) * _ + _) with (- sign f * A * cos (dl / 2)).
        * rewrite sgn_scaled; [unfold wsign; destruct f; unfold sign; lra|assumption|assumption|]. replace (- sign f * A) with (- (sign f * A)) by ring. rewrite Rabs_Ropp. symmetry. exact CH.
        * rewrite EX, EY. rewrite <- (ang_eq_cos _ _ DA), <- (ang_eq_sin _ _ DA).
          set (h := sign f * sign l * (dl / 2)). replace (sign f * sign l * dl) with (h + h) by (unfold h; field).
          replace (cos (dl / 2)) with (cos h) by (apply cos_pm; destruct f, l; unfold sign, pm1; lra).
          rewrite <- Rplus_assoc. set (th := q_theta start + h). rewrite (cos_plus th h), (sin_plus th h). pose proof (cos_sq th) as T. ring [T].
    - destruct (Rlt_dec _ _); [|exact F].
      destruct (cc_elementary_controls c q (deflection c q) o) as [cs|] eqn:E; [|exact F]. destruct (Rlt_dec _ _); [|exact F]. eapply runs_elementary, E.
  Qed.
  Lemma straight_ds t q1 q2 : straight_by t q1 q2 -> straight_controls q1 q2 = [mkControl t 0 0].
  Proof.
    intros (X & Y & _). unfold straight_controls. rewrite X, Y. unfold point_distance.
    replace (cos (q_theta q1) * _ + _) with (t * 1) by (pose proof (cos_sq (q_theta q1)) as T; ring [T]). rewrite sgn_scaled; [reflexivity|lra|apply sqrt_pos|].
    rewrite <- (hyp_polar t (q_theta q1)). unfold hyp. f_equal. ring.
  Qed.
  Lemma runs_s t d q1 q2 : straight_by t q1 q2 -> pm1 d -> 0 <= d * t -> runs (straight_controls q1 q2) (0, 0, d, d, true).
  Proof. intros S P D. rewrite (straight_ds t q1 q2 S). apply (run_skip (mkControl t 0 0)); cbn; auto. Qed.
  Lemma runs_s' t d q1 q2 : straight_by t q1 q2 -> pm1 d -> 0 < d * t -> runs (straight_controls q1 q2) (0, 0, d, d, false).
  Proof.
    intros S P D. rewrite (straight_ds t q1 q2 S). pose proof (run_one (mkControl t 0 0) d false P) as R. cbn [ct_delta_s ct_kappa ct_sigma] in R.
    rewrite Rmult_0_l, Rplus_0_r in R. apply R; [lra|]. intros _ Z. rewrite Z in D. lra.
  Qed.
End Runs.

(** A path of continuous curvature. *)
Lemma chain_hybrid_chain cs : forall k0 d0 d1 k1, curvature_chain k0 cs k1 -> hybrid_chain k0 d0 cs d1 k1.
Proof.
  induction cs as [|c cs IH]; cbn [curvature_chain hybrid_chain]; intros k0 d0 d1 k1; [intros H; left; exact H|]. intros [A B].
  destruct (Req_EM_T (ct_delta_s c) 0) as [Z|N].
  - apply IH. rewrite Z, Rabs_R0, Rmult_0_r, Rplus_0_r, A in B. exact B.
  - split; [left; exact A|]. apply IH, B.
Qed.
Lemma chain_last cs : forall k0 k1 c0, curvature_chain k0 (c0 :: cs) k1 -> exists c1 cs2, c0 :: cs = cs2 ++ [c1] /\ ct_kappa c1 + ct_sigma c1 * Rabs (ct_delta_s c1) = k1.
Proof.
  induction cs as [|c cs IH]; intros k0 k1 c0 [_ B].
  - cbn [curvature_chain] in B. exists c0, []. split; [reflexivity|congruence].
  - destruct (IH _ _ _ B) as (c1 & cs2 & E & K). exists c1, (c0 :: cs2). rewrite E. auto.
Qed.
Lemma chain_hybrid k0 cs k1 : curvature_chain k0 cs k1 -> cs <> [] -> hybrid k0 cs k1.
Proof.
  intros C NE. destruct cs as [|c0 cs]; [congruence|]. destruct (chain_last _ _ _ _ C) as (c1 & cs2 & E & K). pose proof C as [A _].
  assert (SP : forall x, 0 <= sgn x * x) by (intros x; unfold sgn; destruct (Rlt_dec x 0); lra).
  exists c0, c1, cs, cs2, (sgn (ct_delta_s c0)), (sgn (ct_delta_s c1)). repeat (split; [first [reflexivity|assumption|apply SP]|]). apply chain_hybrid_chain, C.
Qed.

(** As [good], with changes of the driving direction at which the curvature may jump. *)
Definition goodh (k s g n : R) (a b : Configuration) (k0 k1 : R) (cs : list Control) (L : R) : Prop :=
  let r := p_radius (hc_cc_param k s) in
  exists z, 0 <= z <= n * epsilon /\
    reaches (n * (2 * g + 2 * param_slack k s) + z * (3 / 2 * r + total_length cs) + fresnel_error cs) z (true_path (st_of a) cs) b /\
    Rabs (total_length cs - L) <= n * g + r * z /\
    hybrid k0 cs k1 /\ Forall (within_bounds (k * sharp k s g) (s * sharp k s g ^ 2)) cs /\ cs <> [].
Lemma good_goodh k s g n a b k0 k1 cs L : good k s g n a b k0 k1 cs L -> goodh k s g n a b k0 k1 cs L.
Proof. intros (z & A & B & C & D & E & F). exists z. repeat (split; [assumption|]). split; [apply chain_hybrid; assumption|]. auto. Qed.
Lemma by_chainh k s g ls a b ks ws k0 k1 n cs L : 0 < k -> 0 < s -> 0 <= g -> ls <> [] -> chain k s g ls a b ks -> List.Forall2 runs (map leg_controls ls) ws -> ends_ok k0 ws k1 ->
  cs = legs_controls ls -> L = legs_length ls -> n = INR (length ls) -> goodh k s g n a b k0 k1 cs L.
Proof.
  intros Hk Hs G NE C W E -> -> ->. exists (legs_z ls). repeat apply conj; [..|apply legs_nonempty, NE].
  - apply legs_z_range.
  - apply legs_z_range.
  - apply (chain_reaches k s g Hk Hs G ls a b ks C).
  - apply (chain_reaches k s g Hk Hs G ls a b ks C).
  - apply (chain_len k s g Hk Hs G ls a b ks C).
  - unfold legs_controls. rewrite flat_map_concat_map. eapply hybrid_of; eassumption.
  - apply (chain_bounds k s g Hk Hs (sharp k s g) ls a b ks C); [apply sharp_1; assumption|]. rewrite List.Forall_forall. intros l _. apply sharp_leg; assumption.
Qed.
Lemma goodh_drives k s g n a b k0 k1 cs L s1 s2 : 0 < k -> 0 < s -> at_conf s1 a -> at_conf s2 b -> goodh k s g n a b k0 k1 cs L ->
  drives k s n g s1 s2 cs L /\ hybrid k0 cs k1 /\ cs <> [].
Proof.
  intros Hk Hs A B (z & [Z0 Z1] & RE & LE & CC & FB & NE). split; [|split; [exact CC|exact NE]]. pose proof (radius_nonneg k s Hk Hs) as RP. pose proof (total_nonneg cs) as TP.
  set (rr := p_radius (hc_cc_param k s)) in *. set (E := n * (2 * g + 2 * param_slack k s) + z * (3 / 2 * rr + total_length cs) + fresnel_error cs) in *.
  assert (N : near E z (pst (true_path s1 cs)) (pst s2)).
  { rewrite reaches_near, true_path_disp in RE. rewrite true_path_disp. change (pst (st_of a)) with (pcf a) in RE. eapply near_peq; [|apply peq_sym, B|exact RE].
    apply pmul_congr_l, peq_sym, A. }
  destruct N as [N1 N2]. split; [|split; [|split; [|exact FB]]].
  - unfold pos_dist. unfold plan_error. fold rr. change (sqrt ((st_x (true_path s1 cs) - st_x s2) ^ 2 + (st_y (true_path s1 cs) - st_y s2) ^ 2)) with
      (hyp (px (pst (true_path s1 cs)) - px (pst s2)) (py (pst (true_path s1 cs)) - py (pst s2))). eapply Rle_trans; [exact N1|].
    unfold E. assert (z * (3 / 2 * rr + total_length cs) <= n * epsilon * (3 / 2 * rr + total_length cs)) by (apply Rmult_le_compat_r; lra). lra.
  - destruct N2 as [m M]. exists m. exact (Rle_trans _ _ _ M Z1).
  - eapply Rle_trans; [exact LE|]. fold rr. assert (z * rr <= n * epsilon * rr) by (apply Rmult_le_compat_r; lra). lra.
Qed.

(** ** Approximate centres *)
Definition gapped (c : Circle) (q : Configuration) (lx ly g : R) : Prop := centre_gap c q lx ly <= g.
Lemma gapped_0 c q lx ly : off c q lx ly -> gapped c q lx ly 0.
Proof. intros H. unfold gapped. rewrite (gap_off c q lx ly lx ly H), !Rminus_eq_0, hyp_00. lra. Qed.
Lemma gapped_conv c q lx ly lx' ly' g : gapped c q lx ly g -> lx = lx' -> ly = ly' -> gapped c q lx' ly' g.
Proof. intros H <- <-. exact H. Qed.
(** The circle [c'] has its centre close to that of [c]. *)
Lemma gap_move c c' q q' lx ly lx' ly' g g' : off c' q lx ly -> gapped c q lx ly g -> gapped c q' lx' ly' g' -> gapped c' q' lx' ly' (g + g').
Proof.
  unfold off, gapped, centre_gap, frame, pcf; cbn [px py pt]. intros O A B. apply pair_equal_spec in O. destruct O as [OX OY]. rewrite <- OX, <- OY in A.
  set (x := q_x q' + lx' * cos (q_theta q') - ly' * sin (q_theta q')) in *. set (y := q_y q' + lx' * sin (q_theta q') + ly' * cos (q_theta q')) in *.
  fold (hyp (c_xc c' - c_xc c) (c_yc c' - c_yc c)) in A. fold (hyp (x - c_xc c) (y - c_yc c)) in B. fold (hyp (x - c_xc c') (y - c_yc c')).
  replace (x - c_xc c') with ((x - c_xc c) + - (c_xc c' - c_xc c)) by ring. replace (y - c_yc c') with ((y - c_yc c) + - (c_yc c' - c_yc c)) by ring.
  eapply Rle_trans; [apply hyp_add|]. rewrite hyp_opp. lra.
Qed.
Section Near.
  Variables (k s : R).
  Hypothesis Hk : 0 < k.
  Hypothesis Hs : 0 < s.
  Local Notation p := (hc_cc_param k s).
  Local Notation X := (p_radius p * p_sin_mu p).
  Local Notation Y := (p_radius p * p_cos_mu p).

  Lemma mk_cc2 g g1 g2 start l f reg q tgt : gapped tgt start (sign f * X) (sign l * Y) g1 -> gapped tgt q (- sign f * X) (sign l * Y) g2 -> g1 + g2 <= g ->
    cc_tangent g (circle start l f reg p) q.
  Proof.
    intros A B G. unfold cc_tangent. destruct (circle_all start l f reg p) as (_ & EL & EF & _ & ER & _ & ES & EC & _).
    rewrite EL, EF, ER, ES, EC. eapply Rle_trans; [|exact G]. eapply gap_move; [apply circle_off|exact A|exact B].
  Qed.
  Lemma mk_hc2 g g1 g2 start l f reg q tgt : gapped tgt start (sign f * X) (sign l * Y) g1 -> gapped tgt q 0 (sign l * (1 / k)) g2 -> g1 + g2 <= g ->
    hc_tangent g (circle start l f reg p) q.
  Proof.
    intros A B G. unfold hc_tangent. destruct (curv_fields k s start l f reg) as (EK & _). rewrite EK.
    replace (1 / (sign l * k)) with (sign l * (1 / k)) by (destruct l; unfold sign; field; lra).
    eapply Rle_trans; [|exact G]. eapply gap_move; [apply circle_off|exact A|exact B].
  Qed.
  Lemma mk_rs2 g g1 g2 start l f reg q tgt : gapped tgt start 0 (sign l * (1 / k)) g1 -> gapped tgt q 0 (sign l * (1 / k)) g2 -> g1 + g2 <= g ->
    hc_tangent g (circle start l f reg (rs_param k)) q.
  Proof.
    intros A B G. unfold hc_tangent. destruct (rs_fields k start l f reg) as (_ & _ & _ & _ & EK & _ & EO). rewrite EK.
    replace (1 / (sign l * k)) with (sign l * (1 / k)) by (destruct l; unfold sign; field; lra).
    eapply Rle_trans; [|exact G]. eapply gap_move; [exact EO|exact A|exact B].
  Qed.

  Lemma joint_TT_near mu ca cb la fa q : q = gTT mu ca cb -> mu = p_mu p -> c_left ca = la -> c_forward ca = fa -> Rabs (center_distance ca cb - 2 * p_radius p) < epsilon ->
    gapped ca q (- sign fa * X) (sign la * Y) (epsilon / 2) /\ gapped cb q (sign fa * X) (- sign la * Y) (epsilon / 2).
  Proof.
    intros Q M EL EF D. destruct (joint_TT_gap k s Hk Hs mu ca cb la fa q Q M EL EF D) as (h & A & B & G). unfold gapped. split.
    - rewrite (gap_off _ _ _ _ _ _ A). apply (G (- sign fa) (sign la)); [apply pm1_opp|]; apply pm1_sign.
    - rewrite (gap_off _ _ _ _ _ _ B). apply (G (sign fa) (- sign la)); [|apply pm1_opp]; apply pm1_sign.
  Qed.
  Lemma joint_TcT_near kap ca cb la fa q : q = gTcT kap 0 ca cb -> c_left ca = la -> c_forward ca = fa -> Rabs (center_distance ca cb - 2 * (1 / k)) < epsilon ->
    gapped ca q 0 (sign la * (1 / k)) (epsilon / 2) /\ gapped cb q 0 (- sign la * (1 / k)) (epsilon / 2).
  Proof.
    intros -> EL EF D. destruct (TcT_off kap 0 ca cb) as [A B]. rewrite EL, EF in A, B. rewrite Rmult_0_r in A, B. set (h := center_distance ca cb / 2) in *.
    assert (G : Rabs (1 / k - h) <= epsilon / 2).
    { rewrite Rabs_minus_sym. replace (h - 1 / k) with ((center_distance ca cb - 2 * (1 / k)) * (1 / 2)) by (unfold h; field; lra). rewrite Rabs_mult, (Rabs_pos_eq (1 / 2)) by lra. lra. }
    assert (H0 : forall x, pm1 x -> hyp (0 - 0) (x * (1 / k) - x * h) <= epsilon / 2).
    { intros x P. replace (0 - 0) with (x * 0) by ring. replace (x * (1 / k) - x * h) with (x * (1 / k - h)) by ring. rewrite hyp_pm by assumption.
      replace (hyp 0 (1 / k - h)) with (Rabs (1 / k - h)); [exact G|]. symmetry. unfold hyp. rewrite <- (sqrt_Rsqr_abs). f_equal. unfold Rsqr. ring. }
    unfold gapped. split.
    - rewrite (gap_off _ _ _ _ _ _ A). apply (H0 (sign la)), pm1_sign.
    - rewrite (gap_off _ _ _ _ _ _ B). apply (H0 (- sign la)), pm1_opp, pm1_sign.
  Qed.
End Near.

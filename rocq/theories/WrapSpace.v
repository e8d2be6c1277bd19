(** * The spaces for states of any curvature *)
From Coq Require Import Reals ZArith List Lra Lia Bool.
From Verif Require Import Base ModelUtil ModelFresnel ModelCircle ModelPaths ModelWrap Num UtilProofs SpecPath SpecCloth SpecTurn SpecPlan SpecSide SpecWrap FresProofs PoseAlg TurnProofs MotionProofs TurnBounds LegProofs IntegrateProofs TangentProofs PlanTactics PlanBounds PlanSelect PlanRefute SideProofs WrapPredict WrapProofs WrapLoop.
Import ListNotations.
Open Scope R_scope.

Section Space.
  Variables (k s : R).
  Hypothesis Hk : 0 < k.
  Hypothesis Hs : 0 < s.
  Variables dist00 dist0pm distpm0 distpmpm : State -> State -> option flt.
  Variables ctrl00 ctrl0pm ctrlpm0 ctrlpmpm : State -> State -> option (list Control).
  Variable chain : R -> list Control -> R -> Prop.
  Variable ty : Type.
  Variables pieces gapf : ty -> R.
  Hypothesis pieces_nonneg : forall t, 0 <= pieces t.
  Hypothesis gap_nonneg : forall t, 0 <= gapf t.
  Notation CD := (call_distance dist00 dist0pm distpm0 distpmpm).
  Notation CC := (call_controls ctrl00 ctrl0pm ctrlpm0 ctrlpmpm).
  Definition found (q1 q2 : State) : Prop :=
    exists t L mid, CD q1 q2 = Some (Some L) /\ CC q1 q2 = Some mid /\ L <= pos_dist q1 q2 + detour k s /\ mid <> [] /\ Rabs (total_length mid - L) <= length_gap k s /\
      (clear_pair k s q1 q2 -> drives k s (pieces t) (gapf t) q1 q2 mid L /\ exists k0 k1, joint k q1 k0 /\ joint k q2 k1 /\ chain k0 mid k1).
  Hypothesis contract : forall q1 q2, pos_dist q1 q2 + detour k s < DBL_MAX -> found q1 q2.

  Lemma length_gap_nonneg : 0 <= length_gap k s.
  Proof. unfold length_gap. pose proof (radius_nonneg k s Hk Hs). assert (0 < 1 / k) by (apply Rdiv_lt_0_compat; lra). apply Rmult_le_pos; unfold epsilon; lra. Qed.
  Lemma pos_dist_sym a b : pos_dist a b = pos_dist b a.
  Proof. unfold pos_dist. f_equal. ring. Qed.
  Lemma pos_dist_tri a b c : pos_dist a c <= pos_dist a b + pos_dist b c.
  Proof.
    change (hyp (st_x a - st_x c) (st_y a - st_y c) <= hyp (st_x a - st_x b) (st_y a - st_y b) + hyp (st_x b - st_x c) (st_y b - st_y c)).
    replace (st_x a - st_x c) with ((st_x a - st_x b) + (st_x b - st_x c)) by ring. replace (st_y a - st_y c) with ((st_y a - st_y b) + (st_y b - st_y c)) by ring. apply hyp_add.
  Qed.
  Lemma forecast_dist st q c : forecast k s st (q, c) -> pos_dist st q <= Rabs (ct_delta_s c) + lib_tol s /\ Rabs (ct_delta_s c) <= k / s.
  Proof.
    intros F. split; [apply (near_dist _ _ _ _ (forecast_near k s st q c F))|]. assert (0 < k / s) by (apply Rdiv_lt_0_compat; lra).
    destruct F as [(_ & E)|(_ & _ & _ & _ & _ & B)]; [|cbn [snd] in B; lra]. apply pair_equal_spec in E. destruct E as (_ & ->). cbn [ct_delta_s]. rewrite Rabs_R0. lra.
  Qed.
  Lemma pair_near s1 s2 q1 c1 q2 c2 : forecast k s s1 (q1, c1) -> forecast k s s2 (q2, c2) ->
    Rabs (pos_dist q1 q2 - pos_dist s1 s2) <= 2 * (k / s) + 2 * lib_tol s.
  Proof.
    intros F1 F2. destruct (forecast_dist _ _ _ F1) as (A1 & B1). destruct (forecast_dist _ _ _ F2) as (A2 & B2).
    pose proof (pos_dist_tri q1 s1 q2). pose proof (pos_dist_tri s1 s2 q2). pose proof (pos_dist_tri s1 q1 s2). pose proof (pos_dist_tri q1 q2 s2). rewrite (pos_dist_sym q1 s1) in *. rewrite (pos_dist_sym q2 s2) in *.
    unfold Rabs in *. destruct (Rcase_abs (pos_dist q1 q2 - pos_dist s1 s2)); lra.
  Qed.
  Lemma extra : 4 * (k / s) + 2 * lib_tol s <= detour k s.
  Proof. pose proof (tol_le k s Hk Hs). unfold detour. assert (0 < k / s) by (apply Rdiv_lt_0_compat; lra). assert (0 < 1 / k) by (apply Rdiv_lt_0_compat; lra). lra. Qed.

  Definition joined (ka : R) (cs : list Control) (kb : R) : Prop :=
    exists pre mid post k0 k1, cs = pre ++ mid ++ post /\ chain k0 mid k1 /\
      (pre = [] /\ Rabs (k0 - ka) <= kappa_gap s \/ exists c, pre = [c] /\ curvature_chain ka pre k0) /\
      (post = [] /\ Rabs (k1 - kb) <= kappa_gap s \/ exists c, post = [c] /\ curvature_chain k1 post kb).

  Theorem space_result s1 s2 starts ends : Rabs (st_kappa s1) <= k -> Rabs (st_kappa s2) <= k -> pos_dist s1 s2 + 2 * detour k s < DBL_MAX ->
    starts <> [] -> ends <> [] -> (forall p, In p starts -> forecast k s s1 p) -> (forall p, In p ends -> forecast k s s2 p) ->
    exists L cs q1 c1 q2 c2, loop_distance dist00 dist0pm distpm0 distpmpm starts ends = Some (Some L) /\ loop_controls ctrl00 ctrl0pm ctrlpm0 ctrlpmpm starts ends = Some cs /\
      L <= pos_dist s1 s2 + 2 * detour k s /\ Rabs (total_length cs - L) <= length_gap k s /\ cs <> [] /\ In (q1, c1) starts /\ In (q2, c2) ends /\
      (state_equal q1 q2 = true -> cs = [subtract_control c1 c2]) /\
      (state_equal q1 q2 = false -> clear_pair k s q1 q2 -> exists t, connects k s (pieces t) (gapf t) s1 s2 cs /\ joined (st_kappa s1) cs (st_kappa s2)).
  Proof.
    intros K1 K2 LM NS NE FS FE. pose proof length_gap_nonneg as G0. pose proof extra as EX. assert (KS : 0 < k / s) by (apply Rdiv_lt_0_compat; lra). pose proof (tol_nonneg s) as T0.
    assert (FO : forall q1 c1 q2 c2, In (q1, c1) starts -> In (q2, c2) ends -> found q1 q2).
    { intros q1 c1 q2 c2 I1 I2. apply contract. pose proof (pair_near _ _ _ _ _ _ (FS _ I1) (FE _ I2)) as P. unfold Rabs in P. destruct (Rcase_abs _) in P; lra. }
    assert (HP : forall p1 p2, In p1 starts -> In p2 ends -> exists L cs, pair_distance dist00 dist0pm distpm0 distpmpm (p1, p2) = Some (Some L) /\ pair_controls ctrl00 ctrl0pm ctrlpm0 ctrlpmpm (p1, p2) = Some cs /\
      Rabs (total_length cs - L) <= length_gap k s /\ L <= pos_dist s1 s2 + 2 * detour k s).
    { intros [q1 c1] [q2 c2] I1 I2. pose proof (pair_near _ _ _ _ _ _ (FS _ I1) (FE _ I2)) as P. destruct (forecast_dist _ _ _ (FS _ I1)) as (_ & B1). destruct (forecast_dist _ _ _ (FE _ I2)) as (_ & B2).
      pose proof (sqrt_pos ((st_x s1 - st_x s2) ^ 2 + (st_y s1 - st_y s2) ^ 2)) as PP. fold (pos_dist s1 s2) in PP.
      destruct (state_equal q1 q2) eqn:E.
      - destruct (pair_equal dist00 dist0pm distpm0 distpmpm ctrl00 ctrl0pm ctrlpm0 ctrlpmpm q1 c1 q2 c2 E) as (D & C). eexists _, _. split; [exact D|split; [exact C|]]. rewrite Rminus_diag_eq, Rabs_R0 by reflexivity. split; [exact G0|].
        unfold total_length, subtract_control; cbn [fold_right ct_delta_s]. pose proof (Rabs_triang (ct_delta_s c1) (- ct_delta_s c2)) as TR. rewrite Rabs_Ropp in TR. unfold Rminus. lra.
      - destruct (FO _ _ _ _ I1 I2) as (t & L & mid & D & C & LE & _ & LG & _). destruct (pair_unequal _ _ _ _ _ _ _ _ q1 c1 q2 c2 L mid E D C) as (PD & PC). eexists _, _. split; [exact PD|split; [exact PC|]].
        rewrite !total_length_app. rewrite post_length. pose proof (pre_le c1). pose proof (pre_le c2). split.
        + replace (total_length (pre c1) + (total_length mid + total_length (pre c2)) - (L + total_length (pre c1) + total_length (pre c2))) with (total_length mid - L) by ring. exact LG.
        + unfold Rabs in P at 1. destruct (Rcase_abs _) in P; lra. }
    destruct (loop_result dist00 dist0pm distpm0 distpmpm ctrl00 ctrl0pm ctrlpm0 ctrlpmpm starts ends (length_gap k s) NS NE) as (L & cs & [q1 c1] & [q2 c2] & D & C & I1 & I2 & PC & LG & ML & MC & _).
    { intros p1 p2 I1 I2. destruct (HP p1 p2 I1 I2) as (L & cs & A & B & E & _). exists L, cs. auto. }
    exists L, cs, q1, c1, q2, c2. split; [exact D|split; [exact C|split; [|split; [exact LG|]]]].
    { destruct (HP _ _ I1 I2) as (L' & cs' & PD & _ & _ & LE). pose proof (ML _ _ _ I1 I2 PD). lra. }
    destruct (state_equal q1 q2) eqn:E.
    - destruct (pair_equal dist00 dist0pm distpm0 distpmpm ctrl00 ctrl0pm ctrlpm0 ctrlpmpm q1 c1 q2 c2 E) as (_ & C'). rewrite PC in C'. assert (EC : cs = [subtract_control c1 c2]) by congruence.
      split; [rewrite EC; discriminate|split; [exact I1|split; [exact I2|split; [intros _; exact EC|discriminate]]]].
    - destruct (FO _ _ _ _ I1 I2) as (t & L' & mid & D' & C' & _ & NM & _ & CL). destruct (pair_unequal _ _ _ _ _ _ _ _ q1 c1 q2 c2 L' mid E D' C') as (_ & PC'). rewrite PC in PC'. assert (EC : cs = pre c1 ++ mid ++ post c2) by congruence.
      split; [rewrite EC; intros N; apply app_eq_nil in N; destruct N as (_ & N); apply app_eq_nil in N; destruct N as (N & _); contradiction|].
      split; [exact I1|split; [exact I2|split; [discriminate|]]]. intros _ CP. destruct (CL CP) as (DR & k0 & k1 & J1 & J2 & CH). exists t. rewrite EC. split.
      + exact (join k s Hk Hs s1 s2 q1 c1 q2 c2 (pieces t) (gapf t) mid L' (FS _ I1) (FE _ I2) (pieces_nonneg t) (gap_nonneg t) DR).
      + exists (pre c1), mid, (post c2), k0, k1. split; [reflexivity|split; [exact CH|split]].
        * exact (pre_curvature k s Hk Hs s1 q1 c1 k0 K1 (FS _ I1) J1).
        * exact (post_curvature k s Hk Hs s2 q2 c2 k1 K2 (FE _ I2) J2).
  Qed.

  (** Far apart there are neither equal predicted states nor coinciding circles. *)
  Lemma far_pair q1 q2 : epsilon + p_radius (hc_cc_param k s) + 2 * (1 / k) < pos_dist q1 q2 -> state_equal q1 q2 = false /\ clear_pair k s q1 q2.
  Proof.
    intros F. pose proof (radius_nonneg k s Hk Hs) as R0. assert (KP : 0 < 1 / k) by (apply Rdiv_lt_0_compat; lra). assert (E0 : 0 < epsilon) by (unfold epsilon; lra).
    assert (AP : poses_apart q1 q2) by (left; lra). split.
    - unfold state_equal. destruct (Rlt_dec _ _); [reflexivity|]. destruct (Rlt_dec _ _); [reflexivity|]. destruct (Rlt_dec _ _) as [_|N]; [reflexivity|]. exfalso. apply N. unfold point_distance. rewrite pos_dist_sym in F. unfold pos_dist in F. lra.
    - assert (T : forall l f, hyp (sign f * (p_radius (hc_cc_param k s) * p_sin_mu (hc_cc_param k s))) (sign l * (p_radius (hc_cc_param k s) * p_cos_mu (hc_cc_param k s))) = p_radius (hc_cc_param k s)).
      { intros l f. apply (radius_XY k s Hk Hs); apply pm1_sign. }
      assert (C : forall l, hyp 0 (sign l * (1 / k)) = 1 / k) by (intros l; apply hyp_eq; [lra|]; destruct l; unfold sign; ring).
      split; [|split]; intros _ _; (split; [exact AP|]).
      + intros l f. pose proof (gap_far q1 q2 (sign f * (p_radius (hc_cc_param k s) * p_sin_mu (hc_cc_param k s))) (sign l * (p_radius (hc_cc_param k s) * p_cos_mu (hc_cc_param k s))) 0 (sign (negb l) * (1 / k))) as G.
        rewrite C, T in G. unfold turn_centre, arc_centre. lra.
      + intros l f. pose proof (gap_far q1 q2 0 (sign (negb l) * (1 / k)) (sign f * (p_radius (hc_cc_param k s) * p_sin_mu (hc_cc_param k s))) (sign l * (p_radius (hc_cc_param k s) * p_cos_mu (hc_cc_param k s)))) as G.
        rewrite C, T in G. unfold turn_centre, arc_centre. lra.
      + right. intros l. pose proof (gap_far q1 q2 0 (sign l * (1 / k)) 0 0) as G. rewrite C, hyp_00 in G. replace (beside q2 0 0) with (st_x q2, st_y q2) in G by (unfold beside; f_equal; ring).
        unfold arc_centre. rewrite Rabs_pos_eq; lra.
  Qed.
  Lemma far_states s1 s2 q1 c1 q2 c2 : forecast k s s1 (q1, c1) -> forecast k s s2 (q2, c2) -> epsilon + 5 * (k / s + 1 / k) <= pos_dist s1 s2 -> state_equal q1 q2 = false /\ clear_pair k s q1 q2.
  Proof.
    intros F1 F2 F. apply far_pair. pose proof (pair_near _ _ _ _ _ _ F1 F2) as P. pose proof (tol_le k s Hk Hs). pose proof (radius_le k s Hk Hs) as RL. assert (0 < k / s) by (apply Rdiv_lt_0_compat; lra). assert (0 < 1 / k) by (apply Rdiv_lt_0_compat; lra).
    replace (2 / k) with (2 * (1 / k)) in RL by (field; lra). unfold Rabs in P. destruct (Rcase_abs _) in P; lra.
  Qed.
End Space.

Lemma joined_continuous s ka cs kb : 0 < s -> joined s curvature_chain ka cs kb -> continuous_curvature s ka cs kb.
Proof.
  intros Hs (pr & mid & po & k0 & k1 & E & CH & P & Q). subst cs.
  assert (Z : forall x, Rabs (x - x) <= kappa_gap s).
  { intros x. rewrite Rminus_diag_eq, Rabs_R0 by reflexivity. unfold kappa_gap, epsilon. lra. }
  assert (A : exists a, Rabs (a - ka) <= kappa_gap s /\ curvature_chain a pr k0).
  { destruct P as [(-> & P)|(c & _ & P)]; [exists k0; split; [exact P|reflexivity]|exists ka; auto]. }
  assert (B : exists b, Rabs (b - kb) <= kappa_gap s /\ curvature_chain k1 po b).
  { destruct Q as [(-> & Q)|(c & _ & Q)]; [exists k1; split; [exact Q|reflexivity]|exists kb; auto]. }
  destruct A as (a & A1 & A2). destruct B as (b & B1 & B2). exists a, b. split; [exact A1|split; [exact B1|]].
  eapply curvature_app; [exact A2|]. eapply curvature_app; [exact CH|exact B2].
Qed.

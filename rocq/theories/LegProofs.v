(** * Chains of turns and straight lines *)
From Coq Require Import Reals ZArith List Lra Lia Bool.
From Coquelicot Require Import Coquelicot.
From Verif Require Import Base ModelUtil ModelFresnel ModelIntegrate ModelCircle Num UtilProofs IntegrateProofs SpecPath SpecCloth SpecTurn PoseAlg JacProofs TurnProofs MotionProofs TurnBounds.
Import ListNotations.
Open Scope R_scope.

Inductive Leg :=
| LC (c : Circle) (q : Configuration) (o : bool)
| LH (c : Circle) (q : Configuration) (o : bool)
| LR (c : Circle) (q : Configuration) (o : bool)
| LS (q1 q2 : Configuration).

Definition leg_controls (l : Leg) : list Control :=
  match l with
  | LC c q o => cc_turn_controls c q o
  | LH c q o => hc_turn_controls c q o
  | LR c q o => rs_turn_controls c q o
  | LS q1 q2 => straight_controls q1 q2
  end.
Definition leg_length (l : Leg) : R :=
  match l with
  | LC c q o => cc_turn_length c q
  | LH c q o => hc_turn_length c q
  | LR c q o => rs_turn_length c q
  | LS q1 q2 => configuration_distance q1 q2
  end.
Definition leg_z (l : Leg) : R := match l with LC c q _ => cc_shortcut c q | _ => 0 end.

Definition straight_by (t : R) (q1 q2 : Configuration) : Prop :=
  q_x q2 = q_x q1 + t * cos (q_theta q1) /\ q_y q2 = q_y q1 + t * sin (q_theta q1) /\ ang_eq (q_theta q2) (q_theta q1).
Definition straight_on (q1 q2 : Configuration) : Prop := exists t, straight_by t q1 q2.

(** A leg from [a] to [b] whose ends fit up to [g]; [ka] and [kb] are the curvatures at its ends. *)
Inductive leg_ok (k s g : R) : Leg -> Configuration -> R -> Configuration -> R -> Prop :=
| ok_cc start l f reg q : cc_tangent g (circle start l f reg (hc_cc_param k s)) q ->
    leg_ok k s g (LC (circle start l f reg (hc_cc_param k s)) q true) start 0 q 0
| ok_cc' start l f reg q : cc_tangent g (circle start l f reg (hc_cc_param k s)) q ->
    leg_ok k s g (LC (circle start l f reg (hc_cc_param k s)) q false) q 0 start 0
| ok_hc start l f reg q : hc_tangent g (circle start l f reg (hc_cc_param k s)) q ->
    leg_ok k s g (LH (circle start l f reg (hc_cc_param k s)) q true) start 0 q (sign l * k)
| ok_hc' start l f reg q : hc_tangent g (circle start l f reg (hc_cc_param k s)) q ->
    leg_ok k s g (LH (circle start l f reg (hc_cc_param k s)) q false) q (sign l * k) start 0
| ok_rs start l f reg q : hc_tangent g (circle start l f reg (rs_param k)) q ->
    leg_ok k s g (LR (circle start l f reg (rs_param k)) q true) start (sign l * k) q (sign l * k)
| ok_rs' start l f reg q : hc_tangent g (circle start l f reg (rs_param k)) q ->
    leg_ok k s g (LR (circle start l f reg (rs_param k)) q false) q (sign l * k) start (sign l * k)
| ok_s q1 q2 : straight_on q1 q2 -> leg_ok k s g (LS q1 q2) q1 0 q2 0.

Definition conf_eq (a b : Configuration) : Prop := peq (pcf a) (pcf b).

Definition legs_controls (ls : list Leg) : list Control := flat_map leg_controls ls.
Definition legs_length (ls : list Leg) : R := fold_right (fun l acc => leg_length l + acc) 0 ls.
Definition legs_z (ls : list Leg) : R := fold_right (fun l acc => leg_z l + acc) 0 ls.

(** Legs that follow each other; the list of curvatures is what the curvature is at the ends of each leg. *)
Inductive chain (k s g : R) : list Leg -> Configuration -> Configuration -> list (R * R) -> Prop :=
| ch_nil a b : conf_eq a b -> chain k s g [] a b []
| ch_cons l ls a a' ka b kb d ks : conf_eq a a' -> leg_ok k s g l a' ka b kb -> chain k s g ls b d ks ->
    chain k s g (l :: ls) a d ((ka, kb) :: ks).

Section Legs.
  Variables (k s g : R).
  Hypothesis Hk : 0 < k.
  Hypothesis Hs : 0 < s.
  Hypothesis Hg : 0 <= g.
  Let r := p_radius (hc_cc_param k s).

  Lemma circle_radius start l f reg : c_radius (circle start l f reg (hc_cc_param k s)) = r.
  Proof. pose proof (circle_fields start l f reg (hc_cc_param k s)) as H. cbv zeta in H. destruct H as (_ & _ & _ & _ & H & _). exact H. Qed.
  Lemma radius_nonneg : 0 <= r.
  Proof. unfold r. destruct (param_nom k s Hk Hs) as (_ & _ & _ & _ & _ & _ & -> & _). apply sqrt_pos. Qed.

  Lemma slack_nonneg : 0 <= param_slack k s.
  Proof. unfold param_slack. destruct (Rlt_dec _ _); [lra|]. assert (0 < k / s) by (apply Rdiv_lt_0_compat; assumption). lra. Qed.

  Lemma shortcut_range c q : 0 <= cc_shortcut c q <= epsilon.
  Proof.
    unfold cc_shortcut. pose proof (defl_range c q). destruct (Rlt_dec _ _); [lra|]. unfold epsilon. lra.
  Qed.
  Lemma leg_z_range l : 0 <= leg_z l <= epsilon.
  Proof. destruct l; cbn [leg_z]; try (unfold epsilon; lra). apply shortcut_range. Qed.

  Lemma straight_leg q1 q2 : straight_on q1 q2 -> reaches 0 0 (true_path (st_of q1) (straight_controls q1 q2)) q2.
  Proof.
    intros (t & X & Y & [n T]). unfold straight_controls.
    assert (LE : point_distance (q_x q1) (q_y q1) (q_x q2) (q_y q2) = Rabs t).
    { unfold point_distance. rewrite X, Y. pose proof (sin2_cos2' (q_theta q1)) as C.
      match goal with |- sqrt ?e = _ => replace e with (t * t * (sin (q_theta q1) * sin (q_theta q1) + cos (q_theta q1) * cos (q_theta q1))) by ring end.
      rewrite C, Rmult_1_r. apply sqrt_Rsqr_abs. }
    assert (DE : cos (q_theta q1) * (q_x q2 - q_x q1) + sin (q_theta q1) * (q_y q2 - q_y q1) = t).
    { rewrite X, Y. pose proof (sin2_cos2' (q_theta q1)) as C.
      match goal with |- ?e = _ => replace e with (t * (sin (q_theta q1) * sin (q_theta q1) + cos (q_theta q1) * cos (q_theta q1))) by ring end.
      rewrite C. ring. }
    rewrite LE, DE, sgn_mul_abs. apply reaches_near. unfold true_path; cbn [fold_left]. unfold true_move, pst, pcf, near; cbn [ct_delta_s ct_kappa ct_sigma st_x st_y st_theta px py pt st_of].
    pose proof (const_prim_y (q_y q1) (q_theta q1) (sgn t) (Rabs t)) as PY.
    pose proof (const_prim_x (q_x q1) (q_theta q1) (sgn t) (Rabs t)) as PX.
    rewrite sgn_mul_abs in PX, PY. split.
    - apply hyp_le; [lra|].
      replace (true_x (q_x q1) (q_theta q1) 0 0 (sgn t) (Rabs t) - q_x q2) with 0 by lra.
      replace (true_y (q_y q1) (q_theta q1) 0 0 (sgn t) (Rabs t) - q_y q2) with 0 by lra. lra.
    - exists (- n)%Z. rewrite opp_IZR. unfold heading. rewrite T.
      match goal with |- Rabs ?e <= _ => replace e with 0 by field end. rewrite Rabs_R0. lra.
  Qed.

  Lemma leg_reaches l a ka b kb : leg_ok k s g l a ka b kb ->
    reaches (2 * g + 2 * param_slack k s + 3 / 2 * (r * leg_z l) + fresnel_error (leg_controls l)) (leg_z l) (true_path (st_of a) (leg_controls l)) b.
  Proof.
    pose proof slack_nonneg as SP. pose proof radius_nonneg as RP. intros H. inversion H; subst; cbn [leg_controls leg_z].
    - apply reaches_true. rewrite <- (circle_radius a l0 f reg). exact (cc_turn_ends k s a l0 f reg Hk Hs g b true H0).
    - apply reaches_true. rewrite <- (circle_radius b l0 f reg). exact (cc_turn_ends k s b l0 f reg Hk Hs g a false H0).
    - apply reaches_true. eapply reaches_weaken; [exact (hc_turn_ends k s a l0 f reg Hk Hs g b true H0)|lra|lra].
    - apply reaches_true. eapply reaches_weaken; [exact (hc_turn_ends k s b l0 f reg Hk Hs g a false H0)|lra|lra].
    - apply reaches_true. eapply reaches_weaken; [exact (rs_turn_ends k a l0 f reg Hk g b true H0)|lra|lra].
    - apply reaches_true. eapply reaches_weaken; [exact (rs_turn_ends k b l0 f reg Hk g a false H0)|lra|lra].
    - eapply reaches_weaken; [apply straight_leg; assumption| |lra].
      assert (F : fresnel_error (straight_controls a b) = 0).
      { unfold fresnel_error, straight_controls; cbn [fold_right ct_sigma]. destruct (Req_EM_T 0 0); lra. }
      rewrite F. lra.
  Qed.

  Lemma fresnel_app cs1 cs2 : fresnel_error (cs1 ++ cs2) = fresnel_error cs1 + fresnel_error cs2.
  Proof.
    unfold fresnel_error. rewrite fold_right_app. induction cs1 as [|c cs IH]; cbn [fold_right]; [ring|rewrite IH; ring].
  Qed.
  Lemma fresnel_nonneg cs : 0 <= fresnel_error cs.
  Proof.
    induction cs as [|c cs IH]; cbn [fresnel_error fold_right]; [lra|]. change (fold_right _ 0 cs) with (fresnel_error cs).
    destruct (Req_EM_T _ _); [lra|]. pose proof (sqrt_pos (PI / Rabs (ct_sigma c))). nra.
  Qed.
  Lemma total_app cs1 cs2 : total_length (cs1 ++ cs2) = total_length cs1 + total_length cs2.
  Proof.
    unfold total_length. rewrite fold_right_app. induction cs1 as [|c cs IH]; cbn [fold_right]; [ring|rewrite IH; ring].
  Qed.
  Lemma total_nonneg cs : 0 <= total_length cs.
  Proof. induction cs as [|c cs IH]; cbn [total_length fold_right]; [lra|]. pose proof (Rabs_pos (ct_delta_s c)). unfold total_length in IH. lra. Qed.

  Lemma reaches_from e h a a' cs q : conf_eq a a' -> reaches e h (true_path (st_of a') cs) q -> reaches e h (true_path (st_of a) cs) q.
  Proof.
    intros E. rewrite !reaches_near, !true_path_disp. change (pst (st_of a)) with (pcf a). change (pst (st_of a')) with (pcf a').
    apply near_peq; [|apply peq_refl]. apply pmul_congr_l. apply peq_sym, E.
  Qed.

  Lemma legs_z_range ls : 0 <= legs_z ls <= INR (length ls) * epsilon.
  Proof.
    induction ls as [|l ls IH]; cbn [legs_z fold_right length]; [cbn; unfold epsilon; lra|]. pose proof (leg_z_range l).
    rewrite S_INR. unfold legs_z in IH. lra.
  Qed.

  Theorem chain_reaches ls a b ks : chain k s g ls a b ks ->
    let cs := legs_controls ls in
    reaches (INR (length ls) * (2 * g + 2 * param_slack k s) + legs_z ls * (3 / 2 * r + total_length cs) + fresnel_error cs)
      (legs_z ls) (true_path (st_of a) cs) b.
  Proof.
    pose proof slack_nonneg as SP. pose proof radius_nonneg as RP. cbv zeta. intros H. induction H as [a b E|l ls a a' ka b kb d ks E L C IH].
    - cbn [legs_controls flat_map length legs_z fold_right fresnel_error]. change (INR 0) with 0. eapply reaches_from; [exact E|].
      apply reaches_near. eapply near_weaken; [apply near_refl|lra|lra].
    - eapply reaches_from; [exact E|]. cbn [legs_controls flat_map]. fold (legs_controls ls).
      pose proof (leg_reaches _ _ _ _ _ L) as R1. pose proof (reaches_app _ _ _ _ _ _ _ _ _ R1 IH) as R2.
      pose proof (leg_z_range l) as Z1. pose proof (legs_z_range ls) as Z2.
      pose proof (total_nonneg (leg_controls l)) as T1. pose proof (total_nonneg (legs_controls ls)) as T2.
      eapply reaches_weaken; [exact R2| |cbn [legs_z fold_right]; fold (legs_z ls); lra].
      rewrite fresnel_app, total_app. cbn [length]. rewrite S_INR. cbn [legs_z fold_right]. fold (legs_z ls).
      assert (0 <= leg_z l * total_length (leg_controls l)) by (apply Rmult_le_pos; lra).
      assert (0 <= legs_z ls * total_length (leg_controls l)) by (apply Rmult_le_pos; lra). lra.
  Qed.

  Lemma leg_len l a ka b kb : leg_ok k s g l a ka b kb -> Rabs (total_length (leg_controls l) - leg_length l) <= g + r * leg_z l.
  Proof.
    pose proof radius_nonneg as RP. intros H. inversion H; subst; cbn [leg_controls leg_length leg_z].
    - pose proof (cc_turn_len_short k s a l0 f reg g b true Hk Hs H0) as G. cbv zeta in G. rewrite circle_radius in G. exact G.
    - pose proof (cc_turn_len_short k s b l0 f reg g a false Hk Hs H0) as G. cbv zeta in G. rewrite circle_radius in G. exact G.
    - rewrite hc_turn_len, Rminus_eq_0, Rabs_R0. lra.
    - rewrite hc_turn_len, Rminus_eq_0, Rabs_R0. lra.
    - rewrite rs_turn_len, Rminus_eq_0, Rabs_R0. lra.
    - rewrite rs_turn_len, Rminus_eq_0, Rabs_R0. lra.
    - rewrite straight_len, Rminus_eq_0, Rabs_R0. lra.
  Qed.

  Theorem chain_len ls a b ks : chain k s g ls a b ks ->
    Rabs (total_length (legs_controls ls) - legs_length ls) <= INR (length ls) * g + r * legs_z ls.
  Proof.
    intros H. induction H as [a b E|l ls a a' ka b kb d ks E L C IH].
    - cbn. rewrite Rminus_0_r, Rabs_R0. lra.
    - cbn [legs_controls flat_map legs_length fold_right legs_z length]. fold (legs_controls ls) (legs_length ls) (legs_z ls).
      rewrite total_app, S_INR. pose proof (leg_len _ _ _ _ _ L) as G.
      replace (total_length (leg_controls l) + total_length (legs_controls ls) - (leg_length l + legs_length ls)) with
        ((total_length (leg_controls l) - leg_length l) + (total_length (legs_controls ls) - legs_length ls)) by ring.
      eapply Rle_trans; [apply Rabs_triang|]. lra.
  Qed.

  Lemma curvature_app k0 cs1 k1 cs2 k2 : curvature_chain k0 cs1 k1 -> curvature_chain k1 cs2 k2 -> curvature_chain k0 (cs1 ++ cs2) k2.
  Proof.
    revert k0. induction cs1 as [|c cs IH]; cbn [curvature_chain app]; intros k0.
    - intros ->. auto.
    - intros (A & B) C. split; [exact A|]. apply IH; assumption.
  Qed.
  Lemma leg_curvature l a ka b kb : leg_ok k s g l a ka b kb -> curvature_chain ka (leg_controls l) kb.
  Proof.
    intros H. inversion H; subst; cbn [leg_controls].
    - apply cc_chain; assumption.
    - apply cc_chain; assumption.
    - destruct (curv_fields k s a l0 f reg) as (E & _). rewrite <- E. apply hc_chain; assumption.
    - destruct (curv_fields k s b l0 f reg) as (E & _). rewrite <- E. apply hc_chain; assumption.
    - destruct (rs_fields k a l0 f reg) as (_ & _ & _ & _ & E & _). rewrite <- E. apply rs_chain.
    - destruct (rs_fields k b l0 f reg) as (_ & _ & _ & _ & E & _). rewrite <- E. apply rs_chain.
    - apply straight_chain.
  Qed.

  (** The curvatures at the joints agree. *)
  Fixpoint joints (k0 : R) (ks : list (R * R)) (k1 : R) : Prop :=
    match ks with [] => k0 = k1 | (a, b) :: ks => a = k0 /\ joints b ks k1 end.
  Theorem chain_curvature ls a b ks k0 k1 : chain k s g ls a b ks -> joints k0 ks k1 -> curvature_chain k0 (legs_controls ls) k1.
  Proof.
    intros H. revert k0. induction H as [a b E|l ls a a' ka b kb d ks E L C IH]; intros k0; cbn [joints].
    - intros ->. reflexivity.
    - intros (-> & J). cbn [legs_controls flat_map]. eapply curvature_app; [eapply leg_curvature; exact L|]. apply IH, J.
  Qed.

  Lemma abs_sign l : Rabs (sign l * k) = k.
  Proof. destruct l; unfold sign; [rewrite Rmult_1_l|rewrite Rabs_mult, Rabs_left by lra]; rewrite ?Rabs_pos_eq; lra. Qed.

  (** [m] bounds the factor by which a tolerated gap can sharpen an elementary path. *)
  Definition leg_m (m : R) (l : Leg) : Prop :=
    match l with
    | LC c q _ => epsilon < configuration_distance (c_start c) q ->
        (1 + 1 / 10 ^ 9) * (configuration_distance (c_start c) q + g + 2 * param_slack k s) <= m * configuration_distance (c_start c) q
    | _ => True
    end.
  Lemma leg_bounds m l a ka b kb : leg_ok k s g l a ka b kb -> 1 <= m -> leg_m m l ->
    List.Forall (within_bounds (k * m) (s * m ^ 2)) (leg_controls l).
  Proof.
    intros H M. assert (M2 : 1 <= m ^ 2) by nra. assert (KM : k <= k * m) by nra. assert (SM : s <= s * m ^ 2) by nra.
    assert (FS : forall start l f reg, c_start (circle start l f reg (hc_cc_param k s)) = start).
    { intros. pose proof (circle_fields start l0 f reg (hc_cc_param k s)) as F. cbv zeta in F. destruct F as (F & _). exact F. }
    inversion H; subst; cbn [leg_controls leg_m]; intros LM.
    - rewrite FS in LM. apply (cc_bounds k s a l0 f reg Hk Hs g); assumption.
    - rewrite FS in LM. apply (cc_bounds k s b l0 f reg Hk Hs g); assumption.
    - eapply List.Forall_impl; [|apply hc_bounds; assumption]. intros ct W. eapply within_weaken; [exact W|lra|lra].
    - eapply List.Forall_impl; [|apply hc_bounds; assumption]. intros ct W. eapply within_weaken; [exact W|lra|lra].
    - eapply List.Forall_impl; [|apply rs_bounds]. intros ct W. destruct (rs_fields k a l0 f reg) as (_ & _ & _ & _ & E & _). rewrite E, abs_sign in W.
      eapply within_weaken; [exact W|lra|lra].
    - eapply List.Forall_impl; [|apply rs_bounds]. intros ct W. destruct (rs_fields k b l0 f reg) as (_ & _ & _ & _ & E & _). rewrite E, abs_sign in W.
      eapply within_weaken; [exact W|lra|lra].
    - unfold straight_controls. constructor; [|constructor]. apply wb_arc; [lra|rewrite Rabs_R0; lra].
  Qed.
  Theorem chain_bounds m ls a b ks : chain k s g ls a b ks -> 1 <= m -> List.Forall (leg_m m) ls ->
    List.Forall (within_bounds (k * m) (s * m ^ 2)) (legs_controls ls).
  Proof.
    intros H M. induction H as [a b E|l ls a a' ka b kb d ks E L C IH]; intros F; [constructor|].
    inversion F; subst. cbn [legs_controls flat_map]. apply List.Forall_app. split; [eapply leg_bounds; eassumption|auto].
  Qed.
End Legs.

(** * Paths of the shapes CSC and CCC against the candidates of the planners *)
From Coq Require Import Reals ZArith List Lra Lia Bool.
From Coquelicot Require Import Coquelicot.
From Verif Require Import Base ModelUtil ModelFresnel ModelIntegrate ModelCircle ModelPaths Num UtilProofs IntegrateProofs SpecFresnel SpecPath SpecCloth SpecTurn SpecSide SpecOpt FresPoly FresAcc FresProofs FresFinal ParamProofs PoseAlg TurnProofs MotionProofs TurnBounds LegProofs TangentProofs PlanProofs PlanTactics PlanFamily PlanSelect.
Import ListNotations.
Open Scope R_scope.

(** ** The centre of a circle is not ahead of the end of its clothoid *)
Lemma U_1_up : U 1 <= 1 - 1 / (PI * 1).
Proof.
  unfold U. replace (xx 1) with (PI / 2) by (unfold xx; field). rewrite sin_PI2. destruct (FC_upper 1 ltac:(lra)) as [A _]. apply Rabs_le_between in A. lra.
Qed.
Lemma U_up w : 1 <= w -> U w <= 1 - 1 / (PI * w).
Proof.
  intros W. pose proof PI_bounds. pose proof U_1_up.
  pose proof (nondecr (fun t => - U t - 1 / (PI * t)) (fun t => (1 - sin (xx t)) / (PI * t ^ 2)) 1 w W) as N.
  assert (Q : - U 1 - 1 / (PI * 1) <= - U w - 1 / (PI * w)).
  { apply N.
    - intros t T. evar_last. { apply @is_derive_minus; [apply @is_derive_opp; apply d_U; lra|apply d_inv; lra]. }
      unfold minus, plus, opp; cbn -[xx cos sin pow]. field. split; nra.
    - intros t T. apply quot_nonneg; [|lra]. pose proof (SIN_bound (xx t)). lra. }
  lra.
Qed.
Lemma Ul_le w : 0 < w -> Ul w <= w.
Proof.
  intros W. unfold Ul. pose proof PI_gt as PG. destruct (Rle_dec w 1) as [L|L].
  - destruct (lib_upper w ltac:(lra)) as [A _]. apply Rabs_le_between in A.
    assert (W2 : 0 <= w ^ 2 <= 1) by nra. assert (X : 0 <= xx w <= PI / 2) by (unfold xx; nra). pose proof (sin_jordan (xx w) X) as S.
    assert (w / 100 <= sin (xx w) / (PI * w)).
    { apply Rmult_le_reg_r with (PI * w); [nra|]. unfold Rdiv at 2. rewrite Rmult_assoc, Rinv_l by nra.
      replace (2 / PI * xx w) with (w ^ 2) in S by (unfold xx; field; lra). nra. }
    lra.
  - destruct (Rle_dec w 2) as [L2|L2].
    + pose proof (rel_C w ltac:(lra)) as B. pose proof (U_up w ltac:(lra)) as A. unfold U in A. apply Rabs_le_between in B.
      assert (PW : 0 < PI * w <= 8) by nra. assert (1 / 8 <= 1 / (PI * w)) by (unfold Rdiv; rewrite !Rmult_1_l; apply Rinv_le_contravar; lra). lra.
    + pose proof (U_up w ltac:(lra)) as A. destruct (accuracy w) as [B _]. unfold U in A. apply Rabs_le_between in B.
      assert (0 < 1 / (PI * w)) by (apply Rdiv_lt_0_compat; nra). lra.
Qed.
Lemma par_X_le k s : 0 < k -> 0 < s -> par_X k s <= k / s.
Proof.
  intros K S. pose proof PI_gt as PG. rewrite par_X_U by assumption. pose proof (Ul_le (par_w k s) (par_w_pos k s K S)) as U0.
  apply Rle_trans with (sqrt (PI / s) * par_w k s).
  - apply Rmult_le_compat_l; [apply sqrt_pos|exact U0].
  - unfold par_w. apply Req_le. rewrite <- Rmult_assoc, <- sqrt_mult by (apply Rlt_le, Rdiv_lt_0_compat; lra).
    replace (PI / s * (s / PI)) with 1 by (field; lra). rewrite sqrt_1. ring.
Qed.

(** ** Lengths of turns *)
Lemma ang_le a y : 0 <= a < 2 * PI -> 0 <= y -> ang_eq a y -> a <= y.
Proof.
  intros A Y [n E]. pose proof PI_gt. assert (N : (n <= 0)%Z \/ (1 <= n)%Z) by lia. destruct N as [N|N]; apply IZR_le in N; nra.
Qed.
Lemma circ_le reg m d y : 0 <= d < 2 * PI -> 0 <= y -> ang_eq d (m + y) -> Rabs (circular_deflection reg (twopify m) d) <= y.
Proof.
  intros D Y A. pose proof (circ_defl_ang true m d) as B. pose proof (twopify_range m) as TR. unfold TWO_PI in TR.
  assert (RG : 0 <= circular_deflection true (twopify m) d < 2 * PI /\ Rabs (circular_deflection reg (twopify m) d) <= circular_deflection true (twopify m) d).
  { unfold circular_deflection, TWO_PI. destruct (Rlt_dec d (twopify m)) as [LT|GE]; (split; [lra|]); destruct reg; try (apply Req_le, Rabs_pos_eq; lra);
      destruct (Rlt_dec _ _) as [L1|L1]; unfold Rabs in *; repeat destruct (Rcase_abs _); lra. }
  destruct RG as [RG LE]. eapply Rle_trans; [exact LE|]. apply ang_le; [exact RG|exact Y|].
  assert (C : ang_eq (m + circular_deflection true (twopify m) d) (m + y)) by (eapply ang_eq_trans; [exact B|exact A]).
  pose proof (ang_eq_sub _ _ _ _ C (ang_eq_refl m)) as Q. replace (m + circular_deflection true (twopify m) d - m) with (circular_deflection true (twopify m) d) in Q by ring.
  replace (m + y - m) with y in Q by ring. exact Q.
Qed.

Section Opt.
  Variables (k s : R).
  Hypothesis Hk : 0 < k.
  Hypothesis Hs : 0 < s.
  Hypothesis HE : epsilon < k / s.
  Local Notation p := (hc_cc_param k s).
  Local Notation X := (p_radius p * p_sin_mu p).
  Local Notation Y := (p_radius p * p_cos_mu p).
  Local Notation r := (p_radius p).
  Local Notation t := (par_t k s).

  Lemma XY_eq : X = par_X k s /\ Y = par_Y k s /\ 0 < X /\ 0 < Y /\ X <= k / s /\ r = hyp X Y /\ 0 < r.
  Proof.
    destruct (param_nom k s Hk Hs) as (_ & _ & _ & _ & A & B & C & _). unfold nom_X, nom_Y in *. destruct (Rlt_dec epsilon (k / s)) as [_|N]; [|contradiction].
    assert (RR : r = hyp X Y) by (rewrite C at 1; unfold hyp; rewrite A, B; reflexivity).
    pose proof (par_X_pos k s Hk Hs). pose proof (par_Y_pos k s Hk Hs). pose proof (par_X_le k s Hk Hs). rewrite A, B in *.
    repeat split; try assumption. rewrite RR. apply sqrt_lt_R0. nra.
  Qed.

  (** *** Centres along the controls *)
  Lemma frame_congr a b u v : peq a b -> frame a u v = frame b u v.
  Proof. intros (A & B & C). unfold frame. rewrite A, B, (ang_eq_cos _ _ C), (ang_eq_sin _ _ C). reflexivity. Qed.
  Lemma frame_mul a b u v : frame (pmul a b) u v = frame a (fst (frame b u v)) (snd (frame b u v)).
  Proof. unfold frame, pmul; cbn [px py pt fst snd]. rewrite cos_plus, sin_plus. f_equal; ring. Qed.
  Lemma frame_move st c D u v u' v' : peq (pst (lib_move st c)) (pmul (pst st) D) -> frame D u v = (u', v') -> frame (pst (lib_move st c)) u v = frame (pst st) u' v'.
  Proof. intros E F. rewrite (frame_congr _ _ u v E), frame_mul, F. reflexivity. Qed.

  Definition turn_rel (z1 z2 l f : bool) (a : R) (P Q : Pose) : Prop :=
    frame P (if z1 then sign f * X else 0) (sign l * if z1 then Y else 1 / k) = frame Q (if z2 then - (sign f * X) else 0) (sign l * if z2 then Y else 1 / k) /\
    ang_eq (pt Q) (pt P + sign f * sign l * ((if z1 then t else 0) + (if z2 then t else 0) + k * a)).

  Lemma L_pos' : 0 < k / s. Proof. apply Rdiv_lt_0_compat; assumption. Qed.
  Lemma s_L : s * (k / s) = k. Proof. field. lra. Qed.
  Lemma move_ang st c D : peq (pst (lib_move st c)) (pmul (pst st) D) -> ang_eq (pt (pst (lib_move st c))) (pt (pst st) + pt D).
  Proof. intros (_ & _ & A). exact A. Qed.

  Lemma step_steer st l f : let st' := lib_move st (steer k s l f) in
    frame (pst st') 0 (sign l * (1 / k)) = frame (pst st) (sign f * X) (sign l * Y) /\ ang_eq (pt (pst st')) (pt (pst st) + sign f * sign l * t).
  Proof.
    destruct (move_in st (sign f) (sign l) s (k / s) (pm1_sign f) (pm1_sign l) Hs L_pos') as [M _]. unfold steer. split.
    - eapply frame_move; [exact M|]. destruct XY_eq as (-> & -> & _). unfold frame, mir, D_in, par_X, par_Y; cbn [px py pt]. fold (par_t k s).
      destruct l, f; cbn [sign]; rewrite ?Rmult_1_l; unfold Rdiv; repeat (rewrite ?Ropp_mult_distr_l_reverse, ?Ropp_mult_distr_r_reverse, ?Ropp_involutive, ?cos_neg, ?sin_neg, ?Rmult_1_l); f_equal;
        try (replace (-1 * -1 * par_t k s) with (par_t k s) by ring); try (replace (-1 * 1 * par_t k s) with (- par_t k s) by ring); try (replace (1 * -1 * par_t k s) with (- par_t k s) by ring); try (replace (-1 * par_t k s) with (- par_t k s) by ring); rewrite ?cos_neg, ?sin_neg; ring.
    - apply move_ang in M. exact M.
  Qed.
  Lemma step_arc st l f a : let st' := lib_move st (arc k l f a) in
    frame (pst st') 0 (sign l * (1 / k)) = frame (pst st) 0 (sign l * (1 / k)) /\ ang_eq (pt (pst st')) (pt (pst st) + sign f * sign l * (k * a)).
  Proof.
    destruct (move_arc st (sign f) (sign l) k a (pm1_sign f) (pm1_sign l) Hk) as [M _]. unfold arc. split.
    - eapply frame_move; [exact M|]. unfold frame, mir, D_arc; cbn [px py pt]. rewrite (cos_pm (sign f * sign l)), (sin_pm (sign f * sign l)) by (apply pm1_mul; apply pm1_sign).
      destruct l, f; cbn [sign]; f_equal; field; lra.
    - apply move_ang in M. exact M.
  Qed.
  Lemma step_unsteer st l f : let st' := lib_move st (unsteer k s l f) in
    frame (pst st') (- (sign f * X)) (sign l * Y) = frame (pst st) 0 (sign l * (1 / k)) /\ ang_eq (pt (pst st')) (pt (pst st) + sign f * sign l * t).
  Proof.
    destruct (move_out st (sign f) (sign l) s (k / s) (pm1_sign f) (pm1_sign l) Hs L_pos') as [M _]. rewrite s_L in M. unfold unsteer. split.
    - eapply frame_move; [exact M|]. destruct XY_eq as (-> & -> & _). unfold frame, mir, D_out, par_X, par_Y; cbn [px py pt]. fold (par_t k s). rewrite (cos_pm (sign f * sign l)), (sin_pm (sign f * sign l)) by (apply pm1_mul; apply pm1_sign).
      pose proof (cos_sq (par_t k s)) as T. destruct l, f; cbn [sign]; f_equal; field [T]; lra.
    - apply move_ang in M. exact M.
  Qed.
  Lemma step_line st f d : let st' := lib_move st (line f d) in
    st_x st' = st_x st + sign f * d * cos (st_theta st) /\ st_y st' = st_y st + sign f * d * sin (st_theta st) /\ ang_eq (st_theta st') (st_theta st).
  Proof.
    destruct (move_line st (sign f * d)) as [(A & B & C) _]. cbn [pst pmul px py pt] in A, B, C. rewrite Rplus_0_r in C. intros st'. unfold st', line. rewrite A, B. repeat split; [ring|ring|exact C].
  Qed.

  Lemma ang_step a b c u v : ang_eq b (a + u) -> ang_eq c (b + v) -> ang_eq c (a + (u + v)).
  Proof. intros [n E] [m F]. exists (n + m)%Z. rewrite plus_IZR. lra. Qed.

  Lemma first_rel z l f a st : turn_rel z true l f a (pst st) (pst (lib_path st (first_turn k s z l f a))).
  Proof.
    unfold first_turn, lib_path. destruct z; cbn [app fold_left].
    - destruct (step_steer st l f) as [A1 B1]. set (st1 := lib_move st _) in *. destruct (step_arc st1 l f a) as [A2 B2]. set (st2 := lib_move st1 _) in *. destruct (step_unsteer st2 l f) as [A3 B3]. set (st3 := lib_move st2 _) in *.
      split; [congruence|]. eapply ang_eq_trans; [exact (ang_step _ _ _ _ _ (ang_step _ _ _ _ _ B1 B2) B3)|]. apply ang_eq_of_eq. ring.
    - destruct (step_arc st l f a) as [A2 B2]. set (st2 := lib_move st _) in *. destruct (step_unsteer st2 l f) as [A3 B3]. set (st3 := lib_move st2 _) in *.
      split; [congruence|]. eapply ang_eq_trans; [exact (ang_step _ _ _ _ _ B2 B3)|]. apply ang_eq_of_eq. ring.
  Qed.
  Lemma last_rel z l f a st : turn_rel true z l f a (pst st) (pst (lib_path st (last_turn k s z l f a))).
  Proof.
    unfold last_turn, lib_path. destruct z; cbn [app fold_left].
    - destruct (step_steer st l f) as [A1 B1]. set (st1 := lib_move st _) in *. destruct (step_arc st1 l f a) as [A2 B2]. set (st2 := lib_move st1 _) in *. destruct (step_unsteer st2 l f) as [A3 B3]. set (st3 := lib_move st2 _) in *.
      split; [congruence|]. eapply ang_eq_trans; [exact (ang_step _ _ _ _ _ (ang_step _ _ _ _ _ B1 B2) B3)|]. apply ang_eq_of_eq. ring.
    - destruct (step_steer st l f) as [A1 B1]. set (st1 := lib_move st _) in *. destruct (step_arc st1 l f a) as [A2 B2]. set (st2 := lib_move st1 _) in *.
      split; [congruence|]. eapply ang_eq_trans; [exact (ang_step _ _ _ _ _ B1 B2)|]. apply ang_eq_of_eq. ring.
  Qed.
  Lemma turn_rel_sym z1 z2 l f a P Q : turn_rel z1 z2 l f a P Q -> turn_rel z2 z1 l (negb f) a Q P.
  Proof.
    intros [A B]. unfold turn_rel. rewrite !sign_negb. split.
    - destruct z1, z2; rewrite ?Ropp_mult_distr_l_reverse, ?Ropp_involutive; symmetry; exact A.
    - destruct B as [n B]. exists (- n)%Z. rewrite opp_IZR. lra.
  Qed.
  Lemma turn_rel_congr z1 z2 l f a P Q P' Q' : peq P P' -> peq Q Q' -> turn_rel z1 z2 l f a P Q -> turn_rel z1 z2 l f a P' Q'.
  Proof.
    intros EP EQ [A B]. split; [rewrite <- (frame_congr _ _ _ _ EP), <- (frame_congr _ _ _ _ EQ); exact A|].
    destruct EP as (_ & _ & EP), EQ as (_ & _ & EQ). eapply ang_eq_trans; [apply ang_eq_sym, EQ|]. eapply ang_eq_trans; [exact B|]. apply ang_eq_add; [exact EP|apply ang_eq_refl].
  Qed.

  (** *** Lengths of the turns of the library *)
  Lemma sign_ang f x y : ang_eq x y -> ang_eq (sign f * x) (sign f * y).
  Proof. intros [n E]. destruct f; cbn [sign]; [exists n; lra|exists (- n)%Z; rewrite opp_IZR; lra]. Qed.
  Lemma defl_rel l f c q m : c_left c = l -> c_forward c = f -> ang_eq (q_theta q) (q_theta (c_start c) + sign f * sign l * m) -> ang_eq (deflection c q) m.
  Proof.
    intros EL EF A. rewrite defl_eq, EL, EF. eapply ang_eq_trans; [apply twopify_ang|]. rewrite Rmult_assoc.
    assert (B : ang_eq (q_theta q - q_theta (c_start c)) (sign f * sign l * m)) by (destruct A as [n E]; exists n; lra).
    apply (sign_ang l), (sign_ang f) in B. eapply ang_eq_trans; [exact B|]. apply ang_eq_of_eq. pose proof (pm1_sq _ (pm1_sign f)). pose proof (pm1_sq _ (pm1_sign l)).
    replace (sign f * (sign l * (sign f * sign l * m))) with (sign f * sign f * (sign l * sign l) * m) by ring. rewrite H, H0. ring.
  Qed.
  Lemma cc_len start l f reg q a : 0 <= a -> ang_eq (q_theta q) (q_theta start + sign f * sign l * (2 * t + k * a)) ->
    cc_turn_length (circle start l f reg p) q <= 2 * (k / s) + a.
  Proof.
    intros A H. set (c := circle start l f reg p). pose proof (circle_fields start l f reg p) as CF. cbv zeta in CF. fold c in CF. destruct CF as (ST & EL & EF & ER & RR & _ & SM & _ & DM & _). rewrite (proj1 (proj2 (proj2 (proj2 (param_nom k s Hk Hs))))) in DM.
    pose proof (abs_L k s start l f reg Hk Hs) as AL. pose proof (abs_kinv k s start l f reg Hk Hs) as AI. fold c in AL, AI.
    assert (DA : ang_eq (deflection c q) (2 * t + k * a)) by (apply (defl_rel l f); [exact EL|exact EF|rewrite ST; exact H]).
    pose proof (defl_range c q) as DR. set (dl := deflection c q) in *. destruct XY_eq as (_ & _ & XP & _ & XL & _).
    unfold cc_turn_length. fold dl.
    assert (DEF : 2 * Rabs (c_kappa c / c_sigma c) + Rabs (c_kappa_inv c * cc_circular_deflection c dl) <= 2 * (k / s) + a).
    { rewrite AL. rewrite Rabs_mult, AI. unfold cc_circular_deflection. rewrite ER, DM. pose proof (circ_le reg (2 * t) dl (k * a) DR ltac:(nra) DA) as CL.
      apply Rplus_le_compat_l. apply Rmult_le_reg_l with k; [exact Hk|]. rewrite <- Rmult_assoc. replace (k * (1 / k)) with 1 by (field; lra). lra. }
    destruct (Rlt_dec dl epsilon); [rewrite RR, SM; lra|]. destruct (Rlt_dec dl _); [|exact DEF].
    destruct (cc_elementary_sharpness c q dl); [|exact DEF]. destruct (Rlt_dec _ _); lra.
  Qed.
  Lemma hc_len start l f reg q a : 0 <= a -> ang_eq (q_theta q) (q_theta start + sign f * sign l * (t + k * a)) ->
    hc_turn_length (circle start l f reg p) q <= k / s + a.
  Proof.
    intros A H. set (c := circle start l f reg p). pose proof (circle_fields start l f reg p) as CF. cbv zeta in CF. fold c in CF. destruct CF as (ST & EL & EF & ER & RR & _ & SM & _ & DM & _). rewrite (proj1 (proj2 (proj2 (proj2 (param_nom k s Hk Hs))))) in DM.
    pose proof (abs_L k s start l f reg Hk Hs) as AL. pose proof (abs_kinv k s start l f reg Hk Hs) as AI. fold c in AL, AI.
    assert (DA : ang_eq (deflection c q) (t + k * a)) by (apply (defl_rel l f); [exact EL|exact EF|rewrite ST; exact H]).
    pose proof (defl_range c q) as DR. set (dl := deflection c q) in *.
    unfold hc_turn_length. fold dl. rewrite AL. rewrite Rabs_mult, AI. unfold hc_circular_deflection. rewrite ER, DM. pose proof (circ_le reg t dl (k * a) DR ltac:(nra) DA) as CL.
    apply Rplus_le_compat_l. apply Rmult_le_reg_l with k; [exact Hk|]. rewrite <- Rmult_assoc. replace (k * (1 / k)) with 1 by (field; lra). lra.
  Qed.
End Opt.

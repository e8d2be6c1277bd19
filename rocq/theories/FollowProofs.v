(** * The integrated path follows the exact motion along the controls *)
From Coq Require Import Reals ZArith List Bool Lra Lia.
From Coquelicot Require Import Coquelicot.
From Verif Require Import Base ModelUtil ModelFresnel ModelIntegrate ModelCircle Num UtilProofs IntegrateProofs SpecPath SpecCloth SpecTurn
  SpecFresnel FresProofs ClothProofs JacProofs DubinsOpt PoseAlg TurnProofs MotionProofs SpecFollow.
Import ListNotations.
Open Scope R_scope.

Definition disp (k sg d u : R) : Pose := mkPose (true_x 0 0 k sg d u) (true_y 0 0 k sg d u) (heading 0 k sg d u).

Lemma near_mul_l e h a D D' : near e h D D' -> near e h (pmul a D) (pmul a D').
Proof.
  intros [A [z Z]]. split.
  - unfold pmul; cbn [px py].
    replace (px a + (px D * cos (pt a) - py D * sin (pt a)) - (px a + (px D' * cos (pt a) - py D' * sin (pt a)))) with
      ((px D - px D') * cos (pt a) - (py D - py D') * sin (pt a)) by ring.
    replace (py a + (px D * sin (pt a) + py D * cos (pt a)) - (py a + (px D' * sin (pt a) + py D' * cos (pt a)))) with
      ((px D - px D') * sin (pt a) + (py D - py D') * cos (pt a)) by ring.
    rewrite hyp_rot. exact A.
  - exists z. unfold pmul; cbn [pt]. replace (pt a + pt D - (pt a + pt D') - 2 * PI * IZR z) with (pt D - pt D' - 2 * PI * IZR z) by ring. exact Z.
Qed.

(** ** Wrong curvature *)
Lemma heading_diff e k g k' g' d u : Rabs d = 1 -> Rabs (k - k') <= 2 * e -> Rabs (g - g') <= e -> 0 <= u ->
  Rabs (heading 0 k g d u - heading 0 k' g' d u) <= turn_drift e u.
Proof.
  intros D K G U. unfold heading, turn_drift.
  replace (0 + d * (k * u + g * u ^ 2 / 2) - (0 + d * (k' * u + g' * u ^ 2 / 2))) with (d * ((k - k') * u + (g - g') * (u ^ 2 / 2))) by field.
  rewrite Rabs_mult, D, Rmult_1_l. eapply Rle_trans; [apply Rabs_triang|]. rewrite !Rabs_mult.
  rewrite (Rabs_pos_eq u) by exact U. rewrite (Rabs_pos_eq (u ^ 2 / 2)) by nra. nra.
Qed.

Lemma cont_comb a b k g k' g' d u :
  continuous (fun u => (a * (d * cos (heading 0 k g d u)) + b * (d * sin (heading 0 k g d u))) +
    - (a * (d * cos (heading 0 k' g' d u)) + b * (d * sin (heading 0 k' g' d u)))) u.
Proof.
  apply (ex_derive_continuous (fun u => (a * (d * cos (heading 0 k g d u)) + b * (d * sin (heading 0 k g d u))) +
    - (a * (d * cos (heading 0 k' g' d u)) + b * (d * sin (heading 0 k' g' d u))))).
  unfold heading. auto_derive. exact I.
Qed.

Lemma drift_int e h : RInt (turn_drift e) 0 h = path_drift e h.
Proof.
  apply (int_of_primitive (path_drift e)).
  - intros u. unfold path_drift, turn_drift. auto_derive; [exact I|field].
  - intros u. apply (ex_derive_continuous (turn_drift e)). unfold turn_drift. auto_derive. exact I.
  - unfold path_drift. field.
Qed.
Lemma ex_drift e h : ex_RInt (turn_drift e) 0 h.
Proof.
  apply (ex_RInt_continuous (turn_drift e)). intros u _. apply (ex_derive_continuous (turn_drift e)). unfold turn_drift. auto_derive. exact I.
Qed.

Lemma disp_dot a b e k g k' g' d h : 0 <= h -> Rabs d = 1 -> hyp a b = 1 -> Rabs (k - k') <= 2 * e -> Rabs (g - g') <= e ->
  a * (true_x 0 0 k g d h - true_x 0 0 k' g' d h) + b * (true_y 0 0 k g d h - true_y 0 0 k' g' d h) <= path_drift e h.
Proof.
  intros H D N K G. unfold true_x, true_y. rewrite !Rplus_0_l.
  set (C := fun u => d * cos (heading 0 k g d u)). set (S := fun u => d * sin (heading 0 k g d u)).
  set (C' := fun u => d * cos (heading 0 k' g' d u)). set (S' := fun u => d * sin (heading 0 k' g' d u)).
  assert (E : a * (RInt C 0 h - RInt C' 0 h) + b * (RInt S 0 h - RInt S' 0 h) = RInt (fun u => (a * C u + b * S u) + - (a * C' u + b * S' u)) 0 h).
  { pose proof (RInt_lin C S a b h (ex_cos_h 0 k g d h) (ex_sin_h 0 k g d h)) as P.
    pose proof (RInt_lin C' S' a b h (ex_cos_h 0 k' g' d h) (ex_sin_h 0 k' g' d h)) as P'.
    assert (X : ex_RInt (fun u => a * C u + b * S u) 0 h).
    { apply (ex_RInt_continuous (fun u => a * C u + b * S u)). intros z _. apply (ex_derive_continuous (fun u => a * C u + b * S u)).
      unfold C, S, heading. auto_derive. exact I. }
    assert (X' : ex_RInt (fun u => a * C' u + b * S' u) 0 h).
    { apply (ex_RInt_continuous (fun u => a * C' u + b * S' u)). intros z _. apply (ex_derive_continuous (fun u => a * C' u + b * S' u)).
      unfold C', S', heading. auto_derive. exact I. }
    pose proof (RInt_lin (fun u => a * C u + b * S u) (fun u => a * C' u + b * S' u) 1 (-1) h X X') as Q.
    transitivity (1 * RInt (fun u => a * C u + b * S u) 0 h + -1 * RInt (fun u => a * C' u + b * S' u) 0 h); [rewrite P, P'; ring|].
    rewrite <- Q. apply RInt_ext. intros u _. match goal with |- ?a = ?b => change (@eq R a b) end. ring. }
  rewrite E, <- drift_int. apply RInt_le; [exact H| |apply ex_drift|].
  - apply (ex_RInt_continuous (fun u => (a * C u + b * S u) + - (a * C' u + b * S' u))). intros z _. apply cont_comb.
  - intros u [U _]. unfold C, S, C', S'. set (t := heading 0 k g d u). set (t' := heading 0 k' g' d u).
    pose proof (heading_diff e k g k' g' d u D K G (Rlt_le _ _ U)) as T. fold t t' in T.
    pose proof (rot_dist d 0 t t' (turn_drift e u) T) as R.
    pose proof (hyp_dot a b (d * cos t - 0 * sin t - (d * cos t' - 0 * sin t')) (d * sin t + 0 * cos t - (d * sin t' + 0 * cos t'))) as P.
    rewrite N in P. replace (hyp d 0) with 1 in R. 2: { symmetry. apply hyp_eq; [lra|]. replace (d ^ 2) with (Rabs d ^ 2) by apply pow2_abs. rewrite D. ring. }
    lra.
Qed.

Lemma disp_near e k g k' g' d h : 0 <= h -> Rabs d = 1 -> Rabs (k - k') <= 2 * e -> Rabs (g - g') <= e ->
  near (path_drift e h) (turn_drift e h) (disp k g d h) (disp k' g' d h).
Proof.
  intros H D K G. split.
  - unfold disp; cbn [px py].
    set (ix := true_x 0 0 k g d h - true_x 0 0 k' g' d h). set (iy := true_y 0 0 k g d h - true_y 0 0 k' g' d h).
    pose proof (hyp_pos ix iy) as HP. pose proof (hyp_sq ix iy) as HS.
    assert (E0 : 0 <= e) by (eapply Rle_trans; [apply Rabs_pos|exact G]).
    destruct (Req_dec (hyp ix iy) 0) as [Z|NZ].
    { rewrite Z. unfold path_drift. apply Rmult_le_pos; [exact E0|]. assert (0 <= h ^ 3) by (apply pow_le; exact H). nra. }
    assert (P : 0 < hyp ix iy) by lra.
    pose proof (disp_dot (ix / hyp ix iy) (iy / hyp ix iy) e k g k' g' d h H D) as Q.
    fold ix iy in Q. replace (ix / hyp ix iy * ix + iy / hyp ix iy * iy) with (hyp ix iy) in Q.
    + apply Q; [|exact K|exact G]. apply hyp_eq; [lra|]. transitivity ((ix ^ 2 + iy ^ 2) / hyp ix iy ^ 2); [field; lra|]. rewrite <- HS. field. lra.
    + transitivity ((ix ^ 2 + iy ^ 2) / hyp ix iy); [|field; lra]. rewrite <- HS. field. lra.
  - exists 0%Z. unfold disp; cbn [pt]. rewrite Rmult_0_r, Rminus_0_r. apply heading_diff; assumption.
Qed.

(** ** One control *)
Lemma true_disp x y th k g d u :
  mkPose (true_x x th k g d u) (true_y y th k g d u) (heading th k g d u) = pmul (mkPose x y th) (disp k g d u).
Proof.
  unfold pmul, disp; cbn [px py pt]. rewrite (true_x_turn x), (true_y_turn y). f_equal. unfold heading. field.
Qed.

Lemma true_disp' s k g d u :
  pmul (pst s) (disp k g d u) = mkPose (true_x (st_x s) (st_theta s) k g d u) (true_y (st_y s) (st_theta s) k g d u) (heading (st_theta s) k g d u).
Proof. symmetry. apply true_disp. Qed.

Lemma near_zero a b : peq a b -> near 0 0 a b.
Proof. intros H. eapply near_peq; [apply peq_refl|exact H|apply near_refl]. Qed.

Lemma ode_near c s u : exists k' g', near (lib_err c) 0 (pst (hc_ode c s u)) (pmul (pst s) (disp k' g' (sgn (ct_delta_s c)) u)) /\
  Rabs (k' - st_kappa s) <= epsilon /\ Rabs (g' - ct_sigma c) <= epsilon.
Proof.
  assert (EP : 0 < epsilon) by (unfold epsilon; lra).
  assert (LE : 0 <= lib_err c). { unfold lib_err. destruct (Req_EM_T _ _); [lra|]. apply Rmult_le_pos; [apply sqrt_pos|lra]. }
  unfold hc_ode. set (d := sgn (ct_delta_s c)). destruct (Rlt_dec epsilon (Rabs (ct_sigma c))) as [G|G].
  - exists (st_kappa s), (ct_sigma c). split; [|rewrite !Rminus_eq_0, !Rabs_R0; split; lra].
    assert (NZ : ct_sigma c <> 0) by (intros Z; rewrite Z, Rabs_R0 in G; lra).
    destruct (end_of_clothoid _ _ _ _ _ _ _) as [[[x y] th] kk] eqn:E.
    destruct (clothoid_ode _ _ _ _ _ _ _ _ _ _ _ NZ (sgn_cases _) E) as (A & B & [n C] & _).
    rewrite true_disp'. unfold pst, near, lib_err; cbn [st_x st_y st_theta px py pt]. destruct (Req_EM_T (ct_sigma c) 0) as [Z|_]; [contradiction|]. split.
    + apply hyp_box; [exact A|exact B|apply sqrt_pos].
    + exists n. rewrite C. unfold d in *. match goal with |- Rabs ?a <= 0 => replace a with 0 by ring end. rewrite Rabs_R0. lra.
  - destruct (Rlt_dec epsilon (Rabs (st_kappa s))) as [K|K].
    + exists (st_kappa s), 0. split; [|split; [rewrite Rminus_eq_0, Rabs_R0; lra|rewrite Rminus_0_l, Rabs_Ropp; lra]].
      assert (NZ : st_kappa s <> 0) by (intros Z; rewrite Z, Rabs_R0 in K; lra).
      eapply near_weaken; [apply near_zero|exact LE|lra]. rewrite true_disp'.
      pose proof (true_x_arc (st_x s) (st_theta s) (st_kappa s) d u NZ) as A.
      pose proof (true_y_arc (st_y s) (st_theta s) (st_kappa s) d u NZ) as B.
      unfold end_of_circular_arc, pst, peq; cbn [st_x st_y st_theta px py pt]. repeat split.
      * apply (Rplus_eq_reg_r (- st_x s)). symmetry. etransitivity; [exact A|]. field. exact NZ.
      * apply (Rplus_eq_reg_r (- st_y s)). symmetry. etransitivity; [exact B|]. field. exact NZ.
      * replace (heading (st_theta s) (st_kappa s) 0 d u) with (st_theta s + st_kappa s * d * u) by (unfold heading; field).
        apply pify_ang.
    + exists 0, 0. split; [|split; [rewrite Rminus_0_l, Rabs_Ropp; lra|rewrite Rminus_0_l, Rabs_Ropp; lra]].
      eapply near_weaken; [apply near_zero|exact LE|lra]. rewrite true_disp'.
      pose proof (const_prim_x (st_x s) (st_theta s) d u) as A. pose proof (const_prim_y (st_y s) (st_theta s) d u) as B.
      unfold end_of_straight_line, pst, peq; cbn [st_x st_y st_theta px py pt]. repeat split; [lra|lra|].
      replace (heading (st_theta s) 0 0 d u) with (st_theta s) by (unfold heading; field). apply ang_eq_refl.
Qed.

Lemma enter_kappa c s : Rabs (st_kappa (hc_enter' c s) - ct_kappa c) <= epsilon.
Proof.
  unfold hc_enter', hc_enter. destruct (Rlt_dec _ _) as [L|L]; cbn [rs_enter st_kappa].
  - rewrite Rminus_eq_0, Rabs_R0. unfold epsilon; lra.
  - rewrite Rabs_minus_sym. lra.
Qed.
Lemma enter_pose c s : pst (hc_enter' c s) = pst s.
Proof. unfold hc_enter', hc_enter. destruct (Rlt_dec _ _); reflexivity. Qed.

Lemma part_disp c u : 0 <= u -> tdisp (part c u) = disp (ct_kappa c) (ct_sigma c) (sgn (ct_delta_s c)) u.
Proof.
  intros U. unfold tdisp, part, true_move, pst, disp; cbn [st_x st_y st_theta ct_delta_s ct_kappa ct_sigma].
  set (d := sgn (ct_delta_s c)).
  assert (A : Rabs (d * u) = u) by (rewrite Rabs_mult; unfold d; rewrite sgn_abs1, Rabs_pos_eq by exact U; ring).
  rewrite A. destruct (Req_dec u 0) as [->|NZ].
  - unfold true_x, true_y, heading. rewrite !RInt_point. f_equal. field.
  - assert (S : sgn (d * u) = d). { unfold d. destruct (sgn_cases (ct_delta_s c)) as [->| ->]; unfold sgn; destruct (Rlt_dec _ _); lra. }
    rewrite S. reflexivity.
Qed.

Lemma disp_len k g d u : 0 <= u -> Rabs d = 1 -> hyp (px (disp k g d u)) (py (disp k g d u)) <= u.
Proof.
  intros U D. set (c := mkControl (d * u) k g).
  assert (A : Rabs (d * u) = u) by (rewrite Rabs_mult, D, Rabs_pos_eq by exact U; ring).
  destruct (Req_dec u 0) as [->|NZ].
  - unfold disp, true_x, true_y; cbn [px py]. rewrite !RInt_point. unfold zero; cbn. apply hyp_le; [lra|]. match goal with |- ?a <= ?b => change (Rle a b) end. right. ring.
  - pose proof (tdisp_len c) as T. unfold tdisp, true_move, pst, c in T; cbn [px py st_x st_y st_theta ct_delta_s ct_kappa ct_sigma] in T.
    rewrite A in T. assert (S : sgn (d * u) = d).
    { assert (d = 1 \/ d = -1) as [->| ->] by (unfold Rabs in D; destruct (Rcase_abs d); lra); unfold sgn; destruct (Rlt_dec _ _); lra. }
    rewrite S in T. exact T.
Qed.

Lemma drift_step e a u F l : 0 <= e -> 0 <= a -> 0 <= u ->
  path_drift e a + F + turn_drift e a * u + (l + path_drift e u) <= path_drift e (a + u) + (F + l) /\ turn_drift e a + turn_drift e u <= turn_drift e (a + u).
Proof.
  intros E A U. unfold path_drift, turn_drift.
  assert (Q : 0 <= e * (a * u)) by (apply Rmult_le_pos; nra). assert (Q2 : 0 <= e * (a * u ^ 2)) by (apply Rmult_le_pos; nra). split; nra.
Qed.

(** Control [c] driven for [u] metres from states that are near each other. *)
Lemma step_near c s q u a F : 0 <= u -> 0 <= a ->
  near (path_drift epsilon a + F) (turn_drift epsilon a) (pst s) (pst q) ->
  near (path_drift epsilon (a + u) + (F + lib_err c)) (turn_drift epsilon (a + u)) (pst (hc_ode c (hc_enter' c s) u)) (pst (true_path q [part c u])).
Proof.
  intros U A N. assert (E0 : 0 <= epsilon) by (unfold epsilon; lra). set (d := sgn (ct_delta_s c)).
  assert (D : Rabs d = 1) by apply sgn_abs1.
  destruct (ode_near c (hc_enter' c s) u) as (k' & g' & B & K & G). rewrite enter_pose in B. fold d in B.
  assert (K2 : Rabs (k' - ct_kappa c) <= 2 * epsilon).
  { replace (k' - ct_kappa c) with ((k' - st_kappa (hc_enter' c s)) + (st_kappa (hc_enter' c s) - ct_kappa c)) by ring.
    eapply Rle_trans; [apply Rabs_triang|]. pose proof (enter_kappa c s). lra. }
  pose proof (near_mul_l _ _ (pst s) _ _ (disp_near epsilon k' g' (ct_kappa c) (ct_sigma c) d u U D K2 G)) as M.
  pose proof (near_mul _ _ _ _ (disp (ct_kappa c) (ct_sigma c) d u) N) as M2.
  pose proof (near_trans _ _ _ _ _ _ _ (near_trans _ _ _ _ _ _ _ B M) M2) as T.
  cbn [true_path fold_left]. rewrite true_move_disp, part_disp by exact U. fold d.
  pose proof (drift_step epsilon a u F (lib_err c) E0 A U) as [S1 S2].
  eapply near_weaken; [exact T| |lra].
  pose proof (disp_len (ct_kappa c) (ct_sigma c) d u U D) as L.
  pose proof (near_h_nonneg _ _ _ _ N) as H0.
  assert (turn_drift epsilon a * hyp (px (disp (ct_kappa c) (ct_sigma c) d u)) (py (disp (ct_kappa c) (ct_sigma c) d u)) <= turn_drift epsilon a * u) by (apply Rmult_le_compat_l; assumption).
  lra.
Qed.

Lemma part_all c : part c (Rabs (ct_delta_s c)) = c.
Proof. unfold part. rewrite sgn_mul_abs. destruct c; reflexivity. Qed.

Lemma total_nonneg' cs : 0 <= total_length cs.
Proof. induction cs as [|c cs IH]; cbn [total_length fold_right]; [lra|]. pose proof (Rabs_pos (ct_delta_s c)). unfold total_length in IH. lra. Qed.
Lemma total_snoc cs c : total_length (cs ++ [c]) = total_length cs + Rabs (ct_delta_s c).
Proof. induction cs as [|x cs IH]; cbn [app total_length fold_right]; [ring|]. unfold total_length in IH. rewrite IH. ring. Qed.
Lemma fresnel_snoc cs c : fresnel_error (cs ++ [c]) = fresnel_error cs + lib_err c.
Proof. induction cs as [|x cs IH]; cbn [app fresnel_error fold_right]; [unfold lib_err; ring|]. unfold fresnel_error in IH. rewrite IH. ring. Qed.

Lemma after_near cs s q : pst s = pst q ->
  near (path_drift epsilon (total_length cs) + fresnel_error cs) (turn_drift epsilon (total_length cs)) (pst (state_after hc_enter' hc_ode s cs)) (pst (true_path q cs)).
Proof.
  intros E. induction cs as [|c cs IH] using rev_ind.
  - cbn [total_length fresnel_error fold_right state_after fold_left true_path]. rewrite E.
    eapply near_weaken; [apply near_refl| |]; unfold path_drift, turn_drift; lra.
  - unfold state_after. rewrite fold_left_app. fold (state_after hc_enter' hc_ode s cs). cbn [fold_left].
    rewrite true_path_app, total_snoc, fresnel_snoc.
    pose proof (step_near c _ _ (Rabs (ct_delta_s c)) _ _ (Rabs_pos _) (total_nonneg' cs) IH) as S. rewrite part_all in S. exact S.
Qed.

Lemma fresnel_nonneg' cs : 0 <= fresnel_error cs.
Proof.
  induction cs as [|c cs IH] using rev_ind; [cbn; lra|]. rewrite fresnel_snoc. unfold lib_err.
  destruct (Req_EM_T _ _); [lra|]. pose proof (sqrt_pos (PI / Rabs (ct_sigma c))). nra.
Qed.
Lemma fresnel_app' a b : fresnel_error (a ++ b) = fresnel_error a + fresnel_error b.
Proof.
  induction a as [|c a IH]; [change (fresnel_error [] ) with 0; cbn [app]; ring|].
  change (lib_err c + fresnel_error (a ++ b) = lib_err c + fresnel_error a + fresnel_error b). rewrite IH. ring.
Qed.

Lemma fresnel_prefix cs n c : nth_error cs n = Some c -> fresnel_error (firstn n cs) + lib_err c <= fresnel_error cs.
Proof.
  intros E. pose proof (fresnel_app' (firstn (S n) cs) (skipn (S n) cs)) as A. rewrite firstn_skipn in A.
  assert (F : firstn (S n) cs = firstn n cs ++ [c]).
  { clear -E. revert cs E. induction n as [|n IH]; intros [|x cs] E; cbn in E; try discriminate; [injection E as ->; reflexivity|].
    cbn [firstn app]. rewrite <- (IH cs E). reflexivity. }
  rewrite F, fresnel_snoc in A. pose proof (fresnel_nonneg' (skipn (S n) cs)). lra.
Qed.

(** ** Sampled states *)
Lemma sim_near e h a a' b : st_sim a a' -> near e h (pst a') b -> near e h (pst a) b.
Proof.
  intros (A & B & C & _) N. eapply near_peq; [|apply peq_refl|exact N]. repeat split; cbn [pst px py pt]; [auto|auto|apply ang_eq_sym; exact C].
Qed.
Lemma on_path_near s q0 cs a q : pst s = pst q0 -> on_path hc_enter' hc_ode s cs a q ->
  exists q', true_at q0 cs a q' /\ near (path_drift epsilon a + fresnel_error cs) (turn_drift epsilon a) (pst q) (pst q').
Proof.
  intros E (n & c & u & N & [U0 U1] & A & S). exists (true_path q0 (firstn n cs ++ [part c u])). split.
  - exists n, c, u. auto.
  - pose proof (step_near c _ _ u _ _ U0 (total_nonneg' _) (after_near (firstn n cs) s q0 E)) as P.
    rewrite <- A in P. rewrite true_path_app. eapply sim_near; [exact S|]. eapply near_weaken; [exact P| |lra].
    pose proof (fresnel_prefix cs n c N). lra.
Qed.

Lemma integrate_follows disc state c cs path : 0 < disc -> hc_integrate disc state (c :: cs) = Some path ->
  exists ss, length ss = length path /\ nth_error ss 0 = Some 0 /\ last ss 0 = total_length (c :: cs) /\
    (forall i a b, nth_error ss i = Some a -> nth_error ss (S i) = Some b -> 0 <= b - a <= disc) /\
    forall i q a, nth_error path i = Some q -> nth_error ss i = Some a -> exists q', true_at state (c :: cs) a q' /\
      pos_dist q q' <= path_drift epsilon a + fresnel_error (c :: cs) /\ heading_within (turn_drift epsilon a) q q'.
Proof.
  intros D E. destruct (hc_integrate_spec disc state (c :: cs) path D E) as [[ss (L & Z & T & ST & _ & P)] _].
  exists ss. repeat (split; [assumption|]). intros i q a Q A.
  exact (on_path_near (rs_enter c state) state (c :: cs) a q eq_refl (P i q a Q A)).
Qed.

Lemma integrate_ends disc state c cs path : 0 < disc -> hc_integrate disc state (c :: cs) = Some path ->
  exists q, nth_error path (length path - 1) = Some q /\
    near (path_drift epsilon (total_length (c :: cs)) + fresnel_error (c :: cs)) (turn_drift epsilon (total_length (c :: cs))) (pst q) (pst (true_path state (c :: cs))).
Proof.
  intros D E. destruct (hc_integrate_spec disc state (c :: cs) path D E) as [_ [_ [q [Q S]]]].
  exists q. split; [exact Q|]. eapply sim_near; [exact S|]. apply after_near. reflexivity.
Qed.

Lemma interpolate_follows disc state c cs t u : 0 < disc -> 0 < t < 1 -> 0 < total_length (c :: cs) -> hc_interpolate disc state (c :: cs) t = Some u ->
  exists q q', u = ustate q /\ let a := t * total_length (c :: cs) in true_at state (c :: cs) a q' /\
    pos_dist q q' <= path_drift epsilon a + fresnel_error (c :: cs) /\ heading_within (turn_drift epsilon a) q q'.
Proof.
  intros D [T0 T1] L E. destruct (hc_interpolate_spec disc state c cs t u D E) as (q & U & _ & I).
  destruct (I T0) as [_ I2].
  destruct (on_path_near (rs_enter c state) state (c :: cs) _ q eq_refl (I2 T1 L)) as (q' & A & B).
  exists q, q'. split; [exact U|]. exact (conj A B).
Qed.

(** * Accuracy of the Fresnel approximation: result *)
From Coq Require Import Reals ZArith List Bool Lra Lia Psatz.
From Coquelicot Require Import Coquelicot.
From Verif Require Import Base ModelUtil FresnelData ModelFresnel SpecFresnel FresPoly FresCert FresAcc FresProofs UtilProofs.
Import ListNotations.
Open Scope R_scope.

Lemma zr_range : forall s, 0 < s -> 8 <= xx s -> -1 <= zr s <= 1.
Proof.
  intros s Hs Hx. unfold zr. assert (P : 64 <= xx s ^ 2) by nra.
  assert (0 < / xx s ^ 2) by (apply Rinv_0_lt_compat; lra).
  assert (xx s ^ 2 * / xx s ^ 2 = 1) by (apply Rinv_r; lra). unfold Rdiv. nra.
Qed.

Lemma abs_div_le : forall a b c, 0 < c -> Rabs a <= b -> Rabs (a / c) <= b / c.
Proof.
  intros a b c C H. unfold Rdiv. rewrite Rabs_mult, (Rabs_pos_eq (/ c)) by (left; apply Rinv_0_lt_compat; lra).
  apply Rmult_le_compat_r; [left; apply Rinv_0_lt_compat; lra|exact H].
Qed.

Lemma r1_small : forall s, 0 < s -> 8 <= xx s -> Rabs (r1 s) <= 1 / 10 ^ 18.
Proof.
  intros s Hs Hx. pose proof (R1_bound _ (zr_range s Hs Hx)) as B. unfold r1.
  eapply Rle_trans; [apply abs_div_le; [unfold Dr; lra|exact B]|]. unfold bound1, Dr. lra.
Qed.
Lemma r2_small : forall s, 0 < s -> 8 <= xx s -> Rabs (r2 s) <= 1 / 10 ^ 17.
Proof.
  intros s Hs Hx. pose proof (R2_bound _ (zr_range s Hs Hx)) as B. unfold r2. rewrite Rabs_mult.
  assert (Y : 0 <= 8 / xx s <= 1).
  { split; [apply Rmult_le_pos; [lra|left; apply Rinv_0_lt_compat; lra]|].
    apply Rmult_le_reg_r with (xx s); [lra|]. unfold Rdiv. rewrite Rmult_assoc, Rinv_l by lra. lra. }
  rewrite Rabs_pos_eq by lra.
  assert (Q : Rabs (peval R2 (zr s) / (16 * Dr)) <= 1 / 10 ^ 17).
  { eapply Rle_trans; [apply abs_div_le; [unfold Dr; lra|exact B]|]. unfold bound2, Dr. lra. }
  pose proof (Rabs_pos (peval R2 (zr s) / (16 * Dr))). nra.
Qed.

(** 256/x^3 <= 8/(pi s^2). *)
Lemma cube_le : forall s, 0 < s -> 8 <= xx s -> 256 / xx s ^ 3 <= 8 / (PI * s ^ 2).
Proof.
  intros s Hs Hx. pose proof PI_gt.
  assert (E : PI * s ^ 2 = 2 * xx s) by (unfold xx; field). rewrite E.
  assert (P : 64 <= xx s ^ 2) by nra.
  replace (8 / (2 * xx s)) with (4 * xx s ^ 2 / xx s ^ 3) by (field; lra).
  unfold Rdiv. apply Rmult_le_compat_r; [left; apply Rinv_0_lt_compat; nra|]. lra.
Qed.

Lemma q1_small : forall s, 0 < s -> 8 <= xx s -> Rabs (q1 s) <= (2 / 10 ^ 15) / (PI * s ^ 2).
Proof.
  intros s Hs Hx. pose proof PI_gt. pose proof (R1d_bound _ (zr_range s Hs Hx)) as B.
  pose proof (r1_small s Hs Hx) as R. pose proof (cube_le s Hs Hx) as C.
  assert (W : 0 < PI * s ^ 2) by nra. assert (X3 : 0 < xx s ^ 3) by (apply pow_lt; lra).
  unfold q1. eapply Rle_trans; [apply Rabs_triang|]. rewrite Rabs_Ropp, Rabs_mult.
  assert (B1 : Rabs (peval (pder R1) (zr s) / (512 * Dr)) <= 14 / 10 ^ 17).
  { eapply Rle_trans; [apply abs_div_le; [unfold Dr; lra|exact B]|]. unfold bound1d, Dr. lra. }
  assert (B2 : Rabs (- 256 / xx s ^ 3) <= 8 / (PI * s ^ 2)).
  { replace (- 256 / xx s ^ 3) with (- (256 / xx s ^ 3)) by (field; lra). rewrite Rabs_Ropp, Rabs_pos_eq; [exact C|].
    apply Rmult_le_pos; [lra|left; apply Rinv_0_lt_compat; lra]. }
  assert (B3 : Rabs (r1 s / (PI * s ^ 2)) <= 1 / 10 ^ 18 / (PI * s ^ 2)) by (apply abs_div_le; auto).
  assert (B4 : Rabs (peval (pder R1) (zr s) / (512 * Dr)) * Rabs (- 256 / xx s ^ 3) <= 14 / 10 ^ 17 * (8 / (PI * s ^ 2))).
  { apply Rmult_le_compat; try apply Rabs_pos; auto. }
  assert (I : 0 < / (PI * s ^ 2)) by (apply Rinv_0_lt_compat; lra).
  unfold Rdiv in *. set (v := / (PI * s ^ 2)) in *. lra.
Qed.

Lemma q2_small : forall s, 0 < s -> 8 <= xx s -> Rabs (q2 s) <= (5 / 10 ^ 15) / (PI * s ^ 2).
Proof.
  intros s Hs Hx. pose proof PI_gt. pose proof (R2d_bound _ (zr_range s Hs Hx)) as B.
  pose proof (r2_small s Hs Hx) as R. pose proof (cube_le s Hs Hx) as C.
  assert (W : 0 < PI * s ^ 2) by nra. assert (X3 : 0 < xx s ^ 3) by (apply pow_lt; lra).
  assert (Y : 0 <= 8 / xx s <= 1).
  { split; [apply Rmult_le_pos; [lra|left; apply Rinv_0_lt_compat; lra]|].
    apply Rmult_le_reg_r with (xx s); [lra|]. unfold Rdiv. rewrite Rmult_assoc, Rinv_l by lra. lra. }
  unfold q2. eapply Rle_trans; [apply Rabs_triang|]. rewrite Rabs_Ropp, Rabs_mult.
  assert (B1 : Rabs (8 / xx s * (peval (pder R2) (zr s) / (16 * Dr))) <= 50 / 10 ^ 17).
  { rewrite Rabs_mult, (Rabs_pos_eq (8 / xx s)) by lra.
    assert (Rabs (peval (pder R2) (zr s) / (16 * Dr)) <= 50 / 10 ^ 17).
    { eapply Rle_trans; [apply abs_div_le; [unfold Dr; lra|exact B]|]. unfold bound2d, Dr. lra. }
    pose proof (Rabs_pos (peval (pder R2) (zr s) / (16 * Dr))). nra. }
  assert (B2 : Rabs (- 256 / xx s ^ 3) <= 8 / (PI * s ^ 2)).
  { replace (- 256 / xx s ^ 3) with (- (256 / xx s ^ 3)) by (field; lra). rewrite Rabs_Ropp, Rabs_pos_eq; [exact C|].
    apply Rmult_le_pos; [lra|left; apply Rinv_0_lt_compat; lra]. }
  assert (B3 : Rabs (3 * r2 s / (PI * s ^ 2)) <= 3 / 10 ^ 17 / (PI * s ^ 2)).
  { apply abs_div_le; auto. rewrite Rabs_mult, Rabs_pos_eq by lra. lra. }
  assert (B4 : Rabs (8 / xx s * (peval (pder R2) (zr s) / (16 * Dr))) * Rabs (- 256 / xx s ^ 3) <= 50 / 10 ^ 17 * (8 / (PI * s ^ 2))).
  { apply Rmult_le_compat; try apply Rabs_pos; auto. }
  assert (I : 0 < / (PI * s ^ 2)) by (apply Rinv_0_lt_compat; lra).
  unfold Rdiv in *. set (v := / (PI * s ^ 2)) in *. lra.
Qed.

(** The border x = 8. *)
Definition s8 : R := 4 / sqrt PI.
Lemma s8_pos : 2 < s8 < 23 / 10.
Proof.
  pose proof sqrt_PI_bounds as [A B]. unfold s8. split.
  - apply Rmult_lt_reg_r with (sqrt PI); [lra|]. unfold Rdiv. rewrite Rmult_assoc, Rinv_l by lra. lra.
  - apply Rmult_lt_reg_r with (sqrt PI); [lra|]. unfold Rdiv. rewrite Rmult_assoc, Rinv_l by lra. lra.
Qed.
Lemma xx_s8 : xx s8 = 8.
Proof.
  pose proof PI_gt. unfold xx, s8. assert (sqrt PI <> 0) by (apply Rgt_not_eq, sqrt_lt_R0; lra).
  replace (PI / 2 * (4 / sqrt PI) ^ 2) with (8 * PI / (sqrt PI * sqrt PI)) by (field; auto).
  rewrite sqrt_sqrt by lra. field. lra.
Qed.
Lemma PI_s8 : PI * s8 = 4 * sqrt PI.
Proof.
  pose proof PI_gt. unfold s8. assert (sqrt PI <> 0) by (apply Rgt_not_eq, sqrt_lt_R0; lra).
  rewrite <- (sqrt_sqrt PI) at 1 by lra. field. auto.
Qed.

Lemma peval_1 : forall p, peval p 1 = IZR (fold_right Z.add 0%Z p).
Proof. induction p as [|a p IH]; [reflexivity|]. cbn [peval fold_right]. rewrite IH, plus_IZR. ring. Qed.

Lemma jump_C : Rabs (cr s8 - cl s8) <= 1 / 10 ^ 18.
Proof.
  pose proof s8_pos. pose proof sqrt_PI_bounds as [A B]. pose proof cos8. pose proof sin8.
  unfold cr, cl. rewrite PI_s8. unfold zr, zl. rewrite xx_s8.
  replace (128 / 8 ^ 2 - 1) with 1 by field. replace (8 ^ 2 / 32 - 1) with 1 by field.
  rewrite !peval_1.
  set (e := fold_right Z.add 0%Z pE). vm_compute in e. set (f := fold_right Z.add 0%Z pF). vm_compute in f.
  set (a := fold_right Z.add 0%Z pA). vm_compute in a. subst e f a. unfold s8, Dr.
  match goal with |- Rabs (1 / 2 - (?u * cos 8 / (2 * 8) - ?v * sin 8) / (4 * sqrt PI) - 4 / sqrt PI / 2 * ?w) <= _ =>
    replace (1 / 2 - (u * cos 8 / (2 * 8) - v * sin 8) / (4 * sqrt PI) - 4 / sqrt PI / 2 * w)
    with ((sqrt PI / 2 - (u * cos 8 / 16 - v * sin 8) / 4 - 2 * w) / sqrt PI) by (field; lra) end.
  eapply Rle_trans; [apply (abs_div_le _ (1 / 10 ^ 18)); [lra|apply Rabs_le; lra]|].
  apply Rmult_le_reg_r with (sqrt PI); [lra|]. unfold Rdiv at 1. rewrite Rmult_assoc, Rinv_l by lra. lra.
Qed.

Lemma jump_S : Rabs (sr s8 - sl s8) <= 1 / 10 ^ 18.
Proof.
  pose proof s8_pos. pose proof sqrt_PI_bounds as [A B]. pose proof cos8. pose proof sin8.
  unfold sr, sl. rewrite PI_s8. unfold zr, zl. rewrite xx_s8.
  replace (128 / 8 ^ 2 - 1) with 1 by field. replace (8 ^ 2 / 32 - 1) with 1 by field.
  rewrite !peval_1.
  set (e := fold_right Z.add 0%Z pE). vm_compute in e. set (f := fold_right Z.add 0%Z pF). vm_compute in f.
  set (a := fold_right Z.add 0%Z pW). vm_compute in a. subst e f a. unfold s8, Dr.
  match goal with |- Rabs (1 / 2 - (?u * sin 8 / (2 * 8) + ?v * cos 8) / (4 * sqrt PI) - 4 / sqrt PI / 2 * (8 / 8 * ?w)) <= _ =>
    replace (1 / 2 - (u * sin 8 / (2 * 8) + v * cos 8) / (4 * sqrt PI) - 4 / sqrt PI / 2 * (8 / 8 * w))
    with ((sqrt PI / 2 - (u * sin 8 / 16 + v * cos 8) / 4 - 2 * w) / sqrt PI) by (field; lra) end.
  eapply Rle_trans; [apply (abs_div_le _ (1 / 10 ^ 18)); [lra|apply Rabs_le; lra]|].
  apply Rmult_le_reg_r with (sqrt PI); [lra|]. unfold Rdiv at 1. rewrite Rmult_assoc, Rinv_l by lra. lra.
Qed.

Lemma corr_small : forall s a b, s8 <= s -> Rabs a <= 1 / 10 ^ 18 -> Rabs b <= 1 / 10 ^ 17 ->
  forall u v, Rabs u <= 1 -> Rabs v <= 1 -> Rabs ((a * u + b * v) / (PI * s)) <= 1 / 10 ^ 17.
Proof.
  intros s a b Hs Ha Hb u v Hu Hv. pose proof s8_pos. pose proof PI_gt.
  assert (P : 2 <= PI * s) by nra.
  assert (Q : Rabs (a * u + b * v) <= 11 / 10 ^ 18).
  { eapply Rle_trans; [apply Rabs_triang|]. rewrite !Rabs_mult.
    pose proof (Rabs_pos a). pose proof (Rabs_pos b). pose proof (Rabs_pos u). pose proof (Rabs_pos v). nra. }
  eapply Rle_trans; [apply abs_div_le; [lra|exact Q]|].
  apply Rmult_le_reg_r with (PI * s); [lra|]. unfold Rdiv. rewrite Rmult_assoc, Rinv_l by lra. lra.
Qed.

Lemma abs_cos : forall x, Rabs (cos x) <= 1.
Proof. intros. apply Rabs_le. apply COS_bound. Qed.
Lemma abs_sin : forall x, Rabs (sin x) <= 1.
Proof. intros. apply Rabs_le. apply SIN_bound. Qed.

Lemma right_growth : forall (g dg : R -> R) s, s8 <= s ->
  (forall t, s8 <= t <= s -> is_derive g t (dg t)) ->
  (forall t, s8 <= t <= s -> Rabs (dg t) <= (7 / 10 ^ 15) / (PI * t ^ 2)) ->
  Rabs (g s - g s8) <= 117 / 10 ^ 17.
Proof.
  intros g dg s Hs D B. pose proof s8_pos. pose proof PI_gt.
  pose proof (growth g (fun t => - (7 / 10 ^ 15 / PI) / t) dg (fun t => 7 / 10 ^ 15 / (PI * t ^ 2)) s8 s Hs D) as G.
  eapply Rle_trans; [apply G|].
  - intros t Ht. auto_derive; [lra|]. field. lra.
  - intros t Ht. apply B. exact Ht.
  - assert (I1 : / s8 <= 1 / 2) by (unfold Rdiv; rewrite Rmult_1_l; apply Rinv_le_contravar; lra).
    assert (I2 : 0 < / s) by (apply Rinv_0_lt_compat; lra).
    assert (I4 : 0 < / s8) by (apply Rinv_0_lt_compat; lra).
    assert (I3 : / PI <= / 3) by (apply Rinv_le_contravar; lra).
    assert (I5 : 0 < / PI) by (apply Rinv_0_lt_compat; lra).
    unfold Rdiv. nra.
Qed.

Lemma s8_ge : forall s, s8 <= s -> 8 <= xx s.
Proof. intros s Hs. pose proof s8_pos. rewrite <- xx_s8. apply xx_le. lra. Qed.

Lemma right_C : forall s, s8 <= s -> Rabs (cr s - FresnelC s) <= 2 / 10 ^ 15.
Proof.
  intros s Hs. pose proof s8_pos.
  assert (G : Rabs (gc s - gc s8) <= 117 / 10 ^ 17).
  { apply (right_growth gc (fun t => q1 t * sin (xx t) + q2 t * cos (xx t)) s Hs).
    - intros t Ht. apply is_derive_gc. lra.
    - intros t Ht. pose proof PI_gt.
      pose proof (q1_small t ltac:(lra) (s8_ge t (proj1 Ht))) as Q1. pose proof (q2_small t ltac:(lra) (s8_ge t (proj1 Ht))) as Q2.
      eapply Rle_trans; [apply Rabs_triang|]. rewrite !Rabs_mult.
      pose proof (abs_cos (xx t)). pose proof (abs_sin (xx t)). pose proof (Rabs_pos (q1 t)). pose proof (Rabs_pos (q2 t)).
      unfold Rdiv in *. nra. }
  assert (J : Rabs (cl s8 - FresnelC s8) <= s8 / 10 ^ 17) by (apply left_C; [lra|rewrite xx_s8; lra]).
  pose proof jump_C as JC.
  pose proof (corr_small s _ _ Hs (r1_small s ltac:(lra) (s8_ge s Hs)) (r2_small s ltac:(lra) (s8_ge s Hs)) _ _ (abs_sin (xx s)) (abs_cos (xx s))) as K1.
  pose proof (corr_small s8 _ _ (Rle_refl _) (r1_small s8 ltac:(lra) (s8_ge s8 (Rle_refl _))) (r2_small s8 ltac:(lra) (s8_ge s8 (Rle_refl _))) _ _ (abs_sin (xx s8)) (abs_cos (xx s8))) as K2.
  unfold gc in G. revert G K1 K2.
  set (k1 := (r1 s * sin (xx s) + r2 s * cos (xx s)) / (PI * s)). set (k2 := (r1 s8 * sin (xx s8) + r2 s8 * cos (xx s8)) / (PI * s8)).
  intros G K1 K2. apply Rabs_le_between in G, J, JC, K1, K2. apply Rabs_le. lra.
Qed.

Lemma right_S : forall s, s8 <= s -> Rabs (sr s - FresnelS s) <= 2 / 10 ^ 15.
Proof.
  intros s Hs. pose proof s8_pos.
  assert (G : Rabs (gs s - gs s8) <= 117 / 10 ^ 17).
  { apply (right_growth gs (fun t => - q1 t * cos (xx t) + q2 t * sin (xx t)) s Hs).
    - intros t Ht. apply is_derive_gs. lra.
    - intros t Ht. pose proof PI_gt.
      pose proof (q1_small t ltac:(lra) (s8_ge t (proj1 Ht))) as Q1. pose proof (q2_small t ltac:(lra) (s8_ge t (proj1 Ht))) as Q2.
      eapply Rle_trans; [apply Rabs_triang|]. rewrite !Rabs_mult, Rabs_Ropp.
      pose proof (abs_cos (xx t)). pose proof (abs_sin (xx t)). pose proof (Rabs_pos (q1 t)). pose proof (Rabs_pos (q2 t)).
      unfold Rdiv in *. nra. }
  assert (J : Rabs (sl s8 - FresnelS s8) <= s8 / 10 ^ 17) by (apply left_S; [lra|rewrite xx_s8; lra]).
  pose proof jump_S as JC.
  assert (N : forall a e, Rabs a <= e -> Rabs (- a) <= e) by (intros; rewrite Rabs_Ropp; auto).
  pose proof (corr_small s _ _ Hs (N _ _ (r1_small s ltac:(lra) (s8_ge s Hs))) (r2_small s ltac:(lra) (s8_ge s Hs)) _ _ (abs_cos (xx s)) (abs_sin (xx s))) as K1.
  pose proof (corr_small s8 _ _ (Rle_refl _) (N _ _ (r1_small s8 ltac:(lra) (s8_ge s8 (Rle_refl _)))) (r2_small s8 ltac:(lra) (s8_ge s8 (Rle_refl _))) _ _ (abs_cos (xx s8)) (abs_sin (xx s8))) as K2.
  unfold gs in G. revert G K1 K2.
  set (k1 := (- r1 s * cos (xx s) + r2 s * sin (xx s)) / (PI * s)). set (k2 := (- r1 s8 * cos (xx s8) + r2 s8 * sin (xx s8)) / (PI * s8)).
  intros G K1 K2. apply Rabs_le_between in G, J, JC, K1, K2. apply Rabs_le. lra.
Qed.

(** ** The function [fresnel] *)
Lemma fresnel_pos : forall s, 0 <= s ->
  fresnel s = (if Rle_dec (xx s) 8 then sl s else sr s, if Rle_dec (xx s) 8 then cl s else cr s).
Proof.
  intros s Hs. unfold fresnel, HALF_PI. replace (PI / 2 * s * s) with (xx s) by (unfold xx; ring). cbv zeta.
  destruct (Rle_dec (xx s) 8) as [L|G].
  - unfold fresnel_0_8. pose proof (AB_eval (xx s)) as E. cbv zeta in E. rewrite E.
    destruct (Rlt_dec s 0) as [N|_]; [lra|].
    change (IZR Dn) with Dr. change (xx s ^ 2 / 32 - 1) with (zl s).
    rewrite (sqrt_xx s Hs). reflexivity.
  - assert (X : 8 < xx s) by lra. assert (S0 : 0 < s).
    { destruct Hs as [H|H]; [exact H|]. subst. unfold xx in X. replace (PI / 2 * 0 ^ 2) with 0 in X by ring. lra. }
    unfold fresnel_8_inf. pose proof (EF_eval (xx s) ltac:(lra)) as E. cbv zeta in E. rewrite E.
    destruct (Rlt_dec s 0) as [N|_]; [lra|].
    change (IZR Dn) with Dr. change (128 / xx s ^ 2 - 1) with (zr s). unfold sr, cr.
    assert (K : forall w, SQRT_TWO_PI_INV * w / sqrt (xx s) = w / (PI * s)).
    { intros w. unfold Rdiv at 1. replace (SQRT_TWO_PI_INV * w * / sqrt (xx s)) with (w * (SQRT_TWO_PI_INV / sqrt (xx s)))
        by (unfold Rdiv; ring). rewrite (sqrt_xx_inv s S0). unfold Rdiv. ring. }
    rewrite !K. reflexivity.
Qed.

Lemma xx_s8_le : forall s, 0 <= s -> 8 < xx s -> s8 <= s.
Proof.
  intros s Hs H. destruct (Rle_dec s8 s) as [L|N]; [exact L|]. exfalso.
  pose proof (xx_le s s8 ltac:(lra)). rewrite xx_s8 in *. lra.
Qed.

Lemma accuracy_pos : forall s, 0 <= s ->
  Rabs (fresnelC s - FresnelC s) <= 2 / 10 ^ 15 /\ Rabs (fresnelS s - FresnelS s) <= 2 / 10 ^ 15.
Proof.
  intros s Hs. unfold fresnelC, fresnelS. rewrite (fresnel_pos s Hs). cbn [fst snd].
  destruct (Rle_dec (xx s) 8) as [L|G].
  - assert (S3 : s <= 23 / 10).
    { destruct (Rle_dec s (23 / 10)) as [?|N]; [assumption|]. exfalso. pose proof s8_pos.
      pose proof PI_bounds. unfold xx in L. nra. }
    split; eapply Rle_trans; [apply left_C| |apply left_S|]; auto; lra.
  - assert (s8 <= s) by (apply xx_s8_le; lra). split; [apply right_C|apply right_S]; assumption.
Qed.

Lemma int_odd : forall f : R -> R, (forall u, continuous f u) -> (forall u, f (- u) = f u) ->
  forall s, RInt f 0 (- s) = - RInt f 0 s.
Proof.
  intros f K E s.
  assert (A : is_RInt f (- 0) (- s) (RInt f 0 (- s))).
  { rewrite Ropp_0. apply (RInt_correct f 0 (- s)). apply (ex_RInt_continuous f). intros u _. apply K. }
  apply (is_RInt_comp_opp f 0 s) in A. apply (is_RInt_opp _ 0 s) in A.
  assert (B : is_RInt f 0 s (- RInt f 0 (- s))).
  { eapply is_RInt_ext; [|exact A]. intros u _. cbv beta. rewrite opp_opp. apply E. }
  pose proof (is_RInt_unique f 0 s _ B) as U. rewrite U. symmetry. apply Ropp_involutive.
Qed.
Lemma FresnelC_odd : forall s, FresnelC (- s) = - FresnelC s.
Proof.
  intros s. unfold FresnelC. apply int_odd.
  - intros u. apply (ex_derive_continuous (fun u : R => cos (PI / 2 * u ^ 2)) u). auto_derive. exact I.
  - intros u. f_equal. ring.
Qed.
Lemma FresnelS_odd : forall s, FresnelS (- s) = - FresnelS s.
Proof.
  intros s. unfold FresnelS. apply int_odd.
  - intros u. apply (ex_derive_continuous (fun u : R => sin (PI / 2 * u ^ 2)) u). auto_derive. exact I.
  - intros u. f_equal. ring.
Qed.

Lemma accuracy : forall s,
  Rabs (fresnelC s - FresnelC s) <= 2 / 10 ^ 15 /\ Rabs (fresnelS s - FresnelS s) <= 2 / 10 ^ 15.
Proof.
  intros s. destruct (Rle_dec 0 s) as [P|N]; [apply accuracy_pos; exact P|].
  destruct (accuracy_pos (- s) ltac:(lra)) as [A B].
  destruct (fresnel s) as [Sf Cf] eqn:E. pose proof (fresnel_odd' s Sf Cf E) as O.
  unfold fresnelC, fresnelS in *. rewrite O in A, B. rewrite E. cbn [fst snd] in *.
  rewrite FresnelC_odd in A. rewrite FresnelS_odd in B.
  apply Rabs_le_between in A, B. split; apply Rabs_le; lra.
Qed.

Lemma cos_lower_quad : forall x, 0 <= x -> 1 - x ^ 2 / 2 <= cos x.
Proof.
  intros x Hx. pose proof (taylor_cos 0 x Hx) as T. cbn [tcos] in T. apply Rabs_le_between in T.
  replace (INR (fact (2 * 0 + 2))) with 2 in T by (cbn; lra). cbn in T. lra.
Qed.
Lemma FresnelC_1 : 75 / 100 < FresnelC 1.
Proof.
  pose proof PI_bounds.
  pose proof (nondecr (fun t => FresnelC t - (t - PI ^ 2 / 40 * t ^ 5)) (fun t => cos (xx t) - (1 - PI ^ 2 / 8 * t ^ 4)) 0 1) as N.
  cbv beta in N. rewrite FC_0 in N.
  assert (Q : 0 - (0 - PI ^ 2 / 40 * 0 ^ 5) <= FresnelC 1 - (1 - PI ^ 2 / 40 * 1 ^ 5)).
  { apply N; [lra| |].
    - intros t _. apply @is_derive_minus; [apply is_derive_FC|]. auto_derive; [exact I|field].
    - intros t _. pose proof (cos_lower_quad (xx t) ltac:(unfold xx; apply Rmult_le_pos; [lra|apply pow2_ge_0])) as Q.
      replace (PI ^ 2 / 8 * t ^ 4) with (xx t ^ 2 / 2) by (unfold xx; field). lra. }
  nra.
Qed.

Lemma accuracy_pair : forall s S_f C_f, fresnel s = (S_f, C_f) ->
  Rabs (S_f - FresnelS s) <= 2 / 10 ^ 15 /\ Rabs (C_f - FresnelC s) <= 2 / 10 ^ 15.
Proof. intros s a b E. pose proof (accuracy s) as [A B]. unfold fresnelC, fresnelS in *. rewrite E in *. split; assumption. Qed.

Lemma accuracy_case : PI / 2 * 1 ^ 2 <= 8 < PI / 2 * 4 ^ 2 /\ 3 / 4 < FresnelC 1 /\ 74 / 100 < snd (fresnel 1).
Proof.
  pose proof PI_gt. pose proof FresnelC_1. split; [lra|]. split; [lra|].
  destruct (accuracy 1) as [A _]. unfold fresnelC in A. apply Rabs_le_between in A. lra.
Qed.

(** * Accuracy of the Fresnel approximation: analysis *)
From Coq Require Import Reals ZArith QArith Qreals List Bool Lra Lia Psatz.
From Coquelicot Require Import Coquelicot.
From Verif Require Import Base ModelUtil FresnelData ModelFresnel SpecFresnel FresPoly FresCert UtilProofs.
Import ListNotations.
Open Scope R_scope.

Lemma is_derive_FC : forall s, is_derive FresnelC s (cos (PI / 2 * s ^ 2)).
Proof.
  intros s. unfold FresnelC.
  assert (K : forall u, continuous (fun u : R => cos (PI / 2 * u ^ 2)) u).
  { intros u. apply (ex_derive_continuous (fun u : R => cos (PI / 2 * u ^ 2)) u). auto_derive. exact I. }
  apply (is_derive_RInt (fun u : R => cos (PI / 2 * u ^ 2)) (fun s => RInt (fun u : R => cos (PI / 2 * u ^ 2)) 0 s) 0).
  - apply filter_forall. intros t. apply (RInt_correct (fun u : R => cos (PI / 2 * u ^ 2)) 0 t).
    apply (ex_RInt_continuous (fun u : R => cos (PI / 2 * u ^ 2))). intros u _. apply K.
  - apply K.
Qed.
Lemma is_derive_FS : forall s, is_derive FresnelS s (sin (PI / 2 * s ^ 2)).
Proof.
  intros s. unfold FresnelS.
  assert (K : forall u, continuous (fun u : R => sin (PI / 2 * u ^ 2)) u).
  { intros u. apply (ex_derive_continuous (fun u : R => sin (PI / 2 * u ^ 2)) u). auto_derive. exact I. }
  apply (is_derive_RInt (fun u : R => sin (PI / 2 * u ^ 2)) (fun s => RInt (fun u : R => sin (PI / 2 * u ^ 2)) 0 s) 0).
  - apply filter_forall. intros t. apply (RInt_correct (fun u : R => sin (PI / 2 * u ^ 2)) 0 t).
    apply (ex_RInt_continuous (fun u : R => sin (PI / 2 * u ^ 2))). intros u _. apply K.
  - apply K.
Qed.
Lemma FC_0 : FresnelC 0 = 0.
Proof. unfold FresnelC, FresnelS. rewrite RInt_point. reflexivity. Qed.
Lemma FS_0 : FresnelS 0 = 0.
Proof. unfold FresnelC, FresnelS. rewrite RInt_point. reflexivity. Qed.

(** ** Bounds of pi *)
Fixpoint qp (q : Q) (n : nat) : Q := match n with O => 1%Q | S m => (q * qp q m)%Q end.
Lemma Q2R_qp : forall q n, Q2R (qp q n) = Q2R q ^ n.
Proof. induction n; cbn; [apply RMicromega.Q2R_1|]. rewrite Q2R_mult, IHn. reflexivity. Qed.
Definition qterm (i : nat) : Q :=
  (qp (-1) i * (2 * (qp (1 # 3) (2 * i + 1) / inject_Z (Z.of_nat (2 * i + 1)))
   + qp (1 # 7) (2 * i + 1) / inject_Z (Z.of_nat (2 * i + 1))))%Q.
Fixpoint qsum (n : nat) : Q := match n with O => qterm 0 | S m => Qred (qsum m + qterm n) end.
Lemma Q2R_inject : forall z, Q2R (inject_Z z) = IZR z.
Proof. intros. unfold Q2R, inject_Z; cbn. field. Qed.
Lemma Q2R_qterm : forall i, Q2R (qterm i) = tg_alt PI_2_3_7_tg i.
Proof.
  intros i. unfold qterm, tg_alt, PI_2_3_7_tg, Ratan_seq.
  assert (N : ~ inject_Z (Z.of_nat (2 * i + 1)) == 0).
  { intro E. apply Qeq_eqR in E. rewrite Q2R_inject, RMicromega.Q2R_0 in E. apply eq_IZR in E. lia. }
  rewrite Q2R_mult, Q2R_plus, Q2R_mult, !Q2R_div, !Q2R_qp, Q2R_inject, <- INR_IZR_INZ by exact N.
  replace (Q2R (-1)) with (-1) by (unfold Q2R; cbn; lra). replace (Q2R 2) with 2 by (unfold Q2R; cbn; lra).
  replace (Q2R (1 # 3)) with (/ 3) by (unfold Q2R; cbn; lra). replace (Q2R (1 # 7)) with (/ 7) by (unfold Q2R; cbn; lra).
  reflexivity.
Qed.
Lemma Q2R_qsum : forall n, Q2R (qsum n) = sum_f_R0 (tg_alt PI_2_3_7_tg) n.
Proof.
  induction n; [apply Q2R_qterm|]. cbn [qsum sum_f_R0].
  rewrite (Qeq_eqR _ _ (Qred_correct _)), Q2R_plus, IHn, Q2R_qterm. reflexivity.
Qed.

Lemma PI_bounds : 31415926535897932384 / 10000000000000000000 <= PI <= 31415926535897932385 / 10000000000000000000.
Proof.
  pose proof (PI_2_3_7_ineq 10) as [A B]. rewrite <- Q2R_qsum in A, B.
  assert (QA : (31415926535897932384 # 40000000000000000000 <= qsum 21)%Q) by (vm_compute; discriminate).
  assert (QB : (qsum 20 <= 31415926535897932385 # 40000000000000000000)%Q) by (vm_compute; discriminate).
  apply Qle_Rle in QA, QB. change (S (2 * 10)) with 21%nat in A. change (2 * 10)%nat with 20%nat in B.
  unfold Q2R at 1 in QA. unfold Q2R at 2 in QB. cbn [Qnum Qden] in *. lra.
Qed.

Lemma sqrt_PI_bounds : 17724538509055160272 / 10000000000000000000 <= sqrt PI <= 17724538509055160274 / 10000000000000000000.
Proof.
  pose proof PI_bounds as [A B]. split.
  - rewrite <- (sqrt_pow2 (17724538509055160272 / 10000000000000000000)) by lra. apply sqrt_le_1_alt. lra.
  - rewrite <- (sqrt_pow2 (17724538509055160274 / 10000000000000000000)) by lra. apply sqrt_le_1_alt. lra.
Qed.

(** ** sin 8 and cos 8 *)
Fixpoint hornerZ (l : list Z) (w : Z) : Z := match l with [] => 0%Z | c :: l' => (c + w * hornerZ l' w)%Z end.
Lemma hornerZ_R : forall l w, hornerR (map IZR l) (IZR w) = IZR (hornerZ l w).
Proof. induction l as [|c l IH]; intros w; [reflexivity|]. cbn. rewrite IH, plus_IZR, mult_IZR. reflexivity. Qed.

Lemma rest54 : forall x, 0 <= x <= 8 -> x ^ 54 / INR (fact 54) <= 3 / 100000000000000000000000.
Proof.
  intros x Hx. assert (P : x ^ 54 <= 8 ^ 54) by (apply pow_incr; lra).
  rewrite zfact_fact. assert (F : 0 < IZR (zfact 54)) by (apply IZR_lt; vm_compute; reflexivity).
  apply Rmult_le_reg_r with (IZR (zfact 54)); [exact F|].
  replace (x ^ 54 / IZR (zfact 54) * IZR (zfact 54)) with (x ^ 54) by (field; lra).
  eapply Rle_trans; [exact P|]. rewrite pow_IZR.
  replace (IZR (8 ^ Z.of_nat 54)) with 5846006549323611672814739330865132078623730171904 by (apply IZR_eq; vm_compute; reflexivity).
  replace (IZR (zfact 54)) with 230843697339241380472092742683027581083278564571807941132288000000000000
    by (apply IZR_eq; vm_compute; reflexivity). lra.
Qed.
Lemma step55 : forall x y f g : R, 0 <= x <= 8 -> 0 <= y -> 0 < f -> 8 <= g -> x * y / (g * f) <= y / f.
Proof.
  intros x y f g Hx Hy Hf Hg.
  replace (x * y / (g * f)) with (x / g * (y / f)) by (field; lra).
  rewrite <- (Rmult_1_l (y / f)) at 2. apply Rmult_le_compat_r.
  - apply Rmult_le_pos; [exact Hy|]. left. apply Rinv_0_lt_compat. lra.
  - apply Rmult_le_reg_r with g; [lra|]. unfold Rdiv. rewrite Rmult_assoc, Rinv_l by lra. lra.
Qed.
Lemma stepn : forall n x, 0 <= x <= 8 -> 8 <= INR (S n) -> x ^ (S n) / INR (fact (S n)) <= x ^ n / INR (fact n).
Proof.
  intros n x Hx Hn. rewrite fact_simpl, mult_INR. cbn [pow].
  apply step55; [exact Hx|apply pow_le; apply Hx|apply INR_fact_lt_0|exact Hn].
Qed.
Lemma rest55 : forall x, 0 <= x <= 8 -> x ^ 55 / INR (fact 55) <= 3 / 100000000000000000000000.
Proof.
  intros x Hx. eapply Rle_trans; [|apply (rest54 x Hx)].
  apply (stepn 54 x Hx). rewrite INR_IZR_INZ; apply IZR_le; vm_compute; discriminate.
Qed.

Lemma cos_taylor26 : forall x, 0 <= x <= 8 -> Rabs (cos x - tcos 26 x) <= 3 / 100000000000000000000000.
Proof. intros x Hx. eapply Rle_trans; [apply taylor_cos; lra|]. apply (rest54 x Hx). Qed.
Lemma sin_taylor26 : forall x, 0 <= x <= 8 -> Rabs (sin x - tsin 26 x) <= 3 / 100000000000000000000000.
Proof. intros x Hx. eapply Rle_trans; [apply taylor_sin; lra|]. apply (rest55 x Hx). Qed.

Lemma cos8 : -14550003380861352587 / 100000000000000000000 <= cos 8 <= -14550003380861352586 / 100000000000000000000.
Proof.
  assert (B : Rabs (cos 8 - tcos 26 8) <= 3 / 100000000000000000000000) by (apply cos_taylor26; lra).
  pose proof (tcos_26 8) as E. replace (- 8 ^ 2) with (IZR (-64)) in E by lra. rewrite hornerZ_R in E.
  set (h := hornerZ lcos (-64)) in E. vm_compute in h. subst h. unfold Mf in E.
  apply Rabs_le_between in B. lra.
Qed.
Lemma sin8 : 98935824662338177780 / 100000000000000000000 <= sin 8 <= 98935824662338177781 / 100000000000000000000.
Proof.
  assert (B : Rabs (sin 8 - tsin 26 8) <= 3 / 100000000000000000000000) by (apply sin_taylor26; lra).
  pose proof (tsin_26 8) as E. replace (- 8 ^ 2) with (IZR (-64)) in E by lra. rewrite hornerZ_R in E.
  set (h := hornerZ lsin (-64)) in E. vm_compute in h. subst h. unfold Mf in E.
  apply Rabs_le_between in B. lra.
Qed.

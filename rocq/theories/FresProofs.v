(** * Accuracy of the Fresnel approximation: the two branches *)
From Coq Require Import Reals ZArith List Bool Lra Lia Psatz.
From Coquelicot Require Import Coquelicot.
From Verif Require Import Base ModelUtil FresnelData ModelFresnel SpecFresnel FresPoly FresCert FresAcc UtilProofs.
Import ListNotations.
Open Scope R_scope.

Definition Dr : R := 100000000000000000000.
Global Opaque pA pW pE pF RA RW R1 R2 peval pder.
Definition xx (s : R) : R := PI / 2 * s ^ 2.

Lemma PI_gt : 3 < PI < 4.
Proof. pose proof PI_bounds. lra. Qed.

Lemma sqrt_xx : forall s, 0 <= s -> SQRT_TWO_PI_INV * sqrt (xx s) = s / 2.
Proof.
  intros s Hs. pose proof PI_gt. unfold SQRT_TWO_PI_INV, xx.
  replace (2 * PI) with (2 ^ 2 * (PI / 2)) by field.
  rewrite !sqrt_mult by (try apply pow2_ge_0; lra). rewrite !sqrt_pow2 by lra.
  assert (sqrt (PI / 2) <> 0) by (apply Rgt_not_eq, sqrt_lt_R0; lra). field. auto.
Qed.

Lemma sqrt_xx_inv : forall s, 0 < s -> SQRT_TWO_PI_INV / sqrt (xx s) = 1 / (PI * s).
Proof.
  intros s Hs. pose proof PI_gt. unfold SQRT_TWO_PI_INV, xx.
  assert (E : sqrt (PI / 2) * sqrt (PI / 2) = PI / 2) by (apply sqrt_sqrt; lra).
  replace (2 * PI) with (2 ^ 2 * (PI / 2)) by field.
  rewrite !sqrt_mult by (try apply pow2_ge_0; lra). rewrite !sqrt_pow2 by lra.
  assert (sqrt (PI / 2) <> 0) by (apply Rgt_not_eq, sqrt_lt_R0; lra).
  replace (/ (2 * sqrt (PI / 2)) / (sqrt (PI / 2) * s)) with (/ (2 * (sqrt (PI / 2) * sqrt (PI / 2)) * s)) by (field; repeat split; auto; lra).
  rewrite E. field. lra.
Qed.

(** ** Left branch *)
Definition zl (s : R) : R := xx s ^ 2 / 32 - 1.

Lemma zl_range : forall s, 0 <= s -> xx s <= 8 -> -1 <= zl s <= 1.
Proof.
  intros s Hs Hx. pose proof PI_gt. unfold zl.
  assert (0 <= xx s) by (unfold xx; apply Rmult_le_pos; [lra|apply pow2_ge_0]). nra.
Qed.

Definition cl (s : R) : R := s / 2 * (peval pA (zl s) / Dr).
Definition sl (s : R) : R := s / 2 * (xx s / 8 * (peval pW (zl s) / Dr)).
Definition dcl (s : R) : R := (peval pA (zl s) + 4 * (zl s + 1) * peval (pder pA) (zl s)) / (2 * Dr).
Definition dsl (s : R) : R := xx s / 8 * (3 * peval pW (zl s) + 4 * (zl s + 1) * peval (pder pW) (zl s)) / (2 * Dr).

Lemma Derive_peval : forall p x, Derive (fun x => peval p x) x = peval (pder p) x.
Proof. intros. apply is_derive_unique. apply is_derive_peval. Qed.

Lemma d_xx : forall s, is_derive xx s (PI * s).
Proof. intros s. unfold xx. auto_derive; [exact I|field]. Qed.
Lemma d_zl : forall s, is_derive zl s (xx s / 16 * (PI * s)).
Proof. intros s. unfold zl, xx. auto_derive; [exact I|field]. Qed.
Lemma d_pl : forall p s, is_derive (fun t => peval p (zl t)) s (xx s / 16 * (PI * s) * peval (pder p) (zl s)).
Proof. intros p s. apply (is_derive_comp (peval p) zl); [apply is_derive_peval|apply d_zl]. Qed.

Lemma d_cl_gen : forall (f : R -> R) (s df : R), is_derive f s df -> is_derive (fun t => t / 2 * (f t / Dr)) s ((f s + s * df) / (2 * Dr)).
Proof.
  intros f s df D. unfold Dr. auto_derive; [repeat split; eexists; exact D|].
  replace (Derive (fun x : R => f x) s) with df by (symmetry; apply is_derive_unique; exact D). field.
Qed.
Lemma d_sl_gen : forall (f : R -> R) (s df : R), is_derive f s df ->
  is_derive (fun t => t / 2 * (xx t / 8 * (f t / Dr))) s (xx s / 8 * (3 * f s + s * df) / (2 * Dr)).
Proof.
  intros f s df D. unfold Dr, xx. auto_derive; [repeat split; eexists; exact D|].
  replace (Derive (fun x : R => f x) s) with df by (symmetry; apply is_derive_unique; exact D). field.
Qed.
Lemma is_derive_cl : forall s, is_derive cl s (dcl s).
Proof.
  intros s. unfold cl, dcl. evar_last; [apply (d_cl_gen (fun t => peval pA (zl t)) s _ (d_pl pA s))|].
  cbv beta. replace (zl s + 1) with (xx s ^ 2 / 32) by (unfold zl; ring). f_equal. f_equal. unfold xx. field.
Qed.
Lemma is_derive_sl : forall s, is_derive sl s (dsl s).
Proof.
  intros s. unfold sl, dsl. evar_last; [apply (d_sl_gen (fun t => peval pW (zl t)) s _ (d_pl pW s))|].
  cbv beta. replace (zl s + 1) with (xx s ^ 2 / 32) by (unfold zl; ring). f_equal. f_equal. f_equal. unfold xx. field.
Qed.

Lemma IZR_Mf : IZR Mf = 4274883284060025564298013753389399649690343788366813724672000000000000.
Proof. reflexivity. Qed.

Lemma RA_eq : forall z x, 32 * (z + 1) = x ^ 2 ->
  (peval pA z + 4 * (z + 1) * peval (pder pA) z) / (2 * Dr) - tcos 26 x = peval RA z / (2 * Dr * IZR Mf).
Proof.
  intros z x E.
  assert (P : RA = psub (pscale Mf (padd pA (pscale 4 (pz1 (pder pA))))) (pscale (2 * Dn) pTC)) by (vm_compute; reflexivity).
  rewrite P, peval_sub, !peval_scale, peval_add, peval_scale, peval_z1, (pTC_eval x z E), mult_IZR.
  change (IZR Dn) with Dr. rewrite IZR_Mf. unfold Dr. field.
Qed.

Lemma RW_eq : forall z x, 32 * (z + 1) = x ^ 2 ->
  x / 8 * (3 * peval pW z + 4 * (z + 1) * peval (pder pW) z) / (2 * Dr) - tsin 26 x = x / 8 * (peval RW z / (2 * Dr * IZR Mf)).
Proof.
  intros z x E.
  assert (P : RW = psub (pscale Mf (padd (pscale 3 pW) (pscale 4 (pz1 (pder pW))))) (pscale (16 * Dn) pTS)) by (vm_compute; reflexivity).
  rewrite P, peval_sub, !peval_scale, peval_add, !peval_scale, peval_z1, mult_IZR.
  pose proof (pTS_eval x z E) as T. change (IZR Dn) with Dr.
  transitivity (x / 8 * (3 * peval pW z + 4 * (z + 1) * peval (pder pW) z) / (2 * Dr) - (x * peval pTS z) / IZR Mf).
  - rewrite T. rewrite IZR_Mf. field. unfold Dr; lra.
  - rewrite IZR_Mf. unfold Dr. field.
Qed.

Lemma dcl_close : forall s, 0 <= s -> xx s <= 8 -> Rabs (dcl s - cos (xx s)) <= 1 / 10 ^ 17.
Proof.
  intros s Hs Hx. pose proof (zl_range s Hs Hx) as Z. pose proof PI_gt.
  assert (X0 : 0 <= xx s) by (unfold xx; apply Rmult_le_pos; [lra|apply pow2_ge_0]).
  pose proof (cos_taylor26 (xx s) (conj X0 Hx)) as T. pose proof (RA_bound _ Z) as B.
  assert (E : 32 * (zl s + 1) = xx s ^ 2) by (unfold zl; field).
  replace (dcl s - cos (xx s)) with (peval RA (zl s) / (2 * Dr * IZR Mf) - (cos (xx s) - tcos 26 (xx s))).
  2:{ rewrite <- (RA_eq _ _ E). unfold dcl. ring. }
  eapply Rle_trans; [apply Rabs_triang|]. rewrite Rabs_Ropp.
  assert (Rabs (peval RA (zl s) / (2 * Dr * IZR Mf)) <= 6 / 1000000000000000000).
  { rewrite IZR_Mf. unfold Rdiv. rewrite Rabs_mult. rewrite (Rabs_pos_eq (/ _)).
    2:{ left. apply Rinv_0_lt_compat. unfold Dr. lra. }
    apply Rmult_le_reg_r with (2 * Dr * 4274883284060025564298013753389399649690343788366813724672000000000000);
      [unfold Dr; lra|]. rewrite Rmult_assoc, Rinv_l by (unfold Dr; lra).
    unfold boundA in B. unfold Dr. lra. }
  lra.
Qed.

Lemma dsl_close : forall s, 0 <= s -> xx s <= 8 -> Rabs (dsl s - sin (xx s)) <= 1 / 10 ^ 17.
Proof.
  intros s Hs Hx. pose proof (zl_range s Hs Hx) as Z. pose proof PI_gt.
  assert (X0 : 0 <= xx s) by (unfold xx; apply Rmult_le_pos; [lra|apply pow2_ge_0]).
  pose proof (sin_taylor26 (xx s) (conj X0 Hx)) as T. pose proof (RW_bound _ Z) as B.
  assert (E : 32 * (zl s + 1) = xx s ^ 2) by (unfold zl; field).
  replace (dsl s - sin (xx s)) with (xx s / 8 * (peval RW (zl s) / (2 * Dr * IZR Mf)) - (sin (xx s) - tsin 26 (xx s))).
  2:{ rewrite <- (RW_eq _ _ E). unfold dsl. ring. }
  eapply Rle_trans; [apply Rabs_triang|]. rewrite Rabs_Ropp.
  assert (Rabs (peval RW (zl s) / (2 * Dr * IZR Mf)) <= 6 / 1000000000000000000).
  { rewrite IZR_Mf. unfold Rdiv. rewrite Rabs_mult. rewrite (Rabs_pos_eq (/ _)).
    2:{ left. apply Rinv_0_lt_compat. unfold Dr. lra. }
    apply Rmult_le_reg_r with (2 * Dr * 4274883284060025564298013753389399649690343788366813724672000000000000);
      [unfold Dr; lra|]. rewrite Rmult_assoc, Rinv_l by (unfold Dr; lra).
    unfold boundW in B. unfold Dr. lra. }
  rewrite Rabs_mult, (Rabs_pos_eq (xx s / 8)) by lra.
  assert (xx s / 8 * Rabs (peval RW (zl s) / (2 * Dr * IZR Mf)) <= 1 * Rabs (peval RW (zl s) / (2 * Dr * IZR Mf))).
  { apply Rmult_le_compat_r; [apply Rabs_pos|lra]. }
  lra.
Qed.

Lemma xx_le : forall s t, 0 <= s <= t -> xx s <= xx t.
Proof.
  intros s t H. pose proof PI_gt. unfold xx. apply Rmult_le_compat_l; [lra|]. apply pow_incr. lra.
Qed.

Lemma left_C : forall s, 0 <= s -> xx s <= 8 -> Rabs (cl s - FresnelC s) <= s / 10 ^ 17.
Proof.
  intros s Hs Hx.
  pose proof (growth (fun t => cl t - FresnelC t) (fun t => t / 10 ^ 17) (fun t => dcl t - cos (xx t)) (fun t => 1 / 10 ^ 17) 0 s Hs) as G.
  cbv beta in G. rewrite FC_0 in G. replace (cl 0) with 0 in G by (unfold cl; field; unfold Dr; lra).
  rewrite !Rminus_0_r in G. replace (0 / 10 ^ 17) with 0 in G by field. rewrite !Rminus_0_r in G. apply G.
  - intros t Ht. apply @is_derive_minus; [apply is_derive_cl|apply is_derive_FC].
  - intros t Ht. auto_derive; [exact I|field].
  - intros t Ht. apply dcl_close; [lra|]. pose proof (xx_le t s). lra.
Qed.
Lemma left_S : forall s, 0 <= s -> xx s <= 8 -> Rabs (sl s - FresnelS s) <= s / 10 ^ 17.
Proof.
  intros s Hs Hx.
  pose proof (growth (fun t => sl t - FresnelS t) (fun t => t / 10 ^ 17) (fun t => dsl t - sin (xx t)) (fun t => 1 / 10 ^ 17) 0 s Hs) as G.
  cbv beta in G. rewrite FS_0 in G. replace (sl 0) with 0 in G by (unfold sl; field; unfold Dr; lra).
  rewrite !Rminus_0_r in G. replace (0 / 10 ^ 17) with 0 in G by field. rewrite !Rminus_0_r in G. apply G.
  - intros t Ht. apply @is_derive_minus; [apply is_derive_sl|apply is_derive_FS].
  - intros t Ht. auto_derive; [exact I|field].
  - intros t Ht. apply dsl_close; [lra|]. pose proof (xx_le t s). lra.
Qed.

(** ** Right branch *)
Definition zr (s : R) : R := 128 / xx s ^ 2 - 1.
Definition cr (s : R) : R :=
  1 / 2 - (peval pE (zr s) / Dr * cos (xx s) / (2 * xx s) - peval pF (zr s) / Dr * sin (xx s)) / (PI * s).
Definition sr (s : R) : R :=
  1 / 2 - (peval pE (zr s) / Dr * sin (xx s) / (2 * xx s) + peval pF (zr s) / Dr * cos (xx s)) / (PI * s).
Definition r1 (s : R) : R := peval R1 (zr s) / (512 * Dr).
Definition r2 (s : R) : R := 8 / xx s * (peval R2 (zr s) / (16 * Dr)).
Definition gc (s : R) : R := cr s - FresnelC s + (r1 s * sin (xx s) + r2 s * cos (xx s)) / (PI * s).
Definition gs (s : R) : R := sr s - FresnelS s + (- r1 s * cos (xx s) + r2 s * sin (xx s)) / (PI * s).
Definition q1 (s : R) : R := peval (pder R1) (zr s) / (512 * Dr) * (- 256 / xx s ^ 3) - r1 s / (PI * s ^ 2).
Definition q2 (s : R) : R :=
  8 / xx s * (peval (pder R2) (zr s) / (16 * Dr)) * (- 256 / xx s ^ 3) - 3 * r2 s / (PI * s ^ 2).

Lemma R1_eq : forall z, peval R1 z =
  512 * Dr - 512 * peval pF z - 4 * ((z + 1) ^ 2 * peval (pder pE) z) - 3 * ((z + 1) * peval pE z).
Proof.
  intros z.
  assert (P : R1 = psub (psub (psub [512 * Dn]%Z (pscale 512 pF)) (pscale 4 (pz1 (pz1 (pder pE))))) (pscale 3 (pz1 pE)))
    by (vm_compute; reflexivity).
  rewrite P, !peval_sub, !peval_scale, !peval_z1. cbn [peval]. rewrite mult_IZR. change (IZR Dn) with Dr. ring.
Qed.
Lemma R2_eq : forall z, peval R2 z = peval pE z - peval pF z - 4 * ((z + 1) * peval (pder pF) z).
Proof.
  intros z.
  assert (P : R2 = psub (psub pE pF) (pscale 4 (pz1 (pder pF)))) by (vm_compute; reflexivity).
  rewrite P, !peval_sub, !peval_scale, !peval_z1. ring.
Qed.

Section right.
  Variable s : R.
  Hypothesis Hs : 0 < s.
  Let x := xx s.
  Lemma xx_pos : 0 < xx s.
  Proof. pose proof PI_gt. unfold xx. apply Rmult_lt_0_compat; [lra|]. apply pow_lt; lra. Qed.

  Lemma d_zr : is_derive zr s (- 256 / xx s ^ 3 * (PI * s)).
  Proof.
    pose proof xx_pos as X. unfold zr.
    assert (D : is_derive (fun t => 128 / t ^ 2 - 1) (xx s) (- 256 / xx s ^ 3)).
    { auto_derive; [apply Rgt_not_eq; cbn; nra|field; lra]. }
    apply (is_derive_ext (fun t => (fun t => 128 / t ^ 2 - 1) (xx t))); [reflexivity|].
    rewrite Rmult_comm. apply (is_derive_comp (fun t => 128 / t ^ 2 - 1) xx); [exact D|apply d_xx].
  Qed.
  Lemma d_p : forall p, is_derive (fun t => peval p (zr t)) s (- 256 / xx s ^ 3 * (PI * s) * peval (pder p) (zr s)).
  Proof. intros p. apply (is_derive_comp (peval p) zr); [apply is_derive_peval|apply d_zr]. Qed.
End right.

Lemma d_gc_gen : forall (fE fF f1 f2 FC : R -> R) (s dE dF d1 d2 : R), 0 < s ->
  is_derive fE s dE -> is_derive fF s dF -> is_derive f1 s d1 -> is_derive f2 s d2 -> is_derive FC s (cos (xx s)) ->
  is_derive (fun t => 1 / 2 - (fE t / Dr * cos (xx t) / (2 * xx t) - fF t / Dr * sin (xx t)) / (PI * t) - FC t
    + (f1 t / (512 * Dr) * sin (xx t) + 8 / xx t * (f2 t / (16 * Dr)) * cos (xx t)) / (PI * t)) s
  (let x := xx s in let C := cos x in let S := sin x in
   - ((dE / Dr * C / (2 * x) - fE s / Dr * S * (PI * s) / (2 * x) - fE s / Dr * C * (PI * s) / (2 * x ^ 2)
     - dF / Dr * S - fF s / Dr * C * (PI * s)) / (PI * s)
     - (fE s / Dr * C / (2 * x) - fF s / Dr * S) / (PI * s ^ 2)) - C
   + ((d1 / (512 * Dr) * S + f1 s / (512 * Dr) * C * (PI * s)
       - 8 * (PI * s) / x ^ 2 * (f2 s / (16 * Dr)) * C + 8 / x * (d2 / (16 * Dr)) * C - 8 / x * (f2 s / (16 * Dr)) * S * (PI * s)) / (PI * s)
     - (f1 s / (512 * Dr) * S + 8 / x * (f2 s / (16 * Dr)) * C) / (PI * s ^ 2))).
Proof.
  intros fE fF f1 f2 FC s dE dF d1 d2 Hs DE DF D1 D2 DC.
  pose proof PI_gt. pose proof (xx_pos s Hs) as X. pose proof (d_xx s) as Dx.
  assert (0 < PI * s) by nra. cbv zeta.
  unfold Dr. auto_derive.
  - repeat split; try (eexists; eassumption); try lra; apply Rgt_not_eq; nra.
  - replace (Derive (fun x : R => fE x) s) with dE by (symmetry; apply is_derive_unique; exact DE).
    replace (Derive (fun x : R => fF x) s) with dF by (symmetry; apply is_derive_unique; exact DF).
    replace (Derive (fun x : R => f1 x) s) with d1 by (symmetry; apply is_derive_unique; exact D1).
    replace (Derive (fun x : R => f2 x) s) with d2 by (symmetry; apply is_derive_unique; exact D2).
    replace (Derive (fun x : R => FC x) s) with (cos (xx s)) by (symmetry; apply is_derive_unique; exact DC).
    replace (Derive (fun x : R => xx x) s) with (PI * s) by (symmetry; apply is_derive_unique; exact Dx).
    field. repeat split; lra.
Qed.
Lemma d_gs_gen : forall (fE fF f1 f2 FC : R -> R) (s dE dF d1 d2 : R), 0 < s ->
  is_derive fE s dE -> is_derive fF s dF -> is_derive f1 s d1 -> is_derive f2 s d2 -> is_derive FC s (sin (xx s)) ->
  is_derive (fun t => 1 / 2 - (fE t / Dr * sin (xx t) / (2 * xx t) + fF t / Dr * cos (xx t)) / (PI * t) - FC t
    + (- (f1 t / (512 * Dr)) * cos (xx t) + 8 / xx t * (f2 t / (16 * Dr)) * sin (xx t)) / (PI * t)) s
  (let x := xx s in let C := cos x in let S := sin x in
   - ((dE / Dr * S / (2 * x) + fE s / Dr * C * (PI * s) / (2 * x) - fE s / Dr * S * (PI * s) / (2 * x ^ 2)
     + dF / Dr * C - fF s / Dr * S * (PI * s)) / (PI * s)
     - (fE s / Dr * S / (2 * x) + fF s / Dr * C) / (PI * s ^ 2)) - S
   + ((- d1 / (512 * Dr) * C + f1 s / (512 * Dr) * S * (PI * s)
       - 8 * (PI * s) / x ^ 2 * (f2 s / (16 * Dr)) * S + 8 / x * (d2 / (16 * Dr)) * S + 8 / x * (f2 s / (16 * Dr)) * C * (PI * s)) / (PI * s)
     - (- f1 s / (512 * Dr) * C + 8 / x * (f2 s / (16 * Dr)) * S) / (PI * s ^ 2))).
Proof.
  intros fE fF f1 f2 FC s dE dF d1 d2 Hs DE DF D1 D2 DC.
  pose proof PI_gt. pose proof (xx_pos s Hs) as X. pose proof (d_xx s) as Dx.
  assert (0 < PI * s) by nra. cbv zeta.
  unfold Dr. auto_derive.
  - repeat split; try (eexists; eassumption); try lra; apply Rgt_not_eq; nra.
  - replace (Derive (fun x : R => fE x) s) with dE by (symmetry; apply is_derive_unique; exact DE).
    replace (Derive (fun x : R => fF x) s) with dF by (symmetry; apply is_derive_unique; exact DF).
    replace (Derive (fun x : R => f1 x) s) with d1 by (symmetry; apply is_derive_unique; exact D1).
    replace (Derive (fun x : R => f2 x) s) with d2 by (symmetry; apply is_derive_unique; exact D2).
    replace (Derive (fun x : R => FC x) s) with (sin (xx s)) by (symmetry; apply is_derive_unique; exact DC).
    replace (Derive (fun x : R => xx x) s) with (PI * s) by (symmetry; apply is_derive_unique; exact Dx).
    field. repeat split; lra.
Qed.

Lemma is_derive_gc : forall s, 0 < s -> is_derive gc s (q1 s * sin (xx s) + q2 s * cos (xx s)).
Proof.
  intros s Hs. pose proof PI_gt. pose proof (xx_pos s Hs) as X.
  unfold gc, cr, r1, r2.
  evar_last; [apply (d_gc_gen (fun t => peval pE (zr t)) (fun t => peval pF (zr t)) (fun t => peval R1 (zr t)) (fun t => peval R2 (zr t))
    FresnelC s _ _ _ _ Hs (d_p s Hs pE) (d_p s Hs pF) (d_p s Hs R1) (d_p s Hs R2) (is_derive_FC s))|].
  cbv beta zeta. unfold q1, q2, r1, r2.
  rewrite R1_eq, R2_eq. replace (zr s + 1) with (128 / xx s ^ 2) by (unfold zr; ring).
  generalize (peval pE (zr s)) (peval pF (zr s)) (peval (pder pE) (zr s)) (peval (pder pF) (zr s))
    (peval (pder R1) (zr s)) (peval (pder R2) (zr s)) (sin (xx s)) (cos (xx s)).
  intros. unfold Dr, xx. field. split; lra.
Qed.

Lemma is_derive_gs : forall s, 0 < s -> is_derive gs s (- q1 s * cos (xx s) + q2 s * sin (xx s)).
Proof.
  intros s Hs. pose proof PI_gt. pose proof (xx_pos s Hs) as X.
  unfold gs, sr, r1, r2.
  evar_last; [apply (d_gs_gen (fun t => peval pE (zr t)) (fun t => peval pF (zr t)) (fun t => peval R1 (zr t)) (fun t => peval R2 (zr t))
    FresnelS s _ _ _ _ Hs (d_p s Hs pE) (d_p s Hs pF) (d_p s Hs R1) (d_p s Hs R2) (is_derive_FS s))|].
  cbv beta zeta. unfold q1, q2, r1, r2.
  rewrite R1_eq, R2_eq. replace (zr s + 1) with (128 / xx s ^ 2) by (unfold zr; ring).
  generalize (peval pE (zr s)) (peval pF (zr s)) (peval (pder pE) (zr s)) (peval (pder pF) (zr s))
    (peval (pder R1) (zr s)) (peval (pder R2) (zr s)) (sin (xx s)) (cos (xx s)).
  intros. unfold Dr, xx. field. split; lra.
Qed.

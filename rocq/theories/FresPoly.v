(** * Polynomials with integer coefficients, Chebyshev bounds, Taylor bounds of sine and cosine *)
From Coq Require Import Reals ZArith List Bool Lra Lia Psatz.
From Coquelicot Require Import Coquelicot.
Import ListNotations.
Open Scope R_scope.

Definition poly := list Z.
Fixpoint peval (p : poly) (x : R) : R :=
  match p with [] => 0 | c :: p' => IZR c + x * peval p' x end.
Fixpoint padd (p q : poly) : poly :=
  match p, q with
  | [], _ => q
  | _, [] => p
  | a :: p', b :: q' => (a + b)%Z :: padd p' q'
  end.
Definition pscale (c : Z) (p : poly) : poly := map (Z.mul c) p.
Definition psub p q := padd p (pscale (-1) q).
Definition pX (p : poly) : poly := 0%Z :: p.
(** Product with (z + 1). *)
Definition pz1 (p : poly) : poly := padd p (pX p).
Fixpoint pder_aux (n : Z) (p : poly) : poly :=
  match p with [] => [] | c :: p' => (n * c)%Z :: pder_aux (n + 1) p' end.
Definition pder (p : poly) : poly := match p with [] => [] | _ :: p' => pder_aux 1 p' end.

Lemma peval_add : forall p q x, peval (padd p q) x = peval p x + peval q x.
Proof.
  induction p as [|a p IH]; intros [|b q] x; cbn; try ring. rewrite IH, plus_IZR. ring.
Qed.
Lemma peval_scale : forall c p x, peval (pscale c p) x = IZR c * peval p x.
Proof. induction p as [|a p IH]; intros x; cbn; [ring|]. fold (pscale c p). rewrite IH, mult_IZR. ring. Qed.
Lemma peval_sub : forall p q x, peval (psub p q) x = peval p x - peval q x.
Proof. intros. unfold psub. rewrite peval_add, peval_scale. ring. Qed.
Lemma peval_X : forall p x, peval (pX p) x = x * peval p x.
Proof. intros. cbn. ring. Qed.
Lemma peval_z1 : forall p x, peval (pz1 p) x = (x + 1) * peval p x.
Proof. intros. unfold pz1. rewrite peval_add, peval_X. ring. Qed.

Lemma peval_der_aux : forall p n x, peval (pder_aux n p) x = IZR n * peval p x + x * peval (pder p) x.
Proof.
  induction p as [|a p IH]; intros n x; cbn [pder_aux pder peval]; [ring|].
  rewrite !IH. rewrite mult_IZR, plus_IZR.
  destruct p as [|b p]; cbn [pder peval pder_aux]; ring.
Qed.

Lemma is_derive_peval : forall p x, is_derive (peval p) x (peval (pder p) x).
Proof.
  induction p as [|a p IH]; intros x.
  - cbn. apply is_derive_ext with (f := fun _ => 0); [reflexivity|]. apply @is_derive_const.
  - cbn [peval pder].
    apply is_derive_ext with (f := fun x => plus (IZR a) (mult x (peval p x))); [reflexivity|].
    replace (peval (pder_aux 1 p) x) with (plus 0 (plus (mult 1 (peval p x)) (mult x (peval (pder p) x)))).
    2:{ rewrite peval_der_aux. unfold plus, mult; cbn. ring. }
    apply @is_derive_plus; [apply @is_derive_const|].
    apply @is_derive_mult; [apply @is_derive_id|apply IH|]. intros; unfold mult; cbn; ring.
Qed.

(** ** Chebyshev polynomials *)
Fixpoint cheb_pair (n : nat) : poly * poly :=
  match n with
  | O => ([1%Z], [0%Z; 1%Z])
  | S n' => let '(t, t1) := cheb_pair n' in (t1, psub (pscale 2 (pX t1)) t)
  end.

Lemma cheb_pair_cos : forall n t,
  peval (fst (cheb_pair n)) (cos t) = cos (INR n * t) /\ peval (snd (cheb_pair n)) (cos t) = cos (INR (S n) * t).
Proof.
  induction n as [|n IH]; intros t.
  - cbn. rewrite Rmult_0_l, cos_0, Rmult_1_l. split; ring.
  - destruct (IH t) as [A B]. cbn [cheb_pair]. destruct (cheb_pair n) as [p q]. cbn [fst snd] in *.
    split; [exact B|]. rewrite peval_sub, peval_scale, peval_X, A, B, !S_INR.
    replace (INR n * t) with ((INR n + 1) * t - t) by ring.
    replace ((INR n + 1 + 1) * t) with ((INR n + 1) * t + t) by ring.
    rewrite cos_minus, cos_plus. ring.
Qed.

(** Sum of c_k T_k, with the pair (T_k, T_(k+1)) at hand. *)
Fixpoint psum_cheb (c : list Z) (t t1 : poly) : poly :=
  match c with
  | [] => []
  | a :: c' => padd (pscale a t) (psum_cheb c' t1 (psub (pscale 2 (pX t1)) t))
  end.
Definition zabs_sum (c : list Z) : Z := fold_right (fun a s => (Z.abs a + s)%Z) 0%Z c.

Lemma psum_cheb_bound : forall c n z, -1 <= z <= 1 ->
  Rabs (peval (psum_cheb c (fst (cheb_pair n)) (snd (cheb_pair n))) z) <= IZR (zabs_sum c).
Proof.
  induction c as [|a c IH]; intros n z Hz; cbn [psum_cheb zabs_sum fold_right].
  - cbn. rewrite Rabs_R0. lra.
  - rewrite peval_add, peval_scale, plus_IZR.
    eapply Rle_trans; [apply Rabs_triang|]. apply Rplus_le_compat.
    + rewrite Rabs_mult, abs_IZR. rewrite <- (Rmult_1_r (Rabs (IZR a))) at 2.
      apply Rmult_le_compat_l; [apply Rabs_pos|].
      rewrite <- (cos_acos z) by exact Hz. rewrite (proj1 (cheb_pair_cos n (acos z))).
      apply Rabs_le. apply COS_bound.
    + specialize (IH (S n) z Hz). cbn [cheb_pair] in IH. destruct (cheb_pair n); exact IH.
Qed.

Fixpoint poly_eqb (p q : poly) : bool :=
  match p, q with
  | a :: p', b :: q' => Z.eqb a b && poly_eqb p' q'
  | [], q => forallb (Z.eqb 0) q
  | p, [] => forallb (Z.eqb 0) p
  end.
Lemma all_zero_eval : forall q, forallb (Z.eqb 0) q = true -> forall x, peval q x = 0.
Proof.
  induction q as [|b q IH]; intros E x; [reflexivity|]. cbn [forallb] in E. apply andb_prop in E.
  destruct E as [E1 E2]. apply Z.eqb_eq in E1. subst. cbn [peval]. rewrite (IH E2). ring.
Qed.
Lemma poly_eqb_eval : forall p q, poly_eqb p q = true -> forall x, peval p x = peval q x.
Proof.
  induction p as [|a p IH]; intros q E x.
  - rewrite (all_zero_eval q E x). reflexivity.
  - destruct q as [|b q].
    + rewrite (all_zero_eval (a :: p) E x). reflexivity.
    + cbn [poly_eqb] in E. apply andb_prop in E. destruct E as [E1 E2]. apply Z.eqb_eq in E1. subst.
      cbn [peval]. rewrite (IH q E2 x). reflexivity.
Qed.

(** Certificate: [m * p] is the sum of c_k T_k and the sum of the |c_k| is at most [m * bound / scale]. *)
Lemma cheb_cert : forall p m c b, (0 < m)%Z ->
  poly_eqb (pscale m p) (psum_cheb c [1%Z] [0%Z; 1%Z]) = true -> (zabs_sum c <=? m * b)%Z = true ->
  forall z, -1 <= z <= 1 -> Rabs (peval p z) <= IZR b.
Proof.
  intros p m c b Hm E L z Hz. pose proof (psum_cheb_bound c 0 z Hz) as H. cbn [cheb_pair fst snd] in H.
  rewrite <- (poly_eqb_eval _ _ E z), peval_scale, Rabs_mult, <- abs_IZR, Z.abs_eq in H by lia.
  apply Z.leb_le in L. apply IZR_le in L. rewrite mult_IZR in L.
  apply IZR_lt in Hm. apply Rmult_le_reg_l with (IZR m); lra.
Qed.

(** ** Comparison of increments *)
Lemma growth : forall (f g df dg : R -> R) a b, a <= b ->
  (forall x, a <= x <= b -> is_derive f x (df x)) -> (forall x, a <= x <= b -> is_derive g x (dg x)) ->
  (forall x, a <= x <= b -> Rabs (df x) <= dg x) -> Rabs (f b - f a) <= g b - g a.
Proof.
  intros f g df dg a b AB Df Dg L.
  assert (K : forall s, s = 1 \/ s = -1 -> 0 <= (g b - s * f b) - (g a - s * f a)).
  { intros s Hs.
    assert (DD : forall x, a <= x <= b -> is_derive (fun x => g x - s * f x) x (dg x - s * df x)).
    { intros x Hx. apply @is_derive_minus; [apply Dg; lra|]. apply is_derive_scal. apply Df. lra. }
    destruct (MVT_gen (fun x => g x - s * f x) a b (fun x => dg x - s * df x)) as (c & Hc & E).
    - rewrite Rmin_left, Rmax_right by lra. intros x Hx. apply DD. lra.
    - rewrite Rmin_left, Rmax_right by lra. intros x Hx.
      apply derivable_continuous_pt. apply ex_derive_Reals_0. exists (dg x - s * df x). apply DD. lra.
    - rewrite Rmin_left, Rmax_right in Hc by lra. rewrite E. apply Rmult_le_pos; [|lra].
      pose proof (L c Hc) as Lc. apply Rabs_le_between in Lc. destruct Hs; subst; lra. }
  pose proof (K 1 (or_introl eq_refl)). pose proof (K (-1) (or_intror eq_refl)).
  apply Rabs_le. lra.
Qed.

Lemma nondecr : forall (f df : R -> R) a b, a <= b ->
  (forall x, a <= x <= b -> is_derive f x (df x)) -> (forall x, a <= x <= b -> 0 <= df x) -> f a <= f b.
Proof.
  intros f df a b AB D P.
  pose proof (growth (fun _ => 0) f (fun _ => 0) df a b AB) as G. cbv beta in G.
  assert (Rabs (0 - 0) <= f b - f a).
  { apply G; auto. intros. apply @is_derive_const. intros. rewrite Rabs_R0. auto. }
  rewrite Rminus_0_r, Rabs_R0 in H. lra.
Qed.

(** ** Taylor polynomials *)
Fixpoint tcos (n : nat) (x : R) : R :=
  match n with O => 1 | S n' => tcos n' x + (-1) ^ n * x ^ (2 * n) / INR (fact (2 * n)) end.
Fixpoint tsin (n : nat) (x : R) : R :=
  match n with O => x | S n' => tsin n' x + (-1) ^ n * x ^ (2 * n + 1) / INR (fact (2 * n + 1)) end.

Lemma fact_INR_neq : forall n, INR (fact n) <> 0.
Proof. intros. apply INR_fact_neq_0. Qed.

Lemma is_derive_mono : forall n x, is_derive (fun x => x ^ S n / INR (fact (S n))) x (x ^ n / INR (fact n)).
Proof.
  intros n x.
  apply is_derive_ext with (f := fun x => / INR (fact (S n)) * x ^ S n); [intros; apply Rmult_comm|].
  pose proof (fact_INR_neq n). assert (INR (S n) <> 0) by (apply not_0_INR; lia).
  replace (x ^ n / INR (fact n)) with (/ INR (fact (S n)) * (INR (S n) * 1 * x ^ pred (S n))).
  2:{ rewrite fact_simpl, mult_INR. cbn [Nat.pred]. field. split; auto. }
  apply is_derive_scal. apply (is_derive_pow (fun x => x)). apply @is_derive_id.
Qed.

Lemma is_derive_tsin : forall n x, is_derive (tsin n) x (tcos n x).
Proof.
  induction n as [|n IH]; intros x; cbn [tsin tcos].
  - apply @is_derive_id.
  - apply @is_derive_plus; [apply IH|].
    apply is_derive_ext with (f := fun x => (-1) ^ S n * (x ^ S (2 * S n) / INR (fact (S (2 * S n))))).
    + intros t. replace (2 * S n + 1)%nat with (S (2 * S n)) by lia. symmetry; apply Rmult_assoc.
    + replace ((-1) ^ S n * x ^ (2 * S n) / INR (fact (2 * S n))) with ((-1) ^ S n * (x ^ (2 * S n) / INR (fact (2 * S n))))
        by (unfold Rdiv; ring).
      apply is_derive_scal. apply is_derive_mono.
Qed.

Lemma is_derive_tcos : forall n x, is_derive (tcos (S n)) x (- tsin n x).
Proof.
  assert (M : forall n x, is_derive (fun x => (-1) ^ S n * x ^ (2 * S n) / INR (fact (2 * S n))) x
            (- ((-1) ^ n * x ^ (2 * n + 1) / INR (fact (2 * n + 1))))).
  { intros n x.
    apply is_derive_ext with (f := fun x => (-1) ^ S n * (x ^ S (2 * n + 1) / INR (fact (S (2 * n + 1))))).
    - intros t. replace (2 * S n)%nat with (S (2 * n + 1)) by lia. symmetry; apply Rmult_assoc.
    - replace (- ((-1) ^ n * x ^ (2 * n + 1) / INR (fact (2 * n + 1)))) with
        ((-1) ^ S n * (x ^ (2 * n + 1) / INR (fact (2 * n + 1)))).
      + apply is_derive_scal. apply is_derive_mono.
      + cbn [pow]. unfold Rdiv. ring. }
  induction n as [|n IH]; intros x.
  - apply is_derive_ext with (f := fun x => plus 1 ((-1) ^ 1 * x ^ (2 * 1) / INR (fact (2 * 1)))); [reflexivity|].
    replace (- tsin 0 x) with (plus 0 (- ((-1) ^ 0 * x ^ (2 * 0 + 1) / INR (fact (2 * 0 + 1))))).
    2:{ unfold plus; cbn. field. }
    apply @is_derive_plus; [apply @is_derive_const|]. apply M.
  - apply is_derive_ext with (f := fun x => plus (tcos (S n) x) ((-1) ^ S (S n) * x ^ (2 * S (S n)) / INR (fact (2 * S (S n)))));
      [reflexivity|].
    replace (- tsin (S n) x) with (plus (- tsin n x) (- ((-1) ^ S n * x ^ (2 * S n + 1) / INR (fact (2 * S n + 1))))).
    2:{ unfold plus; cbn [AbelianGroup.sort tsin]; cbn -[pow fact INR Nat.mul Nat.add]. ring. }
    apply @is_derive_plus; [apply IH|]. apply M.
Qed.

Lemma tcos_0 : forall n, tcos n 0 = 1.
Proof.
  induction n as [|n IH]; cbn [tcos]; [reflexivity|]. rewrite IH. rewrite pow_i by lia. unfold Rdiv. ring.
Qed.
Lemma tsin_0 : forall n, tsin n 0 = 0.
Proof.
  induction n as [|n IH]; cbn [tsin]; [reflexivity|]. rewrite IH. rewrite pow_i by lia. unfold Rdiv. ring.
Qed.

Lemma is_derive_cos' : forall x, is_derive cos x (- sin x).
Proof. intros. auto_derive; [exact I|ring]. Qed.
Lemma is_derive_sin' : forall x, is_derive sin x (cos x).
Proof. intros. auto_derive; [exact I|ring]. Qed.

Lemma taylor_signs : forall n x, 0 <= x ->
  0 <= (-1) ^ S n * (cos x - tcos n x) /\ 0 <= (-1) ^ S n * (sin x - tsin n x).
Proof.
  assert (Ssin : forall n, (forall x, 0 <= x -> 0 <= (-1) ^ S n * (cos x - tcos n x)) ->
            forall x, 0 <= x -> 0 <= (-1) ^ S n * (sin x - tsin n x)).
  { intros n H x Hx.
    pose proof (nondecr (fun x => (-1) ^ S n * (sin x - tsin n x)) (fun x => (-1) ^ S n * (cos x - tcos n x)) 0 x Hx) as N.
    cbv beta in N. rewrite sin_0, tsin_0, Rminus_0_r, Rmult_0_r in N. apply N.
    - intros y Hy. apply is_derive_scal. apply @is_derive_minus; [apply is_derive_sin'|apply is_derive_tsin].
    - intros y Hy. apply H. lra. }
  assert (Scos : forall n, (forall x, 0 <= x -> 0 <= (-1) ^ S n * (sin x - tsin n x)) ->
            forall x, 0 <= x -> 0 <= (-1) ^ S (S n) * (cos x - tcos (S n) x)).
  { intros n H x Hx.
    pose proof (nondecr (fun x => (-1) ^ S (S n) * (cos x - tcos (S n) x)) (fun x => (-1) ^ S n * (sin x - tsin n x)) 0 x Hx) as N.
    cbv beta in N. rewrite cos_0, tcos_0, Rminus_diag_eq, Rmult_0_r in N by reflexivity. apply N.
    - intros y Hy. replace ((-1) ^ S n * (sin y - tsin n y)) with ((-1) ^ S (S n) * (- sin y - - tsin n y)) by (cbn [pow]; ring).
      apply is_derive_scal. apply @is_derive_minus; [apply is_derive_cos'|apply is_derive_tcos].
    - intros y Hy. apply H. lra. }
  induction n as [|n IH].
  - assert (C0 : forall x, 0 <= x -> 0 <= (-1) ^ 1 * (cos x - tcos 0 x)).
    { intros x _. cbn. pose proof (COS_bound x). lra. }
    intros x Hx. split; [apply C0; exact Hx|apply (Ssin 0%nat C0 x Hx)].
  - assert (C : forall x, 0 <= x -> 0 <= (-1) ^ S (S n) * (cos x - tcos (S n) x)).
    { apply Scos. intros x Hx. apply IH. exact Hx. }
    intros x Hx. split; [apply C; exact Hx|apply (Ssin (S n) C x Hx)].
Qed.

Lemma pow_m1 : forall n, (-1) ^ n = 1 \/ (-1) ^ n = -1.
Proof. induction n as [|n IH]; cbn; [left; reflexivity|]. destruct IH as [->| ->]; lra. Qed.

Lemma taylor_cos : forall n x, 0 <= x -> Rabs (cos x - tcos n x) <= x ^ (2 * n + 2) / INR (fact (2 * n + 2)).
Proof.
  intros n x Hx. pose proof (proj1 (taylor_signs n x Hx)) as A. pose proof (proj1 (taylor_signs (S n) x Hx)) as B.
  cbn [tcos] in B. replace (2 * S n)%nat with (2 * n + 2)%nat in B by lia.
  assert (P : 0 <= x ^ (2 * n + 2) / INR (fact (2 * n + 2))).
  { apply Rmult_le_pos; [apply pow_le; lra|]. left. apply Rinv_0_lt_compat. apply INR_fact_lt_0. }
  unfold Rdiv in *. rewrite Rmult_assoc in B. set (r := x ^ (2 * n + 2) * / INR (fact (2 * n + 2))) in *.
  cbn [pow] in A, B. destruct (pow_m1 n) as [E|E]; rewrite E in *; apply Rabs_le; lra.
Qed.

Lemma taylor_sin : forall n x, 0 <= x -> Rabs (sin x - tsin n x) <= x ^ (2 * n + 3) / INR (fact (2 * n + 3)).
Proof.
  intros n x Hx. pose proof (proj2 (taylor_signs n x Hx)) as A. pose proof (proj2 (taylor_signs (S n) x Hx)) as B.
  cbn [tsin] in B. replace (2 * S n + 1)%nat with (2 * n + 3)%nat in B by lia.
  assert (P : 0 <= x ^ (2 * n + 3) / INR (fact (2 * n + 3))).
  { apply Rmult_le_pos; [apply pow_le; lra|]. left. apply Rinv_0_lt_compat. apply INR_fact_lt_0. }
  unfold Rdiv in *. rewrite Rmult_assoc in B. set (r := x ^ (2 * n + 3) * / INR (fact (2 * n + 3))) in *.
  cbn [pow] in A, B. destruct (pow_m1 n) as [E|E]; rewrite E in *; apply Rabs_le; lra.
Qed.

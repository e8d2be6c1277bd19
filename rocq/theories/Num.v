(** * Real-number lemmas: angles, atan2, comparison tactics *)
From Coq Require Import Reals ZArith List Bool Lra Lia Psatz.
From Verif Require Import Base ModelUtil.
Import ListNotations.
Open Scope R_scope.

(** ** Angles modulo 2 pi (specification side) *)

(** Two angles denote the same direction. *)
Definition ang_eq (a b : R) : Prop := exists k : Z, a = b + 2 * PI * IZR k.

Lemma ang_eq_refl a : ang_eq a a.
Proof. exists 0%Z. lra. Qed.

Lemma ang_eq_sym a b : ang_eq a b -> ang_eq b a.
Proof. intros [k H]. exists (- k)%Z. rewrite opp_IZR. lra. Qed.

Lemma ang_eq_trans a b c : ang_eq a b -> ang_eq b c -> ang_eq a c.
Proof. intros [k H] [l H']. exists (k + l)%Z. rewrite plus_IZR. lra. Qed.

Lemma ang_eq_add a b c d : ang_eq a b -> ang_eq c d -> ang_eq (a + c) (b + d).
Proof. intros [k H] [l H']. exists (k + l)%Z. rewrite plus_IZR. lra. Qed.

Lemma ang_eq_opp a b : ang_eq a b -> ang_eq (- a) (- b).
Proof. intros [k H]. exists (- k)%Z. rewrite opp_IZR. lra. Qed.

Lemma ang_eq_sub a b c d : ang_eq a b -> ang_eq c d -> ang_eq (a - c) (b - d).
Proof. intros. unfold Rminus. apply ang_eq_add; [assumption|apply ang_eq_opp; assumption]. Qed.

Lemma ang_eq_of_eq a b : a = b -> ang_eq a b.
Proof. intros ->. apply ang_eq_refl. Qed.

Lemma ang_eq_2PI_r a b (k : Z) : ang_eq a b -> ang_eq a (b + 2 * PI * IZR k).
Proof. intros [l H]. exists (l - k)%Z. rewrite minus_IZR. lra. Qed.

Lemma cos_2kPI x (k : Z) : cos (x + 2 * PI * IZR k) = cos x.
Proof.
  destruct k as [|p|p].
  - f_equal. simpl. lra.
  - replace (2 * PI * IZR (Z.pos p)) with (2 * INR (Pos.to_nat p) * PI).
    + apply cos_period.
    + rewrite INR_IPR. unfold IZR. lra.
  - rewrite <- (cos_period _ (Pos.to_nat p)). f_equal.
    rewrite INR_IPR. unfold IZR. lra.
Qed.

Lemma sin_2kPI x (k : Z) : sin (x + 2 * PI * IZR k) = sin x.
Proof.
  destruct k as [|p|p].
  - f_equal. simpl. lra.
  - replace (2 * PI * IZR (Z.pos p)) with (2 * INR (Pos.to_nat p) * PI).
    + apply sin_period.
    + rewrite INR_IPR. unfold IZR. lra.
  - rewrite <- (sin_period _ (Pos.to_nat p)). f_equal.
    rewrite INR_IPR. unfold IZR. lra.
Qed.

Lemma ang_eq_cos a b : ang_eq a b -> cos a = cos b.
Proof. intros [k ->]. apply cos_2kPI. Qed.

Lemma ang_eq_sin a b : ang_eq a b -> sin a = sin b.
Proof. intros [k ->]. apply sin_2kPI. Qed.

(** ** floor, twopify, pify *)

Lemma floorZ_spec x : IZR (floorZ x) <= x < IZR (floorZ x) + 1.
Proof. unfold floorZ. destruct (base_Int_part x). lra. Qed.

Lemma floorZ_unique x (n : Z) : IZR n <= x < IZR n + 1 -> floorZ x = n.
Proof.
  intros H. pose proof (floorZ_spec x) as F.
  assert (floorZ x < n + 1)%Z by (apply lt_IZR; rewrite plus_IZR; lra).
  assert (n < floorZ x + 1)%Z by (apply lt_IZR; rewrite plus_IZR; lra).
  lia.
Qed.

Lemma TWO_PI_pos : 0 < TWO_PI.
Proof. unfold TWO_PI. pose proof PI_RGT_0. lra. Qed.

Lemma twopify_range a : 0 <= twopify a < TWO_PI.
Proof.
  unfold twopify. pose proof TWO_PI_pos as P.
  pose proof (floorZ_spec (a / TWO_PI)) as [H1 H2].
  assert (E : a = TWO_PI * (a / TWO_PI)) by (field; lra).
  set (q := a / TWO_PI) in *. set (n := IZR (floorZ q)) in *.
  split; nra.
Qed.

Lemma twopify_ang a : ang_eq (twopify a) a.
Proof.
  exists (- floorZ (a / TWO_PI))%Z. unfold twopify, TWO_PI. rewrite opp_IZR. lra.
Qed.

Lemma twopify_unique a b : ang_eq a b -> 0 <= a < TWO_PI -> twopify b = a.
Proof.
  intros [k E] R. unfold twopify.
  assert (floorZ (b / TWO_PI) = (- k)%Z) as ->.
  { apply floorZ_unique. rewrite opp_IZR. pose proof TWO_PI_pos as P.
    assert (b / TWO_PI = a / TWO_PI - IZR k).
    { unfold TWO_PI in *. subst a. field. pose proof PI_RGT_0; lra. }
    assert (0 <= a / TWO_PI < 1).
    { split.
      - apply Rmult_le_pos; [lra|]. apply Rlt_le, Rinv_0_lt_compat; lra.
      - apply Rmult_lt_reg_r with TWO_PI; [lra|]. unfold Rdiv. rewrite Rmult_assoc, Rinv_l; lra. }
    lra. }
  rewrite opp_IZR. unfold TWO_PI in *. lra.
Qed.

Lemma twopify_congr a b : ang_eq a b -> twopify a = twopify b.
Proof.
  intros H. symmetry. apply twopify_unique; [|apply twopify_range].
  eapply ang_eq_trans; [apply twopify_ang|exact H].
Qed.

Lemma twopify_id a : 0 <= a < TWO_PI -> twopify a = a.
Proof. intros. apply twopify_unique; [apply ang_eq_refl|assumption]. Qed.

Lemma fmod_ang a : ang_eq (fmod a TWO_PI) a.
Proof. exists (- truncZ (a / TWO_PI))%Z. unfold fmod, TWO_PI. rewrite opp_IZR. lra. Qed.

Lemma truncZ_pos x : 0 <= x -> IZR (truncZ x) <= x < IZR (truncZ x) + 1.
Proof.
  intros H. unfold truncZ. destruct (Rle_dec 0 x); [|lra].
  pose proof (floorZ_spec x). unfold floorZ in *. lra.
Qed.

Lemma truncZ_neg x : x < 0 -> IZR (truncZ x) - 1 < x <= IZR (truncZ x).
Proof.
  intros H. unfold truncZ. destruct (Rle_dec 0 x); [lra|].
  pose proof (floorZ_spec (- x)). unfold floorZ in *. rewrite opp_IZR. lra.
Qed.

Lemma fmod_range a : - TWO_PI < fmod a TWO_PI < TWO_PI.
Proof.
  unfold fmod. pose proof TWO_PI_pos as P.
  assert (E : a = TWO_PI * (a / TWO_PI)) by (field; lra).
  set (q := a / TWO_PI) in *.
  destruct (Rle_dec 0 q) as [H|H].
  - pose proof (truncZ_pos q H). split; nra.
  - pose proof (truncZ_neg q ltac:(lra)). split; nra.
Qed.

Lemma pify_ang a : ang_eq (pify a) a.
Proof.
  unfold pify. pose proof (fmod_ang a) as [k E]. unfold TWO_PI in *.
  destruct (Rlt_dec _ _); [|destruct (Rlt_dec _ _)].
  - exists (k + 1)%Z. rewrite plus_IZR. lra.
  - exists (k - 1)%Z. rewrite minus_IZR. lra.
  - exists k. lra.
Qed.

Lemma pify_range a : - PI <= pify a <= PI.
Proof.
  unfold pify. pose proof (fmod_range a). unfold TWO_PI in *.
  repeat destruct (Rlt_dec _ _); lra.
Qed.

Lemma cos_twopify a : cos (twopify a) = cos a.
Proof. apply ang_eq_cos, twopify_ang. Qed.
Lemma sin_twopify a : sin (twopify a) = sin a.
Proof. apply ang_eq_sin, twopify_ang. Qed.
Lemma cos_pify a : cos (pify a) = cos a.
Proof. apply ang_eq_cos, pify_ang. Qed.
Lemma sin_pify a : sin (pify a) = sin a.
Proof. apply ang_eq_sin, pify_ang. Qed.

(** Equal cosine and sine mean equal direction. *)
Lemma cos_0_inv x : 0 <= x < TWO_PI -> cos x = 1 -> x = 0.
Proof.
  intros H C. unfold TWO_PI in *. pose proof PI_RGT_0 as P.
  destruct (Req_dec x 0) as [|N]; [assumption|exfalso].
  destruct (Rle_dec x PI) as [L|L].
  - pose proof (cos_decreasing_1 0 x ltac:(lra) ltac:(lra) ltac:(lra) ltac:(lra) ltac:(lra)).
    rewrite cos_0 in *. lra.
  - pose proof (cos_increasing_1 x (2 * PI) ltac:(lra) ltac:(lra) ltac:(lra) ltac:(lra) ltac:(lra)).
    rewrite cos_2PI in *. lra.
Qed.

Lemma ang_eq_of_cos_sin a b : cos a = cos b -> sin a = sin b -> ang_eq a b.
Proof.
  intros C S.
  assert (cos (a - b) = 1).
  { rewrite cos_minus, C, S. pose proof (sin2_cos2 b). unfold Rsqr in *. lra. }
  assert (twopify (a - b) = 0).
  { apply cos_0_inv; [apply twopify_range|]. rewrite cos_twopify. assumption. }
  pose proof (twopify_ang (a - b)) as [k E]. exists (- k)%Z. rewrite opp_IZR. lra.
Qed.

Lemma ang_eq_iff a b : ang_eq a b <-> cos a = cos b /\ sin a = sin b.
Proof.
  split; [intros; split; [apply ang_eq_cos|apply ang_eq_sin]; assumption|].
  intros []. apply ang_eq_of_cos_sin; assumption.
Qed.

(** ** atan2 *)

Lemma sq_ge0 x : 0 <= x * x.
Proof. nra. Qed.

Lemma cos_atan_sqrt a : cos (atan a) = 1 / sqrt (1 + a²).
Proof. apply cos_atan. Qed.

Lemma sqrt_sum_pos x y : x <> 0 \/ y <> 0 -> 0 < sqrt (x * x + y * y).
Proof. intros H. apply sqrt_lt_R0. destruct H; nra. Qed.

Lemma sqrt_factor x y : 0 < x -> sqrt (x * x + y * y) = x * sqrt (1 + (y / x)²).
Proof.
  intros H. replace (x * x + y * y) with ((x * x) * (1 + (y / x)²)) by (unfold Rsqr; field; lra).
  rewrite sqrt_mult; [|nra|unfold Rsqr; pose proof (sq_ge0 (y / x)); lra].
  rewrite sqrt_square; lra.
Qed.

Lemma one_plus_sqr_pos a : 0 < sqrt (1 + a²).
Proof. apply sqrt_lt_R0. unfold Rsqr. nra. Qed.

Lemma atan2_cos x y : sqrt (x * x + y * y) * cos (atan2 y x) = x.
Proof.
  unfold atan2.
  destruct (Rlt_dec 0 x) as [Hx|Hx].
  - rewrite cos_atan, sqrt_factor by assumption. field. apply Rgt_not_eq, one_plus_sqr_pos.
  - destruct (Rlt_dec x 0) as [Hx'|Hx'].
    + assert (H : sqrt (x * x + y * y) * cos (atan (y / x)) = - x).
      { replace (x * x + y * y) with ((- x) * (- x) + (- y) * (- y)) by ring.
        rewrite cos_atan, sqrt_factor by lra.
        replace (- y / - x) with (y / x) by (field; lra).
        field. apply Rgt_not_eq, one_plus_sqr_pos. }
      destruct (Rle_dec 0 y).
      * rewrite neg_cos. lra.
      * replace (atan (y / x) - PI) with (- (- atan (y / x) + PI)) by ring.
        rewrite cos_neg, neg_cos, cos_neg. lra.
    + assert (x = 0) as -> by lra.
      replace (0 * 0 + y * y) with (y * y) by ring.
      destruct (Rlt_dec 0 y); [rewrite cos_PI2; ring|].
      destruct (Rlt_dec y 0); [rewrite cos_neg, cos_PI2; ring|].
      assert (y = 0) as -> by lra. rewrite cos_0, Rmult_0_r, sqrt_0. ring.
Qed.

Lemma atan2_sin x y : sqrt (x * x + y * y) * sin (atan2 y x) = y.
Proof.
  unfold atan2.
  destruct (Rlt_dec 0 x) as [Hx|Hx].
  - rewrite sin_atan, sqrt_factor by assumption. field.
    split; (lra || apply Rgt_not_eq, one_plus_sqr_pos).
  - destruct (Rlt_dec x 0) as [Hx'|Hx'].
    + assert (H : sqrt (x * x + y * y) * sin (atan (y / x)) = - y).
      { replace (x * x + y * y) with ((- x) * (- x) + (- y) * (- y)) by ring.
        rewrite sin_atan, sqrt_factor by lra.
        replace (- y / - x) with (y / x) by (field; lra).
        field. split; (lra || apply Rgt_not_eq, one_plus_sqr_pos). }
      destruct (Rle_dec 0 y).
      * rewrite neg_sin. lra.
      * replace (atan (y / x) - PI) with (- (- atan (y / x) + PI)) by ring.
        rewrite sin_neg, neg_sin, sin_neg. lra.
    + assert (x = 0) as -> by lra.
      replace (0 * 0 + y * y) with (y * y) by ring.
      destruct (Rlt_dec 0 y); [rewrite sin_PI2, sqrt_square by lra; ring|].
      destruct (Rlt_dec y 0).
      * rewrite sin_neg, sin_PI2. replace (y * y) with ((- y) * (- y)) by ring.
        rewrite sqrt_square by lra. ring.
      * assert (y = 0) as -> by lra. rewrite sin_0. ring.
Qed.

Lemma atan2_range y x : - PI < atan2 y x <= PI.
Proof.
  unfold atan2. pose proof (atan_bound (y / x)). pose proof PI_RGT_0.
  destruct (Rlt_dec 0 x); [lra|]. destruct (Rlt_dec x 0).
  - assert (K : forall z, 0 < z -> 0 < atan z).
    { intros z Hz. rewrite <- atan_0. apply atan_increasing. assumption. }
    destruct (Rle_dec 0 y) as [Hy|Hy].
    + assert (atan (y / x) <= 0).
      { destruct (Req_dec y 0) as [->|]; [unfold Rdiv; rewrite Rmult_0_l, atan_0; lra|].
        replace (y / x) with (- (y / - x)) by (field; lra). rewrite atan_opp.
        assert (P : 0 < y / - x) by (apply Rdiv_lt_0_compat; lra).
        specialize (K _ P). lra. }
      lra.
    + assert (P : 0 < y / x).
      { replace (y / x) with (- y / - x) by (field; lra). apply Rdiv_lt_0_compat; lra. }
      specialize (K _ P). lra.
  - repeat destruct (Rlt_dec _ _); lra.
Qed.

(** Uniqueness: any polar representation with positive radius has the angle of atan2. *)
Lemma atan2_polar r a : 0 < r -> ang_eq (atan2 (r * sin a) (r * cos a)) a.
Proof.
  intros H. pose proof (atan2_cos (r * cos a) (r * sin a)) as C.
  pose proof (atan2_sin (r * cos a) (r * sin a)) as S.
  assert (E : sqrt (r * cos a * (r * cos a) + r * sin a * (r * sin a)) = r).
  { replace (r * cos a * (r * cos a) + r * sin a * (r * sin a)) with (r * r).
    - apply sqrt_square. lra.
    - pose proof (sin2_cos2 a) as Q. unfold Rsqr in Q. nra. }
  rewrite E in C, S.
  apply ang_eq_of_cos_sin; nra.
Qed.

Lemma sin2_cos2' x : sin x * sin x + cos x * cos x = 1.
Proof. exact (sin2_cos2 x). Qed.

Lemma cos2_sin2' x : cos x * cos x = 1 - sin x * sin x.
Proof. pose proof (sin2_cos2' x). lra. Qed.

(** ** Boolean comparisons *)
Lemma Rltb_spec x y : reflect (x < y) (Rltb x y).
Proof. unfold Rltb. destruct (Rlt_dec x y); constructor; lra. Qed.
Lemma Rleb_spec x y : reflect (x <= y) (Rleb x y).
Proof. unfold Rleb. destruct (Rle_dec x y); constructor; lra. Qed.
Lemma Rltb_true x y : Rltb x y = true <-> x < y.
Proof. destruct (Rltb_spec x y); intuition (lra || discriminate). Qed.
Lemma Rltb_false x y : Rltb x y = false <-> y <= x.
Proof. destruct (Rltb_spec x y); intuition (lra || discriminate). Qed.
Lemma Rleb_true x y : Rleb x y = true <-> x <= y.
Proof. destruct (Rleb_spec x y); intuition (lra || discriminate). Qed.
Lemma Rleb_false x y : Rleb x y = false <-> y < x.
Proof. destruct (Rleb_spec x y); intuition (lra || discriminate). Qed.

(** ** sgn *)
Lemma sgn_cases x : (x < 0 /\ sgn x = -1) \/ (0 <= x /\ sgn x = 1).
Proof. unfold sgn. destruct (Rlt_dec x 0); [left|right]; lra. Qed.
Lemma sgn_sq x : sgn x * sgn x = 1.
Proof. destruct (sgn_cases x) as [[_ ->]|[_ ->]]; ring. Qed.
Lemma sgn_abs x : sgn x * Rabs x = x.
Proof.
  destruct (sgn_cases x) as [[H ->]|[H ->]]; [rewrite Rabs_left by lra|rewrite Rabs_right by lra]; ring.
Qed.
Lemma sgn_mul_self x : sgn x * x = Rabs x.
Proof.
  destruct (sgn_cases x) as [[H ->]|[H ->]]; [rewrite Rabs_left by lra|rewrite Rabs_right by lra]; ring.
Qed.
Lemma sgn_abs1 x : Rabs (sgn x) = 1.
Proof. destruct (sgn_cases x) as [[H ->]|[H ->]]; [rewrite Rabs_left|rewrite Rabs_right]; lra. Qed.
Lemma sgn_nz x : sgn x <> 0.
Proof. destruct (sgn_cases x) as [[H ->]|[H ->]]; lra. Qed.

Lemma div_nonneg a b : 0 <= a -> 0 < b -> 0 <= a / b.
Proof. intros A B. apply Rmult_le_pos; [assumption|]. left. apply Rinv_0_lt_compat. assumption. Qed.

Lemma abs_bounds x y : Rabs x <= y -> - y <= x <= y.
Proof. unfold Rabs. destruct (Rcase_abs x); lra. Qed.

(** * Rounding errors of sums and products *)
From Coq Require Import Reals ZArith List Lra Lia Psatz.
From Flocq Require Import Core.
From Coquelicot Require Import Rcomplements.
From Verif Require Import Num JacProofs ModelFloat FloatProofs StepProofs ArcProofs.
Open Scope R_scope.

(** [a] approximates [b] up to [e]. *)
Definition near (e a b : R) : Prop := Rabs (a - b) <= e.

Lemma near_refl a : near 0 a a.
Proof. unfold near. rewrite Rminus_eq_0, Rabs_R0. lra. Qed.
Lemma near_le e e' a b : e <= e' -> near e a b -> near e' a b.
Proof. unfold near. lra. Qed.
Lemma near_trans e e' a b c : near e a b -> near e' b c -> near (e + e') a c.
Proof. unfold near. intros A B. replace (a - c) with ((a - b) + (b - c)) by ring. eapply Rle_trans; [apply Rabs_triang|lra]. Qed.
Lemma near_sym e a b : near e a b -> near e b a.
Proof. unfold near. rewrite Rabs_minus_sym. auto. Qed.
Lemma near_opp e a b : near e a b -> near e (- a) (- b).
Proof. unfold near. replace (- a - - b) with (- (a - b)) by ring. rewrite Rabs_Ropp. auto. Qed.
Lemma near_abs e a b M : near e a b -> Rabs b <= M -> Rabs a <= M + e.
Proof. unfold near. intros A B. replace a with ((a - b) + b) by ring. eapply Rle_trans; [apply Rabs_triang|lra]. Qed.

(** Exact operations. *)
Lemma near_plus0 ea eb a a' b b' : near ea a a' -> near eb b b' -> near (ea + eb) (a + b) (a' + b').
Proof. unfold near. intros A B. replace (a + b - (a' + b')) with ((a - a') + (b - b')) by ring. eapply Rle_trans; [apply Rabs_triang|lra]. Qed.
Lemma near_mult0 ea eb A B a a' b b' : near ea a a' -> near eb b b' -> Rabs a' <= A -> Rabs b' <= B -> near (A * eb + B * ea + ea * eb) (a * b) (a' * b').
Proof.
  unfold near. intros NA NB BA BB. replace (a * b - a' * b') with (a' * (b - b') + b' * (a - a') + (a - a') * (b - b')) by ring.
  eapply Rle_trans; [apply Rabs_triang|]. apply Rplus_le_compat; [eapply Rle_trans; [apply Rabs_triang|]; apply Rplus_le_compat|]; rewrite Rabs_mult; apply Rmult_le_compat; try apply Rabs_pos; assumption.
Qed.

(** Rounded operations; [M] bounds the result and is not too small. *)
Lemma near_rnd e a b M : near e a b -> Rabs b <= M -> 1 <= 1000 * M -> e <= M / 1000 -> near (e + 101 / 100 * u64 * M) (rnd a) b.
Proof.
  intros A B M1 E. pose proof (rnd_err a) as R. pose proof (near_abs e a b M A B) as C. fold u64 in R. pose proof u64_pos as U. pose proof tiny as T.
  apply near_le with ((u64 * Rabs a + / 2 ^ 1000) + e); [|apply (near_trans _ _ _ a); [exact R|exact A]].
  assert (u64 * Rabs a <= u64 * (1001 / 1000 * M)) by (apply Rmult_le_compat_l; lra).
  assert (/ 2 ^ 90 <= u64 * (1 / 1000000)) by (unfold u64; lra). assert (u64 * (1 / 1000000) <= u64 * (M / 1000)) by (apply Rmult_le_compat_l; lra). lra.
Qed.
Lemma near_add ea eb M e a a' b b' : near ea a a' -> near eb b b' -> Rabs (a' + b') <= M -> 1 <= 1000 * M -> ea + eb <= M / 1000 ->
  ea + eb + 101 / 100 * u64 * M <= e -> near e (rnd (a + b)) (a' + b').
Proof. intros A B C D E F. eapply near_le; [exact F|]. apply near_rnd; [apply near_plus0; assumption|assumption|assumption|assumption]. Qed.
Lemma near_sub ea eb M e a a' b b' : near ea a a' -> near eb b b' -> Rabs (a' - b') <= M -> 1 <= 1000 * M -> ea + eb <= M / 1000 ->
  ea + eb + 101 / 100 * u64 * M <= e -> near e (rnd (a - b)) (a' - b').
Proof. intros A B. apply (near_add ea eb M e a a' (- b) (- b') A (near_opp _ _ _ B)). Qed.
Lemma near_mul ea eb A B M e a a' b b' : near ea a a' -> near eb b b' -> Rabs a' <= A -> Rabs b' <= B -> A * B <= M -> 1 <= 1000 * M -> A * eb + B * ea + ea * eb <= M / 1000 ->
  A * eb + B * ea + ea * eb + 101 / 100 * u64 * M <= e -> near e (rnd (a * b)) (a' * b').
Proof.
  intros NA NB BA BB C D E F. eapply near_le; [exact F|]. apply near_rnd; [apply near_mult0; assumption| |assumption|assumption].
  rewrite Rabs_mult. eapply Rle_trans; [|exact C]. apply Rmult_le_compat; try apply Rabs_pos; assumption.
Qed.

(** Square roots. *)
Lemma sqrt_near_small x y e : 0 <= y -> 0 <= e -> near (e * e) x (y * y) -> near e (sqrt (Rmax x 0)) y.
Proof.
  unfold near. intros Y E N. apply Rabs_le_between in N. apply Rabs_le_between.
  assert (P : 0 <= sqrt (Rmax x 0)) by apply sqrt_pos. assert (Q : sqrt (Rmax x 0) * sqrt (Rmax x 0) = Rmax x 0) by (apply sqrt_sqrt; apply Rmax_r).
  set (z := sqrt (Rmax x 0)) in *. assert (Z : z * z <= y * y + e * e) by (rewrite Q; apply Rmax_lub; nra). assert (Z' : y * y - e * e <= z * z) by (rewrite Q; pose proof (Rmax_l x 0); lra).
  split; nra.
Qed.
Lemma sqrt_near_big x y e : 0 < y -> near (e * y) x (y * y) -> near e (sqrt (Rmax x 0)) y.
Proof.
  unfold near. intros Y N. apply Rabs_le_between in N. apply Rabs_le_between.
  assert (P : 0 <= sqrt (Rmax x 0)) by apply sqrt_pos. assert (Q : sqrt (Rmax x 0) * sqrt (Rmax x 0) = Rmax x 0) by (apply sqrt_sqrt; apply Rmax_r).
  set (z := sqrt (Rmax x 0)) in *. assert (0 <= e) by nra. assert (Z : z * z <= y * y + e * y) by (rewrite Q; apply Rmax_lub; nra). assert (Z' : y * y - e * y <= z * z) by (rewrite Q; pose proof (Rmax_l x 0); lra).
  split; nra.
Qed.

(** Angles. *)
Definition near_ang (e a b : R) : Prop := exists n : Z, Rabs (a - b - 2 * PI * IZR n) <= e.
Lemma near_ang_of e a b : near e a b -> near_ang e a b.
Proof. intros H. exists 0%Z. rewrite Rmult_0_r, Rminus_0_r. exact H. Qed.
Lemma near_ang_le e e' a b : e <= e' -> near_ang e a b -> near_ang e' a b.
Proof. intros E (n & H). exists n. lra. Qed.
Lemma near_ang_plus ea eb a a' b b' : near_ang ea a a' -> near_ang eb b b' -> near_ang (ea + eb) (a + b) (a' + b').
Proof. intros (n & A) (m & B). exists (n + m)%Z. rewrite plus_IZR. replace (a + b - (a' + b') - 2 * PI * (IZR n + IZR m)) with ((a - a' - 2 * PI * IZR n) + (b - b' - 2 * PI * IZR m)) by ring. eapply Rle_trans; [apply Rabs_triang|lra]. Qed.
Lemma near_ang_opp ea a a' : near_ang ea a a' -> near_ang ea (- a) (- a').
Proof. intros (n & A). exists (- n)%Z. rewrite opp_IZR. replace (- a - - a' - 2 * PI * - IZR n) with (- (a - a' - 2 * PI * IZR n)) by ring. rewrite Rabs_Ropp. exact A. Qed.
Lemma near_ang_trans ea eb a b c : near_ang ea a b -> near_ang eb b c -> near_ang (ea + eb) a c.
Proof. intros (n & A) (m & B). exists (n + m)%Z. rewrite plus_IZR. replace (a - c - 2 * PI * (IZR n + IZR m)) with ((a - b - 2 * PI * IZR n) + (b - c - 2 * PI * IZR m)) by ring. eapply Rle_trans; [apply Rabs_triang|lra]. Qed.
Lemma near_ang_cos e a b : near_ang e a b -> near e (cos a) (cos b).
Proof.
  intros (n & A). unfold near. assert (AE : ang_eq (b + 2 * PI * IZR n) b) by (apply ang_eq_sym, ang_eq_2PI_r, ang_eq_refl).
  rewrite <- (ang_eq_cos _ _ AE). eapply Rle_trans; [apply cos_lip|]. replace (a - (b + 2 * PI * IZR n)) with (a - b - 2 * PI * IZR n) by ring. exact A.
Qed.
Lemma near_ang_sin e a b : near_ang e a b -> near e (sin a) (sin b).
Proof.
  intros (n & A). unfold near. assert (AE : ang_eq (b + 2 * PI * IZR n) b) by (apply ang_eq_sym, ang_eq_2PI_r, ang_eq_refl).
  rewrite <- (ang_eq_sin _ _ AE). eapply Rle_trans; [apply sin_lip|]. replace (a - (b + 2 * PI * IZR n)) with (a - b - 2 * PI * IZR n) by ring. exact A.
Qed.

(** twopify of an angle of at most [40]. *)
Lemma twopify_near a : Rabs a <= 40 -> near_ang (1 / 10 ^ 13) (twopify64 a) a /\ binary64 (twopify64 a) /\ - (1 / 10 ^ 13) <= twopify64 a <= TWO_PI64 + 1 / 10 ^ 13.
Proof.
  intros A. destruct (twopify_range a) as (n & E & R). split; [|split; [apply rnd_format|]].
  - exists (- n)%Z. rewrite opp_IZR. pose proof two_pi_err as TE. pose proof T_bounds as TB.
    assert (NB : Rabs (IZR n) <= 10).
    { assert (B : Rabs (IZR n * TWO_PI64) <= 55).
      { replace (IZR n * TWO_PI64) with ((twopify64 a - (a - IZR n * TWO_PI64)) - twopify64 a + a) by ring.
        eapply Rle_trans; [apply Rabs_triang|]. pose proof (Rabs_triang (twopify64 a - (a - IZR n * TWO_PI64)) (- twopify64 a)) as TR. rewrite Rabs_Ropp in TR. fold (Rminus (twopify64 a - (a - IZR n * TWO_PI64)) (twopify64 a)) in TR.
        assert (Rabs (twopify64 a) <= 8) by (apply Rabs_le_between; lra). lra. }
      rewrite Rabs_mult, (Rabs_pos_eq TWO_PI64) in B by lra. assert (Rabs (IZR n) * 6 <= Rabs (IZR n) * TWO_PI64) by (apply Rmult_le_compat_l; [apply Rabs_pos|lra]). lra. }
    replace (twopify64 a - a - 2 * PI * - IZR n) with ((twopify64 a - (a - IZR n * TWO_PI64)) + IZR n * (2 * PI - TWO_PI64)) by ring.
    eapply Rle_trans; [apply Rabs_triang|]. rewrite (Rabs_mult (IZR n)).
    assert (Rabs (IZR n) * Rabs (2 * PI - TWO_PI64) <= 10 * (2 / 10 ^ 15)); [|lra].
    apply Rmult_le_compat; try apply Rabs_pos; [exact NB|]. eapply Rle_trans; [exact TE|]. unfold u64. lra.
  - lra.
Qed.

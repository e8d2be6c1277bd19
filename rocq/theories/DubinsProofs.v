(** * Proofs about the Dubins planner *)
From Coq Require Import Reals ZArith List Bool Lra Lia Psatz.
From Verif Require Import Base ModelUtil ModelFresnel ModelIntegrate ModelDubins Num UtilProofs
  SpecPath IntegrateProofs.
Import ListNotations.
Open Scope R_scope.

(** ** Words in the plane with curvature 1 *)

Definition useg (s : DSeg) (l : R) (P : R * R * R) : R * R * R :=
  let '(x, y, th) := P in
  match s with
  | DUBINS_LEFT => (x + (sin (th + l) - sin th), y + (cos th - cos (th + l)), th + l)
  | DUBINS_STRAIGHT => (x + l * cos th, y + l * sin th, th)
  | DUBINS_RIGHT => (x + (sin th - sin (th - l)), y + (cos (th - l) - cos th), th - l)
  end.

Definition uword (ty : list DSeg) (ls : list R) (P : R * R * R) : R * R * R :=
  fold_left (fun P x => useg (fst x) (snd x) P) (combine ty ls) P.

(** [P] is within [e] of position (d,0) and has heading [beta]. *)
Definition ureach (e d beta : R) (P : R * R * R) : Prop :=
  (fst (fst P) - d) ^ 2 + snd (fst P) ^ 2 <= e ^ 2 /\ ang_eq (snd P) beta.

Lemma ureach_exact d beta x y th : x = d -> y = 0 -> ang_eq th beta -> ureach 0 d beta (x, y, th).
Proof. intros -> -> H. split; [simpl; lra|assumption]. Qed.

Lemma tw_add a b : ang_eq (a + twopify (- a + b)) b.
Proof.
  eapply ang_eq_trans; [apply ang_eq_add; [apply ang_eq_refl|apply twopify_ang]|].
  apply ang_eq_of_eq. ring.
Qed.
Lemma tw_sub a b : ang_eq (a - twopify (a - b)) b.
Proof.
  eapply ang_eq_trans; [apply ang_eq_sub; [apply ang_eq_refl|apply twopify_ang]|].
  apply ang_eq_of_eq. ring.
Qed.

Lemma tw_min x : 0 <= x -> twopify x <= x.
Proof.
  intros P. unfold twopify. pose proof TWO_PI_pos as T.
  assert (0 <= x / TWO_PI) by (apply div_nonneg; assumption).
  assert (0 <= IZR (floorZ (x / TWO_PI))).
  { apply IZR_le. pose proof (floorZ_spec (x / TWO_PI)) as F.
    assert (-1 < IZR (floorZ (x / TWO_PI))) by lra. apply (lt_IZR (-1)) in H0. lia. }
  nra.
Qed.

Lemma tw_le a x : 0 <= x -> ang_eq x a -> twopify a <= x.
Proof. intros P H. rewrite <- (twopify_congr _ _ H). apply tw_min. assumption. Qed.

Lemma sqrt_max_nonneg x : 0 <= x -> sqrt (Rmax x 0) = sqrt x.
Proof. intros H. rewrite Rmax_left by assumption. reflexivity. Qed.

Lemma sq_sqrt x : 0 <= x -> sqrt x * sqrt x = x.
Proof. apply sqrt_sqrt. Qed.

Lemma atan2_pair x y : exists r, r = sqrt (x * x + y * y) /\ 0 <= r /\ r * r = x * x + y * y /\
  r * cos (atan2 y x) = x /\ r * sin (atan2 y x) = y.
Proof.
  exists (sqrt (x * x + y * y)). split; [reflexivity|]. split; [apply sqrt_pos|].
  split; [apply sqrt_sqrt; nra|]. split; [apply atan2_cos|apply atan2_sin].
Qed.

Section Words.
  Variables d alpha beta : R.
  Let ca := cos alpha. Let sa := sin alpha. Let cb := cos beta. Let sb := sin beta.
  Lemma Ha : sa * sa + ca * ca = 1.
  Proof. exact (sin2_cos2' alpha). Qed.
  Lemma Hb : sb * sb + cb * cb = 1.
  Proof. exact (sin2_cos2' beta). Qed.

  Lemma tmpLSL_sq : tmpLSL d alpha beta = (d + sa - sb) * (d + sa - sb) + (cb - ca) * (cb - ca).
  Proof. unfold tmpLSL. fold ca sa cb sb. pose proof Ha. pose proof Hb. nra. Qed.
  Lemma tmpRSR_sq : tmpRSR d alpha beta = (d - sa + sb) * (d - sa + sb) + (ca - cb) * (ca - cb).
  Proof. unfold tmpRSR. fold ca sa cb sb. pose proof Ha. pose proof Hb. nra. Qed.
  Lemma tmpRSL_sq : tmpRSL d alpha beta + 4 = (d - sa - sb) * (d - sa - sb) + (ca + cb) * (ca + cb).
  Proof. unfold tmpRSL. fold ca sa cb sb. pose proof Ha. pose proof Hb. nra. Qed.
  Lemma tmpLSR_sq : tmpLSR d alpha beta + 4 = (d + sa + sb) * (d + sa + sb) + (- ca - cb) * (- ca - cb).
  Proof. unfold tmpLSR. fold ca sa cb sb. pose proof Ha. pose proof Hb. nra. Qed.
  Lemma tmpRLR_sq : 8 * (1 - tmpRLR d alpha beta) = (d - sa + sb) * (d - sa + sb) + (ca - cb) * (ca - cb).
  Proof. unfold tmpRLR. fold ca sa cb sb. pose proof Ha. pose proof Hb. nra. Qed.
  Lemma tmpLRL_sq : 8 * (1 - tmpLRL d alpha beta) = (d + sa - sb) * (d + sa - sb) + (- ca + cb) * (- ca + cb).
  Proof. unfold tmpLRL. fold ca sa cb sb. pose proof Ha. pose proof Hb. nra. Qed.

  Lemma tmpLSL_pos : 0 <= tmpLSL d alpha beta.
  Proof. rewrite tmpLSL_sq. apply Rplus_le_le_0_compat; apply sq_ge0. Qed.
  Lemma tmpRSR_pos : 0 <= tmpRSR d alpha beta.
  Proof. rewrite tmpRSR_sq. apply Rplus_le_le_0_compat; apply sq_ge0. Qed.

  Lemma LSL_reach : ureach 0 d beta
    (uword (dubins_path_type 0) [dp_t (solveLSL d alpha beta); dp_p (solveLSL d alpha beta);
                                 dp_q (solveLSL d alpha beta)] (0, 0, alpha)).
  Proof.
    unfold solveLSL. cbn -[twopify atan2 sin cos]. fold ca sa cb sb.
    rewrite (sqrt_max_nonneg _ tmpLSL_pos), tmpLSL_sq.
    set (th := atan2 (cb - ca) (d + sa - sb)).
    pose proof (tw_add alpha th) as A. set (t := twopify (- alpha + th)) in *.
    destruct (atan2_pair (d + sa - sb) (cb - ca)) as (r & <- & R0 & R1 & R2 & R3). fold th in R2, R3.
    assert (B : ang_eq (alpha + t + twopify (beta - th)) beta).
    { eapply ang_eq_trans; [apply ang_eq_add; [exact A|apply twopify_ang]|]. apply ang_eq_of_eq. ring. }
    apply ureach_exact; [| |exact B].
    - rewrite (ang_eq_sin _ _ A), (ang_eq_cos _ _ A), (ang_eq_sin _ _ B). fold sb. lra.
    - rewrite (ang_eq_sin _ _ A), (ang_eq_cos _ _ A), (ang_eq_cos _ _ B). fold cb. lra.
  Qed.

  Lemma RSR_reach : ureach 0 d beta
    (uword (dubins_path_type 1) [dp_t (solveRSR d alpha beta); dp_p (solveRSR d alpha beta);
                                 dp_q (solveRSR d alpha beta)] (0, 0, alpha)).
  Proof.
    unfold solveRSR. cbn -[twopify atan2 sin cos]. fold ca sa cb sb.
    rewrite (sqrt_max_nonneg _ tmpRSR_pos), tmpRSR_sq.
    set (th := atan2 (ca - cb) (d - sa + sb)).
    pose proof (tw_sub alpha th) as A. set (t := twopify (alpha - th)) in *.
    destruct (atan2_pair (d - sa + sb) (ca - cb)) as (r & <- & R0 & R1 & R2 & R3). fold th in R2, R3.
    assert (B : ang_eq (alpha - t - twopify (- beta + th)) beta).
    { eapply ang_eq_trans; [apply ang_eq_sub; [exact A|apply twopify_ang]|]. apply ang_eq_of_eq. ring. }
    apply ureach_exact; [| |exact B].
    - rewrite (ang_eq_sin _ _ A), (ang_eq_cos _ _ A), (ang_eq_sin _ _ B). fold sb. lra.
    - rewrite (ang_eq_sin _ _ A), (ang_eq_cos _ _ A), (ang_eq_cos _ _ B). fold cb. lra.
  Qed.

  (** [p] with [p * p + 4] close to the squared centre distance [T + 4]. *)
  Lemma clamp_close T : DUBINS_ZERO <= T ->
    Rabs (sqrt (Rmax T 0 + 4) - sqrt (T + 4)) <= 1 / 1000000000.
  Proof.
    unfold DUBINS_ZERO. intros H. destruct (Rle_lt_dec 0 T) as [L|L].
    - rewrite Rmax_left by assumption. rewrite Rminus_diag_eq by reflexivity. rewrite Rabs_R0. lra.
    - rewrite Rmax_right by lra.
      set (a := sqrt (0 + 4)). set (b := sqrt (T + 4)).
      assert (a * a = 4) by (unfold a; rewrite sqrt_sqrt; lra).
      assert (b * b = T + 4) by (unfold b; rewrite sqrt_sqrt; lra).
      assert (0 <= a) by apply sqrt_pos. assert (0 <= b) by apply sqrt_pos.
      assert (2 <= a) by nra. apply Rabs_le. split; nra.
  Qed.

  Lemma RSL_reach : DUBINS_ZERO <= tmpRSL d alpha beta -> exists e,
    e * e <= (1 / 1000000000) ^ 2 /\ (0 <= tmpRSL d alpha beta -> e = 0) /\
    ureach e d beta
    (uword (dubins_path_type 2) [dp_t (solveRSL d alpha beta); dp_p (solveRSL d alpha beta);
                                 dp_q (solveRSL d alpha beta)] (0, 0, alpha)).
  Proof.
    intros T. pose proof (clamp_close _ T) as C.
    exists (sqrt (Rmax (tmpRSL d alpha beta) 0 + 4) - sqrt (tmpRSL d alpha beta + 4)).
    split; [|split].
    { apply abs_bounds in C. nra. }
    { intros P. rewrite Rmax_left by assumption. ring. }
    unfold solveRSL. cbn -[twopify atan2 sin cos pow]. fold ca sa cb sb.
    set (m := Rmax (tmpRSL d alpha beta) 0) in *. set (p := sqrt m).
    assert (M0 : 0 <= m) by apply Rmax_r.
    assert (PP : p * p = m) by (unfold p; apply sqrt_sqrt; assumption).
    destruct (atan2_pair (d - sa - sb) (ca + cb)) as (r & Rr & R0 & R1 & R2 & R3).
    destruct (atan2_pair p 2) as (r' & Rr' & R0' & R1' & R2' & R3').
    rewrite tmpRSL_sq, <- Rr. replace (m + 4) with (p * p + 2 * 2) by lra. rewrite <- Rr'.
    clear C Rr Rr'.
    set (tha := atan2 (ca + cb) (d - sa - sb)) in *. set (thb := atan2 2 p) in *.
    set (th := tha - thb) in *.
    pose proof (tw_sub alpha th) as A. set (t := twopify (alpha - th)) in *.
    assert (B : ang_eq (alpha - t + twopify (beta - th)) beta).
    { eapply ang_eq_trans; [apply ang_eq_add; [exact A|apply twopify_ang]|]. apply ang_eq_of_eq. ring. }
    assert (Q1 : p * cos th - 2 * sin th = r' * cos tha).
    { replace tha with (th + thb) by (unfold th; ring). rewrite cos_plus, <- R2', <- R3'. ring. }
    assert (Q2 : p * sin th + 2 * cos th = r' * sin tha).
    { replace tha with (th + thb) by (unfold th; ring). rewrite sin_plus, <- R2', <- R3'. ring. }
    split; [|exact B]. simpl fst; simpl snd.
    rewrite (ang_eq_sin _ _ A), (ang_eq_cos _ _ A), (ang_eq_sin _ _ B), (ang_eq_cos _ _ B).
    fold sa sb ca cb.
    match goal with |- (?x - d) ^ 2 + ?y ^ 2 <= _ =>
      assert (X : x - d = (r' - r) * cos tha) by lra;
      assert (Y : y = (r' - r) * sin tha) by lra end.
    rewrite X, Y. right.
    transitivity ((r' - r) ^ 2 * (sin tha * sin tha + cos tha * cos tha)); [ring|].
    rewrite sin2_cos2'. ring.
  Qed.

  Lemma LSR_reach : DUBINS_ZERO <= tmpLSR d alpha beta -> exists e,
    e * e <= (1 / 1000000000) ^ 2 /\ (0 <= tmpLSR d alpha beta -> e = 0) /\
    ureach e d beta
    (uword (dubins_path_type 3) [dp_t (solveLSR d alpha beta); dp_p (solveLSR d alpha beta);
                                 dp_q (solveLSR d alpha beta)] (0, 0, alpha)).
  Proof.
    intros T. pose proof (clamp_close _ T) as C.
    exists (sqrt (Rmax (tmpLSR d alpha beta) 0 + 4) - sqrt (tmpLSR d alpha beta + 4)).
    split; [|split].
    { apply abs_bounds in C. nra. }
    { intros P. rewrite Rmax_left by assumption. ring. }
    unfold solveLSR. cbn -[twopify atan2 sin cos pow]. fold ca sa cb sb.
    set (m := Rmax (tmpLSR d alpha beta) 0) in *. set (p := sqrt m).
    assert (M0 : 0 <= m) by apply Rmax_r.
    assert (PP : p * p = m) by (unfold p; apply sqrt_sqrt; assumption).
    destruct (atan2_pair (d + sa + sb) (- ca - cb)) as (r & Rr & R0 & R1 & R2 & R3).
    destruct (atan2_pair p (-2)) as (r' & Rr' & R0' & R1' & R2' & R3').
    rewrite tmpLSR_sq, <- Rr. replace (m + 4) with (p * p + -2 * -2) by lra. rewrite <- Rr'.
    clear C Rr Rr'.
    set (tha := atan2 (- ca - cb) (d + sa + sb)) in *. set (thb := atan2 (-2) p) in *.
    set (th := tha - thb) in *.
    pose proof (tw_add alpha th) as A. set (t := twopify (- alpha + th)) in *.
    assert (B : ang_eq (alpha + t - twopify (- beta + th)) beta).
    { eapply ang_eq_trans; [apply ang_eq_sub; [exact A|apply twopify_ang]|]. apply ang_eq_of_eq. ring. }
    assert (Q1 : p * cos th + 2 * sin th = r' * cos tha).
    { replace tha with (th + thb) by (unfold th; ring). rewrite cos_plus.
      transitivity (r' * cos thb * cos th - r' * sin thb * sin th); [rewrite R2', R3'; ring|ring]. }
    assert (Q2 : p * sin th - 2 * cos th = r' * sin tha).
    { replace tha with (th + thb) by (unfold th; ring). rewrite sin_plus.
      transitivity (r' * cos thb * sin th + r' * sin thb * cos th); [rewrite R2', R3'; ring|ring]. }
    split; [|exact B]. simpl fst; simpl snd.
    rewrite (ang_eq_sin _ _ A), (ang_eq_cos _ _ A), (ang_eq_sin _ _ B), (ang_eq_cos _ _ B).
    fold sa sb ca cb.
    match goal with |- (?x - d) ^ 2 + ?y ^ 2 <= _ =>
      assert (X : x - d = (r' - r) * cos tha) by lra;
      assert (Y : y = (r' - r) * sin tha) by lra end.
    rewrite X, Y. right.
    transitivity ((r' - r) ^ 2 * (sin tha * sin tha + cos tha * cos tha)); [ring|].
    rewrite sin2_cos2'. ring.
  Qed.

  Lemma half_sin T : Rabs T < 1 -> let p := TWO_PI - acos T in
    0 < sin (p / 2) /\ 16 * (sin (p / 2) * sin (p / 2)) = 8 * (1 - T) /\ PI < p < TWO_PI.
  Proof.
    intros H p. apply Rabs_def2 in H.
    assert (E : cos p = T).
    { unfold p, TWO_PI. rewrite cos_minus, cos_2PI, sin_2PI, cos_acos by lra. ring. }
    pose proof (acos_bound T) as B. pose proof PI_RGT_0 as P.
    assert (A0 : 0 < acos T).
    { destruct (Req_dec (acos T) 0) as [Z|Z]; [|lra].
      assert (cos (acos T) = 1) by (rewrite Z; apply cos_0). rewrite cos_acos in H0 by lra. lra. }
    assert (A1 : acos T < PI).
    { destruct (Req_dec (acos T) PI) as [Z|Z]; [|lra].
      assert (cos (acos T) = -1) by (rewrite Z; apply cos_PI). rewrite cos_acos in H0 by lra. lra. }
    unfold TWO_PI in *.
    split; [apply sin_gt_0; unfold p; lra|]. split; [|unfold p; lra].
    replace T with (cos (2 * (p / 2))) by (rewrite <- E; f_equal; field).
    rewrite cos_2a_sin. ring.
  Qed.

  Lemma pos_sq_eq a b : 0 <= a -> 0 <= b -> a * a = b * b -> a = b.
  Proof. intros. nra. Qed.

  Lemma RLR_reach : Rabs (tmpRLR d alpha beta) < 1 -> ureach 0 d beta
    (uword (dubins_path_type 4) [dp_t (solveRLR d alpha beta); dp_p (solveRLR d alpha beta);
                                 dp_q (solveRLR d alpha beta)] (0, 0, alpha)).
  Proof.
    intros T. unfold solveRLR. cbn -[twopify atan2 sin cos]. fold ca sa cb sb.
    destruct (half_sin _ T) as (P0 & P1 & _). set (p := TWO_PI - acos (tmpRLR d alpha beta)) in *.
    set (th := atan2 (ca - cb) (d - sa + sb)). rewrite tmpRLR_sq in P1.
    destruct (atan2_pair (d - sa + sb) (ca - cb)) as (r & _ & R0 & R1 & R2 & R3). fold th in R2, R3.
    assert (R4 : r = 4 * sin (p / 2)) by (apply pos_sq_eq; [assumption|lra|lra]).
    assert (A : ang_eq (alpha - twopify (alpha - th + 1 / 2 * p)) (th - p / 2)).
    { eapply ang_eq_trans; [apply ang_eq_sub; [apply ang_eq_refl|apply twopify_ang]|].
      apply ang_eq_of_eq. field. }
    set (t := twopify (alpha - th + 1 / 2 * p)) in *.
    assert (A2 : ang_eq (alpha - t + p) (th + p / 2)).
    { eapply ang_eq_trans; [apply ang_eq_add; [exact A|apply ang_eq_refl]|].
      apply ang_eq_of_eq. field. }
    assert (B : ang_eq (alpha - t + p - twopify (alpha - beta - t + p)) beta).
    { eapply ang_eq_trans; [apply ang_eq_sub; [apply ang_eq_refl|apply twopify_ang]|].
      apply ang_eq_of_eq. ring. }
    apply ureach_exact; [| |exact B].
    - rewrite (ang_eq_sin _ _ A), (ang_eq_sin _ _ A2), (ang_eq_sin _ _ B).
      fold sb. rewrite sin_minus, sin_plus. nra.
    - rewrite (ang_eq_cos _ _ A), (ang_eq_cos _ _ A2), (ang_eq_cos _ _ B).
      fold cb. rewrite cos_minus, cos_plus. nra.
  Qed.

  Lemma LRL_reach : Rabs (tmpLRL d alpha beta) < 1 -> ureach 0 d beta
    (uword (dubins_path_type 5) [dp_t (solveLRL d alpha beta); dp_p (solveLRL d alpha beta);
                                 dp_q (solveLRL d alpha beta)] (0, 0, alpha)).
  Proof.
    intros T. unfold solveLRL. cbn -[twopify atan2 sin cos]. fold ca sa cb sb.
    destruct (half_sin _ T) as (P0 & P1 & _). set (p := TWO_PI - acos (tmpLRL d alpha beta)) in *.
    set (th := atan2 (- ca + cb) (d + sa - sb)). rewrite tmpLRL_sq in P1.
    destruct (atan2_pair (d + sa - sb) (- ca + cb)) as (r & _ & R0 & R1 & R2 & R3). fold th in R2, R3.
    assert (R4 : r = 4 * sin (p / 2)) by (apply pos_sq_eq; [assumption|lra|lra]).
    assert (A : ang_eq (alpha + twopify (- alpha + th + 1 / 2 * p)) (th + p / 2)).
    { eapply ang_eq_trans; [apply ang_eq_add; [apply ang_eq_refl|apply twopify_ang]|].
      apply ang_eq_of_eq. field. }
    set (t := twopify (- alpha + th + 1 / 2 * p)) in *.
    assert (A2 : ang_eq (alpha + t - p) (th - p / 2)).
    { eapply ang_eq_trans; [apply ang_eq_sub; [exact A|apply ang_eq_refl]|].
      apply ang_eq_of_eq. field. }
    assert (B : ang_eq (alpha + t - p + twopify (beta - alpha - t + p)) beta).
    { eapply ang_eq_trans; [apply ang_eq_add; [apply ang_eq_refl|apply twopify_ang]|].
      apply ang_eq_of_eq. ring. }
    apply ureach_exact; [| |exact B].
    - rewrite (ang_eq_sin _ _ A), (ang_eq_sin _ _ A2), (ang_eq_sin _ _ B).
      fold sb. rewrite sin_minus, sin_plus. nra.
    - rewrite (ang_eq_cos _ _ A), (ang_eq_cos _ _ A2), (ang_eq_cos _ _ B).
      fold cb. rewrite cos_minus, cos_plus. nra.
  Qed.
End Words.

(** ** Assertions *)

Lemma half_eps_tw a : ang_eq a 0 -> twopify (a + 1 / 2 * DUBINS_EPS) < DUBINS_EPS.
Proof.
  intros H. rewrite (twopify_unique (1 / 2 * DUBINS_EPS)).
  - unfold DUBINS_EPS. lra.
  - apply ang_eq_sym. eapply ang_eq_trans; [apply ang_eq_add; [exact H|apply ang_eq_refl]|].
    apply ang_eq_of_eq. ring.
  - unfold DUBINS_EPS, TWO_PI. pose proof PI2_3_2. lra.
Qed.

Lemma sq_le_abs e x y : 0 <= e -> x ^ 2 + y ^ 2 <= e ^ 2 -> Rabs x <= e /\ Rabs y <= e.
Proof. intros E H. split; apply Rabs_le; split; nra. Qed.

Lemma ureach_abs e d beta x y th : e * e <= (1 / 1000000000) ^ 2 -> ureach e d beta (x, y, th) ->
  Rabs (x - d) < DUBINS_EPS /\ Rabs y < DUBINS_EPS /\
  twopify (th - beta + 1 / 2 * DUBINS_EPS) < DUBINS_EPS.
Proof.
  intros E [H A]. simpl in H, A.
  destruct (sq_le_abs (1 / 1000000000) (x - d) y) as [X Y]; [lra|nra|].
  unfold DUBINS_EPS in *. split; [lra|]. split; [lra|].
  apply half_eps_tw. eapply ang_eq_trans; [apply ang_eq_sub; [exact A|apply ang_eq_refl]|].
  apply ang_eq_of_eq. ring.
Qed.

Ltac assert_tac H :=
  unfold uword in H; cbn -[twopify atan2 sin cos pow acos] in H;
  let B := fresh in pose proof (proj2 H) as B; simpl in B;
  apply ureach_abs in H; [|try assumption; lra];
  rewrite ?(ang_eq_sin _ _ B), ?(ang_eq_cos _ _ B) in H;
  destruct H as (?X & ?Y & ?Z);
  split; [|split];
  [match goal with X : Rabs ?a < _ |- Rabs ?b < _ => replace b with a by ring; exact X end
  |match goal with X : Rabs ?a < _, Y : Rabs ?c < _ |- Rabs ?b < _ =>
     replace b with c by ring; exact Y end
  |assumption].

Lemma assertsLSL_hold d alpha beta : assertsLSL d alpha beta.
Proof.
  intros _. pose proof (LSL_reach d alpha beta) as H.
  destruct (solveLSL d alpha beta) as [ty t p q]. assert_tac H.
Qed.
Lemma assertsRSR_hold d alpha beta : assertsRSR d alpha beta.
Proof.
  intros _. pose proof (RSR_reach d alpha beta) as H.
  destruct (solveRSR d alpha beta) as [ty t p q]. assert_tac H.
Qed.
Lemma assertsRSL_hold d alpha beta : assertsRSL d alpha beta.
Proof.
  intros T. destruct (RSL_reach d alpha beta T) as (e & E & _ & H).
  destruct (solveRSL d alpha beta) as [ty t p q]. assert_tac H.
Qed.
Lemma assertsLSR_hold d alpha beta : assertsLSR d alpha beta.
Proof.
  intros T. destruct (LSR_reach d alpha beta T) as (e & E & _ & H).
  destruct (solveLSR d alpha beta) as [ty t p q]. assert_tac H.
Qed.
Lemma assertsRLR_hold d alpha beta : assertsRLR d alpha beta.
Proof.
  intros T. pose proof (RLR_reach d alpha beta T) as H.
  destruct (solveRLR d alpha beta) as [ty t p q]. assert_tac H.
Qed.
Lemma assertsLRL_hold d alpha beta : assertsLRL d alpha beta.
Proof.
  intros T. pose proof (LRL_reach d alpha beta T) as H.
  destruct (solveLRL d alpha beta) as [ty t p q]. assert_tac H.
Qed.

Lemma DBL_MAX_big : 10 ^ 300 + 1000 <= DBL_MAX.
Proof.
  unfold DBL_MAX. replace (10 ^ 300 + 1000) with (IZR (10 ^ 300 + 1000)%Z).
  - apply IZR_le. apply Z.leb_le. vm_compute. reflexivity.
  - rewrite plus_IZR. f_equal. symmetry. exact (pow_IZR 10 300).
Qed.

Lemma tw_pos a : twopify a >= 0.
Proof. pose proof (twopify_range a). lra. Qed.

Lemma dp_none_asserts : dp_asserts dp_none.
Proof.
  unfold dp_asserts, dp_none; simpl. pose proof DBL_MAX_big as H.
  pose proof (pow_lt 10 300 ltac:(lra)). split; [lra|]. split; lra.
Qed.

Lemma words_asserts d alpha beta :
  dp_asserts (dubinsLSL d alpha beta) /\ dp_asserts (dubinsRSR d alpha beta) /\
  dp_asserts (dubinsRSL d alpha beta) /\ dp_asserts (dubinsLSR d alpha beta) /\
  dp_asserts (dubinsRLR d alpha beta) /\ dp_asserts (dubinsLRL d alpha beta).
Proof.
  assert (S : forall x, sqrt x >= 0) by (intros x; pose proof (sqrt_pos x); lra).
  assert (A : forall x, TWO_PI - acos x >= 0)
    by (intros x; pose proof (acos_bound x); unfold TWO_PI; pose proof PI_RGT_0; lra).
  unfold dubinsLSL, dubinsRSR, dubinsRSL, dubinsLSR, dubinsRLR, dubinsLRL.
  repeat match goal with |- _ /\ _ => split end;
  match goal with |- dp_asserts (if ?c then _ else _) => destruct c end;
  try apply dp_none_asserts; unfold dp_asserts; simpl;
  (split; [apply tw_pos|split; [auto|apply tw_pos]]).
Qed.

(** ** Selection *)

Lemma fold_better l : forall p,
  (fold_left dp_better l p = p \/ In (fold_left dp_better l p) l) /\
  dp_length (fold_left dp_better l p) <= dp_length p /\
  (forall c, In c l -> dp_length (fold_left dp_better l p) <= dp_length c).
Proof.
  induction l as [|a l IH]; intros p; simpl.
  - split; [left; reflexivity|]. split; [lra|tauto].
  - destruct (IH (dp_better p a)) as (I & L & F). unfold dp_better in *.
    destruct (Rlt_dec (dp_length a) (dp_length p)) as [H|H].
    + split; [destruct I as [->|I]; auto|]. split; [lra|].
      intros c [->|C]; [lra|apply F; assumption].
    + split; [destruct I as [->|I]; auto|]. split; [lra|].
      intros c [->|C]; [lra|apply F; assumption].
Qed.

Definition candidates (d alpha beta : R) : list DPath :=
  [dubinsLSL d alpha beta; dubinsRSR d alpha beta; dubinsRSL d alpha beta; dubinsLSR d alpha beta;
   dubinsRLR d alpha beta; dubinsLRL d alpha beta].

Lemma dubins_cases d alpha beta :
  (d < DUBINS_EPS /\ Rabs (alpha - beta) < DUBINS_EPS /\
   dubins d alpha beta = mkDPath (dubins_path_type 0) 0 d 0) \/
  (~ (d < DUBINS_EPS /\ Rabs (alpha - beta) < DUBINS_EPS) /\
   In (dubins d alpha beta) (candidates d alpha beta) /\
   forall c, In c (candidates d alpha beta) -> dp_length (dubins d alpha beta) <= dp_length c).
Proof.
  unfold dubins, candidates.
  match goal with |- context [fold_left dp_better ?l ?p] =>
    destruct (fold_better l p) as (I & L & F); set (f := fold_left dp_better l p) in * end.
  assert (X : In f (dubinsLSL d alpha beta :: [dubinsRSR d alpha beta; dubinsRSL d alpha beta;
     dubinsLSR d alpha beta; dubinsRLR d alpha beta; dubinsLRL d alpha beta]) /\
     forall c, In c (dubinsLSL d alpha beta :: [dubinsRSR d alpha beta; dubinsRSL d alpha beta;
     dubinsLSR d alpha beta; dubinsRLR d alpha beta; dubinsLRL d alpha beta]) ->
     dp_length f <= dp_length c).
  { split; [destruct I as [->|I]; [left; reflexivity|right; assumption]|].
    intros c [<-|C]; [assumption|apply F; assumption]. }
  destruct (Rlt_dec d DUBINS_EPS) as [D|D]; [destruct (Rlt_dec _ DUBINS_EPS) as [B|B]|].
  - left. auto.
  - right. split; [tauto|]. exact X.
  - right. split; [tauto|]. exact X.
Qed.

Lemma dubins_asserts d alpha beta : 0 <= d -> dp_asserts (dubins d alpha beta).
Proof.
  intros D. destruct (dubins_cases d alpha beta) as [(_ & _ & ->)|(_ & I & _)].
  - unfold dp_asserts; simpl. lra.
  - destruct (words_asserts d alpha beta) as (A & B & C & E & F & G).
    simpl in I. decompose [or] I; subst; try contradiction; match goal with H : _ = _ |- _ => rewrite <- H end; assumption.
Qed.

(** ** Reaching the goal *)

Lemma LSL_length_bound d alpha beta : 0 <= d -> d <= 10 ^ 300 ->
  dp_length (dubinsLSL d alpha beta) < DBL_MAX.
Proof.
  intros D0 D. unfold dubinsLSL. pose proof (tmpLSL_pos d alpha beta) as T.
  destruct (Rle_dec DUBINS_ZERO _) as [_|N]; [|unfold DUBINS_ZERO in N; lra].
  unfold dp_length, solveLSL; cbn [dp_t dp_p dp_q].
  pose proof (twopify_range (- alpha + atan2 (cos beta - cos alpha) (d + sin alpha - sin beta))).
  pose proof (twopify_range (beta - atan2 (cos beta - cos alpha) (d + sin alpha - sin beta))).
  rewrite sqrt_max_nonneg by assumption.
  assert (S : sqrt (tmpLSL d alpha beta) <= d + 4).
  { rewrite <- (sqrt_square (d + 4)) by lra. apply sqrt_le_1_alt.
    rewrite tmpLSL_sq. pose proof (SIN_bound alpha). pose proof (SIN_bound beta).
    pose proof (COS_bound alpha). pose proof (COS_bound beta). nra. }
  pose proof DBL_MAX_big. unfold TWO_PI in *. pose proof PI_4. lra.
Qed.

(** The word of a computed path reaches the goal within 1e-9, exactly unless a word with crossing
    tangent was clamped. *)
Lemma dubins_reach d alpha beta : 0 <= d -> d <= 10 ^ 300 ->
  ~ (d < DUBINS_EPS /\ Rabs (alpha - beta) < DUBINS_EPS) ->
  let P := dubins d alpha beta in
  exists e, 0 <= e <= 1 / 1000000000 /\
  ureach e d beta (uword (dp_type P) [dp_t P; dp_p P; dp_q P] (0, 0, alpha)).
Proof.
  intros D0 D ND P. destruct (dubins_cases d alpha beta) as [(A & B & _)|(_ & I & M)]; [tauto|].
  assert (NN : dubins d alpha beta <> dp_none).
  { intros E. specialize (M (dubinsLSL d alpha beta) (or_introl eq_refl)). rewrite E in M.
    pose proof (LSL_length_bound d alpha beta D0 D) as L.
    assert (Z : dp_length dp_none = DBL_MAX) by (unfold dp_none, dp_length; simpl; ring). lra. }
  fold P in NN, I. clearbody P. clear M.
  assert (X0 : forall ty Q, dp_type Q = ty -> ureach 0 d beta (uword ty [dp_t Q; dp_p Q; dp_q Q] (0, 0, alpha)) ->
     exists e, 0 <= e <= 1 / 1000000000 /\
     ureach e d beta (uword (dp_type Q) [dp_t Q; dp_p Q; dp_q Q] (0, 0, alpha))).
  { intros ty Q <- H. exists 0. split; [lra|assumption]. }
  assert (X1 : forall ty Q e, dp_type Q = ty -> e * e <= (1 / 1000000000) ^ 2 ->
     ureach e d beta (uword ty [dp_t Q; dp_p Q; dp_q Q] (0, 0, alpha)) ->
     exists e, 0 <= e <= 1 / 1000000000 /\
     ureach e d beta (uword (dp_type Q) [dp_t Q; dp_p Q; dp_q Q] (0, 0, alpha))).
  { intros ty Q e <- E [H1 H2]. exists (Rabs e). split.
    - split; [apply Rabs_pos|]. apply Rabs_le. split; nra.
    - split; [|assumption]. rewrite pow2_abs. assumption. }
  unfold candidates in I.
  unfold dubinsLSL, dubinsRSR, dubinsRSL, dubinsLSR, dubinsRLR, dubinsLRL in I. simpl in I.
  destruct I as [I|[I|[I|[I|[I|[I|[]]]]]]];
    match type of I with (if ?c then _ else _) = _ => destruct c as [T|T]; [|congruence] end; subst P.
  - apply (X0 _ _ eq_refl). apply LSL_reach.
  - apply (X0 _ _ eq_refl). apply RSR_reach.
  - destruct (RSL_reach d alpha beta T) as (e & E & _ & H). eapply (X1 _ _ e eq_refl); eassumption.
  - destruct (LSR_reach d alpha beta T) as (e & E & _ & H). eapply (X1 _ _ e eq_refl); eassumption.
  - apply (X0 _ _ eq_refl). apply RLR_reach. assumption.
  - apply (X0 _ _ eq_refl). apply LRL_reach. assumption.
Qed.

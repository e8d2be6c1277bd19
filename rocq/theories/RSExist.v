(** * Reeds-Shepp: some candidate always exists *)
From Coq Require Import Reals ZArith List Bool Lra Lia Psatz.
From Verif Require Import Base ModelUtil ModelFresnel ModelIntegrate ModelDubins ModelRS Num
  UtilProofs SpecPath DubinsProofs DubinsPlan RSProofs RSPlan.
Import ListNotations.
Open Scope R_scope.

Lemma RS_ZERO_pos : 0 < RS_ZERO.
Proof.
  unfold RS_ZERO, DBL_EPSILON. apply Rmult_lt_0_compat; [lra|]. apply Rinv_0_lt_compat. apply (IZR_lt 0). reflexivity.
Qed.

Lemma asin_lt x y : -1 <= x -> x < y -> y <= 1 -> asin x < asin y.
Proof.
  intros A L B. destruct (Rlt_le_dec (asin x) (asin y)) as [|H]; [assumption|exfalso].
  pose proof (asin_bound x). pose proof (asin_bound y).
  apply sin_incr_1 in H; try lra. rewrite !sin_asin in H; lra.
Qed.

Lemma pify_ge0 a b : ang_eq b a -> 0 <= b < PI -> 0 <= pify a.
Proof. intros E B. rewrite (pify_unique b a E); lra. Qed.
Lemma pify_le0 a b : ang_eq b a -> - PI < b <= 0 -> pify a <= 0.
Proof. intros E B. rewrite (pify_unique b a E); lra. Qed.
Lemma pify_lit a : 0 <= a <= PI -> 0 <= pify a.
Proof.
  intros B. destruct (Req_dec a PI) as [->|N]; [rewrite pify_PI; lra|].
  apply (pify_ge0 a a); [apply ang_eq_refl|lra].
Qed.

Lemma ang_eq_close a b : ang_eq a b -> - (2 * PI) < a - b < 2 * PI -> a = b.
Proof. intros [k K] B. assert (k = 0%Z) by (apply two_pi_Z_bound; lra). subst k. lra. Qed.

(** ** Sufficient conditions for the four word solvers used *)

Lemma LSL_ok x y phi : 0 <= atan2 (y - 1 + cos phi) (x - sin phi) ->
  0 <= pify (phi - atan2 (y - 1 + cos phi) (x - sin phi)) -> LpSpLp x y phi <> None.
Proof.
  intros A B. unfold LpSpLp, polar. pose proof RS_ZERO_pos.
  destruct (Rle_dec _ _); [|lra]. destruct (Rle_dec _ _); [discriminate|lra].
Qed.

Definition rhoL (x y phi : R) : R :=
  sqrt ((x - sin phi) * (x - sin phi) + (y - 1 + cos phi) * (y - 1 + cos phi)).
Definition thL (x y phi : R) : R := atan2 (y - 1 + cos phi) (x - sin phi).

Lemma polarL x y phi : polar (x - sin phi) (y - 1 + cos phi) = (rhoL x y phi, thL x y phi).
Proof. reflexivity. Qed.
Lemma rhoL_pos x y phi : 0 <= rhoL x y phi.
Proof. apply sqrt_pos. Qed.
Lemma rhoL_cos x y phi : rhoL x y phi * cos (thL x y phi) = x - sin phi.
Proof. apply atan2_cos. Qed.
Lemma rhoL_sin x y phi : rhoL x y phi * sin (thL x y phi) = y - 1 + cos phi.
Proof. apply atan2_sin. Qed.

Lemma LRL_ok x y phi : rhoL x y phi <= 4 ->
  0 <= pify (thL x y phi - asin (1 / 4 * rhoL x y phi) + PI) -> LpRmL x y phi <> None.
Proof.
  intros G T. unfold LpRmL, valLpRmL. rewrite polarL.
  destruct (Rle_dec _ 4); [|contradiction].
  replace (thL x y phi + 1 / 2 * (-2 * asin (1 / 4 * rhoL x y phi)) + PI)
    with (thL x y phi - asin (1 / 4 * rhoL x y phi) + PI) by field.
  pose proof RS_ZERO_pos. destruct (Rle_dec _ (pify _)); [|lra].
  assert (0 <= asin (1 / 4 * rhoL x y phi)).
  { pose proof (rhoL_pos x y phi).
    destruct (Req_dec (rhoL x y phi) 0) as [->|N]; [rewrite Rmult_0_r, asin_0; lra|].
    rewrite <- asin_0. left. apply asin_lt; lra. }
  destruct (Rle_dec _ RS_ZERO); [discriminate|lra].
Qed.

Lemma polar_unique r a x y : 0 < r -> x = r * cos a -> y = r * sin a ->
  sqrt (x * x + y * y) = r /\ ang_eq (atan2 y x) a.
Proof.
  intros P X Y. split; [|apply (atan2_of r); assumption].
  subst x y. replace (_ + _) with (r * r * (sin a * sin a + cos a * cos a)) by ring.
  rewrite sin2_cos2', Rmult_1_r. apply sqrt_square. lra.
Qed.

(** Time-flip and backward images of the centre. *)
Lemma thL_flip x y phi : 0 < rhoL x y phi ->
  rhoL (- x) y (- phi) = rhoL x y phi /\ ang_eq (thL (- x) y (- phi)) (PI - thL x y phi).
Proof.
  intros P. apply (polar_unique (rhoL x y phi)); [assumption| |].
  - rewrite sin_neg, Rtrigo_facts.cos_pi_minus. pose proof (rhoL_cos x y phi). lra.
  - rewrite cos_neg, Rtrigo_facts.sin_pi_minus. pose proof (rhoL_sin x y phi). lra.
Qed.

Definition xb x y phi := x * cos phi + y * sin phi.
Definition yb x y phi := x * sin phi - y * cos phi.

Lemma thL_back x y phi : 0 < rhoL x y phi ->
  rhoL (xb x y phi) (yb x y phi) phi = rhoL x y phi /\
  ang_eq (thL (xb x y phi) (yb x y phi) phi) (phi - thL x y phi).
Proof.
  intros P. pose proof (rhoL_cos x y phi) as C. pose proof (rhoL_sin x y phi) as S.
  pose proof (sin2_cos2' phi) as Q.
  apply (polar_unique (rhoL x y phi)); [assumption| |]; unfold xb, yb.
  - rewrite cos_minus.
    transitivity (cos phi * (rhoL x y phi * cos (thL x y phi)) + sin phi * (rhoL x y phi * sin (thL x y phi))); [|ring].
    rewrite C, S. ring.
  - rewrite sin_minus.
    transitivity (sin phi * (rhoL x y phi * cos (thL x y phi)) - cos phi * (rhoL x y phi * sin (thL x y phi))); [|ring].
    rewrite C, S.
    transitivity (x * sin phi - y * cos phi + cos phi - (sin phi * sin phi + cos phi * cos phi)); [|ring].
    rewrite Q. ring.
Qed.

Lemma rhoL_0_th x y phi : rhoL x y phi = 0 -> thL x y phi = 0.
Proof.
  intros Z. pose proof (rhoL_cos x y phi) as C. pose proof (rhoL_sin x y phi) as S.
  rewrite Z in C, S. unfold thL. replace (y - 1 + cos phi) with 0 by lra.
  replace (x - sin phi) with 0 by lra. unfold atan2. repeat destruct (Rlt_dec _ _); lra.
Qed.

(** ** Centres at most 4 apart *)

Lemma LRL_cover x y phi : rhoL x y phi <= 4 ->
  LpRmL x y phi <> None \/ LpRmL (- x) y (- phi) <> None \/
  (0 < rhoL x y phi /\ asin (1 / 4 * rhoL x y phi) < thL x y phi <= PI - asin (1 / 4 * rhoL x y phi)).
Proof.
  intros G. pose proof (rhoL_pos x y phi) as P. pose proof PI_RGT_0 as PP.
  set (h := asin (1 / 4 * rhoL x y phi)).
  assert (H : 0 <= h <= PI / 2).
  { split; [|apply asin_bound]. unfold h. destruct (Req_dec (rhoL x y phi) 0) as [->|N];
    [rewrite Rmult_0_r, asin_0; lra|]. rewrite <- asin_0. left. apply asin_lt; lra. }
  assert (T : - PI < thL x y phi <= PI) by (apply atan2_range).
  destruct (Rle_lt_dec (h - PI) (thL x y phi)) as [A|A];
  [destruct (Rle_lt_dec (thL x y phi) h) as [B|B]|].
  - left. apply LRL_ok; [assumption|]. fold h. apply pify_lit. lra.
  - assert (0 < rhoL x y phi).
    { destruct P as [P|P]; [assumption|]. symmetry in P. apply rhoL_0_th in P. lra. }
    destruct (Rle_lt_dec (thL x y phi) (PI - h)) as [D|D]; [right; right; lra|].
    right; left. destruct (thL_flip x y phi) as [R E]; [assumption|].
    apply LRL_ok; rewrite R; [assumption|]. fold h. apply (pify_ge0 _ (2 * PI - thL x y phi - h)); [|lra].
    destruct E as [k E]. exists (- k)%Z. rewrite E, opp_IZR. ring.
  - assert (0 < rhoL x y phi).
    { destruct P as [P|P]; [assumption|]. symmetry in P. apply rhoL_0_th in P. lra. }
    right; left. destruct (thL_flip x y phi) as [R E]; [assumption|].
    apply LRL_ok; rewrite R; [assumption|]. fold h. apply (pify_ge0 _ (- thL x y phi - h)); [|lra].
    destruct E as [k E]. exists (- k - 1)%Z. rewrite E, minus_IZR, opp_IZR. ring.
Qed.

Lemma near_cover x y phi : rhoL x y phi <= 4 ->
  LpRmL x y phi <> None \/ LpRmL (- x) y (- phi) <> None \/
  LpRmL (xb x y phi) (yb x y phi) phi <> None \/ LpRmL (- xb x y phi) (yb x y phi) (- phi) <> None \/
  LpSpLp x y phi <> None.
Proof.
  intros G. destruct (LRL_cover x y phi G) as [|[|(P & H)]]; [auto|auto|].
  destruct (thL_back x y phi P) as [R E].
  destruct (LRL_cover (xb x y phi) (yb x y phi) phi) as [|[|(P' & H')]]; [rewrite R; assumption|auto|auto|].
  do 4 right. rewrite R in H'.
  assert (0 < asin (1 / 4 * rhoL x y phi)).
  { rewrite <- asin_0. apply asin_lt; lra. }
  apply LSL_ok; change (atan2 (y - 1 + cos phi) (x - sin phi)) with (thL x y phi); [lra|].
  apply (pify_ge0 _ (thL (xb x y phi) (yb x y phi) phi)); [assumption|lra].
Qed.

(** ** Centres more than 4 apart *)

Lemma LRSL_ok x y phi z b c : 4 < rhoL x y phi -> sin z = 2 / rhoL x y phi -> 0 <= cos z ->
  ang_eq b (thL x y phi + PI / 2 + z) -> 0 <= b < PI ->
  ang_eq c (phi - thL x y phi - PI - z) -> - PI < c <= 0 ->
  LpRmSmLm x y phi <> None.
Proof.
  intros G Z Z' B B' C C'. unfold LpRmSmLm, valLpRmSmLm. rewrite polarL.
  destruct (Rle_dec 2 _) as [_|]; [|lra].
  set (rho := rhoL x y phi) in *. set (th := thL x y phi) in *.
  pose proof (sqrt_sub4 rho ltac:(lra)) as Q. set (r := sqrt (rho * rho - 4)) in *.
  assert (R0 : 0 <= r) by apply sqrt_pos.
  assert (2 <= r) by nra.
  assert (Cz : rho * cos z = r).
  { pose proof (sin2_cos2' z) as S. assert (rho * sin z = 2) by (rewrite Z; field; lra).
    apply Rsqr_inj; [nra|assumption|]. unfold Rsqr. rewrite Q.
    transitivity (rho * rho * (sin z * sin z + cos z * cos z) - (rho * sin z) * (rho * sin z)); [ring|].
    rewrite S, H0. ring. }
  assert (A : ang_eq (atan2 r (-2)) (PI / 2 + z)).
  { apply (atan2_of rho); [lra| |].
    - rewrite Rplus_comm, cos_HPI_shift, Z. field. lra.
    - rewrite Rplus_comm, sin_HPI_shift. lra. }
  set (t := pify (th + atan2 r (-2))).
  assert (T : t = b).
  { apply pify_unique; [|lra]. eapply ang_eq_trans; [exact B|].
    eapply ang_eq_trans; [|apply ang_eq_add; [apply ang_eq_refl|apply ang_eq_sym; exact A]].
    apply ang_eq_of_eq. ring. }
  assert (V : pify (phi - 1 / 2 * PI - t) <= 0).
  { apply (pify_le0 _ c); [|assumption]. rewrite T. eapply ang_eq_trans; [exact C|].
    destruct B as [k K]. exists k. rewrite K. field. }
  pose proof RS_ZERO_pos.
  destruct (Rle_dec _ t); [|lra]. destruct (Rle_dec (2 - r) _); [|lra].
  destruct (Rle_dec (pify _) _); [discriminate|lra].
Qed.

Lemma half_sqrt2 : 1 / sqrt 2 = sqrt 2 / 2.
Proof.
  assert (S0 : 0 < sqrt 2) by (apply sqrt_lt_R0; lra).
  assert (S2 : sqrt 2 * sqrt 2 = 2) by (apply sqrt_sqrt; lra).
  apply (Rmult_eq_reg_r (sqrt 2)); [|lra]. unfold Rdiv. rewrite Rmult_1_l, Rinv_l by lra. lra.
Qed.

(** The region in which the word LSR is needed. *)
Lemma LSR_region rho a g z X Y : 4 < rho -> 0 <= g -> g < a -> a <= z - g -> z < PI / 4 ->
  X - 2 * sin g = rho * cos a -> Y = rho * sin a ->
  exists re e ze, 2 <= re /\ X = re * cos e /\ Y - 2 * cos g = re * sin e /\
    sin ze = 2 / re /\ 0 <= cos ze /\ g <= e + ze < PI - g.
Proof.
  intros R G0 GA AZ Z EX EY. pose proof PI_RGT_0 as PP.
  assert (Sg : 0 <= sin g) by (apply sin_ge_0; lra).
  assert (Ca : sqrt 2 / 2 < cos a).
  { rewrite <- half_sqrt2, <- cos_PI4.
    apply cos_decreasing_1; lra. }
  assert (S2 : sqrt 2 * sqrt 2 = 2) by (apply sqrt_sqrt; lra).
  assert (S0 : 0 < sqrt 2) by (apply sqrt_lt_R0; lra).
  assert (X0 : 2 * sqrt 2 < X).
  { assert (0 <= (rho - 4) * cos a) by (apply Rmult_le_pos; lra). lra. }
  destruct (atan2_pair X (Y - 2 * cos g)) as (re & _ & R0 & R1 & R2 & R3).
  set (e := atan2 (Y - 2 * cos g) X) in *.
  assert (RX : X <= re).
  { apply Rsqr_incr_0_var; [|assumption]. unfold Rsqr. pose proof (sq_ge0 (Y - 2 * cos g)). lra. }
  assert (R22 : 2 * sqrt 2 < re) by lra.
  assert (E : - (PI / 2) < e < PI / 2).
  { unfold e, atan2. destruct (Rlt_dec 0 X); [|nra]. pose proof (atan_bound ((Y - 2 * cos g) / X)). lra. }
  set (ze := asin (2 / re)).
  assert (B2 : 0 < 2 / re < sqrt 2 / 2).
  { split; [apply Rdiv_lt_0_compat; lra|]. apply (Rmult_lt_reg_r re); [lra|].
    unfold Rdiv at 1. rewrite Rmult_assoc, Rinv_l by lra. nra. }
  assert (B3 : sqrt 2 < 2) by nra.
  assert (ZS : sin ze = 2 / re) by (apply sin_asin; lra).
  assert (Z0 : 0 <= ze) by (rewrite <- asin_0; left; apply asin_lt; lra).
  assert (Z4 : ze < PI / 4).
  { replace (PI / 4) with (asin (sin (PI / 4))) by (apply asin_sin; lra).
    apply asin_lt; [lra| |pose proof (SIN_bound (PI / 4)); lra].
    rewrite sin_PI4, half_sqrt2. lra. }
  exists re, e, ze. split; [nra|]. split; [lra|]. split; [lra|]. split; [exact ZS|].
  split; [apply cos_ge_0; lra|]. split; [|lra].
  destruct (Rle_lt_dec g (e + ze)) as [L|L]; [assumption|exfalso].
  (* re * sin (g - e) = 2 - rho * sin (a - g) *)
  assert (K : re * sin (g - e) = 2 - rho * sin (a - g)).
  { rewrite !sin_minus. pose proof (sin2_cos2' g).
    transitivity (sin g * (re * cos e) - cos g * (re * sin e)); [ring|].
    rewrite R2, R3, EY. replace X with (2 * sin g + rho * cos a) by lra.
    transitivity (2 * (sin g * sin g + cos g * cos g) - rho * (sin a * cos g - cos a * sin g)); [ring|].
    rewrite H. ring. }
  assert (0 <= sin (a - g)) by (apply sin_ge_0; lra).
  assert (M : sin ze < sin (g - e)).
  { destruct (Rle_lt_dec (g - e) (PI / 2)) as [H2|H2].
    - apply sin_increasing_1; lra.
    - rewrite <- (Rtrigo_facts.sin_pi_minus (g - e)). apply sin_increasing_1; lra. }
  rewrite ZS in M. assert (re * (2 / re) < re * sin (g - e)) by (apply Rmult_lt_compat_l; lra).
  replace (re * (2 / re)) with 2 in H0 by (field; lra). nra.
Qed.

Lemma LSR_ok x y phi re e1 ze b c : 2 <= re -> x + sin phi = re * cos e1 -> y - 1 - cos phi = re * sin e1 ->
  sin ze = 2 / re -> 0 <= cos ze ->
  ang_eq b (e1 + ze) -> 0 <= b < PI -> ang_eq c (e1 + ze - phi) -> 0 <= c < PI ->
  LpSpRp x y phi <> None.
Proof.
  intros R X Y Z Z' B B' C C'. unfold LpSpRp, valLpSpRp, polar.
  destruct (polar_unique re e1 (x + sin phi) (y - 1 - cos phi)) as [P A]; [lra|assumption|assumption|].
  rewrite P. destruct (Rle_dec 4 (re * re)) as [_|N]; [|exfalso; apply N; nra].
  assert (Q : sqrt (re * re - 4) * sqrt (re * re - 4) = re * re - 4) by (apply sqrt_sqrt; nra).
  set (u := sqrt (re * re - 4)) in *. assert (0 <= u) by apply sqrt_pos.
  assert (Cz : re * cos ze = u).
  { pose proof (sin2_cos2' ze) as S. assert (re * sin ze = 2) by (rewrite Z; field; lra).
    apply Rsqr_inj; [nra|assumption|]. unfold Rsqr. rewrite Q.
    transitivity (re * re * (sin ze * sin ze + cos ze * cos ze) - (re * sin ze) * (re * sin ze)); [ring|].
    rewrite S, H0. ring. }
  assert (A2 : ang_eq (atan2 2 u) ze).
  { apply (atan2_of re); [lra|lra|]. rewrite Z. field. lra. }
  set (t := pify _). assert (T : t = b).
  { apply pify_unique; [|lra]. eapply ang_eq_trans; [exact B|].
    apply ang_eq_add; apply ang_eq_sym; assumption. }
  assert (V : 0 <= pify (t - phi)).
  { apply (pify_ge0 _ c); [|assumption]. rewrite T. eapply ang_eq_trans; [exact C|].
    destruct B as [k K]. exists (- k)%Z. rewrite K, opp_IZR. ring. }
  pose proof RS_ZERO_pos.
  destruct (Rle_dec _ t); [|lra]. destruct (Rle_dec _ (pify _)); [discriminate|lra].
Qed.

Lemma far_cover x y phi g : 4 < rhoL x y phi -> 0 <= g <= PI / 2 -> ang_eq phi (2 * g) ->
  0 <= x * cos g + y * sin g ->
  LpSpLp x y phi <> None \/ LpRmSmLm x y phi <> None \/
  LpRmSmLm (xb x y phi) (yb x y phi) phi <> None \/
  LpSpRp x y phi <> None \/ LpSpRp x (- y) (- phi) <> None.
Proof.
  intros R G PH X0. pose proof PI_RGT_0 as PP.
  set (rho := rhoL x y phi) in *. set (th := thL x y phi).
  pose proof (rhoL_cos x y phi) as RC. pose proof (rhoL_sin x y phi) as RS. fold rho th in RC, RS.
  assert (SP : sin phi = 2 * sin g * cos g) by (rewrite (ang_eq_sin _ _ PH); apply sin_2a').
  assert (CP : cos phi = 2 * cos g * cos g - 1) by (rewrite (ang_eq_cos _ _ PH); apply cos_2a').
  pose proof (sin2_cos2' g) as Qg.
  set (X := x * cos g + y * sin g) in *. set (Y := - x * sin g + y * cos g).
  set (zz := asin (2 / rho)).
  assert (B2 : 0 < 2 / rho < 1 / 2).
  { split; [apply Rdiv_lt_0_compat; lra|]. apply (Rmult_lt_reg_r rho); [lra|].
    unfold Rdiv at 1. rewrite Rmult_assoc, Rinv_l by lra. lra. }
  assert (ZS : sin zz = 2 / rho) by (apply sin_asin; lra).
  assert (Z0 : 0 < zz) by (rewrite <- asin_0; apply asin_lt; lra).
  assert (Z6 : zz < PI / 6).
  { replace (PI / 6) with (asin (sin (PI / 6))) by (apply asin_sin; lra).
    rewrite sin_PI6. apply asin_lt; lra. }
  assert (ZC : 0 <= cos zz) by (apply cos_ge_0; lra).
  assert (Sg : 0 <= sin g <= 1) by (split; [apply sin_ge_0; lra|apply SIN_bound]).
  (* the centre in the middle frame *)
  assert (EX : rho * cos (th - g) = X - 2 * sin g).
  { rewrite cos_minus. transitivity ((rho * cos th) * cos g + (rho * sin th) * sin g); [ring|].
    rewrite RC, RS, SP, CP. unfold X.
    replace (1) with (sin g * sin g + cos g * cos g) by exact Qg.
    transitivity (x * cos g + y * sin g - 2 * sin g * (sin g * sin g + cos g * cos g) + sin g * (sin g * sin g + cos g * cos g - (sin g * sin g + cos g * cos g))).
    - ring_simplify. nra.
    - rewrite Qg. ring. }
  assert (EY : rho * sin (th - g) = Y).
  { rewrite sin_minus. transitivity ((rho * sin th) * cos g - (rho * cos th) * sin g); [ring|].
    rewrite RC, RS, SP, CP. unfold Y.
    transitivity (- x * sin g + y * cos g - 2 * cos g + 2 * cos g * (sin g * sin g + cos g * cos g)); [ring|].
    rewrite Qg. ring. }
  set (a := atan2 Y (X - 2 * sin g)).
  assert (AA : ang_eq a (th - g)) by (apply (atan2_of rho); [lra|lra|lra]).
  assert (AR : - PI < a <= PI) by apply atan2_range.
  rewrite <- (ang_eq_cos _ _ AA) in EX. rewrite <- (ang_eq_sin _ _ AA) in EY.
  assert (BACK : ang_eq (thL (xb x y phi) (yb x y phi) phi) (g - a) /\
                 rhoL (xb x y phi) (yb x y phi) phi = rho).
  { destruct (thL_back x y phi) as [BR BA]; [unfold rho in R; lra|]. split; [|exact BR].
    eapply ang_eq_trans; [exact BA|]. fold th. destruct AA as [k K]. destruct PH as [l L].
    exists (l + k)%Z. rewrite K, L, plus_IZR. ring. }
  destruct BACK as [BA BR].
  assert (THA : ang_eq th (a + g)).
  { eapply ang_eq_trans; [|apply ang_eq_add; [apply ang_eq_sym; exact AA|apply ang_eq_refl]].
    apply ang_eq_of_eq. ring. }
  assert (TR : - PI < th <= PI) by apply atan2_range.
  assert (LSL : 0 <= a + g <= PI -> 0 <= g - a < PI -> LpSpLp x y phi <> None).
  { intros H H'. assert (E : th = a + g) by (apply ang_eq_close; [exact THA|lra]).
    apply LSL_ok; change (atan2 (y - 1 + cos phi) (x - sin phi)) with th; [lra|].
    apply (pify_ge0 _ (g - a)); [|assumption]. rewrite E. apply ang_eq_sym.
    destruct PH as [l L]. exists l. rewrite L. ring. }
  assert (UP : forall a', 0 <= a' <= PI -> cos a' = cos a -> a' <= PI / 2 + zz).
  { intros a' H C. destruct (Rle_lt_dec a' (PI / 2 + zz)) as [|L]; [assumption|exfalso].
    assert (D : cos a' < cos (PI / 2 + zz)) by (apply cos_decreasing_1; lra).
    rewrite Rplus_comm, cos_HPI_shift, C, ZS in D.
    assert (D' : rho * cos a < rho * - (2 / rho)) by (apply Rmult_lt_compat_l; lra).
    replace (rho * - (2 / rho)) with (-2) in D' by (field; lra). lra. }
  destruct (Rle_lt_dec 0 a) as [A0|A0].
  - (* goal to the left *)
    assert (AU : a <= PI / 2 + zz) by (apply UP; [lra|reflexivity]).
    destruct (Rle_lt_dec a g) as [AG|AG]; [left; apply LSL; lra|].
    destruct (Rlt_le_dec (zz - g) a) as [AZ|AZ].
    + do 2 right. left. apply (LRSL_ok _ _ _ zz (g - a + PI / 2 + zz) (g + a - PI - zz)); rewrite ?BR; try lra.
      * apply ang_eq_add; [|apply ang_eq_refl]. apply ang_eq_add; [|apply ang_eq_refl]. apply ang_eq_sym. exact BA.
      * destruct BA as [k K]. destruct PH as [l L]. exists (k - l)%Z. rewrite K, L, minus_IZR. ring.
    + do 3 right. left.
      destruct (LSR_region rho a g zz X Y) as (re & e & ze & R2 & E1 & E2 & E3 & E4 & E5); try lra.
      apply (LSR_ok x y phi re (e + g) ze (e + g + ze) (e + ze - g)); try lra.
      * rewrite cos_plus. transitivity ((re * cos e) * cos g - (re * sin e) * sin g); [|ring].
        rewrite <- E1, <- E2, SP. unfold X, Y.
        transitivity (x * (sin g * sin g + cos g * cos g) + 2 * sin g * cos g); [rewrite Qg; ring|ring].
      * rewrite sin_plus. transitivity ((re * sin e) * cos g + (re * cos e) * sin g); [|ring].
        rewrite <- E1, <- E2, CP. unfold X, Y.
        transitivity (y * (sin g * sin g + cos g * cos g) - 2 * cos g * cos g); [rewrite Qg; ring|ring].
      * apply ang_eq_refl.
      * destruct PH as [l L]. exists l. rewrite L. ring.
  - (* goal to the right *)
    set (a' := - a). assert (AU : a' <= PI / 2 + zz) by (apply UP; [unfold a'; lra|apply cos_neg]).
    assert (LRSL : zz - g < a' -> g - PI / 2 + zz < a' -> LpRmSmLm x y phi <> None).
    { intros H1 H2. unfold a' in *.
      apply (LRSL_ok _ _ _ zz (a + g + PI / 2 + zz) (g - a - PI - zz)); fold rho th; try lra.
      - apply ang_eq_add; [|apply ang_eq_refl]. apply ang_eq_add; [|apply ang_eq_refl]. apply ang_eq_sym. exact THA.
      - destruct THA as [k K]. destruct PH as [l L]. exists (k - l)%Z. rewrite K, L, minus_IZR. ring. }
    unfold a' in *.
    destruct (Rle_lt_dec (- a) g) as [AG|AG].
    { destruct (Rlt_le_dec (g - a) PI) as [GA|GA]; [left; apply LSL; lra|]. right. left. apply LRSL; lra. }
    destruct (Rlt_le_dec (zz - g) (- a)) as [AZ|AZ]; [right; left; apply LRSL; lra|].
    do 4 right.
    destruct (LSR_region rho (- a) g zz X (- Y)) as (re & e & ze & R2 & E1 & E2 & E3 & E4 & E5); try lra.
    { rewrite cos_neg. lra. } { rewrite sin_neg. lra. }
    apply (LSR_ok x (- y) (- phi) re (e - g) ze (e - g + ze) (e + ze + g)); try lra.
    + rewrite sin_neg, cos_minus. transitivity ((re * cos e) * cos g + (re * sin e) * sin g); [|ring].
      rewrite <- E1, <- E2, SP. unfold X, Y.
      transitivity (x * (sin g * sin g + cos g * cos g) - 2 * sin g * cos g); [rewrite Qg; ring|ring].
    + rewrite cos_neg, sin_minus. transitivity ((re * sin e) * cos g - (re * cos e) * sin g); [|ring].
      rewrite <- E1, <- E2, CP. unfold X, Y.
      transitivity (- y * (sin g * sin g + cos g * cos g) - 2 * cos g * cos g); [rewrite Qg; ring|ring].
    + apply ang_eq_refl.
    + destruct PH as [l L]. exists (- l)%Z. rewrite L, opp_IZR. ring.
Qed.

(** ** All candidates together *)

Definition all_cands (x y phi : R) : list RSCand :=
  CSC_cands x y phi ++ CCC_cands x y phi ++ CCCC_cands x y phi ++ CCSC_cands x y phi ++
  CCSCC_cands x y phi.

Definition solvers (x y phi : R) : list RSSol := map fst (all_cands x y phi).

Definition covered (x y phi : R) : Prop :=
  exists s, In s [LpSpLp x y phi; LpRmSmLm x y phi; LpRmSmLm (xb x y phi) (yb x y phi) phi;
    LpSpRp x y phi; LpSpRp x (- y) (- phi); LpRmL x y phi; LpRmL (- x) y (- phi);
    LpRmL (xb x y phi) (yb x y phi) phi; LpRmL (- xb x y phi) (yb x y phi) (- phi)] /\ s <> None.

Lemma cover_half x y phi g : 0 <= g <= PI / 2 -> ang_eq phi (2 * g) ->
  0 <= x * cos g + y * sin g -> covered x y phi.
Proof.
  intros G P X. destruct (Rle_lt_dec (rhoL x y phi) 4) as [N|N].
  - destruct (near_cover x y phi N) as [H|[H|[H|[H|H]]]]; eexists; (split; [|exact H]); simpl; tauto.
  - destruct (far_cover x y phi g N G P X) as [H|[H|[H|[H|H]]]]; eexists; (split; [|exact H]); simpl; tauto.
Qed.

Lemma cover_all x y phi :
  covered x y phi \/ covered (- x) y (- phi) \/ covered x (- y) (- phi) \/ covered (- x) (- y) phi.
Proof.
  set (g := pify phi / 2). pose proof (pify_range phi) as B. pose proof PI_RGT_0.
  assert (E : ang_eq phi (2 * g)).
  { apply ang_eq_sym. unfold g. replace (2 * (pify phi / 2)) with (pify phi) by field. apply pify_ang. }
  assert (E' : ang_eq (- phi) (2 * - g)).
  { replace (2 * - g) with (- (2 * g)) by ring. apply ang_eq_opp. assumption. }
  destruct (Rle_lt_dec 0 g) as [G|G]; destruct (Rle_lt_dec 0 (x * cos g + y * sin g)) as [X|X].
  - left. apply (cover_half x y phi g); unfold g in *; lra || assumption.
  - do 3 right. apply (cover_half _ _ _ g); [unfold g in *; lra|assumption|lra].
  - right; right; left. apply (cover_half _ _ _ (- g)); [unfold g in *; lra|assumption|].
    rewrite cos_neg, sin_neg. lra.
  - right; left. apply (cover_half _ _ _ (- g)); [unfold g in *; lra|assumption|].
    rewrite cos_neg, sin_neg. lra.
Qed.

Ltac find_in := repeat (first [left; reflexivity | right]).

Lemma covered_in x y phi : covered x y phi -> exists s, In s (solvers x y phi) /\ s <> None.
Proof.
  intros (s & I & N). exists s. split; [|assumption]. unfold xb, yb in I.
  simpl in I. decompose [or] I; try contradiction; subst s; clear; unfold solvers; simpl; find_in.
Qed.

Lemma solvers_sym x y phi :
  (forall s, In s (solvers (- x) y (- phi)) -> In s (solvers x y phi)) /\
  (forall s, In s (solvers x (- y) (- phi)) -> In s (solvers x y phi)) /\
  (forall s, In s (solvers (- x) (- y) phi) -> In s (solvers x y phi)).
Proof.
  assert (B1 : - x * cos phi + y * - sin phi = - (x * cos phi + y * sin phi)) by ring.
  assert (B2 : - x * - sin phi - y * cos phi = x * sin phi - y * cos phi) by ring.
  assert (B3 : x * cos phi + - y * - sin phi = x * cos phi + y * sin phi) by ring.
  assert (B4 : x * - sin phi - - y * cos phi = - (x * sin phi - y * cos phi)) by ring.
  assert (B5 : - x * cos phi + - y * sin phi = - (x * cos phi + y * sin phi)) by ring.
  assert (B6 : - x * sin phi - - y * cos phi = - (x * sin phi - y * cos phi)) by ring.
  unfold solvers, all_cands, CSC_cands, CCC_cands, CCCC_cands, CCSC_cands, CCSCC_cands; cbv zeta.
  rewrite !cos_neg, !sin_neg, B1, B2, B3, B4, B5, B6, !Ropp_involutive.
  cbn [map app fst]. unfold In.
  repeat split; intros s H; tauto.
Qed.

Lemma rs_exists x y phi : exists s, In s (solvers x y phi) /\ s <> None.
Proof.
  destruct (solvers_sym x y phi) as (S1 & S2 & S3).
  destruct (cover_all x y phi) as [H|[H|[H|H]]]; apply covered_in in H; destruct H as (s & I & N);
  exists s; auto.
Qed.

(** ** Bounds on the lengths *)

Definition bounded_sol (M : R) (s : RSSol) : Prop :=
  forall t u v, s = Some (t, u, v) -> Rabs t <= PI /\ Rabs u <= M /\ Rabs v <= PI.

Lemma abs_pify a : Rabs (pify a) <= PI.
Proof. apply Rabs_le. pose proof (pify_range a). lra. Qed.
Lemma abs_atan2 a b : Rabs (atan2 a b) <= PI.
Proof. apply Rabs_le. pose proof (atan2_range a b). lra. Qed.

Lemma sqrt_le_abs a b : sqrt (a * a + b * b) <= Rabs a + Rabs b.
Proof.
  pose proof (Rabs_pos a). pose proof (Rabs_pos b).
  apply Rsqr_incr_0_var; [|lra]. unfold Rsqr. rewrite sqrt_sqrt by nra.
  assert (a * a = Rabs a * Rabs a) by (rewrite <- Rabs_mult, Rabs_pos_eq by nra; reflexivity).
  assert (b * b = Rabs b * Rabs b) by (rewrite <- Rabs_mult, Rabs_pos_eq by nra; reflexivity).
  rewrite H1, H2. nra.
Qed.

Lemma abs_lr a : - Rabs a <= a <= Rabs a.
Proof. unfold Rabs. destruct (Rcase_abs a); lra. Qed.

Lemma centre_bound x y phi e : (e = 1 \/ e = -1) ->
  sqrt ((x + e * sin phi) * (x + e * sin phi) + (y - 1 - e * cos phi) * (y - 1 - e * cos phi))
  <= Rabs x + Rabs y + 3.
Proof.
  intros E. eapply Rle_trans; [apply sqrt_le_abs|].
  pose proof (abs_lr x). pose proof (abs_lr y). pose proof (SIN_bound phi). pose proof (COS_bound phi).
  assert (Rabs (x + e * sin phi) <= Rabs x + 1) by (apply Rabs_le; destruct E; subst e; lra).
  assert (Rabs (y - 1 - e * cos phi) <= Rabs y + 2) by (apply Rabs_le; destruct E; subst e; lra).
  lra.
Qed.

Lemma PI_7 : PI < 7.
Proof. pose proof PI_4. lra. Qed.

Section Bound.
  Variables x y phi : R.
  Let M := Rabs x + Rabs y + 7.
  Lemma M_pos : 7 <= M.
  Proof. unfold M. pose proof (Rabs_pos x). pose proof (Rabs_pos y). lra. Qed.
  Lemma cbL : sqrt ((x - sin phi) * (x - sin phi) + (y - 1 + cos phi) * (y - 1 + cos phi)) <= M - 4.
  Proof.
    pose proof (centre_bound x y phi (-1) ltac:(auto)) as C. unfold M.
    replace (x - sin phi) with (x + -1 * sin phi) by ring.
    replace (y - 1 + cos phi) with (y - 1 - -1 * cos phi) by ring. lra.
  Qed.
  Lemma cbR : sqrt ((x + sin phi) * (x + sin phi) + (y - 1 - cos phi) * (y - 1 - cos phi)) <= M - 4.
  Proof.
    pose proof (centre_bound x y phi 1 ltac:(auto)) as C. unfold M.
    rewrite !Rmult_1_l in C. lra.
  Qed.
  Lemma sqrt_sub_le a : 0 <= a -> sqrt (a * a - 4) <= a.
  Proof.
    intros A. destruct (Rle_lt_dec 0 (a * a - 4)).
    - apply Rsqr_incr_0_var; [|assumption]. unfold Rsqr. rewrite sqrt_sqrt by assumption. lra.
    - rewrite sqrt_neg_0 by lra. assumption.
  Qed.

  Lemma bLpSpLp : bounded_sol M (LpSpLp x y phi).
  Proof.
    intros t u v. unfold LpSpLp, polar. pose proof cbL. pose proof M_pos.
    destruct (Rle_dec _ _); [|discriminate]. destruct (Rle_dec _ _); [|discriminate].
    intros E; injection E as <- <- <-. split; [apply abs_atan2|]. split; [|apply abs_pify].
    rewrite Rabs_pos_eq by apply sqrt_pos. lra.
  Qed.
  Lemma bLpSpRp : bounded_sol M (LpSpRp x y phi).
  Proof.
    intros t u v. unfold LpSpRp, valLpSpRp, polar. pose proof cbR. pose proof M_pos.
    set (s := sqrt _) in *. assert (0 <= s) by apply sqrt_pos.
    destruct (Rle_dec 4 _); [|discriminate]. destruct (Rle_dec _ _); [|discriminate].
    destruct (Rle_dec _ _); [|discriminate].
    intros E; injection E as <- <- <-. split; [apply abs_pify|]. split; [|apply abs_pify].
    rewrite Rabs_pos_eq by apply sqrt_pos. pose proof (sqrt_sub_le s). lra.
  Qed.
  Lemma bLpRmL : bounded_sol M (LpRmL x y phi).
  Proof.
    intros t u v. unfold LpRmL, valLpRmL, polar. pose proof cbL. pose proof M_pos.
    set (s := sqrt _) in *.
    destruct (Rle_dec s _); [|discriminate]. destruct (Rle_dec _ _); [|discriminate].
    destruct (Rle_dec _ _); [|discriminate].
    intros E; injection E as <- <- <-. split; [apply abs_pify|]. split; [|apply abs_pify].
    pose proof (asin_bound (1 / 4 * s)). pose proof PI_7. apply Rabs_le. lra.
  Qed.
  Lemma bLpRupLumRm : bounded_sol M (LpRupLumRm x y phi).
  Proof.
    intros t u v. unfold LpRupLumRm, valLpRupLumRm, tauOmega. pose proof M_pos.
    set (s := sqrt _) in *. destruct (Rle_dec _ 1); [|discriminate].
    match goal with |- context [pify (?tau - _ + _ - _)] => set (w := tau) end.
    assert (Rabs w <= PI) by (unfold w; destruct (Rlt_dec _ _); apply abs_pify).
    destruct (Rle_dec _ _); [|discriminate]. destruct (Rle_dec _ _); [|discriminate].
    intros E; injection E as <- <- <-. split; [assumption|]. split; [|apply abs_pify].
    pose proof (acos_bound (1 / 4 * (2 + s))). pose proof PI_7. apply Rabs_le. lra.
  Qed.
  Lemma bLpRumLumRp : bounded_sol M (LpRumLumRp x y phi).
  Proof.
    intros t u v. unfold LpRumLumRp, valLpRumLumRp, tauOmega. pose proof M_pos.
    destruct (Rle_dec 0 _); [|discriminate]. destruct (Rle_dec _ 1); [|discriminate].
    destruct (Rle_dec _ (- _)); [|discriminate].
    match goal with |- context [pify (?tau - _ + _ - _)] => set (w := tau) end.
    assert (Rabs w <= PI) by (unfold w; destruct (Rlt_dec _ _); apply abs_pify).
    destruct (Rle_dec _ w); [|discriminate]. destruct (Rle_dec _ (pify _)); [|discriminate].
    intros E; injection E as <- <- <-. split; [assumption|]. split; [|apply abs_pify].
    rewrite Rabs_Ropp.
    match goal with |- Rabs (acos ?z) <= _ => pose proof (acos_bound z) end.
    pose proof PI_7. apply Rabs_le. lra.
  Qed.
  Lemma bLpRmSmLm : bounded_sol M (LpRmSmLm x y phi).
  Proof.
    intros t u v. unfold LpRmSmLm, valLpRmSmLm, polar. pose proof cbL. pose proof M_pos.
    set (s := sqrt _) in *. assert (0 <= s) by apply sqrt_pos.
    destruct (Rle_dec 2 _); [|discriminate]. destruct (Rle_dec _ _); [|discriminate].
    destruct (Rle_dec _ _); [|discriminate]. destruct (Rle_dec _ _); [|discriminate].
    intros E; injection E as <- <- <-. split; [apply abs_pify|]. split; [|apply abs_pify].
    pose proof (sqrt_sub_le s). pose proof (sqrt_pos (s * s - 4)). apply Rabs_le. lra.
  Qed.
  Lemma bLpRmSmRm : bounded_sol M (LpRmSmRm x y phi).
  Proof.
    intros t u v. unfold LpRmSmRm, valLpRmSmRm, polar. pose proof cbR as C. pose proof M_pos.
    replace (- (y - 1 - cos phi) * - (y - 1 - cos phi) + (x + sin phi) * (x + sin phi))
      with ((x + sin phi) * (x + sin phi) + (y - 1 - cos phi) * (y - 1 - cos phi)) by ring.
    set (s := sqrt _) in *. assert (0 <= s) by apply sqrt_pos.
    destruct (Rle_dec 2 _); [|discriminate]. destruct (Rle_dec _ _); [|discriminate].
    destruct (Rle_dec _ _); [|discriminate]. destruct (Rle_dec _ _); [|discriminate].
    intros E; injection E as <- <- <-. split; [apply abs_atan2|]. split; [|apply abs_pify].
    apply Rabs_le. lra.
  Qed.
  Lemma bLpRmSLmRp : bounded_sol M (LpRmSLmRp x y phi).
  Proof.
    intros t u v. unfold LpRmSLmRp, valLpRmSLmRp, polar. pose proof cbR. pose proof M_pos.
    set (s := sqrt _) in *. assert (0 <= s) by apply sqrt_pos.
    destruct (Rle_dec 2 _); [|discriminate]. destruct (Rle_dec _ RS_ZERO); [|discriminate].
    destruct (Rle_dec _ _); [|discriminate]. destruct (Rle_dec _ _); [|discriminate].
    intros E; injection E as <- <- <-. split; [apply abs_pify|]. split; [|apply abs_pify].
    pose proof (sqrt_sub_le s). pose proof (sqrt_pos (s * s - 4)). apply Rabs_le. lra.
  Qed.
End Bound.

Lemma bounded_weaken M M' s : M <= M' -> bounded_sol M s -> bounded_sol M' s.
Proof. intros L B t u v E. destruct (B t u v E) as (? & ? & ?). repeat split; lra. Qed.

Lemma solvers_bounded x y phi s : In s (solvers x y phi) -> bounded_sol (2 * (Rabs x + Rabs y) + 7) s.
Proof.
  intros I. pose proof (Rabs_pos x) as AX. pose proof (Rabs_pos y) as AY.
  assert (XB : Rabs (x * cos phi + y * sin phi) <= Rabs x + Rabs y).
  { eapply Rle_trans; [apply Rabs_triang|]. rewrite !Rabs_mult.
    assert (Rabs (cos phi) <= 1) by (apply Rabs_le, COS_bound).
    assert (Rabs (sin phi) <= 1) by (apply Rabs_le, SIN_bound).
    pose proof (Rabs_pos (cos phi)). pose proof (Rabs_pos (sin phi)). nra. }
  assert (YB : Rabs (x * sin phi - y * cos phi) <= Rabs x + Rabs y).
  { unfold Rminus. eapply Rle_trans; [apply Rabs_triang|]. rewrite Rabs_Ropp, !Rabs_mult.
    assert (Rabs (cos phi) <= 1) by (apply Rabs_le, COS_bound).
    assert (Rabs (sin phi) <= 1) by (apply Rabs_le, SIN_bound).
    pose proof (Rabs_pos (cos phi)). pose proof (Rabs_pos (sin phi)). nra. }
  unfold solvers, all_cands, CSC_cands, CCC_cands, CCCC_cands, CCSC_cands, CCSCC_cands in I; cbv zeta in I.
  cbn [map app fst] in I. unfold In in I.
  decompose [or] I; try contradiction; subst s;
  (eapply bounded_weaken;
   [|first [apply bLpSpLp|apply bLpSpRp|apply bLpRmL|apply bLpRupLumRm|apply bLpRumLumRp|
            apply bLpRmSmLm|apply bLpRmSmRm|apply bLpRmSLmRp]]; rewrite ?Rabs_Ropp; lra).
Qed.

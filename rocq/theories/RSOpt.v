(** * Reeds-Shepp: the selected path is the shortest word *)
From Coq Require Import Reals Rtrigo_facts ZArith List Bool Lra Lia Psatz.
From Verif Require Import Base ModelUtil ModelFresnel ModelIntegrate ModelDubins ModelRS Num
  UtilProofs SpecPath SpecRS IntegrateProofs DubinsProofs DubinsPlan DubinsOpt RSProofs RSPlan RSExist RSSelect.
Import ListNotations.
Open Scope R_scope.

Definition Key : Type := (RSSol * R * R)%type.
Definition key (two off : R) (c : RSCand) : Key := (fst c, two, off).
Definition keyedS (x y phi : R) : list Key :=
  map (key 1 0) (CSC_cands x y phi) ++ map (key 2 0) (CCCC_cands x y phi) ++
  map (key 1 PI) (CCSCC_cands x y phi).
Definition keyedA (x y phi : R) : list Key :=
  map (key 1 0) (CCC_cands x y phi) ++ map (key 1 (1 / 2 * PI)) (CCSC_cands x y phi).

Definition upper (kl : list Key) (L : R) : Prop :=
  exists t u v two off, In (Some (t, u, v), two, off) kl /\ Rabs t + two * Rabs u + Rabs v + off <= L.

Lemma keyed_sym x y phi :
  (forall s, In s (keyedS (- x) y (- phi)) -> In s (keyedS x y phi)) /\
  (forall s, In s (keyedS x (- y) (- phi)) -> In s (keyedS x y phi)) /\
  (forall s, In s (keyedA (- x) y (- phi)) -> In s (keyedA x y phi)) /\
  (forall s, In s (keyedA x (- y) (- phi)) -> In s (keyedA x y phi)).
Proof.
  assert (B1 : - x * cos phi + y * - sin phi = - (x * cos phi + y * sin phi)) by ring.
  assert (B2 : - x * - sin phi - y * cos phi = x * sin phi - y * cos phi) by ring.
  assert (B3 : x * cos phi + - y * - sin phi = x * cos phi + y * sin phi) by ring.
  assert (B4 : x * - sin phi - - y * cos phi = - (x * sin phi - y * cos phi)) by ring.
  unfold keyedS, keyedA, key, CSC_cands, CCC_cands, CCCC_cands, CCSC_cands, CCSCC_cands; cbv zeta.
  rewrite !cos_neg, !sin_neg, B1, B2, B3, B4, !Ropp_involutive.
  cbn [map app fst]. unfold In.
  repeat split; intros s H; tauto.
Qed.

Lemma xb_inv x y phi : xb (xb x y phi) (yb x y phi) phi = x /\ yb (xb x y phi) (yb x y phi) phi = y.
Proof.
  unfold xb, yb. pose proof (sin2_cos2' phi) as Q. split.
  - transitivity ((sin phi * sin phi + cos phi * cos phi) * x); [ring|]. rewrite Q. ring.
  - transitivity ((sin phi * sin phi + cos phi * cos phi) * y); [ring|]. rewrite Q. ring.
Qed.

Lemma keyed_back x y phi s : In s (keyedA (xb x y phi) (yb x y phi) phi) -> In s (keyedA x y phi).
Proof.
  destruct (xb_inv x y phi) as [I1 I2].
  unfold keyedA, key, CCC_cands, CCSC_cands; cbv zeta.
  change (xb x y phi * cos phi + yb x y phi * sin phi) with (xb (xb x y phi) (yb x y phi) phi).
  change (xb x y phi * sin phi - yb x y phi * cos phi) with (yb (xb x y phi) (yb x y phi) phi).
  rewrite I1, I2.
  change (x * cos phi + y * sin phi) with (xb x y phi).
  change (x * sin phi - y * cos phi) with (yb x y phi).
  cbn [map app fst]. unfold In. intros H; tauto.
Qed.

Lemma keyed_le x y phi L : upper (keyedS x y phi ++ keyedA x y phi) L -> rs_length (reeds_shepp x y phi) <= L.
Proof.
  intros (t & u & v & two & off & I & B).
  eapply Rle_trans; [|exact B]. destruct (rs_select x y phi) as (_ & _ & M).
  unfold keyedS, keyedA in I. rewrite !in_app_iff, !in_map_iff in I. unfold key in I.
  pose proof (CSC_good x y phi) as G1. pose proof (CCC_good x y phi) as G2.
  pose proof (CCCC_good x y phi) as G3. pose proof (CCSC_good x y phi) as G4.
  pose proof (CCSCC_good x y phi) as G5. rewrite Forall_forall in G1, G2, G3, G4, G5.
  assert (S : forall a b c, In c (all_cands x y phi) -> good_cand a b x y phi c ->
     (fst c, a, b) = (Some (t, u, v), two, off) ->
     rs_length (reeds_shepp x y phi) <= Rabs t + two * Rabs u + Rabs v + off).
  { intros a b c J G E. injection E as E1 E2 E3. subst a b.
    destruct (G t u v E1) as [_ GL]. rewrite <- GL. apply M. exists c, t, u, v. auto. }
  unfold all_cands in S. setoid_rewrite in_app_iff in S. setoid_rewrite in_app_iff in S.
  setoid_rewrite in_app_iff in S. setoid_rewrite in_app_iff in S.
  destruct I as [[(c & E & J)|[(c & E & J)|(c & E & J)]]|[(c & E & J)|(c & E & J)]];
  (eapply S; [|eauto|exact E]); auto 10.
Qed.

(** ** Each solver finds the parameters of its word *)

Lemma bool_ge0 (A : Type) a (x y : A) : 0 <= a -> (if Rle_dec (- RS_ZERO) a then x else y) = x.
Proof. intros H. pose proof RS_ZERO_pos. destruct (Rle_dec _ a); [reflexivity|lra]. Qed.
Lemma bool_le0 (A : Type) a (x y : A) : a <= 0 -> (if Rle_dec a RS_ZERO then x else y) = x.
Proof. intros H. pose proof RS_ZERO_pos. destruct (Rle_dec a _); [reflexivity|lra]. Qed.

Lemma pify_is a b : ang_eq a b -> - PI < a < PI -> pify b = a.
Proof. apply pify_unique. Qed.

Lemma ang_range a b : ang_eq a b -> - PI < a <= PI -> - PI < b <= PI -> a = b.
Proof. intros E A B. apply ang_eq_close; [assumption|lra]. Qed.

Lemma ang_sub_eq a b c : ang_eq (a + b) c -> ang_eq b (c - a).
Proof. intros [k H]. exists k. lra. Qed.

(** Polar coordinates of a vector given by length and angle, with the angle in range. *)
Lemma polar_is r a x y : 0 < r -> x = r * cos a -> y = r * sin a -> - PI < a <= PI -> polar x y = (r, a).
Proof.
  intros R X Y A. destruct (polar_unique r a x y R X Y) as [P Q]. unfold polar.
  rewrite P. f_equal. apply ang_range; [assumption|apply atan2_range|assumption].
Qed.
Lemma polar_mod r a x y : 0 < r -> x = r * cos a -> y = r * sin a ->
  exists b, polar x y = (r, b) /\ ang_eq b a.
Proof.
  intros R X Y. destruct (polar_unique r a x y R X Y) as [P Q]. unfold polar.
  exists (atan2 y x). rewrite P. auto.
Qed.

Notation W ty ls x y phi := (psim (uword ty ls origin) (x, y, phi)).

Lemma findLSL x y phi t u v : 0 <= t < PI -> 0 < u -> 0 <= v < PI ->
  W [DUBINS_LEFT; DUBINS_STRAIGHT; DUBINS_LEFT] [t; u; v] x y phi -> LpSpLp x y phi = Some (t, u, v).
Proof.
  intros T U V. wrd. rewrite sin_0, cos_0. intros (X & Y & A).
  rewrite (ang_eq_sin _ _ A) in X. rewrite (ang_eq_cos _ _ A) in Y.
  unfold LpSpLp. rewrite (polar_is u t) by lra. rewrite bool_ge0 by lra.
  rewrite (pify_is v) by (try (apply ang_sub_eq; assumption); lra). rewrite bool_ge0 by lra. reflexivity.
Qed.

Lemma truncZ_opp q : truncZ (- q) = (- truncZ q)%Z.
Proof.
  unfold truncZ. destruct (Rle_dec 0 (- q)) as [A|A]; destruct (Rle_dec 0 q) as [B|B].
  - assert (q = 0) by lra. subst q. rewrite Ropp_0. unfold Int_part.
    assert (E : up 0 = 1%Z) by (symmetry; apply tech_up; simpl; lra). rewrite E. reflexivity.
  - rewrite Z.opp_involutive. reflexivity.
  - rewrite Ropp_involutive. reflexivity.
  - lra.
Qed.

Lemma pify_opp a : pify (- a) = - pify a.
Proof.
  assert (F : fmod (- a) TWO_PI = - fmod a TWO_PI).
  { unfold fmod. pose proof TWO_PI_pos. replace (- a / TWO_PI) with (- (a / TWO_PI)) by (field; lra).
    rewrite truncZ_opp, opp_IZR. ring. }
  unfold pify. rewrite F. unfold TWO_PI in *.
  pose proof PI_RGT_0; repeat destruct (Rlt_dec _ _); lra.
Qed.

Lemma polar_00 : polar 0 0 = (0, 0).
Proof. unfold polar. replace (0 * 0 + 0 * 0) with 0 by ring. rewrite sqrt_0, atan2_00. reflexivity. Qed.

Lemma upperLSL0 x y phi t v : 0 <= t < PI -> 0 <= v < PI ->
  W [DUBINS_LEFT; DUBINS_STRAIGHT; DUBINS_LEFT] [t; 0; v] x y phi -> upper (keyedS x y phi) (t + v).
Proof.
  intros T V. wrd. rewrite sin_0, cos_0. intros (X & Y & A).
  rewrite (ang_eq_sin _ _ A) in X. rewrite (ang_eq_cos _ _ A) in Y.
  pose proof (pify_range phi) as B. pose proof (pify_ang phi) as E.
  assert (E' : ang_eq (pify phi) (t + v)) by (eapply ang_eq_trans; [exact E|apply ang_eq_sym; exact A]).
  destruct E' as [k K]. pose proof PI_RGT_0 as P0.
  assert (L : Rabs (pify phi) <= t + v).
  { assert (K2 : (k <= -1 \/ k = 0 \/ 1 <= k)%Z) by lia.
    destruct K2 as [K2|[K2|K2]]; [apply IZR_le in K2|subst k|apply IZR_le in K2];
      unfold Rabs; destruct (Rcase_abs _); try nra. }
  destruct (Rle_lt_dec 0 (pify phi)) as [S|S].
  - exists 0, 0, (pify phi), 1, 0. split.
    + unfold keyedS, CSC_cands, key. cbn [map app fst]. left. unfold LpSpLp.
      replace (x - sin phi) with 0 by lra. replace (y - 1 + cos phi) with 0 by lra. rewrite polar_00.
      rewrite bool_ge0 by lra. rewrite Rminus_0_r, bool_ge0 by assumption. reflexivity.
    + rewrite Rabs_R0. lra.
  - exists 0, 0, (pify (- phi)), 1, 0. split.
    + unfold keyedS, CSC_cands, key. cbn [map app fst]. right. left. unfold LpSpLp.
      rewrite sin_neg, cos_neg.
      replace (- x - - sin phi) with 0 by lra. replace (y - 1 + cos phi) with 0 by lra. rewrite polar_00.
      rewrite bool_ge0 by lra. rewrite Rminus_0_r, bool_ge0 by (rewrite pify_opp; lra). reflexivity.
    + rewrite pify_opp, Rabs_Ropp, Rabs_R0. lra.
Qed.

Lemma atan2_2u u : 0 <= u -> sqrt (u * u + 4) * cos (atan2 2 u) = u /\ sqrt (u * u + 4) * sin (atan2 2 u) = 2.
Proof.
  intros U. pose proof (atan2_cos u 2) as C. pose proof (atan2_sin u 2) as S.
  replace (u * u + 2 * 2) with (u * u + 4) in C, S by ring. auto.
Qed.

Lemma sqrt4_pos u : 0 < sqrt (u * u + 4).
Proof. apply sqrt_lt_R0. nra. Qed.

Lemma findLSR x y phi t u v : 0 <= t < PI -> 0 <= u -> 0 <= v < PI ->
  W [DUBINS_LEFT; DUBINS_STRAIGHT; DUBINS_RIGHT] [t; u; v] x y phi -> LpSpRp x y phi = Some (t, u, v).
Proof.
  intros T U V. wrd. rewrite sin_0, cos_0. intros (X & Y & A).
  rewrite (ang_eq_sin _ _ A) in X. rewrite (ang_eq_cos _ _ A) in Y.
  unfold LpSpRp, valLpSpRp. destruct (atan2_2u u U) as [C S]. pose proof (sqrt4_pos u) as RP.
  set (r := sqrt (u * u + 4)) in *. set (a := atan2 2 u) in *.
  assert (RR : r * r = u * u + 4) by (apply sqrt_sqrt; nra).
  destruct (polar_mod r (t - a) (x + sin phi) (y - 1 - cos phi)) as (b & PB & AB); [assumption| | |].
  { rewrite cos_minus. rewrite <- X. transitivity ((r * cos a) * cos t + (r * sin a) * sin t); [|ring].
    rewrite C, S. ring. }
  { rewrite sin_minus. rewrite <- Y. transitivity ((r * cos a) * sin t - (r * sin a) * cos t); [|ring].
    rewrite C, S. ring. }
  rewrite PB, RR. destruct (Rle_dec 4 (u * u + 4)) as [_|N]; [|nra].
  replace (u * u + 4 - 4) with (u * u) by ring. rewrite sqrt_square by assumption. fold a.
  rewrite (pify_is t); [|apply ang_eq_sym; destruct AB as [k K]; exists k; lra|lra].
  rewrite (pify_is v); [|destruct A as [k K]; exists (- k)%Z; rewrite opp_IZR; lra|lra].
  rewrite !bool_ge0 by lra. reflexivity.
Qed.

Lemma findLRL x y phi t u v : 0 <= t < PI -> 0 < u <= PI -> - PI < v < PI ->
  W [DUBINS_LEFT; DUBINS_RIGHT; DUBINS_LEFT] [t; - u; v] x y phi -> LpRmL x y phi = Some (t, - u, v).
Proof.
  intros T U V. wrd. rewrite sin_0, cos_0. intros (X & Y & A).
  rewrite (ang_eq_sin _ _ A) in X. rewrite (ang_eq_cos _ _ A) in Y.
  unfold LpRmL, valLpRmL. pose proof PI_RGT_0 as P0.
  assert (SP : 0 < sin (u / 2)) by (apply sin_gt_0; lra).
  assert (S1 : sin (u / 2) <= 1) by apply SIN_bound.
  set (h := t + u / 2).
  assert (T1 : t = h - u / 2) by (unfold h; ring).
  assert (T2 : t - - u = h + u / 2) by (unfold h; field).
  destruct (polar_mod (4 * sin (u / 2)) (h + PI) (x - sin phi) (y - 1 + cos phi)) as (b & PB & AB); [lra| | |].
  { rewrite cos_PI_shift. rewrite <- X, T2. rewrite T1. rewrite sin_minus, sin_plus. ring. }
  { rewrite sin_PI_shift. rewrite <- Y, T2. rewrite T1. rewrite cos_minus, cos_plus. ring. }
  rewrite PB. destruct (Rle_dec _ 4) as [_|N]; [|lra].
  replace (1 / 4 * (4 * sin (u / 2))) with (sin (u / 2)) by field.
  rewrite asin_sin by lra. replace (-2 * (u / 2)) with (- u) by field.
  rewrite (pify_is t); [| |lra].
  2:{ apply ang_eq_sym. destruct AB as [k K]. exists (k + 1)%Z. rewrite plus_IZR. unfold h in K. lra. }
  rewrite (pify_is v); [|destruct A as [k K]; exists k; lra|lra].
  rewrite bool_ge0, bool_le0 by lra. reflexivity.
Qed.

Lemma cos_third u : 0 <= u < PI / 3 -> 1 / 2 < cos u.
Proof.
  intros U. rewrite <- cos_PI3. pose proof PI_RGT_0. apply cos_decreasing_1; lra.
Qed.

Lemma findLRLR1 x y phi t u v : 0 <= t < PI -> 0 <= u < PI / 3 -> 0 <= v < PI ->
  W [DUBINS_LEFT; DUBINS_RIGHT; DUBINS_LEFT; DUBINS_RIGHT] [t; u; - u; - v] x y phi ->
  LpRupLumRm x y phi = Some (t, u, - v).
Proof.
  intros T U V. wrd. rewrite sin_0, cos_0. intros (X & Y & A).
  rewrite (ang_eq_sin _ _ A) in X. rewrite (ang_eq_cos _ _ A) in Y.
  unfold LpRupLumRm, valLpRupLumRm. pose proof PI_RGT_0 as P0.
  pose proof (cos_third u U) as C. pose proof (COS_bound u) as CB.
  set (c := 2 * cos u - 1). set (a := t - u).
  assert (T1 : t = a + u) by (unfold a; ring).
  assert (T2 : t - u + - u = a - u) by (unfold a; ring).
  assert (X' : x + sin phi = 2 * c * sin a).
  { rewrite <- X, T2. fold a. rewrite T1, sin_plus, sin_minus. unfold c. ring. }
  assert (Y' : y - 1 - cos phi = - (2 * c * cos a)).
  { rewrite <- Y, T2. fold a. rewrite T1, cos_plus, cos_minus. unfold c. ring. }
  rewrite X', Y'.
  replace (2 * c * sin a * (2 * c * sin a) + - (2 * c * cos a) * - (2 * c * cos a))
    with (2 * c * (2 * c) * (sin a * sin a + cos a * cos a)) by ring.
  rewrite sin2_cos2', Rmult_1_r, sqrt_square by (unfold c; lra).
  replace (1 / 4 * (2 + 2 * c)) with (cos u) by (unfold c; field).
  destruct (Rle_dec (cos u) 1) as [_|N]; [|lra]. rewrite acos_cos by lra.
  unfold tauOmega.
  rewrite (pify_is (2 * u) (u - - u)) by (try lra; apply ang_eq_of_eq; ring).
  rewrite cos_2a', sin_2a', cos_neg.
  destruct (Rlt_dec _ 0) as [N|_]; [exfalso; pose proof (sq_ge0 (2 * cos u - 1)); lra|].
  assert (TT : ang_eq (atan2 (- (2 * c * cos a) * (sin u - 2 * sin u * cos u) -
      2 * c * sin a * (cos u - (2 * cos u * cos u - 1) - 1))
      (2 * c * sin a * (sin u - 2 * sin u * cos u) +
       - (2 * c * cos a) * (cos u - (2 * cos u * cos u - 1) - 1))) t).
  { apply (atan2_of (2 * c * c)); [unfold c; nra| |].
    - rewrite T1, cos_plus. unfold c. ring.
    - rewrite T1, sin_plus. unfold c. ring. }
  rewrite (pify_is t) by (try (apply ang_eq_sym; exact TT); lra).
  rewrite (pify_is (- v)); [|destruct A as [k K]; exists (- k)%Z; rewrite opp_IZR; lra|lra].
  rewrite bool_ge0, bool_le0 by lra. reflexivity.
Qed.

Lemma findLRLR2 x y phi t u v : 0 <= t < PI -> 0 <= u <= PI / 2 -> 0 <= v < PI ->
  W [DUBINS_LEFT; DUBINS_RIGHT; DUBINS_LEFT; DUBINS_RIGHT] [t; - u; - u; v] x y phi ->
  LpRumLumRp x y phi = Some (t, - u, v).
Proof.
  intros T U V. wrd. rewrite sin_0, cos_0. intros (X & Y & A).
  rewrite (ang_eq_sin _ _ A) in X. rewrite (ang_eq_cos _ _ A) in Y.
  unfold LpRumLumRp, valLpRumLumRp. pose proof PI_RGT_0 as P0.
  assert (C0 : 0 <= cos u) by (apply cos_ge_0; lra). pose proof (COS_bound u) as CB.
  assert (X' : x + sin phi = 4 * sin t - 2 * sin (t + u)).
  { rewrite <- X. replace (t - - u + - u) with t by ring. replace (t - - u) with (t + u) by ring. ring. }
  assert (Y' : y - 1 - cos phi = - 4 * cos t + 2 * cos (t + u)).
  { rewrite <- Y. replace (t - - u + - u) with t by ring. replace (t - - u) with (t + u) by ring. ring. }
  rewrite sin_plus in X'. rewrite cos_plus in Y'.
  pose proof (sin2_cos2' t) as Qt. pose proof (sin2_cos2' u) as Qu.
  replace ((20 - (x + sin phi) * (x + sin phi) - (y - 1 - cos phi) * (y - 1 - cos phi)) / 16) with (cos u).
  2:{ rewrite X', Y'.
      replace (20 - (4 * sin t - 2 * (sin t * cos u + cos t * sin u)) * (4 * sin t - 2 * (sin t * cos u + cos t * sin u)) -
         (-4 * cos t + 2 * (cos t * cos u - sin t * sin u)) * (-4 * cos t + 2 * (cos t * cos u - sin t * sin u)))
        with (20 - (sin t * sin t + cos t * cos t) * (16 - 16 * cos u + 4 * (sin u * sin u + cos u * cos u))) by ring.
      rewrite Qt, Qu. field. }
  destruct (Rle_dec 0 (cos u)) as [_|N]; [|lra]. destruct (Rle_dec (cos u) 1) as [_|N]; [|lra].
  rewrite acos_cos by lra. destruct (Rle_dec _ (- u)) as [_|N]; [|lra].
  unfold tauOmega. rewrite (pify_is 0 (- u - - u)) by (try lra; apply ang_eq_of_eq; ring).
  rewrite cos_0, sin_0, cos_neg, sin_neg.
  destruct (Rlt_dec _ 0) as [N|_]; [exfalso; lra|].
  assert (TT : ang_eq (atan2 ((y - 1 - cos phi) * (- sin u - 0) - (x + sin phi) * (cos u - 1 - 1))
      ((x + sin phi) * (- sin u - 0) + (y - 1 - cos phi) * (cos u - 1 - 1))) t).
  { apply (atan2_of (2 * (5 - 4 * cos u))); [lra| |]; rewrite X', Y'.
    - transitivity (2 * (4 + (sin u * sin u + cos u * cos u) - 4 * cos u) * cos t); [ring|]. rewrite Qu. ring.
    - transitivity (2 * (4 + (sin u * sin u + cos u * cos u) - 4 * cos u) * sin t); [ring|]. rewrite Qu. ring. }
  rewrite (pify_is t) by (try (apply ang_eq_sym; exact TT); lra).
  rewrite (pify_is v); [|destruct A as [k K]; exists (- k)%Z; rewrite opp_IZR; lra|lra].
  rewrite !bool_ge0 by lra. reflexivity.
Qed.

Lemma findLRSL x y phi t u v : 0 <= t < PI -> 0 <= u -> 0 <= v < PI ->
  W [DUBINS_LEFT; DUBINS_RIGHT; DUBINS_STRAIGHT; DUBINS_LEFT] [t; - (PI / 2); - u; - v] x y phi ->
  LpRmSmLm x y phi = Some (t, - u, - v).
Proof.
  intros T U V. wrd. rewrite sin_0, cos_0. intros (X & Y & A).
  rewrite (ang_eq_sin _ _ A) in X. rewrite (ang_eq_cos _ _ A) in Y.
  replace (t - - (PI / 2)) with (t + PI / 2) in * by ring.
  rewrite sin_HPI_shift, cos_HPI_shift in X, Y.
  unfold LpRmSmLm, valLpRmSmLm. pose proof (atan2_cos (-2) (2 + u)) as C. pose proof (atan2_sin (-2) (2 + u)) as S.
  set (a := atan2 (2 + u) (-2)) in *. set (r := sqrt (-2 * -2 + (2 + u) * (2 + u))) in *.
  assert (RP : 0 < r) by (apply sqrt_lt_R0; nra).
  assert (RR : r * r = 4 + (2 + u) * (2 + u)) by (unfold r; rewrite sqrt_sqrt; nra).
  destruct (polar_mod r (t - a) (x - sin phi) (y - 1 + cos phi)) as (b & PB & AB); [assumption| | |].
  { rewrite cos_minus. rewrite <- X. transitivity ((r * cos a) * cos t + (r * sin a) * sin t); [|ring].
    rewrite C, S. ring. }
  { rewrite sin_minus. rewrite <- Y. transitivity ((r * cos a) * sin t - (r * sin a) * cos t); [|ring].
    rewrite C, S. ring. }
  rewrite PB. destruct (Rle_dec 2 r) as [_|N]; [|nra].
  replace (r * r - 4) with ((2 + u) * (2 + u)) by lra. rewrite sqrt_square by lra. fold a.
  replace (2 - (2 + u)) with (- u) by ring.
  rewrite (pify_is t); [|apply ang_eq_sym; destruct AB as [k K]; exists k; lra|lra].
  rewrite (pify_is (- v)); [|destruct A as [k K]; exists k; lra|lra].
  rewrite bool_ge0, !bool_le0 by lra. reflexivity.
Qed.

Lemma findLRSR x y phi t u v : 0 <= t < PI -> 0 <= u -> 0 <= v < PI ->
  W [DUBINS_LEFT; DUBINS_RIGHT; DUBINS_STRAIGHT; DUBINS_RIGHT] [t; - (PI / 2); - u; - v] x y phi ->
  LpRmSmRm x y phi = Some (t, - u, - v).
Proof.
  intros T U V. wrd. rewrite sin_0, cos_0. intros (X & Y & A).
  rewrite (ang_eq_sin _ _ A) in X. rewrite (ang_eq_cos _ _ A) in Y.
  replace (t - - (PI / 2)) with (t + PI / 2) in * by ring.
  rewrite sin_HPI_shift, cos_HPI_shift in X, Y.
  unfold LpRmSmRm, valLpRmSmRm. rewrite (polar_is (2 + u) t) by lra.
  destruct (Rle_dec 2 (2 + u)) as [_|N]; [|lra].
  rewrite (pify_is (- v)); [|destruct A as [k K]; exists (- k)%Z; rewrite opp_IZR; lra|lra].
  replace (2 - (2 + u)) with (- u) by ring.
  rewrite bool_ge0, !bool_le0 by lra. reflexivity.
Qed.

Lemma findLRSLR x y phi t u v : 0 <= t < PI -> 0 <= u -> 0 <= v < PI ->
  W [DUBINS_LEFT; DUBINS_RIGHT; DUBINS_STRAIGHT; DUBINS_LEFT; DUBINS_RIGHT]
    [t; - (PI / 2); - u; - (PI / 2); v] x y phi ->
  LpRmSLmRp x y phi = Some (t, - u, v).
Proof.
  intros T U V. wrd. rewrite sin_0, cos_0. intros (X & Y & A).
  rewrite (ang_eq_sin _ _ A) in X. rewrite (ang_eq_cos _ _ A) in Y.
  replace (t - - (PI / 2) + - (PI / 2)) with t in * by ring.
  replace (t - - (PI / 2)) with (t + PI / 2) in * by ring.
  rewrite sin_HPI_shift, cos_HPI_shift in X, Y.
  assert (X' : x + sin phi = (4 + u) * sin t - 2 * cos t) by (rewrite <- X; ring).
  assert (Y' : y - 1 - cos phi = - (4 + u) * cos t - 2 * sin t) by (rewrite <- Y; ring).
  pose proof (sin2_cos2' t) as Qt.
  unfold LpRmSLmRp, valLpRmSLmRp, polar. rewrite X', Y'.
  replace (((4 + u) * sin t - 2 * cos t) * ((4 + u) * sin t - 2 * cos t) +
           (- (4 + u) * cos t - 2 * sin t) * (- (4 + u) * cos t - 2 * sin t))
    with ((sin t * sin t + cos t * cos t) * ((4 + u) * (4 + u) + 4)) by ring.
  rewrite Qt, Rmult_1_l.
  set (r := sqrt ((4 + u) * (4 + u) + 4)).
  assert (R0 : 0 <= r) by apply sqrt_pos.
  assert (RR : r * r = (4 + u) * (4 + u) + 4) by (unfold r; rewrite sqrt_sqrt; nra).
  destruct (Rle_dec 2 r) as [_|N]; [|nra].
  replace (r * r - 4) with ((4 + u) * (4 + u)) by lra. rewrite sqrt_square by lra.
  replace (4 - (4 + u)) with (- u) by ring. rewrite bool_le0 by lra.
  assert (TT : ang_eq (atan2 ((4 - - u) * ((4 + u) * sin t - 2 * cos t) - 2 * (- (4 + u) * cos t - 2 * sin t))
     (-2 * ((4 + u) * sin t - 2 * cos t) + (- u - 4) * (- (4 + u) * cos t - 2 * sin t))) t).
  { apply (atan2_of (r * r)); [nra| |]; rewrite RR; ring. }
  rewrite (pify_is t) by (try (apply ang_eq_sym; exact TT); lra).
  rewrite (pify_is v); [|destruct A as [k K]; exists (- k)%Z; rewrite opp_IZR; lra|lra].
  rewrite !bool_ge0 by lra. reflexivity.
Qed.

(** ** From a word to an upper bound *)

Definition sg (k : R) : DSeg :=
  if Rlt_dec k 0 then DUBINS_RIGHT else if Rlt_dec 0 k then DUBINS_LEFT else DUBINS_STRAIGHT.
Lemma sg_1 : sg 1 = DUBINS_LEFT.
Proof. unfold sg. destruct (Rlt_dec 1 0); [lra|]. destruct (Rlt_dec 0 1); [reflexivity|lra]. Qed.
Lemma sg_0 : sg 0 = DUBINS_STRAIGHT.
Proof. unfold sg. destruct (Rlt_dec 0 0); [lra|reflexivity]. Qed.
Lemma sg_m1 : sg (-1) = DUBINS_RIGHT.
Proof. unfold sg. destruct (Rlt_dec (-1) 0); [reflexivity|lra]. Qed.

Definition wt (w : list (R * R)) : list DSeg := map (fun p => sg (fst p)) w.
Definition wl (w : list (R * R)) : list R := map snd w.
Definition wsum (w : list (R * R)) : R := fold_right (fun p acc => Rabs (snd p) + acc) 0 w.

Definition sym_word (w : list (R * R)) : Prop :=
  exists w' m s, (m = 1 \/ m = -1) /\ (s = 1 \/ s = -1) /\ rs_base w' /\
    rev w = map (fun p => (m * fst p, s * snd p)) w'.

(** A base word gives a candidate of the symmetric or of the asymmetric families; in the first
    case its reversal is again the image of a base word of the symmetric families. *)
Inductive rs_bS : list (R * R) -> Prop :=
| bS_csc e t u v : e = 1 \/ e = -1 -> 0 <= t < PI -> 0 <= u -> 0 <= v < PI ->
    rs_bS [(1, t); (0, u); (e, v)]
| bS_cccc1 t u v : 0 <= t < PI -> 0 <= u < PI / 3 -> 0 <= v < PI ->
    rs_bS [(1, t); (-1, u); (1, - u); (-1, - v)]
| bS_cccc2 t u v : 0 <= t < PI -> 0 <= u <= PI / 2 -> 0 <= v < PI ->
    rs_bS [(1, t); (-1, - u); (1, - u); (-1, v)]
| bS_ccscc t u v : 0 <= t < PI -> 0 <= u -> 0 <= v < PI ->
    rs_bS [(1, t); (-1, - (PI / 2)); (0, - u); (1, - (PI / 2)); (-1, v)].
Inductive rs_bA : list (R * R) -> Prop :=
| bA_ccc t u v : 0 <= t < PI -> 0 < u <= PI -> - PI < v < PI ->
    rs_bA [(1, t); (-1, - u); (1, v)]
| bA_ccsc e t u v : e = 1 \/ e = -1 -> 0 <= t < PI -> 0 <= u -> 0 <= v < PI ->
    rs_bA [(1, t); (-1, - (PI / 2)); (0, - u); (e, - v)].

Lemma base_split w : rs_base w -> rs_bS w \/ rs_bA w.
Proof. intros H; inversion H; subst; (left; constructor; assumption) || (right; constructor; assumption). Qed.

Lemma upperS x y phi w : rs_bS w -> W (wt w) (wl w) x y phi -> upper (keyedS x y phi) (wsum w).
Proof.
  intros H. pose proof PI_RGT_0 as P0. inversion H; subst; unfold wt, wl, wsum; cbn [map fst snd fold_right];
  rewrite ?sg_1, ?sg_0, ?sg_m1; intros G; rewrite ?Rabs_Ropp.
  - destruct H0 as [-> | ->]; rewrite ?sg_1, ?sg_m1 in G.
    + destruct (Req_dec u 0) as [->|N].
      * apply upperLSL0 in G; try assumption. rewrite Rabs_R0, !Rabs_pos_eq by lra.
        replace (t + (0 + (v + 0))) with (t + v) by ring. assumption.
      * apply findLSL in G; try lra. exists t, u, v, 1, 0. split; [|lra].
        unfold keyedS, CSC_cands, key; cbn [map app fst]. rewrite <- G. simpl; tauto.
    + apply findLSR in G; try lra. exists t, u, v, 1, 0. split; [|lra].
      unfold keyedS, CSC_cands, key; cbn [map app fst]. rewrite <- G. simpl; tauto.
  - apply findLRLR1 in G; try lra. exists t, u, (- v), 2, 0. split; [|rewrite Rabs_Ropp; lra].
    unfold keyedS, CCCC_cands, key. rewrite !in_app_iff. right; left. cbn [map fst]. rewrite <- G. simpl; tauto.
  - apply findLRLR2 in G; try lra. exists t, (- u), v, 2, 0. split; [|rewrite Rabs_Ropp; lra].
    unfold keyedS, CCCC_cands, key. rewrite !in_app_iff. right; left. cbn [map fst]. rewrite <- G. simpl; tauto.
  - apply findLRSLR in G; try lra. exists t, (- u), v, 1, PI. split.
    + unfold keyedS, CCSCC_cands, key. rewrite !in_app_iff. right; right. cbn [map fst]. rewrite <- G. simpl; tauto.
    + rewrite Rabs_Ropp, (Rabs_pos_eq (PI / 2)) by lra. lra.
Qed.

Lemma upperA x y phi w : rs_bA w -> W (wt w) (wl w) x y phi -> upper (keyedA x y phi) (wsum w).
Proof.
  intros H. pose proof PI_RGT_0 as P0. inversion H; subst; unfold wt, wl, wsum; cbn [map fst snd fold_right];
  rewrite ?sg_1, ?sg_0, ?sg_m1; intros G; rewrite ?Rabs_Ropp.
  - apply findLRL in G; try lra. exists t, (- u), v, 1, 0. split; [|rewrite Rabs_Ropp; lra].
    unfold keyedA, CCC_cands, key. cbv zeta. rewrite !in_app_iff. left. cbn [map fst]. rewrite <- G. simpl; tauto.
  - destruct H0 as [-> | ->]; rewrite ?sg_1, ?sg_m1 in G.
    + apply findLRSL in G; try lra. exists t, (- u), (- v), 1, (1 / 2 * PI). split.
      * unfold keyedA, CCSC_cands, key. cbv zeta. rewrite !in_app_iff. right. cbn [map fst]. rewrite <- G. simpl; tauto.
      * rewrite !Rabs_Ropp, (Rabs_pos_eq (PI / 2)) by lra. lra.
    + apply findLRSR in G; try lra. exists t, (- u), (- v), 1, (1 / 2 * PI). split.
      * unfold keyedA, CCSC_cands, key. cbv zeta. rewrite !in_app_iff. right. cbn [map fst]. rewrite <- G. simpl; tauto.
      * rewrite !Rabs_Ropp, (Rabs_pos_eq (PI / 2)) by lra. lra.
Qed.

(** The image of a word under mirroring and time flip. *)
Definition img (m s : R) (w : list (R * R)) : list (R * R) := map (fun p => (m * fst p, s * snd p)) w.

Lemma sg_opp k : sg (-1 * k) = swap (sg k).
Proof. unfold sg. repeat destruct (Rlt_dec _ _); try reflexivity; exfalso; lra. Qed.

Lemma wt_img m s w : m = 1 \/ m = -1 -> wt (img m s w) = if Rlt_dec m 0 then map swap (wt w) else wt w.
Proof.
  intros M. unfold wt, img. rewrite map_map. cbn [fst].
  destruct (Rlt_dec m 0) as [L|L]; [rewrite map_map; destruct M as [->| ->]; [lra|]|destruct M as [->| ->]; [|lra]];
  apply map_ext; intros p; [apply sg_opp|]. rewrite Rmult_1_l. reflexivity.
Qed.
Lemma wl_img m s w : s = 1 \/ s = -1 -> wl (img m s w) = if Rlt_dec s 0 then map Ropp (wl w) else wl w.
Proof.
  intros M. unfold wl, img. rewrite map_map. cbn [snd].
  destruct (Rlt_dec s 0) as [L|L]; [rewrite map_map; destruct M as [->| ->]; [lra|]|destruct M as [->| ->]; [|lra]];
  apply map_ext; intros p; ring.
Qed.
Lemma wsum_img m s w : s = 1 \/ s = -1 -> wsum (img m s w) = wsum w.
Proof.
  intros S. induction w as [|p w IH]; [reflexivity|]. simpl. rewrite IH, Rabs_mult.
  replace (Rabs s) with 1; [ring|]. destruct S as [->| ->]; unfold Rabs; destruct (Rcase_abs _); lra.
Qed.
Lemma wsum_app w1 w2 : wsum (w1 ++ w2) = wsum w1 + wsum w2.
Proof. induction w1 as [|p w IH]; simpl; [ring|]. rewrite IH. ring. Qed.
Lemma wsum_rev w : wsum (rev w) = wsum w.
Proof. induction w as [|p w IH]; [reflexivity|]. simpl. rewrite wsum_app, IH. simpl. ring. Qed.

Lemma swap_swap l : map swap (map swap l) = l.
Proof. rewrite map_map, (map_ext _ (fun z => z)), map_id; [reflexivity|]. intros []; reflexivity. Qed.
Lemma opp_opp l : map Ropp (map Ropp l) = l.
Proof. rewrite map_map, (map_ext _ (fun z => z)), map_id; [reflexivity|]. intros; ring. Qed.

Lemma unflip ty ls x y phi : W ty (map Ropp ls) x y phi -> W ty ls (- x) y (- phi).
Proof. intros H. rewrite <- (opp_opp ls). apply flip_use. rewrite !Ropp_involutive. assumption. Qed.
Lemma unrefl ty ls x y phi : W (map swap ty) ls x y phi -> W ty ls x (- y) (- phi).
Proof. intros H. rewrite <- (swap_swap ty). apply refl_use. rewrite !Ropp_involutive. assumption. Qed.

Lemma upper_incl k1 k2 L : (forall s, In s k1 -> In s k2) -> upper k1 L -> upper k2 L.
Proof. intros I (t & u & v & two & off & H & B). exists t, u, v, two, off. auto. Qed.

Lemma upper_imgS x y phi w m s : rs_bS w -> m = 1 \/ m = -1 -> s = 1 \/ s = -1 ->
  W (wt (img m s w)) (wl (img m s w)) x y phi -> upper (keyedS x y phi) (wsum w).
Proof.
  intros B M S. rewrite wt_img, wl_img by assumption. intros G.
  destruct (keyed_sym x y phi) as (F & R & _ & _).
  destruct (Rlt_dec m 0); destruct (Rlt_dec s 0).
  - apply unrefl, unflip in G. rewrite Ropp_involutive in G.
    apply (upper_incl _ _ _ R). apply (upper_incl (keyedS (- x) (- y) phi)); [|apply upperS; assumption].
    destruct (keyed_sym x (- y) (- phi)) as (F' & _ & _ & _). rewrite Ropp_involutive in F'. exact F'.
  - apply unrefl in G. apply (upper_incl _ _ _ R). apply upperS; assumption.
  - apply unflip in G. apply (upper_incl _ _ _ F). apply upperS; assumption.
  - apply upperS; assumption.
Qed.

Lemma upper_imgA x y phi w m s : rs_bA w -> m = 1 \/ m = -1 -> s = 1 \/ s = -1 ->
  W (wt (img m s w)) (wl (img m s w)) x y phi -> upper (keyedA x y phi) (wsum w).
Proof.
  intros B M S. rewrite wt_img, wl_img by assumption. intros G.
  destruct (keyed_sym x y phi) as (_ & _ & F & R).
  destruct (Rlt_dec m 0); destruct (Rlt_dec s 0).
  - apply unrefl, unflip in G. rewrite Ropp_involutive in G.
    apply (upper_incl _ _ _ R). apply (upper_incl (keyedA (- x) (- y) phi)); [|apply upperA; assumption].
    destruct (keyed_sym x (- y) (- phi)) as (_ & _ & F' & _). rewrite Ropp_involutive in F'. exact F'.
  - apply unrefl in G. apply (upper_incl _ _ _ R). apply upperA; assumption.
  - apply unflip in G. apply (upper_incl _ _ _ F). apply upperA; assumption.
  - apply upperA; assumption.
Qed.

Lemma revS w : rs_bS w -> exists w' m s, rs_bS w' /\ (m = 1 \/ m = -1) /\ (s = 1 \/ s = -1) /\ rev w = img m s w'.
Proof.
  intros H; inversion H as [e t u v E T U V|t u v T U V|t u v T U V|t u v T U V]; subst; unfold img; cbn [rev app].
  - exists [(1, v); (0, u); (e, t)], e, 1. split; [constructor; assumption|]. split; [assumption|]. split; [auto|].
    cbn [map fst snd]. repeat (apply f_equal2; [apply f_equal2; try ring|]); try reflexivity.
    destruct E as [->| ->]; ring.
  - exists [(1, v); (-1, u); (1, - u); (-1, - t)], (-1), (-1). split; [constructor; assumption|]. split; [auto|]. split; [auto|].
    cbn [map fst snd]. repeat (apply f_equal2; [apply f_equal2; try ring|]); reflexivity.
  - exists [(1, v); (-1, - u); (1, - u); (-1, t)], (-1), 1. split; [constructor; assumption|]. split; [auto|]. split; [auto|].
    cbn [map fst snd]. repeat (apply f_equal2; [apply f_equal2; try ring|]); reflexivity.
  - exists [(1, v); (-1, - (PI / 2)); (0, - u); (1, - (PI / 2)); (-1, t)], (-1), 1. split; [constructor; assumption|]. split; [auto|]. split; [auto|].
    cbn [map fst snd]. repeat (apply f_equal2; [apply f_equal2; try ring|]); reflexivity.
Qed.

Lemma img_img m s m' s' w : img m s (img m' s' w) = img (m * m') (s * s') w.
Proof. unfold img. rewrite map_map. apply map_ext. intros p. cbn [fst snd]. f_equal; ring. Qed.
Lemma img_rev m s w : img m s (rev w) = rev (img m s w).
Proof. unfold img. rewrite map_rev. reflexivity. Qed.

Lemma signs a b : a = 1 \/ a = -1 -> b = 1 \/ b = -1 -> a * b = 1 \/ a * b = -1.
Proof. intros [->| ->] [->| ->]; lra. Qed.

Lemma unback w x y phi : W (wt (rev w)) (wl (rev w)) x y phi -> W (wt w) (wl w) (xb x y phi) (yb x y phi) phi.
Proof.
  intros H. destruct (xb_inv x y phi) as [I1 I2].
  rewrite <- (rev_involutive (wt w)), <- (rev_involutive (wl w)).
  apply uword_back; [unfold wt, wl; rewrite !rev_length, !map_length; reflexivity|].
  fold (xb (xb x y phi) (yb x y phi) phi) (yb (xb x y phi) (yb x y phi) phi). rewrite I1, I2.
  unfold wt, wl in *. rewrite <- !map_rev. assumption.
Qed.

Lemma word_upper x y phi w m s : rs_base w -> m = 1 \/ m = -1 -> s = 1 \/ s = -1 ->
  (W (wt (img m s w)) (wl (img m s w)) x y phi \/ W (wt (img m s (rev w))) (wl (img m s (rev w))) x y phi) ->
  upper (keyedS x y phi ++ keyedA x y phi) (wsum w).
Proof.
  intros B M S G.
  assert (IS : forall L, upper (keyedS x y phi) L -> upper (keyedS x y phi ++ keyedA x y phi) L)
    by (intros L; apply upper_incl; intros; apply in_app_iff; auto).
  assert (IA : forall L, upper (keyedA x y phi) L -> upper (keyedS x y phi ++ keyedA x y phi) L)
    by (intros L; apply upper_incl; intros; apply in_app_iff; auto).
  destruct (base_split w B) as [BS|BA]; destruct G as [G|G].
  - apply IS. apply (upper_imgS x y phi w m s); assumption.
  - destruct (revS w BS) as (w' & m' & s' & B' & M' & S' & E). apply IS.
    rewrite <- (wsum_rev w), E, wsum_img by assumption. rewrite E, img_img in G.
    eapply upper_imgS; [assumption|exact (signs _ _ M M')|exact (signs _ _ S S')|exact G].
  - apply IA. apply (upper_imgA x y phi w m s); assumption.
  - apply IA. rewrite img_rev in G. apply unback in G.
    eapply upper_incl; [apply keyed_back|]. apply (upper_imgA _ _ phi w m s); assumption.
Qed.

(** ** Controls *)

Lemma base_curv w : rs_base w -> Forall (fun p => fst p = 1 \/ fst p = 0 \/ fst p = -1) w.
Proof.
  intros H; inversion H as [e ? ? ? E ? ? ?| | | |e ? ? ? E ? ? ?|]; subst; repeat apply Forall_cons; try apply Forall_nil; cbn [fst]; try lra.
Qed.

Lemma word_controls_dubins kappa m s w : 0 < kappa -> m = 1 \/ m = -1 ->
  Forall (fun p => fst p = 1 \/ fst p = 0 \/ fst p = -1) w ->
  word_controls kappa m s w =
  map (fun x => dubins_control kappa (fst x) (snd x)) (combine (wt (img m s w)) (wl (img m s w))).
Proof.
  intros K M F. induction w as [|p w IH]; [reflexivity|].
  inversion F as [|? ? Fp Fw]; subst. unfold word_controls, wt, wl, img in *. cbn [map combine fst snd].
  rewrite IH by assumption. f_equal.
  destruct M as [->| ->]; destruct Fp as [-> | [-> | ->]];
  match goal with |- context [sg ?k] => 
    first [replace (sg k) with DUBINS_LEFT by (rewrite <- sg_1; f_equal; ring)
          |replace (sg k) with DUBINS_STRAIGHT by (rewrite <- sg_0; f_equal; ring)
          |replace (sg k) with DUBINS_RIGHT by (rewrite <- sg_m1; f_equal; ring)] end;
  cbn [dubins_control]; apply f_equal3; try reflexivity; try (field; lra); try ring.
Qed.

Lemma word_controls_length kappa m s w : 0 < kappa -> s = 1 \/ s = -1 ->
  kappa * total_length (word_controls kappa m s w) = wsum w.
Proof.
  intros K S. induction w as [|p w IH]; [simpl; ring|].
  unfold word_controls in *. cbn [map total_length fold_right wsum ct_delta_s]. fold (wsum w).
  rewrite <- IH. unfold total_length.
  replace (Rabs (s * snd p / kappa)) with (Rabs (snd p) / kappa); [field; lra|].
  unfold Rdiv. rewrite !Rabs_mult, (Rabs_pos_eq (/ kappa)) by (left; apply Rinv_0_lt_compat; assumption).
  replace (Rabs s) with 1; [ring|]. destruct S as [->| ->]; unfold Rabs; destruct (Rcase_abs _); lra.
Qed.

Lemma rs_min kappa s1 s2 cs : 0 < kappa -> rs_word kappa cs -> same_pose (drive_all s1 cs) s2 ->
  rs_distance kappa s1 s2 <= total_length cs.
Proof.
  intros K (w & m & s & B & M & S & E) G.
  unfold rs_distance, rs_path. destruct (rs_args kappa s1 s2) as [[x y] phi] eqn:EA.
  destruct (rs_args_place _ _ _ _ _ _ K EA) as (P1 & P2 & _).
  assert (L : kappa * total_length cs = wsum w).
  { destruct E as [-> | ->]; rewrite word_controls_length by assumption; [reflexivity|apply wsum_rev]. }
  apply Rmult_le_reg_l with kappa; [assumption|]. rewrite L.
  replace (kappa * (1 / kappa * rs_length (reeds_shepp x y phi))) with (rs_length (reeds_shepp x y phi)) by (field; lra).
  apply keyed_le. apply (word_upper x y phi w m s B M S).
  assert (T : forall w', Forall (fun p => fst p = 1 \/ fst p = 0 \/ fst p = -1) w' ->
     same_pose (drive_all s1 (word_controls kappa m s w')) s2 ->
     W (wt (img m s w')) (wl (img m s w')) x y phi).
  { intros w' F H. rewrite word_controls_dubins in H by assumption.
    pose proof (drive_all_place kappa _ _ _ (wt (img m s w')) (wl (img m s w')) origin s1 ltac:(lra) P1) as D.
    apply (place_inj kappa (st_x s1) (st_y s1) (st_theta s1)); [assumption|].
    eapply psim_trans; [apply psim_sym; exact D|]. exact (psim_trans (pose _) (pose s2) _ H P2). }
  pose proof (base_curv w B) as F.
  destruct E as [-> | ->]; [left|right]; apply T; try assumption. apply Forall_rev. assumption.
Qed.

Lemma rs_cand_min x y phi c t u v :
  In c (CSC_cands x y phi ++ CCC_cands x y phi ++ CCCC_cands x y phi ++ CCSC_cands x y phi ++
        CCSCC_cands x y phi) ->
  fst c = Some (t, u, v) ->
  rs_length (reeds_shepp x y phi) <= rs_length (snd c t u v).
Proof.
  intros I F. destruct (rs_select x y phi) as (_ & _ & M). apply M. exists c, t, u, v. auto.
Qed.

Lemma rs_path_found kappa s1 s2 : 0 < kappa -> kappa * pos_dist s1 s2 <= 10 ^ 299 ->
  rs_distance kappa s1 s2 <= 8 * pos_dist s1 s2 + 30 / kappa /\
  same_pose (drive_all s1 (rs_get_controls kappa s1 s2)) s2.
Proof.
  intros K D. split; [|apply rs_reach_goal; assumption].
  unfold rs_distance, rs_path. destruct (rs_args kappa s1 s2) as [[x y] phi] eqn:E.
  destruct (rs_args_place _ _ _ _ _ _ K E) as (_ & _ & BX & BY).
  destruct (rs_found_length x y phi) as [L _]; [lra|].
  apply Rmult_le_reg_l with kappa; [assumption|].
  replace (kappa * (1 / kappa * rs_length (reeds_shepp x y phi))) with (rs_length (reeds_shepp x y phi)) by (field; lra).
  replace (kappa * (8 * pos_dist s1 s2 + 30 / kappa)) with (8 * (kappa * pos_dist s1 s2) + 30) by (field; lra).
  lra.
Qed.

Lemma rs_path_reaches kappa disc s1 s2 path :
  epsilon < kappa -> 0 < disc -> kappa * pos_dist s1 s2 <= 10 ^ 299 ->
  rs_get_path kappa disc s1 s2 = Some path ->
  exists q, nth_error path (length path - 1) = Some q /\ same_pose q s2.
Proof.
  intros K D B E. destruct (rs_integrated kappa disc s1 s2 path K D E) as (q & Q & S).
  exists q. split; [assumption|]. eapply same_pose_trans; [exact S|]. apply rs_reach_goal; [|assumption].
  unfold epsilon in K; lra.
Qed.

Lemma five_small : 0 < 5 <= 10 ^ 299.
Proof.
  split; [lra|]. replace 299%nat with (1 + 298)%nat by reflexivity. rewrite pow_add.
  assert (1 <= 10 ^ 298) by (apply pow_R1_Rle; lra). lra.
Qed.

Lemma zero_length_control : exists kappa state1 state2,
  0 < kappa /\ state1 <> state2 /\
  exists c, In c (rs_get_controls kappa state1 state2) /\ ct_delta_s c = 0.
Proof.
  exists 1, (mkState 0 0 0 0 0), (mkState 5 0 0 0 0). split; [lra|]. split.
  - intros E. injection E as E. lra.
  - rewrite straight_controls by apply five_small. exists (mkControl 0 1 0). split; [left; reflexivity|reflexivity].
Qed.

Lemma LSL_straight : LpSpLp 5 0 0 = Some (0, 5, 0).
Proof.
  unfold LpSpLp. rewrite sin_0, cos_0. replace (0 - 1 + 1) with 0 by ring. rewrite Rminus_0_r.
  rewrite (polar_is 5 0) by (rewrite ?cos_0, ?sin_0; pose proof PI_RGT_0; lra).
  rewrite bool_ge0 by lra.
  rewrite Rminus_0_r, (pify_unique 0) by (try apply ang_eq_refl; pose proof PI_RGT_0; lra).
  rewrite bool_ge0 by lra. reflexivity.
Qed.

Lemma three_point_turn :
  rs_word 1 [mkControl (PI / 3) 1 0; mkControl (- (PI / 3)) (-1) 0; mkControl (PI / 3) 1 0] /\
  same_pose (drive_all (mkState 0 0 0 0 0)
    [mkControl (PI / 3) 1 0; mkControl (- (PI / 3)) (-1) 0; mkControl (PI / 3) 1 0])
    (mkState 0 0 PI 0 0).
Proof.
  pose proof PI_RGT_0 as P0. split.
  - exists [(1, PI / 3); (-1, - (PI / 3)); (1, PI / 3)], 1, 1. split; [constructor; lra|].
    split; [auto|]. split; [auto|]. left. unfold word_controls. cbn [map fst snd].
    repeat (apply f_equal2; [apply f_equal3; [field|field|reflexivity]|]). reflexivity.
  - unfold drive_all, same_pose; simpl. unfold drive; simpl.
    destruct (Req_EM_T (-1) 0) as [N|_]; [lra|].
    destruct (Req_EM_T 1 0) as [N|_]; [lra|]. cbn [st_x st_y st_theta].
    replace (0 + 1 * (PI / 3)) with (PI / 3) by field.
    replace (PI / 3 + -1 * - (PI / 3)) with (PI - PI / 3) by field.
    replace (PI - PI / 3 + 1 * (PI / 3)) with PI by field.
    rewrite !sin_pi_minus, !cos_pi_minus, sin_0, cos_0, sin_PI, cos_PI, cos_PI3.
    repeat split; try field. apply ang_eq_refl.
Qed.

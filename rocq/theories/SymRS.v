(** * Symmetries of the Reeds-Shepp distance *)
From Coq Require Import Reals Rtrigo_facts ZArith List Bool Lra Lia Psatz.
From Verif Require Import Base ModelUtil ModelFresnel ModelIntegrate ModelDubins ModelRS Num
  UtilProofs SpecPath SpecRS SpecSym IntegrateProofs DubinsProofs DubinsPlan DubinsOpt RSProofs RSPlan RSExist RSSelect RSOpt.
Import ListNotations.
Open Scope R_scope.

(** ** The solvers find words whose outer segments may be negative up to the tolerance *)
Lemma RS_ZERO_small : RS_ZERO < 1 / 1000.
Proof. unfold RS_ZERO, DBL_EPSILON. cbn. lra. Qed.
Lemma bool_geZ (A : Type) a (x y : A) : - RS_ZERO <= a -> (if Rle_dec (- RS_ZERO) a then x else y) = x.
Proof. intros H. destruct (Rle_dec _ a); [reflexivity|lra]. Qed.
Lemma bool_leZ (A : Type) a (x y : A) : a <= RS_ZERO -> (if Rle_dec a RS_ZERO then x else y) = x.
Proof. intros H. destruct (Rle_dec a _); [reflexivity|lra]. Qed.

Lemma findLSL' x y phi t u v : - RS_ZERO <= t < PI -> 0 < u -> - RS_ZERO <= v < PI ->
  W [DUBINS_LEFT; DUBINS_STRAIGHT; DUBINS_LEFT] [t; u; v] x y phi -> LpSpLp x y phi = Some (t, u, v).
Proof.
  intros T U V. pose proof PI2_3_2 as P32. pose proof RS_ZERO_pos as Z0. pose proof RS_ZERO_small as Z1. wrd. rewrite sin_0, cos_0. intros (X & Y & A).
  rewrite (ang_eq_sin _ _ A) in X. rewrite (ang_eq_cos _ _ A) in Y.
  unfold LpSpLp. rewrite (polar_is u t) by lra. rewrite bool_geZ by lra.
  rewrite (pify_is v) by (try (apply ang_sub_eq; assumption); lra). rewrite bool_geZ by lra. reflexivity.
Qed.

Lemma findLSR' x y phi t u v : - RS_ZERO <= t < PI -> 0 <= u -> - RS_ZERO <= v < PI ->
  W [DUBINS_LEFT; DUBINS_STRAIGHT; DUBINS_RIGHT] [t; u; v] x y phi -> LpSpRp x y phi = Some (t, u, v).
Proof.
  intros T U V. pose proof PI2_3_2 as P32. pose proof RS_ZERO_pos as Z0. pose proof RS_ZERO_small as Z1. wrd. rewrite sin_0, cos_0. intros (X & Y & A).
  rewrite (ang_eq_sin _ _ A) in X. rewrite (ang_eq_cos _ _ A) in Y.
  unfold LpSpRp, valLpSpRp. destruct (atan2_2u u U) as [C S]. pose proof (sqrt4_pos u) as RP.
  set (r := sqrt (u * u + 4)) in *. set (a := atan2 2 u) in *.
  assert (RR : r * r = u * u + 4) by (apply sqrt_sqrt; nra).
  destruct (polar_mod r (t - a) (x + sin phi) (y - 1 - cos phi)) as (b & PB & AB); [assumption| | |].
  { rewrite cos_minus. rewrite <- X. transitivity ((r * cos a) * cos t + (r * sin a) * sin t); [|ring].
    rewrite C, S. ring. }
  { rewrite sin_minus. rewrite <- Y. transitivity ((r * cos a) * sin t - (r * sin a) * cos t); [|ring].
    rewrite C, S. ring. }
  rewrite PB, RR. destruct (Rle_dec 4 (u * u + 4)) as [_|N]; [|nra].
  replace (u * u + 4 - 4) with (u * u) by ring. rewrite sqrt_square by assumption. fold a.
  rewrite (pify_is t); [|apply ang_eq_sym; destruct AB as [k K]; exists k; lra|lra].
  rewrite (pify_is v); [|destruct A as [k K]; exists (- k)%Z; rewrite opp_IZR; lra|lra].
  rewrite !bool_geZ by lra. reflexivity.
Qed.

Lemma findLRLR1' x y phi t u v : - RS_ZERO <= t < PI -> 0 <= u < PI / 3 -> - RS_ZERO <= v < PI ->
  W [DUBINS_LEFT; DUBINS_RIGHT; DUBINS_LEFT; DUBINS_RIGHT] [t; u; - u; - v] x y phi ->
  LpRupLumRm x y phi = Some (t, u, - v).
Proof.
  intros T U V. pose proof PI2_3_2 as P32. pose proof RS_ZERO_pos as Z0. pose proof RS_ZERO_small as Z1. wrd. rewrite sin_0, cos_0. intros (X & Y & A).
  rewrite (ang_eq_sin _ _ A) in X. rewrite (ang_eq_cos _ _ A) in Y.
  unfold LpRupLumRm, valLpRupLumRm. pose proof PI_RGT_0 as P0.
  pose proof (cos_third u U) as C. pose proof (COS_bound u) as CB.
  set (c := 2 * cos u - 1). set (a := t - u).
  assert (T1 : t = a + u) by (unfold a; ring).
  assert (T2 : t - u + - u = a - u) by (unfold a; ring).
  assert (X' : x + sin phi = 2 * c * sin a).
  { rewrite <- X, T2. fold a. rewrite T1, sin_plus, sin_minus. unfold c. ring. }
  assert (Y' : y - 1 - cos phi = - (2 * c * cos a)).
  { rewrite <- Y, T2. fold a. rewrite T1, cos_plus, cos_minus. unfold c. ring. }
  rewrite X', Y'.
  replace (2 * c * sin a * (2 * c * sin a) + - (2 * c * cos a) * - (2 * c * cos a))
    with (2 * c * (2 * c) * (sin a * sin a + cos a * cos a)) by ring.
  rewrite sin2_cos2', Rmult_1_r, sqrt_square by (unfold c; lra).
  replace (1 / 4 * (2 + 2 * c)) with (cos u) by (unfold c; field).
  destruct (Rle_dec (cos u) 1) as [_|N]; [|lra]. rewrite acos_cos by lra.
  unfold tauOmega.
  rewrite (pify_is (2 * u) (u - - u)) by (try lra; apply ang_eq_of_eq; ring).
  rewrite cos_2a', sin_2a', cos_neg.
  destruct (Rlt_dec _ 0) as [N|_]; [exfalso; pose proof (sq_ge0 (2 * cos u - 1)); lra|].
  assert (TT : ang_eq (atan2 (- (2 * c * cos a) * (sin u - 2 * sin u * cos u) -
      2 * c * sin a * (cos u - (2 * cos u * cos u - 1) - 1))
      (2 * c * sin a * (sin u - 2 * sin u * cos u) +
       - (2 * c * cos a) * (cos u - (2 * cos u * cos u - 1) - 1))) t).
  { apply (atan2_of (2 * c * c)); [unfold c; nra| |].
    - rewrite T1, cos_plus. unfold c. ring.
    - rewrite T1, sin_plus. unfold c. ring. }
  rewrite (pify_is t) by (try (apply ang_eq_sym; exact TT); lra).
  rewrite (pify_is (- v)); [|destruct A as [k K]; exists (- k)%Z; rewrite opp_IZR; lra|lra].
  rewrite bool_geZ, bool_leZ by lra. reflexivity.
Qed.

Lemma findLRLR2' x y phi t u v : - RS_ZERO <= t < PI -> 0 <= u <= PI / 2 -> - RS_ZERO <= v < PI ->
  W [DUBINS_LEFT; DUBINS_RIGHT; DUBINS_LEFT; DUBINS_RIGHT] [t; - u; - u; v] x y phi ->
  LpRumLumRp x y phi = Some (t, - u, v).
Proof.
  intros T U V. pose proof PI2_3_2 as P32. pose proof RS_ZERO_pos as Z0. pose proof RS_ZERO_small as Z1. wrd. rewrite sin_0, cos_0. intros (X & Y & A).
  rewrite (ang_eq_sin _ _ A) in X. rewrite (ang_eq_cos _ _ A) in Y.
  unfold LpRumLumRp, valLpRumLumRp. pose proof PI_RGT_0 as P0.
  assert (C0 : 0 <= cos u) by (apply cos_ge_0; lra). pose proof (COS_bound u) as CB.
  assert (X' : x + sin phi = 4 * sin t - 2 * sin (t + u)).
  { rewrite <- X. replace (t - - u + - u) with t by ring. replace (t - - u) with (t + u) by ring. ring. }
  assert (Y' : y - 1 - cos phi = - 4 * cos t + 2 * cos (t + u)).
  { rewrite <- Y. replace (t - - u + - u) with t by ring. replace (t - - u) with (t + u) by ring. ring. }
  rewrite sin_plus in X'. rewrite cos_plus in Y'.
  pose proof (sin2_cos2' t) as Qt. pose proof (sin2_cos2' u) as Qu.
  replace ((20 - (x + sin phi) * (x + sin phi) - (y - 1 - cos phi) * (y - 1 - cos phi)) / 16) with (cos u).
  2:{ rewrite X', Y'.
      replace (20 - (4 * sin t - 2 * (sin t * cos u + cos t * sin u)) * (4 * sin t - 2 * (sin t * cos u + cos t * sin u)) -
         (-4 * cos t + 2 * (cos t * cos u - sin t * sin u)) * (-4 * cos t + 2 * (cos t * cos u - sin t * sin u)))
        with (20 - (sin t * sin t + cos t * cos t) * (16 - 16 * cos u + 4 * (sin u * sin u + cos u * cos u))) by ring.
      rewrite Qt, Qu. field. }
  destruct (Rle_dec 0 (cos u)) as [_|N]; [|lra]. destruct (Rle_dec (cos u) 1) as [_|N]; [|lra].
  rewrite acos_cos by lra. destruct (Rle_dec _ (- u)) as [_|N]; [|lra].
  unfold tauOmega. rewrite (pify_is 0 (- u - - u)) by (try lra; apply ang_eq_of_eq; ring).
  rewrite cos_0, sin_0, cos_neg, sin_neg.
  destruct (Rlt_dec _ 0) as [N|_]; [exfalso; lra|].
  assert (TT : ang_eq (atan2 ((y - 1 - cos phi) * (- sin u - 0) - (x + sin phi) * (cos u - 1 - 1))
      ((x + sin phi) * (- sin u - 0) + (y - 1 - cos phi) * (cos u - 1 - 1))) t).
  { apply (atan2_of (2 * (5 - 4 * cos u))); [lra| |]; rewrite X', Y'.
    - transitivity (2 * (4 + (sin u * sin u + cos u * cos u) - 4 * cos u) * cos t); [ring|]. rewrite Qu. ring.
    - transitivity (2 * (4 + (sin u * sin u + cos u * cos u) - 4 * cos u) * sin t); [ring|]. rewrite Qu. ring. }
  rewrite (pify_is t) by (try (apply ang_eq_sym; exact TT); lra).
  rewrite (pify_is v); [|destruct A as [k K]; exists (- k)%Z; rewrite opp_IZR; lra|lra].
  rewrite !bool_geZ by lra. reflexivity.
Qed.

Lemma findLRSLR' x y phi t u v : - RS_ZERO <= t < PI -> - RS_ZERO <= u -> - RS_ZERO <= v < PI ->
  W [DUBINS_LEFT; DUBINS_RIGHT; DUBINS_STRAIGHT; DUBINS_LEFT; DUBINS_RIGHT]
    [t; - (PI / 2); - u; - (PI / 2); v] x y phi ->
  LpRmSLmRp x y phi = Some (t, - u, v).
Proof.
  intros T U V. pose proof PI2_3_2 as P32. pose proof RS_ZERO_pos as Z0. pose proof RS_ZERO_small as Z1. wrd. rewrite sin_0, cos_0. intros (X & Y & A).
  rewrite (ang_eq_sin _ _ A) in X. rewrite (ang_eq_cos _ _ A) in Y.
  replace (t - - (PI / 2) + - (PI / 2)) with t in * by ring.
  replace (t - - (PI / 2)) with (t + PI / 2) in * by ring.
  rewrite sin_HPI_shift, cos_HPI_shift in X, Y.
  assert (X' : x + sin phi = (4 + u) * sin t - 2 * cos t) by (rewrite <- X; ring).
  assert (Y' : y - 1 - cos phi = - (4 + u) * cos t - 2 * sin t) by (rewrite <- Y; ring).
  pose proof (sin2_cos2' t) as Qt.
  unfold LpRmSLmRp, valLpRmSLmRp, polar. rewrite X', Y'.
  replace (((4 + u) * sin t - 2 * cos t) * ((4 + u) * sin t - 2 * cos t) +
           (- (4 + u) * cos t - 2 * sin t) * (- (4 + u) * cos t - 2 * sin t))
    with ((sin t * sin t + cos t * cos t) * ((4 + u) * (4 + u) + 4)) by ring.
  rewrite Qt, Rmult_1_l.
  set (r := sqrt ((4 + u) * (4 + u) + 4)).
  assert (R0 : 0 <= r) by apply sqrt_pos.
  assert (RR : r * r = (4 + u) * (4 + u) + 4) by (unfold r; rewrite sqrt_sqrt; nra).
  destruct (Rle_dec 2 r) as [_|N]; [|nra].
  replace (r * r - 4) with ((4 + u) * (4 + u)) by lra. rewrite sqrt_square by lra.
  replace (4 - (4 + u)) with (- u) by ring. rewrite bool_leZ by lra.
  assert (TT : ang_eq (atan2 ((4 - - u) * ((4 + u) * sin t - 2 * cos t) - 2 * (- (4 + u) * cos t - 2 * sin t))
     (-2 * ((4 + u) * sin t - 2 * cos t) + (- u - 4) * (- (4 + u) * cos t - 2 * sin t))) t).
  { apply (atan2_of (r * r)); [nra| |]; rewrite RR; ring. }
  rewrite (pify_is t) by (try (apply ang_eq_sym; exact TT); lra).
  rewrite (pify_is v); [|destruct A as [k K]; exists (- k)%Z; rewrite opp_IZR; lra|lra].
  rewrite !bool_geZ by lra. reflexivity.
Qed.

Lemma sqrt_00 a b : sqrt (a * a + b * b) = 0 -> a = 0 /\ b = 0.
Proof.
  intros Z. apply sqrt_eq_0 in Z; [|pose proof (sq_ge0 a); pose proof (sq_ge0 b); lra].
  apply Rplus_sqr_eq_0. exact Z.
Qed.

(** ** Mirrored and turned-around goals *)
Lemma keyed_ge x y phi : rs_length (reeds_shepp x y phi) = DBL_MAX \/
  exists t u v two off, In (Some (t, u, v), two, off) (keyedS x y phi ++ keyedA x y phi) /\
    rs_length (reeds_shepp x y phi) = Rabs t + two * Rabs u + Rabs v + off.
Proof.
  destruct (rs_select x y phi) as ([E|(c & t & u & v & I & F & E)] & _ & _).
  - left. rewrite E. apply rs_none_length.
  - right. rewrite E. unfold all_cands in I. rewrite !in_app_iff in I.
    pose proof (CSC_good x y phi) as G1. pose proof (CCC_good x y phi) as G2.
    pose proof (CCCC_good x y phi) as G3. pose proof (CCSC_good x y phi) as G4.
    pose proof (CCSCC_good x y phi) as G5. rewrite Forall_forall in G1, G2, G3, G4, G5.
    assert (S : forall two off cs, In c cs -> good_cand two off x y phi c ->
      (forall k, In k (map (key two off) cs) -> In k (keyedS x y phi ++ keyedA x y phi)) ->
      exists t0 u0 v0 two0 off0, In (Some (t0, u0, v0), two0, off0) (keyedS x y phi ++ keyedA x y phi) /\
      rs_length (snd c t u v) = Rabs t0 + two0 * Rabs u0 + Rabs v0 + off0).
    { intros two off cs J G K. exists t, u, v, two, off. split.
      - apply K. rewrite <- F. apply (in_map (key two off) cs c J).
      - exact (proj2 (G t u v F)). }
    destruct I as [I|[I|[I|[I|I]]]].
    + apply (S 1 0 _ I (G1 c I)). intros k K. unfold keyedS, keyedA. rewrite !in_app_iff. auto.
    + apply (S 1 0 _ I (G2 c I)). intros k K. unfold keyedS, keyedA. rewrite !in_app_iff. auto.
    + apply (S 2 0 _ I (G3 c I)). intros k K. unfold keyedS, keyedA. rewrite !in_app_iff. auto.
    + apply (S 1 (1 / 2 * PI) _ I (G4 c I)). intros k K. unfold keyedS, keyedA. rewrite !in_app_iff. auto.
    + apply (S 1 PI _ I (G5 c I)). intros k K. unfold keyedS, keyedA. rewrite !in_app_iff. auto 6.
Qed.

Lemma rs_max x y phi : rs_length (reeds_shepp x y phi) <= DBL_MAX.
Proof. rewrite <- rs_none_length. destruct (rs_select x y phi) as (_ & H & _). exact H. Qed.

Lemma rs_mono x y phi x' y' phi' :
  (forall s, In s (keyedS x y phi ++ keyedA x y phi) -> In s (keyedS x' y' phi' ++ keyedA x' y' phi')) ->
  rs_length (reeds_shepp x' y' phi') <= rs_length (reeds_shepp x y phi).
Proof.
  intros I. destruct (keyed_ge x y phi) as [->|(t & u & v & two & off & J & ->)]; [apply rs_max|].
  apply keyed_le. exists t, u, v, two, off. split; [apply I; assumption|lra].
Qed.

Lemma flip_length x y phi : rs_length (reeds_shepp (- x) y (- phi)) = rs_length (reeds_shepp x y phi).
Proof.
  apply Rle_antisym; apply rs_mono; intros s; rewrite !in_app_iff.
  - destruct (keyed_sym (- x) y (- phi)) as (A & _ & B & _). rewrite !Ropp_involutive in A, B. intros [H|H]; auto.
  - destruct (keyed_sym x y phi) as (A & _ & B & _). intros [H|H]; auto.
Qed.
Lemma refl_length x y phi : rs_length (reeds_shepp x (- y) (- phi)) = rs_length (reeds_shepp x y phi).
Proof.
  apply Rle_antisym; apply rs_mono; intros s; rewrite !in_app_iff.
  - destruct (keyed_sym x (- y) (- phi)) as (_ & A & _ & B). rewrite !Ropp_involutive in A, B. intros [H|H]; auto.
  - destruct (keyed_sym x y phi) as (_ & A & _ & B). intros [H|H]; auto.
Qed.

Lemma rs_mirror kappa s1 s2 : rs_distance kappa (mirror s1) (mirror s2) = rs_distance kappa s1 s2.
Proof.
  unfold rs_distance, rs_path, rs_args, mirror. cbn [st_x st_y st_theta]. cbv zeta. f_equal.
  rewrite cos_neg, sin_neg.
  replace (- st_theta s2 - - st_theta s1) with (- (st_theta s2 - st_theta s1)) by ring.
  rewrite <- refl_length. f_equal. f_equal; ring.
Qed.

Lemma rs_about kappa s1 s2 : rs_distance kappa (about s1) (about s2) = rs_distance kappa s1 s2.
Proof.
  unfold rs_distance, rs_path, rs_args, about. cbn [st_x st_y st_theta]. cbv zeta. f_equal.
  rewrite neg_cos, neg_sin.
  replace (st_theta s2 + PI - (st_theta s1 + PI)) with (st_theta s2 - st_theta s1) by ring.
  rewrite <- (refl_length (_ * _)), <- flip_length. rewrite Ropp_involutive. f_equal. f_equal; ring.
Qed.

(** ** Start and goal exchanged *)
Lemma W_back ty ls x y phi : length ty = length ls -> W ty ls x y phi ->
  W (rev ty) (rev ls) (xb x y phi) (yb x y phi) phi.
Proof.
  intros L H. destruct (xb_inv x y phi) as [I1 I2]. apply uword_back; [assumption|].
  fold (xb (xb x y phi) (yb x y phi) phi) (yb (xb x y phi) (yb x y phi) phi). rewrite I1, I2. assumption.
Qed.

Lemma backLSL x y phi t u v : LpSpLp x y phi = Some (t, u, v) -> t < PI -> v < PI ->
  upper (keyedS (xb x y phi) (yb x y phi) phi) (Rabs t + 1 * Rabs u + Rabs v + 0).
Proof.
  intros E T V. pose proof (reachLpSpLp _ _ _ _ _ _ E) as G.
  assert (B : 0 <= u /\ - RS_ZERO <= t /\ - RS_ZERO <= v /\ (u = 0 -> t = 0 /\ v = pify phi)).
  { unfold LpSpLp, polar in E. destruct (Rle_dec _ _) as [A1|]; [|discriminate].
    destruct (Rle_dec _ _) as [A2|] in E; [|discriminate]. injection E as <- <- <-.
    split; [apply sqrt_pos|]. split; [assumption|]. split; [assumption|]. intros Z.
    apply sqrt_00 in Z. destruct Z as [Z1 Z2].
    rewrite Z1, Z2, atan2_00. split; [reflexivity|]. f_equal. ring. }
  destruct B as (U & T0 & V0 & D).
  assert (K : LpSpLp (xb x y phi) (yb x y phi) phi = Some (v, u, t) \/
              LpSpLp (xb x y phi) (yb x y phi) phi = Some (t, u, v)).
  { apply W_back in G; [|reflexivity]. cbn [rev app] in G. destruct (Req_dec u 0) as [Z|N].
    - right. destruct (D Z) as [-> ->]. subst u.
      revert G. wrd. rewrite sin_0, cos_0. intros (X & Y & A).
      rewrite (ang_eq_sin _ _ A) in X. rewrite (ang_eq_cos _ _ A) in Y.
      unfold LpSpLp. replace (xb x y phi - sin phi) with 0 by lra. replace (yb x y phi - 1 + cos phi) with 0 by lra.
      rewrite polar_00, bool_geZ by assumption. rewrite Rminus_0_r, bool_geZ by assumption. reflexivity.
    - left. apply findLSL'; try assumption; lra. }
  destruct K as [K|K].
  - exists v, u, t, 1, 0. split; [|lra]. unfold keyedS, CSC_cands, key; cbn [map app fst]. rewrite K. simpl; tauto.
  - exists t, u, v, 1, 0. split; [|lra]. unfold keyedS, CSC_cands, key; cbn [map app fst]. rewrite K. simpl; tauto.
Qed.

Lemma backLSR x y phi t u v : LpSpRp x y phi = Some (t, u, v) -> t < PI -> v < PI ->
  upper (keyedS (xb x y phi) (yb x y phi) phi) (Rabs t + 1 * Rabs u + Rabs v + 0).
Proof.
  intros E T V. pose proof (reachLpSpRp _ _ _ _ _ _ E) as G.
  assert (B : 0 <= u /\ - RS_ZERO <= t /\ - RS_ZERO <= v).
  { unfold LpSpRp, valLpSpRp, polar in E. destruct (Rle_dec 4 _); [|discriminate].
    destruct (Rle_dec _ _) as [A1|] in E; [|discriminate].
    destruct (Rle_dec _ _) as [A2|] in E; [|discriminate]. injection E as <- <- <-.
    split; [apply sqrt_pos|]. split; assumption. }
  destruct B as (U & T0 & V0).
  apply W_back in G; [|reflexivity]. cbn [rev app] in G.
  change [DUBINS_RIGHT; DUBINS_STRAIGHT; DUBINS_LEFT] with (map swap [DUBINS_LEFT; DUBINS_STRAIGHT; DUBINS_RIGHT]) in G.
  apply unrefl in G. apply findLSR' in G; try assumption; try lra.
  exists v, u, t, 1, 0. split; [|lra]. unfold keyedS, CSC_cands, key; cbn [map app fst]. rewrite G. simpl; tauto.
Qed.

Lemma acos_third : acos (1 / 2) = PI / 3.
Proof. rewrite <- cos_PI3. apply acos_cos. pose proof PI_RGT_0. lra. Qed.

Lemma backLRLR1 x y phi t u v : LpRupLumRm x y phi = Some (t, u, v) -> t < PI -> - PI < v ->
  upper (keyedS (xb x y phi) (yb x y phi) phi) (Rabs t + 2 * Rabs u + Rabs v + 0).
Proof.
  intros E T V. pose proof (reachLpRupLumRm _ _ _ _ _ _ E) as G. pose proof PI_RGT_0 as P0.
  assert (B : 0 <= u /\ - RS_ZERO <= t /\ v <= RS_ZERO /\
    (u < PI / 3 \/ u = PI / 3 /\ t = 0 /\ v = pify (- (2 * u) - phi))).
  { unfold LpRupLumRm, valLpRupLumRm in E.
    set (xi := x + sin phi) in *. set (eta := y - 1 - cos phi) in *.
    set (rho := sqrt (xi * xi + eta * eta)) in *. pose proof (sqrt_pos (xi * xi + eta * eta)) as R0. fold rho in R0.
    destruct (Rle_dec _ 1) as [R1|]; [|discriminate].
    destruct (tauOmega _ _ _ _ _) as [t' v'] eqn:TO in E.
    destruct (Rle_dec _ _) as [A1|] in E; [|discriminate].
    destruct (Rle_dec _ _) as [A2|] in E; [|discriminate]. injection E as <- <- <-.
    split; [apply acos_bound|]. split; [assumption|]. split; [assumption|].
    destruct (Req_dec rho 0) as [Z|N].
    - right. rewrite Z in *. replace (1 / 4 * (2 + 0)) with (1 / 2) in * by field.
      split; [apply acos_third|].
      assert (Z' := Z). unfold rho in Z'. apply sqrt_00 in Z'. destruct Z' as [Z1 Z2]. rewrite Z1, Z2 in TO. unfold tauOmega in TO.
      rewrite !Rmult_0_l, Rminus_0_r, Rplus_0_r, atan2_00 in TO.
      rewrite acos_third in *.
      rewrite (pify_is (2 * (PI / 3)) (PI / 3 - - (PI / 3))) in TO by (try lra; apply ang_eq_of_eq; ring).
      rewrite cos_2a', cos_neg, cos_PI3 in TO.
      destruct (Rlt_dec _ 0) as [C|_] in TO; [exfalso; lra|].
      rewrite (pify_is 0 0) in TO by (try lra; apply ang_eq_of_eq; ring).
      injection TO as <- <-. split; [reflexivity|]. f_equal. ring.
    - left. rewrite <- acos_third. 
      assert (Q : 1 / 2 < 1 / 4 * (2 + rho)) by lra.
      destruct (Rlt_dec (acos (1 / 4 * (2 + rho))) (acos (1 / 2))) as [|N2]; [assumption|exfalso].
      apply Rnot_lt_le in N2. apply cos_decr_1 in N2; try apply acos_bound.
      rewrite !cos_acos in N2 by lra. lra. }
  destruct B as (U & T0 & V0 & D).
  apply W_back in G; [|reflexivity]. cbn [rev app] in G.
  change [DUBINS_RIGHT; DUBINS_LEFT; DUBINS_RIGHT; DUBINS_LEFT]
    with (map swap [DUBINS_LEFT; DUBINS_RIGHT; DUBINS_LEFT; DUBINS_RIGHT]) in G.
  apply unrefl in G.
  replace [v; - u; u; t] with (map Ropp [- v; u; - u; - t]) in G
    by (cbn [map]; rewrite !Ropp_involutive; reflexivity).
  apply unflip in G. rewrite Ropp_involutive in G.
  assert (K : LpRupLumRm (- xb x y phi) (- yb x y phi) phi = Some (- v, u, - t) \/
              LpRupLumRm (- xb x y phi) (- yb x y phi) phi = Some (t, u, v)).
  { destruct D as [D|(D1 & D2 & D3)].
    - left. apply findLRLR1'; try assumption; lra.
    - right. subst t u. revert G. wrd. rewrite sin_0, cos_0. intros (X & Y & A).
      rewrite (ang_eq_sin _ _ A) in X. rewrite (ang_eq_cos _ _ A) in Y.
      assert (X' : - xb x y phi + sin phi = 0).
      { rewrite <- X. replace (- v - PI / 3 + - (PI / 3)) with (- v - PI / 3 - PI / 3) by ring.
        replace (- v) with (- v - PI / 3 + PI / 3) at 1 2 by ring.
        rewrite (sin_minus (- v - PI / 3) (PI / 3)), (sin_plus (- v - PI / 3) (PI / 3)), cos_PI3. lra. }
      assert (Y' : - yb x y phi - 1 - cos phi = 0).
      { rewrite <- Y. replace (- v - PI / 3 + - (PI / 3)) with (- v - PI / 3 - PI / 3) by ring.
        replace (- v) with (- v - PI / 3 + PI / 3) at 1 3 by ring.
        rewrite (cos_minus (- v - PI / 3) (PI / 3)), (cos_plus (- v - PI / 3) (PI / 3)), cos_PI3. lra. }
      unfold LpRupLumRm, valLpRupLumRm. rewrite X', Y'.
      replace (0 * 0 + 0 * 0) with 0 by ring. rewrite sqrt_0. replace (1 / 4 * (2 + 0)) with (1 / 2) by field.
      destruct (Rle_dec (1 / 2) 1) as [_|N]; [|lra]. rewrite acos_third. unfold tauOmega.
      rewrite !Rmult_0_l, Rminus_0_r, Rplus_0_r, atan2_00.
      rewrite (pify_is (2 * (PI / 3)) (PI / 3 - - (PI / 3))) by (try lra; apply ang_eq_of_eq; ring).
      rewrite cos_2a', cos_neg, cos_PI3.
      destruct (Rlt_dec _ 0) as [C|_]; [exfalso; lra|].
      rewrite (pify_is 0 0) by (try lra; apply ang_eq_of_eq; ring).
      replace (0 - PI / 3 + - (PI / 3) - phi) with (- (2 * (PI / 3)) - phi) by ring. rewrite <- D3.
      rewrite bool_geZ, bool_leZ by assumption. reflexivity. }
  destruct K as [K|K].
  - exists (- v), u, (- t), 2, 0. split; [|rewrite !Rabs_Ropp; lra].
    unfold keyedS, CCCC_cands, key. rewrite !in_app_iff. right; left. cbn [map fst]. rewrite K. simpl; tauto.
  - exists t, u, v, 2, 0. split; [|lra].
    unfold keyedS, CCCC_cands, key. rewrite !in_app_iff. right; left. cbn [map fst]. rewrite K. simpl; tauto.
Qed.

Lemma backLRLR2 x y phi t u v : LpRumLumRp x y phi = Some (t, u, v) -> t < PI -> v < PI ->
  upper (keyedS (xb x y phi) (yb x y phi) phi) (Rabs t + 2 * Rabs u + Rabs v + 0).
Proof.
  intros E T V. pose proof (reachLpRumLumRp _ _ _ _ _ _ E) as G.
  assert (B : 0 <= - u <= PI / 2 /\ - RS_ZERO <= t /\ - RS_ZERO <= v).
  { unfold LpRumLumRp, valLpRumLumRp in E. destruct (Rle_dec 0 _) as [Q1|] in E; [|discriminate].
    destruct (Rle_dec _ 1) as [Q2|] in E; [|discriminate]. destruct (Rle_dec _ _) as [Q3|] in E; [|discriminate].
    destruct (tauOmega _ _ _ _ _) as [t' v'] in E.
    destruct (Rle_dec _ _) as [A1|] in E; [|discriminate].
    destruct (Rle_dec _ _) as [A2|] in E; [|discriminate]. injection E as <- <- <-.
    split; [|split; assumption].
    match goal with |- context [acos ?r] => pose proof (acos_bound r) end. lra. }
  destruct B as (U & T0 & V0).
  apply W_back in G; [|reflexivity]. cbn [rev app] in G.
  change [DUBINS_RIGHT; DUBINS_LEFT; DUBINS_RIGHT; DUBINS_LEFT]
    with (map swap [DUBINS_LEFT; DUBINS_RIGHT; DUBINS_LEFT; DUBINS_RIGHT]) in G.
  apply unrefl in G. rewrite <- (Ropp_involutive u) in G.
  apply findLRLR2' in G; try assumption; try lra. rewrite Ropp_involutive in G.
  exists v, u, t, 2, 0. split; [|lra].
  unfold keyedS, CCCC_cands, key. rewrite !in_app_iff. right; left. cbn [map fst]. rewrite G. simpl; tauto.
Qed.

Lemma backLRSLR x y phi t u v : LpRmSLmRp x y phi = Some (t, u, v) -> t < PI -> v < PI ->
  upper (keyedS (xb x y phi) (yb x y phi) phi) (Rabs t + 1 * Rabs u + Rabs v + PI).
Proof.
  intros E T V. pose proof (reachLpRmSLmRp _ _ _ _ _ _ E) as G.
  assert (B : - RS_ZERO <= - u /\ - RS_ZERO <= t /\ - RS_ZERO <= v).
  { unfold LpRmSLmRp, valLpRmSLmRp, polar in E. destruct (Rle_dec 2 _) as [Q1|] in E; [|discriminate].
    destruct (Rle_dec _ RS_ZERO) as [Q2|] in E; [|discriminate].
    destruct (Rle_dec _ _) as [A1|] in E; [|discriminate].
    destruct (Rle_dec _ _) as [A2|] in E; [|discriminate]. injection E as <- <- <-.
    split; [lra|split; assumption]. }
  destruct B as (U & T0 & V0).
  apply W_back in G; [|reflexivity]. cbn [rev app] in G.
  change [DUBINS_RIGHT; DUBINS_LEFT; DUBINS_STRAIGHT; DUBINS_RIGHT; DUBINS_LEFT]
    with (map swap [DUBINS_LEFT; DUBINS_RIGHT; DUBINS_STRAIGHT; DUBINS_LEFT; DUBINS_RIGHT]) in G.
  apply unrefl in G. rewrite <- (Ropp_involutive u) in G.
  replace (- (1 / 2) * PI) with (- (PI / 2)) in G by field.
  apply findLRSLR' in G; try assumption; try lra. rewrite Ropp_involutive in G.
  exists v, u, t, 1, PI. split; [|lra].
  unfold keyedS, CCSCC_cands, key. rewrite !in_app_iff. right; right. cbn [map fst]. rewrite G. simpl; tauto.
Qed.

Definition half (a : R) : Prop := Rabs a < PI.

Lemma images_back x y phi L :
  (upper (keyedS (xb (- x) y (- phi)) (yb (- x) y (- phi)) (- phi)) L \/
   upper (keyedS (xb x (- y) (- phi)) (yb x (- y) (- phi)) (- phi)) L \/
   upper (keyedS (xb (- x) (- y) phi) (yb (- x) (- y) phi) phi) L) ->
  upper (keyedS (xb x y phi) (yb x y phi) phi) L.
Proof.
  destruct (keyed_sym (xb x y phi) (yb x y phi) phi) as (F & R & _ & _).
  destruct (keyed_sym (xb x y phi) (- yb x y phi) (- phi)) as (F' & _ & _ & _). rewrite Ropp_involutive in F'.
  intros [H|[H|H]].
  - apply (upper_incl _ _ _ F). unfold xb, yb in *. rewrite cos_neg, sin_neg in H.
    eapply upper_incl; [|exact H]. intros s. match goal with |- In s ?a -> In s ?b => replace a with b by (f_equal; ring) end. auto.
  - apply (upper_incl _ _ _ R). unfold xb, yb in *. rewrite cos_neg, sin_neg in H.
    eapply upper_incl; [|exact H]. intros s. match goal with |- In s ?a -> In s ?b => replace a with b by (f_equal; ring) end. auto.
  - apply (upper_incl _ _ _ R), (upper_incl _ _ _ F'). unfold xb, yb in *.
    eapply upper_incl; [|exact H]. intros s. match goal with |- In s ?a -> In s ?b => replace a with b by (f_equal; ring) end. auto.
Qed.

Lemma half_lr a : half a -> - PI < a < PI.
Proof. unfold half. intros H. apply Rabs_def2 in H. lra. Qed.

Ltac backs := first [apply backLSL; assumption|apply backLSR; assumption|apply backLRLR1; assumption|
  apply backLRLR2; assumption|apply backLRSLR; assumption].

Lemma keyedS_back x y phi t u v two off : In (Some (t, u, v), two, off) (keyedS x y phi) ->
  half t -> half v -> upper (keyedS (xb x y phi) (yb x y phi) phi) (Rabs t + two * Rabs u + Rabs v + off).
Proof.
  intros I HT HV. apply half_lr in HT, HV. destruct HT as [T0 T1]. destruct HV as [V0 V1].
  unfold keyedS in I. rewrite !in_app_iff in I. unfold key, CSC_cands, CCCC_cands, CCSCC_cands in I.
  cbn [map fst] in I. unfold In in I. decompose [or] I; clear I; try contradiction;
  match goal with H : _ = _ |- _ => injection H as E <- <- end;
  first [backs|apply images_back; left; backs|apply images_back; right; left; backs|apply images_back; right; right; backs].
Qed.

(** The outer segments of a plan of these families are its first and last control. *)
Definition outer_half (P : RSPath) : Prop :=
  Forall (fun p => fst p <> DUBINS_STRAIGHT -> Rabs (snd p) < PI) (combine (dsegs (rs_type P)) (rs_len P)).

Lemma swap_le x y phi : outer_half (reeds_shepp x y phi) ->
  rs_length (reeds_shepp (xb x y phi) (yb x y phi) phi) <= rs_length (reeds_shepp x y phi).
Proof.
  destruct (rs_select x y phi) as ([E|(c & t & u & v & I & F & E)] & _ & _); rewrite E.
  { intros _. rewrite rs_none_length. apply rs_max. }
  intros O.
  assert (S : forall two off, good_cand two off x y phi c ->
      upper (keyedS (xb x y phi) (yb x y phi) phi ++ keyedA (xb x y phi) (yb x y phi) phi)
        (Rabs t + two * Rabs u + Rabs v + off) ->
      rs_length (reeds_shepp (xb x y phi) (yb x y phi) phi) <= rs_length (snd c t u v)).
  { intros two off G U. destruct (G t u v F) as [_ ->]. apply keyed_le. assumption. }
  assert (US : forall L, upper (keyedS (xb x y phi) (yb x y phi) phi) L ->
     upper (keyedS (xb x y phi) (yb x y phi) phi ++ keyedA (xb x y phi) (yb x y phi) phi) L)
    by (intros L; apply upper_incl; intros; apply in_app_iff; auto).
  assert (UA : forall two off, In (Some (t, u, v), two, off) (keyedA x y phi) ->
     upper (keyedS (xb x y phi) (yb x y phi) phi ++ keyedA (xb x y phi) (yb x y phi) phi)
       (Rabs t + two * Rabs u + Rabs v + off)).
  { intros two off J. exists t, u, v, two, off. split; [|lra]. apply in_app_iff. right.
    destruct (xb_inv x y phi) as [I1 I2]. apply keyed_back. rewrite I1, I2. assumption. }
  pose proof (CSC_good x y phi) as G1. pose proof (CCC_good x y phi) as G2.
  pose proof (CCCC_good x y phi) as G3. pose proof (CCSC_good x y phi) as G4.
  pose proof (CCSCC_good x y phi) as G5. rewrite Forall_forall in G1, G2, G3, G4, G5.
  assert (KK : forall two off cs, In c cs -> In (Some (t, u, v), two, off) (map (key two off) cs)).
  { intros two off cs J. rewrite <- F. apply (in_map (key two off) cs c J). }
  unfold all_cands in I. rewrite !in_app_iff in I.
  assert (HH : (In c (CSC_cands x y phi) \/ In c (CCCC_cands x y phi) \/ In c (CCSCC_cands x y phi)) -> half t /\ half v).
  { clear - O. unfold half. intros I. unfold CSC_cands, CCCC_cands, CCSCC_cands in I. unfold In in I.
    decompose [or] I; clear I; try contradiction; subst c; unfold outer_half in O;
    cbn [snd rs_type rs_len rs_path_type dsegs combine] in O;
    repeat match goal with H : Forall _ (_ :: _) |- _ => apply Forall_inv in H as ?; apply Forall_inv_tail in H end;
    cbn [fst snd] in *; rewrite ?Rabs_Ropp in *;
    split; match goal with H : _ -> Rabs ?a < PI |- Rabs ?a < PI => apply H; discriminate end. }
  destruct I as [I|[I|[I|[I|I]]]].
  - apply (S 1 0 (G1 c I)). apply US. destruct HH as [HT HV]; [auto|]. apply keyedS_back; try assumption.
    unfold keyedS. rewrite !in_app_iff. left. apply KK; assumption.
  - apply (S 1 0 (G2 c I)). apply UA. unfold keyedA. rewrite !in_app_iff. left. apply KK; assumption.
  - apply (S 2 0 (G3 c I)). apply US. destruct HH as [HT HV]; [auto|]. apply keyedS_back; try assumption.
    unfold keyedS. rewrite !in_app_iff. right; left. apply KK; assumption.
  - apply (S 1 (1 / 2 * PI) (G4 c I)). apply UA. unfold keyedA. rewrite !in_app_iff. right. apply KK; assumption.
  - apply (S 1 PI (G5 c I)). apply US. destruct HH as [HT HV]; [auto|]. apply keyedS_back; try assumption.
    unfold keyedS. rewrite !in_app_iff. right; right. apply KK; assumption.
Qed.

Lemma rs_swap kappa s1 s2 : 0 < kappa ->
  (forall c, In c (rs_get_controls kappa s1 s2) -> Rabs (ct_kappa c * ct_delta_s c) < PI) ->
  rs_distance kappa s2 s1 <= rs_distance kappa s1 s2.
Proof.
  intros K H.
  assert (O : outer_half (rs_path kappa s1 s2)).
  { unfold rs_get_controls in H. rewrite rs_controls_word in H. unfold outer_half. apply Forall_forall.
    intros [s l] I N. cbn [fst snd] in *. pose proof (in_map (fun x => dubins_control kappa (fst x) (snd x)) _ _ I) as J.
    specialize (H _ J). destruct s; cbn in H; try congruence.
    all: revert H; match goal with |- Rabs ?a < _ -> _ => (replace a with l by (field; lra)) || (replace a with (- l) by (field; lra); rewrite Rabs_Ropp) end; auto. }
  unfold rs_distance, rs_path in *. apply Rmult_le_compat_l; [apply div_nonneg; lra|].
  set (p := rs_args kappa s1 s2) in O |- *. set (q := rs_args kappa s2 s1).
  destruct p as [[x y] phi] eqn:EP. destruct q as [[x' y'] phi'] eqn:EQ.
  apply swap_le in O. eapply Rle_trans; [|exact O]. rewrite <- flip_length. apply Req_le. f_equal.
  unfold p, q, rs_args in EP, EQ. injection EP as <- <- <-. injection EQ as <- <- <-. unfold xb, yb.
  set (t1 := st_theta s1). set (t2 := st_theta s2).
  replace (cos t2) with (cos (t1 + (t2 - t1))) by (f_equal; ring).
  replace (sin t2) with (sin (t1 + (t2 - t1))) by (f_equal; ring).
  rewrite cos_plus, sin_plus. f_equal; try ring.
Qed.

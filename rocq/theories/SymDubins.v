(** * Symmetries of the Dubins distance *)
From Coq Require Import Reals ZArith List Bool Lra Lia.
From Verif Require Import Base ModelUtil ModelIntegrate ModelDubins Num UtilProofs SpecPath SpecSym DubinsProofs DubinsPlan DubinsOpt DubinsCases.
Import ListNotations.
Open Scope R_scope.

Lemma better_length P Q : dp_length (dp_better P Q) = Rmin (dp_length P) (dp_length Q).
Proof. unfold dp_better. destruct (Rlt_dec _ _); unfold Rmin; destruct (Rle_dec _ _); lra. Qed.
Definition six d a b : R :=
  Rmin (Rmin (Rmin (dp_length (dubinsLSL d a b)) (dp_length (dubinsRSR d a b))) (Rmin (dp_length (dubinsRSL d a b)) (dp_length (dubinsLSR d a b))))
    (Rmin (dp_length (dubinsRLR d a b)) (dp_length (dubinsLRL d a b))).
Ltac rmin := repeat match goal with |- context [Rmin ?a ?b] => let H := fresh in pose proof (Rmin_l a b); pose proof (Rmin_r a b); destruct (Rmin_case_strong a b (fun x => Rmin a b = x)) end.
Lemma six_fold d a b : dp_length (fold_left dp_better
        [dubinsRSR d a b; dubinsRSL d a b; dubinsLSR d a b; dubinsRLR d a b; dubinsLRL d a b] (dubinsLSL d a b)) = six d a b.
Proof. cbn [fold_left]. rewrite !better_length. unfold six. rewrite !Rmin_assoc. reflexivity. Qed.
Lemma dubins_six d a b : DUBINS_EPS <= d \/ DUBINS_EPS <= Rabs (a - b) -> dp_length (dubins d a b) = six d a b.
Proof.
  intros H. unfold dubins. destruct (Rlt_dec d DUBINS_EPS); [destruct (Rlt_dec _ DUBINS_EPS); [lra|]|]; apply six_fold.
Qed.

Lemma atan2_opp y x : ang_eq (atan2 (- y) x) (- atan2 y x).
Proof.
  destruct (Req_EM_T x 0) as [X|X]; [destruct (Req_EM_T y 0) as [Y|Y]|].
  - subst. rewrite Ropp_0, atan2_00. exists 0%Z. ring.
  - apply (angle_of (sqrt (x * x + y * y))); [apply sqrt_lt_R0; nra| |]; rewrite ?cos_neg, ?sin_neg.
    + rewrite atan2_cos. reflexivity.
    + replace (sqrt (x * x + y * y) * - sin (atan2 y x)) with (- (sqrt (x * x + y * y) * sin (atan2 y x))) by ring. rewrite atan2_sin. reflexivity.
  - apply (angle_of (sqrt (x * x + y * y))); [apply sqrt_lt_R0; nra| |]; rewrite ?cos_neg, ?sin_neg.
    + rewrite atan2_cos. reflexivity.
    + replace (sqrt (x * x + y * y) * - sin (atan2 y x)) with (- (sqrt (x * x + y * y) * sin (atan2 y x))) by ring. rewrite atan2_sin. reflexivity.
Qed.

Section Mirror.
  Variables d a b a' b' : R.
  Hypothesis HA : ang_eq a' (- a).
  Hypothesis HB : ang_eq b' (- b).
  Lemma mca : cos a' = cos a. Proof. rewrite (ang_eq_cos _ _ HA). apply cos_neg. Qed.
  Lemma msa : sin a' = - sin a. Proof. rewrite (ang_eq_sin _ _ HA). apply sin_neg. Qed.
  Lemma mcb : cos b' = cos b. Proof. rewrite (ang_eq_cos _ _ HB). apply cos_neg. Qed.
  Lemma msb : sin b' = - sin b. Proof. rewrite (ang_eq_sin _ _ HB). apply sin_neg. Qed.
  Ltac tw := apply twopify_congr; match goal with |- ang_eq ?x ?y => idtac end.
  Ltac cs := rewrite ?mca, ?msa, ?mcb, ?msb.

  Lemma tw2 x y x' y' : ang_eq x' (- x) -> ang_eq y' (- y) -> twopify (x' - y') = twopify (- x + y).
  Proof. intros [n N] [m M]. apply twopify_congr. exists (n - m)%Z. rewrite N, M, minus_IZR. ring. Qed.
  Lemma tw3 x y x' y' : ang_eq x' (- x) -> ang_eq y' (- y) -> twopify (- x' + y') = twopify (x - y).
  Proof. intros [n N] [m M]. apply twopify_congr. exists (m - n)%Z. rewrite N, M, minus_IZR. ring. Qed.
  Lemma tw4 x y p x' y' : ang_eq x' (- x) -> ang_eq y' (- y) -> twopify (x' - y' + p) = twopify (- x + y + p).
  Proof. intros [n N] [m M]. apply twopify_congr. exists (n - m)%Z. rewrite N, M, minus_IZR. ring. Qed.
  Lemma tw5 x y p x' y' : ang_eq x' (- x) -> ang_eq y' (- y) -> twopify (- x' + y' + p) = twopify (x - y + p).
  Proof. intros [n N] [m M]. apply twopify_congr. exists (m - n)%Z. rewrite N, M, minus_IZR. ring. Qed.
  Lemma sub2 x y x' : ang_eq x' (- x) -> ang_eq (x' - y) (- (x - - y)).
  Proof. intros [n N]. exists n. rewrite N. ring. Qed.

  Lemma mLSL : dp_length (dubinsLSL d a' b') = dp_length (dubinsRSR d a b).
  Proof.
    assert (T : tmpLSL d a' b' = tmpRSR d a b) by (unfold tmpLSL, tmpRSR; cs; ring).
    unfold dubinsLSL, dubinsRSR. rewrite T. destruct (Rle_dec _ _); [|reflexivity].
    unfold solveLSL, solveRSR, dp_length; cbv zeta; cbn [dp_t dp_p dp_q]. rewrite T. cs.
    replace (d + - sin a - - sin b) with (d - sin a + sin b) by ring. replace (cos b - cos a) with (- (cos a - cos b)) by ring.
    pose proof (atan2_opp (cos a - cos b) (d - sin a + sin b)) as E.
    rewrite (tw3 a _ a' _ HA E), (tw2 b _ b' _ HB E). reflexivity.
  Qed.
  Lemma mRSR : dp_length (dubinsRSR d a' b') = dp_length (dubinsLSL d a b).
  Proof.
    assert (T : tmpRSR d a' b' = tmpLSL d a b) by (unfold tmpLSL, tmpRSR; cs; ring).
    unfold dubinsLSL, dubinsRSR. rewrite T. destruct (Rle_dec _ _); [|reflexivity].
    unfold solveLSL, solveRSR, dp_length; cbv zeta; cbn [dp_t dp_p dp_q]. rewrite T. cs.
    replace (d - - sin a + - sin b) with (d + sin a - sin b) by ring. replace (cos a - cos b) with (- (cos b - cos a)) by ring.
    pose proof (atan2_opp (cos b - cos a) (d + sin a - sin b)) as E.
    rewrite (tw2 a _ a' _ HA E), (tw3 b _ b' _ HB E). reflexivity.
  Qed.
  Lemma mRSL : dp_length (dubinsRSL d a' b') = dp_length (dubinsLSR d a b).
  Proof.
    assert (T : tmpRSL d a' b' = tmpLSR d a b) by (unfold tmpRSL, tmpLSR; cs; ring).
    unfold dubinsRSL, dubinsLSR. rewrite T. destruct (Rle_dec _ _); [|reflexivity].
    unfold solveRSL, solveLSR, dp_length; cbv zeta; cbn [dp_t dp_p dp_q]. rewrite T. cs. set (p := sqrt _).
    replace (d - - sin a - - sin b) with (d + sin a + sin b) by ring. replace (cos a + cos b) with (- (- cos a - cos b)) by ring.
    assert (E : ang_eq (atan2 (- (- cos a - cos b)) (d + sin a + sin b) - atan2 2 p) (- (atan2 (- cos a - cos b) (d + sin a + sin b) - atan2 (-2) p))).
    { pose proof (atan2_opp (- cos a - cos b) (d + sin a + sin b)) as [n N]. pose proof (atan2_opp 2 p) as [m M]. change (- (2)) with (-2) in M. exists (n - m)%Z.
      rewrite N, M, minus_IZR. ring. }
    rewrite (tw2 a _ a' _ HA E), (tw2 b _ b' _ HB E). reflexivity.
  Qed.
  Lemma mLSR : dp_length (dubinsLSR d a' b') = dp_length (dubinsRSL d a b).
  Proof.
    assert (T : tmpLSR d a' b' = tmpRSL d a b) by (unfold tmpRSL, tmpLSR; cs; ring).
    unfold dubinsRSL, dubinsLSR. rewrite T. destruct (Rle_dec _ _); [|reflexivity].
    unfold solveRSL, solveLSR, dp_length; cbv zeta; cbn [dp_t dp_p dp_q]. rewrite T. cs. set (p := sqrt _).
    replace (d + - sin a + - sin b) with (d - sin a - sin b) by ring. replace (- cos a - cos b) with (- (cos a + cos b)) by ring.
    assert (E : ang_eq (atan2 (- (cos a + cos b)) (d - sin a - sin b) - atan2 (-2) p) (- (atan2 (cos a + cos b) (d - sin a - sin b) - atan2 2 p))).
    { pose proof (atan2_opp (cos a + cos b) (d - sin a - sin b)) as [n N]. pose proof (atan2_opp 2 p) as [m M]. change (- (2)) with (-2) in M. exists (n - m)%Z.
      rewrite N, M, minus_IZR. ring. }
    rewrite (tw3 a _ a' _ HA E), (tw3 b _ b' _ HB E). reflexivity.
  Qed.
  Lemma mRLR : dp_length (dubinsRLR d a' b') = dp_length (dubinsLRL d a b).
  Proof.
    assert (T : tmpRLR d a' b' = tmpLRL d a b) by (unfold tmpRLR, tmpLRL; cs; ring).
    unfold dubinsRLR, dubinsLRL. rewrite T. destruct (Rlt_dec _ _); [|reflexivity].
    unfold solveRLR, solveLRL, dp_length; cbv zeta; cbn [dp_t dp_p dp_q]. rewrite T. cs. set (p := TWO_PI - _).
    replace (d - - sin a + - sin b) with (d + sin a - sin b) by ring. replace (cos a - cos b) with (- (- cos a + cos b)) by ring.
    pose proof (atan2_opp (- cos a + cos b) (d + sin a - sin b)) as E.
    rewrite (tw4 a _ _ a' _ HA E). set (t := twopify _).
    replace (twopify (a' - b' - t + p)) with (twopify (b - a - t + p)); [reflexivity|].
    apply twopify_congr. destruct HA as [n N], HB as [m M]. exists (m - n)%Z. rewrite N, M, minus_IZR. ring.
  Qed.
  Lemma mLRL : dp_length (dubinsLRL d a' b') = dp_length (dubinsRLR d a b).
  Proof.
    assert (T : tmpLRL d a' b' = tmpRLR d a b) by (unfold tmpRLR, tmpLRL; cs; ring).
    unfold dubinsRLR, dubinsLRL. rewrite T. destruct (Rlt_dec _ _); [|reflexivity].
    unfold solveRLR, solveLRL, dp_length; cbv zeta; cbn [dp_t dp_p dp_q]. rewrite T. cs. set (p := TWO_PI - _).
    replace (d + - sin a - - sin b) with (d - sin a + sin b) by ring. replace (- cos a + cos b) with (- (cos a - cos b)) by ring.
    pose proof (atan2_opp (cos a - cos b) (d - sin a + sin b)) as E.
    rewrite (tw5 a _ _ a' _ HA E). set (t := twopify _).
    replace (twopify (b' - a' - t + p)) with (twopify (a - b - t + p)); [reflexivity|].
    apply twopify_congr. destruct HA as [n N], HB as [m M]. exists (n - m)%Z. rewrite N, M, minus_IZR. ring.
  Qed.
  Lemma six_mirror : six d a' b' = six d a b.
  Proof. unfold six. rewrite mLSL, mRSR, mRSL, mLSR, mRLR, mLRL. f_equal; [f_equal|]; [apply Rmin_comm|apply Rmin_comm|apply Rmin_comm]. Qed.
End Mirror.

Section Swap.
  Variables d a b : R.
  Lemma sLSL : dp_length (dubinsLSL d b a) = dp_length (dubinsRSR d a b).
  Proof.
    assert (T : tmpLSL d b a = tmpRSR d a b) by (unfold tmpLSL, tmpRSR; ring).
    unfold dubinsLSL, dubinsRSR. rewrite T. destruct (Rle_dec _ _); [|reflexivity].
    unfold solveLSL, solveRSR, dp_length; cbv zeta; cbn [dp_t dp_p dp_q]. rewrite T.
    replace (d + sin b - sin a) with (d - sin a + sin b) by ring. ring.
  Qed.
  Lemma sLSR : dp_length (dubinsLSR d b a) = dp_length (dubinsLSR d a b).
  Proof.
    assert (T : tmpLSR d b a = tmpLSR d a b) by (unfold tmpLSR; ring).
    unfold dubinsLSR. rewrite T. destruct (Rle_dec _ _); [|reflexivity].
    unfold solveLSR, dp_length; cbv zeta; cbn [dp_t dp_p dp_q]. rewrite T.
    replace (d + sin b + sin a) with (d + sin a + sin b) by ring. replace (- cos b - cos a) with (- cos a - cos b) by ring. ring.
  Qed.
  Lemma sRSL : dp_length (dubinsRSL d b a) = dp_length (dubinsRSL d a b).
  Proof.
    assert (T : tmpRSL d b a = tmpRSL d a b) by (unfold tmpRSL; ring).
    unfold dubinsRSL. rewrite T. destruct (Rle_dec _ _); [|reflexivity].
    unfold solveRSL, dp_length; cbv zeta; cbn [dp_t dp_p dp_q]. rewrite T.
    replace (d - sin b - sin a) with (d - sin a - sin b) by ring. replace (cos b + cos a) with (cos a + cos b) by ring. ring.
  Qed.
  Lemma sRLR : dp_length (dubinsRLR d b a) = dp_length (dubinsLRL d a b).
  Proof.
    assert (T : tmpRLR d b a = tmpLRL d a b) by (unfold tmpRLR, tmpLRL; ring).
    unfold dubinsRLR, dubinsLRL. rewrite T. destruct (Rlt_dec _ _); [|reflexivity].
    unfold solveRLR, solveLRL, dp_length; cbv zeta; cbn [dp_t dp_p dp_q]. rewrite T. set (p := TWO_PI - _).
    replace (d - sin b + sin a) with (d + sin a - sin b) by ring. replace (cos b - cos a) with (- cos a + cos b) by ring. set (th := atan2 _ _).
    set (t := twopify (- a + th + 1 / 2 * p)). set (t' := twopify (b - th + 1 / 2 * p)).
    assert (E : ang_eq t (- a + th + 1 / 2 * p)) by apply twopify_ang. assert (E' : ang_eq t' (b - th + 1 / 2 * p)) by apply twopify_ang.
    replace (twopify (b - a - t + p)) with t'; [replace (twopify (b - a - t' + p)) with t; [ring|]|].
    - apply twopify_congr. destruct E' as [n N]. exists n. rewrite N. field.
    - apply twopify_congr. destruct E as [n N]. exists n. rewrite N. field.
  Qed.
End Swap.
Lemma six_swap d a b : six d b a = six d a b.
Proof.
  unfold six. rewrite sLSL, <- (sLSL d b a), sLSR, sRSL, sRLR, <- (sRLR d b a). f_equal; [f_equal|]; first [apply Rmin_comm|reflexivity].
Qed.

(** ** States *)
Lemma args_far kappa s1 s2 th : 0 < kappa -> 1 / 1000000 <= kappa * pos_dist s1 s2 \/ ~ heading_within (1 / 1000000) s1 s2 ->
  DUBINS_EPS <= pos_dist s1 s2 * kappa \/ DUBINS_EPS <= Rabs (twopify (st_theta s1 - th) - twopify (st_theta s2 - th)).
Proof.
  intros K [H|H]; unfold DUBINS_EPS in *; [left; lra|right].
  destruct (Rle_lt_dec (1 / 1000000) (Rabs (twopify (st_theta s1 - th) - twopify (st_theta s2 - th)))) as [L|L]; [exact L|].
  exfalso. apply H. destruct (twopify_ang (st_theta s1 - th)) as [n N], (twopify_ang (st_theta s2 - th)) as [m M].
  exists (m - n)%Z. rewrite minus_IZR. apply Rlt_le. replace (st_theta s1 - st_theta s2 - 2 * PI * (IZR m - IZR n)) with (twopify (st_theta s1 - th) - twopify (st_theta s2 - th)) by (rewrite N, M; ring). exact L.
Qed.
Lemma dist_args s1 s2 : sqrt ((st_x s2 - st_x s1) * (st_x s2 - st_x s1) + (st_y s2 - st_y s1) * (st_y s2 - st_y s1)) = pos_dist s1 s2.
Proof. unfold pos_dist. f_equal. ring. Qed.
Lemma dubins_close_len d a : 0 <= d -> d < DUBINS_EPS -> dp_length (dubins d a a) = d.
Proof.
  intros D L. unfold dubins. destruct (Rlt_dec d DUBINS_EPS); [|lra]. rewrite Rminus_diag_eq, Rabs_R0 by reflexivity.
  destruct (Rlt_dec 0 DUBINS_EPS); [|unfold DUBINS_EPS in *; lra]. unfold dp_length; cbn. ring.
Qed.

Definition plain kappa s1 s2 : Prop := 1 / 1000000 <= kappa * pos_dist s1 s2 \/ ~ heading_within (1 / 1000000) s1 s2 \/ ang_eq (st_theta s1) (st_theta s2).

Lemma plain_swap kappa s1 s2 : plain kappa s1 s2 -> plain kappa s2 s1.
Proof.
  intros [H|[H|H]]; [left; rewrite pos_dist_sym; exact H|right; left|right; right; apply ang_eq_sym; exact H].
  intros [n N]. apply H. exists (- n)%Z. rewrite opp_IZR. replace (st_theta s1 - st_theta s2 - 2 * PI * - IZR n) with (- (st_theta s2 - st_theta s1 - 2 * PI * IZR n)) by ring. rewrite Rabs_Ropp. exact N.
Qed.
Lemma plain_mirror kappa s1 s2 : plain kappa s1 s2 -> plain kappa (mirror s1) (mirror s2).
Proof.
  intros [H|[H|[n N]]]; [left|right; left|right; right].
  - replace (pos_dist (mirror s1) (mirror s2)) with (pos_dist s1 s2); [exact H|]. unfold pos_dist, mirror; cbn [st_x st_y]. f_equal. ring.
  - intros [n N]. apply H. exists (- n)%Z. rewrite opp_IZR. cbn in N. replace (st_theta s1 - st_theta s2 - 2 * PI * - IZR n) with (- (- st_theta s1 - - st_theta s2 - 2 * PI * IZR n)) by ring. rewrite Rabs_Ropp. exact N.
  - exists (- n)%Z. cbn. rewrite N, opp_IZR. ring.
Qed.
Lemma plain_about kappa s1 s2 : plain kappa s1 s2 -> plain kappa (about s1) (about s2).
Proof.
  intros [H|[H|[n N]]]; [left; exact H|right; left|right; right].
  - intros [n N]. apply H. exists n. cbn in N. replace (st_theta s1 - st_theta s2 - 2 * PI * IZR n) with (st_theta s1 + PI - (st_theta s2 + PI) - 2 * PI * IZR n) by ring. exact N.
  - exists n. cbn. rewrite N. ring.
Qed.

(** The length in the general case and for equal headings. *)
Lemma path_length kappa s1 s2 : 0 < kappa -> plain kappa s1 s2 ->
  let th := atan2 (st_y s2 - st_y s1) (st_x s2 - st_x s1) in
  let d := pos_dist s1 s2 * kappa in
  dp_length (dubins_path kappa s1 s2) = six d (twopify (st_theta s1 - th)) (twopify (st_theta s2 - th)) /\ (DUBINS_EPS <= d \/ ~ heading_within (1 / 1000000) s1 s2) \/
  dp_length (dubins_path kappa s1 s2) = d /\ d < DUBINS_EPS /\ ang_eq (st_theta s1) (st_theta s2).
Proof.
  intros K H th d. unfold dubins_path, dubins_args. cbv zeta. rewrite dist_args. fold th d.
  assert (P : 0 <= d) by (unfold d; apply Rmult_le_pos; [apply sqrt_pos|lra]).
  destruct (Rle_lt_dec DUBINS_EPS d) as [L|L].
  - left. split; [|left; exact L]. apply dubins_six. left. exact L.
  - destruct H as [H|[H|H]].
    + unfold DUBINS_EPS in *. unfold d in L. exfalso. lra.
    + left. split; [|right; exact H]. apply dubins_six. apply (args_far kappa s1 s2 th K). right. exact H.
    + right. split; [|split; assumption]. rewrite (twopify_congr (st_theta s1 - th) (st_theta s2 - th)); [apply dubins_close_len; assumption|].
      destruct H as [n N]. exists n. rewrite N. ring.
Qed.

Lemma dubins_mirror kappa fw s1 s2 : 0 < kappa -> plain kappa s1 s2 ->
  dubins_distance kappa fw (mirror s1) (mirror s2) = dubins_distance kappa fw s1 s2.
Proof.
  intros K.
  assert (F : forall s1 s2, plain kappa s1 s2 -> dp_length (dubins_path kappa (mirror s1) (mirror s2)) = dp_length (dubins_path kappa s1 s2)).
  { clear s1 s2. intros s1 s2 H. pose proof (plain_mirror _ _ _ H) as H'.
    assert (D : pos_dist (mirror s1) (mirror s2) = pos_dist s1 s2) by (unfold pos_dist, mirror; cbn [st_x st_y]; f_equal; ring).
    destruct (path_length kappa s1 s2 K H) as [[E C]|(E & C & A)], (path_length kappa _ _ K H') as [[E' C']|(E' & C' & A')]; rewrite E, E', D.
    - apply six_mirror; (eapply ang_eq_trans; [apply twopify_ang|]).
      + pose proof (atan2_opp (st_y s2 - st_y s1) (st_x s2 - st_x s1)) as [n N]. destruct (twopify_ang (st_theta s1 - atan2 (st_y s2 - st_y s1) (st_x s2 - st_x s1))) as [m M].
        cbn [mirror st_x st_y st_theta]. replace (- st_y s2 - - st_y s1) with (- (st_y s2 - st_y s1)) by ring. exists (m - n)%Z. rewrite N, M, minus_IZR. ring.
      + pose proof (atan2_opp (st_y s2 - st_y s1) (st_x s2 - st_x s1)) as [n N]. destruct (twopify_ang (st_theta s2 - atan2 (st_y s2 - st_y s1) (st_x s2 - st_x s1))) as [m M].
        cbn [mirror st_x st_y st_theta]. replace (- st_y s2 - - st_y s1) with (- (st_y s2 - st_y s1)) by ring. exists (m - n)%Z. rewrite N, M, minus_IZR. ring.
    - exfalso. rewrite D in C'. destruct C as [C|C]; [lra|]. apply C. apply heading_within_eq; [lra|]. destruct A' as [n N]. cbn in N. exists (- n)%Z. rewrite opp_IZR. lra.
    - exfalso. rewrite D in C'. destruct C' as [C'|C']; [lra|]. apply C'. apply heading_within_eq; [lra|]. destruct A as [n N]. cbn. exists (- n)%Z. rewrite opp_IZR. lra.
    - reflexivity. }
  intros H. unfold dubins_distance. destruct fw; rewrite F; try reflexivity; [exact H|apply plain_swap; exact H].
Qed.

Lemma dubins_about kappa fw s1 s2 : 0 < kappa -> plain kappa s1 s2 ->
  dubins_distance kappa fw (about s2) (about s1) = dubins_distance kappa fw s1 s2.
Proof.
  intros K.
  assert (F : forall s1 s2, plain kappa s1 s2 -> dp_length (dubins_path kappa (about s2) (about s1)) = dp_length (dubins_path kappa s1 s2)).
  { clear s1 s2. intros s1 s2 H. pose proof (plain_about _ _ _ (plain_swap _ _ _ H)) as H'.
    assert (D : pos_dist (about s2) (about s1) = pos_dist s1 s2) by (unfold pos_dist, about; cbn [st_x st_y]; f_equal; ring).
    destruct (path_length kappa s1 s2 K H) as [[E C]|(E & C & A)], (path_length kappa _ _ K H') as [[E' C']|(E' & C' & A')].
    - assert (G : st_x s2 - st_x s1 <> 0 \/ st_y s2 - st_y s1 <> 0 -> dp_length (dubins_path kappa (about s2) (about s1)) = dp_length (dubins_path kappa s1 s2)).
      { intros NZ. rewrite E, E', D, <- six_swap. pose proof (atan2_rot _ _ PI NZ) as R. rewrite cos_PI, sin_PI in R.
        replace ((st_x s2 - st_x s1) * 0 + (st_y s2 - st_y s1) * -1) with (st_y s1 - st_y s2) in R by ring.
        replace ((st_x s2 - st_x s1) * -1 - (st_y s2 - st_y s1) * 0) with (st_x s1 - st_x s2) in R by ring.
        apply f_equal2; apply twopify_congr; cbn [about st_x st_y st_theta]; destruct R as [n N]; exists (- n)%Z; rewrite N, opp_IZR; ring. }
      destruct (Req_EM_T (st_x s2 - st_x s1) 0) as [X|X]; [destruct (Req_EM_T (st_y s2 - st_y s1) 0) as [Y|Y]|].
      + assert (RG : dubins_path kappa (rigid (2 * st_x s1) (2 * st_y s1) PI s2) (rigid (2 * st_x s1) (2 * st_y s1) PI s1) = dubins_path kappa s2 s1).
        { apply dubins_rigid; [exact K|]. right. right. destruct C as [C|C].
          - exfalso. unfold DUBINS_EPS in C. replace (pos_dist s1 s2) with 0 in C; [lra|]. unfold pos_dist. replace ((st_x s1 - st_x s2) ^ 2 + (st_y s1 - st_y s2) ^ 2) with 0 by nra. symmetry. apply sqrt_0.
          - intros [n N]. apply C. exists (- n)%Z. rewrite opp_IZR. replace (st_theta s1 - st_theta s2 - 2 * PI * - IZR n) with (- (st_theta s2 - st_theta s1 - 2 * PI * IZR n)) by ring. rewrite Rabs_Ropp. exact N. }
        replace (dubins_path kappa (about s2) (about s1)) with (dubins_path kappa (rigid (2 * st_x s1) (2 * st_y s1) PI s2) (rigid (2 * st_x s1) (2 * st_y s1) PI s1)).
        2:{ unfold dubins_path, dubins_args, rigid, about; cbn [st_x st_y st_theta]. rewrite cos_PI, sin_PI. 
            replace (2 * st_x s1 + (st_x s1 * -1 - st_y s1 * 0) - (2 * st_x s1 + (st_x s2 * -1 - st_y s2 * 0))) with (st_x s1 - st_x s2) by lra.
            replace (2 * st_y s1 + (st_x s1 * 0 + st_y s1 * -1) - (2 * st_y s1 + (st_x s2 * 0 + st_y s2 * -1))) with (st_y s1 - st_y s2) by lra. reflexivity. }
        rewrite RG. destruct (path_length kappa s2 s1 K (plain_swap _ _ _ H)) as [[E2 C2]|(E2 & C2 & A2)].
        * rewrite E2, E, pos_dist_sym. replace (st_x s1 - st_x s2) with 0 by lra. replace (st_y s1 - st_y s2) with 0 by lra. rewrite X, Y. apply six_swap.
        * exfalso. destruct C as [C|C]; [rewrite pos_dist_sym in C2; lra|]. apply C. apply heading_within_eq; [lra|apply ang_eq_sym; exact A2].
      + apply (G (or_intror Y)).
      + apply (G (or_introl X)).
    - exfalso. rewrite D in C'. destruct C as [C|C]; [lra|]. apply C. apply heading_within_eq; [lra|]. destruct A' as [n N]. cbn in N. exists (- n)%Z. rewrite opp_IZR. lra.
    - exfalso. rewrite D in C'. destruct C' as [C'|C']; [lra|]. apply C'. apply heading_within_eq; [lra|]. destruct A as [n N]. cbn. exists (- n)%Z. rewrite opp_IZR. lra.
    - rewrite E, E', D. reflexivity. }
  intros H. unfold dubins_distance. destruct fw; rewrite F; try reflexivity; [exact H|apply plain_swap; exact H].
Qed.

(** ** Almost equal headings on the two sides of 0 *)
Lemma near_zero_pos : 0 < dubins_distance 1 true (mkState 0 0 0 0 0) (mkState 0 0 (- (1 / 10000000)) 0 0).
Proof.
  unfold dubins_distance, dubins_path. rewrite !dubins_args_same by reflexivity. cbn [st_theta]. pose proof PI2_3_2 as P3.
  rewrite (twopify_id 0) by (unfold TWO_PI; lra).
  rewrite (twopify_unique (2 * PI - 1 / 10000000) (- (1 / 10000000))); [|exists 1%Z; ring|unfold TWO_PI; lra].
  destruct (dubins_asserts 0 0 (2 * PI - 1 / 10000000) ltac:(lra)) as (T & P & Q).
  assert (G : dp_length (dubins 0 0 (2 * PI - 1 / 10000000)) <> 0).
  { intros Z. apply dubins_reach_zero in Z.
    - destruct Z as [k Z]. assert (K : IZR k < 0 /\ -1 < IZR k) by (split; nra).
      destruct K as [K1 K2]. apply lt_IZR in K1. apply (lt_IZR (-1)) in K2. lia.
    - lra.
    - left. apply pow_lt. lra.
    - intros [_ H]. unfold DUBINS_EPS in H. rewrite Rabs_left in H; lra. }
  unfold dp_length in *. lra.
Qed.
Lemma near_len a b : 0 <= a < TWO_PI -> 0 <= b < TWO_PI -> Rabs (a - b) < 1 / 1000000 -> dubins_distance 1 true (mkState 0 0 a 0 0) (mkState 0 0 b 0 0) = 0.
Proof.
  intros A B E. unfold dubins_distance, dubins_path. rewrite !dubins_args_same by reflexivity. cbn [st_theta]. rewrite (twopify_id a A), (twopify_id b B).
  unfold dubins. destruct (Rlt_dec 0 DUBINS_EPS) as [_|N]; [|unfold DUBINS_EPS in *; lra]. destruct (Rlt_dec _ _) as [_|N]; [|unfold DUBINS_EPS in *; lra].
  unfold dp_length; cbn. field.
Qed.
Lemma mirror_refuted : exists kappa s1 s2, 0 < kappa /\ dubins_distance kappa true (mirror s1) (mirror s2) = 0 /\ 0 < dubins_distance kappa true s1 s2.
Proof.
  exists 1, (mkState 0 0 0 0 0), (mkState 0 0 (- (1 / 10000000)) 0 0). split; [lra|]. split; [|exact near_zero_pos]. unfold mirror; cbn [st_x st_y st_theta st_kappa st_d].
  rewrite !Ropp_0, Ropp_involutive. pose proof PI2_3_2. apply near_len; unfold TWO_PI; try lra. rewrite Rabs_left; lra.
Qed.
Lemma about_refuted : exists kappa s1 s2, 0 < kappa /\ dubins_distance kappa true (about s2) (about s1) = 0 /\ 0 < dubins_distance kappa true s1 s2.
Proof.
  exists 1, (mkState 0 0 0 0 0), (mkState 0 0 (- (1 / 10000000)) 0 0). split; [lra|]. split; [|exact near_zero_pos]. unfold about; cbn [st_x st_y st_theta st_kappa st_d].
  rewrite !Ropp_0. pose proof PI2_3_2. apply near_len; unfold TWO_PI; try lra. rewrite Rabs_left; lra.
Qed.

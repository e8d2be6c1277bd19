(** * Minimality and invariance of the Dubins solution *)
From Coq Require Import Reals ZArith List Bool Lra Lia Psatz.
From Verif Require Import Base ModelUtil ModelFresnel ModelIntegrate ModelDubins Num UtilProofs
  SpecPath IntegrateProofs DubinsProofs DubinsPlan.
Import ListNotations.
Open Scope R_scope.

(** If (r cos a, r sin a) = (x, y) with r > 0, then a is the angle of (x,y). *)
Lemma angle_of r a x y : 0 < r -> r * cos a = x -> r * sin a = y -> ang_eq (atan2 y x) a.
Proof. intros R0 <- <-. apply atan2_polar. assumption. Qed.

Lemma sqrt_of_sq p x : 0 <= p -> x = p * p -> sqrt x = p.
Proof. intros P ->. apply sqrt_square. assumption. Qed.

Lemma atan2_00 : atan2 0 0 = 0.
Proof. unfold atan2. destruct (Rlt_dec 0 0); [lra|reflexivity]. Qed.

Section Opt.
  Variables d alpha beta t p q : R.
  Hypothesis D0 : 0 <= d.
  Hypothesis Ra : 0 <= alpha < TWO_PI.
  Hypothesis Rb : 0 <= beta < TWO_PI.
  Hypothesis ND : ~ (d < DUBINS_EPS /\ Rabs (alpha - beta) < DUBINS_EPS).
  Hypotheses (T0 : 0 <= t) (P0 : 0 <= p) (Q0 : 0 <= q).

  Lemma cos_eq_cases : cos alpha = cos beta -> alpha = beta \/ beta = TWO_PI - alpha.
  Proof.
    intros C. assert (S : (sin alpha - sin beta) * (sin alpha + sin beta) = 0).
    { pose proof (sin2_cos2' alpha). pose proof (sin2_cos2' beta). nra. }
    apply Rmult_integral in S. destruct S as [S|S].
    - left. assert (A : ang_eq alpha beta) by (apply ang_eq_of_cos_sin; lra).
      rewrite <- (twopify_id alpha Ra), <- (twopify_id beta Rb). apply twopify_congr. assumption.
    - destruct (Req_EM_T alpha 0) as [Z|Z].
      + left. subst. rewrite cos_0 in C. symmetry. apply cos_0_inv; [assumption|lra].
      + right. assert (A : ang_eq (TWO_PI - alpha) beta).
        { apply ang_eq_trans with (- alpha).
          - exists 1%Z. unfold TWO_PI. ring.
          - apply ang_eq_of_cos_sin; [rewrite cos_neg; lra|rewrite sin_neg; lra]. }
        rewrite <- (twopify_id beta Rb). apply twopify_unique; [assumption|]. lra.
  Qed.

  Lemma nd_pos : alpha = beta -> 0 < d.
  Proof.
    intros E. destruct (Rlt_dec 0 d) as [|N]; [assumption|]. exfalso. apply ND.
    subst. unfold DUBINS_EPS. rewrite Rminus_diag_eq, Rabs_R0 by reflexivity. lra.
  Qed.

  Lemma LSL_opt : psim (uword (dubins_path_type 0) [t; p; q] (0, 0, alpha)) (d, 0, beta) ->
    dp_length (dubinsLSL d alpha beta) <= t + p + q.
  Proof.
    pose proof Ra as RA. pose proof Rb as RB.
    unfold uword, psim, px, py, pth; simpl. intros (X & Y & A).
    rewrite (ang_eq_sin _ _ A) in X. rewrite (ang_eq_cos _ _ A) in Y.
    unfold dubinsLSL. pose proof (tmpLSL_pos d alpha beta) as TP.
    destruct (Rle_dec DUBINS_ZERO _) as [_|N]; [|unfold DUBINS_ZERO in N; lra].
    unfold dp_length, solveLSL; cbn [dp_t dp_p dp_q].
    assert (X' : p * cos (alpha + t) = d + sin alpha - sin beta) by lra.
    assert (Y' : p * sin (alpha + t) = cos beta - cos alpha) by lra.
    assert (PE : sqrt (Rmax (tmpLSL d alpha beta) 0) = p).
    { rewrite sqrt_max_nonneg by assumption. apply sqrt_of_sq; [assumption|].
      rewrite tmpLSL_sq, <- X', <- Y'.
      transitivity (p * p * (sin (alpha + t) * sin (alpha + t) + cos (alpha + t) * cos (alpha + t)));
        [ring|rewrite sin2_cos2'; ring]. }
    rewrite PE. destruct (Rlt_dec 0 p) as [PP|NP].
    - pose proof (angle_of p _ _ _ PP X' Y') as B.
      set (th := atan2 _ _) in *.
      assert (twopify (- alpha + th) <= t).
      { apply tw_le; [assumption|]. apply ang_eq_sym.
        eapply ang_eq_trans; [apply ang_eq_add; [apply ang_eq_refl|exact B]|]. apply ang_eq_of_eq. ring. }
      assert (twopify (beta - th) <= q).
      { apply tw_le; [assumption|]. apply ang_eq_sym.
        eapply ang_eq_trans; [apply ang_eq_sub; [apply ang_eq_sym; exact A|exact B]|].
        apply ang_eq_of_eq. ring. }
      lra.
    - assert (Z : p = 0) by lra. rewrite Z, Rmult_0_l in X', Y'.
      rewrite <- X', <- Y'. rewrite atan2_00.
      rewrite Rplus_0_r, Rminus_0_r.
      destruct cos_eq_cases as [E|E]; [lra| |].
      + exfalso. pose proof (nd_pos E). subst beta. lra.
      + assert (S : sin beta = - sin alpha) by (rewrite E; unfold TWO_PI; rewrite sin_minus, sin_2PI, cos_2PI; ring).
        assert (SN : sin alpha <= 0) by lra.
        assert (AP : PI <= alpha \/ alpha = 0).
        { destruct (Rle_dec PI alpha); [auto|]. right. destruct (Req_EM_T alpha 0); [assumption|].
          pose proof (sin_gt_0 alpha ltac:(lra) ltac:(lra)). lra. }
        destruct AP as [AP|AP]; [|unfold TWO_PI in *; lra].
        rewrite (twopify_id beta) by assumption.
        rewrite (twopify_unique (TWO_PI - alpha) (- alpha));
          [| exists 1%Z; unfold TWO_PI; ring | unfold TWO_PI in *; pose proof PI_RGT_0; lra].
        assert (Ap : PI < alpha).
        { destruct AP as [|AP]; [assumption|]. exfalso.
          assert (alpha = beta) by (unfold TWO_PI in *; lra).
          pose proof (nd_pos H). rewrite H in X'. lra. }
        assert (twopify (2 * beta) <= t + q).
        { apply tw_le; [lra|]. eapply ang_eq_trans; [apply ang_eq_of_eq|].
          2:{ eapply ang_eq_trans; [apply ang_eq_sub; [exact A|apply (ang_eq_refl alpha)]|].
              exists (-1)%Z. rewrite E. unfold TWO_PI. ring. }
          ring. }
        rewrite (twopify_id (2 * beta)) in H by (unfold TWO_PI in *; lra). lra.
  Qed.

  Lemma RSR_opt : psim (uword (dubins_path_type 1) [t; p; q] (0, 0, alpha)) (d, 0, beta) ->
    dp_length (dubinsRSR d alpha beta) <= t + p + q.
  Proof.
    pose proof Ra as RA. pose proof Rb as RB.
    unfold uword, psim, px, py, pth; simpl. intros (X & Y & A).
    rewrite (ang_eq_sin _ _ A) in X. rewrite (ang_eq_cos _ _ A) in Y.
    unfold dubinsRSR. pose proof (tmpRSR_pos d alpha beta) as TP.
    destruct (Rle_dec DUBINS_ZERO _) as [_|N]; [|unfold DUBINS_ZERO in N; lra].
    unfold dp_length, solveRSR; cbn [dp_t dp_p dp_q].
    assert (X' : p * cos (alpha - t) = d - sin alpha + sin beta) by lra.
    assert (Y' : p * sin (alpha - t) = cos alpha - cos beta) by lra.
    assert (PE : sqrt (Rmax (tmpRSR d alpha beta) 0) = p).
    { rewrite sqrt_max_nonneg by assumption. apply sqrt_of_sq; [assumption|].
      rewrite tmpRSR_sq, <- X', <- Y'.
      transitivity (p * p * (sin (alpha - t) * sin (alpha - t) + cos (alpha - t) * cos (alpha - t)));
        [ring|rewrite sin2_cos2'; ring]. }
    rewrite PE. destruct (Rlt_dec 0 p) as [PP|NP].
    - pose proof (angle_of p _ _ _ PP X' Y') as B.
      set (th := atan2 _ _) in *.
      assert (twopify (alpha - th) <= t).
      { apply tw_le; [assumption|]. apply ang_eq_sym.
        eapply ang_eq_trans; [apply ang_eq_sub; [apply ang_eq_refl|exact B]|]. apply ang_eq_of_eq. ring. }
      assert (twopify (- beta + th) <= q).
      { apply tw_le; [assumption|]. apply ang_eq_sym.
        eapply ang_eq_trans; [apply ang_eq_add; [apply ang_eq_opp; apply ang_eq_sym; exact A|exact B]|].
        apply ang_eq_of_eq. ring. }
      lra.
    - assert (Z : p = 0) by lra. rewrite Z, Rmult_0_l in X', Y'.
      rewrite <- X', <- Y'. rewrite atan2_00.
      rewrite Rplus_0_r, Rminus_0_r.
      destruct cos_eq_cases as [E|E]; [lra| |].
      + exfalso. pose proof (nd_pos E). subst beta. lra.
      + assert (S : sin beta = - sin alpha) by (rewrite E; unfold TWO_PI; rewrite sin_minus, sin_2PI, cos_2PI; ring).
        assert (SN : 0 <= sin alpha) by lra.
        assert (AP : alpha <= PI).
        { destruct (Rle_dec alpha PI); [auto|]. 
          pose proof (sin_lt_0 alpha ltac:(lra) ltac:(unfold TWO_PI in *; lra)). lra. }
        assert (A0 : 0 < alpha) by lra.
        rewrite (twopify_id alpha) by assumption.
        rewrite (twopify_unique alpha (- beta));
          [| exists 1%Z; rewrite E; unfold TWO_PI; ring | assumption].
        assert (Ap : alpha < PI).
        { destruct AP as [|AP]; [assumption|]. exfalso.
          assert (alpha = beta) by (unfold TWO_PI in *; lra).
          pose proof (nd_pos H). rewrite H in X'. lra. }
        assert (twopify (2 * alpha) <= t + q).
        { apply tw_le; [lra|]. eapply ang_eq_trans; [apply ang_eq_of_eq|].
          2:{ eapply ang_eq_trans; [apply ang_eq_sub; [apply (ang_eq_refl alpha)|exact A]|].
              exists (-1)%Z. rewrite E. unfold TWO_PI. ring. }
          ring. }
        rewrite (twopify_id (2 * alpha)) in H by (unfold TWO_PI in *; lra). lra.
  Qed.

  Lemma RSL_opt : psim (uword (dubins_path_type 2) [t; p; q] (0, 0, alpha)) (d, 0, beta) ->
    dp_length (dubinsRSL d alpha beta) <= t + p + q.
  Proof.
    unfold uword, psim, px, py, pth; simpl. intros (X & Y & A).
    rewrite (ang_eq_sin _ _ A) in X. rewrite (ang_eq_cos _ _ A) in Y.
    assert (X' : p * cos (alpha - t) - 2 * sin (alpha - t) = d - sin alpha - sin beta) by lra.
    assert (Y' : p * sin (alpha - t) + 2 * cos (alpha - t) = cos alpha + cos beta) by lra.
    assert (TE : tmpRSL d alpha beta = p * p).
    { pose proof (tmpRSL_sq d alpha beta) as Q. rewrite <- X', <- Y' in Q.
      transitivity (p * p + 4 - 4); [|ring].
      transitivity ((p * p + 4) * (sin (alpha - t) * sin (alpha - t) + cos (alpha - t) * cos (alpha - t)) - 4);
        [|rewrite sin2_cos2'; ring]. lra. }
    unfold dubinsRSL, solveRSL. rewrite TE.
    destruct (Rle_dec DUBINS_ZERO _) as [_|N]; [|unfold DUBINS_ZERO in N; nra].
    rewrite sqrt_max_nonneg, sqrt_square by nra.
    unfold dp_length; cbn [dp_t dp_p dp_q].
    destruct (atan2_pair p 2) as (r & _ & R0 & RR & C2 & S2).
    assert (RP : 0 < r) by nra.
    set (u := atan2 2 p) in *. clearbody u.
    assert (B : ang_eq (atan2 (cos alpha + cos beta) (d - sin alpha - sin beta)) (alpha - t + u)).
    { apply (angle_of r); [assumption| |]; rewrite <- ?X', <- ?Y', ?cos_plus, ?sin_plus.
      - transitivity (cos (alpha - t) * (r * cos u) - sin (alpha - t) * (r * sin u)); [ring|].
        rewrite C2, S2. ring.
      - transitivity (sin (alpha - t) * (r * cos u) + cos (alpha - t) * (r * sin u)); [ring|].
        rewrite C2, S2. ring. }
    set (th := atan2 _ _) in *.
    assert (twopify (alpha - (th - u)) <= t).
    { apply tw_le; [assumption|]. apply ang_eq_sym.
      eapply ang_eq_trans; [apply ang_eq_sub; [apply ang_eq_refl|apply ang_eq_sub; [exact B|apply ang_eq_refl]]|].
      apply ang_eq_of_eq. ring. }
    assert (twopify (beta - (th - u)) <= q).
    { apply tw_le; [assumption|]. apply ang_eq_sym.
      eapply ang_eq_trans; [apply ang_eq_sub; [apply ang_eq_sym; exact A|apply ang_eq_sub; [exact B|apply ang_eq_refl]]|].
      apply ang_eq_of_eq. ring. }
    lra.
  Qed.

  Lemma LSR_opt : psim (uword (dubins_path_type 3) [t; p; q] (0, 0, alpha)) (d, 0, beta) ->
    dp_length (dubinsLSR d alpha beta) <= t + p + q.
  Proof.
    unfold uword, psim, px, py, pth; simpl. intros (X & Y & A).
    rewrite (ang_eq_sin _ _ A) in X. rewrite (ang_eq_cos _ _ A) in Y.
    assert (X' : p * cos (alpha + t) + 2 * sin (alpha + t) = d + sin alpha + sin beta) by lra.
    assert (Y' : p * sin (alpha + t) - 2 * cos (alpha + t) = - cos alpha - cos beta) by lra.
    assert (TE : tmpLSR d alpha beta = p * p).
    { pose proof (tmpLSR_sq d alpha beta) as Q. rewrite <- X', <- Y' in Q.
      transitivity (p * p + 4 - 4); [|ring].
      transitivity ((p * p + 4) * (sin (alpha + t) * sin (alpha + t) + cos (alpha + t) * cos (alpha + t)) - 4);
        [|rewrite sin2_cos2'; ring]. lra. }
    unfold dubinsLSR, solveLSR. rewrite TE.
    destruct (Rle_dec DUBINS_ZERO _) as [_|N]; [|unfold DUBINS_ZERO in N; nra].
    rewrite sqrt_max_nonneg, sqrt_square by nra.
    unfold dp_length; cbn [dp_t dp_p dp_q].
    destruct (atan2_pair p (-2)) as (r & _ & R0 & RR & C2 & S2).
    assert (RP : 0 < r) by nra.
    set (u := atan2 (-2) p) in *. clearbody u.
    assert (B : ang_eq (atan2 (- cos alpha - cos beta) (d + sin alpha + sin beta)) (alpha + t + u)).
    { apply (angle_of r); [assumption| |]; rewrite <- ?X', <- ?Y', ?(cos_plus (alpha + t)), ?(sin_plus (alpha + t)).
      - transitivity (cos (alpha + t) * (r * cos u) - sin (alpha + t) * (r * sin u)); [ring|].
        rewrite C2, S2. ring.
      - transitivity (sin (alpha + t) * (r * cos u) + cos (alpha + t) * (r * sin u)); [ring|].
        rewrite C2, S2. ring. }
    set (th := atan2 _ _) in *.
    assert (twopify (- alpha + (th - u)) <= t).
    { apply tw_le; [assumption|]. apply ang_eq_sym.
      eapply ang_eq_trans; [apply ang_eq_add; [apply ang_eq_refl|apply ang_eq_sub; [exact B|apply ang_eq_refl]]|].
      apply ang_eq_of_eq. ring. }
    assert (twopify (- beta + (th - u)) <= q).
    { apply tw_le; [assumption|]. apply ang_eq_sym.
      eapply ang_eq_trans; [apply ang_eq_add; [apply ang_eq_opp; apply ang_eq_sym; exact A|apply ang_eq_sub; [exact B|apply ang_eq_refl]]|].
      apply ang_eq_of_eq. ring. }
    lra.
  Qed.

  Hypothesis PC : PI < p < TWO_PI.

  Lemma ccc_p x : x = 1 - 2 * (sin (p / 2) * sin (p / 2)) -> Rabs x < 1 /\ TWO_PI - acos x = p.
  Proof.
    intros E. pose proof PC as PC'. unfold TWO_PI in *.
    assert (C : x = cos (2 * PI - p)).
    { rewrite E, cos_minus, cos_2PI, sin_2PI. replace p with (2 * (p / 2)) at 3 by field.
      rewrite cos_2a_sin. ring. }
    split.
    - rewrite C. apply Rabs_def1.
      + rewrite <- cos_0. apply cos_decreasing_1; lra.
      + replace (- (1)) with (cos PI) by (rewrite cos_PI; ring). apply cos_decreasing_1; lra.
    - rewrite C, acos_cos by lra. ring.
  Qed.

  Lemma half_sin_pos : 0 < sin (p / 2).
  Proof. pose proof PC. unfold TWO_PI in *. apply sin_gt_0; lra. Qed.

  Lemma RLR_opt : psim (uword (dubins_path_type 4) [t; p; q] (0, 0, alpha)) (d, 0, beta) ->
    dp_length (dubinsRLR d alpha beta) <= t + p + q.
  Proof.
    unfold uword, psim, px, py, pth; simpl. intros (X & Y & A).
    rewrite (ang_eq_sin _ _ A) in X. rewrite (ang_eq_cos _ _ A) in Y.
    pose proof half_sin_pos as HS.
    assert (X' : 4 * sin (p / 2) * cos (alpha - t + p / 2) = d - sin alpha + sin beta).
    { transitivity (2 * (sin (alpha - t + p) - sin (alpha - t))); [|lra].
      replace (alpha - t + p) with (alpha - t + p / 2 + p / 2) by field.
      replace (alpha - t) with (alpha - t + p / 2 - p / 2) at 3 by field.
      rewrite (sin_plus (alpha - t + p / 2)), (sin_minus (alpha - t + p / 2)). ring. }
    assert (Y' : 4 * sin (p / 2) * sin (alpha - t + p / 2) = cos alpha - cos beta).
    { transitivity (2 * (cos (alpha - t) - cos (alpha - t + p))); [|lra].
      replace (alpha - t + p) with (alpha - t + p / 2 + p / 2) by field.
      replace (alpha - t) with (alpha - t + p / 2 - p / 2) at 2 by field.
      rewrite (cos_plus (alpha - t + p / 2)), (cos_minus (alpha - t + p / 2)). ring. }
    destruct (ccc_p (tmpRLR d alpha beta)) as [G PE].
    { assert (Q : 8 * (1 - tmpRLR d alpha beta) = (d - sin alpha + sin beta) * (d - sin alpha + sin beta)
        + (cos alpha - cos beta) * (cos alpha - cos beta)) by apply tmpRLR_sq.
      rewrite <- X', <- Y' in Q.
      assert (Q' : 8 * (1 - tmpRLR d alpha beta) = 16 * (sin (p / 2) * sin (p / 2))); [|lra].
      rewrite Q. transitivity (16 * (sin (p / 2) * sin (p / 2)) *
        (sin (alpha - t + p / 2) * sin (alpha - t + p / 2) + cos (alpha - t + p / 2) * cos (alpha - t + p / 2)));
        [ring|rewrite sin2_cos2'; ring]. }
    unfold dubinsRLR. destruct (Rlt_dec _ 1) as [_|N]; [|contradiction].
    unfold solveRLR, dp_length; cbn [dp_t dp_p dp_q]. rewrite PE.
    assert (B : ang_eq (atan2 (cos alpha - cos beta) (d - sin alpha + sin beta)) (alpha - t + p / 2)).
    { apply (angle_of (4 * sin (p / 2))); [lra|assumption|assumption]. }
    set (th := atan2 _ _) in *.
    assert (E1 : ang_eq (alpha - th + 1 / 2 * p) t).
    { eapply ang_eq_trans; [apply ang_eq_add; [apply ang_eq_sub; [apply ang_eq_refl|exact B]|apply ang_eq_refl]|].
      apply ang_eq_of_eq. field. }
    assert (twopify (alpha - th + 1 / 2 * p) <= t) by (apply tw_le; [assumption|apply ang_eq_sym; assumption]).
    assert (twopify (alpha - beta - twopify (alpha - th + 1 / 2 * p) + p) <= q).
    { apply tw_le; [assumption|]. apply ang_eq_sym.
      eapply ang_eq_trans; [apply ang_eq_add; [|apply ang_eq_refl]; apply ang_eq_sub;
        [apply ang_eq_sub; [apply ang_eq_refl|apply ang_eq_sym; exact A]|
         eapply ang_eq_trans; [apply twopify_ang|exact E1]]|].
      apply ang_eq_of_eq. ring. }
    lra.
  Qed.

  Lemma LRL_opt : psim (uword (dubins_path_type 5) [t; p; q] (0, 0, alpha)) (d, 0, beta) ->
    dp_length (dubinsLRL d alpha beta) <= t + p + q.
  Proof.
    unfold uword, psim, px, py, pth; simpl. intros (X & Y & A).
    rewrite (ang_eq_sin _ _ A) in X. rewrite (ang_eq_cos _ _ A) in Y.
    pose proof half_sin_pos as HS.
    assert (X' : 4 * sin (p / 2) * cos (alpha + t - p / 2) = d + sin alpha - sin beta).
    { transitivity (2 * (sin (alpha + t) - sin (alpha + t - p))); [|lra].
      replace (alpha + t - p) with (alpha + t - p / 2 - p / 2) by field.
      replace (alpha + t) with (alpha + t - p / 2 + p / 2) at 2 by field.
      rewrite (sin_plus (alpha + t - p / 2)), (sin_minus (alpha + t - p / 2)). ring. }
    assert (Y' : 4 * sin (p / 2) * sin (alpha + t - p / 2) = - cos alpha + cos beta).
    { transitivity (2 * (cos (alpha + t - p) - cos (alpha + t))); [|lra].
      replace (alpha + t - p) with (alpha + t - p / 2 - p / 2) by field.
      replace (alpha + t) with (alpha + t - p / 2 + p / 2) at 3 by field.
      rewrite (cos_plus (alpha + t - p / 2)), (cos_minus (alpha + t - p / 2)). ring. }
    destruct (ccc_p (tmpLRL d alpha beta)) as [G PE].
    { assert (Q : 8 * (1 - tmpLRL d alpha beta) = (d + sin alpha - sin beta) * (d + sin alpha - sin beta)
        + (- cos alpha + cos beta) * (- cos alpha + cos beta)) by apply tmpLRL_sq.
      rewrite <- X', <- Y' in Q.
      assert (Q' : 8 * (1 - tmpLRL d alpha beta) = 16 * (sin (p / 2) * sin (p / 2))); [|lra].
      rewrite Q. transitivity (16 * (sin (p / 2) * sin (p / 2)) *
        (sin (alpha + t - p / 2) * sin (alpha + t - p / 2) + cos (alpha + t - p / 2) * cos (alpha + t - p / 2)));
        [ring|rewrite sin2_cos2'; ring]. }
    unfold dubinsLRL. destruct (Rlt_dec _ 1) as [_|N]; [|contradiction].
    unfold solveLRL, dp_length; cbn [dp_t dp_p dp_q]. rewrite PE.
    assert (B : ang_eq (atan2 (- cos alpha + cos beta) (d + sin alpha - sin beta)) (alpha + t - p / 2)).
    { apply (angle_of (4 * sin (p / 2))); [lra|assumption|assumption]. }
    set (th := atan2 _ _) in *.
    assert (E1 : ang_eq (- alpha + th + 1 / 2 * p) t).
    { eapply ang_eq_trans; [apply ang_eq_add; [apply ang_eq_add; [apply ang_eq_refl|exact B]|apply ang_eq_refl]|].
      apply ang_eq_of_eq. field. }
    assert (twopify (- alpha + th + 1 / 2 * p) <= t) by (apply tw_le; [assumption|apply ang_eq_sym; assumption]).
    assert (twopify (beta - alpha - twopify (- alpha + th + 1 / 2 * p) + p) <= q).
    { apply tw_le; [assumption|]. apply ang_eq_sym.
      eapply ang_eq_trans; [apply ang_eq_add; [|apply ang_eq_refl]; apply ang_eq_sub;
        [apply ang_eq_sub; [apply ang_eq_sym; exact A|apply ang_eq_refl]|
         eapply ang_eq_trans; [apply twopify_ang|exact E1]]|].
      apply ang_eq_of_eq. ring. }
    lra.
  Qed.
End Opt.


(** ** A path is at least as long as the displacement *)

Lemma abs_sin_le x : Rabs (sin x) <= Rabs x.
Proof.
  assert (P : forall y, 0 < y -> sin y <= y) by (intros y H; left; apply sin_lt_x; assumption).
  assert (Q : forall y, 0 <= y -> Rabs (sin y) <= y).
  { intros y [H|<-]; [|rewrite sin_0, Rabs_R0; lra].
    apply Rabs_le. split; [|apply P; assumption].
    destruct (Rle_dec y PI).
    - pose proof (sin_ge_0 y ltac:(lra) ltac:(assumption)). lra.
    - pose proof (SIN_bound y). pose proof PI2_3_2. lra. }
  destruct (Rle_dec 0 x) as [H|H].
  - rewrite (Rabs_pos_eq x) by assumption. apply Q. assumption.
  - rewrite <- (Rabs_Ropp (sin x)), <- sin_neg, <- (Rabs_Ropp x), (Rabs_pos_eq (- x)) by lra.
    apply Q. lra.
Qed.

Lemma pos_dist_euc a b : pos_dist a b = dist_euc (st_x a) (st_y a) (st_x b) (st_y b).
Proof. unfold pos_dist, dist_euc, Rsqr. f_equal. ring. Qed.

Lemma pos_dist_triangle a b c : pos_dist a c <= pos_dist a b + pos_dist b c.
Proof. rewrite !pos_dist_euc. apply triangle. Qed.

Lemma drive_dist s c : pos_dist s (drive s c) <= Rabs (ct_delta_s c).
Proof.
  apply pos_dist_le; [apply Rabs_pos|]. rewrite pow2_abs. unfold drive.
  destruct (Req_EM_T (ct_kappa c) 0) as [Z|Z]; cbn [st_x st_y].
  - apply Req_le. transitivity (ct_delta_s c ^ 2 *
      (sin (st_theta s) * sin (st_theta s) + cos (st_theta s) * cos (st_theta s)));
      [ring|rewrite sin2_cos2'; ring].
  - set (k := ct_kappa c) in *. set (h := k * ct_delta_s c / 2). set (m := st_theta s + h).
    replace (k * ct_delta_s c) with (2 * h) by (unfold h; field).
    replace (st_theta s + 2 * h) with (m + h) by (unfold m; ring).
    replace (st_theta s) with (m - h) by (unfold m; ring).
    rewrite sin_plus, sin_minus, cos_plus, cos_minus.
    replace (_ ^ 2 + _ ^ 2) with (4 * (sin h * sin h) / (k * k) * (sin m * sin m + cos m * cos m))
      by (field; assumption).
    rewrite sin2_cos2', Rmult_1_r.
    pose proof (abs_sin_le h) as A. apply Rsqr_le_abs_1 in A. unfold Rsqr in A.
    replace (ct_delta_s c ^ 2) with (4 * (h * h) / (k * k)) by (unfold h; field; assumption).
    apply Rmult_le_compat_r; [|lra]. left. apply Rinv_0_lt_compat.
    pose proof (Rsqr_pos_lt k Z) as B. unfold Rsqr in B. assumption.
Qed.

Lemma drive_all_dist cs : forall s, pos_dist s (drive_all s cs) <= total_length cs.
Proof.
  induction cs as [|c cs IH]; intros s; simpl.
  - apply pos_dist_le; [lra|]. simpl. lra.
  - eapply Rle_trans; [apply (pos_dist_triangle s (drive s c))|].
    apply Rplus_le_compat; [apply drive_dist|apply IH].
Qed.

(** ** C12 *)

Lemma drive_all_total s cs q : same_pose (drive_all s cs) q -> pos_dist s q <= total_length cs.
Proof.
  intros (X & Y & _). rewrite pos_dist_sym. rewrite <- (pos_dist_xy (drive_all s cs) q s X Y).
  rewrite pos_dist_sym. apply drive_all_dist.
Qed.

Definition seg_of (kappa k : R) : DSeg :=
  if Req_EM_T k 0 then DUBINS_STRAIGHT else if Req_EM_T k kappa then DUBINS_LEFT else DUBINS_RIGHT.

Lemma control_of kappa k l : 0 < kappa -> k = 0 \/ k = kappa \/ k = - kappa ->
  mkControl l k 0 = dubins_control kappa (seg_of kappa k) (kappa * l).
Proof.
  intros K H. unfold seg_of, dubins_control.
  assert (E : 1 / kappa * (kappa * l) = l) by (field; lra).
  destruct (Req_EM_T k 0) as [->|N]; [rewrite E; reflexivity|].
  destruct (Req_EM_T k kappa) as [->|N']; [rewrite E; reflexivity|].
  destruct H as [H|[H|H]]; try contradiction. subst. rewrite E. reflexivity.
Qed.

Lemma dubins_min_forward kappa s1 s2 k1 k2 k3 a b c : 0 < kappa ->
  dubins_word kappa k1 k2 k3 b -> 0 <= a -> 0 <= b -> 0 <= c ->
  same_pose (drive_all s1 [mkControl a k1 0; mkControl b k2 0; mkControl c k3 0]) s2 ->
  1 / kappa * dp_length (dubins_path kappa s1 s2) <= a + b + c.
Proof.
  intros K (W1 & W3 & W2) A B C G.
  apply Rmult_le_reg_l with kappa; [assumption|].
  replace (kappa * (1 / kappa * dp_length (dubins_path kappa s1 s2))) with
    (dp_length (dubins_path kappa s1 s2)) by (field; lra).
  replace (kappa * (a + b + c)) with (kappa * a + kappa * b + kappa * c) by ring.
  pose proof (drive_all_total _ _ _ G) as TL. simpl in TL. rewrite !Rabs_pos_eq in TL by assumption.
  unfold dubins_path. destruct (dubins_args kappa s1 s2) as [[d alpha] beta] eqn:E.
  destruct (dubins_args_place _ _ _ _ _ _ K E) as (P1 & P2 & D0 & DD & Ra & Rb).
  set (th := atan2 (st_y s2 - st_y s1) (st_x s2 - st_x s1)) in *.
  assert (kapos : forall x, 0 <= x -> 0 <= kappa * x) by (intros; apply Rmult_le_pos; lra).
  destruct (dubins_cases d alpha beta) as [(_ & _ & ->)|(ND & _ & M)].
  - unfold dp_length; cbn [dp_t dp_p dp_q]. rewrite DD. nra.
  - assert (Z1 : k1 <> 0) by lra. assert (Z3 : k3 <> 0) by lra. assert (KN : kappa <> - kappa) by lra.
    rewrite (control_of kappa k1), (control_of kappa k2), (control_of kappa k3) in G
      by (try assumption; lra).
    pose proof (drive_all_place kappa (st_x s1) (st_y s1) th
      [seg_of kappa k1; seg_of kappa k2; seg_of kappa k3] [kappa * a; kappa * b; kappa * c]
      (0, 0, alpha) s1 ltac:(lra) P1) as F.
    cbn [combine map fst snd] in F.
    assert (R : psim (uword [seg_of kappa k1; seg_of kappa k2; seg_of kappa k3]
       [kappa * a; kappa * b; kappa * c] (0, 0, alpha)) (d, 0, beta)).
    { apply (place_inj kappa (st_x s1) (st_y s1) th); [assumption|].
      eapply psim_trans; [apply psim_sym; exact F|]. exact (psim_trans (pose _) (pose s2) _ G P2). }
    assert (L : seg_of kappa kappa = DUBINS_LEFT).
    { unfold seg_of. destruct (Req_EM_T kappa 0); [lra|]. destruct (Req_EM_T kappa kappa); [reflexivity|lra]. }
    assert (Rt : seg_of kappa (- kappa) = DUBINS_RIGHT).
    { unfold seg_of. destruct (Req_EM_T (- kappa) 0); [lra|]. destruct (Req_EM_T (- kappa) kappa); [lra|reflexivity]. }
    assert (S0 : seg_of kappa 0 = DUBINS_STRAIGHT).
    { unfold seg_of. destruct (Req_EM_T 0 0); [reflexivity|lra]. }
    assert (KK : - - kappa = kappa) by ring.
    destruct W2 as [->|(W13 & -> & MB)].
    + rewrite S0 in R.
      destruct W1 as [->| ->], W3 as [->| ->]; rewrite ?L, ?Rt in R.
      * eapply Rle_trans; [apply (M (dubinsLSL d alpha beta)); simpl; tauto|]. apply LSL_opt; auto.
      * eapply Rle_trans; [apply (M (dubinsLSR d alpha beta)); simpl; tauto|]. apply LSR_opt; auto.
      * eapply Rle_trans; [apply (M (dubinsRSL d alpha beta)); simpl; tauto|]. apply RSL_opt; auto.
      * eapply Rle_trans; [apply (M (dubinsRSR d alpha beta)); simpl; tauto|]. apply RSR_opt; auto.
    + subst k3. destruct W1 as [->| ->]; rewrite ?KK, ?L, ?Rt in R.
      * eapply Rle_trans; [apply (M (dubinsLRL d alpha beta)); simpl; tauto|]. apply LRL_opt; auto.
      * eapply Rle_trans; [apply (M (dubinsRLR d alpha beta)); simpl; tauto|]. apply RLR_opt; auto.
Qed.

Lemma dubins_min kappa (fw : bool) s1 s2 k1 k2 k3 a b c : 0 < kappa ->
  dubins_word kappa k1 k2 k3 (Rabs b) ->
  (if fw then 0 <= a /\ 0 <= b /\ 0 <= c else a <= 0 /\ b <= 0 /\ c <= 0) ->
  same_pose (drive_all s1 [mkControl a k1 0; mkControl b k2 0; mkControl c k3 0]) s2 ->
  dubins_distance kappa fw s1 s2 <= Rabs a + Rabs b + Rabs c.
Proof.
  intros K W S G. unfold dubins_distance. destruct fw; destruct S as (A & B & C).
  - rewrite !Rabs_pos_eq in * by assumption. eapply dubins_min_forward; eassumption.
  - rewrite !Rabs_left1 in * by assumption.
    replace (- a + - b + - c) with (- c + - b + - a) by ring.
    apply dubins_min_forward with (k1 := k3) (k2 := k2) (k3 := k1); try assumption; try lra.
    + destruct W as (W1 & W3 & [W2|(W2 & W4 & W5)]); split; try assumption; split; try assumption; [left; assumption|].
      right. subst. auto.
    + pose proof (drive_all_undo [mkControl a k1 0; mkControl b k2 0; mkControl c k3 0] s1) as U.
      cbn [rev app map] in U. unfold negate_length in U. cbn [ct_delta_s ct_kappa ct_sigma] in U.
      eapply same_pose_trans; [|exact U]. apply drive_all_congr. apply same_pose_sym. assumption.
Qed.

(** ** C15 *)

Lemma atan2_rot x y rho : x <> 0 \/ y <> 0 ->
  ang_eq (atan2 (x * sin rho + y * cos rho) (x * cos rho - y * sin rho)) (atan2 y x + rho).
Proof.
  intros N. pose proof (sqrt_sum_pos x y N) as R0. set (r := sqrt (x * x + y * y)) in *.
  pose proof (atan2_cos x y) as C. pose proof (atan2_sin x y) as S. fold r in C, S.
  apply (angle_of r); [assumption| |].
  - rewrite cos_plus. set (t := atan2 _ _) in *.
    transitivity ((r * cos t) * cos rho - (r * sin t) * sin rho); [ring|].
    rewrite C, S. reflexivity.
  - rewrite sin_plus. set (t := atan2 _ _) in *.
    transitivity ((r * cos t) * sin rho + (r * sin t) * cos rho); [ring|].
    rewrite C, S. reflexivity.
Qed.

Lemma dubins_args_rigid kappa u v rho s1 s2 :
  st_x s1 <> st_x s2 \/ st_y s1 <> st_y s2 ->
  dubins_args kappa (rigid u v rho s1) (rigid u v rho s2) = dubins_args kappa s1 s2.
Proof.
  intros N. unfold dubins_args, rigid; cbn [st_x st_y st_theta].
  set (dx := st_x s2 - st_x s1). set (dy := st_y s2 - st_y s1).
  replace (u + (st_x s2 * cos rho - st_y s2 * sin rho) - (u + (st_x s1 * cos rho - st_y s1 * sin rho)))
    with (dx * cos rho - dy * sin rho) by (unfold dx, dy; ring).
  replace (v + (st_x s2 * sin rho + st_y s2 * cos rho) - (v + (st_x s1 * sin rho + st_y s1 * cos rho)))
    with (dx * sin rho + dy * cos rho) by (unfold dx, dy; ring).
  assert (A := atan2_rot dx dy rho ltac:(unfold dx, dy; lra)).
  set (t := atan2 dy dx) in *. set (t' := atan2 _ _) in *.
  f_equal; [f_equal|].
  - f_equal. f_equal. transitivity ((dx * dx + dy * dy) * (sin rho * sin rho + cos rho * cos rho));
      [ring|rewrite sin2_cos2'; ring].
  - apply twopify_congr. eapply ang_eq_trans; [apply ang_eq_sub; [apply ang_eq_refl|exact A]|].
    apply ang_eq_of_eq. ring.
  - apply twopify_congr. eapply ang_eq_trans; [apply ang_eq_sub; [apply ang_eq_refl|exact A]|].
    apply ang_eq_of_eq. ring.
Qed.

Lemma minus_self x : x - x = 0.
Proof. ring. Qed.

(** Turning both poses about their common position. *)
Lemma mk_eq ty t p q t' p' q' : t = t' -> p = p' -> q = q' -> mkDPath ty t p q = mkDPath ty t' p' q'.
Proof. intros -> -> ->. reflexivity. Qed.

Section Turn.
  Variables alpha beta alpha' beta' rho : R.
  Hypothesis HA : ang_eq alpha' (alpha + rho).
  Hypothesis HB : ang_eq beta' (beta + rho).
  (** The two headings are not equal: *)
  Hypothesis NE : ~ ang_eq alpha beta.

  Lemma cross_eq : cos alpha' * cos beta' + sin alpha' * sin beta' =
    cos alpha * cos beta + sin alpha * sin beta.
  Proof.
    rewrite <- !cos_minus. apply ang_eq_cos.
    eapply ang_eq_trans; [apply ang_eq_sub; [exact HA|exact HB]|]. apply ang_eq_of_eq. ring.
  Qed.

  Lemma cross_lt1 : cos alpha * cos beta + sin alpha * sin beta < 1.
  Proof.
    rewrite <- cos_minus. destruct (Rlt_dec (cos (alpha - beta)) 1) as [|N]; [assumption|].
    exfalso. apply NE. assert (E : cos (alpha - beta) = 1) by (pose proof (COS_bound (alpha - beta)); lra).
    assert (Z : twopify (alpha - beta) = 0).
    { apply cos_0_inv; [apply twopify_range|]. rewrite cos_twopify. assumption. }
    pose proof (twopify_ang (alpha - beta)) as T. rewrite Z in T.
    pose proof (ang_eq_add _ _ _ _ (ang_eq_sym _ _ T) (ang_eq_refl beta)) as G.
    eapply ang_eq_trans; [|eapply ang_eq_trans; [exact G|]]; apply ang_eq_of_eq; ring.
  Qed.

  Lemma sA : sin alpha' = sin alpha * cos rho + cos alpha * sin rho.
  Proof. rewrite (ang_eq_sin _ _ HA). apply sin_plus. Qed.
  Lemma cA : cos alpha' = cos alpha * cos rho - sin alpha * sin rho.
  Proof. rewrite (ang_eq_cos _ _ HA). apply cos_plus. Qed.
  Lemma sB : sin beta' = sin beta * cos rho + cos beta * sin rho.
  Proof. rewrite (ang_eq_sin _ _ HB). apply sin_plus. Qed.
  Lemma cB : cos beta' = cos beta * cos rho - sin beta * sin rho.
  Proof. rewrite (ang_eq_cos _ _ HB). apply cos_plus. Qed.

  Lemma rot_to x y x' y' : x <> 0 \/ y <> 0 -> x' = x * cos rho - y * sin rho ->
    y' = x * sin rho + y * cos rho -> ang_eq (atan2 y' x') (atan2 y x + rho).
  Proof. intros N -> ->. apply atan2_rot. assumption. Qed.

  Lemma tw_rot a b a' b' : ang_eq a' (a + rho) -> ang_eq b' (b + rho) -> twopify (a' - b') = twopify (a - b).
  Proof.
    intros A B. apply twopify_congr.
    eapply ang_eq_trans; [apply ang_eq_sub; [exact A|exact B]|]. apply ang_eq_of_eq. ring.
  Qed.
  Lemma tw_rot' a b a' b' : ang_eq a' (a + rho) -> ang_eq b' (b + rho) -> twopify (- a' + b') = twopify (- a + b).
  Proof.
    intros A B. replace (- a' + b') with (b' - a') by ring. replace (- a + b) with (b - a) by ring.
    apply tw_rot; assumption.
  Qed.

  Lemma diff_nz : sin alpha - sin beta <> 0 \/ cos alpha - cos beta <> 0.
  Proof.
    destruct (Req_EM_T (sin alpha - sin beta) 0) as [S|S]; [|left; assumption].
    right. intros C. apply NE. apply ang_eq_of_cos_sin; lra.
  Qed.

  Lemma LSL_turn : dubinsLSL 0 alpha' beta' = dubinsLSL 0 alpha beta.
  Proof.
    assert (T : tmpLSL 0 alpha' beta' = tmpLSL 0 alpha beta)
      by (unfold tmpLSL; rewrite cross_eq; ring).
    unfold dubinsLSL, solveLSL. rewrite T.
    assert (R : ang_eq (atan2 (cos beta' - cos alpha') (0 + sin alpha' - sin beta'))
                  (atan2 (cos beta - cos alpha) (0 + sin alpha - sin beta) + rho)).
    { apply rot_to; [pose proof diff_nz; lra| |]; rewrite ?sA, ?cA, ?sB, ?cB; ring. }
    rewrite (tw_rot' _ _ _ _ HA R), (tw_rot _ _ _ _ HB R). reflexivity.
  Qed.

  Lemma RSR_turn : dubinsRSR 0 alpha' beta' = dubinsRSR 0 alpha beta.
  Proof.
    assert (T : tmpRSR 0 alpha' beta' = tmpRSR 0 alpha beta)
      by (unfold tmpRSR; rewrite cross_eq; ring).
    unfold dubinsRSR, solveRSR. rewrite T.
    assert (R : ang_eq (atan2 (cos alpha' - cos beta') (0 - sin alpha' + sin beta'))
                  (atan2 (cos alpha - cos beta) (0 - sin alpha + sin beta) + rho)).
    { apply rot_to; [pose proof diff_nz; lra| |]; rewrite ?sA, ?cA, ?sB, ?cB; ring. }
    rewrite (tw_rot _ _ _ _ HA R), (tw_rot' _ _ _ _ HB R). reflexivity.
  Qed.

  Lemma sum_nz : DUBINS_ZERO <= 2 * (cos alpha * cos beta + sin alpha * sin beta) - 2 ->
    sin alpha + sin beta <> 0 \/ cos alpha + cos beta <> 0.
  Proof.
    intros H. destruct (Req_EM_T (sin alpha + sin beta) 0) as [S|S]; [|left; assumption].
    right. intros C. unfold DUBINS_ZERO in H.
    assert (E : cos alpha = - cos beta) by lra. assert (E' : sin alpha = - sin beta) by lra.
    rewrite E, E' in H. pose proof (sin2_cos2' beta). nra.
  Qed.

  Lemma minus_rot a b c : ang_eq a (b + rho) -> ang_eq (a - c) (b - c + rho).
  Proof.
    intros A. eapply ang_eq_trans; [apply ang_eq_sub; [exact A|apply ang_eq_refl]|]. apply ang_eq_of_eq. ring.
  Qed.

  Lemma RSL_turn : dubinsRSL 0 alpha' beta' = dubinsRSL 0 alpha beta.
  Proof.
    assert (T : tmpRSL 0 alpha' beta' = tmpRSL 0 alpha beta)
      by (unfold tmpRSL; rewrite !Rmult_0_l, !Rminus_0_r, cross_eq; ring).
    unfold dubinsRSL, solveRSL. rewrite T.
    destruct (Rle_dec DUBINS_ZERO (tmpRSL 0 alpha beta)) as [G|_]; [|reflexivity].
    assert (R : ang_eq (atan2 (cos alpha' + cos beta') (0 - sin alpha' - sin beta'))
                  (atan2 (cos alpha + cos beta) (0 - sin alpha - sin beta) + rho)).
    { apply rot_to; [| |]; rewrite ?sA, ?cA, ?sB, ?cB; try ring.
      unfold tmpRSL in G. pose proof (sum_nz ltac:(lra)). lra. }
    apply (minus_rot _ _ (atan2 2 (sqrt (Rmax (tmpRSL 0 alpha beta) 0)))) in R.
    rewrite (tw_rot _ _ _ _ HA R), (tw_rot _ _ _ _ HB R). reflexivity.
  Qed.

  Lemma LSR_turn : dubinsLSR 0 alpha' beta' = dubinsLSR 0 alpha beta.
  Proof.
    assert (T : tmpLSR 0 alpha' beta' = tmpLSR 0 alpha beta)
      by (unfold tmpLSR; rewrite !Rmult_0_l, !Rplus_0_r, cross_eq; ring).
    unfold dubinsLSR, solveLSR. rewrite T.
    destruct (Rle_dec DUBINS_ZERO (tmpLSR 0 alpha beta)) as [G|_]; [|reflexivity].
    assert (R : ang_eq (atan2 (- cos alpha' - cos beta') (0 + sin alpha' + sin beta'))
                  (atan2 (- cos alpha - cos beta) (0 + sin alpha + sin beta) + rho)).
    { apply rot_to; [| |]; rewrite ?sA, ?cA, ?sB, ?cB; try ring.
      unfold tmpLSR in G. pose proof (sum_nz ltac:(lra)). lra. }
    apply (minus_rot _ _ (atan2 (-2) (sqrt (Rmax (tmpLSR 0 alpha beta) 0)))) in R.
    rewrite (tw_rot' _ _ _ _ HA R), (tw_rot' _ _ _ _ HB R). reflexivity.
  Qed.

  Lemma RLR_turn : dubinsRLR 0 alpha' beta' = dubinsRLR 0 alpha beta.
  Proof.
    assert (T : tmpRLR 0 alpha' beta' = tmpRLR 0 alpha beta)
      by (unfold tmpRLR; rewrite !Rmult_0_l, cross_eq; ring).
    unfold dubinsRLR, solveRLR. rewrite T.
    assert (R : ang_eq (atan2 (cos alpha' - cos beta') (0 - sin alpha' + sin beta'))
                  (atan2 (cos alpha - cos beta) (0 - sin alpha + sin beta) + rho)).
    { apply rot_to; [pose proof diff_nz; lra| |]; rewrite ?sA, ?cA, ?sB, ?cB; ring. }
    set (p := TWO_PI - acos (tmpRLR 0 alpha beta)). set (th := atan2 (cos alpha - cos beta) _) in *.
    clearbody th. set (th' := atan2 _ _) in *.
    assert (E : twopify (alpha' - th' + 1 / 2 * p) = twopify (alpha - th + 1 / 2 * p)).
    { apply twopify_congr. eapply ang_eq_trans; [apply ang_eq_add; [apply ang_eq_sub; [exact HA|exact R]|apply ang_eq_refl]|].
      apply ang_eq_of_eq. ring. }
    rewrite E. set (t := twopify _).
    assert (E2 : twopify (alpha' - beta' - t + p) = twopify (alpha - beta - t + p)); [|rewrite E2; reflexivity].
    apply twopify_congr. eapply ang_eq_trans; [apply ang_eq_add; [apply ang_eq_sub; [apply ang_eq_sub; [exact HA|exact HB]|apply ang_eq_refl]|apply ang_eq_refl]|].
    apply ang_eq_of_eq. ring.
  Qed.

  Lemma LRL_turn : dubinsLRL 0 alpha' beta' = dubinsLRL 0 alpha beta.
  Proof.
    assert (T : tmpLRL 0 alpha' beta' = tmpLRL 0 alpha beta)
      by (unfold tmpLRL; rewrite !Rmult_0_l, !Rminus_0_r, cross_eq; ring).
    unfold dubinsLRL, solveLRL. rewrite T.
    assert (R : ang_eq (atan2 (- cos alpha' + cos beta') (0 + sin alpha' - sin beta'))
                  (atan2 (- cos alpha + cos beta) (0 + sin alpha - sin beta) + rho)).
    { apply rot_to; [pose proof diff_nz; lra| |]; rewrite ?sA, ?cA, ?sB, ?cB; ring. }
    set (p := TWO_PI - acos (tmpLRL 0 alpha beta)). set (th := atan2 (- cos alpha + cos beta) _) in *.
    clearbody th. set (th' := atan2 _ _) in *.
    assert (E : twopify (- alpha' + th' + 1 / 2 * p) = twopify (- alpha + th + 1 / 2 * p)).
    { apply twopify_congr. eapply ang_eq_trans; [apply ang_eq_add; [apply ang_eq_add; [apply ang_eq_opp; exact HA|exact R]|apply ang_eq_refl]|].
      apply ang_eq_of_eq. ring. }
    rewrite E. set (t := twopify _).
    assert (E2 : twopify (beta' - alpha' - t + p) = twopify (beta - alpha - t + p)); [|rewrite E2; reflexivity].
    apply twopify_congr. eapply ang_eq_trans; [apply ang_eq_add; [apply ang_eq_sub; [apply ang_eq_sub; [exact HB|exact HA]|apply ang_eq_refl]|apply ang_eq_refl]|].
    apply ang_eq_of_eq. ring.
  Qed.
End Turn.

Lemma dubins_rigid kappa u v rho s1 s2 : 0 < kappa ->
  (st_x s1 <> st_x s2 \/ st_y s1 <> st_y s2) \/ ang_eq (st_theta s1) (st_theta s2) \/
  ~ heading_within (1 / 1000000) s1 s2 ->
  dubins_path kappa (rigid u v rho s1) (rigid u v rho s2) = dubins_path kappa s1 s2.
Proof.
  intros K H.
  assert (DEC : (st_x s1 <> st_x s2 \/ st_y s1 <> st_y s2) \/ (st_x s1 = st_x s2 /\ st_y s1 = st_y s2)).
  { destruct (Req_EM_T (st_x s1) (st_x s2)), (Req_EM_T (st_y s1) (st_y s2)); tauto. }
  destruct DEC as [N|[X Y]].
  - unfold dubins_path. rewrite dubins_args_rigid by assumption. reflexivity.
  - assert (H' : ang_eq (st_theta s1) (st_theta s2) \/ ~ heading_within (1 / 1000000) s1 s2) by tauto.
    clear H. unfold dubins_path, dubins_args, rigid; cbn [st_x st_y st_theta].
    rewrite X, Y. rewrite !minus_self.
    rewrite !atan2_00, !Rmult_0_l, !Rplus_0_l, sqrt_0, !Rmult_0_l, !Rminus_0_r.
    set (a := twopify (st_theta s1)). set (b := twopify (st_theta s2)).
    set (a' := twopify (st_theta s1 + rho)). set (b' := twopify (st_theta s2 + rho)).
    destruct H' as [E|N].
    + assert (A : a = b) by (apply twopify_congr; assumption).
      assert (A' : a' = b') by (apply twopify_congr; apply ang_eq_add; [assumption|apply ang_eq_refl]).
      rewrite A, A'. unfold dubins. rewrite !minus_self, Rabs_R0.
      destruct (Rlt_dec 0 DUBINS_EPS); [reflexivity|]. unfold DUBINS_EPS in *. lra.
    + assert (HA : ang_eq a' (a + rho)).
      { eapply ang_eq_trans; [apply twopify_ang|]. apply ang_eq_add; [apply ang_eq_sym; apply twopify_ang|apply ang_eq_refl]. }
      assert (HB : ang_eq b' (b + rho)).
      { eapply ang_eq_trans; [apply twopify_ang|]. apply ang_eq_add; [apply ang_eq_sym; apply twopify_ang|apply ang_eq_refl]. }
      assert (NE : ~ ang_eq a b).
      { intros E. apply N. apply heading_within_eq; [lra|].
        eapply ang_eq_trans; [apply ang_eq_sym; apply twopify_ang|].
        eapply ang_eq_trans; [exact E|apply twopify_ang]. }
      assert (F : forall x y, ang_eq x (st_theta s1 + 0) /\ ang_eq y (st_theta s2 + 0) \/
                    ang_eq x (st_theta s1 + rho) /\ ang_eq y (st_theta s2 + rho) ->
                  ~ Rabs (x - y) < DUBINS_EPS).
      { intros x y G L. apply N. unfold DUBINS_EPS in L.
        destruct G as [[[k1 G1] [k2 G2]]|[[k1 G1] [k2 G2]]]; exists (k2 - k1)%Z; rewrite minus_IZR;
        match goal with |- Rabs ?z <= _ => replace z with (x - y) by (rewrite G1, G2; ring) end; lra. }
      unfold dubins.
      destruct (Rlt_dec (Rabs (a - b)) DUBINS_EPS) as [L|_].
      { exfalso. revert L. apply F. left. rewrite !Rplus_0_r. split; apply twopify_ang. }
      destruct (Rlt_dec (Rabs (a' - b')) DUBINS_EPS) as [L|_].
      { exfalso. revert L. apply F. right. split; apply twopify_ang. }
      rewrite (LSL_turn _ _ _ _ _ HA HB NE), (RSR_turn _ _ _ _ _ HA HB NE), (RSL_turn _ _ _ _ _ HA HB),
        (LSR_turn _ _ _ _ _ HA HB), (RLR_turn _ _ _ _ _ HA HB NE), (LRL_turn _ _ _ _ _ HA HB NE).
      reflexivity.
Qed.

(** * The Dubins words in double precision: the terms under the square roots and the directions *)
From Coq Require Import Reals ZArith List Lra Lia Psatz.
From Flocq Require Import Core.
From Coquelicot Require Import Rcomplements.
From Verif Require Import Base ModelUtil ModelDubins ModelFloat SpecArc SpecDubins64 Num JacProofs FloatProofs StepProofs ArcProofs Near ModelDubins64.
Open Scope R_scope.

(** Bounds for the errors: [D = 1 + d]. *)
Lemma sizes d : 0 <= d <= 30000 -> let D := 1 + d in let u := u64 in
  0 < u /\ u <= 1 / 10 ^ 15 /\ 1 <= D /\ D <= 30001 /\ 0 <= u * D /\ 0 <= u * D * D /\ u <= u * D /\ u * D <= u * D * D /\ D <= D * D /\ u * D <= D / 10 ^ 15 /\ u * D * D <= D * D / 10 ^ 15 /\
  u * D * D <= D / 10 ^ 10 /\ u * u <= u / 10 ^ 15 /\ u * D <= 1 / 10 ^ 10.
Proof.
  intros [d0 d1] D u. assert (U : 0 < u) by apply u64_pos. assert (U' : u <= 1 / 10 ^ 15) by (unfold u, u64; lra).
  assert (D1 : 1 <= D) by (unfold D; lra). assert (D2 : D <= 30001) by (unfold D; lra).
  assert (A1 : u * 1 <= u * D) by (apply Rmult_le_compat_l; lra). assert (A2 : u * D * 1 <= u * D * D) by (apply Rmult_le_compat_l; lra).
  assert (A3 : D * 1 <= D * D) by (apply Rmult_le_compat_l; lra). assert (A4 : u * D <= 1 / 10 ^ 15 * D) by (apply Rmult_le_compat_r; lra).
  assert (A5 : u * D * D <= 1 / 10 ^ 15 * D * D) by (apply Rmult_le_compat_r; lra). assert (A6 : u * u <= u * (1 / 10 ^ 15)) by (apply Rmult_le_compat_l; lra).
  assert (A7 : D * D <= D * 30001) by (apply Rmult_le_compat_l; lra).
  repeat split; try lra.
Qed.

Section Words.
  Variables sin64 cos64 acos64 : R -> R.
  Variable atan264 : R -> R -> R.
  Hypothesis LIB : accurate_library sin64 cos64 acos64 atan264.
  Variables d al be : R.
  Hypothesis Fd : binary64 d.
  Hypothesis Fal : binary64 al.
  Hypothesis Fbe : binary64 be.
  Hypothesis d0 : 0 <= d <= 30000.

  Notation u := u64.
  Notation D := (1 + d).
  Notation sa := (sin64 al). Notation sb := (sin64 be). Notation ca := (cos64 al). Notation cb := (cos64 be).

  Ltac sz := let S := fresh in pose proof (sizes d d0) as S; cbv zeta in S; decompose [and] S; clear S.

  Lemma sin_near a : binary64 a -> near (2 * u) (sin64 a) (sin a).
  Proof. intros F. destruct LIB as (S & _). destruct (S a F) as (_ & E). unfold near. eapply Rle_trans; [exact E|]. unfold u64. lra. Qed.
  Lemma cos_near a : binary64 a -> near (2 * u) (cos64 a) (cos a).
  Proof. intros F. destruct LIB as (_ & S & _). destruct (S a F) as (_ & E). unfold near. eapply Rle_trans; [exact E|]. unfold u64. lra. Qed.
  Lemma abs_sin1 a : Rabs (sin a) <= 1. Proof. apply Rabs_le_between. apply SIN_bound. Qed.
  Lemma abs_cos1 a : Rabs (cos a) <= 1. Proof. apply Rabs_le_between. apply COS_bound. Qed.
  Lemma abs_sum2 a b A B : Rabs a <= A -> Rabs b <= B -> Rabs (a + b) <= A + B.
  Proof. intros. eapply Rle_trans; [apply Rabs_triang|lra]. Qed.
  Lemma abs_dif2 a b A B : Rabs a <= A -> Rabs b <= B -> Rabs (a - b) <= A + B.
  Proof. intros. unfold Rminus. apply abs_sum2; [|rewrite Rabs_Ropp]; assumption. Qed.

  Lemma dot_near : near (12 * u) (dot64 sin64 cos64 al be) (cos (al - be)).
  Proof.
    sz. rewrite cos_minus. unfold dot64.
    apply (near_add (51 / 10 * u) (51 / 10 * u) 1); try lra; [| |rewrite <- cos_minus; apply abs_cos1].
    - apply (near_mul (2 * u) (2 * u) 1 1 1); try apply cos_near; try apply abs_cos1; try assumption; try lra.
    - apply (near_mul (2 * u) (2 * u) 1 1 1); try apply sin_near; try apply abs_sin1; try assumption; try lra.
  Qed.
  Lemma dif_near : near (7 * u) (rnd (sa - sb)) (sin al - sin be).
  Proof. sz. apply (near_sub (2 * u) (2 * u) 2); try apply sin_near; try assumption; try lra. replace 2 with (1 + 1) by ring. apply abs_dif2; apply abs_sin1. Qed.
  Lemma dif_near' : near (7 * u) (rnd (sb - sa)) (sin be - sin al).
  Proof. sz. apply (near_sub (2 * u) (2 * u) 2); try apply sin_near; try assumption; try lra. replace 2 with (1 + 1) by ring. apply abs_dif2; apply abs_sin1. Qed.
  Lemma sum_near : near (7 * u) (rnd (sa + sb)) (sin al + sin be).
  Proof. sz. apply (near_add (2 * u) (2 * u) 2); try apply sin_near; try assumption; try lra. replace 2 with (1 + 1) by ring. apply abs_sum2; apply abs_sin1. Qed.
  Lemma prod_near v w : near (7 * u) v w -> Rabs w <= 2 -> near (10 * (u * D)) (rnd (d * v)) (d * w) /\ Rabs (d * w) <= 2 * D.
  Proof.
    sz. intros N B. split.
    - apply (near_mul 0 (7 * u) D 2 (2 * D)); [apply near_refl|exact N|apply Rabs_le_between; lra|exact B|lra|lra|lra|lra].
    - rewrite Rabs_mult, Rmult_comm. apply Rmult_le_compat; try apply Rabs_pos; [exact B|apply Rabs_le_between; lra].
  Qed.
  Lemma twice_near v w : near (26 * (u * D)) v w -> Rabs w <= 3 * D -> near (59 * (u * D)) (rnd (2 * v)) (2 * w) /\ Rabs (2 * w) <= 6 * D.
  Proof.
    sz. intros N B. split.
    - apply (near_mul 0 (26 * (u * D)) 2 (3 * D) (6 * D)); [apply near_refl|exact N|apply Rabs_le_between; lra|exact B|lra|lra|lra|lra].
    - rewrite Rabs_mult, (Rabs_pos_eq 2) by lra. lra.
  Qed.
  Lemma inner_minus v w : near (7 * u) v w -> Rabs w <= 2 ->
    near (59 * (u * D)) (rnd (2 * rnd (dot64 sin64 cos64 al be - rnd (d * v)))) (2 * (cos (al - be) - d * w)) /\ Rabs (2 * (cos (al - be) - d * w)) <= 6 * D.
  Proof.
    sz. intros N B. destruct (prod_near v w N B) as (P & Q). assert (R3 : Rabs (cos (al - be) - d * w) <= 3 * D) by (eapply Rle_trans; [apply (abs_dif2 _ _ 1 (2 * D)); [apply abs_cos1|exact Q]|lra]).
    apply twice_near; [|exact R3]. apply (near_sub (12 * u) (10 * (u * D)) (3 * D)); [apply dot_near|exact P|exact R3|lra|lra|lra].
  Qed.
  Lemma inner_plus v w : near (7 * u) v w -> Rabs w <= 2 ->
    near (59 * (u * D)) (rnd (2 * rnd (dot64 sin64 cos64 al be + rnd (d * v)))) (2 * (cos (al - be) + d * w)) /\ Rabs (2 * (cos (al - be) + d * w)) <= 6 * D.
  Proof.
    sz. intros N B. destruct (prod_near v w N B) as (P & Q). assert (R3 : Rabs (cos (al - be) + d * w) <= 3 * D) by (eapply Rle_trans; [apply (abs_sum2 _ _ 1 (2 * D)); [apply abs_cos1|exact Q]|lra]).
    apply twice_near; [|exact R3]. apply (near_add (12 * u) (10 * (u * D)) (3 * D)); [apply dot_near|exact P|exact R3|lra|lra|lra].
  Qed.
  Lemma sq_near : near (101 / 100 * (u * D * D)) (rnd (d * d)) (d * d) /\ Rabs (d * d) <= D * D.
  Proof.
    sz. split; [apply (near_mul 0 0 D D (D * D)); try apply near_refl; try (apply Rabs_le_between; lra); lra|].
    rewrite Rabs_pos_eq by (apply Rmult_le_pos; lra). apply Rmult_le_compat; lra.
  Qed.
  Lemma head_near c : Rabs c <= 2 -> near (42 / 10 * (u * D * D)) (rnd (c + rnd (d * d))) (c + d * d) /\ Rabs (c + d * d) <= 3 * (D * D).
  Proof.
    sz. intros C. destruct sq_near as (N & B). assert (B3 : Rabs (c + d * d) <= 3 * (D * D)) by (eapply Rle_trans; [apply (abs_sum2 _ _ 2 (D * D) C B)|lra]).
    split; [|exact B3]. apply (near_add 0 (101 / 100 * (u * D * D)) (3 * (D * D))); [apply near_refl|exact N|exact B3|lra|lra|lra].
  Qed.
  Lemma head6_near : near (82 / 10 * (u * D * D)) (rnd (6 - rnd (d * d))) (6 - d * d) /\ Rabs (6 - d * d) <= 7 * (D * D).
  Proof.
    sz. destruct sq_near as (N & B). assert (C : Rabs 6 <= 6) by (apply Rabs_le_between; lra). assert (B3 : Rabs (6 - d * d) <= 7 * (D * D)) by (eapply Rle_trans; [apply (abs_dif2 _ _ 6 (D * D) C B)|lra]).
    split; [|exact B3]. apply (near_sub 0 (101 / 100 * (u * D * D)) (7 * (D * D))); [apply near_refl|exact N|exact B3|lra|lra|lra].
  Qed.

  (** The terms. *)
  Notation cW := (100 * (u * D * D)).
  Lemma abs_dif_sin : Rabs (sin al - sin be) <= 2. Proof. replace 2 with (1 + 1) by ring. apply abs_dif2; apply abs_sin1. Qed.
  Lemma abs_dif_sin' : Rabs (sin be - sin al) <= 2. Proof. replace 2 with (1 + 1) by ring. apply abs_dif2; apply abs_sin1. Qed.
  Lemma abs_sum_sin : Rabs (sin al + sin be) <= 2. Proof. replace 2 with (1 + 1) by ring. apply abs_sum2; apply abs_sin1. Qed.
  Lemma abs2 : Rabs 2 <= 2. Proof. apply Rabs_le_between; lra. Qed.
  Lemma absm2 : Rabs (-2) <= 2. Proof. apply Rabs_le_between; lra. Qed.

  Lemma join_minus a a' b b' : near (42 / 10 * (u * D * D)) a a' -> Rabs a' <= 3 * (D * D) -> near (59 * (u * D)) b b' -> Rabs b' <= 6 * D -> near cW (rnd (a - b)) (a' - b').
  Proof.
    sz. intros A A' B B'. apply (near_sub (42 / 10 * (u * D * D)) (59 * (u * D)) (9 * (D * D))); [exact A|exact B| |lra|lra|lra].
    eapply Rle_trans; [apply (abs_dif2 _ _ _ _ A' B')|lra].
  Qed.
  Lemma join_plus a a' b b' : near (42 / 10 * (u * D * D)) a a' -> Rabs a' <= 3 * (D * D) -> near (59 * (u * D)) b b' -> Rabs b' <= 6 * D -> near cW (rnd (a + b)) (a' + b').
  Proof. intros A A' B B'. replace (a + b) with (a - - b) by ring. replace (a' + b') with (a' - - b') by ring. apply join_minus; [exact A|exact A'|apply near_opp; exact B|rewrite Rabs_Ropp; exact B']. Qed.
  Lemma join_eighth a a' b b' : near (82 / 10 * (u * D * D)) a a' -> Rabs a' <= 7 * (D * D) -> near (59 * (u * D)) b b' -> Rabs b' <= 6 * D ->
    near (100 / 8 * (u * D * D)) (rnd (125 / 1000 * rnd (a + b))) (1 / 8 * (a' + b')).
  Proof.
    sz. intros A A' B B'. assert (M : Rabs (a' + b') <= 13 * (D * D)) by (eapply Rle_trans; [apply (abs_sum2 _ _ _ _ A' B')|lra]).
    assert (N : near (805 / 10 * (u * D * D)) (rnd (a + b)) (a' + b')) by (apply (near_add (82 / 10 * (u * D * D)) (59 * (u * D)) (13 * (D * D))); [exact A|exact B|exact M|lra|lra|lra]).
    replace (125 / 1000) with (1 / 8) by field.
    apply (near_mul 0 (805 / 10 * (u * D * D)) (1 / 8) (13 * (D * D)) (13 / 8 * (D * D))); [apply near_refl|exact N|apply Rabs_le_between; lra|exact M|lra|lra|lra|lra].
  Qed.

  Lemma LSL_near : near cW (tmpLSL64 sin64 cos64 d al be) ((d + sin al - sin be) ^ 2 + (cos be - cos al) ^ 2).
  Proof.
    replace ((d + sin al - sin be) ^ 2 + (cos be - cos al) ^ 2) with ((2 + d * d) - 2 * (cos (al - be) - d * (sin al - sin be))) by (rewrite cos_minus; pose proof (sin2_cos2' al); pose proof (sin2_cos2' be); lra).
    unfold tmpLSL64. cbv zeta. destruct (inner_minus _ _ dif_near abs_dif_sin). destruct (head_near 2 abs2). apply join_minus; assumption.
  Qed.
  Lemma RSR_near : near cW (tmpRSR64 sin64 cos64 d al be) ((d - sin al + sin be) ^ 2 + (cos al - cos be) ^ 2).
  Proof.
    replace ((d - sin al + sin be) ^ 2 + (cos al - cos be) ^ 2) with ((2 + d * d) - 2 * (cos (al - be) - d * (sin be - sin al))) by (rewrite cos_minus; pose proof (sin2_cos2' al); pose proof (sin2_cos2' be); lra).
    unfold tmpRSR64. cbv zeta. destruct (inner_minus _ _ dif_near' abs_dif_sin'). destruct (head_near 2 abs2). apply join_minus; assumption.
  Qed.
  Lemma RSL_near : near cW (tmpRSL64 sin64 cos64 d al be) ((d - sin al - sin be) ^ 2 + (cos al + cos be) ^ 2 - 4).
  Proof.
    replace ((d - sin al - sin be) ^ 2 + (cos al + cos be) ^ 2 - 4) with ((-2 + d * d) + 2 * (cos (al - be) - d * (sin al + sin be))) by (rewrite cos_minus; pose proof (sin2_cos2' al); pose proof (sin2_cos2' be); lra).
    unfold tmpRSL64. cbv zeta. destruct (inner_minus _ _ sum_near abs_sum_sin). destruct (head_near (-2) absm2). replace (rnd (d * d) - 2) with (-2 + rnd (d * d)) by ring. apply join_plus; assumption.
  Qed.
  Lemma LSR_near : near cW (tmpLSR64 sin64 cos64 d al be) ((d + sin al + sin be) ^ 2 + (- cos al - cos be) ^ 2 - 4).
  Proof.
    replace ((d + sin al + sin be) ^ 2 + (- cos al - cos be) ^ 2 - 4) with ((-2 + d * d) + 2 * (cos (al - be) + d * (sin al + sin be))) by (rewrite cos_minus; pose proof (sin2_cos2' al); pose proof (sin2_cos2' be); lra).
    unfold tmpLSR64. cbv zeta. destruct (inner_plus _ _ sum_near abs_sum_sin). destruct (head_near (-2) absm2). apply join_plus; assumption.
  Qed.
  Lemma RLR_near : near (100 / 8 * (u * D * D)) (tmpRLR64 sin64 cos64 d al be) (1 - ((d - sin al + sin be) ^ 2 + (cos al - cos be) ^ 2) / 8).
  Proof.
    replace (1 - ((d - sin al + sin be) ^ 2 + (cos al - cos be) ^ 2) / 8) with (1 / 8 * ((6 - d * d) + 2 * (cos (al - be) + d * (sin al - sin be)))) by (rewrite cos_minus; pose proof (sin2_cos2' al); pose proof (sin2_cos2' be); lra).
    unfold tmpRLR64. cbv zeta. destruct (inner_plus _ _ dif_near abs_dif_sin). destruct head6_near. apply join_eighth; assumption.
  Qed.
  Lemma LRL_near : near (100 / 8 * (u * D * D)) (tmpLRL64 sin64 cos64 d al be) (1 - ((d + sin al - sin be) ^ 2 + (cos be - cos al) ^ 2) / 8).
  Proof.
    replace (1 - ((d + sin al - sin be) ^ 2 + (cos be - cos al) ^ 2) / 8) with (1 / 8 * ((6 - d * d) + 2 * (cos (al - be) - d * (sin al - sin be)))) by (rewrite cos_minus; pose proof (sin2_cos2' al); pose proof (sin2_cos2' be); lra).
    unfold tmpLRL64. cbv zeta. destruct (inner_minus _ _ dif_near abs_dif_sin). destruct head6_near. apply join_eighth; assumption.
  Qed.

  (** The direction vectors; [s], [s'] are signs. *)
  Notation eX := (1 / 10 ^ 9).
  Lemma X_pp : near eX (rnd (rnd (d + sa) + sb)) (d + sin al + sin be).
  Proof.
    sz. assert (A : Rabs (d + sin al) <= 2 * D) by (eapply Rle_trans; [apply (abs_sum2 _ _ d 1); [apply Rabs_le_between; lra|apply abs_sin1]|lra]).
    apply (near_add (5 * (u * D)) (2 * u) (3 * D)); [|apply sin_near; assumption| |lra|lra|lra].
    - apply (near_add 0 (2 * u) (2 * D)); [apply near_refl|apply sin_near; assumption|exact A|lra|lra|lra].
    - eapply Rle_trans; [apply (abs_sum2 _ _ _ _ A (abs_sin1 be))|lra].
  Qed.
  Lemma X_pm : near eX (rnd (rnd (d + sa) - sb)) (d + sin al - sin be).
  Proof.
    sz. assert (A : Rabs (d + sin al) <= 2 * D) by (eapply Rle_trans; [apply (abs_sum2 _ _ d 1); [apply Rabs_le_between; lra|apply abs_sin1]|lra]).
    apply (near_sub (5 * (u * D)) (2 * u) (3 * D)); [|apply sin_near; assumption| |lra|lra|lra].
    - apply (near_add 0 (2 * u) (2 * D)); [apply near_refl|apply sin_near; assumption|exact A|lra|lra|lra].
    - eapply Rle_trans; [apply (abs_dif2 _ _ _ _ A (abs_sin1 be))|lra].
  Qed.
  Lemma X_mp : near eX (rnd (rnd (d - sa) + sb)) (d - sin al + sin be).
  Proof.
    sz. assert (A : Rabs (d - sin al) <= 2 * D) by (eapply Rle_trans; [apply (abs_dif2 _ _ d 1); [apply Rabs_le_between; lra|apply abs_sin1]|lra]).
    apply (near_add (5 * (u * D)) (2 * u) (3 * D)); [|apply sin_near; assumption| |lra|lra|lra].
    - apply (near_sub 0 (2 * u) (2 * D)); [apply near_refl|apply sin_near; assumption|exact A|lra|lra|lra].
    - eapply Rle_trans; [apply (abs_sum2 _ _ _ _ A (abs_sin1 be))|lra].
  Qed.
  Lemma X_mm : near eX (rnd (rnd (d - sa) - sb)) (d - sin al - sin be).
  Proof.
    sz. assert (A : Rabs (d - sin al) <= 2 * D) by (eapply Rle_trans; [apply (abs_dif2 _ _ d 1); [apply Rabs_le_between; lra|apply abs_sin1]|lra]).
    apply (near_sub (5 * (u * D)) (2 * u) (3 * D)); [|apply sin_near; assumption| |lra|lra|lra].
    - apply (near_sub 0 (2 * u) (2 * D)); [apply near_refl|apply sin_near; assumption|exact A|lra|lra|lra].
    - eapply Rle_trans; [apply (abs_dif2 _ _ _ _ A (abs_sin1 be))|lra].
  Qed.
  Lemma Y_gen a b a' b' : near (2 * u) a a' -> near (2 * u) b b' -> Rabs a' <= 1 -> Rabs b' <= 1 -> near eX (rnd (a - b)) (a' - b').
  Proof. sz. intros A B A' B'. apply (near_sub (2 * u) (2 * u) 2); [exact A|exact B| |lra|lra|lra]. replace 2 with (1 + 1) by ring. apply abs_dif2; assumption. Qed.
  Lemma Y_dif : near eX (rnd (ca - cb)) (cos al - cos be).
  Proof. apply Y_gen; try apply cos_near; try apply abs_cos1; assumption. Qed.
  Lemma Y_dif' : near eX (rnd (cb - ca)) (cos be - cos al).
  Proof. apply Y_gen; try apply cos_near; try apply abs_cos1; assumption. Qed.
  Lemma Y_sum : near eX (rnd (ca + cb)) (cos al + cos be).
  Proof. replace (ca + cb) with (ca - - cb) by ring. replace (cos al + cos be) with (cos al - - cos be) by ring. apply Y_gen; try apply near_opp; try apply cos_near; rewrite ?Rabs_Ropp; try apply abs_cos1; assumption. Qed.
  Lemma Y_neg : near eX (rnd (- ca - cb)) (- cos al - cos be).
  Proof. apply Y_gen; try apply near_opp; try apply cos_near; rewrite ?Rabs_Ropp; try apply abs_cos1; assumption. Qed.
End Words.

(** * Steps in double precision: the end of the path *)
From Coq Require Import Reals ZArith List Lra Lia Psatz.
From Flocq Require Import Core.
From Verif Require Import Base ModelUtil SpecPath Num DubinsProofs DubinsPlan DubinsOpt ModelFloat ModelStep FloatProofs StepProofs.
Import ListNotations.
Open Scope R_scope.

Lemma drive_join q k a b : same_pose (drive (drive q (mkControl a k 0)) (mkControl b k 0)) (drive q (mkControl (a + b) k 0)).
Proof.
  unfold drive, same_pose; cbn [ct_delta_s ct_kappa]. destruct (Req_EM_T k 0) as [K|K]; cbn [st_x st_y st_theta].
  - repeat split; try ring. apply ang_eq_refl.
  - replace (st_theta q + k * a + k * b) with (st_theta q + k * (a + b)) by ring.
    repeat split; try (field; assumption). apply ang_eq_refl.
Qed.
Lemma drive_join_theta q k a b : st_theta (drive (drive q (mkControl a k 0)) (mkControl b k 0)) = st_theta (drive q (mkControl (a + b) k 0)).
Proof. unfold drive; cbn [ct_delta_s ct_kappa]. destruct (Req_EM_T k 0); cbn [st_theta]; ring. Qed.

Definition exact_pose (a b : State) : Prop := st_x a = st_x b /\ st_y a = st_y b /\ st_theta a = st_theta b.

Lemma drive_exact a b c : exact_pose a b -> exact_pose (drive a c) (drive b c).
Proof. intros (X & Y & T). unfold drive, exact_pose. destruct (Req_EM_T _ _); cbn [st_x st_y st_theta]; rewrite X, Y, T; auto. Qed.
Lemma drive_all_exact cs : forall a b, exact_pose a b -> exact_pose (drive_all a cs) (drive_all b cs).
Proof. induction cs as [|c cs IH]; intros a b E; [exact E|]. apply IH. apply drive_exact. exact E. Qed.
Lemma exact_trans a b c : exact_pose a b -> exact_pose b c -> exact_pose a c.
Proof. unfold exact_pose. intros (A & B & C) (D & E & F). repeat split; congruence. Qed.

Lemma drive_steps k e l : forall q, l <> [] ->
  exact_pose (drive_all q (map (fun a => mkControl (e * a) k 0) l)) (drive q (mkControl (e * sum l) k 0)).
Proof.
  induction l as [|a [|b l] IH]; intros q N; [congruence| |].
  - unfold sum; cbn [map fold_right]. rewrite Rplus_0_r. split; [reflexivity|]. split; reflexivity.
  - cbn [map]. change (drive_all q (?c :: ?r)) with (drive_all (drive q c) r).
    eapply exact_trans; [apply (IH (drive q (mkControl (e * a) k 0))); discriminate|].
    destruct (drive_join q k (e * a) (e * sum (b :: l))) as (X & Y & _).
    pose proof (drive_join_theta q k (e * a) (e * sum (b :: l))) as T.
    replace (e * a + e * sum (b :: l)) with (e * sum (a :: b :: l)) in X, Y, T by (unfold sum; cbn [fold_right]; ring).
    repeat split; assumption.
Qed.

Lemma drive_close q k a b : pos_dist (drive q (mkControl a k 0)) (drive q (mkControl b k 0)) <= Rabs (a - b) /\
  st_theta (drive q (mkControl a k 0)) - st_theta (drive q (mkControl b k 0)) = k * (a - b).
Proof.
  split.
  - pose proof (drive_dist (drive q (mkControl b k 0)) (mkControl (a - b) k 0)) as D. cbn [ct_delta_s] in D.
    destruct (drive_join q k b (a - b)) as (X & Y & _). replace (b + (a - b)) with a in X, Y by ring.
    unfold pos_dist in *. rewrite X, Y in D. eapply Rle_trans; [|exact D]. apply Req_le. f_equal. ring.
  - unfold drive; cbn [ct_delta_s ct_kappa]. destruct (Req_EM_T k 0) as [->|]; cbn [st_theta]; ring.
Qed.

Lemma steps_end q k e L d : binary64 L -> binary64 d -> 0 < L -> 0 < d -> e = 1 \/ e = -1 ->
  let l := integration_steps64 L d in l <> [] ->
  let bound := (INR (length l) + 1) * ((L + d) / 2 ^ 50) in
  let p := drive_all q (map (fun a => mkControl (e * a) k 0) l) in
  let p' := drive q (mkControl (e * L) k 0) in
  pos_dist p p' <= bound /\ Rabs (st_theta p - st_theta p') <= Rabs k * bound.
Proof.
  intros FL FD L0 D0 E l N bound p p'.
  pose proof (steps_sum L d FL FD ltac:(lra) D0) as S. fold l bound in S.
  destruct (drive_steps k e l q N) as (X & Y & T). fold p in X, Y, T.
  destruct (drive_close q k (e * sum l) (e * L)) as [P H]. fold p' in P, H.
  assert (A : Rabs (e * sum l - e * L) <= bound).
  { replace (e * sum l - e * L) with (e * (sum l - L)) by ring. rewrite Rabs_mult.
    replace (Rabs e) with 1 by (destruct E as [-> | ->]; [rewrite Rabs_R1|rewrite Rabs_left]; lra). lra. }
  split.
  - unfold pos_dist in *. rewrite X, Y. lra.
  - rewrite T, H, Rabs_mult. apply Rmult_le_compat_l; [apply Rabs_pos|assumption].
Qed.

Lemma steps_count L d : binary64 L -> binary64 d -> 0 <= L -> 0 < d ->
  L / d * (1 - / 2 ^ 53) - / 2 ^ 90 <= INR (length (integration_steps64 L d)) < L / d * (1 + / 2 ^ 53) + / 2 ^ 90 + 1.
Proof.
  intros FL FD L0 D0. unfold integration_steps64. rewrite steps_length.
  pose proof (ratio0 L d L0 D0) as R0. pose proof (rnd_err (L / d)) as E. pose proof tiny as T.
  assert (Q : 0 <= L / d) by (apply Rcomplements.Rdiv_le_0_compat; lra).
  rewrite (Rabs_pos_eq (L / d)) in E by assumption.
  pose proof (Zceil_ub (rnd (L / d))) as C. pose proof (Zceil_lb (rnd (L / d))) as C'. set (n := Zceil (rnd (L / d))) in *.
  assert (NN : (0 <= n)%Z) by (apply le_IZR; lra).
  rewrite INR_IZR_INZ, Z2Nat.id by assumption. apply Rcomplements.Rabs_le_between in E. lra.
Qed.

Lemma steps_range L d a : binary64 L -> binary64 d -> 0 <= L -> 0 < d -> In a (integration_steps64 L d) ->
  - ((L + d) / 2 ^ 51) <= a <= d.
Proof.
  intros FL FD L0 D0 I. unfold integration_steps64 in I.
  pose proof (steps_all L d FL FD L0 D0 (Z.to_nat (Zceil (rnd (L / d)))) 0 fmt_0 ltac:(lra)) as A.
  rewrite Forall_forall in A. specialize (A a I). unfold u64 in A. lra.
Qed.

Lemma steps_negative : exists L d, binary64 L /\ binary64 d /\ 0 < d < L /\ L < 5 /\
  exists a, In a (integration_steps64 L d) /\ a < 0.
Proof.
  exists L49, d98. split; [apply L49_fmt|]. split; [apply d98_fmt|].
  unfold L49 at 1 2, d98 at 1 2. rewrite b50, b53. split; [lra|]. split; [lra|].
  exists (- bpow radix2 (-51)). rewrite steps_98. split; [simpl; tauto|]. pose proof (bpow_gt_0 radix2 (-51)). lra.
Qed.

Lemma steps_case : binary64 L49 /\ binary64 d98 /\ 0 < L49 /\ 0 < d98 /\ integration_steps64 L49 d98 <> [] /\
  length (integration_steps64 L49 d98) = 6%nat.
Proof.
  rewrite steps_98. split; [apply L49_fmt|]. split; [apply d98_fmt|]. unfold L49, d98. rewrite b50, b53.
  split; [lra|]. split; [lra|]. split; [discriminate|reflexivity].
Qed.

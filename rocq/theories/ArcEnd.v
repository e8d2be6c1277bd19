(** * Paths of integrate in double precision: the end of the path and usual sizes *)
From Coq Require Import Reals ZArith List Lra Lia Psatz.
From Flocq Require Import Core.
From Coquelicot Require Import Rcomplements.
From Verif Require Import Base ModelUtil SpecPath Num ModelIntegrate ModelFloat ModelStep ModelArc SpecArc FloatProofs StepProofs StepEnd ArcProofs ArcPath.
Import ListNotations.
Open Scope R_scope.

Lemma total_length_nonneg cs : 0 <= total_length cs.
Proof. induction cs as [|c cs IH]; unfold total_length in *; cbn [fold_right]; [lra|]. pose proof (Rabs_pos (ct_delta_s c)). lra. Qed.

Lemma steps_ok K r disc cs : binary64 disc -> 0 < disc -> 0 <= K -> K * disc <= 100 -> Forall (double_control K r) cs -> total_length cs <= 2 ^ 50 * disc ->
  Forall (okp K r) (steps_of disc cs).
Proof.
  intros FI D0 K0 KD F. induction F as [|c cs DC F IH]; intros TL; [constructor|].
  change (total_length (c :: cs)) with (Rabs (ct_delta_s c) + total_length cs) in TL. pose proof (total_length_nonneg cs) as T0. pose proof (Rabs_pos (ct_delta_s c)) as L0.
  change (steps_of disc (c :: cs)) with (map (pair c) (integration_steps64 (Rabs (ct_delta_s c)) disc) ++ steps_of disc cs).
  apply Forall_app. split; [|apply IH; lra]. destruct DC as (FD & FK & KK). pose proof (fmt_abs _ FD) as FL.
  apply Forall_forall. intros p I. apply in_map_iff in I. destruct I as (h & <- & I). unfold okp; cbn [fst snd]. split; [split; [|split]; assumption|].
  split.
  - pose proof (steps_fmt (Z.to_nat (Zceil (rnd (Rabs (ct_delta_s c) / disc)))) (Rabs (ct_delta_s c)) disc 0 FI) as A. rewrite Forall_forall in A. exact (A h I).
  - pose proof (steps_range _ disc h FL FI L0 D0 I) as B. assert (Rabs h <= disc).
    { apply Rabs_le_between. split; [|lra]. assert ((Rabs (ct_delta_s c) + disc) / 2 ^ 51 <= disc); [|lra]. apply Rle_div_l; [lra|]. lra. }
    eapply Rle_trans; [|exact KD]. apply Rmult_le_compat_l; assumption.
Qed.

Section Path.
  Variables sin64 cos64 : R -> R.
  Hypothesis SIN : accurate64 sin sin64.
  Hypothesis COS : accurate64 cos cos64.
  Variables m K r disc : R.
  Variable s : State.
  Variable cs : list Control.
  Hypotheses (DS : double_state s) (MX : Rabs (st_x s) <= m) (MY : Rabs (st_y s) <= m) (DC : Forall (double_control K r) cs)
    (FI : binary64 disc) (D0 : 0 < disc) (K0 : 0 <= K) (K6 : K <= 10 ^ 6) (R0 : 0 <= r) (KD : K * disc <= 100) (TL : total_length cs <= 2 ^ 50 * disc).
  Let n := INR (length (steps_of disc cs)).
  Let w := total_length cs + slack disc cs.

  Lemma path_within : round_drift m K r n w <= 1 ->
    Forall2 (within (round_drift m K r n w) (round_turn K n w)) (integrate64 sin64 cos64 disc s cs) (exact_path disc s cs).
  Proof.
    intros D1. assert (M0 : 0 <= m) by (pose proof (Rabs_pos (st_x s)); lra).
    apply (integrate_within sin64 cos64 SIN COS K r K6 m M0 R0 K0 _ _ n w (Rle_refl _) (Rle_refl _) D1 disc cs 0 0); try lra.
    - split; [exact DS|]. split; [|lra]. split; [|split]; [| |exists 0%Z; rewrite Rmult_0_r, Rminus_0_r]; rewrite Rminus_eq_0, Rabs_R0; unfold round_drift, round_turn; lra.
    - apply steps_ok; assumption.
    - fold n. lra.
    - pose proof (driven_le K r disc cs FI D0 DC). fold w in H. lra.
  Qed.

  Lemma last_within E H : forall l l' a b, Forall2 (within E H) l l' -> within E H a b -> within E H (last l a) (last l' b).
  Proof. intros l l' a b F. revert a b. induction F as [|x y l l' W F IH]; intros a b AB; [exact AB|]. specialize (IH a b AB). destruct F; [exact W|]. cbn [last] in *. exact IH. Qed.

  Lemma way_last c : forall hs q, last (exact_way q c hs) q = exact_steps q (map (pair c) hs) /\ exact_way q c hs <> [].
  Proof.
    induction hs as [|h hs IH]; intros q; [split; [reflexivity|discriminate]|]. split; [|discriminate]. cbn [exact_way map].
    destruct (IH (exact_steps q [(c, h)])) as [A B]. change (exact_steps q ((c, h) :: map (pair c) hs)) with (exact_steps (exact_steps q [(c, h)]) (map (pair c) hs)). rewrite <- A.
    destruct (exact_way (exact_steps q [(c, h)]) c hs) as [|z l] eqn:Z; [congruence|]. cbn [last]. clear. revert z. induction l as [|y l IH]; intros z; [reflexivity|]. cbn [last] in *. destruct l; [reflexivity|apply IH; exact z].
  Qed.
  Lemma last_app_ne (A : Type) (l l' : list A) a : l' <> [] -> last (l ++ l') a = last l' a.
  Proof. intros N. induction l as [|x l IH]; [reflexivity|]. cbn [app last]. rewrite IH. destruct (l ++ l') eqn:Z; [apply app_eq_nil in Z; tauto|reflexivity]. Qed.
  Lemma last_def (A : Type) (l : list A) a b : l <> [] -> last l a = last l b.
  Proof. intros N. induction l as [|x l IH]; [congruence|]. destruct l; [reflexivity|]. cbn [last] in *. apply IH. discriminate. Qed.
  Lemma exact_path_last : forall l q, l <> [] -> last (exact_path disc q l) q = exact_steps q (steps_of disc l) /\ exact_path disc q l <> [].
  Proof.
    assert (SA : forall l l' q, exact_steps q (l ++ l') = exact_steps (exact_steps q l) l').
    { induction l as [|p l IHl]; intros l' s0; [reflexivity|]. cbn [app]. change (exact_steps s0 (p :: l ++ l')) with (exact_steps (exact_steps s0 [p]) (l ++ l')). rewrite IHl. reflexivity. }
    induction l as [|c l IH]; intros q N; [congruence|]. cbn [exact_path]. set (hs := integration_steps64 (Rabs (ct_delta_s c)) disc).
    destruct (way_last c hs q) as [A B].
    assert (E1 : steps_of disc [c] = map (pair c) hs) by (unfold steps_of, hs; cbn [flat_map]; apply app_nil_r).
    destruct l as [|c' l'].
    - cbn [exact_path]. rewrite app_nil_r. rewrite E1. split; assumption.
    - destruct (IH (exact_steps q (steps_of disc [c])) ltac:(discriminate)) as [C D].
      split; [|intros E; apply app_eq_nil in E; tauto]. rewrite last_app_ne by exact D. rewrite (last_def _ _ q (exact_steps q (steps_of disc [c])) D), C.
      change (steps_of disc (c :: c' :: l')) with (map (pair c) hs ++ steps_of disc (c' :: l')). rewrite SA, E1. reflexivity.
  Qed.

  Lemma end_within : cs <> [] -> round_drift m K r n w <= 1 ->
    within (round_drift m K r n w + slack disc cs + total_length cs * (K * slack disc cs)) (round_turn K n w + K * slack disc cs)
      (last (integrate64 sin64 cos64 disc s cs) s) (drive_all s cs).
  Proof.
    intros NE D1. pose proof (path_within D1) as P. destruct (exact_path_last cs s NE) as [L N].
    assert (M0 : 0 <= m) by (pose proof (Rabs_pos (st_x s)); lra).
    assert (S0 : within 0 0 s s) by (split; [|split; [|exists 0%Z; rewrite Rmult_0_r, Rminus_0_r]]; rewrite Rminus_eq_0, Rabs_R0; lra).
    assert (W0 : 0 <= w) by (unfold w; pose proof (slack_pos disc cs D0); pose proof (total_length_nonneg cs); lra).
    assert (N0 : 0 <= n) by apply pos_INR.
    assert (T0 : 0 <= round_turn K n w) by (apply turn_pos; assumption).
    assert (R1 : 0 <= round_drift m K r n w). { eapply Rle_trans; [|apply (drift_mono K r m M0 R0 K0 0 0 n w); lra]. unfold round_drift, round_turn. lra. }
    pose proof (last_within _ _ _ _ s s P (within_le _ _ _ _ _ _ R1 T0 S0)) as A. rewrite L in A.
    pose proof (exact_end K r disc cs FI D0 K0 DC s s 0 0 (Rle_refl 0) S0) as B. rewrite !Rplus_0_l in B.
    eapply within_le; [| |exact (within_trans _ _ _ _ _ _ _ A B)]; lra.
  Qed.
End Path.

(** ** Usual sizes *)
Lemma usual_double cs : usual_controls cs -> Forall (double_control 10 100) cs.
Proof.
  intros (F & _). eapply Forall_impl; [|exact F]. intros c (A & B & C). split; [exact A|]. split; [exact B|]. destruct C as [C|[C1 C2]]; [left; exact C|right].
  split; [|split; [exact C2|]].
  - unfold epsilon64. pose proof (rnd_err (1 / 10000)) as E. apply Rabs_le_between in E. rewrite (Rabs_pos_eq (1 / 10000)) in E by lra.
    pose proof tiny. lra.
  - replace 100 with (/ (1 / 100)) by lra. apply Rinv_le_contravar; lra.
Qed.

Lemma usual_steps disc cs : usual_disc disc -> Forall (double_control 10 100) cs -> total_length cs <= 100 ->
  INR (length (steps_of disc cs)) <= total_length cs * 101 + 2 * INR (length cs) /\
  slack disc cs <= (2 * INR (length (steps_of disc cs)) + INR (length cs)) * (110 / 2 ^ 50).
Proof.
  intros (FI & D1 & D2) F. induction F as [|c cs (FD & _) F IH]; intros TL.
  - cbn. lra.
  - change (total_length (c :: cs)) with (Rabs (ct_delta_s c) + total_length cs) in *. pose proof (total_length_nonneg cs) as T0. pose proof (Rabs_pos (ct_delta_s c)) as L0.
    destruct (IH ltac:(lra)) as [A B]. change (steps_of disc (c :: cs)) with (map (pair c) (integration_steps64 (Rabs (ct_delta_s c)) disc) ++ steps_of disc cs).
    cbn [slack fold_right length]. fold (slack disc cs). rewrite app_length, map_length, plus_INR, S_INR.
    destruct (steps_count _ disc (fmt_abs _ FD) FI L0 ltac:(lra)) as [_ C]. set (k := INR (length (integration_steps64 (Rabs (ct_delta_s c)) disc))) in *. assert (K0 : 0 <= k) by apply pos_INR.
    set (L := Rabs (ct_delta_s c)) in *.
    assert (Q : L / disc <= L * 100). { unfold Rdiv. apply Rmult_le_compat_l; [exact L0|]. replace 100 with (/ (1 / 100)) by lra. apply Rinv_le_contravar; lra. }
    assert (Q0 : 0 <= L / disc) by (apply Rdiv_le_0_compat; lra).
    split; [lra|]. assert ((2 * k + 1) * ((L + disc) / 2 ^ 50) <= (2 * k + 1) * (110 / 2 ^ 50)); [|lra]. apply Rmult_le_compat_l; [lra|]. apply Rmult_le_compat_r; lra.
Qed.

Section Usual.
  Variables sin64 cos64 : R -> R.
  Hypothesis SIN : accurate64 sin sin64.
  Hypothesis COS : accurate64 cos cos64.
  Variables (disc : R) (s : State) (cs : list Control).
  Hypotheses (UD : usual_disc disc) (US : usual_start s) (UC : usual_controls cs).
  Let n := INR (length (steps_of disc cs)).
  Let w := total_length cs + slack disc cs.

  Lemma usual_bounds : slack disc cs <= 1 / 10 ^ 8 /\ round_turn 10 n w <= 1 / 10 ^ 10 /\ round_drift 1000 10 100 n w <= 1 / 10 ^ 8.
  Proof.
    destruct (usual_steps disc cs UD (usual_double cs UC) (proj2 (proj2 UC))) as [A B]. fold n in A, B. destruct UC as (_ & LC & TL).
    assert (LR : INR (length cs) <= 20) by (apply (le_INR _ 20) in LC; simpl in LC; lra).
    pose proof (total_length_nonneg cs) as T0. assert (N0 : 0 <= n) by apply pos_INR. assert (NB : n <= 10200) by lra.
    assert (SB : slack disc cs <= 1 / 10 ^ 8). { eapply Rle_trans; [exact B|]. apply Rle_trans with ((2 * 10200 + 20) * (110 / 2 ^ 50)); [apply Rmult_le_compat_r; lra|lra]. }
    assert (S0 : 0 <= slack disc cs) by (apply slack_pos; destruct UD as (_ & ? & _); lra).
    assert (W0 : 0 <= w) by (unfold w; lra). assert (WB : w <= 101) by (unfold w; lra).
    split; [exact SB|]. split.
    - eapply Rle_trans; [apply (turn_mono 10 ltac:(lra) n w 10200 101); lra|]. unfold round_turn. lra.
    - eapply Rle_trans; [apply (drift_mono 10 100 1000 ltac:(lra) ltac:(lra) ltac:(lra) n w 10200 101); lra|]. unfold round_drift, round_turn. lra.
  Qed.

  Lemma usual_path : Forall2 (within (1 / 10 ^ 8) (1 / 10 ^ 10)) (integrate64 sin64 cos64 disc s cs) (exact_path disc s cs).
  Proof.
    destruct usual_bounds as (S & T & D). destruct US as (DS & MX & MY). destruct UD as (FI & D1 & D2). pose proof (proj2 (proj2 UC)) as TL.
    pose proof (path_within sin64 cos64 SIN COS 1000 10 100 disc s cs DS MX MY (usual_double cs UC) FI ltac:(lra) ltac:(lra) ltac:(lra) ltac:(lra) ltac:(lra) ltac:(lra) ltac:(fold n w; lra)) as P.
    fold n w in P. clear - P T D. induction P as [|a b l l' W P IH]; constructor; [|exact IH]. eapply within_le; [| |exact W]; assumption.
  Qed.
  Lemma usual_end : cs <> [] -> within (1 / 10 ^ 4) (1 / 10 ^ 6) (last (integrate64 sin64 cos64 disc s cs) s) (drive_all s cs).
  Proof.
    intros NE. destruct usual_bounds as (S & T & D). destruct US as (DS & MX & MY). destruct UD as (FI & D1 & D2). pose proof (proj2 (proj2 UC)) as TL.
    pose proof (end_within sin64 cos64 SIN COS 1000 10 100 disc s cs DS MX MY (usual_double cs UC) FI ltac:(lra) ltac:(lra) ltac:(lra) ltac:(lra) ltac:(lra) ltac:(lra) NE ltac:(fold n w; lra)) as P.
    fold n w in P. pose proof (total_length_nonneg cs) as T0. assert (S0 : 0 <= slack disc cs) by (apply slack_pos; lra).
    assert (total_length cs * (10 * slack disc cs) <= 100 * (10 * (1 / 10 ^ 8))) by (apply Rmult_le_compat; lra).
    eapply within_le; [| |exact P]; lra.
  Qed.
End Usual.

(** ** Cases *)
Lemma rnd_accurate f : (forall x, -1 <= f x <= 1) -> accurate64 f (fun x => rnd (f x)).
Proof.
  intros B x _. split; [apply rnd_format|]. pose proof (rnd_err (f x)) as E. pose proof (B x) as Bx. apply Rabs_le_between in Bx.
  assert (/ 2 ^ 53 * Rabs (f x) <= / 2 ^ 53 * 1) by (apply Rmult_le_compat_l; lra). pose proof tiny_u. unfold u64 in *. lra.
Qed.
Lemma sixteenth_fmt z : (Z.abs z < 2 ^ 53)%Z -> binary64 (IZR z / 16).
Proof. intros Z. replace (IZR z / 16) with (IZR z * bpow radix2 (-4)) by (change (bpow radix2 (-4)) with (/ 16); field). apply fmt_F2R; [exact Z|lia]. Qed.
Definition arc_case : list Control := [mkControl 1 1 0; mkControl 2 0 0; mkControl (-1) (-1/2) 0].
Lemma arc_case_usual : usual_disc (1 / 16) /\ usual_start (mkState 1 2 (1/2) 0 0) /\ usual_controls arc_case /\ arc_case <> [].
Proof.
  split; [|split; [|split; [|discriminate]]].
  - split; [exact (sixteenth_fmt 1 ltac:(lia))|lra].
  - repeat split; cbn [st_x st_y st_theta]; rewrite ?Rabs_pos_eq by lra; try lra.
    + apply fmt_1.
    + apply (fmt_int 2). lia.
    + replace (1 / 2) with (IZR 8 / 16) by lra. apply sixteenth_fmt. lia.
  - split; [|split].
    + unfold arc_case. apply Forall_cons; [|apply Forall_cons; [|apply Forall_cons; [|apply Forall_nil]]]; cbn [ct_delta_s ct_kappa].
      * split; [apply fmt_1|]. split; [apply fmt_1|]. right. rewrite Rabs_R1. lra.
      * split; [apply (fmt_int 2); lia|]. split; [apply fmt_0|]. left. reflexivity.
      * split; [apply (fmt_int (-1)); lia|]. split; [replace (-1 / 2) with (IZR (-8) / 16) by lra; apply sixteenth_fmt; lia|]. right. rewrite Rabs_left by lra. lra.
    + cbn. lia.
    + unfold arc_case, total_length; cbn [fold_right ct_delta_s]. rewrite (Rabs_left (-1)) by lra. rewrite !Rabs_pos_eq by lra. lra.
Qed.

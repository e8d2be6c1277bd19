(** * The bookkeeping of interpolate in double precision: proofs *)
From Coq Require Import Reals ZArith List Lra Lia Psatz.
From Flocq Require Import Core.
From Coquelicot Require Rcomplements.
From Verif Require Import ModelFloat ModelStep ModelInter FloatProofs StepProofs.
Import ListNotations.
Open Scope R_scope.

Definition lengths64 (ls : list R) : Prop := Forall (fun a => binary64 a /\ 0 <= a) ls.

Lemma rnd_0le x : 0 <= x -> 0 <= rnd x.
Proof. intros X. rewrite <- (rnd_id 0 fmt_0). apply rnd_le, X. Qed.

(** One addition. *)
Lemma add_ge s a : binary64 s -> 0 <= a -> s <= rnd (s + a).
Proof. intros F A. rewrite <- (rnd_id s F) at 1. apply rnd_le. lra. Qed.
Lemma add_err s a : binary64 s -> binary64 a -> 0 <= s -> 0 <= a -> Rabs (rnd (s + a) - (s + a)) <= 2 * u64 * rnd (s + a).
Proof.
  intros F G S A. pose proof (plus_err s a F G) as E. pose proof u64_pos as U. rewrite (Rabs_pos_eq (s + a)) in E by lra.
  assert (B : s + a <= 2 * rnd (s + a)). { apply Rcomplements.Rabs_le_between in E. nra. }
  eapply Rle_trans; [exact E|]. nra.
Qed.

Lemma length_ge ls : forall s, lengths64 ls -> binary64 s -> s <= path_length64 s ls.
Proof.
  induction ls as [|a ls IH]; intros s L F; cbn [path_length64]; [lra|]. inversion L as [|? ? [Fa A] L']; subst.
  pose proof (add_ge s a F A). pose proof (IH (rnd (s + a)) L' (rnd_format _)). lra.
Qed.
Lemma length_fmt ls : forall s, binary64 s -> binary64 (path_length64 s ls).
Proof. induction ls as [|a ls IH]; intros s F; [exact F|]. apply IH, rnd_format. Qed.

Lemma driven_full ls : forall si s, lengths64 ls -> path_length64 s ls <= si -> driven64 si s ls = ls.
Proof.
  induction ls as [|a ls IH]; intros si s L P; [reflexivity|]. cbn [driven64 path_length64] in *. inversion L as [|? ? [Fa A] L']; subst.
  pose proof (length_ge ls _ L' (rnd_format (s + a))). destruct (Rlt_dec _ _); [lra|]. f_equal. apply IH; assumption.
Qed.

Lemma length_err ls : forall s, lengths64 ls -> binary64 s -> 0 <= s ->
  Rabs (path_length64 s ls - (s + sum ls)) <= INR (length ls) * (2 * u64 * path_length64 s ls).
Proof.
  induction ls as [|a ls IH]; intros s L F S.
  - cbn. rewrite Rplus_0_r, Rminus_eq_0, Rabs_R0. lra.
  - inversion L as [|? ? [Fa A] L']; subst. cbn [path_length64 length]. change (sum (a :: ls)) with (a + sum ls).
    pose proof (add_err s a F Fa S A) as E. pose proof (add_ge s a F A) as G. pose proof (length_ge ls _ L' (rnd_format (s + a))) as H.
    pose proof (IH (rnd (s + a)) L' (rnd_format _) ltac:(lra)) as K. set (P := path_length64 _ _) in *. pose proof u64_pos as U. rewrite S_INR.
    assert (2 * u64 * rnd (s + a) <= 2 * u64 * P) by (apply Rmult_le_compat_l; lra).
    apply Rcomplements.Rabs_le_between in E. apply Rcomplements.Rabs_le_between in K. apply Rcomplements.Rabs_le_between. lra.
Qed.

(** The truncated control. *)
Lemma cut_err s a si P : binary64 s -> binary64 a -> binary64 si -> 0 <= s <= si -> 0 <= a -> si < rnd (s + a) <= P ->
  Rabs (rnd (a - rnd (rnd (s + a) - si)) + s - si) <= 5 * u64 * P.
Proof.
  intros F Fa Fi S A B. pose proof u64_pos as U. pose proof (add_err s a F Fa ltac:(lra) A) as E1. set (s' := rnd (s + a)) in *.
  pose proof (minus_err s' si (rnd_format _) Fi) as E2. rewrite (Rabs_pos_eq (s' - si)) in E2 by lra. set (w := rnd (s' - si)) in *.
  pose proof (minus_err a w Fa (rnd_format _)) as E3. set (z := rnd (a - w)) in *.
  assert (T1 : 2 * u64 * s' <= 2 * u64 * P) by (apply Rmult_le_compat_l; lra).
  assert (T2 : u64 * (s' - si) <= u64 * P) by (apply Rmult_le_compat_l; lra).
  assert (UP : 2 * (u64 * P) <= P) by nra. assert (W0 : 0 <= w) by (apply rnd_0le; lra).
  apply Rcomplements.Rabs_le_between in E1. apply Rcomplements.Rabs_le_between in E2.
  assert (T3 : u64 * Rabs (a - w) <= 2 * u64 * P).
  { assert (Rabs (a - w) <= 2 * P) by (apply Rcomplements.Rabs_le_between; lra). nra. }
  apply Rcomplements.Rabs_le_between in E3. apply Rcomplements.Rabs_le_between. lra.
Qed.

Lemma driven_err ls : forall si s, lengths64 ls -> binary64 s -> binary64 si -> 0 <= s <= si -> si <= path_length64 s ls ->
  Rabs (sum (driven64 si s ls) + s - si) <= (2 * INR (length ls) + 5) * (u64 * path_length64 s ls).
Proof.
  induction ls as [|a ls IH]; intros si s L F Fi S P; pose proof u64_pos as U.
  - cbn in *. replace (0 + s - si) with 0 by lra. rewrite Rabs_R0. nra.
  - inversion L as [|? ? [Fa A] L']; subst. cbn [driven64 path_length64 length] in *.
    pose proof (add_err s a F Fa ltac:(lra) A) as E. pose proof (add_ge s a F A) as G. pose proof (length_ge ls _ L' (rnd_format (s + a))) as H.
    set (P' := path_length64 _ _) in *. assert (P0 : 0 <= u64 * P') by nra. pose proof (pos_INR (length ls)) as N. rewrite S_INR.
    assert (NP : 0 <= INR (length ls) * (u64 * P')) by (apply Rmult_le_pos; lra).
    destruct (Rlt_dec si (rnd (s + a))) as [C|C].
    + pose proof (cut_err s a si P' F Fa Fi S A ltac:(lra)) as K. cbn [sum fold_right]. rewrite Rplus_0_r. lra.
    + pose proof (IH si (rnd (s + a)) L' (rnd_format _) Fi ltac:(lra) P) as K. fold P' in K. change (sum (a :: ?l)) with (a + sum l).
      assert (2 * u64 * rnd (s + a) <= 2 * (u64 * P')) by nra.
      apply Rcomplements.Rabs_le_between in E. apply Rcomplements.Rabs_le_between in K. apply Rcomplements.Rabs_le_between. lra.
Qed.

(** The parts: all controls before are driven completely, the last one is not driven beyond its end. *)
Lemma driven_parts ls : forall si s, lengths64 ls -> binary64 s -> binary64 si -> 0 <= s <= si -> 
  driven64 si s ls = ls \/ exists l a a' r, ls = l ++ a :: r /\ driven64 si s ls = l ++ [a'] /\ binary64 a' /\ a' <= a /\ - (5 * u64 * path_length64 s ls) <= a'.
Proof.
  induction ls as [|a ls IH]; intros si s L F Fi S; [left; reflexivity|].
  inversion L as [|? ? [Fa A] L']; subst. cbn [driven64 path_length64] in *.
  pose proof (add_ge s a F A) as G. pose proof (length_ge ls _ L' (rnd_format (s + a))) as H.
  destruct (Rlt_dec si (rnd (s + a))) as [C|C].
  - right. exists [], a, (rnd (a - rnd (rnd (s + a) - si))), ls. split; [reflexivity|]. split; [reflexivity|]. split; [apply rnd_format|].
    split.
    + pose proof (rnd_0le (rnd (s + a) - si) ltac:(lra)). apply (Rle_trans _ (rnd a)); [apply rnd_le; lra|rewrite (rnd_id a Fa); lra].
    + pose proof (cut_err s a si _ F Fa Fi S A (conj C H)) as K. apply Rcomplements.Rabs_le_between in K. lra.
  - destruct (IH si (rnd (s + a)) L' (rnd_format _) Fi ltac:(lra)) as [E|(l & b & b' & r & E1 & E2 & E3)].
    + left. f_equal. exact E.
    + right. exists (a :: l), b, b', r. rewrite E1 at 1. split; [reflexivity|]. rewrite E2. split; [reflexivity|exact E3].
Qed.

Lemma driven_mono ls : forall si si' s i x, lengths64 ls -> si <= si' -> nth_error (driven64 si s ls) i = Some x ->
  exists x', nth_error (driven64 si' s ls) i = Some x' /\ x <= x'.
Proof.
  induction ls as [|a ls IH]; intros si si' s i x L M N; [destruct i; discriminate|].
  inversion L as [|? ? [Fa A] L']; subst. cbn [driven64] in *.
  destruct (Rlt_dec si (rnd (s + a))) as [C|C], (Rlt_dec si' (rnd (s + a))) as [C'|C']; try lra.
  - destruct i as [|i]; [|destruct i; discriminate]. injection N as <-. eexists; split; [reflexivity|].
    apply rnd_le. assert (rnd (rnd (s + a) - si') <= rnd (rnd (s + a) - si)) by (apply rnd_le; lra). lra.
  - destruct i as [|i]; [|destruct i; discriminate]. injection N as <-. eexists; split; [reflexivity|].
    pose proof (rnd_0le (rnd (s + a) - si) ltac:(lra)). apply (Rle_trans _ (rnd a)); [apply rnd_le; lra|rewrite (rnd_id a Fa); lra].
  - destruct i as [|i]; cbn [nth_error] in *; [exists a; split; [reflexivity|injection N; lra]|]. exact (IH si si' _ i x L' M N).
Qed.

(** ** interpolate *)
Section Inter.
  Variable ls : list R.
  Hypothesis L : lengths64 ls.
  Let P := path_length64 0 ls.
  Let S := sum ls.

  Lemma P_pos : 0 <= P.
  Proof. exact (length_ge ls 0 L fmt_0). Qed.
  Lemma inter_fmt t : binary64 (inter_length64 t ls).
  Proof. unfold inter_length64. destruct (Rlt_dec 1 t); [apply length_fmt, fmt_0|apply rnd_format]. Qed.
  Lemma inter_range t : 0 < t -> 0 <= inter_length64 t ls <= P.
  Proof.
    intros T. pose proof P_pos. unfold inter_length64. fold P. destruct (Rlt_dec 1 t) as [B|B]; [lra|]. split; [apply rnd_0le; nra|].
    apply (Rle_trans _ (rnd P)); [apply rnd_le; nra|rewrite (rnd_id P) by (apply length_fmt, fmt_0); lra].
  Qed.
  Lemma inter_end t : 1 <= t -> inter_length64 t ls = P.
  Proof.
    intros T. unfold inter_length64. fold P. destruct (Rlt_dec 1 t) as [B|B]; [reflexivity|]. replace t with 1 by lra. rewrite Rmult_1_l. apply rnd_id, length_fmt, fmt_0.
  Qed.
  Lemma interpolate_full t : 1 <= t -> interpolate64 t ls = ls.
  Proof. intros T. unfold interpolate64. rewrite inter_end by assumption. apply driven_full; [exact L|apply Rle_refl]. Qed.

  Lemma inter_mono t t' : 0 < t <= t' -> inter_length64 t ls <= inter_length64 t' ls.
  Proof.
    intros T. pose proof P_pos. destruct (Rlt_dec 1 t') as [B|B].
    - rewrite (inter_end t') by lra. apply inter_range. lra.
    - unfold inter_length64. fold P. destruct (Rlt_dec 1 t); [lra|]. destruct (Rlt_dec 1 t'); [lra|]. apply rnd_le. nra.
  Qed.
  Lemma interpolate_mono t t' i x : 0 < t <= t' -> nth_error (interpolate64 t ls) i = Some x ->
    exists x', nth_error (interpolate64 t' ls) i = Some x' /\ x <= x'.
  Proof. intros T N. exact (driven_mono ls _ _ 0 i x L (inter_mono t t' T) N). Qed.

  Hypothesis N : INR (length ls) <= 2 ^ 50.

  Lemma total_err : Rabs (P - S) <= INR (length ls) * (2 * u64 * P) /\ P <= 2 * S.
  Proof.
    pose proof (length_err ls 0 L fmt_0 (Rle_refl 0)) as E. fold P S in E. rewrite Rplus_0_l in E. split; [exact E|]. pose proof P_pos. pose proof u64_pos as U.
    apply Rcomplements.Rabs_le_between in E.
    assert (INR (length ls) * (2 * u64 * P) <= P / 2); [|lra].
    assert (X : INR (length ls) * u64 <= 1 / 4).
    { apply Rle_trans with (2 ^ 50 * u64); [apply Rmult_le_compat_r; lra|]. unfold u64. lra. }
    nra.
  Qed.

  Lemma interpolate_sum t : 0 < t ->
    Rabs (sum (interpolate64 t ls) - Rmin t 1 * S) <= (2 * INR (length ls) + 3) * (S / 2 ^ 51) + / 2 ^ 1000.
  Proof.
    intros T. pose proof P_pos as P0. pose proof u64_pos as U. destruct total_err as [E1 PS]. pose proof tiny as TI. pose proof (pos_INR (length ls)) as NN.
    pose proof (inter_range t T) as IR. pose proof (driven_err ls _ 0 L fmt_0 (inter_fmt t) ltac:(lra) (proj2 IR)) as E2.
    fold (interpolate64 t ls) in E2. fold P in E2. rewrite Rplus_0_r in E2.
    assert (E3 : Rabs (inter_length64 t ls - Rmin t 1 * P) <= u64 * P + / 2 ^ 1000).
    { destruct (Rle_dec 1 t) as [B|B].
      - rewrite inter_end, Rmin_right by lra. rewrite Rmult_1_l, Rminus_eq_0, Rabs_R0. assert (0 <= u64 * P) by nra. lra.
      - rewrite Rmin_left by lra. unfold inter_length64. fold P. destruct (Rlt_dec 1 t); [lra|]. pose proof (rnd_err (t * P)) as E. fold u64 in E.
        rewrite (Rabs_pos_eq (t * P)) in E by nra. assert (u64 * (t * P) <= u64 * P) by (apply Rmult_le_compat_l; nra). lra. }
    assert (M : 0 <= Rmin t 1 <= 1) by (split; [apply Rmin_glb; lra|apply Rmin_r]). set (m := Rmin t 1) in *.
    assert (E4 : Rabs (m * P - m * S) <= INR (length ls) * (2 * u64 * P)).
    { rewrite <- Rmult_minus_distr_l, Rabs_mult, Rabs_pos_eq by lra. pose proof (Rabs_pos (P - S)). nra. }
    set (n := INR (length ls)) in *. set (si := inter_length64 t ls) in *. set (D := sum (interpolate64 t ls)) in *.
    assert (B : (4 * n + 6) * (u64 * P) <= (2 * n + 3) * (S / 2 ^ 51)).
    { replace ((4 * n + 6) * (u64 * P)) with ((2 * n + 3) * (2 * u64 * P)) by ring. apply Rmult_le_compat_l; [lra|].
      replace (S / 2 ^ 51) with (4 * u64 * S) by (unfold u64; field). nra. }
    apply Rcomplements.Rabs_le_between in E2. apply Rcomplements.Rabs_le_between in E3. apply Rcomplements.Rabs_le_between in E4. apply Rcomplements.Rabs_le_between. lra.
  Qed.

  Lemma interpolate_parts t : 0 < t -> interpolate64 t ls = ls \/
    exists l a a' r, ls = l ++ a :: r /\ interpolate64 t ls = l ++ [a'] /\ binary64 a' /\ - (S / 2 ^ 49) <= a' <= a.
  Proof.
    intros T. pose proof (inter_range t T) as IR. destruct total_err as [_ PS]. pose proof u64_pos as U. pose proof P_pos.
    destruct (driven_parts ls _ 0 L fmt_0 (inter_fmt t) ltac:(lra)) as [E|(l & a & a' & r & E & E' & F & A & B)]; [left; exact E|right].
    exists l, a, a', r. split; [exact E|]. split; [exact E'|]. split; [exact F|]. split; [|exact A]. fold P in B. 
    assert (5 * u64 * P <= S / 2 ^ 49); [|lra]. replace (S / 2 ^ 49) with (16 * u64 * S) by (unfold u64; field). nra.
  Qed.
End Inter.

(** ** The steps *)
Lemma steps_none a d : a <= 0 -> 0 < d -> integration_steps64 a d = [].
Proof.
  intros A D. unfold integration_steps64. replace (Z.to_nat _) with 0%nat; [reflexivity|]. symmetry.
  assert (rnd (a / d) <= 0). { rewrite <- (rnd_id 0 fmt_0). apply rnd_le. unfold Rdiv. assert (0 < / d) by (apply Rinv_0_lt_compat; lra). nra. }
  assert (Zceil (rnd (a / d)) <= 0)%Z; [|lia]. apply Zceil_glb. exact H.
Qed.

Lemma sum_app l l' : sum (l ++ l') = sum l + sum l'.
Proof. unfold sum. induction l as [|a l IH]; cbn [app fold_right]; [lra|rewrite IH; lra]. Qed.
Lemma sum_pos l : Forall (fun a => 0 <= a) l -> 0 <= sum l.
Proof. induction 1; unfold sum in *; cbn; lra. Qed.

Lemma parts_sum d S l : binary64 d -> 0 < d -> 0 <= S -> Forall (fun a => binary64 a /\ 0 <= a <= S) l ->
  Rabs (sum (flat_map (fun a => integration_steps64 a d) l) - sum l) <= (INR (length (flat_map (fun a => integration_steps64 a d) l)) + INR (length l)) * ((S + d) / 2 ^ 50).
Proof.
  intros Fd D S0. induction 1 as [|a l [Fa A] L IH]; cbn [flat_map length].
  - cbn. rewrite Rminus_eq_0, Rabs_R0. unfold Rdiv. assert (0 < / 2 ^ 50) by (apply Rinv_0_lt_compat, pow_lt; lra). nra.
  - rewrite sum_app, app_length, plus_INR, S_INR. change (sum (a :: l)) with (a + sum l).
    pose proof (steps_sum a d Fa Fd (proj1 A) D) as E. set (x := integration_steps64 a d) in *. set (y := flat_map _ l) in *.
    assert (X : (INR (length x) + 1) * ((a + d) / 2 ^ 50) <= (INR (length x) + 1) * ((S + d) / 2 ^ 50)).
    { apply Rmult_le_compat_l; [pose proof (pos_INR (length x)); lra|]. unfold Rdiv. apply Rmult_le_compat_r; [left; apply Rinv_0_lt_compat, pow_lt; lra|lra]. }
    apply Rcomplements.Rabs_le_between in E. apply Rcomplements.Rabs_le_between in IH. apply Rcomplements.Rabs_le_between. lra.
Qed.

Lemma in_sum l a : Forall (fun a => 0 <= a) l -> In a l -> a <= sum l.
Proof.
  induction 1 as [|b l B L IH]; intros I; [destruct I|]. change (sum (b :: l)) with (b + sum l). pose proof (sum_pos l L). destruct I as [->|I]; [lra|]. specialize (IH I). lra.
Qed.

Lemma interpolate_steps_sum t d ls : lengths64 ls -> INR (length ls) <= 2 ^ 50 -> binary64 d -> 0 < d -> 0 < t ->
  Rabs (sum (interpolate_steps64 t d ls) - Rmin t 1 * sum ls) <=
    (INR (length (interpolate_steps64 t d ls)) + 2 * INR (length ls) + 5) * ((sum ls + d) / 2 ^ 50) + / 2 ^ 1000.
Proof.
  intros L N Fd D T. pose proof (interpolate_sum ls L N t T) as E. unfold interpolate_steps64.
  assert (L0 : Forall (fun a => 0 <= a) ls) by (eapply Forall_impl; [|exact L]; intros a X; apply X).
  pose proof (sum_pos ls L0) as S0. set (S := sum ls) in *.
  assert (LS : Forall (fun a => binary64 a /\ 0 <= a <= S) ls).
  { apply Forall_forall. intros a I. unfold lengths64 in L. rewrite Forall_forall in L. destruct (L a I) as [F A]. split; [exact F|]. split; [exact A|]. apply in_sum; assumption. }
  set (h := (S + d) / 2 ^ 50) in *. assert (H0 : 0 <= h) by (unfold h; apply Rcomplements.Rdiv_le_0_compat; [lra|apply pow_lt; lra]).
  assert (SH : S / 2 ^ 49 <= 2 * h /\ S / 2 ^ 51 <= h / 2) by (unfold h; lra).
  assert (NE : (2 * INR (length ls) + 3) * (S / 2 ^ 51) <= (2 * INR (length ls) + 3) * (h / 2)) by (apply Rmult_le_compat_l; [pose proof (pos_INR (length ls)); lra|lra]).
  assert (K : exists l a', interpolate64 t ls = l ++ [a'] /\ a' <= 0 /\ - (S / 2 ^ 49) <= a' /\ (length l < length ls)%nat /\ Forall (fun a => binary64 a /\ 0 <= a <= S) l \/
    (length (interpolate64 t ls) <= length ls)%nat /\ Forall (fun a => binary64 a /\ 0 <= a <= S) (interpolate64 t ls)).
  { destruct (interpolate_parts ls L N t T) as [->|(l & a & a' & r & -> & E' & F & A)].
    - exists [], 0. right. split; [lia|exact LS].
    - exists l, a'. apply Forall_app in LS. destruct LS as [LL LR]. inversion LR as [|? ? LA _]; subst. destruct (Rle_dec a' 0) as [B|B].
      + left. split; [exact E'|]. split; [exact B|]. split; [exact (proj1 A)|]. rewrite app_length. cbn [length]. split; [lia|exact LL].
      + right. rewrite E', !app_length. cbn [length]. split; [lia|]. apply Forall_app. split; [exact LL|]. constructor; [|constructor]. split; [exact F|lra]. }
  destruct K as (l & a' & [(E' & A0 & A1 & LN & LL)|[LN LL]]).
  - rewrite E' in *. rewrite flat_map_app. cbn [flat_map]. rewrite (steps_none a' d A0 D), !app_nil_r. rewrite sum_app in E. change (sum [a']) with (a' + 0) in E.
    pose proof (parts_sum d S l Fd D S0 LL) as Q. fold h in Q. apply lt_INR in LN. set (N' := INR (length (flat_map _ l))) in *.
    assert (INR (length l) * h <= INR (length ls) * h) by (apply Rmult_le_compat_r; lra).
    apply Rcomplements.Rabs_le_between in E. apply Rcomplements.Rabs_le_between in Q. apply Rcomplements.Rabs_le_between. lra.
  - pose proof (parts_sum d S _ Fd D S0 LL) as Q. fold h in Q. apply le_INR in LN. set (N' := INR (length (flat_map _ _))) in *.
    assert (INR (length (interpolate64 t ls)) * h <= INR (length ls) * h) by (apply Rmult_le_compat_r; lra).
    apply Rcomplements.Rabs_le_between in E. apply Rcomplements.Rabs_le_between in Q. apply Rcomplements.Rabs_le_between. lra.
Qed.

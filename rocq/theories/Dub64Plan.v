(** * The Dubins planner in double precision: selection and world frame *)
From Coq Require Import Reals ZArith List Lra Lia Psatz.
From Flocq Require Import Core.
From Coquelicot Require Import Rcomplements.
From Verif Require Import Base ModelUtil SpecPath ModelDubins ModelFloat ModelArc SpecArc SpecDubins64 Num JacProofs FloatProofs StepProofs ArcProofs ArcPath Near ModelDubins64 DubinsProofs DubinsPlan Dub64Tmp Dub64Words.
Import ListNotations.
Open Scope R_scope.

(** ** Selection *)
Lemma dbl_max_fmt : binary64 DBL_MAX.
Proof.
  unfold DBL_MAX. replace (IZR (2 ^ 1024 - 2 ^ 971)) with (IZR (2 ^ 53 - 1) * bpow radix2 971); [apply fmt_F2R; lia|].
  rewrite <- (IZR_Zpower radix2 971) by lia. rewrite <- mult_IZR. apply f_equal. reflexivity.
Qed.
Lemma none_length : dp_length64 dp_none = DBL_MAX.
Proof. unfold dp_length64, dp_none. cbn [dp_t dp_p dp_q]. rewrite Rplus_0_l, (rnd_id _ dbl_max_fmt), Rplus_0_r. apply rnd_id, dbl_max_fmt. Qed.
Lemma fold_better64 l : forall p, (fold_left dp_better64 l p = p \/ In (fold_left dp_better64 l p) l) /\ dp_length64 (fold_left dp_better64 l p) <= dp_length64 p.
Proof.
  induction l as [|a l IH]; intros p; simpl; [split; [left; reflexivity|lra]|]. destruct (IH (dp_better64 p a)) as (I & L). unfold dp_better64 in *.
  destruct (Rlt_dec (dp_length64 a) (dp_length64 p)) as [H|H]; (split; [destruct I as [->|I]; auto|lra]).
Qed.
Lemma ends_length d al be P : 0 <= d <= 30000 -> ends d al be P -> dp_length64 P <= 10 ^ 6.
Proof.
  intros D (_ & _ & _ & _ & T & PP & Q & _). unfold dp_length64. pose proof tiny.
  assert (R0 : forall x, Rabs x <= 10 ^ 5 -> Rabs (rnd x) <= 10 ^ 5 + 1).
  { intros x B. pose proof (rnd_err x) as E. assert (/ 2 ^ 53 * Rabs x <= / 2 ^ 53 * 10 ^ 5) by (apply Rmult_le_compat_l; lra). apply Rabs_le_between in E. apply Rabs_le_between in B. apply Rabs_le_between. lra. }
  assert (R1 : Rabs (rnd (dp_t P + dp_p P)) <= 10 ^ 5 + 1) by (apply R0; apply Rabs_le_between; lra).
  pose proof (rnd_err (rnd (dp_t P + dp_p P) + dp_q P)) as E. assert (B : Rabs (rnd (dp_t P + dp_p P) + dp_q P) <= 2 * 10 ^ 5) by (apply Rabs_le_between in R1; apply Rabs_le_between; lra).
  assert (/ 2 ^ 53 * Rabs (rnd (dp_t P + dp_p P) + dp_q P) <= / 2 ^ 53 * (2 * 10 ^ 5)) by (apply Rmult_le_compat_l; lra). apply Rabs_le_between in E. apply Rabs_le_between in B. lra.
Qed.

Section Plan.
  Variables sin64 cos64 acos64 : R -> R.
  Variable atan264 : R -> R -> R.
  Hypothesis LIB : accurate_library sin64 cos64 acos64 atan264.

  Lemma dubins64_ends d al be : binary64 d -> binary64 al -> binary64 be -> 0 <= d <= 30000 -> Rabs al <= 71 / 10 -> Rabs be <= 71 / 10 ->
    d < DUBINS_EPS64 /\ Rabs (rnd (al - be)) < DUBINS_EPS64 /\ dubins64 sin64 cos64 acos64 atan264 d al be = mkDPath (dubins_path_type 0) 0 d 0 \/
    ends d al be (dubins64 sin64 cos64 acos64 atan264 d al be).
  Proof.
    intros Fd Fa Fb D0 A0 B0. unfold dubins64. cbv zeta.
    match goal with |- context [fold_left dp_better64 ?l ?p] => destruct (fold_better64 l p) as (I & L); set (f := fold_left dp_better64 l p) in * end.
    assert (X : ends d al be f).
    { pose proof (LSL_ends _ _ _ _ LIB d al be Fa Fb D0 A0 B0) as EL. pose proof (LSL_near _ _ _ _ LIB d al be Fa Fb D0) as NT.
      assert (LF : dubinsLSL64 sin64 cos64 atan264 d al be = solveLSL64 sin64 cos64 atan264 d al be).
      { unfold dubinsLSL64. destruct (Rle_dec DUBINS_ZERO64 _) as [_|N]; [reflexivity|]. exfalso. apply N.
        replace ((d + sin al - sin be) ^ 2 + (cos be - cos al) ^ 2) with (hyp (d + sin al - sin be) (cos be - cos al) * hyp (d + sin al - sin be) (cos be - cos al)) in NT by (rewrite hyp_sq; ring).
        assert (BX : Rabs (d + sin al - sin be - d) <= 2) by (replace (d + sin al - sin be - d) with (sin al - sin be) by ring; apply abs_dif_sin).
        assert (BY : Rabs (cos be - cos al) <= 2) by (replace 2 with (1 + 1) by ring; apply abs_dif2; apply abs_cos1).
        destruct (hyp_bounds d D0 _ _ BX BY) as (H1 & _). destruct (arm d _ _ D0 (hyp_pos _ _) H1 NT) as (_ & G).
        unfold DUBINS_ZERO64. pose proof (rnd_err (1 / 1000000000)) as E. rewrite (Rabs_pos_eq (1 / 1000000000)) in E by lra. apply Rabs_le_between in E. pose proof tiny. lra. }
      rewrite LF in *. pose proof (ends_length _ _ _ _ D0 EL) as LL.
      assert (NN : f <> dp_none) by (intros ->; rewrite none_length in L; pose proof DBL_MAX_big; lra).
      destruct I as [->|I]; [exact EL|]. simpl in I. unfold dubinsRSR64, dubinsRSL64, dubinsLSR64, dubinsRLR64, dubinsLRL64 in I.
      destruct I as [I|[I|[I|[I|[I|[]]]]]]; match type of I with (if ?b then _ else _) = _ => destruct b as [Z|Z]; [|congruence] end; rewrite <- I.
      - apply RSR_ends with acos64; assumption.
      - apply RSL_ends with acos64; assumption.
      - apply LSR_ends with acos64; assumption.
      - apply RLR_ends; assumption.
      - apply LRL_ends; assumption. }
    destruct (Rlt_dec d DUBINS_EPS64) as [D|D]; [destruct (Rlt_dec _ DUBINS_EPS64) as [B|B]|]; [left; auto|right; exact X|right; exact X].
  Qed.

  (** ** Lengths of the controls *)
  Lemma inv_range kappa : 1 / 100 <= kappa <= 10 -> 1 / 10 <= 1 / kappa <= 100.
  Proof. intros K. assert (E : 1 / kappa * kappa = 1) by (field; lra). split; apply (Rmult_le_reg_r kappa); lra. Qed.
  Lemma drive_len s k l l' e K : Rabs (l - l') <= e -> Rabs k <= K -> within e (K * e) (drive s (mkControl l k 0)) (drive s (mkControl l' k 0)).
  Proof.
    intros E K0. assert (0 <= e) by (pose proof (Rabs_pos (l - l')); lra). unfold drive. cbn [ct_delta_s ct_kappa]. destruct (Req_EM_T k 0) as [Z|Z].
    - split; [|split]; cbn [st_x st_y st_theta].
      + replace (st_x s + l * cos (st_theta s) - (st_x s + l' * cos (st_theta s))) with ((l - l') * cos (st_theta s)) by ring. rewrite Rabs_mult. replace e with (e * 1) by ring. apply Rmult_le_compat; try apply Rabs_pos; [exact E|apply abs_cos1].
      + replace (st_y s + l * sin (st_theta s) - (st_y s + l' * sin (st_theta s))) with ((l - l') * sin (st_theta s)) by ring. rewrite Rabs_mult. replace e with (e * 1) by ring. apply Rmult_le_compat; try apply Rabs_pos; [exact E|apply abs_sin1].
      + exists 0%Z. cbn [st_theta]. rewrite Rmult_0_r, Rminus_0_r, Rminus_eq_0, Rabs_R0. apply Rmult_le_pos; [pose proof (Rabs_pos k); lra|lra].
    - assert (KP : 0 < Rabs k) by (apply Rabs_pos_lt; exact Z). split; [|split]; cbn [st_x st_y st_theta].
      + replace (st_x s + (sin (st_theta s + k * l) - sin (st_theta s)) / k - (st_x s + (sin (st_theta s + k * l') - sin (st_theta s)) / k)) with ((sin (st_theta s + k * l) - sin (st_theta s + k * l')) / k) by (field; exact Z).
        unfold Rdiv. rewrite Rabs_mult, Rabs_inv. apply (Rmult_le_reg_r (Rabs k)); [exact KP|]. rewrite Rmult_assoc, Rinv_l, Rmult_1_r by lra. eapply Rle_trans; [apply sin_lip|].
        replace (st_theta s + k * l - (st_theta s + k * l')) with ((l - l') * k) by ring. rewrite Rabs_mult. apply Rmult_le_compat_r; lra.
      + replace (st_y s + (cos (st_theta s) - cos (st_theta s + k * l)) / k - (st_y s + (cos (st_theta s) - cos (st_theta s + k * l')) / k)) with (- ((cos (st_theta s + k * l) - cos (st_theta s + k * l')) / k)) by (field; exact Z).
        rewrite Rabs_Ropp. unfold Rdiv. rewrite Rabs_mult, Rabs_inv. apply (Rmult_le_reg_r (Rabs k)); [exact KP|]. rewrite Rmult_assoc, Rinv_l, Rmult_1_r by lra. eapply Rle_trans; [apply cos_lip|].
        replace (st_theta s + k * l - (st_theta s + k * l')) with ((l - l') * k) by ring. rewrite Rabs_mult. apply Rmult_le_compat_r; lra.
      + exists 0%Z. cbn [st_theta]. rewrite Rmult_0_r, Rminus_0_r. replace (st_theta s + k * l - (st_theta s + k * l')) with (k * (l - l')) by ring. rewrite Rabs_mult. apply Rmult_le_compat; try apply Rabs_pos; assumption.
  Qed.
  Lemma drive_all_two cs : forall s s' e h, 0 <= h -> within e h s s' -> within (e + total_length cs * h) h (drive_all s cs) (drive_all s' cs).
  Proof.
    induction cs as [|c cs IH]; intros s s' e h H W.
    - apply within_le with e h; [unfold total_length; simpl; lra|lra|exact W].
    - cbn [drive_all fold_left]. apply within_le with ((e + Rabs (ct_delta_s c) * h) + total_length cs * h) h; [unfold total_length; simpl; lra|lra|].
      apply IH; [exact H|]. apply drive_two; assumption.
  Qed.

  (** Rounded lengths. *)
  Lemma len_near kappa l L : 1 / 100 <= kappa <= 10 -> Rabs l <= L -> 1 <= L -> near (22 / 10 * u64 * L / kappa) (rnd (rnd (1 / kappa) * l)) (1 / kappa * l).
  Proof.
    intros K B L1. assert (IK : 1 / 10 <= 1 / kappa <= 100) by (apply inv_range; exact K).
    set (i := 1 / kappa) in *. pose proof u64_pos as U. assert (U' : u64 <= 1 / 10 ^ 15) by (unfold u64; lra).
    assert (N : near (101 / 100 * u64 * i) (rnd i) i) by (apply near_le with (0 + 101 / 100 * u64 * i); [lra|]; apply near_rnd; [apply near_refl|rewrite Rabs_pos_eq; lra|lra|lra]).
    replace (22 / 10 * u64 * L / kappa) with (22 / 10 * u64 * (i * L)) by (unfold i; field; lra).
    assert (IL : 1 / 10 <= i * L) by nra. assert (UI : 0 <= u64 * (i * L)) by (apply Rmult_le_pos; lra). assert (UI' : u64 * (i * L) <= 1 / 10 ^ 15 * (i * L)) by (apply Rmult_le_compat_r; lra).
    apply (near_mul (101 / 100 * u64 * i) 0 i L (i * L)); [exact N|apply near_refl|rewrite Rabs_pos_eq; lra|exact B|lra|lra|lra|lra].
  Qed.

  (** The exact motions along the rounded and the exact controls of a word. *)
  Lemma controls_near kappa d P s : 1 / 100 <= kappa <= 10 -> 0 <= d <= 30000 -> (exists a b c, dp_type P = [a; b; c]) -> Rabs (dp_t P) <= 8 -> Rabs (dp_p P) <= d + 8 -> Rabs (dp_q P) <= 8 ->
    within (3 / 10 ^ 7 / kappa) (3 / 10 ^ 11) (drive_all s (dubins_controls64 kappa P)) (drive_all s (dubins_controls kappa P)) /\
    total_length (dubins_controls64 kappa P) <= (Rabs (dp_t P) + Rabs (dp_p P) + Rabs (dp_q P) + 1 / 10 ^ 10) / kappa.
  Proof.
    intros K D (a & b & c & E) T PP Q. destruct P as [ty t p q]. cbn [dp_type dp_t dp_p dp_q] in *. subst ty. unfold dubins_controls64, dubins_controls. cbn [dp_type dp_t dp_p dp_q combine map fst snd].
    assert (IK : 1 / 10 <= 1 / kappa <= 100) by (apply inv_range; exact K).
    set (i := 1 / kappa) in *. assert (KI : kappa * i = 1) by (unfold i; field; lra). set (e := 8 / 10 ^ 12 * i).
    assert (LN : forall l, Rabs l <= d + 8 -> Rabs (rnd (rnd i * l) - i * l) <= e).
    { intros l B. pose proof (len_near kappa l (d + 8) K B ltac:(lra)) as N. fold i in N. unfold near in N. eapply Rle_trans; [exact N|]. replace (22 / 10 * u64 * (d + 8) / kappa) with (22 / 10 * u64 * (d + 8) * i) by (unfold i; field; lra).
      unfold e. apply Rmult_le_compat_r; [lra|]. unfold u64. lra. }
    assert (LT := LN t ltac:(lra)). assert (LP := LN p ltac:(lra)). assert (LQ := LN q ltac:(lra)). clear LN.
    assert (S64 : forall g l, exists k, dubins_control64 kappa g l = mkControl (rnd (rnd i * l)) k 0 /\ dubins_control kappa g l = mkControl (i * l) k 0 /\ Rabs k <= kappa).
    { intros [] l; eexists; (split; [reflexivity|split; [reflexivity|]]); apply Rabs_le_between; lra. }
    destruct (S64 a t) as (k1 & -> & -> & K1). destruct (S64 b p) as (k2 & -> & -> & K2). destruct (S64 c q) as (k3 & -> & -> & K3). clear S64.
    set (t' := rnd (rnd i * t)) in *. set (p' := rnd (rnd i * p)) in *. set (q' := rnd (rnd i * q)) in *.
    assert (KE : kappa * e = 8 / 10 ^ 12) by (unfold e; replace (kappa * (8 / 10 ^ 12 * i)) with (8 / 10 ^ 12 * (kappa * i)) by ring; rewrite KI; ring).
    assert (AT : forall l, Rabs (i * l) = i * Rabs l) by (intros l; rewrite Rabs_mult, (Rabs_pos_eq i) by lra; reflexivity).
    assert (NB : forall x y, Rabs (x - y) <= e -> Rabs x <= Rabs y + e) by (intros x y B; replace x with (y + (x - y)) at 1 by ring; eapply Rle_trans; [apply Rabs_triang|lra]).
    split.
    - cbn [drive_all fold_left].
      pose proof (drive_len s k1 t' (i * t) e kappa LT K1) as W1. rewrite KE in W1.
      assert (H1 : 0 <= 8 / 10 ^ 12) by lra. assert (H2 : 0 <= 8 / 10 ^ 12 + 8 / 10 ^ 12) by lra.
      pose proof (drive_two _ _ _ _ (mkControl p' k2 0) H1 W1) as W2. cbn [ct_delta_s] in W2.
      pose proof (within_trans _ _ _ _ _ _ _ W2 (drive_len _ k2 p' (i * p) e kappa LP K2)) as W3. rewrite KE in W3.
      pose proof (drive_two _ _ _ _ (mkControl q' k3 0) H2 W3) as W4. cbn [ct_delta_s] in W4.
      pose proof (within_trans _ _ _ _ _ _ _ W4 (drive_len _ k3 q' (i * q) e kappa LQ K3)) as W5. rewrite KE in W5.
      pose proof (NB _ _ LP) as BP. pose proof (NB _ _ LQ) as BQ. rewrite AT in BP, BQ.
      assert (i * Rabs p <= i * 30008) by (apply Rmult_le_compat_l; lra). assert (i * Rabs q <= i * 8) by (apply Rmult_le_compat_l; lra).
      eapply within_le; [| |exact W5]; [|lra]. replace (3 / 10 ^ 7 / kappa) with (3 / 10 ^ 7 * i) by (unfold i; field; lra). unfold e in *. lra.
    - unfold total_length. cbn [map fold_right ct_delta_s]. pose proof (NB _ _ LT) as BT. pose proof (NB _ _ LP) as BP. pose proof (NB _ _ LQ) as BQ. rewrite AT in BT, BP, BQ.
      replace ((Rabs t + Rabs p + Rabs q + 1 / 10 ^ 10) / kappa) with (i * Rabs t + i * Rabs p + i * Rabs q + 1 / 10 ^ 10 * i) by (unfold i; field; lra). unfold e in *. lra.
  Qed.
End Plan.

(** * The Dubins words in double precision: where they end *)
From Coq Require Import Reals ZArith List Lra Lia Psatz.
From Flocq Require Import Core.
From Coquelicot Require Import Rcomplements.
From Verif Require Import Base ModelUtil ModelDubins ModelFloat SpecArc SpecDubins64 Num JacProofs FloatProofs StepProofs ArcProofs Near ModelDubins64 DubinsProofs Dub64Tmp.
Import ListNotations.
Open Scope R_scope.

Definition hyp (x y : R) : R := sqrt (x * x + y * y).
Lemma hyp_sq x y : hyp x y * hyp x y = x * x + y * y.
Proof. unfold hyp. apply sqrt_sqrt. pose proof (Rle_0_sqr x). pose proof (Rle_0_sqr y). unfold Rsqr in *. lra. Qed.
Lemma hyp_pos x y : 0 <= hyp x y.
Proof. apply sqrt_pos. Qed.
Lemma hyp_x x y : Rabs x <= hyp x y.
Proof. unfold hyp. rewrite <- sqrt_Rsqr_abs. apply sqrt_le_1_alt. unfold Rsqr. pose proof (Rle_0_sqr y). unfold Rsqr in *. lra. Qed.
Lemma hyp_y x y : Rabs y <= hyp x y.
Proof. unfold hyp. rewrite <- sqrt_Rsqr_abs. apply sqrt_le_1_alt. unfold Rsqr. pose proof (Rle_0_sqr x). unfold Rsqr in *. lra. Qed.
Lemma hyp_lip a b c e : Rabs (hyp a b - hyp c e) <= Rabs (a - c) + Rabs (b - e).
Proof.
  pose proof (hyp_pos a b) as P. pose proof (hyp_pos c e) as Q. pose proof (hyp_sq a b) as S1. pose proof (hyp_sq c e) as S2.
  destruct (Req_dec (hyp a b + hyp c e) 0) as [Z|Z].
  - replace (hyp a b) with 0 by lra. replace (hyp c e) with 0 by lra. rewrite Rminus_eq_0, Rabs_R0. pose proof (Rabs_pos (a - c)). pose proof (Rabs_pos (b - e)). lra.
  - assert (P' : 0 < hyp a b + hyp c e) by lra. apply (Rmult_le_reg_r (hyp a b + hyp c e)); [exact P'|].
    rewrite <- (Rabs_pos_eq (hyp a b + hyp c e)) at 1 by lra. rewrite <- Rabs_mult.
    replace ((hyp a b - hyp c e) * (hyp a b + hyp c e)) with ((a - c) * (a + c) + (b - e) * (b + e)) by lra.
    eapply Rle_trans; [apply Rabs_triang|]. rewrite !Rabs_mult, Rmult_plus_distr_r.
    pose proof (hyp_x a b). pose proof (hyp_x c e). pose proof (hyp_y a b). pose proof (hyp_y c e).
    apply Rplus_le_compat; (apply Rmult_le_compat_l; [apply Rabs_pos|]); (eapply Rle_trans; [apply Rabs_triang|lra]).
Qed.

Lemma near_ang_7 a b : near_ang (2 / 10 ^ 13) a b -> near_ang (7 / 10 ^ 13) a b.
Proof. apply near_ang_le. lra. Qed.
Lemma near_5 a b : near (3 / 10 ^ 9 + 3 / 10 ^ 8) a b -> near (5 / 10 ^ 8) a b.
Proof. apply near_le. lra. Qed.

(** The length of a straight or of the double of a chord. *)
Lemma arm d T r : 0 <= d <= 30000 -> 0 <= r -> d - 2 <= r -> near (100 * (u64 * (1 + d) * (1 + d))) T (r * r) ->
  near (43 / 10 ^ 8) (sqrt (Rmax T 0)) r /\ - (1 / 10 ^ 12) <= T.
Proof.
  intros Hd R0 R1 N. pose proof (sizes d Hd) as S. cbv zeta in S. decompose [and] S. clear S. set (D := 1 + d) in *.
  destruct (Rlt_dec r 1) as [L|G].
  - assert (B : u64 * D * D <= 16 * u64).
    { assert (D * D <= 4 * 4) by (apply Rmult_le_compat; unfold D in *; lra). rewrite Rmult_assoc, Rmult_comm. apply Rmult_le_compat_r; lra. }
    assert (U : 1600 * u64 <= 43 / 10 ^ 8 * (43 / 10 ^ 8)) by (unfold u64; lra). split.
    + apply sqrt_near_small; [exact R0|lra|]. apply near_le with (2 := N). lra.
    + unfold near in N. apply Rabs_le_between in N. pose proof (Rle_0_sqr r) as Q. unfold Rsqr in Q. lra.
  - assert (B : u64 * D * D <= u64 * D * (4 * r)) by (apply Rmult_le_compat_l; unfold D in *; lra). split.
    + apply near_le with (400 * (u64 * D)); [lra|]. apply sqrt_near_big; [lra|]. apply near_le with (2 := N). lra.
    + unfold near in N. apply Rabs_le_between in N. assert (u64 * D * (4 * r) <= 1 / 10 ^ 10 * (4 * r)) by (apply Rmult_le_compat_r; lra). assert (1 * r <= r * r) by (apply Rmult_le_compat_r; lra). lra.
Qed.

Lemma tw a a' : near (1 / 10 ^ 13) a a' -> Rabs a' <= 29 -> near_ang (2 / 10 ^ 13) (twopify64 a) a' /\ binary64 (twopify64 a) /\ - (1 / 10 ^ 13) <= twopify64 a <= 71 / 10.
Proof.
  intros N B. pose proof (near_abs _ _ _ _ N B) as C. destruct (twopify_near a) as (P & F & Q); [lra|]. pose proof T_bounds as TB. split; [|split; [exact F|lra]].
  apply near_ang_le with (1 / 10 ^ 13 + 1 / 10 ^ 13); [lra|]. apply (near_ang_trans _ _ _ a); [exact P|]. apply near_ang_of. exact N.
Qed.
Lemma rnd_small a M : Rabs a <= M -> 1 <= M -> M <= 40 -> near (1 / 10 ^ 14) (rnd a) a.
Proof. intros B M0 M1. apply near_le with (0 + 101 / 100 * u64 * M); [unfold u64; lra|]. apply near_rnd; [apply near_refl|exact B|lra|lra]. Qed.

(** What is shown of each word: the lengths are doubles of a usual size and the motion ends near (d, 0, be). *)
Definition ends (d al be : R) (P : DPath) : Prop :=
  (exists a b c, dp_type P = [a; b; c]) /\ binary64 (dp_t P) /\ binary64 (dp_p P) /\ binary64 (dp_q P) /\
  - (1 / 10 ^ 13) <= dp_t P <= 71 / 10 /\ 0 <= dp_p P <= d + 8 /\ - (1 / 10 ^ 13) <= dp_q P <= 71 / 10 /\
  exists x y th, uword (dp_type P) [dp_t P; dp_p P; dp_q P] (0, 0, al) = (x, y, th) /\
  Rabs (x - d) <= 5 / 10 ^ 7 /\ Rabs y <= 5 / 10 ^ 7 /\ near_ang (1 / 10 ^ 12) th be.

Section Words.
  Variables sin64 cos64 acos64 : R -> R.
  Variable atan264 : R -> R -> R.
  Hypothesis LIB : accurate_library sin64 cos64 acos64 atan264.
  Variables d al be : R.
  Hypothesis Fd : binary64 d.
  Hypothesis Fal : binary64 al.
  Hypothesis Fbe : binary64 be.
  Hypothesis d0 : 0 <= d <= 30000.
  Hypothesis al0 : Rabs al <= 71 / 10.
  Hypothesis be0 : Rabs be <= 71 / 10.

  Notation u := u64.
  Notation D := (1 + d).
  Ltac sz := let S := fresh in pose proof (sizes d d0) as S; cbv zeta in S; decompose [and] S; clear S.

  Lemma atan_fmt y x : binary64 y -> binary64 x -> binary64 (atan264 y x).
  Proof. intros A B. destruct LIB as (_ & _ & _ & L). apply (L y x A B). Qed.
  Lemma atan_le y x : binary64 y -> binary64 x -> Rabs (atan264 y x) <= 4.
  Proof. intros A B. destruct LIB as (_ & _ & _ & L). apply (L y x A B). Qed.
  Lemma atan_dir y x : binary64 y -> binary64 x -> near (hyp x y / 2 ^ 50) (hyp x y * cos (atan264 y x)) x /\ near (hyp x y / 2 ^ 50) (hyp x y * sin (atan264 y x)) y.
  Proof. intros A B. destruct LIB as (_ & _ & _ & L). destruct (L y x A B) as (_ & _ & C & S). split; assumption. Qed.

  (** A vector of nearly the computed direction and the right length. *)
  Lemma direction X Y X' Y' psi l el :
    binary64 X' -> binary64 Y' -> near (1 / 10 ^ 9) X' X -> near (1 / 10 ^ 9) Y' Y -> hyp X Y <= D + 2 -> near_ang (7 / 10 ^ 13) psi (atan264 Y' X') -> near el l (hyp X Y) ->
    near (el + 3 / 10 ^ 8) (l * cos psi) X /\ near (el + 3 / 10 ^ 8) (l * sin psi) Y.
  Proof.
    sz. intros FX FY NX NY HM NP NL. set (r := hyp X Y) in *. set (r' := hyp X' Y').
    assert (LR : near (2 / 10 ^ 9) r' r) by (unfold near; eapply Rle_trans; [apply hyp_lip|]; unfold near in NX, NY; lra).
    assert (R' : 0 <= r' <= D + 3) by (split; [apply hyp_pos|]; unfold near in LR; apply Rabs_le_between in LR; lra).
    assert (LL : near (el + 2 / 10 ^ 9) l r') by (apply (near_trans _ _ _ r); [exact NL|apply near_sym; exact LR]).
    destruct (atan_dir Y' X' FY FX) as (C & S). fold r' in C, S.
    assert (Q : r' * (7 / 10 ^ 13) <= 22 / 10 ^ 9) by lra. assert (Q' : r' / 2 ^ 50 <= 1 / 10 ^ 10) by lra.
    assert (EL : 0 <= el + 2 / 10 ^ 9) by (unfold near in LL; pose proof (Rabs_pos (l - r')); lra).
    pose proof (near_ang_cos _ _ _ NP) as PC. pose proof (near_ang_sin _ _ _ NP) as PS. unfold near in *.
    split.
    - replace (l * cos psi - X) with (((l - r') * cos psi + r' * (cos psi - cos (atan264 Y' X'))) + ((r' * cos (atan264 Y' X') - X') + (X' - X))) by ring.
      assert (A1 : Rabs ((l - r') * cos psi) <= (el + 2 / 10 ^ 9) * 1) by (rewrite Rabs_mult; apply Rmult_le_compat; try apply Rabs_pos; [exact LL|apply abs_cos1]).
      assert (A2 : Rabs (r' * (cos psi - cos (atan264 Y' X'))) <= r' * (7 / 10 ^ 13)) by (rewrite Rabs_mult, (Rabs_pos_eq r') by lra; apply Rmult_le_compat_l; [lra|exact PC]).
      eapply Rle_trans; [apply Rabs_triang|]. eapply Rle_trans; [apply Rplus_le_compat; apply Rabs_triang|]. lra.
    - replace (l * sin psi - Y) with (((l - r') * sin psi + r' * (sin psi - sin (atan264 Y' X'))) + ((r' * sin (atan264 Y' X') - Y') + (Y' - Y))) by ring.
      assert (A1 : Rabs ((l - r') * sin psi) <= (el + 2 / 10 ^ 9) * 1) by (rewrite Rabs_mult; apply Rmult_le_compat; try apply Rabs_pos; [exact LL|apply abs_sin1]).
      assert (A2 : Rabs (r' * (sin psi - sin (atan264 Y' X'))) <= r' * (7 / 10 ^ 13)) by (rewrite Rabs_mult, (Rabs_pos_eq r') by lra; apply Rmult_le_compat_l; [lra|exact PS]).
      eapply Rle_trans; [apply Rabs_triang|]. eapply Rle_trans; [apply Rplus_le_compat; apply Rabs_triang|]. lra.
  Qed.

  (** The straight of LSL and RSR. *)
  Lemma straight_near T r : 0 <= r -> d - 2 <= r -> r <= D + 2 -> near (100 * (u * D * D)) T (r * r) ->
    near (44 / 10 ^ 8) (rnd (sqrt (Rmax T 0))) r /\ 0 <= rnd (sqrt (Rmax T 0)) <= d + 8.
  Proof.
    sz. intros R0 R1 R2 N. destruct (arm d T r d0 R0 R1 N) as (A & _).
    assert (B : near (44 / 10 ^ 8) (rnd (sqrt (Rmax T 0))) r).
    { apply near_le with (43 / 10 ^ 8 + 101 / 100 * u * (D + 2)); [lra|]. apply near_rnd; [exact A|apply Rabs_le_between; lra|lra|lra]. }
    split; [exact B|]. split; [rewrite <- (rnd_id 0 fmt_0); apply rnd_le; apply sqrt_pos|]. unfold near in B. apply Rabs_le_between in B. lra.
  Qed.

  Lemma hyp_bounds X Y : Rabs (X - d) <= 2 -> Rabs Y <= 2 -> d - 2 <= hyp X Y <= d + 4.
  Proof.
    intros A B. split.
    - pose proof (hyp_x X Y) as H. pose proof (Rle_abs X). apply Rabs_le_between in A. lra.
    - pose proof (hyp_lip X Y d 0) as L. assert (E : hyp d 0 = d) by (unfold hyp; rewrite Rmult_0_r, Rplus_0_r; apply sqrt_square; lra). rewrite E, Rminus_0_r in L. pose proof (Rle_abs (hyp X Y - d)). lra.
  Qed.
  Lemma hyp_bounds' X Y : Rabs (X - d) <= 2 -> Rabs Y <= 2 -> hyp X Y <= D + 2.
  Proof.
    intros A B.
    assert (E : hyp X Y <= sqrt ((d + 3) * (d + 3))).
    { unfold hyp. apply sqrt_le_1_alt. apply Rabs_le_between in A. apply Rabs_le_between in B. nra. }
    rewrite sqrt_square in E by lra. lra.
  Qed.

  Ltac two := replace 2 with (1 + 1) by ring; first [apply abs_dif2|apply abs_sum2]; rewrite ?Rabs_Ropp; first [apply abs_sin1|apply abs_cos1].
  Ltac ab := repeat match goal with H : near _ _ _ |- _ => unfold near in H; apply Rabs_le_between in H end; apply Rabs_le_between.

  (** Turning to the heading [th] and on to [be]. *)
  Lemma turn_left th t : near (1 / 10 ^ 13) t (- al + th) -> Rabs th <= 9 -> near_ang (2 / 10 ^ 13) (al + twopify64 t) th.
  Proof.
    intros N B. destruct (tw t (- al + th) N) as (A & _); [eapply Rle_trans; [apply (abs_sum2 _ _ (71 / 10) 9); [rewrite Rabs_Ropp; exact al0|exact B]|lra]|].
    replace th with (al + (- al + th)) at 1 by ring. replace (2 / 10 ^ 13) with (0 + 2 / 10 ^ 13) by ring. apply near_ang_plus; [apply near_ang_of, near_refl|exact A].
  Qed.
  Lemma turn_right th t : near (1 / 10 ^ 13) t (al - th) -> Rabs th <= 9 -> near_ang (2 / 10 ^ 13) (al - twopify64 t) th.
  Proof.
    intros N B. destruct (tw t (al - th) N) as (A & _); [eapply Rle_trans; [apply (abs_dif2 _ _ (71 / 10) 9); [exact al0|exact B]|lra]|].
    replace th with (al + - (al - th)) at 1 by ring. replace (2 / 10 ^ 13) with (0 + 2 / 10 ^ 13) by ring. apply near_ang_plus; [apply near_ang_of, near_refl|apply near_ang_opp; exact A].
  Qed.
  Lemma last_left th psi q : near_ang (2 / 10 ^ 13) psi th -> near (1 / 10 ^ 13) q (be - th) -> Rabs th <= 9 -> near_ang (1 / 10 ^ 12) (psi + twopify64 q) be.
  Proof.
    intros P N B. destruct (tw q (be - th) N) as (A & _); [eapply Rle_trans; [apply (abs_dif2 _ _ (71 / 10) 9); [exact be0|exact B]|lra]|].
    apply near_ang_le with (2 / 10 ^ 13 + 2 / 10 ^ 13); [lra|]. replace be with (th + (be - th)) at 1 by ring. apply near_ang_plus; assumption.
  Qed.
  Lemma last_right th psi q : near_ang (2 / 10 ^ 13) psi th -> near (1 / 10 ^ 13) q (- be + th) -> Rabs th <= 9 -> near_ang (1 / 10 ^ 12) (psi - twopify64 q) be.
  Proof.
    intros P N B. destruct (tw q (- be + th) N) as (A & _); [eapply Rle_trans; [apply (abs_sum2 _ _ (71 / 10) 9); [rewrite Rabs_Ropp; exact be0|exact B]|lra]|].
    apply near_ang_le with (2 / 10 ^ 13 + 2 / 10 ^ 13); [lra|]. replace be with (th + - (- be + th)) at 1 by ring. apply near_ang_plus; [exact P|apply near_ang_opp; exact A].
  Qed.
  Lemma rnd_sum a b A B : Rabs a <= A -> Rabs b <= B -> 1 <= A + B <= 40 -> near (1 / 10 ^ 13) (rnd (a + b)) (a + b).
  Proof. intros HA HB M. apply near_le with (1 / 10 ^ 14); [lra|]. apply rnd_small with (A + B); [apply abs_sum2; assumption|lra|lra]. Qed.
  Lemma rnd_dif a b A B : Rabs a <= A -> Rabs b <= B -> 1 <= A + B <= 40 -> near (1 / 10 ^ 13) (rnd (a - b)) (a - b).
  Proof. intros HA HB M. apply (rnd_sum a (- b) A B HA); [rewrite Rabs_Ropp; exact HB|exact M]. Qed.
  Lemma alm : Rabs (- al) <= 71 / 10. Proof. rewrite Rabs_Ropp. exact al0. Qed.
  Lemma bem : Rabs (- be) <= 71 / 10. Proof. rewrite Rabs_Ropp. exact be0. Qed.

  Lemma LSL_ends : ends d al be (solveLSL64 sin64 cos64 atan264 d al be).
  Proof.
    pose proof (LSL_near _ _ _ _ LIB d al be Fal Fbe d0) as NT. pose proof (X_pm _ _ _ _ LIB d al be Fal Fbe d0) as NX. pose proof (Y_dif' _ _ _ _ LIB d al be Fal Fbe d0) as NY.
    unfold solveLSL64. cbv zeta. set (X := d + sin al - sin be) in *. set (Y := cos be - cos al) in *.
    set (X' := rnd (rnd (d + sin64 al) - sin64 be)) in *. set (Y' := rnd (cos64 be - cos64 al)) in *. set (T := tmpLSL64 sin64 cos64 d al be) in *.
    assert (FX : binary64 X') by apply rnd_format. assert (FY : binary64 Y') by apply rnd_format. set (th := atan264 Y' X').
    pose proof (atan_le _ _ FY FX) as TH4. fold th in TH4.
    assert (BX : Rabs (X - d) <= 2) by (replace (X - d) with (sin al - sin be) by (unfold X; ring); two). assert (BY : Rabs Y <= 2) by (unfold Y; two).
    destruct (hyp_bounds X Y BX BY) as (H1 & _). pose proof (hyp_bounds' X Y BX BY) as H2.
    replace (X ^ 2 + Y ^ 2) with (hyp X Y * hyp X Y) in NT by (rewrite hyp_sq; ring). destruct (straight_near T (hyp X Y) (hyp_pos X Y) H1 H2 NT) as (NP & BP).
    set (t := rnd (- al + th)). set (q := rnd (be - th)). set (p := rnd (sqrt (Rmax T 0))) in *.
    assert (NT1 : near (1 / 10 ^ 13) t (- al + th)) by (apply (rnd_sum _ _ (71 / 10) 4); [apply alm|exact TH4|lra]).
    assert (NQ1 : near (1 / 10 ^ 13) q (be - th)) by (apply (rnd_dif _ _ (71 / 10) 4); [exact be0|exact TH4|lra]).
    assert (TH9 : Rabs th <= 9) by lra. pose proof (turn_left th t NT1 TH9) as PSI. pose proof (last_left th _ q PSI NQ1 TH9) as OM.
    destruct (direction X Y X' Y' (al + twopify64 t) p (44 / 10 ^ 8) FX FY NX NY H2 (near_ang_7 _ _ PSI) NP) as (DX & DY).
    pose proof (near_ang_sin _ _ _ OM) as OS. pose proof (near_ang_cos _ _ _ OM) as OC.
    destruct (tw t _ NT1) as (_ & FT & BT); [eapply Rle_trans; [apply (abs_sum2 _ _ _ _ alm TH4)|lra]|]. destruct (tw q _ NQ1) as (_ & FQ & BQ); [eapply Rle_trans; [apply (abs_dif2 _ _ _ _ be0 TH4)|lra]|].
    unfold ends. cbn [dp_type dp_t dp_p dp_q dubins_path_type]. repeat split; try apply rnd_format; try tauto; [do 3 eexists; reflexivity|].
    do 3 eexists. split; [reflexivity|]. cbn [uword fold_left combine useg fst snd]. split; [|split; [|exact OM]]; unfold X, Y in *; ab; lra.
  Qed.

  Lemma RSR_ends : ends d al be (solveRSR64 sin64 cos64 atan264 d al be).
  Proof.
    pose proof (RSR_near _ _ _ _ LIB d al be Fal Fbe d0) as NT. pose proof (X_mp _ _ _ _ LIB d al be Fal Fbe d0) as NX. pose proof (Y_dif _ _ _ _ LIB d al be Fal Fbe d0) as NY.
    unfold solveRSR64. cbv zeta. set (X := d - sin al + sin be) in *. set (Y := cos al - cos be) in *.
    set (X' := rnd (rnd (d - sin64 al) + sin64 be)) in *. set (Y' := rnd (cos64 al - cos64 be)) in *. set (T := tmpRSR64 sin64 cos64 d al be) in *.
    assert (FX : binary64 X') by apply rnd_format. assert (FY : binary64 Y') by apply rnd_format. set (th := atan264 Y' X').
    pose proof (atan_le _ _ FY FX) as TH4. fold th in TH4.
    assert (BX : Rabs (X - d) <= 2) by (replace (X - d) with (sin be - sin al) by (unfold X; ring); two). assert (BY : Rabs Y <= 2) by (unfold Y; two).
    destruct (hyp_bounds X Y BX BY) as (H1 & _). pose proof (hyp_bounds' X Y BX BY) as H2.
    replace (X ^ 2 + Y ^ 2) with (hyp X Y * hyp X Y) in NT by (rewrite hyp_sq; ring). destruct (straight_near T (hyp X Y) (hyp_pos X Y) H1 H2 NT) as (NP & BP).
    set (t := rnd (al - th)). set (q := rnd (- be + th)). set (p := rnd (sqrt (Rmax T 0))) in *.
    assert (NT1 : near (1 / 10 ^ 13) t (al - th)) by (apply (rnd_dif _ _ (71 / 10) 4); [exact al0|exact TH4|lra]).
    assert (NQ1 : near (1 / 10 ^ 13) q (- be + th)) by (apply (rnd_sum _ _ (71 / 10) 4); [apply bem|exact TH4|lra]).
    assert (TH9 : Rabs th <= 9) by lra. pose proof (turn_right th t NT1 TH9) as PSI. pose proof (last_right th _ q PSI NQ1 TH9) as OM.
    destruct (direction X Y X' Y' (al - twopify64 t) p (44 / 10 ^ 8) FX FY NX NY H2 (near_ang_7 _ _ PSI) NP) as (DX & DY).
    pose proof (near_ang_sin _ _ _ OM) as OS. pose proof (near_ang_cos _ _ _ OM) as OC.
    destruct (tw t _ NT1) as (_ & FT & BT); [eapply Rle_trans; [apply (abs_dif2 _ _ _ _ al0 TH4)|lra]|]. destruct (tw q _ NQ1) as (_ & FQ & BQ); [eapply Rle_trans; [apply (abs_sum2 _ _ _ _ bem TH4)|lra]|].
    unfold ends. cbn [dp_type dp_t dp_p dp_q dubins_path_type]. repeat split; try apply rnd_format; try tauto; [do 3 eexists; reflexivity|].
    do 3 eexists. split; [reflexivity|]. cbn [uword fold_left combine useg fst snd]. split; [|split; [|exact OM]]; unfold X, Y in *; ab; lra.
  Qed.

  (** The tangent between circles of opposite orientation. *)
  Lemma cross_near T r : 0 <= r -> d - 2 <= r -> r <= D + 2 -> near (100 * (u * D * D)) T (r * r - 4) -> DUBINS_ZERO64 <= T ->
    near (3 / 10 ^ 9) (hyp (rnd (sqrt (Rmax T 0))) 2) r /\ 0 <= rnd (sqrt (Rmax T 0)) <= d + 8.
  Proof.
    sz. intros R0 R1 R2 N Z. set (p0 := sqrt (Rmax T 0)). assert (P0 : 0 <= p0) by apply sqrt_pos. assert (P2 : p0 * p0 = Rmax T 0) by (apply sqrt_sqrt, Rmax_r).
    assert (ZB : - (11 / 10 ^ 10) <= DUBINS_ZERO64).
    { unfold DUBINS_ZERO64. pose proof (rnd_err (1 / 1000000000)) as E. apply Rabs_le_between in E. rewrite (Rabs_pos_eq (1 / 1000000000)) in E by lra. pose proof tiny. lra. }
    pose proof (hyp_sq p0 2) as HS. pose proof (hyp_y p0 2) as HY. pose proof (hyp_x p0 2) as HX. rewrite (Rabs_pos_eq 2) in HY by lra. rewrite (Rabs_pos_eq p0) in HX by lra. set (h0 := hyp p0 2) in *.
    assert (M : Rabs (Rmax T 0 - (r * r - 4)) <= 100 * (u * D * D) + 11 / 10 ^ 10).
    { unfold near in N. apply Rabs_le_between in N. apply Rabs_le_between. unfold Rmax. destruct (Rle_dec T 0); lra. }
    assert (E0 : near (25 / 10 ^ 10) h0 r).
    { unfold near. apply (Rmult_le_reg_r (h0 + r)); [lra|]. rewrite <- (Rabs_pos_eq (h0 + r)) at 1 by lra. rewrite <- Rabs_mult. replace ((h0 - r) * (h0 + r)) with (Rmax T 0 - (r * r - 4)) by (rewrite <- P2; lra).
      eapply Rle_trans; [exact M|]. assert (A : D <= 3 / 2 * (h0 + r)) by lra. assert (100 * (u * D) * D <= 100 * (u * D) * (3 / 2 * (h0 + r))) by (apply Rmult_le_compat_l; lra).
      assert (150 * (u * D) * (h0 + r) <= 5 / 10 ^ 10 * (h0 + r)) by (apply Rmult_le_compat_r; [lra|]; unfold u64 in *; lra). lra. }
    assert (PB : p0 <= D + 3) by (unfold near in E0; apply Rabs_le_between in E0; lra).
    assert (RP : near (1 / 10 ^ 10) (rnd p0) p0) by (apply near_le with (0 + 101 / 100 * u * (D + 3)); [unfold u64 in *; lra|]; apply near_rnd; [apply near_refl|apply Rabs_le_between; lra|lra|lra]).
    split; [|split].
    - apply near_le with (1 / 10 ^ 10 + 25 / 10 ^ 10); [lra|]. apply (near_trans _ _ _ h0); [|exact E0]. unfold near, h0. eapply Rle_trans; [apply hyp_lip|]. rewrite Rminus_eq_0, Rabs_R0. unfold near in RP. lra.
    - rewrite <- (rnd_id 0 fmt_0). apply rnd_le. exact P0.
    - unfold near in RP. apply Rabs_le_between in RP. lra.
  Qed.

  (** The direction of such a tangent; [s] is 2 or -2. *)
  Lemma cross_dir p s A psi X Y r : binary64 p -> binary64 s -> Rabs s <= 2 -> near (3 / 10 ^ 9) (hyp p s) r -> r <= D + 2 -> 
    near (5 / 10 ^ 8) (hyp p s * cos A) X -> near (5 / 10 ^ 8) (hyp p s * sin A) Y -> A = psi + atan264 s p ->
    near (6 / 10 ^ 8) (p * cos psi - s * sin psi) X /\ near (6 / 10 ^ 8) (p * sin psi + s * cos psi) Y.
  Proof.
    sz. intros FP FS S2 NR RB NX NY EA. destruct (atan_dir s p FS FP) as (C & S). set (h := hyp p s) in *. set (phi := atan264 s p) in *. rewrite EA, cos_plus in NX. rewrite EA, sin_plus in NY.
    assert (HB : 0 <= h <= D + 3) by (split; [apply hyp_pos|]; unfold near in NR; apply Rabs_le_between in NR; lra). assert (HQ : h / 2 ^ 50 <= 1 / 10 ^ 9) by lra.
    assert (K : forall v w x, near (h / 2 ^ 50) v w -> Rabs x <= 1 -> near (1 / 10 ^ 9) (w * x) (v * x)).
    { intros v w x N B. unfold near in *. replace (w * x - v * x) with (- (v - w) * x) by ring. rewrite Rabs_mult, Rabs_Ropp. replace (1 / 10 ^ 9) with (1 / 10 ^ 9 * 1) by ring. apply Rmult_le_compat; try apply Rabs_pos; lra. }
    pose proof (K _ _ _ C (abs_cos1 psi)) as K1. pose proof (K _ _ _ S (abs_sin1 psi)) as K2. pose proof (K _ _ _ C (abs_sin1 psi)) as K3. pose proof (K _ _ _ S (abs_cos1 psi)) as K4. clear K C S.
    split; unfold near in K1, K2, K3, K4, NX, NY |- *; apply Rabs_le_between in K1; apply Rabs_le_between in K2; apply Rabs_le_between in K3; apply Rabs_le_between in K4; apply Rabs_le_between in NX; apply Rabs_le_between in NY; apply Rabs_le_between; lra.
  Qed.

  Lemma RSL_ends : DUBINS_ZERO64 <= tmpRSL64 sin64 cos64 d al be -> ends d al be (solveRSL64 sin64 cos64 atan264 d al be).
  Proof.
    intros Z. pose proof (RSL_near _ _ _ _ LIB d al be Fal Fbe d0) as NT. pose proof (X_mm _ _ _ _ LIB d al be Fal Fbe d0) as NX. pose proof (Y_sum _ _ _ _ LIB d al be Fal Fbe d0) as NY.
    unfold solveRSL64. cbv zeta. set (X := d - sin al - sin be) in *. set (Y := cos al + cos be) in *.
    set (X' := rnd (rnd (d - sin64 al) - sin64 be)) in *. set (Y' := rnd (cos64 al + cos64 be)) in *. set (T := tmpRSL64 sin64 cos64 d al be) in *.
    assert (FX : binary64 X') by apply rnd_format. assert (FY : binary64 Y') by apply rnd_format.
    assert (BX : Rabs (X - d) <= 2) by (replace (X - d) with (- sin al - sin be) by (unfold X; ring); two). assert (BY : Rabs Y <= 2) by (unfold Y; two).
    destruct (hyp_bounds X Y BX BY) as (H1 & _). pose proof (hyp_bounds' X Y BX BY) as H2.
    replace (X ^ 2 + Y ^ 2 - 4) with (hyp X Y * hyp X Y - 4) in NT by (rewrite hyp_sq; ring). destruct (cross_near T (hyp X Y) (hyp_pos X Y) H1 H2 NT Z) as (NP & BP).
    set (p := rnd (sqrt (Rmax T 0))) in *. assert (FP : binary64 p) by apply rnd_format. assert (F2 : binary64 2) by (apply (fmt_int 2); reflexivity).
    pose proof (atan_le _ _ FY FX) as TA. pose proof (atan_le _ _ F2 FP) as TB. set (A := atan264 Y' X') in *. set (phi := atan264 2 p) in *.
    assert (NTH : near (1 / 10 ^ 13) (rnd (A - phi)) (A - phi)) by (apply (rnd_dif _ _ 4 4); [exact TA|exact TB|lra]). set (th := rnd (A - phi)) in *.
    assert (TH9 : Rabs th <= 9) by (eapply Rle_trans; [apply (near_abs _ _ _ 8 NTH); replace 8 with (4 + 4) by ring; apply abs_dif2; assumption|lra]).
    set (t := rnd (al - th)). set (q := rnd (be - th)).
    assert (NT1 : near (1 / 10 ^ 13) t (al - th)) by (apply (rnd_dif _ _ (71 / 10) 9); [exact al0|exact TH9|lra]).
    assert (NQ1 : near (1 / 10 ^ 13) q (be - th)) by (apply (rnd_dif _ _ (71 / 10) 9); [exact be0|exact TH9|lra]).
    pose proof (turn_right th t NT1 TH9) as PSI. pose proof (last_left th _ q PSI NQ1 TH9) as OM. set (psi := al - twopify64 t) in *.
    assert (PA : near_ang (7 / 10 ^ 13) (psi + phi) A).
    { apply near_ang_le with ((2 / 10 ^ 13 + 1 / 10 ^ 13) + 0); [lra|]. replace A with ((A - phi) + phi) at 1 by ring. apply near_ang_plus; [|apply near_ang_of, near_refl]. apply (near_ang_trans _ _ _ th); [exact PSI|apply near_ang_of; exact NTH]. }
    destruct (direction X Y X' Y' (psi + phi) (hyp p 2) (3 / 10 ^ 9) FX FY NX NY H2 PA NP) as (DX & DY).
    destruct (cross_dir p 2 (psi + phi) psi X Y (hyp X Y) FP F2 (abs2) NP H2 (near_5 _ _ DX) (near_5 _ _ DY) eq_refl) as (CX & CY).
    pose proof (near_ang_sin _ _ _ OM) as OS. pose proof (near_ang_cos _ _ _ OM) as OC.
    destruct (tw t _ NT1) as (_ & FT & BT); [eapply Rle_trans; [apply (abs_dif2 _ _ _ _ al0 TH9)|lra]|]. destruct (tw q _ NQ1) as (_ & FQ & BQ); [eapply Rle_trans; [apply (abs_dif2 _ _ _ _ be0 TH9)|lra]|].
    unfold ends. cbn [dp_type dp_t dp_p dp_q dubins_path_type]. repeat split; try apply rnd_format; try tauto; [do 3 eexists; reflexivity|].
    do 3 eexists. split; [reflexivity|]. cbn [uword fold_left combine useg fst snd]. fold psi. clear NP DX DY NX NY NT NTH NT1 NQ1 BX BY H1 H2. split; [|split; [|exact OM]]; unfold X, Y in *; ab; lra.
  Qed.

  Lemma LSR_ends : DUBINS_ZERO64 <= tmpLSR64 sin64 cos64 d al be -> ends d al be (solveLSR64 sin64 cos64 atan264 d al be).
  Proof.
    intros Z. pose proof (LSR_near _ _ _ _ LIB d al be Fal Fbe d0) as NT. pose proof (X_pp _ _ _ _ LIB d al be Fal Fbe d0) as NX. pose proof (Y_neg _ _ _ _ LIB d al be Fal Fbe d0) as NY.
    unfold solveLSR64. cbv zeta. set (X := d + sin al + sin be) in *. set (Y := - cos al - cos be) in *.
    set (X' := rnd (rnd (d + sin64 al) + sin64 be)) in *. set (Y' := rnd (- cos64 al - cos64 be)) in *. set (T := tmpLSR64 sin64 cos64 d al be) in *.
    assert (FX : binary64 X') by apply rnd_format. assert (FY : binary64 Y') by apply rnd_format.
    assert (BX : Rabs (X - d) <= 2) by (replace (X - d) with (sin al + sin be) by (unfold X; ring); two). assert (BY : Rabs Y <= 2) by (unfold Y; two).
    destruct (hyp_bounds X Y BX BY) as (H1 & _). pose proof (hyp_bounds' X Y BX BY) as H2.
    replace (X ^ 2 + Y ^ 2 - 4) with (hyp X Y * hyp X Y - 4) in NT by (rewrite hyp_sq; ring). destruct (cross_near T (hyp X Y) (hyp_pos X Y) H1 H2 NT Z) as (NP & BP).
    set (p := rnd (sqrt (Rmax T 0))) in *. assert (FP : binary64 p) by apply rnd_format. assert (F2 : binary64 (-2)) by (apply (fmt_int (-2)); reflexivity).
    replace (hyp p 2) with (hyp p (-2)) in NP by (unfold hyp; f_equal; ring).
    pose proof (atan_le _ _ FY FX) as TA. pose proof (atan_le _ _ F2 FP) as TB. set (A := atan264 Y' X') in *. set (phi := atan264 (-2) p) in *.
    assert (NTH : near (1 / 10 ^ 13) (rnd (A - phi)) (A - phi)) by (apply (rnd_dif _ _ 4 4); [exact TA|exact TB|lra]). set (th := rnd (A - phi)) in *.
    assert (TH9 : Rabs th <= 9) by (eapply Rle_trans; [apply (near_abs _ _ _ 8 NTH); replace 8 with (4 + 4) by ring; apply abs_dif2; assumption|lra]).
    set (t := rnd (- al + th)). set (q := rnd (- be + th)).
    assert (NT1 : near (1 / 10 ^ 13) t (- al + th)) by (apply (rnd_sum _ _ (71 / 10) 9); [apply alm|exact TH9|lra]).
    assert (NQ1 : near (1 / 10 ^ 13) q (- be + th)) by (apply (rnd_sum _ _ (71 / 10) 9); [apply bem|exact TH9|lra]).
    pose proof (turn_left th t NT1 TH9) as PSI. pose proof (last_right th _ q PSI NQ1 TH9) as OM. set (psi := al + twopify64 t) in *.
    assert (PA : near_ang (7 / 10 ^ 13) (psi + phi) A).
    { apply near_ang_le with ((2 / 10 ^ 13 + 1 / 10 ^ 13) + 0); [lra|]. replace A with ((A - phi) + phi) at 1 by ring. apply near_ang_plus; [|apply near_ang_of, near_refl]. apply (near_ang_trans _ _ _ th); [exact PSI|apply near_ang_of; exact NTH]. }
    destruct (direction X Y X' Y' (psi + phi) (hyp p (-2)) (3 / 10 ^ 9) FX FY NX NY H2 PA NP) as (DX & DY).
    destruct (cross_dir p (-2) (psi + phi) psi X Y (hyp X Y) FP F2 (absm2) NP H2 (near_5 _ _ DX) (near_5 _ _ DY) eq_refl) as (CX & CY).
    pose proof (near_ang_sin _ _ _ OM) as OS. pose proof (near_ang_cos _ _ _ OM) as OC.
    destruct (tw t _ NT1) as (_ & FT & BT); [eapply Rle_trans; [apply (abs_sum2 _ _ _ _ alm TH9)|lra]|]. destruct (tw q _ NQ1) as (_ & FQ & BQ); [eapply Rle_trans; [apply (abs_sum2 _ _ _ _ bem TH9)|lra]|].
    unfold ends. cbn [dp_type dp_t dp_p dp_q dubins_path_type]. repeat split; try apply rnd_format; try tauto; [do 3 eexists; reflexivity|].
    do 3 eexists. split; [reflexivity|]. cbn [uword fold_left combine useg fst snd]. fold psi. clear NP DX DY NX NY NT NTH NT1 NQ1 BX BY H1 H2. split; [|split; [|exact OM]]; unfold X, Y in *; ab; lra.
  Qed.

  (** The middle arc of RLR and LRL. *)
  Lemma acos_near x : binary64 x -> Rabs x < 1 -> near (1 / 10 ^ 14) (rnd (TWO_PI64 - acos64 x)) (2 * PI - acos x) /\ 0 <= rnd (TWO_PI64 - acos64 x) <= 71 / 10.
  Proof.
    sz. intros F B. destruct LIB as (_ & _ & AC & _). destruct (AC x F B) as (_ & E). pose proof two_pi_err as TE. rewrite Rabs_minus_sym in TE. pose proof (acos_bound x) as AB. pose proof PI_4 as P4. pose proof PI2_3_2 as P3.
    assert (M : Rabs (2 * PI - acos x) <= 8) by (apply Rabs_le_between; lra).
    assert (N : near (1 / 10 ^ 14) (rnd (TWO_PI64 - acos64 x)) (2 * PI - acos x)).
    { apply (near_sub (3 * u) (4 * u) 8); [exact TE| |exact M|lra|unfold u64; lra|unfold u64; lra]. unfold near. eapply Rle_trans; [exact E|]. unfold u64. lra. }
    split; [exact N|]. split.
    - rewrite <- (rnd_id 0 fmt_0). apply rnd_le. pose proof T_bounds. apply Rabs_le_between in E. lra.
    - pose proof T_bounds. unfold near in N. apply Rabs_le_between in N. apply Rabs_le_between in TE. unfold u64 in TE. lra.
  Qed.
  Lemma half_acos x : -1 <= x <= 1 -> 4 * sin (acos x / 2) = sqrt (Rmax (8 * (1 - x)) 0).
  Proof.
    intros B. rewrite Rmax_left by lra. symmetry. apply sqrt_lem_1; [lra| |].
    - pose proof (acos_bound x). assert (0 <= sin (acos x / 2)) by (apply sin_ge_0; lra). lra.
    - pose proof (cos_acos x B) as C. replace (acos x) with (2 * (acos x / 2)) in C by field. rewrite cos_2a_sin in C. lra.
  Qed.
  Lemma chord_near T r : binary64 T -> Rabs T < 1 -> 0 <= r -> d - 2 <= r -> near (100 / 8 * (u * D * D)) T (1 - r * r / 8) ->
    near (44 / 10 ^ 8) (4 * sin (rnd (TWO_PI64 - acos64 T) / 2)) r.
  Proof.
    intros F B R0 R1 N. destruct (acos_near T F B) as (A & _). apply Rabs_lt_between in B.
    assert (N8 : near (100 * (u * D * D)) (8 * (1 - T)) (r * r)) by (unfold near in *; apply Rabs_le_between in N; apply Rabs_le_between; lra).
    destruct (arm d _ r d0 R0 R1 N8) as (Q & _). rewrite <- half_acos in Q by lra.
    apply near_le with (1 / 10 ^ 8 + 43 / 10 ^ 8); [lra|]. apply (near_trans _ _ _ (4 * sin (acos T / 2))); [|exact Q].
    replace (sin (acos T / 2)) with (sin ((2 * PI - acos T) / 2)) by (replace ((2 * PI - acos T) / 2) with (PI - acos T / 2) by field; apply sin_PI_x).
    unfold near in *. rewrite <- Rmult_minus_distr_l, Rabs_mult, (Rabs_pos_eq 4) by lra. pose proof (sin_lip (rnd (TWO_PI64 - acos64 T) / 2) ((2 * PI - acos T) / 2)) as L.
    replace (rnd (TWO_PI64 - acos64 T) / 2 - (2 * PI - acos T) / 2) with ((rnd (TWO_PI64 - acos64 T) - (2 * PI - acos T)) * / 2) in L by field. rewrite Rabs_mult, (Rabs_pos_eq (/ 2)) in L by lra. lra.
  Qed.
  Lemma half_near p : 0 <= p <= 71 / 10 -> near (1 / 10 ^ 14) (rnd (1 / 2 * p)) (p / 2).
  Proof. intros B. replace (1 / 2 * p) with (p / 2) by field. apply rnd_small with 4; [apply Rabs_le_between; lra|lra|lra]. Qed.
  Lemma first_near a b p : Rabs a <= 71 / 10 -> Rabs b <= 4 -> 0 <= p <= 71 / 10 -> near (1 / 10 ^ 13) (rnd (rnd (a - b) + rnd (1 / 2 * p))) (a - b + p / 2).
  Proof.
    intros A B P. assert (N : near (1 / 10 ^ 14) (rnd (a - b)) (a - b)) by (apply rnd_small with (71 / 10 + 4); [apply abs_dif2; assumption|lra|lra]).
    apply (near_add (1 / 10 ^ 14) (1 / 10 ^ 14) 20); [exact N|apply half_near; exact P| |lra|lra|unfold u64; lra].
    eapply Rle_trans; [apply (abs_sum2 _ _ (71 / 10 + 4) 4); [apply abs_dif2; assumption|apply Rabs_le_between; lra]|lra].
  Qed.
  Lemma last_near a b t p : Rabs a <= 71 / 10 -> Rabs b <= 71 / 10 -> - (1 / 10 ^ 13) <= t <= 71 / 10 -> 0 <= p <= 71 / 10 ->
    near (1 / 10 ^ 13) (rnd (rnd (rnd (a - b) - t) + p)) (a - b - t + p) /\ Rabs (a - b - t + p) <= 29.
  Proof.
    intros A B T P. assert (TA : Rabs t <= 71 / 10) by (apply Rabs_le_between; lra). assert (PA : Rabs p <= 71 / 10) by (apply Rabs_le_between; lra).
    assert (M1 : Rabs (a - b) <= 15) by (eapply Rle_trans; [apply (abs_dif2 _ _ _ _ A B)|lra]).
    assert (M2 : Rabs (a - b - t) <= 215 / 10) by (apply Rabs_le_between in A; apply Rabs_le_between in B; apply Rabs_le_between; lra).
    assert (M3 : Rabs (a - b - t + p) <= 29) by (apply Rabs_le_between in M2; apply Rabs_le_between; lra). split; [|exact M3].
    apply (near_add (2 / 10 ^ 14) 0 29); [|apply near_refl|exact M3|lra|lra|unfold u64; lra].
    apply (near_sub (1 / 10 ^ 14) 0 (215 / 10)); [apply rnd_small with 15; [exact M1|lra|lra]|apply near_refl|exact M2|lra|lra|unfold u64; lra].
  Qed.

  Lemma RLR_ends : Rabs (tmpRLR64 sin64 cos64 d al be) < 1 -> ends d al be (solveRLR64 sin64 cos64 acos64 atan264 d al be).
  Proof.
    intros Z. pose proof (RLR_near _ _ _ _ LIB d al be Fal Fbe d0) as NT. pose proof (X_mp _ _ _ _ LIB d al be Fal Fbe d0) as NX. pose proof (Y_dif _ _ _ _ LIB d al be Fal Fbe d0) as NY.
    unfold solveRLR64. cbv zeta. set (X := d - sin al + sin be) in *. set (Y := cos al - cos be) in *.
    set (X' := rnd (rnd (d - sin64 al) + sin64 be)) in *. set (Y' := rnd (cos64 al - cos64 be)) in *. assert (FTm : binary64 (tmpRLR64 sin64 cos64 d al be)) by apply rnd_format. set (T := tmpRLR64 sin64 cos64 d al be) in *.
    assert (FX : binary64 X') by apply rnd_format. assert (FY : binary64 Y') by apply rnd_format. set (th := atan264 Y' X').
    pose proof (atan_le _ _ FY FX) as TH4. fold th in TH4.
    assert (BX : Rabs (X - d) <= 2) by (replace (X - d) with (sin be - sin al) by (unfold X; ring); two). assert (BY : Rabs Y <= 2) by (unfold Y; two).
    destruct (hyp_bounds X Y BX BY) as (H1 & _). pose proof (hyp_bounds' X Y BX BY) as H2.
    replace (X ^ 2 + Y ^ 2) with (hyp X Y * hyp X Y) in NT by (rewrite hyp_sq; ring). pose proof (chord_near T (hyp X Y) FTm Z (hyp_pos X Y) H1 NT) as NP. destruct (acos_near T FTm Z) as (_ & BP).
    assert (FP : binary64 (rnd (TWO_PI64 - acos64 T))) by apply rnd_format. set (p := rnd (TWO_PI64 - acos64 T)) in *.
    pose proof (first_near al th p al0 TH4 BP) as NT1. set (t0 := rnd (rnd (al - th) + rnd (1 / 2 * p))) in *.
    destruct (tw t0 _ NT1) as (TT & FT & BT); [eapply Rle_trans; [apply (abs_sum2 _ _ (71 / 10 + 4) 4); [apply abs_dif2; assumption|apply Rabs_le_between; lra]|lra]|]. set (t := twopify64 t0) in *.
    destruct (last_near al be t p al0 be0 BT BP) as (NQ & BQ0). set (q0 := rnd (rnd (rnd (al - be) - t) + p)) in *. destruct (tw q0 _ NQ BQ0) as (QQ & FQ & BQ). set (q := twopify64 q0) in *.
    assert (MID : near_ang (7 / 10 ^ 13) (al - t + p / 2) th).
    { apply near_ang_le with (0 + 2 / 10 ^ 13); [lra|]. replace th with ((al + p / 2) + - (al - th + p / 2)) at 1 by ring. replace (al - t + p / 2) with ((al + p / 2) + - t) by ring. apply near_ang_plus; [apply near_ang_of, near_refl|apply near_ang_opp; exact TT]. }
    assert (OM : near_ang (1 / 10 ^ 12) (al - t + p - q) be).
    { apply near_ang_le with (0 + 2 / 10 ^ 13); [lra|]. replace be with ((al - t + p) + - (al - be - t + p)) at 1 by ring. replace (al - t + p - q) with ((al - t + p) + - q) by ring. apply near_ang_plus; [apply near_ang_of, near_refl|apply near_ang_opp; exact QQ]. }
    destruct (direction X Y X' Y' (al - t + p / 2) (4 * sin (p / 2)) (44 / 10 ^ 8) FX FY NX NY H2 MID NP) as (DX & DY).
    pose proof (near_ang_sin _ _ _ OM) as OS. pose proof (near_ang_cos _ _ _ OM) as OC.
    assert (E1 : sin (al - t + p) - sin (al - t) = 2 * sin (p / 2) * cos (al - t + p / 2)).
    { replace (al - t + p) with ((al - t + p / 2) + p / 2) by field. replace (sin (al - t)) with (sin ((al - t + p / 2) - p / 2)) by (f_equal; ring). rewrite sin_plus, sin_minus. ring. }
    assert (E2 : cos (al - t) - cos (al - t + p) = 2 * sin (p / 2) * sin (al - t + p / 2)).
    { replace (al - t + p) with ((al - t + p / 2) + p / 2) by field. replace (cos (al - t)) with (cos ((al - t + p / 2) - p / 2)) by (f_equal; ring). rewrite cos_plus, cos_minus. ring. }
    unfold ends. cbn [dp_type dp_t dp_p dp_q dubins_path_type]. repeat split; try apply rnd_format; try tauto; try lra; [do 3 eexists; reflexivity|].
    do 3 eexists. split; [reflexivity|]. cbn [uword fold_left combine useg fst snd]. clear NP NX NY NT NT1 NQ BX BY H1 H2. split; [|split; [|exact OM]]; unfold X, Y in *; ab; lra.
  Qed.

  Lemma LRL_ends : Rabs (tmpLRL64 sin64 cos64 d al be) < 1 -> ends d al be (solveLRL64 sin64 cos64 acos64 atan264 d al be).
  Proof.
    intros Z. pose proof (LRL_near _ _ _ _ LIB d al be Fal Fbe d0) as NT. pose proof (X_pm _ _ _ _ LIB d al be Fal Fbe d0) as NX. pose proof (Y_dif' _ _ _ _ LIB d al be Fal Fbe d0) as NY.
    unfold solveLRL64. cbv zeta. replace (- cos64 al + cos64 be) with (cos64 be - cos64 al) by ring. replace (- al + atan264 (rnd (cos64 be - cos64 al)) (rnd (rnd (d + sin64 al) - sin64 be))) with (- al - - atan264 (rnd (cos64 be - cos64 al)) (rnd (rnd (d + sin64 al) - sin64 be))) by ring.
    set (X := d + sin al - sin be) in *. set (Y := cos be - cos al) in *.
    set (X' := rnd (rnd (d + sin64 al) - sin64 be)) in *. set (Y' := rnd (cos64 be - cos64 al)) in *. assert (FTm : binary64 (tmpLRL64 sin64 cos64 d al be)) by apply rnd_format. set (T := tmpLRL64 sin64 cos64 d al be) in *.
    assert (FX : binary64 X') by apply rnd_format. assert (FY : binary64 Y') by apply rnd_format. set (th := atan264 Y' X').
    pose proof (atan_le _ _ FY FX) as TH4. fold th in TH4. assert (TH4' : Rabs (- th) <= 4) by (rewrite Rabs_Ropp; exact TH4).
    assert (BX : Rabs (X - d) <= 2) by (replace (X - d) with (sin al - sin be) by (unfold X; ring); two). assert (BY : Rabs Y <= 2) by (unfold Y; two).
    destruct (hyp_bounds X Y BX BY) as (H1 & _). pose proof (hyp_bounds' X Y BX BY) as H2.
    replace (X ^ 2 + Y ^ 2) with (hyp X Y * hyp X Y) in NT by (rewrite hyp_sq; ring). pose proof (chord_near T (hyp X Y) FTm Z (hyp_pos X Y) H1 NT) as NP. destruct (acos_near T FTm Z) as (_ & BP).
    assert (FP : binary64 (rnd (TWO_PI64 - acos64 T))) by apply rnd_format. set (p := rnd (TWO_PI64 - acos64 T)) in *.
    pose proof (first_near (- al) (- th) p alm TH4' BP) as NT1. set (t0 := rnd (rnd (- al - - th) + rnd (1 / 2 * p))) in *.
    destruct (tw t0 _ NT1) as (TT & FT & BT); [eapply Rle_trans; [apply (abs_sum2 _ _ (71 / 10 + 4) 4); [apply abs_dif2; [apply alm|exact TH4']|apply Rabs_le_between; lra]|lra]|]. set (t := twopify64 t0) in *.
    destruct (last_near be al t p be0 al0 BT BP) as (NQ & BQ0). set (q0 := rnd (rnd (rnd (be - al) - t) + p)) in *. destruct (tw q0 _ NQ BQ0) as (QQ & FQ & BQ). set (q := twopify64 q0) in *.
    assert (MID : near_ang (7 / 10 ^ 13) (al + t - p / 2) th).
    { apply near_ang_le with (0 + 2 / 10 ^ 13); [lra|]. replace th with ((al - p / 2) + (- al - - th + p / 2)) at 1 by ring. replace (al + t - p / 2) with ((al - p / 2) + t) by ring. apply near_ang_plus; [apply near_ang_of, near_refl|exact TT]. }
    assert (OM : near_ang (1 / 10 ^ 12) (al + t - p + q) be).
    { apply near_ang_le with (0 + 2 / 10 ^ 13); [lra|]. replace be with ((al + t - p) + (be - al - t + p)) at 1 by ring. apply near_ang_plus; [apply near_ang_of, near_refl|exact QQ]. }
    destruct (direction X Y X' Y' (al + t - p / 2) (4 * sin (p / 2)) (44 / 10 ^ 8) FX FY NX NY H2 MID NP) as (DX & DY).
    pose proof (near_ang_sin _ _ _ OM) as OS. pose proof (near_ang_cos _ _ _ OM) as OC.
    assert (E1 : sin (al + t) - sin (al + t - p) = 2 * sin (p / 2) * cos (al + t - p / 2)).
    { replace (al + t - p) with ((al + t - p / 2) - p / 2) by field. replace (sin (al + t)) with (sin ((al + t - p / 2) + p / 2)) by (f_equal; ring). rewrite (sin_plus (al + t - p / 2)), (sin_minus (al + t - p / 2)). ring. }
    assert (E2 : cos (al + t - p) - cos (al + t) = 2 * sin (p / 2) * sin (al + t - p / 2)).
    { replace (al + t - p) with ((al + t - p / 2) - p / 2) by field. replace (cos (al + t)) with (cos ((al + t - p / 2) + p / 2)) by (f_equal; ring). rewrite (cos_plus (al + t - p / 2)), (cos_minus (al + t - p / 2)). ring. }
    unfold ends. cbn [dp_type dp_t dp_p dp_q dubins_path_type]. repeat split; try apply rnd_format; try tauto; try lra; [do 3 eexists; reflexivity|].
    do 3 eexists. split; [reflexivity|]. cbn [uword fold_left combine useg fst snd]. clear NP NX NY NT NT1 NQ BX BY H1 H2. split; [|split; [|exact OM]]; unfold X, Y in *; ab; lra.
  Qed.
End Words.

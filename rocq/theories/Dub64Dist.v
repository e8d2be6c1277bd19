(** * The Dubins planner in double precision: the distance *)
From Coq Require Import Reals ZArith List Lra Lia Psatz.
From Flocq Require Import Core.
From Coquelicot Require Import Rcomplements.
From Verif Require Import Base ModelUtil SpecPath ModelDubins ModelFloat ModelArc SpecArc SpecDubins64 Num JacProofs FloatProofs StepProofs ArcProofs ArcPath ArcEnd Near ModelDubins64 DubinsProofs DubinsPlan DubinsOpt Dub64Tmp Dub64Words Dub64Plan Dub64End Dub64Final.
Import ListNotations.
Open Scope R_scope.

Lemma within_dist e h a b : within e h a b -> pos_dist a b <= 2 * e.
Proof.
  intros (X & Y & _). assert (E : 0 <= e) by (pose proof (Rabs_pos (st_x a - st_x b)); lra). unfold pos_dist. rewrite <- (sqrt_Rsqr (2 * e)) by lra. apply sqrt_le_1_alt. unfold Rsqr.
  apply Rabs_le_between in X. apply Rabs_le_between in Y. set (u := st_x a - st_x b) in *. set (v := st_y a - st_y b) in *.
  assert (0 <= (e - u) * (e + u)) by (apply Rmult_le_pos; lra). assert (0 <= (e - v) * (e + v)) by (apply Rmult_le_pos; lra). assert (0 <= e * e) by (apply Rmult_le_pos; lra). replace (u ^ 2 + v ^ 2) with (u * u + v * v) by ring. lra.
Qed.

Section Dist.
  Variables sin64 cos64 acos64 : R -> R.
  Variable atan264 : R -> R -> R.
  Hypothesis LIB : accurate_library sin64 cos64 acos64 atan264.
  Variable kappa : R.
  Hypothesis UK : usual_kappa kappa.

  Notation path := (dubins_path64 sin64 cos64 acos64 atan264 kappa).
  Notation plan := (dubins_get_controls64 sin64 cos64 acos64 atan264 kappa).
  Notation distance := (dubins_get_distance64 sin64 cos64 acos64 atan264 kappa).

  Lemma path_shape s1 s2 : usual_start s1 -> usual_start s2 -> let P := path s1 s2 in
    (exists a b c, dp_type P = [a; b; c]) /\ - (1 / 10 ^ 13) <= dp_t P <= 71 / 10 /\ 0 <= dp_p P <= 30010 /\ - (1 / 10 ^ 13) <= dp_q P <= 71 / 10.
  Proof.
    intros U1 U2 P. destruct (dubins_args64 atan264 kappa s1 s2) as [[d al] be] eqn:E.
    destruct (args_near _ _ _ _ LIB kappa s1 s2 d al be UK U1 U2 E) as (th & Fd & Fa & Fb & D & BA & BB & A1 & A2 & NX & NY & ND).
    assert (D' : 0 <= d <= 30000) by lra. pose proof (dubins64_ends _ _ _ _ LIB d al be Fd Fa Fb D' BA BB) as C.
    assert (EP : P = dubins64 sin64 cos64 acos64 atan264 d al be) by (unfold P, dubins_path64; rewrite E; reflexivity). rewrite <- EP in C. clearbody P. clear EP.
    destruct C as [(CD & CA & ->)|EN].
    - cbn [dp_type dp_t dp_p dp_q]. split; [do 3 eexists; reflexivity|]. lra.
    - destruct EN as (TY & _ & _ & _ & BT & BP & BQ & _). split; [exact TY|]. lra.
  Qed.

  Lemma length_near P : (exists a b c, dp_type P = [a; b; c]) -> - (1 / 10 ^ 13) <= dp_t P <= 71 / 10 -> 0 <= dp_p P <= 30010 -> - (1 / 10 ^ 13) <= dp_q P <= 71 / 10 ->
    Rabs (rnd (rnd (1 / kappa) * dp_length64 P) - total_length (dubins_controls64 kappa P)) <= 1 / 10 ^ 10 / kappa.
  Proof.
    intros (a & b & c & E) T PP Q. pose proof (proj2 UK) as K. pose proof (inv_range kappa K) as IK. destruct P as [ty t p q]. cbn [dp_type dp_t dp_p dp_q] in *. subst ty.
    unfold dubins_controls64, dp_length64. cbn [dp_type dp_t dp_p dp_q combine map fst snd total_length fold_right].
    assert (LN : forall g l, ct_delta_s (dubins_control64 kappa g l) = rnd (rnd (1 / kappa) * l)) by (intros g l; destruct g; reflexivity). rewrite !LN.
    pose proof u64_pos as U. assert (U' : u64 <= 1111 / 10 ^ 19) by (unfold u64; lra).
    assert (N1 : near (1 / 10 ^ 11) (rnd (t + p)) (t + p)) by (apply near_le with (0 + 101 / 100 * u64 * 30018); [lra|]; apply near_rnd; [apply near_refl|apply Rabs_le_between; lra|lra|lra]).
    assert (N2 : near (2 / 10 ^ 11) (rnd (rnd (t + p) + q)) (t + p + q)).
    { apply near_le with (1 / 10 ^ 11 + 101 / 100 * u64 * 30027); [lra|]. apply near_rnd; [|apply Rabs_le_between; unfold near in N1; apply Rabs_le_between in N1; lra|lra|lra].
      unfold near in *. replace (rnd (t + p) + q - (t + p + q)) with (rnd (t + p) - (t + p)) by ring. exact N1. }
    set (l := rnd (rnd (t + p) + q)) in *. clearbody l. unfold near in N2. apply Rabs_le_between in N2.
    assert (B : forall x, Rabs x <= 30028 -> Rabs (rnd (rnd (1 / kappa) * x) - 1 / kappa * x) <= 8 / 10 ^ 12 * (1 / kappa)).
    { intros x X. pose proof (len_near kappa x 30028 K X ltac:(lra)) as N. unfold near in N. eapply Rle_trans; [exact N|]. replace (22 / 10 * u64 * 30028 / kappa) with (22 / 10 * u64 * 30028 * (1 / kappa)) by (field; lra). apply Rmult_le_compat_r; lra. }
    assert (X : forall x, - (1 / 10 ^ 13) <= x <= 30028 -> Rabs (Rabs (rnd (rnd (1 / kappa) * x)) - 1 / kappa * x) <= 85 / 10 ^ 13 * (1 / kappa)).
    { intros x X. assert (XA : Rabs x <= 30028) by (apply Rabs_le_between; lra). pose proof (B x XA) as N. pose proof (Rabs_triang_inv2 (rnd (rnd (1 / kappa) * x)) (1 / kappa * x)) as R2. rewrite (Rabs_mult (1 / kappa) x), (Rabs_pos_eq (1 / kappa)) in R2 by lra.
      assert (AX : x <= Rabs x <= x + 2 / 10 ^ 13) by (unfold Rabs; destruct (Rcase_abs x); lra). assert (1 / kappa * x <= 1 / kappa * Rabs x <= 1 / kappa * (x + 2 / 10 ^ 13)) by (split; apply Rmult_le_compat_l; lra).
      pose proof (Rle_trans _ _ _ R2 N) as R3. apply Rabs_le_between in R3. apply Rabs_le_between. lra. }
    assert (XL : Rabs l <= 30028) by (apply Rabs_le_between; lra).
    pose proof (B l XL) as NL. pose proof (X t ltac:(lra)) as NT. pose proof (X p ltac:(lra)) as NP. pose proof (X q ltac:(lra)) as NQ.
    set (rt := Rabs (rnd (rnd (1 / kappa) * t))) in *. set (rp := Rabs (rnd (rnd (1 / kappa) * p))) in *. set (rq := Rabs (rnd (rnd (1 / kappa) * q))) in *. set (rl := rnd (rnd (1 / kappa) * l)) in *. clearbody rt rp rq rl.
    assert (SL : 1 / kappa * (t + p + q - 2 / 10 ^ 11) <= 1 / kappa * l <= 1 / kappa * (t + p + q + 2 / 10 ^ 11)) by (split; apply Rmult_le_compat_l; lra).
    replace (1 / 10 ^ 10 / kappa) with (1 / 10 ^ 10 * (1 / kappa)) by (field; lra). set (i := 1 / kappa) in *. clearbody i.
    apply Rabs_le_between in NL. apply Rabs_le_between in NT. apply Rabs_le_between in NP. apply Rabs_le_between in NQ. apply Rabs_le_between. lra.
  Qed.

  Lemma plan_distance fw s1 s2 : usual_start s1 -> usual_start s2 ->
    Rabs (distance fw s1 s2 - total_length (plan fw s1 s2)) <= 1 / 10 ^ 10 / kappa /\ pos_dist s1 s2 - 1 / 10 ^ 5 / kappa <= distance fw s1 s2 <= pos_dist s1 s2 + 24 / kappa.
  Proof.
    intros U1 U2. assert (E : Rabs (distance fw s1 s2 - total_length (plan fw s1 s2)) <= 1 / 10 ^ 10 / kappa).
    { unfold dubins_get_distance64, dubins_get_controls64. destruct fw; [|rewrite total_length_negrev].
      - destruct (path_shape s1 s2 U1 U2) as (A & B & C & D). apply length_near; assumption.
      - destruct (path_shape s2 s1 U2 U1) as (A & B & C & D). apply length_near; assumption. }
    split; [exact E|]. destruct (plan_end _ _ _ _ LIB _ UK fw s1 s2 U1 U2) as (W & _ & L & _). pose proof (within_dist _ _ _ _ W) as WD. pose proof (drive_all_dist (plan fw s1 s2) s1) as DD.
    pose proof (pos_dist_triangle s1 (drive_all s1 (plan fw s1 s2)) s2) as TR. pose proof (inv_range kappa (proj2 UK)) as IK. assert (K : 0 < kappa) by (pose proof (proj2 UK); lra).
    assert (DI : forall v, v / kappa = v * (1 / kappa)) by (intros v; field; lra). set (i := 1 / kappa) in *. rewrite DI in E, L, WD. rewrite !DI. apply Rabs_le_between in E. lra.
  Qed.
End Dist.

Lemma asserts_case : binary64 5 /\ binary64 1 /\ binary64 2 /\ 0 <= 5 <= 30000 /\ Rabs 1 <= 71 / 10 /\ Rabs 2 <= 71 / 10.
Proof. split; [apply (fmt_int 5); reflexivity|]. split; [apply (fmt_int 1); reflexivity|]. split; [apply (fmt_int 2); reflexivity|]. rewrite !Rabs_pos_eq by lra. lra. Qed.

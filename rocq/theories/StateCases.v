(** * Sampled paths between states of any curvature that leave the bound or miss the goal *)
From Coq Require Import Reals ZArith List Lra Lia.
From Verif Require Import Base ModelUtil ModelFresnel ModelIntegrate ModelCircle ModelPaths ModelWrap SpecCloth SpecPath SpecTurn SpecPlan SpecWrap SpecFollow
  PoseAlg MotionProofs IntegrateProofs StateProofs StatePlan WrapCases FollowProofs FollowPlan.
Import ListNotations.
Open Scope R_scope.

Lemma sampled_astray e s1 s2 c : Rabs (ct_delta_s c) = 1 / 2 -> ~ heading_within (1 / 10) (true_path s1 [c]) s2 ->
  (exists path, hc_integrate (1 / 10) s1 [c] = Some path) /\ forall disc path, 0 < disc -> hc_integrate disc s1 [c] = Some path -> ~ arrives e (9 / 100) s2 path.
Proof.
  intros A H. assert (T : total_length [c] = 1 / 2) by (unfold total_length; cbn [fold_right]; lra). split.
  - apply hc_integrate_total; [lra|discriminate|]. rewrite T. cbn [length INR]. lra.
  - intros disc path D I (q & Q & _ & z & Z). destruct (integrate_ends disc s1 c [] path D I) as (q' & Q' & _ & w & W). rewrite Q' in Q. injection Q as E. subst q'.
    rewrite T in W. apply H. exists (z - w)%Z. unfold pst in W; cbn [pt] in W. rewrite minus_IZR.
    replace (st_theta (true_path s1 [c]) - st_theta s2 - 2 * PI * (IZR z - IZR w)) with ((st_theta q - st_theta s2 - 2 * PI * IZR z) - (st_theta q - st_theta (true_path s1 [c]) - 2 * PI * IZR w)) by ring.
    unfold turn_drift, epsilon in W. unfold Rabs in *. repeat destruct (Rcase_abs _); lra.
Qed.

Section Junk.
  Variable junk : R.

  Lemma cc_sampled_refuted e : exists s1 s2 cs, Rabs (st_kappa s1) <= 1 /\ Rabs (st_kappa s2) <= 1 /\ pos_dist s1 s2 <= 1 /\ cc_dubins_controls junk 1 1 true s1 s2 = Some cs /\
    (exists path, hc_integrate (1 / 10) s1 cs = Some path) /\ forall disc path, 0 < disc -> hc_integrate disc s1 cs = Some path -> ~ arrives e (9 / 100) s2 path.
  Proof.
    destruct (cc_refuted_case junk) as (s1 & s2 & K1 & K2 & P & C & H & _). exists s1, s2, [mkControl (1 / 2) 1 0].
    split; [exact K1|split; [exact K2|split; [exact P|split; [exact C|]]]]. apply sampled_astray; [cbn [ct_delta_s]; apply Rabs_pos_eq; lra|exact H].
  Qed.
  Lemma hc_sampled_refuted e : exists s1 s2 cs, Rabs (st_kappa s1) <= 1 /\ Rabs (st_kappa s2) <= 1 /\ pos_dist s1 s2 <= 1 /\ hc_rs_controls junk 1 1 s1 s2 = Some cs /\
    (exists path, hc_integrate (1 / 10) s1 cs = Some path) /\ forall disc path, 0 < disc -> hc_integrate disc s1 cs = Some path -> ~ arrives e (9 / 100) s2 path.
  Proof.
    destruct (hc_refuted_case junk) as (s1 & s2 & K1 & K2 & P & C & H & _). exists s1, s2, [mkControl (- (1 / 2)) 1 0].
    split; [exact K1|split; [exact K2|split; [exact P|split; [exact C|]]]]. apply sampled_astray; [cbn [ct_delta_s]; rewrite Rabs_Ropp; apply Rabs_pos_eq; lra|exact H].
  Qed.

  (** The curvature of the last state: 1/2 at the start, increased by the sharpness over one metre. *)
  Lemma sampled_curvature_refuted : exists s1 s2 cs path q, Rabs (st_kappa s1) <= 1 /\ Rabs (st_kappa s2) <= 1 /\ pos_dist s1 s2 <= 3 /\
    cc_dubins_controls junk 1 1 true s1 s2 = Some cs /\ hc_integrate 1 s1 cs = Some path /\ In q path /\ 14 / 10 < st_kappa q.
  Proof.
    destruct (cc_curvature_case junk) as (s1 & s2 & K & K1 & K2 & P & C & _). set (c := mkControl 1 (1 / 2) 1) in *.
    assert (A1 : Rabs 1 = 1) by (apply Rabs_pos_eq; lra).
    assert (C1 : ceilZ (1 / 1) = 1%Z) by (apply ceilZ_unique; lra).
    assert (L1 : loop_count 1 1 = Some 1%nat) by (unfold loop_count; rewrite C1; reflexivity).
    assert (N : hc_enter c (rs_enter c s1) = None).
    { unfold hc_enter. cbn [rs_enter st_kappa c ct_kappa]. rewrite Rminus_eq_0, Rabs_R0. destruct (Rlt_dec epsilon 0) as [H|H]; [unfold epsilon in H; lra|reflexivity]. }
    exists s1, s2, [c], [rs_enter c s1; hc_ode c (rs_enter c s1) 1], (hc_ode c (rs_enter c s1) 1).
    split; [exact K1|split; [exact K2|split; [exact P|split; [exact C|split; [|split]]]]].
    - unfold hc_integrate, reserve_ok. cbn [n_states_loop]. change (ct_delta_s c) with 1. rewrite A1, C1.
      change (0 + 1 <=? INT_MAX)%Z with true. cbn iota. cbn [Z.add]. change (Z.pos (1 + 3) <=? INT_MAX)%Z with true. cbn iota.
      cbn [hc_integrate_loop]. change (ct_delta_s c) with 1. rewrite A1, L1, N. cbn [fbind steps]. unfold next_step. destruct (Rlt_dec 1 (0 + 1)); [lra|]. reflexivity.
    - right. left. reflexivity.
    - rewrite hc_ode_kappa. cbn [rs_enter st_kappa c ct_sigma ct_kappa]. rewrite A1. unfold epsilon. destruct (Rlt_dec (1 / 10000) 1); lra.
  Qed.
End Junk.

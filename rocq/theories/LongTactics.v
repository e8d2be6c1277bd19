(** * Tactics for the candidates against the longer paths with cusps *)
From Coq Require Import Reals ZArith List Lra Lia Bool.
From Verif Require Import Base ModelUtil ModelCircle ModelPaths Num UtilProofs SpecPath SpecTurn SpecSide SpecOpt SpecCusp SpecLong PoseAlg TurnProofs TurnBounds LegProofs TangentProofs PlanProofs PlanTactics PlanHybrid PlanFamily PlanBounds PlanSelect PlanRadius OptProofs OptTangent OptWord OptTactics CuspWord CuspTactics LongWord.
Import ListNotations.
Open Scope R_scope.

Lemma at_sin x y l f reg p : c_sin_mu (circle_at x y l f reg p) = p_sin_mu p.
Proof. unfold circle_at. destruct l; reflexivity. Qed.
Lemma at_cos x y l f reg p : c_cos_mu (circle_at x y l f reg p) = p_cos_mu p.
Proof. unfold circle_at. destruct l; reflexivity. Qed.
Lemma sqrt_le_D e D : 0 <= D -> e <= D ^ 2 -> sqrt e <= D.
Proof. intros DP E. rewrite <- (sqrt_pow2 D DP). apply sqrt_le_1_alt, E. Qed.
Lemma scaled_sqrt a e D : 0 <= a -> 0 <= e -> 0 <= D -> a ^ 2 * e <= D ^ 2 -> a * sqrt e <= D.
Proof. intros AP EP DP E. rewrite <- (sqrt_pow2 a AP) at 1. rewrite <- sqrt_mult_alt by apply pow2_ge_0. apply sqrt_le_D; assumption. Qed.
Lemma grow d a : 0 <= d -> 0 <= a -> a ^ 2 <= (d + a) ^ 2.
Proof. intros. nra. Qed.
(** The offsets of the circle of a middle turn of a crossing line. *)
Lemma cross_root D M y u dy : 0 < D -> D ^ 2 = M ^ 2 + (2 * y) ^ 2 -> 0 <= u -> D * dy = u * (2 * y) ->
  0 <= u ^ 2 - dy ^ 2 /\ 0 <= sqrt (u ^ 2 - dy ^ 2) /\ sqrt (u ^ 2 - dy ^ 2) ^ 2 + dy ^ 2 = u ^ 2.
Proof.
  intros DP DD UP E. assert (P : 0 <= u ^ 2 - dy ^ 2).
  { assert (S : D ^ 2 * (u ^ 2 - dy ^ 2) = u ^ 2 * M ^ 2) by (transitivity (D ^ 2 * u ^ 2 - (D * dy) ^ 2); [ring|rewrite E, DD; ring]).
    assert (0 <= u ^ 2 * M ^ 2) by (rewrite <- Rpow_mult_distr; apply pow2_ge_0). assert (0 < D ^ 2) by nra. nra. }
  split; [exact P|]. split; [apply sqrt_pos|]. rewrite pow2_sqrt by exact P. ring.
Qed.
Lemma cross_root_cc D M y dy t : 0 < D -> 0 <= y -> D ^ 2 = M ^ 2 + (2 * y) ^ 2 -> D * dy = (2 * y) ^ 2 -> D * t = dy ->
  0 <= 1 - t /\ 0 <= 2 * y * sqrt (1 - t) /\ (2 * y * sqrt (1 - t)) ^ 2 + dy ^ 2 = (2 * y) ^ 2.
Proof.
  intros DP YP DD E F. assert (G : D ^ 2 * t = (2 * y) ^ 2) by (rewrite <- E, <- F; ring). assert (0 < D ^ 2) by nra. pose proof (pow2_ge_0 M).
  assert (P : 0 <= 1 - t) by nra. split; [exact P|]. split; [apply Rmult_le_pos; [lra|apply sqrt_pos]|]. rewrite Rpow_mult_distr, pow2_sqrt by exact P. rewrite <- G, <- F. ring.
Qed.

Ltac long_flags rt t :=
  fields_goal; rewrite ?negb_involutive, ?eqb_reflx, ?eqb_negb_r, ?eqb_negb_s; cbn [negb andb orb];
  repeat match goal with |- context [match fsqrt ?e with _ => _ end] => rewrite (fsqrt_def e) by rt end;
  unfold Rleb, Rltb; cusp_dec t; cbn [negb andb orb fbind].
(** The circle of a middle turn. *)
Ltac long_circle tg :=
  match goal with |- context [match global_frame_change ?x ?y ?an ?dx ?dy with _ => _ end] =>
    let u := fresh "u" in let v := fresh "v" in let GF := fresh "GF" in
    destruct (global_frame_change x y an dx dy) as [u v] eqn:GF; cbv beta iota zeta;
    match goal with |- context [circle_at u v ?l ?f ?reg ?p] =>
      let XE := fresh "XE" in let YE := fresh "YE" in let EL := fresh "EL" in let EF := fresh "EF" in
      destruct (at_fields u v l f reg p) as (XE & YE & EL & EF);
      let MU := fresh "MU" in let RA := fresh "RA" in let SI := fresh "SI" in let CO := fresh "CO" in
      pose proof (at_mu u v l f reg p) as MU; pose proof (at_radius u v l f reg p) as RA; pose proof (at_sin u v l f reg p) as SI; pose proof (at_cos u v l f reg p) as CO;
      set (tg := circle_at u v l f reg p) in *;
      let CT := fresh "CT" in assert (CT : (c_xc tg, c_yc tg) = global_frame_change x y an dx dy) by (rewrite XE, YE; symmetry; exact GF); clear GF XE YE; rewrite ?negb_involutive in EL, EF
    end
  end.
Ltac long_side := match goal with H : c_left ?t = _ |- c_left ?t = _ => rewrite H, ?negb_involutive; reflexivity | H : c_forward ?t = _ |- c_forward ?t = _ => rewrite H, ?negb_involutive; reflexivity end.
(** The case of the first of two circles. *)
Ltac long_branch t :=
  fields_goal; rewrite ?negb_involutive; cbn [negb];
  try match goal with |- context [if Rltb ?u ?v then flet _ := _ in _ else _] => first [replace (Rltb u v) with true by (symmetry; unfold Rltb; destruct (Rlt_dec u v) as [_|NN]; [reflexivity|exfalso; apply NN; t]) | replace (Rltb u v) with false by (symmetry; unfold Rltb; destruct (Rlt_dec u v) as [NN|_]; [exfalso; t|reflexivity])]; cbv beta iota end;
  cbn [fbind].
Lemma mu_cos k s : 0 < k -> 0 < s -> p_cos_mu (hc_cc_param k s) = cos (p_mu (hc_cc_param k s)).
Proof. intros Hk Hs. apply (param_nom k s Hk Hs). Qed.

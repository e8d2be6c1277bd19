(** * The turn circle is at least half as large as the circle of largest curvature *)
From Coq Require Import Reals ZArith List Lra Lia Bool.
From Coquelicot Require Import Coquelicot.
From Verif Require Import Base FresPoly ModelUtil ModelFresnel ModelCircle Num UtilProofs SpecCloth SpecTurn SpecFresnel FresAcc FresProofs FresFinal ClothProofs PoseAlg ParamProofs TurnProofs TangentProofs PlanBounds.
Open Scope R_scope.

Lemma V_half_large w : 1 <= w -> 11 / 100 + 1 / (PI * w) <= V w.
Proof.
  intros W. pose proof PI_bounds. pose proof V_1.
  pose proof (nondecr (fun t => V t - 1 / (PI * t)) (fun t => (1 - cos (xx t)) / (PI * t ^ 2)) 1 w W) as N.
  assert (Q : V 1 - 1 / (PI * 1) <= V w - 1 / (PI * w)).
  { apply N.
    - intros t T. evar_last. { apply @is_derive_minus; [apply d_V; lra|apply d_inv; lra]. }
      unfold minus, plus, opp; cbn -[xx cos sin pow]. field. split; nra.
    - intros t T. apply quot_nonneg; [|lra]. pose proof (COS_bound (xx t)). lra. }
  assert (1 / (PI * 1) <= 31832 / 100000).
  { apply Rmult_le_reg_r with (PI * 1); [lra|]. unfold Rdiv at 1. rewrite Rmult_assoc, Rinv_l by lra. lra. }
  lra.
Qed.

Lemma Vl_half w : 0 < w -> 1 / 2 * (1 / (PI * w)) <= Vl w.
Proof.
  intros W. pose proof PI_bounds as PB. assert (PW : 0 < 1 / (PI * w)) by (apply Rdiv_lt_0_compat; nra). unfold Vl.
  destruct (Rle_dec 1 w) as [L|L].
  - pose proof (V_half_large w L) as A. pose proof (accuracy w) as [_ B]. unfold V in A. apply Rabs_le_between in B. lra.
  - destruct (Rle_dec (1 / 2) w) as [M|M].
    + pose proof (V_small w ltac:(lra)) as A. pose proof (accuracy w) as [_ B]. unfold V in A. apply Rabs_le_between in B.
      assert (1 / (PI * w) <= 8 / 10); [|lra]. apply Rmult_le_reg_r with (PI * w); [nra|]. unfold Rdiv at 1. rewrite Rmult_assoc, Rinv_l by nra. nra.
    + pose proof (rel_S w ltac:(lra)) as B. apply Rabs_le_between in B. pose proof (FS_low1 w ltac:(lra)) as F. assert (0 < w ^ 3) by (apply pow_lt; exact W).
      assert (C : 9 / 10 <= cos (xx w)).
      { assert (X : 0 <= xx w <= 2 / 5) by (unfold xx; assert (0 <= w ^ 2 <= 1 / 4) by nra; nra).
        replace (xx w) with (2 * (xx w / 2)) by field. rewrite cos_2a_sin. pose proof (sin_le (xx w / 2) ltac:(lra)). assert (0 <= sin (xx w / 2)) by (apply sin_ge_0; lra). nra. }
      assert (9 / 10 * (1 / (PI * w)) <= cos (xx w) / (PI * w)).
      { replace (cos (xx w) / (PI * w)) with (cos (xx w) * (1 / (PI * w))) by (field; lra). apply Rmult_le_compat_r; lra. }
      assert (6 / 10 <= 1 / (PI * w)). { apply Rmult_le_reg_r with (PI * w); [nra|]. unfold Rdiv at 2. rewrite Rmult_assoc, Rinv_l by nra. nra. }
      lra.
Qed.

Lemma nom_Y_half k s : 0 < k -> 0 < s -> 1 / 2 * (1 / k) <= nom_Y k s.
Proof.
  intros Hk Hs. assert (KP : 0 < 1 / k) by (apply Rdiv_lt_0_compat; lra). pose proof PI_gt as PG. unfold nom_Y. destruct (Rlt_dec epsilon (k / s)); [|lra].
  rewrite par_Y_V by assumption. rewrite <- (par_inv k s Hk Hs).
  pose proof (Vl_half (par_w k s) (par_w_pos k s Hk Hs)) as V. assert (0 <= sqrt (PI / s)) by apply sqrt_pos. nra.
Qed.
Lemma radius_half k s : 0 < k -> 0 < s -> 1 / k <= 2 * p_radius (hc_cc_param k s).
Proof.
  intros Hk Hs. pose proof (nom_Y_half k s Hk Hs) as YH. destruct (nom_pos k s Hk Hs) as [XP YP]. destruct (param_nom k s Hk Hs) as (_ & _ & _ & _ & _ & _ & RR & _). rewrite RR.
  assert (Y2 : nom_Y k s <= sqrt (nom_X k s ^ 2 + nom_Y k s ^ 2)).
  { apply Rsqr_incr_0_var; [|apply sqrt_pos]. rewrite Rsqr_sqrt by nra. unfold Rsqr. nra. }
  lra.
Qed.

Lemma TiST_defined R0 sm cm c1 c2 : 0 < center_distance c1 c2 -> 0 <= R0 -> -1 <= cm <= 1 -> 2 * R0 <= center_distance c1 c2 -> gTiST R0 sm cm c1 c2 <> None.
Proof.
  intros D0 RP CB LE. unfold gTiST. cbv zeta. set (D := center_distance c1 c2) in *. unfold fdiv. destruct (Req_EM_T D 0) as [Z|_]; [lra|]. cbn [fbind].
  assert (B : -1 <= 2 * R0 * cm / D <= 1).
  { assert (E : 2 * R0 * cm / D * D = 2 * R0 * cm) by (field; lra). split; apply Rmult_le_reg_r with D; try lra; rewrite E; nra. }
  unfold fasin. destruct (Rlt_dec _ (-1)); [lra|]. destruct (Rlt_dec 1 _); [lra|]. cbn [fbind].
  repeat match goal with |- context [if ?b then _ else _] => destruct b end;
    repeat match goal with |- context [let '(x, y) := global_frame_change ?a ?b ?c ?d ?e in _] => destruct (global_frame_change a b c d e) end; discriminate.
Qed.

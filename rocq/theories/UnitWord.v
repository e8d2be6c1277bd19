(** * Goals at the end of one turn or one straight line *)
From Coq Require Import Reals ZArith List Lra Lia Bool.
From Verif Require Import Base ModelUtil ModelCircle ModelPaths Num UtilProofs SpecPath SpecTurn SpecSide SpecOpt SpecCusp PoseAlg TurnProofs LegProofs TangentProofs PlanProofs PlanTactics PlanFamily PlanBounds PlanSelect PlanRadius OptProofs OptTangent OptWord OptTactics CuspWord.
Import ListNotations.
Open Scope R_scope.

(** The test for a goal on the circle of the start succeeds on the circle. *)
Lemma on_circle_exact c q l f : c_left c = l -> c_forward c = f -> c_sin_mu c = sin (c_mu c) -> c_cos_mu c = cos (c_mu c) -> 0 < c_radius c -> 0 <= q_theta q < TWO_PI ->
  off c q (- (sign f * (c_radius c * c_sin_mu c))) (sign l * (c_radius c * c_cos_mu c)) -> configuration_on_hc_cc_circle c q = true.
Proof.
  intros EL EF SM CM RP QR O. unfold off, frame, pcf in O. cbn [px py pt] in O. injection O as OX OY. rewrite SM, CM in OX, OY. set (rr := c_radius c) in *. set (mu := c_mu c) in *. set (th := q_theta q) in *.
  set (al := if l then if f then th + mu - PI / 2 else th - mu - PI / 2 else if f then th - mu + PI / 2 else th + mu + PI / 2).
  assert (X : q_x q - c_xc c = rr * cos al). { rewrite OX. unfold al. destruct l, f; cbn [sign]; rewrite ?cos_plus, ?cos_minus, ?sin_plus, ?sin_minus, cos_PI2, sin_PI2; ring. }
  assert (Y : q_y q - c_yc c = rr * sin al). { rewrite OY. unfold al. destruct l, f; cbn [sign]; rewrite ?cos_plus, ?cos_minus, ?sin_plus, ?sin_minus, ?cos_plus, ?cos_minus, ?sin_plus, ?sin_minus, ?cos_PI2, ?sin_PI2; ring. }
  assert (D : point_distance (c_xc c) (c_yc c) (q_x q) (q_y q) = rr).
  { unfold point_distance. rewrite X, Y. apply (hyp_eq (rr * cos al) (rr * sin al) rr); [lra|]. pose proof (cos_sq al) as T. ring [T]. }
  unfold configuration_on_hc_cc_circle. rewrite D. fold rr. destruct (Rlt_dec _ _) as [N|_].
  { exfalso. rewrite Rminus_diag_eq, Rabs_R0 in N by reflexivity. unfold epsilon in N. lra. }
  rewrite X, Y, EL, EF. fold mu. pose proof (atan2_polar rr al RP) as A. set (an := atan2 _ _) in *.
  match goal with |- context [twopify ?u] => assert (T : twopify u = th) end.
  { apply twopify_unique; [|exact QR]. destruct A as [n E]. exists (- n)%Z. rewrite opp_IZR. unfold HALF_PI. destruct l, f; unfold al in E; rewrite E; lra. }
  rewrite T. unfold Rltb. destruct (Rlt_dec _ _) as [|N]; [reflexivity|]. exfalso. apply N. rewrite Rminus_diag_eq, Rabs_R0 by reflexivity. unfold epsilon. lra.
Qed.

Section Unit.
  Variables (k s : R).
  Hypothesis Hk : 0 < k.
  Hypothesis Hs : 0 < s.
  Hypothesis HE : epsilon < k / s.
  Local Notation p := (hc_cc_param k s).

  Lemma unit_rel z1 z2 l f a s1 s2 : same_pose (lib_path s1 (turn k s z1 z2 l f a)) s2 -> turn_rel k s z1 z2 l f a (pst s1) (pst s2).
  Proof. intros W. eapply turn_rel_congr; [apply peq_refl|exact (same_peq _ _ W)|]. apply turn_turn_rel; assumption. Qed.
  Lemma unit_seg z1 z2 l f a s1 s2 q1 q2 : 0 <= a -> same_pose (lib_path s1 (turn k s z1 z2 l f a)) s2 -> at_conf s1 q1 -> at_conf s2 q2 ->
    seg k s z1 z2 l f (turn_len k s z1 z2 a) (q_theta q1) (q_theta q2).
  Proof. intros A W (_ & _ & A1) (_ & _ & A2). eapply seg_of_rel; try assumption; [exact (unit_rel _ _ _ _ _ _ _ W)|apply ang_eq_sym; exact A1|apply ang_eq_sym; exact A2]. Qed.
  (** The circles of both ends coincide. *)
  Lemma unit_centre z1 z2 l f a s1 s2 c1 c2 : same_pose (lib_path s1 (turn k s z1 z2 l f a)) s2 -> at_start k s z1 s1 c1 l f -> at_end k s z2 s2 c2 l f -> center_distance c1 c2 = 0.
  Proof.
    intros W (_ & _ & C1) (_ & _ & C2). destruct (unit_rel _ _ _ _ _ _ _ W) as [E _]. rewrite E, <- C2 in C1. injection C1 as X Y.
    unfold center_distance. rewrite X, Y. replace ((c_xc c2 - c_xc c2) ^ 2 + (c_yc c2 - c_yc c2) ^ 2) with 0 by ring. apply sqrt_0.
  Qed.
  Lemma unit_on_cc l f a s1 s2 b c1 : same_pose (lib_path s1 (turn k s true true l f a)) s2 -> at_start k s true s1 c1 l f -> at_conf s2 b -> 0 <= q_theta b < TWO_PI ->
    c_radius c1 = p_radius p -> c_mu c1 = p_mu p -> c_sin_mu c1 = p_sin_mu p -> c_cos_mu c1 = p_cos_mu p -> configuration_on_hc_cc_circle c1 b = true.
  Proof.
    intros W (EL & EF & C1) B QR R1 M1 SM1 CM1. destruct (param_nom k s Hk Hs) as (_ & _ & _ & _ & _ & _ & _ & _ & SM & CM). destruct (XY_eq k s Hk Hs HE) as (_ & _ & _ & _ & _ & _ & RP).
    apply (on_circle_exact c1 b l f EL EF); [congruence|congruence|rewrite R1; exact RP|exact QR|]. rewrite R1, SM1, CM1. unfold off. rewrite C1. destruct (unit_rel _ _ _ _ _ _ _ W) as [E _].
    etransitivity; [exact E|]. apply frame_congr. exact B.
  Qed.
  Lemma unit_on_rs l f a s1 s2 b c1 : same_pose (lib_path s1 (turn k s false false l f a)) s2 -> at_start k s false s1 c1 l f -> at_conf s2 b -> 0 <= q_theta b < TWO_PI ->
    c_radius c1 = 1 / k -> c_mu c1 = 0 -> c_sin_mu c1 = 0 -> c_cos_mu c1 = 1 -> configuration_on_hc_cc_circle c1 b = true.
  Proof.
    intros W (EL & EF & C1) B QR R1 M1 SM1 CM1. assert (0 < 1 / k) by (apply Rdiv_lt_0_compat; lra).
    apply (on_circle_exact c1 b l f EL EF); [rewrite SM1, M1, sin_0; reflexivity|rewrite CM1, M1, cos_0; reflexivity|lra|exact QR|]. rewrite R1, SM1, CM1. unfold off. rewrite C1. destruct (unit_rel _ _ _ _ _ _ _ W) as [E _].
    etransitivity; [exact E|]. rewrite (frame_congr _ _ _ _ B). f_equal; ring.
  Qed.
End Unit.

(** Straight lines. *)
Lemma aligned_exact a b d t : 0 < d -> 0 <= q_theta a < TWO_PI -> q_theta b = q_theta a -> ang_eq t (q_theta a) -> q_x b = q_x a + d * cos t -> q_y b = q_y a + d * sin t -> configuration_aligned a b = true.
Proof.
  intros D R1 E T X Y. unfold configuration_aligned. rewrite E. destruct (Rlt_dec _ _) as [N|_].
  { exfalso. rewrite Rminus_diag_eq, Rabs_R0 in N by reflexivity. unfold epsilon in N. lra. }
  replace (q_y b - q_y a) with (d * sin t) by lra. replace (q_x b - q_x a) with (d * cos t) by lra.
  rewrite (twopify_unique (q_theta a)); [|apply ang_eq_sym; eapply ang_eq_trans; [apply atan2_polar; exact D|exact T]|exact R1].
  unfold Rleb. destruct (Rle_dec _ _) as [|N]; [reflexivity|]. exfalso. apply N. rewrite Rminus_diag_eq, Rabs_R0 by reflexivity. unfold epsilon. lra.
Qed.
Definition conf (st : State) (kap : R) : Configuration := configuration (st_x st) (st_y st) (st_theta st) kap.
Lemma line_facts f d s1 s2 : 0 <= d -> same_pose (lib_path s1 [line f d]) s2 -> st_x s2 = st_x s1 + sign f * d * cos (st_theta s1) /\ st_y s2 = st_y s1 + sign f * d * sin (st_theta s1) /\ ang_eq (st_theta s1) (st_theta s2).
Proof.
  intros D (X & Y & T). cbn [lib_path fold_left] in X, Y, T. destruct (step_line s1 f d) as (X' & Y' & T'). rewrite X' in X. rewrite Y' in Y. repeat split; [symmetry; exact X|symmetry; exact Y|]. eapply ang_eq_trans; [apply ang_eq_sym; exact T'|exact T].
Qed.
Lemma line_pos f d s1 s2 : 0 <= d -> same_pose (lib_path s1 [line f d]) s2 -> pos_dist s1 s2 = d.
Proof.
  intros D W. destruct (line_facts f d s1 s2 D W) as (X & Y & _). unfold pos_dist. rewrite X, Y. pose proof (cos_sq (st_theta s1)) as T.
  match goal with |- sqrt (?u ^ 2 + ?v ^ 2) = _ => apply (hyp_eq u v d D) end. destruct f; cbn [sign]; ring [T].
Qed.
Lemma line_aligned f d s1 s2 k1 k2 : 0 < d -> same_pose (lib_path s1 [line f d]) s2 ->
  if f then configuration_aligned (conf s1 k1) (conf s2 k2) = true else configuration_aligned (conf s2 k2) (conf s1 k1) = true.
Proof.
  intros D W. destruct (line_facts f d s1 s2 ltac:(lra) W) as (X & Y & T). pose proof (twopify_congr _ _ T) as E.
  destruct f; cbn [sign] in X, Y; apply (aligned_exact _ _ d (st_theta s1)); unfold conf, configuration; cbn [q_x q_y q_theta]; try exact D; try apply twopify_range; try congruence; try (apply ang_eq_sym; apply twopify_ang); try lra.
  eapply ang_eq_trans; [exact T|]. apply ang_eq_sym, twopify_ang.
Qed.
Lemma line_equal f s1 s2 k1 k2 : same_pose (lib_path s1 [line f 0]) s2 -> configuration_equal (conf s1 k1) (conf s2 k2) = true.
Proof.
  intros W. pose proof (line_pos f 0 s1 s2 (Rle_refl 0) W) as PD. destruct (line_facts f 0 s1 s2 (Rle_refl 0) W) as (X & Y & T). pose proof (twopify_congr _ _ T) as E.
  assert (EP : 0 < epsilon) by (unfold epsilon; lra). unfold configuration_equal. destruct (Rlt_dec _ _) as [N|_].
  { exfalso. unfold conf, configuration in N; cbn [q_theta] in N. rewrite E, Rminus_diag_eq, Rabs_R0 in N by reflexivity. lra. }
  destruct (Rlt_dec _ _) as [N|_]; [|reflexivity]. exfalso.
  rewrite (conf_dist_states s1 s2 (conf s1 k1) (conf s2 k2) (at_configuration s1 k1) (at_configuration s2 k2)), PD in N. lra.
Qed.

Ltac unit_close :=
  fields_goal; repeat match goal with H : ?c = circle _ _ _ _ _ |- _ => subst c end;
  match goal with SG : seg _ _ _ _ _ _ _ _ _ |- context [circle _ _ _ ?reg _] =>
    let SB := fresh in pose proof (SG _ _ reg (ang_eq_refl _) (ang_eq_refl _)) as SB; cbv beta iota in SB; rewrite ?negb_involutive in *; first [exact SB|exact (proj1 SB)] end.

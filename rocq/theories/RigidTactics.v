(** * Tactics for the candidates of the planners in a moved frame *)
From Coq Require Import Reals ZArith List Lra Lia Bool.
From Verif Require Import Base ModelUtil ModelIntegrate ModelCircle ModelPaths Num UtilProofs SpecPath SpecTurn PoseAlg TurnProofs MotionProofs TurnBounds LegProofs TangentProofs PlanProofs PlanFamily PlanTactics RigidBase.
Import ListNotations.
Open Scope R_scope.

Lemma at_left x y l f r p : c_left (circle_at x y l f r p) = l.
Proof. destruct l; reflexivity. Qed.
Lemma at_forward x y l f r p : c_forward (circle_at x y l f r p) = f.
Proof. destruct l; reflexivity. Qed.
Lemma at_xc x y l f r p : c_xc (circle_at x y l f r p) = x.
Proof. destruct l; reflexivity. Qed.
Lemma at_yc x y l f r p : c_yc (circle_at x y l f r p) = y.
Proof. destruct l; reflexivity. Qed.

Lemma reconf_move u v rho q kp : configuration (q_x (mvq u v rho q)) (q_y (mvq u v rho q)) (q_theta (mvq u v rho q)) kp = mvq u v rho (configuration (q_x q) (q_y q) (q_theta q) kp).
Proof. apply (conf_move u v rho). apply theta_mvq. Qed.

(** ** Auxiliary circles away from the others *)
Lemma center_nz c1 c2 : (c_xc c2 - c_xc c1) ^ 2 + (c_yc c2 - c_yc c1) ^ 2 <> 0 -> center_distance c1 c2 <> 0.
Proof.
  intros N E. apply N. unfold center_distance in E. apply sqrt_eq_0 in E; [exact E|]. pose proof (pow2_ge_0 (c_xc c2 - c_xc c1)). pose proof (pow2_ge_0 (c_yc c2 - c_yc c1)). lra.
Qed.
Lemma frame_sq an a b : (a * cos an - b * sin an) ^ 2 + (a * sin an + b * cos an) ^ 2 = a ^ 2 + b ^ 2.
Proof. transitivity ((a ^ 2 + b ^ 2) * (sin an * sin an + cos an * cos an)); [ring|rewrite sin2_cos2'; ring]. Qed.

Section Apart.
  Variables (rho : R) (c1 c2 : Circle) (D an : R).
  Hypothesis HD : D = center_distance c1 c2.
  Hypothesis HA : an = atan2 (c_yc c2 - c_yc c1) (c_xc c2 - c_xc c1).

  Lemma line_x : c_xc c2 = c_xc c1 + D * cos an.
  Proof. destruct (centres c1 c2) as (_ & X & _). rewrite <- HD, <- HA in X. lra. Qed.
  Lemma line_y : c_yc c2 = c_yc c1 + D * sin an.
  Proof. destruct (centres c1 c2) as (_ & _ & Y). rewrite <- HD, <- HA in Y. lra. Qed.
  Lemma D_nonneg : 0 <= D.
  Proof. rewrite HD. apply sqrt_pos. Qed.

  Lemma far_a x y a b l f r p : global_frame_change (c_xc c1) (c_yc c1) an a b = (x, y) -> a ^ 2 + b ^ 2 <> 0 -> far rho c1 (circle_at x y l f r p).
  Proof.
    unfold global_frame_change. intros G N. apply pair_equal_spec in G. destruct G as [X Y]. right. apply center_nz. rewrite at_xc, at_yc.
    rewrite <- X, <- Y. rewrite <- (frame_sq an) in N. intros E. apply N. rewrite <- E. ring.
  Qed.
  Lemma far_b x y a b l f r p : global_frame_change (c_xc c1) (c_yc c1) an a b = (x, y) -> (D - a) ^ 2 + b ^ 2 <> 0 -> far rho (circle_at x y l f r p) c2.
  Proof.
    unfold global_frame_change. intros G N. apply pair_equal_spec in G. destruct G as [X Y]. right. apply center_nz. rewrite at_xc, at_yc, line_x, line_y.
    rewrite <- X, <- Y. replace (b ^ 2) with ((- b) ^ 2) in N by ring. rewrite <- (frame_sq an) in N. intros E. apply N. rewrite <- E. ring.
  Qed.
  Lemma far_c x y a b l f r p : global_frame_change (c_xc c2) (c_yc c2) an a b = (x, y) -> a ^ 2 + b ^ 2 <> 0 -> far rho (circle_at x y l f r p) c2.
  Proof.
    unfold global_frame_change. intros G N. apply pair_equal_spec in G. destruct G as [X Y]. right. apply center_nz. rewrite at_xc, at_yc.
    rewrite <- X, <- Y. rewrite <- (frame_sq an) in N. intros E. apply N. rewrite <- E. ring.
  Qed.
  Lemma far_d x y a b l f r p : global_frame_change (c_xc c2) (c_yc c2) an a b = (x, y) -> (D + a) ^ 2 + b ^ 2 <> 0 -> far rho c1 (circle_at x y l f r p).
  Proof.
    unfold global_frame_change. intros G N. apply pair_equal_spec in G. destruct G as [X Y]. right. apply center_nz. rewrite at_xc, at_yc.
    rewrite <- X, <- Y, line_x, line_y. rewrite <- (frame_sq an) in N. intros E. apply N. rewrite <- E. ring.
  Qed.
  Lemma far_e x y a b l f r p x' y' a' b' l' f' r' p' : global_frame_change (c_xc c1) (c_yc c1) an a b = (x, y) -> global_frame_change (c_xc c2) (c_yc c2) an a' b' = (x', y') ->
    (D + a' - a) ^ 2 + (b' - b) ^ 2 <> 0 -> far rho (circle_at x y l f r p) (circle_at x' y' l' f' r' p').
  Proof.
    unfold global_frame_change. intros G G' N. apply pair_equal_spec in G, G'. destruct G as [X Y], G' as [X' Y']. right. apply center_nz. rewrite !at_xc, !at_yc.
    rewrite <- X, <- Y, <- X', <- Y', line_x, line_y. rewrite <- (frame_sq an) in N. intros E. apply N. rewrite <- E. ring.
  Qed.
End Apart.

(** What the rotation needs; [z1] and [z2] tell whether the circles are those of turns that start and end with curvature zero. *)
Definition apart (rho k s : R) (z1 z2 : bool) (c1 c2 : Circle) : Prop :=
  rho = 0 \/ center_distance c1 c2 <> 0 /\ 0 < 1 / k /\ 0 < p_radius (hc_cc_param k s) /\ 0 < p_radius (hc_cc_param k s) * p_sin_mu (hc_cc_param k s) /\
    Rabs (c_kappa_inv c1) = 1 / k /\ Rabs (c_kappa_inv c2) = 1 / k /\
    (c_radius c1 = if z1 then p_radius (hc_cc_param k s) else 1 / k) /\ (c_sin_mu c1 = if z1 then p_sin_mu (hc_cc_param k s) else 0) /\
    (c_radius c2 = if z2 then p_radius (hc_cc_param k s) else 1 / k) /\ (c_sin_mu c2 = if z2 then p_sin_mu (hc_cc_param k s) else 0) /\
    0 < p_radius (hc_cc_param k s) * p_cos_mu (hc_cc_param k s) /\ (c_cos_mu c1 = if z1 then p_cos_mu (hc_cc_param k s) else 1) /\ (c_cos_mu c2 = if z2 then p_cos_mu (hc_cc_param k s) else 1).

(** The members of a moved circle. *)
Ltac mv_field X u v rho c :=
  match goal with
  | |- context [c_xc X] => change (c_xc X) with (mx u rho (c_xc c) (c_yc c))
  | |- context [c_yc X] => change (c_yc X) with (my v rho (c_xc c) (c_yc c))
  | |- context [c_left X] => change (c_left X) with (c_left c)
  | |- context [c_forward X] => change (c_forward X) with (c_forward c)
  | |- context [c_regular X] => change (c_regular X) with (c_regular c)
  | |- context [c_kappa X] => change (c_kappa X) with (c_kappa c)
  | |- context [c_kappa_inv X] => change (c_kappa_inv X) with (c_kappa_inv c)
  | |- context [c_sigma X] => change (c_sigma X) with (c_sigma c)
  | |- context [c_radius X] => change (c_radius X) with (c_radius c)
  | |- context [c_mu X] => change (c_mu X) with (c_mu c)
  | |- context [c_sin_mu X] => change (c_sin_mu X) with (c_sin_mu c)
  | |- context [c_cos_mu X] => change (c_cos_mu X) with (c_cos_mu c)
  | |- context [c_delta_min X] => change (c_delta_min X) with (c_delta_min c)
  | |- context [c_start (mvc _ _ _ c)] => change (c_start (mvc u v rho c)) with (mvq u v rho (c_start c))
  end.
Ltac mv_fields :=
  repeat match goal with
  | |- context [mvc ?u ?v ?rho ?c] => mv_field (mvc u v rho c) u v rho c
  | |- context [mvg ?u ?v ?rho ?a ?c] => mv_field (mvg u v rho a c) u v rho c
  end.
(** The frame changes on both sides, [A] relates the angles. *)
Ltac mv_frame A :=
  match goal with
  | |- context [global_frame_change (mx ?u ?rho ?x ?y) (my ?v ?rho ?x ?y) ?T ?a ?b] =>
      match goal with |- context [global_frame_change x y ?t a b] =>
        rewrite (gfc_move u v rho x y t T a b) by (apply (via_angle _ _ _ _ _ A); ring);
        let G := fresh "G" in destruct (global_frame_change x y t a b) as [? ?] eqn:G; rewrite mvp_pair
      end
  end.
Ltac mv_conf A :=
  match goal with
  | |- context [configuration (mx ?u ?rho ?x ?y) (my ?v ?rho ?x ?y) ?T ?kp] =>
      match goal with |- context [configuration x y ?t kp] => rewrite (conf_move u v rho x y t T kp) by (apply (via_angle _ _ _ _ _ A); ring) end
  end.
Ltac core X := lazymatch X with mvc _ _ _ ?c => c | mvg _ _ _ _ ?c => c end.
Ltac mv_flt :=
  match goal with
  | |- context [fbind (fsqrt ?e) _] => let F := fresh "FS" in destruct (fsqrt e) eqn:F; cbn [fbind]; [|reflexivity]
  | |- context [fbind (fdiv ?e ?f) _] => let F := fresh "FD" in destruct (fdiv e f) eqn:F; cbn [fbind]; [|reflexivity]
  | |- context [fbind (fasin ?e) _] => let F := fresh "FA" in destruct (fasin e) eqn:F; cbn [fbind]; [|reflexivity]
  | |- context [fbind (facos ?e) _] => let F := fresh "FA" in destruct (facos e) eqn:F; cbn [fbind]; [|reflexivity]
  end.
(** A test that is the same on both sides. *)
Ltac mv_if :=
  match goal with
  | |- ?L = ?R => match L with context [if ?b then _ else _] => match R with context [if b then _ else _] => let F := fresh "IF" in destruct b eqn:F end end
  end.
(** Marks the motion. *)
Definition in_frame (u v rho : R) : Prop := True.
Ltac mv_rest :=
  match goal with
  | |- context [circle_at (mx ?u ?rho ?x ?y) (my ?v ?rho ?x ?y) ?l ?f ?r ?p] => rewrite (circle_at_mv u v rho x y l f r p)
  | |- context [configuration (q_x (mvq ?u ?v ?rho ?q)) (q_y (mvq ?u ?v ?rho ?q)) (q_theta (mvq ?u ?v ?rho ?q)) ?kp] => rewrite (reconf_move u v rho q kp)
  | |- context [circle (mvq ?u ?v ?rho ?q) ?l ?f ?r ?p] => rewrite (circle_mvq u v rho q l f r p)
  | |- context [configuration_distance (mvq ?u ?v ?rho ?q) (mvq ?u ?v ?rho ?q')] => rewrite (cd_move u v rho q q')
  | |- context [rs_turn_length (mvc ?u ?v ?rho ?c) (mvq ?u ?v ?rho ?q)] => rewrite (rs_len_move u v rho c q)
  | |- context [hc_turn_length (mvc ?u ?v ?rho ?c) (mvq ?u ?v ?rho ?q)] => rewrite (hc_len_move u v rho c q)
  | |- context [cc_turn_length (mvc ?u ?v ?rho ?c) (mvq ?u ?v ?rho ?q)] => rewrite (cc_len_move u v rho c q)
  end.
Ltac conditions_of :=
  repeat match goal with
  | H : (if ?b then _ else _) = true |- _ => let B := fresh "B" in destruct b eqn:B; try discriminate H
  | H : match fsqrt ?e with Some _ => _ | None => _ end = true |- _ => let F := fresh "FS" in destruct (fsqrt e) eqn:F; [|discriminate H]
  | H : _ && _ = true |- _ => apply andb_prop in H; destruct H
  end;
  repeat match goal with
  | H : Rleb _ _ = true |- _ => apply Rleb_true in H
  | H : Rltb _ _ = true |- _ => apply Rltb_true in H
  | H : Rltb _ _ = false |- _ => apply Rltb_false in H
  | H : fsqrt _ = Some _ |- _ => apply fsqrt_some in H; destruct H
  | H : fdiv _ _ = Some _ |- _ => let N := fresh "N" in let E := fresh "E" in apply fdiv_some in H; destruct H as [N E]
  end.
Lemma div_mul x y z : y <> 0 -> z = x / y -> z * y = x.
Proof. intros N ->. field. exact N. Qed.
Lemma abs_sq x K : Rabs x = K -> x ^ 2 = K ^ 2.
Proof. intros <-. symmetry. apply pow2_abs. Qed.
Ltac nz_tac :=
  let Z := fresh "Z" in intros Z;
  repeat match goal with N : ?y <> 0, E : ?z = ?x / ?y |- _ => apply (div_mul x y z N) in E; clear N end;
  nra.
(** Solves [far rho ca cb] from the hypotheses about the pair. *)
Ltac far_tac :=
  match goal with HP : apart _ _ _ _ _ ?c1 ?c2, HD : ?D = center_distance ?c1 ?c2, HA : ?an = atan2 _ _ |- far ?rho _ _ =>
    let Z := fresh "Z" in let ND := fresh "ND" in let K := fresh "K" in let RP := fresh "RP" in let XP := fresh "XP" in
    let K1 := fresh "K1" in let K2 := fresh "K2" in let R1 := fresh "R1" in let M1 := fresh "M1" in let R2 := fresh "R2" in let M2 := fresh "M2" in
    let YP := fresh "YP" in let CM1 := fresh "CM1" in let CM2 := fresh "CM2" in
    destruct HP as [Z|(ND & K & RP & XP & K1 & K2 & R1 & M1 & R2 & M2 & YP & CM1 & CM2)]; [left; exact Z|];
    cbv beta iota in R1, M1, R2, M2, CM1, CM2;
    first
    [ right; exact ND
    | let DP := fresh "DP" in pose proof (D_nonneg c1 c2 D HD) as DP; rewrite <- HD in ND;
      let S1 := fresh "S" in pose proof (abs_sq _ _ K1) as S1; let S2 := fresh "S" in pose proof (abs_sq _ _ K2) as S2;
      first
      [ eapply (far_a rho c1 an); [eassumption|]
      | eapply (far_b rho c1 c2 D an HD HA); [eassumption|]
      | eapply (far_c rho c2 an); [eassumption|]
      | eapply (far_d rho c1 c2 D an HD HA); [eassumption|]
      | eapply (far_e rho c1 c2 D an HD HA); [eassumption|eassumption|] ];
      conditions_of; rewrite ?K1, ?K2, ?R1, ?M1, ?R2, ?M2, ?CM1, ?CM2 in *; nz_tac ]
  end.
(** The tangent circles of the planner at hand; redefined for each. *)
Ltac mv_tan := fail.
Ltac mv_entry A :=
  mv_fields; cbv zeta;
  repeat (first [reflexivity | mv_if | mv_frame A | mv_conf A | progress mv_fields | mv_tan | mv_rest | progress cbn [fbind] | mv_flt]).

(** * Tactics for the candidates against the paths CSC and CCC *)
From Coq Require Import Reals ZArith List Lra Lia Bool.
From Verif Require Import Base ModelUtil ModelCircle ModelPaths Num UtilProofs SpecPath SpecTurn SpecSide SpecOpt PoseAlg TurnProofs LegProofs TangentProofs PlanProofs PlanTactics PlanFamily PlanBounds PlanSelect PlanRadius OptProofs OptTangent OptWord.
Import ListNotations.
Open Scope R_scope.

Lemma pos_dist_flip a b : pos_dist a b = pos_dist b a.
Proof. unfold pos_dist. f_equal. ring. Qed.
Lemma at_mu x y l f reg p : c_mu (circle_at x y l f reg p) = p_mu p.
Proof. unfold circle_at. destruct l; reflexivity. Qed.
Lemma at_fields x y l f reg p : let c := circle_at x y l f reg p in c_xc c = x /\ c_yc c = y /\ c_left c = l /\ c_forward c = f.
Proof. unfold circle_at. destruct l; repeat split. Qed.

Section Start.
  Variables (k s : R).
  Local Notation p := (hc_cc_param k s).
  Lemma off_state c q st lx ly : at_conf st q -> off c q lx ly -> (c_xc c, c_yc c) = frame (pst st) lx ly.
  Proof. intros A O. unfold off in O. rewrite O. symmetry. apply frame_congr. exact A. Qed.
  Lemma start_cc st q l f c : c_left c = l -> c_forward c = f -> at_conf st q -> off c q (sign f * (p_radius p * p_sin_mu p)) (sign l * (p_radius p * p_cos_mu p)) -> at_start k s true st c l f.
  Proof. intros E F A O. split; [exact E|split; [exact F|]]. exact (off_state _ _ _ _ _ A O). Qed.
  Lemma end_cc st q l f c : c_left c = l -> c_forward c = negb f -> at_conf st q -> off c q (sign (negb f) * (p_radius p * p_sin_mu p)) (sign l * (p_radius p * p_cos_mu p)) -> at_end k s true st c l f.
  Proof. intros E F A O. split; [exact E|split; [exact F|]]. rewrite (off_state _ _ _ _ _ A O), sign_negb. f_equal. ring. Qed.
  Lemma start_rs st q l f c : c_left c = l -> c_forward c = f -> at_conf st q -> off c q 0 (sign l * (1 / k)) -> at_start k s false st c l f.
  Proof. intros E F A O. split; [exact E|split; [exact F|]]. exact (off_state _ _ _ _ _ A O). Qed.
  Lemma end_rs st q l f c : c_left c = l -> c_forward c = negb f -> at_conf st q -> off c q 0 (sign l * (1 / k)) -> at_end k s false st c l f.
  Proof. intros E F A O. split; [exact E|split; [exact F|]]. exact (off_state _ _ _ _ _ A O). Qed.

  Lemma centre_of c q lx ly : (c_xc c, c_yc c) = frame (pst q) lx ly -> (c_xc c, c_yc c) = beside q lx ly.
  Proof. intros ->. reflexivity. Qed.
  Lemma pair_fst {A B} (a : A) (b : B) x : (a, b) = x -> fst x = a /\ snd x = b.
  Proof. intros <-. auto. Qed.
  Definition end_centre (z l f : bool) (q : State) : R * R := if z then turn_centre k s l f q else arc_centre k l q.
  Lemma start_centre z st c l f : at_start k s z st c l f -> end_centre z l f st = (c_xc c, c_yc c).
  Proof. intros (_ & _ & E). rewrite E. destruct z; reflexivity. Qed.
  Lemma goal_centre z st c l f : at_end k s z st c l f -> end_centre z l (negb f) st = (c_xc c, c_yc c).
  Proof. intros (_ & _ & E). rewrite E. unfold end_centre. destruct z; [|reflexivity]. unfold turn_centre, beside, frame, pst; cbn [px py pt]. rewrite sign_negb. cbv beta iota. apply injective_projections; cbn [fst snd]; ring. Qed.
  Lemma ends_gap z1 z2 s1 s2 c1 c2 l1 l2 f : at_start k s z1 s1 c1 l1 f -> at_end k s z2 s2 c2 l2 f ->
    gap (end_centre z1 l1 f s1) (end_centre z2 l2 (negb f) s2) = center_distance c1 c2.
  Proof. intros A B. rewrite (start_centre _ _ _ _ _ A), (goal_centre _ _ _ _ _ B). reflexivity. Qed.

  (** The test for a single turn on the circle of the start. *)
  Lemma on_circle_ends z s1 s2 b c1 l f : at_start k s z s1 c1 l f -> at_conf s2 b -> c_sin_mu c1 = sin (c_mu c1) -> c_cos_mu c1 = cos (c_mu c1) -> 0 <= c_radius c1 ->
    configuration_on_hc_cc_circle c1 b = true ->
    gap (end_centre z l f s1) (beside s2 (- (sign f * (c_radius c1 * c_sin_mu c1))) (sign l * (c_radius c1 * c_cos_mu c1))) <= epsilon * (1 + c_radius c1).
  Proof.
    intros A (BX & BY & BT) SM CM RP T. pose proof (on_circle_gap c1 b SM CM RP T) as G. rewrite (start_centre _ _ _ _ _ A). destruct A as (EL & EF & _).
    unfold cc_tangent, centre_gap in G. rewrite EL, EF in G. cbn [pst pcf px py pt] in BX, BY, BT. unfold gap, beside. cbn [fst snd].
    rewrite BX, BY, (ang_eq_cos _ _ BT), (ang_eq_sin _ _ BT). eapply Rle_trans; [right|exact G]. cbv zeta. f_equal. ring.
  Qed.
  Lemma no_turn_cc s1 s2 b l f c1 : 0 < k -> 0 < s -> at_start k s true s1 c1 l f -> at_conf s2 b ->
    c_radius c1 = p_radius p -> c_mu c1 = p_mu p -> c_sin_mu c1 = p_sin_mu p -> c_cos_mu c1 = p_cos_mu p ->
    no_turn_00 k s l f s1 s2 -> configuration_on_hc_cc_circle c1 b = true -> False.
  Proof.
    intros Hk Hs A B R1 M1 SM1 CM1 NT T. destruct (param_nom k s Hk Hs) as (_ & _ & _ & _ & _ & _ & _ & _ & SM & CM). pose proof (max_facts k s Hk Hs) as (RP & _).
    pose proof (on_circle_ends true s1 s2 b c1 l f A B ltac:(congruence) ltac:(congruence) ltac:(rewrite R1; lra) T) as G. rewrite R1, SM1, CM1 in G.
    unfold no_turn_00 in NT. apply (Rlt_irrefl (epsilon * (1 + p_radius p))). eapply Rlt_le_trans; [exact NT|]. eapply Rle_trans; [right|exact G].
    unfold gap, turn_centre, end_centre, turn_centre, beside. cbn [fst snd]. rewrite sign_negb. f_equal. ring.
  Qed.
  Lemma no_turn_rs s1 s2 b l f c1 : 0 < k -> at_start k s false s1 c1 l f -> at_conf s2 b ->
    c_radius c1 = 1 / k -> c_mu c1 = 0 -> c_sin_mu c1 = 0 -> c_cos_mu c1 = 1 ->
    no_turn_pmpm k l s1 s2 -> configuration_on_hc_cc_circle c1 b = true -> False.
  Proof.
    intros Hk A B R1 M1 SM1 CM1 NT T. assert (0 < 1 / k) by (apply Rdiv_lt_0_compat; lra).
    pose proof (on_circle_ends false s1 s2 b c1 l f A B ltac:(rewrite SM1, M1, sin_0; reflexivity) ltac:(rewrite CM1, M1, cos_0; reflexivity) ltac:(rewrite R1; lra) T) as G. rewrite R1, SM1, CM1 in G.
    unfold no_turn_pmpm in NT. apply (Rlt_irrefl (epsilon * (1 + 1 / k))). eapply Rlt_le_trans; [exact NT|]. eapply Rle_trans; [right|exact G].
    unfold gap, end_centre, arc_centre, beside. cbn [fst snd]. f_equal. ring.
  Qed.
  Lemma far_00 s1 s2 c1 c2 l f : 0 < k -> 0 < s -> at_start k s true s1 c1 l f -> at_end k s true s2 c2 l f -> no_turn_00 k s l f s1 s2 -> 0 < center_distance c1 c2.
  Proof.
    intros Hk Hs A B NT. pose proof (max_facts k s Hk Hs) as (RP & _). rewrite <- (ends_gap _ _ _ _ _ _ _ _ _ A B). eapply Rlt_trans; [|exact NT]. unfold epsilon. lra.
  Qed.
  Lemma far_pmpm s1 s2 c1 c2 l f : 0 < k -> at_start k s false s1 c1 l f -> at_end k s false s2 c2 l f -> no_turn_pmpm k l s1 s2 -> 0 < center_distance c1 c2.
  Proof.
    intros Hk A B NT. assert (0 < 1 / k) by (apply Rdiv_lt_0_compat; lra). rewrite <- (ends_gap _ _ _ _ _ _ _ _ _ A B). eapply Rlt_trans; [|exact NT]. unfold epsilon. lra.
  Qed.
  Lemma far_0pm s1 s2 c1 c2 l1 l2 f : at_start k s true s1 c1 l1 f -> at_end k s false s2 c2 l2 f -> no_turn_0pm k s l1 l2 f s1 s2 -> epsilon <= center_distance c1 c2.
  Proof. intros A B NT. rewrite <- (ends_gap _ _ _ _ _ _ _ _ _ A B). exact NT. Qed.
  Lemma far_pm0 s1 s2 c1 c2 l1 l2 f : at_start k s false s1 c1 l1 f -> at_end k s true s2 c2 l2 f -> no_turn_pm0 k s l1 l2 f s1 s2 -> epsilon <= center_distance c1 c2.
  Proof. intros A B NT. rewrite <- (ends_gap _ _ _ _ _ _ _ _ _ A B). exact NT. Qed.
End Start.

Lemma eqb_negb_s x : eqb (negb x) x = false.
Proof. destruct x; reflexivity. Qed.

Ltac opt_flags :=
  fields_goal; rewrite ?eqb_reflx, ?eqb_negb_r, ?eqb_negb_s; cbn [negb andb orb]; unfold Rleb;
  repeat match goal with |- context [Rle_dec ?u ?v] => destruct (Rle_dec u v) as [_|NN]; [|exfalso; apply NN; lra] end; cbn [negb andb orb fbind].
Ltac opt_turns :=
  unfold first_ok, last_ok, mid_ok in *; cbv beta iota zeta in *;
  repeat match goal with
  | H : forall reg, cc_turn_length (circle ?a ?l ?f reg ?p) ?q <= _ |- context [cc_turn_length (circle ?a ?l ?f ?reg ?p) ?q] =>
      let B := fresh "TB" in pose proof (H reg) as B; clear H
  | H : forall reg a', _ -> hc_turn_length (circle ?q ?l ?f reg ?p) a' <= _ |- context [hc_turn_length (circle ?q ?l ?f ?reg ?p) ?a'] =>
      let B := fresh "TB" in pose proof (H reg a' ltac:(first [apply ang_eq_refl|apply twopify_ang])) as B; clear H
  end.
Ltac opt_le len := eapply Rle_trans; [|apply Rmax_l]; rewrite len by assumption.
Ltac opt_close len := cbn [fbind]; eexists; split; [reflexivity|]; opt_le len; fields_goal; rewrite ?negb_involutive; repeat match goal with H : ?c = circle _ _ _ _ _ |- _ => subst c end; opt_turns; lra.
(** The two circles in the middle of three turns. *)
Ltac opt_middle U :=
  fields_goal; unfold fsqrt; match goal with |- context [Rlt_dec ?u 0] => destruct (Rlt_dec u 0) as [NEG|_]; [exfalso; lra|] end; cbn [fbind];
  match goal with |- context [global_frame_change ?x ?y ?an ?dx ?dy] => match goal with |- context [global_frame_change x y an dx (- dy)] =>
    let G1 := fresh in let G2 := fresh in destruct (global_frame_change x y an dx dy) as [x1 y1] eqn:G1; destruct (global_frame_change x y an dx (- dy)) as [x2 y2] eqn:G2;
    match goal with |- context [circle_at x1 y1 ?l ?f ?reg ?p] =>
      destruct (at_fields x1 y1 l f reg p) as (X1 & Y1 & E1 & W1); destruct (at_fields x2 y2 l f reg p) as (X2 & Y2 & E2 & W2);
      pose proof (at_mu x1 y1 l f reg p) as MU1; pose proof (at_mu x2 y2 l f reg p) as MU2;
      set (t1 := circle_at x1 y1 l f reg p) in *; set (t2 := circle_at x2 y2 l f reg p) in *;
      destruct (U t1 t2 ltac:(rewrite X1, Y1; symmetry; exact G1) ltac:(rewrite X2, Y2; symmetry; exact G2) E1 E2 W1 W2) as (t & EQ & T1 & TM & T2)
    end end end.
Ltac opt_pick len :=
  cbn [fbind]; fields_goal; rewrite ?negb_involutive; unfold Rltb;
  match goal with |- context [Rlt_dec ?u ?v] => let RC := fresh "RC" in destruct (Rlt_dec u v) as [RC|RC];
    (eexists; split; [reflexivity|]; opt_le len; repeat match goal with H : ?c = circle _ _ _ _ _ |- _ => subst c end;
    match goal with EQ : ?t = ?t1 \/ ?t = ?t2 |- _ => destruct EQ as [EQ|EQ]; rewrite EQ in * end; revert RC; opt_turns; intros; lra) end.
Lemma side_false q : on_side true q -> st_kappa q < 0 -> False.
Proof. intros [_ H] L. discriminate (H L). Qed.
Lemma side_true q : on_side false q -> 0 < st_kappa q -> False.
Proof. intros [H _] L. discriminate (H L). Qed.
Ltac opt_skip :=
  try reflexivity;
  match goal with |- ?sk _ _ _ _ = false => unfold sk end; cbn [Nat.eqb andb orb]; unfold Rltb;
  repeat match goal with |- context [Rlt_dec ?u ?v] => destruct (Rlt_dec u v); cbn [orb]; try (exfalso; match goal with O : on_side true ?q, H : st_kappa ?q < 0 |- _ => exact (side_false q O H) | O : on_side false ?q, H : 0 < st_kappa ?q |- _ => exact (side_true q O H) end) end; reflexivity.

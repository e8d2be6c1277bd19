(** * Tactics for the candidates against the paths with cusps *)
From Coq Require Import Reals ZArith List Lra Lia Bool.
From Verif Require Import Base ModelUtil ModelCircle ModelPaths Num UtilProofs SpecPath SpecTurn SpecSide SpecOpt SpecCusp PoseAlg TurnProofs TurnBounds LegProofs TangentProofs PlanProofs PlanTactics PlanHybrid PlanFamily PlanBounds PlanSelect PlanRadius OptProofs OptTangent OptWord OptTactics CuspWord.
Import ListNotations.
Open Scope R_scope.

(** Operations that are defined. *)
Lemma fdiv_def a b : b <> 0 -> exists v, fdiv a b = Some v /\ b * v = a.
Proof. intros N. unfold fdiv. destruct (Req_EM_T b 0); [contradiction|]. eexists. split; [reflexivity|]. field. exact N. Qed.
Lemma fsqrt_def e : 0 <= e -> fsqrt e = Some (sqrt e).
Proof. intros N. unfold fsqrt. destruct (Rlt_dec e 0); [lra|reflexivity]. Qed.
Lemma fasin_def v : -1 <= v <= 1 -> exists al, fasin v = Some al /\ sin al = v /\ 0 <= cos al.
Proof.
  intros [A B]. destruct (fasin v) as [al|] eqn:E; [exists al; split; [reflexivity|exact (fasin_some _ _ E)]|]. unfold fasin in E. destruct (Rlt_dec v (-1)); [lra|]. destruct (Rlt_dec 1 v); [lra|discriminate].
Qed.
(** The angle between a line and the line of centres. *)
Lemma quot_range D v y w : 0 < D -> D * v = y -> D ^ 2 = w ^ 2 + y ^ 2 -> -1 <= v <= 1.
Proof. intros DP E Q. assert (S : D ^ 2 * v ^ 2 = y ^ 2) by (rewrite <- E; ring). pose proof (pow2_ge_0 w). assert (0 < D ^ 2) by nra. assert (v ^ 2 <= 1) by (apply Rmult_le_reg_l with (D ^ 2); lra). split; nra. Qed.
Lemma sqrt_below e D w : 0 <= D -> D ^ 2 = w + e -> 0 <= w -> sqrt e <= D.
Proof. intros DP E W. rewrite <- (sqrt_pow2 D DP). apply sqrt_le_1_alt. lra. Qed.

Section Use.
  Variables (k s : R).
  Hypothesis Hk : 0 < k.
  Hypothesis Hs : 0 < s.
  Hypothesis HE : epsilon < k / s.
  Local Notation p := (hc_cc_param k s).
  Local Notation X := (p_radius p * p_sin_mu p).
  Local Notation Y := (p_radius p * p_cos_mu p).

  Lemma use_TT zc mu ca cb l f : mu = p_mu p -> c_left ca = l -> c_forward ca = f -> center_distance ca cb = jr k s zc false -> joint k s zc false ca cb l f (gTT mu ca cb).
  Proof.
    intros M EL EF D. destruct (joint_TT k s Hk Hs mu ca cb l f _ eq_refl M EL EF D) as [A B].
    split; (eapply off_conv; [first [exact A|exact B]|unfold out_x, in_x, jz, jf; ring|unfold side_y, jz; rewrite ?sign_negb; ring]).
  Qed.
  Lemma use_TcT kap ca cb l f : c_left ca = l -> c_forward ca = f -> center_distance ca cb = jr k s false true -> joint k s false true ca cb l f (gTcT kap 0 ca cb).
  Proof.
    intros EL EF D. destruct (joint_TcT k Hk kap ca cb l f _ eq_refl EL EF D) as [A B].
    split; (eapply off_conv; [first [exact A|exact B]|unfold out_x, in_x, jz, jf; ring|unfold side_y, jz; rewrite ?sign_negb; ring]).
  Qed.
  Lemma use_cusp ca cb l f : c_left ca = l -> c_forward ca = f -> center_distance ca cb = jr k s true true ->
    exists q, gTcTc (p_radius p) ca cb = Some q /\ joint k s true true ca cb l f q.
  Proof.
    intros EL EF D. destruct (XY_r k s Hk Hs) as (XP & YP & XY). unfold jr in D.
    assert (G : exists q, gTcTc (p_radius p) ca cb = Some q).
    { unfold gTcTc. rewrite D, fsqrt_def by nra. cbn [fbind]. destruct (c_left ca), (c_forward ca); destruct (global_frame_change _ _ _ _ _); eexists; reflexivity. }
    destruct G as [q G]. exists q. split; [exact G|]. destruct (joint_cusp k s Hk Hs _ ca cb l f q G eq_refl EL EF D) as [A B].
    split; (eapply off_conv; [first [exact A|exact B]|unfold out_x, in_x, jz, jf; rewrite ?sign_negb; ring|unfold side_y, jz; rewrite ?sign_negb; ring]).
  Qed.

  Lemma apart_gap z1 z2 s1 s2 c1 c2 l1 f1 l2 f2 : at_start k s z1 s1 c1 l1 f1 -> at_end k s z2 s2 c2 l2 f2 ->
    gap (end_centre k s z1 l1 f1 s1) (end_centre k s z2 l2 (negb f2) s2) = center_distance c1 c2.
  Proof. intros A B. rewrite (start_centre _ _ _ _ _ _ _ A), (goal_centre _ _ _ _ _ _ _ B). reflexivity. Qed.
End Use.

Lemma at_radius x y l f reg p : c_radius (circle_at x y l f reg p) = p_radius p.
Proof. unfold circle_at. destruct l; reflexivity. Qed.

(** The flags of a candidate that exists. *)
Ltac cusp_dec t := repeat match goal with
  | |- context [Rle_dec ?u ?v] => destruct (Rle_dec u v) as [_|NN]; [|exfalso; apply NN; t]
  | |- context [Rlt_dec ?u ?v] => destruct (Rlt_dec u v) as [_|NN]; [|exfalso; apply NN; t]
  end.
Ltac cusp_flags t :=
  fields_goal; rewrite ?negb_involutive, ?eqb_reflx, ?eqb_negb_r, ?eqb_negb_s; cbn [negb andb orb];
  repeat match goal with |- context [match fsqrt ?e with _ => _ end] => rewrite (fsqrt_def e) by (apply Rplus_le_le_0_compat; apply pow2_ge_0) end;
  unfold Rleb, Rltb; cusp_dec t; cbn [negb andb orb fbind].
(** The bounds of the turns. *)
Ltac seg_ang := first [apply ang_eq_refl | assumption | apply twopify_ang | (eapply ang_eq_trans; [apply twopify_ang|assumption])].
Ltac seg_open := unfold seg, jz, jf, joint in *; cbv beta iota in *.
Ltac seg_pose H u := let B := fresh "TB" in pose proof H as B; rewrite ?negb_involutive in B; lazymatch type of B with u <= _ => idtac end.
Ltac seg_use := repeat match goal with
  | S : forall q1 q2 reg, _ -> _ -> hc_turn_length (circle q1 _ _ reg _) q2 <= _ |- context [hc_turn_length (circle ?u ?l ?f ?reg ?p) ?v] =>
      seg_pose (S u v reg ltac:(seg_ang) ltac:(seg_ang)) (hc_turn_length (circle u l f reg p) v); clear S
  | S : forall q1 q2 reg, _ -> _ -> hc_turn_length (circle q2 _ _ reg _) q1 <= _ |- context [hc_turn_length (circle ?u ?l ?f ?reg ?p) ?v] =>
      seg_pose (S v u reg ltac:(seg_ang) ltac:(seg_ang)) (hc_turn_length (circle u l f reg p) v); clear S
  | S : forall q1 q2 reg, _ -> _ -> cc_turn_length (circle q1 _ _ reg _) q2 <= _ /\ _ |- context [cc_turn_length (circle ?u ?l ?f ?reg ?p) ?v] =>
      seg_pose (proj1 (S u v reg ltac:(seg_ang) ltac:(seg_ang))) (cc_turn_length (circle u l f reg p) v); clear S
  | S : forall q1 q2 reg, _ -> _ -> _ /\ cc_turn_length (circle q2 _ _ reg _) q1 <= _ |- context [cc_turn_length (circle ?u ?l ?f ?reg ?p) ?v] =>
      seg_pose (proj2 (S v u reg ltac:(seg_ang) ltac:(seg_ang))) (cc_turn_length (circle u l f reg p) v); clear S
  | S : forall q1 q2 reg, _ -> _ -> rs_turn_length (circle q1 _ _ reg _) q2 <= _ /\ _ |- context [rs_turn_length (circle ?u ?l ?f ?reg ?p) ?v] =>
      seg_pose (proj1 (S u v reg ltac:(seg_ang) ltac:(seg_ang))) (rs_turn_length (circle u l f reg p) v); clear S
  | S : forall q1 q2 reg, _ -> _ -> _ /\ rs_turn_length (circle q2 _ _ reg _) q1 <= _ |- context [rs_turn_length (circle ?u ?l ?f ?reg ?p) ?v] =>
      seg_pose (proj2 (S v u reg ltac:(seg_ang) ltac:(seg_ang))) (rs_turn_length (circle u l f reg p) v); clear S
  end.
Ltac cusp_le k s := rewrite !total_app, !(turn_length k s) by assumption; rewrite ?line_length by assumption.
Ltac cusp_close k s :=
  cbn [fbind]; eexists; split; [reflexivity|]; cusp_le k s; fields_goal; rewrite ?negb_involutive in *; repeat match goal with H : ?c = circle _ _ _ _ _ |- _ => subst c end;
  seg_open; cbn [negb] in *; seg_use; unfold turn_len in *; lra.
(** The circles of the ends and their headings. *)
Ltac cusp_setup k s :=
  match goal with
  | H1 : ?c1 = circle ?a ?l1 ?f1 _ _, H2 : ?c2 = circle ?b ?l2 ?f2 _ _, HD : ?D = center_distance ?c1 ?c2, A : at_conf _ ?a, B : at_conf _ ?b |- _ =>
      let T1 := facts k H1 in let T2 := facts k H2 in
      destruct T1 as (S1 & EL1 & F1 & G1 & R1 & M1 & SM1 & CM1 & AK1 & AI1 & KQ1 & K1 & O1);
      destruct T2 as (S2 & EL2 & F2 & G2 & R2 & M2 & SM2 & CM2 & AK2 & AI2 & KQ2 & K2 & O2);
      assert (HA1 : ang_eq (q_theta a) _) by exact (ang_eq_sym _ _ (proj2 (proj2 A)));
      assert (HB1 : ang_eq (q_theta b) _) by exact (ang_eq_sym _ _ (proj2 (proj2 B)));
      assert (KP : 0 < 1 / k) by (apply Rdiv_lt_0_compat; lra); pose proof eps_pos as EP;
      destruct (XY_eq k s ltac:(assumption) ltac:(assumption) ltac:(assumption)) as (_ & _ & XP & YP & XL & RR & RP);
      destruct (XY_r k s ltac:(assumption) ltac:(assumption)) as (_ & _ & XY2)
  end.
(** The two circles in the middle of three turns. *)
Ltac cusp_middle HA U :=
  match goal with |- context [global_frame_change ?x ?y ?an ?dx ?dy] => match goal with |- context [global_frame_change x y an dx (- dy)] =>
    let G1 := fresh in let G2 := fresh in destruct (global_frame_change x y an dx dy) as [x1 y1] eqn:G1; destruct (global_frame_change x y an dx (- dy)) as [x2 y2] eqn:G2;
    match goal with |- context [circle_at x1 y1 ?l ?f ?reg ?p] =>
      destruct (at_fields x1 y1 l f reg p) as (X1 & Y1 & E1 & W1); destruct (at_fields x2 y2 l f reg p) as (X2 & Y2 & E2 & W2);
      pose proof (at_mu x1 y1 l f reg p) as MU1; pose proof (at_mu x2 y2 l f reg p) as MU2;
      set (t1 := circle_at x1 y1 l f reg p) in *; set (t2 := circle_at x2 y2 l f reg p) in *;
      destruct (U t1 t2 ltac:(rewrite X1, Y1, <- HA; symmetry; exact G1) ltac:(rewrite X2, Y2, <- HA; symmetry; exact G2)) as (DA1 & DB1 & DA2 & DB2 & t & EQ & V)
    end end end.
Ltac cusp_pick k s :=
  cbn [fbind]; fields_goal; rewrite ?negb_involutive; unfold Rltb;
  match goal with |- context [Rlt_dec ?u ?v] => let RC := fresh "RC" in destruct (Rlt_dec u v) as [RC|RC];
    (eexists; split; [reflexivity|]; cusp_le k s; revert RC; fields_goal; rewrite ?negb_involutive in *; repeat match goal with H : ?c = circle _ _ _ _ _ |- _ => subst c end;
    seg_open; cbn [negb] in *; seg_use; unfold turn_len in *; intros; lra) end.
(** A straight line in the model. *)
Ltac cusp_line U :=
  fields_goal; cbn [andb negb]; cbv beta iota zeta;
  do 2 match goal with |- context [match global_frame_change ?a ?b ?c ?d ?e with _ => _ end] => let u := fresh "u" in let v := fresh "v" in let G := fresh "GF" in destruct (global_frame_change a b c d e) as [u v] eqn:G; cbv beta iota zeta end;
  do 2 match goal with GF : global_frame_change _ _ _ _ _ = (?u, ?v) |- context [configuration ?u ?v ?h ?kap] => let q := fresh "q" in let Q := fresh "Q" in remember (configuration u v h kap) as q eqn:Q end;
  s_joint;
  match goal with OA : off _ ?q1 _ _, OB : off _ ?q2 _ _, SB : straight_by ?w ?q1 ?q2 |- _ =>
    destruct (U q1 q2 w) as (T1 & CD & T2);
    [eapply off_conv; [exact OA|unfold out_x, in_x; cbn [negb]; unfold sign; ring|unfold side_y; cbn [negb]; unfold sign; ring]
    |eapply off_conv; [exact OB|unfold out_x, in_x; cbn [negb]; unfold sign; ring|unfold side_y; cbn [negb]; unfold sign; ring]
    |exact SB
    |unfold out_x, in_x; cbn [negb]; unfold sign; lra|] end.

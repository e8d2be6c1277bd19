(** * Candidates of the planners: selection and existence *)
From Coq Require Import Reals ZArith List Lra Lia Bool.
From Verif Require Import Base ModelUtil ModelCircle ModelPaths Num UtilProofs SpecPath SpecTurn SpecPlan PoseAlg TurnProofs MotionProofs TurnBounds LegProofs TangentProofs PlanProofs PlanTactics PlanHybrid PlanFamily PlanBounds PlanEnds.
Import ListNotations.
Open Scope R_scope.

(** ** The entries of a table *)
Ltac not_entry :=
  match goal with
  | IN : (?t', no_entry) = (?t, ?e), EL : e_length ?e = Some ?L, LM : ?L < DBL_MAX |- _ =>
      exfalso; apply pair_equal_spec in IN; destruct IN as [_ <-]; apply (f_equal (fun o => match o with Some y => y | None => 0 end)) in EL; cbn in EL; lra
  end.
Ltac entries :=
  repeat match goal with
  | IN : _ \/ _ |- _ => destruct IN as [IN|IN]; [try solve [not_entry]|]
  | IN : False |- _ => destruct IN
  end;
  match goal with IN : (?t', ?e') = (?t, ?e), EL : e_length ?e = Some ?L |- _ => apply pair_equal_spec in IN; destruct IN as [<- <-] end.
Ltac entry_length L EL := cbn [e_length] in EL; apply (f_equal (fun o => match o with Some y => y | None => 0 end)) in EL; cbv iota in EL; subst L.

(** ** Lengths *)
Definition turn_max (k s : R) : R := 2 * p_radius (hc_cc_param k s) + 2 * (k / s) + 2 * PI / k.
Section Max.
  Variables (k s : R).
  Hypothesis Hk : 0 < k.
  Hypothesis Hs : 0 < s.
  Local Notation p := (hc_cc_param k s).
  Lemma max_facts : 0 <= p_radius p /\ 0 < k / s /\ 0 < 1 / k /\ 2 * p_radius p + 6 * (1 / k) <= turn_max k s /\ 4 * turn_max k s <= detour k s.
  Proof.
    pose proof (radius_nonneg k s Hk Hs) as RP. assert (KS : 0 < k / s) by (apply Rdiv_lt_0_compat; lra). assert (KP : 0 < 1 / k) by (apply Rdiv_lt_0_compat; lra).
    pose proof FresProofs.PI_gt as PG. pose proof PI_4 as P4. unfold turn_max, detour. repeat (split; [lra|]).
    replace (2 * PI / k) with (2 * PI * (1 / k)) by (field; lra). pose proof (radius_le k s Hk Hs) as RL. replace (2 / k) with (2 * (1 / k)) in RL by (field; lra).
    assert (3 * (1 / k) <= PI * (1 / k)) by (apply Rmult_le_compat_r; lra). assert (PI * (1 / k) <= 4 * (1 / k)) by (apply Rmult_le_compat_r; lra). lra.
  Qed.
  Lemma max_cc start l f reg q : 0 <= cc_turn_length (circle start l f reg p) q <= turn_max k s.
  Proof. exact (cc_turn_bound k s Hk Hs start l f reg q). Qed.
  Lemma max_hc start l f reg q : 0 <= hc_turn_length (circle start l f reg p) q <= turn_max k s.
  Proof. exact (hc_turn_bound k s Hk Hs start l f reg q). Qed.
  Lemma max_rs start l f reg q : 0 <= rs_turn_length (circle start l f reg (rs_param k)) q <= turn_max k s.
  Proof.
    pose proof (rs_turn_bound k Hk start l f reg q) as B. destruct max_facts as (A & C & D & _). unfold turn_max. lra.
  Qed.
  Lemma rs_far start l f reg : hyp (c_xc (circle start l f reg (rs_param k)) - q_x start) (c_yc (circle start l f reg (rs_param k)) - q_y start) = 1 / k.
  Proof.
    destruct (rs_fields k start l f reg) as (_ & _ & _ & _ & _ & _ & O). rewrite (off_dist _ _ _ _ O). destruct max_facts as (_ & _ & KP & _).
    apply hyp_eq; [lra|]. destruct l; unfold sign; ring.
  Qed.
  Lemma sin_mu_bound : -1 <= p_sin_mu p <= 1.
  Proof. destruct (mu_sin k s Hk Hs) as [SM _]. rewrite SM. apply SIN_bound. Qed.
  Lemma straight_TeST sf D : pm1 sf -> 0 <= D -> Rabs (sf * (D - 2 * (p_radius p * p_sin_mu p))) <= D + 2 * p_radius p.
  Proof.
    intros P DP. pose proof sin_mu_bound as SB. pose proof (radius_nonneg k s Hk Hs) as RP. replace (Rabs (sf * (D - 2 * (p_radius p * p_sin_mu p)))) with (Rabs (D - 2 * (p_radius p * p_sin_mu p))).
    - apply Rabs_le. nra.
    - rewrite Rabs_mult. replace (Rabs sf) with 1; [ring|]. destruct P as [->| ->]; [rewrite Rabs_R1|rewrite Rabs_left]; lra.
  Qed.
  Lemma straight_TiST sf D w : pm1 sf -> 0 <= D -> 0 <= w -> w ^ 2 = D ^ 2 - (2 * (p_radius p * p_cos_mu p)) ^ 2 -> Rabs (sf * (w - 2 * (p_radius p * p_sin_mu p))) <= D + 2 * p_radius p.
  Proof.
    intros P DP WP W2. assert (w <= D) by (pose proof (pow2_ge_0 (2 * (p_radius p * p_cos_mu p))); nra). pose proof sin_mu_bound as SB. pose proof (radius_nonneg k s Hk Hs) as RP.
    replace (Rabs (sf * (w - 2 * (p_radius p * p_sin_mu p)))) with (Rabs (w - 2 * (p_radius p * p_sin_mu p))).
    - apply Rabs_le. nra.
    - rewrite Rabs_mult. replace (Rabs sf) with 1; [ring|]. destruct P as [->| ->]; [rewrite Rabs_R1|rewrite Rabs_left]; lra.
  Qed.
End Max.
Lemma conf_dist_states s1 s2 a b : at_conf s1 a -> at_conf s2 b -> configuration_distance a b = pos_dist s1 s2.
Proof.
  unfold at_conf, pst, pcf, peq; cbn [px py pt]. intros (A & B & _) (C & D & _). unfold configuration_distance, point_distance, pos_dist. rewrite A, B, C, D. f_equal. ring.
Qed.
Ltac turn_bounds :=
  repeat match goal with
  | |- context [cc_turn_length (circle ?st ?l ?f ?reg (hc_cc_param ?k ?s)) ?q] =>
      let B := fresh "TB" in pose proof (max_cc k s ltac:(assumption) ltac:(assumption) st l f reg q) as B; generalize dependent (cc_turn_length (circle st l f reg (hc_cc_param k s)) q); intros
  | |- context [hc_turn_length (circle ?st ?l ?f ?reg (hc_cc_param ?k ?s)) ?q] =>
      let B := fresh "TB" in pose proof (max_hc k s ltac:(assumption) ltac:(assumption) st l f reg q) as B; generalize dependent (hc_turn_length (circle st l f reg (hc_cc_param k s)) q); intros
  | K : 0 < ?k / ?s |- context [rs_turn_length (circle ?st ?l ?f ?reg (rs_param ?k)) ?q] =>
      let B := fresh "TB" in pose proof (max_rs k s ltac:(assumption) ltac:(assumption) st l f reg q) as B; generalize dependent (rs_turn_length (circle st l f reg (rs_param k)) q); intros
  end.
Ltac fields_goal :=
  repeat match goal with
  | H : c_start ?c = _ |- context [c_start ?c] => rewrite H
  | H : c_left ?c = _ |- context [c_left ?c] => rewrite H
  | H : c_forward ?c = _ |- context [c_forward ?c] => rewrite H
  | H : c_regular ?c = _ |- context [c_regular ?c] => rewrite H
  | H : c_radius ?c = _ |- context [c_radius ?c] => rewrite H
  | H : c_sin_mu ?c = _ |- context [c_sin_mu ?c] => rewrite H
  | H : c_cos_mu ?c = _ |- context [c_cos_mu ?c] => rewrite H
  | H : Rabs (c_kappa_inv ?c) = _ |- context [Rabs (c_kappa_inv ?c)] => rewrite H
  end.
(** A root that is defined. *)
Ltac root_goal := unfold fsqrt; destruct (Rlt_dec _ 0) as [NEG|_]; [exfalso; nra|]; cbn [fbind].
Ltac frames_goal :=
  repeat match goal with |- context [let '(x, y) := global_frame_change ?a ?b ?c ?d ?e in _] => destruct (global_frame_change a b c d e) end; cbn [fbind].
Lemma in_table (l : list Entry) e M : In e l -> (exists w, e_length e = Some w /\ w <= M) -> exists e w, In e l /\ e_length e = Some w /\ w <= M.
Proof. intros I (w & A & B). exists e, w. auto. Qed.

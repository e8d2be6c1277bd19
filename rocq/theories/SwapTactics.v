(** * Tactics for the candidates with start and goal exchanged *)
From Coq Require Import Reals ZArith List Lra Lia Bool.
From Verif Require Import Base ModelUtil ModelIntegrate ModelCircle ModelPaths Num UtilProofs SpecPath SpecTurn PoseAlg TurnProofs MotionProofs TurnBounds LegProofs TangentProofs PlanProofs PlanFamily PlanTactics RigidBase RigidTactics SwapBase.
Import ListNotations.
Open Scope R_scope.

(** The parameters of a circle; [reg] tells whether it is a regular one, [z] tells whether it is that of a turn to or from curvature zero. *)
Definition par (reg : bool) (k s : R) (z : bool) (c : Circle) : Prop :=
  c_regular c = reg /\ (c_radius c = if z then p_radius (hc_cc_param k s) else 1 / k) /\ (c_mu c = if z then p_mu (hc_cc_param k s) else 0) /\
  (c_sin_mu c = if z then p_sin_mu (hc_cc_param k s) else 0) /\ (c_cos_mu c = if z then p_cos_mu (hc_cc_param k s) else 1) /\
  Rabs (c_kappa c) = k /\ Rabs (c_kappa_inv c) = 1 / k /\ forall n, (n * c_kappa_inv c) ^ 2 = (n * (1 / k)) ^ 2.
Lemma par_zero reg k s c start l f : 0 < k -> c = circle start l f reg (hc_cc_param k s) -> par reg k s true c.
Proof.
  intros Hk E. destruct (facts_cc k s c start l f reg Hk E) as (_ & _ & _ & G & R & M & SM & CM & K & KI & _).
  repeat (split; [assumption|]). intros n. rewrite !Rpow_mult_distr, <- (pow2_abs (c_kappa_inv c)), KI. reflexivity.
Qed.
Lemma par_max reg k s c start l f : 0 < k -> c = circle start l f reg (rs_param k) -> par reg k s false c.
Proof.
  intros Hk E. destruct (facts_rs k c start l f reg Hk E) as (_ & _ & _ & G & R & M & SM & CM & K & KI & _).
  repeat (split; [assumption|]). intros n. rewrite !Rpow_mult_distr, <- (pow2_abs (c_kappa_inv c)), KI. reflexivity.
Qed.
Lemma at_mu x y l f r p : c_mu (circle_at x y l f r p) = p_mu p.
Proof. destruct l; reflexivity. Qed.
Lemma at_radius x y l f r p : c_radius (circle_at x y l f r p) = p_radius p.
Proof. destruct l; reflexivity. Qed.
Lemma at_sin_mu x y l f r p : c_sin_mu (circle_at x y l f r p) = p_sin_mu p.
Proof. destruct l; reflexivity. Qed.
Lemma at_cos_mu x y l f r p : c_cos_mu (circle_at x y l f r p) = p_cos_mu p.
Proof. destruct l; reflexivity. Qed.
Ltac sw_at := rewrite ?at_mu, ?at_radius, ?at_sin_mu, ?at_cos_mu.

Lemma min_same a b a' b' : a = a' -> b = b' -> (if Rltb a b then a else b) = (if Rltb a' b' then a' else b').
Proof. intros -> ->. reflexivity. Qed.
Lemma min_flip a b a' b' : a = b' -> b = a' -> (if Rltb a b then a else b) = (if Rltb a' b' then a' else b').
Proof. intros -> ->. destruct (Rltb b' a') eqn:E, (Rltb a' b') eqn:F; try (apply Rltb_true in E); try (apply Rltb_true in F); try (apply Rltb_false in E); try (apply Rltb_false in F); lra. Qed.

(** The tests read the sides and directions and the same numbers. *)
Ltac sw_flags c1 c2 :=
  let L1 := fresh "L1" in let L2 := fresh "L2" in let F1 := fresh "F1" in let F2 := fresh "F2" in
  destruct (c_left c1) eqn:L1, (c_left c2) eqn:L2, (c_forward c1) eqn:F1, (c_forward c2) eqn:F2; cbn [Bool.eqb negb andb orb].
Ltac sw_par H :=
  let G := fresh "G" in let R := fresh "R" in let M := fresh "M" in let SM := fresh "SM" in let CM := fresh "CM" in let K := fresh "K" in let KI := fresh "KI" in let SQ := fresh "SQ" in
  destruct H as (G & R & M & SM & CM & K & KI & SQ); cbv beta iota in R, M, SM, CM; rewrite ?G, ?R, ?M, ?SM, ?CM, ?K, ?KI, ?SQ.
(** The tangents of the planner at hand as the general ones; redefined for each. *)
Ltac sw_tan := fail.
Ltac sw_flt :=
  match goal with
  | |- context [fbind (fsqrt ?e) _] => let F := fresh "FS" in destruct (fsqrt e) eqn:F; cbn [fbind]; [|try reflexivity]
  | |- context [fbind (fdiv ?e ?f) _] => let F := fresh "FD" in destruct (fdiv e f) eqn:F; cbn [fbind]; [|try reflexivity]
  | |- context [fbind (fasin ?e) _] => let F := fresh "FA" in destruct (fasin e) eqn:F; cbn [fbind]; [|try reflexivity]
  | |- context [fbind (facos ?e) _] => let F := fresh "FA" in destruct (facos e) eqn:F; cbn [fbind]; [|try reflexivity]
  end.
Ltac sw_frame :=
  match goal with |- context [global_frame_change ?x ?y ?t ?a ?b] => let G := fresh "G" in destruct (global_frame_change x y t a b) as [? ?] eqn:G; cbv beta iota end.
Ltac centre_tac :=
  match goal with
  | |- same_centre ?c ?c => apply same_self
  | XY : c_xc ?c2 = _ /\ c_yc ?c2 = _, CS : cos ?an' = _ /\ sin ?an' = _ |- same_centre (circle_at ?x ?y _ _ _ _) (circle_at ?x' ?y' _ _ _ _) =>
      match goal with G : global_frame_change _ _ _ _ _ = (x, y), G' : global_frame_change _ _ _ _ _ = (x', y') |- _ =>
        let X := fresh "X" in let Y := fresh "Y" in let X' := fresh "X'" in let Y' := fresh "Y'" in
        pose proof G as X; pose proof G' as X'; unfold global_frame_change in X, X'; apply pair_equal_spec in X; apply pair_equal_spec in X'; destruct X as [X Y], X' as [X' Y'];
        split; rewrite ?at_xc, ?at_yc; [rewrite <- X, <- X'|rewrite <- Y, <- Y']; rewrite ?(proj1 XY), ?(proj2 XY), ?(proj1 CS), ?(proj2 CS); solve [ring|field]
      end
  end.
Ltac flag_tac := rewrite ?at_left, ?at_forward; repeat match goal with H : c_left _ = _ |- _ => rewrite H | H : c_forward _ = _ |- _ => rewrite H end; reflexivity.
Ltac pos_tac HA' :=
  match goal with |- ?x = ?x' =>
    match goal with G : global_frame_change _ _ ?t _ _ = (?u, ?v), G' : global_frame_change _ _ ?t' _ _ = (?u', ?v') |- _ =>
      lazymatch constr:((x, x')) with (u, u') => idtac | (v, v') => idtac end;
      let A := fresh "A" in assert (A : ang_eq t' (t + PI)) by flip_ang HA';
      let X := fresh "X" in let Y := fresh "Y" in let X' := fresh "X'" in let Y' := fresh "Y'" in
      pose proof G as X; pose proof G' as X'; unfold global_frame_change in X, X'; rewrite (flip_cos _ _ A), (flip_sin _ _ A) in X';
      apply pair_equal_spec in X; apply pair_equal_spec in X'; destruct X as [X Y], X' as [X' Y'];
      first [rewrite <- X, <- X'; ring | rewrite <- Y, <- Y'; ring]
    end
  end.
Ltac qs_tac :=
  match goal with
  | |- qs ?a ?a => apply qs_refl
  | |- qs (configuration (q_x ?a) (q_y ?a) (q_theta ?a) _) _ => apply qs_copy; qs_tac
  | |- qs _ (configuration (q_x ?a) (q_y ?a) (q_theta ?a) _) => apply qs_copy'; qs_tac
  | |- qs (gTT ?mu ?A ?B) (gTT ?mu ?B' ?A') => rewrite (gTT_swap mu A B A' B'); [apply qs_refl|far_tac|flag_tac|flag_tac|centre_tac|centre_tac]
  | |- qs (gTcT ?k ?dy ?A ?B) (gTcT ?k' ?dy ?B' ?A') => apply qs_sym; apply (gTcT_swap k k' dy A B A' B'); [far_tac|flag_tac|flag_tac|centre_tac|centre_tac]
  | HA' : ang_eq ?an' (?an + PI) |- qs (configuration _ _ _ _) (configuration _ _ _ _) => apply qs_conf; [pos_tac HA'|pos_tac HA'|apply ang_eq_sym; flip_ang HA']
  end.
Ltac len_tac :=
  lazymatch goal with
  | |- rs_turn_length (circle ?a ?l ?f ?r ?p) ?q = _ => first [apply rs_len_start; qs_tac | apply (rs_len_back a _ l f r p q); qs_tac]
  | |- hc_turn_length (circle ?a ?l ?f ?r ?p) ?q = _ => first [apply hc_len_start; qs_tac | apply (hc_len_back a _ l f r p q); qs_tac]
  | |- cc_turn_length (circle ?a ?l ?f ?r ?p) ?q = _ => first [apply cc_len_start; qs_tac | apply (cc_len_back a _ l f r p q); qs_tac]
  | |- rs_turn_length ?c _ = rs_turn_length ?c _ => apply rs_len_qs; [apply qs_refl|apply par_self|qs_tac]
  | |- hc_turn_length ?c _ = hc_turn_length ?c _ => apply hc_len_qs; [apply qs_refl|apply par_self|qs_tac]
  | |- cc_turn_length ?c _ = cc_turn_length ?c _ => apply cc_len_qs; [apply qs_refl|apply par_self|qs_tac]
  | |- configuration_distance _ _ = _ => apply cd_qs; qs_tac
  | |- ?a = ?a => reflexivity
  end.
Ltac sum_tac :=
  lazymatch goal with
  | |- _ + _ + _ + _ + _ = _ => apply back5; len_tac
  | |- _ + _ + _ + _ = _ => apply back4; len_tac
  | |- _ + _ + _ = _ => apply back3; len_tac
  | |- _ + _ = _ => apply back2; len_tac
  | |- _ => len_tac
  end.
Ltac sw_min :=
  match goal with |- ?L = ?R =>
    match L with context [Rltb ?a ?b] => match R with context [Rltb ?a' ?b'] =>
      transitivity (Some (if Rltb a b then a else b)); [destruct (Rltb a b); reflexivity|];
      transitivity (Some (if Rltb a' b' then a' else b')); [|destruct (Rltb a' b'); reflexivity];
      apply f_equal; first [apply min_flip; sum_tac | apply min_same; sum_tac]
    end end
  end.
(** A tangent that is not a number leaves no candidate. *)
Ltac sw_nan :=
  match goal with T : gTcTc _ _ _ = None |- _ => idtac end;
  repeat match goal with |- context [fbind (gTcTc ?r ?A ?B) _] => destruct (gTcTc r A B); cbn [fbind] | |- context [gTiST ?r ?sm ?cm ?A ?B] => destruct (gTiST r sm cm A B) as [[? ?]|]; cbn [fbind] | |- context [gTeST ?r ?sm ?cm ?A ?B] => destruct (gTeST r sm cm A B) as [? ?] end; reflexivity.
Ltac sw_end := first [reflexivity | sw_nan | sw_min | cbn [e_length]; apply f_equal; sum_tac].
Ltac sw_facts :=
  repeat match goal with
  | H : c_mu ?c = _ |- context [c_mu ?c] => rewrite H
  | H : c_radius ?c = _ |- context [c_radius ?c] => rewrite H
  | H : c_sin_mu ?c = _ |- context [c_sin_mu ?c] => rewrite H
  | H : c_cos_mu ?c = _ |- context [c_cos_mu ?c] => rewrite H
  end.
(** Tangents with several values. *)
Ltac sw_tis :=
  match goal with |- ?L = ?R =>
    match L with
    | context [gTiST ?r ?sm ?cm ?A ?B] =>
        match R with context [gTiST r sm cm ?B' ?A'] =>
          rewrite (gTiST_swap r sm cm A B A' B') by (first [flag_tac|centre_tac]); let T := fresh "TI" in destruct (gTiST r sm cm A B) as [[? ?]|] eqn:T; cbn [option_map flip2 fst snd fbind]; [|reflexivity] end
    | context [gTeST ?r ?sm ?cm ?A ?B] =>
        match R with context [gTeST r sm cm ?B' ?A'] =>
          rewrite (gTeST_swap r sm cm A B A' B') by (first [flag_tac|centre_tac|far_tac]); let T := fresh "TE" in destruct (gTeST r sm cm A B) as [? ?] eqn:T; cbn [flip2 fst snd] end
    | context [fbind (gTcTc ?r ?A ?B) _] =>
        match R with context [gTcTc r ?B' ?A'] =>
          rewrite (gTcTc_swap r A B A' B') by (first [flag_tac|centre_tac|far_tac]); let T := fresh "TC" in destruct (gTcTc r A B) as [?|] eqn:T; cbn [fbind]; [|try reflexivity] end
    end
  end.
(** The apex of a triangle with its sides exchanged. *)
Lemma tri D r1 r2 dx : D <> 0 -> fdiv (r1 ^ 2 + D ^ 2 - r2 ^ 2) (2 * D) = Some dx -> fdiv (r2 ^ 2 + D ^ 2 - r1 ^ 2) (2 * D) = Some (D - dx) /\ r2 ^ 2 - (D - dx) ^ 2 = r1 ^ 2 - dx ^ 2.
Proof.
  intros N F. destruct (fdiv_some _ _ _ F) as [N2 E]. assert (E2 : dx * (2 * D) = r1 ^ 2 + D ^ 2 - r2 ^ 2) by (rewrite E; field; exact N).
  split; [|nra]. unfold fdiv. destruct (Req_EM_T (2 * D) 0) as [Z|_]; [lra|]. f_equal. rewrite E. field. exact N.
Qed.
Ltac sw_tri :=
  match goal with HP : apart 1 _ _ _ _ ?c1 ?c2, HD : ?D = center_distance ?c1 ?c2 |- ?L = ?R =>
    match L with context [fbind (fdiv (?r1 ^ 2 + D ^ 2 - ?r2 ^ 2) (2 * D)) _] => match R with context [fbind (fdiv (r2 ^ 2 + D ^ 2 - r1 ^ 2) (2 * D)) _] =>
      let N := fresh "N" in assert (N : D <> 0) by (let Z := fresh "Z" in rewrite HD; destruct HP as [Z|[Z _]]; [lra|exact Z]);
      let F := fresh "FD" in destruct (fdiv (r1 ^ 2 + D ^ 2 - r2 ^ 2) (2 * D)) as [dx|] eqn:F;
      [let T := fresh "T" in let TE := fresh "TE" in destruct (tri D r1 r2 dx N F) as [T TE]; rewrite T; cbn [fbind]; rewrite TE
      |exfalso; unfold fdiv in F; destruct (Req_EM_T (2 * D) 0); [lra|discriminate F]]
    end end
  end.
Ltac sw_run := repeat (first [mv_if | sw_tri | sw_flt | sw_frame | sw_tan | progress sw_at | progress sw_facts | sw_tis | progress cbn [fbind]]).
Ltac sw_entry P1 P2 c1 c2 := sw_par P1; sw_par P2; sw_flags c1 c2; try reflexivity; sw_run; sw_end.

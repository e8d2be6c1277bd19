(** * The pieces of the HC/CC planners for a car that looks the other way *)
From Coq Require Import Reals ZArith List Lra Lia Bool.
From Verif Require Import Base ModelUtil ModelIntegrate ModelCircle ModelPaths Num UtilProofs DubinsOpt SpecPath SpecTurn PoseAlg TurnProofs MotionProofs TurnBounds LegProofs TangentProofs PlanProofs PlanFamily PlanTactics RigidBase RigidTactics.
Import ListNotations.
Open Scope R_scope.

(** The configuration turned around on the spot; left and right are exchanged, and so are forward and backward. *)
Definition ab (q : Configuration) : Configuration := mkConf (q_x q) (q_y q) (twopify (q_theta q + PI)) (- q_kappa q).
Definition abg (st : Configuration) (c : Circle) : Circle :=
  mkCircle st (negb (c_left c)) (negb (c_forward c)) (c_regular c) (c_xc c) (c_yc c)
    (- c_kappa c) (- c_kappa_inv c) (- c_sigma c) (c_radius c) (c_mu c) (c_sin_mu c) (c_cos_mu c) (c_delta_min c).
Definition abc (c : Circle) : Circle := abg (ab (c_start c)) c.
Definition abE (e : Entry) : Entry :=
  mkEntry (e_length e) (option_map ab (e_qi1 e)) (option_map ab (e_qi2 e)) (option_map ab (e_qi3 e)) (option_map ab (e_qi4 e))
    (option_map abc (e_cstart e)) (option_map abc (e_cend e)) (option_map abc (e_ci1 e)) (option_map abc (e_ci2 e)).
Definition ab2 (p : Configuration * Configuration) := (ab (fst p), ab (snd p)).

Lemma full_turn a b : a = b + 2 * PI -> ang_eq a b.
Proof. intros ->. exists 1%Z. ring. Qed.
(** Headings that differ by a half turn. *)
Ltac half := cbv zeta; first [apply ang_eq_of_eq; unfold HALF_PI; field|apply full_turn; unfold HALF_PI; field|apply ang_eq_sym, full_turn; unfold HALF_PI; field].
Lemma theta_ab q : ang_eq (q_theta (ab q)) (q_theta q + PI).
Proof. apply twopify_ang. Qed.
Lemma conf_ab x y t T kap kap' : ang_eq T (t + PI) -> kap' = - kap -> configuration x y T kap' = ab (configuration x y t kap).
Proof.
  intros E ->. unfold configuration, ab; cbn [q_x q_y q_theta q_kappa]. f_equal. apply twopify_congr.
  eapply ang_eq_trans; [exact E|]. apply ang_eq_add; [apply ang_eq_sym, twopify_ang|apply ang_eq_refl].
Qed.
Lemma reconf_ab q kap kap' : kap' = - kap -> configuration (q_x (ab q)) (q_y (ab q)) (q_theta (ab q)) kap' = ab (configuration (q_x q) (q_y q) (q_theta q) kap).
Proof. apply conf_ab. apply theta_ab. Qed.
Lemma gfc_ab x y t T a b : ang_eq T (t + PI) -> global_frame_change x y T a b = global_frame_change x y t (- a) (- b).
Proof. intros E. unfold global_frame_change. rewrite (ang_eq_cos _ _ E), (ang_eq_sin _ _ E), neg_cos, neg_sin. f_equal; ring. Qed.
Lemma circle_ab q l f r p : circle (ab q) l f r p = abc (circle q (negb l) (negb f) r p).
Proof.
  unfold circle. change (q_x (ab q)) with (q_x q). change (q_y (ab q)) with (q_y q).
  destruct l, f; cbn [negb]; rewrite (gfc_ab _ _ _ _ _ _ (theta_ab q)), ?Ropp_involutive; destruct (global_frame_change _ _ _ _ _) as [x y]; unfold abc, abg; cbn; rewrite ?Ropp_involutive; reflexivity.
Qed.
Lemma circle_at_ab x y l f r p : circle_at x y l f r p = abg (configuration 0 0 0 0) (circle_at x y (negb l) (negb f) r p).
Proof. unfold circle_at. destruct l, f; unfold abg; cbn; rewrite ?Ropp_involutive; reflexivity. Qed.

Lemma defl_ab c q : deflection (abc c) (ab q) = deflection c q.
Proof.
  unfold deflection, abc, abg; cbn [c_start c_left c_forward].
  replace ((negb (c_left c) && negb (c_forward c)) || (negb (negb (c_left c)) && negb (negb (c_forward c)))) with ((c_left c && c_forward c) || (negb (c_left c) && negb (c_forward c))) by (destruct (c_left c), (c_forward c); reflexivity).
  destruct ((c_left c && c_forward c) || _); apply twopify_congr.
  - eapply ang_eq_trans; [apply ang_eq_sub; apply theta_ab|]. apply ang_eq_of_eq. ring.
  - eapply ang_eq_trans; [apply ang_eq_sub; apply theta_ab|]. apply ang_eq_of_eq. ring.
Qed.
Lemma abs_mul x y : Rabs (- x * y) = Rabs (x * y).
Proof. rewrite <- (Rabs_Ropp (x * y)). f_equal. ring. Qed.
Lemma opp_div x y : - x / - y = x / y.
Proof. unfold Rdiv. rewrite Rinv_opp. ring. Qed.
Lemma cd_ab q q' : configuration_distance (ab q) (ab q') = configuration_distance q q'.
Proof. reflexivity. Qed.
Lemma rs_len_ab c q : rs_turn_length (abc c) (ab q) = rs_turn_length c q.
Proof. unfold rs_turn_length. rewrite defl_ab. unfold abc, abg; cbn [c_kappa_inv]. apply abs_mul. Qed.
Lemma hc_len_ab c q : hc_turn_length (abc c) (ab q) = hc_turn_length c q.
Proof. unfold hc_turn_length. rewrite defl_ab. unfold abc, abg; cbn [c_kappa_inv c_kappa c_sigma]. rewrite opp_div, abs_mul. reflexivity. Qed.
Lemma cc_len_ab c q : cc_turn_length (abc c) (ab q) = cc_turn_length c q.
Proof.
  unfold cc_turn_length. rewrite defl_ab. unfold cc_elementary_sharpness.
  change (c_start (abc c)) with (ab (c_start c)). change (q_x (ab (c_start c))) with (q_x (c_start c)). change (q_y (ab (c_start c))) with (q_y (c_start c)). change (q_x (ab q)) with (q_x q). change (q_y (ab q)) with (q_y q).
  change (c_kappa (abc c)) with (- c_kappa c). change (c_sigma (abc c)) with (- c_sigma c). change (c_kappa_inv (abc c)) with (- c_kappa_inv c). change (c_left (abc c)) with (negb (c_left c)).
  change (c_radius (abc c)) with (c_radius c). change (c_sin_mu (abc c)) with (c_sin_mu c). change (c_delta_min (abc c)) with (c_delta_min c). change (cc_circular_deflection (abc c)) with (cc_circular_deflection c).
  rewrite opp_div, abs_mul. cbv zeta. set (dl := deflection c q). destruct (Rltb dl _ && Rltb epsilon _); [|reflexivity].
  destruct (c_left c); cbn [negb]; rewrite Rabs_Ropp; reflexivity.
Qed.
Lemma center_ab a b c1 c2 : center_distance (abg a c1) (abg b c2) = center_distance c1 c2.
Proof. reflexivity. Qed.

Lemma sq2_opp x : (2 * - x) ^ 2 = (2 * x) ^ 2.
Proof. ring. Qed.
Lemma sq4_opp x : (4 * - x) ^ 2 = (4 * x) ^ 2.
Proof. ring. Qed.
Lemma sq_opp x : (- x) ^ 2 = x ^ 2.
Proof. ring. Qed.

(** ** Tactics *)
Ltac ab_field X c :=
  match goal with
  | |- context [c_xc X] => change (c_xc X) with (c_xc c)
  | |- context [c_yc X] => change (c_yc X) with (c_yc c)
  | |- context [c_left X] => change (c_left X) with (negb (c_left c))
  | |- context [c_forward X] => change (c_forward X) with (negb (c_forward c))
  | |- context [c_regular X] => change (c_regular X) with (c_regular c)
  | |- context [c_kappa X] => change (c_kappa X) with (- c_kappa c)
  | |- context [c_kappa_inv X] => change (c_kappa_inv X) with (- c_kappa_inv c)
  | |- context [c_sigma X] => change (c_sigma X) with (- c_sigma c)
  | |- context [c_radius X] => change (c_radius X) with (c_radius c)
  | |- context [c_mu X] => change (c_mu X) with (c_mu c)
  | |- context [c_sin_mu X] => change (c_sin_mu X) with (c_sin_mu c)
  | |- context [c_cos_mu X] => change (c_cos_mu X) with (c_cos_mu c)
  | |- context [c_delta_min X] => change (c_delta_min X) with (c_delta_min c)
  | |- context [c_start (abc c)] => change (c_start (abc c)) with (ab (c_start c))
  end.
Ltac ab_fields :=
  repeat match goal with
  | |- context [abc ?c] => ab_field (abc c) c
  | |- context [abg ?a ?c] => ab_field (abg a c) c
  end; rewrite ?Rabs_Ropp, ?sq2_opp, ?sq4_opp, ?sq_opp.
Ltac ab_frame :=
  match goal with
  | |- context [global_frame_change ?x ?y ?t ?a ?b] => destruct (global_frame_change x y t a b) as [? ?]
  end.
Ltac abcore X := lazymatch X with abc ?c => c | abg _ ?c => c end.
Ltac ab_rest :=
  match goal with
  | |- ?L = ?R => match L with context [circle_at ?x ?y ?l ?f ?r ?p] =>
      let l' := eval cbn in (negb l) in let f' := eval cbn in (negb f) in
      match R with context [circle_at x y l' f' r p] =>
        rewrite (circle_at_ab x y l f r p); cbn [negb]; generalize (circle_at x y l' f' r p); intros ? end end
  | |- context [configuration (q_x (ab ?q)) (q_y (ab ?q)) (q_theta (ab ?q)) (- ?kp)] => rewrite (reconf_ab q kp (- kp) eq_refl); generalize (configuration (q_x q) (q_y q) (q_theta q) kp); intros ?
  | |- context [configuration (q_x (ab ?q)) (q_y (ab ?q)) (q_theta (ab ?q)) 0] => rewrite (reconf_ab q 0 0 ltac:(ring)); generalize (configuration (q_x q) (q_y q) (q_theta q) 0); intros ?
  | |- context [circle (ab ?q) ?l ?f ?r ?p] => rewrite (circle_ab q l f r p); cbn [negb]
  | |- context [configuration_distance (ab ?q) (ab ?q')] => rewrite (cd_ab q q')
  | |- context [rs_turn_length (abc ?c) (ab ?q)] => rewrite (rs_len_ab c q)
  | |- context [hc_turn_length (abc ?c) (ab ?q)] => rewrite (hc_len_ab c q)
  | |- context [cc_turn_length (abc ?c) (ab ?q)] => rewrite (cc_len_ab c q)
  end.
Ltac ab_conf :=
  match goal with
  | |- ?L = ?R => match L with context [configuration ?x ?y ?T ?kp'] => match R with context [configuration x y ?t ?kp] =>
      rewrite (conf_ab x y t T kp kp') by first [half|ring]; generalize (configuration x y t kp); intros ? end end
  end.
Lemma gTT_ab mu a b c1 c2 : gTT mu (abg a c1) (abg b c2) = ab (gTT mu c1 c2).
Proof.
  unfold gTT, abg; cbn [c_xc c_yc c_left c_forward]. destruct (c_left c1), (c_forward c1); cbn [negb]; apply conf_ab; first [half|ring].
Qed.
Lemma gTcT_ab kap dy a b c1 c2 : gTcT (- kap) dy (abg a c1) (abg b c2) = ab (gTcT kap dy c1 c2).
Proof.
  unfold gTcT. rewrite center_ab. unfold abg; cbn [c_xc c_yc c_left c_forward]. cbv zeta. destruct (c_left c1), (c_forward c1); cbn [negb]; ab_frame; apply conf_ab; first [half|ring].
Qed.
Lemma gTcTc_ab r a b c1 c2 : gTcTc r (abg a c1) (abg b c2) = option_map ab (gTcTc r c1 c2).
Proof.
  unfold gTcTc. rewrite center_ab. unfold abg; cbn [c_xc c_yc c_left c_forward c_kappa]. cbv zeta. destruct (fsqrt _); [|reflexivity]. cbn [fbind].
  destruct (c_left c1), (c_forward c1); cbn [negb]; ab_frame; cbn [option_map]; apply f_equal; apply conf_ab; first [half|ring].
Qed.
Lemma gTiST_ab R0 sm cm a b c1 c2 : gTiST R0 sm cm (abg a c1) (abg b c2) = option_map ab2 (gTiST R0 sm cm c1 c2).
Proof.
  unfold gTiST. rewrite center_ab. cbv zeta.
  destruct (fdiv _ _) as [t1|]; [|reflexivity]. cbn [fbind]. destruct (fasin t1) as [al|]; [|reflexivity].
  cbn [fbind]. unfold abg; cbn [c_xc c_yc c_left c_forward].
  destruct (c_left c1), (c_forward c1); cbn [andb negb]; repeat ab_frame; cbn [option_map ab2 fst snd]; apply f_equal; unfold ab2; cbn [fst snd]; apply f_equal2; apply conf_ab; first [half|ring].
Qed.
Lemma gTeST_ab R0 sm cm a b c1 c2 : gTeST R0 sm cm (abg a c1) (abg b c2) = ab2 (gTeST R0 sm cm c1 c2).
Proof.
  unfold gTeST. cbv zeta. unfold abg; cbn [c_xc c_yc c_left c_forward].
  destruct (c_left c1), (c_forward c1); cbn [andb negb]; repeat ab_frame; unfold ab2; cbn [fst snd]; apply f_equal2; apply conf_ab; first [half|ring].
Qed.

(** The tangent circles of the planner at hand; redefined for each. *)
Ltac ab_tan := fail.
Ltac ab_entry c1 c2 :=
  ab_fields; cbv zeta; destruct (c_left c1), (c_forward c1), (c_left c2), (c_forward c2); cbn [negb xorb Bool.eqb andb orb];
  repeat (first [mv_if | ab_frame | ab_rest | ab_conf | progress ab_fields | ab_tan | progress cbn [fbind] | mv_flt]); reflexivity.

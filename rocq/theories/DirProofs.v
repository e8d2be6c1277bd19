(** * Turns and lines keep their driving direction *)
From Coq Require Import Reals ZArith List Lra Lia Bool.
From Verif Require FresFinal.
From Verif Require Import Base ModelUtil ModelFresnel ModelCircle ModelPaths Num UtilProofs SpecPath SpecTurn SpecPlan SpecDir PoseAlg TurnProofs MotionProofs TurnBounds LegProofs TangentProofs PlanProofs PlanTactics PlanHybrid PlanFamily.
Import ListNotations.
Open Scope R_scope.

(** [d] is the direction, 1 or -1. *)
Definition onward (e d : R) (cs : list Control) : Prop := List.Forall (fun c => - e <= d * ct_delta_s c) cs.
Lemma onward_app e d cs1 cs2 : onward e d cs1 -> onward e d cs2 -> onward e d (cs1 ++ cs2).
Proof. intros A B. apply Forall_app. split; assumption. Qed.
Lemma onward_le e e' d cs : e <= e' -> onward e d cs -> onward e' d cs.
Proof. intros E. apply Forall_impl. intros c H. lra. Qed.

Section Dir.
  Variables (k s : R).
  Hypothesis Hk : 0 < k.
  Hypothesis Hs : 0 < s.
  Let p := hc_cc_param k s.

  Lemma one e d x ka si : 0 <= e -> pm1 d -> 0 <= x -> - e <= d * ct_delta_s (mkControl (d * x) ka si).
  Proof. intros E P X. cbn [ct_delta_s]. rewrite pm_mul by exact P. lra. Qed.
  Lemma onward_rs e start l f q o : 0 <= e -> onward e (wsign f o) (rs_turn_controls (circle start l f true (rs_param k)) q o).
  Proof.
    intros E. set (c := circle start l f true (rs_param k)). destruct (rs_fields k start l f true) as (_ & _ & EF & ER & EK & _). fold c in EF, ER, EK.
    unfold rs_turn_controls. rewrite EF, direction_w. constructor; [|constructor]. apply one; [exact E|apply wsign_pm|].
    unfold rs_circular_deflection. rewrite ER. apply Rmult_le_pos; [apply Rabs_pos|]. apply defl_range.
  Qed.
  Lemma onward_hc e start l f q o : 0 <= e -> onward e (wsign f o) (hc_turn_controls (circle start l f true p) q o).
  Proof.
    intros E. set (c := circle start l f true p). destruct (circle_all start l f true p) as (_ & _ & EF & ER & _). fold c in EF, ER.
    assert (AP : 0 <= Rabs (c_kappa_inv c) * hc_circular_deflection c (deflection c q)).
    { apply Rmult_le_pos; [apply Rabs_pos|]. unfold hc_circular_deflection. rewrite ER. apply regular_pos, defl_range. }
    unfold hc_turn_controls. rewrite EF, !direction_w.
    destruct o; (constructor; [|constructor; [|constructor]]); (apply one; [exact E|apply wsign_pm|]); first [exact AP | apply Rabs_pos].
  Qed.
  Lemma onward_default e start l f q o : 0 <= e -> let c := circle start l f true p in onward e (wsign f o) (cc_default_controls c (deflection c q) o).
  Proof.
    intros E c. destruct (circle_all start l f true p) as (_ & _ & EF & ER & _). fold c in EF, ER.
    unfold cc_default_controls. rewrite EF, direction_w.
    assert (AP : 0 <= Rabs (c_kappa_inv c) * cc_circular_deflection c (deflection c q)).
    { apply Rmult_le_pos; [apply Rabs_pos|]. unfold cc_circular_deflection. rewrite ER. apply regular_pos, defl_range. }
    repeat (constructor; [apply one; [exact E|apply wsign_pm|first [exact AP | apply Rabs_pos]]|]). constructor.
  Qed.
  Lemma onward_elementary e start l f reg q o dl cs : 0 <= e -> let c := circle start l f reg p in
    cc_elementary_controls c q dl o = Some cs -> onward e (wsign f o) cs.
  Proof.
    intros E c. destruct (circle_all start l f reg p) as (_ & _ & EF & ER & _). fold c in EF, ER.
    unfold cc_elementary_controls. destruct (cc_elementary_sharpness c q dl) as [s0|]; [|discriminate]. intros H. injection H as <-. rewrite EF, direction_w.
    repeat (constructor; [apply one; [exact E|apply wsign_pm|apply sqrt_pos]|]). constructor.
  Qed.
  Lemma onward_line e t d q1 q2 : 0 <= e -> straight_by t q1 q2 -> 0 <= d * t -> onward e d (straight_controls q1 q2).
  Proof. intros E S D. rewrite (straight_ds t q1 q2 S). constructor; [cbn [ct_delta_s]; lra|constructor]. Qed.

  (** A turn of a tiny deflection is driven straight. *)
  Lemma sgn_back x a e d : 0 <= a -> pm1 d -> (d * x <= 0 -> a <= e) -> 0 <= e -> - e <= d * (sgn x * a).
  Proof.
    intros A P H E. destruct (Rle_dec (d * x) 0) as [L|L].
    - specialize (H L). unfold sgn. destruct P as [->| ->]; destruct (Rlt_dec x 0); lra.
    - clear H. unfold sgn. destruct P as [->| ->]; destruct (Rlt_dec x 0); lra.
  Qed.
  Lemma unit_dot a u v : - hyp u v <= cos a * u + sin a * v <= hyp u v.
  Proof.
    pose proof (hyp_polar 1 a) as P. rewrite Rabs_R1, !Rmult_1_l in P. pose proof (hyp_dot (cos a) (sin a) u v) as A. pose proof (hyp_dot (cos a) (sin a) (- u) (- v)) as B.
    rewrite P in A, B. replace (hyp (- u) (- v)) with (hyp u v) in B by (unfold hyp; f_equal; ring). lra.
  Qed.
  Lemma cos_small x : 0 <= x <= 1 / 10 -> 9 / 10 <= cos x.
  Proof. intros H. pose proof (FresFinal.cos_lower_quad x ltac:(lra)). nra. Qed.
  Lemma onward_cc g start l f q o : 0 <= g -> cc_tangent g (circle start l f true p) q -> onward (3 * g) (wsign f o) (cc_turn_controls (circle start l f true p) q o).
  Proof.
    intros HG TG. assert (E3 : 0 <= 3 * g) by lra. set (c := circle start l f true p) in *. unfold cc_turn_controls.
    assert (F : onward (3 * g) (wsign f o) (cc_default_controls c (deflection c q) o)) by (apply onward_default; exact E3).
    destruct (Rlt_dec _ epsilon) as [SM|_].
    - assert (EP : epsilon <= 1 / 10) by (unfold epsilon; lra). pose proof (defl_range c q) as DR. pose proof PI2_1 as PB.
      destruct (chord_end k s start l f true Hk Hs g q TG) as (u & v & N & EX & EY). pose proof (chord_dist k s start l f true Hk Hs g q TG) as CD. cbv beta zeta in CD, EX, EY. change (circle start l f true (hc_cc_param k s)) with c in CD, EX, EY. set (dl := deflection c q) in *.
      destruct (nom_pos k s Hk Hs) as [NX NY]. set (A := 2 * (nom_X k s * cos (dl / 2) + nom_Y k s * sin (dl / 2))) in *.
      assert (CP : 9 / 10 <= cos (dl / 2)). { apply cos_small. unfold dl in *. lra. }
      assert (SP : 0 <= sin (dl / 2)) by (apply sin_ge_0; lra).
      assert (AP : 0 <= A) by (unfold A; nra).
      destruct (circle_all start l f true p) as (ST & EL & EF & _). fold c in ST, EL, EF.
      pose proof (defl_ang c q) as DA. rewrite ST, EL, EF in DA. fold dl in DA. rewrite (Rabs_pos_eq A AP) in CD.
      set (P1 := point_distance (q_x start) (q_y start) (q_x q) (q_y q)) in *.
      assert (SYM : point_distance (q_x q) (q_y q) (q_x start) (q_y start) = P1) by (unfold P1, point_distance; f_equal; ring).
      assert (PP : 0 <= P1) by apply sqrt_pos. assert (CD' : P1 <= A + g) by (pose proof (Rle_abs (P1 - A)); lra).
      rewrite ST. unfold straight_controls.
      destruct o; (constructor; [|constructor]); cbn [ct_delta_s]; [|rewrite SYM]; fold P1; (apply sgn_back; [exact PP|apply wsign_pm| |lra]); intros NEG.
      + assert (Q : cos (q_theta start) * (q_x q - q_x start) + sin (q_theta start) * (q_y q - q_y start) = sign f * A * cos (dl / 2) + (cos (q_theta start) * u + sin (q_theta start) * v)).
        { rewrite EX, EY. rewrite cos_plus, sin_plus. pose proof (cos_sq (q_theta start)) as T.
          replace (cos (sign f * sign l * (dl / 2))) with (cos (dl / 2)) by (symmetry; apply cos_pm; destruct f, l; unfold sign, pm1; lra). ring [T]. }
        rewrite Q in NEG. pose proof (unit_dot (q_theta start) u v) as B. assert (A <= 2 * g); [|lra].
        unfold wsign in NEG. destruct f; unfold sign in NEG; nra.
      + assert (Q : cos (q_theta q) * (q_x start - q_x q) + sin (q_theta q) * (q_y start - q_y q) = - sign f * A * cos (dl / 2) - (cos (q_theta q) * u + sin (q_theta q) * v)).
        { rewrite EX, EY. rewrite <- (ang_eq_cos _ _ DA), <- (ang_eq_sin _ _ DA).
          set (h := sign f * sign l * (dl / 2)). replace (sign f * sign l * dl) with (h + h) by (unfold h; field).
          replace (cos (dl / 2)) with (cos h) by (apply cos_pm; destruct f, l; unfold sign, pm1; lra).
          rewrite <- Rplus_assoc. set (th := q_theta start + h). rewrite (cos_plus th h), (sin_plus th h). pose proof (cos_sq th) as T. ring [T]. }
        rewrite Q in NEG. pose proof (unit_dot (q_theta q) u v) as B. assert (A <= 2 * g); [|lra].
        unfold wsign in NEG. destruct f; unfold sign in NEG; nra.
    - destruct (Rlt_dec _ _); [|exact F].
      destruct (cc_elementary_controls c q (deflection c q) o) as [cs|] eqn:E; [|exact F]. destruct (Rlt_dec _ _); [|exact F]. eapply onward_elementary; [exact E3|exact E].
  Qed.
End Dir.

Section Joints.
  Variables (k s : R).
  Hypothesis Hk : 0 < k.
  Hypothesis Hs : 0 < s.
  Local Notation p := (hc_cc_param k s).
  Local Notation X := (p_radius p * p_sin_mu p).
  Local Notation Y := (p_radius p * p_cos_mu p).
  (** The joints of a turn and a straight line, with the direction of the line. *)
  Lemma joint_TiST_dir R0 sm cm ca cb la fa q1 q2 : gTiST R0 sm cm ca cb = Some (q1, q2) -> R0 = p_radius p -> sm = p_sin_mu p -> cm = p_cos_mu p ->
    c_left ca = la -> c_forward ca = fa -> 2 * p_radius p <= center_distance ca cb ->
    off ca q1 (- sign fa * X) (sign la * Y) /\ off cb q2 (sign fa * X) (- sign la * Y) /\ exists t, straight_by t q1 q2 /\ 0 <= sign fa * t.
  Proof.
    intros E -> -> -> EL EF LE. destruct (TiST_off _ _ _ _ _ _ _ E) as (A & B & w & W0 & W2 & S). rewrite EL, EF in *. split; [exact A|split; [exact B|]].
    eexists; split; [exact S|]. rewrite pm_mul by apply pm1_sign. destruct (XY_r k s Hk Hs) as (XP & YP & XY). pose proof (radius_nonneg k s Hk Hs) as RP.
    assert ((2 * X) ^ 2 <= w ^ 2) by nra. nra.
  Qed.
  Lemma joint_TeST_dir R0 sm cm ca cb la fa q1 q2 : gTeST R0 sm cm ca cb = (q1, q2) -> R0 = p_radius p -> sm = p_sin_mu p -> cm = p_cos_mu p ->
    c_left ca = la -> c_forward ca = fa -> 2 * p_radius p * p_sin_mu p <= center_distance ca cb ->
    off ca q1 (- sign fa * X) (sign la * Y) /\ off cb q2 (sign fa * X) (sign la * Y) /\ exists t, straight_by t q1 q2 /\ 0 <= sign fa * t.
  Proof.
    intros E -> -> -> EL EF LE. destruct (TeST_off _ _ _ _ _ _ _ E) as (A & B & S). rewrite EL, EF in *. split; [exact A|split; [exact B|]].
    eexists; split; [exact S|]. rewrite pm_mul by apply pm1_sign. lra.
  Qed.
End Joints.

(** The controls [cs] keep the direction [f] up to the gap [g]. *)
Definition aimed (k s g : R) (f : bool) (cs : list Control) : Prop := onward (3 * g) (sign f) cs.
Ltac with_ks tac ::=
  lazymatch goal with
  | |- good ?k ?s _ _ _ _ _ _ _ _ => tac k s
  | |- goodh ?k ?s _ _ _ _ _ _ _ _ => tac k s
  | |- aimed ?k ?s _ _ _ => tac k s
  end.
Ltac side_far := first [eassumption | match goal with HD : _ = center_distance ?a ?b |- _ <= center_distance ?a ?b => rewrite <- HD; eassumption end].
Ltac line_joint k s :=
  match goal with
  | Q : _ ?ca ?cb = Some (?q1, ?q2) |- _ =>
      match type of q1 with Configuration => idtac end; match type of ca with Circle => idtac end; match type of cb with Circle => idtac end;
      let A := fresh "OA" in let B := fresh "OB" in let S := fresh "ST" in let t := fresh "t" in let N := fresh "SN" in
      destruct (joint_TiST_dir k s ltac:(assumption) ltac:(assumption) _ _ _ ca cb _ _ q1 q2 Q ltac:(side) ltac:(side) ltac:(side) ltac:(side) ltac:(side) ltac:(side_far)) as (A & B & t & S & N);
      clear Q
  | Q : _ ?ca ?cb = (?q1, ?q2) |- _ =>
      match type of q1 with Configuration => idtac end; match type of ca with Circle => idtac end; match type of cb with Circle => idtac end;
      let A := fresh "OA" in let B := fresh "OB" in let S := fresh "ST" in let t := fresh "t" in let N := fresh "SN" in
      destruct (joint_TeST_dir k s _ _ _ ca cb _ _ q1 q2 Q ltac:(side) ltac:(side) ltac:(side) ltac:(side) ltac:(side) ltac:(side_far)) as (A & B & t & S & N);
      clear Q
  end.

Ltac same_way := unfold wsign; rewrite ?sign_negb; first [ring | unfold sign; cbn; ring].
Ltac onward_tac :=
  lazymatch goal with
  | |- onward _ _ (_ ++ _) => apply onward_app; onward_tac
  | |- onward (3 * ?g) ?d (cc_turn_controls (circle ?st ?l ?f true (hc_cc_param ?k ?s)) ?q ?o) =>
      replace d with (wsign f o) by same_way; apply (onward_cc k s); [assumption|assumption|lra|tan2]
  | |- onward ?e ?d (hc_turn_controls (circle ?st ?l ?f true (hc_cc_param ?k ?s)) ?q ?o) => replace d with (wsign f o) by same_way; apply onward_hc; lra
  | |- onward ?e ?d (rs_turn_controls (circle ?st ?l ?f true (rs_param ?k)) ?q ?o) => replace d with (wsign f o) by same_way; apply onward_rs; lra
  | |- onward _ _ (straight_controls _ _) => eapply onward_line; [lra|eassumption|lra]
  end.
Ltac aim :=
  match goal with
  | H1 : ?c1 = circle _ _ _ _ _, H2 : ?c2 = circle _ _ _ _ _ |- _ => subst c1 c2
  end; unfold aimed; onward_tac.
Ltac circles_dir :=
  with_ks ltac:(fun k s =>
    quotients; tgts; dist_as2 (2 * p_radius (hc_cc_param k s)); dist_as2 (2 * (1 / k)); repeat line_joint k s; joints2; copies; all_gapped; aim).

(** Coinciding, aligned and cocircular ends. *)
Lemma onward_empty e d : 0 <= e -> onward e d empty_controls.
Proof. intros E. unfold empty_controls. constructor; [cbn [ct_delta_s]; lra|constructor]. Qed.
Lemma cos_abs x : cos (Rabs x) = cos x.
Proof. unfold Rabs. destruct (Rcase_abs x); [apply cos_neg|reflexivity]. Qed.
Lemma dir_forward a b : configuration_aligned a b = true -> onward 0 1 (straight_controls a b).
Proof.
  unfold configuration_aligned. destruct (Rlt_dec _ _) as [|N1]; [discriminate|]. unfold Rleb. destruct (Rle_dec _ _) as [N2|]; [|discriminate]. intros _.
  destruct (point_polar (q_x a) (q_y a) (q_x b) (q_y b)) as [X Y]. pose proof (twopify_ang (atan2 (q_y b - q_y a) (q_x b - q_x a))) as A.
  set (ph := twopify (atan2 (q_y b - q_y a) (q_x b - q_x a))) in *. set (D := point_distance (q_x a) (q_y a) (q_x b) (q_y b)) in *. assert (D0 : 0 <= D) by apply sqrt_pos.
  unfold straight_controls. constructor; [|constructor]. cbn [ct_delta_s]. rewrite Ropp_0. fold D.
  assert (C : 9 / 10 <= cos (ph - q_theta a)). { rewrite <- cos_abs. apply cos_small. split; [apply Rabs_pos|]. unfold epsilon in N2. lra. }
  replace (cos (q_theta a) * _ + _) with (D * cos (ph - q_theta a)).
  - unfold sgn. destruct (Rlt_dec _ 0) as [L|_]; [|lra]. exfalso. nra.
  - rewrite cos_minus, (ang_eq_cos _ _ A), (ang_eq_sin _ _ A). set (w := atan2 _ _) in *. transitivity (cos (q_theta a) * (D * cos w) + sin (q_theta a) * (D * sin w)); [ring|]. f_equal; f_equal; lra.
Qed.
Lemma dir_backward a b : configuration_aligned b a = true -> onward 0 (- (1)) (straight_controls a b).
Proof.
  unfold configuration_aligned. destruct (Rlt_dec _ _) as [|N1]; [discriminate|]. unfold Rleb. destruct (Rle_dec _ _) as [N2|]; [|discriminate]. intros _.
  destruct (point_polar (q_x b) (q_y b) (q_x a) (q_y a)) as [X Y]. pose proof (twopify_ang (atan2 (q_y a - q_y b) (q_x a - q_x b))) as A.
  set (ph := twopify (atan2 (q_y a - q_y b) (q_x a - q_x b))) in *. set (D := point_distance (q_x b) (q_y b) (q_x a) (q_y a)) in *. assert (D0 : 0 <= D) by apply sqrt_pos.
  unfold straight_controls. constructor; [|constructor]. cbn [ct_delta_s]. rewrite Ropp_0.
  assert (SY : point_distance (q_x a) (q_y a) (q_x b) (q_y b) = D) by (unfold D, point_distance; f_equal; ring). rewrite SY.
  assert (C : 9 / 10 <= cos (ph - q_theta a)).
  { rewrite <- cos_abs. apply cos_small. split; [apply Rabs_pos|].
    replace (ph - q_theta a) with ((ph - q_theta b) + - (q_theta a - q_theta b)) by ring. eapply Rle_trans; [apply Rabs_triang|]. rewrite Rabs_Ropp. unfold epsilon in *. lra. }
  replace (cos (q_theta a) * _ + _) with (- (D * cos (ph - q_theta a))).
  - unfold sgn. destruct (Rlt_dec _ 0) as [L|L]; [lra|]. assert (D = 0) by nra. rewrite H. lra.
  - rewrite cos_minus, (ang_eq_cos _ _ A), (ang_eq_sin _ _ A). set (w := atan2 _ _) in *. transitivity (cos (q_theta a) * - (D * cos w) + sin (q_theta a) * - (D * sin w)); [ring|]. f_equal; f_equal; lra.
Qed.
Lemma gap_nonneg k s t : 0 < k -> 0 < s -> 0 <= dubins_gap k s t.
Proof. intros Hk Hs. pose proof (radius_nonneg k s Hk Hs) as RP. assert (0 < 1 / k) by (apply Rdiv_lt_0_compat; lra). unfold dubins_gap, epsilon. destruct t; nra. Qed.

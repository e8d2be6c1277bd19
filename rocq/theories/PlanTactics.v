(** * Tactics for the candidates of the planners *)
From Coq Require Import Reals ZArith List Lra Lia Bool.
From Verif Require Import Base ModelUtil ModelCircle ModelPaths Num UtilProofs SpecPath SpecTurn PoseAlg TurnProofs MotionProofs TurnBounds LegProofs TangentProofs PlanProofs.
Import ListNotations.
Open Scope R_scope.

Lemma conf_eq_refl a : conf_eq a a.
Proof. apply peq_refl. Qed.
Lemma Rltb_true a b : Rltb a b = true -> a < b.
Proof. unfold Rltb. destruct (Rlt_dec a b); [auto|discriminate]. Qed.
Lemma Rleb_true a b : Rleb a b = true -> a <= b.
Proof. unfold Rleb. destruct (Rle_dec a b); [auto|discriminate]. Qed.
Lemma Rltb_false a b : Rltb a b = false -> b <= a.
Proof. unfold Rltb. destruct (Rlt_dec a b); [discriminate|lra]. Qed.
Lemma Rleb_false a b : Rleb a b = false -> b < a.
Proof. unfold Rleb. destruct (Rle_dec a b); [discriminate|lra]. Qed.
Lemma fsqrt_some x y : fsqrt x = Some y -> 0 <= y /\ y ^ 2 = x.
Proof.
  unfold fsqrt. destruct (Rlt_dec x 0); [discriminate|]. intros H. injection H as <-. split; [apply sqrt_pos|apply pow2_sqrt; lra].
Qed.
Lemma fdiv_some x y z : fdiv x y = Some z -> y <> 0 /\ z = x / y.
Proof. unfold fdiv. destruct (Req_EM_T y 0); [discriminate|]. intros H. injection H as <-. auto. Qed.
Lemma fasin_some x y : fasin x = Some y -> sin y = x /\ 0 <= cos y.
Proof.
  unfold fasin. destruct (Rlt_dec x (-1)); [discriminate|]. destruct (Rlt_dec 1 x); [discriminate|]. intros H. injection H as <-.
  rewrite sin_asin by lra. split; [reflexivity|]. pose proof (asin_bound x). apply cos_ge_0; lra.
Qed.
Lemma sign_negb x : sign (negb x) = - sign x.
Proof. destruct x; unfold sign; cbn; lra. Qed.
Lemma sign_sq x : sign x * sign x = 1.
Proof. destruct x; unfold sign; lra. Qed.
Lemma abs_sign_mul l x : 0 <= x -> Rabs (sign l * x) = x.
Proof. intros H. destruct l; unfold sign; [rewrite Rmult_1_l, Rabs_pos_eq|rewrite Rabs_left1]; lra. Qed.

Lemma circle_at_fields x y l f reg p : let c := circle_at x y l f reg p in
  c_xc c = x /\ c_yc c = y /\ c_left c = l /\ c_forward c = f /\ c_regular c = reg /\ c_radius c = p_radius p /\ c_mu c = p_mu p /\
  c_sin_mu c = p_sin_mu p /\ c_cos_mu c = p_cos_mu p /\ c_kappa c = sign l * p_kappa p /\ c_kappa_inv c = sign l * p_kappa_inv p.
Proof. intros c. unfold c, circle_at. destruct l; cbn; repeat split; unfold sign; ring. Qed.
Lemma circle_all start l f reg p : let c := circle start l f reg p in
  c_start c = start /\ c_left c = l /\ c_forward c = f /\ c_regular c = reg /\ c_radius c = p_radius p /\ c_mu c = p_mu p /\
  c_sin_mu c = p_sin_mu p /\ c_cos_mu c = p_cos_mu p /\ c_kappa c = sign l * p_kappa p /\ c_kappa_inv c = sign l * p_kappa_inv p.
Proof.
  pose proof (circle_fields start l f reg p) as H. cbv zeta in *. tauto.
Qed.

(** Auxiliary circles around points of the line of centres. *)
Lemma tgt_dist c1 c2 D an tgt x y dx dy : D = center_distance c1 c2 -> an = atan2 (c_yc c2 - c_yc c1) (c_xc c2 - c_xc c1) ->
  c_xc tgt = x -> c_yc tgt = y -> global_frame_change (c_xc c1) (c_yc c1) an dx dy = (x, y) ->
  center_distance c1 tgt = hyp dx dy /\ center_distance tgt c2 = hyp (D - dx) dy.
Proof. intros -> -> X Y G. apply dist_frame. rewrite G, X, Y. reflexivity. Qed.
Lemma tgt_dist2 c1 c2 D an tgt x y dx dy : D = center_distance c1 c2 -> an = atan2 (c_yc c2 - c_yc c1) (c_xc c2 - c_xc c1) ->
  c_xc tgt = x -> c_yc tgt = y -> global_frame_change (c_xc c2) (c_yc c2) an (- dx) dy = (x, y) ->
  center_distance tgt c2 = hyp dx dy /\ center_distance c1 tgt = hyp (D - dx) dy.
Proof. intros -> -> X Y G. apply dist_frame2. rewrite G, X, Y. reflexivity. Qed.
(** Two auxiliary circles, one around each end. *)
Lemma tgt_dist12 c1 c2 D an t1 t2 x1 y1 x2 y2 dx dy dx' dy' : D = center_distance c1 c2 -> an = atan2 (c_yc c2 - c_yc c1) (c_xc c2 - c_xc c1) ->
  c_xc t1 = x1 -> c_yc t1 = y1 -> global_frame_change (c_xc c1) (c_yc c1) an dx dy = (x1, y1) ->
  c_xc t2 = x2 -> c_yc t2 = y2 -> global_frame_change (c_xc c2) (c_yc c2) an (- dx') dy' = (x2, y2) ->
  center_distance c1 t1 = hyp dx dy /\ center_distance t2 c2 = hyp dx' dy' /\ center_distance t1 t2 = hyp (D - dx - dx') (dy' - dy).
Proof.
  intros ED EA X1 Y1 G1 X2 Y2 G2. destruct (tgt_dist c1 c2 D an t1 x1 y1 dx dy ED EA X1 Y1 G1) as [A _].
  destruct (tgt_dist2 c1 c2 D an t2 x2 y2 dx' dy' ED EA X2 Y2 G2) as [B _]. split; [exact A|split; [exact B|]].
  destruct (centres c1 c2) as (_ & CX & CY). rewrite <- ED, <- EA in CX, CY. unfold global_frame_change in G1, G2. apply pair_equal_spec in G1, G2. destruct G1 as [U1 V1], G2 as [U2 V2].
  unfold center_distance. rewrite X1, Y1, X2, Y2, <- U1, <- V1, <- U2, <- V2, CX, CY.
  rewrite <- (hyp_rot (D - dx - dx') (dy' - dy) an). unfold hyp. f_equal. ring.
Qed.

Lemma hyp_opp2 u v : hyp u (- v) = hyp u v.
Proof. unfold hyp. f_equal. ring. Qed.
Lemma hyp_of u v e : 0 <= e -> v ^ 2 = e ^ 2 - u ^ 2 -> hyp u v = e.
Proof. intros E H. apply hyp_eq; [exact E|lra]. Qed.
(** Intersection of two circles. *)
Lemma intersection r1 r2 D dx dy : D <> 0 -> 0 <= r1 -> 0 <= r2 -> dx = (r1 ^ 2 + D ^ 2 - r2 ^ 2) / (2 * D) -> dy ^ 2 = r1 ^ 2 - dx ^ 2 ->
  hyp dx dy = r1 /\ hyp (D - dx) dy = r2.
Proof.
  intros N P1 P2 X Y. split; [apply hyp_of; assumption|]. apply hyp_of; [assumption|]. rewrite Y.
  assert (2 * D * dx = r1 ^ 2 + D ^ 2 - r2 ^ 2) by (rewrite X; field; exact N). lra.
Qed.

Section Joints.
  Variables (k s : R).
  Hypothesis Hk : 0 < k.
  Hypothesis Hs : 0 < s.
  Local Notation p := (hc_cc_param k s).
  Local Notation X := (p_radius p * p_sin_mu p).
  Local Notation Y := (p_radius p * p_cos_mu p).

  Lemma mu_sin : p_sin_mu p = sin (p_mu p) /\ p_cos_mu p = cos (p_mu p).
  Proof. destruct (param_nom k s Hk Hs) as (_ & _ & _ & _ & _ & _ & _ & _ & A & B). auto. Qed.

  Lemma joint_TT mu ca cb la fa q : q = gTT mu ca cb -> mu = p_mu p -> c_left ca = la -> c_forward ca = fa -> center_distance ca cb = 2 * p_radius p ->
    off ca q (- sign fa * X) (sign la * Y) /\ off cb q (sign fa * X) (- sign la * Y).
  Proof.
    intros -> -> EL EF ED. destruct (TT_off (p_mu p) ca cb) as [A B]. rewrite ED, EL, EF in A, B. destruct mu_sin as [SM CM]. rewrite <- SM, <- CM in A, B.
    replace (2 * p_radius p / 2) with (p_radius p) in A, B by field. auto.
  Qed.
  (** A joint that is only approximately tangent. *)
  Lemma joint_TT_gap mu ca cb la fa q : q = gTT mu ca cb -> mu = p_mu p -> c_left ca = la -> c_forward ca = fa -> Rabs (center_distance ca cb - 2 * p_radius p) < epsilon ->
    exists h, off ca q (- sign fa * (h * p_sin_mu p)) (sign la * (h * p_cos_mu p)) /\ off cb q (sign fa * (h * p_sin_mu p)) (- sign la * (h * p_cos_mu p)) /\
      forall x y, pm1 x -> pm1 y -> hyp (x * X - x * (h * p_sin_mu p)) (y * Y - y * (h * p_cos_mu p)) <= epsilon / 2.
  Proof.
    intros -> -> EL EF ED. destruct (TT_off (p_mu p) ca cb) as [A B]. rewrite EL, EF in A, B. destruct mu_sin as [SM CM]. rewrite <- SM, <- CM in A, B.
    exists (center_distance ca cb / 2). split; [exact A|split; [exact B|]]. set (h := center_distance ca cb / 2). set (r := p_radius p) in *.
    assert (G : Rabs (h - r) <= epsilon / 2).
    { replace (h - r) with ((center_distance ca cb - 2 * r) * (1 / 2)) by (unfold h; field). rewrite Rabs_mult, (Rabs_pos_eq (1 / 2)) by lra. lra. }
    intros x y PX PY. replace (x * (r * p_sin_mu p) - x * (h * p_sin_mu p)) with (x * ((r - h) * p_sin_mu p)) by ring.
    replace (y * (r * p_cos_mu p) - y * (h * p_cos_mu p)) with (y * ((r - h) * p_cos_mu p)) by ring. rewrite hyp_pm by assumption.
    rewrite SM, CM. replace (hyp ((r - h) * sin (p_mu p)) ((r - h) * cos (p_mu p))) with (hyp ((r - h) * cos (p_mu p)) ((r - h) * sin (p_mu p))) by (unfold hyp; f_equal; ring).
    rewrite hyp_polar, Rabs_minus_sym. exact G.
  Qed.
  Lemma joint_TcT kap ca cb la fa q : q = gTcT kap 0 ca cb -> c_left ca = la -> c_forward ca = fa -> center_distance ca cb = 2 * (1 / k) ->
    off ca q 0 (sign la * (1 / k)) /\ off cb q 0 (- sign la * (1 / k)).
  Proof.
    intros -> EL EF ED. destruct (TcT_off kap 0 ca cb) as [A B]. rewrite ED, EL, EF in A, B.
    replace (2 * (1 / k) / 2) with (1 / k) in A, B by (field; lra). rewrite Rmult_0_r in A, B. auto.
  Qed.
  Lemma joint_TiST R0 sm cm ca cb la fa q1 q2 : gTiST R0 sm cm ca cb = Some (q1, q2) -> R0 = p_radius p -> sm = p_sin_mu p -> cm = p_cos_mu p ->
    c_left ca = la -> c_forward ca = fa ->
    off ca q1 (- sign fa * X) (sign la * Y) /\ off cb q2 (sign fa * X) (- sign la * Y) /\ straight_on q1 q2.
  Proof.
    intros E -> -> -> EL EF. destruct (TiST_off _ _ _ _ _ _ _ E) as (A & B & w & _ & _ & S). rewrite EL, EF in *. split; [exact A|split; [exact B|]].
    eexists; exact S.
  Qed.
  Lemma joint_TeST R0 sm cm ca cb la fa q1 q2 : gTeST R0 sm cm ca cb = (q1, q2) -> R0 = p_radius p -> sm = p_sin_mu p -> cm = p_cos_mu p ->
    c_left ca = la -> c_forward ca = fa ->
    off ca q1 (- sign fa * X) (sign la * Y) /\ off cb q2 (sign fa * X) (sign la * Y) /\ straight_on q1 q2.
  Proof.
    intros E -> -> -> EL EF. destruct (TeST_off _ _ _ _ _ _ _ E) as (A & B & S). rewrite EL, EF in *. split; [exact A|split; [exact B|]].
    eexists; exact S.
  Qed.

  Lemma by_chain g ls a b ks k0 k1 n cs L : 0 <= g -> ls <> [] -> chain k s g ls a b ks -> joints k0 ks k1 -> cs = legs_controls ls -> L = legs_length ls -> n = INR (length ls) ->
    good k s g n a b k0 k1 cs L.
  Proof. intros G NE C J -> -> ->. exact (chain_good k s Hk Hs g ls a b ks k0 k1 G NE C J). Qed.
End Joints.

(** One step through the let-bindings of a hypothesis [E : body = Some result]. *)
Ltac fields_of H c :=
  let F := fresh "F" in
  pose proof H as F; cbv zeta in F; rewrite <- ?c in F;
  destruct F as (? & ? & ? & ? & ? & ? & ? & ? & ? & ? & ?).
Ltac step_let E :=
  lazymatch type of E with
  | (let x := ?v in @?f x) = ?rhs =>
      lazymatch v with
      | circle_at ?x ?y ?l ?fo ?re ?p =>
          let c := fresh "tgt" in let H := fresh "F" in
          pose proof (circle_at_fields x y l fo re p) as H; cbv zeta in H;
          pose (c := v); change (f c = rhs) in E; cbv beta in E; change (circle_at x y l fo re p) with c in H;
          clearbody c; destruct H as (? & ? & ? & ? & ? & ? & ? & ? & ? & ? & ?)
      | _ =>
          let t := type of v in
          lazymatch t with
          | Configuration =>
              first [is_var v; change (f v = rhs) in E; cbv beta in E
                    | let c := fresh "q" in let H := fresh "Q" in remember v as c eqn:H in E; change (f c = rhs) in E; cbv beta in E]
          | _ => change (f v = rhs) in E; cbv beta in E
          end
      end
  end.
Lemma fbind_some {A B} (e : option A) (f : A -> option B) v : fbind e f = Some v -> exists x, e = Some x /\ f x = Some v.
Proof. destruct e as [x|]; cbn; [|discriminate]. intros H. exists x. auto. Qed.
Ltac explode x :=
  let t := type of x in
  lazymatch eval hnf in t with
  | (_ * _)%type => let a := fresh "v" in let b := fresh "v" in destruct x as [a b]; explode a
  | _ => idtac
  end.
Ltac step E :=
  lazymatch type of E with
  | (let x := _ in _) = _ => step_let E
  | (match global_frame_change ?a ?b ?c ?d ?e with _ => _ end) = _ =>
      let x := fresh "x" in let y := fresh "y" in let H := fresh "G" in destruct (global_frame_change a b c d e) as [x y] eqn:H
  | fbind _ _ = Some _ =>
      let x := fresh "v" in let H := fresh "O" in apply fbind_some in E; destruct E as (x & H & E); explode x; cbv beta iota in E; try steps H
  | fsqrt _ = Some _ => apply fsqrt_some in E; destruct E
  | fasin _ = Some _ => apply fasin_some in E; destruct E
  | fdiv _ _ = Some _ => apply fdiv_some in E; destruct E
  | (match ?e with (_, _) => _ end) = _ =>
      let x := fresh "v" in let y := fresh "v" in let H := fresh "T" in destruct e as [x y] eqn:H; try steps H
  | (if ?u then _ else _) = _ => let H := fresh "B" in destruct u eqn:H
  | None = Some _ => discriminate E
  | Some ?u = Some ?v => apply (f_equal (fun o => match o with Some x => x | None => u end)) in E; cbv beta iota in E
  | (_, _) = (_, _) => let E2 := fresh "E" in apply pair_equal_spec in E; destruct E as [E E2]; try steps E2
  | _ = ?v => is_var v; subst v
  end
with steps E := repeat step E.
(** Unfolding that keeps the let-bindings. *)
Tactic Notation "open" constr(f) "in" hyp(E) := cbv beta delta [f] in E.

(** ** Assembling the legs *)
Ltac leg_of cs :=
  lazymatch cs with
  | cc_turn_controls ?c ?q ?o => constr:(LC c q o)
  | hc_turn_controls ?c ?q ?o => constr:(LH c q o)
  | rs_turn_controls ?c ?q ?o => constr:(LR c q o)
  | straight_controls ?q1 ?q2 => constr:(LS q1 q2)
  end.
Ltac legs_of cs :=
  lazymatch cs with
  | ?x ++ ?y => let l := leg_of x in let ls := legs_of y in constr:(l :: ls)
  | ?x => let l := leg_of x in constr:([l])
  end.
Ltac sring := rewrite ?sign_negb; ring.
Ltac tan_tac :=
  match goal with
  | H1 : off ?t ?st _ _ |- cc_tangent _ (circle ?st _ _ _ (hc_cc_param ?k ?s)) ?q =>
      match goal with
      | H2 : off t q _ _ |- _ => solve [apply (mk_cc k s st _ _ _ q t); [eapply off_conv; [exact H1|sring|sring]|eapply off_conv; [exact H2|sring|sring]]]
      end
  | H1 : off ?t ?st _ _ |- hc_tangent _ (circle ?st _ _ _ (hc_cc_param ?k ?s)) ?q =>
      match goal with
      | H2 : off t q _ _ |- _ => solve [apply (mk_hc k s ltac:(assumption) st _ _ _ q t); [eapply off_conv; [exact H1|sring|sring]|eapply off_conv; [exact H2|sring|sring]]]
      end
  | H1 : off ?t ?st _ _ |- hc_tangent _ (circle ?st _ _ _ (rs_param ?k)) ?q =>
      match goal with
      | H2 : off t q _ _ |- _ => solve [apply (mk_rs k ltac:(assumption) st _ _ _ q t); [eapply off_conv; [exact H1|sring|sring]|eapply off_conv; [exact H2|sring|sring]]]
      end
  end.
Ltac leg_tac :=
  lazymatch goal with
  | |- leg_ok _ _ _ (LC _ _ true) _ _ _ _ => eapply ok_cc; tan_tac
  | |- leg_ok _ _ _ (LC _ _ false) _ _ _ _ => eapply ok_cc'; tan_tac
  | |- leg_ok _ _ _ (LH _ _ true) _ _ _ _ => eapply ok_hc; tan_tac
  | |- leg_ok _ _ _ (LH _ _ false) _ _ _ _ => eapply ok_hc'; tan_tac
  | |- leg_ok _ _ _ (LR _ _ true) _ _ _ _ => eapply ok_rs; tan_tac
  | |- leg_ok _ _ _ (LR _ _ false) _ _ _ _ => eapply ok_rs'; tan_tac
  | |- leg_ok _ _ _ (LS _ _) _ _ _ _ => eapply ok_s; assumption
  end.
Ltac conf_tac := first [apply conf_eq_refl | assumption].
Ltac chain_tac :=
  lazymatch goal with
  | |- chain _ _ _ [] _ _ _ => eapply ch_nil; conf_tac
  | |- chain _ _ _ (_ :: _) _ _ _ => eapply ch_cons; [|leg_tac|chain_tac]; [conf_tac]
  end.
Ltac joints_tac := cbn [joints]; repeat split; try reflexivity; sring.
Ltac assemble :=
  lazymatch goal with
  | |- good ?k ?s ?g ?n ?a ?b ?k0 ?k1 ?cs ?L =>
      let ls := legs_of cs in
      eapply (by_chain k s ltac:(assumption) ltac:(assumption) g ls); [try lra|discriminate|chain_tac|joints_tac|
        unfold legs_controls; cbn [flat_map leg_controls]; rewrite ?app_nil_r; reflexivity|
        unfold legs_length; cbn [fold_right leg_length]; ring|cbn [length INR]; ring]
  end.

(** The fields of the two circles of a candidate. *)
Lemma circle_set k s c start l f reg : c = circle start l f reg (hc_cc_param k s) ->
  c_left c = l /\ c_forward c = f /\ c_regular c = reg /\ c_radius c = p_radius (hc_cc_param k s) /\ c_mu c = p_mu (hc_cc_param k s) /\
  c_sin_mu c = p_sin_mu (hc_cc_param k s) /\ c_cos_mu c = p_cos_mu (hc_cc_param k s) /\ c_kappa c = sign l * p_kappa (hc_cc_param k s) /\
  c_kappa_inv c = sign l * p_kappa_inv (hc_cc_param k s) /\
  off c start (sign f * (p_radius (hc_cc_param k s) * p_sin_mu (hc_cc_param k s))) (sign l * (p_radius (hc_cc_param k s) * p_cos_mu (hc_cc_param k s))).
Proof.
  intros ->. destruct (circle_all start l f reg (hc_cc_param k s)) as (_ & A & B & C & E & F & G & H & I & J).
  repeat (split; [assumption|]). apply circle_off.
Qed.
Ltac setup :=
  match goal with
  | H1 : ?c1 = circle _ _ _ _ (hc_cc_param ?k ?s), H2 : ?c2 = circle _ _ _ _ (hc_cc_param ?k ?s) |- _ =>
      lazymatch c1 with c2 => fail | _ => idtac end;
      destruct (circle_set _ _ _ _ _ _ _ H1) as (EL1 & F1 & G1 & R1 & M1 & SM1 & CM1 & K1 & KI1 & O1);
      destruct (circle_set _ _ _ _ _ _ _ H2) as (EL2 & F2 & G2 & R2 & M2 & SM2 & CM2 & K2 & KI2 & O2);
      pose proof eps_pos as EP; pose proof (radius_nonneg k s ltac:(assumption) ltac:(assumption)) as RP
  end.
Lemma eqb_negb_r x : eqb x (negb x) = false.
Proof. destruct x; reflexivity. Qed.
Lemma eqb_false_negb x y : eqb x y = false -> y = negb x.
Proof. destruct x, y; try discriminate; reflexivity. Qed.
(** Case distinctions on the sides and directions of the two circles. *)
Ltac flags E :=
  repeat match type of E with
  | context [eqb ?x (negb ?x)] => rewrite (eqb_negb_r x) in E
  | context [eqb ?x ?x] => rewrite (eqb_reflx x) in E
  | context [if negb true then _ else _] => cbn [negb] in E
  | context [if negb false then _ else _] => cbn [negb] in E
  | context [if true then _ else _] => cbv iota in E
  | context [if false then _ else _] => cbv iota in E
  | context [eqb ?x ?y] => let H := fresh "W" in destruct (eqb x y) eqn:H; [apply eqb_prop in H|apply eqb_false_negb in H]; subst y
  end;
  repeat rewrite ?andb_true_r, ?andb_false_r, ?orb_false_r, ?orb_true_r, ?orb_false_l, ?andb_true_l in E; cbn [andb orb negb] in E; try discriminate E.
(** Conjunctions of comparisons. *)
Ltac bounds E :=
  repeat match type of E with
  | andb _ _ = true => let H := fresh "V" in apply andb_prop in E; destruct E as [E H]; bounds H
  | Rltb _ _ = true => apply Rltb_true in E
  | Rleb _ _ = true => apply Rleb_true in E
  | Rltb _ _ = false => apply Rltb_false in E
  | Rleb _ _ = false => apply Rleb_false in E
  end.
(** Auxiliary circles and joints. *)
Ltac nz_tac :=
  first [assumption | lra | match goal with H : ?x <> 0 |- ?y <> 0 => intros ?; apply H; nra end | match goal with |- _ /\ _ => split; nz_tac end].
Ltac hyp_tac :=
  rewrite ?hyp_opp2; apply hyp_of;
  [first [assumption | lra | nra]|
   repeat match goal with
   | H : ?v ^ 2 = _ |- context [?v ^ 2] => rewrite H
   end;
   repeat match goal with
   | H : ?v = _ / _ |- context [?v] => is_var v; rewrite H
   end; first [field; nz_tac | field]].
Ltac tgts :=
  repeat match goal with
  | HD : ?D = center_distance ?c1 ?c2, HA : ?an = atan2 (c_yc ?c2 - c_yc ?c1) (c_xc ?c2 - c_xc ?c1),
    HX1 : c_xc ?t1 = ?x1, HY1 : c_yc ?t1 = ?y1, G1 : global_frame_change (c_xc ?c1) (c_yc ?c1) ?an ?dx ?dy = (?x1, ?y1),
    HX2 : c_xc ?t2 = ?x2, HY2 : c_yc ?t2 = ?y2, G2 : global_frame_change (c_xc ?c2) (c_yc ?c2) ?an (- ?dx') ?dy' = (?x2, ?y2) |- _ =>
      lazymatch goal with
      | _ : center_distance t1 t2 = _ |- _ => fail
      | _ => let A := fresh "D" in let B := fresh "D" in let C := fresh "D" in
             destruct (tgt_dist12 c1 c2 D an t1 t2 x1 y1 x2 y2 dx dy dx' dy' HD HA HX1 HY1 G1 HX2 HY2 G2) as (A & B & C)
      end
  end;
  repeat match goal with
  | HD : ?D = center_distance ?c1 ?c2, HA : ?an = atan2 (c_yc ?c2 - c_yc ?c1) (c_xc ?c2 - c_xc ?c1),
    HX1 : c_xc ?t1 = ?x1, HY1 : c_yc ?t1 = ?y1, G1 : global_frame_change (c_xc ?c1) (c_yc ?c1) ?an ?dx ?dy = (?x1, ?y1) |- _ =>
      lazymatch goal with
      | _ : center_distance t1 c2 = _ |- _ => fail
      | _ => let A := fresh "D" in let B := fresh "D" in
             destruct (tgt_dist c1 c2 D an t1 x1 y1 dx dy HD HA HX1 HY1 G1) as (A & B)
      end
  | HD : ?D = center_distance ?c1 ?c2, HA : ?an = atan2 (c_yc ?c2 - c_yc ?c1) (c_xc ?c2 - c_xc ?c1),
    HX1 : c_xc ?t1 = ?x1, HY1 : c_yc ?t1 = ?y1, G1 : global_frame_change (c_xc ?c2) (c_yc ?c2) ?an (- ?dx) ?dy = (?x1, ?y1) |- _ =>
      lazymatch goal with
      | _ : center_distance c1 t1 = _ |- _ => fail
      | _ => let A := fresh "D" in let B := fresh "D" in
             destruct (tgt_dist2 c1 c2 D an t1 x1 y1 dx dy HD HA HX1 HY1 G1) as (A & B)
      end
  end.
Ltac dist_as e := repeat match goal with H : center_distance ?u ?v = hyp ?dx ?dy |- _ => replace (hyp dx dy) with e in H by (symmetry; hyp_tac) end.
Ltac joint k s :=
  match goal with
  | Q : ?q = _ ?ca ?cb |- _ =>
      match type of q with Configuration => idtac end; match type of ca with Circle => idtac end; match type of cb with Circle => idtac end;
      let A := fresh "OA" in let B := fresh "OB" in
      first [destruct (joint_TT k s ltac:(assumption) ltac:(assumption) _ ca cb _ _ q Q ltac:(eassumption) ltac:(eassumption) ltac:(eassumption) ltac:(eassumption)) as [A B]
            |destruct (joint_TcT k ltac:(assumption) _ ca cb _ _ q Q ltac:(eassumption) ltac:(eassumption) ltac:(eassumption)) as [A B]];
      clear Q
  | Q : _ ?ca ?cb = Some (?q1, ?q2) |- _ =>
      match type of q1 with Configuration => idtac end; match type of ca with Circle => idtac end; match type of cb with Circle => idtac end;
      let A := fresh "OA" in let B := fresh "OB" in let S := fresh "ST" in
      destruct (joint_TiST k s _ _ _ ca cb _ _ q1 q2 Q ltac:(eassumption) ltac:(eassumption) ltac:(eassumption) ltac:(eassumption) ltac:(eassumption)) as (A & B & S);
      clear Q
  | Q : _ ?ca ?cb = (?q1, ?q2) |- _ =>
      match type of q1 with Configuration => idtac end; match type of ca with Circle => idtac end; match type of cb with Circle => idtac end;
      let A := fresh "OA" in let B := fresh "OB" in let S := fresh "ST" in
      destruct (joint_TeST k s _ _ _ ca cb _ _ q1 q2 Q ltac:(eassumption) ltac:(eassumption) ltac:(eassumption) ltac:(eassumption) ltac:(eassumption)) as (A & B & S);
      clear Q
  end.
Ltac joint_all := match goal with |- good ?k ?s _ _ _ _ _ _ _ _ => repeat joint k s end.
Ltac close :=
  match goal with
  | H1 : ?c1 = circle _ _ _ _ _, H2 : ?c2 = circle _ _ _ _ _ |- _ => subst c1 c2; assemble
  end.

(** * Derivatives of the end pose and the motion Jacobians *)
From Coq Require Import Reals ZArith List Bool Lra Lia Psatz.
From Coquelicot Require Import Coquelicot.
From Verif Require Import Base ModelUtil ModelFresnel ModelIntegrate ModelEKF Num SpecPath SpecFresnel SpecCloth FresPoly FresAcc FresProofs FresFinal
  UtilProofs IntegrateProofs ClothProofs.
Open Scope R_scope.

Lemma add_sub (a b : R) : a + b - a = b.
Proof. ring. Qed.
Ltac rq := match goal with |- ?a = ?b => change (@eq R a b) end; ring.

(** ** Differentiation under the integral *)
Lemma param_cos (a b : R -> R) (d p h : R) : (forall u, continuous a u) -> (forall u, continuous b u) ->
  is_derive (fun p => RInt (fun u => d * cos (a u + b u * p)) 0 h) p (RInt (fun u => - d * b u * sin (a u + b u * p)) 0 h).
Proof.
  intros Ka Kb.
  assert (DD : forall u p, is_derive (fun p => d * cos (a u + b u * p)) p (- d * b u * sin (a u + b u * p))).
  { intros u q. auto_derive; [exact I|]. ring. }
  assert (KK : forall q u, continuous (fun u => a u + b u * q) u).
  { intros q u. apply (continuous_plus (V := R_NormedModule) a (fun u => b u * q)); [apply Ka|].
    apply (continuous_mult (K := R_AbsRing) b (fun _ => q)); [apply Kb|apply continuous_const]. }
  evar_last.
  - apply (is_derive_RInt_param (fun p u => d * cos (a u + b u * p)) 0 h p).
    + apply filter_forall. intros q u _. eexists. apply DD.
    + intros t _. apply continuity_2d_pt_ext with (f := fun q v => - d * b v * sin (a v + b v * q)).
      { intros q v. symmetry. apply is_derive_unique. apply DD. }
      assert (Cb : continuity_2d_pt (fun _ v => b v) p t).
      { apply (continuity_1d_2d_pt_comp b (fun _ v => v)); [|apply continuity_2d_pt_id2]. apply continuity_pt_filterlim. apply Kb. }
      assert (Ca : continuity_2d_pt (fun _ v => a v) p t).
      { apply (continuity_1d_2d_pt_comp a (fun _ v => v)); [|apply continuity_2d_pt_id2]. apply continuity_pt_filterlim. apply Ka. }
      apply continuity_2d_pt_mult; [apply continuity_2d_pt_mult; [apply continuity_2d_pt_const|exact Cb]|].
      apply (continuity_1d_2d_pt_comp sin (fun q v => a v + b v * q)); [apply continuity_sin|].
      apply continuity_2d_pt_plus; [exact Ca|]. apply continuity_2d_pt_mult; [exact Cb|apply continuity_2d_pt_id1].
    + apply filter_forall. intros q. apply (ex_RInt_continuous (fun t => d * cos (a t + b t * q))). intros u _.
      apply (continuous_mult (K := R_AbsRing) (fun _ => d) (fun u => cos (a u + b u * q))); [apply continuous_const|].
      apply (continuous_comp (fun u => a u + b u * q) cos); [apply KK|]. apply continuity_pt_filterlim. apply continuity_cos.
  - apply RInt_ext. intros u _. apply is_derive_unique. apply DD.
Qed.

Lemma cos_shift a b : cos (a - PI / 2 + b) = sin (a + b).
Proof. replace (a - PI / 2 + b) with (a + b - PI / 2) by ring. rewrite cos_minus, cos_PI2, sin_PI2. ring. Qed.
Lemma sin_shift a b : sin (a - PI / 2 + b) = - cos (a + b).
Proof. replace (a - PI / 2 + b) with (a + b - PI / 2) by ring. rewrite sin_minus, cos_PI2, sin_PI2. ring. Qed.
Lemma opp_opp_mul a b c : - a * b * - c = a * b * c.
Proof. ring. Qed.
Lemma param_sin (a b : R -> R) (d p h : R) : (forall u, continuous a u) -> (forall u, continuous b u) ->
  is_derive (fun p => RInt (fun u => d * sin (a u + b u * p)) 0 h) p (RInt (fun u => d * b u * cos (a u + b u * p)) 0 h).
Proof.
  intros Ka Kb.
  eapply is_derive_ext; [|evar_last; [apply (param_cos (fun u => a u - PI / 2) b d p h); [|exact Kb]|]].
  - intros q. apply RInt_ext. intros u _. cbv beta. rewrite cos_shift. reflexivity.
  - intros u. apply (continuous_minus (V := R_NormedModule) a (fun _ => PI / 2)); [apply Ka|apply continuous_const].
  - apply RInt_ext. intros u _. cbv beta. rewrite sin_shift. apply opp_opp_mul.
Qed.

Lemma int_opp (f g : R -> R) h : (forall u, continuous f u) -> (forall u, g u = - f u) -> RInt g 0 h = - RInt f 0 h.
Proof.
  intros K E.
  assert (A : is_RInt f 0 h (RInt f 0 h)).
  { apply (RInt_correct f 0 h). apply (ex_RInt_continuous f). intros u _. apply K. }
  apply (is_RInt_opp f 0 h) in A. apply is_RInt_unique. eapply is_RInt_ext; [|exact A].
  intros u _. symmetry. apply E.
Qed.
Lemma cont_poly a b c u : continuous (fun u => a + b * u + c * u ^ 2) u.
Proof. apply (ex_derive_continuous (fun u => a + b * u + c * u ^ 2) u). auto_derive. exact I. Qed.

Section gen.
  Variables (x y th k sg d h : R).
  Hypothesis D1 : d * d = 1.

  Lemma dx_theta : is_derive (fun t => true_x x t k sg d h) th (- (true_y y th k sg d h - y)).
  Proof.
    unfold true_x, true_y.
    evar_last; [apply @is_derive_plus; [apply @is_derive_const|]|].
    - eapply is_derive_ext; [|apply (param_cos (fun u => 0 + d * k * u + d * sg / 2 * u ^ 2) (fun _ => 1) d th h)].
      + intros t. apply RInt_ext. intros u _. unfold heading. f_equal. f_equal. field.
      + intros u. apply cont_poly.
      + intros u. apply continuous_const.
    - rewrite plus_zero_l.
      transitivity (- RInt (fun u => d * sin (heading th k sg d u)) 0 h); [|ring].
      apply int_opp; [apply cont_sin_heading|]. intros u. unfold heading.
      replace (th + d * (k * u + sg * u ^ 2 / 2)) with (0 + d * k * u + d * sg / 2 * (u ^ 2) + 1 * th) by field. ring.
  Qed.
  Lemma dy_theta : is_derive (fun t => true_y y t k sg d h) th (true_x x th k sg d h - x).
  Proof.
    unfold true_x, true_y.
    evar_last; [apply @is_derive_plus; [apply @is_derive_const|]|].
    - eapply is_derive_ext; [|apply (param_sin (fun u => 0 + d * k * u + d * sg / 2 * u ^ 2) (fun _ => 1) d th h)].
      + intros t. apply RInt_ext. intros u _. unfold heading. f_equal. f_equal. field.
      + intros u. apply cont_poly.
      + intros u. apply continuous_const.
    - rewrite (RInt_ext (fun u => d * 1 * cos (0 + d * k * u + d * sg / 2 * u ^ 2 + 1 * th)) (fun u => d * cos (heading th k sg d u))).
      2:{ intros u _. unfold heading.
          replace (th + d * (k * u + sg * u ^ 2 / 2)) with (0 + d * k * u + d * sg / 2 * u ^ 2 + 1 * th) by field. rq. }
      rewrite plus_zero_l. symmetry. apply add_sub.
  Qed.

  Lemma dx_kappa : is_derive (fun q => true_x x th q sg d h) k (RInt (fun u => - u * sin (heading th k sg d u)) 0 h).
  Proof.
    unfold true_x.
    evar_last; [apply @is_derive_plus; [apply @is_derive_const|]|].
    - eapply is_derive_ext; [|apply (param_cos (fun u => th + 0 * u + d * sg / 2 * u ^ 2) (fun u => 0 + d * u + 0 * u ^ 2) d k h)].
      + intros t. apply RInt_ext. intros u _. unfold heading. f_equal. f_equal. field.
      + intros u. apply cont_poly.
      + intros u. apply cont_poly.
    - rewrite plus_zero_l. apply RInt_ext. intros u _. unfold heading.
      replace (th + d * (k * u + sg * u ^ 2 / 2)) with (th + 0 * u + d * sg / 2 * (u ^ 2) + (0 + d * u + 0 * (u ^ 2)) * k) by field.
      replace (- d * (0 + d * u + 0 * (u ^ 2))) with (- (d * d) * u) by ring. rewrite D1. rq.
  Qed.
  Lemma dy_kappa : is_derive (fun q => true_y y th q sg d h) k (RInt (fun u => u * cos (heading th k sg d u)) 0 h).
  Proof.
    unfold true_y.
    evar_last; [apply @is_derive_plus; [apply @is_derive_const|]|].
    - eapply is_derive_ext; [|apply (param_sin (fun u => th + 0 * u + d * sg / 2 * u ^ 2) (fun u => 0 + d * u + 0 * u ^ 2) d k h)].
      + intros t. apply RInt_ext. intros u _. unfold heading. f_equal. f_equal. field.
      + intros u. apply cont_poly.
      + intros u. apply cont_poly.
    - rewrite plus_zero_l. apply RInt_ext. intros u _. unfold heading.
      replace (th + d * (k * u + sg * u ^ 2 / 2)) with (th + 0 * u + d * sg / 2 * (u ^ 2) + (0 + d * u + 0 * (u ^ 2)) * k) by field.
      replace (d * (0 + d * u + 0 * (u ^ 2))) with ((d * d) * u) by ring. rewrite D1. rq.
  Qed.

  Lemma dx_len : is_derive (fun l => true_x x th k sg d l) h (d * cos (heading th k sg d h)).
  Proof.
    unfold true_x. evar_last; [apply @is_derive_plus; [apply @is_derive_const|]|].
    - apply (is_derive_RInt (fun u => d * cos (heading th k sg d u)) (fun l => RInt (fun u => d * cos (heading th k sg d u)) 0 l) 0).
      + apply filter_forall. intros t. apply (RInt_correct (fun u => d * cos (heading th k sg d u)) 0 t).
        apply (ex_RInt_continuous (fun u => d * cos (heading th k sg d u))). intros u _. apply cont_cos_heading.
      + apply cont_cos_heading.
    - apply plus_zero_l.
  Qed.
  Lemma dy_len : is_derive (fun l => true_y y th k sg d l) h (d * sin (heading th k sg d h)).
  Proof.
    unfold true_y. evar_last; [apply @is_derive_plus; [apply @is_derive_const|]|].
    - apply (is_derive_RInt (fun u => d * sin (heading th k sg d u)) (fun l => RInt (fun u => d * sin (heading th k sg d u)) 0 l) 0).
      + apply filter_forall. intros t. apply (RInt_correct (fun u => d * sin (heading th k sg d u)) 0 t).
        apply (ex_RInt_continuous (fun u => d * sin (heading th k sg d u))). intros u _. apply cont_sin_heading.
      + apply cont_sin_heading.
    - apply plus_zero_l.
  Qed.
End gen.

Lemma near_exact f p v D e : is_derive f p D -> v = D -> 0 <= e -> near_derive f p v e.
Proof. intros H -> E. exists D. split; [exact H|]. rewrite Rminus_diag_eq, Rabs_R0 by reflexivity. exact E. Qed.

(** ** The derivative with respect to the curvature, clothoid *)
Definition ex_k (fS fC : R -> R) (th k sg d h : R) : R :=
  SQRT_PI * (1 / sqrt (Rabs sg)) * k *
  (sgn sg * sin (w1 th k sg d) * (fC (w2 k sg h) - fC (w3 k sg)) + d * cos (w1 th k sg d) * (fS (w2 k sg h) - fS (w3 k sg))) / Rabs sg
  + d * (cos (heading th k sg d h) - cos th) / sg.
Definition ey_k (fS fC : R -> R) (th k sg d h : R) : R :=
  SQRT_PI * (1 / sqrt (Rabs sg)) * k *
  (- sgn sg * cos (w1 th k sg d) * (fC (w2 k sg h) - fC (w3 k sg)) + d * sin (w1 th k sg d) * (fS (w2 k sg h) - fS (w3 k sg))) / Rabs sg
  + d * (sin (heading th k sg d h) - sin th) / sg.

Lemma d_heading th k sg d h : is_derive (fun h => heading th k sg d h) h (d * (k + sg * h)).
Proof. unfold heading. auto_derive; [exact I|]. field. Qed.
Lemma d_cos_heading th k sg d h : is_derive (fun h => cos (heading th k sg d h)) h (d * (k + sg * h) * - sin (heading th k sg d h)).
Proof. apply (is_derive_comp cos (fun h => heading th k sg d h)); [apply is_derive_cos'|apply d_heading]. Qed.
Lemma d_sin_heading th k sg d h : is_derive (fun h => sin (heading th k sg d h)) h (d * (k + sg * h) * cos (heading th k sg d h)).
Proof. apply (is_derive_comp sin (fun h => heading th k sg d h)); [apply is_derive_sin'|apply d_heading]. Qed.

Lemma lin_comb3 (f g e : R -> R) (h df dg de c k a b c1 c2 c3 m s d : R) : is_derive f h df -> is_derive g h dg -> is_derive e h de ->
  is_derive (fun h => c * k * (a * (f h - c1) + b * (g h - c2)) / m + d * (e h - c3) / s) h (c * k * (a * df + b * dg) / m + d * de / s).
Proof.
  intros F G E. auto_derive; [repeat split; eexists; eassumption|].
  replace (Derive (fun x : R => f x) h) with df by (symmetry; apply is_derive_unique; exact F).
  replace (Derive (fun x : R => g x) h) with dg by (symmetry; apply is_derive_unique; exact G).
  replace (Derive (fun x : R => e x) h) with de by (symmetry; apply is_derive_unique; exact E). unfold Rdiv. ring.
Qed.

Section kap.
  Variables (sg d : R).
  Hypothesis SG : sg <> 0.
  Hypothesis D1 : d * d = 1.

  Lemma ex_k_int th k h : RInt (fun u => - u * sin (heading th k sg d u)) 0 h = ex_k FresnelS FresnelC th k sg d h.
  Proof.
    apply (int_of_primitive (fun h => ex_k FresnelS FresnelC th k sg d h)).
    - intros u. destruct (root_facts sg SG) as (r & q & R0 & Q0 & Er & Eq & Ea & Ep). unfold ex_k.
      evar_last; [apply (lin_comb3 (fun h => FresnelC (w2 k sg h)) (fun h => FresnelS (w2 k sg h)) (fun h => cos (heading th k sg d h)));
        [apply d_FC_h; assumption|apply d_FS_h; assumption|apply d_cos_heading]|].
      pose proof (sgn_abs sg) as A. rewrite Ea in A. pose proof (sgn_sq sg) as G.
      assert (P := sin_phase d D1 (w1 th k sg d) (sgn sg) (xx (w2 k sg u)) (sgn_sq sg)). rewrite (phase sg d SG) in P.
      rewrite P. unfold SQRT_PI. rewrite Er, Eq, Ea. set (g := sgn sg) in *.
      generalize (sin (w1 th k sg d)) (cos (w1 th k sg d)) (sin (xx (w2 k sg u))) (cos (xx (w2 k sg u))). intros S C s c.
      assert (K1 : q * (1 / r) * k * (g * S * (r / q * c) + d * C * (r / q * s)) / (r * r) = k * (g * S * c + d * C * s) / (r * r)) by (field; lra).
      rewrite K1.
      replace (d * (d * (k + sg * u) * - (S * c + d * g * (C * s))) / sg) with
        (- (d * d) * (k / sg + u) * (S * c + d * g * (C * s))) by (field; exact SG).
      rewrite D1.
      replace (k * (g * S * c + d * C * s) / (r * r)) with (k / sg * (S * c + d * g * (C * s))); [ring|].
      rewrite <- A. assert (GN : g <> 0) by nra.
      replace (k / (g * (r * r)) * (S * c + d * g * (C * s))) with (k * (/ g * S * c + d * C * s) / (r * r)) by (field; lra).
      replace (/ g) with g; [reflexivity|]. apply Rmult_eq_reg_l with g; [rewrite Rinv_r; nra|exact GN].
    - intros u. apply (ex_derive_continuous (fun u => - u * sin (heading th k sg d u)) u). unfold heading. auto_derive. exact I.
    - unfold ex_k. rewrite w3_w2. replace (heading th k sg d 0) with th by (unfold heading; field). unfold Rdiv. ring.
  Qed.
  Lemma ey_k_int th k h : RInt (fun u => u * cos (heading th k sg d u)) 0 h = ey_k FresnelS FresnelC th k sg d h.
  Proof.
    apply (int_of_primitive (fun h => ey_k FresnelS FresnelC th k sg d h)).
    - intros u. destruct (root_facts sg SG) as (r & q & R0 & Q0 & Er & Eq & Ea & Ep). unfold ey_k.
      evar_last; [apply (lin_comb3 (fun h => FresnelC (w2 k sg h)) (fun h => FresnelS (w2 k sg h)) (fun h => sin (heading th k sg d h)));
        [apply d_FC_h; assumption|apply d_FS_h; assumption|apply d_sin_heading]|].
      pose proof (sgn_abs sg) as A. rewrite Ea in A. pose proof (sgn_sq sg) as G.
      assert (P := cos_phase d D1 (w1 th k sg d) (sgn sg) (xx (w2 k sg u)) (sgn_sq sg)). rewrite (phase sg d SG) in P.
      rewrite P. unfold SQRT_PI. rewrite Er, Eq, Ea. set (g := sgn sg) in *.
      generalize (sin (w1 th k sg d)) (cos (w1 th k sg d)) (sin (xx (w2 k sg u))) (cos (xx (w2 k sg u))). intros S C s c.
      assert (K1 : q * (1 / r) * k * (- g * C * (r / q * c) + d * S * (r / q * s)) / (r * r) = k * (- g * C * c + d * S * s) / (r * r)) by (field; lra).
      rewrite K1.
      replace (d * (d * (k + sg * u) * (C * c - d * g * (S * s))) / sg) with
        ((d * d) * (k / sg + u) * (C * c - d * g * (S * s))) by (field; exact SG).
      rewrite D1.
      replace (k * (- g * C * c + d * S * s) / (r * r)) with (- (k / sg * (C * c - d * g * (S * s)))); [ring|].
      rewrite <- A. assert (GN : g <> 0) by nra.
      replace (- (k / (g * (r * r)) * (C * c - d * g * (S * s)))) with (k * (- / g * C * c + d * S * s) / (r * r)) by (field; lra).
      replace (/ g) with g; [reflexivity|]. apply Rmult_eq_reg_l with g; [rewrite Rinv_r; nra|exact GN].
    - intros u. apply (ex_derive_continuous (fun u => u * cos (heading th k sg d u)) u). unfold heading. auto_derive. exact I.
    - unfold ey_k. rewrite w3_w2. replace (heading th k sg d 0) with th by (unfold heading; field). unfold Rdiv. ring.
  Qed.

  Lemma quot_bound c a m k e : 0 <= c -> 0 < m -> Rabs a <= e -> Rabs (c * k * a / m) <= c * (Rabs k / m) * e.
  Proof.
    intros C M A. replace (c * k * a / m) with (c * (k / m) * a) by (field; lra). rewrite !Rabs_mult.
    unfold Rdiv. rewrite Rabs_mult, (Rabs_pos_eq c), (Rabs_pos_eq (/ m)) by (auto; left; apply Rinv_0_lt_compat; exact M).
    apply Rmult_le_compat_l; [|exact A]. apply Rmult_le_pos; [exact C|]. apply Rmult_le_pos; [apply Rabs_pos|left; apply Rinv_0_lt_compat; exact M].
  Qed.

  Lemma ex_k_acc th k h :
    Rabs (ex_k fresnelS fresnelC th k sg d h - ex_k FresnelS FresnelC th k sg d h) <= sqrt (PI / Rabs sg) * (Rabs k / Rabs sg) * (8 / 10 ^ 15).
  Proof.
    unfold ex_k. rewrite (root_quot sg SG). destruct (diff_acc (w2 k sg h) (w3 k sg)) as [A B].
    assert (Da : Rabs d = 1) by (destruct (d_cases d D1) as [E|E]; rewrite E; [apply Rabs_R1|rewrite Rabs_left; lra]).
    match goal with |- Rabs (?q * k * (?u * ?a + ?v * ?b) / ?m + ?z - (?q * k * (?u * ?a' + ?v * ?b') / ?m + ?z)) <= _ =>
      replace (q * k * (u * a + v * b) / m + z - (q * k * (u * a' + v * b') / m + z)) with (q * k * (u * (a - a') + v * (b - b')) / m)
        by (unfold Rdiv; ring) end.
    apply quot_bound; [apply sqrt_pos|apply Rabs_pos_lt; exact SG|].
    replace (8 / 10 ^ 15) with (2 * (4 / 10 ^ 15)) by field.
    apply comb_acc; auto; apply unit_prod; auto; try apply abs_cos; try apply abs_sin. apply sgn_abs1.
  Qed.
  Lemma ey_k_acc th k h :
    Rabs (ey_k fresnelS fresnelC th k sg d h - ey_k FresnelS FresnelC th k sg d h) <= sqrt (PI / Rabs sg) * (Rabs k / Rabs sg) * (8 / 10 ^ 15).
  Proof.
    unfold ey_k. rewrite (root_quot sg SG). destruct (diff_acc (w2 k sg h) (w3 k sg)) as [A B].
    assert (Da : Rabs d = 1) by (destruct (d_cases d D1) as [E|E]; rewrite E; [apply Rabs_R1|rewrite Rabs_left; lra]).
    match goal with |- Rabs (?q * k * (?u * ?a + ?v * ?b) / ?m + ?z - (?q * k * (?u * ?a' + ?v * ?b') / ?m + ?z)) <= _ =>
      replace (q * k * (u * a + v * b) / m + z - (q * k * (u * a' + v * b') / m + z)) with (q * k * (u * (a - a') + v * (b - b')) / m)
        by (unfold Rdiv; ring) end.
    apply quot_bound; [apply sqrt_pos|apply Rabs_pos_lt; exact SG|].
    replace (8 / 10 ^ 15) with (2 * (4 / 10 ^ 15)) by field.
    apply comb_acc; auto; apply unit_prod; auto; try apply abs_cos; try apply abs_sin. rewrite Rabs_Ropp. apply sgn_abs1.
  Qed.
End kap.

(** ** The Jacobians of the code *)
Section jac.
  Variables (x y th k sg d h : R).
  Hypothesis D1 : d * d = 1.

  Lemma dh_back : d * (d * h) = h.
  Proof. rewrite <- Rmult_assoc, D1. ring. Qed.
  Lemma d_signed (f : R -> R) (v : R) : is_derive f h (d * v) -> is_derive (fun s => f (d * s)) (d * h) v.
  Proof.
    intros H. evar_last; [apply (is_derive_comp f (fun s => d * s))|].
    - rewrite dh_back. exact H.
    - apply (is_derive_scal (fun s => s) (d * h) d 1). apply @is_derive_id.
    - unfold scal; cbn. unfold mult; cbn. transitivity (d * d * v); [rq|rewrite D1; rq].
  Qed.

  Lemma jac_intro (a b c1 c2 e1 e2 kf e_th e_s e_k : R) : kf = k + sg * h ->
    0 <= e_th -> 0 <= e_s -> 0 <= e_k ->
    Rabs (a + (true_y y th k sg d h - y)) <= e_th -> Rabs (b - (true_x x th k sg d h - x)) <= e_th ->
    Rabs (c1 - cos (heading th k sg d h)) <= e_s -> Rabs (c2 - sin (heading th k sg d h)) <= e_s ->
    Rabs (e1 - RInt (fun u => - u * sin (heading th k sg d u)) 0 h) <= e_k ->
    Rabs (e2 - RInt (fun u => u * cos (heading th k sg d u)) 0 h) <= e_k ->
    jac_ok (mkM33 1 0 a 0 1 b 0 0 1) (mkM32 c1 e1 c2 e2 kf (d * h)) x y th k sg d h e_th e_s e_k.
  Proof.
    intros -> P1 P2 P3 A B C1 C2 E1 E2 i Hi.
    assert (I3 : i = 0%nat \/ i = 1%nat \/ i = 2%nat) by lia.
    destruct I3 as [->|[->| ->]]; cbn [end_pose fx fu m00 m01 m02 m10 m11 m12 m20 m21 m22 n00 n01 n10 n11 n20 n21].
    - split; [|split; [|split; [|split]]].
      + eapply near_exact; [unfold true_x; apply @is_derive_plus; [apply @is_derive_id|apply @is_derive_const]| |lra].
        symmetry. apply plus_zero_r.
      + eapply near_exact; [apply @is_derive_const|reflexivity|lra].
      + exists (- (true_y y th k sg d h - y)). split; [apply dx_theta|]. unfold Rminus at 1. rewrite Ropp_involutive. exact A.
      + exists (cos (heading th k sg d h)). split; [|exact C1]. apply (d_signed (fun l => true_x x th k sg d l)). apply dx_len.
      + eexists. split; [apply dx_kappa; exact D1|exact E1].
    - split; [|split; [|split; [|split]]].
      + eapply near_exact; [apply @is_derive_const|reflexivity|lra].
      + eapply near_exact; [unfold true_y; apply @is_derive_plus; [apply @is_derive_id|apply @is_derive_const]| |lra].
        symmetry. apply plus_zero_r.
      + exists (true_x x th k sg d h - x). split; [apply dy_theta|exact B].
      + exists (sin (heading th k sg d h)). split; [|exact C2]. apply (d_signed (fun l => true_y y th k sg d l)). apply dy_len.
      + eexists. split; [apply dy_kappa; exact D1|exact E2].
    - split; [|split; [|split; [|split]]].
      + eapply near_exact; [apply @is_derive_const|reflexivity|lra].
      + eapply near_exact; [apply @is_derive_const|reflexivity|lra].
      + eapply near_exact; [unfold heading; apply @is_derive_plus; [apply @is_derive_id|apply @is_derive_const]| |lra].
        symmetry. apply plus_zero_r.
      + eapply near_exact; [|reflexivity|lra]. apply (d_signed (fun l => heading th k sg d l)). apply d_heading.
      + apply (near_exact _ _ _ (d * h)); [unfold heading; auto_derive; [exact I|ring]|reflexivity|lra].
  Qed.
End jac.

Lemma sgn_dir v : sgn v * sgn v = 1.
Proof. apply sgn_sq. Qed.
Lemma abs_0 v w e : v = w -> 0 <= e -> Rabs (v - w) <= e.
Proof. intros -> H. rewrite Rminus_diag_eq, Rabs_R0 by reflexivity. exact H. Qed.

Lemma jacobi_clothoid (s : State) (c : Control) (h : R) : epsilon < Rabs (ct_sigma c) ->
  let e := sqrt (PI / Rabs (ct_sigma c)) * (8 / 10 ^ 15) in
  let '(F_x, F_u) := get_motion_jacobi s c h in
  jac_ok F_x F_u (st_x s) (st_y s) (st_theta s) (st_kappa s) (ct_sigma c) (sgn (ct_delta_s c)) h
    e 0 (e * (Rabs (st_kappa s) / Rabs (ct_sigma c))).
Proof.
  intros L e. destruct s as [x y th k dd], c as [l ks sg]. cbn [ct_sigma ct_delta_s st_x st_y st_theta st_kappa] in *.
  set (d := sgn l) in *. assert (D1 : d * d = 1) by apply sgn_sq.
  assert (SG : sg <> 0) by (intros ->; rewrite Rabs_R0 in L; unfold epsilon in L; lra).
  assert (Da : Rabs d = 1) by apply sgn_abs1.
  assert (E0 : 0 <= e) by (apply Rmult_le_pos; [apply sqrt_pos|lra]).
  assert (E1 : 0 <= e * (Rabs k / Rabs sg)).
  { apply Rmult_le_pos; [exact E0|]. apply Rmult_le_pos; [apply Rabs_pos|]. left. apply Rinv_0_lt_compat. apply Rabs_pos_lt; exact SG. }
  unfold get_motion_jacobi, motion_jacobi. cbn [ct_sigma ct_delta_s st_x st_y st_theta st_kappa]. fold d.
  destruct (Rlt_dec epsilon (Rabs sg)) as [_|N]; [|contradiction].
  change (th - 1 / 2 * d * k * k / sg) with (w1 th k sg d).
  change (SQRT_PI_INV * (1 / sqrt (Rabs sg)) * (Rabs sg * h + sgn sg * k)) with (w2 k sg h).
  change (SQRT_PI_INV * (1 / sqrt (Rabs sg)) * sgn sg * k) with (w3 k sg).
  replace (w1 th k sg d + d * sgn sg * HALF_PI * w2 k sg h * w2 k sg h) with (heading th k sg d h).
  2:{ rewrite <- (phase sg d SG th k h). unfold xx, HALF_PI. ring. }
  replace (w1 th k sg d + d * sgn sg * HALF_PI * w3 k sg * w3 k sg) with th.
  2:{ transitivity (heading th k sg d 0); [unfold heading; field|]. rewrite w3_w2, <- (phase sg d SG th k 0). unfold xx, HALF_PI. ring. }
  apply jac_intro; auto; try lra.
  - rewrite true_y_clothoid by assumption.
    match goal with |- Rabs (?a + (y + ?b - y)) <= _ => replace (a + (y + b - y)) with (- (dy fresnelS fresnelC th k sg d h - b)) by (unfold dy; ring) end.
    rewrite Rabs_Ropp. apply dy_acc; assumption.
  - rewrite true_x_clothoid by assumption.
    match goal with |- Rabs (?a - (x + ?b - x)) <= _ => replace (a - (x + b - x)) with (dx fresnelS fresnelC th k sg d h - b) by (unfold dx; ring) end.
    apply dx_acc; assumption.
  - apply abs_0; [reflexivity|lra].
  - apply abs_0; [reflexivity|lra].
  - rewrite (ex_k_int sg d SG D1). unfold e.
    replace (sqrt (PI / Rabs sg) * (8 / 10 ^ 15) * (Rabs k / Rabs sg)) with (sqrt (PI / Rabs sg) * (Rabs k / Rabs sg) * (8 / 10 ^ 15)) by ring.
    apply (ex_k_acc sg d SG D1).
  - rewrite (ey_k_int sg d SG D1). unfold e.
    replace (sqrt (PI / Rabs sg) * (8 / 10 ^ 15) * (Rabs k / Rabs sg)) with (sqrt (PI / Rabs sg) * (Rabs k / Rabs sg) * (8 / 10 ^ 15)) by ring.
    apply (ey_k_acc sg d SG D1).
Qed.

(** ** Arcs *)
Lemma heading_0 th k d u : heading th k 0 d u = th + d * k * u.
Proof. unfold heading. field. Qed.

Lemma true_x_arc x th k d h : k <> 0 -> true_x x th k 0 d h - x = (- sin th + sin (th + d * h * k)) / k.
Proof.
  intros K. unfold true_x. transitivity (RInt (fun u => d * cos (heading th k 0 d u)) 0 h); [apply add_sub|].
  apply (int_of_primitive (fun h => (- sin th + sin (th + d * h * k)) / k)).
  - intros u. rewrite heading_0. auto_derive; [exact I|]. replace (th + d * u * k) with (th + d * k * u) by ring. field. exact K.
  - apply cont_cos_heading.
  - replace (th + d * 0 * k) with th by ring. field. exact K.
Qed.
Lemma true_y_arc y th k d h : k <> 0 -> true_y y th k 0 d h - y = (cos th - cos (th + d * h * k)) / k.
Proof.
  intros K. unfold true_y. transitivity (RInt (fun u => d * sin (heading th k 0 d u)) 0 h); [apply add_sub|].
  apply (int_of_primitive (fun h => (cos th - cos (th + d * h * k)) / k)).
  - intros u. rewrite heading_0. auto_derive; [exact I|]. replace (th + d * u * k) with (th + d * k * u) by ring. field. exact K.
  - apply cont_sin_heading.
  - replace (th + d * 0 * k) with th by ring. field. exact K.
Qed.
Lemma ex_arc th k d h : d * d = 1 -> k <> 0 -> RInt (fun u => - u * sin (heading th k 0 d u)) 0 h =
  (sin th - sin (th + d * h * k)) / (k * k) + d * h * cos (th + d * h * k) / k.
Proof.
  intros D K. apply (int_of_primitive (fun h => (sin th - sin (th + d * h * k)) / (k * k) + d * h * cos (th + d * h * k) / k)).
  - intros u. rewrite heading_0. auto_derive; [repeat split; auto|].
    replace (th + d * k * u) with (th + d * u * k) by ring. generalize (sin (th + d * u * k)) (cos (th + d * u * k)). intros S C.
    transitivity (- (d * d) * u * S); [field; auto|rewrite D; ring].
  - intros u. apply (ex_derive_continuous (fun u => - u * sin (heading th k 0 d u)) u). unfold heading. auto_derive. exact I.
  - replace (th + d * 0 * k) with th by ring. field. exact K.
Qed.
Lemma ey_arc th k d h : d * d = 1 -> k <> 0 -> RInt (fun u => u * cos (heading th k 0 d u)) 0 h =
  (- cos th + cos (th + d * h * k)) / (k * k) + d * h * sin (th + d * h * k) / k.
Proof.
  intros D K. apply (int_of_primitive (fun h => (- cos th + cos (th + d * h * k)) / (k * k) + d * h * sin (th + d * h * k) / k)).
  - intros u. rewrite heading_0. auto_derive; [repeat split; auto|].
    replace (th + d * k * u) with (th + d * u * k) by ring. generalize (sin (th + d * u * k)) (cos (th + d * u * k)). intros S C.
    transitivity ((d * d) * u * C); [field; auto|rewrite D; ring].
  - intros u. apply (ex_derive_continuous (fun u => u * cos (heading th k 0 d u)) u). unfold heading. auto_derive. exact I.
  - replace (th + d * 0 * k) with th by ring. field. exact K.
Qed.

Lemma jacobi_arc (s : State) (c : Control) (h : R) : Rabs (ct_sigma c) <= epsilon -> epsilon < Rabs (st_kappa s) ->
  let '(F_x, F_u) := get_motion_jacobi s c h in
  jac_ok F_x F_u (st_x s) (st_y s) (st_theta s) (st_kappa s) 0 (sgn (ct_delta_s c)) h 0 0 0.
Proof.
  intros L LK. destruct s as [x y th k dd], c as [l ks sg]. cbn [ct_sigma ct_delta_s st_x st_y st_theta st_kappa] in *.
  set (d := sgn l) in *. assert (D1 : d * d = 1) by apply sgn_sq.
  assert (K : k <> 0) by (intros ->; rewrite Rabs_R0 in LK; unfold epsilon in LK; lra).
  unfold get_motion_jacobi, motion_jacobi. cbn [ct_sigma ct_delta_s st_x st_y st_theta st_kappa]. fold d.
  destruct (Rlt_dec epsilon (Rabs sg)) as [N|_]; [lra|]. destruct (Rlt_dec epsilon (Rabs k)) as [_|N]; [|lra].
  apply jac_intro; auto; try lra.
  - rewrite true_y_arc by exact K. replace (_ + _) with 0 by (field; exact K). rewrite Rabs_R0. lra.
  - rewrite true_x_arc by exact K. apply abs_0; [reflexivity|lra].
  - rewrite heading_0. apply abs_0; [f_equal; ring|lra].
  - rewrite heading_0. apply abs_0; [f_equal; ring|lra].
  - rewrite ex_arc by assumption. apply abs_0; [reflexivity|lra].
  - rewrite ey_arc by assumption. apply abs_0; [reflexivity|lra].
Qed.

(** ** Straight lines *)
Lemma sin_lip a b : Rabs (sin a - sin b) <= Rabs (a - b).
Proof.
  assert (W : forall p q, p <= q -> Rabs (sin q - sin p) <= q - p).
  { intros p q H. apply (growth sin (fun t => t) cos (fun _ => 1) p q H).
    - intros. apply is_derive_sin'.
    - intros. apply @is_derive_id.
    - intros. apply abs_cos. }
  destruct (Rle_dec b a) as [H|H].
  - rewrite (Rabs_pos_eq (a - b)) by lra. apply W. exact H.
  - rewrite Rabs_minus_sym, (Rabs_minus_sym a). rewrite (Rabs_pos_eq (b - a)) by lra. apply W. lra.
Qed.
Lemma cos_lip a b : Rabs (cos a - cos b) <= Rabs (a - b).
Proof. rewrite !cos_sin. replace (a - b) with ((PI / 2 + a) - (PI / 2 + b)) by ring. apply sin_lip. Qed.

Lemma head_dev th k d u : Rabs d = 1 -> 0 <= u -> Rabs (heading th k 0 d u - th) = Rabs k * u.
Proof.
  intros D U. rewrite heading_0. replace (th + d * k * u - th) with (d * k * u) by ring.
  rewrite !Rabs_mult, D, (Rabs_pos_eq u) by exact U. ring.
Qed.

Lemma int_bound (f : R -> R) (m h : R) : 0 <= h -> (forall u, continuous f u) -> (forall u, 0 <= u -> Rabs (f u) <= m * u) ->
  Rabs (RInt f 0 h) <= m * h ^ 2 / 2.
Proof.
  intros H K B.
  assert (D : forall u, is_derive (fun l => RInt f 0 l) u (f u)).
  { intros u. apply (is_derive_RInt f (fun l => RInt f 0 l) 0).
    - apply filter_forall. intros t. apply (RInt_correct f 0 t). apply (ex_RInt_continuous f). intros v _. apply K.
    - apply K. }
  pose proof (growth (fun l => RInt f 0 l) (fun l => m * l ^ 2 / 2) f (fun u => m * u) 0 h H) as G.
  cbv beta in G. rewrite RInt_point in G. change (@zero R_CompleteNormedModule) with 0 in G.
  rewrite (Rminus_0_r (RInt f 0 h)) in G.
  replace (m * h ^ 2 / 2) with (m * h ^ 2 / 2 - m * 0 ^ 2 / 2) by field. apply G.
  - intros. apply D.
  - intros. auto_derive; [exact I|field].
  - intros u Hu. apply B. lra.
Qed.

Lemma is_derive_mult_c d c u : is_derive (fun h => d * h * c) u (d * c).
Proof. auto_derive; [exact I|ring]. Qed.
Lemma const_prim_x x th d h : true_x x th 0 0 d h - x = d * h * cos th.
Proof.
  unfold true_x. transitivity (RInt (fun u => d * cos (heading th 0 0 d u)) 0 h); [apply add_sub|].
  apply (int_of_primitive (fun h => d * h * cos th)).
  - intros u. rewrite heading_0. replace (th + d * 0 * u) with th by ring. auto_derive; [exact I|ring].
  - apply cont_cos_heading.
  - ring.
Qed.

Lemma dev_x x th k d h : Rabs d = 1 -> 0 <= h -> Rabs (d * h * cos th - (true_x x th k 0 d h - x)) <= Rabs k * h ^ 2 / 2.
Proof.
  intros D H. set (f := fun u => d * (cos (heading th k 0 d u) - cos th)).
  assert (K : forall u, continuous f u).
  { intros u. apply (ex_derive_continuous f u). unfold f, heading. auto_derive. exact I. }
  assert (E : true_x x th k 0 d h - x = d * h * cos th + RInt f 0 h).
  { unfold true_x. transitivity (RInt (fun u => d * cos (heading th k 0 d u)) 0 h); [apply add_sub|].
    apply (int_of_primitive (fun h => d * h * cos th + RInt f 0 h)).
    - intros u. evar_last; [apply @is_derive_plus; [apply (is_derive_mult_c d (cos th) u)|apply (is_derive_RInt f (fun l => RInt f 0 l) 0)]|].
      + apply filter_forall. intros t. apply (RInt_correct f 0 t). apply (ex_RInt_continuous f). intros v _. apply K.
      + apply K.
      + unfold plus, f; cbn. ring.
    - apply cont_cos_heading.
    - rewrite RInt_point. change (@zero R_CompleteNormedModule) with 0. ring. }
  rewrite E. replace (_ - _) with (- RInt f 0 h) by ring. rewrite Rabs_Ropp. apply int_bound; [exact H|exact K|].
  intros u U. unfold f. rewrite Rabs_mult, D, Rmult_1_l. eapply Rle_trans; [apply cos_lip|]. rewrite head_dev by assumption. lra.
Qed.
Lemma dev_y y th k d h : Rabs d = 1 -> 0 <= h -> Rabs (d * h * sin th - (true_y y th k 0 d h - y)) <= Rabs k * h ^ 2 / 2.
Proof.
  intros D H. set (f := fun u => d * (sin (heading th k 0 d u) - sin th)).
  assert (K : forall u, continuous f u).
  { intros u. apply (ex_derive_continuous f u). unfold f, heading. auto_derive. exact I. }
  assert (E : true_y y th k 0 d h - y = d * h * sin th + RInt f 0 h).
  { unfold true_y. transitivity (RInt (fun u => d * sin (heading th k 0 d u)) 0 h); [apply add_sub|].
    apply (int_of_primitive (fun h => d * h * sin th + RInt f 0 h)).
    - intros u. evar_last; [apply @is_derive_plus; [apply (is_derive_mult_c d (sin th) u)|apply (is_derive_RInt f (fun l => RInt f 0 l) 0)]|].
      + apply filter_forall. intros t. apply (RInt_correct f 0 t). apply (ex_RInt_continuous f). intros v _. apply K.
      + apply K.
      + unfold plus, f; cbn. ring.
    - apply cont_sin_heading.
    - rewrite RInt_point. change (@zero R_CompleteNormedModule) with 0. ring. }
  rewrite E. replace (_ - _) with (- RInt f 0 h) by ring. rewrite Rabs_Ropp. apply int_bound; [exact H|exact K|].
  intros u U. unfold f. rewrite Rabs_mult, D, Rmult_1_l. eapply Rle_trans; [apply sin_lip|]. rewrite head_dev by assumption. lra.
Qed.

Lemma jacobi_straight (s : State) (c : Control) (h : R) : Rabs (ct_sigma c) <= epsilon -> Rabs (st_kappa s) <= epsilon -> 0 <= h ->
  let '(F_x, F_u) := get_motion_jacobi s c h in
  jac_ok F_x F_u (st_x s) (st_y s) (st_theta s) (st_kappa s) 0 (sgn (ct_delta_s c)) h
    (Rabs (st_kappa s) * h ^ 2 / 2) (Rabs (st_kappa s) * h) (h ^ 2 / 2).
Proof.
  intros L LK H. destruct s as [x y th k dd], c as [l ks sg]. cbn [ct_sigma ct_delta_s st_x st_y st_theta st_kappa] in *.
  set (d := sgn l) in *. assert (D1 : d * d = 1) by apply sgn_sq. assert (Da : Rabs d = 1) by apply sgn_abs1.
  unfold get_motion_jacobi, motion_jacobi. cbn [ct_sigma ct_delta_s st_x st_y st_theta st_kappa]. fold d.
  destruct (Rlt_dec epsilon (Rabs sg)) as [N|_]; [lra|]. destruct (Rlt_dec epsilon (Rabs k)) as [N|_]; [lra|].
  pose proof (Rabs_pos k). pose proof (pow2_ge_0 h).
  apply jac_intro; auto; try nra.
  - replace (- d * h * sin th + (true_y y th k 0 d h - y)) with (- (d * h * sin th - (true_y y th k 0 d h - y))) by ring.
    rewrite Rabs_Ropp. apply dev_y; assumption.
  - apply dev_x; assumption.
  - eapply Rle_trans; [apply cos_lip|]. rewrite Rabs_minus_sym, head_dev by assumption. lra.
  - eapply Rle_trans; [apply sin_lip|]. rewrite Rabs_minus_sym, head_dev by assumption. lra.
  - unfold Rminus. rewrite Rplus_0_l, Rabs_Ropp. replace (h ^ 2 / 2) with (1 * h ^ 2 / 2) by field. apply int_bound; [exact H| |].
    + intros u. apply (ex_derive_continuous (fun u => - u * sin (heading th k 0 d u)) u). unfold heading. auto_derive. exact I.
    + intros u U. rewrite Rabs_mult, Rabs_Ropp, (Rabs_pos_eq u) by exact U. pose proof (abs_sin (heading th k 0 d u)). nra.
  - unfold Rminus. rewrite Rplus_0_l, Rabs_Ropp. replace (h ^ 2 / 2) with (1 * h ^ 2 / 2) by field. apply int_bound; [exact H| |].
    + intros u. apply (ex_derive_continuous (fun u => u * cos (heading th k 0 d u)) u). unfold heading. auto_derive. exact I.
    + intros u U. rewrite Rabs_mult, (Rabs_pos_eq u) by exact U. pose proof (abs_cos (heading th k 0 d u)). nra.
Qed.

Lemma ex_straight th d h : RInt (fun u => - u * sin (heading th 0 0 d u)) 0 h = - h ^ 2 / 2 * sin th.
Proof.
  apply (int_of_primitive (fun h => - h ^ 2 / 2 * sin th)).
  - intros u. rewrite heading_0. replace (th + d * 0 * u) with th by ring. auto_derive; [exact I|field].
  - intros u. apply (ex_derive_continuous (fun u => - u * sin (heading th 0 0 d u)) u). unfold heading. auto_derive. exact I.
  - field.
Qed.

Lemma jacobi_straight_wrong (s : State) (c : Control) (h : R) : Rabs (ct_sigma c) <= epsilon -> st_kappa s = 0 ->
  let d := sgn (ct_delta_s c) in
  fu (snd (get_motion_jacobi s c h)) 0 1 = 0 /\
  is_derive (fun k => end_pose 0 (st_x s) (st_y s) (st_theta s) k 0 d h) (st_kappa s) (- h ^ 2 / 2 * sin (st_theta s)).
Proof.
  intros L K d. destruct s as [x y th k dd], c as [l ks sg]. cbn [ct_sigma ct_delta_s st_x st_y st_theta st_kappa] in *. subst k.
  assert (D1 : d * d = 1) by apply sgn_sq.
  split.
  - unfold get_motion_jacobi, motion_jacobi. cbn [ct_sigma ct_delta_s st_x st_y st_theta st_kappa].
    destruct (Rlt_dec epsilon (Rabs sg)) as [N|_]; [lra|]. rewrite Rabs_R0. destruct (Rlt_dec epsilon 0) as [N|_]; [unfold epsilon in N; lra|].
    reflexivity.
  - rewrite <- (ex_straight th d h). apply (dx_kappa x th 0 0 d h D1).
Qed.

Lemma jacobi_straight_refuted : exists (s : State) (c : Control) (h D : R),
  let d := sgn (ct_delta_s c) in
  0 < h /\ is_derive (fun k => end_pose 0 (st_x s) (st_y s) (st_theta s) k (ct_sigma c) d h) (st_kappa s) D /\
  fu (snd (get_motion_jacobi s c h)) 0 1 <> D.
Proof.
  exists (mkState 0 0 (PI / 2) 0 1), (mkControl 1 0 0), 1, (- 1 / 2). cbv zeta. cbn [ct_sigma ct_delta_s st_x st_y st_theta st_kappa].
  destruct (jacobi_straight_wrong (mkState 0 0 (PI / 2) 0 1) (mkControl 1 0 0) 1) as [A B].
  - cbn. rewrite Rabs_R0. unfold epsilon. lra.
  - reflexivity.
  - cbn [ct_sigma ct_delta_s st_x st_y st_theta st_kappa] in *. rewrite A. split; [lra|]. split; [|lra].
    evar_last; [exact B|]. rewrite sin_PI2. change (@eq R (- 1 ^ 2 / 2 * 1) (- 1 / 2)). field.
Qed.

Lemma arc_jac_case : get_motion_jacobi (mkState 0 0 0 1 1) (mkControl 1 1 0) (PI / 2) =
  (mkM33 1 0 (-1) 0 1 1 0 0 1, mkM32 0 (-1) 1 (PI / 2 - 1) 1 (PI / 2)).
Proof.
  unfold get_motion_jacobi, motion_jacobi. cbn [ct_sigma ct_delta_s st_x st_y st_theta st_kappa].
  rewrite Rabs_R0, Rabs_R1. destruct (Rlt_dec epsilon 0) as [N|_]; [unfold epsilon in N; lra|].
  destruct (Rlt_dec epsilon 1) as [_|N]; [|unfold epsilon in N; lra].
  unfold sgn. destruct (Rlt_dec 1 0) as [N|_]; [lra|].
  replace (0 + 1 * (PI / 2) * 1) with (PI / 2) by ring. rewrite cos_0, sin_0, cos_PI2, sin_PI2.
  f_equal; [f_equal; field|f_equal; field].
Qed.

Lemma clothoid_case : exists Y, end_of_clothoid 0 0 0 0 PI 1 1 = (fresnelC 1, Y, PI / 2, PI) /\
  true_x 0 0 0 PI 1 1 = FresnelC 1 /\ 3 / 4 < true_x 0 0 0 PI 1 1.
Proof.
  pose proof PI_gt. assert (P0 : PI <> 0) by lra.
  assert (S1 : sgn PI = 1) by (unfold sgn; destruct (Rlt_dec PI 0); lra).
  assert (Q : sqrt PI <> 0) by (apply Rgt_not_eq, sqrt_lt_R0; lra).
  assert (W2 : w2 0 PI 1 = 1).
  { unfold w2, SQRT_PI_INV. rewrite S1, Rabs_pos_eq by lra.
    replace (/ sqrt PI * (1 / sqrt PI) * (PI * 1 + 1 * 0)) with (PI / (sqrt PI * sqrt PI)) by (field; exact Q).
    rewrite sqrt_sqrt by lra. field. exact P0. }
  assert (W3 : w3 0 PI = 0) by (unfold w3; ring).
  assert (W1 : w1 0 0 PI 1 = 0) by (unfold w1; field; exact P0).
  assert (X : forall fS fC, fC 0 = 0 -> dx fS fC 0 0 PI 1 1 = fC 1).
  { intros fS fC Z. unfold dx. rewrite W1, W2, W3, cos_0, sin_0, Z, Rabs_pos_eq by lra. unfold SQRT_PI. field. exact Q. }
  assert (F0 : fresnelC 0 = 0) by (unfold fresnelC; rewrite fresnel_0; reflexivity).
  assert (T : true_x 0 0 0 PI 1 1 = FresnelC 1).
  { rewrite true_x_clothoid by (auto; ring). rewrite X by apply FC_0. ring. }
  exists (0 + dy fresnelS fresnelC 0 0 PI 1 1). split; [|split; [exact T|rewrite T; pose proof FresnelC_1; lra]].
  rewrite clothoid_eq, (X _ _ F0). f_equal; [|ring]. f_equal; [f_equal; ring|].
  replace (0 + 0 * 1 * 1 + 1 / 2 * PI * 1 * 1 * 1) with (PI / 2) by field.
  apply pify_unique; [apply ang_eq_refl|lra].
Qed.

Lemma clothoid_add' x y th k sg d a b x1 y1 th1 k1 x2 y2 th2 k2 x3 y3 th3 k3 : sg <> 0 ->
  end_of_clothoid x y th k sg d a = (x1, y1, th1, k1) -> end_of_clothoid x1 y1 th1 k1 sg d b = (x2, y2, th2, k2) ->
  end_of_clothoid x y th k sg d (a + b) = (x3, y3, th3, k3) ->
  x2 = x3 /\ y2 = y3 /\ (exists n : Z, th2 = th3 + 2 * PI * IZR n) /\ k2 = k3.
Proof.
  intros SG A B C. pose proof (clothoid_add x y th k sg d a b SG) as H. rewrite A, B, C in H. exact H.
Qed.

(** * Displacement and end of the turns *)
From Coq Require Import Reals ZArith List Bool Lra Lia.
From Coquelicot Require Import Coquelicot.
From Verif Require Import Base ModelUtil ModelFresnel ModelIntegrate ModelCircle Num UtilProofs IntegrateProofs SpecPath SpecCloth SpecTurn
  SpecFresnel FresPoly FresCert FresAcc FresProofs FresFinal ClothProofs DubinsOpt PoseAlg ParamProofs.
Import ListNotations.
Open Scope R_scope.

(** ** The circle parameters *)
Definition par_L (k s : R) : R := k / s.
Definition par_w (k s : R) : R := sqrt (s / PI) * (k / s).
Definition par_t (k s : R) : R := cl_t s (k / s).
Definition par_X (k s : R) : R := cl_x s (k / s) - sin (par_t k s) / k.
Definition par_Y (k s : R) : R := cl_y s (k / s) + cos (par_t k s) / k.

Lemma par_t_eq k s : 0 < s -> par_t k s = 1 / 2 * k ^ 2 / s.
Proof. intros S. unfold par_t, cl_t. field. lra. Qed.
Lemma par_w_pos k s : 0 < k -> 0 < s -> 0 < par_w k s.
Proof.
  intros K S. pose proof PI_gt. unfold par_w. apply Rmult_lt_0_compat; [apply sqrt_lt_R0|]; apply Rdiv_lt_0_compat; lra.
Qed.
Lemma par_xx k s : 0 < k -> 0 < s -> xx (par_w k s) = par_t k s.
Proof.
  intros K S. pose proof PI_gt. unfold xx, par_w, par_t, cl_t.
  rewrite Rpow_mult_distr. replace (sqrt (s / PI) ^ 2) with (s / PI); [field; lra|].
  cbn [pow]. rewrite Rmult_1_r, sqrt_sqrt; [reflexivity|]. apply div_nonneg; lra.
Qed.
Lemma par_inv k s : 0 < k -> 0 < s -> sqrt (PI / s) * (1 / (PI * par_w k s)) = 1 / k.
Proof.
  intros K S. pose proof PI_gt. unfold par_w.
  assert (A : sqrt (PI / s) * sqrt (PI / s) = PI / s) by (apply sqrt_sqrt, div_nonneg; lra).
  assert (B : sqrt (s / PI) = / sqrt (PI / s)).
  { rewrite <- sqrt_inv. f_equal. field. lra. }
  assert (0 < sqrt (PI / s)) by (apply sqrt_lt_R0, Rdiv_lt_0_compat; lra).
  rewrite B. transitivity (sqrt (PI / s) * sqrt (PI / s) * s / (PI * k)); [field; lra|]. rewrite A. field. lra.
Qed.
Lemma par_X_U k s : 0 < k -> 0 < s -> par_X k s = sqrt (PI / s) * Ul (par_w k s).
Proof.
  intros K S. unfold par_X, Ul, cl_x. rewrite par_xx by assumption. fold (par_w k s).
  replace (sin (par_t k s) / k) with (sin (par_t k s) * (1 / k)) by (field; lra).
  rewrite <- (par_inv k s K S). unfold Rdiv. ring.
Qed.
Lemma par_Y_V k s : 0 < k -> 0 < s -> par_Y k s = sqrt (PI / s) * Vl (par_w k s).
Proof.
  intros K S. unfold par_Y, Vl, cl_y. rewrite par_xx by assumption. fold (par_w k s).
  replace (cos (par_t k s) / k) with (cos (par_t k s) * (1 / k)) by (field; lra).
  rewrite <- (par_inv k s K S). unfold Rdiv. ring.
Qed.
Lemma par_X_pos k s : 0 < k -> 0 < s -> 0 < par_X k s.
Proof.
  intros K S. pose proof PI_gt. rewrite par_X_U by assumption. apply Rmult_lt_0_compat.
  - apply sqrt_lt_R0, Rdiv_lt_0_compat; lra.
  - apply Ul_pos, par_w_pos; assumption.
Qed.
Lemma par_Y_pos k s : 0 < k -> 0 < s -> 0 < par_Y k s.
Proof.
  intros K S. pose proof PI_gt. rewrite par_Y_V by assumption. apply Rmult_lt_0_compat.
  - apply sqrt_lt_R0, Rdiv_lt_0_compat; lra.
  - apply Vl_pos, par_w_pos; assumption.
Qed.

Lemma polar X Y : 0 <= X -> 0 < Y ->
  sqrt (X ^ 2 + Y ^ 2) * sin (atan (X / Y)) = X /\ sqrt (X ^ 2 + Y ^ 2) * cos (atan (X / Y)) = Y.
Proof.
  intros HX HY. rewrite sin_atan, cos_atan.
  assert (E : 1 + (X / Y)² = (X ^ 2 + Y ^ 2) / (Y ^ 2)) by (unfold Rsqr; field; lra). rewrite E.
  assert (P : 0 < X ^ 2 + Y ^ 2) by nra.
  rewrite sqrt_div by nra. assert (SQ : sqrt (Y ^ 2) = Y) by (replace (Y ^ 2) with (Y * Y) by ring; apply sqrt_square; lra). rewrite SQ.
  assert (0 < sqrt (X ^ 2 + Y ^ 2)) by (apply sqrt_lt_R0; exact P).
  split; field; lra.
Qed.

Lemma param_radius k s : 0 < k -> 0 < s -> epsilon < k / s ->
  p_radius (hc_cc_param k s) = sqrt (par_X k s ^ 2 + par_Y k s ^ 2) /\
  p_mu (hc_cc_param k s) = atan (par_X k s / par_Y k s).
Proof.
  intros K S E. pose proof (par_X_pos k s K S) as XP. pose proof (par_Y_pos k s K S) as YP.
  unfold hc_cc_param. destruct (Rlt_dec epsilon (k / s)) as [_|N]; [|contradiction].
  assert (L0 : 0 < k / s) by (apply Rdiv_lt_0_compat; assumption).
  unfold end_of_clothoid, set_param. cbv zeta. rewrite (Rabs_pos_eq s) by lra.
  assert (G : sgn s = 1) by (unfold sgn; destruct (Rlt_dec s 0); lra). rewrite G.
  rewrite !Rmult_0_r, !Rplus_0_r. rewrite fresnelS_0, fresnelC_0, root_arg by assumption. rewrite root_pi by assumption.
  rewrite sin_pify, cos_pify.
  replace (0 - 0 / s) with 0 by (field; lra). rewrite cos_0, sin_0.
  replace (0 + 0 * 1 * (k / s) + 1 / 2 * s * 1 * (k / s) * (k / s)) with (par_t k s) by (unfold par_t, cl_t; field; lra).
  cbn [p_radius p_mu].
  set (xc := 0 + sqrt (PI / s) * (1 * 1 * (fresnelC (sqrt (s / PI) * (k / s)) - 0) - 1 * 0 * (fresnelS (sqrt (s / PI) * (k / s)) - 0)) - sin (par_t k s) / k).
  set (yc := 0 + sqrt (PI / s) * (1 * 0 * (fresnelC (sqrt (s / PI) * (k / s)) - 0) + 1 * 1 * (fresnelS (sqrt (s / PI) * (k / s)) - 0)) + cos (par_t k s) / k).
  assert (EX : xc = par_X k s) by (unfold xc, par_X, cl_x; ring).
  assert (EY : yc = par_Y k s) by (unfold yc, par_Y, cl_y; ring).
  rewrite EX, EY. split.
  - unfold point_distance. f_equal. ring.
  - f_equal. apply Rabs_pos_eq, div_nonneg; lra.
Qed.

Lemma param_XY k s : 0 < k -> 0 < s -> epsilon < k / s ->
  let p := hc_cc_param k s in
  p_kappa p = k /\ p_kappa_inv p = 1 / k /\ p_sigma p = s /\ p_delta_min p = par_t k s /\
  p_radius p * p_sin_mu p = par_X k s /\ p_radius p * p_cos_mu p = par_Y k s.
Proof.
  intros K S E p. destruct (param_radius k s K S E) as [R M]. fold p in R, M.
  pose proof (par_X_pos k s K S) as XP. pose proof (par_Y_pos k s K S) as YP.
  destruct (polar (par_X k s) (par_Y k s) ltac:(lra) YP) as [P1 P2].
  assert (SM : p_sin_mu p = sin (p_mu p) /\ p_cos_mu p = cos (p_mu p) /\ p_kappa p = k /\ p_kappa_inv p = 1 / k /\
    p_sigma p = s /\ p_delta_min p = 1 / 2 * k ^ 2 / s).
  { unfold p, hc_cc_param. destruct (Rlt_dec epsilon (k / s)); cbn; repeat split. }
  destruct SM as (SM & CM & A & B & C & D). rewrite SM, CM, R, M, P1, P2, D, par_t_eq by assumption. auto 8.
Qed.

(** ** Lengths of plane vectors *)
Definition hyp (u v : R) : R := sqrt (u ^ 2 + v ^ 2).
Lemma hyp_pos u v : 0 <= hyp u v.
Proof. apply sqrt_pos. Qed.
Lemma hyp_sq u v : hyp u v ^ 2 = u ^ 2 + v ^ 2.
Proof. unfold hyp. apply pow2_sqrt. nra. Qed.
Lemma hyp_le u v e : 0 <= e -> u ^ 2 + v ^ 2 <= e ^ 2 -> hyp u v <= e.
Proof. intros E H. unfold hyp. rewrite <- (sqrt_pow2 e E). apply sqrt_le_1_alt, H. Qed.
Lemma hyp_eq u v e : 0 <= e -> u ^ 2 + v ^ 2 = e ^ 2 -> hyp u v = e.
Proof. intros E H. unfold hyp. rewrite H. apply sqrt_pow2, E. Qed.
Lemma hyp_dot u v a b : u * a + v * b <= hyp u v * hyp a b.
Proof.
  pose proof (hyp_pos u v). pose proof (hyp_pos a b). pose proof (hyp_sq u v). pose proof (hyp_sq a b).
  destruct (Rle_dec (u * a + v * b) 0); [assert (0 <= hyp u v * hyp a b) by (apply Rmult_le_pos; assumption); lra|].
  apply Rsqr_incr_0_var; [|apply Rmult_le_pos; assumption]. unfold Rsqr.
  replace (hyp u v * hyp a b * (hyp u v * hyp a b)) with (hyp u v ^ 2 * hyp a b ^ 2) by ring. rewrite H1, H2.
  pose proof (pow2_ge_0 (u * b - v * a)). nra.
Qed.
Lemma hyp_add u v a b : hyp (u + a) (v + b) <= hyp u v + hyp a b.
Proof.
  pose proof (hyp_pos u v). pose proof (hyp_pos a b). pose proof (hyp_sq u v). pose proof (hyp_sq a b). pose proof (hyp_dot u v a b).
  apply hyp_le; [lra|]. replace ((hyp u v + hyp a b) ^ 2) with (hyp u v ^ 2 + hyp a b ^ 2 + 2 * (hyp u v * hyp a b)) by ring.
  rewrite H1, H2. nra.
Qed.
Lemma hyp_opp u v : hyp (- u) (- v) = hyp u v.
Proof. unfold hyp. f_equal. ring. Qed.
Lemma hyp_abs_u u v : Rabs u <= hyp u v.
Proof. unfold hyp. rewrite <- (sqrt_Rsqr_abs u). apply sqrt_le_1_alt. unfold Rsqr. nra. Qed.
Lemma hyp_polar m a : hyp (m * cos a) (m * sin a) = Rabs m.
Proof.
  unfold hyp. rewrite <- (sqrt_Rsqr_abs m). f_equal. unfold Rsqr. pose proof (sin2_cos2' a).
  replace ((m * cos a) ^ 2 + (m * sin a) ^ 2) with (m * m * (sin a * sin a + cos a * cos a)) by ring. rewrite H. ring.
Qed.
Lemma hyp_sub u v a b : Rabs (hyp (u + a) (v + b) - hyp u v) <= hyp a b.
Proof.
  pose proof (hyp_add u v a b). pose proof (hyp_add (u + a) (v + b) (- a) (- b)). rewrite hyp_opp in H0.
  replace (u + a + - a) with u in H0 by ring. replace (v + b + - b) with v in H0 by ring. apply Rabs_le. lra.
Qed.

Lemma hyp_rot a b th : hyp (a * cos th - b * sin th) (a * sin th + b * cos th) = hyp a b.
Proof.
  unfold hyp. f_equal. pose proof (sin2_cos2' th) as T.
  transitivity ((a ^ 2 + b ^ 2) * (sin th * sin th + cos th * cos th)); [ring|rewrite T; ring].
Qed.
Lemma hyp_refl a b th : hyp (a * cos th + b * sin th) (a * sin th - b * cos th) = hyp a b.
Proof.
  unfold hyp. f_equal. pose proof (sin2_cos2' th) as T.
  transitivity ((a ^ 2 + b ^ 2) * (sin th * sin th + cos th * cos th)); [ring|rewrite T; ring].
Qed.
Lemma hyp_pm d e a b : pm1 d -> pm1 e -> hyp (d * a) (e * b) = hyp a b.
Proof. intros [->| ->] [->| ->]; unfold hyp; f_equal; ring. Qed.

(** Going straight ahead or back over the distance of a vector misses its end by at most 3/2 of
    the lateral offset. *)
Lemma straight_miss vx vy th : let D := sgn (cos th * vx + sin th * vy) * hyp vx vy in
  hyp (vx - D * cos th) (vy - D * sin th) <= 3 / 2 * Rabs (vy * cos th - vx * sin th).
Proof.
  intros D. set (c := cos th * vx + sin th * vy) in *. set (x := vy * cos th - vx * sin th).
  pose proof (hyp_pos vx vy) as HP. pose proof (hyp_sq vx vy) as HS. set (h := hyp vx vy) in *.
  pose proof (sin2_cos2' th) as T.
  assert (CX : c ^ 2 + x ^ 2 = h ^ 2).
  { rewrite HS. unfold c, x. transitivity ((vx ^ 2 + vy ^ 2) * (sin th * sin th + cos th * cos th)); [ring|rewrite T; ring]. }
  assert (SC : sgn c * c = Rabs c) by (unfold sgn, Rabs; destruct (Rlt_dec c 0), (Rcase_abs c); lra).
  assert (SS : sgn c * sgn c = 1) by (unfold sgn; destruct (Rlt_dec c 0); lra).
  apply hyp_le; [pose proof (Rabs_pos x); lra|].
  replace ((3 / 2 * Rabs x) ^ 2) with (9 / 4 * (Rabs x) ^ 2) by field. rewrite pow2_abs.
  assert (E : (vx - D * cos th) ^ 2 + (vy - D * sin th) ^ 2 = 2 * h ^ 2 - 2 * h * Rabs c).
  { transitivity (vx ^ 2 + vy ^ 2 - 2 * D * c + D * D * (sin th * sin th + cos th * cos th)); [unfold c; ring|].
    rewrite T, <- HS. unfold D. fold h. rewrite <- SC. transitivity (h ^ 2 - 2 * h * (sgn c * c) + (sgn c * sgn c) * h ^ 2); [ring|]. rewrite SS. ring. }
  rewrite E. pose proof (pow2_abs c) as CA. pose proof (Rabs_pos c). set (a := Rabs c) in *.
  assert (a <= h) by nra. replace (x ^ 2) with (h ^ 2 - a ^ 2) by lra. nra.
Qed.

(** The constructor neglects clothoids that are not longer than the tolerance. *)
Definition nom_X (k s : R) : R := if Rlt_dec epsilon (k / s) then par_X k s else 0.
Definition nom_Y (k s : R) : R := if Rlt_dec epsilon (k / s) then par_Y k s else 1 / k.
Lemma nom_pos k s : 0 < k -> 0 < s -> 0 <= nom_X k s /\ 0 < nom_Y k s.
Proof.
  intros K S. unfold nom_X, nom_Y. destruct (Rlt_dec epsilon (k / s)).
  - split; [left; apply par_X_pos|apply par_Y_pos]; assumption.
  - split; [lra|]. apply Rdiv_lt_0_compat; lra.
Qed.
Lemma param_nom k s : 0 < k -> 0 < s -> let p := hc_cc_param k s in
  p_kappa p = k /\ p_kappa_inv p = 1 / k /\ p_sigma p = s /\ p_delta_min p = par_t k s /\
  p_radius p * p_sin_mu p = nom_X k s /\ p_radius p * p_cos_mu p = nom_Y k s /\
  p_radius p = sqrt (nom_X k s ^ 2 + nom_Y k s ^ 2) /\ p_mu p = atan (nom_X k s / nom_Y k s) /\
  p_sin_mu p = sin (p_mu p) /\ p_cos_mu p = cos (p_mu p).
Proof.
  intros K S p. unfold nom_X, nom_Y. destruct (Rlt_dec epsilon (k / s)) as [E|E].
  - destruct (param_XY k s K S E) as (A & B & C & D & F & G). destruct (param_radius k s K S E) as [H I].
    assert (SM : p_sin_mu p = sin (p_mu p) /\ p_cos_mu p = cos (p_mu p)).
    { unfold p, hc_cc_param. destruct (Rlt_dec epsilon (k / s)); cbn; repeat split. }
    destruct SM. repeat (split; [assumption|]). assumption.
  - unfold p, hc_cc_param. destruct (Rlt_dec epsilon (k / s)) as [N|_]; [contradiction|].
    rewrite sin_0, cos_0. cbn [p_kappa p_kappa_inv p_sigma p_delta_min p_radius p_mu p_sin_mu p_cos_mu set_param].
    assert (KP : 0 < 1 / k) by (apply Rdiv_lt_0_compat; lra).
    replace (0 - 0 / k) with 0 by (field; lra). replace (0 + 1 / k) with (1 / k) by ring.
    assert (Z : 0 / (1 / k) = 0) by (field; lra). rewrite Z, Rabs_R0, atan_0, sin_0, cos_0.
    assert (R : point_distance 0 (1 / k) 0 0 = 1 / k).
    { unfold point_distance. replace ((0 - 0) ^ 2 + (0 - 1 / k) ^ 2) with ((1 / k) ^ 2) by ring. apply sqrt_pow2. lra. }
    rewrite R, par_t_eq by assumption. repeat split; try ring.
    replace (0 ^ 2 + (1 / k) ^ 2) with ((1 / k) ^ 2) by ring. symmetry. apply sqrt_pow2. lra.
Qed.

Lemma FC_upper w : 0 <= w -> Rabs (FresnelC w) <= w /\ Rabs (FresnelS w) <= w.
Proof.
  intros W. split.
  - pose proof (growth FresnelC (fun v => v) (fun v => cos (xx v)) (fun _ => 1) 0 w W) as G.
    rewrite FC_0, !Rminus_0_r in G. apply G.
    + intros; apply is_derive_FC.
    + intros; apply (is_derive_id (K := R_AbsRing)).
    + intros; apply abs_cos.
  - pose proof (growth FresnelS (fun v => v) (fun v => sin (xx v)) (fun _ => 1) 0 w W) as G.
    rewrite FS_0, !Rminus_0_r in G. apply G.
    + intros; apply is_derive_FS.
    + intros; apply (is_derive_id (K := R_AbsRing)).
    + intros; apply abs_sin.
Qed.
Lemma lib_upper w : 0 <= w -> Rabs (fresnelC w) <= w * (1 + 1 / 100) /\ Rabs (fresnelS w) <= w * (1 + 1 / 100).
Proof.
  intros W. destruct (FC_upper w W) as [A B]. destruct (Rle_dec w 2) as [L|L].
  - pose proof (rel_C w ltac:(lra)) as C. pose proof (rel_S w ltac:(lra)) as D.
    apply Rabs_le_between in A, B, C, D. split; apply Rabs_le; lra.
  - pose proof (accuracy w) as [C D]. apply Rabs_le_between in A, B, C, D. split; apply Rabs_le; lra.
Qed.

Lemma nom_gap k s : 0 < k -> 0 < s -> sqrt ((par_X k s - nom_X k s) ^ 2 + (par_Y k s - nom_Y k s) ^ 2) <= param_slack k s.
Proof.
  intros K S. unfold param_slack, nom_X, nom_Y. destruct (Rlt_dec epsilon (k / s)) as [E|E].
  - rewrite !Rminus_eq_0. replace (0 ^ 2 + 0 ^ 2) with 0 by ring. rewrite sqrt_0. lra.
  - pose proof PI_gt. set (L := k / s). assert (LP : 0 < L) by (apply Rdiv_lt_0_compat; lra).
    assert (WE : sqrt (PI / s) * (sqrt (s / PI) * L) = L).
    { rewrite <- Rmult_assoc, <- sqrt_mult by (apply div_nonneg; lra). replace (PI / s * (s / PI)) with 1 by (field; lra). rewrite sqrt_1. ring. }
    assert (RP : 0 <= sqrt (PI / s)) by apply sqrt_pos.
    assert (WP : 0 <= sqrt (s / PI) * L) by (apply Rmult_le_pos; [apply sqrt_pos|lra]).
    destruct (lib_upper _ WP) as [C D].
    assert (CX : Rabs (cl_x s L) <= L * (1 + 1 / 100)).
    { unfold cl_x. rewrite Rabs_mult, (Rabs_pos_eq (sqrt _)) by exact RP.
      replace (L * (1 + 1 / 100)) with (sqrt (PI / s) * (sqrt (s / PI) * L * (1 + 1 / 100))) by (rewrite <- Rmult_assoc, WE; ring).
      apply Rmult_le_compat_l; assumption. }
    assert (CY : Rabs (cl_y s L) <= L * (1 + 1 / 100)).
    { unfold cl_y. rewrite Rabs_mult, (Rabs_pos_eq (sqrt _)) by exact RP.
      replace (L * (1 + 1 / 100)) with (sqrt (PI / s) * (sqrt (s / PI) * L * (1 + 1 / 100))) by (rewrite <- Rmult_assoc, WE; ring).
      apply Rmult_le_compat_l; assumption. }
    assert (TK : par_t k s = k * L / 2) by (unfold par_t, cl_t, L; field; lra).
    assert (TP : 0 <= par_t k s) by (rewrite TK; assert (0 <= k * L) by (apply Rmult_le_pos; lra); lra).
    assert (S1 : Rabs (sin (par_t k s) / k) <= L / 2).
    { unfold Rdiv at 1. rewrite Rabs_mult, (Rabs_pos_eq (/ k)) by (left; apply Rinv_0_lt_compat; exact K).
      apply (Rmult_le_reg_r k); [exact K|]. rewrite Rmult_assoc, Rinv_l, Rmult_1_r by lra.
      eapply Rle_trans; [apply DubinsOpt.abs_sin_le|]. rewrite Rabs_pos_eq, TK by exact TP. lra. }
    assert (S2 : Rabs (cos (par_t k s) / k - 1 / k) <= L / 2).
    { replace (cos (par_t k s) / k - 1 / k) with (- (1 - cos (par_t k s)) * / k) by (field; lra).
      rewrite Rabs_mult, Rabs_Ropp, (Rabs_pos_eq (/ k)) by (left; apply Rinv_0_lt_compat; exact K).
      apply (Rmult_le_reg_r k); [exact K|]. rewrite Rmult_assoc, Rinv_l, Rmult_1_r by lra.
      pose proof (COS_bound (par_t k s)). rewrite Rabs_pos_eq by lra.
      assert (N : 1 - cos (par_t k s) <= par_t k s).
      { pose proof (nondecr (fun t => t + cos t) (fun t => 1 - sin t) 0 (par_t k s) TP) as M. cbv beta in M. rewrite cos_0 in M.
        enough (0 + 1 <= par_t k s + cos (par_t k s)) by lra. apply M.
        - intros x _. auto_derive; [exact I|ring].
        - intros x _. pose proof (SIN_bound x). lra. }
      rewrite TK in N at 2. lra. }
    apply hyp_le; [lra|]. unfold par_X, par_Y. fold L.
    apply Rabs_le_between in CX, CY, S1, S2.
    set (a := cl_x s L - sin (par_t k s) / k - 0). set (b := cl_y s L + cos (par_t k s) / k - 1 / k).
    assert (A : -2 * L <= a <= 2 * L) by (unfold a; lra). assert (B : -2 * L <= b <= 2 * L) by (unfold b; lra).
    assert (a ^ 2 <= (2 * L) ^ 2) by (rewrite <- (pow2_abs a); apply pow_incr; split; [apply Rabs_pos|apply Rabs_le; lra]).
    assert (b ^ 2 <= (2 * L) ^ 2) by (rewrite <- (pow2_abs b); apply pow_incr; split; [apply Rabs_pos|apply Rabs_le; lra]). nra.
Qed.

(** ** Angles of a turn *)
Lemma defl_eq c q : deflection c q = twopify (sign (c_forward c) * sign (c_left c) * (q_theta q - q_theta (c_start c))).
Proof.
  unfold deflection. destruct (c_left c), (c_forward c); cbn [andb orb negb sign]; f_equal; ring.
Qed.
Lemma defl_range c q : 0 <= deflection c q < 2 * PI.
Proof. rewrite defl_eq. apply twopify_range. Qed.
Lemma defl_ang c q : ang_eq (q_theta (c_start c) + sign (c_forward c) * sign (c_left c) * deflection c q) (q_theta q).
Proof.
  rewrite defl_eq. set (a := q_theta q - q_theta (c_start c)).
  assert (P : pm1 (sign (c_forward c) * sign (c_left c))) by (apply pm1_mul; apply pm1_sign).
  set (m := sign (c_forward c) * sign (c_left c)) in *.
  assert (A : ang_eq (m * twopify (m * a)) a).
  { destruct P as [->| ->].
    - rewrite !Rmult_1_l. apply twopify_ang.
    - replace (-1 * twopify (-1 * a)) with (- twopify (-1 * a)) by ring. replace a with (- (-1 * a)) at 2 by ring.
      apply ang_eq_opp, twopify_ang. }
  replace (q_theta q) with (q_theta (c_start c) + a) by (unfold a; ring).
  apply ang_eq_add; [apply ang_eq_refl|exact A].
Qed.

Lemma circ_defl_ang reg m d : ang_eq (m + circular_deflection reg (twopify m) d) d.
Proof.
  assert (T : ang_eq (twopify m) m) by apply twopify_ang.
  assert (K : exists n : Z, circular_deflection reg (twopify m) d = d - twopify m + 2 * PI * IZR n).
  { unfold circular_deflection, TWO_PI. destruct reg.
    - destruct (Rlt_dec _ _); [exists 1%Z|exists 0%Z]; lra.
    - destruct (Rlt_dec d (twopify m)); destruct (Rlt_dec _ _); [exists 0%Z|exists 1%Z|exists 0%Z|exists (-1)%Z]; lra. }
  destruct K as [n ->]. destruct T as [z ->]. exists (n - z)%Z. rewrite minus_IZR. ring.
Qed.

(** Bounds of the circular deflection, used for the lengths. *)
Lemma rs_defl_ang c d : ang_eq (rs_circular_deflection c d) d.
Proof.
  unfold rs_circular_deflection. destruct (c_regular c); [apply ang_eq_refl|].
  destruct (Rle_dec d PI); [apply ang_eq_refl|]. exists (-1)%Z. unfold TWO_PI. lra.
Qed.

(** ** Tangency *)
Definition frame (a : Pose) (lx ly : R) : R * R :=
  (px a + lx * cos (pt a) - ly * sin (pt a), py a + lx * sin (pt a) + ly * cos (pt a)).

(** Poses of equal heading whose local centres coincide with that of [c] up to [g] differ by a shift of length [g]. *)
Lemma tangent_shift c q lx ly E : frame E lx ly = (c_xc c, c_yc c) -> ang_eq (pt E) (q_theta q) ->
  exists u v, sqrt (u ^ 2 + v ^ 2) = centre_gap c q lx ly /\ peq (pcf q) (pshift u v E).
Proof.
  intros F A. pose proof (f_equal fst F) as FX. pose proof (f_equal snd F) as FY. cbn [fst snd frame] in FX, FY.
  rewrite (ang_eq_cos _ _ A), (ang_eq_sin _ _ A) in FX, FY.
  exists (q_x q - px E), (q_y q - py E). split.
  - unfold centre_gap. rewrite <- FX, <- FY. f_equal. ring.
  - unfold peq, pcf, pshift; cbn [px py pt]. repeat split; [ring|ring|]. apply ang_eq_sym, A.
Qed.

Lemma sh_norm u v e : sqrt (u ^ 2 + v ^ 2) <= e -> sqrt ((- u) ^ 2 + (- v) ^ 2) <= e.
Proof. replace ((- u) ^ 2) with (u ^ 2) by ring. replace ((- v) ^ 2) with (v ^ 2) by ring. auto. Qed.

Lemma reaches_shift s q u v e E h : peq (pcf q) (pshift u v E) -> peq (pst s) E -> sqrt (u ^ 2 + v ^ 2) <= e -> 0 <= h -> reaches e h s q.
Proof.
  intros (A & B & C) (A' & B' & C') N H. unfold pcf, pst, pshift in *; cbn [px py pt] in *.
  unfold reaches, pos_dist, heading_within, st_of; cbn [st_x st_y st_theta]. split.
  - rewrite A, B, A', B'. eapply Rle_trans; [|exact N]. apply Req_le. f_equal. ring.
  - destruct (ang_eq_trans _ _ _ C' (ang_eq_sym _ _ C)) as [k K]. exists k. rewrite K.
    replace (q_theta q + 2 * PI * IZR k - q_theta q - 2 * PI * IZR k) with 0 by ring. rewrite Rabs_R0. exact H.
Qed.

Lemma circle_fields start l f reg p : let c := circle start l f reg p in
  c_start c = start /\ c_left c = l /\ c_forward c = f /\ c_regular c = reg /\ c_radius c = p_radius p /\ c_mu c = p_mu p /\
  c_sin_mu c = p_sin_mu p /\ c_cos_mu c = p_cos_mu p /\ c_delta_min c = p_delta_min p /\
  c_kappa c = sign l * p_kappa p /\ c_kappa_inv c = sign l * p_kappa_inv p /\ c_sigma c = sign l * p_sigma p /\
  (c_xc c, c_yc c) = frame (pcf start) (sign f * (p_radius p * p_sin_mu p)) (sign l * (p_radius p * p_cos_mu p)).
Proof.
  unfold circle, global_frame_change, frame, pcf, sign.
  destruct l, f; cbn; repeat split; try ring; f_equal; ring.
Qed.

(** ** The turns of a cc-circle *)
Section CC.
  Variables (k s : R) (start : Configuration) (l f reg : bool).
  Hypothesis Hk : 0 < k.
  Hypothesis Hs : 0 < s.
  Let c := circle start l f reg (hc_cc_param k s).
  Let d := sign f.
  Let e := sign l.
  Let X := nom_X k s.
  Let Y := nom_Y k s.
  Let X' := par_X k s.
  Let Y' := par_Y k s.
  Let t := par_t k s.
  Let L := k / s.

  Lemma cc_fields : c_start c = start /\ c_left c = l /\ c_forward c = f /\ c_regular c = reg /\
    c_radius c * c_sin_mu c = X /\ c_radius c * c_cos_mu c = Y /\ c_delta_min c = t /\
    c_kappa c = e * k /\ c_kappa_inv c = e * (1 / k) /\ c_sigma c = e * s /\
    (c_xc c, c_yc c) = frame (pcf start) (d * X) (e * Y).
  Proof.
    pose proof (circle_fields start l f reg (hc_cc_param k s)) as H. cbv zeta in H. fold c in H.
    destruct H as (A1 & A2 & A3 & A4 & A5 & A6 & A7 & A8 & A9 & B1 & B2 & B3 & B4).
    destruct (param_nom k s Hk Hs) as (C1 & C2 & C3 & C4 & C5 & C6 & _).
    rewrite A5, A7, A8, A9, B1, B2, B3, B4, C1, C2, C3, C4, C5, C6. auto 20.
  Qed.

  Lemma L_pos : 0 < L.
  Proof. unfold L. apply Rdiv_lt_0_compat; assumption. Qed.
  Lemma abs_L : Rabs (c_kappa c / c_sigma c) = L.
  Proof.
    destruct cc_fields as (_ & _ & _ & _ & _ & _ & _ & -> & _ & -> & _).
    pose proof (pm1_sign l) as P. fold e in P. replace (e * k / (e * s)) with L; [apply Rabs_pos_eq; pose proof L_pos; lra|].
    unfold L. destruct P as [->| ->]; field; lra.
  Qed.
  Lemma abs_kinv : Rabs (c_kappa_inv c) = 1 / k.
  Proof.
    destruct cc_fields as (_ & _ & _ & _ & _ & _ & _ & _ & -> & _).
    apply abs_pm; [apply pm1_sign|]. apply div_nonneg; lra.
  Qed.

  Lemma pose_move st c1 D1 D2 cs : peq (pst (lib_move st c1)) (pmul (pst st) D1) ->
    peq (pst (lib_path (lib_move st c1) cs)) (pmul (pst (lib_move st c1)) D2) ->
    peq (pst (lib_path st (c1 :: cs))) (pmul (pst st) (pmul D1 D2)).
  Proof.
    intros A B. cbn [lib_path fold_left]. eapply peq_trans; [exact B|]. rewrite <- pmul_assoc. apply pmul_congr_l, A.
  Qed.

  (** Displacement of the default turn of deflection [dl], driven in direction [D]. *)
  Lemma default_disp st dl o : let D := direction f o in
    peq (pst (lib_path st (cc_default_controls c dl o))) (pmul (pst st) (mir D e (D_cc X' Y' dl))) /\
    st_kappa (lib_path st (cc_default_controls c dl o)) = 0.
  Proof.
    intros D. assert (PD : pm1 D) by (unfold D; rewrite pm1_direction; apply pm1_mul; apply pm1_sign).
    assert (PE : pm1 e) by apply pm1_sign.
    unfold cc_default_controls. rewrite abs_L, abs_kinv. unfold cc_circular_deflection.
    destruct cc_fields as (_ & _ & EF & _ & _ & _ & -> & -> & _ & -> & _). rewrite EF. fold D.
    set (be := circular_deflection (c_regular c) (twopify (2 * t)) dl).
    assert (BA : ang_eq (2 * t + be) dl) by apply circ_defl_ang.
    pose proof L_pos as LP.
    assert (KE : e * (s * L) = e * k) by (unfold L; field; lra).
    set (c1 := mkControl (D * L) 0 (e * s)). set (c2 := mkControl (D * (1 / k * be)) (e * k) 0).
    set (c3 := mkControl (D * L) (e * k) (- (e * s))).
    destruct (move_in st D e s L PD PE Hs LP) as [M1 _]. fold c1 in M1.
    destruct (move_arc (lib_move st c1) D e k (1 / k * be) PD PE Hk) as [M2 _]. fold c2 in M2.
    destruct (move_out (lib_move (lib_move st c1) c2) D e s L PD PE Hs LP) as [M3 K3]. rewrite KE in M3, K3. fold c3 in M3, K3.
    split; [|exact K3].
    replace (k * (1 / k * be)) with be in M2 by (field; lra).
    eapply peq_trans.
    - eapply pose_move; [exact M1|]. eapply pose_move; [exact M2|]. cbn [lib_path fold_left]. exact M3.
    - apply pmul_congr_r. rewrite !(mir_mul D e) by assumption. apply mir_congr; [assumption|assumption|].
      rewrite <- pmul_assoc, (D_cc_eq _ _ _ k be Hk). fold L t. change (cl_t s L) with t.
      change (cl_x s L - sin t / k) with X'. change (cl_y s L + cos t / k) with Y'.
      unfold peq, D_cc; cbn [px py pt]. rewrite (ang_eq_cos _ _ BA), (ang_eq_sin _ _ BA). auto.
  Qed.

  (** The turn ends at [q] up to the tangency error. *)
  Lemma cc_end_shift g q : cc_tangent g c q ->
    exists u v, sqrt (u ^ 2 + v ^ 2) <= g /\ peq (pcf q) (pshift u v (pmul (pcf start) (mir d e (D_cc X Y (deflection c q))))).
  Proof.
    unfold cc_tangent. destruct cc_fields as (ES & EL & EF & _ & -> & -> & _ & _ & _ & _ & EC). rewrite EL, EF. fold d e. intros G.
    set (E := pmul (pcf start) (mir d e (D_cc X Y (deflection c q)))).
    assert (PD : pm1 d) by apply pm1_sign. assert (PE : pm1 e) by apply pm1_sign.
    destruct (tangent_shift c q (- d * X) (e * Y) E) as (u & v & N & P).
    - rewrite EC. unfold frame, E, pmul, mir, D_cc, pcf; cbn [px py pt]. rewrite cos_plus, sin_plus, (cos_pm (d * e)), (sin_pm (d * e)) by (apply pm1_mul; assumption).
      destruct PD as [->| ->], PE as [->| ->]; f_equal; ring.
    - unfold E, pmul, mir, D_cc, pcf; cbn [px py pt]. pose proof (defl_ang c q) as A. rewrite ES, EL, EF in A. exact A.
    - exists u, v. split; [rewrite N; exact G|exact P].
  Qed.

  (** The true turn against that of the nominal circle. *)
  Lemma slack_shift a dl : exists u v, hyp u v <= 2 * param_slack k s /\
    pmul a (mir d e (D_cc X Y dl)) = pshift u v (pmul a (mir d e (D_cc X' Y' dl))).
  Proof.
    set (M := mir d e (D_cc X Y dl)). set (M' := mir d e (D_cc X' Y' dl)).
    exists ((px M - px M') * cos (pt a) - (py M - py M') * sin (pt a)), ((px M - px M') * sin (pt a) + (py M - py M') * cos (pt a)). split.
    - rewrite hyp_rot. unfold M, M', mir, D_cc; cbn [px py pt].
      assert (PD : pm1 d) by apply pm1_sign. assert (PE : pm1 e) by apply pm1_sign.
      pose proof (nom_gap k s Hk Hs) as G. fold X Y X' Y' in G. fold (hyp (X' - X) (Y' - Y)) in G.
      set (a1 := X' - X) in *. set (b1 := Y' - Y) in *.
      replace (d * (X + X * cos dl + Y * sin dl) - d * (X' + X' * cos dl + Y' * sin dl)) with (- d * a1 + - d * (a1 * cos dl + b1 * sin dl)) by (unfold a1, b1; ring).
      replace (e * (Y + X * sin dl - Y * cos dl) - e * (Y' + X' * sin dl - Y' * cos dl)) with (- e * b1 + - e * (a1 * sin dl - b1 * cos dl)) by (unfold a1, b1; ring).
      eapply Rle_trans; [apply hyp_add|]. rewrite !hyp_pm by (apply pm1_opp; assumption). rewrite hyp_refl. lra.
    - unfold pshift, pmul; cbn [px py pt]. f_equal; ring.
  Qed.
  Lemma cc_end_shift' g q : cc_tangent g c q ->
    exists u v, hyp u v <= g + 2 * param_slack k s /\ peq (pcf q) (pshift u v (pmul (pcf start) (mir d e (D_cc X' Y' (deflection c q))))).
  Proof.
    intros G. destruct (cc_end_shift g q G) as (u & v & N & P). destruct (slack_shift (pcf start) (deflection c q)) as (u' & v' & N' & P').
    rewrite P' in P. exists (u' + u), (v' + v). split; [eapply Rle_trans; [apply hyp_add|]; unfold hyp at 2; lra|].
    eapply peq_trans; [exact P|]. apply peq_eq. unfold pshift; cbn [px py pt]. f_equal; ring.
  Qed.

  Lemma default_reaches g q : cc_tangent g c q -> reaches (g + 2 * param_slack k s) 0 (lib_path (st_of start) (cc_default_controls c (deflection c q) true)) q.
  Proof.
    intros G. destruct (cc_end_shift' g q G) as (u & v & N & P).
    destruct (default_disp (st_of start) (deflection c q) true) as [Q _].
    replace (direction f true) with d in Q by (rewrite pm1_direction; unfold d; cbn; ring).
    eapply reaches_shift; [exact P|exact Q|exact N|lra].
  Qed.
  Lemma default_returns g q : cc_tangent g c q -> reaches (g + 2 * param_slack k s) 0 (lib_path (st_of q) (cc_default_controls c (deflection c q) false)) start.
  Proof.
    intros G. destruct (cc_end_shift' g q G) as (u & v & N & P).
    destruct (default_disp (st_of q) (deflection c q) false) as [Q _].
    replace (direction f false) with (- d) in Q by (rewrite pm1_direction; unfold d; cbn; ring).
    assert (R : peq (pst (lib_path (st_of q) (cc_default_controls c (deflection c q) false))) (pshift u v (pcf start))).
    { eapply peq_trans; [exact Q|]. change (pst (st_of q)) with (pcf q). eapply peq_trans; [apply pmul_congr_l, P|].
      rewrite pmul_shift. apply pshift_congr. rewrite pmul_assoc. rewrite D_cc_chord.
      rewrite chord_back by apply pm1_sign. rewrite pmul_id_r. apply peq_refl. }
    apply (reaches_shift _ start (- u) (- v) (g + 2 * param_slack k s) (pshift u v (pcf start)) 0); [|exact R|apply sh_norm; exact N|lra].
    unfold peq, pshift, pcf; cbn [px py pt]. repeat split; [ring|ring|apply ang_eq_refl].
  Qed.

  (** The chord. *)
  Let A (dl : R) := 2 * (X * cos (dl / 2) + Y * sin (dl / 2)).
  Lemma chord_G dl : epsilon < k / s -> A dl = 2 * sqrt (PI / s) * (Ul (par_w k s) * cos (dl / 2) + Vl (par_w k s) * sin (dl / 2)).
  Proof.
    intros HL. unfold A, X, Y, nom_X, nom_Y. destruct (Rlt_dec epsilon (k / s)); [|contradiction].
    rewrite par_X_U, par_Y_V by assumption. ring.
  Qed.

  Lemma chord_D1 dl : epsilon <= dl <= 2 * al -> dl <= 2 * t ->
    D1 (1 / 2 * dl) - 1 / 10 ^ 14 <= Ul (par_w k s) * cos (dl / 2) + Vl (par_w k s) * sin (dl / 2).
  Proof.
    intros B1 B2. pose proof PI_gt as P. unfold epsilon in B1. set (phi := dl / 2). replace (1 / 2 * dl) with phi by (unfold phi; field).
    set (w0 := sqrt (2 * phi / PI)). assert (XW : xx w0 = phi) by (apply xx_root; unfold phi; lra).
    assert (W0 : 0 < w0) by (apply sqrt_lt_R0, Rdiv_lt_0_compat; unfold phi; lra).
    pose proof (par_w_pos k s Hk Hs) as WP. pose proof (par_xx k s Hk Hs) as WX. fold t in WX. set (w := par_w k s) in *.
    assert (WW : w0 <= w).
    { destruct (Rle_dec w0 w) as [?|N]; [assumption|]. exfalso. pose proof (xx_lt w w0 ltac:(lra)) as Q. rewrite XW, WX in Q. unfold phi in Q. lra. }
    pose proof (G_mono w0 w phi (conj W0 WW) XW) as G. rewrite (G_D1 w0 phi W0 XW) in G.
    pose proof (D1_T1 phi ltac:(unfold phi; lra)) as E. fold w0 in E. unfold T1 in E. rewrite XW in E. apply Rabs_le_between in E.
    pose proof (accuracy w) as [AC AS]. apply Rabs_le_between in AC, AS.
    assert (UU : Rabs (Ul w - U w) <= 2 / 10 ^ 15) by (unfold Ul, U; apply Rabs_le; lra).
    assert (VV : Rabs (Vl w - V w) <= 2 / 10 ^ 15) by (unfold Vl, V; apply Rabs_le; lra).
    pose proof (COS_bound phi). pose proof (SIN_bound phi).
    assert (Q1 : Rabs ((Ul w - U w) * cos phi) <= 2 / 10 ^ 15 * 1) by (rewrite Rabs_mult; apply Rmult_le_compat; auto using Rabs_pos; apply Rabs_le; lra).
    assert (Q2 : Rabs ((Vl w - V w) * sin phi) <= 2 / 10 ^ 15 * 1) by (rewrite Rabs_mult; apply Rmult_le_compat; auto using Rabs_pos; apply Rabs_le; lra).
    apply Rabs_le_between in Q1, Q2. lra.
  Qed.

  Lemma chord_pos dl : epsilon <= dl <= 2 * al -> dl <= 2 * t -> 0 < A dl.
  Proof.
    intros B1 B2. pose proof PI_gt. destruct (Rlt_dec epsilon (k / s)) as [HL|HL].
    2:{ unfold A, X, Y, nom_X, nom_Y. destruct (Rlt_dec epsilon (k / s)); [contradiction|]. unfold al, epsilon in B1. pose proof PI_bounds.
        assert (0 < sin (dl / 2)) by (apply sin_gt_0; lra). assert (0 < 1 / k) by (apply Rdiv_lt_0_compat; lra).
        rewrite Rmult_0_l, Rplus_0_l. apply Rmult_lt_0_compat; [lra|]. apply Rmult_lt_0_compat; assumption. }
    rewrite chord_G by exact HL. pose proof (chord_D1 dl B1 B2) as C.
    pose proof (D1_pos (1 / 2 * dl) ltac:(lra)). apply Rmult_lt_0_compat; [|lra].
    apply Rmult_lt_0_compat; [lra|]. apply sqrt_lt_R0, Rdiv_lt_0_compat; lra.
  Qed.

  Lemma elem_root (D1v ds : R) : 0 < D1v -> 0 < ds -> sqrt (PI / (4 * PI * D1v ^ 2 / ds ^ 2)) = ds / (2 * D1v).
  Proof.
    intros HD HD2. pose proof PI_gt.
    replace (PI / (4 * PI * D1v ^ 2 / ds ^ 2)) with ((ds / (2 * D1v)) ^ 2) by (field; lra).
    apply sqrt_pow2. apply div_nonneg; lra.
  Qed.

  (** Displacement of the elementary path for the distance [ds]. *)
  Lemma elem_disp st dl ds o : let D := direction f o in let s0 := 4 * PI * (D1 (1 / 2 * dl)) ^ 2 / ds ^ 2 in
    0 < dl -> 0 < ds -> 0 < D1 (1 / 2 * dl) ->
    let cs := [mkControl (D * sqrt (dl / s0)) 0 (e * s0); mkControl (D * sqrt (dl / s0)) (e * s0 * sqrt (dl / s0)) (- (e * s0))] in
    peq (pst (lib_path st cs)) (pmul (pst st) (mir D e (mkPose (ds * cos (dl / 2)) (ds * sin (dl / 2)) dl))) /\ st_kappa (lib_path st cs) = 0.
  Proof.
    intros D s0 B DS DP cs. pose proof PI_gt as P.
    assert (PD : pm1 D) by (unfold D; rewrite pm1_direction; apply pm1_mul; apply pm1_sign).
    assert (PE : pm1 e) by apply pm1_sign.
    assert (S0 : 0 < s0). { unfold s0. apply Rdiv_lt_0_compat; [|apply pow_lt; exact DS]. apply Rmult_lt_0_compat; [lra|apply pow_lt; exact DP]. }
    set (L0 := sqrt (dl / s0)) in *. assert (LP : 0 < L0) by (apply sqrt_lt_R0, Rdiv_lt_0_compat; lra).
    assert (LQ : L0 * L0 = dl / s0) by (apply sqrt_sqrt, div_nonneg; lra).
    set (c1 := mkControl (D * L0) 0 (e * s0)). set (c2 := mkControl (D * L0) (e * s0 * L0) (- (e * s0))).
    destruct (move_in st D e s0 L0 PD PE S0 LP) as [M1 _]. fold c1 in M1.
    destruct (move_out (lib_move st c1) D e s0 L0 PD PE S0 LP) as [M2 K2].
    replace (e * (s0 * L0)) with (e * s0 * L0) in M2, K2 by ring. fold c2 in M2, K2.
    split; [|exact K2].
    eapply peq_trans; [eapply pose_move; [exact M1|]; cbn [lib_path fold_left]; exact M2|].
    apply pmul_congr_r. rewrite (mir_mul D e) by assumption. rewrite D_el_eq.
    assert (TT : cl_t s0 L0 = dl / 2). { unfold cl_t. replace (L0 ^ 2) with (L0 * L0) by ring. rewrite LQ. field. lra. }
    assert (WW : sqrt (s0 / PI) * L0 = sqrt (2 * (1 / 2 * dl) / PI)).
    { unfold L0. rewrite <- sqrt_mult by (apply div_nonneg; lra). f_equal. field. lra. }
    assert (CH : 2 * (cos (cl_t s0 L0) * cl_x s0 L0 + sin (cl_t s0 L0) * cl_y s0 L0) = ds).
    { rewrite TT. unfold cl_x, cl_y. rewrite WW. unfold s0. rewrite (elem_root _ ds DP DS).
      replace (dl / 2) with (1 / 2 * dl) by field.
      transitivity (2 * (ds / (2 * D1 (1 / 2 * dl))) * D1 (1 / 2 * dl)); [unfold D1 at 4; cbv zeta; ring|field; lra]. }
    rewrite CH, TT. replace (2 * (dl / 2)) with dl by field. apply peq_refl.
  Qed.

  (** The position of [q] is, up to [g], at the end of the chord. *)
  Lemma chord_end g q : cc_tangent g c q -> let dl := deflection c q in
    exists u v, hyp u v <= g /\
      q_x q = q_x start + d * A dl * cos (q_theta start + d * e * (dl / 2)) + u /\
      q_y q = q_y start + d * A dl * sin (q_theta start + d * e * (dl / 2)) + v.
  Proof.
    intros G dl. destruct (cc_end_shift g q G) as (u & v & N & P). fold dl in P. exists u, v. split; [exact N|].
    destruct P as (PX & PY & _). rewrite D_cc_chord in PX, PY. fold (A dl) in PX, PY.
    unfold pcf, pshift, pmul, mir in PX, PY; cbn [px py pt] in PX, PY.
    assert (PD : pm1 d) by apply pm1_sign. assert (PE : pm1 e) by apply pm1_sign.
    rewrite PX, PY. rewrite cos_plus, sin_plus, (cos_pm (d * e)), (sin_pm (d * e)) by (apply pm1_mul; assumption).
    destruct PD as [->| ->], PE as [->| ->]; split; ring.
  Qed.

  Lemma chord_dist g q : cc_tangent g c q -> let dl := deflection c q in
    Rabs (point_distance (q_x start) (q_y start) (q_x q) (q_y q) - Rabs (A dl)) <= g.
  Proof.
    intros G dl. destruct (chord_end g q G) as (u & v & N & EX & EY). fold dl in EX, EY.
    unfold point_distance. fold (hyp (q_x q - q_x start) (q_y q - q_y start)). rewrite EX, EY.
    set (th := q_theta start + d * e * (dl / 2)).
    replace (q_x start + d * A dl * cos th + u - q_x start) with (d * A dl * cos th + u) by ring.
    replace (q_y start + d * A dl * sin th + v - q_y start) with (d * A dl * sin th + v) by ring.
    rewrite <- (abs_pm1 d (A dl)) by apply pm1_sign. rewrite <- (hyp_polar (d * A dl) th).
    eapply Rle_trans; [apply hyp_sub|exact N].
  Qed.

  Lemma radius_hyp : c_radius c = hyp X Y.
  Proof.
    pose proof (circle_fields start l f reg (hc_cc_param k s)) as H. cbv zeta in H. fold c in H.
    destruct H as (_ & _ & _ & _ & -> & _). destruct (param_nom k s Hk Hs) as (_ & _ & _ & _ & _ & _ & -> & _). reflexivity.
  Qed.
  Lemma chord_radius dl : Rabs (A dl) <= 2 * c_radius c.
  Proof.
    rewrite radius_hyp. unfold A. rewrite Rabs_mult, (Rabs_pos_eq 2) by lra. apply Rmult_le_compat_l; [lra|].
    assert (ONE : hyp (cos (dl / 2)) (sin (dl / 2)) = 1).
    { rewrite <- (Rmult_1_l (cos _)), <- (Rmult_1_l (sin _)), hyp_polar. apply Rabs_R1. }
    pose proof (hyp_dot X Y (cos (dl / 2)) (sin (dl / 2))) as P. pose proof (hyp_dot (- X) (- Y) (cos (dl / 2)) (sin (dl / 2))) as Q.
    rewrite hyp_opp in Q. rewrite ONE in P, Q. apply Rabs_le. lra.
  Qed.

  Lemma pose_shift_add u v u' v' a : pshift u v (pshift u' v' a) = pshift (u' + u) (v' + v) a.
  Proof. unfold pshift; cbn [px py pt]. f_equal; ring. Qed.

  (** The chord of the measured length [ds] ends within twice the tangency error of [q]. *)
  Lemma chord_shift g q : cc_tangent g c q -> let dl := deflection c q in let ds := point_distance (q_x start) (q_y start) (q_x q) (q_y q) in
    0 < A dl -> exists u v, hyp u v <= 2 * g /\
      peq (pcf q) (pshift u v (pmul (pcf start) (mir d e (mkPose (ds * cos (dl / 2)) (ds * sin (dl / 2)) dl)))).
  Proof.
    intros G dl ds AP. destruct (cc_end_shift g q G) as (u & v & N & P). fold dl in P.
    pose proof (chord_dist g q G) as DD. cbv zeta in DD. fold dl ds in DD. rewrite (Rabs_pos_eq (A dl)) in DD by lra.
    rewrite D_cc_chord in P. fold (A dl) in P.
    assert (PD : pm1 d) by apply pm1_sign. assert (PE : pm1 e) by apply pm1_sign.
    set (th := q_theta start + d * e * (dl / 2)).
    exists (u + d * (A dl - ds) * cos th), (v + d * (A dl - ds) * sin th). split.
    - eapply Rle_trans; [apply hyp_add|]. rewrite hyp_polar, (abs_pm1 d) by assumption.
      rewrite Rabs_minus_sym in DD. unfold hyp. lra.
    - eapply peq_trans; [exact P|]. apply peq_eq. unfold pshift, pmul, mir, pcf; cbn [px py pt]. unfold th.
      rewrite cos_plus, sin_plus, (cos_pm (d * e)), (sin_pm (d * e)) by (apply pm1_mul; assumption).
      destruct PD as [->| ->], PE as [->| ->]; f_equal; ring.
  Qed.

  Lemma elem_some q dl o cs : cc_elementary_controls c q dl o = Some cs ->
    let D := direction f o in let ds := point_distance (q_x start) (q_y start) (q_x q) (q_y q) in
    let s0 := 4 * PI * (D1 (1 / 2 * dl)) ^ 2 / ds ^ 2 in
    dl < 45948 / 10000 /\ epsilon < ds /\
    (0 < s0 -> cs = [mkControl (D * sqrt (dl / s0)) 0 (e * s0); mkControl (D * sqrt (dl / s0)) (e * s0 * sqrt (dl / s0)) (- (e * s0))]).
  Proof.
    unfold cc_elementary_controls, cc_elementary_sharpness. destruct cc_fields as (-> & -> & -> & _).
    set (ds := point_distance _ _ _ _). unfold Rltb.
    destruct (Rlt_dec dl (45948 / 10000)) as [A1|_]; [|discriminate]. destruct (Rlt_dec epsilon ds) as [A2|_]; [|discriminate].
    cbv beta iota zeta delta [andb]. intros H. apply (f_equal (fun o => match o with Some x => x | None => [] end)) in H. cbv beta iota in H. split; [exact A1|split; [exact A2|]]. intros S0. rewrite <- H.
    set (s0 := 4 * PI * D1 (1 / 2 * dl) ^ 2 / ds ^ 2) in *.
    assert (E : (if l then s0 else - s0) = e * s0) by (unfold e, sign; destruct l; ring). rewrite E.
    assert (F : Rabs (e * s0) = s0) by (apply abs_pm; [apply pm1_sign|lra]). rewrite F. reflexivity.
  Qed.

  Lemma elem_s0_pos ds dl : 0 < ds -> 0 < D1 (1 / 2 * dl) -> 0 < 4 * PI * (D1 (1 / 2 * dl)) ^ 2 / ds ^ 2.
  Proof.
    intros DS DP. pose proof PI_gt. apply Rdiv_lt_0_compat; [|apply pow_lt; exact DS]. apply Rmult_lt_0_compat; [lra|apply pow_lt; exact DP].
  Qed.

  Lemma elem_ends g q o cs : cc_tangent g c q -> let dl := deflection c q in epsilon <= dl -> dl < 2 * t ->
    cc_elementary_controls c q dl o = Some cs ->
    if o then reaches (2 * g) 0 (lib_path (st_of start) cs) q else reaches (2 * g) 0 (lib_path (st_of q) cs) start.
  Proof.
    intros G dl B1 B2 E. destruct (elem_some q dl o cs E) as (C1 & C2 & C3). cbv zeta in C2, C3.
    set (ds := point_distance _ _ _ _) in *. unfold epsilon in B1, C2.
    assert (AL : dl <= 2 * al) by (unfold al; lra). assert (EP : epsilon <= dl <= 2 * al) by (unfold epsilon; lra).
    pose proof (D1_pos (1 / 2 * dl) ltac:(unfold epsilon; lra)) as DP. pose proof (chord_pos dl EP ltac:(lra)) as AP.
    rewrite (C3 (elem_s0_pos ds dl ltac:(lra) ltac:(lra))).
    destruct (chord_shift g q G AP) as (u & v & N & P). fold dl ds in P.
    destruct (elem_disp (st_of (if o then start else q)) dl ds o ltac:(lra) ltac:(lra) ltac:(lra)) as [Q _].
    destruct o.
    - replace (direction f true) with d in Q |- * by (rewrite pm1_direction; unfold d; cbn; ring).
      eapply reaches_shift; [exact P|exact Q|exact N|lra].
    - replace (direction f false) with (- d) in Q |- * by (rewrite pm1_direction; unfold d; cbn; ring).
      eapply (reaches_shift _ start (- u) (- v) (2 * g) (pshift u v (pcf start)) 0); [| |apply sh_norm; exact N|lra].
      + unfold peq, pshift, pcf; cbn [px py pt]. repeat split; [ring|ring|apply ang_eq_refl].
      + eapply peq_trans; [exact Q|]. change (pst (st_of q)) with (pcf q). eapply peq_trans; [apply pmul_congr_l, P|].
        rewrite pmul_shift. apply pshift_congr. rewrite pmul_assoc. rewrite chord_back by apply pm1_sign. rewrite pmul_id_r. apply peq_refl.
  Qed.

  (** The straight line of the shortcut. *)
  Lemma shortcut_ends g q (o : bool) : cc_tangent g c q -> let dl := deflection c q in dl < epsilon ->
    if o then reaches (3 / 2 * (g + c_radius c * dl)) dl (lib_path (st_of start) (straight_controls start q)) q
    else reaches (3 / 2 * (g + c_radius c * dl)) dl (lib_path (st_of q) (straight_controls q start)) start.
  Proof.
    intros G dl B. pose proof (defl_range c q) as DR. fold dl in DR. pose proof (defl_ang c q) as DA. fold dl in DA.
    destruct cc_fields as (ES & EL & EF & _). rewrite ES, EL, EF in DA. fold d e in DA. clear ES EL EF.
    destruct (chord_end g q G) as (u & v & N & EX & EY). fold dl in EX, EY.
    pose proof (chord_radius dl) as CR. assert (PD : pm1 d) by apply pm1_sign. assert (PE : pm1 e) by apply pm1_sign.
    pose proof (hyp_pos X Y) as RP. rewrite <- radius_hyp in RP.
    assert (SL : Rabs (sin (dl / 2)) <= dl / 2).
    { rewrite Rabs_pos_eq; [apply sin_le; lra|]. apply sin_ge_0; lra. }
    assert (AS : Rabs (A dl * sin (dl / 2)) <= c_radius c * dl).
    { rewrite Rabs_mult. replace (c_radius c * dl) with (2 * c_radius c * (dl / 2)) by field. apply Rmult_le_compat; auto using Rabs_pos. }
    assert (LAT : forall a b th, hyp a b <= g -> Rabs (b * cos th - a * sin th) <= g).
    { intros a b th H. eapply Rle_trans; [|exact H].
      pose proof (hyp_dot a b (- sin th) (cos th)) as H1. pose proof (hyp_dot a b (sin th) (- cos th)) as H2.
      assert (O1 : hyp (- sin th) (cos th) = 1) by (apply hyp_eq; [lra|]; pose proof (sin2_cos2' th); nra).
      assert (O2 : hyp (sin th) (- cos th) = 1) by (apply hyp_eq; [lra|]; pose proof (sin2_cos2' th); nra).
      rewrite O1 in H1. rewrite O2 in H2. apply Rabs_le. lra. }
    assert (HEAD : forall a b, ang_eq a b -> exists z : Z, Rabs (a - b - 2 * PI * IZR z) <= 0).
    { intros a b [z ->]. exists z. replace (b + 2 * PI * IZR z - b - 2 * PI * IZR z) with 0 by ring. rewrite Rabs_R0. lra. }
    destruct o; unfold reaches, straight_controls, lib_path; cbn [fold_left]; unfold lib_move, drive; cbn [ct_delta_s ct_kappa ct_sigma];
      (destruct (Req_EM_T 0 0) as [_|NN]; [|lra]); (destruct (Req_EM_T 0 0) as [_|NN]; [|lra]); unfold pos_dist, heading_within, st_of; cbn [st_x st_y st_theta].
    - set (th := q_theta start) in *. split.
      + set (vx := q_x q - q_x start). set (vy := q_y q - q_y start).
        pose proof (straight_miss vx vy th) as M. cbv zeta in M.
        unfold point_distance. fold vx vy. fold (hyp vx vy).
        set (DD := sgn (cos th * vx + sin th * vy) * hyp vx vy) in *.
        eapply Rle_trans; [|eapply Rle_trans; [exact M|]].
        * unfold hyp at 1. apply Req_le. f_equal. unfold vx, vy. ring.
        * apply Rmult_le_compat_l; [lra|].
          replace (vy * cos th - vx * sin th) with ((v * cos th - u * sin th) + d * (d * e) * (A dl * sin (dl / 2))).
          -- eapply Rle_trans; [apply Rabs_triang|]. apply Rplus_le_compat; [apply LAT; exact N|].
             rewrite (abs_pm1 (d * (d * e))); [exact AS|]. apply pm1_mul; [|apply pm1_mul]; assumption.
          -- unfold vx, vy. rewrite EX, EY. rewrite cos_plus, sin_plus, (cos_pm (d * e)), (sin_pm (d * e)) by (apply pm1_mul; assumption).
             pose proof (sin2_cos2' th) as T.
             transitivity (v * cos th - u * sin th + d * A dl * (d * e) * sin (dl / 2) * (sin th * sin th + cos th * cos th)); [rewrite T; ring|ring].
      + destruct (HEAD _ _ DA) as [z Z]. exists z. assert (DE : pm1 (d * e)) by (apply pm1_mul; assumption).
        apply Rabs_le_between in Z. apply Rabs_le. destruct DE as [DE|DE]; rewrite DE in Z; lra.
    - set (th := q_theta q) in *. split.
      + set (vx := q_x start - q_x q). set (vy := q_y start - q_y q).
        pose proof (straight_miss vx vy th) as M. cbv zeta in M.
        unfold point_distance. fold vx vy. fold (hyp vx vy).
        set (DD := sgn (cos th * vx + sin th * vy) * hyp vx vy) in *.
        eapply Rle_trans; [|eapply Rle_trans; [exact M|]].
        * unfold hyp at 1. apply Req_le. f_equal. unfold vx, vy. ring.
        * apply Rmult_le_compat_l; [lra|].
          assert (HH : ang_eq (q_theta start + d * e * (dl / 2)) (th - d * e * (dl / 2))).
          { replace (q_theta start + d * e * (dl / 2)) with (q_theta start + d * e * dl - d * e * (dl / 2)) by field.
            apply ang_eq_sub; [exact DA|apply ang_eq_refl]. }
          rewrite (ang_eq_cos _ _ HH) in EX. rewrite (ang_eq_sin _ _ HH) in EY.
          replace (vy * cos th - vx * sin th) with (- (v * cos th - u * sin th) + d * (d * e) * (A dl * sin (dl / 2))).
          -- eapply Rle_trans; [apply Rabs_triang|]. apply Rplus_le_compat; [rewrite Rabs_Ropp; apply LAT; exact N|].
             rewrite (abs_pm1 (d * (d * e))); [exact AS|]. apply pm1_mul; [|apply pm1_mul]; assumption.
          -- unfold vx, vy. rewrite EX, EY. rewrite cos_minus, sin_minus, (cos_pm (d * e)), (sin_pm (d * e)) by (apply pm1_mul; assumption).
             pose proof (sin2_cos2' th) as T.
             transitivity (- (v * cos th - u * sin th) + d * A dl * (d * e) * sin (dl / 2) * (sin th * sin th + cos th * cos th)); [rewrite T; ring|ring].
      + destruct (HEAD _ _ DA) as [z Z]. exists (- z)%Z. rewrite opp_IZR. assert (DE : pm1 (d * e)) by (apply pm1_mul; assumption).
        apply Rabs_le_between in Z. apply Rabs_le. destruct DE as [DE|DE]; rewrite DE in Z; lra.
  Qed.

  Lemma reaches_weaken e1 e2 h1 h2 st q : reaches e1 h1 st q -> e1 <= e2 -> h1 <= h2 -> reaches e2 h2 st q.
  Proof. intros [P (z & Q)] E H. split; [lra|]. exists z. lra. Qed.

  (** The heading that a cc-turn ignores. *)
  Lemma cc_turn_ends g q (o : bool) : cc_tangent g c q -> let z := cc_shortcut c q in
    if o then reaches (2 * g + 2 * param_slack k s + 3 / 2 * (c_radius c * z)) z (lib_path (st_of start) (cc_turn_controls c q true)) q
    else reaches (2 * g + 2 * param_slack k s + 3 / 2 * (c_radius c * z)) z (lib_path (st_of q) (cc_turn_controls c q false)) start.
  Proof.
    intros G z. assert (G0 : 0 <= g) by (eapply Rle_trans; [|exact G]; apply sqrt_pos).
    assert (SP : 0 <= param_slack k s) by (eapply Rle_trans; [|apply nom_gap; assumption]; apply sqrt_pos).
    pose proof (hyp_pos X Y) as RP. rewrite <- radius_hyp in RP. pose proof (defl_range c q) as DR.
    assert (DEF : forall o : bool, z = 0 -> if o then reaches (2 * g + 2 * param_slack k s + 3 / 2 * (c_radius c * z)) z (lib_path (st_of start) (cc_default_controls c (deflection c q) true)) q
       else reaches (2 * g + 2 * param_slack k s + 3 / 2 * (c_radius c * z)) z (lib_path (st_of q) (cc_default_controls c (deflection c q) false)) start).
    { intros o' Z. rewrite Z. destruct o'.
      - eapply reaches_weaken; [apply default_reaches; exact G|lra|lra].
      - eapply reaches_weaken; [apply default_returns; exact G|lra|lra]. }
    unfold cc_turn_controls. unfold cc_shortcut in z. destruct (Rlt_dec (deflection c q) epsilon) as [SC|SC].
    - destruct cc_fields as (-> & _). pose proof (shortcut_ends g q o G SC) as H. destruct o;
      (eapply reaches_weaken; [exact H|unfold z; lra|unfold z; lra]).
    - assert (Z : z = 0) by reflexivity. destruct cc_fields as (_ & _ & _ & _ & _ & _ & -> & _).
      destruct (Rlt_dec (deflection c q) (2 * t)) as [B|B]; [|destruct o; [apply (DEF true Z)|apply (DEF false Z)]].
      pose proof (DEF o Z) as DF. rewrite Z in DF |- *. destruct o.
      + destruct (cc_elementary_controls c q (deflection c q) true) as [cs|] eqn:EC; [|exact DF].
        cbv zeta. destruct (Rlt_dec _ _); [|exact DF].
        eapply reaches_weaken; [apply (elem_ends g q true cs G ltac:(lra) B EC)|lra|lra].
      + destruct (cc_elementary_controls c q (deflection c q) false) as [cs|] eqn:EC; [|exact DF].
        cbv zeta. destruct (Rlt_dec _ _); [|exact DF].
        eapply reaches_weaken; [apply (elem_ends g q false cs G ltac:(lra) B EC)|lra|lra].
  Qed.

  (** ** hc-turns *)
  Lemma hc_end_shift g q : hc_tangent g c q ->
    exists u v, sqrt (u ^ 2 + v ^ 2) <= g /\ peq (pcf q) (pshift u v (pmul (pcf start) (mir d e (D_hc X Y k (deflection c q))))).
  Proof.
    unfold hc_tangent. destruct cc_fields as (ES & EL & EF & _ & _ & _ & _ & EK & _ & _ & EC). rewrite EK. intros G.
    set (E := pmul (pcf start) (mir d e (D_hc X Y k (deflection c q)))).
    assert (PD : pm1 d) by apply pm1_sign. assert (PE : pm1 e) by apply pm1_sign.
    destruct (tangent_shift c q 0 (1 / (e * k)) E) as (u & v & N & P).
    - rewrite EC. unfold frame, E, pmul, mir, D_hc, pcf; cbn [px py pt]. rewrite cos_plus, sin_plus, (cos_pm (d * e)), (sin_pm (d * e)) by (apply pm1_mul; assumption).
      destruct PD as [->| ->], PE as [->| ->]; f_equal; field; lra.
    - unfold E, pmul, mir, D_hc, pcf; cbn [px py pt]. pose proof (defl_ang c q) as Q. rewrite ES, EL, EF in Q. exact Q.
    - exists u, v. split; [rewrite N; exact G|exact P].
  Qed.

  Lemma hc_end_shift' g q : hc_tangent g c q ->
    exists u v, hyp u v <= g + param_slack k s /\ peq (pcf q) (pshift u v (pmul (pcf start) (mir d e (D_hc X' Y' k (deflection c q))))).
  Proof.
    intros G. destruct (hc_end_shift g q G) as (u & v & N & P). set (dl := deflection c q) in *. set (th := q_theta start).
    pose proof (nom_gap k s Hk Hs) as GG. fold X Y X' Y' in GG. fold (hyp (X' - X) (Y' - Y)) in GG.
    exists (u + (- d * (X' - X) * cos th - - e * (Y' - Y) * sin th)), (v + (- d * (X' - X) * sin th + - e * (Y' - Y) * cos th)). split.
    - eapply Rle_trans; [apply hyp_add|]. rewrite hyp_rot, hyp_pm by (apply pm1_opp, pm1_sign). unfold hyp at 1. lra.
    - eapply peq_trans; [exact P|]. apply peq_eq. unfold pshift, pmul, mir, D_hc, pcf; cbn [px py pt]. fold th. f_equal; ring.
  Qed.

  Lemma arc_back D b : pm1 D -> pmul (mir D e (D_arc k b)) (mir (- D) e (D_arc k b)) = mkPose 0 0 0.
  Proof.
    intros PD. assert (PE : pm1 e) by apply pm1_sign. unfold pmul, mir, D_arc; cbn [px py pt].
    rewrite (cos_pm (D * e)), (sin_pm (D * e)) by (apply pm1_mul; assumption). pose proof (sin2_cos2' b) as T. f_equal.
    - destruct PD as [->| ->], PE as [->| ->]; field; lra.
    - transitivity (e * (1 - (sin b * sin b + cos b * cos b)) / k); [|rewrite T; field; lra].
      destruct PD as [->| ->], PE as [->| ->]; field; lra.
    - ring.
  Qed.
  Lemma in_back D a b th : pm1 D -> pmul (mir D e (D_in a b th)) (mir (- D) e (D_out a b th)) = mkPose 0 0 0.
  Proof.
    intros PD. assert (PE : pm1 e) by apply pm1_sign. unfold pmul, mir, D_in, D_out; cbn [px py pt].
    rewrite (cos_pm (D * e)), (sin_pm (D * e)) by (apply pm1_mul; assumption). pose proof (sin2_cos2' th) as T. f_equal.
    - transitivity (D * a * (1 - (sin th * sin th + cos th * cos th))); [|rewrite T; ring].
      destruct PD as [->| ->], PE as [->| ->]; ring.
    - transitivity (e * b * (1 - (sin th * sin th + cos th * cos th))); [|rewrite T; ring].
      destruct PD as [->| ->], PE as [->| ->]; ring.
    - ring.
  Qed.

  Lemma hc_turn_ends g q (o : bool) : hc_tangent g c q ->
    if o then reaches (g + param_slack k s) 0 (lib_path (st_of start) (hc_turn_controls c q true)) q
    else reaches (g + param_slack k s) 0 (lib_path (st_of q) (hc_turn_controls c q false)) start.
  Proof.
    intros G. destruct (hc_end_shift' g q G) as (u & v & N & P). set (dl := deflection c q) in *.
    assert (PD : pm1 d) by apply pm1_sign. assert (PE : pm1 e) by apply pm1_sign. pose proof L_pos as LP.
    assert (KE : e * (s * L) = e * k) by (unfold L; field; lra).
    set (be := hc_circular_deflection c dl).
    assert (BA : ang_eq (t + be) dl).
    { unfold be, hc_circular_deflection. destruct cc_fields as (_ & _ & _ & _ & _ & _ & -> & _). apply circ_defl_ang. }
    assert (EQ : peq (D_hc X' Y' k dl) (pmul (D_in (cl_x s L) (cl_y s L) t) (D_arc k be))).
    { rewrite D_hc_eq by exact Hk. change (cl_x s L - sin t / k) with X'. change (cl_y s L + cos t / k) with Y'.
      unfold peq, D_hc; cbn [px py pt]. rewrite (ang_eq_cos _ _ BA), (ang_eq_sin _ _ BA). auto using ang_eq_sym. }
    destruct o; unfold hc_turn_controls; rewrite abs_L, abs_kinv; destruct cc_fields as (_ & _ & EF & _ & _ & _ & _ & -> & _ & -> & _); rewrite EF; fold dl; fold be.
    - replace (direction f true) with d by (rewrite pm1_direction; unfold d; cbn; ring).
      set (c1 := mkControl (d * L) 0 (e * s)). set (c2 := mkControl (d * (1 / k * be)) (e * k) 0).
      destruct (move_in (st_of start) d e s L PD PE Hs LP) as [M1 _]. fold c1 in M1.
      destruct (move_arc (lib_move (st_of start) c1) d e k (1 / k * be) PD PE Hk) as [M2 _]. fold c2 in M2.
      replace (k * (1 / k * be)) with be in M2 by (field; lra).
      eapply reaches_shift; [exact P| |exact N|lra].
      eapply peq_trans; [eapply pose_move; [exact M1|]; cbn [lib_path fold_left]; exact M2|].
      change (pst (st_of start)) with (pcf start). apply pmul_congr_r. rewrite (mir_mul d e) by assumption. apply mir_congr; [assumption|assumption|].
      apply peq_sym, EQ.
    - replace (direction f false) with (- d) by (rewrite pm1_direction; unfold d; cbn; ring).
      assert (PD' : pm1 (- d)) by (apply pm1_opp; exact PD).
      set (c1 := mkControl (- d * (1 / k * be)) (e * k) 0). set (c2 := mkControl (- d * L) (e * k) (- (e * s))).
      destruct (move_arc (st_of q) (- d) e k (1 / k * be) PD' PE Hk) as [M1 _]. fold c1 in M1.
      destruct (move_out (lib_move (st_of q) c1) (- d) e s L PD' PE Hs LP) as [M2 _]. rewrite KE in M2. fold c2 in M2.
      replace (k * (1 / k * be)) with be in M1 by (field; lra).
      eapply (reaches_shift _ start (- u) (- v) (g + param_slack k s) (pshift u v (pcf start)) 0); [| |apply sh_norm; exact N|lra].
      + unfold peq, pshift, pcf; cbn [px py pt]. repeat split; [ring|ring|apply ang_eq_refl].
      + eapply peq_trans; [eapply pose_move; [exact M1|]; cbn [lib_path fold_left]; exact M2|].
        change (pst (st_of q)) with (pcf q). eapply peq_trans; [apply pmul_congr_l; eapply peq_trans; [exact P|]; apply pshift_congr, pmul_congr_r, mir_congr; [assumption|assumption|exact EQ]|].
        rewrite pmul_shift. apply pshift_congr. rewrite <- (mir_mul d e) by assumption.
        rewrite !pmul_assoc. change (cl_t s L) with t. rewrite <- (pmul_assoc (mir d e (D_arc k be))), arc_back by exact PD.
        replace (pmul (mkPose 0 0 0) (mir (- d) e (D_out (cl_x s L) (cl_y s L) t))) with (mir (- d) e (D_out (cl_x s L) (cl_y s L) t))
          by (unfold pmul, mir; cbn [px py pt]; rewrite cos_0, sin_0; f_equal; ring).
        rewrite in_back by exact PD. rewrite pmul_id_r. apply peq_refl.
  Qed.
End CC.

(** ** rs-turns *)
Section RS.
  Variables (k : R) (start : Configuration) (l f reg : bool).
  Hypothesis Hk : 0 < k.
  Let c := circle start l f reg (rs_param k).
  Let d := sign f.
  Let e := sign l.

  Lemma rs_fields : c_start c = start /\ c_left c = l /\ c_forward c = f /\ c_regular c = reg /\
    c_kappa c = e * k /\ c_kappa_inv c = e * (1 / k) /\ (c_xc c, c_yc c) = frame (pcf start) 0 (e * (1 / k)).
  Proof.
    pose proof (circle_fields start l f reg (rs_param k)) as H. cbv zeta in H. fold c in H.
    destruct H as (A1 & A2 & A3 & A4 & _ & _ & _ & _ & _ & B1 & B2 & B3 & B4).
    rewrite B1, B2, B4. unfold rs_param, set_param; cbn [p_kappa p_kappa_inv p_radius p_sin_mu p_cos_mu].
    rewrite !Rmult_0_r, Rmult_1_r. auto 20.
  Qed.

  Lemma rs_turn_ends g q (o : bool) : hc_tangent g c q ->
    if o then reaches g 0 (lib_path (st_of start) (rs_turn_controls c q true)) q
    else reaches g 0 (lib_path (st_of q) (rs_turn_controls c q false)) start.
  Proof.
    unfold hc_tangent. destruct rs_fields as (ES & EL & EF & _ & EK & EI & EC). rewrite EK. intros G.
    assert (PD : pm1 d) by apply pm1_sign. assert (PE : pm1 e) by apply pm1_sign.
    set (dl := deflection c q). set (be := rs_circular_deflection c dl).
    assert (BA : ang_eq be dl) by apply rs_defl_ang.
    set (E := pmul (pcf start) (mir d e (D_arc k be))).
    destruct (tangent_shift c q 0 (1 / (e * k)) E) as (u & v & N & P).
    { rewrite EC. unfold frame, E, pmul, mir, D_arc, pcf; cbn [px py pt]. rewrite cos_plus, sin_plus, (cos_pm (d * e)), (sin_pm (d * e)) by (apply pm1_mul; assumption).
      destruct PD as [->| ->], PE as [->| ->]; f_equal; field; lra. }
    { unfold E, pmul, mir, D_arc, pcf; cbn [px py pt]. pose proof (defl_ang c q) as Q. rewrite ES, EL, EF in Q. fold dl d e in Q.
      eapply ang_eq_trans; [|exact Q]. apply ang_eq_add; [apply ang_eq_refl|].
      assert (DE : pm1 (d * e)) by (apply pm1_mul; assumption). destruct DE as [->| ->]; [rewrite !Rmult_1_l; exact BA|].
      replace (-1 * be) with (- be) by ring. replace (-1 * dl) with (- dl) by ring. apply ang_eq_opp, BA. }
    rewrite <- N in G. clear N. unfold rs_turn_controls. rewrite EI, EK, EF. fold dl be.
    rewrite (abs_pm e (1 / k)) by (try apply pm1_sign; apply div_nonneg; lra).
    destruct o.
    - replace (direction f true) with d by (rewrite pm1_direction; unfold d; cbn; ring).
      destruct (move_arc (st_of start) d e k (1 / k * be) PD PE Hk) as [M1 _].
      replace (k * (1 / k * be)) with be in M1 by (field; lra).
      eapply reaches_shift; [exact P|exact M1|exact G|lra].
    - replace (direction f false) with (- d) by (rewrite pm1_direction; unfold d; cbn; ring).
      destruct (move_arc (st_of q) (- d) e k (1 / k * be) (pm1_opp d PD) PE Hk) as [M1 _].
      replace (k * (1 / k * be)) with be in M1 by (field; lra).
      eapply (reaches_shift _ start (- u) (- v) g (pshift u v (pcf start)) 0); [| |apply sh_norm; exact G|lra].
      + unfold peq, pshift, pcf; cbn [px py pt]. repeat split; [ring|ring|apply ang_eq_refl].
      + eapply peq_trans; [exact M1|]. change (pst (st_of q)) with (pcf q). eapply peq_trans; [apply pmul_congr_l, P|].
        unfold E. rewrite pmul_shift. apply pshift_congr. rewrite pmul_assoc. pose proof (arc_back k l Hk d be PD) as AB. fold e in AB. rewrite AB.
        rewrite pmul_id_r. apply peq_refl.
  Qed.
End RS.

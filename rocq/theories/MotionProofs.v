(** * The exact motion along a list of controls *)
From Coq Require Import Reals ZArith List Bool Lra Lia.
From Coquelicot Require Import Coquelicot.
From Verif Require Import Base ModelUtil ModelFresnel ModelIntegrate ModelCircle Num UtilProofs IntegrateProofs SpecPath SpecCloth SpecTurn
  SpecFresnel FresProofs ClothProofs JacProofs DubinsOpt PoseAlg TurnProofs.
Import ListNotations.
Open Scope R_scope.

(** ** The exact motion is a rigid displacement *)
Definition tdisp (c : Control) : Pose := pst (true_move (mkState 0 0 0 0 0) c).

Lemma cont_heading th k sg d u : continuous (heading th k sg d) u.
Proof.
  apply (ex_derive_continuous (heading th k sg d)). unfold heading. auto_derive. exact I.
Qed.
Lemma cont_cos_h th k sg d u : continuous (fun v => d * cos (heading th k sg d v)) u.
Proof.
  apply (ex_derive_continuous (fun v => d * cos (heading th k sg d v))). unfold heading. auto_derive. exact I.
Qed.
Lemma cont_sin_h th k sg d u : continuous (fun v => d * sin (heading th k sg d v)) u.
Proof.
  apply (ex_derive_continuous (fun v => d * sin (heading th k sg d v))). unfold heading. auto_derive. exact I.
Qed.
Lemma ex_cos_h th k sg d h : ex_RInt (fun v => d * cos (heading th k sg d v)) 0 h.
Proof. apply (ex_RInt_continuous (fun v => d * cos (heading th k sg d v))). intros; apply cont_cos_h. Qed.
Lemma ex_sin_h th k sg d h : ex_RInt (fun v => d * sin (heading th k sg d v)) 0 h.
Proof. apply (ex_RInt_continuous (fun v => d * sin (heading th k sg d v))). intros; apply cont_sin_h. Qed.

Lemma RInt_lin (f g : R -> R) (a b h : R) : ex_RInt f 0 h -> ex_RInt g 0 h ->
  RInt (fun u => a * f u + b * g u) 0 h = a * RInt f 0 h + b * RInt g 0 h.
Proof.
  intros F G. apply is_RInt_unique.
  pose proof (is_RInt_plus (fun u => scal a (f u)) (fun u => scal b (g u)) 0 h (scal a (RInt f 0 h)) (scal b (RInt g 0 h))) as P.
  eapply is_RInt_ext; [|apply P].
  - intros u _. unfold plus, scal; cbn. unfold mult; cbn. reflexivity.
  - apply (is_RInt_scal f). exact (RInt_correct f 0 h F).
  - apply (is_RInt_scal g). exact (RInt_correct g 0 h G).
Qed.

Lemma true_x_turn x th k sg d h : true_x x th k sg d h =
  x + (true_x 0 0 k sg d h * cos th - true_y 0 0 k sg d h * sin th).
Proof.
  unfold true_x, true_y. rewrite !Rplus_0_l. f_equal.
  replace (RInt (fun u => d * cos (heading 0 k sg d u)) 0 h * cos th - RInt (fun u => d * sin (heading 0 k sg d u)) 0 h * sin th)
    with (cos th * RInt (fun u => d * cos (heading 0 k sg d u)) 0 h + (- sin th) * RInt (fun u => d * sin (heading 0 k sg d u)) 0 h) by ring.
  rewrite <- (RInt_lin (fun u => d * cos (heading 0 k sg d u)) (fun u => d * sin (heading 0 k sg d u)) (cos th) (- sin th) h (ex_cos_h 0 k sg d h) (ex_sin_h 0 k sg d h)).
  apply RInt_ext. intros u _. replace (heading th k sg d u) with (th + heading 0 k sg d u) by (unfold heading; ring).
  rewrite cos_plus. match goal with |- ?a = ?b => change (@eq R a b) end. ring.
Qed.
Lemma true_y_turn x th k sg d h : true_y x th k sg d h =
  x + (true_x 0 0 k sg d h * sin th + true_y 0 0 k sg d h * cos th).
Proof.
  unfold true_x, true_y. rewrite !Rplus_0_l. f_equal.
  replace (RInt (fun u => d * cos (heading 0 k sg d u)) 0 h * sin th + RInt (fun u => d * sin (heading 0 k sg d u)) 0 h * cos th)
    with (sin th * RInt (fun u => d * cos (heading 0 k sg d u)) 0 h + cos th * RInt (fun u => d * sin (heading 0 k sg d u)) 0 h) by ring.
  rewrite <- (RInt_lin (fun u => d * cos (heading 0 k sg d u)) (fun u => d * sin (heading 0 k sg d u)) (sin th) (cos th) h (ex_cos_h 0 k sg d h) (ex_sin_h 0 k sg d h)).
  apply RInt_ext. intros u _. replace (heading th k sg d u) with (th + heading 0 k sg d u) by (unfold heading; ring).
  rewrite sin_plus. match goal with |- ?a = ?b => change (@eq R a b) end. ring.
Qed.

Lemma true_move_disp st c : pst (true_move st c) = pmul (pst st) (tdisp c).
Proof.
  unfold tdisp, true_move, pst, pmul; cbn [st_x st_y st_theta px py pt].
  rewrite (true_x_turn (st_x st)), (true_y_turn (st_y st)). f_equal. unfold heading. field.
Qed.

Fixpoint tdisps (cs : list Control) : Pose :=
  match cs with [] => mkPose 0 0 0 | c :: cs => pmul (tdisp c) (tdisps cs) end.
Lemma true_path_disp cs : forall st, pst (true_path st cs) = pmul (pst st) (tdisps cs).
Proof.
  induction cs as [|c cs IH]; intros st.
  - cbn [true_path fold_left tdisps]. rewrite pmul_id_r. reflexivity.
  - change (true_path st (c :: cs)) with (true_path (true_move st c) cs). rewrite IH, true_move_disp, pmul_assoc. reflexivity.
Qed.

(** ** The exact motion is no longer than its length *)
Lemma RInt_dot_le a b k sg d h : 0 <= h -> Rabs d = 1 -> hyp a b = 1 ->
  a * true_x 0 0 k sg d h + b * true_y 0 0 k sg d h <= h.
Proof.
  intros H D N. unfold true_x, true_y. rewrite !Rplus_0_l.
  rewrite <- (RInt_lin (fun u => d * cos (heading 0 k sg d u)) (fun u => d * sin (heading 0 k sg d u)) a b h (ex_cos_h 0 k sg d h) (ex_sin_h 0 k sg d h)).
  assert (C : RInt (fun _ : R => 1) 0 h = h). { rewrite RInt_const. unfold scal; cbn. unfold mult; cbn. ring. }
  rewrite <- C at 2. apply RInt_le; [exact H| |apply ex_RInt_const|].
  - apply (ex_RInt_continuous (fun u => a * (d * cos (heading 0 k sg d u)) + b * (d * sin (heading 0 k sg d u)))).
    intros z _. apply (ex_derive_continuous (fun u => a * (d * cos (heading 0 k sg d u)) + b * (d * sin (heading 0 k sg d u)))).
    unfold heading. auto_derive. exact I.
  - intros u _. set (x := heading 0 k sg d u).
    pose proof (hyp_dot a b (d * cos x) (d * sin x)) as P. rewrite hyp_polar, N, D in P. lra.
Qed.
Lemma sgn_abs1 x : Rabs (sgn x) = 1.
Proof. unfold sgn. destruct (Rlt_dec x 0); [rewrite Rabs_left|rewrite Rabs_pos_eq]; lra. Qed.

Lemma tdisp_len c : hyp (px (tdisp c)) (py (tdisp c)) <= Rabs (ct_delta_s c).
Proof.
  unfold tdisp, true_move, pst; cbn [px py st_x st_y st_theta].
  set (ix := true_x 0 0 (ct_kappa c) (ct_sigma c) (sgn (ct_delta_s c)) (Rabs (ct_delta_s c))).
  set (iy := true_y 0 0 (ct_kappa c) (ct_sigma c) (sgn (ct_delta_s c)) (Rabs (ct_delta_s c))).
  pose proof (hyp_pos ix iy) as HP. pose proof (hyp_sq ix iy) as HS.
  destruct (Req_dec (hyp ix iy) 0) as [Z|NZ]; [rewrite Z; apply Rabs_pos|].
  assert (P : 0 < hyp ix iy) by lra.
  pose proof (RInt_dot_le (ix / hyp ix iy) (iy / hyp ix iy) (ct_kappa c) (ct_sigma c) (sgn (ct_delta_s c)) (Rabs (ct_delta_s c)) (Rabs_pos _) (sgn_abs1 _)) as Q.
  fold ix iy in Q. replace (ix / hyp ix iy * ix + iy / hyp ix iy * iy) with (hyp ix iy) in Q.
  - apply Q. apply hyp_eq; [lra|]. transitivity ((ix ^ 2 + iy ^ 2) / hyp ix iy ^ 2); [field; lra|]. rewrite <- HS. field. lra.
  - transitivity ((ix ^ 2 + iy ^ 2) / hyp ix iy); [|field; lra]. rewrite <- HS. field. lra.
Qed.

Lemma hyp_rot a b th : hyp (a * cos th - b * sin th) (a * sin th + b * cos th) = hyp a b.
Proof.
  unfold hyp. f_equal. pose proof (sin2_cos2' th) as T.
  transitivity ((a ^ 2 + b ^ 2) * (sin th * sin th + cos th * cos th)); [ring|rewrite T; ring].
Qed.
Lemma tdisps_len cs : hyp (px (tdisps cs)) (py (tdisps cs)) <= total_length cs.
Proof.
  induction cs as [|c cs IH]; cbn [tdisps total_length fold_right].
  - cbn [px py]. unfold hyp. replace (0 ^ 2 + 0 ^ 2) with 0 by ring. rewrite sqrt_0. lra.
  - unfold pmul; cbn [px py]. eapply Rle_trans; [apply hyp_add|]. rewrite hyp_rot.
    pose proof (tdisp_len c). unfold total_length in IH. lra.
Qed.

Lemma const_prim_y y th d h : true_y y th 0 0 d h - y = d * h * sin th.
Proof.
  unfold true_y. transitivity (RInt (fun u => d * sin (heading th 0 0 d u)) 0 h); [apply add_sub|].
  apply (int_of_primitive (fun h => d * h * sin th)).
  - intros u. rewrite heading_0. replace (th + d * 0 * u) with th by ring. auto_derive; [exact I|ring].
  - apply cont_sin_heading.
  - ring.
Qed.

(** ** Errors along a path *)
Definition near (e h : R) (a b : Pose) : Prop :=
  hyp (px a - px b) (py a - py b) <= e /\ exists z : Z, Rabs (pt a - pt b - 2 * PI * IZR z) <= h.

Lemma reaches_near e h s q : reaches e h s q <-> near e h (pst s) (pcf q).
Proof. reflexivity. Qed.

Lemma near_trans e1 h1 e2 h2 a b c : near e1 h1 a b -> near e2 h2 b c -> near (e1 + e2) (h1 + h2) a c.
Proof.
  intros [A [z Z]] [B [y Y]]. split.
  - replace (px a - px c) with ((px a - px b) + (px b - px c)) by ring. replace (py a - py c) with ((py a - py b) + (py b - py c)) by ring.
    eapply Rle_trans; [apply hyp_add|]. lra.
  - exists (z + y)%Z. rewrite plus_IZR. replace (pt a - pt c - 2 * PI * (IZR z + IZR y)) with ((pt a - pt b - 2 * PI * IZR z) + (pt b - pt c - 2 * PI * IZR y)) by ring.
    eapply Rle_trans; [apply Rabs_triang|]. lra.
Qed.
Lemma near_peq e h a a' b b' : peq a a' -> peq b b' -> near e h a b -> near e h a' b'.
Proof.
  intros (A & B & [n C]) (A' & B' & [m C']) [P [z Z]]. split; [rewrite <- A, <- B, <- A', <- B'; exact P|].
  exists (z - n + m)%Z. rewrite plus_IZR, minus_IZR. rewrite C, C' in Z.
  replace (pt a' - pt b' - 2 * PI * (IZR z - IZR n + IZR m)) with (pt a' + 2 * PI * IZR n - (pt b' + 2 * PI * IZR m) - 2 * PI * IZR z) by ring. exact Z.
Qed.
Lemma near_weaken e1 h1 e2 h2 a b : near e1 h1 a b -> e1 <= e2 -> h1 <= h2 -> near e2 h2 a b.
Proof. intros [A [z Z]] E H. split; [lra|]. exists z. lra. Qed.

(** Rotating a vector by an angle moves its end by at most the angle times its length. *)
Lemma rot_dist a b t t' h : Rabs (t - t') <= h ->
  hyp ((a * cos t - b * sin t) - (a * cos t' - b * sin t')) ((a * sin t + b * cos t) - (a * sin t' + b * cos t')) <= h * hyp a b.
Proof.
  intros H. pose proof (hyp_pos a b) as HP. pose proof (hyp_sq a b) as HS.
  assert (H0 : 0 <= h) by (eapply Rle_trans; [apply Rabs_pos|exact H]).
  apply hyp_le; [apply Rmult_le_pos; lra|].
  pose proof (sin2_cos2' t) as T. pose proof (sin2_cos2' t') as T'.
  assert (E : ((a * cos t - b * sin t) - (a * cos t' - b * sin t')) ^ 2 + ((a * sin t + b * cos t) - (a * sin t' + b * cos t')) ^ 2 =
    (a ^ 2 + b ^ 2) * (2 - 2 * cos (t - t'))).
  { rewrite cos_minus. transitivity ((a ^ 2 + b ^ 2) * ((sin t * sin t + cos t * cos t) + (sin t' * sin t' + cos t' * cos t') - 2 * (cos t * cos t' + sin t * sin t'))); [ring|rewrite T, T'; ring]. }
  rewrite E. replace ((h * hyp a b) ^ 2) with (hyp a b ^ 2 * h ^ 2) by ring. rewrite HS.
  apply Rmult_le_compat_l; [nra|].
  replace (t - t') with (2 * ((t - t') / 2)) by field. rewrite cos_2a_sin. set (y := (t - t') / 2).
  assert (S : Rabs (sin y) <= Rabs y) by apply DubinsOpt.abs_sin_le.
  assert (Y : Rabs y <= h / 2) by (unfold y; unfold Rdiv at 1; rewrite Rabs_mult, (Rabs_pos_eq (/ 2)) by lra; lra).
  assert (Q : sin y ^ 2 <= (h / 2) ^ 2). { rewrite <- pow2_abs. apply pow_incr. split; [apply Rabs_pos|lra]. }
  nra.
Qed.

Lemma near_mul e h a b D : near e h a b -> near (e + h * hyp (px D) (py D)) h (pmul a D) (pmul b D).
Proof.
  intros [A [z Z]]. split.
  - unfold pmul; cbn [px py].
    replace (px a + (px D * cos (pt a) - py D * sin (pt a)) - (px b + (px D * cos (pt b) - py D * sin (pt b)))) with
      ((px a - px b) + ((px D * cos (pt a) - py D * sin (pt a)) - (px D * cos (pt b) - py D * sin (pt b)))) by ring.
    replace (py a + (px D * sin (pt a) + py D * cos (pt a)) - (py b + (px D * sin (pt b) + py D * cos (pt b)))) with
      ((py a - py b) + ((px D * sin (pt a) + py D * cos (pt a)) - (px D * sin (pt b) + py D * cos (pt b)))) by ring.
    eapply Rle_trans; [apply hyp_add|]. apply Rplus_le_compat; [exact A|].
    assert (Q : ang_eq (pt b) (pt b + 2 * PI * IZR z)) by (apply ang_eq_2PI_r, ang_eq_refl).
    rewrite (ang_eq_cos _ _ Q), (ang_eq_sin _ _ Q). apply rot_dist.
    replace (pt a - (pt b + 2 * PI * IZR z)) with (pt a - pt b - 2 * PI * IZR z) by ring. exact Z.
  - exists z. unfold pmul; cbn [pt]. replace (pt a + pt D - (pt b + pt D) - 2 * PI * IZR z) with (pt a - pt b - 2 * PI * IZR z) by ring. exact Z.
Qed.

Lemma near_h_nonneg e h a b : near e h a b -> 0 <= h.
Proof. intros [_ [z Z]]. eapply Rle_trans; [apply Rabs_pos|exact Z]. Qed.
Lemma true_path_app cs1 cs2 st : true_path st (cs1 ++ cs2) = true_path (true_path st cs1) cs2.
Proof. apply fold_left_app. Qed.

(** Composition of two legs. *)
Lemma reaches_app e1 h1 e2 h2 st qb qc cs1 cs2 :
  reaches e1 h1 (true_path st cs1) qb -> reaches e2 h2 (true_path (st_of qb) cs2) qc ->
  reaches (e1 + e2 + h1 * total_length cs2) (h1 + h2) (true_path st (cs1 ++ cs2)) qc.
Proof.
  rewrite !reaches_near. rewrite true_path_app, !(true_path_disp cs2). intros A B.
  pose proof (near_mul _ _ _ _ (tdisps cs2) A) as M. change (pst (st_of qb)) with (pcf qb) in B.
  pose proof (near_trans _ _ _ _ _ _ _ M B) as N. eapply near_weaken; [exact N| |lra].
  pose proof (near_h_nonneg _ _ _ _ A). pose proof (tdisps_len cs2).
  assert (h1 * hyp (px (tdisps cs2)) (py (tdisps cs2)) <= h1 * total_length cs2) by (apply Rmult_le_compat_l; assumption). lra.
Qed.

(** ** The library's motion against the exact motion *)
Definition lib_err (c : Control) : R := if Req_EM_T (ct_sigma c) 0 then 0 else sqrt (PI / Rabs (ct_sigma c)) * (12 / 10 ^ 15).

Lemma hyp_box u v r : Rabs u <= r * (8 / 10 ^ 15) -> Rabs v <= r * (8 / 10 ^ 15) -> 0 <= r -> hyp u v <= r * (12 / 10 ^ 15).
Proof.
  intros A B P. apply hyp_le; [apply Rmult_le_pos; lra|].
  assert (A2 : u ^ 2 <= (r * (8 / 10 ^ 15)) ^ 2) by (rewrite <- pow2_abs; apply pow_incr; split; [apply Rabs_pos|exact A]).
  assert (B2 : v ^ 2 <= (r * (8 / 10 ^ 15)) ^ 2) by (rewrite <- pow2_abs; apply pow_incr; split; [apply Rabs_pos|exact B]).
  rewrite Rpow_mult_distr in *. pose proof (pow2_ge_0 r). lra.
Qed.

Lemma sgn_mul_abs x : sgn x * Rabs x = x.
Proof. unfold sgn, Rabs. destruct (Rlt_dec x 0), (Rcase_abs x); lra. Qed.
Lemma sgn_cases x : sgn x = 1 \/ sgn x = -1.
Proof. unfold sgn. destruct (Rlt_dec x 0); auto. Qed.

Lemma lib_move_near st c : near (lib_err c) 0 (pst (true_move st c)) (pst (lib_move st c)).
Proof.
  unfold lib_move, lib_err. destruct (Req_EM_T (ct_sigma c) 0) as [Z|NZ].
  - assert (E : pst (true_move st c) = pst (drive st c)).
    { unfold true_move, drive, pst; cbn [st_x st_y st_theta]. rewrite Z. set (x := ct_delta_s c).
      assert (H : heading (st_theta st) (ct_kappa c) 0 (sgn x) (Rabs x) = st_theta st + ct_kappa c * x).
      { transitivity (st_theta st + ct_kappa c * (sgn x * Rabs x)); [unfold heading; field|rewrite sgn_mul_abs; reflexivity]. }
      destruct (Req_EM_T (ct_kappa c) 0) as [K|K]; cbn [st_x st_y st_theta].
      - pose proof (const_prim_x (st_x st) (st_theta st) (sgn x) (Rabs x)) as A.
        pose proof (const_prim_y (st_y st) (st_theta st) (sgn x) (Rabs x)) as B. rewrite sgn_mul_abs in A, B.
        rewrite H. rewrite K. f_equal; [lra|lra|ring].
      - pose proof (true_x_arc (st_x st) (st_theta st) (ct_kappa c) (sgn x) (Rabs x) K) as A.
        pose proof (true_y_arc (st_y st) (st_theta st) (ct_kappa c) (sgn x) (Rabs x) K) as B. rewrite sgn_mul_abs in A, B.
        rewrite H. rewrite (Rmult_comm x) in A, B.
        f_equal; [|]; [apply (Rplus_eq_reg_r (- st_x st))|apply (Rplus_eq_reg_r (- st_y st))].
        + etransitivity; [exact A|]. field. exact K.
        + etransitivity; [exact B|]. field. exact K. }
    rewrite E. split.
    + replace (px (pst (drive st c)) - px (pst (drive st c))) with 0 by ring.
      replace (py (pst (drive st c)) - py (pst (drive st c))) with 0 by ring. apply hyp_le; lra.
    + exists 0%Z. rewrite Rmult_0_r, Rminus_0_r, Rminus_eq_0, Rabs_R0. lra.
  - destruct (end_of_clothoid _ _ _ _ _ _ _) as [[[x y] th] kk] eqn:E.
    destruct (clothoid_ode _ _ _ _ _ _ _ _ _ _ _ NZ (sgn_cases _) E) as (A & B & [n C] & _).
    unfold true_move, pst, near; cbn [st_x st_y st_theta px py pt]. split.
    + apply hyp_box; [rewrite Rabs_minus_sym; exact A|rewrite Rabs_minus_sym; exact B|apply sqrt_pos].
    + exists (- n)%Z. rewrite opp_IZR, C.
      match goal with |- Rabs ?a <= 0 => replace a with 0 by ring end. rewrite Rabs_R0. lra.
Qed.

(** The library's motion of equal headings keeps the distance. *)
Lemma lib_path_near cs : forall st st' e, near e 0 (pst st') (pst st) -> near (e + fresnel_error cs) 0 (pst (true_path st' cs)) (pst (lib_path st cs)).
Proof.
  induction cs as [|c cs IH]; intros st st' e N.
  - cbn [true_path lib_path fold_left fresnel_error fold_right]. rewrite Rplus_0_r. exact N.
  - change (true_path st' (c :: cs)) with (true_path (true_move st' c) cs). change (lib_path st (c :: cs)) with (lib_path (lib_move st c) cs).
    change (fresnel_error (c :: cs)) with (lib_err c + fresnel_error cs). rewrite <- Rplus_assoc. apply IH.
    pose proof (near_mul _ _ _ _ (tdisp c) N) as M. rewrite Rmult_0_l, Rplus_0_r in M.
    rewrite <- !true_move_disp in M. pose proof (near_trans _ _ _ _ _ _ _ M (lib_move_near st c)) as Q.
    rewrite Rplus_0_r in Q. exact Q.
Qed.

Lemma near_refl a : near 0 0 a a.
Proof.
  split; [rewrite !Rminus_eq_0; apply hyp_le; lra|]. exists 0%Z. rewrite Rminus_eq_0, Rmult_0_r, Rminus_0_r, Rabs_R0. lra.
Qed.

Lemma reaches_true e h st cs q : reaches e h (lib_path st cs) q -> reaches (e + fresnel_error cs) h (true_path st cs) q.
Proof.
  rewrite !reaches_near. intros N. pose proof (lib_path_near cs st st 0 (near_refl _)) as M.
  pose proof (near_trans _ _ _ _ _ _ _ M N) as Q. eapply near_weaken; [exact Q|lra|lra].
Qed.

(** * The circle parameters computed by the constructor of HC_CC_State_Space, and the function D1 *)
From Coq Require Import Reals ZArith QArith Qreals List Lra Lia.
From Coquelicot Require Import Coquelicot.
From Verif Require Import Base ModelUtil ModelFresnel FresnelData ModelIntegrate ModelCircle Num UtilProofs SpecFresnel
  FresPoly FresCert FresAcc FresProofs FresFinal PoseAlg.
Import ListNotations.
Open Scope R_scope.

Definition U (w : R) : R := FresnelC w - sin (xx w) / (PI * w).
Definition V (w : R) : R := FresnelS w + cos (xx w) / (PI * w).

Lemma d_U w : 0 < w -> is_derive U w (sin (xx w) / (PI * w ^ 2)).
Proof.
  intros W. pose proof PI_gt. unfold U.
  evar_last. { apply @is_derive_minus; [apply is_derive_FC|].
    apply (is_derive_div (fun t => sin (xx t)) (fun t => PI * t)).
    - apply (is_derive_comp sin xx); [apply is_derive_Reals, derivable_pt_lim_sin|apply d_xx].
    - auto_derive; [exact I|reflexivity].
    - nra. }
  unfold minus, plus, opp, scal; cbn -[xx cos sin pow]. unfold mult; cbn -[xx cos sin pow].
  fold (xx w). field. split; lra.
Qed.
Lemma d_V w : 0 < w -> is_derive V w (- cos (xx w) / (PI * w ^ 2)).
Proof.
  intros W. pose proof PI_gt. unfold V.
  evar_last. { apply @is_derive_plus; [apply is_derive_FS|].
    apply (is_derive_div (fun t => cos (xx t)) (fun t => PI * t)).
    - apply (is_derive_comp cos xx); [apply is_derive_Reals, derivable_pt_lim_cos|apply d_xx].
    - auto_derive; [exact I|reflexivity].
    - nra. }
  unfold minus, plus, opp, scal; cbn -[xx cos sin pow]. unfold mult; cbn -[xx cos sin pow].
  fold (xx w). field. split; lra.
Qed.

Lemma xx_pos w : 0 <= xx w.
Proof. pose proof PI_gt. unfold xx. apply Rmult_le_pos; [lra|apply pow2_ge_0]. Qed.

Lemma FC_lower w : 0 <= w -> w - PI ^ 2 / 40 * w ^ 5 <= FresnelC w.
Proof.
  intros W. pose proof PI_gt.
  pose proof (nondecr (fun t => FresnelC t - (t - PI ^ 2 / 40 * t ^ 5)) (fun t => cos (xx t) - (1 - PI ^ 2 / 8 * t ^ 4)) 0 w W) as N.
  cbv beta in N. rewrite FC_0 in N.
  assert (Q : 0 - (0 - PI ^ 2 / 40 * 0 ^ 5) <= FresnelC w - (w - PI ^ 2 / 40 * w ^ 5)).
  { apply N.
    - intros t _. apply @is_derive_minus; [apply is_derive_FC|]. auto_derive; [exact I|field].
    - intros t _. pose proof (cos_lower_quad (xx t) (xx_pos t)) as Q.
      replace (PI ^ 2 / 8 * t ^ 4) with (xx t ^ 2 / 2) by (unfold xx; field). lra. }
  rewrite pow_i in Q by lia. lra.
Qed.

Lemma sin_lower_cub x : 0 <= x -> x - x ^ 3 / 6 <= sin x.
Proof.
  intros Hx. pose proof (taylor_sin 0 x Hx) as T. cbn [tsin] in T. apply Rabs_le_between in T.
  replace (INR (fact (2 * 0 + 3))) with 6 in T by (cbn; lra). cbn in T. lra.
Qed.
Lemma FS_lower w : 0 <= w -> PI / 6 * w ^ 3 - PI ^ 3 / 336 * w ^ 7 <= FresnelS w.
Proof.
  intros W. pose proof PI_gt.
  pose proof (nondecr (fun t => FresnelS t - (PI / 6 * t ^ 3 - PI ^ 3 / 336 * t ^ 7)) (fun t => sin (xx t) - (PI / 2 * t ^ 2 - PI ^ 3 / 48 * t ^ 6)) 0 w W) as N.
  cbv beta in N. rewrite FS_0 in N.
  assert (Q : 0 - (PI / 6 * 0 ^ 3 - PI ^ 3 / 336 * 0 ^ 7) <= FresnelS w - (PI / 6 * w ^ 3 - PI ^ 3 / 336 * w ^ 7)).
  { apply N.
    - intros t _. apply @is_derive_minus; [apply is_derive_FS|]. auto_derive; [exact I|field].
    - intros t _. pose proof (sin_lower_cub (xx t) (xx_pos t)) as Q.
      replace (PI ^ 3 / 48 * t ^ 6) with (xx t ^ 3 / 6) by (unfold xx; field). unfold xx in *. lra. }
  rewrite !pow_i in Q by lia. lra.
Qed.

Lemma PI_powers : PI ^ 2 <= 98697 / 10000 /\ PI ^ 3 <= 310066 / 10000.
Proof.
  pose proof PI_bounds. assert (B : 0 <= PI <= 31416 / 10000) by lra. split.
  - eapply Rle_trans; [apply (pow_incr _ _ 2 B)|]. lra.
  - eapply Rle_trans; [apply (pow_incr _ _ 3 B)|]. lra.
Qed.

Lemma FC_low1 w : 0 <= w <= 1 -> 3 / 4 * w <= FresnelC w.
Proof.
  intros W. pose proof (FC_lower w (proj1 W)). pose proof PI_powers as [P _].
  assert (0 <= w ^ 4 <= 1) by (split; [apply pow_le; lra|rewrite <- (pow1 4); apply pow_incr; lra]).
  replace (w ^ 5) with (w * w ^ 4) in H by ring.
  assert (0 <= w * w ^ 4 <= w) by nra. assert (0 <= PI ^ 2) by apply pow2_ge_0.
  assert (PI ^ 2 * (w * w ^ 4) <= 98697 / 10000 * w) by (apply Rmult_le_compat; lra). lra.
Qed.
Lemma FS_low1 w : 0 <= w <= 1 -> 43 / 100 * w ^ 3 <= FresnelS w.
Proof.
  intros W. pose proof (FS_lower w (proj1 W)). pose proof PI_powers as [_ P]. pose proof PI_bounds.
  assert (0 <= w ^ 4 <= 1) by (split; [apply pow_le; lra|rewrite <- (pow1 4); apply pow_incr; lra]).
  assert (0 <= w ^ 3) by (apply pow_le; lra).
  replace (w ^ 7) with (w ^ 3 * w ^ 4) in H by ring.
  assert (w ^ 3 * w ^ 4 <= w ^ 3) by nra. assert (0 <= w ^ 3 * w ^ 4) by nra.
  assert (0 <= PI ^ 3) by (apply pow_le; lra).
  assert (PI ^ 3 * (w ^ 3 * w ^ 4) <= 310066 / 10000 * w ^ 3) by (apply Rmult_le_compat; lra).
  assert (31415 / 10000 * w ^ 3 <= PI * w ^ 3) by (apply Rmult_le_compat_r; lra). lra.
Qed.

Lemma sin_le x : 0 <= x -> sin x <= x.
Proof. intros [H|<-]; [left; apply sin_lt_x; exact H|rewrite sin_0; lra]. Qed.

Lemma U_small w : 0 < w <= 1 -> w / 4 <= U w.
Proof.
  intros W. pose proof PI_gt. unfold U. pose proof (FC_low1 w ltac:(lra)).
  pose proof (sin_le (xx w) (xx_pos w)) as S.
  assert (sin (xx w) / (PI * w) <= w / 2).
  { apply Rmult_le_reg_r with (PI * w); [nra|]. unfold Rdiv at 1. rewrite Rmult_assoc, Rinv_l by nra. unfold xx in *. nra. }
  lra.
Qed.
Lemma U_1 : 43 / 100 <= U 1.
Proof.
  pose proof PI_bounds. pose proof (FC_lower 1 ltac:(lra)). pose proof PI_powers as [P _]. unfold U.
  replace (xx 1) with (PI / 2) by (unfold xx; field). rewrite sin_PI2.
  assert (1 / (PI * 1) <= 31832 / 100000).
  { apply Rmult_le_reg_r with (PI * 1); [lra|]. unfold Rdiv at 1. rewrite Rmult_assoc, Rinv_l by lra. lra. }
  rewrite pow1 in H0. lra.
Qed.
Lemma V_1 : 43 / 100 <= V 1.
Proof.
  pose proof (FS_low1 1 ltac:(lra)). unfold V.
  replace (xx 1) with (PI / 2) by (unfold xx; field). rewrite cos_PI2. rewrite pow1 in H. lra.
Qed.

Lemma d_inv w : 0 < w -> is_derive (fun t => 1 / (PI * t)) w (- 1 / (PI * w ^ 2)).
Proof. intros W. pose proof PI_gt. auto_derive; [nra|field; split; nra]. Qed.

Lemma quot_nonneg n w : 0 <= n -> 0 < w -> 0 <= n / (PI * w ^ 2).
Proof. intros N W. pose proof PI_gt. apply div_nonneg; [exact N|]. apply Rmult_lt_0_compat; [lra|apply pow_lt; exact W]. Qed.

Lemma U_large w : 1 <= w -> 11 / 100 <= U w.
Proof.
  intros W. pose proof PI_bounds. pose proof U_1.
  pose proof (nondecr (fun t => U t - 1 / (PI * t)) (fun t => (1 + sin (xx t)) / (PI * t ^ 2)) 1 w W) as N.
  assert (Q : U 1 - 1 / (PI * 1) <= U w - 1 / (PI * w)).
  { apply N.
    - intros t T. evar_last. { apply @is_derive_minus; [apply d_U; lra|apply d_inv; lra]. }
      unfold minus, plus, opp; cbn -[xx cos sin pow]. field. split; nra.
    - intros t T. apply quot_nonneg; [|lra]. pose proof (SIN_bound (xx t)). lra. }
  assert (1 / (PI * 1) <= 31832 / 100000).
  { apply Rmult_le_reg_r with (PI * 1); [lra|]. unfold Rdiv at 1. rewrite Rmult_assoc, Rinv_l by lra. lra. }
  assert (0 <= 1 / (PI * w)) by (apply div_nonneg; nra). lra.
Qed.
Lemma V_large w : 1 <= w -> 11 / 100 <= V w.
Proof.
  intros W. pose proof PI_bounds. pose proof V_1.
  pose proof (nondecr (fun t => V t - 1 / (PI * t)) (fun t => (1 - cos (xx t)) / (PI * t ^ 2)) 1 w W) as N.
  assert (Q : V 1 - 1 / (PI * 1) <= V w - 1 / (PI * w)).
  { apply N.
    - intros t T. evar_last. { apply @is_derive_minus; [apply d_V; lra|apply d_inv; lra]. }
      unfold minus, plus, opp; cbn -[xx cos sin pow]. field. split; nra.
    - intros t T. apply quot_nonneg; [|lra]. pose proof (COS_bound (xx t)). lra. }
  assert (1 / (PI * 1) <= 31832 / 100000).
  { apply Rmult_le_reg_r with (PI * 1); [lra|]. unfold Rdiv at 1. rewrite Rmult_assoc, Rinv_l by lra. lra. }
  assert (0 <= 1 / (PI * w)) by (apply div_nonneg; nra). lra.
Qed.
Lemma V_small w : 0 < w <= 1 -> 43 / 100 <= V w.
Proof.
  intros W. pose proof PI_bounds. pose proof V_1.
  pose proof (nondecr (fun t => - V t) (fun t => cos (xx t) / (PI * t ^ 2)) w 1 (proj2 W)) as N.
  assert (Q : - V w <= - V 1).
  { apply N.
    - intros t T. evar_last. { apply @is_derive_opp. apply d_V; lra. }
      unfold opp; cbn -[xx cos sin pow]. field. split; nra.
    - intros t T. apply quot_nonneg; [|lra]. assert (0 <= t ^ 2 <= 1) by nra.
      apply cos_ge_0; unfold xx; nra. }
  lra.
Qed.
Lemma V_ge w : 0 < w -> 11 / 100 <= V w.
Proof. intros W. destruct (Rle_dec w 1); [pose proof (V_small w); lra|apply V_large; lra]. Qed.

(** ** The same for the library's Fresnel functions *)
Definition Ul (w : R) : R := fresnelC w - sin (xx w) / (PI * w).
Definition Vl (w : R) : R := fresnelS w + cos (xx w) / (PI * w).

Lemma rel_C w : 0 <= w <= 2 -> Rabs (fresnelC w - FresnelC w) <= w / 10 ^ 17.
Proof.
  intros W. pose proof PI_gt. assert (X : xx w <= 8) by (unfold xx; nra).
  unfold fresnelC. rewrite (fresnel_pos w (proj1 W)). cbn [snd]. destruct (Rle_dec (xx w) 8); [|contradiction].
  apply left_C; [lra|exact X].
Qed.
Lemma rel_S w : 0 <= w <= 2 -> Rabs (fresnelS w - FresnelS w) <= w / 10 ^ 17.
Proof.
  intros W. pose proof PI_gt. assert (X : xx w <= 8) by (unfold xx; nra).
  unfold fresnelS. rewrite (fresnel_pos w (proj1 W)). cbn [fst]. destruct (Rle_dec (xx w) 8); [|contradiction].
  apply left_S; [lra|exact X].
Qed.

Lemma Ul_pos w : 0 < w -> 0 < Ul w.
Proof.
  intros W. unfold Ul. destruct (Rle_dec w 1) as [L|L].
  - pose proof (U_small w ltac:(lra)) as A. pose proof (rel_C w ltac:(lra)) as B. unfold U in A.
    apply Rabs_le_between in B. lra.
  - pose proof (U_large w ltac:(lra)) as A. pose proof (accuracy w) as [B _]. unfold U in A.
    apply Rabs_le_between in B. lra.
Qed.
Lemma Vl_pos w : 0 < w -> 0 < Vl w.
Proof.
  intros W. unfold Vl. pose proof (V_ge w W) as A. pose proof (accuracy w) as [_ B]. unfold V in A.
  apply Rabs_le_between in B. lra.
Qed.

(** ** The chord of a cc-turn is at least that of the elementary path *)
Lemma G_mono (w0 w phi : R) : 0 < w0 <= w -> xx w0 = phi ->
  U w0 * cos phi + V w0 * sin phi <= U w * cos phi + V w * sin phi.
Proof.
  intros W E. pose proof PI_gt.
  set (J := fun t => U t * cos phi + V t * sin phi - (1 - cos (xx t - phi)) / (PI ^ 2 * t ^ 3)).
  assert (P : forall t, 0 < t -> 0 < PI ^ 2 * t ^ 3) by (intros t T; apply Rmult_lt_0_compat; apply pow_lt; lra).
  pose proof (nondecr J (fun t => 3 * (1 - cos (xx t - phi)) / (PI ^ 2 * t ^ 4)) w0 w (proj2 W)) as N.
  assert (Q : J w0 <= J w).
  { apply N.
    - intros t T. assert (T0 : 0 < t) by lra. unfold J.
      evar_last. { apply @is_derive_minus.
        - apply @is_derive_plus; (apply is_derive_scal_l || idtac).
          + apply (is_derive_scal_l U t (sin (xx t) / (PI * t ^ 2)) (cos phi)). apply d_U; exact T0.
          + apply (is_derive_scal_l V t (- cos (xx t) / (PI * t ^ 2)) (sin phi)). apply d_V; exact T0.
        - apply (is_derive_div (fun t => 1 - cos (xx t - phi)) (fun t => PI ^ 2 * t ^ 3) t (sin (xx t - phi) * (PI * t)) (3 * PI ^ 2 * t ^ 2)).
          + evar_last. { apply @is_derive_minus; [apply @is_derive_const|].
              apply (is_derive_comp (fun v => cos (v - phi)) xx); [|apply d_xx].
              auto_derive; [exact I|reflexivity]. }
            unfold minus, plus, opp, scal, zero; cbn -[xx cos sin pow]. unfold mult; cbn -[xx cos sin pow]. unfold Rminus. ring.
          + auto_derive; [exact I|ring].
          + specialize (P t T0). lra. }
      unfold minus, plus, opp, scal; cbn -[xx cos sin pow]. unfold mult; cbn -[xx cos sin pow].
      rewrite (sin_minus (xx t) phi). field. split; lra.
    - intros t T. apply div_nonneg; [pose proof (COS_bound (xx t - phi)); lra|].
      apply Rmult_lt_0_compat; apply pow_lt; lra. }
  unfold J in Q. rewrite E in Q. replace (phi - phi) with 0 in Q by ring. rewrite cos_0 in Q.
  assert (0 <= (1 - cos (xx w - phi)) / (PI ^ 2 * w ^ 3)) by (apply div_nonneg; [pose proof (COS_bound (xx w - phi)); lra|apply P; lra]).
  unfold Rdiv in *. lra.
Qed.

(** At [xx w0 = phi] the combination is D1. *)
Lemma G_D1 w0 phi : 0 < w0 -> xx w0 = phi -> U w0 * cos phi + V w0 * sin phi = cos phi * FresnelC w0 + sin phi * FresnelS w0.
Proof. intros W <-. pose proof PI_gt. unfold U, V. field. split; lra. Qed.

(** ** D1 is positive where it is used *)
Fixpoint pevQ (p : list Z) (q : Q) : Q := match p with [] => 0%Q | a :: p' => Qred (inject_Z a + q * pevQ p' q)%Q end.
Lemma pevQ_R p q : Q2R (pevQ p q) = peval p (Q2R q).
Proof.
  induction p as [|a p IH]; [with_strategy transparent [peval] cbn; unfold Q2R; cbn; lra|].
  cbn [pevQ]. rewrite (Qeq_eqR _ _ (Qred_correct _)), Q2R_plus, Q2R_mult, IH, Q2R_inject.
  with_strategy transparent [peval] cbn [peval]. reflexivity.
Qed.
Fixpoint horQ (l : list Z) (q : Q) : Q := match l with [] => 0%Q | a :: l' => Qred (inject_Z a + q * horQ l' q)%Q end.
Lemma horQ_R l q : Q2R (horQ l q) = hornerR (map IZR l) (Q2R q).
Proof.
  induction l as [|a l IH]; [cbn; unfold Q2R; cbn; lra|].
  cbn [horQ map hornerR]. rewrite (Qeq_eqR _ _ (Qred_correct _)), Q2R_plus, Q2R_mult, IH, Q2R_inject. reflexivity.
Qed.

Definition al : R := 22974 / 10000.
Definition alQ : Q := 11487 # 5000.
Lemma al_Q : Q2R alQ = al.
Proof. unfold Q2R, alQ, al; cbn. lra. Qed.

Lemma Q_le_R (a b : Q) : Qle_bool a b = true -> Q2R a <= Q2R b.
Proof. intros H. apply Qle_Rle. apply Qle_bool_iff. exact H. Qed.
Lemma Q2R_frac n d : Q2R (n # d) = IZR n / IZR (Z.pos d).
Proof. reflexivity. Qed.

Definition ncos : Q := horQ lcos (- (alQ * alQ))%Q.
Definition nsin : Q := (alQ * horQ lsin (- (alQ * alQ)))%Q.
Definition nz : Q := (alQ * alQ / 32 - 1)%Q.

Lemma nz_R : Q2R nz = al ^ 2 / 32 - 1.
Proof. unfold nz, Q2R, alQ, al; cbn. lra. Qed.
Lemma nsq_R : Q2R (- (alQ * alQ))%Q = - al ^ 2.
Proof. rewrite Q2R_opp, Q2R_mult, al_Q. ring. Qed.

Lemma Mf_pos : 0 < IZR Mf.
Proof. apply IZR_lt. vm_compute. reflexivity. Qed.
Lemma Q2R_num a (b : positive) : Q2R (a # b) = IZR a / IZR (Z.pos b).
Proof. reflexivity. Qed.
Lemma scaled_le (q : Q) (M : Z) a (b : positive) : (0 < M)%Z -> Qle_bool ((a # b) * inject_Z M) q = true ->
  IZR a / IZR (Z.pos b) <= Q2R q / IZR M.
Proof.
  intros P H. apply Q_le_R in H. rewrite Q2R_mult, Q2R_inject, Q2R_num in H. apply IZR_lt in P.
  apply (Rmult_le_reg_r (IZR M)); [exact P|]. unfold Rdiv at 2. rewrite Rmult_assoc, Rinv_l, Rmult_1_r by lra. exact H.
Qed.
Lemma scaled_ge (q : Q) (M : Z) a (b : positive) : (0 < M)%Z -> Qle_bool q ((a # b) * inject_Z M) = true ->
  Q2R q / IZR M <= IZR a / IZR (Z.pos b).
Proof.
  intros P H. apply Q_le_R in H. rewrite Q2R_mult, Q2R_inject, Q2R_num in H. apply IZR_lt in P.
  apply (Rmult_le_reg_r (IZR M)); [exact P|]. unfold Rdiv at 1. rewrite Rmult_assoc, Rinv_l, Rmult_1_r by lra. exact H.
Qed.

Lemma cos_al : - 66433494 / 100000000 <= cos al <= - 66433493 / 100000000.
Proof.
  assert (B : Rabs (cos al - tcos 26 al) <= 3 / 100000000000000000000000) by (apply cos_taylor26; unfold al; lra).
  assert (E : IZR Mf * tcos 26 al = Q2R ncos) by (unfold ncos; rewrite horQ_R, nsq_R; apply tcos_26). pose proof Mf_pos.
  assert (T : tcos 26 al = Q2R ncos / IZR Mf) by (rewrite <- E; field; lra).
  assert (L : -664334939 / 1000000000 <= Q2R ncos / IZR Mf) by (apply scaled_le; vm_compute; reflexivity).
  assert (G : Q2R ncos / IZR Mf <= -664334937 / 1000000000) by (apply scaled_ge; vm_compute; reflexivity).
  rewrite T in B. apply Rabs_le_between in B. lra.
Qed.
Lemma sin_al : 7474350 / 10000000 <= sin al.
Proof.
  assert (B : Rabs (sin al - tsin 26 al) <= 3 / 100000000000000000000000) by (apply sin_taylor26; unfold al; lra).
  assert (E : IZR Mf * tsin 26 al = Q2R nsin) by (unfold nsin; rewrite Q2R_mult, horQ_R, nsq_R, al_Q; apply tsin_26). pose proof Mf_pos.
  assert (T : tsin 26 al = Q2R nsin / IZR Mf) by (rewrite <- E; field; lra).
  assert (L : 747435005 / 1000000000 <= Q2R nsin / IZR Mf) by (apply scaled_le; vm_compute; reflexivity).
  rewrite T in B. apply Rabs_le_between in B. lra.
Qed.
Lemma pA_al : peval pA (al ^ 2 / 32 - 1) / Dr <= 1173075796 / 1000000000.
Proof.
  rewrite <- nz_R, <- pevQ_R. change Dr with (IZR 100000000000000000000).
  apply scaled_ge; vm_compute; reflexivity.
Qed.
Lemma pW_al : 3630931996 / 1000000000 <= peval pW (al ^ 2 / 32 - 1) / Dr.
Proof.
  rewrite <- nz_R, <- pevQ_R. change Dr with (IZR 100000000000000000000).
  apply scaled_le; vm_compute; reflexivity.
Qed.

Definition T1 (s : R) : R := cos (xx s) * FresnelC s + sin (xx s) * FresnelS s.

Lemma T1_al s : 0 < s -> xx s = al -> 22 / 1000000 * s <= T1 s.
Proof.
  intros S E. pose proof PI_bounds. assert (S2 : s <= 2) by (unfold xx, al in E; nra).
  pose proof (rel_C s ltac:(lra)) as A. pose proof (rel_S s ltac:(lra)) as B.
  unfold fresnelC in A. unfold fresnelS in B. rewrite fresnel_pos in A, B by lra. cbn [fst snd] in A, B.
  destruct (Rle_dec (xx s) 8) as [_|N]; [|rewrite E in N; unfold al in N; lra].
  unfold cl in A. unfold sl in B. unfold zl in A, B. rewrite E in A, B.
  pose proof pA_al. pose proof pW_al. pose proof cos_al. pose proof sin_al.
  unfold T1. rewrite E. apply Rabs_le_between in A, B.
  set (P := peval pA (al ^ 2 / 32 - 1) / Dr) in *. set (W := peval pW (al ^ 2 / 32 - 1) / Dr) in *.
  assert (A2 : FresnelC s <= s * (58653790 / 100000000)) by nra.
  assert (B2 : s * (2297400 / 8000000 * (36309319 / 20000000)) - s / 10 ^ 17 <= FresnelS s) by (unfold al in B; nra).
  assert (A3 : - (66433494 / 100000000) * (s * (58653790 / 100000000)) <= cos al * FresnelC s).
  { destruct (Rle_dec 0 (FresnelC s)); nra. }
  assert (B3 : 7474350 / 10000000 * (s * (2297400 / 8000000 * (36309319 / 20000000)) - s / 10 ^ 17) <= sin al * FresnelS s).
  { apply Rmult_le_compat; lra. }
  lra.
Qed.

Lemma d_T1 s : is_derive T1 s (PI * s * (- sin (xx s) * FresnelC s + cos (xx s) * FresnelS s) + 1).
Proof.
  unfold T1. evar_last.
  { apply @is_derive_plus; apply (is_derive_mult (K := R_AbsRing)).
    - apply (is_derive_comp cos xx); [apply is_derive_cos|apply d_xx].
    - apply is_derive_FC.
    - intros; apply Rmult_comm.
    - apply (is_derive_comp sin xx); [apply is_derive_sin|apply d_xx].
    - apply is_derive_FS.
    - intros; apply Rmult_comm. }
  unfold minus, plus, opp, scal; cbn -[xx cos sin pow FresnelC FresnelS]. unfold mult; cbn -[xx cos sin pow FresnelC FresnelS].
  replace (PI * s * (- sin (xx s) * FresnelC s + cos (xx s) * FresnelS s) + 1) with
    (PI * s * (- sin (xx s) * FresnelC s + cos (xx s) * FresnelS s) + (Rsqr (sin (xx s)) + Rsqr (cos (xx s))))
    by (rewrite (sin2_cos2 (xx s)); reflexivity).
  unfold Rsqr. fold (xx s). match goal with |- ?a = ?b => change (@eq R a b) end. ring.
Qed.

Lemma xx_root a : 0 <= a -> xx (sqrt (2 * a / PI)) = a.
Proof.
  intros A. pose proof PI_gt. unfold xx. cbn [pow]. rewrite Rmult_1_r, sqrt_sqrt; [field; lra|].
  apply div_nonneg; lra.
Qed.
Lemma xx_inj a b : 0 <= a -> 0 <= b -> xx a = xx b -> a = b.
Proof. intros A B E. pose proof PI_gt. unfold xx in E. apply Rmult_eq_reg_l in E; [|lra]. apply Rsqr_inj; auto. unfold Rsqr. lra. Qed.
Lemma xx_lt a b : 0 <= a < b -> xx a < xx b.
Proof. intros A. pose proof PI_gt. unfold xx. apply Rmult_lt_compat_l; [lra|]. cbn [pow]. rewrite !Rmult_1_r. apply Rmult_le_0_lt_compat; lra. Qed.
Lemma xx_1 : xx 1 = PI / 2.
Proof. unfold xx. ring. Qed.

Lemma sin_jordan x : 0 <= x <= PI / 2 -> 2 / PI * x <= sin x.
Proof.
  intros X. pose proof PI_bounds as P. set (c := 2 / PI).
  assert (C : 0 < c < 1). { unfold c. split; [apply Rdiv_lt_0_compat; lra|]. apply (Rmult_lt_reg_r PI); [lra|]. field_simplify; lra. }
  set (x0 := acos c). assert (X0 : 0 <= x0 <= PI) by (apply acos_bound). assert (CX : cos x0 = c) by (apply cos_acos; lra).
  assert (X1 : x0 <= PI / 2). { destruct (Rle_dec x0 (PI / 2)); [assumption|]. exfalso. pose proof (cos_le_0 x0 ltac:(lra) ltac:(lra)). lra. }
  assert (D : forall t, is_derive (fun t => sin t - c * t) t (cos t - c)) by (intros t; auto_derive; [exact I|ring]).
  assert (D' : forall t, is_derive (fun t => c * t - sin t) t (c - cos t)) by (intros t; auto_derive; [exact I|ring]).
  destruct (Rle_dec x x0) as [L|L].
  - pose proof (nondecr (fun t => sin t - c * t) (fun t => cos t - c) 0 x ltac:(lra) ltac:(intros; apply D)) as N.
    cbv beta in N. rewrite sin_0 in N. enough (0 - c * 0 <= sin x - c * x) by lra. apply N. intros t T. rewrite <- CX.
    pose proof (cos_decr_1 t x0 ltac:(lra) ltac:(lra) ltac:(lra) ltac:(lra) ltac:(lra)). lra.
  - pose proof (nondecr (fun t => c * t - sin t) (fun t => c - cos t) x (PI / 2) ltac:(lra) ltac:(intros; apply D')) as N.
    cbv beta in N. rewrite sin_PI2 in N. replace (c * (PI / 2) - 1) with 0 in N by (unfold c; field; lra).
    enough (c * x - sin x <= 0) by lra. apply N. intros t T. rewrite <- CX.
    pose proof (cos_decr_1 x0 t ltac:(lra) ltac:(lra) ltac:(lra) ltac:(lra) ltac:(lra)). lra.
Qed.

Lemma T1_small s : 0 < s <= 1 -> 42 / 100 * s <= T1 s.
Proof.
  intros S. pose proof PI_gt. pose proof (FC_low1 s ltac:(lra)) as A. pose proof (FS_low1 s ltac:(lra)) as B.
  assert (S2 : 0 < s ^ 2 <= 1) by (cbn; nra).
  assert (X : 0 < xx s <= PI / 2) by (unfold xx; nra).
  assert (Sn : s ^ 2 <= sin (xx s)). { pose proof (sin_jordan (xx s) ltac:(lra)) as J. unfold xx in J at 1. replace (2 / PI * (PI / 2 * s ^ 2)) with (s ^ 2) in J by (field; lra). exact J. }
  assert (Cn : 1 - s ^ 2 <= cos (xx s)).
  { rewrite cos_sin. pose proof (sin_jordan (PI / 2 - xx s) ltac:(lra)) as J.
    replace (2 / PI * (PI / 2 - xx s)) with (1 - s ^ 2) in J by (unfold xx; field; lra).
    rewrite <- (sin_PI_x (PI / 2 + xx s)). replace (PI - (PI / 2 + xx s)) with (PI / 2 - xx s) by field. exact J. }
  unfold T1.
  assert ((1 - s ^ 2) * (3 / 4 * s) <= cos (xx s) * FresnelC s) by (apply Rmult_le_compat; lra).
  assert (P3 : 0 <= 43 / 100 * s ^ 3) by (assert (0 < s ^ 3) by (apply pow_lt; lra); lra).
  assert (s ^ 2 * (43 / 100 * s ^ 3) <= sin (xx s) * FresnelS s) by (apply Rmult_le_compat; lra).
  assert (0 <= s * (75 / 100 - 75 / 100 * s ^ 2 + 43 / 100 * (s ^ 2) ^ 2 - 42 / 100)).
  { apply Rmult_le_pos; [lra|]. pose proof (pow2_ge_0 (s ^ 2 - 872 / 1000)). set (u := s ^ 2) in *. nra. }
  replace (s * (75 / 100 - 75 / 100 * s ^ 2 + 43 / 100 * (s ^ 2) ^ 2 - 42 / 100)) with
    ((1 - s ^ 2) * (3 / 4 * s) + s ^ 2 * (43 / 100 * s ^ 3) - 42 / 100 * s) in * by field.
  lra.
Qed.

Lemma T1_large s : 1 <= s -> xx s <= al -> 22 / 1000000 <= T1 s.
Proof.
  intros S E. pose proof PI_bounds as P. pose proof cos_al as CA. pose proof sin_al as SA.
  set (sa := sqrt (2 * al / PI)). assert (XA : xx sa = al) by (apply xx_root; unfold al; lra).
  assert (S0 : 0 <= sa) by apply sqrt_pos.
  assert (SS : s <= sa). { destruct (Rle_dec s sa); [assumption|]. exfalso. pose proof (xx_lt sa s). lra. }
  assert (S1 : sa <= 121 / 100). { destruct (Rle_dec sa (121 / 100)); [assumption|]. exfalso. pose proof (xx_lt (121 / 100) sa ltac:(lra)) as Q. rewrite XA in Q. unfold xx, al in Q. lra. }
  pose proof (T1_al sa ltac:(lra) XA) as T.
  pose proof (nondecr (fun t => - T1 t) (fun t => - (PI * t * (- sin (xx t) * FresnelC t + cos (xx t) * FresnelS t) + 1)) s sa SS) as N.
  assert (- T1 s <= - T1 sa); [|lra]. apply N.
  - intros t _. apply (is_derive_opp T1). apply d_T1.
  - intros t T0. assert (X : PI / 2 <= xx t <= al).
    { rewrite <- xx_1, <- XA. unfold xx. split; apply Rmult_le_compat_l; try lra; apply pow_incr; lra. }
    assert (SN : 7474350 / 10000000 <= sin (xx t)).
    { pose proof (sin_decr_1 (xx t) al) as Q. unfold al in *. lra. }
    assert (CN : cos (xx t) <= 0) by (apply cos_le_0; unfold al in X; lra).
    assert (FS : 0 <= FresnelS t).
    { pose proof (FS_low1 1 ltac:(lra)) as F1. pose proof (nondecr FresnelS (fun v => sin (xx v)) 1 t ltac:(lra) ltac:(intros; apply is_derive_FS)) as M.
      enough (FresnelS 1 <= FresnelS t) by lra. apply M. intros v V. apply sin_ge_0; [apply xx_pos|].
      assert (xx v <= al); [|unfold al in *; lra]. rewrite <- XA. unfold xx. apply Rmult_le_compat_l; try lra; apply pow_incr; lra. }
    assert (FC : 54 / 100 <= FresnelC t).
    { pose proof (FC_low1 1 ltac:(lra)) as F1.
      pose proof (nondecr (fun v => FresnelC v + v) (fun v => cos (xx v) + 1) 1 t ltac:(lra)) as M.
      enough (FresnelC 1 + 1 <= FresnelC t + t) by lra. apply M.
      - intros v V. apply (is_derive_plus (V := R_NormedModule)); [apply is_derive_FC|apply (is_derive_id (K := R_AbsRing))].
      - intros v V. pose proof (COS_bound (xx v)). lra. }
    assert (7474350 / 10000000 * (54 / 100) <= sin (xx t) * FresnelC t) by (apply Rmult_le_compat; lra).
    assert (cos (xx t) * FresnelS t <= 0) by nra.
    assert (3 * 1 <= PI * t) by (apply Rmult_le_compat; lra). nra.
Qed.

(** ** The library's D1 *)
Lemma D1_T1 a : 0 <= a <= al -> Rabs (D1 a - T1 (sqrt (2 * a / PI))) <= 4 / 10 ^ 15.
Proof.
  intros A. unfold D1, T1. rewrite (xx_root a (proj1 A)). set (s := sqrt (2 * a / PI)).
  pose proof (accuracy s) as [B C]. pose proof (COS_bound a). pose proof (SIN_bound a).
  apply Rabs_le_between in B, C. apply Rabs_le. split; nra.
Qed.

Lemma D1_pos a : epsilon / 2 <= a <= al -> 2 / 100000 <= D1 a.
Proof.
  intros A. pose proof PI_bounds. unfold epsilon in A. assert (A0 : 0 <= a <= al) by lra. pose proof (D1_T1 a A0) as E. apply Rabs_le_between in E.
  set (s := sqrt (2 * a / PI)) in *. assert (X : xx s = a) by (apply xx_root; lra).
  assert (S0 : 0 <= s) by apply sqrt_pos.
  assert (S1 : 1 / 2000 <= s). { destruct (Rle_dec (1 / 2000) s); [assumption|]. exfalso. pose proof (xx_lt s (1 / 2000) ltac:(lra)) as Q. rewrite X in Q. unfold xx in Q. lra. }
  destruct (Rle_dec s 1).
  - pose proof (T1_small s ltac:(lra)). lra.
  - pose proof (T1_large s ltac:(lra) ltac:(lra)). lra.
Qed.

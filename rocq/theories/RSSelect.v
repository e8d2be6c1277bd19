(** * Reeds-Shepp: the selected path *)
From Coq Require Import Reals ZArith List Bool Lra Lia Psatz.
From Verif Require Import Base ModelUtil ModelFresnel ModelIntegrate ModelDubins ModelRS Num
  UtilProofs SpecPath IntegrateProofs DubinsProofs DubinsPlan DubinsOpt DubinsCases RSProofs RSPlan RSExist.
Import ListNotations.
Open Scope R_scope.

Section Fold.
  Variables two off x y phi : R.

  Lemma rs_fold cs : forall st, Forall (good_cand two off x y phi) cs ->
    rs_length (fst st) = snd st + off ->
    let r := fold_left (rs_try two) cs st in
    rs_length (fst r) = snd r + off /\ snd r <= snd st /\
    (forall c t u v, In c cs -> fst c = Some (t, u, v) -> snd r <= Rabs t + two * Rabs u + Rabs v) /\
    (fst r = fst st \/ exists c t u v, In c cs /\ fst c = Some (t, u, v) /\ fst r = snd c t u v).
  Proof.
    induction cs as [|c cs IH]; intros st G E; simpl.
    - repeat split; [assumption|lra| |left; reflexivity]. intros; contradiction.
    - inversion G as [|? ? Gc Gs]; subst.
      assert (E' : rs_length (fst (rs_try two st c)) = snd (rs_try two st c) + off /\
        snd (rs_try two st c) <= snd st /\
        (forall t u v, fst c = Some (t, u, v) -> snd (rs_try two st c) <= Rabs t + two * Rabs u + Rabs v) /\
        (fst (rs_try two st c) = fst st \/ exists t u v, fst c = Some (t, u, v) /\ fst (rs_try two st c) = snd c t u v)).
      { unfold rs_try. destruct (fst c) as [[[t u] v]|] eqn:F.
        - destruct (Rlt_dec _ _) as [L|L]; cbn [fst snd].
          + destruct (Gc t u v F) as [_ GL]. split; [lra|]. split; [lra|]. split.
            * intros ? ? ? I; injection I as <- <- <-. lra.
            * right. exists t, u, v. auto.
          + split; [assumption|]. split; [lra|]. split; [|left; reflexivity].
            intros ? ? ? I; injection I as <- <- <-. lra.
        - split; [assumption|]. split; [lra|]. split; [discriminate|left; reflexivity]. }
      destruct E' as (E1 & E2 & E3 & E4).
      destruct (IH (rs_try two st c) Gs E1) as (I1 & I2 & I3 & I4).
      split; [assumption|]. split; [lra|]. split.
      + intros c' t u v [<-|I] F; [specialize (E3 t u v F); lra|]. apply (I3 c'); assumption.
      + destruct I4 as [I4|(c' & t & u & v & J1 & J2 & J3)].
        * rewrite I4. destruct E4 as [E4|(t & u & v & J1 & J2)]; [left; assumption|].
          right. exists c, t, u, v. auto.
        * right. exists c', t, u, v. auto.
  Qed.

  Lemma rs_pick_spec path cs : Forall (good_cand two off x y phi) cs ->
    let r := rs_pick two off path cs in
    rs_length r <= rs_length path /\
    (forall c t u v, In c cs -> fst c = Some (t, u, v) -> rs_length r <= rs_length (snd c t u v)) /\
    (r = path \/ exists c t u v, In c cs /\ fst c = Some (t, u, v) /\ r = snd c t u v).
  Proof.
    intros G r. destruct (rs_fold cs (path, rs_length path - off) G) as (A & B & C & D); [simpl; ring|].
    fold (rs_pick two off path cs) in A, D. fold r in A, D. cbn [fst snd] in *.
    split; [lra|]. split; [|assumption].
    intros c t u v I F. specialize (C c t u v I F).
    rewrite Forall_forall in G. destruct (G c I t u v F) as [_ L]. lra.
  Qed.
End Fold.

Definition is_cand (x y phi : R) (P : RSPath) : Prop :=
  exists c t u v, In c (all_cands x y phi) /\ fst c = Some (t, u, v) /\ P = snd c t u v.

Lemma rs_select x y phi : let P := reeds_shepp x y phi in
  (P = rs_none \/ is_cand x y phi P) /\ rs_length P <= rs_length rs_none /\
  (forall Q, is_cand x y phi Q -> rs_length P <= rs_length Q).
Proof.
  unfold reeds_shepp, CCSCC, CCSC, CCCC, CCC, CSC.
  set (p1 := rs_pick 1 0 rs_none (CSC_cands x y phi)).
  set (p2 := rs_pick 1 0 p1 (CCC_cands x y phi)).
  set (p3 := rs_pick 2 0 p2 (CCCC_cands x y phi)).
  set (p4 := rs_pick 1 (1 / 2 * PI) p3 (CCSC_cands x y phi)).
  set (p5 := rs_pick 1 PI p4 (CCSCC_cands x y phi)).
  destruct (rs_pick_spec 1 0 x y phi rs_none _ (CSC_good x y phi)) as (A1 & B1 & C1). fold p1 in A1, B1, C1.
  destruct (rs_pick_spec 1 0 x y phi p1 _ (CCC_good x y phi)) as (A2 & B2 & C2). fold p2 in A2, B2, C2.
  destruct (rs_pick_spec 2 0 x y phi p2 _ (CCCC_good x y phi)) as (A3 & B3 & C3). fold p3 in A3, B3, C3.
  destruct (rs_pick_spec 1 _ x y phi p3 _ (CCSC_good x y phi)) as (A4 & B4 & C4). fold p4 in A4, B4, C4.
  destruct (rs_pick_spec 1 _ x y phi p4 _ (CCSCC_good x y phi)) as (A5 & B5 & C5). fold p5 in A5, B5, C5.
  cbv zeta. split; [|split].
  - unfold is_cand, all_cands.
    destruct C5 as [->|(c & t & u & v & I & F & ->)];
      [|right; exists c, t, u, v; rewrite !in_app_iff; auto 10].
    destruct C4 as [->|(c & t & u & v & I & F & ->)];
      [|right; exists c, t, u, v; rewrite !in_app_iff; auto 10].
    destruct C3 as [->|(c & t & u & v & I & F & ->)];
      [|right; exists c, t, u, v; rewrite !in_app_iff; auto 10].
    destruct C2 as [->|(c & t & u & v & I & F & ->)];
      [|right; exists c, t, u, v; rewrite !in_app_iff; auto 10].
    destruct C1 as [->|(c & t & u & v & I & F & ->)];
      [|right; exists c, t, u, v; rewrite !in_app_iff; auto 10].
    left. reflexivity.
  - lra.
  - intros Q (c & t & u & v & I & F & ->). unfold all_cands in I. rewrite !in_app_iff in I.
    destruct I as [I|[I|[I|[I|I]]]].
    + specialize (B1 c t u v I F). lra.
    + specialize (B2 c t u v I F). lra.
    + specialize (B3 c t u v I F). lra.
    + specialize (B4 c t u v I F). lra.
    + specialize (B5 c t u v I F). lra.
Qed.

Lemma all_cands_good x y phi c t u v : In c (all_cands x y phi) -> fst c = Some (t, u, v) ->
  rs_reaches x y phi (snd c t u v) /\
  rs_length (snd c t u v) <= 4 * (Rabs x + Rabs y) + 30.
Proof.
  intros I F.
  assert (B : bounded_sol (2 * (Rabs x + Rabs y) + 7) (Some (t, u, v))).
  { rewrite <- F. apply (solvers_bounded x y phi). apply in_map. assumption. }
  destruct (B t u v eq_refl) as (B1 & B2 & B3).
  pose proof PI_4 as P4. pose proof PI_RGT_0 as P0.
  assert (G : exists two off, two <= 2 /\ 0 <= two /\ off <= PI /\ good_cand two off x y phi c).
  { unfold all_cands in I. rewrite !in_app_iff in I.
    pose proof (CSC_good x y phi) as G1. pose proof (CCC_good x y phi) as G2.
    pose proof (CCCC_good x y phi) as G3. pose proof (CCSC_good x y phi) as G4.
    pose proof (CCSCC_good x y phi) as G5. rewrite Forall_forall in G1, G2, G3, G4, G5.
    destruct I as [I|[I|[I|[I|I]]]].
    - exists 1, 0. repeat split; try lra; apply (G1 c I t0 u0 v0); assumption.
    - exists 1, 0. repeat split; try lra; apply (G2 c I t0 u0 v0); assumption.
    - exists 2, 0. repeat split; try lra; apply (G3 c I t0 u0 v0); assumption.
    - exists 1, (1 / 2 * PI). repeat split; try lra; apply (G4 c I t0 u0 v0); assumption.
    - exists 1, PI. repeat split; try lra; apply (G5 c I t0 u0 v0); assumption. }
  destruct G as (two & off & T1 & T2 & T3 & G). destruct (G t u v F) as [R L].
  split; [assumption|]. rewrite L. pose proof (Rabs_pos u). nra.
Qed.

Lemma rs_none_length : rs_length rs_none = DBL_MAX.
Proof.
  unfold rs_length; simpl. rewrite !Rabs_R0. rewrite Rabs_pos_eq; [ring|].
  pose proof DBL_MAX_big. assert (0 <= 10 ^ 300) by (apply pow_le; lra). lra.
Qed.

(** Existence: within range the planner returns a candidate. *)
Lemma rs_found x y phi : Rabs x + Rabs y <= 10 ^ 299 * 2 -> is_cand x y phi (reeds_shepp x y phi).
Proof.
  intros B. destruct (rs_select x y phi) as ([N|C] & _ & M); [exfalso|assumption].
  destruct (rs_exists x y phi) as (s & I & NN). unfold solvers in I. apply in_map_iff in I.
  destruct I as (c & F & I). destruct s as [[[t u] v]|]; [|congruence].
  destruct (all_cands_good x y phi c t u v I F) as [_ L].
  specialize (M (snd c t u v) ltac:(exists c, t, u, v; auto)). rewrite N, rs_none_length in M.
  pose proof DBL_MAX_big. assert (E : 10 ^ 300 = 10 * 10 ^ 299) by reflexivity.
  assert (0 <= 10 ^ 299) by (apply pow_le; lra). lra.
Qed.

Lemma rs_found_length x y phi : Rabs x + Rabs y <= 10 ^ 299 * 2 ->
  rs_length (reeds_shepp x y phi) <= 4 * (Rabs x + Rabs y) + 30 /\
  rs_reaches x y phi (reeds_shepp x y phi).
Proof.
  intros B. destruct (rs_found x y phi B) as (c & t & u & v & I & F & ->).
  destruct (all_cands_good x y phi c t u v I F). auto.
Qed.

(** ** From the normalised problem to states *)

Lemma rs_args_place kappa s1 s2 x y phi : 0 < kappa -> rs_args kappa s1 s2 = (x, y, phi) ->
  psim (pose s1) (place kappa (st_x s1) (st_y s1) (st_theta s1) origin) /\
  psim (pose s2) (place kappa (st_x s1) (st_y s1) (st_theta s1) (x, y, phi)) /\
  Rabs x <= kappa * pos_dist s1 s2 /\ Rabs y <= kappa * pos_dist s1 s2.
Proof.
  intros K E. unfold rs_args in E. injection E as <- <- <-.
  set (c := cos (st_theta s1)). set (s := sin (st_theta s1)).
  set (dx := st_x s2 - st_x s1). set (dy := st_y s2 - st_y s1).
  assert (Q : s * s + c * c = 1) by apply sin2_cos2'.
  assert (D : pos_dist s1 s2 = sqrt (dx ^ 2 + dy ^ 2)) by (unfold pos_dist, dx, dy; f_equal; ring).
  assert (N : 0 <= dx ^ 2 + dy ^ 2) by (apply Rplus_le_le_0_compat; apply pow2_ge_0).
  assert (B : forall a b, a ^ 2 + b ^ 2 = dx ^ 2 + dy ^ 2 -> Rabs (a * kappa) <= kappa * pos_dist s1 s2).
  { intros a b H. rewrite Rabs_mult, (Rabs_pos_eq kappa) by lra. rewrite Rmult_comm.
    apply Rmult_le_compat_l; [lra|]. rewrite D. apply Rsqr_incr_0_var; [|apply sqrt_pos].
    unfold Rsqr. rewrite sqrt_sqrt by assumption. rewrite <- Rabs_mult, Rabs_pos_eq by nra.
    rewrite <- H. pose proof (pow2_ge_0 b). lra. }
  split; [|split; [|split]].
  - unfold psim, pose, place, origin, px, py, pth; simpl. repeat split; try (field; lra). apply ang_eq_of_eq. ring.
  - unfold psim, pose, place, px, py, pth; simpl. fold c s. repeat split.
    + replace (((c * dx + s * dy) * kappa * c - (- s * dx + c * dy) * kappa * s) / kappa)
        with ((s * s + c * c) * dx) by (field; lra). rewrite Q. unfold dx. ring.
    + replace (((c * dx + s * dy) * kappa * s + (- s * dx + c * dy) * kappa * c) / kappa)
        with ((s * s + c * c) * dy) by (field; lra). rewrite Q. unfold dy. ring.
    + apply ang_eq_of_eq. ring.
  - apply (B _ (- s * dx + c * dy)).
    transitivity ((s * s + c * c) * (dx ^ 2 + dy ^ 2)); [ring|]. rewrite Q. ring.
  - apply (B _ (c * dx + s * dy)).
    transitivity ((s * s + c * c) * (dx ^ 2 + dy ^ 2)); [ring|]. rewrite Q. ring.
Qed.

Lemma reaches_drive kappa s1 s2 x y phi P : 0 < kappa -> rs_args kappa s1 s2 = (x, y, phi) ->
  rs_reaches x y phi P ->
  same_pose (drive_all s1 (rs_controls kappa (rs_type P) (rs_len P))) s2.
Proof.
  intros K E H. destruct (rs_args_place _ _ _ _ _ _ K E) as (P1 & P2 & _).
  rewrite rs_controls_word.
  pose proof (drive_all_place kappa _ _ _ (dsegs (rs_type P)) (rs_len P) origin s1 ltac:(lra) P1) as D.
  refine (psim_trans (pose _) _ (pose s2) D _).
  refine (psim_trans _ _ (pose s2) _ (psim_sym _ _ P2)).
  destruct H as (X & Y & A). unfold place, psim, px, py, pth in *; simpl in *. rewrite X, Y.
  repeat split. apply ang_eq_add; [assumption|apply ang_eq_refl].
Qed.

Lemma rs_reach_goal kappa s1 s2 : 0 < kappa -> kappa * pos_dist s1 s2 <= 10 ^ 299 ->
  same_pose (drive_all s1 (rs_get_controls kappa s1 s2)) s2.
Proof.
  intros K D. unfold rs_get_controls, rs_path.
  destruct (rs_args kappa s1 s2) as [[x y] phi] eqn:E.
  destruct (rs_args_place _ _ _ _ _ _ K E) as (_ & _ & BX & BY).
  apply (reaches_drive kappa s1 s2 x y phi); [assumption|assumption|].
  apply rs_found_length. lra.
Qed.

(** ** Shape and length of the controls *)

Lemma cand_shape x y phi P : is_cand x y phi P ->
  exists i lens, (i < 18)%nat /\ P = mkRSPath (rs_path_type i) lens /\ length lens = 5%nat /\
    forall k, rs_length P =
      total_length (map (fun x => mkControl (snd x) k 0) (combine (dsegs (rs_path_type i)) lens)).
Proof.
  intros (c & t & u & v & I & F & ->). clear F.
  unfold all_cands, CSC_cands, CCC_cands, CCCC_cands, CCSC_cands, CCSCC_cands in I. cbv zeta in I.
  cbn [app] in I. unfold In in I.
  decompose [or] I; try contradiction; subst c; cbn [fst snd]; clear I;
  (match goal with |- context [rs_path_type ?i] => exists i end);
  eexists; (split; [lia|split; [reflexivity|split; [reflexivity|]]]);
  intros k; unfold rs_length; simpl; rewrite ?Rabs_R0; ring.
Qed.

Lemma rs_path_shape kappa s1 s2 :
  exists i lens, (i < 18)%nat /\ rs_path kappa s1 s2 = mkRSPath (rs_path_type i) lens /\ length lens = 5%nat /\
    forall k, rs_length (rs_path kappa s1 s2) =
      total_length (map (fun x => mkControl (snd x) k 0) (combine (dsegs (rs_path_type i)) lens)).
Proof.
  unfold rs_path. destruct (rs_args kappa s1 s2) as [[x y] phi].
  destruct (rs_select x y phi) as ([->|C] & _ & _); [|exact (cand_shape x y phi _ C)].
  exists 0%nat, [DBL_MAX; 0; 0; 0; 0]. split; [lia|]. split; [reflexivity|]. split; [reflexivity|].
  intros k. unfold rs_length; simpl. rewrite !Rabs_R0. ring.
Qed.

Lemma total_length_scale a (f g : DSeg * R -> Control) (l : list (DSeg * R)) : 0 <= a ->
  (forall x, ct_delta_s (f x) = a * ct_delta_s (g x)) -> total_length (map f l) = a * total_length (map g l).
Proof.
  intros A H. induction l as [|x l IH]; simpl; [ring|]. rewrite H, Rabs_mult, (Rabs_pos_eq a A), IH. ring.
Qed.

Lemma rs_distance_length kappa s1 s2 : 0 < kappa ->
  rs_distance kappa s1 s2 = total_length (rs_get_controls kappa s1 s2).
Proof.
  intros K. unfold rs_distance, rs_get_controls.
  destruct (rs_path_shape kappa s1 s2) as (i & lens & _ & E & _ & L). rewrite (L 0), E. cbn [rs_type rs_len].
  rewrite rs_controls_word. symmetry. apply total_length_scale; [apply div_nonneg; lra|].
  intros [s l]. destruct s; reflexivity.
Qed.

Lemma dsegs_length i : (i < 18)%nat -> (3 <= length (dsegs (rs_path_type i)) <= 5)%nat.
Proof. intros H. do 18 (destruct i as [|i]; [simpl; lia|]). lia. Qed.

Lemma rs_controls_shape kappa s1 s2 :
  (3 <= length (rs_get_controls kappa s1 s2) <= 5)%nat /\
  forall c, In c (rs_get_controls kappa s1 s2) ->
    (ct_kappa c = 0 \/ ct_kappa c = kappa \/ ct_kappa c = - kappa) /\ ct_sigma c = 0.
Proof.
  unfold rs_get_controls. destruct (rs_path_shape kappa s1 s2) as (i & lens & I & E & L & _).
  rewrite E; cbn [rs_type rs_len]. rewrite rs_controls_word. split.
  - rewrite map_length, combine_length. pose proof (dsegs_length i I). lia.
  - intros c H. apply in_map_iff in H. destruct H as ([s l] & <- & _). destruct s; simpl; auto.
Qed.

Lemma rs_integrated kappa disc s1 s2 path : epsilon < kappa -> 0 < disc ->
  rs_get_path kappa disc s1 s2 = Some path ->
  exists q, nth_error path (length path - 1) = Some q /\
    same_pose q (drive_all s1 (rs_get_controls kappa s1 s2)).
Proof.
  intros K D E. unfold rs_get_path in E.
  destruct (rs_controls_shape kappa s1 s2) as [L S].
  apply rs_integrate_spec in E; [|assumption|intros Z; rewrite Z in L; simpl in L; lia].
  destruct E as (_ & _ & q & Q & X & Y & T & _). exists q. split; [assumption|].
  eapply same_pose_trans; [split; [exact X|split; [exact Y|exact T]]|].
  apply state_after_drive. intros c H. apply S in H.
  assert (0 < kappa) by (unfold epsilon in K; lra).
  destruct H as [[H|[H|H]] _]; rewrite H; [left; reflexivity| |]; right.
  - rewrite Rabs_pos_eq; lra.
  - rewrite Rabs_Ropp, Rabs_pos_eq; lra.
Qed.

(** ** Rigid motions *)

Lemma rs_args_rigid kappa u v rho s1 s2 :
  rs_args kappa (rigid u v rho s1) (rigid u v rho s2) = rs_args kappa s1 s2.
Proof.
  unfold rs_args, rigid; simpl. pose proof (sin2_cos2' rho) as Q. rewrite sin_plus, cos_plus.
  set (a := sin (st_theta s1)). set (b := cos (st_theta s1)).
  apply triple_eq; [| |ring].
  - transitivity ((sin rho * sin rho + cos rho * cos rho) *
      (b * (st_x s2 - st_x s1) + a * (st_y s2 - st_y s1)) * kappa); [ring|]. rewrite Q. ring.
  - transitivity ((sin rho * sin rho + cos rho * cos rho) *
      (- a * (st_x s2 - st_x s1) + b * (st_y s2 - st_y s1)) * kappa); [ring|]. rewrite Q. ring.
Qed.

Lemma rs_rigid kappa u v rho s1 s2 :
  rs_distance kappa (rigid u v rho s1) (rigid u v rho s2) = rs_distance kappa s1 s2 /\
  rs_get_controls kappa (rigid u v rho s1) (rigid u v rho s2) = rs_get_controls kappa s1 s2.
Proof. unfold rs_distance, rs_get_controls, rs_path. rewrite rs_args_rigid. auto. Qed.

(** ** A goal straight ahead: the chosen word LSL has two arcs of length zero *)

Lemma try_keep two (cs : list RSCand) : forall st,
  (forall c t u v, In c cs -> fst c = Some (t, u, v) -> snd st <= Rabs t + two * Rabs u + Rabs v) ->
  fold_left (rs_try two) cs st = st.
Proof.
  induction cs as [|c cs IH]; intros st H; [reflexivity|].
  cbn [fold_left]. assert (E : rs_try two st c = st).
  { unfold rs_try. destruct (fst c) as [[[t u] v]|] eqn:F; [|reflexivity].
    destruct (Rlt_dec _ _) as [L|L]; [|reflexivity].
    specialize (H c t u v (or_introl eq_refl) F). lra. }
  rewrite E. apply IH. intros c' t u v I. apply H. right. assumption.
Qed.

Lemma cand_dist x y phi P : is_cand x y phi P -> Rabs x <= rs_length P.
Proof.
  intros C. destruct (cand_shape x y phi P C) as (i & lens & _ & E & _ & L).
  destruct C as (c & t & u & v & I & F & EC).
  destruct (all_cands_good x y phi c t u v I F) as [R _]. rewrite <- EC in R.
  set (s1 := mkState 0 0 0 0 0). set (s2 := mkState x y phi 0 0).
  assert (A : rs_args 1 s1 s2 = (x, y, phi)).
  { unfold rs_args, s1, s2; simpl. rewrite cos_0, sin_0. apply triple_eq; ring. }
  pose proof (reaches_drive 1 s1 s2 x y phi P ltac:(lra) A R) as D.
  apply drive_all_total in D. rewrite rs_controls_word in D.
  rewrite (total_length_scale 1 _ (fun x => mkControl (snd x) 0 0)) in D;
    [|lra|intros [[] l]; simpl; field].
  rewrite E in D. cbn [rs_type rs_len] in D. rewrite (L 0).
  eapply Rle_trans; [|rewrite Rmult_1_l in D; exact D].
  unfold pos_dist, s1, s2; simpl. rewrite <- sqrt_Rsqr_abs. apply sqrt_le_1_alt. unfold Rsqr.
  pose proof (pow2_ge_0 y). nra.
Qed.

Lemma straight_ahead a : 0 < a <= 10 ^ 299 ->
  reeds_shepp a 0 0 = mkRSPath (rs_path_type 14) [0; a; 0; 0; 0].
Proof.
  intros A. set (P := mkRSPath (rs_path_type 14) [0; a; 0; 0; 0]).
  assert (F : LpSpLp a 0 0 = Some (0, a, 0)).
  { unfold LpSpLp. rewrite sin_0, cos_0. replace (0 - 1 + 1) with 0 by ring. rewrite Rminus_0_r.
    unfold polar. replace (a * a + 0 * 0) with (a * a) by ring. rewrite sqrt_square by lra.
    rewrite atan2_pos_x by lra.
    pose proof RS_ZERO_pos. destruct (Rle_dec _ 0); [|lra].
    rewrite Rminus_0_r, (pify_unique 0) by (try apply ang_eq_refl; pose proof PI_RGT_0; lra).
    destruct (Rle_dec _ 0); [reflexivity|lra]. }
  assert (LP : rs_length P = a).
  { unfold rs_length, P; simpl. rewrite !Rabs_R0, Rabs_pos_eq by lra. ring. }
  assert (K : forall two off cs, (forall c, In c cs -> In c (all_cands a 0 0)) ->
     Forall (good_cand two off a 0 0) cs -> rs_pick two off P cs = P).
  { intros two off cs I G. unfold rs_pick. rewrite try_keep; [reflexivity|]. cbn [snd].
    intros c t u v J E. rewrite Forall_forall in G. destruct (G c J t u v E) as [_ L].
    pose proof (cand_dist a 0 0 (snd c t u v)) as D. rewrite (Rabs_pos_eq a) in D by lra.
    assert (a <= rs_length (snd c t u v)) by (apply D; exists c, t, u, v; auto). lra. }
  unfold reeds_shepp, CCSCC, CCSC, CCCC, CCC, CSC.
  assert (E1 : rs_pick 1 0 rs_none (CSC_cands a 0 0) = P).
  { assert (CG := CSC_good a 0 0).
    assert (S : forall c, In c (CSC_cands a 0 0) -> In c (all_cands a 0 0))
      by (intros c; unfold all_cands; rewrite in_app_iff; auto).
    unfold rs_pick. unfold CSC_cands in *. cbn [fold_left]. 
    match goal with |- context [rs_try 1 (rs_none, ?l) ?c] =>
      assert (T : rs_try 1 (rs_none, l) c = (P, a)) end.
    { unfold rs_try. cbn [fst snd]. rewrite F, rs_none_length, !Rabs_R0, Rabs_pos_eq by lra.
      pose proof DBL_MAX_big. assert (10 ^ 300 = 10 * 10 ^ 299) by reflexivity.
      destruct (Rlt_dec _ _) as [_|N]; [|lra]. f_equal. ring. }
    rewrite T. clear T.
    match goal with |- fst (rs_try 1 (rs_try 1 (rs_try 1 (rs_try 1 (rs_try 1 (rs_try 1 (rs_try 1 ?st ?c2) ?c3) ?c4) ?c5) ?c6) ?c7) ?c8) = _ =>
      change (fst (fold_left (rs_try 1) [c2; c3; c4; c5; c6; c7; c8] st) = P) end.
    match type of CG with Forall _ (_ :: ?cs) => pose proof (K 1 0 cs) as K1 end.
    unfold rs_pick in K1. rewrite LP, Rminus_0_r in K1. apply K1.
    - intros c I. apply S. right. exact I.
    - inversion CG; assumption. }
  rewrite E1.
  rewrite (K 1 0 (CCC_cands a 0 0)); [|intros c I; unfold all_cands; rewrite !in_app_iff; auto|apply CCC_good].
  rewrite (K 2 0 (CCCC_cands a 0 0)); [|intros c I; unfold all_cands; rewrite !in_app_iff; auto|apply CCCC_good].
  rewrite (K 1 _ (CCSC_cands a 0 0)); [|intros c I; unfold all_cands; rewrite !in_app_iff; auto|apply CCSC_good].
  apply K; [intros c I; unfold all_cands; rewrite !in_app_iff; auto 10|apply CCSCC_good].
Qed.

Lemma straight_controls a : 0 < a <= 10 ^ 299 ->
  rs_get_controls 1 (mkState 0 0 0 0 0) (mkState a 0 0 0 0) =
  [mkControl 0 1 0; mkControl a 0 0; mkControl 0 1 0].
Proof.
  intros A. unfold rs_get_controls, rs_path, rs_args; cbn [st_x st_y st_theta].
  rewrite cos_0, sin_0. replace ((1 * (a - 0) + 0 * (0 - 0)) * 1) with a by ring.
  replace ((- 0 * (a - 0) + 1 * (0 - 0)) * 1) with 0 by ring. rewrite Rminus_0_r.
  rewrite straight_ahead by assumption. simpl.
  replace (1 / 1 * 0) with 0 by field. replace (1 / 1 * a) with a by field. reflexivity.
Qed.

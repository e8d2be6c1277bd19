(** * From the solved Dubins words to the planner interface *)
From Coq Require Import Reals ZArith List Bool Lra Lia Psatz.
From Verif Require Import Base ModelUtil ModelFresnel ModelIntegrate ModelDubins Num UtilProofs
  SpecPath IntegrateProofs DubinsProofs.
Import ListNotations.
Open Scope R_scope.

(** ** Placing the plane of curvature 1 in the world *)

Definition pose (s : State) : R * R * R := (st_x s, st_y s, st_theta s).
Definition px (P : R * R * R) := fst (fst P).
Definition py (P : R * R * R) := snd (fst P).
Definition pth (P : R * R * R) := snd P.

Definition place (kappa x0 y0 th : R) (P : R * R * R) : R * R * R :=
  (x0 + (px P * cos th - py P * sin th) / kappa, y0 + (px P * sin th + py P * cos th) / kappa,
   pth P + th).

Definition psim (P Q : R * R * R) : Prop := px P = px Q /\ py P = py Q /\ ang_eq (pth P) (pth Q).

Lemma psim_refl P : psim P P.
Proof. repeat split. apply ang_eq_refl. Qed.
Lemma psim_sym P Q : psim P Q -> psim Q P.
Proof. intros (A & B & C). repeat split; auto. apply ang_eq_sym. assumption. Qed.
Lemma psim_trans P Q S : psim P Q -> psim Q S -> psim P S.
Proof. intros (A & B & C) (A' & B' & C'). repeat split; try congruence. eapply ang_eq_trans; eassumption. Qed.
Lemma psim_pose a b : psim (pose a) (pose b) <-> same_pose a b.
Proof. reflexivity. Qed.

Lemma same_pose_trans a b c : same_pose a b -> same_pose b c -> same_pose a c.
Proof. intros H G. exact (psim_trans (pose a) (pose b) (pose c) H G). Qed.
Lemma same_pose_sym a b : same_pose a b -> same_pose b a.
Proof. intros H. exact (psim_sym (pose a) (pose b) H). Qed.
Lemma same_pose_refl a : same_pose a a.
Proof. exact (psim_refl (pose a)). Qed.

Lemma drive_place kappa seg l x0 y0 th P s : kappa <> 0 ->
  psim (pose s) (place kappa x0 y0 th P) ->
  psim (pose (drive s (dubins_control kappa seg l))) (place kappa x0 y0 th (useg seg l P)).
Proof.
  intros K (X & Y & A). destruct P as [[x y] a]. destruct s as [sx sy sth sk sd].
  unfold place, pose, px, py, pth in *; simpl in *. subst sx sy.
  assert (K' : - kappa <> 0) by lra.
  assert (E1 : kappa * (1 / kappa * l) = l) by (field; assumption).
  assert (E2 : - kappa * (1 / kappa * l) = - l) by (field; assumption).
  unfold drive, dubins_control.
  destruct seg; cbn [ct_delta_s ct_kappa st_x st_y st_theta useg fst snd].
  - destruct (Req_EM_T kappa 0) as [|_]; [contradiction|]. rewrite E1.
    assert (B : ang_eq (sth + l) (a + l + th)).
    { eapply ang_eq_trans; [apply ang_eq_add; [exact A|apply ang_eq_refl]|]. apply ang_eq_of_eq. ring. }
    unfold psim, px, py, pth; cbn [fst snd st_x st_y st_theta].
    rewrite (ang_eq_sin _ _ B), (ang_eq_cos _ _ B), (ang_eq_sin _ _ A), (ang_eq_cos _ _ A).
    repeat (rewrite ?sin_plus, ?cos_plus, ?sin_minus, ?cos_minus).
    repeat split; try (field; assumption).
    eapply ang_eq_trans; [exact B|]. apply ang_eq_of_eq. ring.
  - destruct (Req_EM_T 0 0) as [_|]; [|lra].
    unfold psim, px, py, pth; cbn [fst snd st_x st_y st_theta].
    rewrite (ang_eq_sin _ _ A), (ang_eq_cos _ _ A), sin_plus, cos_plus.
    repeat split; try (field; assumption). assumption.
  - destruct (Req_EM_T (- kappa) 0) as [|_]; [contradiction|]. rewrite E2.
    assert (B : ang_eq (sth + - l) (a - l + th)).
    { eapply ang_eq_trans; [apply ang_eq_add; [exact A|apply ang_eq_refl]|]. apply ang_eq_of_eq. ring. }
    unfold psim, px, py, pth; cbn [fst snd st_x st_y st_theta].
    rewrite (ang_eq_sin _ _ B), (ang_eq_cos _ _ B), (ang_eq_sin _ _ A), (ang_eq_cos _ _ A).
    repeat (rewrite ?sin_plus, ?cos_plus, ?sin_minus, ?cos_minus).
    repeat split; try (field; assumption).
    eapply ang_eq_trans; [exact B|]. apply ang_eq_of_eq. ring.
Qed.

Lemma drive_all_place kappa x0 y0 th ty : forall ls P s, kappa <> 0 ->
  psim (pose s) (place kappa x0 y0 th P) ->
  psim (pose (drive_all s (map (fun x => dubins_control kappa (fst x) (snd x)) (combine ty ls))))
       (place kappa x0 y0 th (uword ty ls P)).
Proof.
  induction ty as [|t ty IH]; intros [|l ls] P s K H; simpl; try assumption.
  apply IH; [assumption|]. simpl. apply drive_place; assumption.
Qed.

Lemma place_dist kappa x0 y0 th P Q : 0 < kappa ->
  (px (place kappa x0 y0 th P) - px (place kappa x0 y0 th Q)) ^ 2 +
  (py (place kappa x0 y0 th P) - py (place kappa x0 y0 th Q)) ^ 2 =
  ((px P - px Q) ^ 2 + (py P - py Q) ^ 2) / kappa ^ 2.
Proof.
  intros K. unfold place, px, py; simpl. destruct P as [[x y] a], Q as [[x' y'] a']; simpl.
  transitivity (((x - x') * (x - x') + (y - y') * (y - y')) / (kappa * kappa) *
    (sin th * sin th + cos th * cos th)); [field; lra|]. rewrite sin2_cos2'. field. lra.
Qed.

Lemma sum_sq0 u v : u ^ 2 + v ^ 2 = 0 -> u = 0 /\ v = 0.
Proof.
  intros H. assert (0 <= u ^ 2) by nra. assert (0 <= v ^ 2) by nra.
  split; apply Rsqr_0_uniq; unfold Rsqr; nra.
Qed.

Lemma place_inj kappa x0 y0 th P Q : 0 < kappa ->
  psim (place kappa x0 y0 th P) (place kappa x0 y0 th Q) -> psim P Q.
Proof.
  intros K (X & Y & A). pose proof (place_dist kappa x0 y0 th P Q K) as D.
  rewrite X, Y in D.
  assert (Z : (px P - px Q) ^ 2 + (py P - py Q) ^ 2 = 0).
  { assert (0 < kappa ^ 2) by (apply pow_lt; assumption).
    replace ((px P - px Q) ^ 2 + (py P - py Q) ^ 2) with
      (((px P - px Q) ^ 2 + (py P - py Q) ^ 2) / kappa ^ 2 * kappa ^ 2) by (field; lra).
    rewrite <- D. ring. }
  apply sum_sq0 in Z. destruct Z as [Z1 Z2]. split; [lra|]. split; [lra|].
  unfold place, pth in A; simpl in A.
  pose proof (ang_eq_sub _ _ _ _ A (ang_eq_refl th)) as B.
  eapply ang_eq_trans; [|eapply ang_eq_trans; [exact B|]]; apply ang_eq_of_eq; unfold pth; ring.
Qed.

Lemma dubins_args_place kappa s1 s2 d alpha beta : 0 < kappa ->
  dubins_args kappa s1 s2 = (d, alpha, beta) ->
  let th := atan2 (st_y s2 - st_y s1) (st_x s2 - st_x s1) in
  psim (pose s1) (place kappa (st_x s1) (st_y s1) th (0, 0, alpha)) /\
  psim (pose s2) (place kappa (st_x s1) (st_y s1) th (d, 0, beta)) /\
  0 <= d /\ d = kappa * pos_dist s1 s2 /\
  0 <= alpha < TWO_PI /\ 0 <= beta < TWO_PI.
Proof.
  intros K H th. unfold dubins_args in H. injection H as <- <- <-. fold th.
  set (dx := st_x s2 - st_x s1) in *. set (dy := st_y s2 - st_y s1) in *.
  pose proof (atan2_cos dx dy) as C. pose proof (atan2_sin dx dy) as S. fold th in C, S.
  assert (A : forall a, ang_eq a (twopify (a - th) + th)).
  { intros a. apply ang_eq_sym.
    eapply ang_eq_trans; [apply ang_eq_add; [apply twopify_ang|apply ang_eq_refl]|].
    apply ang_eq_of_eq. ring. }
  split; [|split; [|split; [|split; [|split]]]].
  - unfold psim, place, pose, px, py, pth; simpl. repeat split; try (field; lra). apply A.
  - unfold psim, place, pose, px, py, pth; simpl. repeat split; [| |apply A].
    + replace ((sqrt (dx * dx + dy * dy) * kappa * cos th - 0 * sin th) / kappa)
        with (sqrt (dx * dx + dy * dy) * cos th) by (field; lra). rewrite C. unfold dx. ring.
    + replace ((sqrt (dx * dx + dy * dy) * kappa * sin th + 0 * cos th) / kappa)
        with (sqrt (dx * dx + dy * dy) * sin th) by (field; lra). rewrite S. unfold dy. ring.
  - apply Rmult_le_pos; [apply sqrt_pos|lra].
  - rewrite Rmult_comm. f_equal. unfold pos_dist. f_equal. unfold dx, dy. ring.
  - apply twopify_range.
  - apply twopify_range.
Qed.

(** ** Shifting and undoing a motion *)

Definition shifted (u v : R) (a b : State) : Prop :=
  st_x b = st_x a + u /\ st_y b = st_y a + v /\ ang_eq (st_theta b) (st_theta a).

Lemma drive_shift u v c a b : shifted u v a b -> shifted u v (drive a c) (drive b c).
Proof.
  intros (X & Y & A). unfold drive, shifted.
  assert (B : ang_eq (st_theta b + ct_kappa c * ct_delta_s c) (st_theta a + ct_kappa c * ct_delta_s c))
    by (apply ang_eq_add; [assumption|apply ang_eq_refl]).
  destruct (Req_EM_T (ct_kappa c) 0); cbn [st_x st_y st_theta];
  rewrite X, Y, ?(ang_eq_sin _ _ B), ?(ang_eq_cos _ _ B), ?(ang_eq_sin _ _ A), ?(ang_eq_cos _ _ A);
  repeat split; try ring; try assumption.
Qed.

Lemma drive_all_shift u v cs : forall a b, shifted u v a b -> shifted u v (drive_all a cs) (drive_all b cs).
Proof.
  induction cs as [|c cs IH]; intros a b H; simpl; [assumption|]. apply IH. apply drive_shift. assumption.
Qed.

Lemma shifted0 a b : shifted 0 0 a b <-> same_pose b a.
Proof.
  unfold shifted, same_pose. rewrite !Rplus_0_r. tauto.
Qed.

Lemma drive_undo s c : same_pose (drive (drive s c) (negate_length c)) s.
Proof.
  unfold drive, negate_length, same_pose. cbn [ct_kappa ct_delta_s ct_sigma].
  destruct (Req_EM_T (ct_kappa c) 0) as [K|K]; cbn [st_x st_y st_theta].
  - repeat split; try ring. apply ang_eq_refl.
  - replace (st_theta s + ct_kappa c * ct_delta_s c + ct_kappa c * - ct_delta_s c)
      with (st_theta s) by ring.
    repeat split; try (field; assumption). apply ang_eq_refl.
Qed.

Lemma drive_all_app s a b : drive_all s (a ++ b) = drive_all (drive_all s a) b.
Proof. apply fold_left_app. Qed.

Lemma drive_all_undo cs : forall s, same_pose (drive_all (drive_all s cs) (map negate_length (rev cs))) s.
Proof.
  induction cs as [|c cs IH] using rev_ind; intros s; simpl.
  - repeat split. apply ang_eq_refl.
  - rewrite rev_app_distr; simpl. rewrite drive_all_app. simpl.
    pose proof (drive_undo (drive_all s cs) c) as U. apply shifted0 in U.
    apply (drive_all_shift 0 0 (map negate_length (rev cs))) in U. apply shifted0 in U.
    eapply same_pose_trans; [exact U|]. apply IH.
Qed.

Lemma drive_all_congr cs a b : same_pose a b -> same_pose (drive_all a cs) (drive_all b cs).
Proof.
  intros H. apply shifted0. apply drive_all_shift. apply shifted0. assumption.
Qed.

(** ** C10 *)

Lemma pos_dist_sym a b : pos_dist a b = pos_dist b a.
Proof. unfold pos_dist. f_equal. ring. Qed.

Lemma pos_dist_le e a b : 0 <= e -> (st_x a - st_x b) ^ 2 + (st_y a - st_y b) ^ 2 <= e ^ 2 -> pos_dist a b <= e.
Proof.
  intros E H. unfold pos_dist. rewrite <- (sqrt_pow2 e E). apply sqrt_le_1_alt. assumption.
Qed.

Lemma pos_dist_shift u v a b : shifted u v a b -> pos_dist a b = sqrt (u ^ 2 + v ^ 2).
Proof. intros (X & Y & _). unfold pos_dist. rewrite X, Y. f_equal. ring. Qed.

Lemma heading_within_eq e a b : 0 <= e -> ang_eq (st_theta a) (st_theta b) -> heading_within e a b.
Proof.
  intros E [k H]. exists k. rewrite H.
  replace (_ - _ - _) with 0 by ring. rewrite Rabs_R0. assumption.
Qed.

(** The two cases of the planner: a straight line for almost coincident poses, otherwise a word. *)
Lemma dubins_forward_cases kappa s1 s2 : 0 < kappa -> kappa * pos_dist s1 s2 <= 10 ^ 300 ->
  (kappa * pos_dist s1 s2 < 1 / 1000000 /\ heading_within (1 / 1000000) s1 s2 /\
   dubins_controls kappa (dubins_path kappa s1 s2) =
     [mkControl (1 / kappa * 0) kappa 0; mkControl (pos_dist s1 s2) 0 0; mkControl (1 / kappa * 0) kappa 0]) \/
  (pos_dist (drive_all s1 (dubins_controls kappa (dubins_path kappa s1 s2))) s2
     <= 1 / 1000000000 / kappa /\
   ang_eq (st_theta (drive_all s1 (dubins_controls kappa (dubins_path kappa s1 s2)))) (st_theta s2)).
Proof.
  intros K D. unfold dubins_path. destruct (dubins_args kappa s1 s2) as [[d alpha] beta] eqn:E.
  destruct (dubins_args_place _ _ _ _ _ _ K E) as (P1 & P2 & D0 & DD & Ra & Rb).
  set (th := atan2 (st_y s2 - st_y s1) (st_x s2 - st_x s1)) in *.
  assert (DEC : (d < DUBINS_EPS /\ Rabs (alpha - beta) < DUBINS_EPS) \/
     ~ (d < DUBINS_EPS /\ Rabs (alpha - beta) < DUBINS_EPS)).
  { destruct (Rlt_dec d DUBINS_EPS); destruct (Rlt_dec (Rabs (alpha - beta)) DUBINS_EPS); tauto. }
  destruct DEC as [[A B]|N].
  - left. rewrite <- DD. unfold DUBINS_EPS in *. split; [assumption|]. split.
    + destruct P1 as (_ & _ & [k1 H1]). destruct P2 as (_ & _ & [k2 H2]).
      unfold place, pose, pth in H1, H2; simpl in H1, H2.
      exists (k1 - k2)%Z. rewrite H1, H2, minus_IZR.
      replace (_ - _ - _) with (alpha - beta) by ring. lra.
    + destruct (dubins_cases d alpha beta) as [(_ & _ & ->)|(C & _)]; [|tauto].
      unfold dubins_controls; cbn [dp_type dp_t dp_p dp_q dubins_path_type combine map fst snd dubins_control].
      replace (1 / kappa * d) with (pos_dist s1 s2); [reflexivity|]. rewrite DD. field. lra.
  - right. destruct (dubins_reach d alpha beta D0 ltac:(lra) N) as (e & Ee & R1 & R2).
    pose proof (drive_all_place kappa (st_x s1) (st_y s1) th (dp_type (dubins d alpha beta))
      [dp_t (dubins d alpha beta); dp_p (dubins d alpha beta); dp_q (dubins d alpha beta)]
      (0, 0, alpha) s1 ltac:(lra) P1) as F.
    fold (dubins_controls kappa (dubins d alpha beta)) in F.
    set (W := uword _ _ _) in *. set (Z := drive_all _ _) in *.
    destruct F as (F1 & F2 & F3). destruct P2 as (G1 & G2 & G3).
    unfold pose, px, py, pth in F1, F2, F3, G1, G2, G3. cbn [fst snd] in F1, F2, F3, G1, G2, G3.
    split.
    + apply pos_dist_le; [apply div_nonneg; lra|].
      pose proof (place_dist kappa (st_x s1) (st_y s1) th W (d, 0, beta) K) as PD.
      fold (px (place kappa (st_x s1) (st_y s1) th W)) in F1.
      fold (py (place kappa (st_x s1) (st_y s1) th W)) in F2.
      fold (px (place kappa (st_x s1) (st_y s1) th (d, 0, beta))) in G1.
      fold (py (place kappa (st_x s1) (st_y s1) th (d, 0, beta))) in G2.
      rewrite F1, F2, G1, G2, PD. unfold px, py; simpl.
      replace ((1 / 1000000000 / kappa) * ((1 / 1000000000 / kappa) * 1)) with
        ((1 / 1000000000) * (1 / 1000000000) / (kappa * (kappa * 1))) by (field; lra).
      apply Rmult_le_compat_r; [left; apply Rinv_0_lt_compat; nra|].
      simpl in R1. nra.
    + eapply ang_eq_trans; [exact F3|]. eapply ang_eq_trans; [|apply ang_eq_sym; exact G3].
      simpl. apply ang_eq_add; [exact R2|apply ang_eq_refl].
Qed.

Lemma drive_zero s k l : l = 0 -> same_pose (drive s (mkControl l k 0)) s.
Proof.
  intros ->. unfold drive, same_pose; cbn [ct_delta_s ct_kappa].
  destruct (Req_EM_T k 0) as [Z|Z]; cbn [st_x st_y st_theta].
  - repeat split; try ring. apply ang_eq_refl.
  - rewrite Rmult_0_r, Rplus_0_r. repeat split; try (field; assumption). apply ang_eq_refl.
Qed.

Lemma straight_close s l k1 k3 l1 l3 : l1 = 0 -> l3 = 0 ->
  exists q, q = drive_all s [mkControl l1 k1 0; mkControl l 0 0; mkControl l3 k3 0] /\
  st_x q = st_x s + l * cos (st_theta s) /\ st_y q = st_y s + l * sin (st_theta s) /\
  ang_eq (st_theta q) (st_theta s).
Proof.
  intros Z1 Z3. eexists; split; [reflexivity|]. simpl.
  pose proof (drive_zero s k1 l1 Z1) as A.
  pose proof (drive_zero (drive (drive s (mkControl l1 k1 0)) (mkControl l 0 0)) k3 l3 Z3) as C.
  pose proof (drive_all_congr [mkControl l 0 0] _ _ A) as B. simpl in B.
  pose proof (same_pose_trans _ _ _ C B) as (X & Y & T).
  rewrite X, Y. unfold drive in T |- *; cbn [ct_delta_s ct_kappa] in T |- *.
  destruct (Req_EM_T 0 0) as [_|]; [|lra]. cbn [st_x st_y st_theta] in T |- *. auto.
Qed.

Lemma two_steps a b l t : pos_dist a b = Rabs l ->
  pos_dist (mkState (st_x a + l * cos t) (st_y a + l * sin t) 0 0 0) b <= 2 * Rabs l.
Proof.
  intros H. apply pos_dist_le; [pose proof (Rabs_pos l); lra|]. cbn [st_x st_y].
  assert (Q : (st_x a - st_x b) ^ 2 + (st_y a - st_y b) ^ 2 = l ^ 2).
  { rewrite <- (pow2_abs l), <- H. unfold pos_dist. rewrite pow2_sqrt; [reflexivity|].
    apply Rplus_le_le_0_compat; apply pow2_ge_0. }
  replace ((2 * Rabs l) ^ 2) with (4 * l ^ 2) by (rewrite <- (pow2_abs l); ring).
  pose proof (sin2_cos2' t) as S.
  set (u := st_x a - st_x b) in *. set (v := st_y a - st_y b) in *.
  replace (st_x a + l * cos t - st_x b) with (u + l * cos t) by (unfold u; ring).
  replace (st_y a + l * sin t - st_y b) with (v + l * sin t) by (unfold v; ring).
  assert (0 <= (u - l * cos t) ^ 2 + (v - l * sin t) ^ 2)
    by (apply Rplus_le_le_0_compat; apply pow2_ge_0).
  assert (l ^ 2 * (sin t * sin t + cos t * cos t) = l ^ 2) by (rewrite S; ring). nra.
Qed.

Lemma pos_dist_nonneg a b : 0 <= pos_dist a b.
Proof. apply sqrt_pos. Qed.

Lemma pos_dist_xy a b c : st_x a = st_x b -> st_y a = st_y b -> pos_dist a c = pos_dist b c.
Proof. intros X Y. unfold pos_dist. rewrite X, Y. reflexivity. Qed.

Lemma dubins_reaches kappa fw s1 s2 : 0 < kappa -> kappa * pos_dist s1 s2 <= 10 ^ 300 ->
  let q := drive_all s1 (dubins_get_controls kappa fw s1 s2) in
  (kappa * pos_dist s1 s2 < 1 / 1000000 /\ heading_within (1 / 1000000) s1 s2 /\
   pos_dist q s2 <= 1 / 500000 / kappa /\ heading_within (1 / 1000000) q s2) \/
  (pos_dist q s2 <= 1 / 1000000000 / kappa /\ ang_eq (st_theta q) (st_theta s2)).
Proof.
  intros K D q. unfold dubins_get_controls in q. destruct fw.
  - destruct (dubins_forward_cases kappa s1 s2 K D) as [(A & B & C)|H]; [left|right; exact H].
    subst q. rewrite C.
    destruct (straight_close s1 (pos_dist s1 s2) kappa kappa (1 / kappa * 0) (1 / kappa * 0))
      as (q & <- & X & Y & T); try ring.
    split; [assumption|]. split; [assumption|]. split.
    + eapply Rle_trans.
      * pose proof (two_steps s1 s2 (pos_dist s1 s2) (st_theta s1)
          ltac:(symmetry; apply Rabs_pos_eq; apply pos_dist_nonneg)) as T2.
        erewrite (pos_dist_xy _ q) in T2; [exact T2| |]; cbn [st_x st_y]; congruence.
      * rewrite Rabs_pos_eq by apply pos_dist_nonneg.
        apply Rmult_le_reg_l with kappa; [assumption|].
        replace (kappa * (1 / 500000 / kappa)) with (1 / 500000) by (field; lra). lra.
    + destruct B as [k B]. destruct T as [k' T]. exists (k + k')%Z. rewrite T, plus_IZR.
      replace (_ - _ - _) with (st_theta s1 - st_theta s2 - 2 * PI * IZR k) by ring. assumption.
  - rewrite pos_dist_sym in D.
    destruct (dubins_forward_cases kappa s2 s1 K D) as [(A & B & C)|(H1 & H2)]; [left|right].
    + subst q. rewrite C. cbn [rev app map negate_length ct_delta_s ct_kappa ct_sigma].
      unfold negate_length; cbn [ct_delta_s ct_kappa ct_sigma].
      destruct (straight_close s1 (- pos_dist s2 s1) kappa kappa (- (1 / kappa * 0)) (- (1 / kappa * 0)))
        as (q & <- & X & Y & T); try ring.
      rewrite (pos_dist_sym s1 s2). split; [assumption|]. split.
      { destruct B as [k B]. exists (- k)%Z. rewrite opp_IZR.
        replace (_ - _ - _) with (- (st_theta s2 - st_theta s1 - 2 * PI * IZR k)) by ring.
        rewrite Rabs_Ropp. assumption. }
      split.
      * eapply Rle_trans.
        -- pose proof (two_steps s1 s2 (- pos_dist s2 s1) (st_theta s1)
            ltac:(rewrite Rabs_Ropp, pos_dist_sym; symmetry; apply Rabs_pos_eq; apply pos_dist_nonneg)) as T2.
          erewrite (pos_dist_xy _ q) in T2; [exact T2| |]; cbn [st_x st_y]; congruence.
        -- rewrite Rabs_Ropp, Rabs_pos_eq by apply pos_dist_nonneg.
          apply Rmult_le_reg_l with kappa; [assumption|].
          replace (kappa * (1 / 500000 / kappa)) with (1 / 500000) by (field; lra). lra.
      * destruct B as [k B]. destruct T as [k' T]. exists (k' - k)%Z. rewrite T, minus_IZR.
        replace (_ - _ - _) with (- (st_theta s2 - st_theta s1 - 2 * PI * IZR k)) by ring.
        rewrite Rabs_Ropp. assumption.
    + set (cs := dubins_controls kappa (dubins_path kappa s2 s1)) in *.
      set (f := drive_all s2 cs) in *.
      assert (S : shifted (st_x s1 - st_x f) (st_y s1 - st_y f) f s1).
      { unfold shifted. repeat split; try ring. apply ang_eq_sym. assumption. }
      apply (drive_all_shift _ _ (map negate_length (rev cs))) in S. fold q in S.
      pose proof (drive_all_undo cs s2) as (UX & UY & UT). fold f in UX, UY, UT.
      destruct S as (X & Y & T). split.
      * rewrite pos_dist_sym. erewrite (pos_dist_shift (st_x s1 - st_x f) (st_y s1 - st_y f) s2 q).
        -- rewrite pos_dist_sym in H1. exact H1.
        -- split; [congruence|]. split; [congruence|]. eapply ang_eq_trans; eassumption.
      * eapply ang_eq_trans; eassumption.
Qed.

(** ** Integrating the controls *)

Lemma rs_ode_drive c s : ct_kappa c = 0 \/ epsilon < Rabs (ct_kappa c) ->
  same_pose (rs_ode c (rs_enter c s) (Rabs (ct_delta_s c))) (drive s c).
Proof.
  intros H. unfold rs_ode, rs_enter, drive. cbn [st_kappa st_x st_y st_theta].
  pose proof (sgn_abs (ct_delta_s c)) as SA. unfold same_pose.
  destruct (Rlt_dec epsilon (Rabs (ct_kappa c))) as [E|E].
  - destruct (Req_EM_T (ct_kappa c) 0) as [Z|Z].
    { rewrite Z, Rabs_R0 in E. unfold epsilon in E. lra. }
    unfold end_of_circular_arc. cbn [st_x st_y st_theta].
    rewrite ?sin_pify, ?cos_pify.
    replace (st_theta s + ct_kappa c * sgn (ct_delta_s c) * Rabs (ct_delta_s c))
      with (st_theta s + ct_kappa c * ct_delta_s c)
      by (rewrite Rmult_assoc, SA; reflexivity).
    rewrite SA, (Rmult_comm (ct_delta_s c) (ct_kappa c)).
    split; [field; assumption|]. split; [field; assumption|]. apply pify_ang.
  - destruct H as [Z|Z]; [|contradiction]. destruct (Req_EM_T (ct_kappa c) 0); [|contradiction].
    unfold end_of_straight_line. cbn [st_x st_y st_theta].
    replace (sgn (ct_delta_s c) * Rabs (ct_delta_s c) * cos (st_theta s))
      with (ct_delta_s c * cos (st_theta s)) by (rewrite SA; reflexivity).
    replace (sgn (ct_delta_s c) * Rabs (ct_delta_s c) * sin (st_theta s))
      with (ct_delta_s c * sin (st_theta s)) by (rewrite SA; reflexivity).
    repeat split. apply ang_eq_refl.
Qed.

Lemma state_after_drive cs : forall s,
  (forall c, In c cs -> ct_kappa c = 0 \/ epsilon < Rabs (ct_kappa c)) ->
  same_pose (state_after rs_enter rs_ode s cs) (drive_all s cs).
Proof.
  induction cs as [|c cs IH] using rev_ind; intros s H.
  - apply same_pose_refl.
  - unfold state_after. rewrite fold_left_app, drive_all_app. simpl.
    eapply same_pose_trans.
    + apply rs_ode_drive. apply H. apply in_or_app. right. left. reflexivity.
    + apply (drive_all_congr [c]). apply IH. intros c' I. apply H. apply in_or_app. auto.
Qed.

Lemma dubins_controls_in kappa P c : In c (dubins_controls kappa P) ->
  ct_kappa c = 0 \/ ct_kappa c = kappa \/ ct_kappa c = - kappa.
Proof.
  unfold dubins_controls. intros H. apply in_map_iff in H. destruct H as ([s l] & <- & _).
  destruct s; simpl; auto.
Qed.

Lemma dubins_get_controls_in kappa fw s1 s2 c : In c (dubins_get_controls kappa fw s1 s2) ->
  (ct_kappa c = 0 \/ ct_kappa c = kappa \/ ct_kappa c = - kappa) /\ ct_sigma c = 0.
Proof.
  assert (A : forall P c, In c (dubins_controls kappa P) -> ct_sigma c = 0).
  { intros P c' H. apply in_map_iff in H. destruct H as ([s l] & <- & _). destruct s; reflexivity. }
  unfold dubins_get_controls. destruct fw; intros H.
  - split; [eapply dubins_controls_in; eassumption|eapply A; eassumption].
  - apply in_map_iff in H. destruct H as (c' & <- & H). apply in_rev in H.
    split; [exact (dubins_controls_in _ _ _ H)|exact (A _ _ H)].
Qed.

Lemma dubins_path_types d alpha beta : length (dp_type (dubins d alpha beta)) = 3%nat.
Proof.
  assert (C : forall c, In c (candidates d alpha beta) -> length (dp_type c) = 3%nat).
  { unfold candidates, dubinsLSL, dubinsRSR, dubinsRSL, dubinsLSR, dubinsRLR, dubinsLRL; simpl.
    intros c H; decompose [or] H; try contradiction; subst;
    match goal with |- context [if ?x then _ else _] => destruct x end; reflexivity. }
  destruct (dubins_cases d alpha beta) as [(_ & _ & ->)|(_ & I & _)]; [reflexivity|]. apply C. assumption.
Qed.

Lemma dubins_controls_nonempty kappa fw s1 s2 : length (dubins_get_controls kappa fw s1 s2) = 3%nat.
Proof.
  assert (A : forall a b, length (dubins_controls kappa (dubins_path kappa a b)) = 3%nat).
  { intros a b. unfold dubins_controls, dubins_path. destruct (dubins_args kappa a b) as [[d al] be].
    rewrite map_length, combine_length, dubins_path_types. reflexivity. }
  unfold dubins_get_controls. destruct fw; [apply A|]. rewrite map_length, rev_length. apply A.
Qed.

Lemma dubins_integrated kappa disc fw s1 s2 path : epsilon < kappa -> 0 < disc ->
  dubins_get_path kappa disc fw s1 s2 = Some path ->
  exists q, nth_error path (length path - 1) = Some q /\
    same_pose q (drive_all s1 (dubins_get_controls kappa fw s1 s2)).
Proof.
  intros K D E. unfold dubins_get_path in E.
  pose proof (dubins_controls_nonempty kappa fw s1 s2) as L.
  apply rs_integrate_spec in E; [|assumption|intros Z; rewrite Z in L; discriminate].
  destruct E as (_ & _ & q & Q & X & Y & T & _). exists q. split; [assumption|].
  eapply same_pose_trans; [split; [exact X|split; [exact Y|exact T]]|].
  apply state_after_drive. intros c H. apply dubins_get_controls_in in H.
  assert (0 < kappa) by (unfold epsilon in K; lra).
  destruct H as [[H|[H|H]] _]; rewrite H; [left; reflexivity| |]; right.
  - rewrite Rabs_pos_eq; lra.
  - rewrite Rabs_Ropp, Rabs_pos_eq; lra.
Qed.

(** ** Lengths *)

Lemma dubins_lengths kappa s1 s2 : 0 < kappa ->
  dp_asserts (dubins_path kappa s1 s2).
Proof.
  intros K. unfold dubins_path. destruct (dubins_args kappa s1 s2) as [[d al] be] eqn:E.
  apply dubins_asserts. apply (dubins_args_place _ _ _ _ _ _ K E).
Qed.

Lemma controls_expand kappa s1 s2 : exists a b c,
  let P := dubins_path kappa s1 s2 in
  dubins_controls kappa P = [dubins_control kappa a (dp_t P); dubins_control kappa b (dp_p P);
    dubins_control kappa c (dp_q P)].
Proof.
  unfold dubins_path. destruct (dubins_args kappa s1 s2) as [[d al] be].
  pose proof (dubins_path_types d al be) as L.
  unfold dubins_controls. destruct (dp_type (dubins d al be)) as [|a [|b [|c [|]]]]; try discriminate L.
  exists a, b, c. reflexivity.
Qed.

Lemma dubins_control_len kappa s l : ct_delta_s (dubins_control kappa s l) = 1 / kappa * l.
Proof. destruct s; reflexivity. Qed.

Lemma total_length_negrev cs : total_length (map negate_length (rev cs)) = total_length cs.
Proof.
  assert (A : forall a b, total_length (a ++ b) = total_length a + total_length b).
  { intros a b. induction a as [|c a IH]; simpl; [ring|]. rewrite IH. ring. }
  induction cs as [|c cs IH]; simpl; [reflexivity|].
  rewrite map_app, A, IH. simpl. rewrite Rabs_Ropp. ring.
Qed.

Lemma inv_pos_mul k l : 0 < k -> l >= 0 -> 0 <= 1 / k * l.
Proof. intros K L. apply Rmult_le_pos; [apply div_nonneg; lra|lra]. Qed.

Lemma dubins_distance_length kappa fw s1 s2 : 0 < kappa ->
  dubins_distance kappa fw s1 s2 = total_length (dubins_get_controls kappa fw s1 s2).
Proof.
  intros K.
  assert (A : forall a b, 1 / kappa * dp_length (dubins_path kappa a b) =
     total_length (dubins_controls kappa (dubins_path kappa a b))).
  { intros a b. destruct (controls_expand kappa a b) as (x & y & z & E).
    cbv zeta in E. rewrite E. destruct (dubins_lengths kappa a b K) as (T & P & Q). simpl.
    rewrite !dubins_control_len, !Rabs_pos_eq by (apply inv_pos_mul; assumption).
    unfold dp_length. ring. }
  unfold dubins_distance, dubins_get_controls. destruct fw; [apply A|].
  rewrite total_length_negrev. apply A.
Qed.

Lemma dubins_control_signs kappa (fw : bool) s1 s2 c : 0 < kappa ->
  In c (dubins_get_controls kappa fw s1 s2) ->
  if fw then 0 <= ct_delta_s c else ct_delta_s c <= 0.
Proof.
  intros K.
  assert (A : forall a b c, In c (dubins_controls kappa (dubins_path kappa a b)) -> 0 <= ct_delta_s c).
  { intros a b c' H. destruct (controls_expand kappa a b) as (x & y & z & E).
    cbv zeta in E. rewrite E in H. destruct (dubins_lengths kappa a b K) as (T & P & Q). simpl in H.
    decompose [or] H; try contradiction; subst; rewrite dubins_control_len; apply inv_pos_mul; assumption. }
  unfold dubins_get_controls. destruct fw; [apply A|].
  intros H. apply in_map_iff in H. destruct H as (c' & <- & H). apply in_rev in H.
  apply A in H. simpl. lra.
Qed.

(** * Proofs about the filter *)
From Coq Require Import Reals ZArith List Bool Lra Lia Psatz.
From Verif Require Import Base ModelUtil ModelFresnel ModelIntegrate ModelEKF SpecEKF.
Import ListNotations.
Open Scope R_scope.

Definition qf (A : M33) (x y z : R) : R :=
  x * m00 A * x + x * m01 A * y + x * m02 A * z + (y * m10 A * x + y * m11 A * y + y * m12 A * z)
  + (z * m20 A * x + z * m21 A * y + z * m22 A * z).
Definition sym (A : M33) : Prop := m01 A = m10 A /\ m02 A = m20 A /\ m12 A = m21 A.
Definition psd (A : M33) : Prop := sym A /\ forall x y z, 0 <= qf A x y z.

Lemma sym_psd_iff : forall c, sym_psd (at_ c) <-> psd (covariance_to_eigen c).
Proof.
  intros c. unfold sym_psd, psd, sym, covariance_to_eigen, qf, sum3, at_; cbn. split; intros [S Q]; split.
  - repeat split. apply (S 0 1)%nat; lia. apply (S 0 2)%nat; lia. apply (S 1 2)%nat; lia.
  - intros x y z. pose proof (Q (fun i => match i with 0 => x | 1 => y | _ => z end)%nat) as H. cbn in H. lra.
  - destruct S as (A & B & C). intros i j Hi Hj.
    destruct i as [|[|[|i]]]; try lia; destruct j as [|[|[|j]]]; try lia; cbn; congruence.
  - intros v. pose proof (Q (v 0%nat) (v 1%nat) (v 2%nat)). lra.
Qed.

Lemma eigen_roundtrip : forall m c, covariance_to_eigen (eigen_to_covariance m c) = m.
Proof. intros [] c. reflexivity. Qed.

Lemma m33_eq : forall a b c d e f g h i a' b' c' d' e' f' g' h' i',
  a = a' -> b = b' -> c = c' -> d = d' -> e = e' -> f = f' -> g = g' -> h = h' -> i = i' ->
  mkM33 a b c d e f g h i = mkM33 a' b' c' d' e' f' g' h' i'.
Proof. intros; subst; reflexivity. Qed.

Ltac m33 := unfold mul33, add33, sub33, tr33, I33, tr32, mul32_22, mul32_23;
  cbn [m00 m01 m02 m10 m11 m12 m20 m21 m22 n00 n01 n10 n11 n20 n21 k00 k01 k02 k10 k11 k12 q00 q01 q10 q11].

Lemma psd_cong : forall F S, psd S -> psd (mul33 (mul33 F S) (tr33 F)).
Proof.
  intros F S [(A & B & C) Q]. split.
  - unfold sym; m33. rewrite A, B, C. repeat split; ring.
  - intros x y z.
    replace (qf (mul33 (mul33 F S) (tr33 F)) x y z) with
      (qf S (m00 F * x + m10 F * y + m20 F * z) (m01 F * x + m11 F * y + m21 F * z) (m02 F * x + m12 F * y + m22 F * z));
      [apply Q|].
    unfold qf; m33. ring.
Qed.

Lemma psd_add : forall A B, psd A -> psd B -> psd (add33 A B).
Proof.
  intros A B [(S1 & S2 & S3) Q] [(T1 & T2 & T3) P]. split.
  - unfold sym; m33. rewrite S1, S2, S3, T1, T2, T3. auto.
  - intros x y z. specialize (Q x y z). specialize (P x y z). unfold qf in *; m33. lra.
Qed.

Lemma psd_input : forall F a b, 0 <= a -> 0 <= b -> psd (mul32_23 (mul32_22 F (mkM22 a 0 0 b)) (tr32 F)).
Proof.
  intros F a b A B. split.
  - unfold sym; m33. repeat split; ring.
  - intros x y z.
    replace (qf _ x y z) with (a * (n00 F * x + n10 F * y + n20 F * z) ^ 2 + b * (n01 F * x + n11 F * y + n21 F * z) ^ 2)
      by (unfold qf; m33; ring).
    apply Rplus_le_le_0_compat; apply Rmult_le_pos; auto; apply pow2_ge_0.
Qed.

(** Existence of the inverse. *)
Lemma inv33_right : forall A B, inv33 A = Some B -> mul33 A B = I33 /\ mul33 B A = I33.
Proof.
  intros A B. unfold inv33. destruct (Req_EM_T _ _) as [|H]; [discriminate|]. intros E; inversion E; subst; clear E.
  assert (D : det33 A * (1 / det33 A) = 1) by (field; auto).
  unfold I33. split; apply m33_eq; m33; revert D; generalize (1 / det33 A); intros d D;
    try ring; rewrite <- D; unfold det33; ring.
Qed.

Definition pd (A : M33) : Prop := sym A /\ forall x y z, qf A x y z <= 0 -> x = 0 /\ y = 0 /\ z = 0.

Lemma pd_det : forall A, pd A -> det33 A <> 0.
Proof.
  intros A [(S1 & S2 & S3) Q] D.
  assert (P0 : m00 A <> 0).
  { intro E. destruct (Q 1 0 0) as [? _]; [|lra]. unfold qf. rewrite E. lra. }
  (* kernel vector: the last column of the adjugate *)
  assert (K : m01 A * m12 A - m02 A * m11 A = 0 /\ m02 A * m10 A - m00 A * m12 A = 0 /\ m00 A * m11 A - m01 A * m10 A = 0).
  { apply Q. unfold qf. apply Req_le.
    transitivity ((m00 A * m11 A - m01 A * m10 A) * det33 A); [|rewrite D; ring].
    unfold det33. rewrite <- S1, <- S2, <- S3. ring. }
  destruct K as (_ & _ & K).
  destruct (Q (m01 A) (- m00 A) 0) as (_ & E & _).
  - unfold qf. rewrite <- S1 in *.
    replace (_ + _ + _) with (m00 A * (m00 A * m11 A - m01 A * m01 A)) by ring. rewrite K. lra.
  - apply P0. lra.
Qed.

Lemma psd_obs_pd : forall f S, psd S -> meas_ok f -> pd (add33 S (get_observation_covariance f)).
Proof.
  intros f S [(S1 & S2 & S3) Q] (X & Y & T). split.
  - unfold sym, get_observation_covariance; m33. rewrite S1, S2, S3. repeat split.
  - intros x y z H.
    assert (E : qf (add33 S (get_observation_covariance f)) x y z =
                qf S x y z + ((std_x f * x) ^ 2 + (std_y f * y) ^ 2 + (std_theta f * z) ^ 2))
      by (unfold qf, get_observation_covariance; m33; ring).
    specialize (Q x y z). rewrite E in H.
    pose proof (pow2_ge_0 (std_x f * x)). pose proof (pow2_ge_0 (std_y f * y)). pose proof (pow2_ge_0 (std_theta f * z)).
    assert (Z0 : forall u v, u <> 0 -> (u * v) ^ 2 <= 0 -> v = 0).
    { intros u v U V. assert (u * v = 0) by (pose proof (pow2_ge_0 (u * v)); nra).
      destruct (Rmult_integral _ _ H3); tauto. }
    repeat split; [apply (Z0 (std_x f))|apply (Z0 (std_y f))|apply (Z0 (std_theta f))]; auto; lra.
Qed.

Lemma mul33_assoc : forall A B C, mul33 (mul33 A B) C = mul33 A (mul33 B C).
Proof. intros. apply m33_eq; m33; ring. Qed.
Lemma mul33_I_r : forall A, mul33 A I33 = A.
Proof. intros []. apply m33_eq; m33; ring. Qed.
Lemma mul33_I_l : forall A, mul33 I33 A = A.
Proof. intros []. apply m33_eq; m33; ring. Qed.
Lemma tr33_mul : forall A B, tr33 (mul33 A B) = mul33 (tr33 B) (tr33 A).
Proof. intros. apply m33_eq; m33; ring. Qed.
Lemma tr33_sym : forall A, sym A -> tr33 A = A.
Proof. intros [] (A & B & C); cbn in *. unfold tr33; cbn. congruence. Qed.
Lemma mul33_add_r : forall A B C, mul33 A (add33 B C) = add33 (mul33 A B) (mul33 A C).
Proof. intros. apply m33_eq; m33; ring. Qed.
Lemma mul33_add_l : forall A B C, mul33 (add33 A B) C = add33 (mul33 A C) (mul33 B C).
Proof. intros. apply m33_eq; m33; ring. Qed.
Lemma mul33_sub_l : forall A B C, mul33 (sub33 A B) C = sub33 (mul33 A C) (mul33 B C).
Proof. intros. apply m33_eq; m33; ring. Qed.
Lemma mul33_sub_r : forall A B C, mul33 A (sub33 B C) = sub33 (mul33 A B) (mul33 A C).
Proof. intros. apply m33_eq; m33; ring. Qed.
Lemma tr33_sub : forall A B, tr33 (sub33 A B) = sub33 (tr33 A) (tr33 B).
Proof. intros. apply m33_eq; m33; ring. Qed.
Lemma tr33_I : tr33 I33 = I33.
Proof. reflexivity. Qed.
Lemma sym_obs : forall f, sym (get_observation_covariance f).
Proof. intros. repeat split. Qed.

(** The algebra of one update: [S] the covariance, [Rm] the measurement noise, [L] the gain. *)
Section gain.
  Variables (S Rm L : M33).
  Hypothesis HS : sym S.
  Hypothesis HR : sym Rm.
  Hypothesis HL : mul33 L (add33 S Rm) = S.

  Lemma gain_tr : mul33 (add33 S Rm) (tr33 L) = S.
  Proof.
    pose proof (f_equal tr33 HL) as H. rewrite tr33_mul in H.
    rewrite (tr33_sym S HS) in H. rewrite <- H at 2. f_equal.
    symmetry. apply tr33_sym. destruct HS as (A & B & C), HR as (D & E & F). unfold sym; m33. rewrite A, B, C, D, E, F. auto.
  Qed.

  (** The removed part L S is L (S + R) L^T. *)
  Lemma gain_removed : mul33 L S = mul33 (mul33 L (add33 S Rm)) (tr33 L).
  Proof. rewrite mul33_assoc, gain_tr. reflexivity. Qed.

  (** Joseph's form. *)
  Lemma joseph : add33 (mul33 (mul33 (sub33 I33 L) S) (tr33 (sub33 I33 L))) (mul33 (mul33 L Rm) (tr33 L))
                 = sub33 S (mul33 L S).
  Proof.
    assert (E : add33 (mul33 (mul33 (sub33 I33 L) S) (tr33 (sub33 I33 L))) (mul33 (mul33 L Rm) (tr33 L))
                = add33 (sub33 (sub33 S (mul33 L S)) (mul33 S (tr33 L))) (mul33 (mul33 L (add33 S Rm)) (tr33 L)))
      by (apply m33_eq; m33; ring).
    rewrite E, HL. apply m33_eq; m33; ring.
  Qed.
End gain.

Lemma psd_obs : forall f, psd (get_observation_covariance f).
Proof.
  intros f. split; [repeat split|]. intros x y z.
  replace (qf _ x y z) with ((std_x f * x) ^ 2 + (std_y f * y) ^ 2 + (std_theta f * z) ^ 2)
    by (unfold qf, get_observation_covariance; cbn; ring).
  repeat apply Rplus_le_le_0_compat; apply pow2_ge_0.
Qed.

(** What one update does, on the matrices. *)
Lemma update_spec : forall f c out c', update f c out = Some c' ->
  sym (covariance_to_eigen (Sigma c)) ->
  exists L,
    let S := covariance_to_eigen (Sigma c) in
    mul33 L (add33 S (get_observation_covariance f)) = S /\
    covariance_to_eigen (Sigma c') = sub33 S (mul33 L S) /\
    covariance_to_eigen (Sigma c') = add33 (mul33 (mul33 (sub33 I33 L) S) (tr33 (sub33 I33 L)))
      (mul33 (mul33 L (get_observation_covariance f)) (tr33 L)) /\
    covariance_to_eigen (Lambda c') = add33 (covariance_to_eigen (Lambda c)) (mul33 L S) /\
    covariance_to_eigen (covariance c') = add33 (covariance_to_eigen (Sigma c')) (covariance_to_eigen (Lambda c')).
Proof.
  intros f c out c' U SY. unfold update in U. cbv zeta in U.
  change get_observation_jacobi with I33 in U. rewrite !tr33_I, !mul33_I_r, !mul33_I_l in U.
  set (S := covariance_to_eigen (Sigma c)) in *. set (Rm := get_observation_covariance f) in *.
  destruct (inv33 (add33 S Rm)) as [B|] eqn:EB; [|discriminate]. cbn [fbind] in U. rewrite !mul33_I_r in U.
  inversion U as [E]; clear U. cbn [Sigma Lambda covariance]. rewrite !eigen_roundtrip.
  destruct (inv33_right _ _ EB) as [I1 I2].
  assert (HL : mul33 (mul33 S B) (add33 S Rm) = S) by (rewrite mul33_assoc, I2; apply mul33_I_r).
  exists (mul33 S B). cbv zeta. split; [exact HL|].
  split; [apply joseph; auto; apply sym_obs|]. split; [reflexivity|].
  split; [rewrite (tr33_sym S SY); reflexivity|reflexivity].
Qed.

Lemma update_finite : forall f c out, psd (covariance_to_eigen (Sigma c)) -> meas_ok f ->
  exists c', update f c out = Some c'.
Proof.
  intros f c out P M. unfold update. cbv zeta.
  change get_observation_jacobi with I33. rewrite !tr33_I, !mul33_I_r, !mul33_I_l.
  pose proof (pd_det _ (psd_obs_pd f _ P M)) as D. unfold inv33.
  destruct (Req_EM_T _ 0) as [E|]; [tauto|]. cbn [fbind]. eexists; reflexivity.
Qed.

Lemma update_psd : forall f c out c', update f c out = Some c' -> cov_psd c -> cov_psd c'.
Proof.
  intros f c out c' U [PS PL]. unfold cov_psd in *. rewrite !sym_psd_iff in *.
  destruct (update_spec _ _ _ _ U (proj1 PS)) as (L & HL & _ & J & E & _). cbv zeta in *.
  split.
  - rewrite J. apply psd_add; apply psd_cong; [exact PS|apply psd_obs].
  - rewrite E. apply psd_add; [exact PL|].
    rewrite (gain_removed _ _ _ (proj1 PS) (sym_obs f) HL). apply psd_cong. apply psd_add; [exact PS|apply psd_obs].
Qed.

Lemma update_le : forall f c out c', update f c out = Some c' -> sym_psd (at_ (Sigma c)) ->
  psd_le (at_ (Sigma c')) (at_ (Sigma c)).
Proof.
  intros f c out c' U PS. rewrite sym_psd_iff in PS.
  destruct (update_spec _ _ _ _ U (proj1 PS)) as (L & HL & E & _). cbv zeta in *.
  unfold psd_le. apply (sym_psd_iff (fun i => Sigma c i - Sigma c' i)).
  replace (covariance_to_eigen _) with (sub33 (covariance_to_eigen (Sigma c)) (covariance_to_eigen (Sigma c')))
    by reflexivity.
  rewrite E. replace (sub33 _ (sub33 _ _)) with (mul33 L (covariance_to_eigen (Sigma c))).
  - rewrite (gain_removed _ _ _ (proj1 PS) (sym_obs f) HL). apply psd_cong. apply psd_add; [exact PS|apply psd_obs].
  - apply m33_eq; m33; ring.
Qed.

Lemma update_gain : forall f c out c', update f c out = Some c' -> sym_psd (at_ (Sigma c)) ->
  exists L : nat -> nat -> R,
    eq3 (at_ (Sigma c)) (fun i j => sum3 (fun k => L i k *
        (at_ (Sigma c) k j + diag3 (std_x f * std_x f) (std_y f * std_y f) (std_theta f * std_theta f) k j))) /\
    eq3 (at_ (Sigma c')) (fun i j => at_ (Sigma c) i j - sum3 (fun k => L i k * at_ (Sigma c) k j)).
Proof.
  intros f c out c' U PS. rewrite sym_psd_iff in PS.
  destruct (update_spec _ _ _ _ U (proj1 PS)) as (L & HL & E & _). cbv zeta in *.
  exists (fun i j => match i, j with
    | 0, 0 => m00 L | 0, 1 => m01 L | 0, _ => m02 L | 1, 0 => m10 L | 1, 1 => m11 L | 1, _ => m12 L
    | _, 0 => m20 L | _, 1 => m21 L | _, _ => m22 L end%nat).
  split; intros i j Hi Hj; unfold at_, sum3, diag3.
  - revert HL. unfold get_observation_covariance, covariance_to_eigen; m33. intros HL. injection HL; intros.
    destruct i as [|[|[|i]]]; try lia; destruct j as [|[|[|j]]]; try lia;
      cbn [Nat.mul Nat.add Nat.eqb]; symmetry; lra.
  - revert E. unfold covariance_to_eigen; m33. intros E. injection E; intros.
    destruct i as [|[|[|i]]]; try lia; destruct j as [|[|[|j]]]; try lia;
      cbn [Nat.mul Nat.add Nat.eqb]; lra.
Qed.

Lemma eq3_of : forall c c1 c2, covariance_to_eigen c = add33 (covariance_to_eigen c1) (covariance_to_eigen c2) ->
  eq3 (at_ c) (fun i j => at_ c1 i j + at_ c2 i j).
Proof.
  intros c c1 c2 E i j Hi Hj. revert E. unfold covariance_to_eigen; m33. intros E. injection E; intros. unfold at_.
  destruct i as [|[|[|i]]]; try lia; destruct j as [|[|[|j]]]; try lia; cbn [Nat.mul Nat.add]; assumption.
Qed.

Lemma update_total : forall f c out c', update f c out = Some c' -> cov_total c'.
Proof.
  intros f c out c'. unfold update. cbv zeta. destruct (inv33 _); [|discriminate]. cbn [fbind].
  intros E; inversion E. apply eq3_of. cbn [Sigma Lambda covariance]. rewrite !eigen_roundtrip. reflexivity.
Qed.

Lemma predict_total : forall f s c u h out, cov_total (predict f s c u h out).
Proof.
  intros. unfold predict. destruct (get_motion_jacobi s u h) as [Fx Fu]. apply eq3_of.
  cbn [Sigma Lambda covariance]. rewrite !eigen_roundtrip. reflexivity.
Qed.

Lemma update_keeps_total : forall f c out c', update f c out = Some c' -> sym_psd (at_ (Sigma c)) ->
  eq3 (fun i j => at_ (Sigma c') i j + at_ (Lambda c') i j) (fun i j => at_ (Sigma c) i j + at_ (Lambda c) i j).
Proof.
  intros f c out c' U PS. rewrite sym_psd_iff in PS.
  destruct (update_spec _ _ _ _ U (proj1 PS)) as (L & _ & E1 & _ & E2 & _). cbv zeta in *.
  intros i j Hi Hj. revert E1 E2. unfold covariance_to_eigen; m33. intros E1 E2. injection E1; injection E2; intros.
  unfold at_. destruct i as [|[|[|i]]]; try lia; destruct j as [|[|[|j]]]; try lia; cbn [Nat.mul Nat.add]; lra.
Qed.

Lemma predict_psd : forall f s c u h out, noise_ok f -> cov_psd c -> cov_psd (predict f s c u h out).
Proof.
  intros f s c u h out (A1 & A2 & A3 & A4) [PS PL]. unfold cov_psd in *. rewrite !sym_psd_iff in *. unfold predict.
  destruct (get_motion_jacobi s u h) as [Fx Fu]. cbn [Sigma Lambda covariance]. rewrite !eigen_roundtrip. split.
  - apply psd_add; [apply psd_cong; exact PS|]. unfold get_motion_covariance.
    apply psd_input; apply Rplus_le_le_0_compat; rewrite Rmult_assoc; apply Rmult_le_pos; auto; apply Rle_0_sqr.
  - apply psd_cong. exact PL.
Qed.

(** Loop invariants for the payload loops. *)
Lemma steps_inv : forall {P} (I : P -> Prop) (step : P -> R -> P) disc a n s cur l last,
  (forall p h, I p -> I (step p h)) -> I cur -> steps step disc a n s cur = (l, last) -> Forall I l /\ I last.
Proof.
  intros P I step disc a n. induction n as [|n IH]; intros s cur l last St C E; cbn in E.
  - inversion E; subst. auto.
  - destruct (next_step disc a s) as [h s']. destruct (steps step disc a n s' (step cur h)) as [l' last'] eqn:E'.
    inversion E; subst. destruct (IH _ _ _ _ St (St _ h C) E'). split; auto.
Qed.

Lemma integrate_loop_inv : forall {P} (I : P -> Prop) enter (step : Control -> P -> R -> P) disc cs cur l,
  (forall c p, I p -> I (enter c p)) -> (forall c p h, I p -> I (step c p h)) -> I cur ->
  integrate_loop enter step disc cur cs = Some l -> Forall I l.
Proof.
  intros P I enter step disc cs. induction cs as [|c cs IH]; intros cur l En St C E; cbn in E.
  - inversion E; subst. auto.
  - destruct (loop_count _ _) as [n|]; [|discriminate]. cbn [fbind] in E.
    destruct (steps _ _ _ _ _ _) as [l' last] eqn:E'. destruct (integrate_loop enter step disc last cs) eqn:E2; [|discriminate].
    cbn [fbind] in E. inversion E; subst.
    destruct (steps_inv I _ _ _ _ _ _ _ _ (St c) (En c _ C) E') as [A B].
    constructor; [auto|]. apply Forall_app; split; [exact A|]. eapply IH; eauto.
Qed.

Lemma hc_integrate_loop_inv : forall {P} (I : P -> Prop) enter (step : Control -> P -> R -> P) disc cs cur l,
  (forall c p p', I p -> enter c p = Some p' -> I p') -> (forall c p h, I p -> I (step c p h)) -> I cur ->
  hc_integrate_loop enter step disc cur cs = Some l -> Forall I l.
Proof.
  intros P I enter step disc cs. induction cs as [|c cs IH]; intros cur l En St C E; cbn in E.
  - inversion E; subst. auto.
  - destruct (loop_count _ _) as [n|]; [|discriminate]. cbn [fbind] in E.
    destruct (enter c cur) as [cur'|] eqn:Ee.
    + destruct (steps _ _ _ _ _ _) as [l' last] eqn:E'. destruct (hc_integrate_loop enter step disc last cs) eqn:E2; [|discriminate].
      cbn [fbind] in E. inversion E; subst.
      destruct (steps_inv I _ _ _ _ _ _ _ _ (St c) (En c _ _ C Ee) E') as [A B].
      constructor; [eauto|]. apply Forall_app; split; [exact A|]. eapply IH; eauto.
    + destruct (steps _ _ _ _ _ _) as [l' last] eqn:E'. destruct (hc_integrate_loop enter step disc last cs) eqn:E2; [|discriminate].
      cbn [fbind] in E. inversion E; subst.
      destruct (steps_inv I _ _ _ _ _ _ _ _ (St c) C E') as [A B].
      apply Forall_app; split; [exact A|]. eapply IH; eauto.
Qed.

(** The loops commute with a projection of the payload. *)
Lemma steps_map : forall {P Q} (g : P -> Q) (sp : P -> R -> P) (sq : Q -> R -> Q) disc a n s cur,
  (forall p h, g (sp p h) = sq (g p) h) ->
  steps sq disc a n s (g cur) = (map g (fst (steps sp disc a n s cur)), g (snd (steps sp disc a n s cur))).
Proof.
  intros P Q g sp sq disc a n. induction n as [|n IH]; intros s cur H; cbn; [reflexivity|].
  destruct (next_step disc a s) as [h s']. rewrite <- H, IH by exact H.
  destruct (steps sp disc a n s' (sp cur h)); reflexivity.
Qed.

Lemma integrate_loop_map : forall {P Q} (g : P -> Q) ep eq (sp : Control -> P -> R -> P) (sq : Control -> Q -> R -> Q) disc cs cur,
  (forall c p, g (ep c p) = eq c (g p)) -> (forall c p h, g (sp c p h) = sq c (g p) h) ->
  integrate_loop eq sq disc (g cur) cs = option_map (map g) (integrate_loop ep sp disc cur cs).
Proof.
  intros P Q g ep eq sp sq disc cs. induction cs as [|c cs IH]; intros cur He Hs; cbn; [reflexivity|].
  destruct (loop_count _ _) as [n|]; [|reflexivity]. cbn [fbind].
  rewrite <- He, (steps_map g (sp c) (sq c)) by apply Hs.
  destruct (steps (sp c) disc (Rabs (ct_delta_s c)) n 0 (ep c cur)) as [l last]. cbn [fst snd].
  rewrite IH by assumption. destruct (integrate_loop ep sp disc last cs); [|reflexivity]. cbn.
  rewrite map_app. reflexivity.
Qed.

Lemma hc_integrate_loop_map : forall {P Q} (g : P -> Q) ep eq (sp : Control -> P -> R -> P) (sq : Control -> Q -> R -> Q) disc cs cur,
  (forall c p, eq c (g p) = option_map g (ep c p)) -> (forall c p h, g (sp c p h) = sq c (g p) h) ->
  hc_integrate_loop eq sq disc (g cur) cs = option_map (map g) (hc_integrate_loop ep sp disc cur cs).
Proof.
  intros P Q g ep eq sp sq disc cs. induction cs as [|c cs IH]; intros cur He Hs; cbn; [reflexivity|].
  destruct (loop_count _ _) as [n|]; [|reflexivity]. cbn [fbind]. rewrite He.
  destruct (ep c cur) as [cur'|]; cbn [option_map].
  - rewrite (steps_map g (sp c) (sq c)) by apply Hs.
    destruct (steps (sp c) disc (Rabs (ct_delta_s c)) n 0 cur') as [l last]. cbn [fst snd].
    rewrite IH by assumption. destruct (hc_integrate_loop ep sp disc last cs); [|reflexivity]. cbn.
    rewrite map_app. reflexivity.
  - rewrite (steps_map g (sp c) (sq c)) by apply Hs.
    destruct (steps (sp c) disc (Rabs (ct_delta_s c)) n 0 cur) as [l last]. cbn [fst snd].
    rewrite IH by assumption. destruct (hc_integrate_loop ep sp disc last cs); [|reflexivity]. cbn.
    rewrite map_app. reflexivity.
Qed.

Lemma rs_mean_path : forall f extra disc p cs,
  option_map (map sc_state) (rs_integrate_with_covariance f extra disc p cs) = rs_integrate extra disc (sc_state p) cs.
Proof.
  intros. unfold rs_integrate_with_covariance, rs_integrate. destruct (reserve_ok _ _ _); [|reflexivity].
  symmetry. apply integrate_loop_map; reflexivity.
Qed.

Lemma hc_mean_path : forall f disc p cs,
  option_map (map sc_state) (hc_integrate_with_covariance f disc p cs) = hc_integrate disc (sc_state p) cs.
Proof.
  intros. unfold hc_integrate_with_covariance, hc_integrate. destruct (reserve_ok _ _ _); [|reflexivity].
  destruct cs as [|c cs]; [reflexivity|].
  change (rs_enter c (sc_state p)) with (sc_state (cov_enter c p)).
  rewrite (hc_integrate_loop_map sc_state hc_cov_enter hc_enter (cov_step f hc_ode) hc_ode).
  - destruct (hc_integrate_loop hc_cov_enter _ _ _ _); reflexivity.
  - intros c' p'. unfold hc_cov_enter. destruct (hc_enter c' (sc_state p')); reflexivity.
  - reflexivity.
Qed.

(** Covariances along a path. *)
Lemma cov_step_good : forall f ode c p h, noise_ok f -> meas_ok f -> good p -> good (cov_step f ode c p h).
Proof.
  intros f ode c p h N M (cov & E & PS). unfold good, cov_step; cbn [sc_cov]. rewrite E. cbn [fbind].
  pose proof (predict_psd f (sc_state p) cov c h cov_zero N PS) as PP.
  destruct (update_finite f (predict f (sc_state p) cov c h cov_zero) cov_zero) as [c' U].
  - apply sym_psd_iff. apply PP.
  - exact M.
  - exists c'. split; [exact U|]. eapply update_psd; eauto.
Qed.

Lemma rs_path_good : forall f extra disc p cs l, noise_ok f -> meas_ok f -> good p ->
  rs_integrate_with_covariance f extra disc p cs = Some l -> Forall good l.
Proof.
  intros f extra disc p cs l N M G E. unfold rs_integrate_with_covariance in E. destruct (reserve_ok _ _ _); [|discriminate].
  eapply integrate_loop_inv; [| |exact G|exact E].
  - intros c q (cov & A & B). exists cov. auto.
  - intros; apply cov_step_good; auto.
Qed.

Lemma hc_path_good : forall f disc p cs l, noise_ok f -> meas_ok f -> good p ->
  hc_integrate_with_covariance f disc p cs = Some l -> Forall good l.
Proof.
  intros f disc p cs l N M G E. unfold hc_integrate_with_covariance in E. destruct (reserve_ok _ _ _); [|discriminate].
  destruct cs as [|c cs]; [discriminate|].
  destruct (hc_integrate_loop _ _ _ _ _) eqn:E2; [|discriminate]. cbn [fbind] in E. inversion E; subst.
  assert (G' : good (cov_enter c p)) by exact G.
  constructor; [exact G'|].
  eapply hc_integrate_loop_inv; [| |exact G'|exact E2].
  - intros c' q q' (cov & A & B). unfold hc_cov_enter. destruct (hc_enter c' (sc_state q)); [|discriminate].
    intros Q; inversion Q. exists cov; auto.
  - intros; apply cov_step_good; auto.
Qed.

Lemma filter_run_psd : forall f c c', noise_ok f -> cov_psd c -> filter_run f c c' -> cov_psd c'.
Proof.
  intros f c c' N P R. induction R; auto.
  - apply predict_psd; auto.
  - eapply update_psd; eauto.
Qed.

Lemma cov_step_total : forall f ode c p h, totals (cov_step f ode c p h).
Proof.
  intros f ode c p h cov. unfold cov_step; cbn [sc_cov]. destruct (sc_cov p); [|discriminate]. cbn [fbind].
  apply update_total.
Qed.

Lemma rs_path_total : forall f extra disc p cs l, totals p ->
  rs_integrate_with_covariance f extra disc p cs = Some l -> Forall totals l.
Proof.
  intros f extra disc p cs l G E. unfold rs_integrate_with_covariance in E. destruct (reserve_ok _ _ _); [|discriminate].
  eapply integrate_loop_inv; [| |exact G|exact E].
  - intros c q A. exact A.
  - intros; apply cov_step_total; auto.
Qed.

Lemma hc_path_total : forall f disc p cs l, totals p ->
  hc_integrate_with_covariance f disc p cs = Some l -> Forall totals l.
Proof.
  intros f disc p cs l G E. unfold hc_integrate_with_covariance in E. destruct (reserve_ok _ _ _); [|discriminate].
  destruct cs as [|c cs]; [discriminate|].
  destruct (hc_integrate_loop _ _ _ _ _) eqn:E2; [|discriminate]. cbn [fbind] in E. inversion E; subst.
  assert (G' : totals (cov_enter c p)) by exact G.
  constructor; [exact G'|].
  eapply hc_integrate_loop_inv; [| |exact G'|exact E2].
  - intros c' q q' A. unfold hc_cov_enter. destruct (hc_enter c' (sc_state q)); [|discriminate].
    intros Q; inversion Q. exact A.
  - intros; apply cov_step_total; auto.
Qed.

(** Concrete filter: unit noise, covariance Sigma = diag(1, 2, 3). *)
Definition f1 : Filter := mkFilter 1 1 1 1 1 1 1 1 1 1.
Definition arr1 : Arr16 := fun i => match i with 0%nat => 1 | 5%nat => 2 | 10%nat => 3 | _ => 0 end.
Definition cov1 : Cov := mkCov arr1 arr_zero arr1.

Lemma cov1_psd : cov_psd cov1.
Proof.
  split; apply sym_psd_iff; (split; [repeat split|]); intros x y z; unfold qf; cbn.
  - replace (_ + _) with (x ^ 2 + 2 * y ^ 2 + 3 * z ^ 2) by ring.
    pose proof (pow2_ge_0 x); pose proof (pow2_ge_0 y); pose proof (pow2_ge_0 z); lra.
  - unfold arr_zero. lra.
Qed.

Lemma cov1_update : exists c', update f1 cov1 cov_zero = Some c' /\
  at_ (Sigma c') 0 0 = 1 / 2 /\ at_ (Sigma c') 1 1 = 2 / 3 /\ at_ (Lambda c') 2 2 = 9 / 4.
Proof.
  assert (P : psd (covariance_to_eigen (Sigma cov1))) by (apply sym_psd_iff; apply cov1_psd).
  assert (M : meas_ok f1) by (unfold meas_ok, f1; cbn; lra).
  destruct (update_finite f1 cov1 cov_zero P M) as [c' U]. exists c'. split; [exact U|].
  destruct (update_spec _ _ _ _ U (proj1 P)) as (L & HL & E & _ & F & _). cbv zeta in *.
  revert HL E F. unfold covariance_to_eigen, get_observation_covariance, cov1, f1, arr1, arr_zero, at_. m33.
  cbn [std_x std_y std_theta Sigma Lambda Nat.mul Nat.add]. intros HL E F.
  injection HL as H1 H2 H3 H4 H5 H6 H7 H8 H9. injection E as E1 E2 E3 E4 E5 E6 E7 E8 E9.
  injection F as F1 F2 F3 F4 F5 F6 F7 F8 F9. repeat split; lra.
Qed.

(** No measurement noise and no uncertainty: the gain is 0/0. *)
Lemma zero_noise : update (mkFilter 1 1 1 1 0 0 0 1 1 1) cov_zero cov_zero = None.
Proof.
  unfold update. cbv zeta. change get_observation_jacobi with I33. rewrite !tr33_I, !mul33_I_r, !mul33_I_l.
  unfold inv33. cbv zeta.
  destruct (Req_EM_T _ 0) as [E|N]; [reflexivity|]. exfalso. apply N.
  unfold det33, get_observation_covariance, covariance_to_eigen, cov_zero, arr_zero; m33.
  cbn [std_x std_y std_theta Sigma]. lra.
Qed.

Lemma zero_psd : cov_psd cov_zero.
Proof.
  split; apply sym_psd_iff; (split; [repeat split|]); intros x y z; unfold qf; cbn; unfold arr_zero; lra.
Qed.

(** * Proofs about integrate and interpolate *)
From Coq Require Import Reals ZArith List Lra Lia Psatz.
From Verif Require Import Base ModelUtil ModelFresnel ModelIntegrate Num UtilProofs SpecPath.
Import ListNotations.
Open Scope R_scope.

Lemma st_sim_refl a : st_sim a a.
Proof. repeat split; try reflexivity. apply ang_eq_refl. Qed.
Lemma st_sim_sym a b : st_sim a b -> st_sim b a.
Proof. intros (A & B & C & D). repeat split; auto using ang_eq_sym. Qed.
Lemma st_sim_trans a b c : st_sim a b -> st_sim b c -> st_sim a c.
Proof.
  intros (A & B & C & D) (A' & B' & C' & D'). repeat split; try congruence.
  eapply ang_eq_trans; eassumption.
Qed.

Lemma ceilZ_spec x : IZR (ceilZ x) - 1 < x <= IZR (ceilZ x).
Proof.
  unfold ceilZ. rewrite opp_IZR. pose proof (floorZ_spec (- x)). unfold floorZ in H. lra.
Qed.

Lemma ceilZ_unique x n : IZR n - 1 < x <= IZR n -> ceilZ x = n.
Proof.
  intros H. unfold ceilZ. change Int_part with floorZ.
  rewrite (floorZ_unique (- x) (- n)); [lia|]. rewrite opp_IZR. lra.
Qed.

Lemma ceilZ_0 : ceilZ 0 = 0%Z.
Proof. apply ceilZ_unique. lra. Qed.

Lemma loop_count_spec disc a n : 0 < disc -> 0 <= a -> loop_count disc a = Some n ->
  INR n * disc - disc < a <= INR n * disc.
Proof.
  intros D A. unfold loop_count. destruct (_ <=? _)%Z; [|discriminate]. intros E. injection E as <-.
  pose proof (ceilZ_spec (a / disc)) as C.
  assert (Q : a = a / disc * disc) by (field; lra).
  assert (P : 0 <= a / disc) by (apply Rmult_le_reg_r with disc; lra).
  assert (Z0 : (0 <= ceilZ (a / disc))%Z).
  { apply le_IZR. lra. }
  rewrite INR_IZR_INZ, Z2Nat.id by assumption. nra.
Qed.

Section Steps.
  Variable step : State -> R -> State.
  Hypothesis step_zero : forall s, st_sim (step s 0) s.
  Hypothesis step_add : forall s a b, 0 <= a -> 0 <= b ->
    st_sim (step (step s a) b) (step s (a + b)).

  Lemma steps_spec disc a : 0 < disc -> forall n s0 cur l last,
    0 <= s0 <= a -> INR n * disc - disc < a - s0 <= INR n * disc ->
    steps step disc a n s0 cur = (l, last) ->
    length l = n /\
    (forall i s, nth_error l i = Some s ->
       st_sim s (step cur (Rmin (INR (S i) * disc) (a - s0)))) /\
    st_sim last (step cur (a - s0)) /\
    last = List.last l cur.
  Proof.
    intros D n. induction n as [|n IH]; intros s0 cur l last S0 N E.
    - simpl in E. injection E as <- <-. simpl in N.
      replace (a - s0) with 0 by lra. split; [reflexivity|]. split; [|split; [|reflexivity]].
      + intros [|i] s; discriminate.
      + apply st_sim_sym, step_zero.
    - cbn [steps] in E. unfold next_step in E. rewrite S_INR in N.
      destruct (Rlt_dec a (s0 + disc)) as [L|L].
      + (* last step *)
        assert (n = 0%nat) as ->.
        { destruct n; [reflexivity|]. rewrite S_INR in N. pose proof (pos_INR n). nra. }
        cbn [steps] in E. injection E as <- <-.
        replace (disc - (s0 + disc - a)) with (a - s0) by lra.
        split; [reflexivity|]. split; [|split; [apply st_sim_refl|reflexivity]].
        intros [|i] s; simpl; [|destruct i; discriminate]. intros E. injection E as <-.
        rewrite Rmin_right by lra. apply st_sim_refl.
      + destruct (steps step disc a n (s0 + disc) (step cur disc)) as [l' last'] eqn:EE.
        injection E as <- <-.
        apply IH in EE; [|lra|lra]. destruct EE as (A & B & C & F).
        split; [simpl; congruence|]. split; [|split].
        * intros [|i] s.
          { simpl. intros E. injection E as <-. rewrite Rmin_left by lra.
            rewrite Rmult_1_l. apply st_sim_refl. }
          { intros E. apply B in E. eapply st_sim_trans; [exact E|].
            assert (G : 0 <= Rmin (INR (S i) * disc) (a - (s0 + disc))).
            { apply Rmin_glb; [|lra]. pose proof (pos_INR (S i)). nra. }
            eapply st_sim_trans; [apply step_add; lra|].
            replace (disc + Rmin (INR (S i) * disc) (a - (s0 + disc)))
              with (Rmin (INR (S (S i)) * disc) (a - s0)); [apply st_sim_refl|].
            rewrite (S_INR (S i)). unfold Rmin. repeat destruct (Rle_dec _ _); lra. }
        * eapply st_sim_trans; [exact C|].
          eapply st_sim_trans; [apply step_add; lra|].
          replace (disc + (a - (s0 + disc))) with (a - s0) by lra. apply st_sim_refl.
        * rewrite F. destruct l'; [reflexivity|]. simpl. clear.
          revert s. induction l' as [|b l' IH]; intros s; [reflexivity|]. simpl. apply IH.
  Qed.
End Steps.

(** ** The one-step integrators are flows *)

Lemma straight_add x y th d a b :
  let '(x1, y1) := end_of_straight_line x y th d a in
  end_of_straight_line x1 y1 th d b = end_of_straight_line x y th d (a + b).
Proof. unfold end_of_straight_line. f_equal; ring. Qed.

Lemma pify_shift_cos a b : cos (pify a + b) = cos (a + b).
Proof. apply ang_eq_cos, ang_eq_add; [apply pify_ang|apply ang_eq_refl]. Qed.
Lemma pify_shift_sin a b : sin (pify a + b) = sin (a + b).
Proof. apply ang_eq_sin, ang_eq_add; [apply pify_ang|apply ang_eq_refl]. Qed.

Lemma arc_add x y th k d a b :
  let '(x1, y1, th1) := end_of_circular_arc x y th k d a in
  let '(x2, y2, th2) := end_of_circular_arc x1 y1 th1 k d b in
  let '(x3, y3, th3) := end_of_circular_arc x y th k d (a + b) in
  x2 = x3 /\ y2 = y3 /\ ang_eq th2 th3.
Proof.
  unfold end_of_circular_arc. rewrite !pify_shift_cos, !pify_shift_sin, cos_pify, sin_pify.
  replace (th + d * (a + b) * k) with (th + d * a * k + d * b * k) by ring.
  replace (th + k * d * a) with (th + d * a * k) by ring.
  split; [ring|]. split; [ring|].
  eapply ang_eq_trans; [apply pify_ang|]. eapply ang_eq_trans; [|apply ang_eq_sym, pify_ang].
  eapply ang_eq_trans; [apply ang_eq_add; [apply pify_ang|apply ang_eq_refl]|].
  apply ang_eq_of_eq. ring.
Qed.

Lemma clothoid_add x y th k sg d a b : sg <> 0 ->
  let '(x1, y1, th1, k1) := end_of_clothoid x y th k sg d a in
  let '(x2, y2, th2, k2) := end_of_clothoid x1 y1 th1 k1 sg d b in
  let '(x3, y3, th3, k3) := end_of_clothoid x y th k sg d (a + b) in
  x2 = x3 /\ y2 = y3 /\ ang_eq th2 th3 /\ k2 = k3.
Proof.
  intros SG. unfold end_of_clothoid.
  set (q := SQRT_PI_INV * (1 / sqrt (Rabs sg))). set (z := SQRT_PI * (1 / sqrt (Rabs sg))).
  set (g := sgn sg).
  assert (GS : g * sg = Rabs sg) by apply sgn_mul_self.
  set (th1 := th + k * d * a + 1 / 2 * sg * d * a * a).
  assert (K1 : ang_eq (pify th1 - 1 / 2 * d * (k + sg * a) * (k + sg * a) / sg)
                      (th - 1 / 2 * d * k * k / sg)).
  { eapply ang_eq_trans; [apply ang_eq_sub; [apply pify_ang|apply ang_eq_refl]|].
    apply ang_eq_of_eq. unfold th1. field. assumption. }
  rewrite (ang_eq_cos _ _ K1), (ang_eq_sin _ _ K1).
  assert (K3 : q * g * (k + sg * a) = q * (Rabs sg * a + g * k))
    by (rewrite <- GS; ring).
  assert (K2 : q * (Rabs sg * b + g * (k + sg * a)) = q * (Rabs sg * (a + b) + g * k))
    by (rewrite <- GS; ring).
  rewrite K3, K2.
  split; [ring|]. split; [ring|]. split; [|ring].
  eapply ang_eq_trans; [apply pify_ang|]. eapply ang_eq_trans; [|apply ang_eq_sym, pify_ang].
  replace (pify th1 + (k + sg * a) * d * b + 1 / 2 * sg * d * b * b)
    with (pify th1 + ((k + sg * a) * d * b + 1 / 2 * sg * d * b * b)) by ring.
  eapply ang_eq_trans; [apply ang_eq_add; [apply pify_ang|apply ang_eq_refl]|].
  apply ang_eq_of_eq. unfold th1. field.
Qed.

Lemma sim_intro x y t k d x' y' t' k' d' : x = x' -> y = y' -> ang_eq t t' -> k = k' ->
  st_sim (mkState x y t k d) (mkState x' y' t' k' d').
Proof. intros. repeat split; assumption. Qed.

Lemma rs_ode_congr c s s' h : st_sim s s' -> st_sim (rs_ode c s h) (rs_ode c s' h).
Proof.
  destruct s as [x y t k d], s' as [x' y' t' k' d']. intros (A & B & C & D). simpl in *. subst.
  unfold rs_ode; simpl. destruct (Rlt_dec _ _).
  - unfold end_of_circular_arc. apply sim_intro; try reflexivity.
    + rewrite (ang_eq_sin _ _ C).
      rewrite (ang_eq_sin _ _ (ang_eq_add _ _ _ _ C (ang_eq_refl (sgn (ct_delta_s c) * h * k')))).
      reflexivity.
    + rewrite (ang_eq_cos _ _ C).
      rewrite (ang_eq_cos _ _ (ang_eq_add _ _ _ _ C (ang_eq_refl (sgn (ct_delta_s c) * h * k')))).
      reflexivity.
    + eapply ang_eq_trans; [apply pify_ang|]. eapply ang_eq_trans; [|apply ang_eq_sym, pify_ang].
      apply ang_eq_add; [assumption|apply ang_eq_refl].
  - unfold end_of_straight_line. rewrite (ang_eq_sin _ _ C), (ang_eq_cos _ _ C).
    apply sim_intro; auto.
Qed.

Lemma rs_ode_zero c s : st_sim (rs_ode c s 0) s.
Proof.
  destruct s as [x y t k d]. unfold rs_ode; simpl. destruct (Rlt_dec _ _).
  - unfold end_of_circular_arc. apply sim_intro; try reflexivity.
    + replace (t + sgn (ct_delta_s c) * 0 * k) with t by ring. ring.
    + replace (t + sgn (ct_delta_s c) * 0 * k) with t by ring. ring.
    + eapply ang_eq_trans; [apply pify_ang|]. apply ang_eq_of_eq. ring.
  - unfold end_of_straight_line. apply sim_intro; try ring. apply ang_eq_refl.
Qed.

Lemma rs_ode_add c s a b : st_sim (rs_ode c (rs_ode c s a) b) (rs_ode c s (a + b)).
Proof.
  destruct s as [x y t k d]. unfold rs_ode; simpl. destruct (Rlt_dec epsilon (Rabs k)) as [K|K].
  - pose proof (arc_add x y t k (sgn (ct_delta_s c)) a b) as H.
    unfold end_of_circular_arc in *. simpl. destruct (Rlt_dec epsilon (Rabs k)); [|contradiction].
    destruct H as (A & B & C). apply sim_intro; auto.
  - pose proof (straight_add x y t (sgn (ct_delta_s c)) a b) as H.
    unfold end_of_straight_line in *. simpl. destruct (Rlt_dec epsilon (Rabs k)); [contradiction|].
    injection H as A B. apply sim_intro; auto. apply ang_eq_refl.
Qed.

Lemma hc_ode_low c : Rabs (ct_sigma c) <= epsilon -> forall s h, hc_ode c s h = rs_ode c s h.
Proof.
  intros L s h. unfold hc_ode. destruct (Rlt_dec epsilon (Rabs (ct_sigma c))); [lra|]. reflexivity.
Qed.

Lemma sigma_nz s : epsilon < Rabs s -> s <> 0.
Proof. intros H ->. rewrite Rabs_R0 in H. unfold epsilon in H. lra. Qed.

Lemma hc_ode_congr c s s' h : st_sim s s' -> st_sim (hc_ode c s h) (hc_ode c s' h).
Proof.
  intros S. destruct (Rlt_dec epsilon (Rabs (ct_sigma c))) as [L|L];
    [|rewrite !hc_ode_low by lra; apply rs_ode_congr; assumption].
  destruct s as [x y t k d], s' as [x' y' t' k' d']. destruct S as (A & B & C & D).
  simpl in *. subst. unfold hc_ode. destruct (Rlt_dec _ _); [|contradiction].
  unfold end_of_clothoid; cbn [st_x st_y st_theta st_kappa].
  pose proof (ang_eq_sub _ _ _ _ C
    (ang_eq_refl (1 / 2 * sgn (ct_delta_s c) * k' * k' / ct_sigma c))) as K.
  rewrite (ang_eq_sin _ _ K), (ang_eq_cos _ _ K).
  apply sim_intro; try reflexivity.
  eapply ang_eq_trans; [apply pify_ang|]. eapply ang_eq_trans; [|apply ang_eq_sym, pify_ang].
  apply ang_eq_add; [|apply ang_eq_refl]. apply ang_eq_add; [assumption|apply ang_eq_refl].
Qed.

Lemma hc_ode_zero c s : st_sim (hc_ode c s 0) s.
Proof.
  destruct (Rlt_dec epsilon (Rabs (ct_sigma c))) as [L|L];
    [|rewrite hc_ode_low by lra; apply rs_ode_zero].
  destruct s as [x y t k d]. unfold hc_ode. destruct (Rlt_dec _ _); [|contradiction].
  unfold end_of_clothoid; cbn [st_x st_y st_theta st_kappa].
  replace (Rabs (ct_sigma c) * 0 + sgn (ct_sigma c) * k) with (sgn (ct_sigma c) * k) by ring.
  rewrite <- !Rmult_assoc.
  apply sim_intro; try ring.
  eapply ang_eq_trans; [apply pify_ang|]. apply ang_eq_of_eq. ring.
Qed.

Lemma hc_ode_add c s a b : st_sim (hc_ode c (hc_ode c s a) b) (hc_ode c s (a + b)).
Proof.
  destruct (Rlt_dec epsilon (Rabs (ct_sigma c))) as [L|L];
    [|rewrite !hc_ode_low by lra; apply rs_ode_add].
  destruct s as [x y t k d]. unfold hc_ode. destruct (Rlt_dec _ _); [|contradiction].
  cbn [st_x st_y st_theta st_kappa].
  pose proof (clothoid_add x y t k (ct_sigma c) (sgn (ct_delta_s c)) a b (sigma_nz _ L)) as H.
  destruct (end_of_clothoid x y t k (ct_sigma c) (sgn (ct_delta_s c)) a) as [[[x1 y1] t1] k1].
  cbn [st_x st_y st_theta st_kappa].
  destruct (end_of_clothoid x1 y1 t1 k1 (ct_sigma c) (sgn (ct_delta_s c)) b) as [[[x2 y2] t2] k2].
  destruct (end_of_clothoid x y t k (ct_sigma c) (sgn (ct_delta_s c)) (a + b)) as [[[x3 y3] t3] k3].
  destruct H as (A & B & C & D). apply sim_intro; assumption.
Qed.

(** ** Sampling *)

Fixpoint gaps (disc prev : R) (ss : list R) : Prop :=
  match ss with
  | [] => True
  | s :: ss' => 0 <= s - prev <= disc /\ gaps disc s ss'
  end.

Lemma last_cons {A} (x : A) l d : last (x :: l) d = last l x.
Proof.
  revert x d. induction l as [|y l IH]; intros x d; [reflexivity|].
  change (last (x :: y :: l) d) with (last (y :: l) d). rewrite IH. rewrite IH. reflexivity.
Qed.

Lemma last_app {A} (l1 l2 : list A) d : last (l1 ++ l2) d = last l2 (last l1 d).
Proof.
  revert d. induction l1 as [|x l1 IH]; intros d; [reflexivity|].
  simpl app. rewrite !last_cons. apply IH.
Qed.

Lemma gaps_app disc l1 : forall prev l2,
  gaps disc prev l1 -> gaps disc (last l1 prev) l2 -> gaps disc prev (l1 ++ l2).
Proof.
  induction l1 as [|x l1 IH]; intros prev l2 A B; [assumption|].
  rewrite last_cons in B. destruct A as [A A']. split; [assumption|]. apply IH; assumption.
Qed.

Lemma gaps_nth disc ss : forall prev, gaps disc prev ss ->
  forall i a b, nth_error (prev :: ss) i = Some a -> nth_error (prev :: ss) (S i) = Some b ->
  0 <= b - a <= disc.
Proof.
  induction ss as [|s ss IH]; intros prev G i a b A B.
  - destruct i; [discriminate|destruct i; discriminate].
  - destruct G as [G G']. destruct i.
    + simpl in A, B. injection A as <-. injection B as <-. assumption.
    + apply (IH s G' i a b); assumption.
Qed.

(** Arc lengths of the samples of one control of length [a] that begins at [off]. *)
Definition marks (disc a off : R) (m n : nat) : list R :=
  map (fun j => off + Rmin (INR (S j) * disc) a) (seq m n).

Lemma marks_gaps disc a off : 0 < disc -> 0 <= a -> forall n m,
  gaps disc (off + Rmin (INR m * disc) a) (marks disc a off m n).
Proof.
  intros D A n. induction n as [|n IH]; intros m; [exact I|].
  change (marks disc a off m (S n))
    with ((off + Rmin (INR (S m) * disc) a) :: marks disc a off (S m) n).
  cbn [gaps]. split; [|apply IH].
  rewrite S_INR. unfold Rmin. repeat destruct (Rle_dec _ _); lra.
Qed.

Lemma marks_last disc a off : forall n m d,
  last (marks disc a off m (S n)) d = off + Rmin (INR (S (m + n)) * disc) a.
Proof.
  induction n as [|n IH]; intros m d.
  - cbn. rewrite Nat.add_0_r. reflexivity.
  - change (marks disc a off m (S (S n)))
      with ((off + Rmin (INR (S m) * disc) a) :: marks disc a off (S m) (S n)).
    rewrite last_cons, IH. replace (S m + n)%nat with (m + S n)%nat by lia. reflexivity.
Qed.

Lemma marks_length disc a off n m : length (marks disc a off m n) = n.
Proof. unfold marks. rewrite map_length, seq_length. reflexivity. Qed.

Lemma marks_nth disc a off n m j x : nth_error (marks disc a off m n) j = Some x ->
  x = off + Rmin (INR (S (m + j)) * disc) a.
Proof.
  revert m j. induction n as [|n IH]; intros m [|j] H; try discriminate.
  - injection H as <-. rewrite Nat.add_0_r. reflexivity.
  - change (nth_error (marks disc a off (S m) n) j = Some x) in H. apply IH in H.
    rewrite H. replace (S m + j)%nat with (m + S j)%nat by lia. reflexivity.
Qed.

Lemma total_length_app a b : total_length (a ++ b) = total_length a + total_length b.
Proof. induction a as [|c a IH]; simpl; [ring|]. rewrite IH. ring. Qed.

Lemma total_length_pos a : 0 <= total_length a.
Proof. induction a as [|c a IH]; simpl; [lra|]. pose proof (Rabs_pos (ct_delta_s c)). lra. Qed.

Lemma path_length_total cs : path_length cs = total_length cs.
Proof.
  unfold path_length.
  assert (H : forall acc, fold_left (fun s c => s + Rabs (ct_delta_s c)) cs acc = acc + total_length cs).
  { induction cs as [|c cs IH]; intros acc; simpl; [ring|]. rewrite IH. ring. }
  rewrite H. ring.
Qed.

Lemma Forall2_nth {A B} (Q : A -> B -> Prop) l l' :
  length l = length l' ->
  (forall i a b, nth_error l i = Some a -> nth_error l' i = Some b -> Q a b) -> Forall2 Q l l'.
Proof.
  revert l'. induction l as [|a l IH]; intros [|b l'] L H; try discriminate; constructor.
  - apply (H 0%nat); reflexivity.
  - apply IH; [simpl in L; congruence|]. intros i x y X Y. apply (H (S i)); assumption.
Qed.

Lemma nth_Forall2 {A B} (Q : A -> B -> Prop) l l' : Forall2 Q l l' ->
  forall i a b, nth_error l i = Some a -> nth_error l' i = Some b -> Q a b.
Proof.
  induction 1 as [|a b l l' H F IH]; intros [|i] x y X Y; try discriminate.
  - injection X as <-. injection Y as <-. assumption.
  - apply (IH i); assumption.
Qed.

Lemma Forall2_len {A B} (Q : A -> B -> Prop) l l' : Forall2 Q l l' -> length l = length l'.
Proof. induction 1; simpl; congruence. Qed.

Lemma nth_error_last {A} (l : list A) : forall p, nth_error (p :: l) (length l) = Some (last l p).
Proof.
  induction l as [|q l IH]; intros p; [reflexivity|]. rewrite last_cons. simpl. apply IH.
Qed.

Section Sampling.
  Variable enter : Control -> State -> State.
  Variable ode : Control -> State -> R -> State.
  Hypothesis enter_congr : forall c s s', st_sim s s' -> st_sim (enter c s) (enter c s').
  Hypothesis ode_congr : forall c s s' h, st_sim s s' -> st_sim (ode c s h) (ode c s' h).
  Hypothesis ode_zero : forall c s, st_sim (ode c s 0) s.
  Hypothesis ode_add : forall c s a b, st_sim (ode c (ode c s a) b) (ode c s (a + b)).

  Notation after := (state_after enter ode).
  Notation onp := (on_path enter ode).

  Lemma state_after_congr cs : forall s s', st_sim s s' -> st_sim (after s cs) (after s' cs).
  Proof.
    induction cs as [|c cs IH]; intros s s' H; [assumption|]. apply IH, ode_congr, enter_congr, H.
  Qed.

  Lemma state_after_app s a b : after s (a ++ b) = after (after s a) b.
  Proof. unfold state_after. apply fold_left_app. Qed.

  Lemma steps_ode disc c n cur l last : 0 < disc ->
    loop_count disc (Rabs (ct_delta_s c)) = Some n ->
    steps (ode c) disc (Rabs (ct_delta_s c)) n 0 cur = (l, last) ->
    length l = n /\
    (forall i s, nth_error l i = Some s ->
       st_sim s (ode c cur (Rmin (INR (S i) * disc) (Rabs (ct_delta_s c))))) /\
    st_sim last (ode c cur (Rabs (ct_delta_s c))) /\ last = List.last l cur /\
    INR n * disc - disc < Rabs (ct_delta_s c) <= INR n * disc.
  Proof.
    intros D L E. pose proof (Rabs_pos (ct_delta_s c)) as P.
    pose proof (loop_count_spec _ _ _ D P L) as N.
    eapply (steps_spec (ode c) (ode_zero c)
              (fun s a b _ _ => ode_add c s a b)) in E; [|exact D|lra|lra].
    rewrite Rminus_0_r in E. tauto.
  Qed.

  (** Samples of one control, as points of the whole path. *)
  Lemma block disc s0 pre c post cur n l last : 0 < disc ->
    st_sim cur (enter c (after s0 pre)) ->
    loop_count disc (Rabs (ct_delta_s c)) = Some n ->
    steps (ode c) disc (Rabs (ct_delta_s c)) n 0 cur = (l, last) ->
    let off := total_length pre in
    let ms := marks disc (Rabs (ct_delta_s c)) off 0 n in
    Forall2 (fun q sl => onp s0 (pre ++ c :: post) sl q) l ms /\
    gaps disc off ms /\ List.last ms off = off + Rabs (ct_delta_s c) /\
    onp s0 (pre ++ c :: post) off cur /\
    st_sim last (after s0 (pre ++ [c])) /\ last = List.last l cur.
  Proof.
    intros D C L E off ms. pose proof (Rabs_pos (ct_delta_s c)) as P.
    destruct (steps_ode _ _ _ _ _ _ D L E) as (A & B & F & G & N).
    assert (K : nth_error (pre ++ c :: post) (length pre) = Some c).
    { rewrite nth_error_app2 by lia. rewrite Nat.sub_diag. reflexivity. }
    assert (FN : firstn (length pre) (pre ++ c :: post) = pre).
    { rewrite firstn_app, Nat.sub_diag, firstn_all. simpl. apply app_nil_r. }
    split; [|split; [|split; [|split; [|split]]]].
    - apply Forall2_nth; [unfold ms; rewrite marks_length; assumption|].
      intros i q sl Q M. apply B in Q. apply marks_nth in M. simpl plus in M.
      exists (length pre), c, (Rmin (INR (S i) * disc) (Rabs (ct_delta_s c))).
      split; [assumption|]. split; [|split].
      + split; [|apply Rmin_r]. apply Rmin_glb; [|assumption]. pose proof (pos_INR (S i)). nra.
      + rewrite FN. assumption.
      + rewrite FN. eapply st_sim_trans; [exact Q|]. apply ode_congr. assumption.
    - pose proof (marks_gaps disc (Rabs (ct_delta_s c)) off D P n 0) as H.
      simpl INR in H. rewrite Rmult_0_l, Rmin_left, Rplus_0_r in H by assumption. exact H.
    - unfold ms. destruct n as [|n].
      + simpl in *. lra.
      + rewrite marks_last. simpl plus. rewrite Rmin_right by lra. reflexivity.
    - exists (length pre), c, 0. split; [assumption|]. rewrite FN. split; [lra|]. split; [unfold off; ring|].
      eapply st_sim_trans; [exact C|]. apply st_sim_sym, ode_zero.
    - rewrite state_after_app. simpl. eapply st_sim_trans; [exact F|]. apply ode_congr. assumption.
    - assumption.
  Qed.

  Definition marked (disc : R) (s0 : State) (all cs : list Control) (off : R)
    (path : list State) (ss : list R) : Prop :=
    Forall2 (fun q sl => onp s0 all sl q) path ss /\
    gaps disc off ss /\ last ss off = off + total_length cs /\
    (forall k, In (off + total_length (firstn k cs)) (off :: ss)).

  Lemma marked_cons disc s0 pre c cs l1 rest ss1 ss2 :
    let off := total_length pre in
    Forall2 (fun q sl => onp s0 (pre ++ c :: cs) sl q) l1 ss1 ->
    gaps disc off ss1 -> last ss1 off = off + Rabs (ct_delta_s c) ->
    marked disc s0 (pre ++ c :: cs) cs (total_length (pre ++ [c])) rest ss2 ->
    marked disc s0 (pre ++ c :: cs) (c :: cs) off (l1 ++ rest) (ss1 ++ ss2).
  Proof.
    intros off F G L (F2 & G2 & L2 & I2).
    assert (O : total_length (pre ++ [c]) = off + Rabs (ct_delta_s c))
      by (rewrite total_length_app; unfold off; simpl; ring).
    rewrite O in *. split; [apply Forall2_app; assumption|]. split; [|split].
    - apply gaps_app; [assumption|]. rewrite L. assumption.
    - rewrite last_app, L, L2. simpl. ring.
    - intros [|k]; [left; simpl; ring|].
      specialize (I2 k). simpl firstn. cbn [total_length fold_right].
      fold (total_length (firstn k cs)). rewrite <- Rplus_assoc.
      destruct I2 as [I2|I2].
      + rewrite <- I2. rewrite <- L. destruct ss1 as [|s ss1]; [left; reflexivity|].
        right. apply in_or_app. left. rewrite last_cons. clear.
        revert s. induction ss1 as [|t ss1 IH]; intros s; [left; reflexivity|].
        rewrite last_cons. right. apply IH.
      + right. apply in_or_app. right. assumption.
  Qed.

  Lemma integrate_loop_marked disc s0 : 0 < disc -> forall cs pre cur path,
    st_sim cur (after s0 pre) ->
    integrate_loop enter ode disc cur cs = Some path ->
    exists ss, marked disc s0 (pre ++ cs) cs (total_length pre) path ss /\
      (cs <> [] -> nth_error path 0 = option_map (fun c => enter c cur) (nth_error cs 0)
                   /\ nth_error ss 0 = Some (total_length pre)) /\
      st_sim (last path cur) (after s0 (pre ++ cs)).
  Proof.
    intros D cs. induction cs as [|c cs IH]; intros pre cur path C E.
    - injection E as <-. exists []. rewrite app_nil_r. split; [|split; [congruence|assumption]].
      split; [constructor|]. split; [exact I|]. split; [simpl; ring|].
      intros k. left. destruct k; simpl; ring.
    - cbn [integrate_loop] in E.
      destruct (loop_count disc (Rabs (ct_delta_s c))) as [n|] eqn:LC; [|discriminate].
      cbn [fbind] in E.
      destruct (steps (ode c) disc (Rabs (ct_delta_s c)) n 0 (enter c cur)) as [l lst] eqn:ST.
      destruct (integrate_loop enter ode disc lst cs) as [rest|] eqn:IL; [|discriminate].
      cbn [fbind] in E. injection E as <-.
      assert (C' : st_sim (enter c cur) (enter c (after s0 pre))) by (apply enter_congr; assumption).
      destruct (block disc s0 pre c cs (enter c cur) n l lst D C' LC ST) as (B1 & B2 & B3 & B4 & B5 & B6).
      destruct (IH (pre ++ [c]) lst rest B5 IL) as (ss & M & M0 & ML).
      rewrite <- app_assoc in M, ML. cbn [app] in M, ML.
      set (ms := marks disc (Rabs (ct_delta_s c)) (total_length pre) 0 n) in *.
      exists (total_length pre :: ms ++ ss). split; [|split].
      + apply (marked_cons disc s0 pre c cs (enter c cur :: l) rest (total_length pre :: ms) ss).
        * constructor; assumption.
        * split; [lra|assumption].
        * rewrite last_cons. assumption.
        * assumption.
      + intros _. split; reflexivity.
      + rewrite last_cons, last_app, <- B6. assumption.
  Qed.

  (** The loop of the HC/CC spaces: the current state is only pushed when it changes. *)
  Lemma hc_integrate_loop_marked disc s0 (enterO : Control -> State -> option State) :
    (forall c s, enter c s = match enterO c s with Some s' => s' | None => s end) ->
    0 < disc -> forall cs pre cur path,
    st_sim cur (after s0 pre) ->
    hc_integrate_loop enterO ode disc cur cs = Some path ->
    exists ss, marked disc s0 (pre ++ cs) cs (total_length pre) path ss /\
      st_sim (last path cur) (after s0 (pre ++ cs)).
  Proof.
    intros EO D cs. induction cs as [|c cs IH]; intros pre cur path C E.
    - injection E as <-. exists []. rewrite app_nil_r. split; [|assumption].
      split; [constructor|]. split; [exact I|]. split; [simpl; ring|].
      intros k. left. destruct k; simpl; ring.
    - cbn [hc_integrate_loop] in E.
      destruct (loop_count disc (Rabs (ct_delta_s c))) as [n|] eqn:LC; [|discriminate].
      cbn [fbind] in E.
      assert (C' : st_sim (enter c cur) (enter c (after s0 pre))) by (apply enter_congr; assumption).
      rewrite (EO c cur) in C'.
      set (pc := match enterO c cur with Some cur' => ([cur'], cur') | None => ([], cur) end) in E.
      assert (PC : snd pc = enter c cur /\ (fst pc = [enter c cur] \/ fst pc = [] /\ enter c cur = cur)).
      { unfold pc. rewrite (EO c cur). destruct (enterO c cur); simpl; auto. }
      rewrite <- (EO c cur) in C'.
      destruct pc as [pushed cur']. simpl in PC. destruct PC as [-> PC].
      destruct (steps (ode c) disc (Rabs (ct_delta_s c)) n 0 (enter c cur)) as [l lst] eqn:ST.
      destruct (hc_integrate_loop enterO ode disc lst cs) as [rest|] eqn:IL; [|discriminate].
      cbn [fbind] in E. injection E as <-.
      destruct (block disc s0 pre c cs (enter c cur) n l lst D C' LC ST) as (B1 & B2 & B3 & B4 & B5 & B6).
      destruct (IH (pre ++ [c]) lst rest B5 IL) as (ss & M & ML).
      rewrite <- app_assoc in M, ML. cbn [app] in M, ML.
      set (ms := marks disc (Rabs (ct_delta_s c)) (total_length pre) 0 n) in *.
      rewrite app_assoc. destruct PC as [->|[-> PE]].
      + exists ((total_length pre :: ms) ++ ss). split.
        * apply marked_cons; [constructor; assumption|split; [lra|assumption]| |assumption].
          rewrite last_cons. assumption.
        * cbn [app]. rewrite last_cons, last_app, <- B6. assumption.
      + exists (ms ++ ss). split.
        * apply marked_cons; assumption.
        * cbn [app]. rewrite last_app, <- PE, <- B6. assumption.
  Qed.

  (** Interpolation reaches the state at arc length [si]. *)
  Lemma interpolate_loop_spec disc s0 si : 0 < disc -> forall cs pre cur q,
    st_sim cur (after s0 pre) -> total_length pre <= si ->
    interpolate_loop enter ode disc si (total_length pre) cur cs = Some q ->
    (si < total_length (pre ++ cs) -> on_path enter ode s0 (pre ++ cs) si q) /\
    (total_length (pre ++ cs) <= si -> st_sim q (after s0 (pre ++ cs))).
  Proof.
    intros D cs. induction cs as [|c cs IH]; intros pre cur q C T E.
    - injection E as <-. rewrite app_nil_r. split; [lra|]. intros _. assumption.
    - cbn [interpolate_loop] in E. pose proof (Rabs_pos (ct_delta_s c)) as P.
      assert (C' : st_sim (enter c cur) (enter c (after s0 pre))) by (apply enter_congr; assumption).
      assert (TL : total_length (pre ++ c :: cs)
                   = total_length pre + Rabs (ct_delta_s c) + total_length cs)
        by (rewrite total_length_app; simpl; ring).
      pose proof (total_length_pos cs) as TP.
      destruct (Rlt_dec si (total_length pre + Rabs (ct_delta_s c))) as [L|L].
      + set (a := Rabs (ct_delta_s c) - (total_length pre + Rabs (ct_delta_s c) - si)) in E.
        assert (AA : a = si - total_length pre) by (unfold a; ring).
        assert (A0 : 0 <= a) by lra.
        destruct (loop_count disc a) as [n|] eqn:LC; [|discriminate]. cbn [fbind] in E.
        destruct (steps (ode c) disc a n 0 (enter c cur)) as [l lst] eqn:ST. simpl in E.
        injection E as <-.
        pose proof (loop_count_spec _ _ _ D A0 LC) as N.
        eapply (steps_spec (ode c) (ode_zero c)
              (fun s a b _ _ => ode_add c s a b)) in ST; [|exact D|lra|lra].
        rewrite Rminus_0_r in ST. destruct ST as (_ & _ & SL & _).
        split; [|lra]. intros _. exists (length pre), c, a.
        assert (K : nth_error (pre ++ c :: cs) (length pre) = Some c).
        { rewrite nth_error_app2 by lia. rewrite Nat.sub_diag. reflexivity. }
        assert (FN : firstn (length pre) (pre ++ c :: cs) = pre).
        { rewrite firstn_app, Nat.sub_diag, firstn_all. simpl. apply app_nil_r. }
        rewrite FN. split; [assumption|]. split; [lra|]. split; [lra|].
        eapply st_sim_trans; [exact SL|]. apply ode_congr. assumption.
      + destruct (loop_count disc (Rabs (ct_delta_s c))) as [n|] eqn:LC; [|discriminate].
        cbn [fbind] in E.
        destruct (steps (ode c) disc (Rabs (ct_delta_s c)) n 0 (enter c cur)) as [l lst] eqn:ST.
        simpl in E.
        destruct (block disc s0 pre c cs (enter c cur) n l lst D C' LC ST)
          as (_ & _ & _ & _ & B5 & _).
        assert (O : total_length (pre ++ [c]) = total_length pre + Rabs (ct_delta_s c))
          by (rewrite total_length_app; simpl; ring).
        rewrite <- O in E. apply IH in E; [|assumption|lra].
        rewrite <- app_assoc in E. exact E.
  Qed.
End Sampling.

(** ** Packaged results *)

Lemma rs_enter_congr c s s' : st_sim s s' -> st_sim (rs_enter c s) (rs_enter c s').
Proof. intros (A & B & C & D). unfold rs_enter. apply sim_intro; auto. Qed.

Lemma hc_enter'_congr c s s' : st_sim s s' -> st_sim (hc_enter' c s) (hc_enter' c s').
Proof.
  intros H. pose proof H as (A & B & C & D). unfold hc_enter', hc_enter. rewrite D.
  destruct (Rlt_dec _ _); [apply rs_enter_congr|]; assumption.
Qed.

Lemma sampling_intro enter ode disc s cs path s1 :
  0 < disc ->
  marked enter ode disc s cs cs 0 path (0 :: s1) ->
  sampling enter ode disc s cs path (0 :: s1).
Proof.
  intros D (F & G & L & I). split; [symmetry; eapply Forall2_len; exact F|].
  split; [reflexivity|]. split; [rewrite L; ring|]. split; [|split].
  - intros i a b A B. destruct G as [_ G]. eapply gaps_nth; eassumption.
  - intros k. specialize (I k). rewrite Rplus_0_l in I. destruct I as [I|I]; [left; assumption|].
    exact I.
  - intros i q a Q A. eapply (nth_Forall2 _ _ _ F); eassumption.
Qed.

Lemma rs_integrate_spec extra disc s cs path : 0 < disc -> cs <> [] ->
  rs_integrate extra disc s cs = Some path ->
  (exists ss, sampling rs_enter rs_ode disc s cs path ss) /\
  (exists q, nth_error path 0 = Some q /\ st_x q = st_x s /\ st_y q = st_y s /\ st_theta q = st_theta s) /\
  (exists q, nth_error path (length path - 1) = Some q /\
             st_sim q (state_after rs_enter rs_ode s cs)).
Proof.
  intros D N E. unfold rs_integrate in E. destruct (reserve_ok _ _ _); [|discriminate].
  destruct (integrate_loop_marked rs_enter rs_ode rs_enter_congr rs_ode_congr rs_ode_zero rs_ode_add
    disc s D cs [] s path (st_sim_refl s) E) as (ss & M & M0 & L).
  destruct (M0 N) as [P0 S0]. cbn [app total_length fold_right] in *.
  destruct ss as [|x ss]; [discriminate|]. injection S0 as ->.
  split; [exists (0 :: ss); apply sampling_intro; assumption|].
  destruct cs as [|c cs]; [congruence|]. simpl in P0.
  split; [exists (rs_enter c s); repeat split; assumption|].
  exists (last path s). split; [|assumption].
  destruct path as [|p path]; [discriminate|].
  simpl length. rewrite Nat.sub_succ, Nat.sub_0_r, last_cons. apply nth_error_last.
Qed.

Lemma hc_integrate_spec disc s cs path : 0 < disc ->
  hc_integrate disc s cs = Some path ->
  (exists ss, sampling hc_enter' hc_ode disc
      (match cs with c :: _ => rs_enter c s | [] => s end) cs path ss) /\
  (exists q, nth_error path 0 = Some q /\ st_x q = st_x s /\ st_y q = st_y s /\ st_theta q = st_theta s) /\
  (exists q, nth_error path (length path - 1) = Some q /\
     st_sim q (state_after hc_enter' hc_ode
                 (match cs with c :: _ => rs_enter c s | [] => s end) cs)).
Proof.
  intros D E. unfold hc_integrate in E. destruct (reserve_ok _ _ _); [|discriminate].
  destruct cs as [|c cs]; [discriminate|].
  destruct (hc_integrate_loop hc_enter hc_ode disc (rs_enter c s) (c :: cs)) as [rest|] eqn:EL;
    [|discriminate].
  cbn [fbind] in E. injection E as <-. set (s0 := rs_enter c s) in *.
  assert (EO : forall c s, hc_enter' c s = match hc_enter c s with Some s' => s' | None => s end)
    by reflexivity.
  destruct (hc_integrate_loop_marked hc_enter' hc_ode hc_enter'_congr hc_ode_congr hc_ode_zero
    hc_ode_add disc s0 hc_enter EO D (c :: cs) [] s0 rest (st_sim_refl s0) EL) as (ss & M & L).
  cbn [app] in *. change (total_length []) with 0 in *.
  split; [|split].
  - exists (0 :: ss). apply sampling_intro; [assumption|].
    destruct M as (F & G & LL & I). split; [|split; [|split]].
    + constructor; [|assumption]. exists 0%nat, c, 0. split; [reflexivity|].
      pose proof (Rabs_pos (ct_delta_s c)). split; [lra|]. split; [simpl; ring|].
      simpl. unfold hc_enter', hc_enter, s0. cbn [st_kappa rs_enter].
      rewrite Rminus_diag_eq, Rabs_R0 by reflexivity.
      destruct (Rlt_dec epsilon 0) as [X|X]; [unfold epsilon in X; lra|].
      apply st_sim_sym, hc_ode_zero.
    + split; [lra|assumption].
    + rewrite last_cons. assumption.
    + intros k. right. apply I.
  - exists s0. repeat split.
  - exists (last rest s0). split; [|assumption].
    simpl length. rewrite Nat.sub_succ, Nat.sub_0_r. apply nth_error_last.
Qed.

Lemma hc_enter'_nominal c s : ct_kappa c = st_kappa s \/ epsilon < Rabs (ct_kappa c - st_kappa s) ->
  st_sim (hc_enter' c s) (rs_enter c s).
Proof.
  intros H. unfold hc_enter', hc_enter. destruct (Rlt_dec _ _) as [L|L]; [apply st_sim_refl|].
  destruct H as [H|H]; [|contradiction]. repeat split; [apply ang_eq_refl|]. simpl. congruence.
Qed.

Lemma state_after_nominal cs : forall s, no_small_jump rs_enter hc_ode epsilon s cs ->
  st_sim (state_after hc_enter' hc_ode s cs) (state_after rs_enter hc_ode s cs).
Proof.
  induction cs as [|c cs IH] using rev_ind; intros s N; [apply st_sim_refl|].
  unfold state_after. rewrite !fold_left_app.
  change (st_sim (state_after hc_enter' hc_ode (state_after hc_enter' hc_ode s cs) [c])
                 (state_after rs_enter hc_ode (state_after rs_enter hc_ode s cs) [c])).
  assert (H : st_sim (state_after hc_enter' hc_ode s cs) (state_after rs_enter hc_ode s cs)).
  { apply IH. intros k c' K. specialize (N k c').
    assert (KL : (k < length cs)%nat) by (apply nth_error_Some; congruence).
    rewrite nth_error_app1 in N by assumption.
    rewrite firstn_app in N. replace (k - length cs)%nat with 0%nat in N by lia.
    simpl in N. rewrite app_nil_r in N. apply N. assumption. }
  simpl. apply hc_ode_congr.
  specialize (N (length cs) c). rewrite nth_error_app2, Nat.sub_diag in N by lia.
  rewrite firstn_app, Nat.sub_diag, firstn_all in N. simpl in N. rewrite app_nil_r in N.
  specialize (N eq_refl).
  eapply st_sim_trans; [apply hc_enter'_nominal|apply rs_enter_congr; assumption].
  destruct H as (_ & _ & _ & ->). exact N.
Qed.

Lemma hc_integrate_nominal disc s c cs path : 0 < disc ->
  no_small_jump rs_enter hc_ode epsilon (rs_enter c s) (c :: cs) ->
  hc_integrate disc s (c :: cs) = Some path ->
  exists q, nth_error path (length path - 1) = Some q /\
    st_sim q (state_after rs_enter hc_ode s (c :: cs)).
Proof.
  intros D N E. destruct (hc_integrate_spec _ _ _ _ D E) as (_ & _ & q & Q & S).
  exists q. split; [assumption|]. eapply st_sim_trans; [exact S|].
  eapply st_sim_trans; [apply state_after_nominal; assumption|].
  unfold state_after. simpl. apply st_sim_refl.
Qed.

(** ** Definedness: no integer overflow when the number of states fits in an [int]. *)

Lemma n_states_loop_mono disc cs : 0 < disc -> forall n m, n_states_loop disc n cs = Some m ->
  (n <= m)%Z /\ Forall (fun c => loop_count disc (Rabs (ct_delta_s c)) <> None) cs \/ (n < 0)%Z.
Proof.
  intros D. induction cs as [|c cs IH]; intros n m E.
  - injection E as <-. left. split; [lia|constructor].
  - cbn [n_states_loop] in E.
    assert (P : (0 <= ceilZ (Rabs (ct_delta_s c) / disc))%Z).
    { apply le_IZR. pose proof (ceilZ_spec (Rabs (ct_delta_s c) / disc)).
      assert (0 <= Rabs (ct_delta_s c) / disc)
        by (apply Rmult_le_reg_r with disc; [assumption|]; unfold Rdiv;
            rewrite Rmult_assoc, Rinv_l by lra; pose proof (Rabs_pos (ct_delta_s c)); lra).
      lra. }
    destruct (_ <=? _)%Z eqn:B; [|discriminate]. apply Z.leb_le in B.
    destruct (Z_lt_le_dec n 0) as [|N0]; [right; assumption|left].
    destruct (IH _ _ E) as [[A F]|A]; [|lia]. split; [lia|]. constructor; [|assumption].
    unfold loop_count. destruct (_ <=? _)%Z eqn:B'; [congruence|]. apply Z.leb_gt in B'. lia.
Qed.

Lemma reserve_ok_counts disc extra cs : 0 < disc -> reserve_ok disc extra cs = true ->
  Forall (fun c => loop_count disc (Rabs (ct_delta_s c)) <> None) cs.
Proof.
  intros D. unfold reserve_ok. destruct (n_states_loop disc 0 cs) as [m|] eqn:E; [|discriminate].
  intros _. destruct (n_states_loop_mono disc cs D _ _ E) as [[_ F]|A]; [assumption|lia].
Qed.

Lemma rs_integrate_defined extra disc s cs : 0 < disc -> reserve_ok disc extra cs = true ->
  rs_integrate extra disc s cs <> None.
Proof.
  intros D R. unfold rs_integrate. rewrite R. apply reserve_ok_counts in R; [|assumption].
  clear extra. revert s. induction R as [|c cs C F IH]; intros s; [discriminate|].
  cbn [integrate_loop]. destruct (loop_count _ _) as [n|]; [|congruence]. cbn [fbind].
  destruct (steps _ _ _ _ _ _) as [l lst]. specialize (IH lst).
  destruct (integrate_loop _ _ _ _ _); [discriminate|congruence].
Qed.

Lemma hc_integrate_defined disc s cs : 0 < disc -> cs <> [] -> reserve_ok disc 3 cs = true ->
  hc_integrate disc s cs <> None.
Proof.
  intros D N R. unfold hc_integrate. rewrite R. apply reserve_ok_counts in R; [|assumption].
  destruct cs as [|c cs]; [congruence|]. clear N. set (s0 := rs_enter c s). clearbody s0.
  assert (H : hc_integrate_loop hc_enter hc_ode disc s0 (c :: cs) <> None).
  { induction R as [|c' cs' C F IH] in s0 |- *; [discriminate|].
    cbn [hc_integrate_loop]. destruct (loop_count _ _) as [n|]; [|congruence]. cbn [fbind].
    destruct (match hc_enter c' s0 with Some cur' => ([cur'], cur') | None => ([], s0) end) as [p q].
    destruct (steps _ _ _ _ _ _) as [l lst]. specialize (IH lst).
    destruct (hc_integrate_loop _ _ _ _ _); [discriminate|congruence]. }
  destruct (hc_integrate_loop _ _ _ _ _); [discriminate|congruence].
Qed.

Lemma n_states_loop_bound disc cs : 0 < disc -> forall n, 
  IZR n + total_length cs / disc + INR (length cs) <= IZR INT_MAX ->
  exists m, n_states_loop disc n cs = Some m /\ IZR m <= IZR n + total_length cs / disc + INR (length cs).
Proof.
  intros D. induction cs as [|c cs IH]; intros n B.
  - exists n. split; [reflexivity|]. simpl. unfold Rdiv. lra.
  - cbn [n_states_loop].
    set (z := ceilZ (Rabs (ct_delta_s c) / disc)). pose proof (ceilZ_spec (Rabs (ct_delta_s c) / disc)) as C.
    fold z in C.
    assert (E : total_length (c :: cs) / disc = Rabs (ct_delta_s c) / disc + total_length cs / disc)
      by (simpl; field; lra).
    rewrite E in *. simpl length in *. rewrite S_INR in *.
    assert (T : 0 <= total_length cs / disc).
    { apply Rmult_le_reg_r with disc; [assumption|]. unfold Rdiv. rewrite Rmult_assoc, Rinv_l by lra.
      pose proof (total_length_pos cs). lra. }
    pose proof (pos_INR (length cs)).
    destruct (IH (n + z)%Z) as (m & M & MB); [rewrite plus_IZR; lra|].
    rewrite plus_IZR in MB.
    destruct (n + z <=? INT_MAX)%Z eqn:L.
    + exists m. split; [assumption|]. lra.
    + exfalso. apply Z.leb_gt in L. apply IZR_lt in L. rewrite plus_IZR in L. lra.
Qed.

Lemma reserve_ok_bound disc extra cs : 0 < disc -> (0 <= extra)%Z ->
  total_length cs / disc + INR (length cs) + IZR extra <= IZR INT_MAX -> reserve_ok disc extra cs = true.
Proof.
  intros D X B. apply IZR_le in X.
  destruct (n_states_loop_bound disc cs D 0) as (m & M & MB); [lra|].
  unfold reserve_ok. rewrite M. apply Z.leb_le. apply le_IZR. rewrite plus_IZR. lra.
Qed.

(** ** Interpolation *)

Lemma s_inter_spec cs t si : s_inter cs t = Some si -> 0 < t /\
  ((1 <= t /\ si = total_length cs) \/ (t < 1 /\ si = t * total_length cs)).
Proof.
  unfold s_inter. rewrite path_length_total. destruct (Rle_dec t 0); [discriminate|].
  destruct (Rlt_dec 1 t); intros E; injection E as <-; [lra|].
  split; [lra|]. destruct (Rle_lt_dec 1 t); [left|right]; [|split; [assumption|reflexivity]].
  split; [assumption|]. replace t with 1 by lra. ring.
Qed.

Lemma interpolated_intro enter ode
  (EC : forall c s s', st_sim s s' -> st_sim (enter c s) (enter c s'))
  (OC : forall c s s' h, st_sim s s' -> st_sim (ode c s h) (ode c s' h))
  (OZ : forall c s, st_sim (ode c s 0) s)
  (OA : forall c s a b, st_sim (ode c (ode c s a) b) (ode c s (a + b)))
  disc s cs t si q : 0 < disc ->
  s_inter cs t = Some si -> interpolate_loop enter ode disc si 0 s cs = Some q ->
  interpolated enter ode s cs t q.
Proof.
  intros D S E. apply s_inter_spec in S. destruct S as [T S].
  pose proof (total_length_pos cs) as P.
  apply (interpolate_loop_spec enter ode EC OC OZ OA disc s si D cs [] s q) in E;
    [|apply st_sim_refl|simpl; nra].
  cbn [app] in E. destruct E as [E1 E2]. split.
  - intros [H|H]; apply E2; nra.
  - intros T1 L. destruct S as [[S _]|[_ S]]; [lra|]. rewrite <- S. apply E1. nra.
Qed.

Lemma rs_interpolate_spec disc s cs t u : 0 < disc -> rs_interpolate disc s cs t = Some u ->
  (t <= 0 -> u_x u = st_x s /\ u_y u = st_y s /\ u_theta u = st_theta s) /\
  (0 < t -> cs <> [] -> exists q, u = ustate q /\ interpolated rs_enter rs_ode s cs t q).
Proof.
  intros D E. unfold rs_interpolate in E. split.
  - intros T. unfold s_inter in E. destruct (Rle_dec t 0); [|contradiction].
    injection E as <-. repeat split.
  - intros T N. destruct (s_inter cs t) as [si|] eqn:S.
    + destruct cs as [|c cs]; [congruence|].
      destruct (interpolate_loop _ _ _ _ _ _ _) as [q|] eqn:L; [|discriminate].
      injection E as <-. exists q. split; [reflexivity|].
      exact (interpolated_intro rs_enter rs_ode rs_enter_congr rs_ode_congr rs_ode_zero rs_ode_add
               disc s (c :: cs) t si q D S L).
    + unfold s_inter in S. destruct (Rle_dec t 0); [lra|]. destruct (Rlt_dec 1 t); discriminate.
Qed.

Lemma hc_interpolate_spec disc s c cs t u : 0 < disc -> hc_interpolate disc s (c :: cs) t = Some u ->
  exists q, u = ustate q /\
  (t <= 0 -> st_x q = st_x s /\ st_y q = st_y s /\ st_theta q = st_theta s /\ st_kappa q = ct_kappa c) /\
  (0 < t -> interpolated hc_enter' hc_ode (rs_enter c s) (c :: cs) t q).
Proof.
  intros D E. unfold hc_interpolate in E.
  destruct (s_inter (c :: cs) t) as [si|] eqn:S.
  - destruct (interpolate_loop _ _ _ _ _ _ _) as [q|] eqn:L; [|discriminate].
    injection E as <-. exists q. split; [reflexivity|]. split.
    + intros T. unfold s_inter in S. destruct (Rle_dec t 0); [discriminate|contradiction].
    + intros T.
      exact (interpolated_intro hc_enter' hc_ode hc_enter'_congr hc_ode_congr hc_ode_zero hc_ode_add
               disc (rs_enter c s) (c :: cs) t si q D S L).
  - injection E as <-. eexists. split; [reflexivity|]. split.
    + intros T. repeat split.
    + intros T. unfold s_inter in S. destruct (Rle_dec t 0); [lra|]. destruct (Rlt_dec 1 t); discriminate.
Qed.

Lemma rs_interpolate_uninit disc s cs t : t <= 0 ->
  rs_interpolate disc s cs t = Some (mkUState (st_x s) (st_y s) (st_theta s) None None).
Proof.
  intros T. unfold rs_interpolate, s_inter. destruct (Rle_dec t 0); [reflexivity|contradiction].
Qed.

Lemma rs_interpolate_init disc s cs t u : 0 < t -> cs <> [] -> rs_interpolate disc s cs t = Some u ->
  u_kappa u <> None /\ u_d u <> None.
Proof.
  intros T N E. unfold rs_interpolate in E. destruct (s_inter cs t) as [si|] eqn:S.
  - destruct cs; [congruence|]. destruct (interpolate_loop _ _ _ _ _ _ _); [|discriminate].
    injection E as <-. simpl. split; discriminate.
  - unfold s_inter in S. destruct (Rle_dec t 0); [lra|]. destruct (Rlt_dec 1 t); discriminate.
Qed.

Lemma hc_interpolate_init disc s cs t u : hc_interpolate disc s cs t = Some u ->
  u_kappa u <> None /\ u_d u <> None.
Proof.
  intros E. unfold hc_interpolate in E. destruct cs as [|c cs]; [discriminate|].
  destruct (s_inter (c :: cs) t).
  - destruct (interpolate_loop _ _ _ _ _ _ _); [|discriminate]. injection E as <-. split; discriminate.
  - injection E as <-. split; discriminate.
Qed.

(** ** A concrete run *)

Lemma rs_integrate_case :
  rs_integrate 3 1 (mkState 1 2 0 0 0) [mkControl (-(3 / 2)) 0 0] =
  Some [mkState 1 2 0 0 (-1); mkState 0 2 0 0 (-1); mkState (-1 / 2) 2 0 0 (-1)].
Proof.
  assert (C : ceilZ (Rabs (- (3 / 2)) / 1) = 2%Z).
  { apply ceilZ_unique. rewrite Rabs_left by lra. lra. }
  assert (A : Rabs (- (3 / 2)) = 3 / 2) by (rewrite Rabs_left; lra).
  assert (S : sgn (- (3 / 2)) = -1) by (unfold sgn; destruct (Rlt_dec _ _); lra).
  assert (LC : loop_count 1 (3 / 2) = Some 2%nat).
  { unfold loop_count. rewrite <- A, C. reflexivity. }
  unfold rs_integrate, reserve_ok. cbn [n_states_loop ct_delta_s]. rewrite C.
  change (0 + 2 <=? INT_MAX)%Z with true. cbn iota.
  change (0 + 2 + 3 <=? INT_MAX)%Z with true. cbn iota.
  cbn [integrate_loop ct_delta_s]. rewrite A, LC. cbn [fbind steps]. unfold next_step.
  destruct (Rlt_dec (3 / 2) (0 + 1)); [lra|]. destruct (Rlt_dec (3 / 2) (0 + 1 + 1)); [|lra].
  assert (E0 : forall x y h, rs_ode (mkControl (- (3 / 2)) 0 0) (mkState x y 0 0 (-1)) h
     = mkState (x - h) y 0 0 (-1)).
  { intros x y h. unfold rs_ode. cbn [st_kappa st_x st_y st_theta ct_delta_s].
    rewrite Rabs_R0, S. destruct (Rlt_dec epsilon 0) as [X|X]; [unfold epsilon in X; lra|].
    unfold end_of_straight_line. rewrite cos_0, sin_0. f_equal; ring. }
  unfold rs_enter. cbn [st_x st_y st_theta ct_kappa ct_delta_s]. rewrite S, !E0.
  simpl app. do 2 f_equal. f_equal; [f_equal; lra|]. f_equal. f_equal; lra.
Qed.

Lemma rs_discretization_independent extra d1 d2 state controls p1 p2 q1 q2 :
  0 < d1 -> 0 < d2 -> controls <> [] ->
  rs_integrate extra d1 state controls = Some p1 -> rs_integrate extra d2 state controls = Some p2 ->
  nth_error p1 (length p1 - 1) = Some q1 -> nth_error p2 (length p2 - 1) = Some q2 -> st_sim q1 q2.
Proof.
  intros D1 D2 N E1 E2 Q1 Q2.
  destruct (rs_integrate_spec _ _ _ _ _ D1 N E1) as (_ & _ & q & Q & S).
  destruct (rs_integrate_spec _ _ _ _ _ D2 N E2) as (_ & _ & q' & Q' & S').
  rewrite Q in Q1. injection Q1 as <-. rewrite Q' in Q2. injection Q2 as <-.
  eapply st_sim_trans; [exact S|apply st_sim_sym; exact S'].
Qed.

Lemma hc_discretization_independent d1 d2 state controls p1 p2 q1 q2 :
  0 < d1 -> 0 < d2 ->
  hc_integrate d1 state controls = Some p1 -> hc_integrate d2 state controls = Some p2 ->
  nth_error p1 (length p1 - 1) = Some q1 -> nth_error p2 (length p2 - 1) = Some q2 -> st_sim q1 q2.
Proof.
  intros D1 D2 E1 E2 Q1 Q2.
  destruct (hc_integrate_spec _ _ _ _ D1 E1) as (_ & _ & q & Q & S).
  destruct (hc_integrate_spec _ _ _ _ D2 E2) as (_ & _ & q' & Q' & S').
  rewrite Q in Q1. injection Q1 as <-. rewrite Q' in Q2. injection Q2 as <-.
  eapply st_sim_trans; [exact S|apply st_sim_sym; exact S'].
Qed.

Lemma ode_curvature c s h :
  (epsilon < Rabs (ct_sigma c) -> st_kappa (hc_ode c s h) = st_kappa s + ct_sigma c * h) /\
  (Rabs (ct_sigma c) <= epsilon -> st_kappa (hc_ode c s h) = st_kappa s) /\
  st_kappa (rs_ode c s h) = st_kappa s /\
  st_d (hc_ode c s h) = sgn (ct_delta_s c) /\ st_d (rs_ode c s h) = sgn (ct_delta_s c).
Proof.
  unfold hc_ode, rs_ode, end_of_clothoid, end_of_circular_arc, end_of_straight_line.
  split; [|split; [|split; [|split]]]; intros; repeat (destruct (Rlt_dec _ _); try lra); reflexivity.
Qed.

Lemma rs_integrate_total extra disc state controls :
  0 < disc -> (0 <= extra)%Z ->
  total_length controls / disc + INR (length controls) + IZR extra <= 2147483647 ->
  exists path, rs_integrate extra disc state controls = Some path.
Proof.
  intros D X B. destruct (rs_integrate extra disc state controls) as [p|] eqn:E; [eauto|].
  exfalso. apply (rs_integrate_defined extra disc state controls D); [|assumption].
  apply reserve_ok_bound; assumption.
Qed.

Lemma hc_integrate_total disc state controls :
  0 < disc -> controls <> [] ->
  total_length controls / disc + INR (length controls) + 3 <= 2147483647 ->
  exists path, hc_integrate disc state controls = Some path.
Proof.
  intros D N B. destruct (hc_integrate disc state controls) as [p|] eqn:E; [eauto|].
  exfalso. apply (hc_integrate_defined disc state controls D N); [|assumption].
  apply reserve_ok_bound; [assumption|lia|assumption].
Qed.

Lemma rs_interpolate_case :
  rs_interpolate 1 (mkState 1 2 0 0 0) [mkControl 1 0 0; mkControl (-3) 0 0] (1 / 2) =
  Some (mkUState 1 2 0 (Some 0) (Some (-1))).
Proof.
  assert (A1 : Rabs 1 = 1) by (rewrite Rabs_right; lra).
  assert (A3 : Rabs (-3) = 3) by (rewrite Rabs_left; lra).
  assert (S1 : sgn 1 = 1) by (unfold sgn; destruct (Rlt_dec _ _); lra).
  assert (S3 : sgn (-3) = -1) by (unfold sgn; destruct (Rlt_dec _ _); lra).
  assert (LC : loop_count 1 1 = Some 1%nat).
  { unfold loop_count. rewrite (ceilZ_unique (1 / 1) 1) by lra. reflexivity. }
  assert (E0 : forall ds x y d h, rs_ode (mkControl ds 0 0) (mkState x y 0 0 d) h
     = mkState (x + sgn ds * h) y 0 0 (sgn ds)).
  { intros ds x y d h. unfold rs_ode. cbn [st_kappa st_x st_y st_theta ct_delta_s].
    rewrite Rabs_R0. destruct (Rlt_dec epsilon 0) as [X|X]; [unfold epsilon in X; lra|].
    unfold end_of_straight_line. rewrite cos_0, sin_0. f_equal; ring. }
  unfold rs_interpolate, s_inter, path_length. cbn [fold_left ct_delta_s]. rewrite A1, A3.
  destruct (Rle_dec (1 / 2) 0); [lra|]. destruct (Rlt_dec 1 (1 / 2)); [lra|].
  cbn [interpolate_loop ct_delta_s]. rewrite A1, A3.
  destruct (Rlt_dec _ _); [lra|]. rewrite LC. cbn [fbind].
  destruct (Rlt_dec _ _); [|lra].
  replace (3 - (0 + 1 + 3 - 1 / 2 * (0 + 1 + 3))) with 1 by lra. rewrite LC. cbn [fbind steps].
  unfold next_step. destruct (Rlt_dec _ _); [lra|].
  unfold rs_enter. repeat (cbn [st_x st_y st_theta ct_kappa ct_delta_s snd]; try rewrite E0).
  rewrite S1, S3. unfold ustate. cbn. do 2 f_equal; lra.
Qed.

Lemma rs_interpolate_uninit_witness :
  exists (disc : R) (state : State) (controls : list Control) (t : R) (u : UState),
    0 < disc /\ controls <> [] /\
    rs_interpolate disc state controls t = Some u /\ u_kappa u = None /\ u_d u = None.
Proof.
  exists 1, (mkState 0 0 0 0 1), [mkControl 1 1 0], 0, (mkUState 0 0 0 None None).
  split; [lra|]. split; [discriminate|]. split; [|split; reflexivity].
  rewrite rs_interpolate_uninit by lra. reflexivity.
Qed.

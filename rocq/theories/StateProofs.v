(** * Curvature and direction of sampled states *)
From Coq Require Import Reals ZArith List Bool Lra Lia.
From Verif Require Import Base ModelUtil ModelFresnel ModelIntegrate ModelCircle ModelDubins ModelRS Num UtilProofs IntegrateProofs EKFProofs SpecPath SpecCloth SpecTurn
  FollowProofs DubinsProofs DubinsCases RSSelect.
Import ListNotations.
Open Scope R_scope.

(** ** Curvature *)
Lemma hc_ode_kappa c s u : st_kappa (hc_ode c s u) = if Rlt_dec epsilon (Rabs (ct_sigma c)) then st_kappa s + ct_sigma c * u else st_kappa s.
Proof.
  unfold hc_ode. destruct (Rlt_dec epsilon (Rabs (ct_sigma c))); [reflexivity|].
  destruct (Rlt_dec epsilon (Rabs (st_kappa s))); reflexivity.
Qed.
Lemma rs_ode_kappa c s u : st_kappa (rs_ode c s u) = st_kappa s.
Proof. unfold rs_ode. destruct (Rlt_dec epsilon (Rabs (st_kappa s))); reflexivity. Qed.

Lemma part_kappa k g c s u : within_bounds k g c -> 0 <= u <= Rabs (ct_delta_s c) -> Rabs (st_kappa (hc_ode c (hc_enter' c s) u)) <= k + epsilon.
Proof.
  intros [_ B] U. rewrite hc_ode_kappa. pose proof (enter_kappa c s) as E.
  destruct (Rlt_dec epsilon (Rabs (ct_sigma c))) as [_|_].
  - specialize (B u U). replace (st_kappa (hc_enter' c s) + ct_sigma c * u) with ((st_kappa (hc_enter' c s) - ct_kappa c) + (ct_kappa c + ct_sigma c * u)) by ring.
    eapply Rle_trans; [apply Rabs_triang|]. lra.
  - assert (Z : 0 <= 0 <= Rabs (ct_delta_s c)) by lra. specialize (B 0 Z). replace (ct_kappa c + ct_sigma c * 0) with (ct_kappa c) in B by ring.
    replace (st_kappa (hc_enter' c s)) with ((st_kappa (hc_enter' c s) - ct_kappa c) + ct_kappa c) by ring.
    eapply Rle_trans; [apply Rabs_triang|]. lra.
Qed.

Lemma on_path_kappa k g s cs a q : Forall (within_bounds k g) cs -> on_path hc_enter' hc_ode s cs a q -> Rabs (st_kappa q) <= k + epsilon.
Proof.
  intros F (n & c & u & N & U & _ & (_ & _ & _ & K)). rewrite K.
  apply part_kappa with (g := g); [|exact U]. exact (proj1 (Forall_forall _ _) F c (nth_error_In _ _ N)).
Qed.

Lemma integrate_kappa k g disc s cs path : 0 < disc -> Forall (within_bounds k g) cs -> hc_integrate disc s cs = Some path ->
  Forall (fun q => Rabs (st_kappa q) <= k + epsilon) path.
Proof.
  intros D F E. destruct (hc_integrate_spec disc s cs path D E) as [[ss (L & _ & _ & _ & _ & P)] _].
  apply Forall_forall. intros q I. destruct (In_nth_error _ _ I) as [i Q].
  destruct (nth_error ss i) as [a|] eqn:A.
  - exact (on_path_kappa k g _ cs a q F (P i q a Q A)).
  - apply nth_error_None in A. pose proof (proj1 (nth_error_Some path i)) as B. rewrite Q in B.
    assert (i < length path)%nat by (apply B; discriminate). lia.
Qed.

Lemma after_kappa k g s cs : cs <> [] -> Forall (within_bounds k g) cs -> Rabs (st_kappa (state_after hc_enter' hc_ode s cs)) <= k + epsilon.
Proof.
  intros NE F. destruct (exists_last NE) as (cs' & c & ->). unfold state_after. rewrite fold_left_app. cbn [fold_left].
  apply part_kappa with (g := g); [|pose proof (Rabs_pos (ct_delta_s c)); lra].
  apply Forall_app in F. destruct F as [_ F]. inversion F; assumption.
Qed.

Lemma interpolate_kappa k g disc s c cs t u : 0 < disc -> Forall (within_bounds k g) (c :: cs) -> hc_interpolate disc s (c :: cs) t = Some u ->
  exists kp, u_kappa u = Some kp /\ Rabs kp <= k + epsilon.
Proof.
  intros D F E. destruct (hc_interpolate_spec disc s c cs t u D E) as (q & -> & T0 & T1). exists (st_kappa q). split; [reflexivity|].
  assert (EP : 0 < epsilon) by (unfold epsilon; lra).
  destruct (Rle_dec t 0) as [T|T].
  - destruct (T0 T) as (_ & _ & _ & ->). inversion F as [|? ? [_ B] _]; subst.
    specialize (B 0 (conj (Rle_refl 0) (Rabs_pos _))). replace (ct_kappa c + ct_sigma c * 0) with (ct_kappa c) in B by ring. lra.
  - destruct (T1 (Rnot_le_lt _ _ T)) as [A B]. pose proof (total_nonneg' (c :: cs)) as TN.
    destruct (Rle_dec 1 t) as [T'|T'].
    + destruct (A (or_introl T')) as (_ & _ & _ & ->). apply after_kappa with (g := g); [discriminate|exact F].
    + destruct (Req_dec (total_length (c :: cs)) 0) as [Z|Z].
      * destruct (A (or_intror Z)) as (_ & _ & _ & ->). apply after_kappa with (g := g); [discriminate|exact F].
      * apply (on_path_kappa k g (rs_enter c s) (c :: cs) (t * total_length (c :: cs)) q F). apply B; [lra|]. lra.
Qed.

(** Arcs and straight lines. *)
Lemma rs_part_kappa c s u : st_kappa (rs_ode c (rs_enter c s) u) = ct_kappa c.
Proof. rewrite rs_ode_kappa. reflexivity. Qed.

Lemma rs_integrate_kappa extra disc s cs path : 0 < disc -> rs_integrate extra disc s cs = Some path ->
  Forall (fun q => exists c, In c cs /\ st_kappa q = ct_kappa c) path.
Proof.
  intros D E. destruct cs as [|c0 cs0].
  { unfold rs_integrate in E. destruct (reserve_ok _ _ _); [|discriminate]. cbn in E. injection E as <-. constructor. }
  set (cs := c0 :: cs0) in *. assert (NE : cs <> []) by discriminate.
  destruct (rs_integrate_spec extra disc s cs path D NE E) as [[ss (L & _ & _ & _ & _ & P)] _].
  apply Forall_forall. intros q I. destruct (In_nth_error _ _ I) as [i Q].
  destruct (nth_error ss i) as [a|] eqn:A.
  - destruct (P i q a Q A) as (n & c & u & N & _ & _ & (_ & _ & _ & K)). exists c. split; [exact (nth_error_In _ _ N)|].
    rewrite K. apply rs_part_kappa.
  - apply nth_error_None in A. pose proof (proj1 (nth_error_Some path i)) as B. rewrite Q in B.
    assert (i < length path)%nat by (apply B; discriminate). lia.
Qed.

Lemma rs_interpolate_kappa disc s cs t u : 0 < disc -> 0 < t -> cs <> [] -> rs_interpolate disc s cs t = Some u ->
  exists c, In c cs /\ u_kappa u = Some (ct_kappa c).
Proof.
  intros D T NE E. destruct (rs_interpolate_spec disc s cs t u D E) as [_ S]. destruct (S T NE) as (q & -> & A & B).
  assert (AF : exists c, In c cs /\ st_kappa (state_after rs_enter rs_ode s cs) = ct_kappa c).
  { destruct (exists_last NE) as (cs' & c & EQ). exists c. rewrite EQ. split; [apply in_or_app; right; left; reflexivity|].
    unfold state_after. rewrite fold_left_app. cbn [fold_left]. apply rs_part_kappa. }
  pose proof (total_nonneg' cs) as TN.
  destruct (Rle_dec 1 t) as [T'|T'].
  - destruct (A (or_introl T')) as (_ & _ & _ & K). destruct AF as (c & I & C). exists c. split; [exact I|]. cbn [ustate u_kappa]. rewrite K, C. reflexivity.
  - destruct (Req_dec (total_length cs) 0) as [Z|Z].
    + destruct (A (or_intror Z)) as (_ & _ & _ & K). destruct AF as (c & I & C). exists c. split; [exact I|]. cbn [ustate u_kappa]. rewrite K, C. reflexivity.
    + assert (T1 : t < 1) by lra. assert (TL : 0 < total_length cs) by lra.
      destruct (B T1 TL) as (n & c & w & N & _ & _ & (_ & _ & _ & K)). exists c. split; [exact (nth_error_In _ _ N)|].
      cbn [ustate u_kappa]. rewrite K, rs_part_kappa. reflexivity.
Qed.

(** ** Sharpness *)
Definition crisp (c : Control) : Prop := ct_sigma c = 0 \/ epsilon < Rabs (ct_sigma c).

Lemma ode_crisp c s u : crisp c -> st_kappa (hc_ode c s u) = st_kappa s + ct_sigma c * u.
Proof.
  intros C. rewrite hc_ode_kappa. destruct (Rlt_dec epsilon (Rabs (ct_sigma c))) as [L|L]; [reflexivity|].
  destruct C as [->|C]; [ring|contradiction].
Qed.
Lemma enter_same c s : st_kappa s = ct_kappa c -> st_kappa (hc_enter' c s) = ct_kappa c.
Proof.
  intros E. unfold hc_enter', hc_enter. rewrite E, Rminus_eq_0, Rabs_R0.
  destruct (Rlt_dec epsilon 0); [reflexivity|exact E].
Qed.

Lemma chain_nth cs : forall k0 k1 s n c u, curvature_chain k0 cs k1 -> Forall crisp cs -> st_kappa s = k0 -> nth_error cs n = Some c ->
  st_kappa (hc_ode c (hc_enter' c (state_after hc_enter' hc_ode s (firstn n cs))) u) = ct_kappa c + ct_sigma c * u.
Proof.
  induction cs as [|c0 cs IH]; intros k0 k1 s n c u CH F E N; [destruct n; discriminate|].
  destruct CH as [K CH]. inversion F as [|? ? F0 F1]; subst.
  destruct n as [|n]; cbn [nth_error] in N.
  - injection N as <-. cbn [firstn state_after fold_left]. rewrite ode_crisp by exact F0. rewrite enter_same by congruence. reflexivity.
  - change (firstn (S n) (c0 :: cs)) with (c0 :: firstn n cs). unfold state_after. cbn [fold_left].
    fold (state_after hc_enter' hc_ode (hc_ode c0 (hc_enter' c0 s) (Rabs (ct_delta_s c0))) (firstn n cs)).
    eapply IH; [exact CH|exact F1| |exact N]. rewrite ode_crisp by exact F0. rewrite enter_same by congruence. reflexivity.
Qed.

Definition at_part (cs : list Control) (a kp : R) : Prop :=
  exists n c u, nth_error cs n = Some c /\ 0 <= u <= Rabs (ct_delta_s c) /\ a = total_length (firstn n cs) + u /\ kp = ct_kappa c + ct_sigma c * u.

Lemma chain_start g cs : forall k0 k1 a kp, curvature_chain k0 cs k1 -> Forall (fun c => Rabs (ct_sigma c) <= g) cs -> at_part cs a kp ->
  0 <= a /\ Rabs (kp - k0) <= g * a.
Proof.
  induction cs as [|c0 cs IH]; intros k0 k1 a kp CH F (n & c & u & N & U & A & K); [destruct n; discriminate|].
  destruct CH as [E CH]. inversion F as [|? ? F0 F1]; subst. destruct n as [|n]; cbn [nth_error] in N.
  - injection N as <-. cbn [firstn total_length fold_right]. split; [lra|].
    replace (ct_kappa c0 + ct_sigma c0 * u - ct_kappa c0) with (ct_sigma c0 * u) by ring. rewrite Rabs_mult, (Rabs_pos_eq u) by lra.
    rewrite Rplus_0_l. apply Rmult_le_compat_r; [lra|exact F0].
  - change (total_length (firstn (S n) (c0 :: cs))) with (Rabs (ct_delta_s c0) + total_length (firstn n cs)).
    destruct (IH _ _ (total_length (firstn n cs) + u) (ct_kappa c + ct_sigma c * u) CH F1) as [P Q].
    { exists n, c, u. auto. }
    pose proof (Rabs_pos (ct_delta_s c0)) as LP. split; [lra|].
    replace (ct_kappa c + ct_sigma c * u - ct_kappa c0) with
      ((ct_kappa c + ct_sigma c * u - (ct_kappa c0 + ct_sigma c0 * Rabs (ct_delta_s c0))) + ct_sigma c0 * Rabs (ct_delta_s c0)) by ring.
    eapply Rle_trans; [apply Rabs_triang|]. rewrite (Rabs_mult (ct_sigma c0)), Rabs_Rabsolu.
    pose proof (Rmult_le_compat_r _ _ _ LP F0). lra.
Qed.

Lemma first_end g c0 cs k1 u a kp : curvature_chain (ct_kappa c0) (c0 :: cs) k1 -> Forall (fun c => Rabs (ct_sigma c) <= g) (c0 :: cs) ->
  0 <= u <= Rabs (ct_delta_s c0) -> at_part cs a kp ->
  Rabs (kp - (ct_kappa c0 + ct_sigma c0 * u)) <= g * Rabs (Rabs (ct_delta_s c0) + a - u).
Proof.
  intros [_ CH] F U P. inversion F as [|? ? F0 F1]; subst. destruct (chain_start g cs _ _ a kp CH F1 P) as [A Q].
  rewrite (Rabs_pos_eq (Rabs (ct_delta_s c0) + a - u)) by lra.
  replace (kp - (ct_kappa c0 + ct_sigma c0 * u)) with
    ((kp - (ct_kappa c0 + ct_sigma c0 * Rabs (ct_delta_s c0))) + ct_sigma c0 * (Rabs (ct_delta_s c0) - u)) by ring.
  eapply Rle_trans; [apply Rabs_triang|]. rewrite (Rabs_mult (ct_sigma c0)), (Rabs_pos_eq (Rabs (ct_delta_s c0) - u)) by lra.
  assert (Rabs (ct_sigma c0) * (Rabs (ct_delta_s c0) - u) <= g * (Rabs (ct_delta_s c0) - u)) by (apply Rmult_le_compat_r; [lra|exact F0]). lra.
Qed.

Lemma chain_lipschitz g cs : forall k0 k1 a b ka kb, curvature_chain k0 cs k1 -> Forall (fun c => Rabs (ct_sigma c) <= g) cs ->
  at_part cs a ka -> at_part cs b kb -> Rabs (kb - ka) <= g * Rabs (b - a).
Proof.
  induction cs as [|c0 cs IH]; intros k0 k1 a b ka kb CH F (n & c & u & N & U & A & K) (m & c' & u' & N' & U' & A' & K'); [destruct n; discriminate|].
  pose proof CH as [E CH']. inversion F as [|? ? F0 F1]; subst k0.
  destruct n as [|n], m as [|m]; cbn [nth_error] in N, N'.
  - injection N as <-. injection N' as <-. subst. cbn [firstn total_length fold_right].
    replace (ct_kappa c0 + ct_sigma c0 * u' - (ct_kappa c0 + ct_sigma c0 * u)) with (ct_sigma c0 * (u' - u)) by ring.
    replace (0 + u' - (0 + u)) with (u' - u) by ring. rewrite Rabs_mult. apply Rmult_le_compat_r; [apply Rabs_pos|exact F0].
  - injection N as <-. subst. change (total_length (firstn (S m) (c0 :: cs))) with (Rabs (ct_delta_s c0) + total_length (firstn m cs)). cbn [firstn total_length fold_right].
    pose proof (first_end g c0 cs k1 u (total_length (firstn m cs) + u') (ct_kappa c' + ct_sigma c' * u') CH F U) as P.
    replace (Rabs (ct_delta_s c0) + total_length (firstn m cs) + u' - (0 + u)) with (Rabs (ct_delta_s c0) + (total_length (firstn m cs) + u') - u) by ring.
    apply P. exists m, c', u'. auto.
  - injection N' as <-. subst. change (total_length (firstn (S n) (c0 :: cs))) with (Rabs (ct_delta_s c0) + total_length (firstn n cs)). cbn [firstn total_length fold_right].
    pose proof (first_end g c0 cs k1 u' (total_length (firstn n cs) + u) (ct_kappa c + ct_sigma c * u) CH F U') as P.
    rewrite Rabs_minus_sym, (Rabs_minus_sym (0 + u')).
    replace (Rabs (ct_delta_s c0) + total_length (firstn n cs) + u - (0 + u')) with (Rabs (ct_delta_s c0) + (total_length (firstn n cs) + u) - u') by ring.
    apply P. exists n, c, u. auto.
  - replace (b - a) with (total_length (firstn m cs) + u' - (total_length (firstn n cs) + u)).
    + eapply IH; [exact CH'|exact F1| |]; [exists n, c, u|exists m, c', u']; auto.
    + subst. change (total_length (firstn (S m) (c0 :: cs))) with (Rabs (ct_delta_s c0) + total_length (firstn m cs)).
      change (total_length (firstn (S n) (c0 :: cs))) with (Rabs (ct_delta_s c0) + total_length (firstn n cs)). ring.
Qed.

Lemma integrate_sharp g k0 k1 disc s cs path : 0 < disc -> 0 <= g -> curvature_chain k0 cs k1 ->
  Forall (fun c => (ct_sigma c = 0 \/ epsilon < Rabs (ct_sigma c)) /\ Rabs (ct_sigma c) <= g) cs -> hc_integrate disc s cs = Some path ->
  forall i q q', nth_error path i = Some q -> nth_error path (S i) = Some q' -> Rabs (st_kappa q' - st_kappa q) <= g * disc.
Proof.
  intros D G CH F E i q q' Q Q'. destruct (hc_integrate_spec disc s cs path D E) as [[ss (L & _ & _ & ST & _ & P)] _].
  assert (FC : Forall crisp cs) by (eapply Forall_impl; [|exact F]; intros c X; exact (proj1 X)).
  assert (FS : Forall (fun c => Rabs (ct_sigma c) <= g) cs) by (eapply Forall_impl; [|exact F]; intros c X; exact (proj2 X)).
  destruct cs as [|c0 cs0]; [unfold hc_integrate in E; destruct (reserve_ok _ _ _); discriminate|]. set (cs := c0 :: cs0) in *.
  assert (LT : (S i < length path)%nat) by (apply nth_error_Some; rewrite Q'; discriminate).
  destruct (nth_error ss i) as [a|] eqn:A; [|apply nth_error_None in A; lia].
  destruct (nth_error ss (S i)) as [b|] eqn:B; [|apply nth_error_None in B; lia].
  assert (AT : forall x y z, nth_error path x = Some y -> nth_error ss x = Some z -> at_part cs z (st_kappa y)).
  { intros x y z X Y. destruct (P x y z X Y) as (n & c & u & N & U & AA & (_ & _ & _ & K)). exists n, c, u. repeat (split; [assumption|]).
    rewrite K. destruct CH as [E0 CH]. eapply chain_nth; [split; [reflexivity|exact CH]|exact FC|reflexivity|exact N]. }
  pose proof (chain_lipschitz g cs _ _ a b _ _ CH FS (AT _ _ _ Q A) (AT _ _ _ Q' B)) as X.
  pose proof (ST i a b A B) as [S0 S1]. rewrite (Rabs_pos_eq (b - a)) in X by lra.
  eapply Rle_trans; [exact X|]. apply Rmult_le_compat_l; lra.
Qed.

(** ** Direction *)
Lemma steps_each {P} (I : P -> Prop) step disc a n : forall s cur l last, (forall p h, I (step p h)) ->
  steps step disc a n s cur = (l, last) -> Forall I l /\ (I cur -> I last).
Proof.
  induction n as [|n IH]; intros s cur l last St E; cbn in E.
  - injection E as <- <-. split; [constructor|auto].
  - destruct (next_step disc a s) as [h s']. destruct (steps step disc a n s' (step cur h)) as [l' last'] eqn:E'.
    injection E as <- <-. destruct (IH _ _ _ _ St E') as [A B]. split; [constructor; [apply St|exact A]|]. intros _. apply B, St.
Qed.

Definition has_direction (cs : list Control) (q : State) : Prop := exists c, In c cs /\ st_d q = sgn (ct_delta_s c).

Lemma has_more c cs q : has_direction cs q -> has_direction (c :: cs) q.
Proof. intros (x & I & D). exists x. split; [right; exact I|exact D]. Qed.

Lemma rs_ode_d c s h : st_d (rs_ode c s h) = sgn (ct_delta_s c).
Proof. unfold rs_ode. destruct (Rlt_dec epsilon (Rabs (st_kappa s))); reflexivity. Qed.
Lemma hc_ode_d c s h : st_d (hc_ode c s h) = sgn (ct_delta_s c).
Proof.
  unfold hc_ode. destruct (Rlt_dec epsilon (Rabs (ct_sigma c))); [reflexivity|].
  destruct (Rlt_dec epsilon (Rabs (st_kappa s))); reflexivity.
Qed.

Lemma rs_loop_direction disc cs : forall cur l, integrate_loop rs_enter rs_ode disc cur cs = Some l -> Forall (has_direction cs) l.
Proof.
  induction cs as [|c cs IH]; intros cur l E; cbn in E; [injection E as <-; constructor|].
  destruct (loop_count _ _) as [n|]; [|discriminate]. cbn [fbind] in E.
  destruct (steps _ _ _ _ _ _) as [l' last] eqn:E'. destruct (integrate_loop rs_enter rs_ode disc last cs) as [r|] eqn:E2; [|discriminate].
  cbn [fbind] in E. injection E as <-.
  assert (H : forall q, st_d q = sgn (ct_delta_s c) -> has_direction (c :: cs) q) by (intros q D; exists c; split; [left; reflexivity|exact D]).
  destruct (steps_each (fun q => st_d q = sgn (ct_delta_s c)) _ _ _ _ _ _ _ _ (rs_ode_d c) E') as [A _].
  constructor; [apply H; reflexivity|]. apply Forall_app. split; [eapply Forall_impl; [|exact A]; exact H|].
  eapply Forall_impl; [|exact (IH _ _ E2)]. intros q; apply has_more.
Qed.
Lemma rs_integrate_direction extra disc s cs path : rs_integrate extra disc s cs = Some path -> Forall (has_direction cs) path.
Proof. unfold rs_integrate. destruct (reserve_ok _ _ _); [|discriminate]. apply rs_loop_direction. Qed.

Lemma hc_loop_direction disc cs : forall cur l, hc_integrate_loop hc_enter hc_ode disc cur cs = Some l -> Forall (has_direction cs) l.
Proof.
  induction cs as [|c cs IH]; intros cur l E; cbn in E; [injection E as <-; constructor|].
  destruct (loop_count _ _) as [n|]; [|discriminate]. cbn [fbind] in E.
  assert (H : forall q, st_d q = sgn (ct_delta_s c) -> has_direction (c :: cs) q) by (intros q D; exists c; split; [left; reflexivity|exact D]).
  destruct (match hc_enter c cur with Some cur' => ([cur'], cur') | None => ([], cur) end) as [pushed cur'] eqn:EP.
  destruct (steps _ _ _ _ _ _) as [l' last] eqn:E'. destruct (hc_integrate_loop hc_enter hc_ode disc last cs) as [r|] eqn:E2; [|discriminate].
  cbn [fbind] in E. injection E as <-.
  destruct (steps_each (fun q => st_d q = sgn (ct_delta_s c)) _ _ _ _ _ _ _ _ (hc_ode_d c) E') as [A _].
  assert (PU : Forall (has_direction (c :: cs)) pushed).
  { unfold hc_enter in EP. destruct (Rlt_dec _ _); injection EP as <- <-; constructor; [|constructor]. apply H. reflexivity. }
  apply Forall_app. split; [exact PU|]. apply Forall_app. split; [eapply Forall_impl; [|exact A]; exact H|].
  eapply Forall_impl; [|exact (IH _ _ E2)]. intros q; apply has_more.
Qed.
Lemma hc_integrate_direction disc s cs path : hc_integrate disc s cs = Some path -> Forall (has_direction cs) path.
Proof.
  unfold hc_integrate. destruct (reserve_ok _ _ _); [|discriminate]. destruct cs as [|c cs]; [discriminate|].
  destruct (hc_integrate_loop _ _ _ _ _) as [l|] eqn:E; [|discriminate]. cbn [fbind]. intros X. injection X as <-.
  constructor; [|exact (hc_loop_direction _ _ _ _ E)]. exists c. split; [left; reflexivity|reflexivity].
Qed.

Lemma forward_direction cs (path : list State) : Forall (fun c => 0 <= ct_delta_s c) cs -> Forall (has_direction cs) path -> Forall (fun q => st_d q = 1) path.
Proof.
  intros F H. eapply Forall_impl; [|exact H]. intros q (c & I & ->). pose proof (proj1 (Forall_forall _ _) F c I) as P. cbn beta in P.
  unfold sgn. destruct (Rlt_dec _ _); lra.
Qed.
Lemma backward_direction cs (path : list State) : Forall (fun c => ct_delta_s c <= 0) cs -> Forall (has_direction cs) path ->
  Forall (fun q => st_d q = -1 \/ st_d q = 1 /\ exists c, In c cs /\ ct_delta_s c = 0) path.
Proof.
  intros F H. eapply Forall_impl; [|exact H]. intros q (c & I & ->). pose proof (proj1 (Forall_forall _ _) F c I) as P. cbn beta in P.
  unfold sgn. destruct (Rlt_dec (ct_delta_s c) 0); [left; reflexivity|right]. split; [reflexivity|]. exists c. split; [exact I|lra].
Qed.

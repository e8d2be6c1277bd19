(** * The prediction step of the filter and its run along a path *)
From Coq Require Import Reals ZArith List Lra Lia.
From Coquelicot Require Import Coquelicot.
From Verif Require Import Base ModelUtil ModelFresnel ModelIntegrate ModelEKF SpecPath SpecEKF SpecCloth SpecFilter EKFProofs JacProofs IntegrateProofs.
Import ListNotations.
Open Scope R_scope.

Ltac idx i j := destruct i as [|[|[|?]]]; [| | |exfalso; lia]; (destruct j as [|[|[|?]]]; [| | |exfalso; lia]).

Lemma at_eigen m c i j : (i < 3)%nat -> (j < 3)%nat -> at_ (eigen_to_covariance m c) i j = fx m i j.
Proof. intros Hi Hj. idx i j; reflexivity. Qed.
Lemma fx_cov c i j : (i < 3)%nat -> (j < 3)%nat -> fx (covariance_to_eigen c) i j = at_ c i j.
Proof. intros Hi Hj. idx i j; reflexivity. Qed.
Lemma fx_mul A B i j : (i < 3)%nat -> (j < 3)%nat -> fx (mul33 A B) i j = sum3 (fun k => fx A i k * fx B k j).
Proof. intros Hi Hj. idx i j; reflexivity. Qed.
Lemma fx_add A B i j : (i < 3)%nat -> (j < 3)%nat -> fx (add33 A B) i j = fx A i j + fx B i j.
Proof. intros Hi Hj. idx i j; reflexivity. Qed.
Lemma fx_sub A B i j : (i < 3)%nat -> (j < 3)%nat -> fx (sub33 A B) i j = fx A i j - fx B i j.
Proof. intros Hi Hj. idx i j; reflexivity. Qed.
Lemma fx_tr A i j : (i < 3)%nat -> (j < 3)%nat -> fx (tr33 A) i j = fx A j i.
Proof. intros Hi Hj. idx i j; reflexivity. Qed.
Lemma spread_mul A S i j : (i < 3)%nat -> (j < 3)%nat -> fx (mul33 (mul33 A S) (tr33 A)) i j = spread (fx A) (fx S) i j.
Proof.
  intros Hi Hj. rewrite fx_mul by assumption. unfold spread, sum3. rewrite !fx_mul, !fx_tr by lia. unfold sum3. ring.
Qed.
Lemma spread2_mul G a b i j : (i < 3)%nat -> (j < 3)%nat ->
  fx (mul32_23 (mul32_22 G (mkM22 a 0 0 b)) (tr32 G)) i j = spread2 (fu G) (fun k => match k with O => a | _ => b end) i j.
Proof.
  intros Hi Hj. destruct G as [g0 g1 g2 g3 g4 g5]. unfold spread2. idx i j; cbn [fx fu mul32_23 mul32_22 tr32 m00 m01 m02 m10 m11 m12 m20 m21 m22 n00 n01 n10 n11 n20 n21 k00 k01 k02 k10 k11 k12 q00 q01 q10 q11]; ring.
Qed.

Lemma predict_sigma f s c u h out : let '(F, G) := get_motion_jacobi s u h in
  eq3 (at_ (Sigma (predict f s c u h out)))
      (fun i j => spread (fx F) (at_ (Sigma c)) i j + spread2 (fu G) (input_variance f (st_kappa s) h) i j).
Proof.
  unfold predict. destruct (get_motion_jacobi s u h) as [F G]. intros i j Hi Hj. cbn [Sigma].
  rewrite at_eigen, fx_add, spread_mul by assumption. unfold get_motion_covariance. rewrite spread2_mul by assumption.
  unfold spread, spread2, sum3. rewrite !fx_cov by lia. unfold input_variance. ring.
Qed.

Lemma predict_lambda f s c u h out : let '(F, G) := get_motion_jacobi s u h in
  exists A, closed_loop f (st_theta s) (sgn (ct_delta_s u)) (fx F) (fu G) A /\
    eq3 (at_ (Lambda (predict f s c u h out))) (spread A (at_ (Lambda c))).
Proof.
  unfold predict. destruct (get_motion_jacobi s u h) as [F G].
  exists (fx (sub33 F (mul33 (mul32_23 G (get_controller_gain f u)) (get_rotation_matrix (st_theta s))))). split.
  - intros e i Hi. unfold apply3, sum3. rewrite !fx_sub, !fx_mul by lia. unfold sum3, feedback, get_controller_gain, get_rotation_matrix. destruct G as [g0 g1 g2 g3 g4 g5].
    destruct i as [|[|[|?]]]; [| | |exfalso; lia];
    cbn [mul32_23 m00 m01 m02 m10 m11 m12 m20 m21 m22 n00 n01 n10 n11 n20 n21 k00 k01 k02 k10 k11 k12 fx fu]; ring.
  - intros i j Hi Hj. cbn [Lambda]. rewrite at_eigen, spread_mul by assumption. unfold spread, sum3. rewrite !fx_cov by lia. reflexivity.
Qed.

(** The matrix of the closed loop is determined by the condition. *)
Lemma closed_loop_unique f th d F G A B : closed_loop f th d F G A -> closed_loop f th d F G B -> eq3 A B.
Proof.
  intros HA HB i j Hi Hj. pose proof (HA (fun k => if Nat.eqb k j then 1 else 0) i Hi) as EA. pose proof (HB (fun k => if Nat.eqb k j then 1 else 0) i Hi) as EB.
  rewrite <- EB in EA. unfold apply3, sum3 in EA. destruct j as [|[|[|?]]]; [| | |exfalso; lia]; cbn [Nat.eqb] in EA; lra.
Qed.

Lemma filter_steps_of f ode c disc a : 0 < disc -> forall n s0 q l q', 0 <= s0 <= a -> INR n * disc - disc < a - s0 <= INR n * disc ->
  steps (cov_step f ode c) disc a n s0 q = (l, q') ->
  exists hs, filter_steps f ode c q hs l /\ (forall h, In h hs -> 0 < h <= disc) /\ fold_right Rplus 0 hs = a - s0 /\ q' = last l q.
Proof.
  intros D n. assert (FS : forall q h, filter_step f ode c h q (cov_step f ode c q h)).
  { intros q h. split; [reflexivity|]. unfold cov_step. cbn [sc_cov]. destruct (sc_cov q); reflexivity. }
  induction n as [|n IH]; intros s0 q l q' S0 N E.
  - cbn in E. injection E as <- <-. exists []. split; [constructor|split; [intros h []|split; [cbn; cbn in N; lra|reflexivity]]].
  - cbn [steps] in E. unfold next_step in E. rewrite S_INR in N. destruct (Rlt_dec a (s0 + disc)) as [L|L].
    + assert (n = 0%nat) as -> by (destruct n; [reflexivity|]; rewrite S_INR in N; pose proof (pos_INR n); nra).
      cbn [steps] in E. injection E as <- <-. exists [disc - (s0 + disc - a)].
      split; [constructor; [apply FS|constructor]|split; [|split; [cbn; ring|reflexivity]]].
      intros h [<-|[]]. cbn in N. split; lra.
    + destruct (steps _ disc a n (s0 + disc) _) as [l' last'] eqn:EE. injection E as <- <-.
      destruct (IH (s0 + disc) _ _ _ ltac:(lra) ltac:(lra) EE) as (hs & A & B & C & F). exists (disc :: hs).
      split; [constructor; [apply FS|exact A]|split; [|split]].
      * intros h [<-|I]; [lra|apply B, I].
      * cbn [fold_right]. rewrite C. ring.
      * rewrite F. symmetry. apply last_cons.
Qed.

Lemma rs_filtered_loop f disc : 0 < disc -> forall cs q path, integrate_loop cov_enter (cov_step f rs_ode) disc q cs = Some path ->
  filtered f rs_ode disc q cs path.
Proof.
  intros D cs. induction cs as [|c cs IH]; intros q path E; cbn in E; [injection E as <-; constructor|].
  destruct (loop_count _ _) as [n|] eqn:LC; [|discriminate]. cbn [fbind] in E. destruct (steps _ _ _ _ _ _) as [l q'] eqn:ES.
  destruct (integrate_loop _ _ _ q' cs) as [rest|] eqn:EL; [|discriminate]. cbn [fbind] in E. injection E as <-.
  apply loop_count_spec in LC; [|exact D|apply Rabs_pos].
  destruct (filter_steps_of f rs_ode c disc (Rabs (ct_delta_s c)) D n 0 _ _ _ (conj (Rle_refl 0) (Rabs_pos _)) ltac:(lra) ES) as (hs & A & B & C & F).
  change (cov_enter c q :: l ++ rest) with ([cov_enter c q] ++ l ++ rest).
  apply (fd_cons f rs_ode disc q c cs (cov_enter c q) [cov_enter c q] hs l rest); [repeat split|left; reflexivity|exact A|exact B|lra|]. rewrite <- F. apply IH, EL.
Qed.

Lemma hc_filtered_loop f disc : 0 < disc -> forall cs q path, hc_integrate_loop hc_cov_enter (cov_step f hc_ode) disc q cs = Some path ->
  filtered f hc_ode disc q cs path.
Proof.
  intros D cs. induction cs as [|c cs IH]; intros q path E; cbn in E; [injection E as <-; constructor|].
  destruct (loop_count _ _) as [n|] eqn:LC; [|discriminate]. cbn [fbind] in E. apply loop_count_spec in LC; [|exact D|apply Rabs_pos].
  destruct (hc_cov_enter c q) as [q0|] eqn:EN.
  - destruct (steps _ _ _ _ _ _) as [l q'] eqn:ES. destruct (hc_integrate_loop _ _ _ q' cs) as [rest|] eqn:EL; [|discriminate]. cbn [fbind] in E. injection E as <-.
    destruct (filter_steps_of f hc_ode c disc (Rabs (ct_delta_s c)) D n 0 _ _ _ (conj (Rle_refl 0) (Rabs_pos _)) ltac:(lra) ES) as (hs & A & B & C & F).
    change (q0 :: l ++ rest) with ([q0] ++ l ++ rest).
    apply (fd_cons f hc_ode disc q c cs q0 [q0] hs l rest); [|left; reflexivity|exact A|exact B|lra|rewrite <- F; apply IH, EL].
    unfold hc_cov_enter, hc_enter in EN. destruct (Rlt_dec _ _) in EN; [|discriminate]. injection EN as <-. repeat split.
  - destruct (steps _ _ _ _ _ _) as [l q'] eqn:ES. destruct (hc_integrate_loop _ _ _ q' cs) as [rest|] eqn:EL; [|discriminate]. cbn [fbind] in E. injection E as <-.
    destruct (filter_steps_of f hc_ode c disc (Rabs (ct_delta_s c)) D n 0 _ _ _ (conj (Rle_refl 0) (Rabs_pos _)) ltac:(lra) ES) as (hs & A & B & C & F).
    apply (fd_cons f hc_ode disc q c cs q [] hs l rest); [repeat split|right; split; reflexivity|exact A|exact B|lra|rewrite <- F; apply IH, EL].
Qed.

Lemma rs_filtered f extra disc p cs path : 0 < disc -> rs_integrate_with_covariance f extra disc p cs = Some path ->
  filtered f rs_ode disc p cs path.
Proof. intros D. unfold rs_integrate_with_covariance. destruct (reserve_ok _ _ _); [|discriminate]. apply rs_filtered_loop, D. Qed.

Lemma hc_filtered f disc p cs path : 0 < disc -> hc_integrate_with_covariance f disc p cs = Some path ->
  exists q rest, path = q :: rest /\ handed_over p q /\ filtered f hc_ode disc q cs rest.
Proof.
  intros D. unfold hc_integrate_with_covariance. destruct (reserve_ok _ _ _); [|discriminate]. destruct cs as [|c cs]; [discriminate|]. cbv zeta.
  destruct (hc_integrate_loop _ _ _ _ _) as [rest|] eqn:E; [|discriminate]. cbn [fbind]. intros H. injection H as <-.
  exists (cov_enter c p), rest. split; [reflexivity|split; [repeat split|]]. apply hc_filtered_loop; [exact D|exact E].
Qed.

(** On an arc the matrices are the derivatives of the motion. *)
Lemma arc_prediction f s c u h out F G : Rabs (ct_sigma u) <= epsilon -> epsilon < Rabs (st_kappa s) ->
  let d := sgn (ct_delta_s u) in
  (forall i, (i < 3)%nat ->
    is_derive (fun v => end_pose i v (st_y s) (st_theta s) (st_kappa s) 0 d h) (st_x s) (F i 0%nat) /\
    is_derive (fun v => end_pose i (st_x s) v (st_theta s) (st_kappa s) 0 d h) (st_y s) (F i 1%nat) /\
    is_derive (fun v => end_pose i (st_x s) (st_y s) v (st_kappa s) 0 d h) (st_theta s) (F i 2%nat) /\
    is_derive (fun v => end_pose i (st_x s) (st_y s) (st_theta s) (st_kappa s) 0 d (d * v)) (d * h) (G i 0%nat) /\
    is_derive (fun v => end_pose i (st_x s) (st_y s) (st_theta s) v 0 d h) (st_kappa s) (G i 1%nat)) ->
  eq3 (at_ (Sigma (predict f s c u h out)))
      (fun i j => spread F (at_ (Sigma c)) i j + spread2 G (input_variance f (st_kappa s) h) i j) /\
  exists A, closed_loop f (st_theta s) d F G A /\ eq3 (at_ (Lambda (predict f s c u h out))) (spread A (at_ (Lambda c))).
Proof.
  intros S K d HD. pose proof (jacobi_arc s u h S K) as J. pose proof (predict_sigma f s c u h out) as PS. pose proof (predict_lambda f s c u h out) as PL.
  destruct (get_motion_jacobi s u h) as [F' G'].
  assert (U : forall g p v D, near_derive g p v 0 -> is_derive g p D -> v = D).
  { intros g p v D (D' & H1 & H2) H3. apply is_derive_unique in H1. apply is_derive_unique in H3. rewrite H1 in H3. subst D'. revert H2. unfold Rabs. destruct (Rcase_abs _); lra. }
  assert (E : forall i, (i < 3)%nat -> (forall j, (j < 3)%nat -> F i j = fx F' i j) /\ G i 0%nat = fu G' i 0 /\ G i 1%nat = fu G' i 1).
  { intros i Hi. destruct (J i Hi) as (J0 & J1 & J2 & J3 & J4). destruct (HD i Hi) as (H0 & H1 & H2 & H3 & H4). split.
    - intros j Hj. symmetry. destruct j as [|[|[|?]]]; [exact (U _ _ _ _ J0 H0)|exact (U _ _ _ _ J1 H1)|exact (U _ _ _ _ J2 H2)|exfalso; lia].
    - split; symmetry; [exact (U _ _ _ _ J3 H3)|exact (U _ _ _ _ J4 H4)]. }
  split.
  - intros i j Hi Hj. rewrite (PS i j Hi Hj). destruct (E i Hi) as (Ei & Gi0 & Gi1). destruct (E j Hj) as (Ej & Gj0 & Gj1).
    unfold spread, spread2, sum3. rewrite Gi0, Gi1, Gj0, Gj1, !Ei, !Ej by lia. reflexivity.
  - destruct PL as (A & CL & EL). exists A. split; [|exact EL]. intros e i Hi. rewrite (CL e i Hi). destruct (E i Hi) as (Ei & Gi0 & Gi1).
    unfold apply3, sum3. rewrite Gi0, Gi1, !Ei by lia. reflexivity.
Qed.

Lemma predict_case out : let s := mkState 0 0 0 1 1 in let u := mkControl 1 1 0 in
  let c := predict f1 s cov1 u (PI / 2) out in
  at_ (Sigma c) 0 0 = 1 + 3 + ((PI / 2) ^ 2 + 1) /\ at_ (Sigma c) 2 2 = 3 + ((PI / 2) ^ 2 + 1) * (1 + (PI / 2) ^ 2).
Proof.
  intros s u c. pose proof (predict_sigma f1 s cov1 u (PI / 2) out) as P. unfold s, u in P; rewrite arc_jac_case in P; fold s u in P. fold c in P.
  split; rewrite P by lia; unfold spread, spread2, sum3, at_, input_variance; cbn; ring.
Qed.

Lemma rs_filtered_case : exists path, rs_integrate_with_covariance f1 3 1 (mkStateCov (mkState 1 2 0 0 0) (Some cov1))
    [mkControl (-(3 / 2)) 0 0] = Some path /\ length path = 3%nat.
Proof.
  pose proof (eq_trans (rs_mean_path f1 3 1 (mkStateCov (mkState 1 2 0 0 0) (Some cov1)) [mkControl (-(3 / 2)) 0 0]) IntegrateProofs.rs_integrate_case) as E.
  destruct (rs_integrate_with_covariance _ _ _ _ _) as [path|]; [|discriminate]. exists path. split; [reflexivity|]. cbn in E. injection E as E. rewrite <- (map_length sc_state), E. reflexivity.
Qed.
Lemma hc_filtered_case : exists path, hc_integrate_with_covariance f1 1 (mkStateCov (mkState 1 2 0 0 0) (Some cov1))
    [mkControl (-(3 / 2)) 0 0; mkControl 2 1 0] = Some path.
Proof.
  pose proof (hc_mean_path f1 1 (mkStateCov (mkState 1 2 0 0 0) (Some cov1)) [mkControl (-(3 / 2)) 0 0; mkControl 2 1 0]) as E.
  destruct (hc_integrate_total 1 (mkState 1 2 0 0 0) [mkControl (-(3 / 2)) 0 0; mkControl 2 1 0]) as (p & H); [lra|discriminate| |].
  - unfold total_length. cbn [fold_right ct_delta_s length INR]. rewrite Rabs_Ropp, !Rabs_pos_eq by lra. lra.
  - cbn [sc_state] in E. rewrite H in E. destruct (hc_integrate_with_covariance _ _ _ _) as [path|]; [|discriminate]. exists path. reflexivity.
Qed.

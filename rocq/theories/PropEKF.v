(** * Properties C28-C30 and C53: the extended Kalman filter and integrate_with_covariance *)
From Coq Require Import Reals ZArith List Lra.
From Verif Require Import Base ModelUtil ModelFresnel ModelIntegrate ModelEKF SpecEKF EKFProofs IntegrateProofs.
Import ListNotations.
Open Scope R_scope.

(** C28: any sequence of predictions and (finite) updates, whatever the measurement noise. *)
Theorem C28_filter_run_psd_partial (f : Filter) (c c' : Cov) :
  noise_ok f -> cov_psd c -> filter_run f c c' -> cov_psd c'.
Proof. exact (filter_run_psd f c c'). Qed.
Print Assumptions C28_filter_run_psd_partial.

(** C28: with positive measurement noise every update is finite. *)
Theorem C28_update_finite (f : Filter) (c out : Cov) :
  sym_psd (at_ (Sigma c)) -> meas_ok f -> exists c', update f c out = Some c'.
Proof. exact (fun P M => update_finite f c out (proj1 (sym_psd_iff _) P) M). Qed.
Print Assumptions C28_update_finite.

(** C28 along integrate_with_covariance of the Dubins and Reeds-Shepp spaces. *)
Theorem C28_rs_path_psd (f : Filter) (extra : Z) (disc : R) (p : StateCov) (controls : list Control)
  (path : list StateCov) :
  noise_ok f -> meas_ok f -> good p ->
  rs_integrate_with_covariance f extra disc p controls = Some path -> Forall good path.
Proof. exact (rs_path_good f extra disc p controls path). Qed.
Print Assumptions C28_rs_path_psd.

(** C28 along integrate_with_covariance of the HC/CC spaces. *)
Theorem C28_hc_path_psd (f : Filter) (disc : R) (p : StateCov) (controls : list Control)
  (path : list StateCov) :
  noise_ok f -> meas_ok f -> good p ->
  hc_integrate_with_covariance f disc p controls = Some path -> Forall good path.
Proof. exact (hc_path_good f disc p controls path). Qed.
Print Assumptions C28_hc_path_psd.

(** C28 is false for every noise setting: with no measurement noise and no uncertainty the update
    divides zero by zero and the covariances become NaN. *)
Theorem C28_zero_noise_refuted :
  exists f c, noise_ok f /\ cov_psd c /\ update f c cov_zero = None.
Proof.
  exact (ex_intro _ (mkFilter 1 1 1 1 0 0 0 1 1 1) (ex_intro _ cov_zero
    (conj (conj Rle_0_1 (conj Rle_0_1 (conj Rle_0_1 Rle_0_1))) (conj zero_psd zero_noise)))).
Qed.
Print Assumptions C28_zero_noise_refuted.

(** Unit noise, Sigma = diag(1, 2, 3): the update gives 1/2 and 2/3 for the positions and moves 9/4 of
    the heading variance to Lambda. *)
Example C28_case :
  noise_ok f1 /\ meas_ok f1 /\ cov_psd cov1 /\
  exists c', update f1 cov1 cov_zero = Some c' /\
    at_ (Sigma c') 0 0 = 1 / 2 /\ at_ (Sigma c') 1 1 = 2 / 3 /\ at_ (Lambda c') 2 2 = 9 / 4.
Proof.
  exact (conj (conj Rle_0_1 (conj Rle_0_1 (conj Rle_0_1 Rle_0_1)))
    (conj (conj R1_neq_R0 (conj R1_neq_R0 R1_neq_R0)) (conj cov1_psd cov1_update))).
Qed.

(** C29: the corrected covariance is below the predicted one. *)
Theorem C29_update_decreases (f : Filter) (c out c' : Cov) :
  update f c out = Some c' -> sym_psd (at_ (Sigma c)) ->
  psd_le (at_ (Sigma c')) (at_ (Sigma c)).
Proof. exact (update_le f c out c'). Qed.
Print Assumptions C29_update_decreases.

(** C29: the Joseph form is (I - L) Sigma with the gain L = Sigma (Sigma + R)^-1. *)
Theorem C29_joseph_form (f : Filter) (c out c' : Cov) :
  update f c out = Some c' -> sym_psd (at_ (Sigma c)) ->
  exists L : nat -> nat -> R,
    eq3 (at_ (Sigma c)) (fun i j => sum3 (fun k => L i k *
        (at_ (Sigma c) k j + diag3 (std_x f * std_x f) (std_y f * std_y f) (std_theta f * std_theta f) k j))) /\
    eq3 (at_ (Sigma c')) (fun i j => at_ (Sigma c) i j - sum3 (fun k => L i k * at_ (Sigma c) k j)).
Proof. exact (update_gain f c out c'). Qed.
Print Assumptions C29_joseph_form.

Example C29_case :
  sym_psd (at_ (Sigma cov1)) /\
  exists c', update f1 cov1 cov_zero = Some c' /\
    at_ (Sigma c') 0 0 = 1 / 2 /\ at_ (Sigma c') 1 1 = 2 / 3 /\ at_ (Lambda c') 2 2 = 9 / 4.
Proof. exact (conj (proj1 cov1_psd) cov1_update). Qed.

(** C30: the reported covariance after a prediction, *)
Theorem C30_predict_total (f : Filter) (s : State) (c : Cov) (u : Control) (h : R) (out : Cov) :
  cov_total (predict f s c u h out).
Proof. exact (predict_total f s c u h out). Qed.
Print Assumptions C30_predict_total.

(** after an update, *)
Theorem C30_update_total (f : Filter) (c out c' : Cov) : update f c out = Some c' -> cov_total c'.
Proof. exact (update_total f c out c'). Qed.
Print Assumptions C30_update_total.

(** and along the path. *)
Theorem C30_rs_path_total (f : Filter) (extra : Z) (disc : R) (p : StateCov) (controls : list Control)
  (path : list StateCov) :
  totals p -> rs_integrate_with_covariance f extra disc p controls = Some path -> Forall totals path.
Proof. exact (rs_path_total f extra disc p controls path). Qed.
Print Assumptions C30_rs_path_total.

Theorem C30_hc_path_total (f : Filter) (disc : R) (p : StateCov) (controls : list Control)
  (path : list StateCov) :
  totals p -> hc_integrate_with_covariance f disc p controls = Some path -> Forall totals path.
Proof. exact (hc_path_total f disc p controls path). Qed.
Print Assumptions C30_hc_path_total.

(** C30: an update leaves the total unchanged. *)
Theorem C30_update_keeps_total (f : Filter) (c out c' : Cov) :
  update f c out = Some c' -> sym_psd (at_ (Sigma c)) ->
  eq3 (fun i j => at_ (Sigma c') i j + at_ (Lambda c') i j)
      (fun i j => at_ (Sigma c) i j + at_ (Lambda c) i j).
Proof. exact (update_keeps_total f c out c'). Qed.
Print Assumptions C30_update_keeps_total.

Example C30_case :
  sym_psd (at_ (Sigma cov1)) /\
  exists c', update f1 cov1 cov_zero = Some c' /\
    at_ (Sigma c') 0 0 = 1 / 2 /\ at_ (Sigma c') 1 1 = 2 / 3 /\ at_ (Lambda c') 2 2 = 9 / 4.
Proof. exact (conj (proj1 cov1_psd) cov1_update). Qed.

(** C53: the states along integrate_with_covariance are those of integrate. *)
Theorem C53_rs_mean_path (f : Filter) (extra : Z) (disc : R) (p : StateCov) (controls : list Control) :
  option_map (map sc_state) (rs_integrate_with_covariance f extra disc p controls) =
  rs_integrate extra disc (sc_state p) controls.
Proof. exact (rs_mean_path f extra disc p controls). Qed.
Print Assumptions C53_rs_mean_path.

Theorem C53_hc_mean_path (f : Filter) (disc : R) (p : StateCov) (controls : list Control) :
  option_map (map sc_state) (hc_integrate_with_covariance f disc p controls) =
  hc_integrate disc (sc_state p) controls.
Proof. exact (hc_mean_path f disc p controls). Qed.
Print Assumptions C53_hc_mean_path.

Example C53_case :
  option_map (map sc_state) (rs_integrate_with_covariance f1 3 1 (mkStateCov (mkState 1 2 0 0 0) (Some cov1))
    [mkControl (-(3 / 2)) 0 0]) =
  Some [mkState 1 2 0 0 (-1); mkState 0 2 0 0 (-1); mkState (-1 / 2) 2 0 0 (-1)].
Proof.
  exact (eq_trans (rs_mean_path f1 3 1 (mkStateCov (mkState 1 2 0 0 0) (Some cov1)) [mkControl (-(3 / 2)) 0 0])
    IntegrateProofs.rs_integrate_case).
Qed.

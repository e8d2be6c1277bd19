(** * Property C79: integrate of the Dubins and Reeds-Shepp spaces in double precision *)
From Coq Require Import Reals ZArith List.
From Verif Require Import Base ModelUtil SpecPath ModelIntegrate ModelFloat ModelStep ModelArc SpecArc ArcProofs ArcPath ArcEnd.
Import ListNotations.
Open Scope R_scope.

(** One step along an arc or a line: with all roundings the result is close to the exact motion of the same step, *)
Theorem C79_step (sin64 cos64 : R -> R) (K r : R) (c : Control) (s : State) (h : R) :
  accurate64 sin sin64 -> accurate64 cos cos64 -> 0 <= K <= 10 ^ 6 -> 0 <= r ->
  double_state s -> double_control K r c -> binary64 h -> K * Rabs h <= 100 ->
  let q := rs_ode64 sin64 cos64 c (rs_enter c s) h in
  let q' := drive s (mkControl (sgn (ct_delta_s c) * h) (ct_kappa c) 0) in
  double_state q /\
  Rabs (st_x q - st_x q') <= / 2 ^ 53 * (Rabs (st_x s) + 5 * Rabs h + 26 * r + 1) /\
  Rabs (st_y q - st_y q') <= / 2 ^ 53 * (Rabs (st_y s) + 5 * Rabs h + 26 * r + 1) /\
  heading_within (/ 2 ^ 53 * (14 + 4 * K * Rabs h)) q q'.
Proof. exact (fun S C K0 R0 D E F G => step_within sin64 cos64 S C K r (proj2 K0) c s h D E F G R0 (proj1 K0)). Qed.
Print Assumptions C79_step.

(** every state of the path is close to the state of the exact motion after the same steps, *)
Theorem C79_path (sin64 cos64 : R -> R) (m K r disc : R) (s : State) (cs : list Control) :
  accurate64 sin sin64 -> accurate64 cos cos64 -> 0 <= K <= 10 ^ 6 -> 0 <= r ->
  double_state s -> Rabs (st_x s) <= m -> Rabs (st_y s) <= m -> Forall (double_control K r) cs ->
  binary64 disc -> 0 < disc -> K * disc <= 100 -> total_length cs <= 2 ^ 50 * disc ->
  let n := INR (length (steps_of disc cs)) in
  let w := total_length cs + slack disc cs in
  round_drift m K r n w <= 1 ->
  Forall2 (within (round_drift m K r n w) (round_turn K n w)) (integrate64 sin64 cos64 disc s cs) (exact_path disc s cs).
Proof. exact (fun S C K0 R0 D X Y E F G H I => path_within sin64 cos64 S C m K r disc s cs D X Y E F G (proj1 K0) (proj2 K0) R0 H I). Qed.
Print Assumptions C79_path.

(** the last state is close to the end of the exact motion along the controls, *)
Theorem C79_end (sin64 cos64 : R -> R) (m K r disc : R) (s : State) (cs : list Control) :
  accurate64 sin sin64 -> accurate64 cos cos64 -> 0 <= K <= 10 ^ 6 -> 0 <= r ->
  double_state s -> Rabs (st_x s) <= m -> Rabs (st_y s) <= m -> Forall (double_control K r) cs ->
  binary64 disc -> 0 < disc -> K * disc <= 100 -> total_length cs <= 2 ^ 50 * disc ->
  let n := INR (length (steps_of disc cs)) in
  let w := total_length cs + slack disc cs in
  cs <> [] -> round_drift m K r n w <= 1 ->
  within (round_drift m K r n w + slack disc cs + total_length cs * (K * slack disc cs)) (round_turn K n w + K * slack disc cs)
    (last (integrate64 sin64 cos64 disc s cs) s) (drive_all s cs).
Proof. exact (fun S C K0 R0 D X Y E F G H I => end_within sin64 cos64 S C m K r disc s cs D X Y E F G (proj1 K0) (proj2 K0) R0 H I). Qed.
Print Assumptions C79_end.

(** and for paths of a usual size these errors are negligible. *)
Theorem C79_usual_sizes (sin64 cos64 : R -> R) (disc : R) (s : State) (cs : list Control) :
  accurate64 sin sin64 -> accurate64 cos cos64 -> usual_disc disc -> usual_start s -> usual_controls cs ->
  Forall2 (within (1 / 10 ^ 8) (1 / 10 ^ 10)) (integrate64 sin64 cos64 disc s cs) (exact_path disc s cs) /\
  (cs <> [] -> within (1 / 10 ^ 4) (1 / 10 ^ 6) (last (integrate64 sin64 cos64 disc s cs) s) (drive_all s cs)).
Proof. exact (fun S C D U V => conj (usual_path sin64 cos64 S C disc s cs D U V) (usual_end sin64 cos64 S C disc s cs D U V)). Qed.
Print Assumptions C79_usual_sizes.

(** Correctly rounded functions are accurate, and a left turn, a line and a right turn backwards are of a usual size. *)
Example C79_library : accurate64 sin (fun x => rnd (sin x)) /\ accurate64 cos (fun x => rnd (cos x)).
Proof. exact (conj (rnd_accurate sin SIN_bound) (rnd_accurate cos COS_bound)). Qed.
Example C79_case : usual_disc (1 / 16) /\ usual_start (mkState 1 2 (1/2) 0 0) /\ usual_controls [mkControl 1 1 0; mkControl 2 0 0; mkControl (-1) (-1/2) 0] /\
  Forall (double_control 10 100) [mkControl 1 1 0; mkControl 2 0 0; mkControl (-1) (-1/2) 0].
Proof. exact (match arc_case_usual with conj a (conj b (conj c _)) => conj a (conj b (conj c (usual_double _ c))) end). Qed.
(** The hypotheses of the general theorems hold for it too. *)
Example C79_case_bound : let cs := [mkControl 1 1 0; mkControl 2 0 0; mkControl (-1) (-1/2) 0] in
  round_drift 1000 10 100 (INR (length (steps_of (1 / 16) cs))) (total_length cs + slack (1 / 16) cs) <= 1 / 10 ^ 8.
Proof. exact (proj2 (proj2 (usual_bounds (1 / 16) _ (proj1 arc_case_usual) (proj1 (proj2 (proj2 arc_case_usual)))))). Qed.

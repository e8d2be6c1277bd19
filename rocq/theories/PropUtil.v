(** * Properties C01-C06 and C08: angles, frames, selection, Fresnel symmetry, arcs *)
From Coq Require Import Reals ZArith List Lra.
From Coquelicot Require Import Coquelicot.
From Verif Require Import Base ModelUtil ModelFresnel Num UtilProofs.
Import ListNotations.
Open Scope R_scope.

(** C01 *)
Theorem C01_twopify (a : R) :
  0 <= twopify a < 2 * PI /\
  (exists k : Z, twopify a = a + 2 * PI * IZR k) /\
  twopify (twopify a) = twopify a /\
  (forall k : Z, twopify (a + 2 * PI * IZR k) = twopify a).
Proof. exact (twopify_full a). Qed.
Print Assumptions C01_twopify.

Example C01_case : twopify (- PI / 2) = 3 * PI / 2 /\ twopify (2 * PI) = 0.
Proof. exact twopify_cases. Qed.

(** C02, as documented: the interval is half-open. False at pi. *)
Theorem C02_pify_half_open_refuted : exists a : R, ~ (- PI <= pify a < PI).
Proof. exact pify_not_half_open. Qed.
Print Assumptions C02_pify_half_open_refuted.

(** C02, what holds: the closed interval, congruence modulo 2 pi. *)
Theorem C02_pify_partial (a : R) :
  - PI <= pify a <= PI /\ (exists k : Z, pify a = a + 2 * PI * IZR k) /\
  (pify a = PI -> 0 < a) /\ (pify a = - PI -> a < 0).
Proof. exact (pify_full a). Qed.
Print Assumptions C02_pify_partial.

Example C02_case : pify PI = PI /\ pify (- PI) = - PI /\ pify (3 * PI / 2) = - PI / 2.
Proof. exact pify_cases. Qed.

(** C03 *)
Theorem C03_polar (x y r theta : R) :
  polar x y = (r, theta) ->
  0 <= r /\ r * cos theta = x /\ r * sin theta = y /\ - PI < theta <= PI.
Proof. exact (polar_spec x y r theta). Qed.
Print Assumptions C03_polar.

Example C03_case : polar (-3) 0 = (3, PI) /\ polar 0 (-2) = (2, - (PI / 2)) /\ polar 0 0 = (0, 0).
Proof. exact polar_cases. Qed.

(** C04 *)
Theorem C04_frame_roundtrip (x y theta lx ly gx gy : R) :
  global_frame_change x y theta lx ly = (gx, gy) <-> local_frame_change x y theta gx gy = (lx, ly).
Proof. exact (conj (local_global x y theta lx ly gx gy) (global_local x y theta lx ly gx gy)). Qed.
Print Assumptions C04_frame_roundtrip.

Theorem C04_frame_isometry (x y theta ax ay bx by_ gax gay gbx gby : R) :
  global_frame_change x y theta ax ay = (gax, gay) ->
  global_frame_change x y theta bx by_ = (gbx, gby) ->
  sqrt ((gax - gbx) ^ 2 + (gay - gby) ^ 2) = sqrt ((ax - bx) ^ 2 + (ay - by_) ^ 2).
Proof. exact (global_isometry' x y theta ax ay bx by_ gax gay gbx gby). Qed.
Print Assumptions C04_frame_isometry.

Theorem C04_frame_axes (x y theta : R) :
  global_frame_change x y theta 0 0 = (x, y) /\
  global_frame_change x y theta 1 0 = (x + cos theta, y + sin theta) /\
  global_frame_change x y theta 0 1 = (x - sin theta, y + cos theta).
Proof. exact (global_axes x y theta). Qed.
Print Assumptions C04_frame_axes.

Example C04_case : global_frame_change 1 2 (PI / 2) 3 4 = (-3, 5).
Proof. exact global_case. Qed.

(** C05 *)
Theorem C05_array_index_min (l : list (option R)) (i : nat) :
  array_index_min l = Some i ->
  (i < length l)%nat /\
  (nth_error l 0 = Some None -> i = 0%nat) /\
  (forall x0, nth_error l 0 = Some (Some x0) ->
     exists v, nth_error l i = Some (Some v) /\
       forall j w, nth_error l j = Some (Some w) -> v <= w /\ ((j < i)%nat -> v < w)).
Proof. exact (array_index_min_spec l i). Qed.
Print Assumptions C05_array_index_min.

Theorem C05_array_index_min_defined (l : list (option R)) :
  l <> [] -> exists i, array_index_min l = Some i.
Proof. exact (array_index_min_total l). Qed.
Print Assumptions C05_array_index_min_defined.

Example C05_case : array_index_min [Some 3; None; Some 1; Some 2; Some 1] = Some 2%nat.
Proof. exact array_index_min_case. Qed.

(** C06 *)
Theorem C06_fresnel_odd (s S_f C_f : R) :
  fresnel s = (S_f, C_f) -> fresnel (- s) = (- S_f, - C_f).
Proof. exact (fresnel_odd' s S_f C_f). Qed.
Print Assumptions C06_fresnel_odd.

Theorem C06_fresnel_zero : fresnel 0 = (0, 0).
Proof. exact fresnel_0. Qed.
Print Assumptions C06_fresnel_zero.

(** C08 *)
Theorem C08_straight_line (x y theta d s : R) :
  is_derive (fun s => fst (end_of_straight_line x y theta d s)) s (d * cos theta) /\
  is_derive (fun s => snd (end_of_straight_line x y theta d s)) s (d * sin theta) /\
  end_of_straight_line x y theta d 0 = (x, y).
Proof. exact (straight_ode x y theta d s). Qed.
Print Assumptions C08_straight_line.

Theorem C08_circular_arc (x y theta kappa d s : R) : kappa <> 0 ->
  let X s := fst (fst (end_of_circular_arc x y theta kappa d s)) in
  let Y s := snd (fst (end_of_circular_arc x y theta kappa d s)) in
  let T s := snd (end_of_circular_arc x y theta kappa d s) in
  is_derive X s (d * cos (T s)) /\
  is_derive Y s (d * sin (T s)) /\
  (exists k : Z, T s = theta + d * kappa * s + 2 * PI * IZR k) /\
  X 0 = x /\ Y 0 = y.
Proof. exact (arc_ode' x y theta kappa d s). Qed.
Print Assumptions C08_circular_arc.

Example C08_case : end_of_circular_arc 0 0 0 2 (-1) (PI / 4) = (-1 / 2, 1 / 2, - (PI / 2)).
Proof. exact arc_case. Qed.

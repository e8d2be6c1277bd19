(** * Model of the Fresnel integrals and clothoids of src/utilities/utilities.cpp *)
From Coq Require Import Reals ZArith List Bool.
From Verif Require Import Base ModelUtil FresnelData.
Import ListNotations.
Open Scope R_scope.

(** A decimal coefficient of include/steering_functions/utilities/fresnel.data as a real. *)
Definition coef (n : Z) : R := IZR n / 100000000000000000000.

(** src/utilities/utilities.cpp:85-94, loop of fresnel_0_8: the lists hold chebev_a[n..16] and
    chebev_b[n..16]; the result is (A, B, T2n_m4, T2n_m2) after the loop. *)
Fixpoint fresnel_0_8_loop (la lb : list Z) (arg quarter_x T2n_m4 T2n_m2 T2n_m1 A B : R)
  : R * R * R * R :=
  match la, lb with
  | a :: la', b :: lb' =>
      let T2n := 2 * arg * T2n_m2 - T2n_m4 in
      let T2n_p1 := quarter_x * T2n - T2n_m1 in
      fresnel_0_8_loop la' lb' arg quarter_x T2n_m2 T2n T2n_p1 (A + coef a * T2n) (B + coef b * T2n_p1)
  | _, _ => (A, B, T2n_m4, T2n_m2)
  end.

(** [chebev_x[n]] (fresnel.data); all indices used below are in range. *)
Definition ch (l : list Z) (n : nat) : R := coef (nth n l 0%Z).

(** src/utilities/utilities.cpp:74-96: the two Chebyshev sums A and B of fresnel_0_8. *)
Definition fresnel_0_8_AB (x : R) : R * R :=
  let quarter_x := (1 / 4) * x in
  let arg := (1 / 32) * x * x - 1 in
  let T0 := 1 in
  let T1 := (1 / 8) * x in
  let T2 := arg in
  let T3 := quarter_x * T2 - T1 in
  let A := ch chebev_a 0 * T0 + ch chebev_a 1 * T2 in
  let B := ch chebev_b 0 * T1 + ch chebev_b 1 * T3 in
  let '(A, B, T2n_m4, T2n_m2) :=
    fresnel_0_8_loop (firstn 15 (skipn 2 chebev_a)) (firstn 15 (skipn 2 chebev_b))
                     arg quarter_x T0 T2 T3 A B in
  let T34 := 2 * arg * T2n_m2 - T2n_m4 in
  (A + ch chebev_a 17 * T34, B).

(** src/utilities/utilities.cpp:70-102; returns (S_f, C_f). *)
Definition fresnel_0_8 (x : R) : R * R :=
  let '(A, B) := fresnel_0_8_AB x in
  let sqrt_x := sqrt x in
  (SQRT_TWO_PI_INV * sqrt_x * B, SQRT_TWO_PI_INV * sqrt_x * A).

(** src/utilities/utilities.cpp:114-121, first loop of fresnel_8_inf: chebev_e[n..34] and
    chebev_f[n..34]; returns (E, F, T2n_m4, T2n_m2). *)
Fixpoint fresnel_8_inf_loop1 (le lf : list Z) (arg T2n_m4 T2n_m2 E F : R) : R * R * R * R :=
  match le, lf with
  | e :: le', f :: lf' =>
      let T2n := 2 * arg * T2n_m2 - T2n_m4 in
      fresnel_8_inf_loop1 le' lf' arg T2n_m2 T2n (E + coef e * T2n) (F + coef f * T2n)
  | _, _ => (E, F, T2n_m4, T2n_m2)
  end.

(** src/utilities/utilities.cpp:122-128, second loop of fresnel_8_inf: chebev_e[n..40]. *)
Fixpoint fresnel_8_inf_loop2 (le : list Z) (arg T2n_m4 T2n_m2 E : R) : R :=
  match le with
  | e :: le' =>
      let T2n := 2 * arg * T2n_m2 - T2n_m4 in
      fresnel_8_inf_loop2 le' arg T2n_m2 T2n (E + coef e * T2n)
  | [] => E
  end.

(** src/utilities/utilities.cpp:107-128: the two Chebyshev sums E and F of fresnel_8_inf. *)
Definition fresnel_8_inf_EF (x : R) : R * R :=
  let arg := 128 / (x * x) - 1 in
  let T0 := 1 in
  let T2 := arg in
  let E := ch chebev_e 0 * T0 + ch chebev_e 1 * T2 in
  let F := ch chebev_f 0 * T0 + ch chebev_f 1 * T2 in
  let '(E, F, T2n_m4, T2n_m2) :=
    fresnel_8_inf_loop1 (firstn 33 (skipn 2 chebev_e)) (firstn 33 (skipn 2 chebev_f)) arg T0 T2 E F in
  (fresnel_8_inf_loop2 (firstn 6 (skipn 35 chebev_e)) arg T2n_m4 T2n_m2 E, F).

(** src/utilities/utilities.cpp:104-136; returns (S_f, C_f). *)
Definition fresnel_8_inf (x : R) : R * R :=
  let '(E, F) := fresnel_8_inf_EF x in
  let sin_x := sin x in
  let cos_x := cos x in
  let sqrt_x := sqrt x in
  (1 / 2 - SQRT_TWO_PI_INV * (E * sin_x / (2 * x) + F * cos_x) / sqrt_x,
   1 / 2 - SQRT_TWO_PI_INV * (E * cos_x / (2 * x) - F * sin_x) / sqrt_x).

(** src/utilities/utilities.cpp:138-151; returns (S_f, C_f). *)
Definition fresnel (s : R) : R * R :=
  let x := HALF_PI * s * s in
  let '(S_f, C_f) := if Rle_dec x 8 then fresnel_0_8 x else fresnel_8_inf x in
  if Rlt_dec s 0 then (- S_f, - C_f) else (S_f, C_f).

(** Abbreviations for the two results of [fresnel] (src/utilities/utilities.cpp:138). *)
Definition fresnelS (s : R) : R := fst (fresnel s).
Definition fresnelC (s : R) : R := snd (fresnel s).

(** src/utilities/utilities.cpp:153-183; returns (x_f, y_f, theta_f, kappa_f). *)
Definition end_of_clothoid (x_i y_i theta_i kappa_i sigma direction length : R) : R * R * R * R :=
  let sgn_sigma := sgn sigma in
  let abs_sigma := Rabs sigma in
  let sqrt_sigma_inv := 1 / sqrt abs_sigma in
  let k1 := theta_i - (1 / 2) * direction * kappa_i * kappa_i / sigma in
  let k2 := SQRT_PI_INV * sqrt_sigma_inv * (abs_sigma * length + sgn_sigma * kappa_i) in
  let k3 := SQRT_PI_INV * sqrt_sigma_inv * sgn_sigma * kappa_i in
  let cos_k1 := cos k1 in
  let sin_k1 := sin k1 in
  let fresnel_s_k2 := fresnelS k2 in
  let fresnel_c_k2 := fresnelC k2 in
  let fresnel_s_k3 := fresnelS k3 in
  let fresnel_c_k3 := fresnelC k3 in
  (x_i + SQRT_PI * sqrt_sigma_inv *
           (direction * cos_k1 * (fresnel_c_k2 - fresnel_c_k3)
            - sgn_sigma * sin_k1 * (fresnel_s_k2 - fresnel_s_k3)),
   y_i + SQRT_PI * sqrt_sigma_inv *
           (direction * sin_k1 * (fresnel_c_k2 - fresnel_c_k3)
            + sgn_sigma * cos_k1 * (fresnel_s_k2 - fresnel_s_k3)),
   pify (theta_i + kappa_i * direction * length + (1 / 2) * sigma * direction * length * length),
   kappa_i + sigma * length).

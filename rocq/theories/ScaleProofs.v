(** * Another unit of length: Dubins and Reeds-Shepp *)
From Coq Require Import Reals ZArith List Bool Lra Lia.
From Verif Require Import Base ModelUtil ModelFresnel ModelIntegrate ModelDubins ModelRS Num SpecPath SpecScale.
Import ListNotations.
Open Scope R_scope.

Lemma atan2_scale c y x : 0 < c -> atan2 (c * y) (c * x) = atan2 y x.
Proof.
  intros C. unfold atan2.
  assert (Q : x <> 0 -> c * y / (c * x) = y / x) by (intros; field; lra).
  assert (PX : 0 < c * x <-> 0 < x) by (split; intros; nra). assert (NX : c * x < 0 <-> x < 0) by (split; intros; nra).
  assert (PY : 0 < c * y <-> 0 < y) by (split; intros; nra). assert (NY : c * y < 0 <-> y < 0) by (split; intros; nra).
  repeat match goal with |- context [Rlt_dec ?a ?b] => destruct (Rlt_dec a b) | |- context [Rle_dec ?a ?b] => destruct (Rle_dec a b) end;
    try (exfalso; tauto); try (exfalso; nra); rewrite ?Q by lra; reflexivity.
Qed.

Lemma sqrt_scale c x y : 0 < c -> sqrt (c * x * (c * x) + c * y * (c * y)) = c * sqrt (x * x + y * y).
Proof.
  intros C. replace (c * x * (c * x) + c * y * (c * y)) with (c * c * (x * x + y * y)) by ring.
  rewrite sqrt_mult_alt by nra. rewrite sqrt_square by lra. reflexivity.
Qed.

Lemma dubins_path_scale c kappa s1 s2 : 0 < c -> dubins_path (kappa / c) (scaled c s1) (scaled c s2) = dubins_path kappa s1 s2.
Proof.
  intros C. unfold dubins_path, dubins_args, scaled. cbn [st_x st_y st_theta]. cbv zeta. rewrite <- !Rmult_minus_distr_l, atan2_scale, sqrt_scale by assumption.
  replace (c * sqrt ((st_x s2 - st_x s1) * (st_x s2 - st_x s1) + (st_y s2 - st_y s1) * (st_y s2 - st_y s1)) * (kappa / c))
    with (sqrt ((st_x s2 - st_x s1) * (st_x s2 - st_x s1) + (st_y s2 - st_y s1) * (st_y s2 - st_y s1)) * kappa) by (field; lra).
  reflexivity.
Qed.

Lemma dubins_control_scale c kappa g l : 0 < c -> 0 < kappa -> dubins_control (kappa / c) g l = scaled_control c (dubins_control kappa g l).
Proof. intros C K. destruct g; unfold dubins_control, scaled_control; cbn [ct_delta_s ct_kappa ct_sigma]; f_equal; field; lra. Qed.

Lemma dubins_controls_scale c kappa P : 0 < c -> 0 < kappa -> dubins_controls (kappa / c) P = map (scaled_control c) (dubins_controls kappa P).
Proof. intros C K. unfold dubins_controls. rewrite map_map. apply map_ext. intros [g l]. apply dubins_control_scale; assumption. Qed.

Lemma dubins_scale c kappa fw s1 s2 : 0 < c -> 0 < kappa ->
  dubins_distance (kappa / c) fw (scaled c s1) (scaled c s2) = c * dubins_distance kappa fw s1 s2 /\
  dubins_get_controls (kappa / c) fw (scaled c s1) (scaled c s2) = map (scaled_control c) (dubins_get_controls kappa fw s1 s2).
Proof.
  intros C K. unfold dubins_distance, dubins_get_controls. rewrite !dubins_path_scale, !dubins_controls_scale by assumption. split.
  - destruct fw; field; lra.
  - destruct fw; [reflexivity|]. rewrite <- map_rev, !map_map. apply map_ext. intros u. unfold negate_length, scaled_control. cbn [ct_delta_s ct_kappa ct_sigma]. f_equal. ring.
Qed.

Lemma rs_path_scale c kappa s1 s2 : 0 < c -> rs_path (kappa / c) (scaled c s1) (scaled c s2) = rs_path kappa s1 s2.
Proof.
  intros C. unfold rs_path, rs_args, scaled. cbn [st_x st_y st_theta]. cbv zeta. f_equal; field; lra.
Qed.

Lemma rs_controls_scale c kappa ty : 0 < c -> 0 < kappa -> forall ls, rs_controls (kappa / c) ty ls = map (scaled_control c) (rs_controls kappa ty ls).
Proof.
  intros C K. induction ty as [|g ty IH]; intros ls; [reflexivity|]. destruct ls as [|l ls]; [destruct g; reflexivity|].
  destruct g; cbn [rs_controls map]; try reflexivity; rewrite IH; f_equal; unfold scaled_control; cbn [ct_delta_s ct_kappa ct_sigma]; f_equal; field; lra.
Qed.

Lemma rs_scale c kappa s1 s2 : 0 < c -> 0 < kappa ->
  rs_distance (kappa / c) (scaled c s1) (scaled c s2) = c * rs_distance kappa s1 s2 /\
  rs_get_controls (kappa / c) (scaled c s1) (scaled c s2) = map (scaled_control c) (rs_get_controls kappa s1 s2).
Proof.
  intros C K. unfold rs_distance, rs_get_controls. cbv zeta. rewrite rs_path_scale, rs_controls_scale by assumption. split; [field; lra|reflexivity].
Qed.

Lemma scaled_case : 0 < 1000 /\ 0 < 1 / 5 /\ scaled 1000 (mkState 1 2 3 4 1) = mkState 1000 2000 3 (1 / 250) 1.
Proof. split; [lra|]. split; [lra|]. unfold scaled. cbn [st_x st_y st_theta st_kappa st_d]. f_equal; lra. Qed.

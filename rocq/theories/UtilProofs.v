(** * Lemmas about src/utilities/utilities.cpp *)
From Coq Require Import Reals ZArith List Bool Lra Lia Psatz.
From Coquelicot Require Import Coquelicot.
From Verif Require Import Base ModelUtil FresnelData ModelFresnel Num.
Import ListNotations.
Open Scope R_scope.

Lemma truncZ_unique_pos x (n : Z) : 0 <= x -> IZR n <= x < IZR n + 1 -> truncZ x = n.
Proof.
  intros P H. unfold truncZ. destruct (Rle_dec 0 x); [|lra]. apply floorZ_unique. assumption.
Qed.

Lemma truncZ_unique_neg x (n : Z) : x < 0 -> IZR n - 1 < x <= IZR n -> truncZ x = n.
Proof.
  intros P H. unfold truncZ. destruct (Rle_dec 0 x); [lra|].
  change Int_part with floorZ. rewrite (floorZ_unique (- x) (- n)); [lia|].
  rewrite opp_IZR. lra.
Qed.

Lemma pify_PI : pify PI = PI.
Proof.
  unfold pify, fmod. pose proof PI_RGT_0 as P.
  rewrite (truncZ_unique_pos (PI / TWO_PI) 0).
  - unfold TWO_PI. replace (PI - 2 * PI * 0) with PI by ring.
    repeat destruct (Rlt_dec _ _); lra.
  - unfold TWO_PI. replace (PI / (2 * PI)) with (1 / 2) by (field; lra). lra.
  - unfold TWO_PI. replace (PI / (2 * PI)) with (1 / 2) by (field; lra). lra.
Qed.

(** All odd multiples of pi above zero are mapped to the excluded end point. *)
Lemma pify_odd_PI (k : Z) : (0 <= k)%Z -> pify (PI + 2 * PI * IZR k) = PI.
Proof.
  intros K. apply IZR_le in K. unfold pify, fmod. pose proof PI_RGT_0 as P.
  assert (E : (PI + 2 * PI * IZR k) / TWO_PI = 1 / 2 + IZR k) by (unfold TWO_PI; field; lra).
  rewrite E, (truncZ_unique_pos (1 / 2 + IZR k) k) by lra.
  unfold TWO_PI. replace (PI + 2 * PI * IZR k - 2 * PI * IZR k) with PI by ring.
  repeat destruct (Rlt_dec _ _); lra.
Qed.

Lemma polar_spec x y r th : polar x y = (r, th) ->
  0 <= r /\ r * cos th = x /\ r * sin th = y /\ - PI < th <= PI.
Proof.
  unfold polar. intros E. injection E as <- <-.
  split; [apply sqrt_pos|]. split; [apply atan2_cos|]. split; [apply atan2_sin|apply atan2_range].
Qed.

Lemma local_global x y th lx ly gx gy :
  global_frame_change x y th lx ly = (gx, gy) -> local_frame_change x y th gx gy = (lx, ly).
Proof.
  unfold global_frame_change, local_frame_change. intros E. injection E as <- <-.
  pose proof (sin2_cos2' th) as Q.
  f_equal.
  - transitivity (lx * (sin th * sin th + cos th * cos th)); [ring|rewrite Q; ring].
  - transitivity (ly * (sin th * sin th + cos th * cos th)); [ring|rewrite Q; ring].
Qed.

Lemma global_local x y th lx ly gx gy :
  local_frame_change x y th gx gy = (lx, ly) -> global_frame_change x y th lx ly = (gx, gy).
Proof.
  unfold global_frame_change, local_frame_change. intros E. injection E as <- <-.
  pose proof (sin2_cos2' th) as Q.
  f_equal.
  - transitivity ((gx - x) * (sin th * sin th + cos th * cos th) + x); [ring|rewrite Q; ring].
  - transitivity ((gy - y) * (sin th * sin th + cos th * cos th) + y); [ring|rewrite Q; ring].
Qed.

Lemma global_isometry x y th ax ay bx by_ gax gay gbx gby :
  global_frame_change x y th ax ay = (gax, gay) ->
  global_frame_change x y th bx by_ = (gbx, gby) ->
  point_distance gax gay gbx gby = point_distance ax ay bx by_.
Proof.
  unfold global_frame_change, point_distance. intros E F.
  injection E as <- <-. injection F as <- <-. f_equal.
  pose proof (sin2_cos2' th) as Q.
  transitivity (((bx - ax) ^ 2 + (by_ - ay) ^ 2) * (sin th * sin th + cos th * cos th)); [ring|rewrite Q; ring].
Qed.

(** ** array_index_min *)

Lemma fltb_irrefl_none a : fltb a None = false.
Proof. destruct a; reflexivity. Qed.

Lemma aim_loop_none l i k : array_index_min_loop l i k None = k.
Proof.
  revert i. induction l as [|a l IH]; intros i; simpl; [reflexivity|].
  rewrite fltb_irrefl_none. apply IH.
Qed.

(** Invariant of the loop: [pre] is the part already scanned. *)
Lemma aim_loop_spec (l : list flt) : forall (pre : list flt) k m,
  nth_error pre k = Some (Some m) ->
  (forall j w, nth_error pre j = Some (Some w) -> m <= w /\ ((j < k)%nat -> m < w)) ->
  let r := array_index_min_loop l (length pre) k (Some m) in
  exists v, nth_error (pre ++ l) r = Some (Some v) /\
    (forall j w, nth_error (pre ++ l) j = Some (Some w) -> v <= w /\ ((j < r)%nat -> v < w)).
Proof.
  induction l as [|a l IH]; intros pre k m Hk Hm; simpl.
  - rewrite app_nil_r. exists m. split; assumption.
  - assert (EQ : forall p : list flt, pre ++ a :: l = (pre ++ [a]) ++ l) by (intros; rewrite <- app_assoc; reflexivity).
    assert (LEN : length (pre ++ [a]) = S (length pre)) by (rewrite app_length; simpl; lia).
    assert (kl : (k < length pre)%nat) by (apply nth_error_Some; rewrite Hk; discriminate).
    destruct (fltb a (Some m)) eqn:F.
    + destruct a as [x|]; [|discriminate]. simpl in F. apply Rltb_true in F.
      specialize (IH (pre ++ [Some x : flt]) (length pre) x).
      rewrite LEN in IH. rewrite (EQ pre). apply IH.
      * rewrite nth_error_app2, Nat.sub_diag by lia. reflexivity.
      * intros j w Hj. destruct (Nat.lt_ge_cases j (length pre)) as [L|L].
        -- rewrite nth_error_app1 in Hj by lia. destruct (Hm j w Hj). split; [lra|intros; lra].
        -- rewrite nth_error_app2 in Hj by lia.
           destruct (j - length pre)%nat as [|n] eqn:D; simpl in Hj; [|destruct n; discriminate].
           injection Hj as <-. split; [lra|intros; lia].
    + specialize (IH (pre ++ [a]) k m). rewrite LEN in IH. rewrite (EQ pre). apply IH.
      * rewrite nth_error_app1 by lia. assumption.
      * intros j w Hj. destruct (Nat.lt_ge_cases j (length pre)) as [L|L].
        -- rewrite nth_error_app1 in Hj by lia. apply Hm. assumption.
        -- rewrite nth_error_app2 in Hj by lia.
           destruct (j - length pre)%nat as [|n] eqn:D; simpl in Hj; [|destruct n; discriminate].
           injection Hj as ->. simpl in F. apply Rltb_false in F. split; [lra|intros; lia].
Qed.

Lemma array_index_min_spec l i : array_index_min l = Some i ->
  (i < length l)%nat /\
  (nth_error l 0 = Some None -> i = 0%nat) /\
  (forall x0, nth_error l 0 = Some (Some x0) ->
     exists v, nth_error l i = Some (Some v) /\
       forall j w, nth_error l j = Some (Some w) -> v <= w /\ ((j < i)%nat -> v < w)).
Proof.
  destruct l as [|a l]; [discriminate|]. simpl. intros E. injection E as <-.
  destruct a as [x|].
  - pose proof (aim_loop_spec l [Some x] 0 x eq_refl) as A. simpl in A.
    destruct A as (v & A1 & A2).
    { intros j w Hj. destruct j as [|j]; simpl in Hj; [|destruct j; discriminate].
      injection Hj as <-. split; [lra|lia]. }
    split; [|split; [discriminate|intros x0 _]].
    + change (S (length l)) with (length (Some x :: l)).
      apply nth_error_Some. simpl. rewrite A1. discriminate.
    + exists v. split; assumption.
  - rewrite aim_loop_none. split; [lia|]. split; [reflexivity|discriminate].
Qed.

(** ** Fresnel: oddness *)

Lemma fresnel_odd s : fresnel (- s) = (- fst (fresnel s), - snd (fresnel s)).
Proof.
  unfold fresnel. replace (HALF_PI * - s * - s) with (HALF_PI * s * s) by ring.
  destruct (Rtotal_order s 0) as [H|[->|H]].
  - destruct (Rle_dec _ _);
      [destruct (fresnel_0_8 _) as [S C]|destruct (fresnel_8_inf _) as [S C]];
      (destruct (Rlt_dec (- s) 0); [lra|]; destruct (Rlt_dec s 0); [|lra]; simpl; f_equal; ring).
  - replace (HALF_PI * 0 * 0) with 0 by ring. destruct (Rle_dec 0 8); [|lra].
    unfold fresnel_0_8. destruct (fresnel_0_8_AB 0) as [A B]. rewrite sqrt_0.
    destruct (Rlt_dec (- 0) 0); [lra|]. destruct (Rlt_dec 0 0); [lra|]. simpl. f_equal; ring.
  - destruct (Rle_dec _ _);
      [destruct (fresnel_0_8 _) as [S C]|destruct (fresnel_8_inf _) as [S C]];
      (destruct (Rlt_dec (- s) 0); [|lra]; destruct (Rlt_dec s 0); [lra|]; reflexivity).
Qed.

Lemma fresnelS_odd s : fresnelS (- s) = - fresnelS s.
Proof. unfold fresnelS. rewrite fresnel_odd. reflexivity. Qed.
Lemma fresnelC_odd s : fresnelC (- s) = - fresnelC s.
Proof. unfold fresnelC. rewrite fresnel_odd. reflexivity. Qed.

Lemma fresnel_0 : fresnel 0 = (0, 0).
Proof.
  unfold fresnel. replace (HALF_PI * 0 * 0) with 0 by ring. destruct (Rle_dec 0 8); [|lra].
  unfold fresnel_0_8. destruct (fresnel_0_8_AB 0) as [A B]. rewrite sqrt_0.
  destruct (Rlt_dec 0 0); [lra|]. f_equal; ring.
Qed.
Lemma fresnelS_0 : fresnelS 0 = 0.
Proof. unfold fresnelS. rewrite fresnel_0. reflexivity. Qed.
Lemma fresnelC_0 : fresnelC 0 = 0.
Proof. unfold fresnelC. rewrite fresnel_0. reflexivity. Qed.

(** ** Equations of motion of straight lines and arcs *)

Lemma straight_ode x y th d s :
  is_derive (fun s => fst (end_of_straight_line x y th d s)) s (d * cos th) /\
  is_derive (fun s => snd (end_of_straight_line x y th d s)) s (d * sin th) /\
  end_of_straight_line x y th d 0 = (x, y).
Proof.
  unfold end_of_straight_line; simpl. split; [|split].
  - auto_derive; [trivial|ring].
  - auto_derive; [trivial|ring].
  - f_equal; ring.
Qed.

Lemma arc_ode x y th kappa d s : kappa <> 0 ->
  let p := end_of_circular_arc x y th kappa d s in
  is_derive (fun s => fst (fst (end_of_circular_arc x y th kappa d s))) s (d * cos (snd p)) /\
  is_derive (fun s => snd (fst (end_of_circular_arc x y th kappa d s))) s (d * sin (snd p)) /\
  ang_eq (snd p) (th + d * kappa * s) /\
  fst (end_of_circular_arc x y th kappa d 0) = (x, y) /\
  ang_eq (snd (end_of_circular_arc x y th kappa d 0)) th.
Proof.
  intros K p. unfold p, end_of_circular_arc; simpl.
  replace (th + kappa * d * s) with (th + d * s * kappa) by ring.
  rewrite cos_pify, sin_pify. split; [|split; [|split; [|split]]].
  - auto_derive; [trivial|]. field. assumption.
  - auto_derive; [trivial|]. field. assumption.
  - eapply ang_eq_trans; [apply pify_ang|]. apply ang_eq_of_eq. ring.
  - replace (th + d * 0 * kappa) with th by ring. f_equal; ring.
  - eapply ang_eq_trans; [apply pify_ang|]. apply ang_eq_of_eq. ring.
Qed.

(** ** Packaged forms used by PropUtil.v *)

Lemma twopify_full a :
  0 <= twopify a < 2 * PI /\
  (exists k : Z, twopify a = a + 2 * PI * IZR k) /\
  twopify (twopify a) = twopify a /\
  (forall k : Z, twopify (a + 2 * PI * IZR k) = twopify a).
Proof.
  split; [apply twopify_range|]. split; [apply twopify_ang|]. split.
  - apply twopify_congr, twopify_ang.
  - intros k. apply twopify_congr. exists k. reflexivity.
Qed.

Lemma twopify_cases : twopify (- PI / 2) = 3 * PI / 2 /\ twopify (2 * PI) = 0.
Proof.
  pose proof PI_RGT_0. split; apply twopify_unique; try (unfold TWO_PI; lra).
  - exists 1%Z. lra.
  - exists (-1)%Z. lra.
Qed.

Lemma pify_not_half_open : exists a : R, ~ (- PI <= pify a < PI).
Proof. exists PI. rewrite pify_PI. lra. Qed.

Lemma two_pi_Z_bound (k : Z) : - (2 * PI) < 2 * PI * IZR k < 2 * PI -> k = 0%Z.
Proof.
  intros H. pose proof PI_RGT_0.
  assert (A : -1 < IZR k < 1) by nra.
  destruct A as [A B]. change (-1) with (IZR (-1)) in A. change 1 with (IZR 1) in B.
  apply lt_IZR in A. apply lt_IZR in B. lia.
Qed.

Lemma pify_unique a b : ang_eq a b -> - PI < a < PI -> pify b = a.
Proof.
  intros E B. pose proof (pify_range b). pose proof PI_RGT_0.
  destruct (ang_eq_trans _ _ _ (pify_ang b) (ang_eq_sym _ _ E)) as [k K].
  assert (k = 0%Z) by (apply two_pi_Z_bound; lra). subst k. lra.
Qed.

Lemma fmod_sign a : (0 <= a -> 0 <= fmod a TWO_PI) /\ (a <= 0 -> fmod a TWO_PI <= 0).
Proof.
  pose proof TWO_PI_pos as T.
  assert (Q : a = TWO_PI * (a / TWO_PI)) by (field; lra). unfold fmod. split; intros P.
  - assert (0 <= a / TWO_PI) by (apply Rdiv_le_0_compat; assumption).
    pose proof (truncZ_pos (a / TWO_PI) ltac:(assumption)). nra.
  - destruct (Rle_lt_or_eq_dec _ _ P) as [P'|P'].
    + assert (a / TWO_PI < 0) by (apply Rmult_lt_reg_l with TWO_PI; lra).
      pose proof (truncZ_neg (a / TWO_PI) ltac:(assumption)). nra.
    + subst a. replace (0 / TWO_PI) with 0 by (field; lra).
      rewrite (truncZ_unique_pos 0 0) by lra. lra.
Qed.

Lemma pify_full a :
  - PI <= pify a <= PI /\ (exists k : Z, pify a = a + 2 * PI * IZR k) /\
  (pify a = PI -> 0 < a) /\ (pify a = - PI -> a < 0).
Proof.
  split; [apply pify_range|]. split; [apply pify_ang|].
  pose proof (fmod_sign a) as [A B]. pose proof PI_RGT_0. pose proof (fmod_range a) as F.
  unfold pify. unfold TWO_PI in *.
  split; intros E; apply Rnot_le_lt; intros N.
  - specialize (B N). destruct (Rlt_dec _ _); [lra|]. destruct (Rlt_dec _ _); lra.
  - specialize (A N). destruct (Rlt_dec _ _); [lra|]. destruct (Rlt_dec _ _); lra.
Qed.

Lemma pify_neg_PI : pify (- PI) = - PI.
Proof.
  unfold pify, fmod. pose proof PI_RGT_0 as P.
  rewrite (truncZ_unique_neg (- PI / TWO_PI) 0).
  - unfold TWO_PI. replace (- PI - 2 * PI * 0) with (- PI) by ring.
    repeat destruct (Rlt_dec _ _); lra.
  - unfold TWO_PI. replace (- PI / (2 * PI)) with (- (1 / 2)) by (field; lra). lra.
  - unfold TWO_PI. replace (- PI / (2 * PI)) with (- (1 / 2)) by (field; lra). lra.
Qed.

Lemma pify_cases : pify PI = PI /\ pify (- PI) = - PI /\ pify (3 * PI / 2) = - PI / 2.
Proof.
  pose proof PI_RGT_0. split; [apply pify_PI|]. split; [apply pify_neg_PI|].
  apply pify_unique; [|lra]. exists (-1)%Z. lra.
Qed.

Lemma polar_cases : polar (-3) 0 = (3, PI) /\ polar 0 (-2) = (2, - (PI / 2)) /\ polar 0 0 = (0, 0).
Proof.
  unfold polar, atan2. repeat split; repeat (destruct (Rlt_dec _ _); try lra);
    repeat (destruct (Rle_dec _ _); try lra); f_equal.
  - replace (-3 * -3 + 0 * 0) with (3 * 3) by ring. apply sqrt_square; lra.
  - replace (0 / -3) with 0 by field. rewrite atan_0. ring.
  - replace (0 * 0 + -2 * -2) with (2 * 2) by ring. apply sqrt_square; lra.
  - replace (0 * 0 + 0 * 0) with 0 by ring. apply sqrt_0.
Qed.

Lemma global_isometry' x y th ax ay bx by_ gax gay gbx gby :
  global_frame_change x y th ax ay = (gax, gay) ->
  global_frame_change x y th bx by_ = (gbx, gby) ->
  sqrt ((gax - gbx) ^ 2 + (gay - gby) ^ 2) = sqrt ((ax - bx) ^ 2 + (ay - by_) ^ 2).
Proof.
  intros E F. pose proof (global_isometry _ _ _ _ _ _ _ _ _ _ _ E F) as G.
  unfold point_distance in G.
  replace ((gax - gbx) ^ 2 + (gay - gby) ^ 2) with ((gbx - gax) ^ 2 + (gby - gay) ^ 2) by ring.
  rewrite G. f_equal. ring.
Qed.

Lemma global_axes x y th :
  global_frame_change x y th 0 0 = (x, y) /\
  global_frame_change x y th 1 0 = (x + cos th, y + sin th) /\
  global_frame_change x y th 0 1 = (x - sin th, y + cos th).
Proof. unfold global_frame_change. repeat split; f_equal; ring. Qed.

Lemma global_case : global_frame_change 1 2 (PI / 2) 3 4 = (-3, 5).
Proof. unfold global_frame_change. rewrite cos_PI2, sin_PI2. f_equal; ring. Qed.

Lemma array_index_min_total l : l <> [] -> exists i, array_index_min l = Some i.
Proof. destruct l as [|a l]; [congruence|]. intros _. eexists. reflexivity. Qed.

Lemma array_index_min_case : array_index_min [Some 3; None; Some 1; Some 2; Some 1] = Some 2%nat.
Proof.
  unfold array_index_min. cbn [array_index_min_loop fltb]. unfold Rltb.
  repeat (destruct (Rlt_dec _ _); try lra). reflexivity.
Qed.

Lemma fresnel_odd' s S_f C_f : fresnel s = (S_f, C_f) -> fresnel (- s) = (- S_f, - C_f).
Proof. intros E. rewrite fresnel_odd, E. reflexivity. Qed.

Lemma arc_ode' x y th kappa d s : kappa <> 0 ->
  let X s := fst (fst (end_of_circular_arc x y th kappa d s)) in
  let Y s := snd (fst (end_of_circular_arc x y th kappa d s)) in
  let T s := snd (end_of_circular_arc x y th kappa d s) in
  is_derive X s (d * cos (T s)) /\
  is_derive Y s (d * sin (T s)) /\
  (exists k : Z, T s = th + d * kappa * s + 2 * PI * IZR k) /\
  X 0 = x /\ Y 0 = y.
Proof.
  intros K X Y T. destruct (arc_ode x y th kappa d s K) as (A & B & C & D & _).
  unfold X, Y, T. rewrite D. auto.
Qed.

Lemma arc_case : end_of_circular_arc 0 0 0 2 (-1) (PI / 4) = (-1 / 2, 1 / 2, - (PI / 2)).
Proof.
  unfold end_of_circular_arc. pose proof PI_RGT_0.
  replace (0 + -1 * (PI / 4) * 2) with (- (PI / 2)) by lra.
  rewrite sin_neg, cos_neg, cos_PI2, sin_PI2, sin_0, cos_0.
  rewrite (pify_unique (- (PI / 2))); [|exists 0%Z; lra|lra].
  f_equal; f_equal; lra.
Qed.

(** * Rigid displacements of the plane and the displacement caused by a control *)
From Coq Require Import Reals ZArith List Lra Lia.
From Verif Require Import Base ModelUtil ModelFresnel ModelIntegrate ModelCircle Num UtilProofs IntegrateProofs SpecPath SpecCloth SpecTurn.
Import ListNotations.
Open Scope R_scope.

Record Pose := mkPose { px : R; py : R; pt : R }.
Definition peq (a b : Pose) : Prop := px a = px b /\ py a = py b /\ ang_eq (pt a) (pt b).
Definition pmul (a b : Pose) : Pose :=
  mkPose (px a + (px b * cos (pt a) - py b * sin (pt a)))
         (py a + (px b * sin (pt a) + py b * cos (pt a))) (pt a + pt b).
Definition mir (d e : R) (a : Pose) : Pose := mkPose (d * px a) (e * py a) (d * e * pt a).
Definition pst (s : State) : Pose := mkPose (st_x s) (st_y s) (st_theta s).
Definition pcf (q : Configuration) : Pose := mkPose (q_x q) (q_y q) (q_theta q).
Definition pshift (u v : R) (a : Pose) : Pose := mkPose (px a + u) (py a + v) (pt a).

Lemma peq_refl a : peq a a.
Proof. repeat split. apply ang_eq_refl. Qed.
Lemma peq_sym a b : peq a b -> peq b a.
Proof. intros (A & B & C). repeat split; auto using ang_eq_sym. Qed.
Lemma peq_trans a b c : peq a b -> peq b c -> peq a c.
Proof. intros (A & B & C) (A' & B' & C'). repeat split; try congruence. eapply ang_eq_trans; eassumption. Qed.
Lemma peq_eq a b : a = b -> peq a b.
Proof. intros ->. apply peq_refl. Qed.

Lemma pmul_congr a a' b b' : peq a a' -> peq b b' -> peq (pmul a b) (pmul a' b').
Proof.
  intros (A & B & C) (A' & B' & C'). unfold pmul, peq; cbn [px py pt].
  rewrite (ang_eq_cos _ _ C), (ang_eq_sin _ _ C), A, B, A', B'. repeat split. apply ang_eq_add; assumption.
Qed.
Lemma pmul_congr_l a a' b : peq a a' -> peq (pmul a b) (pmul a' b).
Proof. intros. apply pmul_congr; [assumption|apply peq_refl]. Qed.
Lemma pmul_congr_r a b b' : peq b b' -> peq (pmul a b) (pmul a b').
Proof. intros. apply pmul_congr; [apply peq_refl|assumption]. Qed.
Lemma pmul_assoc a b c : pmul (pmul a b) c = pmul a (pmul b c).
Proof.
  unfold pmul; cbn [px py pt]. rewrite cos_plus, sin_plus. f_equal; ring.
Qed.
Lemma pmul_id_r a : pmul a (mkPose 0 0 0) = a.
Proof. destruct a. unfold pmul; cbn [px py pt]. f_equal; ring. Qed.
Lemma pmul_shift u v a b : pmul (pshift u v a) b = pshift u v (pmul a b).
Proof. unfold pmul, pshift; cbn [px py pt]. f_equal; ring. Qed.
Lemma pshift_congr u v a b : peq a b -> peq (pshift u v a) (pshift u v b).
Proof. intros (A & B & C). unfold pshift, peq; cbn [px py pt]. rewrite A, B. auto. Qed.

Definition pm1 (x : R) : Prop := x = 1 \/ x = -1.
Lemma pm1_opp x : pm1 x -> pm1 (- x).
Proof. intros [->| ->]; [right|left]; lra. Qed.
Lemma pm1_sq x : pm1 x -> x * x = 1.
Proof. intros [->| ->]; lra. Qed.
Lemma pm1_sign b : pm1 (sign b).
Proof. destruct b; [left|right]; reflexivity. Qed.
Lemma pm1_direction f o : direction f o = sign f * sign o.
Proof. destruct f, o; unfold direction, sign; cbn; lra. Qed.
Lemma pm1_mul x y : pm1 x -> pm1 y -> pm1 (x * y).
Proof. intros [->| ->] [->| ->]; unfold pm1; lra. Qed.
Lemma cos_pm x t : pm1 x -> cos (x * t) = cos t.
Proof. intros [->| ->]; [rewrite Rmult_1_l; reflexivity|]. replace (-1 * t) with (- t) by ring. apply cos_neg. Qed.
Lemma sin_pm x t : pm1 x -> sin (x * t) = x * sin t.
Proof. intros [->| ->]; [rewrite !Rmult_1_l; reflexivity|]. replace (-1 * t) with (- t) by ring. rewrite sin_neg. ring. Qed.

Lemma mir_mul d e a b : pm1 d -> pm1 e -> pmul (mir d e a) (mir d e b) = mir d e (pmul a b).
Proof.
  intros D E. unfold pmul, mir; cbn [px py pt].
  rewrite (cos_pm (d * e)), (sin_pm (d * e)) by (apply pm1_mul; assumption).
  pose proof (pm1_sq d D). pose proof (pm1_sq e E). f_equal; try ring.
  - replace (e * py b * (d * e * sin (pt a))) with ((e * e) * d * py b * sin (pt a)) by ring. rewrite H0. ring.
  - replace (d * px b * (d * e * sin (pt a))) with ((d * d) * e * px b * sin (pt a)) by ring. rewrite H. ring.
Qed.
Lemma mir_congr d e a b : pm1 d -> pm1 e -> peq a b -> peq (mir d e a) (mir d e b).
Proof.
  intros D E (A & B & C). unfold mir, peq; cbn [px py pt]. rewrite A, B. repeat split.
  assert (P : pm1 (d * e)) by (apply pm1_mul; assumption).
  destruct P as [->| ->]; [rewrite !Rmult_1_l; exact C|].
  replace (-1 * pt a) with (- pt a) by ring. replace (-1 * pt b) with (- pt b) by ring. apply ang_eq_opp, C.
Qed.

(** ** Displacement of one control *)
Definition D_in (a b t : R) : Pose := mkPose a b t.
Definition D_arc (k b : R) : Pose := mkPose (sin b / k) ((1 - cos b) / k) b.
Definition D_out (a b t : R) : Pose := mkPose (a * cos t + b * sin t) (a * sin t - b * cos t) t.

(** End point of the clothoid of sharpness [s] and length [L] that starts straight. *)
Definition cl_x (s L : R) : R := sqrt (PI / s) * fresnelC (sqrt (s / PI) * L).
Definition cl_y (s L : R) : R := sqrt (PI / s) * fresnelS (sqrt (s / PI) * L).
Definition cl_t (s L : R) : R := s * L ^ 2 / 2.

Lemma sgn_pm d L : pm1 d -> 0 < L -> sgn (d * L) = d.
Proof. intros [->| ->] H; unfold sgn; destruct (Rlt_dec _ _); lra. Qed.
Lemma abs_pm d L : pm1 d -> 0 <= L -> Rabs (d * L) = L.
Proof. intros [->| ->] H; [rewrite Rmult_1_l; apply Rabs_pos_eq; exact H|]. replace (-1 * L) with (- L) by ring. rewrite Rabs_Ropp. apply Rabs_pos_eq; exact H. Qed.
Lemma abs_pm1 d x : pm1 d -> Rabs (d * x) = Rabs x.
Proof. intros [->| ->]; [rewrite Rmult_1_l; reflexivity|]. replace (-1 * x) with (- x) by ring. apply Rabs_Ropp. Qed.

Lemma root_pi s : 0 < s -> SQRT_PI * (1 / sqrt s) = sqrt (PI / s).
Proof.
  intros S. pose proof PI_RGT_0. unfold SQRT_PI. rewrite sqrt_div by lra.
  field. apply Rgt_not_eq, sqrt_lt_R0. exact S.
Qed.
Lemma root_arg s L : 0 < s -> SQRT_PI_INV * (1 / sqrt s) * (s * L) = sqrt (s / PI) * L.
Proof.
  intros S. pose proof PI_RGT_0. unfold SQRT_PI_INV. rewrite sqrt_div by lra.
  assert (sqrt s <> 0) by (apply Rgt_not_eq, sqrt_lt_R0; exact S).
  assert (sqrt PI <> 0) by (apply Rgt_not_eq, sqrt_lt_R0; lra).
  rewrite <- (sqrt_sqrt s) at 2 by lra. field. auto.
Qed.

Lemma move_in st d e s L : pm1 d -> pm1 e -> 0 < s -> 0 < L ->
  peq (pst (lib_move st (mkControl (d * L) 0 (e * s)))) (pmul (pst st) (mir d e (D_in (cl_x s L) (cl_y s L) (cl_t s L)))) /\
  st_kappa (lib_move st (mkControl (d * L) 0 (e * s))) = e * s * L.
Proof.
  intros D E S HL. unfold lib_move; cbn [ct_delta_s ct_kappa ct_sigma].
  destruct (Req_EM_T (e * s) 0) as [Z|_]; [destruct E as [->| ->]; lra|].
  rewrite (sgn_pm d L D HL), (abs_pm d L D) by lra.
  unfold end_of_clothoid. rewrite (sgn_pm e s E S), (abs_pm e s E) by lra.
  rewrite !Rmult_0_r, !Rplus_0_r, fresnelS_0, fresnelC_0, root_arg by assumption.
  rewrite root_pi by assumption. unfold pst; cbn [st_x st_y st_theta st_kappa]. split; [|ring].
  unfold peq, pmul, mir, D_in, cl_x, cl_y, cl_t; cbn [px py pt].
  replace (st_theta st - 0 / (e * s)) with (st_theta st) by (unfold Rdiv; ring).
  repeat split; [ring|ring|]. eapply ang_eq_trans; [apply pify_ang|]. apply ang_eq_of_eq. field.
Qed.

Lemma move_out st d e s L : pm1 d -> pm1 e -> 0 < s -> 0 < L ->
  peq (pst (lib_move st (mkControl (d * L) (e * (s * L)) (- (e * s))))) (pmul (pst st) (mir d e (D_out (cl_x s L) (cl_y s L) (cl_t s L)))) /\
  st_kappa (lib_move st (mkControl (d * L) (e * (s * L)) (- (e * s)))) = 0.
Proof.
  intros D E S HL. unfold lib_move; cbn [ct_delta_s ct_kappa ct_sigma].
  destruct (Req_EM_T (- (e * s)) 0) as [Z|_]; [destruct E as [->| ->]; lra|].
  rewrite (sgn_pm d L D HL), (abs_pm d L D) by lra.
  unfold end_of_clothoid. replace (- (e * s)) with ((- e) * s) by ring.
  pose proof (pm1_sq d D) as DD. pose proof (pm1_sq e E) as EE.
  rewrite (sgn_pm (- e) s (pm1_opp e E) S), (abs_pm (- e) s (pm1_opp e E)) by lra.
  rewrite root_pi by assumption.
  replace (s * L + - e * (e * (s * L))) with 0 by (replace (s * L + - e * (e * (s * L))) with (s * L * (1 - e * e)) by ring; rewrite EE; ring).
  replace (SQRT_PI_INV * (1 / sqrt s) * - e * (e * (s * L))) with (- (SQRT_PI_INV * (1 / sqrt s) * (s * L)))
    by (replace (SQRT_PI_INV * (1 / sqrt s) * - e * (e * (s * L))) with (- (e * e) * (SQRT_PI_INV * (1 / sqrt s) * (s * L))) by ring; rewrite EE; ring).
  rewrite root_arg by assumption. rewrite Rmult_0_r, fresnelS_0, fresnelC_0, fresnelS_odd, fresnelC_odd.
  assert (K : st_theta st - 1 / 2 * d * (e * (s * L)) * (e * (s * L)) / (- e * s) = st_theta st + d * e * cl_t s L).
  { unfold cl_t. destruct E as [->| ->]; field; lra. }
  rewrite K. unfold pst; cbn [st_x st_y st_theta st_kappa]. split; [|ring].
  unfold peq, pmul, mir, D_out; cbn [px py pt]. fold (cl_x s L) (cl_y s L).
  rewrite cos_plus, sin_plus, (cos_pm (d * e)), (sin_pm (d * e)) by (apply pm1_mul; assumption).
  unfold cl_x, cl_y, cl_t. repeat split.
  - destruct D as [->| ->], E as [->| ->]; ring.
  - destruct D as [->| ->], E as [->| ->]; ring.
  - eapply ang_eq_trans; [apply pify_ang|]. apply ang_eq_of_eq. field.
Qed.

Lemma move_arc st d e k l : pm1 d -> pm1 e -> 0 < k ->
  peq (pst (lib_move st (mkControl (d * l) (e * k) 0))) (pmul (pst st) (mir d e (D_arc k (k * l)))) /\
  st_kappa (lib_move st (mkControl (d * l) (e * k) 0)) = e * k.
Proof.
  intros D E K. unfold lib_move, drive; cbn [ct_delta_s ct_kappa ct_sigma].
  destruct (Req_EM_T 0 0) as [_|N]; [|lra].
  destruct (Req_EM_T (e * k) 0) as [Z|_]; [destruct E as [->| ->]; lra|].
  unfold pst; cbn [st_x st_y st_theta st_kappa]. split; [|reflexivity].
  unfold peq, pmul, mir, D_arc; cbn [px py pt].
  replace (e * k * (d * l)) with (d * e * (k * l)) by ring.
  rewrite cos_plus, sin_plus, (cos_pm (d * e)), (sin_pm (d * e)) by (apply pm1_mul; assumption).
  repeat split; [| |apply ang_eq_refl]; destruct D as [->| ->], E as [->| ->]; field; lra.
Qed.

Lemma move_line st l :
  peq (pst (lib_move st (mkControl l 0 0))) (pmul (pst st) (mkPose l 0 0)) /\
  st_kappa (lib_move st (mkControl l 0 0)) = 0.
Proof.
  unfold lib_move, drive; cbn [ct_delta_s ct_kappa ct_sigma].
  destruct (Req_EM_T 0 0) as [_|N]; [|lra]. destruct (Req_EM_T 0 0) as [_|N]; [|lra].
  unfold pst; cbn [st_x st_y st_theta st_kappa]. split; [|reflexivity].
  unfold peq, pmul; cbn [px py pt]. repeat split; [ring|ring|]. apply ang_eq_of_eq. ring.
Qed.

(** ** Displacement of a turn *)
Definition D_cc (X Y t : R) : Pose := mkPose (X + X * cos t + Y * sin t) (Y + X * sin t - Y * cos t) t.
Definition D_hc (X Y k t : R) : Pose := mkPose (X + sin t / k) (Y - cos t / k) t.

Lemma D_hc_eq a b t k be : 0 < k ->
  pmul (D_in a b t) (D_arc k be) = D_hc (a - sin t / k) (b + cos t / k) k (t + be).
Proof.
  intros K. unfold pmul, D_in, D_arc, D_hc; cbn [px py pt]. rewrite cos_plus, sin_plus. f_equal; field; lra.
Qed.
Lemma D_cc_eq a b t k be : 0 < k ->
  pmul (pmul (D_in a b t) (D_arc k be)) (D_out a b t) = D_cc (a - sin t / k) (b + cos t / k) (2 * t + be).
Proof.
  intros K. rewrite D_hc_eq by exact K. unfold pmul, D_hc, D_out, D_cc; cbn [px py pt].
  replace (2 * t + be) with (t + be + t) by ring. rewrite (cos_plus (t + be) t), (sin_plus (t + be) t).
  pose proof (sin2_cos2' t) as T.
  generalize (cos (t + be)) (sin (t + be)). intros c s. f_equal.
  - replace (s / k) with (s * (sin t * sin t + cos t * cos t) / k) by (rewrite T; field; lra). field; lra.
  - replace (c / k) with (c * (sin t * sin t + cos t * cos t) / k) by (rewrite T; field; lra). field; lra.
Qed.
Lemma D_el_eq a b t :
  pmul (D_in a b t) (D_out a b t) = mkPose (2 * (cos t * a + sin t * b) * cos t) (2 * (cos t * a + sin t * b) * sin t) (2 * t).
Proof.
  unfold pmul, D_in, D_out; cbn [px py pt]. pose proof (sin2_cos2' t) as T. f_equal.
  - replace (cos t * cos t) with (1 - sin t * sin t) by lra.
    transitivity (a * (sin t * sin t + cos t * cos t) + (a * cos t + b * sin t) * cos t - (a * sin t - b * cos t) * sin t); [rewrite T; ring|ring].
  - transitivity (b * (sin t * sin t + cos t * cos t) + (a * cos t + b * sin t) * sin t + (a * sin t - b * cos t) * cos t); [rewrite T; ring|ring].
  - ring.
Qed.
(** A cc-turn is a straight displacement along half the deflection. *)
Lemma D_cc_chord X Y t : let A := 2 * (X * cos (t / 2) + Y * sin (t / 2)) in
  D_cc X Y t = mkPose (A * cos (t / 2)) (A * sin (t / 2)) t.
Proof.
  intros A. unfold A, D_cc. set (h := t / 2). replace t with (h + h) by (unfold h; field).
  rewrite cos_plus, sin_plus. pose proof (sin2_cos2' h) as T. f_equal.
  - transitivity (X * (sin h * sin h + cos h * cos h) + X * (cos h * cos h - sin h * sin h) + Y * (sin h * cos h + cos h * sin h)); [rewrite T; ring|ring].
  - transitivity (Y * (sin h * sin h + cos h * cos h) + X * (sin h * cos h + cos h * sin h) - Y * (cos h * cos h - sin h * sin h)); [rewrite T; ring|ring].
Qed.
(** Driving a chord displacement and then the same one in the opposite direction leads back. *)
Lemma chord_back A d e t : pm1 d -> pm1 e ->
  let D := mkPose (A * cos (t / 2)) (A * sin (t / 2)) t in
  pmul (mir d e D) (mir (- d) e D) = mkPose 0 0 0.
Proof.
  intros P Q D. unfold D, pmul, mir; cbn [px py pt].
  rewrite (cos_pm (d * e)), (sin_pm (d * e)) by (apply pm1_mul; assumption).
  set (h := t / 2). replace t with (h + h) by (unfold h; field). rewrite cos_plus, sin_plus.
  pose proof (sin2_cos2' h) as T. f_equal.
  - transitivity (d * A * cos h * (1 - (sin h * sin h + cos h * cos h)) - (e * e - 1) * d * A * sin h * (2 * sin h * cos h)); [|rewrite T, (pm1_sq e Q); ring]. ring_simplify.
    destruct P as [->| ->], Q as [->| ->]; ring.
  - transitivity (e * A * sin h * (1 - (sin h * sin h + cos h * cos h))); [|rewrite T; ring].
    destruct P as [->| ->], Q as [->| ->]; ring.
  - ring.
Qed.

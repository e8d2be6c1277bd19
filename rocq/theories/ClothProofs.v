(** * Clothoids and their derivatives *)
From Coq Require Import Reals ZArith List Bool Lra Lia Psatz.
From Coquelicot Require Import Coquelicot.
From Verif Require Import Base ModelUtil ModelFresnel ModelIntegrate ModelEKF Num SpecPath SpecFresnel SpecCloth FresPoly FresAcc FresProofs FresFinal
  UtilProofs IntegrateProofs.
Open Scope R_scope.

(** The formulas of end_of_clothoid over arbitrary Fresnel functions. *)
Section cl.
  Variables (fS fC : R -> R).
  Definition w1 (th k sg d : R) : R := th - (1 / 2) * d * k * k / sg.
  Definition w2 (k sg h : R) : R := SQRT_PI_INV * (1 / sqrt (Rabs sg)) * (Rabs sg * h + sgn sg * k).
  Definition w3 (k sg : R) : R := SQRT_PI_INV * (1 / sqrt (Rabs sg)) * sgn sg * k.
  Definition dx (th k sg d h : R) : R :=
    SQRT_PI * (1 / sqrt (Rabs sg)) *
    (d * cos (w1 th k sg d) * (fC (w2 k sg h) - fC (w3 k sg)) - sgn sg * sin (w1 th k sg d) * (fS (w2 k sg h) - fS (w3 k sg))).
  Definition dy (th k sg d h : R) : R :=
    SQRT_PI * (1 / sqrt (Rabs sg)) *
    (d * sin (w1 th k sg d) * (fC (w2 k sg h) - fC (w3 k sg)) + sgn sg * cos (w1 th k sg d) * (fS (w2 k sg h) - fS (w3 k sg))).
End cl.

Lemma clothoid_eq x y th k sg d h :
  end_of_clothoid x y th k sg d h =
  (x + dx fresnelS fresnelC th k sg d h, y + dy fresnelS fresnelC th k sg d h,
   pify (th + k * d * h + (1 / 2) * sg * d * h * h), k + sg * h).
Proof. reflexivity. Qed.

Lemma w3_w2 k sg : w3 k sg = w2 k sg 0.
Proof. unfold w3, w2. ring. Qed.

Section exact.
  Variables (sg d : R).
  Hypothesis SG : sg <> 0.
  Hypothesis D1 : d * d = 1.

  Lemma root_facts : exists r q, 0 < r /\ 0 < q /\ sqrt (Rabs sg) = r /\ sqrt PI = q /\ Rabs sg = r * r /\ PI = q * q.
  Proof.
    pose proof PI_gt. assert (0 < Rabs sg) by (apply Rabs_pos_lt; exact SG).
    exists (sqrt (Rabs sg)), (sqrt PI). repeat split; try (apply sqrt_lt_R0; lra); symmetry; apply sqrt_sqrt; lra.
  Qed.

  Lemma phase th k h : w1 th k sg d + d * (sgn sg * xx (w2 k sg h)) = heading th k sg d h.
  Proof.
    destruct root_facts as (r & q & R0 & Q0 & Er & Eq & Ea & Ep).
    pose proof (sgn_abs sg) as A. rewrite Ea in A. pose proof (sgn_sq sg) as G.
    unfold w1, w2, heading, xx, SQRT_PI_INV. rewrite Er, Eq, Ea, Ep.
    set (g := sgn sg) in *. rewrite <- A.
    replace (d * (g * (q * q / 2 * (/ q * (1 / r) * (r * r * h + g * k)) ^ 2)))
      with (d * (g * (r * r * h + g * k) ^ 2 / (2 * (r * r)))) by (field; lra).
    assert (GI : / g = g) by (apply Rmult_eq_reg_l with g; [rewrite Rinv_r; nra|nra]).
    unfold Rdiv. rewrite !Rinv_mult, GI.
    replace (d * (g * (r * r * h + g * k) ^ 2 * (/ 2 * (/ r * / r)))) with
      (d * (g * r ^ 2 * h ^ 2 / 2 + (g * g) * h * k + (g * g) * g * k ^ 2 * / 2 * (/ r * / r))) by (field; lra).
    rewrite G. generalize (/ r * / r). intros w. field.
  Qed.

  Lemma d_cases : d = 1 \/ d = -1.
  Proof. destruct (Rle_dec 0 d); [left|right]; nra. Qed.

  Lemma cos_phase a g f : g * g = 1 -> cos (a + d * (g * f)) = cos a * cos f - d * g * (sin a * sin f).
  Proof.
    intros G. assert (C : d * g = 1 \/ d * g = -1) by (destruct d_cases; destruct (Rle_dec 0 g); [left|right|right|left]; nra).
    replace (d * (g * f)) with (d * g * f) by ring. rewrite cos_plus.
    destruct C as [C|C]; rewrite C; [rewrite Rmult_1_l; ring|].
    replace (-1 * f) with (- f) by ring. rewrite cos_neg, sin_neg. ring.
  Qed.
  Lemma sin_phase a g f : g * g = 1 -> sin (a + d * (g * f)) = sin a * cos f + d * g * (cos a * sin f).
  Proof.
    intros G. assert (C : d * g = 1 \/ d * g = -1) by (destruct d_cases; destruct (Rle_dec 0 g); [left|right|right|left]; nra).
    replace (d * (g * f)) with (d * g * f) by ring. rewrite sin_plus.
    destruct C as [C|C]; rewrite C; [rewrite Rmult_1_l; ring|].
    replace (-1 * f) with (- f) by ring. rewrite cos_neg, sin_neg. ring.
  Qed.

  Lemma d_w2_h k h : is_derive (fun h => w2 k sg h) h (sqrt (Rabs sg) / sqrt PI).
  Proof.
    destruct root_facts as (r & q & R0 & Q0 & Er & Eq & Ea & Ep). unfold w2, SQRT_PI_INV. rewrite Er, Eq, Ea.
    auto_derive; [exact I|]. field. lra.
  Qed.
  Lemma d_FC_h k h : is_derive (fun h => FresnelC (w2 k sg h)) h (sqrt (Rabs sg) / sqrt PI * cos (xx (w2 k sg h))).
  Proof. apply (is_derive_comp FresnelC (fun h => w2 k sg h)); [apply is_derive_FC|apply d_w2_h]. Qed.
  Lemma d_FS_h k h : is_derive (fun h => FresnelS (w2 k sg h)) h (sqrt (Rabs sg) / sqrt PI * sin (xx (w2 k sg h))).
  Proof. apply (is_derive_comp FresnelS (fun h => w2 k sg h)); [apply is_derive_FS|apply d_w2_h]. Qed.

  Lemma lin_comb (f g : R -> R) (h df dg c a b c1 c2 : R) : is_derive f h df -> is_derive g h dg ->
    is_derive (fun h => c * (a * (f h - c1) + b * (g h - c2))) h (c * (a * df + b * dg)).
  Proof.
    intros F G. auto_derive; [repeat split; eexists; eassumption|].
    replace (Derive (fun x : R => f x) h) with df by (symmetry; apply is_derive_unique; exact F).
    replace (Derive (fun x : R => g x) h) with dg by (symmetry; apply is_derive_unique; exact G). ring.
  Qed.

  Lemma d_dx_h th k h : is_derive (fun h => dx FresnelS FresnelC th k sg d h) h (d * cos (heading th k sg d h)).
  Proof.
    destruct root_facts as (r & q & R0 & Q0 & Er & Eq & Ea & Ep). unfold dx.
    eapply is_derive_ext; [|evar_last; [apply (lin_comb (fun h => FresnelC (w2 k sg h)) (fun h => FresnelS (w2 k sg h)) h _ _
      (SQRT_PI * (1 / sqrt (Rabs sg))) (d * cos (w1 th k sg d)) (- (sgn sg * sin (w1 th k sg d)))
      (FresnelC (w3 k sg)) (FresnelS (w3 k sg)) (d_FC_h k h) (d_FS_h k h))|]].
    - intros t. cbv beta. apply (f_equal (Rmult _)). apply Rplus_eq_compat_l. symmetry. apply Ropp_mult_distr_l.
    - rewrite <- (phase th k h), cos_phase by apply sgn_sq. unfold SQRT_PI. rewrite Er, Eq.
      set (C := cos (w1 th k sg d)). set (S := sin (w1 th k sg d)).
      replace (d * (C * cos (xx (w2 k sg h)) - d * sgn sg * (S * sin (xx (w2 k sg h))))) with
        (d * C * cos (xx (w2 k sg h)) - (d * d) * sgn sg * (S * sin (xx (w2 k sg h)))) by ring.
      rewrite D1. field. lra.
  Qed.
  Lemma d_dy_h th k h : is_derive (fun h => dy FresnelS FresnelC th k sg d h) h (d * sin (heading th k sg d h)).
  Proof.
    destruct root_facts as (r & q & R0 & Q0 & Er & Eq & Ea & Ep). unfold dy.
    evar_last; [apply (lin_comb (fun h => FresnelC (w2 k sg h)) (fun h => FresnelS (w2 k sg h)) h _ _
      (SQRT_PI * (1 / sqrt (Rabs sg))) (d * sin (w1 th k sg d)) (sgn sg * cos (w1 th k sg d))
      (FresnelC (w3 k sg)) (FresnelS (w3 k sg)) (d_FC_h k h) (d_FS_h k h))|].
    rewrite <- (phase th k h), sin_phase by apply sgn_sq. unfold SQRT_PI. rewrite Er, Eq.
    set (C := cos (w1 th k sg d)). set (S := sin (w1 th k sg d)).
    replace (d * (S * cos (xx (w2 k sg h)) + d * sgn sg * (C * sin (xx (w2 k sg h))))) with
      (d * S * cos (xx (w2 k sg h)) + (d * d) * sgn sg * (C * sin (xx (w2 k sg h)))) by ring.
    rewrite D1. field. lra.
  Qed.
End exact.

Lemma cont_cos_heading th k sg d u : continuous (fun u => d * cos (heading th k sg d u)) u.
Proof. apply (ex_derive_continuous (fun u => d * cos (heading th k sg d u)) u). unfold heading. auto_derive. exact I. Qed.
Lemma cont_sin_heading th k sg d u : continuous (fun u => d * sin (heading th k sg d u)) u.
Proof. apply (ex_derive_continuous (fun u => d * sin (heading th k sg d u)) u). unfold heading. auto_derive. exact I. Qed.

(** A primitive that vanishes at 0 is the integral. *)
Lemma int_of_primitive (F f : R -> R) h : (forall u, is_derive F u (f u)) -> (forall u, continuous f u) -> F 0 = 0 ->
  RInt f 0 h = F h.
Proof.
  intros D K Z. assert (I : is_RInt f 0 h (minus (F h) (F 0))).
  { apply (is_RInt_derive F f); intros; auto. }
  apply (is_RInt_unique f 0 h) in I. rewrite I, Z. unfold minus, plus, opp. cbn. ring.
Qed.

Lemma true_x_clothoid x th k sg d h : sg <> 0 -> d * d = 1 -> true_x x th k sg d h = x + dx FresnelS FresnelC th k sg d h.
Proof.
  intros SG D. unfold true_x. f_equal. apply int_of_primitive.
  - intros u. apply d_dx_h; assumption.
  - apply cont_cos_heading.
  - unfold dx. rewrite w3_w2. ring.
Qed.
Lemma true_y_clothoid x th k sg d h : sg <> 0 -> d * d = 1 -> true_y x th k sg d h = x + dy FresnelS FresnelC th k sg d h.
Proof.
  intros SG D. unfold true_y. f_equal. apply int_of_primitive.
  - intros u. apply d_dy_h; assumption.
  - apply cont_sin_heading.
  - unfold dy. rewrite w3_w2. ring.
Qed.

(** ** Accuracy of end_of_clothoid *)
Lemma diff_acc a b : Rabs (fresnelC a - fresnelC b - (FresnelC a - FresnelC b)) <= 4 / 10 ^ 15 /\
  Rabs (fresnelS a - fresnelS b - (FresnelS a - FresnelS b)) <= 4 / 10 ^ 15.
Proof.
  destruct (accuracy a) as [A B], (accuracy b) as [A' B'].
  apply Rabs_le_between in A, B, A', B'. split; apply Rabs_le; lra.
Qed.

Lemma comb_acc u v a b e : Rabs u <= 1 -> Rabs v <= 1 -> Rabs a <= e -> Rabs b <= e -> Rabs (u * a + v * b) <= 2 * e.
Proof.
  intros. eapply Rle_trans; [apply Rabs_triang|]. rewrite !Rabs_mult.
  pose proof (Rabs_pos u). pose proof (Rabs_pos v). pose proof (Rabs_pos a). pose proof (Rabs_pos b). nra.
Qed.
Lemma unit_prod u v : Rabs u = 1 -> Rabs v <= 1 -> Rabs (u * v) <= 1.
Proof. intros. rewrite Rabs_mult, H. lra. Qed.

Lemma root_quot sg : sg <> 0 -> SQRT_PI * (1 / sqrt (Rabs sg)) = sqrt (PI / Rabs sg).
Proof.
  intros S. pose proof PI_gt. assert (0 < Rabs sg) by (apply Rabs_pos_lt; exact S).
  unfold SQRT_PI. rewrite sqrt_div_alt by lra. field. apply Rgt_not_eq, sqrt_lt_R0. lra.
Qed.

Lemma dx_acc th k sg d h : sg <> 0 -> Rabs d = 1 ->
  Rabs (dx fresnelS fresnelC th k sg d h - dx FresnelS FresnelC th k sg d h) <= sqrt (PI / Rabs sg) * (8 / 10 ^ 15).
Proof.
  intros SG D. unfold dx. rewrite (root_quot sg SG). destruct (diff_acc (w2 k sg h) (w3 k sg)) as [A B].
  rewrite <- Rmult_minus_distr_l, Rabs_mult, (Rabs_pos_eq (sqrt _)) by apply sqrt_pos.
  apply Rmult_le_compat_l; [apply sqrt_pos|].
  match goal with |- Rabs (d * ?c * ?a - sgn sg * ?s * ?b - (d * ?c * ?a' - sgn sg * ?s * ?b')) <= _ =>
    replace (d * c * a - sgn sg * s * b - (d * c * a' - sgn sg * s * b')) with ((d * c) * (a - a') + (- sgn sg * s) * (b - b')) by ring end.
  replace (8 / 10 ^ 15) with (2 * (4 / 10 ^ 15)) by field.
  apply comb_acc; auto; apply unit_prod; auto; try apply abs_cos; try apply abs_sin. rewrite Rabs_Ropp. apply sgn_abs1.
Qed.
Lemma dy_acc th k sg d h : sg <> 0 -> Rabs d = 1 ->
  Rabs (dy fresnelS fresnelC th k sg d h - dy FresnelS FresnelC th k sg d h) <= sqrt (PI / Rabs sg) * (8 / 10 ^ 15).
Proof.
  intros SG D. unfold dy. rewrite (root_quot sg SG). destruct (diff_acc (w2 k sg h) (w3 k sg)) as [A B].
  rewrite <- Rmult_minus_distr_l, Rabs_mult, (Rabs_pos_eq (sqrt _)) by apply sqrt_pos.
  apply Rmult_le_compat_l; [apply sqrt_pos|].
  match goal with |- Rabs (d * ?c * ?a + sgn sg * ?s * ?b - (d * ?c * ?a' + sgn sg * ?s * ?b')) <= _ =>
    replace (d * c * a + sgn sg * s * b - (d * c * a' + sgn sg * s * b')) with ((d * c) * (a - a') + (sgn sg * s) * (b - b')) by ring end.
  replace (8 / 10 ^ 15) with (2 * (4 / 10 ^ 15)) by field.
  apply comb_acc; auto; apply unit_prod; auto; try apply abs_cos; try apply abs_sin. apply sgn_abs1.
Qed.

Lemma dir_sq d : d = 1 \/ d = -1 -> d * d = 1 /\ Rabs d = 1.
Proof. intros [E|E]; subst; split; try ring; [apply Rabs_R1|]. rewrite Rabs_left; lra. Qed.

Lemma clothoid_ode x y th k sg d h X Y T K : sg <> 0 -> d = 1 \/ d = -1 ->
  end_of_clothoid x y th k sg d h = (X, Y, T, K) ->
  Rabs (X - true_x x th k sg d h) <= sqrt (PI / Rabs sg) * (8 / 10 ^ 15) /\
  Rabs (Y - true_y y th k sg d h) <= sqrt (PI / Rabs sg) * (8 / 10 ^ 15) /\
  (exists n : Z, T = heading th k sg d h + 2 * PI * IZR n) /\ K = k + sg * h.
Proof.
  intros SG D. destruct (dir_sq d D) as [D1 D2]. rewrite clothoid_eq. intros E.
  assert (EX := f_equal (fun p => fst (fst (fst p))) E). assert (EY := f_equal (fun p => snd (fst (fst p))) E).
  assert (ET := f_equal (fun p => snd (fst p)) E). assert (EK := f_equal snd E). cbv beta in EX, EY, ET.
  cbn [fst snd] in EX, EY, ET, EK. clear E. subst X Y T K.
  split; [|split; [|split; [|reflexivity]]].
  - rewrite true_x_clothoid by assumption.
    match goal with |- Rabs (?a + ?b - (?a + ?c)) <= _ => replace (a + b - (a + c)) with (b - c) by ring end. apply dx_acc; assumption.
  - rewrite true_y_clothoid by assumption.
    match goal with |- Rabs (?a + ?b - (?a + ?c)) <= _ => replace (a + b - (a + c)) with (b - c) by ring end. apply dy_acc; assumption.
  - destruct (pify_ang (th + k * d * h + 1 / 2 * sg * d * h * h)) as (n & En). 
    exists n. rewrite En. unfold heading. field.
Qed.

Lemma clothoid_start x y th k sg d : exists n : Z,
  end_of_clothoid x y th k sg d 0 = (x, y, th + 2 * PI * IZR n, k).
Proof.
  rewrite clothoid_eq. destruct (pify_ang (th + k * d * 0 + 1 / 2 * sg * d * 0 * 0)) as (n & En). exists n.
  unfold dx, dy. rewrite w3_w2. f_equal; [f_equal; [f_equal; ring|]|ring]. rewrite En. ring.
Qed.

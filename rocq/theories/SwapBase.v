(** * The pieces of the HC/CC planners with start and goal exchanged *)
From Coq Require Import Reals ZArith List Lra Lia Bool.
From Verif Require Import Base ModelUtil ModelIntegrate ModelCircle ModelPaths Num UtilProofs DubinsOpt SpecPath SpecTurn PoseAlg TurnProofs MotionProofs TurnBounds LegProofs TangentProofs PlanProofs PlanFamily PlanTactics RigidBase RigidTactics.
Import ListNotations.
Open Scope R_scope.

(** The same pose, with any curvature. *)
Definition qs (a b : Configuration) : Prop := q_x a = q_x b /\ q_y a = q_y b /\ ang_eq (q_theta a) (q_theta b).
Lemma qs_refl a : qs a a.
Proof. split; [|split]; [reflexivity|reflexivity|apply ang_eq_refl]. Qed.
Lemma qs_sym a b : qs a b -> qs b a.
Proof. intros (X & Y & T). split; [|split]; [symmetry; exact X|symmetry; exact Y|apply ang_eq_sym, T]. Qed.
Lemma qs_trans a b c : qs a b -> qs b c -> qs a c.
Proof. intros (X & Y & T) (X' & Y' & T'). split; [|split]; [congruence|congruence|eapply ang_eq_trans; eassumption]. Qed.
Lemma qs_conf x y t k x' y' t' k' : x = x' -> y = y' -> ang_eq t t' -> qs (configuration x y t k) (configuration x' y' t' k').
Proof.
  intros -> -> A. split; [|split]; [reflexivity|reflexivity|]. cbn [configuration q_theta].
  eapply ang_eq_trans; [apply twopify_ang|]. eapply ang_eq_trans; [exact A|]. apply ang_eq_sym, twopify_ang.
Qed.
Lemma qs_copy a b k : qs a b -> qs (configuration (q_x a) (q_y a) (q_theta a) k) b.
Proof.
  intros (X & Y & T). split; [|split]; [exact X|exact Y|]. cbn [configuration q_theta]. eapply ang_eq_trans; [apply twopify_ang|exact T].
Qed.
Lemma qs_copy' a b k : qs a b -> qs a (configuration (q_x b) (q_y b) (q_theta b) k).
Proof. intros H. apply qs_sym, qs_copy, qs_sym, H. Qed.

(** ** Lengths *)
Definition same_par (c c' : Circle) : Prop :=
  c_left c = c_left c' /\ c_forward c = c_forward c' /\ c_regular c = c_regular c' /\ c_kappa c = c_kappa c' /\ c_kappa_inv c = c_kappa_inv c' /\
  c_sigma c = c_sigma c' /\ c_radius c = c_radius c' /\ c_sin_mu c = c_sin_mu c' /\ c_delta_min c = c_delta_min c'.
Lemma defl_qs c c' q q' : qs (c_start c) (c_start c') -> same_par c c' -> qs q q' -> deflection c q = deflection c' q'.
Proof.
  intros (_ & _ & T) (L & F & _) (_ & _ & T'). unfold deflection. rewrite L, F. destruct ((c_left c' && c_forward c') || _); apply twopify_congr, ang_eq_sub; assumption.
Qed.
Lemma rs_len_qs c c' q q' : qs (c_start c) (c_start c') -> same_par c c' -> qs q q' -> rs_turn_length c q = rs_turn_length c' q'.
Proof.
  intros S P Q. pose proof (defl_qs c c' q q' S P Q) as E. destruct P as (L & F & G & K & KI & SI & R & M & DM). unfold rs_turn_length, rs_circular_deflection. rewrite E, G, KI. reflexivity.
Qed.
Lemma hc_len_qs c c' q q' : qs (c_start c) (c_start c') -> same_par c c' -> qs q q' -> hc_turn_length c q = hc_turn_length c' q'.
Proof.
  intros S P Q. pose proof (defl_qs c c' q q' S P Q) as E. destruct P as (L & F & G & K & KI & SI & R & M & DM). unfold hc_turn_length, hc_circular_deflection. rewrite E, G, K, KI, SI, DM. reflexivity.
Qed.
Lemma cc_len_qs c c' q q' : qs (c_start c) (c_start c') -> same_par c c' -> qs q q' -> cc_turn_length c q = cc_turn_length c' q'.
Proof.
  intros S P Q. pose proof (defl_qs c c' q q' S P Q) as E. destruct P as (L & F & G & K & KI & SI & R & M & DM). unfold cc_turn_length, cc_circular_deflection, cc_elementary_sharpness.
  destruct S as (X & Y & _), Q as (X' & Y' & _). rewrite E, G, K, KI, SI, DM, R, M, L, X, Y, X', Y'. reflexivity.
Qed.
Lemma cd_qs a b a' b' : qs a b' -> qs b a' -> configuration_distance a b = configuration_distance a' b'.
Proof.
  intros (X & Y & _) (X' & Y' & _). unfold configuration_distance, point_distance. rewrite X, Y, X', Y'. f_equal. ring.
Qed.
Lemma par_circle q q' l f r p : same_par (circle q l f r p) (circle q' l f r p).
Proof.
  destruct (circle_all q l f r p) as (S & L & F & G & A & B & C & E & H & I). destruct (circle_all q' l f r p) as (S' & L' & F' & G' & A' & B' & C' & E' & H' & I').
  unfold same_par. rewrite L, F, G, A, C, H, I, L', F', G', A', C', H', I'. unfold circle. destruct l, f; repeat (destruct (global_frame_change _ _ _ _ _)); cbn; repeat split; reflexivity.
Qed.
Lemma start_circle q l f r p : c_start (circle q l f r p) = q.
Proof. apply circle_all. Qed.
Lemma rs_len_start a b l f r p q q' : qs a b -> qs q q' -> rs_turn_length (circle a l f r p) q = rs_turn_length (circle b l f r p) q'.
Proof. intros S Q. apply rs_len_qs; [rewrite !start_circle; exact S|apply par_circle|exact Q]. Qed.
Lemma hc_len_start a b l f r p q q' : qs a b -> qs q q' -> hc_turn_length (circle a l f r p) q = hc_turn_length (circle b l f r p) q'.
Proof. intros S Q. apply hc_len_qs; [rewrite !start_circle; exact S|apply par_circle|exact Q]. Qed.
Lemma cc_len_start a b l f r p q q' : qs a b -> qs q q' -> cc_turn_length (circle a l f r p) q = cc_turn_length (circle b l f r p) q'.
Proof. intros S Q. apply cc_len_qs; [rewrite !start_circle; exact S|apply par_circle|exact Q]. Qed.
Lemma par_self c : same_par c c.
Proof. unfold same_par. repeat split; reflexivity. Qed.

(** The same turn in the other direction. *)
Lemma par_back q q' l f f' r p : let c := circle q l f r p in let c' := circle q' l f' r p in
  c_left c = c_left c' /\ c_regular c = c_regular c' /\ c_kappa c = c_kappa c' /\ c_kappa_inv c = c_kappa_inv c' /\
  c_sigma c = c_sigma c' /\ c_radius c = c_radius c' /\ c_sin_mu c = c_sin_mu c' /\ c_delta_min c = c_delta_min c'.
Proof. unfold circle. destruct l, f, f'; repeat (destruct (global_frame_change _ _ _ _ _)); cbn; repeat split; reflexivity. Qed.
Lemma defl_back a b l f r p q q' : qs a q' -> qs q b -> deflection (circle a l f r p) q = deflection (circle b l (negb f) r p) q'.
Proof.
  intros (_ & _ & T) (_ & _ & T'). unfold deflection. rewrite !start_circle.
  assert (L : forall x g, c_left (circle x l g r p) = l) by (intros; apply circle_all). assert (F : forall x g, c_forward (circle x l g r p) = g) by (intros; apply circle_all).
  rewrite !L, !F. destruct l, f; cbn [andb orb negb]; apply twopify_congr, ang_eq_sub; assumption.
Qed.
Lemma rs_len_back a b l f r p q q' : qs a q' -> qs q b -> rs_turn_length (circle a l f r p) q = rs_turn_length (circle b l (negb f) r p) q'.
Proof.
  intros S Q. pose proof (defl_back a b l f r p q q' S Q) as E. destruct (par_back a b l f (negb f) r p) as (L & G & K & KI & SI & R & M & DM). unfold rs_turn_length, rs_circular_deflection. rewrite E, G, KI. reflexivity.
Qed.
Lemma hc_len_back a b l f r p q q' : qs a q' -> qs q b -> hc_turn_length (circle a l f r p) q = hc_turn_length (circle b l (negb f) r p) q'.
Proof.
  intros S Q. pose proof (defl_back a b l f r p q q' S Q) as E. destruct (par_back a b l f (negb f) r p) as (L & G & K & KI & SI & R & M & DM). unfold hc_turn_length, hc_circular_deflection. rewrite E, G, K, KI, SI, DM. reflexivity.
Qed.
Lemma cc_len_back a b l f r p q q' : qs a q' -> qs q b -> cc_turn_length (circle a l f r p) q = cc_turn_length (circle b l (negb f) r p) q'.
Proof.
  intros S Q. pose proof (defl_back a b l f r p q q' S Q) as E. destruct (par_back a b l f (negb f) r p) as (L & G & K & KI & SI & R & M & DM). unfold cc_turn_length, cc_circular_deflection, cc_elementary_sharpness.
  rewrite !start_circle. destruct S as (X & Y & _), Q as (X' & Y' & _). rewrite E, G, K, KI, SI, DM, R, M, L, X, Y, X', Y'.
  replace (point_distance (q_x q') (q_y q') (q_x b) (q_y b)) with (point_distance (q_x b) (q_y b) (q_x q') (q_y q')) by (unfold point_distance; f_equal; ring). reflexivity.
Qed.

(** ** Tangents *)
Lemma center_flip c1 c2 : center_distance c2 c1 = center_distance c1 c2.
Proof. unfold center_distance. f_equal. ring. Qed.
Lemma atan_flip c1 c2 : center_distance c1 c2 <> 0 -> ang_eq (atan2 (c_yc c1 - c_yc c2) (c_xc c1 - c_xc c2)) (atan2 (c_yc c2 - c_yc c1) (c_xc c2 - c_xc c1) + PI).
Proof.
  intros N. set (dx := c_xc c2 - c_xc c1). set (dy := c_yc c2 - c_yc c1).
  replace (c_yc c1 - c_yc c2) with (dx * sin PI + dy * cos PI) by (rewrite sin_PI, cos_PI; unfold dx, dy; ring).
  replace (c_xc c1 - c_xc c2) with (dx * cos PI - dy * sin PI) by (rewrite sin_PI, cos_PI; unfold dx, dy; ring).
  apply atan2_rot. unfold center_distance in N. fold dx dy in N. destruct (Req_dec dx 0) as [A|A]; [|auto]. destruct (Req_dec dy 0) as [B|B]; [|auto]. exfalso. apply N. rewrite A, B.
  replace (0 ^ 2 + 0 ^ 2) with 0 by ring. apply sqrt_0.
Qed.
Definition same_centre (c c' : Circle) : Prop := c_xc c' = c_xc c /\ c_yc c' = c_yc c.
Lemma same_self c : same_centre c c.
Proof. split; reflexivity. Qed.
Definition flip2 (p : Configuration * Configuration) := (snd p, fst p).

Ltac flip_ang A :=
  let n := fresh "n" in let E := fresh "E" in destruct A as [n E]; rewrite ?E; unfold HALF_PI;
  first [exists n; lra | exists (n + 1)%Z; rewrite plus_IZR; lra | exists (n - 1)%Z; rewrite minus_IZR; lra].
Lemma gTT_swap mu c1 c2 c1' c2' : far 1 c1 c2 -> c_left c2' = negb (c_left c1) -> c_forward c2' = negb (c_forward c1) -> same_centre c1 c1' -> same_centre c2 c2' ->
  gTT mu c2' c1' = gTT mu c1 c2.
Proof.
  intros [Z|N] L F [X1 Y1] [X2 Y2]; [lra|]. pose proof (atan_flip c1 c2 N) as A. unfold gTT. rewrite L, F, X1, Y1, X2, Y2.
  set (a' := atan2 (c_yc c1 - c_yc c2) (c_xc c1 - c_xc c2)) in *. set (a := atan2 (c_yc c2 - c_yc c1) _) in *.
  unfold configuration. f_equal; [field|field|]. apply twopify_congr.
  destruct (c_left c1), (c_forward c1); cbn [negb]; flip_ang A.
Qed.
Lemma flip_cos T t : ang_eq T (t + PI) -> cos T = - cos t.
Proof. intros A. rewrite (ang_eq_cos _ _ A). apply neg_cos. Qed.
Lemma flip_sin T t : ang_eq T (t + PI) -> sin T = - sin t.
Proof. intros A. rewrite (ang_eq_sin _ _ A). apply neg_sin. Qed.
Lemma gfc_flip x y T t a b : ang_eq T (t + PI) -> global_frame_change x y T a b = global_frame_change x y t (- a) (- b).
Proof. intros A. unfold global_frame_change. rewrite (flip_cos _ _ A), (flip_sin _ _ A). f_equal; ring. Qed.
Lemma gTcT_swap kap kap' dy c1 c2 c1' c2' : far 1 c1 c2 -> c_left c2' = negb (c_left c1) -> c_forward c2' = c_forward c1 -> same_centre c1 c1' -> same_centre c2 c2' ->
  qs (gTcT kap' dy c2' c1') (gTcT kap dy c1 c2).
Proof.
  intros [Z|N] L F [X1 Y1] [X2 Y2]; [lra|]. pose proof (atan_flip c1 c2 N) as A. destruct (centres c1 c2) as (_ & X & Y). unfold gTcT.
  assert (CE : center_distance c2' c1' = center_distance c1 c2) by (unfold center_distance; rewrite X1, X2, Y1, Y2; f_equal; ring). rewrite CE, L, F, X1, Y1, X2, Y2.
  set (a' := atan2 (c_yc c1 - c_yc c2) (c_xc c1 - c_xc c2)) in *. set (a := atan2 (c_yc c2 - c_yc c1) _) in *. pose proof (flip_cos _ _ A) as CA. pose proof (flip_sin _ _ A) as SA.
  unfold global_frame_change. destruct (c_left c1), (c_forward c1); cbn [negb]; apply qs_conf; try (rewrite CA, SA; lra); flip_ang A.
Qed.
Lemma gTcTc_swap r c1 c2 c1' c2' : far 1 c1 c2 -> c_left c2' = negb (c_left c1) -> c_forward c2' = c_forward c1 -> same_centre c1 c1' -> same_centre c2 c2' ->
  gTcTc r c2' c1' = gTcTc r c1 c2.
Proof.
  intros [Z|N] L F [X1 Y1] [X2 Y2]; [lra|]. pose proof (atan_flip c1 c2 N) as A. destruct (centres c1 c2) as (_ & X & Y). unfold gTcTc.
  assert (CE : center_distance c2' c1' = center_distance c1 c2) by (unfold center_distance; rewrite X1, X2, Y1, Y2; f_equal; ring). rewrite CE, L, F, X1, Y1, X2, Y2.
  set (a' := atan2 (c_yc c1 - c_yc c2) (c_xc c1 - c_xc c2)) in *. set (a := atan2 (c_yc c2 - c_yc c1) _) in *. pose proof (flip_cos _ _ A) as CA. pose proof (flip_sin _ _ A) as SA.
  cbv zeta. destruct (fsqrt _); [|reflexivity]. cbn [fbind].
  unfold global_frame_change. destruct (c_left c1), (c_forward c1); cbn [negb]; f_equal; unfold configuration; f_equal; try (rewrite CA, SA; lra); apply twopify_congr; flip_ang A.
Qed.
Lemma conf_pair (a b c d : Configuration) : a = c -> b = d -> (a, b) = (c, d).
Proof. intros -> ->. reflexivity. Qed.
Lemma gTiST_swap R0 sm cm c1 c2 c1' c2' : c_left c2' = negb (c_left c1) -> c_forward c2' = negb (c_forward c1) -> same_centre c1 c1' -> same_centre c2 c2' ->
  gTiST R0 sm cm c2' c1' = option_map flip2 (gTiST R0 sm cm c1 c2).
Proof.
  intros L F [X1 Y1] [X2 Y2]. unfold gTiST.
  assert (CE : center_distance c2' c1' = center_distance c1 c2) by (unfold center_distance; rewrite X1, X2, Y1, Y2; f_equal; ring). rewrite CE, L, F, X1, Y1, X2, Y2. cbv zeta.
  destruct (fdiv _ _) as [t1|] eqn:E1; [|reflexivity]. cbn [fbind]. destruct (fasin t1) as [al|]; [|reflexivity]. cbn [fbind].
  destruct (fdiv_some _ _ _ E1) as [N _]. pose proof (atan_flip c1 c2 N) as A.
  set (a' := atan2 (c_yc c1 - c_yc c2) (c_xc c1 - c_xc c2)) in *. set (a := atan2 (c_yc c2 - c_yc c1) _) in *.
  assert (P : ang_eq (a' + al) (a + al + PI)) by flip_ang A. assert (M : ang_eq (a' - al) (a - al + PI)) by flip_ang A.
  destruct (c_left c1), (c_forward c1); cbn [negb andb option_map];
    rewrite ?(gfc_flip _ _ _ _ _ _ P), ?(gfc_flip _ _ _ _ _ _ M); rewrite ?Ropp_involutive;
    repeat (destruct (global_frame_change _ _ _ _ _) as [? ?]); unfold flip2; cbn [fst snd option_map]; f_equal; apply conf_pair; unfold configuration; f_equal; apply twopify_congr; flip_ang A.
Qed.
Lemma gTeST_swap R0 sm cm c1 c2 c1' c2' : far 1 c1 c2 -> c_left c2' = c_left c1 -> c_forward c2' = negb (c_forward c1) -> same_centre c1 c1' -> same_centre c2 c2' ->
  gTeST R0 sm cm c2' c1' = flip2 (gTeST R0 sm cm c1 c2).
Proof.
  intros [Z|N] L F [X1 Y1] [X2 Y2]; [lra|]. pose proof (atan_flip c1 c2 N) as A. unfold gTeST. rewrite L, F, X1, Y1, X2, Y2. cbv zeta.
  set (a' := atan2 (c_yc c1 - c_yc c2) (c_xc c1 - c_xc c2)) in *. set (a := atan2 (c_yc c2 - c_yc c1) _) in *.
  destruct (c_left c1), (c_forward c1); cbn [negb andb];
    rewrite ?(gfc_flip _ _ _ _ _ _ A); rewrite ?Ropp_involutive;
    repeat (destruct (global_frame_change _ _ _ _ _) as [? ?]); unfold flip2; cbn [fst snd]; apply conf_pair; unfold configuration; f_equal; apply twopify_congr; flip_ang A.
Qed.

(** ** Sums of lengths, read backwards *)
Lemma back2 a b a' b' : a = b' -> b = a' -> a + b = a' + b'.
Proof. intros -> ->. ring. Qed.
Lemma back3 a b c a' b' c' : a = c' -> b = b' -> c = a' -> a + b + c = a' + b' + c'.
Proof. intros -> -> ->. ring. Qed.
Lemma back4 a b c d a' b' c' d' : a = d' -> b = c' -> c = b' -> d = a' -> a + b + c + d = a' + b' + c' + d'.
Proof. intros -> -> -> ->. ring. Qed.
Lemma back5 a b c d e a' b' c' d' e' : a = e' -> b = d' -> c = c' -> d = b' -> e = a' -> a + b + c + d + e = a' + b' + c' + d' + e'.
Proof. intros -> -> -> -> ->. ring. Qed.

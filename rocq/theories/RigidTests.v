(** * The tests of the planners in a moved frame *)
From Coq Require Import Reals ZArith List Lra Lia Bool.
From Verif Require Import Base ModelUtil ModelIntegrate ModelCircle ModelPaths Num UtilProofs DubinsOpt SpecPath SpecTurn SpecSide SpecOpt SpecRigid PoseAlg TurnProofs MotionProofs TurnBounds LegProofs TangentProofs PlanProofs PlanFamily PlanTactics PlanSelect PlanRadius OptProofs OptTangent OptWord OptTactics RigidBase RigidTactics.
Import ListNotations.
Open Scope R_scope.

Lemma shift_rigid u v q : shift u v q = rigid u v 0 q.
Proof. unfold shift, rigid. rewrite cos_0, sin_0. f_equal; ring. Qed.

Definition std (q : Configuration) : Prop := twopify (q_theta q) = q_theta q.
Lemma std_conf x y t kp : std (configuration x y t kp).
Proof. unfold std, configuration; cbn [q_theta]. apply twopify_congr, twopify_ang. Qed.

Section Tests.
  Variables (u v rho : R).
  Notation mvq := (mvq u v rho).
  Notation mvc := (mvc u v rho).
  Notation rigid := (rigid u v rho).

  Lemma mv_at s a : at_conf s a -> at_conf (rigid s) (mvq a).
  Proof.
    intros (X & Y & T). unfold pst, pcf in *; cbn in *. split; [|split]; cbn.
    - unfold mx. rewrite X, Y. reflexivity.
    - unfold my. rewrite X, Y. reflexivity.
    - eapply ang_eq_trans; [|apply ang_eq_sym, twopify_ang]. apply ang_eq_add; [exact T|apply ang_eq_refl].
  Qed.
  Lemma mv_conf_of s kp : configuration (st_x (rigid s)) (st_y (rigid s)) (st_theta (rigid s)) kp = mvq (configuration (st_x s) (st_y s) (st_theta s) kp).
  Proof. apply (conf_move u v rho). apply ang_eq_refl. Qed.

  (** ** The hypotheses in the moved frame *)
  Lemma hw_move e s1 s2 : heading_within e (rigid s1) (rigid s2) -> heading_within e s1 s2.
  Proof. intros [n N]. exists n. cbn in N. replace (st_theta s1 - st_theta s2 - 2 * PI * IZR n) with (st_theta s1 + rho - (st_theta s2 + rho) - 2 * PI * IZR n) by ring. exact N. Qed.
  Lemma pos_move s1 s2 : pos_dist (rigid s1) (rigid s2) = pos_dist s1 s2.
  Proof.
    unfold pos_dist, SpecPath.rigid; cbn [st_x st_y]. f_equal. rewrite <- (sq_rot rho (st_x s1 - st_x s2) (st_y s1 - st_y s2)). ring.
  Qed.
  Lemma ahead_move e s1 s2 : ahead e (rigid s1) (rigid s2) -> ahead e s1 s2.
  Proof.
    intros (t & phi & T & P & X & Y). cbn in P, X, Y. exists t, (phi - rho). split; [exact T|]. split; [replace (phi - rho - st_theta s1) with (phi - (st_theta s1 + rho)) by ring; exact P|].
    rewrite cos_minus, sin_minus. set (x1 := st_x s1) in *. set (y1 := st_y s1) in *. set (x2 := st_x s2) in *. set (y2 := st_y s2) in *.
    assert (A : (x2 - x1) * cos rho - (y2 - y1) * sin rho = t * cos phi) by lra. assert (B : (x2 - x1) * sin rho + (y2 - y1) * cos rho = t * sin phi) by lra.
    pose proof (sin2_cos2' rho) as E.
    split.
    - replace (x1 + t * (cos phi * cos rho + sin phi * sin rho)) with (x1 + ((t * cos phi) * cos rho + (t * sin phi) * sin rho)) by ring. rewrite <- A, <- B.
      transitivity (x1 + (x2 - x1) * (sin rho * sin rho + cos rho * cos rho)); [rewrite E; ring|ring].
    - replace (y1 + t * (sin phi * cos rho - cos phi * sin rho)) with (y1 + ((t * sin phi) * cos rho - (t * cos phi) * sin rho)) by ring. rewrite <- A, <- B.
      transitivity (y1 + (y2 - y1) * (sin rho * sin rho + cos rho * cos rho)); [rewrite E; ring|ring].
  Qed.
  Lemma beside_move q lx ly : beside (rigid q) lx ly = mvp u v rho (beside q lx ly).
  Proof. unfold beside, mvp, mx, my, SpecPath.rigid; cbn [st_x st_y st_theta fst snd]. rewrite cos_plus, sin_plus. f_equal; ring. Qed.
  Lemma gap_move a b : gap (mvp u v rho a) (mvp u v rho b) = gap a b.
  Proof. unfold gap, mvp; cbn [fst snd]. rewrite mx_sub, my_sub. f_equal. apply sq_rot. Qed.
  Lemma no_turn_00_move k s l f s1 s2 : no_turn_00 k s l f s1 s2 -> no_turn_00 k s l f (rigid s1) (rigid s2).
  Proof. unfold no_turn_00, turn_centre. rewrite !beside_move, gap_move. exact (fun H => H). Qed.
  Lemma no_turn_pmpm_move k l s1 s2 : no_turn_pmpm k l s1 s2 -> no_turn_pmpm k l (rigid s1) (rigid s2).
  Proof. unfold no_turn_pmpm, arc_centre. rewrite !beside_move, gap_move. exact (fun H => H). Qed.

  (** ** configuration_equal *)
  Lemma equal_no s1 s2 a b : at_conf s1 a -> at_conf s2 b -> distinct s1 s2 -> configuration_equal a b = false.
  Proof.
    intros A B N. unfold configuration_equal. destruct (Rlt_dec epsilon (Rabs (q_theta b - q_theta a))) as [|L]; [reflexivity|].
    destruct (Rlt_dec epsilon (configuration_distance a b)) as [|L2]; [reflexivity|]. exfalso. rewrite (conf_dist_states s1 s2 a b A B) in L2. destruct N as [N|N]; [|lra].
    apply N. destruct A as (_ & _ & [n1 T1]), B as (_ & _ & [n2 T2]). unfold pst, pcf in *; cbn in T1, T2. exists (n1 - n2)%Z. rewrite minus_IZR.
    replace (st_theta s1 - st_theta s2 - 2 * PI * (IZR n1 - IZR n2)) with (- (q_theta b - q_theta a)) by lra. rewrite Rabs_Ropp. lra.
  Qed.
  Lemma mvq0 q : rho = 0 -> std q -> mvq q = mkConf (u + q_x q) (v + q_y q) (q_theta q) (q_kappa q).
  Proof. intros Z S. unfold RigidBase.mvq, mx, my. rewrite Z, cos_0, sin_0, Rplus_0_r, S. f_equal; ring. Qed.
  Lemma distinct_move s1 s2 : distinct s1 s2 -> distinct (rigid s1) (rigid s2).
  Proof. intros [N|N]; [left; intros H; apply N, hw_move, H|right; rewrite pos_move; exact N]. Qed.
  Lemma equal_move s1 s2 a b : at_conf s1 a -> at_conf s2 b -> std a -> std b -> rho = 0 \/ distinct s1 s2 ->
    configuration_equal (mvq a) (mvq b) = configuration_equal a b.
  Proof.
    intros A B SA SB [Z|N].
    - unfold configuration_equal. rewrite cd_move. rewrite !(mvq0 _ Z) by assumption. reflexivity.
    - rewrite (equal_no s1 s2 a b A B N). apply (equal_no (rigid s1) (rigid s2)); [apply mv_at, A|apply mv_at, B|apply distinct_move, N].
  Qed.
  (** ** configuration_aligned *)
  Lemma aligned_no s1 s2 a b : at_conf s1 a -> at_conf s2 b -> unaligned s1 s2 -> configuration_aligned a b = false.
  Proof.
    intros A B N. unfold configuration_aligned. destruct (Rlt_dec epsilon (Rabs (q_theta b - q_theta a))) as [|L]; [reflexivity|]. cbv zeta.
    destruct (Rleb _ epsilon) eqn:L2; [|reflexivity]. apply Rleb_true in L2. exfalso. destruct A as (XA & YA & [n1 T1]), B as (XB & YB & [n2 T2]). unfold pst, pcf in *; cbn in *. destruct N as [N|N].
    - apply N. exists (n1 - n2)%Z. rewrite minus_IZR.
      replace (st_theta s1 - st_theta s2 - 2 * PI * (IZR n1 - IZR n2)) with (- (q_theta b - q_theta a)) by lra. rewrite Rabs_Ropp. lra.
    - apply N. unfold ahead. rewrite XA, XB, YA, YB. set (dx := q_x b - q_x a) in *. set (dy := q_y b - q_y a) in *. set (al := atan2 dy dx) in *.
      exists (sqrt (dx * dx + dy * dy)), (twopify al + 2 * PI * IZR n1). split; [apply sqrt_pos|].
      split; [replace (twopify al + 2 * PI * IZR n1 - st_theta s1) with (twopify al - q_theta a) by lra; exact L2|].
      assert (E : ang_eq (twopify al + 2 * PI * IZR n1) al).
      { eapply ang_eq_trans; [|apply twopify_ang]. exists n1. ring. }
      rewrite (ang_eq_cos _ _ E), (ang_eq_sin _ _ E). pose proof (atan2_cos dx dy) as P. pose proof (atan2_sin dx dy) as Q. fold al in P, Q.
      assert (DX : dx = q_x b - q_x a) by reflexivity. assert (DY : dy = q_y b - q_y a) by reflexivity. split; lra.
  Qed.
  Lemma aligned_move s1 s2 a b : at_conf s1 a -> at_conf s2 b -> std a -> std b -> rho = 0 \/ unaligned s1 s2 ->
    configuration_aligned (mvq a) (mvq b) = configuration_aligned a b.
  Proof.
    intros A B SA SB [Z|N].
    - unfold configuration_aligned. rewrite !(mvq0 _ Z) by assumption. cbn [q_x q_y q_theta].
      replace (v + q_y b - (v + q_y a)) with (q_y b - q_y a) by ring. replace (u + q_x b - (u + q_x a)) with (q_x b - q_x a) by ring. reflexivity.
    - rewrite (aligned_no s1 s2 a b A B N). apply (aligned_no (rigid s1) (rigid s2)); [apply mv_at, A|apply mv_at, B|].
      destruct N as [N|N]; [left; intros H; apply N, hw_move, H|right; intros H; apply N, (ahead_move epsilon), H].
  Qed.
  (** ** configuration_on_hc_cc_circle *)
  Lemma on_circle_0 c b : rho = 0 -> std b -> configuration_on_hc_cc_circle (mvc c) (mvq b) = configuration_on_hc_cc_circle c b.
  Proof.
    intros Z SB. unfold configuration_on_hc_cc_circle. rewrite (mvq0 _ Z SB). unfold RigidBase.mvc, mvg; cbn [c_xc c_yc c_radius c_left c_forward c_mu q_x q_y q_theta].
    unfold mx, my. rewrite Z, cos_0, sin_0.
    replace (v + q_y b - (v + (c_xc c * 0 + c_yc c * 1))) with (q_y b - c_yc c) by ring. replace (u + q_x b - (u + (c_xc c * 1 - c_yc c * 0))) with (q_x b - c_xc c) by ring.
    replace (point_distance (u + (c_xc c * 1 - c_yc c * 0)) (v + (c_xc c * 0 + c_yc c * 1)) (u + q_x b) (v + q_y b)) with (point_distance (c_xc c) (c_yc c) (q_x b) (q_y b)) by (unfold point_distance; f_equal; ring).
    reflexivity.
  Qed.
  Lemma on_cc_no k s s1 s2 a b l f reg : 0 < k -> 0 < s -> at_conf s1 a -> at_conf s2 b -> no_turn_00 k s l f s1 s2 ->
    configuration_on_hc_cc_circle (circle a l f reg (hc_cc_param k s)) b = false.
  Proof.
    intros Hk Hs A B N. set (c1 := circle a l f reg (hc_cc_param k s)). assert (H1 : c1 = circle a l f reg (hc_cc_param k s)) by reflexivity.
    destruct (facts_cc k s c1 a l f reg Hk H1) as (S1 & EL1 & F1 & G1 & R1 & M1 & SM1 & CM1 & _ & _ & _ & _ & O1).
    assert (AS : at_start k s true s1 c1 l f) by (apply (start_cc k s s1 a); assumption).
    destruct (configuration_on_hc_cc_circle c1 b) eqn:QT; [exfalso; exact (no_turn_cc k s s1 s2 b l f c1 Hk Hs AS B R1 M1 SM1 CM1 N QT)|reflexivity].
  Qed.
  Lemma on_rs_no k s1 s2 a b l f reg : 0 < k -> at_conf s1 a -> at_conf s2 b -> no_turn_pmpm k l s1 s2 ->
    configuration_on_hc_cc_circle (circle a l f reg (rs_param k)) b = false.
  Proof.
    intros Hk A B N. set (c1 := circle a l f reg (rs_param k)). assert (H1 : c1 = circle a l f reg (rs_param k)) by reflexivity.
    destruct (facts_rs k c1 a l f reg Hk H1) as (S1 & EL1 & F1 & G1 & R1 & M1 & SM1 & CM1 & _ & _ & _ & _ & O1).
    assert (AS : at_start k 1 false s1 c1 l f) by (apply (start_rs k 1 s1 a); assumption).
    destruct (configuration_on_hc_cc_circle c1 b) eqn:QT; [exfalso; exact (no_turn_rs k 1 s1 s2 b l f c1 Hk AS B R1 M1 SM1 CM1 N QT)|reflexivity].
  Qed.
  Lemma on_cc_move k s s1 s2 a b l f reg : at_conf s1 a -> at_conf s2 b -> std b -> rho = 0 \/ 0 < k /\ 0 < s /\ no_turn_00 k s l f s1 s2 ->
    configuration_on_hc_cc_circle (mvc (circle a l f reg (hc_cc_param k s))) (mvq b) = configuration_on_hc_cc_circle (circle a l f reg (hc_cc_param k s)) b.
  Proof.
    intros A B SB [Z|(Hk & Hs & N)]; [apply (on_circle_0 _ _ Z SB)|]. rewrite (on_cc_no k s s1 s2) by assumption. rewrite <- circle_mvq.
    apply (on_cc_no k s (rigid s1) (rigid s2)); [assumption|assumption|apply mv_at, A|apply mv_at, B|apply no_turn_00_move, N].
  Qed.
  Lemma on_rs_move k s1 s2 a b l f reg : at_conf s1 a -> at_conf s2 b -> std b -> rho = 0 \/ 0 < k /\ no_turn_pmpm k l s1 s2 ->
    configuration_on_hc_cc_circle (mvc (circle a l f reg (rs_param k))) (mvq b) = configuration_on_hc_cc_circle (circle a l f reg (rs_param k)) b.
  Proof.
    intros A B SB [Z|(Hk & N)]; [apply (on_circle_0 _ _ Z SB)|]. rewrite (on_rs_no k s1 s2) by assumption. rewrite <- circle_mvq.
    apply (on_rs_no k (rigid s1) (rigid s2)); [assumption|apply mv_at, A|apply mv_at, B|apply no_turn_pmpm_move, N].
  Qed.
End Tests.

Lemma circle_start q l f r p : c_start (circle q l f r p) = q.
Proof. destruct (circle_all q l f r p) as (Z & _). exact Z. Qed.

(** ** Centres *)
Lemma centre_off s a c lx ly : at_conf s a -> off c a lx ly -> beside s lx ly = (c_xc c, c_yc c).
Proof.
  intros A O. rewrite (off_state c a s lx ly A O). unfold beside, frame, pst; cbn [fst snd]. f_equal; ring.
Qed.
Lemma centre_nz c1 c2 : (c_xc c1, c_yc c1) <> (c_xc c2, c_yc c2) -> center_distance c1 c2 <> 0.
Proof.
  intros N. apply center_nz. intros E. apply N. pose proof (pow2_ge_0 (c_xc c2 - c_xc c1)). pose proof (pow2_ge_0 (c_yc c2 - c_yc c1)). f_equal; nra.
Qed.
Section Pairs.
  Variables (rho k s : R) (s1 s2 : State) (a b : Configuration).
  Hypothesis A : at_conf s1 a.
  Hypothesis B : at_conf s2 b.
  Hypothesis Hk : 0 < k.
  Hypothesis Hs : 0 < s.
  Hypothesis HE : epsilon < k / s.
  Lemma posXY : 0 < 1 / k /\ 0 < p_radius (hc_cc_param k s) /\ 0 < p_radius (hc_cc_param k s) * p_sin_mu (hc_cc_param k s) /\ 0 < p_radius (hc_cc_param k s) * p_cos_mu (hc_cc_param k s).
  Proof.
    destruct (param_nom k s Hk Hs) as (_ & _ & _ & _ & X & Y & _). rewrite X, Y. unfold nom_X, nom_Y. destruct (Rlt_dec epsilon (k / s)); [|lra].
    assert (0 < 1 / k) by (apply Rdiv_lt_0_compat; lra). pose proof (radius_half k s Hk Hs). split; [assumption|]. split; [lra|]. split; [apply par_X_pos|apply par_Y_pos]; assumption.
  Qed.
  Lemma apart_00 l1 l2 f1 f2 r1 r2 :
    center_distance (circle a l1 f1 r1 (hc_cc_param k s)) (circle b l2 f2 r2 (hc_cc_param k s)) <> 0 ->
    apart rho k s true true (circle a l1 f1 r1 (hc_cc_param k s)) (circle b l2 f2 r2 (hc_cc_param k s)).
  Proof.
    intros D. right. set (c1 := circle a _ _ _ _) in *. set (c2 := circle b _ _ _ _) in *. destruct posXY as (P1 & P2 & P3 & P4).
    destruct (facts_cc k s c1 a l1 f1 r1 Hk eq_refl) as (_ & _ & _ & _ & R1 & _ & SM1 & CM1 & _ & KI1 & _). destruct (facts_cc k s c2 b l2 f2 r2 Hk eq_refl) as (_ & _ & _ & _ & R2 & _ & SM2 & CM2 & _ & KI2 & _).
    repeat split; assumption.
  Qed.
  Lemma apart_0pm l1 l2 f1 f2 r1 r2 :
    center_distance (circle a l1 f1 r1 (hc_cc_param k s)) (circle b l2 f2 r2 (rs_param k)) <> 0 ->
    apart rho k s true false (circle a l1 f1 r1 (hc_cc_param k s)) (circle b l2 f2 r2 (rs_param k)).
  Proof.
    intros D. right. set (c1 := circle a _ _ _ _) in *. set (c2 := circle b _ _ _ _) in *. destruct posXY as (P1 & P2 & P3 & P4).
    destruct (facts_cc k s c1 a l1 f1 r1 Hk eq_refl) as (_ & _ & _ & _ & R1 & _ & SM1 & CM1 & _ & KI1 & _). destruct (facts_rs k c2 b l2 f2 r2 Hk eq_refl) as (_ & _ & _ & _ & R2 & _ & SM2 & CM2 & _ & KI2 & _).
    repeat split; assumption.
  Qed.
  Lemma apart_pm0 l1 l2 f1 f2 r1 r2 :
    center_distance (circle a l1 f1 r1 (rs_param k)) (circle b l2 f2 r2 (hc_cc_param k s)) <> 0 ->
    apart rho k s false true (circle a l1 f1 r1 (rs_param k)) (circle b l2 f2 r2 (hc_cc_param k s)).
  Proof.
    intros D. right. set (c1 := circle a _ _ _ _) in *. set (c2 := circle b _ _ _ _) in *. destruct posXY as (P1 & P2 & P3 & P4).
    destruct (facts_rs k c1 a l1 f1 r1 Hk eq_refl) as (_ & _ & _ & _ & R1 & _ & SM1 & CM1 & _ & KI1 & _). destruct (facts_cc k s c2 b l2 f2 r2 Hk eq_refl) as (_ & _ & _ & _ & R2 & _ & SM2 & CM2 & _ & KI2 & _).
    repeat split; assumption.
  Qed.
  Lemma apart_pmpm l1 l2 f1 f2 r1 r2 :
    center_distance (circle a l1 f1 r1 (rs_param k)) (circle b l2 f2 r2 (rs_param k)) <> 0 ->
    apart rho k s false false (circle a l1 f1 r1 (rs_param k)) (circle b l2 f2 r2 (rs_param k)).
  Proof.
    intros D. right. set (c1 := circle a _ _ _ _) in *. set (c2 := circle b _ _ _ _) in *. destruct posXY as (P1 & P2 & P3 & P4).
    destruct (facts_rs k c1 a l1 f1 r1 Hk eq_refl) as (_ & _ & _ & _ & R1 & _ & SM1 & CM1 & _ & KI1 & _). destruct (facts_rs k c2 b l2 f2 r2 Hk eq_refl) as (_ & _ & _ & _ & R2 & _ & SM2 & CM2 & _ & KI2 & _).
    repeat split; assumption.
  Qed.
  Lemma centres_00 l1 l2 f1 f2 r1 r2 : turn_centre k s l1 f1 s1 <> turn_centre k s l2 f2 s2 ->
    center_distance (circle a l1 f1 r1 (hc_cc_param k s)) (circle b l2 f2 r2 (hc_cc_param k s)) <> 0.
  Proof.
    intros N. apply centre_nz. unfold turn_centre in N. erewrite !centre_off in N; [exact N| | | |]; try eassumption.
    - destruct (facts_cc k s _ b l2 f2 r2 Hk eq_refl) as (_ & _ & _ & _ & _ & _ & _ & _ & _ & _ & _ & _ & O). exact O.
    - destruct (facts_cc k s _ a l1 f1 r1 Hk eq_refl) as (_ & _ & _ & _ & _ & _ & _ & _ & _ & _ & _ & _ & O). exact O.
  Qed.
  Lemma centres_pmpm l1 l2 f1 f2 r1 r2 : arc_centre k l1 s1 <> arc_centre k l2 s2 ->
    center_distance (circle a l1 f1 r1 (rs_param k)) (circle b l2 f2 r2 (rs_param k)) <> 0.
  Proof.
    intros N. apply centre_nz. unfold arc_centre in N. erewrite !centre_off in N; [exact N| | | |]; try eassumption.
    - destruct (facts_rs k _ b l2 f2 r2 Hk eq_refl) as (_ & _ & _ & _ & _ & _ & _ & _ & _ & _ & _ & _ & O). exact O.
    - destruct (facts_rs k _ a l1 f1 r1 Hk eq_refl) as (_ & _ & _ & _ & _ & _ & _ & _ & _ & _ & _ & _ & O). exact O.
  Qed.
End Pairs.

(** ** Headings that differ by full turns *)
Lemma conf_turns x y t t' kp : ang_eq t t' -> configuration x y t kp = configuration x y t' kp.
Proof. intros E. unfold configuration. f_equal. apply twopify_congr, E. Qed.

(** ** The arrays *)
Lemma paths_move {ty} u v rho (sk : nat -> nat -> bool) (L1 L2 : list Circle) (f : Circle -> Circle -> option (HPath ty)) (ij : list (nat * nat)) :
  (forall i j c1 c2, sk i j = false -> nth_error L1 i = Some c1 -> nth_error L2 j = Some c2 -> f (mvc u v rho c1) (mvc u v rho c2) = option_map (mvP u v rho) (f c1 c2)) ->
  map (fun '(i, j) => if sk i j then None else match nth_error (map (mvc u v rho) L1) i, nth_error (map (mvc u v rho) L2) j with Some c1, Some c2 => f c1 c2 | _, _ => None end) ij =
  map (option_map (mvP u v rho)) (map (fun '(i, j) => if sk i j then None else match nth_error L1 i, nth_error L2 j with Some c1, Some c2 => f c1 c2 | _, _ => None end) ij).
Proof.
  intros F. rewrite map_map. apply map_ext. intros [i j]. destruct (sk i j) eqn:S; [reflexivity|]. rewrite !nth_error_map.
  destruct (nth_error L1 i) as [c1|] eqn:N1; [|reflexivity]. destruct (nth_error L2 j) as [c2|] eqn:N2; [|reflexivity]. cbn [option_map]. apply (F i j); assumption.
Qed.

(** * The spaces for states of any curvature with start and goal exchanged *)
From Coq Require Import Reals ZArith List Lra Lia Bool.
From Verif Require Import Base ModelUtil ModelFresnel ModelCircle ModelPaths ModelWrap Num UtilProofs SpecPath SpecCloth SpecTurn SpecSide SpecPlan SpecOpt SpecWrap FresProofs PoseAlg TurnProofs MotionProofs TurnBounds LegProofs TangentProofs PlanProofs PlanTactics PlanBounds PlanSelect FourCases WrapPredict WrapProofs WrapLoop WrapSpace WrapPlan WrapMin SwapDist.
From Verif Require ModelCC00D ModelCC0pmD ModelCCpm0D ModelCCpmpmD ModelHC00R ModelHC0pmR ModelHCpm0R ModelHCpmpmR.
Import ListNotations.
Open Scope R_scope.

(** ** States far apart *)
Lemma beside_gap q lx ly r : 0 <= r -> lx ^ 2 + ly ^ 2 = r ^ 2 -> gap (st_x q, st_y q) (beside q lx ly) = r.
Proof.
  intros R0 E. unfold gap, beside; cbn [fst snd]. replace ((_ - st_x q) ^ 2 + (_ - st_y q) ^ 2) with (r * r); [apply sqrt_square; exact R0|].
  pose proof (sin2_cos2 (st_theta q)) as S. unfold Rsqr in S.
  transitivity ((lx ^ 2 + ly ^ 2) * (sin (st_theta q) * sin (st_theta q) + cos (st_theta q) * cos (st_theta q))); [rewrite S, E; ring|ring].
Qed.
Lemma gap_pos q1 q2 : gap (st_x q1, st_y q1) (st_x q2, st_y q2) = pos_dist q1 q2.
Proof. unfold gap, pos_dist; cbn [fst snd]. f_equal. ring. Qed.
Lemma beside_far q1 q2 lx ly lx' ly' r r' : 0 <= r -> 0 <= r' -> lx ^ 2 + ly ^ 2 = r ^ 2 -> lx' ^ 2 + ly' ^ 2 = r' ^ 2 ->
  pos_dist q1 q2 - r - r' <= gap (beside q1 lx ly) (beside q2 lx' ly').
Proof.
  intros R0 R0' E E'. pose proof (beside_gap q1 lx ly r R0 E) as G. pose proof (beside_gap q2 lx' ly' r' R0' E') as G'.
  pose proof (gap_triangle (st_x q1, st_y q1) (beside q1 lx ly) (st_x q2, st_y q2)) as T1. pose proof (gap_triangle (beside q1 lx ly) (beside q2 lx' ly') (st_x q2, st_y q2)) as T2.
  rewrite gap_pos in T1. rewrite (gap_sym (beside q2 lx' ly')) in T2. lra.
Qed.
Section Far.
  Variables (k s : R).
  Hypothesis Hk : 0 < k.
  Hypothesis Hs : 0 < s.
  Local Notation p := (hc_cc_param k s).
  Definition wide : R := epsilon + 7 * (k / s + 1 / k).
  Lemma turn_far q1 q2 l1 f1 l2 f2 : pos_dist q1 q2 - 2 * p_radius p <= gap (turn_centre k s l1 f1 q1) (turn_centre k s l2 f2 q2).
  Proof.
    pose proof (radius_nonneg k s Hk Hs) as R0. destruct (mu_sin k s Hk Hs) as (SM & CM).
    assert (Q : forall l f, (sign f * (p_radius p * p_sin_mu p)) ^ 2 + (sign l * (p_radius p * p_cos_mu p)) ^ 2 = p_radius p ^ 2).
    { intros l f. pose proof (sin2_cos2 (p_mu p)) as S. unfold Rsqr in S. rewrite SM, CM.
      transitivity (p_radius p ^ 2 * (sin (p_mu p) * sin (p_mu p) + cos (p_mu p) * cos (p_mu p))); [|rewrite S; ring]. destruct l, f; unfold sign; ring. }
    pose proof (beside_far q1 q2 _ _ _ _ _ _ R0 R0 (Q l1 f1) (Q l2 f2)) as B. unfold turn_centre. lra.
  Qed.
  Lemma arc_far q1 q2 l1 l2 : pos_dist q1 q2 - 2 * (1 / k) <= gap (arc_centre k l1 q1) (arc_centre k l2 q2).
  Proof.
    assert (KP : 0 < 1 / k) by (apply Rdiv_lt_0_compat; lra). assert (Q : forall l, 0 ^ 2 + (sign l * (1 / k)) ^ 2 = (1 / k) ^ 2) by (intros []; unfold sign; ring).
    pose proof (beside_far q1 q2 _ _ _ _ (1 / k) (1 / k) ltac:(lra) ltac:(lra) (Q l1) (Q l2)) as B. unfold arc_centre. lra.
  Qed.
  Lemma gap_ne a b : 0 < gap a b -> a <> b.
  Proof. intros G ->. unfold gap in G. replace ((fst b - fst b) ^ 2 + (snd b - snd b) ^ 2) with 0 in G by ring. rewrite sqrt_0 in G. lra. Qed.
  Lemma wide_turn q1 q2 l1 f1 l2 f2 : wide <= pos_dist q1 q2 -> epsilon * (1 + p_radius p) < gap (turn_centre k s l1 f1 q1) (turn_centre k s l2 f2 q2).
  Proof.
    unfold wide. intros W. pose proof (turn_far q1 q2 l1 f1 l2 f2). pose proof (radius_le k s Hk Hs) as RL. pose proof (radius_nonneg k s Hk Hs). assert (0 < 1 / k) by (apply Rdiv_lt_0_compat; lra). assert (0 < k / s) by (apply Rdiv_lt_0_compat; lra).
    replace (2 / k) with (2 * (1 / k)) in RL by (field; lra). unfold epsilon in *. lra.
  Qed.
  Lemma wide_arc q1 q2 l1 l2 : wide <= pos_dist q1 q2 -> epsilon * (1 + 1 / k) < gap (arc_centre k l1 q1) (arc_centre k l2 q2).
  Proof.
    unfold wide. intros W. pose proof (arc_far q1 q2 l1 l2). assert (0 < 1 / k) by (apply Rdiv_lt_0_compat; lra). assert (0 < k / s) by (apply Rdiv_lt_0_compat; lra). unfold epsilon in *. lra.
  Qed.
  Lemma wide_turn_ne q1 q2 l1 f1 l2 f2 : wide <= pos_dist q1 q2 -> turn_centre k s l1 f1 q1 <> turn_centre k s l2 f2 q2.
  Proof. intros W. apply gap_ne. pose proof (wide_turn q1 q2 l1 f1 l2 f2 W). pose proof (radius_nonneg k s Hk Hs). unfold epsilon in *. lra. Qed.
  Lemma wide_arc_ne q1 q2 l1 l2 : wide <= pos_dist q1 q2 -> arc_centre k l1 q1 <> arc_centre k l2 q2.
  Proof. intros W. apply gap_ne. pose proof (wide_arc q1 q2 l1 l2 W). assert (0 < 1 / k) by (apply Rdiv_lt_0_compat; lra). unfold epsilon in *. lra. Qed.
End Far.

(** ** The loops over all predicted states *)
Lemma state_equal_flip a b : state_equal b a = state_equal a b.
Proof.
  unfold state_equal. rewrite (Rabs_minus_sym (st_kappa a)), (Rabs_minus_sym (twopify (st_theta a))).
  replace (point_distance (st_x b) (st_y b) (st_x a) (st_y a)) with (point_distance (st_x a) (st_y a) (st_x b) (st_y b)); [reflexivity|]. unfold point_distance. f_equal. ring.
Qed.
Section Loop.
  Variables d00 d0p dp0 dpp e00 e0p ep0 epp : State -> State -> option flt.
  Notation PD := (pair_distance d00 d0p dp0 dpp).
  Notation PE := (pair_distance e00 e0p ep0 epp).
  Lemma loop_least starts ends : starts <> [] -> ends <> [] -> (forall p1 p2, In p1 starts -> In p2 ends -> exists L, PD (p1, p2) = Some (Some L)) ->
    exists L, loop_distance d00 d0p dp0 dpp starts ends = Some (Some L) /\ (exists p1 p2, In p1 starts /\ In p2 ends /\ PD (p1, p2) = Some (Some L)) /\
      (forall p1 p2 L', In p1 starts -> In p2 ends -> PD (p1, p2) = Some (Some L') -> L <= L').
  Proof.
    intros NS NE H. set (l := list_prod starts ends). set (f := fun p => match PD p with Some (Some L) => L | _ => 0 end).
    assert (HP : forall p, In p l -> PD p = Some (Some (f p))).
    { intros [p1 p2] I. apply in_prod_iff in I. destruct I as (I1 & I2). destruct (H p1 p2 I1 I2) as (L & D). unfold f. rewrite D. reflexivity. }
    assert (NL : exists p0 l0, l = p0 :: l0). { destruct starts as [|a st]; [contradiction|]. destruct ends as [|b en]; [contradiction|]. unfold l. cbn. eexists _, _. reflexivity. }
    destruct NL as (p0 & l0 & EL). assert (AD : all_some (map PD l) = Some (map (fun p => Some (f p)) l)) by (apply all_some_map; intros p I; apply HP, I).
    unfold loop_distance. fold l. rewrite AD. rewrite EL. cbn [map min_element]. rewrite <- (map_map f Some). destruct (min_fold (map f l0) (f p0)) as (L & EQ & IL & ML). rewrite EQ.
    change (f p0 :: map f l0) with (map f (p0 :: l0)) in IL, ML. rewrite <- EL in *. exists L. split; [reflexivity|split].
    - apply in_map_iff in IL. destruct IL as ([a b] & EL' & IP'). pose proof IP' as IAB. apply in_prod_iff in IAB. exists a, b. split; [apply IAB|split; [apply IAB|]]. rewrite <- EL'. apply HP, IP'.
    - intros a b L' Ia Ib E. apply ML. apply in_map_iff. exists (a, b). assert (IN : In (a, b) l) by (apply in_prod_iff; auto). split; [|exact IN]. pose proof (HP _ IN) as E'. rewrite E in E'. congruence.
  Qed.
  Lemma pair_back q1 c1 q2 c2 : (exists L, call_distance d00 d0p dp0 dpp q1 q2 = Some (Some L) /\ call_distance e00 e0p ep0 epp q2 q1 = Some (Some L)) ->
    exists L, PD ((q1, c1), (q2, c2)) = Some (Some L) /\ PE ((q2, c2), (q1, c1)) = Some (Some L).
  Proof.
    intros (L & D & E). unfold pair_distance. rewrite (state_equal_flip q1 q2), D, E. destruct (state_equal q1 q2).
    - eexists. split; [reflexivity|]. unfold subtract_control; cbn [ct_delta_s]. rewrite Rabs_minus_sym. reflexivity.
    - cbn [fbind]. eexists. split; [reflexivity|]. do 2 f_equal. destruct (Rltb _ _), (Rltb _ _); ring.
  Qed.
End Loop.
Lemma loop_back d00 d0p dp0 dpp e00 e0p ep0 epp starts ends : starts <> [] -> ends <> [] ->
  (forall q1 c1 q2 c2, In (q1, c1) starts -> In (q2, c2) ends -> exists L, call_distance d00 d0p dp0 dpp q1 q2 = Some (Some L) /\ call_distance e00 e0p ep0 epp q2 q1 = Some (Some L)) ->
  loop_distance d00 d0p dp0 dpp starts ends = loop_distance e00 e0p ep0 epp ends starts.
Proof.
  intros NS NE H. assert (H' : forall p1 p2, In p1 starts -> In p2 ends -> exists L, pair_distance d00 d0p dp0 dpp (p1, p2) = Some (Some L) /\ pair_distance e00 e0p ep0 epp (p2, p1) = Some (Some L)).
  { intros [q1 c1] [q2 c2] I1 I2. apply pair_back. exact (H q1 c1 q2 c2 I1 I2). }
  destruct (loop_least d00 d0p dp0 dpp starts ends NS NE) as (L & D & (p1 & p2 & I1 & I2 & AT) & ML). { intros p1 p2 I1 I2. destruct (H' p1 p2 I1 I2) as (L & A & _). exists L; exact A. }
  destruct (loop_least e00 e0p ep0 epp ends starts NE NS) as (M & E & (r1 & r2 & J1 & J2 & BT) & MM). { intros p p' I I'. destruct (H' p' p I' I) as (L' & _ & A). exists L'; exact A. }
  destruct (H' p1 p2 I1 I2) as (L1 & A1 & B1). destruct (H' r2 r1 J2 J1) as (L2 & A2 & B2). rewrite D, E. do 2 f_equal. rewrite AT in A1. rewrite BT in B2. assert (L1 = L) by congruence. assert (L2 = M) by congruence. subst L1 L2.
  pose proof (ML r2 r1 M J2 J1 A2). pose proof (MM p2 p1 L I2 I1 B1). lra.
Qed.

Section Spaces.
  Variables (k s : R).
  Hypothesis Hk : 0 < k.
  Hypothesis Hs : 0 < s.
  Hypothesis HE : epsilon < k / s.
  Lemma cc_call_back fw q1 q2 : wide k s <= pos_dist q1 q2 -> pos_dist q1 q2 + detour k s < DBL_MAX -> exists L,
    call_distance (ModelCC00D.get_distance k s fw) (ModelCC0pmD.get_distance k s fw) (ModelCCpm0D.get_distance k s fw) (ModelCCpmpmD.get_distance k s fw) q1 q2 = Some (Some L) /\
    call_distance (ModelCC00D.get_distance k s (negb fw)) (ModelCC0pmD.get_distance k s (negb fw)) (ModelCCpm0D.get_distance k s (negb fw)) (ModelCCpmpmD.get_distance k s (negb fw)) q2 q1 = Some (Some L).
  Proof.
    intros W LM. destruct (cc_contract k s Hk Hs fw q1 q2 LM) as (t & L & mid & A & _ & LE & _). assert (LD : L < DBL_MAX) by lra. exists L. split; [exact A|]. unfold call_distance in *.
    destruct (Rltb (Rabs (st_kappa q1)) epsilon), (Rltb (Rabs (st_kappa q2)) epsilon).
    - apply (cc00_dubins_back k s fw q1 q2 L Hk Hs HE); try assumption; intros; [apply wide_turn|apply wide_turn_ne]; assumption.
    - apply (cc0pm_dubins_back k s fw q1 q2 L Hk Hs HE); assumption.
    - apply (ccpm0_dubins_back k s fw q1 q2 L Hk Hs HE); assumption.
    - apply (ccpmpm_dubins_back k s fw q1 q2 L Hk Hs HE); try assumption; intros; [apply (wide_arc k s)|apply (wide_arc_ne k s)]; assumption.
  Qed.
  Lemma hc_call_back q1 q2 : wide k s <= pos_dist q1 q2 -> pos_dist q1 q2 + detour k s < DBL_MAX -> exists L,
    call_distance (ModelHC00R.get_distance k s) (ModelHC0pmR.get_distance k s) (ModelHCpm0R.get_distance k s) (ModelHCpmpmR.get_distance k s) q1 q2 = Some (Some L) /\
    call_distance (ModelHC00R.get_distance k s) (ModelHC0pmR.get_distance k s) (ModelHCpm0R.get_distance k s) (ModelHCpmpmR.get_distance k s) q2 q1 = Some (Some L).
  Proof.
    intros W LM. destruct (hc_contract k s Hk Hs q1 q2 LM) as (t & L & mid & A & _ & LE & _). assert (LD : L < DBL_MAX) by lra. exists L. split; [exact A|]. unfold call_distance in *.
    destruct (Rltb (Rabs (st_kappa q1)) epsilon), (Rltb (Rabs (st_kappa q2)) epsilon).
    - apply (hc00_reeds_shepp_back k s q1 q2 L Hk Hs HE); try assumption; intros; [apply wide_turn|apply wide_turn_ne]; assumption.
    - apply (hc0pm_reeds_shepp_back k s q1 q2 L Hk Hs HE); assumption.
    - apply (hcpm0_reeds_shepp_back k s q1 q2 L Hk Hs HE); assumption.
    - apply (hcpmpm_reeds_shepp_back k s q1 q2 L Hk Hs HE); try assumption; intros; [apply (wide_arc k s)|apply (wide_arc_ne k s)]; assumption.
  Qed.
  Lemma wide_pair s1 s2 q1 c1 q2 c2 : epsilon + 10 * (k / s + 1 / k) <= pos_dist s1 s2 -> pos_dist s1 s2 + 2 * detour k s < DBL_MAX -> forecast k s s1 (q1, c1) -> forecast k s s2 (q2, c2) ->
    wide k s <= pos_dist q1 q2 /\ pos_dist q1 q2 + detour k s < DBL_MAX.
  Proof.
    intros W LM F1 F2. pose proof (pair_near k s Hk Hs _ _ _ _ _ _ F1 F2) as P. pose proof (extra k s Hk Hs) as EX. pose proof (tol_le k s Hk Hs) as TL. assert (0 < 1 / k) by (apply Rdiv_lt_0_compat; lra). assert (0 < k / s) by (apply Rdiv_lt_0_compat; lra).
    unfold wide. unfold Rabs in P. destruct (Rcase_abs _) in P; split; lra.
  Qed.
  Theorem cc_dubins_way_back junk fw s1 s2 : epsilon + 10 * (k / s + 1 / k) <= pos_dist s1 s2 -> pos_dist s1 s2 + 2 * detour k s < DBL_MAX ->
    cc_dubins_distance junk k s fw s1 s2 = cc_dubins_distance junk k s (negb fw) s2 s1.
  Proof.
    intros W LM. unfold cc_dubins_distance. rewrite negb_involutive. apply loop_back; [apply cc_starts|apply cc_starts|]. intros q1 c1 q2 c2 I1 I2.
    destruct (wide_pair s1 s2 q1 c1 q2 c2 W LM (cc_forecast junk k s Hs _ _ _ I1) (cc_forecast junk k s Hs _ _ _ I2)) as (A & B). exact (cc_call_back fw q1 q2 A B).
  Qed.
  Theorem hc_rs_way_back junk s1 s2 : epsilon + 10 * (k / s + 1 / k) <= pos_dist s1 s2 -> pos_dist s1 s2 + 2 * detour k s < DBL_MAX ->
    hc_rs_distance junk k s s1 s2 = hc_rs_distance junk k s s2 s1.
  Proof.
    intros W LM. unfold hc_rs_distance. apply loop_back; [apply hc_starts|apply hc_starts|]. intros q1 c1 q2 c2 I1 I2.
    destruct (wide_pair s1 s2 q1 c1 q2 c2 W LM (hc_forecast junk k s Hs _ _ I1) (hc_forecast junk k s Hs _ _ I2)) as (A & B). exact (hc_call_back q1 q2 A B).
  Qed.
End Spaces.

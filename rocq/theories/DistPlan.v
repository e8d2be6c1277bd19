(** * The distances of the HC/CC planners are not below the straight line *)
From Coq Require Import Reals ZArith List Lra.
From Coquelicot Require Import Coquelicot.
From Verif Require Import Base ModelUtil ModelFresnel ModelCircle ModelPaths ModelWrap Num SpecPath SpecCloth SpecTurn SpecPlan SpecSide SpecWrap SpecDist DubinsOpt DubinsPlan PlanRefute.
From Verif Require ModelCC00D CC00DProofs ModelCC00R PlanCC00R ModelHC00R PlanHC00R.
From Verif Require ModelCC0pmD SideCC0pmD ModelCCpm0D SideCCpm0D ModelCCpmpmD SideCCpmpmD ModelHC0pmR SideHC0pmR ModelHCpm0R SideHCpm0R ModelHCpmpmR SideHCpmpmR WrapPlan PlanCC0pmD PlanHCpm0R.
Import ListNotations.
Open Scope R_scope.

Lemma along s c u v : u ^ 2 + v ^ 2 = 1 -> u * (st_x (true_move s c) - st_x s) + v * (st_y (true_move s c) - st_y s) <= Rabs (ct_delta_s c).
Proof.
  intros N. unfold true_move, true_x, true_y; cbv zeta; cbn [st_x st_y]. set (d := sgn _). set (h := Rabs (ct_delta_s c)).
  rewrite (Rplus_cancel (st_x s)), (Rplus_cancel (st_y s)).
  assert (H0 : 0 <= h) by apply Rabs_pos.
  assert (EX : forall f : R -> R, (forall t, ex_derive f t) -> ex_RInt f 0 h).
  { intros f F. apply (ex_RInt_continuous (V := R_CompleteNormedModule)). intros z _. apply (ex_derive_continuous (K := R_AbsRing) (V := R_NormedModule)). apply F. }
  set (a := fun t => d * cos (heading (st_theta s) (ct_kappa c) (ct_sigma c) d t)). set (b := fun t => d * sin (heading (st_theta s) (ct_kappa c) (ct_sigma c) d t)).
  assert (EA : ex_RInt a 0 h) by (apply EX; intros t; unfold a, heading; auto_derive; exact I).
  assert (EB : ex_RInt b 0 h) by (apply EX; intros t; unfold b, heading; auto_derive; exact I).
  replace (u * RInt a 0 h + v * RInt b 0 h) with (RInt (fun t => u * a t + v * b t) 0 h).
  2:{ rewrite (RInt_plus (V := R_CompleteNormedModule) (fun t => u * a t) (fun t => v * b t)).
      - pose proof (RInt_scal (V := R_CompleteNormedModule) a 0 h u EA) as A. pose proof (RInt_scal (V := R_CompleteNormedModule) b 0 h v EB) as B.
        unfold scal, plus in *; simpl in *; unfold mult in *; simpl in *. rewrite A, B. reflexivity.
      - apply (ex_RInt_scal (V := R_NormedModule) a). exact EA.
      - apply (ex_RInt_scal (V := R_NormedModule) b). exact EB. }
  eapply Rle_trans; [apply Rle_abs|]. replace h with ((h - 0) * 1) at 2 by ring.
  apply abs_RInt_le_const; [exact H0| |].
  - apply EX. intros t; unfold a, b, heading; auto_derive; exact I.
  - intros t _. unfold a, b. assert (D : d * d = 1) by (unfold d, sgn; destruct (Rlt_dec _ _); lra).
    set (al := heading _ _ _ _ _). pose proof (sin2_cos2 al) as S. unfold Rsqr in S.
    apply Rsqr_incr_0; [unfold Rsqr|apply Rabs_pos|lra]. rewrite <- Rabs_mult. rewrite Rabs_pos_eq by apply Rle_0_sqr.
    pose proof (pow2_ge_0 (u * (d * sin al) - v * (d * cos al))) as Q.
    assert (E : (u * (d * cos al) + v * (d * sin al)) * (u * (d * cos al) + v * (d * sin al)) + (u * (d * sin al) - v * (d * cos al)) ^ 2 = (u ^ 2 + v ^ 2) * (d * d) * (sin al * sin al + cos al * cos al)) by ring.
    rewrite N, D, S in E. lra.
Qed.
Lemma move_dist s c : pos_dist s (true_move s c) <= Rabs (ct_delta_s c).
Proof.
  set (n := pos_dist s (true_move s c)). pose proof (pos_dist_nonneg s (true_move s c)) as P. fold n in P.
  destruct (Req_dec n 0) as [Z|NZ]; [rewrite Z; apply Rabs_pos|].
  assert (E : n ^ 2 = (st_x s - st_x (true_move s c)) ^ 2 + (st_y s - st_y (true_move s c)) ^ 2).
  { unfold n, pos_dist. rewrite pow2_sqrt; [reflexivity|]. pose proof (pow2_ge_0 (st_x s - st_x (true_move s c))). pose proof (pow2_ge_0 (st_y s - st_y (true_move s c))). lra. }
  pose proof (along s c ((st_x (true_move s c) - st_x s) / n) ((st_y (true_move s c) - st_y s) / n)) as A.
  set (x := st_x (true_move s c)) in *. set (y := st_y (true_move s c)) in *.
  replace n with ((x - st_x s) / n * (x - st_x s) + (y - st_y s) / n * (y - st_y s)).
  - apply A. replace 1 with (n ^ 2 / n ^ 2) by (field; exact NZ). rewrite E at 1. field. exact NZ.
  - apply Rmult_eq_reg_r with n; [|exact NZ]. replace (n * n) with (n ^ 2) by ring. rewrite E. field. exact NZ.
Qed.
Lemma path_dist cs : forall s, pos_dist s (true_path s cs) <= total_length cs.
Proof.
  induction cs as [|c cs IH]; intros s; unfold true_path; cbn [fold_left total_length fold_right].
  - unfold pos_dist. rewrite !Rminus_diag_eq by reflexivity. replace (0 ^ 2 + 0 ^ 2) with 0 by ring. rewrite sqrt_0. lra.
  - fold (true_path (true_move s c) cs). fold (total_length cs). pose proof (pos_dist_triangle s (true_move s c) (true_path (true_move s c) cs)). pose proof (move_dist s c). pose proof (IH (true_move s c)). lra.
Qed.
Lemma drives_euclid k s n g s1 s2 cs L : drives k s n g s1 s2 cs L -> not_below k s n g s1 s2 cs L.
Proof.
  intros (P & _ & T & _). unfold not_below, distance_error. pose proof (path_dist cs s1). pose proof (pos_dist_triangle s1 (true_path s1 cs) s2).
  revert T. unfold Rabs. destruct (Rcase_abs _); intros; lra.
Qed.
Lemma connects_euclid k s n g s1 s2 cs L : connects k s n g s1 s2 cs -> Rabs (total_length cs - L) <= length_gap k s -> wrap_not_below k s n g s1 s2 cs L.
Proof.
  intros (P & _) T. unfold wrap_not_below. pose proof (path_dist cs s1). pose proof (pos_dist_triangle s1 (true_path s1 cs) s2).
  revert T. unfold Rabs. destruct (Rcase_abs _); intros; lra.
Qed.
Theorem zero_planners k s forward s1 s2 : 0 < k -> 0 < s -> pos_dist s1 s2 + detour k s < DBL_MAX ->
  (exists t L cs, ModelCC00D.get_distance k s forward s1 s2 = Some (Some L) /\ ModelCC00D.get_controls k s forward s1 s2 = Some cs /\
     not_below k s (dubins_pieces t) (dubins_gap k s t) s1 s2 cs L) /\
  (exists t L cs, ModelCC00R.get_distance k s s1 s2 = Some (Some L) /\ ModelCC00R.get_controls k s s1 s2 = Some cs /\
     not_below k s (rs_pieces t) (cc_rs_gap k s t) s1 s2 cs L) /\
  (exists t L cs, ModelHC00R.get_distance k s s1 s2 = Some (Some L) /\ ModelHC00R.get_controls k s s1 s2 = Some cs /\
     not_below k s (rs_pieces t) (rs_gap k s t) s1 s2 cs L).
Proof.
  intros Hk Hs F. split; [|split].
  - destruct (CC00DProofs.cc00_dubins_plan k s forward s1 s2 Hk Hs F) as (t & L & cs & A & B & _ & D & _). exists t, L, cs. split; [exact A|split; [exact B|]]. exact (drives_euclid _ _ _ _ _ _ _ _ D).
  - destruct (PlanCC00R.cc00_reeds_shepp_plan k s s1 s2 Hk Hs F) as (t & L & cs & A & B & _ & _ & D & _). exists t, L, cs. split; [exact A|split; [exact B|]]. exact (drives_euclid _ _ _ _ _ _ _ _ D).
  - destruct (PlanHC00R.hc00_reeds_shepp_plan k s s1 s2 Hk Hs F) as (t & L & cs & A & B & _ & _ & D & _). exists t, L, cs. split; [exact A|split; [exact B|]]. exact (drives_euclid _ _ _ _ _ _ _ _ D).
Qed.
Theorem bound_planners k s forward s1 s2 : 0 < k -> 0 < s -> pos_dist s1 s2 + detour k s < DBL_MAX ->
  (clear_0pm k s s1 s2 ->
    (exists t L cs, ModelCC0pmD.get_distance k s forward s1 s2 = Some (Some L) /\ ModelCC0pmD.get_controls k s forward s1 s2 = Some cs /\
       not_below k s (dubins_pieces t) (dubins_gap k s t) s1 s2 cs L) /\
    (exists t L cs, ModelHC0pmR.get_distance k s s1 s2 = Some (Some L) /\ ModelHC0pmR.get_controls k s s1 s2 = Some cs /\
       not_below k s (rs_pieces t) (rs_gap k s t) s1 s2 cs L)) /\
  (clear_pm0 k s s1 s2 ->
    (exists t L cs, ModelCCpm0D.get_distance k s forward s1 s2 = Some (Some L) /\ ModelCCpm0D.get_controls k s forward s1 s2 = Some cs /\
       not_below k s (dubins_pieces t) (dubins_gap k s t) s1 s2 cs L) /\
    (exists t L cs, ModelHCpm0R.get_distance k s s1 s2 = Some (Some L) /\ ModelHCpm0R.get_controls k s s1 s2 = Some cs /\
       not_below k s (rs_pieces t) (rs_gap k s t) s1 s2 cs L)) /\
  (clear_pmpm k s1 s2 ->
    (exists t L cs, ModelCCpmpmD.get_distance k s forward s1 s2 = Some (Some L) /\ ModelCCpmpmD.get_controls k s forward s1 s2 = Some cs /\
       not_below k s (dubins_pieces t) (dubins_gap k s t) s1 s2 cs L) /\
    (exists t L cs, ModelHCpmpmR.get_distance k s s1 s2 = Some (Some L) /\ ModelHCpmpmR.get_controls k s s1 s2 = Some cs /\
       not_below k s (rs_pieces t) (rs_gap k s t) s1 s2 cs L)).
Proof.
  intros Hk Hs F. split; [|split]; intros C; split.
  - destruct (SideCC0pmD.cc0pm_dubins_clear k s forward s1 s2 Hk Hs F C) as (t & L & cs & k1 & A & B & _ & _ & _ & D & _). exists t, L, cs. split; [exact A|split; [exact B|]]. exact (drives_euclid _ _ _ _ _ _ _ _ D).
  - destruct (SideHC0pmR.hc0pm_reeds_shepp_clear k s s1 s2 Hk Hs F C) as (t & L & cs & k1 & A & B & _ & _ & _ & D & _). exists t, L, cs. split; [exact A|split; [exact B|]]. exact (drives_euclid _ _ _ _ _ _ _ _ D).
  - destruct (SideCCpm0D.ccpm0_dubins_clear k s forward s1 s2 Hk Hs F C) as (t & L & cs & k1 & A & B & _ & _ & _ & D & _). exists t, L, cs. split; [exact A|split; [exact B|]]. exact (drives_euclid _ _ _ _ _ _ _ _ D).
  - destruct (SideHCpm0R.hcpm0_reeds_shepp_clear k s s1 s2 Hk Hs F C) as (t & L & cs & k1 & A & B & _ & _ & _ & D & _). exists t, L, cs. split; [exact A|split; [exact B|]]. exact (drives_euclid _ _ _ _ _ _ _ _ D).
  - destruct (SideCCpmpmD.ccpmpm_dubins_clear k s forward s1 s2 Hk Hs F C) as (t & L & cs & k0 & k1 & A & B & _ & _ & _ & _ & D & _). exists t, L, cs. split; [exact A|split; [exact B|]]. exact (drives_euclid _ _ _ _ _ _ _ _ D).
  - destruct (SideHCpmpmR.hcpmpm_reeds_shepp_clear k s s1 s2 Hk Hs F C) as (t & L & cs & k0 & k1 & A & B & _ & _ & _ & _ & D & _). exists t, L, cs. split; [exact A|split; [exact B|]]. exact (drives_euclid _ _ _ _ _ _ _ _ D).
Qed.
Theorem wrapped_planners junk k s forward s1 s2 : 0 < k -> 0 < s -> Rabs (st_kappa s1) <= k -> Rabs (st_kappa s2) <= k ->
  pos_dist s1 s2 + 2 * detour k s < DBL_MAX -> epsilon + 5 * (k / s + 1 / k) <= pos_dist s1 s2 ->
  (exists t L cs, cc_dubins_distance junk k s forward s1 s2 = Some (Some L) /\ cc_dubins_controls junk k s forward s1 s2 = Some cs /\
     wrap_not_below k s (dubins_pieces t) (dubins_gap k s t) s1 s2 cs L) /\
  (exists t L cs, hc_rs_distance junk k s s1 s2 = Some (Some L) /\ hc_rs_controls junk k s s1 s2 = Some cs /\
     wrap_not_below k s (rs_pieces t) (rs_gap k s t) s1 s2 cs L).
Proof.
  intros Hk Hs K1 K2 F A0. split.
  - destruct (WrapPlan.cc_far k s Hk Hs junk forward s1 s2 K1 K2 F A0) as (_ & t & L & cs & A & B & _ & T & _ & D & _). exists t, L, cs. split; [exact A|split; [exact B|]]. exact (connects_euclid _ _ _ _ _ _ _ _ D T).
  - destruct (WrapPlan.hc_far k s Hk Hs junk s1 s2 K1 K2 F A0) as (_ & t & L & cs & A & B & _ & T & _ & D & _). exists t, L, cs. split; [exact A|split; [exact B|]]. exact (connects_euclid _ _ _ _ _ _ _ _ D T).
Qed.
Lemma y_dist a b g : g <= Rabs (st_y b - st_y a) -> g <= pos_dist a b.
Proof.
  intros G. eapply Rle_trans; [exact G|]. unfold pos_dist. rewrite <- sqrt_Rsqr_abs. apply sqrt_le_1_alt. unfold Rsqr.
  pose proof (pow2_ge_0 (st_x a - st_x b)). lra.
Qed.
Theorem below_line : exists s1 s2 L, ModelCC0pmD.get_distance 1 1 true s1 s2 = Some (Some L) /\ L <= 1 /\ 11 / 8 <= pos_dist s1 s2.
Proof.
  exists side_start, side_goal. destruct PlanCC0pmD.wrong_side as (L & cs & A & _ & B & _). exists L. split; [exact A|split; [exact B|]].
  apply y_dist. exact (proj1 side_gap).
Qed.
Theorem below_line_hc : exists s1 s2 L, ModelHCpm0R.get_distance 1 1 s1 s2 = Some (Some L) /\ L <= 1 /\ 11 / 8 <= pos_dist s1 s2.
Proof.
  exists side_start', side_goal'. destruct PlanHCpm0R.wrong_side as (L & cs & A & _ & B & _). exists L. split; [exact A|split; [exact B|]].
  apply y_dist. exact (proj2 side_gap).
Qed.

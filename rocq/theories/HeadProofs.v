(** * The distances of the planners and the difference of the headings *)
From Coq Require Import Reals ZArith List Lra Lia.
From Verif Require Import Base ModelUtil ModelDubins ModelRS ModelCircle ModelPaths ModelWrap Num DubinsProofs DubinsPlan RSProofs RSPlan RSSelect DubinsCases.
From Verif Require Import SpecPath SpecCloth SpecTurn SpecPlan SpecSide SpecWrap SpecHead.
From Verif Require ModelCC00D CC00DProofs ModelCC00R PlanCC00R ModelHC00R PlanHC00R.
From Verif Require ModelCCpmpmD PlanCCpmpmD ModelHCpmpmR PlanHCpmpmR WrapPlan.
Import ListNotations.
Open Scope R_scope.

Lemma move_turn K S s c : within_bounds K S c -> Rabs (st_theta (true_move s c) - st_theta s) <= K * Rabs (ct_delta_s c).
Proof.
  intros (_ & B). unfold true_move, heading; cbv zeta; cbn [st_theta]. set (h := Rabs (ct_delta_s c)) in *.
  assert (H0 : 0 <= h) by apply Rabs_pos. pose proof (B 0 ltac:(lra)) as B0. pose proof (B h ltac:(lra)) as B1.
  set (d := sgn (ct_delta_s c)).
  replace (st_theta s + d * (ct_kappa c * h + ct_sigma c * h ^ 2 / 2) - st_theta s)
    with (d * (((ct_kappa c + ct_sigma c * 0) + (ct_kappa c + ct_sigma c * h)) / 2 * h)) by field.
  assert (D : Rabs d = 1) by (unfold d, sgn; destruct (Rlt_dec _ _); unfold Rabs; destruct (Rcase_abs _); lra).
  rewrite Rabs_mult, D, Rmult_1_l, Rabs_mult, (Rabs_pos_eq h) by exact H0. apply Rmult_le_compat_r; [exact H0|].
  revert B0 B1. unfold Rabs. repeat destruct (Rcase_abs _); intros; lra.
Qed.
Lemma path_turn K S cs : forall s, List.Forall (within_bounds K S) cs -> Rabs (st_theta (true_path s cs) - st_theta s) <= K * total_length cs.
Proof.
  induction cs as [|c cs IH]; intros s F; unfold true_path; cbn [fold_left total_length fold_right].
  - rewrite Rminus_diag_eq by reflexivity. rewrite Rabs_R0. lra.
  - fold (true_path (true_move s c) cs). fold (total_length cs). inversion F as [|? ? Fc Fs]; subst.
    pose proof (move_turn K S s c Fc) as A. pose proof (IH (true_move s c) Fs) as B.
    pose proof (Rabs_triang (st_theta (true_path (true_move s c) cs) - st_theta (true_move s c)) (st_theta (true_move s c) - st_theta s)) as T.
    replace (st_theta (true_path (true_move s c) cs) - st_theta (true_move s c) + (st_theta (true_move s c) - st_theta s))
      with (st_theta (true_path (true_move s c) cs) - st_theta s) in T by ring. lra.
Qed.
Lemma within_shift e d a q b : Rabs (st_theta q - st_theta a) <= d -> heading_within e q b -> heading_within (d + e) a b.
Proof.
  intros D (z & E). exists z. pose proof (Rabs_triang (st_theta a - st_theta q) (st_theta q - st_theta b - 2 * PI * IZR z)) as T.
  replace (st_theta a - st_theta q + (st_theta q - st_theta b - 2 * PI * IZR z)) with (st_theta a - st_theta b - 2 * PI * IZR z) in T by ring.
  rewrite (Rabs_minus_sym (st_theta a)) in T. lra.
Qed.
Lemma within_weaken e d a b : e <= d -> heading_within e a b -> heading_within d a b.
Proof. intros L (z & E). exists z. lra. Qed.
Lemma bound_nonneg K S cs : cs <> [] -> List.Forall (within_bounds K S) cs -> 0 <= K.
Proof.
  intros N F. destruct cs as [|c cs]; [contradiction|]. inversion F as [|? ? (_ & B) _]; subst. pose proof (Rabs_pos (ct_delta_s c)) as P.
  pose proof (B 0 ltac:(lra)) as B0. pose proof (Rabs_pos (ct_kappa c + ct_sigma c * 0)). lra.
Qed.
Lemma drives_turns k s n g s1 s2 cs L : cs <> [] -> drives k s n g s1 s2 cs L -> turns_enough k s n g s1 s2 L.
Proof.
  intros N (_ & H & T & B). unfold turns_enough. apply within_shift with (true_path s1 cs); [|exact H].
  pose proof (path_turn _ _ cs s1 B) as P. pose proof (bound_nonneg _ _ cs N B) as K0. eapply Rle_trans; [exact P|].
  apply Rmult_le_compat_l; [exact K0|]. revert T. unfold Rabs. destruct (Rcase_abs _); intros; lra.
Qed.
Lemma connects_turns k s n g s1 s2 cs L : cs <> [] -> connects k s n g s1 s2 cs -> Rabs (total_length cs - L) <= length_gap k s -> wrap_turns_enough k s n g s1 s2 L.
Proof.
  intros N (_ & H & B) T. unfold wrap_turns_enough. apply within_shift with (true_path s1 cs); [|exact H].
  pose proof (path_turn _ _ cs s1 B) as P. pose proof (bound_nonneg _ _ cs N B) as K0. eapply Rle_trans; [exact P|].
  apply Rmult_le_compat_l; [exact K0|]. revert T. unfold Rabs. destruct (Rcase_abs _); intros; lra.
Qed.

Lemma drive_turn K cs : 0 < K -> (forall c, In c cs -> ct_kappa c = 0 \/ ct_kappa c = K \/ ct_kappa c = - K) ->
  forall s, Rabs (st_theta (drive_all s cs) - st_theta s) <= K * total_length cs.
Proof.
  intros K0. induction cs as [|c cs IH]; intros I s; unfold drive_all; cbn [fold_left total_length fold_right].
  - rewrite Rminus_diag_eq by reflexivity. rewrite Rabs_R0. lra.
  - fold (drive_all (drive s c) cs). fold (total_length cs).
    pose proof (IH (fun c' J => I c' (or_intror J)) (drive s c)) as B.
    assert (A : Rabs (st_theta (drive s c) - st_theta s) <= K * Rabs (ct_delta_s c)).
    { assert (E : st_theta (drive s c) - st_theta s = ct_kappa c * ct_delta_s c).
      { unfold drive. destruct (Req_EM_T (ct_kappa c) 0) as [Z|NZ]; cbn [st_theta]; [rewrite Z|]; ring. }
      rewrite E, Rabs_mult. apply Rmult_le_compat_r; [apply Rabs_pos|].
      destruct (I c (or_introl eq_refl)) as [Z|[Z|Z]]; rewrite Z; [rewrite Rabs_R0|rewrite Rabs_pos_eq|rewrite Rabs_Ropp, Rabs_pos_eq]; lra. }
    pose proof (Rabs_triang (st_theta (drive_all (drive s c) cs) - st_theta (drive s c)) (st_theta (drive s c) - st_theta s)) as T.
    replace (st_theta (drive_all (drive s c) cs) - st_theta (drive s c) + (st_theta (drive s c) - st_theta s))
      with (st_theta (drive_all (drive s c) cs) - st_theta s) in T by ring. lra.
Qed.
Lemma dubins_turns kappa fwd s1 s2 : 0 < kappa -> kappa * pos_dist s1 s2 <= 10 ^ 300 ->
  heading_within (kappa * dubins_distance kappa fwd s1 s2 + 1 / 1000000) s1 s2.
Proof.
  intros K B. rewrite dubins_distance_length by exact K.
  pose proof (dubins_controls_reach kappa fwd s1 s2 K B) as H. cbv zeta in H. destruct H as (_ & H & _).
  refine (within_shift _ _ _ _ _ _ H). apply drive_turn; [exact K|]. intros c I.
  exact (proj1 (proj2 (dubins_control_shape kappa fwd s1 s2 K) c I)).
Qed.
Lemma rs_turns kappa s1 s2 : 0 < kappa -> kappa * pos_dist s1 s2 <= 10 ^ 299 ->
  heading_within (kappa * rs_distance kappa s1 s2) s1 s2.
Proof.
  intros K B. rewrite rs_distance_length by exact K. destruct (rs_reach_goal kappa s1 s2 K B) as (_ & _ & z & E).
  apply within_weaken with (kappa * total_length (rs_get_controls kappa s1 s2) + 0); [lra|].
  apply within_shift with (drive_all s1 (rs_get_controls kappa s1 s2)).
  - apply drive_turn; [exact K|]. intros c I. exact (proj1 (proj2 (rs_controls_shape kappa s1 s2) c I)).
  - exists z. rewrite E. match goal with |- Rabs ?x <= 0 => replace x with 0 by ring end. rewrite Rabs_R0. lra.
Qed.

Theorem zero_turns k s forward s1 s2 : 0 < k -> 0 < s -> pos_dist s1 s2 + detour k s < DBL_MAX ->
  (exists t L, ModelCC00D.get_distance k s forward s1 s2 = Some (Some L) /\ turns_enough k s (dubins_pieces t) (dubins_gap k s t) s1 s2 L) /\
  (exists t L, ModelCC00R.get_distance k s s1 s2 = Some (Some L) /\ turns_enough k s (rs_pieces t) (cc_rs_gap k s t) s1 s2 L) /\
  (exists t L, ModelHC00R.get_distance k s s1 s2 = Some (Some L) /\ turns_enough k s (rs_pieces t) (rs_gap k s t) s1 s2 L).
Proof.
  intros Hk Hs F. split; [|split].
  - destruct (CC00DProofs.cc00_dubins_plan k s forward s1 s2 Hk Hs F) as (t & L & cs & A & B & _ & D & _ & N). exists t, L. split; [exact A|]. exact (drives_turns _ _ _ _ _ _ _ _ N D).
  - destruct (PlanCC00R.cc00_reeds_shepp_plan k s s1 s2 Hk Hs F) as (t & L & cs & A & B & _ & N & D & _). exists t, L. split; [exact A|]. exact (drives_turns _ _ _ _ _ _ _ _ N D).
  - destruct (PlanHC00R.hc00_reeds_shepp_plan k s s1 s2 Hk Hs F) as (t & L & cs & A & B & _ & N & D & _). exists t, L. split; [exact A|]. exact (drives_turns _ _ _ _ _ _ _ _ N D).
Qed.
Theorem both_turns k s forward s1 s2 : 0 < k -> 0 < s -> pos_dist s1 s2 + detour k s < DBL_MAX ->
  (exists t L, ModelCCpmpmD.get_distance k s forward s1 s2 = Some (Some L) /\ turns_enough k s (dubins_pieces t) (dubins_gap k s t) s1 s2 L) /\
  (exists t L, ModelHCpmpmR.get_distance k s s1 s2 = Some (Some L) /\ turns_enough k s (rs_pieces t) (rs_gap k s t) s1 s2 L).
Proof.
  intros Hk Hs F. split.
  - destruct (PlanCCpmpmD.ccpmpm_dubins_plan k s forward s1 s2 Hk Hs F) as (p & L & cs & _ & A & _ & _ & N & _ & _ & D & _). exists (h_type p), L. split; [exact A|]. exact (drives_turns _ _ _ _ _ _ _ _ N D).
  - destruct (PlanHCpmpmR.hcpmpm_reeds_shepp_plan k s s1 s2 Hk Hs F) as (p & L & cs & _ & A & _ & _ & N & _ & _ & D & _). exists (h_type p), L. split; [exact A|]. exact (drives_turns _ _ _ _ _ _ _ _ N D).
Qed.
Theorem wrapped_turns junk k s forward s1 s2 : 0 < k -> 0 < s -> Rabs (st_kappa s1) <= k -> Rabs (st_kappa s2) <= k ->
  pos_dist s1 s2 + 2 * detour k s < DBL_MAX -> epsilon + 5 * (k / s + 1 / k) <= pos_dist s1 s2 ->
  (exists t L, cc_dubins_distance junk k s forward s1 s2 = Some (Some L) /\ wrap_turns_enough k s (dubins_pieces t) (dubins_gap k s t) s1 s2 L) /\
  (exists t L, hc_rs_distance junk k s s1 s2 = Some (Some L) /\ wrap_turns_enough k s (rs_pieces t) (rs_gap k s t) s1 s2 L).
Proof.
  intros Hk Hs K1 K2 F A0. split.
  - destruct (WrapPlan.cc_far k s Hk Hs junk forward s1 s2 K1 K2 F A0) as (_ & t & L & cs & A & B & _ & T & N & D & _). exists t, L. split; [exact A|]. exact (connects_turns _ _ _ _ _ _ _ _ N D T).
  - destruct (WrapPlan.hc_far k s Hk Hs junk s1 s2 K1 K2 F A0) as (_ & t & L & cs & A & B & _ & T & N & D & _). exists t, L. split; [exact A|]. exact (connects_turns _ _ _ _ _ _ _ _ N D T).
Qed.

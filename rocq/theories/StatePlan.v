(** * Curvature and direction of the states of planned paths *)
From Coq Require Import Reals ZArith List Bool Lra Lia.
From Verif Require Import Base ModelUtil ModelFresnel ModelIntegrate ModelCircle ModelPaths ModelWrap ModelDubins ModelRS Num IntegrateProofs SpecCloth SpecPath SpecTurn SpecPlan SpecSide SpecWrap
  DubinsProofs DubinsCases RSSelect StateProofs.
From Verif Require ModelCC00D ModelCC0pmD ModelCCpm0D ModelCCpmpmD ModelCC00R ModelHC00R ModelHC0pmR ModelHCpm0R ModelHCpmpmR.
From Verif Require CC00DProofs PlanCC00R PlanHC00R SideCC0pmD SideCCpm0D SideCCpmpmD SideHC0pmR SideHCpm0R SideHCpmpmR WrapPlan.
Import ListNotations.
Open Scope R_scope.

Definition kappa_below (K : R) (s1 : State) (cs : list Control) : Prop :=
  forall disc path, 0 < disc -> hc_integrate disc s1 cs = Some path -> Forall (fun q => Rabs (st_kappa q) <= K) path.

Lemma drives_below k s n g s1 s2 cs L : drives k s n g s1 s2 cs L -> kappa_below (k * sharp k s g + epsilon) s1 cs.
Proof. intros (_ & _ & _ & F) disc path D E. exact (integrate_kappa _ _ disc s1 cs path D F E). Qed.
Lemma connects_below k s n g s1 s2 cs : connects k s n g s1 s2 cs -> kappa_below (k * sharp k s g + epsilon) s1 cs.
Proof. intros (_ & _ & F) disc path D E. exact (integrate_kappa _ _ disc s1 cs path D F E). Qed.

Ltac below H := destruct H as (t & L & cs & E); exists t, cs;
  repeat match goal with X : exists _, _ |- _ => destruct X as [? X] | X : _ /\ _ |- _ => destruct X as [? X] end;
  (split; [assumption|]); eapply drives_below; eassumption.

Lemma cc00_dubins_below (k s : R) (forward : bool) (s1 s2 : State) :
  0 < k -> 0 < s -> pos_dist s1 s2 + detour k s < DBL_MAX ->
  exists t cs, ModelCC00D.get_controls k s forward s1 s2 = Some cs /\ kappa_below (k * sharp k s (dubins_gap k s t) + epsilon) s1 cs.
Proof. intros Hk Hs DB. below (CC00DProofs.cc00_dubins_plan k s forward s1 s2 Hk Hs DB). Qed.
Lemma cc00_reeds_shepp_below (k s : R) (s1 s2 : State) :
  0 < k -> 0 < s -> pos_dist s1 s2 + detour k s < DBL_MAX ->
  exists t cs, ModelCC00R.get_controls k s s1 s2 = Some cs /\ kappa_below (k * sharp k s (cc_rs_gap k s t) + epsilon) s1 cs.
Proof. intros Hk Hs DB. below (PlanCC00R.cc00_reeds_shepp_plan k s s1 s2 Hk Hs DB). Qed.
Lemma hc00_reeds_shepp_below (k s : R) (s1 s2 : State) :
  0 < k -> 0 < s -> pos_dist s1 s2 + detour k s < DBL_MAX ->
  exists t cs, ModelHC00R.get_controls k s s1 s2 = Some cs /\ kappa_below (k * sharp k s (rs_gap k s t) + epsilon) s1 cs.
Proof. intros Hk Hs DB. below (PlanHC00R.hc00_reeds_shepp_plan k s s1 s2 Hk Hs DB). Qed.
Lemma cc0pm_dubins_below (k s : R) (forward : bool) (s1 s2 : State) :
  0 < k -> 0 < s -> pos_dist s1 s2 + detour k s < DBL_MAX -> clear_0pm k s s1 s2 ->
  exists t cs, ModelCC0pmD.get_controls k s forward s1 s2 = Some cs /\ kappa_below (k * sharp k s (dubins_gap k s t) + epsilon) s1 cs.
Proof. intros Hk Hs DB Cl. below (SideCC0pmD.cc0pm_dubins_clear k s forward s1 s2 Hk Hs DB Cl). Qed.
Lemma ccpm0_dubins_below (k s : R) (forward : bool) (s1 s2 : State) :
  0 < k -> 0 < s -> pos_dist s1 s2 + detour k s < DBL_MAX -> clear_pm0 k s s1 s2 ->
  exists t cs, ModelCCpm0D.get_controls k s forward s1 s2 = Some cs /\ kappa_below (k * sharp k s (dubins_gap k s t) + epsilon) s1 cs.
Proof. intros Hk Hs DB Cl. below (SideCCpm0D.ccpm0_dubins_clear k s forward s1 s2 Hk Hs DB Cl). Qed.
Lemma ccpmpm_dubins_below (k s : R) (forward : bool) (s1 s2 : State) :
  0 < k -> 0 < s -> pos_dist s1 s2 + detour k s < DBL_MAX -> clear_pmpm k s1 s2 ->
  exists t cs, ModelCCpmpmD.get_controls k s forward s1 s2 = Some cs /\ kappa_below (k * sharp k s (dubins_gap k s t) + epsilon) s1 cs.
Proof. intros Hk Hs DB Cl. below (SideCCpmpmD.ccpmpm_dubins_clear k s forward s1 s2 Hk Hs DB Cl). Qed.
Lemma hc0pm_reeds_shepp_below (k s : R) (s1 s2 : State) :
  0 < k -> 0 < s -> pos_dist s1 s2 + detour k s < DBL_MAX -> clear_0pm k s s1 s2 ->
  exists t cs, ModelHC0pmR.get_controls k s s1 s2 = Some cs /\ kappa_below (k * sharp k s (rs_gap k s t) + epsilon) s1 cs.
Proof. intros Hk Hs DB Cl. below (SideHC0pmR.hc0pm_reeds_shepp_clear k s s1 s2 Hk Hs DB Cl). Qed.
Lemma hcpm0_reeds_shepp_below (k s : R) (s1 s2 : State) :
  0 < k -> 0 < s -> pos_dist s1 s2 + detour k s < DBL_MAX -> clear_pm0 k s s1 s2 ->
  exists t cs, ModelHCpm0R.get_controls k s s1 s2 = Some cs /\ kappa_below (k * sharp k s (rs_gap k s t) + epsilon) s1 cs.
Proof. intros Hk Hs DB Cl. below (SideHCpm0R.hcpm0_reeds_shepp_clear k s s1 s2 Hk Hs DB Cl). Qed.
Lemma hcpmpm_reeds_shepp_below (k s : R) (s1 s2 : State) :
  0 < k -> 0 < s -> pos_dist s1 s2 + detour k s < DBL_MAX -> clear_pmpm k s1 s2 ->
  exists t cs, ModelHCpmpmR.get_controls k s s1 s2 = Some cs /\ kappa_below (k * sharp k s (rs_gap k s t) + epsilon) s1 cs.
Proof. intros Hk Hs DB Cl. below (SideHCpmpmR.hcpmpm_reeds_shepp_clear k s s1 s2 Hk Hs DB Cl). Qed.

Lemma cc_dubins_below (junk k s : R) (forward : bool) (s1 s2 : State) :
  0 < k -> 0 < s -> Rabs (st_kappa s1) <= k -> Rabs (st_kappa s2) <= k -> pos_dist s1 s2 + 2 * detour k s < DBL_MAX ->
  epsilon + 5 * (k / s + 1 / k) <= pos_dist s1 s2 ->
  exists t cs, cc_dubins_controls junk k s forward s1 s2 = Some cs /\ kappa_below (k * sharp k s (dubins_gap k s t) + epsilon) s1 cs.
Proof.
  intros Hk Hs K1 K2 DB FA. destruct (WrapPlan.cc_far k s Hk Hs junk forward s1 s2 K1 K2 DB FA) as (_ & t & L & cs & _ & E & _ & _ & _ & C & _).
  exists t, cs. split; [exact E|]. exact (connects_below _ _ _ _ _ _ _ C).
Qed.
Lemma hc_reeds_shepp_below (junk k s : R) (s1 s2 : State) :
  0 < k -> 0 < s -> Rabs (st_kappa s1) <= k -> Rabs (st_kappa s2) <= k -> pos_dist s1 s2 + 2 * detour k s < DBL_MAX ->
  epsilon + 5 * (k / s + 1 / k) <= pos_dist s1 s2 ->
  exists t cs, hc_rs_controls junk k s s1 s2 = Some cs /\ kappa_below (k * sharp k s (rs_gap k s t) + epsilon) s1 cs.
Proof.
  intros Hk Hs K1 K2 DB FA. destruct (WrapPlan.hc_far k s Hk Hs junk s1 s2 K1 K2 DB FA) as (_ & t & L & cs & _ & E & _ & _ & _ & C & _).
  exists t, cs. split; [exact E|]. exact (connects_below _ _ _ _ _ _ _ C).
Qed.

(** ** Dubins and Reeds-Shepp *)
Lemma dubins_states kappa disc (forward : bool) s1 s2 path : 0 < kappa -> 0 < disc -> dubins_get_path kappa disc forward s1 s2 = Some path ->
  Forall (fun q => (st_kappa q = 0 \/ st_kappa q = kappa \/ st_kappa q = - kappa) /\
    (if forward then st_d q = 1 else st_d q = -1 \/ st_d q = 1 /\ exists c, In c (dubins_get_controls kappa forward s1 s2) /\ ct_delta_s c = 0)) path.
Proof.
  intros K D E. unfold dubins_get_path in E. set (cs := dubins_get_controls kappa forward s1 s2) in *.
  assert (S : forall c, In c cs -> (ct_kappa c = 0 \/ ct_kappa c = kappa \/ ct_kappa c = - kappa) /\ ct_sigma c = 0 /\ (if forward then 0 <= ct_delta_s c else ct_delta_s c <= 0))
    by exact (proj2 (dubins_control_shape kappa forward s1 s2 K)).
  pose proof (rs_integrate_kappa 3 disc s1 cs path D E) as A. pose proof (rs_integrate_direction 3 disc s1 cs path E) as B.
  assert (C : Forall (fun q => if forward then st_d q = 1 else st_d q = -1 \/ st_d q = 1 /\ exists c, In c cs /\ ct_delta_s c = 0) path).
  { destruct forward.
    - apply forward_direction with (cs := cs); [|exact B]. apply Forall_forall. intros c I. exact (proj2 (proj2 (S c I))).
    - apply backward_direction; [|exact B]. apply Forall_forall. intros c I. exact (proj2 (proj2 (S c I))). }
  rewrite Forall_forall in *. intros q I. split; [|exact (C q I)]. destruct (A q I) as (c & IC & ->). exact (proj1 (S c IC)).
Qed.

Lemma rs_states kappa disc s1 s2 path : 0 < disc -> rs_get_path kappa disc s1 s2 = Some path ->
  Forall (fun q => (st_kappa q = 0 \/ st_kappa q = kappa \/ st_kappa q = - kappa) /\ (st_d q = 1 \/ st_d q = -1)) path.
Proof.
  intros D E. unfold rs_get_path in E. set (cs := rs_get_controls kappa s1 s2) in *.
  pose proof (rs_integrate_kappa 5 disc s1 cs path D E) as A. pose proof (rs_integrate_direction 5 disc s1 cs path E) as B.
  rewrite Forall_forall in *. intros q I. split.
  - destruct (A q I) as (c & IC & ->). exact (proj1 (proj2 (rs_controls_shape kappa s1 s2) c IC)).
  - destruct (B q I) as (c & _ & ->). unfold sgn. destruct (Rlt_dec _ _); [right|left]; reflexivity.
Qed.

(** A path driven backwards contains a state that says forwards. *)
Lemma loop_entries disc cs : forall cur l c, integrate_loop rs_enter rs_ode disc cur cs = Some l -> In c cs -> exists q, In q l /\ st_d q = sgn (ct_delta_s c).
Proof.
  induction cs as [|c0 cs IH]; intros cur l c E I; [destruct I|]. cbn in E.
  destruct (loop_count _ _) as [n|]; [|discriminate]. cbn [fbind] in E.
  destruct (steps _ _ _ _ _ _) as [l' last] eqn:E'. destruct (integrate_loop rs_enter rs_ode disc last cs) as [r|] eqn:E2; [|discriminate].
  cbn [fbind] in E. injection E as <-. destruct I as [<-|I].
  - exists (rs_enter c0 cur). split; [left; reflexivity|reflexivity].
  - destruct (IH _ _ c E2 I) as (q & Q & D). exists q. split; [right; apply in_or_app; right; exact Q|exact D].
Qed.

Lemma backward_refuted : exists kappa disc s1 s2 path q, 0 < kappa /\ 0 < disc /\ dubins_get_path kappa disc false s1 s2 = Some path /\ In q path /\ st_d q = 1.
Proof.
  set (s1 := mkState 0 2 PI 0 0). set (s2 := mkState 0 0 0 0 0). pose proof half_circle_backward as H. fold s1 s2 in H.
  destruct (rs_integrate_total 3 1 s1 (dubins_get_controls 1 false s1 s2)) as [path E]; [lra|lia| |].
  { rewrite H. unfold total_length. cbn [length fold_right ct_delta_s INR]. pose proof PI_4. pose proof PI_RGT_0.
    rewrite Rabs_Ropp, (Rabs_pos_eq (PI / 2)), Ropp_0, Rabs_R0 by lra. cbn. lra. }
  assert (I : In (mkControl (- 0) 0 0) (dubins_get_controls 1 false s1 s2)) by (rewrite H; right; left; reflexivity).
  pose proof E as E0. unfold rs_integrate in E0. destruct (reserve_ok _ _ _); [|discriminate].
  destruct (loop_entries _ _ _ _ _ E0 I) as (q & Q & D).
  exists 1, 1, s1, s2, path, q. split; [lra|]. split; [lra|]. split; [exact E|]. split; [exact Q|]. rewrite D. cbn [ct_delta_s]. unfold sgn. destruct (Rlt_dec _ _); lra.
Qed.

(** Clothoids of low sharpness are driven with constant curvature, which jumps at their end. *)
Lemma low_sharpness_refuted : exists disc s cs path i q q' k1, 0 < disc /\ curvature_chain 0 cs k1 /\ Forall (fun c => Rabs (ct_sigma c) <= epsilon) cs /\
  hc_integrate disc s cs = Some path /\ nth_error path i = Some q /\ nth_error path (S i) = Some q' /\ epsilon * disc < Rabs (st_kappa q' - st_kappa q).
Proof.
  set (s := mkState 0 0 0 0 1). set (cs := [mkControl 100 0 epsilon; mkControl 1 (1 / 100) 0]).
  assert (EP : 0 < epsilon) by (unfold epsilon; lra).
  assert (A1 : Rabs 100 = 100) by (apply Rabs_pos_eq; lra). assert (A2 : Rabs 1 = 1) by (apply Rabs_pos_eq; lra).
  assert (C1 : ceilZ (100 / 50) = 2%Z) by (apply ceilZ_unique; lra).
  assert (C2 : ceilZ (1 / 50) = 1%Z) by (apply ceilZ_unique; lra).
  assert (L1 : loop_count 50 100 = Some 2%nat) by (unfold loop_count; rewrite C1; reflexivity).
  assert (L2 : loop_count 50 1 = Some 1%nat) by (unfold loop_count; rewrite C2; reflexivity).
  assert (ES : Rabs epsilon = epsilon) by (apply Rabs_pos_eq; lra).
  set (c1 := mkControl 100 0 epsilon). set (c2 := mkControl 1 (1 / 100) 0).
  assert (KO : forall x h, st_kappa x = 0 -> st_kappa (hc_ode c1 x h) = 0).
  { intros x h Z. rewrite hc_ode_kappa. cbn [c1 ct_sigma]. rewrite ES. destruct (Rlt_dec epsilon epsilon); [lra|exact Z]. }
  set (p0 := rs_enter c1 s). set (p1 := hc_ode c1 p0 50). set (p2 := hc_ode c1 p1 50). set (p3 := rs_enter c2 p2). set (p4 := hc_ode c2 p3 (50 - (0 + 50 - 1))).
  assert (K2 : st_kappa p2 = 0) by (apply KO, KO; reflexivity).
  assert (E : hc_integrate 50 s cs = Some [p0; p1; p2; p3; p4]).
  { unfold hc_integrate, reserve_ok, cs. cbn [n_states_loop ct_delta_s]. rewrite A1, A2, C1, C2. cbn [Z.add].
    change (2 <=? INT_MAX)%Z with true. cbn iota. change (Z.pos (2 + 1) <=? INT_MAX)%Z with true. cbn iota. change (Z.pos (2 + 1 + 3) <=? INT_MAX)%Z with true. cbn iota.
    fold c1 c2. cbn [hc_integrate_loop]. change (ct_delta_s c1) with 100. change (ct_delta_s c2) with 1. rewrite A1, A2, L1, L2. cbn [fbind].
    assert (N1 : hc_enter c1 (rs_enter c1 s) = None).
    { unfold hc_enter. cbn [rs_enter st_kappa c1 ct_kappa]. rewrite Rminus_0_r, Rabs_R0. destruct (Rlt_dec epsilon 0); [lra|reflexivity]. }
    rewrite N1. cbn [steps]. unfold next_step at 1. destruct (Rlt_dec 100 (0 + 50)); [lra|].
    unfold next_step at 1. destruct (Rlt_dec 100 (0 + 50 + 50)); [lra|]. cbn [app fbind].
    fold p0. fold p1. fold p2. 
    assert (N2 : hc_enter c2 p2 = Some p3).
    { unfold hc_enter. rewrite K2. cbn [c2 ct_kappa]. rewrite Rminus_0_r, Rabs_pos_eq by lra. destruct (Rlt_dec epsilon (1 / 100)) as [_|N]; [reflexivity|unfold epsilon in N; lra]. }
    rewrite N2. cbn [steps]. unfold next_step. destruct (Rlt_dec 1 (0 + 50)); [|lra]. cbn [app fbind]. reflexivity. }
  exists 50, s, cs, [p0; p1; p2; p3; p4], 2%nat, p2, p3, (1 / 100 + 0 * 1).
  split; [lra|]. split.
  { unfold cs. cbn [curvature_chain ct_kappa ct_sigma ct_delta_s]. rewrite A1, A2. repeat split. unfold epsilon. lra. }
  split; [repeat constructor; cbn [ct_sigma]; rewrite ?Rabs_R0; lra|]. split; [exact E|]. split; [reflexivity|]. split; [reflexivity|].
  rewrite K2. change (st_kappa p3) with (1 / 100). rewrite Rminus_0_r, Rabs_pos_eq by lra. unfold epsilon. lra.
Qed.

(** ** Cases *)
Lemma sharp_case : let cs := [mkControl 1 0 1; mkControl 3 1 0; mkControl 1 1 (-1)] in
  curvature_chain 0 cs 0 /\ Forall (within_bounds 1 1) cs /\ Forall (fun c => (ct_sigma c = 0 \/ epsilon < Rabs (ct_sigma c)) /\ Rabs (ct_sigma c) <= 1) cs /\
  exists path, hc_integrate (1 / 10) (mkState 1 2 3 0 1) cs = Some path.
Proof.
  cbv zeta. split; [|split; [|split]].
  - cbn [curvature_chain ct_kappa ct_sigma ct_delta_s]. rewrite !Rabs_pos_eq by lra. repeat split; lra.
  - assert (M : Rabs (-1) = 1) by (rewrite Rabs_left; lra).
    repeat (apply Forall_cons; [split; cbn [ct_kappa ct_sigma ct_delta_s]; [rewrite ?Rabs_R0, ?Rabs_R1, ?M; lra|];
      intros u [U0 U1]; rewrite Rabs_pos_eq in U1 by lra; rewrite Rabs_pos_eq; lra|]). apply Forall_nil.
  - assert (M : Rabs (-1) = 1) by (rewrite Rabs_left; lra).
    repeat (apply Forall_cons; [cbn [ct_sigma]; rewrite ?Rabs_R0, ?Rabs_R1, ?M; unfold epsilon; split; [first [left; lra|right; lra]|lra]|]). apply Forall_nil.
  - apply hc_integrate_total; [lra|discriminate|]. unfold total_length. cbn [fold_right ct_delta_s length INR]. rewrite !Rabs_pos_eq by lra. lra.
Qed.
Lemma path_case : (exists path, dubins_get_path 1 1 true (mkState 0 0 0 0 0) (mkState 0 2 PI 0 0) = Some path) /\
  exists path, rs_get_path 1 1 (mkState 0 0 0 0 0) (mkState 5 0 0 0 0) = Some path.
Proof.
  pose proof PI_4 as P4. pose proof PI_RGT_0 as P0. split.
  - unfold dubins_get_path. apply rs_integrate_total; [lra|lia|]. rewrite half_circle_controls. unfold total_length. cbn [length fold_right ct_delta_s INR].
    rewrite (Rabs_pos_eq (PI / 2)), Rabs_R0 by lra. cbn. lra.
  - unfold rs_get_path. apply rs_integrate_total; [lra|lia|]. rewrite straight_controls by lra. unfold total_length. cbn [length fold_right ct_delta_s INR]. cbn.
    unfold Rabs. repeat destruct (Rcase_abs _); lra.
Qed.

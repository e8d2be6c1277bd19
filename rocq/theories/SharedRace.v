(** * Two threads on one object *)
From Coq Require Import Reals ZArith List Lra Lia Bool.
From Verif Require Import Base ModelUtil ModelCircle ModelPaths ModelCC00D Num SpecPath SpecPlan LegProofs PlanProofs PlanTactics PlanBounds PlanSelect WrapCases ModelShared SpecShared SharedProofs SharedPlanners.
From Verif Require CC00DProofs.
Import ListNotations.
Open Scope R_scope.

(** ** Schedules *)

Lemma interleave_app : forall {A B} s1 s2 (p : Prog A) (q : Prog B) mem,
  interleave (s1 ++ s2) p q mem = let '(p', q', mem') := interleave s1 p q mem in interleave s2 p' q' mem'.
Proof.
  intros A B s1 s2; induction s1 as [|b s1 IH]; intros p q mem; cbn [app interleave]; [reflexivity|].
  destruct b; [destruct p | destruct q]; apply IH.
Qed.

Lemma finish_first : forall {A B} (p : Prog A) (q : Prog B) mem,
  exists s, interleave s p q mem = (Done (fst (run p mem)), q, snd (run p mem)).
Proof.
  intros A B p q; induction p as [a | a k IH | a v k IH]; intros mem.
  - exists []; reflexivity.
  - destruct (IH (mem a) mem) as [s H]; exists (true :: s); exact H.
  - destruct (IH (store mem a v)) as [s H]; exists (true :: s); exact H.
Qed.

Lemma finish_second : forall {A B} (p : Prog A) (q : Prog B) mem,
  exists s, interleave s p q mem = (p, Done (fst (run q mem)), snd (run q mem)).
Proof.
  intros A B p q; induction q as [a | a k IH | a v k IH]; intros mem.
  - exists []; reflexivity.
  - destruct (IH (mem a) mem) as [s H]; exists (false :: s); exact H.
  - destruct (IH (store mem a v)) as [s H]; exists (false :: s); exact H.
Qed.

(** ** The planning problems *)

Definition race_start : State := mkState 0 0 0 0 1.
Definition race_goal : State := mkState 1000 0 (PI / 2) 0 1.
Local Notation P := (hc_cc_param 1 1).
Definition race_other : State := mkState (2 * (p_radius P * p_sin_mu P)) 0 0 0 1.
Definition qa : Configuration := configuration 0 0 0 0.
Definition qb : Configuration := configuration 1000 0 (PI / 2) 0.

Lemma radius_unit : 0 <= p_radius P <= 41 / 10.
Proof.
  pose proof (radius_le 1 1 Rlt_0_1 Rlt_0_1); pose proof (radius_nonneg 1 1 Rlt_0_1 Rlt_0_1); lra.
Qed.

Lemma qa_fields : q_x qa = 0 /\ q_y qa = 0 /\ q_theta qa = 0.
Proof. unfold qa, configuration; cbn [q_x q_y q_theta]; repeat split; apply twopify_id; unfold TWO_PI; pose proof FresProofs.PI_gt; lra. Qed.
Lemma qb_fields : q_x qb = 1000 /\ q_y qb = 0 /\ q_theta qb = PI / 2.
Proof. unfold qb, configuration; cbn [q_x q_y q_theta]; repeat split; apply twopify_id; unfold TWO_PI; pose proof FresProofs.PI_gt; lra. Qed.

(** ** Everything far away *)

Lemma turned_bound : forall a b t r, Rabs a <= r -> Rabs b <= r -> Rabs (a * cos t - b * sin t) <= 2 * r.
Proof.
  intros a b t r Ha Hb; pose proof (COS_bound t); pose proof (SIN_bound t).
  assert (Rabs (cos t) <= 1) by (apply Rabs_le; lra); assert (Rabs (sin t) <= 1) by (apply Rabs_le; lra).
  assert (Rabs (a * cos t) <= r * 1) by (rewrite Rabs_mult; apply Rmult_le_compat; auto using Rabs_pos).
  assert (Rabs (b * sin t) <= r * 1) by (rewrite Rabs_mult; apply Rmult_le_compat; auto using Rabs_pos).
  pose proof (Rabs_triang (a * cos t) (- (b * sin t))) as T; rewrite Rabs_Ropp in T.
  replace (a * cos t - b * sin t) with (a * cos t + - (b * sin t)) by ring; lra.
Qed.

Lemma offset_bound : Rabs (p_radius P * p_sin_mu P) <= p_radius P /\ Rabs (p_radius P * p_cos_mu P) <= p_radius P.
Proof.
  assert (S : Rabs (p_sin_mu P) <= 1 /\ Rabs (p_cos_mu P) <= 1).
  { unfold hc_cc_param. repeat match goal with |- context [match ?x with _ => _ end] => destruct x end;
      unfold set_param; cbn [p_sin_mu p_cos_mu];
      split; apply Rabs_le; (apply SIN_bound || apply COS_bound). }
  pose proof radius_unit; rewrite !Rabs_mult, (Rabs_pos_eq (p_radius P)) by lra; split;
    rewrite <- (Rmult_1_r (p_radius P)) at 2; apply Rmult_le_compat_l; tauto || lra.
Qed.

Lemma centre_x : forall q l f, Rabs (c_xc (circle q l f true P) - q_x q) <= 2 * p_radius P.
Proof.
  intros q l f; pose proof offset_bound as [A B].
  unfold circle, global_frame_change; destruct l, f; cbv zeta; cbn [c_xc];
    match goal with |- Rabs (?u - ?v * sin ?t + ?x - ?x) <= _ =>
      replace (u - v * sin t + x - x) with (u - v * sin t) by ring end; apply turned_bound; rewrite ?Rabs_Ropp; assumption.
Qed.

Lemma point_x : forall x1 y1 x2 y2, Rabs (x2 - x1) <= point_distance x1 y1 x2 y2.
Proof.
  intros; unfold point_distance; rewrite <- sqrt_Rsqr_abs; apply sqrt_le_1_alt; unfold Rsqr.
  pose proof (pow2_ge_0 (y2 - y1)); nra.
Qed.

Lemma Rabs_def2' : forall x a, Rabs x <= a -> - a <= x <= a.
Proof. intros x a H; unfold Rabs in H; destruct (Rcase_abs x); lra. Qed.

Section Far.
  Variables (l1 l2 : bool).
  Local Notation c1 := (circle qa l1 true true P).
  Local Notation c2 := (circle qb l2 false true P).

  Lemma centres : Rabs (c_xc c1) <= 82 / 10 /\ Rabs (c_xc c2 - 1000) <= 82 / 10.
  Proof.
    pose proof (centre_x qa l1 true) as A; pose proof (centre_x qb l2 false) as B; pose proof radius_unit.
    rewrite (proj1 qa_fields), Rminus_0_r in A; rewrite (proj1 qb_fields) in B; lra.
  Qed.

  Lemma far_distance : 983 <= center_distance c1 c2.
  Proof.
    destruct centres as [A B]; apply Rabs_def2' in A; apply Rabs_def2' in B.
    pose proof (point_x (c_xc c1) (c_yc c1) (c_xc c2) (c_yc c2)) as D; change (point_distance _ _ _ _) with (center_distance c1 c2) in D.
    rewrite Rabs_pos_eq in D by lra; lra.
  Qed.

  Lemma not_equal : configuration_equal (c_start c1) (c_start c2) = false.
  Proof.
    destruct (circle_all qa l1 true true P) as (-> & _); destruct (circle_all qb l2 false true P) as (-> & _).
    unfold configuration_equal; destruct qa_fields as (_ & _ & ->); destruct qb_fields as (_ & _ & ->).
    pose proof FresProofs.PI_gt; destruct (Rlt_dec _ _) as [|N]; [reflexivity|]; exfalso; apply N.
    rewrite Rabs_pos_eq by lra; unfold epsilon; lra.
  Qed.
  Lemma not_aligned : configuration_aligned (c_start c1) (c_start c2) = false.
  Proof.
    destruct (circle_all qa l1 true true P) as (-> & _); destruct (circle_all qb l2 false true P) as (-> & _).
    unfold configuration_aligned; destruct qa_fields as (_ & _ & ->); destruct qb_fields as (_ & _ & ->).
    pose proof FresProofs.PI_gt; destruct (Rlt_dec _ _) as [|N]; [reflexivity|]; exfalso; apply N.
    rewrite Rabs_pos_eq by lra; unfold epsilon; lra.
  Qed.
  Lemma not_on_circle : configuration_on_hc_cc_circle c1 (c_start c2) = false.
  Proof.
    destruct (circle_all qb l2 false true P) as (-> & _).
    unfold configuration_on_hc_cc_circle; cbv zeta. destruct (Rlt_dec _ _) as [|N]; [reflexivity|]; exfalso; apply N.
    pose proof (point_x (c_xc c1) (c_yc c1) (q_x qb) (q_y qb)) as D.
    destruct (circle_all qa l1 true true P) as (_ & _ & _ & _ & -> & _).
    destruct centres as [A _]; apply Rabs_def2' in A; rewrite (proj1 qb_fields) in D |- *; pose proof radius_unit.
    rewrite Rabs_pos_eq in D by lra; rewrite Rabs_pos_eq by lra; unfold epsilon; lra.
  Qed.

  Lemma far_table : circles_table 1 1 true c1 c2 =
    [no_entry; no_entry; no_entry; entry_TT (center_distance c1 c2) (atan2 (c_yc c2 - c_yc c1) (c_xc c2 - c_xc c1)) c1 c2;
     entry_TST (center_distance c1 c2) (atan2 (c_yc c2 - c_yc c1) (c_xc c2 - c_xc c1)) c1 c2;
     entry_TTT 1 1 (center_distance c1 c2) (atan2 (c_yc c2 - c_yc c1) (c_xc c2 - c_xc c1)) c1 c2; no_entry].
  Proof.
    unfold circles_table; cbv zeta; rewrite not_equal, not_aligned, not_on_circle; reflexivity.
  Qed.

  Lemma apart_x : forall q1 q2, Rabs (q_x q1 - c_xc c1) <= 82 / 10 -> Rabs (q_x q2 - c_xc c2) <= 82 / 10 ->
    900 <= configuration_distance q1 q2.
  Proof.
    intros q1 q2 A B; apply Rabs_def2' in A; apply Rabs_def2' in B.
    destruct centres as [C D]; apply Rabs_def2' in C; apply Rabs_def2' in D.
    pose proof (point_x (q_x q1) (q_y q1) (q_x q2) (q_y q2)) as E; change (point_distance _ _ _ _) with (configuration_distance q1 q2) in E.
    rewrite Rabs_pos_eq in E by lra; lra.
  Qed.

  Lemma frame_x : forall x y t u v, Rabs u <= 41 / 10 -> Rabs v <= 41 / 10 -> Rabs (fst (global_frame_change x y t u v) - x) <= 82 / 10.
  Proof.
    intros x y t u v Hu Hv; unfold global_frame_change; cbv zeta; cbn [fst].
    replace (u * cos t - v * sin t + x - x) with (u * cos t - v * sin t) by ring.
    replace (82 / 10) with (2 * (41 / 10)) by field; apply turned_bound; assumption.
  Qed.

  Lemma far_straight : forall l q1 q2 D, TST_path D c1 c2 = Some (l, q1, q2) -> 900 <= l.
  Proof.
    intros l q1 q2 D H.
    destruct (circle_all qa l1 true true P) as (_ & L1 & F1 & _ & R1 & _ & S1 & C1 & _).
    pose proof offset_bound as [OS OC]; pose proof radius_unit as RU.
    assert (OS' : Rabs (p_radius P * p_sin_mu P) <= 41 / 10) by lra; assert (OC' : Rabs (p_radius P * p_cos_mu P) <= 41 / 10) by lra.
    assert (X : l = cc_turn_length c1 q1 + configuration_distance q1 q2 + cc_turn_length c2 q2 /\
      Rabs (q_x q1 - c_xc c1) <= 82 / 10 /\ Rabs (q_x q2 - c_xc c2) <= 82 / 10).
    { clear OS OC. revert H L1 F1 R1 S1 C1. generalize c1 c2. intros C1 C2 H L1 F1 R1 S1 K1. rename K1 into Co1.
      unfold TST_path in H. destruct (TiST_exists D C1 C2); [|destruct (TeST_exists D C1 C2); [|discriminate]].
      - unfold TiST_path, TiST_tangent_circles, global_frame_change in H. cbv zeta in H. rewrite L1, F1, R1, S1, Co1 in H.
        destruct (fdiv _ _) as [t|]; [|discriminate]; cbn [fbind] in H. destruct (fasin t) as [al|]; [|discriminate]; cbn [fbind] in H.
        destruct l1; cbn [andb negb] in H; injection H as <- <- <-; (split; [reflexivity|]); unfold configuration; cbn [q_x];
          split;
          (match goal with |- Rabs (?u * cos ?t - ?v * sin ?t + ?x - ?x) <= _ => exact (frame_x x 0 t u v ltac:(rewrite ?Rabs_Ropp; assumption) ltac:(rewrite ?Rabs_Ropp; assumption)) end).
      - unfold TeST_path, TeST_tangent_circles, global_frame_change in H. cbv zeta in H. rewrite L1, F1, R1, S1, Co1 in H.
        destruct l1; cbn [andb negb] in H; injection H as <- <- <-; (split; [reflexivity|]); unfold configuration; cbn [q_x];
          split;
          (match goal with |- Rabs (?u * cos ?t - ?v * sin ?t + ?x - ?x) <= _ => exact (frame_x x 0 t u v ltac:(rewrite ?Rabs_Ropp; assumption) ltac:(rewrite ?Rabs_Ropp; assumption)) end). }
    destruct X as (-> & A & B); pose proof (apart_x q1 q2 A B).
    pose proof (max_cc 1 1 Rlt_0_1 Rlt_0_1 qa l1 true true q1); pose proof (max_cc 1 1 Rlt_0_1 Rlt_0_1 qb l2 false true q2); lra.
  Qed.

  Lemma far_entry : forall e L, In e (circles_table 1 1 true c1 c2) -> e_length e = Some L -> 900 <= L.
  Proof.
    intros e L IN EL; pose proof big_max as BM; rewrite far_table in IN; cbn [In] in IN.
    assert (N : forall e', no_entry = e' -> e_length e' = Some L -> 900 <= L).
    { intros e' <- E; unfold no_entry in E; cbn [e_length] in E; injection E as <-; lra. }
    destruct (circle_all qa l1 true true P) as (_ & _ & _ & _ & R1 & _); pose proof radius_unit; pose proof far_distance as FD.
    destruct IN as [E|[E|[E|[E|[E|[E|[E|[]]]]]]]]; try (exact (N e E EL)).
    - unfold entry_TT in E; destruct (TT_exists _ _ _) eqn:X; [|exact (N e E EL)]. exfalso.
      unfold TT_exists in X; destruct (Bool.eqb _ _); [discriminate|]; destruct (Bool.eqb _ _); [discriminate|].
      apply Num.Rltb_true in X; rewrite R1 in X; apply Rabs_def2 in X; unfold epsilon in X; lra.
    - unfold entry_TST in E; destruct (TST_exists _ _ _); [|exact (N e E EL)].
      destruct (TST_path _ _ _) as [[[l q1] q2]|] eqn:T; subst e; cbn [e_length nan_entry] in EL; [|discriminate].
      injection EL as <-; exact (far_straight _ _ _ _ T).
    - unfold entry_TTT in E; destruct (TTT_exists _ _ _) eqn:X; [|exact (N e E EL)]. exfalso.
      unfold TTT_exists in X; destruct (negb _); [discriminate|]; destruct (Bool.eqb _ _); [discriminate|].
      apply Num.Rleb_true in X; rewrite R1 in X; lra.
  Qed.
End Far.

Lemma far_plan : forall L, get_distance 1 1 true race_start race_goal = Some (Some L) -> 900 <= L.
Proof.
  intros L H; unfold get_distance in H; destruct (cc00_dubins _ _ _ _ _) as [p|] eqn:X; [|discriminate].
  unfold path_distance in H; injection H as EL. unfold cc00_dubins in X.
  apply select_path_in in X; unfold paths in X; apply paths_in in X; destruct X as (i & j & c1 & c2 & _ & N1 & N2 & S).
  destruct (CC00DProofs.circles_of _ _ _ _ _ _ _ _ _ N1 N2) as (l1 & l2 & H1 & H2).
  unfold cc00_circles_dubins_path in S; apply select_entry_in in S; destruct S as (IN & _).
  apply in_combine_r in IN; subst c1 c2; exact (far_entry l1 l2 _ _ IN EL).
Qed.

(** ** The race *)

Local Notation cl := (circle qa true true true P).
Local Notation cr := (circle qb true false true P).

Definition raced_table (a : R) : list Entry :=
  [no_entry; no_entry; no_entry; entry_TT 0 a cl cr; entry_TST 0 a cl cr; entry_TTT 1 1 0 a cl cr; no_entry].

Lemma raced_entry : forall a, exists e L, In e (raced_table a) /\ e_length e = Some L /\ L <= 90.
Proof.
  intros a. destruct (circle_all qa true true true P) as (_ & L1 & F1 & G1 & R1 & _).
  destruct (circle_all qb true false true P) as (_ & L2 & F2 & _). pose proof radius_unit.
  assert (X : TTT_exists 0 cl cr = true).
  { unfold TTT_exists; rewrite L1, L2, F1, F2, R1; cbn [Bool.eqb negb]; apply Num.Rleb_true; lra. }
  destruct (max_facts 1 1 Rlt_0_1 Rlt_0_1) as (_ & _ & _ & _ & M); rewrite detour_unit in M.
  assert (Y : exists L q1 q2 ci, TTT_path 1 1 0 a cl cr = Some (L, q1, q2, ci) /\ L <= 90).
  { unfold TTT_path, TTT_tangent_circles; cbv zeta; rewrite L1, F1, G1, R1.
    destruct (fsqrt _) as [dy|] eqn:D.
    2:{ exfalso; unfold fsqrt in D; destruct (Rlt_dec _ 0) as [N|]; [nra | discriminate]. }
    cbn [fbind]; unfold global_frame_change; cbv zeta; cbn [fbind].
    match goal with |- context [Rltb (?a1 + ?a2 + ?a3) (?b1 + ?b2 + ?b3)] =>
      assert (a1 + a2 + a3 <= 90 /\ b1 + b2 + b3 <= 90) as [W1 W2];
        [split; match goal with |- cc_turn_length _ ?u + cc_turn_length (circle ?w ?x ?y ?z _) ?v + _ <= _ =>
           pose proof (max_cc 1 1 Rlt_0_1 Rlt_0_1 qa true true true u); pose proof (max_cc 1 1 Rlt_0_1 Rlt_0_1 w x y z v);
           pose proof (max_cc 1 1 Rlt_0_1 Rlt_0_1 qb true false true v); lra end
        | destruct (Rltb (a1 + a2 + a3) (b1 + b2 + b3)); eexists _, _, _, _; (split; [reflexivity|assumption])] end. }
  destruct Y as (L & q1 & q2 & ci & Y & W).
  exists (entry_TTT 1 1 0 a cl cr), L; split; [cbn [raced_table In]; tauto|].
  unfold entry_TTT; rewrite X, Y; cbn [e_length]; split; [reflexivity|exact W].
Qed.

(** The candidates of the first thread when the members of the first pair of circles were overwritten. *)
Definition raced_tail : list (option (HPath cc_dubins_type)) := tl (paths 1 1 true race_start race_goal).
Definition raced_paths (a : R) : list (option (HPath cc_dubins_type)) :=
  select_entry cc_dubins_types (c_start cl) (c_start cr) (raced_table a) :: raced_tail.

Lemma select_some : forall c1 c2, exists p L,
  cc00_circles_dubins_path 1 1 true c1 c2 = Some p /\ e_length (h_entry p) = Some L.
Proof.
  intros c1 c2; destruct (CC00DProofs.table_first 1 1 true c1 c2) as [x0 X].
  destruct (select_entry_min cc_dubins_types (c_start c1) (c_start c2) _ x0 X (CC00DProofs.table_length 1 1 true c1 c2)) as (p & L & S & E & _).
  exists p, L; split; assumption.
Qed.

Lemma raced_distance : forall a, exists L, path_distance (select_path (raced_paths a)) = Some (Some L) /\ L <= 90.
Proof.
  intros a; destruct (raced_entry a) as (e & w & IN & EL & W).
  destruct (select_entry_min cc_dubins_types (c_start cl) (c_start cr) (raced_table a) DBL_MAX eq_refl ltac:(cbn; lia)) as (p & L & S & E & M).
  pose proof (M e w IN EL) as LW; pose proof big_max as BM.
  destruct (select_path_min (raced_paths a) L) as (p' & L' & S' & _ & E' & _ & M').
  - intros p0 [H|H].
    + rewrite S in H; injection H as <-; rewrite E; discriminate.
    + assert (H' : In (Some p0) (paths 1 1 true race_start race_goal)) by (unfold raced_tail in H; destruct (paths _ _ _ _ _); [destruct H | right; exact H]).
      unfold paths in H'; apply paths_in in H'; destruct H' as (i & j & c1 & c2 & _ & _ & _ & Q).
      destruct (select_some c1 c2) as (p1 & L1 & Q1 & E1); rewrite Q in Q1; injection Q1 as <-; rewrite E1; discriminate.
  - exists p; split; [left; exact S | exact E].
  - lra.
  - exists L'; rewrite S'; cbn [path_distance]; rewrite E'; split; [reflexivity|].
    pose proof (M' p L (or_introl S) E); lra.
Qed.

Lemma first_table : forall o, cc00d_table 1 1 true o cl cr =
  Write (o, Distance) (center_distance cl cr) (Write (o, Angle) (atan2 (c_yc cr - c_yc cl) (c_xc cr - c_xc cl))
    (in_order [Done no_entry; Done no_entry; Done no_entry; with_members o (fun d a => entry_TT d a cl cr);
       with_members o (fun d a => entry_TST d a cl cr); with_members o (fun d a => entry_TTT 1 1 d a cl cr); Done no_entry])).
Proof. intros o; unfold cc00d_table; rewrite not_equal, not_aligned, not_on_circle; reflexivity. Qed.

(** The rest of the first thread after the two assignments for the first pair. *)
Lemma first_thread : forall o, exists rest d a, 
  cc00d_get_distance 1 1 true o race_start race_goal = Write (o, Distance) d (Write (o, Angle) a rest) /\
  forall mem, mem (o, Distance) = 0 -> fst (run rest mem) = path_distance (select_path (raced_paths (mem (o, Angle)))).
Proof.
  intros o.
  set (F := fun '(i, j) => if skipped race_start race_goal i j then Done None
    else match nth_error (start_circles 1 1 true race_start) i, nth_error (end_circles 1 1 true race_goal) j with
         | Some c1, Some c2 => cc00d_circles 1 1 true o c1 c2 | _, _ => Done None end).
  set (tail := map F [(0%nat, 1%nat); (1%nat, 0%nat); (1%nat, 1%nat)]).
  set (body := in_order [Done no_entry; Done no_entry; Done no_entry; with_members o (fun d a => entry_TT d a cl cr);
       with_members o (fun d a => entry_TST d a cl cr); with_members o (fun d a => entry_TTT 1 1 d a cl cr); Done no_entry]).
  exists (bind (bind (bind (bind body (fun table => Done (select_entry cc_dubins_types (c_start cl) (c_start cr) table)))
    (fun a => bind (in_order tail) (fun l => Done (a :: l)))) (fun l => Done (select_path l))) (fun p => Done (path_distance p))).
  exists (center_distance cl cr), (atan2 (c_yc cr - c_yc cl) (c_xc cr - c_xc cl)); split.
  - unfold cc00d_get_distance, cc00d_plan, cc00d_paths.
    change (in_order (map _ (list_prod (seq 0 2) (seq 0 2)))) with (bind (F (0%nat, 0%nat)) (fun a => bind (in_order tail) (fun l => Done (a :: l)))).
    change (F (0%nat, 0%nat)) with (cc00d_circles 1 1 true o cl cr).
    unfold cc00d_circles; rewrite first_table; reflexivity.
  - intros mem Hd.
    assert (B : run body mem = (raced_table (mem (o, Angle)), mem)).
    { assert (SB : sees o 0 (mem (o, Angle)) body (raced_table (mem (o, Angle)))) by (unfold body, raced_table; see).
      exact (SB mem Hd eq_refl). }
    assert (T : steady (in_order tail) raced_tail).
    { assert (ST : steady (in_order tail) (map (fun '(i, j) => if skipped race_start race_goal i j then None
        else match nth_error (start_circles 1 1 true race_start) i, nth_error (end_circles 1 1 true race_goal) j with
         | Some c1, Some c2 => cc00_circles_dubins_path 1 1 true c1 c2 | _, _ => None end) [(0%nat, 1%nat); (1%nat, 0%nat); (1%nat, 1%nat)])).
      { apply steady_in_order; intros [i j]; unfold F; destruct (skipped _ _ _ _); [apply steady_done|].
        destruct (nth_error _ i); [|apply steady_done]; destruct (nth_error _ j); [|apply steady_done].
        unfold cc00d_circles, cc00_circles_dubins_path; apply (steady_map _ (fun table => select_entry _ _ _ table)), cc00d_table_steady. }
      exact ST. }
    set (g := fun table => Done (select_entry cc_dubins_types (c_start cl) (c_start cr) table)).
    set (f := fun a : option (HPath cc_dubins_type) => bind (in_order tail) (fun l => Done (a :: l))).
    assert (Q1 : run (bind body g) mem = (select_entry cc_dubins_types (c_start cl) (c_start cr) (raced_table (mem (o, Angle))), mem))
      by (rewrite run_bind, B; reflexivity).
    assert (Q2 : fst (run (bind (bind body g) f) mem) = raced_paths (mem (o, Angle))).
    { rewrite run_bind, Q1; unfold f; cbn [fst snd]; rewrite run_bind; cbn [run fst]; rewrite T; reflexivity. }
    rewrite run_bind; cbn [run fst]; rewrite run_bind; cbn [run fst]; rewrite Q2; reflexivity.
Qed.

(** The second thread begins by storing a distance of zero. *)
Lemma second_thread : forall o, exists rest a,
  cc00d_get_distance 1 1 true o race_start race_other = Write (o, Distance) 0 (Write (o, Angle) a rest).
Proof.
  intros o; set (w := configuration (2 * (p_radius P * p_sin_mu P)) 0 0 0).
  assert (Z : center_distance cl (circle w true false true P) = 0).
  { unfold center_distance, circle, global_frame_change; cbv zeta; cbn [c_xc c_yc].
    destruct qa_fields as (-> & -> & ->); unfold w, configuration; cbn [q_x q_y q_theta].
    rewrite (twopify_id 0) by (unfold TWO_PI; pose proof FresProofs.PI_gt; lra). rewrite cos_0, sin_0.
    match goal with |- sqrt ?e = 0 => replace e with 0 by ring end; apply sqrt_0. }
  rewrite <- Z; unfold cc00d_get_distance, cc00d_plan, cc00d_paths; eexists _, _; reflexivity.
Qed.

Lemma race : exists s1 s2 s3 schedule mem mem' L L' b,
  (forall mem0, fst (run (cc00d_get_distance 1 1 true 0 s1 s2) mem0) = Some (Some L)) /\
  interleave schedule (cc00d_get_distance 1 1 true 0 s1 s2) (cc00d_get_distance 1 1 true 0 s1 s3) mem = (Done (Some (Some L')), Done b, mem') /\
  900 <= L /\ L' <= 90.
Proof.
  set (mem := (fun _ => 0) : Memory).
  assert (PD : pos_dist race_start race_goal <= 1000).
  { unfold pos_dist, race_start, race_goal; cbn [st_x st_y]. replace ((0 - 1000) ^ 2 + (0 - 0) ^ 2) with (1000 * 1000) by ring. rewrite sqrt_square; lra. }
  destruct (CC00DProofs.cc00_dubins_plan 1 1 true race_start race_goal Rlt_0_1 Rlt_0_1) as (_ & L & _ & G & _).
  { rewrite detour_unit; pose proof DubinsProofs.DBL_MAX_big as B; assert (1 <= 10 ^ 300) by (apply pow_R1_Rle; lra). lra. }
  destruct (first_thread 0) as (rest & d & a & F & RUN). destruct (second_thread 0) as (rest2 & a2 & S).
  set (mem1 := store (store (store (store mem (0%nat, Distance) d) (0%nat, Angle) a) (0%nat, Distance) 0) (0%nat, Angle) a2).
  destruct (finish_first rest rest2 mem1) as [sch1 E1].
  destruct (finish_second (Done (fst (run rest mem1))) rest2 (snd (run rest mem1))) as [sch2 E2].
  destruct (raced_distance a2) as (L' & RD & W).
  assert (R1 : fst (run rest mem1) = Some (Some L')) by (rewrite RUN by reflexivity; exact RD).
  exists race_start, race_goal, race_other, ([true; true; false; false] ++ sch1 ++ sch2), mem, (snd (run rest2 (snd (run rest mem1)))), L, L'.
  exists (fst (run rest2 (snd (run rest mem1)))).
  split; [intros mem0; rewrite <- G; apply cc00d_distance_steady|].
  split; [|split; [exact (far_plan L G) | exact W]].
  rewrite F, S, interleave_app; cbn [interleave]. fold mem1. rewrite interleave_app, E1, <- R1; cbv zeta beta iota. exact E2.
Qed.

(** ** Cases *)
Lemma finishing : forall {A B} (p : Prog A) (q : Prog B) mem,
  exists schedule a b mem', interleave schedule p q mem = (Done a, Done b, mem').
Proof.
  intros A B p q mem; destruct (finish_first p q mem) as [s1 E1].
  destruct (finish_second (Done (fst (run p mem))) q (snd (run p mem))) as [s2 E2].
  exists (s1 ++ s2); eexists _, _, _; rewrite interleave_app, E1; exact E2.
Qed.

Lemma members_change : exists c1 c2 (mem : Memory),
  snd (run (cc00d_table 1 1 true 0 c1 c2) mem) (0%nat, Distance) <> mem (0%nat, Distance).
Proof.
  exists cl, cr, (fun _ => 0); rewrite first_table; cbn [run].
  match goal with |- snd (run ?body ?m) _ <> _ => set (b := body); set (m1 := m) end.
  assert (S : forall d a, exists v, sees 0 d a b v) by (intros d a; exists [no_entry; no_entry; no_entry; entry_TT d a cl cr; entry_TST d a cl cr; entry_TTT 1 1 d a cl cr; no_entry]; unfold b; see).
  destruct (S (m1 (0%nat, Distance)) (m1 (0%nat, Angle))) as [v SV]; rewrite (SV m1 eq_refl eq_refl); cbn [snd].
  change (center_distance cl cr <> 0); pose proof (far_distance true true); lra.
Qed.

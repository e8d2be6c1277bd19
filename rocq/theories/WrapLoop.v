(** * The loops over all predicted states *)
From Coq Require Import Reals ZArith List Lra Lia Bool.
From Verif Require Import Base ModelUtil ModelFresnel ModelCircle ModelPaths ModelWrap Num UtilProofs SpecPath SpecCloth SpecTurn SpecPlan SpecSide SpecWrap FresProofs PoseAlg TurnProofs MotionProofs TurnBounds LegProofs IntegrateProofs PlanSelect WrapPredict WrapProofs.
Import ListNotations.
Open Scope R_scope.

Lemma controls_distance_total cs : controls_distance cs = total_length cs.
Proof.
  unfold controls_distance. assert (G : forall a, fold_left (fun acc c => acc + Rabs (ct_delta_s c)) cs a = a + total_length cs).
  { induction cs as [|c cs IH]; intros a; unfold total_length; cbn [fold_left fold_right]; [ring|]. rewrite IH. unfold total_length. ring. }
  rewrite G. ring.
Qed.
Lemma all_some_map {A B} (f : A -> option B) (g : A -> B) l : (forall a, In a l -> f a = Some (g a)) -> all_some (map f l) = Some (map g l).
Proof.
  induction l as [|a l IH]; intros H; [reflexivity|]. cbn [map all_some]. rewrite (H a (or_introl eq_refl)), IH; [reflexivity|]. intros b I. apply H. right; exact I.
Qed.

(** The first minimum of a list. *)
Lemma min_fold (l : list R) : forall a, exists x, fold_left (fun m x => if fltb x m then x else m) (map Some l) (Some a) = Some x /\ In x (a :: l) /\ forall y, In y (a :: l) -> x <= y.
Proof.
  induction l as [|b l IH]; intros a; cbn [map fold_left].
  - exists a. split; [reflexivity|split; [left; reflexivity|]]. intros y [<-|[]]. lra.
  - unfold fltb at 2. unfold Rltb at 1. destruct (Rlt_dec b a) as [LT|NL].
    + destruct (IH b) as (x & E & I & M). exists x. split; [exact E|split; [right; exact I|]]. intros y [<-|J]; [|apply M, J]. pose proof (M b (or_introl eq_refl)). lra.
    + destruct (IH a) as (x & E & I & M). exists x. split; [exact E|split; [destruct I as [<-|I]; [left; reflexivity|right; right; exact I]|]].
      intros y [<-|[<-|J]]; [apply M; left; reflexivity| |apply M; right; exact J]. pose proof (M a (or_introl eq_refl)). lra.
Qed.
Lemma front_fold (l : list (list Control)) : forall a, let x := fold_left (fun m x => if Rltb (controls_distance x) (controls_distance m) then x else m) l a in
  In x (a :: l) /\ forall y, In y (a :: l) -> total_length x <= total_length y.
Proof.
  induction l as [|b l IH]; intros a; cbn [fold_left]; cbv zeta.
  - split; [left; reflexivity|]. intros y [<-|[]]. lra.
  - rewrite !controls_distance_total. unfold Rltb at 2 4. destruct (Rlt_dec (total_length b) (total_length a)) as [LT|NL].
    + destruct (IH b) as (I & M). split; [right; exact I|]. intros y [<-|J]; [|apply M, J]. pose proof (M b (or_introl eq_refl)). lra.
    + destruct (IH a) as (I & M). split; [destruct I as [I|I]; [left; exact I|right; right; exact I]|].
      intros y [<-|[<-|J]]; [apply M; left; reflexivity| |apply M; right; exact J]. pose proof (M a (or_introl eq_refl)). lra.
Qed.

Section Loop.
  Variables dist00 dist0pm distpm0 distpmpm : State -> State -> option flt.
  Variables ctrl00 ctrl0pm ctrlpm0 ctrlpmpm : State -> State -> option (list Control).
  Notation PD := (pair_distance dist00 dist0pm distpm0 distpmpm).
  Notation PC := (pair_controls ctrl00 ctrl0pm ctrlpm0 ctrlpmpm).

  Lemma pre_length c : total_length (pre c) = if Rltb epsilon (Rabs (ct_delta_s c)) then Rabs (ct_delta_s c) else 0.
  Proof. unfold pre. destruct (Rltb _ _); unfold total_length; cbn [fold_right]; ring. Qed.
  Lemma post_length c : total_length (post c) = total_length (pre c).
  Proof. unfold pre, post. destruct (Rltb _ _); [|reflexivity]. unfold total_length; cbn [fold_right]. destruct (reverse_curvature c) as (_ & _ & ->). reflexivity. Qed.
  Lemma pre_le c : total_length (pre c) <= Rabs (ct_delta_s c).
  Proof. rewrite pre_length. pose proof (Rabs_pos (ct_delta_s c)). destruct (Rltb _ _); lra. Qed.

  Lemma pair_equal q1 c1 q2 c2 : state_equal q1 q2 = true -> PD ((q1, c1), (q2, c2)) = Some (Some (total_length [subtract_control c1 c2])) /\ PC ((q1, c1), (q2, c2)) = Some [subtract_control c1 c2].
  Proof. intros E. unfold pair_distance, pair_controls. rewrite E. split; [|reflexivity]. unfold total_length; cbn [fold_right]. rewrite Rplus_0_r. reflexivity. Qed.
  Lemma pair_unequal q1 c1 q2 c2 L mid : state_equal q1 q2 = false -> call_distance dist00 dist0pm distpm0 distpmpm q1 q2 = Some (Some L) -> call_controls ctrl00 ctrl0pm ctrlpm0 ctrlpmpm q1 q2 = Some mid ->
    PD ((q1, c1), (q2, c2)) = Some (Some (L + total_length (pre c1) + total_length (post c2))) /\ PC ((q1, c1), (q2, c2)) = Some (pre c1 ++ mid ++ post c2).
  Proof.
    intros E D C. unfold pair_distance, pair_controls. rewrite E, D, C. rewrite post_length, !pre_length. unfold fbind, pre, post. split.
    - do 2 f_equal. destruct (Rltb epsilon (Rabs (ct_delta_s c1))), (Rltb epsilon (Rabs (ct_delta_s c2))); ring.
    - f_equal. destruct (Rltb epsilon (Rabs (ct_delta_s c1))), (Rltb epsilon (Rabs (ct_delta_s c2))); cbn [app]; rewrite ?app_nil_r; reflexivity.
  Qed.

  (** The shortest of all candidates is returned, and its length is the distance. *)
  Theorem loop_result starts ends G : starts <> [] -> ends <> [] ->
    (forall p1 p2, In p1 starts -> In p2 ends -> exists L cs, PD (p1, p2) = Some (Some L) /\ PC (p1, p2) = Some cs /\ Rabs (total_length cs - L) <= G) ->
    exists L cs p1 p2, loop_distance dist00 dist0pm distpm0 distpmpm starts ends = Some (Some L) /\ loop_controls ctrl00 ctrl0pm ctrlpm0 ctrlpmpm starts ends = Some cs /\
      In p1 starts /\ In p2 ends /\ PC (p1, p2) = Some cs /\ Rabs (total_length cs - L) <= G /\
      (forall p1 p2 L', In p1 starts -> In p2 ends -> PD (p1, p2) = Some (Some L') -> L <= L') /\
      (forall p1 p2 cs', In p1 starts -> In p2 ends -> PC (p1, p2) = Some cs' -> total_length cs <= total_length cs') /\
      (exists p1 p2, In p1 starts /\ In p2 ends /\ PD (p1, p2) = Some (Some L)).
  Proof.
    intros NS NE H. set (l := list_prod starts ends).
    set (f := fun p => match PD p with Some (Some L) => L | _ => 0 end). set (g := fun p => match PC p with Some cs => cs | None => [] end).
    assert (HP : forall p, In p l -> PD p = Some (Some (f p)) /\ PC p = Some (g p) /\ Rabs (total_length (g p) - f p) <= G).
    { intros [p1 p2] I. apply in_prod_iff in I. destruct I as (I1 & I2). destruct (H p1 p2 I1 I2) as (L & cs & D & C & A). unfold f, g. rewrite D, C. auto. }
    assert (NL : exists p0 l0, l = p0 :: l0).
    { destruct starts as [|a st]; [contradiction|]. destruct ends as [|b en]; [contradiction|]. unfold l. cbn. eexists _, _. reflexivity. }
    destruct NL as (p0 & l0 & EL).
    assert (AD : all_some (map PD l) = Some (map (fun p => Some (f p)) l)) by (apply all_some_map; intros p I; apply HP, I).
    assert (AC : all_some (map PC l) = Some (map g l)) by (apply all_some_map; intros p I; apply HP, I).
    unfold loop_distance, loop_controls. fold l. rewrite AD, AC. rewrite EL. cbn [map min_element sorted_front].
    rewrite <- (map_map f Some). destruct (min_fold (map f l0) (f p0)) as (L & EQ & IL & ML). rewrite EQ.
    destruct (front_fold (map g l0) (g p0)) as (IC & MC). set (cs := fold_left _ (map g l0) (g p0)) in *.
    change (f p0 :: map f l0) with (map f (p0 :: l0)) in IL, ML. change (g p0 :: map g l0) with (map g (p0 :: l0)) in IC, MC. rewrite <- EL in *.
    apply in_map_iff in IC. destruct IC as ([p1 p2] & EC & ICP). pose proof ICP as ICP'. apply in_prod_iff in ICP'. destruct ICP' as (I1 & I2).
    exists L, cs, p1, p2. split; [reflexivity|split; [reflexivity|split; [exact I1|split; [exact I2|split; [rewrite <- EC; apply HP, ICP|split; [|split; [|split]]]]]]].
    - apply in_map_iff in IL. destruct IL as (p' & EL' & IP'). destruct (HP p' IP') as (_ & _ & A'). destruct (HP _ ICP) as (_ & _ & A). rewrite EC in A. rewrite EL' in A'.
      pose proof (MC (g p') (in_map g l p' IP')) as M1. pose proof (ML (f (p1, p2)) (in_map f l _ ICP)) as M2.
      revert A A'. unfold Rabs. repeat destruct (Rcase_abs _); lra.
    - intros a b L' Ia Ib E. apply ML. apply in_map_iff. exists (a, b). assert (IN : In (a, b) l) by (apply in_prod_iff; auto). split; [|exact IN]. destruct (HP _ IN) as (E' & _). rewrite E in E'. congruence.
    - intros a b cs' Ia Ib E. apply MC. apply in_map_iff. exists (a, b). assert (IN : In (a, b) l) by (apply in_prod_iff; auto). split; [|exact IN]. destruct (HP _ IN) as (_ & E' & _). rewrite E in E'. congruence.
    - apply in_map_iff in IL. destruct IL as ([a b] & EL' & IP'). pose proof IP' as IAB. apply in_prod_iff in IAB. exists a, b. split; [apply IAB|split; [apply IAB|]]. rewrite <- EL'. apply HP, IP'.
  Qed.
End Loop.

(** * The plans for a car that looks the other way *)
From Coq Require Import Reals ZArith List Lra Lia Bool.
From Verif Require Import Base ModelUtil ModelCircle ModelPaths Num UtilProofs SpecPath SpecTurn SpecSide SpecOpt SpecRigid SpecAbout PoseAlg TurnProofs PlanProofs PlanFamily RigidBase RigidTactics RigidTests SwapPlan AboutBase.
Import ListNotations.
Open Scope R_scope.

(** ** States *)
Lemma conf0_turned q : configuration (st_x (turned q)) (st_y (turned q)) (st_theta (turned q)) 0 = ab (configuration (st_x q) (st_y q) (st_theta q) 0).
Proof. unfold turned; cbn [st_x st_y st_theta]. apply conf_ab; [apply ang_eq_refl|ring]. Qed.
Lemma confp_turned q k : configuration (st_x (turned q)) (st_y (turned q)) (st_theta (turned q)) k = ab (configuration (st_x q) (st_y q) (st_theta q) (- k)).
Proof. unfold turned; cbn [st_x st_y st_theta]. apply conf_ab; [apply ang_eq_refl|ring]. Qed.
Lemma confm_turned q k : configuration (st_x (turned q)) (st_y (turned q)) (st_theta (turned q)) (- k) = ab (configuration (st_x q) (st_y q) (st_theta q) k).
Proof. unfold turned; cbn [st_x st_y st_theta]. apply conf_ab; [apply ang_eq_refl|ring]. Qed.
Lemma abc_circle q l f r p : abc (circle q l f r p) = circle (ab q) (negb l) (negb f) r p.
Proof. rewrite circle_ab, !negb_involutive. reflexivity. Qed.
Lemma at_turned s1 a : at_conf s1 a -> at_conf (turned s1) (ab a).
Proof.
  unfold at_conf, peq, pst, pcf, turned, ab; cbn. intros (X & Y & T). split; [exact X|split; [exact Y|]].
  eapply ang_eq_trans; [|apply ang_eq_sym, twopify_ang]. apply ang_eq_add; [exact T|apply ang_eq_refl].
Qed.
Lemma turned_twice q : same_but_turns q (turned (turned q)).
Proof. unfold same_but_turns, turned; cbn. split; [reflexivity|split; [reflexivity|split; [exists 1%Z; ring|ring]]]. Qed.
Lemma heading_turned e s1 s2 : heading_within e (turned s1) (turned s2) -> heading_within e s1 s2.
Proof. intros [n N]. exists n. unfold turned in N; cbn [st_theta] in N. replace (st_theta s1 - st_theta s2 - 2 * PI * IZR n) with (st_theta s1 + PI - (st_theta s2 + PI) - 2 * PI * IZR n) by ring. exact N. Qed.
Lemma distinct_turned s1 s2 : distinct s1 s2 -> distinct (turned s1) (turned s2).
Proof. intros [N|N]; [left|right; exact N]. intros H. apply N. apply heading_turned. exact H. Qed.
Lemma ahead_twice e s1 s2 : ahead e (turned (turned s1)) (turned (turned s2)) -> ahead e s1 s2.
Proof.
  intros (t & phi & T & P & X & Y). exists t, (phi - 2 * PI). unfold turned in *; cbn [st_x st_y st_theta] in *. split; [exact T|]. split.
  - replace (phi - 2 * PI - st_theta s1) with (phi - (st_theta s1 + PI + PI)) by ring. exact P.
  - assert (E : ang_eq (phi - 2 * PI) phi) by (exists (-1)%Z; ring). rewrite (ang_eq_cos _ _ E), (ang_eq_sin _ _ E). split; assumption.
Qed.
Lemma unaligned_twice s1 s2 : unaligned s1 s2 -> unaligned (turned (turned s1)) (turned (turned s2)).
Proof. intros [N|N]; [left|right]; intros H; apply N; [apply heading_turned, heading_turned; exact H|apply ahead_twice; exact H]. Qed.
Lemma never_aligned_turned s1 s2 : never_aligned s1 s2 -> never_aligned (turned s1) (turned s2).
Proof. intros (A & B & C & E). split; [exact C|split; [exact E|split; apply unaligned_twice; assumption]]. Qed.
Lemma beside_turned q x y : beside (turned q) x y = beside q (- x) (- y).
Proof. unfold beside, turned; cbn [st_x st_y st_theta]. rewrite neg_cos, neg_sin. f_equal; ring. Qed.
Lemma sign_negb b : sign (negb b) = - sign b.
Proof. destruct b; unfold sign; cbn; ring. Qed.
Lemma turn_centre_turned k s l f q : turn_centre k s l f (turned q) = turn_centre k s (negb l) (negb f) q.
Proof. unfold turn_centre. rewrite beside_turned, !sign_negb. f_equal; ring. Qed.
Lemma arc_centre_turned k l q : arc_centre k l (turned q) = arc_centre k (negb l) q.
Proof. unfold arc_centre. rewrite beside_turned, !sign_negb. f_equal; ring. Qed.
Lemma no_turn_00_turned k s l f s1 s2 : no_turn_00 k s (negb l) (negb f) s1 s2 -> no_turn_00 k s l f (turned s1) (turned s2).
Proof. unfold no_turn_00. rewrite !turn_centre_turned. auto. Qed.
Lemma no_turn_pmpm_turned k l s1 s2 : no_turn_pmpm k (negb l) s1 s2 -> no_turn_pmpm k l (turned s1) (turned s2).
Proof. unfold no_turn_pmpm. rewrite !arc_centre_turned. auto. Qed.
Lemma side_turned l q : on_side l (turned q) -> on_side (negb l) q.
Proof.
  unfold on_side, turned; cbn [st_kappa]. intros [A B]. split; intros H.
  - rewrite B by lra. reflexivity.
  - rewrite A by lra. reflexivity.
Qed.
Lemma side_turned' l q : on_side l q -> on_side (negb l) (turned q).
Proof.
  unfold on_side, turned; cbn [st_kappa]. intros [A B]. split; intros H.
  - rewrite B by lra. reflexivity.
  - rewrite A by lra. reflexivity.
Qed.
Lemma Rltb_opp0 x : Rltb 0 (- x) = Rltb x 0.
Proof. unfold Rltb. destruct (Rlt_dec 0 (- x)), (Rlt_dec x 0); try reflexivity; lra. Qed.
Lemma Rltb_0opp x : Rltb (- x) 0 = Rltb 0 x.
Proof. unfold Rltb. destruct (Rlt_dec (- x) 0), (Rlt_dec 0 x); try reflexivity; lra. Qed.

(** ** Plans *)
Section Turned.
  Variables (ty : Type) (types : list ty) (table table' : Circle -> Circle -> list Entry) (sk sk' : nat -> nat -> bool) (A B A' B' : list Circle) (n : nat).
  Hypothesis first : forall c1 c2, exists x0, nth_error (map e_length (table' c1 c2)) 0 = Some (Some x0).
  Hypothesis short : forall c1 c2, (length (table' c1 c2) <= length types)%nat.
  Hypothesis NA : forall i c, nth_error A i = Some c -> (n - 1 - i < n)%nat /\ nth_error A' (n - 1 - i) = Some (abc c).
  Hypothesis NB : forall i c, nth_error B i = Some c -> (n - 1 - i < n)%nat /\ nth_error B' (n - 1 - i) = Some (abc c).
  Hypothesis SK : forall i j c1 c2, nth_error A i = Some c1 -> nth_error B j = Some c2 -> sk' (n - 1 - i)%nat (n - 1 - j)%nat = sk i j.
  Hypothesis rows : forall i j c1 c2, sk i j = false -> nth_error A i = Some c1 -> nth_error B j = Some c2 -> table' (abc c1) (abc c2) = map abE (table c1 c2).
  Lemma turned_plan p L :
    select_path (map (fun '(i, j) => if sk i j then None else
      match nth_error A i, nth_error B j with
      | Some c1, Some c2 => select_entry types (c_start c1) (c_start c2) (table c1 c2)
      | _, _ => None end) (list_prod (seq 0 n) (seq 0 n))) = Some p -> e_length (h_entry p) = Some L -> L < DBL_MAX ->
    exists p' L', select_path (map (fun '(i, j) => if sk' i j then None else
      match nth_error A' i, nth_error B' j with
      | Some c1, Some c2 => select_entry types (c_start c1) (c_start c2) (table' c1 c2)
      | _, _ => None end) (list_prod (seq 0 n) (seq 0 n))) = Some p' /\ e_length (h_entry p') = Some L' /\ L' < DBL_MAX /\ L' <= L.
  Proof.
    intros P EL LM. apply select_path_in in P. apply (paths_in sk A B (fun c1 c2 => select_entry types (c_start c1) (c_start c2) (table c1 c2))) in P.
    destruct P as (i & j & c1 & c2 & S & N1 & N2 & E). apply select_entry_in in E. destruct E as (IN & _ & _). apply in_combine_r in IN.
    destruct (NA i c1 N1) as [I1 M1]. destruct (NB j c2 N2) as [I2 M2].
    apply (plan_exists types table' sk' A' B' n n (n - 1 - i)%nat (n - 1 - j)%nat (abc c1) (abc c2) (abE (h_entry p)) L first short); try assumption.
    - rewrite (SK i j c1 c2 N1 N2). exact S.
    - rewrite (rows i j c1 c2 S N1 N2). apply in_map. exact IN.
  Qed.
End Turned.
Lemma nth4 (l l' : list Circle) : length l = 4%nat -> l' = rev (map abc l) -> forall i c, nth_error l i = Some c -> (4 - 1 - i < 4)%nat /\ nth_error l' (4 - 1 - i) = Some (abc c).
Proof.
  intros N -> i c E. split; [lia|]. destruct l as [|a [|b [|d [|e [|]]]]]; try discriminate N.
  destruct i as [|[|[|[|i]]]]; cbn in E |- *; [congruence..|destruct i; discriminate E].
Qed.
Lemma nth2 (l l' : list Circle) : length l = 2%nat -> l' = rev (map abc l) -> forall i c, nth_error l i = Some c -> (2 - 1 - i < 2)%nat /\ nth_error l' (2 - 1 - i) = Some (abc c).
Proof.
  intros N -> i c E. split; [lia|]. destruct l as [|a [|b [|]]]; try discriminate N.
  destruct i as [|[|i]]; cbn in E |- *; [congruence..|destruct i; discriminate E].
Qed.

(** ** Tables *)
Ltac ab_row := fail.
Ltac ab_rows c1 c2 :=
  ab_fields; change (center_distance (abc c1) (abc c2)) with (center_distance c1 c2); cbn [map];
  repeat (apply f_equal2; [first [reflexivity|ab_row]|]); reflexivity.
Ltac sk_tac n i j N1 N2 SA SB :=
  let I := fresh in let J := fresh in
  assert (I : (i < n)%nat) by (rewrite <- SA; apply nth_error_Some; congruence);
  assert (J : (j < n)%nat) by (rewrite <- SB; apply nth_error_Some; congruence);
  unfold turned; cbn [st_kappa]; rewrite ?Rltb_opp0, ?Rltb_0opp;
  destruct i as [|[|[|[|i]]]]; try lia; (destruct j as [|[|[|[|j]]]]; try lia); cbn [Nat.sub Nat.eqb andb orb]; rewrite ?orb_false_r, ?orb_false_l; reflexivity.

(** * Tactics for the assertions on turns *)
From Coq Require Import Reals List Lra Bool.
From Verif Require Import Base ModelUtil ModelCircle ModelPaths ModelAsserts Num.
Import ListNotations.
Open Scope R_scope.

Lemma circle_k q l f r p : Rabs (c_kappa (circle q l f r p)) = Rabs (p_kappa p).
Proof. unfold circle. destruct l, f; destruct (global_frame_change _ _ _ _ _); cbn [c_kappa]; rewrite ?Rabs_Ropp; reflexivity. Qed.
Lemma circle_at_k x y l f r p : Rabs (c_kappa (circle_at x y l f r p)) = Rabs (p_kappa p).
Proof. unfold circle_at. destruct l; cbn [c_kappa]; rewrite ?Rabs_Ropp; reflexivity. Qed.
Lemma circle_s q l f r p : Rabs (c_sigma (circle q l f r p)) = Rabs (p_sigma p).
Proof. unfold circle. destruct l, f; destruct (global_frame_change _ _ _ _ _); cbn [c_sigma]; rewrite ?Rabs_Ropp; reflexivity. Qed.
Lemma circle_at_s x y l f r p : Rabs (c_sigma (circle_at x y l f r p)) = Rabs (p_sigma p).
Proof. unfold circle_at. destruct l; cbn [c_sigma]; rewrite ?Rabs_Ropp; reflexivity. Qed.
Lemma circle_st q l f r p : c_start (circle q l f r p) = q.
Proof. unfold circle. destruct l, f; destruct (global_frame_change _ _ _ _ _); reflexivity. Qed.
Lemma hc_k k s : p_kappa (hc_cc_param k s) = k.
Proof. unfold hc_cc_param. destruct (if Rlt_dec epsilon (k / s) then _ else _) as [[x y] t]. reflexivity. Qed.
Lemma rs_k k : p_kappa (rs_param k) = k.
Proof. reflexivity. Qed.
Lemma rs_s k : Rabs (p_sigma (rs_param k)) = DBL_MAX.
Proof. cbn [rs_param set_param p_sigma]. apply Rabs_pos_eq. unfold DBL_MAX. apply (IZR_le 0). discriminate. Qed.

Lemma eps0 : 0 < epsilon.
Proof. unfold epsilon. lra. Qed.
Lemma same_below x y : x = y -> Rabs (x - y) < epsilon.
Proof. intros ->. rewrite Rminus_eq_0, Rabs_R0. apply eps0. Qed.
Lemma zero_below x : x = 0 -> Rabs x < epsilon.
Proof. intros ->. rewrite Rabs_R0. apply eps0. Qed.

Ltac head t := lazymatch t with ?f _ => head f | _ => t end.

(** Follow the computation of the circles and configurations in an equation. *)
Ltac cut_eq x := first [is_var x; destruct x | let D := fresh "D" in destruct x eqn:D; try (lazymatch type of D with @eq ?T _ _ => lazymatch T with context [Configuration] => fail | _ => clear D end end)].
Ltac step := match goal with
  | E : Some _ = Some _ |- _ => injection E; clear E; intros; subst
  | E : (_, _) = (_, _) |- _ => injection E; clear E; intros; subst
  | E : None = Some _ |- _ => discriminate E
  | E : fbind ?x _ = _ |- _ => cut_eq x; cbn [fbind] in E
  | E : (match ?x with _ => _ end) = _ |- _ => cut_eq x
  | E : ?t = Some _ |- _ => let h := head t in unfold h in E; cbv zeta beta in E
  | E : ?t = (_, _) |- _ => let h := head t in unfold h in E; cbv zeta beta in E
  end.
(** Curvature of a computed configuration. *)
Ltac conf_k := repeat lazymatch goal with
  | |- context [q_kappa (c_start _)] => fail
  | |- context [q_kappa (match ?x with _ => _ end)] => destruct x
  | |- context [q_kappa (configuration ?x ?y ?t ?k)] => change (q_kappa (configuration x y t k)) with k
  | |- context [q_kappa ?t] => let h := head t in progress unfold h; cbv zeta beta
  end.
Ltac atom := first [apply same_below|apply zero_below]; conf_k; rewrite ?circle_k, ?circle_at_k, ?circle_s, ?circle_at_s, ?hc_k, ?rs_k, ?rs_s; try assumption; try reflexivity; try congruence.
Ltac asserts := repeat match goal with
  | |- _ /\ _ => split
  | |- True => exact I
  | |- hc_turn_assert _ _ => unfold hc_turn_assert
  | |- rs_turn_assert _ _ => unfold rs_turn_assert; split
  | |- cc_turn_assert _ => unfold cc_turn_assert
  | |- Rabs _ < epsilon => atom
  end.
(** One entry of a table. *)
Ltac family := match goal with |- _ (mkHPath _ _ _ ?e) => let h := head e in unfold h end;
  match goal with |- context [if ?x then _ else no_entry] => destruct x; [|exact I] end;
  match goal with |- context [match ?x with _ => _ end] => let E := fresh "E" in destruct x eqn:E end; repeat match goal with p : (_ * _)%type |- _ => destruct p end; try exact I.
(** Kinds of circles at the start and the goal: of a state of zero curvature, and of one of the curvature bound. *)
Definition straight_end (k : R) (c : Circle) : Prop := Rabs (c_kappa c) = Rabs k /\ q_kappa (c_start c) = 0.
Definition curved_end (k : R) (c : Circle) : Prop := Rabs (c_kappa c) = Rabs k /\ Rabs (q_kappa (c_start c)) = Rabs k /\ Rabs (c_sigma c) = DBL_MAX.
Ltac ends := repeat match goal with H : In _ (_ :: _) |- _ => destruct H as [H|H] | H : In _ [] |- _ => destruct H end; subst;
  repeat split; rewrite ?circle_st; try (unfold configuration; cbn [q_kappa]); rewrite ?circle_k, ?circle_s, ?hc_k, ?rs_k, ?rs_s, ?Rabs_Ropp; reflexivity.

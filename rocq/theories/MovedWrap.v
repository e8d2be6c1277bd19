(** * The spaces for states of any curvature in a shifted frame *)
From Coq Require Import Reals ZArith List Lra Lia Bool.
From Verif Require Import Base ModelUtil ModelFresnel ModelCircle ModelPaths ModelWrap Num UtilProofs SpecPath SpecRigid RigidTests.
From Verif Require ModelCC00D MovedCC00D ModelCC0pmD MovedCC0pmD ModelCCpm0D MovedCCpm0D ModelCCpmpmD MovedCCpmpmD ModelHC00R MovedHC00R ModelHC0pmR MovedHC0pmR ModelHCpm0R MovedHCpm0R ModelHCpmpmR MovedHCpmpmR.
Import ListNotations.
Open Scope R_scope.

Section Shifted.
  Variables u v : R.
  Definition shifted (a b : State) : Prop := same_but_turns (shift u v a) b.
  Definition shifted_c (a b : State * Control) : Prop := shifted (fst a) (fst b) /\ snd b = snd a.
  Definition same_for {A} (f : State -> State -> A) : Prop := forall a b a' b', shifted a a' -> shifted b b' -> f a' b' = f a b.

  Lemma state_equal_shifted : same_for state_equal.
  Proof.
    intros a b a' b' (X1 & Y1 & [n T1] & K1) (X2 & Y2 & [m T2] & K2). unfold shift in *; cbn in *.
    unfold state_equal. rewrite X1, Y1, X2, Y2, K1, K2.
    rewrite (twopify_congr (st_theta a') (st_theta a)) by (exists n; exact T1). rewrite (twopify_congr (st_theta b') (st_theta b)) by (exists m; exact T2).
    replace (point_distance (st_x a + u) (st_y a + v) (st_x b + u) (st_y b + v)) with (point_distance (st_x a) (st_y a) (st_x b) (st_y b)); [reflexivity|].
    unfold point_distance. f_equal. ring.
  Qed.

  Lemma prod_shifted : forall l l' m m', Forall2 shifted_c l l' -> Forall2 shifted_c m m' ->
    Forall2 (fun p q => shifted_c (fst p) (fst q) /\ shifted_c (snd p) (snd q)) (list_prod l m) (list_prod l' m').
  Proof.
    intros l l' m m' H M. induction H as [|a b l l' E H IH]; [constructor|]. cbn [list_prod]. apply Forall2_app; [|exact IH].
    clear IH H. induction M as [|c d m m' F M IH]; [constructor|]. cbn [map]. constructor; [split; assumption|exact IH].
  Qed.
  Lemma map_same {A B} (P : A -> A -> Prop) (f : A -> B) l l' : (forall a b, P a b -> f b = f a) -> Forall2 P l l' -> map f l' = map f l.
  Proof. intros H F. induction F as [|a b l l' E F IH]; [reflexivity|]. cbn [map]. rewrite IH, (H _ _ E). reflexivity. Qed.

  Lemma loop_distance_shifted d1 d2 d3 d4 l l' m m' : same_for d1 -> same_for d2 -> same_for d3 -> same_for d4 ->
    Forall2 shifted_c l l' -> Forall2 shifted_c m m' -> loop_distance d1 d2 d3 d4 l' m' = loop_distance d1 d2 d3 d4 l m.
  Proof.
    intros H1 H2 H3 H4 L M. unfold loop_distance.
    pose proof (prod_shifted l l' m m' L M) as P. rewrite (map_same _ (pair_distance d1 d2 d3 d4) (list_prod l m) (list_prod l' m')) with (2 := P); [reflexivity|].
    intros [[a c] [b e]] [[a' c'] [b' e']] [[A C] [B E]]; cbn [fst snd] in *. subst c' e'. unfold pair_distance.
    rewrite (state_equal_shifted a b a' b' A B). replace (call_distance d1 d2 d3 d4 a' b') with (call_distance d1 d2 d3 d4 a b); [reflexivity|].
    unfold call_distance. rewrite (H1 a b a' b' A B), (H2 a b a' b' A B), (H3 a b a' b' A B), (H4 a b a' b' A B).
    destruct A as (_ & _ & _ & KA), B as (_ & _ & _ & KB). rewrite KA, KB. reflexivity.
  Qed.
  Lemma loop_controls_shifted d1 d2 d3 d4 l l' m m' : same_for d1 -> same_for d2 -> same_for d3 -> same_for d4 ->
    Forall2 shifted_c l l' -> Forall2 shifted_c m m' -> loop_controls d1 d2 d3 d4 l' m' = loop_controls d1 d2 d3 d4 l m.
  Proof.
    intros H1 H2 H3 H4 L M. unfold loop_controls.
    pose proof (prod_shifted l l' m m' L M) as P. rewrite (map_same _ (pair_controls d1 d2 d3 d4) (list_prod l m) (list_prod l' m')) with (2 := P); [reflexivity|].
    intros [[a c] [b e]] [[a' c'] [b' e']] [[A C] [B E]]; cbn [fst snd] in *. subst c' e'. unfold pair_controls.
    rewrite (state_equal_shifted a b a' b' A B). replace (call_controls d1 d2 d3 d4 a' b') with (call_controls d1 d2 d3 d4 a b); [reflexivity|].
    unfold call_controls. rewrite (H1 a b a' b' A B), (H2 a b a' b' A B), (H3 a b a' b' A B), (H4 a b a' b' A B).
    destruct A as (_ & _ & _ & KA), B as (_ & _ & _ & KB). rewrite KA, KB. reflexivity.
  Qed.

  Lemma predicted_shifted j j' a b c : shifted a b -> shifted_c (predicted j a c) (predicted j' b c).
  Proof.
    intros (X & Y & [n T] & K). cbn [shift st_x st_y st_theta st_kappa] in *. unfold predicted, end_of_clothoid. cbv zeta. rewrite X, Y, K.
    split; [|reflexivity]. cbn [fst]. set (kk := st_kappa a) in *. set (dd := sgn (ct_delta_s c)). set (ss := ct_sigma c).
    assert (EK : st_theta b - 1 / 2 * dd * kk * kk / ss = st_theta a - 1 / 2 * dd * kk * kk / ss + 2 * PI * IZR n) by (rewrite T; ring).
    rewrite EK, cos_2kPI, sin_2kPI. unfold shifted, same_but_turns, shift; cbn [st_x st_y st_theta st_kappa].
    split; [ring|]. split; [ring|]. split; [|reflexivity].
    eapply ang_eq_trans; [apply pify_ang|]. eapply ang_eq_trans; [|apply ang_eq_sym, pify_ang]. exists n. rewrite T. ring.
  Qed.

  Lemma no_prediction_shifted k a b : shifted a b -> no_prediction k b = no_prediction k a.
  Proof. intros (_ & _ & _ & K). unfold no_prediction. rewrite K. reflexivity. Qed.
  Lemma cc_predict_shifted j k s a b fw : shifted a b -> Forall2 shifted_c (cc_predict_state j k s a fw) (cc_predict_state j k s b fw).
  Proof.
    intros H. unfold cc_predict_state. rewrite (no_prediction_shifted k a b H). pose proof H as (_ & _ & _ & K); cbn [shift st_kappa] in K.
    destruct (no_prediction k a).
    - constructor; [|constructor]. split; [exact H|]. cbn. rewrite K. reflexivity.
    - unfold cc_prediction_controls. rewrite K. destruct fw; cbn [map]; repeat constructor; try apply predicted_shifted; try exact H; reflexivity.
  Qed.
  Lemma hc_predict_shifted j k s a b : shifted a b -> Forall2 shifted_c (hc_predict_state j k s a) (hc_predict_state j k s b).
  Proof.
    intros H. unfold hc_predict_state. rewrite (no_prediction_shifted k a b H). pose proof H as (_ & _ & _ & K); cbn [shift st_kappa] in K.
    destruct (no_prediction k a).
    - constructor; [|constructor]. split; [exact H|]. cbn. rewrite K. reflexivity.
    - unfold hc_prediction_controls. rewrite K. cbn [map]; repeat constructor; try apply predicted_shifted; try exact H; reflexivity.
  Qed.

  Lemma same_from {A} (f : State -> State -> A) :
    (forall a b, f (shift u v a) (shift u v b) = f a b) ->
    (forall a b a' b', same_but_turns a a' -> same_but_turns b b' -> f a' b' = f a b) -> same_for f.
  Proof. intros H1 H2 a b a' b' SA SB. rewrite (H2 _ _ _ _ SA SB). apply H1. Qed.
  Ltac same M T := apply same_from; [intros; rewrite !shift_rigid; apply M; left; reflexivity|intros; apply T; assumption].

  Lemma cc_dubins_shifted j k s fw a b a' b' : shifted a a' -> shifted b b' ->
    cc_dubins_distance j k s fw a' b' = cc_dubins_distance j k s fw a b /\ cc_dubins_controls j k s fw a' b' = cc_dubins_controls j k s fw a b.
  Proof.
    intros A B. split; [apply loop_distance_shifted|apply loop_controls_shifted];
      try (apply cc_predict_shifted; assumption).
    1, 5: same MovedCC00D.cc00_dubins_moved MovedCC00D.cc00_dubins_turns.
    1, 4: same MovedCC0pmD.cc0pm_dubins_moved MovedCC0pmD.cc0pm_dubins_turns.
    1, 3: same MovedCCpm0D.ccpm0_dubins_moved MovedCCpm0D.ccpm0_dubins_turns.
    1, 2: same MovedCCpmpmD.ccpmpm_dubins_moved MovedCCpmpmD.ccpmpm_dubins_turns.
  Qed.
  Lemma hc_rs_shifted j k s a b a' b' : shifted a a' -> shifted b b' ->
    hc_rs_distance j k s a' b' = hc_rs_distance j k s a b /\ hc_rs_controls j k s a' b' = hc_rs_controls j k s a b.
  Proof.
    intros A B. split; [apply loop_distance_shifted|apply loop_controls_shifted];
      try (apply hc_predict_shifted; assumption).
    1, 5: same MovedHC00R.hc00_reeds_shepp_moved MovedHC00R.hc00_reeds_shepp_turns.
    1, 4: same MovedHC0pmR.hc0pm_reeds_shepp_moved MovedHC0pmR.hc0pm_reeds_shepp_turns.
    1, 3: same MovedHCpm0R.hcpm0_reeds_shepp_moved MovedHCpm0R.hcpm0_reeds_shepp_turns.
    1, 2: same MovedHCpmpmR.hcpmpm_reeds_shepp_moved MovedHCpmpmR.hcpmpm_reeds_shepp_turns.
  Qed.
End Shifted.

Lemma shifted_shift u v a : shifted u v a (shift u v a).
Proof. split; [reflexivity|]. split; [reflexivity|]. split; [exists 0%Z; ring|reflexivity]. Qed.
Lemma shifted_turns a b : same_but_turns a b -> shifted 0 0 a b.
Proof. intros (X & Y & T & K). unfold shifted, same_but_turns, shift; cbn [st_x st_y st_theta st_kappa]. rewrite X, Y. split; [ring|]. split; [ring|]. split; [exact T|exact K]. Qed.

Theorem any_curvature_shift u v j k s fw a b :
  (cc_dubins_distance j k s fw (shift u v a) (shift u v b) = cc_dubins_distance j k s fw a b /\ cc_dubins_controls j k s fw (shift u v a) (shift u v b) = cc_dubins_controls j k s fw a b) /\
  (hc_rs_distance j k s (shift u v a) (shift u v b) = hc_rs_distance j k s a b /\ hc_rs_controls j k s (shift u v a) (shift u v b) = hc_rs_controls j k s a b).
Proof. split; [apply (cc_dubins_shifted u v)|apply (hc_rs_shifted u v)]; apply shifted_shift. Qed.
Theorem any_curvature_turns j k s fw a b a' b' : same_but_turns a a' -> same_but_turns b b' ->
  (cc_dubins_distance j k s fw a' b' = cc_dubins_distance j k s fw a b /\ cc_dubins_controls j k s fw a' b' = cc_dubins_controls j k s fw a b) /\
  (hc_rs_distance j k s a' b' = hc_rs_distance j k s a b /\ hc_rs_controls j k s a' b' = hc_rs_controls j k s a b).
Proof. intros A B. split; [apply (cc_dubins_shifted 0 0)|apply (hc_rs_shifted 0 0)]; apply shifted_turns; assumption. Qed.

(** * The driving direction stored in a state plays no role in planning *)
From Coq Require Import Reals List Lra.
From Verif Require Import Base ModelUtil ModelCircle ModelWrap.
From Verif Require ModelFresnel ModelCC00D ModelCC0pmD ModelCCpm0D ModelCCpmpmD ModelCC00R ModelHC00R ModelHC0pmR ModelHCpm0R ModelHCpmpmR.
Import ListNotations.
Open Scope R_scope.

Definition undirected (st : State) : State := mkState (st_x st) (st_y st) (st_theta st) (st_kappa st) 0.
Definition forget (p : State * Control) : State * Control := (undirected (fst p), snd p).

Lemma list_prod_map : forall {A B C D} (f : A -> C) (g : B -> D) l m,
  list_prod (map f l) (map g m) = map (fun p => (f (fst p), g (snd p))) (list_prod l m).
Proof.
  intros A B C D f g l m; induction l as [|a l IH]; [reflexivity|].
  cbn [map list_prod]; rewrite IH, map_app, !map_map; reflexivity.
Qed.

Definition blind {A} (f : State -> State -> A) : Prop := forall a b, f (undirected a) (undirected b) = f a b.

Lemma loop_distance_forget : forall d1 d2 d3 d4, blind d1 -> blind d2 -> blind d3 -> blind d4 ->
  forall starts ends, loop_distance d1 d2 d3 d4 (map forget starts) (map forget ends) = loop_distance d1 d2 d3 d4 starts ends.
Proof.
  intros d1 d2 d3 d4 H1 H2 H3 H4 starts ends; unfold loop_distance.
  rewrite list_prod_map, map_map.
  rewrite (map_ext _ (pair_distance d1 d2 d3 d4)); [reflexivity|]; intros [[s c] [t e]].
  unfold pair_distance, forget; cbn [fst snd]; change (state_equal (undirected s) (undirected t)) with (state_equal s t).
  replace (call_distance d1 d2 d3 d4 (undirected s) (undirected t)) with (call_distance d1 d2 d3 d4 s t); [reflexivity|].
  unfold call_distance; rewrite H1, H2, H3, H4; reflexivity.
Qed.

Lemma loop_controls_forget : forall d1 d2 d3 d4, blind d1 -> blind d2 -> blind d3 -> blind d4 ->
  forall starts ends, loop_controls d1 d2 d3 d4 (map forget starts) (map forget ends) = loop_controls d1 d2 d3 d4 starts ends.
Proof.
  intros d1 d2 d3 d4 H1 H2 H3 H4 starts ends; unfold loop_controls.
  rewrite list_prod_map, map_map.
  rewrite (map_ext _ (pair_controls d1 d2 d3 d4)); [reflexivity|]; intros [[s c] [t e]].
  unfold pair_controls, forget; cbn [fst snd]; change (state_equal (undirected s) (undirected t)) with (state_equal s t).
  replace (call_controls d1 d2 d3 d4 (undirected s) (undirected t)) with (call_controls d1 d2 d3 d4 s t); [reflexivity|].
  unfold call_controls; rewrite H1, H2, H3, H4; reflexivity.
Qed.

Lemma cc_predict_forget : forall j k s st fw, 
  map forget (cc_predict_state j k s st fw) = map forget (cc_predict_state 0 k s (undirected st) fw).
Proof.
  intros j k s st fw; unfold cc_predict_state; change (no_prediction k (undirected st)) with (no_prediction k st).
  destruct (no_prediction k st); [reflexivity|]; rewrite !map_map.
  change (cc_prediction_controls k s (undirected st) fw) with (cc_prediction_controls k s st fw).
  apply map_ext; intros c; unfold forget, predicted; cbv zeta; cbn [undirected st_x st_y st_theta st_kappa].
  destruct (ModelFresnel.end_of_clothoid _ _ _ _ _ _ _) as [[[? ?] ?] ?]; reflexivity.
Qed.

Lemma hc_predict_forget : forall j k s st, 
  map forget (hc_predict_state j k s st) = map forget (hc_predict_state 0 k s (undirected st)).
Proof.
  intros j k s st; unfold hc_predict_state; change (no_prediction k (undirected st)) with (no_prediction k st).
  destruct (no_prediction k st); [reflexivity|]; rewrite !map_map.
  change (hc_prediction_controls k s (undirected st)) with (hc_prediction_controls k s st).
  apply map_ext; intros c; unfold forget, predicted; cbv zeta; cbn [undirected st_x st_y st_theta st_kappa].
  destruct (ModelFresnel.end_of_clothoid _ _ _ _ _ _ _) as [[[? ?] ?] ?]; reflexivity.
Qed.

Lemma cc_blind : forall j k s fw a b,
  cc_dubins_distance j k s fw a b = cc_dubins_distance 0 k s fw (undirected a) (undirected b) /\
  cc_dubins_controls j k s fw a b = cc_dubins_controls 0 k s fw (undirected a) (undirected b).
Proof.
  intros j k s fw a b; split.
  - unfold cc_dubins_distance; rewrite <- loop_distance_forget, (cc_predict_forget j), (cc_predict_forget j), loop_distance_forget;
      first [reflexivity | intros [] []; reflexivity].
  - unfold cc_dubins_controls; rewrite <- loop_controls_forget, (cc_predict_forget j), (cc_predict_forget j), loop_controls_forget;
      first [reflexivity | intros [] []; reflexivity].
Qed.

Lemma hc_blind : forall j k s a b,
  hc_rs_distance j k s a b = hc_rs_distance 0 k s (undirected a) (undirected b) /\
  hc_rs_controls j k s a b = hc_rs_controls 0 k s (undirected a) (undirected b).
Proof.
  intros j k s a b; split.
  - unfold hc_rs_distance; rewrite <- loop_distance_forget, (hc_predict_forget j), (hc_predict_forget j), loop_distance_forget;
      first [reflexivity | intros [] []; reflexivity].
  - unfold hc_rs_controls; rewrite <- loop_controls_forget, (hc_predict_forget j), (hc_predict_forget j), loop_controls_forget;
      first [reflexivity | intros [] []; reflexivity].
Qed.

Lemma cc_junk : forall j j' k s fw a b a' b', undirected a = undirected a' -> undirected b = undirected b' ->
  cc_dubins_distance j k s fw a b = cc_dubins_distance j' k s fw a' b' /\
  cc_dubins_controls j k s fw a b = cc_dubins_controls j' k s fw a' b'.
Proof.
  intros j j' k s fw a b a' b' Ha Hb; destruct (cc_blind j k s fw a b) as [-> ->]; destruct (cc_blind j' k s fw a' b') as [-> ->].
  rewrite Ha, Hb; split; reflexivity.
Qed.

Lemma hc_junk : forall j j' k s a b a' b', undirected a = undirected a' -> undirected b = undirected b' ->
  hc_rs_distance j k s a b = hc_rs_distance j' k s a' b' /\ hc_rs_controls j k s a b = hc_rs_controls j' k s a' b'.
Proof.
  intros j j' k s a b a' b' Ha Hb; destruct (hc_blind j k s a b) as [-> ->]; destruct (hc_blind j' k s a' b') as [-> ->].
  rewrite Ha, Hb; split; reflexivity.
Qed.

Lemma predicted_junk : exists p q, hc_predict_state 7 1 1 (mkState 0 0 0 (1 / 2) 1) = p :: q /\ st_d (fst p) = 7%R.
Proof.
  unfold hc_predict_state.
  replace (no_prediction 1 (mkState 0 0 0 (1 / 2) 1)) with false.
  - unfold hc_prediction_controls; cbv zeta; cbn [map]; eexists _, _; split; [reflexivity|].
    unfold predicted; cbv zeta; destruct (ModelFresnel.end_of_clothoid _ _ _ _ _ _ _) as [[[? ?] ?] ?]; reflexivity.
  - unfold no_prediction; cbn [st_kappa]; rewrite Rabs_pos_eq by lra.
    unfold Rltb, epsilon; destruct (Rlt_dec _ _); [lra|]; destruct (Rlt_dec _ _); [lra|]; reflexivity.
Qed.

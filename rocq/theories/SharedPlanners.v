(** * Calls on shared objects: the planners. Machine-generated. *)
From Coq Require Import Reals ZArith List Bool Arith Lia.
From Verif Require Import Base ModelUtil ModelCircle ModelPaths ModelWrap ModelShared SpecShared SharedProofs.
From Verif Require ModelCC00D ModelCC0pmD ModelCCpm0D ModelCCpmpmD ModelCC00R ModelHC00R ModelHC0pmR ModelHCpm0R ModelHCpmpmR.
Import ListNotations.


Section CC00D.
Variables (k s : R) (fw : bool) (object : nat).
Lemma cc00d_table_steady : forall c1 c2, steady (cc00d_table k s fw object c1 c2) (ModelCC00D.circles_table k s fw c1 c2).
Proof.
  intros c1 c2; unfold cc00d_table, ModelCC00D.circles_table; cbv zeta; apply steady_writes; see.
Qed.
Lemma cc00d_plan_steady : forall a b, steady (cc00d_plan k s fw object a b) (ModelCC00D.cc00_dubins k s fw a b).
Proof.
  intros a b; unfold cc00d_plan, ModelCC00D.cc00_dubins.
  apply (steady_map _ select_path); unfold cc00d_paths, ModelCC00D.paths.
  apply steady_in_order; intros [i j].
  repeat (match goal with |- context [if ?c then _ else _] => destruct c
          | |- context [match nth_error ?l ?x with _ => _ end] => destruct (nth_error l x) end);
    try apply steady_done.
  unfold cc00d_circles, ModelCC00D.cc00_circles_dubins_path.
  apply (steady_map _ (fun table => select_entry _ _ _ table)), cc00d_table_steady.
Qed.
Lemma cc00d_distance_steady : forall a b, steady (cc00d_get_distance k s fw object a b) (ModelCC00D.get_distance k s fw a b).
Proof. intros; apply (steady_map _ path_distance), cc00d_plan_steady. Qed.
Lemma cc00d_controls_steady : forall a b, steady (cc00d_get_controls k s fw object a b) (ModelCC00D.get_controls k s fw a b).
Proof.
  intros; unfold cc00d_get_controls, ModelCC00D.get_controls.
  apply (steady_map _ (fun p => match p with Some p => ModelCC00D.path_controls p | None => None end)), cc00d_plan_steady.
Qed.
Lemma cc00d_plan_touches : forall a b, touches (eq object) (cc00d_plan k s fw object a b).
Proof.
  intros a b; unfold cc00d_plan; apply touches_map; unfold cc00d_paths; apply touches_in_order; intros [i j].
  repeat (match goal with |- context [if ?c then _ else _] => destruct c
          | |- context [match nth_error ?l ?x with _ => _ end] => destruct (nth_error l x) end);
    try apply touches_done.
  unfold cc00d_circles; apply touches_map; unfold cc00d_table; touch.
Qed.
Lemma cc00d_distance_touches : forall a b, touches (eq object) (cc00d_get_distance k s fw object a b).
Proof. intros; apply touches_map, cc00d_plan_touches. Qed.
Lemma cc00d_controls_touches : forall a b, touches (eq object) (cc00d_get_controls k s fw object a b).
Proof. intros; apply touches_map, cc00d_plan_touches. Qed.
End CC00D.

Section CC0pmD.
Variables (k s : R) (fw : bool) (object : nat).
Lemma cc0pmd_table_steady : forall c1 c2, steady (cc0pmd_table k s object c1 c2) (ModelCC0pmD.circles_table k s c1 c2).
Proof.
  intros c1 c2; unfold cc0pmd_table, ModelCC0pmD.circles_table; cbv zeta; apply steady_writes; see.
Qed.
Lemma cc0pmd_plan_steady : forall a b, steady (cc0pmd_plan k s fw object a b) (ModelCC0pmD.cc0pm_dubins k s fw a b).
Proof.
  intros a b; unfold cc0pmd_plan, ModelCC0pmD.cc0pm_dubins.
  apply (steady_map _ select_path); unfold cc0pmd_paths, ModelCC0pmD.paths.
  apply steady_in_order; intros [i j].
  repeat (match goal with |- context [if ?c then _ else _] => destruct c
          | |- context [match nth_error ?l ?x with _ => _ end] => destruct (nth_error l x) end);
    try apply steady_done.
  unfold cc0pmd_circles, ModelCC0pmD.cc0pm_circles_dubins_path.
  apply (steady_map _ (fun table => select_entry _ _ _ table)), cc0pmd_table_steady.
Qed.
Lemma cc0pmd_distance_steady : forall a b, steady (cc0pmd_get_distance k s fw object a b) (ModelCC0pmD.get_distance k s fw a b).
Proof. intros; apply (steady_map _ path_distance), cc0pmd_plan_steady. Qed.
Lemma cc0pmd_controls_steady : forall a b, steady (cc0pmd_get_controls k s fw object a b) (ModelCC0pmD.get_controls k s fw a b).
Proof.
  intros; unfold cc0pmd_get_controls, ModelCC0pmD.get_controls.
  apply (steady_map _ (fun p => match p with Some p => ModelCC0pmD.path_controls p | None => None end)), cc0pmd_plan_steady.
Qed.
Lemma cc0pmd_plan_touches : forall a b, touches (eq object) (cc0pmd_plan k s fw object a b).
Proof.
  intros a b; unfold cc0pmd_plan; apply touches_map; unfold cc0pmd_paths; apply touches_in_order; intros [i j].
  repeat (match goal with |- context [if ?c then _ else _] => destruct c
          | |- context [match nth_error ?l ?x with _ => _ end] => destruct (nth_error l x) end);
    try apply touches_done.
  unfold cc0pmd_circles; apply touches_map; unfold cc0pmd_table; touch.
Qed.
Lemma cc0pmd_distance_touches : forall a b, touches (eq object) (cc0pmd_get_distance k s fw object a b).
Proof. intros; apply touches_map, cc0pmd_plan_touches. Qed.
Lemma cc0pmd_controls_touches : forall a b, touches (eq object) (cc0pmd_get_controls k s fw object a b).
Proof. intros; apply touches_map, cc0pmd_plan_touches. Qed.
End CC0pmD.

Section CCpm0D.
Variables (k s : R) (fw : bool) (object : nat).
Lemma ccpm0d_table_steady : forall c1 c2, steady (ccpm0d_table k s object c1 c2) (ModelCCpm0D.circles_table k s c1 c2).
Proof.
  intros c1 c2; unfold ccpm0d_table, ModelCCpm0D.circles_table; cbv zeta; apply steady_writes; see.
Qed.
Lemma ccpm0d_plan_steady : forall a b, steady (ccpm0d_plan k s fw object a b) (ModelCCpm0D.ccpm0_dubins k s fw a b).
Proof.
  intros a b; unfold ccpm0d_plan, ModelCCpm0D.ccpm0_dubins.
  apply (steady_map _ select_path); unfold ccpm0d_paths, ModelCCpm0D.paths.
  apply steady_in_order; intros [i j].
  repeat (match goal with |- context [if ?c then _ else _] => destruct c
          | |- context [match nth_error ?l ?x with _ => _ end] => destruct (nth_error l x) end);
    try apply steady_done.
  unfold ccpm0d_circles, ModelCCpm0D.ccpm0_circles_dubins_path.
  apply (steady_map _ (fun table => select_entry _ _ _ table)), ccpm0d_table_steady.
Qed.
Lemma ccpm0d_distance_steady : forall a b, steady (ccpm0d_get_distance k s fw object a b) (ModelCCpm0D.get_distance k s fw a b).
Proof. intros; apply (steady_map _ path_distance), ccpm0d_plan_steady. Qed.
Lemma ccpm0d_controls_steady : forall a b, steady (ccpm0d_get_controls k s fw object a b) (ModelCCpm0D.get_controls k s fw a b).
Proof.
  intros; unfold ccpm0d_get_controls, ModelCCpm0D.get_controls.
  apply (steady_map _ (fun p => match p with Some p => ModelCCpm0D.path_controls p | None => None end)), ccpm0d_plan_steady.
Qed.
Lemma ccpm0d_plan_touches : forall a b, touches (eq object) (ccpm0d_plan k s fw object a b).
Proof.
  intros a b; unfold ccpm0d_plan; apply touches_map; unfold ccpm0d_paths; apply touches_in_order; intros [i j].
  repeat (match goal with |- context [if ?c then _ else _] => destruct c
          | |- context [match nth_error ?l ?x with _ => _ end] => destruct (nth_error l x) end);
    try apply touches_done.
  unfold ccpm0d_circles; apply touches_map; unfold ccpm0d_table; touch.
Qed.
Lemma ccpm0d_distance_touches : forall a b, touches (eq object) (ccpm0d_get_distance k s fw object a b).
Proof. intros; apply touches_map, ccpm0d_plan_touches. Qed.
Lemma ccpm0d_controls_touches : forall a b, touches (eq object) (ccpm0d_get_controls k s fw object a b).
Proof. intros; apply touches_map, ccpm0d_plan_touches. Qed.
End CCpm0D.

Section CCpmpmD.
Variables (k s : R) (fw : bool) (object : nat).
Lemma ccpmpmd_table_steady : forall c1 c2, steady (ccpmpmd_table k s object c1 c2) (ModelCCpmpmD.circles_table k s c1 c2).
Proof.
  intros c1 c2; unfold ccpmpmd_table, ModelCCpmpmD.circles_table; cbv zeta; apply steady_writes; see.
Qed.
Lemma ccpmpmd_plan_steady : forall a b, steady (ccpmpmd_plan k s fw object a b) (ModelCCpmpmD.ccpmpm_dubins k s fw a b).
Proof.
  intros a b; unfold ccpmpmd_plan, ModelCCpmpmD.ccpmpm_dubins.
  apply (steady_map _ select_path); unfold ccpmpmd_paths, ModelCCpmpmD.paths.
  apply steady_in_order; intros [i j].
  repeat (match goal with |- context [if ?c then _ else _] => destruct c
          | |- context [match nth_error ?l ?x with _ => _ end] => destruct (nth_error l x) end);
    try apply steady_done.
  unfold ccpmpmd_circles, ModelCCpmpmD.ccpmpm_circles_dubins_path.
  apply (steady_map _ (fun table => select_entry _ _ _ table)), ccpmpmd_table_steady.
Qed.
Lemma ccpmpmd_distance_steady : forall a b, steady (ccpmpmd_get_distance k s fw object a b) (ModelCCpmpmD.get_distance k s fw a b).
Proof. intros; apply (steady_map _ path_distance), ccpmpmd_plan_steady. Qed.
Lemma ccpmpmd_controls_steady : forall a b, steady (ccpmpmd_get_controls k s fw object a b) (ModelCCpmpmD.get_controls k s fw a b).
Proof.
  intros; unfold ccpmpmd_get_controls, ModelCCpmpmD.get_controls.
  apply (steady_map _ (fun p => match p with Some p => ModelCCpmpmD.path_controls p | None => None end)), ccpmpmd_plan_steady.
Qed.
Lemma ccpmpmd_plan_touches : forall a b, touches (eq object) (ccpmpmd_plan k s fw object a b).
Proof.
  intros a b; unfold ccpmpmd_plan; apply touches_map; unfold ccpmpmd_paths; apply touches_in_order; intros [i j].
  repeat (match goal with |- context [if ?c then _ else _] => destruct c
          | |- context [match nth_error ?l ?x with _ => _ end] => destruct (nth_error l x) end);
    try apply touches_done.
  unfold ccpmpmd_circles; apply touches_map; unfold ccpmpmd_table; touch.
Qed.
Lemma ccpmpmd_distance_touches : forall a b, touches (eq object) (ccpmpmd_get_distance k s fw object a b).
Proof. intros; apply touches_map, ccpmpmd_plan_touches. Qed.
Lemma ccpmpmd_controls_touches : forall a b, touches (eq object) (ccpmpmd_get_controls k s fw object a b).
Proof. intros; apply touches_map, ccpmpmd_plan_touches. Qed.
End CCpmpmD.

Section CC00R.
Variables (k s : R) (object : nat).
Lemma cc00r_table_steady : forall c1 c2, steady (cc00r_table k s object c1 c2) (ModelCC00R.circles_table k s c1 c2).
Proof.
  intros c1 c2; unfold cc00r_table, ModelCC00R.circles_table; cbv zeta; apply steady_writes; see.
Qed.
Lemma cc00r_plan_steady : forall a b, steady (cc00r_plan k s object a b) (ModelCC00R.cc00_reeds_shepp k s a b).
Proof.
  intros a b; unfold cc00r_plan, ModelCC00R.cc00_reeds_shepp.
  apply (steady_map _ select_path); unfold cc00r_paths, ModelCC00R.paths.
  apply steady_in_order; intros [i j].
  repeat (match goal with |- context [if ?c then _ else _] => destruct c
          | |- context [match nth_error ?l ?x with _ => _ end] => destruct (nth_error l x) end);
    try apply steady_done.
  unfold cc00r_circles, ModelCC00R.cc00_circles_rs_path.
  apply (steady_map _ (fun table => select_entry _ _ _ table)), cc00r_table_steady.
Qed.
Lemma cc00r_distance_steady : forall a b, steady (cc00r_get_distance k s object a b) (ModelCC00R.get_distance k s a b).
Proof. intros; apply (steady_map _ path_distance), cc00r_plan_steady. Qed.
Lemma cc00r_controls_steady : forall a b, steady (cc00r_get_controls k s object a b) (ModelCC00R.get_controls k s a b).
Proof.
  intros; unfold cc00r_get_controls, ModelCC00R.get_controls.
  apply (steady_map _ (fun p => match p with Some p => ModelCC00R.path_controls p | None => None end)), cc00r_plan_steady.
Qed.
Lemma cc00r_plan_touches : forall a b, touches (eq object) (cc00r_plan k s object a b).
Proof.
  intros a b; unfold cc00r_plan; apply touches_map; unfold cc00r_paths; apply touches_in_order; intros [i j].
  repeat (match goal with |- context [if ?c then _ else _] => destruct c
          | |- context [match nth_error ?l ?x with _ => _ end] => destruct (nth_error l x) end);
    try apply touches_done.
  unfold cc00r_circles; apply touches_map; unfold cc00r_table; touch.
Qed.
Lemma cc00r_distance_touches : forall a b, touches (eq object) (cc00r_get_distance k s object a b).
Proof. intros; apply touches_map, cc00r_plan_touches. Qed.
Lemma cc00r_controls_touches : forall a b, touches (eq object) (cc00r_get_controls k s object a b).
Proof. intros; apply touches_map, cc00r_plan_touches. Qed.
End CC00R.

Section HC00R.
Variables (k s : R) (object : nat).
Lemma hc00r_table_steady : forall c1 c2, steady (hc00r_table k s object c1 c2) (ModelHC00R.circles_table k s c1 c2).
Proof.
  intros c1 c2; unfold hc00r_table, ModelHC00R.circles_table; cbv zeta; apply steady_writes; see.
Qed.
Lemma hc00r_plan_steady : forall a b, steady (hc00r_plan k s object a b) (ModelHC00R.hc00_reeds_shepp k s a b).
Proof.
  intros a b; unfold hc00r_plan, ModelHC00R.hc00_reeds_shepp.
  apply (steady_map _ select_path); unfold hc00r_paths, ModelHC00R.paths.
  apply steady_in_order; intros [i j].
  repeat (match goal with |- context [if ?c then _ else _] => destruct c
          | |- context [match nth_error ?l ?x with _ => _ end] => destruct (nth_error l x) end);
    try apply steady_done.
  unfold hc00r_circles, ModelHC00R.hc00_circles_rs_path.
  apply (steady_map _ (fun table => select_entry _ _ _ table)), hc00r_table_steady.
Qed.
Lemma hc00r_distance_steady : forall a b, steady (hc00r_get_distance k s object a b) (ModelHC00R.get_distance k s a b).
Proof. intros; apply (steady_map _ path_distance), hc00r_plan_steady. Qed.
Lemma hc00r_controls_steady : forall a b, steady (hc00r_get_controls k s object a b) (ModelHC00R.get_controls k s a b).
Proof.
  intros; unfold hc00r_get_controls, ModelHC00R.get_controls.
  apply (steady_map _ (fun p => match p with Some p => ModelHC00R.path_controls p | None => None end)), hc00r_plan_steady.
Qed.
Lemma hc00r_plan_touches : forall a b, touches (eq object) (hc00r_plan k s object a b).
Proof.
  intros a b; unfold hc00r_plan; apply touches_map; unfold hc00r_paths; apply touches_in_order; intros [i j].
  repeat (match goal with |- context [if ?c then _ else _] => destruct c
          | |- context [match nth_error ?l ?x with _ => _ end] => destruct (nth_error l x) end);
    try apply touches_done.
  unfold hc00r_circles; apply touches_map; unfold hc00r_table; touch.
Qed.
Lemma hc00r_distance_touches : forall a b, touches (eq object) (hc00r_get_distance k s object a b).
Proof. intros; apply touches_map, hc00r_plan_touches. Qed.
Lemma hc00r_controls_touches : forall a b, touches (eq object) (hc00r_get_controls k s object a b).
Proof. intros; apply touches_map, hc00r_plan_touches. Qed.
End HC00R.

Section HC0pmR.
Variables (k s : R) (object : nat).
Lemma hc0pmr_table_steady : forall c1 c2, steady (hc0pmr_table k s object c1 c2) (ModelHC0pmR.circles_table k s c1 c2).
Proof.
  intros c1 c2; unfold hc0pmr_table, ModelHC0pmR.circles_table; cbv zeta; apply steady_writes; see.
Qed.
Lemma hc0pmr_plan_steady : forall a b, steady (hc0pmr_plan k s object a b) (ModelHC0pmR.hc0pm_reeds_shepp k s a b).
Proof.
  intros a b; unfold hc0pmr_plan, ModelHC0pmR.hc0pm_reeds_shepp.
  apply (steady_map _ select_path); unfold hc0pmr_paths, ModelHC0pmR.paths.
  apply steady_in_order; intros [i j].
  repeat (match goal with |- context [if ?c then _ else _] => destruct c
          | |- context [match nth_error ?l ?x with _ => _ end] => destruct (nth_error l x) end);
    try apply steady_done.
  unfold hc0pmr_circles, ModelHC0pmR.hc0pm_circles_rs_path.
  apply (steady_map _ (fun table => select_entry _ _ _ table)), hc0pmr_table_steady.
Qed.
Lemma hc0pmr_distance_steady : forall a b, steady (hc0pmr_get_distance k s object a b) (ModelHC0pmR.get_distance k s a b).
Proof. intros; apply (steady_map _ path_distance), hc0pmr_plan_steady. Qed.
Lemma hc0pmr_controls_steady : forall a b, steady (hc0pmr_get_controls k s object a b) (ModelHC0pmR.get_controls k s a b).
Proof.
  intros; unfold hc0pmr_get_controls, ModelHC0pmR.get_controls.
  apply (steady_map _ (fun p => match p with Some p => ModelHC0pmR.path_controls p | None => None end)), hc0pmr_plan_steady.
Qed.
Lemma hc0pmr_plan_touches : forall a b, touches (eq object) (hc0pmr_plan k s object a b).
Proof.
  intros a b; unfold hc0pmr_plan; apply touches_map; unfold hc0pmr_paths; apply touches_in_order; intros [i j].
  repeat (match goal with |- context [if ?c then _ else _] => destruct c
          | |- context [match nth_error ?l ?x with _ => _ end] => destruct (nth_error l x) end);
    try apply touches_done.
  unfold hc0pmr_circles; apply touches_map; unfold hc0pmr_table; touch.
Qed.
Lemma hc0pmr_distance_touches : forall a b, touches (eq object) (hc0pmr_get_distance k s object a b).
Proof. intros; apply touches_map, hc0pmr_plan_touches. Qed.
Lemma hc0pmr_controls_touches : forall a b, touches (eq object) (hc0pmr_get_controls k s object a b).
Proof. intros; apply touches_map, hc0pmr_plan_touches. Qed.
End HC0pmR.

Section HCpm0R.
Variables (k s : R) (object : nat).
Lemma hcpm0r_table_steady : forall c1 c2, steady (hcpm0r_table k s object c1 c2) (ModelHCpm0R.circles_table k s c1 c2).
Proof.
  intros c1 c2; unfold hcpm0r_table, ModelHCpm0R.circles_table; cbv zeta; apply steady_writes; see.
Qed.
Lemma hcpm0r_plan_steady : forall a b, steady (hcpm0r_plan k s object a b) (ModelHCpm0R.hcpm0_reeds_shepp k s a b).
Proof.
  intros a b; unfold hcpm0r_plan, ModelHCpm0R.hcpm0_reeds_shepp.
  apply (steady_map _ select_path); unfold hcpm0r_paths, ModelHCpm0R.paths.
  apply steady_in_order; intros [i j].
  repeat (match goal with |- context [if ?c then _ else _] => destruct c
          | |- context [match nth_error ?l ?x with _ => _ end] => destruct (nth_error l x) end);
    try apply steady_done.
  unfold hcpm0r_circles, ModelHCpm0R.hcpm0_circles_rs_path.
  apply (steady_map _ (fun table => select_entry _ _ _ table)), hcpm0r_table_steady.
Qed.
Lemma hcpm0r_distance_steady : forall a b, steady (hcpm0r_get_distance k s object a b) (ModelHCpm0R.get_distance k s a b).
Proof. intros; apply (steady_map _ path_distance), hcpm0r_plan_steady. Qed.
Lemma hcpm0r_controls_steady : forall a b, steady (hcpm0r_get_controls k s object a b) (ModelHCpm0R.get_controls k s a b).
Proof.
  intros; unfold hcpm0r_get_controls, ModelHCpm0R.get_controls.
  apply (steady_map _ (fun p => match p with Some p => ModelHCpm0R.path_controls p | None => None end)), hcpm0r_plan_steady.
Qed.
Lemma hcpm0r_plan_touches : forall a b, touches (eq object) (hcpm0r_plan k s object a b).
Proof.
  intros a b; unfold hcpm0r_plan; apply touches_map; unfold hcpm0r_paths; apply touches_in_order; intros [i j].
  repeat (match goal with |- context [if ?c then _ else _] => destruct c
          | |- context [match nth_error ?l ?x with _ => _ end] => destruct (nth_error l x) end);
    try apply touches_done.
  unfold hcpm0r_circles; apply touches_map; unfold hcpm0r_table; touch.
Qed.
Lemma hcpm0r_distance_touches : forall a b, touches (eq object) (hcpm0r_get_distance k s object a b).
Proof. intros; apply touches_map, hcpm0r_plan_touches. Qed.
Lemma hcpm0r_controls_touches : forall a b, touches (eq object) (hcpm0r_get_controls k s object a b).
Proof. intros; apply touches_map, hcpm0r_plan_touches. Qed.
End HCpm0R.

Section HCpmpmR.
Variables (k s : R) (object : nat).
Lemma hcpmpmr_table_steady : forall c1 c2, steady (hcpmpmr_table k s object c1 c2) (ModelHCpmpmR.circles_table k s c1 c2).
Proof.
  intros c1 c2; unfold hcpmpmr_table, ModelHCpmpmR.circles_table; cbv zeta; apply steady_writes; see.
Qed.
Lemma hcpmpmr_plan_steady : forall a b, steady (hcpmpmr_plan k s object a b) (ModelHCpmpmR.hcpmpm_reeds_shepp k s a b).
Proof.
  intros a b; unfold hcpmpmr_plan, ModelHCpmpmR.hcpmpm_reeds_shepp.
  apply (steady_map _ select_path); unfold hcpmpmr_paths, ModelHCpmpmR.paths.
  apply steady_in_order; intros [i j].
  repeat (match goal with |- context [if ?c then _ else _] => destruct c
          | |- context [match nth_error ?l ?x with _ => _ end] => destruct (nth_error l x) end);
    try apply steady_done.
  unfold hcpmpmr_circles, ModelHCpmpmR.hcpmpm_circles_rs_path.
  apply (steady_map _ (fun table => select_entry _ _ _ table)), hcpmpmr_table_steady.
Qed.
Lemma hcpmpmr_distance_steady : forall a b, steady (hcpmpmr_get_distance k s object a b) (ModelHCpmpmR.get_distance k s a b).
Proof. intros; apply (steady_map _ path_distance), hcpmpmr_plan_steady. Qed.
Lemma hcpmpmr_controls_steady : forall a b, steady (hcpmpmr_get_controls k s object a b) (ModelHCpmpmR.get_controls k s a b).
Proof.
  intros; unfold hcpmpmr_get_controls, ModelHCpmpmR.get_controls.
  apply (steady_map _ (fun p => match p with Some p => ModelHCpmpmR.path_controls p | None => None end)), hcpmpmr_plan_steady.
Qed.
Lemma hcpmpmr_plan_touches : forall a b, touches (eq object) (hcpmpmr_plan k s object a b).
Proof.
  intros a b; unfold hcpmpmr_plan; apply touches_map; unfold hcpmpmr_paths; apply touches_in_order; intros [i j].
  repeat (match goal with |- context [if ?c then _ else _] => destruct c
          | |- context [match nth_error ?l ?x with _ => _ end] => destruct (nth_error l x) end);
    try apply touches_done.
  unfold hcpmpmr_circles; apply touches_map; unfold hcpmpmr_table; touch.
Qed.
Lemma hcpmpmr_distance_touches : forall a b, touches (eq object) (hcpmpmr_get_distance k s object a b).
Proof. intros; apply touches_map, hcpmpmr_plan_touches. Qed.
Lemma hcpmpmr_controls_touches : forall a b, touches (eq object) (hcpmpmr_get_controls k s object a b).
Proof. intros; apply touches_map, hcpmpmr_plan_touches. Qed.
End HCpmpmR.

(** ** The spaces for any curvature *)
Lemma pair_distance_steady : forall d00 d0p dp0 dpp e00 e0p ep0 epp,
  (forall a b, steady (d00 a b) (e00 a b)) -> (forall a b, steady (d0p a b) (e0p a b)) ->
  (forall a b, steady (dp0 a b) (ep0 a b)) -> (forall a b, steady (dpp a b) (epp a b)) ->
  forall starts ends,
  steady (shared_loop_distance d00 d0p dp0 dpp starts ends) (loop_distance e00 e0p ep0 epp starts ends).
Proof.
  intros d00 d0p dp0 dpp e00 e0p ep0 epp H1 H2 H3 H4 starts ends.
  unfold shared_loop_distance, loop_distance.
  apply (steady_map _ (fun l => match all_some l with Some distances => min_element distances | None => None end)).
  apply steady_in_order; intros [[st sc] [en ec]]; unfold shared_pair_distance, pair_distance.
  destruct (state_equal st en); [apply steady_done|].
  match goal with |- steady (bind _ (fun d => Done (@?f d))) _ => apply (steady_map _ f) end.
  unfold shared_call_distance, call_distance.
  repeat match goal with |- context [if ?c then _ else _] => destruct c end; auto.
Qed.
Lemma pair_controls_steady : forall d00 d0p dp0 dpp e00 e0p ep0 epp,
  (forall a b, steady (d00 a b) (e00 a b)) -> (forall a b, steady (d0p a b) (e0p a b)) ->
  (forall a b, steady (dp0 a b) (ep0 a b)) -> (forall a b, steady (dpp a b) (epp a b)) ->
  forall starts ends,
  steady (shared_loop_controls d00 d0p dp0 dpp starts ends) (loop_controls e00 e0p ep0 epp starts ends).
Proof.
  intros d00 d0p dp0 dpp e00 e0p ep0 epp H1 H2 H3 H4 starts ends.
  unfold shared_loop_controls, loop_controls.
  apply (steady_map _ (fun l => match all_some l with Some candidates => sorted_front candidates | None => None end)).
  apply steady_in_order; intros [[st sc] [en ec]]; unfold shared_pair_controls, pair_controls.
  destruct (state_equal st en); [apply steady_done|].
  match goal with |- steady (bind _ (fun d => Done (@?f d))) _ => apply (steady_map _ f) end.
  unfold shared_call_controls, call_controls.
  repeat match goal with |- context [if ?c then _ else _] => destruct c end; auto.
Qed.
Lemma loop_distance_touches : forall (O : nat -> Prop) d00 d0p dp0 dpp,
  (forall a b, touches O (d00 a b)) -> (forall a b, touches O (d0p a b)) ->
  (forall a b, touches O (dp0 a b)) -> (forall a b, touches O (dpp a b)) ->
  forall starts ends, touches O (shared_loop_distance d00 d0p dp0 dpp starts ends).
Proof.
  intros O d00 d0p dp0 dpp H1 H2 H3 H4 starts ends; unfold shared_loop_distance; apply touches_map.
  apply touches_in_order; intros [[st sc] [en ec]]; unfold shared_pair_distance.
  destruct (state_equal st en); [constructor|]; apply touches_map; unfold shared_call_distance.
  repeat match goal with |- context [if ?c then _ else _] => destruct c end; auto.
Qed.
Lemma loop_controls_touches : forall (O : nat -> Prop) d00 d0p dp0 dpp,
  (forall a b, touches O (d00 a b)) -> (forall a b, touches O (d0p a b)) ->
  (forall a b, touches O (dp0 a b)) -> (forall a b, touches O (dpp a b)) ->
  forall starts ends, touches O (shared_loop_controls d00 d0p dp0 dpp starts ends).
Proof.
  intros O d00 d0p dp0 dpp H1 H2 H3 H4 starts ends; unfold shared_loop_controls; apply touches_map.
  apply touches_in_order; intros [[st sc] [en ec]]; unfold shared_pair_controls.
  destruct (state_equal st en); [constructor|]; apply touches_map; unfold shared_call_controls.
  repeat match goal with |- context [if ?c then _ else _] => destruct c end; auto.
Qed.
Definition parts (object o : nat) : Prop := (o / 4 = object)%nat.
Lemma part_parts : forall object i, (i < 4)%nat -> forall o, part object i = o -> parts object o.
Proof.
  intros object i Hi o <-; unfold parts, part; symmetry.
  apply (Nat.div_unique _ 4 object i); lia.
Qed.

Section cc_dubins.
Variables (junk k s : R) (fw : bool) (object : nat).
Lemma cc_dubins_distance_steady : forall a b,
  steady (cc_dubins_get_distance junk k s fw object a b) (ModelWrap.cc_dubins_distance junk k s fw a b).
Proof.
  intros; unfold cc_dubins_get_distance, ModelWrap.cc_dubins_distance; apply pair_distance_steady; intros;
    [apply cc00d_distance_steady | apply cc0pmd_distance_steady | apply ccpm0d_distance_steady | apply ccpmpmd_distance_steady].
Qed.
Lemma cc_dubins_distance_touches : forall a b, touches (parts object) (cc_dubins_get_distance junk k s fw object a b).
Proof.
  intros; unfold cc_dubins_get_distance; apply loop_distance_touches; intros;
    [eapply touches_weaken; [apply (part_parts object 0); lia | apply cc00d_distance_touches] | eapply touches_weaken; [apply (part_parts object 1); lia | apply cc0pmd_distance_touches] | eapply touches_weaken; [apply (part_parts object 2); lia | apply ccpm0d_distance_touches] | eapply touches_weaken; [apply (part_parts object 3); lia | apply ccpmpmd_distance_touches]].
Qed.
Lemma cc_dubins_controls_steady : forall a b,
  steady (cc_dubins_get_controls junk k s fw object a b) (ModelWrap.cc_dubins_controls junk k s fw a b).
Proof.
  intros; unfold cc_dubins_get_controls, ModelWrap.cc_dubins_controls; apply pair_controls_steady; intros;
    [apply cc00d_controls_steady | apply cc0pmd_controls_steady | apply ccpm0d_controls_steady | apply ccpmpmd_controls_steady].
Qed.
Lemma cc_dubins_controls_touches : forall a b, touches (parts object) (cc_dubins_get_controls junk k s fw object a b).
Proof.
  intros; unfold cc_dubins_get_controls; apply loop_controls_touches; intros;
    [eapply touches_weaken; [apply (part_parts object 0); lia | apply cc00d_controls_touches] | eapply touches_weaken; [apply (part_parts object 1); lia | apply cc0pmd_controls_touches] | eapply touches_weaken; [apply (part_parts object 2); lia | apply ccpm0d_controls_touches] | eapply touches_weaken; [apply (part_parts object 3); lia | apply ccpmpmd_controls_touches]].
Qed.
End cc_dubins.
Section hc_rs.
Variables (junk k s : R) (object : nat).
Lemma hc_rs_distance_steady : forall a b,
  steady (hc_rs_get_distance junk k s object a b) (ModelWrap.hc_rs_distance junk k s a b).
Proof.
  intros; unfold hc_rs_get_distance, ModelWrap.hc_rs_distance; apply pair_distance_steady; intros;
    [apply hc00r_distance_steady | apply hc0pmr_distance_steady | apply hcpm0r_distance_steady | apply hcpmpmr_distance_steady].
Qed.
Lemma hc_rs_distance_touches : forall a b, touches (parts object) (hc_rs_get_distance junk k s object a b).
Proof.
  intros; unfold hc_rs_get_distance; apply loop_distance_touches; intros;
    [eapply touches_weaken; [apply (part_parts object 0); lia | apply hc00r_distance_touches] | eapply touches_weaken; [apply (part_parts object 1); lia | apply hc0pmr_distance_touches] | eapply touches_weaken; [apply (part_parts object 2); lia | apply hcpm0r_distance_touches] | eapply touches_weaken; [apply (part_parts object 3); lia | apply hcpmpmr_distance_touches]].
Qed.
Lemma hc_rs_controls_steady : forall a b,
  steady (hc_rs_get_controls junk k s object a b) (ModelWrap.hc_rs_controls junk k s a b).
Proof.
  intros; unfold hc_rs_get_controls, ModelWrap.hc_rs_controls; apply pair_controls_steady; intros;
    [apply hc00r_controls_steady | apply hc0pmr_controls_steady | apply hcpm0r_controls_steady | apply hcpmpmr_controls_steady].
Qed.
Lemma hc_rs_controls_touches : forall a b, touches (parts object) (hc_rs_get_controls junk k s object a b).
Proof.
  intros; unfold hc_rs_get_controls; apply loop_controls_touches; intros;
    [eapply touches_weaken; [apply (part_parts object 0); lia | apply hc00r_controls_touches] | eapply touches_weaken; [apply (part_parts object 1); lia | apply hc0pmr_controls_touches] | eapply touches_weaken; [apply (part_parts object 2); lia | apply hcpm0r_controls_touches] | eapply touches_weaken; [apply (part_parts object 3); lia | apply hcpmpmr_controls_touches]].
Qed.
End hc_rs.

(** ** All spaces *)
Lemma space_distance_steady : forall space object a b, steady (space_distance space object a b) (pure_distance space a b).
Proof.
  intros [] object a b;
    [apply cc00d_distance_steady | apply cc0pmd_distance_steady | apply ccpm0d_distance_steady | apply ccpmpmd_distance_steady | apply cc00r_distance_steady | apply hc00r_distance_steady | apply hc0pmr_distance_steady | apply hcpm0r_distance_steady | apply hcpmpmr_distance_steady | apply cc_dubins_distance_steady | apply hc_rs_distance_steady].
Qed.
Lemma space_controls_steady : forall space object a b, steady (space_controls space object a b) (pure_controls space a b).
Proof.
  intros [] object a b;
    [apply cc00d_controls_steady | apply cc0pmd_controls_steady | apply ccpm0d_controls_steady | apply ccpmpmd_controls_steady | apply cc00r_controls_steady | apply hc00r_controls_steady | apply hc0pmr_controls_steady | apply hcpm0r_controls_steady | apply hcpmpmr_controls_steady | apply cc_dubins_controls_steady | apply hc_rs_controls_steady].
Qed.
Lemma space_distance_touches : forall space object a b, touches (parts object) (space_distance space object a b).
Proof.
  intros [] object a b;
    [eapply touches_weaken; [apply (part_parts object 0); lia | apply cc00d_distance_touches] | eapply touches_weaken; [apply (part_parts object 0); lia | apply cc0pmd_distance_touches] | eapply touches_weaken; [apply (part_parts object 0); lia | apply ccpm0d_distance_touches] | eapply touches_weaken; [apply (part_parts object 0); lia | apply ccpmpmd_distance_touches] | eapply touches_weaken; [apply (part_parts object 0); lia | apply cc00r_distance_touches] | eapply touches_weaken; [apply (part_parts object 0); lia | apply hc00r_distance_touches] | eapply touches_weaken; [apply (part_parts object 0); lia | apply hc0pmr_distance_touches] | eapply touches_weaken; [apply (part_parts object 0); lia | apply hcpm0r_distance_touches] | eapply touches_weaken; [apply (part_parts object 0); lia | apply hcpmpmr_distance_touches] | apply cc_dubins_distance_touches | apply hc_rs_distance_touches].
Qed.
Lemma space_controls_touches : forall space object a b, touches (parts object) (space_controls space object a b).
Proof.
  intros [] object a b;
    [eapply touches_weaken; [apply (part_parts object 0); lia | apply cc00d_controls_touches] | eapply touches_weaken; [apply (part_parts object 0); lia | apply cc0pmd_controls_touches] | eapply touches_weaken; [apply (part_parts object 0); lia | apply ccpm0d_controls_touches] | eapply touches_weaken; [apply (part_parts object 0); lia | apply ccpmpmd_controls_touches] | eapply touches_weaken; [apply (part_parts object 0); lia | apply cc00r_controls_touches] | eapply touches_weaken; [apply (part_parts object 0); lia | apply hc00r_controls_touches] | eapply touches_weaken; [apply (part_parts object 0); lia | apply hc0pmr_controls_touches] | eapply touches_weaken; [apply (part_parts object 0); lia | apply hcpm0r_controls_touches] | eapply touches_weaken; [apply (part_parts object 0); lia | apply hcpmpmr_controls_touches] | apply cc_dubins_controls_touches | apply hc_rs_controls_touches].
Qed.
Lemma history_free : forall calls mem space object a b,
  fst (run (space_distance space object a b) (after calls mem)) = pure_distance space a b /\
  fst (run (space_controls space object a b) (after calls mem)) = pure_controls space a b.
Proof. intros; split; [apply space_distance_steady | apply space_controls_steady]. Qed.
Lemma objects_apart : forall space1 space2 o1 o2 a b c d, o1 <> o2 ->
  undisturbed (space_distance space1 o1 a b) (space_distance space2 o2 c d) /\
  undisturbed (space_distance space1 o1 a b) (space_controls space2 o2 c d) /\
  undisturbed (space_controls space1 o1 a b) (space_distance space2 o2 c d) /\
  undisturbed (space_controls space1 o1 a b) (space_controls space2 o2 c d).
Proof.
  intros space1 space2 o1 o2 a b c d H.
  assert (X : forall o, parts o1 o -> parts o2 o -> False) by (unfold parts; intros; congruence).
  split; [|split; [|split]]; apply (apart_undisturbed (parts o1) (parts o2)); auto using space_distance_touches, space_controls_touches.
Qed.


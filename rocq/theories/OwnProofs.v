(** * Every planner frees what it allocates *)
From Coq Require Import List String Bool.
From Verif Require Import ModelHeap SpecHeap HeapCheck ModelOwn.
From Verif Require ModelOwnCC00D ModelOwnCC0pmD ModelOwnCCpm0D ModelOwnCCpmpmD ModelOwnCC00R ModelOwnHC00R
  ModelOwnHC0pmR ModelOwnHCpm0R ModelOwnHCpmpmR.
Import ListNotations.
Open Scope string_scope.
Open Scope list_scope.

Definition ends1_CC00D := Eval vm_compute in
  match at_end (fun _ => None) ModelOwnCC00D.cc00_circles_dubins_path with Some t => t | None => [] end.
Definition ends2_CC00D := Eval vm_compute in
  match at_end (ends_of [("cc00_circles_dubins_path", ends1_CC00D)]) ModelOwnCC00D.cc00_dubins with Some t => t | None => [] end.
Lemma circles_CC00D : at_end (fun _ => None) ModelOwnCC00D.cc00_circles_dubins_path = Some ends1_CC00D.
Proof. vm_compute; reflexivity. Qed.
Lemma plan_CC00D : at_end (ends_of [("cc00_circles_dubins_path", ends1_CC00D)]) ModelOwnCC00D.cc00_dubins = Some ends2_CC00D.
Proof. vm_compute; reflexivity. Qed.
Lemma distance_CC00D : clean (ends_of [("cc00_dubins", ends2_CC00D)]) ModelOwnCC00D.get_distance = true.
Proof. vm_compute; reflexivity. Qed.
Lemma controls_CC00D : clean (ends_of [("cc00_dubins", ends2_CC00D)]) ModelOwnCC00D.get_controls = true.
Proof. vm_compute; reflexivity. Qed.
Lemma frees_CC00D : frees_all ModelOwnCC00D.functions ModelOwnCC00D.get_distance /\ frees_all ModelOwnCC00D.functions ModelOwnCC00D.get_controls.
Proof.
  split; intros choices; unfold ModelOwnCC00D.functions.
  - exact (clean_sound "cc00_circles_dubins_path" ModelOwnCC00D.cc00_circles_dubins_path ends1_CC00D "cc00_dubins" ModelOwnCC00D.cc00_dubins ends2_CC00D ModelOwnCC00D.get_distance choices
      circles_CC00D plan_CC00D distance_CC00D).
  - exact (clean_sound "cc00_circles_dubins_path" ModelOwnCC00D.cc00_circles_dubins_path ends1_CC00D "cc00_dubins" ModelOwnCC00D.cc00_dubins ends2_CC00D ModelOwnCC00D.get_controls choices
      circles_CC00D plan_CC00D controls_CC00D).
Qed.

Definition ends1_CC0pmD := Eval vm_compute in
  match at_end (fun _ => None) ModelOwnCC0pmD.cc0pm_circles_dubins_path with Some t => t | None => [] end.
Definition ends2_CC0pmD := Eval vm_compute in
  match at_end (ends_of [("cc0pm_circles_dubins_path", ends1_CC0pmD)]) ModelOwnCC0pmD.cc0pm_dubins with Some t => t | None => [] end.
Lemma circles_CC0pmD : at_end (fun _ => None) ModelOwnCC0pmD.cc0pm_circles_dubins_path = Some ends1_CC0pmD.
Proof. vm_compute; reflexivity. Qed.
Lemma plan_CC0pmD : at_end (ends_of [("cc0pm_circles_dubins_path", ends1_CC0pmD)]) ModelOwnCC0pmD.cc0pm_dubins = Some ends2_CC0pmD.
Proof. vm_compute; reflexivity. Qed.
Lemma distance_CC0pmD : clean (ends_of [("cc0pm_dubins", ends2_CC0pmD)]) ModelOwnCC0pmD.get_distance = true.
Proof. vm_compute; reflexivity. Qed.
Lemma controls_CC0pmD : clean (ends_of [("cc0pm_dubins", ends2_CC0pmD)]) ModelOwnCC0pmD.get_controls = true.
Proof. vm_compute; reflexivity. Qed.
Lemma frees_CC0pmD : frees_all ModelOwnCC0pmD.functions ModelOwnCC0pmD.get_distance /\ frees_all ModelOwnCC0pmD.functions ModelOwnCC0pmD.get_controls.
Proof.
  split; intros choices; unfold ModelOwnCC0pmD.functions.
  - exact (clean_sound "cc0pm_circles_dubins_path" ModelOwnCC0pmD.cc0pm_circles_dubins_path ends1_CC0pmD "cc0pm_dubins" ModelOwnCC0pmD.cc0pm_dubins ends2_CC0pmD ModelOwnCC0pmD.get_distance choices
      circles_CC0pmD plan_CC0pmD distance_CC0pmD).
  - exact (clean_sound "cc0pm_circles_dubins_path" ModelOwnCC0pmD.cc0pm_circles_dubins_path ends1_CC0pmD "cc0pm_dubins" ModelOwnCC0pmD.cc0pm_dubins ends2_CC0pmD ModelOwnCC0pmD.get_controls choices
      circles_CC0pmD plan_CC0pmD controls_CC0pmD).
Qed.

Definition ends1_CCpm0D := Eval vm_compute in
  match at_end (fun _ => None) ModelOwnCCpm0D.ccpm0_circles_dubins_path with Some t => t | None => [] end.
Definition ends2_CCpm0D := Eval vm_compute in
  match at_end (ends_of [("ccpm0_circles_dubins_path", ends1_CCpm0D)]) ModelOwnCCpm0D.ccpm0_dubins with Some t => t | None => [] end.
Lemma circles_CCpm0D : at_end (fun _ => None) ModelOwnCCpm0D.ccpm0_circles_dubins_path = Some ends1_CCpm0D.
Proof. vm_compute; reflexivity. Qed.
Lemma plan_CCpm0D : at_end (ends_of [("ccpm0_circles_dubins_path", ends1_CCpm0D)]) ModelOwnCCpm0D.ccpm0_dubins = Some ends2_CCpm0D.
Proof. vm_compute; reflexivity. Qed.
Lemma distance_CCpm0D : clean (ends_of [("ccpm0_dubins", ends2_CCpm0D)]) ModelOwnCCpm0D.get_distance = true.
Proof. vm_compute; reflexivity. Qed.
Lemma controls_CCpm0D : clean (ends_of [("ccpm0_dubins", ends2_CCpm0D)]) ModelOwnCCpm0D.get_controls = true.
Proof. vm_compute; reflexivity. Qed.
Lemma frees_CCpm0D : frees_all ModelOwnCCpm0D.functions ModelOwnCCpm0D.get_distance /\ frees_all ModelOwnCCpm0D.functions ModelOwnCCpm0D.get_controls.
Proof.
  split; intros choices; unfold ModelOwnCCpm0D.functions.
  - exact (clean_sound "ccpm0_circles_dubins_path" ModelOwnCCpm0D.ccpm0_circles_dubins_path ends1_CCpm0D "ccpm0_dubins" ModelOwnCCpm0D.ccpm0_dubins ends2_CCpm0D ModelOwnCCpm0D.get_distance choices
      circles_CCpm0D plan_CCpm0D distance_CCpm0D).
  - exact (clean_sound "ccpm0_circles_dubins_path" ModelOwnCCpm0D.ccpm0_circles_dubins_path ends1_CCpm0D "ccpm0_dubins" ModelOwnCCpm0D.ccpm0_dubins ends2_CCpm0D ModelOwnCCpm0D.get_controls choices
      circles_CCpm0D plan_CCpm0D controls_CCpm0D).
Qed.

Definition ends1_CCpmpmD := Eval vm_compute in
  match at_end (fun _ => None) ModelOwnCCpmpmD.ccpmpm_circles_dubins_path with Some t => t | None => [] end.
Definition ends2_CCpmpmD := Eval vm_compute in
  match at_end (ends_of [("ccpmpm_circles_dubins_path", ends1_CCpmpmD)]) ModelOwnCCpmpmD.ccpmpm_dubins with Some t => t | None => [] end.
Lemma circles_CCpmpmD : at_end (fun _ => None) ModelOwnCCpmpmD.ccpmpm_circles_dubins_path = Some ends1_CCpmpmD.
Proof. vm_compute; reflexivity. Qed.
Lemma plan_CCpmpmD : at_end (ends_of [("ccpmpm_circles_dubins_path", ends1_CCpmpmD)]) ModelOwnCCpmpmD.ccpmpm_dubins = Some ends2_CCpmpmD.
Proof. vm_compute; reflexivity. Qed.
Lemma distance_CCpmpmD : clean (ends_of [("ccpmpm_dubins", ends2_CCpmpmD)]) ModelOwnCCpmpmD.get_distance = true.
Proof. vm_compute; reflexivity. Qed.
Lemma controls_CCpmpmD : clean (ends_of [("ccpmpm_dubins", ends2_CCpmpmD)]) ModelOwnCCpmpmD.get_controls = true.
Proof. vm_compute; reflexivity. Qed.
Lemma frees_CCpmpmD : frees_all ModelOwnCCpmpmD.functions ModelOwnCCpmpmD.get_distance /\ frees_all ModelOwnCCpmpmD.functions ModelOwnCCpmpmD.get_controls.
Proof.
  split; intros choices; unfold ModelOwnCCpmpmD.functions.
  - exact (clean_sound "ccpmpm_circles_dubins_path" ModelOwnCCpmpmD.ccpmpm_circles_dubins_path ends1_CCpmpmD "ccpmpm_dubins" ModelOwnCCpmpmD.ccpmpm_dubins ends2_CCpmpmD ModelOwnCCpmpmD.get_distance choices
      circles_CCpmpmD plan_CCpmpmD distance_CCpmpmD).
  - exact (clean_sound "ccpmpm_circles_dubins_path" ModelOwnCCpmpmD.ccpmpm_circles_dubins_path ends1_CCpmpmD "ccpmpm_dubins" ModelOwnCCpmpmD.ccpmpm_dubins ends2_CCpmpmD ModelOwnCCpmpmD.get_controls choices
      circles_CCpmpmD plan_CCpmpmD controls_CCpmpmD).
Qed.

Definition ends1_CC00R := Eval vm_compute in
  match at_end (fun _ => None) ModelOwnCC00R.cc00_circles_rs_path with Some t => t | None => [] end.
Definition ends2_CC00R := Eval vm_compute in
  match at_end (ends_of [("cc00_circles_rs_path", ends1_CC00R)]) ModelOwnCC00R.cc00_reeds_shepp with Some t => t | None => [] end.
Lemma circles_CC00R : at_end (fun _ => None) ModelOwnCC00R.cc00_circles_rs_path = Some ends1_CC00R.
Proof. vm_compute; reflexivity. Qed.
Lemma plan_CC00R : at_end (ends_of [("cc00_circles_rs_path", ends1_CC00R)]) ModelOwnCC00R.cc00_reeds_shepp = Some ends2_CC00R.
Proof. vm_compute; reflexivity. Qed.
Lemma distance_CC00R : clean (ends_of [("cc00_reeds_shepp", ends2_CC00R)]) ModelOwnCC00R.get_distance = true.
Proof. vm_compute; reflexivity. Qed.
Lemma controls_CC00R : clean (ends_of [("cc00_reeds_shepp", ends2_CC00R)]) ModelOwnCC00R.get_controls = true.
Proof. vm_compute; reflexivity. Qed.
Lemma frees_CC00R : frees_all ModelOwnCC00R.functions ModelOwnCC00R.get_distance /\ frees_all ModelOwnCC00R.functions ModelOwnCC00R.get_controls.
Proof.
  split; intros choices; unfold ModelOwnCC00R.functions.
  - exact (clean_sound "cc00_circles_rs_path" ModelOwnCC00R.cc00_circles_rs_path ends1_CC00R "cc00_reeds_shepp" ModelOwnCC00R.cc00_reeds_shepp ends2_CC00R ModelOwnCC00R.get_distance choices
      circles_CC00R plan_CC00R distance_CC00R).
  - exact (clean_sound "cc00_circles_rs_path" ModelOwnCC00R.cc00_circles_rs_path ends1_CC00R "cc00_reeds_shepp" ModelOwnCC00R.cc00_reeds_shepp ends2_CC00R ModelOwnCC00R.get_controls choices
      circles_CC00R plan_CC00R controls_CC00R).
Qed.

Definition ends1_HC00R := Eval vm_compute in
  match at_end (fun _ => None) ModelOwnHC00R.hc00_circles_rs_path with Some t => t | None => [] end.
Definition ends2_HC00R := Eval vm_compute in
  match at_end (ends_of [("hc00_circles_rs_path", ends1_HC00R)]) ModelOwnHC00R.hc00_reeds_shepp with Some t => t | None => [] end.
Lemma circles_HC00R : at_end (fun _ => None) ModelOwnHC00R.hc00_circles_rs_path = Some ends1_HC00R.
Proof. vm_compute; reflexivity. Qed.
Lemma plan_HC00R : at_end (ends_of [("hc00_circles_rs_path", ends1_HC00R)]) ModelOwnHC00R.hc00_reeds_shepp = Some ends2_HC00R.
Proof. vm_compute; reflexivity. Qed.
Lemma distance_HC00R : clean (ends_of [("hc00_reeds_shepp", ends2_HC00R)]) ModelOwnHC00R.get_distance = true.
Proof. vm_compute; reflexivity. Qed.
Lemma controls_HC00R : clean (ends_of [("hc00_reeds_shepp", ends2_HC00R)]) ModelOwnHC00R.get_controls = true.
Proof. vm_compute; reflexivity. Qed.
Lemma frees_HC00R : frees_all ModelOwnHC00R.functions ModelOwnHC00R.get_distance /\ frees_all ModelOwnHC00R.functions ModelOwnHC00R.get_controls.
Proof.
  split; intros choices; unfold ModelOwnHC00R.functions.
  - exact (clean_sound "hc00_circles_rs_path" ModelOwnHC00R.hc00_circles_rs_path ends1_HC00R "hc00_reeds_shepp" ModelOwnHC00R.hc00_reeds_shepp ends2_HC00R ModelOwnHC00R.get_distance choices
      circles_HC00R plan_HC00R distance_HC00R).
  - exact (clean_sound "hc00_circles_rs_path" ModelOwnHC00R.hc00_circles_rs_path ends1_HC00R "hc00_reeds_shepp" ModelOwnHC00R.hc00_reeds_shepp ends2_HC00R ModelOwnHC00R.get_controls choices
      circles_HC00R plan_HC00R controls_HC00R).
Qed.

Definition ends1_HC0pmR := Eval vm_compute in
  match at_end (fun _ => None) ModelOwnHC0pmR.hc0pm_circles_rs_path with Some t => t | None => [] end.
Definition ends2_HC0pmR := Eval vm_compute in
  match at_end (ends_of [("hc0pm_circles_rs_path", ends1_HC0pmR)]) ModelOwnHC0pmR.hc0pm_reeds_shepp with Some t => t | None => [] end.
Lemma circles_HC0pmR : at_end (fun _ => None) ModelOwnHC0pmR.hc0pm_circles_rs_path = Some ends1_HC0pmR.
Proof. vm_compute; reflexivity. Qed.
Lemma plan_HC0pmR : at_end (ends_of [("hc0pm_circles_rs_path", ends1_HC0pmR)]) ModelOwnHC0pmR.hc0pm_reeds_shepp = Some ends2_HC0pmR.
Proof. vm_compute; reflexivity. Qed.
Lemma distance_HC0pmR : clean (ends_of [("hc0pm_reeds_shepp", ends2_HC0pmR)]) ModelOwnHC0pmR.get_distance = true.
Proof. vm_compute; reflexivity. Qed.
Lemma controls_HC0pmR : clean (ends_of [("hc0pm_reeds_shepp", ends2_HC0pmR)]) ModelOwnHC0pmR.get_controls = true.
Proof. vm_compute; reflexivity. Qed.
Lemma frees_HC0pmR : frees_all ModelOwnHC0pmR.functions ModelOwnHC0pmR.get_distance /\ frees_all ModelOwnHC0pmR.functions ModelOwnHC0pmR.get_controls.
Proof.
  split; intros choices; unfold ModelOwnHC0pmR.functions.
  - exact (clean_sound "hc0pm_circles_rs_path" ModelOwnHC0pmR.hc0pm_circles_rs_path ends1_HC0pmR "hc0pm_reeds_shepp" ModelOwnHC0pmR.hc0pm_reeds_shepp ends2_HC0pmR ModelOwnHC0pmR.get_distance choices
      circles_HC0pmR plan_HC0pmR distance_HC0pmR).
  - exact (clean_sound "hc0pm_circles_rs_path" ModelOwnHC0pmR.hc0pm_circles_rs_path ends1_HC0pmR "hc0pm_reeds_shepp" ModelOwnHC0pmR.hc0pm_reeds_shepp ends2_HC0pmR ModelOwnHC0pmR.get_controls choices
      circles_HC0pmR plan_HC0pmR controls_HC0pmR).
Qed.

Definition ends1_HCpm0R := Eval vm_compute in
  match at_end (fun _ => None) ModelOwnHCpm0R.hcpm0_circles_rs_path with Some t => t | None => [] end.
Definition ends2_HCpm0R := Eval vm_compute in
  match at_end (ends_of [("hcpm0_circles_rs_path", ends1_HCpm0R)]) ModelOwnHCpm0R.hcpm0_reeds_shepp with Some t => t | None => [] end.
Lemma circles_HCpm0R : at_end (fun _ => None) ModelOwnHCpm0R.hcpm0_circles_rs_path = Some ends1_HCpm0R.
Proof. vm_compute; reflexivity. Qed.
Lemma plan_HCpm0R : at_end (ends_of [("hcpm0_circles_rs_path", ends1_HCpm0R)]) ModelOwnHCpm0R.hcpm0_reeds_shepp = Some ends2_HCpm0R.
Proof. vm_compute; reflexivity. Qed.
Lemma distance_HCpm0R : clean (ends_of [("hcpm0_reeds_shepp", ends2_HCpm0R)]) ModelOwnHCpm0R.get_distance = true.
Proof. vm_compute; reflexivity. Qed.
Lemma controls_HCpm0R : clean (ends_of [("hcpm0_reeds_shepp", ends2_HCpm0R)]) ModelOwnHCpm0R.get_controls = true.
Proof. vm_compute; reflexivity. Qed.
Lemma frees_HCpm0R : frees_all ModelOwnHCpm0R.functions ModelOwnHCpm0R.get_distance /\ frees_all ModelOwnHCpm0R.functions ModelOwnHCpm0R.get_controls.
Proof.
  split; intros choices; unfold ModelOwnHCpm0R.functions.
  - exact (clean_sound "hcpm0_circles_rs_path" ModelOwnHCpm0R.hcpm0_circles_rs_path ends1_HCpm0R "hcpm0_reeds_shepp" ModelOwnHCpm0R.hcpm0_reeds_shepp ends2_HCpm0R ModelOwnHCpm0R.get_distance choices
      circles_HCpm0R plan_HCpm0R distance_HCpm0R).
  - exact (clean_sound "hcpm0_circles_rs_path" ModelOwnHCpm0R.hcpm0_circles_rs_path ends1_HCpm0R "hcpm0_reeds_shepp" ModelOwnHCpm0R.hcpm0_reeds_shepp ends2_HCpm0R ModelOwnHCpm0R.get_controls choices
      circles_HCpm0R plan_HCpm0R controls_HCpm0R).
Qed.

Definition ends1_HCpmpmR := Eval vm_compute in
  match at_end (fun _ => None) ModelOwnHCpmpmR.hcpmpm_circles_rs_path with Some t => t | None => [] end.
Definition ends2_HCpmpmR := Eval vm_compute in
  match at_end (ends_of [("hcpmpm_circles_rs_path", ends1_HCpmpmR)]) ModelOwnHCpmpmR.hcpmpm_reeds_shepp with Some t => t | None => [] end.
Lemma circles_HCpmpmR : at_end (fun _ => None) ModelOwnHCpmpmR.hcpmpm_circles_rs_path = Some ends1_HCpmpmR.
Proof. vm_compute; reflexivity. Qed.
Lemma plan_HCpmpmR : at_end (ends_of [("hcpmpm_circles_rs_path", ends1_HCpmpmR)]) ModelOwnHCpmpmR.hcpmpm_reeds_shepp = Some ends2_HCpmpmR.
Proof. vm_compute; reflexivity. Qed.
Lemma distance_HCpmpmR : clean (ends_of [("hcpmpm_reeds_shepp", ends2_HCpmpmR)]) ModelOwnHCpmpmR.get_distance = true.
Proof. vm_compute; reflexivity. Qed.
Lemma controls_HCpmpmR : clean (ends_of [("hcpmpm_reeds_shepp", ends2_HCpmpmR)]) ModelOwnHCpmpmR.get_controls = true.
Proof. vm_compute; reflexivity. Qed.
Lemma frees_HCpmpmR : frees_all ModelOwnHCpmpmR.functions ModelOwnHCpmpmR.get_distance /\ frees_all ModelOwnHCpmpmR.functions ModelOwnHCpmpmR.get_controls.
Proof.
  split; intros choices; unfold ModelOwnHCpmpmR.functions.
  - exact (clean_sound "hcpmpm_circles_rs_path" ModelOwnHCpmpmR.hcpmpm_circles_rs_path ends1_HCpmpmR "hcpmpm_reeds_shepp" ModelOwnHCpmpmR.hcpmpm_reeds_shepp ends2_HCpmpmR ModelOwnHCpmpmR.get_distance choices
      circles_HCpmpmR plan_HCpmpmR distance_HCpmpmR).
  - exact (clean_sound "hcpmpm_circles_rs_path" ModelOwnHCpmpmR.hcpmpm_circles_rs_path ends1_HCpmpmR "hcpmpm_reeds_shepp" ModelOwnHCpmpmR.hcpmpm_reeds_shepp ends2_HCpmpmR ModelOwnHCpmpmR.get_controls choices
      circles_HCpmpmR plan_HCpmpmR controls_HCpmpmR).
Qed.


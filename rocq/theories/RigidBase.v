(** * The pieces of the HC/CC planners under rotations and translations of the plane *)
From Coq Require Import Reals ZArith List Lra Lia Bool.
From Verif Require Import Base ModelUtil ModelIntegrate ModelCircle ModelPaths Num UtilProofs DubinsOpt SpecPath SpecTurn PoseAlg TurnProofs MotionProofs TurnBounds LegProofs TangentProofs PlanProofs PlanFamily PlanTactics.
Import ListNotations.
Open Scope R_scope.

Section Move.
  Variables (u v rho : R).

  Definition mx (x y : R) : R := u + (x * cos rho - y * sin rho).
  Definition my (x y : R) : R := v + (x * sin rho + y * cos rho).
  Definition mvp (p : R * R) : R * R := (mx (fst p) (snd p), my (fst p) (snd p)).
  Definition mvq (q : Configuration) : Configuration :=
    mkConf (mx (q_x q) (q_y q)) (my (q_x q) (q_y q)) (twopify (q_theta q + rho)) (q_kappa q).
  (** The circle with its centre moved and the start [st]. *)
  Definition mvg (st : Configuration) (c : Circle) : Circle :=
    mkCircle st (c_left c) (c_forward c) (c_regular c) (mx (c_xc c) (c_yc c)) (my (c_xc c) (c_yc c))
      (c_kappa c) (c_kappa_inv c) (c_sigma c) (c_radius c) (c_mu c) (c_sin_mu c) (c_cos_mu c) (c_delta_min c).
  Definition mvc (c : Circle) : Circle := mvg (mvq (c_start c)) c.
  Definition mvE (e : Entry) : Entry :=
    mkEntry (e_length e) (option_map mvq (e_qi1 e)) (option_map mvq (e_qi2 e)) (option_map mvq (e_qi3 e)) (option_map mvq (e_qi4 e))
      (option_map mvc (e_cstart e)) (option_map mvc (e_cend e)) (option_map mvc (e_ci1 e)) (option_map mvc (e_ci2 e)).
  Definition mvP {ty} (p : HPath ty) : HPath ty := mkHPath (h_type p) (mvq (h_start p)) (mvq (h_end p)) (mvE (h_entry p)).
  (** The direction from one centre to the other turns with the plane. *)
  Definition far (c1 c2 : Circle) : Prop := rho = 0 \/ center_distance c1 c2 <> 0.

  Lemma mx_sub x y x' y' : mx x y - mx x' y' = (x - x') * cos rho - (y - y') * sin rho.
  Proof. unfold mx. ring. Qed.
  Lemma my_sub x y x' y' : my x y - my x' y' = (x - x') * sin rho + (y - y') * cos rho.
  Proof. unfold my. ring. Qed.
  Lemma sq_rot a b : (a * cos rho - b * sin rho) ^ 2 + (a * sin rho + b * cos rho) ^ 2 = a ^ 2 + b ^ 2.
  Proof. transitivity ((a ^ 2 + b ^ 2) * (sin rho * sin rho + cos rho * cos rho)); [ring|rewrite sin2_cos2'; ring]. Qed.

  Lemma pd_move x y x' y' : point_distance (mx x y) (my x y) (mx x' y') (my x' y') = point_distance x y x' y'.
  Proof.
    unfold point_distance. f_equal. rewrite !mx_sub, !my_sub. apply sq_rot.
  Qed.
  Lemma gfc_move x y t T a b : ang_eq T (t + rho) ->
    global_frame_change (mx x y) (my x y) T a b = mvp (global_frame_change x y t a b).
  Proof.
    intros E. unfold global_frame_change, mvp, mx, my; cbn [fst snd]. rewrite (ang_eq_cos _ _ E), (ang_eq_sin _ _ E), cos_plus, sin_plus. f_equal; ring.
  Qed.
  Lemma conf_move x y t T kap : ang_eq T (t + rho) -> configuration (mx x y) (my x y) T kap = mvq (configuration x y t kap).
  Proof.
    intros E. unfold configuration, mvq; cbn [q_x q_y q_theta q_kappa]. f_equal. apply twopify_congr.
    eapply ang_eq_trans; [exact E|]. apply ang_eq_add; [apply ang_eq_sym, twopify_ang|apply ang_eq_refl].
  Qed.
  Lemma theta_mvq q : ang_eq (q_theta (mvq q)) (q_theta q + rho).
  Proof. apply twopify_ang. Qed.
  Lemma via_angle a a' t T : ang_eq a' (a + rho) -> T - a' = t - a -> ang_eq T (t + rho).
  Proof.
    intros E H. replace T with (a' + (t - a)) by lra. replace (t + rho) with ((a + rho) + (t - a)) by ring. apply ang_eq_add; [exact E|apply ang_eq_refl].
  Qed.
  Lemma circle_mvq q l f r p : circle (mvq q) l f r p = mvc (circle q l f r p).
  Proof.
    unfold circle. change (q_x (mvq q)) with (mx (q_x q) (q_y q)). change (q_y (mvq q)) with (my (q_x q) (q_y q)).
    destruct l, f; rewrite (gfc_move _ _ _ _ _ _ (theta_mvq q)); unfold mvp; destruct (global_frame_change _ _ _ _ _) as [x y]; reflexivity.
  Qed.
  Lemma circle_at_mv x y l f r p : circle_at (mx x y) (my x y) l f r p = mvg (configuration 0 0 0 0) (circle_at x y l f r p).
  Proof. unfold circle_at. destruct l; reflexivity. Qed.

  Lemma defl_move c q : deflection (mvc c) (mvq q) = deflection c q.
  Proof.
    unfold deflection, mvc, mvg; cbn [c_start c_left c_forward]. destruct ((c_left c && c_forward c) || _); apply twopify_congr.
    - eapply ang_eq_trans; [apply ang_eq_sub; apply theta_mvq|]. apply ang_eq_of_eq. ring.
    - eapply ang_eq_trans; [apply ang_eq_sub; apply theta_mvq|]. apply ang_eq_of_eq. ring.
  Qed.
  Lemma cd_move q q' : configuration_distance (mvq q) (mvq q') = configuration_distance q q'.
  Proof. apply pd_move. Qed.
  Lemma rs_len_move c q : rs_turn_length (mvc c) (mvq q) = rs_turn_length c q.
  Proof. unfold rs_turn_length. rewrite defl_move. reflexivity. Qed.
  Lemma hc_len_move c q : hc_turn_length (mvc c) (mvq q) = hc_turn_length c q.
  Proof. unfold hc_turn_length. rewrite defl_move. reflexivity. Qed.
  Lemma sharp_move c q d : cc_elementary_sharpness (mvc c) (mvq q) d = cc_elementary_sharpness c q d.
  Proof. unfold cc_elementary_sharpness, mvc, mvg, mvq; cbn [c_start q_x q_y c_left]. rewrite pd_move. reflexivity. Qed.
  Lemma cc_len_move c q : cc_turn_length (mvc c) (mvq q) = cc_turn_length c q.
  Proof. unfold cc_turn_length. rewrite defl_move, sharp_move. reflexivity. Qed.
  Lemma rs_ctl_move c q o : rs_turn_controls (mvc c) (mvq q) o = rs_turn_controls c q o.
  Proof. unfold rs_turn_controls. rewrite defl_move. reflexivity. Qed.
  Lemma hc_ctl_move c q o : hc_turn_controls (mvc c) (mvq q) o = hc_turn_controls c q o.
  Proof. unfold hc_turn_controls. rewrite defl_move. reflexivity. Qed.
  Lemma straight_ctl_move q q' : straight_controls (mvq q) (mvq q') = straight_controls q q'.
  Proof.
    unfold straight_controls. rewrite (ang_eq_cos _ _ (theta_mvq q)), (ang_eq_sin _ _ (theta_mvq q)). unfold mvq; cbn [q_x q_y q_theta]. rewrite pd_move, mx_sub, my_sub, cos_plus, sin_plus.
    do 4 f_equal. set (a := q_x q' - q_x q). set (b := q_y q' - q_y q).
    transitivity ((cos (q_theta q) * a + sin (q_theta q) * b) * (sin rho * sin rho + cos rho * cos rho)); [ring|rewrite sin2_cos2'; ring].
  Qed.
  Lemma cc_ctl_move c q o : cc_turn_controls (mvc c) (mvq q) o = cc_turn_controls c q o.
  Proof.
    unfold cc_turn_controls, cc_elementary_controls. rewrite defl_move, sharp_move. cbn [mvc mvg c_start]. rewrite !straight_ctl_move. reflexivity.
  Qed.

  Lemma center_move a b c1 c2 : center_distance (mvg a c1) (mvg b c2) = center_distance c1 c2.
  Proof. unfold center_distance, mvg; cbn [c_xc c_yc]. rewrite mx_sub, my_sub. f_equal. apply sq_rot. Qed.
  Lemma atan_move c1 c2 : far c1 c2 ->
    ang_eq (atan2 (my (c_xc c2) (c_yc c2) - my (c_xc c1) (c_yc c1)) (mx (c_xc c2) (c_yc c2) - mx (c_xc c1) (c_yc c1)))
           (atan2 (c_yc c2 - c_yc c1) (c_xc c2 - c_xc c1) + rho).
  Proof.
    intros F. rewrite mx_sub, my_sub. destruct F as [Z|N].
    - rewrite Z, cos_0, sin_0. apply ang_eq_of_eq. rewrite Rplus_0_r. f_equal; ring.
    - apply atan2_rot. unfold center_distance in N. set (dx := c_xc c2 - c_xc c1) in *. set (dy := c_yc c2 - c_yc c1) in *.
      destruct (Req_dec dx 0) as [A|A]; [|auto]. destruct (Req_dec dy 0) as [B|B]; [|auto]. exfalso. apply N. rewrite A, B.
      replace (0 ^ 2 + 0 ^ 2) with 0 by ring. apply sqrt_0.
  Qed.

  Lemma mvp_pair x y : mvp (x, y) = (mx x y, my x y).
  Proof. reflexivity. Qed.

  Lemma gTT_move mu a b c1 c2 : far c1 c2 -> gTT mu (mvg a c1) (mvg b c2) = mvq (gTT mu c1 c2).
  Proof.
    intros F. pose proof (atan_move c1 c2 F) as A. unfold gTT, mvg; cbn [c_xc c_yc c_left c_forward].
    replace ((mx (c_xc c1) (c_yc c1) + mx (c_xc c2) (c_yc c2)) / 2) with (mx ((c_xc c1 + c_xc c2) / 2) ((c_yc c1 + c_yc c2) / 2)) by (unfold mx; field).
    replace ((my (c_xc c1) (c_yc c1) + my (c_xc c2) (c_yc c2)) / 2) with (my ((c_xc c1 + c_xc c2) / 2) ((c_yc c1 + c_yc c2) / 2)) by (unfold my; field).
    destruct (c_left c1), (c_forward c1); apply conf_move; apply (via_angle _ _ _ _ A); ring.
  Qed.
  Ltac two A :=
    repeat match goal with
    | |- context [global_frame_change (mx ?x ?y) (my ?x ?y) ?T ?a ?b] =>
        match goal with |- context [global_frame_change x y ?t a b] =>
          rewrite (gfc_move x y t T a b) by (apply (via_angle _ _ _ _ A); ring); destruct (global_frame_change x y t a b) as [? ?]; rewrite mvp_pair; cbn [fst snd] end
    end.
  Ltac confs A :=
    repeat match goal with
    | |- context [configuration (mx ?x ?y) (my ?x ?y) ?T ?kp] =>
        match goal with |- context [configuration x y ?t kp] => rewrite (conf_move x y t T kp) by (apply (via_angle _ _ _ _ A); ring) end
    end.
  Lemma gTcT_move kap dy a b c1 c2 : far c1 c2 -> gTcT kap dy (mvg a c1) (mvg b c2) = mvq (gTcT kap dy c1 c2).
  Proof.
    intros F. pose proof (atan_move c1 c2 F) as A. unfold gTcT. rewrite center_move. unfold mvg; cbn [c_xc c_yc c_left c_forward].
    cbv zeta. destruct (c_left c1), (c_forward c1); two A; confs A; reflexivity.
  Qed.
  Lemma gTcTc_move r a b c1 c2 : far c1 c2 -> gTcTc r (mvg a c1) (mvg b c2) = option_map mvq (gTcTc r c1 c2).
  Proof.
    intros F. pose proof (atan_move c1 c2 F) as A. unfold gTcTc. rewrite center_move. unfold mvg; cbn [c_xc c_yc c_left c_forward].
    cbv zeta. destruct (fsqrt _); [|reflexivity]. cbn [fbind]. destruct (c_left c1), (c_forward c1); two A; confs A; reflexivity.
  Qed.
  Definition mvq2 (p : Configuration * Configuration) := (mvq (fst p), mvq (snd p)).
  Lemma gTiST_move R0 sm cm a b c1 c2 : gTiST R0 sm cm (mvg a c1) (mvg b c2) = option_map mvq2 (gTiST R0 sm cm c1 c2).
  Proof.
    unfold gTiST. rewrite center_move. cbv zeta.
    destruct (fdiv (2 * R0 * cm) (center_distance c1 c2)) as [t1|] eqn:E1; [|reflexivity]. cbn [fbind]. destruct (fasin t1) as [al|] eqn:E2; [|reflexivity].
    destruct (fdiv_some _ _ _ E1) as [N _]. pose proof (atan_move c1 c2 (or_intror N)) as A.
    cbn [fbind]. unfold mvg; cbn [c_xc c_yc c_left c_forward].
    destruct (c_left c1), (c_forward c1); cbn [andb negb]; two A; confs A; reflexivity.
  Qed.
  Lemma gTeST_move R0 sm cm a b c1 c2 : far c1 c2 -> gTeST R0 sm cm (mvg a c1) (mvg b c2) = mvq2 (gTeST R0 sm cm c1 c2).
  Proof.
    intros F. pose proof (atan_move c1 c2 F) as A. unfold gTeST. cbv zeta. unfold mvg; cbn [c_xc c_yc c_left c_forward].
    destruct (c_left c1), (c_forward c1); cbn [andb negb]; two A; confs A; reflexivity.
  Qed.

  (** ** The selections *)
  Lemma len_mvE e : e_length (mvE e) = e_length e.
  Proof. reflexivity. Qed.
  Lemma map_len_mvE t : map e_length (map mvE t) = map e_length t.
  Proof. rewrite map_map. apply map_ext. reflexivity. Qed.
  Lemma select_entry_move {ty} (types : list ty) a b t :
    select_entry types (mvq a) (mvq b) (map mvE t) = option_map mvP (select_entry types a b t).
  Proof.
    unfold select_entry. rewrite map_len_mvE. destruct (array_index_min _) as [i|]; [|reflexivity]. rewrite nth_error_map.
    destruct (nth_error types i); [|reflexivity]. destruct (nth_error t i); reflexivity.
  Qed.
  Lemma select_path_move {ty} (l : list (option (HPath ty))) : select_path (map (option_map mvP) l) = option_map mvP (select_path l).
  Proof.
    unfold select_path. rewrite map_map.
    replace (map (fun x => match option_map mvP x with Some p => e_length (h_entry p) | None => Some DBL_MAX end) l)
      with (map (fun p : option (HPath ty) => match p with Some p => e_length (h_entry p) | None => Some DBL_MAX end) l)
      by (apply map_ext; intros [p|]; reflexivity).
    destruct (array_index_min _) as [i|]; [|reflexivity]. change None with (option_map (@mvP ty) None) at 1. apply map_nth.
  Qed.
  Lemma path_distance_move {ty} (p : option (HPath ty)) : path_distance (option_map mvP p) = path_distance p.
  Proof. destruct p; reflexivity. Qed.
End Move.

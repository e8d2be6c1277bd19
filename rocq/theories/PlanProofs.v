(** * Candidates of the planners: what they achieve and how the shortest is selected *)
From Coq Require Import Reals ZArith List Lra Lia Bool.
From Verif Require Import Base ModelUtil ModelCircle ModelPaths Num UtilProofs SpecPath SpecTurn SpecPlan PoseAlg TurnProofs MotionProofs TurnBounds LegProofs TangentProofs.
Import ListNotations.
Open Scope R_scope.

(** The controls [cs] lead from [a] to [b] in [n] pieces that fit up to [g]. *)
Definition good (k s g n : R) (a b : Configuration) (k0 k1 : R) (cs : list Control) (L : R) : Prop :=
  let r := p_radius (hc_cc_param k s) in
  exists z, 0 <= z <= n * epsilon /\
    reaches (n * (2 * g + 2 * param_slack k s) + z * (3 / 2 * r + total_length cs) + fresnel_error cs) z (true_path (st_of a) cs) b /\
    Rabs (total_length cs - L) <= n * g + r * z /\
    curvature_chain k0 cs k1 /\ Forall (within_bounds (k * sharp k s g) (s * sharp k s g ^ 2)) cs /\ cs <> [].

Lemma leg_nonempty l : leg_controls l <> [].
Proof.
  destruct l as [c q o|c q o|c q o|q1 q2]; cbn [leg_controls]; try discriminate.
  - unfold cc_turn_controls, cc_elementary_controls, cc_default_controls. destruct (Rlt_dec _ _); [destruct o; discriminate|].
    destruct (Rlt_dec _ _); [|discriminate]. destruct (cc_elementary_sharpness _ _ _); [|discriminate]. destruct (Rlt_dec _ _); discriminate.
  - destruct o; discriminate.
Qed.
Lemma legs_nonempty ls : ls <> [] -> legs_controls ls <> [].
Proof.
  destruct ls as [|l ls]; [congruence|]. intros _. unfold legs_controls; cbn [flat_map]. intros E. apply app_eq_nil in E. destruct E as [E _]. exact (leg_nonempty l E).
Qed.

Section Good.
  Variables (k s : R).
  Hypothesis Hk : 0 < k.
  Hypothesis Hs : 0 < s.
  Let r := p_radius (hc_cc_param k s).

  Lemma eps_pos : 0 < epsilon.
  Proof. unfold epsilon. lra. Qed.
  Lemma sharp_1 g : 0 <= g -> 1 <= sharp k s g.
  Proof.
    intros G. pose proof (slack_nonneg k s Hk Hs). unfold sharp.
    assert (0 <= (g + 2 * param_slack k s) / epsilon) by (apply Rmult_le_pos; [lra|left; apply Rinv_0_lt_compat, eps_pos]). nra.
  Qed.
  Lemma sharp_leg g l : 0 <= g -> leg_m k s g (sharp k s g) l.
  Proof.
    intros G. destruct l as [c q o| | |]; cbn [leg_m]; auto. intros D. set (d := configuration_distance (c_start c) q) in *.
    pose proof (slack_nonneg k s Hk Hs) as SP. pose proof eps_pos as EP. unfold sharp. rewrite Rmult_assoc. apply Rmult_le_compat_l; [lra|].
    set (w := g + 2 * param_slack k s) in *. assert (W : 0 <= w) by (unfold w; lra).
    assert (w <= w / epsilon * d).
    { replace w with (w / epsilon * epsilon) at 1 by (field; lra). apply Rmult_le_compat_l; [|lra]. apply Rmult_le_pos; [exact W|left; apply Rinv_0_lt_compat, EP]. }
    unfold w in *. lra.
  Qed.

  Lemma chain_good g ls a b ks k0 k1 : 0 <= g -> ls <> [] -> chain k s g ls a b ks -> joints k0 ks k1 ->
    good k s g (INR (length ls)) a b k0 k1 (legs_controls ls) (legs_length ls).
  Proof.
    intros G NE C J. exists (legs_z ls). repeat apply conj; [..|apply legs_nonempty, NE].
    - apply legs_z_range.
    - apply legs_z_range.
    - apply (chain_reaches k s g Hk Hs G ls a b ks C).
    - apply (chain_reaches k s g Hk Hs G ls a b ks C).
    - apply (chain_len k s g Hk Hs G ls a b ks C).
    - exact (chain_curvature k s g Hk Hs ls a b ks k0 k1 C J).
    - apply (chain_bounds k s g Hk Hs (sharp k s g) ls a b ks C); [apply sharp_1, G|]. rewrite List.Forall_forall. intros l _. apply sharp_leg, G.
  Qed.

  Lemma bounds_zero g cs : 0 <= g -> List.Forall (fun c => ct_kappa c = 0 /\ ct_sigma c = 0) cs ->
    List.Forall (within_bounds (k * sharp k s g) (s * sharp k s g ^ 2)) cs.
  Proof.
    intros G F. pose proof (sharp_1 g G) as M. eapply List.Forall_impl; [|exact F]. intros c [A B]. unfold within_bounds. rewrite A, B.
    rewrite Rabs_R0. assert (0 <= sharp k s g ^ 2) by nra. split; [nra|]. intros. replace (0 + 0 * u) with 0 by ring. rewrite Rabs_R0. nra.
  Qed.

  (** Configurations that are equal up to the tolerance. *)
  Lemma equal_good a b : configuration_equal a b = true -> good k s (epsilon / 2) 1 a b 0 0 empty_controls 0.
  Proof.
    unfold configuration_equal. destruct (Rlt_dec _ _) as [|N1]; [discriminate|]. destruct (Rlt_dec _ _) as [|N2]; [discriminate|]. intros _.
    pose proof eps_pos as EP. pose proof (slack_nonneg k s Hk Hs) as SP. pose proof (radius_nonneg k s Hk Hs) as RP.
    exists epsilon. split; [lra|]. split; [split|split; [|split; [|split; [|discriminate]]]].
    - assert (TL : total_length empty_controls = 0) by (unfold total_length, empty_controls; cbn; rewrite Rabs_R0; ring).
      assert (FE : fresnel_error empty_controls = 0). { unfold fresnel_error, empty_controls; cbn. destruct (Req_EM_T 0 0); lra. }
      rewrite TL, FE.
      assert (E : pst (true_path (st_of a) empty_controls) = pcf a).
      { rewrite true_path_disp. unfold empty_controls; cbn [tdisps]. unfold tdisp, true_move, pst, pcf; cbn [ct_delta_s ct_kappa ct_sigma st_x st_y st_theta st_of].
        rewrite Rabs_R0. unfold SpecCloth.true_x, SpecCloth.true_y, SpecCloth.heading. rewrite !Coquelicot.RInt.RInt_point. unfold Coquelicot.Hierarchy.zero; cbn.
        unfold pmul; cbn. f_equal; match goal with |- ?u = ?v => change (@eq R u v) end; field. }
      unfold pos_dist. pose proof (f_equal px E) as EX. pose proof (f_equal py E) as EY. change (st_x (true_path (st_of a) empty_controls) = q_x a) in EX. change (st_y (true_path (st_of a) empty_controls) = q_y a) in EY.
      rewrite EX, EY. cbn [st_of st_x st_y].
      apply Rle_trans with epsilon; [|assert (0 <= epsilon * (3 / 2 * p_radius (hc_cc_param k s) + 0)) by (apply Rmult_le_pos; lra); lra].
      unfold configuration_distance, point_distance in N2.
      match goal with |- sqrt ?u <= _ => match type of N2 with ~ _ < sqrt ?v => replace u with v by ring end end. lra.
    - assert (E : st_theta (true_path (st_of a) empty_controls) = q_theta a).
      { unfold empty_controls, true_path; cbn [fold_left]. unfold true_move, SpecCloth.heading; cbn [ct_delta_s ct_kappa ct_sigma st_theta st_of]. field. }
      exists 0%Z. rewrite E. cbn [st_of st_theta]. rewrite Rmult_0_r, Rminus_0_r, Rabs_minus_sym. lra.
    - unfold total_length, empty_controls; cbn. rewrite Rabs_R0, Rplus_0_r, Rminus_0_r, Rabs_R0. assert (0 <= p_radius (hc_cc_param k s) * epsilon) by (apply Rmult_le_pos; lra). lra.
    - unfold empty_controls; cbn. split; ring.
    - apply bounds_zero; [lra|]. constructor; [|constructor]. cbn. auto.
  Qed.

  Lemma straight_near a b sg d ph h : pm1 sg -> 0 <= d -> h < 1 -> q_x b = q_x a + sg * d * cos ph -> q_y b = q_y a + sg * d * sin ph ->
    Rabs (ph - q_theta a) <= h -> Rabs (q_theta b - q_theta a) <= h ->
    reaches (h * d) h (true_path (st_of a) (straight_controls a b)) b /\ configuration_distance a b = d.
  Proof.
    intros SG DP H1 X Y PH TH.
    assert (LE : point_distance (q_x a) (q_y a) (q_x b) (q_y b) = d).
    { unfold point_distance. rewrite X, Y. pose proof (sin2_cos2' ph) as C. pose proof (pm1_sq sg SG) as S2.
      match goal with |- sqrt ?e = _ => replace e with ((sg * sg) * (d * d) * (sin ph * sin ph + cos ph * cos ph)) by ring end.
      rewrite C, S2, Rmult_1_r, Rmult_1_l. apply sqrt_square, DP. }
    split; [|exact LE]. unfold straight_controls. rewrite LE.
    assert (DE : cos (q_theta a) * (q_x b - q_x a) + sin (q_theta a) * (q_y b - q_y a) = sg * (d * cos (ph - q_theta a))).
    { rewrite X, Y, cos_minus. ring. }
    rewrite DE.
    assert (CP : 0 < cos (ph - q_theta a)). { pose proof (Rle_abs (ph - q_theta a)); pose proof (Rle_abs (- (ph - q_theta a))) as RA; rewrite Rabs_Ropp in RA; apply cos_gt_0; pose proof PI2_1; lra. }
    assert (DS : sgn (sg * (d * cos (ph - q_theta a))) * d = sg * d).
    { destruct (Req_EM_T d 0) as [->|NZ]; [ring|]. f_equal. assert (0 < d * cos (ph - q_theta a)) by (apply Rmult_lt_0_compat; lra).
      unfold sgn. destruct SG as [->| ->]; destruct (Rlt_dec _ _); lra. }
    rewrite DS. set (t := sg * d) in *. apply reaches_near. unfold true_path; cbn [fold_left]. unfold true_move, pst, pcf, near; cbn [ct_delta_s ct_kappa ct_sigma st_x st_y st_theta px py pt st_of].
    pose proof (const_prim_y (q_y a) (q_theta a) (sgn t) (Rabs t)) as PY.
    pose proof (JacProofs.const_prim_x (q_x a) (q_theta a) (sgn t) (Rabs t)) as PX.
    rewrite sgn_mul_abs in PX, PY. split.
    - replace (SpecCloth.true_x (q_x a) (q_theta a) 0 0 (sgn t) (Rabs t) - q_x b) with ((t * cos (q_theta a) - 0 * sin (q_theta a)) - (t * cos ph - 0 * sin ph)) by lra.
      replace (SpecCloth.true_y (q_y a) (q_theta a) 0 0 (sgn t) (Rabs t) - q_y b) with ((t * sin (q_theta a) + 0 * cos (q_theta a)) - (t * sin ph + 0 * cos ph)) by lra.
      replace d with (hyp t 0); [apply rot_dist; rewrite Rabs_minus_sym; exact PH|].
      apply hyp_eq; [exact DP|]. unfold t. destruct SG as [->| ->]; ring.
    - exists 0%Z. unfold SpecCloth.heading.
      match goal with |- Rabs ?e <= _ => replace e with (- (q_theta b - q_theta a)) by field end. rewrite Rabs_Ropp. exact TH.
  Qed.

  Lemma straight_good a b h : h <= 2 * epsilon -> (exists sg d ph, pm1 sg /\ 0 <= d /\ q_x b = q_x a + sg * d * cos ph /\ q_y b = q_y a + sg * d * sin ph /\
    Rabs (ph - q_theta a) <= h /\ Rabs (q_theta b - q_theta a) <= h) ->
    good k s 0 2 a b 0 0 (straight_controls a b) (configuration_distance a b).
  Proof.
    intros HE (sg & d & ph & SG & DP & X & Y & PH & TH). pose proof (Rabs_pos (ph - q_theta a)) as H0.
    assert (H1 : h < 1) by (unfold epsilon in HE; lra).
    destruct (straight_near a b sg d ph h SG DP H1 X Y PH TH) as [RE LE]. pose proof (slack_nonneg k s Hk Hs) as SP. pose proof (radius_nonneg k s Hk Hs) as RP.
    exists h. split; [lra|]. split; [split|split; [|split; [|split; [|discriminate]]]].
    - eapply Rle_trans; [apply RE|]. rewrite straight_len, LE. pose proof (fresnel_nonneg (straight_controls a b)).
      assert (0 <= h * (3 / 2 * p_radius (hc_cc_param k s))) by (apply Rmult_le_pos; lra). lra.
    - apply RE.
    - rewrite straight_len, Rminus_eq_0, Rabs_R0. assert (0 <= p_radius (hc_cc_param k s) * h) by (apply Rmult_le_pos; lra). lra.
    - apply straight_chain.
    - apply bounds_zero; [lra|]. constructor; [|constructor]. cbn. auto.
  Qed.

  Lemma point_polar x1 y1 x2 y2 : x2 = x1 + point_distance x1 y1 x2 y2 * cos (atan2 (y2 - y1) (x2 - x1)) /\
    y2 = y1 + point_distance x1 y1 x2 y2 * sin (atan2 (y2 - y1) (x2 - x1)).
  Proof.
    assert (E : point_distance x1 y1 x2 y2 = sqrt ((x2 - x1) * (x2 - x1) + (y2 - y1) * (y2 - y1))) by (unfold point_distance; f_equal; ring).
    rewrite E, atan2_cos, atan2_sin. split; ring.
  Qed.
  Lemma aligned_forward a b : configuration_aligned a b = true -> good k s 0 2 a b 0 0 (straight_controls a b) (configuration_distance a b).
  Proof.
    unfold configuration_aligned. destruct (Rlt_dec _ _) as [|N1]; [discriminate|]. unfold Rleb. destruct (Rle_dec _ _) as [N2|]; [|discriminate]. intros _.
    apply (straight_good a b epsilon); [pose proof eps_pos; lra|].
    exists 1, (point_distance (q_x a) (q_y a) (q_x b) (q_y b)), (twopify (atan2 (q_y b - q_y a) (q_x b - q_x a))).
    destruct (point_polar (q_x a) (q_y a) (q_x b) (q_y b)) as [X Y]. pose proof (twopify_ang (atan2 (q_y b - q_y a) (q_x b - q_x a))) as A.
    rewrite (ang_eq_cos _ _ A), (ang_eq_sin _ _ A), Rmult_1_l.
    split; [left; reflexivity|]. split; [apply sqrt_pos|]. split; [exact X|]. split; [exact Y|]. split; [exact N2|lra].
  Qed.
  Lemma aligned_backward a b : configuration_aligned b a = true -> good k s 0 2 a b 0 0 (straight_controls a b) (configuration_distance b a).
  Proof.
    unfold configuration_aligned. destruct (Rlt_dec _ _) as [|N1]; [discriminate|]. unfold Rleb. destruct (Rle_dec _ _) as [N2|]; [|discriminate]. intros _.
    rewrite conf_dist_sym. apply (straight_good a b (2 * epsilon)); [lra|].
    exists (-1), (point_distance (q_x b) (q_y b) (q_x a) (q_y a)), (twopify (atan2 (q_y a - q_y b) (q_x a - q_x b))).
    destruct (point_polar (q_x b) (q_y b) (q_x a) (q_y a)) as [X Y]. pose proof (twopify_ang (atan2 (q_y a - q_y b) (q_x a - q_x b))) as A.
    pose proof eps_pos as EP. set (ph := twopify (atan2 (q_y a - q_y b) (q_x a - q_x b))) in *.
    rewrite (ang_eq_cos _ _ A), (ang_eq_sin _ _ A).
    split; [right; reflexivity|]. split; [apply sqrt_pos|]. split; [lra|]. split; [lra|]. split; [|rewrite Rabs_minus_sym; lra].
    replace (ph - q_theta a) with ((ph - q_theta b) + - (q_theta a - q_theta b)) by ring. eapply Rle_trans; [apply Rabs_triang|]. rewrite Rabs_Ropp. lra.
  Qed.

  (** A goal on the circle of the start. *)
  Lemma on_circle_gap c q : c_sin_mu c = sin (c_mu c) -> c_cos_mu c = cos (c_mu c) -> 0 <= c_radius c ->
    configuration_on_hc_cc_circle c q = true -> cc_tangent (epsilon * (1 + c_radius c)) c q.
  Proof.
    intros SM CM RP. unfold configuration_on_hc_cc_circle. destruct (Rlt_dec _ _) as [|N1]; [discriminate|].
    set (d := point_distance (c_xc c) (c_yc c) (q_x q) (q_y q)) in *. set (an := atan2 (q_y q - c_yc c) (q_x q - c_xc c)).
    set (al := if c_left c then if c_forward c then an + HALF_PI - c_mu c else an + HALF_PI + c_mu c
               else if c_forward c then an - HALF_PI + c_mu c else an - HALF_PI - c_mu c).
    unfold Rltb. destruct (Rlt_dec _ _) as [N2|]; [|discriminate]. intros _. set (rr := c_radius c) in *.
    destruct (point_polar (c_xc c) (c_yc c) (q_x q) (q_y q)) as [X Y]. fold d an in X, Y.
    set (de := q_theta q - twopify al) in *.
    assert (TC : ang_eq (q_theta q) (al + de)).
    { unfold de. destruct (twopify_ang al) as [n E]. exists n. rewrite E. ring. }
    set (mu := c_mu c) in *. unfold cc_tangent, centre_gap. rewrite SM, CM. fold rr mu.
    set (sf := sign (c_forward c)). set (sl := sign (c_left c)).
    assert (R1 : (- sf * (rr * sin mu)) * cos (q_theta q) - (sl * (rr * cos mu)) * sin (q_theta q) = - rr * cos (an + de) /\
                 (- sf * (rr * sin mu)) * sin (q_theta q) + (sl * (rr * cos mu)) * cos (q_theta q) = - rr * sin (an + de)).
    { rewrite (ang_eq_cos _ _ TC), (ang_eq_sin _ _ TC). unfold al, sf, sl. pose proof (cos_sq mu) as T.
      destruct (c_left c), (c_forward c); cbn [sign]; trig; split; ring [T]. }
    destruct R1 as [RX RY].
    match goal with |- sqrt (?u ^ 2 + ?v ^ 2) <= _ => fold (hyp u v);
      replace u with ((d - rr) * cos an + ((rr * cos an - 0 * sin an) - (rr * cos (an + de) - 0 * sin (an + de)))) by lra;
      replace v with ((d - rr) * sin an + ((rr * sin an + 0 * cos an) - (rr * sin (an + de) + 0 * cos (an + de)))) by lra end.
    eapply Rle_trans; [apply hyp_add|]. rewrite hyp_polar.
    assert (H2 : Rabs (an - (an + de)) <= epsilon) by (replace (an - (an + de)) with (- de) by ring; rewrite Rabs_Ropp; lra).
    pose proof (rot_dist rr 0 an (an + de) epsilon H2) as RD.
    replace (hyp rr 0) with rr in RD by (symmetry; apply hyp_eq; [exact RP|ring]). lra.
  Qed.
End Good.

(** From configurations to states. *)
Definition at_conf (s1 : State) (a : Configuration) : Prop := peq (pst s1) (pcf a).
Lemma at_configuration s1 kap : at_conf s1 (configuration (st_x s1) (st_y s1) (st_theta s1) kap).
Proof. unfold at_conf, configuration, pst, pcf, peq; cbn. split; [reflexivity|split; [reflexivity|]]. apply ang_eq_sym, twopify_ang. Qed.
Lemma good_drives k s g n a b k0 k1 cs L s1 s2 : 0 < k -> 0 < s -> at_conf s1 a -> at_conf s2 b -> good k s g n a b k0 k1 cs L ->
  drives k s n g s1 s2 cs L /\ curvature_chain k0 cs k1 /\ cs <> [].
Proof.
  intros Hk Hs A B (z & [Z0 Z1] & RE & LE & CC & FB & NE). split; [|split; [exact CC|exact NE]]. pose proof (radius_nonneg k s Hk Hs) as RP. pose proof (total_nonneg cs) as TP.
  set (rr := p_radius (hc_cc_param k s)) in *. set (E := n * (2 * g + 2 * param_slack k s) + z * (3 / 2 * rr + total_length cs) + fresnel_error cs) in *.
  assert (N : near E z (pst (true_path s1 cs)) (pst s2)).
  { rewrite reaches_near, true_path_disp in RE. rewrite true_path_disp. change (pst (st_of a)) with (pcf a) in RE. eapply near_peq; [|apply peq_sym, B|exact RE].
    apply pmul_congr_l, peq_sym, A. }
  destruct N as [N1 N2]. split; [|split; [|split; [|exact FB]]].
  - unfold pos_dist. unfold plan_error. fold rr. change (sqrt ((st_x (true_path s1 cs) - st_x s2) ^ 2 + (st_y (true_path s1 cs) - st_y s2) ^ 2)) with
      (hyp (px (pst (true_path s1 cs)) - px (pst s2)) (py (pst (true_path s1 cs)) - py (pst s2))). eapply Rle_trans; [exact N1|].
    unfold E. assert (z * (3 / 2 * rr + total_length cs) <= n * epsilon * (3 / 2 * rr + total_length cs)) by (apply Rmult_le_compat_r; lra). lra.
  - destruct N2 as [m M]. exists m. exact (Rle_trans _ _ _ M Z1).
  - eapply Rle_trans; [exact LE|]. fold rr. assert (z * rr <= n * epsilon * rr) by (apply Rmult_le_compat_r; lra). lra.
Qed.

(** ** Selection *)
Section Select.
  Context {ty : Type}.
  Lemma select_entry_in types a b table (p : HPath ty) : select_entry types a b table = Some p ->
    In (h_type p, h_entry p) (combine types table) /\ h_start p = a /\ h_end p = b.
  Proof.
    unfold select_entry. destruct (array_index_min _) as [i|]; [|discriminate].
    destruct (nth_error types i) as [t|] eqn:T; [|discriminate]. destruct (nth_error table i) as [e|] eqn:E; [|discriminate].
    intros H. injection H as <-. cbn [h_type h_entry h_start h_end]. repeat split.
    clear - T E. revert table i T E. induction types as [|t0 ts IH]; intros [|e0 es] [|i]; cbn; try discriminate.
    - intros [= ->] [= ->]. left; reflexivity.
    - intros T E. right. eapply IH; eassumption.
  Qed.
  Lemma select_entry_min types a b table x0 : nth_error (map e_length table) 0 = Some (Some x0) -> (length table <= length types)%nat ->
    exists (p : HPath ty) L, select_entry types a b table = Some p /\ e_length (h_entry p) = Some L /\
      forall e w, In e table -> e_length e = Some w -> L <= w.
  Proof.
    intros Z LE. assert (NE : map e_length table <> []) by (destruct table; [discriminate|discriminate]).
    destruct (array_index_min_total _ NE) as [i AI]. destruct (array_index_min_spec _ _ AI) as (LT & _ & M).
    destruct (M x0 Z) as (v & V & MIN). unfold select_entry. rewrite AI. rewrite map_length in LT.
    rewrite nth_error_map in V. destruct (nth_error table i) as [e|] eqn:E; [|discriminate]. cbn in V. injection V as V.
    destruct (nth_error types i) as [t|] eqn:T; [|apply nth_error_None in T; lia].
    eexists _, v. split; [reflexivity|]. split; [exact V|]. intros e' w IN W. destruct (In_nth_error _ _ IN) as [j J].
    apply (MIN j w). rewrite nth_error_map, J. cbn. rewrite W. reflexivity.
  Qed.
  Lemma select_path_min (paths : list (option (HPath ty))) w : (forall p, In (Some p) paths -> e_length (h_entry p) <> None) ->
    (exists p, In (Some p) paths /\ e_length (h_entry p) = Some w) -> w < DBL_MAX ->
    exists p L, select_path paths = Some p /\ In (Some p) paths /\ e_length (h_entry p) = Some L /\ L < DBL_MAX /\
      forall p' w', In (Some p') paths -> e_length (h_entry p') = Some w' -> L <= w'.
  Proof.
    intros NN (p0 & IN0 & W0) WM. unfold select_path.
    set (f := fun p : option (HPath ty) => match p with Some p => e_length (h_entry p) | None => Some DBL_MAX end).
    assert (NE : map f paths <> []) by (destruct paths; [destruct IN0|discriminate]).
    destruct (array_index_min_total _ NE) as [i AI]. rewrite AI. destruct (array_index_min_spec _ _ AI) as (LT & _ & M).
    assert (Z : exists x0, nth_error (map f paths) 0 = Some (Some x0)).
    { destruct paths as [|[p|] ps]; [destruct IN0| |eexists; reflexivity]. cbn. specialize (NN p (or_introl eq_refl)).
      destruct (e_length (h_entry p)); [eexists; reflexivity|contradiction]. }
    destruct Z as [x0 Z]. destruct (M x0 Z) as (v & V & MIN). rewrite nth_error_map in V.
    destruct (nth_error paths i) as [op|] eqn:E; [|discriminate]. cbn in V. injection V as V.
    assert (VW : forall p' w', In (Some p') paths -> e_length (h_entry p') = Some w' -> v <= w').
    { intros p' w' IN W. destruct (In_nth_error _ _ IN) as [j J]. apply (MIN j w'). rewrite nth_error_map, J. cbn. rewrite W. reflexivity. }
    pose proof (VW _ _ IN0 W0) as VW0. destruct op as [p|].
    - exists p, v. rewrite (nth_error_nth _ _ None E). split; [reflexivity|]. split; [eapply nth_error_In; exact E|]. split; [exact V|]. split; [lra|exact VW].
    - cbn in V. injection V as V. lra.
  Qed.
End Select.

(** The selected path is one of the candidates. *)
Section Picked.
  Context {ty : Type}.
  Lemma select_path_in (paths : list (option (HPath ty))) p : select_path paths = Some p -> In (Some p) paths.
  Proof.
    unfold select_path. set (f := fun p : option (HPath ty) => match p with Some p => e_length (h_entry p) | None => Some DBL_MAX end).
    destruct (array_index_min _) as [i|]; [|discriminate]. intros H.
    destruct (nth_in_or_default i paths None) as [IN|E]; [rewrite H in IN; exact IN|congruence].
  Qed.
  Lemma paths_in (sk : nat -> nat -> bool) (A B : list Circle) (g : Circle -> Circle -> option (HPath ty)) n m p :
    In (Some p) (map (fun '(i, j) => if sk i j then None else
        match nth_error A i, nth_error B j with Some c1, Some c2 => g c1 c2 | _, _ => None end) (list_prod (seq 0 n) (seq 0 m))) ->
    exists i j c1 c2, sk i j = false /\ nth_error A i = Some c1 /\ nth_error B j = Some c2 /\ g c1 c2 = Some p.
  Proof.
    rewrite in_map_iff. intros ([i j] & E & _). destruct (sk i j) eqn:SK; [discriminate|].
    destruct (nth_error A i) as [c1|] eqn:EA; [|discriminate]. destruct (nth_error B j) as [c2|] eqn:EB; [|discriminate].
    exists i, j, c1, c2. auto.
  Qed.
  Lemma paths_has (sk : nat -> nat -> bool) (A B : list Circle) (g : Circle -> Circle -> option (HPath ty)) n m i j c1 c2 p :
    (i < n)%nat -> (j < m)%nat -> sk i j = false -> nth_error A i = Some c1 -> nth_error B j = Some c2 -> g c1 c2 = Some p ->
    In (Some p) (map (fun '(i, j) => if sk i j then None else
        match nth_error A i, nth_error B j with Some c1, Some c2 => g c1 c2 | _, _ => None end) (list_prod (seq 0 n) (seq 0 m))).
  Proof.
    intros LI LJ SK EA EB G. rewrite in_map_iff. exists (i, j). rewrite SK, EA, EB, G. split; [reflexivity|]. apply in_prod; apply in_seq; lia.
  Qed.
End Picked.


Lemma plan_exists {ty} (types : list ty) (table : Circle -> Circle -> list Entry) (sk : nat -> nat -> bool) A B n m i j c1 c2 e w :
  (forall c1 c2, exists x0, nth_error (map e_length (table c1 c2)) 0 = Some (Some x0)) ->
  (forall c1 c2, (length (table c1 c2) <= length types)%nat) ->
  (i < n)%nat -> (j < m)%nat -> sk i j = false -> nth_error A i = Some c1 -> nth_error B j = Some c2 ->
  In e (table c1 c2) -> e_length e = Some w -> w < DBL_MAX ->
  exists p L, select_path (map (fun '(i, j) => if sk i j then None else
      match nth_error A i, nth_error B j with
      | Some c1, Some c2 => select_entry types (c_start c1) (c_start c2) (table c1 c2)
      | _, _ => None end) (list_prod (seq 0 n) (seq 0 m))) = Some p /\ e_length (h_entry p) = Some L /\ L < DBL_MAX /\ L <= w.
Proof.
  intros Z LEN LI LJ SK EA EB IN EW WM. set (g := fun c1 c2 => select_entry types (c_start c1) (c_start c2) (table c1 c2)).
  set (ps := map _ _).
  assert (NN : forall p, In (Some p) ps -> e_length (h_entry p) <> None).
  { intros p HP. apply (paths_in sk A B g) in HP. destruct HP as (i' & j' & d1 & d2 & _ & _ & _ & S). destruct (Z d1 d2) as [x0 Z0].
    destruct (select_entry_min types (c_start d1) (c_start d2) (table d1 d2) x0 Z0 (LEN _ _)) as (p' & L & S' & EL & _). unfold g in S. rewrite S in S'. injection S' as ->. congruence. }
  destruct (Z c1 c2) as [x0 Z0]. destruct (select_entry_min types (c_start c1) (c_start c2) (table c1 c2) x0 Z0 (LEN _ _)) as (p0 & L0 & S0 & EL0 & MIN0).
  pose proof (paths_has sk A B g n m i j c1 c2 p0 LI LJ SK EA EB S0) as IN0. fold ps in IN0. pose proof (MIN0 e w IN EW) as LW.
  destruct (select_path_min ps L0 NN) as (p & L & S & _ & EL & LM & MIN); [exists p0; auto|lra|].
  exists p, L. split; [exact S|split; [exact EL|split; [exact LM|]]]. pose proof (MIN p0 L0 IN0 EL0). lra.
Qed.

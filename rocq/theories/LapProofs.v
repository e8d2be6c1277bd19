(** * Full turns added to the headings of start and goal: Dubins and Reeds-Shepp *)
From Coq Require Import Reals ZArith List Bool Lra Lia.
From Verif Require Import Base ModelUtil ModelFresnel ModelIntegrate ModelDubins ModelRS Num
  UtilProofs SpecPath SpecRS SpecTurn SpecRigid IntegrateProofs DubinsProofs DubinsPlan RSProofs RSPlan RSExist RSSelect RSOpt SymRS SymCases.
Import ListNotations.
Open Scope R_scope.

(** ** Dubins *)
Lemma dubins_path_laps kappa s1 s2 s1' s2' : same_but_turns s1 s1' -> same_but_turns s2 s2' ->
  dubins_path kappa s1' s2' = dubins_path kappa s1 s2.
Proof.
  intros (X1 & Y1 & [n N] & _) (X2 & Y2 & [m M] & _). unfold dubins_path, dubins_args. cbv zeta. rewrite X1, Y1, X2, Y2, N, M.
  set (th := atan2 _ _).
  rewrite (twopify_congr (st_theta s1 + 2 * PI * IZR n - th) (st_theta s1 - th)) by (exists n; ring).
  rewrite (twopify_congr (st_theta s2 + 2 * PI * IZR m - th) (st_theta s2 - th)) by (exists m; ring). reflexivity.
Qed.

Lemma dubins_laps kappa fw s1 s2 s1' s2' : same_but_turns s1 s1' -> same_but_turns s2 s2' ->
  dubins_distance kappa fw s1' s2' = dubins_distance kappa fw s1 s2 /\
  dubins_get_controls kappa fw s1' s2' = dubins_get_controls kappa fw s1 s2.
Proof.
  intros A B. unfold dubins_distance, dubins_get_controls.
  rewrite (dubins_path_laps kappa s1 s2 s1' s2' A B), (dubins_path_laps kappa s2 s1 s2' s1' B A). split; reflexivity.
Qed.

(** ** Reeds-Shepp: every solver gives the same answer unless the last segment is half a turn *)
Lemma pify_lap a b : ang_eq a b -> pify b = pify a \/ PI <= Rabs (pify a).
Proof.
  intros A. destruct (Rlt_le_dec (Rabs (pify a)) PI) as [H|H]; [left|right; exact H].
  apply Rabs_def2 in H. apply pify_is; [|lra]. eapply ang_eq_trans; [apply pify_ang|exact A].
Qed.

Ltac lap p q :=
  match goal with |- context [pify ?e] =>
    match e with context [p] =>
      match eval pattern p in e with ?f p =>
        let E := fresh "E" in
        destruct (pify_lap (f p) (f q)) as [E|E]; try cbv beta in E;
        [ cbv beta; match goal with A : ang_eq p q |- _ => let n := fresh "n" in let N := fresh "N" in destruct A as [n N]; rewrite N;
            first [exists n; ring|exists (- n)%Z; rewrite opp_IZR; ring] end
        | rewrite E; intros H; exact H
        | let H := fresh "H" in intros H; exfalso; repeat (destruct (Rle_dec _ _) in H; try discriminate);
          injection H as ? ? ?; subst; lra ]
      end
    end
  end.

Definition lapped (S : R -> R -> R -> RSSol) : Prop := forall x y p q t u v, ang_eq p q -> Rabs v < PI ->
  S x y p = Some (t, u, v) -> S x y q = Some (t, u, v).

Lemma LpSpLp_lap : lapped LpSpLp.
Proof.
  intros x y p q t u v A V. unfold LpSpLp. rewrite (ang_eq_sin _ _ A), (ang_eq_cos _ _ A). destruct (polar _ _) as [a b]. cbv zeta. lap p q.
Qed.
Lemma LpSpRp_lap : lapped LpSpRp.
Proof.
  intros x y p q t u v A V. unfold LpSpRp, valLpSpRp. rewrite (ang_eq_sin _ _ A), (ang_eq_cos _ _ A). destruct (polar _ _) as [a b]. cbv zeta.
  destruct (Rle_dec 4 _); [|discriminate]. lap p q.
Qed.
Lemma LpRmL_lap : lapped LpRmL.
Proof.
  intros x y p q t u v A V. unfold LpRmL, valLpRmL. cbv zeta. rewrite (ang_eq_sin _ _ A), (ang_eq_cos _ _ A). destruct (polar _ _) as [a b].
  destruct (Rle_dec a 4); [|discriminate]. lap p q.
Qed.
Lemma LpRupLumRm_lap : lapped LpRupLumRm.
Proof.
  intros x y p q t u v A V. unfold LpRupLumRm, valLpRupLumRm, tauOmega. cbv zeta. rewrite (ang_eq_sin _ _ A), (ang_eq_cos _ _ A).
  destruct (Rle_dec _ 1); [|discriminate]. match goal with |- context [if Rlt_dec ?a ?b then ?c else ?d] => set (tau := if Rlt_dec a b then c else d) end. lap p q.
Qed.
Lemma LpRumLumRp_lap : lapped LpRumLumRp.
Proof.
  intros x y p q t u v A V. unfold LpRumLumRp, valLpRumLumRp, tauOmega. cbv zeta. rewrite (ang_eq_sin _ _ A), (ang_eq_cos _ _ A).
  destruct (Rle_dec 0 _); [|discriminate]. destruct (Rle_dec _ 1); [|discriminate]. destruct (Rle_dec (- (1 / 2) * PI) _); [|discriminate].
  match goal with |- context [if Rlt_dec ?a ?b then ?c else ?d] => set (tau := if Rlt_dec a b then c else d) end. lap p q.
Qed.
Lemma LpRmSmLm_lap : lapped LpRmSmLm.
Proof.
  intros x y p q t u v A V. unfold LpRmSmLm, valLpRmSmLm. cbv zeta. rewrite (ang_eq_sin _ _ A), (ang_eq_cos _ _ A). destruct (polar _ _) as [a b].
  destruct (Rle_dec 2 _); [|discriminate]. lap p q.
Qed.
Lemma LpRmSmRm_lap : lapped LpRmSmRm.
Proof.
  intros x y p q t u v A V. unfold LpRmSmRm, valLpRmSmRm. cbv zeta. rewrite (ang_eq_sin _ _ A), (ang_eq_cos _ _ A). destruct (polar _ _) as [a b].
  destruct (Rle_dec 2 _); [|discriminate]. lap p q.
Qed.
Lemma LpRmSLmRp_lap : lapped LpRmSLmRp.
Proof.
  intros x y p q t u v A V. unfold LpRmSLmRp, valLpRmSLmRp. cbv zeta. rewrite (ang_eq_sin _ _ A), (ang_eq_cos _ _ A). destruct (polar _ _) as [a b].
  destruct (Rle_dec 2 _); [|discriminate]. destruct (Rle_dec (4 - _) _); [|discriminate]. lap p q.
Qed.

Definition cand_lap (c c' : RSCand) : Prop := snd c = snd c' /\
  forall t u v, Rabs v < PI -> fst c = Some (t, u, v) -> fst c' = Some (t, u, v).

Lemma ang_eq_neg a b : ang_eq a b -> ang_eq (- a) (- b).
Proof. intros [n ->]. exists (- n)%Z. rewrite opp_IZR. ring. Qed.

Lemma cands_lap x y p q : ang_eq p q -> Forall2 cand_lap (all_cands x y p) (all_cands x y q).
Proof.
  intros A. pose proof (ang_eq_neg _ _ A) as B.
  unfold all_cands, CSC_cands, CCC_cands, CCCC_cands, CCSC_cands, CCSCC_cands. cbv zeta. cbn [app].
  rewrite (ang_eq_sin _ _ A), (ang_eq_cos _ _ A).
  repeat (apply Forall2_cons; [split; [reflexivity|intros t u v V; cbn [fst];
    first [apply LpSpLp_lap|apply LpSpRp_lap|apply LpRmL_lap|apply LpRupLumRm_lap|apply LpRumLumRp_lap|apply LpRmSmLm_lap|apply LpRmSmRm_lap|apply LpRmSLmRp_lap]; assumption]|]).
  constructor.
Qed.

Lemma Forall2_in (A B : Type) (P : A -> B -> Prop) l l' a : Forall2 P l l' -> In a l -> exists b, In b l' /\ P a b.
Proof.
  induction 1 as [|x y l l' H F IH]; intros I; [destruct I|]. destruct I as [->|I].
  - exists y. split; [left; reflexivity|exact H].
  - destruct (IH I) as (b & J & K). exists b. split; [right; exact J|exact K].
Qed.

Lemma lap_le x y p q : ang_eq p q -> outer_half (reeds_shepp x y p) ->
  rs_length (reeds_shepp x y q) <= rs_length (reeds_shepp x y p).
Proof.
  intros A. destruct (rs_select x y p) as ([E|(c & t & u & v & I & F & E)] & _ & _); rewrite E.
  { intros _. rewrite rs_none_length. apply rs_max. }
  intros O.
  assert (V : Rabs v < PI).
  { clear F E A. unfold all_cands, CSC_cands, CCC_cands, CCCC_cands, CCSC_cands, CCSCC_cands in I. cbv zeta in I. cbn [app] in I. unfold In in I.
    decompose [or] I; clear I; try contradiction; subst c; unfold outer_half in O;
    cbn [snd rs_type rs_len rs_path_type dsegs combine] in O;
    repeat match goal with H : Forall _ (_ :: _) |- _ => apply Forall_inv in H as ?; apply Forall_inv_tail in H end;
    cbn [fst snd] in *; rewrite ?Rabs_Ropp in *;
    match goal with H : _ -> Rabs v < PI |- _ => apply H; discriminate end. }
  destruct (Forall2_in _ _ _ _ _ c (cands_lap x y p q A) I) as (c' & I' & S & K).
  destruct (rs_select x y q) as (_ & _ & M). rewrite S. apply M. exists c', t, u, v. split; [exact I'|]. split; [apply K; assumption|reflexivity].
Qed.

Lemma rs_laps kappa s1 s2 s1' s2' : 0 < kappa -> same_but_turns s1 s1' -> same_but_turns s2 s2' ->
  (forall c, In c (rs_get_controls kappa s1 s2) -> Rabs (ct_kappa c * ct_delta_s c) < PI) ->
  rs_distance kappa s1' s2' <= rs_distance kappa s1 s2.
Proof.
  intros K (X1 & Y1 & [n N] & _) (X2 & Y2 & [m M] & _) H.
  assert (O : outer_half (rs_path kappa s1 s2)).
  { unfold rs_get_controls in H. rewrite rs_controls_word in H. unfold outer_half. apply Forall_forall.
    intros [s l] I NS. cbn [fst snd] in *. pose proof (in_map (fun x => dubins_control kappa (fst x) (snd x)) _ _ I) as J.
    specialize (H _ J). destruct s; cbn in H; try congruence.
    all: revert H; match goal with |- Rabs ?a < _ -> _ => (replace a with l by (field; lra)) || (replace a with (- l) by (field; lra); rewrite Rabs_Ropp) end; auto. }
  unfold rs_distance, rs_path, rs_args in *. cbv zeta in *. apply Rmult_le_compat_l; [apply div_nonneg; lra|].
  rewrite X1, Y1, X2, Y2, N, M, cos_2kPI, sin_2kPI. apply lap_le; [|exact O].
  exists (n - m)%Z. rewrite minus_IZR. ring.
Qed.

Lemma same_but_turns_sym a b : same_but_turns a b -> same_but_turns b a.
Proof.
  intros (X & Y & [n N] & K). split; [congruence|]. split; [congruence|]. split; [|congruence].
  exists (- n)%Z. rewrite N, opp_IZR. ring.
Qed.

Lemma rs_laps_equal kappa s1 s2 s1' s2' : 0 < kappa -> same_but_turns s1 s1' -> same_but_turns s2 s2' ->
  (forall c, In c (rs_get_controls kappa s1 s2) -> Rabs (ct_kappa c * ct_delta_s c) < PI) ->
  (forall c, In c (rs_get_controls kappa s1' s2') -> Rabs (ct_kappa c * ct_delta_s c) < PI) ->
  rs_distance kappa s1' s2' = rs_distance kappa s1 s2.
Proof.
  intros K A B H H'. apply Rle_antisym; [apply (rs_laps kappa s1 s2 s1' s2'); assumption|].
  apply (rs_laps kappa s1' s2' s1 s2); try apply same_but_turns_sym; assumption.
Qed.

Lemma laps_case : same_but_turns (mkState 0 0 0 0 0) (mkState 0 0 (2 * PI) 0 0) /\ same_but_turns (mkState 5 0 0 0 0) (mkState 5 0 (- (4 * PI)) 0 0) /\
  (forall c, In c (rs_get_controls 1 (mkState 0 0 0 0 0) (mkState 5 0 0 0 0)) -> Rabs (ct_kappa c * ct_delta_s c) < PI).
Proof.
  split; [|split; [|apply straight_case]].
  - split; [reflexivity|]. split; [reflexivity|]. split; [exists 1%Z; cbn; lra|reflexivity].
  - split; [reflexivity|]. split; [reflexivity|]. split; [exists (-2)%Z; cbn; lra|reflexivity].
Qed.

Lemma laps_equal_case : same_but_turns (mkState 0 0 0 0 0) (mkState 0 0 (0 + 2 * PI) 0 0) /\ same_but_turns (mkState 5 0 0 0 0) (mkState 5 0 (0 + 2 * PI) 0 0) /\
  (forall c, In c (rs_get_controls 1 (mkState 0 0 0 0 0) (mkState 5 0 0 0 0)) -> Rabs (ct_kappa c * ct_delta_s c) < PI) /\
  (forall c, In c (rs_get_controls 1 (mkState 0 0 (0 + 2 * PI) 0 0) (mkState 5 0 (0 + 2 * PI) 0 0)) -> Rabs (ct_kappa c * ct_delta_s c) < PI).
Proof.
  split; [|split; [|split; [apply straight_case|]]].
  - split; [reflexivity|]. split; [reflexivity|]. split; [exists 1%Z; cbn; lra|reflexivity].
  - split; [reflexivity|]. split; [reflexivity|]. split; [exists 1%Z; cbn; lra|reflexivity].
  - destruct straight_case as [_ H]. revert H. unfold rs_get_controls, rs_path, rs_args. cbn [st_x st_y st_theta]. cbv zeta.
    rewrite cos_plus, sin_plus, cos_2PI, sin_2PI, cos_0, sin_0.
    replace (1 * 1 - 0 * 0) with 1 by ring. replace (0 * 1 + 1 * 0) with 0 by ring.
    replace (0 + 2 * PI - (0 + 2 * PI)) with (0 - 0) by ring. intros H. exact H.
Qed.

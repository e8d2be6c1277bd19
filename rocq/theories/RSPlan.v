(** * Reeds-Shepp: symmetries, candidates, the selected path *)
From Coq Require Import Reals ZArith List Bool Lra Lia Psatz.
From Verif Require Import Base ModelUtil ModelFresnel ModelIntegrate ModelDubins ModelRS Num
  UtilProofs SpecPath IntegrateProofs DubinsProofs DubinsPlan RSProofs.
Import ListNotations.
Open Scope R_scope.

(** ** Words and their symmetries *)

Lemma triple_eq (a b c a' b' c' : R) : a = a' -> b = b' -> c = c' -> (a, b, c) = (a', b', c').
Proof. intros -> -> ->. reflexivity. Qed.

Lemma useg_psim s l P Q : psim P Q -> psim (useg s l P) (useg s l Q).
Proof.
  destruct P as [[x y] a], Q as [[x' y'] a']. unfold psim, px, py, pth; simpl. intros (-> & -> & A).
  assert (B : forall b, ang_eq (a + b) (a' + b)) by (intros; apply ang_eq_add; [assumption|apply ang_eq_refl]).
  destruct s; simpl; [pose proof (B l) as C|pose proof A as C|pose proof (B (- l)) as C].
  - rewrite (ang_eq_sin _ _ C), (ang_eq_cos _ _ C), (ang_eq_sin _ _ A), (ang_eq_cos _ _ A). auto.
  - rewrite (ang_eq_sin _ _ A), (ang_eq_cos _ _ A). auto.
  - unfold Rminus. rewrite (ang_eq_sin _ _ C), (ang_eq_cos _ _ C), (ang_eq_sin _ _ A), (ang_eq_cos _ _ A). auto.
Qed.

Lemma uword_psim ty : forall ls P Q, psim P Q -> psim (uword ty ls P) (uword ty ls Q).
Proof.
  induction ty as [|s ty IH]; intros [|l ls] P Q H; try assumption.
  apply (IH ls). apply useg_psim. assumption.
Qed.

Lemma uword_app ty ls ty' ls' P : length ty = length ls ->
  uword (ty ++ ty') (ls ++ ls') P = uword ty' ls' (uword ty ls P).
Proof.
  revert ls P. induction ty as [|s ty IH]; intros [|l ls] P H; try discriminate; [reflexivity|].
  simpl. apply IH. injection H as H. assumption.
Qed.

Definition flipP (P : R * R * R) : R * R * R := (- px P, py P, - pth P).
Definition reflP (P : R * R * R) : R * R * R := (px P, - py P, - pth P).
Definition swap (s : DSeg) : DSeg :=
  match s with DUBINS_LEFT => DUBINS_RIGHT | DUBINS_RIGHT => DUBINS_LEFT | DUBINS_STRAIGHT => DUBINS_STRAIGHT end.

Lemma psim_eq P Q : P = Q -> psim P Q.
Proof. intros ->. apply psim_refl. Qed.

Lemma useg_flip s l P : useg s (- l) (flipP P) = flipP (useg s l P).
Proof.
  destruct P as [[x y] a]. unfold flipP, px, py, pth. destruct s; simpl.
  - replace (- a + - l) with (- (a + l)) by ring. rewrite !sin_neg, !cos_neg. apply triple_eq; ring.
  - rewrite !sin_neg, !cos_neg. apply triple_eq; ring.
  - replace (- a - - l) with (- (a - l)) by ring. rewrite !sin_neg, !cos_neg. apply triple_eq; ring.
Qed.

Lemma useg_refl s l P : useg (swap s) l (reflP P) = reflP (useg s l P).
Proof.
  destruct P as [[x y] a]. unfold reflP, px, py, pth. destruct s; simpl.
  - replace (- a - l) with (- (a + l)) by ring. rewrite !sin_neg, !cos_neg. apply triple_eq; ring.
  - rewrite !sin_neg, !cos_neg. apply triple_eq; ring.
  - replace (- a + l) with (- (a - l)) by ring. rewrite !sin_neg, !cos_neg. apply triple_eq; ring.
Qed.

Lemma uword_flip ty : forall ls P, uword ty (map Ropp ls) (flipP P) = flipP (uword ty ls P).
Proof.
  induction ty as [|s ty IH]; intros [|l ls] P; try reflexivity.
  unfold uword in *. cbn [map combine fold_left fst snd]. rewrite useg_flip. apply IH.
Qed.

Lemma uword_refl ty : forall ls P, uword (map swap ty) ls (reflP P) = reflP (uword ty ls P).
Proof.
  induction ty as [|s ty IH]; intros [|l ls] P; try reflexivity.
  unfold uword in *. cbn [map combine fold_left fst snd]. rewrite useg_refl. apply IH.
Qed.

Lemma flipP_psim P Q : psim P Q -> psim (flipP P) (flipP Q).
Proof.
  intros (A & B & C). unfold psim, flipP, px, py, pth in *; simpl. rewrite A, B.
  repeat split. apply ang_eq_opp. assumption.
Qed.
Lemma reflP_psim P Q : psim P Q -> psim (reflP P) (reflP Q).
Proof.
  intros (A & B & C). unfold psim, reflP, px, py, pth in *; simpl. rewrite A, B.
  repeat split. apply ang_eq_opp. assumption.
Qed.

Definition origin : R * R * R := (0, 0, 0).
Lemma flipP_origin : flipP origin = origin.
Proof. unfold flipP, origin, px, py, pth; simpl. rewrite Ropp_0. reflexivity. Qed.
Lemma reflP_origin : reflP origin = origin.
Proof. unfold reflP, origin, px, py, pth; simpl. rewrite Ropp_0. reflexivity. Qed.

(** Rotation and translation of a word. *)
Lemma useg_place s l x0 y0 th P : useg s l (place 1 x0 y0 th P) = place 1 x0 y0 th (useg s l P).
Proof.
  destruct P as [[x y] a]. unfold place, px, py, pth. destruct s; simpl.
  - replace (a + th + l) with ((a + l) + th) by ring.
    rewrite (sin_plus (a + l) th), (cos_plus (a + l) th), (sin_plus a th), (cos_plus a th).
    apply triple_eq; field.
  - rewrite (sin_plus a th), (cos_plus a th). apply triple_eq; field.
  - replace (a + th - l) with ((a - l) + th) by ring.
    rewrite (sin_plus (a - l) th), (cos_plus (a - l) th), (sin_plus a th), (cos_plus a th).
    apply triple_eq; field.
Qed.

Lemma uword_place ty : forall ls x0 y0 th P, uword ty ls (place 1 x0 y0 th P) = place 1 x0 y0 th (uword ty ls P).
Proof.
  induction ty as [|s ty IH]; intros [|l ls] x0 y0 th P; try reflexivity.
  unfold uword in *. cbn [map combine fold_left fst snd]. rewrite useg_place. apply IH.
Qed.

Lemma useg_undo s l P : useg s (- l) (useg s l P) = P.
Proof.
  destruct P as [[x y] a]. destruct s; simpl.
  - replace (a + l + - l) with a by ring. apply triple_eq; ring.
  - apply triple_eq; ring.
  - replace (a - l - - l) with a by ring. apply triple_eq; ring.
Qed.

Lemma uword_undo ty : forall ls P, length ty = length ls ->
  uword (rev ty) (map Ropp (rev ls)) (uword ty ls P) = P.
Proof.
  induction ty as [|s ty IH]; intros [|l ls] P H; try discriminate; [reflexivity|].
  simpl. rewrite map_app. rewrite uword_app by (rewrite map_length, !rev_length; injection H; auto).
  change (uword (s :: ty) (l :: ls) P) with (uword ty ls (useg s l P)).
  rewrite IH by (injection H; auto). unfold uword. cbn [map combine fold_left fst snd]. apply useg_undo.
Qed.

Lemma uword_back ty ls x y phi : length ty = length ls ->
  psim (uword ty ls origin) (x * cos phi + y * sin phi, x * sin phi - y * cos phi, phi) ->
  psim (uword (rev ty) (rev ls) origin) (x, y, phi).
Proof.
  intros L H.
  set (xb := x * cos phi + y * sin phi) in *. set (yb := x * sin phi - y * cos phi) in *.
  pose proof (uword_psim (rev ty) (map Ropp (rev ls)) _ _ H) as U. rewrite uword_undo in U by assumption.
  assert (E : (xb, yb, phi) = place 1 xb yb phi origin).
  { unfold place, origin, px, py, pth; simpl. apply triple_eq; field. }
  rewrite E, uword_place in U.
  set (Q := uword (rev ty) (map Ropp (rev ls)) origin) in *.
  assert (F : psim Q (- x, y, - phi)).
  { apply (place_inj 1 xb yb phi); [lra|]. eapply psim_trans; [apply psim_sym; exact U|].
    unfold place, origin, psim, px, py, pth; simpl. pose proof (sin2_cos2' phi) as S.
    split; [|split].
    - unfold xb. field.
    - unfold yb. field.
    - apply ang_eq_of_eq. ring. }
  apply flipP_psim in F. unfold Q in F. rewrite <- uword_flip, flipP_origin in F.
  rewrite map_map in F. rewrite (map_ext _ (fun z => z)) in F by (intros; ring). rewrite map_id in F.
  unfold flipP, px, py, pth in F; simpl in F. rewrite !Ropp_involutive in F. exact F.
Qed.

(** ** The controls of a Reeds-Shepp path as a word *)

Fixpoint dsegs (l : list RSSeg) : list DSeg :=
  match l with
  | RS_LEFT :: l' => DUBINS_LEFT :: dsegs l'
  | RS_STRAIGHT :: l' => DUBINS_STRAIGHT :: dsegs l'
  | RS_RIGHT :: l' => DUBINS_RIGHT :: dsegs l'
  | _ => []
  end.

Lemma rs_controls_word kappa ty : forall ls,
  rs_controls kappa ty ls =
  map (fun x => dubins_control kappa (fst x) (snd x)) (combine (dsegs ty) ls).
Proof.
  induction ty as [|s ty IH]; intros [|l ls]; try reflexivity; destruct s; simpl;
  rewrite ?IH; reflexivity.
Qed.

Definition rs_reaches (x y phi : R) (P : RSPath) : Prop :=
  psim (uword (dsegs (rs_type P)) (rs_len P) origin) (x, y, phi).

(** The end of the word in closed form. *)
Ltac wrd := unfold origin, uword, psim, px, py, pth; simpl; rewrite ?Rplus_0_l.

Lemma sumsLSL t u v : uword [DUBINS_LEFT; DUBINS_STRAIGHT; DUBINS_LEFT] [t; u; v] origin =
  (u * cos t + sin (t + v), u * sin t - cos (t + v) + 1, t + v).
Proof. wrd. rewrite sin_0, cos_0. apply triple_eq; ring. Qed.

Lemma reachLpSpLp x y phi t u v : LpSpLp x y phi = Some (t, u, v) ->
  psim (uword [DUBINS_LEFT; DUBINS_STRAIGHT; DUBINS_LEFT] [t; u; v] origin) (x, y, phi).
Proof.
  intros E. apply eqLpSpLp in E. destruct E as (X & Y & A). wrd. rewrite sin_0, cos_0.
  rewrite (ang_eq_sin _ _ A), (ang_eq_cos _ _ A). repeat split; [lra|lra|assumption].
Qed.

Lemma reachLpSpRp x y phi t u v : LpSpRp x y phi = Some (t, u, v) ->
  psim (uword [DUBINS_LEFT; DUBINS_STRAIGHT; DUBINS_RIGHT] [t; u; v] origin) (x, y, phi).
Proof.
  unfold LpSpRp. destruct (valLpSpRp x y phi) as [[[t' u'] v']|] eqn:E; [|discriminate].
  destruct (Rle_dec _ t'); [|discriminate]. destruct (Rle_dec _ v'); [|discriminate].
  intros I; injection I as -> -> ->. apply eqLpSpRp in E. destruct E as (X & Y & A).
  wrd. rewrite sin_0, cos_0.
  rewrite (ang_eq_sin _ _ A), (ang_eq_cos _ _ A). repeat split; [lra|lra|assumption].
Qed.

Lemma reachLpRmL x y phi t u v : LpRmL x y phi = Some (t, u, v) ->
  psim (uword [DUBINS_LEFT; DUBINS_RIGHT; DUBINS_LEFT] [t; u; v] origin) (x, y, phi).
Proof.
  unfold LpRmL. destruct (valLpRmL x y phi) as [[[t' u'] v']|] eqn:E; [|discriminate].
  destruct (Rle_dec _ t'); [|discriminate]. destruct (Rle_dec u' _); [|discriminate].
  intros I; injection I as -> -> ->. apply eqLpRmL in E. destruct E as (X & Y & A).
  wrd. rewrite sin_0, cos_0.
  rewrite (ang_eq_sin _ _ A), (ang_eq_cos _ _ A). repeat split; [lra|lra|assumption].
Qed.

Lemma reachLpRupLumRm x y phi t u v : LpRupLumRm x y phi = Some (t, u, v) ->
  psim (uword [DUBINS_LEFT; DUBINS_RIGHT; DUBINS_LEFT; DUBINS_RIGHT] [t; u; - u; v] origin) (x, y, phi).
Proof.
  unfold LpRupLumRm. destruct (valLpRupLumRm x y phi) as [[[t' u'] v']|] eqn:E; [|discriminate].
  destruct (Rle_dec _ t'); [|discriminate]. destruct (Rle_dec v' _); [|discriminate].
  intros I; injection I as -> -> ->. apply eqLpRupLumRm in E. destruct E as (X & Y & A).
  wrd. rewrite sin_0, cos_0. replace (t - u + - u) with (t - 2 * u) by ring.
  rewrite (ang_eq_sin _ _ A), (ang_eq_cos _ _ A). repeat split; [lra|lra|assumption].
Qed.

Lemma reachLpRumLumRp x y phi t u v : LpRumLumRp x y phi = Some (t, u, v) ->
  psim (uword [DUBINS_LEFT; DUBINS_RIGHT; DUBINS_LEFT; DUBINS_RIGHT] [t; u; u; v] origin) (x, y, phi).
Proof.
  unfold LpRumLumRp. destruct (valLpRumLumRp x y phi) as [[[t' u'] v']|] eqn:E; [|discriminate].
  destruct (Rle_dec _ t'); [|discriminate]. destruct (Rle_dec _ v'); [|discriminate].
  intros I; injection I as -> -> ->. apply eqLpRumLumRp in E. destruct E as (X & Y & A).
  wrd. rewrite sin_0, cos_0. replace (t - u + u) with t by ring.
  rewrite (ang_eq_sin _ _ A), (ang_eq_cos _ _ A). repeat split; [lra|lra|assumption].
Qed.

Lemma minus_neg_half t : t - - (1 / 2) * PI = t + PI / 2.
Proof. field. Qed.
Lemma plus_neg_half t : t + - (1 / 2) * PI = t - PI / 2.
Proof. field. Qed.

Lemma reachLpRmSmLm x y phi t u v : LpRmSmLm x y phi = Some (t, u, v) ->
  psim (uword [DUBINS_LEFT; DUBINS_RIGHT; DUBINS_STRAIGHT; DUBINS_LEFT] [t; - (1 / 2) * PI; u; v] origin)
       (x, y, phi).
Proof.
  unfold LpRmSmLm. destruct (valLpRmSmLm x y phi) as [[[t' u'] v']|] eqn:E; [|discriminate].
  destruct (Rle_dec _ t'); [|discriminate]. destruct (Rle_dec u' _); [|discriminate].
  destruct (Rle_dec v' _); [|discriminate].
  intros I; injection I as -> -> ->. apply eqLpRmSmLm in E. destruct E as (X & Y & A).
  wrd. rewrite minus_neg_half, sin_0, cos_0.
  rewrite (ang_eq_sin _ _ A), (ang_eq_cos _ _ A), sin_HPI_shift, cos_HPI_shift.
  repeat split; [lra|lra|assumption].
Qed.

Lemma reachLpRmSmRm x y phi t u v : LpRmSmRm x y phi = Some (t, u, v) ->
  psim (uword [DUBINS_LEFT; DUBINS_RIGHT; DUBINS_STRAIGHT; DUBINS_RIGHT] [t; - (1 / 2) * PI; u; v] origin)
       (x, y, phi).
Proof.
  unfold LpRmSmRm. destruct (valLpRmSmRm x y phi) as [[[t' u'] v']|] eqn:E; [|discriminate].
  destruct (Rle_dec _ t'); [|discriminate]. destruct (Rle_dec u' _); [|discriminate].
  destruct (Rle_dec v' _); [|discriminate].
  intros I; injection I as -> -> ->. apply eqLpRmSmRm in E. destruct E as (X & Y & A).
  wrd. rewrite minus_neg_half, sin_0, cos_0.
  rewrite (ang_eq_sin _ _ A), (ang_eq_cos _ _ A), sin_HPI_shift, cos_HPI_shift.
  repeat split; [lra|lra|assumption].
Qed.

Lemma reachLpRmSLmRp x y phi t u v : LpRmSLmRp x y phi = Some (t, u, v) ->
  psim (uword [DUBINS_LEFT; DUBINS_RIGHT; DUBINS_STRAIGHT; DUBINS_LEFT; DUBINS_RIGHT]
         [t; - (1 / 2) * PI; u; - (1 / 2) * PI; v] origin) (x, y, phi).
Proof.
  unfold LpRmSLmRp. destruct (valLpRmSLmRp x y phi) as [[[t' u'] v']|] eqn:E; [|discriminate].
  destruct (Rle_dec _ t'); [|discriminate]. destruct (Rle_dec _ v'); [|discriminate].
  intros I; injection I as -> -> ->. apply eqLpRmSLmRp in E. destruct E as (X & Y & A).
  wrd. rewrite minus_neg_half, plus_neg_half, sin_0, cos_0.
  replace (t + PI / 2 - PI / 2) with t by ring.
  rewrite (ang_eq_sin _ _ A), (ang_eq_cos _ _ A), sin_HPI_shift, cos_HPI_shift.
  repeat split; [lra|lra|assumption].
Qed.

(** ** Candidates *)

(** A candidate is good if the path built from its answer reaches the goal and its length is L plus
    the offset. *)
Definition good_cand (two off x y phi : R) (c : RSCand) : Prop :=
  forall t u v, fst c = Some (t, u, v) ->
    rs_reaches x y phi (snd c t u v) /\
    rs_length (snd c t u v) = Rabs t + two * Rabs u + Rabs v + off.

Lemma flip_use ty ls x y phi : psim (uword ty ls origin) (- x, y, - phi) ->
  psim (uword ty (map Ropp ls) origin) (x, y, phi).
Proof.
  intros H. apply flipP_psim in H. rewrite <- uword_flip, flipP_origin in H.
  unfold flipP, px, py, pth in H; simpl in H. rewrite !Ropp_involutive in H. exact H.
Qed.
Lemma refl_use ty ls x y phi : psim (uword ty ls origin) (x, - y, - phi) ->
  psim (uword (map swap ty) ls origin) (x, y, phi).
Proof.
  intros H. apply reflP_psim in H. rewrite <- uword_refl, reflP_origin in H.
  unfold reflP, px, py, pth in H; simpl in H. rewrite !Ropp_involutive in H. exact H.
Qed.
Lemma both_use ty ls x y phi : psim (uword ty ls origin) (- x, - y, phi) ->
  psim (uword (map swap ty) (map Ropp ls) origin) (x, y, phi).
Proof.
  intros H. apply flip_use. apply refl_use. rewrite Ropp_involutive. exact H.
Qed.

Ltac half := match goal with
  | |- context [- (- (1 / 2) * PI)] => replace (- (- (1 / 2) * PI)) with ((1 / 2) * PI) by field
  end.

Ltac len5 := unfold rs_length; simpl; rewrite ?Rabs_Ropp, ?Rabs_R0;
  repeat match goal with
  | |- context [Rabs ((1 / 2) * PI)] => rewrite (Rabs_pos_eq ((1 / 2) * PI)) by (pose proof PI_RGT_0; lra)
  | |- context [Rabs (- (1 / 2) * PI)] =>
      replace (- (1 / 2) * PI) with (- ((1 / 2) * PI)) by ring; rewrite Rabs_Ropp
  end; field.

Lemma uword_ext ty ls ty' ls' P : combine ty ls = combine ty' ls' -> uword ty ls P = uword ty' ls' P.
Proof. unfold uword. intros ->. reflexivity. Qed.

(** [H] is the reach lemma of a solver applied to its answer. *)
Ltac fin_reach H :=
  unfold rs_reaches; cbn [rs_type rs_len rs_path_type dsegs];
  match type of H with psim (uword ?ty ?ls origin) _ =>
    match goal with |- psim (uword ?ty' ?ls' origin) _ =>
      replace (uword ty' ls' origin) with (uword ty ls origin); [exact H|];
      apply uword_ext; cbn [combine map rev app swap];
      repeat match goal with |- ?a :: ?l = ?b :: ?l' =>
        apply (f_equal2 (@cons (DSeg * R))); [apply (f_equal2 (@pair DSeg R)); [reflexivity|]|] end;
      try reflexivity; try field
    end
  end.

Ltac cand reach :=
  let E := fresh in
  intros t u v E; cbn [fst snd] in *; apply reach in E;
  try (apply flip_use in E || apply refl_use in E || apply both_use in E);
  split; [fin_reach E|len5].

Ltac back reach :=
  let E := fresh in
  intros t u v E; cbn [fst snd] in *; apply reach in E;
  try (apply flip_use in E || apply refl_use in E || apply both_use in E);
  apply uword_back in E; [|reflexivity];
  split; [fin_reach E|len5].

Lemma CSC_good x y phi : Forall (good_cand 1 0 x y phi) (CSC_cands x y phi).
Proof.
  unfold CSC_cands; cbv zeta. repeat apply Forall_cons; try apply Forall_nil; first [cand reachLpSpLp|cand reachLpSpRp].
Qed.

Lemma CCC_good x y phi : Forall (good_cand 1 0 x y phi) (CCC_cands x y phi).
Proof.
  unfold CCC_cands; cbv zeta. repeat apply Forall_cons; try apply Forall_nil; first [cand reachLpRmL|back reachLpRmL].
Qed.

Lemma CCCC_good x y phi : Forall (good_cand 2 0 x y phi) (CCCC_cands x y phi).
Proof.
  unfold CCCC_cands; cbv zeta. repeat apply Forall_cons; try apply Forall_nil; first [cand reachLpRupLumRm|cand reachLpRumLumRp].
Qed.

Lemma CCSC_good x y phi : Forall (good_cand 1 ((1 / 2) * PI) x y phi) (CCSC_cands x y phi).
Proof.
  unfold CCSC_cands; cbv zeta. repeat apply Forall_cons; try apply Forall_nil;
  first [cand reachLpRmSmLm|cand reachLpRmSmRm|back reachLpRmSmLm|back reachLpRmSmRm].
Qed.

Lemma CCSCC_good x y phi : Forall (good_cand 1 PI x y phi) (CCSCC_cands x y phi).
Proof.
  unfold CCSCC_cands; cbv zeta. repeat apply Forall_cons; try apply Forall_nil; cand reachLpRmSLmRp.
Qed.

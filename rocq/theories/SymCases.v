(** * Concrete cases for C71 and C72 *)
From Coq Require Import Reals ZArith List Lra Lia Psatz.
From Coquelicot Require Rcomplements.
From Verif Require Import Base ModelUtil ModelDubins ModelRS Num SpecPath SpecSym SymDubins RSSelect RSOpt SymRS.
Import ListNotations.
Open Scope R_scope.

Lemma mirror_case : mirror (mkState 1 2 3 4 1) = mkState 1 (-2) (-3) (-4) 1.
Proof. unfold mirror; cbn. f_equal; lra. Qed.
Lemma about_case : about (mkState 1 2 3 4 1) = mkState 1 2 (3 + PI) (-4) 1.
Proof. unfold about; cbn. f_equal; lra. Qed.

Lemma far_case : 0 < 1 /\ 1 / 1000000 <= 1 * pos_dist (mkState 0 0 0 0 0) (mkState 3 4 1 0 0).
Proof.
  split; [lra|]. unfold pos_dist; cbn [st_x st_y]. rewrite Rmult_1_l.
  apply Rle_trans with (sqrt (5 * 5)); [rewrite sqrt_square; lra|]. apply sqrt_le_1_alt. nra.
Qed.

Lemma turned_case : 0 < 1 /\ ~ heading_within (1 / 1000000) (mkState 0 0 0 0 0) (mkState 0 0 1 0 0).
Proof.
  split; [lra|]. intros [n N]. cbn [st_theta] in N. pose proof PI2_3_2 as P. apply Rcomplements.Rabs_le_between in N.
  assert (C : (0 <= n \/ n <= -1)%Z) by lia. destruct C as [C|C]; apply IZR_le in C; nra.
Qed.

Lemma straight_case : 0 < 1 /\
  (forall c, In c (rs_get_controls 1 (mkState 0 0 0 0 0) (mkState 5 0 0 0 0)) -> Rabs (ct_kappa c * ct_delta_s c) < PI).
Proof.
  split; [lra|]. rewrite straight_controls by apply five_small. pose proof PI_RGT_0.
  intros c I. cbn [In] in I. destruct I as [<-|[<-|[<-|[]]]]; cbn [ct_kappa ct_delta_s]; rewrite ?Rmult_0_r, ?Rmult_0_l, Rabs_R0; lra.
Qed.

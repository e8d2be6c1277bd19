(** * The plans with start and goal exchanged *)
From Coq Require Import Reals ZArith List Lra Lia Bool.
From Verif Require Import Base ModelUtil ModelCircle ModelPaths Num PlanProofs.
Import ListNotations.
Open Scope R_scope.

(** The planner one way and the planner back, whose candidates have the same lengths. *)
Section Back.
  Variables (ty ty' : Type) (types : list ty) (types' : list ty') (table table' : Circle -> Circle -> list Entry) (sk sk' : nat -> nat -> bool) (A B A' B' : list Circle) (n m : nat).
  Hypothesis first : forall c1 c2, exists x0, nth_error (map e_length (table' c1 c2)) 0 = Some (Some x0).
  Hypothesis short : forall c1 c2, (length (table' c1 c2) <= length types')%nat.
  Hypothesis EA : A' = B.
  Hypothesis EB : B' = A.
  Hypothesis NA : length A = n.
  Hypothesis NB : length B = m.
  Hypothesis SK : forall i j, sk' j i = sk i j.
  Hypothesis rows : forall i j c1 c2, sk i j = false -> nth_error A i = Some c1 -> nth_error B j = Some c2 ->
    forall e, In e (table c1 c2) -> exists e', In e' (table' c2 c1) /\ e_length e' = e_length e.
  Lemma swap_plan p L :
    select_path (map (fun '(i, j) => if sk i j then None else
      match nth_error A i, nth_error B j with
      | Some c1, Some c2 => select_entry types (c_start c1) (c_start c2) (table c1 c2)
      | _, _ => None end) (list_prod (seq 0 n) (seq 0 m))) = Some p -> e_length (h_entry p) = Some L -> L < DBL_MAX ->
    exists p' L', select_path (map (fun '(i, j) => if sk' i j then None else
      match nth_error A' i, nth_error B' j with
      | Some c1, Some c2 => select_entry types' (c_start c1) (c_start c2) (table' c1 c2)
      | _, _ => None end) (list_prod (seq 0 m) (seq 0 n))) = Some p' /\ e_length (h_entry p') = Some L' /\ L' < DBL_MAX /\ L' <= L.
  Proof.
    intros P EL LM. apply select_path_in in P. apply (paths_in sk A B (fun c1 c2 => select_entry types (c_start c1) (c_start c2) (table c1 c2))) in P.
    destruct P as (i & j & c1 & c2 & S & N1 & N2 & E). apply select_entry_in in E. destruct E as (IN & _ & _). apply in_combine_r in IN.
    destruct (rows i j c1 c2 S N1 N2 _ IN) as (e' & IN' & EL').
    apply (plan_exists types' table' sk' A' B' m n j i c2 c1 e' L first short).
    - rewrite <- NB. apply nth_error_Some. congruence.
    - rewrite <- NA. apply nth_error_Some. congruence.
    - rewrite SK. exact S.
    - rewrite EA. exact N2.
    - rewrite EB. exact N1.
    - exact IN'.
    - congruence.
    - exact LM.
  Qed.
End Back.
(** Two numbers each not longer than the other. *)
Lemma swap_both (d d' : option flt) : (forall L, d = Some (Some L) -> L < DBL_MAX -> exists L', d' = Some (Some L') /\ L' < DBL_MAX /\ L' <= L) ->
  (forall L, d' = Some (Some L) -> L < DBL_MAX -> exists L', d = Some (Some L') /\ L' < DBL_MAX /\ L' <= L) ->
  forall L, L < DBL_MAX -> d = Some (Some L) -> d' = Some (Some L).
Proof.
  intros H H' L LM E. destruct (H L E LM) as (L' & E' & LM' & LE). destruct (H' L' E' LM') as (L2 & E2 & _ & LE2). rewrite E in E2.
  assert (L = L2) by congruence. rewrite E'. do 2 f_equal. lra.
Qed.

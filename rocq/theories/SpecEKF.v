(** * Vocabulary for the filter properties: matrices are read off the arrays of length 16 by
      (row, column), without the model's matrix type *)
From Coq Require Import Reals List.
From Verif Require Import ModelUtil ModelEKF.
Open Scope R_scope.

(** Entry (i, j) of the 3x3 pose block of an array holding a 4x4 matrix row by row. *)
Definition at_ (c : nat -> R) (i j : nat) : R := c (4 * i + j)%nat.

(** Sum over the three indices of the pose block. *)
Definition sum3 (f : nat -> R) : R := f 0%nat + f 1%nat + f 2%nat.

(** Symmetric and positive semidefinite. *)
Definition sym_psd (A : nat -> nat -> R) : Prop :=
  (forall i j, (i < 3)%nat -> (j < 3)%nat -> A i j = A j i) /\
  forall v : nat -> R, 0 <= sum3 (fun i => sum3 (fun j => v i * A i j * v j)).

(** A <= B in the positive semidefinite (Loewner) order. *)
Definition psd_le (A B : nat -> nat -> R) : Prop := sym_psd (fun i j => B i j - A i j).

(** Equality of pose blocks. *)
Definition eq3 (A B : nat -> nat -> R) : Prop := forall i j, (i < 3)%nat -> (j < 3)%nat -> A i j = B i j.

(** Diagonal matrix. *)
Definition diag3 (a b c : R) (i j : nat) : R :=
  if Nat.eqb i j then match i with O => a | 1%nat => b | _ => c end else 0.

(** Both covariances of a state are symmetric positive semidefinite. *)
Definition cov_psd (c : Cov) : Prop := sym_psd (at_ (Sigma c)) /\ sym_psd (at_ (Lambda c)).

(** The reported covariance is the sum of the two. *)
Definition cov_total (c : Cov) : Prop :=
  eq3 (at_ (covariance c)) (fun i j => at_ (Sigma c) i j + at_ (Lambda c) i j).

(** Noise settings: the four motion noise factors are not negative. *)
Definition noise_ok (f : Filter) : Prop := 0 <= alpha1 f /\ 0 <= alpha2 f /\ 0 <= alpha3 f /\ 0 <= alpha4 f.

(** Measurement noise is positive definite. *)
Definition meas_ok (f : Filter) : Prop := std_x f <> 0 /\ std_y f <> 0 /\ std_theta f <> 0.

(** Any run of the filter: predictions and updates in any order, with any states, controls, steps. *)
Inductive filter_run (f : Filter) : Cov -> Cov -> Prop :=
| run_nil : forall c, filter_run f c c
| run_predict : forall c c' s u h out,
    filter_run f c c' -> filter_run f c (predict f s c' u h out)
| run_update : forall c c' c'' out,
    filter_run f c c' -> update f c' out = Some c'' -> filter_run f c c''.

(** The covariances of a state are finite, symmetric and positive semidefinite. *)
Definition good (q : StateCov) : Prop := exists c, sc_cov q = Some c /\ cov_psd c.

(** The covariance reported with a state is the sum of its two parts. *)
Definition totals (q : StateCov) : Prop := forall c, sc_cov q = Some c -> cov_total c.

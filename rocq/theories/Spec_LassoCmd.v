(** Vocabulary for C74: the lasso in the units of the data file.  A dataset is
    an m x n matrix [x], whose first column is the bias column, and a target
    [y]; a model is an intercept [c0] and a coefficient [c k] for each of the
    columns 1, ..., n-1. *)
From Coq Require Import Reals List.
From Verif Require Import RSum Stats.
Open Scope R_scope.

Definition column (m : nat) (x : nat -> nat -> R) (k : nat) : list R := map (fun i => x i k) (seq 0 m).

(** the normalised features and target *)
Definition standard_x (m : nat) (x : nat -> nat -> R) (i k : nat) : R :=
  match k with
  | O => 0
  | S _ => (x i k - mean (column m x k)) / sdev (column m x k)
  end.
Definition standard_y (y : list R) : list R := map (fun v => (v - mean y) / sdev y) y.

(** what the model predicts for row i *)
Definition prediction (n : nat) (x : nat -> nat -> R) (c0 : R) (c : nat -> R) (i : nat) : R :=
  c0 + rsum (n - 1) (fun k => c (S k) * x i (S k)).

Definition squared_error (m n : nat) (x : nat -> nat -> R) (y : list R) (c0 : R) (c : nat -> R) : R :=
  rsum m (fun i => Rsqr (nth i y 0 - prediction n x c0 c i)).

(** sum of the absolute coefficients, each in units of (deviation of the
    target) / (deviation of the column); the intercept does not count *)
Definition size (m n : nat) (x : nat -> nat -> R) (y : list R) (c : nat -> R) : R :=
  rsum (n - 1) (fun k => Rabs (c (S k)) * sdev (column m x (S k)) / sdev y).

(** the lasso objective *)
Definition objective (m n : nat) (x : nat -> nat -> R) (y : list R) (l c0 : R) (c : nat -> R) : R :=
  squared_error m n x y c0 c / (2 * Rsqr (sdev y)) + l * size m n x y c.

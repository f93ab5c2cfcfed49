(** Specification vocabulary for the lasso path over the reals: a dataset is an
    [m] x [n] matrix [A] with target [y]; a coefficient vector is a function of
    the feature number. *)
From Coq Require Import Reals Lra List Arith Lia.
From Verif Require Import RSum.
Import ListNotations.
Open Scope R_scope.

(** correlation of feature [f] with the residual: x_f . (y - A b) *)
Definition corr (m n : nat) (A : nat -> nat -> R) (y : nat -> R) (b : nat -> R) (f : nat) : R :=
  rsum m (fun i => A i f * (y i - rsum n (fun k => A i k * b k))).

(** 1/2 |y - A b|^2 + lambda |b|_1 *)
Definition lasso_cost (m n : nat) (A : nat -> nat -> R) (y : nat -> R) (lambda : R) (b : nat -> R) : R :=
  / 2 * rsum m (fun i => Rsqr (y i - rsum n (fun k => A i k * b k))) + lambda * rsum n (fun k => Rabs (b k)).

(** the columns are linearly independent *)
Definition full_rank (m n : nat) (A : nat -> nat -> R) : Prop :=
  forall v, (forall i, (i < m)%nat -> rsum n (fun k => A i k * v k) = 0) -> forall k, (k < n)%nat -> v k = 0.

(** column [f] is not identically zero *)
Definition nonzero_col (m : nat) (A : nat -> nat -> R) (f : nat) : Prop := exists i, (i < m)%nat /\ A i f <> 0.

(** the columns that are not identically zero are linearly independent (a
    normalised bias column is identically zero) *)
Definition independent (m n : nat) (A : nat -> nat -> R) : Prop :=
  forall v, (forall k, (k < n)%nat -> ~ nonzero_col m A k -> v k = 0) ->
    (forall i, (i < m)%nat -> rsum n (fun k => A i k * v k) = 0) -> forall k, (k < n)%nat -> v k = 0.

(** the vector that has the values [v] on the features [E] and 0 elsewhere *)
Definition spread (E : list nat) (v : list R) (k : nat) : R :=
  rsum (length E) (fun i => if Nat.eqb k (nth i E 0%nat) then nth i v 0 else 0).

(** [b] is the solution for the features [E] with signs [s] and penalty [t]:
    zero outside E, and every feature of E has correlation t * sign *)
Definition segment (m n : nat) (A : nat -> nat -> R) (y : nat -> R) (E : list nat) (s : nat -> R) (t : R) (b : nat -> R) : Prop :=
  (forall k, (k < n)%nat -> ~ In k E -> b k = 0) /\
  (forall f, In f E -> corr m n A y b f = t * s f).

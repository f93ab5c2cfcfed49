(** Vocabulary for C86: the same observations in other units, with another
    zero point and in another order, as best subset selection sees them. *)
From Coq Require Import Reals List Permutation.
Open Scope R_scope.

(** Row [i] of the second dataset is row [nth i p 0] of the first.  Feature k is
    a k * (old value), the target s * (old value); the factors may be negative
    but not zero. *)
Record rescaled (m n : nat) (x : nat -> nat -> R) (y : list R) (x' : nat -> nat -> R) (y' : list R)
    (p : list nat) (a : nat -> R) (s : R) : Prop := mkRescaled {
  rs_p : Permutation p (seq 0 m);
  rs_a : forall k, (k < n)%nat -> a k <> 0;
  rs_s : s <> 0;
  rs_x : forall i k, (i < m)%nat -> (k < n)%nat -> x' i k = a k * x (nth i p 0%nat) k;
  rs_y : y' = map (fun i => s * nth i y 0) p
}.

(** The same with a shift of every feature (b) and of the target (t).  Column 0
    is the bias column: it holds 1 in both datasets. *)
Record reshifted (m n : nat) (x : nat -> nat -> R) (y : list R) (x' : nat -> nat -> R) (y' : list R)
    (p : list nat) (a b : nat -> R) (s t : R) : Prop := mkReshifted {
  rt_p : Permutation p (seq 0 m);
  rt_a : forall k, (0 < k < n)%nat -> a k <> 0;
  rt_s : s <> 0;
  rt_bias : forall i, (i < m)%nat -> x i 0%nat = 1 /\ x' i 0%nat = 1;
  rt_x : forall i k, (i < m)%nat -> (0 < k < n)%nat -> x' i k = a k * x (nth i p 0%nat) k + b k;
  rt_y : y' = map (fun i => s * nth i y 0 + t) p
}.

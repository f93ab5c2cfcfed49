(** Vocabulary for C81: the same observations, measured in other units and
    listed in another order. *)
From Coq Require Import Reals List Permutation.
From Verif Require Import RSum Stats.
Open Scope R_scope.

(** Row [i] of the second dataset is row [nth i p 0] of the first.  Feature k
    (other than the bias column 0) is a k * (old value) + b k and the target is
    s * (old value) + t, with a k and s positive. *)
Record remeasured (m n : nat) (x : nat -> nat -> R) (y : list R) (x' : nat -> nat -> R) (y' : list R)
    (p : list nat) (a b : nat -> R) (s t : R) : Prop := mkRemeasured {
  rm_p : Permutation p (seq 0 m);
  rm_a : forall k, (0 < k < n)%nat -> 0 < a k;
  rm_s : 0 < s;
  rm_x : forall i k, (i < m)%nat -> (0 < k < n)%nat -> x' i k = a k * x (nth i p 0%nat) k + b k;
  rm_y : y' = map (fun i => s * nth i y 0 + t) p
}.

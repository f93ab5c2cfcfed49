(** Words used in the statements of C54, C55 and C61. *)
From Coq Require Import Reals List ZArith.
From Verif Require Import RSum.
Import ListNotations.

(** the list without repetitions, each value at the place of its first
    occurrence *)
Fixpoint keep_first (l : list Z) : list Z :=
  match l with
  | [] => []
  | x :: t => x :: filter (fun y => negb (y =? x)%Z) (keep_first t)
  end.

(** residual sum of squares of a model that gives coefficient number j of [w]
    to the column number j of [sel] *)
Open Scope R_scope.
Definition node_rss (m : nat) (A : nat -> nat -> R) (sel : list Z) (w : list R) (y : list R) : R :=
  rsum m (fun i => Rsqr (rsum (length sel) (fun j => A i (Z.to_nat (nth j sel 0%Z)) * nth j w 0) - nth i y 0)).


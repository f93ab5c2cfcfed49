(** Vocabulary for the properties of orthogonal matching pursuit. *)
From Coq Require Import Reals.
From Verif Require Import Base Num Mat Model_Node RSum Model_Fit Spec_Fit.

(** the features in [P], as the Boolean mask GetDesignMatrix takes *)
Definition indicator (n : nat) (P : list nat) : list bool :=
  map (fun i => existsb (Nat.eqb i) P) (seq 0 n).

(** coefficients [c] of the selected features, zero for the others *)
Fixpoint expand {N : Num} (m : list bool) (c : list N) : list N :=
  match m with
  | [] => []
  | true :: m => hd n0 c :: expand m (tl c)
  | false :: m => n0 :: expand m c
  end.

Section Spec.
  Context {N : Num}.
  Variables (svd : Mat N -> SVD N) (X : Mat N) (y : list N).

  (** Fit on the features in [P] gives the coefficients [c] (in the order of
      the columns) and the predictions [pred]. *)
  Definition fit_on (P : list nat) (c pred : list N) : Prop :=
    exists D, GetDesignMatrix (indicator (mcols X) P) X = Ok D /\
      Fit svd D y = Ok c /\ Predict D c = Ok pred.

  (** the residual left by the features in [P] (its sign is that of the code:
      prediction minus observation, but [y] before the first round) *)
  Definition residual (P : list nat) (r : list N) : Prop :=
    match P with
    | [] => r = y
    | _ => exists c pred, fit_on P c pred /\
             r = map (fun p => (fst p - snd p)%num) (combine pred y)
    end.

  (** root mean square of prediction errors *)
  Definition rms (pred : list N) : N :=
    nsqrt (fold_left (fun s p => (s + npow (snd p - fst p) 2)%num) (combine pred y) n0
           / nofnat (length y))%num.
End Spec.

(** [w] minimises the residual sum of squares among the coefficient vectors
    that vanish outside [P] *)
Definition lsq_on (m n : nat) (A : nat -> nat -> R) (y : list R) (P : list nat) (w : list R) : Prop :=
  length w = n /\ (forall j, ~ In j P -> nth j w 0%R = 0%R) /\
  forall w', length w' = n -> (forall j, ~ In j P -> nth j w' 0%R = 0%R) ->
    (rss m n A w y <= rss m n A w' y)%R.

(** what the coefficients [w] leave of observation [i] *)
Definition err (n : nat) (A : nat -> nat -> R) (y w : list R) (i : nat) : R :=
  (nth i y 0 - rsum n (fun j => A i j * nth j w 0))%R.

(** length of column [j] and cosine (up to the length of [e]) between it and [e] *)
Definition col_norm (m : nat) (A : nat -> nat -> R) (j : nat) : R := sqrt (rsum m (fun i => A i j * A i j)%R).
Definition score (m : nat) (A : nat -> nat -> R) (e : nat -> R) (j : nat) : R :=
  (Rabs (rsum m (fun i => A i j * e i)) / col_norm m A j)%R.

(** at most [k] of the coefficients differ from zero *)
Definition at_most (k : nat) (w : list R) : Prop :=
  exists Q : list nat, (length Q <= k)%nat /\ forall j, ~ In j Q -> nth j w 0%R = 0%R.

(** Specification vocabulary for linear models over the reals. *)
From Coq Require Import Reals Lra.
From Verif Require Import Base Num Mat Model_Node RSum Proof_XR Proof_Norm Model_Fit.
Open Scope R_scope.

(** [f] is an exact thin singular value decomposition of [X]: the factors have
    matching shapes and finite entries, U and V have orthonormal columns, the
    singular values are not negative and X = U diag(s) V^T. *)
Definition exact_svd (X : Mat XR) (f : SVD XR) : Prop :=
  exists (A U V : nat -> nat -> R) (s : list R),
    rmat X A /\ svS f = fins s /\
    mrows (svU f) = mrows X /\ mcols (svU f) = length s /\ rmat (svU f) U /\
    mrows (svV f) = mcols X /\ mcols (svV f) = length s /\ rmat (svV f) V /\
    (forall a b, (a < length s)%nat -> (b < length s)%nat ->
       rsum (mrows X) (fun i => U i a * U i b) = delta a b) /\
    (forall a b, (a < length s)%nat -> (b < length s)%nat ->
       rsum (mcols X) (fun j => V j a * V j b) = delta a b) /\
    (forall x, In x s -> 0 <= x) /\
    (forall i j, (i < mrows X)%nat -> (j < mcols X)%nat ->
       A i j = rsum (length s) (fun l => U i l * nth l s 0 * V j l)).

(** every singular value is zero or above [t] *)
Definition no_tiny (t : R) (f : SVD XR) : Prop :=
  forall x, In (fin x) (svS f) -> x = 0 \/ t < x.

(** residual sum of squares of the coefficients [w] *)
Definition rss (m n : nat) (A : nat -> nat -> R) (w : list R) (y : list R) : R :=
  rsum m (fun i => Rsqr (rsum n (fun j => A i j * nth j w 0) - nth i y 0)).

Definition norm2 (w : list R) : R := lsum (map Rsqr w).

(** ** the criterion of one model *)
Definition criterion (svd : Mat XR -> SVD XR) (c : Z -> Z -> XR -> XR) (X : Mat XR) (y : list XR)
  (m : list bool) : res XR :=
  do D <- GetDesignMatrix m X;
  do w <- Fit svd D y;
  do r <- Rss D w y;
  Ok (c (Z.of_nat (NumFeatures m)) (Z.of_nat (length y)) r).

(** the decomposition is exact for every sub-model *)
Definition good_svd (svd : Mat XR -> SVD XR) (X : Mat XR) : Prop :=
  forall m D, length m = mcols X -> GetDesignMatrix m X = Ok D ->
    exact_svd D (svd D) /\ no_tiny (/ 1000000) (svd D).

(** the four Moore-Penrose conditions for an m x n matrix A and an n x m matrix P *)
Definition moore_penrose (m n : nat) (A P : nat -> nat -> R) : Prop :=
  (forall i j, (i < m)%nat -> (j < n)%nat ->
     rsum n (fun a => A i a * rsum m (fun b => P a b * A b j)) = A i j) /\
  (forall i j, (i < n)%nat -> (j < m)%nat ->
     rsum m (fun a => P i a * rsum n (fun b => A a b * P b j)) = P i j) /\
  (forall i j, (i < m)%nat -> (j < m)%nat ->
     rsum n (fun a => A i a * P a j) = rsum n (fun a => A j a * P a i)) /\
  (forall i j, (i < n)%nat -> (j < n)%nat ->
     rsum m (fun a => P i a * A a j) = rsum m (fun a => P j a * A a i)).

(** squares of the singular values are zero or above the tolerance *)
Definition no_tiny_sq (t : R) (f : SVD XR) : Prop :=
  forall x, In (fin x) (svS f) -> x = 0 \/ t < x * x.


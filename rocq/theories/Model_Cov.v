(** Model of /repo/featselect/thresholdCov.go (without the worker protocol of
    L2ConsistentCovTO, which is in Model_Threshold.v), covarianceMatrix.go,
    lassoCorrections.go and SoftThreshold (lassoCrdDesc.go). *)
From Verif Require Import Base Num Mat Model_Node Model_Util Model_Fit.

(** thresholdCov.go:20-31.  X is altered in place: the result is its new
    content and the counter numRemoved. *)
Definition Apply {N : Num} (threshold : N) (X : Mat N) : res (Mat N * Z) :=
  let nr := mrows X in
  let nc := mcols X in
  for_loop 0 nr (fun i st =>
    for_loop 0 nc (fun j (st : Mat N * Z) =>
      let '(X, numRemoved) := st in
      do v <- mat_at X i j;
      if nltb (nabs v) threshold
      then do X <- mat_set X i j n0; Ok (X, (numRemoved + 1)%Z)
      else Ok (X, numRemoved)) st) (X, 0%Z).

(** thresholdCov.go:126-128 *)
Definition getThreshold {N : Num} (idx : Z) (step : N) : N :=
  nexp (nofZ (-10) + nofZ idx * step)%num.

(** Go math/rand.Shuffle with the swap closure of thresholdCov.go:143 and
    cohens_kappa.go:36 (Fisher-Yates, from the last position down to 1).
    [rnd i] stands for the random number drawn at position i, reduced to 0..i. *)
Fixpoint shuffle_from {A} (rnd : nat -> nat) (i : nat) (l : list A) : res (list A) :=
  match i with
  | O => Ok l
  | S i' =>
      let j := (rnd i mod (S i))%nat in
      do a <- getn l i;
      do b <- getn l j;
      do l <- setn l i b;
      do l <- setn l j a;
      shuffle_from rnd i' l
  end.
Definition Shuffle {A} (rnd : nat -> nat) (l : list A) : res (list A) :=
  shuffle_from rnd (length l - 1) l.

(** thresholdCov.go:132-157 *)
Definition RandomRowSplit {N : Num} (rnd : nat -> nat) (X : Mat N) (num : Z) : res (Mat N * Mat N) :=
  let nr := mrows X in
  let nc := mcols X in
  let n2 := (Z.of_nat nr - num)%Z in
  do mat1 <- new_densez num (Z.of_nat nc);
  do mat2 <- new_densez n2 (Z.of_nat nc);
  do indices <- for_loop 0 nr (fun i l => setn l i i) (repeat 0%nat nr);
  do indices <- Shuffle rnd indices;
  do mat1 <- for_loop 0 (Z.to_nat num) (fun i mat1 =>
    for_loop 0 nc (fun j mat1 =>
      do idx <- getn indices i;
      do v <- mat_at X idx j;
      mat_set mat1 i j v) mat1) mat1;
  do mat2 <- for_loop (Z.to_nat num) (nr - Z.to_nat num) (fun i mat2 =>
    for_loop 0 nc (fun j mat2 =>
      do idx <- getn indices i;
      do v <- mat_at X idx j;
      mat_set mat2 (i - Z.to_nat num) j v) mat2) mat2;
  Ok (mat1, mat2).

(** gonum mat.Norm(m, 2): the Frobenius norm (the rescaling gonum uses against
    overflow is not modelled) *)
Definition frob {N : Num} (A : Mat N) : N :=
  nsqrt (nsum (mrows A) (fun i => nsum (mcols A) (fun j => (mval A i j * mval A i j)%num))).

(** thresholdCov.go:161-178: the value sent on [res].  mat.DenseCopyOf makes
    mat1 reusable. *)
Definition CalculateFNormDiff {N : Num} (mat1 mat2 : Mat N) (gridPt : Z) (step : N) : res N :=
  do (cpy, _) <- Apply (getThreshold gridPt step) mat1;
  do cpy <- for_loop 0 (mrows cpy) (fun i cpy =>
    for_loop 0 (mcols cpy) (fun j cpy =>
      do a <- mat_at cpy i j;
      do b <- mat_at mat2 i j;
      mat_set cpy i j (a - b)%num) cpy) cpy;
  Ok (frob cpy).

(** thresholdCov.go:181-201.  mat.NewDense(nc, nc) panics for nc = 0. *)
Definition CovarianceMatrix {N : Num} (X : Mat N) : res (Mat N) :=
  let nr := mrows X in
  let nc := mcols X in
  do mu <- for_loop 0 nr (fun i mu =>
    for_loop 0 nc (fun j mu =>
      do m <- getn mu j;
      do v <- mat_at X i j;
      setn mu j (m + v / nofnat nr)%num) mu) (repeat n0 nc);
  do _ <- new_dense (N := N) nc nc;
  do cov <- mat_mul (mat_T X) X;
  let cov := mat_scale (n1 / nofnat nr)%num cov in
  for_loop 0 nc (fun i cov =>
    for_loop 0 nc (fun j cov =>
      do c <- mat_at cov i j;
      do mi <- getn mu i;
      do mj <- getn mu j;
      mat_set cov i j (c - mi * mj)%num) cov) cov.

(** covarianceMatrix.go:18-24 *)
Definition Empirical_Get {N : Num} (X : Mat N) : res (Mat N) :=
  do _ <- new_dense (N := N) (mcols X) (mcols X);
  do cov <- mat_mul (mat_T X) X;
  Ok (mat_scale (n1 / nofnat (mrows X))%num cov).

(** covarianceMatrix.go:30-38; mat.NewDiagDense(0, ..) panics *)
Definition Identity_Get {N : Num} (X : Mat N) : res (Mat N) :=
  do ones <- for_loop 0 (mcols X) (fun i l => setn l i n1) (repeat n0 (mcols X));
  if (mcols X =? 0)%nat then Panic else Ok (mat_diag ones).

(** gonum mat.EqualApprox(a, b, tol) on matrices: same dimensions and every
    pair of entries equal up to an absolute or relative error of tol *)
Definition float_approx {N : Num} (tol a b : N) : bool :=
  let d := nabs (a - b)%num in
  (nleb a b && nleb b a) || nleb d tol ||
  (if nleb d (ndec 22250738585072014 (-324)) then nleb d (tol * ndec 22250738585072014 (-324))%num
   else nleb (d / (if nltb (nabs a) (nabs b) then nabs b else nabs a))%num tol).
Definition mat_approx {N : Num} (tol : N) (a b : Mat N) : bool :=
  (mrows a =? mrows b)%nat && (mcols a =? mcols b)%nat &&
  forallb (fun i => forallb (fun j => float_approx tol (mval a i j) (mval b i j)) (seq 0 (mcols a)))
    (seq 0 (mrows a)).

(** covarianceMatrix.go:42-45, 59-69.  [spThreshold] is op.threshold. *)
Record SparseThresholded (N : Num) := mkSparseThr { spX : Mat N; spThreshold : N }.
Arguments mkSparseThr {N} _ _. Arguments spX {N} _. Arguments spThreshold {N} _.
Definition SparseThresholded_Get {N : Num} (s : SparseThresholded N) (X : Mat N) : res (Mat N) :=
  if negb (mat_approx (ndec 1 (-10)) X (spX s)) then Panic else
  do cov <- Empirical_Get X;
  do (cov, _) <- Apply (spThreshold s) cov;
  Ok cov.

(** lassoCrdDesc.go:95-102 *)
Definition SoftThreshold {N : Num} (x threshold : N) : N :=
  if nltb x (nneg threshold) then (x + threshold)%num
  else if nltb threshold x then (x - threshold)%num
  else n0.

(** lassoCorrections.go: the three implementations of LassoCorrection.
    lines 16-24 (PureLasso), 28-31 (CLasso), 63-65 (ElasticNet) *)
Inductive Correction (N : Num) :=
| PureLasso
| CLasso (beta : list N) (eta : N)
| ElasticNet (lamb : N).
Arguments PureLasso {N}. Arguments CLasso {N} _ _. Arguments ElasticNet {N} _.

(** lassoCorrections.go:34-39 *)
Definition NewCLasso {N : Num} (numFeat : nat) (eta : N) : Correction N := CLasso (repeat n0 numFeat) eta.

(** Deriv: lassoCorrections.go:19-21, 48-60, 68-70 *)
Definition Deriv {N : Num} (c : Correction N) (beta : list N) (featNo : Z) : res N :=
  match c with
  | PureLasso => Ok n0
  | CLasso clbeta eta =>
      do (normSq, inner) <- for_loop 0 (length clbeta) (fun i (st : N * N) =>
        let '(normSq, inner) := st in
        do c <- getn clbeta i;
        do b <- getn beta i;
        Ok ((normSq + c * c)%num, (inner + c * b)%num)) (n0, n0);
      if nltb (nabs normSq) (ndec 1 (-10)) then Ok n0 else
      do c <- getz clbeta featNo;
      Ok (eta * c * inner / normSq)%num
  | ElasticNet lamb =>
      do b <- getz beta featNo;
      Ok (lamb * b)%num
  end.

(** Update: lassoCorrections.go:24, 42-44, 73 *)
Definition Update {N : Num} (c : Correction N) (beta : list N) : Correction N :=
  match c with
  | CLasso clbeta eta => CLasso (go_copy clbeta beta) eta
  | c => c
  end.

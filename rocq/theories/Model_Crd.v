(** Model of /repo/featselect/lassoCrdDesc.go: coordinate descent (sequential
    part; the worker pool of LassoCrdDescPath is in Model_CrdPath.v). *)
From Verif Require Import Base Num Mat Model_Node Model_Util Model_Fit Model_Norm Model_Cov.

(** lassoCrdDesc.go:10 *)
Definition lassoCrdDescZero {N : Num} : N := ndec 1 (-16).

(** lassoCrdDesc.go:118-131 *)
Definition MulSlice {N : Num} (X : Mat N) (v : list N) : res (list N) :=
  if negb (length v =? mcols X)%nat then Panic else
  for_loop 0 (mrows X) (fun i r =>
    for_loop 0 (mcols X) (fun j r =>
      do s <- getn r i;
      do x <- mat_at X i j;
      do b <- getn v j;
      setn r i (s + x * b)%num) r) (repeat n0 (mrows X)).

(** lassoCrdDesc.go:134-139 (alters covDotBeta in place) *)
Definition UpdateCovDotBeta {N : Num} (cov : Mat N) (cdb : list N) (coeffNo : nat) (oldCoeff newCoeff : N)
  : res (list N) :=
  for_loop 0 (length cdb) (fun i cdb =>
    do s <- getn cdb i;
    do c <- mat_at cov i coeffNo;
    setn cdb i (s + c * (newCoeff - oldCoeff))%num) cdb.

(** lassoCrdDesc.go:105-116 *)
Definition UnsatisfiedKKTConditions {N : Num} (Xy cdb coeff : list N) (lamb : N) (corr : Correction N)
  : res (list Z) :=
  let nr := length Xy in
  for_loop 1 (length cdb - 1) (fun i unsatisfied =>
    do xy <- getn Xy i;
    do c <- getn cdb i;
    do d <- Deriv corr coeff (Z.of_nat i);
    let value := nabs (xy - c * nofnat nr - d)%num in
    do b <- getn coeff i;
    if nltb value lamb && nltb lassoCrdDescZero (nabs b)
    then Ok (unsatisfied ++ [Z.of_nat i]) else Ok unsatisfied) [].

(** the variables of the loop of lassoCrdDesc.go:38-85.  [crStop] records
    that the break of line 81 was taken.  Indices are kept as natural
    numbers. *)
Record Crd (N : Num) := mkCrd {
  crBeta : list N;
  crOld : list N;
  crCdb : list N;
  crIter : list nat;
  crConv : bool;
  crCorr : Correction N;
  crStop : bool
}.
Arguments mkCrd {N} _ _ _ _ _ _ _.
Arguments crBeta {N} _. Arguments crOld {N} _. Arguments crCdb {N} _. Arguments crIter {N} _.
Arguments crConv {N} _. Arguments crCorr {N} _. Arguments crStop {N} _.

(** lassoCrdDesc.go:40-49, one coordinate; the state is (covDotBeta, beta) *)
Definition crd_coord {N : Num} (nr : nat) (cov : Mat N) (XTy betaOld : list N) (lamb : N) (corr : Correction N)
  (j : nat) (st : list N * list N) : res (list N * list N) :=
  let '(cdb, beta) := st in
  do covDiag <- mat_at cov j j;
  do oldCoeff <- getn betaOld j;
  do c <- getn cdb j;
  do xty <- getn XTy j;
  do d <- Deriv corr betaOld (Z.of_nat j);
  do cdb <- UpdateCovDotBeta cov cdb j oldCoeff
    (SoftThreshold (xty / nofnat nr - (c - oldCoeff * covDiag) - d)%num lamb / covDiag)%num;
  do beta <- setn beta j
    (SoftThreshold (xty / nofnat nr - (c - oldCoeff * covDiag) - d)%num lamb / covDiag)%num;
  Ok (cdb, beta).

(** lassoCrdDesc.go:53-63 *)
Definition crd_change {N : Num} (beta betaOld : list N) (iter : list nat) : res (N * N) :=
  for_each iter (fun j (st : N * N) =>
    let '(maxChange, maxCoeff) := st in
    do b <- getn beta j;
    do o <- getn betaOld j;
    Ok (if nltb maxChange (nabs (b - o)%num) then nabs (b - o)%num else maxChange,
        if nltb maxCoeff (nabs b) then nabs b else maxCoeff)) (n0, n0).

(** lassoCrdDesc.go:67-74: the slice is compacted in place while being
    ranged over, then cut *)
Definition crd_compact {N : Num} (beta : list N) (iter : list nat) : res (list nat) :=
  do (iter, numActive) <- for_loop 0 (length iter) (fun i (st : list nat * nat) =>
    let '(iter, numActive) := st in
    do j <- getn iter i;
    do b <- getn beta j;
    if nltb lassoCrdDescZero (nabs b)
    then do iter <- setn iter numActive j; Ok (iter, S numActive)
    else Ok (iter, numActive)) (iter, 0%nat);
  Ok (firstn numActive iter).

(** lassoCrdDesc.go:39-84: one pass of the outer loop *)
Definition crd_iter {N : Num} (nr : nat) (cov : Mat N) (XTy : list N) (lamb tol : N) (st : Crd N) : res (Crd N) :=
  do (cdb, beta) <- for_each (crIter st) (crd_coord nr cov XTy (crOld st) lamb (crCorr st)) (crCdb st, crBeta st);
  let corr := Update (crCorr st) beta in
  do (maxChange, maxCoeff) <- crd_change beta (crOld st) (crIter st);
  let converged := nltb (maxChange / maxCoeff)%num tol in
  do iter <- crd_compact beta (crIter st);
  let old := go_copy (crOld st) beta in
  if converged then
    do uns <- UnsatisfiedKKTConditions XTy cdb beta lamb corr;
    if (length uns =? 0)%nat then Ok (mkCrd beta old cdb iter converged corr true)
    else Ok (mkCrd beta old cdb (map Z.to_nat (UnionInt (map Z.of_nat iter) uns)) converged corr false)
  else Ok (mkCrd beta old cdb iter converged corr false).

(** lassoCrdDesc.go:38: at most [k] passes *)
Fixpoint crd_loop {N : Num} (nr : nat) (cov : Mat N) (XTy : list N) (lamb tol : N) (k : nat) (st : Crd N)
  : res (Crd N) :=
  match k with
  | O => Ok st
  | S k => do st <- crd_iter nr cov XTy lamb tol st;
           if crStop st then Ok st else crd_loop nr cov XTy lamb tol k st
  end.

(** lassoCrdDesc.go:17-37 *)
Definition crd_start {N : Num} (cov : Mat N) (nFeat : nat) (corr : Correction N) : res (Crd N) :=
  let betaOld := repeat n0 nFeat in
  do iter <- for_loop 1 (nFeat - 1) (fun i l => setn l (i - 1) i) (repeat 0%nat (nFeat - 1));
  do cdb <- MulSlice cov betaOld;
  Ok (mkCrd (repeat n0 nFeat) betaOld cdb iter false corr false).

(** lassoCrdDesc.go:16-91.  [get] is cov.Get, [x0] is None for nil.  The
    result is the returned slice, the content of the caller's x0 afterwards,
    the correction as left behind and whether the warning of line 88 is
    absent.  gonum's MulVec sums in the order of the rows here. *)
Definition LassoCrdDesc {N : Num} (get : Mat N -> res (Mat N)) (dset : NormalizedData N) (lamb : N)
  (x0 : option (list N)) (maxIter : Z) (tol : N) (corr : Correction N)
  : res (list N * option (list N) * Correction N * bool) :=
  let X := ndX dset in
  do covMat <- get X;
  do XTy <- mat_mulvec (mat_T X) (ndy dset);
  do st <- crd_start covMat (mcols X) corr;
  let x0' := match x0 with Some x => Some (go_copy x (crOld st)) | None => None end in
  do st <- crd_loop (mrows X) covMat XTy lamb tol (Z.to_nat maxIter) st;
  Ok (crBeta st, x0', crCorr st, crConv st).

(** lassoCrdDesc.go:163-171: the node PerformLassoCrd makes of a result *)
Definition crd_node {N : Num} (coeff : list N) (lamb : N) : res (LassoLarsNode N) :=
  do (selection, selectedCoeff) <- for_eachi 0 coeff (fun j c (st : list Z * list N) =>
    let '(selection, selectedCoeff) := st in
    if nltb lassoCrdDescZero (nabs c)
    then Ok (selection ++ [Z.of_nat j], selectedCoeff ++ [c]) else Ok (selection, selectedCoeff)) ([], []);
  NewLassoLarsNode selectedCoeff lamb selection.


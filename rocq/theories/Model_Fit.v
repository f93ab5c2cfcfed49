(** Model of /repo/featselect/criteria.go, fit.go, lasso_cd.go and the pseudo
    inverses of util.go.

    The singular value decomposition is external code (gonum mat.SVD): it is a
    parameter [svd] mapping a matrix to the factors that Values/UTo/VTo return.
    Products of matrices are gonum's Mul/Product/MulVec: dimensions are checked,
    each entry is the sum of the products in index order (gonum's blocked order
    of summation is not modelled). *)
From Verif Require Import Base Num Mat Model_Node Model_Util.

(** gonum mat.SVD after Factorize(X, mat.SVDThin) *)
Record SVD (N : Num) := mkSVD { svS : list N; svU : Mat N; svV : Mat N }.
Arguments mkSVD {N} _ _ _. Arguments svS {N} _. Arguments svU {N} _. Arguments svV {N} _.

Fixpoint nsum {N : Num} (n : nat) (f : nat -> N) : N :=
  match n with O => n0 | S n' => (nsum n' f + f n')%num end.

(** gonum: transposed view, product, diagonal matrix, column vector, scaling *)
Definition mat_T {N : Num} (A : Mat N) : Mat N := mkMat (mcols A) (mrows A) (fun i j => mval A j i).
Definition mat_mul {N : Num} (A B : Mat N) : res (Mat N) :=
  if (mcols A =? mrows B)%nat
  then Ok (mkMat (mrows A) (mcols B) (fun i j => nsum (mcols A) (fun k => (mval A i k * mval B k j)%num)))
  else Panic.
Definition mat_diag {N : Num} (s : list N) : Mat N :=
  mkMat (length s) (length s) (fun i j => if (i =? j)%nat then nth i s n0 else n0).
Definition mat_vec {N : Num} (v : list N) : Mat N := mkMat (length v) 1 (fun i _ => nth i v n0).
Definition mat_scale {N : Num} (c : N) (A : Mat N) : Mat N :=
  mkMat (mrows A) (mcols A) (fun i j => (c * mval A i j)%num).
(** gonum VecDense.MulVec into a fresh vector *)
Definition mat_mulvec {N : Num} (A : Mat N) (v : list N) : res (list N) :=
  if (mcols A =? length v)%nat
  then Ok (map (fun i => nsum (mcols A) (fun k => (mval A i k * nth k v n0)%num)) (seq 0 (mrows A)))
  else Panic.

(** criteria.go:10 *)
Definition RssTol {N : Num} : N := ndec 1 (-12).

(** criteria.go:17-19 *)
Definition Aic {N : Num} (numFeat numData : Z) (logL : N) : N :=
  (nofZ 2 * nofZ numFeat + nofZ numData * nlog logL)%num.

(** criteria.go:23-30 *)
Definition Aicc {N : Num} (numFeat numData : Z) (logL : N) : N :=
  let denum := if (numData - 1 <=? numFeat)%Z then n1 else nofZ (numData - numFeat - 1) in
  (Aic numFeat numData logL + nofZ (2 * numFeat * numFeat + 2 * numFeat) / denum)%num.

(** criteria.go:33-35 *)
Definition Bic {N : Num} (numFeat numData : Z) (logL : N) : N :=
  (nofZ numFeat * nlog (nofZ numData) + nofZ numData * nlog logL)%num.

(** fit.go:11-49.  mat.NewVecDense panics for an empty y. *)
Definition Fit {N : Num} (svd : Mat N -> SVD N) (X : Mat N) (y : list N) : res (list N) :=
  let n := mcols X in
  if negb (mrows X =? length y)%nat then Panic else
  if (length y =? 0)%nat then Panic else
  let f := svd X in
  do uTdoty <- mat_mul (mat_T (svU f)) (mat_vec y);
  do uTdoty <- for_loop 0 (length (svS f)) (fun i m =>
    do s <- getn (svS f) i;
    let invSigma := if nltb (ndec 1 (-6)) (nabs s) then (n1 / s)%num else n0 in
    do a <- mat_at m i 0;
    mat_set m i 0 (a * invSigma)%num) uTdoty;
  do xMat <- mat_mul (svV f) uTdoty;
  for_loop 0 n (fun i x => do v <- mat_at xMat i 0; setn x i v) (repeat n0 n).

(** fit.go:52-59 *)
Definition PredictOne {N : Num} (x coeff : list N) : res N :=
  for_loop 0 (length x) (fun i r => do a <- getn x i; do c <- getn coeff i; Ok (r + a * c)%num) n0.

(** fit.go:63-68 with sliceVec.go:14-43 (a slice seen as a column vector).
    mat.NewVecDense panics for a matrix without rows. *)
Definition Predict {N : Num} (X : Mat N) (coeff : list N) : res (list N) :=
  if (mrows X =? 0)%nat then Panic else mat_mulvec X coeff.

(** fit.go:75-87 *)
Definition Rss {N : Num} (X : Mat N) (coeff data : list N) : res N :=
  do pred <- Predict X coeff;
  if negb (length data =? length pred)%nat then Panic else
  for_loop 0 (length data) (fun i s =>
    do p <- getn pred i; do d <- getn data i; Ok (s + npow (p - d) 2)%num) n0.

(** criteria.go:41-66 bounds *)
Definition bounds {N : Num} (svd : Mat N -> SVD N) (model : list bool) (start : Z) (X : Mat N)
  (y : list N) (criteria : Z -> Z -> N -> N) : res (N * N) :=
  do gcsMod <- Gcs model start;
  do lcsMod <- Lcs model start;
  let kGcs := NumFeatures gcsMod in
  let kLcs := NumFeatures lcsMod in
  do rssLcs <- (if (0 <? kLcs)%nat then
      do XLcs <- GetDesignMatrix lcsMod X;
      do coeff <- Fit svd XLcs y;
      Rss XLcs coeff y
    else Ok nmaxf);
  do rssGcs <- (if (kGcs <? mrows X)%nat then
      do XGcs <- GetDesignMatrix gcsMod X;
      do coeff <- Fit svd XGcs y;
      Rss XGcs coeff y
    else Ok RssTol);
  Ok (criteria (Z.of_nat kLcs) (Z.of_nat (length y)) rssGcs,
      criteria (Z.of_nat kGcs) (Z.of_nat (length y)) rssLcs).

(** criteria.go:69-71, 74-76 *)
Definition BoundsAIC {N : Num} svd (model : list bool) (start : Z) (X : Mat N) (y : list N) :=
  bounds svd model start X y Aic.
Definition BoundsAICC {N : Num} svd (model : list bool) (start : Z) (X : Mat N) (y : list N) :=
  bounds svd model start X y Aicc.

(** optimize.go:224-227 (ScoreWorker; BruteForceSelect lines 184-187 are the
    same with len(y) for the number of rows): coefficients and score *)
Definition fit_score {N : Num} (svd : Mat N -> SVD N) (X : Mat N) (y : list N) (model : list bool)
  : res (list N * N) :=
  do design <- GetDesignMatrix model X;
  do coeff <- Fit svd design y;
  do rss <- Rss design coeff y;
  Ok (coeff, nneg (Aicc (Z.of_nat (NumFeatures model)) (Z.of_nat (mrows X)) rss)).

(** util.go:357-375 *)
Definition PseudoInverseXTX {N : Num} (f : SVD N) (tol : N) : res (Mat N) :=
  let s := map (fun s => if nltb tol (s * s)%num then (n1 / (s * s))%num else n0) (svS f) in
  do vd <- mat_mul (svV f) (mat_diag s);
  mat_mul vd (mat_T (svV f)).

(** util.go:378-399 *)
Definition PseudoInverse {N : Num} (f : SVD N) (tol : N) : res (Mat N) :=
  let s := map (fun s => if nltb tol s then (n1 / s)%num else n0) (svS f) in
  do vd <- mat_mul (svV f) (mat_diag s);
  mat_mul vd (mat_T (svU f)).

(** fit.go:91-99 *)
Definition DenumMatrixGcv {N : Num} (svd : Mat N -> SVD N) (X : Mat N) : res (Mat N) :=
  do invD <- PseudoInverseXTX (svd X) (ndec 1 (-6));
  do xi <- mat_mul X invD;
  mat_mul xi (mat_T X).

(** fit.go:102-108 *)
Definition Gcv {N : Num} (denum : Mat N) (data pred : list N) : res N :=
  do gcv <- for_loop 0 (length data) (fun i g =>
    do d <- getn data i; do p <- getn pred i; do e <- mat_at denum i i;
    Ok (g + npow (d - p) 2 / (n1 - e))%num) n0;
  Ok (nsqrt (gcv / nofnat (length pred)))%num.

(** lasso_cd.go:31-36, 72-83: MorsePenroseCD after SetX and SetActiveSet holds
    the factors of the active columns and PseudoInverseXTX of them. *)
Definition icv_mat {N : Num} (X : Mat N) (cols : list Z) : Mat N :=
  mkMat (mrows X) (length cols) (fun i j => mval X i (Z.to_nat (nth j cols 0%Z))).
Definition mpSetActiveSet {N : Num} (svd : Mat N -> SVD N) (X : Mat N) (active : list Z)
  : res (SVD N * Mat N) :=
  if forallb (fun c => (0 <=? c)%Z && (c <? Z.of_nat (mcols X))%Z) active then
    let f := svd (icv_mat X active) in
    do inv <- PseudoInverseXTX f (ndec 1 (-6));
    Ok (f, inv)
  else Panic.

(** lasso_cd.go:39-61.  Small singular values are kept as they are. *)
Definition mpC {N : Num} (f : SVD N) (y : list N) : res (list N) :=
  let s := map (fun s => if nltb (ndec 1 (-6)) (s * s)%num then (n1 / s)%num else s) (svS f) in
  do vd <- mat_mul (svV f) (mat_diag s);
  do vdu <- mat_mul vd (mat_T (svU f));
  do c <- mat_mul vdu (mat_vec y);
  for_loop 0 (mrows (svV f)) (fun i r => do v <- mat_at c i 0; setn r i v) (repeat n0 (mrows (svV f))).

(** lasso_cd.go:64-69 *)
Definition mpD {N : Num} (inv : Mat N) (signs : list N) : res (list N) := mat_mulvec inv signs.

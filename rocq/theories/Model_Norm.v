(** /repo/featselect/normalized_dataset.go and the path conversion of
    /repo/featselect/lasso_lars.go. *)
From Verif Require Import Base Num Mat Model_Node Model_Util.

(** normalized_dataset.go:11-19 *)
Record NormalizedData (N : Num) := mkND {
  ndX : Mat N;
  ndy : list N;
  ndstd : list N;
  ndmu : list N;
  ndstdY : N;
  ndmuY : N;
  ndHasBias : bool
}.
Arguments mkND {N} _ _ _ _ _ _ _.
Arguments ndX {N} _. Arguments ndy {N} _. Arguments ndstd {N} _. Arguments ndmu {N} _.
Arguments ndstdY {N} _. Arguments ndmuY {N} _. Arguments ndHasBias {N} _.

(** normalized_dataset.go:23-64.  X and y are altered in place; their new
    contents are the fields [ndX] and [ndy].  The value slot [tmp] is reused
    for all columns. *)
Definition NewNormalizedData {N : Num} (X : Mat N) (y : list N) : res (NormalizedData N) :=
  do stdY <- Std y;
  do muY <- Mean y;
  do y <- for_loop 0 (length y) (fun i y => do v <- getn y i; setn y i ((v - muY) / stdY)%num) y;
  let nr := mrows X in
  let nc := mcols X in
  do (_, X, mu, std, hasBias) <-
    for_loop 0 nc (fun c (st : list N * Mat N * list N * list N * bool) =>
      let '(tmp, X, mu, std, hasBias) := st in
      do tmp <- for_loop 0 nr (fun r tmp => do v <- mat_at X r c; setn tmp r v) tmp;
      do s <- Std tmp;
      do std <- setn std c s;
      do m <- Mean tmp;
      do mu <- setn mu c m;
      if nltb s (ndec 1 (-10)) && negb (c =? 0)%nat then Panic else
      let '(hasBias, stdtmp) := if nltb s (ndec 1 (-10)) then (true, n1) else (hasBias, s) in
      do X <- for_loop 0 nr (fun r X => do t <- getn tmp r; mat_set X r c ((t - m) / stdtmp)%num) X;
      Ok (tmp, X, mu, std, hasBias))
    (repeat n0 nr, X, repeat n0 nc, repeat n0 nc, false);
  Ok (mkND X y std mu stdY muY hasBias).

(** normalized_dataset.go:69-74 *)
Definition LinearNormalizationTransformation {N : Num} (n : NormalizedData N) (idx : Z) (value : N)
  : res N :=
  if (idx =? 0)%Z && ndHasBias n then Panic else
  do s <- getz (ndstd n) idx;
  Ok (value * ndstdY n / s)%num.

(** normalized_dataset.go:77-83 *)
Definition LinearTransformationBias {N : Num} (n : NormalizedData N) (selected : list Z)
  (coeff : list N) : res N :=
  do sumShift <- for_eachi 0 selected (fun i v sumShift =>
    do c <- getn coeff i;
    do m <- getz (ndmu n) v;
    do s <- getz (ndstd n) v;
    Ok (sumShift + c * m / s)%num) n0;
  Ok (ndmuY n - ndstdY n * sumShift)%num.

(** lasso_lars.go:14-18 *)
Record LassoLarsNode (N : Num) := mkLN {
  lnCoeff : list N;
  lnLamb : N;
  lnSelection : list Z
}.
Arguments mkLN {N} _ _ _.
Arguments lnCoeff {N} _. Arguments lnLamb {N} _. Arguments lnSelection {N} _.

(** lasso_lars.go:21-33 *)
Definition NewLassoLarsNode {N : Num} (coeff : list N) (lamb : N) (selection : list Z)
  : res (LassoLarsNode N) :=
  if negb (length coeff =? length selection)%nat then Panic else
  Ok (mkLN (go_copy (repeat n0 (length coeff)) coeff) lamb
           (go_copy (repeat 0%Z (length selection)) selection)).

(** lasso_lars.go:251-271 for one node (the loop body) *)
Definition unnormalize_node {N : Num} (data : NormalizedData N) (node : LassoLarsNode N)
  : res (LassoLarsNode N) :=
  do bias <- LinearTransformationBias data (lnSelection node) (lnCoeff node);
  do coeff <- for_loop 0 (length (lnSelection node)) (fun i coeff =>
    do s <- getn (lnSelection node) i;
    do c <- getn coeff i;
    do c' <- LinearNormalizationTransformation data s c;
    setn coeff i c') (lnCoeff node);
  if ndHasBias data then
    Ok (mkLN (bias :: coeff) (lnLamb node) (0%Z :: lnSelection node))
  else Ok (mkLN coeff (lnLamb node) (lnSelection node)).

(** lasso_lars.go:251-271.  In place; the result lists the new nodes.
    Simplification: the pointers in [path] are pairwise different. *)
Fixpoint Path2Unnormalized {N : Num} (data : NormalizedData N) (path : list (LassoLarsNode N))
  : res (list (LassoLarsNode N)) :=
  match path with
  | [] => Ok []
  | node :: rest =>
      do node' <- unnormalize_node data node;
      do rest' <- Path2Unnormalized data rest;
      Ok (node' :: rest')
  end.

(** lasso_lars.go:275-282 *)
Definition LassoNodesSlice2SparsCoeff {N : Num} (nodes : list (LassoLarsNode N))
  : list (SparseCoeff N) :=
  map (fun n => mkSparse (lnCoeff n) (lnSelection n)) nodes.

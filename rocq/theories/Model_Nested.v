(** Model of /repo/featselect/nestedLasso.go. *)
From Coq Require Import String.
From Verif Require Import Base Num Mat Model_Node Model_Util Model_Norm Model_Fit Model_CSV Model_Lars Model_Path.
Open Scope list_scope.

(** The Go conversion int(x).  Out of range (or NaN) the language leaves the
    result to the implementation; on amd64 it is the least 64-bit integer. *)
Definition go_int {N : Num} (x : N) : Z := match ntrunc x with Some z => z | None => (- 2 ^ 63)%Z end.

(** nestedLasso.go:78-83.  The slice is altered in place and returned. *)
Definition MapSelectionByName {N : Num} (orig : Dataset N) (names : list string) (selection : list Z) : res (list Z) :=
  for_loop 0 (length selection) (fun i sel =>
    do s <- getn sel i;
    do name <- getz names s;
    do f <- FeatNoByName orig name;
    setn sel i f) selection.

(** nestedLasso.go:55-57 for all nodes.  Simplification: the pointers in the
    path are pairwise different (LassoLars appends a fresh node each round). *)
Fixpoint map_selections {N : Num} (orig : Dataset N) (names : list string) (path : list (LassoLarsNode N))
  : res (list (LassoLarsNode N)) :=
  match path with
  | [] => Ok []
  | v :: rest =>
      do sel <- MapSelectionByName orig names (lnSelection v);
      do rest <- map_selections orig names rest;
      Ok (mkLN (lnCoeff v) (lnLamb v) sel :: rest)
  end.

(** nestedLasso.go:9-13 *)
Record PathWithCrit (N : Num) := mkPWC { pwNodes : list (LassoLarsNode N); pwAicc : list N; pwBic : list N }.
Arguments mkPWC {N} _ _ _.
Arguments pwNodes {N} _. Arguments pwAicc {N} _. Arguments pwBic {N} _.

(** LassoLars (lasso_lars.go:50-133, see Model_Lars) together with the state in
    which it leaves the estimator; NestedLasso hands the same estimator to all
    its calls. *)
Definition LassoLars_est {N : Num} (cd : CDParam N) (est : cdState cd) (data : NormalizedData N) (lambMin : N) (fuel : nat)
  : res (list (LassoLarsNode N) * cdState cd) :=
  do st <- lars_start cd est (ndX data) (ndy data);
  do st <- lars_loop cd (ndX data) (ndy data) lambMin fuel st;
  Ok (laRes st, laEst st).

(** NewNormalizedData(d.X, d.Y) alters the matrix and the target of d: the
    dataset afterwards (nestedLasso.go:33, 65, 69) *)
Definition normalized_in_place {N : Num} (d : Dataset N) (nd : NormalizedData N) : Dataset N :=
  mkDataset (ndX nd) (ndy nd) (dsNames d) (dsTargetCol d).

(** nestedLasso.go:34-66: the loop, for at most [fuel] rounds.  Printing
    (lines 47-48) is left out.  The result is res.Paths before line 69. *)
Fixpoint nested_loop {N : Num} (cd : CDParam N) (data : Dataset N) (lambMin keep : N) (fuelL fuel : nat)
  (est : cdState cd) (cur : Dataset N) (normD : NormalizedData N) (paths : list (PathWithCrit N))
  : res (list (PathWithCrit N)) :=
  match fuel with
  | O => Fuel
  | S fuel =>
    do (newPath, est) <- LassoLars_est cd est normD lambMin fuelL;
    let path := mkPath cur newPath in
    do aicc <- GetCriteria path Aicc;
    do bic <- GetCriteria path Bic;
    let currentNumCoeff := mcols (dsX cur) in
    let newNum := go_int (keep * nofnat currentNumCoeff)%num in
    let survivors := PickMostRelevantFeatures path newNum in
    do newPath <- map_selections data (dsNames cur) newPath;
    let paths := paths ++ [mkPWC newPath aicc bic] in
    if (newNum <=? 2)%Z then Ok paths else
    do cur <- GetSubset cur survivors;
    do normD <- NewNormalizedData (dsX cur) (dsY cur);
    nested_loop cd data lambMin keep fuelL fuel est (normalized_in_place cur normD) normD paths
  end.

(** nestedLasso.go:70-72 *)
Fixpoint unnormalize_paths {N : Num} (normD : NormalizedData N) (paths : list (PathWithCrit N))
  : res (list (PathWithCrit N)) :=
  match paths with
  | [] => Ok []
  | v :: rest =>
      do nodes <- Path2Unnormalized normD (pwNodes v);
      do rest <- unnormalize_paths normD rest;
      Ok (mkPWC nodes (pwAicc v) (pwBic v) :: rest)
  end.

(** nestedLasso.go:24-74.  data.Copy() is a deep copy (C28), so the caller's
    dataset is first altered on line 69.  The result is the pair of res.Dset
    (the caller's dataset, normalised) and res.Paths. *)
Definition NestedLasso {N : Num} (cd : CDParam N) (est : cdState cd) (data : Dataset N) (lambMin keep : N) (fuelL fuel : nat)
  : res (Dataset N * list (PathWithCrit N)) :=
  do normD <- NewNormalizedData (dsX data) (dsY data);
  do paths <- nested_loop cd data lambMin keep fuelL fuel est (normalized_in_place data normD) normD [];
  do normD <- NewNormalizedData (dsX data) (dsY data);
  do paths <- unnormalize_paths normD paths;
  Ok (normalized_in_place data normD, paths).

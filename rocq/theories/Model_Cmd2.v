(** Model of the programs in /repo/cmdDepreciated/goselect-cohenlasso and
    /repo/cmdDepreciated/goselect-nestedlasso.  As in Model_Cmd.v flags are
    arguments, a file is what its JSON encodes, and the dataset is that
    returned by ReadCSV ([None]: nil, the file could not be opened). *)
From Coq Require Import String.
From Verif Require Import Base Num Mat Model_Node Model_Util Model_Norm Model_Fit Model_Cov Model_Crd Model_CSV Model_Lars
  Model_Path Model_Nested Model_Cohen.
Open Scope list_scope.

(** ** goselect-cohenlasso *)

(** goselect-cohenlasso/main.go:11-26: the targets handed to
    CalculateCohenSequence.  Line 11 panics for a nil dataset and line 13 for a
    negative number of penalties.  NewPureLassoCohen leaves x0 empty
    (lassoCrdDesc.go:272-276).  Simplification: PureLasso has no state, so
    sharing &corr and &cov among the targets is not represented. *)
Definition cohenlasso_targets {N : Num} (dset : option (Dataset N)) (lambMin lambMax : N) (numLamb : Z) (tol : N)
  : res (list (Target (LassoCohen N) (list N))) :=
  match dset with
  | None => Panic
  | Some dset =>
    do normDset <- NewNormalizedData (dsX dset) (dsY dset);
    do slots <- go_make tt numLamb;
    do lambs <- Logspace lambMin lambMax numLamb;
    for_eachi 0 slots (fun i _ targets =>
      do lamb <- getz lambs (Z.of_nat (length lambs) - Z.of_nat i - 1);
      Ok (targets ++ [pure_target Empirical_Get (ndX normDset) (ndy normDset) lamb 100000 tol (mkLC [] PureLasso)])) []
  end.

(** goselect-cohenlasso/main.go:9-28: the program is in state [c] after the
    steps [schedule] of its goroutines.  The returned hyper-parameters are
    dropped (line 27); what is printed is the summary of CDone. *)
Definition cohenlasso_reaches {N : Num} (srt : list (N * nat) -> list (N * nat)) (dset : option (Dataset N))
  (lambMin lambMax : N) (numLamb numSamples : Z) (tol : N) (schedule : list cchoice) (c : CPool N (list N)) : Prop :=
  exists targets, cohenlasso_targets dset lambMin lambMax numLamb tol = Ok targets /\
    cohen_run srt numSamples targets schedule (cohen_init srt targets) = Some c.

(** ** goselect-nestedlasso *)

(** featselect/nestedLasso.go:9-20 as encoding/json transports it *)
Record NestedJSON (N : Num) := mkNestedJ { njDset : JSONDataset N; njPaths : list (PathWithCrit N) }.
Arguments mkNestedJ {N} _ _. Arguments njDset {N} _. Arguments njPaths {N} _.

(** goselect-nestedlasso/main.go:16, json.Marshal: Dset through its MarshalJSON
    (csvIO.go:212-228), the rest field by field; [None] is the error for NaN
    and infinities *)
Definition nestedMarshal {N : Num} (d : Dataset N) (paths : list (PathWithCrit N)) : res (option (NestedJSON N)) :=
  do jd <- dsMarshalJSON d;
  Ok (match jd with
      | Some jd =>
          if forallb (fun p => forallb (fun n => forallb finite (lnCoeff n) && finite (lnLamb n)) (pwNodes p)
                               && forallb finite (pwAicc p) && forallb finite (pwBic p)) paths
          then Some (mkNestedJ jd paths) else None
      | None => None
      end).

(** json.Unmarshal of such a file into a NestedLassoLars
    (featselect/nestedLasso.go:17-20), Dset through UnmarshalJSON *)
Definition nestedUnmarshal {N : Num} (j : NestedJSON N) : res (Dataset N * list (PathWithCrit N)) :=
  do d <- dsUnmarshalJSON (njDset j);
  Ok (d, njPaths j).

(** goselect-nestedlasso/main.go:12-25: the file written, [None] if there is
    none (lines 18-21).  [cd], [est]: the estimator of line 14. *)
Definition nestedlasso {N : Num} (cd : CDParam N) (est : cdState cd) (dset : option (Dataset N)) (lambMin keep : N)
  (fuelL fuel : nat) : res (option (NestedJSON N)) :=
  match dset with
  | None => Panic
  | Some data =>
    do (data, paths) <- NestedLasso cd est data lambMin keep fuelL fuel;
    nestedMarshal data paths
  end.

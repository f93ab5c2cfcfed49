(** goselect lasso and goselect sasearch from the command line and the bytes of
    the files to what they leave behind (cmd/lasso.go:34-123,
    cmd/sasearch.go:41-77).  The parts are Model_Flags (options), Model_CSVBytes
    (the CSV file) and Model_Cmd (the work).  goselect bnb runs concurrently
    with its periodic saves and is left to Model_Cmd and Model_Bnb.  Printing is
    left out except for the table of lasso. *)
From Coq Require Import String Ascii.
From Verif Require Import Base Num Mat Model_Node Model_Util Model_Fit Model_Norm Model_SA Model_CSV Model_CSVBytes Model_Path
  Model_Cmd Model_Flags.
Open Scope list_scope.

Section Shell.
  Variable N : Num.
  (** strconv.ParseInt(s, 0, 64), strconv.ParseFloat(s, 64) (of the options and of the CSV file) *)
  Variable parse_int : string -> option Z.
  Variable parse_float : string -> option N.
  (** the parameters of Model_Cmd.lassoFit: sort.Sort, LassoLars,
      LassoCrdDescPath, the threshold search (cmd/lasso.go:77, 94, 89) *)
  Variable srt : list (N * nat) -> list (N * nat).
  Variable larsF : NormalizedData N -> N -> res (list (LassoLarsNode N)).
  Variable crdF : (Mat N -> res (Mat N)) -> NormalizedData N -> list N -> N -> res (list (LassoLarsNode N)).
  Variable thr : Mat N -> res N.
  (** the parameters of Model_SA.SelectModelSA: mat.SVD, rand.Intn, rand.Float64, a bound on the steps (cmd/sasearch.go:68) *)
  Variable svd : Mat N -> SVD N.
  Variable ri : nat -> nat.
  Variable rf : nat -> N.
  Variable fuel : nat.

  (** what a file can be opened for: its bytes (os.Open of csvIO.go:107), or
      creation (os.Create, ioutil.WriteFile of cmd/lasso.go:118-121 and
      cmd/sasearch.go:73) *)
  Record filesystem := mkFs { fsRead : string -> option bytes; fsWritable : string -> bool }.

  (** a file that was written, cmd/lasso.go:121 and cmd/sasearch.go:73 *)
  Inductive written := WLasso (j : PathJSON N) | WSa (c : sa_content N).

  (** the end of a run: nothing was run (usage error, help, message of
      cmd/lasso.go:37), a panic, the bound on the steps, or a return with the
      table printed and the file written *)
  Inductive ending :=
  | NothingRun
  | Crashed
  | StillRunning
  | Returned (table : option (list (ScoreRow N))) (file : option (string * written)).

  (** featselect/csvIO.go:106-114 *)
  Definition ReadCSVFile (fs : filesystem) (fname : string) (targetCol : Z) : res (option (Dataset N)) :=
    match fsRead fs fname with
    | None => Ok None
    | Some b => do d <- ParseCSVBytes parse_float b targetCol; Ok (Some d)
    end.

  (** errors of os.Create and ioutil.WriteFile are dropped (cmd/lasso.go:118-121, cmd/sasearch.go:73) *)
  Definition write_to (fs : filesystem) (out : string) (w : written) : option (string * written) :=
    if fsWritable fs out then Some (out, w) else None.

  (** cmd/lasso.go:69-123 *)
  Definition lasso_main (fs : filesystem) (csv : string) (target : Z) (out : string) (lmin lmax : N) (num : Z)
    (ltype cov : string) (tol : N) : res (option (list (ScoreRow N)) * option (string * written)) :=
    do dset <- ReadCSVFile fs csv target;
    do o <- lassoFit srt larsF crdF thr dset lmin lmax num ltype cov tol;
    Ok (loTable o, match loFile o with Some j => write_to fs out (WLasso j) | None => None end).

  (** cmd/sasearch.go:65-77; a nil dataset panics in line 68 *)
  Definition sasearch_main (fs : filesystem) (csv : string) (target : Z) (out : string) (sweeps : Z)
    : res (option (list (ScoreRow N)) * option (string * written)) :=
    do dset <- ReadCSVFile fs csv target;
    match dset with
    | None => Panic
    | Some dset =>
        do (r, _) <- SelectModelSA svd (dsX dset) (dsY dset) sweeps Aicc ri rf fuel;
        do c <- sa_write (srScores r);
        Ok (None, write_to fs out (WSa c))
    end.

  (** main.go, cmd/root.go:46-51 and the Run functions; [c] is lasso or sasearch *)
  Definition shell (c : command) (fs : filesystem) (args : list string) : ending :=
    let finish r := match r with Ok (t, f) => Returned t f | Panic => Crashed | Fuel => StillRunning end in
    match goselect parse_int parse_float c args with
    | Called (LassoFit csv target out lmin lmax num ltype cov tol) =>
        finish (lasso_main fs csv target out lmin lmax num ltype cov tol)
    | Called (SaSearchRun csv target out sweeps) => finish (sasearch_main fs csv target out sweeps)
    | _ => NothingRun
    end.
End Shell.
Arguments WLasso {N} _. Arguments WSa {N} _. Arguments NothingRun {N}. Arguments Crashed {N}. Arguments StillRunning {N}.
Arguments Returned {N} _ _. Arguments shell {N} _ _ _ _ _ _ _ _ _ _ _ _ _. Arguments lasso_main {N} _ _ _ _ _ _ _ _ _ _ _ _ _ _ _.
Arguments sasearch_main {N} _ _ _ _ _ _ _ _ _ _. Arguments ReadCSVFile {N} _ _ _ _.

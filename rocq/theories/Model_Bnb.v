(** Model of goselect bnb up to the start of its search (cmd/bnb.go:78-104),
    putting together the parts of Model_CSV, Model_SA, Model_Cmd and
    Model_Search.  What follows is [run] of Model_Search for the goroutines of
    SelectModel and [bnb_run] of Model_Cmd for the saving. *)
From Coq Require Import String.
From Verif Require Import Base Num Mat Model_Node Model_Util Model_Fit Model_CSV Model_SA Model_Search Model_Save Model_Cmd.
Open Scope list_scope.

Section Bnb.
  Variable N : Num.

  (** the local variables of findOptimalSolution (cmd/bnb.go:78-98) when the
      goroutine of the search starts: dset, res, and what SelectModel makes of
      the parameters before its own goroutines start *)
  Record bnb_ready := mkReady {
    brData : Dataset N;
    brAnneal : SARes N;
    brProblem : problem N;
    brSearch : st N
  }.

  (** cmd/bnb.go:78-104.  A nil dataset panics in line 84 (dset.Y).  [fit] and
      [bnd] are the values ScoreWorker and BoundsAICC compute for the dataset
      (Model_Search.problem); [ri], [rf] are the random numbers of the
      annealing and [fuel] bounds its passes.  Line 88 (printing the first
      items of the target column) is not modelled. *)
  Definition bnb_start (svd : Mat N -> SVD N) (parse : string -> option N) (ri : nat -> nat) (rf : nat -> N) (fuel : nat)
    (fit : list bool -> list N * N) (bnd : list bool -> Z -> N * N)
    (file : option (list (list string))) (targetCol : Z) (cutoff : N) (maxQueueSize : Z) : res bnb_ready :=
    do od <- ReadCSV parse file targetCol;
    match od with
    | None => Panic
    | Some dset =>
        do (r, _) <- SelectModelSA svd (dsX dset) (dsY dset) 100 Aicc ri rf fuel;
        do params <- bnb_params dset cutoff maxQueueSize (srSelected r);
        do (P, s0) <- SelectModel_start (mrows (dsX dset)) (mcols (dsX dset)) fit bnd
                        (opRoot params) (opMaxQueue params) (opCutoff params) (NewHighscore 10);
        Ok (mkReady dset r P s0)
    end.
End Bnb.

Arguments mkReady {N} _ _ _ _. Arguments brData {N} _. Arguments brAnneal {N} _. Arguments brProblem {N} _.
Arguments brSearch {N} _. Arguments bnb_start {N} _ _ _ _ _ _ _ _ _ _ _.

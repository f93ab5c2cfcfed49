(** Model of the worker protocol of L2ConsistentCovTO
    (/repo/featselect/thresholdCov.go:53-124).  The functions it calls are in
    Model_Cov.v. *)
From Verif Require Import Base Num Mat Model_Node Model_Util Model_Fit Model_Cov Model_Nested.

(** thresholdCov.go:40-45 (the field step is the same for all items).  Grid
    points are natural numbers. *)
Record TWork (N : Num) := mkTWork { twMat1 : Mat N; twMat2 : Mat N; twGr : nat }.
Arguments mkTWork {N} _ _ _. Arguments twMat1 {N} _. Arguments twMat2 {N} _. Arguments twGr {N} _.

(** thresholdCov.go:204-208: a goroutine running PerformNormDiffWork waits for
    work, computes, or waits for its result (value and grid point) to be taken *)
Inductive TWorker (N : Num) := TIdle | TBusy (w : TWork N) | TBlocked (value : N) (gridPt : nat).
Arguments TIdle {N}. Arguments TBusy {N} _. Arguments TBlocked {N} _ _.

(** thresholdCov.go:70-73, 85-87: the variables of the second loop.
    [tsSplits] counts the calls of RandomRowSplit so far. *)
Record TState (N : Num) := mkTState {
  tsGridPt : nat; tsNum : nat; tsDiff : list N; tsMat1 : Mat N; tsMat2 : Mat N; tsSplits : nat }.
Arguments mkTState {N} _ _ _ _ _ _. Arguments tsGridPt {N} _. Arguments tsNum {N} _. Arguments tsDiff {N} _.
Arguments tsMat1 {N} _. Arguments tsMat2 {N} _. Arguments tsSplits {N} _.

(** where the calling goroutine is: thresholdCov.go:74-75 (about to start
    worker i), 81 (sending one of the first items), 90-91 (waiting for a result
    or the ticker), 113 (sending a further item), 123 (returned; the content
    of meanNormDiff is kept), or a run time panic *)
Inductive TMain (N : Num) :=
| TSpawn (i gridPt : nat) (mat1 mat2 : Mat N)
| TSend0 (i : nat) (w : TWork N) (gridPt : nat) (mat1 mat2 : Mat N)
| TRecv (st : TState N)
| TSend (w : TWork N) (st : TState N)
| TDone (threshold : N) (meanNormDiff : list N)
| TPanic.
Arguments TSpawn {N} _ _ _ _. Arguments TSend0 {N} _ _ _ _ _. Arguments TRecv {N} _.
Arguments TSend {N} _ _. Arguments TDone {N} _ _. Arguments TPanic {N}.

Record TPool (N : Num) := mkTPool { tpMain : TMain N; tpWorkers : list (TWorker N) }.
Arguments mkTPool {N} _ _. Arguments tpMain {N} _. Arguments tpWorkers {N} _.

Section Search.
  Context {N : Num}.
  (** [rnd r] are the random numbers of the (r+1)-th call of RandomRowSplit;
      only the calling goroutine draws random numbers.  The argument
      maxThreshold is not used by the code. *)
  Variable rnd : nat -> nat -> nat.
  Variable X : Mat N.
  Variable numSamples : Z.
  Variable step : N.

  (** thresholdCov.go:56 *)
  Definition tNumRows1 : Z :=
    go_int (N := N) (nofnat (mrows X) * (n1 - n1 / nlog (nofnat (mrows X))))%num.

  (** thresholdCov.go:58 *)
  Definition tNumGrid : Z := go_int (N := N) (nofZ 9 / step)%num.

  (** thresholdCov.go:63-67 *)
  Definition tNumSim : Z := if (tNumGrid <? 10)%Z then tNumGrid else 10%Z.

  (** thresholdCov.go:71-73 and 104-106 *)
  Definition t_split (r : nat) : res (Mat N * Mat N) :=
    do (mat1, mat2) <- RandomRowSplit (rnd r) X tNumRows1;
    do cvMat1 <- CovarianceMatrix mat1;
    do cvMat2 <- CovarianceMatrix mat2;
    Ok (cvMat1, cvMat2).

  (** thresholdCov.go:89, the loop test, and 120-123.  The product
      numSamples*numGrid is assumed not to overflow. *)
  Definition t_loop (st : TState N) : TMain N :=
    if (Z.of_nat (tsNum st) <? numSamples * tNumGrid)%Z then TRecv st else
    match Argmin (tsDiff st) with
    | Ok minIdx => TDone (getThreshold (Z.of_nat minIdx) step) (tsDiff st)
    | _ => TPanic
    end.

  (** thresholdCov.go:74, the test of the first loop, and 85-87 (make panics
      for a negative length) *)
  Definition t_spawn (i gridPt : nat) (mat1 mat2 : Mat N) : TMain N :=
    if (Z.of_nat i <? tNumSim)%Z then TSpawn i gridPt mat1 mat2
    else if (tNumGrid <? 0)%Z then TPanic
    else t_loop (mkTState gridPt 0 (repeat n0 (Z.to_nat tNumGrid)) mat1 mat2 1).

  (** thresholdCov.go:91-114: what is done with a result *)
  Definition t_recv (value : N) (g : nat) (st : TState N) : TMain N :=
    match
      (do d <- getn (tsDiff st) g;
       do diff <- setn (tsDiff st) g (d + value / nofZ numSamples)%num;
       let work := mkTWork (tsMat1 st) (tsMat2 st) (tsGridPt st) in
       let gridPt := (1 + tsGridPt st)%nat in
       let num := (1 + tsNum st)%nat in
       do (work, st) <-
         (if (Z.of_nat num mod tNumGrid =? 0)%Z then
            do (mat1, mat2) <- t_split (tsSplits st);
            Ok (mkTWork mat1 mat2 0, mkTState 1 num diff mat1 mat2 (1 + tsSplits st))
          else Ok (work, mkTState gridPt num diff (tsMat1 st) (tsMat2 st) (tsSplits st)));
       Ok (if (Z.of_nat (tsGridPt st) <=? tNumGrid)%Z then TSend work st else t_loop st))
    with Ok m => m | _ => TPanic end.

  (** one step of the system; channels are unbuffered.  VTick: the ticker
      fires (only a line is printed). *)
  Inductive tchoice := VStart | VGive (k : nat) | VCompute (k : nat) | VTake (k : nat) | VTick.

  Definition t_step (ch : tchoice) (c : TPool N) : option (TPool N) :=
    match ch with
    | VStart =>
      match tpMain c with
      | TSpawn i gridPt mat1 mat2 =>
        Some (mkTPool (TSend0 i (mkTWork mat1 mat2 gridPt) (1 + gridPt) mat1 mat2) (tpWorkers c ++ [TIdle]))
      | _ => None
      end
    | VGive k =>
      match nth_error (tpWorkers c) k with
      | Some TIdle =>
        match tpMain c with
        | TSend0 i w gridPt mat1 mat2 => Some (mkTPool (t_spawn (1 + i) gridPt mat1 mat2) (upd (tpWorkers c) k (TBusy w)))
        | TSend w st => Some (mkTPool (t_loop st) (upd (tpWorkers c) k (TBusy w)))
        | _ => None
        end
      | _ => None
      end
    | VCompute k =>
      match tpMain c, nth_error (tpWorkers c) k with
      | TPanic, _ => None
      | _, Some (TBusy w) =>
        match CalculateFNormDiff (twMat1 w) (twMat2 w) (Z.of_nat (twGr w)) step with
        | Ok value => Some (mkTPool (tpMain c) (upd (tpWorkers c) k (TBlocked value (twGr w))))
        | _ => Some (mkTPool TPanic (tpWorkers c))
        end
      | _, _ => None
      end
    | VTake k =>
      match tpMain c, nth_error (tpWorkers c) k with
      | TRecv st, Some (TBlocked value g) => Some (mkTPool (t_recv value g st) (upd (tpWorkers c) k TIdle))
      | _, _ => None
      end
    | VTick => match tpMain c with TRecv _ => Some c | _ => None end
    end.

  (** thresholdCov.go:54-73 *)
  Definition t_init : TPool N :=
    mkTPool (match t_split 0 with Ok (mat1, mat2) => t_spawn 0 0 mat1 mat2 | _ => TPanic end) [].

  Fixpoint t_run (l : list tchoice) (c : TPool N) : option (TPool N) :=
    match l with [] => Some c | ch :: l => match t_step ch c with Some c => t_run l c | None => None end end.
End Search.

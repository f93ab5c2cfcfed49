(** Model of the worker pool of LassoCrdDescPath
    (/repo/featselect/lassoCrdDesc.go:141-256). *)
From Verif Require Import Base Num Mat Model_Node Model_Util Model_Fit Model_Norm Model_Cov Model_Crd.

(** lassoCrdDesc.go:142-151 (LassoCrdWorkload): the fields that differ from
    one item to the next; dset, cov, maxIter and tol are parameters of the
    system below and corr, a pointer shared by all items, is part of its
    state *)
Record Workload (N : Num) := mkWork { wkX0 : list N; wkLamb : N; wkIdx : nat }.
Arguments mkWork {N} _ _ _. Arguments wkX0 {N} _. Arguments wkLamb {N} _. Arguments wkIdx {N} _.

(** lassoCrdDesc.go:154-157 (LassoRes) *)
Record LassoRes (N : Num) := mkRes { lrNode : LassoLarsNode N; lrIdx : nat }.
Arguments mkRes {N} _ _. Arguments lrNode {N} _. Arguments lrIdx {N} _.

(** lassoCrdDesc.go:160-177: a goroutine running PerformLassoCrd waits for
    work, computes, or waits for its result to be taken *)
Inductive Worker (N : Num) := WIdle | WBusy (w : Workload N) | WBlocked (r : LassoRes N).
Arguments WIdle {N}. Arguments WBusy {N} _. Arguments WBlocked {N} _.

(** lassoCrdDesc.go:162-174: the computation; also returns the correction as
    left behind.  It is taken as atomic here: for a correction with state
    (CLasso) the Go code has a data race, and the executions of the model are
    the ones without overlap. *)
Definition perform {N : Num} (get : Mat N -> res (Mat N)) (dset : NormalizedData N) (maxIter : Z) (tol : N)
  (corr : Correction N) (w : Workload N) : res (LassoRes N * Correction N) :=
  do (coeff, _, corr, _) <- LassoCrdDesc get dset (wkLamb w) (Some (wkX0 w)) maxIter tol corr;
  do nd <- crd_node coeff (wkLamb w);
  Ok (mkRes nd (wkIdx w), corr).

(** where the calling goroutine is: lassoCrdDesc.go:198-199 (about to start
    worker i), 211 (sending the first items), 216-217 (receiving), 244
    (sending a further item), 255 (returned), or a run time panic *)
Inductive MainPC (N : Num) :=
| PSpawn (i : nat) (avail : list nat)
| PSend0 (i : nat) (w : Workload N) (avail : list nat)
| PRecv (nodes : list (option (LassoLarsNode N))) (avail : list nat) (numReceive highest : nat)
| PSend (w : Workload N) (nodes : list (option (LassoLarsNode N))) (avail : list nat) (numReceive highest : nat)
| PDone (nodes : list (LassoLarsNode N))
| PPanic.
Arguments PSpawn {N} _ _. Arguments PSend0 {N} _ _ _. Arguments PRecv {N} _ _ _ _.
Arguments PSend {N} _ _ _ _ _. Arguments PDone {N} _. Arguments PPanic {N}.

Record Pool (N : Num) := mkPool { plMain : MainPC N; plWorkers : list (Worker N); plCorr : Correction N }.
Arguments mkPool {N} _ _ _. Arguments plMain {N} _. Arguments plWorkers {N} _. Arguments plCorr {N} _.

(** lassoCrdDesc.go:185-188 *)
Definition avail0 (L : nat) : list nat := map (fun i => (L - i - 1)%nat) (seq 0 L).

(** lassoCrdDesc.go:190-194 *)
Definition numWorkers (L : nat) : nat := if (L <? 10)%nat then L else 10%nat.

(** lassoCrdDesc.go:232, 250, reading nodes[i].Selection: an index error or a nil dereference panics *)
Definition node_at {N : Num} (nodes : list (option (LassoLarsNode N))) (i : nat) : res (LassoLarsNode N) :=
  do o <- getn nodes i; match o with Some nd => Ok nd | None => Panic end.

(** lassoCrdDesc.go:248-254 *)
Fixpoint first_with_features {N : Num} (nodes : list (option (LassoLarsNode N))) (i : nat) : res nat :=
  match nodes with
  | [] => Ok 0%nat
  | None :: _ => Panic
  | Some nd :: t => if (0 <? length (lnSelection nd))%nat then Ok i else first_with_features t (S i)
  end.

(** lassoCrdDesc.go:248-255 *)
Definition path_finish {N : Num} (nodes : list (option (LassoLarsNode N))) : MainPC N :=
  match
    (do f <- first_with_features nodes 0;
     for_each (skipn f nodes) (fun o l => match o with Some nd => Ok (l ++ [nd]) | None => Panic end) [])
  with Ok l => PDone l | _ => PPanic end.

(** lassoCrdDesc.go:216: the loop test *)
Definition path_loop {N : Num} (L : nat) (nodes : list (option (LassoLarsNode N))) (avail : list nat) (numReceive highest : nat)
  : MainPC N :=
  if (numReceive <? L)%nat then PRecv nodes avail numReceive highest else path_finish nodes.

(** lassoCrdDesc.go:198: the test of the first loop *)
Definition path_spawn {N : Num} (L i : nat) (avail : list nat) : MainPC N :=
  if (i <? numWorkers L)%nat then PSpawn i avail
  else path_loop L (repeat None L) avail 0 0.

(** lassoCrdDesc.go:201-210: the first items *)
Definition path_work0 {N : Num} (lambs : list N) (nFeat i : nat) (avail : list nat) : MainPC N :=
  match (do idx <- getn avail 0; do lamb <- getn lambs idx; Ok (mkWork (repeat n0 nFeat) lamb idx)) with
  | Ok w => PSend0 i w (tl avail)
  | _ => PPanic
  end.

(** lassoCrdDesc.go:217-243: what is done with a result.  The Printf of line
    226 reads fields only. *)
Definition path_recv {N : Num} (lambs : list N) (nFeat : nat) (r : LassoRes N)
  (nodes : list (option (LassoLarsNode N))) (avail : list nat) (numReceive highest : nat) : MainPC N :=
  let L := length lambs in
  let pos := (Z.of_nat L - Z.of_nat (lrIdx r) - 1)%Z in
  match
    (do nodes <- setz nodes pos (Some (lrNode r));
     let highest := if (highest <? lrIdx r)%nat then Z.to_nat pos else highest in
     let numReceive := S numReceive in
     if (0 <? length avail)%nat then
       do hnode <- node_at nodes highest;
       do x0 <- for_eachi 0 (lnSelection hnode) (fun i s x0 => do c <- getn (lnCoeff hnode) i; setz x0 s c) (repeat n0 nFeat);
       do idx <- getn avail 0;
       do lamb <- getn lambs idx;
       Ok (PSend (mkWork x0 lamb idx) nodes (tl avail) numReceive highest)
     else Ok (path_loop L nodes avail numReceive highest))
  with Ok m => m | _ => PPanic end.

Section Pool.
  Context {N : Num}.
  Variable get : Mat N -> res (Mat N).
  Variable dset : NormalizedData N.
  Variable lambs : list N.
  Variable maxIter : Z.
  Variable tol : N.

  Let L := length lambs.
  Let nFeat := mcols (ndX dset).

  (** one step of the system.  Channels are unbuffered: a send and a receive
      happen together.  [Start]: the calling goroutine starts a worker and
      prepares its first item; [Give i]: it hands the item to the waiting
      worker i; [Compute i]; [Take i]: it takes the result of worker i. *)
  Inductive choice := Start | Give (i : nat) | Compute (i : nat) | Take (i : nat).

  Definition path_step (ch : choice) (c : Pool N) : option (Pool N) :=
    match ch with
    | Start =>
      match plMain c with
      | PSpawn i avail => Some (mkPool (path_work0 lambs nFeat i avail) (plWorkers c ++ [WIdle]) (plCorr c))
      | _ => None
      end
    | Give k =>
      match nth_error (plWorkers c) k with
      | Some WIdle =>
        match plMain c with
        | PSend0 i w avail => Some (mkPool (path_spawn L (S i) avail) (upd (plWorkers c) k (WBusy w)) (plCorr c))
        | PSend w nodes avail nrec h => Some (mkPool (path_loop L nodes avail nrec h) (upd (plWorkers c) k (WBusy w)) (plCorr c))
        | _ => None
        end
      | _ => None
      end
    | Compute k =>
      match plMain c, nth_error (plWorkers c) k with
      | PPanic, _ => None
      | _, Some (WBusy w) =>
        match perform get dset maxIter tol (plCorr c) w with
        | Ok (r, corr) => Some (mkPool (plMain c) (upd (plWorkers c) k (WBlocked r)) corr)
        | _ => Some (mkPool PPanic (plWorkers c) (plCorr c))
        end
      | _, _ => None
      end
    | Take k =>
      match plMain c, nth_error (plWorkers c) k with
      | PRecv nodes avail nrec h, Some (WBlocked r) =>
        Some (mkPool (path_recv lambs nFeat r nodes avail nrec h) (upd (plWorkers c) k WIdle) (plCorr c))
      | _, _ => None
      end
    end.

  (** lassoCrdDesc.go:181-197 *)
  Definition path_init (corr : Correction N) : Pool N := mkPool (path_spawn L 0 (avail0 L)) [] corr.

  Fixpoint path_run (l : list choice) (c : Pool N) : option (Pool N) :=
    match l with [] => Some c | ch :: l => match path_step ch c with Some c => path_run l c | None => None end end.
End Pool.

(** lassoCrdDesc.go:38-85 run by two goroutines at a time: all items carry the
    same correction (lines 210, 243), so the passes of one run see the
    correction as left by the other.  The state of each run is a [Crd]; the
    schedule says whose pass comes next.  A pass is taken as atomic here (in
    Go even parts of it can overlap), and a run that has stopped does
    nothing. *)
Fixpoint shared_loop {N : Num} (nr : nat) (cov : Mat N) (XTy : list N) (lamb1 lamb2 tol : N) (schedule : list bool)
  (corr : Correction N) (s1 s2 : Crd N) : res (Crd N * Crd N) :=
  match schedule with
  | [] => Ok (s1, s2)
  | first :: schedule =>
    let st := if first then s1 else s2 in
    if crStop st then shared_loop nr cov XTy lamb1 lamb2 tol schedule corr s1 s2 else
    do st <- crd_iter nr cov XTy (if first then lamb1 else lamb2) tol
      (mkCrd (crBeta st) (crOld st) (crCdb st) (crIter st) (crConv st) corr (crStop st));
    if first then shared_loop nr cov XTy lamb1 lamb2 tol schedule (crCorr st) st s2
    else shared_loop nr cov XTy lamb1 lamb2 tol schedule (crCorr st) s1 st
  end.

(** Model of featselect/searchProgress.go as a transition system in which the
    calls of any number of goroutines interleave statement by statement. *)
From Verif Require Import Base.

Section Progress.
  (** type of BestScore and Log2NumPruned (float64) *)
  Variable N : Type.

  (** searchProgress.go:5-10, the three data fields *)
  Record Fields := mkFields { fBest : N; fExplored : Z; fPruned : N }.

  (** A call of Set (13) or Get (22). *)
  Inductive op := OSet (v : Fields) | OGet.
  (** What a call returns: nothing, or the three values. *)
  Inductive ret := RUnit | RVals (v : Fields).

  (** Where a goroutine is.  [PSet0 v] .. [PSet3 v]: inside Set, lock held,
      0..3 of the assignments 16-18 done; [PGet0] .. [PGet3]: inside Get, read
      lock held, 0..3 of the operands of line 25 evaluated; [PSetDone],
      [PGetDone]: deferred unlock done, not yet returned to the caller. *)
  Inductive PC :=
  | PIdle
  | PSetWait (v : Fields) | PSet0 (v : Fields) | PSet1 (v : Fields) | PSet2 (v : Fields)
  | PSet3 (v : Fields) | PSetDone (v : Fields)
  | PGetWait | PGet0 | PGet1 (b : N) | PGet2 (b : N) (e : Z) | PGet3 (b : N) (e : Z) (p : N)
  | PGetDone (v : Fields).

  (** sync.RWMutex: a writer flag and a number of readers.  Simplified: the
      real lock also makes new readers wait behind a waiting writer, so every
      execution of the real lock is one of these. *)
  Record State := mkState {
    stFields : Fields; stWriter : bool; stReaders : nat; stThreads : list PC }.

  (** Calls and returns, as the callers observe them. *)
  Inductive event := EInv (t : nat) (o : op) | ERet (t : nat) (o : op) (r : ret).

  (** A step of the scheduler: goroutine [t] calls, or runs its next statement. *)
  Inductive choice := CCall (t : nat) (o : op) | CRun (t : nat).

  (** searchProgress.go:13-19, 22-26 (Set and Get), one statement of
      goroutine [t]; [None]: it cannot run now (it is idle, or its lock request
      is blocked). *)
  Definition run_pc (st : State) (t : nat) (pc : PC) : option (State * list event) :=
    let '(mkState f w r ths) := st in
    let go f' w' r' pc' := Some (mkState f' w' r' (upd ths t pc'), []) in
    match pc with
    | PIdle => None
    | PSetWait v => if (negb w && (r =? 0))%bool then go f true r (PSet0 v) else None
    | PSet0 v => go (mkFields (fBest v) (fExplored f) (fPruned f)) w r (PSet1 v)
    | PSet1 v => go (mkFields (fBest f) (fExplored v) (fPruned f)) w r (PSet2 v)
    | PSet2 v => go (mkFields (fBest f) (fExplored f) (fPruned v)) w r (PSet3 v)
    | PSet3 v => go f false r (PSetDone v)
    | PSetDone v => Some (mkState f w r (upd ths t PIdle), [ERet t (OSet v) RUnit])
    | PGetWait => if negb w then go f w (S r) PGet0 else None
    | PGet0 => go f w r (PGet1 (fBest f))
    | PGet1 b => go f w r (PGet2 b (fExplored f))
    | PGet2 b e => go f w r (PGet3 b e (fPruned f))
    | PGet3 b e p => go f w (pred r) (PGetDone (mkFields b e p))
    | PGetDone v => Some (mkState f w r (upd ths t PIdle), [ERet t OGet (RVals v)])
    end.

  (** One scheduler step. *)
  Definition step (st : State) (c : choice) : option (State * list event) :=
    match c with
    | CCall t o =>
        match nth_error (stThreads st) t with
        | Some PIdle =>
            Some (mkState (stFields st) (stWriter st) (stReaders st)
                    (upd (stThreads st) t (match o with OSet v => PSetWait v | OGet => PGetWait end)),
                  [EInv t o])
        | _ => None
        end
    | CRun t =>
        match nth_error (stThreads st) t with
        | Some pc => run_pc st t pc
        | None => None
        end
    end.

  (** A schedule: the final state and everything the callers observed. *)
  Fixpoint exec (st : State) (cs : list choice) : option (State * list event) :=
    match cs with
    | [] => Some (st, [])
    | c :: cs' =>
        match step st c with
        | None => None
        | Some (st1, e1) =>
            match exec st1 cs' with
            | None => None
            | Some (st2, e2) => Some (st2, e1 ++ e2)
            end
        end
    end.

  (** [var progress SearchProgress] (bnb.go:88) shared by [n] goroutines:
      [z] is the zero value of the fields. *)
  Definition initial (z : Fields) (n : nat) : State := mkState z false 0 (repeat PIdle n).
End Progress.

Arguments mkFields {N} _ _ _. Arguments fBest {N} _. Arguments fExplored {N} _.
Arguments fPruned {N} _.
Arguments OSet {N} _. Arguments OGet {N}. Arguments RUnit {N}. Arguments RVals {N} _.
Arguments PIdle {N}. Arguments PSetWait {N} _. Arguments PSet0 {N} _. Arguments PSet1 {N} _.
Arguments PSet2 {N} _. Arguments PSet3 {N} _. Arguments PSetDone {N} _.
Arguments PGetWait {N}. Arguments PGet0 {N}. Arguments PGet1 {N} _. Arguments PGet2 {N} _ _.
Arguments PGet3 {N} _ _ _. Arguments PGetDone {N} _.
Arguments mkState {N} _ _ _ _. Arguments stFields {N} _. Arguments stWriter {N} _.
Arguments stReaders {N} _. Arguments stThreads {N} _.
Arguments EInv {N} _ _. Arguments ERet {N} _ _ _. Arguments CCall {N} _ _. Arguments CRun {N} _.
Arguments run_pc {N} _ _ _. Arguments step {N} _ _. Arguments exec {N} _ _.
Arguments initial {N} _ _.

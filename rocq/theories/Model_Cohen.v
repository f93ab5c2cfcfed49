(** Model of /repo/featselect/cohens_kappa.go and of the targets in
    /repo/featselect/lassoCrdDesc.go:258-355. *)
From Verif Require Import Base Num Mat Model_Node Model_Util Model_Fit Model_Norm Model_Cov Model_Crd.

(** cohens_kappa.go:11-23 (CohensKappaTarget): what the code uses of a target.
    [tgInit] is the state of the object before its first use and [tgSelect] is
    GetSelection, which may change that state.  [H] is the type of the map of
    hyper-parameters.  GetSelection is assumed not to write to its argument. *)
Record Target (S H : Type) := mkTarget {
  tgRows : nat; tgCols : nat;
  tgInit : S;
  tgSelect : S -> list nat -> res (list Z * S);
  tgHyper : H }.
Arguments mkTarget {S H} _ _ _ _ _. Arguments tgRows {S H} _. Arguments tgCols {S H} _.
Arguments tgInit {S H} _. Arguments tgSelect {S H} _ _ _. Arguments tgHyper {S H} _.

(** cohens_kappa.go:26-44.  [rnd i] are the random numbers of sample i (see
    Model_Cov.v).  Besides the returned value the result has the pairs of
    index sets passed to GetSelection. *)
Definition GetCohensKappa {N : Num} {S H : Type} (rnd : nat -> nat -> nat) (numSamples : Z) (target : Target S H)
  : res (N * list (list nat * list nat)) :=
  let nr := tgRows target in
  let nc := tgCols target in
  do indices <- for_loop 0 nr (fun i l => setn l i i) (repeat 0%nat nr);
  do (kappa, _, _, calls) <- for_loop 0 (Z.to_nat numSamples)
    (fun i (st : N * list nat * S * list (list nat * list nat)) =>
      let '(kappa, indices, s, calls) := st in
      do indices <- Shuffle (rnd i) indices;
      let n := (nr / 2)%nat in
      do (selection1, s) <- tgSelect target s (firstn n indices);
      do (selection2, s) <- tgSelect target s (skipn n indices);
      Ok ((kappa + CohenKappa selection1 selection2 (Z.of_nat nc))%num, indices, s,
          calls ++ [(firstn n indices, skipn n indices)]))
    (n0, indices, tgInit target, []);
  Ok ((kappa / nofZ numSamples)%num, calls).

(** ** The worker pool *)

(** cohens_kappa.go:54-59: a goroutine running CohensKappaWorker waits for
    work, computes, or waits for its result to be taken.  A work item is the
    position of its target in [targets] (targets[i] being distinct objects). *)
Inductive CWorker (N : Num) := CIdle | CBusy (t : nat) | CBlocked (t : nat) (kappa : N).
Arguments CIdle {N}. Arguments CBusy {N} _. Arguments CBlocked {N} _ _.

(** cohens_kappa.go:66, 81-86: the variables of the second loop.  StringRep of a target
    is represented by the position of the target. *)
Record CState (N : Num) (H : Type) := mkCState {
  csNext : nat; csNum : nat; csBestKappa : N; csBest : option H;
  csKappas : list N; csReps : list nat }.
Arguments mkCState {N H} _ _ _ _ _ _. Arguments csNext {N H} _. Arguments csNum {N H} _.
Arguments csBestKappa {N H} _. Arguments csBest {N H} _. Arguments csKappas {N H} _. Arguments csReps {N H} _.

(** where the calling goroutine is: cohens_kappa.go:67-68 (about to start
    worker i), 76 (sending one of the first items), 88-89 (receiving), 108
    (sending a further item), 120 (returned; the second component is the
    summary printed in lines 117-119), or a run time panic *)
Inductive CMain (N : Num) (H : Type) :=
| CSpawn (i next : nat)
| CSend0 (i t next : nat)
| CRecv (st : CState N H)
| CSend (t : nat) (st : CState N H)
| CDone (best : option H) (summary : list (nat * N))
| CPanic.
Arguments CSpawn {N H} _ _. Arguments CSend0 {N H} _ _ _. Arguments CRecv {N H} _.
Arguments CSend {N H} _ _. Arguments CDone {N H} _ _. Arguments CPanic {N H}.

(** [cpEvals] records the calls of GetCohensKappa that returned so far, with their results *)
Record CPool (N : Num) (H : Type) := mkCPool {
  cpMain : CMain N H; cpWorkers : list (CWorker N); cpEvals : list (nat * N) }.
Arguments mkCPool {N H} _ _ _. Arguments cpMain {N H} _. Arguments cpWorkers {N H} _. Arguments cpEvals {N H} _.

(** cohens_kappa.go:63 *)
Definition cohenWorkers : nat := 16.

Section Pool.
  Context {N : Num} {S H : Type}.
  (** sort.Sort, see Model_Util.v *)
  Variable srt : list (N * nat) -> list (N * nat).
  Variable numSamples : Z.
  Variable targets : list (Target S H).

  Let L := length targets.

  (** cohens_kappa.go:113-119 *)
  Definition cohen_finish (st : CState N H) : CMain N H :=
    match
      (do srt <- Argsort srt (csKappas st);
       for_loop 0 (length (csKappas st)) (fun i out =>
         do k <- getn srt i;
         do r <- getn (csReps st) k;
         do v <- getn (csKappas st) k;
         Ok (out ++ [(r, v)])) [])
    with Ok summary => CDone (csBest st) summary | _ => CPanic end.

  (** cohens_kappa.go:87: the loop test *)
  Definition cohen_loop (st : CState N H) : CMain N H :=
    if (csNum st <? L)%nat then CRecv st else cohen_finish st.

  (** cohens_kappa.go:67: the test of the first loop, and 80-85 *)
  Definition cohen_spawn (i next : nat) : CMain N H :=
    if (i <? cohenWorkers)%nat then CSpawn i next
    else cohen_loop (mkCState next 0 n0 None (repeat n0 L) (repeat 0%nat L)).

  (** cohens_kappa.go:70-78, after the worker has been started *)
  Definition cohen_work0 (i next : nat) : CMain N H :=
    if (next <? L)%nat then CSend0 i next (1 + next)%nat else cohen_spawn (1 + i)%nat next.

  (** cohens_kappa.go:88-110: what is done with a result.  HyperParameters and
      StringRep do not change the target. *)
  Definition cohen_recv (t : nat) (kappa : N) (st : CState N H) : CMain N H :=
    match
      (do tgt <- getn targets t;
       do kappas <- setn (csKappas st) (csNum st) kappa;
       do reps <- setn (csReps st) (csNum st) t;
       let num := (1 + csNum st)%nat in
       let '(bestKappa, best) :=
         if nltb (csBestKappa st) kappa then (kappa, Some (tgHyper tgt)) else (csBestKappa st, csBest st) in
       if (csNext st <? L)%nat
       then Ok (CSend (csNext st) (mkCState (1 + csNext st)%nat num bestKappa best kappas reps))
       else Ok (cohen_loop (mkCState (csNext st) num bestKappa best kappas reps)))
    with Ok m => m | _ => CPanic end.

  (** one step of the system; channels are unbuffered.  The random numbers a
      worker draws are part of the choice (rand is shared by all goroutines,
      so they depend on the schedule).  GetCohensKappa is taken as atomic: it
      only touches its own target. *)
  Inductive cchoice := KStart | KGive (i : nat) | KCompute (i : nat) (rnd : nat -> nat -> nat) | KTake (i : nat).

  Definition cohen_step (ch : cchoice) (c : CPool N H) : option (CPool N H) :=
    match ch with
    | KStart =>
      match cpMain c with
      | CSpawn i next => Some (mkCPool (cohen_work0 i next) (cpWorkers c ++ [CIdle]) (cpEvals c))
      | _ => None
      end
    | KGive k =>
      match nth_error (cpWorkers c) k with
      | Some CIdle =>
        match cpMain c with
        | CSend0 i t next => Some (mkCPool (cohen_spawn (1 + i) next) (upd (cpWorkers c) k (CBusy t)) (cpEvals c))
        | CSend t st => Some (mkCPool (cohen_loop st) (upd (cpWorkers c) k (CBusy t)) (cpEvals c))
        | _ => None
        end
      | _ => None
      end
    | KCompute k rnd =>
      match cpMain c, nth_error (cpWorkers c) k with
      | CPanic, _ => None
      | _, Some (CBusy t) =>
        match (do tgt <- getn targets t; GetCohensKappa rnd numSamples tgt) with
        | Ok (kappa, _) => Some (mkCPool (cpMain c) (upd (cpWorkers c) k (CBlocked t kappa)) (cpEvals c ++ [(t, kappa)]))
        | _ => Some (mkCPool CPanic (cpWorkers c) (cpEvals c))
        end
      | _, _ => None
      end
    | KTake k =>
      match cpMain c, nth_error (cpWorkers c) k with
      | CRecv st, Some (CBlocked t kappa) =>
        Some (mkCPool (cohen_recv t kappa st) (upd (cpWorkers c) k CIdle) (cpEvals c))
      | _, _ => None
      end
    end.

  (** cohens_kappa.go:62-66 *)
  Definition cohen_init : CPool N H := mkCPool (cohen_spawn 0 0) [] [].

  Fixpoint cohen_run (l : list cchoice) (c : CPool N H) : option (CPool N H) :=
    match l with [] => Some c | ch :: l => match cohen_step ch c with Some c => cohen_run l c | None => None end end.
End Pool.

(** ** The lasso targets *)

(** lassoCrdDesc.go:259-268: the fields GetSelection changes: x0 and the state
    of the correction *)
Record LassoCohen (N : Num) := mkLC { lcX0 : list N; lcCorr : Correction N }.
Arguments mkLC {N} _ _. Arguments lcX0 {N} _. Arguments lcCorr {N} _.

(** lassoCrdDesc.go:285-313.  The field lasso is LassoCrdDesc, as set by
    NewPureLassoCohen (272-276). *)
Definition lasso_select {N : Num} (get : Mat N -> res (Mat N)) (dX : Mat N) (dy : list N) (lamb : N)
  (maxIter : Z) (tol : N) (p : LassoCohen N) (indices : list nat) : res (list Z * LassoCohen N) :=
  let nc := mcols dX in
  do X <- new_dense (length indices) nc;
  let x0 := if negb (length (lcX0 p) =? nc)%nat then repeat n0 nc else lcX0 p in
  do (X, y) <- for_eachi 0 indices (fun i idx (st : Mat N * list N) =>
    let '(X, y) := st in
    do X <- for_loop 0 nc (fun j X => do v <- mat_at dX idx j; mat_set X i j v) X;
    do v <- getn dy idx;
    do y <- setn y i v;
    Ok (X, y)) (X, repeat n0 (length indices));
  do normD <- NewNormalizedData X y;
  do (coeff, _, corr, _) <- LassoCrdDesc get normD lamb (Some x0) maxIter tol (lcCorr p);
  do selection <- for_eachi 0 coeff (fun i c l =>
    Ok (if nltb lassoCrdDescZero (nabs c) then l ++ [Z.of_nat i] else l)) [];
  Ok (selection, mkLC coeff corr).

(** lassoCrdDesc.go:316-320: the map with the single key lamb.
    lassoCrdDesc.go:329-355 (cLassoCohen): GetX and GetSelection are those of
    PLasso; Eta only appears among the hyper-parameters. *)
Definition pure_target {N : Num} get (dX : Mat N) dy (lamb : N) maxIter tol (p : LassoCohen N) : Target (LassoCohen N) (list N) :=
  mkTarget (mrows dX) (mcols dX) p (lasso_select get dX dy lamb maxIter tol) [lamb].
Definition classo_target {N : Num} get (dX : Mat N) dy (lamb : N) maxIter tol (eta : N) (p : LassoCohen N) : Target (LassoCohen N) (list N) :=
  mkTarget (mrows dX) (mcols dX) p (lasso_select get dX dy lamb maxIter tol) [lamb; eta].

(** Model of featselect/optimize.go:66-298: SelectModel with its score
    workers and child workers, BruteForceSelect, CreateChild, CleanQueue and
    RemoveLeastPromising.

    Goroutines communicate over unbuffered channels: a send and the matching
    receive are one step.  Every step is named by a [label]; [exec P s l] is
    [None] when the step is not possible in [s], [Some Panic] when it makes a
    goroutine panic.  A schedule is a list of labels, so all interleavings are
    covered.  Memory is sequentially consistent; Highscore.Insert is one step
    (its intermediate list states are not modelled), while the two reads of the
    highscore list in CreateChild (BestScore, then Len) are separate steps. *)
From Verif Require Import Base Num Mat Model_Node.

Section Search.
  Variable N : Num.

  (** The data of one search.  [pFit m] stands for the coefficients and score
      ScoreWorker computes for a non-empty model (optimize.go:224-227: design
      matrix, Fit, Rss, -Aicc), [pBounds m l] for BoundsAICC(m, l, X, y); both
      are deterministic functions of the model (they are given concretely in
      Model_Fit.v). *)
  Record problem := mkProblem {
    pRows : nat;
    pCols : nat;
    pFit : list bool -> list N * N;
    pBounds : list bool -> Z -> N * N;
    pRoot : list bool;
    pMaxQ : Z;
    pCutoff : N
  }.

  (** optimize.go:210-215 isNewNode *)
  Definition isNewNode (n : Node N) : bool :=
    if (ndLevel n =? 0)%Z then true else ndWasFlipped n.

  (** the assignments to n in ScoreWorker, optimize.go:221-230 *)
  Definition score_node (P : problem) (n : Node N) : Node N :=
    if ((0 <? NumFeatures (ndModel n))%nat && isNewNode n)%bool then
      let '(c, s) := pFit P (ndModel n) in
      mkNode (ndModel n) c (ndLevel n) (ndLower n) (ndUpper n) s (ndWasFlipped n)
    else mkNode (ndModel n) (ndCoeff n) (ndLevel n) (ndLower n) (ndUpper n) (nneg nmaxf)
                (ndWasFlipped n).

  Definition with_bounds (n : Node N) (b : N * N) : Node N :=
    mkNode (ndModel n) (ndCoeff n) (ndLevel n) (fst b) (snd b) (ndScore n) (ndWasFlipped n).

  (** optimize.go:238-250: child node with its bounds; [None]: too many features *)
  Definition make_child (P : problem) (parent : Node N) (flip : bool) : res (option (Node N)) :=
    do child <- GetChildNode parent flip;
    let n := NumFeatures (ndModel child) in
    if (n <? pRows P)%nat then
      if (0 <? n)%nat then
        Ok (Some (with_bounds child (pBounds P (ndModel child) (ndLevel child))))
      else Ok (Some (with_bounds child (ndec (-1) 100, ndec 1 100)))
    else Ok None.

  (** optimize.go:237-256 CreateChild as one call, nobody else touching [h].
      [cutoff] is a parameter of the Go function that its body does not use. *)
  Definition CreateChild (P : problem) (node : Node N) (flip : bool) (cutoff : N)
      (h : Highscore N) : res (option (Node N)) :=
    do oc <- make_child P node flip;
    match oc with
    | None => Ok None
    | Some child =>
        if (nltb (nneg (hsBestScore h)) (ndLower child) && (0 <? hsLen h)%Z)%bool
        then Ok None else Ok (Some child)
    end.

  (** optimize.go:278-287 CleanQueue; the container/list is a list of nodes *)
  Fixpoint CleanQueue (q : list (Node N)) (threshold : N) : list (Node N) :=
    match q with
    | [] => []
    | item :: next =>
        if nltb threshold (ndLower item) then CleanQueue next threshold
        else item :: CleanQueue next threshold
    end.

  (** optimize.go:291-298 RemoveLeastPromising *)
  Definition RemoveLeastPromising (q : list (Node N)) : list (Node N) :=
    let sum := fold_left (fun avg item => nadd avg (ndLower item)) q n0 in
    CleanQueue q (ndiv sum (nofnat (length q))).

  (** ** Goroutine states *)

  (** ScoreWorker, optimize.go:218-233 *)
  Inductive swst :=
  | SWIdle                (* receiving on nodeCh *)
  | SWBusy (n : Node N)   (* computing the score *)
  | SWSend (n : Node N)   (* sending on scoreCh *)
  | SWDone.               (* nodeCh was closed *)

  (** CreateChildNodes, optimize.go:259-274, with CreateChild inlined *)
  Inductive cwst :=
  | CWIdle                                       (* receiving on parentCh *)
  | CWCreate (p : Node N) (flip : bool)          (* before CreateChild(p, flip) *)
  | CWReadBest (c p : Node N) (flip : bool)      (* before h.BestScore(), line 252 *)
  | CWReadLen (c p : Node N) (flip : bool) (e : bool)
      (* Lower > -BestScore() was true; before h.Len().  Ghost [e]: the list was
         empty when BestScore was read *)
  | CWSendNode (c p : Node N) (flip : bool)      (* nodeCh <- c, line 268 *)
  | CWPrune (p : Node N) (flip : bool)           (* pruneCh <- p.Level, line 266 *)
  | CWReady                                      (* ready <- true, line 272 *)
  | CWDone.                                      (* parentCh was closed *)

  (** the goroutine running SelectModel, optimize.go:114-171 *)
  Inductive mst :=
  | MRoot                        (* wantChildNode <- rootNode, line 114 *)
  | MSelect                      (* select, line 119 *)
  | MWant (n : option (Node N))  (* wantChildNode <- node, line 164 *)
  | MClose (k : nat).            (* after the loop; [k] of the four channels
                                    (node, wantChildNode, pruneCh, score) closed *)

  Record st := mkSt {
    sMain : mst;
    sQueue : list (Node N);
    sInProg : Z;
    sCurBest : N;
    sHs : Highscore N;
    sChecked : Z;
    sLog2 : N;
    sProgress : N * Z * N;          (* last values given to sp.Set, line 122 *)
    sSW : list swst;
    sCW : list cwst;
    (* ghost state: never read by the code below *)
    gInserted : list (Node N);      (* arguments of highscore.Insert, oldest first *)
    gScored : list (list bool);     (* models fitted by score workers *)
    gPruned : list Z;               (* values received from pruneCh *)
    gRaced : bool;                  (* some child was pruned after reading the empty list *)
    gTrimmed : bool                 (* RemoveLeastPromising was called *)
  }.

  Inductive label :=
  | LRoot (i : nat)          (* child worker i receives rootNode *)
  | LScore (j : nat)         (* main receives from score worker j *)
  | LPrune (i : nat)         (* main receives from pruneCh *)
  | LReady (i : nat)         (* main receives from childReady *)
  | LWant (i : nat)          (* child worker i receives from wantChildNode *)
  | LNode (i j : nat)        (* child worker i sends a node to score worker j *)
  | LCompute (j : nat)       (* score worker j computes *)
  | LChild (i : nat)         (* child worker i takes a local step *)
  | LClose                   (* main closes the next channel *)
  | LExitSW (j : nat)        (* score worker sees nodeCh closed *)
  | LExitCW (i : nat).       (* child worker sees parentCh closed *)

  (** optimize.go:92 *)
  Definition root_node (P : problem) : Node N := NewNode 0 (pRoot P).

  Definition set_cw (s : st) (i : nat) (c : cwst) : st :=
    mkSt (sMain s) (sQueue s) (sInProg s) (sCurBest s) (sHs s) (sChecked s) (sLog2 s)
         (sProgress s) (sSW s) (upd (sCW s) i c)
         (gInserted s) (gScored s) (gPruned s) (gRaced s) (gTrimmed s).

  Definition set_sw (s : st) (j : nat) (w : swst) : st :=
    mkSt (sMain s) (sQueue s) (sInProg s) (sCurBest s) (sHs s) (sChecked s) (sLog2 s)
         (sProgress s) (upd (sSW s) j w) (sCW s)
         (gInserted s) (gScored s) (gPruned s) (gRaced s) (gTrimmed s).

  Definition set_main (s : st) (m : mst) (p : Z) : st :=
    mkSt m (sQueue s) p (sCurBest s) (sHs s) (sChecked s) (sLog2 s)
         (sProgress s) (sSW s) (sCW s)
         (gInserted s) (gScored s) (gPruned s) (gRaced s) (gTrimmed s).

  Definition set_raced (s : st) (b : bool) : st :=
    mkSt (sMain s) (sQueue s) (sInProg s) (sCurBest s) (sHs s) (sChecked s) (sLog2 s)
         (sProgress s) (sSW s) (sCW s)
         (gInserted s) (gScored s) (gPruned s) b (gTrimmed s).

  Definition add_scored (s : st) (l : list (list bool)) : st :=
    mkSt (sMain s) (sQueue s) (sInProg s) (sCurBest s) (sHs s) (sChecked s) (sLog2 s)
         (sProgress s) (sSW s) (sCW s)
         (gInserted s) (gScored s ++ l) (gPruned s) (gRaced s) (gTrimmed s).

  (** state of a child worker after it received [parent], lines 261-263, 272 *)
  Definition cw_start (parent : option (Node N)) : cwst :=
    match parent with Some p => CWCreate p false | None => CWReady end.

  (** what follows the message for child [flip] of [p], lines 263-272 *)
  Definition cw_next (p : Node N) (flip : bool) : cwst :=
    if flip then CWReady else CWCreate p true.

  (** optimize.go:120-146: the score case *)
  Definition main_score (P : problem) (s : st) (ns : Node N) : res st :=
    let p := (sInProg s - 1)%Z in
    let prog := (hsBestScore (sHs s), sChecked s, sLog2 s) in
    do r <- (if isNewNode ns then
               do h <- hsInsert (sHs s) ns;
               if nltb (sCurBest s) (hsBestScore h)
               then Ok (h, (sChecked s + 1)%Z, hsBestScore h,
                        CleanQueue (sQueue s) (nneg (hsBestScore h)))
               else Ok (h, (sChecked s + 1)%Z, sCurBest s, sQueue s)
             else Ok (sHs s, sChecked s, sCurBest s, sQueue s));
    let '(h, checked, cur, q1) := r in
    let q2 := if (ndLevel ns <? Z.of_nat (pCols P))%Z then q1 ++ [ns] else q1 in
    let over := (pMaxQ P <? Z.of_nat (length q2))%Z in
    let q3 := if over then RemoveLeastPromising q2 else q2 in
    let stop := ((p <=? 0)%Z && (length q3 =? 0)%nat)%bool in
    Ok (mkSt (if stop then MClose 0 else MSelect) q3 p cur h checked (sLog2 s) prog
             (sSW s) (sCW s)
             (if isNewNode ns then gInserted s ++ [ns] else gInserted s)
             (gScored s) (gPruned s) (gRaced s) (gTrimmed s || over)).

  (** util.go:73-76 NewLog2Pruned; math.Pow(2, x) is [nexp2 x] *)
  Definition NewLog2Pruned (current : N) (numPruned : Z) : N :=
    let diff := nsub (nofZ numPruned) current in
    nadd current (nlog2 (nadd n1 (nexp2 diff))).

  (** optimize.go:148-153: the prune case *)
  Definition main_prune (P : problem) (s : st) (prLevel : Z) : st :=
    let p := (sInProg s - 1)%Z in
    let stop := ((p <=? 0)%Z && (length (sQueue s) =? 0)%nat)%bool in
    mkSt (if stop then MClose 0 else MSelect) (sQueue s) p (sCurBest s) (sHs s) (sChecked s)
         (NewLog2Pruned (sLog2 s) (Z.of_nat (pCols P) - prLevel)) (sProgress s)
         (sSW s) (sCW s)
         (gInserted s) (gScored s) (gPruned s ++ [prLevel]) (gRaced s) (gTrimmed s).

  (** optimize.go:155-163: the childReady case *)
  Definition main_ready (s : st) : st :=
    match sQueue s with
    | [] => set_main s (MWant None) (sInProg s)
    | n :: q =>
        mkSt (MWant (Some n)) q (sInProg s + 2)%Z (sCurBest s) (sHs s) (sChecked s) (sLog2 s)
             (sProgress s) (sSW s) (sCW s)
             (gInserted s) (gScored s) (gPruned s) (gRaced s) (gTrimmed s)
    end.

  (** Closed channels: 0 node, 1 wantChildNode, 2 pruneCh, 3 score. *)
  Definition closed (s : st) (ch : nat) : bool :=
    match sMain s with MClose k => (ch <? k)%nat | _ => false end.

  (** local steps of a child worker, and its sends on closed channels *)
  Definition cw_local (P : problem) (s : st) (i : nat) (c : cwst) : option (res st) :=
    match c with
    | CWCreate p flip =>
        Some (do oc <- make_child P p flip;
              match oc with
              | Some child => Ok (set_cw s i (CWReadBest child p flip))
              | None => Ok (set_cw s i (CWPrune p flip))
              end)
    | CWReadBest c p flip =>
        Some (Ok (if nltb (nneg (hsBestScore (sHs s))) (ndLower c)
                  then set_cw s i (CWReadLen c p flip (hsLen (sHs s) =? 0)%Z)
                  else set_cw s i (CWSendNode c p flip)))
    | CWReadLen c p flip e =>
        Some (Ok (if (0 <? hsLen (sHs s))%Z
                  then set_raced (set_cw s i (CWPrune p flip)) (gRaced s || e)
                  else set_cw s i (CWSendNode c p flip)))
    | CWSendNode _ _ _ => if closed s 0 then Some Panic else None
    | CWPrune _ _ => if closed s 2 then Some Panic else None
    | _ => None
    end.

  Definition exec (P : problem) (s : st) (l : label) : option (res st) :=
    match l with
    | LRoot i =>
        match sMain s, nth_error (sCW s) i with
        | MRoot, Some CWIdle =>
            Some (Ok (set_main (set_cw s i (cw_start (Some (root_node P)))) MSelect 2))
        | _, _ => None
        end
    | LScore j =>
        match sMain s, nth_error (sSW s) j with
        | MSelect, Some (SWSend n) => Some (main_score P (set_sw s j SWIdle) n)
        | MClose k, Some (SWSend n) => if closed s 3 then Some Panic else None
        | _, _ => None
        end
    | LPrune i =>
        match sMain s, nth_error (sCW s) i with
        | MSelect, Some (CWPrune p flip) =>
            Some (Ok (main_prune P (set_cw s i (cw_next p flip)) (ndLevel p)))
        | _, _ => None
        end
    | LReady i =>
        match sMain s, nth_error (sCW s) i with
        | MSelect, Some CWReady => Some (Ok (main_ready (set_cw s i CWIdle)))
        | _, _ => None
        end
    | LWant i =>
        match sMain s, nth_error (sCW s) i with
        | MWant n, Some CWIdle => Some (Ok (set_main (set_cw s i (cw_start n)) MSelect (sInProg s)))
        | _, _ => None
        end
    | LNode i j =>
        if closed s 0 then None else
        match nth_error (sCW s) i, nth_error (sSW s) j with
        | Some (CWSendNode c p flip), Some SWIdle =>
            Some (Ok (set_sw (set_cw s i (cw_next p flip)) j (SWBusy c)))
        | _, _ => None
        end
    | LCompute j =>
        match nth_error (sSW s) j with
        | Some (SWBusy n) =>
            Some (Ok (add_scored (set_sw s j (SWSend (score_node P n)))
                        (if ((0 <? NumFeatures (ndModel n))%nat && isNewNode n)%bool
                         then [ndModel n] else [])))
        | _ => None
        end
    | LChild i =>
        match nth_error (sCW s) i with
        | Some c => cw_local P s i c
        | None => None
        end
    | LClose =>
        match sMain s with
        | MClose k => if (k <? 4)%nat then Some (Ok (set_main s (MClose (S k)) (sInProg s))) else None
        | _ => None
        end
    | LExitSW j =>
        match nth_error (sSW s) j with
        | Some SWIdle => if closed s 0 then Some (Ok (set_sw s j SWDone)) else None
        | _ => None
        end
    | LExitCW i =>
        match nth_error (sCW s) i with
        | Some CWIdle => if closed s 1 then Some (Ok (set_cw s i CWDone)) else None
        | _ => None
        end
    end.

  (** A schedule: [None] when some step was not possible. *)
  Fixpoint run (P : problem) (s : st) (ls : list label) : option (res st) :=
    match ls with
    | [] => Some (Ok s)
    | l :: t =>
        match exec P s l with
        | Some (Ok s') => run P s' t
        | Some Panic => Some Panic
        | Some Fuel => Some Fuel
        | None => None
        end
    end.

  (** optimize.go:72-112: checks and start of 8 + 8 goroutines.  [root] is
      params.RootModel ([None]: nil, replaced by the empty model). *)
  Definition numScoreWorkers : nat := 8.
  Definition numChildWorkers : nat := 8.

  Definition init_st (h : Highscore N) : st :=
    mkSt MRoot [] 0%Z (ndec (-1) 100) h 0%Z n0 (n0, 0%Z, n0)
         (repeat SWIdle numScoreWorkers) (repeat CWIdle numChildWorkers) [] [] [] false false.

  Definition SelectModel_start (rows cols : nat) (fit : list bool -> list N * N)
      (bounds : list bool -> Z -> N * N) (root : option (list bool)) (maxq : Z) (cutoff : N)
      (h : Highscore N) : res (problem * st) :=
    if (cols <? 3)%nat then Panic else
    do root <- match root with
               | None => Ok (repeat false cols)
               | Some r => if (length r =? cols)%nat then Ok r else Panic
               end;
    Ok (mkProblem rows cols fit bounds root maxq cutoff, init_st h).

  (** ** BruteForceSelect, optimize.go:174-199, as a fuelled queue loop *)
  Fixpoint brute_loop (P : problem) (fuel : nat) (queue : list (Node N)) (h : Highscore N)
    : res (Highscore N) :=
    match queue with
    | [] => Ok h
    | cur :: rest =>
        match fuel with
        | O => Fuel
        | S fuel' =>
            do ch <- (if ((0 <? NumFeatures (ndModel cur))%nat && isNewNode cur)%bool then
                        let n := score_node P cur in
                        do h' <- hsInsert h n; Ok (n, h')
                      else Ok (cur, h));
            let '(cur', h') := ch in
            if (ndLevel cur' <? Z.of_nat (pCols P))%Z then
              do c0 <- GetChildNode cur' false;
              do c1 <- GetChildNode cur' true;
              brute_loop P fuel' (rest ++ [c0; c1]) h'
            else brute_loop P fuel' rest h'
        end
    end.

  Definition BruteForceSelect (P : problem) (fuel : nat) : res (Highscore N) :=
    brute_loop P fuel [NewNode 0 (repeat false (pCols P))]
               (NewHighscore (2 ^ Z.of_nat (pCols P))).
End Search.

Arguments mkProblem {N} _ _ _ _ _ _ _.
Arguments pRows {N} _. Arguments pCols {N} _. Arguments pFit {N} _ _. Arguments pBounds {N} _ _ _.
Arguments pRoot {N} _. Arguments pMaxQ {N} _. Arguments pCutoff {N} _.
Arguments isNewNode {N} _. Arguments score_node {N} _ _. Arguments with_bounds {N} _ _.
Arguments make_child {N} _ _ _. Arguments CreateChild {N} _ _ _ _ _.
Arguments CleanQueue {N} _ _. Arguments RemoveLeastPromising {N} _.
Arguments SWIdle {N}. Arguments SWBusy {N} _. Arguments SWSend {N} _. Arguments SWDone {N}.
Arguments CWIdle {N}. Arguments CWCreate {N} _ _. Arguments CWReadBest {N} _ _ _.
Arguments CWReadLen {N} _ _ _ _. Arguments CWSendNode {N} _ _ _. Arguments CWPrune {N} _ _.
Arguments CWReady {N}. Arguments CWDone {N}.
Arguments MRoot {N}. Arguments MSelect {N}. Arguments MWant {N} _. Arguments MClose {N} _.
Arguments mkSt {N} _ _ _ _ _ _ _ _ _ _ _ _ _ _ _.
Arguments sMain {N} _. Arguments sQueue {N} _. Arguments sInProg {N} _. Arguments sCurBest {N} _.
Arguments sHs {N} _. Arguments sChecked {N} _. Arguments sLog2 {N} _. Arguments sProgress {N} _.
Arguments sSW {N} _. Arguments sCW {N} _. Arguments gInserted {N} _. Arguments gScored {N} _.
Arguments gPruned {N} _. Arguments gRaced {N} _. Arguments gTrimmed {N} _.
Arguments root_node {N} _. Arguments set_cw {N} _ _ _. Arguments set_sw {N} _ _ _.
Arguments set_main {N} _ _ _. Arguments set_raced {N} _ _. Arguments add_scored {N} _ _.
Arguments cw_start {N} _. Arguments cw_next {N} _ _. Arguments main_score {N} _ _ _.
Arguments NewLog2Pruned {N} _ _. Arguments main_prune {N} _ _ _. Arguments main_ready {N} _.
Arguments closed {N} _ _. Arguments cw_local {N} _ _ _ _. Arguments exec {N} _ _ _.
Arguments run {N} _ _ _. Arguments init_st {N} _.
Arguments SelectModel_start {N} _ _ _ _ _ _ _ _.
Arguments brute_loop {N} _ _ _ _. Arguments BruteForceSelect {N} _ _.

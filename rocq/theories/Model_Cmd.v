(** Model of the command line programs in /repo/cmd and /repo/cmdDepreciated,
    of PrintHighscore (featselect/util.go:340-354) and of reading a lasso path
    from its JSON file (featselect/lassoPlot.go:26-42).

    Flags are the arguments of the functions below.  A file that is written is
    represented by what its JSON encodes; failures of the file system other
    than a missing input file are not modelled, and what is printed is modelled
    only for PrintHighscore. *)
From Coq Require Import String.
From Verif Require Import Base Num Mat Model_Node Model_Util Model_Norm Model_Fit Model_Cov Model_CSV Model_Lars
  Model_Path Model_SA Model_Save.
Open Scope list_scope.

Section Cmd.
  Variable N : Num.

  (** featselect/csvIO.go:106-114 ReadCSV: [None] is the file that cannot be
      opened, for which a nil dataset is returned *)
  Definition ReadCSV (parse : string -> option N) (file : option (list (list string))) (targetCol : Z)
    : res (option (Dataset N)) :=
    match file with
    | None => Ok None
    | Some records => do d <- ParseCSV parse records targetCol; Ok (Some d)
    end.

  (** ** PrintHighscore *)

  (** sort.Sort on the values with their positions, see Model_Util.Argsort *)
  Variable srt : list (N * nat) -> list (N * nat).

  (** featselect/util.go:352: one line of the table *)
  Record ScoreRow := mkRow { rwRank : nat; rwLamb : N; rwNum : nat; rwAicc : N; rwBic : N }.

  (** featselect/util.go:340-354: the lines printed *)
  Definition PrintHighscore (nodes : list (LassoLarsNode N)) (aicc bic : list N) (num : Z) : res (list ScoreRow) :=
    let num := if (Z.of_nat (length aicc) <? num)%Z then Z.of_nat (length aicc) else num in
    do s <- Argsort srt aicc;
    for_loop 0 (Z.to_nat num) (fun i rows =>
      do v <- getn s i;
      do node <- getn nodes v;
      do a <- getn aicc v;
      do b <- getn bic v;
      Ok (rows ++ [mkRow (S i) (lnLamb node) (length (lnSelection node)) a b])) [].

  (** ** The JSON of a lasso path *)

  (** featselect/lassoPlot.go:18-23, as encoding/json transports it *)
  Record PathJSON := mkPathJ {
    pjDset : JSONDataset N;
    pjNodes : list (LassoLarsNode N);
    pjAicc : list N;
    pjBic : list N
  }.

  (** encoding/json on a LassoLarsPath with all fields set: Dset through its
      MarshalJSON, the nodes (featselect/lasso_lars.go:14-18) field by field;
      [None] is the error for NaN and infinities *)
  Definition pathMarshal (d : Dataset N) (nodes : list (LassoLarsNode N)) (aicc bic : list N)
    : res (option PathJSON) :=
    do jd <- dsMarshalJSON d;
    Ok (match jd with
        | Some jd =>
            if forallb (fun n => forallb finite (lnCoeff n) && finite (lnLamb n)) nodes
               && forallb finite aicc && forallb finite bic
            then Some (mkPathJ jd nodes aicc bic) else None
        | None => None
        end).

  (** featselect/lassoPlot.go:38-42 on the bytes pathMarshal stands for: the
      path, Aicc and Bic *)
  Definition LassoLarsPathFromBytes (j : PathJSON) : res (LassoLarsPath N * list N * list N) :=
    do d <- dsUnmarshalJSON (pjDset j);
    Ok (mkPath d (pjNodes j), pjAicc j, pjBic j).

  (** ** goselect lasso *)

  (** LassoLars(normDset, lambMin, &estimator) of cmd/lasso.go:77 *)
  Variable larsF : NormalizedData N -> N -> res (list (LassoLarsNode N)).
  (** LassoCrdDescPath(normDset, cov, lambs, 100000, tol, &corr) of
      cmd/lasso.go:94: covariance estimate, data, lambdas, tolerance *)
  Variable crdF : (Mat N -> res (Mat N)) -> NormalizedData N -> list N -> N -> res (list (LassoLarsNode N)).
  (** the threshold of L2ConsistentCovTO(X, 1000, 1.0, 1.0)
      (featselect/covarianceMatrix.go:53) *)
  Variable optimal_threshold : Mat N -> res N.

  (** featselect/covarianceMatrix.go:49-56 *)
  Definition NewSparseThreshold (X : Mat N) : res (SparseThresholded N) :=
    do t <- optimal_threshold X;
    Ok (mkSparseThr X t).

  (** cmd/lasso.go:75-95; [None]: unknown covariance type, the function
      returns (line 91) *)
  Definition lasso_path (lassoType covType : string) (nd : NormalizedData N) (lambMin lambMax : N) (num : Z) (tol : N)
    : res (option (list (LassoLarsNode N))) :=
    if String.eqb lassoType "lars" then do p <- larsF nd lambMin; Ok (Some p)
    else if String.eqb lassoType "cd" then
      do get <-
        (if String.eqb covType "empirical" then Ok (Some Empirical_Get)
         else if String.eqb covType "identity" then Ok (Some Identity_Get)
         else if String.eqb covType "threshold" then
           do s <- NewSparseThreshold (ndX nd); Ok (Some (SparseThresholded_Get s))
         else Ok None);
      match get with
      | None => Ok None
      | Some get =>
          do lambs <- Logspace lambMin lambMax num;
          do p <- crdF get nd lambs tol;
          Ok (Some p)
      end
    else Ok (Some []).

  (** What a run of the command leaves behind: the table it printed and the
      new contents of the output file ([None]: not touched). *)
  Record LassoOut := mkLassoOut { loTable : option (list ScoreRow); loFile : option PathJSON }.

  (** cmd/lasso.go:97-122.  The path is converted in place; the dataset is the
      one that was read (line 73 normalises copies). *)
  Definition lasso_finish (dset : Dataset N) (nd : NormalizedData N) (larspath : list (LassoLarsNode N)) : res LassoOut :=
    do larspath <- Path2Unnormalized nd larspath;
    let path := mkPath dset larspath in
    do aicc <- GetCriteria path Aicc;
    do bic <- GetCriteria path Bic;
    do table <- PrintHighscore larspath aicc bic 20;
    do js <- pathMarshal dset larspath aicc bic;
    Ok (mkLassoOut (Some table) js).

  (** cmd/lasso.go:69-123 after the file has been read; a nil dataset panics
      (line 71) *)
  Definition lassoFit (dset : option (Dataset N)) (lambMin lambMax : N) (num : Z) (lassoType covType : string) (tol : N)
    : res LassoOut :=
    match dset with
    | None => Panic
    | Some dset =>
        do nd <- NewNormalizedData (dsX dset) (dsY dset);
        do path <- lasso_path lassoType covType nd lambMin lambMax num tol;
        match path with
        | None => Ok (mkLassoOut None None)
        | Some path => lasso_finish dset nd path
        end
    end.

  (** ** goselect sasearch *)

  (** featselect/saScore.go:32-37 as encoding/json transports it: pointers are
      followed, nil is null ([None]) *)
  Record SAJson := mkSAJson { sjCap : Z; sjItems : list (SAItem N); sjBest : option (SAItem N); sjWorst : option (SAItem N) }.

  (** the item behind a pointer, for encoding/json *)
  Definition ptr_item (s : SAScore N) (p : option nat) : res (option (SAItem N)) :=
    match p with None => Ok None | Some p => do it <- getn (saHeap s) p; Ok (Some it) end.

  (** encoding/json rejects NaN and infinities *)
  Definition item_finite (it : SAItem N) : bool := forallb finite (siCoeff it) && finite (siScore it).

  (** json.Marshal(res.Scores) of cmd/sasearch.go:72; [None] is the error *)
  Definition saMarshal (s : SAScore N) : res (option SAJson) :=
    do items <- for_each (saItems s) (fun p l => do it <- getn (saHeap s) p; Ok (l ++ [it])) [];
    do best <- ptr_item s (saBest s);
    do worst <- ptr_item s (saWorst s);
    let all := items ++ match best with Some b => [b] | None => [] end ++ match worst with Some w => [w] | None => [] end in
    Ok (if forallb item_finite all then Some (mkSAJson (saCap s) items best worst) else None).

  (** contents of the output file: no bytes, or JSON *)
  Inductive sa_content := SAEmpty | SAFile (j : SAJson).

  (** cmd/sasearch.go:65-76: the error of json.Marshal is dropped (then
      highscoreJSON is nil) and WriteFile replaces what was in the file *)
  Definition sa_write (s : SAScore N) : res sa_content :=
    do j <- saMarshal s;
    Ok (match j with Some j => SAFile j | None => SAEmpty end).

  (** ** goselect bnb *)

  (** featselect/optimize.go:50-64 *)
  Record OptParams := mkOpt { opCutoff : N; opRoot : option (list bool); opMaxQueue : Z }.
  Definition NewSelectModelOptParams : OptParams := mkOpt n0 None 10000000000.

  (** cmd/bnb.go:79-98: the parameters of the search, [selected] being
      res.Selected of the annealing run on the same data *)
  Definition bnb_params (dset : Dataset N) (cutoff : N) (maxQueueSize : Z) (selected : list Z) : res OptParams :=
    do root <- Selected2Model selected (Z.of_nat (mcols (dsX dset)));
    Ok (mkOpt cutoff (Some root) maxQueueSize).

  (** cmd/bnb.go:110-124, the calling goroutine: in the select statement,
      saving after a tick (line 116), saving at the end (line 122), in
      wg.Wait() (line 123), or past it.  [saver] is where MarshalJSON is. *)
  Inductive bnb_main := BLoop | BTick (s : saver N) | BFinal (s : saver N) | BWait | BEnd.

  (** cmd/bnb.go:100-104, the goroutine of the search: in SelectModel, sending
      on searchFinished (line 75), about to run wg.Done, ended *)
  Inductive bnb_search := GRun | GSend | GDone | GEnd.

  (** both with the shared list and the output file ([None]: not yet written) *)
  Record bnb := mkBnb { bbMain : bnb_main; bbSearch : bnb_search; bbList : Live N; bbFile : option (content N) }.

  (** the steps: SelectModel inserts a node (as one atomic step, see
      Model_Save) or returns; the ticker is served (lines 113-116); a statement
      of saveHighscoreList (lines 66-72) runs; the rendezvous on searchFinished
      (lines 75 and 117); wg.Done; wg.Wait returns *)
  Inductive bnb_label := BInsert (n : Node N) | BReturn | BTicker | BSave | BMeet | BDone | BExit.

  (** a statement of saveHighscoreList; after the walk of MarshalJSON the file
      is written and the caller goes on at [next] *)
  Definition bnb_save (st : bnb) (wrap : saver N -> bnb_main) (next : bnb_main) (s : saver N) : res bnb :=
    match s with
    | SWalked data =>
        do c <- write_file (lvMax (bbList st)) data;
        Ok (mkBnb next (bbSearch st) (bbList st) (Some c))
    | _ =>
        do s <- save_step (bbList st) s;
        Ok (mkBnb (wrap s) (bbSearch st) (bbList st) (bbFile st))
    end.

  (** cmd/bnb.go:99-124; [None]: the step is not possible, [Some Panic]: the
      program dies *)
  Definition bnb_step (l : bnb_label) (st : bnb) : option (res bnb) :=
    match l, bbMain st, bbSearch st with
    | BInsert n, _, GRun =>
        Some (do h <- live_insert (bbList st) n; Ok (mkBnb (bbMain st) GRun h (bbFile st)))
    | BReturn, _, GRun => Some (Ok (mkBnb (bbMain st) GSend (bbList st) (bbFile st)))
    | BTicker, BLoop, _ => Some (Ok (mkBnb (BTick SBegin) (bbSearch st) (bbList st) (bbFile st)))
    | BSave, BTick s, _ => Some (bnb_save st BTick BLoop s)
    | BSave, BFinal s, _ => Some (bnb_save st BFinal BWait s)
    | BMeet, BLoop, GSend => Some (Ok (mkBnb (BFinal SBegin) GDone (bbList st) (bbFile st)))
    | BDone, _, GDone => Some (Ok (mkBnb (bbMain st) GEnd (bbList st) (bbFile st)))
    | BExit, BWait, GEnd => Some (Ok (mkBnb BEnd GEnd (bbList st) (bbFile st)))
    | _, _, _ => None
    end.

  (** cmd/bnb.go:90-99: the start, with NewHighscore(10) *)
  Definition bnb_init : bnb := mkBnb BLoop GRun (live_of (NewHighscore 10)) None.

  (** a schedule; stops at an impossible step *)
  Fixpoint bnb_run (ls : list bnb_label) (st : bnb) : option (res bnb) :=
    match ls with
    | [] => Some (Ok st)
    | l :: ls =>
        match bnb_step l st with
        | Some (Ok st) => bnb_run ls st
        | Some Panic => Some Panic
        | Some Fuel => Some Fuel
        | None => None
        end
    end.

  (** ** goselect-mem *)

  (** cmdDepreciated/goselect-mem/main.go:15-25: the number printed.  Go's
      integer division; 64-bit overflow of memory * 10^9 is not modelled. *)
  Definition mem_buffer (memory maxFeat : Z) : res Z :=
    do model <- go_make false maxFeat;
    do model <- for_loop 0 (length model) (fun i m => setn m i true) model;
    let size := EstimateMemory (NewNode (N := N) 0 model) in
    if (size =? 0)%Z then Panic else Ok (Z.quot (memory * 1000000000) size).

  (** ** goselect-plotlasso *)

  (** The flags -coeffmin and -coeffmax (cmdDepreciated/goselect-plotlasso/
      main.go:41-42): the variables the flag package writes to, with their
      defaults, and what flag.Parse makes of them *)
  Record plot_flags := mkFlags { fgMin : N; fgMax : N }.
  Definition plot_defaults : plot_flags := mkFlags n0 n0.

  (** cmdDepreciated/goselect-plotlasso/main.go:37-57: the axis range handed to
      PlotPath ([None]: nil).  The variables are read (lines 44-45) before
      flag.Parse is called (line 56). *)
  Definition plot_range (parse : plot_flags -> plot_flags) : option (N * N) :=
    let flags := plot_defaults in
    let coeffMin := fgMin flags in
    let coeffMax := fgMax flags in
    let rng := if nltb (ndec 1 (-10)) (nabs (coeffMax - coeffMin)%num) then Some (coeffMin, coeffMax) else None in
    let flags := parse flags in
    rng.
End Cmd.
Arguments ReadCSV {N} _ _ _.
Arguments mkRow {N} _ _ _ _ _. Arguments rwRank {N} _. Arguments rwLamb {N} _. Arguments rwNum {N} _.
Arguments rwAicc {N} _. Arguments rwBic {N} _. Arguments PrintHighscore {N} _ _ _ _ _.
Arguments mkPathJ {N} _ _ _ _. Arguments pjDset {N} _. Arguments pjNodes {N} _. Arguments pjAicc {N} _.
Arguments pjBic {N} _. Arguments pathMarshal {N} _ _ _ _. Arguments LassoLarsPathFromBytes {N} _.
Arguments NewSparseThreshold {N} _ _. Arguments lasso_path {N} _ _ _ _ _ _ _ _ _ _.
Arguments mkLassoOut {N} _ _. Arguments loTable {N} _. Arguments loFile {N} _.
Arguments lasso_finish {N} _ _ _ _. Arguments lassoFit {N} _ _ _ _ _ _ _ _ _ _ _.
Arguments mkSAJson {N} _ _ _ _. Arguments sjCap {N} _. Arguments sjItems {N} _. Arguments sjBest {N} _.
Arguments sjWorst {N} _. Arguments ptr_item {N} _ _. Arguments item_finite {N} _. Arguments saMarshal {N} _.
Arguments SAEmpty {N}. Arguments SAFile {N} _. Arguments sa_write {N} _.
Arguments mkOpt {N} _ _ _. Arguments opCutoff {N} _. Arguments opRoot {N} _. Arguments opMaxQueue {N} _.
Arguments NewSelectModelOptParams {N}. Arguments bnb_params {N} _ _ _ _.
Arguments BLoop {N}. Arguments BTick {N} _. Arguments BFinal {N} _. Arguments BWait {N}. Arguments BEnd {N}.
Arguments mkBnb {N} _ _ _ _. Arguments bbMain {N} _. Arguments bbSearch {N} _. Arguments bbList {N} _.
Arguments bbFile {N} _. Arguments BInsert {N} _. Arguments BReturn {N}. Arguments BTicker {N}.
Arguments BSave {N}. Arguments BMeet {N}. Arguments BDone {N}. Arguments BExit {N}.
Arguments bnb_save {N} _ _ _ _. Arguments bnb_step {N} _ _. Arguments bnb_init {N}. Arguments bnb_run {N} _ _.
Arguments mkFlags {N} _ _. Arguments fgMin {N} _. Arguments fgMax {N} _. Arguments plot_defaults {N}.
Arguments plot_range {N} _.

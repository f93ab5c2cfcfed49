(** Model of /repo/featselect/lassoPlot.go: the queries on a lasso path.

    Not modelled: reading the path from JSON (lassoPlot.go:26-42), axis labels,
    colours and line widths.  What a plot shows is represented by the point
    sequences handed to plotter.NewLine / plotter.NewScatter.  These two
    constructors of gonum/plot (external) return an error for some inputs
    (no points, NaN or infinite coordinates); [drawable] says for which inputs
    they do not.  math.Log10 is the parameter [lg]. *)
From Verif Require Import Base Num Mat Model_Node Model_Util Model_Norm Model_Fit Model_CSV.

Section Path.
  Variable N : Num.
  Variable lg : N -> N.
  Variable drawable : list (N * N) -> bool.

  (** lassoPlot.go:18-23.  The fields Aicc and Bic are not used by the methods
      below. *)
  Record LassoLarsPath := mkPath {
    lpDset : Dataset N;
    lpNodes : list (LassoLarsNode N)
  }.

  (** lassoPlot.go:45-61.  The result is (minVal, maxVal). *)
  Definition MaxMinFeatNo (p : LassoLarsPath) : Z * Z :=
    fold_left (fun (mm : Z * Z) n =>
      let '(minVal, maxVal) := mm in
      let max := MaxInt (lnSelection n) in
      let min := MinInt (lnSelection n) in
      let maxVal := if (maxVal <? max)%Z then max else maxVal in
      let minVal := if (min <? minVal)%Z then min else minVal in
      (minVal, maxVal)) (lpNodes p) (maxInt32, 0%Z).

  (** lassoPlot.go:64-92: firstEntrance, featureDidEnter and entranceTimes
      after the loop over the nodes *)
  Definition entrance_tables (p : LassoLarsPath) : res (list (N * N) * list bool * list (N * N)) :=
    let '(minFeat, maxFeat) := MaxMinFeatNo p in
    do firstEntrance <- go_make ((n0, n0) : N * N) (maxFeat - minFeat + 1);
    do featureDidEnter <- go_make false (maxFeat - minFeat + 1);
    do firstEntrance <- for_loop 0 (length firstEntrance) (fun i fe =>
      setn fe i (nofZ (Z.of_nat i + minFeat), nneg nmaxf)) firstEntrance;
    for_each (lpNodes p) (fun v st =>
      let logLamb := lg (lnLamb v) in
      for_each (lnSelection v) (fun feat (st : list (N * N) * list bool * list (N * N)) =>
        let '(fe, did, times) := st in
        let times := times ++ [(nofZ feat, logLamb)] in
        do xy <- getz fe (feat - minFeat);
        if nltb (snd xy) logLamb then
          do fe <- setz fe (feat - minFeat) (fst xy, logLamb);
          do did <- setz did (feat - minFeat) true;
          Ok (fe, did, times)
        else Ok (fe, did, times)) st) (firstEntrance, featureDidEnter, []).

  (** lassoPlot.go:64-119: the scattered points and the line *)
  Definition PlotEntranceTimes (p : LassoLarsPath) : res (list (N * N) * list (N * N)) :=
    do (fe, did, times) <- entrance_tables p;
    if negb (drawable times) then Panic else
    do filtered <- for_eachi 0 fe (fun i v acc =>
      do b <- getn did i;
      Ok (if b : bool then acc ++ [v] else acc)) [];
    if negb (drawable filtered) then Panic else
    Ok (times, filtered).

  (** lassoPlot.go:122-134 *)
  Definition GetCriteria (p : LassoLarsPath) (criteria : Z -> Z -> N -> N) : res (list N) :=
    let X := dsX (lpDset p) in
    let nData := Z.of_nat (mrows X) in
    let nFeat := Z.of_nat (mcols X) in
    for_eachi 0 (lpNodes p) (fun i n values =>
      do model <- Selected2Model (lnSelection n) nFeat;
      do design <- GetDesignMatrix model X;
      do rss <- Rss design (lnCoeff n) (dsY (lpDset p));
      setn values i (criteria (Z.of_nat (NumFeatures model)) nData rss)) (repeat n0 (length (lpNodes p))).

  (** lassoPlot.go:137-159: the points drawn *)
  Definition PlotQualityScores (p : LassoLarsPath) : res (list (N * N)) :=
    do vals <- GetCriteria p Aicc;
    do xys <- for_eachi 0 (lpNodes p) (fun i n xys =>
      do v <- getn vals i; setn xys i (lg (lnLamb n), v)) (repeat (n0, n0) (length (lpNodes p)));
    if negb (drawable xys) then Panic else Ok xys.

  (** lassoPlot.go:162-189: the points drawn *)
  Definition PlotDeviations (p : LassoLarsPath) : res (list (N * N)) :=
    let X := dsX (lpDset p) in
    let nFeat := Z.of_nat (mcols X) in
    do xys <- for_eachi 0 (lpNodes p) (fun i n xys =>
      do model <- Selected2Model (lnSelection n) nFeat;
      do design <- GetDesignMatrix model X;
      do rss <- Rss design (lnCoeff n) (dsY (lpDset p));
      let rmse := nsqrt (rss / nofnat (mrows X))%num in
      setn xys i (lg (lnLamb n), lg rmse)) (repeat (n0, n0) (length (lpNodes p)));
    if negb (drawable xys) then Panic else Ok xys.

  (** lassoPlot.go:197-203: the search loop with its break; [None] when the
      feature is not found *)
  Definition find_coeff (n : LassoLarsNode N) (featNo : Z) : res (option N) :=
    (fix go (j : nat) (l : list Z) : res (option N) :=
       match l with
       | [] => Ok None
       | s :: t => if (s =? featNo)%Z then do c <- getn (lnCoeff n) j; Ok (Some c) else go (S j) t
       end) 0%nat (lnSelection n).

  (** lassoPlot.go:192-210 *)
  Definition ExtractPath (p : LassoLarsPath) (featNo : Z) : res (list (N * N)) :=
    for_eachi 0 (lpNodes p) (fun i n xys =>
      do f <- find_coeff n featNo;
      match f with
      | Some c => setn xys i (lg (lnLamb n), c)
      | None => setn xys i (lg (lnLamb n), n0)
      end) (repeat (n0, n0) (length (lpNodes p))).

  (** lassoPlot.go:218-260: the lines added to the plot, in this order.  The
      optional axis range is left out. *)
  Definition PlotPath (p : LassoLarsPath) : res (list (list (N * N))) :=
    let '(_, numFeat) := MaxMinFeatNo p in
    do lines <- for_loop 0 (Z.to_nat numFeat) (fun featNo lines =>
      do xy <- ExtractPath p (Z.of_nat featNo);
      if negb (drawable xy) then Panic else Ok (lines ++ [xy])) [];
    do last <- getz (lpNodes p) (Z.of_nat (length (lpNodes p)) - 1);
    do first <- getn (lpNodes p) 0;
    let zero := [(lg (lnLamb last), n0); (lg (lnLamb first), n0)] in
    if negb (drawable zero) then Panic else
    Ok (lines ++ [zero]).

  (** lassoPlot.go:264-277 *)
  Definition PickMostRelevantFeatures (p : LassoLarsPath) (numFeat : Z) : list Z :=
    (fix go (nodes : list (LassoLarsNode N)) (mostRelevant : list Z) : list Z :=
       match nodes with
       | [] => mostRelevant
       | node :: rest =>
           let mostRelevant :=
             fold_left (fun mr v => if negb (ExistInt mr v) then mr ++ [v] else mr)
               (lnSelection node) mostRelevant in
           if (numFeat <=? Z.of_nat (length mostRelevant))%Z then mostRelevant
           else go rest mostRelevant
       end) (lpNodes p) [].
End Path.

Arguments mkPath {N} _ _.
Arguments lpDset {N} _. Arguments lpNodes {N} _.
Arguments MaxMinFeatNo {N} _. Arguments find_coeff {N} _ _.
Arguments GetCriteria {N} _ _. Arguments PickMostRelevantFeatures {N} _ _.
Arguments entrance_tables {N} _ _. Arguments ExtractPath {N} _ _ _.
Arguments PlotEntranceTimes {N} _ _ _. Arguments PlotQualityScores {N} _ _ _. Arguments PlotDeviations {N} _ _ _.
Arguments PlotPath {N} _ _ _.

(** Model of the program in /repo/cmdDepreciated/goselect-plotlasso.  As in
    Model_Cmd.v a file is what its JSON encodes. *)
From Verif Require Import Base Num Mat Model_Node Model_Util Model_Norm Model_Fit Model_CSV Model_Path Model_Cmd.

Section Plot.
  Variable N : Num.
  (** math.Log10 *)
  Variable lg : N -> N.

  (** gonum plotter.NewLine and plotter.NewScatter (external library) give no
      error: there are points and no coordinate is NaN or infinite *)
  Definition gonum_drawable (pts : list (N * N)) : bool :=
    negb (length pts =? 0)%nat && forallb (fun p => finite (fst p) && finite (snd p)) pts.

  (** The figures of goselect-plotlasso/main.go:14, 20, 25 and 30: what is
      handed to the plotter.  [FigPath]: the lines and the range of the vertical
      axis (featselect/lassoPlot.go:253-257, [None]: chosen by the library). *)
  Inductive Figure :=
  | FigEntrance (times line : list (N * N))
  | FigQuality (pts : list (N * N))
  | FigDev (pts : list (N * N))
  | FigPath (lines : list (list (N * N))) (range : option (N * N)).

  (** [saves fig]: the method Save of the figure gives no error (the extension
      is known to the library, the file can be created) *)
  Variable saves : Figure -> bool.

  (** What analyseLasso leaves behind: the figures it says it wrote, those it
      did write, and whether it returned *)
  Record PlotOut := mkPlotOut { poSaid : list Figure; poFiles : list Figure; poReturned : bool }.

  (** One paragraph of goselect-plotlasso/main.go:14-33: make the figure, Save
      it (the error is dropped), print its name.  A panic ends the program. *)
  Definition next_figure (fig : res Figure) (rest : PlotOut) : PlotOut :=
    match fig with
    | Ok f => mkPlotOut (f :: poSaid rest) (if saves f then f :: poFiles rest else poFiles rest) (poReturned rest)
    | _ => mkPlotOut [] [] false
    end.

  (** goselect-plotlasso/main.go:12-34 after line 13 *)
  Definition analyseLasso (path : LassoLarsPath N) (coeffRng : option (N * N)) : PlotOut :=
    next_figure (do (times, line) <- PlotEntranceTimes lg gonum_drawable path; Ok (FigEntrance times line))
    (next_figure (do pts <- PlotQualityScores lg gonum_drawable path; Ok (FigQuality pts))
    (next_figure (do pts <- PlotDeviations lg gonum_drawable path; Ok (FigDev pts))
    (next_figure (do lines <- PlotPath lg gonum_drawable path; Ok (FigPath lines coeffRng))
    (mkPlotOut [] [] true)))).

  (** goselect-plotlasso/main.go:36-57.  [file]: the file of the flag json,
      [None] if it cannot be opened (featselect/lassoPlot.go:27-31, panic);
      [parse]: what flag.Parse makes of the flags coeffmin and coeffmax. *)
  Definition plotlasso (parse : plot_flags N -> plot_flags N) (file : option (PathJSON N)) : PlotOut :=
    let coeffRng := plot_range parse in
    match file with
    | None => mkPlotOut [] [] false
    | Some j =>
        match LassoLarsPathFromBytes j with
        | Ok (path, _, _) => analyseLasso path coeffRng
        | _ => mkPlotOut [] [] false
        end
    end.
End Plot.

Arguments gonum_drawable {N} _. Arguments FigEntrance {N} _ _. Arguments FigQuality {N} _. Arguments FigDev {N} _. Arguments FigPath {N} _ _.
Arguments mkPlotOut {N} _ _ _. Arguments poSaid {N} _. Arguments poFiles {N} _. Arguments poReturned {N} _.
Arguments next_figure {N} _ _ _. Arguments analyseLasso {N} _ _ _ _. Arguments plotlasso {N} _ _ _ _.

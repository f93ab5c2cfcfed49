(** From a command to the files it leaves behind and on to the program that
    reads them: the bytes of the files of goselect lasso (cmd/lasso.go:111-121)
    and goselect sasearch (cmd/sasearch.go:69-73), and goselect-plotlasso
    (cmdDepreciated/goselect-plotlasso/main.go) started on such a file. *)
From Coq Require Import String Ascii NArith.
From Verif Require Import Base Num Mat Model_Node Model_Util Model_Norm Model_Fit Model_SA Model_CSV Model_CSVBytes Model_Path Model_Cmd Model_Flags
  Model_Shell Model_JSON Model_JSONFiles Model_Plot.
Open Scope list_scope.

Section Chain.
  Variable N : Num.
  (** strconv.AppendFloat and strconv.ParseFloat, as in Model_JSONFiles.v *)
  Variable fmt : N -> bytes.
  Variable parse : bytes -> option N.

  (** featselect/saScore.go:4-8 *)
  Definition sa_item_json (i : SAItem N) : json :=
    object [("Selection", jints (siSelection i)); ("Coeff", jnums fmt (siCoeff i)); ("Score", jnum fmt (siScore i))]%string.

  (** a pointer to an item: nil is written as null (encode.go ptrEncoder) *)
  Definition sa_ptr_json (i : option (SAItem N)) : json := match i with Some i => sa_item_json i | None => JNull end.

  (** featselect/saScore.go:32-37 *)
  Definition sa_json (j : SAJson N) : json :=
    object [("Cap", jint (sjCap j)); ("Items", JArr (map sa_item_json (sjItems j)));
            ("BestItem", sa_ptr_json (sjBest j)); ("WorstItem", sa_ptr_json (sjWorst j))]%string.

  (** what json.Unmarshal makes of it in a program that reads the file with the
      type featselect.SAScore (goselect itself has no such program) *)
  Definition dec_sa_item (v : json) : option (SAItem N) :=
    match v with
    | JObj l =>
        match dec_field (dec_list dec_int) [] "Selection" l, dec_field (dec_list (dec_num parse)) [] "Coeff" l, dec_field (dec_num parse) n0 "Score" l with
        | Some s, Some c, Some x => Some (mkSAItem s c x)
        | _, _, _ => None
        end
    | _ => None
    end.
  Definition dec_sa_ptr (v : json) : option (option (SAItem N)) :=
    match v with JNull => Some None | _ => match dec_sa_item v with Some i => Some (Some i) | None => None end end.
  Definition sa_of (v : json) : option (SAJson N) :=
    match v with
    | JObj l =>
        match dec_field dec_int 0%Z "Cap" l, dec_field (dec_list dec_sa_item) [] "Items" l,
              dec_field dec_sa_ptr None "BestItem" l, dec_field dec_sa_ptr None "WorstItem" l with
        | Some c, Some items, Some b, Some w => Some (mkSAJson c items b w)
        | _, _, _, _ => None
        end
    | _ => None
    end.

  (** the bytes handed to ioutil.WriteFile (cmd/lasso.go:121, cmd/sasearch.go:73;
      in the latter none if json.Marshal failed) *)
  Definition content (w : written N) : bytes :=
    match w with
    | WLasso j => path_bytes fmt j
    | WSa SAEmpty => []
    | WSa (SAFile j) => write (sa_json j)
    end.

  (** ioutil.WriteFile replaces the file; what it wrote can be read (failures in
      the middle of writing are left out) *)
  Definition store (fs : filesystem) (f : string) (b : bytes) : filesystem :=
    mkFs (fun g => if String.eqb g f then Some b else fsRead fs g) (fsWritable fs).

  (** the files after a run of Model_Shell.shell: cmd/lasso.go:111-122 and
      cmd/sasearch.go:72-73; nothing is written before the work is done *)
  Definition after (fs : filesystem) (e : ending N) : filesystem :=
    match e with
    | Returned _ (Some (f, w)) => store fs f (content w)
    | _ => fs
    end.

  (** Text that is not JSON leaves the zero LassoLarsPath (lassoPlot.go:39-41,
      the error is dropped): Dset is nil, which is not looked at before the panic
      for the lack of points in the first figure; an empty dataset stands for it. *)
  Definition zero_path : LassoLarsPath N := mkPath (mkDataset (mkMat 0 0 (fun _ _ => n0)) [] [] 0%Z) [].

  (** math.Log10 and the method Save of a figure, as in Model_Plot.v; what
      Unmarshal leaves behind for JSON of another shape (a parameter) *)
  Variable lg : N -> N.
  Variable saves : Figure N -> bool.
  Variable other : bytes -> LassoLarsPath N.

  (** cmdDepreciated/goselect-plotlasso/main.go:36-57 on the file named by its
      flag json: featselect/lassoPlot.go:26-42, then the figures *)
  Definition plotlasso_file (flags : plot_flags N -> plot_flags N) (fs : filesystem) (jsonfile : string) : PlotOut N :=
    let coeffRng := plot_range flags in
    match fsRead fs jsonfile with
    | None => mkPlotOut [] [] false
    | Some b =>
        match path_from_file parse b with
        | Ok (Read (path, _, _)) => analyseLasso lg saves path coeffRng
        | Ok NotJson => analyseLasso lg saves zero_path coeffRng
        | Ok OtherShape => analyseLasso lg saves (other b) coeffRng
        | _ => mkPlotOut [] [] false
        end
    end.
End Chain.
Arguments content {N} _ _. Arguments after {N} _ _ _. Arguments plotlasso_file {N} _ _ _ _ _ _ _. Arguments sa_json {N} _ _. Arguments sa_of {N} _ _.
Arguments zero_path {N}. Arguments sa_item_json {N} _ _. Arguments sa_ptr_json {N} _ _. Arguments dec_sa_item {N} _ _. Arguments dec_sa_ptr {N} _ _.

(** goselect bnb from the command line and the bytes of the data file to the
    bytes of its output file (cmd/bnb.go:40-125), putting together Model_Flags
    (options), Model_CSVBytes (data file), Model_Bnb (up to the start of the
    search), Model_Cmd (saving) and Model_JSONFiles (JSON).  Printing is left out. *)
From Coq Require Import String Ascii.
From Verif Require Import Base Num Mat Model_Node Model_Util Model_Fit Model_CSV Model_CSVBytes Model_SA Model_Search Model_Save Model_Cmd Model_Bnb Model_Flags
  Model_Shell Model_JSON Model_JSONFiles Model_Chain.
Open Scope list_scope.

Section BnbShell.
  Variable N : Num.
  (** strconv: options and CSV cells, JSON numbers *)
  Variable parse_int : string -> option Z.
  Variable parse_float : string -> option N.
  Variable fmt : N -> bytes.
  (** the parameters of Model_Bnb.bnb_start *)
  Variable svd : Mat N -> SVD N.
  Variable ri : nat -> nat.
  Variable rf : nat -> N.
  Variable fuel : nat.
  Variable fit : list bool -> list N * N.
  Variable bnd : list bool -> Z -> N * N.

  (** cmd/bnb.go:78-104 with the file system; featselect/csvIO.go:106-114 *)
  Definition bnb_main (fs : filesystem) (csv : string) (target : Z) (cutoff : N) (maxq : Z) : res (bnb_ready N) :=
    match fsRead fs csv with
    | None => bnb_start svd parse_float ri rf fuel fit bnd None target cutoff maxq
    | Some b =>
        do records <- csv_read b;
        bnb_start svd parse_float ri rf fuel fit bnd (Some (map (map string_of_list_ascii) records)) target cutoff maxq
    end.

  (** main.go, cmd/root.go:46-51 and cmd/bnb.go:40-53 up to the start of the
      search: nothing is run, a panic, the bound on the steps of the annealing,
      or the search starts, to be saved under a name *)
  Inductive launch :=
  | BnbNothing
  | BnbCrashed
  | BnbAnnealing
  | BnbSearching (b : bnb_ready N) (out : string).
  Definition bnb_shell (fs : filesystem) (args : list string) : launch :=
    match goselect parse_int parse_float Bnb args with
    | Called (FindOptimalSolution csv target cutoff out maxq) =>
        match bnb_main fs csv target cutoff maxq with Ok b => BnbSearching b out | Panic => BnbCrashed | Fuel => BnbAnnealing end
    | _ => BnbNothing
    end.

  (** the bytes handed to ioutil.WriteFile (cmd/bnb.go:70-71): none if
      json.Marshal failed; a nil entry is written as null *)
  Definition saved_bytes (c : Model_Save.content N) : bytes :=
    match c with
    | CEmpty => []
    | CJson m items =>
        write (object [("maxItems", jint m);
                       ("items", JArr (map (fun i => match i with Some j => node_json fmt j | None => JNull end) items))]%string)
    end.

  (** the files after the steps of Model_Cmd.bnb_run that lead to [e]; the
      errors of os.Open and ioutil.WriteFile are dropped (cmd/bnb.go:67-71) *)
  Definition bnb_files (fs : filesystem) (out : string) (e : bnb N) : filesystem :=
    match bbFile e with
    | Some c => if fsWritable fs out then store fs out (saved_bytes c) else fs
    | None => fs
    end.
End BnbShell.
Arguments BnbNothing {N}. Arguments BnbCrashed {N}. Arguments BnbAnnealing {N}. Arguments BnbSearching {N} _ _.
Arguments bnb_main {N} _ _ _ _ _ _ _ _ _ _ _ _. Arguments bnb_shell {N} _ _ _ _ _ _ _ _ _ _. Arguments saved_bytes {N} _ _. Arguments bnb_files {N} _ _ _ _.

(** The command line options of goselect (cmd/bnb.go:40-64, cmd/lasso.go:34-67,
    cmd/sasearch.go:41-63).

    spf13/cobra 1.0.0 and spf13/pflag 1.0.5 are external.  The part that decides
    what a sub-command sees is transcribed here: FlagSet.parseArgs,
    parseLongArg and parseSingleShortArg, and the order of events in
    Command.execute (parse the flags, show the help, run).  Left out: the text
    of messages, the config file read by initConfig (cmd/root.go:68-91; none
    of its values is used), and the search for the sub-command, which is the
    first argument. *)
From Coq Require Import String Ascii.
From Verif Require Import Base Num.
Open Scope list_scope.

Section Flags.
  Variable N : Num.
  (** strconv.ParseInt(s, 0, 64) and strconv.ParseFloat(s, 64); [None] is an error *)
  Variable parse_int : string -> option Z.
  Variable parse_float : string -> option N.

  (** the value of a flag, with its type *)
  Inductive fval := FStr (s : string) | FInt (z : Z) | FNum (x : N) | FBool (b : bool).

  (** the flags of a command with their current values *)
  Definition flagset := list (string * fval).

  (** strconv.ParseBool *)
  Definition parse_bool (s : string) : option bool :=
    if existsb (String.eqb s) ["1"; "t"; "T"; "TRUE"; "true"; "True"]%string then Some true
    else if existsb (String.eqb s) ["0"; "f"; "F"; "FALSE"; "false"; "False"]%string then Some false
    else None.

  (** Value.Set of the type of [old] *)
  Definition convert (old : fval) (text : string) : option fval :=
    match old with
    | FStr _ => Some (FStr text)
    | FInt _ => match parse_int text with Some z => Some (FInt z) | None => None end
    | FNum _ => match parse_float text with Some x => Some (FNum x) | None => None end
    | FBool _ => match parse_bool text with Some b => Some (FBool b) | None => None end
    end.

  (** FlagSet.Lookup (used by cmd/bnb.go:41-50, cmd/lasso.go:35-49, cmd/sasearch.go:42-50) *)
  Fixpoint lookup (name : string) (fl : flagset) : option fval :=
    match fl with
    | [] => None
    | (n, v) :: t => if String.eqb n name then Some v else lookup name t
    end.

  (** FlagSet.Set: the value of the flag defined in cmd/bnb.go:59-63,
      cmd/lasso.go:57-65 or cmd/sasearch.go:59-62 *)
  Fixpoint set_flag (name : string) (v : fval) (fl : flagset) : flagset :=
    match fl with
    | [] => []
    | (n, x) :: t => if String.eqb n name then (n, v) :: t else (n, x) :: set_flag name v t
    end.

  (** strings.SplitN(name, "=", 2) *)
  Fixpoint split_eq (s : string) : string * option string :=
    match s with
    | EmptyString => (EmptyString, None)
    | String c t => if Ascii.eqb c "=" then (EmptyString, Some t)
                    else let '(a, b) := split_eq t in (String c a, b)
    end.

  (** pflag FlagSet.parseShortArg for "-" ++ s: the only shorthand a sub-command
      has is the h of cobra's help flag (a bool, so that no value follows) *)
  Fixpoint parse_short (s : string) (fl : flagset) : option flagset :=
    match s with
    | EmptyString => Some fl
    | String c t =>
        if String.prefix "test." s then Some fl
        else if Ascii.eqb c "h" then
          match t with
          | String e ((String _ _) as text) =>
              if Ascii.eqb e "=" then
                match parse_bool text with Some b => Some (set_flag "help" (FBool b) fl) | None => None end
              else parse_short t (set_flag "help" (FBool true) fl)
          | _ => parse_short t (set_flag "help" (FBool true) fl)
          end
        else None                                     (* unknown shorthand flag *)
    end.

  (** pflag FlagSet.parseArgs with parseLongArg; [None] is an error.  Arguments
      that are no flags are collected by pflag and used by none of the commands. *)
  Fixpoint parse_args (fl : flagset) (args : list string) : option flagset :=
    match args with
    | [] => Some fl
    | s :: rest =>
        match s with
        | String c1 (String c2 name) =>
            if Ascii.eqb c1 "-" then
              if Ascii.eqb c2 "-" then
                match name with
                | EmptyString => Some fl              (* "--" ends the flags *)
                | String c3 _ =>
                    if Ascii.eqb c3 "-" || Ascii.eqb c3 "=" then None
                    else
                      let '(n, text) := split_eq name in
                      match lookup n fl with
                      | None => None                  (* unknown flag *)
                      | Some old =>
                          match text with
                          | Some text =>
                              match convert old text with
                              | Some v => parse_args (set_flag n v fl) rest
                              | None => None
                              end
                          | None =>
                              match old with
                              | FBool _ => parse_args (set_flag n (FBool true) fl) rest
                              | _ =>
                                  match rest with
                                  | [] => None        (* flag needs an argument *)
                                  | text :: rest' =>
                                      match convert old text with
                                      | Some v => parse_args (set_flag n v fl) rest'
                                      | None => None
                                      end
                                  end
                              end
                          end
                      end
                end
              else match parse_short (String c2 name) fl with Some fl => parse_args fl rest | None => None end
            else parse_args fl rest
        | _ => parse_args fl rest
        end
    end.

  (** the sub-commands (cmd/bnb.go:57, cmd/lasso.go:55, cmd/sasearch.go:57) *)
  Inductive command := Bnb | Lasso | SaSearch.

  (** cmd/bnb.go:59-63, cmd/lasso.go:57-65, cmd/sasearch.go:59-62, with the
      persistent flag of cmd/root.go:60 and cobra's help flag *)
  Definition flags_of (c : command) : flagset :=
    match c with
    | Bnb => [("csv", FStr ""); ("target", FInt (-1)); ("out", FStr "bnbSearch.json");
              ("cutoff", FNum n0); ("maxqueue", FInt 10000000)]
    | Lasso => [("csv", FStr ""); ("target", FInt (-1)); ("out", FStr "lasso.json");
                ("lmin", FNum (ndec 1 (-10))); ("lmax", FNum n1); ("num", FInt 50);
                ("type", FStr "lars"); ("cov", FStr "empirical"); ("tol", FNum (ndec 1 (-4)))]
    | SaSearch => [("csv", FStr ""); ("target", FInt (-1)); ("out", FStr "saSearch.json"); ("sweeps", FInt 100)]
    end%string ++ [("config", FStr ""); ("help", FBool false)]%string.

  (** what a command calls, with its arguments (cmd/bnb.go:52, cmd/lasso.go:50,
      cmd/sasearch.go:52) *)
  Inductive call :=
  | FindOptimalSolution (csvfile : string) (targetCol : Z) (cutoff : N) (outfile : string) (maxQueueSize : Z)
  | LassoFit (csvfile : string) (targetCol : Z) (out : string) (lambMin lambMax : N) (num : Z)
             (lassoType covType : string) (tol : N)
  | SaSearchRun (csvfile : string) (targetCol : Z) (out : string) (sweeps : Z).

  (** cmd.Flags().GetString etc. (cmd/bnb.go:41-50): the zero value when there is no such flag of that type *)
  Definition get_string (fl : flagset) (n : string) : string :=
    match lookup n fl with Some (FStr s) => s | _ => EmptyString end.
  Definition get_int (fl : flagset) (n : string) : Z := match lookup n fl with Some (FInt z) => z | _ => 0%Z end.
  Definition get_num (fl : flagset) (n : string) : N := match lookup n fl with Some (FNum x) => x | _ => n0 end.

  (** outcome of "goselect <command> args": an error message and exit status 1
      (cmd/root.go:47-50), the help text, the message of cmd/lasso.go:37, or the
      call *)
  Inductive outcome := Rejected | Help | NoCsvMessage | Called (c : call).

  (** cmd/bnb.go:40-53, cmd/lasso.go:34-51, cmd/sasearch.go:41-53 (the Run functions) *)
  Definition goselect (c : command) (args : list string) : outcome :=
    match parse_args (flags_of c) args with
    | None => Rejected
    | Some fl =>
        match lookup "help" fl with
        | Some (FBool true) => Help
        | _ =>
            match c with
            (* cmd/bnb.go:41-52 *)
            | Bnb => Called (FindOptimalSolution (get_string fl "csv") (get_int fl "target") (get_num fl "cutoff")
                                                 (get_string fl "out") (get_int fl "maxqueue"))
            (* cmd/lasso.go:35-50 *)
            | Lasso =>
                if String.eqb (get_string fl "csv") "" then NoCsvMessage
                else Called (LassoFit (get_string fl "csv") (get_int fl "target") (get_string fl "out")
                                      (get_num fl "lmin") (get_num fl "lmax") (get_int fl "num")
                                      (get_string fl "type") (get_string fl "cov") (get_num fl "tol"))
            (* cmd/sasearch.go:42-52 *)
            | SaSearch => Called (SaSearchRun (get_string fl "csv") (get_int fl "target") (get_string fl "out")
                                              (get_int fl "sweeps"))
            end
        end
    end.
End Flags.

Arguments FStr {N} _. Arguments FInt {N} _. Arguments FNum {N} _. Arguments FBool {N} _.
Arguments convert {N} _ _ _ _. Arguments lookup {N} _ _. Arguments set_flag {N} _ _ _.
Arguments parse_short {N} _ _. Arguments parse_args {N} _ _ _ _. Arguments flags_of {N} _.
Arguments FindOptimalSolution {N} _ _ _ _ _. Arguments LassoFit {N} _ _ _ _ _ _ _ _ _. Arguments SaSearchRun {N} _ _ _ _.
Arguments get_string {N} _ _. Arguments get_int {N} _ _. Arguments get_num {N} _ _.
Arguments Rejected {N}. Arguments Help {N}. Arguments NoCsvMessage {N}. Arguments Called {N} _.
Arguments goselect {N} _ _ _ _.

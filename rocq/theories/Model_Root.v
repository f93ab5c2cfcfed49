(** The goselect command itself: main.go:20-22 and cmd/root.go.

    spf13/cobra 1.0.0 is external.  Its search for the sub-command
    (Command.Find with stripFlags and argsMinusFirstX) and the order of events
    in Command.ExecuteC and Command.execute are transcribed.  Left out: the text
    of messages and of the help, and cobra's hidden command for shell
    completion. *)
From Coq Require Import String Ascii.
From Verif Require Import Base Num Model_Flags.
Open Scope list_scope.

(** the commands added in cmd/bnb.go:57, cmd/lasso.go:55, cmd/sasearch.go:57;
    [None] is cobra's own help command *)
Definition command_of (s : string) : option (option command) :=
  if String.eqb s "bnb" then Some (Some Bnb)
  else if String.eqb s "lasso" then Some (Some Lasso)
  else if String.eqb s "sasearch" then Some (Some SaSearch)
  else if String.eqb s "help" then Some None
  else None.

Definition has_eq (s : string) : bool := match snd (split_eq s) with Some _ => true | None => false end.

(** cobra stripFlags, the two cases in which the next argument is taken for a
    value: among the flags of the root (cmd/root.go:60,64) only toggle has no
    value; cobra adds the help flag later *)
Definition takes_next (s : string) : bool :=
  (String.prefix "--" s && negb (has_eq s) && negb (String.eqb s "--toggle"))
  || (String.prefix "-" s && negb (has_eq s) && (String.length s =? 2)%nat && negb (String.eqb s "-t")).

(** cobra stripFlags: the arguments that are neither flags nor their values *)
Fixpoint strip_flags (args : list string) : list string :=
  match args with
  | [] => []
  | s :: rest =>
      if String.eqb s "--" then []
      else if takes_next s then
        match rest with
        | _ :: ((_ :: _) as rest') => strip_flags rest'
        | _ => []                                   (* len(args) <= 1: the loop ends *)
        end
      else if negb (String.eqb s "") && negb (String.prefix "-" s) then s :: strip_flags rest
      else strip_flags rest
  end.

(** cobra argsMinusFirstX *)
Fixpoint minus_first (args : list string) (x : string) : list string :=
  match args with
  | [] => []
  | y :: t => if String.eqb x y then t else y :: minus_first t x
  end.

(** cobra Command.Find from the root.  The sub-commands have no commands of
    their own, so that the search ends there and any arguments are accepted
    (legacyArgs). *)
Inductive found := FoundRoot | FoundUnknown | FoundHelp | Found (c : command) (args : list string).
Definition find_command (args : list string) : found :=
  match strip_flags args with
  | [] => FoundRoot
  | s :: _ =>
      match command_of s with
      | None => FoundUnknown
      | Some None => FoundHelp
      | Some (Some c) => Found c (minus_first args s)
      end
  end.

Section Root.
  Variable N : Num.
  Variable parse_int : string -> option Z.
  Variable parse_float : string -> option N.

  (** cmd/root.go:68-91: initConfig ends the program when there is neither a
      --config nor a home directory ([home]).  The values of the configuration
      file and of the environment are read into viper and used nowhere; errors
      of ReadInConfig are dropped. *)
  Definition init_config (home : bool) (cfgFile : string) : bool := negb (String.eqb cfgFile "") || home.

  (** What becomes of "goselect args": an unknown command (cmd/root.go:47-50,
      exit status 1), the root or the help command (help text or an error in the flags, not
      distinguished; no command is run), no home directory (cmd/root.go:75-78,
      exit status 1), or a sub-command. *)
  Inductive start := UnknownCommand | NoCommand | NoHome | Started (c : command) (o : outcome N).

  (** main.go:20-22, cmd/root.go:46-51.  cobra Command.execute: flags, help,
      the initializers (initConfig), Run. *)
  Definition main (home : bool) (args : list string) : start :=
    match find_command args with
    | FoundRoot => NoCommand
    | FoundUnknown => UnknownCommand
    | FoundHelp => NoCommand
    | Found c rest =>
        let o := goselect parse_int parse_float c rest in
        match o with
        | Rejected | Help => Started c o
        | _ =>
            match parse_args parse_int parse_float (flags_of c) rest with
            | Some fl => if init_config home (get_string fl "config") then Started c o else NoHome
            | None => Started c o
            end
        end
    end.
End Root.
Arguments UnknownCommand {N}. Arguments NoCommand {N}. Arguments NoHome {N}. Arguments Started {N} _ _. Arguments main {N} _ _ _ _.

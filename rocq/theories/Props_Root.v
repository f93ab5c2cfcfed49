(** C108: the goselect command finds its sub-command; the configuration is not used. *)
From Coq Require Import String Ascii SpecFloat.
From Verif Require Import Base Num Model_Flags Model_Root Props_Flags.
Open Scope list_scope.
Open Scope string_scope.
Open Scope list_scope.

(** ** Specification *)

Definition name_of (c : command) : string := match c with Bnb => "bnb" | Lasso => "lasso" | SaSearch => "sasearch" end.

(** an option, and not an argument of another kind *)
Definition is_option (i : item) : Prop := match i with Pos _ => False | _ => True end.

(** the command line without its --config options *)
Definition no_config (i : item) : bool := match i with Opt n _ | OptEq n _ => negb (String.eqb n "config") | Pos _ => true end.

Section C108.
  Variable N : Num.
  Variable parse_int : string -> option Z.
  Variable parse_float : string -> option N.
  Notation main := (main parse_int parse_float).
  Notation goselect := (goselect parse_int parse_float).
  Notation valid := (valid N parse_int parse_float).

  Lemma command_name : forall c, command_of (name_of c) = Some (Some c).
  Proof. destruct c; reflexivity. Qed.

  Lemma find_first : forall c args, find_command (name_of c :: args) = Found c args.
  Proof. destruct c; reflexivity. Qed.

  (** ** C108 *)

  (** The command comes first: it gets the remaining arguments as they are, if
      there is a home directory. *)
  Theorem C108_command_first : forall c args, main true (name_of c :: args) = Started c (goselect c args).
  Proof.
    intros c args. unfold Model_Root.main. rewrite find_first.
    destruct (Model_Flags.parse_args parse_int parse_float (flags_of c) args) as [fl|]; [|destruct (goselect c args); reflexivity].
    unfold init_config. rewrite orb_true_r. destruct (goselect c args); reflexivity.
  Qed.

  (** The configuration: without --config a home directory must be known ... *)
  Theorem C108_config : forall home c items, (forall i, In i items -> valid c i) ->
    main home (name_of c :: command_line items) =
      if (home || negb (String.eqb (text_value items "config" "") ""))%bool then Started c (goselect c (command_line items)) else NoHome.
  Proof.
    intros home c items V. unfold Model_Root.main. rewrite find_first.
    destruct (parsed N parse_int parse_float c items V) as [E H].
    pose proof (get_text N parse_int parse_float c items "config" "" ltac:(destruct c; cbn; tauto) ltac:(destruct c; reflexivity)) as G.
    assert (R : goselect c (command_line items) <> Rejected /\ goselect c (command_line items) <> Help).
    { unfold Model_Flags.goselect. rewrite E, H. destruct c; [split; discriminate| |split; discriminate]. destruct (String.eqb _ _); split; discriminate. }
    destruct R as [R1 R2]. rewrite E, G. unfold init_config. rewrite orb_comm.
    destruct (goselect c (command_line items)); try congruence; reflexivity.
  Qed.

  (** Errors in the options and a call for help come before that. *)
  Theorem C108_refused_first : forall home c args, goselect c args = Rejected \/ goselect c args = Help ->
    main home (name_of c :: args) = Started c (goselect c args).
  Proof. intros home c args H. unfold Model_Root.main. rewrite find_first. destruct H as [->| ->]; reflexivity. Qed.

  Lemma given_filter : forall items n, n <> "config" -> given (filter no_config items) n = given items n.
  Proof.
    induction items as [|i t IH]; intros n Hn; [reflexivity|]. cbn [filter given]. destruct i as [k v|k v|s]; cbn [no_config].
    3: { cbn [given]. rewrite IH by exact Hn. reflexivity. }
    all: destruct (String.eqb_spec k "config") as [->|K]; cbn [negb given]; rewrite IH by exact Hn; [|reflexivity];
      destruct (given t n); [reflexivity|]; destruct (String.eqb_spec "config" n); [congruence|reflexivity].
  Qed.

  (** ... and that is all: with and without --config the command does the same. *)
  Theorem C108_config_ignored : forall c items, (forall i, In i items -> valid c i) ->
    goselect c (command_line (filter no_config items)) = goselect c (command_line items).
  Proof.
    intros c items V.
    assert (V' : forall i, In i (filter no_config items) -> valid c i) by (intros i Hi; apply filter_In in Hi; apply V; tauto).
    assert (T : forall n d, n <> "config" -> text_value (filter no_config items) n d = text_value items n d) by (intros; unfold text_value; rewrite given_filter by assumption; reflexivity).
    assert (I : forall n d, n <> "config" -> int_value parse_int (filter no_config items) n d = int_value parse_int items n d) by (intros; unfold int_value; rewrite given_filter by assumption; reflexivity).
    assert (U : forall n d, n <> "config" -> num_value N parse_float (filter no_config items) n d = num_value N parse_float items n d) by (intros; unfold num_value; rewrite given_filter by assumption; reflexivity).
    destruct c.
    - rewrite !C100_bnb by assumption. rewrite !T, !I, !U by discriminate. reflexivity.
    - rewrite !C100_lasso by assumption. rewrite !T, !I, !U by discriminate. reflexivity.
    - rewrite !C100_sasearch by assumption. rewrite !T, !I by discriminate. reflexivity.
  Qed.

  Lemma prefix_app : forall a b, String.prefix a (a ++ b)%string = true.
  Proof. induction a as [|c a IH]; intro b; [destruct b; reflexivity|]. cbn. destruct (ascii_dec c c); [apply IH|congruence]. Qed.

  Lemma strip_item : forall c i l, valid c i -> is_option i -> l <> [] -> strip_flags (words i ++ l) = strip_flags l.
  Proof.
    intros c i l V O L. destruct i as [n v|n v|s]; [| |destruct O]; cbn [valid] in V.
    - assert (T : (("--" ++ n)%string =? "--")%string = false /\ takes_next ("--" ++ n) = true).
      { unfold valid_option in V. destruct c; cbn in V;
          repeat match type of V with _ \/ _ => destruct V as [V|V] | _ /\ _ => destruct V as [V _] | False => destruct V | _ = n => subst n end; split; reflexivity. }
      destruct T as [T1 T2]. cbn [words app strip_flags]. rewrite T1, T2. destruct l; [congruence|reflexivity].
    - assert (T : (("--" ++ n ++ "=" ++ v)%string =? "--")%string = false /\ has_eq ("--" ++ n ++ "=" ++ v) = true).
      { unfold valid_option in V. destruct c; cbn in V;
          repeat match type of V with _ \/ _ => destruct V as [V|V] | _ /\ _ => destruct V as [V _] | False => destruct V | _ = n => subst n end; split; reflexivity. }
      destruct T as [T1 T2]. pose proof (prefix_app "-" ("-" ++ n ++ "=" ++ v)) as T3.
      change ("-" ++ ("-" ++ n ++ "=" ++ v))%string with ("--" ++ n ++ "=" ++ v)%string in T3.
      cbn [words app]. revert T1 T2 T3. generalize ("--" ++ n ++ "=" ++ v)%string. intros w T1 T2 T3.
      cbn [strip_flags]. unfold takes_next. rewrite T1, T2, T3. cbn [negb]. rewrite !andb_false_r. reflexivity.
  Qed.

  Lemma minus_skip : forall c i l, is_option i -> (forall n v, i = Opt n v -> v <> name_of c) ->
    minus_first (words i ++ l) (name_of c) = words i ++ minus_first l (name_of c).
  Proof.
    intros c i l O H. destruct i as [n v|n v|s]; [| |destruct O].
    - cbn [words app minus_first]. specialize (H n v eq_refl). destruct (String.eqb_spec (name_of c) ("--" ++ n)) as [E|_]; [destruct c; discriminate E|].
      destruct (String.eqb_spec (name_of c) v) as [E|_]; [congruence|]. reflexivity.
    - cbn [words app minus_first]. destruct (String.eqb_spec (name_of c) ("--" ++ n ++ "=" ++ v)) as [E|_]; [destruct c; discriminate E|]. reflexivity.
  Qed.

  (** Options of the command may also stand before it, provided none of their
      values is the name of the command. *)
  Theorem C108_options_before : forall home c items rest, (forall i, In i items -> valid c i /\ is_option i) ->
    (forall n v, In (Opt n v) items -> v <> name_of c) ->
    main home (command_line items ++ name_of c :: rest) = main home (name_of c :: command_line items ++ rest).
  Proof.
    intros home c items rest V H. unfold Model_Root.main. rewrite find_first.
    assert (E : find_command (command_line items ++ name_of c :: rest) = Found c (command_line items ++ rest)); [|rewrite E; reflexivity].
    assert (E1 : strip_flags (command_line items ++ name_of c :: rest) = name_of c :: strip_flags rest).
    { clear H. induction items as [|i t IH]; [destruct c; reflexivity|]. cbn [command_line flat_map]. rewrite <- app_assoc.
      destruct (V i ltac:(left; reflexivity)) as [V1 V2]. rewrite (strip_item c i _ V1 V2) by (intro C; apply app_eq_nil in C; destruct C; discriminate).
      apply IH. intros j Hj. apply V. right. exact Hj. }
    assert (E2 : minus_first (command_line items ++ name_of c :: rest) (name_of c) = command_line items ++ rest).
    { clear E1. induction items as [|i t IH]; [cbn [command_line flat_map app minus_first]; rewrite String.eqb_refl; reflexivity|].
      cbn [command_line flat_map]. rewrite <- !app_assoc. rewrite minus_skip.
      - f_equal. apply IH; [intros j Hj; apply V; right; exact Hj|intros n v Hn; apply (H n v); right; exact Hn].
      - apply (V i). left. reflexivity.
      - intros n v ->. apply (H n v). left. reflexivity. }
    unfold find_command. rewrite E1, command_name, E2. reflexivity.
  Qed.

  (** No command accepts the option --toggle (or -t) of goselect. *)
  Theorem C108_toggle : forall home c args, main home ("--toggle" :: name_of c :: args) = Started c Rejected /\
    main home ("-t" :: name_of c :: args) = Started c Rejected.
  Proof. intros home c args. destruct c; split; reflexivity. Qed.

  (** Without arguments, after "--", and with a first argument that is no command, nothing is run. *)
  Theorem C108_no_command : forall home,
    main home [] = NoCommand /\ (forall args, main home ("--" :: args) = NoCommand) /\
    forall s args, s <> "" -> String.prefix "-" s = false -> (forall c, s <> name_of c) -> s <> "help" ->
      main home (s :: args) = UnknownCommand.
  Proof.
    intro home. split; [reflexivity|]. split; [reflexivity|]. intros s args Hs Hp Hc Hh. unfold Model_Root.main, find_command.
    assert (E : strip_flags (s :: args) = s :: strip_flags args).
    { cbn [strip_flags]. destruct (String.eqb_spec s "--") as [->|_]; [discriminate Hp|].
      assert (T : takes_next s = false).
      { unfold takes_next. rewrite Hp. cbn [andb orb]. replace (String.prefix "--" s) with false; [reflexivity|].
        destruct s as [|a s]; [reflexivity|]. revert Hp. cbn [String.prefix]. destruct (ascii_dec "-" a); [|reflexivity]. destruct s; intro Hp; discriminate Hp. }
      rewrite T, Hp. destruct (String.eqb_spec s "") as [->|_]; [congruence|]. reflexivity. }
    rewrite E. unfold command_of.
    destruct (String.eqb_spec s "bnb") as [->|_]; [exfalso; exact (Hc Bnb eq_refl)|].
    destruct (String.eqb_spec s "lasso") as [->|_]; [exfalso; exact (Hc Lasso eq_refl)|].
    destruct (String.eqb_spec s "sasearch") as [->|_]; [exfalso; exact (Hc SaSearch eq_refl)|].
    destruct (String.eqb_spec s "help") as [->|_]; [congruence|]. reflexivity.
  Qed.
End C108.
Print Assumptions C108_command_first.
Print Assumptions C108_config.
Print Assumptions C108_refused_first.
Print Assumptions C108_config_ignored.
Print Assumptions C108_toggle.
Print Assumptions C108_options_before.
Print Assumptions C108_no_command.

(** The proviso of C108_options_before is needed: the name of the command is
    taken away where it first occurs, also if that is the value of an option.
    The command then runs on other files. *)
Theorem C108_value_named_as_command_refuted : exists items, 
  (forall (N : Num) pi (pf : string -> option N), (forall i, In i items -> valid N pi pf Bnb i /\ is_option i) /\
   main pi pf true ("bnb" :: command_line items) = Started Bnb (Called (FindOptimalSolution "data.csv" (-1) n0 "bnb" 10000000)) /\
   main pi pf true (command_line items ++ ["bnb"]) = Started Bnb (Called (FindOptimalSolution "" (-1) n0 "--csv" 10000000))).
Proof.
  exists [Opt "out" "bnb"; Opt "csv" "data.csv"]. intros N pi pf. split; [|split; reflexivity].
  intros i [<-|[<-|[]]]; (split; [left; cbn; tauto|exact I]).
Qed.
Print Assumptions C108_value_named_as_command_refuted.

(** options before and after the command, a missing home directory *)
Example C108_example :
  main (N := F64 fenv0) int100 (fun _ => None) true ["--csv"; "lasso"; "--target=2"; "sasearch"; "--sweeps"; "40"] =
    Started SaSearch (Called (SaSearchRun "lasso" 2 "saSearch.json" 40)) /\
  main (N := F64 fenv0) int100 (fun _ => None) false ["sasearch"; "--csv"; "a.csv"] = NoHome /\
  main (N := F64 fenv0) int100 (fun _ => None) false ["sasearch"; "--csv"; "a.csv"; "--config=c.yaml"] =
    Started SaSearch (Called (SaSearchRun "a.csv" (-1) "saSearch.json" 100)) /\
  main (N := F64 fenv0) int100 (fun _ => None) true ["search"; "--csv"; "a.csv"] = UnknownCommand.
Proof. repeat split; reflexivity. Qed.

(** C108, continued: a command is only run if it is named, and computes only with a home directory or --config. *)
From Coq Require Import String Ascii SpecFloat.
From Verif Require Import Base Num Model_Flags Model_Root Props_Flags Props_Root.
Open Scope list_scope.
Open Scope string_scope.
Open Scope list_scope.

Lemma strip_head : forall n args s rest, (length args <= n)%nat -> strip_flags args = s :: rest -> In s args.
Proof.
  induction n as [|n IH]; intros [|a args] s rest Hn E; try discriminate E; cbn [length] in Hn; [lia|]. cbn [strip_flags] in E.
  destruct (String.eqb a "--"); [discriminate E|]. destruct (takes_next a).
  - destruct args as [|b [|c args]]; try discriminate E. right. right. apply (IH _ s rest); [cbn [length] in *; lia|exact E].
  - destruct (_ && _)%bool.
    + injection E as -> _. left. reflexivity.
    + right. apply (IH _ s rest); [lia|exact E].
Qed.

Lemma minus_split : forall args x, In x args ->
  exists pre post, args = pre ++ x :: post /\ ~ In x pre /\ minus_first args x = pre ++ post.
Proof.
  induction args as [|y t IH]; intros x H; [contradiction|]. cbn [minus_first]. destruct (String.eqb_spec x y) as [<-|Hne].
  - exists [], t. auto.
  - destruct H as [->|H]; [congruence|]. destruct (IH x H) as (pre & post & -> & E2 & ->).
    exists (y :: pre), post. split; [reflexivity|]. split; [|reflexivity]. intros [C|C]; [congruence|contradiction].
Qed.

(** A command is only run if its name is among the arguments; it gets all the
    other arguments, in their order. *)
Theorem C108_only_named : forall (N : Num) pi (pf : string -> option N) home args c o,
  main pi pf home args = Started c o ->
  exists pre post, args = pre ++ name_of c :: post /\ ~ In (name_of c) pre /\ o = goselect pi pf c (pre ++ post).
Proof.
  intros N pi pf home args c o. unfold main, find_command. destruct (strip_flags args) as [|s rest] eqn:E; [discriminate|].
  pose proof (strip_head (length args) args s rest (le_n _) E) as Hs.
  destruct (command_of s) as [[d|]|] eqn:Ec; try discriminate.
  assert (Es : s = name_of d).
  { unfold command_of in Ec. destruct (String.eqb_spec s "bnb") as [->|_]; [injection Ec as <-; reflexivity|].
    destruct (String.eqb_spec s "lasso") as [->|_]; [injection Ec as <-; reflexivity|].
    destruct (String.eqb_spec s "sasearch") as [->|_]; [injection Ec as <-; reflexivity|].
    destruct (String.eqb s "help"); discriminate Ec. }
  destruct (minus_split args s Hs) as (pre & post & E1 & E2 & ->). intro H.
  assert (G : c = d /\ o = goselect pi pf d (pre ++ post)).
  { destruct (goselect pi pf d (pre ++ post)); try (injection H as <- <-; auto; fail);
      (destruct (parse_args pi pf (flags_of d) (pre ++ post)); [destruct (init_config _ _)|]; try discriminate H; injection H as <- <-; auto). }
  destruct G as [-> ->]. exists pre, post. rewrite <- Es. auto.
Qed.
Print Assumptions C108_only_named.

Example C108_only_named_example :
  main (N := F64 fenv0) int100 (fun _ => None) true ["--target=2"; "sasearch"; "--csv"; "sasearch"] =
    Started SaSearch (Called (SaSearchRun "sasearch" 2 "saSearch.json" 100)).
Proof. reflexivity. Qed.

Section NoConfig.
  Variable N : Num.
  Variable parse_int : string -> option Z.
  Variable parse_float : string -> option N.

  Lemma set_other : forall n v (fl : flagset N), n <> "config" -> lookup "config" (set_flag n v fl) = lookup "config" fl.
  Proof.
    intros n v fl H. induction fl as [|[m x] t IH]; [reflexivity|]. cbn [set_flag].
    destruct (String.eqb_spec m n) as [->|_]; cbn [lookup]; destruct (String.eqb_spec n "config"); try congruence; rewrite IH; reflexivity.
  Qed.

  Lemma short_other : forall s (fl fl' : flagset N), parse_short s fl = Some fl' -> lookup "config" fl' = lookup "config" fl.
  Proof.
    induction s as [|c t IH]; intros fl fl' E; [injection E as <-; reflexivity|]. cbn [parse_short] in E.
    destruct (String.prefix _ _); [injection E as <-; reflexivity|]. destruct (Ascii.eqb c "h"); [|discriminate E].
    assert (G : forall b, lookup "config" (set_flag "help" (FBool b) fl) = lookup "config" fl) by (intro b; apply set_other; discriminate).
    destruct t as [|e [|f t]].
    - injection E as <-. apply G.
    - rewrite <- (G true). apply IH. exact E.
    - destruct (Ascii.eqb e "="); [|rewrite <- (G true); apply IH; exact E].
      destruct (parse_bool _); [injection E as <-; apply G|discriminate E].
  Qed.

  Lemma split_prefix : forall s, String.prefix (fst (split_eq s)) s = true.
  Proof.
    induction s as [|c t IH]; [reflexivity|]. cbn [split_eq]. destruct (Ascii.eqb c "="); [reflexivity|].
    destruct (split_eq t) as [a b]. cbn [fst] in *. cbn [String.prefix]. destruct (ascii_dec c c); [exact IH|congruence].
  Qed.

  Lemma parse_other : forall k args (fl fl' : flagset N), (length args <= k)%nat ->
    (forall a, In a args -> String.prefix "--config" a = false) ->
    parse_args parse_int parse_float fl args = Some fl' -> lookup "config" fl' = lookup "config" fl.
  Proof.
    induction k as [|k IH]; intros [|s rest] fl fl' Hk Ha E; try (injection E as <-; reflexivity); cbn [length] in Hk; [lia|].
    assert (R : forall fl0, parse_args parse_int parse_float fl0 rest = Some fl' -> lookup "config" fl' = lookup "config" fl0).
    { intros fl0 E0. apply (IH rest); [lia| |exact E0]. intros a H. apply Ha. right. exact H. }
    pose proof (Ha s (or_introl eq_refl)) as Hs.
    cbn [parse_args] in E. destruct s as [|c1 [|c2 name]]; try (apply R; exact E).
    destruct (Ascii.eqb_spec c1 "-") as [->|_]; [|apply R; exact E].
    destruct (Ascii.eqb_spec c2 "-") as [->|_].
    2:{ destruct (parse_short _ fl) as [fl0|] eqn:E0; [|discriminate E]. rewrite <- (short_other _ _ _ E0). apply R. exact E. }
    destruct name as [|c3 name]; [injection E as <-; reflexivity|].
    destruct (_ || _)%bool; [discriminate E|].
    pose proof (split_prefix (String c3 name)) as P. destruct (split_eq (String c3 name)) as [n text]. cbn [fst] in P.
    assert (Hn : n <> "config").
    { intros ->. change (String.prefix "config" (String c3 name) = false) in Hs. congruence. }
    destruct (lookup n fl) as [old|]; [|discriminate E]. destruct text as [text|].
    - destruct (convert _ _ old text) as [v|]; [|discriminate E]. rewrite <- (set_other n v fl Hn). apply R. exact E.
    - assert (G : (match rest with [] => None | text :: rest' => match convert parse_int parse_float old text with
                    | Some v => parse_args parse_int parse_float (set_flag n v fl) rest' | None => None end end) = Some fl' ->
                  lookup "config" fl' = lookup "config" fl).
      { destruct rest as [|text rest']; [discriminate|]. destruct (convert _ _ old text) as [v|]; [|discriminate]. intro E0.
        rewrite <- (set_other n v fl Hn). apply (IH rest'); [cbn [length] in Hk; lia| |exact E0].
        intros a H. apply Ha. right. right. exact H. }
      destruct old; try (apply G; exact E). rewrite <- (set_other n (FBool true) fl Hn). apply R. exact E.
  Qed.

  (** Without a home directory nothing is computed unless some argument begins
      with --config; whatever the other arguments are. *)
  Theorem C108_no_home : forall args c call,
    (forall a, In a args -> String.prefix "--config" a = false) ->
    main parse_int parse_float false args <> Started c (Called call).
  Proof.
    intros args c call Ha. unfold main. destruct (find_command args) as [| | |d rest] eqn:F; try discriminate.
    assert (Hr : forall a, In a rest -> In a args).
    { unfold find_command in F. destruct (strip_flags args) as [|s l] eqn:E; [discriminate F|].
      destruct (command_of s) as [[x|]|]; try discriminate F. injection F as _ <-.
      pose proof (strip_head (length args) args s l (le_n _) E) as Hs.
      destruct (minus_split args s Hs) as (pre & post & E1 & _ & ->). intros a H. rewrite E1. apply in_app_or in H. apply in_or_app.
      cbn [In]. tauto. }
    cbv zeta. destruct (parse_args parse_int parse_float (flags_of d) rest) as [fl|] eqn:E.
    2:{ unfold goselect. rewrite E. discriminate. }
    assert (C : lookup "config" fl = lookup "config" (flags_of (N := N) d)).
    { apply (parse_other (length rest) rest _ _ (le_n _)); [|exact E]. intros a H. apply Ha, Hr, H. }
    assert (I : init_config false (get_string fl "config") = false).
    { unfold get_string. rewrite C. destruct d; reflexivity. }
    rewrite I. destruct (goselect parse_int parse_float d rest); discriminate.
  Qed.
End NoConfig.
Print Assumptions C108_no_home.

(** the value of --config counts, also after the command; --csv does not *)
Example C108_no_home_example :
  main (N := F64 fenv0) int100 (fun _ => None) false ["--csv=a.csv"; "bnb"] = NoHome /\
  main (N := F64 fenv0) int100 (fun _ => None) false ["--csv=a.csv"; "bnb"; "--config"; "c"] =
    Started Bnb (Called (FindOptimalSolution "a.csv" (-1) n0 "bnbSearch.json" 10000000)).
Proof. split; reflexivity. Qed.

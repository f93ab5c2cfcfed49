(** C100: the options of the goselect command. *)
From Coq Require Import String Ascii SpecFloat.
From Verif Require Import Base Num Model_Flags.
Open Scope list_scope.
Open Scope string_scope.
Open Scope list_scope.

(** ** Specification *)

(** what a user writes: "--name value", "--name=value", or an argument that is
    no option *)
Inductive item := Opt (name value : string) | OptEq (name value : string) | Pos (s : string).

Definition words (i : item) : list string :=
  match i with
  | Opt n v => ["--" ++ n; v]%string
  | OptEq n v => ["--" ++ n ++ "=" ++ v]%string
  | Pos s => [s]
  end.
Definition command_line (items : list item) : list string := flat_map words items.

(** the value given last for an option *)
Fixpoint given (items : list item) (name : string) : option string :=
  match items with
  | [] => None
  | i :: t =>
      match given t name with
      | Some v => Some v
      | None => match i with
                | Opt n v | OptEq n v => if String.eqb n name then Some v else None
                | Pos _ => None
                end
      end
  end.

(** options with a text, a whole number, a number *)
Definition text_options (c : command) : list string :=
  match c with Bnb => ["csv"; "out"; "config"] | Lasso => ["csv"; "out"; "type"; "cov"; "config"] | SaSearch => ["csv"; "out"; "config"] end.
Definition int_options (c : command) : list string :=
  match c with Bnb => ["target"; "maxqueue"] | Lasso => ["target"; "num"] | SaSearch => ["target"; "sweeps"] end.
Definition num_options (c : command) : list string :=
  match c with Bnb => ["cutoff"] | Lasso => ["lmin"; "lmax"; "tol"] | SaSearch => [] end.

Definition starts_with_dash (s : string) : Prop := exists c t, s = String "-" (String c t).

Section C100.
  Variable N : Num.
  Variable parse_int : string -> option Z.
  Variable parse_float : string -> option N.

  (** an option of the command with a value of its type, or an argument that
      does not look like an option *)
  Definition valid_option (c : command) (name value : string) : Prop :=
    In name (text_options c) \/
    (In name (int_options c) /\ parse_int value <> None) \/
    (In name (num_options c) /\ parse_float value <> None).
  Definition valid (c : command) (i : item) : Prop :=
    match i with Opt n v | OptEq n v => valid_option c n v | Pos s => ~ starts_with_dash s end.

  (** the value in effect: given last, else the default *)
  Definition text_value (items : list item) (name default : string) : string :=
    match given items name with Some v => v | None => default end.
  Definition int_value (items : list item) (name : string) (default : Z) : Z :=
    match given items name with
    | Some v => match parse_int v with Some z => z | None => default end
    | None => default
    end.
  Definition num_value (items : list item) (name : string) (default : N) : N :=
    match given items name with
    | Some v => match parse_float v with Some x => x | None => default end
    | None => default
    end.

  (** ** Proofs *)
  Notation parse_args := (parse_args parse_int parse_float).
  Notation goselect := (goselect parse_int parse_float).
  Notation convert := (convert parse_int parse_float).

  Definition apply (fl : flagset N) (i : item) : flagset N :=
    match i with
    | Opt n v | OptEq n v =>
        match lookup n fl with
        | Some old => match convert old v with Some x => set_flag n x fl | None => fl end
        | None => fl
        end
    | Pos _ => fl
    end.

  (** the types of the flags do not change *)
  Definition typed (c : command) (fl : flagset N) : Prop :=
    (forall n, In n (text_options c) -> exists s, lookup n fl = Some (FStr s)) /\
    (forall n, In n (int_options c) -> exists z, lookup n fl = Some (FInt z)) /\
    (forall n, In n (num_options c) -> exists x, lookup n fl = Some (FNum x)).

  Lemma lookup_set : forall (fl : flagset N) n v m, lookup m (set_flag n v fl) =
    if String.eqb n m then match lookup n fl with Some _ => Some v | None => None end else lookup m fl.
  Proof.
    induction fl as [|[k x] fl IH]; intros n v m; cbn [set_flag lookup]; [destruct (String.eqb n m); reflexivity|].
    destruct (String.eqb_spec k n) as [->|Hk]; cbn [lookup].
    - destruct (String.eqb_spec n m); reflexivity.
    - rewrite IH. destruct (String.eqb_spec k m) as [->|Hm]; [|reflexivity]. destruct (String.eqb_spec n m); [congruence|reflexivity].
  Qed.

  Lemma typed_flags : forall c, typed c (flags_of c).
  Proof.
    intros []; (split; [|split]); intros n H; cbn in H; repeat (destruct H as [<-|H]; [eexists; reflexivity|]); destruct H.
  Qed.

  Lemma text_int : forall c n, In n (text_options c) -> In n (int_options c) -> False.
  Proof. intros [] n H1 H2; cbn in H1, H2; intuition (subst; discriminate). Qed.
  Lemma text_num : forall c n, In n (text_options c) -> In n (num_options c) -> False.
  Proof. intros [] n H1 H2; cbn in H1, H2; intuition (subst; discriminate). Qed.
  Lemma int_num : forall c n, In n (int_options c) -> In n (num_options c) -> False.
  Proof. intros [] n H1 H2; cbn in H1, H2; intuition (subst; discriminate). Qed.

  Definition option_name (n : string) : Prop :=
    (exists c t, n = String c t /\ Ascii.eqb c "-" = false /\ Ascii.eqb c "=" = false) /\
    (forall v, split_eq (n ++ "=" ++ v)%string = (n, Some v)) /\ split_eq n = (n, None).

  Lemma split_app : forall n v, split_eq n = (n, None) -> split_eq (n ++ String "=" v)%string = (n, Some v).
  Proof.
    induction n as [|c n IH]; intros v H; [reflexivity|]. cbn [split_eq String.append] in *.
    destruct (Ascii.eqb c "="); [discriminate|]. destruct (split_eq n) as [a b] eqn:E. injection H as -> ->.
    rewrite (IH v eq_refl). reflexivity.
  Qed.

  Lemma known_name : forall c n, In n (text_options c) \/ In n (int_options c) \/ In n (num_options c) -> option_name n /\ n <> "help"%string.
  Proof.
    intros c n H. assert (G : In n ["csv"; "out"; "config"; "type"; "cov"; "target"; "maxqueue"; "num"; "sweeps"; "cutoff"; "lmin"; "lmax"; "tol"]%string).
    { destruct c; cbn in H |- *; intuition (subst; auto). }
    cbn in G. repeat (destruct G as [<-|G]; [split; [split; [do 2 eexists; repeat split|split; [intro v; apply split_app; reflexivity|reflexivity]]|discriminate]|]). destruct G.
  Qed.

  Lemma valid_known : forall c n v, valid_option c n v -> option_name n /\ n <> "help"%string.
  Proof. intros c n v [H|[[H _]|[H _]]]; eapply known_name; eauto. Qed.

  Lemma valid_convert : forall c fl n v, typed c fl -> valid_option c n v ->
    exists old x, lookup n fl = Some old /\ convert old v = Some x /\ (forall b, old <> FBool b).
  Proof.
    intros c fl n v (T1 & T2 & T3) [H|[[H P]|[H P]]].
    - destruct (T1 n H) as (s & E). exists (FStr s), (FStr v). split; [exact E|]. split; [reflexivity|discriminate].
    - destruct (T2 n H) as (s & E). destruct (parse_int v) as [z|] eqn:Ep; [|congruence]. exists (FInt s), (FInt z). split; [exact E|]. cbn. rewrite Ep. split; [reflexivity|discriminate].
    - destruct (T3 n H) as (s & E). destruct (parse_float v) as [z|] eqn:Ep; [|congruence]. exists (FNum s), (FNum z). split; [exact E|]. cbn. rewrite Ep. split; [reflexivity|discriminate].
  Qed.

  Lemma typed_set : forall c fl n v old x, typed c fl -> lookup n fl = Some old -> convert old v = Some x -> typed c (set_flag n x fl).
  Proof.
    intros c fl n v old x (T1 & T2 & T3) E C. split; [|split]; intros m H; rewrite lookup_set; destruct (String.eqb_spec n m) as [->|_]; auto; rewrite E.
    - destruct (T1 m H) as (s & E'). rewrite E' in E. injection E as <-. cbn in C. injection C as <-. eauto.
    - destruct (T2 m H) as (s & E'). rewrite E' in E. injection E as <-. cbn in C. destruct (parse_int v); [|discriminate]. injection C as <-. eauto.
    - destruct (T3 m H) as (s & E'). rewrite E' in E. injection E as <-. cbn in C. destruct (parse_float v); [|discriminate]. injection C as <-. eauto.
  Qed.

  Lemma parse_item : forall c fl i rest, typed c fl -> valid c i -> parse_args fl (words i ++ rest) = parse_args (apply fl i) rest /\ typed c (apply fl i).
  Proof.
    intros c fl i rest T V. destruct i as [n v|n v|s]; cbn [valid words apply app] in *.
    - destruct (valid_known c n v V) as [((c0 & t & En & H1 & H2) & _ & Sp) _]. destruct (valid_convert c fl n v T V) as (old & x & E & C & Hb).
      rewrite E, C. split; [|eapply typed_set; eassumption]. cbn [Model_Flags.parse_args String.append]. change (Ascii.eqb "-" "-") with true. cbv iota.
      rewrite En at 1. rewrite H1, H2. cbn [orb]. rewrite Sp, E. destruct old; try (exfalso; eapply Hb; reflexivity); rewrite C; reflexivity.
    - destruct (valid_known c n v V) as [((c0 & t & En & H1 & H2) & Sp & _) _]. destruct (valid_convert c fl n v T V) as (old & x & E & C & Hb).
      rewrite E, C. split; [|eapply typed_set; eassumption]. cbn [Model_Flags.parse_args]. change ("--" ++ n ++ "=" ++ v)%string with (String "-" (String "-" (n ++ "=" ++ v)%string)).
      cbv iota. change (Ascii.eqb "-" "-") with true. cbv iota. specialize (Sp v).
      destruct (n ++ "=" ++ v)%string as [|c1 t1] eqn:Es; [rewrite En in Es; discriminate|].
      assert (c1 = c0) by (rewrite En in Es; cbn in Es; injection Es as -> _; reflexivity). subst c1. rewrite H1, H2. cbn [orb]. rewrite Sp, E, C. reflexivity.
    - split; [|exact T]. destruct s as [|c1 [|c2 t]]; [reflexivity|reflexivity|]. cbn [Model_Flags.parse_args].
      destruct (Ascii.eqb_spec c1 "-") as [->|_]; [|reflexivity]. exfalso. apply V. exists c2, t. reflexivity.
  Qed.

  Lemma parse_items : forall c items fl rest, typed c fl -> (forall i, In i items -> valid c i) ->
    parse_args fl (command_line items ++ rest) = parse_args (fold_left apply items fl) rest /\ typed c (fold_left apply items fl).
  Proof.
    induction items as [|i items IH]; intros fl rest T V; [split; [reflexivity|exact T]|].
    unfold command_line. cbn [flat_map fold_left]. rewrite <- app_assoc.
    destruct (parse_item c fl i (flat_map words items ++ rest) T (V i (or_introl eq_refl))) as [E T']. rewrite E.
    apply IH; [exact T'|]. intros j Hj. apply V. right. exact Hj.
  Qed.

  Lemma lookup_apply : forall fl i n, lookup n (apply fl i) =
    match lookup n fl with
    | None => None
    | Some old => Some match given [i] n with Some v => match convert old v with Some x => x | None => old end | None => old end
    end.
  Proof.
    intros fl i n. destruct i as [k v|k v|s]; cbn [apply given]; [| |destruct (lookup n fl); reflexivity];
    (destruct (lookup k fl) as [old|] eqn:E;
     [destruct (convert old v) as [x|] eqn:C; [rewrite lookup_set|]; destruct (String.eqb_spec k n) as [->|Hn]; rewrite ?E, ?C; try reflexivity; destruct (lookup n fl); reflexivity
     |destruct (String.eqb_spec k n) as [->|Hn]; rewrite ?E; try reflexivity; destruct (lookup n fl); reflexivity]).
  Qed.

  Definition same_type (a b : fval N) : Prop :=
    match a, b with FStr _, FStr _ | FInt _, FInt _ | FNum _, FNum _ | FBool _, FBool _ => True | _, _ => False end.

  Lemma convert_type : forall old v x, convert old v = Some x -> same_type old x.
  Proof.
    intros [s|z|y|b] v x; cbn; [|destruct (parse_int v)|destruct (parse_float v)|destruct (parse_bool v)]; intro H; try discriminate; injection H as <-; exact I.
  Qed.

  Lemma convert_same : forall a b v, same_type a b -> convert a v = convert b v.
  Proof. intros [s|z|y|b] [s'|z'|y'|b'] v H; try contradiction; reflexivity. Qed.

  Definition final (old : fval N) (o : option string) : fval N :=
    match o with Some v => match convert old v with Some x => x | None => old end | None => old end.

  Lemma final_type : forall old o, same_type old (final old o).
  Proof.
    intros old [v|]; cbn; [destruct (convert old v) as [x|] eqn:C; [eapply convert_type; exact C|]|]; destruct old; exact I.
  Qed.

  Lemma same_refl : forall a, same_type a a.
  Proof. intros []; exact I. Qed.

  (** items all of whose values for [n] convert *)
  Lemma lookup_items : forall items fl n old, lookup n fl = Some old ->
    (forall i v, In i items -> (i = Opt n v \/ i = OptEq n v) -> convert old v <> None) ->
    lookup n (fold_left apply items fl) = Some (final old (given items n)).
  Proof.
    induction items as [|i items IH]; intros fl n old E V; [exact E|]. cbn [fold_left].
    pose proof (lookup_apply fl i n) as L. rewrite E in L. set (old' := final old (given [i] n)) in *. change (lookup n (apply fl i) = Some old') in L.
    assert (St : same_type old old') by apply final_type.
    rewrite (IH (apply fl i) n old' L).
    2:{ intros j v Hj Ej. rewrite <- (convert_same old old' v St). apply (V j v); [right; exact Hj|exact Ej]. }
    f_equal. cbn [given]. destruct (given items n) as [v|] eqn:G.
    - cbn [final]. rewrite <- (convert_same old old' v St).
      assert (C : convert old v <> None).
      { clear - V G. assert (V' : forall i v, In i items -> i = Opt n v \/ i = OptEq n v -> convert old v <> None) by (intros j w Hj; apply V; right; exact Hj). clear V.
        revert v G. induction items as [|j l IHl]; intros v G; [discriminate|]. cbn [given] in G. destruct (given l n) as [w|] eqn:G'.
        - injection G as <-. apply IHl; [|reflexivity]. intros k w' Hk. apply V'. right. exact Hk.
        - destruct j as [k w|k w|s]; [| |discriminate]; destruct (String.eqb_spec k n) as [->|]; try discriminate; injection G as <-; eapply V'; [left; reflexivity|auto|left; reflexivity|auto]. }
      destruct (convert old v); [reflexivity|congruence].
    - reflexivity.
  Qed.

  Lemma help_untouched : forall c items fl, (forall i, In i items -> valid c i) -> lookup "help" fl = Some (FBool false) ->
    lookup "help" (fold_left apply items fl) = Some (FBool false).
  Proof.
    intros c items fl V E. rewrite (lookup_items items fl "help" (FBool false) E).
    - assert (G : given items "help" = None).
      { clear E. induction items as [|i l IH]; [reflexivity|]. cbn [given]. rewrite IH by (intros j Hj; apply V; right; exact Hj).
        specialize (V i (or_introl eq_refl)). destruct i as [k w|k w|s]; cbn [valid] in V; try reflexivity; apply valid_known in V; destruct V as [_ V];
        destruct (String.eqb_spec k "help"); congruence. }
      rewrite G. reflexivity.
    - intros i v Hi Ei. specialize (V i Hi). destruct Ei as [->| ->]; cbn [valid] in V; apply valid_known in V; destruct V; congruence.
  Qed.

  Section Values.
    Variables (c : command) (items : list item).
    Hypothesis V : forall i, In i items -> valid c i.
    Let fl := fold_left apply items (flags_of c).

    Lemma get_text : forall n d, In n (text_options c) -> lookup (N := N) n (flags_of c) = Some (FStr d) -> get_string fl n = text_value items n d.
    Proof.
      intros n d Hn E. unfold get_string, fl. rewrite (lookup_items items _ n _ E) by discriminate. unfold text_value, final. cbn [Model_Flags.convert]. destruct (given items n); reflexivity.
    Qed.

    Lemma get_whole : forall n d, In n (int_options c) -> lookup (N := N) n (flags_of c) = Some (FInt d) -> get_int fl n = int_value items n d.
    Proof.
      intros n d Hn E. unfold get_int, fl. rewrite (lookup_items items _ n _ E).
      - unfold int_value, final. cbn [Model_Flags.convert]. destruct (given items n) as [v|]; [|reflexivity]. destruct (parse_int v); reflexivity.
      - intros i v Hi Ei. specialize (V i Hi). cbn [Model_Flags.convert].
        assert (W : valid_option c n v) by (destruct Ei as [->| ->]; exact V).
        destruct W as [W|[[_ W]|[W _]]]; [exfalso; eapply text_int; eauto| |exfalso; eapply int_num; eauto]. destruct (parse_int v); congruence.
    Qed.

    Lemma get_number : forall n d, In n (num_options c) -> lookup n (flags_of c) = Some (FNum d) -> get_num fl n = num_value items n d.
    Proof.
      intros n d Hn E. unfold get_num, fl. rewrite (lookup_items items _ n _ E).
      - unfold num_value, final. cbn [Model_Flags.convert]. destruct (given items n) as [v|]; [|reflexivity]. destruct (parse_float v); reflexivity.
      - intros i v Hi Ei. specialize (V i Hi). cbn [Model_Flags.convert].
        assert (W : valid_option c n v) by (destruct Ei as [->| ->]; exact V).
        destruct W as [W|[[W _]|[_ W]]]; [exfalso; eapply text_num; eauto|exfalso; eapply int_num; eauto|]. destruct (parse_float v); congruence.
    Qed.

    Lemma parsed : parse_args (flags_of c) (command_line items) = Some fl /\ lookup "help" fl = Some (FBool false).
    Proof.
      split.
      - destruct (parse_items c items (flags_of c) [] (typed_flags c) V) as [E _]. rewrite app_nil_r in E. exact E.
      - apply (help_untouched c); [exact V|]. destruct c; reflexivity.
    Qed.
  End Values.

  (** ** C100 *)

  (** Options written "--name value" or "--name=value", in any order and mixed
      with other arguments: the value given last counts, defaults fill in the
      rest, the other arguments are ignored. *)
  Theorem C100_bnb : forall items, (forall i, In i items -> valid Bnb i) ->
    goselect Bnb (command_line items) =
      Called (FindOptimalSolution (text_value items "csv" "") (int_value items "target" (-1)) (num_value items "cutoff" n0)
                                  (text_value items "out" "bnbSearch.json") (int_value items "maxqueue" 10000000)).
  Proof.
    intros items V. unfold Model_Flags.goselect. destruct (parsed Bnb items V) as [E H]. rewrite E, H.
    rewrite (get_text Bnb items "csv" ""), (get_text Bnb items "out" "bnbSearch.json"), (get_whole Bnb items V "target" (-1)),
      (get_whole Bnb items V "maxqueue" 10000000), (get_number Bnb items V "cutoff" n0); try reflexivity; cbn; tauto.
  Qed.

  (** the same for goselect lasso; without a file name it only prints a message *)
  Theorem C100_lasso : forall items, (forall i, In i items -> valid Lasso i) ->
    goselect Lasso (command_line items) =
      (if String.eqb (text_value items "csv" "") "" then NoCsvMessage else
       Called (LassoFit (text_value items "csv" "") (int_value items "target" (-1)) (text_value items "out" "lasso.json")
                        (num_value items "lmin" (ndec 1 (-10))) (num_value items "lmax" n1) (int_value items "num" 50)
                        (text_value items "type" "lars") (text_value items "cov" "empirical") (num_value items "tol" (ndec 1 (-4))))).
  Proof.
    intros items V. unfold Model_Flags.goselect. destruct (parsed Lasso items V) as [E H]. rewrite E, H.
    rewrite (get_text Lasso items "csv" ""), (get_text Lasso items "out" "lasso.json"), (get_text Lasso items "type" "lars"), (get_text Lasso items "cov" "empirical"),
      (get_whole Lasso items V "target" (-1)), (get_whole Lasso items V "num" 50),
      (get_number Lasso items V "lmin" (ndec 1 (-10))), (get_number Lasso items V "lmax" n1), (get_number Lasso items V "tol" (ndec 1 (-4))); try reflexivity; cbn; tauto.
  Qed.

  Theorem C100_sasearch : forall items, (forall i, In i items -> valid SaSearch i) ->
    goselect SaSearch (command_line items) =
      Called (SaSearchRun (text_value items "csv" "") (int_value items "target" (-1)) (text_value items "out" "saSearch.json")
                          (int_value items "sweeps" 100)).
  Proof.
    intros items V. unfold Model_Flags.goselect. destruct (parsed SaSearch items V) as [E H]. rewrite E, H.
    rewrite (get_text SaSearch items "csv" ""), (get_text SaSearch items "out" "saSearch.json"), (get_whole SaSearch items V "target" (-1)),
      (get_whole SaSearch items V "sweeps" 100); try reflexivity; cbn; tauto.
  Qed.

  (** An option with a single dash is rejected, whatever comes before and after
      it: nothing is run.  (Exceptions: -h, and pflag ignores "-test. ...".) *)
  Theorem C100_single_dash : forall c items x t rest, (forall i, In i items -> valid c i) ->
    x <> "-"%char -> x <> "h"%char -> String.prefix "test." (String x t) = false ->
    goselect c (command_line items ++ String "-" (String x t) :: rest) = Rejected.
  Proof.
    intros c items x t rest V H1 H2 H3. unfold Model_Flags.goselect.
    destruct (parse_items c items (flags_of c) (String "-" (String x t) :: rest) (typed_flags c) V) as [E _]. rewrite E.
    cbn [Model_Flags.parse_args]. change (Ascii.eqb "-" "-") with true. cbv iota.
    destruct (Ascii.eqb_spec x "-") as [|_]; [congruence|].
    assert (S : parse_short (N := N) (String x t) (fold_left apply items (flags_of c)) = None).
    { cbn [parse_short]. rewrite H3. destruct (Ascii.eqb_spec x "h"); [congruence|reflexivity]. }
    rewrite S. reflexivity.
  Qed.

  (** So is an option the command does not have ... *)
  Theorem C100_unknown_option : forall c items n rest, (forall i, In i items -> valid c i) ->
    ~ In n (text_options c ++ int_options c ++ num_options c) -> n <> "help"%string -> n <> ""%string -> split_eq n = (n, None) ->
    goselect c (command_line items ++ ("--" ++ n)%string :: rest) = Rejected /\
    forall v, goselect c (command_line items ++ ("--" ++ n ++ "=" ++ v)%string :: rest) = Rejected.
  Proof.
    intros c items n rest V Hn Hh He Sp. unfold Model_Flags.goselect.
    assert (L : lookup n (fold_left apply items (flags_of c)) = None).
    { assert (L0 : lookup (N := N) n (flags_of c) = None).
      { assert (Q : forall fl : flagset N, ~ In n (map fst fl) -> lookup n fl = None).
        { induction fl as [|[k x] fl IH]; intro Q; [reflexivity|]. cbn [lookup]. destruct (String.eqb_spec k n) as [->|_]; [exfalso; apply Q; left; reflexivity|].
          apply IH. intro C. apply Q. right. exact C. }
        apply Q. intro C. destruct c; cbn in C, Hn; intuition (subst; auto). }
      revert L0. generalize (flags_of (N := N) c). clear. induction items as [|i l IH]; intros fl L0; [exact L0|]. cbn [fold_left]. apply IH.
      rewrite lookup_apply, L0. reflexivity. }
    destruct n as [|c0 t]; [congruence|]. split; [|intro v].
    - destruct (parse_items c items (flags_of c) (("--" ++ String c0 t)%string :: rest) (typed_flags c) V) as [E _]. rewrite E.
      cbn [Model_Flags.parse_args String.append]. change (Ascii.eqb "-" "-") with true. cbv iota.
      destruct (Ascii.eqb c0 "-" || Ascii.eqb c0 "=")%bool; [reflexivity|]. rewrite Sp, L. reflexivity.
    - destruct (parse_items c items (flags_of c) (("--" ++ String c0 t ++ "=" ++ v)%string :: rest) (typed_flags c) V) as [E _]. rewrite E.
      pose proof (split_app (String c0 t) v Sp) as Sp2. cbn [String.append] in Sp2.
      cbn [Model_Flags.parse_args String.append]. change (Ascii.eqb "-" "-") with true. cbv iota.
      destruct (Ascii.eqb c0 "-" || Ascii.eqb c0 "=")%bool; [reflexivity|]. rewrite Sp2, L. reflexivity.
  Qed.

  (** ... and a value that is no number where one is needed, or no value at all. *)
  Theorem C100_bad_value : forall c items n v rest, (forall i, In i items -> valid c i) ->
    (In n (int_options c) /\ parse_int v = None) \/ (In n (num_options c) /\ parse_float v = None) ->
    goselect c (command_line items ++ command_line [Opt n v] ++ rest) = Rejected /\
    goselect c (command_line items ++ command_line [OptEq n v] ++ rest) = Rejected.
  Proof.
    intros c items n v rest V H. unfold Model_Flags.goselect.
    destruct (known_name c n) as [((c0 & t & En & H1 & H2) & Sp & Sp0) _]; [destruct H as [[H _]|[H _]]; auto|].
    set (fl := fold_left apply items (flags_of c)).
    assert (B : exists old, lookup n fl = Some old /\ convert old v = None /\ forall b, old <> FBool b).
    { destruct (parse_items c items (flags_of c) [] (typed_flags c) V) as [_ (T1 & T2 & T3)]. destruct H as [[H P]|[H P]].
      - destruct (T2 n H) as (z & E). exists (FInt z). split; [exact E|]. cbn. rewrite P. split; [reflexivity|discriminate].
      - destruct (T3 n H) as (z & E). exists (FNum z). split; [exact E|]. cbn. rewrite P. split; [reflexivity|discriminate]. }
    destruct B as (old & E & C & Hb). split.
    - destruct (parse_items c items (flags_of c) (command_line [Opt n v] ++ rest) (typed_flags c) V) as [Ep _]. rewrite Ep. fold fl.
      cbn [command_line flat_map words app Model_Flags.parse_args String.append]. change (Ascii.eqb "-" "-") with true. cbv iota.
      rewrite En at 1. rewrite H1, H2. cbn [orb]. rewrite Sp0, E. destruct old; try (exfalso; eapply Hb; reflexivity); rewrite C; reflexivity.
    - destruct (parse_items c items (flags_of c) (command_line [OptEq n v] ++ rest) (typed_flags c) V) as [Ep _]. rewrite Ep. fold fl.
      specialize (Sp v). cbn [command_line flat_map words app Model_Flags.parse_args String.append] in *. change (Ascii.eqb "-" "-") with true. cbv iota.
      destruct (n ++ String "=" v)%string as [|c1 t1] eqn:Es; [rewrite En in Es; discriminate|].
      assert (c1 = c0) by (rewrite En in Es; cbn in Es; injection Es as -> _; reflexivity). subst c1. rewrite H1, H2. cbn [orb]. rewrite Sp, E, C. reflexivity.
  Qed.
End C100.
Print Assumptions C100_bnb.
Print Assumptions C100_lasso.
Print Assumptions C100_sasearch.
Print Assumptions C100_single_dash.
Print Assumptions C100_unknown_option.
Print Assumptions C100_bad_value.

(** The examples of the help texts (cmd/bnb.go:38, cmd/sasearch.go:39) do not work. *)
Theorem C100_documented_examples_refuted : forall (N : Num) parse_int (parse_float : string -> option N),
  goselect parse_int parse_float Bnb ["-csv"; "mydataset.csv"; "-target"; "-1"; "-out"; "result.json"] = Rejected /\
  goselect parse_int parse_float SaSearch ["-csv"; "mydatafile.csv"; "-target"; "-1"; "-out"; "result.json"; "-sweeps"; "40"] = Rejected.
Proof. intros. split; reflexivity. Qed.
Print Assumptions C100_documented_examples_refuted.

(** with two dashes they do, and the target may be negative *)
Definition int100 (s : string) : option Z :=
  if String.eqb s "-1" then Some (-1)%Z else if String.eqb s "40" then Some 40%Z else if String.eqb s "2" then Some 2%Z else None.
Definition line100 : list item := [OptEq "target" "2"; Pos "other.csv"; Opt "csv" "a=b.csv"; Opt "target" "-1"; OptEq "out" ""; Opt "sweeps" "40"].
Example C100_example :
  (forall i, In i line100 -> valid (F64 fenv0) int100 (fun _ => None) SaSearch i) /\
  command_line line100 = ["--target=2"; "other.csv"; "--csv"; "a=b.csv"; "--target"; "-1"; "--out="; "--sweeps"; "40"]%string /\
  goselect (N := F64 fenv0) int100 (fun _ => None) SaSearch (command_line line100) = Called (SaSearchRun "a=b.csv" (-1) "" 40) /\
  goselect (N := F64 fenv0) int100 (fun _ => None) SaSearch ["--sweeps"; "4.5"]%string = Rejected /\
  goselect (N := F64 fenv0) int100 (fun _ => None) Lasso [] = NoCsvMessage /\
  goselect (N := F64 fenv0) int100 (fun _ => None) Bnb ["-h"]%string = Help.
Proof.
  split; [|repeat split].
  intros i H. cbn in H. repeat (destruct H as [<-|H]; [cbn [valid]; try (left; cbn; tauto); try (right; left; split; [cbn; tauto|discriminate])|]); [|destruct H].
  intros (c & t & E). discriminate.
Qed.

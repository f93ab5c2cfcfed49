(** C102: goselect lasso and sasearch from the command line to the output file. *)
From Coq Require Import FunctionalExtensionality String Ascii Reals Lra Sorted Permutation.
From Verif Require Import Base Num Mat Model_Node Model_Util Model_Norm Model_Fit Model_SA Model_CSV Model_CSVBytes Spec_CSVBytes Model_Lars Model_Path
  Model_Cmd Model_Flags Model_Shell.
From Verif Require Import RSum Stats Proof_Util Proof_XR Proof_Norm Proof_Norm2 Spec_Fit Spec_Lars Spec_Path Proof_Homotopy Proof_Lars2 Proof_Fit
  Eval Ex_Nested Props_Util Props_Fit Spec_LassoCmd Props_Lars Props_Path Props_Cmd Props_CSV Props_CSVBytes Props_Flags Props_LassoCmd.
Open Scope list_scope.

(** ** Specification *)

Definition options (c : command) : list string := text_options c ++ int_options c ++ num_options c.

(** two command lines give every option the same value (or leave it out both) *)
Definition same_options (c : command) (items items' : list item) : Prop :=
  forall n, In n (options c) -> given items n = given items' n.
Definition same_options_but_out (c : command) (items items' : list item) : Prop :=
  forall n, In n (options c) -> n <> "out"%string -> given items n = given items' n.

(** the name of an option *)
Definition name_of (i : item) : list string := match i with Opt n _ | OptEq n _ => [n] | Pos _ => [] end.

(** the files a command uses *)
Definition csv_of (items : list item) : string := text_value items "csv" "".
Definition out_of (c : command) (items : list item) : string :=
  text_value items "out" (match c with Lasso => "lasso.json" | SaSearch => "saSearch.json" | Bnb => "bnbSearch.json" end).

(** two runs that end alike, the file having another name in the second *)
Definition renamed {N : Num} (f f' : string) (e e' : ending N) : Prop :=
  match e, e' with
  | Returned t (Some (g, w)), Returned t' (Some (g', w')) => t = t' /\ w = w' /\ g = f /\ g' = f'
  | _, _ => e = e'
  end.

Section C102.
  Variable N : Num.
  Variable parse_int : string -> option Z.
  Variable parse_float : string -> option N.
  Variable srt : list (N * nat) -> list (N * nat).
  Variable larsF : NormalizedData N -> N -> res (list (LassoLarsNode N)).
  Variable crdF : (Mat N -> res (Mat N)) -> NormalizedData N -> list N -> N -> res (list (LassoLarsNode N)).
  Variable thr : Mat N -> res N.
  Variable svd : Mat N -> SVD N.
  Variable ri : nat -> nat.
  Variable rf : nat -> N.
  Variable fuel : nat.
  Notation shell := (shell parse_int parse_float srt larsF crdF thr svd ri rf fuel).
  Notation valid := (valid N parse_int parse_float).
  Notation int_value := (int_value parse_int).
  Notation num_value := (num_value N parse_float).

  (** ** Proofs *)
  Lemma lasso_run : forall items fs, (forall i, In i items -> valid Lasso i) ->
    shell Lasso fs (command_line items) =
      if String.eqb (csv_of items) "" then NothingRun else
      match lasso_main parse_float srt larsF crdF thr fs (csv_of items) (int_value items "target" (-1)) (out_of Lasso items)
              (num_value items "lmin" (ndec 1 (-10))) (num_value items "lmax" n1) (int_value items "num" 50)
              (text_value items "type" "lars") (text_value items "cov" "empirical") (num_value items "tol" (ndec 1 (-4)))
      with Ok (t, f) => Returned t f | Panic => Crashed | Fuel => StillRunning end.
  Proof.
    intros items fs V. unfold Model_Shell.shell. rewrite (C100_lasso N parse_int parse_float items V).
    unfold csv_of. destruct (String.eqb _ ""); reflexivity.
  Qed.

  Lemma sa_run : forall items fs, (forall i, In i items -> valid SaSearch i) ->
    shell SaSearch fs (command_line items) =
      match sasearch_main parse_float svd ri rf fuel fs (csv_of items) (int_value items "target" (-1)) (out_of SaSearch items) (int_value items "sweeps" 100)
      with Ok (t, f) => Returned t f | Panic => Crashed | Fuel => StillRunning end.
  Proof.
    intros items fs V. unfold Model_Shell.shell. rewrite (C100_sasearch N parse_int parse_float items V). reflexivity.
  Qed.

  Lemma read_same : forall fs fs' f t, fsRead fs f = fsRead fs' f -> ReadCSVFile parse_float fs f t = ReadCSVFile parse_float fs' f t.
  Proof. intros fs fs' f t H. unfold ReadCSVFile. rewrite H. reflexivity. Qed.

  (** The output is determined by the last value of each option and the bytes
      of the CSV file (and whether the output file can be written). *)
  Theorem C102_determined : forall c items items' fs fs', c = Lasso \/ c = SaSearch ->
    (forall i, In i items -> valid c i) -> (forall i, In i items' -> valid c i) -> same_options c items items' ->
    fsRead fs (csv_of items) = fsRead fs' (csv_of items) ->
    fsWritable fs (out_of c items) = fsWritable fs' (out_of c items) ->
    shell c fs (command_line items) = shell c fs' (command_line items').
  Proof.
    intros c items items' fs fs' Hc V V' S R W.
    assert (T : forall n d, In n (options c) -> text_value items' n d = text_value items n d) by (intros n d H; unfold text_value; rewrite (S n H); reflexivity).
    assert (I : forall n d, In n (options c) -> int_value items' n d = int_value items n d) by (intros n d H; unfold Props_Flags.int_value; rewrite (S n H); reflexivity).
    assert (F : forall n d, In n (options c) -> num_value items' n d = num_value items n d) by (intros n d H; unfold Props_Flags.num_value; rewrite (S n H); reflexivity).
    assert (C : csv_of items' = csv_of items) by (apply T; destruct Hc as [-> | ->]; cbn; tauto).
    assert (O : out_of c items' = out_of c items) by (apply T; destruct Hc as [-> | ->]; cbn; tauto).
    destruct Hc as [-> | ->].
    - rewrite !lasso_run by assumption. rewrite C, O, !I, !F, !T by (cbn; tauto). destruct (String.eqb _ _); [reflexivity|].
      unfold lasso_main, write_to. rewrite (read_same fs fs' _ _ R), W. reflexivity.
    - rewrite !sa_run by assumption. rewrite C, O, !I by (cbn; tauto).
      unfold sasearch_main, write_to. rewrite (read_same fs fs' _ _ R), W. reflexivity.
  Qed.

  Lemma given_perm : forall items items' n, Permutation items items' -> NoDup (flat_map name_of items) -> given items n = given items' n.
  Proof.
    assert (G0 : forall items n, ~ In n (flat_map name_of items) -> given items n = None).
    { induction items as [|i l IH]; intros n H; [reflexivity|]. cbn [given]. cbn [flat_map] in H. rewrite IH by (intro Q; apply H, in_or_app; auto).
      destruct i as [m v|m v|s]; [| |reflexivity]; (destruct (String.eqb_spec m n) as [->|]; [exfalso; apply H; left; reflexivity|reflexivity]). }
    intros items items' n P. induction P as [|i l l' P IH|i j l|l1 l2 l3 P1 IH1 P2 IH2]; intro ND.
    - reflexivity.
    - cbn [given]. rewrite IH; [reflexivity|]. cbn [flat_map] in ND. clear - ND. induction (name_of i) as [|a m IHm]; [exact ND|]. apply IHm. inversion ND; assumption.
    - cbn [given]. destruct (given l n) as [v|]; [reflexivity|].
      destruct i as [a v|a v|s], j as [b w|b w|u]; try reflexivity;
        try (destruct (String.eqb_spec a n) as [->|]; destruct (String.eqb_spec b n) as [->|]; try reflexivity;
             exfalso; cbn in ND; inversion ND as [|? ? Q _]; apply Q; left; reflexivity);
        try (destruct (String.eqb b n); reflexivity); destruct (String.eqb a n); reflexivity.
    - rewrite IH1 by exact ND. apply IH2. eapply Permutation_NoDup; [|exact ND].
      clear - P1. induction P1; cbn [flat_map]; [constructor|apply Permutation_app_head; assumption| |etransitivity; eassumption].
      rewrite !app_assoc. apply Permutation_app_tail. apply Permutation_app_comm.
  Qed.

  (** Options with different names can be written in any order. *)
  Theorem C102_order : forall c items items' fs, c = Lasso \/ c = SaSearch -> (forall i, In i items -> valid c i) ->
    Permutation items items' -> NoDup (flat_map name_of items) ->
    shell c fs (command_line items) = shell c fs (command_line items').
  Proof.
    intros c items items' fs Hc V P ND. apply C102_determined; auto.
    - intros i Hi. apply V. eapply Permutation_in; [symmetry; exact P|exact Hi].
    - intros n _. apply given_perm; assumption.
  Qed.

  (** No other file than the one named by --out is written, and that name makes
      no difference to what is written. *)
  Theorem C102_output : forall c items items' fs, c = Lasso \/ c = SaSearch ->
    (forall i, In i items -> valid c i) -> (forall i, In i items' -> valid c i) -> same_options_but_out c items items' ->
    (forall t f w, shell c fs (command_line items) = Returned t (Some (f, w)) -> f = out_of c items /\ fsWritable fs f = true) /\
    (fsWritable fs (out_of c items) = fsWritable fs (out_of c items') ->
     renamed (out_of c items) (out_of c items') (shell c fs (command_line items)) (shell c fs (command_line items'))).
  Proof.
    intros c items items' fs Hc V V' S.
    assert (T : forall n d, In n (options c) -> n <> "out"%string -> text_value items' n d = text_value items n d) by (intros n d H H'; unfold text_value; rewrite (S n H H'); reflexivity).
    assert (I : forall n d, In n (options c) -> n <> "out"%string -> int_value items' n d = int_value items n d) by (intros n d H H'; unfold Props_Flags.int_value; rewrite (S n H H'); reflexivity).
    assert (F : forall n d, In n (options c) -> n <> "out"%string -> num_value items' n d = num_value items n d) by (intros n d H H'; unfold Props_Flags.num_value; rewrite (S n H H'); reflexivity).
    assert (C : csv_of items' = csv_of items) by (apply T; [destruct Hc as [-> | ->]; cbn; tauto|discriminate]).
    destruct Hc as [-> | ->].
    - rewrite !lasso_run by assumption. rewrite C, !I, !F, !T by (cbn; tauto || discriminate).
      destruct (String.eqb _ _); [split; [discriminate|reflexivity]|]. unfold lasso_main, write_to.
      destruct (ReadCSVFile _ _ _ _) as [d| |]; cbn [bind]; try (split; [discriminate|reflexivity]).
      destruct (lassoFit _ _ _ _ _ _ _ _ _ _ _) as [o| |]; cbn [bind]; try (split; [discriminate|reflexivity]).
      destruct (loFile o) as [j|]; [|split; [discriminate|reflexivity]]. split.
      + intros t f w E. destruct (fsWritable fs _) eqn:W; [|discriminate]. injection E as _ <- _. auto.
      + intros W. rewrite <- W. destruct (fsWritable fs _); cbn; auto.
    - rewrite !sa_run by assumption. rewrite C, !I by (cbn; tauto || discriminate). unfold sasearch_main, write_to.
      destruct (ReadCSVFile _ _ _ _) as [[d|]| |]; cbn [bind]; try (split; [discriminate|reflexivity]).
      destruct (SelectModelSA _ _ _ _ _ _ _ _) as [[r s]| |]; cbn [bind]; try (split; [discriminate|reflexivity]).
      destruct (sa_write _) as [w| |]; cbn [bind]; try (split; [discriminate|reflexivity]). split.
      + intros t f w' E. destruct (fsWritable fs _) eqn:W; [|discriminate]. injection E as _ <- _. auto.
      + intros W. rewrite <- W. destruct (fsWritable fs _); cbn; auto.
  Qed.

  (** A usage error leaves everything alone, whatever the files. *)
  Theorem C102_usage_error : forall c items fs, (forall i, In i items -> valid c i) ->
    (forall x t rest, x <> "-"%char -> x <> "h"%char -> String.prefix "test." (String x t) = false ->
       shell c fs (command_line items ++ String "-" (String x t) :: rest) = NothingRun) /\
    (forall n rest, ~ In n (options c) -> n <> "help"%string -> n <> ""%string -> split_eq n = (n, None) ->
       shell c fs (command_line items ++ ("--" ++ n)%string :: rest) = NothingRun) /\
    (forall n v rest, (In n (int_options c) /\ parse_int v = None) \/ (In n (num_options c) /\ parse_float v = None) ->
       shell c fs (command_line items ++ command_line [Opt n v] ++ rest) = NothingRun).
  Proof.
    intros c items fs V. unfold Model_Shell.shell. split; [|split].
    - intros x t rest H1 H2 H3. rewrite (C100_single_dash N parse_int parse_float c items x t rest V H1 H2 H3). reflexivity.
    - intros n rest H1 H2 H3 H4. rewrite (proj1 (C100_unknown_option N parse_int parse_float c items n rest V H1 H2 H3 H4)). reflexivity.
    - intros n v rest H. rewrite (proj1 (C100_bad_value N parse_int parse_float c items n v rest V H)). reflexivity.
  Qed.

  (** A CSV file that cannot be opened makes the command crash; lasso without
      --csv prints a message instead. *)
  Theorem C102_missing_file : forall c items fs, c = Lasso \/ c = SaSearch -> (forall i, In i items -> valid c i) ->
    fsRead fs (csv_of items) = None ->
    shell c fs (command_line items) = if (match c with Lasso => String.eqb (csv_of items) "" | _ => false end) then NothingRun else Crashed.
  Proof.
    intros c items fs [-> | ->] V R.
    - rewrite lasso_run by exact V. destruct (String.eqb _ _); [reflexivity|]. unfold lasso_main, ReadCSVFile. rewrite R. reflexivity.
    - rewrite sa_run by exact V. unfold sasearch_main, ReadCSVFile. rewrite R. reflexivity.
  Qed.

  (** Windows line ends and a newline at the end of the CSV file make no difference. *)
  Theorem C102_line_ends : forall c items fs fs' b, c = Lasso \/ c = SaSearch -> (forall i, In i items -> valid c i) ->
    fsRead fs (csv_of items) = Some b ->
    (fsRead fs' (csv_of items) = Some (dos b) /\ ~ In cCR b) \/ fsRead fs' (csv_of items) = Some (b ++ [cLF]) ->
    fsWritable fs (out_of c items) = fsWritable fs' (out_of c items) ->
    shell c fs (command_line items) = shell c fs' (command_line items).
  Proof.
    intros c items fs fs' b Hc V R R' W.
    assert (E : forall t, ReadCSVFile parse_float fs' (csv_of items) t = ReadCSVFile parse_float fs (csv_of items) t).
    { intro t. unfold ReadCSVFile. rewrite R. destruct R' as [[-> H]| ->]; [rewrite C99_windows by exact H|rewrite C99_final_newline]; reflexivity. }
    destruct Hc as [-> | ->].
    - rewrite !lasso_run by exact V. destruct (String.eqb _ _); [reflexivity|]. unfold lasso_main, write_to. rewrite E, W. reflexivity.
    - rewrite !sa_run by exact V. unfold sasearch_main, write_to. rewrite E, W. reflexivity.
  Qed.

  (** On a file written by Save, with --target the column of the target (or not
      given, if that is the last one), lasso works on the dataset that was
      saved, the numbers being what their text says. *)
  Theorem C102_saved : forall space sprintf (d : Dataset N) items fs file,
    (forall i, In i items -> valid Lasso i) -> csv_of items <> ""%string ->
    consistent d -> (forall x, plain_text (sprintf x)) -> (forall n, In n (dsNames d) -> plain_text n) ->
    int_value items "target" (-1) = dsTargetCol d \/
      int_value items "target" (-1) = (dsTargetCol d - Z.of_nat (length (dsNames d)))%Z ->
    SaveBytes space sprintf d = Ok file -> fsRead fs (csv_of items) = Some file ->
    exists e, same_with (fun x => value parse_float (sprintf x)) d e /\
      shell Lasso fs (command_line items) =
      match lassoFit srt larsF crdF thr (Some e) (num_value items "lmin" (ndec 1 (-10))) (num_value items "lmax" n1) (int_value items "num" 50)
              (text_value items "type" "lars") (text_value items "cov" "empirical") (num_value items "tol" (ndec 1 (-4))) with
      | Ok o => Returned (loTable o) (match loFile o with
                  | Some j => if fsWritable fs (out_of Lasso items) then Some (out_of Lasso items, WLasso j) else None
                  | None => None end)
      | Panic => Crashed
      | Fuel => StillRunning
      end.
  Proof.
    intros space sprintf d items fs file V Hcsv Hc Hp Hn Ht ES R.
    destruct (C99_dataset N space sprintf parse_float d (int_value items "target" (-1)) Hc Hp Ht) as (f & e & E1 & E2 & E3).
    rewrite ES in E1. injection E1 as <-. exists e. split.
    - assert (En : map (text_map crlf) (dsNames d) = dsNames d).
      { clear - Hn. induction (dsNames d) as [|a l IH]; [reflexivity|]. cbn [map]. rewrite text_map_plain by (apply Hn; left; reflexivity).
        f_equal. apply IH. intros n H. apply Hn. right. exact H. }
      rewrite En in E3. destruct d. exact E3.
    - rewrite lasso_run by exact V. apply String.eqb_neq in Hcsv. rewrite Hcsv. unfold lasso_main, ReadCSVFile. rewrite R. rewrite E2. cbn [bind].
      destruct (lassoFit _ _ _ _ _ _ _ _ _ _ _); reflexivity.
  Qed.

  (** Likewise sasearch: Save, then sasearch --sweeps, is SelectModelSA with
      Aicc on the dataset saved, and the scores it returns are written. *)
  Theorem C102_saved_sa : forall space sprintf (d : Dataset N) items fs file,
    (forall i, In i items -> valid SaSearch i) ->
    consistent d -> (forall x, plain_text (sprintf x)) -> (forall n, In n (dsNames d) -> plain_text n) ->
    int_value items "target" (-1) = dsTargetCol d \/
      int_value items "target" (-1) = (dsTargetCol d - Z.of_nat (length (dsNames d)))%Z ->
    SaveBytes space sprintf d = Ok file -> fsRead fs (csv_of items) = Some file ->
    exists e, same_with (fun x => value parse_float (sprintf x)) d e /\
      (forall r n, SelectModelSA svd (dsX e) (dsY e) (int_value items "sweeps" 100) Aicc ri rf fuel = Ok (r, n) ->
         shell SaSearch fs (command_line items) =
         match sa_write (srScores r) with
         | Ok c => Returned None (if fsWritable fs (out_of SaSearch items) then Some (out_of SaSearch items, WSa c) else None)
         | Panic => Crashed
         | Fuel => StillRunning
         end) /\
      (SelectModelSA svd (dsX e) (dsY e) (int_value items "sweeps" 100) Aicc ri rf fuel = Panic ->
         shell SaSearch fs (command_line items) = Crashed).
  Proof.
    intros space sprintf d items fs file V Hc Hp Hn Ht ES R.
    destruct (C99_dataset N space sprintf parse_float d (int_value items "target" (-1)) Hc Hp Ht) as (f & e & E1 & E2 & E3).
    rewrite ES in E1. injection E1 as <-. exists e. split; [|split].
    - assert (En : map (text_map crlf) (dsNames d) = dsNames d).
      { clear - Hn. induction (dsNames d) as [|a l IH]; [reflexivity|]. cbn [map]. rewrite text_map_plain by (apply Hn; left; reflexivity).
        f_equal. apply IH. intros n H. apply Hn. right. exact H. }
      rewrite En in E3. destruct d. exact E3.
    - intros r n ER. rewrite sa_run by exact V. unfold sasearch_main, ReadCSVFile. rewrite R, E2. cbn [bind]. rewrite ER. cbn [bind].
      destruct (sa_write _); reflexivity.
    - intros ER. rewrite sa_run by exact V. unfold sasearch_main, ReadCSVFile. rewrite R, E2. cbn [bind]. rewrite ER. reflexivity.
  Qed.
End C102.
Print Assumptions C102_determined.
Print Assumptions C102_order.
Print Assumptions C102_output.
Print Assumptions C102_usage_error.
Print Assumptions C102_missing_file.
Print Assumptions C102_line_ends.
Print Assumptions C102_saved.
Print Assumptions C102_saved_sa.

(** From the command line and the CSV file to optimal models: under the
    hypotheses of C74 on the data in the file, lasso with the method lars writes
    one file, the one named, which can be read back, and each node in it
    minimises the lasso objective on the data of the CSV file. *)
Theorem C102_lars : forall parse_int parse_float svd est lfuel srt crdF thr sasvd ri rf fuel items fs b (d : Dataset XR) x y lambMin nd path,
  (forall i, In i items -> valid XR parse_int parse_float Lasso i) -> csv_of items <> ""%string ->
  fsRead fs (csv_of items) = Some b -> fsWritable fs (out_of Lasso items) = true ->
  num_value XR parse_float items "lmin" (ndec 1 (-10)) = fin lambMin -> text_value items "type" "lars" = "lars"%string ->
  ParseCSVBytes parse_float b (int_value parse_int items "target" (-1)) = Ok d ->
  let m := mrows (dsX d) in let n := mcols (dsX d) in
  sort_spec byValueLess srt -> (0 < m)%nat -> (0 < n)%nat ->
  rmat (dsX d) x -> dsY d = fins y -> length y = m ->
  (forall i, (i < m)%nat -> x i 0%nat = 1%R) ->
  (forall k, (0 < k < n)%nat -> (/ 10 ^ 10 <= sdev (column m x k))%R) -> (0 < sdev y)%R ->
  full_rank m n x -> (0 <= lambMin)%R ->
  NewNormalizedData (dsX d) (dsY d) = Ok nd ->
  (forall E, StronglySorted lt E -> E <> [] -> (forall f, In f E -> (0 < f < n)%nat) ->
     exact_svd (icv_mat (ndX nd) (map Z.of_nat E)) (svd (icv_mat (ndX nd) (map Z.of_nat E))) /\
     no_tiny_sq (/ 1000000) (svd (icv_mat (ndX nd) (map Z.of_nat E)))) ->
  LassoLars (MorsePenroseCD svd) est nd (fin lambMin) lfuel = Ok path ->
  no_ties m n (standard_x m x) (fun i => nth i (standard_y y) 0%R) path ->
  exists rows j nodes aicc bic d',
    shell parse_int parse_float srt (fun nd l => LassoLars (MorsePenroseCD svd) est nd l lfuel) crdF thr sasvd ri rf fuel
      Lasso fs (command_line items) = Returned (Some rows) (Some (out_of Lasso items, WLasso j)) /\
    PrintHighscore srt nodes aicc bic 20 = Ok rows /\
    LassoLarsPathFromBytes j = Ok (mkPath d' nodes, aicc, bic) /\
    meq (dsX d') (dsX d) /\ dsY d' = dsY d /\ dsNames d' = dsNames d /\ dsTargetCol d' = dsTargetCol d /\
    length nodes = length path /\ length aicc = length path /\ length bic = length path /\
    (forall i node a c, nth_error nodes i = Some node -> nth_error aicc i = Some a -> nth_error bic i = Some c ->
       written_node m n x y lambMin node a c).
Proof.
  intros parse_int parse_float svd est lfuel srt crdF thr sasvd ri rf fuel items fs b d x y lambMin nd path V Hcsv R W L T P m n
    Hsrt Hm Hn HX HY Hy Hb Hs HsY FR Hl End HS EL NT.
  destruct (C74_lars_command svd est lfuel srt crdF thr d x y lambMin (num_value XR parse_float items "lmax" n1) (int_value parse_int items "num" 50)
    (text_value items "cov" "empirical") (num_value XR parse_float items "tol" (ndec 1 (-4))) nd path Hsrt Hm Hn HX HY Hy Hb Hs HsY FR Hl End HS EL NT)
    as (rows & j & nodes & aicc & bic & d' & E & H).
  exists rows, j, nodes, aicc, bic, d'. split; [|exact H].
  rewrite lasso_run by exact V. apply String.eqb_neq in Hcsv. rewrite Hcsv. unfold lasso_main, ReadCSVFile. rewrite R, P. cbn [bind].
  rewrite L, T, E. cbn [bind loFile loTable]. unfold write_to. rewrite W. reflexivity.
Qed.
Print Assumptions C102_lars.

(** ** Example *)

Definition int102 (s : string) : option Z := if String.eqb s "-1" then Some (-1)%Z else if String.eqb s "0" then Some 0%Z else None.
Definition num102 (s : string) : option xr :=
  if String.eqb s "0" then Some (fin 0) else if String.eqb s "1" then Some (fin 1) else if String.eqb s "-1" then Some (fin (-1)) else
  if String.eqb s "5" then Some (fin 5) else if String.eqb s "7" then Some (fin 7) else if String.eqb s "9" then Some (fin 9) else
  if String.eqb s "10" then Some (fin 10) else if String.eqb s "15" then Some (fin 15) else
  if String.eqb s "0.001" then Some (fin (/ 1000)) else None.
Definition file102 : bytes := list_ascii_of_string
"one,a,b,t
1,9,1,15
1,5,1,7
1,9,-1,9
1,5,-1,9
1,7,0,10
".
Definition fs102 (file : bytes) : filesystem :=
  mkFs (fun f => if String.eqb f "data.csv" then Some file else None) (fun f => String.eqb f "path.json").
Definition line102 : list item := [Opt "csv" "data.csv"; Opt "lmin" "0.001"; OptEq "lmax" "0"; Opt "num" "0"; OptEq "cov" ""; Opt "tol" "0"; OptEq "out" "path.json"].
Notation run102 fs items :=
  (shell (N := XR) int102 num102 (isort byValueLess) (fun nd l => LassoLars exc_cd (exc_X, None) nd l 10) (fun _ _ _ _ => Panic) (fun _ => Panic)
    exc_svd (fun _ => 0%nat) (fun _ => fin 0) 0 Lasso fs (command_line items)).

Lemma parse102 : ParseCSVBytes (N := XR) num102 file102 (-1) = Ok exc_d.
Proof.
  assert (E : exists r, csv_read file102 = Ok r /\ map (map string_of_list_ascii) r =
    [["one"; "a"; "b"; "t"]; ["1"; "9"; "1"; "15"]; ["1"; "5"; "1"; "7"]; ["1"; "9"; "-1"; "9"]; ["1"; "5"; "-1"; "9"]; ["1"; "7"; "0"; "10"]]%string).
  { eexists. split; vm_compute; reflexivity. }
  destruct E as (r & E & Er). unfold ParseCSVBytes. rewrite E. cbn [bind]. rewrite Er.
  clear r E Er. unfold ParseCSV. cbn. unfold exc_d. apply (f_equal Ok).
  assert (X : forall A B : Mat XR, mrows A = mrows B -> mcols A = mcols B -> (forall i k, mval A i k = mval B i k) -> A = B).
  { intros [r c f] [r' c' f'] H1 H2 H3. cbn in H1, H2, H3. subst. f_equal. apply functional_extensionality. intro i. apply functional_extensionality. intro k. apply H3. }
  assert (U : forall (M : Mat XR) i j v a b, mval (mat_upd M i j v) a b = if (a =? i)%nat && (b =? j)%nat then v else mval M a b) by reflexivity.
  assert (U1 : forall (M : Mat XR) i j v, mrows (mat_upd M i j v) = mrows M) by reflexivity.
  assert (U2 : forall (M : Mat XR) i j v, mcols (mat_upd M i j v) = mcols M) by reflexivity.
  cbn [fst snd]. f_equal.
  apply X; [rewrite !U1; reflexivity|rewrite !U2; reflexivity|]. intros i k. rewrite !U.
  destruct i as [|[|[|[|[|i]]]]], k as [|[|[|k]]]; reflexivity.
Qed.

Example C102_example :
  (forall i, In i line102 -> valid XR int102 num102 Lasso i) /\ NoDup (flat_map name_of line102) /\
  command_line line102 = ["--csv"; "data.csv"; "--lmin"; "0.001"; "--lmax=0"; "--num"; "0"; "--cov="; "--tol"; "0"; "--out=path.json"]%string /\
  ~ In cCR file102 /\
  (exists rows j nodes aicc bic d', run102 (fs102 file102) line102 = Returned (Some rows) (Some ("path.json"%string, WLasso j)) /\
     run102 (fs102 (dos file102)) (rev line102) = Returned (Some rows) (Some ("path.json"%string, WLasso j)) /\
     LassoLarsPathFromBytes j = Ok (mkPath d' nodes, aicc, bic) /\ length nodes = 2%nat /\
     (forall i node a b, nth_error nodes i = Some node -> nth_error aicc i = Some a -> nth_error bic i = Some b ->
        written_node 5 3 exc_x exc_y (/ 1000) node a b)) /\
  run102 (mkFs (fun _ => None) (fun _ => true)) line102 = Crashed.
Proof.
  assert (V : forall i, In i line102 -> valid XR int102 num102 Lasso i).
  { intros i H. cbn in H.
    repeat (destruct H as [<-|H]; [cbn [valid]; first [left; cbn; tauto | right; left; split; [cbn; tauto|discriminate] | right; right; split; [cbn; tauto|discriminate]]|]); destruct H. }
  assert (ND : NoDup (flat_map name_of line102)).
  { cbn. repeat (constructor; [cbn; intuition discriminate|]). constructor. }
  assert (CR : ~ In cCR file102) by (intro H; vm_compute in H; intuition discriminate).
  split; [exact V|]. split; [exact ND|]. split; [reflexivity|]. split; [exact CR|]. split.
  - destruct C74_example as (nd & rows & j & nodes & aicc & bic & d' & _ & _ & E & F).
    exists rows, j, nodes, aicc, bic, d'.
    assert (A : run102 (fs102 file102) line102 = Returned (Some rows) (Some ("path.json"%string, WLasso j))).
    { rewrite lasso_run by exact V. change (csv_of line102) with "data.csv"%string. change (out_of Lasso line102) with "path.json"%string.
      change (String.eqb "data.csv" "") with false. cbv iota. unfold lasso_main, ReadCSVFile. change (fsRead (fs102 file102) "data.csv") with (Some file102). cbv iota.
      change (int_value int102 line102 "target" (-1)) with (-1)%Z. rewrite parse102. cbn [bind].
      change (lassoFit (isort byValueLess) (fun nd l => LassoLars exc_cd (exc_X, None) nd l 10) (fun _ _ _ _ => Panic) (fun _ => Panic) (Some exc_d)
        (num_value XR num102 line102 "lmin" (ndec 1 (-10))) (num_value XR num102 line102 "lmax" n1) (int_value int102 line102 "num" 50)
        (text_value line102 "type" "lars") (text_value line102 "cov" "empirical") (num_value XR num102 line102 "tol" (ndec 1 (-4))))
      with (lassoFit (isort byValueLess) (fun nd l => LassoLars exc_cd (exc_X, None) nd l 10) (fun _ _ _ _ => Panic) (fun _ => Panic) (Some exc_d)
        (fin (/ 1000)) (fin 0) 0%Z "lars" "" (fin 0)). rewrite E. reflexivity. }
    split; [exact A|]. split; [|exact F]. rewrite <- A. symmetry.
    transitivity (run102 (fs102 (dos file102)) line102).
    + apply (C102_line_ends XR int102 num102) with (b := file102); auto.
    + apply C102_order; auto. apply Permutation_rev.
  - rewrite C102_missing_file; auto.
Qed.

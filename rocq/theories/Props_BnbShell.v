(** C107: goselect bnb from the command line to the list read back from its file. *)
From Coq Require Import String Ascii NArith Sorted Permutation SpecFloat List Lia.
From Verif Require Import Base Num Mat Model_Node Model_Util Model_Fit Model_CSV Model_CSVBytes Model_SA Model_Search Model_Save Model_Cmd Model_Bnb Model_Flags
  Model_Shell Model_JSON Model_JSONFiles Model_Chain Model_BnbShell.
From Verif Require Import Proof_Node Proof_Node2 Proof_SA2 Proof_Crit Proof_Models Proof_Util Proof_Search Proof_Search2 Proof_Search3 Proof_Search5 Proof_Cmd Spec_Cmd
  Spec_JSON Proof_JSON Proof_JSON2 Spec_JSONSyntax Props_SA Props_Anneal Props_Search Props_Cmd Props_Bnb Props_Flags Props_Shell Props_JSON Props_JSONSyntax.
Import ListNotations.
Open Scope list_scope.

(** ** What the search is started with *)

Section Start.
  Variable N : Num.
  Variable parse_int : string -> option Z.
  Variable parse_float : string -> option N.
  Variable svd : Mat N -> SVD N.
  Variable ri : nat -> nat.
  Variable rf : nat -> N.
  Variable fuel : nat.
  Variable fit : list bool -> list N * N.
  Variable bnd : list bool -> Z -> N * N.
  Notation bnb_shell := (bnb_shell parse_int parse_float svd ri rf fuel fit bnd).
  Notation valid := (valid N parse_int parse_float).

  Lemma bnb_shell_main : forall items fs, (forall i, In i items -> valid Bnb i) ->
    bnb_shell fs (command_line items) =
    match bnb_main parse_float svd ri rf fuel fit bnd fs (csv_of items) (int_value parse_int items "target" (-1)) (num_value N parse_float items "cutoff" n0) (int_value parse_int items "maxqueue" 10000000)
    with Ok b => BnbSearching b (out_of Bnb items) | Panic => BnbCrashed | Fuel => BnbAnnealing end.
  Proof. intros items fs V. unfold Model_BnbShell.bnb_shell. rewrite (C100_bnb N parse_int parse_float items V). reflexivity. Qed.

  (** The search that runs is that of the dataset in the file named by --csv
      with the column named by --target, a queue of --maxqueue nodes, and the
      output named by --out; the defaults are the last column, ten million and
      bnbSearch.json. *)
  Theorem C107_started : forall items fs b out, (forall i, In i items -> valid Bnb i) ->
    bnb_shell fs (command_line items) = BnbSearching b out ->
    out = text_value items "out" "bnbSearch.json" /\
    (exists file, fsRead fs (text_value items "csv" "") = Some file /\ ParseCSVBytes parse_float file (int_value parse_int items "target" (-1)) = Ok (brData b)) /\
    pMaxQ (brProblem b) = int_value parse_int items "maxqueue" 10000000 /\
    (3 <= mcols (dsX (brData b)))%nat /\ pRows (brProblem b) = mrows (dsX (brData b)) /\ pCols (brProblem b) = mcols (dsX (brData b)) /\
    exists recs cutoff, bnb_start svd parse_float ri rf fuel fit bnd (Some recs) (int_value parse_int items "target" (-1)) cutoff (pMaxQ (brProblem b)) = Ok b.
  Proof.
    intros items fs b out V E. rewrite (bnb_shell_main items fs V) in E. unfold bnb_main in E.
    destruct (fsRead fs (csv_of items)) as [file|] eqn:Ef; [|discriminate E].
    destruct (csv_read file) as [recs| |] eqn:Er; try discriminate E. cbn [bind] in E.
    match type of E with (match ?m with _ => _ end = _) => destruct m as [b'| |] eqn:Eb; try discriminate E end. injection E as -> <-.
    destruct (C83_parameters _ _ _ _ _ _ _ _ _ _ _ _ _ Eb) as (K1 & _ & K2 & K3 & K4 & _ & _ & K5 & _).
    split; [reflexivity|]. split.
    { exists file. split; [exact Ef|]. unfold ParseCSVBytes. rewrite Er. cbn [bind]. unfold ReadCSV in K1.
      destruct (ParseCSV _ _ _) as [d| |]; try discriminate K1. cbn [bind] in K1. injection K1 as <-. reflexivity. }
    split; [exact K5|]. split; [exact K2|]. split; [exact K3|]. split; [exact K4|]. eexists _, _. rewrite K5. exact Eb.
  Qed.

  (** A data file that is missing kills the program before anything is written. *)
  Theorem C107_no_data : forall items fs, (forall i, In i items -> valid Bnb i) -> fsRead fs (text_value items "csv" "") = None ->
    bnb_shell fs (command_line items) = BnbCrashed.
  Proof. intros items fs V E. rewrite (bnb_shell_main items fs V). unfold bnb_main, csv_of. rewrite E. reflexivity. Qed.
End Start.
Print Assumptions C107_started.
Print Assumptions C107_no_data.

(** ** The file *)

Lemma saved_hs : forall (N : Num) (fmt : N -> bytes) (j : hsJSON N), saved_bytes fmt (CJson (hjMaxItems j) (map Some (hjItems j))) = hs_bytes fmt j.
Proof. intros. unfold saved_bytes, hs_bytes, hs_json. rewrite map_map. reflexivity. Qed.

Lemma hs_file_back : forall o fmt parse M0 (h : Highscore (F64 o)) M,
  (forall x : F64 o, finite x = true -> printable fmt parse x) ->
  (2 <= M)%Z -> hsMaxItems h = M -> (hsLen h <= M)%Z -> desc (hsItems h) -> forallb node_finite (hsItems h) = true ->
  int64 M = true -> (forall n, In n (hsItems h) -> int64 (Z.of_nat (length (ndModel n))) = true /\ int64 (ndLevel n) = true) ->
  exists j kept left, hsMarshalJSON h = Ok (Some j) /\ hsItems h = kept ++ left /\ (left = [] \/ hsLen h = M /\ length left = 1%nat) /\
    hs_from_file parse (NewHighscore M0) (hs_bytes fmt j) = Ok (Read (mkHS (map (with_flip false) kept) M)).
Proof.
  intros o fmt parse M0 h M HP HM HMx HL D Hf Hz Hz'.
  assert (F : forall j, hsMarshalJSON h = Ok (Some j) -> hs_from_file parse (NewHighscore M0) (hs_bytes fmt j) = (do h' <- hsUnmarshalJSON (NewHighscore M0) j; Ok (Read h'))).
  { intros j E1. unfold hsMarshalJSON in E1. rewrite marshal_nodes_ok in E1 by exact Hf. cbn [bind option_map] in E1. injection E1 as <-.
    rewrite forallb_forall in Hf. apply C103_highscore_file.
    - unfold hs_numbers. cbn [hjItems]. intros x H. apply HP. apply in_flat_map in H. destruct H as (jn & A & B). apply in_map_iff in A.
      destruct A as (n & <- & A). specialize (Hf n A). unfold node_finite in Hf. apply andb_prop in Hf. destruct Hf as [Hf F4].
      apply andb_prop in Hf. destruct Hf as [Hf F3]. apply andb_prop in Hf. destruct Hf as [F1 F2]. cbn in B. rewrite forallb_forall in F4.
      destruct B as [<-|[<-|[<-|B]]]; auto.
    - unfold hs_ints. cbn [hjItems hjMaxItems]. intros z H. destruct H as [<-|H]; [rewrite HMx; exact Hz|]. apply in_flat_map in H. destruct H as (jn & A & B).
      apply in_map_iff in A. destruct A as (n & <- & A). destruct (Hz' n A) as [Z1 Z2]. cbn in B. destruct B as [<-|[<-|B]]; [exact Z1|exact Z2|].
      apply sel_from_In in B. destruct B as (i & -> & B). assert (L : (i < length (ndModel n))%nat) by (apply nth_error_Some; rewrite B; discriminate).
      unfold int64 in *. apply andb_prop in Z1. destruct Z1 as [Z1 Z1']. apply andb_true_intro. split; [apply Z.leb_le; lia|]. apply Z.ltb_lt in Z1'. apply Z.ltb_lt. lia. }
  destruct (Z_lt_ge_dec (hsLen h) M) as [Hl|Hl].
  - destruct (hs_roundtrip (F64 o) h M0 D ltac:(lia) Hf) as (j & E1 & E2). exists j, (hsItems h), []. rewrite app_nil_r.
    split; [exact E1|]. split; [reflexivity|]. split; [left; reflexivity|]. rewrite (F j E1), E2, HMx. reflexivity.
  - assert (Hlen : hsLen h = M) by lia. unfold hsLen in Hlen.
    destruct (exists_last (l := hsItems h)) as (l0 & y & E0); [intro Q; rewrite Q in Hlen; cbn in Hlen; lia|].
    destruct (exists_last (l := l0)) as (l & x & ->); [intros ->; rewrite E0 in Hlen; cbn in Hlen; lia|].
    rewrite <- app_assoc in E0. cbn [app] in E0.
    pose proof (hs_roundtrip_full (F64 o) (map (with_flip false) l) (with_flip false x) (with_flip false y) M HM) as R.
    assert (EJ : exists j, hsMarshalJSON h = Ok (Some j) /\ hsUnmarshalJSON (NewHighscore M0) j
      = Ok (mkHS (map (with_flip false) (if SFltb (ndScore y) (ndScore x) then l ++ [x] else l ++ [x; y])) M)).
    { unfold hsMarshalJSON. rewrite marshal_nodes_ok by exact Hf.
      eexists; split; [reflexivity|]. unfold hsUnmarshalJSON. cbn [option_map hjItems hjMaxItems].
      rewrite unmarshal_nodes. cbn [bind app]. rewrite HMx, E0, map_app. cbn [map]. unfold NewHighscore in *. cbn [hsItems]. rewrite R.
      - cbn [ndScore with_flip nltb F64]. destruct (SFltb (ndScore y) (ndScore x)); rewrite map_app; reflexivity.
      - clear - D E0. rewrite E0 in D. replace (map (with_flip false) l ++ [with_flip false x; with_flip false y]) with (map (@with_flip (F64 o) false) (l ++ [x; y])) by (rewrite map_app; reflexivity).
        unfold desc in *. clear E0. induction D as [|n t D IH G]; cbn [map]; constructor; [exact IH|]. rewrite Forall_forall in *. intros k Hk. apply in_map_iff in Hk. destruct Hk as (k' & <- & Hk). apply (G k' Hk).
      - rewrite app_length, map_length. rewrite E0, app_length in Hlen. exact Hlen. }
    destruct EJ as (j & E1 & E2). exists j. destruct (SFltb (ndScore y) (ndScore x)).
    + exists (l ++ [x]), [y]. split; [exact E1|]. split; [rewrite E0, <- app_assoc; reflexivity|]. split; [right; split; [exact Hlen|reflexivity]|].
      rewrite (F j E1), E2. reflexivity.
    + exists (l ++ [x; y]), []. rewrite app_nil_r. split; [exact E1|]. split; [exact E0|]. split; [left; reflexivity|]. rewrite (F j E1), E2. reflexivity.
Qed.

(** When the program ends, only the output file has changed.  If all numbers in
    the list of the search are finite, reading the file gives back that list
    (as C05 says, without the mark of the last change); of ten entries the last
    one may be missing.  Otherwise the file is empty and is not JSON. *)
Theorem C107_finished : forall o parse_int parse_float fmt parse svd ri rf fuel fit bnd items fs (b : bnb_ready (F64 o)) out ls s bls e M0,
  (forall x : F64 o, finite x = true -> printable fmt parse x) ->
  (forall i, In i items -> valid (F64 o) parse_int parse_float Bnb i) ->
  bnb_shell parse_int parse_float svd ri rf fuel fit bnd fs (command_line items) = BnbSearching b out ->
  bnb_execution b ls s bls e ->
  fsWritable fs out = true -> bnb_nan_free (mcols (dsX (brData b))) fit -> int64 (Z.of_nat (mcols (dsX (brData b)))) = true ->
  let fs' := bnb_files fmt fs out e in
  (forall g, g <> out -> fsRead fs' g = fsRead fs g) /\
  exists bytes, fsRead fs' out = Some bytes /\
    (forallb node_finite (hsItems (sHs s)) = true ->
       exists kept left, hsItems (sHs s) = kept ++ left /\ (left = [] \/ length (hsItems (sHs s)) = 10%nat /\ length left = 1%nat) /\
         hs_from_file parse (NewHighscore M0) bytes = Ok (Read (mkHS (map (with_flip false) kept) 10))) /\
    (forallb node_finite (hsItems (sHs s)) = false -> bytes = [] /\ hs_from_file parse (NewHighscore M0) bytes = Ok NotJson).
Proof.
  intros o parse_int parse_float fmt parse svd ri rf fuel fit bnd items fs b out ls s bls e M0 HP V Hb [X1 (k & X2) X3 X4 X5] HW Hn Hz fs'.
  destruct (C107_started _ _ _ _ _ _ _ _ _ _ _ _ _ V Hb) as (_ & _ & _ & _ & _ & _ & recs & cutoff & Hs).
  destruct (C83_parameters _ _ _ _ _ _ _ _ _ _ _ _ _ Hs) as (_ & _ & Hc & _ & _ & _ & _ & _ & _ & Hl & _ & _ & Hst).
  assert (Hh : hsMaxItems (NewHighscore (N := F64 o) 10) <> 1%Z) by (cbn; lia).
  destruct (started o _ _ _ _ _ _ _ _ _ _ _ _ Hh Hst X1) as (Hc1 & Hr & Es0 & R & I).
  pose proof (run_inserts _ _ _ _ R) as Ei. rewrite <- X5 in Ei.
  destruct (C70_final_file _ _ _ X3 X4) as (h & j & E1 & E2 & E3). rewrite Ei in E1. injection E1 as <-.
  assert (Hnn : forall x, length x = pCols (brProblem b) -> nisnan (scoreOf (F64 o) (brProblem b) x) = false).
  { destruct (start_inv _ _ _ _ _ _ _ _ _ _ _ Hst) as (_ & K1 & K2 & K3 & K4 & K5 & K6 & K7 & K8).
    intros x Hx. unfold scoreOf. destruct (Nat.eqb_spec (NumFeatures x) 0); [reflexivity|].
    rewrite K3. apply Hn; [lia|]. apply nonempty_nf. lia. }
  pose proof (reach_hs (F64 o) (brProblem b) Hc1 Hr (f64_OrdLaws o) 10 [] _ ltac:(lia) (hinv_init (F64 o) 10 ltac:(lia)) Hnn s R) as HI.
  assert (EF : fsRead fs' out = Some (saved_bytes fmt (match j with Some j => CJson (hjMaxItems j) (map Some (hjItems j)) | None => CEmpty end))).
  { unfold fs', bnb_files. rewrite E3, HW. cbn [store fsRead]. rewrite String.eqb_refl. reflexivity. }
  split.
  { intros g Hg. unfold fs', bnb_files. rewrite E3, HW. cbn [store fsRead]. destruct (String.eqb_spec g out); [contradiction|reflexivity]. }
  eexists. split; [exact EF|]. split.
  - intro Hf.
    assert (Hlv : forall n, In n (hsItems (sHs s)) -> int64 (Z.of_nat (length (ndModel n))) = true /\ int64 (ndLevel n) = true).
    { intros n Hin. destruct (C16_nodes_of_the_list o _ _ _ _ _ _ _ 10 _ _ _ _ n ltac:(lia) Hn Hst X1 Hin) as (L1 & L2 & _).
      rewrite L1. split; [exact Hz|]. clear - Hz L2. unfold int64 in *. apply andb_prop in Hz. destruct Hz as [_ Hz]. apply Z.ltb_lt in Hz.
      apply andb_true_intro. split; [apply Z.leb_le; lia|apply Z.ltb_lt; lia]. }
    destruct (hs_file_back o fmt parse M0 (sHs s) 10 HP ltac:(lia) (hi_max _ _ _ _ HI) (hi_cap _ _ _ _ HI) (hi_sorted _ _ _ _ HI) Hf eq_refl Hlv)
      as (j' & kept & left & A1 & A2 & A3 & A4).
    rewrite E2 in A1. injection A1 as ->. exists kept, left. split; [exact A2|]. split.
    { destruct A3 as [A3|[A3 A3']]; [left; exact A3|right]. split; [unfold hsLen in A3; lia|exact A3']. }
    rewrite saved_hs. exact A4.
  - intro Hf. assert (j = None) as ->.
    { unfold hsMarshalJSON in E2. rewrite marshal_nodes_err in E2 by exact Hf. cbn in E2. injection E2 as <-. reflexivity. }
    split; reflexivity.
Qed.
Print Assumptions C107_finished.

(** The best entry of the list read back from the file is at least as good as
    any model [m] whose bounds are valid on the way to it, unless the two
    defects of the search intervene: the race on the empty list (C15), which
    models of positive score survive, and a queue that overflows. *)
Theorem C107_optimum : forall o parse_int parse_float fmt parse svd ri rf fuel fit bnd items fs (b : bnb_ready (F64 o)) out ls s bls e M0 m,
  (forall x : F64 o, finite x = true -> printable fmt parse x) ->
  (forall i, In i items -> valid (F64 o) parse_int parse_float Bnb i) ->
  bnb_shell parse_int parse_float svd ri rf fuel fit bnd fs (command_line items) = BnbSearching b out ->
  bnb_execution b ls s bls e -> fsWritable fs out = true -> int64 (Z.of_nat (mcols (dsX (brData b)))) = true ->
  sane_scores (mcols (dsX (brData b))) fit [] m ->
  reachable_model (mrows (dsX (brData b))) (mcols (dsX (brData b))) fit bnd (pRoot (brProblem b)) m ->
  (gRaced s = false /\ gTrimmed s = false \/
   SFltb (S754_zero false) (snd (fit m)) = true /\ (2 ^ Z.of_nat (mcols (dsX (brData b))) <= 2 * int_value parse_int items "maxqueue" 10000000)%Z) ->
  forallb node_finite (hsItems (sHs s)) = true -> hsItems (sHs s) <> [] ->
  exists bytes n rest, fsRead (bnb_files fmt fs out e) out = Some bytes /\
    hs_from_file parse (NewHighscore M0) bytes = Ok (Read (mkHS (n :: rest) 10)) /\ SFltb (ndScore n) (snd (fit m)) = false.
Proof.
  intros o parse_int parse_float fmt parse svd ri rf fuel fit bnd items fs b out ls s bls e M0 m HP V Hb He HW Hz Hsane Hm Hcase Hf Hne.
  destruct (C107_finished o parse_int parse_float fmt parse svd ri rf fuel fit bnd items fs b out ls s bls e M0 HP V Hb He HW (proj1 Hsane) Hz)
    as (_ & bytes & B1 & B2 & _). destruct (B2 Hf) as (kept & left & K1 & K2 & K3). clear B2.
  destruct (C107_started _ _ _ _ _ _ _ _ _ _ _ _ _ V Hb) as (_ & _ & EQ & _ & _ & _ & recs & cutoff & Hs).
  destruct (C83_parameters _ _ _ _ _ _ _ _ _ _ _ _ _ Hs) as (_ & _ & _ & _ & _ & _ & _ & _ & _ & _ & _ & _ & Hst).
  destruct He as [X1 (k & X2) X3 X4 X5].
  assert (Hopt : SFltb (hsBestScore (sHs s)) (snd (fit m)) = false).
  { destruct Hcase as [[C1 C2]|[C1 C2]].
    - exact (C14_branch_and_bound_optimal o _ _ _ _ _ _ _ 10 [] _ _ _ _ _ _ m ltac:(lia) eq_refl Hst X1 X2 Hsane Hm C1 C2).
    - rewrite <- EQ in C2. exact (C14_branch_and_bound_positive_scores o _ _ _ _ _ _ _ 10 _ _ _ _ _ _ m ltac:(lia) eq_refl Hst C2 X1 X2 Hsane Hm C1). }
  destruct kept as [|n kept].
  { exfalso. cbn [app] in K1. destruct K2 as [K2|[K2 K2']]; [congruence|]. rewrite K1 in K2. lia. }
  exists bytes, (with_flip false n), (map (with_flip false) kept). split; [exact B1|]. split; [exact K3|].
  unfold hsBestScore in Hopt. rewrite K1 in Hopt. exact Hopt.
Qed.
Print Assumptions C107_optimum.

(** ** A case: the data of C83_example as a file *)

Definition bytesB : bytes := text
"a,b,c,y
1,0,0,3
0,1,0,0
0,0,1,0
0,0,0,1
0,0,0,0
".
Definition int107 (s : string) : option Z := if String.eqb s "3" then Some 3%Z else if String.eqb s "100" then Some 100%Z else None.
Definition line107 (out : string) : list item := [Opt "csv" "data.csv"; OptEq "target" "3"; Opt "maxqueue" "100"; Opt "out" out].
Definition fs107 : filesystem := mkFs (fun f => if String.eqb f "data.csv" then Some bytesB else None) (fun _ => true).
Definition m107 : list bool := [true; true; false].

Lemma valid107 : forall out i, In i (line107 out) -> valid (F64 fenvE) int107 parseB Bnb i.
Proof.
  intros out i H. cbn in H. repeat (destruct H as [<-|H]; [cbn [valid]; try (left; cbn; tauto); try (right; left; split; [cbn; tauto|discriminate])|]). destruct H.
Qed.

Definition good107 (s : st (F64 fenvE)) (r : option (res (bnb (F64 fenvE)))) : bool :=
  closedB s && negb (gRaced s) && negb (gTrimmed s) && forallb node_finite (hsItems (sHs s)) &&
  listedB (map (fun n => sel_from 0 (ndModel n)) (hsItems (sHs s))) && match r with Some (Ok e) => endedB e | _ => false end.
Definition check_run107 (r : option (res (st (F64 fenvE)))) : bool :=
  match r with Some (Ok s) => good107 s (bnb_run (savingB s) bnb_init) | _ => false end.
Definition check107 (n : nat) (r : res (problem (F64 fenvE) * st (F64 fenvE))) : bool :=
  match r with Ok (P, s0) => check_run107 (run P s0 (drive P n s0)) | _ => false end.
Lemma check107_true : check107 100 restB = true.
Proof. vm_cast_no_check (eq_refl true). Qed.

Lemma records107 : exists r, csv_read bytesB = Ok r /\ map (map string_of_list_ascii) r = fileB.
Proof. eexists. split; vm_compute; reflexivity. Qed.

Lemma shell107 : forall fuel b, startB fuel = Ok b -> forall out,
  bnb_shell int107 parseB svdE (fun _ => 0%nat) rfB fuel fitB bndB fs107 (command_line (line107 out)) = BnbSearching b out.
Proof.
  intros fuel b Eb out. rewrite (bnb_shell_main _ _ _ _ _ _ _ _ _ (line107 out) fs107 (valid107 out)).
  assert (E1 : fsRead fs107 (csv_of (line107 out)) = Some bytesB) by reflexivity.
  assert (E2 : int_value int107 (line107 out) "target" (-1) = 3%Z) by reflexivity.
  assert (E3 : int_value int107 (line107 out) "maxqueue" 10000000 = 100%Z) by reflexivity.
  assert (E4 : num_value (F64 fenvE) parseB (line107 out) "cutoff" n0 = (f64_ofZ 0 : F64 fenvE)) by reflexivity.
  assert (E5 : out_of Bnb (line107 out) = out) by reflexivity.
  unfold bnb_main. rewrite E1, E2, E3, E4, E5. destruct records107 as (rec & ER & E). rewrite ER. cbn [bind]. rewrite E.
  unfold startB in Eb. rewrite Eb. reflexivity.
Qed.

Lemma rest107 : forall fuel r P s0, startB fuel = Ok (mkReady dataB r P s0) -> srSelected r = [0%Z] -> restB = Ok (P, s0).
Proof.
  intros fuel r P s0 Eb Es. unfold startB, bnb_start in Eb. rewrite dataB_read in Eb. cbn [bind] in Eb.
  destruct (SelectModelSA svdE (dsX dataB) (dsY dataB) 100 Aicc (fun _ => 0%nat) rfB fuel) as [[r' sst]| |]; try discriminate Eb. cbn [bind] in Eb.
  unfold restB.
  destruct (bnb_params dataB (f64_ofZ 0 : F64 fenvE) 100 (srSelected r')) as [pr| |] eqn:E1; try discriminate Eb. cbn [bind] in Eb.
  destruct (SelectModel_start (mrows (dsX dataB)) (mcols (dsX dataB)) fitB bndB (opRoot pr) (opMaxQueue pr) (opCutoff pr) (NewHighscore 10)) as [[P' s']| |] eqn:E2; try discriminate Eb.
  cbn [bind] in Eb. apply (f_equal (fun x => match x with Ok b => Some (brAnneal b, brProblem b, brSearch b) | _ => None end)) in Eb.
  cbn [brAnneal brProblem brSearch] in Eb. injection Eb as H1 H2 H3. rewrite H1, Es in E1. rewrite E1. cbn [bind]. rewrite E2, H2, H3. reflexivity.
Qed.

Lemma checked107 : forall n P s0, check107 n (Ok (P, s0)) = true -> exists ls s bls e,
  (forall b, brProblem b = P -> brSearch b = s0 -> bnb_execution b ls s bls e) /\ gRaced s = false /\ gTrimmed s = false /\
  forallb node_finite (hsItems (sHs s)) = true /\ map (fun n => sel_from 0 (ndModel n)) (hsItems (sHs s)) = [[0; 1]; [0; 2]; []]%Z.
Proof.
  intros n P s0 C. unfold check107 in C.
  destruct (run P s0 (drive P n s0)) as [[s| |]|] eqn:Er; try discriminate C. unfold check_run107 in C.
  destruct (bnb_run (savingB s) bnb_init) as [[e| |]|] eqn:Ee; unfold good107 in C; try (rewrite andb_false_r in C; discriminate C).
  apply andb_prop in C. destruct C as [C C6]. apply andb_prop in C. destruct C as [C C5]. apply andb_prop in C. destruct C as [C C4].
  apply andb_prop in C. destruct C as [C C3]. apply andb_prop in C. destruct C as [C1 C2].
  exists (drive P n s0), s, (savingB s), e. split.
  { intros b Hp Hs. constructor; [rewrite Hp, Hs; exact Er| |exact Ee| |apply inserted_savingB].
    - exists 0%nat. unfold closedB in C1. destruct (sMain s) as [| | |[|k]]; try discriminate C1. reflexivity.
    - unfold endedB in C6. destruct (bbMain e); try discriminate C6. reflexivity. }
  split; [destruct (gRaced s); [discriminate C2|reflexivity]|]. split; [destruct (gTrimmed s); [discriminate C3|reflexivity]|]. split; [exact C4|].
  unfold listedB in C5. destruct (map _ (hsItems (sHs s))) as [|x1 [|x2 [|x3 [|x4 l]]]]; try discriminate C5.
  apply andb_prop in C5. destruct C5 as [C5 C7]. apply andb_prop in C5. destruct C5 as [C5 C8].
  apply zlist_eqb_eq in C5, C7, C8. subst. reflexivity.
Qed.

Lemma run107 : exists fuel r P s0 ls s bls e,
  (forall out, bnb_shell int107 parseB svdE (fun _ => 0%nat) rfB fuel fitB bndB fs107 (command_line (line107 out)) = BnbSearching (mkReady dataB r P s0) out) /\
  srSelected r = [0%Z] /\ bnb_execution (mkReady dataB r P s0) ls s bls e /\ gRaced s = false /\ gTrimmed s = false /\
  forallb node_finite (hsItems (sHs s)) = true /\ map (fun n => sel_from 0 (ndModel n)) (hsItems (sHs s)) = [[0; 1]; [0; 2]; []]%Z.
Proof.
  destruct startB_ready as (fuel & r & P & s0 & ls0 & s1 & bls0 & e0 & Eb & Es & _ & _).
  pose proof (rest107 _ _ _ _ Eb Es) as ER. pose proof check107_true as C. rewrite ER in C.
  destruct (checked107 _ P s0 C) as (ls & s & bls & e & H1 & H2).
  exists fuel, r, P, s0, ls, s, bls, e. split; [exact (shell107 _ _ Eb)|]. split; [exact Es|]. split; [apply H1; reflexivity|exact H2].
Qed.

Lemma nan_free107 : bnb_nan_free 3 fitB.
Proof.
  intros a Ha Hne. assert (G : (negb (nonemptyb a) || negb (f64_isnan (snd (fitB a))))%bool = true).
  { apply (models3 (fun a => (negb (nonemptyb a) || negb (f64_isnan (snd (fitB a))))%bool)); [vm_compute; reflexivity|exact Ha]. }
  apply nonemptyb_ok in Hne. rewrite Hne in G. destruct (f64_isnan (snd (fitB a))); [discriminate G|reflexivity].
Qed.

(** False: that the data survive.  With --out naming the data file the search
    runs to its end and then replaces the data by its list. *)
Theorem C107_data_kept_refuted : exists fuel (b : bnb_ready (F64 fenvE)) ls s bls e,
  bnb_shell int107 parseB svdE (fun _ => 0%nat) rfB fuel fitB bndB fs107 (command_line (line107 "data.csv")) = BnbSearching b "data.csv" /\
  bnb_execution b ls s bls e /\
  fsRead (bnb_files (N := F64 fenvE) show64 fs107 "data.csv" e) "data.csv" <> fsRead fs107 "data.csv".
Proof.
  destruct run107 as (fuel & r & P & s0 & ls & s & bls & e & Eb & Es & He & _ & _ & Hf & _).
  exists fuel, (mkReady dataB r P s0), ls, s, bls, e. split; [apply Eb|]. split; [exact He|].
  assert (H3 : mcols (dsX dataB) = 3%nat) by (vm_compute; reflexivity).
  destruct (C107_finished fenvE int107 parseB show64 read64 svdE (fun _ => 0%nat) rfB fuel fitB bndB (line107 "data.csv") fs107 (mkReady dataB r P s0) "data.csv" ls s bls e 10%Z
    (C103_numbers fenvE) (valid107 _) (Eb _) He eq_refl) as (_ & bytes & B1 & B2 & _).
  { cbn [brData]. rewrite H3. exact nan_free107. }
  { cbn [brData]. rewrite H3. reflexivity. }
  destruct (B2 Hf) as (kept & lft & _ & _ & B). rewrite B1. intro Q. injection Q as ->.
  assert (W : hs_from_file (N := F64 fenvE) read64 (NewHighscore 10) bytesB = Ok NotJson).
  { apply (proj2 (C106_files (F64 fenvE) read64 bytesB (NewHighscore 10))). apply C106_refused. reflexivity. }
  rewrite W in B. discriminate B.
Qed.
Print Assumptions C107_data_kept_refuted.

(** all hypotheses of C107_optimum at once, for the model with a and b *)
Example C107_example : exists fuel (b : bnb_ready (F64 fenvE)) ls s bls e,
  bnb_shell int107 parseB svdE (fun _ => 0%nat) rfB fuel fitB bndB fs107 (command_line (line107 "out.json")) = BnbSearching b "out.json" /\
  command_line (line107 "out.json") = ["--csv"; "data.csv"; "--target=3"; "--maxqueue"; "100"; "--out"; "out.json"]%string /\
  bnb_execution b ls s bls e /\ brData b = dataB /\
  sane_scores 3 fitB [] m107 /\ reachable_model 5 3 fitB bndB (pRoot (brProblem b)) m107 /\ gRaced s = false /\ gTrimmed s = false /\
  forallb node_finite (hsItems (sHs s)) = true /\
  exists bytes h, fsRead (bnb_files (N := F64 fenvE) show64 fs107 "out.json" e) "out.json" = Some bytes /\
    hs_from_file (N := F64 fenvE) read64 (NewHighscore 10) bytes = Ok (Read h) /\ map (fun n => sel_from 0 (ndModel n)) (hsItems h) = [[0; 1]; [0; 2]; []]%Z.
Proof.
  destruct run107 as (fuel & r & P & s0 & ls & s & bls & e & Eb & Es & He & Hr & Ht & Hf & Hm).
  exists fuel, (mkReady dataB r P s0), ls, s, bls, e. split; [apply Eb|]. split; [reflexivity|]. split; [exact He|]. split; [reflexivity|].
  assert (H3 : mcols (dsX dataB) = 3%nat) by (vm_compute; reflexivity).
  assert (ER : pRoot P = [true; false; false]).
  { destruct (C107_started _ _ _ _ _ _ _ _ _ _ _ _ _ (valid107 "out.json") (Eb "out.json"%string)) as (_ & _ & _ & _ & _ & _ & recs & cutoff & Hs).
    destruct (C83_parameters _ _ _ _ _ _ _ _ _ _ _ _ _ Hs) as (_ & _ & _ & _ & _ & _ & _ & _ & _ & Hl & Hroot & _).
    cbn [brData brProblem brAnneal] in Hl, Hroot. rewrite H3 in Hl, Hroot. rewrite Es in Hroot.
    destruct (pRoot P) as [|x0 [|x1 [|x2 [|]]]]; try discriminate Hl.
    pose proof (Hroot 0%nat ltac:(lia)) as Q0. pose proof (Hroot 1%nat ltac:(lia)) as Q1. pose proof (Hroot 2%nat ltac:(lia)) as Q2. cbn in Q0, Q1, Q2.
    assert (x0 = true) by tauto. assert (x1 = false) by (destruct x1; [exfalso; destruct (proj1 Q1 eq_refl) as [Q|[]]; discriminate Q|reflexivity]).
    assert (x2 = false) by (destruct x2; [exfalso; destruct (proj1 Q2 eq_refl) as [Q|[]]; discriminate Q|reflexivity]). subst. reflexivity. }
  split; [|split; [|split; [exact Hr|split; [exact Ht|split; [exact Hf|]]]]].
  - split; [exact nan_free107|]. split; [intros n []|]. split; [|intros n []].
    intros a Ha Hne G. assert (K : negb (SFltb (f64_dec 1 100) (snd (fitB a))) = true).
    { apply (models3 (fun a => negb (SFltb (f64_dec 1 100) (snd (fitB a))))); [vm_compute; reflexivity|exact Ha]. }
    rewrite G in K. discriminate K.
  - cbn [brProblem]. rewrite ER. constructor; [reflexivity|left; reflexivity|discriminate| |].
    + intros l Hl. destruct l as [|[|[|[|l]]]]; [vm_compute; lia..|lia].
    + intros l Hl _. destruct l as [|[|[|[|l]]]]; try lia; vm_compute; reflexivity.
  - destruct (C107_finished fenvE int107 parseB show64 read64 svdE (fun _ => 0%nat) rfB fuel fitB bndB (line107 "out.json") fs107 (mkReady dataB r P s0) "out.json" ls s bls e 10%Z
      (C103_numbers fenvE) (valid107 _) (Eb _) He eq_refl) as (_ & bytes & B1 & B2 & _).
    { cbn [brData]. rewrite H3. exact nan_free107. }
    { cbn [brData]. rewrite H3. reflexivity. }
    destruct (B2 Hf) as (kept & lft & B3 & B4 & B). exists bytes. eexists. split; [exact B1|]. split; [exact B|]. cbn [hsItems].
    destruct B4 as [->|[B4 _]]; [|apply (f_equal (@length _)) in Hm; rewrite map_length, B4 in Hm; discriminate Hm].
    rewrite app_nil_r in B3. rewrite map_map. rewrite B3 in Hm. rewrite <- Hm. reflexivity.
Qed.

(** ** At any time *)

Definition item_json {N : Num} (fmt : N -> bytes) (i : option (nodeJsonified N)) : json := match i with Some j => node_json fmt j | None => JNull end.

Lemma encoded_finite : forall (N : Num) (data : list (option (Node N))) items, encode_items data = Ok (Some items) ->
  forall j, In (Some j) items -> nodeJ_encodable j = true.
Proof.
  intros N. induction data as [|[n|] t IH]; intros items E j Hj.
  - injection E as <-. destruct Hj.
  - cbn [encode_items] in E. unfold NodeMarshalJSON in E. destruct (selected_loop (ndModel n)) as [s| |]; try discriminate E. cbn [bind] in E.
    destruct (encode_items t) as [r| |]; try discriminate E. cbn [bind] in E.
    match type of E with context [nodeJ_encodable ?x] => destruct (nodeJ_encodable x) eqn:En end; [|discriminate E].
    destruct r as [r|]; [|discriminate E]. injection E as <-. destruct Hj as [Hj|Hj]; [injection Hj as <-; exact En|exact (IH r eq_refl j Hj)].
  - cbn [encode_items] in E. destruct (encode_items t) as [r| |]; try discriminate E. cbn [bind] in E. destruct r as [r|]; [|discriminate E].
    injection E as <-. destruct Hj as [Hj|Hj]; [discriminate Hj|exact (IH r eq_refl j Hj)].
Qed.

Definition sound_file {N : Num} (e : bnb N) : Prop :=
  forall m items, bbFile e = Some (CJson m items) -> forall j, In (Some j) items -> nodeJ_encodable j = true.

Lemma sound_save : forall (N : Num) (st e : bnb N) wrap next s, sound_file st -> bnb_save st wrap next s = Ok e -> sound_file e.
Proof.
  intros N st e wrap next s H E. unfold bnb_save in E.
  destruct s; try (match type of E with (bind ?x _ = _) => destruct x; try discriminate E end; injection E as <-; exact H).
  unfold write_file in E. destruct (encode_items data) as [r| |] eqn:Er; try discriminate E. cbn [bind] in E. injection E as <-.
  intros m items Ef j Hj. cbn [bbFile] in Ef. injection Ef as Ef. destruct r as [r|]; [|discriminate Ef]. injection Ef as _ <-.
  exact (encoded_finite N data r Er j Hj).
Qed.

Lemma sound_step : forall (N : Num) l (st e : bnb N), sound_file st -> bnb_step l st = Some (Ok e) -> sound_file e.
Proof.
  intros N l st e H E. destruct st as [mn sr h f]. destruct l; cbn [bnb_step bbMain bbSearch bbList bbFile] in E;
    destruct mn, sr; try discriminate E; injection E as E;
    try (subst e; exact H); try (exact (sound_save _ _ _ _ _ _ H E)).
  all: match type of E with (bind ?x _ = _) => destruct x; try discriminate E; injection E as <-; exact H | _ => idtac end.
Qed.

Lemma sound_run : forall (N : Num) ls (st e : bnb N), sound_file st -> bnb_run ls st = Some (Ok e) -> sound_file e.
Proof.
  intros N. induction ls as [|l ls IH]; intros st e H E; cbn [bnb_run] in E; [injection E as <-; exact H|].
  destruct (bnb_step l st) as [[st'| |]|] eqn:Es; try discriminate E. exact (IH st' e (sound_step N l st st' H Es) E).
Qed.

(** Whenever the program is stopped, in the middle of the search as well, only
    the output file may have changed, and it is as before, empty, or one whole
    JSON object. *)
Theorem C107_at_any_time : forall (N : Num) fmt parse fs out ls (e : bnb N),
  (forall x : N, finite x = true -> printable fmt parse x) ->
  bnb_run ls bnb_init = Some (Ok e) ->
  (forall g, g <> out -> fsRead (bnb_files fmt fs out e) g = fsRead fs g) /\
  (fsRead (bnb_files fmt fs out e) out = fsRead fs out \/
   fsRead (bnb_files fmt fs out e) out = Some [] \/
   exists bytes members, fsRead (bnb_files fmt fs out e) out = Some bytes /\ parse_json bytes = Ok (JObj members)).
Proof.
  intros N fmt parse fs out ls e HP E.
  assert (S : sound_file e) by (apply (sound_run N ls bnb_init e); [intros m items C; discriminate C|exact E]).
  unfold bnb_files. destruct (bbFile e) as [c|] eqn:Ef; [|split; [reflexivity|left; reflexivity]].
  destruct (fsWritable fs out); [|split; [reflexivity|left; reflexivity]].
  split.
  { intros g Hg. unfold store. cbn [fsRead]. destruct (String.eqb_spec g out); [contradiction|reflexivity]. }
  right. unfold store. cbn [fsRead]. rewrite String.eqb_refl. destruct c as [|m items]; [left; reflexivity|right].
  eexists _, _. split; [reflexivity|]. cbn [saved_bytes]. rewrite parse_write; [reflexivity|].
  assert (L : numbers_ok (JArr (map (item_json fmt) items))).
  { cbn [numbers_ok]. rewrite map_map. apply all_and. intros [n|] Hn; [|exact I]. pose proof (S m items Ef n Hn) as F.
    unfold nodeJ_encodable in F. rewrite !andb_true_iff in F. destruct F as [[[F1 F2] F3] F4]. rewrite forallb_forall in F4.
    cbn [item_json]. unfold node_json, object. cbn [map fst snd numbers_ok fold_right].
    refine (conj _ (conj _ (conj _ (conj _ (conj _ (conj _ (conj _ I))))))); try apply itoa_number; try apply ints_ok;
      try (apply (nums_ok N fmt parse); intros x H; apply HP; apply F4; exact H); apply HP; assumption. }
  unfold object. cbn [map fst snd numbers_ok fold_right]. refine (conj _ (conj L I)). apply itoa_number.
Qed.
Print Assumptions C107_at_any_time.

(** stopped in the search, after a periodic save *)
Example C107_any_time_example : exists e, bnb_run (firstn 7 bnb_sched) bnb_init = Some (Ok e) /\ bbSearch e = GRun /\
  exists bytes members, fsRead (bnb_files (N := F64 fenv0) show64 (mkFs (fun _ => None) (fun _ => true)) "out.json"%string e) "out.json"%string = Some bytes /\
    parse_json bytes = Ok (JObj members) /\ bytes <> [].
Proof.
  eexists. split; [reflexivity|]. split; [reflexivity|]. eexists _, _. split; [reflexivity|]. split; [vm_compute; reflexivity|vm_compute; discriminate].
Qed.

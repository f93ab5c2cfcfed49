(** C105: from the command line through the bytes of the result file to the figures. *)
From Coq Require Import String Ascii NArith DecimalString DecimalZ List Reals Floats.SpecFloat Lia Permutation.
From Verif Require Import Base Num Mat Model_Node Model_Util Model_Norm Model_Fit Model_SA Model_CSV Model_CSVBytes Model_Lars Model_Path Model_Cmd Model_Flags
  Model_Shell Model_JSON Model_JSONFiles Model_Plot Model_Chain.
From Verif Require Import Proof_XR Props_Util Spec_JSON Proof_JSON Proof_JSON2 Props_JSON Props_Flags Props_Path Props_Cmd Props_CSV Props_Shell Props_LassoCmd Props_Plot Eval Ex_Nested.
Import ListNotations.
Open Scope list_scope.

(** the numbers and integers in a file of goselect sasearch *)
Definition sa_items {N : Num} (j : SAJson N) : list (SAItem N) :=
  sjItems j ++ match sjBest j with Some i => [i] | None => [] end ++ match sjWorst j with Some i => [i] | None => [] end.

Section C105.
  Variable N : Num.
  Variable fmt : N -> bytes.
  Variable parse : bytes -> option N.

  (** ** The file of goselect sasearch *)

  Ltac keys := repeat match goal with |- context [same_key (text ?a) (text ?b)] =>
    let r := eval vm_compute in (same_key (text a) (text b)) in change (same_key (text a) (text b)) with r end; cbv iota.
  Ltac open := rewrite object_repair by (vm_compute; reflexivity); cbn [map fst snd]; unfold object; cbn [map fst snd].
  Ltac fields := unfold dec_field; cbn [field]; keys.

  Lemma sa_item_back : forall i, (forall x, In x (siScore i :: siCoeff i) -> printable fmt parse x) -> (forall z, In z (siSelection i) -> int64 z = true) ->
    numbers_ok (sa_item_json fmt i) /\ dec_sa_item parse (repair (sa_item_json fmt i)) = Some i.
  Proof.
    intros i Hx Hz. split.
    - unfold sa_item_json, object. cbn [map fst snd numbers_ok fold_right].
      refine (conj _ (conj _ (conj _ I))); [apply ints_ok|apply (nums_ok N fmt parse); intros x H; apply Hx; right; exact H|apply Hx; left; reflexivity].
    - unfold sa_item_json. open. unfold dec_sa_item. fields.
      rewrite ints_back by exact Hz. rewrite nums_back by (intros x H; apply Hx; right; exact H). cbn [repair jnum dec_num].
      rewrite (proj2 (Hx _ (or_introl eq_refl))). destruct i. reflexivity.
  Qed.

  (** A program that reads the file of goselect sasearch with the type SAScore
      gets back what was written. *)
  Theorem C105_sasearch_file : forall j,
    (forall i x, In i (sa_items j) -> In x (siScore i :: siCoeff i) -> printable fmt parse x) ->
    (forall i z, In i (sa_items j) -> In z (siSelection i) -> int64 z = true) -> int64 (sjCap j) = true ->
    unmarshal (sa_of parse) (content fmt (WSa (SAFile j))) = Read j.
  Proof.
    intros j Hx Hz Hc. unfold sa_items in *.
    assert (A : forall i, In i (sjItems j) -> numbers_ok (sa_item_json fmt i) /\ dec_sa_item parse (repair (sa_item_json fmt i)) = Some i).
    { intros i Hi. apply sa_item_back; intros; [eapply Hx|eapply Hz]; eauto; apply in_or_app; auto. }
    assert (P : forall o, (forall i, o = Some i -> In i (sa_items j)) -> numbers_ok (sa_ptr_json fmt o) /\ dec_sa_ptr parse (repair (sa_ptr_json fmt o)) = Some o).
    { intros [i|] Ho; [|split; [exact I|reflexivity]]. specialize (Ho i eq_refl). unfold sa_items in Ho.
      destruct (sa_item_back i) as [P1 P2]; [intros x H; eapply Hx; eauto|intros z H; eapply Hz; eauto|]. cbn [sa_ptr_json]. split; [exact P1|].
      unfold dec_sa_ptr. rewrite P2. unfold sa_item_json. open. reflexivity. }
    destruct (P (sjBest j)) as [B1 B2]. { intros i E. unfold sa_items. rewrite E, !in_app_iff. cbn. auto. }
    destruct (P (sjWorst j)) as [W1 W2]. { intros i E. unfold sa_items. rewrite E, !in_app_iff. cbn. auto. }
    assert (L : numbers_ok (JArr (map (sa_item_json fmt) (sjItems j)))). { cbn [numbers_ok]. rewrite map_map. apply all_and. intros i Hi. apply A, Hi. }
    assert (K : numbers_ok (sa_json fmt j)).
    { unfold sa_json, object. cbn [map fst snd numbers_ok fold_right]. refine (conj _ (conj L (conj B1 (conj W1 I)))). apply itoa_number. }
    unfold unmarshal, content. rewrite (parse_write _ K). unfold sa_json. open. unfold sa_of. fields.
    rewrite B2, W2. cbn [repair jint dec_int dec_list]. rewrite atoi_itoa by exact Hc.
    rewrite (all_of_ok _ _ _ _ (fun i => i)) by (intros i Hi; apply A, Hi). rewrite map_id. destruct j. reflexivity.
  Qed.

  (** ** goselect-plotlasso *)
  Variable lg : N -> N.
  Variable saves : Figure N -> bool.
  Variable other : bytes -> LassoLarsPath N.
  Notation plot_file := (plotlasso_file parse lg saves other).

  Lemma figures_names : forall p p' range, dsX (lpDset p) = dsX (lpDset p') -> dsY (lpDset p) = dsY (lpDset p') -> lpNodes p = lpNodes p' ->
    analyseLasso lg saves p range = analyseLasso lg saves p' range.
  Proof.
    intros [[X Y n t] l] [[X' Y' n' t'] l'] range H1 H2 H3. cbn in H1, H2, H3. subst. reflexivity.
  Qed.

  (** The figures drawn from the bytes of the file are those of the path in it,
      whatever the names of the columns are. *)
  Theorem C105_figures : forall flags fs f j, fsRead fs f = Some (path_bytes fmt j) ->
    (forall x, In x (path_numbers j) -> printable fmt parse x) -> (forall z, In z (path_ints j) -> int64 z = true) ->
    plot_file flags fs f = plotlasso lg saves flags (Some j).
  Proof.
    intros flags fs f j F Hx Hz. destruct (C103_path_file N fmt parse j Hx Hz) as (names & _ & _ & E).
    unfold plotlasso_file, plotlasso. rewrite F, E. unfold LassoLarsPathFromBytes, with_names, dsUnmarshalJSON.
    cbn [pjDset pjNodes pjAicc pjBic jdX jdY jdNames jdTargetCol jdNr jdNc].
    destruct (new_dense_from _ _ _) as [X| |]; [|reflexivity|reflexivity]. cbn [bind]. apply figures_names; reflexivity.
  Qed.

  (** A file that is missing, cut off or continued with something else gives no
      figure; the program ends in a panic. *)
  Theorem C105_damaged_file : forall flags fs f j,
    (forall x, In x (path_numbers j) -> printable fmt parse x) -> (forall z, In z (path_ints j) -> int64 z = true) ->
    fsRead fs f = None \/
    (exists p q, fsRead fs f = Some p /\ path_bytes fmt j = p ++ q /\ q <> []) \/
    (exists g c, fsRead fs f = Some (path_bytes fmt j ++ g) /\ In c g /\ is_space c = false) ->
    plot_file flags fs f = mkPlotOut [] [] false.
  Proof.
    intros flags fs f j Hx Hz H.
    destruct (C103_damaged_file N fmt parse j (mkHSJ 0%Z []) (NewHighscore 0%Z) Hx Hz) as (D1 & D2 & _); [intros x []|intros z [<-|[]]; reflexivity|].
    unfold plotlasso_file. destruct H as [H|[(p & q & H & E & Q)|(g & c & H & E & Q)]]; rewrite H; [reflexivity| |].
    - rewrite (D1 p q E Q). reflexivity.
    - rewrite (D2 g c E Q). reflexivity.
  Qed.

  (** ** The commands *)
  Variable parse_int : string -> option Z.
  Variable parse_float : string -> option N.
  Variable srt : list (N * nat) -> list (N * nat).
  Variable larsF : NormalizedData N -> N -> res (list (LassoLarsNode N)).
  Variable crdF : (Mat N -> res (Mat N)) -> NormalizedData N -> list N -> N -> res (list (LassoLarsNode N)).
  Variable thr : Mat N -> res N.
  Variable svd : Mat N -> SVD N.
  Variable ri : nat -> nat.
  Variable rf : nat -> N.
  Variable fuel : nat.
  Notation shell := (shell parse_int parse_float srt larsF crdF thr svd ri rf fuel).
  Notation valid := (valid N parse_int parse_float).

  Lemma write_to_inv : forall fs out (w : written N) f w', write_to N fs out w = Some (f, w') -> f = out /\ w' = w.
  Proof. intros fs out w f w' H. unfold write_to in H. destruct (fsWritable fs out); [|discriminate]. injection H as <- <-. auto. Qed.

  Lemma marshal_finite : forall d nodes aicc bic j, pathMarshal d nodes aicc bic = Ok (Some j) -> forall x : N, In x (path_numbers j) -> finite x = true.
  Proof.
    intros d nodes aicc bic j E x Hx. unfold pathMarshal in E. apply bind_ok in E. destruct E as (jd & Ed & E). destruct jd as [jd|]; [|discriminate E].
    destruct (_ && _ && _)%bool eqn:F; [|discriminate E]. injection E as <-. apply andb_prop in F. destruct F as [F F3]. apply andb_prop in F. destruct F as [F1 F2].
    rewrite forallb_forall in F1, F2, F3. destruct (from_finite N d jd Ed) as (G & _).
    unfold path_numbers in Hx. cbn [pjDset pjNodes pjAicc pjBic] in Hx. rewrite app_assoc in Hx. apply in_app_or in Hx. destruct Hx as [Hx|Hx]; [auto|].
    apply in_app_or in Hx. destruct Hx as [Hx|Hx]; [|apply in_app_or in Hx; destruct Hx; auto].
    apply in_flat_map in Hx. destruct Hx as (n & Hn & Hx). specialize (F1 n Hn). apply andb_prop in F1. destruct F1 as [A B].
    rewrite forallb_forall in A. destruct Hx as [<-|Hx]; auto.
  Qed.

  Lemma mark_bounds : forall sel (model m : list bool), for_each sel (fun v model => setz model v true) model = Ok m ->
    forall z, In z sel -> (0 <= z < Z.of_nat (length model))%Z.
  Proof.
    induction sel as [|v sel IH]; intros model m E z H; [destruct H|]. cbn [for_each] in E. apply bind_ok in E. destruct E as (m1 & E1 & E).
    assert (B : (0 <= v < Z.of_nat (length model))%Z /\ length m1 = length model).
    { unfold setz, setn in E1. destruct (Z.ltb_spec v 0); [discriminate|]. destruct (Nat.ltb_spec (Z.to_nat v) (length model)); [|discriminate].
      injection E1 as <-. rewrite upd_length. lia. }
    destruct B as [B L]. destruct H as [<-|H]; [exact B|]. rewrite <- L. exact (IH _ _ E z H).
  Qed.

  Lemma criteria_bounds : forall d nodes c a, GetCriteria (N := N) (mkPath d nodes) c = Ok a ->
    forall n z, In n nodes -> In z (lnSelection n) -> (0 <= z < Z.of_nat (mcols (dsX d)))%Z.
  Proof.
    intros d nodes c a E. unfold GetCriteria in E. cbn [lpDset lpNodes] in E. revert E. generalize (repeat (n0 : N) (length nodes)). generalize 0%nat.
    induction nodes as [|m nodes IH]; intros i acc E n z Hn Hz; [destruct Hn|]. cbn [for_eachi] in E. apply bind_ok in E. destruct E as (s1 & E1 & E).
    destruct Hn as [<-|Hn]; [|exact (IH _ _ E n z Hn Hz)]. apply bind_ok in E1. destruct E1 as (mo & E1 & _). unfold Selected2Model in E1. apply bind_ok in E1.
    destruct E1 as (m0 & G & E1). pose proof (mark_bounds _ _ _ E1 z Hz) as B. unfold go_make in G. destruct (_ <? 0)%Z; [discriminate|]. injection G as <-.
    rewrite repeat_length in B. lia.
  Qed.

  Lemma lasso_written : forall items fs t f j, (forall i, In i items -> valid Lasso i) -> shell Lasso fs (command_line items) = Returned t (Some (f, WLasso j)) ->
    (forall x, In x (path_numbers j) -> finite x = true) /\
    (forall n z, In n (pjNodes j) -> In z (lnSelection n) -> (0 <= z < jdNc (pjDset j))%Z) /\
    exists d, ReadCSVFile parse_float fs (csv_of items) (int_value parse_int items "target" (-1)) = Ok (Some d) /\
      jdTargetCol (pjDset j) = dsTargetCol d /\ jdNr (pjDset j) = Z.of_nat (mrows (dsX d)) /\ jdNc (pjDset j) = Z.of_nat (mcols (dsX d)).
  Proof.
    intros items fs t f j V E. rewrite lasso_run in E by exact V. destruct (String.eqb _ _); [discriminate|].
    destruct (lasso_main _ _ _ _ _ _ _ _ _ _ _ _ _ _ _) as [[t' w']| |] eqn:M; try discriminate. injection E as -> ->.
    unfold lasso_main in M. apply bind_ok in M. destruct M as (ds & Rd & M). apply bind_ok in M. destruct M as (o & Eo & M).
    injection M as _ M. destruct (loFile o) as [j'|] eqn:L; [|discriminate]. apply write_to_inv in M. destruct M as [_ M]. injection M as ->.
    unfold lassoFit in Eo. destruct ds as [ds|]; [|discriminate]. apply bind_ok in Eo. destruct Eo as (nd & _ & Eo). apply bind_ok in Eo. destruct Eo as (p & _ & Eo).
    destruct p as [p|]; [|injection Eo as <-; discriminate L]. unfold lasso_finish in Eo.
    apply bind_ok in Eo. destruct Eo as (lp & _ & Eo). apply bind_ok in Eo. destruct Eo as (a & Ea & Eo). apply bind_ok in Eo. destruct Eo as (b & _ & Eo).
    apply bind_ok in Eo. destruct Eo as (tb & _ & Eo). apply bind_ok in Eo. destruct Eo as (js & Ej & Eo). injection Eo as <-. cbn [loFile] in L. subst js.
    split; [apply (marshal_finite _ _ _ _ _ Ej)|]. unfold pathMarshal in Ej. apply bind_ok in Ej. destruct Ej as (jd & Ed & Ej).
    destruct jd as [jd|]; [|discriminate Ej]. destruct (_ && _ && _)%bool; [|discriminate Ej]. injection Ej as <-. cbn [pjNodes pjDset].
    destruct (from_finite N ds jd Ed) as (_ & _ & G2 & G3 & G4). split; [rewrite G4; apply (criteria_bounds _ _ _ _ Ea)|]. exists ds. auto.
  Qed.

  (** goselect lasso and then goselect-plotlasso on its output: if the first
      says that it has written its result, the figures are those of that result. *)
  Theorem C105_lasso_then_plot : forall flags items fs t f j, (forall i, In i items -> valid Lasso i) ->
    shell Lasso fs (command_line items) = Returned t (Some (f, WLasso j)) ->
    (forall x, In x (path_numbers j) -> finite x = true -> printable fmt parse x) ->
    (forall z, In z [jdTargetCol (pjDset j); jdNr (pjDset j); jdNc (pjDset j)] -> int64 z = true) ->
    plot_file flags (after fmt fs (shell Lasso fs (command_line items))) (out_of Lasso items) = plotlasso lg saves flags (Some j).
  Proof.
    intros flags items fs t f j V E Hx Hz. destruct (lasso_written items fs t f j V E) as (F & B & _). apply C105_figures; [|intros x H; apply Hx; auto|].
    - destruct (C102_output N parse_int parse_float srt larsF crdF thr svd ri rf fuel Lasso items items fs) as [O _]; auto; [intros n _ _; reflexivity|].
      destruct (O _ _ _ E) as [-> _]. rewrite E. cbn [after fsRead store content]. rewrite String.eqb_refl. reflexivity.
    - intros z H. unfold path_ints in H. apply in_app_or in H. destruct H as [H|H]; [auto|]. apply in_flat_map in H. destruct H as (n & Hn & H).
      specialize (B n z Hn H). pose proof (Hz (jdNc (pjDset j)) ltac:(cbn; auto)) as C. unfold int64 in *. apply andb_prop in C. destruct C as [C1 C2].
      apply Z.leb_le in C1. apply Z.ltb_lt in C2. apply andb_true_intro. split; [apply Z.leb_le|apply Z.ltb_lt]; lia.
  Qed.

  (** A command changes no file but the one named by --out, and that one only
      if it says so. *)
  Theorem C105_other_files : forall c items fs g, c = Lasso \/ c = SaSearch -> (forall i, In i items -> valid c i) ->
    fsRead (after fmt fs (shell c fs (command_line items))) g <> fsRead fs g ->
    g = out_of c items /\ fsWritable fs g = true /\ exists t w, shell c fs (command_line items) = Returned t (Some (g, w)) /\
      fsRead (after fmt fs (shell c fs (command_line items))) g = Some (content fmt w).
  Proof.
    intros c items fs g Hc V H.
    destruct (C102_output N parse_int parse_float srt larsF crdF thr svd ri rf fuel c items items fs) as [O _]; auto; [intros n _ _; reflexivity|].
    destruct (shell c fs (command_line items)) as [| | |t [[f w]|]] eqn:E; cbn [after] in *; try (destruct H; reflexivity).
    destruct (O _ _ _ eq_refl) as [-> W]. cbn [store fsRead] in *. destruct (String.eqb_spec g (out_of c items)) as [->|]; [|destruct H; reflexivity].
    split; [reflexivity|]. split; [exact W|]. exists t, w. auto.
  Qed.

  (** Running a command again gives the same result and leaves the same files,
      if the output does not replace the data. *)
  Theorem C105_repeat : forall c items fs, c = Lasso \/ c = SaSearch -> (forall i, In i items -> valid c i) -> out_of c items <> csv_of items ->
    let e := shell c fs (command_line items) in
    shell c (after fmt fs e) (command_line items) = e /\
    forall g, fsRead (after fmt (after fmt fs e) e) g = fsRead (after fmt fs e) g.
  Proof.
    intros c items fs Hc V D e. split.
    - unfold e. apply C102_determined; auto; [intros n _; reflexivity| |].
      + destruct (C102_output N parse_int parse_float srt larsF crdF thr svd ri rf fuel c items items fs) as [O _]; auto; [intros n _ _; reflexivity|].
        fold e in O |- *. destruct e as [| | |t [[f w]|]]; cbn [after]; try reflexivity. destruct (O _ _ _ eq_refl) as [-> _]. cbn [store fsRead].
        destruct (String.eqb_spec (csv_of items) (out_of c items)) as [Q|]; [congruence|reflexivity].
      + fold e. destruct e as [| | |t [[f w]|]]; reflexivity.
    - intro g. destruct e as [| | |t [[f w]|]]; cbn [after store fsRead]; try reflexivity. destruct (String.eqb g f); reflexivity.
  Qed.
End C105.
Print Assumptions C105_sasearch_file.
Print Assumptions C105_figures.
Print Assumptions C105_damaged_file.
Print Assumptions C105_lasso_then_plot.
Print Assumptions C105_other_files.
Print Assumptions C105_repeat.

(** ** Examples *)

(** any finitely many numbers can be printed and read back *)
Definition xr_eq_dec (a b : xr) : {a = b} + {a <> b}.
Proof. decide equality. apply Req_EM_T. Defined.

Fixpoint place (l : list xr) (x : xr) : nat :=
  match l with [] => 0 | a :: l => if xr_eq_dec a x then 0 else S (place l x) end.
Definition print_nth (l : list xr) (x : XR) : bytes := itoa (Z.of_nat (place l x)).
Definition read_nth (l : list xr) (t : bytes) : option XR :=
  match NilZero.int_of_string (string_of_list_ascii t) with Some d => nth_error l (Z.to_nat (Z.of_int d)) | None => None end.

Lemma print_read_nth : forall l x, In x l -> printable (N := XR) (print_nth l) (read_nth l) x.
Proof.
  intros l x H. split; [apply itoa_number|]. unfold read_nth, print_nth. rewrite itoa_back, DecimalZ.of_to, Nat2Z.id.
  induction l as [|a l IH]; [destruct H|]. cbn [place]. destruct (xr_eq_dec a x) as [->|D]; [reflexivity|]. cbn [nth_error]. apply IH. destruct H; [congruence|assumption].
Qed.

Example C105_example : exists fmt parse rows j, 
  run102 (fs102 file102) line102 = Returned (Some rows) (Some ("path.json"%string, WLasso j)) /\
  (forall x, In x (path_numbers j) -> printable (N := XR) fmt parse x) /\
  (forall z, In z (path_ints j) -> int64 z = true) /\ length (pjNodes j) = 2%nat /\
  forall lg saves other flags, plotlasso_file parse lg saves other flags (after fmt (fs102 file102) (run102 (fs102 file102) line102)) "path.json" =
    plotlasso lg saves flags (Some j).
Proof.
  destruct C102_example as (V & _ & _ & _ & (rows & j & nodes & aicc & bic & d' & E & _ & P & L & W) & _).
  exists (print_nth (path_numbers j)), (read_nth (path_numbers j)), rows, j.
  assert (Hx : forall x, In x (path_numbers j) -> printable (N := XR) (print_nth (path_numbers j)) (read_nth (path_numbers j)) x) by (apply print_read_nth).
  destruct (lasso_written XR int102 num102 _ _ _ _ _ _ _ _ line102 (fs102 file102) _ _ _ V E) as (_ & B & d & Rd & D1 & D2 & D3).
  assert (Hz : forall z, In z (path_ints j) -> int64 z = true).
  { assert (Q : d = exc_d).
    { unfold ReadCSVFile in Rd. change (fsRead (fs102 file102) (csv_of line102)) with (Some file102) in Rd. cbv iota in Rd.
      change (int_value int102 line102 "target" (-1)) with (-1)%Z in Rd. rewrite parse102 in Rd. cbn [bind] in Rd. injection Rd as Rd. symmetry. exact Rd. }
    subst d. change (dsTargetCol exc_d) with 3%Z in D1. change (Z.of_nat (mrows (dsX exc_d))) with 5%Z in D2. change (Z.of_nat (mcols (dsX exc_d))) with 3%Z in D3.
    unfold path_ints. rewrite D1, D2, D3. rewrite D3 in B. intros z H. apply in_app_or in H. destruct H as [H|H].
    - cbn in H. destruct H as [<-|[<-|[<-|[]]]]; reflexivity.
    - apply in_flat_map in H. destruct H as (n & Hn & H). specialize (B n z Hn H). unfold int64. apply andb_true_intro. split; [apply Z.leb_le|apply Z.ltb_lt]; lia. }
  split; [exact E|]. split; [exact Hx|]. split; [exact Hz|]. split.
  - unfold LassoLarsPathFromBytes in P. apply bind_ok in P. destruct P as (d0 & _ & P). injection P as _ -> _ _. exact L.
  - intros lg saves other flags.
    apply (C105_lasso_then_plot XR _ _ lg saves other int102 num102 _ _ _ _ _ _ _ _ flags line102 (fs102 file102) _ _ j V E); auto.
    intros z H. apply Hz. unfold path_ints. apply in_or_app. auto.
Qed.

(** The data file can be lost: nothing keeps --out from naming it. *)
Theorem C105_data_kept_refuted : exists (fs : filesystem) items b, (forall i, In i items -> valid XR int102 num102 Lasso i) /\
  fsRead fs (csv_of items) = Some b /\
  forall fmt, exists b', fsRead (after (N := XR) fmt fs (run102 fs items)) (csv_of items) = Some b' /\ b' <> b.
Proof.
  set (fs := mkFs (fun f => if String.eqb f "data.csv" then Some file102 else None) (fun _ => true)).
  set (line := line102 ++ [Opt "out" "data.csv"]).
  destruct C102_example as (V & _ & _ & _ & (rows & j & nodes & aicc & bic & d' & E & _) & _).
  assert (V' : forall i, In i line -> valid XR int102 num102 Lasso i).
  { intros i H. apply in_app_or in H. destruct H as [H|[<-|[]]]; [auto|]. left. cbn. tauto. }
  exists fs, line, file102. split; [exact V'|]. split; [reflexivity|]. intro fmt.
  destruct (C102_output XR int102 num102 (isort byValueLess) (fun nd l => LassoLars exc_cd (exc_X, None) nd l 10) (fun _ _ _ _ => Panic) (fun _ => Panic)
    exc_svd (fun _ => 0%nat) (fun _ => fin 0) 0 Lasso line102 line fs) as [_ O]; auto.
  { intros n Hn D. unfold line. cbn in Hn. repeat (destruct Hn as [<-|Hn]; [try reflexivity; destruct D; reflexivity|]). destruct Hn. }
  specialize (O eq_refl).
  pose proof (C102_determined XR int102 num102 (isort byValueLess) (fun nd l => LassoLars exc_cd (exc_X, None) nd l 10) (fun _ _ _ _ => Panic) (fun _ => Panic)
    exc_svd (fun _ => 0%nat) (fun _ => fin 0) 0 Lasso line102 line102 fs (fs102 file102) (or_introl eq_refl) V V (fun n _ => eq_refl) eq_refl eq_refl) as E'.
  rewrite E', E in O. unfold renamed in O. destruct (run102 fs line) as [| | |t [[f w]|]]; try discriminate O. destruct O as (_ & <- & _ & ->).
  change (out_of Lasso line) with "data.csv"%string. change (csv_of line) with "data.csv"%string. cbn [after store fsRead content]. rewrite String.eqb_refl.
  exists (path_bytes fmt j). split; [reflexivity|]. intro Q. apply (f_equal (hd " "%char)) in Q. discriminate Q.
Qed.
Print Assumptions C105_data_kept_refuted.

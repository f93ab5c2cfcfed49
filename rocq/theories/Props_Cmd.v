(** C67 - C73: the command line programs. *)
From Coq Require Import String Ascii Permutation Reals Lra SpecFloat.
From Verif Require Import Base Num Mat Model_Node Model_Util Model_Norm Model_CSV Model_Lars Model_Path Model_SA
  Model_Save Model_Cmd Spec_Cmd Proof_Node Proof_Node2 Proof_Util Proof_SA Proof_SA2 Proof_Cmd Props_CSV Props_SA Props_Util.
Open Scope list_scope.
Open Scope nat_scope.

(** ** C67: CSV files padded with blanks *)

(** strconv.ParseFloat accepts no leading blank and encoding/csv keeps it: a
    file whose data cells are padded on the left, like the example in the
    README, is read without any error and gives nothing but zeros. *)
Theorem C67_padded_cells_are_zero : forall (N : Num) (parse : string -> option N) header rows targetCol t,
  (forall s, parse (String " "%char s) = None) ->
  rows <> [] -> (forall r, In r rows -> length r = length header) -> (2 <= length header)%nat ->
  column_of (length header) targetCol t ->
  (forall r s, In r rows -> In s r -> padded s) ->
  exists d, ReadCSV parse (Some (header :: rows)) targetCol = Ok (Some d) /\
    dsNames d = header /\ length (dsY d) = length rows /\ mrows (dsX d) = length rows /\
    mcols (dsX d) = (length header - 1)%nat /\
    (forall v, In v (dsY d) -> v = n0) /\
    (forall i j, (i < mrows (dsX d))%nat -> (j < mcols (dsX d))%nat -> mval (dsX d) i j = n0).
Proof.
  intros N parse header rows tc t Hp Hne Hlen H2 Ht Hpad.
  destruct (C26_columns_split N parse header rows tc t Hne Hlen H2 Ht) as (d & E & D1 & D2 & D3 & D4 & D5 & D6).
  exists d. split; [unfold ReadCSV; rewrite E; reflexivity|]. split; [exact D1|]. split; [exact D3|]. split; [exact D4|].
  split; [exact D5|].
  assert (Z : forall row k, In row rows -> (k < length header)%nat -> value parse (nth k row EmptyString) = n0).
  { intros row k Hr Hk. destruct (Hpad row (nth k row EmptyString) Hr) as (s & ->).
    - apply nth_In. rewrite (Hlen row Hr). exact Hk.
    - unfold value. rewrite Hp. reflexivity. }
  destruct Ht as (Ht & _). split.
  - intros v Hv. destruct (In_nth _ _ n0 Hv) as (i & Hi & <-). rewrite D3 in Hi.
    destruct (nth_error rows i) as [row|] eqn:Er; [|apply nth_error_None in Er; lia].
    destruct (D6 i row Er) as (-> & _). apply Z; [exact (nth_error_In _ _ Er)|exact Ht].
  - intros i j Hi Hj. rewrite D4 in Hi. rewrite D5 in Hj.
    destruct (nth_error rows i) as [row|] eqn:Er; [|apply nth_error_None in Er; lia].
    destruct (D6 i row Er) as (_ & M). rewrite (M j Hj). apply Z; [exact (nth_error_In _ _ Er)|].
    unfold other_column. destruct (Nat.ltb_spec j t); lia.
Qed.
Print Assumptions C67_padded_cells_are_zero.

(** the example of the README, with any parser that rejects leading blanks *)
Example C67_readme : forall (parse : string -> option XR), (forall s, parse (String " "%char s) = None) ->
  exists d, ReadCSV parse (Some [["# Age"; " Height"; " Weight"];
                                 ["   20"; "    184"; "     80"];
                                 ["   40"; "    192"; "     92"];
                                 ["   60"; "    188"; "     88"]]%string) (-1) = Ok (Some d) /\
    dsY d = [n0; n0; n0] /\ mval (dsX d) 1 1 = n0.
Proof.
  intros parse Hp.
  match goal with |- context [Some (?h :: ?r)] =>
    destruct (C67_padded_cells_are_zero XR parse h r (-1) 2 Hp) as (d & E & _ & L & R & C & Y & X) end.
  - discriminate.
  - intros r [<-|[<-|[<-|[]]]]; reflexivity.
  - cbn; lia.
  - split; [cbn; lia|right; reflexivity].
  - intros r s [<-|[<-|[<-|[]]]] [<-|[<-|[<-|[]]]]; eexists; reflexivity.
  - exists d. split; [exact E|]. split.
    + cbn in L. destruct (dsY d) as [|a [|b [|c [|]]]]; try discriminate L.
      rewrite (Y a), (Y b), (Y c) by (cbn; auto). reflexivity.
    + apply X; [rewrite R|rewrite C]; cbn; lia.
Qed.

(** the parser used for the round trip (C27) is one of them *)
Example C67_parser : forall s, parse_f (N := XR) (String " "%char s) = None.
Proof.
  intro s. unfold parse_f. cbn [String.eqb Ascii.eqb Bool.eqb].
  cbn [split_dot]. change (Ascii.eqb " "%char "."%char) with false. cbv iota.
  destruct (split_dot s) as [[a b]|]; [|reflexivity]. reflexivity.
Qed.

(** ** C68: reading a lasso result file *)

(** Everything finite: the file gives back the dataset, the nodes and the
    scores.  Anything else: there is nothing to write. *)
Theorem C68_lasso_file_roundtrip : forall (N : Num) (d : Dataset N) nodes aicc bic,
  (0 < mrows (dsX d))%nat -> (0 < mcols (dsX d))%nat ->
  (forall i j, (i < mrows (dsX d))%nat -> (j < mcols (dsX d))%nat -> finite (mval (dsX d) i j) = true) ->
  (forall y, In y (dsY d) -> finite y = true) ->
  (forall n x, In n nodes -> In x (lnLamb n :: lnCoeff n) -> finite x = true) ->
  (forall x, In x aicc \/ In x bic -> finite x = true) ->
  exists j d', pathMarshal d nodes aicc bic = Ok (Some j) /\
    LassoLarsPathFromBytes j = Ok (mkPath d' nodes, aicc, bic) /\
    meq (dsX d') (dsX d) /\ dsY d' = dsY d /\ dsNames d' = dsNames d /\ dsTargetCol d' = dsTargetCol d.
Proof.
  intros N d nodes aicc bic Hr Hc HX HY Hn Hs.
  destruct (C28_json_roundtrip N d Hr Hc HX HY) as (j & d' & E1 & E2 & Q).
  exists (mkPathJ j nodes aicc bic), d'. unfold pathMarshal, LassoLarsPathFromBytes. rewrite E1. cbn [bind].
  assert (F1 : forallb (fun n => forallb finite (lnCoeff n) && finite (lnLamb n)) nodes = true).
  { apply forallb_forall. intros n H. apply andb_true_intro. split.
    - apply forallb_forall. intros x Hx. apply (Hn n x H). right. exact Hx.
    - apply (Hn n _ H). left. reflexivity. }
  assert (F2 : forallb finite aicc = true) by (apply forallb_forall; intros x Hx; apply Hs; auto).
  assert (F3 : forallb finite bic = true) by (apply forallb_forall; intros x Hx; apply Hs; auto).
  rewrite F1, F2, F3. cbn [andb pjDset pjNodes pjAicc pjBic]. rewrite E2. split; [reflexivity|]. split; [reflexivity|exact Q].
Qed.
Print Assumptions C68_lasso_file_roundtrip.

Theorem C68_nonfinite_refused : forall (N : Num) (d : Dataset N) nodes aicc bic,
  (exists i j, (i < mrows (dsX d))%nat /\ (j < mcols (dsX d))%nat /\ finite (mval (dsX d) i j) = false) \/
  (exists y, In y (dsY d) /\ finite y = false) \/
  ((exists j, dsMarshalJSON d = Ok (Some j)) /\
   ((exists n x, In n nodes /\ In x (lnLamb n :: lnCoeff n) /\ finite x = false) \/
    (exists x, (In x aicc \/ In x bic) /\ finite x = false))) ->
  pathMarshal d nodes aicc bic = Ok None.
Proof.
  intros N d nodes aicc bic H. unfold pathMarshal.
  assert (FF : forall A (p : A -> bool) l x, In x l -> p x = false -> forallb p l = false).
  { intros A p l x Hx Hp. apply not_true_is_false. intro C. rewrite forallb_forall in C. rewrite (C x Hx) in Hp. discriminate Hp. }
  destruct H as [H|[H|((j & Ej) & H)]].
  - rewrite (C28_json_refuses_nonfinite N d (or_introl H)). reflexivity.
  - rewrite (C28_json_refuses_nonfinite N d (or_intror H)). reflexivity.
  - rewrite Ej. cbn [bind]. destruct H as [(n & x & Hn & Hx & Fx)|(x & Hx & Fx)].
    + rewrite (FF _ (fun n => forallb finite (lnCoeff n) && finite (lnLamb n)) nodes n Hn); [reflexivity|].
      destruct Hx as [<-|Hx]; [rewrite Fx; apply andb_false_r|]. rewrite (FF _ _ _ x Hx Fx). reflexivity.
    + destruct Hx as [Hx|Hx].
      * rewrite (FF _ _ aicc x Hx Fx), andb_false_r. reflexivity.
      * rewrite (FF _ _ bic x Hx Fx), andb_false_r. reflexivity.
Qed.
Print Assumptions C68_nonfinite_refused.

Example C68_example : exists d : Dataset XR,
  exists j d', pathMarshal d [mkLN (N := XR) [XFin 2] (XFin 1) [0%Z]] [XFin 5] [XFin 6] = Ok (Some j) /\
    LassoLarsPathFromBytes j = Ok (mkPath d' [mkLN (N := XR) [XFin 2] (XFin 1) [0%Z]], [XFin 5], [XFin 6]) /\
    dsNames d' = ["a"; "b"]%string.
Proof.
  exists (mkDataset (mkMat 2 1 (fun _ _ => XFin 3 : XR)) [XFin 1; XFin 2] ["a"; "b"]%string 1%Z).
  assert (F : forall r, finite (N := XR) (XFin r) = true) by reflexivity.
  match goal with |- context [pathMarshal ?d ?n ?a ?b] =>
    destruct (C68_lasso_file_roundtrip XR d n a b) as (j & d' & E1 & E2 & _ & _ & E3 & _) end.
  - cbn; lia.
  - cbn; lia.
  - intros; apply F.
  - intros y [<-|[<-|[]]]; apply F.
  - intros n x [<-|[]] [<-|[<-|[]]]; apply F.
  - intros x [[<-|[]]|[<-|[]]]; apply F.
  - exists j, d'. split; [exact E1|]. split; [exact E2|exact E3].
Qed.

(** ** C69: the table of best models *)

(** For every correct sort.Sort: the table has min(num, number of scores) rows,
    ranked 1, 2, ...; they show different nodes, each with its own penalty, size
    and scores; no row has a better AICC than an earlier one, and no node that
    is left out has a better AICC than a row. *)
Theorem C69_table : forall o (srt : list (F64 o * nat) -> list (F64 o * nat)) nodes aicc bic num,
  sort_spec byValueLess srt ->
  (length aicc <= length nodes)%nat -> (length aicc <= length bic)%nat ->
  exists rows idx, PrintHighscore srt nodes aicc bic num = Ok rows /\
    length rows = Nat.min (Z.to_nat num) (length aicc) /\ length idx = length rows /\ NoDup idx /\
    (forall r i, nth_error idx r = Some i -> exists node a b,
       nth_error nodes i = Some node /\ nth_error aicc i = Some a /\ nth_error bic i = Some b /\
       nth_error rows r = Some (mkRow (S r) (lnLamb node) (length (lnSelection node)) a b)) /\
    ((forall x, In x aicc -> nisnan x = false) ->
     (forall p q x y, (p < q)%nat -> nth_error rows p = Some x -> nth_error rows q = Some y ->
        nltb (rwAicc y) (rwAicc x) = false) /\
     (forall i a row, nth_error aicc i = Some a -> ~ In i idx -> In row rows -> nltb a (rwAicc row) = false)).
Proof.
  intros o srt nodes aicc bic num HS Hn Hb.
  destruct (Argsort_spec _ (f64_OrdLaws o) srt aicc HS) as (s & E & P & S1).
  assert (Ls : length s = length aicc) by (rewrite (Permutation_length P), seq_length; reflexivity).
  set (k := Nat.min (Z.to_nat num) (length aicc)).
  assert (Ek : Z.to_nat (if (Z.of_nat (length aicc) <? num)%Z then Z.of_nat (length aicc) else num) = k).
  { unfold k. destruct (Z.ltb_spec (Z.of_nat (length aicc)) num); lia. }
  assert (Hlt : forall i, In i s -> (i < length aicc)%nat).
  { intros i Hi. apply (Permutation_in _ P) in Hi. apply in_seq in Hi. lia. }
  destruct (table_loop (F64 o) nodes aicc bic s k) as (rows & ER & L & R).
  { unfold k. lia. }
  { intros i Hi. specialize (Hlt i Hi). lia. }
  assert (Hidx : forall r i, nth_error (firstn k s) r = Some i -> (r < k)%nat /\ nth r s O = i).
  { intros r i H. assert (Hr : (r < length (firstn k s))%nat) by (apply nth_error_Some; congruence).
    rewrite firstn_length in Hr. assert (Hk : (r < k)%nat) by lia. split; [exact Hk|].
    rewrite <- (firstn_skipn k s), app_nth1 by (rewrite firstn_length; lia). apply nth_error_nth. exact H. }
  assert (ND : NoDup s) by (apply (Permutation_NoDup (Permutation_sym P)), seq_NoDup).
  exists rows, (firstn k s).
  split; [unfold PrintHighscore; rewrite E; cbn [bind]; rewrite Ek; exact ER|].
  split; [exact L|]. split; [rewrite L, firstn_length; unfold k; lia|].
  split.
  { rewrite <- (firstn_skipn k s) in ND. clear - ND. revert ND. generalize (firstn k s) (skipn k s). intros a b H.
    induction a as [|x a IH]; [constructor|]. inversion H as [|? ? H1 H2]; subst. constructor; [|auto].
    intro C. apply H1. apply in_or_app. auto. }
  split.
  { intros r i H. destruct (Hidx r i H) as (Hr & <-). destruct (R r Hr) as (node & a & b & Q). exists node, a, b. exact Q. }
  intro Hnan. specialize (S1 Hnan (n0 (N := F64 o))).
  assert (RA : forall r x, nth_error rows r = Some x -> (r < k)%nat /\ rwAicc x = nth (nth r s O) aicc n0).
  { intros r x H. assert (Hr : (r < k)%nat) by (rewrite <- L; apply nth_error_Some; congruence). split; [exact Hr|].
    destruct (R r Hr) as (node & a & b & _ & Q2 & _ & Q4). rewrite H in Q4. injection Q4 as ->. cbn [rwAicc].
    symmetry. apply nth_error_nth. exact Q2. }
  assert (Hka : (k <= length aicc)%nat) by (unfold k; lia).
  split.
  - intros p q x y Hpq Hx Hy. destruct (RA p x Hx) as (Hp & ->). destruct (RA q y Hy) as (Hq & ->). apply S1. lia.
  - intros i a row Ha Hi Hrow. destruct (In_nth_error _ _ Hrow) as (r & Hr). destruct (RA r row Hr) as (Hr' & ->).
    assert (Hi' : In i s).
    { apply (Permutation_in _ (Permutation_sym P)). apply in_seq.
      assert (i < length aicc)%nat by (apply nth_error_Some; congruence). lia. }
    rewrite <- (firstn_skipn k s) in Hi'. apply in_app_or in Hi'. destruct Hi' as [C|Hi']; [contradiction|].
    destruct (In_nth_error _ _ Hi') as (q & Hq).
    assert (Hq' : (k + q < length s)%nat).
    { assert (q < length (skipn k s))%nat by (apply nth_error_Some; congruence). rewrite skipn_length in H. lia. }
    assert (En : nth (k + q) s O = i).
    { rewrite <- (firstn_skipn k s), app_nth2 by (rewrite firstn_length; lia).
      rewrite firstn_length. replace (k + q - Nat.min k (length s)) with q by lia. apply nth_error_nth. exact Hq. }
    rewrite <- (nth_error_nth aicc i n0 Ha), <- En. apply S1. lia.
Qed.
Print Assumptions C69_table.

(** With fewer nodes than scores the program dies as soon as it gets to a
    missing one; with all rows printed it always does. *)
Theorem C69_missing_node_panics : forall o (srt : list (F64 o * nat) -> list (F64 o * nat)) nodes aicc bic num,
  sort_spec byValueLess srt ->
  (length nodes < length aicc)%nat -> (Z.of_nat (length aicc) <= num)%Z ->
  PrintHighscore srt nodes aicc bic num = Panic.
Proof.
  intros o srt nodes aicc bic num HS Hn Hnum.
  destruct (Argsort_spec _ (f64_OrdLaws o) srt aicc HS) as (s & E & P & _).
  assert (Ls : length s = length aicc) by (rewrite (Permutation_length P), seq_length; reflexivity).
  assert (Ek : Z.to_nat (if (Z.of_nat (length aicc) <? num)%Z then Z.of_nat (length aicc) else num) = length aicc).
  { destruct (Z.ltb_spec (Z.of_nat (length aicc)) num); lia. }
  unfold PrintHighscore. rewrite E. cbn [bind]. rewrite Ek.
  assert (Hin : In (length nodes) s) by (apply (Permutation_in _ (Permutation_sym P)), in_seq; lia).
  destruct (In_nth_error _ _ Hin) as (p & Hp).
  assert (Hpl : (p < length aicc)%nat) by (rewrite <- Ls; apply nth_error_Some; congruence).
  replace (length aicc) with (p + S (length aicc - S p)) by lia. rewrite for_loop_add.
  match goal with |- bind ?x _ = _ => destruct x as [rows| |] eqn:Ex end; cbn [bind]; [|reflexivity|].
  - cbn [for_loop plus]. rewrite (proj2 (getn_ok _ _ _ _) Hp). cbn [bind]. rewrite getn_ge by lia. reflexivity.
  - exfalso. revert Ex. apply loop_nf. intros i l. unfold getn.
    repeat match goal with |- context [nth_error ?l ?i] => destruct (nth_error l i); cbn [bind]; try discriminate end.
Qed.
Print Assumptions C69_missing_node_panics.

Example C69_example :
  PrintHighscore (N := F64 fenv0) (isort byValueLess)
    [mkLN (N := F64 fenv0) [nofZ 1] (nofZ 9) [4%Z]; mkLN (N := F64 fenv0) [nofZ 1; nofZ 2] (nofZ 8) [4%Z; 5%Z];
     mkLN (N := F64 fenv0) [nofZ 1] (nofZ 7) [5%Z]]
    [nofZ 30; nofZ 10; nofZ 20] [nofZ 31; nofZ 11; nofZ 21] 2
  = Ok [mkRow (N := F64 fenv0) 1 (nofZ 8) 2 (nofZ 10) (nofZ 11); mkRow (N := F64 fenv0) 2 (nofZ 7) 1 (nofZ 20) (nofZ 21)].
Proof. reflexivity. Qed.

(** ** C70: goselect bnb *)

(** Every schedule that reaches the end of the command leaves in the output file
    the JSON of the list of the nodes the search has found, whatever periodic
    saves there were (no bytes if encoding/json refuses the list). *)
Theorem C70_final_file : forall (N : Num) ls (st : bnb N),
  bnb_run ls bnb_init = Some (Ok st) -> bbMain st = BEnd ->
  exists h j, hsInsertAll (NewHighscore 10) (inserted ls) = Ok h /\ hsMarshalJSON h = Ok j /\
    bbFile st = Some (match j with
                      | Some j => CJson (hjMaxItems j) (map Some (hjItems j))
                      | None => CEmpty
                      end).
Proof.
  intros N ls st E M. destruct (bnb_run_inv N ls [] _ _ (binv_init N) E) as (T & I & P). cbn [app] in I.
  unfold phase in P. rewrite M in P. destruct P as (_ & P).
  exists (forget (bbList st)), (if forallb node_finite (hsItems (forget (bbList st)))
    then Some (mkHSJ (hsMaxItems (forget (bbList st))) (map nodeJ_of (hsItems (forget (bbList st))))) else None).
  split; [exact I|]. unfold hsMarshalJSON, file_of in *. rewrite P.
  destruct (forallb node_finite (hsItems (forget (bbList st)))) eqn:F.
  - rewrite marshal_nodes_ok by exact F. cbn [bind hjMaxItems hjItems]. split; [reflexivity|]. rewrite map_map. reflexivity.
  - rewrite marshal_nodes_err by exact F. split; reflexivity.
Qed.
Print Assumptions C70_final_file.

(** Only a periodic save can kill the program: at every other point no step
    panics; in particular the final save does not. *)
Theorem C70_only_periodic_saves_panic : forall (N : Num) ls (st : bnb N) l,
  bnb_run ls bnb_init = Some (Ok st) -> bnb_step l st = Some Panic -> exists s, bbMain st = BTick s /\ l = BSave.
Proof.
  intros N ls st l E Es. destruct (bnb_run_inv N ls [] _ _ (binv_init N) E) as (T & I & P). cbn [app] in I.
  destruct st as [mn sr h f]. unfold phase in P. cbn [bbMain bbSearch bbList bbFile] in *.
  destruct l; cbn [bnb_step bbMain bbSearch bbList bbFile] in Es.
  - exfalso. assert (Ei : live_insert h n = Panic).
    { destruct mn, sr; try discriminate Es; injection Es as Es; (destruct (live_insert h n); [discriminate Es|reflexivity|discriminate Es]). }
    pose proof (Proof_Save.live_insert_forget N h n) as F. rewrite Ei in F.
    assert (Mx : hsMaxItems (forget h) = 10%Z).
    { clear - I. assert (G : forall l (h0 h1 : Highscore N), hsInsertAll h0 l = Ok h1 -> hsMaxItems h1 = hsMaxItems h0).
      { induction l as [|a l IH]; intros h0 h1 E; cbn in E; [congruence|].
        destruct (hsInsert h0 a) as [h2| |] eqn:Ea; cbn [bind] in E; try discriminate E.
        rewrite (IH _ _ E). unfold hsInsert in Ea.
        destruct (_ =? _)%Z; [destruct (rev _) as [|e r]; [discriminate Ea|]; destruct (nltb _ _)|].
        - injection Ea as <-. reflexivity.
        - destruct (hs_insert_before _ _) as [l'|]; [injection Ea as <-; reflexivity|]. destruct (_ <? _)%Z; injection Ea as <-; reflexivity.
        - destruct (hs_insert_before _ _) as [l'|]; [injection Ea as <-; reflexivity|]. destruct (_ <? _)%Z; injection Ea as <-; reflexivity. }
      apply G in I. exact I. }
    unfold hsInsert, hsLen in F. rewrite Mx in F.
    destruct (Z.eqb_spec (Z.of_nat (length (hsItems (forget h)))) (10 - 1)) as [L|L].
    + destruct (rev (hsItems (forget h))) as [|e r] eqn:Er.
      * apply (f_equal (@length _)) in Er. rewrite rev_length in Er. cbn [length] in Er. lia.
      * destruct (nltb _ _); [discriminate F|].
        destruct (hs_insert_before _ _) as [l'|]; [discriminate F|]. destruct (_ <? _)%Z; discriminate F.
    + destruct (hs_insert_before _ _) as [l'|]; [discriminate F|]. destruct (_ <? _)%Z; discriminate F.
  - exfalso. destruct mn, sr; discriminate Es.
  - exfalso. destruct mn, sr; discriminate Es.
  - destruct mn as [|s|s| |]; try discriminate Es; [exists s; split; reflexivity|].
    exfalso. assert (E' : bnb_save (mkBnb (BFinal s) sr h f) BFinal BWait s = Panic) by (destruct sr; injection Es as Es; exact Es).
    destruct P as (_ & W). destruct (walking_step N h s T W) as (s' & Es' & _). unfold bnb_save in E'. cbn [bbList bbSearch bbFile] in E'.
    destruct s as [|d|d c e|d c e|d]; try (rewrite Es' in E'; cbn [bind] in E'; discriminate E').
    destruct (write_ok N (lvMax h) d) as (c & Ec). rewrite Ec in E'. discriminate E'.
  - exfalso. destruct mn, sr; discriminate Es.
  - exfalso. destruct mn, sr; discriminate Es.
  - exfalso. destruct mn, sr; discriminate Es.
Qed.
Print Assumptions C70_only_periodic_saves_panic.

(** From every state the command can be in, it comes to an end once the search
    stops inserting and the timer stops ticking - it is never stuck; it ends
    normally unless a periodic save is on its way. *)
Theorem C70_ends : forall (N : Num) ls (st : bnb N),
  bnb_run ls bnb_init = Some (Ok st) ->
  exists ls', forallb quiet ls' = true /\
    ((exists st', bnb_run (ls ++ ls') bnb_init = Some (Ok st') /\ bbMain st' = BEnd) \/
     (bnb_run (ls ++ ls') bnb_init = Some Panic /\ exists s, bbMain st = BTick s)).
Proof.
  intros N ls st E. destruct (goes_on N _ st (bnb_run_inv N ls [] _ _ (binv_init N) E)) as (ls' & Q & H).
  exists ls'. split; [exact Q|]. rewrite (bnb_run_app N ls ls' _ _ E). exact H.
Qed.
Print Assumptions C70_ends.

(** A periodic save can indeed kill the program. *)
Theorem C70_periodic_save_panics : exists ls : list (bnb_label (F64 fenv0)), bnb_run ls bnb_init = Some Panic.
Proof.
  exists ([BTicker; BSave; BInsert zero_node] ++ repeat BSave 3). reflexivity.
Qed.
Print Assumptions C70_periodic_save_panics.

(** a run with a periodic save that ends normally *)
Definition bnd (k : Z) : Node (F64 fenv0) := mkNode [true; false] [nofZ k] 1 n0 n0 (nofZ k) false.
Definition bnb_sched : list (bnb_label (F64 fenv0)) :=
  [BInsert (bnd 1); BTicker] ++ repeat BSave 5 ++ [BInsert (bnd 2); BReturn; BMeet] ++ repeat BSave 4 ++
  [BDone] ++ repeat BSave 3 ++ [BExit].
Definition bnb_written (r : option (res (bnb (F64 fenv0)))) : option (Z * list spec_float) :=
  match r with
  | Some (Ok st) =>
      match bbMain st, bbFile st with
      | BEnd, Some (CJson k l) => Some (k, map (fun o : option (nodeJsonified (F64 fenv0)) => match o with Some j => njScore j | None => S754_nan end) l)
      | _, _ => None
      end
  | _ => None
  end.
Example C70_example : inserted bnb_sched = [bnd 1; bnd 2] /\
  bnb_written (bnb_run bnb_sched bnb_init) = Some (10%Z, [f64_ofZ 2; f64_ofZ 1]).
Proof. split; [reflexivity|vm_compute; reflexivity]. Qed.

(** ** C71: goselect sasearch *)

Lemma sa_write_spec : forall (N : Num) (s : SAScore N) ins, SInv N s ins -> ins <> [] ->
  exists b w bi wi, saBest s = Some b /\ saWorst s = Some w /\ nth_error (saHeap s) b = Some bi /\ nth_error (saHeap s) w = Some wi /\
    In wi (saContents s) /\
    sa_write s = Ok (if forallb item_finite (saContents s ++ [bi; wi])
                     then SAFile (mkSAJson (saCap s) (saContents s) (Some bi) (Some wi)) else SAEmpty).
Proof.
  intros N s ins I Hne. destruct (si_best _ _ _ I Hne) as (b & B1 & B2 & _). destruct (si_worst _ _ _ I Hne) as (w & W1 & W2 & _).
  pose proof (si_range _ _ _ I w W2) as W3. set (dfl := mkSAItem (N := N) [] [] n0) in *.
  exists b, w, (nth b (saHeap s) dfl), (nth w (saHeap s) dfl).
  split; [exact B1|]. split; [exact W1|]. split; [apply nth_error_nth'; exact B2|]. split; [apply nth_error_nth'; exact W3|].
  split. { unfold saContents. apply (in_map (fun p => nth p (saHeap s) dfl)). exact W2. }
  unfold sa_write, saMarshal.
  assert (E : forall l acc, (forall p, In p l -> (p < length (saHeap s))%nat) ->
    for_each l (fun p l => do it <- getn (saHeap s) p; Ok (l ++ [it])) acc = Ok (acc ++ map (fun p => nth p (saHeap s) dfl) l)).
  { induction l as [|p l IH]; intros acc Hl; cbn [for_each map]; [rewrite app_nil_r; reflexivity|].
    rewrite (getn_lt _ _ p dfl) by (apply Hl; left; reflexivity). cbn [bind]. rewrite IH by (intros; apply Hl; right; assumption).
    rewrite <- app_assoc. reflexivity. }
  rewrite E by (intros p Hp; apply (si_range _ _ _ I); exact Hp). cbn [bind app]. rewrite B1, W1. cbn [ptr_item].
  rewrite (getn_lt _ _ b dfl B2), (getn_lt _ _ w dfl W3). cbn [bind]. fold (saContents s).
  replace (saContents s ++ [nth b (saHeap s) dfl] ++ [nth w (saHeap s) dfl]) with (saContents s ++ [nth b (saHeap s) dfl; nth w (saHeap s) dfl]) by reflexivity.
  fold dfl. change (map (fun p => nth p (saHeap s) dfl) (saItems s)) with (saContents s).
  destruct (forallb _ _); reflexivity.
Qed.

Lemma finite_neg_f64 : forall o (x : F64 o), finite x = true -> finite (nneg x) = true.
Proof. intros o x. change (F64 o : Type) with f64 in *. destruct x as [[|]|[|]| |[|] m e]; cbn; congruence. Qed.

(** After a run of the annealing the output file holds the list, its best and
    its worst item if all their coefficients are finite, and is empty otherwise.
    (The scores are finite when the cost function is.) *)
Theorem C71_sasearch_file : forall o svd (X : Mat (F64 o)) y nSweeps cost ri rf fuel r st,
  exp_zero o -> below_one rf -> finite_costs svd X y cost ->
  SelectModelSA svd X y nSweeps cost ri rf fuel = Ok (r, st) ->
  exists b w bi wi, saBest (srScores r) = Some b /\ saWorst (srScores r) = Some w /\
    nth_error (saHeap (srScores r)) b = Some bi /\ nth_error (saHeap (srScores r)) w = Some wi /\
    ((forall it x, In it (bi :: saContents (srScores r)) -> In x (siCoeff it) -> finite x = true) ->
       sa_write (srScores r) = Ok (SAFile (mkSAJson 10 (saContents (srScores r)) (Some bi) (Some wi)))) /\
    ((exists it x, In it (bi :: saContents (srScores r)) /\ In x (siCoeff it) /\ finite x = false) ->
       sa_write (srScores r) = Ok SAEmpty).
Proof.
  intros o svd X y nSweeps cost ri rf fuel r st He Hrf Hc H.
  unfold SelectModelSA in H. apply bind_ok in H. destruct H as (st0 & E0 & H).
  apply bind_ok in H. destruct H as (st1 & E1 & H).
  apply bind_ok in H. destruct H as (r' & Er & H). injection H as -> ->.
  destruct (sa_loop_run _ _ _ _ _ _ _ _ _ _ _ _ (sa_run_0 _ _ _ _ _ _ _ _ E0) E1) as (k & R).
  destruct (run_linv _ _ _ _ _ _ _ _ _ _ _ He Hrf Hc R) as (I & Hne). specialize (Hne eq_refl).
  unfold sa_result in Er. apply bind_ok in Er. destruct Er as (co & Eco & Er).
  apply bind_ok in Er. destruct Er as (sel & _ & Er). injection Er as <-. cbn [srScores].
  assert (Hne' : map (item_of (F64 o)) (rev (ssAcc st)) <> []).
  { intro C. apply map_eq_nil in C. apply Hne. rewrite <- (rev_involutive (ssAcc st)), C. reflexivity. }
  pose proof (li_list _ _ _ _ _ _ I) as SI.
  assert (Hs : forall it, In it (saContents (ssScores st)) -> finite (siScore it) = true).
  { intros it Hit. destruct (si_from _ _ _ SI it Hit) as (i & Hi & _ & ->).
    apply in_map_iff in Hi. destruct Hi as ([[m c] s] & <- & Hi). rewrite <- in_rev in Hi.
    destruct (li_acc _ _ _ _ _ _ I _ _ _ Hi) as (Hm & Hnf & Hcost & _). cbn [item_of siScore].
    apply finite_neg_f64. apply fit_cost_eq in Hcost. rewrite Proof_Models.nf_count in Hnf. eapply Hc; eauto. split; assumption. }
  destruct (sa_write_spec _ _ _ SI Hne') as (b & w & bi & wi & B1 & W1 & B2 & W2 & W3 & ->).
  rewrite (li_cap _ _ _ _ _ _ I).
  assert (Hb : finite (siScore bi) = true).
  { destruct (si_best _ _ _ SI Hne') as (b' & B1' & B2' & (c0 & B3 & B4) & _).
    assert (b' = b) by congruence. subst b'. rewrite (nth_error_nth _ _ _ B2) in B4. destruct B4 as (_ & <-). apply Hs. exact B3. }
  exists b, w, bi, wi. split; [exact B1|]. split; [exact W1|]. split; [exact B2|]. split; [exact W2|]. split.
  - intro F. replace (forallb item_finite _) with true; [reflexivity|]. symmetry. apply forallb_forall. intros it Hit.
    assert (Hit' : In it (bi :: saContents (ssScores st))).
    { apply in_app_or in Hit. destruct Hit as [Hit|[<-|[<-|[]]]]; [right; exact Hit|left; reflexivity|right; exact W3]. }
    unfold item_finite. apply andb_true_intro. split.
    + apply forallb_forall. intros x Hx. exact (F it x Hit' Hx).
    + destruct Hit' as [<-|Hit']; [exact Hb|apply Hs; exact Hit'].
  - intros (it & x & Hit & Hx & Fx). replace (forallb item_finite _) with false; [reflexivity|]. symmetry.
    apply not_true_is_false. intro C. rewrite forallb_forall in C.
    assert (Hit' : In it (saContents (ssScores st) ++ [bi; wi])).
    { apply in_or_app. destruct Hit as [<-|Hit]; [right; left; reflexivity|left; exact Hit]. }
    specialize (C it Hit'). unfold item_finite in C. apply andb_prop in C. destruct C as (C & _).
    rewrite forallb_forall in C. rewrite (C x Hx) in Fx. discriminate Fx.
Qed.
Print Assumptions C71_sasearch_file.

(** lists of two items *)
Definition sa_two (c : F64 fenv0) : SAScore (F64 fenv0) :=
  mkSAScore 10 [mkSAItem [0%Z] [nofZ 4] (nofZ 1); mkSAItem [1%Z] [c] (nofZ 3)] [0; 1] (Some 1) (Some 0).
Example C71_example :
  (exists j, sa_write (sa_two (nofZ 5)) = Ok (SAFile j) /\ sjBest j = Some (mkSAItem [1%Z] [nofZ 5] (nofZ 3)) /\
     length (sjItems j) = 2) /\
  sa_write (sa_two ninf) = Ok SAEmpty.
Proof.
  split; [|reflexivity]. eexists. split; [reflexivity|]. split; reflexivity.
Qed.

(** ** C72: goselect-mem *)

(** The number printed is the largest number of nodes that fit into the memory,
    a node of an n feature problem being counted with 9n + 29 bytes. *)
Theorem C72_queue_size : forall (N : Num) memory n, (0 <= memory)%Z -> (0 <= n)%Z ->
  exists k, mem_buffer N memory n = Ok k /\ (0 <= k)%Z /\
    (k * (9 * n + 29) <= memory * 1000000000)%Z /\ (memory * 1000000000 < (k + 1) * (9 * n + 29))%Z.
Proof.
  intros N memory n Hm Hn. unfold mem_buffer. unfold go_make. destruct (Z.ltb_spec n 0); [lia|]. cbn [bind].
  destruct (for_loop_inv _ (fun i m => length m = Z.to_nat n /\ forall j, (j < i)%nat -> nth_error m j = Some true)
    (fun i m => setn m i true) (length (repeat false (Z.to_nat n))) 0 (repeat false (Z.to_nat n))) as (m & E & Lm & T).
  - split; [apply repeat_length|]. intros j Hj. lia.
  - intros i m Hi (L & T). rewrite repeat_length in Hi. rewrite setn_lt by lia. eexists. split; [reflexivity|].
    split; [rewrite upd_length; exact L|]. intros j Hj. destruct (Nat.eq_dec j i) as [->|Hne].
    + rewrite nth_error_upd, Nat.eqb_refl, (proj2 (Nat.ltb_lt i (length m))) by lia. reflexivity.
    + rewrite nth_error_upd, (proj2 (Nat.eqb_neq j i)) by exact Hne. apply T. lia.
  - rewrite E. cbn [bind]. rewrite repeat_length in T. cbn [plus] in T.
    assert (Em : m = repeat true (Z.to_nat n)).
    { apply (nth_ext _ _ false false); [rewrite repeat_length; exact Lm|]. intros i Hi. rewrite Lm in Hi.
      rewrite (nth_error_nth m i false (T i Hi)), (nth_indep _ false true) by (rewrite repeat_length; exact Hi).
      symmetry. apply nth_repeat. }
    assert (Es : EstimateMemory (NewNode (N := N) 0 m) = (9 * n + 29)%Z).
    { unfold EstimateMemory, NewNode. cbn [ndModel ndCoeff]. rewrite repeat_length.
      assert (NF : NumFeatures m = Z.to_nat n).
      { rewrite Em. clear. unfold NumFeatures. assert (G : forall k a, fold_left (fun num (flag : bool) => if flag then S num else num) (repeat true k) a = a + k).
        { induction k as [|k IH]; intro a; cbn [repeat fold_left]; [lia|]. rewrite IH. lia. }
        rewrite G. reflexivity. }
      rewrite go_copy_full, Lm. lia. }
    rewrite Es. rewrite (proj2 (Z.eqb_neq _ _)) by lia. eexists. split; [reflexivity|].
    rewrite Z.quot_div_nonneg by lia. set (q := (memory * 1000000000 / (9 * n + 29))%Z).
    pose proof (Z.div_mod (memory * 1000000000) (9 * n + 29) ltac:(lia)) as D. fold q in D.
    pose proof (Z.mod_pos_bound (memory * 1000000000) (9 * n + 29) ltac:(lia)) as B.
    split; [apply Z.div_pos; lia|]. lia.
Qed.
Print Assumptions C72_queue_size.

Theorem C72_negative_panics : forall (N : Num) memory n, (n < 0)%Z -> mem_buffer N memory n = Panic.
Proof. intros N memory n H. unfold mem_buffer, go_make. destruct (Z.ltb_spec n 0); [reflexivity|lia]. Qed.
Print Assumptions C72_negative_panics.

(** 8 GB and 20 features *)
Example C72_example : mem_buffer (F64 fenv0) 8 20 = Ok 38277511%Z.
Proof. vm_compute. reflexivity. Qed.

(** ** C73: goselect-plotlasso *)

(** The variables are read before the command line is: whatever is given for
    -coeffmin and -coeffmax, the range handed to the plot is nil. *)
Theorem C73_range_flags_ignored : forall o (parse : plot_flags (F64 o) -> plot_flags (F64 o)),
  plot_range parse = None.
Proof. intros o parse. reflexivity. Qed.
Print Assumptions C73_range_flags_ignored.

(** what the help text promises would be different *)
Definition plot_range_documented {N : Num} (flags : plot_flags N) : option (N * N) :=
  if nltb (ndec 1 (-10)) (nabs (fgMax flags - fgMin flags)%num) then Some (fgMin flags, fgMax flags) else None.
Theorem C73_documented_range_refuted : exists parse : plot_flags (F64 fenv0) -> plot_flags (F64 fenv0),
  plot_range parse <> plot_range_documented (parse plot_defaults).
Proof. exists (fun _ => mkFlags (N := F64 fenv0) (nofZ (-1)) (nofZ 1)). vm_compute. discriminate. Qed.
Print Assumptions C73_documented_range_refuted.

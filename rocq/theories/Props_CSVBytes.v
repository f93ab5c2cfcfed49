(** C99: the bytes of CSV files. *)
From Coq Require Import String Ascii Reals SpecFloat.
From Verif Require Import Base Num Mat Model_CSV Proof_CSV Proof_CSV2 Proof_CSVText Props_CSV Model_CSVBytes Spec_CSVBytes Proof_CSVBytes.
Open Scope list_scope.

(** a carriage return directly followed by a newline *)
Definition has_crlf (f : bytes) : Prop := exists a b, f = a ++ cCR :: cLF :: b.

(** ** Records *)

(** Reading what was written gives the records back, except that blank records
    disappear and that carriage returns in front of newlines do. *)
Theorem C99_records : forall space records,
  csv_read (csv_write space records) = Ok (map (map crlf) (filter (fun r => negb (blank r)) records)).
Proof. intros. apply csv_read_write. lia. Qed.
Print Assumptions C99_records.

Lemma crlf_id : forall f, crlf f = f <-> ~ has_crlf f.
Proof.
  assert (L : forall f, (length (crlf f) <= length f)%nat).
  { induction f as [|c f IH]; [cbn; lia|]. cbn [crlf]. destruct f as [|d f]; [cbn; lia|]. destruct (_ && _)%bool; cbn [length] in *; lia. }
  induction f as [|c f IH]; [split; [intros _ ([|] & b & E); discriminate|reflexivity]|].
  assert (Ec : (c = cCR /\ exists t, f = cLF :: t) \/ crlf (c :: f) = c :: crlf f).
  { cbn [crlf]. destruct f as [|d t]; [right; reflexivity|].
    destruct (Ascii.eqb_spec c cCR) as [->|]; [|right; reflexivity]. destruct (Ascii.eqb_spec d cLF) as [->|]; [left; eauto|right; reflexivity]. }
  destruct Ec as [(-> & t & ->)|Ec].
  - split.
    + intro E. exfalso. change (crlf (cCR :: cLF :: t)) with (crlf (cLF :: t)) in E. specialize (L (cLF :: t)). rewrite E in L. cbn [length] in L. lia.
    + intro H. exfalso. apply H. exists [], t. reflexivity.
  - rewrite Ec. split.
    + intro E. injection E as E. apply IH in E. intros (a & b & Ef). destruct a as [|x a].
      * injection Ef as -> ->. assert (C : crlf (cCR :: cLF :: b) = crlf (cLF :: b)) by reflexivity. rewrite Ec in C.
        apply (f_equal (@length ascii)) in C. cbn [length] in C. lia.
      * injection Ef as -> ->. apply E. exists a, b. reflexivity.
    + intro H. f_equal. apply IH. intros (a & b & ->). apply H. exists (c :: a), b. reflexivity.
Qed.

(** They all survive if and only if there is neither a blank one nor a field with
    a carriage return in front of a newline: commas, quotes, newlines, leading
    blanks and empty fields are no problem. *)
Theorem C99_survive_iff : forall space records,
  csv_read (csv_write space records) = Ok records <->
  forall r, In r records -> r <> [] /\ r <> [[]] /\ forall f, In f r -> ~ has_crlf f.
Proof.
  intros space records. rewrite C99_records.
  assert (Lf : forall l : list (list bytes), (length (filter (fun r => negb (blank r)) l) <= length l)%nat).
  { induction l as [|r l IH]; [cbn; lia|]. cbn [filter]. destruct (negb (blank r)); cbn [length]; lia. }
  assert (M : forall r, map crlf r = r <-> forall f, In f r -> ~ has_crlf f).
  { induction r as [|f r IH]; [split; [intros _ f []|reflexivity]|]. cbn [map]. split.
    - intro E. injection E as E1 E2. intros g [<-|Hg]; [apply crlf_id; exact E1|apply (proj1 IH E2 g Hg)].
    - intro H. f_equal; [apply crlf_id; apply H; left; reflexivity|apply IH; intros g Hg; apply H; right; exact Hg]. }
  assert (B : forall r, blank r = false <-> r <> [] /\ r <> [[]]).
  { intros [|[|c f] [|g r]]; cbn; split; intro H; try discriminate; try reflexivity; try (split; discriminate); exfalso; destruct H as [H1 H2]; (apply H1; reflexivity) || (apply H2; reflexivity). }
  induction records as [|r l IH]; [split; [intros _ r []|reflexivity]|]. cbn [filter]. destruct (blank r) eqn:Br; cbn [negb].
  - split.
    + intro E. injection E as E. apply (f_equal (@length (list bytes))) in E. rewrite map_length in E. specialize (Lf l). cbn [length] in E. lia.
    + intro H. specialize (H r (or_introl eq_refl)). destruct H as (H1 & H2 & _). pose proof (proj2 (B r) (conj H1 H2)). congruence.
  - cbn [map]. split.
    + intro E. injection E as E1 E2. intros x [<-|Hx].
      * apply B in Br. destruct Br. split; [assumption|]. split; [assumption|]. apply M. exact E1.
      * apply (proj1 IH (f_equal Ok E2) x Hx).
    + intro H. assert (E : Ok (map (map crlf) (filter (fun r => negb (blank r)) l)) = Ok l) by (apply IH; intros x Hx; apply H; right; exact Hx).
      injection E as E. rewrite E. f_equal. f_equal. apply M. apply (H r). left. reflexivity.
Qed.
Print Assumptions C99_survive_iff.

(** The reader always comes to an end. *)
Theorem C99_reader_ends : forall s, csv_read s <> Fuel.
Proof. intro s. apply records_end. lia. Qed.
Print Assumptions C99_reader_ends.

(** ** Datasets *)

Definition text_map (f : bytes -> bytes) (s : string) : string := string_of_list_ascii (f (list_ascii_of_string s)).
Definition plain_text (s : string) : Prop := ~ has_crlf (list_ascii_of_string s).

Lemma text_map_plain : forall s, plain_text s -> text_map crlf s = s.
Proof. intros s H. unfold text_map. apply crlf_id in H. rewrite H. apply string_of_list_ascii_of_string. Qed.

(** Saving a dataset to a file and reading the file.  The numbers become what
    their text says; the names survive, except for carriage returns in front of
    newlines. *)
Theorem C99_dataset : forall (N : Num) space (sprintf : N -> string) (parse : string -> option N) (d : Dataset N) targetCol,
  consistent d -> (forall x, plain_text (sprintf x)) ->
  (targetCol = dsTargetCol d \/ targetCol = (dsTargetCol d - Z.of_nat (length (dsNames d)))%Z) ->
  exists file e, SaveBytes space sprintf d = Ok file /\ ParseCSVBytes parse file targetCol = Ok e /\
    same_with (fun x => value parse (sprintf x)) (mkDataset (dsX d) (dsY d) (map (text_map crlf) (dsNames d)) (dsTargetCol d)) e.
Proof.
  intros N space sprintf parse d tc Hc Hp Htc.
  set (d' := mkDataset (dsX d) (dsY d) (map (text_map crlf) (dsNames d)) (dsTargetCol d)).
  assert (Hc' : consistent d').
  { destruct Hc as (H1 & H2 & H3 & H4 & H5). unfold consistent, d'. cbn [dsX dsY dsNames dsTargetCol]. rewrite map_length. tauto. }
  pose proof (consistent_shaped N d Hc) as Hs. pose proof Hs as (Hr & Hcol & HY & Hn & Ht & Htl).
  pose proof (consistent_shaped N d' Hc') as Hs'. pose proof Hs' as (_ & _ & _ & Hn' & Ht' & Htl').
  pose proof (save_ok N sprintf d _ Ht Htl ltac:(lia)) as Es.
  pose proof (save_ok N sprintf d' _ Ht' Htl' ltac:(cbn [d' dsY dsX] in *; lia)) as Es'.
  destruct (C27_save_and_read_back N sprintf parse d' tc Hc') as (records & e & E1 & E2 & E3).
  { cbn [d' dsNames dsTargetCol]. rewrite map_length. exact Htc. }
  rewrite Es' in E1. injection E1 as <-. unfold SaveBytes. rewrite Es. cbn [bind].
  eexists. exists e. split; [reflexivity|]. split; [|exact E3].
  unfold ParseCSVBytes. rewrite C99_records. cbn [bind]. rewrite <- E2. f_equal.
  set (rows := map (fun i => map (fun j => sprintf (table N d (Z.to_nat (dsTargetCol d)) i j)) (seq 0 (mcols (dsX d) + 1))) (seq 0 (mrows (dsX d)))).
  assert (Two : forall r : list string, (2 <= length r)%nat -> blank (map list_ascii_of_string r) = false).
  { intros [|a [|b r]] H; cbn in H; try lia. cbn [map blank]. destruct (list_ascii_of_string a); reflexivity. }
  assert (Rows : forall r, In r rows -> (2 <= length r)%nat /\ map (text_map crlf) r = r).
  { intros r Hin. apply in_map_iff in Hin. destruct Hin as (i & <- & _). split; [rewrite map_length, seq_length; lia|].
    rewrite map_map. apply map_ext. intro j. apply text_map_plain, Hp. }
  assert (F : forall l, (forall r, In r l -> (2 <= length r)%nat) ->
    map (map string_of_list_ascii) (map (map crlf) (filter (fun r => negb (blank r)) (map (map list_ascii_of_string) l))) = map (map (text_map crlf)) l /\
    csv_transport l = l).
  { induction l as [|r l IH]; intro H; [split; reflexivity|]. cbn [map filter].
    rewrite (Two r) by (apply H; left; reflexivity). cbn [negb map]. destruct (IH ltac:(intros x Hx; apply H; right; exact Hx)) as [A1 A2].
    rewrite A1, !map_map. split; [reflexivity|]. unfold csv_transport in *. cbn [filter]. rewrite A2.
    specialize (H r (or_introl eq_refl)). destruct r; [cbn in H; lia|reflexivity]. }
  destruct (F (dsNames d :: rows)) as [F1 _].
  { intros r [<-|Hr']; [lia|apply Rows; exact Hr']. }
  rewrite F1. destruct (F (dsNames d' :: rows)) as [_ F2].
  { intros r [<-|Hr']; [cbn [d' dsNames]; rewrite map_length; lia|apply Rows; exact Hr']. }
  etransitivity; [|symmetry; exact F2]. cbn [map d' dsNames]. apply (f_equal (cons (map (text_map crlf) (dsNames d)))). rewrite <- (map_id rows) at 2. apply map_ext_in. intros r Hr'. apply Rows. exact Hr'.
Qed.
Print Assumptions C99_dataset.

(** The text of %f is plain, in both arithmetics, so nothing but the rounding
    of C27 and the names stand between a dataset and its copy. *)
Lemma no_lf_plain : forall s, ~ In cLF (list_ascii_of_string s) -> plain_text s.
Proof. intros s H (a & b & E). apply H. rewrite E. apply in_or_app. right. right. left. reflexivity. Qed.

Lemma digit_lf : forall d, (d < 10)%N -> digit_char d <> cLF.
Proof. intros d H. apply digit_char_neq; [exact H|]. left. reflexivity. Qed.

Lemma digits_n_lf : forall n r acc, ~ In cLF (list_ascii_of_string acc) -> ~ In cLF (list_ascii_of_string (digits_n n r acc)).
Proof.
  induction n as [|n IH]; intros r acc H; [exact H|]. cbn [digits_n]. apply IH. cbn [list_ascii_of_string].
  intros [C|C]; [|auto]. revert C. apply digit_lf. apply N.mod_lt. discriminate.
Qed.

Lemma digits_lf : forall n r acc, ~ In cLF (list_ascii_of_string acc) -> ~ In cLF (list_ascii_of_string (digits n r acc)).
Proof.
  induction n as [|n IH]; intros r acc H; [exact H|]. cbn [digits].
  assert (G : ~ In cLF (list_ascii_of_string (String (digit_char (r mod 10)) acc))).
  { cbn [list_ascii_of_string]. intros [C|C]; [|auto]. revert C. apply digit_lf. apply N.mod_lt. discriminate. }
  destruct (r / 10 =? 0)%N; [exact G|apply IH; exact G].
Qed.

Lemma fmt6_plain : forall b k, plain_text (fmt6 b k).
Proof.
  intros b k. apply no_lf_plain. unfold fmt6.
  assert (G : ~ In cLF (list_ascii_of_string (digits (S (N.to_nat (N.size (k / 1000000)))) (k / 1000000) ("." ++ digits_n 6 (k mod 1000000) "")%string))).
  { apply digits_lf. cbn [String.append list_ascii_of_string]. intros [C|C]; [discriminate|]. revert C. apply digits_n_lf. intros []. }
  destruct b; [|exact G]. cbn [String.append list_ascii_of_string]. intros [C|C]; [discriminate|auto].
Qed.

Theorem C99_numbers_are_plain : (forall x : xr, plain_text (sprintf_XR x)) /\ (forall x : spec_float, plain_text (sprintf_F64 x)).
Proof.
  assert (P : plain_text "NaN" /\ plain_text "+Inf" /\ plain_text "-Inf").
  { repeat split; apply no_lf_plain; cbn; intuition discriminate. }
  destruct P as (P1 & P2 & P3). split.
  - intros [| | |r]; cbn [sprintf_XR]; auto using fmt6_plain.
  - intros [s|s| |s m e]; cbn [sprintf_F64]; [|destruct s| |]; auto using fmt6_plain.
Qed.
Print Assumptions C99_numbers_are_plain.

(** A name with a carriage return in front of a newline is changed. *)
Theorem C99_names_refuted : exists (d : Dataset (F64 fenv0)) file e, consistent d /\
  SaveBytes (N := F64 fenv0) (fun _ => false) sprintf_F64 d = Ok file /\ ParseCSVBytes (N := F64 fenv0) parse_f file (dsTargetCol d) = Ok e /\ dsNames e <> dsNames d.
Proof.
  set (d := mkDataset (mkMat 1 1 (fun _ _ => n0)) [n0] [String "a" (String cCR (String cLF EmptyString)); "y"%string] 1 : Dataset (F64 fenv0)).
  assert (Hc : consistent d) by (unfold consistent; cbn; repeat split; lia).
  destruct (C99_dataset (F64 fenv0) (fun _ => false) sprintf_F64 parse_f d (dsTargetCol d) Hc (proj2 C99_numbers_are_plain) (or_introl eq_refl))
    as (file & e & E1 & E2 & E3 & _).
  exists d, file, e. split; [exact Hc|]. split; [exact E1|]. split; [exact E2|]. rewrite E3. cbn. discriminate.
Qed.
Print Assumptions C99_names_refuted.

(** ** Files from elsewhere *)

(** Windows line ends make no difference. *)
Theorem C99_windows : forall (N : Num) (parse : string -> option N) s targetCol, ~ In cCR s ->
  ParseCSVBytes parse (dos s) targetCol = ParseCSVBytes parse s targetCol.
Proof.
  intros N parse s tc H. unfold ParseCSVBytes, csv_read. rewrite (records_dos _ s H) by lia.
  pose proof (dos_len s). rewrite (records_enough _ (S (length s))) by lia. reflexivity.
Qed.
Print Assumptions C99_windows.

(** Neither does a newline at the end of the file. *)
Theorem C99_final_newline : forall (N : Num) (parse : string -> option N) s targetCol,
  ParseCSVBytes parse (s ++ [cLF]) targetCol = ParseCSVBytes parse s targetCol.
Proof.
  intros N parse s tc. unfold ParseCSVBytes, csv_read.
  replace (length (s ++ [cLF])) with (S (length s)) by (rewrite app_length; cbn; lia). rewrite records_snoc by lia. reflexivity.
Qed.
Print Assumptions C99_final_newline.

(** A quote inside an unquoted first field makes ParseCSV panic, whatever follows. *)
Theorem C99_bare_quote : forall (N : Num) (parse : string -> option N) a rest targetCol,
  a <> [] -> existsb special a = false ->
  ParseCSVBytes parse (a ++ cQuote :: rest) targetCol = Panic.
Proof.
  intros N parse a rest tc Ha Hs.
  assert (E : exists x r, read_line (a ++ cQuote :: rest) = Some (a ++ cQuote :: x, r)).
  { assert (K : forall p t, (forall c, In c p -> c <> cLF /\ c <> cCR) -> p <> [] -> exists x r, read_line (p ++ t) = Some (p ++ x, r)).
    { intros p t Hp Hne.
      assert (S1 : exists l r b, read_slice (p ++ t) = (p ++ l, r, b)).
      { clear Hne. induction p as [|c p IH]; [cbn [app]; destruct (read_slice t) as [[l r] b]; eauto|]. cbn [app read_slice].
        destruct (Ascii.eqb_spec c cLF) as [->|_]; [exfalso; destruct (Hp cLF (or_introl eq_refl)); congruence|].
        destruct IH as (l & r & b & ->); [intros x Hx; apply Hp; right; exact Hx|]. exists l, r, b. reflexivity. }
      destruct S1 as (l & r & b & E). unfold read_line. rewrite E.
      assert (S2 : forall l, end_cr (p ++ l) = p ++ end_cr l).
      { clear E Hne. intro m. induction p as [|c p IH]; [reflexivity|]. cbn [app]. destruct (p ++ m) as [|d u] eqn:Em.
        - assert (p = [] /\ m = []) as [-> ->] by (apply app_eq_nil; exact Em). cbn [app end_cr]. destruct (Ascii.eqb_spec c cCR) as [->|_]; [|reflexivity].
          exfalso. destruct (Hp cCR (or_introl eq_refl)). congruence.
        - change (end_cr (c :: d :: u)) with (c :: end_cr (d :: u)). rewrite IH by (intros x Hx; apply Hp; right; exact Hx). reflexivity. }
      assert (S3 : forall l, end_crlf (p ++ l) = p ++ end_crlf l).
      { clear E Hne S2. intro m. induction p as [|c p IH]; [reflexivity|]. cbn [app]. specialize (IH ltac:(intros x Hx; apply Hp; right; exact Hx)).
        assert (Hc : c <> cCR) by (apply Hp; left; reflexivity). destruct (p ++ m) as [|d [|e u]] eqn:Em.
        - assert (p = [] /\ m = []) as [-> ->] by (apply app_eq_nil; exact Em). reflexivity.
        - cbn [end_crlf] in *. destruct (Ascii.eqb_spec c cCR); [congruence|]. cbn [andb]. rewrite IH. reflexivity.
        - change (end_crlf (c :: d :: e :: u)) with (c :: end_crlf (d :: e :: u)). rewrite IH. reflexivity. }
      destruct (p ++ l) as [|c0 l0] eqn:Epl; [destruct p; [congruence|discriminate]|]. rewrite <- Epl. cbv zeta. destruct b.
      - rewrite S3. eauto.
      - rewrite S2, S3. eauto. }
    destruct (K (a ++ [cQuote]) rest) as (x & r & E).
    - intros c Hc. apply in_app_or in Hc. destruct Hc as [Hc|[<-|[]]]; [|split; discriminate].
      assert (special c = false). { destruct (special c) eqn:Sp; [|reflexivity]. rewrite <- Hs. symmetry. apply existsb_exists. exists c. auto. }
      split; intro C; subst c; discriminate.
    - destruct a; discriminate.
    - rewrite <- !app_assoc in E. cbn [app] in E. eauto. }
  destruct E as (x & r & E). unfold ParseCSVBytes, csv_read. cbn [read_records]. rewrite E.
  destruct a as [|c a]; [congruence|]. cbn [app] in *.
  assert (On : only_nl (c :: a ++ cQuote :: x) = false) by (destruct a; reflexivity). rewrite On.
  assert (Hc : c <> cQuote) by (intro C; subst c; discriminate).
  assert (F : forall p m, existsb (Ascii.eqb cQuote) (p ++ cQuote :: m) = true) by (intros p m; apply existsb_exists; exists cQuote; split; [apply in_or_app; right; left; reflexivity|reflexivity]).
  assert (C1 : forall p m u v, existsb special p = false -> cut cComma (p ++ cQuote :: m) = Some (u, v) -> existsb (Ascii.eqb cQuote) u = true).
  { induction p as [|y p IH]; intros m u v Hp Eu; cbn [app] in Eu.
    - rewrite cut_skip in Eu by discriminate. destruct (cut cComma m) as [[u' v']|]; [|discriminate]. injection Eu as <- <-. reflexivity.
    - cbn [existsb] in Hp. apply orb_false_iff in Hp. destruct Hp as [Hy Hp]. rewrite cut_skip in Eu by (intro C; subst y; discriminate).
      destruct (cut cComma (p ++ cQuote :: m)) as [[u' v']|] eqn:E'; [|discriminate]. injection Eu as <- <-. cbn [existsb]. rewrite (IH m u' v' Hp E'). apply orb_true_r. }
  assert (C2 : forall p m, exists m', chomp (p ++ cQuote :: m) = p ++ cQuote :: m').
  { induction p as [|y p IH]; intro m; cbn [app]; [destruct m as [|z m]; [exists []; reflexivity|exists (chomp (z :: m)); reflexivity]|].
    destruct (IH m) as (m' & Em). exists m'. destruct (p ++ cQuote :: m) as [|z u] eqn:Ez; [destruct p; discriminate|].
    change (chomp (y :: z :: u)) with (y :: chomp (z :: u)). rewrite Em. reflexivity. }
  cbn [read_fields]. destruct (Ascii.eqb_spec c cQuote) as [|_]; [congruence|]. change (c :: a ++ cQuote :: x) with ((c :: a) ++ cQuote :: x).
  destruct (cut cComma ((c :: a) ++ cQuote :: x)) as [[u v]|] eqn:Ec.
  - rewrite (C1 _ _ _ _ Hs Ec). reflexivity.
  - destruct (C2 (c :: a) x) as (m' & Em). rewrite Em, F. reflexivity.
Qed.
Print Assumptions C99_bare_quote.

(** a header with a comma, a quote, a newline, a leading blank and an empty name *)
Definition txt99 (s : string) : bytes := list_ascii_of_string s.
Definition header99 : list bytes := [txt99 "a,b"; txt99 "say ""x"""; [cCR; cLF; "z"%char; cLF]; txt99 " c"; []].
Example C99_example :
  csv_write (fun f => match f with c :: _ => Ascii.eqb c " " | [] => false end) [header99; [[]]; [txt99 "1"]] =
    txt99 """a,b"",""say """"x"""""","""  ++ [cCR; cLF; "z"%char; cLF] ++ txt99 ""","" c""," ++ [cLF; cLF] ++ txt99 "1" ++ [cLF] /\
  csv_read (csv_write (fun f => match f with c :: _ => Ascii.eqb c " " | [] => false end) [header99; [[]]; [txt99 "1"]]) =
    Ok [[txt99 "a,b"; txt99 "say ""x"""; [cLF; "z"%char; cLF]; txt99 " c"; []]; [txt99 "1"]] /\
  csv_read (dos (txt99 "p,q" ++ [cLF] ++ txt99 "1,2")) = Ok [[txt99 "p"; txt99 "q"]; [txt99 "1"; txt99 "2"]] /\
  csv_read (txt99 "p""q,r") = Panic /\ csv_read (txt99 """p") = Panic.
Proof. repeat split; vm_compute; reflexivity. Qed.

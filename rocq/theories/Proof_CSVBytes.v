(** Proofs about the bytes of CSV files (Model_CSVBytes.v). *)
From Coq Require Import String Ascii.
From Verif Require Import Base Num Mat Model_CSV Model_CSVBytes Spec_CSVBytes.
Open Scope list_scope.

(** ** fuel *)
Lemma read_slice_app : forall s l r b, read_slice s = (l, r, b) -> s = l ++ r.
Proof.
  induction s as [|c s IH]; intros l r b; cbn [read_slice]; [intros [= <- <- <-]; reflexivity|].
  destruct (Ascii.eqb c cLF); [intros [= <- <- <-]; reflexivity|].
  destruct (read_slice s) as [[l' r'] b'] eqn:E. intros [= <- <- <-]. cbn. f_equal. eapply IH. reflexivity.
Qed.

Lemma end_crlf_len : forall l, (length (end_crlf l) <= length l)%nat.
Proof.
  induction l as [|c l IH]; [cbn; lia|]. destruct l as [|d t]; [cbn; lia|].
  destruct t as [|e t]; [cbn [end_crlf]; destruct (_ && _)%bool; cbn; lia|].
  change (end_crlf (c :: d :: e :: t)) with (c :: end_crlf (d :: e :: t)). cbn [length] in *. lia.
Qed.

Lemma end_cr_len : forall l, (length (end_cr l) <= length l)%nat.
Proof.
  induction l as [|c l IH]; [cbn; lia|]. destruct l as [|d t]; [cbn [end_cr]; destruct (Ascii.eqb c cCR); cbn; lia|].
  change (end_cr (c :: d :: t)) with (c :: end_cr (d :: t)). cbn [length] in *. lia.
Qed.

Lemma read_line_len : forall s l r, read_line s = Some (l, r) -> (length l + length r <= length s /\ length r < length s)%nat.
Proof.
  intros s l r. unfold read_line. destruct (read_slice s) as [[l' r'] b] eqn:E. apply read_slice_app in E. subst s.
  destruct l' as [|c l']; [discriminate|]. rewrite app_length.
  pose proof (end_cr_len (c :: l')) as H2. pose proof (end_crlf_len (c :: l')) as H1. pose proof (end_crlf_len (end_cr (c :: l'))) as H3.
  cbv zeta. destruct b; [remember (end_crlf (c :: l')) as x eqn:Ex|remember (end_crlf (end_cr (c :: l'))) as x eqn:Ex]; clear Ex;
  intros [= <- <-]; cbn [length] in H1, H2 |- *; lia.
Qed.

Lemma cut_app : forall c l a b, cut c l = Some (a, b) -> l = a ++ c :: b.
Proof.
  induction l as [|d l IH]; intros a b; cbn [cut]; [discriminate|].
  destruct (Ascii.eqb_spec d c) as [->|Hn]; [intros [= <- <-]; reflexivity|].
  destruct (cut c l) as [[a' b']|]; [|discriminate]. intros [= <- <-]. cbn. f_equal. apply IH. reflexivity.
Qed.

Lemma fields_enough : forall n n' q line rest fs,
  (length line + length rest < n)%nat -> (length line + length rest < n')%nat ->
  read_fields n q line rest fs = read_fields n' q line rest fs.
Proof.
  induction n as [|n IH]; intros n' q line rest fs Hn Hn'; [lia|]. destruct n' as [|n']; [lia|]. cbn [read_fields].
  destruct q as [cur|].
  - destruct (cut cQuote line) as [[a l']|] eqn:Ec.
    + apply cut_app in Ec. subst line. rewrite app_length in Hn, Hn'. destruct l' as [|c t]; [reflexivity|]. cbn [length] in *.
      destruct (Ascii.eqb c cQuote); [apply IH; lia|]. destruct (Ascii.eqb c cComma); [apply IH; lia|]. reflexivity.
    + destruct line as [|c t]; [reflexivity|]. destruct (read_line rest) as [[l' r']|] eqn:Er.
      * apply read_line_len in Er. cbn [length] in *. apply IH; lia.
      * cbn [length] in *. apply IH; cbn [length]; lia.
  - destruct line as [|c t]; [reflexivity|]. destruct (Ascii.eqb c cQuote); [cbn [length] in *; apply IH; lia|].
    destruct (cut cComma (c :: t)) as [[f l']|] eqn:Ec; [|reflexivity]. apply cut_app in Ec. rewrite Ec in Hn, Hn'. rewrite app_length in Hn, Hn'.
    cbn [length] in *. destruct (existsb _ f); [reflexivity|]. apply IH; lia.
Qed.

Lemma fields_end : forall n q line rest fs, (length line + length rest < n)%nat ->
  match read_fields n q line rest fs with Fuel => False | Panic => True | Ok (_, r) => (length r <= length rest)%nat end.
Proof.
  induction n as [|n IH]; intros q line rest fs Hn; [lia|]. cbn [read_fields].
  destruct q as [cur|].
  - destruct (cut cQuote line) as [[a l']|] eqn:Ec.
    + apply cut_app in Ec. subst line. rewrite app_length in Hn. destruct l' as [|c t]; [lia|]. cbn [length] in *.
      destruct (Ascii.eqb c cQuote); [apply IH; lia|]. destruct (Ascii.eqb c cComma); [apply IH; lia|]. destruct (only_nl (c :: t)); auto.
    + destruct line as [|c t]; [exact I|]. destruct (read_line rest) as [[l' r']|] eqn:Er.
      * apply read_line_len in Er. cbn [length] in *. specialize (IH (Some (cur ++ c :: t)) l' r' fs ltac:(lia)).
        destruct (read_fields n _ l' r' fs) as [[? r]| |]; [lia|exact I|exact IH].
      * cbn [length] in *. apply IH. cbn [length]. lia.
  - destruct line as [|c t]; [lia|]. destruct (Ascii.eqb c cQuote); [cbn [length] in *; apply IH; lia|].
    destruct (cut cComma (c :: t)) as [[f l']|] eqn:Ec; [|destruct (existsb _ (chomp (c :: t))); auto].
    apply cut_app in Ec. rewrite Ec in Hn. rewrite app_length in Hn.
    cbn [length] in *. destruct (existsb _ f); [exact I|]. apply IH; lia.
Qed.

Lemma records_end : forall n s, (length s < n)%nat -> read_records n s <> Fuel.
Proof.
  induction n as [|n IH]; intros s Hn; [lia|]. cbn [read_records]. destruct (read_line s) as [[l r]|] eqn:E; [|discriminate].
  apply read_line_len in E. destruct (only_nl l); [apply IH; lia|].
  pose proof (fields_end (S (length l + length r)) None l r [] ltac:(lia)) as H.
  destruct (read_fields _ None l r []) as [[rec r']| |]; [|discriminate|contradiction]. cbn [bind].
  specialize (IH r' ltac:(lia)). destruct (read_records n r'); [discriminate|discriminate|contradiction].
Qed.

Lemma records_enough : forall n n' s, (length s < n)%nat -> (length s < n')%nat -> read_records n s = read_records n' s.
Proof.
  induction n as [|n IH]; intros n' s Hn Hn'; [lia|]. destruct n' as [|n']; [lia|]. cbn [read_records].
  destruct (read_line s) as [[l r]|] eqn:E; [|reflexivity].
  apply read_line_len in E. destruct (only_nl l); [apply IH; lia|].
  pose proof (fields_end (S (length l + length r)) None l r [] ltac:(lia)) as H.
  destruct (read_fields _ None l r []) as [[rec r']| |]; [|reflexivity|reflexivity]. cbn [bind].
  rewrite (IH n' r') by lia. reflexivity.
Qed.

(** [read_fields] without its counter *)
Definition rf (q : option bytes) (line rest : bytes) (fs : list bytes) : res (list bytes * bytes) :=
  read_fields (S (length line + length rest)) q line rest fs.

Lemma rf_any : forall n q line rest fs, (length line + length rest < n)%nat -> read_fields n q line rest fs = rf q line rest fs.
Proof. intros. apply fields_enough; [assumption|lia]. Qed.

(** ** lines *)
Definition rl (s : bytes) : bytes * bytes := let '(l, r, _) := read_slice s in (end_crlf l, r).

Lemma read_slice_nl : forall s, In cLF s -> exists l r, read_slice s = (l, r, true) /\ l <> [].
Proof.
  induction s as [|c s IH]; intros H; [destruct H|]. cbn [read_slice]. destruct (Ascii.eqb_spec c cLF) as [->|Hn].
  - exists [cLF], s. split; [reflexivity|discriminate].
  - destruct H as [H|H]; [congruence|]. destruct (IH H) as (l & r & E & _). rewrite E. exists (c :: l), r. split; [reflexivity|discriminate].
Qed.

Lemma read_line_nl : forall s, In cLF s -> read_line s = Some (rl s).
Proof.
  intros s H. destruct (read_slice_nl s H) as (l & r & E & Hl). unfold read_line, rl. rewrite E. destruct l; [congruence|reflexivity].
Qed.

Lemma rl_lf : forall s, rl (cLF :: s) = ([cLF], s).
Proof. intro s. reflexivity. Qed.

Lemma rl_crlf : forall s, rl (cCR :: cLF :: s) = ([cLF], s).
Proof. intro s. reflexivity. Qed.

Lemma rl_cons : forall c s, c <> cLF -> (c = cCR -> forall t, s <> cLF :: t) -> In cLF s ->
  rl (c :: s) = (c :: fst (rl s), snd (rl s)) /\ fst (rl s) <> [].
Proof.
  intros c s Hc Hr Hs. unfold rl. cbn [read_slice]. destruct (Ascii.eqb_spec c cLF) as [|_]; [congruence|].
  destruct (read_slice_nl s Hs) as (l & r & E & Hl). rewrite E. cbn [fst snd].
  destruct l as [|d l]; [congruence|]. split.
  - cbn [end_crlf]. destruct l as [|e l]; [|reflexivity]. cbn [end_crlf].
    destruct (Ascii.eqb_spec c cCR) as [->|Hcr]; [|reflexivity]. destruct (Ascii.eqb_spec d cLF) as [->|Hd]; [|reflexivity].
    apply read_slice_app in E. exfalso. apply (Hr eq_refl r). exact E.
  - cbn [end_crlf]. destruct l as [|e l]; [discriminate|]. destruct l; [destruct (_ && _)%bool; discriminate|discriminate].
Qed.

Lemma rl_plain : forall f s, existsb special f = false -> In cLF s -> rl (f ++ s) = (f ++ fst (rl s), snd (rl s)).
Proof.
  induction f as [|c f IH]; intros s Hf Hs; [cbn [app]; destruct (rl s); reflexivity|]. cbn [existsb] in Hf. apply orb_false_iff in Hf. destruct Hf as [Hc Hf].
  unfold special in Hc. repeat (apply orb_false_iff in Hc; destruct Hc as [Hc ?]).
  destruct (rl_cons c (f ++ s)) as [E _].
  - apply Ascii.eqb_neq. assumption.
  - intro C. subst c. discriminate.
  - apply in_or_app. right. exact Hs.
  - cbn [app]. rewrite E, (IH s Hf Hs). reflexivity.
Qed.

(** ** one quoted field *)
Lemma cut_skip : forall c d l, d <> c -> cut c (d :: l) = match cut c l with Some (a, b) => Some (d :: a, b) | None => None end.
Proof. intros c d l H. cbn [cut]. destruct (Ascii.eqb_spec d c); [congruence|reflexivity]. Qed.

Lemma rf_char : forall cur c line rest fs, c <> cQuote -> line <> [] ->
  rf (Some cur) (c :: line) rest fs = rf (Some (cur ++ [c])) line rest fs.
Proof.
  intros cur c line rest fs Hc Hl. rewrite <- (rf_any (S (length (c :: line) + length rest)) (Some (cur ++ [c]))) by (cbn [length]; lia).
  unfold rf. cbn [read_fields]. rewrite cut_skip by exact Hc. destruct (cut cQuote line) as [[a b]|].
  - destruct b as [|d t]; [rewrite <- app_assoc; reflexivity|].
    rewrite <- !app_assoc. reflexivity.
  - destruct line as [|d t]; [congruence|]. destruct (read_line rest) as [[l r]|]; rewrite <- app_assoc; reflexivity.
Qed.

Lemma In_dq : forall f, In cLF f -> In cLF (double_quotes f).
Proof.
  induction f as [|c f IH]; intro H; [destruct H|]. cbn [double_quotes]. destruct (Ascii.eqb_spec c cQuote) as [->|Hn].
  - destruct H as [H|H]; [discriminate|]. right. right. auto.
  - destruct H as [->|H]; [left; reflexivity|right; auto].
Qed.

Lemma snoc_cons : forall (a : bytes) c b, a ++ c :: b = (a ++ [c]) ++ b.
Proof. intros. rewrite <- app_assoc. reflexivity. Qed.

Lemma rf_quoted : forall f cur tail fs, In cLF tail ->
  let s := double_quotes f ++ cQuote :: tail in
  rf (Some cur) (fst (rl s)) (snd (rl s)) fs = rf (Some (cur ++ crlf f)) (cQuote :: fst (rl tail)) (snd (rl tail)) fs.
Proof.
  induction f as [|c f IH]; intros cur tail fs Ht s; subst s.
  - cbn [double_quotes app crlf]. rewrite app_nil_r.
    destruct (rl_cons cQuote tail ltac:(discriminate) ltac:(discriminate) Ht) as [E _]. rewrite E. reflexivity.
  - assert (Hin : forall g, In cLF (double_quotes g ++ cQuote :: tail)) by (intro g; apply in_or_app; right; right; exact Ht).
    cbn [double_quotes]. destruct (Ascii.eqb_spec c cQuote) as [->|Hq].
    + cbn [app].
      destruct (rl_cons cQuote (double_quotes f ++ cQuote :: tail) ltac:(discriminate) ltac:(discriminate) (Hin f)) as [E _].
      destruct (rl_cons cQuote (cQuote :: double_quotes f ++ cQuote :: tail) ltac:(discriminate) ltac:(discriminate) ltac:(right; apply Hin)) as [E2 _].
      rewrite E2. cbn [fst snd]. rewrite E. cbn [fst snd].
      replace (crlf (cQuote :: f)) with (cQuote :: crlf f) by (destruct f; reflexivity).
      rewrite (snoc_cons cur cQuote (crlf f)).
      rewrite <- (IH (cur ++ [cQuote]) tail fs Ht). unfold rf at 1. cbn [read_fields cut]. rewrite Ascii.eqb_refl.
      cbn [app]. apply rf_any. cbn [length]. lia.
    + cbn [app]. destruct (Ascii.eqb_spec c cLF) as [->|Hlf].
      * rewrite rl_lf. cbn [fst snd]. replace (crlf (cLF :: f)) with (cLF :: crlf f) by (destruct f; reflexivity).
        rewrite (snoc_cons cur cLF (crlf f)).
        rewrite <- (IH (cur ++ [cLF]) tail fs Ht). unfold rf at 1. cbn [read_fields].
        change (cut cQuote [cLF]) with (@None (bytes * bytes)). cbv iota. pose proof (read_line_nl _ (Hin f)) as E. rewrite E.
        destruct (rl (double_quotes f ++ cQuote :: tail)) as [l r]. cbn [fst snd]. apply rf_any. apply read_line_len in E. cbn [length]. lia.
      * destruct (Ascii.eqb_spec c cCR) as [->|Hcr].
        { destruct f as [|d f].
          - cbn [double_quotes app crlf].
            destruct (rl_cons cCR (cQuote :: tail) ltac:(discriminate) ltac:(intros _ t; discriminate) ltac:(right; exact Ht)) as [E En]. rewrite E. cbn [fst snd].
            rewrite rf_char by (discriminate || exact En). specialize (IH (cur ++ [cCR]) tail fs Ht). cbn [double_quotes app crlf] in IH. rewrite app_nil_r in IH. exact IH.
          - destruct (Ascii.eqb_spec d cLF) as [->|Hd].
            + change (crlf (cCR :: cLF :: f)) with (crlf (cLF :: f)). rewrite <- IH by exact Ht.
              change (double_quotes (cLF :: f)) with (cLF :: double_quotes f). cbn [app]. rewrite rl_crlf, rl_lf. reflexivity.
            + assert (Ecr : crlf (cCR :: d :: f) = cCR :: crlf (d :: f)).
              { cbn [crlf]. destruct (Ascii.eqb_spec d cLF); [congruence|]. reflexivity. }
              rewrite Ecr. rewrite (snoc_cons cur cCR (crlf (d :: f))).
              rewrite <- (IH (cur ++ [cCR]) tail fs Ht).
              destruct (rl_cons cCR (double_quotes (d :: f) ++ cQuote :: tail)) as [E En]; [discriminate| |apply Hin|].
              { intros _ t C. cbn [double_quotes] in C. destruct (Ascii.eqb_spec d cQuote); cbn [app] in C; [discriminate|]. injection C as C _. congruence. }
              rewrite E. cbn [fst snd]. apply rf_char; [discriminate|exact En]. }
        { assert (Ecr : crlf (c :: f) = c :: crlf f).
          { cbn [crlf]. destruct f; [reflexivity|]. destruct (Ascii.eqb_spec c cCR); [congruence|]. reflexivity. }
          rewrite Ecr. rewrite (snoc_cons cur c (crlf f)).
          rewrite <- (IH (cur ++ [c]) tail fs Ht).
          destruct (rl_cons c (double_quotes f ++ cQuote :: tail) Hlf ltac:(congruence) (Hin f)) as [E En].
          rewrite E. cbn [fst snd]. apply rf_char; assumption. }
Qed.

(** ** one field, then one record *)
Lemma plain_crlf : forall f, existsb special f = false -> crlf f = f.
Proof.
  induction f as [|c f IH]; intro H; [reflexivity|]. cbn [existsb] in H. apply orb_false_iff in H. destruct H as [Hc H].
  cbn [crlf]. rewrite (IH H). destruct f; [reflexivity|]. destruct (Ascii.eqb_spec c cCR) as [->|]; [discriminate|]. reflexivity.
Qed.

Lemma plain_cut : forall f t, existsb special f = false -> cut cComma (f ++ cComma :: t) = Some (f, t).
Proof.
  induction f as [|c f IH]; intros t H; [reflexivity|]. cbn [existsb] in H. apply orb_false_iff in H. destruct H as [Hc H].
  cbn [app]. rewrite cut_skip by (intro C; subst c; discriminate). rewrite (IH t H). reflexivity.
Qed.

Lemma plain_nocut : forall f, existsb special f = false -> cut cComma (f ++ [cLF]) = None.
Proof.
  induction f as [|c f IH]; intros H; [reflexivity|]. cbn [existsb] in H. apply orb_false_iff in H. destruct H as [Hc H].
  cbn [app]. rewrite cut_skip by (intro C; subst c; discriminate). rewrite (IH H). reflexivity.
Qed.

Lemma plain_chomp : forall f, chomp (f ++ [cLF]) = f.
Proof.
  induction f as [|c f IH]; [reflexivity|]. cbn [app]. destruct f as [|d f]; [reflexivity|].
  change (chomp (c :: (d :: f) ++ [cLF])) with (c :: chomp ((d :: f) ++ [cLF])). rewrite IH. reflexivity.
Qed.

Lemma plain_noquote : forall f, existsb special f = false -> existsb (Ascii.eqb cQuote) f = false.
Proof.
  induction f as [|c f IH]; intros H; [reflexivity|]. cbn [existsb] in *. apply orb_false_iff in H. destruct H as [Hc H].
  rewrite (IH H), orb_false_r. destruct (Ascii.eqb_spec cQuote c) as [<-|]; [discriminate|reflexivity].
Qed.

Lemma unquoted_plain : forall space f, needs_quotes space f = false -> existsb special f = false.
Proof.
  intros space [|c f] H; [reflexivity|]. unfold needs_quotes in H. apply orb_false_iff in H. destruct H as [H _].
  apply orb_false_iff in H. apply H.
Qed.

Section Write.
  Variable space : bytes -> bool.

  Lemma field_comma : forall f tail fs, In cLF tail ->
    let s := write_field space f ++ cComma :: tail in
    rf None (fst (rl s)) (snd (rl s)) fs = rf None (fst (rl tail)) (snd (rl tail)) (fs ++ [crlf f]).
  Proof.
    intros f tail fs Ht s. subst s. unfold write_field. destruct (needs_quotes space f) eqn:Q.
    - cbn [app]. rewrite <- app_assoc. cbn [app]. set (s := double_quotes f ++ cQuote :: cComma :: tail).
      assert (Hs : In cLF s) by (apply in_or_app; right; right; right; exact Ht).
      destruct (rl_cons cQuote s ltac:(discriminate) ltac:(discriminate) Hs) as [E _]. rewrite E. cbn [fst snd].
      unfold rf at 1. cbn [read_fields]. change (Ascii.eqb cQuote cQuote) with true. cbv iota. rewrite rf_any by (cbn [length]; lia).
      pose proof (rf_quoted f [] (cComma :: tail) fs ltac:(right; exact Ht)) as R. cbv zeta in R. fold s in R. etransitivity; [exact R|]. clear R.
      destruct (rl_cons cComma tail ltac:(discriminate) ltac:(discriminate) Ht) as [E2 _]. rewrite E2. cbn [fst snd app].
      unfold rf at 1. cbn [read_fields cut]. change (Ascii.eqb cQuote cQuote) with true. cbv iota.
      change (Ascii.eqb cComma cQuote) with false. change (Ascii.eqb cComma cComma) with true. cbv iota. rewrite app_nil_r.
      apply rf_any. cbn [length]. lia.
    - apply unquoted_plain in Q. rewrite (rl_plain f (cComma :: tail) Q) by (right; exact Ht).
      destruct (rl_cons cComma tail ltac:(discriminate) ltac:(discriminate) Ht) as [E2 _]. rewrite E2. cbn [fst snd].
      rewrite (plain_crlf f Q). unfold rf at 1.
      assert (Hne : exists c t, f ++ cComma :: fst (rl tail) = c :: t /\ c <> cQuote).
      { destruct f as [|c f]; [exists cComma, (fst (rl tail)); split; [reflexivity|discriminate]|].
        exists c, (f ++ cComma :: fst (rl tail)). split; [reflexivity|]. intro C. subst c. discriminate. }
      destruct Hne as (c & t & Ef & Hc). cbn [read_fields]. rewrite Ef. destruct (Ascii.eqb_spec c cQuote) as [|_]; [congruence|].
      rewrite <- Ef, (plain_cut f _ Q), (plain_noquote f Q). apply rf_any. rewrite app_length. cbn [length]. lia.
  Qed.

  Lemma field_end : forall f tail fs,
    let s := write_field space f ++ cLF :: tail in
    rf None (fst (rl s)) (snd (rl s)) fs = Ok (fs ++ [crlf f], tail).
  Proof.
    intros f tail fs s. subst s. unfold write_field. destruct (needs_quotes space f) eqn:Q.
    - cbn [app]. rewrite <- app_assoc. cbn [app]. set (s := double_quotes f ++ cQuote :: cLF :: tail).
      assert (Hs : In cLF s) by (apply in_or_app; right; right; left; reflexivity).
      destruct (rl_cons cQuote s ltac:(discriminate) ltac:(discriminate) Hs) as [E _]. rewrite E. cbn [fst snd].
      unfold rf at 1. cbn [read_fields]. change (Ascii.eqb cQuote cQuote) with true. cbv iota. rewrite rf_any by (cbn [length]; lia).
      pose proof (rf_quoted f [] (cLF :: tail) fs ltac:(left; reflexivity)) as R. cbv zeta in R. fold s in R. etransitivity; [exact R|]. clear R.
      rewrite rl_lf. cbn [fst snd app]. unfold rf. cbn [read_fields cut]. change (Ascii.eqb cQuote cQuote) with true. cbv iota.
      change (Ascii.eqb cLF cQuote) with false. change (Ascii.eqb cLF cComma) with false. change (only_nl [cLF]) with true. cbv iota.
      rewrite app_nil_r. reflexivity.
    - apply unquoted_plain in Q. rewrite (rl_plain f (cLF :: tail) Q) by (left; reflexivity).
      rewrite rl_lf. cbn [fst snd]. rewrite (plain_crlf f Q). unfold rf.
      assert (Hne : exists c t, f ++ [cLF] = c :: t /\ c <> cQuote).
      { destruct f as [|c f]; [exists cLF, []; split; [reflexivity|discriminate]|].
        exists c, (f ++ [cLF]). split; [reflexivity|]. intro C. subst c. discriminate. }
      destruct Hne as (c & t & Ef & Hc). cbn [read_fields]. rewrite Ef. destruct (Ascii.eqb_spec c cQuote) as [|_]; [congruence|].
      rewrite <- Ef, (plain_nocut f Q), plain_chomp, (plain_noquote f Q). reflexivity.
  Qed.

  Lemma record_read : forall r tail fs, r <> [] ->
    let s := write_fields space r ++ cLF :: tail in
    rf None (fst (rl s)) (snd (rl s)) fs = Ok (fs ++ map crlf r, tail).
  Proof.
    induction r as [|f r IH]; intros tail fs Hr s; [congruence|]. subst s. destruct r as [|g r].
    - apply field_end.
    - change (write_fields space (f :: g :: r)) with (write_field space f ++ cComma :: write_fields space (g :: r)).
      rewrite <- app_assoc. cbn [app]. set (tl := write_fields space (g :: r) ++ cLF :: tail).
      rewrite (field_comma f tl fs) by (apply in_or_app; right; left; reflexivity).
      subst tl. rewrite (IH tail (fs ++ [crlf f]) ltac:(discriminate)). rewrite <- app_assoc. reflexivity.
  Qed.

  (** a record other than the blank ones starts with something else than a newline *)
  Lemma record_start : forall r tail, blank r = false -> exists c t, write_fields space r ++ cLF :: tail = c :: t /\ c <> cLF /\ c <> cCR /\ In cLF t.
  Proof.
    intros r tail Hb. assert (G : forall s, In cLF (s ++ cLF :: tail)) by (intro s; apply in_or_app; right; left; reflexivity).
    destruct r as [|f r]; [discriminate|].
    assert (F : f <> [] -> exists c t, write_field space f = c :: t /\ c <> cLF /\ c <> cCR).
    { intro Hf. unfold write_field. destruct (needs_quotes space f) eqn:Q; [exists cQuote, (double_quotes f ++ [cQuote]); repeat split; discriminate|].
      apply unquoted_plain in Q. destruct f as [|c t]; [congruence|]. exists c, t. split; [reflexivity|]. split; intro C; subst c; discriminate. }
    destruct r as [|g r].
    - destruct f as [|c f]; [discriminate|]. destruct (F ltac:(discriminate)) as (d & t & E & H1 & H2). exists d, (t ++ cLF :: tail).
      cbn [write_fields]. rewrite E. split; [reflexivity|]. split; [exact H1|]. split; [exact H2|apply G].
    - change (write_fields space (f :: g :: r)) with (write_field space f ++ cComma :: write_fields space (g :: r)).
      destruct f as [|c f].
      + exists cComma, (write_fields space (g :: r) ++ cLF :: tail). split; [reflexivity|]. split; [discriminate|]. split; [discriminate|apply G].
      + destruct (F ltac:(discriminate)) as (d & t & E & H1 & H2). rewrite E. exists d, (t ++ cComma :: write_fields space (g :: r) ++ cLF :: tail).
        rewrite <- app_assoc. split; [reflexivity|]. split; [exact H1|]. split; [exact H2|]. apply in_or_app. right. right. apply G.
  Qed.

  Lemma blank_write : forall r, blank r = true -> write_fields space r = [].
  Proof. intros [|[|c f] [|g r]] H; try discriminate; reflexivity. Qed.

  Lemma csv_read_write : forall records n, (length (csv_write space records) < n)%nat ->
    read_records n (csv_write space records) = Ok (map (map crlf) (filter (fun r => negb (blank r)) records)).
  Proof.
    induction records as [|r records IH]; intros n Hn.
    - destruct n as [|n]; [cbn in Hn; lia|]. reflexivity.
    - change (csv_write space (r :: records)) with ((write_fields space r ++ [cLF]) ++ csv_write space records) in *.
      rewrite <- app_assoc in *. cbn [app] in *. rewrite app_length in Hn. cbn [length] in Hn.
      destruct n as [|n]; [lia|]. cbn [read_records].
      rewrite read_line_nl by (apply in_or_app; right; left; reflexivity).
      destruct (blank r) eqn:B.
      + cbn [filter]. rewrite B. cbn [negb]. rewrite (blank_write r B). cbn [app]. rewrite rl_lf. change (only_nl [cLF]) with true. cbv iota. apply IH. lia.
      + destruct (record_start r (csv_write space records) B) as (c & t & E & Hc & Hc2 & Ht).
        pose proof (record_read r (csv_write space records) [] ltac:(intro C; subst r; discriminate)) as R. cbv zeta in R.
        rewrite E in *. destruct (rl_cons c t Hc ltac:(congruence) Ht) as [E2 _]. rewrite E2 in *. cbn [fst snd] in R.
        assert (On : only_nl (c :: fst (rl t)) = false).
        { unfold only_nl. destruct (fst (rl t)); [|reflexivity]. apply Ascii.eqb_neq. exact Hc. }
        rewrite On. unfold rf in R. rewrite R. cbn [bind app]. rewrite IH by lia. cbn [bind filter]. rewrite B. reflexivity.
  Qed.
End Write.

(** ** Windows files *)
Lemma read_slice_false : forall s l r, read_slice s = (l, r, false) -> l = s /\ r = [] /\ ~ In cLF s.
Proof.
  induction s as [|c s IH]; intros l r; cbn [read_slice]; [intros [= <- <-]; repeat split; intros []|].
  destruct (Ascii.eqb_spec c cLF) as [|Hn]; [discriminate|]. destruct (read_slice s) as [[l' r'] b'] eqn:E. intros [= <- <- ->].
  destruct (IH l' r' eq_refl) as (-> & -> & H). repeat split. intros [C|C]; [congruence|auto].
Qed.

Lemma read_slice_true : forall s l r, read_slice s = (l, r, true) -> exists l0, l = l0 ++ [cLF] /\ ~ In cLF l0 /\ s = l0 ++ cLF :: r.
Proof.
  induction s as [|c s IH]; intros l r; cbn [read_slice]; [discriminate|].
  destruct (Ascii.eqb_spec c cLF) as [->|Hn]; [intros [= <- <-]; exists []; repeat split; intros []|].
  destruct (read_slice s) as [[l' r'] b'] eqn:E. intros [= <- <- ->].
  destruct (IH l' r' eq_refl) as (l0 & -> & H & ->). exists (c :: l0). repeat split. intros [C|C]; [congruence|auto].
Qed.

Lemma read_slice_lf : forall l r, ~ In cLF l -> read_slice (l ++ cLF :: r) = (l ++ [cLF], r, true).
Proof.
  induction l as [|c l IH]; intros r H; [reflexivity|]. cbn [app read_slice]. destruct (Ascii.eqb_spec c cLF) as [->|Hn].
  - exfalso. apply H. left. reflexivity.
  - rewrite IH; [reflexivity|]. intro C. apply H. right. exact C.
Qed.

Lemma read_slice_nolf : forall s, ~ In cLF s -> read_slice s = (s, [], false).
Proof.
  intros s H. destruct (read_slice s) as [[l r] b] eqn:E. destruct b.
  - destruct (read_slice_true s l r E) as (l0 & -> & H0 & ->). exfalso. apply H. apply in_or_app. right. left. reflexivity.
  - destruct (read_slice_false s l r E) as (-> & -> & _). reflexivity.
Qed.

Lemma end_crlf_snoc : forall l c, end_crlf (l ++ [cCR; cLF]) = l ++ [cLF] /\ (c <> cCR -> end_crlf (l ++ [c; cLF]) = l ++ [c; cLF]) /\
  (c <> cLF -> end_crlf (l ++ [c]) = l ++ [c]).
Proof.
  intros l c. induction l as [|d l (IH1 & IH2 & IH3)].
  - split; [reflexivity|]. split; [|intros _; reflexivity]. intro H. cbn [app end_crlf]. destruct (Ascii.eqb_spec c cCR); [congruence|reflexivity].
  - split; [|split; intro H]; cbn [app].
    + destruct l as [|e l]; [reflexivity|]. destruct l as [|e' l]; [reflexivity|].
      change (d :: end_crlf ((e :: e' :: l) ++ [cCR; cLF]) = d :: (e :: e' :: l) ++ [cLF]). rewrite IH1. reflexivity.
    + specialize (IH2 H). destruct l as [|e l]; [change (d :: end_crlf ([] ++ [c; cLF]) = d :: [c; cLF]); rewrite IH2; reflexivity|].
      destruct l as [|e' l]; [change (d :: end_crlf ([e] ++ [c; cLF]) = d :: [e] ++ [c; cLF]); rewrite IH2; reflexivity|].
      change (d :: end_crlf ((e :: e' :: l) ++ [c; cLF]) = d :: (e :: e' :: l) ++ [c; cLF]). rewrite IH2. reflexivity.
    + specialize (IH3 H). destruct l as [|e l]; [cbn [app end_crlf]; destruct (Ascii.eqb_spec c cLF); [congruence|]; rewrite andb_false_r; reflexivity|].
      destruct l as [|e' l]; [change (d :: end_crlf ([e] ++ [c]) = d :: [e] ++ [c]); rewrite IH3; reflexivity|].
      change (d :: end_crlf ((e :: e' :: l) ++ [c]) = d :: (e :: e' :: l) ++ [c]). rewrite IH3. reflexivity.
Qed.

Lemma end_crlf_nocr : forall l, ~ In cCR l -> end_crlf (l ++ [cLF]) = l ++ [cLF].
Proof.
  intros l. destruct l as [|c l _] using rev_ind; intro H; [reflexivity|]. rewrite <- app_assoc. cbn [app].
  apply end_crlf_snoc. intro C. subst c. apply H. apply in_or_app. right. left. reflexivity.
Qed.

Lemma end_crlf_nolf : forall l, ~ In cLF l -> end_crlf l = l.
Proof.
  intros l. destruct l as [|c l _] using rev_ind; intro H; [reflexivity|].
  apply (end_crlf_snoc l c). intro C. subst c. apply H. apply in_or_app. right. left. reflexivity.
Qed.

Lemma end_cr_snoc : forall l c, end_cr (l ++ [c]) = if Ascii.eqb c cCR then l else l ++ [c].
Proof.
  induction l as [|d l IH]; intro c; [reflexivity|]. cbn [app]. destruct (l ++ [c]) as [|e t] eqn:E; [destruct l; discriminate|].
  change (end_cr (d :: e :: t)) with (d :: end_cr (e :: t)). rewrite <- E, IH. destruct (Ascii.eqb c cCR); reflexivity.
Qed.

Lemma end_cr_nocr : forall l, ~ In cCR l -> end_cr l = l.
Proof.
  intros l. destruct l as [|c l _] using rev_ind; intro H; [reflexivity|]. rewrite end_cr_snoc.
  destruct (Ascii.eqb_spec c cCR) as [->|_]; [|reflexivity]. exfalso. apply H. apply in_or_app. right. left. reflexivity.
Qed.

Lemma dos_app : forall a b, dos (a ++ b) = dos a ++ dos b.
Proof. intros. apply flat_map_app. Qed.

Lemma dos_nolf : forall l, ~ In cLF l -> dos l = l.
Proof.
  induction l as [|c l IH]; intro H; [reflexivity|]. unfold dos in *. cbn [flat_map]. rewrite IH by (intro C; apply H; right; exact C).
  destruct (Ascii.eqb_spec c cLF) as [->|_]; [exfalso; apply H; left; reflexivity|reflexivity].
Qed.

Lemma read_line_dos : forall s, ~ In cCR s ->
  read_line (dos s) = match read_line s with Some (l, r) => Some (l, dos r) | None => None end.
Proof.
  intros s H. unfold read_line. destruct (read_slice s) as [[l r] b] eqn:E. destruct b.
  - destruct (read_slice_true s l r E) as (l0 & -> & H0 & ->).
    assert (Ed : dos (l0 ++ cLF :: r) = (l0 ++ [cCR]) ++ cLF :: dos r).
    { rewrite dos_app, (dos_nolf l0 H0), <- app_assoc. reflexivity. }
    rewrite Ed. rewrite read_slice_lf.
    2:{ intro C. apply in_app_or in C. destruct C as [C|[C|[]]]; [auto|discriminate]. }
    assert (N0 : ~ In cCR l0) by (intro C; apply H; apply in_or_app; left; exact C).
    assert (E1 : end_crlf ((l0 ++ [cCR]) ++ [cLF]) = l0 ++ [cLF]) by (rewrite <- app_assoc; apply (end_crlf_snoc l0 cCR)).
    pose proof (end_crlf_nocr l0 N0) as E2.
    destruct ((l0 ++ [cCR]) ++ [cLF]) as [|c t] eqn:F1; [destruct l0; discriminate|].
    destruct (l0 ++ [cLF]) as [|c' t'] eqn:F2; [destruct l0; discriminate|]. cbv zeta iota. rewrite E1, E2. reflexivity.
  - destruct (read_slice_false s l r E) as (-> & -> & H0). rewrite (dos_nolf s H0), E. destruct s; reflexivity.
Qed.

Lemma read_line_incl : forall s l r, read_line s = Some (l, r) -> incl r s.
Proof.
  intros s l r. unfold read_line. destruct (read_slice s) as [[l' r'] b] eqn:E. apply read_slice_app in E. subst s.
  destruct l' as [|c l']; [discriminate|]. remember (end_crlf _) as x. intros [= _ <-]. intros a Ha. apply in_or_app. right. exact Ha.
Qed.

Lemma fields_dos : forall n q line rest fs, ~ In cCR rest ->
  read_fields n q line (dos rest) fs = match read_fields n q line rest fs with Ok (f, r) => Ok (f, dos r) | Panic => Panic | Fuel => Fuel end /\
  (forall f r, read_fields n q line rest fs = Ok (f, r) -> incl r rest).
Proof.
  induction n as [|n IH]; intros q line rest fs Hr; [split; [reflexivity|discriminate]|]. cbn [read_fields].
  assert (D : forall x : list bytes, (Ok (x, dos rest) = match Ok (x, rest) with Ok (f, r) => Ok (f, dos r) | Panic => Panic | Fuel => Fuel end) /\
     (forall f r, Ok (x, rest) = Ok (f, r) -> incl r rest)).
  { intro x. split; [reflexivity|]. intros f r [= _ <-]. apply incl_refl. }
  assert (P : (@Panic (list bytes * bytes) = match Panic with Ok (f, r) => Ok (f, dos r) | Panic => Panic | Fuel => Fuel end) /\
     (forall f r, @Panic (list bytes * bytes) = Ok (f, r) -> incl r rest)) by (split; [reflexivity|discriminate]).
  destruct q as [cur|].
  - destruct (cut cQuote line) as [[a l']|].
    + destruct l' as [|c t]; [apply D|]. destruct (Ascii.eqb c cQuote); [apply IH; exact Hr|].
      destruct (Ascii.eqb c cComma); [apply IH; exact Hr|]. destruct (only_nl (c :: t)); [apply D|exact P].
    + destruct line as [|c t]; [exact P|]. rewrite (read_line_dos rest Hr). destruct (read_line rest) as [[l' r']|] eqn:E; [|apply IH; exact Hr].
      pose proof (read_line_incl _ _ _ E) as I. destruct (IH (Some (cur ++ c :: t)) l' r' fs) as [H1 H2]; [intro C; apply Hr, I, C|].
      split; [exact H1|]. intros f r Er. eapply incl_tran; [eapply H2; exact Er|exact I].
  - destruct line as [|c t]; [apply D|]. destruct (Ascii.eqb c cQuote); [apply IH; exact Hr|].
    destruct (cut cComma (c :: t)) as [[f l']|].
    + destruct (existsb _ f); [exact P|apply IH; exact Hr].
    + destruct (existsb _ (chomp (c :: t))); [exact P|apply D].
Qed.

Lemma dos_len : forall s, (length s <= length (dos s))%nat.
Proof. induction s as [|c s IH]; [cbn; lia|]. unfold dos in *. cbn [flat_map]. rewrite app_length. destruct (Ascii.eqb c cLF); cbn [length]; lia. Qed.

Lemma records_dos : forall n s, ~ In cCR s -> (length (dos s) < n)%nat -> read_records n (dos s) = read_records n s.
Proof.
  induction n as [|n IH]; intros s Hs Hn; [lia|]. cbn [read_records]. rewrite (read_line_dos s Hs).
  pose proof (read_line_dos s Hs) as Ed. destruct (read_line s) as [[l r]|] eqn:E; [|reflexivity].
  pose proof (read_line_incl _ _ _ E) as I. assert (Hr : ~ In cCR r) by (intro C; apply Hs, I, C).
  apply read_line_len in Ed. destruct (only_nl l); [apply IH; [exact Hr|lia]|].
  pose proof (dos_len r). destruct (fields_dos (S (length l + length (dos r))) None l r [] Hr) as [H1 H2].
  rewrite H1. rewrite (fields_enough (S (length l + length r)) (S (length l + length (dos r)))) by lia.
  destruct (read_fields _ None l r []) as [[f r']| |] eqn:Ef; [|reflexivity|reflexivity]. cbn [bind].
  pose proof (fields_end (S (length l + length (dos r))) None l (dos r) [] ltac:(lia)) as Le. rewrite H1 in Le.
  rewrite IH; [reflexivity| |lia]. intro C. apply Hr. eapply H2; [reflexivity|exact C].
Qed.

(** ** a final newline *)
Lemma end_cr_lf : forall l, (~ In cLF l -> ~ In cLF (end_cr l)) /\ end_crlf (l ++ [cLF]) = end_cr l ++ [cLF].
Proof.
  intros l. destruct l as [|x l _] using rev_ind; [split; [auto|reflexivity]|]. rewrite end_cr_snoc, <- app_assoc. cbn [app].
  destruct (Ascii.eqb_spec x cCR) as [->|Hx]; split.
  - intros H C. apply H. apply in_or_app. left. exact C.
  - apply (end_crlf_snoc l cCR).
  - auto.
  - rewrite (proj1 (proj2 (end_crlf_snoc l x)) Hx), <- app_assoc. reflexivity.
Qed.

Lemma read_line_snoc : forall s,
  match read_line s with
  | None => s = []
  | Some (l, r) => read_line (s ++ [cLF]) = Some (l, r ++ [cLF]) \/ (r = [] /\ ~ In cLF l /\ read_line (s ++ [cLF]) = Some (l ++ [cLF], []))
  end.
Proof.
  intros s. unfold read_line. destruct (read_slice s) as [[l r] b] eqn:E. destruct b.
  - destruct (read_slice_true s l r E) as (l0 & -> & H0 & ->). destruct (l0 ++ [cLF]) as [|c t] eqn:El; [destruct l0; discriminate|].
    cbv zeta iota. left. rewrite <- app_assoc. cbn [app]. rewrite (read_slice_lf l0 _ H0), El. reflexivity.
  - destruct (read_slice_false s l r E) as (-> & -> & H0). destruct s as [|c t]; [reflexivity|]. cbv zeta iota. right.
    rewrite (read_slice_lf (c :: t) [] H0). cbn [app]. split; [reflexivity|].
    pose proof (end_cr_lf (c :: t)) as [Hc E1]. specialize (Hc H0). cbn [app] in E1.
    rewrite (end_crlf_nolf _ Hc). split; [exact Hc|]. cbn [app]. rewrite E1. reflexivity.
Qed.

Lemma cut_snoc : forall c l, c <> cLF -> cut c (l ++ [cLF]) = match cut c l with Some (a, b) => Some (a, b ++ [cLF]) | None => None end.
Proof.
  intros c l Hc. induction l as [|d l IH]; cbn [app cut].
  - destruct (Ascii.eqb_spec cLF c); [congruence|reflexivity].
  - destruct (Ascii.eqb d c); [reflexivity|]. rewrite IH. destruct (cut c l) as [[a b]|]; reflexivity.
Qed.

Lemma chomp_nolf : forall l, ~ In cLF l -> chomp l = l.
Proof.
  induction l as [|c l IH]; intro H; [reflexivity|]. destruct l as [|d l].
  - cbn [chomp]. destruct (Ascii.eqb_spec c cLF) as [->|]; [exfalso; apply H; left; reflexivity|reflexivity].
  - change (chomp (c :: d :: l)) with (c :: chomp (d :: l)). rewrite IH; [reflexivity|]. intro C. apply H. right. exact C.
Qed.

Lemma only_nl_snoc : forall l, ~ In cLF l -> only_nl (l ++ [cLF]) = only_nl l.
Proof.
  intros [|c [|d l]] H; [reflexivity| |reflexivity]. cbn [app only_nl]. destruct (Ascii.eqb_spec c cLF) as [->|]; [|reflexivity].
  exfalso. apply H. left. reflexivity.
Qed.

Definition same_end (x y : res (list bytes * bytes)) : Prop :=
  match x with
  | Ok (f, r) => y = Ok (f, r ++ [cLF]) \/ (r = [] /\ y = Ok (f, []))
  | Panic => y = Panic
  | Fuel => True
  end.

Lemma rf_unterminated : forall cur cur' l, cut cQuote l = None -> rf (Some cur) l [] cur' = Panic.
Proof.
  intros cur fs l H. unfold rf. cbn [length read_fields]. rewrite H. destruct l as [|c t]; [reflexivity|].
  cbn [read_line read_slice length]. reflexivity.
Qed.

Lemma fields_snoc : forall n q line rest fs, (length line + length rest < n)%nat ->
  same_end (read_fields n q line rest fs) (rf q line (rest ++ [cLF]) fs) /\
  (rest = [] -> ~ In cLF line -> same_end (read_fields n q line rest fs) (rf q (line ++ [cLF]) [] fs)).
Proof.
  induction n as [|n IH]; intros q line rest fs Hn; [lia|].
  assert (IHl : forall q line rest fs m, (length line + length rest < n)%nat -> (length line + length (rest ++ [cLF]) < m)%nat ->
     same_end (read_fields n q line rest fs) (read_fields m q line (rest ++ [cLF]) fs)).
  { intros q0 l0 r0 fs0 m H1 H2. rewrite (rf_any m) by assumption. apply IH. assumption. }
  assert (IHr : forall q line fs m, (length line < n)%nat -> (S (length line) < m)%nat -> ~ In cLF line ->
     same_end (read_fields n q line [] fs) (read_fields m q (line ++ [cLF]) [] fs)).
  { intros q0 l0 fs0 m H1 H2 H3. rewrite (rf_any m) by (rewrite app_length; cbn; lia). apply (IH q0 l0 [] fs0); [cbn; lia|reflexivity|assumption]. }
  split.
  - unfold rf. cbn [read_fields].
    assert (L : length (rest ++ [cLF]) = S (length rest)) by (rewrite app_length; cbn; lia).
    destruct q as [cur|].
    + destruct (cut cQuote line) as [[a l']|] eqn:Ec.
      * apply cut_app in Ec. subst line. rewrite app_length in *. cbn [length] in *. destruct l' as [|c t]; [left; reflexivity|]. cbn [length] in *.
        destruct (Ascii.eqb c cQuote); [apply IHl; lia|]. destruct (Ascii.eqb c cComma); [apply IHl; lia|]. destruct (only_nl (c :: t)); [left; reflexivity|reflexivity].
      * destruct line as [|c t]; [reflexivity|]. pose proof (read_line_snoc rest) as S. destruct (read_line rest) as [[l' r']|] eqn:Er.
        -- apply read_line_len in Er. destruct S as [S|(-> & Hl & S)]; rewrite S.
           ++ apply IHl; [cbn [length] in *; lia|]. rewrite app_length. cbn [length] in *. lia.
           ++ apply IHr; [cbn [length] in *; lia| |exact Hl]. cbn [length] in *. lia.
        -- subst rest. cbn [app]. change (read_line [cLF]) with (Some ([cLF], @nil ascii)). cbv iota.
           rewrite (fields_enough n (Datatypes.S n)) by (cbn [length] in *; lia). cbn [read_fields cut].
           rewrite rf_any by (cbn; lia). apply rf_unterminated. reflexivity.
    + destruct line as [|c t]; [left; reflexivity|]. cbn [length] in *. destruct (Ascii.eqb c cQuote); [apply IHl; lia|].
      destruct (cut cComma (c :: t)) as [[f l']|] eqn:Ec; [|destruct (existsb _ (chomp (c :: t))); [reflexivity|left; reflexivity]].
      apply cut_app in Ec. apply (f_equal (@length ascii)) in Ec. rewrite app_length in Ec. cbn [length] in Ec.
      destruct (existsb _ f); [reflexivity|]. apply IHl; lia.
  - intros -> Hl. unfold rf. cbn [read_fields].
    assert (L : length (line ++ [cLF]) = S (length line)) by (rewrite app_length; cbn; lia). rewrite L. cbn [length].
    destruct q as [cur|].
    + rewrite cut_snoc by discriminate. destruct (cut cQuote line) as [[a l']|] eqn:Ec.
      * apply cut_app in Ec. subst line. rewrite app_length in *. cbn [length] in *.
        assert (Hl' : ~ In cLF l') by (intro C; apply Hl; apply in_or_app; right; right; exact C).
        destruct l' as [|c t]; [right; split; reflexivity|]. cbn [length app] in *.
        assert (Ht : ~ In cLF t) by (intro C; apply Hl'; right; exact C).
        destruct (Ascii.eqb c cQuote); [apply IHr; [lia|lia|exact Ht]|]. destruct (Ascii.eqb c cComma); [apply IHr; [lia|lia|exact Ht]|].
        change (c :: t ++ [cLF]) with ((c :: t) ++ [cLF]). rewrite (only_nl_snoc _ Hl').
        destruct (only_nl (c :: t)); [right; split; reflexivity|reflexivity].
      * change (read_line []) with (@None (bytes * bytes)). cbv iota.
        assert (P : forall m x, (length x = 0)%nat -> (0 < m)%nat -> read_fields m (Some x) [] [] fs = Panic) by (intros [|m] x _ Hm; [lia|reflexivity]).
        destruct line as [|c t]; [reflexivity|]. cbn [app].
        destruct n as [|n]; [cbn [length] in Hn; lia|]. reflexivity.
    + destruct line as [|c t]; [right; split; reflexivity|]. cbn [length app] in *.
      assert (Ht : ~ In cLF t) by (intro C; apply Hl; right; exact C).
      destruct (Ascii.eqb c cQuote); [apply IHr; [lia|lia|exact Ht]|].
      change (c :: t ++ [cLF]) with ((c :: t) ++ [cLF]). rewrite cut_snoc by discriminate.
      destruct (cut cComma (c :: t)) as [[f l']|] eqn:Ec.
      * apply cut_app in Ec. assert (Hl' : ~ In cLF l') by (intro C; apply Hl; rewrite Ec; apply in_or_app; right; right; exact C).
        apply (f_equal (@length ascii)) in Ec. rewrite app_length in Ec. cbn [length] in Ec.
        destruct (existsb _ f); [reflexivity|]. apply IHr; [lia|lia|exact Hl'].
      * rewrite plain_chomp, (chomp_nolf _ Hl). destruct (existsb _ (c :: t)); [reflexivity|right; split; reflexivity].
Qed.

Lemma records_S : forall n s, read_records (S n) s =
  match read_line s with
  | None => Ok []
  | Some (line, rest) =>
      if only_nl line then read_records n rest
      else do (record, rest) <- read_fields (S (length line + length rest)) None line rest [];
           do records <- read_records n rest;
           Ok (record :: records)
  end.
Proof. reflexivity. Qed.

Lemma records_snoc : forall n s, (length s < n)%nat -> read_records (S n) (s ++ [cLF]) = read_records n s.
Proof.
  induction n as [|n IH]; intros s Hn; [lia|].
  assert (N : forall m, (0 < m)%nat -> read_records m [] = Ok []) by (intros [|m] Hm; [lia|reflexivity]).
  rewrite (records_S (S n)), (records_S n). pose proof (read_line_snoc s) as S. pose proof (read_line_len s) as Ll. destruct (read_line s) as [[l r]|].
  - specialize (Ll l r eq_refl). destruct S as [S|(-> & Hl & S)]; rewrite S.
    + destruct (only_nl l); [apply IH; lia|].
      pose proof (proj1 (fields_snoc (Datatypes.S (length l + length r)) None l r [] ltac:(lia))) as H. unfold rf in H.
      pose proof (fields_end (Datatypes.S (length l + length r)) None l r [] ltac:(lia)) as Le.
      destruct (read_fields (Datatypes.S (length l + length r)) None l r []) as [[f r']| |]; [|rewrite H; reflexivity|contradiction].
      destruct H as [H|(-> & H)]; rewrite H; cbn [bind]; [rewrite IH by lia; reflexivity|].
      rewrite !N by lia. reflexivity.
    + rewrite (only_nl_snoc l Hl). destruct (only_nl l); [rewrite !N by lia; reflexivity|].
      pose proof (proj2 (fields_snoc (Datatypes.S (length l + 0)) None l [] [] ltac:(cbn; lia)) eq_refl Hl) as H. unfold rf in H.
      pose proof (fields_end (Datatypes.S (length l + 0)) None l [] [] ltac:(cbn; lia)) as Le. cbn [length] in *.
      destruct (read_fields (Datatypes.S (length l + 0)) None l [] []) as [[f r']| |]; [|rewrite H; reflexivity|contradiction].
      assert (r' = []) by (destruct r'; [reflexivity|cbn in Le; lia]). subst r'.
      destruct H as [H|(_ & H)]; rewrite H; cbn [bind app]; [|rewrite !N by lia; reflexivity].
      destruct n as [|n]; [lia|]. reflexivity.
  - subst s. reflexivity.
Qed.

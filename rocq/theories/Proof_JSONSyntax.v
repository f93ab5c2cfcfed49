(** Lemmas for C106: the reader accepts exactly the grammar. *)
From Coq Require Import String Ascii NArith List Lia.
From Verif Require Import Base Num Model_CSVBytes Model_JSON Spec_JSON Spec_JSONText Spec_JSONSyntax Proof_JSON Proof_JSON2 Proof_JSONText Props_JSONText.
Import ListNotations.
Open Scope N_scope.
Open Scope list_scope.

(** ** Characters *)

Lemma code_asc : forall n, n < 256 -> N_of_ascii (ascii_of_N n) = n.
Proof. intros n H. apply N_ascii_embedding. exact H. Qed.

Lemma split64 : forall r, exists q m, r = q * 64 + m /\ m < 64.
Proof. intro r. exists (r / 64), (r mod 64). pose proof (N.div_mod' r 64). pose proof (N.mod_lt r 64 ltac:(discriminate)). lia. Qed.

Lemma encode_char : forall r, r < 1114112 -> r < 55296 \/ 57344 <= r -> utf8_char (encode_rune r) /\ scalar (encode_rune r) = r.
Proof.
  intros r H1 H2. unfold encode_rune. cbv zeta.
  destruct (N.ltb_spec r 128) as [A|A].
  { split; [constructor; unfold between; rewrite code_asc by lia; lia|]. unfold scalar. cbn [map]. apply code_asc. lia. }
  destruct (split64 r) as (q & m & -> & M). destruct (d64 q m M) as [E1 E2].
  destruct (N.ltb_spec (q * 64 + m) 2048) as [B|B].
  { rewrite E1, E2. split.
    - apply U2; unfold tail_byte, between; rewrite code_asc by lia; lia.
    - unfold scalar. cbn [map]. rewrite !code_asc by lia. lia. }
  destruct (split64 q) as (p & k & -> & K). destruct (d64 p k K) as [E3 E4].
  destruct (N.ltb_spec ((p * 64 + k) * 64 + m) 65536) as [C|C].
  { change 4096 with (64 * 64). rewrite <- N.div_div by discriminate. rewrite E1, E2, E3, E4. split.
    - destruct (N.eqb_spec p 0) as [->|P0]; [apply U3a; unfold tail_byte, between; rewrite code_asc by lia; lia|].
      destruct (N.eqb_spec p 13) as [->|P1]; [apply U3c; unfold tail_byte, between; rewrite code_asc by lia; lia|].
      apply U3b; [destruct (N.ltb_spec p 13); [left|right]| |]; unfold tail_byte, between; rewrite code_asc by lia; lia.
    - unfold scalar. cbn [map]. rewrite !code_asc by lia. lia. }
  destruct (split64 p) as (x & h & -> & Hh). destruct (d64 x h Hh) as [E5 E6].
  change 262144 with (64 * (64 * 64)). change 4096 with (64 * 64). rewrite <- !N.div_div by discriminate. rewrite E1, E2, E3, E4, E5, E6. split.
  - destruct (N.eqb_spec x 0) as [->|P0]; [apply U4a; unfold tail_byte, between; rewrite code_asc by lia; lia|].
    destruct (N.eqb_spec x 4) as [->|P1]; [apply U4c; unfold tail_byte, between; rewrite code_asc by lia; lia|].
    apply U4b; unfold tail_byte, between; rewrite code_asc by lia; lia.
  - unfold scalar. cbn [map]. rewrite !code_asc by lia. lia.
Qed.

Lemma char_high : forall b, utf8_char b -> (exists a, b = [a] /\ N_of_ascii a < 128) \/ Forall (fun c => 128 <= N_of_ascii c) b.
Proof.
  intros b H. destruct H as [a A|a b A B|a b c A B C|a b c A B C|a b c A B C|a b c d A B C D|a b c d A B C D|a b c d A B C D];
    unfold tail_byte, between in *; [left; exists a; split; [reflexivity|lia]|..]; right; repeat constructor; lia.
Qed.

Lemma high_plain : forall c, 128 <= N_of_ascii c -> 32 <= N_of_ascii c /\ c <> """"%char /\ c <> "\"%char.
Proof. intros c H. split; [lia|]. split; intros ->; vm_compute in H; apply H; reflexivity. Qed.

Lemma high_syntax : forall u s, Forall (fun c => 128 <= N_of_ascii c) u -> string_syntax s -> string_syntax (u ++ s).
Proof. intros u s H K. induction H as [|c u Hc Hu IH]; [exact K|]. destruct (high_plain c Hc) as (A & B & C). cbn [app]. constructor; assumption. Qed.

Lemma hex_escape : forall s r t, getu4 s = Some (r, t) -> exists u, s = u ++ t /\ escape ("\"%char :: "u"%char :: u) r /\ r < 65536.
Proof.
  intros s r t H. destruct s as [|a [|b [|c [|d s]]]]; try discriminate. cbn [getu4] in H.
  destruct (hex_val a) as [va|] eqn:Ea; [|discriminate]. destruct (hex_val b) as [vb|] eqn:Eb; [|discriminate].
  destruct (hex_val c) as [vc|] eqn:Ec; [|discriminate]. destruct (hex_val d) as [vd|] eqn:Ed; [|discriminate]. injection H as <- <-.
  apply hex_char in Ea, Eb, Ec, Ed. exists [a; b; c; d]. split; [reflexivity|]. split; [constructor; assumption|].
  unfold hexadecimal, between in *. lia.
Qed.

Lemma unescape_short : forall c x, unescape c = Some x -> short c (N_of_ascii x).
Proof.
  intros c x H. unfold unescape in H. unfold short.
  destruct (Ascii.eqb_spec c cQuote) as [->|_]; [injection H as <-; cbn; tauto|]. destruct (Ascii.eqb_spec c cBack) as [->|_]; [injection H as <-; cbn; tauto|].
  cbn [orb] in H. destruct (Ascii.eqb_spec c "/"%char) as [->|_]; [injection H as <-; cbn; tauto|].
  destruct (Ascii.eqb_spec c "b"%char) as [->|_]; [injection H as <-; cbn; tauto|]. destruct (Ascii.eqb_spec c "f"%char) as [->|_]; [injection H as <-; cbn; tauto|].
  destruct (Ascii.eqb_spec c "n"%char) as [->|_]; [injection H as <-; cbn; tauto|]. destruct (Ascii.eqb_spec c "r"%char) as [->|_]; [injection H as <-; cbn; tauto|].
  destruct (Ascii.eqb_spec c "t"%char) as [->|_]; [injection H as <-; cbn; tauto|]. discriminate.
Qed.

Lemma prepend_inv : forall x r b t, prepend x r = Ok (b, t) -> exists b', r = Ok (b', t) /\ b = x ++ b'.
Proof. intros x r b t H. unfold prepend in H. destruct r as [[b' t']| |]; try discriminate. cbn [bind] in H. injection H as <- <-. eauto. Qed.

Lemma clean_app : forall x b, clean_string (x ++ b) -> clean_string b.
Proof. intros x b H p q ->. apply (H (x ++ p) q). rewrite <- app_assoc. reflexivity. Qed.

Lemma clean_not : forall b, ~ clean_string (replacement ++ b).
Proof. intros b H. apply (H [] b). reflexivity. Qed.

Lemma read_str_sound : forall f s b r, read_str f s = Ok (b, r) -> exists k, s = k ++ cQuote :: r /\ string_syntax k /\ (clean_string b -> string_text k b).
Proof.
  induction f as [|f IH]; intros s b r H; [discriminate|]. cbn [read_str] in H. destruct s as [|c t]; [discriminate|].
  destruct (Ascii.eqb_spec c cQuote) as [->|NQ]; [injection H as <- <-; exists []; repeat split; constructor|].
  destruct (Ascii.eqb_spec c cBack) as [->|NB].
  - destruct t as [|e t']; [discriminate|]. destruct (Ascii.eqb_spec e "u"%char) as [->|NU].
    + destruct (getu4 t') as [[n t2]|] eqn:G; [|discriminate]. destruct (hex_escape _ _ _ G) as (u & -> & E & L).
      destruct (N.leb_spec 55296 n) as [L1|L1]; [destruct (N.ltb_spec n 57344) as [L2|L2]|]; cbn [andb] in H.
      * destruct (second_half n t2) as [[q t3]|] eqn:S2.
        -- unfold second_half in S2. destruct t2 as [|x [|y t2]]; try discriminate.
           destruct (Ascii.eqb_spec x cBack) as [->|]; [|discriminate]. destruct (Ascii.eqb_spec y "u"%char) as [->|]; [|discriminate]. cbn [andb] in S2.
           destruct (getu4 t2) as [[n2 t4]|] eqn:G2; [|discriminate]. destruct (hex_escape _ _ _ G2) as (u2 & -> & E2 & L4).
           destruct (N.ltb_spec n 56320) as [L5|]; [|discriminate]. destruct (N.leb_spec 56320 n2) as [L6|]; [|discriminate]. destruct (N.ltb_spec n2 57344) as [L7|]; [|discriminate].
           cbn [andb] in S2. injection S2 as <- <-. apply prepend_inv in H. destruct H as (b' & H & ->). destruct (IH _ _ _ H) as (k & -> & K1 & K2).
           exists (("\"%char :: "u"%char :: u) ++ ("\"%char :: "u"%char :: u2) ++ k). split; [cbn [app]; rewrite <- app_assoc; cbn [app]; rewrite <- app_assoc; reflexivity|].
           split; [apply (S_hex _ _ _ E), (S_hex _ _ _ E2), K1|]. intro Cl. rewrite app_assoc. destruct (encode_char ((n - 55296) * 1024 + (n2 - 56320) + 65536)) as [U Sc]; [lia|lia|].
           constructor; [apply (T_pair _ _ n n2); try assumption; try lia|apply K2, (clean_app _ _ Cl)]. 
        -- apply prepend_inv in H. destruct H as (b' & H & ->). destruct (IH _ _ _ H) as (k & -> & K1 & K2).
           exists (("\"%char :: "u"%char :: u) ++ k). split; [cbn [app]; rewrite <- app_assoc; reflexivity|]. split; [apply (S_hex _ _ _ E), K1|].
           intro Cl. destruct (clean_not _ Cl).
      * apply prepend_inv in H. destruct H as (b' & H & ->). destruct (IH _ _ _ H) as (k & -> & K1 & K2).
        exists (("\"%char :: "u"%char :: u) ++ k). split; [cbn [app]; rewrite <- app_assoc; reflexivity|]. split; [apply (S_hex _ _ _ E), K1|].
        intro Cl. destruct (encode_char n) as [U Sc]; [lia|lia|]. constructor; [apply T_hex; [exact U|rewrite Sc; exact E]|apply K2, (clean_app _ _ Cl)].
      * apply prepend_inv in H. destruct H as (b' & H & ->). destruct (IH _ _ _ H) as (k & -> & K1 & K2).
        exists (("\"%char :: "u"%char :: u) ++ k). split; [cbn [app]; rewrite <- app_assoc; reflexivity|]. split; [apply (S_hex _ _ _ E), K1|].
        intro Cl. destruct (encode_char n) as [U Sc]; [lia|lia|]. constructor; [apply T_hex; [exact U|rewrite Sc; exact E]|apply K2, (clean_app _ _ Cl)].
    + destruct (unescape e) as [x|] eqn:U; [|discriminate]. apply unescape_short in U. apply prepend_inv in H. destruct H as (b' & H & ->).
      destruct (IH _ _ _ H) as (k & -> & K1 & K2). exists (["\"%char; e] ++ k). split; [reflexivity|]. split; [apply (S_short _ _ _ U), K1|].
      intro Cl. constructor; [apply T_short; exact U|apply K2, (clean_app _ _ Cl)].
  - destruct (N.ltb_spec (N_of_ascii c) 32) as [|L]; [discriminate|]. destruct (rune_len (c :: t)) as [|n] eqn:R.
    + apply prepend_inv in H. destruct H as (b' & H & ->). destruct (IH _ _ _ H) as (k & -> & K1 & K2). exists (c :: k). split; [reflexivity|].
      split; [constructor; assumption|]. intro Cl. destruct (clean_not _ Cl).
    + destruct (rune_len_char _ _ R ltac:(discriminate)) as [U Ln]. apply prepend_inv in H. destruct H as (b' & H & ->). destruct (IH _ _ _ H) as (k & E & K1 & K2).
      exists (firstn (S n) (c :: t) ++ k). split; [rewrite <- app_assoc, <- E; symmetry; apply firstn_skipn|].
      destruct (char_high _ U) as [(a & Ea & La)|Hh].
      * rewrite Ea in *. assert (a = c) by (cbn [firstn] in Ea; congruence). subst a. split; [cbn [app]; constructor; assumption|].
        intro Cl. constructor; [|apply K2, (clean_app _ _ Cl)]. apply T_plain; [exact U|exact L| |]; unfold scalar; cbn [map]; intro Q; [apply NQ|apply NB]; rewrite <- (ascii_N_embedding c), Q; reflexivity.
      * split; [apply high_syntax; assumption|]. intro Cl. constructor; [|apply K2, (clean_app _ _ Cl)]. pose proof (scalar_ranges _ U) as Rg. pose proof (char_length _ U) as Lb.
        assert (G : 128 <= scalar (firstn (S n) (c :: t))).
        { destruct (firstn (S n) (c :: t)) as [|a [|a2 [|a3 [|a4 l]]]]; cbn [length] in *; try lia. inversion Hh; subst. exact H2. }
        apply T_plain; [exact U|lia|lia|lia].
Qed.

(** ** Numbers and white space *)

Lemma is_digit_inv : forall c, is_digit c = true -> digit c.
Proof. intros c H. unfold is_digit in H. apply andb_prop in H. destruct H as [A B]. apply N.leb_le in A, B. split; assumption. Qed.

Lemma span_digit : forall s d r, span_digits s = (d, r) -> Forall digit d.
Proof.
  induction s as [|c s IH]; intros d r H; cbn [span_digits] in H; [injection H as <- _; constructor|].
  destruct (is_digit c) eqn:E; [|injection H as <- _; constructor]. destruct (span_digits s) as [d' r']. injection H as <- _. constructor; [apply is_digit_inv, E|eapply IH; reflexivity].
Qed.

Lemma digits1_some : forall s d r, digits1 s = Some (d, r) -> some_digits d.
Proof.
  intros s d r H. split; [apply (digits1_app s d r H)|]. unfold digits1 in H. destruct (span_digits s) as [d' r'] eqn:E. apply span_digit in E.
  destruct d' as [|x d']; [discriminate|]. injection H as <- _. exact E.
Qed.

Lemma read_num_sound : forall s t r, read_num s = Some (t, r) -> s = t ++ r /\ json_number t.
Proof.
  intros s t r H. split; [apply (num_app s t r H)|]. destruct (num_parts _ _ _ H) as (s1 & s2 & s3 & a & b & c & e & E1 & E2 & E3 & E4 & ->).
  exists a, b, c, e. split; [reflexivity|]. split; [|split; [|split]].
  - destruct s as [|x s]; cbn [read_sign] in E1; [injection E1 as <- _; auto|]. destruct (Ascii.eqb_spec x "-"%char) as [->|]; injection E1 as <- _; auto.
  - destruct s1 as [|x s1]; cbn [read_int] in E2; [discriminate|]. destruct (Ascii.eqb_spec x "0"%char) as [->|D]; [injection E2 as <- _; auto|].
    right. split; [apply (digits1_some _ _ _ E2)|]. destruct (digits1_app _ _ _ E2) as [A B]. destruct b as [|y b]; [congruence|]. cbn [hd]. cbn [app] in A. congruence.
  - destruct s2 as [|x s2]; cbn [read_frac] in E3; [injection E3 as <- _; auto|]. destruct (Ascii.eqb_spec x "."%char) as [->|]; [|injection E3 as <- _; auto].
    destruct (digits1 s2) as [[d u]|] eqn:D; [|discriminate]. cbn in E3. injection E3 as <- _. right. exists d. split; [reflexivity|apply (digits1_some _ _ _ D)].
  - destruct s3 as [|x s3]; cbn [read_exp] in E4; [injection E4 as <- _; auto|].
    destruct (Ascii.eqb_spec x "e"%char) as [Hx|Hx]; [|destruct (Ascii.eqb_spec x "E"%char) as [Hx2|Hx2]]; cbn [orb] in E4; [| |injection E4 as <- _; auto];
      (destruct s3 as [|y s3]; [discriminate|]; destruct (Ascii.eqb_spec y "+"%char) as [Hy|Hy]; [|destruct (Ascii.eqb_spec y "-"%char) as [Hy2|Hy2]]; cbn [orb] in E4;
       [destruct (digits1 s3) as [[d u]|] eqn:D; [|discriminate]; cbn in E4; injection E4 as <- _; right; exists x, [y], d; subst; repeat split; auto; apply (digits1_some _ _ _ D)
       |destruct (digits1 s3) as [[d u]|] eqn:D; [|discriminate]; cbn in E4; injection E4 as <- _; right; exists x, [y], d; subst; repeat split; auto; apply (digits1_some _ _ _ D)
       |destruct (digits1 (y :: s3)) as [[d u]|] eqn:D; [|discriminate]; cbn in E4; injection E4 as <- _; right; exists x, [], d; subst; repeat split; auto; apply (digits1_some _ _ _ D)]).
Qed.

Lemma skip_sound : forall s, exists w, s = w ++ skip_space s /\ white w.
Proof.
  induction s as [|c s (w & IH & W)]; [exists []; split; [reflexivity|constructor]|]. cbn [skip_space]. destruct (is_space c) eqn:E.
  - exists (c :: w). split; [cbn [app]; congruence|]. constructor; [|exact W]. unfold is_space in E. cbv zeta in E. cbn [In].
    repeat (apply orb_prop in E; destruct E as [E|E]); apply N.eqb_eq in E; auto 6.
  - exists []. split; [reflexivity|constructor].
Qed.

Lemma expect_sound : forall w s r, expect w s = Some r -> s = w ++ r.
Proof.
  induction w as [|a w IH]; intros s r H; cbn [expect] in H; [injection H as <-; reflexivity|]. destruct s as [|b s]; [discriminate|].
  destruct (Ascii.eqb_spec a b) as [->|]; [|discriminate]. cbn [app]. f_equal. apply IH. exact H.
Qed.

(** ** Documents: what is accepted is in the grammar *)

Lemma white_app : forall a b, white a -> white b -> white (a ++ b).
Proof. intros a b A B. apply Forall_app. auto. Qed.

Lemma elements_pre : forall w t, white w -> elements_syntax t -> elements_syntax (w ++ t).
Proof. intros w t W H. destruct H as [a t b A|a t b u A]; rewrite app_assoc; [apply S_last|apply S_more]; auto using white_app. Qed.
Lemma members_pre : forall w t, white w -> members_syntax t -> members_syntax (w ++ t).
Proof. intros w t W H. destruct H as [a k b c t d A|a k b c t d u A]; rewrite app_assoc; [apply S_last_member|apply S_more_members]; auto using white_app. Qed.
Lemma elements_pre' : forall w t l, white w -> elements_text t l -> elements_text (w ++ t) l.
Proof. intros w t l W H. destruct H as [a t b v A|a t b v u l A]; rewrite app_assoc; [apply T_last|apply T_more]; auto using white_app. Qed.
Lemma members_pre' : forall w t l, white w -> members_text t l -> members_text (w ++ t) l.
Proof. intros w t l W H. destruct H as [a k key b c t d v A|a k key b c t d v u l A]; rewrite app_assoc; [apply T_last_member|apply T_more_members]; auto using white_app. Qed.

Definition cleans (l : list json) : Prop := fold_right and True (map clean l).
Definition clean_members (l : list (bytes * json)) : Prop := fold_right and True (map (fun m => clean_string (fst m) /\ clean (snd m)) l).

Lemma read_sound : forall f,
  (forall s v r, read_value f s = Ok (v, r) -> exists a t, s = a ++ t ++ r /\ white a /\ value_syntax t /\ (clean v -> value_text t v)) /\
  (forall s l r, read_elements f s = Ok (l, r) -> exists t, s = t ++ "]"%char :: r /\ elements_syntax t /\ (cleans l -> elements_text t l)) /\
  (forall s l r, read_members f s = Ok (l, r) -> exists t, s = t ++ "}"%char :: r /\ members_syntax t /\ (clean_members l -> members_text t l)).
Proof.
  induction f as [|f (IV & IE & IM)]; [repeat split; discriminate|]. split; [|split]; intros s v r H.
  - cbn [read_value] in H. destruct (skip_sound s) as (a & E & W). destruct (skip_space s) as [|c t]; [discriminate|]. rewrite E. clear E s. exists a.
    destruct (Ascii.eqb_spec c "{"%char) as [->|_].
    { destruct (skip_sound t) as (w & E & Ww). destruct (skip_space t) as [|d t']; [discriminate|]. rewrite E. clear E t.
      destruct (Ascii.eqb_spec d "}"%char) as [->|_].
      - injection H as <- <-. exists ("{"%char :: w ++ ["}"%char]). split; [cbn [app]; rewrite <- app_assoc; reflexivity|]. split; [exact W|]. split; [constructor; exact Ww|]. intros _. constructor. exact Ww.
      - apply bind_ok in H. destruct H as ([l r'] & H & Q). injection Q as <- <-. destruct (IM _ _ _ H) as (t & -> & S1 & S2).
        exists ("{"%char :: (w ++ t) ++ ["}"%char]). split; [cbn [app]; rewrite <- !app_assoc; reflexivity|]. split; [exact W|].
        split; [apply S_object, members_pre; assumption|]. intro Cl. apply T_object, members_pre'; [exact Ww|]. apply S2, Cl. }
    destruct (Ascii.eqb_spec c "["%char) as [->|_].
    { destruct (skip_sound t) as (w & E & Ww). destruct (skip_space t) as [|d t']; [discriminate|]. rewrite E. clear E t.
      destruct (Ascii.eqb_spec d "]"%char) as [->|_].
      - injection H as <- <-. exists ("["%char :: w ++ ["]"%char]). split; [cbn [app]; rewrite <- app_assoc; reflexivity|]. split; [exact W|]. split; [constructor; exact Ww|]. intros _. constructor. exact Ww.
      - apply bind_ok in H. destruct H as ([l r'] & H & Q). injection Q as <- <-. destruct (IE _ _ _ H) as (t & -> & S1 & S2).
        exists ("["%char :: (w ++ t) ++ ["]"%char]). split; [cbn [app]; rewrite <- !app_assoc; reflexivity|]. split; [exact W|].
        split; [apply S_array, elements_pre; assumption|]. intro Cl. apply T_array, elements_pre'; [exact Ww|]. apply S2, Cl. }
    destruct (Ascii.eqb_spec c cQuote) as [->|_].
    { apply bind_ok in H. destruct H as ([b r'] & H & Q). injection Q as <- <-. destruct (read_str_sound _ _ _ _ H) as (k & -> & S1 & S2).
      exists (""""%char :: k ++ [""""%char]). split; [cbn [app]; rewrite <- app_assoc; reflexivity|]. split; [exact W|]. split; [constructor; exact S1|].
      intro Cl. constructor. apply S2, Cl. }
    assert (WD : forall w u, In w ["null"; "true"; "false"]%string -> value_text (text w) u -> read_word w u (c :: t) = Ok (v, r) ->
      exists t0, a ++ c :: t = a ++ t0 ++ r /\ white a /\ value_syntax t0 /\ (clean v -> value_text t0 v)).
    { intros w u Hw Hu R. unfold read_word in R. destruct (expect (text w) (c :: t)) as [r'|] eqn:E; [|discriminate]. injection R as <- <-. apply expect_sound in E. rewrite E.
      exists (text w). split; [reflexivity|]. split; [exact W|]. split; [constructor; exact Hw|]. intros _. exact Hu. }
    destruct (Ascii.eqb c "n"); [apply (WD "null"%string JNull ltac:(cbn; tauto) T_null H)|]. destruct (Ascii.eqb c "t"); [apply (WD "true"%string (JBool true) ltac:(cbn; tauto) T_true H)|].
    destruct (Ascii.eqb c "f"); [apply (WD "false"%string (JBool false) ltac:(cbn; tauto) T_false H)|].
    destruct (read_num (c :: t)) as [[b r']|] eqn:E; [|discriminate]. injection H as <- <-. apply read_num_sound in E. destruct E as [-> E].
    exists b. split; [reflexivity|]. split; [exact W|]. split; [constructor; exact E|]. intros _. constructor. exact E.
  - cbn [read_elements] in H. apply bind_ok in H. destruct H as ([u r1] & H & Q). destruct (IV _ _ _ H) as (a & t & -> & W & S1 & S2).
    destruct (skip_sound r1) as (b & E & Wb). destruct (skip_space r1) as [|c t1]; [discriminate|]. subst r1.
    destruct (Ascii.eqb_spec c "]"%char) as [->|_].
    + injection Q as <- <-. exists (a ++ t ++ b). split; [rewrite <- !app_assoc; reflexivity|]. split; [apply S_last; assumption|].
      intros [Cl _]. apply T_last; auto.
    + destruct (Ascii.eqb_spec c cComma) as [->|_]; [|discriminate]. apply bind_ok in Q. destruct Q as ([l r2] & Q & Q2). injection Q2 as <- <-.
      destruct (IE _ _ _ Q) as (t2 & -> & S3 & S4). exists (a ++ t ++ b ++ ","%char :: t2). split; [rewrite <- !app_assoc; reflexivity|].
      split; [apply S_more; assumption|]. intros [C1 C2]. apply T_more; auto.
  - cbn [read_members] in H. destruct (skip_sound s) as (a & E & W). destruct (skip_space s) as [|c t]; [discriminate|]. subst s.
    destruct (Ascii.eqb_spec c cQuote) as [->|_]; [|discriminate]. apply bind_ok in H. destruct H as ([k r0] & H & Q).
    destruct (read_str_sound _ _ _ _ H) as (k' & -> & K1 & K2). clear H. destruct (skip_sound r0) as (b & E & Wb). destruct (skip_space r0) as [|c t1]; [discriminate|]. subst r0.
    destruct (Ascii.eqb_spec c ":"%char) as [->|_]; [|discriminate]. apply bind_ok in Q. destruct Q as ([u r1] & H & Q). destruct (IV _ _ _ H) as (c & t & -> & Wc & S1 & S2). clear H.
    destruct (skip_sound r1) as (d & E & Wd). destruct (skip_space r1) as [|x t1]; [discriminate|]. subst r1.
    destruct (Ascii.eqb_spec x "}"%char) as [->|_].
    + injection Q as <- <-. exists (a ++ """"%char :: k' ++ """"%char :: b ++ ":"%char :: c ++ t ++ d).
      split; [repeat (rewrite <- !app_assoc; cbn [app]); reflexivity|]. split; [apply S_last_member; assumption|]. intros [[C1 C2] _]. apply T_last_member; auto.
    + destruct (Ascii.eqb_spec x cComma) as [->|_]; [|discriminate]. apply bind_ok in Q. destruct Q as ([l r2] & Q & Q2). injection Q2 as <- <-.
      destruct (IM _ _ _ Q) as (t2 & -> & S3 & S4). exists (a ++ """"%char :: k' ++ """"%char :: b ++ ":"%char :: c ++ t ++ d ++ ","%char :: t2).
      split; [repeat (rewrite <- !app_assoc; cbn [app]); reflexivity|]. split; [apply S_more_members; assumption|]. intros [[C1 C2] C3]. apply T_more_members; auto.
Qed.

Lemma parse_sound : forall s v, parse_json s = Ok v -> document_syntax s /\ (clean v -> document_text s v).
Proof.
  intros s v H. unfold parse_json in H. apply bind_ok in H. destruct H as ([u r] & H & Q). destruct (proj1 (read_sound _) _ _ _ H) as (a & t & -> & W & S1 & S2).
  destruct (skip_sound r) as (b & E & Wb). destruct (skip_space r); [|discriminate]. injection Q as <-. rewrite app_nil_r in E. subst r.
  split; [exists a, t, b; auto|]. intro Cl. exists a, t, b. auto.
Qed.

(** ** The grammar is accepted *)

Lemma syntax_high : forall c s, 128 <= N_of_ascii c -> string_syntax (c :: s) -> string_syntax s.
Proof.
  intros c s H K. remember (c :: s) as l eqn:E. destruct K as [|c' s' A B C K|c' n s' A K|t n s' A K].
  - discriminate.
  - injection E as _ <-. exact K.
  - injection E as <- _. exfalso. vm_compute in H. apply H. reflexivity.
  - destruct A. cbn [app] in E. injection E as <- _. exfalso. vm_compute in H. apply H. reflexivity.
Qed.

Lemma syntax_skip : forall n s, string_syntax s -> Forall (fun c => 128 <= N_of_ascii c) (firstn n s) -> string_syntax (skipn n s).
Proof.
  induction n as [|n IH]; intros s K F; [exact K|]. destruct s as [|c s]; [exact K|]. cbn [firstn skipn] in *. inversion F as [|? ? F1 F2]; subst.
  apply IH; [apply (syntax_high c s F1 K)|exact F2].
Qed.

Lemma read_str_complete : forall n k, (length k <= n)%nat -> string_syntax k -> forall f rest, (length k < f)%nat ->
  exists key, read_str f (k ++ cQuote :: rest) = Ok (key, rest).
Proof.
  assert (PR : forall x f s rest, (exists key, read_str f s = Ok (key, rest)) -> exists key, prepend x (read_str f s) = Ok (key, rest)).
  { intros x f s rest (key & ->). eexists. reflexivity. }
  induction n as [|n IH]; intros k Ln K f rest Lf; (destruct f as [|f]; [lia|]).
  { destruct k; [|cbn in Ln; lia]. eexists. reflexivity. }
  destruct K as [|c s A B C K|c m s A K|t m s A K].
  - eexists. reflexivity.
  - cbn [app length read_str] in *. apply Ascii.eqb_neq in B, C. change (Ascii.eqb c cQuote) with (Ascii.eqb c """"%char). change (Ascii.eqb c cBack) with (Ascii.eqb c "\"%char). rewrite B, C.
    destruct (N.ltb_spec (N_of_ascii c) 32); [lia|]. destruct (rune_len (c :: s ++ cQuote :: rest)) as [|j] eqn:R.
    + apply PR, IH; [lia|exact K|lia].
    + destruct (rune_len_char _ _ R ltac:(discriminate)) as [U Lj]. destruct (char_high _ U) as [(a & Ea & _)|Hh].
      * assert (j = 0)%nat. { apply (f_equal (@length _)) in Ea. rewrite firstn_length in Ea. cbn [length] in *. lia. } subst j. cbn [skipn]. apply PR, IH; [lia|exact K|lia].
      * cbn [skipn]. cbn [firstn] in Hh. inversion Hh as [|? ? _ H2]; subst.
        assert (Lq : (j <= length s)%nat).
        { destruct (Nat.le_gt_cases j (length s)) as [Q|Q]; [exact Q|]. exfalso. rewrite firstn_app in H2. apply Forall_app in H2. destruct H2 as [_ H2].
          destruct (j - length s)%nat as [|i] eqn:Ei; [lia|]. cbn [firstn] in H2. inversion H2 as [|? ? H3 _]; subst. vm_compute in H3. apply H3. reflexivity. }
        rewrite skipn_app. replace (j - length s)%nat with 0%nat by lia. cbn [skipn].
        rewrite firstn_app in H2. apply Forall_app in H2. destruct H2 as [H2 _]. pose proof (skipn_length j s) as Sl.
        apply PR, IH; [lia|apply syntax_skip; assumption|lia].
  - cbn [app length] in *. assert (Q : c <> "u"%char /\ exists x, unescape c = Some x).
    { unfold short in A. cbn [In] in A. destruct A as [A|[A|[A|[A|[A|[A|[A|[A|[]]]]]]]]]; injection A as <- _; (split; [discriminate|eexists; reflexivity]). }
    destruct Q as [Q1 (x & Q2)]. cbn [read_str]. change (Ascii.eqb "\" cQuote) with false. change (Ascii.eqb "\" cBack) with true. cbv iota.
    apply Ascii.eqb_neq in Q1. rewrite Q1, Q2. apply PR, IH; [lia|exact K|lia].
  - destruct (escape_ok t _ (s ++ cQuote :: rest) A) as (u & -> & G). rewrite <- app_assoc. rewrite app_length in Ln, Lf. cbn [app length] in *. cbn [read_str].
    change (Ascii.eqb cBack cQuote) with false. change (Ascii.eqb cBack cBack) with true. cbv iota. change (Ascii.eqb "u" "u") with true. cbv iota. rewrite G.
    destruct (_ && _); [|apply PR, IH; [lia|exact K|lia]].
    destruct (second_half m (s ++ cQuote :: rest)) as [[q t3]|] eqn:S2; [|apply PR, IH; [lia|exact K|lia]].
    destruct K as [|c s A1 B C K|c m' s A1 K|t m' s A1 K].
    + discriminate S2 || (cbn [app second_half] in S2; destruct rest; discriminate S2).
    + exfalso. cbn [app second_half] in S2. destruct (s ++ cQuote :: rest) as [|y z]; [discriminate|]. apply Ascii.eqb_neq in C. change (Ascii.eqb c cBack) with (Ascii.eqb c "\"%char) in S2. rewrite C in S2. discriminate S2.
    + exfalso. cbn [app second_half] in S2. unfold short in A1. cbn [In] in A1. destruct A1 as [A1|[A1|[A1|[A1|[A1|[A1|[A1|[A1|[]]]]]]]]]; injection A1 as <- _; discriminate S2.
    + destruct (escape_ok t _ (s ++ cQuote :: rest) A1) as (u2 & -> & G2). rewrite <- app_assoc in S2. cbn [app second_half] in S2. rewrite G2 in S2.
      change (Ascii.eqb cBack cBack && Ascii.eqb "u" "u") with true in S2. cbv iota in S2. destruct (_ && _); [|discriminate]. injection S2 as _ <-.
      rewrite app_length in Ln, Lf. cbn [length] in Ln, Lf. apply PR, IH; [lia|exact K|lia].
Qed.

Scheme vsyn_ind' := Induction for value_syntax Sort Prop
  with esyn_ind' := Induction for elements_syntax Sort Prop
  with msyn_ind' := Induction for members_syntax Sort Prop.
Combined Scheme syntax_ind from vsyn_ind', esyn_ind', msyn_ind'.

Lemma syntax_head : forall t, value_syntax t -> exists c u, t = c :: u /\ is_space c = false /\ Ascii.eqb c "]" = false /\ Ascii.eqb c "}" = false.
Proof.
  intros t H. destruct H as [w H|t H| | | | |]; try (eexists _, _; split; [reflexivity|]; repeat split; reflexivity).
  - cbn [In] in H. destruct H as [<-|[<-|[<-|[]]]]; (eexists _, _; split; [reflexivity|]; repeat split; reflexivity).
  - apply (value_head t (JNum t)). constructor. exact H.
Qed.

Lemma read_complete :
  (forall t, value_syntax t -> forall a f rest, white a -> (2 * length t <= f)%nat -> follows rest -> exists v, read_value f (a ++ t ++ rest) = Ok (v, rest)) /\
  (forall t, elements_syntax t -> forall f rest, (2 * length t + 1 <= f)%nat -> exists l, read_elements f (t ++ "]"%char :: rest) = Ok (l, rest)) /\
  (forall t, members_syntax t -> forall f rest, (2 * length t + 1 <= f)%nat -> exists l, read_members f (t ++ "}"%char :: rest) = Ok (l, rest)).
Proof.
  assert (FC : forall w s, white w -> follows (w ++ cComma :: s)) by (intros w s W; exists w, (cComma :: s); auto).
  assert (FB : forall w s, white w -> follows (w ++ "]"%char :: s)) by (intros w s W; exists w, ("]"%char :: s); auto).
  assert (FO : forall w s, white w -> follows (w ++ "}"%char :: s)) by (intros w s W; exists w, ("}"%char :: s); auto).
  assert (EH : forall t, elements_syntax t -> forall s, exists d u, skip_space (t ++ s) = d :: u /\ Ascii.eqb d "]" = false /\ forall f, read_elements f (d :: u) = read_elements f (t ++ s)).
  { assert (G : forall a t s, white a -> value_syntax t -> exists d u, skip_space (a ++ t ++ s) = d :: u /\ Ascii.eqb d "]" = false /\ forall f, read_elements f (d :: u) = read_elements f (a ++ t ++ s)).
    { intros a t s W V. destruct (syntax_head t V) as (c & u & -> & S1 & S2 & _). cbn [app]. rewrite skip_white by exact W. rewrite skip_head by exact S1.
      exists c, (u ++ s). split; [reflexivity|]. split; [exact S2|]. intros [|f]; [reflexivity|]. cbn [read_elements]. destruct f as [|f]; [reflexivity|]. cbn [read_value].
      rewrite (skip_white a) by exact W. rewrite !(skip_head c) by exact S1. reflexivity. }
    intros t H s. destruct H as [a t b W V B|a t b u W V B H].
    - rewrite <- app_assoc, <- app_assoc. apply (G a t (b ++ s) W V).
    - rewrite <- app_assoc, <- app_assoc. apply (G a t _ W V). }
  assert (MH : forall t, members_syntax t -> forall s, exists u, skip_space (t ++ s) = cQuote :: u /\ forall f, read_members f (cQuote :: u) = read_members f (t ++ s)).
  { intros t H s. destruct H as [a k b c t d W|a k b c t d u W]; rewrite <- app_assoc; cbn [app]; rewrite skip_white by exact W;
      (eexists; split; [rewrite skip_head by reflexivity; reflexivity|]); intros [|f]; try reflexivity; cbn [read_members]; rewrite (skip_white a) by exact W; reflexivity. }
  apply syntax_ind.
  - intros w H a f rest W L F. cbn [In] in H. destruct H as [<-|[<-|[<-|[]]]]; [exists JNull|exists (JBool true)|exists (JBool false)]; apply (proj1 read_all); try assumption; constructor.
  - intros t H a f rest W L F. exists (JNum t). apply (proj1 read_all); try assumption. constructor. exact H.
  - intros t H a f rest W L F. destruct f as [|f]; [cbn in L; lia|]. cbn [read_value]. rewrite skip_white by exact W. cbn [app]. rewrite skip_head by reflexivity.
    change (Ascii.eqb """" "{") with false. change (Ascii.eqb """" "[") with false. change (Ascii.eqb """" cQuote) with true. cbv iota.
    rewrite <- app_assoc. cbn [app]. change (""""%char :: rest) with (cQuote :: rest).
    destruct (read_str_complete (length t) t (le_n _) H (S (length (t ++ cQuote :: rest))) rest) as (key & ->); [rewrite app_length; lia|]. eexists. reflexivity.
  - intros w Hw a f rest W L F. exists (JArr []). apply (proj1 read_all); try assumption. constructor. exact Hw.
  - intros t H IH a f rest W L F. destruct f as [|f]; [cbn in L; lia|]. cbn [read_value]. rewrite skip_white by exact W. cbn [app]. rewrite skip_head by reflexivity.
    change (Ascii.eqb "[" "{") with false. change (Ascii.eqb "[" "[") with true. cbv iota. rewrite <- app_assoc. cbn [app length] in *. rewrite app_length in L. cbn [length] in L.
    destruct (EH t H ("]"%char :: rest)) as (d & u & E1 & E2 & E3). rewrite E1, E2, E3. destruct (IH f rest) as (l & ->); [lia|]. eexists. reflexivity.
  - intros w Hw a f rest W L F. exists (JObj []). apply (proj1 read_all); try assumption. constructor. exact Hw.
  - intros t H IH a f rest W L F. destruct f as [|f]; [cbn in L; lia|]. cbn [read_value]. rewrite skip_white by exact W. cbn [app]. rewrite skip_head by reflexivity.
    change (Ascii.eqb "{" "{") with true. cbv iota. rewrite <- app_assoc. cbn [app length] in *. rewrite app_length in L. cbn [length] in L.
    destruct (MH t H ("}"%char :: rest)) as (u & E1 & E3). rewrite E1. change (Ascii.eqb cQuote "}") with false. cbv iota. rewrite E3.
    destruct (IH f rest) as (l & ->); [lia|]. eexists. reflexivity.
  - intros a t b A H IH B f rest L. rewrite !app_length in L. destruct f as [|f]; [lia|]. cbn [read_elements].
    replace ((a ++ t ++ b) ++ "]"%char :: rest) with (a ++ t ++ (b ++ "]"%char :: rest)) by (rewrite <- !app_assoc; reflexivity).
    destruct (IH a f (b ++ "]"%char :: rest)) as (v & ->); [assumption|lia|apply FB; assumption|]. cbn [bind]. rewrite skip_white by exact B. rewrite skip_head by reflexivity. eexists. reflexivity.
  - intros a t b u A H IH B H2 IH2 f rest L. rewrite !app_length in L. cbn [length] in L. destruct f as [|f]; [lia|]. cbn [read_elements].
    replace ((a ++ t ++ b ++ ","%char :: u) ++ "]"%char :: rest) with (a ++ t ++ (b ++ cComma :: (u ++ "]"%char :: rest))) by (rewrite <- !app_assoc; reflexivity).
    destruct (IH a f (b ++ cComma :: (u ++ "]"%char :: rest))) as (v & ->); [assumption|lia|apply FC; assumption|]. cbn [bind]. rewrite skip_white by exact B. rewrite skip_head by reflexivity.
    change (Ascii.eqb cComma "]") with false. change (Ascii.eqb cComma cComma) with true. cbv iota. destruct (IH2 f rest) as (l & ->); [lia|]. eexists. reflexivity.
  - intros a k b c t d A K B C H IH D f rest L. rewrite !app_length in L. cbn [length] in L. rewrite !app_length in L. cbn [length] in L. rewrite !app_length in L. cbn [length] in L. rewrite !app_length in L.
    destruct f as [|f]; [lia|]. cbn [read_members].
    replace ((a ++ """"%char :: k ++ """"%char :: b ++ ":"%char :: c ++ t ++ d) ++ "}"%char :: rest)
      with (a ++ cQuote :: (k ++ cQuote :: (b ++ ":"%char :: (c ++ t ++ (d ++ "}"%char :: rest))))) by (repeat (rewrite <- !app_assoc; cbn [app]); reflexivity).
    rewrite skip_white by exact A. rewrite skip_head by reflexivity. change (Ascii.eqb cQuote cQuote) with true. cbv iota.
    set (R := b ++ ":"%char :: (c ++ t ++ (d ++ "}"%char :: rest))).
    destruct (read_str_complete (length k) k (le_n _) K (S (length (k ++ cQuote :: R))) R) as (key & ->); [rewrite app_length; lia|]. subst R.
    cbn [bind]. rewrite skip_white by exact B. rewrite skip_head by reflexivity.
    change (Ascii.eqb ":" ":") with true. cbv iota. destruct (IH c f (d ++ "}"%char :: rest)) as (v & ->); [assumption|lia|apply FO; assumption|]. cbn [bind].
    rewrite skip_white by exact D. rewrite skip_head by reflexivity. eexists. reflexivity.
  - intros a k b c t d u A K B C H IH D H2 IH2 f rest L. rewrite !app_length in L. cbn [length] in L. rewrite !app_length in L. cbn [length] in L. rewrite !app_length in L. cbn [length] in L. rewrite !app_length in L. cbn [length] in L.
    destruct f as [|f]; [lia|]. cbn [read_members].
    replace ((a ++ """"%char :: k ++ """"%char :: b ++ ":"%char :: c ++ t ++ d ++ ","%char :: u) ++ "}"%char :: rest)
      with (a ++ cQuote :: (k ++ cQuote :: (b ++ ":"%char :: (c ++ t ++ (d ++ cComma :: (u ++ "}"%char :: rest)))))) by (repeat (rewrite <- !app_assoc; cbn [app]); reflexivity).
    rewrite skip_white by exact A. rewrite skip_head by reflexivity. change (Ascii.eqb cQuote cQuote) with true. cbv iota.
    set (R := b ++ ":"%char :: (c ++ t ++ (d ++ cComma :: (u ++ "}"%char :: rest)))).
    destruct (read_str_complete (length k) k (le_n _) K (S (length (k ++ cQuote :: R))) R) as (key & ->); [rewrite app_length; lia|]. subst R.
    cbn [bind]. rewrite skip_white by exact B. rewrite skip_head by reflexivity.
    change (Ascii.eqb ":" ":") with true. cbv iota. destruct (IH c f (d ++ cComma :: (u ++ "}"%char :: rest))) as (v & ->); [assumption|lia|apply FC; assumption|]. cbn [bind].
    rewrite skip_white by exact D. rewrite skip_head by reflexivity. change (Ascii.eqb cComma "}") with false. change (Ascii.eqb cComma cComma) with true. cbv iota.
    destruct (IH2 f rest) as (l & ->); [lia|]. eexists. reflexivity.
Qed.

Lemma parse_complete : forall s, document_syntax s -> exists v, parse_json s = Ok v.
Proof.
  intros s (a & t & b & -> & A & V & B). unfold parse_json.
  destruct (proj1 read_complete t V a (2 * S (length (a ++ t ++ b)))%nat b A) as (v & ->); [rewrite !app_length; lia|exists b, []; rewrite app_nil_r; auto|].
  cbn [bind]. rewrite skip_all by exact B. eexists. reflexivity.
Qed.

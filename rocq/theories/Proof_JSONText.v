(** Lemmas for C104: every text of a document is read as that document. *)
From Coq Require Import String Ascii NArith List Permutation Lia.
From Verif Require Import Base Num Model_CSVBytes Model_JSON Spec_JSON Spec_JSONText Proof_JSON.
Import ListNotations.
Open Scope N_scope.
Open Scope list_scope.

(** ** Characters *)

Lemma d64 : forall q m, m < 64 -> (q * 64 + m) / 64 = q /\ (q * 64 + m) mod 64 = m.
Proof.
  intros q m H. split.
  - rewrite N.div_add_l by discriminate. rewrite N.div_small by exact H. lia.
  - rewrite N.add_comm, N.mod_add by discriminate. apply N.mod_small. exact H.
Qed.

Lemma asc : forall a n, n = N_of_ascii a -> ascii_of_N n = a.
Proof. intros a n ->. apply ascii_N_embedding. Qed.

Lemma scalar_ranges : forall b, utf8_char b ->
  match length b with
  | 1%nat => scalar b < 128
  | 2%nat => 128 <= scalar b < 2048
  | 3%nat => 2048 <= scalar b < 65536 /\ (scalar b < 55296 \/ 57344 <= scalar b)
  | _ => 65536 <= scalar b < 1114112
  end.
Proof.
  intros b H. destruct H as [a A|a b A B|a b c A B C|a b c A B C|a b c A B C|a b c d A B C D|a b c d A B C D|a b c d A B C D];
    unfold tail_byte, between in *; unfold scalar; cbn [map length]; lia.
Qed.

Lemma encode_scalar : forall b, utf8_char b -> encode_rune (scalar b) = b.
Proof.
  intros b H. pose proof (scalar_ranges b H) as R. unfold encode_rune.
  destruct H as [a A|a b A B|a b c A B C|a b c A B C|a b c A B C|a b c d A B C D|a b c d A B C D|a b c d A B C D];
    cbn [length] in R; unfold tail_byte, between in *.
  - apply N.ltb_lt in R. rewrite R. f_equal. apply asc. reflexivity.
  - destruct (N.ltb_spec (scalar [a; b]) 128); [lia|]. destruct (N.ltb_spec (scalar [a; b]) 2048); [|lia].
    unfold scalar. cbn [map]. destruct (d64 (N_of_ascii a - 192) (N_of_ascii b - 128) ltac:(lia)) as [E1 E2].
    rewrite E1, E2. f_equal; [apply asc; lia|f_equal; apply asc; lia].
  - destruct (N.ltb_spec (scalar [a; b; c]) 128); [lia|]. destruct (N.ltb_spec (scalar [a; b; c]) 2048); [lia|]. destruct (N.ltb_spec (scalar [a; b; c]) 65536); [|lia].
    unfold scalar. cbn [map]. change 4096 with (64 * 64). rewrite <- N.div_div by discriminate.
    destruct (d64 ((N_of_ascii a - 224) * 64 + (N_of_ascii b - 128)) (N_of_ascii c - 128) ltac:(lia)) as [E1 E2].
    destruct (d64 (N_of_ascii a - 224) (N_of_ascii b - 128) ltac:(lia)) as [E3 E4]. rewrite E1, E2, E3, E4.
    f_equal; [apply asc; lia|f_equal; [apply asc; lia|f_equal; apply asc; lia]].
  - destruct (N.ltb_spec (scalar [a; b; c]) 128); [lia|]. destruct (N.ltb_spec (scalar [a; b; c]) 2048); [lia|]. destruct (N.ltb_spec (scalar [a; b; c]) 65536); [|lia].
    unfold scalar. cbn [map]. change 4096 with (64 * 64). rewrite <- N.div_div by discriminate.
    destruct (d64 ((N_of_ascii a - 224) * 64 + (N_of_ascii b - 128)) (N_of_ascii c - 128) ltac:(lia)) as [E1 E2].
    destruct (d64 (N_of_ascii a - 224) (N_of_ascii b - 128) ltac:(lia)) as [E3 E4]. rewrite E1, E2, E3, E4.
    f_equal; [apply asc; lia|f_equal; [apply asc; lia|f_equal; apply asc; lia]].
  - destruct (N.ltb_spec (scalar [a; b; c]) 128); [lia|]. destruct (N.ltb_spec (scalar [a; b; c]) 2048); [lia|]. destruct (N.ltb_spec (scalar [a; b; c]) 65536); [|lia].
    unfold scalar. cbn [map]. change 4096 with (64 * 64). rewrite <- N.div_div by discriminate.
    destruct (d64 ((N_of_ascii a - 224) * 64 + (N_of_ascii b - 128)) (N_of_ascii c - 128) ltac:(lia)) as [E1 E2].
    destruct (d64 (N_of_ascii a - 224) (N_of_ascii b - 128) ltac:(lia)) as [E3 E4]. rewrite E1, E2, E3, E4.
    f_equal; [apply asc; lia|f_equal; [apply asc; lia|f_equal; apply asc; lia]].
  - destruct (N.ltb_spec (scalar [a; b; c; d]) 128); [lia|]. destruct (N.ltb_spec (scalar [a; b; c; d]) 2048); [lia|]. destruct (N.ltb_spec (scalar [a; b; c; d]) 65536); [lia|].
    unfold scalar. cbn [map]. change 262144 with (64 * (64 * 64)). change 4096 with (64 * 64). rewrite <- !N.div_div by discriminate.
    destruct (d64 (((N_of_ascii a - 240) * 64 + (N_of_ascii b - 128)) * 64 + (N_of_ascii c - 128)) (N_of_ascii d - 128) ltac:(lia)) as [E1 E2].
    destruct (d64 ((N_of_ascii a - 240) * 64 + (N_of_ascii b - 128)) (N_of_ascii c - 128) ltac:(lia)) as [E3 E4].
    destruct (d64 (N_of_ascii a - 240) (N_of_ascii b - 128) ltac:(lia)) as [E5 E6]. rewrite E1, E2, E3, E4, E5, E6.
    f_equal; [apply asc; lia|f_equal; [apply asc; lia|f_equal; [apply asc; lia|f_equal; apply asc; lia]]].
  - destruct (N.ltb_spec (scalar [a; b; c; d]) 128); [lia|]. destruct (N.ltb_spec (scalar [a; b; c; d]) 2048); [lia|]. destruct (N.ltb_spec (scalar [a; b; c; d]) 65536); [lia|].
    unfold scalar. cbn [map]. change 262144 with (64 * (64 * 64)). change 4096 with (64 * 64). rewrite <- !N.div_div by discriminate.
    destruct (d64 (((N_of_ascii a - 240) * 64 + (N_of_ascii b - 128)) * 64 + (N_of_ascii c - 128)) (N_of_ascii d - 128) ltac:(lia)) as [E1 E2].
    destruct (d64 ((N_of_ascii a - 240) * 64 + (N_of_ascii b - 128)) (N_of_ascii c - 128) ltac:(lia)) as [E3 E4].
    destruct (d64 (N_of_ascii a - 240) (N_of_ascii b - 128) ltac:(lia)) as [E5 E6]. rewrite E1, E2, E3, E4, E5, E6.
    f_equal; [apply asc; lia|f_equal; [apply asc; lia|f_equal; [apply asc; lia|f_equal; apply asc; lia]]].
  - destruct (N.ltb_spec (scalar [a; b; c; d]) 128); [lia|]. destruct (N.ltb_spec (scalar [a; b; c; d]) 2048); [lia|]. destruct (N.ltb_spec (scalar [a; b; c; d]) 65536); [lia|].
    unfold scalar. cbn [map]. change 262144 with (64 * (64 * 64)). change 4096 with (64 * 64). rewrite <- !N.div_div by discriminate.
    destruct (d64 (((N_of_ascii a - 240) * 64 + (N_of_ascii b - 128)) * 64 + (N_of_ascii c - 128)) (N_of_ascii d - 128) ltac:(lia)) as [E1 E2].
    destruct (d64 ((N_of_ascii a - 240) * 64 + (N_of_ascii b - 128)) (N_of_ascii c - 128) ltac:(lia)) as [E3 E4].
    destruct (d64 (N_of_ascii a - 240) (N_of_ascii b - 128) ltac:(lia)) as [E5 E6]. rewrite E1, E2, E3, E4, E5, E6.
    f_equal; [apply asc; lia|f_equal; [apply asc; lia|f_equal; [apply asc; lia|f_equal; apply asc; lia]]].
Qed.

Lemma hex_ok : forall c v, hexadecimal c v -> hex_val c = Some v.
Proof.
  intros c v H. unfold hexadecimal, between in H. unfold hex_val. cbv zeta.
  destruct H as [[H ->]|[[H ->]|[H ->]]];
    (destruct (N.leb_spec 48 (N_of_ascii c)); [|lia]); cbn [andb].
  - destruct (N.leb_spec (N_of_ascii c) 57); [|lia]. reflexivity.
  - destruct (N.leb_spec (N_of_ascii c) 57); [lia|]. destruct (N.leb_spec 97 (N_of_ascii c)); [lia|]. cbn [andb].
    destruct (N.leb_spec 65 (N_of_ascii c)); [|lia]. destruct (N.leb_spec (N_of_ascii c) 70); [|lia]. cbn [andb]. f_equal. lia.
  - destruct (N.leb_spec (N_of_ascii c) 57); [lia|]. destruct (N.leb_spec 97 (N_of_ascii c)); [|lia]. cbn [andb].
    destruct (N.leb_spec (N_of_ascii c) 102); [|lia]. f_equal. lia.
Qed.

Lemma escape_ok : forall t n rest, escape t n -> exists u, t = cBack :: "u"%char :: u /\ getu4 (u ++ rest) = Some (n, rest).
Proof.
  intros t n rest H. destruct H as [a b c d v w x y A B C D]. exists [a; b; c; d]. split; [reflexivity|]. cbn [app getu4].
  rewrite (hex_ok a v A), (hex_ok b w B), (hex_ok c x C), (hex_ok d y D). reflexivity.
Qed.

Lemma read_char : forall t b f rest, char_text t b -> read_str (S f) (t ++ rest) = prepend b (read_str f rest).
Proof.
  intros t b f rest H. destruct H as [b U P1 P2 P3|c x H|t b U H|t u hi lo b U H1 H2 R1 R2 E].
  - pose proof (char_length b U) as L. destruct b as [|a b]; [cbn in L; lia|]. destruct b as [|a2 b].
    + assert (A : code a <? 128 = true) by (inversion U as [a' A| | | | | | |]; subst; apply N.ltb_lt; destruct A as [_ A]; lia).
      unfold scalar in P1, P2, P3. cbn [map] in P1, P2, P3. cbn [app read_str].
      destruct (Ascii.eqb_spec a cQuote) as [->|_]; [exfalso; apply P2; reflexivity|].
      destruct (Ascii.eqb_spec a cBack) as [->|_]; [exfalso; apply P3; reflexivity|].
      destruct (N.ltb_spec (N_of_ascii a) 32); [lia|]. unfold rune_len. cbv zeta. rewrite A. reflexivity.
    + assert (A : 128 <= code a).
      { inversion U as [ |? ? A|? ? ? A|? ? ? A|? ? ? A|? ? ? ? A|? ? ? ? A|? ? ? ? A]; subst; unfold between in A; lia. }
      pose proof (char_rune_len (a :: a2 :: b) rest U) as R. cbn [app] in *. cbn [read_str].
      destruct (Ascii.eqb_spec a cQuote) as [->|_]; [exfalso; apply A; reflexivity|].
      destruct (Ascii.eqb_spec a cBack) as [->|_]; [exfalso; apply A; reflexivity|].
      destruct (N.ltb_spec (code a) 32); [lia|]. rewrite R. cbn [length].
      change (a :: a2 :: b ++ rest) with ((a :: a2 :: b) ++ rest). change (S (S (length b))) with (length (a :: a2 :: b)).
      rewrite firstn_app, firstn_all, Nat.sub_diag, skipn_app, skipn_all, Nat.sub_diag. cbn [firstn skipn app]. rewrite app_nil_r. reflexivity.
  - assert (Q : c <> "u"%char /\ unescape c = Some x).
    { unfold short in H. cbn [In] in H. rewrite <- (ascii_N_embedding x). destruct H as [H|[H|[H|[H|[H|[H|[H|[H|[]]]]]]]]]; injection H as <- H; rewrite <- H; (split; [discriminate|reflexivity]). }
    destruct Q as [Q1 Q2]. cbn [app read_str]. change (Ascii.eqb "\" cQuote) with false. change (Ascii.eqb "\" cBack) with true. cbv iota.
    apply Ascii.eqb_neq in Q1. rewrite Q1, Q2. reflexivity.
  - destruct (escape_ok t _ rest H) as (u & -> & G). pose proof (scalar_ranges b U) as R. pose proof (encode_scalar b U) as EN.
    assert (NS : (55296 <=? scalar b) && (scalar b <? 57344) = false).
    { apply Bool.andb_false_iff. destruct (N.leb_spec 55296 (scalar b)), (N.ltb_spec (scalar b) 57344); auto. exfalso.
      pose proof (char_length b U) as L. destruct (length b) as [|[|[|[|k]]]]; lia. }
    cbn [app read_str]. change (Ascii.eqb cBack cQuote) with false. change (Ascii.eqb cBack cBack) with true. cbv iota.
    change (Ascii.eqb "u" "u") with true. cbv iota. rewrite G, NS, EN. reflexivity.
  - destruct (escape_ok u _ rest H2) as (u2 & -> & G2). destruct (escape_ok t _ ((cBack :: "u"%char :: u2) ++ rest) H1) as (t2 & -> & G1).
    rewrite <- app_assoc. cbn [app] in *. cbn [read_str]. change (Ascii.eqb cBack cQuote) with false. change (Ascii.eqb cBack cBack) with true. cbv iota.
    change (Ascii.eqb "u" "u") with true. cbv iota. rewrite G1.
    destruct (N.leb_spec 55296 hi); [|lia]. destruct (N.ltb_spec hi 57344); [|lia]. cbn [andb].
    unfold second_half. change (Ascii.eqb cBack cBack && Ascii.eqb "u" "u") with true. cbv iota. rewrite G2.
    destruct (N.ltb_spec hi 56320); [|lia]. destruct (N.leb_spec 56320 lo); [|lia]. destruct (N.ltb_spec lo 57344); [|lia]. cbn [andb].
    replace ((hi - 55296) * 1024 + (lo - 56320) + 65536) with (scalar b) by lia. rewrite (encode_scalar b U). reflexivity.
Qed.

Lemma char_text_length : forall t b, char_text t b -> (1 <= length t)%nat.
Proof.
  intros t b H. destruct H as [b U| |t b U H|t u hi lo b U H1 H2]; [apply (char_length b U)|cbn; lia|destruct H; cbn; lia|destruct H1; rewrite app_length; cbn; lia].
Qed.

Lemma read_text : forall t s, string_text t s -> forall f rest, (length t < f)%nat -> read_str f (t ++ cQuote :: rest) = Ok (s, rest).
Proof.
  intros t s H. induction H as [|t b s bs Hc Hs IH]; intros f rest L; (destruct f as [|f]; [lia|]); [reflexivity|].
  pose proof (char_text_length t b Hc). rewrite app_length in L. rewrite <- app_assoc, (read_char t b) by exact Hc. rewrite IH by lia. reflexivity.
Qed.

(** ** Numbers *)

Definition ends (s : bytes) : Prop := match s with c :: _ => is_digit c = false /\ c <> "."%char /\ c <> "e"%char /\ c <> "E"%char | [] => True end.

Lemma exp_ok' : forall exp rest, ends rest ->
  (exp = [] \/ exists e s d, exp = e :: s ++ d /\ (e = "e"%char \/ e = "E"%char) /\ (s = [] \/ s = ["+"%char] \/ s = ["-"%char]) /\ some_digits d) ->
  read_exp (exp ++ rest) = Some (exp, rest) /\ no_digit (exp ++ rest) /\ (forall c t, exp ++ rest = c :: t -> Ascii.eqb c "." = false).
Proof.
  intros exp rest S H.
  assert (N : no_digit rest) by (destruct rest as [|c t]; [exact I|apply S]).
  destruct H as [-> |(e & s & d & -> & He & Hs & Hd)].
  - cbn [app]. split; [|split; [exact N|]].
    + destruct rest as [|c t]; [reflexivity|]. destruct S as (_ & _ & S1 & S2). apply Ascii.eqb_neq in S1, S2. unfold read_exp. rewrite S1, S2. reflexivity.
    + intros c t ->. destruct S as (_ & S1 & _). apply Ascii.eqb_neq. exact S1.
  - split; [|split; [destruct He as [-> | ->]; reflexivity|intros c t E; injection E as <- _; destruct He as [-> | ->]; reflexivity]].
    cbn [app read_exp]. replace (Ascii.eqb e "e" || Ascii.eqb e "E")%bool with true by (destruct He as [-> | ->]; reflexivity).
    destruct Hs as [-> |[-> | ->]]; cbn [app].
    + pose proof (digits1_ok d rest Hd N) as D. destruct (digit_head d Hd) as (c & t & -> & Hc). cbn [app] in *.
      rewrite (digit_neq c "+" Hc eq_refl), (digit_neq c "-" Hc eq_refl). cbn [orb]. rewrite D. reflexivity.
    + change (Ascii.eqb "+" "+" || Ascii.eqb "+" "-")%bool with true. cbv iota. rewrite digits1_ok by assumption. reflexivity.
    + change (Ascii.eqb "-" "+" || Ascii.eqb "-" "-")%bool with true. cbv iota. rewrite digits1_ok by assumption. reflexivity.
Qed.

Lemma num_ok' : forall t rest, json_number t -> ends rest -> read_num (t ++ rest) = Some (t, rest).
Proof.
  intros t rest (sg & i & fr & ex & -> & Hs & Hi & Hf & He) S. rewrite <- !app_assoc.
  destruct (exp_ok' ex rest S He) as (E1 & E2 & E3). set (tl := ex ++ rest) in *.
  assert (F : read_frac (fr ++ tl) = Some (fr, tl) /\ no_digit (fr ++ tl)).
  { destruct Hf as [-> |(d & -> & Hd)]; cbn [app].
    - split; [|exact E2]. unfold read_frac. destruct tl as [|c u]; [reflexivity|]. rewrite (E3 c u eq_refl). reflexivity.
    - split; [|reflexivity]. cbn [read_frac]. change (Ascii.eqb "." ".") with true. cbv iota. rewrite digits1_ok by assumption. reflexivity. }
  destruct F as [F1 F2]. set (tl2 := fr ++ tl) in *.
  assert (G : read_int (i ++ tl2) = Some (i, tl2) /\ exists c u, i ++ tl2 = c :: u /\ Ascii.eqb c "-" = false).
  { destruct Hi as [-> |[Hd Hh]].
    - split; [reflexivity|]. exists "0"%char, tl2. split; reflexivity.
    - pose proof (digits1_ok i tl2 Hd F2) as D. destruct (digit_head i Hd) as (c & u & -> & Hc). cbn [app] in *. split.
      + unfold read_int. cbn [hd] in Hh. apply Ascii.eqb_neq in Hh. rewrite Hh. exact D.
      + exists c, (u ++ tl2). split; [reflexivity|]. apply digit_neq; [exact Hc|reflexivity]. }
  destruct G as (G1 & c & u & G2 & G3).
  assert (Q : read_sign (sg ++ i ++ tl2) = (sg, i ++ tl2)).
  { destruct Hs as [-> | ->]; cbn [app]; [|reflexivity]. rewrite G2. cbn [read_sign]. rewrite G3. reflexivity. }
  unfold read_num. rewrite Q, G1, F1, E1. reflexivity.
Qed.

(** ** White space *)

Lemma white_space : forall c, In (N_of_ascii c) [32; 9; 10; 13] -> is_space c = true.
Proof. intros c H. unfold is_space. cbn [In] in H. destruct H as [<-|[<-|[<-|[<-|[]]]]]; reflexivity. Qed.

Lemma skip_white : forall w s, white w -> skip_space (w ++ s) = skip_space s.
Proof. intros w s H. induction H as [|c w Hc Hw IH]; [reflexivity|]. cbn [app skip_space]. rewrite (white_space c Hc). exact IH. Qed.

Lemma skip_all : forall w, white w -> skip_space w = [].
Proof. intros w H. rewrite <- (app_nil_r w). rewrite skip_white by exact H. reflexivity. Qed.

(** what may follow a value: white space, then a sign that ends it *)
Definition follows (s : bytes) : Prop := exists w r, white w /\ s = w ++ r /\ match r with c :: _ => c = cComma \/ c = "]"%char \/ c = "}"%char | [] => True end.

Lemma follows_ends : forall s, follows s -> ends s.
Proof.
  intros s (w & r & W & -> & R). destruct W as [|c w Hc Hw]; cbn [app].
  - destruct r as [|c r]; [exact I|]. destruct R as [-> |[-> | ->]]; repeat split; discriminate || reflexivity.
  - cbn [In] in Hc. rewrite <- (ascii_N_embedding c). destruct Hc as [<-|[<-|[<-|[<-|[]]]]]; repeat split; discriminate || reflexivity.
Qed.

Lemma value_head : forall t v, value_text t v -> exists c u, t = c :: u /\ is_space c = false /\ Ascii.eqb c "]" = false /\ Ascii.eqb c "}" = false.
Proof.
  intros t v H. destruct H as [| | |t H| | | | |]; try (eexists _, _; split; [reflexivity|]; repeat split; reflexivity).
  destruct (num_head t H) as (c & u & -> & D). exists c, u. split; [reflexivity|]. destruct D as [-> |D]; [repeat split; reflexivity|].
  split; [|split; apply digit_neq; exact D || reflexivity]. destruct D as [D1 D2]. unfold is_space. cbv zeta. byte_cases; try lia; reflexivity.
Qed.

(** ** Documents *)

Scheme value_ind' := Induction for value_text Sort Prop
  with elements_ind' := Induction for elements_text Sort Prop
  with members_ind' := Induction for members_text Sort Prop.
Combined Scheme text_ind from value_ind', elements_ind', members_ind'.

Lemma read_all :
  (forall t v, value_text t v -> forall a f rest, white a -> (2 * length t <= f)%nat -> follows rest -> read_value f (a ++ t ++ rest) = Ok (v, rest)) /\
  (forall t l, elements_text t l -> forall f rest, (2 * length t + 1 <= f)%nat -> read_elements f (t ++ "]"%char :: rest) = Ok (l, rest)) /\
  (forall t l, members_text t l -> forall f rest, (2 * length t + 1 <= f)%nat -> read_members f (t ++ "}"%char :: rest) = Ok (l, rest)).
Proof.
  assert (FC : forall w s, white w -> follows (w ++ cComma :: s)) by (intros w s W; exists w, (cComma :: s); auto).
  assert (FB : forall w s, white w -> follows (w ++ "]"%char :: s)) by (intros w s W; exists w, ("]"%char :: s); auto).
  assert (FO : forall w s, white w -> follows (w ++ "}"%char :: s)) by (intros w s W; exists w, ("}"%char :: s); auto).
  assert (EH : forall t l, elements_text t l -> forall s, exists d u, skip_space (t ++ s) = d :: u /\ Ascii.eqb d "]" = false /\ forall f, read_elements f (d :: u) = read_elements f (t ++ s)).
  { assert (G : forall a t v s, white a -> value_text t v -> exists d u, skip_space (a ++ t ++ s) = d :: u /\ Ascii.eqb d "]" = false /\ forall f, read_elements f (d :: u) = read_elements f (a ++ t ++ s)).
    { intros a t v s W V. destruct (value_head t v V) as (c & u & -> & S1 & S2 & _). cbn [app]. rewrite skip_white by exact W. rewrite skip_head by exact S1.
      exists c, (u ++ s). split; [reflexivity|]. split; [exact S2|]. intros [|f]; [reflexivity|]. cbn [read_elements]. destruct f as [|f]; [reflexivity|]. cbn [read_value].
      rewrite (skip_white a) by exact W. rewrite !(skip_head c) by exact S1. reflexivity. }
    intros t l H s. destruct H as [a t b v W V B|a t b v u l W V B H].
    - rewrite <- app_assoc, <- app_assoc. apply (G a t v (b ++ s) W V).
    - rewrite <- app_assoc, <- app_assoc. apply (G a t v _ W V). }
  assert (MH : forall t l, members_text t l -> forall s, exists u, skip_space (t ++ s) = cQuote :: u /\ forall f, read_members f (cQuote :: u) = read_members f (t ++ s)).
  { intros t l H s. destruct H as [a k key b c t d v W|a k key b c t d v u l W]; rewrite <- app_assoc; cbn [app]; rewrite skip_white by exact W;
      (eexists; split; [rewrite skip_head by reflexivity; reflexivity|]); intros [|f]; try reflexivity; cbn [read_members]; rewrite (skip_white a) by exact W; reflexivity. }
  apply text_ind.
  - intros a f rest W L F. destruct f as [|f]; [cbn in L; lia|]. cbn [read_value]. rewrite skip_white by exact W. reflexivity.
  - intros a f rest W L F. destruct f as [|f]; [cbn in L; lia|]. cbn [read_value]. rewrite skip_white by exact W. reflexivity.
  - intros a f rest W L F. destruct f as [|f]; [cbn in L; lia|]. cbn [read_value]. rewrite skip_white by exact W. reflexivity.
  - intros t H a f rest W L F. destruct (num_head t H) as (c & u & E & D). destruct f as [|f]; [rewrite E in L; cbn in L; lia|].
    pose proof (num_ok' t rest H (follows_ends rest F)) as R. cbn [read_value]. rewrite skip_white by exact W. rewrite E in *. cbn [app] in *.
    assert (Sp : is_space c = false) by (destruct D as [-> |[D1 D2]]; [reflexivity|]; unfold is_space; cbv zeta; byte_cases; try lia; reflexivity).
    rewrite skip_head by exact Sp.
    assert (Q : forall x, is_digit x = false -> x <> "-"%char -> Ascii.eqb c x = false).
    { intros x Hx Hx'. destruct D as [-> |D]; [apply Ascii.eqb_neq; congruence|apply digit_neq; assumption]. }
    rewrite !Q by (reflexivity || discriminate). rewrite R. reflexivity.
  - intros t s H a f rest W L F. destruct f as [|f]; [cbn in L; lia|]. cbn [read_value]. rewrite skip_white by exact W. cbn [app]. rewrite skip_head by reflexivity.
    change (Ascii.eqb """" "{") with false. change (Ascii.eqb """" "[") with false. change (Ascii.eqb """" cQuote) with true. cbv iota.
    rewrite <- app_assoc. cbn [app]. change (""""%char :: rest) with (cQuote :: rest). rewrite (read_text t s H) by (rewrite app_length; lia). reflexivity.
  - intros w Hw a f rest W L F. destruct f as [|f]; [cbn in L; lia|]. cbn [read_value]. rewrite skip_white by exact W. cbn [app]. rewrite skip_head by reflexivity.
    change (Ascii.eqb "[" "{") with false. change (Ascii.eqb "[" "[") with true. cbv iota. rewrite <- app_assoc, skip_white by exact Hw. reflexivity.
  - intros t l H IH a f rest W L F. destruct f as [|f]; [cbn in L; lia|]. cbn [read_value]. rewrite skip_white by exact W. cbn [app]. rewrite skip_head by reflexivity.
    change (Ascii.eqb "[" "{") with false. change (Ascii.eqb "[" "[") with true. cbv iota. rewrite <- app_assoc. cbn [app length] in *. rewrite app_length in L. cbn [length] in L.
    destruct (EH t l H ("]"%char :: rest)) as (d & u & E1 & E2 & E3). rewrite E1, E2, E3, IH by lia. reflexivity.
  - intros w Hw a f rest W L F. destruct f as [|f]; [cbn in L; lia|]. cbn [read_value]. rewrite skip_white by exact W. cbn [app]. rewrite skip_head by reflexivity.
    change (Ascii.eqb "{" "{") with true. cbv iota. rewrite <- app_assoc, skip_white by exact Hw. reflexivity.
  - intros t l H IH a f rest W L F. destruct f as [|f]; [cbn in L; lia|]. cbn [read_value]. rewrite skip_white by exact W. cbn [app]. rewrite skip_head by reflexivity.
    change (Ascii.eqb "{" "{") with true. cbv iota. rewrite <- app_assoc. cbn [app length] in *. rewrite app_length in L. cbn [length] in L.
    destruct (MH t l H ("}"%char :: rest)) as (u & E1 & E3). rewrite E1. change (Ascii.eqb cQuote "}") with false. cbv iota. rewrite E3, IH by lia. reflexivity.
  - intros a t b v A H IH B f rest L. rewrite !app_length in L. destruct f as [|f]; [lia|]. cbn [read_elements].
    replace ((a ++ t ++ b) ++ "]"%char :: rest) with (a ++ t ++ (b ++ "]"%char :: rest)) by (rewrite <- !app_assoc; reflexivity).
    rewrite IH by (assumption || lia || apply FB; assumption). cbn [bind]. rewrite skip_white by exact B. rewrite skip_head by reflexivity. reflexivity.
  - intros a t b v u l A H IH B H2 IH2 f rest L. rewrite !app_length in L. cbn [length] in L. destruct f as [|f]; [lia|]. cbn [read_elements].
    replace ((a ++ t ++ b ++ ","%char :: u) ++ "]"%char :: rest) with (a ++ t ++ (b ++ cComma :: (u ++ "]"%char :: rest))) by (rewrite <- !app_assoc; reflexivity).
    rewrite IH by (assumption || lia || apply FC; assumption). cbn [bind]. rewrite skip_white by exact B. rewrite skip_head by reflexivity.
    change (Ascii.eqb cComma "]") with false. change (Ascii.eqb cComma cComma) with true. cbv iota. rewrite IH2 by lia. reflexivity.
  - intros a k key b c t d v A K B C H IH D f rest L. rewrite !app_length in L. cbn [length] in L. rewrite !app_length in L. cbn [length] in L. rewrite !app_length in L. cbn [length] in L. rewrite !app_length in L.
    destruct f as [|f]; [lia|]. cbn [read_members].
    replace ((a ++ """"%char :: k ++ """"%char :: b ++ ":"%char :: c ++ t ++ d) ++ "}"%char :: rest)
      with (a ++ cQuote :: (k ++ cQuote :: (b ++ ":"%char :: (c ++ t ++ (d ++ "}"%char :: rest))))) by (rewrite <- !app_assoc; cbn [app]; rewrite <- !app_assoc; cbn [app]; rewrite <- !app_assoc; cbn [app]; rewrite <- !app_assoc; reflexivity).
    rewrite skip_white by exact A. rewrite skip_head by reflexivity. change (Ascii.eqb cQuote cQuote) with true. cbv iota.
    rewrite (read_text k key K) by (rewrite app_length; lia). cbn [bind]. rewrite skip_white by exact B. rewrite skip_head by reflexivity.
    change (Ascii.eqb ":" ":") with true. cbv iota. rewrite IH by (assumption || lia || apply FO; assumption). cbn [bind].
    rewrite skip_white by exact D. rewrite skip_head by reflexivity. reflexivity.
  - intros a k key b c t d v u l A K B C H IH D H2 IH2 f rest L. rewrite !app_length in L. cbn [length] in L. rewrite !app_length in L. cbn [length] in L. rewrite !app_length in L. cbn [length] in L. rewrite !app_length in L. cbn [length] in L.
    destruct f as [|f]; [lia|]. cbn [read_members].
    replace ((a ++ """"%char :: k ++ """"%char :: b ++ ":"%char :: c ++ t ++ d ++ ","%char :: u) ++ "}"%char :: rest)
      with (a ++ cQuote :: (k ++ cQuote :: (b ++ ":"%char :: (c ++ t ++ (d ++ cComma :: (u ++ "}"%char :: rest)))))) by (rewrite <- !app_assoc; cbn [app]; rewrite <- !app_assoc; cbn [app]; rewrite <- !app_assoc; cbn [app]; rewrite <- !app_assoc; cbn [app]; reflexivity).
    rewrite skip_white by exact A. rewrite skip_head by reflexivity. change (Ascii.eqb cQuote cQuote) with true. cbv iota.
    rewrite (read_text k key K) by (rewrite app_length; lia). cbn [bind]. rewrite skip_white by exact B. rewrite skip_head by reflexivity.
    change (Ascii.eqb ":" ":") with true. cbv iota. rewrite IH by (assumption || lia || apply FC; assumption). cbn [bind].
    rewrite skip_white by exact D. rewrite skip_head by reflexivity. change (Ascii.eqb cComma "}") with false. change (Ascii.eqb cComma cComma) with true. cbv iota.
    rewrite IH2 by lia. reflexivity.
Qed.

Lemma parse_text : forall s v, document_text s v -> parse_json s = Ok v.
Proof.
  intros s v (a & t & b & -> & A & V & B). unfold parse_json. rewrite (proj1 read_all t v V).
  - cbn [bind]. rewrite skip_all by exact B. reflexivity.
  - exact A.
  - rewrite !app_length. lia.
  - exists b, []. rewrite app_nil_r. auto.
Qed.

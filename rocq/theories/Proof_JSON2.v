(** Lemmas about Model_JSON: the reader stops where the text says, and ends. *)
From Coq Require Import String Ascii NArith Lia.
From Verif Require Import Base Num Model_CSVBytes Model_JSON Spec_JSON Proof_JSON.
Open Scope list_scope.
Open Scope N_scope.

Lemma bind_ok : forall A B (r : res A) (f : A -> res B) b, bind r f = Ok b -> exists a, r = Ok a /\ f a = Ok b.
Proof. intros A B [a| |] f b H; cbn [bind] in H; try discriminate. eauto. Qed.

(** ** More text behind *)

Lemma next_ext : forall lo hi s q, s <> [] -> next lo hi (s ++ q) = option_map (fun t => t ++ q) (next lo hi s).
Proof. intros lo hi [|c s] q H; [congruence|]. cbn [app next]. destruct ((lo <=? code c) && (code c <=? hi)); reflexivity. Qed.

Lemma next_high : forall lo hi s t, 128 <= lo -> next lo hi s = Some t -> Forall (fun c => 128 <= code c) t -> Forall (fun c => 128 <= code c) s.
Proof. intros lo hi s t H E F. apply next_some in E. destruct E as (c & -> & [A _]). constructor; [lia|exact F]. Qed.

(** a rune is cut off only at the end of the text *)
Lemma rune_len_ext : forall c s q, rune_len (c :: s ++ q) = rune_len (c :: s) \/ Forall (fun c => 128 <= code c) s.
Proof.
  intros c s q. unfold rune_len. cbv zeta.
  destruct (code c <? 128); [left; reflexivity|]. destruct (code c <? 194); [left; reflexivity|].
  destruct (code c <? 224).
  { destruct s as [|a s]; [right; constructor|]. rewrite next_ext by discriminate. destruct (next 128 191 (a :: s)); left; reflexivity. }
  destruct (code c <? 240).
  { set (lo := if code c =? 224 then 160 else 128). assert (Hlo : 128 <= lo) by (unfold lo; destruct (code c =? 224); lia).
    destruct s as [|a s]; [right; constructor|]. rewrite next_ext by discriminate. destruct (next lo _ (a :: s)) as [t|] eqn:E; [|left; reflexivity]. cbn [option_map].
    destruct t as [|b t]; [right; apply (next_high _ _ _ _ Hlo E); constructor|]. rewrite next_ext by discriminate. destruct (next 128 191 (b :: t)); left; reflexivity. }
  destruct (code c <? 245); [|left; reflexivity].
  set (lo := if code c =? 240 then 144 else 128). assert (Hlo : 128 <= lo) by (unfold lo; destruct (code c =? 240); lia).
  destruct s as [|a s]; [right; constructor|]. rewrite next_ext by discriminate. destruct (next lo _ (a :: s)) as [t|] eqn:E; [|left; reflexivity]. cbn [option_map].
  destruct t as [|b t]; [right; apply (next_high _ _ _ _ Hlo E); constructor|]. rewrite next_ext by discriminate.
  destruct (next 128 191 (b :: t)) as [u|] eqn:E2; [|left; reflexivity]. cbn [option_map].
  destruct u as [|d u]; [right; apply (next_high _ _ _ _ Hlo E), (next_high 128 191 _ _ ltac:(lia) E2); constructor|].
  rewrite next_ext by discriminate. destruct (next 128 191 (d :: u)); left; reflexivity.
Qed.

Lemma Forall_skipn : forall A (P : A -> Prop) n l, Forall P l -> Forall P (skipn n l).
Proof. intros A P n. induction n as [|n IH]; intros l H; [exact H|]. destruct H; [constructor|]. cbn [skipn]. apply IH. assumption. Qed.

(** no end of a string without a quote *)
Lemma read_str_high : forall f s b r, Forall (fun c => 128 <= code c) s -> read_str f s <> Ok (b, r).
Proof.
  induction f as [|f IH]; intros s b r H; [discriminate|]. destruct s as [|c t]; [discriminate|]. inversion H as [|? ? Hc Ht]; subst. cbn [read_str].
  destruct (Ascii.eqb_spec c cQuote) as [->|_]; [exfalso; apply Hc; reflexivity|].
  destruct (Ascii.eqb_spec c cBack) as [->|_]; [exfalso; apply Hc; reflexivity|].
  destruct (N.ltb_spec (code c) 32); [lia|].
  destruct (rune_len (c :: t)) as [|n]; intro E; unfold prepend in E; apply bind_ok in E; destruct E as ([b' r'] & E & _); apply IH in E; auto.
  apply Forall_skipn. exact H.
Qed.

Lemma getu4_ext : forall s r t q, getu4 s = Some (r, t) -> getu4 (s ++ q) = Some (r, t ++ q).
Proof.
  intros s r t q H. destruct s as [|a [|b [|c [|d s]]]]; try discriminate. cbn [app getu4] in *.
  destruct (hex_val a), (hex_val b), (hex_val c), (hex_val d); try discriminate. injection H as <- <-. reflexivity.
Qed.

Lemma getu4_len : forall s r t, getu4 s = Some (r, t) -> (length s = 4 + length t)%nat.
Proof.
  intros s r t H. destruct s as [|a [|b [|c [|d s]]]]; try discriminate. cbn [getu4] in H.
  destruct (hex_val a), (hex_val b), (hex_val c), (hex_val d); try discriminate. injection H as <- <-. reflexivity.
Qed.

Lemma second_half_ext : forall r1 s q r t, second_half r1 s = Some (r, t) -> second_half r1 (s ++ q) = Some (r, t ++ q).
Proof.
  intros r1 [|a [|b s]] q r t H; try discriminate. cbn [app second_half] in *. destruct (Ascii.eqb a cBack && Ascii.eqb b "u"); [|discriminate].
  destruct (getu4 s) as [[r2 t']|] eqn:E; [|discriminate]. rewrite (getu4_ext _ _ _ q E). destruct (_ && _); [|discriminate]. injection H as <- <-. reflexivity.
Qed.

Lemma second_half_none : forall r1 s q f b r, second_half r1 s = None -> read_str f s = Ok (b, r) -> second_half r1 (s ++ q) = None.
Proof.
  intros r1 s q f b r H R. destruct f as [|f]; [discriminate|]. destruct s as [|a s]; [discriminate|].
  destruct s as [|a2 s].
  - cbn [read_str] in R. cbn [app second_half]. destruct q as [|a2 q]; [reflexivity|]. destruct (Ascii.eqb_spec a cBack) as [->|]; [|reflexivity]. discriminate R.
  - cbn [app second_half] in *. destruct (Ascii.eqb a cBack) eqn:Ea; [|reflexivity]. destruct (Ascii.eqb a2 "u") eqn:Eu; [|reflexivity]. cbn [andb] in *.
    destruct (getu4 s) as [[r2 t']|] eqn:E.
    + rewrite (getu4_ext _ _ _ q E). destruct (_ && _); [discriminate|reflexivity].
    + exfalso. cbn [read_str] in R. apply Ascii.eqb_eq in Ea. subst a. change (Ascii.eqb cBack cQuote) with false in R. change (Ascii.eqb cBack cBack) with true in R.
      cbv iota in R. rewrite Eu, E in R. discriminate.
Qed.

Lemma read_str_ext : forall f s b r, read_str f s = Ok (b, r) -> forall q f', (f <= f')%nat -> read_str f' (s ++ q) = Ok (b, r ++ q).
Proof.
  assert (PR : forall x f s b r, prepend x (read_str f s) = Ok (b, r) -> exists b', read_str f s = Ok (b', r) /\ b = x ++ b').
  { intros x f s b r H. unfold prepend in H. apply bind_ok in H. destruct H as ([b' r'] & E & H). injection H as <- <-. eauto. }
  induction f as [|f IH]; intros s b r H q f' L; [discriminate|]. destruct f' as [|f']; [lia|]. destruct s as [|c t]; [discriminate|].
  cbn [app]. cbn [read_str] in *.
  destruct (Ascii.eqb c cQuote); [injection H as <- <-; reflexivity|].
  destruct (Ascii.eqb c cBack).
  { destruct t as [|e t']; [discriminate|]. cbn [app]. destruct (Ascii.eqb e "u").
    - destruct (getu4 t') as [[k t2]|] eqn:E; [|discriminate]. rewrite (getu4_ext _ _ _ q E).
      destruct ((55296 <=? k) && (k <? 57344)).
      + destruct (second_half k t2) as [[p t3]|] eqn:E2.
        * rewrite (second_half_ext _ _ q _ _ E2). apply PR in H. destruct H as (b' & H & ->). rewrite (IH _ _ _ H) by lia. reflexivity.
        * apply PR in H. destruct H as (b' & H & ->). rewrite (second_half_none _ _ q _ _ _ E2 H). rewrite (IH _ _ _ H) by lia. reflexivity.
      + apply PR in H. destruct H as (b' & H & ->). rewrite (IH _ _ _ H) by lia. reflexivity.
    - destruct (unescape e); [|discriminate]. apply PR in H. destruct H as (b' & H & ->). rewrite (IH _ _ _ H) by lia. reflexivity. }
  destruct (code c <? 32); [discriminate|].
  assert (RL : rune_len (c :: t ++ q) = rune_len (c :: t)).
  { destruct (rune_len_ext c t q) as [E|F]; [exact E|]. exfalso.
    destruct (rune_len (c :: t)) as [|n]; apply PR in H; destruct H as (b' & H & _); revert H; apply read_str_high; [exact F|]. cbn [skipn]. apply Forall_skipn. exact F. }
  rewrite RL. destruct (rune_len (c :: t)) as [|n] eqn:E.
  - apply PR in H. destruct H as (b' & H & ->). rewrite (IH _ _ _ H) by lia. reflexivity.
  - destruct (rune_len_char _ _ E (Nat.neq_succ_0 n)) as [_ Ln]. apply PR in H. destruct H as (b' & H & ->).
    change (c :: t ++ q) with ((c :: t) ++ q). rewrite firstn_app, skipn_app. replace (S n - length (c :: t))%nat with 0%nat by lia.
    cbn [firstn skipn]. rewrite app_nil_r. cbn [skipn] in H. rewrite (IH _ _ _ H) by lia. reflexivity.
Qed.

Lemma span_ext : forall s d r q, span_digits s = (d, r) -> r <> [] -> span_digits (s ++ q) = (d, r ++ q).
Proof.
  induction s as [|c s IH]; intros d r q H N; cbn [app span_digits] in *; [injection H as <- <-; congruence|].
  destruct (is_digit c); [|injection H as <- <-; reflexivity].
  destruct (span_digits s) as [d' r'] eqn:E. injection H as <- <-. rewrite (IH _ _ q eq_refl N). reflexivity.
Qed.

Lemma digits1_ext : forall s d r q, digits1 s = Some (d, r) -> r <> [] -> digits1 (s ++ q) = Some (d, r ++ q).
Proof.
  intros s d r q H N. unfold digits1 in *. destruct (span_digits s) as [d' r'] eqn:E. destruct d' as [|x d']; [discriminate|]. injection H as <- <-.
  rewrite (span_ext _ _ _ q E N). reflexivity.
Qed.

Lemma exp_ext : forall s d r q, read_exp s = Some (d, r) -> r <> [] -> read_exp (s ++ q) = Some (d, r ++ q).
Proof.
  intros s d r q H N. destruct s as [|c t]; [injection H as <- <-; congruence|]. cbn [app read_exp] in *. destruct (Ascii.eqb c "e" || Ascii.eqb c "E").
  - destruct t as [|x t]; [discriminate|]. cbn [app]. destruct (Ascii.eqb x "+" || Ascii.eqb x "-").
    + destruct (digits1 t) as [[u v]|] eqn:E; [|discriminate]. cbn in H. injection H as <- <-. rewrite (digits1_ext _ _ _ q E N). reflexivity.
    + destruct (digits1 (x :: t)) as [[u v]|] eqn:E; [|discriminate]. cbn in H. injection H as <- <-.
      change (x :: t ++ q) with ((x :: t) ++ q). rewrite (digits1_ext _ _ _ q E N). reflexivity.
  - injection H as <- <-. reflexivity.
Qed.

Lemma frac_ext : forall s d r q, read_frac s = Some (d, r) -> r <> [] -> read_frac (s ++ q) = Some (d, r ++ q).
Proof.
  intros s d r q H N. destruct s as [|c t]; [injection H as <- <-; congruence|]. cbn [app read_frac] in *. destruct (Ascii.eqb c ".").
  - destruct (digits1 t) as [[u v]|] eqn:E; [|discriminate]. cbn in H. injection H as <- <-. rewrite (digits1_ext _ _ _ q E N). reflexivity.
  - injection H as <- <-. reflexivity.
Qed.

Lemma int_ext : forall s d r q, read_int s = Some (d, r) -> r <> [] -> read_int (s ++ q) = Some (d, r ++ q).
Proof.
  intros s d r q H N. destruct s as [|c t]; [discriminate|]. cbn [app read_int] in *. destruct (Ascii.eqb c "0").
  - injection H as <- <-. reflexivity.
  - change (c :: t ++ q) with ((c :: t) ++ q). apply digits1_ext; assumption.
Qed.

Lemma span_app : forall s d r, span_digits s = (d, r) -> s = d ++ r.
Proof.
  induction s as [|c s IH]; intros d r H; cbn [span_digits] in H; [injection H as <- <-; reflexivity|].
  destruct (is_digit c); [|injection H as <- <-; reflexivity]. destruct (span_digits s) as [d' r'] eqn:E. injection H as <- <-. cbn [app]. f_equal. apply IH. reflexivity.
Qed.

Lemma digits1_app : forall s d r, digits1 s = Some (d, r) -> s = d ++ r /\ d <> [].
Proof.
  intros s d r H. unfold digits1 in H. destruct (span_digits s) as [d' r'] eqn:E. destruct d' as [|x d']; [discriminate|]. injection H as <- <-.
  split; [apply span_app; exact E|discriminate].
Qed.

Lemma num_parts : forall s d r, read_num s = Some (d, r) -> exists s1 s2 s3 a b c e, read_sign s = (a, s1) /\ read_int s1 = Some (b, s2) /\
  read_frac s2 = Some (c, s3) /\ read_exp s3 = Some (e, r) /\ d = a ++ b ++ c ++ e.
Proof.
  intros s d r H. unfold read_num in H. destruct (read_sign s) as [a s1] eqn:E1. destruct (read_int s1) as [[b s2]|] eqn:E2; [|discriminate].
  destruct (read_frac s2) as [[c s3]|] eqn:E3; [|discriminate]. destruct (read_exp s3) as [[e s4]|] eqn:E4; [|discriminate].
  injection H as <- <-. exists s1, s2, s3, a, b, c, e. auto.
Qed.

Lemma exp_app : forall s d r, read_exp s = Some (d, r) -> s = d ++ r.
Proof.
  intros s d r H. destruct s as [|c t]; [injection H as <- <-; reflexivity|]. cbn [read_exp] in H. destruct (Ascii.eqb c "e" || Ascii.eqb c "E").
  - destruct t as [|x t]; [discriminate|]. destruct (Ascii.eqb x "+" || Ascii.eqb x "-").
    + destruct (digits1 t) as [[u v]|] eqn:E; [|discriminate]. cbn in H. injection H as <- <-. rewrite (proj1 (digits1_app _ _ _ E)). reflexivity.
    + destruct (digits1 (x :: t)) as [[u v]|] eqn:E; [|discriminate]. cbn in H. injection H as <- <-. rewrite (proj1 (digits1_app _ _ _ E)). reflexivity.
  - injection H as <- <-. reflexivity.
Qed.
Lemma frac_app : forall s d r, read_frac s = Some (d, r) -> s = d ++ r.
Proof.
  intros s d r H. destruct s as [|c t]; [injection H as <- <-; reflexivity|]. cbn [read_frac] in H. destruct (Ascii.eqb c ".").
  - destruct (digits1 t) as [[u v]|] eqn:E; [|discriminate]. cbn in H. injection H as <- <-. rewrite (proj1 (digits1_app _ _ _ E)). reflexivity.
  - injection H as <- <-. reflexivity.
Qed.
Lemma int_app : forall s d r, read_int s = Some (d, r) -> s = d ++ r /\ d <> [].
Proof.
  intros s d r H. destruct s as [|c t]; [discriminate|]. cbn [read_int] in H. destruct (Ascii.eqb c "0").
  - injection H as <- <-. split; [reflexivity|discriminate].
  - apply digits1_app. exact H.
Qed.
Lemma sign_app : forall s d r, read_sign s = (d, r) -> s = d ++ r.
Proof. intros s d r H. destruct s as [|c t]; [injection H as <- <-; reflexivity|]. cbn [read_sign] in H. destruct (Ascii.eqb c "-"); injection H as <- <-; reflexivity. Qed.

Lemma num_app : forall s d r, read_num s = Some (d, r) -> s = d ++ r /\ d <> [].
Proof.
  intros s d r H. destruct (num_parts _ _ _ H) as (s1 & s2 & s3 & a & b & c & e & E1 & E2 & E3 & E4 & ->).
  apply sign_app in E1. apply int_app in E2. destruct E2 as [E2 NE]. apply frac_app in E3. apply exp_app in E4. subst. rewrite <- !app_assoc.
  split; [reflexivity|]. destruct a; [|discriminate]. destruct b; [congruence|discriminate].
Qed.

Lemma num_ext : forall s d r q, read_num s = Some (d, r) -> r <> [] -> read_num (s ++ q) = Some (d, r ++ q).
Proof.
  intros s d r q H N. destruct (num_parts _ _ _ H) as (s1 & s2 & s3 & a & b & c & e & E1 & E2 & E3 & E4 & ->).
  assert (N3 : s3 <> []) by (rewrite (exp_app _ _ _ E4); destruct e; [exact N|discriminate]).
  assert (N2 : s2 <> []) by (rewrite (frac_app _ _ _ E3); destruct c; [exact N3|discriminate]).
  assert (S : read_sign (s ++ q) = (a, s1 ++ q)).
  { destruct s as [|x t]; [injection E1 as <- <-; discriminate|]. cbn [app read_sign] in *. destruct (Ascii.eqb x "-"); injection E1 as <- <-; reflexivity. }
  unfold read_num. rewrite S, (int_ext _ _ _ q E2 N2), (frac_ext _ _ _ q E3 N3), (exp_ext _ _ _ q E4 N). reflexivity.
Qed.

Lemma skip_ext : forall s c t q, skip_space s = c :: t -> skip_space (s ++ q) = (c :: t) ++ q.
Proof.
  induction s as [|x s IH]; intros c t q H; [discriminate|]. cbn [skip_space app] in *. destruct (is_space x); [apply IH; exact H|]. injection H as <- <-. reflexivity.
Qed.
Lemma expect_ext : forall w s r q, expect w s = Some r -> expect w (s ++ q) = Some (r ++ q).
Proof.
  induction w as [|a w IH]; intros s r q H; cbn [expect] in *; [injection H as <-; reflexivity|]. destruct s as [|b s]; [discriminate|]. cbn [app].
  destruct (Ascii.eqb a b); [apply IH; exact H|discriminate].
Qed.
Lemma word_ext : forall w v s u r q, read_word w v s = Ok (u, r) -> read_word w v (s ++ q) = Ok (u, r ++ q).
Proof.
  intros w v s u r q H. unfold read_word in *. destruct (expect (text w) s) as [t|] eqn:E; [|discriminate]. injection H as <- <-. rewrite (expect_ext _ _ _ q E). reflexivity.
Qed.

Definition is_num (v : json) : bool := match v with JNum _ => true | _ => false end.

Lemma read_ext : forall f,
  (forall s u r, read_value f s = Ok (u, r) -> is_num u = false \/ r <> [] -> forall q f', (f <= f')%nat -> read_value f' (s ++ q) = Ok (u, r ++ q)) /\
  (forall s l r, read_elements f s = Ok (l, r) -> forall q f', (f <= f')%nat -> read_elements f' (s ++ q) = Ok (l, r ++ q)) /\
  (forall s l r, read_members f s = Ok (l, r) -> forall q f', (f <= f')%nat -> read_members f' (s ++ q) = Ok (l, r ++ q)).
Proof.
  assert (Skip : forall r c t, skip_space r = c :: t -> r <> []) by (intros [|x r] c t H; discriminate).
  induction f as [|f IH]; [repeat split; discriminate|]. destruct IH as (IV & IE & IM). split; [|split].
  - intros s u r H Hn q f' L. destruct f' as [|f']; [lia|]. cbn [read_value] in *.
    destruct (skip_space s) as [|c t] eqn:E; [discriminate|]. rewrite (skip_ext _ _ _ q E). cbn [app].
    destruct (Ascii.eqb c "{").
    { destruct (skip_space t) as [|d t'] eqn:E2; [discriminate|]. rewrite (skip_ext _ _ _ q E2). cbn [app].
      destruct (Ascii.eqb d "}"); [injection H as <- <-; reflexivity|]. apply bind_ok in H. destruct H as ([l r'] & H & Q). injection Q as <- <-.
      change (d :: t' ++ q) with ((d :: t') ++ q). rewrite (IM _ _ _ H) by lia. reflexivity. }
    destruct (Ascii.eqb c "[").
    { destruct (skip_space t) as [|d t'] eqn:E2; [discriminate|]. rewrite (skip_ext _ _ _ q E2). cbn [app].
      destruct (Ascii.eqb d "]"); [injection H as <- <-; reflexivity|]. apply bind_ok in H. destruct H as ([l r'] & H & Q). injection Q as <- <-.
      change (d :: t' ++ q) with ((d :: t') ++ q). rewrite (IE _ _ _ H) by lia. reflexivity. }
    destruct (Ascii.eqb c cQuote).
    { apply bind_ok in H. destruct H as ([b r'] & H & Q). injection Q as <- <-. rewrite (read_str_ext _ _ _ _ H) by (rewrite app_length; lia). reflexivity. }
    change (c :: t ++ q) with ((c :: t) ++ q).
    destruct (Ascii.eqb c "n"); [apply word_ext; exact H|]. destruct (Ascii.eqb c "t"); [apply word_ext; exact H|]. destruct (Ascii.eqb c "f"); [apply word_ext; exact H|].
    destruct (read_num (c :: t)) as [[b r']|] eqn:E2; [|discriminate]. injection H as <- <-. destruct Hn as [Hn|Hn]; [discriminate|].
    rewrite (num_ext _ _ _ q E2 Hn). reflexivity.
  - intros s l r H q f' L. destruct f' as [|f']; [lia|]. cbn [read_elements] in *. apply bind_ok in H. destruct H as ([v r1] & H & Q).
    destruct (skip_space r1) as [|c t] eqn:E; [discriminate|]. rewrite (IV _ _ _ H) by (lia || (right; apply (Skip _ _ _ E))). cbn [bind].
    rewrite (skip_ext _ _ _ q E). cbn [app]. destruct (Ascii.eqb c "]"); [injection Q as <- <-; reflexivity|]. destruct (Ascii.eqb c cComma); [|discriminate].
    apply bind_ok in Q. destruct Q as ([l' r2] & Q & Q'). injection Q' as <- <-. rewrite (IE _ _ _ Q) by lia. reflexivity.
  - intros s l r H q f' L. destruct f' as [|f']; [lia|]. cbn [read_members] in *.
    destruct (skip_space s) as [|c t] eqn:E; [discriminate|]. rewrite (skip_ext _ _ _ q E). cbn [app].
    destruct (Ascii.eqb c cQuote); [|discriminate]. apply bind_ok in H. destruct H as ([k r0] & H0 & H). rewrite (read_str_ext _ _ _ _ H0) by (rewrite app_length; lia). cbn [bind].
    destruct (skip_space r0) as [|c2 t2] eqn:E2; [discriminate|]. rewrite (skip_ext _ _ _ q E2). cbn [app]. destruct (Ascii.eqb c2 ":"); [|discriminate].
    apply bind_ok in H. destruct H as ([v r1] & H & Q).
    destruct (skip_space r1) as [|c3 t3] eqn:E3; [discriminate|]. rewrite (IV _ _ _ H) by (lia || (right; apply (Skip _ _ _ E3))). cbn [bind].
    rewrite (skip_ext _ _ _ q E3). cbn [app]. destruct (Ascii.eqb c3 "}"); [injection Q as <- <-; reflexivity|]. destruct (Ascii.eqb c3 cComma); [|discriminate].
    apply bind_ok in Q. destruct Q as ([l' r2] & Q & Q'). injection Q' as <- <-. rewrite (IM _ _ _ Q) by lia. reflexivity.
Qed.

(** an array or object *)
Definition compound (v : json) : Prop := match v with JArr _ | JObj _ => True | _ => False end.

Lemma compound_head : forall v, compound v -> exists t c, write v = c :: t /\ (c = "{"%char \/ c = "["%char).
Proof. intros [| | | |l|l] H; try destruct H; cbn [write]; eauto. Qed.

Lemma write_prefix : forall v p q, numbers_ok v -> compound v -> write v = p ++ q -> q <> [] -> forall u, parse_json p <> Ok u.
Proof.
  intros v p q K C E Hq u H. unfold parse_json in H. apply bind_ok in H. destruct H as ([w r] & H & Hr).
  assert (Nw : is_num w = false).
  { destruct (compound_head v C) as (t & c & Ev & Hc). destruct p as [|c' p]; [discriminate|]. rewrite Ev in E. cbn [app] in E. injection E as <- _.
    set (F := (2 * S (length (c :: p)))%nat) in H. destruct F as [|F]; [discriminate|]. cbn [read_value] in H.
    rewrite skip_head in H by (destruct Hc as [-> | ->]; reflexivity).
    destruct Hc as [-> | ->].
    - change (Ascii.eqb "{" "{") with true in H. cbv iota in H. destruct (skip_space p) as [|d t']; [discriminate|]. destruct (Ascii.eqb d "}"); [injection H as <- _; reflexivity|].
      apply bind_ok in H. destruct H as ([l r'] & _ & H). injection H as <- _. reflexivity.
    - change (Ascii.eqb "[" "{") with false in H. change (Ascii.eqb "[" "[") with true in H. cbv iota in H. destruct (skip_space p) as [|d t']; [discriminate|]. destruct (Ascii.eqb d "]"); [injection H as <- _; reflexivity|].
      apply bind_ok in H. destruct H as ([l r'] & _ & H). injection H as <- _. reflexivity. }
  pose proof (proj1 (read_ext _) _ _ _ H (or_introl Nw) q (2 * S (length (p ++ q)))%nat ltac:(rewrite app_length; lia)) as X. rewrite <- E in X.
  pose proof (read_write v K (2 * S (length (write v)))%nat [] ltac:(lia) I) as Y. rewrite app_nil_r in Y. rewrite Y in X. injection X as _ X.
  symmetry in X. apply app_eq_nil in X. destruct X as [_ X]. congruence.
Qed.

Lemma write_garbage : forall v g, numbers_ok v -> compound v -> skip_space g <> [] -> parse_json (write v ++ g) = Panic.
Proof.
  intros v g K C G. unfold parse_json.
  pose proof (read_write v K (2 * S (length (write v)))%nat [] ltac:(lia) I) as Y. rewrite app_nil_r in Y.
  rewrite (proj1 (read_ext _) _ _ _ Y ltac:(left; destruct v; try destruct C; reflexivity) g (2 * S (length (write v ++ g)))%nat) by (rewrite app_length; lia).
  cbn [bind app]. destruct (skip_space g); [congruence|reflexivity].
Qed.

(** ** The reader ends *)

Lemma skip_len : forall s, (length (skip_space s) <= length s)%nat.
Proof. induction s as [|c s IH]; [cbn; lia|]. cbn [skip_space]. destruct (is_space c); cbn [length]; lia. Qed.

Lemma second_half_len : forall r1 s r t, second_half r1 s = Some (r, t) -> (length t < length s)%nat.
Proof.
  intros r1 [|a [|b s]] r t H; try discriminate. cbn [second_half] in H. destruct (_ && _); [|discriminate].
  destruct (getu4 s) as [[r2 t']|] eqn:E; [|discriminate]. destruct (_ && _); [|discriminate]. injection H as <- <-. apply getu4_len in E. cbn [length]. lia.
Qed.

Lemma read_str_ends : forall f s, (length s < f)%nat -> read_str f s <> Fuel /\ forall b r, read_str f s = Ok (b, r) -> (length r < length s)%nat.
Proof.
  assert (PR : forall x f s, read_str f s <> Fuel /\ (forall b r, read_str f s = Ok (b, r) -> (length r < length s)%nat) ->
    prepend x (read_str f s) <> Fuel /\ forall b r, prepend x (read_str f s) = Ok (b, r) -> (length r < length s)%nat).
  { intros x f s [A B]. unfold prepend. destruct (read_str f s) as [[b r]| |]; cbn [bind]; split; try discriminate; try congruence.
    intros b' r' E. injection E as _ <-. apply (B b r eq_refl). }
  assert (W : forall (x : res (bytes * bytes)) n m, (n <= m)%nat -> x <> Fuel /\ (forall b r, x = Ok (b, r) -> (length r < n)%nat) ->
    x <> Fuel /\ (forall b r, x = Ok (b, r) -> (length r < m)%nat)).
  { intros x n m L [A B]. split; [exact A|]. intros b r E. specialize (B b r E). lia. }
  induction f as [|f IH]; intros s H; [lia|]. cbn [read_str]. destruct s as [|c t]; [split; discriminate|]. cbn [length] in *.
  destruct (Ascii.eqb c cQuote); [split; [discriminate|]; intros b r E; injection E as _ <-; lia|].
  destruct (Ascii.eqb c cBack).
  { destruct t as [|e t']; [split; discriminate|]. cbn [length] in *. destruct (Ascii.eqb e "u").
    - destruct (getu4 t') as [[k t2]|] eqn:E; [|split; discriminate]. apply getu4_len in E.
      destruct ((55296 <=? k) && (k <? 57344)); [destruct (second_half k t2) as [[p t3]|] eqn:E2|].
      + apply second_half_len in E2. apply (W _ (length t3)); [lia|]. apply PR, IH. lia.
      + apply (W _ (length t2)); [lia|]. apply PR, IH. lia.
      + apply (W _ (length t2)); [lia|]. apply PR, IH. lia.
    - destruct (unescape e); [|split; discriminate]. apply (W _ (length t')); [lia|]. apply PR, IH. lia. }
  destruct (code c <? 32); [split; discriminate|].
  destruct (rune_len (c :: t)) as [|n].
  - apply (W _ (length t)); [lia|]. apply PR, IH. lia.
  - cbn [skipn]. pose proof (skipn_length n t) as Ls. apply (W _ (length (skipn n t))); [lia|]. apply PR, IH. lia.
Qed.

Lemma expect_len : forall w s r, expect w s = Some r -> (length r + length w = length s)%nat.
Proof.
  induction w as [|a w IH]; intros s r H; cbn [expect] in H; [injection H as <-; cbn; lia|]. destruct s as [|b s]; [discriminate|].
  destruct (Ascii.eqb a b); [|discriminate]. apply IH in H. cbn [length]. lia.
Qed.

Lemma word_ends : forall w v s, (0 < String.length w)%nat -> read_word w v s <> Fuel /\ forall u r, read_word w v s = Ok (u, r) -> (length r < length s)%nat.
Proof.
  intros w v s H. unfold read_word. destruct (expect (text w) s) as [t|] eqn:E; [|split; discriminate]. split; [discriminate|]. intros u r Q. injection Q as _ <-.
  apply expect_len in E. assert (L : length (text w) = String.length w) by (clear; unfold text; induction w as [|a w IH]; [reflexivity|]; cbn [list_ascii_of_string String.length length]; rewrite IH; reflexivity). lia.
Qed.

Lemma read_ends : forall f,
  (forall s, (2 * length s + 1 <= f)%nat -> read_value f s <> Fuel /\ forall u r, read_value f s = Ok (u, r) -> (length r < length s)%nat) /\
  (forall s, (2 * length s + 2 <= f)%nat -> read_elements f s <> Fuel /\ forall l r, read_elements f s = Ok (l, r) -> (length r < length s)%nat) /\
  (forall s, (2 * length s + 2 <= f)%nat -> read_members f s <> Fuel /\ forall l r, read_members f s = Ok (l, r) -> (length r < length s)%nat).
Proof.
  induction f as [|f IH]; [repeat split; lia|]. destruct IH as (IV & IE & IM). split; [|split]; intros s H.
  - cbn [read_value]. pose proof (skip_len s) as L. destruct (skip_space s) as [|c t]; [split; discriminate|]. cbn [length] in L.
    destruct (Ascii.eqb c "{").
    { pose proof (skip_len t) as L2. destruct (skip_space t) as [|d t'] eqn:E2; [split; discriminate|]. cbn [length] in L2.
      destruct (Ascii.eqb d "}"); [split; [discriminate|]; intros u r Q; injection Q as _ <-; lia|].
      destruct (IM (d :: t')) as [A B]; [cbn [length]; lia|]. destruct (read_members f (d :: t')) as [[l r]| |]; cbn [bind]; split; try discriminate; try congruence.
      intros u r' Q. injection Q as _ <-. specialize (B _ _ eq_refl). cbn [length] in B. lia. }
    destruct (Ascii.eqb c "[").
    { pose proof (skip_len t) as L2. destruct (skip_space t) as [|d t'] eqn:E2; [split; discriminate|]. cbn [length] in L2.
      destruct (Ascii.eqb d "]"); [split; [discriminate|]; intros u r Q; injection Q as _ <-; lia|].
      destruct (IE (d :: t')) as [A B]; [cbn [length]; lia|]. destruct (read_elements f (d :: t')) as [[l r]| |]; cbn [bind]; split; try discriminate; try congruence.
      intros u r' Q. injection Q as _ <-. specialize (B _ _ eq_refl). cbn [length] in B. lia. }
    destruct (Ascii.eqb c cQuote).
    { destruct (read_str_ends (S (length t)) t (Nat.lt_succ_diag_r _)) as [A B]. destruct (read_str _ t) as [[b r]| |]; cbn [bind]; split; try discriminate; try congruence.
      intros u r' Q. injection Q as _ <-. specialize (B _ _ eq_refl). lia. }
    assert (W : forall w v, (0 < String.length w)%nat -> read_word w v (c :: t) <> Fuel /\ forall u r, read_word w v (c :: t) = Ok (u, r) -> (length r < length s)%nat).
    { intros w v Hw. destruct (word_ends w v (c :: t) Hw) as [A B]. split; [exact A|]. intros u r Q. specialize (B u r Q). cbn [length] in B. lia. }
    destruct (Ascii.eqb c "n"); [apply W; cbn; lia|]. destruct (Ascii.eqb c "t"); [apply W; cbn; lia|]. destruct (Ascii.eqb c "f"); [apply W; cbn; lia|].
    destruct (read_num (c :: t)) as [[b r]|] eqn:E; [|split; discriminate]. split; [discriminate|]. intros u r' Q. injection Q as _ <-.
    destruct (num_app _ _ _ E) as [E2 NE]. apply (f_equal (@length _)) in E2. rewrite app_length in E2. cbn [length] in E2. destruct b; [congruence|]. cbn [length] in E2. lia.
  - cbn [read_elements]. destruct (IV s) as [A B]; [lia|]. destruct (read_value f s) as [[v r]| |]; cbn [bind]; try (split; [congruence|discriminate]).
    specialize (B _ _ eq_refl). pose proof (skip_len r) as L. destruct (skip_space r) as [|c t]; [split; discriminate|]. cbn [length] in L.
    destruct (Ascii.eqb c "]"); [split; [discriminate|]; intros u r' Q; injection Q as _ <-; lia|]. destruct (Ascii.eqb c cComma); [|split; discriminate].
    destruct (IE t) as [A2 B2]; [lia|]. destruct (read_elements f t) as [[l r2]| |]; cbn [bind]; split; try discriminate; try congruence.
    intros u r' Q. injection Q as _ <-. specialize (B2 _ _ eq_refl). lia.
  - cbn [read_members]. pose proof (skip_len s) as L0. destruct (skip_space s) as [|c0 t0]; [split; discriminate|]. cbn [length] in L0.
    destruct (Ascii.eqb c0 cQuote); [|split; discriminate].
    destruct (read_str_ends (S (length t0)) t0 (Nat.lt_succ_diag_r _)) as [A0 B0]. destruct (read_str _ t0) as [[k r0]| |]; cbn [bind]; try (split; [congruence|discriminate]).
    specialize (B0 _ _ eq_refl). pose proof (skip_len r0) as L1. destruct (skip_space r0) as [|c1 t1]; [split; discriminate|]. cbn [length] in L1.
    destruct (Ascii.eqb c1 ":"); [|split; discriminate].
    destruct (IV t1) as [A B]; [lia|]. destruct (read_value f t1) as [[v r]| |]; cbn [bind]; try (split; [congruence|discriminate]).
    specialize (B _ _ eq_refl). pose proof (skip_len r) as L. destruct (skip_space r) as [|c t]; [split; discriminate|]. cbn [length] in L.
    destruct (Ascii.eqb c "}"); [split; [discriminate|]; intros u r' Q; injection Q as _ <-; lia|]. destruct (Ascii.eqb c cComma); [|split; discriminate].
    destruct (IM t) as [A2 B2]; [lia|]. destruct (read_members f t) as [[l r2]| |]; cbn [bind]; split; try discriminate; try congruence.
    intros u r' Q. injection Q as _ <-. specialize (B2 _ _ eq_refl). lia.
Qed.

Lemma parse_ends : forall s, parse_json s <> Fuel.
Proof.
  intro s. unfold parse_json. destruct (proj1 (read_ends (2 * S (length s))%nat) s) as [A _]; [lia|].
  destruct (read_value _ s) as [[v r]| |]; cbn [bind]; [destruct (skip_space r); discriminate|discriminate|congruence].
Qed.

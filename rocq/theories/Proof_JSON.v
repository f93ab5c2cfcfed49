(** Lemmas about Model_JSON. *)
From Coq Require Import String Ascii NArith Lia.
From Verif Require Import Base Num Model_CSVBytes Model_JSON Spec_JSON.
Open Scope list_scope.
Open Scope N_scope.

(** ** UTF-8 *)

Lemma next_some : forall lo hi s t, next lo hi s = Some t -> exists c, s = c :: t /\ between lo hi c.
Proof.
  intros lo hi [|c s] t H; [discriminate|]. cbn [next] in H. destruct ((lo <=? code c) && (code c <=? hi)) eqn:E; [|discriminate].
  injection H as ->. exists c. split; [reflexivity|]. apply andb_prop in E. destruct E as [E1 E2]. apply N.leb_le in E1, E2. split; assumption.
Qed.

Lemma next_ok : forall lo hi c t, between lo hi c -> next lo hi (c :: t) = Some t.
Proof. intros lo hi c t [H1 H2]. cbn [next]. apply N.leb_le in H1, H2. rewrite H1, H2. reflexivity. Qed.

Ltac byte_cases :=
  repeat match goal with
  | |- context [?x <? ?y] => destruct (N.ltb_spec x y)
  | |- context [?x =? ?y] => destruct (N.eqb_spec x y)
  | H : context [?x <? ?y] |- _ => destruct (N.ltb_spec x y)
  | H : context [?x =? ?y] |- _ => destruct (N.eqb_spec x y)
  end.

Lemma rune_len_char : forall s n, rune_len s = n -> n <> 0%nat -> utf8_char (firstn n s) /\ (n <= length s)%nat.
Proof.
  intros [|a s] n H H0; [cbn in H; congruence|]. unfold rune_len in H. cbv zeta in H.
  destruct (N.ltb_spec (code a) 128).
  { subst n. split; [apply U1; split; lia|cbn; lia]. }
  destruct (N.ltb_spec (code a) 194); [congruence|].
  destruct (N.ltb_spec (code a) 224).
  { destruct (next 128 191 s) as [t|] eqn:E; [|congruence]. subst n. apply next_some in E. destruct E as (b & -> & B).
    split; [apply U2; [split; lia|exact B]|cbn; lia]. }
  destruct (N.ltb_spec (code a) 240).
  { destruct (next _ _ s) as [t|] eqn:E in H; [|congruence]. destruct (next 128 191 t) as [t'|] eqn:E'; [|congruence]. subst n.
    apply next_some in E. destruct E as (b & -> & B). apply next_some in E'. destruct E' as (c & -> & C).
    split; [|cbn; lia]. cbn [firstn]. destruct (N.eqb_spec (code a) 224); [apply U3a; [split; lia| |exact C]|].
    - destruct (N.eqb_spec (code a) 237); [lia|exact B].
    - destruct (N.eqb_spec (code a) 237); [apply U3c; [split; lia|exact B|exact C]|].
      apply U3b; [|exact B|exact C]. unfold between. lia. }
  destruct (N.ltb_spec (code a) 245); [|congruence].
  destruct (next _ _ s) as [t|] eqn:E in H; [|congruence]. destruct (next 128 191 t) as [t'|] eqn:E'; [|congruence].
  destruct (next 128 191 t') as [t''|] eqn:E''; [|congruence]. subst n.
  apply next_some in E. destruct E as (b & -> & B). apply next_some in E'. destruct E' as (c & -> & C). apply next_some in E''. destruct E'' as (d & -> & D).
  split; [|cbn; lia]. cbn [firstn]. destruct (N.eqb_spec (code a) 240); [apply U4a; [split; lia| |exact C|exact D]|].
  - destruct (N.eqb_spec (code a) 244); [lia|exact B].
  - destruct (N.eqb_spec (code a) 244); [apply U4c; [split; lia|exact B|exact C|exact D]|].
    apply U4b; [split; lia|exact B|exact C|exact D].
Qed.

Lemma char_rune_len : forall b t, utf8_char b -> rune_len (b ++ t) = length b.
Proof.
  intros b t H.
  destruct H as [a A|a b A B|a b c A B C|a b c A B C|a b c A B C|a b c d A B C D|a b c d A B C D|a b c d A B C D];
    unfold rune_len; cbn [app length]; cbv zeta; unfold between in A;
    repeat match goal with
    | |- context [code a <? ?y] => destruct (N.ltb_spec (code a) y); try lia
    | |- context [code a =? ?y] => destruct (N.eqb_spec (code a) y); try lia
    end; try reflexivity;
    try rewrite (next_ok _ _ b) by exact B; try rewrite (next_ok _ _ c) by exact C; try rewrite (next_ok _ _ d) by exact D; reflexivity.
Qed.

Lemma char_length : forall b, utf8_char b -> (1 <= length b <= 4)%nat.
Proof. intros b H. destruct H; cbn; lia. Qed.

(** runes with enough fuel *)
Lemma runes_more : forall f s, (length s <= f)%nat -> runes f s = runes (length s) s.
Proof.
  induction f as [f IH] using lt_wf_ind. intros s H. destruct f as [|f]; [destruct s; [reflexivity|cbn in H; lia]|].
  destruct s as [|c t]; [reflexivity|]. cbn [length]. cbn [length] in H. cbn [runes].
  destruct (rune_len (c :: t)) as [|n] eqn:E; [f_equal; apply IH; lia|]. f_equal.
  change (skipn (S n) (c :: t)) with (skipn n t).
  assert (L : (length (skipn n t) <= length t)%nat) by (rewrite skipn_length; lia).
  rewrite (IH f) by lia. destruct (Nat.eq_dec (length t) f) as [->|]; [rewrite (IH f) by lia; reflexivity|]. rewrite (IH (length t)) by lia. reflexivity.
Qed.

Lemma runes_nil : runes 0 [] = []. Proof. reflexivity. Qed.

Lemma runes_cons : forall c t, runes (length (c :: t)) (c :: t) =
  match rune_len (c :: t) with
  | O => None :: runes (length t) t
  | n => Some (firstn n (c :: t)) :: runes (length (skipn n (c :: t))) (skipn n (c :: t))
  end.
Proof.
  intros c t. cbn [length runes]. destruct (rune_len (c :: t)) as [|n]; [reflexivity|]. f_equal. apply runes_more.
  change (skipn (S n) (c :: t)) with (skipn n t). rewrite skipn_length. lia.
Qed.

Definition good_rune (r : option bytes) : Prop := match r with None => True | Some b => utf8_char b end.

Lemma runes_good : forall f s, Forall good_rune (runes f s).
Proof.
  induction f as [|f IH]; intro s; [constructor|]. cbn [runes]. destruct s as [|c t]; [constructor|].
  destruct (rune_len (c :: t)) as [|n] eqn:E; [constructor; [exact I|apply IH]|]. constructor; [|apply IH].
  apply (proj1 (rune_len_char (c :: t) (S n) E (Nat.neq_succ_0 n))).
Qed.

(** the string with every byte outside a character replaced *)
Definition rune_val (r : option bytes) : bytes := match r with None => replacement | Some b => b end.
Definition to_valid (s : bytes) : bytes := flat_map rune_val (runes (length s) s).

Lemma runes_concat : forall n s, (length s <= n)%nat -> concat (map (fun r => match r with Some b => b | None => ["?"%char] end) (runes (length s) s)) = s \/ In None (runes (length s) s).
Proof.
  induction n as [|n IH]; intros s H; [destruct s; [left; reflexivity|cbn in H; lia]|]. destruct s as [|c t]; [left; reflexivity|].
  rewrite runes_cons. destruct (rune_len (c :: t)) as [|k] eqn:E; [right; left; reflexivity|]. cbn [map concat].
  destruct (IH (skipn (S k) (c :: t))) as [F|F].
  - cbn [length] in *. change (skipn (S k) (c :: t)) with (skipn k t). rewrite skipn_length. lia.
  - left. rewrite F. apply firstn_skipn.
  - right. right. exact F.
Qed.

Lemma to_valid_length : forall n s, (length s <= n)%nat ->
  (length s <= length (to_valid s))%nat /\ (In None (runes (length s) s) -> (length s < length (to_valid s))%nat).
Proof.
  induction n as [|n IH]; intros s H; [destruct s; [split; [lia|intros []]|cbn in H; lia]|]. destruct s as [|c t]; [split; [cbn; lia|intros []]|].
  unfold to_valid. rewrite runes_cons. destruct (rune_len (c :: t)) as [|k] eqn:E.
  - cbn [flat_map rune_val]. destruct (IH t) as [A _]; [cbn in H; lia|]. unfold to_valid in A. rewrite app_length. change (length replacement) with 3%nat. cbn [length]. split; [|intros _]; lia.
  - destruct (rune_len_char _ _ E (Nat.neq_succ_0 k)) as [_ L]. cbn [flat_map rune_val]. rewrite app_length, firstn_length, Nat.min_l by exact L.
    destruct (IH (skipn (S k) (c :: t))) as [A B]; [rewrite skipn_length; cbn [length] in *; lia|]. unfold to_valid in A, B.
    assert (Q : length (c :: t) = (S k + length (skipn (S k) (c :: t)))%nat) by (rewrite skipn_length; lia).
    split; [lia|]. intros [F|F]; [discriminate|]. specialize (B F). lia.
Qed.

Lemma runes_utf8 : forall l, Forall utf8_char l -> runes (length (concat l)) (concat l) = map Some l.
Proof.
  intros l H. induction H as [|b l Hb Hl IH]; [reflexivity|]. cbn [concat map].
  pose proof (char_length b Hb) as L. destruct b as [|c b]; [cbn in L; lia|]. change ((c :: b) ++ concat l) with (c :: (b ++ concat l)). rewrite runes_cons.
  change (c :: b ++ concat l) with ((c :: b) ++ concat l). rewrite (char_rune_len (c :: b) _ Hb). cbn [length] in *.
  change (S (length b)) with (length (c :: b)). rewrite firstn_app, firstn_all, Nat.sub_diag, skipn_app, skipn_all, Nat.sub_diag.
  cbn [firstn skipn app]. rewrite app_nil_r, IH. reflexivity.
Qed.

Lemma to_valid_utf8 : forall s, utf8 s -> to_valid s = s.
Proof.
  intros s (l & H & ->). unfold to_valid. rewrite runes_utf8 by exact H. rewrite flat_map_concat_map, map_map. cbn [rune_val]. rewrite map_id. reflexivity.
Qed.

Lemma to_valid_iff : forall s, to_valid s = s <-> utf8 s.
Proof.
  intro s. split; [|apply to_valid_utf8]. intro E.
  assert (NB : ~ In None (runes (length s) s)).
  { intro H. pose proof (proj2 (to_valid_length (length s) s (Nat.le_refl _)) H). rewrite E in *. lia. }
  destruct (runes_concat (length s) s (Nat.le_refl _)) as [C|C]; [|contradiction].
  exists (map (fun r => match r with Some b => b | None => ["?"%char] end) (runes (length s) s)). split; [|symmetry; exact C].
  apply Forall_forall. intros b Hb. apply in_map_iff in Hb. destruct Hb as (r & <- & Hr).
  pose proof (proj1 (Forall_forall _ _) (runes_good (length s) s) r Hr) as G. destruct r as [b|]; [exact G|contradiction].
Qed.

Lemma replacement_utf8 : utf8_char replacement.
Proof. vm_compute. apply U3b; unfold between, tail_byte, between; vm_compute; intuition discriminate. Qed.

Lemma to_valid_is_utf8 : forall s, utf8 (to_valid s).
Proof.
  intro s. unfold to_valid. exists (map rune_val (runes (length s) s)). split; [|apply flat_map_concat_map].
  apply Forall_forall. intros b Hb. apply in_map_iff in Hb. destruct Hb as (r & <- & Hr).
  pose proof (proj1 (Forall_forall _ _) (runes_good (length s) s) r Hr) as G. destruct r as [b|]; [exact G|apply replacement_utf8].
Qed.

(** ** Strings *)

Lemma read_rune : forall r f t, good_rune r -> read_str (S f) (esc_rune r ++ t) = prepend (rune_val r) (read_str f t).
Proof.
  intros [b|] f t G; [|reflexivity]. cbn [good_rune rune_val] in *.
  pose proof (char_length b G) as L. destruct b as [|a b]; [cbn in L; lia|].
  destruct b as [|a2 b].
  - assert (A : code a <? 128 = true).
    { inversion G as [a' A| | | | | | |]; subst. apply N.ltb_lt. destruct A as [_ A]. apply N.le_lt_trans with 127; [exact A|reflexivity]. }
    cbn [esc_rune]. clear G L. destruct a as [[] [] [] [] [] [] [] []]; first [discriminate A | reflexivity].
  - assert (A : 128 <= code a).
    { inversion G as [ |? ? A|? ? ? A|? ? ? A|? ? ? A|? ? ? ? A|? ? ? ? A|? ? ? ? A]; subst; unfold between in A; lia. }
    cbn [esc_rune]. destruct (list_eq_dec ascii_dec _ (encode_rune 8232)) as [E|_]; [rewrite E; reflexivity|].
    destruct (list_eq_dec ascii_dec _ (encode_rune 8233)) as [E|_]; [rewrite E; reflexivity|].
    pose proof (char_rune_len (a :: a2 :: b) t G) as R. cbn [app] in *. cbn [read_str].
    destruct (Ascii.eqb_spec a cQuote) as [->|_]; [exfalso; apply A; reflexivity|].
    destruct (Ascii.eqb_spec a cBack) as [->|_]; [exfalso; apply A; reflexivity|].
    destruct (N.ltb_spec (code a) 32); [lia|]. rewrite R. cbn [length].
    change (a :: a2 :: b ++ t) with ((a :: a2 :: b) ++ t). change (S (S (length b))) with (length (a :: a2 :: b)).
    rewrite firstn_app, firstn_all, Nat.sub_diag, skipn_app, skipn_all, Nat.sub_diag. cbn [firstn skipn app]. rewrite app_nil_r. reflexivity.
Qed.

Lemma esc_nonempty : forall r, good_rune r -> (1 <= length (esc_rune r))%nat.
Proof.
  intros [b|] G; [|cbn; lia]. cbn [good_rune] in G. pose proof (char_length b G) as L. destruct b as [|a [|a2 b]]; [cbn in L; lia| |].
  - cbn [esc_rune]. unfold esc_ascii. repeat match goal with |- context [if ?x then _ else _] => destruct x end; cbn; lia.
  - cbn [esc_rune]. repeat match goal with |- context [if ?x then _ else _] => destruct x end; cbn; lia.
Qed.

Lemma read_runes : forall l f rest, Forall good_rune l -> (length (flat_map esc_rune l) < f)%nat ->
  read_str f (flat_map esc_rune l ++ cQuote :: rest) = Ok (flat_map rune_val l, rest).
Proof.
  induction l as [|r l IH]; intros f rest G H; (destruct f as [|f]; [lia|]); [reflexivity|].
  inversion G as [|? ? G1 G2]; subst. cbn [flat_map] in *. rewrite app_length in H. pose proof (esc_nonempty r G1).
  rewrite <- app_assoc, read_rune by exact G1. rewrite IH by (assumption || lia). reflexivity.
Qed.

Lemma read_quote : forall s rest, exists t, quote s ++ rest = cQuote :: t /\ read_str (S (length t)) t = Ok (to_valid s, rest).
Proof.
  intros s rest. eexists. split; [unfold quote; cbn [app]; rewrite <- app_assoc; reflexivity|].
  apply read_runes; [apply runes_good|]. rewrite app_length. lia.
Qed.

(** ** Numbers *)

Lemma digit_is : forall c, digit c -> is_digit c = true.
Proof. intros c [A B]. unfold is_digit. apply N.leb_le in A, B. rewrite A, B. reflexivity. Qed.

Definition no_digit (s : bytes) : Prop := match s with c :: _ => is_digit c = false | [] => True end.

Lemma span_ok : forall d rest, Forall digit d -> no_digit rest -> span_digits (d ++ rest) = (d, rest).
Proof.
  intros d rest H N. induction H as [|c d Hc Hd IH]; cbn [app].
  - destruct rest as [|c t]; [reflexivity|]. cbn [span_digits]. cbn in N. rewrite N. reflexivity.
  - cbn [span_digits]. rewrite (digit_is c Hc), IH. reflexivity.
Qed.

Lemma digits1_ok : forall d rest, some_digits d -> no_digit rest -> digits1 (d ++ rest) = Some (d, rest).
Proof. intros d rest [H1 H2] N. unfold digits1. rewrite span_ok by assumption. destruct d; [congruence|reflexivity]. Qed.

(** the end of a number inside a written text *)
Definition stops (s : bytes) : Prop := match s with c :: _ => c = cComma \/ c = "]"%char \/ c = "}"%char | [] => True end.

Lemma digit_head : forall d, some_digits d -> exists c t, d = c :: t /\ digit c.
Proof. intros [|c t] [H1 H2]; [congruence|]. inversion H2; subst. eauto. Qed.

Lemma digit_neq : forall c x, digit c -> is_digit x = false -> Ascii.eqb c x = false.
Proof. intros c x D H. destruct (Ascii.eqb_spec c x) as [->|]; [rewrite (digit_is x D) in H; discriminate|reflexivity]. Qed.

Lemma exp_ok : forall exp rest, stops rest ->
  (exp = [] \/ exists e s d, exp = e :: s ++ d /\ (e = "e"%char \/ e = "E"%char) /\ (s = [] \/ s = ["+"%char] \/ s = ["-"%char]) /\ some_digits d) ->
  read_exp (exp ++ rest) = Some (exp, rest) /\ no_digit (exp ++ rest) /\ (forall c t, exp ++ rest = c :: t -> Ascii.eqb c "." = false).
Proof.
  intros exp rest S H.
  assert (N : no_digit rest) by (destruct rest as [|c t]; [exact I|destruct S as [-> |[-> | ->]]; reflexivity]).
  destruct H as [-> |(e & s & d & -> & He & Hs & Hd)].
  - cbn [app]. split; [|split; [exact N|]].
    + destruct rest as [|c t]; [reflexivity|]. destruct S as [-> |[-> | ->]]; reflexivity.
    + intros c t ->. destruct S as [-> |[-> | ->]]; reflexivity.
  - split; [|split; [destruct He as [-> | ->]; reflexivity|intros c t E; injection E as <- _; destruct He as [-> | ->]; reflexivity]].
    cbn [app read_exp]. replace (Ascii.eqb e "e" || Ascii.eqb e "E") with true by (destruct He as [-> | ->]; reflexivity).
    destruct Hs as [-> |[-> | ->]]; cbn [app].
    + pose proof (digits1_ok d rest Hd N) as D. destruct (digit_head d Hd) as (c & t & -> & Hc). cbn [app] in *.
      rewrite (digit_neq c "+" Hc eq_refl), (digit_neq c "-" Hc eq_refl). cbn [orb]. rewrite D. reflexivity.
    + change (Ascii.eqb "+" "+" || Ascii.eqb "+" "-") with true. cbv iota. rewrite digits1_ok by assumption. reflexivity.
    + change (Ascii.eqb "-" "+" || Ascii.eqb "-" "-") with true. cbv iota. rewrite digits1_ok by assumption. reflexivity.
Qed.

Lemma num_ok : forall t rest, json_number t -> stops rest -> read_num (t ++ rest) = Some (t, rest).
Proof.
  intros t rest (sg & i & fr & ex & -> & Hs & Hi & Hf & He) S. rewrite <- !app_assoc.
  destruct (exp_ok ex rest S He) as (E1 & E2 & E3). set (tl := ex ++ rest) in *.
  assert (F : read_frac (fr ++ tl) = Some (fr, tl) /\ no_digit (fr ++ tl)).
  { destruct Hf as [-> |(d & -> & Hd)]; cbn [app].
    - split; [|exact E2]. unfold read_frac. destruct tl as [|c u]; [reflexivity|]. rewrite (E3 c u eq_refl). reflexivity.
    - split; [|reflexivity]. cbn [read_frac]. change (Ascii.eqb "." ".") with true. cbv iota. rewrite digits1_ok by assumption. reflexivity. }
  destruct F as [F1 F2]. set (tl2 := fr ++ tl) in *.
  assert (G : read_int (i ++ tl2) = Some (i, tl2) /\ exists c u, i ++ tl2 = c :: u /\ Ascii.eqb c "-" = false).
  { destruct Hi as [-> |[Hd Hh]].
    - split; [reflexivity|]. exists "0"%char, tl2. split; reflexivity.
    - pose proof (digits1_ok i tl2 Hd F2) as D. destruct (digit_head i Hd) as (c & u & -> & Hc). cbn [app] in *. split.
      + unfold read_int. cbn [hd] in Hh. apply Ascii.eqb_neq in Hh. rewrite Hh. exact D.
      + exists c, (u ++ tl2). split; [reflexivity|]. apply digit_neq; [exact Hc|reflexivity]. }
  destruct G as (G1 & c & u & G2 & G3).
  assert (Q : read_sign (sg ++ i ++ tl2) = (sg, i ++ tl2)).
  { destruct Hs as [-> | ->]; cbn [app]; [|reflexivity]. rewrite G2. cbn [read_sign]. rewrite G3. reflexivity. }
  unfold read_num. rewrite Q, G1, F1, E1. reflexivity.
Qed.

Lemma num_head : forall t, json_number t -> exists c u, t = c :: u /\ (c = "-"%char \/ digit c).
Proof.
  intros t (sg & i & fr & ex & -> & Hs & Hi & _).
  destruct Hs as [-> | ->]; [|cbn [app]; eauto].
  destruct Hi as [-> |[Hd _]]; cbn [app].
  - eexists _, _. split; [reflexivity|]. right. split; vm_compute; discriminate.
  - destruct (digit_head i Hd) as (c & u & -> & Hc). cbn [app]. eauto.
Qed.

(** ** Documents *)

Section JsonInd.
  Variable P : json -> Prop.
  Hypothesis Pnull : P JNull.
  Hypothesis Pbool : forall b, P (JBool b).
  Hypothesis Pnum : forall t, P (JNum t).
  Hypothesis Pstr : forall s, P (JStr s).
  Hypothesis Parr : forall l, Forall P l -> P (JArr l).
  Hypothesis Pobj : forall l, Forall (fun m => P (snd m)) l -> P (JObj l).
  Fixpoint json_ind' (v : json) : P v :=
    match v with
    | JNull => Pnull
    | JBool b => Pbool b
    | JNum t => Pnum t
    | JStr s => Pstr s
    | JArr l => Parr l ((fix go l : Forall P l := match l with [] => Forall_nil _ | a :: t => Forall_cons a (json_ind' a) (go t) end) l)
    | JObj l => Pobj l ((fix go l : Forall (fun m => P (snd m)) l := match l with [] => Forall_nil _ | a :: t => Forall_cons a (json_ind' (snd a)) (go t) end) l)
    end.
End JsonInd.

(** the document with every string repaired *)
Fixpoint repair (v : json) : json :=
  match v with
  | JStr s => JStr (to_valid s)
  | JArr l => JArr (map repair l)
  | JObj l => JObj (map (fun m => (to_valid (fst m), repair (snd m))) l)
  | v => v
  end.

Lemma write_head : forall v, numbers_ok v -> exists c t, write v = c :: t /\ is_space c = false /\ Ascii.eqb c "]" = false.
Proof.
  intros [| [] |t|s|l|l] H; try (eexists _, _; split; [reflexivity|split; reflexivity]).
  destruct (num_head t H) as (c & u & -> & D). exists c, u. split; [reflexivity|]. destruct D as [-> |D]; [split; reflexivity|].
  split; [|apply digit_neq; [exact D|reflexivity]]. destruct D as [D1 D2]. unfold is_space. cbv zeta. byte_cases; try lia; reflexivity.
Qed.

Lemma skip_head : forall c t, is_space c = false -> skip_space (c :: t) = c :: t.
Proof. intros c t H. cbn [skip_space]. rewrite H. reflexivity. Qed.

Lemma commas_cons : forall a l, l <> [] -> commas (a :: l) = a ++ cComma :: commas l.
Proof. intros a [|b l] H; [congruence|reflexivity]. Qed.

Definition reads (v : json) : Prop := numbers_ok v -> forall f rest, (2 * length (write v) <= f)%nat -> stops rest ->
  read_value f (write v ++ rest) = Ok (repair v, rest).

Lemma read_elements_ok : forall l, Forall reads l -> l <> [] -> fold_right and True (map numbers_ok l) -> forall f rest,
  (2 * length (commas (map write l)) + 1 <= f)%nat -> read_elements f (commas (map write l) ++ "]"%char :: rest) = Ok (map repair l, rest).
Proof.
  induction l as [|v l IH]; intros R NE K f rest H; [congruence|]. inversion R as [|? ? R1 R2]; subst. cbn [map fold_right] in K. destruct K as [K1 K2].
  destruct f as [|f]; [lia|]. destruct l as [|w l'] eqn:El.
  - cbn [map commas] in *. cbn [read_elements]. rewrite (R1 K1) by (lia || (right; left; reflexivity)). cbn [bind].
    rewrite skip_head by reflexivity. reflexivity.
  - rewrite <- El in *. assert (NL : l <> []) by (rewrite El; discriminate). clear El.
    cbn [map] in *. assert (NM : map write l <> []) by (destruct l; [congruence|discriminate]).
    rewrite commas_cons in * by exact NM. rewrite app_length in H. cbn [length] in H. rewrite <- app_assoc. cbn [app read_elements].
    rewrite (R1 K1) by (lia || (left; reflexivity)). cbn [bind]. rewrite skip_head by reflexivity.
    change (Ascii.eqb cComma "]") with false. change (Ascii.eqb cComma cComma) with true. cbv iota.
    rewrite (IH R2 NL K2) by lia. reflexivity.
Qed.

Definition member (m : bytes * json) : bytes := quote (fst m) ++ ":"%char :: write (snd m).
Definition fix_member (m : bytes * json) : bytes * json := (to_valid (fst m), repair (snd m)).

Lemma read_members_ok : forall l, Forall (fun m => reads (snd m)) l -> l <> [] -> fold_right and True (map (fun m => numbers_ok (snd m)) l) -> forall f rest,
  (2 * length (commas (map member l)) + 1 <= f)%nat -> read_members f (commas (map member l) ++ "}"%char :: rest) = Ok (map fix_member l, rest).
Proof.
  induction l as [|[k v] l IH]; intros R NE K f rest H; [congruence|]. inversion R as [|? ? R1 R2]; subst. cbn [map fold_right snd] in K, R1. destruct K as [K1 K2].
  destruct f as [|f]; [lia|].
  assert (ML : forall m, (length (write (snd m)) < length (member m))%nat) by (intro m; unfold member; rewrite app_length; cbn [length]; lia).
  destruct l as [|w l'] eqn:El.
  - cbn [map commas] in *. pose proof (ML (k, v)) as M. cbn [snd] in M. cbn [read_members].
    unfold member. cbn [fst snd]. rewrite <- app_assoc. cbn [app].
    destruct (read_quote k (":"%char :: write v ++ "}"%char :: rest)) as (t & E1 & E2). rewrite E1. rewrite skip_head by reflexivity.
    change (Ascii.eqb cQuote cQuote) with true. cbv iota. rewrite E2. cbn [bind]. rewrite skip_head by reflexivity.
    change (Ascii.eqb ":" ":") with true. cbv iota. rewrite (R1 K1) by (lia || (right; right; reflexivity)). cbn [bind].
    rewrite skip_head by reflexivity. reflexivity.
  - rewrite <- El in *. assert (NL : l <> []) by (rewrite El; discriminate). clear El.
    cbn [map] in *. assert (NM : map member l <> []) by (destruct l; [congruence|discriminate]). pose proof (ML (k, v)) as M. cbn [snd] in M.
    rewrite commas_cons in * by exact NM. rewrite app_length in H. cbn [length] in H. rewrite <- app_assoc. cbn [app read_members].
    set (tl := cComma :: commas (map member l) ++ "}"%char :: rest). unfold member at 1. cbn [fst snd]. rewrite <- app_assoc. cbn [app].
    destruct (read_quote k (":"%char :: write v ++ tl)) as (t & E1 & E2). rewrite E1. rewrite skip_head by reflexivity.
    change (Ascii.eqb cQuote cQuote) with true. cbv iota. rewrite E2. cbn [bind]. rewrite skip_head by reflexivity.
    change (Ascii.eqb ":" ":") with true. cbv iota. rewrite (R1 K1) by (lia || (left; reflexivity)). cbn [bind]. unfold tl.
    rewrite skip_head by reflexivity. change (Ascii.eqb cComma "}") with false. change (Ascii.eqb cComma cComma) with true. cbv iota.
    rewrite (IH R2 NL K2) by lia. reflexivity.
Qed.

Lemma read_write : forall v, reads v.
Proof.
  induction v as [|b|t|s|l IH|l IH] using json_ind'; intros K f rest H S; cbn [numbers_ok] in K.
  - destruct f as [|f]; [cbn in H; lia|]. reflexivity.
  - destruct f as [|f]; [destruct b; cbn in H; lia|]. destruct b; reflexivity.
  - destruct (num_head t K) as (c & u & E & D). cbn [write] in *. destruct f as [|f]; [rewrite E in H; cbn in H; lia|].
    pose proof (num_ok t rest K S) as R. rewrite E in *. cbn [app] in *. cbn [read_value].
    assert (Sp : is_space c = false).
    { destruct D as [-> |[D1 D2]]; [reflexivity|]. unfold is_space. cbv zeta. byte_cases; try lia; reflexivity. }
    rewrite skip_head by exact Sp.
    assert (Q : forall x, is_digit x = false -> x <> "-"%char -> Ascii.eqb c x = false).
    { intros x Hx Hx'. destruct D as [-> |D]; [apply Ascii.eqb_neq; congruence|apply digit_neq; assumption]. }
    rewrite !Q by (reflexivity || discriminate). rewrite R. reflexivity.
  - cbn [write] in *. destruct f as [|f]; [unfold quote in H; cbn in H; lia|]. cbn [read_value].
    destruct (read_quote s rest) as (t & E1 & E2). rewrite E1. rewrite skip_head by reflexivity.
    change (Ascii.eqb cQuote "{") with false. change (Ascii.eqb cQuote "[") with false. change (Ascii.eqb cQuote cQuote) with true. cbv iota.
    rewrite E2. reflexivity.
  - cbn [write] in *. cbn [length] in H. rewrite app_length in H. cbn [length] in H. destruct f as [|f]; [lia|].
    cbn [app]. rewrite <- app_assoc. cbn [app read_value]. rewrite skip_head by reflexivity.
    change (Ascii.eqb "[" "{") with false. change (Ascii.eqb "[" "[") with true. cbv iota.
    destruct l as [|w l'] eqn:El; [reflexivity|]. rewrite <- El in *. assert (NL : l <> []) by (rewrite El; discriminate).
    pose proof (read_elements_ok l IH NL K f rest ltac:(lia)) as R.
    assert (Hd : exists c t, commas (map write l) ++ "]"%char :: rest = c :: t /\ is_space c = false /\ Ascii.eqb c "]" = false).
    { rewrite El in K |- *. cbn [map fold_right] in K. destruct (write_head w (proj1 K)) as (c & t & E & H1 & H2).
      destruct l' as [|w' l']; cbn [map commas]; rewrite E; cbn [app]; eexists _, _; (split; [reflexivity|split; assumption]). }
    clear El. destruct Hd as (c & t & E & H1 & H2). rewrite E in *. rewrite skip_head by exact H1. rewrite H2, R. reflexivity.
  - cbn [write] in *. cbn [length] in H. rewrite app_length in H. cbn [length] in H. destruct f as [|f]; [lia|].
    cbn [app]. rewrite <- app_assoc. cbn [app read_value]. rewrite skip_head by reflexivity.
    change (Ascii.eqb "{" "{") with true. cbv iota.
    destruct l as [|w l'] eqn:El; [reflexivity|]. rewrite <- El in *. assert (NL : l <> []) by (rewrite El; discriminate).
    change (map (fun m => quote (fst m) ++ ":"%char :: write (snd m)) l) with (map member l) in *.
    pose proof (read_members_ok l IH NL K f rest ltac:(lia)) as R.
    assert (Hd : exists t, commas (map member l) ++ "}"%char :: rest = cQuote :: t).
    { rewrite El. destruct l' as [|w' l']; cbn [map commas]; unfold member at 1, quote; cbn [app]; eexists; reflexivity. }
    clear El. destruct Hd as (t & E). rewrite E in *. rewrite skip_head by reflexivity.
    change (Ascii.eqb cQuote "}") with false. cbv iota. rewrite R. reflexivity.
Qed.

Lemma parse_write : forall v, numbers_ok v -> parse_json (write v) = Ok (repair v).
Proof.
  intros v K. unfold parse_json. rewrite <- (app_nil_r (write v)) at 2. rewrite (read_write v K) by (cbn; lia || exact I). reflexivity.
Qed.

(** C104: JSON files rewritten by other programs. *)
From Coq Require Import String Ascii NArith List Permutation Floats.SpecFloat Lia.
From Verif Require Import Base Num Mat Model_Node Model_Norm Model_CSV Model_CSVBytes Model_Path Model_Cmd Model_JSON Model_JSONFiles.
From Verif Require Import Spec_JSON Spec_JSONText Proof_JSON Proof_JSON2 Proof_JSONText Props_JSON.
Import ListNotations.
Open Scope list_scope.

(** Every text of a document, with any white space and any way to write the
    characters of strings, is read as that document; so it has no other meaning. *)
Theorem C104_any_text : forall s v, document_text s v -> parse_json s = Ok v /\ forall v', document_text s v' -> v' = v.
Proof.
  intros s v H. pose proof (parse_text s v H) as E. split; [exact E|]. intros v' H'. apply parse_text in H'. congruence.
Qed.
Print Assumptions C104_any_text.

(** ** What is written is such a text *)

Lemma hex_char : forall c v, hex_val c = Some v -> hexadecimal c v.
Proof.
  intros c v H. unfold hex_val in H. cbv zeta in H. unfold hexadecimal, between.
  destruct ((48 <=? N_of_ascii c) && (N_of_ascii c <=? 57))%N%bool eqn:E1.
  - apply andb_prop in E1. destruct E1 as [E1 E2]. apply N.leb_le in E1, E2. injection H as <-. left. lia.
  - destruct ((97 <=? N_of_ascii c) && (N_of_ascii c <=? 102))%N%bool eqn:E2.
    + apply andb_prop in E2. destruct E2 as [E2 E3]. apply N.leb_le in E2, E3. injection H as <-. right. right. lia.
    + destruct ((65 <=? N_of_ascii c) && (N_of_ascii c <=? 70))%N%bool eqn:E3; [|discriminate].
      apply andb_prop in E3. destruct E3 as [E3 E4]. apply N.leb_le in E3, E4. injection H as <-. right. left. lia.
Qed.

Lemma escape_char : forall t b n, utf8_char b -> n = scalar b -> match t with
  | x :: y :: s => x = "\"%char /\ y = "u"%char /\ getu4 s = Some (n, []) | _ => False end -> char_text t b.
Proof.
  intros t b n U -> H. apply T_hex; [exact U|]. destruct t as [|x [|y [|a [|b' [|c [|d [|e s]]]]]]]; try (destruct H as (_ & _ & H); discriminate H); try contradiction.
  - destruct H as (-> & -> & H). cbn [getu4] in H. destruct (hex_val a) as [va|] eqn:Ea; [|discriminate]. destruct (hex_val b') as [vb|] eqn:Eb; [|discriminate].
    destruct (hex_val c) as [vc|] eqn:Ec; [|discriminate]. destruct (hex_val d) as [vd|] eqn:Ed; [|discriminate]. injection H as <-.
    constructor; apply hex_char; assumption.
  - destruct H as (_ & _ & H). cbn [getu4] in H. destruct (hex_val a), (hex_val b'), (hex_val c), (hex_val d); discriminate H.
Qed.

Lemma esc_text : forall b, utf8_char b -> char_text (esc_rune (Some b)) b.
Proof.
  intros b U. pose proof (char_length b U) as L. pose proof (scalar_ranges b U) as R. destruct b as [|a [|a2 b]]; [cbn in L; lia| |].
  - cbn [length] in R. unfold scalar in R. cbn [map] in R. unfold esc_rune.
    assert (D : esc_ascii a = [a] /\ (32 <= N_of_ascii a)%N /\ a <> """"%char /\ a <> "\"%char \/
                (exists c, esc_ascii a = ["\"%char; c] /\ short c (N_of_ascii a)) \/
                (exists s, esc_ascii a = "\"%char :: "u"%char :: s /\ getu4 s = Some (N_of_ascii a, []))).
    { clear L U. destruct a as [[] [] [] [] [] [] [] []]; try (exfalso; vm_compute in R; discriminate R);
        first [ left; split; [reflexivity|split; [vm_compute; discriminate|split; discriminate]]
              | right; left; eexists; split; [reflexivity|vm_compute; tauto]
              | right; right; eexists; split; reflexivity ]. }
    destruct D as [(-> & D1 & D2 & D3)|[(c & -> & D)|(s & E & D)]].
    + apply T_plain; [exact U|exact D1| |]; unfold scalar; cbn [map]; intro Q; [apply D2|apply D3]; rewrite <- (ascii_N_embedding a), Q; reflexivity.
    + apply T_short. exact D.
    + rewrite E. apply (escape_char _ _ (N_of_ascii a)); [exact U|reflexivity|auto].
  - cbn [length] in R. assert (R' : (128 <= scalar (a :: a2 :: b))%N) by (destruct b as [|a3 [|a4 b]]; cbn [length] in R; lia).
    unfold esc_rune. destruct (list_eq_dec ascii_dec _ (encode_rune 8232)) as [E|_].
    { rewrite E in *. apply (escape_char _ _ 8232); [exact U|reflexivity|repeat split; reflexivity]. }
    destruct (list_eq_dec ascii_dec _ (encode_rune 8233)) as [E|_].
    { rewrite E in *. apply (escape_char _ _ 8233); [exact U|reflexivity|repeat split; reflexivity]. }
    apply T_plain; [exact U|lia|lia|lia].
Qed.

Lemma quote_text : forall s, utf8 s -> exists t, quote s = """"%char :: t ++ [""""%char] /\ string_text t s.
Proof.
  intros s (l & H & ->). unfold quote. rewrite runes_utf8 by exact H. exists (flat_map esc_rune (map Some l)). split; [reflexivity|].
  induction H as [|b l Hb Hl IH]; [constructor|]. cbn [map flat_map concat]. constructor; [apply esc_text; exact Hb|exact IH].
Qed.

Lemma write_text : forall v, numbers_ok v -> texts_ok v -> value_text (write v) v.
Proof.
  induction v as [|b|t|s|l IH|l IH] using json_ind'; intros K T; cbn [numbers_ok texts_ok] in K, T.
  - constructor.
  - destruct b; constructor.
  - constructor. exact K.
  - destruct (quote_text s T) as (t & E & H). cbn [write]. rewrite E. constructor. exact H.
  - cbn [write]. destruct l as [|v l]; [apply (T_empty []); constructor|]. apply T_array.
    revert v IH K T. induction l as [|w l IH2]; intros v IH K T; cbn [map fold_right] in K, T; inversion IH as [|? ? A B]; subst.
    + cbn [map commas]. rewrite <- (app_nil_r (write v)). apply (T_last []); [constructor|apply A; [apply K|apply T]|constructor].
    + change (commas (map write (v :: w :: l))) with ([] ++ write v ++ [] ++ cComma :: commas (map write (w :: l))).
      apply T_more; [constructor|apply A; [apply K|apply T]|constructor|]. apply IH2; [exact B|apply K|apply T].
  - cbn [write]. destruct l as [|v l]; [apply (T_nothing []); constructor|]. apply T_object.
    change (map (fun m => quote (fst m) ++ ":"%char :: write (snd m)) (v :: l)) with (map member (v :: l)).
    revert v IH K T. induction l as [|w l IH2]; intros [k v] IH K T; cbn [map fold_right fst snd] in K, T; inversion IH as [|? ? A B]; subst; cbn [snd] in A;
      destruct T as [[T1 T2] T3]; destruct K as [K1 K2]; destruct (quote_text k T1) as (t & E & H).
    + cbn [map commas]. unfold member. cbn [fst snd]. rewrite E.
      replace ((""""%char :: t ++ [""""%char]) ++ ":"%char :: write v) with ([] ++ """"%char :: t ++ """"%char :: [] ++ ":"%char :: [] ++ write v ++ [])
        by (cbn [app]; rewrite app_nil_r, <- app_assoc; reflexivity).
      apply T_last_member; try constructor; [exact H|apply A; assumption].
    + assert (Q : commas (map member ((k, v) :: w :: l)) = [] ++ """"%char :: t ++ """"%char :: [] ++ ":"%char :: [] ++ write v ++ [] ++ ","%char :: commas (map member (w :: l))).
      { change (commas (map member ((k, v) :: w :: l))) with (member (k, v) ++ cComma :: commas (map member (w :: l))).
        unfold member at 1. cbn [fst snd]. rewrite E. cbn [app]. rewrite <- !app_assoc. reflexivity. }
      rewrite Q. apply T_more_members; try constructor; [exact H|apply A; assumption|]. apply IH2; assumption.
Qed.

(** What goselect writes is a text of the document, as RFC 8259 has it. *)
Theorem C104_written : forall v, numbers_ok v -> texts_ok v -> document_text (write v) v.
Proof. intros v K T. exists [], (write v), []. rewrite app_nil_r. split; [reflexivity|]. split; [constructor|]. split; [apply write_text; assumption|constructor]. Qed.
Print Assumptions C104_written.

(** ** Members in another order *)

Fixpoint keys_ok (v : json) : Prop :=
  match v with
  | JArr l => fold_right and True (map keys_ok l)
  | JObj l => NoDup (map (fun m => map lower (fst m)) l) /\ fold_right and True (map (fun m => keys_ok (snd m)) l)
  | _ => True
  end.

Lemma same_key_iff : forall a b, same_key a b = true <-> map lower a = map lower b.
Proof. intros a b. unfold same_key. destruct (list_eq_dec ascii_dec _ _); split; congruence. Qed.

Lemma field_perm : forall name l l', Permutation l l' -> NoDup (map (fun m => map lower (fst m)) l) -> field name l = field name l'.
Proof.
  intros name l l' P. induction P as [|[k v] l l' P IH|[k v] [k' v'] l|l l' l'' P1 IH1 P2 IH2]; intro N.
  - reflexivity.
  - cbn [map fst] in N. inversion N as [|? ? N1 N2]; subst. cbn [field]. rewrite (IH N2). reflexivity.
  - cbn [field]. destruct (field name l); [reflexivity|]. destruct (same_key k (text name)) eqn:E1, (same_key k' (text name)) eqn:E2; try reflexivity.
    apply same_key_iff in E1, E2. cbn [map fst] in N. inversion N as [|? ? N1 N2]; subst. destruct N1. left. congruence.
  - rewrite IH1 by exact N. apply IH2. apply (Permutation_NoDup (l := map (fun m => map lower (fst m)) l)); [apply Permutation_map; exact P1|exact N].
Qed.

Definition both (a b : option json) : Prop := match a, b with Some v, Some w => keys_ok v /\ reordered v w | None, None => True | _, _ => False end.

Lemma field_in : forall name l v, field name l = Some v -> exists k, In (k, v) l.
Proof.
  intros name. induction l as [|[k w] l IH]; intros v H; [discriminate|]. cbn [field] in H. destruct (field name l) as [u|].
  - injection H as <-. destruct (IH u eq_refl) as (k' & Hk). exists k'. right. exact Hk.
  - destruct (same_key k (text name)); [|discriminate]. injection H as <-. exists k. left. reflexivity.
Qed.

Lemma field_reordered : forall name l l', keys_ok (JObj l) -> reordered (JObj l) (JObj l') -> both (field name l) (field name l').
Proof.
  intros name l l' [N K] R.
  assert (KV : forall v, field name l = Some v -> keys_ok v).
  { intros v E. destruct (field_in name l v E) as (k & Hk). apply (proj1 (all_and _ (fun m => keys_ok (snd m)) l) K (k, v) Hk). }
  inversion R as [v E|?|l1 l2 l3 P F]; subst.
  - unfold both. destruct (field name l') as [v|] eqn:E; [|exact I]. split; [apply KV; exact eq_refl|constructor].
  - assert (Q : match field name l2, field name l' with Some v, Some w => reordered v w | None, None => True | _, _ => False end).
    { clear P N K KV R. induction F as [|[k v] [k' v'] a b [E1 E2] F IH]; [exact I|]. cbn [fst snd] in *. subst k'. cbn [field].
      destruct (field name a), (field name b); try contradiction; [exact IH|]. destruct (same_key k (text name)); [exact E2|exact I]. }
    rewrite (field_perm name l l2 P N) in *. unfold both. destruct (field name l2) as [v|]; destruct (field name l'); try contradiction; auto.
Qed.

(** a reader that does not see the order *)
Definition blind {A} (f : json -> option A) : Prop := forall v w, keys_ok v -> reordered v w -> f v = f w.

Lemma blind_list : forall A (f : json -> option A), blind f -> blind (dec_list f).
Proof.
  intros A f H v w K R. destruct R as [v|l l' F|l l' l'' P F]; [reflexivity| |reflexivity]. cbn [dec_list]. cbn [keys_ok] in K.
  induction F as [|a b l l' R F IH]; [reflexivity|]. cbn [map fold_right] in K. cbn [all_of]. rewrite (H a b (proj1 K) R), (IH (proj2 K)). reflexivity.
Qed.

Lemma blind_field : forall A (f : json -> option A) z name l l', blind f -> keys_ok (JObj l) -> reordered (JObj l) (JObj l') -> dec_field f z name l = dec_field f z name l'.
Proof.
  intros A f z name l l' H K R. pose proof (field_reordered name l l' K R) as B. unfold dec_field, both in *.
  destruct (field name l) as [v|], (field name l') as [w|]; try contradiction; [|reflexivity]. apply H; apply B.
Qed.

Lemma blind_object : forall A (g : list (bytes * json) -> option A), (forall l l', keys_ok (JObj l) -> reordered (JObj l) (JObj l') -> g l = g l') ->
  blind (fun v => match v with JObj l => g l | _ => None end).
Proof.
  intros A g H v w K R. pose proof R as R'. destruct R as [v|l l' F|l l' l'' P F]; [reflexivity|reflexivity|]. apply H; assumption.
Qed.

Section Files.
  Variable N : Num.
  Variable fmt : N -> bytes.
  Variable parse : bytes -> option N.

  Lemma blind_num : blind (dec_num (N := N) parse).
  Proof. intros v w K R. destruct R; reflexivity. Qed.
  Lemma blind_int : blind dec_int.
  Proof. intros v w K R. destruct R; reflexivity. Qed.
  Lemma blind_name : blind dec_name.
  Proof. intros v w K R. destruct R; reflexivity. Qed.

  Ltac fields := intros l l' K R; repeat match goal with |- context [dec_field ?f ?z ?n l] =>
    rewrite (blind_field _ f z n l l') by (exact K || exact R || auto using blind_num, blind_int, blind_name, blind_list) end; reflexivity.

  Lemma blind_dataset : blind (dec_dataset parse).
  Proof. apply blind_object. fields. Qed.
  Lemma blind_lnode : blind (lnode_of parse).
  Proof. apply blind_object. fields. Qed.
  Lemma blind_node : blind (node_of parse).
  Proof. apply blind_object. fields. Qed.
  Lemma blind_hs : blind (hs_of parse).
  Proof. pose proof blind_node. apply blind_object. fields. Qed.
  Lemma blind_path : blind (path_of parse).
  Proof.
    pose proof blind_lnode. apply blind_object. intros l l' K R. pose proof (field_reordered "Dset" l l' K R) as B. unfold both in B.
    destruct (field "Dset" l) as [v|], (field "Dset" l') as [w|]; try contradiction; [|reflexivity]. rewrite (blind_dataset v w (proj1 B) (proj2 B)).
    revert l l' K R B. fields.
  Qed.

  Lemma nums_keys : forall l, keys_ok (jnums fmt l).
  Proof. intro l. unfold jnums. cbn [keys_ok]. rewrite map_map. apply all_and. intros x _. exact I. Qed.
  Lemma ints_keys : forall l, keys_ok (jints l).
  Proof. intro l. unfold jints. cbn [keys_ok]. rewrite map_map. apply all_and. intros x _. exact I. Qed.

  Ltac keys := match goal with |- NoDup ?l => let r := eval vm_compute in l in change l with r end;
    repeat constructor; cbn; intuition discriminate.

  Lemma lnode_keys : forall n, keys_ok (lnode_json fmt n).
  Proof. intro n. unfold lnode_json, object. cbn [map fst snd keys_ok fold_right]. split; [keys|]. refine (conj _ (conj I (conj _ I))); [apply nums_keys|apply ints_keys]. Qed.
  Lemma dataset_keys : forall j, keys_ok (dataset_json fmt j).
  Proof.
    intro n. unfold dataset_json, object. cbn [map fst snd keys_ok fold_right]. split; [keys|].
    refine (conj _ (conj _ (conj I (conj _ (conj I (conj I I)))))); try apply nums_keys. rewrite map_map. apply all_and. intros x _. exact I.
  Qed.
  Lemma node_keys : forall n, keys_ok (node_json fmt n).
  Proof.
    intro n. unfold node_json, object. cbn [map fst snd keys_ok fold_right]. split; [keys|].
    refine (conj _ (conj I (conj I (conj I (conj I (conj I (conj _ I))))))); [apply ints_keys|apply nums_keys].
  Qed.
  Lemma path_keys : forall j, keys_ok (path_json fmt j).
  Proof.
    intro j. pose proof (dataset_keys (pjDset j)) as D. unfold path_json, object. cbn [map fst snd keys_ok fold_right]. split; [keys|].
    refine (conj D (conj _ (conj _ (conj _ I)))); try apply nums_keys. rewrite map_map. apply all_and. intros x _. apply lnode_keys.
  Qed.
  Lemma hs_keys : forall j, keys_ok (hs_json fmt j).
  Proof.
    intro j. unfold hs_json, object. cbn [map fst snd keys_ok fold_right]. split; [keys|].
    refine (conj I (conj _ I)). rewrite map_map. apply all_and. intros x _. apply node_keys.
  Qed.

  Lemma path_repair : forall j, Forall utf8_name (path_names j) -> repair (path_json fmt j) = path_json fmt j.
  Proof.
    intros j H. assert (NR : forall l, repair (jnums fmt l) = jnums fmt l) by (intro l; unfold jnums; cbn [repair]; rewrite map_map; reflexivity).
    assert (IR : forall l, repair (jints l) = jints l) by (intro l; unfold jints; cbn [repair]; rewrite map_map; reflexivity).
    unfold path_json. rewrite object_repair by (vm_compute; reflexivity). cbn [map fst snd]. rewrite !NR.
    replace (repair (dataset_json fmt (pjDset j))) with (dataset_json fmt (pjDset j)).
    - replace (repair (JArr (map (lnode_json fmt) (pjNodes j)))) with (JArr (map (lnode_json fmt) (pjNodes j))); [reflexivity|].
      cbn [repair]. rewrite map_map. f_equal. apply map_ext. intro n. unfold lnode_json. rewrite object_repair by (vm_compute; reflexivity). cbn [map fst snd]. rewrite NR, IR. reflexivity.
    - symmetry. unfold dataset_json. rewrite object_repair by (vm_compute; reflexivity). cbn [map fst snd]. rewrite !NR.
      replace (repair (JArr (map jname (jdNames (pjDset j))))) with (JArr (map jname (jdNames (pjDset j)))); [reflexivity|].
      cbn [repair]. rewrite map_map. f_equal. apply map_ext_in. intros s Hs. unfold jname. cbn [repair]. f_equal. symmetry. apply to_valid_utf8.
      exact (proj1 (Forall_forall _ _) H s Hs).
  Qed.

  Lemma hs_repair : forall j, repair (hs_json fmt j) = hs_json fmt j.
  Proof.
    intros j. assert (NR : forall l, repair (jnums fmt l) = jnums fmt l) by (intro l; unfold jnums; cbn [repair]; rewrite map_map; reflexivity).
    assert (IR : forall l, repair (jints l) = jints l) by (intro l; unfold jints; cbn [repair]; rewrite map_map; reflexivity).
    unfold hs_json. rewrite object_repair by (vm_compute; reflexivity). cbn [map fst snd].
    replace (repair (JArr (map (node_json fmt) (hjItems j)))) with (JArr (map (node_json fmt) (hjItems j))); [reflexivity|].
    cbn [repair]. rewrite map_map. f_equal. apply map_ext. intro n. unfold node_json. rewrite object_repair by (vm_compute; reflexivity). cbn [map fst snd]. rewrite NR, IR. reflexivity.
  Qed.

  (** A lasso result that another program has written out again, in any form and
      with the members of objects in any order, is read like the original. *)
  Theorem C104_path_rewritten : forall j v s, (forall x, In x (path_numbers j) -> printable fmt parse x) -> (forall z, In z (path_ints j) -> int64 z = true) ->
    Forall utf8_name (path_names j) -> reordered (path_json fmt j) v -> document_text s v ->
    path_from_file parse s = path_from_file parse (path_bytes fmt j).
  Proof.
    intros j v s Hx Hz U R D. destruct (path_back N fmt parse j Hx Hz) as [K E]. unfold path_from_file, unmarshal, path_bytes.
    rewrite (parse_text s v D), (parse_write _ K). rewrite <- (blind_path (path_json fmt j) v (path_keys j) R). rewrite path_repair by exact U. reflexivity.
  Qed.

  (** The same for a highscore list. *)
  Theorem C104_highscore_rewritten : forall h j v s, (forall x, In x (hs_numbers j) -> printable fmt parse x) -> (forall z, In z (hs_ints j) -> int64 z = true) ->
    reordered (hs_json fmt j) v -> document_text s v ->
    hs_from_file parse h s = hs_from_file parse h (hs_bytes fmt j).
  Proof.
    intros h j v s Hx Hz R D. destruct (hs_back N fmt parse j Hx Hz) as [K E]. unfold hs_from_file, unmarshal, hs_bytes.
    rewrite (parse_text s v D), (parse_write _ K). rewrite <- (blind_hs (hs_json fmt j) v (hs_keys j) R). rewrite hs_repair. reflexivity.
  Qed.
End Files.
Print Assumptions C104_path_rewritten.
Print Assumptions C104_highscore_rewritten.

(** an indented text with the members exchanged, a key written with an escape,
    and a list that is not empty *)
Definition nl : ascii := ascii_of_N 10.
Example C104_example : exists v s, let j := mkHSJ 3 [mkNodeJ (N := F64 fenv0) [1%Z] 2 (S754_zero false) (S754_zero false) (f64_ofZ 5) 1 []] in
  s = text "{" ++ nl :: text " ""it\u0065ms"" : [" ++ write (node_json (N := F64 fenv0) show64 (hd (mkNodeJ (N := F64 fenv0) [] 0 n0 n0 n0 0 []) (hjItems j)))
      ++ text "] ," ++ nl :: text " ""maxItems"": 3" ++ nl :: text "}" ++ [nl] /\
  reordered (hs_json (N := F64 fenv0) show64 j) v /\ document_text s v /\ v <> hs_json (N := F64 fenv0) show64 j.
Proof.
  set (n := mkNodeJ (N := F64 fenv0) [1%Z] 2 (S754_zero false) (S754_zero false) (f64_ofZ 5) 1 []).
  set (V := node_json (N := F64 fenv0) show64 n).
  exists (JObj [(text "items", JArr [V]); (text "maxItems", JNum (itoa 3))]). eexists. cbv zeta. split; [reflexivity|]. split; [|split].
  - apply In_object with (l' := [(text "items", JArr [V]); (text "maxItems", JNum (itoa 3))]); [apply perm_swap|].
    repeat constructor.
  - assert (K : value_text (write V) V).
    { apply write_text.
      - pose proof (proj1 (hs_back (F64 fenv0) show64 read64 (mkHSJ 3 [n])
          ltac:(intros x Hx; apply C103_numbers; cbn in Hx; repeat destruct Hx as [<-|Hx]; try contradiction; reflexivity)
          ltac:(intros z Hz; cbn in Hz; repeat destruct Hz as [<-|Hz]; try contradiction; reflexivity))) as K.
        unfold hs_json, object in K. cbn [map fst snd numbers_ok fold_right hjItems] in K. apply K.
      - unfold V, node_json, object. cbn [map fst snd texts_ok fold_right]. repeat split; try apply to_valid_iff; vm_compute; try reflexivity; repeat split. }
    assert (WL : forall l, forallb is_space l = true -> white l).
    { intros l H. apply Forall_forall. intros c Hc. rewrite forallb_forall in H. specialize (H c Hc). unfold is_space in H. cbv zeta in H.
      repeat (apply orb_prop in H; destruct H as [H|H]); apply N.eqb_eq in H; rewrite H; cbn; auto. }
    assert (W : white [nl]) by (apply WL; reflexivity).
    assert (W1 : white [" "%char]) by (apply WL; reflexivity).
    assert (P : forall c, (32 <= N_of_ascii c < 128)%N -> c <> """"%char -> c <> "\"%char -> char_text [c] [c]).
    { intros c H1 H2 H3. apply T_plain; [apply U1; unfold between; lia|apply H1| |]; unfold scalar; cbn [map]; intro Q;
        [apply H2|apply H3]; rewrite <- (ascii_N_embedding c), Q; reflexivity. }
    assert (PL : forall l, Forall (fun c => (32 <= N_of_ascii c < 128)%N /\ c <> """"%char /\ c <> "\"%char) l -> string_text l l).
    { intros l H. induction H as [|c l (H1 & H2 & H3) H IH]; [constructor|]. apply (T_char [c] [c] l l); [apply P; assumption|exact IH]. }
    exists [], (text "{" ++ nl :: text " ""it\u0065ms"" : [" ++ write V ++ text "] ," ++ nl :: text " ""maxItems"": 3" ++ nl :: text "}"), [nl].
    split; [fold n; change (hd _ _) with n; fold V; generalize (write V) as w; intro w; repeat first [progress cbn [app text list_ascii_of_string] | rewrite <- app_assoc]; reflexivity|]. split; [constructor|]. split; [|exact W].
    replace (text "{" ++ nl :: text " ""it\u0065ms"" : [" ++ write V ++ text "] ," ++ nl :: text " ""maxItems"": 3" ++ nl :: text "}")
      with ("{"%char :: ([nl; " "%char] ++ """"%char :: text "it\u0065ms" ++ """"%char :: [" "%char] ++ ":"%char :: [" "%char] ++ ("["%char :: ([] ++ write V ++ []) ++ ["]"%char]) ++ [" "%char] ++
            ","%char :: ([nl; " "%char] ++ """"%char :: text "maxItems" ++ """"%char :: [] ++ ":"%char :: [" "%char] ++ text "3" ++ [nl])) ++ ["}"%char])
      by (clear; generalize (write V) as w; intro w; rewrite app_nil_r; repeat first [progress cbn [app text list_ascii_of_string] | rewrite <- app_assoc]; reflexivity).
    apply T_object. apply T_more_members.
    + apply WL; reflexivity.
    + change (string_text (text "it" ++ text "\u0065" ++ text "ms") (text "it" ++ text "e" ++ text "ms")).
      apply (T_char ["i"%char] ["i"%char]); [apply P; [split; [vm_compute; discriminate|reflexivity]|discriminate|discriminate]|].
      apply (T_char ["t"%char] ["t"%char]); [apply P; [split; [vm_compute; discriminate|reflexivity]|discriminate|discriminate]|].
      apply T_char.
      * apply (escape_char _ _ 101); [apply U1; split; vm_compute; discriminate|reflexivity|repeat split; reflexivity].
      * apply PL. repeat constructor; try discriminate; vm_compute; discriminate.
    + exact W1.
    + exact W1.
    + apply T_array. apply (T_last []); [constructor|exact K|constructor].
    + exact W1.
    + apply T_last_member; try (apply WL; reflexivity).
      * apply PL. repeat constructor; try discriminate; vm_compute; discriminate.
      * apply T_number. apply (itoa_number 3).
  - discriminate.
Qed.

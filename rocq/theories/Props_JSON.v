(** C103: the bytes of the JSON files. *)
From Coq Require Import String Ascii NArith DecimalString DecimalFacts DecimalPos DecimalZ Floats.SpecFloat Lia.
From Verif Require Import Base Num Mat Model_Node Model_Norm Model_CSV Model_CSVBytes Model_Path Model_Cmd Model_JSON Model_JSONFiles Spec_JSON.
From Verif Require Import Proof_JSON Proof_JSON2 Proof_Models Proof_Node Proof_Node2 Props_Highscore Props_CSV Props_Cmd.
Open Scope list_scope.

(** ** Strings and documents *)

Lemma repaired_valid : forall n s, (length s <= n)%nat -> repaired s (to_valid s).
Proof.
  induction n as [|n IH]; intros s H; [destruct s; [constructor|cbn in H; lia]|]. destruct s as [|c t]; [constructor|].
  unfold to_valid. rewrite runes_cons. destruct (rune_len (c :: t)) as [|k] eqn:E; cbn [flat_map rune_val].
  - apply R_bad; [|apply IH; cbn in H; lia]. intros d u Hd Q. rewrite Q in E. rewrite (char_rune_len d u Hd) in E. pose proof (char_length d Hd). lia.
  - rewrite <- (firstn_skipn (S k) (c :: t)) at 1. apply R_char; [apply (rune_len_char _ _ E); discriminate|].
    apply IH. rewrite skipn_length. cbn [length] in *. lia.
Qed.

(** A string comes back with the bytes that are not UTF-8 replaced: unchanged
    if and only if it is UTF-8. *)
Theorem C103_strings : forall s, exists t, parse_json (write (JStr s)) = Ok (JStr t) /\ repaired s t /\ utf8 t /\ (t = s <-> utf8 s).
Proof.
  intro s. exists (to_valid s). split; [apply (parse_write (JStr s)); exact I|]. split; [apply (repaired_valid (length s)); lia|].
  split; [apply to_valid_is_utf8|apply to_valid_iff].
Qed.
Print Assumptions C103_strings.

(** A document in UTF-8 comes back. *)
Theorem C103_documents : forall v, numbers_ok v -> texts_ok v -> parse_json (write v) = Ok v.
Proof.
  intros v K T. rewrite (parse_write v K). f_equal. clear K.
  induction v as [|b|t|s|l IH|l IH] using json_ind'; try reflexivity; cbn [repair texts_ok] in *.
  - f_equal. apply to_valid_utf8. exact T.
  - f_equal. induction IH as [|v l Hv Hl IH2]; [reflexivity|]. cbn [map fold_right] in *. f_equal; [apply Hv|apply IH2]; apply T.
  - f_equal. induction IH as [|[k v] l Hv Hl IH2]; [reflexivity|]. cbn [map fold_right fst snd] in *. destruct T as [[T1 T2] T3].
    rewrite (to_valid_utf8 k T1), (Hv T2), (IH2 T3). reflexivity.
Qed.
Print Assumptions C103_documents.

(** A file that was cut off, or continued with something other than white
    space, is not accepted; every text is either accepted or not. *)
Theorem C103_whole_file : forall v, numbers_ok v -> match v with JArr _ | JObj _ => True | _ => False end ->
  (forall p q, write v = p ++ q -> q <> [] -> parse_json p = Panic) /\
  (forall g c, In c g -> is_space c = false -> parse_json (write v ++ g) = Panic).
Proof.
  intros v K C. split.
  - intros p q E Hq. destruct (parse_json p) as [u| |] eqn:P; [|reflexivity|destruct (parse_ends p P)].
    destruct (write_prefix v p q K C E Hq u P).
  - intros g c Hc Sc. apply write_garbage; [exact K|exact C|]. induction g as [|x g IH]; [destruct Hc|]. cbn [skip_space].
    destruct (is_space x) eqn:Sx; [|discriminate]. apply IH. destruct Hc as [->|Hc]; [congruence|exact Hc].
Qed.
Print Assumptions C103_whole_file.

Theorem C103_reader_ends : forall s, parse_json s <> Fuel.
Proof. exact parse_ends. Qed.
Print Assumptions C103_reader_ends.

(** ** Integers *)

Lemma uint_digits : forall d, Forall digit (text (NilEmpty.string_of_uint d)).
Proof. induction d; cbn; constructor; try assumption; split; vm_compute; discriminate. Qed.

Lemma pos_head : forall p d, Pos.to_uint p <> Decimal.D0 d.
Proof.
  intros p d H. pose proof (Unsigned.to_of (Pos.to_uint p)) as Q. rewrite Unsigned.of_to in Q. change (N.to_uint (N.pos p)) with (Pos.to_uint p) in Q.
  rewrite H in Q. unfold Decimal.unorm in Q. destruct (Decimal.nzhead (Decimal.D0 d)) eqn:E.
  - injection Q as ->. apply (Unsigned.to_uint_nonzero p). exact H.
  - apply (nzhead_nonzero _ _ E).
  - discriminate. - discriminate. - discriminate. - discriminate. - discriminate. - discriminate. - discriminate. - discriminate. - discriminate.
Qed.

Lemma itoa_number : forall z, json_number (itoa z).
Proof.
  assert (P : forall p, some_digits (text (NilZero.string_of_uint (Pos.to_uint p))) /\ hd "0"%char (text (NilZero.string_of_uint (Pos.to_uint p))) <> "0"%char).
  { intro p. pose proof (pos_head p) as H. pose proof (Unsigned.to_uint_nonnil p) as H'. pose proof (uint_digits (Pos.to_uint p)) as D.
    unfold NilZero.string_of_uint. destruct (Pos.to_uint p) as [|d|d|d|d|d|d|d|d|d|d]; try congruence; try (destruct (H d); reflexivity);
      (split; [split; [discriminate|exact D]|cbn; discriminate]). }
  intros [|p|p]; unfold itoa.
  - exists [], ["0"%char], [], []. repeat split; auto.
  - exists [], (text (NilZero.string_of_uint (Pos.to_uint p))), [], []. split; [cbn; rewrite app_nil_r; reflexivity|]. split; [auto|]. split; [right; apply P|auto].
  - exists ["-"%char], (text (NilZero.string_of_uint (Pos.to_uint p))), [], []. split; [cbn; rewrite app_nil_r; reflexivity|]. split; [auto|]. split; [right; apply P|auto].
Qed.

Lemma atoi_itoa : forall z, int64 z = true -> atoi (itoa z) = Some z.
Proof.
  intros z H. unfold atoi, itoa, text. rewrite string_of_list_ascii_of_string. rewrite NilZero.isi.
  - rewrite DecimalZ.of_to, H. reflexivity.
  - destruct z; cbn; try discriminate. intro Q. injection Q as Q. apply (Unsigned.to_uint_nonnil p Q).
  - destruct z; cbn; try discriminate. intro Q. injection Q as Q. apply (Unsigned.to_uint_nonnil p Q).
Qed.

Theorem C103_integers : forall z, json_number (itoa z) /\ (int64 z = true -> atoi (itoa z) = Some z).
Proof. intro z. split; [apply itoa_number|apply atoi_itoa]. Qed.
Print Assumptions C103_integers.

(** ** Lasso paths and highscore lists *)

(** what a file contains: numbers, integers and names *)
Definition path_numbers {N : Num} (j : PathJSON N) : list N :=
  jdX (pjDset j) ++ jdY (pjDset j) ++ flat_map (fun n => lnLamb n :: lnCoeff n) (pjNodes j) ++ pjAicc j ++ pjBic j.
Definition path_ints {N : Num} (j : PathJSON N) : list Z :=
  [jdTargetCol (pjDset j); jdNr (pjDset j); jdNc (pjDset j)] ++ flat_map lnSelection (pjNodes j).
Definition path_names {N : Num} (j : PathJSON N) : list string := jdNames (pjDset j).
Definition with_names {N : Num} (names : list string) (j : PathJSON N) : PathJSON N :=
  mkPathJ (mkJSONDataset (jdX (pjDset j)) (jdY (pjDset j)) (jdTargetCol (pjDset j)) names (jdNr (pjDset j)) (jdNc (pjDset j)))
    (pjNodes j) (pjAicc j) (pjBic j).
Definition hs_numbers {N : Num} (j : hsJSON N) : list N :=
  flat_map (fun n => njLower n :: njUpper n :: njScore n :: njCoeff n) (hjItems j).
Definition hs_ints {N : Num} (j : hsJSON N) : list Z :=
  hjMaxItems j :: flat_map (fun n => njTotNumFeatures n :: njLevel n :: njSelected n) (hjItems j).

(** strconv prints the number so that it can be read back *)
Definition printable {N : Num} (fmt : N -> bytes) (parse : bytes -> option N) (x : N) : Prop :=
  json_number (fmt x) /\ parse (fmt x) = Some x.

Definition utf8_name (s : string) : Prop := utf8 (list_ascii_of_string s).
Definition repaired_name (s t : string) : Prop := repaired (list_ascii_of_string s) (list_ascii_of_string t).

Section Files.
  Variable N : Num.
  Variable fmt : N -> bytes.
  Variable parse : bytes -> option N.

  Lemma all_of_ok : forall A B (f : json -> option B) (enc : A -> json) (g : A -> B) l, (forall x, In x l -> f (repair (enc x)) = Some (g x)) ->
    all_of f (map repair (map enc l)) = Some (map g l).
  Proof.
    intros A B f enc g. induction l as [|a l IH]; intro H; [reflexivity|]. cbn [map all_of]. rewrite (H a (or_introl eq_refl)).
    rewrite IH by (intros x Hx; apply H; right; exact Hx). reflexivity.
  Qed.

  Lemma nums_back : forall l, (forall x, In x l -> printable fmt parse x) -> dec_list (dec_num parse) (repair (jnums fmt l)) = Some l.
  Proof. intros l H. cbn [jnums repair dec_list]. unfold jnums. rewrite (all_of_ok _ _ _ _ (fun x => x)); [rewrite map_id; reflexivity|]. intros x Hx. apply (H x Hx). Qed.
  Lemma ints_back : forall l, (forall x, In x l -> int64 x = true) -> dec_list dec_int (repair (jints l)) = Some l.
  Proof. intros l H. unfold jints. cbn [repair dec_list]. rewrite (all_of_ok _ _ _ _ (fun x => x)); [rewrite map_id; reflexivity|]. intros x Hx. apply atoi_itoa, (H x Hx). Qed.

  Definition valid_name (s : string) : string := string_of_list_ascii (to_valid (text s)).
  Lemma names_back : forall l, dec_list dec_name (repair (JArr (map jname l))) = Some (map valid_name l).
  Proof. intros l. cbn [repair dec_list]. apply all_of_ok. reflexivity. Qed.

  Lemma all_and : forall A (P : A -> Prop) l, fold_right and True (map P l) <-> forall x, In x l -> P x.
  Proof.
    intros A P l. induction l as [|a l IH]; cbn [map fold_right]; [split; [intros _ x []|auto]|]. rewrite IH. split.
    - intros [H1 H2] x [->|H]; auto.
    - intro H. split; [apply H; left; reflexivity|]. intros x Hx. apply H. right. exact Hx.
  Qed.

  Lemma nums_ok : forall l, (forall x, In x l -> printable fmt parse x) -> numbers_ok (jnums fmt l).
  Proof. intros l H. unfold jnums. cbn [numbers_ok]. rewrite map_map. apply all_and. intros x Hx. apply (H x Hx). Qed.
  Lemma ints_ok : forall l, numbers_ok (jints l).
  Proof. intros l. unfold jints. cbn [numbers_ok]. rewrite map_map. apply all_and. intros x _. apply itoa_number. Qed.
  Lemma names_ok : forall l, numbers_ok (JArr (map jname l)).
  Proof. intros l. cbn [numbers_ok]. rewrite map_map. apply all_and. intros x _. exact I. Qed.

  Lemma object_repair : forall l, map (fun k => to_valid (text k)) (map fst l) = map text (map fst l) ->
    repair (object l) = object (map (fun m => (fst m, repair (snd m))) l).
  Proof.
    intros l H. unfold object. cbn [repair]. f_equal. rewrite !map_map. cbn [fst snd]. induction l as [|[k v] l IH]; [reflexivity|].
    cbn [map fst snd] in *. injection H as H1 H2. rewrite H1, (IH H2). reflexivity.
  Qed.

  Ltac keys := repeat match goal with |- context [same_key (text ?a) (text ?b)] =>
    let r := eval vm_compute in (same_key (text a) (text b)) in change (same_key (text a) (text b)) with r end; cbv iota.
  Ltac open := rewrite object_repair by (vm_compute; reflexivity); cbn [map fst snd]; unfold object; cbn [map fst snd].
  Ltac fields := unfold dec_field; cbn [field]; keys.

  Lemma dataset_back : forall j, (forall x, In x (jdX j ++ jdY j) -> printable fmt parse x) -> (forall z, In z [jdTargetCol j; jdNr j; jdNc j] -> int64 z = true) ->
    dec_dataset parse (repair (dataset_json fmt j)) = Some (mkJSONDataset (jdX j) (jdY j) (jdTargetCol j) (map valid_name (jdNames j)) (jdNr j) (jdNc j)).
  Proof.
    intros j Hx Hz. unfold dataset_json. open. unfold dec_dataset. fields.
    rewrite !nums_back, names_back by (intros x H; apply Hx, in_or_app; auto). cbn [repair jint dec_int].
    rewrite !atoi_itoa by (apply Hz; cbn; auto). reflexivity.
  Qed.

  Lemma lnode_back : forall n, (forall x, In x (lnLamb n :: lnCoeff n) -> printable fmt parse x) -> (forall z, In z (lnSelection n) -> int64 z = true) ->
    lnode_of parse (repair (lnode_json fmt n)) = Some n.
  Proof.
    intros n Hx Hz. unfold lnode_json. open. unfold lnode_of. fields.
    rewrite nums_back by (intros x H; apply Hx; right; exact H). rewrite ints_back by exact Hz. cbn [repair jnum dec_num].
    rewrite (proj2 (Hx _ (or_introl eq_refl))). destruct n. reflexivity.
  Qed.

  Lemma node_back : forall n, (forall x, In x (njLower n :: njUpper n :: njScore n :: njCoeff n) -> printable fmt parse x) ->
    (forall z, In z (njTotNumFeatures n :: njLevel n :: njSelected n) -> int64 z = true) -> node_of parse (repair (node_json fmt n)) = Some n.
  Proof.
    intros n Hx Hz. unfold node_json. open. unfold node_of. fields.
    rewrite nums_back by (intros x H; apply Hx; cbn; auto). rewrite ints_back by (intros z H; apply Hz; cbn; auto). cbn [repair jnum jint dec_num dec_int].
    rewrite !(fun x H => proj2 (Hx x H)) by (cbn; auto). rewrite !atoi_itoa by (apply Hz; cbn; auto). destruct n. reflexivity.
  Qed.

  Lemma path_back : forall j, (forall x, In x (path_numbers j) -> printable fmt parse x) -> (forall z, In z (path_ints j) -> int64 z = true) ->
    numbers_ok (path_json fmt j) /\ path_of parse (repair (path_json fmt j)) = Some (with_names (map valid_name (path_names j)) j).
  Proof.
    intros j Hx Hz. unfold path_numbers, path_ints in *.
    assert (A1 : forall x, In x (jdX (pjDset j)) -> printable fmt parse x) by (intros x H; apply Hx; rewrite !in_app_iff; auto).
    assert (A2 : forall x, In x (jdY (pjDset j)) -> printable fmt parse x) by (intros x H; apply Hx; rewrite !in_app_iff; auto).
    assert (A3 : forall n x, In n (pjNodes j) -> In x (lnLamb n :: lnCoeff n) -> printable fmt parse x).
    { intros n x H H'. apply Hx. rewrite !in_app_iff. right. right. left. apply in_flat_map. eauto. }
    assert (A4 : forall x, In x (pjAicc j) -> printable fmt parse x) by (intros x H; apply Hx; rewrite !in_app_iff; auto).
    assert (A5 : forall x, In x (pjBic j) -> printable fmt parse x) by (intros x H; apply Hx; rewrite !in_app_iff; auto 6).
    assert (B1 : forall n z, In n (pjNodes j) -> In z (lnSelection n) -> int64 z = true).
    { intros n z H H'. apply Hz. rewrite in_app_iff. right. apply in_flat_map. eauto. }
    assert (B2 : forall z, In z [jdTargetCol (pjDset j); jdNr (pjDset j); jdNc (pjDset j)] -> int64 z = true) by (intros z H; apply Hz, in_or_app; auto).
    split.
    - assert (D : numbers_ok (dataset_json fmt (pjDset j))).
      { unfold dataset_json, object. cbn [map fst snd numbers_ok fold_right].
        refine (conj _ (conj _ (conj _ (conj _ (conj _ (conj _ I)))))); try (apply nums_ok; assumption); try apply itoa_number. apply names_ok. }
      assert (L : numbers_ok (JArr (map (lnode_json fmt) (pjNodes j)))).
      { cbn [numbers_ok]. rewrite map_map. apply all_and. intros n Hn. unfold lnode_json, object. cbn [map fst snd numbers_ok fold_right].
        refine (conj _ (conj _ (conj _ I))); [apply nums_ok; intros x H; apply (A3 n); cbn; auto|apply (A3 n); cbn; auto|apply ints_ok]. }
      unfold path_json, object. cbn [map fst snd numbers_ok fold_right].
      refine (conj D (conj L (conj _ (conj _ I)))); apply nums_ok; assumption.
    - unfold path_json. open. unfold path_of. fields.
      rewrite dataset_back by (exact B2 || (intros x H; apply in_app_or in H; destruct H; auto)).
      rewrite !nums_back by assumption. cbn [repair dec_list].
      rewrite (all_of_ok _ _ _ _ (fun n => n)) by (intros n Hn; apply lnode_back; eauto). rewrite map_id. reflexivity.
  Qed.

  Lemma hs_back : forall j, (forall x, In x (hs_numbers j) -> printable fmt parse x) -> (forall z, In z (hs_ints j) -> int64 z = true) ->
    numbers_ok (hs_json fmt j) /\ hs_of parse (repair (hs_json fmt j)) = Some j.
  Proof.
    intros j Hx Hz. unfold hs_numbers, hs_ints in *.
    assert (A : forall n x, In n (hjItems j) -> In x (njLower n :: njUpper n :: njScore n :: njCoeff n) -> printable fmt parse x).
    { intros n x H H'. apply Hx, in_flat_map. eauto. }
    assert (B : forall n z, In n (hjItems j) -> In z (njTotNumFeatures n :: njLevel n :: njSelected n) -> int64 z = true).
    { intros n z H H'. apply Hz. right. apply in_flat_map. eauto. }
    split.
    - assert (L : numbers_ok (JArr (map (node_json fmt) (hjItems j)))).
      { cbn [numbers_ok]. rewrite map_map. apply all_and. intros n Hn. unfold node_json, object. cbn [map fst snd numbers_ok fold_right].
        refine (conj _ (conj _ (conj _ (conj _ (conj _ (conj _ (conj _ I))))))); try apply itoa_number; try apply ints_ok;
          try (apply nums_ok; intros x H; apply (A n); cbn; auto); apply (A n); cbn; auto. }
      unfold hs_json, object. cbn [map fst snd numbers_ok fold_right]. refine (conj _ (conj L I)). apply itoa_number.
    - unfold hs_json. open. unfold hs_of. fields. cbn [repair jint dec_int dec_list]. rewrite atoi_itoa by (apply Hz; left; reflexivity).
      rewrite (all_of_ok _ _ _ _ (fun n => n)) by (intros n Hn; apply node_back; eauto). rewrite map_id. destruct j. reflexivity.
  Qed.

  Lemma valid_name_repaired : forall s, repaired_name s (valid_name s).
  Proof. intro s. unfold repaired_name, valid_name. rewrite list_ascii_of_string_of_list_ascii. apply (repaired_valid (length (text s))). lia. Qed.

  Lemma valid_name_iff : forall s, valid_name s = s <-> utf8_name s.
  Proof.
    intro s. unfold utf8_name. rewrite <- to_valid_iff. unfold valid_name, text. split; intro H.
    - rewrite <- H at 2. rewrite list_ascii_of_string_of_list_ascii. reflexivity.
    - rewrite H. apply string_of_list_ascii_of_string.
  Qed.

  (** The file of goselect lasso: everything comes back, the names with the
      bytes that are not UTF-8 replaced. *)
  Theorem C103_path_file : forall j, (forall x, In x (path_numbers j) -> printable fmt parse x) -> (forall z, In z (path_ints j) -> int64 z = true) ->
    exists names, Forall2 repaired_name (path_names j) names /\ (names = path_names j <-> Forall utf8_name (path_names j)) /\
      path_from_file parse (path_bytes fmt j) = (do p <- LassoLarsPathFromBytes (with_names names j); Ok (Read p)).
  Proof.
    intros j Hx Hz. exists (map valid_name (path_names j)). split; [|split].
    - induction (path_names j); constructor; [apply valid_name_repaired|assumption].
    - induction (path_names j) as [|s l IH]; [split; constructor|]. cbn [map]. split.
      + intro H. injection H as H1 H2. constructor; [apply valid_name_iff; exact H1|apply IH; exact H2].
      + intro H. inversion H as [|? ? H1 H2]; subst. f_equal; [apply valid_name_iff; exact H1|apply IH; exact H2].
    - destruct (path_back j Hx Hz) as [K E]. unfold path_from_file, unmarshal, path_bytes. rewrite (parse_write _ K), E. reflexivity.
  Qed.

  (** The file of goselect bnb comes back. *)
  Theorem C103_highscore_file : forall h j, (forall x, In x (hs_numbers j) -> printable fmt parse x) -> (forall z, In z (hs_ints j) -> int64 z = true) ->
    hs_from_file parse h (hs_bytes fmt j) = (do h' <- hsUnmarshalJSON h j; Ok (Read h')).
  Proof.
    intros h j Hx Hz. destruct (hs_back j Hx Hz) as [K E]. unfold hs_from_file, unmarshal, hs_bytes. rewrite (parse_write _ K), E. reflexivity.
  Qed.

  (** A file that is cut off anywhere, or whose end is that of another file,
      counts as not being JSON: no wrong data is read. *)
  Theorem C103_damaged_file : forall j k h, (forall x, In x (path_numbers j) -> printable fmt parse x) -> (forall z, In z (path_ints j) -> int64 z = true) ->
    (forall x, In x (hs_numbers k) -> printable fmt parse x) -> (forall z, In z (hs_ints k) -> int64 z = true) ->
    (forall p q, path_bytes fmt j = p ++ q -> q <> [] -> path_from_file parse p = Ok NotJson) /\
    (forall g c, In c g -> is_space c = false -> path_from_file parse (path_bytes fmt j ++ g) = Ok NotJson) /\
    (forall p q, hs_bytes fmt k = p ++ q -> q <> [] -> hs_from_file parse h p = Ok NotJson) /\
    (forall g c, In c g -> is_space c = false -> hs_from_file parse h (hs_bytes fmt k ++ g) = Ok NotJson).
  Proof.
    intros j k h Hx Hz Kx Kz. destruct (path_back j Hx Hz) as [P1 _]. destruct (hs_back k Kx Kz) as [P2 _].
    destruct (C103_whole_file _ P1 I) as [A1 A2]. destruct (C103_whole_file _ P2 I) as [B1 B2]. unfold path_from_file, hs_from_file, unmarshal.
    split; [|split; [|split]].
    - intros p q E Hq. rewrite (A1 p q E Hq). reflexivity.
    - intros g c H1 H2. unfold path_bytes. rewrite (A2 g c H1 H2). reflexivity.
    - intros p q E Hq. rewrite (B1 p q E Hq). reflexivity.
    - intros g c H1 H2. unfold hs_bytes. rewrite (B2 g c H1 H2). reflexivity.
  Qed.
End Files.
Print Assumptions C103_path_file.
Print Assumptions C103_highscore_file.
Print Assumptions C103_damaged_file.

(** ** Whole results *)

Lemma from_finite : forall (N : Num) (d : Dataset N) j, dsMarshalJSON d = Ok (Some j) -> (forall x, In x (jdX j ++ jdY j) -> finite x = true) /\
  jdNames j = dsNames d /\ jdTargetCol j = dsTargetCol d /\ jdNr j = Z.of_nat (mrows (dsX d)) /\ jdNc j = Z.of_nat (mcols (dsX d)).
Proof.
  intros N d j E. unfold dsMarshalJSON in E. apply bind_ok in E. destruct E as (X & _ & E).
  destruct (forallb finite X && forallb finite (dsY d))%bool eqn:F; [|discriminate E]. apply andb_prop in F. destruct F as [F1 F2].
  injection E as <-. cbn [jdX jdY jdNames jdTargetCol jdNr jdNc]. split; [|auto]. intros x H. apply in_app_or in H. rewrite forallb_forall in F1, F2. destruct H; auto.
Qed.

(** Writing the result of goselect lasso and reading the file: the dataset, the
    nodes and the scores, if the names are UTF-8. *)
Theorem C103_lasso_result : forall (N : Num) fmt parse (d : Dataset N) nodes aicc bic,
  (forall x : N, finite x = true -> printable fmt parse x) ->
  (0 < mrows (dsX d))%nat -> (0 < mcols (dsX d))%nat ->
  (forall i j, (i < mrows (dsX d))%nat -> (j < mcols (dsX d))%nat -> finite (mval (dsX d) i j) = true) ->
  (forall y, In y (dsY d) -> finite y = true) ->
  (forall n x, In n nodes -> In x (lnLamb n :: lnCoeff n) -> finite x = true) ->
  (forall x, In x aicc \/ In x bic -> finite x = true) ->
  (forall z, In z [dsTargetCol d; Z.of_nat (mrows (dsX d)); Z.of_nat (mcols (dsX d))] -> int64 z = true) ->
  (forall n z, In n nodes -> In z (lnSelection n) -> int64 z = true) ->
  Forall utf8_name (dsNames d) ->
  exists j d', pathMarshal d nodes aicc bic = Ok (Some j) /\
    path_from_file parse (path_bytes fmt j) = Ok (Read (mkPath d' nodes, aicc, bic)) /\
    meq (dsX d') (dsX d) /\ dsY d' = dsY d /\ dsNames d' = dsNames d /\ dsTargetCol d' = dsTargetCol d.
Proof.
  intros N fmt parse d nodes aicc bic HP Hr Hc HX HY Hn Hs Hz Hz' Hu.
  destruct (C68_lasso_file_roundtrip N d nodes aicc bic Hr Hc HX HY Hn Hs) as (j & d' & E1 & E2 & Q).
  exists j, d'. split; [exact E1|]. split; [|exact Q]. unfold pathMarshal in E1. apply bind_ok in E1. destruct E1 as (jd & E & E1).
  destruct jd as [jd|]; [|discriminate E1]. destruct (_ && _ && _)%bool; [|discriminate E1]. injection E1 as <-.
  destruct (from_finite N d jd E) as (F & G1 & G2 & G3 & G4).
  destruct (C103_path_file N fmt parse (mkPathJ jd nodes aicc bic)) as (names & _ & U & R).
  - unfold path_numbers. cbn [pjDset pjNodes pjAicc pjBic]. intros x Hx. apply HP. rewrite app_assoc in Hx. apply in_app_or in Hx. destruct Hx as [Hx|Hx]; [auto|].
    apply in_app_or in Hx. destruct Hx as [Hx|Hx]; [apply in_flat_map in Hx; destruct Hx as (n & A & B); eauto|]. apply in_app_or in Hx. auto.
  - unfold path_ints. cbn [pjDset pjNodes]. rewrite G2, G3, G4. intros z H. apply in_app_or in H. destruct H as [H|H]; [auto|].
    apply in_flat_map in H. destruct H as (n & A & B). eauto.
  - rewrite R. rewrite (proj2 U) by (change (path_names _) with (jdNames jd); rewrite G1; exact Hu).
    replace (with_names _ _) with (mkPathJ jd nodes aicc bic) by (destruct jd; reflexivity). rewrite E2. reflexivity.
Qed.
Print Assumptions C103_lasso_result.

(** Writing the highscore list of goselect bnb and reading the file. *)
Theorem C103_highscore_result : forall o fmt parse M M0 (nodes : list (Node (F64 o))) h,
  (forall x : F64 o, finite x = true -> printable fmt parse x) ->
  M <> 1%Z -> Forall score_ok nodes -> hsInsertAll (NewHighscore M) nodes = Ok h ->
  (hsLen h < hsMaxItems h)%Z -> forallb node_finite (hsItems h) = true ->
  int64 (hsMaxItems h) = true -> (forall n, In n (hsItems h) -> int64 (Z.of_nat (length (ndModel n))) = true /\ int64 (ndLevel n) = true) ->
  exists j, hsMarshalJSON h = Ok (Some j) /\
    hs_from_file parse (NewHighscore M0) (hs_bytes fmt j) = Ok (Read (mkHS (map (with_flip false) (hsItems h)) (hsMaxItems h))).
Proof.
  intros o fmt parse M M0 nodes h HP HM Hn E Hl Hf Hz Hz'.
  destruct (C04_highscore_json_roundtrip o M M0 nodes h HM Hn E Hl Hf) as (j & E1 & E2). exists j. split; [exact E1|].
  unfold hsMarshalJSON in E1. rewrite marshal_nodes_ok in E1 by exact Hf. cbn [bind option_map] in E1. injection E1 as <-.
  rewrite forallb_forall in Hf. rewrite C103_highscore_file; [rewrite E2; reflexivity| |].
  - unfold hs_numbers. cbn [hjItems]. intros x H. apply HP. apply in_flat_map in H. destruct H as (jn & A & B). apply in_map_iff in A.
    destruct A as (n & <- & A). specialize (Hf n A). unfold node_finite in Hf. apply andb_prop in Hf. destruct Hf as [Hf F4].
    apply andb_prop in Hf. destruct Hf as [Hf F3]. apply andb_prop in Hf. destruct Hf as [F1 F2]. cbn in B. rewrite forallb_forall in F4.
    destruct B as [<-|[<-|[<-|B]]]; auto.
  - unfold hs_ints. cbn [hjItems hjMaxItems]. intros z H. destruct H as [<-|H]; [exact Hz|]. apply in_flat_map in H. destruct H as (jn & A & B).
    apply in_map_iff in A. destruct A as (n & <- & A). destruct (Hz' n A) as [Z1 Z2]. cbn in B. destruct B as [<-|[<-|B]]; [exact Z1|exact Z2|].
    apply sel_from_In in B. destruct B as (i & -> & B). assert (L : (i < length (ndModel n))%nat) by (apply nth_error_Some; rewrite B; discriminate).
    unfold int64 in *. apply andb_prop in Z1. destruct Z1 as [Z1 Z1']. apply andb_true_intro. split; [apply Z.leb_le; lia|]. apply Z.ltb_lt in Z1'. apply Z.ltb_lt. lia.
Qed.
Print Assumptions C103_highscore_result.

(** ** Examples *)

(** a way to print all finite numbers that can be read back (strconv is not
    modelled; it chooses other digits) *)
Definition show64 (x : spec_float) : bytes :=
  match x with
  | S754_zero false => text "0E0"
  | S754_zero true => text "-0E0"
  | S754_finite false m e => itoa (Z.pos m) ++ "E"%char :: itoa e
  | S754_finite true m e => itoa (Z.neg m) ++ "E"%char :: itoa e
  | _ => text "null"
  end.

Fixpoint cut_E (t : bytes) : option (bytes * bytes) :=
  match t with
  | [] => None
  | c :: r => if Ascii.eqb c "E"%char then Some ([], r) else match cut_E r with Some (a, b) => Some (c :: a, b) | None => None end
  end.

Definition read64 (t : bytes) : option spec_float :=
  match cut_E t with
  | Some (a, b) =>
      match NilZero.int_of_string (string_of_list_ascii a), NilZero.int_of_string (string_of_list_ascii b) with
      | Some m, Some e =>
          match m, Z.of_int m with
          | Decimal.Pos _, Z0 => Some (S754_zero false)
          | Decimal.Neg _, Z0 => Some (S754_zero true)
          | _, Z.pos p => Some (S754_finite false p (Z.of_int e))
          | _, Z.neg p => Some (S754_finite true p (Z.of_int e))
          end
      | _, _ => None
      end
  | None => None
  end.

Lemma itoa_back : forall z, NilZero.int_of_string (string_of_list_ascii (itoa z)) = Some (Z.to_int z).
Proof.
  intro z. unfold itoa, text. rewrite string_of_list_ascii_of_string. apply NilZero.isi;
    (destruct z; cbn; try discriminate; intro Q; injection Q as Q; apply (Unsigned.to_uint_nonnil p Q)).
Qed.

Lemma itoa_bytes : forall z c, In c (itoa z) -> c = "-"%char \/ digit c.
Proof.
  intros z c H. destruct (itoa_number z) as (s & i & f & e & E & Hs & Hi & Hf & He).
  assert (D : forall p, Forall digit (text (NilZero.string_of_uint (Pos.to_uint p)))).
  { intro p. pose proof (uint_digits (Pos.to_uint p)) as D. unfold NilZero.string_of_uint. destruct (Pos.to_uint p); try exact D. constructor; [|constructor]. split; vm_compute; discriminate. }
  destruct z as [|p|p].
  - destruct H as [<-|[]]. right. split; vm_compute; discriminate.
  - right. apply (proj1 (Forall_forall _ _) (D p)). exact H.
  - destruct H as [<-|H]; [left; reflexivity|]. right. apply (proj1 (Forall_forall _ _) (D p)). exact H.
Qed.

Lemma cut_itoa : forall z t, cut_E (itoa z ++ "E"%char :: t) = Some (itoa z, t).
Proof.
  intros z t. assert (H : ~ In "E"%char (itoa z)) by (intro H; destruct (itoa_bytes z _ H) as [Q|[Q1 Q2]]; [discriminate Q|vm_compute in Q2; apply Q2; reflexivity]).
  revert H. generalize (itoa z) as l. induction l as [|c l IH]; intro H; [reflexivity|]. cbn [app cut_E].
  destruct (Ascii.eqb_spec c "E"%char) as [->|_]; [destruct H; left; reflexivity|]. rewrite IH by (intro Q; apply H; right; exact Q). reflexivity.
Qed.

Lemma number_exp : forall a e, json_number (itoa a ++ "E"%char :: itoa e).
Proof.
  assert (P : forall p, some_digits (text (NilZero.string_of_uint (Pos.to_uint p))) /\ hd "0"%char (text (NilZero.string_of_uint (Pos.to_uint p))) <> "0"%char).
  { intro p. pose proof (pos_head p) as H. pose proof (Unsigned.to_uint_nonnil p) as H'. pose proof (uint_digits (Pos.to_uint p)) as D.
    unfold NilZero.string_of_uint. destruct (Pos.to_uint p) as [|d|d|d|d|d|d|d|d|d|d]; try congruence; try (destruct (H d); reflexivity);
      (split; [split; [discriminate|exact D]|cbn; discriminate]). }
  intros a e. assert (A : exists s i, itoa a = s ++ i /\ (s = [] \/ s = ["-"%char]) /\ (i = ["0"%char] \/ (some_digits i /\ hd "0"%char i <> "0"%char))).
  { destruct a as [|p|p]; [exists [], ["0"%char]|exists [], (text (NilZero.string_of_uint (Pos.to_uint p)))|exists ["-"%char], (text (NilZero.string_of_uint (Pos.to_uint p)))];
      repeat split; auto; right; apply P. }
  assert (B : exists s d, itoa e = s ++ d /\ (s = [] \/ s = ["+"%char] \/ s = ["-"%char]) /\ some_digits d).
  { destruct e as [|p|p]; [exists [], ["0"%char]|exists [], (text (NilZero.string_of_uint (Pos.to_uint p)))|exists ["-"%char], (text (NilZero.string_of_uint (Pos.to_uint p)))];
      (split; [reflexivity|split; [auto|]]); try apply P. split; [discriminate|]. constructor; [|constructor]. split; vm_compute; discriminate. }
  destruct A as (s & i & -> & Hs & Hi). destruct B as (u & d & -> & Hu & Hd).
  exists s, i, [], ("E"%char :: u ++ d). split; [rewrite <- app_assoc; reflexivity|]. split; [exact Hs|]. split; [exact Hi|]. split; [auto|].
  right. exists "E"%char, u, d. auto.
Qed.

Example C103_numbers : forall o (x : F64 o), finite x = true -> printable (N := F64 o) show64 read64 x.
Proof.
  intros o x H. destruct x as [s|s| |s m e].
  - destruct s; (split; [|reflexivity]); [apply (number_exp 0 0) || idtac|apply (number_exp 0 0)].
    exists ["-"%char], ["0"%char], [], (text "E0"). split; [reflexivity|]. split; [auto|]. split; [auto|]. split; [auto|].
    right. exists "E"%char, [], ["0"%char]. repeat split; auto; try discriminate. constructor; [|constructor]. split; vm_compute; discriminate.
  - destruct s; discriminate H.
  - discriminate H.
  - assert (F : forall z, (z <> 0)%Z -> read64 (itoa z ++ "E"%char :: itoa e) = Some (match z with Z.pos p => S754_finite false p e | Z.neg p => S754_finite true p e | Z0 => S754_zero false end)).
    { intros z Hz. unfold read64. rewrite cut_itoa. cbv iota beta. rewrite !itoa_back. cbv iota beta. rewrite !DecimalZ.of_to. pose proof (DecimalZ.of_to z) as Q. destruct (Z.to_int z); rewrite Q; destruct z; congruence || reflexivity. }
    destruct s; (split; [apply number_exp|]); [apply (F (Z.neg m))|apply (F (Z.pos m))]; discriminate.
Qed.

(** é and è in Latin-1 *)
Definition e_acute : string := String (ascii_of_N 233) EmptyString.
Definition e_grave : string := String (ascii_of_N 232) EmptyString.

Definition two_columns (names : list string) : Dataset (F64 fenv0) :=
  mkDataset (N := F64 fenv0) (mkMat 2 2 (fun i j => f64_ofZ (Z.of_nat (3 * i + j)) : F64 fenv0)) [f64_ofZ 7; f64_ofZ (-8)] names 2.

(** Two names that differ before the file is written can be equal after it is read. *)
Theorem C103_names_collide_refuted : exists (d d' : Dataset (F64 fenv0)) j,
  NoDup (dsNames d) /\ pathMarshal d [] [] [] = Ok (Some j) /\
  path_from_file (N := F64 fenv0) read64 (path_bytes (N := F64 fenv0) show64 j) = Ok (Read (mkPath d' [], [], [])) /\ ~ NoDup (dsNames d').
Proof.
  set (d := two_columns [e_acute; e_grave; "y"%string]).
  destruct (C68_lasso_file_roundtrip (F64 fenv0) d [] [] []) as (j & d0 & E1 & E2 & _); [cbn; lia|cbn; lia| | | | |].
  - intros i k Hi Hk. destruct i as [|[|i]]; [| |cbn in Hi; lia]; (destruct k as [|[|k]]; [| |cbn in Hk; lia]); reflexivity.
  - intros y [<-|[<-|[]]]; reflexivity.
  - intros n x [].
  - intros x [[]|[]].
  - exists d. pose proof E1 as M1. unfold pathMarshal in E1. apply bind_ok in E1. destruct E1 as (jd & E & E1). destruct jd as [jd|]; [|discriminate E1].
    cbn [forallb andb] in E1. injection E1 as <-. destruct (from_finite (F64 fenv0) d jd E) as (F & G1 & G2 & G3 & G4).
    destruct (path_back (F64 fenv0) show64 read64 (mkPathJ jd [] [] [])) as [K R].
    + intros x Hx. apply C103_numbers. unfold path_numbers in Hx. cbn [pjDset pjNodes pjAicc pjBic flat_map] in Hx. rewrite !app_nil_r in Hx. auto.
    + unfold path_ints. cbn [pjDset pjNodes flat_map]. rewrite G2, G3, G4. intros z [<-|[<-|[<-|[]]]]; reflexivity.
    + unfold LassoLarsPathFromBytes, dsUnmarshalJSON in E2. cbn [pjDset pjNodes pjAicc pjBic] in E2.
      destruct (new_dense_from (jdNr jd) (jdNc jd) (jdX jd)) as [X| |] eqn:EX; try discriminate E2.
      exists (mkDataset (N := F64 fenv0) X (jdY jd) (map valid_name (jdNames jd)) (jdTargetCol jd)).
      exists (mkPathJ jd [] [] []). split; [|split; [exact M1|split]].
      * cbn. repeat constructor; cbn; intros Q; repeat destruct Q as [Q|Q]; try discriminate; contradiction.
      * unfold path_from_file, unmarshal, path_bytes. rewrite (parse_write _ K), R. unfold LassoLarsPathFromBytes, with_names, path_names, dsUnmarshalJSON.
        cbn [pjDset pjNodes pjAicc pjBic jdX jdY jdTargetCol jdNames jdNr jdNc]. rewrite EX. reflexivity.
      * cbn [dsNames]. rewrite G1. change (map valid_name (dsNames d)) with [valid_name e_acute; valid_name e_grave; valid_name "y"].
        replace (valid_name e_grave) with (valid_name e_acute) by (vm_compute; reflexivity). intro Q. inversion Q as [|? ? Q1 Q2]. apply Q1. left. reflexivity.
Qed.
Print Assumptions C103_names_collide_refuted.

(** names with a quote, an ampersand and letters outside ASCII come back *)
Example C103_example : exists j d', let d := two_columns ["a ""b""" ; "T<3 & p>1"; "caf" ++ String (ascii_of_N 195) (String (ascii_of_N 169) EmptyString)]%string in
  pathMarshal d [mkLN (N := F64 fenv0) [f64_ofZ 5] (f64_ofZ 3) [1%Z]] [f64_ofZ 1] [f64_ofZ 2] = Ok (Some j) /\
  path_from_file (N := F64 fenv0) read64 (path_bytes (N := F64 fenv0) show64 j)
    = Ok (Read (mkPath d' [mkLN (N := F64 fenv0) [f64_ofZ 5] (f64_ofZ 3) [1%Z]], [f64_ofZ 1], [f64_ofZ 2])) /\
  dsNames d' = dsNames d.
Proof.
  match goal with |- exists j d', let d := ?d in pathMarshal _ ?n ?a ?b = _ /\ _ =>
    destruct (C103_lasso_result (F64 fenv0) show64 read64 d n a b (C103_numbers fenv0)) as (j & d' & A & B & _ & _ & C & _) end;
    [cbn; lia|cbn; lia| | | | | | | |exists j, d'; cbv zeta; split; [exact A|split; [exact B|exact C]]].
  - intros i k Hi Hk. destruct i as [|[|i]]; [| |cbn in Hi; lia]; (destruct k as [|[|k]]; [| |cbn in Hk; lia]); reflexivity.
  - intros y [<-|[<-|[]]]; reflexivity.
  - intros n x [<-|[]] [<-|[<-|[]]]; reflexivity.
  - intros x [[<-|[]]|[<-|[]]]; reflexivity.
  - intros z [<-|[<-|[<-|[]]]]; reflexivity.
  - intros n z [<-|[]] [<-|[]]; reflexivity.
  - repeat constructor; apply valid_name_iff; vm_compute; reflexivity.
Qed.

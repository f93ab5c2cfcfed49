(** C26, C27, C28: datasets and their files (csvIO.go). *)
From Coq Require Import String Reals Lra SpecFloat.
From Verif Require Import Base Num Mat Model_Node Model_CSV Proof_Node Proof_Node2 Proof_XR
  Proof_CSV Proof_CSV2 Proof_CSVText.
Open Scope list_scope.

(** ** Specification *)

(** value of a cell: unparsable text counts as 0 *)
Definition value {N : Num} (parse : string -> option N) (s : string) : N :=
  match parse s with Some v => v | None => n0 end.

(** column t of an n column table, counted from the end when negative *)
Definition column_of (n : nat) (targetCol : Z) (t : nat) : Prop :=
  (t < n)%nat /\ (targetCol = Z.of_nat t \/ targetCol = (Z.of_nat t - Z.of_nat n)%Z).

(** the j-th of the columns other than t *)
Definition other_column (t j : nat) : nat := if (j <? t)%nat then j else S j.

(** [d] is the dataset of the table with this header, these rows and target column t *)
Definition dataset_of {N : Num} (parse : string -> option N) (header : list string)
  (rows : list (list string)) (t : nat) (d : Dataset N) : Prop :=
  dsNames d = header /\ dsTargetCol d = Z.of_nat t /\
  length (dsY d) = length rows /\ mrows (dsX d) = length rows /\ mcols (dsX d) = (length header - 1)%nat /\
  forall i row, nth_error rows i = Some row ->
    nth i (dsY d) n0 = value parse (nth t row EmptyString) /\
    forall j, (j < length header - 1)%nat -> mval (dsX d) i j = value parse (nth (other_column t j) row EmptyString).

(** ** C26 *)

Lemma column_target : forall n tc t, column_of n tc t -> target_of tc n = Z.of_nat t.
Proof. intros n tc t [H1 H2]. unfold target_of. destruct (Z.ltb_spec tc 0); destruct H2; lia. Qed.

Theorem C26_columns_split : forall (N : Num) (parse : string -> option N) header rows targetCol t,
  rows <> [] -> (forall r, In r rows -> length r = length header) -> (2 <= length header)%nat ->
  column_of (length header) targetCol t ->
  exists d, ParseCSV parse (header :: rows) targetCol = Ok d /\ dataset_of parse header rows t d.
Proof.
  intros N parse header rows targetCol t Hne Hlen H2 Ht.
  destruct (parse_ok N parse header rows targetCol t Hne Hlen H2 (column_target _ _ _ Ht) (proj1 Ht))
    as (d & E & A1 & A2 & A3 & A4 & A5 & A6).
  exists d. split; [exact E|]. unfold dataset_of. split; [exact A1|]. split; [exact A2|]. split; [exact A5|].
  split; [exact A3|]. split; [exact A4|]. intros i row Hi.
  assert (Hil : (i < length rows)%nat) by (apply nth_error_Some; congruence).
  destruct (A6 i Hil) as [B1 B2]. rewrite (nth_error_nth rows i [] Hi) in B1, B2. split; [exact B1|exact B2].
Qed.
Print Assumptions C26_columns_split.

(** everything else panics *)
Theorem C26_otherwise_panics : forall (N : Num) (parse : string -> option N) records targetCol,
  ParseCSV parse records targetCol <> Panic ->
  exists header rows t, records = header :: rows /\ rows <> [] /\
    (forall r, In r rows -> length r = length header) /\ (2 <= length header)%nat /\
    column_of (length header) targetCol t.
Proof.
  intros N parse records targetCol H.
  destruct records as [|header rows]; [exfalso; apply H; reflexivity|].
  assert (D1 : rows <> []) by (intros ->; apply H; apply parse_panic; left; reflexivity).
  assert (D2 : forall r, In r rows -> length r = length header).
  { intros r Hr. destruct (Nat.eq_dec (length r) (length header)) as [E|E]; [exact E|].
    exfalso. apply H. apply parse_panic. right. left. exists r. auto. }
  assert (D3 : (2 <= length header)%nat).
  { destruct (le_lt_dec 2 (length header)) as [E|E]; [exact E|].
    exfalso. apply H. apply parse_panic. right. right. left. exact E. }
  assert (D4 : (0 <= target_of targetCol (length header) < Z.of_nat (length header))%Z).
  { destruct (Z_lt_le_dec (target_of targetCol (length header)) 0) as [E|E];
      [exfalso; apply H; apply parse_panic; do 3 right; lia|].
    destruct (Z_lt_le_dec (target_of targetCol (length header)) (Z.of_nat (length header))) as [E'|E'];
      [lia|exfalso; apply H; apply parse_panic; do 3 right; lia]. }
  exists header, rows, (Z.to_nat (target_of targetCol (length header))).
  split; [reflexivity|]. split; [exact D1|]. split; [exact D2|]. split; [exact D3|]. split; [lia|].
  rewrite Z2Nat.id by lia. unfold target_of in *. destruct (Z.ltb_spec targetCol 0); [right|left]; lia.
Qed.
Print Assumptions C26_otherwise_panics.

(** names: GetFeatName(i) is the header of the column X[:,i] came from, and
    FeatNoByName finds i again; the target's own name is answered with the
    index of another column; a name that is not in the header panics *)
Theorem C26_names : forall (N : Num) (parse : string -> option N) header rows t (d : Dataset N),
  dataset_of parse header rows t d -> NoDup header -> (t < length header)%nat ->
  (forall i, (i < length header - 1)%nat ->
     exists name, nth_error header (other_column t i) = Some name /\
       GetFeatName d (Z.of_nat i) = Ok name /\ FeatNoByName d name = Ok (Z.of_nat i)) /\
  (forall name, nth_error header t = Some name -> FeatNoByName d name = Ok (Z.of_nat t)) /\
  (forall name, ~ In name header -> FeatNoByName d name = Panic).
Proof.
  intros N parse header rows t d (H1 & H2 & _) Hd Ht. subst header. split; [|split].
  - intros i Hi. destruct (feat_name_no N d t i Hd H2 Hi Ht) as (name & A & B & C).
    exists name. auto.
  - intros name Hn. rewrite (feat_no N d t name Hd Hn), H2.
    destruct (Z.ltb_spec (Z.of_nat t) (Z.of_nat t)); [lia|reflexivity].
  - intros name Hn. apply feat_no_missing. exact Hn.
Qed.
Print Assumptions C26_names.

(** A file with a cell that does not parse; target the last but one column,
    given as -2 *)
Definition file26 : list (list string) :=
  [["a"; "b"; "t"; "c"]; ["1.000000"; "2.500000"; "7.000000"; "oops"]; ["3.000000"; "-4.000000"; "8.000000"; "5.000000"]]%string.

Example C26_nonvacuous :
  column_of 4 (-2) 2 /\ NoDup ["a"; "b"; "t"; "c"]%string /\
  match ParseCSV (N := F64 fenv0) parse_f file26 (-2) with
  | Ok d => forallb (fun p => go_eq (fst p) (snd p))
      (combine (dsY d ++ [mval (dsX d) 0 1; mval (dsX d) 0 2; mval (dsX d) 1 2])
               (map (fun z => ndec (n := F64 fenv0) z (-1)) [70; 80; 25; 0; 50]%Z))
  | _ => false
  end = true.
Proof.
  split; [split; [lia|right; reflexivity]|]. split; [repeat constructor; cbn; intuition discriminate|].
  vm_compute. reflexivity.
Qed.

(** ** C27 *)

(** a dataset with one name per column, target included, and one Y per row *)
Definition consistent {N : Num} (d : Dataset N) : Prop :=
  (0 < mrows (dsX d))%nat /\ (0 < mcols (dsX d))%nat /\ length (dsY d) = mrows (dsX d) /\
  length (dsNames d) = (mcols (dsX d) + 1)%nat /\
  (0 <= dsTargetCol d < Z.of_nat (length (dsNames d)))%Z.

Lemma consistent_shaped : forall (N : Num) (d : Dataset N), consistent d -> shaped N d (Z.to_nat (dsTargetCol d)).
Proof. intros N d (H1 & H2 & H3 & H4 & H5). unfold shaped. rewrite Z2Nat.id by lia. repeat split; lia. Qed.

(** [e] is [d] with every number replaced by [f] of it *)
Definition same_with {N : Num} (f : N -> N) (d e : Dataset N) : Prop :=
  dsNames e = dsNames d /\ dsTargetCol e = dsTargetCol d /\
  mrows (dsX e) = mrows (dsX d) /\ mcols (dsX e) = mcols (dsX d) /\ length (dsY e) = length (dsY d) /\
  (forall i, (i < length (dsY d))%nat -> nth i (dsY e) n0 = f (nth i (dsY d) n0)) /\
  (forall i j, (i < mrows (dsX d))%nat -> (j < mcols (dsX d))%nat -> mval (dsX e) i j = f (mval (dsX d) i j)).

(** for every pair of rendering and parsing functions; the target column may
    be given from either end *)
Theorem C27_save_and_read_back : forall (N : Num) (sprintf : N -> string) (parse : string -> option N) (d : Dataset N) targetCol,
  consistent d ->
  (targetCol = dsTargetCol d \/ targetCol = (dsTargetCol d - Z.of_nat (length (dsNames d)))%Z) ->
  exists records e, SaveHandle sprintf d = Ok records /\
    ParseCSV parse (csv_transport records) targetCol = Ok e /\
    same_with (fun x => value parse (sprintf x)) d e.
Proof.
  intros N sprintf parse d targetCol Hc Htc. pose proof (consistent_shaped N d Hc) as Hs.
  pose proof Hs as (Hr & Hcol & HY & Hn & Ht & Htl).
  pose proof (save_ok N sprintf d _ Ht Htl ltac:(lia)) as Es.
  destruct (save_parse N sprintf parse d _ targetCol _ Hs ltac:(rewrite <- Ht; exact Htc) Es)
    as (e & E & A1 & A2 & A3 & A4 & A5 & A6).
  eexists. exists e. split; [exact Es|]. split; [exact E|].
  split; [exact A1|]. split; [exact A2|]. split; [exact A3|]. split; [exact A4|]. split; [exact A5|]. split.
  - intros i Hi. apply A6. lia.
  - intros i j Hi Hj. apply (A6 i Hi). exact Hj.
Qed.
Print Assumptions C27_save_and_read_back.

(** The text of %f, exact arithmetic: what is read back is the nearest
    multiple of 10^-6, so within half of it ... *)
Theorem C27_six_decimals : forall r : R,
  exists z, value (N := XR) parse_f (sprintf_XR (XFin r)) = XFin (IZR z / 1000000) /\
    (Rabs (IZR z / 1000000 - r) <= 5 / 10000000)%R.
Proof.
  intro r. unfold value. rewrite parse_sprintf_XR.
  exists (if Rltb r 0 then (- R_round_even (Rabs r * 1000000))%Z else R_round_even (Rabs r * 1000000)).
  pose proof (six_close r) as H. unfold six in *. destruct (Rltb r 0).
  - rewrite opp_IZR. split; [reflexivity|exact H].
  - split; [reflexivity|exact H].
Qed.
Print Assumptions C27_six_decimals.

(** ... the dataset survives exactly if and only if all its numbers are such
    multiples ... *)
Definition real_numbers (d : Dataset XR) (P : R -> Prop) : Prop :=
  (forall i, (i < length (dsY d))%nat -> exists r, nth i (dsY d) n0 = XFin r /\ P r) /\
  (forall i j, (i < mrows (dsX d))%nat -> (j < mcols (dsX d))%nat -> exists r, mval (dsX d) i j = XFin r /\ P r).

Theorem C27_exact_iff : forall (d : Dataset XR),
  consistent d -> real_numbers d (fun _ => True) ->
  exists records e, SaveHandle (N := XR) sprintf_XR d = Ok records /\
    ParseCSV (N := XR) parse_f (csv_transport records) (dsTargetCol d) = Ok e /\
    (same_with (fun x => x) d e <-> real_numbers d (fun r => exists z, r = (IZR z / 1000000)%R)).
Proof.
  intros d Hc [HY HX].
  destruct (C27_save_and_read_back XR sprintf_XR parse_f d (dsTargetCol d) Hc (or_introl eq_refl))
    as (records & e & E1 & E2 & A1 & A2 & A3 & A4 & A5 & A6 & A7).
  exists records, e. split; [exact E1|]. split; [exact E2|].
  assert (Hv : forall r, value (N := XR) parse_f (sprintf_XR (XFin r)) = XFin (six r))
    by (intro r; unfold value; rewrite parse_sprintf_XR; reflexivity).
  split.
  - intros (_ & _ & _ & _ & _ & B1 & B2). split.
    + intros i Hi. destruct (HY i Hi) as (r & Er & _). exists r. split; [exact Er|].
      apply six_fixed. specialize (B1 i Hi). rewrite (A6 i Hi), Er, Hv in B1. injection B1 as B1. exact B1.
    + intros i j Hi Hj. destruct (HX i j Hi Hj) as (r & Er & _). exists r. split; [exact Er|].
      apply six_fixed. specialize (B2 i j Hi Hj). rewrite (A7 i j Hi Hj), Er, Hv in B2. injection B2 as B2. exact B2.
  - intros [C1 C2]. split; [exact A1|]. split; [exact A2|]. split; [exact A3|]. split; [exact A4|].
    split; [exact A5|]. split.
    + intros i Hi. destruct (C1 i Hi) as (r & Er & Hz). apply six_fixed in Hz.
      rewrite (A6 i Hi), Er, Hv, Hz. reflexivity.
    + intros i j Hi Hj. destruct (C2 i j Hi Hj) as (r & Er & Hz). apply six_fixed in Hz.
      rewrite (A7 i j Hi Hj), Er, Hv, Hz. reflexivity.
Qed.
Print Assumptions C27_exact_iff.

(** ... and a number below half a millionth is read back as 0, in exact
    arithmetic and in binary64 *)
Theorem C27_small_values_lost : forall r : R, (Rabs r < 5 / 10000000)%R ->
  value (N := XR) parse_f (sprintf_XR (XFin r)) = XFin 0.
Proof. intros r H. unfold value. rewrite parse_sprintf_XR, (six_small r H). reflexivity. Qed.
Print Assumptions C27_small_values_lost.

Theorem C27_small_values_lost_binary64 : forall o s m e,
  (2 * (Zpos m * 1000000) < 2 ^ (- e))%Z ->
  value (N := F64 o) parse_f (sprintf_F64 (S754_finite s m e)) = S754_zero s.
Proof. intros o s m e H. unfold value. rewrite (parse_sprintf_F64_small o s m e H). reflexivity. Qed.
Print Assumptions C27_small_values_lost_binary64.

(** In binary64 the text is that of the exact value of the number, so all that
    is said above of %f holds of the code's floats ... *)
Theorem C27_binary64_text : forall (s : bool) m e,
  sprintf_F64 (S754_finite s m e) = sprintf_XR (XFin ((if s then -1 else 1) * (IZR (Zpos m) * powerRZ 2 e))%R).
Proof. exact sprintf_F64_exact. Qed.
Print Assumptions C27_binary64_text.

(** ... and zeros with their sign, infinities and NaN are read back as they are. *)
Theorem C27_binary64_special : forall o (x : F64 o),
  match x with S754_finite _ _ _ => False | _ => True end ->
  value (N := F64 o) parse_f (sprintf_F64 x) = x.
Proof.
  intros o [s|s| |s m e] H; [| |reflexivity|contradiction]; destruct s; unfold value; vm_compute; reflexivity.
Qed.
Print Assumptions C27_binary64_special.

Example C27_binary64_special_example :
  sprintf_F64 (S754_zero true) = "-0.000000"%string /\ sprintf_F64 (S754_zero false) = "0.000000"%string /\
  sprintf_F64 (S754_infinity true) = "-Inf"%string /\ sprintf_F64 S754_nan = "NaN"%string.
Proof. vm_compute. auto. Qed.

(** ... for the halfway cases the even last digit is taken: 0.5 millionths
    give 0, 1.5 give 2 *)
Theorem C27_ties_to_even : forall z, (0 <= z)%Z ->
  exists w, value (N := XR) parse_f (sprintf_XR (XFin ((IZR z + / 2) / 1000000))) = XFin (IZR w / 1000000) /\
    Z.even w = true /\ (w = z \/ w = z + 1)%Z.
Proof.
  intros z Hz. exists (R_round_even (IZR z + / 2)%R).
  assert (Hz' : (0 <= IZR z)%R) by (apply IZR_le; exact Hz).
  assert (E : R_round_even (IZR z + / 2)%R = if Z.even z then z else (z + 1)%Z).
  { unfold R_round_even. replace (Int_part (IZR z + / 2)) with z by (apply Int_part_spec; lra). cbv zeta.
    rewrite !(proj2 (Rltb_false _ _)) by lra. reflexivity. }
  split; [|rewrite E; destruct (Z.even z) eqn:Ez; [split; [exact Ez|left; reflexivity]|split; [|right; reflexivity]]].
  - unfold value. rewrite parse_sprintf_XR. unfold six. rewrite (proj2 (Rltb_false _ _)).
    2:{ apply Rmult_le_pos; [lra|]. left. apply Rinv_0_lt_compat. lra. }
    rewrite Rabs_right by (apply Rle_ge, Rmult_le_pos; [lra|left; apply Rinv_0_lt_compat; lra]).
    do 4 f_equal. field.
  - rewrite Z.even_add, Ez. reflexivity.
Qed.
Print Assumptions C27_ties_to_even.

(** Without names the reader takes the first row for the header: the
    round trip loses it. *)
Theorem C27_without_names_first_row_lost : forall (N : Num) (sprintf : N -> string) (parse : string -> option N) (d : Dataset N),
  (2 <= mrows (dsX d))%nat -> (0 < mcols (dsX d))%nat -> length (dsY d) = mrows (dsX d) -> dsNames d = [] ->
  (0 <= dsTargetCol d <= Z.of_nat (mcols (dsX d)))%Z ->
  exists records e, SaveHandle sprintf d = Ok records /\
    ParseCSV parse (csv_transport records) (dsTargetCol d) = Ok e /\
    S (mrows (dsX e)) = mrows (dsX d) /\
    nth (Z.to_nat (dsTargetCol d)) (dsNames e) EmptyString = sprintf (nth 0 (dsY d) n0).
Proof.
  intros N sprintf parse d Hr Hc HY Hn Ht. set (t := Z.to_nat (dsTargetCol d)).
  assert (Et : dsTargetCol d = Z.of_nat t) by (unfold t; lia).
  pose proof (save_ok N sprintf d t Et ltac:(lia) ltac:(lia)) as Es. rewrite Hn in Es.
  set (row := fun i => map (fun j => sprintf (table N d t i j)) (seq 0 (mcols (dsX d) + 1))) in Es.
  assert (Hrow : forall i, length (row i) = (mcols (dsX d) + 1)%nat) by (intro; unfold row; rewrite map_length, seq_length; reflexivity).
  destruct (mrows (dsX d)) as [|[|n]] eqn:En; [lia|lia|].
  assert (Etr : csv_transport ([] :: map row (seq 0 (S (S n)))) = row 0%nat :: map row (seq 1 (S n))).
  { unfold csv_transport. cbn [filter]. change (map row (seq 0 (S (S n)))) with (map row (seq 0 (S (S n)))).
    assert (G : forall l, filter (fun r : list string => match r with [] => false | _ => true end) (map row l) = map row l).
    { induction l as [|i l IH]; [reflexivity|]. cbn [map filter]. specialize (Hrow i).
      destruct (row i) eqn:E; [cbn in Hrow; lia|]. rewrite IH. reflexivity. }
    rewrite G. reflexivity. }
  destruct (parse_ok N parse (row 0%nat) (map row (seq 1 (S n))) (dsTargetCol d) t) as (e & E & A1 & A2 & A3 & _).
  - discriminate.
  - intros r Hin. apply in_map_iff in Hin. destruct Hin as (i & <- & _). rewrite !Hrow. reflexivity.
  - rewrite Hrow. lia.
  - unfold target_of. destruct (Z.ltb_spec (dsTargetCol d) 0); lia.
  - rewrite Hrow. lia.
  - exists ([] :: map row (seq 0 (S (S n)))), e. split; [exact Es|]. rewrite Etr. split; [exact E|]. split.
    + rewrite A3, map_length, seq_length. reflexivity.
    + rewrite A1. unfold row.
      rewrite nth_indep with (d' := sprintf (table N d t 0 0)) by (rewrite map_length, seq_length; lia).
      rewrite (map_nth (fun j => sprintf (table N d t 0 j))), seq_nth by lia.
      rewrite Nat.add_0_l, table_target. reflexivity.
Qed.
Print Assumptions C27_without_names_first_row_lost.

(** a dataset meeting the hypotheses; 0.1 + 0.2 does not survive, 1.5 does *)
Definition ds27 : Dataset (F64 fenv0) :=
  mkDataset (mkMat 2 2 (fun i j => if (i =? j)%nat then ndec (n := F64 fenv0) 15 (-1)
                                   else nadd (ndec (n := F64 fenv0) 1 (-1)) (ndec 2 (-1))))
    [ndec (n := F64 fenv0) 1 (-7); nofZ 3] ["y"; "a"; "b"]%string 0.

Lemma ds27_consistent : consistent ds27.
Proof. unfold consistent. cbn [ds27 dsX dsY dsNames dsTargetCol mrows mcols length]. repeat split; lia. Qed.

Example C27_nonvacuous : consistent ds27 /\
  match SaveHandle (N := F64 fenv0) sprintf_F64 ds27 with
  | Ok recs =>
      (if list_eq_dec (list_eq_dec string_dec) recs
          [["y"; "a"; "b"]; ["0.000000"; "1.500000"; "0.300000"]; ["3.000000"; "0.300000"; "1.500000"]]%string then true else false) &&
      match ParseCSV (N := F64 fenv0) parse_f (csv_transport recs) 0 with
      | Ok e => go_eq (mval (dsX e) 0 0) (mval (dsX ds27) 0 0) && negb (go_eq (mval (dsX e) 0 1) (mval (dsX ds27) 0 1)) &&
                go_eq (nth 0 (dsY e) nnan) n0
      | _ => false
      end
  | _ => false
  end = true.
Proof. split; [exact ds27_consistent|vm_compute; reflexivity]. Qed.

Example C27_tiny_nonvacuous :
  match ndec (n := F64 fenv0) 1 (-7) with
  | S754_finite s m e => (2 * (Zpos m * 1000000) < 2 ^ (- e))%Z
  | _ => False
  end.
Proof. vm_compute. reflexivity. Qed.

(** ** C28 *)

(** GetSubset: the k-th column and name are those of features[k] *)
Theorem C28_subset : forall (N : Num) (d : Dataset N) features,
  consistent d -> features <> [] ->
  (forall f, In f features -> (0 <= f < Z.of_nat (mcols (dsX d)))%Z) ->
  exists s, GetSubset d features = Ok s /\ consistent s /\ dsY s = dsY d /\
    mrows (dsX s) = mrows (dsX d) /\ mcols (dsX s) = length features /\
    dsTargetCol s = Z.of_nat (length features) /\
    nth_error (dsNames s) (length features) = nth_error (dsNames d) (Z.to_nat (dsTargetCol d)) /\
    forall k f, nth_error features k = Some f ->
      GetFeatName s (Z.of_nat k) = GetFeatName d f /\
      forall i, (i < mrows (dsX d))%nat -> mat_atz (dsX s) (Z.of_nat i) (Z.of_nat k) = mat_atz (dsX d) (Z.of_nat i) f.
Proof.
  intros N d features Hc Hne Hf. pose proof (consistent_shaped N d Hc) as Hs. set (t := Z.to_nat (dsTargetCol d)) in *.
  destruct (subset_ok N d t features Hs Hne Hf) as (s & E & A1 & A2 & A3 & A4 & A5 & A6).
  pose proof Hs as (Hr & Hcol & HY & Hn & Ht & Htl).
  pose proof A1 as (S1 & S2 & S3 & S4 & S5 & S6).
  exists s. split; [exact E|]. split.
  { unfold consistent. rewrite S5, S4. repeat split; lia. }
  split; [exact A4|]. split; [exact A2|]. split; [exact A3|]. split; [exact S5|]. split.
  - rewrite A5. rewrite nth_error_app2 by (rewrite map_length; lia). rewrite map_length, Nat.sub_diag. cbn [nth_error].
    symmetry. apply nth_error_nth'. lia.
  - intros k f Hk. assert (Hkl : (k < length features)%nat) by (apply nth_error_Some; congruence).
    assert (Hfr : (0 <= f < Z.of_nat (mcols (dsX d)))%Z) by (apply Hf; apply nth_error_In with k; exact Hk).
    split.
    + rewrite (feat_name N s (length features) k S5). unfold skip.
      destruct (Nat.ltb_spec k (length features)); [|lia].
      pose proof (feat_name N d t (Z.to_nat f) Ht) as Ef. rewrite Z2Nat.id in Ef by lia. rewrite Ef.
      rewrite (getn_lt _ (dsNames d) _ EmptyString) by (unfold skip; destruct (Nat.ltb_spec (Z.to_nat f) t); lia).
      apply getn_ok. rewrite A5, nth_error_app1 by (rewrite map_length; lia).
      rewrite nth_error_map, Hk. reflexivity.
    + intros i Hi. unfold mat_atz. destruct (Z.ltb_spec (Z.of_nat i) 0); [lia|].
      destruct (Z.ltb_spec (Z.of_nat k) 0); [lia|]. destruct (Z.ltb_spec f 0); [lia|]. cbn [orb].
      rewrite !Nat2Z.id, !mat_at_in by lia. rewrite A6 by lia.
      rewrite (nth_error_nth features k 0%Z Hk). reflexivity.
Qed.
Print Assumptions C28_subset.

Theorem C28_subset_panics : forall (N : Num) (d : Dataset N) features, consistent d ->
  features = [] \/ (exists f, In f features /\ ~ (0 <= f < Z.of_nat (mcols (dsX d)))%Z) ->
  GetSubset d features = Panic.
Proof.
  intros N d features Hc [->|(f & Hf & Hr)]; [apply subset_empty|].
  exact (subset_out N d _ features f (consistent_shaped N d Hc) Hf Hr).
Qed.
Print Assumptions C28_subset_panics.

(** JSON: finite data comes back the same, anything else is refused *)
Theorem C28_json_roundtrip : forall (N : Num) (d : Dataset N),
  (0 < mrows (dsX d))%nat -> (0 < mcols (dsX d))%nat ->
  (forall i j, (i < mrows (dsX d))%nat -> (j < mcols (dsX d))%nat -> finite (mval (dsX d) i j) = true) ->
  (forall y, In y (dsY d) -> finite y = true) ->
  exists j d', dsMarshalJSON d = Ok (Some j) /\ dsUnmarshalJSON j = Ok d' /\
    meq (dsX d') (dsX d) /\ dsY d' = dsY d /\ dsNames d' = dsNames d /\ dsTargetCol d' = dsTargetCol d.
Proof. exact json_roundtrip. Qed.
Print Assumptions C28_json_roundtrip.

Theorem C28_json_refuses_nonfinite : forall (N : Num) (d : Dataset N),
  (exists i j, (i < mrows (dsX d))%nat /\ (j < mcols (dsX d))%nat /\ finite (mval (dsX d) i j) = false) \/
  (exists y, In y (dsY d) /\ finite y = false) ->
  dsMarshalJSON d = Ok None.
Proof. exact json_reject. Qed.
Print Assumptions C28_json_refuses_nonfinite.

(** Copy: the copy denotes the same dataset, and from then on assignments
    through either one are not seen through the other *)
Definition through {N : Num} (d : DatasetRef) (w : write N) : Prop :=
  match w with
  | WF _ a _ _ => a = rfX d \/ a = rfY d
  | WS _ a _ _ => a = rfNames d
  end.

Theorem C28_copy_independent : forall (N : Num) (m : Mem N) d x, dsLoad m d = Ok x ->
  exists m' c, dsCopy m d = Ok (m', c) /\ dsLoad m' c = Ok x /\ dsLoad m' d = Ok x /\
    forall ws, (Forall (through d) ws -> dsLoad (fold_left (do_write N) ws m') c = Ok x) /\
               (Forall (through c) ws -> dsLoad (fold_left (do_write N) ws m') d = Ok x).
Proof.
  intros N m d x H. destruct (copy_ok N m d x H) as (m' & c & E & H1 & H2 & A1 & A2 & A3 & B1 & B2 & B3).
  exists m', c. split; [exact E|]. split; [exact H1|]. split; [exact H2|]. intro ws. rewrite Forall_forall. split.
  - intro Hw. rewrite load_writes; [exact H1|]. intros w Hin. specialize (Hw w Hin).
    destruct w; cbn [through write_off] in *; lia.
  - rewrite Forall_forall. intro Hw. rewrite load_writes; [exact H2|]. intros w Hin. specialize (Hw w Hin).
    destruct w; cbn [through write_off] in *; lia.
Qed.
Print Assumptions C28_copy_independent.

(** ... while assigning to an element of the original's matrix changes that
    entry of the original, and nothing else. *)
Theorem C28_write_seen : forall (N : Num) (m : Mem N) d x i j v, dsLoad m d = Ok x ->
  rfX d <> rfY d -> length (nth (rfX d) (memF m) []) = (rfNr d * rfNc d)%nat -> (i < rfNr d)%nat -> (j < rfNc d)%nat ->
  exists x', dsLoad (do_write N m (WF N (rfX d) (i * rfNc d + j) v)) d = Ok x' /\
    dsY x' = dsY x /\ dsNames x' = dsNames x /\ dsTargetCol x' = dsTargetCol x /\
    mrows (dsX x') = mrows (dsX x) /\ mcols (dsX x') = mcols (dsX x) /\
    forall i' j', (i' < mrows (dsX x))%nat -> (j' < mcols (dsX x))%nat ->
      mval (dsX x') i' j' = if ((i' =? i) && (j' =? j))%nat then v else mval (dsX x) i' j'.
Proof.
  intros N m d x i j v H Hne Hlen Hi Hj. unfold dsLoad, do_write in *. cbn [memF memS].
  destruct (getn (memF m) (rfX d)) as [a| |] eqn:Ea; cbn [bind] in H; try discriminate H.
  destruct (getn (memF m) (rfY d)) as [b| |] eqn:Eb; cbn [bind] in H; try discriminate H.
  destruct (getn (memS m) (rfNames d)) as [s| |] eqn:Es; cbn [bind] in H; try discriminate H.
  injection H as <-. cbn [dsX dsY dsNames dsTargetCol mrows mcols mval].
  unfold getn in Ea, Eb |- *. rewrite !nth_error_upd, Nat.eqb_refl.
  destruct (nth_error (memF m) (rfX d)) as [a0|] eqn:Na; [|discriminate Ea]. injection Ea as ->.
  destruct (Nat.eqb_spec (rfY d) (rfX d)) as [C|_]; [congruence|].
  assert (Hm : (rfX d < length (memF m))%nat) by (apply nth_error_Some; congruence).
  rewrite (proj2 (Nat.ltb_lt _ _) Hm). rewrite Eb. cbn [bind].
  eexists. split; [reflexivity|]. cbn [dsX dsY dsNames dsTargetCol mrows mcols mval].
  repeat (split; [reflexivity|]). intros i' j' Hi' Hj'. rewrite (nth_error_nth _ _ [] Na) in *.
  rewrite nth_upd. destruct (Nat.eqb_spec (i' * rfNc d + j') (i * rfNc d + j)) as [E|E].
  - assert (i' = i) by nia. subst i'. assert (j' = j) by lia. subst j'. rewrite !Nat.eqb_refl. cbn [andb].
    destruct (Nat.ltb_spec (i * rfNc d + j) (length a)); [reflexivity|nia].
  - destruct (Nat.eqb_spec i' i) as [->|]; cbn [andb]; [|reflexivity]. destruct (Nat.eqb_spec j' j) as [->|]; [congruence|reflexivity].
Qed.
Print Assumptions C28_write_seen.
Example C28_write_seen_example :
  let m := mkMem (N := F64 fenv0) [map (nofZ (n := F64 fenv0)) [1; 2; 3; 4; 5; 6]%Z; map (nofZ (n := F64 fenv0)) [7; 8]%Z] [["a"; "b"; "c"; "y"]%string] in
  let d := mkDsRef 0 2 3 1 0 3 in
  match dsLoad (do_write _ m (WF _ (rfX d) (1 * rfNc d + 2) (nofZ 9))) d with
  | Ok x => (mval (dsX x) 1 2, mval (dsX x) 0 2, mval (dsX x) 1 0) = (nofZ 9, nofZ 3, nofZ 4)
  | _ => False
  end.
Proof. vm_compute. reflexivity. Qed.

(** IsEqual never looks at the names themselves ... *)
Theorem C28_isequal_ignores_names : forall (N : Num) (L : OrdLaws N) (d : Dataset N) names,
  length names = length (dsNames d) ->
  (forall i j, (i < mrows (dsX d))%nat -> (j < mcols (dsX d))%nat -> nisnan (mval (dsX d) i j) = false) ->
  (forall y, In y (dsY d) -> nisnan y = false) ->
  IsEqual d (mkDataset (dsX d) (dsY d) names (dsTargetCol d)) = true.
Proof.
  intros N L d names Hn H1 H2. apply (isequal_names N L); cbn [dsX dsY dsNames dsTargetCol]; auto.
  split; [reflexivity|]. split; [reflexivity|]. reflexivity.
Qed.
Print Assumptions C28_isequal_ignores_names.

(** ... but true means equal shapes, target columns and number of names, and
    all numbers equal or within 10^-10, absolutely or relative to the larger *)
Definition close10 (a b : R) : Prop :=
  (Rabs (a - b) <= / 10 ^ 10 \/ Rabs (a - b) <= / 10 ^ 10 * Rmax (Rabs a) (Rabs b))%R.

Lemma leb_fin : forall a b : R, nleb (n := XR) (XFin a) (XFin b) = if Rle_dec a b then true else false.
Proof.
  intros a b. change (nleb (n := XR) (XFin a) (XFin b)) with (negb (Rltb b a)).
  destruct (Rle_dec a b); [rewrite (proj2 (Rltb_false b a)) by lra|rewrite (proj2 (Rltb_true b a)) by lra]; reflexivity.
Qed.

Lemma within_far : forall a b : R,
  (if nleb (n := XR) (nabs (n := XR) (nsub (n := XR) (XFin a) (XFin b))) (XFin (1 / 10000000000)) then true
   else if nleb (n := XR) (nabs (n := XR) (nsub (n := XR) (XFin a) (XFin b))) (@min_normal XR)
        then nleb (n := XR) (nabs (n := XR) (nsub (n := XR) (XFin a) (XFin b))) (nmul (n := XR) (XFin (1 / 10000000000)) (@min_normal XR))
        else nleb (n := XR) (ndiv (n := XR) (nabs (n := XR) (nsub (n := XR) (XFin a) (XFin b))) (nmax2 (N := XR) (nabs (n := XR) (XFin a)) (nabs (n := XR) (XFin b))))
               (XFin (1 / 10000000000))) = true ->
  (Rabs (a - b) <= 1 / 10000000000 \/ Rabs (a - b) <= 1 / 10000000000 * Rmax (Rabs a) (Rabs b))%R.
Proof.
  intros a b H.
  change (nabs (n := XR) (nsub (n := XR) (XFin a) (XFin b))) with (XFin (Rabs (a - b))) in H.
  set (c := (IZR 22250738585072014 / IZR (10 ^ 324))%R) in *.
  assert (Hc : (c <= 1)%R).
  { unfold c. assert (Hp : (0 < IZR (10 ^ 324))%R) by (apply IZR_lt; vm_compute; reflexivity).
    apply (Rmult_le_reg_r _ _ _ Hp). unfold Rdiv. rewrite Rmult_assoc, Rinv_l, Rmult_1_r, Rmult_1_l by lra.
    apply IZR_le. vm_compute. discriminate. }
  change (@min_normal XR) with (XFin c) in H. clearbody c.
  change (nmul (n := XR) (XFin (1 / 10000000000)) (XFin c)) with (XFin (1 / 10000000000 * c)) in H.
  rewrite !leb_fin in H.
  destruct (Rle_dec (Rabs (a - b)) (1 / 10000000000)) as [Hl|Hl]; [left; exact Hl|]. right.
  destruct (Rle_dec (Rabs (a - b)) c).
  { destruct (Rle_dec (Rabs (a - b)) (1 / 10000000000 * c)); [|discriminate H]. exfalso. apply Hl. nra. }
  assert (Em : nmax2 (N := XR) (nabs (n := XR) (XFin a)) (nabs (n := XR) (XFin b)) = XFin (Rmax (Rabs a) (Rabs b))).
  { unfold nmax2.
    change (nleb (n := XR) ninf (nabs (n := XR) (XFin a))) with false.
    change (nleb (n := XR) ninf (nabs (n := XR) (XFin b))) with false.
    cbn [nabs XR xabs nisnan xisnan orb nltb xltb].
    destruct (Rltb (Rabs b) (Rabs a)) eqn:E.
    - apply Rltb_true in E. rewrite Rmax_left by lra. reflexivity.
    - apply Rltb_false in E. rewrite Rmax_right by lra. reflexivity. }
  rewrite Em in H.
  assert (Hm : (0 < Rmax (Rabs a) (Rabs b))%R).
  { pose proof (Rabs_triang a (- b)) as Ht. rewrite Rabs_Ropp in Ht. change (a + - b)%R with (a - b)%R in Ht.
    pose proof (Rmax_l (Rabs a) (Rabs b)). pose proof (Rmax_r (Rabs a) (Rabs b)). lra. }
  rewrite (xdiv_fin (Rabs (a - b))) in H by lra. unfold fin in H. rewrite leb_fin in H.
  destruct (Rle_dec (Rabs (a - b) / Rmax (Rabs a) (Rabs b)) (1 / 10000000000)) as [Hd|Hd]; [|discriminate H].
  apply (Rmult_le_compat_r (Rmax (Rabs a) (Rabs b))) in Hd; [|lra].
  unfold Rdiv at 1 in Hd. rewrite Rmult_assoc, Rinv_l, Rmult_1_r in Hd by lra. exact Hd.
Qed.

Lemma within_close : forall a b : R,
  EqualWithinAbsOrRel (N := XR) (XFin a) (XFin b) (ndec 1 (-10)) = true -> close10 a b.
Proof.
  intros a b H. unfold close10.
  assert (E10 : ndec (n := XR) 1 (-10) = XFin (1 / 10000000000)) by reflexivity. rewrite E10 in H. clear E10.
  assert (Et : (/ 10 ^ 10 = 1 / 10000000000)%R) by lra. rewrite Et.
  unfold EqualWithinAbsOrRel, go_eq in H. rewrite !leb_fin in H.
  destruct (Rle_dec a b) as [G1|G1].
  - destruct (Rle_dec b a) as [G2|G2].
    + left. replace (a - b)%R with 0%R by lra. rewrite Rabs_R0. lra.
    + cbn [andb] in H. revert H. apply within_far.
  - cbn [andb] in H. revert H. apply within_far.
Qed.

Theorem C28_isequal_sound : forall d e : Dataset XR, IsEqual d e = true ->
  mrows (dsX d) = mrows (dsX e) /\ mcols (dsX d) = mcols (dsX e) /\ length (dsY d) = length (dsY e) /\
  length (dsNames d) = length (dsNames e) /\ dsTargetCol d = dsTargetCol e /\
  (forall i a b, (i < length (dsY d))%nat -> nth i (dsY d) n0 = XFin a -> nth i (dsY e) n0 = XFin b -> close10 a b) /\
  (forall i j a b, (i < mrows (dsX d))%nat -> (j < mcols (dsX d))%nat ->
     mval (dsX d) i j = XFin a -> mval (dsX e) i j = XFin b -> close10 a b).
Proof.
  intros d e H. destruct (isequal_sound XR d e H) as (A1 & A2 & A3 & A4 & A5 & A6 & A7).
  split; [exact A1|]. split; [exact A2|]. split; [exact A3|]. split; [exact A4|]. split; [exact A5|]. split.
  - intros i a b Hi Ea Eb. apply within_close. rewrite <- Ea, <- Eb. apply A6. exact Hi.
  - intros i j a b Hi Hj Ea Eb. apply within_close. rewrite <- Ea, <- Eb. apply A7; assumption.
Qed.
Print Assumptions C28_isequal_sound.

(** two different datasets with the same numbers *)
Example C28_nonvacuous : consistent ds27 /\
  (forall f, In f [1; 0; 1]%Z -> (0 <= f < Z.of_nat (mcols (dsX ds27)))%Z) /\
  IsEqual ds27 (mkDataset (dsX ds27) (dsY ds27) ["q"; "b"; "a"]%string 0) = true.
Proof.
  split; [exact ds27_consistent|]. split; [|vm_compute; reflexivity].
  intros f [<-|[<-|[<-|[]]]]; cbn; lia.
Qed.

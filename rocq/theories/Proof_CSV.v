(** Facts about csvIO.go. *)
From Coq Require Import String.
From Verif Require Import Base Num Mat Model_Node Model_CSV Proof_Node Proof_Node2 Proof_Util.
Open Scope list_scope.

(** position in a record of the j-th column of X when the target is at t *)
Definition skip (t j : nat) : nat := if (j <? t)%nat then j else S j.

Section CSVProof.
  Variable N : Num.
  Variable parse : string -> option N.

  (** value of a cell; unparsable text counts as 0 *)
  Definition cell (s : string) : N := match parse s with Some v => v | None => n0 end.

  Lemma row_loop : forall line d,
    for_eachi (length d) line (fun i v row =>
        match parse v with Some fl => setn row i fl | None => Ok row end)
      (d ++ repeat n0 (length line)) = Ok (d ++ map cell line).
  Proof.
    induction line as [|v line IH]; intro d; [reflexivity|].
    cbn [length repeat for_eachi map].
    assert (E : match parse v with Some fl => setn (d ++ n0 :: repeat n0 (length line)) (length d) fl
                | None => Ok (d ++ n0 :: repeat n0 (length line)) end
                = Ok ((d ++ [cell v]) ++ repeat n0 (length line))).
    { unfold cell. rewrite <- app_assoc. cbn [app]. destruct (parse v); [apply setn_at_end|reflexivity]. }
    rewrite E. cbn [bind].
    replace (S (length d)) with (length (d ++ [cell v])) by (rewrite app_length; cbn [length]; lia).
    rewrite IH, <- app_assoc. reflexivity.
  Qed.

  Definition read_body := fun line (st : (list string * list (list N)) * nat) =>
      let '(names, data, lineNo) := st in
      if (lineNo =? 0)%nat then Ok (line, data, S lineNo)
      else if negb (length line =? length names)%nat then Panic
      else
        do row <- for_eachi 0 line (fun i v row =>
          match parse v with Some fl => setn row i fl | None => Ok row end)
          (repeat n0 (length line));
        Ok (names, data ++ [row], S lineNo).

  Lemma read_rows : forall rows names data k,
    for_each rows read_body (names, data, S k) =
    if forallb (fun r => length r =? length names)%nat rows
    then Ok (names, data ++ map (map cell) rows, (S k + length rows)%nat) else Panic.
  Proof.
    induction rows as [|r rows IH]; intros names data k.
    - cbn [for_each forallb map length]. rewrite app_nil_r, Nat.add_0_r. reflexivity.
    - cbn [for_each]. unfold read_body at 1. cbn [Nat.eqb].
      cbn [forallb]. destruct (length r =? length names)%nat; cbn [negb andb]; [|reflexivity].
      pose proof (row_loop r []) as Er. cbn [app length] in Er. rewrite Er. cbn [bind]. rewrite IH.
      destruct (forallb _ rows); [|reflexivity].
      cbn [map length]. rewrite <- app_assoc. cbn [app]. f_equal. f_equal. lia.
  Qed.

  Lemma read_all : forall header rows,
    for_each (header :: rows) read_body ([], [], 0%nat) =
    if forallb (fun r => length r =? length header)%nat rows
    then Ok (header, map (map cell) rows, S (length rows)) else Panic.
  Proof.
    intros header rows. cbn [for_each]. unfold read_body at 1. cbn [Nat.eqb bind].
    rewrite read_rows. reflexivity.
  Qed.

  (** ** distributing the cells *)

  Definition col_body (t : Z) (row : nat) (r : list N) := fun col (st : (Mat N * list N) * nat) =>
        let '(X, Y, xcol) := st in
        do v <- getn r col;
        if (Z.of_nat col =? t)%Z then do Y <- setn Y row v; Ok (X, Y, xcol)
        else do X <- mat_set X row xcol v; Ok (X, Y, S xcol).

  Lemma col_loop : forall t row (r : list N) (X : Mat N) Y,
    (t < length r)%nat -> (row < mrows X)%nat -> (row < length Y)%nat -> S (mcols X) = length r ->
    exists X', for_loop 0 (length r) (col_body (Z.of_nat t) row r) (X, Y, 0%nat)
      = Ok (X', upd Y row (nth t r n0), mcols X) /\
      mrows X' = mrows X /\ mcols X' = mcols X /\
      forall i j, mval X' i j = if (i =? row)%nat && (j <? mcols X)%nat then nth (skip t j) r n0 else mval X i j.
  Proof.
    intros t row r X Y Ht Hrow HY Hc.
    destruct (for_loop_inv _ (fun k (st : (Mat N * list N) * nat) =>
      let '(X', Y', xc) := st in
      xc = (if t <? k then k - 1 else k)%nat /\
      Y' = (if (t <? k)%nat then upd Y row (nth t r n0) else Y) /\
      mrows X' = mrows X /\ mcols X' = mcols X /\
      forall i j, mval X' i j = if (i =? row)%nat && (j <? xc)%nat then nth (skip t j) r n0 else mval X i j)
      (col_body (Z.of_nat t) row r) (length r) 0%nat (X, Y, 0%nat)) as ([[X' Y'] xc] & E & H1 & H2 & H3 & H4 & H5).
    - split; [reflexivity|]. split; [reflexivity|]. split; [reflexivity|]. split; [reflexivity|].
      intros i j. cbn [Nat.ltb Nat.leb]. rewrite andb_false_r. reflexivity.
    - intros k [[X' Y'] xc] Hk (H1 & H2 & H3 & H4 & H5). unfold col_body.
      rewrite (getn_lt _ r k n0) by lia. cbn [bind].
      destruct (Z.eqb_spec (Z.of_nat k) (Z.of_nat t)) as [Ek|Ek].
      + assert (k = t) by lia. subst k. rewrite Nat.ltb_irrefl in H1, H2. subst xc Y'.
        rewrite setn_lt by exact HY. cbn [bind]. eexists. split; [reflexivity|].
        replace (t <? S t)%nat with true by (symmetry; apply Nat.ltb_lt; lia).
        split; [lia|]. split; [reflexivity|]. split; [exact H3|]. split; [exact H4|exact H5].
      + assert (Hlt : (xc < mcols X')%nat) by (rewrite H4, H1; destruct (Nat.ltb_spec t k); lia).
        rewrite mat_set_in by (try exact Hlt; lia). cbn [bind]. eexists. split; [reflexivity|].
        assert (Etk : (t <? S k)%nat = (t <? k)%nat).
        { destruct (Nat.ltb_spec t (S k)); destruct (Nat.ltb_spec t k); try reflexivity; lia. }
        rewrite Etk. split; [rewrite H1; destruct (Nat.ltb_spec t k); lia|]. split; [exact H2|].
        split; [exact H3|]. split; [exact H4|].
        intros i j. rewrite mat_upd_val, H5.
        destruct (Nat.eqb_spec i row) as [Ei|Ei]; cbn [andb]; [|reflexivity].
        destruct (Nat.eqb_spec j xc) as [Ej|Ej].
        * subst j. replace (xc <? S xc)%nat with true by (symmetry; apply Nat.ltb_lt; lia).
          f_equal. unfold skip. rewrite H1. destruct (Nat.ltb_spec t k).
          -- destruct (Nat.ltb_spec (k - 1) t); lia.
          -- destruct (Nat.ltb_spec k t); lia.
        * destruct (Nat.ltb_spec j (S xc)); destruct (Nat.ltb_spec j xc); try reflexivity; lia.
    - rewrite Nat.add_0_l in *.
      assert (Ett : (t <? length r)%nat = true) by (apply Nat.ltb_lt; exact Ht). rewrite Ett in *.
      assert (Exc : xc = mcols X) by lia.
      exists X'. rewrite E, H2, Exc. split; [reflexivity|]. split; [exact H3|]. split; [exact H4|].
      rewrite <- Exc. exact H5.
  Qed.

  (** target outside the columns: one column too many for X *)
  Lemma col_loop_panic : forall t row (r : list N) (X : Mat N) Y,
    ~ (0 <= t < Z.of_nat (length r))%Z -> (row < mrows X)%nat -> S (mcols X) = length r ->
    for_loop 0 (length r) (col_body t row r) (X, Y, 0%nat) = Panic.
  Proof.
    intros t row r X Y Ht Hrow Hc.
    replace (length r) with (mcols X + 1)%nat at 1 by lia. rewrite for_loop_add.
    destruct (for_loop_inv _ (fun k (st : (Mat N * list N) * nat) =>
      let '(X', Y', xc) := st in xc = k /\ mrows X' = mrows X /\ mcols X' = mcols X)
      (col_body t row r) (mcols X) 0%nat (X, Y, 0%nat)) as ([[X' Y'] xc] & E & H1 & H2 & H3).
    - auto.
    - intros k [[X' Y'] xc] Hk (H1 & H2 & H3). unfold col_body.
      rewrite (getn_lt _ r k n0) by lia. cbn [bind].
      destruct (Z.eqb_spec (Z.of_nat k) t); [lia|]. subst xc.
      rewrite mat_set_in by lia. cbn [bind]. eexists. split; [reflexivity|]. cbn [mrows mcols mat_upd]. auto.
    - rewrite E. cbn [bind for_loop]. unfold col_body.
      rewrite (getn_lt _ r (0 + mcols X) n0) by lia. cbn [bind].
      destruct (Z.eqb_spec (Z.of_nat (0 + mcols X)) t); [lia|].
      rewrite mat_set_out by (intros [_ C]; lia). reflexivity.
  Qed.

  Definition row_body (t : Z) (data : list (list N)) := fun row (st : Mat N * list N) =>
      do r <- getn data row;
      do st' <- for_loop 0 (length r) (col_body t row r) (fst st, snd st, 0%nat);
      Ok (fst (fst st'), snd (fst st')).

  Lemma row_loop_ok : forall t (data : list (list N)) n (X : Mat N),
    (t < S n)%nat -> (forall r, In r data -> length r = S n) ->
    mrows X = length data -> mcols X = n ->
    exists X' Y', for_loop 0 (length data) (row_body (Z.of_nat t) data) (X, repeat n0 (length data)) = Ok (X', Y') /\
      mrows X' = length data /\ mcols X' = n /\ length Y' = length data /\
      forall i, (i < length data)%nat ->
        nth i Y' n0 = nth t (nth i data []) n0 /\
        forall j, (j < n)%nat -> mval X' i j = nth (skip t j) (nth i data []) n0.
  Proof.
    intros t data n X Ht Hd Hr Hc.
    destruct (for_loop_inv _ (fun k (st : Mat N * list N) =>
      mrows (fst st) = length data /\ mcols (fst st) = n /\ length (snd st) = length data /\
      forall i, (i < k)%nat ->
        nth i (snd st) n0 = nth t (nth i data []) n0 /\
        forall j, (j < n)%nat -> mval (fst st) i j = nth (skip t j) (nth i data []) n0)
      (row_body (Z.of_nat t) data) (length data) 0%nat (X, repeat n0 (length data)))
      as ([X' Y'] & E & H1 & H2 & H3 & H4).
    - cbn [fst snd]. split; [exact Hr|]. split; [exact Hc|]. split; [apply repeat_length|]. intros; lia.
    - intros k [X' Y'] Hk (H1 & H2 & H3 & H4). cbn [fst snd] in *. unfold row_body.
      rewrite (getn_lt _ data k []) by lia. cbn [bind fst snd].
      assert (Hl : length (nth k data []) = S n) by (apply Hd; apply nth_In; lia).
      destruct (col_loop t k (nth k data []) X' Y') as (X2 & E2 & A & B & C); try lia.
      rewrite E2. cbn [bind fst snd]. eexists. split; [reflexivity|]. cbn [fst snd].
      split; [congruence|]. split; [congruence|]. split; [rewrite upd_length; exact H3|].
      intros i Hi. rewrite nth_upd.
      destruct (Nat.eqb_spec i k) as [->|Hne].
      + replace (k <? length Y')%nat with true by (symmetry; apply Nat.ltb_lt; lia).
        split; [reflexivity|]. intros j Hj. rewrite C, Nat.eqb_refl. cbn [andb].
        replace (j <? mcols X')%nat with true by (symmetry; apply Nat.ltb_lt; lia). reflexivity.
      + destruct (H4 i) as [D1 D2]; [lia|]. split; [exact D1|]. intros j Hj. rewrite C.
        apply Nat.eqb_neq in Hne. rewrite Hne. cbn [andb]. apply D2; exact Hj.
    - cbn [fst snd] in *. exists X', Y'. rewrite Nat.add_0_l in *. auto 6.
  Qed.

  Lemma parse_eq : forall header rows targetCol,
    ParseCSV parse (header :: rows) targetCol =
    if forallb (fun r => length r =? length header)%nat rows then
      let t := if (targetCol <? 0)%Z then (targetCol + Z.of_nat (length header))%Z else targetCol in
      let data := map (map cell) rows in
      do d0 <- getn data 0;
      do X <- new_densez (Z.of_nat (length data)) (Z.of_nat (length d0) - 1);
      do st <- for_loop 0 (length data) (row_body t data) (X, repeat n0 (length data));
      Ok (mkDataset (fst st) (snd st) header t)
    else Panic.
  Proof.
    intros. unfold ParseCSV.
    change (for_each (header :: rows) _ ([], [], 0%nat)) with (for_each (header :: rows) read_body ([], [], 0%nat)).
    rewrite read_all.
    destruct (forallb _ rows); [|reflexivity]. cbn [bind]. reflexivity.
  Qed.

  (** effective target column *)
  Definition target_of (targetCol : Z) (n : nat) : Z :=
    if (targetCol <? 0)%Z then (targetCol + Z.of_nat n)%Z else targetCol.

  Lemma parse_ok : forall header rows targetCol t,
    rows <> [] -> (forall r, In r rows -> length r = length header) -> (2 <= length header)%nat ->
    target_of targetCol (length header) = Z.of_nat t -> (t < length header)%nat ->
    exists d, ParseCSV parse (header :: rows) targetCol = Ok d /\
      dsNames d = header /\ dsTargetCol d = Z.of_nat t /\
      mrows (dsX d) = length rows /\ mcols (dsX d) = (length header - 1)%nat /\ length (dsY d) = length rows /\
      forall i, (i < length rows)%nat ->
        nth i (dsY d) n0 = cell (nth t (nth i rows []) EmptyString) /\
        forall j, (j < length header - 1)%nat ->
          mval (dsX d) i j = cell (nth (skip t j) (nth i rows []) EmptyString).
  Proof.
    intros header rows targetCol t Hne Hlen H2 Ht Htl. rewrite parse_eq.
    assert (Ef : forallb (fun r => length r =? length header)%nat rows = true).
    { apply forallb_forall. intros r Hr. apply Nat.eqb_eq. apply Hlen; exact Hr. }
    rewrite Ef. cbv zeta. unfold target_of in Ht. rewrite Ht.
    destruct rows as [|r0 rs]; [congruence|]. cbn [map]. unfold getn at 1. cbn [nth_error bind].
    assert (Hl0 : length (map cell r0) = length header) by (rewrite map_length; apply Hlen; left; reflexivity).
    rewrite Hl0. set (rows := r0 :: rs) in *. change (map cell r0 :: map (map cell) rs) with (map (map cell) rows).
    rewrite map_length. unfold new_densez.
    assert (Hlr : (0 < length rows)%nat) by (unfold rows; cbn; lia).
    replace ((Z.of_nat (length rows) <=? 0)%Z || (Z.of_nat (length header) - 1 <=? 0)%Z)%bool with false.
    2:{ symmetry. apply orb_false_intro; apply Z.leb_gt; lia. }
    cbn [bind].
    destruct (row_loop_ok t (map (map cell) rows) (length header - 1)
       (mkMat (Z.to_nat (Z.of_nat (length rows))) (Z.to_nat (Z.of_nat (length header) - 1)) (fun _ _ => n0)))
      as (X' & Y' & E & A & B & C & D).
    - lia.
    - intros r Hr. apply in_map_iff in Hr. destruct Hr as (r' & <- & Hr'). rewrite map_length, (Hlen r' Hr'). lia.
    - cbn [mrows]. rewrite map_length. lia.
    - cbn [mcols]. lia.
    - rewrite map_length in E. rewrite E. cbn [bind fst snd]. eexists. split; [reflexivity|].
      cbn [dsNames dsTargetCol dsX dsY]. rewrite map_length in *.
      split; [reflexivity|]. split; [reflexivity|]. split; [exact A|]. split; [exact B|]. split; [exact C|].
      intros i Hi. destruct (D i Hi) as [D1 D2].
      assert (En : nth i (map (map cell) rows) [] = map cell (nth i rows []))
        by (change (@nil N) with (map cell []); apply map_nth).
      rewrite En in D1, D2.
      assert (Hli : length (nth i rows []) = length header) by (apply Hlen; apply nth_In; exact Hi).
      split.
      + rewrite D1. rewrite nth_indep with (d' := cell EmptyString) by (rewrite map_length; lia). apply map_nth.
      + intros j Hj. rewrite (D2 j Hj).
        assert (skip t j < length header)%nat by (unfold skip; destruct (Nat.ltb_spec j t); lia).
        rewrite nth_indep with (d' := cell EmptyString) by (rewrite map_length; lia). apply map_nth.
  Qed.

  Lemma parse_panic : forall records targetCol,
    (match records with
     | [] => True
     | header :: rows => rows = [] \/ (exists r, In r rows /\ length r <> length header) \/
         (length header < 2)%nat \/
         ~ (0 <= target_of targetCol (length header) < Z.of_nat (length header))%Z
     end) -> ParseCSV parse records targetCol = Panic.
  Proof.
    intros [|header rows] targetCol H; [reflexivity|]. rewrite parse_eq.
    destruct (forallb (fun r => length r =? length header)%nat rows) eqn:Ef; [|reflexivity].
    rewrite forallb_forall in Ef. cbv zeta.
    destruct rows as [|r0 rs]; [reflexivity|]. cbn [map]. unfold getn at 1. cbn [nth_error bind].
    assert (Hl0 : length r0 = length header) by (apply Nat.eqb_eq, Ef; left; reflexivity).
    rewrite map_length, Hl0.
    destruct H as [H|[(r & Hr & H)|H]]; [discriminate|apply Ef in Hr; apply Nat.eqb_eq in Hr; contradiction|].
    unfold new_densez. cbn [length]. rewrite map_length.
    destruct (_ || _)%bool eqn:Eo; [reflexivity|]. cbn [bind].
    apply orb_false_elim in Eo. destruct Eo as [_ Eo]. apply Z.leb_gt in Eo.
    destruct H as [H|H]; [lia|].
    cbn [for_loop]. unfold row_body at 1. unfold getn at 1. cbn [nth_error bind fst snd].
    unfold target_of in H.
    rewrite col_loop_panic; [reflexivity| |cbn [mrows]; lia|cbn [mcols]; rewrite map_length; lia].
    rewrite map_length, Hl0. exact H.
  Qed.

  (** ** names *)

  Lemma feat_no_gen : forall (d : Dataset N) name l i k,
    nth_error l k = Some name -> (forall k', (k' < k)%nat -> nth_error l k' <> Some name) ->
    (fix go (i : Z) (l : list string) : res Z :=
       match l with
       | [] => Panic
       | n :: t => if String.eqb n name
                   then Ok (if (dsTargetCol d <? i)%Z then (i - 1)%Z else i)
                   else go (i + 1)%Z t
       end) i l = Ok (if (dsTargetCol d <? i + Z.of_nat k)%Z then (i + Z.of_nat k - 1)%Z else (i + Z.of_nat k)%Z).
  Proof.
    intros d name. induction l as [|n l IH]; intros i k Hk Hf; [destruct k; discriminate|].
    destruct k as [|k].
    - cbn [nth_error] in Hk. injection Hk as ->. rewrite String.eqb_refl, Z.add_0_r. reflexivity.
    - destruct (String.eqb_spec n name) as [->|Hn].
      + exfalso. apply (Hf 0%nat); [lia|reflexivity].
      + rewrite (IH (i + 1)%Z k).
        * replace (i + 1 + Z.of_nat k)%Z with (i + Z.of_nat (S k))%Z by lia. reflexivity.
        * exact Hk.
        * intros k' Hk'. apply (Hf (S k')). lia.
  Qed.

  Lemma feat_no : forall (d : Dataset N) k name, NoDup (dsNames d) ->
    nth_error (dsNames d) k = Some name ->
    FeatNoByName d name = Ok (if (dsTargetCol d <? Z.of_nat k)%Z then (Z.of_nat k - 1)%Z else Z.of_nat k).
  Proof.
    intros d k name Hd Hk. unfold FeatNoByName. rewrite (feat_no_gen d name _ 0%Z k Hk).
    - rewrite Z.add_0_l. reflexivity.
    - intros k' Hlt C. assert (k' = k); [|lia].
      apply (proj1 (NoDup_nth_error (dsNames d)) Hd); [|congruence].
      apply nth_error_Some. congruence.
  Qed.

  Lemma feat_no_missing : forall (d : Dataset N) name, ~ In name (dsNames d) -> FeatNoByName d name = Panic.
  Proof.
    intros d name. unfold FeatNoByName. generalize 0%Z. induction (dsNames d) as [|n l IH]; intros i H; [reflexivity|].
    destruct (String.eqb_spec n name) as [->|_]; [exfalso; apply H; left; reflexivity|].
    apply IH. intro C; apply H; right; exact C.
  Qed.

  Lemma feat_name : forall (d : Dataset N) t i, dsTargetCol d = Z.of_nat t ->
    GetFeatName d (Z.of_nat i) = getn (dsNames d) (skip t i).
  Proof.
    intros d t i Ht. unfold GetFeatName, skip. rewrite Ht.
    destruct (Z.ltb_spec (Z.of_nat i) (Z.of_nat t)); destruct (Nat.ltb_spec i t); try lia.
    - apply getz_nat.
    - replace (Z.of_nat i + 1)%Z with (Z.of_nat (S i)) by lia. apply getz_nat.
  Qed.

  Lemma feat_name_no : forall (d : Dataset N) t i, NoDup (dsNames d) -> dsTargetCol d = Z.of_nat t ->
    (i < length (dsNames d) - 1)%nat -> (t < length (dsNames d))%nat ->
    exists name, GetFeatName d (Z.of_nat i) = Ok name /\ nth_error (dsNames d) (skip t i) = Some name /\
      FeatNoByName d name = Ok (Z.of_nat i).
  Proof.
    intros d t i Hd Ht Hi Htl. rewrite (feat_name d t i Ht).
    assert (Hs : (skip t i < length (dsNames d))%nat) by (unfold skip; destruct (Nat.ltb_spec i t); lia).
    destruct (nth_error (dsNames d) (skip t i)) as [name|] eqn:E; [|apply nth_error_None in E; lia].
    exists name. split; [apply getn_ok; exact E|]. split; [reflexivity|].
    rewrite (feat_no d _ name Hd E), Ht. f_equal. unfold skip in *.
    destruct (Nat.ltb_spec i t) as [H|H].
    - destruct (Z.ltb_spec (Z.of_nat t) (Z.of_nat i)); lia.
    - destruct (Z.ltb_spec (Z.of_nat t) (Z.of_nat (S i))); lia.
  Qed.
End CSVProof.

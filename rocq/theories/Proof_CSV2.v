(** Facts about saving, subsets, JSON and copies of datasets (csvIO.go). *)
From Coq Require Import String Ascii.
From Verif Require Import Base Num Mat Model_Node Model_CSV Proof_Node Proof_Node2 Proof_Util Proof_CSV.
Open Scope list_scope.

Section CSVProof2.
  Variable N : Num.

  (** the table a dataset stands for: row i, column j, target at t *)
  Definition table (d : Dataset N) (t i j : nat) : N :=
    if (j =? t)%nat then nth i (dsY d) n0
    else mval (dsX d) i (if (j <? t)%nat then j else (j - 1)%nat).

  Lemma table_target : forall d t i, table d t i t = nth i (dsY d) n0.
  Proof. intros. unfold table. rewrite Nat.eqb_refl. reflexivity. Qed.

  Lemma table_skip : forall d t i j, table d t i (skip t j) = mval (dsX d) i j.
  Proof.
    intros. unfold table, skip. destruct (Nat.ltb_spec j t).
    - destruct (Nat.eqb_spec j t); [lia|]. destruct (Nat.ltb_spec j t); [reflexivity|lia].
    - destruct (Nat.eqb_spec (S j) t); [lia|]. destruct (Nat.ltb_spec (S j) t); [lia|].
      f_equal. lia.
  Qed.

  Lemma save_row : forall (sprintf : N -> string) d t i values,
    dsTargetCol d = Z.of_nat t -> (t <= mcols (dsX d))%nat -> (i < mrows (dsX d))%nat ->
    (i < length (dsY d))%nat -> length values = (mcols (dsX d) + 1)%nat ->
    exists vs, for_loop 0 (mcols (dsX d) + 1) (fun j (vs : list string * Z) =>
        let '(values, shift) := vs in
        if (Z.of_nat j =? dsTargetCol d)%Z then
          do y <- getn (dsY d) i; do values <- setn values j (sprintf y); Ok (values, 1%Z)
        else
          do x <- mat_atz (dsX d) (Z.of_nat i) (Z.of_nat j - shift);
          do values <- setn values j (sprintf x); Ok (values, shift)) (values, 0%Z) = Ok vs /\
      fst vs = map (fun j => sprintf (table d t i j)) (seq 0 (mcols (dsX d) + 1)).
  Proof.
    intros sprintf d t i values Ht Htl Hi HY Hl.
    destruct (for_loop_inv _ (fun k (vs : list string * Z) =>
       length (fst vs) = (mcols (dsX d) + 1)%nat /\
       snd vs = (if (t <? k)%nat then 1 else 0)%Z /\
       forall j, (j < k)%nat -> nth j (fst vs) EmptyString = sprintf (table d t i j))
      (fun j (vs : list string * Z) =>
        let '(values, shift) := vs in
        if (Z.of_nat j =? dsTargetCol d)%Z then
          do y <- getn (dsY d) i; do values <- setn values j (sprintf y); Ok (values, 1%Z)
        else
          do x <- mat_atz (dsX d) (Z.of_nat i) (Z.of_nat j - shift);
          do values <- setn values j (sprintf x); Ok (values, shift))
      (mcols (dsX d) + 1)%nat 0%nat (values, 0%Z)) as (vs & E & H1 & H2 & H3).
    - cbn [fst snd]. split; [exact Hl|]. split; [reflexivity|]. intros; lia.
    - intros k [vs sh] Hk (H1 & H2 & H3). cbn [fst snd] in *.
      assert (Hstep : forall (w : string) z, (t <? S k)%nat = (z =? 1)%Z -> (z = 0 \/ z = 1)%Z -> w = sprintf (table d t i k) ->
        exists s', (do values <- setn vs k w; Ok (values, z)) = Ok s' /\
        length (fst s') = (mcols (dsX d) + 1)%nat /\
        snd s' = (if (t <? S k)%nat then 1 else 0)%Z /\
        (forall j, (j < S k)%nat -> nth j (fst s') EmptyString = sprintf (table d t i j))).
      { intros w z Hz Hz01 ->. rewrite setn_lt by lia. cbn [bind]. eexists. split; [reflexivity|]. cbn [fst snd].
        split; [rewrite upd_length; exact H1|]. split.
        - rewrite Hz. destruct Hz01; subst z; reflexivity.
        - intros j Hj. rewrite nth_upd. destruct (Nat.eqb_spec j k) as [->|Hne].
          + replace (k <? length vs)%nat with true by (symmetry; apply Nat.ltb_lt; lia). reflexivity.
          + apply H3. lia. }
      rewrite Ht. destruct (Z.eqb_spec (Z.of_nat k) (Z.of_nat t)) as [Ek|Ek].
      + assert (k = t) by lia. subst k. rewrite (getn_lt _ (dsY d) i n0 HY). cbn [bind].
        apply Hstep; [apply Nat.ltb_lt; lia|right; reflexivity|rewrite table_target; reflexivity].
      + assert (Ea : mat_atz (dsX d) (Z.of_nat i) (Z.of_nat k - sh) = Ok (table d t i k)).
        { unfold table. destruct (Nat.eqb_spec k t); [lia|]. rewrite H2.
          destruct (Nat.ltb_spec t k).
          - destruct (Nat.ltb_spec k t); [lia|]. replace (Z.of_nat k - 1)%Z with (Z.of_nat (k - 1)) by lia.
            unfold mat_atz. destruct (Z.ltb_spec (Z.of_nat i) 0); [lia|].
            destruct (Z.ltb_spec (Z.of_nat (k - 1)) 0); [lia|]. cbn [orb].
            rewrite !Nat2Z.id. apply mat_at_in; lia.
          - destruct (Nat.ltb_spec k t); [|lia]. rewrite Z.sub_0_r.
            unfold mat_atz. destruct (Z.ltb_spec (Z.of_nat i) 0); [lia|].
            destruct (Z.ltb_spec (Z.of_nat k) 0); [lia|]. cbn [orb].
            rewrite !Nat2Z.id. apply mat_at_in; lia. }
        rewrite Ea. cbn [bind]. apply Hstep; [|rewrite H2; destruct (t <? k)%nat; auto|reflexivity].
        rewrite H2. destruct (Nat.ltb_spec t k); destruct (Nat.ltb_spec t (S k)); try lia; reflexivity.
    - exists vs. split; [exact E|]. rewrite Nat.add_0_l in H3.
      apply nth_ext with (d := EmptyString) (d' := EmptyString).
      + rewrite map_length, seq_length. exact H1.
      + intros j Hj. rewrite H1 in Hj. rewrite (H3 j Hj).
        rewrite nth_indep with (d' := sprintf (table d t i 0)) by (rewrite map_length, seq_length; exact Hj).
        rewrite (map_nth (fun j => sprintf (table d t i j))), seq_nth by exact Hj. reflexivity.
  Qed.

  Lemma save_ok : forall (sprintf : N -> string) d t,
    dsTargetCol d = Z.of_nat t -> (t <= mcols (dsX d))%nat -> (mrows (dsX d) <= length (dsY d))%nat ->
    SaveHandle sprintf d = Ok (dsNames d ::
      map (fun i => map (fun j => sprintf (table d t i j)) (seq 0 (mcols (dsX d) + 1))) (seq 0 (mrows (dsX d)))).
  Proof.
    intros sprintf d t Ht Htl HY. unfold SaveHandle.
    match goal with |- (do st <- for_loop 0 ?n ?b ?s; _) = _ =>
      destruct (for_loop_inv _ (fun k (st : list (list string) * list string) =>
        length (snd st) = (mcols (dsX d) + 1)%nat /\
        fst st = dsNames d :: map (fun i => map (fun j => sprintf (table d t i j)) (seq 0 (mcols (dsX d) + 1))) (seq 0 k))
        b n 0%nat s) as (st & E & H1 & H2) end.
    - cbn [fst snd]. split; [apply repeat_length|reflexivity].
    - intros k [out values] Hk (H1 & H2). cbn [fst snd] in *.
      destruct (save_row sprintf d t k values Ht Htl) as (vs & E & Ev); try lia.
      rewrite E. cbn [bind]. eexists. split; [reflexivity|]. cbn [fst snd]. split.
      + rewrite Ev, map_length, seq_length. reflexivity.
      + rewrite seq_S, map_app, Nat.add_0_l, H2, Ev. cbn [map app]. reflexivity.
    - rewrite E. cbn [bind]. rewrite H2. rewrite Nat.add_0_l. reflexivity.
  Qed.

  (** shape of a dataset whose names match its columns *)
  Definition shaped (d : Dataset N) (t : nat) : Prop :=
    (0 < mrows (dsX d))%nat /\ (0 < mcols (dsX d))%nat /\ length (dsY d) = mrows (dsX d) /\
    length (dsNames d) = S (mcols (dsX d)) /\ dsTargetCol d = Z.of_nat t /\ (t <= mcols (dsX d))%nat.

  Lemma save_parse : forall (sprintf : N -> string) parse d t tc recs,
    shaped d t -> (tc = Z.of_nat t \/ tc = (Z.of_nat t - Z.of_nat (length (dsNames d)))%Z) ->
    SaveHandle sprintf d = Ok recs ->
    exists d', ParseCSV parse (csv_transport recs) tc = Ok d' /\
      dsNames d' = dsNames d /\ dsTargetCol d' = dsTargetCol d /\
      mrows (dsX d') = mrows (dsX d) /\ mcols (dsX d') = mcols (dsX d) /\ length (dsY d') = length (dsY d) /\
      forall i, (i < mrows (dsX d))%nat ->
        nth i (dsY d') n0 = cell N parse (sprintf (nth i (dsY d) n0)) /\
        forall j, (j < mcols (dsX d))%nat -> mval (dsX d') i j = cell N parse (sprintf (mval (dsX d) i j)).
  Proof.
    intros sprintf parse d t tc recs (Hr & Hc & HY & Hn & Ht & Htl) Htc E.
    rewrite (save_ok sprintf d t Ht Htl) in E by lia.
    injection E as <-. set (rows := map (fun i => map (fun j => sprintf (table d t i j)) (seq 0 (mcols (dsX d) + 1))) (seq 0 (mrows (dsX d)))).
    assert (Hrow : forall r, In r rows -> length r = length (dsNames d)).
    { intros r Hin. apply in_map_iff in Hin. destruct Hin as (i & <- & _). rewrite map_length, seq_length. lia. }
    assert (Etr : csv_transport (dsNames d :: rows) = dsNames d :: rows).
    { unfold csv_transport. assert (Hall : forall r, In r (dsNames d :: rows) -> length r = S (mcols (dsX d))).
      { intros r [<-|Hin]; [exact Hn|rewrite (Hrow r Hin); exact Hn]. }
      revert Hall. generalize (dsNames d :: rows). induction l as [|r l IH]; intro Hall; [reflexivity|].
      cbn [filter]. assert (Hl : length r = S (mcols (dsX d))) by (apply Hall; left; reflexivity).
      destruct r as [|x r]; [discriminate|]. f_equal. apply IH. intros r' Hr'. apply Hall. right. exact Hr'. }
    rewrite Etr.
    assert (Hlr : length rows = mrows (dsX d)) by (unfold rows; rewrite map_length, seq_length; reflexivity).
    destruct (parse_ok N parse (dsNames d) rows tc t) as (d' & E' & A1 & A2 & A3 & A4 & A5 & A6).
    - intro C. rewrite C in Hlr. cbn in Hlr. lia.
    - exact Hrow.
    - lia.
    - unfold target_of. destruct (Z.ltb_spec tc 0); destruct Htc; lia.
    - lia.
    - exists d'. split; [exact E'|]. split; [exact A1|]. split; [congruence|]. split; [congruence|].
      split; [lia|]. split; [lia|]. intros i Hi. destruct (A6 i) as [B1 B2]; [lia|].
      assert (Ecell : forall j, (j < mcols (dsX d) + 1)%nat -> nth j (nth i rows []) EmptyString = sprintf (table d t i j)).
      { intros j Hj. unfold rows.
        rewrite nth_indep with (d' := map (fun j => sprintf (table d t 0 j)) (seq 0 (mcols (dsX d) + 1)))
          by (rewrite map_length, seq_length; exact Hi).
        rewrite (map_nth (fun i => map (fun j => sprintf (table d t i j)) (seq 0 (mcols (dsX d) + 1)))).
        rewrite seq_nth by exact Hi. rewrite Nat.add_0_l.
        rewrite nth_indep with (d' := sprintf (table d t i 0)) by (rewrite map_length, seq_length; exact Hj).
        rewrite (map_nth (fun j => sprintf (table d t i j))), seq_nth by exact Hj. reflexivity. }
      split.
      + rewrite B1, Ecell by lia. rewrite table_target. reflexivity.
      + intros j Hj. rewrite B2 by lia. rewrite Ecell by (unfold skip; destruct (Nat.ltb_spec j t); lia).
        rewrite table_skip. reflexivity.
  Qed.

  (** ** GetSubset *)

  Lemma subset_names : forall d t features, shaped d t ->
    (forall f, In f features -> (0 <= f < Z.of_nat (mcols (dsX d)))%Z) ->
    forall dn, for_eachi (length dn) features (fun i v names =>
      do nm <- GetFeatName d v; setn names i nm) (dn ++ repeat EmptyString (length features + 1))
    = Ok (dn ++ map (fun f => nth (skip t (Z.to_nat f)) (dsNames d) EmptyString) features ++ [EmptyString]).
  Proof.
    intros d t features (Hr & Hc & HY & Hn & Ht & Htl). induction features as [|f fs IH]; intros Hf dn.
    - reflexivity.
    - cbn [for_eachi length map].
      assert (Hfr : (0 <= f < Z.of_nat (mcols (dsX d)))%Z) by (apply Hf; left; reflexivity).
      pose proof (feat_name N d t (Z.to_nat f) Ht) as Ef. rewrite Z2Nat.id in Ef by lia. rewrite Ef.
      rewrite (getn_lt _ _ _ EmptyString) by (unfold skip; destruct (Nat.ltb_spec (Z.to_nat f) t); lia).
      cbn [bind repeat Nat.add]. rewrite setn_at_end. cbn [bind].
      set (nm := nth (skip t (Z.to_nat f)) (dsNames d) EmptyString).
      replace (S (length dn)) with (length (dn ++ [nm])) by (rewrite app_length; cbn [length]; lia).
      replace (dn ++ nm :: repeat EmptyString (length fs + 1)) with ((dn ++ [nm]) ++ repeat EmptyString (length fs + 1))
        by (rewrite <- app_assoc; reflexivity).
      rewrite IH by (intros g Hg; apply Hf; right; exact Hg).
      rewrite <- app_assoc. reflexivity.
  Qed.

  Lemma subset_row : forall d r (X : Mat N) features,
    (r < mrows (dsX d))%nat -> (r < mrows X)%nat ->
    (forall f, In f features -> (0 <= f < Z.of_nat (mcols (dsX d)))%Z) ->
    forall k, (k + length features <= mcols X)%nat ->
    exists X', for_eachi k features (fun col v X =>
        do x <- mat_atz (dsX d) (Z.of_nat r) v; mat_set X r col x) X = Ok X' /\
      mrows X' = mrows X /\ mcols X' = mcols X /\
      (forall i j, i <> r \/ (j < k)%nat -> mval X' i j = mval X i j) /\
      (forall j, (j < length features)%nat -> mval X' r (k + j)%nat = mval (dsX d) r (Z.to_nat (nth j features 0%Z))).
  Proof.
    intros d r X features Hr. revert X. induction features as [|f fs IH]; intros X HX Hf k Hk.
    - exists X. cbn [for_eachi length]. split; [reflexivity|]. split; [reflexivity|]. split; [reflexivity|].
      split; [reflexivity|]. intros; lia.
    - cbn [for_eachi]. cbn [length] in Hk.
      assert (Hfr : (0 <= f < Z.of_nat (mcols (dsX d)))%Z) by (apply Hf; left; reflexivity).
      assert (Ea : mat_atz (dsX d) (Z.of_nat r) f = Ok (mval (dsX d) r (Z.to_nat f))).
      { unfold mat_atz. destruct (Z.ltb_spec (Z.of_nat r) 0); [lia|]. destruct (Z.ltb_spec f 0); [lia|]. cbn [orb].
        rewrite Nat2Z.id. apply mat_at_in; lia. }
      rewrite Ea. cbn [bind]. rewrite mat_set_in by lia. cbn [bind].
      destruct (IH (mat_upd X r k (mval (dsX d) r (Z.to_nat f)))) with (k := S k) as (X' & E & A & B & C & D).
      + exact HX.
      + intros g Hg. apply Hf. right. exact Hg.
      + cbn [mat_upd mcols]. lia.
      + exists X'. split; [exact E|]. split; [exact A|]. split; [exact B|]. split.
        * intros i j Hij. rewrite C by (destruct Hij; [left; assumption|right; lia]).
          rewrite mat_upd_val. destruct (Nat.eqb_spec i r); destruct (Nat.eqb_spec j k); cbn [andb]; try reflexivity.
          destruct Hij; [contradiction|lia].
        * intros j Hj. cbn [length] in Hj. destruct j as [|j].
          -- rewrite Nat.add_0_r, C by (right; lia). rewrite mat_upd_val, !Nat.eqb_refl. reflexivity.
          -- cbn [nth]. replace (k + S j)%nat with (S k + j)%nat by lia. apply D. lia.
  Qed.

  Lemma subset_ok : forall d t features, shaped d t -> features <> [] ->
    (forall f, In f features -> (0 <= f < Z.of_nat (mcols (dsX d)))%Z) ->
    exists s, GetSubset d features = Ok s /\ shaped s (length features) /\
      mrows (dsX s) = mrows (dsX d) /\ mcols (dsX s) = length features /\ dsY s = dsY d /\
      dsNames s = map (fun f => nth (skip t (Z.to_nat f)) (dsNames d) EmptyString) features ++ [nth t (dsNames d) EmptyString] /\
      forall i k, (i < mrows (dsX d))%nat -> (k < length features)%nat ->
        mval (dsX s) i k = mval (dsX d) i (Z.to_nat (nth k features 0%Z)).
  Proof.
    intros d t features Hs Hne Hf. pose proof Hs as (Hr & Hc & HY & Hn & Ht & Htl).
    assert (Hl : (0 < length features)%nat) by (destruct features; [congruence|cbn; lia]).
    unfold GetSubset, new_dense.
    replace ((mrows (dsX d) =? 0)%nat || (length features =? 0)%nat)%bool with false.
    2:{ symmetry. apply orb_false_intro; apply Nat.eqb_neq; lia. }
    cbn [bind].
    match goal with |- context [for_loop 0 ?n ?b ?X0] =>
      destruct (for_loop_inv _ (fun k (X : Mat N) => mrows X = mrows (dsX d) /\ mcols X = length features /\
        forall i c, (i < k)%nat -> (c < length features)%nat ->
          mval X i c = mval (dsX d) i (Z.to_nat (nth c features 0%Z))) b n 0%nat X0) as (X & E & H1 & H2 & H3) end.
    - cbn [mrows mcols]. split; [reflexivity|]. split; [reflexivity|]. intros; lia.
    - intros k X Hk (H1 & H2 & H3).
      destruct (subset_row d k X features ltac:(lia) ltac:(lia) Hf 0%nat) as (X' & E & A & B & C & D); [lia|].
      exists X'. split; [exact E|]. split; [congruence|]. split; [congruence|].
      intros i c Hi Hc'. destruct (Nat.eq_dec i k) as [->|Hik].
      + apply (D c Hc').
      + rewrite C by (left; exact Hik). apply H3; lia.
    - rewrite E. cbn [bind]. pose proof (subset_names d t features Hs Hf []) as En.
      cbn [app length] in En. rewrite En. cbn [bind].
      rewrite Ht, getz_nat, (getn_lt _ _ t EmptyString) by lia. cbn [bind].
      assert (Eset : setn (map (fun f => nth (skip t (Z.to_nat f)) (dsNames d) EmptyString) features ++ [EmptyString])
                       (length features) (nth t (dsNames d) EmptyString)
                     = Ok (map (fun f => nth (skip t (Z.to_nat f)) (dsNames d) EmptyString) features ++ [nth t (dsNames d) EmptyString])).
      { pose proof (setn_at_end _ (map (fun f => nth (skip t (Z.to_nat f)) (dsNames d) EmptyString) features) EmptyString (nth t (dsNames d) EmptyString) []) as Es.
        rewrite map_length in Es. exact Es. }
      rewrite Eset. cbn [bind]. eexists. split; [reflexivity|].
      assert (EY : go_copy (repeat n0 (mrows (dsX d))) (dsY d) = dsY d) by (rewrite <- HY; apply go_copy_full).
      rewrite EY. unfold shaped. cbn [dsX dsY dsNames dsTargetCol].
      rewrite H1, H2, app_length, map_length. cbn [length].
      split; [split; [lia|]; split; [lia|]; split; [exact HY|]; split; [lia|]; split; [reflexivity|lia]|].
      split; [reflexivity|]. split; [reflexivity|]. split; [reflexivity|]. split; [reflexivity|].
      exact H3.
  Qed.

  Lemma subset_empty : forall d : Dataset N, GetSubset d [] = Panic.
  Proof. intro d. unfold GetSubset, new_dense. cbn [length]. rewrite orb_true_r. reflexivity. Qed.

  Lemma subset_out : forall d t features f, shaped d t -> In f features ->
    ~ (0 <= f < Z.of_nat (mcols (dsX d)))%Z -> GetSubset d features = Panic.
  Proof.
    intros d t features f Hs Hin Hf. pose proof Hs as (Hr & Hc & HY & Hn & Ht & Htl).
    unfold GetSubset, new_dense.
    destruct (_ || _)%bool; [reflexivity|]. cbn [bind].
    destruct (mrows (dsX d)) as [|nr] eqn:Enr; [lia|]. cbn [for_loop].
    match goal with |- (do X <- (do s' <- for_eachi 0 features ?b ?X0; _); _) = _ =>
      assert (Hp : forall l k (X : Mat N), In f l -> (0 < mrows X)%nat -> (k + length l <= mcols X)%nat -> for_eachi k l b X = Panic) end.
    { induction l as [|g l IH]; intros k X Hl HX Hk; [contradiction|]. cbn [for_eachi].
      destruct (mat_atz (dsX d) (Z.of_nat 0) g) as [x| |] eqn:Ex.
      - cbn [bind]. cbn [length] in Hk. rewrite mat_set_in by lia. cbn [bind]. apply IH.
        + destruct Hl as [<-|Hl]; [|exact Hl]. exfalso. unfold mat_atz in Ex.
          destruct (Z.ltb_spec g 0) as [Hg|Hg]; [rewrite orb_true_r in Ex; discriminate|].
          destruct (Z.of_nat 0 <? 0)%Z; [discriminate|]. cbn [orb] in Ex.
          rewrite mat_at_out in Ex by (intros [_ C]; lia). discriminate.
        + exact HX.
        + cbn [mat_upd mcols]. lia.
      - reflexivity.
      - exfalso. unfold mat_atz in Ex. destruct (_ || _)%bool; [discriminate|]. unfold mat_at in Ex.
        destruct (_ && _)%bool; discriminate. }
    rewrite Hp; [reflexivity|exact Hin|cbn [mrows]; lia|cbn [mcols]; lia].
  Qed.

  (** ** JSON *)

  Lemma for_loop_setn_at : forall (f : nat -> res N) (g : nat -> N) o n a (l : list N),
    (forall j, (a <= j < a + n)%nat -> f j = Ok (g j)) -> (o + a + n <= length l)%nat ->
    exists l', for_loop a n (fun j l => do v <- f j; setn l (o + j) v) l = Ok l' /\ length l' = length l /\
      forall p z, nth p l' z = if (o + a <=? p)%nat && (p <? o + a + n)%nat then g (p - o)%nat else nth p l z.
  Proof.
    intros f g o n. induction n as [|n IH]; intros a l Hf Hl; cbn [for_loop].
    - exists l. split; [reflexivity|]. split; [reflexivity|]. intros p z.
      destruct (Nat.leb_spec (o + a) p); destruct (Nat.ltb_spec p (o + a + 0)); cbn [andb]; try lia; reflexivity.
    - rewrite (Hf a) by lia. cbn [bind]. rewrite setn_lt by lia. cbn [bind].
      destruct (IH (S a) (upd l (o + a) (g a))) as (l' & E & A & B).
      + intros j Hj. apply Hf. lia.
      + rewrite upd_length. lia.
      + exists l'. split; [exact E|]. split; [rewrite A; apply upd_length|]. intros p z. rewrite B, nth_upd.
        destruct (Nat.leb_spec (o + S a) p); destruct (Nat.leb_spec (o + a) p); try lia;
        destruct (Nat.ltb_spec p (o + S a + n)); destruct (Nat.ltb_spec p (o + a + S n)); try lia; cbn [andb];
          try reflexivity; destruct (Nat.eqb_spec p (o + a)); try lia; try reflexivity.
        replace (o + a <? length l)%nat with true by (symmetry; apply Nat.ltb_lt; lia).
        f_equal. lia.
  Qed.

  (** the entries of X row by row *)
  Definition flat (X : Mat N) : list N :=
    map (fun p => mval X (p / mcols X) (p mod mcols X)) (seq 0 (mrows X * mcols X)).

  Lemma flat_nth : forall (X : Mat N) i j z, (i < mrows X)%nat -> (j < mcols X)%nat ->
    nth (i * mcols X + j) (flat X) z = mval X i j.
  Proof.
    intros X i j z Hi Hj. unfold flat.
    assert (Hp : (i * mcols X + j < mrows X * mcols X)%nat) by nia.
    rewrite nth_indep with (d' := mval X (0 / mcols X) (0 mod mcols X)) by (rewrite map_length, seq_length; exact Hp).
    rewrite (map_nth (fun p => mval X (p / mcols X) (p mod mcols X))), seq_nth by exact Hp.
    rewrite Nat.add_0_l, Nat.div_add_l, (Nat.div_small j) by lia.
    rewrite Nat.add_0_r, Nat.add_comm, Nat.mod_add, Nat.mod_small by lia. reflexivity.
  Qed.

  Lemma marshal_flat : forall (d : Dataset N),
    for_loop 0 (mrows (dsX d)) (fun i X => for_loop 0 (mcols (dsX d)) (fun j X =>
      do v <- mat_at (dsX d) i j; setn X (i * mcols (dsX d) + j) v) X) (repeat n0 (mrows (dsX d) * mcols (dsX d)))
    = Ok (flat (dsX d)).
  Proof.
    intro d. set (nr := mrows (dsX d)). set (nc := mcols (dsX d)).
    destruct (for_loop_inv _ (fun k (X : list N) => length X = (nr * nc)%nat /\
      forall p, (p < k * nc)%nat -> nth p X n0 = mval (dsX d) (p / nc) (p mod nc))
      (fun i X => for_loop 0 nc (fun j X => do v <- mat_at (dsX d) i j; setn X (i * nc + j) v) X) nr 0%nat
      (repeat n0 (nr * nc))) as (X & E & H1 & H2).
    - split; [apply repeat_length|]. intros; lia.
    - intros k X Hk (H1 & H2).
      destruct (for_loop_setn_at (fun j => mat_at (dsX d) k j) (fun j => mval (dsX d) k j) (k * nc) nc 0 X) as (X' & E & A & B).
      + intros j Hj. apply mat_at_in; unfold nr, nc in *; lia.
      + rewrite H1. nia.
      + exists X'. split; [exact E|]. split; [congruence|]. intros p Hp. rewrite B.
        destruct (Nat.leb_spec (k * nc + 0) p); destruct (Nat.ltb_spec p (k * nc + 0 + nc)); cbn [andb]; try nia.
        * assert (Hd : (p / nc)%nat = k) by (symmetry; apply Nat.div_unique with (r := (p - k * nc)%nat); nia).
          rewrite Hd. f_equal. apply Nat.mod_unique with (q := k); nia.
        * apply H2. nia.
    - rewrite E. f_equal. apply nth_ext with (d := n0) (d' := n0).
      + unfold flat. rewrite map_length, seq_length. exact H1.
      + intros p Hp. rewrite H1 in Hp. rewrite Nat.add_0_l in H2. rewrite (H2 p Hp). unfold flat. fold nr nc.
        rewrite nth_indep with (d := n0) (d' := mval (dsX d) (0 / nc) (0 mod nc)) by (rewrite map_length, seq_length; exact Hp).
        rewrite (map_nth (fun p => mval (dsX d) (p / nc) (p mod nc))), seq_nth by exact Hp. reflexivity.
  Qed.

  Lemma flat_finite : forall (X : Mat N),
    forallb finite (flat X) = true <->
    forall i j, (i < mrows X)%nat -> (j < mcols X)%nat -> finite (mval X i j) = true.
  Proof.
    intro X. rewrite forallb_forall. split.
    - intros H i j Hi Hj. rewrite <- (flat_nth X i j n0 Hi Hj). apply H. apply nth_In.
      unfold flat. rewrite map_length, seq_length. nia.
    - intros H x Hx. unfold flat in Hx. apply in_map_iff in Hx. destruct Hx as (p & <- & Hp).
      apply in_seq in Hp. assert (mcols X <> 0)%nat by nia. apply H.
      + apply Nat.div_lt_upper_bound; lia.
      + apply Nat.mod_upper_bound; assumption.
  Qed.

  Lemma json_roundtrip : forall d : Dataset N,
    (0 < mrows (dsX d))%nat -> (0 < mcols (dsX d))%nat ->
    (forall i j, (i < mrows (dsX d))%nat -> (j < mcols (dsX d))%nat -> finite (mval (dsX d) i j) = true) ->
    (forall y, In y (dsY d) -> finite y = true) ->
    exists j d', dsMarshalJSON d = Ok (Some j) /\ dsUnmarshalJSON j = Ok d' /\
      meq (dsX d') (dsX d) /\ dsY d' = dsY d /\ dsNames d' = dsNames d /\ dsTargetCol d' = dsTargetCol d.
  Proof.
    intros d Hr Hc HX HY. unfold dsMarshalJSON. rewrite marshal_flat. cbn [bind].
    apply flat_finite in HX. rewrite HX.
    assert (HY' : forallb finite (dsY d) = true) by (apply forallb_forall; exact HY). rewrite HY'. cbn [andb].
    exists (mkJSONDataset (flat (dsX d)) (dsY d) (dsTargetCol d) (dsNames d)
      (Z.of_nat (mrows (dsX d))) (Z.of_nat (mcols (dsX d)))).
    unfold dsUnmarshalJSON, new_dense_from. cbn [jdX jdY jdNames jdTargetCol jdNr jdNc].
    assert (Hl : length (flat (dsX d)) = (mrows (dsX d) * mcols (dsX d))%nat)
      by (unfold flat; rewrite map_length, seq_length; reflexivity).
    replace ((Z.of_nat (mrows (dsX d)) <=? 0)%Z || (Z.of_nat (mcols (dsX d)) <=? 0)%Z)%bool with false
      by (symmetry; apply orb_false_intro; apply Z.leb_gt; lia).
    rewrite Hl, Nat2Z.inj_mul, Z.eqb_refl. cbn [negb bind]. eexists. split; [reflexivity|]. split; [reflexivity|].
    cbn [dsX dsY dsNames dsTargetCol]. split; [|auto].
    unfold meq. cbn [mrows mcols mval]. rewrite !Nat2Z.id. split; [reflexivity|]. split; [reflexivity|].
    intros i j Hi Hj. apply flat_nth; assumption.
  Qed.

  Lemma json_reject : forall d : Dataset N,
    (exists i j, (i < mrows (dsX d))%nat /\ (j < mcols (dsX d))%nat /\ finite (mval (dsX d) i j) = false) \/
    (exists y, In y (dsY d) /\ finite y = false) -> dsMarshalJSON d = Ok None.
  Proof.
    intros d H. unfold dsMarshalJSON. rewrite marshal_flat. cbn [bind].
    destruct (forallb finite (flat (dsX d)) && forallb finite (dsY d))%bool eqn:E; [|reflexivity].
    apply andb_true_iff in E. destruct E as [E1 E2]. exfalso. destruct H as [(i & j & Hi & Hj & H)|(y & Hy & H)].
    - rewrite flat_finite in E1. rewrite (E1 i j Hi Hj) in H. discriminate.
    - rewrite forallb_forall in E2. rewrite (E2 y Hy) in H. discriminate.
  Qed.

  (** ** IsEqual *)

  Lemma mat_equal_refl : forall (L : OrdLaws N) (X Y : Mat N) tol, meq X Y ->
    (forall i j, (i < mrows X)%nat -> (j < mcols X)%nat -> nisnan (mval X i j) = false) ->
    mat_equal_approx X Y tol = true.
  Proof.
    intros L X Y tol (Er & Ec & Ev) H. unfold mat_equal_approx. rewrite Er, Ec, !Nat.eqb_refl. cbn [andb].
    apply forallb_forall. intros i Hi. apply in_seq in Hi. apply forallb_forall. intros j Hj. apply in_seq in Hj.
    unfold EqualWithinAbsOrRel. rewrite <- Ev by lia. rewrite (go_eq_refl N L) by (apply H; lia). reflexivity.
  Qed.

  Lemma isequal_names : forall (L : OrdLaws N) (d e : Dataset N), meq (dsX d) (dsX e) -> dsY d = dsY e ->
    dsTargetCol d = dsTargetCol e -> length (dsNames d) = length (dsNames e) ->
    (forall i j, (i < mrows (dsX d))%nat -> (j < mcols (dsX d))%nat -> nisnan (mval (dsX d) i j) = false) ->
    (forall y, In y (dsY d) -> nisnan y = false) ->
    IsEqual d e = true.
  Proof.
    intros L d e HX HY Ht Hn H1 H2. unfold IsEqual. pose proof HX as (Er & Ec & _).
    rewrite Er, Ec, <- HY, Ht, Hn, !Nat.eqb_refl, Z.eqb_refl. cbn [negb orb]. cbv zeta.
    rewrite (EqualApprox_refl N L). 2:{ apply forallb_forall. intros y Hy. rewrite (H2 y Hy). reflexivity. }
    cbn [negb]. rewrite (mat_equal_refl L _ _ _ HX H1). reflexivity.
  Qed.

  Lemma isequal_sound : forall (d e : Dataset N), IsEqual d e = true ->
    mrows (dsX d) = mrows (dsX e) /\ mcols (dsX d) = mcols (dsX e) /\ length (dsY d) = length (dsY e) /\
    length (dsNames d) = length (dsNames e) /\ dsTargetCol d = dsTargetCol e /\
    (forall i, (i < length (dsY d))%nat ->
       EqualWithinAbsOrRel (nth i (dsY d) n0) (nth i (dsY e) n0) (ndec 1 (-10)) = true) /\
    (forall i j, (i < mrows (dsX d))%nat -> (j < mcols (dsX d))%nat ->
       EqualWithinAbsOrRel (mval (dsX d) i j) (mval (dsX e) i j) (ndec 1 (-10)) = true).
  Proof.
    intros d e H. unfold IsEqual in H.
    destruct (Nat.eqb_spec (mrows (dsX d)) (mrows (dsX e))) as [E1|]; [|discriminate].
    destruct (Nat.eqb_spec (mcols (dsX d)) (mcols (dsX e))) as [E2|]; [|discriminate].
    destruct (Nat.eqb_spec (length (dsY d)) (length (dsY e))) as [E3|]; [|discriminate].
    destruct (Nat.eqb_spec (length (dsNames d)) (length (dsNames e))) as [E4|]; [|discriminate].
    destruct (Z.eqb_spec (dsTargetCol d) (dsTargetCol e)) as [E5|]; [|discriminate].
    cbn [negb orb] in H. cbv zeta in H.
    destruct (EqualApprox (dsY d) (dsY e) (ndec 1 (-10))) eqn:EY; [|discriminate]. cbn [negb] in H.
    destruct (mat_equal_approx (dsX d) (dsX e) (ndec 1 (-10))) eqn:EX; [|discriminate].
    split; [exact E1|]. split; [exact E2|]. split; [exact E3|]. split; [exact E4|]. split; [exact E5|]. split.
    - unfold EqualApprox in EY. apply andb_true_iff in EY. destruct EY as [_ EY]. rewrite forallb_forall in EY.
      intros i Hi. apply (EY (nth i (dsY d) n0, nth i (dsY e) n0)).
      rewrite <- combine_nth by exact E3. apply nth_In. rewrite combine_length. lia.
    - unfold mat_equal_approx in EX. rewrite !andb_true_iff in EX. destruct EX as [_ EX].
      rewrite forallb_forall in EX. intros i j Hi Hj.
      assert (Hi' : In i (seq 0 (mrows (dsX d)))) by (apply in_seq; lia).
      specialize (EX i Hi'). rewrite forallb_forall in EX. apply EX. apply in_seq. lia.
  Qed.

  (** ** Copy *)

  (** an assignment to one element of an array *)
  Inductive write := WF (a i : nat) (v : N) | WS (a i : nat) (s : string).
  Definition do_write (m : Mem N) (w : write) : Mem N :=
    match w with
    | WF a i v => mkMem (upd (memF m) a (upd (nth a (memF m) []) i v)) (memS m)
    | WS a i s => mkMem (memF m) (upd (memS m) a (upd (nth a (memS m) []) i s))
    end.

  (** the assignment is not to an array of the dataset *)
  Definition write_off (d : DatasetRef) (w : write) : Prop :=
    match w with
    | WF a _ _ => a <> rfX d /\ a <> rfY d
    | WS a _ _ => a <> rfNames d
    end.

  Lemma load_write : forall m d w, write_off d w -> dsLoad (do_write m w) d = dsLoad m d.
  Proof.
    intros m d w H. unfold dsLoad, do_write. destruct w as [a i v|a i s]; cbn [memF memS write_off] in *.
    - destruct H as [H1 H2]. unfold getn. rewrite !nth_error_upd.
      destruct (Nat.eqb_spec (rfX d) a); [congruence|]. destruct (Nat.eqb_spec (rfY d) a); [congruence|]. reflexivity.
    - unfold getn. rewrite !nth_error_upd. destruct (Nat.eqb_spec (rfNames d) a); [congruence|]. reflexivity.
  Qed.

  Lemma load_writes : forall ws m d, (forall w, In w ws -> write_off d w) ->
    dsLoad (fold_left do_write ws m) d = dsLoad m d.
  Proof.
    induction ws as [|w ws IH]; intros m d H; [reflexivity|]. cbn [fold_left].
    rewrite IH by (intros w' Hw'; apply H; right; exact Hw'). apply load_write. apply H. left. reflexivity.
  Qed.

  Lemma getn_app_l : forall A (l r : list A) i x, getn l i = Ok x -> getn (l ++ r) i = Ok x.
  Proof.
    intros A l r i x H. unfold getn in *. destruct (nth_error l i) eqn:E; [|discriminate].
    rewrite nth_error_app1 by (apply nth_error_Some; congruence). rewrite E. exact H.
  Qed.

  Lemma getn_lt_len : forall A (l : list A) i x, getn l i = Ok x -> (i < length l)%nat.
  Proof.
    intros A l i x H. unfold getn in H. apply nth_error_Some. destruct (nth_error l i); [|discriminate]. congruence.
  Qed.

  Lemma getn_app_at : forall A (l r : list A) k, getn (l ++ r) (length l + k) = getn r k.
  Proof. intros. unfold getn. rewrite nth_error_app2 by lia. rewrite Nat.add_comm, Nat.add_sub. reflexivity. Qed.

  Lemma copy_ok : forall (m : Mem N) d x, dsLoad m d = Ok x ->
    exists m' c, dsCopy m d = Ok (m', c) /\ dsLoad m' c = Ok x /\ dsLoad m' d = Ok x /\
      (rfX c >= length (memF m))%nat /\ (rfY c >= length (memF m))%nat /\ (rfNames c >= length (memS m))%nat /\
      (rfX d < length (memF m))%nat /\ (rfY d < length (memF m))%nat /\ (rfNames d < length (memS m))%nat.
  Proof.
    intros m d x H. unfold dsLoad in H.
    destruct (getn (memF m) (rfX d)) as [vx| |] eqn:Ex; try discriminate. cbn [bind] in H.
    destruct (getn (memF m) (rfY d)) as [vy| |] eqn:Ey; try discriminate. cbn [bind] in H.
    destruct (getn (memS m) (rfNames d)) as [vs| |] eqn:Es; try discriminate. cbn [bind] in H.
    unfold dsCopy. rewrite Ex, Ey, Es. cbn [bind]. rewrite !go_copy_full.
    eexists. eexists. split; [reflexivity|]. split; [|split].
    - unfold dsLoad. cbn [memF memS rfX rfY rfNames rfNr rfNc rfTarget].
      pose proof (getn_app_at _ (memF m) [vx; vy] 0) as G0. rewrite Nat.add_0_r in G0. rewrite G0.
      pose proof (getn_app_at _ (memF m) [vx; vy] 1) as G1. rewrite Nat.add_1_r in G1. rewrite G1.
      pose proof (getn_app_at _ (memS m) [vs] 0) as G2. rewrite Nat.add_0_r in G2. rewrite G2.
      exact H.
    - unfold dsLoad. cbn [memF memS]. rewrite (getn_app_l _ _ _ _ _ Ex), (getn_app_l _ _ _ _ _ Ey), (getn_app_l _ _ _ _ _ Es).
      exact H.
    - cbn [rfX rfY rfNames]. apply getn_lt_len in Ex. apply getn_lt_len in Ey. apply getn_lt_len in Es. lia.
  Qed.
End CSVProof2.

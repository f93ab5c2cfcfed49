(** NormalizeCols/NormalizeRows and the way back to unnormalised coefficients. *)
From Coq Require Import Reals Lra.
From Verif Require Import Base Num Mat RSum Stats Model_Node Model_Util Model_Norm.
From Verif Require Import Proof_Util Proof_Rearrange Proof_XR Proof_Norm.

Lemma normalize_array_all : forall l, l <> [] -> NormalizeArray (N := XR) (fins l) = Ok (ydone l).
Proof.
  intros l Hl. unfold ydone. destruct (Reqb (sdev l) 0) eqn:E.
  - apply Reqb_true in E. apply normalize_array_const; auto.
  - apply Reqb_false in E. apply normalize_array_xr; auto.
Qed.

Lemma ydone_length : forall l, length (ydone l) = length l.
Proof.
  intro l. unfold ydone. destruct (Reqb _ _); [apply repeat_length|].
  rewrite fins_length. apply map_length.
Qed.

Lemma normalize_cols_xr : forall X f, rmat X f -> (0 < mrows X)%nat ->
  exists X', NormalizeCols X = Ok X' /\ mrows X' = mrows X /\ mcols X' = mcols X /\
    forall i j, (i < mrows X)%nat -> (j < mcols X)%nat ->
      mval X' i j = nth i (ydone (rcol (mrows X) f j)) (fin 0).
Proof.
  intros X f HX Hr. unfold NormalizeCols.
  pose (P := fun c (st : list XR * Mat XR) => length (fst st) = mrows X /\
     mrows (snd st) = mrows X /\ mcols (snd st) = mcols X /\
     forall i j, (i < mrows X)%nat -> (j < mcols X)%nat ->
       mval (snd st) i j = if (j <? c)%nat then nth i (ydone (rcol (mrows X) f j)) (fin 0) else fin (f i j)).
  destruct (for_loop_inv _ P (fun col (st : list XR * Mat XR) =>
    let '(tmp, X1) := st in
    do tmp <- for_loop 0 (mrows X) (fun row tmp => do v <- mat_at X1 row col; setn tmp row v) tmp;
    do tmp <- NormalizeArray tmp;
    do X1 <- for_loop 0 (mrows X) (fun row X => do v <- getn tmp row; mat_set X row col v) X1;
    Ok (tmp, X1)) (mcols X) 0 (repeat n0 (mrows X), X)) as ((tmp, X') & E & HP).
  - unfold P; cbn [fst snd]. rewrite repeat_length. repeat split; auto.
  - intros c [tmp X1] Hc (L1 & R1 & C1 & V1). cbn [fst snd] in *.
    assert (Ecol : for_loop 0 (mrows X) (fun row tmp => do v <- mat_at X1 row c; setn tmp row v) tmp =
      Ok (fins (rcol (mrows X) f c))).
    { rewrite <- R1. rewrite read_col by lia. f_equal. unfold fins, rcol. rewrite map_map.
      apply map_ext_in. intros r Hrr. apply in_seq in Hrr. rewrite V1 by lia.
      destruct (Nat.ltb_spec c c); [lia|reflexivity]. }
    rewrite Ecol. cbn [bind]. rewrite normalize_array_all by (apply rcol_ne; auto). cbn [bind].
    destruct (write_col _ X1 c (fun t => t) (ydone (rcol (mrows X) f c)) (fin 0))
      as (X2 & E2 & H1 & H2 & H3); [lia|rewrite ydone_length, rcol_length; lia|].
    rewrite R1 in E2. rewrite E2. cbn [bind]. eexists. split; [reflexivity|].
    unfold P; cbn [fst snd]. rewrite ydone_length, rcol_length. repeat split; try lia.
    intros i j Hi Hj. rewrite H3 by lia. destruct (Nat.eqb_spec j c) as [->|Hjc].
    + destruct (Nat.ltb_spec c (S c)); [reflexivity|lia].
    + rewrite V1 by auto. destruct (Nat.ltb_spec j c); destruct (Nat.ltb_spec j (S c)); auto; lia.
  - change (for_loop 0 (mcols X) _ (repeat n0 (mrows X), X)) with
      (for_loop 0 (mcols X) (fun col (st : list XR * Mat XR) =>
    let '(tmp, X1) := st in
    do tmp <- for_loop 0 (mrows X) (fun row tmp => do v <- mat_at X1 row col; setn tmp row v) tmp;
    do tmp <- NormalizeArray tmp;
    do X1 <- for_loop 0 (mrows X) (fun row X => do v <- getn tmp row; mat_set X row col v) X1;
    Ok (tmp, X1)) (repeat n0 (mrows X), X)).
    rewrite E. cbn [bind]. exists X'. destruct HP as (_ & R1 & C1 & V1). cbn [fst snd] in *.
    repeat split; auto. intros i j Hi Hj. rewrite V1 by auto.
    destruct (Nat.ltb_spec j (0 + mcols X)); [reflexivity|lia].
Qed.

(** ** Path2Unnormalized *)
Definition dotsel (f : nat -> nat -> R) (r : nat) (sel : list Z) (cs : list R) : R :=
  lsum (map (fun p => snd p * f r (Z.to_nat (fst p)))%R (combine sel cs)).

Section Unnorm.
  Variables (nr nc : nat) (f : nat -> nat -> R) (nd : NormalizedData XR) (y : list R).
  Let mu (c : nat) : R := mean (rcol nr f c).
  Let sd (c : nat) : R := sdev (rcol nr f c).
  Hypothesis (Hstd : ndstd nd = fins (map (fun c => sdev (rcol nr f c)) (seq 0 nc)))
             (Hmu : ndmu nd = fins (map (fun c => mean (rcol nr f c)) (seq 0 nc)))
             (HsY : ndstdY nd = fin (sdev y)) (HmY : ndmuY nd = fin (mean y)).

  Lemma get_std : forall v, (0 <= v < Z.of_nat nc)%Z -> getz (ndstd nd) v = Ok (fin (sd (Z.to_nat v))).
  Proof.
    intros v Hv. rewrite (getz_in _ _ _ (fin 0)) by (rewrite Hstd, fins_length, map_length, seq_length; lia).
    rewrite Hstd, nth_fins by (rewrite map_length, seq_length; lia). rewrite nth_map_seq by lia. reflexivity.
  Qed.
  Lemma get_mu : forall v, (0 <= v < Z.of_nat nc)%Z -> getz (ndmu nd) v = Ok (fin (mu (Z.to_nat v))).
  Proof.
    intros v Hv. rewrite (getz_in _ _ _ (fin 0)) by (rewrite Hmu, fins_length, map_length, seq_length; lia).
    rewrite Hmu, nth_fins by (rewrite map_length, seq_length; lia). rewrite nth_map_seq by lia. reflexivity.
  Qed.

  Definition shift (sel : list Z) (cs : list R) : R :=
    lsum (map (fun p => snd p * mu (Z.to_nat (fst p)) / sd (Z.to_nat (fst p)))%R (combine sel cs)).

  Lemma bias_xr : forall sel cs, length sel = length cs ->
    (forall v, In v sel -> (0 <= v < Z.of_nat nc)%Z /\ sd (Z.to_nat v) <> 0%R) ->
    LinearTransformationBias nd sel (fins cs) = Ok (fin (mean y - sdev y * shift sel cs)).
  Proof.
    intros sel cs Hl Hv. unfold LinearTransformationBias.
    assert (G : forall sel cs pre a, length sel = length cs ->
      (forall v, In v sel -> (0 <= v < Z.of_nat nc)%Z /\ sd (Z.to_nat v) <> 0%R) ->
      for_eachi (length pre) sel (fun i v s => do c <- getn (fins (pre ++ cs)) i;
        do m <- getz (ndmu nd) v; do st <- getz (ndstd nd) v; Ok (s + c * m / st)%num) (fin a)
      = Ok (fin (a + shift sel cs))).
    { clear sel cs Hl Hv. induction sel as [|v sel IH]; intros [|c cs] pre a Hl Hv; try discriminate.
      - cbn [for_eachi]. unfold shift. cbn [combine map]. rewrite lsum_nil, Rplus_0_r. reflexivity.
      - cbn [for_eachi]. rewrite getn_fins by (rewrite app_length; simpl; lia).
        rewrite app_nth2, Nat.sub_diag by lia. cbn [bind nth].
        destruct (Hv v (or_introl eq_refl)) as [H1 H2].
        rewrite get_mu, get_std by auto. cbn [bind]. rewrite xmul_fin, xdiv_fin, xadd_fin by auto.
        specialize (IH cs (pre ++ [c]) (a + c * mu (Z.to_nat v) / sd (Z.to_nat v))%R).
        rewrite app_length, Nat.add_comm, <- app_assoc in IH. cbn [app length plus] in IH.
        rewrite IH.
        + do 2 f_equal. unfold shift. cbn [combine map fst snd]. rewrite lsum_cons. ring.
        + simpl in Hl. lia.
        + intros w Hw. apply Hv. right; auto. }
    specialize (G sel cs [] 0%R Hl Hv). cbn [length app] in G. rewrite n0_fin. rewrite G. cbn [bind].
    rewrite HmY, HsY. do 2 f_equal. rewrite Rplus_0_l. reflexivity.
  Qed.

  Lemma coeff_xr : forall sel cs, length sel = length cs ->
    (forall v, In v sel -> (0 <= v < Z.of_nat nc)%Z /\ sd (Z.to_nat v) <> 0%R /\ (v = 0%Z -> ndHasBias nd = false)) ->
    for_loop 0 (length sel) (fun i coeff =>
      do s <- getn sel i; do c <- getn coeff i;
      do c' <- LinearNormalizationTransformation nd s c; setn coeff i c') (fins cs) =
    Ok (fins (map (fun p => snd p * sdev y / sd (Z.to_nat (fst p)))%R (combine sel cs))).
  Proof.
    intros sel cs Hl Hv.
    pose (g := fun i (x : XR) => (x * ndstdY nd / fin (sd (Z.to_nat (nth i sel 0%Z))))%num).
    transitivity (for_loop 0 (length sel) (fun i coeff => do c <- getn coeff i; setn coeff i (g i c)) (fins cs)).
    { apply for_loop_ext. intros i s Hi. rewrite (getn_lt _ sel i 0%Z) by lia. cbn [bind].
      destruct (Hv (nth i sel 0%Z)) as (H1 & H2 & H3); [apply nth_In; lia|].
      destruct (getn s i) as [x| |]; cbn [bind]; auto. unfold LinearNormalizationTransformation.
      destruct ((nth i sel 0 =? 0)%Z && ndHasBias nd) eqn:E.
      { apply andb_prop in E. destruct E as [E1 E2]. apply Z.eqb_eq in E1. rewrite (H3 E1) in E2. discriminate. }
      rewrite get_std by auto. reflexivity. }
    rewrite for_loop_map_upd by (rewrite fins_length; lia). cbn [firstn skipn app plus].
    rewrite Hl. rewrite <- (fins_length cs) at 2. rewrite firstn_all.
    rewrite <- (fins_length cs) at 2. rewrite skipn_all, app_nil_r. f_equal.
    match goal with |- _ = fins ?l => change (fins l) with (map fin l) end. rewrite map_map.
    apply (nth_ext _ _ (fin 0) (fin 0)); [rewrite !map_length, !combine_length, seq_length, fins_length; lia|].
    rewrite map_length, combine_length, seq_length, fins_length. intros k Hk.
    rewrite (nth_map_lt _ _ _ _ k (O, fin 0)) by (rewrite combine_length, seq_length, fins_length; lia).
    rewrite (nth_map_lt _ _ _ _ k (0%Z, 0%R)) by (rewrite combine_length; lia).
    rewrite !combine_nth by (rewrite ?seq_length, ?fins_length; lia). rewrite seq_nth by lia. cbn [fst snd plus].
    rewrite nth_fins by lia. unfold g. rewrite HsY, xmul_fin, xdiv_fin; [reflexivity|].
    apply Hv. apply nth_In. lia.
  Qed.

  (** the values predicted from the normalised data *)
  Definition normpred (r : nat) (sel : list Z) (cs : list R) : R :=
    dotsel (fun i j => (f i j - mu j) / sd j)%R r sel cs.

  Lemma pred_split : forall sel cs r, length sel = length cs ->
    (forall v, In v sel -> sd (Z.to_nat v) <> 0%R) ->
    dotsel f r sel (map (fun p => snd p * sdev y / sd (Z.to_nat (fst p)))%R (combine sel cs)) =
    (sdev y * normpred r sel cs + sdev y * shift sel cs)%R.
  Proof.
    unfold normpred, dotsel, shift.
    induction sel as [|v sel IH]; intros [|c cs] r Hl Hv; try discriminate.
    - cbn [combine map]. rewrite !lsum_nil. ring.
    - cbn [combine map fst snd]. rewrite !lsum_cons, IH; [|simpl in Hl; lia|intros w Hw; apply Hv; right; auto].
      specialize (Hv v (or_introl eq_refl)). field. auto.
  Qed.

  Lemma unnormalize_xr : forall lamb sel cs, length sel = length cs ->
    (forall v, In v sel -> (0 <= v < Z.of_nat nc)%Z /\ sd (Z.to_nat v) <> 0%R /\ (v = 0%Z -> ndHasBias nd = false)) ->
    exists cs', cs' = map (fun p => snd p * sdev y / sd (Z.to_nat (fst p)))%R (combine sel cs) /\
    unnormalize_node nd (mkLN (fins cs) lamb sel) =
    Ok (if ndHasBias nd
        then mkLN (fin (mean y - sdev y * shift sel cs) :: fins cs') lamb (0%Z :: sel)
        else mkLN (fins cs') lamb sel).
  Proof.
    intros lamb sel cs Hl Hv. eexists. split; [reflexivity|]. unfold unnormalize_node. cbn [lnSelection lnCoeff lnLamb].
    rewrite bias_xr by (auto; intros v Hin; destruct (Hv v Hin); tauto). cbn [bind].
    rewrite coeff_xr by auto. cbn [bind]. destruct (ndHasBias nd); reflexivity.
  Qed.
End Unnorm.

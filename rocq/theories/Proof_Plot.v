(** Lemmas behind C80: the figures of goselect-plotlasso. *)
From Coq Require Import Reals Lra Sorted.
From Verif Require Import Base Num Mat Model_Node Model_Util Proof_Util RSum Proof_XR Model_Norm Model_Fit Spec_Fit Model_CSV
  Model_Path Spec_Path Proof_Path Proof_Entrance Proof_Crit Model_Cmd Model_Plot Spec_Plot.
Open Scope R_scope.

Lemma node_is_good : forall nc n sel w l, node_is nc n sel w l -> good_node nc n w.
Proof. intros nc n sel w l (<- & H2 & _ & H4 & H5 & H6 & H7). repeat split; assumption || apply H7; assumption. Qed.

Lemma upd_at : forall B (d r : list B) x b, upd (d ++ x :: r) (length d) b = d ++ b :: r.
Proof. intros B. induction d as [|z d IH]; intros; simpl; [reflexivity|rewrite IH; reflexivity]. Qed.

Section Fixed.
  Variables (p : LassoLarsPath XR) (A : nat -> nat -> R) (y : list R).
  Hypothesis HD : real_data (lpDset p) A y.
  Let X := dsX (lpDset p).
  Let m := mrows X.
  Let nc := mcols X.
  Hypothesis HN : forall n, In n (lpNodes p) -> exists sel w l, node_is nc n sel w l.

  Definition rss_of (n : LassoLarsNode XR) : XR :=
    match (do model <- Selected2Model (lnSelection n) (Z.of_nat nc); do D <- GetDesignMatrix model X; Rss D (lnCoeff n) (fins y)) with Ok v => v | _ => n0 end.

  Lemma rss_of_eq : forall n sel w l, node_is nc n sel w l ->
    exists model D, Selected2Model (lnSelection n) (Z.of_nat nc) = Ok model /\ GetDesignMatrix model X = Ok D /\
      NumFeatures model = length sel /\ Rss D (lnCoeff n) (fins y) = Ok (fin (node_rss m A sel w y)) /\ rss_of n = fin (node_rss m A sel w y).
  Proof.
    intros n sel w l (H1 & H2 & H3 & H4 & H5 & H6 & H7). destruct HD as (D1 & D2 & D3 & D4).
    destruct (node_value X A y sel w D2 D1 D4 H6 H5 H7 H4) as (model & D & E1 & E2 & E3 & E4).
    exists model, D. rewrite H1, H2. split; [exact E1|]. split; [exact E2|]. split; [exact E3|]. split; [exact E4|].
    unfold rss_of. rewrite H1, H2. unfold nc. rewrite E1. cbn [bind]. rewrite E2. cbn [bind]. rewrite E4. reflexivity.
  Qed.

  Lemma get_fill : forall B C (vals : list B) (F : C -> nat -> B) , True. Proof. trivial. Qed.

  Variable lg : XR -> XR.
  Definition qual_pt (n : LassoLarsNode XR) : XR * XR := (lg (lnLamb n), Aicc (Z.of_nat (length (lnSelection n))) (Z.of_nat m) (rss_of n)).
  Definition dev_pt (n : LassoLarsNode XR) : XR * XR := (lg (lnLamb n), lg (nsqrt (rss_of n / nofnat m)%num)).

  Lemma criteria_eq : forall crit, GetCriteria p crit = Ok (map (fun n => crit (Z.of_nat (length (lnSelection n))) (Z.of_nat m) (rss_of n)) (lpNodes p)).
  Proof.
    intro crit. unfold GetCriteria. apply eachi_fill. intros i n s Hin. destruct (HN n Hin) as (sel & w & l & Hn).
    destruct (rss_of_eq n sel w l Hn) as (model & D & E1 & E2 & E3 & E4 & E5).
    fold X. fold nc. rewrite E1. cbn [bind]. rewrite E2. cbn [bind]. destruct HD as (_ & _ & -> & _). rewrite E4. cbn [bind]. rewrite E3, E5.
    destruct Hn as (-> & _). reflexivity.
  Qed.

  Lemma zip_fill : forall (F : LassoLarsNode XR -> XR) (l : list (LassoLarsNode XR)) (done pre : list (LassoLarsNode XR)),
    for_eachi (length pre) l (fun i n xys => do v <- getn (map F (pre ++ l)) i; setn xys i (lg (lnLamb n), v))
      (map (fun n => (lg (lnLamb n), F n)) pre ++ repeat (n0, n0) (length l)) = Ok (map (fun n => (lg (lnLamb n), F n)) (pre ++ l)).
  Proof.
    intros F. induction l as [|n l IH]; intros done pre; cbn [for_eachi length repeat].
    - rewrite !app_nil_r. reflexivity.
    - assert (G : getn (map F (pre ++ n :: l)) (length pre) = Ok (F n)).
      { apply getn_ok. rewrite nth_error_map, nth_error_app2, Nat.sub_diag by lia. reflexivity. }
      rewrite G. cbn [bind]. rewrite setn_lt by (rewrite app_length, map_length; simpl; lia). cbn [bind].
      specialize (IH done (pre ++ [n])). rewrite <- app_assoc in IH. cbn [app] in IH. rewrite <- IH.
      rewrite app_length. cbn [length]. rewrite Nat.add_1_r. f_equal.
      rewrite map_app, <- app_assoc. cbn [map app].
      pose proof (upd_at _ (map (fun n => (lg (lnLamb n), F n)) pre) (repeat (n0, n0) (length l)) (n0, n0) (lg (lnLamb n), F n)) as U.
      rewrite map_length in U. exact U.
  Qed.

  Lemma quality_eq : forall drawable, PlotQualityScores lg drawable p = if drawable (map qual_pt (lpNodes p)) then Ok (map qual_pt (lpNodes p)) else Panic.
  Proof.
    intro drawable. unfold PlotQualityScores. rewrite criteria_eq. cbn [bind].
    pose proof (zip_fill (fun n => Aicc (Z.of_nat (length (lnSelection n))) (Z.of_nat m) (rss_of n)) (lpNodes p) [] []) as E.
    cbn [length app map] in E. rewrite E. cbn [bind]. fold qual_pt. destruct (drawable _); reflexivity.
  Qed.

  Lemma deviations_eq : forall drawable, PlotDeviations lg drawable p = if drawable (map dev_pt (lpNodes p)) then Ok (map dev_pt (lpNodes p)) else Panic.
  Proof.
    intro drawable. unfold PlotDeviations.
    rewrite (eachi_fill _ _ _ dev_pt).
    - cbn [bind]. destruct (drawable _); reflexivity.
    - intros i n s Hin. destruct (HN n Hin) as (sel & w & l & Hn).
      destruct (rss_of_eq n sel w l Hn) as (model & D & E1 & E2 & E3 & E4 & E5).
      fold X. fold nc. rewrite E1. cbn [bind]. rewrite E2. cbn [bind]. destruct HD as (_ & _ & -> & _). rewrite E4. cbn [bind].
      unfold dev_pt. rewrite E5. reflexivity.
  Qed.
End Fixed.

(** PlotEntranceTimes does not fail before the library draws *)
Lemma entrance_eq : forall (p : LassoLarsPath XR) mn mx, MaxMinFeatNo p = (mn, mx) ->
  (mn <= mx + 1)%Z -> (forall n f, In n (lpNodes p) -> In f (lnSelection n) -> (mn <= f <= mx)%Z) ->
  forall lg, exists times line, forall drawable,
    PlotEntranceTimes lg drawable p = if drawable times && drawable line then Ok (times, line) else Panic.
Proof.
  intros p mn mx Em Hle Hr lg.
  destruct (tables_ok XR XR_OrdLaws lg p mn mx Em Hle Hr) as (((fe, did), tm) & E1 & (H1 & H2 & H3 & H4)).
  exists tm, (map snd (filter (fun q => nth (fst q) did false) (combine (seq 0 (length fe)) fe))). intro drawable.
  unfold PlotEntranceTimes. rewrite E1. cbn [bind]. destruct (drawable tm); [|reflexivity]. cbn [negb andb].
  rewrite (filter_loop XR did fe [] 0) by lia. cbn [bind app]. destruct (drawable _); reflexivity.
Qed.

Lemma path_eq : forall (p : LassoLarsPath XR) lg drawable,
  (forall n, In n (lpNodes p) -> (length (lnSelection n) <= length (lnCoeff n))%nat) -> lpNodes p <> [] ->
  (forall pts, length pts = length (lpNodes p) \/ length pts = 2%nat -> (forall q, In q pts -> (exists n, In n (lpNodes p) /\ fst q = lg (lnLamb n)) /\
      (snd q = fin 0 \/ exists n, In n (lpNodes p) /\ In (snd q) (lnCoeff n))) -> drawable pts = true) ->
  exists lines, PlotPath lg drawable p = Ok lines.
Proof.
  intros p lg drawable Hc Hne Hd. unfold PlotPath. destruct (MaxMinFeatNo p) as (mn, mx).
  assert (G : forall k a acc, exists r, for_loop a k (fun featNo lines =>
        do xy <- ExtractPath lg p (Z.of_nat featNo);
        if negb (drawable xy) then Panic else Ok (lines ++ [xy])) acc = Ok r).
  { induction k as [|k IH]; intros a acc; cbn [for_loop]; [eauto|].
    rewrite (extract_path XR lg p (Z.of_nat a) Hc). cbn [bind]. rewrite Hd; [cbn [negb bind]; apply IH|left; apply map_length|].
    intros q Hq. apply in_map_iff in Hq. destruct Hq as (n & <- & Hin). cbn [fst snd]. split; [exists n; split; [exact Hin|reflexivity]|].
    unfold coeff_of. destruct (find_coeff_spec XR n (Z.of_nat a) (Hc n Hin)) as [(_ & E)|(k0 & c & _ & _ & E2 & E)]; rewrite E; [left; reflexivity|].
    right. exists n. split; [exact Hin|]. apply nth_error_In in E2. exact E2. }
  destruct (G (Z.to_nat mx) 0%nat []) as (r & ->). cbn [bind].
  assert (Hl : (0 < length (lpNodes p))%nat) by (destruct (lpNodes p); [congruence|cbn; lia]).
  replace (Z.of_nat (length (lpNodes p)) - 1)%Z with (Z.of_nat (length (lpNodes p) - 1)) by lia. rewrite getz_nat.
  destruct (nth_error (lpNodes p) (length (lpNodes p) - 1)) as [last|] eqn:El; [|apply nth_error_None in El; lia].
  destruct (nth_error (lpNodes p) 0) as [first|] eqn:Ef; [|apply nth_error_None in Ef; lia].
  rewrite (proj2 (getn_ok _ _ _ _) El), (proj2 (getn_ok _ _ _ _) Ef). cbn [bind].
  apply nth_error_In in El. apply nth_error_In in Ef.
  rewrite Hd; [cbn [negb]; eauto|right; reflexivity|].
  intros q [<-|[<-|[]]]; cbn [fst snd]; (split; [|left; reflexivity]); eexists; (split; [|reflexivity]); assumption.
Qed.

Lemma drawable_fin : forall (pts : list (XR * XR)), pts <> [] ->
  (forall q, In q pts -> (exists a, fst q = fin a) /\ exists b, snd q = fin b) -> gonum_drawable pts = true.
Proof.
  intros pts Hne H. unfold gonum_drawable. apply andb_true_intro. split.
  - destruct pts; [congruence|reflexivity].
  - apply forallb_forall. intros q Hq. destruct (H q Hq) as ((a & ->) & b & ->). reflexivity.
Qed.

Lemma xlog10_pos : forall l, 0 < l -> xlog10 (fin l) = fin (log10 l).
Proof. intros l H. unfold xlog10, fin. rewrite (proj2 (Rltb_true 0 l) H). reflexivity. Qed.

Lemma ln10_pos : 0 < ln 10. Proof. rewrite <- ln_1. apply ln_increasing; lra. Qed.

Lemma log10_le : forall a b, 0 < a -> a <= b -> log10 a <= log10 b.
Proof.
  intros a b Ha [H| ->]; [|lra]. unfold log10. apply Rmult_le_compat_r; [left; apply Rinv_0_lt_compat, ln10_pos|].
  left. apply ln_increasing; assumption.
Qed.
Lemma log10_le_inv : forall a b, 0 < a -> 0 < b -> log10 a <= log10 b -> a <= b.
Proof.
  intros a b Ha Hb H. destruct (Rle_lt_dec a b) as [L|L]; [exact L|]. exfalso.
  assert (log10 b < log10 a) by (unfold log10; apply Rmult_lt_compat_r; [apply Rinv_0_lt_compat, ln10_pos|apply ln_increasing; assumption]).
  lra.
Qed.

Lemma log10_pow : forall k, log10 (/ 10 ^ k) = - INR k.
Proof.
  intro k. unfold log10. rewrite ln_Rinv by (apply pow_lt; lra).
  assert (E : ln (10 ^ k) = INR k * ln 10).
  { induction k as [|k IH]; [cbn; rewrite ln_1; ring|]. cbn [pow]. rewrite ln_mult by (try apply pow_lt; lra). rewrite IH, S_INR. ring. }
  rewrite E. field. pose proof ln10_pos. lra.
Qed.

Lemma above_floor : forall l, / 10 ^ 300 <= l -> nltb (n := XR) (nneg nmaxf) (xlog10 (fin l)) = true.
Proof.
  intros l H. assert (P : 0 < / 10 ^ 300) by (apply Rinv_0_lt_compat, pow_lt; lra).
  rewrite xlog10_pos by lra. pose proof (log10_le _ _ P H) as L. rewrite log10_pow in L.
  cbn [nltb nneg nmaxf XR xneg xmaxf]. unfold xmaxf, fin, xneg, xltb. apply Rltb_true.
  assert (1000 < IZR ((2 ^ 53 - 1) * 2 ^ 971)) by (apply IZR_lt; vm_compute; reflexivity).
  assert (E : INR 300 = 300) by (rewrite INR_IZR_INZ; reflexivity). rewrite E in L. lra.
Qed.

(** Orthogonal matching pursuit in exact arithmetic. *)
From Coq Require Import Reals Lra Psatz.
From Verif Require Import Base Num Mat RSum Model_Node Proof_Node Proof_Node2 Model_Util Proof_Util
  Proof_XR Proof_Norm Model_Fit Spec_Fit Proof_Fit Proof_Fit2 Model_Omp Spec_Omp Proof_Omp Proof_Lazy.
Open Scope R_scope.

(** ** least squares by the normal equations *)
Lemma rss_err : forall m n A w y, rss m n A w y = rsum m (fun i => err n A y w i * err n A y w i).
Proof. intros. unfold rss, err. apply rsum_ext. intros i Hi. unfold Rsqr. ring. Qed.

Lemma rss_split : forall m n A w w' y,
  (forall j, (j < n)%nat -> nth j w' 0 - nth j w 0 = 0 \/ rsum m (fun i => A i j * err n A y w i) = 0) ->
  rss m n A w' y = rss m n A w y +
    rsum m (fun i => Rsqr (rsum n (fun j => A i j * (nth j w' 0 - nth j w 0)))).
Proof.
  intros m n A w w' y H. rewrite !rss_err.
  set (d := fun j => nth j w' 0 - nth j w 0).
  assert (E : forall i, err n A y w' i = err n A y w i - rsum n (fun j => A i j * d j)).
  { intros i. unfold err.
    rewrite (rsum_ext n (fun j => A i j * d j) (fun j => A i j * nth j w' 0 - A i j * nth j w 0)) by (intros; unfold d; ring).
    rewrite rsum_minus. ring. }
  rewrite (rsum_ext m _ (fun i => err n A y w i * err n A y w i +
     (Rsqr (rsum n (fun j => A i j * d j)) - 2 * (err n A y w i * rsum n (fun j => A i j * d j)))))
    by (intros i Hi; rewrite E; unfold Rsqr; ring).
  rewrite rsum_plus, rsum_minus, rsum_scal.
  assert (Z : rsum m (fun i => err n A y w i * rsum n (fun j => A i j * d j)) = 0).
  { rewrite (rsum_ext m _ (fun i => rsum n (fun j => d j * (A i j * err n A y w i)))).
    2:{ intros i Hi. rewrite <- (rsum_scal n (err n A y w i) (fun j => A i j * d j)). apply rsum_ext. intros j Hj. ring. }
    rewrite rsum_swap. apply rsum_0'. intros j Hj. rewrite rsum_scal.
    destruct (H j Hj) as [H1|H1]; [unfold d; rewrite H1; ring|rewrite H1; ring]. }
  rewrite Z. change (rsum m (fun i => Rsqr (rsum n (fun j => A i j * (nth j w' 0 - nth j w 0)))))
    with (rsum m (fun i => Rsqr (rsum n (fun j => A i j * d j)))). ring.
Qed.

Lemma rss_min : forall m n A w w' y,
  (forall j, (j < n)%nat -> nth j w' 0 - nth j w 0 = 0 \/ rsum m (fun i => A i j * err n A y w i) = 0) ->
  rss m n A w y <= rss m n A w' y.
Proof.
  intros m n A w w' y H. rewrite (rss_split m n A w w' y H).
  assert (0 <= rsum m (fun i => Rsqr (rsum n (fun j => A i j * (nth j w' 0 - nth j w 0))))).
  { apply rsum_nonneg. intros; apply Rle_0_sqr. } lra.
Qed.

(** two least squares solutions leave the same errors *)
Lemma err_unique : forall m n A P w w' y,
  (forall j, In j P -> (j < n)%nat -> rsum m (fun i => A i j * err n A y w i) = 0) ->
  lsq_on m n A y P w -> lsq_on m n A y P w' ->
  forall i, (i < m)%nat -> err n A y w' i = err n A y w i.
Proof.
  intros m n A P w w' y HN (L & Z & M) (L' & Z' & M') i Hi.
  assert (S : rss m n A w' y = rss m n A w y +
    rsum m (fun i => Rsqr (rsum n (fun j => A i j * (nth j w' 0 - nth j w 0))))).
  { apply rss_split. intros j Hj. destruct (in_dec Nat.eq_dec j P) as [I|I]; [right; auto|left].
    rewrite Z, Z' by auto. ring. }
  pose proof (M w' L' Z'). pose proof (M' w L Z).
  assert (Q : rsum m (fun i => Rsqr (rsum n (fun j => A i j * (nth j w' 0 - nth j w 0)))) = 0) by lra.
  apply rsum_zero_terms with (i := i) in Q; [|intros; apply Rle_0_sqr|exact Hi].
  apply Rsqr_0_uniq in Q. unfold err.
  rewrite (rsum_ext n _ (fun j => A i j * nth j w' 0 - A i j * nth j w 0)) in Q by (intros; ring).
  rewrite rsum_minus in Q. lra.
Qed.

(** ** the mask *)
Lemma indicator_pos : forall n P, P <> [] -> Forall (fun i => (i < n)%nat) P ->
  (0 < NumFeatures (indicator n P))%nat.
Proof.
  intros n [|p P] H F; [contradiction|]. inversion F; subst.
  rewrite <- (sel_from_length _ 0).
  assert (I : In (Z.of_nat p) (sel_from 0 (indicator n (p :: P)))).
  { apply sel_from_In. exists p. split; [f_equal; lia|]. rewrite nth_error_indicator by auto.
    cbn [existsb]. rewrite Nat.eqb_refl. reflexivity. }
  destruct (sel_from 0 (indicator n (p :: P))); [destruct I|cbn; lia].
Qed.

Lemma selcol_onto : forall m j, nth_error m j = Some true -> exists k, (k < NumFeatures m)%nat /\ selcol m k = j.
Proof.
  intros m j H. assert (I : In (Z.of_nat j) (sel_from 0 m)) by (apply sel_from_In; exists j; auto).
  apply (In_nth _ _ 0%Z) in I. destruct I as (k & Hk & E). rewrite sel_from_length in Hk.
  exists k. split; [exact Hk|]. unfold selcol. rewrite E. lia.
Qed.

Lemma expand_spread : forall m c, length c = NumFeatures m -> expand m (fins c) = fins (spread m c).
Proof.
  induction m as [|b m IH]; intros c H; [reflexivity|]. rewrite NumFeatures_cons in H.
  destruct b; cbn [expand spread].
  - destruct c as [|x c]; [discriminate|]. cbn [fins map hd tl]. change (map fin c) with (fins c).
    rewrite IH by (cbn in H; lia). reflexivity.
  - rewrite IH by lia. reflexivity.
Qed.

Lemma spread_length : forall m c, length (spread m c) = length m.
Proof. induction m as [|b m IH]; intros c; [reflexivity|]. destruct b; cbn; rewrite IH; reflexivity. Qed.

Lemma combine_fins_rms : forall p y s, length p = length y ->
  fold_left (fun s q => nadd (n := XR) s (npow (nsub (snd q) (fst q)) 2)) (combine (fins p) (fins y)) (fin s)
  = fin (s + rsum (length y) (fun i => (nth i y 0 - nth i p 0) * (nth i y 0 - nth i p 0))).
Proof.
  induction p as [|a p IH]; intros [|b y] s H; try discriminate H.
  - cbn. rewrite Rplus_0_r. reflexivity.
  - cbn [fins map combine fold_left fst snd]. change (map fin p) with (fins p). change (map fin y) with (fins y).
    rewrite xsub_fin, xpow2_fin, xadd_fin, IH by (cbn in H; lia). cbn [length]. rewrite rsum_shift. cbn [nth].
    apply (f_equal XFin). ring.
Qed.

Lemma diffs_fins : forall p y, diffs XR (fins p) (fins y) = fins (map (fun q => fst q - snd q) (combine p y)).
Proof.
  induction p as [|a p IH]; intros [|b y]; try reflexivity.
  unfold diffs. cbn [fins map combine fst snd]. rewrite xsub_fin. f_equal.
  exact (IH y).
Qed.

Lemma nth_diffs : forall p y i, length p = length y -> (i < length y)%nat ->
  nth i (map (fun q => fst q - snd q) (combine p y)) 0 = nth i p 0 - nth i y 0.
Proof.
  induction p as [|a p IH]; intros [|b y] i H Hi; try discriminate H; [cbn in Hi; lia|].
  destruct i as [|i]; [reflexivity|]. cbn [combine map nth]. apply IH; cbn in *; lia.
Qed.

(** a loop that replaces every element in turn *)
Lemma inplace : forall B (F : nat -> B -> B) (body : nat -> list B -> res (list B)) N pre (f : nat -> B) l,
  (forall pre x r, length (pre ++ x :: r) = N -> body (length pre) (pre ++ x :: r) = Ok (pre ++ F (length pre) x :: r)) ->
  (length pre + length l = N)%nat -> l = seq (length pre) (length l) ->
  for_loop (length pre) (length (map f l)) body (pre ++ map f l) = Ok (pre ++ map (fun j => F j (f j)) l).
Proof.
  intros B F body N pre f l Hb. revert pre. induction l as [|j l IH]; intros pre HN Hs; [reflexivity|].
  cbn [length seq] in Hs. injection Hs as Ej El. cbn [map length for_loop].
  rewrite Hb by (rewrite app_length; cbn [length] in *; rewrite map_length; lia). cbn [bind].
  specialize (IH (pre ++ [F (length pre) (f j)])). rewrite app_length in IH. cbn [length] in IH, HN.
  replace (length pre + 1)%nat with (S (length pre)) in IH by lia.
  rewrite <- !app_assoc in IH. cbn [app] in IH. rewrite IH; [|lia|exact El]. rewrite Ej. reflexivity.
Qed.

Section XR.
Variables (svd : Mat XR -> SVD XR) (X : Mat XR) (A : nat -> nat -> R) (y : list R).
Hypothesis (HA : rmat X A) (Hr : (0 < mrows X)%nat) (Hy : length y = mrows X).
Let m := mrows X.
Let n := mcols X.

Definition nrm := map (col_norm m A) (seq 0 n).

Lemma norms_xr : omp_norms X = Ok (fins nrm).
Proof.
  unfold omp_norms. destruct (mat_mul_fin (mat_T X) X (fun i j => A j i) A) as (G & EG & RG & CG & QG).
  - apply mat_T_fin; auto. - auto. - reflexivity.
  - rewrite EG. cbn [bind]. cbn [mat_T mrows mcols] in RG, QG.
    rewrite (fill_map _ _ (fun j => fin (col_norm m A j))).
    + unfold nrm, fins. rewrite map_map. reflexivity.
    + intros i s Hi Hs. rewrite mat_at_in by lia. cbn [bind]. rewrite setn_lt by lia. do 2 f_equal.
      rewrite QG by lia. unfold mm. rewrite xsqrt_fin; [reflexivity|].
      apply rsum_nonneg. intros; nra.
    + apply repeat_length.
Qed.

Definition elen (e : list R) := sqrt (rsum m (fun i => nth i e 0 * nth i e 0)).
Definition corr (e : list R) (j : nat) := rsum m (fun i => A i j * nth i e 0).

Lemma proj_xr : forall e, length e = m ->
  omp_proj X (fins nrm) (fins e) =
  Ok (map (fun j => nabs (n := XR) (ndiv (n := XR) (fin (corr e j)) (fin (elen e * col_norm m A j)))) (seq 0 n)).
Proof.
  intros e He. unfold omp_proj.
  rewrite (nsum_fin _ _ (fun i => nth i e 0 * nth i e 0)).
  2:{ intros i Hi. rewrite fins_length in Hi. change (n0 (N := XR)) with (fin 0).
      rewrite nth_fins by auto. reflexivity. }
  rewrite fins_length, He, xsqrt_fin by (apply rsum_nonneg; intros; nra).
  fold (elen e).
  rewrite (mat_mulvec_fin (mat_T X) (fun i j => A j i)); [|apply mat_T_fin; auto|cbn; unfold m in He; lia].
  cbn [bind mat_T mcols mrows]. rewrite fins_length, map_length, seq_length.
  set (l0 := map (fun i => rsum (mrows X) (fun k => A k i * nth k e 0)) (seq 0 (mcols X))).
  assert (E0 : fins l0 = map (fun j => fin (corr e j)) (seq 0 n)) by (unfold l0, fins; rewrite map_map; reflexivity).
  rewrite E0. clear E0.
  match goal with |- for_loop _ _ ?b _ = _ =>
    pose proof (inplace _ (fun j a => nabs (n := XR) (ndiv (n := XR) a (fin (elen e * col_norm m A j)))) b n []
      (fun j => fin (corr e j)) (seq 0 n)) as Q
  end.
  rewrite map_length, !seq_length in Q. cbn [app length] in Q. apply Q; auto.
  intros pre x r Hl. unfold getn at 1. rewrite nth_error_app2, Nat.sub_diag by lia. cbn [nth_error bind].
  rewrite app_length in Hl. cbn [length] in Hl.
  rewrite getn_fins by (unfold nrm; rewrite map_length, seq_length; lia). cbn [bind].
  rewrite setn_at_end. unfold nrm. rewrite nth_map_seq by lia. reflexivity.
Qed.

Hypothesis Hsvd : good_svd svd X.

(** Fit on the features in [P], as coefficients of all the features *)
Lemma fit_on_xr : forall P, P <> [] -> Forall (fun i => (i < n)%nat) P ->
  exists c pred w, fit_on svd X (fins y) P (fins c) (fins pred) /\
    expand (indicator n P) (fins c) = fins w /\ lsq_on m n A y P w /\
    length pred = m /\ (forall i, (i < m)%nat -> nth i y 0 - nth i pred 0 = err n A y w i) /\
    (forall j, In j P -> rsum m (fun i => A i j * err n A y w i) = 0).
Proof.
  intros P HP HF. pose proof (indicator_pos n P HP HF) as Hpos.
  set (b := indicator n P) in *.
  assert (Lb : length b = n) by apply indicator_length.
  destruct (design_xr X A b HA Hr Hpos) as (D & ED & RD & CD & QD); [unfold n in *; lia|].
  destruct (Hsvd b D Lb ED) as (HS & HT).
  destruct (fit_min svd D (sub A b) y QD HS HT ltac:(lia) ltac:(lia)) as (c & EF & Lc & _ & NE & _).
  rewrite RD, CD in NE. rewrite CD in Lc.
  set (w := spread b c).
  assert (ES : forall i, rsum (NumFeatures b) (fun k => sub A b i k * nth k c 0) = rsum n (fun j => A i j * nth j w 0)).
  { intros i. unfold sub, w. rewrite (spread_sum b c (A i) Lc), Lb. reflexivity. }
  assert (Lw : length w = n) by (unfold w; rewrite spread_length; exact Lb).
  assert (Zw : forall j, ~ In j P -> nth j w 0 = 0).
  { intros j Hj. apply spread_support. apply not_true_is_false. intros T.
    destruct (Nat.lt_ge_cases j n) as [Hl|Hl].
    - apply indicator_In in T; auto.
    - rewrite nth_overflow in T by lia. discriminate. }
  assert (NW : forall j, In j P -> rsum m (fun i => A i j * err n A y w i) = 0).
  { intros j Hj. assert (Hjn : (j < n)%nat) by (rewrite Forall_forall in HF; auto).
    destruct (selcol_onto b j) as (k & Hk & Ek).
    - unfold b. rewrite nth_error_indicator by exact Hjn. f_equal. apply existsb_exists. exists j.
      split; [exact Hj|apply Nat.eqb_refl].
    - etransitivity; [|exact (NE k Hk)]. apply rsum_ext. intros i Hi. unfold err. rewrite <- ES.
      unfold sub at 2. rewrite Ek. reflexivity. }
  assert (EP : Predict D (fins c) = Ok (fins (map (fun i => rsum n (fun j => A i j * nth j w 0)) (seq 0 m)))).
  { unfold Predict. destruct (Nat.eqb_spec (mrows D) 0) as [Hz|_]; [lia|].
    rewrite (mat_mulvec_fin D (sub A b) c QD) by lia. rewrite RD, CD. do 2 f_equal.
    apply map_ext. intros i. apply ES. }
  exists c, (map (fun i => rsum n (fun j => A i j * nth j w 0)) (seq 0 m)), w.
  split; [exists D; auto|]. split; [apply expand_spread; exact Lc|]. split.
  { split; [exact Lw|]. split; [exact Zw|]. intros w' Lw' Zw'. apply rss_min. intros j Hj.
    destruct (in_dec Nat.eq_dec j P) as [I|I]; [right; auto|left]. rewrite Zw, Zw' by exact I. ring. }
  split; [rewrite map_length, seq_length; reflexivity|]. split; [|exact NW].
  intros i Hi. rewrite nth_map_seq by exact Hi. reflexivity.
Qed.

(** what is left after the features in [P], up to sign *)
Lemma residual_xr : forall P, Forall (fun i => (i < n)%nat) P ->
  exists e w, residual svd X (fins y) P (fins e) /\ length e = m /\ lsq_on m n A y P w /\
    (forall j, In j P -> rsum m (fun i => A i j * err n A y w i) = 0) /\
    ((forall i, (i < m)%nat -> nth i e 0 = err n A y w i) \/
     (forall i, (i < m)%nat -> nth i e 0 = - err n A y w i)).
Proof.
  intros [|p P] HF.
  - exists y, (repeat 0 n). split; [reflexivity|]. split; [exact Hy|].
    assert (Z : forall j, nth j (repeat 0 n) 0 = 0) by (intros j; apply nth_repeat).
    split; [|split; [intros j []|left]].
    + split; [apply repeat_length|]. split; [intros j _; apply Z|].
      intros w' _ Zw'. apply rss_min. intros j Hj. left. rewrite Z, Zw' by (intros []). ring.
    + intros i Hi. unfold err. rewrite rsum_0'; [ring|]. intros j Hj. rewrite Z. ring.
  - destruct (fit_on_xr (p :: P)) as (c & pred & w & F1 & F2 & F3 & F4 & F5 & F6); [discriminate|exact HF|].
    exists (map (fun q => fst q - snd q) (combine pred y)), w. split.
    { cbn [residual]. exists (fins c), (fins pred). split; [exact F1|]. symmetry. apply (diffs_fins pred y). }
    split; [rewrite map_length, combine_length; unfold m in *; lia|]. split; [exact F3|]. split; [exact F6|].
    right. intros i Hi. rewrite nth_diffs by (unfold m in *; lia). rewrite <- F5 by exact Hi. ring.
Qed.

Lemma rms_xr : forall pred w, length pred = m ->
  (forall i, (i < m)%nat -> nth i y 0 - nth i pred 0 = err n A y w i) ->
  rms (fins y) (fins pred) = fin (sqrt (rss m n A w y / INR m)).
Proof.
  intros pred w Lp HE. unfold rms. change (n0 (N := XR)) with (fin 0).
  rewrite combine_fins_rms by (unfold m in *; lia). rewrite Rplus_0_l, fins_length, nofnat_fin.
  assert (0 < INR (length y)) by (apply lt_0_INR; lia).
  rewrite xdiv_fin by lra. rewrite xsqrt_fin.
  - apply (f_equal XFin). rewrite rss_err. rewrite Hy. fold m. do 2 f_equal. apply rsum_ext. intros i Hi. rewrite HE by exact Hi. reflexivity.
  - apply Rmult_le_pos; [apply rsum_nonneg; intros; apply Rle_0_sqr|]. left. apply Rinv_0_lt_compat; auto.
Qed.

Definition cols_nonzero := forall j, (j < n)%nat -> 0 < col_norm m A j.

Lemma pick_max : forall e, cols_nonzero -> (0 < n)%nat -> length e = m -> 0 < elen e ->
  exists proj j, omp_proj X (fins nrm) (fins e) = Ok proj /\ Argmax proj = Ok j /\ (j < n)%nat /\
    (forall k, (k < n)%nat -> score m A (fun i => nth i e 0) k <= score m A (fun i => nth i e 0) j) /\
    (forall k, (k < j)%nat -> score m A (fun i => nth i e 0) k < score m A (fun i => nth i e 0) j).
Proof.
  intros e HC Hn Le He. rewrite (proj_xr e Le). eexists. 
  set (sc := score m A (fun i => nth i e 0)).
  assert (E : map (fun j => nabs (n := XR) (ndiv (n := XR) (fin (corr e j)) (fin (elen e * col_norm m A j)))) (seq 0 n)
    = map (fun j => fin (sc j / elen e)) (seq 0 n)).
  { apply map_ext_in. intros j Hj. apply in_seq in Hj. assert (Hc := HC j ltac:(lia)).
    rewrite xdiv_fin by nra. rewrite xabs_fin. apply (f_equal XFin). unfold sc, score. fold (corr e j).
    unfold Rdiv. rewrite Rabs_mult, Rinv_mult, Rabs_mult.
    rewrite (Rabs_right (/ elen e)) by (apply Rle_ge; left; apply Rinv_0_lt_compat; auto).
    rewrite (Rabs_right (/ col_norm m A j)) by (apply Rle_ge; left; apply Rinv_0_lt_compat; auto). ring. }
  rewrite E. clear E.
  destruct (Argmax_spec XR XR_OrdLaws (map (fun j => fin (sc j / elen e)) (seq 0 n))) as (j & Ej & b & B1 & B2 & B3).
  - destruct n; [lia|discriminate].
  - intros x Hx. apply in_map_iff in Hx. destruct Hx as (k & <- & _). reflexivity.
  - exists j. split; [reflexivity|]. split; [exact Ej|].
    assert (Hj : (j < n)%nat).
    { assert (Q : nth_error (map (fun j => fin (sc j / elen e)) (seq 0 n)) j <> None) by congruence.
      apply nth_error_Some in Q. rewrite map_length, seq_length in Q. exact Q. }
    assert (NE : forall k, (k < n)%nat -> nth_error (map (fun j => fin (sc j / elen e)) (seq 0 n)) k = Some (fin (sc k / elen e))).
    { intros k Hk. rewrite nth_error_map, (nth_error_nth' _ 0%nat) by (rewrite seq_length; exact Hk).
      rewrite seq_nth by exact Hk. reflexivity. }
    rewrite NE in B1 by exact Hj. injection B1 as <-.
    assert (Hi : 0 < / elen e) by (apply Rinv_0_lt_compat; auto).
    split; [exact Hj|]. split.
    + intros k Hk. assert (Q := B2 (fin (sc k / elen e)) ltac:(eapply nth_error_In; apply NE; exact Hk)).
      cbn in Q. apply Rltb_false in Q. unfold Rdiv in Q. apply Rmult_le_reg_r with (/ elen e); auto.
    + intros k Hk. assert (Q := B3 k (fin (sc k / elen e)) Hk ltac:(apply NE; lia)).
      cbn in Q. apply Rltb_true in Q. unfold Rdiv in Q. apply Rmult_lt_reg_r with (/ elen e); auto.
Qed.

Lemma elen_0 : forall e w, ((forall i, (i < m)%nat -> nth i e 0 = err n A y w i) \/
     (forall i, (i < m)%nat -> nth i e 0 = - err n A y w i)) ->
  elen e = sqrt (rss m n A w y).
Proof.
  intros e w H. unfold elen. f_equal. rewrite rss_err. apply rsum_ext. intros i Hi.
  destruct H as [H|H]; rewrite H by exact Hi; ring.
Qed.

Lemma score_sign : forall e w j, ((forall i, (i < m)%nat -> nth i e 0 = err n A y w i) \/
     (forall i, (i < m)%nat -> nth i e 0 = - err n A y w i)) ->
  score m A (fun i => nth i e 0) j = score m A (err n A y w) j.
Proof.
  intros e w j [H|H]; unfold score; f_equal.
  - f_equal. apply rsum_ext. intros i Hi. rewrite H by exact Hi. reflexivity.
  - rewrite (rsum_ext m _ (fun i => - (A i j * err n A y w i))) by (intros i Hi; rewrite H by exact Hi; ring).
    rewrite rsum_opp, Rabs_Ropp. reflexivity.
Qed.

Lemma Argmax_total : forall l : list XR, l <> [] -> exists k, Argmax l = Ok k.
Proof.
  intros l Hl. unfold Argmax. destruct l as [|v0 l]; [contradiction|].
  change (getn (v0 :: l) 0) with (@Ok XR v0). cbn [bind].
  destruct (for_loop_inv _ (fun _ _ => True)
    (fun i (st : nat * XR) => do x <- getn (v0 :: l) i; Ok (if nltb (snd st) x then (i, x) else st))
    (length (v0 :: l)) 0%nat (0%nat, v0) I) as (s' & E & _).
  - intros i st Hi _. rewrite (getn_lt _ (v0 :: l) i v0) by lia. cbn [bind]. eauto.
  - rewrite E. cbn [bind]. eauto.
Qed.

Variable tol : XR.

Lemma round_total : forall P co order e current, (0 < n)%nat ->
  reached XR svd X (fins y) P co (indicator n P) (fins e) -> Forall (fun i => (i < n)%nat) P ->
  (current < length order)%nat ->
  exists P' co' order' e' stop,
    omp_round svd X (fins y) tol (fins nrm) current (mkOmpSt co order (indicator n P) (fins e))
      = Ok (mkOmpSt co' order' (indicator n P') (fins e'), stop) /\
    Forall (fun i => (i < n)%nat) P' /\ length order' = length order /\
    reached XR svd X (fins y) P' co' (indicator n P') (fins e').
Proof.
  intros P co order e current Hn HR HF Hc. pose proof HR as [_ [Rc _] Rr _].
  rewrite !fins_length in Rr.
  assert (Le : length e = m) by (unfold m; lia).
  pose proof (proj_xr e Le) as Ep.
  set (proj := map (fun j => nabs (n := XR) (ndiv (n := XR) (fin (corr e j)) (fin (elen e * col_norm m A j)))) (seq 0 n)) in *.
  destruct (Argmax_total proj) as (imax & Em); [unfold proj; destruct n; [lia|discriminate]|].
  pose proof (Argmax_lt _ _ _ Em) as Hi. unfold proj in Hi. rewrite map_length, seq_length in Hi.
  assert (HF' : Forall (fun i => (i < n)%nat) (P ++ [imax])) by (apply Forall_app; auto).
  destruct (fit_on_xr (P ++ [imax])) as (c & pred & w & (D & ED & Ec & Epr) & _ & _ & Lp & _); [destruct P; discriminate|exact HF'|].
  assert (ER : exists st stop, omp_round svd X (fins y) tol (fins nrm) current (mkOmpSt co order (indicator n P) (fins e)) = Ok (st, stop)).
  { unfold omp_round. cbn [osRes osModel osOrder osCoeff]. rewrite Ep. cbn [bind]. rewrite Em. cbn [bind].
    rewrite setn_lt by (rewrite indicator_length; exact Hi). cbn [bind]. rewrite indicator_upd by exact Hi.
    rewrite setn_lt by exact Hc. cbn [bind]. unfold n at 1. rewrite ED. cbn [bind]. rewrite Ec. cbn [bind].
    unfold SelectedFeatures. rewrite selected_loop_eq. cbn [bind].
    destruct (design_dims _ _ _ _ ED) as (D1 & D2 & D3). destruct (Fit_length _ _ _ _ _ Ec) as (L1 & L2).
    rewrite (write_spec XR); [|rewrite indicator_length; exact Rc|unfold n; lia]. cbn [bind].
    rewrite Epr. cbn [bind]. rewrite (residuals_spec XR) by (rewrite !fins_length; unfold m in *; lia).
    cbn [bind]. eauto. }
  destruct ER as (st & stop & ER).
  destruct (round_spec XR svd X (fins y) tol (fins nrm) P co order (indicator n P) (fins e) current st stop HR ER)
    as (p2 & i2 & c2 & pr2 & Q1 & Q2 & _ & _ & Q3 & Q4 & Q5 & Q6 & Q7 & Q8).
  rewrite Ep in Q1. injection Q1 as <-. rewrite Em in Q2. injection Q2 as <-.
  destruct (fit_on_fun XR svd X (fins y) (P ++ [imax]) c2 pr2 (fins c) (fins pred) Q4) as (-> & ->); [exists D; auto|].
  rewrite diffs_fins in Q7.
  pose proof (rc_m _ _ _ _ _ _ _ _ Q5) as Q9.
  destruct st as [co' order' m' re']. cbn [osCoeff osOrder osModel osRes] in *. subst m' re'.
  exists (P ++ [imax]), co', order', (map (fun q => fst q - snd q) (combine pred y)), stop.
  split; [exact ER|]. split; [exact HF'|]. split; [rewrite Q3; apply upd_length|exact Q5].
Qed.

Lemma loop_total : forall k P co order e current, (0 < n)%nat ->
  reached XR svd X (fins y) P co (indicator n P) (fins e) -> Forall (fun i => (i < n)%nat) P ->
  (current + k = length order)%nat ->
  exists st, omp_loop svd X (fins y) tol (fins nrm) k current (mkOmpSt co order (indicator n P) (fins e)) = Ok st.
Proof.
  induction k as [|k IH]; intros P co order e current Hn HR HF Hc; [eexists; reflexivity|].
  destruct (round_total P co order e current Hn HR HF ltac:(lia)) as (P' & co' & order' & e' & stop & E & F1 & F2 & F3).
  cbn [omp_loop]. rewrite E. cbn [bind]. destruct stop; [eauto|]. apply IH; auto. lia.
Qed.
End XR.

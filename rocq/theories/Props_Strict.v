(** C94: a stricter criterion never selects more features. *)
From Coq Require Import Reals Lra Lia Psatz List.
From Verif Require Import Base Num Mat RSum Model_Node Model_Util Model_Fit Model_Search Spec_Fit Spec_Subset.
From Verif Require Import Proof_Node Proof_Node2 Proof_Models Proof_Util Proof_XR Proof_Norm Proof_Fit Proof_Fit2.
From Verif Require Import Proof_Search Proof_Search2 Proof_Search3 Proof_Search4 Proof_Search5 Proof_Subset Props_Search Props_Fit Props_EndToEnd Props_Subset.
Import ListNotations.
Open Scope R_scope.

(** ** Specification *)

(** m is a non-empty model with the least value of the criterion c *)
Definition selects (svd : Mat XR -> SVD XR) (c : Z -> Z -> XR -> XR) (X : Mat XR) (y : list XR) (m : list bool) : Prop :=
  length m = mcols X /\ In true m /\
  exists v, criterion svd c X y m = Ok v /\
    forall m' v', length m' = mcols X -> In true m' -> criterion svd c X y m' = Ok v' -> nleb v v' = true.

(** no linear combination of the columns is the target *)
Definition no_exact_fit (rows cols : nat) (x : nat -> nat -> R) (y : list R) : Prop :=
  forall b : nat -> R, exists i, (i < rows)%nat /\ rsum cols (fun j => x i j * b j) <> nth i y 0.

(** ** Proofs *)
Lemma no_exact_rss : forall rows cols x y m w, no_exact_fit rows cols x y -> length m = cols -> length w = NumFeatures m ->
  0 < rss rows (NumFeatures m) (sub x m) w y.
Proof.
  intros rows cols x y m w H Hm Hw. destruct (H (fun j => nth j (spread m w) 0)) as (i & Hi & Hne).
  assert (E : rss rows (NumFeatures m) (sub x m) w y =
    rsum rows (fun i => Rsqr (rsum cols (fun j => x i j * nth j (spread m w) 0) - nth i y 0))).
  { unfold rss. apply rsum_ext. intros k _. unfold sub. rewrite (spread_sum m w (x k) Hw), Hm. reflexivity. }
  rewrite E. apply Rlt_le_trans with (Rsqr (rsum cols (fun j => x i j * nth j (spread m w) 0) - nth i y 0)).
  - apply Rsqr_pos_lt. lra.
  - apply (rsum_term_le rows (fun i => Rsqr (rsum cols (fun j => x i j * nth j (spread m w) 0) - nth i y 0)) i).
    + intros k _. apply Rle_0_sqr.
    + exact Hi.
Qed.

(** a criterion is a penalty plus a function of the residual *)
Definition penalised (c : Z -> Z -> XR -> XR) (pen : Z -> Z -> R) : Prop :=
  forall k n r, (1 <= n)%Z -> 0 < r -> c k n (fin r) = fin (pen k n + IZR n * ln r).
Lemma pen_of : forall c pen, (forall k n r, (1 <= n)%Z -> 0 <= r -> c k n (fin r) = nadd (n := XR) (fin (pen k n)) (nlogr n r)) ->
  penalised c pen.
Proof.
  intros c pen H k n r Hn Hr. rewrite H by (auto; lra). unfold nlogr. rewrite (proj2 (Rltb_true 0 r) Hr). apply xadd_fin.
Qed.

Lemma stricter : forall svd X x y ca cb pa pb ma mb,
  rmat X x -> (0 < mrows X)%nat -> length y = mrows X -> good_svd svd X -> no_exact_fit (mrows X) (mcols X) x y ->
  penalised ca pa -> penalised cb pb ->
  (forall k k', (0 <= k < k')%Z -> pb k (Z.of_nat (mrows X)) - pa k (Z.of_nat (mrows X)) < pb k' (Z.of_nat (mrows X)) - pa k' (Z.of_nat (mrows X))) ->
  selects svd ca X (fins y) ma -> selects svd cb X (fins y) mb -> (NumFeatures mb <= NumFeatures ma)%nat.
Proof.
  intros svd X x y ca cb pa pb ma mb HX Hr Hy Hg Hne Pa Pb Hinc (La & Ta & va & Ea & Ma) (Lb & Tb & vb & Eb & Mb).
  assert (V : forall m, length m = mcols X -> In true m -> exists r, 0 < r /\
    criterion svd ca X (fins y) m = Ok (fin (pa (Z.of_nat (NumFeatures m)) (Z.of_nat (mrows X)) + IZR (Z.of_nat (mrows X)) * ln r)) /\
    criterion svd cb X (fins y) m = Ok (fin (pb (Z.of_nat (NumFeatures m)) (Z.of_nat (mrows X)) + IZR (Z.of_nat (mrows X)) * ln r))).
  { intros m Lm Tm.
    destruct (model_fit svd X x y HX Hr Hy Hg m Lm ltac:(apply nonempty_nf; auto)) as (D & w & r & E1 & E2 & E3 & Lw & Er & _).
    exists r. assert (0 < r) by (rewrite Er; apply (no_exact_rss _ (mcols X)); auto). split; [auto|].
    unfold criterion. rewrite E1. cbn [bind]. rewrite E2. cbn [bind]. rewrite E3. cbn [bind].
    replace (length (fins y)) with (mrows X) by (unfold fins; rewrite map_length; auto).
    assert (Z1 : (1 <= Z.of_nat (mrows X))%Z) by lia. rewrite (Pa _ _ _ Z1 H), (Pb _ _ _ Z1 H). auto. }
  destruct (V ma La Ta) as (ra & _ & A1 & A2). destruct (V mb Lb Tb) as (rb & _ & B1 & B2).
  pose proof (Ma mb _ Lb Tb B1) as Q1. pose proof (Mb ma _ La Ta A2) as Q2.
  assert (Eva : va = fin (pa (Z.of_nat (NumFeatures ma)) (Z.of_nat (mrows X)) + IZR (Z.of_nat (mrows X)) * ln ra)) by congruence.
  assert (Evb : vb = fin (pb (Z.of_nat (NumFeatures mb)) (Z.of_nat (mrows X)) + IZR (Z.of_nat (mrows X)) * ln rb)) by congruence.
  rewrite Eva in Q1. rewrite Evb in Q2. apply xle_fin in Q1. apply xle_fin in Q2.
  destruct (Nat.le_gt_cases (NumFeatures mb) (NumFeatures ma)) as [C|C]; auto. exfalso.
  specialize (Hinc (Z.of_nat (NumFeatures ma)) (Z.of_nat (NumFeatures mb)) ltac:(lia)). lra.
Qed.

Lemma corr_strict : forall k k' n, (0 <= k < k')%Z -> pen_aicc k n - pen_aic k < pen_aicc k' n - pen_aic k'.
Proof.
  intros k k' n H. unfold pen_aicc, pen_aic.
  assert (Hp : 0 <= IZR (2 * k * k + 2 * k) < IZR (2 * k' * k' + 2 * k')).
  { split; [apply (IZR_le 0)|apply IZR_lt]; nia. }
  set (p := IZR (2 * k * k + 2 * k)) in *. set (q := IZR (2 * k' * k' + 2 * k')) in *.
  assert (D : forall a b, 1 <= b -> b <= a -> p / a < q / b).
  { intros a b Hb Hab. apply Rle_lt_trans with (p / b).
    - unfold Rdiv. apply Rmult_le_compat_l; [lra|]. apply Rinv_le_contravar; lra.
    - unfold Rdiv. apply Rmult_lt_compat_r; [|lra]. apply Rinv_0_lt_compat. lra. }
  destruct (Z.leb_spec (n - 1) k) as [A|A]; destruct (Z.leb_spec (n - 1) k') as [B|B]; try lia.
  - specialize (D 1 1). lra.
  - assert (1 <= IZR (n - k - 1)) by (apply (IZR_le 1); lia). specialize (D (IZR (n - k - 1)) 1). lra.
  - assert (1 <= IZR (n - k' - 1)) by (apply (IZR_le 1); lia).
    assert (IZR (n - k' - 1) <= IZR (n - k - 1)) by (apply IZR_le; lia).
    specialize (D (IZR (n - k - 1)) (IZR (n - k' - 1))). lra.
Qed.

Lemma exp_pow : forall n x, exp x = exp (x / INR (S n)) ^ (S n).
Proof.
  intros n x. rewrite <- (exp_ln (exp (x / INR (S n)) ^ S n)) by (apply pow_lt, exp_pos). f_equal.
  rewrite ln_pow by apply exp_pos. rewrite ln_exp. field. apply not_0_INR. lia.
Qed.
Lemma exp2_lt_8 : exp 2 < 8.
Proof.
  rewrite (exp_pow 31 2). replace (2 / INR 32) with (/ 16) by (cbn; lra).
  assert (H : exp (/ 16) <= 16 / 15).
  { assert (Q : 15 / 16 <= exp (- / 16)) by (pose proof (exp_ineq1_le (- / 16)); lra).
    rewrite exp_Ropp in Q. pose proof (exp_pos (/ 16)) as P.
    apply Rmult_le_compat_l with (r := exp (/ 16)) in Q; [|lra]. rewrite Rinv_r in Q by lra. lra. }
  apply Rle_lt_trans with ((16 / 15) ^ 32); [apply pow_incr; pose proof (exp_pos (/ 16)); lra|].
  assert (E : 16 / 15 * 15 = 16) by lra.
  assert (E2 : (16 / 15) ^ 32 * 15 ^ 32 = 16 ^ 32) by (rewrite <- Rpow_mult_distr, E; reflexivity).
  rewrite !pow_IZR in E2. assert (Q : IZR (16 ^ 32) < IZR (8 * 15 ^ 32)) by (apply IZR_lt; vm_compute; reflexivity).
  rewrite mult_IZR in Q. assert (P : 0 < IZR (15 ^ 32)) by (apply IZR_lt; vm_compute; reflexivity).
  change (Z.of_nat 32) with 32%Z in E2. nra.
Qed.
Lemma exp2_gt_7 : 7 < exp 2.
Proof.
  rewrite (exp_pow 63 2). replace (2 / INR 64) with (/ 32) by (cbn; lra).
  assert (H : 33 / 32 <= exp (/ 32)) by (pose proof (exp_ineq1_le (/ 32)); lra).
  apply Rlt_le_trans with ((33 / 32) ^ 64); [|apply pow_incr; lra].
  assert (E : 33 / 32 * 32 = 33) by lra.
  assert (E2 : (33 / 32) ^ 64 * 32 ^ 64 = 33 ^ 64) by (rewrite <- Rpow_mult_distr, E; reflexivity).
  rewrite !pow_IZR in E2. assert (Q : IZR (7 * 32 ^ 64) < IZR (33 ^ 64)) by (apply IZR_lt; vm_compute; reflexivity).
  rewrite mult_IZR in Q. assert (P : 0 < IZR (32 ^ 64)) by (apply IZR_lt; vm_compute; reflexivity).
  change (Z.of_nat 64) with 64%Z in E2. nra.
Qed.

Lemma pen_aic_p : penalised Aic (fun k _ => pen_aic k). Proof. apply pen_of. intros. apply aic_xr; auto. Qed.
Lemma pen_aicc_p : penalised Aicc pen_aicc. Proof. apply pen_of. intros. apply aicc_xr; auto. Qed.
Lemma pen_bic_p : penalised Bic pen_bic. Proof. apply pen_of. intros. apply bic_xr; auto. Qed.

(** ** C94 *)

(** Corrected AIC never selects more features than AIC. *)
Theorem C94_aicc_aic : forall svd X x y ma mc,
  rmat X x -> (0 < mrows X)%nat -> length y = mrows X -> good_svd svd X -> no_exact_fit (mrows X) (mcols X) x y ->
  selects svd Aic X (fins y) ma -> selects svd Aicc X (fins y) mc ->
  (NumFeatures mc <= NumFeatures ma)%nat.
Proof.
  intros svd X x y ma mc HX Hr Hy Hg Hne Ha Hc.
  apply (stricter svd X x y Aic Aicc _ _ ma mc HX Hr Hy Hg Hne pen_aic_p pen_aicc_p); auto.
  intros k k' H. apply corr_strict; auto.
Qed.
Print Assumptions C94_aicc_aic.

(** BIC does not either, with at least eight rows; with fewer it is the other
    way round. *)
Theorem C94_bic_aic : forall svd X x y ma mb,
  rmat X x -> (0 < mrows X)%nat -> length y = mrows X -> good_svd svd X -> no_exact_fit (mrows X) (mcols X) x y ->
  selects svd Aic X (fins y) ma -> selects svd Bic X (fins y) mb ->
  ((8 <= mrows X)%nat -> (NumFeatures mb <= NumFeatures ma)%nat) /\
  ((mrows X <= 7)%nat -> (NumFeatures ma <= NumFeatures mb)%nat).
Proof.
  intros svd X x y ma mb HX Hr Hy Hg Hne Ha Hb. split; intro H8.
  - apply (stricter svd X x y Aic Bic _ _ ma mb HX Hr Hy Hg Hne pen_aic_p pen_bic_p); auto.
    intros k k' H. unfold pen_bic, pen_aic. assert (K : IZR k < IZR k') by (apply IZR_lt; lia).
    assert (L : 2 < ln (IZR (Z.of_nat (mrows X)))).
    { rewrite <- (ln_exp 2). apply ln_increasing; [apply exp_pos|]. apply Rlt_le_trans with 8; [apply exp2_lt_8|]. apply (IZR_le 8). lia. }
    nra.
  - apply (stricter svd X x y Bic Aic _ _ mb ma HX Hr Hy Hg Hne pen_bic_p pen_aic_p); auto.
    intros k k' H. unfold pen_bic, pen_aic. assert (K : IZR k < IZR k') by (apply IZR_lt; lia).
    assert (L : ln (IZR (Z.of_nat (mrows X))) < 2).
    { rewrite <- (ln_exp 2). apply ln_increasing; [apply (IZR_lt 0); lia|]. apply Rle_lt_trans with 7; [|apply exp2_gt_7]. apply (IZR_le _ 7). lia. }
    nra.
Qed.
Print Assumptions C94_bic_aic.

(** So the best model BruteForceSelect lists (corrected AIC) has at most as many
    features as one that is best by AIC. *)
Theorem C94_brute_force : forall svd X x y fit bnd maxq cutoff fuel ma,
  rmat X x -> (0 < mrows X)%nat -> length y = mrows X -> good_svd svd X -> no_exact_fit (mrows X) (mcols X) x y ->
  scored svd X y fit -> (1 <= mcols X)%nat -> (2 ^ S (mcols X) - 1 <= fuel)%nat ->
  selects svd Aic X (fins y) ma ->
  exists h n t, BruteForceSelect (mkProblem (mrows X) (mcols X) fit bnd (repeat false (mcols X)) maxq cutoff) fuel = Ok h /\
    hsItems h = n :: t /\ selects svd Aicc X (fins y) (ndModel n) /\ (NumFeatures (ndModel n) <= NumFeatures ma)%nat.
Proof.
  intros svd X x y fit bnd maxq cutoff fuel ma HX Hr Hy Hg Hne Hf H1 Hfu Ha.
  assert (V : forall m, length m = mcols X -> In true m -> exists r, 0 < r /\
    snd (fit m) = fin (- (pen_aicc (Z.of_nat (NumFeatures m)) (Z.of_nat (mrows X)) + IZR (Z.of_nat (mrows X)) * ln r)) /\
    criterion svd Aicc X (fins y) m = Ok (fin (pen_aicc (Z.of_nat (NumFeatures m)) (Z.of_nat (mrows X)) + IZR (Z.of_nat (mrows X)) * ln r))).
  { intros m Lm Tm.
    destruct (model_fit svd X x y HX Hr Hy Hg m Lm ltac:(apply nonempty_nf; auto)) as (D & w & r & E1 & E2 & E3 & Lw & Er & _).
    exists r. assert (P : 0 < r) by (rewrite Er; apply (no_exact_rss _ (mcols X)); auto). split; [auto|].
    pose proof (Hf m Lm Tm) as E. unfold fit_score in E. unfold criterion. rewrite E1 in *. cbn [bind] in *. rewrite E2 in *. cbn [bind] in *.
    rewrite E3 in *. cbn [bind] in *.
    assert (E' : snd (fit m) = nneg (n := XR) (Aicc (Z.of_nat (NumFeatures m)) (Z.of_nat (mrows X)) (fin r)))
      by exact (eq_sym (f_equal (fun z => match z with Ok v => snd v | _ => XNaN end) E)).
    replace (length (fins y)) with (mrows X) by (unfold fins; rewrite map_length; auto).
    assert (Z1 : (1 <= Z.of_nat (mrows X))%Z) by lia. rewrite E', (pen_aicc_p _ _ _ Z1 P). split; [|reflexivity]. apply xneg_fin. }
  destruct (brute_all XR (mkProblem (mrows X) (mcols X) fit bnd (repeat false (mcols X)) maxq cutoff) XR_OrdLaws H1 eq_refl) with (fuel := fuel)
    as (h & E & _ & _ & A3 & A4 & A5 & A6 & A7 & A8); auto.
  { intros m Lm Fm. destruct (V m Lm) as (r & _ & E & _); [apply nonempty_nf; auto|]. cbn [pFit]. rewrite E. reflexivity. }
  cbn [pCols pFit] in *. destruct (hsItems h) as [|n t] eqn:Eh.
  { destruct A8 as (m & Lm & Fm & _). destruct (proj2 (A4 m) (conj Lm Fm)). }
  exists h, n, t. split; [exact E|]. split; [exact Eh|].
  assert (Sn : selects svd Aicc X (fins y) (ndModel n)).
  { destruct (proj1 (A4 (ndModel n)) (or_introl eq_refl)) as (Ln & Fn). apply nonempty_nf in Fn.
    destruct (V _ Ln Fn) as (r & _ & En & Cn). split; [exact Ln|]. split; [exact Fn|]. eexists. split; [exact Cn|].
    intros m' v' Lm Tm Cm. destruct (V m' Lm Tm) as (r' & _ & Em & Cm').
    assert (Ev : v' = fin (pen_aicc (Z.of_nat (NumFeatures m')) (Z.of_nat (mrows X)) + IZR (Z.of_nat (mrows X)) * ln r')) by congruence.
    rewrite Ev. apply xle_fin. pose proof (A7 m' Lm ltac:(apply nonempty_nf; auto)) as Q. unfold hsBestScore in Q. rewrite Eh in Q.
    pose proof (f_equal snd (A5 n (or_introl eq_refl))) as Sc. cbn [snd] in Sc. rewrite Sc, En, Em in Q. apply Rltb_false in Q. lra. }
  split; [exact Sn|]. exact (C94_aicc_aic svd X x y ma (ndModel n) HX Hr Hy Hg Hne Ha Sn).
Qed.
Print Assumptions C94_brute_force.

(** three rows, two unit columns, target (2, 5, 1): the residual is 1 with both
    features, 5 with the second and 26 with the first.  AIC selects both, the
    corrected AIC the second only. *)
Example C94_example : no_exact_fit 3 2 delta [2; 5; 1] /\
  selects svd_orth Aic (eye 3 2) (fins [2; 5; 1]) [true; true] /\
  selects svd_orth Aicc (eye 3 2) (fins [2; 5; 1]) [false; true].
Proof.
  split; [intro b; exists 2%nat; split; [lia|]; cbn; unfold delta; cbn; lra|].
  assert (HG : good_svd svd_orth (eye 3 2)) by (apply eye_good; lia).
  assert (HR : rmat (eye 3 2) delta) by (intros i j _ _; reflexivity).
  assert (V : forall c pen m, penalised c pen -> length m = 2%nat -> In true m ->
    exists r, (m = [true; true] -> r = 1) /\ (m = [true; false] -> r = 26) /\ (m = [false; true] -> r = 5) /\
    criterion svd_orth c (eye 3 2) (fins [2; 5; 1]) m = Ok (fin (pen (Z.of_nat (NumFeatures m)) 3%Z + 3 * ln r))).
  { intros c pen m Hc Lm Tm.
    destruct (model_fit svd_orth (eye 3 2) delta [2; 5; 1] HR ltac:(cbn; lia) eq_refl HG m Lm ltac:(apply nonempty_nf; auto))
      as (D & w & r & E1 & E2 & E3 & Lw & Er & Pr & Mr & _).
    exists r. destruct m as [|a [|b [|]]]; try discriminate Lm.
    assert (Q : 0 < r /\ ([a; b] = [true; true] -> r = 1) /\ ([a; b] = [true; false] -> r = 26) /\ ([a; b] = [false; true] -> r = 5)).
    { destruct a, b; cbn in Tm; try (exfalso; intuition congruence); cbn in Lw.
      - destruct w as [|w1 [|w2 [|]]]; try discriminate Lw.
        assert (r = 1); [|split; [lra|]; split; [auto|split; intro C; discriminate C]].
        apply Rle_antisym; [eapply Rle_trans; [apply (Mr [2; 5] eq_refl)|]|rewrite Er]; clear - w1 w2;
          pose proof (Rle_0_sqr (w1 - 2)); pose proof (Rle_0_sqr (w2 - 5));
          unfold rss; cbn; unfold sub, selcol, delta, Rsqr in *; cbn; change (Pos.to_nat 1) with 1%nat; cbn; lra.
      - destruct w as [|w1 [|]]; try discriminate Lw.
        assert (r = 26); [|split; [lra|]; split; [intro C; discriminate C|split; [auto|intro C; discriminate C]]].
        apply Rle_antisym; [eapply Rle_trans; [apply (Mr [2] eq_refl)|]|rewrite Er]; clear - w1;
          pose proof (Rle_0_sqr (w1 - 2));
          unfold rss; cbn; unfold sub, selcol, delta, Rsqr in *; cbn; change (Pos.to_nat 1) with 1%nat; cbn; lra.
      - destruct w as [|w1 [|]]; try discriminate Lw.
        assert (r = 5); [|split; [lra|]; split; [intro C; discriminate C|split; [intro C; discriminate C|auto]]].
        apply Rle_antisym; [eapply Rle_trans; [apply (Mr [5] eq_refl)|]|rewrite Er]; clear - w1;
          pose proof (Rle_0_sqr (w1 - 5));
          unfold rss; cbn; unfold sub, selcol, delta, Rsqr in *; cbn; change (Pos.to_nat 1) with 1%nat; cbn; lra. }
    destruct Q as (Q0 & Q1 & Q2 & Q3). split; [auto|]. split; [auto|]. split; [auto|].
    unfold criterion. rewrite E1. cbn [bind]. rewrite E2. cbn [bind]. rewrite E3. cbn [bind].
    change (Z.of_nat (length (fins [2; 5; 1]))) with 3%Z. rewrite (Hc _ 3%Z r ltac:(lia) Q0). reflexivity. }
  assert (L5 : 1 <= ln 5 <= 2).
  { split; [rewrite <- (ln_exp 1) at 1|rewrite <- (ln_exp 2)]; apply ln_mono; try apply exp_pos; try lra.
    - pose proof exp_le_3. lra.
    - pose proof exp2_gt_7. lra. }
  assert (L26 : ln 5 <= ln 26) by (apply ln_mono; lra). pose proof ln_1 as L1.
  assert (S : forall c pen m v, penalised c pen -> length m = 2%nat -> In true m -> (forall m' r', length m' = 2%nat -> In true m' -> (m' = [true; true] -> r' = 1) -> (m' = [true; false] -> r' = 26) -> (m' = [false; true] -> r' = 5) ->
        v <= pen (Z.of_nat (NumFeatures m')) 3%Z + 3 * ln r') ->
      criterion svd_orth c (eye 3 2) (fins [2; 5; 1]) m = Ok (fin v) -> selects svd_orth c (eye 3 2) (fins [2; 5; 1]) m).
  { intros c pen m v Hc Lm Tm HM Hv. split; [exact Lm|]. split; [exact Tm|]. exists (fin v). split; [exact Hv|].
    intros m' v' Lm' Tm' Cm'. destruct (V c pen m' Hc Lm' Tm') as (r' & R1 & R2 & R3 & C').
    assert (Ev : v' = fin (pen (Z.of_nat (NumFeatures m')) 3%Z + 3 * ln r')) by congruence. rewrite Ev. apply xle_fin. apply HM; auto. }
  assert (P1 : pen_aicc 1 3 = 6) by (unfold pen_aicc; cbn; lra).
  assert (P2 : pen_aicc 2 3 = 16) by (unfold pen_aicc; cbn; lra).
  assert (G : forall (f : Z -> R) v, v <= f 2%Z + 3 * ln 1 -> v <= f 1%Z + 3 * ln 26 -> v <= f 1%Z + 3 * ln 5 ->
    forall m' r', length m' = 2%nat -> In true m' -> (m' = [true; true] -> r' = 1) -> (m' = [true; false] -> r' = 26) -> (m' = [false; true] -> r' = 5) ->
        v <= f (Z.of_nat (NumFeatures m')) + 3 * ln r').
  { intros f v H1 H2 H3 m' r' Lm Tm R1 R2 R3. destruct m' as [|a [|b [|]]]; try discriminate Lm.
    destruct a, b; cbn in Tm; try (exfalso; intuition congruence); [rewrite (R1 eq_refl)|rewrite (R2 eq_refl)|rewrite (R3 eq_refl)]; assumption. }
  split.
  - destruct (V Aic _ [true; true] pen_aic_p eq_refl ltac:(cbn; auto)) as (r & R1 & _ & _ & C). rewrite (R1 eq_refl) in C.
    refine (S Aic _ [true; true] _ pen_aic_p eq_refl ltac:(cbn; auto) _ C).
    apply (G (fun k => pen_aic k)); unfold pen_aic; cbn; lra.
  - destruct (V Aicc _ [false; true] pen_aicc_p eq_refl ltac:(cbn; auto)) as (r & _ & _ & R3 & C). rewrite (R3 eq_refl) in C.
    refine (S Aicc _ [false; true] _ pen_aicc_p eq_refl ltac:(cbn; auto) _ C).
    apply (G (fun k => pen_aicc k 3)); change (Z.of_nat (NumFeatures [false; true])) with 1%Z; rewrite ?P1, ?P2; lra.
Qed.

(** "Corrected AIC never selects more features than AIC" fails when the target
    is fitted exactly: every model that does has the criterion -Inf. *)
Theorem C94_exact_fit_refuted : exists svd (X : Mat XR) y ma mc,
  good_svd svd X /\ length y = mrows X /\ selects svd Aic X (fins y) ma /\ selects svd Aicc X (fins y) mc /\
  (NumFeatures ma < NumFeatures mc)%nat.
Proof.
  assert (HG : good_svd svd_orth (eye 3 2)) by (apply eye_good; lia).
  assert (HR : rmat (eye 3 2) delta) by (intros i j _ _; reflexivity).
  assert (V : forall m c pen, (forall k n r, (1 <= n)%Z -> 0 <= r -> c k n (fin r) = nadd (n := XR) (fin (pen k n)) (nlogr n r)) ->
    length m = 2%nat -> In true m -> (m = [true; false] \/ m = [true; true]) ->
      criterion svd_orth c (eye 3 2) (fins [1; 0; 0]) m = Ok XNInf).
  { intros m c pen Hc Lm Tm Hm.
    destruct (model_fit svd_orth (eye 3 2) delta [1; 0; 0] HR ltac:(cbn; lia) eq_refl HG m Lm ltac:(apply nonempty_nf; auto))
      as (D & w & r & E1 & E2 & E3 & Lw & Er & Pr & Mr & _).
    assert (Z : r = 0).
    { apply Rle_antisym; auto. destruct Hm as [-> | ->];
        [eapply Rle_trans; [apply (Mr [1] eq_refl)|]|eapply Rle_trans; [apply (Mr [1; 0] eq_refl)|]];
        clear; unfold rss; cbn; unfold sub, selcol, delta, Rsqr; cbn; change (Pos.to_nat 1) with 1%nat; cbn; lra. }
    unfold criterion. rewrite E1. cbn [bind]. rewrite E2. cbn [bind]. rewrite E3. cbn [bind]. rewrite Z.
    rewrite Hc by (cbn; lia || lra). unfold nlogr. rewrite (proj2 (Rltb_false 0 0)) by lra. reflexivity. }
  assert (NN : forall c pen m v, (forall k n r, (1 <= n)%Z -> 0 <= r -> c k n (fin r) = nadd (n := XR) (fin (pen k n)) (nlogr n r)) ->
    length m = 2%nat -> In true m -> criterion svd_orth c (eye 3 2) (fins [1; 0; 0]) m = Ok v -> nleb (XNInf : XR) v = true).
  { intros c pen m v Hc Lm Tm Cm.
    destruct (model_fit svd_orth (eye 3 2) delta [1; 0; 0] HR ltac:(cbn; lia) eq_refl HG m Lm ltac:(apply nonempty_nf; auto))
      as (D & w & r & E1 & E2 & E3 & Lw & Er & Pr & Mr & _).
    unfold criterion in Cm. rewrite E1 in Cm. cbn [bind] in Cm. rewrite E2 in Cm. cbn [bind] in Cm. rewrite E3 in Cm. cbn [bind] in Cm.
    rewrite Hc in Cm by (cbn; lia || lra). unfold nlogr in Cm.
    destruct (Rltb 0 r); (assert (Ev : v = nadd (n := XR) (fin (pen (Z.of_nat (NumFeatures m)) 3%Z)) (fin (IZR 3 * ln r)) \/ v = XNInf) by (cbn in Cm |- *; (left; congruence) || (right; congruence)));
      destruct Ev as [-> | ->]; try rewrite xadd_fin; reflexivity. }
  exists svd_orth, (eye 3 2), [1; 0; 0], [true; false], [true; true]. split; [auto|]. split; [reflexivity|].
  split; [|split; [|cbn; lia]].
  - split; [reflexivity|]. split; [cbn; auto|]. eexists. split; [apply (V _ Aic (fun k _ => pen_aic k)); cbn; auto; intros; apply aic_xr; auto|].
    intros m' v' Lm Tm Cm. apply (NN Aic (fun k _ => pen_aic k) m'); auto. intros; apply aic_xr; auto.
  - split; [reflexivity|]. split; [cbn; auto|]. eexists. split; [apply (V _ Aicc pen_aicc); cbn; auto; intros; apply aicc_xr; auto|].
    intros m' v' Lm Tm Cm. apply (NN Aicc pen_aicc m'); auto. intros; apply aicc_xr; auto.
Qed.
Print Assumptions C94_exact_fit_refuted.

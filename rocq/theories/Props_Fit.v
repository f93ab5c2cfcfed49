(** Properties C11 (information criteria), C12 (least squares), C13 (bounds),
    C38 (pseudo-inverses) and C59 (hat matrix and Gcv), in exact arithmetic.
    [fin r] is the finite number r, [fins] a list of them; [exact_svd], [rss],
    [no_tiny] and [norm2] are defined in Spec_Fit.v. *)
From Coq Require Import Reals Lra Psatz.
From Verif Require Import Base Num Mat RSum Model_Node Model_Util Model_Fit Spec_Fit.
From Verif Require Import Proof_Node Proof_Node2 Proof_Models Proof_Util Proof_XR Proof_Norm.
From Verif Require Import Proof_Fit Proof_Fit2 Proof_Fit3.
Open Scope R_scope.

(** ** C11 *)
(** the textbook formulas; for AICC with k < n - 1 *)
Theorem C11_textbook : forall k n r, (0 <= k)%Z -> (1 <= n)%Z -> 0 < r ->
  Aic (N := XR) k n (XFin r) = XFin (2 * IZR k + IZR n * ln r) /\
  Bic (N := XR) k n (XFin r) = XFin (IZR k * ln (IZR n) + IZR n * ln r) /\
  ((k < n - 1)%Z -> Aicc (N := XR) k n (XFin r) =
     XFin (2 * IZR k + IZR n * ln r + 2 * IZR k * (IZR k + 1) / (IZR n - IZR k - 1))) /\
  ((n - 1 <= k)%Z -> Aicc (N := XR) k n (XFin r) =
     XFin (2 * IZR k + IZR n * ln r + 2 * IZR k * (IZR k + 1))).
Proof.
  intros k n r Hk Hn Hr.
  assert (E : nlogr n r = fin (IZR n * ln r)) by (unfold nlogr; rewrite (proj2 (Rltb_true 0 r) Hr); auto).
  change (XFin r) with (fin r).
  rewrite aic_xr, bic_xr, aicc_xr, E by (auto; lra). rewrite !xadd_fin. unfold fin.
  split; [reflexivity|]. split; [reflexivity|]. unfold pen_aicc.
  rewrite plus_IZR, !mult_IZR. split; intro H.
  - destruct (Z.leb_spec (n - 1) k); [lia|]. rewrite !minus_IZR. f_equal. apply IZR_lt in H.
    rewrite minus_IZR in H. field. lra.
  - destruct (Z.leb_spec (n - 1) k); [|lia]. f_equal. field.
Qed.
Print Assumptions C11_textbook.

Theorem C11_monotone : forall k k' n r r', (0 <= k <= k')%Z -> (1 <= n)%Z -> 0 <= r <= r' ->
  nleb (Aic (N := XR) k n (XFin r)) (Aic (N := XR) k' n (XFin r')) = true /\
  nleb (Aicc (N := XR) k n (XFin r)) (Aicc (N := XR) k' n (XFin r')) = true /\
  nleb (Bic (N := XR) k n (XFin r)) (Bic (N := XR) k' n (XFin r')) = true.
Proof.
  intros k k' n r r' Hk Hn Hr.
  split; [exact (aic_mono k k' n r r' Hk Hn Hr)|]. split; [exact (aicc_mono k k' n r r' Hk Hn Hr)|].
  exact (bic_mono k k' n r r' Hk Hn Hr).
Qed.
Print Assumptions C11_monotone.

Theorem C11_aicc_above_aic : forall k n r, (0 <= k)%Z -> (1 <= n)%Z -> 0 <= r ->
  nleb (Aic (N := XR) k n (XFin r)) (Aicc (N := XR) k n (XFin r)) = true.
Proof.
  intros k n r Hk Hn Hr. change (XFin r) with (fin r). rewrite aic_xr, aicc_xr by auto.
  apply pen_mono; auto; [apply pen_aicc_ge; auto|lra].
Qed.
Print Assumptions C11_aicc_above_aic.

Theorem C11_zero_residual : forall k n, (1 <= n)%Z ->
  Aic (N := XR) k n (XFin 0) = XNInf /\ Aicc (N := XR) k n (XFin 0) = XNInf /\
  Bic (N := XR) k n (XFin 0) = XNInf.
Proof.
  intros k n Hn. change (XFin 0) with (fin 0). rewrite aic_xr, aicc_xr, bic_xr by (auto; lra).
  unfold nlogr. rewrite (proj2 (Rltb_false 0 0)) by lra. auto.
Qed.
Print Assumptions C11_zero_residual.

(** Bic without data points: 0 * log 0 is NaN for the penalty of an empty model *)
Example C11_example :
  Aicc (N := XR) 2 10 (XFin 3) = XFin (2 * 2 + 10 * ln 3 + 2 * 2 * (2 + 1) / (10 - 2 - 1)) /\
  nleb (Aicc (N := XR) 2 10 (XFin 3)) (Aicc (N := XR) 9 10 (XFin 4)) = true /\
  Bic (N := XR) 0 0 (XFin 1) = XNaN.
Proof.
  split; [|split].
  - apply (C11_textbook 2 10 3); try lia. lra.
  - apply (C11_monotone 2 9 10 3 4); try lia. lra.
  - unfold Bic. cbn [nadd nmul nlog nofZ XR]. unfold xlog. rewrite (proj2 (Rltb_false 0 0)) by lra.
    unfold xmul, xsgn. rewrite ?(proj2 (Rltb_false 0 0)) by lra. reflexivity.
Qed.

(** ** C12 *)
Theorem C12_least_squares : forall svd X A y,
  rmat X A -> exact_svd X (svd X) -> no_tiny (/ 1000000) (svd X) ->
  (0 < mrows X)%nat -> length y = mrows X ->
  exists w r, Fit svd X (fins y) = Ok (fins w) /\ length w = mcols X /\
    Rss X (fins w) (fins y) = Ok (fin r) /\ r = rss (mrows X) (mcols X) A w y /\
    (* no coefficient vector does better *)
    (forall w', length w' = mcols X -> exists r', Rss X (fins w') (fins y) = Ok (fin r') /\
       r' = rss (mrows X) (mcols X) A w' y /\ r <= r' /\
       (* and of those that do as well, this one is the shortest *)
       (r' = r -> norm2 w <= norm2 w')) /\
    (* the residual is orthogonal to every column *)
    (forall j, (j < mcols X)%nat ->
       rsum (mrows X) (fun i => A i j * (nth i y 0 - rsum (mcols X) (fun j => A i j * nth j w 0))) = 0).
Proof.
  intros svd X A y HA HS Ht Hm Hy.
  destruct (fit_min svd X A y HA HS Ht Hm Hy) as (w & EF & Lw & ER & NE & HM).
  destruct (fit_min_norm svd X A y HA HS Ht Hm Hy) as (w2 & EF2 & HN).
  assert (w2 = w).
  { rewrite EF in EF2. injection EF2 as E. clear -E. revert w2 E.
    induction w as [|a w IH]; intros [|b l] E; cbn in E; try discriminate; auto.
    injection E as -> E. f_equal. auto. }
  subst w2.
  exists w, (rss (mrows X) (mcols X) A w y). split; auto. split; auto. split; auto. split; auto. split; auto.
  intros w' Lw'. exists (rss (mrows X) (mcols X) A w' y). split; [apply rss_xr; auto|]. split; auto.
  split; [|intro E; apply HN; auto; lra].
  rewrite (HM w' Lw').
  assert (0 <= rsum (mrows X) (fun i => Rsqr (rsum (mcols X) (fun j => A i j * (nth j w' 0 - nth j w 0))))).
  { apply rsum_nonneg. intros; apply Rle_0_sqr. } lra.
Qed.
Print Assumptions C12_least_squares.

(** a mismatch panics whatever the decomposition does *)
Theorem C12_mismatch_panics : forall (N : Num) svd (X : Mat N) y,
  mrows X <> length y -> Fit svd X y = Panic.
Proof.
  intros N svd X y H. unfold Fit. apply Nat.eqb_neq in H. rewrite H. reflexivity.
Qed.
Print Assumptions C12_mismatch_panics.

(** PredictOne on a row of the matrix gives the entry of Predict, the scalar
    product with the coefficients; coefficients in excess are ignored, and it
    panics when there are too few. *)
Theorem C12_predict_one :
  (forall x c : list R, (length x <= length c)%nat ->
     PredictOne (N := XR) (fins x) (fins c) = Ok (fin (rsum (length x) (fun i => nth i x 0 * nth i c 0)))) /\
  (forall X A w, rmat X A -> (0 < mrows X)%nat -> length w = mcols X ->
     exists p, Predict X (fins w) = Ok p /\ length p = mrows X /\
       forall i, (i < mrows X)%nat -> exists v, nth_error p i = Some v /\
         PredictOne (map (mval X i) (seq 0 (mcols X))) (fins w) = Ok v) /\
  (forall (N : Num) (x c : list N), (length c < length x)%nat -> PredictOne x c = Panic).
Proof.
  assert (G : forall x c : list R, (length x <= length c)%nat ->
     PredictOne (N := XR) (fins x) (fins c) = Ok (fin (rsum (length x) (fun i => nth i x 0 * nth i c 0)))).
  { intros x c H. unfold PredictOne. rewrite fins_length.
    destruct (for_loop_inv _ (fun k r => r = fin (rsum k (fun i => nth i x 0 * nth i c 0)))
      (fun i r => do a <- getn (fins x) i; do b <- getn (fins c) i; Ok (r + a * b)%num) (length x) 0 (n0 : XR)) as (r & E & ->).
    - reflexivity.
    - intros i r Hi ->. rewrite !getn_fins by lia. cbn [bind]. rewrite xmul_fin, xadd_fin. eexists. split; [reflexivity|]. reflexivity.
    - exact E. }
  split; [exact G|]. split.
  - intros X A w HA Hr Hw. unfold Predict. destruct (Nat.eqb_spec (mrows X) 0); [lia|].
    rewrite (mat_mulvec_fin X A w HA) by lia. eexists. split; [reflexivity|].
    rewrite fins_length, map_length, seq_length. split; [reflexivity|]. intros i Hi.
    exists (fin (rsum (mcols X) (fun k => A i k * nth k w 0))). split.
    + unfold fins. rewrite map_map. rewrite (nth_error_nth' _ (fin 0)) by (rewrite map_length, seq_length; exact Hi).
      f_equal. rewrite nth_map_seq by exact Hi. reflexivity.
    + replace (map (mval X i) (seq 0 (mcols X))) with (fins (map (A i) (seq 0 (mcols X)))).
      * rewrite G by (rewrite map_length, seq_length; lia). rewrite map_length, seq_length. f_equal. f_equal.
        apply rsum_ext. intros k Hk. rewrite nth_map_seq by exact Hk. reflexivity.
      * unfold fins. rewrite map_map. apply map_ext_in. intros k Hk. apply in_seq in Hk. symmetry. apply HA; lia.
  - intros N x c H. unfold PredictOne.
    assert (P : forall k r, exists r', for_loop 0 k (fun i r => do a <- getn x i; do b <- getn c i; Ok (r + a * b)%num) r = r' /\
      ((length c < k)%nat -> (k <= length x)%nat -> r' = Panic)); [|destruct (P (length x) n0) as (r' & -> & H'); apply H'; lia].
    intros k r. eexists. split; [reflexivity|]. intros H1 H2.
    replace k with (length c + (k - length c))%nat by lia. rewrite for_loop_add.
    destruct (for_loop_inv _ (fun _ _ => True) (fun i r => do a <- getn x i; do b <- getn c i; Ok (r + a * b)%num) (length c) 0 r I) as (r1 & E & _).
    + intros i s Hi _. unfold getn. destruct (nth_error x i) eqn:E1; [|apply nth_error_None in E1; lia].
      destruct (nth_error c i) eqn:E2; [|apply nth_error_None in E2; lia]. cbn. eauto.
    + rewrite E. cbn [bind Nat.add]. destruct (k - length c)%nat as [|j] eqn:Ej; [lia|]. cbn [for_loop].
      unfold getn at 1. destruct (nth_error x (length c)) eqn:E1; [|apply nth_error_None in E1; lia]. cbn [bind].
      unfold getn. rewrite (proj2 (nth_error_None c (length c))) by lia. reflexivity.
Qed.
Print Assumptions C12_predict_one.

Example C12_predict_one_example : PredictOne (N := XR) (fins [1; 2]) (fins [3; 4; 5]) = Ok (fin 11).
Proof. rewrite (proj1 C12_predict_one) by (cbn; lia). f_equal. apply (f_equal fin). cbn. ring. Qed.

Lemma in_1 : forall (P : R -> Prop) a, P a -> forall x, In (fin x) (fins [a]) -> P x.
Proof. intros P a H x [E|[]]. injection E as <-. auto. Qed.

(** a matrix with one column: X = |x| (x/|x|) 1 *)
Lemma svd_col_exact : forall (l : list R) s, 0 < s -> lsum (map Rsqr l) = s * s ->
  exact_svd (mkMat (N := XR) (length l) 1 (fun i _ => fin (nth i l 0)))
    (mkSVD (fins [s]) (mkMat (N := XR) (length l) 1 (fun i _ => fin (nth i l 0 / s))) (mkMat 1 1 (fun _ _ => fin 1))).
Proof.
  intros l s Hs E. exists (fun i _ => nth i l 0), (fun i _ => nth i l 0 / s), (fun _ _ => 1), [s].
  cbn [svS svU svV mrows mcols length].
  split; [intros i j Hi Hj; reflexivity|]. do 3 (split; [reflexivity|]).
  split; [intros i j Hi Hj; reflexivity|]. do 2 (split; [reflexivity|]).
  split; [intros i j Hi Hj; reflexivity|].
  split; [|split; [|split]].
  - intros a b Ha Hb. assert (a = O) by lia. assert (b = O) by lia. subst. rewrite delta_same.
    rewrite (rsum_ext _ _ (fun i => nth i (map Rsqr l) 0 * (/ s * / s))).
    + rewrite rsum_scal_r. rewrite <- (map_length Rsqr l), <- lsum_rsum, E. field. lra.
    + intros i Hi. rewrite (nth_map_lt _ _ Rsqr l i 0) by auto. unfold Rsqr, Rdiv. ring.
  - intros a b Ha Hb. assert (a = O) by lia. assert (b = O) by lia. subst. rewrite delta_same.
    cbn. ring.
  - intros x [<-|[]]. lra.
  - intros i j Hi Hj. cbn. field. lra.
Qed.

(** X = (3 4)^T, y = (1 2)^T *)
Definition x34 : Mat XR := mkMat (length [3; 4]) 1 (fun i _ => fin (nth i [3; 4] 0)).
Definition svd34 (X : Mat XR) : SVD XR :=
  mkSVD (fins [5]) (mkMat (length [3; 4]) 1 (fun i _ => fin (nth i [3; 4] 0 / 5))) (mkMat 1 1 (fun _ _ => fin 1)).

Example C12_example : exists w r, Fit svd34 x34 (fins [1; 2]) = Ok (fins [w]) /\
  Rss x34 (fins [w]) (fins [1; 2]) = Ok (fin r) /\ w = 11 / 25 /\
  forall w', exists r', Rss x34 (fins [w']) (fins [1; 2]) = Ok (fin r') /\ r <= r'.
Proof.
  destruct (C12_least_squares svd34 x34 (fun i _ => nth i [3; 4] 0) [1; 2]) as (w & r & E & L & ER & Er & HM & HN).
  - intros i j _ _. reflexivity.
  - apply svd_col_exact; [lra|]. cbn. unfold lsum, Rsqr. cbn. lra.
  - unfold no_tiny. apply in_1. lra.
  - cbn; lia.
  - reflexivity.
  - destruct w as [|w [|? ?]]; try discriminate L. exists w, r. split; auto. split; auto. split.
    + specialize (HN O ltac:(cbn; lia)). cbn in HN. lra.
    + intro w'. destruct (HM [w'] eq_refl) as (r' & E' & _ & H & _). eauto.
Qed.

(** A column of size 1e-7 is treated as zero: the fit leaves the whole residual
    although the data are fitted exactly by 1e7. *)
Theorem C12_tiny_singular_value_refuted : exists svd (X : Mat XR) w w',
  exact_svd X (svd X) /\ mrows X = 1%nat /\ mcols X = 1%nat /\
  Fit svd X [XFin 1] = Ok [w] /\
  Rss X [w] [XFin 1] = Ok (XFin 1) /\ Rss X [w'] [XFin 1] = Ok (XFin 0).
Proof.
  set (X := mkMat (N := XR) (length [/ 10000000]) 1 (fun i _ => fin (nth i [/ 10000000] 0))).
  set (f := mkSVD (fins [/ 10000000]) (mkMat (N := XR) (length [/ 10000000]) 1 (fun i _ => fin (nth i [/ 10000000] 0 / / 10000000)))
     (mkMat 1 1 (fun _ _ => fin 1))).
  assert (HS : exact_svd X f).
  { apply svd_col_exact; [lra|]. cbn. unfold lsum, Rsqr. cbn. lra. }
  exists (fun _ => f), X, (XFin 0), (XFin 10000000).
  split; auto. split; [reflexivity|]. split; [reflexivity|].
  assert (RS : forall w, Rss X [XFin w] [XFin 1] = Ok (XFin (Rsqr (w / 10000000 - 1)))).
  { intro w. change [XFin w] with (fins [w]). change [XFin 1] with (fins [1]).
    rewrite (rss_xr X (fun i _ => nth i [/ 10000000] 0)); try reflexivity.
    - unfold fin. do 2 f_equal. unfold rss. cbn. unfold Rsqr. field.
    - intros i j _ _. reflexivity.
    - cbn; lia. }
  split; [|split].
  - change [XFin 1] with (fins [1]). change [XFin 0] with (fins [0]).
    etransitivity; [apply (fit_xr X f (fun i _ => nth i [/ 10000000] 0 / / 10000000) (fun _ _ => 1) [/ 10000000] [1]);
      try reflexivity; try (intros i j _ _; reflexivity); cbn; lia|].
    cbn. unfold what, fins, cut. cbn. rewrite (proj2 (Rltb_false _ _)).
    + unfold fin. do 3 f_equal. ring.
    + rewrite Rabs_right; lra.
  - etransitivity; [apply RS|]. do 2 f_equal. unfold Rsqr. field.
  - etransitivity; [apply RS|]. do 2 f_equal. unfold Rsqr. field.
Qed.
Print Assumptions C12_tiny_singular_value_refuted.

(** ** C13.  [agree_upto k model m] (Proof_Models.v): m has the length of model
    and the same first k bits.  [criterion svd c X y m] (Spec_Fit.v): the
    criterion c of the least-squares fit on the columns of m.  [good_svd]: the
    decompositions are exact and without tiny singular values. *)
Theorem C13_bounds_enclose : forall svd X A y model start g,
  rmat X A -> (0 < mrows X)%nat -> length y = mrows X -> good_svd svd X ->
  length model = mcols X -> (0 <= start <= Z.of_nat (length model))%Z ->
  Gcs model start = Ok g -> (0 < NumFeatures g < mrows X)%nat ->
  lsum (map Rsqr y) <= IZR ((2 ^ 53 - 1) * 2 ^ 971) ->
  (exists lower upper, BoundsAIC svd model start X (fins y) = Ok (lower, upper) /\
    forall m, agree_upto (Z.to_nat start) model m -> In true m ->
      exists v, criterion svd Aic X (fins y) m = Ok v /\ nleb lower v = true /\ nleb v upper = true) /\
  (exists lower upper, BoundsAICC svd model start X (fins y) = Ok (lower, upper) /\
    forall m, agree_upto (Z.to_nat start) model m -> In true m ->
      exists v, criterion svd Aicc X (fins y) m = Ok v /\ nleb lower v = true /\ nleb v upper = true).
Proof.
  intros svd X A y model start g HA Hr Hy HS Hl Hst Hg Hgf Hmax.
  assert (NF : forall m, In true m -> (0 < NumFeatures m)%nat).
  { intros m H. rewrite nf_count. apply count_occ_In. auto. }
  split.
  - destruct (bounds_valid svd X A y HA Hr Hy HS Aic model start g aic_mono Hl Hst Hg ltac:(lia) Hmax)
      as (lo & up & E & H).
    exists lo, up. split; auto. intros m Hm Ht. destruct (H m Hm (NF m Ht)) as (v & Ev & Hu & Hlo & _).
    exists v. split; auto. split; auto. apply Hlo. lia.
  - destruct (bounds_valid svd X A y HA Hr Hy HS Aicc model start g aicc_mono Hl Hst Hg ltac:(lia) Hmax)
      as (lo & up & E & H).
    exists lo, up. split; auto. intros m Hm Ht. destruct (H m Hm (NF m Ht)) as (v & Ev & Hu & Hlo & _).
    exists v. split; auto. split; auto. apply Hlo. lia.
Qed.
Print Assumptions C13_bounds_enclose.

(** With any number of columns the upper value holds, and the lower value for
    every sub-model whose residual sum of squares is at least RssTol. *)
Theorem C13_saturated : forall svd X A y model start g,
  rmat X A -> (0 < mrows X)%nat -> length y = mrows X -> good_svd svd X ->
  length model = mcols X -> (0 <= start <= Z.of_nat (length model))%Z ->
  Gcs model start = Ok g -> (0 < NumFeatures g)%nat ->
  lsum (map Rsqr y) <= IZR ((2 ^ 53 - 1) * 2 ^ 971) ->
  exists lower upper, BoundsAICC svd model start X (fins y) = Ok (lower, upper) /\
    forall m, agree_upto (Z.to_nat start) model m -> In true m ->
      exists v, criterion svd Aicc X (fins y) m = Ok v /\ nleb v upper = true /\
        ((forall D w r, GetDesignMatrix m X = Ok D -> Fit svd D (fins y) = Ok w ->
            Rss D w (fins y) = Ok r -> nleb (n := XR) (XFin (/ 1000000000000)) r = true) -> nleb lower v = true).
Proof.
  intros svd X A y model start g HA Hr Hy HS Hl Hst Hg Hgf Hmax.
  destruct (bounds_valid svd X A y HA Hr Hy HS Aicc model start g aicc_mono Hl Hst Hg Hgf Hmax)
    as (lo & up & E & H).
  exists lo, up. split; auto. intros m Hm Ht.
  destruct (H m Hm ltac:(rewrite nf_count; apply count_occ_In; auto)) as (v & Ev & Hu & _ & Hlo).
  exists v. split; auto. split; auto. intro Q. apply Hlo. intros D w r E1 E2 E3.
  replace (RssTol (N := XR)) with (fin (/ 1000000000000)).
  - exact (Q D w r E1 E2 E3).
  - unfold RssTol. cbn. unfold xdec. cbn. unfold fin. f_equal. lra.
Qed.
Print Assumptions C13_saturated.

Lemma nth_repeat_lt : forall (a : R) n l d, (l < n)%nat -> nth l (repeat a n) d = a.
Proof. induction n as [|n IH]; intros [|l] d H; cbn; auto; try lia. apply IH; lia. Qed.

(** *** matrices with orthonormal columns: U = X, s = 1, V = identity *)
Definition svd_orth (X : Mat XR) : SVD XR :=
  mkSVD (fins (repeat 1 (mcols X))) X (mkMat (mcols X) (mcols X) (fun i j => fin (delta i j))).

Lemma svd_orth_exact : forall X A, rmat X A ->
  (forall a b, (a < mcols X)%nat -> (b < mcols X)%nat -> rsum (mrows X) (fun i => A i a * A i b) = delta a b) ->
  exact_svd X (svd_orth X) /\ no_tiny (/ 1000000) (svd_orth X).
Proof.
  intros X A HA HO. split.
  - exists A, A, delta, (repeat 1 (mcols X)). cbn [svd_orth svS svU svV mrows mcols]. rewrite !repeat_length.
    split; auto. do 3 (split; [reflexivity|]). split; auto. do 2 (split; [reflexivity|]).
    split; [intros i j Hi Hj; reflexivity|]. split; auto. split; [|split].
    + intros a b Ha Hb. rewrite (rsum_ext _ _ (fun j => delta a j * delta j b)) by (intros; rewrite (delta_sym i a); auto).
      apply (rsum_delta_l (mcols X) a (fun j => delta j b)); auto.
    + intros x Hx. apply repeat_spec in Hx. lra.
    + intros i j Hi Hj.
      rewrite (rsum_ext _ _ (fun l => delta j l * A i l)).
      * symmetry. apply (rsum_delta_l (mcols X) j (fun l => A i l)); auto.
      * intros l Hl. rewrite nth_repeat_lt by auto. ring.
  - intros x Hx. cbn [svd_orth svS] in Hx. apply in_map_iff in Hx. destruct Hx as (z & E & Hz).
    injection E as <-. apply repeat_spec in Hz. lra.
Qed.

Lemma selcol_inj : forall m a b, (a < NumFeatures m)%nat -> (b < NumFeatures m)%nat ->
  selcol m a = selcol m b -> a = b.
Proof.
  induction m as [|x m IH]; intros a b Ha Hb H; [cbn in Ha; lia|]. rewrite NumFeatures_cons in *. destruct x.
  - destruct a as [|a]; destruct b as [|b]; auto.
    + rewrite selcol_true_0, selcol_true_S in H by lia. discriminate.
    + rewrite selcol_true_0, selcol_true_S in H by lia. discriminate.
    + rewrite !selcol_true_S in H by lia. f_equal. apply IH; lia.
  - rewrite !selcol_false in H by lia. apply IH; lia.
Qed.

Lemma svd_orth_good : forall X A, rmat X A -> (0 < mrows X)%nat ->
  (forall a b, (a < mcols X)%nat -> (b < mcols X)%nat -> rsum (mrows X) (fun i => A i a * A i b) = delta a b) ->
  good_svd svd_orth X.
Proof.
  intros X A HA Hr HO m D Hl ED.
  assert (Hf : (0 < NumFeatures m)%nat).
  { destruct (Nat.eq_dec (NumFeatures m) 0) as [E|E]; [|lia]. unfold GetDesignMatrix in ED. rewrite E in ED. discriminate. }
  destruct (design_xr X A m HA Hr Hf ltac:(lia)) as (D' & ED' & RD & CD & QD).
  rewrite ED in ED'. injection ED' as <-.
  apply (svd_orth_exact D (sub A m) QD). rewrite RD, CD. intros a b Ha Hb. unfold sub.
  assert (S : forall k, (k < NumFeatures m)%nat -> (selcol m k < mcols X)%nat).
  { intros k Hk. destruct (nth_error_sel m k Hk) as (j & Ej & Hj & _). unfold selcol. rewrite Ej, Nat2Z.id. lia. }
  rewrite HO by auto. unfold delta.
  destruct (Nat.eqb_spec a b) as [->|N]; [rewrite Nat.eqb_refl; auto|].
  destruct (Nat.eqb_spec (selcol m a) (selcol m b)) as [E|E]; auto. apply selcol_inj in E; auto. contradiction.
Qed.

Definition eye (r c : nat) : Mat XR := mkMat r c (fun i j => fin (delta i j)).

Lemma eye_good : forall r c, (0 < r)%nat -> (c <= r)%nat -> good_svd svd_orth (eye r c).
Proof.
  intros r c Hr Hc. apply (svd_orth_good _ delta); auto.
  - intros i j _ _. reflexivity.
  - intros a b Ha Hb. cbn [eye mrows mcols] in *.
    rewrite (rsum_ext _ _ (fun i => delta a i * delta i b)) by (intros; rewrite (delta_sym i a); auto).
    apply (rsum_delta_l r a (fun i => delta i b)). lia.
Qed.

(** three rows, two unit columns, level 1: the sub-models are 10 and 11 *)
Example C13_example : exists lower upper v10 v11,
  BoundsAICC svd_orth [true; false] 1 (eye 3 2) (fins [1; 2; 4]) = Ok (lower, upper) /\
  criterion svd_orth Aicc (eye 3 2) (fins [1; 2; 4]) [true; false] = Ok v10 /\
  criterion svd_orth Aicc (eye 3 2) (fins [1; 2; 4]) [true; true] = Ok v11 /\
  nleb lower v10 = true /\ nleb v10 upper = true /\ nleb lower v11 = true /\ nleb v11 upper = true.
Proof.
  assert (HM : lsum (map Rsqr [1; 2; 4]) <= IZR ((2 ^ 53 - 1) * 2 ^ 971)).
  { apply Rle_trans with (IZR 1000).
    - unfold lsum, Rsqr. cbn [map fold_left]. lra.
    - apply IZR_le. apply Z.leb_le. vm_compute. reflexivity. }
  assert (HR : rmat (eye 3 2) delta) by (intros i j _ _; reflexivity).
  assert (HS : good_svd svd_orth (eye 3 2)) by (apply eye_good; lia).
  assert (HF : (0 < NumFeatures [true; true] < mrows (eye 3 2))%nat) by (cbn; lia).
  destruct (C13_bounds_enclose svd_orth (eye 3 2) delta [1; 2; 4] [true; false] 1 [true; true] HR
    ltac:(cbn [eye mrows]; lia) eq_refl HS eq_refl ltac:(cbn [length]; lia) eq_refl HF HM)
    as (_ & lo & up & E & H).
  destruct (H [true; false]) as (v & Ev & A1 & A2).
  { split; [reflexivity|]. intros i Hi. reflexivity. } { left; reflexivity. }
  destruct (H [true; true]) as (v' & Ev' & A1' & A2').
  { split; [reflexivity|]. intros [|[|i]] Hi; try reflexivity; cbn in Hi; lia. } { left; reflexivity. }
  exists lo, up, v, v'. repeat (split; auto).
Qed.

(** Two rows, two columns: the full model fits exactly (criterion -Inf), the
    lower value is computed from RssTol and is finite. *)
Theorem C13_saturated_refuted : exists svd (X : Mat XR) y model start g m lower upper v,
  good_svd svd X /\ length y = mrows X /\ length model = mcols X /\
  Gcs model start = Ok g /\ NumFeatures g = mrows X /\
  agree_upto (Z.to_nat start) model m /\ In true m /\
  BoundsAICC svd model start X y = Ok (lower, upper) /\ criterion svd Aicc X y m = Ok v /\
  nltb v lower = true.
Proof.
  assert (HG : good_svd svd_orth (eye 2 2)) by (apply eye_good; lia).
  assert (HR : rmat (eye 2 2) delta) by (intros i j _ _; reflexivity).
  destruct (model_fit svd_orth (eye 2 2) delta [1; 2] HR ltac:(cbn; lia) eq_refl HG [true; true] eq_refl ltac:(cbn; lia))
    as (D & w & r & ED & EF & ER & Lw & Er & Pr & Mr & Zr).
  assert (H : r = 0).
  { specialize (Mr [1; 2] eq_refl). clear - Mr Pr. apply Rle_antisym; [|exact Pr]. eapply Rle_trans; [exact Mr|].
    unfold rss. cbn. unfold sub, selcol, delta, Rsqr. cbn. change (Pos.to_nat 1) with 1%nat. cbn. lra. }
  clear Er Pr Mr Zr. subst r.
  exists svd_orth, (eye 2 2), (fins [1; 2]), [false; false], 0%Z, [true; true], [true; true].
  assert (T : RssTol (N := XR) = fin (/ 1000000000000)).
  { unfold RssTol. cbn. unfold xdec. cbn. unfold fin. f_equal. lra. }
  exists (Aicc (N := XR) 0 2 (fin (/ 1000000000000))), (Aicc (N := XR) 2 2 nmaxf), (XNInf : XR).
  split; auto. split; [reflexivity|]. split; [reflexivity|]. split; [reflexivity|]. split; [reflexivity|].
  split; [split; [reflexivity|]; intros i Hi; cbn in Hi; lia|]. split; [left; reflexivity|].
  split; [|split].
  - rewrite <- T. reflexivity.
  - unfold criterion. rewrite ED. cbn [bind]. rewrite EF. cbn [bind]. rewrite ER. cbn [bind]. f_equal.
    apply (C11_zero_residual 2 2). lia.
  - rewrite aicc_xr by (try lia; lra). unfold nlogr. rewrite (proj2 (Rltb_true _ _)) by lra. reflexivity.
Qed.
Print Assumptions C13_saturated_refuted.

(** ** C38.  [moore_penrose m n A P] (Spec_Fit.v): the four conditions APA = A,
    PAP = P, AP and PA symmetric. *)
Theorem C38_pseudo_inverse : forall X A f t, rmat X A -> exact_svd X f -> 0 <= t -> no_tiny t f ->
  exists P p, PseudoInverse f (XFin t) = Ok P /\ mrows P = mcols X /\ mcols P = mrows X /\ rmat P p /\
    moore_penrose (mrows X) (mcols X) A p.
Proof. exact pseudo_inverse_mp. Qed.
Print Assumptions C38_pseudo_inverse.

Theorem C38_pseudo_inverse_xtx : forall X A f t, rmat X A -> exact_svd X f -> 0 <= t -> no_tiny_sq t f ->
  exists P p, PseudoInverseXTX f (XFin t) = Ok P /\ mrows P = mcols X /\ mcols P = mcols X /\ rmat P p /\
    moore_penrose (mcols X) (mcols X) (fun i j => rsum (mrows X) (fun a => A a i * A a j)) p.
Proof.
  intros X A f t H1 H2 H3 H4.
  destruct (pseudo_inverse_xtx_mp X A f t H1 H2 H3 H4) as (P & p & E & R1 & R2 & R3 & R4 & _). eauto 10.
Qed.
Print Assumptions C38_pseudo_inverse_xtx.

(** the C parameter solves the normal equations X^T X c = X^T y *)
Theorem C38_c_parameter : forall X A f y, rmat X A -> exact_svd X f -> no_tiny_sq (/ 1000000) f ->
  length y = mrows X -> (0 < mrows X)%nat ->
  exists c, mpC f (fins y) = Ok (fins c) /\ length c = mcols X /\
    forall j, (j < mcols X)%nat ->
      rsum (mcols X) (fun j' => rsum (mrows X) (fun i => A i j * A i j') * nth j' c 0) =
      rsum (mrows X) (fun i => A i j * nth i y 0).
Proof. exact mpc_normal. Qed.
Print Assumptions C38_c_parameter.

(** the D parameter solves X^T X d = signs whenever that has a solution of the
    form X^T z (always with independent columns) *)
Theorem C38_d_parameter : forall X A f sg inv, rmat X A -> exact_svd X f -> no_tiny_sq (/ 1000000) f ->
  PseudoInverseXTX f (ndec 1 (-6)) = Ok inv -> length sg = mcols X ->
  (exists z, forall j, (j < mcols X)%nat -> nth j sg 0 = rsum (mrows X) (fun i => A i j * z i)) ->
  exists d, mpD inv (fins sg) = Ok (fins d) /\ length d = mcols X /\
    forall j, (j < mcols X)%nat ->
      rsum (mcols X) (fun j' => rsum (mrows X) (fun i => A i j * A i j') * nth j' d 0) = nth j sg 0.
Proof. exact mpd_solves. Qed.
Print Assumptions C38_d_parameter.

Lemma svd34_exact : exact_svd x34 (svd34 x34).
Proof. apply svd_col_exact; [lra|]. cbn. unfold lsum, Rsqr. cbn. lra. Qed.

Example C38_example :
  (exists P p, PseudoInverse (svd34 x34) (XFin (/ 1000)) = Ok P /\ mrows P = 1%nat /\ mcols P = 2%nat /\ rmat P p /\
     moore_penrose 2 1 (fun i _ => nth i [3; 4] 0) p) /\
  exists c, mpC (svd34 x34) (fins [1; 2]) = Ok (fins [c]) /\ 25 * c = 11.
Proof.
  split.
  - apply (C38_pseudo_inverse x34 (fun i _ => nth i [3; 4] 0) (svd34 x34) (/ 1000)).
    + intros i j _ _. reflexivity.
    + exact svd34_exact.
    + lra.
    + unfold no_tiny. apply in_1. lra.
  - destruct (C38_c_parameter x34 (fun i _ => nth i [3; 4] 0) (svd34 x34) [1; 2]) as (c & E & L & H).
    + intros i j _ _. reflexivity.
    + exact svd34_exact.
    + unfold no_tiny_sq. apply in_1. lra.
    + reflexivity.
    + cbn; lia.
    + destruct c as [|c [|? ?]]; try discriminate L. exists c. split; auto.
      specialize (H O ltac:(cbn; lia)). cbn in H. lra.
Qed.

(** A singular value of 1e-4 is kept un-inverted by C: the result does not
    solve the normal equations although its square root is not tiny. *)
Theorem C38_small_singular_value_refuted : exists (X : Mat XR) A f c,
  rmat X A /\ exact_svd X f /\ no_tiny (/ 1000000) f /\ mrows X = 1%nat /\ mcols X = 1%nat /\
  mpC f [XFin 1] = Ok [XFin c] /\
  A O O * A O O * c <> A O O * 1.
Proof.
  set (l := [/ 10000]).
  exists (mkMat (N := XR) (length l) 1 (fun i _ => fin (nth i l 0))), (fun i _ => nth i l 0),
    (mkSVD (fins l) (mkMat (N := XR) (length l) 1 (fun i _ => fin (nth i l 0 / / 10000))) (mkMat 1 1 (fun _ _ => fin 1))),
    (/ 10000).
  split; [intros i j _ _; reflexivity|]. split.
  { apply svd_col_exact; [lra|]. cbn. unfold lsum, Rsqr. cbn. lra. }
  split. { unfold no_tiny. cbn [svS]. apply in_1. lra. }
  split; [reflexivity|]. split; [reflexivity|]. split.
  - unfold mpC. cbn [svS l fins map].
    replace (if nltb (n := XR) (ndec 1 (-6)) (nmul (n := XR) (fin (/ 10000)) (fin (/ 10000))) then _ else _) with (fin (/ 10000)).
    + cbn. unfold fin. do 3 f_equal. field.
    + rewrite e6_fin, xmul_fin. change (nltb (n := XR) (fin (/ 1000000)) (fin (/ 10000 * / 10000)))
        with (Rltb (/ 1000000) (/ 10000 * / 10000)). rewrite (proj2 (Rltb_false _ _)) by lra. reflexivity.
  - cbn. lra.
Qed.
Print Assumptions C38_small_singular_value_refuted.

(** ** C59.  DenumMatrixGcv is the orthogonal projection on the columns of X,
    and Gcv the root of the mean of r_i^2/(1-h_ii). *)
Theorem C59_hat_matrix : forall svd X A, rmat X A -> exact_svd X (svd X) -> no_tiny_sq (/ 1000000) (svd X) ->
  exists H h, DenumMatrixGcv svd X = Ok H /\ mrows H = mrows X /\ mcols H = mrows X /\ rmat H h /\
    (forall i j, (i < mrows X)%nat -> (j < mrows X)%nat -> h i j = h j i) /\
    (forall i j, (i < mrows X)%nat -> (j < mrows X)%nat -> rsum (mrows X) (fun a => h i a * h a j) = h i j) /\
    (forall i j, (i < mrows X)%nat -> (j < mcols X)%nat -> rsum (mrows X) (fun a => h i a * A a j) = A i j) /\
    (forall i, (i < mrows X)%nat -> 0 <= h i i <= 1).
Proof. exact hat_matrix. Qed.
Print Assumptions C59_hat_matrix.

Theorem C59_gcv_value : forall (H : Mat XR) h y p, rmat H h -> mrows H = length y -> mcols H = length y ->
  length p = length y -> (0 < length y)%nat -> (forall i, (i < length y)%nat -> h i i < 1) ->
  Gcv H (fins y) (fins p) =
  Ok (XFin (sqrt (rsum (length y) (fun i => Rsqr (nth i y 0 - nth i p 0) / (1 - h i i)) / INR (length y)))).
Proof.
  intros H h y p HH Hr Hc Hp Hn Hh. unfold Gcv. rewrite !fins_length.
  rewrite (sum_loop0 _ (fun i => Rsqr (nth i y 0 - nth i p 0) / (1 - h i i))).
  - cbn [bind]. rewrite nofnat_fin, Hp.
    assert (HI : 0 < INR (length y)) by (apply lt_0_INR; lia).
    rewrite xdiv_fin by lra. rewrite xsqrt_fin; [reflexivity|].
    apply Rle_mult_inv_pos; auto. apply rsum_nonneg. intros i Hi. specialize (Hh i Hi).
    apply Rle_mult_inv_pos; [apply Rle_0_sqr|lra].
  - intros i x Hi. rewrite !getn_fins by lia. cbn [bind]. rewrite mat_at_in by lia. cbn [bind].
    rewrite HH by lia. rewrite n1_fin, xsub_fin, xpow2_fin, xsub_fin, xdiv_fin, xadd_fin; [reflexivity|].
    specialize (Hh i Hi). lra.
Qed.
Print Assumptions C59_gcv_value.

(** It is neither the leave-one-out error (r_i/(1-h_ii) squared) nor the
    generalised cross validation score with the mean of the diagonal: with the
    constant column on two points and the data 1, -1 all residuals are 1 in
    absolute value and every h_ii is 1/2; both textbook scores are 2. *)
Theorem C59_gcv_is_not_textbook_refuted : exists (H : Mat XR) h y p,
  rmat H h /\ mrows H = length y /\ mcols H = length y /\ length p = length y /\
  (forall i, (i < length y)%nat -> h i i < 1) /\
  exists v, Gcv H (fins y) (fins p) = Ok (XFin v) /\
    v <> sqrt (rsum (length y) (fun i => Rsqr ((nth i y 0 - nth i p 0) / (1 - h i i))) / INR (length y)) /\
    v <> sqrt (rsum (length y) (fun i => Rsqr ((nth i y 0 - nth i p 0) /
            (1 - rsum (length y) (fun j => h j j) / INR (length y)))) / INR (length y)).
Proof.
  assert (HH : rmat (mkMat (N := XR) 2 2 (fun _ _ => fin (/ 2))) (fun _ _ => / 2)) by (intros i j _ _; reflexivity).
  exists (mkMat 2 2 (fun _ _ => fin (/ 2))), (fun _ _ => / 2), [1; -1], [0; 0].
  split; auto. split; [reflexivity|]. split; [reflexivity|]. split; [reflexivity|].
  split; [intros; lra|]. eexists. split.
  - apply (C59_gcv_value _ (fun _ _ => / 2)); auto; [cbn; lia|intros; lra].
  - cbn. unfold Rsqr. split; intro E; apply sqrt_inj in E; lra.
Qed.
Print Assumptions C59_gcv_is_not_textbook_refuted.

Example C59_example : exists H h, DenumMatrixGcv svd34 x34 = Ok H /\ rmat H h /\ mrows H = 2%nat /\
  h O O * 3 + h O 1%nat * 4 = 3 /\ h O 1%nat = h 1%nat O.
Proof.
  destruct (C59_hat_matrix svd34 x34 (fun i _ => nth i [3; 4] 0)) as (H & h & E & R1 & R2 & R3 & S & _ & P & _).
  - intros i j _ _. reflexivity.
  - exact svd34_exact.
  - unfold no_tiny_sq. apply in_1. lra.
  - exists H, h. split; auto. split; auto. split; auto. split.
    + specialize (P O O ltac:(cbn; lia) ltac:(cbn; lia)). cbn in P. lra.
    + apply S; cbn; lia.
Qed.

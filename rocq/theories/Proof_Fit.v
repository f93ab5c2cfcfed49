(** Least squares: what Fit and Rss compute in exact arithmetic. *)
From Coq Require Import Reals Lra.
From Verif Require Import Base Num Mat RSum Proof_XR Proof_Util Proof_Norm Model_Fit Spec_Fit.
Open Scope R_scope.

Lemma nsum_fin : forall n (f : nat -> XR) g, (forall i, (i < n)%nat -> f i = fin (g i)) ->
  nsum n f = fin (rsum n g).
Proof.
  induction n as [|n IH]; intros f g H; cbn [nsum rsum]; [reflexivity|].
  rewrite (IH f g), H by (intros; try apply H; lia). reflexivity.
Qed.

Lemma mat_mul_fin : forall A B a b, rmat A a -> rmat B b -> mcols A = mrows B ->
  exists C, mat_mul A B = Ok C /\ mrows C = mrows A /\ mcols C = mcols B /\ rmat C (mm (mcols A) a b).
Proof.
  intros A B a b HA HB E. unfold mat_mul. rewrite (proj2 (Nat.eqb_eq _ _) E).
  eexists; split; [reflexivity|]. cbn [mrows mcols]. split; auto. split; auto.
  intros i j Hi Hj. cbn [mrows mcols mval] in *. apply nsum_fin. intros k Hk.
  rewrite HA, HB by lia. reflexivity.
Qed.

Lemma mat_T_fin : forall A a, rmat A a -> rmat (mat_T A) (fun i j => a j i).
Proof. intros A a H i j Hi Hj. cbn in *. apply H; auto. Qed.

Lemma mat_vec_fin : forall y, rmat (mat_vec (fins y)) (fun i _ => nth i y 0).
Proof.
  intros y i j Hi Hj. cbn [mat_vec mrows mcols mval] in *. rewrite fins_length in Hi.
  exact (nth_fins y i Hi).
Qed.

Lemma mat_diag_fin : forall s, rmat (mat_diag (fins s)) (fun i j => delta i j * nth i s 0).
Proof.
  intros s i j Hi Hj. cbn [mat_diag mrows mcols mval] in *. rewrite fins_length in *.
  unfold delta. destruct (Nat.eqb i j).
  - rewrite Rmult_1_l. exact (nth_fins s i Hi).
  - rewrite Rmult_0_l. reflexivity.
Qed.

Lemma mat_mulvec_fin : forall A a w, rmat A a -> mcols A = length w ->
  mat_mulvec A (fins w) =
  Ok (fins (map (fun i => rsum (mcols A) (fun k => a i k * nth k w 0)) (seq 0 (mrows A)))).
Proof.
  intros A a w HA E. unfold mat_mulvec. rewrite fins_length, (proj2 (Nat.eqb_eq _ _) E).
  f_equal. unfold fins. rewrite map_map. apply map_ext_in. intros i Hi. apply in_seq in Hi.
  apply nsum_fin. intros k Hk. rewrite HA by lia.
  change (nth k (map fin w) n0) with (nth k (fins w) (fin 0)). rewrite nth_fins by lia. reflexivity.
Qed.

(** the cut-off used for the singular values *)
Definition cut (t s : R) : R := if Rltb t (Rabs s) then / s else 0.

Lemma e6_fin : ndec (n := XR) 1 (-6) = fin (/ 1000000).
Proof. cbn. unfold xdec. cbn. unfold fin. f_equal. lra. Qed.

Definition uty (m : nat) (U : nat -> nat -> R) (y : list R) (l : nat) : R :=
  rsum m (fun i => U i l * nth i y 0).

Definition what (m : nat) (U V : nat -> nat -> R) (s y : list R) (j : nat) : R :=
  rsum (length s) (fun l => V j l * (uty m U y l * cut (/ 1000000) (nth l s 0))).

(** in-place update of the first [n] entries of a one-column matrix *)
Lemma col_update : forall (g : nat -> R) n (M : Mat XR) a (body : nat -> Mat XR -> res (Mat XR)),
  rmat M a -> (n <= mrows M)%nat -> mcols M = 1%nat ->
  (forall i (m : Mat XR) v, (i < n)%nat -> mrows m = mrows M -> mcols m = 1%nat ->
     mval m i 0 = fin v -> body i m = Ok (mat_upd m i 0 (fin (v * g i)))) ->
  exists M', for_loop 0 n body M = Ok M' /\ mrows M' = mrows M /\ mcols M' = 1%nat /\
    rmat M' (fun i j => if (i <? n)%nat then a i j * g i else a i j).
Proof.
  intros g n M a body HM Hn Hc Hb.
  assert (G : forall k, (k <= n)%nat -> exists M', for_loop 0 k body M = Ok M' /\
    mrows M' = mrows M /\ mcols M' = 1%nat /\
    rmat M' (fun i j => if (i <? k)%nat then a i j * g i else a i j)).
  { induction k as [|k IH]; intro Hk.
    - exists M. split; [reflexivity|]. auto.
    - destruct (IH ltac:(lia)) as (M1 & E & R1 & C1 & Q).
      rewrite <- Nat.add_1_r, for_loop_add, E. cbn [bind for_loop Nat.add].
      rewrite (Hb k M1 (a k O)); auto.
      + eexists. split; [reflexivity|]. cbn [mat_upd mrows mcols]. split; auto. split; auto.
        intros i j Hi Hj. cbn [mat_upd mrows mcols] in Hi, Hj. rewrite mat_upd_val.
        assert (j = O) by lia. subst j.
        destruct (Nat.eqb_spec i k) as [->|Hne]; cbn [andb Nat.eqb].
        * rewrite (proj2 (Nat.ltb_lt k (k + 1))) by lia. reflexivity.
        * rewrite Q by lia. destruct (Nat.ltb_spec i k); destruct (Nat.ltb_spec i (k + 1)); auto; lia.
      + rewrite Q by lia. rewrite Nat.ltb_irrefl. reflexivity. }
  apply G; auto.
Qed.

Lemma fill_from_col : forall (M : Mat XR) a n, rmat M a -> mrows M = n -> (0 < mcols M)%nat ->
  for_loop 0 n (fun i x => do v <- mat_at M i 0; setn x i v) (repeat n0 n) =
  Ok (fins (map (fun i => a i O) (seq 0 n))).
Proof.
  intros M a n HM Hr Hc.
  etransitivity; [|etransitivity; [exact (for_loop_fill0 _ (fun i => fin (a i O)) n (repeat n0 n) (repeat_length _ _))|]].
  - apply for_loop_ext. intros i x Hi. rewrite mat_at_in by lia. cbn [bind]. rewrite HM by lia. reflexivity.
  - unfold fins. rewrite map_map. reflexivity.
Qed.

(** residual *)
Definition res_of (n : nat) (A : nat -> nat -> R) (y : list R) (w : nat -> R) (i : nat) : R :=
  nth i y 0 - rsum n (fun j => A i j * w j).

Section WithSvd.
Variables (X : Mat XR) (f : SVD XR) (A U V : nat -> nat -> R) (s : list R) (y : list R).
Let m := mrows X.
Let n := mcols X.
Let k := length s.
Hypothesis (HA : rmat X A) (Hs : svS f = fins s)
  (HUr : mrows (svU f) = m) (HUc : mcols (svU f) = k) (HU : rmat (svU f) U)
  (HVr : mrows (svV f) = n) (HVc : mcols (svV f) = k) (HV : rmat (svV f) V)
  (UU : forall a b, (a < k)%nat -> (b < k)%nat -> rsum m (fun i => U i a * U i b) = delta a b)
  (VV : forall a b, (a < k)%nat -> (b < k)%nat -> rsum n (fun j => V j a * V j b) = delta a b)
  (Hpos : forall x, In x s -> 0 <= x)
  (HX : forall i j, (i < m)%nat -> (j < n)%nat ->
     A i j = rsum k (fun l => U i l * nth l s 0 * V j l)).
Hypothesis (Hy : length y = m) (Hm : (0 < m)%nat).

Lemma fit_xr : forall svd, svd X = f ->
  Fit svd X (fins y) = Ok (fins (map (what m U V s y) (seq 0 n))).
Proof.
  intros svd Ef. unfold Fit. rewrite Ef, fins_length.
  change (mrows X) with m. rewrite <- Hy, Nat.eqb_refl. cbn [negb].
  destruct (Nat.eqb_spec (length y) 0) as [Hz|_]; [lia|].
  destruct (mat_mul_fin (mat_T (svU f)) (mat_vec (fins y)) _ _ (mat_T_fin _ _ HU) (mat_vec_fin y))
    as (C & EC & RC & CC & QC).
  { cbn. rewrite fins_length. lia. }
  rewrite EC. cbn [bind]. cbn in RC, CC. rewrite HUc in RC.
  rewrite Hs, fins_length.
  destruct (col_update (fun l => cut (/ 1000000) (nth l s 0)) (length s) C _
    (fun i m0 => do s0 <- getn (fins s) i;
      let invSigma := if nltb (ndec 1 (-6)) (nabs s0) then (n1 / s0)%num else n0 in
      do a <- mat_at m0 i 0; mat_set m0 i 0 (a * invSigma)%num) QC)
    as (C' & EC' & RC' & CC' & QC'); [unfold k in *; lia|exact CC| |].
  { intros i M v Hi HM HMc Hv. rewrite getn_fins by auto. cbn [bind].
    rewrite mat_at_in by (unfold k in *; lia). cbn [bind].
    rewrite mat_set_in by (unfold k in *; lia). do 2 f_equal. rewrite Hv.
    rewrite e6_fin, xabs_fin.
    change (nltb (n := XR) (fin (/ 1000000)) (fin (Rabs (nth i s 0))))
      with (Rltb (/ 1000000) (Rabs (nth i s 0))). unfold cut.
    destruct (Rltb (/ 1000000) (Rabs (nth i s 0))) eqn:E; [|reflexivity].
    apply Rltb_true in E. rewrite n1_fin, xdiv_fin.
    + rewrite xmul_fin. f_equal. unfold Rdiv. ring.
    + intro Z. rewrite Z, Rabs_R0 in E. lra. }
  match goal with |- bind ?x _ = _ => replace x with (Ok C') by (symmetry; exact EC') end. cbn [bind].
  destruct (mat_mul_fin (svV f) C' _ _ HV QC') as (W & EW & RW & CW & QW); [unfold k in *; lia|].
  rewrite EW. cbn [bind].
  rewrite (fill_from_col W _ (mcols X) QW); [|unfold n in *; lia|lia].
  do 2 f_equal. apply map_ext_in. intros j Hj. unfold mm, what. rewrite HVc.
  apply rsum_ext. intros l Hl. unfold k in *.
  rewrite (proj2 (Nat.ltb_lt l (length s)) Hl). do 2 f_equal. cbn [mat_T mcols].
  rewrite HUr, Hy. reflexivity.
Qed.

Lemma sk : forall l, (l < k)%nat -> 0 <= nth l s 0.
Proof. intros l Hl. apply Hpos, nth_In. auto. Qed.

(** A w in the basis of the left singular vectors *)
Lemma Aw : forall w i, (i < m)%nat ->
  rsum n (fun j => A i j * w j) =
  rsum k (fun l => U i l * (nth l s 0 * rsum n (fun j => V j l * w j))).
Proof.
  intros w i Hi.
  rewrite (rsum_ext n _ (fun j => rsum k (fun l => U i l * nth l s 0 * (V j l * w j)))).
  2:{ intros j Hj. rewrite HX by auto. rewrite <- rsum_scal_r. apply rsum_ext. intros; ring. }
  rewrite rsum_swap. apply rsum_ext. intros l Hl.
  rewrite rsum_scal. ring.
Qed.

(** coordinates of the fit *)
Lemma Vtw : forall l, (l < k)%nat ->
  rsum n (fun j => V j l * what m U V s y j) = uty m U y l * cut (/ 1000000) (nth l s 0).
Proof.
  intros l Hl. unfold what. fold k.
  rewrite (rsum_ext n _ (fun j => rsum k (fun a => V j l * V j a * (uty m U y a * cut (/ 1000000) (nth a s 0))))).
  2:{ intros j Hj. rewrite <- rsum_scal. apply rsum_ext. intros; ring. }
  rewrite rsum_swap.
  rewrite (rsum_ext k _ (fun a => delta l a * (uty m U y a * cut (/ 1000000) (nth a s 0)))).
  2:{ intros a Ha. rewrite rsum_scal_r, VV by auto. ring. }
  apply (rsum_delta_l k l (fun a => uty m U y a * cut (/ 1000000) (nth a s 0))); auto.
Qed.

(** residual in the direction of a left singular vector *)
Lemma Utr : forall w l, (l < k)%nat ->
  rsum m (fun i => U i l * (nth i y 0 - rsum n (fun j => A i j * w j))) =
  uty m U y l - nth l s 0 * rsum n (fun j => V j l * w j).
Proof.
  intros w l Hl.
  rewrite (rsum_ext m _ (fun i => U i l * nth i y 0 -
    rsum k (fun a => U i l * U i a * (nth a s 0 * rsum n (fun j => V j a * w j))))).
  2:{ intros i Hi. rewrite Aw by auto. rewrite Rmult_minus_distr_l. f_equal.
      rewrite <- rsum_scal. apply rsum_ext. intros; ring. }
  rewrite rsum_minus. f_equal. rewrite rsum_swap.
  rewrite (rsum_ext k _ (fun a => delta l a * (nth a s 0 * rsum n (fun j => V j a * w j)))).
  2:{ intros a Ha. rewrite rsum_scal_r, UU by auto. ring. }
  apply (rsum_delta_l k l (fun a => nth a s 0 * rsum n (fun j => V j a * w j))); auto.
Qed.

Lemma normal_gen : forall w, (forall l, (l < k)%nat ->
    nth l s 0 * (uty m U y l - nth l s 0 * rsum n (fun j => V j l * w j)) = 0) ->
  forall j, (j < n)%nat -> rsum m (fun i => A i j * res_of n A y w i) = 0.
Proof.
  intros w Hw j Hj.
  rewrite (rsum_ext m _ (fun i => rsum k (fun l => V j l * nth l s 0 * (U i l * res_of n A y w i)))).
  2:{ intros i Hi. rewrite HX by auto. rewrite <- rsum_scal_r. apply rsum_ext. intros; ring. }
  rewrite rsum_swap. apply rsum_0'. intros l Hl.
  rewrite rsum_scal. unfold res_of. rewrite Utr by auto.
  rewrite Rmult_assoc, (Hw l Hl). ring.
Qed.

Lemma normal_eq : (forall x, In x s -> x = 0 \/ / 1000000 < x) ->
  forall j, (j < n)%nat -> rsum m (fun i => A i j * res_of n A y (what m U V s y) i) = 0.
Proof.
  intros Ht. apply normal_gen. intros l Hl. rewrite Vtw by auto.
  destruct (Ht (nth l s 0)) as [E|E]; [apply nth_In; auto| |].
  - rewrite E. ring.
  - unfold cut. rewrite (proj2 (Rltb_true _ _)) by (rewrite Rabs_right; lra). field. lra.
Qed.
End WithSvd.

(** Pythagoras for a solution of the normal equations *)
Lemma pythagoras : forall m n A y (w0 w : nat -> R),
  (forall j, (j < n)%nat -> rsum m (fun i => A i j * res_of n A y w0 i) = 0) ->
  rsum m (fun i => Rsqr (rsum n (fun j => A i j * w j) - nth i y 0)) =
  rsum m (fun i => Rsqr (rsum n (fun j => A i j * w0 j) - nth i y 0)) +
  rsum m (fun i => Rsqr (rsum n (fun j => A i j * (w j - w0 j)))).
Proof.
  intros m n A y w0 w H.
  assert (C : rsum m (fun i => res_of n A y w0 i * rsum n (fun j => A i j * (w j - w0 j))) = 0).
  { rewrite (rsum_ext m _ (fun i => rsum n (fun j => (A i j * res_of n A y w0 i) * (w j - w0 j)))).
    2:{ intros i Hi. rewrite <- rsum_scal. apply rsum_ext. intros; ring. }
    rewrite rsum_swap. apply rsum_0'. intros j Hj. rewrite rsum_scal_r, H by auto. ring. }
  rewrite <- rsum_plus.
  transitivity (rsum m (fun i => Rsqr (rsum n (fun j => A i j * w0 j) - nth i y 0) +
     Rsqr (rsum n (fun j => A i j * (w j - w0 j)))) -
     2 * rsum m (fun i => res_of n A y w0 i * rsum n (fun j => A i j * (w j - w0 j)))); [|rewrite C; ring].
  rewrite <- rsum_scal, <- rsum_minus. apply rsum_ext. intros i Hi.
  unfold res_of, Rsqr.
  assert (E : rsum n (fun j => A i j * (w j - w0 j)) =
    rsum n (fun j => A i j * w j) - rsum n (fun j => A i j * w0 j)).
  { rewrite <- rsum_minus. apply rsum_ext. intros; ring. }
  rewrite E. ring.
Qed.

Lemma rss_xr : forall X A w y, rmat X A -> (0 < mrows X)%nat -> length w = mcols X ->
  length y = mrows X ->
  Rss X (fins w) (fins y) = Ok (fin (rss (mrows X) (mcols X) A w y)).
Proof.
  intros X A w y HA Hr Hw Hy. unfold Rss, Predict.
  destruct (Nat.eqb_spec (mrows X) 0) as [Hz|_]; [lia|].
  rewrite (mat_mulvec_fin X A w HA) by auto. cbn [bind].
  rewrite !fins_length, map_length, seq_length, Hy, Nat.eqb_refl. cbn [negb].
  rewrite (sum_loop0 _ (fun i => Rsqr (rsum (mcols X) (fun j => A i j * nth j w 0) - nth i y 0))).
  - reflexivity.
  - intros i x Hi. rewrite getn_fins by (rewrite map_length, seq_length; lia). cbn [bind].
    rewrite getn_fins by lia. cbn [bind]. rewrite xsub_fin, xpow2_fin, xadd_fin.
    rewrite nth_map_seq by auto. reflexivity.
Qed.

Lemma rss_nonneg : forall m n A w y, 0 <= rss m n A w y.
Proof. intros. apply rsum_nonneg. intros. apply Rle_0_sqr. Qed.

Lemma rss_ext : forall m n A B w y, (forall i j, (i < m)%nat -> (j < n)%nat -> A i j = B i j) ->
  rss m n A w y = rss m n B w y.
Proof.
  intros m n A B w y H. apply rsum_ext. intros i Hi. f_equal. f_equal.
  apply rsum_ext. intros j Hj. rewrite H by auto. reflexivity.
Qed.

Lemma rmat_det : forall X A B, rmat X A -> rmat X B ->
  forall i j, (i < mrows X)%nat -> (j < mcols X)%nat -> A i j = B i j.
Proof.
  intros X A B HA HB i j Hi Hj. pose proof (HA i j Hi Hj) as E. rewrite (HB i j Hi Hj) in E.
  injection E as E. auto.
Qed.

(** Fit returns a minimiser. *)
Lemma fit_min : forall svd X A y, rmat X A -> exact_svd X (svd X) -> no_tiny (/ 1000000) (svd X) ->
  (0 < mrows X)%nat -> length y = mrows X ->
  exists w, Fit svd X (fins y) = Ok (fins w) /\ length w = mcols X /\
    Rss X (fins w) (fins y) = Ok (fin (rss (mrows X) (mcols X) A w y)) /\
    (forall j, (j < mcols X)%nat ->
       rsum (mrows X) (fun i => A i j * (nth i y 0 - rsum (mcols X) (fun j => A i j * nth j w 0))) = 0) /\
    forall w', length w' = mcols X ->
      rss (mrows X) (mcols X) A w' y = rss (mrows X) (mcols X) A w y +
        rsum (mrows X) (fun i => Rsqr (rsum (mcols X) (fun j => A i j * (nth j w' 0 - nth j w 0)))).
Proof.
  intros svd X A y HA (A' & U & V & s & HA' & Hs & HUr & HUc & HU & HVr & HVc & HV & UU & VV & Hp & HX)
    Ht Hm Hy.
  set (w := map (what (mrows X) U V s y) (seq 0 (mcols X))).
  assert (Lw : length w = mcols X) by (unfold w; rewrite map_length, seq_length; auto).
  assert (Nw : forall j, (j < mcols X)%nat -> nth j w 0 = what (mrows X) U V s y j).
  { intros j Hj. unfold w. apply nth_map_seq; auto. }
  assert (HXA : forall i j, (i < mrows X)%nat -> (j < mcols X)%nat ->
    A i j = rsum (length s) (fun l => U i l * nth l s 0 * V j l)).
  { intros i j Hi Hj. rewrite (rmat_det X A A' HA HA') by auto. auto. }
  assert (Ht' : forall x, In x s -> x = 0 \/ / 1000000 < x).
  { intros x Hx. apply Ht. rewrite Hs. apply in_map; auto. }
  pose proof (normal_eq X A U V s y UU VV HXA Ht') as NE.
  assert (NE' : forall j, (j < mcols X)%nat ->
       rsum (mrows X) (fun i => A i j * (nth i y 0 - rsum (mcols X) (fun j => A i j * nth j w 0))) = 0).
  { intros j Hj. etransitivity; [|exact (NE j Hj)]. apply rsum_ext. intros i Hi. unfold res_of.
    rewrite (rsum_ext (mcols X) (fun j => A i j * nth j w 0) (fun j => A i j * what (mrows X) U V s y j));
      [reflexivity|]. intros a Ha. rewrite Nw; auto. }
  exists w. split; [exact (fit_xr X (svd X) U V s y Hs HUr HUc HU HVr HVc HV Hy Hm svd eq_refl)|].
  split; auto. split; [apply rss_xr; auto|]. split; auto.
  intros w' Hw'. unfold rss. apply (pythagoras (mrows X) (mcols X) A y (fun j => nth j w 0) (fun j => nth j w' 0)).
  exact NE'.
Qed.

(** C101: the data sets exported for tests are what they are said to be. *)
From Coq Require Import Reals Lra Psatz String.
From Verif Require Import Base Num Mat RSum Model_Node Proof_Node Proof_Node2 Model_Util Proof_Util
  Proof_XR Proof_Norm Model_Omp Spec_Omp Props_Omp Model_Fit Spec_Fit Proof_Fit Proof_Fit2 Model_Cohen Model_Demo Props_Fit Props_Norm Props_Cohen
  Props_EndToEnd Props_Search Spec_Subset Proof_Subset Props_Subset Props_Strict.
Open Scope R_scope.
Open Scope list_scope.

(** ** Specification *)

(** math.Sin in exact arithmetic (NaN for infinities) *)
Definition xsin (x : XR) : XR := match x with XFin r => XFin (sin r) | _ => XNaN end.

(** [b] combines the columns to the target exactly *)
Definition combines (rows cols : nat) (x : nat -> nat -> R) (y : list R) (b : nat -> R) : Prop :=
  forall i, (i < rows)%nat -> rsum cols (fun j => x i j * b j) = nth i y 0.

(** the powers of the grid 0, 0.1, 0.2, ... *)
Definition powers (i j : nat) : R := (INR i / 10) ^ j.

(** ** Filling a matrix *)
Section Fill.
  Context {N : Num}.

  Lemma fill_row : forall (X : Mat N) i c (v : nat -> N), (i < mrows X)%nat -> (c <= mcols X)%nat ->
    exists X', for_loop 0 c (fun j X => mat_set X i j (v j)) X = Ok X' /\ mrows X' = mrows X /\ mcols X' = mcols X /\
      forall a b, mval X' a b = if (a =? i)%nat && (b <? c)%nat then v b else mval X a b.
  Proof.
    intros X i c v Hi Hc.
    destruct (for_loop_inv _ (fun k X' => mrows X' = mrows X /\ mcols X' = mcols X /\
      forall a b, mval X' a b = if (a =? i)%nat && (b <? k)%nat then v b else mval X a b)
      (fun j X => mat_set X i j (v j)) c 0 X) as (X' & E & P).
    - repeat split. intros a b. rewrite andb_comm. reflexivity.
    - intros k X1 Hk (P1 & P2 & P3). unfold mat_set. rewrite P1, P2.
      rewrite (proj2 (Nat.ltb_lt i (mrows X)) Hi), (proj2 (Nat.ltb_lt k (mcols X))) by lia. cbn [andb].
      eexists. split; [reflexivity|]. cbn [mat_upd mrows mcols mval]. repeat split; auto. intros a b. rewrite P3.
      destruct (Nat.eqb_spec a i); cbn [andb]; [|reflexivity]. destruct (Nat.eqb_spec b k).
      + subst b. rewrite (proj2 (Nat.ltb_lt k (S k))) by lia. reflexivity.
      + destruct (Nat.ltb_spec b k), (Nat.ltb_spec b (S k)); try lia; reflexivity.
    - exists X'. tauto.
  Qed.

  Lemma fill_col : forall (X : Mat N) col n (v : nat -> N) (f : nat -> res N), (col < mcols X)%nat -> (n <= mrows X)%nat ->
    (forall i, (i < n)%nat -> f i = Ok (v i)) ->
    exists X', for_loop 0 n (fun i X => do w <- f i; mat_set X i col w) X = Ok X' /\ mrows X' = mrows X /\ mcols X' = mcols X /\
      forall a b, mval X' a b = if (b =? col)%nat && (a <? n)%nat then v a else mval X a b.
  Proof.
    intros X col n v f Hc Hn Hf.
    destruct (for_loop_inv _ (fun k X' => mrows X' = mrows X /\ mcols X' = mcols X /\
      forall a b, mval X' a b = if (b =? col)%nat && (a <? k)%nat then v a else mval X a b)
      (fun i X => do w <- f i; mat_set X i col w) n 0 X) as (X' & E & P).
    - repeat split. intros a b. rewrite andb_comm. reflexivity.
    - intros k X1 Hk (P1 & P2 & P3). rewrite Hf by lia. cbn [bind]. unfold mat_set. rewrite P1, P2.
      rewrite (proj2 (Nat.ltb_lt col (mcols X)) Hc), (proj2 (Nat.ltb_lt k (mrows X))) by lia. cbn [andb].
      eexists. split; [reflexivity|]. cbn [mat_upd mrows mcols mval]. repeat split; auto. intros a b. rewrite P3.
      destruct (Nat.eqb_spec b col); cbn [andb]; [|rewrite andb_false_r; reflexivity]. rewrite andb_true_r. destruct (Nat.eqb_spec a k).
      + subst a. rewrite (proj2 (Nat.ltb_lt k (S k))) by lia. reflexivity.
      + destruct (Nat.ltb_spec a k), (Nat.ltb_spec a (S k)); try lia; reflexivity.
    - exists X'. tauto.
  Qed.

  (** the loop of the two example functions *)
  Lemma fill_both : forall n c (v : nat -> nat -> N) (t : nat -> N) (X0 : Mat N) y0,
    mrows X0 = n -> mcols X0 = c -> length y0 = n ->
    exists X, for_loop 0 n (fun i s => let '(X, y) := s in
        do X <- for_loop 0 c (fun j X => mat_set X i j (v i j)) X; do y <- setn y i (t i); Ok (X, y)) (X0, y0)
      = Ok (X, map t (seq 0 n)) /\ mrows X = n /\ mcols X = c /\
      forall i j, (i < n)%nat -> (j < c)%nat -> mval X i j = v i j.
  Proof.
    intros n c v t X0 y0 H1 H2 H3.
    destruct (for_loop_inv _ (fun k (s : Mat N * list N) => mrows (fst s) = n /\ mcols (fst s) = c /\
       snd s = map t (seq 0 k) ++ skipn k y0 /\ forall i j, (i < k)%nat -> (j < c)%nat -> mval (fst s) i j = v i j)
       (fun i s => let '(X, y) := s in
        do X <- for_loop 0 c (fun j X => mat_set X i j (v i j)) X; do y <- setn y i (t i); Ok (X, y)) n 0 (X0, y0)) as ([X y] & E & P).
    - repeat split; auto. intros; lia.
    - intros k [X y] Hk (P1 & P2 & P3 & P4). cbn [fst snd] in *.
      destruct (fill_row X k c (v k)) as (X' & E & Q1 & Q2 & Q3); [lia|lia|]. rewrite E. cbn [bind].
      assert (Es : skipn k y0 = nth k y0 n0 :: skipn (S k) y0).
      { clear - H3 Hk. assert (Hk' : (k < length y0)%nat) by lia. clear Hk H3 n. revert k Hk'.
        induction y0 as [|a l IH]; intros k Hk; [cbn in Hk; lia|]. destruct k; [reflexivity|]. cbn [skipn nth]. apply IH. cbn in Hk. lia. }
      rewrite P3, Es.
      replace (setn (map t (seq 0 k) ++ nth k y0 n0 :: skipn (S k) y0) k (t k)) with (Ok ((map t (seq 0 k) ++ [t k]) ++ skipn (S k) y0)).
      2:{ rewrite <- app_assoc. cbn [app]. symmetry. rewrite <- (setn_at_end _ (map t (seq 0 k)) (nth k y0 n0) (t k) (skipn (S k) y0)).
          f_equal. rewrite map_length, seq_length. reflexivity. }
      cbn [bind]. eexists. split; [reflexivity|]. cbn [fst snd]. split; [lia|]. split; [lia|]. split.
      + rewrite seq_S, map_app. reflexivity.
      + intros i j Hi Hj. rewrite Q3. destruct (Nat.eqb_spec i k) as [->|]; cbn [andb].
        * rewrite (proj2 (Nat.ltb_lt j c) Hj). reflexivity.
        * apply P4; lia.
    - destruct P as (P1 & P2 & P3 & P4). cbn [fst snd Nat.add] in *. exists X. split; [|auto]. rewrite E. f_equal. f_equal.
      rewrite P3, <- H3, skipn_all, app_nil_r. reflexivity.
  Qed.

  (** the loop of the two test cases *)
  Lemma fill_cols : forall n c (v : nat -> nat -> N) (f : nat -> nat -> res N) (X0 : Mat N),
    mrows X0 = n -> mcols X0 = c -> (forall i j, (i < n)%nat -> f j i = Ok (v i j)) ->
    exists X, for_loop 0 c (fun col X => for_loop 0 n (fun i X => do w <- f col i; mat_set X i col w) X) X0 = Ok X /\
      mrows X = n /\ mcols X = c /\ forall i j, (i < n)%nat -> (j < c)%nat -> mval X i j = v i j.
  Proof.
    intros n c v f X0 H1 H2 Hf.
    destruct (for_loop_inv _ (fun k (X : Mat N) => mrows X = n /\ mcols X = c /\
       forall i j, (i < n)%nat -> (j < k)%nat -> mval X i j = v i j)
       (fun col X => for_loop 0 n (fun i X => do w <- f col i; mat_set X i col w) X) c 0 X0) as (X & E & P).
    - repeat split; auto. intros; lia.
    - intros k X Hk (P1 & P2 & P3). destruct (fill_col X k n (fun i => v i k) (f k)) as (X' & E & Q1 & Q2 & Q3); [lia|lia|intros; apply Hf; auto|].
      exists X'. split; [exact E|]. split; [lia|]. split; [lia|]. intros i j Hi Hj. rewrite Q3. destruct (Nat.eqb_spec j k) as [->|]; cbn [andb].
      + rewrite (proj2 (Nat.ltb_lt i n) Hi). reflexivity.
      + apply P3; lia.
    - exists X. auto.
  Qed.
End Fill.

Lemma xpow_nat : forall r j, npow (n := XR) (fin r) (Z.of_nat j) = fin (r ^ j).
Proof.
  intros r j. cbn [npow XR]. unfold xpow. destruct (Z.eqb_spec (Z.of_nat j) 0) as [E|E].
  - replace j with 0%nat by lia. reflexivity.
  - unfold fin. rewrite (proj2 (Z.ltb_lt 0 (Z.of_nat j))) by lia. rewrite Nat2Z.id. reflexivity.
Qed.

Lemma dec1 : ndec (n := XR) 1 (-1) = fin (/ 10).
Proof. cbn. unfold xdec, fin. cbn. apply (f_equal XFin). lra. Qed.
Lemma dec2 : ndec (n := XR) 2 (-1) = fin (/ 5).
Proof. cbn. unfold xdec, fin. cbn. apply (f_equal XFin). lra. Qed.
Lemma ofZ_fin : forall z, nofZ (n := XR) z = fin (IZR z).
Proof. reflexivity. Qed.
Lemma grid_fin : forall i, (ndec (n := XR) 1 (-1) * nofnat i)%num = fin (INR i / 10).
Proof. intro i. rewrite dec1. unfold nofnat. rewrite ofZ_fin, xmul_fin, <- INR_IZR_INZ. apply (f_equal fin). lra. Qed.

(** ** Theorems *)

(** GetExampleXY: 100 rows, the powers 0 to 4 of a grid, and a target that
    combines the columns exactly with -3, 3, 0.2, 0, 0 and with nothing else. *)
Theorem C101_example : exists (X : Mat XR) y, GetExampleXY = Ok (X, fins y) /\
  mrows X = 100%nat /\ mcols X = 5%nat /\ length y = 100%nat /\ rmat X powers /\
  forall b, combines 100 5 powers y b <-> b 0%nat = -3 /\ b 1%nat = 3 /\ b 2%nat = 1 / 5 /\ b 3%nat = 0 /\ b 4%nat = 0.
Proof.
  unfold GetExampleXY. cbn [new_dense Nat.eqb orb bind].
  destruct (fill_both (N := XR) 100 5 (fun i j => npow (ndec 1 (-1) * nofnat i)%num (Z.of_nat j))
    (fun i => let x := (ndec 1 (-1) * nofnat i)%num in (nofZ (-3) + ndec 2 (-1) * x * x + nofZ 3 * x)%num)
    (mkMat 100 5 (fun _ _ => n0)) (repeat n0 100) eq_refl eq_refl eq_refl) as (X & E & H1 & H2 & H3).
  set (t := fun i => -3 + / 5 * (INR i / 10) * (INR i / 10) + 3 * (INR i / 10)).
  exists X, (map t (seq 0 100)). split.
  { etransitivity; [exact E|]. apply (f_equal Ok). apply (f_equal (pair X)). unfold fins. rewrite map_map. apply map_ext. intro i.
    cbv zeta. rewrite grid_fin, dec2, !ofZ_fin, !xmul_fin, !xadd_fin. reflexivity. }
  split; [exact H1|]. split; [exact H2|]. split; [rewrite map_length, seq_length; reflexivity|]. split.
  { intros i j Hi Hj. rewrite H3 by lia. rewrite grid_fin. apply xpow_nat. }
  assert (T : forall i, (i < 100)%nat -> nth i (map t (seq 0 100)) 0 = t i).
  { intros i Hi. rewrite (nth_indep _ 0 (t 0%nat)) by (rewrite map_length, seq_length; lia). rewrite map_nth, seq_nth by lia. reflexivity. }
  intro b. split.
  - intro C. assert (P : forall i, (i < 5)%nat -> rsum 5 (fun j => powers i j * b j) = t i).
    { intros i Hi. rewrite (C i) by lia. apply T. lia. }
    pose proof (P 0%nat ltac:(lia)) as P0. pose proof (P 1%nat ltac:(lia)) as P1. pose proof (P 2%nat ltac:(lia)) as P2.
    pose proof (P 3%nat ltac:(lia)) as P3. pose proof (P 4%nat ltac:(lia)) as P4. clear - P0 P1 P2 P3 P4.
    unfold t, powers in *. cbn [rsum INR pow] in *. repeat split; lra.
  - intros (B0 & B1 & B2 & B3 & B4) i Hi. rewrite T by exact Hi. unfold t, powers. cbn [rsum pow]. rewrite B0, B1, B2, B3, B4. field.
Qed.
Print Assumptions C101_example.

(** Hence on these data, in exact arithmetic, the criteria do not single out the
    model {0, 1, 2}: exactly the models containing it score minus infinity.
    What the searches return for it is decided by rounding alone. *)
Theorem C101_example_ties : forall svd (X : Mat XR) y m c, GetExampleXY = Ok (X, fins y) -> good_svd svd X ->
  length m = 5%nat -> In true m -> In c [Aic; Aicc; Bic] ->
  (criterion svd c X (fins y) m = Ok XNInf <-> nth 0 m false = true /\ nth 1 m false = true /\ nth 2 m false = true).
Proof.
  intros svd X y m c E Hg Lm Tm Hc. destruct C101_example as (X' & y' & E' & H1 & H2 & H3 & H4 & H5).
  rewrite E in E'. injection E' as <- Ey.
  assert (Eq : y = y'). { revert Ey. clear. revert y'. induction y as [|a y IH]; intros [|a' y'] Ey; try discriminate; [reflexivity|].
    cbn in Ey. injection Ey as -> Ey. f_equal. apply IH, Ey. }
  rewrite <- Eq in *. clear Ey Eq y'.
  destruct (model_fit svd X powers y H4 ltac:(lia) ltac:(lia) Hg m ltac:(lia) ltac:(apply nonempty_nf; auto)) as (D & w & r & E1 & E2 & E3 & Lw & Er & Hmin).
  assert (R0 : forall w, 0 <= rss (mrows X) (NumFeatures m) (sub powers m) w y) by (intro v; apply rsum_nonneg; intros; apply Rle_0_sqr).
  assert (V : criterion svd c X (fins y) m = Ok XNInf <-> r = 0).
  { unfold criterion. rewrite E1. cbn [bind]. rewrite E2. cbn [bind]. rewrite E3. cbn [bind].
    replace (length (fins y)) with (mrows X) by (unfold fins; rewrite map_length; lia).
    assert (K : exists p, c (Z.of_nat (NumFeatures m)) (Z.of_nat (mrows X)) (fin r) = nadd (n := XR) (fin p) (nlogr (Z.of_nat (mrows X)) r)).
    { assert (0 <= r) by (rewrite Er; apply R0). destruct Hc as [<-|[<-|[<-|[]]]].
      - eexists. apply aic_xr; auto; lia.
      - eexists. apply aicc_xr; auto; lia.
      - eexists. apply bic_xr; auto; lia. }
    destruct K as (p & ->). unfold nlogr. destruct (Rltb 0 r) eqn:B.
    - apply Rltb_true in B. rewrite xadd_fin. split; [discriminate|intros ->; lra].
    - split; [intros _|reflexivity]. assert (0 <= r) by (rewrite Er; apply R0).
      destruct (Rle_lt_dec r 0) as [L|L]; [lra|]. apply Rltb_true in L. congruence. }
  rewrite V. clear V.
  assert (Ex : forall v, length v = NumFeatures m -> rss (mrows X) (NumFeatures m) (sub powers m) v y =
     rsum 100 (fun i => Rsqr (rsum 5 (fun j => powers i j * nth j (spread m v) 0) - nth i y 0))).
  { intros v Hv. unfold rss. rewrite H1. apply rsum_ext. intros i _. unfold sub. rewrite (spread_sum m v (powers i) Hv), Lm. reflexivity. }
  split.
  - intro Z. rewrite Z, (Ex w Lw) in Er. symmetry in Er.
    assert (C : combines 100 5 powers y (fun j => nth j (spread m w) 0)).
    { intros i Hi. pose proof (rsum_term_le 100 (fun i => Rsqr (rsum 5 (fun j => powers i j * nth j (spread m w) 0) - nth i y 0)) i) as Q.
      cbv beta in Q. rewrite Er in Q. assert (Q' := Q ltac:(intros; apply Rle_0_sqr) Hi).
      assert (Z0 : Rsqr (rsum 5 (fun j => powers i j * nth j (spread m w) 0) - nth i y 0) = 0) by (pose proof (Rle_0_sqr (rsum 5 (fun j => powers i j * nth j (spread m w) 0) - nth i y 0)); lra).
      apply Rsqr_0_uniq in Z0. lra. }
    apply H5 in C. destruct C as (B0 & B1 & B2 & _).
    repeat split; match goal with |- nth ?k m false = true => destruct (nth k m false) eqn:F; [reflexivity|]; apply (spread_support m w) in F; lra end.
  - intros (M0 & M1 & M2). set (b := fun j => nth j [-3; 3; 1/5] 0).
    assert (C : combines 100 5 powers y b).
    { apply H5. unfold b. repeat split. }
    assert (Lg : length (gather m b) = NumFeatures m) by apply gather_length.
    assert (Z : rss (mrows X) (NumFeatures m) (sub powers m) (gather m b) y = 0).
    { rewrite (Ex _ Lg). apply rsum_0'. intros i Hi.
      rewrite (rsum_ext 5 _ (fun j => powers i j * b j)).
      - rewrite (C i Hi). unfold Rsqr. ring.
      - intros j Hj. rewrite spread_gather; [reflexivity|lia|]. intro F. unfold b. destruct j as [|[|[|j]]]; try congruence. destruct j; reflexivity. }
    destruct Hmin as (Hp & Hmin & _). specialize (Hmin (gather m b) Lg). rewrite Z in Hmin. lra.
Qed.
Print Assumptions C101_example_ties.

(** ** the sine *)
Lemma sin_rec : forall a h, sin a + sin (a + 2 * h) = 2 * cos h * sin (a + h).
Proof.
  intros a h. remember (a + h) as b eqn:Eb. replace (a + 2 * h) with (b + h) by (rewrite Eb; ring).
  replace a with (b - h) by (rewrite Eb; ring). rewrite sin_minus, sin_plus. ring.
Qed.

Lemma seventh_difference : forall s : nat -> R, (forall i, s i = sin (INR i / 10)) ->
  s 0%nat - 7 * s 1%nat + 21 * s 2%nat - 35 * s 3%nat + 35 * s 4%nat - 21 * s 5%nat + 7 * s 6%nat - s 7%nat <> 0.
Proof.
  intros s Hs. set (c := cos (1 / 10)).
  assert (R : forall i, s i + s (S (S i)) = 2 * c * s (S i)).
  { intro i. rewrite !Hs, !S_INR. unfold c. pose proof (sin_rec (INR i / 10) (1 / 10)) as Q.
    replace ((INR i + 1 + 1) / 10) with (INR i / 10 + 2 * (1 / 10)) by field. replace ((INR i + 1) / 10) with (INR i / 10 + 1 / 10) by field. exact Q. }
  pose proof (R 0%nat) as R0. pose proof (R 1%nat) as R1. pose proof (R 2%nat) as R2. pose proof (R 3%nat) as R3.
  pose proof (R 4%nat) as R4. pose proof (R 5%nat) as R5.
  assert (E : s 0%nat - 7 * s 1%nat + 21 * s 2%nat - 35 * s 3%nat + 35 * s 4%nat - 21 * s 5%nat + 7 * s 6%nat - s 7%nat =
    (2 * c - 2) ^ 3 * (s 3%nat - s 4%nat)).
  { assert (A5 : s 5%nat = 2 * c * s 4%nat - s 3%nat) by lra. assert (A2 : s 2%nat = 2 * c * s 3%nat - s 4%nat) by lra.
    assert (A6 : s 6%nat = 2 * c * s 5%nat - s 4%nat) by lra. assert (A1 : s 1%nat = 2 * c * s 2%nat - s 3%nat) by lra.
    assert (A7 : s 7%nat = 2 * c * s 6%nat - s 5%nat) by lra. assert (A0 : s 0%nat = 2 * c * s 1%nat - s 2%nat) by lra.
    rewrite A7, A0, A6, A1, A5, A2. ring. }
  rewrite E. pose proof PI2_1 as P.
  assert (L : s 3%nat < s 4%nat).
  { rewrite !Hs. cbn [INR]. apply sin_increasing_1; lra. }
  assert (C : c <> 1).
  { intro C. pose proof (sin2_cos2 (1 / 10)) as Q. fold c in Q. rewrite C in Q. unfold Rsqr in Q.
    assert (0 < sin (1 / 10)) by (apply sin_gt_0; lra). nra. }
  apply Rmult_integral_contrapositive. split; [|lra]. apply pow_nonzero. lra.
Qed.

Lemma find_differ : forall n (f g : nat -> R), (forall i, (i < n)%nat -> f i = g i) \/ exists i, (i < n)%nat /\ f i <> g i.
Proof.
  induction n as [|n IH]; intros f g; [left; intros; lia|]. destruct (IH f g) as [H|(i & Hi & H)]; [|right; exists i; split; [lia|exact H]].
  destruct (Req_dec (f n) (g n)) as [Q|Q]; [left|right; exists n; split; [lia|exact Q]].
  intros i Hi. destruct (Nat.eq_dec i n) as [->|]; [exact Q|apply H; lia].
Qed.

(** GetExampleAllModelsWrong: no combination of the columns is the target, so
    every model has a positive residual and every criterion is finite. *)
Theorem C101_all_models_wrong : exists (X : Mat XR) y, GetExampleAllModelsWrong xsin = Ok (X, fins y) /\
  mrows X = 30%nat /\ mcols X = 7%nat /\ length y = 30%nat /\ rmat X powers /\
  (forall b, ~ combines 30 7 powers y b) /\
  forall svd m c, good_svd svd X -> length m = 7%nat -> In true m -> In c [Aic; Aicc; Bic] ->
    exists v : R, criterion svd c X (fins y) m = Ok (fin v).
Proof.
  unfold GetExampleAllModelsWrong. cbn [new_dense Nat.eqb orb bind].
  destruct (fill_both (N := XR) 30 7 (fun i j => npow (ndec 1 (-1) * nofnat i)%num (Z.of_nat j))
    (fun i => let x := (ndec 1 (-1) * nofnat i)%num in (nofZ (-3) + ndec 2 (-1) * xsin x)%num)
    (mkMat 30 7 (fun _ _ => n0)) (repeat n0 30) eq_refl eq_refl eq_refl) as (X & E & H1 & H2 & H3).
  set (t := fun i => -3 + / 5 * sin (INR i / 10)).
  exists X, (map t (seq 0 30)). split.
  { etransitivity; [exact E|]. apply (f_equal Ok). apply (f_equal (pair X)). unfold fins. rewrite map_map. apply map_ext. intro i.
    cbv zeta. rewrite grid_fin, dec2, !ofZ_fin. change (xsin (fin (INR i / 10))) with (fin (sin (INR i / 10))).
    rewrite !xmul_fin, !xadd_fin. reflexivity. }
  assert (H4 : rmat X powers) by (intros i j Hi Hj; rewrite H3 by lia; rewrite grid_fin; apply xpow_nat).
  assert (Ly : length (map t (seq 0 30)) = 30%nat) by (rewrite map_length, seq_length; reflexivity).
  assert (T : forall i, (i < 30)%nat -> nth i (map t (seq 0 30)) 0 = t i).
  { intros i Hi. rewrite (nth_indep _ 0 (t 0%nat)) by (rewrite map_length, seq_length; lia). rewrite map_nth, seq_nth by lia. reflexivity. }
  assert (NC : forall b, ~ combines 30 7 powers (map t (seq 0 30)) b).
  { intros b C. assert (P : forall i, (i < 8)%nat -> rsum 7 (fun j => powers i j * b j) = t i) by (intros i Hi; rewrite (C i) by lia; apply T; lia).
    apply (seventh_difference (fun i => sin (INR i / 10)) (fun i => eq_refl)).
    assert (P' : forall i, (i < 8)%nat -> sin (INR i / 10) = 5 * (rsum 7 (fun j => powers i j * b j) + 3)) by (intros i Hi; rewrite (P i Hi); unfold t; lra).
    rewrite !P' by lia. unfold powers. cbn [rsum INR pow]. field. }
  repeat (split; [assumption|]). intros svd m c Hg Lm Tm Hc. set (y := map t (seq 0 30)) in *.
  destruct (model_fit svd X powers y H4 ltac:(lia) ltac:(lia) Hg m ltac:(lia) ltac:(apply nonempty_nf; auto)) as (D & w & r & E1 & E2 & E3 & Lw & Er & _).
  assert (0 < r).
  { rewrite Er. apply (no_exact_rss (mrows X) (mcols X) powers y m w); [|lia|exact Lw]. intro b. rewrite H1, H2. 
    destruct (find_differ 30 (fun i => rsum 7 (fun j => powers i j * b j)) (fun i => nth i y 0)) as [Q|Q]; [exfalso; exact (NC b Q)|exact Q]. }
  unfold criterion. rewrite E1. cbn [bind]. rewrite E2. cbn [bind]. rewrite E3. cbn [bind].
  replace (length (fins y)) with (mrows X) by (unfold fins; rewrite map_length; lia).
  assert (K : exists p, c (Z.of_nat (NumFeatures m)) (Z.of_nat (mrows X)) (fin r) = nadd (n := XR) (fin p) (nlogr (Z.of_nat (mrows X)) r)).
  { assert (0 <= r) by lra. destruct Hc as [<-|[<-|[<-|[]]]].
    - eexists. apply aic_xr; auto; lia.
    - eexists. apply aicc_xr; auto; lia.
    - eexists. apply bic_xr; auto; lia. }
  destruct K as (p & ->). unfold nlogr. rewrite (proj2 (Rltb_true 0 r) H). rewrite xadd_fin. eauto.
Qed.
Print Assumptions C101_all_models_wrong.

Lemma map_nth_seq : forall l : list R, map (fun i => nth i l 0) (seq 0 (length l)) = l.
Proof.
  induction l as [|a l IH]; [reflexivity|]. cbn [length seq map nth]. f_equal. rewrite <- seq_shift, map_map. exact IH.
Qed.

(** ** Polynomials *)
Lemma divide : forall n (b : nat -> R) r, exists q : nat -> R,
  (forall u, rsum (S n) (fun j => u ^ j * b j) = (u - r) * rsum n (fun j => u ^ j * q j) + rsum (S n) (fun j => r ^ j * b j)) /\
  ((forall j, (j < n)%nat -> q j = 0) -> rsum (S n) (fun j => r ^ j * b j) = 0 -> forall j, (j < S n)%nat -> b j = 0).
Proof.
  induction n as [|n IH]; intros b r.
  - exists (fun _ => 0). split; [intro u; cbn; ring|]. intros _ H j Hj. replace j with 0%nat by lia. cbn in H. lra.
  - destruct (IH (fun j => b (S j)) r) as (q & H1 & H2).
    set (p := rsum (S n) (fun j => r ^ j * b (S j))) in *.
    exists (fun j => match j with O => p | S j => q j end).
    assert (Sh : forall u, rsum (S (S n)) (fun j => u ^ j * b j) = b 0%nat + u * rsum (S n) (fun j => u ^ j * b (S j))).
    { intro u. rewrite rsum_shift, <- rsum_scal. cbn [pow]. rewrite Rmult_1_l. f_equal. apply rsum_ext. intros j _. ring. }
    split.
    + intro u. rewrite !Sh, (H1 u). fold p. rewrite (rsum_shift n). cbn [pow].
      rewrite (rsum_ext n (fun i => u * u ^ i * q i) (fun i => u * (u ^ i * q i))) by (intros; ring). rewrite rsum_scal. ring.
    + intros Z E. rewrite Sh in E. fold p in E. assert (P0 : p = 0) by exact (Z 0%nat ltac:(lia)).
      assert (B : forall j, (j < S n)%nat -> b (S j) = 0) by (apply H2; [intros j Hj; exact (Z (S j) ltac:(lia))|exact P0]).
      intros [|j] Hj; [rewrite P0 in E; lra|apply B; lia].
Qed.

(** a polynomial of degree below n with n distinct zeros has no coefficients *)
Lemma roots : forall l (b : nat -> R), NoDup l -> (forall u, In u l -> rsum (length l) (fun j => u ^ j * b j) = 0) ->
  forall j, (j < length l)%nat -> b j = 0.
Proof.
  induction l as [|r l IH]; intros b ND H j Hj; [cbn in Hj; lia|]. apply NoDup_cons_iff in ND. destruct ND as [Nr ND].
  change (length (r :: l)) with (S (length l)) in *. destruct (divide (length l) b r) as (q & H1 & H2).
  assert (Er : rsum (S (length l)) (fun j => r ^ j * b j) = 0) by (apply H; left; reflexivity).
  apply H2; [|exact Er|exact Hj]. apply IH; [exact ND|]. intros u Hu.
  assert (E := H u (or_intror Hu)). rewrite H1, Er in E. assert (u <> r) by (intros ->; contradiction).
  apply Rmult_eq_reg_l with (u - r); [lra|lra].
Qed.

(** if b and c combine the columns u^0, ..., u^(n-1) to the same values and there
    are n different u, they are equal *)
Lemma same_poly : forall n (us l : list R) (b c : nat -> R), NoDup l -> length l = n -> (forall u, In u l -> In u us) ->
  (forall i, (i < length us)%nat -> rsum n (fun j => nth i us 0 ^ j * b j) = rsum n (fun j => nth i us 0 ^ j * c j)) ->
  forall j, (j < n)%nat -> b j = c j.
Proof.
  intros n us l b c ND Ll Hl H j Hj. assert (Z : b j - c j = 0); [|lra].
  apply (roots l (fun j => b j - c j)); [exact ND| |lia]. intros u Hu. rewrite Ll.
  destruct (In_nth us u 0 (Hl u Hu)) as (i & Hi & <-). specialize (H i Hi).
  rewrite (rsum_ext n _ (fun j => nth i us 0 ^ j * b j + -1 * (nth i us 0 ^ j * c j))) by (intros; ring).
  rewrite rsum_plus, rsum_scal. lra.
Qed.

(** The OMP test cases, for every grid: the target is the combination of the
    columns given by ExpectCoeff (absent coefficients being zero), and the only
    one if the grid has as many different points as there are columns. *)
Theorem C101_linear_cubic : forall x : list R, x <> [] -> exists (t : OmpTest XR) y,
  LinearCubic (fins x) = Ok t /\ otTarget t = fins y /\ length y = length x /\
  mrows (otX t) = length x /\ mcols (otX t) = 4%nat /\ rmat (otX t) (fun i j => nth i x 0 ^ j) /\
  (forall i, (i < length x)%nat -> nth i y 0 = 1 + 10 * nth i x 0) /\
  exists c, otCoeff t = fins c /\ combines (length x) 4 (fun i j => nth i x 0 ^ j) y (fun j => nth j c 0) /\
    forall l b, NoDup l -> length l = 4%nat -> (forall u, In u l -> In u x) ->
      combines (length x) 4 (fun i j => nth i x 0 ^ j) y b -> forall j, (j < 4)%nat -> b j = nth j c 0.
Proof.
  intros x Hx. unfold LinearCubic. replace (length (fins x)) with (length x) by (unfold fins; rewrite map_length; reflexivity).
  set (n := length x). assert (Hn : (0 < n)%nat) by (destruct x; [contradiction|cbn in n; unfold n; lia]).
  assert (G : forall i, (i < n)%nat -> getn (fins x) i = Ok (fin (nth i x 0))) by (intros; apply getn_fins; auto).
  set (T := map (fun v => 1 + 10 * v) x).
  assert (ET : for_loop 0 n (fun i t => do v <- getn (fins x) i; setn t i (nofZ 1 + nofZ 10 * v)%num) (repeat (n0 (N := XR)) n) = Ok (fins T)).
  { rewrite (for_loop_ext _ _ (fun i t => setn t i (fin (1 + 10 * nth i x 0)))).
    - rewrite for_loop_fill0 by apply repeat_length. f_equal. unfold T, fins. rewrite map_map. unfold n. clear.
      rewrite <- (map_map (fun i => nth i x 0) (fun v => fin (1 + 10 * v))). rewrite map_nth_seq. reflexivity.
    - intros i s Hi. rewrite G by lia. cbn [bind]. rewrite !ofZ_fin, xmul_fin, xadd_fin. reflexivity. }
  rewrite ET. cbn [bind]. unfold new_dense. destruct (Nat.eqb_spec n 0) as [Q0|_]; [lia|]. cbn [orb Nat.eqb bind].
  destruct (fill_cols (N := XR) n 4 (fun i j => fin (nth i x 0 ^ j)) (fun j i => do v <- getn (fins x) i; Ok (npow v (Z.of_nat j)))
    (mkMat n 4 (fun _ _ => n0)) eq_refl eq_refl) as (X & E & H1 & H2 & H3).
  { intros i j Hi. rewrite G by exact Hi. cbn [bind]. rewrite xpow_nat. reflexivity. }
  assert (E' : for_loop 0 4 (fun col X => for_loop 0 n (fun i X => do v <- getn (fins x) i; mat_set X i col (npow v (Z.of_nat col))) X) (mkMat n 4 (fun _ _ => n0 (N := XR))) = Ok X).
  { etransitivity; [|exact E]. apply for_loop_ext. intros col s _. apply for_loop_ext. intros i s' Hi. rewrite G by lia. reflexivity. }
  rewrite E'. cbn [bind]. exists (mkOmpTest "LinearCubic" (fins T) X [1; 0]%Z [nofZ 1; nofZ 10]), T.
  assert (LT : length T = n) by (unfold T; rewrite map_length; reflexivity).
  assert (NT : forall i, (i < n)%nat -> nth i T 0 = 1 + 10 * nth i x 0).
  { intros i Hi. unfold T. rewrite (nth_indep _ 0 (1 + 10 * 0)) by (rewrite map_length; exact Hi). apply (map_nth (fun v => 1 + 10 * v)). }
  cbn [otTarget otX otCoeff]. split; [reflexivity|]. split; [reflexivity|]. split; [exact LT|]. split; [exact H1|]. split; [exact H2|].
  split; [intros i j Hi Hj; apply H3; lia|]. split; [exact NT|]. exists [1; 10]. split; [reflexivity|].
  assert (C : combines n 4 (fun i j => nth i x 0 ^ j) T (fun j => nth j [1; 10] 0)).
  { intros i Hi. rewrite NT by exact Hi. cbn. ring. }
  split; [exact C|]. intros l b ND Ll Hl Hb. apply (same_poly 4 x l b _ ND Ll Hl). intros i Hi. rewrite (Hb i Hi), (C i Hi). reflexivity.
Qed.
Print Assumptions C101_linear_cubic.

Theorem C101_exponentials : forall x : list R, x <> [] -> exists (t : OmpTest XR) y,
  Exponentials (fins x) = Ok t /\ otTarget t = fins y /\ length y = length x /\
  mrows (otX t) = length x /\ mcols (otX t) = 6%nat /\ rmat (otX t) (fun i j => exp (- INR j * nth i x 0)) /\
  (forall i, (i < length x)%nat -> nth i y 0 = exp (-5 * nth i x 0) - 3 * exp (- nth i x 0)) /\
  exists c, otCoeff t = fins c /\ combines (length x) 6 (fun i j => exp (- INR j * nth i x 0)) y (fun j => nth j c 0) /\
    forall l b, NoDup l -> length l = 6%nat -> (forall u, In u l -> In u x) ->
      combines (length x) 6 (fun i j => exp (- INR j * nth i x 0)) y b -> forall j, (j < 6)%nat -> b j = nth j c 0.
Proof.
  intros x Hx. unfold Exponentials. replace (length (fins x)) with (length x) by (unfold fins; rewrite map_length; reflexivity).
  set (n := length x). assert (Hn : (0 < n)%nat) by (destruct x; [contradiction|cbn in n; unfold n; lia]).
  assert (G : forall i, (i < n)%nat -> getn (fins x) i = Ok (fin (nth i x 0))) by (intros; apply getn_fins; auto).
  set (f := fun v => -3 * exp (- v) + 1 * exp (-5 * v)). set (T := map f x).
  assert (ET : for_loop 0 n (fun i t => do v <- getn (fins x) i; setn t i (nofZ (-3) * nexp (nneg v) + nofZ 1 * nexp (nofZ (-5) * v))%num) (repeat (n0 (N := XR)) n) = Ok (fins T)).
  { rewrite (for_loop_ext _ _ (fun i t => setn t i (fin (f (nth i x 0))))).
    - rewrite for_loop_fill0 by apply repeat_length. f_equal. unfold T, fins. rewrite map_map. unfold n. clear.
      rewrite <- (map_map (fun i => nth i x 0) (fun v => fin (f v))). rewrite map_nth_seq. reflexivity.
    - intros i s Hi. rewrite G by lia. cbn [bind]. apply (f_equal (setn s i)). rewrite !ofZ_fin.
      change (nneg (n := XR) (fin (nth i x 0))) with (fin (- nth i x 0)). rewrite xmul_fin.
      change (nexp (n := XR) (fin (- nth i x 0))) with (fin (exp (- nth i x 0))).
      change (nexp (n := XR) (fin (-5 * nth i x 0))) with (fin (exp (-5 * nth i x 0))). rewrite !xmul_fin, xadd_fin. reflexivity. }
  rewrite ET. cbn [bind]. unfold new_dense. destruct (Nat.eqb_spec n 0) as [Q0|_]; [lia|]. cbn [orb Nat.eqb bind].
  destruct (fill_cols (N := XR) n 6 (fun i j => fin (exp (- INR j * nth i x 0))) (fun j i => do v <- getn (fins x) i; Ok (nexp (nneg (nofnat j) * v)%num))
    (mkMat n 6 (fun _ _ => n0)) eq_refl eq_refl) as (X & E & H1 & H2 & H3).
  { intros i j Hi. rewrite G by exact Hi. cbn [bind]. unfold nofnat. rewrite ofZ_fin, <- INR_IZR_INZ.
    change (nneg (n := XR) (fin (INR j))) with (fin (- INR j)). rewrite xmul_fin. reflexivity. }
  assert (E' : for_loop 0 6 (fun col X => for_loop 0 n (fun i X => do v <- getn (fins x) i; mat_set X i col (nexp (nneg (nofnat col) * v)%num)) X) (mkMat n 6 (fun _ _ => n0 (N := XR))) = Ok X).
  { etransitivity; [|exact E]. apply for_loop_ext. intros col s _. apply for_loop_ext. intros i s' Hi. rewrite G by lia. reflexivity. }
  rewrite E'. cbn [bind]. exists (mkOmpTest "Exponentials" (fins T) X [1; 5]%Z [nofZ 0; nofZ (-3); nofZ 0; nofZ 0; nofZ 0; nofZ 1]), T.
  assert (LT : length T = n) by (unfold T; rewrite map_length; reflexivity).
  assert (NT : forall i, (i < n)%nat -> nth i T 0 = f (nth i x 0)).
  { intros i Hi. unfold T. rewrite (nth_indep _ 0 (f 0)) by (rewrite map_length; exact Hi). apply map_nth. }
  cbn [otTarget otX otCoeff]. split; [reflexivity|]. split; [reflexivity|]. split; [exact LT|]. split; [exact H1|]. split; [exact H2|].
  split; [intros i j Hi Hj; apply H3; lia|]. split; [intros i Hi; rewrite NT by exact Hi; unfold f; ring|].
  exists [0; -3; 0; 0; 0; 1]. split; [reflexivity|].
  assert (C : combines n 6 (fun i j => exp (- INR j * nth i x 0)) T (fun j => nth j [0; -3; 0; 0; 0; 1] 0)).
  { intros i Hi. rewrite NT by exact Hi. unfold f. cbn [rsum nth INR].
    replace (- (1 + 1 + 1 + 1 + 1) * nth i x 0) with (-5 * nth i x 0) by ring. replace (- (1) * nth i x 0) with (- nth i x 0) by ring. ring. }
  split; [exact C|]. intros l b ND Ll Hl Hb.
  assert (Pw : forall v j, exp (- INR j * v) = exp (- v) ^ j).
  { intros v j. induction j as [|j IH]; [cbn; replace (- 0 * v) with 0 by ring; apply exp_0|].
    rewrite S_INR. cbn [pow]. rewrite <- IH, <- exp_plus. f_equal. ring. }
  apply (same_poly 6 (map (fun v => exp (- v)) x) (map (fun v => exp (- v)) l) b).
  - apply FinFun.Injective_map_NoDup; [|exact ND]. intros u v Q. apply exp_inv in Q. lra.
  - rewrite map_length. exact Ll.
  - intros u Hu. apply in_map_iff in Hu. destruct Hu as (v & <- & Hv). apply (in_map (fun v => exp (- v))). auto.
  - intros i Hi. rewrite map_length in Hi. rewrite (nth_indep _ 0 (exp (- 0))) by (rewrite map_length; exact Hi).
    pose proof (map_nth (fun v => exp (- v)) x 0 i) as Qn. cbv beta in Qn. rewrite Qn. rewrite (rsum_ext 6 _ (fun j => exp (- INR j * nth i x 0) * b j)) by (intros; rewrite Pw; reflexivity).
    rewrite (rsum_ext 6 (fun j => exp (- nth i x 0) ^ j * nth j [0; -3; 0; 0; 0; 1] 0) (fun j => exp (- INR j * nth i x 0) * nth j [0; -3; 0; 0; 0; 1] 0)) by (intros; rewrite Pw; reflexivity).
    rewrite (Hb i Hi). symmetry. exact (C i Hi).
Qed.
Print Assumptions C101_exponentials.

(** ExpectOrder is not right for every grid: with the single point 1 all columns
    are equal and matching pursuit starts with column 0. *)
Theorem C101_order_refuted : exists (x : list R) (t : OmpTest XR), LinearCubic (fins x) = Ok t /\
  forall svd tol P w, good_svd svd (otX t) -> Omp svd (otX t) (otTarget t) tol = Ok (mkOmp (fins w) (map Z.of_nat P)) ->
    map Z.of_nat P <> otOrder t.
Proof.
  exists [1]. destruct (C101_linear_cubic [1] ltac:(discriminate)) as (t & y & E & Et & Ly & Hr & Hc & HA & Hy & _).
  exists t. split; [exact E|]. assert (Eo : otOrder t = [1; 0]%Z) by (cbn in E; injection E as <-; reflexivity).
  intros svd tol P w Hg HO C. rewrite Eo in C. rewrite Et in HO.
  assert (EP : P = [1; 0]%nat).
  { destruct P as [|a [|b [|c P]]]; try discriminate C. injection C as C1 C2. f_equal; [lia|]. f_equal. lia. }
  cbn [length] in *. set (A := fun i j : nat => nth i [1] 0 ^ j) in *.
  assert (A1 : forall j, A 0%nat j = 1) by (intro j; unfold A; cbn; apply pow1).
  assert (Y0 : nth 0 y 0 = 11) by (rewrite Hy by lia; cbn; ring).
  destruct (C39_greedy svd (otX t) A y tol P w HA ltac:(lia) ltac:(lia) ltac:(lia) Hg) with (k := 0%nat) (p := 1%nat) (w0 := [0; 0; 0; 0]) as [_ G].
  - intros j Hj. exists 0%nat. split; [lia|]. rewrite A1. lra.
  - exact HO.
  - rewrite EP. reflexivity.
  - cbn [firstn]. rewrite Hc, Hr. split; [reflexivity|split].
    + intros j _. destruct j as [|[|[|[|[|j]]]]]; reflexivity.
    + intros w' L' Z'. replace w' with [0; 0; 0; 0]; [lra|]. destruct w' as [|a [|b [|c [|d [|e w']]]]]; try discriminate L'.
      pose proof (Z' 0%nat ltac:(tauto)) as Z0. pose proof (Z' 1%nat ltac:(tauto)) as Z1. pose proof (Z' 2%nat ltac:(tauto)) as Z2. pose proof (Z' 3%nat ltac:(tauto)) as Z3.
      cbn in Z0, Z1, Z2, Z3. subst. reflexivity.
  - rewrite Hr, Hc. unfold rss. cbn [rsum nth]. rewrite Y0. unfold Rsqr. rewrite !Rmult_0_r. lra.
  - specialize (G 0%nat ltac:(lia)). rewrite Hr, Hc in G. unfold score, col_norm in G. cbn [rsum] in G. rewrite !A1 in G. lra.
Qed.
Print Assumptions C101_order_refuted.

(** MockCohenTarget: with Mode 0 the selections always agree and kappa is 1;
    otherwise a selection is any list of fewer than ten numbers below ten,
    repetitions included. *)
Definition draws (intn : nat -> Z) : Prop := forall k, (0 <= intn k < 10)%Z.

Theorem C101_mock :
  (forall rnd numSamples intn, (1 <= numSamples)%Z ->
     exists calls, GetCohensKappa (N := XR) rnd numSamples (MockCohenTarget (N := XR) intn 0%Z) = Ok (fin 1, calls)) /\
  (forall (N : Num) intn mode k indices, draws intn -> mode <> 0%Z ->
     exists sel k', tgSelect (MockCohenTarget (N := N) intn mode) k indices = Ok (sel, k') /\ (k < k')%nat /\
       (length sel < 10)%nat /\ Forall (fun v => (0 <= v < 10)%Z) sel) /\
  (forall (N : Num) mode sel indices, mode <> 0%Z -> (length sel < 10)%nat -> Forall (fun v => (0 <= v < 10)%Z) sel ->
     exists intn, draws intn /\ exists k', tgSelect (MockCohenTarget (N := N) intn mode) 0%nat indices = Ok (sel, k')).
Proof.
  assert (L : forall (intn : nat -> Z) mode k indices, mode <> 0%Z ->
    mock_selection intn mode k indices = Ok (map (fun i => intn (k + 1 + i)%nat) (seq 0 (Z.to_nat (intn k))), (k + 1 + Z.to_nat (intn k))%nat)).
  { intros intn mode k indices Hm. unfold mock_selection. destruct (Z.eqb_spec mode 0); [contradiction|]. cbv zeta.
    rewrite for_loop_fill0 by apply repeat_length. reflexivity. }
  split; [|split].
  - intros rnd m intn Hm. set (tgt := MockCohenTarget (N := XR) intn 0).
    assert (K : CohenKappa (N := XR) [0; 4; 8]%Z [0; 4; 8]%Z 10 = fin 1).
    { apply (C45_equal_selections [0; 4; 8]%Z 10); [lia| |cbn; lia]. split.
      - repeat constructor; cbn; intuition lia.
      - intros v Hv. cbn in Hv. lia. }
    destruct (GetCohensKappa (N := XR) rnd m tgt) as [[k calls]| |] eqn:E.
    + exists calls. do 2 f_equal. destruct (C46_split _ _ _ rnd m tgt k calls E) as (Lc & _ & ks & s & Sm & ->).
      assert (Ks : ks = repeat (fin 1) (length calls)).
      { clear - Sm K. induction Sm as [|s i1 i2 sel1 s1 sel2 s2 calls ks s3 H1 H2 Sm IH]; [reflexivity|].
        cbn in H1, H2. injection H1 as <- <-. injection H2 as <- <-. cbn [length repeat]. rewrite <- IH. f_equal. exact K. }
      rewrite Ks, Lc. assert (F : forall n a, fold_left nadd (repeat (fin 1) n) (fin a) = fin (a + INR n)).
      { induction n as [|n IH]; intro a; [cbn; apply (f_equal fin); lra|]. rewrite S_INR. cbn [repeat fold_left]. rewrite xadd_fin, IH. apply (f_equal fin). lra. }
      change (n0 (N := XR)) with (fin 0). rewrite F, ofZ_fin. assert (1 <= IZR m) by (apply (IZR_le 1); exact Hm).
      rewrite xdiv_fin by lra. apply (f_equal fin). rewrite INR_IZR_INZ, Z2Nat.id by lia. field. lra.
    + exfalso. destruct (C46_no_other_panic XR _ _ rnd m tgt) as (s & p & _ & [Q|Q]); [intros v C; congruence| |]; cbn in Q; exact (Q _ eq_refl).
    + exfalso. destruct (C46_no_other_panic XR _ _ rnd m tgt) as (s & p & _ & [Q|Q]); [intros v C; congruence| |]; cbn in Q; exact (Q _ eq_refl).
  - intros N intn mode k indices D Hm. cbn [MockCohenTarget tgSelect]. rewrite L by exact Hm. do 2 eexists. split; [reflexivity|].
    split; [lia|]. split; [rewrite map_length, seq_length; specialize (D k); lia|].
    apply Forall_forall. intros v Hv. apply in_map_iff in Hv. destruct Hv as (i & <- & _). apply D.
  - intros N mode sel indices Hm Hl Hs.
    exists (fun k => match k with O => Z.of_nat (length sel) | Datatypes.S i => nth i sel 0%Z end). split.
    + intros [|i]; [lia|]. destruct (Nat.lt_ge_cases i (length sel)) as [Hi|Hi].
      * rewrite Forall_forall in Hs. apply Hs. apply nth_In. exact Hi.
      * rewrite nth_overflow by exact Hi. lia.
    + cbn [MockCohenTarget tgSelect]. rewrite L by exact Hm. eexists. rewrite Nat2Z.id. apply (f_equal Ok). f_equal.
      cbn [Nat.add]. clear. induction sel as [|a l IH]; [reflexivity|]. cbn [length seq map nth]. f_equal. rewrite <- seq_shift, map_map. exact IH.
Qed.
Print Assumptions C101_mock.

(** grids with four and six different points, and a selection that is drawn *)
Example C101_points : NoDup [0; 1; 2; 3] /\ NoDup [0; 1; 2; 3; 4; 5] /\ draws (fun k => Z.of_nat (k mod 10)) /\
  tgSelect (MockCohenTarget (N := XR) (fun k => Z.of_nat ((k + 3) mod 10)) 1) 0%nat [] = Ok ([4; 5; 6]%Z, 4%nat).
Proof.
  split; [|split; [|split]].
  - repeat (constructor; [cbn; intuition lra|]). constructor.
  - repeat (constructor; [cbn; intuition lra|]). constructor.
  - intro k. pose proof (Nat.mod_upper_bound k 10). lia.
  - reflexivity.
Qed.

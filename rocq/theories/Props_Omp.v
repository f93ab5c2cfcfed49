(** C39: the result of orthogonal matching pursuit. *)
From Coq Require Import Reals Lra Psatz.
From Verif Require Import Base Num Mat RSum Model_Node Proof_Node Proof_Node2 Model_Util Proof_Util
  Proof_XR Proof_Norm Model_Fit Spec_Fit Proof_Fit Proof_Fit2 Model_Omp Spec_Omp Proof_Omp Proof_Lazy
  Proof_Omp2 Props_Fit.
Open Scope nat_scope.

Lemma new_omp : forall (N : Num) n, NewOmpResult (N := N) n = Ok (mkOmp (repeat n0 n) (repeat (-1)%Z n)).
Proof.
  intros N n. unfold NewOmpResult. rewrite (fill_map _ _ (fun _ => (-1)%Z)).
  - cbn [bind]. do 2 f_equal. generalize 0 at 1. induction n as [|n IH]; intros k; [reflexivity|].
    cbn [seq map repeat]. rewrite IH. reflexivity.
  - intros i s Hi Hs. apply setn_lt. lia.
  - apply repeat_length.
Qed.

Lemma reached_start : forall (N : Num) (svd : Mat N -> SVD N) X (y : list N),
  reached N svd X y [] (repeat n0 (mcols X)) (indicator (mcols X) []) y.
Proof.
  intros N svd X y. constructor; auto. split; [apply repeat_length|].
  intros i _ _. apply nth_repeat.
Qed.

Lemma setn_length : forall A (l l' : list A) i x, setn l i x = Ok l' -> length l' = length l.
Proof.
  intros A l l' i x H. unfold setn in H. destruct (i <? length l); [|discriminate].
  injection H as <-. apply upd_length.
Qed.

Lemma round_order : forall (N : Num) (svd : Mat N -> SVD N) X y tol norms k st st' stop,
  omp_round svd X y tol norms k st = Ok (st', stop) -> length (osOrder st') = length (osOrder st).
Proof.
  intros N svd X y tol norms k st st' stop E. unfold omp_round in E.
  do 3 (apply bind_ok in E; destruct E as (? & _ & E)).
  apply bind_ok in E. destruct E as (o & Eo & E).
  do 5 (apply bind_ok in E; destruct E as (? & _ & E)).
  apply bind_ok in E. destruct E as ([? ?] & _ & E). injection E as <- _. cbn [osOrder].
  exact (setn_length _ _ _ _ _ Eo).
Qed.

Lemma loop_order : forall (N : Num) (svd : Mat N -> SVD N) X y tol norms n k st st',
  omp_loop svd X y tol norms n k st = Ok st' -> length (osOrder st') = length (osOrder st).
Proof.
  induction n as [|n IH]; intros k st st' E; cbn [omp_loop] in E; [injection E as <-; reflexivity|].
  apply bind_ok in E. destruct E as ([s1 b] & E1 & E). apply round_order in E1. destruct b.
  - injection E as <-. exact E1.
  - rewrite (IH _ _ _ E). exact E1.
Qed.

Lemma Omp_inv : forall (N : Num) (svd : Mat N -> SVD N) X y tol r, Omp svd X y tol = Ok r ->
  exists norms P c pred, omp_norms X = Ok norms /\ ompOrder r = map Z.of_nat P /\ P <> [] /\ NoDup P /\
    Forall (fun i => i < mcols X) P /\ greedy N svd X y tol norms P /\ stopped N svd X y tol norms P /\
    fit_on svd X y P c pred /\ ompCoeff r = expand (indicator (mcols X) P) c.
Proof.
  intros N svd X y tol r E. unfold Omp in E. rewrite new_omp in E. cbn [bind ompCoeff ompOrder] in E.
  destruct (length y =? 0); [discriminate|]. destruct (Nat.eqb_spec (mcols X) 0) as [|Hn]; [discriminate|].
  apply bind_ok in E. destruct E as (norms & En & E).
  apply bind_ok in E. destruct E as (st & El & E).
  apply bind_ok in E. destruct E as (order & Et & E). injection E as <-. cbn [ompOrder ompCoeff].
  rewrite <- indicator_nil in El.
  destruct (loop_spec N svd X y tol norms (mcols X) [] (repeat n0 (mcols X)) (indicator (mcols X) []) y st)
    as (P & c & pred & P1 & P2 & P3 & P4 & P5 & P6 & P7 & t & Eo & Ht); auto.
  - apply reached_start.
  - constructor.
  - intros k j H. destruct k; discriminate.
  - left. reflexivity.
  - right. lia.
  - exists norms, P, c, pred. split; [exact En|]. split; [|repeat (split; auto)].
    rewrite Eo in Et. 
    rewrite (trim_gen N X P [] _ t (length (map Z.of_nat P ++ t))) in Et.
    + injection Et as <-. reflexivity.
    + apply repeat_length.
    + intros i Hi. apply nth_repeat.
    + exact P2.
    + apply loop_order in El. cbn [osOrder] in El. rewrite repeat_length, Eo in El. rewrite El. exact P3.
    + constructor.
    + exact Ht.
Qed.

(** C39, for any arithmetic and any decomposition routine: Order lists
    different features and at least one; Coeff has one entry per feature, those of
    the features outside Order are zero and the others are the coefficients that
    Fit gives for the features in Order. *)
Theorem C39_result : forall (N : Num) (svd : Mat N -> SVD N) X y tol r, Omp svd X y tol = Ok r ->
  exists P, ompOrder r = map Z.of_nat P /\ P <> [] /\ NoDup P /\ (forall j, In j P -> j < mcols X) /\
    length (ompCoeff r) = mcols X /\
    (forall j, ~ In j P -> nth j (ompCoeff r) n0 = n0) /\
    exists D c, GetDesignMatrix (indicator (mcols X) P) X = Ok D /\ Fit svd D y = Ok c /\
      ompCoeff r = expand (indicator (mcols X) P) c.
Proof.
  intros N svd X y tol r E.
  destruct (Omp_inv N svd X y tol r E) as (norms & P & c & pred & _ & P1 & P2 & P3 & P4 & _ & _ & (D & D1 & D2 & _) & P8).
  exists P. split; [exact P1|]. split; [exact P2|]. split; [exact P3|].
  split; [apply Forall_forall; exact P4|]. rewrite P8.
  split; [rewrite expand_length; apply indicator_length|]. split; [|exists D, c; auto].
  intros j Hj. apply expand_zero. apply not_true_is_false. intros T.
  destruct (Nat.lt_ge_cases j (mcols X)) as [Hl|Hl].
  - apply indicator_In in T; auto.
  - rewrite nth_overflow in T by (rewrite indicator_length; lia). discriminate.
Qed.
Print Assumptions C39_result.

Open Scope R_scope.

Lemma Omp_total : forall svd X A y tol, rmat X A -> (0 < mrows X)%nat -> (0 < mcols X)%nat ->
  length y = mrows X -> good_svd svd X -> exists r, Omp svd X (fins y) tol = Ok r.
Proof.
  intros svd X A y tol HA Hr Hc Hy Hs. unfold Omp. rewrite new_omp. cbn [bind ompCoeff ompOrder].
  rewrite fins_length. destruct (Nat.eqb_spec (length y) 0) as [|_]; [lia|]. destruct (Nat.eqb_spec (mcols X) 0) as [|_]; [lia|].
  rewrite (norms_xr X A y HA Hr Hy). cbn [bind]. rewrite <- indicator_nil.
  destruct (loop_total svd X A y HA Hr Hy Hs tol (mcols X) [] (repeat n0 (mcols X)) (repeat (-1)%Z (mcols X)) y 0%nat)
    as (st & Est); auto.
  - apply reached_start. - rewrite repeat_length. reflexivity.
  - rewrite Est. cbn [bind].
    destruct (loop_spec XR svd X (fins y) tol (fins (nrm X A)) (mcols X) [] (repeat n0 (mcols X)) (indicator (mcols X) []) (fins y) st)
      as (P & c & pred & P1 & P2 & P3 & P4 & P5 & P6 & P7 & t & Eo & Ht); auto.
    + apply reached_start. + constructor. + intros k j H. destruct k; discriminate. + left. reflexivity.
    + apply loop_order in Est. cbn [osOrder] in Est. rewrite repeat_length in Est.
      rewrite Eo in *. rewrite (trim_gen XR X P [] _ t (mcols X)); [cbn [bind]; eauto| | | | |constructor|exact Ht].
      * rewrite repeat_length. exact Est.
      * intros i Hi. apply nth_repeat.
      * exact P2.
      * exact P3.
Qed.

(** C39 in exact arithmetic: Omp always answers, and its coefficients are a least
    squares solution on the chosen features. *)
Theorem C39_least_squares : forall svd X A y tol, rmat X A -> (0 < mrows X)%nat -> (0 < mcols X)%nat ->
  length y = mrows X -> good_svd svd X ->
  exists P w, Omp svd X (fins y) tol = Ok (mkOmp (fins w) (map Z.of_nat P)) /\
    P <> [] /\ NoDup P /\ (forall j, In j P -> (j < mcols X)%nat) /\
    lsq_on (mrows X) (mcols X) A y P w.
Proof.
  intros svd X A y tol HA Hr Hc Hy Hs.
  destruct (Omp_total svd X A y tol HA Hr Hc Hy Hs) as ([co o] & E).
  destruct (Omp_inv XR svd X (fins y) tol _ E) as (norms & P & c & pred & _ & P1 & P2 & P3 & P4 & _ & _ & P7 & P8).
  cbn [ompOrder ompCoeff] in *.
  destruct (fit_on_xr svd X A y HA Hr Hy Hs P P2 P4) as (c' & pred' & w & F1 & F2 & F3 & _).
  destruct (fit_on_fun XR svd X (fins y) P c pred _ _ P7 F1) as (-> & ->).
  exists P, w. rewrite E, P1, P8, F2. split; [reflexivity|]. split; [exact P2|]. split; [exact P3|].
  split; [apply Forall_forall; exact P4|exact F3].
Qed.
Print Assumptions C39_least_squares.

Lemma map_of_nat_inj : forall P Q, map Z.of_nat P = map Z.of_nat Q -> P = Q.
Proof.
  induction P as [|p P IH]; intros [|q Q] H; try discriminate H; [reflexivity|].
  cbn [map] in H. injection H as H1 H2. apply Nat2Z.inj in H1. subst. f_equal. auto.
Qed.

Lemma fins_inj' : forall a b, fins a = fins b -> a = b.
Proof.
  induction a as [|x a IH]; intros [|z b] H; try discriminate H; [reflexivity|].
  cbn [fins map] in H. injection H as H1 H2. f_equal; auto.
Qed.

Lemma residual_fun : forall (N : Num) (svd : Mat N -> SVD N) X y P r r',
  residual svd X y P r -> residual svd X y P r' -> r = r'.
Proof.
  intros N svd X y [|p P] r r' H H'; cbn [residual] in *; [congruence|].
  destruct H as (c & pr & F & ->). destruct H' as (c' & pr' & F' & ->).
  destruct (fit_on_fun N svd X y (p :: P) _ _ _ _ F F') as (_ & ->). reflexivity.
Qed.

Lemma nonzero_cols : forall X A,
  (forall j, (j < mcols X)%nat -> exists i, (i < mrows X)%nat /\ A i j <> 0) -> cols_nonzero X A.
Proof.
  intros X A H j Hj. destruct (H j Hj) as (i & Hi & Ha). unfold col_norm. apply sqrt_lt_R0.
  apply Rlt_le_trans with (A i j * A i j); [nra|].
  apply (rsum_term_le (mrows X) (fun i => A i j * A i j)); [intros; nra|exact Hi].
Qed.

Section Result.
Variables (svd : Mat XR -> SVD XR) (X : Mat XR) (A : nat -> nat -> R) (y : list R) (tol : XR)
  (P : list nat) (w : list R).
Hypothesis (HA : rmat X A) (Hr : (0 < mrows X)%nat) (Hc : (0 < mcols X)%nat) (Hy : length y = mrows X)
  (Hs : good_svd svd X)
  (E : Omp svd X (fins y) tol = Ok (mkOmp (fins w) (map Z.of_nat P))).

Lemma result_inv :
  P <> [] /\ NoDup P /\ Forall (fun i => (i < mcols X)%nat) P /\
  greedy XR svd X (fins y) tol (fins (nrm X A)) P /\ stopped XR svd X (fins y) tol (fins (nrm X A)) P /\
  lsq_on (mrows X) (mcols X) A y P w /\
  (forall j, In j P -> rsum (mrows X) (fun i => A i j * err (mcols X) A y w i) = 0) /\
  exists c pred, fit_on svd X (fins y) P (fins c) (fins pred) /\ length pred = mrows X /\
    (forall i, (i < mrows X)%nat -> nth i y 0 - nth i pred 0 = err (mcols X) A y w i).
Proof.
  destruct (Omp_inv XR svd X (fins y) tol _ E) as (norms & P' & c & pred & P0 & P1 & P2 & P3 & P4 & P5 & P6 & P7 & P8).
  cbn [ompOrder ompCoeff] in *. apply map_of_nat_inj in P1. subst P'.
  rewrite (norms_xr X A y HA Hr Hy) in P0. injection P0 as <-.
  destruct (fit_on_xr svd X A y HA Hr Hy Hs P P2 P4) as (c' & pred' & w' & F1 & F2 & F3 & F4 & F5 & F6).
  destruct (fit_on_fun XR svd X (fins y) P c pred _ _ P7 F1) as (-> & ->).
  rewrite F2 in P8. apply fins_inj' in P8. subst w'.
  repeat (split; [assumption|]). exists c', pred'. auto.
Qed.

Lemma C39_stops' :
  cols_nonzero X A ->
  nltb (n := XR) (fin (sqrt (rss (mrows X) (mcols X) A w y / INR (mrows X)))) tol = true \/
  forall w', length w' = mcols X ->
    rss (mrows X) (mcols X) A w y <= rss (mrows X) (mcols X) A w' y.
Proof.
  intros HN. destruct result_inv as (R1 & R2 & R3 & _ & R4 & R5 & R6 & c & pred & R7 & R8 & R9).
  destruct R4 as [(c' & pred' & F & T)|[L|(re & proj & j & S1 & S2 & S3 & S4)]].
  - left. destruct (fit_on_fun XR svd X (fins y) P _ _ _ _ R7 F) as (_ & <-).
    rewrite (rms_xr X A y Hr Hy pred w R8 R9) in T. exact T.
  - right. intros w' _. apply rss_min. intros j Hj. right. apply R6.
    assert (I : incl (seq 0 (mcols X)) P).
    { apply NoDup_length_incl; [exact R2|rewrite seq_length; lia|].
      intros i Hi. rewrite Forall_forall in R3. apply in_seq. specialize (R3 i Hi). lia. }
    apply I, in_seq. lia.
  - right. destruct (residual_xr svd X A y HA Hr Hy Hs P R3) as (e & w0 & Q1 & Q2 & Q3 & Q4 & Q5).
    pose proof (residual_fun XR svd X (fins y) P _ _ S1 Q1). subst re.
    assert (EU : forall i, (i < mrows X)%nat -> err (mcols X) A y w0 i = err (mcols X) A y w i).
    { apply (err_unique _ _ A P w w0 y); auto. }
    assert (ER : rss (mrows X) (mcols X) A w0 y = rss (mrows X) (mcols X) A w y).
    { rewrite !rss_err. apply rsum_ext. intros i Hi. rewrite EU by exact Hi. reflexivity. }
    destruct (rss_nonneg (mrows X) (mcols X) A w y) as [Hp|Hz].
    2:{ intros w' _. rewrite <- Hz. apply rss_nonneg. }
    destruct (pick_max X A y HA Hr Hy e HN Hc Q2) as (proj' & j' & T1 & T2 & T3 & T4 & _).
    { rewrite (elen_0 X A y e w0 Q5), ER. apply sqrt_lt_R0. exact Hp. }
    rewrite S2 in T1. injection T1 as <-. rewrite S3 in T2. injection T2 as <-.
    assert (Z : score (mrows X) A (fun i => nth i e 0) j = 0).
    { rewrite (score_sign X A y e w0 j Q5). unfold score. rewrite Q4 by exact S4.
      rewrite Rabs_R0. unfold Rdiv. ring. }
    intros w' _. apply rss_min. intros k Hk. right.
    specialize (T4 k Hk). rewrite Z, (score_sign X A y e w0 k Q5) in T4. unfold score in T4.
    pose proof (HN k Hk) as Hck. set (v := rsum (mrows X) (fun i => A i k * err (mcols X) A y w0 i)) in T4.
    assert (V : Rabs v = 0).
    { pose proof (Rabs_pos v). destruct H as [H|H]; [|auto].
      assert (0 < Rabs v / col_norm (mrows X) A k) by (apply Rdiv_lt_0_compat; auto). lra. }
    destruct (Req_dec v 0) as [V0|V0]; [|apply Rabs_no_R0 in V0; contradiction].
    rewrite <- V0. apply rsum_ext. intros i Hi. rewrite EU by exact Hi. reflexivity.
Qed.

Lemma C39_greedy' : cols_nonzero X A ->
  forall k p w0, nth_error P k = Some p ->
    lsq_on (mrows X) (mcols X) A y (firstn k P) w0 -> 0 < rss (mrows X) (mcols X) A w0 y ->
    (forall j, (j < mcols X)%nat ->
       score (mrows X) A (err (mcols X) A y w0) j <= score (mrows X) A (err (mcols X) A y w0) p) /\
    (forall j, (j < p)%nat ->
       score (mrows X) A (err (mcols X) A y w0) j < score (mrows X) A (err (mcols X) A y w0) p).
Proof.
  intros HN k p w0 Hk Hw0 Hp. destruct result_inv as (_ & _ & R3 & R4 & _).
  destruct (R4 k p Hk) as (_ & re & proj & S1 & S2 & S3).
  assert (R3' : Forall (fun i => (i < mcols X)%nat) (firstn k P)).
  { rewrite <- (firstn_skipn k P) in R3. apply Forall_app in R3. tauto. }
  destruct (residual_xr svd X A y HA Hr Hy Hs (firstn k P) R3') as (e & w1 & Q1 & Q2 & Q3 & Q4 & Q5).
  pose proof (residual_fun XR svd X (fins y) _ _ _ S1 Q1). subst re.
  assert (EU : forall i, (i < mrows X)%nat -> err (mcols X) A y w0 i = err (mcols X) A y w1 i).
  { apply (err_unique _ _ A (firstn k P) w1 w0 y); auto. }
  assert (ER : rss (mrows X) (mcols X) A w0 y = rss (mrows X) (mcols X) A w1 y).
  { rewrite !rss_err. apply rsum_ext. intros i Hi. rewrite EU by exact Hi. reflexivity. }
  assert (ES : forall j, score (mrows X) A (fun i => nth i e 0) j = score (mrows X) A (err (mcols X) A y w0) j).
  { intros j. rewrite (score_sign X A y e w1 j Q5). unfold score. do 2 f_equal. apply rsum_ext. intros i Hi.
    rewrite EU by exact Hi. reflexivity. }
  destruct (pick_max X A y HA Hr Hy e HN Hc Q2) as (proj' & j' & T1 & T2 & T3 & T4 & T5).
  { rewrite (elen_0 X A y e w1 Q5), <- ER. apply sqrt_lt_R0. exact Hp. }
  rewrite S2 in T1. injection T1 as <-. rewrite S3 in T2. injection T2 as <-.
  split; intros j Hj; rewrite <- !ES; auto.
Qed.

Lemma C39_no_sooner' : forall k w0, (0 < k < length P)%nat ->
  lsq_on (mrows X) (mcols X) A y (firstn k P) w0 ->
  nltb (n := XR) (fin (sqrt (rss (mrows X) (mcols X) A w0 y / INR (mrows X)))) tol = false.
Proof.
  intros k w0 Hk Hw0. destruct result_inv as (_ & _ & R3 & R4 & _).
  destruct (nth_error P k) as [p|] eqn:Ep; [|apply nth_error_None in Ep; lia].
  destruct (R4 k p Ep) as ([Z|(c & pred & F & T)] & _).
  - apply (f_equal (@length nat)) in Z. rewrite firstn_length in Z. cbn [length] in Z. lia.
  - assert (R3' : Forall (fun i => (i < mcols X)%nat) (firstn k P)).
    { rewrite <- (firstn_skipn k P) in R3. apply Forall_app in R3. tauto. }
    assert (NZ : firstn k P <> []).
    { intros Z. apply (f_equal (@length nat)) in Z. rewrite firstn_length in Z. cbn [length] in Z. lia. }
    destruct (fit_on_xr svd X A y HA Hr Hy Hs (firstn k P) NZ R3') as (c' & pred' & w' & F1 & _ & F3 & F4 & F5 & F6).
    destruct (fit_on_fun XR svd X (fins y) _ _ _ _ _ F F1) as (_ & ->).
    rewrite (rms_xr X A y Hr Hy pred' w' F4 F5) in T.
    assert (ER : rss (mrows X) (mcols X) A w0 y = rss (mrows X) (mcols X) A w' y).
    { apply Rle_antisym; [apply Hw0|apply F3]; try apply F3; apply Hw0. }
    rewrite ER. exact T.
Qed.

Lemma zero_pick : (forall i, (i < mrows X)%nat -> A i 0%nat = 0) -> P = [0%nat].
Proof.
  intros HZ. destruct result_inv as (R1 & R2 & R3 & R4 & _).
  assert (AZ : forall p, In p P -> p = 0%nat).
  { intros p Hp. apply In_nth_error in Hp. destruct Hp as (k & Hk).
    destruct (R4 k p Hk) as (_ & re & proj & S1 & S2 & S3).
    assert (R3' : Forall (fun i => (i < mcols X)%nat) (firstn k P)).
    { rewrite <- (firstn_skipn k P) in R3. apply Forall_app in R3. tauto. }
    destruct (residual_xr svd X A y HA Hr Hy Hs (firstn k P) R3') as (e & w1 & Q1 & Q2 & _).
    pose proof (residual_fun XR svd X (fins y) _ _ _ S1 Q1). subst re.
    rewrite (proj_xr X A y HA Hr Hy e Q2) in S2. injection S2 as <-.
    destruct (mcols X) as [|n]; [lia|]. cbn [seq map] in S3.
    rewrite (Argmax_nan XR XR_OrdLaws) in S3; [injection S3 as <-; reflexivity|].
    unfold corr, col_norm.
    rewrite (rsum_0' _ (fun i => A i 0%nat * nth i e 0)) by (intros i Hi; rewrite HZ by exact Hi; ring).
    rewrite (rsum_0' _ (fun i => A i 0%nat * A i 0%nat)) by (intros i Hi; rewrite HZ by exact Hi; ring).
    rewrite sqrt_0, Rmult_0_r. cbn.
    assert (Z : Rltb 0 0 = false) by (apply Rltb_false; lra). rewrite Reqb_refl, Z. reflexivity. }
  destruct P as [|p P']; [contradiction|]. rewrite (AZ p) in * by (left; reflexivity).
  destruct P' as [|q P']; [reflexivity|]. rewrite (AZ q) in R2 by (right; left; reflexivity).
  inversion R2 as [|? ? Hn _]; subst. destruct Hn. left. reflexivity.
Qed.
End Result.

(** When no column is zero, Omp goes on until the root mean square error is
    below the tolerance or until the coefficients are a least squares solution of
    the full problem (so nothing is gained by the features left out). *)
Theorem C39_stops : forall svd X A y tol P w, rmat X A -> (0 < mrows X)%nat -> (0 < mcols X)%nat ->
  length y = mrows X -> good_svd svd X ->
  (forall j, (j < mcols X)%nat -> exists i, (i < mrows X)%nat /\ A i j <> 0) ->
  Omp svd X (fins y) tol = Ok (mkOmp (fins w) (map Z.of_nat P)) ->
  nltb (n := XR) (fin (sqrt (rss (mrows X) (mcols X) A w y / INR (mrows X)))) tol = true \/
  forall w', length w' = mcols X ->
    rss (mrows X) (mcols X) A w y <= rss (mrows X) (mcols X) A w' y.
Proof.
  intros svd X A y tol P w HA Hr Hc Hy Hs HN E.
  exact (C39_stops' svd X A y tol P w HA Hr Hc Hy Hs E (nonzero_cols X A HN)).
Qed.
Print Assumptions C39_stops.

(** Omp stops as soon as it can: with fewer of the features of Order the root
    mean square error was not below the tolerance. *)
Theorem C39_no_sooner : forall svd X A y tol P w, rmat X A -> (0 < mrows X)%nat -> (0 < mcols X)%nat ->
  length y = mrows X -> good_svd svd X ->
  Omp svd X (fins y) tol = Ok (mkOmp (fins w) (map Z.of_nat P)) ->
  forall k w0, (0 < k < length P)%nat -> lsq_on (mrows X) (mcols X) A y (firstn k P) w0 ->
  nltb (n := XR) (fin (sqrt (rss (mrows X) (mcols X) A w0 y / INR (mrows X)))) tol = false.
Proof.
  intros svd X A y tol P w HA Hr Hc Hy Hs E.
  exact (C39_no_sooner' svd X A y tol P w HA Hr Hc Hy Hs E).
Qed.
Print Assumptions C39_no_sooner.

(** Each feature is the one most correlated with what the features before it
    leave (the first one among equals), as long as they leave something. *)
Theorem C39_greedy : forall svd X A y tol P w, rmat X A -> (0 < mrows X)%nat -> (0 < mcols X)%nat ->
  length y = mrows X -> good_svd svd X ->
  (forall j, (j < mcols X)%nat -> exists i, (i < mrows X)%nat /\ A i j <> 0) ->
  Omp svd X (fins y) tol = Ok (mkOmp (fins w) (map Z.of_nat P)) ->
  forall k p w0, nth_error P k = Some p ->
    lsq_on (mrows X) (mcols X) A y (firstn k P) w0 -> 0 < rss (mrows X) (mcols X) A w0 y ->
    (forall j, (j < mcols X)%nat ->
       score (mrows X) A (err (mcols X) A y w0) j <= score (mrows X) A (err (mcols X) A y w0) p) /\
    (forall j, (j < p)%nat ->
       score (mrows X) A (err (mcols X) A y w0) j < score (mrows X) A (err (mcols X) A y w0) p).
Proof.
  intros svd X A y tol P w HA Hr Hc Hy Hs HN E.
  exact (C39_greedy' svd X A y tol P w HA Hr Hc Hy Hs E (nonzero_cols X A HN)).
Qed.
Print Assumptions C39_greedy.

(** Finding: a first column of zeros (or any first column without entries other
    than zero) has no direction, its correlation is 0/0, and NaN in front is what
    Argmax returns: Omp then selects this column alone and never a useful one,
    whatever the data. *)
Theorem C39_zero_first_column : forall svd X A y tol, rmat X A -> (0 < mrows X)%nat -> (0 < mcols X)%nat ->
  length y = mrows X -> good_svd svd X ->
  (forall i, (i < mrows X)%nat -> A i 0%nat = 0) ->
  exists w, Omp svd X (fins y) tol = Ok (mkOmp (fins w) [0%Z]) /\
    (forall j, (0 < j)%nat -> nth j w 0 = 0) /\
    rss (mrows X) (mcols X) A w y = lsum (map Rsqr y).
Proof.
  intros svd X A y tol HA Hr Hc Hy Hs HZ.
  destruct (C39_least_squares svd X A y tol HA Hr Hc Hy Hs) as (P & w & E & _ & _ & _ & L1 & L2 & _).
  pose proof (zero_pick svd X A y tol P w HA Hr Hc Hy Hs E HZ). subst P.
  exists w. split; [exact E|]. assert (Z : forall j, (0 < j)%nat -> nth j w 0 = 0).
  { intros j Hj. apply L2. intros [|[]]. lia. }
  split; [exact Z|]. rewrite lsum_rsum, map_length, Hy. apply rsum_ext. intros i Hi.
  rewrite rsum_0'.
  - rewrite (nth_map_lt _ _ Rsqr y i 0 0) by lia. unfold Rsqr. ring.
  - intros [|j] Hj; [rewrite HZ by exact Hi; ring|rewrite Z by lia; ring].
Qed.
Print Assumptions C39_zero_first_column.

(** Three observations of two orthogonal features.  The feature 1, which explains
    more of the data, comes first; both are needed. *)
Example C39_example :
  Omp svd_orth (eye 3 2) (fins [1; 2; 0]) (fin (1/2)) = Ok (mkOmp (fins [1; 2]) [1; 0]%Z).
Proof.
  assert (HR : rmat (eye 3 2) delta) by (intros i j _ _; reflexivity).
  assert (HS : good_svd svd_orth (eye 3 2)) by (apply eye_good; lia).
  assert (HN : forall j, (j < mcols (eye 3 2))%nat -> exists i, (i < mrows (eye 3 2))%nat /\ delta i j <> 0).
  { intros j Hj. exists j. cbn in *. rewrite delta_same. split; [lia|lra]. }
  destruct (C39_least_squares svd_orth (eye 3 2) delta [1; 2; 0] (fin (1/2)) HR ltac:(cbn; lia) ltac:(cbn; lia) eq_refl HS)
    as (P & w & E & P1 & P2 & P3 & L1 & L2 & L3).
  pose proof (C39_greedy svd_orth (eye 3 2) delta [1; 2; 0] (fin (1/2)) P w HR ltac:(cbn; lia) ltac:(cbn; lia) eq_refl HS HN E) as G.
  pose proof (C39_stops svd_orth (eye 3 2) delta [1; 2; 0] (fin (1/2)) P w HR ltac:(cbn; lia) ltac:(cbn; lia) eq_refl HS HN E) as T.
  cbn [eye mrows mcols] in *.
  destruct w as [|a [|b [|]]]; try discriminate L1.
  assert (RS : forall a b, rss 3 2 delta [a; b] [1; 2; 0] = (a - 1) * (a - 1) + (b - 2) * (b - 2)).
  { intros a' b'. unfold rss, delta, Rsqr. cbn. ring. }
  assert (SC0 : score 3 delta (err 2 delta [1; 2; 0] [0; 0]) 0 = 1 /\ score 3 delta (err 2 delta [1; 2; 0] [0; 0]) 1 = 2).
  { unfold score, err, col_norm, delta. cbn. 
    replace (0 + 1 * 1 + 0 * 0 + 0 * 0) with 1 by ring. replace (0 + 0 * 0 + 1 * 1 + 0 * 0) with 1 by ring.
    rewrite sqrt_1. split; rewrite Rabs_right by lra; lra. }
  destruct P as [|p0 P]; [contradiction|].
  assert (p0 = 1%nat).
  { destruct (G 0%nat p0 [0; 0] eq_refl) as (G1 & _).
    - split; [reflexivity|]. split; [intros [|[|j]] _; [reflexivity|reflexivity|destruct j; reflexivity]|].
      intros w' Lw' Zw'. destruct w' as [|c [|d [|]]]; try discriminate Lw'.
      pose proof (Zw' 0%nat (fun x => x)). pose proof (Zw' 1%nat (fun x => x)). cbn in *. subst. lra.
    - rewrite RS. lra.
    - assert (Hp := P3 p0 (or_introl eq_refl)). specialize (G1 1%nat ltac:(lia)).
      destruct p0 as [|[|]]; [|reflexivity|lia]. lra. }
  subst p0.
  assert (P = [0%nat]).
  { destruct P as [|q P].
    - exfalso. assert (a = 0) by (apply (L2 0%nat); intros [|[]]; discriminate). subst a.
      destruct T as [T|T].
      + change (Rltb (sqrt (rss 3 2 delta [0; b] [1; 2; 0] / INR 3)) (1/2) = true) in T.
        apply Rltb_true in T. rewrite RS in T. replace (INR 3) with 3 in T by (cbn; ring).
        assert (Q : sqrt (1/4) <= sqrt (((0 - 1) * (0 - 1) + (b - 2) * (b - 2)) / 3)).
        { apply sqrt_le_1_alt. assert (0 <= (b-2)*(b-2)) by apply Rle_0_sqr. lra. }
        replace (1/4) with ((1/2)*(1/2)) in Q by field. rewrite sqrt_square in Q by lra. lra.
      + specialize (T [1; 2] eq_refl). rewrite !RS in T. pose proof (Rle_0_sqr (b - 2)). unfold Rsqr in *. lra.
    - assert (Hq := P3 q (or_intror (or_introl eq_refl))).
      assert (q <> 1%nat). { intros ->. inversion P2 as [|? ? H _]; subst. apply H. left; reflexivity. }
      assert (q = 0%nat) by lia. subst q. destruct P as [|r P]; [reflexivity|exfalso].
      assert (Hr := P3 r (or_intror (or_intror (or_introl eq_refl)))).
      inversion P2 as [|? ? H1 P2']; subst. inversion P2' as [|? ? H2 _]; subst.
      destruct r as [|[|]]; [apply H2; left; reflexivity|apply H1; right; left; reflexivity|lia]. }
  subst P. specialize (L3 [1; 2] eq_refl). rewrite !RS in L3.
  assert (L4 : (a - 1) * (a - 1) + (b - 2) * (b - 2) <= 0).
  { assert (Q : forall j, ~ In j [1%nat; 0%nat] -> nth j [1; 2] 0 = 0).
    { intros [|[|j]] Hj; [destruct Hj; cbn; auto|destruct Hj; cbn; auto|destruct j; reflexivity]. }
    specialize (L3 Q). lra. }
  pose proof (Rle_0_sqr (a - 1)). pose proof (Rle_0_sqr (b - 2)). unfold Rsqr in *.
  assert (Ha : Rsqr (a - 1) = 0) by (unfold Rsqr; lra). assert (Hb : Rsqr (b - 2) = 0) by (unfold Rsqr; lra).
  apply Rsqr_0_uniq in Ha. apply Rsqr_0_uniq in Hb. replace a with 1 in E by lra. replace b with 2 in E by lra. exact E.
Qed.

Definition zcol : Mat XR := mkMat 1 2 (fun _ j => fin (delta j 1)).
Definition svd_zcol (D : Mat XR) : SVD XR :=
  if (mcols D =? 1)%nat then mkSVD [mval D 0%nat 0%nat] (eye 1 1) (eye 1 1)
  else mkSVD (fins [1]) (eye 1 1) (mkMat 2 1 (fun i _ => fin (delta i 1))).

Lemma zcol_good : good_svd svd_zcol zcol.
Proof.
  intros mask D Hl ED.
  assert (HR : rmat zcol (fun _ j => delta j 1)) by (intros i j _ _; reflexivity).
  assert (Hf : (0 < NumFeatures mask)%nat).
  { destruct (Nat.eq_dec (NumFeatures mask) 0) as [E|E]; [|lia]. unfold GetDesignMatrix in ED. rewrite E in ED. discriminate. }
  destruct (design_xr zcol _ mask HR ltac:(cbn; lia) Hf ltac:(lia)) as (D' & ED' & RD & CD & QD).
  rewrite ED in ED'. injection ED' as <-. cbn [zcol mrows] in RD.
  assert (L : forall i : nat, (i < 1)%nat -> i = 0%nat) by (intros; lia).
  destruct (Nat.eq_dec (NumFeatures mask) 1) as [E1|E1].
  - rewrite E1 in CD. unfold svd_zcol. rewrite CD. cbn [Nat.eqb].
    rewrite (QD 0%nat 0%nat) by lia. unfold sub. set (x := delta (selcol mask 0) 1).
    assert (Hx : x = 0 \/ x = 1) by (unfold x, delta; destruct (_ =? _)%nat; auto).
    split.
    + exists (sub (fun _ j => delta j 1) mask), delta, delta, [x]. cbn [svS svU svV eye mrows mcols length].
      split; [exact QD|]. do 3 (split; [auto; reflexivity|]). split; [intros i j _ _; reflexivity|].
      split; [symmetry; exact CD|]. split; [reflexivity|]. split; [intros i j _ _; reflexivity|].
      rewrite RD, CD.
      split; [|split; [|split]].
      * intros a b Ha Hb. rewrite (L a Ha), (L b Hb). unfold delta. cbn. ring.
      * intros a b Ha Hb. rewrite (L a Ha), (L b Hb). unfold delta. cbn. ring.
      * intros z [<-|[]]. lra.
      * intros i j Hi Hj. rewrite (L i Hi), (L j Hj). change (sub (fun _ j => delta j 1) mask 0 0) with x.
        clearbody x. unfold delta. cbn. ring.
    + intros z [Hz|[]]. cbn in Hz. injection Hz as <-. destruct Hx as [->| ->]; [left; reflexivity|right; lra].
  - assert (mask = [true; true]).
    { destruct mask as [|b1 [|b2 [|]]]; try discriminate Hl. destruct b1, b2; cbn in *; auto; lia. }
    subst mask. cbn [NumFeatures fold_left] in CD. change (NumFeatures [true; true]) with 2%nat in *.
    unfold svd_zcol. rewrite CD. cbn [Nat.eqb]. split.
    + exists (sub (fun _ j => delta j 1) [true; true]), delta, (fun i _ => delta i 1), [1].
      cbn [svS svU svV eye mrows mcols length].
      split; [exact QD|]. do 3 (split; [auto; reflexivity|]). split; [intros i j _ _; reflexivity|].
      split; [symmetry; exact CD|]. split; [reflexivity|]. split; [intros i j _ _; reflexivity|].
      rewrite RD, CD.
      split; [|split; [|split]].
      * intros a b Ha Hb. rewrite (L a Ha), (L b Hb). unfold delta. cbn. ring.
      * intros a b Ha Hb. rewrite (L a Ha), (L b Hb). unfold delta. cbn. ring.
      * intros z [<-|[]]. lra.
      * intros i j Hi Hj. rewrite (L i Hi). unfold sub.
        destruct j as [|[|]]; [| |lia].
        -- change (selcol [true; true] 0) with 0%nat. unfold delta; cbn; ring.
        -- change (selcol [true; true] 1) with 1%nat. unfold delta; cbn; ring.
    + intros z [Hz|[]]. cbn in Hz. injection Hz as <-. right. lra.
Qed.

(** A column of zeros in front of one that fits the data exactly. *)
Example C39_zero_example : good_svd svd_zcol zcol /\
  exists w, Omp svd_zcol zcol (fins [1]) (fin (1/2)) = Ok (mkOmp (fins w) [0%Z]) /\
    rss 1 2 (fun _ j => delta j 1) w [1] = 1 /\ rss 1 2 (fun _ j => delta j 1) [0; 1] [1] = 0.
Proof.
  split; [exact zcol_good|].
  destruct (C39_zero_first_column svd_zcol zcol (fun _ j => delta j 1) [1] (fin (1/2))) as (w & E & _ & R).
  - intros i j _ _. reflexivity.
  - cbn; lia. - cbn; lia. - reflexivity. - exact zcol_good. - intros i _. reflexivity.
  - exists w. split; [exact E|]. cbn [zcol mrows mcols] in R. split.
    + rewrite R. cbn. unfold lsum, Rsqr. cbn. ring.
    + unfold rss, delta, Rsqr. cbn. ring.
Qed.

(** C87: orthogonal matching pursuit does not depend on the units, and on
    uncorrelated features it finds the sparsest model. *)
From Coq Require Import Reals Lra Psatz Permutation.
From Verif Require Import Base Num Mat RSum Model_Node Proof_Node Proof_Node2 Model_Util Proof_Util
  Proof_XR Proof_Norm Model_Fit Spec_Fit Proof_Fit Proof_Fit2 Model_Omp Spec_Omp Proof_Omp Proof_Lazy
  Proof_Omp2 Props_Fit Props_Omp Props_EndToEnd Spec_Subset Proof_Subset Props_Subset.
Open Scope R_scope.

(** ** two runs that see the same correlations and stop alike pick the same *)
Section Same.
Variables (svd svd' : Mat XR -> SVD XR) (X X' : Mat XR) (y y' norms norms' : list XR) (tol tol' : XR).
Hypothesis (HC : mcols X = mcols X')
  (HP : forall P re re' proj, Forall (fun i => (i < mcols X)%nat) P ->
     residual svd X y P re -> residual svd' X' y' P re' ->
     omp_proj X norms re = Ok proj -> omp_proj X' norms' re' = Ok proj)
  (HT : forall P c pred c' pred', P <> [] -> Forall (fun i => (i < mcols X)%nat) P ->
     fit_on svd X y P c pred -> fit_on svd' X' y' P c' pred' ->
     nltb (rms y pred) tol = nltb (rms y' pred') tol').

Lemma firstn_S : forall A (l : list A) k x, nth_error l k = Some x -> firstn (S k) l = firstn k l ++ [x].
Proof.
  clear. induction l as [|a l IH]; intros k x E; destruct k as [|k]; cbn in *; try discriminate.
  - injection E as ->. reflexivity.
  - f_equal. apply IH. exact E.
Qed.

Lemma nodup_firstn : forall (P : list nat) k, NoDup P -> NoDup (firstn k P).
Proof.
  clear. induction P as [|q P IH]; intros k ND; destruct k as [|k]; cbn [firstn]; try constructor.
  - inversion ND as [|? ? N1 N2]; subst. intro I. apply N1. rewrite <- (firstn_skipn k P). apply in_or_app. auto.
  - inversion ND; subst. apply IH. assumption.
Qed.

Lemma below_firstn : forall n P k, Forall (fun i => (i < n)%nat) P -> Forall (fun i => (i < n)%nat) (firstn k P).
Proof. clear. intros n P k H. rewrite <- (firstn_skipn k P) in H. apply Forall_app in H. tauto. Qed.

Lemma same_prefix : forall P P',
  Forall (fun i => (i < mcols X)%nat) P ->
  greedy XR svd X y tol norms P -> greedy XR svd' X' y' tol' norms' P' ->
  forall k, (k <= length P)%nat -> (k <= length P')%nat -> firstn k P = firstn k P'.
Proof.
  intros P P' HF G G'. induction k as [|k IH]; intros H H'; [reflexivity|].
  specialize (IH ltac:(lia) ltac:(lia)).
  destruct (nth_error P k) as [j|] eqn:E; [|apply nth_error_None in E; lia].
  destruct (nth_error P' k) as [j'|] eqn:E'; [|apply nth_error_None in E'; lia].
  rewrite (firstn_S _ _ _ _ E), (firstn_S _ _ _ _ E'), <- IH. f_equal.
  destruct (G k j E) as (_ & re & proj & A1 & A2 & A3). destruct (G' k j' E') as (_ & re' & proj' & B1 & B2 & B3).
  rewrite <- IH in B1. rewrite (HP _ _ _ _ (below_firstn _ _ k HF) A1 B1 A2) in B2. injection B2 as <-.
  rewrite A3 in B3. injection B3 as <-. reflexivity.
Qed.

Lemma not_shorter : forall P P',
  P <> [] -> NoDup P' -> Forall (fun i => (i < mcols X)%nat) P -> Forall (fun i => (i < mcols X)%nat) P' ->
  greedy XR svd X y tol norms P -> greedy XR svd' X' y' tol' norms' P' ->
  stopped XR svd X y tol norms P -> (length P' <= length P)%nat.
Proof.
  intros P P' HN ND HF HF' G G' HS. destruct (Nat.le_gt_cases (length P') (length P)) as [L|L]; [exact L|exfalso].
  destruct (nth_error P' (length P)) as [j'|] eqn:E'; [|apply nth_error_None in E'; lia].
  assert (EP : firstn (length P) P' = P).
  { rewrite <- (same_prefix P P' HF G G' (length P)) by lia. apply firstn_all. }
  destruct (G' _ _ E') as (U & re' & proj' & B1 & B2 & B3). rewrite EP in *.
  destruct HS as [(c & pred & F & T)|[L'|(re & proj & j & A1 & A2 & A3 & A4)]].
  - destruct U as [U|(c' & pred' & F' & T')]; [contradiction|].
    rewrite (HT P c pred c' pred' HN HF F F') in T. congruence.
  - assert (Q : (length P' <= length (seq 0 (mcols X)))%nat).
    { apply NoDup_incl_length; [exact ND|]. intros i Hi. rewrite Forall_forall in HF'. apply in_seq. specialize (HF' i Hi). lia. }
    rewrite seq_length in Q. lia.
  - rewrite (HP P re re' proj HF A1 B1 A2) in B2. injection B2 as <-. rewrite A3 in B3. injection B3 as <-.
    rewrite <- (firstn_skipn (length P) P'), EP in ND.
    rewrite <- (firstn_skipn (length P) P'), EP in E'. rewrite nth_error_app2, Nat.sub_diag in E' by lia.
    destruct (skipn (length P) P') as [|q l]; [discriminate|]. injection E' as ->.
    apply NoDup_remove_2 in ND. apply ND. apply in_or_app. auto.
Qed.
End Same.

(** ** the same data in other units *)
Section Units.
Variables (svd : Mat XR -> SVD XR) (X X' : Mat XR) (x x' : nat -> nat -> R) (y y' : list R)
  (p : list nat) (a : nat -> R) (s : R).
Hypothesis (HX : rmat X x) (HX' : rmat X' x') (Hr : (0 < mrows X)%nat) (Hn : (0 < mcols X)%nat)
  (Hy : length y = mrows X) (HR : mrows X' = mrows X) (HC : mcols X' = mcols X)
  (HS : rescaled (mrows X) (mcols X) x y x' y' p a s)
  (Hg : good_svd svd X) (Hg' : good_svd svd X').
Let m := mrows X.
Let n := mcols X.

Lemma y'_len : length y' = mrows X'.
Proof using HS HR.
  rewrite (rs_y _ _ _ _ _ _ _ _ _ HS), map_length, HR.
  rewrite (Permutation_length (rs_p _ _ _ _ _ _ _ _ _ HS)). apply seq_length.
Qed.

Definition conv (w : list R) : list R := map (fun k => s * nth k w 0 / a k) (seq 0 n).

Lemma conv_pred : forall w i, (i < m)%nat ->
  rsum n (fun k => x' i k * nth k (conv w) 0) = s * rsum n (fun k => x (nth i p 0%nat) k * nth k w 0).
Proof using HS.
  intros w i Hi. rewrite <- rsum_scal. apply rsum_ext. intros k Hk.
  rewrite (rs_x _ _ _ _ _ _ _ _ _ HS) by auto. unfold conv. rewrite nth_mapseq by auto.
  field. apply (rs_a _ _ _ _ _ _ _ _ _ HS). exact Hk.
Qed.

Lemma nth_y' : forall i, (i < m)%nat -> nth i y' 0 = s * nth (nth i p 0%nat) y 0.
Proof using HS.
  intros i Hi. rewrite (rs_y _ _ _ _ _ _ _ _ _ HS).
  assert (L : (i < length p)%nat).
  { rewrite (Permutation_length (rs_p _ _ _ _ _ _ _ _ _ HS)), seq_length. exact Hi. }
  rewrite (nth_indep _ 0 (s * nth 0%nat y 0)) by (rewrite map_length; exact L).
  rewrite (map_nth (fun i => s * nth i y 0)). reflexivity.
Qed.

Lemma conv_err : forall w i, (i < m)%nat -> err n x' y' (conv w) i = s * err n x y w (nth i p 0%nat).
Proof using HS. intros w i Hi. unfold err. rewrite conv_pred, nth_y' by exact Hi. ring. Qed.

Lemma corr_moves : forall (e e' : nat -> R) k t, (k < n)%nat -> (forall i, (i < m)%nat -> e' i = t * e (nth i p 0%nat)) ->
  rsum m (fun i => x' i k * e' i) = a k * t * rsum m (fun i => x i k * e i).
Proof using HS.
  intros e e' k t Hk He. rewrite <- rsum_scal.
  rewrite <- (rsum_reorder m p (fun i => a k * t * (x i k * e i)) (rs_p _ _ _ _ _ _ _ _ _ HS)).
  apply rsum_ext. intros i Hi. rewrite (rs_x _ _ _ _ _ _ _ _ _ HS), He by auto. ring.
Qed.

Lemma sq_moves : forall (e e' : nat -> R) t, (forall i, (i < m)%nat -> e' i = t * e (nth i p 0%nat)) ->
  rsum m (fun i => e' i * e' i) = t * t * rsum m (fun i => e i * e i).
Proof using HS.
  intros e e' t He. rewrite <- rsum_scal.
  rewrite <- (rsum_reorder m p (fun i => t * t * (e i * e i)) (rs_p _ _ _ _ _ _ _ _ _ HS)).
  apply rsum_ext. intros i Hi. rewrite He by auto. ring.
Qed.

Lemma sqrt_moves : forall t v, 0 <= v -> sqrt (t * t * v) = Rabs t * sqrt v.
Proof using. intros t v H. rewrite sqrt_mult_alt by apply Rle_0_sqr. rewrite <- (sqrt_Rsqr_abs t). reflexivity. Qed.

Lemma lsq_moves : forall P w w', (forall j, In j P -> rsum m (fun i => x i j * err n x y w i) = 0) ->
  lsq_on m n x y P w -> lsq_on m n x' y' P w' ->
  lsq_on m n x' y' P (conv w) /\ forall i, (i < m)%nat -> err n x' y' w' i = s * err n x y w (nth i p 0%nat).
Proof using HS.
  clear Hr Hn Hy HR HC HX HX' Hg Hg'. intros P w w' NE (L & Z & M) HW'.
  assert (NE' : forall j, In j P -> (j < n)%nat -> rsum m (fun i => x' i j * err n x' y' (conv w) i) = 0).
  { intros j Hj Hl. rewrite (corr_moves (err n x y w) (err n x' y' (conv w)) j s Hl); [rewrite NE by exact Hj; ring|].
    intros i Hi. apply conv_err. exact Hi. }
  assert (Lc : length (conv w) = n) by (unfold conv; rewrite map_length, seq_length; reflexivity).
  assert (Zc : forall j, ~ In j P -> nth j (conv w) 0 = 0).
  { intros j Hj. destruct (Nat.lt_ge_cases j n) as [Hl|Hl]; [|apply nth_overflow; lia].
    unfold conv. rewrite nth_mapseq by exact Hl. rewrite Z by exact Hj. unfold Rdiv. ring. }
  assert (LC : lsq_on m n x' y' P (conv w)).
  { split; [exact Lc|]. split; [exact Zc|]. intros v Lv Zv. apply rss_min. intros j Hj.
    destruct (in_dec Nat.eq_dec j P) as [I|I]; [right; auto|left]. rewrite Zv, Zc by exact I. ring. }
  split; [exact LC|]. intros i Hi. rewrite <- conv_err by exact Hi.
  apply (err_unique m n x' P (conv w) w' y'); auto.
Qed.

Lemma rss_moves : forall w w', (forall i, (i < m)%nat -> err n x' y' w' i = s * err n x y w (nth i p 0%nat)) ->
  rss m n x' w' y' = s * s * rss m n x w y.
Proof using HS. intros w w' H. rewrite !rss_err. apply (sq_moves (err n x y w)). exact H. Qed.

Lemma absdiv : forall c c' d d' k, 0 < k -> Rabs c' = k * Rabs c -> d' = k * d ->
  nabs (n := XR) (ndiv (n := XR) (fin c) (fin d)) = nabs (n := XR) (ndiv (n := XR) (fin c') (fin d')).
Proof using.
  intros c c' d d' k Hk Hc ->. destruct (Req_dec d 0) as [->|D].
  - rewrite Rmult_0_r. destruct (Req_dec c 0) as [->|C].
    + rewrite Rabs_R0, Rmult_0_r in Hc. destruct (Req_dec c' 0) as [->|C']; [reflexivity|apply Rabs_no_R0 in C'; contradiction].
    + assert (C' : c' <> 0). { intros ->. rewrite Rabs_R0 in Hc. pose proof (Rabs_pos_lt c C). nra. }
      assert (Q : forall v, v <> 0 -> nabs (n := XR) (ndiv (n := XR) (fin v) (fin 0)) = XPInf).
      { intros v V. cbn. unfold Reqb. destruct (Req_EM_T 0 0) as [_|]; [|lra].
        destruct (Rltb v 0) eqn:E1; [reflexivity|]. destruct (Rltb 0 v) eqn:E2; [reflexivity|].
        apply Rltb_false in E1. apply Rltb_false in E2. lra. }
      rewrite !Q by assumption. reflexivity.
  - rewrite !xdiv_fin by nra. rewrite !xabs_fin. apply (f_equal fin). unfold Rdiv. rewrite !Rabs_mult.
    rewrite Hc. rewrite Rinv_mult, Rabs_mult. rewrite (Rabs_right (/ k)) by (apply Rle_ge; left; apply Rinv_0_lt_compat; auto).
    field. lra.
Qed.

Lemma norm_moves : forall k, (k < n)%nat -> col_norm m x' k = Rabs (a k) * col_norm m x k.
Proof using HS.
  intros k Hk. unfold col_norm. rewrite (sq_moves (fun i => x i k) (fun i => x' i k) (a k)).
  - apply sqrt_moves. apply rsum_nonneg. intros; nra.
  - intros i Hi. apply (rs_x _ _ _ _ _ _ _ _ _ HS); auto.
Qed.

Lemma proj_moves : forall P re re' proj, Forall (fun i => (i < mcols X)%nat) P ->
  residual svd X (fins y) P re -> residual svd X' (fins y') P re' ->
  omp_proj X (fins (nrm X x)) re = Ok proj -> omp_proj X' (fins (nrm X' x')) re' = Ok proj.
Proof using HX HX' Hr Hn Hy HR HC HS Hg Hg'.
  intros P re re' proj HF R1 R2 E. pose proof y'_len as Hy'.
  destruct (residual_xr svd X x y HX Hr Hy Hg P HF) as (e & w & Q1 & Q2 & Q3 & Q4 & Q5).
  destruct (residual_xr svd X' x' y' HX' ltac:(lia) Hy' Hg' P ltac:(rewrite HC; exact HF)) as (e' & w' & Q1' & Q2' & Q3' & _ & Q5').
  pose proof (residual_fun XR svd X (fins y) P _ _ R1 Q1). subst re.
  pose proof (residual_fun XR svd X' (fins y') P _ _ R2 Q1'). subst re'.
  rewrite (proj_xr X x y HX Hr Hy e Q2) in E. injection E as <-.
  rewrite (proj_xr X' x' y' HX' ltac:(lia) Hy' e' Q2'). f_equal.
  rewrite HR, HC in Q3', Q5'. rewrite HR, HC. fold m n in Q3, Q4, Q5, Q3', Q5'. fold m n.
  assert (HE := proj2 (lsq_moves P w w' Q4 Q3 Q3')).
  assert (HE' : exists t, t <> 0 /\ forall i, (i < m)%nat -> nth i e' 0 = t * nth (nth i p 0%nat) e 0).
  { pose proof (rs_s _ _ _ _ _ _ _ _ _ HS) as S0.
    assert (B : forall i, (i < m)%nat -> (nth i p 0 < m)%nat) by (intros; apply perm_below; auto; apply (rs_p _ _ _ _ _ _ _ _ _ HS)).
    destruct Q5 as [Q5|Q5], Q5' as [Q5'|Q5'].
    - exists s. split; [exact S0|]. intros i Hi. rewrite Q5', Q5, HE by auto. ring.
    - exists (- s). split; [lra|]. intros i Hi. rewrite Q5', Q5, HE by auto. ring.
    - exists (- s). split; [lra|]. intros i Hi. rewrite Q5', Q5, HE by auto. ring.
    - exists s. split; [exact S0|]. intros i Hi. rewrite Q5', Q5, HE by auto. ring. }
  destruct HE' as (t & T0 & HE').
  apply map_ext_in. intros k Hk. apply in_seq in Hk. symmetry.
  assert (A0 := rs_a _ _ _ _ _ _ _ _ _ HS k ltac:(lia)).
  apply (absdiv _ _ _ _ (Rabs (a k) * Rabs t)).
  - apply Rmult_lt_0_compat; apply Rabs_pos_lt; assumption.
  - unfold corr. rewrite HR. fold m. rewrite (corr_moves (fun i => nth i e 0) (fun i => nth i e' 0) k t) by (auto; lia).
    rewrite !Rabs_mult. ring.
  - rewrite norm_moves by lia. unfold elen. rewrite HR. fold m.
    rewrite (sq_moves (fun i => nth i e 0) (fun i => nth i e' 0) t HE'), sqrt_moves; [ring|].
    apply rsum_nonneg. intros; nra.
Qed.

Lemma stop_moves : forall tol P c pred c' pred', P <> [] -> Forall (fun i => (i < mcols X)%nat) P ->
  fit_on svd X (fins y) P c pred -> fit_on svd X' (fins y') P c' pred' ->
  nltb (n := XR) (rms (fins y) pred) (fin tol) = nltb (n := XR) (rms (fins y') pred') (fin (Rabs s * tol)).
Proof using HX HX' Hr Hn Hy HR HC HS Hg Hg'.
  intros tol P c pred c' pred' HN HF F F'. pose proof y'_len as Hy'.
  destruct (fit_on_xr svd X x y HX Hr Hy Hg P HN HF) as (c1 & p1 & w & F1 & _ & F3 & F4 & F5 & F6).
  destruct (fit_on_xr svd X' x' y' HX' ltac:(lia) Hy' Hg' P HN ltac:(rewrite HC; exact HF)) as (c1' & p1' & w' & F1' & _ & F3' & F4' & F5' & _).
  destruct (fit_on_fun XR svd X (fins y) P _ _ _ _ F F1) as (_ & ->).
  destruct (fit_on_fun XR svd X' (fins y') P _ _ _ _ F' F1') as (_ & ->).
  rewrite (rms_xr X x y Hr Hy p1 w F4 F5), (rms_xr X' x' y' ltac:(lia) Hy' p1' w' F4' F5').
  rewrite HR, HC in F3'. rewrite HR, HC. fold m n.
  rewrite (rss_moves w w' (proj2 (lsq_moves P w w' F6 F3 F3'))).
  assert (Hm : 0 < INR m) by (apply lt_0_INR; exact Hr).
  replace (s * s * rss m n x w y / INR m) with (s * s * (rss m n x w y / INR m)) by (unfold Rdiv; ring).
  rewrite sqrt_moves.
  2:{ apply Rmult_le_pos; [apply rss_nonneg|left; apply Rinv_0_lt_compat; exact Hm]. }
  assert (S0 := Rabs_pos_lt s (rs_s _ _ _ _ _ _ _ _ _ HS)).
  set (r := sqrt (rss m n x w y / INR m)). change (Rltb r tol = Rltb (Rabs s * r) (Rabs s * tol)).
  destruct (Rltb r tol) eqn:E; symmetry.
  - apply Rltb_true in E. apply Rltb_true. apply Rmult_lt_compat_l; assumption.
  - apply Rltb_false in E. apply Rltb_false. apply Rmult_le_compat_l; lra.
Qed.
End Units.

(** C87: another unit for any feature and for the target, another order of the
    rows: Order is the same and so are the predictions, in the unit of the target.
    The tolerance is an error, so it is converted as well. *)
Theorem C87_units : forall svd (X X' : Mat XR) x x' y y' p a s tol,
  rmat X x -> rmat X' x' -> (0 < mrows X)%nat -> (0 < mcols X)%nat -> length y = mrows X ->
  mrows X' = mrows X -> mcols X' = mcols X -> rescaled (mrows X) (mcols X) x y x' y' p a s ->
  good_svd svd X -> good_svd svd X' ->
  exists order w w',
    Omp svd X (fins y) (fin tol) = Ok (mkOmp (fins w) order) /\
    Omp svd X' (fins y') (fin (Rabs s * tol)) = Ok (mkOmp (fins w') order) /\
    (forall i, (i < mrows X)%nat ->
       rsum (mcols X) (fun k => x' i k * nth k w' 0) = s * rsum (mcols X) (fun k => x (nth i p 0%nat) k * nth k w 0)) /\
    ((forall v, length v = mcols X -> (forall i, (i < mrows X)%nat -> rsum (mcols X) (fun k => x i k * nth k v 0) = 0) ->
        forall k, nth k v 0 = 0) ->
     forall k, (k < mcols X)%nat -> nth k w' 0 = s * nth k w 0 / a k).
Proof.
  intros svd X X' x x' y y' p a s tol HX HX' Hr Hn Hy HR HC HS Hg Hg'.
  pose proof (y'_len _ _ _ _ _ _ _ _ _ HR HS) as Hy'.
  destruct (C39_least_squares svd X x y (fin tol) HX Hr Hn Hy Hg) as (P & w & E & _).
  destruct (C39_least_squares svd X' x' y' (fin (Rabs s * tol)) HX' ltac:(lia) ltac:(lia) Hy' Hg') as (P' & w' & E' & _).
  destruct (result_inv svd X x y (fin tol) P w HX Hr Hy Hg E) as (A1 & A2 & A3 & A4 & A5 & A6 & A7 & _).
  destruct (result_inv svd X' x' y' (fin (Rabs s * tol)) P' w' HX' ltac:(lia) Hy' Hg' E') as (B1 & B2 & B3 & B4 & B5 & B6 & B7 & _).
  rewrite HC in B3.
  pose proof (proj_moves svd X X' x x' y y' p a s HX HX' Hr Hn Hy HR HC HS Hg Hg') as PM.
  pose proof (stop_moves svd X X' x x' y y' p a s HX HX' Hr Hn Hy HR HC HS Hg Hg' tol) as TM.
  assert (PM' : forall Q re re' proj, Forall (fun i => (i < mcols X')%nat) Q ->
     residual svd X' (fins y') Q re -> residual svd X (fins y) Q re' ->
     omp_proj X' (fins (nrm X' x')) re = Ok proj -> omp_proj X (fins (nrm X x)) re' = Ok proj).
  { intros Q re re' proj HQ R1 R2 E1. rewrite HC in HQ.
    destruct (residual_xr svd X x y HX Hr Hy Hg Q HQ) as (e & ? & Q1 & Q2 & _).
    pose proof (residual_fun XR svd X (fins y) Q _ _ R2 Q1). subst re'.
    pose proof (proj_xr X x y HX Hr Hy e Q2) as E2. rewrite (PM Q _ _ _ HQ Q1 R1 E2) in E1. rewrite E2. exact E1. }
  assert (EP : P = P').
  { assert (L1 : (length P' <= length P)%nat) by (eapply (not_shorter svd svd X X'); eauto).
    assert (L2 : (length P <= length P')%nat).
    { eapply (not_shorter svd svd X' X); eauto; try (rewrite HC; assumption).
      intros Q c pred c' pred' HN HQ F F'. symmetry. rewrite HC in HQ. eapply TM; eauto. }
    assert (L : length P = length P') by lia.
    pose proof (same_prefix svd svd X X' _ _ _ _ _ _ (eq_sym HC) PM P P' A3 A4 B4 (length P) ltac:(lia) ltac:(lia)) as Q.
    rewrite firstn_all, L, firstn_all in Q. exact Q. }
  subst P'. exists (map Z.of_nat P), w, w'. split; [exact E|]. split; [exact E'|].
  rewrite HR, HC in B6.
  destruct (lsq_moves X x x' y y' p a s HS P w w' A7 A6 B6) as (C1 & C2).
  assert (PR : forall i, (i < mrows X)%nat ->
       rsum (mcols X) (fun k => x' i k * nth k w' 0) = s * rsum (mcols X) (fun k => x (nth i p 0%nat) k * nth k w 0)).
  { intros i Hi. specialize (C2 i Hi). unfold err in C2. rewrite (nth_y' X x x' y y' p a s HS i Hi) in C2. lra. }
  split; [exact PR|]. intros IND.
  set (v := map (fun k => a k * nth k w' 0 / s - nth k w 0) (seq 0 (mcols X))).
  assert (S0 := rs_s _ _ _ _ _ _ _ _ _ HS).
  assert (V0 : forall k, nth k v 0 = 0).
  { apply IND; [unfold v; rewrite map_length, seq_length; reflexivity|]. intros i Hi.
    assert (PI : exists i0, (i0 < mrows X)%nat /\ nth i0 p 0%nat = i).
    { pose proof (rs_p _ _ _ _ _ _ _ _ _ HS) as PP.
      assert (I : In i p) by (apply (Permutation_in i (Permutation_sym PP)), in_seq; lia).
      destruct (In_nth p i 0%nat I) as (i0 & H0 & E0). exists i0. split; [|exact E0].
      rewrite (Permutation_length PP), seq_length in H0. exact H0. }
    destruct PI as (i0 & H0 & <-). specialize (PR i0 H0).
    rewrite (rsum_ext _ _ (fun k => / s * (x' i0 k * nth k w' 0) - x (nth i0 p 0%nat) k * nth k w 0)).
    - rewrite rsum_minus, rsum_scal, PR. field. exact S0.
    - intros k Hk. unfold v. rewrite nth_mapseq by exact Hk. rewrite (rs_x _ _ _ _ _ _ _ _ _ HS) by auto. field. exact S0. }
  intros k Hk. specialize (V0 k). unfold v in V0. rewrite nth_mapseq in V0 by exact Hk.
  assert (A0 := rs_a _ _ _ _ _ _ _ _ _ HS k Hk).
  replace (nth k w' 0) with (s * (a k * nth k w' 0 / s) / a k) by (field; split; assumption).
  f_equal. f_equal. lra.
Qed.
Print Assumptions C87_units.

(** ** uncorrelated features *)
Lemma rsum_indicator : forall (g : nat -> R) n Q, NoDup Q -> (forall j, In j Q -> (j < n)%nat) ->
  rsum n (fun j => if in_dec Nat.eq_dec j Q then g j else 0) = lsum (map g Q).
Proof.
  intros g n. induction Q as [|q Q IH]; intros ND HQ.
  - cbn [map]. rewrite lsum_nil. apply rsum_0'. intros j Hj. destruct (in_dec _ _ _) as [[]|]; reflexivity.
  - inversion ND as [|? ? N1 N2]; subst. cbn [map]. rewrite lsum_cons.
    rewrite <- IH by (auto; intros; apply HQ; right; auto).
    rewrite (rsum_ext n _ (fun j => delta q j * g j + (if in_dec Nat.eq_dec j Q then g j else 0))).
    + rewrite rsum_plus. rewrite (rsum_delta_l n q g) by (apply HQ; left; auto). reflexivity.
    + intros j Hj. unfold delta. destruct (in_dec Nat.eq_dec j (q :: Q)) as [I|I]; destruct (in_dec Nat.eq_dec j Q) as [I'|I'];
        destruct (Nat.eqb_spec q j) as [->|Nq]; try contradiction; try ring.
      all: exfalso; first [destruct I as [I|I]; contradiction|apply I; right; exact I'|apply I; left; reflexivity].
Qed.

Lemma rsum_pos_term : forall k f, 0 < rsum k f -> exists i, (i < k)%nat /\ f i <> 0.
Proof.
  induction k as [|k IH]; intros f H; [cbn in H; lra|]. rewrite rsum_shift in H.
  destruct (Req_dec (f 0%nat) 0) as [Z|Z]; [|exists 0%nat; split; [lia|exact Z]].
  destruct (IH (fun i => f (S i))) as (i & Hi & Hf); [lra|]. exists (S i). split; [lia|exact Hf].
Qed.

(** the k largest values have the largest sum *)
Lemma best_sum : forall (g : nat -> R) n F Q t, NoDup F -> NoDup Q ->
  (forall j, In j F -> (j < n)%nat) -> (forall j, In j Q -> (j < n)%nat) -> (length Q <= length F)%nat -> 0 <= t ->
  (forall j, In j F -> t <= g j) -> (forall j, (j < n)%nat -> ~ In j F -> g j <= t) ->
  lsum (map g Q) <= lsum (map g F).
Proof.
  intros g n F Q t NF NQ BF BQ HL Ht H1 H2.
  assert (C : forall l, lsum (map (fun _ : nat => t) l) = t * INR (length l)).
  { induction l as [|z l IH]; [cbn [map length]; rewrite lsum_nil; cbn; ring|].
    cbn [map]. rewrite lsum_cons, IH. cbn [length]. rewrite S_INR. ring. }
  assert (D : lsum (map g Q) - t * INR (length Q) <= lsum (map g F) - t * INR (length F)).
  { rewrite <- !C, <- !(rsum_indicator _ n) by auto. rewrite <- !rsum_minus. apply rsum_le. intros j Hj.
    destruct (in_dec Nat.eq_dec j Q) as [IQ|IQ], (in_dec Nat.eq_dec j F) as [IF|IF]; try lra.
    - specialize (H2 j Hj IF). lra.
    - specialize (H1 j IF). lra. }
  apply le_INR in HL. nra.
Qed.

Section Uncorrelated.
Variables (m n : nat) (A : nat -> nat -> R) (y : list R).
Hypothesis (HO : forall j k, (j < n)%nat -> (k < n)%nat -> j <> k -> rsum m (fun i => A i j * A i k) = 0)
  (HN : forall j, (j < n)%nat -> 0 < rsum m (fun i => A i j * A i j)).

Definition cy (j : nat) := rsum m (fun i => A i j * nth i y 0).
Definition sq (j : nat) := rsum m (fun i => A i j * A i j).
(** what feature j explains *)
Definition gain (j : nat) := cy j * cy j / sq j.
Definition yy := rsum m (fun i => nth i y 0 * nth i y 0).

Lemma og_corr : forall w j, (j < n)%nat -> rsum m (fun i => A i j * err n A y w i) = cy j - sq j * nth j w 0.
Proof using HO.
  intros w j Hj. unfold err.
  rewrite (rsum_ext m _ (fun i => A i j * nth i y 0 - rsum n (fun k => A i j * A i k * nth k w 0))).
  - rewrite rsum_minus, rsum_swap. unfold cy. f_equal. 
    rewrite (rsum_ext n _ (fun k => delta j k * (sq j * nth k w 0))); [apply (rsum_delta_l n j (fun k => sq j * nth k w 0)); exact Hj|].
    intros k Hk. rewrite rsum_scal_r. unfold delta. destruct (Nat.eqb_spec j k) as [->|N]; [unfold sq; ring|].
    rewrite HO by auto. ring.
  - intros i Hi. rewrite Rmult_minus_distr_l. f_equal. rewrite <- rsum_scal. apply rsum_ext. intros; ring.
Qed.

Lemma og_rss : forall w, rss m n A w y = yy - rsum n (fun j => 2 * cy j * nth j w 0 - sq j * (nth j w 0 * nth j w 0)).
Proof using HO.
  intros w. rewrite rss_err.
  rewrite (rsum_ext m _ (fun i => (nth i y 0 * err n A y w i) - rsum n (fun j => nth j w 0 * (A i j * err n A y w i)))).
  - rewrite rsum_minus, rsum_swap.
    rewrite (rsum_ext n (fun j => rsum m _) (fun j => nth j w 0 * (cy j - sq j * nth j w 0))).
    2:{ intros j Hj. rewrite rsum_scal, og_corr by exact Hj. reflexivity. }
    assert (E : rsum m (fun i => nth i y 0 * err n A y w i) = yy - rsum n (fun j => cy j * nth j w 0)).
    { unfold err, yy. rewrite (rsum_ext m _ (fun i => nth i y 0 * nth i y 0 - rsum n (fun j => A i j * nth i y 0 * nth j w 0))).
      - rewrite rsum_minus, rsum_swap. f_equal. apply rsum_ext. intros j Hj. rewrite rsum_scal_r. reflexivity.
      - intros i Hi. rewrite Rmult_minus_distr_l. f_equal. rewrite <- rsum_scal. apply rsum_ext. intros; ring. }
    rewrite E. rewrite (rsum_ext n (fun j => 2 * cy j * nth j w 0 - sq j * (nth j w 0 * nth j w 0))
      (fun j => cy j * nth j w 0 + nth j w 0 * (cy j - sq j * nth j w 0))) by (intros; ring).
    rewrite rsum_plus. ring.
  - intros i Hi.
    replace (rsum n (fun j => nth j w 0 * (A i j * err n A y w i))) with (err n A y w i * rsum n (fun j => A i j * nth j w 0)).
    + unfold err at 1. ring.
    + rewrite <- rsum_scal. apply rsum_ext. intros; ring.
Qed.

Lemma gain_nonneg : forall j, (j < n)%nat -> 0 <= gain j.
Proof using HN.
  intros j Hj. unfold gain. apply Rmult_le_pos; [apply Rle_0_sqr|]. left. apply Rinv_0_lt_compat. apply HN. exact Hj.
Qed.

Lemma og_lower : forall w Q, NoDup Q -> (forall j, In j Q -> (j < n)%nat) -> (forall j, ~ In j Q -> nth j w 0 = 0) ->
  yy - lsum (map gain Q) <= rss m n A w y.
Proof using HO HN.
  intros w Q ND HQ Z. rewrite og_rss, <- (rsum_indicator gain n Q ND HQ).
  assert (L : rsum n (fun j => 2 * cy j * nth j w 0 - sq j * (nth j w 0 * nth j w 0)) <=
    rsum n (fun j => if in_dec Nat.eq_dec j Q then gain j else 0)).
  { apply rsum_le. intros j Hj. destruct (in_dec Nat.eq_dec j Q) as [I|I]; [|rewrite Z by exact I; lra].
    pose proof (HN j Hj) as P. fold (sq j) in P. unfold gain.
    assert (E : cy j * cy j / sq j - (2 * cy j * nth j w 0 - sq j * (nth j w 0 * nth j w 0)) =
      sq j * Rsqr (nth j w 0 - cy j / sq j)) by (unfold Rsqr; field; lra).
    pose proof (Rle_0_sqr (nth j w 0 - cy j / sq j)). nra. }
  lra.
Qed.

Lemma og_lsq : forall w F, NoDup F -> (forall j, In j F -> (j < n)%nat) -> lsq_on m n A y F w ->
  rss m n A w y = yy - lsum (map gain F).
Proof using HO HN.
  intros w F ND HF (L & Z & M). apply Rle_antisym; [|apply og_lower; auto].
  set (v := map (fun j => if in_dec Nat.eq_dec j F then cy j / sq j else 0) (seq 0 n)).
  apply Rle_trans with (rss m n A v y).
  - apply M; [unfold v; rewrite map_length, seq_length; reflexivity|]. intros j Hj.
    destruct (Nat.lt_ge_cases j n) as [Hl|Hl]; [|apply nth_overflow; unfold v; rewrite map_length, seq_length; lia].
    unfold v. rewrite nth_mapseq by exact Hl. destruct (in_dec _ _ _); [contradiction|reflexivity].
  - rewrite og_rss, <- (rsum_indicator gain n F ND HF). right. f_equal. apply rsum_ext. intros j Hj.
    unfold v. rewrite nth_mapseq by exact Hj. destruct (in_dec _ _ _); [|ring].
    pose proof (HN j Hj) as P. fold (sq j) in P. unfold gain. field. lra.
Qed.

Lemma og_score : forall w j, (j < n)%nat -> nth j w 0 = 0 ->
  score m A (err n A y w) j * score m A (err n A y w) j = gain j.
Proof using HO HN.
  intros w j Hj Z. unfold score. rewrite og_corr, Z, Rmult_0_r, Rminus_0_r by exact Hj.
  pose proof (HN j Hj) as P. unfold col_norm. fold (sq j) in *. unfold gain.
  assert (S : sqrt (sq j) * sqrt (sq j) = sq j) by (apply sqrt_sqrt; lra).
  assert (S0 : 0 < sqrt (sq j)) by (apply sqrt_lt_R0; exact P).
  rewrite <- S at 3. replace (cy j * cy j) with (Rabs (cy j) * Rabs (cy j)) by (rewrite <- Rabs_mult; apply Rabs_right; apply Rle_ge, Rle_0_sqr).
  field. lra.
Qed.
End Uncorrelated.

Section Sparsest.
Variables (svd : Mat XR -> SVD XR) (X : Mat XR) (A : nat -> nat -> R) (y : list R) (tol : XR)
  (P : list nat) (w : list R).
Hypothesis (HA : rmat X A) (Hr : (0 < mrows X)%nat) (Hc : (0 < mcols X)%nat) (Hy : length y = mrows X)
  (Hs : good_svd svd X)
  (HO : forall j k, (j < mcols X)%nat -> (k < mcols X)%nat -> j <> k -> rsum (mrows X) (fun i => A i j * A i k) = 0)
  (HN : forall j, (j < mcols X)%nat -> 0 < rsum (mrows X) (fun i => A i j * A i j))
  (E : Omp svd X (fins y) tol = Ok (mkOmp (fins w) (map Z.of_nat P))).
Let m := mrows X.
Let n := mcols X.

Lemma prefix_lsq : forall k, exists w0, lsq_on m n A y (firstn k P) w0.
Proof.
  intros k. destruct (result_inv svd X A y tol P w HA Hr Hy Hs E) as (_ & _ & R3 & _).
  destruct (residual_xr svd X A y HA Hr Hy Hs (firstn k P) (below_firstn _ _ k R3)) as (e & w0 & _ & _ & Q & _).
  exists w0. exact Q.
Qed.

Lemma pick_gain : forall k q w0, nth_error P k = Some q -> lsq_on m n A y (firstn k P) w0 -> 0 < rss m n A w0 y ->
  forall j, (j < n)%nat -> ~ In j (firstn k P) -> gain m A y j <= gain m A y q.
Proof.
  intros k q w0 Hk HW Hp j Hj Nj.
  destruct (result_inv svd X A y tol P w HA Hr Hy Hs E) as (_ & R2 & R3 & _).
  assert (CN : forall j, (j < mcols X)%nat -> exists i, (i < mrows X)%nat /\ A i j <> 0).
  { intros l Hl. destruct (rsum_pos_term (mrows X) (fun i => A i l * A i l)) as (i & Hi & Ht).
    - apply HN. exact Hl.
    - exists i. split; [exact Hi|]. intro Z. rewrite Z in Ht. lra. }
  destruct (C39_greedy svd X A y tol P w HA Hr Hc Hy Hs CN E k q w0 Hk HW Hp) as (G & _).
  assert (Hq : (q < n)%nat) by (rewrite Forall_forall in R3; apply R3; eapply nth_error_In; eauto).
  assert (Nq : ~ In q (firstn k P)).
  { rewrite <- (firstn_skipn k P) in R2, Hk.
    assert (L : length (firstn k P) = k).
    { apply firstn_length_le. rewrite firstn_skipn in Hk. apply Nat.lt_le_incl, nth_error_Some. congruence. }
    rewrite nth_error_app2 in Hk by lia. rewrite L, Nat.sub_diag in Hk.
    destruct (skipn k P) as [|z l]; [discriminate|]. injection Hk as ->. apply NoDup_remove_2 in R2.
    intro I. apply R2. apply in_or_app. auto. }
  specialize (G j Hj). fold m n in G.
  rewrite <- (og_score m n A y HO HN w0 j Hj), <- (og_score m n A y HO HN w0 q Hq) by (apply HW; assumption).
  assert (0 <= score m A (err n A y w0) j).
  { unfold score. apply Rmult_le_pos; [apply Rabs_pos|]. left. apply Rinv_0_lt_compat. apply sqrt_lt_R0. apply HN. exact Hj. }
  nra.
Qed.

Lemma best_prefix : forall k w0 w' Q, (k <= length P)%nat -> lsq_on m n A y (firstn k P) w0 ->
  (length Q <= k)%nat -> (forall j, ~ In j Q -> nth j w' 0 = 0) -> length w' = n ->
  rss m n A w0 y <= rss m n A w' y.
Proof.
  intros k w0 w' Q0 Hk HW HQ0 HZ0 Lw'.
  destruct (result_inv svd X A y tol P w HA Hr Hy Hs E) as (_ & R2 & R3 & _).
  rewrite Forall_forall in R3.
  assert (IP : forall i j, In j (firstn i P) -> In j P).
  { intros i j I. rewrite <- (firstn_skipn i P). apply in_or_app. auto. }
  assert (NF : forall i, NoDup (firstn i P)).
  { intros i. apply nodup_firstn. exact R2. }
  assert (BF : forall i j, In j (firstn i P) -> (j < n)%nat) by (intros i j I; apply R3; apply (IP i); exact I).
  (* without duplicates and in range *)
  set (Q := nodup Nat.eq_dec (filter (fun j => (j <? n)%nat) Q0)).
  assert (NQ : NoDup Q) by apply NoDup_nodup.
  assert (BQ : forall j, In j Q -> (j < n)%nat).
  { intros j I. apply nodup_In, filter_In in I. apply Nat.ltb_lt. tauto. }
  assert (LQ : (length Q <= k)%nat).
  { apply Nat.le_trans with (length Q0); [|exact HQ0]. apply NoDup_incl_length; [exact NQ|].
    intros j I. apply nodup_In, filter_In in I. tauto. }
  assert (ZQ : forall j, ~ In j Q -> nth j w' 0 = 0).
  { intros j I. destruct (Nat.lt_ge_cases j n) as [Hl|Hl]; [|apply nth_overflow; lia].
    apply HZ0. intro I0. apply I. apply nodup_In, filter_In. split; [exact I0|]. apply Nat.ltb_lt. exact Hl. }
  destruct (rss_nonneg m n A w0 y) as [Hp|Hz].
  2:{ rewrite <- Hz. apply rss_nonneg. }
  apply Rle_trans with (yy m y - lsum (map (gain m A y) Q)); [|apply og_lower; auto].
  rewrite (og_lsq m n A y HO HN w0 (firstn k P) (NF k) (BF k) HW).
  destruct k as [|k].
  { destruct Q; [|cbn [length] in LQ; lia]. cbn [firstn]. lra. }
  assert (PK : forall i, (i <= k)%nat -> exists q, nth_error P i = Some q /\
     forall j, (j < n)%nat -> ~ In j (firstn i P) -> gain m A y j <= gain m A y q).
  { intros i Hi. destruct (nth_error P i) as [q|] eqn:Eq; [|apply nth_error_None in Eq; lia].
    exists q. split; [reflexivity|]. destruct (prefix_lsq i) as (w1 & H1). apply (pick_gain i q w1 Eq H1).
    apply Rlt_le_trans with (1 := Hp). apply (proj2 (proj2 HW)); [apply H1|].
    intros j Hj. apply (proj1 (proj2 H1)). intro I. apply Hj.
    rewrite <- (firstn_skipn i (firstn (S k) P)), firstn_firstn, Nat.min_l by lia. apply in_or_app. auto. }
  destruct (PK k (le_n k)) as (q & Eq & Gq).
  assert (Hq : (q < n)%nat) by (apply R3; eapply nth_error_In; eauto).
  assert (LF : length (firstn (S k) P) = S k) by (apply firstn_length_le; exact Hk).
  assert (B : lsum (map (gain m A y) Q) <= lsum (map (gain m A y) (firstn (S k) P))).
  { apply (best_sum _ n _ _ (gain m A y q)); auto; try lia.
    - apply BF.
    - apply (gain_nonneg m n A y HN). exact Hq.
    - intros j Hj. apply In_nth_error in Hj. destruct Hj as (i & Hi).
      assert (Li : (i < S k)%nat) by (rewrite <- LF; apply nth_error_Some; congruence).
      destruct (PK i ltac:(lia)) as (q' & Eq' & Gq').
      assert (q' = j).
      { rewrite <- (firstn_skipn (S k) P), nth_error_app1 in Eq' by (rewrite LF; exact Li). congruence. }
      subst q'. apply Gq'; [exact Hq|]. intro I.
      assert (Z := NF (S k)). rewrite (firstn_S _ _ _ _ Eq) in Z. apply NoDup_remove_2 in Z. rewrite app_nil_r in Z.
      apply Z. rewrite <- (firstn_skipn i (firstn k P)), firstn_firstn, Nat.min_l by lia. apply in_or_app. auto.
    - intros j Hj Nj. apply Gq; [exact Hj|]. intro I. apply Nj. rewrite (firstn_S _ _ _ _ Eq). apply in_or_app. auto. }
  lra.
Qed.
End Sparsest.

(** C87 for uncorrelated features: the first k features of Order are the best
    k features, no other model with so few coefficients fits better. *)
Theorem C87_best_k : forall svd (X : Mat XR) A y tol P w,
  rmat X A -> (0 < mrows X)%nat -> (0 < mcols X)%nat -> length y = mrows X -> good_svd svd X ->
  (forall j k, (j < mcols X)%nat -> (k < mcols X)%nat -> j <> k -> rsum (mrows X) (fun i => A i j * A i k) = 0) ->
  (forall j, (j < mcols X)%nat -> 0 < rsum (mrows X) (fun i => A i j * A i j)) ->
  Omp svd X (fins y) tol = Ok (mkOmp (fins w) (map Z.of_nat P)) ->
  forall k w0 w', (k <= length P)%nat -> lsq_on (mrows X) (mcols X) A y (firstn k P) w0 ->
    length w' = mcols X -> at_most k w' ->
    rss (mrows X) (mcols X) A w0 y <= rss (mrows X) (mcols X) A w' y.
Proof.
  intros svd X A y tol P w HA Hr Hc Hy Hs HO HN E k w0 w' Hk HW Lw' (Q & LQ & ZQ).
  exact (best_prefix svd X A y tol P w HA Hr Hc Hy Hs HO HN E k w0 w' Q Hk HW LQ ZQ Lw').
Qed.
Print Assumptions C87_best_k.

(** So Omp returns the sparsest model within the tolerance: with fewer
    coefficients (but at least one) no model is, and with as many none fits better. *)
Theorem C87_sparsest : forall svd (X : Mat XR) A y tol P w,
  rmat X A -> (0 < mrows X)%nat -> (0 < mcols X)%nat -> length y = mrows X -> good_svd svd X ->
  (forall j k, (j < mcols X)%nat -> (k < mcols X)%nat -> j <> k -> rsum (mrows X) (fun i => A i j * A i k) = 0) ->
  (forall j, (j < mcols X)%nat -> 0 < rsum (mrows X) (fun i => A i j * A i j)) ->
  Omp svd X (fins y) (fin tol) = Ok (mkOmp (fins w) (map Z.of_nat P)) ->
  forall k w', length w' = mcols X -> at_most k w' ->
    ((k <= length P)%nat -> rss (mrows X) (mcols X) A w y <= rss (mrows X) (mcols X) A w' y) /\
    ((0 < k < length P)%nat -> tol <= sqrt (rss (mrows X) (mcols X) A w' y / INR (mrows X))).
Proof.
  intros svd X A y tol P w HA Hr Hc Hy Hs HO HN E k w' Lw' HQ.
  destruct (result_inv svd X A y (fin tol) P w HA Hr Hy Hs E) as (_ & _ & _ & _ & _ & R5 & _).
  split.
  - intros Hk. destruct HQ as (Q & LQ & ZQ).
    apply (C87_best_k svd X A y (fin tol) P w HA Hr Hc Hy Hs HO HN E (length P)); auto.
    + rewrite firstn_all. exact R5.
    + exists Q. split; [lia|exact ZQ].
  - intros Hk. destruct (prefix_lsq svd X A y (fin tol) P w HA Hr Hy Hs E k) as (w0 & H0).
    pose proof (C39_no_sooner svd X A y (fin tol) P w HA Hr Hc Hy Hs E k w0 Hk H0) as T.
    change (Rltb (sqrt (rss (mrows X) (mcols X) A w0 y / INR (mrows X))) tol = false) in T. apply Rltb_false in T.
    apply Rle_trans with (1 := T). apply sqrt_le_1_alt. unfold Rdiv. apply Rmult_le_compat_r.
    + left. apply Rinv_0_lt_compat, lt_0_INR. exact Hr.
    + apply (C87_best_k svd X A y (fin tol) P w HA Hr Hc Hy Hs HO HN E k); auto. lia.
Qed.
Print Assumptions C87_sparsest.

(** ** Example: the data of C86 in both units.  Two of the three features are
    enough, the second and the third, in this order. *)
Definition yo : list R := [1; 5; 2; 1].
Definition yo' : list R := map (fun i => -2 * nth i yo 0) pp.

Example C87_example :
  Omp svd_og xe (fins yo) (fin 1) = Ok (mkOmp (fins [0; 5; 2]) [1; 2]%Z) /\
  Omp svd_og xe' (fins yo') (fin 2) = Ok (mkOmp (fins [0; 10; -4/3]) [1; 2]%Z) /\
  (forall w', length w' = 3%nat -> at_most 1 w' -> 1 <= sqrt (rss 4 3 delta w' yo / 4)).
Proof.
  assert (HX' : rmat xe' xm') by (intros i j _ _; reflexivity).
  assert (HS : rescaled 4 3 delta yo xm' yo' pp aa (-2)).
  { destruct xe_rescaled as [S1 S2 S3 S4 _]. split; auto. }
  destruct (C87_units svd_og xe xe' delta xm' yo yo' pp aa (-2) 1 xe_mat HX' ltac:(cbn; lia) ltac:(cbn; lia) eq_refl
    eq_refl eq_refl HS xe_og xe'_og) as (order & w & w' & E & E' & _ & HW).
  rewrite (Rabs_left (-2)) in E' by lra. replace (- -2 * 1) with 2 in E' by ring.
  assert (HO : forall j k, (j < 3)%nat -> (k < 3)%nat -> j <> k -> rsum 4 (fun i => delta i j * delta i k) = 0).
  { intros [|[|[|j]]] [|[|[|k]]] Hj Hk N; try lia; unfold delta; cbn; ring. }
  assert (HN : forall j, (j < 3)%nat -> 0 < rsum 4 (fun i => delta i j * delta i j)).
  { intros [|[|[|j]]] Hj; try lia; unfold delta; cbn; lra. }
  assert (HN' : forall j, (j < 3)%nat -> exists i, (i < 4)%nat /\ delta i j <> 0).
  { intros j Hj. exists j. rewrite delta_same. split; [lia|lra]. }
  destruct (C39_least_squares svd_og xe delta yo (fin 1) xe_mat ltac:(cbn; lia) ltac:(cbn; lia) eq_refl xe_og)
    as (P & v & Ev & P1 & P2 & P3 & L1 & L2 & L3).
  rewrite E in Ev. injection Ev as Ew Eo. apply fins_inj' in Ew. subst v order.
  pose proof (C39_greedy svd_og xe delta yo (fin 1) P w xe_mat ltac:(cbn; lia) ltac:(cbn; lia) eq_refl xe_og HN' E) as G.
  pose proof (C39_stops svd_og xe delta yo (fin 1) P w xe_mat ltac:(cbn; lia) ltac:(cbn; lia) eq_refl xe_og HN' E) as T.
  pose proof (C39_no_sooner svd_og xe delta yo (fin 1) P w xe_mat ltac:(cbn; lia) ltac:(cbn; lia) eq_refl xe_og E) as U.
  pose proof (C87_sparsest svd_og xe delta yo 1 P w xe_mat ltac:(cbn; lia) ltac:(cbn; lia) eq_refl xe_og HO HN E) as V.
  unfold xe in L1, L2, L3, G, T, U, V, P3, HW. cbn [eye mrows mcols] in L1, L2, L3, G, T, U, V, P3, HW.
  assert (RS : forall a b c, rss 4 3 delta [a; b; c] yo = (a - 1) * (a - 1) + (b - 5) * (b - 5) + (c - 2) * (c - 2) + 1).
  { intros a b c. unfold rss, delta, Rsqr, yo. cbn. ring. }
  assert (SC : forall a b c j, (j < 3)%nat -> score 4 delta (err 3 delta yo [a; b; c]) j = Rabs (nth j [1 - a; 5 - b; 2 - c] 0)).
  { intros a b c [|[|[|j]]] Hj; try lia; unfold score, err, col_norm, delta, yo; cbn;
      match goal with |- _ / sqrt ?e = _ => replace e with 1 by ring end; rewrite sqrt_1;
      unfold Rdiv; rewrite Rinv_1, Rmult_1_r; f_equal; ring. }
  assert (LS : forall (Q : list nat) a b c, (forall j, ~ In j Q -> nth j [a; b; c] 0 = 0) ->
      (In 0%nat Q -> a = 1) -> (In 1%nat Q -> b = 5) -> (In 2%nat Q -> c = 2) -> lsq_on 4 3 delta yo Q [a; b; c]).
  { intros Q a b c Z A B C. split; [reflexivity|]. split; [exact Z|].
    intros [|a' [|b' [|c' [|]]]] Lw Zw; try discriminate Lw. rewrite !RS.
    assert (K0 : (a - 1) * (a - 1) <= (a' - 1) * (a' - 1)).
    { destruct (in_dec Nat.eq_dec 0%nat Q) as [I|I].
      - rewrite (A I). pose proof (Rle_0_sqr (a' - 1)) as K. unfold Rsqr in K. lra.
      - specialize (Z 0%nat I). specialize (Zw 0%nat I). cbn in Z, Zw. subst. lra. }
    assert (K1 : (b - 5) * (b - 5) <= (b' - 5) * (b' - 5)).
    { destruct (in_dec Nat.eq_dec 1%nat Q) as [I|I].
      - rewrite (B I). pose proof (Rle_0_sqr (b' - 5)) as K. unfold Rsqr in K. lra.
      - specialize (Z 1%nat I). specialize (Zw 1%nat I). cbn in Z, Zw. subst. lra. }
    assert (K2 : (c - 2) * (c - 2) <= (c' - 2) * (c' - 2)).
    { destruct (in_dec Nat.eq_dec 2%nat Q) as [I|I].
      - rewrite (C I). pose proof (Rle_0_sqr (c' - 2)) as K. unfold Rsqr in K. lra.
      - specialize (Z 2%nat I). specialize (Zw 2%nat I). cbn in Z, Zw. subst. lra. }
    lra. }
  assert (I4 : INR 4 = 4) by (cbn; ring).
  destruct w as [|a [|b [|c [|]]]]; try discriminate L1.
  destruct P as [|p0 P]; [contradiction|].
  assert (p0 = 1%nat).
  { destruct (G 0%nat p0 [0; 0; 0] eq_refl) as (G1 & _).
    - apply LS; cbn; try contradiction. intros [|[|[|j]]] _; reflexivity || (destruct j; reflexivity).
    - rewrite RS. lra.
    - assert (Hp := P3 p0 (or_introl eq_refl)). specialize (G1 1%nat ltac:(lia)). rewrite !SC in G1 by lia.
      cbn [nth] in G1. rewrite (Rabs_right (5 - 0)) in G1 by lra.
      destruct p0 as [|[|[|]]]; [|reflexivity| |lia]; cbn [nth] in G1.
      + rewrite Rabs_right in G1 by lra. lra.
      + rewrite Rabs_right in G1 by lra. lra. }
  subst p0. destruct P as [|q P].
  { exfalso. assert (a = 0) by (apply (L2 0%nat); cbn; intros [|[]]; discriminate). subst a.
    assert (c = 0) by (apply (L2 2%nat); cbn; intros [|[]]; discriminate). subst c.
    pose proof (Rle_0_sqr (b - 5)) as K. unfold Rsqr in K.
    destruct T as [T|T].
    - change (Rltb (sqrt (rss 4 3 delta [0; b; 0] yo / INR 4)) 1 = true) in T. apply Rltb_true in T.
      rewrite RS, I4 in T. assert (Q : sqrt 1 <= sqrt (((0 - 1) * (0 - 1) + (b - 5) * (b - 5) + (0 - 2) * (0 - 2) + 1) / 4)).
      { apply sqrt_le_1_alt. lra. }
      rewrite sqrt_1 in Q. lra.
    - specialize (T [1; 5; 2] eq_refl). rewrite !RS in T. lra. }
  assert (q = 2%nat).
  { destruct (G 1%nat q [0; 5; 0] eq_refl) as (G1 & _).
    - apply LS; cbn; try tauto; try (intros [|[]]; discriminate).
      intros [|[|[|j]]] H; try reflexivity; [destruct H; left; reflexivity|destruct j; reflexivity].
    - rewrite RS. lra.
    - assert (Hq := P3 q (or_intror (or_introl eq_refl))). specialize (G1 2%nat ltac:(lia)). rewrite !SC in G1 by lia.
      cbn [nth] in G1. rewrite (Rabs_right (2 - 0)) in G1 by lra.
      destruct q as [|[|[|]]]; [| |reflexivity|lia]; cbn [nth] in G1.
      + rewrite Rabs_right in G1 by lra. lra.
      + rewrite Rabs_right in G1 by lra. lra. }
  subst q. destruct P as [|r P].
  2:{ exfalso. specialize (U 2%nat [0; 5; 2] ltac:(cbn; lia)). cbn [firstn] in U.
      assert (Q : nltb (n := XR) (fin (sqrt (rss 4 3 delta [0; 5; 2] yo / INR 4))) (fin 1) = false).
      { apply U. apply LS; cbn; try tauto; try (intros [|[|[]]]; discriminate).
        intros [|[|[|j]]] H; try reflexivity; [destruct H; left; reflexivity|destruct H; right; left; reflexivity|destruct j; reflexivity]. }
      change (Rltb (sqrt (rss 4 3 delta [0; 5; 2] yo / INR 4)) 1 = false) in Q. apply Rltb_false in Q.
      rewrite RS, I4 in Q.
      assert (Q2 : sqrt (((0 - 1) * (0 - 1) + (5 - 5) * (5 - 5) + (2 - 2) * (2 - 2) + 1) / 4) < sqrt 1).
      { apply sqrt_lt_1_alt. lra. }
      rewrite sqrt_1 in Q2. lra. }
  assert (a = 0) by (apply (L2 0%nat); cbn; intros [|[|[]]]; discriminate). subst a.
  specialize (L3 [0; 5; 2] eq_refl). rewrite !RS in L3.
  assert (L4 : (b - 5) * (b - 5) + (c - 2) * (c - 2) <= 0).
  { assert (Q : forall j, ~ In j [1; 2]%nat -> nth j [0; 5; 2] 0 = 0).
    { intros [|[|[|j]]] H; try reflexivity; [destruct H; left; reflexivity|destruct H; right; left; reflexivity|destruct j; reflexivity]. }
    specialize (L3 Q). lra. }
  pose proof (Rle_0_sqr (b - 5)) as Kb. pose proof (Rle_0_sqr (c - 2)) as Kc.
  assert (Hb : Rsqr (b - 5) = 0) by (unfold Rsqr in *; lra). assert (Hcc : Rsqr (c - 2) = 0) by (unfold Rsqr in *; lra).
  apply Rsqr_0_uniq in Hb. apply Rsqr_0_uniq in Hcc. assert (b = 5) by lra. assert (c = 2) by lra. subst b c.
  split; [exact E|]. split.
  - assert (Lw' : length w' = 3%nat).
    { destruct (C39_least_squares svd_og xe' xm' yo' (fin 2) HX' ltac:(cbn; lia) ltac:(cbn; lia) eq_refl xe'_og)
        as (P' & v & Ev & _ & _ & _ & Lv & _).
      rewrite E' in Ev. injection Ev as Ew _. apply fins_inj' in Ew. subst v. exact Lv. }
    assert (HW' : forall k, (k < 3)%nat -> nth k w' 0 = -2 * nth k [0; 5; 2] 0 / aa k).
    { apply HW. intros v Lv Hv. destruct v as [|v0 [|v1 [|v2 [|]]]]; try discriminate Lv.
      pose proof (Hv 0%nat ltac:(lia)) as H0. pose proof (Hv 1%nat ltac:(lia)) as H1. pose proof (Hv 2%nat ltac:(lia)) as H2.
      unfold delta in H0, H1, H2. cbn in H0, H1, H2.
      intros [|[|[|k]]]; cbn; try lra. destruct k; reflexivity. }
    destruct w' as [|a [|b [|c [|]]]]; try discriminate Lw'.
    pose proof (HW' 0%nat ltac:(lia)) as H0. pose proof (HW' 1%nat ltac:(lia)) as H1. pose proof (HW' 2%nat ltac:(lia)) as H2.
    unfold aa in H0, H1, H2. cbn [nth] in H0, H1, H2.
    replace [0; 10; -4 / 3] with [a; b; c]; [exact E'|]. subst. repeat (f_equal; try lra).
  - intros v Lv Hv. destruct (V 1%nat v Lv Hv) as (_ & V1). rewrite I4 in V1. apply V1. cbn. lia.
Qed.

(** C32-C34: lasso by coordinate descent (LassoCrdDesc). *)
From Coq Require Import Reals Lra Psatz.
From Verif Require Import Base Num Mat Model_Node Model_Util Model_Fit Model_Norm Model_Cov Model_Crd
  Proof_Node Proof_Util Stats RSum Proof_XR Proof_Norm Proof_Fit Proof_Cov Proof_Crd Proof_Crd2 Proof_Crd3.
Local Open Scope R_scope.

(** ** Specification *)

(** [d] holds the nr x n real matrix A and the real target y, and the
    covariance estimate [get] turns the matrix into the n x n real matrix C *)
Record lasso_data (get : Mat XR -> res (Mat XR)) (d : NormalizedData XR) (nr n : nat) (A : nat -> nat -> R)
  (y : list R) (C : nat -> nat -> R) : Prop := mkLD {
  ld_rows : mrows (ndX d) = nr;
  ld_cols : mcols (ndX d) = n;
  ld_nr : (0 < nr)%nat;
  ld_n : (0 < n)%nat;
  ld_A : forall i j, (i < nr)%nat -> (j < n)%nat -> mval (ndX d) i j = XFin (A i j);
  ld_y : ndy d = map XFin y;
  ld_ylen : length y = nr;
  ld_C : exists cov, get (ndX d) = Ok cov /\ mrows cov = n /\ mcols cov = n /\
           forall i j, (i < n)%nat -> (j < n)%nat -> mval cov i j = XFin (C i j)
}.

(** x_j . y / nr *)
Definition xy (nr : nat) (A : nat -> nat -> R) (y : list R) (j : nat) : R :=
  rsum nr (fun i => A i j * nth i y 0) / INR nr.

(** 1/2 b^T C b - b . (X^T y / nr) + lamb |b|_1 *)
Definition objective (nr n : nat) (A : nat -> nat -> R) (y : list R) (C : nat -> nat -> R) (lamb : R) (b : list R) : R :=
  rsum n (fun i => nth i b 0 * rsum n (fun j => C i j * nth j b 0)) / 2
  - rsum n (fun j => nth j b 0 * xy nr A y j)
  + lamb * rsum n (fun j => Rabs (nth j b 0)).

(** the textbook form for C = X^T X / nr *)
Definition textbook (nr n : nat) (A : nat -> nat -> R) (y : list R) (lamb : R) (b : list R) : R :=
  rsum nr (fun i => Rsqr (nth i y 0 - rsum n (fun j => A i j * nth j b 0))) / (2 * INR nr)
  + lamb * rsum n (fun j => Rabs (nth j b 0)).

(** what LassoCrdDesc returns *)
Definition coefficients {N : Num} (r : res (list N * option (list N) * Correction N * bool)) : res (list N) :=
  do (b, _, _, _) <- r; Ok b.
Definition converged {N : Num} (r : res (list N * option (list N) * Correction N * bool)) : res bool :=
  do (_, _, _, c) <- r; Ok c.

(** ** From the entry point to the loop *)

Definition fl (b : list R) : nat -> R := fun j => nth j b 0.

Lemma objective_obj : forall nr n A y C lamb b,
  objective nr n A y C lamb b = obj n C (xy nr A y) lamb (fl b).
Proof. reflexivity. Qed.

Lemma obj_ext : forall n C q lamb b b', (forall j, (j < n)%nat -> b j = b' j) -> obj n C q lamb b = obj n C q lamb b'.
Proof.
  intros n C q lamb b b' H. unfold obj. f_equal; [f_equal|].
  - f_equal. apply dot_ext; [exact H|]. intros i Hi. apply mv_ext; auto.
  - apply dot_ext; auto.
  - f_equal. apply rsum_ext. intros j Hj. rewrite H by exact Hj. reflexivity.
Qed.

Lemma vec_fins_map : forall n b, vec n b = map XFin (map b (seq 0 n)).
Proof. intros. unfold vec. rewrite map_map. reflexivity. Qed.

Lemma fl_map : forall n b j, (j < n)%nat -> fl (map b (seq 0 n)) j = b j.
Proof. intros. unfold fl. apply nth_map_seq. assumption. Qed.

Lemma mulvec_xr : forall (X : Mat XR) A y, rmat X A -> length y = mrows X ->
  mat_mulvec (mat_T X) (map XFin y) = Ok (vec (mcols X) (fun j => rsum (mrows X) (fun i => A i j * nth i y 0))).
Proof.
  intros X A y HA Hy. change (map XFin y) with (fins y).
  rewrite (mat_mulvec_fin (mat_T X) _ y (mat_T_fin X A HA)) by (cbn [mat_T mcols]; auto).
  cbn [mat_T mcols mrows]. unfold fins, vec. rewrite map_map. reflexivity.
Qed.

Lemma lasso_unfold : forall get d nr n A y C, lasso_data get d nr n A y C -> exists cov,
  rmat cov C /\ mrows cov = n /\ mcols cov = n /\
  forall lamb x0 k tol corr,
  LassoCrdDesc get d lamb x0 k tol corr =
  do st0 <- crd_start cov n corr;
  do st <- crd_loop nr cov (vec n (fun j => INR nr * xy nr A y j)) lamb tol (Z.to_nat k) st0;
  Ok (crBeta st, match x0 with Some x => Some (go_copy x (crOld st0)) | None => None end, crCorr st, crConv st).
Proof.
  intros get d nr n A y C D. destruct (ld_C _ _ _ _ _ _ _ D) as (cov & Eg & R1 & R2 & Q).
  exists cov. split; [|split; [exact R1|split; [exact R2|]]].
  { intros i j Hi Hj. apply Q; lia. }
  intros lamb x0 k tol corr. unfold LassoCrdDesc. rewrite Eg. cbn [bind].
  rewrite (ld_y _ _ _ _ _ _ _ D). rewrite (mulvec_xr (ndX d) A y).
  - cbn [bind]. rewrite (ld_rows _ _ _ _ _ _ _ D), (ld_cols _ _ _ _ _ _ _ D).
    rewrite (vec_ext n (fun j => rsum nr (fun i => A i j * nth i y 0)) (fun j => INR nr * xy nr A y j)); [reflexivity|].
    intros j Hj. unfold xy. field. apply not_0_INR. pose proof (ld_nr _ _ _ _ _ _ _ D). lia.
  - intros i j Hi Hj. apply (ld_A _ _ _ _ _ _ _ D).
    + rewrite <- (ld_rows _ _ _ _ _ _ _ D). exact Hi.
    + rewrite <- (ld_cols _ _ _ _ _ _ _ D). exact Hj.
  - rewrite (ld_ylen _ _ _ _ _ _ _ D), (ld_rows _ _ _ _ _ _ _ D). reflexivity.
Qed.

(** ** C32 *)

(** The caller-visible helpers: updating the cached product after a change of
    coefficient [j] gives the product with the changed vector. *)
Theorem C32_cached_product : forall (X : Mat XR) A (b : list R) j u cdb,
  (forall i k, (i < mrows X)%nat -> (k < mcols X)%nat -> mval X i k = XFin (A i k)) ->
  length b = mcols X -> (j < length b)%nat ->
  MulSlice X (map XFin b) = Ok cdb ->
  exists cdb', UpdateCovDotBeta X cdb j (XFin (nth j b 0)) (XFin u) = Ok cdb' /\
    MulSlice X (map XFin (upd b j u)) = Ok cdb' /\
    cdb' = map (fun i => XFin (rsum (mcols X) (fun k => A i k * (if (k =? j)%nat then u else nth k b 0)))) (seq 0 (mrows X)).
Proof.
  intros X A b j u cdb HA Hb Hj E.
  assert (E1 : map XFin b = vec (mcols X) (fl b)).
  { apply vec_eq; [rewrite map_length; exact Hb|]. intros i Hi. unfold fl.
    apply (nth_map_lt _ _ XFin b i 0 (XFin 0)). lia. }
  rewrite E1, (mulslice_xr X A (fl b) HA) in E. injection E as <-.
  eexists. split; [apply (updatecdb_xr X A (fl b) j u HA); lia|]. split.
  - rewrite <- (mulslice_xr X A (setf (fl b) j u) HA). f_equal.
    apply vec_eq; [rewrite map_length, upd_length; exact Hb|]. intros i Hi.
    refine (eq_trans (nth_map_lt _ _ XFin (upd b j u) i 0 (XFin 0) _) _); [rewrite upd_length; lia|].
    unfold fin. f_equal. rewrite nth_upd. unfold setf, fl. destruct (Nat.eqb_spec i j); [|reflexivity].
    replace (j <? length b)%nat with true by (symmetry; apply Nat.ltb_lt; lia). reflexivity.
  - reflexivity.
Qed.
Print Assumptions C32_cached_product.

(** The cached product inside the run is the product with the current
    coefficients after every number of sweeps. *)
Theorem C32_cache_after_every_sweep : forall get d nr n A y C lamb tol k,
  lasso_data get d nr n A y C -> (forall i j, (i < n)%nat -> (j < n)%nat -> C i j = C j i) ->
  (forall j, (1 <= j < n)%nat -> 0 < C j j) -> 0 <= lamb ->
  exists cov XTy st0 st,
    get (ndX d) = Ok cov /\ mat_mulvec (mat_T (ndX d)) (ndy d) = Ok XTy /\
    crd_start cov n PureLasso = Ok st0 /\
    crd_loop nr cov XTy (XFin lamb) (XFin tol) k st0 = Ok st /\
    MulSlice cov (crBeta st) = Ok (crCdb st).
Proof.
  intros get d nr n A y C lamb tol k D Hs Hd Hl.
  destruct (ld_C _ _ _ _ _ _ _ D) as (cov & Eg & R1 & R2 & Q).
  assert (Hcov : rmat cov C) by (intros i j Hi Hj; apply Q; lia).
  destruct (run_xr n C (xy nr A y) lamb tol (ld_n _ _ _ _ _ _ _ D) Hs Hd Hl nr cov (ld_nr _ _ _ _ _ _ _ D) R1 R2 Hcov k)
    as (st0 & st & b & _ & E0 & E & RI & _).
  exists cov, (vec n (fun j => INR nr * xy nr A y j)), st0, st.
  split; [exact Eg|]. split.
  { rewrite (ld_y _ _ _ _ _ _ _ D). rewrite (mulvec_xr (ndX d) A y).
    - rewrite (ld_rows _ _ _ _ _ _ _ D), (ld_cols _ _ _ _ _ _ _ D). f_equal. apply vec_ext.
      intros j Hj. unfold xy. field. apply not_0_INR. pose proof (ld_nr _ _ _ _ _ _ _ D). lia.
    - intros i j Hi Hj. apply (ld_A _ _ _ _ _ _ _ D).
      + rewrite <- (ld_rows _ _ _ _ _ _ _ D). exact Hi.
      + rewrite <- (ld_cols _ _ _ _ _ _ _ D). exact Hj.
    - rewrite (ld_ylen _ _ _ _ _ _ _ D), (ld_rows _ _ _ _ _ _ _ D). reflexivity. }
  split; [exact E0|]. rewrite E0 in E. cbn [bind] in E. split; [exact E|].
  rewrite (ri_beta _ _ _ _ RI), (ri_cdb _ _ _ _ RI). pose proof (mulslice_xr cov C b Hcov) as M.
  rewrite R1, R2 in M. exact M.
Qed.
Print Assumptions C32_cache_after_every_sweep.

Definition toR (x : XR) : R := match x with XFin r => r | _ => 0 end.

(** No sweep increases the lasso objective; a sweep that changes the
    coefficients decreases it by at least the weighted square of the change.
    [beta k] is what LassoCrdDesc returns for the iteration limit k. *)
Theorem C32_descent : forall get d nr n A y C lamb tol,
  lasso_data get d nr n A y C -> (forall i j, (i < n)%nat -> (j < n)%nat -> C i j = C j i) ->
  (forall j, (1 <= j < n)%nat -> 0 < C j j) -> 0 <= lamb ->
  exists beta : nat -> list R,
    beta 0%nat = repeat 0 n /\
    (forall k, length (beta k) = n /\ nth 0 (beta k) 0 = 0 /\ forall x0,
      coefficients (LassoCrdDesc get d (XFin lamb) x0 (Z.of_nat k) (XFin tol) PureLasso) = Ok (map XFin (beta k))) /\
    (forall k, objective nr n A y C lamb (beta (S k))
               + rsum n (fun j => C j j * Rsqr (nth j (beta (S k)) 0 - nth j (beta k) 0)) / 2
               <= objective nr n A y C lamb (beta k)).
Proof.
  intros get d nr n A y C lamb tol D Hs Hd Hl.
  destruct (lasso_unfold get d nr n A y C D) as (cov & Hcov & R1 & R2 & U).
  pose proof (run_xr n C (xy nr A y) lamb tol (ld_n _ _ _ _ _ _ _ D) Hs Hd Hl nr cov (ld_nr _ _ _ _ _ _ _ D) R1 R2 Hcov) as Run.
  exists (fun k => match coefficients (LassoCrdDesc get d (XFin lamb) None (Z.of_nat k) (XFin tol) PureLasso) with
                   | Ok l => map toR l | _ => [] end).
  assert (G : forall k, exists b, (forall j, (n <= j)%nat -> b j = 0) /\ b 0%nat = 0 /\
    (forall x0, coefficients (LassoCrdDesc get d (XFin lamb) x0 (Z.of_nat k) (XFin tol) PureLasso) = Ok (map XFin (map b (seq 0 n))))).
  { intro k. destruct (Run k) as (st0 & st & b & _ & E0 & E & RI & _). exists b.
    split; [apply (ri_out _ _ _ _ RI)|]. split; [apply (ri_zero _ _ _ _ RI)|].
    intro x0. rewrite U, Nat2Z.id. rewrite E0 in *. cbn [bind] in *. fold (fin lamb) (fin tol). rewrite E. cbn [bind coefficients].
    rewrite (ri_beta _ _ _ _ RI), vec_fins_map. reflexivity. }
  assert (Mt : forall l : list R, map toR (map XFin l) = l).
  { intro l. rewrite map_map. rewrite <- (map_id l) at 2. apply map_ext. reflexivity. }
  split; [|split].
  - rewrite U. cbn [Z.of_nat Z.to_nat crd_loop].
    destruct (start_xr n C (ld_n _ _ _ _ _ _ _ D) cov R1 R2 Hcov) as (st & E & RI & _).
    rewrite E. cbn [bind coefficients]. rewrite (ri_beta _ _ _ _ RI), vec_fins_map, Mt.
    clear. induction n as [|m IH]; [reflexivity|]. rewrite seq_S, map_app, IH. cbn [map]. rewrite <- repeat_cons. reflexivity.
  - intro k. destruct (G k) as (b & H1 & H2 & H3). rewrite H3, Mt. split; [rewrite map_length, seq_length; reflexivity|].
    split; [rewrite nth_map_seq by apply (ld_n _ _ _ _ _ _ _ D); exact H2|]. exact H3.
  - intro k. destruct (Run k) as (st0 & st & b & b' & E0 & E & RI & st' & E' & RI' & Hst).
    rewrite !U, !Nat2Z.id. rewrite E0 in *. cbn [bind] in *. fold (fin lamb) (fin tol). rewrite E, E'. cbn [bind coefficients].
    rewrite (ri_beta _ _ _ _ RI), (ri_beta _ _ _ _ RI'), !vec_fins_map, !Mt.
    rewrite !objective_obj.
    rewrite (obj_ext n C _ lamb (fl (map b (seq 0 n))) b) by (intros; apply fl_map; assumption).
    rewrite (obj_ext n C _ lamb (fl (map b' (seq 0 n))) b') by (intros; apply fl_map; assumption).
    unfold step in Hst. rewrite (rsum_ext n _ (fun j => C j j * Rsqr (b' j - b j))); [exact Hst|].
    intros j Hj. rewrite !nth_map_seq by exact Hj. reflexivity.
Qed.
Print Assumptions C32_descent.

(** For the empirical covariance the objective is the textbook one up to a
    constant. *)
Theorem C32_objective_is_textbook : forall nr n A y lamb b, (0 < nr)%nat -> length y = nr ->
  objective nr n A y (fun i j => rsum nr (fun k => A k i * A k j) / INR nr) lamb b
  = textbook nr n A y lamb b - rsum nr (fun i => Rsqr (nth i y 0)) / (2 * INR nr).
Proof.
  intros nr n A y lamb b Hn Hy. unfold objective, textbook.
  assert (Hr : INR nr <> 0) by (apply not_0_INR; lia).
  assert (E1 : rsum n (fun i => nth i b 0 * rsum n (fun j => rsum nr (fun k => A k i * A k j) / INR nr * nth j b 0))
    = rsum nr (fun k => Rsqr (rsum n (fun j => A k j * nth j b 0))) / INR nr).
  { rewrite (rsum_ext n _ (fun i => rsum nr (fun k => nth i b 0 * A k i * rsum n (fun j => A k j * nth j b 0)) / INR nr)).
    - unfold Rdiv. rewrite rsum_scal_r, rsum_swap. f_equal. apply rsum_ext. intros k Hk.
      rewrite (rsum_scal_r n). unfold Rsqr. f_equal. apply rsum_ext. intros; ring.
    - intros i Hi.
      rewrite (rsum_ext n _ (fun j => rsum nr (fun k => A k i * (A k j * nth j b 0)) / INR nr)).
      2:{ intros j Hj. unfold Rdiv. rewrite (Rmult_comm (_ * / INR nr)), <- Rmult_assoc, (Rmult_comm (nth j b 0)), <- rsum_scal_r.
          f_equal. apply rsum_ext. intros; ring. }
      unfold Rdiv. rewrite rsum_scal_r, rsum_swap, <- Rmult_assoc, <- rsum_scal. f_equal. apply rsum_ext. intros k Hk.
      rewrite rsum_scal. ring. }
  assert (E2 : rsum n (fun j => nth j b 0 * xy nr A y j) =
    rsum nr (fun i => nth i y 0 * rsum n (fun j => A i j * nth j b 0)) / INR nr).
  { unfold xy. rewrite (rsum_ext n _ (fun j => rsum nr (fun i => nth i y 0 * (A i j * nth j b 0)) / INR nr)).
    - unfold Rdiv. rewrite rsum_scal_r, rsum_swap. f_equal. apply rsum_ext. intros i Hi. rewrite rsum_scal. reflexivity.
    - intros j Hj. unfold Rdiv. rewrite <- Rmult_assoc, <- rsum_scal. f_equal. apply rsum_ext. intros; ring. }
  rewrite E1, E2.
  rewrite (rsum_ext nr (fun i => Rsqr (nth i y 0 - rsum n (fun j => A i j * nth j b 0)))
    (fun i => Rsqr (nth i y 0) - 2 * (nth i y 0 * rsum n (fun j => A i j * nth j b 0)) + Rsqr (rsum n (fun j => A i j * nth j b 0))))
    by (intros; unfold Rsqr; ring).
  rewrite rsum_plus, rsum_minus, rsum_scal. field. exact Hr.
Qed.
Print Assumptions C32_objective_is_textbook.

(** The run settles: among the first K sweeps there is one whose (weighted,
    squared) change is at most |y|^2 / (nr K). *)
Theorem C32_settles : forall d nr n A y lamb tol,
  lasso_data Empirical_Get d nr n A y (fun i j => rsum nr (fun k => A k i * A k j) / INR nr) ->
  (forall j, (1 <= j < n)%nat -> exists i, (i < nr)%nat /\ A i j <> 0) -> 0 <= lamb ->
  exists beta : nat -> list R,
    (forall k x0, coefficients (LassoCrdDesc Empirical_Get d (XFin lamb) x0 (Z.of_nat k) (XFin tol) PureLasso) = Ok (map XFin (beta k))) /\
    forall K, (0 < K)%nat -> exists k, (k < K)%nat /\
      rsum n (fun j => rsum nr (fun i => Rsqr (A i j)) / INR nr * Rsqr (nth j (beta (S k)) 0 - nth j (beta k) 0))
      <= rsum nr (fun i => Rsqr (nth i y 0)) / (INR nr * INR K).
Proof.
  intros d nr n A y lamb tol D Hne Hl.
  pose proof (ld_nr _ _ _ _ _ _ _ D) as Hnr. assert (Hr : 0 < INR nr) by (apply lt_0_INR; lia).
  destruct (C32_descent Empirical_Get d nr n A y _ lamb tol D) as (beta & B0 & B1 & B2); auto.
  - intros i j _ _. f_equal. apply rsum_ext. intros; ring.
  - intros j Hj. destruct (Hne j Hj) as (i & Hi & Ha). apply Rdiv_lt_0_compat; [|exact Hr].
    apply Rlt_le_trans with (A i j * A i j); [apply Rsqr_pos_lt in Ha; exact Ha|].
    apply (rsum_term_le nr (fun k => A k j * A k j) i); [|exact Hi]. intros k _. apply (Rle_0_sqr (A k j)).
  - exists beta. split; [intros k x0; apply B1|]. intros K HK.
    assert (HKr : 0 < INR K) by (apply lt_0_INR; lia).
    set (D2 := fun k => rsum n (fun j => rsum nr (fun i => Rsqr (A i j)) / INR nr * Rsqr (nth j (beta (S k)) 0 - nth j (beta k) 0))).
    set (Y := rsum nr (fun i => Rsqr (nth i y 0))).
    set (Cx := fun i j => rsum nr (fun k => A k i * A k j) / INR nr).
    assert (T : forall m, objective nr n A y Cx lamb (beta m) + rsum m D2 / 2 <= 0).
    { induction m as [|m IH].
      - cbn [rsum]. rewrite B0, objective_obj. rewrite (obj_ext n _ _ lamb (fl (repeat 0 n)) (fun _ => 0)).
        + unfold obj, dot, mv. rewrite !rsum_0'; [lra|intros; apply Rabs_R0|intros; ring|].
          intros. ring.
        + intros j _. unfold fl. apply nth_repeat.
      - cbn [rsum]. 
        assert (B2' : objective nr n A y Cx lamb (beta (S m)) + D2 m / 2 <= objective nr n A y Cx lamb (beta m)) by exact (B2 m).
        lra. }
    assert (Low : forall b, - Y / (2 * INR nr) <= objective nr n A y Cx lamb b).
    { intro b. unfold Cx. rewrite C32_objective_is_textbook by (auto; apply (ld_ylen _ _ _ _ _ _ _ D)). unfold textbook. fold Y.
      assert (0 <= rsum nr (fun i => Rsqr (nth i y 0 - rsum n (fun j => A i j * nth j b 0))) / (2 * INR nr)).
      { apply Rmult_le_pos; [apply rsum_nonneg; intros; apply Rle_0_sqr|]. left. apply Rinv_0_lt_compat. lra. }
      assert (0 <= lamb * rsum n (fun j => Rabs (nth j b 0))).
      { apply Rmult_le_pos; [exact Hl|]. apply rsum_nonneg. intros; apply Rabs_pos. }
      unfold Rdiv in *. lra. }
    assert (Avg : rsum K D2 <= Y / INR nr).
    { specialize (T K). specialize (Low (beta K)). 
      assert (- Y / (2 * INR nr) = - (Y / INR nr) / 2) by (field; lra). lra. }
    assert (P : forall m, (forall k, (k < m)%nat -> Y / (INR nr * INR K) < D2 k) -> (0 < m)%nat ->
      INR m * (Y / (INR nr * INR K)) < rsum m D2).
    { intros m Hm H0. rewrite <- rsum_const. 
      assert (0 < rsum m (fun k => D2 k - Y / (INR nr * INR K))).
      { apply rsum_pos; [exact H0|]. intros i Hi. specialize (Hm i Hi). lra. }
      rewrite rsum_minus in H. lra. }
    assert (Dec : forall m, (exists k, (k < m)%nat /\ D2 k <= Y / (INR nr * INR K)) \/
      (forall k, (k < m)%nat -> Y / (INR nr * INR K) < D2 k)).
    { induction m as [|m [(k & Hk & IH)|IH]].
      - right. intros; lia.
      - left. exists k. split; [lia|exact IH].
      - destruct (Rle_lt_dec (D2 m) (Y / (INR nr * INR K))) as [H|H]; [left; exists m; split; [lia|exact H]|].
        right. intros k Hk. destruct (Nat.eq_dec k m) as [->|]; [exact H|]. apply IH. lia. }
    destruct (Dec K) as [H|H]; [exact H|]. specialize (P K H HK).
    assert (INR K * (Y / (INR nr * INR K)) = Y / INR nr) by (field; lra). lra.
Qed.
Print Assumptions C32_settles.

(** A dataset and an estimate of matching shapes, for any number type *)
Record shaped {N : Num} (get : Mat N -> res (Mat N)) (d : NormalizedData N) (corr : Correction N) : Prop := mkShaped {
  sh_n : (0 < mcols (ndX d))%nat;
  sh_y : length (ndy d) = mrows (ndX d);
  sh_cov : exists cov, get (ndX d) = Ok cov /\ mrows cov = mcols (ndX d) /\ mcols cov = mcols (ndX d);
  sh_corr : match corr with CLasso b _ => length b = mcols (ndX d) | _ => True end
}.

(** A coefficient that is zero (up to 1e-16, or not a number) after some sweep
    never changes again, whatever the iteration limit: features only ever
    leave the model.  Coefficient 0 stays zero.  This holds for every
    correction, in binary64 as in exact arithmetic. *)
Theorem C32_zero_stays : forall (N : Num) get (d : NormalizedData N) (lamb tol : N) corr x0 k m,
  shaped get d corr -> (1 <= k <= m)%Z ->
  exists b b' : list N,
    coefficients (LassoCrdDesc get d lamb x0 k tol corr) = Ok b /\
    coefficients (LassoCrdDesc get d lamb x0 m tol corr) = Ok b' /\
    length b = mcols (ndX d) /\ length b' = mcols (ndX d) /\
    nth 0 b n0 = n0 /\ nth 0 b' n0 = n0 /\
    forall j, nltb (ndec 1 (-16)) (nabs (nth j b n0)) = false -> nth j b' n0 = nth j b n0.
Proof.
  intros N get d lamb tol corr x0 k m [Hn Hy (cov & Eg & R1 & R2) Hc] Hkm.
  set (n := mcols (ndX d)) in *.
  assert (EX : exists XTy, mat_mulvec (mat_T (ndX d)) (ndy d) = Ok XTy /\ length XTy = n).
  { unfold mat_mulvec. cbn [mat_T mcols mrows]. rewrite Hy, Nat.eqb_refl. eexists. split; [reflexivity|].
    rewrite map_length, seq_length. reflexivity. }
  destruct EX as (XTy & EX & LX).
  destruct (start_ok N n cov corr Hn R1 R2 Hc) as (st & E & G & A1 & A2 & A3 & A4 & A5 & A6).
  assert (Hsh : shapes N n cov XTy) by (repeat split; assumption).
  destruct (loop_sweeps N n (mrows (ndX d)) cov XTy lamb tol Hsh (Z.to_nat k) st G A4) as (j1 & st1 & E1 & Hj1 & Hsw1 & Hst1).
  assert (U : forall kk, LassoCrdDesc get d lamb x0 kk tol corr =
    do st' <- crd_loop (mrows (ndX d)) cov XTy lamb tol (Z.to_nat kk) st;
    Ok (crBeta st', match x0 with Some x => Some (go_copy x (crOld st)) | None => None end, crCorr st', crConv st')).
  { intro kk. unfold LassoCrdDesc. rewrite Eg. cbn [bind]. rewrite EX. cbn [bind]. fold n. rewrite E. reflexivity. }
  pose proof (sweeps_inv N n _ _ _ _ _ _ _ _ Hsh G Hsw1) as G1.
  assert (Hact : forall j, nltb (ndec 1 (-16)) (nabs (nth j (crBeta st1) n0)) = false -> ~ In j (crIter st1)).
  { intros j Hj Hin. destruct j1 as [|j1].
    - assert (crStop st1 = true) by (apply Hst1; lia). inversion Hsw1; subst. congruence.
    - pose proof (sweeps_active N n _ _ _ _ _ _ _ _ Hsh G Hsw1 j Hin) as Ha. unfold active, lassoCrdDescZero in Ha. congruence. }
  assert (E2 : exists st2, crd_loop (mrows (ndX d)) cov XTy lamb tol (Z.to_nat m) st = Ok st2 /\ GInv N n st2 /\
    forall j, ~ In j (crIter st1) -> nth j (crBeta st2) n0 = nth j (crBeta st1) n0).
  { replace (Z.to_nat m) with (Z.to_nat k + (Z.to_nat m - Z.to_nat k))%nat by lia.
    rewrite loop_split, A4, E1. cbn [bind]. destruct (crStop st1) eqn:Es.
    - exists st1. auto.
    - destruct (loop_sweeps N n (mrows (ndX d)) cov XTy lamb tol Hsh (Z.to_nat m - Z.to_nat k) st1 G1 Es)
        as (j2 & st2 & E2 & _ & Hsw2 & _).
      exists st2. split; [exact E2|]. split; [apply (sweeps_inv N n _ _ _ _ _ _ _ _ Hsh G1 Hsw2)|].
      apply (sweeps_frozen N n _ _ _ _ _ _ _ _ Hsh G1 Hsw2). }
  destruct E2 as (st2 & E2 & G2 & F2).
  exists (crBeta st1), (crBeta st2). rewrite !U, E1, E2. cbn [bind coefficients].
  split; [reflexivity|]. split; [reflexivity|].
  split; [apply (gi_beta _ _ _ G1)|]. split; [apply (gi_beta _ _ _ G2)|].
  split; [apply (gi_zero _ _ _ G1)|]. split; [apply (gi_zero _ _ _ G2)|].
  intros j Hj. apply F2. apply Hact. exact Hj.
Qed.
Print Assumptions C32_zero_stays.

(** ** C33 *)

(** the optimality condition of feature j, up to e: the gradient of the smooth
    part is at most lamb, and equal to lamb times the sign of a non-zero
    coefficient *)
Definition stationary (nr n : nat) (A : nat -> nat -> R) (y : list R) (C : nat -> nat -> R) (lamb e : R) (b : list R) (j : nat) : Prop :=
  let g := xy nr A y j - rsum n (fun i => C j i * nth i b 0) in
  Rabs g <= lamb + e /\
  (0 < nth j b 0 -> Rabs (g - lamb) <= e) /\
  (nth j b 0 < 0 -> Rabs (g + lamb) <= e).

Definition minimiser_without_bias (n : nat) (f : list R -> R) (b : list R) : Prop :=
  length b = n /\ nth 0 b 0 = 0 /\ forall x, length x = n -> nth 0 x 0 = 0 -> f b <= f x.

(** The conditions are the right ones: they make b a minimiser. *)
Theorem C33_conditions_sufficient : forall nr n A y C lamb b,
  (forall i j, (i < n)%nat -> (j < n)%nat -> C i j = C j i) ->
  (forall x : nat -> R, 0 <= rsum n (fun i => x i * rsum n (fun j => C i j * x j))) -> 0 <= lamb ->
  length b = n -> nth 0 b 0 = 0 ->
  (forall j, (1 <= j < n)%nat -> stationary nr n A y C lamb 0 b j) ->
  minimiser_without_bias n (objective nr n A y C lamb) b.
Proof.
  intros nr n A y C lamb b Hs Hp Hl Hb H0 H. split; [exact Hb|]. split; [exact H0|]. intros x Hx Hx0.
  rewrite !objective_obj.
  destruct (kkt_sufficient n C (xy nr A y) lamb Hs Hp (fl b) (fun _ => 0) (fl x)) as [K|(j & _ & K)]; [| |lra].
  - intros j Hj. destruct (Nat.eq_dec j 0) as [->|Hj0]; [left; split; assumption|right].
    specialize (H j ltac:(lia)). destruct H as (K1 & K2 & K3). split; [exact K1|].
    cbv zeta in *. fold (fl b) in K1, K2, K3.
    change (rsum n (fun i => C j i * nth i b 0)) with (mv n C (fl b) j) in K1, K2, K3.
    set (g := xy nr A y j - mv n C (fl b) j) in *. change (nth j b 0) with (fl b j) in K2, K3.
    destruct (Rtotal_order 0 (fl b j)) as [Hlt|[Heq|Hgt]].
    + specialize (K2 Hlt). assert (g = lamb) by (unfold Rabs in K2; destruct (Rcase_abs (g - lamb)); lra).
      rewrite (Rabs_right (fl b j)) by lra. nra.
    + rewrite <- Heq, Rabs_R0. lra.
    + specialize (K3 Hgt). assert (g = - lamb) by (unfold Rabs in K3; destruct (Rcase_abs (g + lamb)); lra).
      rewrite (Rabs_left (fl b j)) by lra. nra.
  - rewrite rsum_0' in K; [lra|]. intros; ring.
Qed.
Print Assumptions C33_conditions_sufficient.

Lemma e16_fin : ndec (n := XR) 1 (-16) = fin (/ 10 ^ 16).
Proof. cbn. unfold xdec. cbn. unfold fin. f_equal. lra. Qed.

Lemma Rabs_def2' : forall x a, Rabs x <= a -> - a <= x <= a.
Proof. intros x a H. unfold Rabs in H. destruct (Rcase_abs x); lra. Qed.

(** What a run that reports convergence does guarantee: the features still in
    the model satisfy their condition, up to tol times the largest
    coefficient times the absolute row sum. *)
Theorem C33_active_features : forall get d nr n A y C lamb tol x0 k b x' c,
  lasso_data get d nr n A y C -> (forall i j, (i < n)%nat -> (j < n)%nat -> C i j = C j i) ->
  (forall j, (1 <= j < n)%nat -> 0 < C j j) -> 0 <= lamb ->
  LassoCrdDesc get d (XFin lamb) x0 k (XFin tol) PureLasso = Ok (map XFin b, x', c, true) ->
  exists i, (1 <= i < n)%nat /\ nth i b 0 <> 0 /\
  forall j, (1 <= j < n)%nat -> / 10 ^ 16 < Rabs (nth j b 0) ->
    stationary nr n A y C lamb (tol * Rabs (nth i b 0) * rsum n (fun i => Rabs (C j i))) b j.
Proof.
  intros get d nr n A y C lamb tol x0 k b x' c D Hs Hd Hl E.
  destruct (lasso_unfold get d nr n A y C D) as (cov & Hcov & R1 & R2 & U).
  rewrite U in E. clear U.
  pose proof (conv_run n C (xy nr A y) lamb tol (ld_n _ _ _ _ _ _ _ D) Hs Hd Hl nr cov (ld_nr _ _ _ _ _ _ _ D) R1 R2 Hcov (Z.to_nat k)) as CR.
  fold (fin lamb) (fin tol) in E.
  destruct (crd_start cov n PureLasso) as [st0| |]; cbn [bind] in *; [|discriminate E|discriminate E].
  destruct (crd_loop nr cov _ (fin lamb) (fin tol) (Z.to_nat k) st0) as [st| |]; cbn [bind] in *; [|discriminate E|discriminate E].
  destruct (CR st eq_refl) as (bf & RI & K). injection E as Eb _ _ Ec. destruct (K Ec) as (i & Hi & Hbi & Hk).
  assert (Hb : b = map bf (seq 0 n)).
  { rewrite (ri_beta _ _ _ _ RI), vec_fins_map in Eb. apply (f_equal (map toR)) in Eb.
    rewrite !map_map in Eb. cbn [toR] in Eb. rewrite !map_id in Eb. rewrite <- Eb. apply map_ext. reflexivity. }
  assert (Efl : forall j, (j < n)%nat -> nth j b 0 = bf j) by (intros j Hj; rewrite Hb; apply nth_map_seq; exact Hj).
  exists i. split; [exact Hi|]. rewrite Efl by lia. split; [exact Hbi|].
  intros j Hj Ha. destruct (Hk j Hj) as [K1 K2].
  { unfold active, lassoCrdDescZero. rewrite e16_fin, (ri_beta _ _ _ _ RI), vec_nth by lia. rewrite xabs_fin.
    apply Rltb_true. rewrite <- Efl by lia. exact Ha. }
  set (e := tol * Rabs (bf i) * rsum n (fun i => Rabs (C j i))) in *.
  assert (Eg : rsum n (fun i => C j i * nth i b 0) = mv n C bf j).
  { unfold mv. apply rsum_ext. intros l Hl'. rewrite Efl by exact Hl'. reflexivity. }
  unfold stationary. rewrite Eg, Efl by lia. cbv zeta in *. set (g := xy nr A y j - mv n C bf j) in *.
  split; [exact K1|]. split; intro Hsg.
  - rewrite (Rabs_right (bf j)) in K2 by lra. assert (lamb - g <= e) by nra.
    apply Rabs_le. apply Rabs_def2' in K1. lra.
  - rewrite (Rabs_left (bf j)) in K2 by lra. assert (lamb + g <= e) by nra.
    apply Rabs_le. apply Rabs_def2' in K1. lra.
Qed.
Print Assumptions C33_active_features.

(** A small dataset: five samples, a constant column and two features with
    correlation; the first feature is uncorrelated with the target. *)
Definition ex_raw (i j : nat) : R :=
  nth j (nth i [[1; 1; 1]; [1; 1; 1]; [1; -1; 0]; [1; -1; -1]; [1; 0; -1]] []) 0.
Definition ex_X : Mat XR := mkMat (N := XR) 5 3 (fun i j => XFin (ex_raw i j)).
Definition ex_y : list R := [1; -1; 1; -1; 0].
(** the same after normalisation: only the constant column changes *)
Definition ex_A (i j : nat) : R := if (j =? 0)%nat then 0 else ex_raw i j.
Definition ex_C (i j : nat) : R := rsum 5 (fun k => ex_A k i * ex_A k j) / INR 5.

Lemma lsum5 : forall a b c d e : R, lsum [a; b; c; d; e] = a + b + c + d + e.
Proof. intros. rewrite !lsum_cons, lsum_nil. ring. Qed.
Lemma INR5 : INR 5 = 5. Proof. simpl. lra. Qed.
Lemma INR4 : INR 4 = 4. Proof. simpl. lra. Qed.

Lemma mean5 : forall a b c d e, mean [a; b; c; d; e] = (a + b + c + d + e) / 5.
Proof. intros. unfold mean. rewrite lsum5. cbn [length]. rewrite INR5. reflexivity. Qed.

Lemma sdev5 : forall a b c d e s, 0 <= s -> a + b + c + d + e = 0 -> a * a + b * b + c * c + d * d + e * e = 4 * (s * s) ->
  sdev [a; b; c; d; e] = s.
Proof.
  intros a b c d e s Hs H0 H. unfold sdev. cbn [length Nat.leb map Nat.sub]. rewrite mean5, H0, lsum5, INR4.
  match goal with |- sqrt ?t = _ => replace t with (s * s) by lra end. apply sqrt_square. exact Hs.
Qed.

Lemma ex_dataset : exists nd, NewNormalizedData ex_X (map XFin ex_y) = Ok nd /\
  lasso_data Empirical_Get nd 5 3 ex_A ex_y ex_C.
Proof.
  assert (HX : rmat ex_X ex_raw) by (intros i j _ _; reflexivity).
  assert (My : mean ex_y = 0) by (unfold ex_y; rewrite mean5; lra).
  assert (Sy : sdev ex_y = 1) by (unfold ex_y; apply sdev5; lra).
  assert (C0 : rcol 5 ex_raw 0 = [1; 1; 1; 1; 1]) by reflexivity.
  assert (C1 : rcol 5 ex_raw 1 = [1; 1; -1; -1; 0]) by reflexivity.
  assert (C2 : rcol 5 ex_raw 2 = [1; 1; 0; -1; -1]) by reflexivity.
  assert (M0 : mean (rcol 5 ex_raw 0) = 1) by (rewrite C0, mean5; lra).
  assert (M1 : mean (rcol 5 ex_raw 1) = 0) by (rewrite C1, mean5; lra).
  assert (M2 : mean (rcol 5 ex_raw 2) = 0) by (rewrite C2, mean5; lra).
  assert (S0 : sdev (rcol 5 ex_raw 0) = 0).
  { rewrite C0. unfold sdev. cbn [length Nat.leb map Nat.sub]. rewrite mean5, lsum5.
    match goal with |- sqrt ?t = _ => replace t with 0 by (rewrite INR4; lra) end. apply sqrt_0. }
  assert (S1 : sdev (rcol 5 ex_raw 1) = 1) by (rewrite C1; apply sdev5; lra).
  assert (S2 : sdev (rcol 5 ex_raw 2) = 1) by (rewrite C2; apply sdev5; lra).
  assert (T10 : tol10 < 1).
  { unfold tol10. change (10 ^ 10)%Z with 10000000000%Z. lra. }
  pose proof tol10_pos as T0.
  destruct (nnd_ok ex_X ex_raw HX ltac:(cbn; lia) ex_y) as (X' & E & R1 & R2 & Q); [discriminate| |].
  { intros c Hc. change (mrows ex_X) with 5%nat. change (mcols ex_X) with 3%nat in Hc.
    destruct c as [|[|[|c]]]; [lia| | |lia]; [rewrite S1|rewrite S2]; lra. }
  change (mrows ex_X) with 5%nat in *. change (mcols ex_X) with 3%nat in *.
  assert (HA : forall i j, (i < 5)%nat -> (j < 3)%nat -> mval X' i j = XFin (ex_A i j)).
  { intros i j Hi Hj. rewrite (Q i j) by lia. unfold fin. f_equal. unfold normed, scale.
    change (mrows ex_X) with 5%nat. unfold ex_A. destruct j as [|[|[|j]]]; [| | |lia]; cbn [Nat.eqb].
    - rewrite M0, S0. rewrite (proj2 (Rltb_true _ _) T0).
      replace (ex_raw i 0) with 1; [lra|]. do 5 (destruct i as [|i]; [reflexivity|]). lia.
    - rewrite M1, S1. rewrite (proj2 (Rltb_false _ _)) by lra. lra.
    - rewrite M2, S2. rewrite (proj2 (Rltb_false _ _)) by lra. lra. }
  eexists. split; [exact E|]. constructor; cbn [ndX ndy]; auto; try lia.
  - unfold ydone. rewrite Sy, My. rewrite Reqb_ne by lra. unfold fins. f_equal.
    rewrite (map_ext_in _ (fun v => v)); [apply map_id|]. intros; lra.
  - destruct (empirical_xr X' ex_A) as (cov & Ec & K1 & K2 & K3); [intros i j Hi Hj; apply HA; lia|lia|lia|].
    exists cov. rewrite R2 in *. rewrite R1 in K3. split; [exact Ec|]. split; [exact K1|]. split; [exact K2|].
    intros i j Hi Hj. apply K3; lia.
Qed.

Lemma ex_values : ex_C 1 1 = 4 / 5 /\ ex_C 2 2 = 4 / 5 /\ ex_C 1 2 = 3 / 5 /\ ex_C 2 1 = 3 / 5 /\
  (forall i, ex_C 0 i = 0 /\ ex_C i 0 = 0) /\ xy 5 ex_A ex_y 1 = 0 /\ xy 5 ex_A ex_y 2 = 1 / 5.
Proof.
  unfold ex_C, xy. rewrite INR5. unfold ex_A, ex_raw, ex_y.
  split; [cbn; lra|]. split; [cbn; lra|]. split; [cbn; lra|]. split; [cbn; lra|]. split.
  - intro i. split.
    + rewrite rsum_0'; [lra|]. intros k Hk. cbn [Nat.eqb]. ring.
    + rewrite rsum_0'; [lra|]. intros k Hk. cbn [Nat.eqb]. ring.
  - split; cbn; lra.
Qed.

Lemma ex_sym : forall i j, (i < 3)%nat -> (j < 3)%nat -> ex_C i j = ex_C j i.
Proof. intros i j _ _. unfold ex_C. f_equal. apply rsum_ext. intros; ring. Qed.
Lemma ex_diag : forall j, (1 <= j < 3)%nat -> 0 < ex_C j j.
Proof.
  destruct ex_values as (E1 & E2 & _). intros j Hj. destruct j as [|[|[|j]]]; [lia| | |lia]; lra.
Qed.

(** the point where the run on that dataset ends *)
Definition ex_b (j : nat) : R := if (j =? 2)%nat then 19 / 80 else 0.

Section ExRun.
  Variable cov : Mat XR.
  Variable tol : R.
  Hypothesis Hrows : mrows cov = 3%nat.
  Hypothesis Hcols : mcols cov = 3%nat.
  Hypothesis Hcov : rmat cov ex_C.
  Hypothesis Htol : 0 < tol.
  Let q := xy 5 ex_A ex_y.
  Notation XTy := (vec 3 (fun j => INR 5 * q j)).
  Notation INV := (RInv 3 ex_C).
  Notation it := (crd_iter 5 cov XTy (fin (1 / 100) : XR) (fin tol : XR)).

  Lemma ex_active : active XR (vec 3 ex_b) 2 = true /\ active XR (vec 3 ex_b) 1 = false.
  Proof.
    unfold active, lassoCrdDescZero. rewrite e16_fin, !vec_nth by lia. rewrite !xabs_fin. unfold ex_b. cbn [Nat.eqb].
    split; [apply Rltb_true|apply Rltb_false].
    - rewrite Rabs_right by lra. lra.
    - rewrite Rabs_R0. lra.
  Qed.

  Lemma sh3 : shapes XR 3 cov XTy.
  Proof. repeat split; auto; try apply vec_length. Qed.

  Lemma ex_soft2 : forall b, b 0%nat = 0 -> b 1%nat = 0 ->
    soft (q 2%nat - (mv 3 ex_C b 2 - b 2%nat * ex_C 2 2)) (1 / 100) / ex_C 2 2 = 19 / 80.
  Proof.
    intros b B0 B1. destruct ex_values as (E1 & E2 & E3 & E4 & E5 & E6 & E7). unfold mv. cbn [rsum]. rewrite B0, B1.
    unfold q. rewrite E7. replace (1 / 5 - _) with (1 / 5) by ring. unfold soft.
    destruct (Rlt_dec (1 / 5) (- (1 / 100))); [lra|]. destruct (Rlt_dec (1 / 100) (1 / 5)); [|lra]. rewrite E2. lra.
  Qed.

  Lemma ex_first : forall st, INV st (fun _ => 0) -> crIter st = [1%nat; 2%nat] ->
    exists st', it st = Ok st' /\ INV st' ex_b /\ crIter st' = [2%nat].
  Proof.
    intros st RI Ei. destruct ex_values as (E1 & E2 & E3 & E4 & E5 & E6 & E7).
    pose proof (ri_g _ _ _ _ RI) as G.
    destruct (iter_ok XR 3 5 cov XTy (fin (1 / 100) : XR) (fin tol : XR) st sh3 G)
      as (st' & mc & mx & E & G' & Es & Eit & Ef & Ec & _).
    exists st'. split; [exact E|].
    rewrite (ri_corr _ _ _ _ RI), (ri_beta _ _ _ _ RI), (ri_cdb _ _ _ _ RI), Ei in Es. cbn [for_each] in Es.
    rewrite (coord_xr 3 ex_C q (1 / 100) ltac:(lra) 5 cov ltac:(lia) Hrows Hcols Hcov (fun _ => 0) (vec 3 (fun _ => 0)) 1) in Es;
      [|lia|lra|apply vec_length|rewrite vec_nth by lia; reflexivity].
    cbv zeta in Es. cbn [bind] in Es.
    replace (soft (q 1%nat - (mv 3 ex_C (fun _ => 0) 1 - 0 * ex_C 1 1)) (1 / 100) / ex_C 1 1) with 0 in Es.
    2:{ unfold mv. cbn [rsum]. unfold q. rewrite E6. replace (0 - _) with 0 by ring. unfold soft.
        destruct (Rlt_dec 0 (- (1 / 100))); [lra|]. destruct (Rlt_dec (1 / 100) 0); lra. }
    rewrite (coord_xr 3 ex_C q (1 / 100) ltac:(lra) 5 cov ltac:(lia) Hrows Hcols Hcov (setf (fun _ => 0) 1 0) (vec 3 (fun _ => 0)) 2) in Es;
      [|lia|lra|apply vec_length|rewrite vec_nth by lia; reflexivity].
    cbv zeta in Es. cbn [bind] in Es. rewrite ex_soft2 in Es by reflexivity.
    assert (Ex : forall j, setf (setf (fun _ => 0) 1 0) 2 (19 / 80) j = ex_b j).
    { intro j. unfold setf, ex_b. destruct (j =? 2)%nat; [reflexivity|]. destruct (j =? 1)%nat; reflexivity. }
    assert (Eb : crBeta st' = vec 3 ex_b).
    { injection Es as _ Eb. rewrite <- Eb. apply vec_ext. intros; apply Ex. }
    assert (Ecd : crCdb st' = vec 3 (mv 3 ex_C ex_b)).
    { injection Es as Ecd _. rewrite <- Ecd. apply vec_ext. intros i _. apply mv_ext; auto. }
    split.
    - constructor; auto.
      + rewrite Ec, (ri_corr _ _ _ _ RI). reflexivity.
      + intros j Hj. unfold ex_b. destruct (Nat.eqb_spec j 2); [lia|reflexivity].
    - rewrite Eit, Eb, Ei. cbn [filter]. rewrite (proj1 ex_active), (proj2 ex_active). reflexivity.
  Qed.

  Lemma ex_next : forall st, INV st ex_b -> crIter st = [2%nat] ->
    exists st', it st = Ok st' /\ INV st' ex_b /\ crIter st' = [2%nat] /\ crConv st' = true.
  Proof.
    intros st RI Ei. destruct ex_values as (E1 & E2 & E3 & E4 & E5 & E6 & E7).
    pose proof (ri_g _ _ _ _ RI) as G.
    destruct (iter_ok XR 3 5 cov XTy (fin (1 / 100) : XR) (fin tol : XR) st sh3 G)
      as (st' & mc & mx & E & G' & Es & Eit & Ef & Ec & Ech & Ecv & _).
    exists st'. split; [exact E|].
    rewrite (ri_corr _ _ _ _ RI), (ri_beta _ _ _ _ RI), (ri_cdb _ _ _ _ RI), Ei in Es. cbn [for_each] in Es.
    rewrite (coord_xr 3 ex_C q (1 / 100) ltac:(lra) 5 cov ltac:(lia) Hrows Hcols Hcov ex_b (vec 3 ex_b) 2) in Es;
      [|lia|lra|apply vec_length|rewrite vec_nth by lia; reflexivity].
    cbv zeta in Es. cbn [bind] in Es. rewrite ex_soft2 in Es by reflexivity.
    assert (Ex : forall j, setf ex_b 2 (19 / 80) j = ex_b j).
    { intro j. unfold setf, ex_b. destruct (j =? 2)%nat; reflexivity. }
    assert (Eb : crBeta st' = vec 3 ex_b).
    { injection Es as _ Eb. rewrite <- Eb. apply vec_ext. intros; apply Ex. }
    assert (Ecd : crCdb st' = vec 3 (mv 3 ex_C ex_b)).
    { injection Es as Ecd _. rewrite <- Ecd. apply vec_ext. intros i _. apply mv_ext; auto. }
    split; [|split].
    - constructor; auto.
      + rewrite Ec, (ri_corr _ _ _ _ RI). reflexivity.
      + intros j Hj. unfold ex_b. destruct (Nat.eqb_spec j 2); [lia|reflexivity].
    - rewrite Eit, Eb, Ei. cbn [filter]. rewrite (proj1 ex_active). reflexivity.
    - rewrite Eb, (ri_beta _ _ _ _ RI), Ei in Ech. unfold crd_change in Ech. cbn [for_each] in Ech.
      rewrite (getn_lt _ (vec 3 ex_b) 2 n0) in Ech by (rewrite vec_length; lia).
      rewrite vec_nth in Ech by lia. cbn [bind] in Ech. rewrite xsub_fin, !xabs_fin, n0_fin in Ech.
      change (ex_b 2) with (19 / 80) in Ech. rewrite Rminus_eq_0, Rabs_R0, (Rabs_right (19 / 80)) in Ech by lra.
      rewrite !xlt_fin in Ech. rewrite (proj2 (Rltb_false 0 0)) in Ech by lra. rewrite (proj2 (Rltb_true 0 (19 / 80))) in Ech by lra.
      injection Ech as <- <-. rewrite Ecv. rewrite xdiv_fin by lra. apply Rltb_true. lra.
  Qed.

  Lemma ex_run : forall k, exists st0 st, crd_start cov 3 (PureLasso (N := XR)) = Ok st0 /\
    crd_loop 5 cov XTy (fin (1 / 100) : XR) (fin tol : XR) (S (S k)) st0 = Ok st /\ crBeta st = vec 3 ex_b /\ crConv st = true.
  Proof.
    intro k. destruct (start_ok XR 3 cov PureLasso ltac:(lia) Hrows Hcols I) as (st0 & E0 & _ & _ & A2 & _).
    destruct (start_xr 3 ex_C ltac:(lia) cov Hrows Hcols Hcov) as (st0' & E0' & RI0 & _).
    rewrite E0 in E0'. injection E0' as <-. exists st0.
    destruct (ex_first st0 RI0 A2) as (st1 & E1 & RI1 & I1).
    assert (G : forall k st, INV st ex_b -> crIter st = [2%nat] ->
      exists st', crd_loop 5 cov XTy (fin (1 / 100) : XR) (fin tol : XR) (S k) st = Ok st' /\ crBeta st' = vec 3 ex_b /\ crConv st' = true).
    { clear - Hrows Hcols Hcov Htol. induction k as [|k IH]; intros st RI Hi.
      - cbn [crd_loop]. destruct (ex_next st RI Hi) as (st' & E & RI' & _ & Hc). rewrite E. cbn [bind].
        exists st'. split; [destruct (crStop st'); reflexivity|]. split; [apply (ri_beta _ _ _ _ RI')|exact Hc].
      - remember (S k) as k1 eqn:Hk1. cbn [crd_loop]. destruct (ex_next st RI Hi) as (st' & E & RI' & Hi' & Hc). rewrite E. cbn [bind].
        destruct (crStop st'); [exists st'; split; [reflexivity|]; split; [apply (ri_beta _ _ _ _ RI')|exact Hc]|].
        apply IH; assumption. }
    remember (S k) as k1 eqn:Hk1. cbn [crd_loop]. rewrite E1. cbn [bind].
    destruct (iter_ok XR 3 5 cov XTy (fin (1 / 100) : XR) (fin tol : XR) st0 sh3 (ri_g _ _ _ _ RI0))
      as (st1' & mc & mx & E1' & _ & _ & _ & _ & _ & Ech & Ecv & Hst).
    rewrite E1 in E1'. injection E1' as <-.
    destruct (crStop st1) eqn:Es.
    - exists st1. split; [exact E0|]. split; [reflexivity|]. split; [apply (ri_beta _ _ _ _ RI1)|auto].
    - subst k1. destruct (G k st1 RI1 I1) as (st & E & H1 & H2). exists st. auto.
  Qed.
End ExRun.

(** On this dataset (prepared by NewNormalizedData), with lamb = 1/100, the run
    reports convergence for every positive tolerance and every iteration limit
    from 2 on, yet what it returns is not the minimiser: there is a vector
    whose objective is lower by 1/50 (the attained value is below 1/40). *)
Theorem C33_stops_at_a_non_optimal_point_refuted :
  exists (X : Mat XR) y nd A C x, NewNormalizedData X (map XFin y) = Ok nd /\
    lasso_data Empirical_Get nd 5 3 A y C /\
    length x = 3%nat /\ nth 0 x 0 = 0 /\
    forall tol k x0, 0 < tol -> (2 <= k)%Z -> exists b x' c,
      LassoCrdDesc Empirical_Get nd (XFin (1 / 100)) x0 k (XFin tol) PureLasso = Ok (map XFin b, x', c, true) /\
      objective 5 3 A y C (1 / 100) x + 1 / 50 < objective 5 3 A y C (1 / 100) b /\
      ~ stationary 5 3 A y C (1 / 100) (1 / 10) b 1.
Proof.
  destruct ex_dataset as (nd & End & D).
  exists ex_X, ex_y, nd, ex_A, ex_C, [0; - 3 / 8; 1 / 2].
  split; [exact End|]. split; [exact D|]. split; [reflexivity|]. split; [reflexivity|].
  intros tol k x0 Htol Hk.
  destruct (lasso_unfold _ _ _ _ _ _ _ D) as (cov & Hcov & R1 & R2 & U).
  destruct (ex_run cov tol R1 R2 Hcov Htol (Z.to_nat k - 2)) as (st0 & st & E0 & E & Eb & Ec).
  replace (S (S (Z.to_nat k - 2))) with (Z.to_nat k) in E by lia.
  eexists (map ex_b (seq 0 3)), _, _. split; [|split].
  - rewrite U, E0. cbn [bind]. fold (fin (1 / 100)) (fin tol). rewrite E. cbn [bind].
    rewrite Eb, Ec, vec_fins_map. reflexivity.
  - destruct ex_values as (E1 & E2 & E3 & E4 & E5 & E6 & E7). unfold objective. cbn [rsum map seq nth].
    rewrite !(proj1 (E5 _)), !(proj2 (E5 _)), E1, E2, E3, E4, E6, E7. unfold ex_b. cbn [Nat.eqb].
    rewrite !Rabs_R0. rewrite (Rabs_left (- 3 / 8)) by lra. rewrite (Rabs_right (1 / 2)) by lra.
    rewrite (Rabs_right (19 / 80)) by lra. lra.
  - intros (K & _). cbv zeta in K. destruct ex_values as (E1 & E2 & E3 & E4 & E5 & E6 & E7).
    cbn [rsum map seq nth] in K. rewrite !(proj2 (E5 _)), E1, E3, E6 in K. unfold ex_b in K. cbn [Nat.eqb] in K.
    replace (0 - _) with (- (57 / 400)) in K by lra. rewrite Rabs_left in K by lra. lra.
Qed.
Print Assumptions C33_stops_at_a_non_optimal_point_refuted.

(** the hypotheses of C32 and of the theorems above are met by this dataset *)
Example C32_example : exists nd, NewNormalizedData ex_X (map XFin ex_y) = Ok nd /\
  lasso_data Empirical_Get nd 5 3 ex_A ex_y ex_C /\
  (forall i j, (i < 3)%nat -> (j < 3)%nat -> ex_C i j = ex_C j i) /\ (forall j, (1 <= j < 3)%nat -> 0 < ex_C j j) /\
  (forall j, (1 <= j < 3)%nat -> exists i, (i < 5)%nat /\ ex_A i j <> 0) /\
  shaped Empirical_Get nd PureLasso.
Proof.
  destruct ex_dataset as (nd & E & D). exists nd. split; [exact E|]. split; [exact D|]. split; [exact ex_sym|].
  split; [exact ex_diag|]. split.
  - intros j Hj. exists 0%nat. split; [lia|]. destruct j as [|[|[|j]]]; [lia| | |lia]; unfold ex_A, ex_raw; cbn; lra.
  - destruct (ld_C _ _ _ _ _ _ _ D) as (cov & H1 & H2 & H3 & _). constructor.
    + rewrite (ld_cols _ _ _ _ _ _ _ D). lia.
    + rewrite (ld_y _ _ _ _ _ _ _ D), (ld_rows _ _ _ _ _ _ _ D). reflexivity.
    + exists cov. rewrite (ld_cols _ _ _ _ _ _ _ D). auto.
    + exact I.
Qed.

(** The same run in binary64, computed: converged, the first feature is out
    and its gradient is more than ten times lamb. *)
Definition exf_X : Mat (F64 fenv0) := mkMat (N := F64 fenv0) 5 3 (fun i j =>
  nofZ (nth j (nth i [[1; 1; 1]; [1; 1; 1]; [1; -1; 0]; [1; -1; -1]; [1; 0; -1]] [])%Z 0%Z)).
Definition exf_y : list (F64 fenv0) := map (nofZ (n := F64 fenv0)) [1; -1; 1; -1; 0]%Z.

Theorem C33_binary64_refuted :
  match
    (do nd <- NewNormalizedData exf_X exf_y;
     do cov <- Empirical_Get (ndX nd);
     do XTy <- mat_mulvec (mat_T (ndX nd)) (ndy nd);
     do (b, _, _, conv) <- LassoCrdDesc Empirical_Get nd (ndec 1 (-2)) None 1000 (ndec 1 (-6)) PureLasso;
     do cb <- MulSlice cov b;
     Ok (conv && nleb (nabs (nth 1 b n0)) n0 &&
         nltb (nofZ 10 * ndec 1 (-2))%num (nabs (nth 1 XTy n0 / nofZ 5 - nth 1 cb n0)%num)))
  with Ok r => r | _ => false end = true.
Proof. vm_compute. reflexivity. Qed.
Print Assumptions C33_binary64_refuted.

(** ** C34 *)

Lemma In_firstn_repeat : forall A (e a : A) m n, In e (firstn m (repeat a n)) -> e = a.
Proof.
  intros A e a m n H. apply repeat_spec with n.
  rewrite <- (firstn_skipn m (repeat a n)). apply in_or_app. left. exact H.
Qed.

Lemma nth_skipn' : forall A (l : list A) n i d, nth i (skipn n l) d = nth (n + i) l d.
Proof.
  induction l as [|x l IH]; intros [|n] i d; cbn [skipn nth Nat.add]; auto; try (destruct i; reflexivity).
Qed.

(** The start vector has no influence and the caller's slice is overwritten
    with zeros (as far as there are features). *)
Theorem C34_start_vector : forall (N : Num) get (d : NormalizedData N) lamb k tol corr b x' c v,
  LassoCrdDesc get d lamb None k tol corr = Ok (b, x', c, v) ->
  x' = None /\ forall x, exists z,
    LassoCrdDesc get d lamb (Some x) k tol corr = Ok (b, Some z, c, v) /\
    length z = length x /\
    forall i e, nth_error z i = Some e -> e = if (i <? mcols (ndX d))%nat then n0 else nth i x n0.
Proof.
  intros N get d lamb k tol corr b x' c v E. unfold LassoCrdDesc in *.
  destruct (get (ndX d)) as [cov| |]; cbn [bind] in *; [|discriminate E|discriminate E].
  destruct (mat_mulvec _ _) as [XTy| |]; cbn [bind] in *; [|discriminate E|discriminate E].
  destruct (crd_start cov (mcols (ndX d)) corr) as [st0| |] eqn:E0; cbn [bind] in *; [|discriminate E|discriminate E].
  destruct (crd_loop _ cov XTy lamb tol (Z.to_nat k) st0) as [st| |]; cbn [bind] in *; [|discriminate E|discriminate E].
  injection E as <- <- <- <-. split; [reflexivity|]. intro x. eexists. split; [reflexivity|].
  assert (Eo : crOld st0 = repeat n0 (mcols (ndX d))).
  { unfold crd_start in E0. rewrite start_iter in E0. cbn [bind] in E0.
    destruct (MulSlice cov _) as [cdb| |]; cbn [bind] in E0; [|discriminate E0|discriminate E0].
    injection E0 as <-. reflexivity. }
  rewrite Eo. unfold go_copy. split.
  - rewrite app_length, firstn_length, skipn_length, repeat_length. lia.
  - intros i e He. set (n := mcols (ndX d)) in *.
    assert (Hlt : (i < length x)%nat).
    { assert (Hx : nth_error (firstn (length x) (repeat (n0 (N := N)) n) ++ skipn (length (repeat (n0 (N := N)) n)) x) i <> None) by congruence.
      apply nth_error_Some in Hx. rewrite app_length, firstn_length, skipn_length, repeat_length in Hx. lia. }
    destruct (Nat.ltb_spec i n).
    + rewrite nth_error_app1 in He by (rewrite firstn_length, repeat_length; lia).
      apply nth_error_In in He. apply In_firstn_repeat in He. exact He.
    + rewrite nth_error_app2 in He by (rewrite firstn_length, repeat_length; lia).
      rewrite firstn_length, repeat_length in He. rewrite Nat.min_r in He by lia.
      apply nth_error_nth with (d := n0) in He. rewrite <- He. rewrite nth_skipn'. f_equal. lia.
Qed.
Print Assumptions C34_start_vector.

Example C34_example :
  match LassoCrdDesc Empirical_Get (mkND exf_X exf_y [] [] n0 n0 true) (ndec 1 (-2)) (Some (map (nofZ (n := F64 fenv0)) [7; 8; 9; 10]%Z)) 3 (ndec 1 (-6)) PureLasso with
  | Ok (b, Some z, _, _) => nleb (nth 2 b n0) n0 = false /\ z = [n0; n0; n0; nofZ 10]
  | _ => False end.
Proof. vm_compute. split; reflexivity. Qed.

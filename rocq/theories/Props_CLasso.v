(** C91: the covariance lasso correction, as LassoCrdDesc uses it, is the elastic net. *)
From Coq Require Import Permutation Reals Lra.
From Verif Require Import Base Num Mat RSum Stats Model_Node Model_Util Model_Fit Model_Norm Model_Cov Model_Crd
  Proof_Node Proof_Util Proof_XR Proof_Norm Proof_Fit Proof_Cov Proof_Crd Proof_Crd2 Proof_Crd3 Props_Crd Props_CrdExact Proof_Enet Props_Enet Props_Cov Props_CohenLasso Spec_Sign.
Open Scope R_scope.

(** the coefficients are numbers, and they are either all zero or not tiny (sum
    of squares at least 1e-10) *)
Definition not_tiny (b : list XR) : Prop :=
  exists c : list R, b = fins c /\ ((forall i, nth i c 0 = 0) \/ 1 / 10 ^ 10 <= inner c c).

Lemma deriv_enet : forall (b : list R) eta j, (j < length b)%nat ->
  Deriv (ElasticNet (XFin eta : XR)) (fins b) (Z.of_nat j) = Ok (fin (eta * nth j b 0)).
Proof.
  intros b eta j Hj. cbn [Deriv]. rewrite getz_nat, getn_fins by exact Hj. cbn [bind]. change (XFin eta : XR) with (fin eta).
  rewrite xmul_fin. reflexivity.
Qed.

Lemma deriv_same : forall (b : list XR) eta j, not_tiny b -> (j < length b)%nat ->
  Deriv (CLasso b (XFin eta : XR)) b (Z.of_nat j) = Deriv (ElasticNet (XFin eta : XR)) b (Z.of_nat j).
Proof.
  intros b eta j (c & -> & H) Hj. rewrite fins_length in Hj. rewrite deriv_enet by exact Hj. destruct H as [H|H].
  - destruct (C58_classo eta c c j eq_refl Hj) as (_ & C). rewrite H, Rmult_0_r. apply C.
    unfold inner. rewrite rsum_0'; [lra|]. intros i Hi. rewrite H. ring.
  - destruct (C58_update eta c c j eq_refl Hj H) as (U & D). rewrite U in D. exact D.
Qed.

Lemma Ok_fin : forall (a b : list XR), Ok a = Ok b -> a = b.
Proof. intros a b H. injection H as H. exact H. Qed.

Lemma for_each_ext : forall A S (l : list A) (f g : A -> S -> res S), (forall a s, f a s = g a s) ->
  forall s, for_each l f s = for_each l g s.
Proof.
  intros A S l f g H. induction l as [|a l IH]; intro s; [reflexivity|]. cbn [for_each]. rewrite H.
  destruct (g a s); cbn [bind]; auto.
Qed.

Lemma coord_same : forall nr cov (XTy old : list XR) lamb c1 c2 n, length old = n ->
  (forall j, (j < n)%nat -> Deriv c1 old (Z.of_nat j) = Deriv c2 old (Z.of_nat j)) ->
  forall j st, crd_coord nr cov XTy old lamb c1 j st = crd_coord nr cov XTy old lamb c2 j st.
Proof.
  intros nr cov XTy old lamb c1 c2 n Hn H j [cdb beta]. unfold crd_coord.
  destruct (mat_at cov j j); cbn [bind]; try reflexivity.
  destruct (getn old j) as [o| |] eqn:Eo; cbn [bind]; try reflexivity.
  assert (Hj : (j < n)%nat).
  { subst n. unfold getn in Eo. destruct (nth_error old j) eqn:E; [|discriminate Eo]. apply nth_error_Some. rewrite E. discriminate. }
  rewrite (H j Hj). reflexivity.
Qed.

Lemma coords_length : forall nr cov (XTy old : list XR) lamb corr l st cdb beta,
  for_each l (crd_coord nr cov XTy old lamb corr) st = Ok (cdb, beta) -> length beta = length (snd st).
Proof.
  intros nr cov XTy old lamb corr. induction l as [|j l IH]; intros st cdb beta E; cbn [for_each] in E.
  - injection E as ->. reflexivity.
  - destruct (crd_coord nr cov XTy old lamb corr j st) as [[c1 b1]| |] eqn:Es; cbn [bind] in E; try discriminate E.
    rewrite (IH _ _ _ E). destruct st as [c0 b0]. exact (coord_length _ _ _ _ _ _ _ _ _ _ _ _ Es).
Qed.

Lemma for_loop_ext : forall S (f g : nat -> S -> res S), (forall i s, f i s = g i s) ->
  forall n i s, for_loop i n f s = for_loop i n g s.
Proof.
  intros S f g H. induction n as [|n IH]; intros i s; [reflexivity|]. cbn [for_loop]. rewrite H.
  destruct (g i s); cbn [bind]; auto.
Qed.

Lemma kkt_same : forall (Xy cdb b : list XR) lamb eta, not_tiny b ->
  UnsatisfiedKKTConditions Xy cdb b lamb (CLasso b (XFin eta : XR)) = UnsatisfiedKKTConditions Xy cdb b lamb (ElasticNet (XFin eta : XR)).
Proof.
  intros Xy cdb b lamb eta Hb. unfold UnsatisfiedKKTConditions. cbv zeta. apply for_loop_ext. intros i u.
  destruct (getn Xy i); cbn [bind]; try reflexivity. destruct (getn cdb i); cbn [bind]; try reflexivity.
  destruct (Nat.lt_ge_cases i (length b)) as [Hi|Hi].
  - rewrite (deriv_same b eta i Hb Hi). reflexivity.
  - assert (Eg : getn b i = Panic) by (unfold getn; rewrite (proj2 (nth_error_None _ _)) by exact Hi; reflexivity).
    assert (Ez : getz b (Z.of_nat i) = Panic) by (rewrite getz_nat; exact Eg).
    rewrite Eg. cbn [Deriv]. rewrite Ez. cbn [bind].
    destruct Hb as (c & -> & _). rewrite classo_loop by reflexivity. cbn [bind].
    destruct (nltb (nabs _) _); cbn [bind]; reflexivity.
Qed.

(** the run with the covariance lasso next to the run with the elastic net *)
Definition as_classo (eta : R) (s : Crd XR) (c : list XR) : Crd XR :=
  mkCrd (crBeta s) (crOld s) (crCdb s) (crIter s) (crConv s) (CLasso c (XFin eta : XR)) (crStop s).
Definition paired (eta : R) (n : nat) (s : Crd XR) (c : list XR) : Prop :=
  crCorr s = ElasticNet (XFin eta : XR) /\ length (crBeta s) = n /\ length (crOld s) = n /\ length c = n /\
  forall j, (j < n)%nat -> Deriv (CLasso c (XFin eta : XR)) (crOld s) (Z.of_nat j) = Deriv (ElasticNet (XFin eta : XR)) (crOld s) (Z.of_nat j).

Lemma copy_all : forall A (l l' : list A), length l = length l' -> go_copy l l' = l'.
Proof. intros A l l' H. unfold go_copy. rewrite firstn_all2, skipn_all2, app_nil_r by lia. reflexivity. Qed.

Lemma iter_same : forall nr cov XTy lamb tol eta n s c s1, paired eta n s c ->
  crd_iter nr cov XTy lamb tol s = Ok s1 -> not_tiny (crBeta s1) ->
  crd_iter nr cov XTy lamb tol (as_classo eta s c) = Ok (as_classo eta s1 (crBeta s1)) /\ paired eta n s1 (crBeta s1).
Proof.
  intros nr cov XTy lamb tol eta n s c s1 (P1 & P2 & P3 & P4 & P5) E Hb. unfold crd_iter in *. cbn [as_classo crIter crOld crCorr crCdb crBeta].
  rewrite P1 in E. rewrite (for_each_ext _ _ (crIter s) _ _ (coord_same nr cov XTy (crOld s) lamb _ _ n P3 P5)).
  destruct (for_each (crIter s) _ (crCdb s, crBeta s)) as [[cdb beta]| |] eqn:Ef; cbn [bind] in *; try discriminate E.
  assert (Lb : length beta = n) by (rewrite (coords_length _ _ _ _ _ _ _ _ _ _ Ef); exact P2).
  destruct (crd_change beta (crOld s) (crIter s)) as [[mc mx]| |]; cbn [bind] in *; try discriminate E.
  destruct (crd_compact beta (crIter s)) as [it| |]; cbn [bind] in *; try discriminate E.
  cbn [Update] in *. rewrite (copy_all _ c beta) by lia. rewrite (copy_all _ (crOld s) beta) in * by lia.
  assert (Q : crBeta s1 = beta /\ crOld s1 = beta /\ crCorr s1 = ElasticNet (XFin eta : XR)).
  { destruct (nltb _ tol); [|injection E as <-; auto]. destruct (UnsatisfiedKKTConditions _ _ _ _ _) as [u| |]; cbn [bind] in E; try discriminate E.
    destruct (length u =? 0)%nat; injection E as <-; auto. }
  destruct Q as (Q1 & Q2 & Q3). rewrite Q1 in *. split.
  - rewrite (kkt_same _ _ _ _ _ Hb). destruct (nltb _ tol).
    + destruct (UnsatisfiedKKTConditions _ _ _ _ _) as [u| |]; cbn [bind] in *; try discriminate E.
      destruct (length u =? 0)%nat; injection E as <-; reflexivity.
    + injection E as <-. reflexivity.
  - repeat split; auto; rewrite ?Q1, ?Q2; auto. intros j Hj. apply deriv_same; [exact Hb|lia].
Qed.

Lemma loop_same : forall nr cov XTy lamb tol eta n m s c s1, paired eta n s c ->
  (forall k sk, (0 < k <= m)%nat -> crd_loop nr cov XTy lamb tol k s = Ok sk -> not_tiny (crBeta sk)) ->
  (0 < m)%nat -> crd_loop nr cov XTy lamb tol m s = Ok s1 ->
  crd_loop nr cov XTy lamb tol m (as_classo eta s c) = Ok (as_classo eta s1 (crBeta s1)).
Proof.
  intros nr cov XTy lamb tol eta n. induction m as [|m IH]; intros s c s1 HP HG Hm E; [lia|].
  cbn [crd_loop] in *. destruct (crd_iter nr cov XTy lamb tol s) as [s2| |] eqn:Ei; cbn [bind] in E; try discriminate E.
  assert (H2 : not_tiny (crBeta s2)).
  { apply (HG 1%nat); [lia|]. cbn [crd_loop]. rewrite ?Ei. cbn [bind]. destruct (crStop s2); reflexivity. }
  destruct (iter_same _ _ _ _ _ _ _ _ _ _ HP Ei H2) as (E2 & P2). rewrite E2. cbn [bind].
  replace (crStop (as_classo eta s2 (crBeta s2))) with (crStop s2) by reflexivity.
  destruct (crStop s2) eqn:Es.
  - injection E as <-. reflexivity.
  - destruct m as [|m].
    + cbn [crd_loop] in *. injection E as <-. reflexivity.
    + apply IH; auto; [|lia]. intros k sk Hk Ek. apply (HG (S k)); [lia|]. cbn [crd_loop]. rewrite Ei. cbn [bind]. rewrite Es. exact Ek.
Qed.

(** C91: in exact arithmetic, if the run of LassoCrdDesc with
    ElasticNet{Lamb: eta} returns and its coefficients after every number of
    passes are numbers that are not tiny, then the run with a CLasso correction
    of strength eta - new, or with any coefficients remembered from earlier -
    returns the same coefficients, the same convergence report and the same
    buffer; the correction object then remembers the coefficients returned. *)
Theorem C91_elastic_net : forall get (d : NormalizedData XR) lamb x0 maxIter tol eta corr b x v c,
  (corr = NewCLasso (mcols (ndX d)) (XFin eta : XR) \/
   exists l, length l = mcols (ndX d) /\ corr = CLasso (fins l) (XFin eta : XR)) ->
  (0 < maxIter)%Z ->
  LassoCrdDesc get d lamb x0 maxIter tol (ElasticNet (XFin eta : XR)) = Ok (b, x, c, v) ->
  (forall k bk xk vk ck, (0 < k <= maxIter)%Z ->
    LassoCrdDesc get d lamb x0 k tol (ElasticNet (XFin eta : XR)) = Ok (bk, xk, ck, vk) -> not_tiny bk) ->
  LassoCrdDesc get d lamb x0 maxIter tol corr = Ok (b, x, CLasso b (XFin eta : XR), v).
Proof.
  intros get d lamb x0 maxIter tol eta corr b x v c Hc Hm E HG.
  assert (Hl : exists l, length l = mcols (ndX d) /\ corr = CLasso (fins l) (XFin eta : XR)).
  { destruct Hc as [->|H]; [|exact H]. exists (repeat 0 (mcols (ndX d))). split; [apply repeat_length|]. unfold NewCLasso. f_equal.
    unfold fins. generalize (mcols (ndX d)) as m. clear. induction m as [|m IH]; [reflexivity|]. cbn [repeat map]. rewrite <- IH. reflexivity. }
  clear Hc. destruct Hl as (l & Hl & ->). unfold LassoCrdDesc in *. set (n := mcols (ndX d)) in *.
  destruct (get (ndX d)) as [cov| |]; cbn [bind] in *; try discriminate E.
  destruct (mat_mulvec _ _) as [XTy| |]; cbn [bind] in *; try discriminate E.
  unfold crd_start in *. rewrite start_iter in *. cbn [bind] in *. destruct (MulSlice _ _) as [cdb| |]; cbn [bind] in *; try discriminate E.
  set (s := mkCrd (repeat n0 n) (repeat n0 n) cdb (seq 1 (n - 1)) false (ElasticNet (XFin eta : XR)) false) in *.
  change (mkCrd (repeat n0 n) (repeat n0 n) cdb (seq 1 (n - 1)) false (CLasso (fins l) (XFin eta : XR)) false) with (as_classo eta s (fins l)).
  destruct (crd_loop _ _ _ _ _ _ s) as [s1| |] eqn:El; cbn [bind] in E; try discriminate E.
  rewrite (loop_same _ _ _ _ _ _ n _ _ _ s1); auto.
  - cbn [bind as_classo crBeta crCorr crConv crOld s] in *. congruence.
  - split; [reflexivity|]. cbn [s crBeta crOld]. rewrite !repeat_length, fins_length. repeat split; auto.
    intros j Hj. rewrite <- Hl at 1. rewrite deriv_zero by lia.
    replace (repeat (n0 : XR) n) with (fins (repeat 0 n)).
    + rewrite deriv_enet by (rewrite repeat_length; exact Hj). rewrite nth_repeat, Rmult_0_r. reflexivity.
    + unfold fins. clear. induction n as [|m IH]; [reflexivity|]. cbn [repeat map]. rewrite IH. reflexivity.
  - intros k sk Hk Ek. apply (HG (Z.of_nat k) (crBeta sk) (match x0 with Some x => Some (go_copy x (crOld s)) | None => None end) (crConv sk) (crCorr sk)).
    + lia.
    + rewrite Nat2Z.id, Ek. reflexivity.
  - lia.
Qed.
Print Assumptions C91_elastic_net.

(** A new correction adds nothing before its first Update, whatever the
    coefficients (in the code's arithmetic, too). *)
Theorem C91_new : forall (N : Num) n (eta : N) (beta : list N) j, arithmetic N -> (n <= length beta)%nat ->
  Deriv (NewCLasso n eta) beta j = Ok n0.
Proof.
  intros N n eta beta j HN Hn. unfold NewCLasso. cbn [Deriv].
  assert (H0 : (n0 + n0 * n0 = n0 :> N)%num /\ nltb (nabs (n0 : N)) (ndec 1 (-10)) = true).
  { destruct HN as [o|].
    - split; reflexivity.
    - split; [rewrite n0_fin, xmul_fin, xadd_fin; apply (f_equal fin); ring|].
      rewrite n0_fin, xabs_fin, Rabs_R0, tol10_dec. change (Rltb 0 tol10 = true). apply Rltb_true. exact tol10_pos. }
  destruct H0 as (H0 & H1).
  assert (G : forall m, (m <= n)%nat -> exists i, for_loop 0 m (fun i (st : N * N) =>
        let '(normSq, inner) := st in
        do c <- getn (repeat n0 n) i;
        do b <- getn beta i;
        Ok ((normSq + c * c)%num, (inner + c * b)%num)) (n0, n0) = Ok (n0, i)).
  { induction m as [|m IH]; intro Hm; [exists n0; reflexivity|]. destruct (IH ltac:(lia)) as (i & Ei).
    replace (S m) with (m + 1)%nat by lia. rewrite for_loop_add, Ei. cbn [bind for_loop]. rewrite Nat.add_0_l.
    unfold getn at 1. rewrite nth_error_repeat by lia. cbn [bind]. unfold getn.
    destruct (nth_error beta m) eqn:Eb; [|apply nth_error_None in Eb; lia]. cbn [bind]. rewrite H0. eauto. }
  rewrite repeat_length. destruct (G n (le_n _)) as (i & ->). cbn [bind]. rewrite H1. reflexivity.
Qed.
Print Assumptions C91_new.

(** *** a case: the data of C82, strength 2/5; half the distance is left after every pass *)
Lemma eo_run : forall k, (0 < k)%Z -> exists b p v x c,
  LassoCrdDesc Empirical_Get eo_nd (XFin (1 / 10)) None k (XFin (1 / 1000)) (ElasticNet (XFin (2 / 5) : XR)) = Ok (fins b, x, c, v) /\
  not_tiny (fins b) /\ (p = Z.to_nat k \/ v = true) /\ Rabs (nth 1 b 0 - 13 / 36) = 13 / 36 * (1 / 2) ^ p.
Proof.
  intros k Hk. destruct eo_values as (E1 & E2 & E3 & E4 & E5 & E6). pose proof e16_small as Es.
  destruct (C82_uncorrelated Empirical_Get eo_nd 5 3 eo_A eo_y eo_C (1 / 10) (2 / 5) (1 / 1000) None (Z.to_nat k) eo_data eo_sym eo_unc)
    as (best & b & conv & p & B1 & B2 & B3 & B4 & B5 & B6 & B7 & B8 & B9 & B10); try lra.
  { intros j Hj. destruct j as [|[|[|j]]]; [lia| | |lia]; [rewrite E1|rewrite E2]; lra. }
  { intros j Hj. right. destruct j as [|[|[|j]]]; [lia| | |lia]; [rewrite E1, E5|rewrite E2, E6]; rewrite Rabs_right by lra; lra. }
  rewrite Z2Nat.id in B3, B4 by lia.
  destruct (LassoCrdDesc _ _ _ _ _ _ _) as [[[[bk xk] ck] vk]| |] eqn:E; cbn [coefficients converged] in B3, B4; try discriminate B3.
  assert (Q : bk = fins b /\ vk = conv) by (split; [exact (Ok_fin _ _ B3)|injection B4; auto]). destruct Q as (-> & ->).
  assert (N1 : nth 1 best 0 = 13 / 36).
  { rewrite B2 by lia. rewrite E1, E5. unfold shrunk. rewrite Rabs_right by lra. destruct (Rle_dec _ _); [lra|]. destruct (Rlt_dec _ _); lra. }
  assert (N2 : nth 2 best 0 = 5 / 36).
  { rewrite B2 by lia. rewrite E2, E6. unfold shrunk. rewrite Rabs_right by lra. destruct (Rle_dec _ _); [lra|]. destruct (Rlt_dec _ _); lra. }
  pose proof (B9 1%nat ltac:(lia)) as D1. pose proof (B9 2%nat ltac:(lia)) as D2. rewrite N1, E1, (Rabs_right (13 / 36)) in D1 by lra.
  rewrite N2, E2, (Rabs_right (5 / 36)) in D2 by lra. replace (2 / 5 / (4 / 5)) with (1 / 2) in D1, D2 by field.
  exists b, p, conv, xk, ck. split; [reflexivity|]. split; [|split; [exact B8|exact D1]].
  assert (Hp : (0 < p)%nat).
  { destruct p as [|p]; [|lia]. destruct B8 as [B8|B8]; [lia|]. destruct (B10 B8) as (i & Hi & Hc). specialize (Hc 1%nat ltac:(lia)).
    cbn [pow] in D1, D2. rewrite N1, D1 in Hc.
    assert (Rabs (nth i b 0) <= 1).
    { destruct i as [|[|[|i]]]; [lia| | |lia].
      - revert D1. unfold Rabs. destruct (Rcase_abs _), (Rcase_abs _); lra.
      - revert D2. unfold Rabs. destruct (Rcase_abs _), (Rcase_abs _); lra. }
    lra. }
  assert (Hq : 0 <= (1 / 2) ^ p <= 1 / 2).
  { destruct p as [|p]; [lia|]. cbn [pow]. assert (0 < (1 / 2) ^ p <= 1) by (split; [apply pow_lt; lra|apply Rle_trans with (1 ^ p); [apply pow_incr; lra|rewrite pow1; lra]]). lra. }
  exists b. split; [reflexivity|]. right. unfold inner. rewrite B5. cbn [rsum].
  assert (13 / 72 <= nth 1 b 0) by (revert D1; unfold Rabs; destruct (Rcase_abs _); lra).
  pose proof (Rle_0_sqr (nth 0 b 0)) as S0. pose proof (Rle_0_sqr (nth 2 b 0)) as S2. unfold Rsqr in S0, S2.
  assert (13 / 72 * (13 / 72) <= nth 1 b 0 * nth 1 b 0) by (apply Rmult_le_compat; lra).
  assert (1 / 10 ^ 10 <= 13 / 72 * (13 / 72)) by (cbn [pow]; lra). lra.
Qed.

Example C91_example : forall k, (0 < k)%Z -> exists b passes x v,
  LassoCrdDesc Empirical_Get eo_nd (XFin (1 / 10)) None k (XFin (1 / 1000)) (NewCLasso 3 (XFin (2 / 5) : XR)) =
    Ok (fins b, x, CLasso (fins b) (XFin (2 / 5) : XR), v) /\
  (passes = Z.to_nat k \/ v = true) /\ Rabs (nth 1 b 0 - 13 / 36) = 13 / 36 * (1 / 2) ^ passes.
Proof.
  intros k Hk. destruct (eo_run k Hk) as (b & p & v & x & c & R1 & _ & R3 & R4). exists b, p, x, v. split; [|auto].
  apply (C91_elastic_net Empirical_Get eo_nd (XFin (1 / 10)) None k (XFin (1 / 1000)) (2 / 5) _ (fins b) x v c); auto.
  intros k' bk xk vk ck Hk' E. destruct (eo_run k' ltac:(lia)) as (b' & p' & v' & x' & c' & R1' & R2' & _).
  rewrite R1' in E. replace bk with (fins b') by congruence. exact R2'.
Qed.

(** So the correction can make the passes diverge, like the elastic net: no
    bound holds for the coefficients returned, whatever the tolerance. *)
Theorem C91_bounded_refuted : exists (d : NormalizedData XR) eta, 0 < eta /\
  forall bound tol, tol <= 1 -> exists k b x c v,
    LassoCrdDesc Empirical_Get d (XFin 0) None k (XFin tol) (NewCLasso (mcols (ndX d)) (XFin eta : XR)) = Ok (fins b, x, c, v) /\
    v = false /\ bound < Rabs (nth 1 b 0).
Proof.
  destruct eo_values as (E1 & E2 & E3 & E4 & E5 & E6). pose proof e16_small as Es.
  exists eo_nd, 1. split; [lra|]. intros bound tol Ht.
  destruct (C82_diverges Empirical_Get eo_nd 5 3 eo_A eo_y eo_C 1 tol None eo_data eo_sym eo_unc) as (beta & B).
  { intros j Hj. destruct j as [|[|[|j]]]; [lia| | |lia]; lra. }
  { exact Ht. }
  { intros j Hj. right. destruct j as [|[|[|j]]]; [lia| | |lia]; rewrite ?E1, ?E2, ?E5, ?E6, Rabs_right by lra; lra. }
  assert (R : forall k, (0 < k)%Z -> exists x c, LassoCrdDesc Empirical_Get eo_nd (XFin 0) None k (XFin tol) (ElasticNet (XFin 1 : XR)) =
    Ok (fins (beta (Z.to_nat k)), x, c, false)).
  { intros k Hk. destruct (B (Z.to_nat k)) as (C1 & C2 & _). rewrite Z2Nat.id in C1, C2 by lia.
    destruct (LassoCrdDesc _ _ _ _ _ _ _) as [[[[bk xk] ck] vk]| |]; cbn [coefficients converged] in C1, C2; try discriminate C1.
    exists xk, ck. rewrite (Ok_fin bk (fins (beta (Z.to_nat k))) C1). injection C2 as ->. reflexivity. }
  assert (NT : forall k, (0 < k)%nat -> not_tiny (fins (beta k))).
  { intros k Hk. destruct (B k) as (_ & _ & C3 & C4 & C5). exists (beta k). split; [reflexivity|]. right. unfold inner. rewrite C3. cbn [rsum].
    pose proof (C5 1%nat ltac:(lia)) as C1. rewrite E1, E5 in C1. replace (1 / (4 / 5)) with (5 / 4) in C1 by field.
    pose proof (Rle_0_sqr (nth 0 (beta k) 0)) as S0. pose proof (Rle_0_sqr (nth 2 (beta k) 0)) as S2. unfold Rsqr in S0, S2.
    assert (Hb : 1 / 100 <= Rabs (nth 1 (beta k) 0)).
    { rewrite C1, Rabs_mult, (Rabs_right (8 / 15 / (4 / 5 + 1))) by lra.
      assert (P : 5 / 4 <= (5 / 4) ^ k).
      { destruct k as [|k]; [lia|]. cbn [pow]. assert (1 <= (5 / 4) ^ k) by (apply pow_R1_Rle; lra). lra. }
      assert (1 / 4 <= Rabs (1 - (- (5 / 4)) ^ k)).
      { destruct (pow_neg_even (5 / 4) k) as [->| ->]; unfold Rabs; destruct (Rcase_abs _); lra. }
      lra. }
    assert (1 / 100 * (1 / 100) <= nth 1 (beta k) 0 * nth 1 (beta k) 0).
    { apply Rle_trans with (Rabs (nth 1 (beta k) 0) * Rabs (nth 1 (beta k) 0)); [apply Rmult_le_compat; lra|].
      rewrite <- Rabs_mult, Rabs_right by (apply Rle_ge, Rle_0_sqr). lra. }
    assert (1 / 10 ^ 10 <= 1 / 100 * (1 / 100)) by (cbn [pow]; lra). lra. }
  destruct (Pow_x_infinity (- (5 / 4)) ltac:(rewrite Rabs_Ropp, Rabs_right; lra) (1 + (Rabs bound + 1) * 4)) as (k & Hk).
  specialize (Hk (S k) (Nat.le_succ_diag_r k)). destruct (B (S k)) as (_ & _ & _ & _ & C2).
  destruct (R (Z.of_nat (S k)) ltac:(lia)) as (x & c & Er). rewrite Nat2Z.id in Er.
  exists (Z.of_nat (S k)), (beta (S k)), x, (CLasso (fins (beta (S k))) (XFin 1 : XR)), false. split; [|split; [reflexivity|]].
  - apply (C91_elastic_net Empirical_Get eo_nd (XFin 0) None (Z.of_nat (S k)) (XFin tol) 1 _ _ x false c); auto; [lia|].
    intros k' bk xk vk ck Hk' E. destruct (R k' ltac:(lia)) as (x' & c' & R'). rewrite R' in E.
    replace bk with (fins (beta (Z.to_nat k'))) by congruence. apply NT. lia.
  - rewrite C2, E1, E5 by lia. replace (1 / (4 / 5)) with (5 / 4) by field. rewrite Rabs_mult, (Rabs_right (8 / 15 / (4 / 5 + 1))) by lra.
    set (p := (- (5 / 4)) ^ S k) in *. pose proof (Rle_abs bound). pose proof (Rabs_pos bound).
    assert (Rabs p - 1 <= Rabs (1 - p)).
    { pose proof (Rabs_triang 1 (- (1 - p))) as T. rewrite Rabs_Ropp, Rabs_R1 in T. replace (1 + - (1 - p)) with p in T by ring. lra. }
    lra.
Qed.
Print Assumptions C91_bounded_refuted.

(** "A CLasso correction gives what the elastic net gives" fails for
    coefficients below 1e-5, because the correction is then dropped; here in the
    code's arithmetic, without rounding. One feature (values 1 and -1), target
    (t, -t) with t = 2^-20, no L1 penalty, strength 1/2, two passes: the
    coefficient is t with the correction, t/2 with the elastic net. *)
Definition tiny_t : F64 fenv0 := (n1 / nofZ 1048576)%num.
Definition tiny_nd : NormalizedData (F64 fenv0) :=
  mkND (mkMat 2 2 (fun i j => match j with O => n0 | _ => match i with O => n1 | _ => nneg n1 end end))
    [tiny_t; nneg tiny_t] [] [] n0 n1 true.
Definition tiny_run (c : Correction (F64 fenv0)) : res (list (F64 fenv0)) :=
  do (b, _, _, _) <- LassoCrdDesc Empirical_Get tiny_nd n0 None 2 (ndec 1 (-3)) c; Ok b.
Theorem C91_tiny_refuted : exists eta : F64 fenv0,
  tiny_run (NewCLasso 2 eta) = Ok [n0; tiny_t] /\ tiny_run (ElasticNet eta) = Ok [n0; (tiny_t / nofZ 2)%num].
Proof. exists (n1 / nofZ 2)%num. split; vm_compute; reflexivity. Qed.
Print Assumptions C91_tiny_refuted.

(** Runs of coordinate descent in exact arithmetic. *)
From Coq Require Import Reals Lra Psatz.
From Verif Require Import Base Num Mat Model_Node Model_Util Model_Fit Model_Norm Model_Cov Model_Crd
  Proof_Node Proof_Util RSum Proof_XR Proof_Norm Proof_Fit Proof_Crd Proof_Crd2.
Local Open Scope R_scope.

Lemma mulslice_xr : forall (X : Mat XR) A b, rmat X A ->
  MulSlice X (vec (mcols X) b) = Ok (vec (mrows X) (mv (mcols X) A b)).
Proof.
  intros X A b HA. unfold MulSlice. rewrite vec_length, Nat.eqb_refl. cbn [negb].
  match goal with |- for_loop 0 ?k ?f ?s = _ =>
    destruct (for_loop_inv _ (fun p (l : list XR) => length l = mrows X /\
      forall i, (i < mrows X)%nat -> nth i l n0 = if (i <? p)%nat then fin (mv (mcols X) A b i) else n0) f k 0%nat s)
      as (l & E & H1 & H2) end.
  - split; [apply repeat_length|]. intros i Hi. cbn [Nat.ltb Nat.leb]. apply nth_repeat.
  - intros p l Hp (H1 & H2).
    match goal with |- context [for_loop 0 ?k ?f ?s] =>
      destruct (for_loop_inv _ (fun m (l' : list XR) => length l' = mrows X /\
        forall i, (i < mrows X)%nat -> nth i l' n0 = if (i =? p)%nat then fin (rsum m (fun j => A p j * b j)) else nth i l n0)
        f k 0%nat s) as (l' & E & H1' & H2') end.
    + split; [exact H1|]. intros i Hi. destruct (Nat.eqb_spec i p) as [->|]; [|reflexivity].
      rewrite H2 by lia. rewrite Nat.ltb_irrefl. reflexivity.
    + intros m l' Hm (A1 & A2). rewrite (getn_lt _ l' p n0) by lia. cbn [bind].
      rewrite mat_at_in by lia. cbn [bind].
      rewrite (getn_lt _ (vec (mcols X) b) m n0) by (rewrite vec_length; lia). cbn [bind].
      rewrite setn_lt by lia. eexists. split; [reflexivity|]. split; [rewrite upd_length; exact A1|].
      intros i Hi. rewrite nth_upd. rewrite A2 by lia. rewrite Nat.eqb_refl. rewrite vec_nth by lia.
      rewrite (HA p m) by lia. rewrite xmul_fin, xadd_fin.
      destruct (Nat.eqb_spec i p).
      * replace (p <? length l')%nat with true by (symmetry; apply Nat.ltb_lt; lia). cbn [rsum]. reflexivity.
      * rewrite A2 by lia. destruct (Nat.eqb_spec i p); [contradiction|reflexivity].
    + exists l'. split; [exact E|]. split; [exact H1'|]. intros i Hi. rewrite H2' by exact Hi.
      destruct (Nat.eqb_spec i p) as [->|Hne].
      * replace (p <? S p)%nat with true by (symmetry; apply Nat.ltb_lt; lia). unfold mv. rewrite Nat.add_0_l. reflexivity.
      * rewrite H2 by exact Hi. destruct (Nat.ltb_spec i p), (Nat.ltb_spec i (S p)); try lia; reflexivity.
  - rewrite E. f_equal. apply vec_eq; [exact H1|]. intros i Hi. rewrite H2 by exact Hi.
    replace (i <? 0 + mrows X)%nat with true by (symmetry; apply Nat.ltb_lt; lia). reflexivity.
Qed.

Lemma updatecdb_xr : forall (X : Mat XR) A b j u, rmat X A -> (j < mcols X)%nat ->
  UpdateCovDotBeta X (vec (mrows X) (mv (mcols X) A b)) j (fin (b j) : XR) (fin u : XR)
  = Ok (vec (mrows X) (mv (mcols X) A (setf b j u))).
Proof.
  intros X A b j u HA Hj.
  destruct (update_cdb_ok XR X (vec (mrows X) (mv (mcols X) A b)) j (fin (b j) : XR) (fin u : XR)) as (l & E & H1 & H2).
  - exact Hj.
  - apply vec_length.
  - rewrite E. f_equal. rewrite vec_length in *. apply vec_eq; [exact H1|]. intros i Hi. rewrite H2 by exact Hi.
    rewrite vec_nth by exact Hi. rewrite (HA i j) by lia. rewrite xsub_fin, xmul_fin, xadd_fin.
    rewrite mv_setf by exact Hj. reflexivity.
Qed.

Lemma rsum_support : forall n l f, NoDup l -> (forall j, In j l -> (j < n)%nat) ->
  (forall j, (j < n)%nat -> ~ In j l -> f j = 0) -> rsum n f = lsum (map f l).
Proof.
  intros n. induction l as [|k l IH]; intros f Hnd Hin Hz.
  - cbn [map]. rewrite lsum_nil. apply rsum_0'. intros i Hi. apply Hz; [exact Hi|intros []].
  - inversion Hnd as [|? ? Hni Hnd']; subst. cbn [map]. rewrite lsum_cons.
    assert (E : rsum n (setf f k 0) = rsum n f + (0 - f k))
      by exact (rsum_setf n (fun _ x => x) f k 0 (Hin k (or_introl eq_refl))).
    rewrite (map_ext_in f (setf f k 0)).
    + rewrite <- IH; [lra|exact Hnd'|intros j Hj; apply Hin; right; exact Hj|].
      intros j Hj Hnj. unfold setf. destruct (Nat.eqb_spec j k); [reflexivity|]. apply Hz; [exact Hj|].
      intros [C|C]; [congruence|contradiction].
    + intros j Hj. unfold setf. destruct (Nat.eqb_spec j k); [subst; contradiction|reflexivity].
Qed.

Lemma neg_dec : forall n (e : nat -> R), (exists j, (j < n)%nat /\ e j < 0) \/ (forall j, (j < n)%nat -> 0 <= e j).
Proof.
  induction n as [|n IH]; intro e; [right; intros; lia|].
  destruct (IH e) as [(j & Hj & H)|H]; [left; exists j; split; [lia|exact H]|].
  destruct (Rlt_le_dec (e n) 0) as [Hn|Hn]; [left; exists n; split; [lia|exact Hn]|].
  right. intros j Hj. destruct (Nat.eq_dec j n) as [->|]; [exact Hn|]. apply H. lia.
Qed.

Section Run.
  Variable n : nat.
  Variable C : nat -> nat -> R.
  Variable q : nat -> R.
  Variables lamb tol : R.
  Hypothesis Hn : (0 < n)%nat.
  Hypothesis Hsym : forall i j, (i < n)%nat -> (j < n)%nat -> C i j = C j i.
  Hypothesis Hdiag : forall j, (1 <= j < n)%nat -> 0 < C j j.
  Hypothesis Hl : 0 <= lamb.
  Variable nr : nat.
  Variable cov : Mat XR.
  Hypothesis Hnr : (0 < nr)%nat.
  Hypothesis Hrows : mrows cov = n.
  Hypothesis Hcols : mcols cov = n.
  Hypothesis Hcov : rmat cov C.

  Notation XTy := (vec n (fun j => INR nr * q j)).

  Record RInv (st : Crd XR) (b : nat -> R) : Prop := mkRInv {
    ri_g : GInv XR n st;
    ri_beta : crBeta st = vec n b;
    ri_cdb : crCdb st = vec n (mv n C b);
    ri_corr : crCorr st = PureLasso;
    ri_zero : b 0%nat = 0;
    ri_out : forall j, (n <= j)%nat -> b j = 0
  }.

  Lemma shapes_xr : shapes XR n cov XTy.
  Proof. repeat split; auto. apply vec_length. Qed.

  (** what one pass does *)
  Definition step (b b' : nat -> R) : Prop :=
    obj n C q lamb b' + rsum n (fun j => C j j * Rsqr (b' j - b j)) / 2 <= obj n C q lamb b.

  Lemma iter_xr : forall st b, RInv st b ->
    exists st' b', crd_iter nr cov XTy (fin lamb : XR) (fin tol : XR) st = Ok st' /\ RInv st' b' /\ step b b' /\
      (crConv st' = true -> exists i, (1 <= i < n)%nat /\ b' i <> 0 /\
         forall j, In j (crIter st) -> kkt n C q lamb (tol * Rabs (b' i) * rsum n (fun i => Rabs (C j i))) b' j).
  Proof.
    intros st b RI. pose proof (ri_g _ _ RI) as G.
    destruct (iter_ok XR n nr cov XTy (fin lamb : XR) (fin tol : XR) st shapes_xr G)
      as (st' & mc & mx & E & G' & Es & Ei & Ef & Ec & Ech & Ecv & _).
    rewrite (ri_corr _ _ RI), (ri_beta _ _ RI), (ri_cdb _ _ RI) in Es.
    destruct (sweep_xr n C q lamb Hsym Hl nr cov Hnr Hrows Hcols Hcov (crIter st) b (vec n b))
      as (b' & Es' & F & D & K).
    { exact (gi_nodup _ _ _ G). }
    { intros j Hj. apply (gi_iter _ _ _ G) in Hj. split; [lia|apply Hdiag; lia]. }
    { apply vec_length. }
    { intros j Hj. apply (gi_iter _ _ _ G) in Hj. apply vec_nth. lia. }
    assert (Ecd : crCdb st' = vec n (mv n C b') /\ crBeta st' = vec n b').
    { pose proof (eq_trans (eq_sym Es) Es') as Eq. injection Eq as E1 E2. split; assumption. }
    destruct Ecd as [Ecd Eb].
    exists st', b'. split; [exact E|]. split; [|split].
    - constructor; auto.
      + rewrite Ec, (ri_corr _ _ RI). reflexivity.
      + rewrite F by (intro Hin; apply (gi_iter _ _ _ G) in Hin; lia). apply (ri_zero _ _ RI).
      + intros j Hj. rewrite F by (intro Hin; apply (gi_iter _ _ _ G) in Hin; lia). apply (ri_out _ _ RI). exact Hj.
    - unfold step. unfold moved in D.
      rewrite (rsum_support n (crIter st) (fun j => C j j * Rsqr (b' j - b j))).
      + replace (lsum (map (fun j => C j j * Rsqr (b' j - b j) / 2) (crIter st))) with
          (lsum (map (fun j => C j j * Rsqr (b' j - b j)) (crIter st)) / 2) in D; [exact D|].
        unfold Rdiv. rewrite Rmult_comm, <- lsum_map_scal, map_map. f_equal. apply map_ext. intro. field.
      + exact (gi_nodup _ _ _ G).
      + intros j Hj. apply (gi_iter _ _ _ G) in Hj. lia.
      + intros j _ Hj. rewrite F by exact Hj. rewrite Rminus_eq_0. unfold Rsqr. ring.
    - intro Hcv. rewrite Eb, (ri_beta _ _ RI) in Ech.
      destruct (change_xr n (crIter st) b b') as (m & M & Ech' & Hm & HM & B1 & B2 & B3).
      { intros j Hj. apply (gi_iter _ _ _ G) in Hj. lia. }
      pose proof (eq_trans (eq_sym Ech) Ech') as Eq.
      assert (E1 : mc = fin m) by congruence. assert (E2 : mx = fin M) by congruence.
      rewrite E1, E2 in Ecv. rewrite Ecv in Hcv. apply conv_xr in Hcv; [|assumption|assumption].
      destruct Hcv as [HM0 Hlt]. destruct B3 as [B3|(i & Hi & B3)]; [lra|].
      exists i. pose proof (gi_iter _ _ _ G i Hi) as Hir. split; [exact Hir|]. split.
      + intro Hz. rewrite Hz, Rabs_R0 in B3. lra.
      + intros j Hj. rewrite <- B3. apply K; [lra| |exact Hj]. intros k Hk. specialize (B1 k Hk). lra.
  Qed.

  Lemma start_xr : exists st, crd_start cov n (PureLasso (N := XR)) = Ok st /\ RInv st (fun _ => 0) /\ crStop st = false /\ crConv st = false.
  Proof.
    destruct (start_ok XR n cov PureLasso Hn Hrows Hcols I) as (st & E & G & A1 & A2 & A3 & A4 & A5 & A6).
    exists st. split; [exact E|]. split; [|split; assumption].
    assert (Ez : repeat n0 n = vec n (fun _ => 0)).
    { apply vec_eq; [apply repeat_length|]. intros i Hi. rewrite nth_repeat. reflexivity. }
    constructor; auto.
    - rewrite A1. exact Ez.
    - rewrite Ez in A6. pose proof (mulslice_xr cov C (fun _ => 0) Hcov) as M. rewrite Hrows, Hcols in M.
      pose proof (eq_trans (eq_sym A6) M) as Eq. congruence.
  Qed.

  (** the k-th iterate of the caller-visible run *)
  Lemma run_xr : forall k, exists st st' b b',
    crd_start cov n (PureLasso (N := XR)) = Ok st /\
    (do s <- crd_start cov n (PureLasso (N := XR)); crd_loop nr cov XTy (fin lamb : XR) (fin tol : XR) k s) = Ok st' /\
    RInv st' b /\
    exists st'', (do s <- crd_start cov n (PureLasso (N := XR)); crd_loop nr cov XTy (fin lamb : XR) (fin tol : XR) (S k) s) = Ok st'' /\
    RInv st'' b' /\ step b b'.
  Proof.
    intro k. destruct start_xr as (st & E & RI & Hs & _). rewrite E. cbn [bind].
    assert (G : forall k st b, RInv st b -> crStop st = false ->
      exists st' b', crd_loop nr cov XTy (fin lamb : XR) (fin tol : XR) k st = Ok st' /\ RInv st' b').
    { clear - Hn Hsym Hdiag Hl Hnr Hrows Hcols Hcov. induction k as [|k IH]; intros st b RI Hs; [exists st, b; auto|].
      cbn [crd_loop]. destruct (iter_xr st b RI) as (st1 & b1 & E & RI1 & _). rewrite E. cbn [bind].
      destruct (crStop st1) eqn:Es; [exists st1, b1; auto|]. apply IH with b1; assumption. }
    destruct (G k st _ RI Hs) as (st' & b & E' & RI').
    exists st, st', b.
    destruct (crStop st') eqn:Es.
    - exists b. split; [reflexivity|]. split; [exact E'|]. split; [exact RI'|].
      exists st'. rewrite <- (Nat.add_1_r k), loop_split, Hs, E'. cbn [bind]. rewrite Es.
      split; [reflexivity|]. split; [exact RI'|].
      unfold step. rewrite rsum_0'; [lra|]. intros. rewrite Rminus_eq_0. unfold Rsqr. ring.
    - destruct (iter_xr st' b RI') as (st'' & b' & E'' & RI'' & Hst & _).
      exists b'. split; [reflexivity|]. split; [exact E'|]. split; [exact RI'|].
      exists st''. rewrite <- (Nat.add_1_r k), loop_split, Hs, E'. cbn [bind]. rewrite Es. cbn [crd_loop].
      rewrite E''. cbn [bind]. split; [|auto]. destruct (crStop st''); reflexivity.
  Qed.

  (** the outcome of a run that reports convergence *)
  Lemma conv_run : forall k st, 
    (do s <- crd_start cov n (PureLasso (N := XR)); crd_loop nr cov XTy (fin lamb : XR) (fin tol : XR) k s) = Ok st ->
    exists b, RInv st b /\ (crConv st = true -> exists i, (1 <= i < n)%nat /\ b i <> 0 /\
      forall j, (1 <= j < n)%nat -> active XR (crBeta st) j = true ->
        kkt n C q lamb (tol * Rabs (b i) * rsum n (fun i => Rabs (C j i))) b j).
  Proof.
    intros k st. destruct start_xr as (st0 & E & RI & Hs & Hcv). rewrite E. cbn [bind].
    assert (G : forall k st0 b, RInv st0 b -> crStop st0 = false ->
      crd_loop nr cov XTy (fin lamb : XR) (fin tol : XR) k st0 = Ok st ->
      (crConv st0 = true -> exists i, (1 <= i < n)%nat /\ b i <> 0 /\
        forall j, (1 <= j < n)%nat -> active XR (crBeta st0) j = true ->
        kkt n C q lamb (tol * Rabs (b i) * rsum n (fun i => Rabs (C j i))) b j) ->
      exists b, RInv st b /\ (crConv st = true -> exists i, (1 <= i < n)%nat /\ b i <> 0 /\
      forall j, (1 <= j < n)%nat -> active XR (crBeta st) j = true ->
        kkt n C q lamb (tol * Rabs (b i) * rsum n (fun i => Rabs (C j i))) b j)).
    { clear - Hn Hsym Hdiag Hl Hnr Hrows Hcols Hcov. induction k as [|k IH]; intros st0 b RI Hs E H.
      - cbn [crd_loop] in E. injection E as <-. exists b. auto.
      - cbn [crd_loop] in E. destruct (iter_xr st0 b RI) as (st1 & b1 & E1 & RI1 & _ & K). rewrite E1 in E. cbn [bind] in E.
        assert (K' : crConv st1 = true -> exists i, (1 <= i < n)%nat /\ b1 i <> 0 /\
          forall j, (1 <= j < n)%nat -> active XR (crBeta st1) j = true ->
          kkt n C q lamb (tol * Rabs (b1 i) * rsum n (fun i => Rabs (C j i))) b1 j).
        { intro Hc. destruct (K Hc) as (i & Hi & Hb & Hk). exists i. split; [exact Hi|]. split; [exact Hb|].
          intros j Hj Ha. apply Hk.
          destruct (iter_ok XR n nr cov XTy (fin lamb : XR) (fin tol : XR) st0 shapes_xr (ri_g _ _ RI))
            as (st1' & mc & mx & E1' & G1 & _ & Ei & _).
          rewrite E1 in E1'. injection E1' as <-.
          pose proof (gi_cover _ _ _ G1 j Hj Ha) as Hin. rewrite Ei in Hin. apply filter_In in Hin. apply Hin. }
        destruct (crStop st1) eqn:Es.
        + injection E as <-. exists b1. auto.
        + apply (IH st1 b1 RI1 Es E K'). }
    intro Er. apply (G k st0 _ RI Hs Er). rewrite Hcv. discriminate.
  Qed.

  (** ** the optimality conditions are sufficient *)

  Lemma obj_diff : forall b x, obj n C q lamb x - obj n C q lamb b =
    - rsum n (fun j => (x j - b j) * (q j - mv n C b j)) + dot n (fun i => x i - b i) (mv n C (fun i => x i - b i)) / 2
    + lamb * rsum n (fun j => Rabs (x j) - Rabs (b j)).
  Proof.
    intros b x. unfold obj. rewrite rsum_minus.
    rewrite (rsum_ext n (fun j => (x j - b j) * (q j - mv n C b j))
      (fun j => (x j * q j - b j * q j) - (x j * mv n C b j - b j * mv n C b j))) by (intros; ring).
    rewrite !rsum_minus. unfold dot at 1 2 3 4.
    assert (E : dot n (fun i => x i - b i) (mv n C (fun i => x i - b i)) =
      rsum n (fun i => x i * mv n C x i) - 2 * rsum n (fun i => x i * mv n C b i) + rsum n (fun i => b i * mv n C b i)).
    { assert (Esw : rsum n (fun i => b i * mv n C x i) = rsum n (fun i => x i * mv n C b i)).
      { unfold mv.
        rewrite (rsum_ext n _ (fun i => rsum n (fun j => b i * (C i j * x j)))) by (intros; rewrite rsum_scal; reflexivity).
        rewrite rsum_swap. apply rsum_ext. intros i Hi. rewrite <- rsum_scal. apply rsum_ext. intros j Hj.
        rewrite (Hsym j i Hj Hi). ring. }
      unfold dot. rewrite (rsum_ext n _ (fun i => x i * mv n C x i - x i * mv n C b i - (b i * mv n C x i - b i * mv n C b i))).
      2:{ intros i Hi. rewrite mv_minus. ring. }
      rewrite !rsum_minus, Esw. ring. }
    rewrite E. lra.
  Qed.

  Lemma kkt_sufficient : (forall x, 0 <= dot n x (mv n C x)) -> forall b e x,
    (forall j, (j < n)%nat -> x j = 0 /\ b j = 0 \/ kkt n C q lamb (e j) b j) ->
    obj n C q lamb b <= obj n C q lamb x + rsum n (fun j => e j * (Rabs (b j) + Rabs (x j))) 
    \/ exists j, (j < n)%nat /\ e j < 0.
  Proof.
    intros Hpsd b e x H.
    destruct (neg_dec n e) as [Hneg|Hpos]; [right; exact Hneg|left].
    assert (S : rsum n (fun j => (x j - b j) * (q j - mv n C b j)) <=
      rsum n (fun j => lamb * (Rabs (x j) - Rabs (b j)) + e j * (Rabs (b j) + Rabs (x j)))).
    { apply rsum_le. intros j Hj. specialize (Hpos j Hj). destruct (H j Hj) as [[-> ->]|[K1 K2]].
      - rewrite Rabs_R0. lra.
      - cbv zeta in K1, K2. set (g := q j - mv n C b j) in *.
        assert (x j * g <= (lamb + e j) * Rabs (x j)).
        { apply Rle_trans with (Rabs (x j * g)); [apply Rle_abs|]. rewrite Rabs_mult, Rmult_comm.
          apply Rmult_le_compat_r; [apply Rabs_pos|exact K1]. }
        nra. }
    rewrite rsum_plus, rsum_scal in S. pose proof (obj_diff b x) as D. pose proof (Hpsd (fun i => x i - b i)). lra.
  Qed.
End Run.

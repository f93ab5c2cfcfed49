(** C76: when coordinate descent is right. *)
From Coq Require Import Reals Lra Psatz.
From Verif Require Import Base Num Mat Model_Node Model_Util Model_Fit Model_Norm Model_Cov Model_Crd
  Proof_Node Proof_Util Stats RSum Proof_XR Proof_Norm Proof_Fit Proof_Cov Proof_Crd Proof_Crd2 Proof_Crd3 Props_Crd.
Local Open Scope R_scope.

Section Fixed.
  Variable n : nat.
  Variable C : nat -> nat -> R.
  Variable q : nat -> R.
  Variables lamb tol : R.
  Hypothesis Hn : (0 < n)%nat.
  Hypothesis Hsym : forall i j, (i < n)%nat -> (j < n)%nat -> C i j = C j i.
  Hypothesis Hdiag : forall j, (1 <= j < n)%nat -> 0 < C j j.
  Hypothesis Hl : 0 <= lamb.
  Variable nr : nat.
  Variable cov : Mat XR.
  Hypothesis Hnr : (0 < nr)%nat.
  Hypothesis Hrows : mrows cov = n.
  Hypothesis Hcols : mcols cov = n.
  Hypothesis Hcov : rmat cov C.
  Notation XTy := (vec n (fun j => INR nr * q j)).
  Notation INV := (RInv n C).

  (** [Q]-vectors on which the update of coordinate j always gives [w j] *)
  Variables (Q : (nat -> R) -> Prop) (w : nat -> R).
  Hypothesis Hw : forall b j, Q b -> (1 <= j < n)%nat -> soft (q j - (mv n C b j - b j * C j j)) lamb / C j j = w j.
  Hypothesis HQ : forall b j, Q b -> (1 <= j < n)%nat -> Q (setf b j (w j)).

  Lemma sweep_w : forall iter b betaOld, NoDup iter -> (forall j, In j iter -> (1 <= j < n)%nat) ->
    length betaOld = n -> (forall j, In j iter -> nth j betaOld n0 = fin (b j)) -> Q b ->
    exists b', for_each iter (crd_coord nr cov XTy betaOld (fin lamb : XR) PureLasso) (vec n (mv n C b), vec n b)
      = Ok (vec n (mv n C b'), vec n b') /\ Q b' /\
      (forall j, ~ In j iter -> b' j = b j) /\ (forall j, In j iter -> b' j = w j).
  Proof.
    induction iter as [|j iter IH]; intros b betaOld Hnd Hin Hlen Hold HQb.
    - exists b. split; [reflexivity|]. split; [exact HQb|]. split; [reflexivity|]. intros j [].
    - pose proof (Hin j (or_introl eq_refl)) as Hj. apply NoDup_cons_iff in Hnd. destruct Hnd as (Hni & Hnd').
      assert (Hc := Hdiag j Hj).
      cbn [for_each]. rewrite (coord_xr n C q lamb Hl nr cov Hnr Hrows Hcols Hcov b betaOld j)
        by (auto; try lia; try lra; apply Hold; left; reflexivity).
      cbv zeta. rewrite (Hw b j HQb Hj). cbn [bind].
      destruct (IH (setf b j (w j)) betaOld Hnd') as (b' & E & Q' & F & W).
      + intros k Hk. apply Hin. right. exact Hk.
      + exact Hlen.
      + intros k Hk. rewrite Hold by (right; exact Hk). unfold setf.
        destruct (Nat.eqb_spec k j); [subst; contradiction|reflexivity].
      + apply HQ; assumption.
      + exists b'. split; [exact E|]. split; [exact Q'|]. split.
        * intros k Hk. rewrite F by (intro; apply Hk; right; assumption). unfold setf.
          destruct (Nat.eqb_spec k j); [subst; exfalso; apply Hk; left; reflexivity|reflexivity].
        * intros k [<-|Hk]; [|apply W; exact Hk]. rewrite F by exact Hni. unfold setf. rewrite Nat.eqb_refl. reflexivity.
  Qed.

  Lemma iter_w : forall st b, INV st b -> Q b ->
    exists st' b', crd_iter nr cov XTy (fin lamb : XR) (fin tol : XR) st = Ok st' /\ INV st' b' /\ Q b' /\
      (forall j, ~ In j (crIter st) -> b' j = b j) /\ (forall j, In j (crIter st) -> b' j = w j) /\
      (crConv st' = true -> exists j, In j (crIter st) /\ b' j <> 0) /\
      (0 < tol -> (forall j, In j (crIter st) -> b' j = b j) -> (exists j, In j (crIter st) /\ b' j <> 0) -> crConv st' = true).
  Proof.
    intros st b RI HQb. pose proof (ri_g _ _ _ _ RI) as G.
    destruct (iter_ok XR n nr cov XTy (fin lamb : XR) (fin tol : XR) st (shapes_xr n q Hn nr cov Hrows Hcols) G)
      as (st' & mc & mx & E & G' & Es & Ei & Ef & Ec & Ech & Ecv & _).
    rewrite (ri_corr _ _ _ _ RI), (ri_beta _ _ _ _ RI), (ri_cdb _ _ _ _ RI) in Es.
    destruct (sweep_w (crIter st) b (vec n b)) as (b' & Es' & Q' & F & W).
    { exact (gi_nodup _ _ _ G). } { exact (gi_iter _ _ _ G). } { apply vec_length. }
    { intros j Hj. apply (gi_iter _ _ _ G) in Hj. apply vec_nth. lia. } { exact HQb. }
    assert (Ecd : crCdb st' = vec n (mv n C b') /\ crBeta st' = vec n b').
    { pose proof (eq_trans (eq_sym Es) Es') as Eq. injection Eq as E1 E2. split; assumption. }
    destruct Ecd as [Ecd Eb].
    exists st', b'. split; [exact E|]. split; [|split; [exact Q'|split; [exact F|split; [exact W|]]]].
    - constructor; auto.
      + rewrite Ec, (ri_corr _ _ _ _ RI). reflexivity.
      + rewrite F by (intro Hin; apply (gi_iter _ _ _ G) in Hin; lia). apply (ri_zero _ _ _ _ RI).
      + intros j Hj. rewrite F by (intro Hin; apply (gi_iter _ _ _ G) in Hin; lia). apply (ri_out _ _ _ _ RI). exact Hj.
    - rewrite Eb, (ri_beta _ _ _ _ RI) in Ech.
      destruct (change_xr n (crIter st) b b') as (m & M & Ech' & Hm & HM & B1 & B2 & B3).
      { intros j Hj. apply (gi_iter _ _ _ G) in Hj. lia. }
      pose proof (eq_trans (eq_sym Ech) Ech') as Eq.
      assert (E1 : mc = fin m) by congruence. assert (E2 : mx = fin M) by congruence. rewrite E1, E2 in Ecv. split.
      + intro Hcv. rewrite Ecv in Hcv. apply conv_xr in Hcv; [|assumption|assumption].
        destruct B3 as [B3|(i & Hi & B3)]; [lra|]. exists i. split; [exact Hi|]. intro Z. rewrite Z, Rabs_R0 in B3. lra.
      + intros Ht Hsame (i & Hi & Hne). rewrite Ecv.
        assert (0 < M) by (apply Rlt_le_trans with (Rabs (b' i)); [apply Rabs_pos_lt; exact Hne|apply B2; exact Hi]).
        assert (m = 0).
        { assert (G0 : forall l m0 M0 m1 M1, (forall j, In j l -> (j < n)%nat /\ b' j = b j) -> m0 = fin 0 ->
            for_each l (fun j (st : XR * XR) => let '(mc, mx) := st in
              do x <- getn (vec n b') j; do o <- getn (vec n b) j;
              Ok (if nltb mc (nabs (x - o)%num) then nabs (x - o)%num else mc,
                if nltb mx (nabs x) then nabs x else mx)) (m0, M0) = Ok (m1, M1) -> m1 = fin 0).
          { clear. induction l as [|j l IH]; intros m0 M0 m1 M1 H -> E; cbn [for_each] in E; [injection E; auto|].
            destruct (H j (or_introl eq_refl)) as (Hj & Hb).
            rewrite !(getn_lt _ _ j n0) in E by (rewrite vec_length; exact Hj). rewrite !vec_nth in E by exact Hj. cbn [bind] in E.
            rewrite xsub_fin, Hb, Rminus_eq_0, !xabs_fin, Rabs_R0, xlt_fin in E. rewrite (proj2 (Rltb_false 0 0)) in E by lra.
            eapply IH; [intros k Hk; apply H; right; exact Hk| |exact E]. reflexivity. }
          assert (Q0 : fin m = fin 0).
          { eapply (G0 (crIter st)); [|reflexivity|exact Ech'].
            intros j Hj. split; [apply (gi_iter _ _ _ G) in Hj; lia|apply Hsame; exact Hj]. }
          injection Q0; auto. }
        subst m. rewrite xdiv_fin by lra. rewrite xlt_fin. apply Rltb_true. unfold Rdiv. rewrite Rmult_0_l. exact Ht.
  Qed.

  (** after the first pass the coefficients are [w] and stay so *)
  Definition settled (st : Crd XR) (b : nat -> R) : Prop := INV st b /\ Q b /\ forall j, (1 <= j < n)%nat -> b j = w j.

  Lemma iter_settled : forall st b, settled st b ->
    exists st' b', crd_iter nr cov XTy (fin lamb : XR) (fin tol : XR) st = Ok st' /\ settled st' b' /\
      (crConv st' = true -> exists j, (1 <= j < n)%nat /\ w j <> 0) /\
      (0 < tol -> (exists j, (1 <= j < n)%nat /\ active XR (vec n w) j = true) -> crConv st' = true).
  Proof.
    intros st b (RI & HQb & Hb). destruct (iter_w st b RI HQb) as (st' & b' & E & RI' & Q' & F & W & C1 & C2).
    pose proof (ri_g _ _ _ _ RI) as G.
    assert (Hb' : forall j, (1 <= j < n)%nat -> b' j = w j).
    { intros j Hj. destruct (in_dec Nat.eq_dec j (crIter st)) as [H|H]; [apply W; exact H|]. rewrite F by exact H. apply Hb. exact Hj. }
    exists st', b'. split; [exact E|]. split; [split; [exact RI'|]; split; [exact Q'|exact Hb']|]. split.
    - intro H. destruct (C1 H) as (j & Hj & Hne). pose proof (gi_iter _ _ _ G j Hj) as Hjr. exists j. split; [exact Hjr|]. rewrite <- Hb' by exact Hjr. exact Hne.
    - intros Ht (j & Hj & Ha). unfold active in Ha. rewrite vec_nth in Ha by lia.
      apply C2; [exact Ht| |].
      + intros k Hk. rewrite W by exact Hk. symmetry. apply Hb. exact (gi_iter _ _ _ G k Hk).
      + exists j. split.
        * apply (gi_cover _ _ _ G j Hj). unfold active. rewrite (ri_beta _ _ _ _ RI), vec_nth, Hb by lia. exact Ha.
        * rewrite Hb' by exact Hj. intro Z. rewrite Z in Ha.
          rewrite xabs_fin, Rabs_R0 in Ha. unfold lassoCrdDescZero in Ha. cbn in Ha. apply Rltb_true in Ha. lra.
  Qed.

  Lemma loop_settled : forall k st b, settled st b -> crStop st = false ->
    exists st' b', crd_loop nr cov XTy (fin lamb : XR) (fin tol : XR) k st = Ok st' /\ settled st' b' /\
      ((0 < k)%nat -> (crConv st' = true -> exists j, (1 <= j < n)%nat /\ w j <> 0)) /\
      ((0 < k)%nat -> 0 < tol -> (exists j, (1 <= j < n)%nat /\ active XR (vec n w) j = true) -> crConv st' = true) /\
      (k = 0%nat -> st' = st).
  Proof.
    induction k as [|k IH]; intros st b H Hs.
    - exists st, b. split; [reflexivity|]. split; [exact H|]. split; [lia|]. split; [lia|reflexivity].
    - cbn [crd_loop]. destruct (iter_settled st b H) as (st1 & b1 & E & H1 & C1 & C2). rewrite E. cbn [bind].
      destruct (crStop st1) eqn:Es.
      + exists st1, b1. split; [reflexivity|]. split; [exact H1|]. split; [auto|]. split; [auto|lia].
      + destruct (IH st1 b1 H1 Es) as (st' & b' & E' & H' & D1 & D2 & D3). exists st', b'. split; [exact E'|]. split; [exact H'|].
        destruct k as [|k]; [rewrite D3 by reflexivity; split; [auto|]; split; [auto|lia]|].
        split; [intros _; apply D1; lia|]. split; [intros _; apply D2; lia|lia].
  Qed.

  Hypothesis Q0 : Q (fun _ => 0).
  Lemma run_w : forall k, (1 <= k)%nat -> exists st b,
    (do s <- crd_start cov n (PureLasso (N := XR)); crd_loop nr cov XTy (fin lamb : XR) (fin tol : XR) k s) = Ok st /\
    crBeta st = vec n b /\ b 0%nat = 0 /\ (forall j, (1 <= j < n)%nat -> b j = w j) /\
    (crConv st = true -> exists j, (1 <= j < n)%nat /\ w j <> 0) /\
    ((2 <= k)%nat -> 0 < tol -> (exists j, (1 <= j < n)%nat /\ active XR (vec n w) j = true) -> crConv st = true).
  Proof.
    intros k Hk. destruct k as [|k]; [lia|].
    destruct (start_xr n C Hn cov Hrows Hcols Hcov) as (st0 & E0 & RI0 & Hs0 & _).
    destruct (start_ok XR n cov PureLasso Hn Hrows Hcols I) as (st0' & E0' & _ & _ & A2 & _).
    rewrite E0 in E0'. injection E0' as <-. rewrite E0. cbn [bind crd_loop].
    destruct (iter_w st0 _ RI0 Q0) as (st1 & b1 & E1 & RI1 & Q1 & F & W & C1 & _). rewrite E1. cbn [bind].
    assert (Hb1 : forall j, (1 <= j < n)%nat -> b1 j = w j) by (intros j Hj; apply W; rewrite A2; apply in_seq; lia).
    assert (C1' : crConv st1 = true -> exists j, (1 <= j < n)%nat /\ w j <> 0).
    { intro H. destruct (C1 H) as (j & Hj & Hne). pose proof (gi_iter _ _ _ (ri_g _ _ _ _ RI0) j Hj) as Hjr.
      exists j. split; [exact Hjr|]. rewrite <- Hb1 by exact Hjr. exact Hne. }
    destruct (crStop st1) eqn:Es.
    - exists st1, b1. split; [reflexivity|]. split; [apply (ri_beta _ _ _ _ RI1)|]. split; [apply (ri_zero _ _ _ _ RI1)|].
      split; [exact Hb1|]. split; [exact C1'|]. intros _ _ _.
      destruct (iter_ok XR n nr cov XTy (fin lamb : XR) (fin tol : XR) st0 (shapes_xr n q Hn nr cov Hrows Hcols) (ri_g _ _ _ _ RI0))
        as (st1' & mc & mx & E1' & _ & _ & _ & _ & _ & _ & _ & Hst). rewrite E1 in E1'. injection E1' as <-. apply Hst. exact Es.
    - destruct (loop_settled k st1 b1) as (st' & b' & E' & (RI' & _ & Hb') & D1 & D2 & D3); [split; [exact RI1|]; split; assumption|exact Es|].
      exists st', b'. split; [exact E'|]. split; [apply (ri_beta _ _ _ _ RI')|]. split; [apply (ri_zero _ _ _ _ RI')|]. split; [exact Hb'|].
      destruct k as [|k]; [rewrite D3 by reflexivity; split; [exact C1'|lia]|]. split; [apply D1; lia|]. intros _. apply D2. lia.
  Qed.
End Fixed.

Lemma kkt_min : forall n C q lamb b x, (forall i j, (i < n)%nat -> (j < n)%nat -> C i j = C j i) ->
  0 <= dot n (fun i => x i - b i) (mv n C (fun i => x i - b i)) ->
  b 0%nat = 0 -> x 0%nat = 0 -> (forall j, (1 <= j < n)%nat -> kkt n C q lamb 0 b j) -> obj n C q lamb b <= obj n C q lamb x.
Proof.
  intros n C q lamb b x Hs Hp B0 X0 H. pose proof (obj_diff n C q lamb Hs b x) as D.
  assert (S : rsum n (fun j => (x j - b j) * (q j - mv n C b j)) <= rsum n (fun j => lamb * (Rabs (x j) - Rabs (b j)))).
  { apply rsum_le. intros j Hj. destruct j as [|j]; [rewrite B0, X0, Rabs_R0; lra|].
    destruct (H (S j) ltac:(lia)) as (K1 & K2). cbv zeta in K1, K2. set (g := q (S j) - mv n C b (S j)) in *.
    assert (x (S j) * g <= lamb * Rabs (x (S j))).
    { apply Rle_trans with (Rabs (x (S j) * g)); [apply Rle_abs|]. rewrite Rabs_mult, Rmult_comm.
      apply Rmult_le_compat_r; [apply Rabs_pos|lra]. }
    lra. }
  rewrite rsum_scal in S. lra.
Qed.

Lemma soft_zero : forall x t, Rabs x <= t -> soft x t = 0.
Proof.
  intros x t H. assert (- t <= x <= t) by (unfold Rabs in H; destruct (Rcase_abs x); lra).
  unfold soft. destruct (Rlt_dec x (- t)); [lra|]. destruct (Rlt_dec t x); lra.
Qed.

Lemma e16_active : forall n w j, (j < n)%nat -> / 10 ^ 16 < Rabs (w j) -> active XR (vec n w) j = true.
Proof.
  intros n w j Hj H. unfold active, lassoCrdDescZero. rewrite e16_fin, vec_nth by exact Hj. rewrite xabs_fin. apply Rltb_true. exact H.
Qed.

Lemma fins_inj : forall a b, fins a = fins b -> a = b.
Proof. induction a as [|x a IH]; intros [|z b] H; try discriminate H; [reflexivity|]. injection H as -> H. f_equal. apply IH. exact H. Qed.

(** ** C76 *)

(** If the covariance estimate has no correlations between the features, then
    coordinate descent finds the lasso minimiser, with one pass, and reports
    convergence after the second (unless everything is negligible). *)
Theorem C76_uncorrelated : forall get d nr n A y C lamb tol x0 k,
  lasso_data get d nr n A y C -> (forall i j, (i < n)%nat -> (j < n)%nat -> C i j = C j i) ->
  (forall i j, (1 <= i < n)%nat -> (1 <= j < n)%nat -> i <> j -> C i j = 0) ->
  (forall j, (1 <= j < n)%nat -> 0 < C j j) -> 0 <= lamb -> (1 <= k)%Z ->
  exists b,
    coefficients (LassoCrdDesc get d (XFin lamb) x0 k (XFin tol) PureLasso) = Ok (map XFin b) /\
    minimiser_without_bias n (objective nr n A y C lamb) b /\
    ((2 <= k)%Z -> 0 < tol -> (exists j, (j < n)%nat /\ / 10 ^ 16 < Rabs (nth j b 0)) ->
     converged (LassoCrdDesc get d (XFin lamb) x0 k (XFin tol) PureLasso) = Ok true).
Proof.
  intros get d nr n A y C lamb tol x0 k D Hs Ho Hd Hl Hk.
  destruct (lasso_unfold get d nr n A y C D) as (cov & Hcov & R1 & R2 & U). rewrite U. clear U.
  pose proof (ld_n _ _ _ _ _ _ _ D) as Hn.
  set (q := xy nr A y). set (w := fun j => soft (q j) lamb / C j j).
  assert (Hmv : forall b j, b 0%nat = 0 -> (1 <= j < n)%nat -> mv n C b j = b j * C j j).
  { intros b j B0 Hj. unfold mv. rewrite (rsum_single n _ j); [ring|lia|]. intros i Hi Hne.
    destruct i as [|i]; [rewrite B0; ring|]. rewrite (Ho j (S i)) by lia. ring. }
  destruct (run_w n C q lamb tol Hn Hs Hd Hl nr cov (ld_nr _ _ _ _ _ _ _ D) R1 R2 Hcov (fun b => b 0%nat = 0) w) with (k := Z.to_nat k)
    as (st & b & E & Eb & B0 & Bw & _ & Cv).
  - intros b j B0 Hj. rewrite Hmv by assumption. unfold w. f_equal. f_equal. ring.
  - intros b j B0 Hj. unfold setf. destruct (Nat.eqb_spec 0 j); [lia|exact B0].
  - reflexivity.
  - lia.
  - fold (fin lamb) (fin tol). destruct (crd_start cov n PureLasso) as [st0| |]; cbn [bind] in *; [|discriminate E|discriminate E].
    fold q. rewrite E. cbn [bind coefficients converged]. exists (map b (seq 0 n)). split; [rewrite Eb, vec_fins_map; reflexivity|]. split.
    + split; [rewrite map_length, seq_length; reflexivity|]. split; [rewrite nth_map_seq by exact Hn; exact B0|].
      intros x Lx X0. rewrite !objective_obj. fold q. rewrite (obj_ext n C q lamb (fl (map b (seq 0 n))) b) by (intros; apply fl_map; assumption).
      apply kkt_min; [exact Hs| |exact B0|exact X0|].
      * apply rsum_nonneg. intros i Hi. destruct i as [|i]; [rewrite B0; unfold fl; rewrite X0; lra|].
        rewrite Hmv; [|unfold fl; rewrite X0, B0; ring|lia]. specialize (Hd (S i) ltac:(lia)).
        set (u := fl x (S i) - b (S i)). pose proof (Rle_0_sqr u). unfold Rsqr in *. nra.
      * intros j Hj. pose proof (coord_kkt n C q lamb Hl b j ltac:(lia) (Hd j Hj)) as K.
        replace (soft (q j - (mv n C b j - b j * C j j)) lamb / C j j) with (b j) in K.
        2:{ rewrite Hmv by assumption. rewrite Bw by exact Hj. unfold w. f_equal. f_equal. ring. }
        unfold kkt in *. rewrite (mv_ext n C C (setf b j (b j)) b j) in K; [|reflexivity|].
        -- replace (setf b j (b j) j) with (b j) in K by (unfold setf; rewrite Nat.eqb_refl; reflexivity). exact K.
        -- intros i _. unfold setf. destruct (Nat.eqb_spec i j); [subst; reflexivity|reflexivity].
    + intros Hk2 Ht (j & Hj & Ha). rewrite Cv; [reflexivity|lia|exact Ht|].
      rewrite nth_map_seq in Ha by exact Hj. destruct j as [|j].
      * rewrite B0, Rabs_R0 in Ha. assert (0 < / 10 ^ 16) by (apply Rinv_0_lt_compat, pow_lt; lra). lra.
      * exists (S j). split; [lia|]. apply e16_active; [exact Hj|]. rewrite <- Bw by lia. exact Ha.
Qed.
Print Assumptions C76_uncorrelated.

(** A penalty that is at least every |x_j . y| / nr: the result is the empty
    model, which is the right one, but convergence is never reported: all the
    passes are made, however many are allowed. *)
Theorem C76_large_penalty : forall get d nr n A y C lamb tol x0 k,
  lasso_data get d nr n A y C -> (forall i j, (i < n)%nat -> (j < n)%nat -> C i j = C j i) ->
  (forall j, (1 <= j < n)%nat -> 0 < C j j) ->
  (forall j, (1 <= j < n)%nat -> Rabs (xy nr A y j) <= lamb) -> 0 <= lamb -> (1 <= k)%Z ->
  coefficients (LassoCrdDesc get d (XFin lamb) x0 k (XFin tol) PureLasso) = Ok (map XFin (repeat 0 n)) /\
  converged (LassoCrdDesc get d (XFin lamb) x0 k (XFin tol) PureLasso) = Ok false /\
  ((forall x : nat -> R, 0 <= rsum n (fun i => x i * rsum n (fun j => C i j * x j))) ->
   minimiser_without_bias n (objective nr n A y C lamb) (repeat 0 n)).
Proof.
  intros get d nr n A y C lamb tol x0 k D Hs Hd Hq Hl Hk.
  destruct (lasso_unfold get d nr n A y C D) as (cov & Hcov & R1 & R2 & U). rewrite U. clear U.
  pose proof (ld_n _ _ _ _ _ _ _ D) as Hn. set (q := xy nr A y) in *.
  assert (Hmv : forall b j, (forall i, b i = 0) -> mv n C b j = 0).
  { intros b j B. unfold mv. apply rsum_0'. intros i _. rewrite B. ring. }
  destruct (run_w n C q lamb tol Hn Hs Hd Hl nr cov (ld_nr _ _ _ _ _ _ _ D) R1 R2 Hcov (fun b => forall i, b i = 0) (fun _ => 0)) with (k := Z.to_nat k)
    as (st & b & E & Eb & B0 & Bw & Cv & _).
  - intros b j B Hj. rewrite Hmv, B by exact B. replace (q j - _) with (q j) by ring. rewrite soft_zero by (apply Hq; exact Hj). unfold Rdiv. ring.
  - intros b j B Hj i. unfold setf. destruct (i =? j)%nat; auto.
  - reflexivity.
  - lia.
  - fold (fin lamb) (fin tol). destruct (crd_start cov n PureLasso) as [st0| |]; cbn [bind] in *; [|discriminate E|discriminate E].
    fold q. rewrite E. cbn [bind coefficients converged]. split; [|split].
    + f_equal. rewrite Eb. rewrite (vec_ext n b (fun _ => 0)).
      * unfold vec. clear. set (a := 0%nat). clearbody a. revert a. induction n as [|n IH]; intro a; [reflexivity|]. cbn [seq map repeat]. f_equal. apply IH.
      * intros [|i] Hi; [exact B0|apply Bw; lia].
    + destruct (crConv st); [|reflexivity]. destruct (Cv eq_refl) as (j & _ & Hne). congruence.
    + intro Hp. split; [apply repeat_length|]. split; [apply nth_repeat|]. intros x Lx X0. rewrite !objective_obj.
      apply kkt_min; [exact Hs|apply Hp|unfold fl; apply nth_repeat|exact X0|].
      intros j Hj. unfold kkt. rewrite Hmv by (intro i; unfold fl; apply nth_repeat). unfold fl. rewrite nth_repeat, Rabs_R0.
      split; [|lra]. rewrite Rminus_0_r. specialize (Hq j Hj). fold q. lra.
Qed.
Print Assumptions C76_large_penalty.

(** For a smaller penalty the model is never empty. *)
Theorem C76_small_penalty : forall get d nr n A y C lamb tol x0 k b,
  lasso_data get d nr n A y C -> (forall i j, (i < n)%nat -> (j < n)%nat -> C i j = C j i) ->
  (forall j, (1 <= j < n)%nat -> 0 < C j j) -> 0 <= lamb -> (1 <= k)%Z ->
  (exists j, (1 <= j < n)%nat /\ lamb < Rabs (xy nr A y j)) ->
  coefficients (LassoCrdDesc get d (XFin lamb) x0 k (XFin tol) PureLasso) = Ok (map XFin b) ->
  exists j, (1 <= j < n)%nat /\ nth j b 0 <> 0.
Proof.
  intros get d nr n A y C lamb tol x0 k b D Hs Hd Hl Hk (j & Hj & Hq) E.
  destruct (C32_descent get d nr n A y C lamb tol D Hs Hd Hl) as (beta & B0 & B1 & B2).
  assert (Eb : b = beta (Z.to_nat k)).
  { destruct (B1 (Z.to_nat k)) as (_ & _ & H). specialize (H x0). rewrite Z2Nat.id in H by lia. rewrite E in H. injection H as H. apply fins_inj. exact H. }
  subst b.
  assert (Dec : (exists j, (1 <= j < n)%nat /\ nth j (beta (Z.to_nat k)) 0 <> 0) \/ (forall j, (1 <= j < n)%nat -> nth j (beta (Z.to_nat k)) 0 = 0)).
  { clear. generalize (beta (Z.to_nat k)). intro l. induction n as [|m IH]; [right; intros; lia|].
    destruct IH as [(j & Hj & H)|H]; [left; exists j; split; [lia|exact H]|].
    destruct m as [|m]; [right; intros; lia|]. destruct (Req_dec (nth (S m) l 0) 0) as [Z|Z].
    - right. intros j Hj. destruct (Nat.eq_dec j (S m)) as [->|]; [exact Z|apply H; lia].
    - left. exists (S m). split; [lia|exact Z]. }
  destruct Dec as [Dec|Z]; [exact Dec|exfalso].
  assert (Pos : forall k, 0 <= rsum n (fun j => C j j * Rsqr (nth j (beta (S k)) 0 - nth j (beta k) 0)) / 2).
  { intro i. apply Rmult_le_pos; [|lra]. apply rsum_nonneg. intros f Hf. destruct f as [|f].
    - destruct (B1 i) as (_ & Z0 & _). destruct (B1 (S i)) as (_ & Z1 & _). rewrite Z0, Z1. unfold Rsqr. lra.
    - specialize (Hd (S f) ltac:(lia)). apply Rmult_le_pos; [lra|apply Rle_0_sqr]. }
  assert (Mono : forall i, objective nr n A y C lamb (beta (S i)) <= objective nr n A y C lamb (beta 1%nat)).
  { induction i as [|i IH]; [lra|]. specialize (B2 (S i)). specialize (Pos (S i)). lra. }
  assert (Zero : forall l, length l = n -> (forall f, (f < n)%nat -> nth f l 0 = 0) -> objective nr n A y C lamb l = 0).
  { intros l Ll Hz. unfold objective. rewrite !rsum_0'; [lra| | |]; intros f Hf; rewrite Hz by exact Hf; try ring. apply Rabs_R0. }
  assert (Zk : objective nr n A y C lamb (beta (Z.to_nat k)) = 0).
  { destruct (B1 (Z.to_nat k)) as (L & Z0 & _). apply Zero; [exact L|]. intros [|f] Hf; [exact Z0|apply Z; lia]. }
  specialize (Mono (Z.to_nat k - 1)%nat). replace (S (Z.to_nat k - 1)) with (Z.to_nat k) in Mono by lia.
  specialize (B2 0%nat). specialize (Pos 0%nat). rewrite (Zero (beta 0%nat)) in B2; [|rewrite B0; apply repeat_length|intros; rewrite B0; apply nth_repeat].
  (* nothing moved in the first pass *)
  assert (Z1 : forall f, (f < n)%nat -> nth f (beta 1%nat) 0 = 0).
  { assert (S0 : rsum n (fun j => C j j * Rsqr (nth j (beta 1%nat) 0 - nth j (beta 0%nat) 0)) = 0) by lra.
    intros f Hf. destruct f as [|f]; [apply (B1 1%nat)|].
    assert (T := rsum_zero_terms n _ (fun i Hi => match i return (i < n)%nat -> 0 <= C i i * Rsqr (nth i (beta 1%nat) 0 - nth i (beta 0%nat) 0) with
      | O => fun _ => ltac:(destruct (B1 0%nat) as (_ & Y0 & _); destruct (B1 1%nat) as (_ & Y1 & _); rewrite Y0, Y1; unfold Rsqr; lra)
      | S i' => fun Hi => Rmult_le_pos _ _ (Rlt_le _ _ (Hd (S i') (conj (le_n_S _ _ (Nat.le_0_l _)) Hi))) (Rle_0_sqr _) end Hi) S0 (S f) Hf).
    cbn beta in T. apply Rmult_integral in T. specialize (Hd (S f) ltac:(lia)). destruct T as [T|T]; [lra|]. apply Rsqr_0_uniq in T.
    rewrite B0, nth_repeat in T. lra. }
  (* so the conditions hold *)
  destruct (lasso_unfold get d nr n A y C D) as (cov & Hcov & R1 & R2 & U).
  destruct (B1 1%nat) as (L1 & _ & E1). specialize (E1 None). rewrite U in E1. change (Z.to_nat (Z.of_nat 1)) with 1%nat in E1.
  pose proof (ld_n _ _ _ _ _ _ _ D) as Hn. pose proof (ld_nr _ _ _ _ _ _ _ D) as Hnr.
  destruct (start_xr n C Hn cov R1 R2 Hcov) as (st0 & E0 & RI0 & _ & _).
  destruct (start_ok XR n cov PureLasso Hn R1 R2 I) as (st0' & E0' & _ & _ & A2 & _).
  rewrite E0 in E0'. injection E0' as <-. rewrite E0 in E1. cbn [bind crd_loop] in E1.
  destruct (iter_ok XR n nr cov _ (fin lamb : XR) (fin tol : XR) st0 (shapes_xr n (xy nr A y) Hn nr cov R1 R2) (ri_g _ _ _ _ RI0))
    as (st' & mc & mx & Ei & _ & Es & _). fold (fin lamb) (fin tol) in E1. rewrite Ei in E1. cbn [bind] in E1.
  rewrite (ri_corr _ _ _ _ RI0), (ri_beta _ _ _ _ RI0), (ri_cdb _ _ _ _ RI0), A2 in Es.
  destruct (sweep_xr n C (xy nr A y) lamb Hs Hl nr cov Hnr R1 R2 Hcov (seq 1 (n - 1)) (fun _ => 0) (vec n (fun _ => 0)))
    as (b' & Es' & F & _ & K).
  { apply seq_NoDup. } { intros i Hi. apply in_seq in Hi. split; [lia|apply Hd; lia]. } { apply vec_length. }
  { intros i Hi. apply in_seq in Hi. apply vec_nth. lia. }
  assert (Eb' : crBeta st' = vec n b') by (pose proof (eq_trans (eq_sym Es) Es') as Eq; congruence).
  assert (Eb1 : vec n b' = map XFin (beta 1%nat)).
  { rewrite <- Eb'. destruct (crStop st'); cbn [bind coefficients] in E1; congruence. }
  assert (Bz : forall f, b' f = 0).
  { intro f. destruct (Nat.lt_ge_cases f n) as [Hf|Hf].
    - rewrite <- (Z1 f Hf). rewrite vec_fins_map in Eb1. apply fins_inj in Eb1. rewrite <- Eb1. symmetry. apply nth_map_seq. exact Hf.
    - apply F. intro C0. apply in_seq in C0. lia. }
  destruct (K 0 (Rle_refl 0) ltac:(intros i _; rewrite Bz; rewrite Rminus_0_r, Rabs_R0; lra) j ltac:(apply in_seq; lia)) as (K1 & _). cbv zeta in K1.
  replace (mv n C b' j) with 0 in K1 by (symmetry; apply rsum_0'; intros i _; rewrite Bz; ring). rewrite Rminus_0_r in K1. lra.
Qed.
Print Assumptions C76_small_penalty.

(** *** an example: two orthogonal columns *)
Definition eo_A (i j : nat) : R :=
  match j with 1%nat => nth i [1; -1; 1; -1; 0] 0 | 2%nat => nth i [1; 1; -1; -1; 0] 0 | _ => 0 end.
Definition eo_y : list R := [5 / 3; -3 / 3; -1 / 3; -1 / 3; 0].
Definition eo_C (i j : nat) : R := rsum 5 (fun k => eo_A k i * eo_A k j) / INR 5.
Definition eo_nd : NormalizedData XR :=
  mkND (N := XR) (mkMat (N := XR) 5 3 (fun i j => XFin (eo_A i j))) (map XFin eo_y) (map XFin [0; 1; 1]) (map XFin [1; 0; 0]) (XFin 1) (XFin 0) true.

Lemma eo_data : lasso_data Empirical_Get eo_nd 5 3 eo_A eo_y eo_C.
Proof.
  constructor; cbn [eo_nd ndX ndy mrows mcols]; auto; try lia; try (intros; reflexivity).
  destruct (empirical_xr (mkMat (N := XR) 5 3 (fun i j => XFin (eo_A i j))) eo_A) as (cov & Ec & K1 & K2 & K3);
    [intros i j _ _; reflexivity|cbn; lia|cbn; lia|]. exists cov. split; [exact Ec|]. split; [exact K1|]. split; [exact K2|]. intros i j Hi Hj. cbn [mcols mrows] in *. apply K3; lia.
Qed.
Lemma eo_sym : forall i j, (i < 3)%nat -> (j < 3)%nat -> eo_C i j = eo_C j i.
Proof. intros i j _ _. unfold eo_C. f_equal. apply rsum_ext. intros; ring. Qed.
Lemma eo_values : eo_C 1 1 = 4 / 5 /\ eo_C 2 2 = 4 / 5 /\ eo_C 1 2 = 0 /\ eo_C 2 1 = 0 /\ xy 5 eo_A eo_y 1 = 8 / 15 /\ xy 5 eo_A eo_y 2 = 4 / 15.
Proof. unfold eo_C, xy. rewrite INR5. unfold eo_A, eo_y. repeat split; cbn; lra. Qed.

Example C76_example :
  (exists b, coefficients (LassoCrdDesc Empirical_Get eo_nd (XFin (1 / 3)) None 10 (XFin (1 / 1000)) PureLasso) = Ok (map XFin b) /\
     minimiser_without_bias 3 (objective 5 3 eo_A eo_y eo_C (1 / 3)) b /\ exists j, (1 <= j < 3)%nat /\ nth j b 0 <> 0) /\
  coefficients (LassoCrdDesc Empirical_Get eo_nd (XFin 1) None 100000 (XFin (1 / 1000)) PureLasso) = Ok (map XFin [0; 0; 0]) /\
  converged (LassoCrdDesc Empirical_Get eo_nd (XFin 1) None 100000 (XFin (1 / 1000)) PureLasso) = Ok false.
Proof.
  destruct eo_values as (E1 & E2 & E3 & E4 & E5 & E6).
  assert (Hd : forall j, (1 <= j < 3)%nat -> 0 < eo_C j j) by (intros j Hj; destruct j as [|[|[|j]]]; [lia| | |lia]; lra).
  split; [|split].
  - destruct (C76_uncorrelated Empirical_Get eo_nd 5 3 eo_A eo_y eo_C (1 / 3) (1 / 1000) None 10 eo_data eo_sym) as (b & B1 & B2 & _); auto; try lra; try lia.
    { intros i j Hi Hj Hne. destruct i as [|[|[|i]]]; try lia; destruct j as [|[|[|j]]]; try lia; assumption. }
    exists b. split; [exact B1|]. split; [exact B2|].
    apply (C76_small_penalty Empirical_Get eo_nd 5 3 eo_A eo_y eo_C (1 / 3) (1 / 1000) None 10 b eo_data eo_sym Hd); auto; try lra; try lia.
    exists 1%nat. split; [lia|]. rewrite E5, Rabs_right by lra. lra.
  - destruct (C76_large_penalty Empirical_Get eo_nd 5 3 eo_A eo_y eo_C 1 (1 / 1000) None 100000 eo_data eo_sym Hd) as (H & _); auto; try lra; try lia.
    intros j Hj. destruct j as [|[|[|j]]]; [lia| | |lia]; [rewrite E5|rewrite E6]; rewrite Rabs_right by lra; lra.
  - destruct (C76_large_penalty Empirical_Get eo_nd 5 3 eo_A eo_y eo_C 1 (1 / 1000) None 100000 eo_data eo_sym Hd) as (_ & H & _); auto; try lra; try lia.
    intros j Hj. destruct j as [|[|[|j]]]; [lia| | |lia]; [rewrite E5|rewrite E6]; rewrite Rabs_right by lra; lra.
Qed.

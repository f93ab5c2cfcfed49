(** Coordinate descent with the elastic net correction, exact arithmetic. *)
From Coq Require Import Reals Lra Psatz.
From Verif Require Import Base Num Mat Model_Node Model_Util Model_Fit Model_Norm Model_Cov Model_Crd
  Proof_Node Proof_Util RSum Proof_XR Proof_Norm Proof_Fit Proof_Crd Proof_Crd2 Proof_Crd3.
Local Open Scope R_scope.

(** the matrix with L added to the diagonal: the elastic net is the lasso of it *)
Definition ridge (C : nat -> nat -> R) (L : R) (i j : nat) : R := C i j + (if (i =? j)%nat then L else 0).

Lemma mv_ridge : forall n C L b j, (j < n)%nat -> mv n (ridge C L) b j = mv n C b j + L * b j.
Proof.
  intros n C L b j Hj. unfold mv, ridge.
  rewrite (rsum_ext n _ (fun k => C j k * b k + (L * b k) * delta k j)).
  - rewrite rsum_plus, rsum_delta_r by exact Hj. reflexivity.
  - intros k Hk. unfold delta. rewrite (Nat.eqb_sym j k). destruct (k =? j)%nat; ring.
Qed.

Lemma obj_ridge : forall n C q lamb L b,
  obj n (ridge C L) q lamb b = obj n C q lamb b + L * rsum n (fun j => Rsqr (b j)) / 2.
Proof.
  intros n C q lamb L b. unfold obj.
  assert (E : dot n b (mv n (ridge C L) b) = dot n b (mv n C b) + L * rsum n (fun j => Rsqr (b j))).
  { unfold dot. rewrite (rsum_ext n _ (fun j => b j * mv n C b j + L * Rsqr (b j))).
    - rewrite rsum_plus, rsum_scal. reflexivity.
    - intros j Hj. rewrite mv_ridge by exact Hj. unfold Rsqr. ring. }
  rewrite E. lra.
Qed.

Section Enet.
  Variable n : nat.
  Variable C : nat -> nat -> R.
  Variable q : nat -> R.
  Variables lamb tol L : R.
  Hypothesis Hn : (0 < n)%nat.
  Hypothesis Hsym : forall i j, (i < n)%nat -> (j < n)%nat -> C i j = C j i.
  Hypothesis Hdiag : forall j, (1 <= j < n)%nat -> 0 < C j j.
  Hypothesis Hl : 0 <= lamb.
  Variable nr : nat.
  Variable cov : Mat XR.
  Hypothesis Hnr : (0 < nr)%nat.
  Hypothesis Hrows : mrows cov = n.
  Hypothesis Hcols : mcols cov = n.
  Hypothesis Hcov : rmat cov C.
  Notation XTy := (vec n (fun j => INR nr * q j)).
  Notation EN := (ElasticNet (N := XR) (fin L)).
  Notation eobj := (obj n (ridge C L) q lamb).

  Definition newc (b : nat -> R) (j : nat) : R := soft (q j - (mv n C b j - b j * C j j) - L * b j) lamb / C j j.

  Lemma coord_enet : forall b betaOld j, (j < n)%nat -> C j j <> 0 -> length betaOld = n -> nth j betaOld n0 = fin (b j) ->
    crd_coord nr cov XTy betaOld (fin lamb : XR) EN j (vec n (mv n C b), vec n b) =
    Ok (vec n (mv n C (setf b j (newc b j))), vec n (setf b j (newc b j))).
  Proof.
    intros b betaOld j Hj Hc Ho Eo.
    destruct (coord_ok XR n nr cov XTy betaOld (fin lamb) EN j (vec n (mv n C b)) (vec n b))
      as (d & cdb' & Ed & E & A & B); auto; try (apply vec_length); try exact I.
    assert (d = fin (L * b j)).
    { cbn [Deriv] in Ed. rewrite getz_nat, (getn_lt _ betaOld j n0), Eo in Ed by lia. cbn [bind] in Ed.
      rewrite xmul_fin in Ed. congruence. }
    subst d.
    assert (Hr : INR nr <> 0) by (apply not_0_INR; lia).
    assert (En : new_coeff XR nr cov XTy betaOld (vec n (mv n C b)) (fin lamb) (fin (L * b j)) j = fin (newc b j)).
    { unfold new_coeff. rewrite !vec_nth by exact Hj. rewrite Eo.
      rewrite (Hcov j j) by lia. rewrite nofnat_fin, xdiv_fin by exact Hr.
      rewrite xmul_fin, !xsub_fin. rewrite soft_fin by exact Hl. rewrite xdiv_fin by exact Hc.
      unfold newc. f_equal. f_equal. f_equal. field. exact Hr. }
    rewrite En in E, B. rewrite E. rewrite upd_vec by exact Hj. f_equal. f_equal.
    apply vec_eq; [exact A|]. intros i Hi. rewrite B by exact Hi. rewrite vec_nth by exact Hi.
    rewrite (Hcov i j) by lia. rewrite Eo, xsub_fin, xmul_fin, xadd_fin. rewrite mv_setf by exact Hj. reflexivity.
  Qed.

  Lemma ecoord_decrease : forall b j, (j < n)%nat -> 0 < C j j ->
    eobj (setf b j (newc b j)) + (C j j - L) * Rsqr (newc b j - b j) / 2 <= eobj b.
  Proof.
    intros b j Hj Hc. rewrite !obj_ridge. rewrite (obj_setf n C q lamb Hsym) by exact Hj.
    rewrite (rsum_setf n (fun _ x => Rsqr x)) by exact Hj.
    pose proof (coord_min lamb Hl (C j j) (q j - (mv n C b j - b j * C j j) - L * b j) (b j) Hc) as H. cbv zeta in H.
    fold (newc b j) in H. set (u := newc b j) in *. clearbody u.
    set (s := rsum n (fun i => Rsqr (b i))). set (o := obj n C q lamb b). clearbody s o.
    unfold Rsqr in *. nra.
  Qed.

  (** the derivative of the correction is taken at the old coefficient *)
  Lemma ecoord_kkt : forall b j, (j < n)%nat -> 0 < C j j ->
    kkt n (ridge C L) q lamb (Rabs L * Rabs (newc b j - b j)) (setf b j (newc b j)) j.
  Proof.
    intros b j Hj Hc. unfold kkt. rewrite mv_ridge, mv_setf by exact Hj. unfold setf. rewrite Nat.eqb_refl.
    set (z := q j - (mv n C b j - b j * C j j) - L * b j). unfold newc. fold z. set (u := soft z lamb / C j j).
    assert (Eu : C j j * u = soft z lamb) by (unfold u; field; lra).
    replace (q j - (mv n C b j + C j j * (u - b j) + L * u)) with (z - C j j * u - L * (u - b j)) by (unfold z; ring).
    assert (K : Rabs (z - C j j * u) <= lamb /\ lamb * Rabs u = (z - C j j * u) * u).
    { unfold soft in Eu. destruct (Rlt_dec z (- lamb)) as [H|H]; [|destruct (Rlt_dec lamb z) as [H'|H']].
      - assert (Hu : u < 0) by nra. rewrite Eu. rewrite (Rabs_left u) by lra. rewrite Rabs_left1 by lra. split; lra.
      - assert (Hu : 0 < u) by nra. rewrite Eu. rewrite (Rabs_right u) by lra. rewrite Rabs_right by lra. split; lra.
      - assert (Hu : u = 0) by nra. rewrite Hu, Rabs_R0. split; [|lra].
        rewrite Rmult_0_r, Rminus_0_r. apply Rabs_le. lra. }
    destruct K as [K1 K2]. rewrite <- Rabs_mult. set (w := L * (u - b j)). split.
    - apply Rle_trans with (Rabs (z - C j j * u) + Rabs (- w)); [apply Rabs_triang|]. rewrite Rabs_Ropp. lra.
    - assert (w * u <= Rabs w * Rabs u) by (rewrite <- Rabs_mult; apply Rle_abs). nra.
  Qed.

  Lemma ekkt_perturb : forall b b' j d e, (j < n)%nat -> b' j = b j -> (forall i, (i < n)%nat -> Rabs (b' i - b i) <= d) ->
    kkt n (ridge C L) q lamb e b j -> kkt n (ridge C L) q lamb (e + d * rsum n (fun i => Rabs (C j i))) b' j.
  Proof.
    intros b b' j d e Hj E Hd [K1 K2]. unfold kkt. cbv zeta in *. rewrite mv_ridge in * by exact Hj. rewrite E.
    set (g := q j - (mv n C b j + L * b j)) in *. set (g' := q j - (mv n C b' j + L * b j)).
    assert (Hg : Rabs (g' - g) <= d * rsum n (fun i => Rabs (C j i))).
    { replace (g' - g) with (- (mv n C b' j - mv n C b j)) by (unfold g, g'; ring). rewrite Rabs_Ropp.
      rewrite <- mv_minus. unfold mv. clear - Hd.
      assert (T : forall m, (m <= n)%nat -> Rabs (rsum m (fun k => C j k * (b' k - b k))) <= d * rsum m (fun i => Rabs (C j i))).
      { induction m as [|m IH]; intro Hm; cbn [rsum].
        - rewrite Rabs_R0. lra.
        - apply Rle_trans with (Rabs (rsum m (fun k => C j k * (b' k - b k))) + Rabs (C j m * (b' m - b m))); [apply Rabs_triang|].
          rewrite Rabs_mult. specialize (IH ltac:(lia)).
          assert (Rabs (C j m) * Rabs (b' m - b m) <= Rabs (C j m) * d).
          { apply Rmult_le_compat_l; [apply Rabs_pos|]. apply Hd. lia. }
          lra. }
      apply T. lia. }
    set (s := d * rsum n (fun i => Rabs (C j i))) in *. split.
    - apply Rle_trans with (Rabs g + Rabs (g' - g)).
      + replace g' with (g + (g' - g)) at 1 by ring. apply Rabs_triang.
      + lra.
    - assert (- ((g' - g) * b j) <= s * Rabs (b j)).
      { apply Rle_trans with (Rabs ((g' - g) * b j)); [rewrite <- Rabs_Ropp; apply Rle_abs|].
        rewrite Rabs_mult. apply Rmult_le_compat_r; [apply Rabs_pos|exact Hg]. }
      nra.
  Qed.

  Definition uncorr : Prop := forall i j, (1 <= i < n)%nat -> (1 <= j < n)%nat -> i <> j -> C i j = 0.
  (** one pass for one feature without correlations *)
  Definition soloc (j : nat) (x : R) : R := soft (q j - L * x) lamb / C j j.

  Lemma newc_solo : forall b j, uncorr -> b 0%nat = 0 -> (1 <= j < n)%nat -> newc b j = soloc j (b j).
  Proof.
    intros b j Hu B0 Hj. unfold newc, soloc. f_equal. f_equal.
    assert (E : mv n C b j = b j * C j j).
    { unfold mv. rewrite (rsum_single n _ j); [ring|lia|]. intros i Hi Hne.
      destruct i as [|i]; [rewrite B0; ring|]. rewrite (Hu j (S i)) by lia. ring. }
    rewrite E. ring.
  Qed.

  Definition emoved (iter : list nat) (b b' : nat -> R) : R :=
    lsum (map (fun j => (C j j - L) * Rsqr (b' j - b j) / 2) iter).

  Lemma sweep_enet : forall iter b betaOld, NoDup iter -> (forall j, In j iter -> (1 <= j < n)%nat) ->
    length betaOld = n -> (forall j, In j iter -> nth j betaOld n0 = fin (b j)) ->
    exists b', for_each iter (crd_coord nr cov XTy betaOld (fin lamb : XR) EN) (vec n (mv n C b), vec n b)
      = Ok (vec n (mv n C b'), vec n b') /\
      (forall j, ~ In j iter -> b' j = b j) /\
      eobj b' + emoved iter b b' <= eobj b /\
      (forall d, 0 <= d -> (forall i, In i iter -> Rabs (b' i - b i) <= d) ->
         forall j, In j iter -> kkt n (ridge C L) q lamb (d * (Rabs L + rsum n (fun i => Rabs (C j i)))) b' j) /\
      (uncorr -> b 0%nat = 0 -> forall j, In j iter -> b' j = soloc j (b j)).
  Proof.
    induction iter as [|j iter IH]; intros b betaOld Hnd Hin Hlen Hold.
    - exists b. cbn [for_each]. split; [reflexivity|]. split; [reflexivity|]. split; [|split].
      + unfold emoved. cbn [map]. rewrite lsum_nil. lra.
      + intros d _ _ j [].
      + intros _ _ j [].
    - pose proof (Hin j (or_introl eq_refl)) as Hj. assert (Hc := Hdiag j Hj). apply NoDup_cons_iff in Hnd. destruct Hnd as (Hni & Hnd').
      cbn [for_each]. rewrite (coord_enet b betaOld j) by (auto; try lia; try lra; apply Hold; left; reflexivity).
      cbn [bind]. pose proof (ecoord_decrease b j ltac:(lia) Hc) as Hd. pose proof (ecoord_kkt b j ltac:(lia) Hc) as Hk1.
      pose proof (newc_solo b j) as Hs1.
      set (u := newc b j) in *.
      destruct (IH (setf b j u) betaOld Hnd') as (b' & E & F & D & K & S).
      + intros k Hk. apply Hin. right. exact Hk.
      + exact Hlen.
      + intros k Hk. rewrite Hold by (right; exact Hk). unfold setf.
        destruct (Nat.eqb_spec k j); [subst; contradiction|reflexivity].
      + assert (Ej : b' j = u) by (rewrite F by exact Hni; unfold setf; rewrite Nat.eqb_refl; reflexivity).
        assert (Eo : forall k, k <> j -> setf b j u k = b k).
        { intros k Hk. unfold setf. destruct (Nat.eqb_spec k j); [contradiction|reflexivity]. }
        exists b'. split; [exact E|]. split; [|split; [|split]].
        * intros k Hk. rewrite F by (intro; apply Hk; right; assumption). apply Eo.
          intro; subst; apply Hk; left; reflexivity.
        * unfold emoved in *. cbn [map]. rewrite lsum_cons, Ej.
          rewrite (map_ext_in _ (fun j0 => (C j0 j0 - L) * Rsqr (b' j0 - setf b j u j0) / 2)).
          -- lra.
          -- intros k Hk. rewrite Eo; [reflexivity|]. intro; subst; contradiction.
        * intros d Hd0 Hdd k [<-|Hk].
          -- assert (K0 : kkt n (ridge C L) q lamb (Rabs L * d) (setf b j u) j).
             { destruct Hk1 as [X1 X2]. assert (Hle : Rabs L * Rabs (u - b j) <= Rabs L * d).
               { apply Rmult_le_compat_l; [apply Rabs_pos|]. rewrite <- Ej. apply Hdd. left. reflexivity. }
               split; cbv zeta in *; [lra|]. eapply Rle_trans; [exact X2|]. apply Rmult_le_compat_r; [apply Rabs_pos|exact Hle]. }
             apply (ekkt_perturb (setf b j u) b' j d) in K0.
             ++ replace (d * (Rabs L + rsum n (fun i => Rabs (C j i)))) with (Rabs L * d + d * rsum n (fun i => Rabs (C j i))) by ring. exact K0.
             ++ lia.
             ++ rewrite Ej. unfold setf. rewrite Nat.eqb_refl. reflexivity.
             ++ intros i Hi. destruct (in_dec Nat.eq_dec i iter) as [Hii|Hii].
                ** rewrite Eo by (intro; subst; contradiction). apply Hdd. right. exact Hii.
                ** rewrite F by exact Hii. rewrite Rminus_eq_0, Rabs_R0. exact Hd0.
          -- apply K; [exact Hd0| |exact Hk]. intros i Hi. rewrite Eo by (intro; subst; contradiction).
             apply Hdd. right. exact Hi.
        * intros Hu B0 k [<-|Hk]; [rewrite Ej; apply Hs1; auto|].
          rewrite S; [|exact Hu|rewrite Eo by lia; exact B0|exact Hk]. rewrite Eo by (intro; subst; contradiction). reflexivity.
  Qed.

  Record EInv (st : Crd XR) (b : nat -> R) : Prop := mkEInv {
    ei_g : GInv XR n st;
    ei_beta : crBeta st = vec n b;
    ei_cdb : crCdb st = vec n (mv n C b);
    ei_corr : crCorr st = EN;
    ei_zero : b 0%nat = 0;
    ei_out : forall j, (n <= j)%nat -> b j = 0
  }.

  Definition estep (b b' : nat -> R) : Prop :=
    eobj b' + rsum n (fun j => (C j j - L) * Rsqr (b' j - b j)) / 2 <= eobj b.

  Lemma iter_enet : forall st b, EInv st b ->
    exists st' b', crd_iter nr cov XTy (fin lamb : XR) (fin tol : XR) st = Ok st' /\ EInv st' b' /\ estep b b' /\
      crIter st' = filter (active XR (vec n b')) (crIter st) /\
      (forall j, ~ In j (crIter st) -> b' j = b j) /\
      (crStop st' = true -> crConv st' = true) /\
      (crConv st' = true -> exists i, In i (crIter st) /\ b' i <> 0 /\
         (forall j, In j (crIter st) -> Rabs (b' j) <= Rabs (b' i)) /\
         (forall j, In j (crIter st) -> Rabs (b' j - b j) < tol * Rabs (b' i)) /\
         forall j, In j (crIter st) -> kkt n (ridge C L) q lamb (tol * Rabs (b' i) * (Rabs L + rsum n (fun i => Rabs (C j i)))) b' j) /\
      (uncorr -> forall j, In j (crIter st) -> b' j = soloc j (b j)).
  Proof.
    intros st b RI. pose proof (ei_g _ _ RI) as G.
    assert (Hsh : shapes XR n cov XTy) by (repeat split; auto; apply vec_length).
    destruct (iter_ok XR n nr cov XTy (fin lamb : XR) (fin tol : XR) st Hsh G)
      as (st' & mc & mx & E & G' & Es & Ei & Ef & Ec & Ech & Ecv & Est).
    rewrite (ei_corr _ _ RI), (ei_beta _ _ RI), (ei_cdb _ _ RI) in Es.
    destruct (sweep_enet (crIter st) b (vec n b)) as (b' & Es' & F & D & K & S).
    { exact (gi_nodup _ _ _ G). } { exact (gi_iter _ _ _ G). } { apply vec_length. }
    { intros j Hj. apply (gi_iter _ _ _ G) in Hj. apply vec_nth. lia. }
    assert (Ecd : crCdb st' = vec n (mv n C b') /\ crBeta st' = vec n b').
    { pose proof (eq_trans (eq_sym Es) Es') as Eq. injection Eq as E1 E2. split; assumption. }
    destruct Ecd as [Ecd Eb].
    exists st', b'. split; [exact E|]. split; [|split; [|split; [|split; [|split; [|split]]]]].
    - constructor; auto.
      + rewrite Ec, (ei_corr _ _ RI). reflexivity.
      + rewrite F by (intro Hin; apply (gi_iter _ _ _ G) in Hin; lia). apply (ei_zero _ _ RI).
      + intros j Hj. rewrite F by (intro Hin; apply (gi_iter _ _ _ G) in Hin; lia). apply (ei_out _ _ RI). exact Hj.
    - unfold estep. unfold emoved in D.
      rewrite (rsum_support n (crIter st) (fun j => (C j j - L) * Rsqr (b' j - b j))).
      + replace (lsum (map (fun j => (C j j - L) * Rsqr (b' j - b j) / 2) (crIter st))) with
          (lsum (map (fun j => (C j j - L) * Rsqr (b' j - b j)) (crIter st)) / 2) in D; [exact D|].
        unfold Rdiv. rewrite Rmult_comm, <- lsum_map_scal, map_map. f_equal. apply map_ext. intro. field.
      + exact (gi_nodup _ _ _ G).
      + intros j Hj. apply (gi_iter _ _ _ G) in Hj. lia.
      + intros j _ Hj. rewrite F by exact Hj. rewrite Rminus_eq_0. unfold Rsqr. ring.
    - rewrite Ei, Eb. reflexivity.
    - exact F.
    - exact Est.
    - intro Hcv. rewrite Eb, (ei_beta _ _ RI) in Ech.
      destruct (change_xr n (crIter st) b b') as (m & M & Ech' & Hm & HM & B1 & B2 & B3).
      { intros j Hj. apply (gi_iter _ _ _ G) in Hj. lia. }
      pose proof (eq_trans (eq_sym Ech) Ech') as Eq.
      assert (E1 : mc = fin m) by congruence. assert (E2 : mx = fin M) by congruence.
      rewrite E1, E2 in Ecv. rewrite Ecv in Hcv. apply conv_xr in Hcv; [|assumption|assumption].
      destruct Hcv as [HM0 Hlt]. destruct B3 as [B3|(i & Hi & B3)]; [lra|].
      exists i. split; [exact Hi|]. split; [|split; [|split]].
      + intro Hz. rewrite Hz, Rabs_R0 in B3. lra.
      + intros j Hj. rewrite <- B3. apply B2. exact Hj.
      + intros j Hj. specialize (B1 j Hj). rewrite <- B3. lra.
      + intros j Hj. rewrite <- B3. apply K; [lra| |exact Hj]. intros k Hk. specialize (B1 k Hk). lra.
    - intros Hu j Hj. apply S; [exact Hu|apply (ei_zero _ _ RI)|exact Hj].
  Qed.

  Lemma start_enet : exists st, crd_start cov n EN = Ok st /\ EInv st (fun _ => 0) /\ crStop st = false /\ crConv st = false /\
    crIter st = seq 1 (n - 1).
  Proof.
    destruct (start_ok XR n cov EN Hn Hrows Hcols I) as (st & E & G & A1 & A2 & A3 & A4 & A5 & A6).
    exists st. split; [exact E|]. split; [|auto].
    assert (Ez : repeat n0 n = vec n (fun _ => 0)).
    { apply vec_eq; [apply repeat_length|]. intros i Hi. rewrite nth_repeat. reflexivity. }
    constructor; auto.
    - rewrite A1. exact Ez.
    - rewrite Ez in A6. pose proof (mulslice_xr cov C (fun _ => 0) Hcov) as M. rewrite Hrows, Hcols in M.
      pose proof (eq_trans (eq_sym A6) M) as Eq. congruence.
  Qed.

  Lemma loop_enet : forall k st b, EInv st b -> crStop st = false ->
    exists st' b', crd_loop nr cov XTy (fin lamb : XR) (fin tol : XR) k st = Ok st' /\ EInv st' b'.
  Proof.
    induction k as [|k IH]; intros st b RI Hs; [exists st, b; auto|].
    cbn [crd_loop]. destruct (iter_enet st b RI) as (st1 & b1 & E & RI1 & _). rewrite E. cbn [bind].
    destruct (crStop st1) eqn:Es; [exists st1, b1; auto|]. apply IH with b1; assumption.
  Qed.

  Lemma run_enet : forall k, exists st st' b b',
    crd_start cov n EN = Ok st /\
    (do s <- crd_start cov n EN; crd_loop nr cov XTy (fin lamb : XR) (fin tol : XR) k s) = Ok st' /\
    EInv st' b /\
    exists st'', (do s <- crd_start cov n EN; crd_loop nr cov XTy (fin lamb : XR) (fin tol : XR) (S k) s) = Ok st'' /\
    EInv st'' b' /\ estep b b'.
  Proof.
    intro k. destruct start_enet as (st & E & RI & Hs & _). rewrite E. cbn [bind].
    destruct (loop_enet k st _ RI Hs) as (st' & b & E' & RI').
    exists st, st', b.
    destruct (crStop st') eqn:Es.
    - exists b. split; [reflexivity|]. split; [exact E'|]. split; [exact RI'|].
      exists st'. rewrite <- (Nat.add_1_r k), loop_split, Hs, E'. cbn [bind]. rewrite Es.
      split; [reflexivity|]. split; [exact RI'|].
      unfold estep. rewrite rsum_0'; [lra|]. intros. rewrite Rminus_eq_0. unfold Rsqr. ring.
    - destruct (iter_enet st' b RI') as (st'' & b' & E'' & RI'' & Hst & _).
      exists b'. split; [reflexivity|]. split; [exact E'|]. split; [exact RI'|].
      exists st''. rewrite <- (Nat.add_1_r k), loop_split, Hs, E'. cbn [bind]. rewrite Es. cbn [crd_loop].
      rewrite E''. cbn [bind]. split; [|auto]. destruct (crStop st''); reflexivity.
  Qed.

  Lemma conv_enet : forall k st,
    (do s <- crd_start cov n EN; crd_loop nr cov XTy (fin lamb : XR) (fin tol : XR) k s) = Ok st ->
    exists b, EInv st b /\ (crConv st = true -> exists i, (1 <= i < n)%nat /\ b i <> 0 /\
      forall j, (1 <= j < n)%nat -> active XR (vec n b) j = true ->
        kkt n (ridge C L) q lamb (tol * Rabs (b i) * (Rabs L + rsum n (fun i => Rabs (C j i)))) b j).
  Proof.
    intros k st. destruct start_enet as (st0 & E & RI & Hs & Hcv & _). rewrite E. cbn [bind].
    set (P := fun (s : Crd XR) (b : nat -> R) => EInv s b /\ (crConv s = true -> exists i, (1 <= i < n)%nat /\ b i <> 0 /\
      forall j, (1 <= j < n)%nat -> active XR (vec n b) j = true ->
        kkt n (ridge C L) q lamb (tol * Rabs (b i) * (Rabs L + rsum n (fun i => Rabs (C j i)))) b j)).
    assert (G : forall k st0 b, P st0 b -> crStop st0 = false ->
      crd_loop nr cov XTy (fin lamb : XR) (fin tol : XR) k st0 = Ok st -> exists b, P st b).
    { clear st0 E RI Hs Hcv k. induction k as [|k IH]; intros st0 b [RI H] Hs E.
      - cbn [crd_loop] in E. injection E as <-. exists b. split; auto.
      - cbn [crd_loop] in E. destruct (iter_enet st0 b RI) as (st1 & b1 & E1 & RI1 & _ & Ei & _ & _ & K & _). rewrite E1 in E. cbn [bind] in E.
        assert (K' : P st1 b1).
        { split; [exact RI1|]. intro Hc. destruct (K Hc) as (i & Hi & Hb & _ & _ & Hk). exists i.
          split; [apply (gi_iter _ _ _ (ei_g _ _ RI)); exact Hi|]. split; [exact Hb|].
          intros j Hj Ha. apply Hk. rewrite <- (ei_beta _ _ RI1) in Ha.
          pose proof (gi_cover _ _ _ (ei_g _ _ RI1) j Hj Ha) as Hin. rewrite Ei in Hin. apply filter_In in Hin. apply Hin. }
        destruct (crStop st1) eqn:Es.
        + injection E as <-. exists b1. exact K'.
        + apply (IH st1 b1 K' Es E). }
    intro Er. apply (G k st0 (fun _ => 0)) in Er; [exact Er| |exact Hs]. split; [exact RI|]. rewrite Hcv. discriminate.
  Qed.

  (** ** without correlations every feature goes its own way *)
  Fixpoint solo (j k : nat) : R :=
    match k with
    | O => 0
    | S O => soloc j 0
    | S m => if Rlt_dec (/ 10 ^ 16) (Rabs (solo j m)) then soloc j (solo j m) else solo j m
    end.

  Definition live (j m : nat) : Prop := m = 0%nat \/ / 10 ^ 16 < Rabs (solo j m).

  Lemma solo_S : forall j m, live j m -> solo j (S m) = soloc j (solo j m).
  Proof.
    intros j [|m] [H|H]; try reflexivity; try discriminate.
    change (solo j (S (S m))) with (if Rlt_dec (/ 10 ^ 16) (Rabs (solo j (S m))) then soloc j (solo j (S m)) else solo j (S m)).
      destruct (Rlt_dec _ _); [reflexivity|contradiction].
  Qed.
  Lemma solo_dead : forall j m, ~ live j m -> solo j (S m) = solo j m.
  Proof.
    intros j [|m] H; [exfalso; apply H; left; reflexivity|].
    change (solo j (S (S m))) with (if Rlt_dec (/ 10 ^ 16) (Rabs (solo j (S m))) then soloc j (solo j (S m)) else solo j (S m)).
    destruct (Rlt_dec _ _); [exfalso; apply H; right; assumption|reflexivity].
  Qed.

  (** the state after m passes *)
  Record SInv (m : nat) (st : Crd XR) (b : nat -> R) : Prop := mkSInv {
    si_e : EInv st b;
    si_b : forall j, (1 <= j < n)%nat -> b j = solo j m;
    si_i : forall j, (1 <= j < n)%nat -> (In j (crIter st) <-> live j m);
    si_c : crConv st = true -> (1 <= m)%nat /\ exists i, (1 <= i < n)%nat /\ solo i m <> 0 /\
      forall j, (1 <= j < n)%nat -> Rabs (solo j m - solo j (m - 1)) < tol * Rabs (solo i m);
    si_s : crStop st = true -> crConv st = true
  }.

  Lemma active_live : forall j m b, (1 <= j < n)%nat -> b j = solo j (S m) -> (active XR (vec n b) j = true <-> live j (S m)).
  Proof.
    intros j m b Hj E. unfold active, lassoCrdDescZero, live. rewrite vec_nth, xabs_fin by lia.
    replace (ndec (n := XR) 1 (-16)) with (fin (/ 10 ^ 16)) by (cbn; unfold xdec; cbn; unfold fin; f_equal; lra).
    change (Rltb (/ 10 ^ 16) (Rabs (b j)) = true <-> S m = 0%nat \/ / 10 ^ 16 < Rabs (solo j (S m))).
    rewrite Rltb_true, E. split; [right; assumption|]. intros [H|H]; [discriminate|exact H].
  Qed.

  Lemma iter_solo : forall m st b, uncorr -> SInv m st b ->
    exists st' b', crd_iter nr cov XTy (fin lamb : XR) (fin tol : XR) st = Ok st' /\ SInv (S m) st' b'.
  Proof.
    intros m st b Hu [RI Hb Hi _ _].
    destruct (iter_enet st b RI) as (st' & b' & E & RI' & _ & Ei & F & Est & Cv & S).
    assert (Hlive : forall j, live j m \/ ~ live j m).
    { intro j. unfold live. destruct (Nat.eq_dec m 0); [left; left; assumption|]. destruct (Rlt_dec (/ 10 ^ 16) (Rabs (solo j m))); [left; right; assumption|right; tauto]. }
    assert (Hb' : forall j, (1 <= j < n)%nat -> b' j = solo j (Datatypes.S m)).
    { intros j Hj. destruct (Hlive j) as [Hv|Hv].
      - rewrite solo_S by exact Hv. rewrite S; [|exact Hu|apply Hi; assumption]. rewrite Hb by exact Hj. reflexivity.
      - rewrite solo_dead by exact Hv. rewrite F by (rewrite Hi by exact Hj; exact Hv). apply Hb. exact Hj. }
    exists st', b'. split; [exact E|]. constructor; auto.
    - intros j Hj. rewrite Ei, filter_In, Hi by exact Hj. rewrite (active_live j m b' Hj (Hb' j Hj)). split; [tauto|]. intro H. split; [|exact H].
      destruct (Hlive j) as [Hv|Hv]; [exact Hv|]. exfalso. destruct H as [H|H]; [discriminate|]. rewrite solo_dead in H by exact Hv.
      apply Hv. right. exact H.
    - intro Hc. split; [lia|]. destruct (Cv Hc) as (i & Hin & Hne & _ & Hch & _).
      pose proof (gi_iter _ _ _ (ei_g _ _ RI) i Hin) as Hir. exists i. split; [exact Hir|]. rewrite <- Hb' by exact Hir. split; [exact Hne|].
      intros j Hj. cbn [Nat.sub]. rewrite Nat.sub_0_r. rewrite <- Hb', <- Hb by exact Hj.
      destruct (in_dec Nat.eq_dec j (crIter st)) as [Hjin|Hjin]; [apply Hch; exact Hjin|].
      rewrite F by exact Hjin. rewrite Rminus_eq_0, Rabs_R0. specialize (Hch i Hin).
      apply Rle_lt_trans with (2 := Hch). apply Rabs_pos.
  Qed.

  Lemma run_solo : forall k, uncorr -> exists m st b,
    (do s <- crd_start cov n EN; crd_loop nr cov XTy (fin lamb : XR) (fin tol : XR) k s) = Ok st /\
    SInv m st b /\ (m <= k)%nat /\ (m = k \/ crConv st = true).
  Proof.
    intros k Hu. destruct start_enet as (st0 & E & RI & Hs & Hcv & A2). rewrite E. cbn [bind].
    assert (I0 : SInv 0 st0 (fun _ => 0)).
    { constructor; auto.
      - intros j Hj. rewrite A2. split; [intros _; left; reflexivity|]. intros _. apply in_seq. lia.
      - rewrite Hcv. discriminate.
      - rewrite Hs. discriminate. }
    assert (G : forall k m st b, SInv m st b -> crStop st = false ->
      exists m' st' b', crd_loop nr cov XTy (fin lamb : XR) (fin tol : XR) k st = Ok st' /\ SInv m' st' b' /\ (m' <= m + k)%nat /\
        (m' = (m + k)%nat \/ crConv st' = true)).
    { clear - Hn Hsym Hdiag Hl Hnr Hrows Hcols Hcov Hu. induction k as [|k IH]; intros m st b I Hs.
      - exists m, st, b. split; [reflexivity|]. split; [exact I|]. split; [lia|left; lia].
      - cbn [crd_loop]. destruct (iter_solo m st b Hu I) as (st1 & b1 & E1 & I1). rewrite E1. cbn [bind].
        destruct (crStop st1) eqn:Es.
        + exists (S m), st1, b1. split; [reflexivity|]. split; [exact I1|]. split; [lia|]. right. apply (si_s _ _ _ I1). exact Es.
        + destruct (IH (S m) st1 b1 I1 Es) as (m' & st' & b' & E' & I' & H1 & H2). exists m', st', b'.
          split; [exact E'|]. split; [exact I'|]. split; [lia|]. destruct H2 as [H2|H2]; [left; lia|right; exact H2]. }
    destruct (G k 0%nat st0 _ I0 Hs) as (m & st & b & E' & I & H1 & H2). exists m, st, b. auto.
  Qed.
End Enet.

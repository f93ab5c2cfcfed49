(** C14/C21 end to end in exact arithmetic: SelectModel with the scores and
    bounds the code computes (Model_Fit.v), and BruteForceSelect. *)
From Coq Require Import Reals Lra Psatz Floats.SpecFloat.
From Verif Require Import Base Num Mat RSum Model_Node Model_Search Model_Fit Spec_Fit.
From Verif Require Import Proof_Node Proof_Node2 Proof_Models Proof_XR Proof_Norm Proof_Fit Proof_Fit2.
From Verif Require Import Proof_Search Proof_Search2 Proof_Search3 Proof_Search4 Proof_Search5.
From Verif Require Import Props_Search Props_Fit.
Open Scope R_scope.

Lemma xneg_xle : forall a b : XR, nltb (nneg a) (nneg b) = nltb b a.
Proof. intros a b. rewrite (ol_neg_lt XR_OrdLaws), (ol_negneg XR_OrdLaws). reflexivity. Qed.

Lemma xle_nlt : forall a b : XR, xle a b -> nltb b a = false.
Proof.
  intros a b H. unfold xle in H. cbn in *. unfold xleb in H.
  apply andb_true_iff in H. destruct H as (_ & H). apply Bool.negb_true_iff in H. exact H.
Qed.

Lemma xeq : forall a b : XR, nisnan a = false -> nisnan b = false -> nltb a b = false -> nltb b a = false -> a = b.
Proof.
  intros [| | |a] [| | |b]; cbn; try discriminate; auto. intros _ _ H1 H2.
  apply Rltb_false in H1. apply Rltb_false in H2. f_equal. lra.
Qed.

Lemma xle_nan : forall a b : XR, nleb a b = true -> nisnan a = false.
Proof.
  intros a b H. cbn in *. unfold xleb in H. apply andb_true_iff in H. destruct H as (H & _).
  apply andb_true_iff in H. destruct H as (H & _). apply Bool.negb_true_iff in H. exact H.
Qed.

Lemma e100 : nneg (ndec (n := XR) (-1) 100) = fin (IZR (10 ^ 100)).
Proof.
  assert (G : forall z, xneg (XFin (IZR (-1 * z))) = XFin (IZR z)).
  { intro z. unfold xneg. rewrite <- opp_IZR. replace (- (-1 * z))%Z with z by lia. reflexivity. }
  exact (G (10 ^ 100)%Z).
Qed.

Lemma pos100 : 0 <= IZR (10 ^ 100).
Proof. apply IZR_le. apply Z.leb_le. vm_compute. reflexivity. Qed.
Lemma posmax : 0 <= IZR ((2 ^ 53 - 1) * 2 ^ 971).
Proof. apply IZR_le. apply Z.leb_le. vm_compute. reflexivity. Qed.

Section E2E.
  Variables (svd : Mat XR -> SVD XR) (X : Mat XR) (A : nat -> nat -> R) (y : list R).
  Variables (fit : list bool -> list XR * XR) (bnd : list bool -> Z -> XR * XR).
  Hypothesis (HA : rmat X A) (Hy : length y = mrows X) (Hsvd : good_svd svd X).
  Hypothesis Hdim : (mcols X < mrows X)%nat.
  Hypothesis Hmax : lsum (map Rsqr y) <= IZR ((2 ^ 53 - 1) * 2 ^ 971).
  Hypothesis Hfit : forall m, length m = mcols X -> In true m -> fit_score svd X (fins y) m = Ok (fit m).
  Hypothesis Hbnd : forall m l, length m = mcols X -> (0 <= l <= Z.of_nat (mcols X))%Z -> In true m ->
    BoundsAICC svd m l X (fins y) = Ok (bnd m l).
  Hypothesis Hbig : forall m, length m = mcols X -> In true m ->
    snd (fit m) = XPInf \/ nleb (snd (fit m)) (XFin (IZR (10 ^ 100)) : XR) = true.

  Lemma Hr0 : (0 < mrows X)%nat. Proof. lia. Qed.

  Lemma score_crit : forall m, length m = mcols X -> In true m ->
    exists v, criterion svd Aicc X (fins y) m = Ok v /\ snd (fit m) = nneg v.
  Proof.
    intros m Hl Ht. pose proof (Hfit m Hl Ht) as E. unfold fit_score in E. unfold criterion.
    destruct (GetDesignMatrix m X) as [D| |]; try discriminate E. cbn [bind] in *.
    destruct (Fit svd D (fins y)) as [w| |]; try discriminate E. cbn [bind] in *.
    destruct (Rss D w (fins y)) as [r| |]; try discriminate E. cbn [bind] in *.
    injection E as <-. eexists. split; [reflexivity|]. cbn [snd]. rewrite fins_length, Hy. reflexivity.
  Qed.

  Lemma score_nonan : forall m, length m = mcols X -> In true m -> nisnan (snd (fit m)) = false.
  Proof.
    intros m Hl Ht. destruct (Hbig m Hl Ht) as [E|E]; [rewrite E; reflexivity|].
    exact (xle_nan _ _ E).
  Qed.

  (** the lower bound of a subtree is right about every model in it *)
  Lemma lower_ok : forall x l m, length x = mcols X -> (0 <= l <= Z.of_nat (mcols X))%Z -> In true x ->
    agree_upto (Z.to_nat l) x m -> In true m ->
    forall s : XR, nltb (nneg s) (fst (bnd x l)) = true -> nltb s (snd (fit m)) = false.
  Proof.
    intros x l m Hx Hl Hxt Hag Hm s Hs.
    assert (Lm : length m = mcols X) by (destruct Hag; lia).
    destruct (gcs_lcs_extremal x l ltac:(lia)) as (g & lc & Eg & El & (Lg & _) & _ & Hext).
    assert (Hgf : (0 < NumFeatures g < mrows X)%nat).
    { destruct (Hext m Hag) as (_ & _ & H). apply nonempty_nf in Hm.
      pose proof (NumFeatures_le_length g). lia. }
    destruct (C13_bounds_enclose svd X A y x l g HA Hr0 Hy Hsvd Hx ltac:(lia) Eg Hgf Hmax)
      as (_ & lo & up & Eb & H).
    rewrite (Hbnd x l Hx Hl Hxt) in Eb. injection Eb as Eb.
    destruct (H m Hag Hm) as (v & Ev & Hlo & _).
    destruct (score_crit m Lm Hm) as (v' & Ev' & Es). rewrite Ev in Ev'. injection Ev' as <-.
    rewrite Eb in Hs. cbn [fst] in Hs. rewrite Es.
    destruct (nltb s (nneg v)) eqn:Ec; auto. exfalso.
    assert (Hv : nltb v (nneg s) = true).
    { rewrite <- (ol_negneg XR_OrdLaws v), xneg_xle. exact Ec. }
    pose proof (ol_trans XR_OrdLaws _ _ _ Hv Hs) as Q. rewrite (xle_nlt lo v) in Q by exact Hlo. discriminate.
  Qed.

  Variables (maxq : Z) (cutoff : XR) (M : Z) (P : problem XR) (s0 s : st XR) (ls : list label) (k : nat).
  Hypothesis HM : (2 <= M)%Z.
  Hypothesis Hst : SelectModel_start (mrows X) (mcols X) fit bnd None maxq cutoff (NewHighscore M) = Ok (P, s0).
  Hypothesis Hq : (2 ^ Z.of_nat (mcols X) <= 2 * maxq)%Z.
  Hypothesis Hrun : run P s0 ls = Some (Ok s).
  Hypothesis Hend : sMain s = MClose k.

  Lemma e2e_all :
    (forall m, length m = mcols X -> In true m ->
       nltb (hsBestScore (sHs s)) (snd (fit m)) = false \/
       (gRaced s = true /\ nltb (n0 (N := XR)) (snd (fit m)) = false)) /\
    ((gRaced s = false \/ exists m, length m = mcols X /\ In true m /\ nltb (n0 (N := XR)) (snd (fit m)) = true) ->
      exists a, length a = mcols X /\ In true a /\ hsBestScore (sHs s) = snd (fit a)).
  Proof.
    destruct (start_inv _ _ _ _ _ _ _ _ _ _ _ Hst) as (E0 & E1 & E2 & E3 & E4 & E5 & E6 & E7 & E8).
    assert (Hc1 : (1 <= pCols P)%nat) by lia.
    pose proof (hinv_init XR M HM) as HI.
    assert (Hmx : hsMaxItems (NewHighscore (N := XR) M) <> 1%Z) by (rewrite (hi_max _ _ _ _ HI); lia).
    assert (R : reach XR P (init_st (NewHighscore M)) s).
    { rewrite E0 in Hrun.
      destruct (run_reach XR P Hc1 E7 ls _ (Ok s) (pinv_init XR P _ Hmx) Hrun) as (s' & Es & R).
      injection Es as <-. exact R. }
    assert (Hsc : forall x, (0 < NumFeatures x)%nat -> scoreOf XR P x = snd (fit x)).
    { intros x Hx. unfold scoreOf. rewrite E3. destruct (Nat.eqb_spec (NumFeatures x) 0); [lia|reflexivity]. }
    assert (Hnan : forall x, length x = pCols P -> nisnan (scoreOf XR P x) = false).
    { intros x Hx. destruct (Nat.eq_dec (NumFeatures x) 0) as [E|E].
      - unfold scoreOf. rewrite E. reflexivity.
      - rewrite Hsc by lia. apply score_nonan; [lia|]. apply nonempty_nf. lia. }
    assert (Hroot : forall m, In true m -> m <> pRoot P).
    { intros m Hm E. rewrite E, E8 in Hm. apply repeat_spec in Hm. discriminate. }
    assert (Hfeas : forall m l, length m = mcols X -> (l <= pCols P)%nat ->
      (NumFeatures (firstn l m ++ skipn l (pRoot P)) < pRows P)%nat).
    { intros m l Hm Hl. pose proof (NumFeatures_le_length (firstn l m ++ skipn l (pRoot P))) as Q.
      rewrite app_length, firstn_length, skipn_length in Q. lia. }
    assert (Hval : forall m, length m = mcols X -> In true m -> forall l, (1 <= l <= pCols P)%nat ->
      let x := firstn l m ++ skipn l (pRoot P) in
      (forall sc, (In sc (map ndScore (@nil (Node XR))) \/ (exists a, length a = pCols P /\ sc = scoreOf XR P a)) ->
        nltb (nneg sc) (lowerOf XR P x (Z.of_nat l)) = true -> nltb sc (scoreOf XR P m) = false) /\
      (nltb (nneg (n0 (N := XR))) (lowerOf XR P x (Z.of_nat l)) = true -> nltb (n0 (N := XR)) (scoreOf XR P m) = false)).
    { intros m Hml Hmt l Hl x. assert (Hnm : (0 < NumFeatures m)%nat) by (apply nonempty_nf; auto).
      rewrite (Hsc m Hnm).
      destruct (Nat.eq_dec (NumFeatures x) 0) as [Z0|Z0].
      - assert (Elow : lowerOf XR P x (Z.of_nat l) = ndec (-1) 100) by (unfold lowerOf; rewrite Z0; reflexivity).
        rewrite Elow. split.
        + intros sc [[]|(a & La & ->)] Hlt. rewrite (ol_neg_lt XR_OrdLaws), e100 in Hlt.
          destruct (Nat.eq_dec (NumFeatures a) 0) as [Ea|Ea].
          * exfalso. unfold scoreOf in Hlt. rewrite Ea in Hlt. cbn [Nat.eqb] in Hlt.
            cbn [nltb nneg nmaxf XR xneg xmaxf xltb] in Hlt. unfold fin, xltb in Hlt. apply Rltb_true in Hlt.
            pose proof pos100.
            pose proof posmax. lra.
          * rewrite Hsc in * by lia. assert (Ha : In true a) by (apply nonempty_nf; lia).
            destruct (Hbig a ltac:(lia) Ha) as [Q|Q].
            -- rewrite Q. destruct (snd (fit m)); reflexivity.
            -- apply xle_nlt in Q. change (XFin (IZR (10 ^ 100))) with (fin (IZR (10 ^ 100))) in Q. congruence.
        + intro Hlt. exfalso. rewrite (ol_neg_lt XR_OrdLaws), e100 in Hlt.
          cbn [nltb XR] in Hlt. unfold fin, n0, xltb in Hlt. cbn [nofZ XR] in Hlt. apply Rltb_true in Hlt.
          pose proof pos100. lra.
      - assert (Elow : lowerOf XR P x (Z.of_nat l) = fst (bnd x (Z.of_nat l))).
        { unfold lowerOf. rewrite E4. destruct (Nat.eqb_spec (NumFeatures x) 0); [lia|reflexivity]. }
        rewrite Elow.
        assert (Lx : length x = mcols X).
        { unfold x. rewrite app_length, firstn_length, skipn_length. lia. }
        assert (Hag : agree_upto (Z.to_nat (Z.of_nat l)) x m).
        { split; [lia|]. intros i Hi. rewrite Nat2Z.id in Hi. unfold x.
          rewrite app_nth1 by (rewrite firstn_length; lia). 
          rewrite <- (firstn_skipn l m) at 1. rewrite app_nth1 by (rewrite firstn_length; lia). reflexivity. }
        split; [intros sc _|]; apply (lower_ok x (Z.of_nat l) m); auto; try lia; apply nonempty_nf; lia. }
    assert (Htr : gTrimmed s = false).
    { apply (trimmed_false XR P Hc1 E7 (NewHighscore M) s Hmx); auto. rewrite E5, E2. exact Hq. }
    split.
    - intros m Hml Hmt. assert (Hnm : (0 < NumFeatures m)%nat) by (apply nonempty_nf; auto).
      rewrite <- (Hsc m Hnm).
      destruct (optimal XR P Hc1 E7 XR_OrdLaws M [] (NewHighscore M) HM HI (Forall_nil _) Hnan m ltac:(lia)
        (Hroot m Hmt) (fun l => Hfeas m l Hml) (Hval m Hml Hmt) s k R Hend) as [H|[(H & _ & H')|H]]; auto.
      congruence.
    - intros Hcase.
      assert (Hne : exists n, In n (gInserted s)).
      { assert (Hm0 : exists m, length m = mcols X /\ In true m /\
           (gRaced s = false \/ nltb (n0 (N := XR)) (snd (fit m)) = true)).
        { destruct Hcase as [H|(m & H1 & H2 & H3)]; [|exists m; auto].
          exists (repeat true (mcols X)). split; [apply repeat_length|]. split; auto.
          destruct (mcols X); [lia|]. left. reflexivity. }
        destruct Hm0 as (m & Hml & Hmt & Hor). assert (Hnm : (0 < NumFeatures m)%nat) by (apply nonempty_nf; auto).
        destruct (reach_cov XR P Hc1 E7 XR_OrdLaws M [] (NewHighscore M) HM HI Hnan m ltac:(lia)
          (Hroot m Hmt) (fun l => Hfeas m l Hml) (Hval m Hml Hmt) s R) as [H|D].
        - rewrite (tot_closed XR P Hc1 E7 m ltac:(lia) s k (reach_pinv XR P Hc1 E7 M [] (NewHighscore M) HM HI s R) Hend) in H.
          destruct (sumn_pos _ (is_m XR m) (gInserted s)) as (i & n & Hn & _); [lia|].
          exists n. eapply nth_error_In; eauto.
        - destruct D as [(n' & D1 & _)|[(D1 & _ & D2)|D]]; [exists n'; exact D1| |congruence].
          rewrite (Hsc m Hnm) in D2. destruct Hor; congruence. }
      destruct Hne as (n & Hn).
      pose proof (reach_hs XR P Hc1 E7 XR_OrdLaws M [] (NewHighscore M) HM HI Hnan s R) as HIs.
      unfold all_ins in HIs. cbn [app] in HIs.
      assert (Hne' : gInserted s <> []) by (intro E; rewrite E in Hn; destruct Hn).
      destruct (hinv_best XR XR_OrdLaws M _ _ HM HIs Hne') as ((n' & Hn' & Eb) & _).
      pose proof (i_ins _ _ s (reach_pinv XR P Hc1 E7 M [] (NewHighscore M) HM HI s R)) as HF.
      rewrite Forall_forall in HF. destruct (HF n' Hn') as (W & Wf & Ws & _).
      assert (Hnn : In true (ndModel n')).
      { destruct (w_flip _ _ _ (w_0 _ _ _ W) Wf) as (Hl & Hd).
        rewrite E8 in Hd. rewrite nth_repeat_false in Hd.
        destruct (nth (Z.to_nat (ndLevel n' - 1)) (ndModel n') false) eqn:Eb'; [|contradiction].
        rewrite <- Eb'. apply nth_In. destruct (Nat.ltb_spec (Z.to_nat (ndLevel n' - 1)) (length (ndModel n'))); auto.
        rewrite nth_overflow in Eb' by auto. discriminate. }
      exists (ndModel n'). split; [rewrite (w_len _ _ _ (w_0 _ _ _ W)); lia|]. split; auto.
      rewrite Eb, Ws. apply Hsc. apply nonempty_nf; auto.
  Qed.
End E2E.

(** [fit] and [bnd] are the values ScoreWorker and BoundsAICC compute from the
    data X, y.  Fewer columns than rows, exact decompositions, a queue limit of
    at least half the number of models, scores at most 1e100 (or infinite, for
    an exact fit), no root model given.  If no worker read the empty list at the
    critical moment, or some model has a positive score: SelectModel's best
    score is the one of BruteForceSelect, under every schedule. *)
Theorem C14_end_to_end : forall svd X A y fit bnd maxq cutoff M P s0 ls s k fuel hb,
  rmat X A -> length y = mrows X -> good_svd svd X -> (mcols X < mrows X)%nat ->
  lsum (map Rsqr y) <= IZR ((2 ^ 53 - 1) * 2 ^ 971) ->
  (forall m, length m = mcols X -> In true m -> fit_score svd X (fins y) m = Ok (fit m)) ->
  (forall m l, length m = mcols X -> (0 <= l <= Z.of_nat (mcols X))%Z -> In true m ->
     BoundsAICC svd m l X (fins y) = Ok (bnd m l)) ->
  (forall m, length m = mcols X -> In true m ->
     snd (fit m) = XPInf \/ nleb (snd (fit m)) (XFin (IZR (10 ^ 100)) : XR) = true) ->
  (2 <= M)%Z ->
  SelectModel_start (mrows X) (mcols X) fit bnd None maxq cutoff (NewHighscore M) = Ok (P, s0) ->
  (2 ^ Z.of_nat (mcols X) <= 2 * maxq)%Z ->
  run P s0 ls = Some (Ok s) -> sMain s = MClose k ->
  BruteForceSelect (mkProblem (mrows X) (mcols X) fit bnd (repeat false (mcols X)) maxq cutoff) fuel = Ok hb ->
  (gRaced s = false \/ exists m, length m = mcols X /\ In true m /\ nltb (XFin 0 : XR) (snd (fit m)) = true) ->
  hsBestScore (sHs s) = hsBestScore hb.
Proof.
  intros svd X A y fit bnd maxq cutoff M P s0 ls s k fuel hb HA Hy Hsvd Hdim Hmax Hfit Hbnd Hbig HM Hst Hq Hrun Hend Hbf Hcase.
  destruct (e2e_all svd X A y fit bnd HA Hy Hsvd Hdim Hmax Hfit Hbnd Hbig maxq cutoff M P s0 s ls k HM Hst Hq Hrun Hend)
    as (H1 & H2).
  destruct (H2 Hcase) as (a & La & Ta & Ea).
  destruct (start_inv _ _ _ _ _ _ _ _ _ _ _ Hst) as (_ & _ & E2 & _ & _ & _ & E6 & _).
  assert (Hnn : forall m, length m = mcols X -> (0 < NumFeatures m)%nat -> nisnan (snd (fit m)) = false).
  { intros m Lm Fm. apply (score_nonan X fit Hbig m Lm). apply nonempty_nf; auto. }
  assert (Hbest : (forall m, length m = mcols X -> (0 < NumFeatures m)%nat ->
      nltb (hsBestScore hb) (snd (fit m)) = false) /\
    exists m, length m = mcols X /\ (0 < NumFeatures m)%nat /\ hsBestScore hb = snd (fit m)).
  { set (Pb := mkProblem (mrows X) (mcols X) fit bnd (repeat false (mcols X)) maxq cutoff) in *.
    destruct (brute_all XR Pb XR_OrdLaws ltac:(cbn; lia) eq_refl Hnn (2 ^ S (mcols X) - 1 + fuel)%nat ltac:(cbn; lia))
      as (h & E & _ & _ & _ & _ & _ & _ & A7 & A8).
    (* more fuel does not change the answer *)
    assert (Hfuel : forall d f q h0 h1, brute_loop Pb f q h0 = Ok h1 -> brute_loop Pb (d + f) q h0 = Ok h1).
    { intros d. induction f as [|f IH]; intros q h0 h1 Q.
      - destruct q; [|discriminate]. rewrite Nat.add_0_r. destruct d; exact Q.
      - rewrite Nat.add_succ_r. destruct q as [|c q]; [exact Q|]. cbn [brute_loop] in *.
        match type of Q with bind ?e _ = _ => destruct e as [[c' h']| |]; try discriminate Q end.
        cbn [bind] in *. destruct (ndLevel c' <? Z.of_nat (pCols Pb))%Z; [|apply IH; auto].
        destruct (GetChildNode c' false); try discriminate Q. cbn [bind] in *.
        destruct (GetChildNode c' true); try discriminate Q. cbn [bind] in *. apply IH; auto. }
    unfold BruteForceSelect in *. rewrite (Hfuel _ _ _ _ _ Hbf) in E. injection E as <-.
    split; [exact A7|]. destruct A8 as (m & Q1 & Q2 & Q3). exists m. auto. }
  destruct Hbest as (B1 & (b & Lb & Fb & Eb)).
  assert (Tb : In true b) by (apply nonempty_nf; auto).
  apply xeq.
  - rewrite Ea. apply Hnn; auto. apply nonempty_nf; auto.
  - rewrite Eb. apply Hnn; auto.
  - rewrite Eb. destruct (H1 b Lb Tb) as [H|(Hr & H)]; auto.
    destruct Hcase as [Hc|(m & Lm & Tm & Pm)]; [congruence|].
    (* the optimum has at least the positive score of m *)
    exfalso. specialize (B1 m Lm ltac:(apply nonempty_nf; auto)). rewrite Eb in B1.
    pose proof (ol_negtrans XR_OrdLaws (n0 (N := XR)) (snd (fit b)) (snd (fit m)) (Hnn b Lb Fb) H B1) as Q.
    change (XFin 0) with (n0 (N := XR)) in Pm. congruence.
  - rewrite Ea. apply B1; auto. apply nonempty_nf; auto.
Qed.
Print Assumptions C14_end_to_end.

(** X = the first three columns of the 4x4 identity, y = (1, 2, 3, exp(-50)):
    the model with all features has score 370. *)
Definition xe : Mat XR := eye 4 3.
Definition ye : list R := [1; 2; 3; exp (-50)].
Definition fite (m : list bool) : list XR * XR :=
  match fit_score svd_orth xe (fins ye) m with Ok v => v | _ => ([], XNaN) end.
Definition bnde (m : list bool) (l : Z) : XR * XR :=
  match BoundsAICC svd_orth m l xe (fins ye) with Ok v => v | _ => (XNaN, XNaN) end.

Lemma xe_mat : rmat xe delta. Proof. intros i j _ _; reflexivity. Qed.
Lemma xe_good : good_svd svd_orth xe. Proof. apply eye_good; lia. Qed.

Lemma exp50 : 0 < exp (-50) <= 1.
Proof. split; [apply exp_pos|]. rewrite <- exp_0. apply Rlt_le, exp_increasing. lra. Qed.

Lemma ye_max : lsum (map Rsqr ye) <= IZR ((2 ^ 53 - 1) * 2 ^ 971).
Proof.
  apply Rle_trans with 15.
  - unfold ye, lsum, Rsqr. cbn [map fold_left]. pose proof exp50. nra.
  - apply IZR_le. apply Z.leb_le. vm_compute. reflexivity.
Qed.

Lemma fite_score_any : forall svd, good_svd svd xe -> forall m, length m = 3%nat -> In true m ->
  exists w r, fit_score svd xe (fins ye) m =
    Ok (fins w, fin (- (pen_aicc (Z.of_nat (NumFeatures m)) 4 + 4 * ln r))) /\ exp (-100) <= r /\
    (m = [true; true; true] -> r = exp (-100)).
Proof.
  intros svd Hgood m Hl Ht. assert (Hn : (0 < NumFeatures m)%nat) by (apply nonempty_nf; auto).
  destruct (model_fit svd xe delta ye xe_mat ltac:(cbn [xe eye mrows]; lia) eq_refl Hgood m Hl Hn)
    as (D & w & r & E1 & E2 & E3 & Lw & Er & Hr & Hmin & _).
  assert (H100 : exp (-100) = Rsqr (exp (-50))).
  { unfold Rsqr. rewrite <- exp_plus. f_equal. lra. }
  change (mrows xe) with 4%nat in *.
  assert (Hge : forall w', rss 4 (NumFeatures m) (sub delta m) w' ye =
    rsum 3 (fun i => Rsqr (rsum (NumFeatures m) (fun j => sub delta m i j * nth j w' 0) - nth i ye 0)) + exp (-100)).
  { intro w'. unfold rss. cbn [rsum]. f_equal.
    assert (Z0 : rsum (NumFeatures m) (fun j => sub delta m 3 j * nth j w' 0) = 0).
    { apply rsum_0'. intros j Hj. unfold sub.
      assert (Hs : (selcol m j < 3)%nat).
      { unfold selcol. destruct (nth_error_sel m j Hj) as (i & -> & Hi & _). lia. }
      unfold delta. destruct (Nat.eqb_spec 3 (selcol m j)); [lia|]. ring. }
    rewrite Z0, H100. change (nth 3 ye 0) with (exp (-50)). unfold Rsqr. ring. }
  assert (Hrge : exp (-100) <= r).
  { rewrite Er, Hge.
    assert (0 <= rsum 3 (fun i => Rsqr (rsum (NumFeatures m) (fun j => sub delta m i j * nth j w 0) - nth i ye 0)))
      by (apply rsum_nonneg; intros; apply Rle_0_sqr). lra. }
  assert (Hrp : 0 < r) by (pose proof (exp_pos (-100)); lra).
  exists w, r. split; [|split; auto].
  - unfold fit_score. rewrite E1. cbn [bind]. rewrite E2. cbn [bind]. rewrite E3. cbn [bind].
    change (Z.of_nat (mrows xe)) with 4%Z. rewrite aicc_xr by (auto; lia).
    unfold nlogr. rewrite (proj2 (Rltb_true 0 r)) by auto. rewrite xadd_fin. do 2 f_equal.
  - intro E. apply Rle_antisym; auto. apply Rle_trans with (rss 4 (NumFeatures m) (sub delta m) [1; 2; 3] ye).
    + apply Hmin. rewrite E. reflexivity.
    + rewrite Hge, E.
      replace (rsum 3 (fun i => _)) with 0; [lra|]. symmetry. apply rsum_0'.
      intros [|[|[|i]]] Hi; try lia; unfold sub, selcol, delta, Rsqr; cbn;
        change (Pos.to_nat 1) with 1%nat; change (Pos.to_nat 2) with 2%nat; cbn; ring.
Qed.

Lemma fite_score : forall m, length m = 3%nat -> In true m ->
  exists w r, fit_score svd_orth xe (fins ye) m =
    Ok (fins w, fin (- (pen_aicc (Z.of_nat (NumFeatures m)) 4 + 4 * ln r))) /\ exp (-100) <= r /\
    (m = [true; true; true] -> r = exp (-100)).
Proof. exact (fite_score_any svd_orth xe_good). Qed.

Lemma pen_nonneg : forall k, 0 <= pen_aicc (Z.of_nat k) 4.
Proof.
  intro k. unfold pen_aicc.
  assert (0 <= IZR (Z.of_nat k)) by (apply IZR_le; lia).
  assert (0 <= IZR (2 * Z.of_nat k * Z.of_nat k + 2 * Z.of_nat k)) by (apply IZR_le; nia).
  assert (0 < (if (4 - 1 <=? Z.of_nat k)%Z then 1 else IZR (4 - Z.of_nat k - 1))).
  { destruct (Z.leb_spec (4 - 1) (Z.of_nat k)); [lra|]. apply IZR_lt. lia. }
  assert (0 <= IZR (2 * Z.of_nat k * Z.of_nat k + 2 * Z.of_nat k) /
    (if (4 - 1 <=? Z.of_nat k)%Z then 1 else IZR (4 - Z.of_nat k - 1))) by (apply Rle_mult_inv_pos; auto).
  lra.
Qed.

(** all hypotheses of the theorem hold for it and a schedule that ends exists *)
Example C14_end_to_end_example : exists P s0 ls s hb,
  SelectModel_start 4 3 fite bnde None 100 (XFin 0 : XR) (NewHighscore 5) = Ok (P, s0) /\
  run P s0 ls = Some (Ok s) /\ sMain s = MClose 4 /\
  BruteForceSelect (mkProblem 4 3 fite bnde (repeat false 3) 100 (XFin 0 : XR)) 15 = Ok hb /\
  hsBestScore (sHs s) = hsBestScore hb /\ nltb (hsBestScore hb) (XFin 370 : XR) = false.
Proof.
  assert (Hfit : forall m, length m = mcols xe -> In true m -> fit_score svd_orth xe (fins ye) m = Ok (fite m)).
  { intros m Hl Ht. unfold fite. destruct (fite_score m Hl Ht) as (w & r & -> & _). reflexivity. }
  assert (Hbnd : forall m l, length m = mcols xe -> (0 <= l <= Z.of_nat (mcols xe))%Z -> In true m ->
    BoundsAICC svd_orth m l xe (fins ye) = Ok (bnde m l)).
  { intros m l Hl Hr Ht. unfold bnde.
    destruct (gcs_lcs_extremal m l ltac:(lia)) as (g & lc & Eg & El & (Lg & _) & _ & Hext).
    assert (Hgf : (0 < NumFeatures g < mrows xe)%nat).
    { destruct (Hext m) as (_ & _ & H). { split; auto. } apply nonempty_nf in Ht.
      pose proof (NumFeatures_le_length g). cbn [xe eye mrows mcols] in *. lia. }
    destruct (C13_bounds_enclose svd_orth xe delta ye m l g xe_mat ltac:(cbn [xe eye mrows]; lia) eq_refl xe_good Hl
      ltac:(lia) Eg Hgf ye_max) as (_ & lo & up & -> & _). reflexivity. }
  assert (Hsmall : forall m, length m = mcols xe -> In true m ->
    exists v, snd (fite m) = fin v /\ v <= 400 /\ (m = [true; true; true] -> v = 370)).
  { intros m Hl Ht. destruct (fite_score m Hl Ht) as (w & r & E & Hr & H3). unfold fite. rewrite E. cbn [snd].
    eexists. split; [reflexivity|].
    assert (-100 <= ln r).
    { rewrite <- (ln_exp (-100)). destruct (Rle_lt_or_eq_dec _ _ Hr) as [H| ->]; [|lra].
      apply Rlt_le, ln_increasing; auto. apply exp_pos. }
    pose proof (pen_nonneg (NumFeatures m)). split; [lra|].
    intro Em. rewrite (H3 Em), ln_exp, Em. cbn [NumFeatures]. unfold pen_aicc. cbn. lra. }
  assert (Hbig : forall m, length m = mcols xe -> In true m ->
    snd (fite m) = XPInf \/ nleb (snd (fite m)) (XFin (IZR (10 ^ 100)) : XR) = true).
  { intros m Hl Ht. right. destruct (Hsmall m Hl Ht) as (v & -> & Hv & _).
    change (XFin (IZR (10 ^ 100))) with (fin (IZR (10 ^ 100))). apply xle_fin.
    apply Rle_trans with (IZR 400); auto. apply IZR_le. apply Z.leb_le. vm_compute. reflexivity. }
  set (P := mkProblem (N := XR) 4 3 fite bnde (repeat false 3) 100 (XFin 0)).
  assert (Hst : SelectModel_start (mrows xe) (mcols xe) fite bnde None 100 (XFin 0 : XR) (NewHighscore 5) =
    Ok (P, init_st (NewHighscore 5))) by reflexivity.
  assert (I0 : PInv XR P (init_st (NewHighscore 5))).
  { apply pinv_init. cbn. lia. }
  destruct (can_finish XR P ltac:(cbn; lia) eq_refl _ _ (le_n _) I0) as (s & R & F).
  destruct (reach_run _ _ _ _ R) as (ls & Hrun).
  destruct F as (Hend & _).
  assert (Hnn : forall m, length m = pCols P -> (0 < NumFeatures m)%nat -> nisnan (snd (pFit P m)) = false).
  { intros m Lm Fm. apply nonempty_nf in Fm. destruct (Hsmall m Lm Fm) as (v & E & _).
    change (pFit P) with fite. rewrite E. reflexivity. }
  destruct (brute_all XR P XR_OrdLaws ltac:(cbn; lia) eq_refl Hnn 15%nat ltac:(cbn; lia))
    as (hb & Hb & _ & _ & _ & _ & _ & _ & B7 & (b & Lb & Fb & Eb)).
  assert (T111 : In true [true; true; true]) by (left; reflexivity).
  destruct (Hsmall [true; true; true] eq_refl T111) as (v & Ev & _ & H370). specialize (H370 eq_refl). subst v.
  exists P, (init_st (NewHighscore 5)), ls, s, hb.
  split; [exact Hst|]. split; [exact Hrun|]. split; [exact Hend|]. split; [exact Hb|]. split.
  - apply (C14_end_to_end svd_orth xe delta ye fite bnde 100 (XFin 0) 5 P (init_st (NewHighscore 5)) ls s 4 15 hb
      xe_mat eq_refl xe_good); auto; try exact ye_max; try (cbn; lia).
    right. exists [true; true; true]. split; [reflexivity|]. split; auto. rewrite Ev.
    change (Rltb 0 370 = true). apply Rltb_true. lra.
  - specialize (B7 [true; true; true] eq_refl ltac:(cbn; lia)). change (pFit P) with fite in B7.
    rewrite Ev in B7. exact B7.
Qed.

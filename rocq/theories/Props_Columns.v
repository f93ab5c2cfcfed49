(** C93: the order in which the features are listed does not matter for best
    subset selection (exact arithmetic), but it does for coordinate descent. *)
From Coq Require Import Reals Lra Lia Psatz List Permutation Sorted.
From Verif Require Import Base Num Mat RSum Model_Node Model_Util Model_Fit Model_Norm Model_Cov Model_Crd Model_Search Spec_Fit Spec_Subset.
From Verif Require Import Proof_Node Proof_Node2 Proof_Models Proof_Util Proof_XR Proof_Norm Proof_Fit Proof_Fit2 Proof_Search5.
From Verif Require Import Proof_Search Proof_Search2 Proof_Search3 Proof_Search4 Proof_Search5.
From Verif Require Import Proof_Subset Props_Search Props_Fit Props_EndToEnd Props_Subset Props_Units Props_Crd.
Import ListNotations.
Open Scope R_scope.

(** ** Specification *)

(** column j of the second matrix is column p(j) of the first *)
Definition relisted (n : nat) (x x' : nat -> nat -> R) (p : list nat) : Prop :=
  Permutation p (seq 0 n) /\ forall i j, (j < n)%nat -> x' i j = x i (nth j p 0%nat).
(** the same features, in the second listing *)
Definition same_features (p : list nat) (m : list bool) : list bool := map (fun k => nth k m false) p.

(** ** Proofs *)
Lemma sf_length : forall n p m, Permutation p (seq 0 n) -> length (same_features p m) = n.
Proof. intros n p m H. unfold same_features. rewrite map_length, (Permutation_length H), seq_length. reflexivity. Qed.

Lemma sf_nth : forall n p m k, Permutation p (seq 0 n) -> (k < n)%nat -> nth k (same_features p m) false = nth (nth k p 0%nat) m false.
Proof.
  intros n p m k H Hk. unfold same_features.
  rewrite (nth_indep _ false (nth 0 m false)) by (rewrite map_length, (Permutation_length H), seq_length; exact Hk).
  rewrite (map_nth (fun k => nth k m false)). reflexivity.
Qed.

Lemma sf_perm : forall n p m, Permutation p (seq 0 n) -> length m = n -> Permutation (same_features p m) m.
Proof.
  intros n p m H Hm. unfold same_features. apply Permutation_trans with (map (fun k => nth k m false) (seq 0 n)); [apply Permutation_map; exact H|].
  subst n. replace (map (fun k => nth k m false) (seq 0 (length m))) with m; [apply Permutation_refl|].
  apply nth_ext with false false; [rewrite map_length, seq_length; reflexivity|]. intros i Hi.
  rewrite (nth_indep (map _ _) false (nth 0 m false)) by (rewrite map_length, seq_length; exact Hi).
  rewrite (map_nth (fun k => nth k m false)), seq_nth by exact Hi. reflexivity.
Qed.

Lemma sf_features : forall n p m, Permutation p (seq 0 n) -> length m = n -> NumFeatures (same_features p m) = NumFeatures m.
Proof.
  intros n p m H Hm. rewrite !nf_count. apply (proj1 (Permutation_count_occ Bool.bool_dec _ _) (sf_perm n p m H Hm)).
Qed.

Lemma sf_inj : forall n p m m', Permutation p (seq 0 n) -> length m = n -> length m' = n -> same_features p m = same_features p m' -> m = m'.
Proof.
  intros n p m m' H L L' E. apply nth_ext with false false; [congruence|]. intros i Hi.
  destruct (perm_onto n p i H ltac:(lia)) as (j & Hj & Ej). rewrite <- Ej, <- !(sf_nth n) by auto. rewrite E. reflexivity.
Qed.

Lemma sf_onto : forall n p m', Permutation p (seq 0 n) -> length m' = n -> exists m, length m = n /\ same_features p m = m'.
Proof.
  intros n p m' H L.
  destruct (proj1 (Permutation_nth p (seq 0 n) 0%nat) H) as (Lp & f & F1 & F2 & F3). rewrite (Permutation_length H), seq_length in *.
  exists (map (fun j => nth (f j) m' false) (seq 0 n)). split; [rewrite map_length, seq_length; reflexivity|].
  assert (N : NoDup p) by (apply (Permutation_NoDup (Permutation_sym H)), seq_NoDup).
  apply nth_ext with false false; [rewrite (sf_length n); auto|]. rewrite (sf_length n) by exact H. intros k Hk.
  rewrite (sf_nth n) by auto. pose proof (perm_lt n p k H Hk) as Hp.
  rewrite (nth_indep _ false (nth (f 0%nat) m' false)) by (rewrite map_length, seq_length; exact Hp).
  rewrite (map_nth (fun j => nth (f j) m' false)), seq_nth by exact Hp. cbn [Nat.add]. f_equal.
  specialize (F3 _ Hp). rewrite seq_nth in F3 by exact Hp. cbn [Nat.add] in F3.
  apply (proj1 (NoDup_nth p 0%nat) N); [rewrite (Permutation_length H), seq_length; apply F1; exact Hp|rewrite (Permutation_length H), seq_length; exact Hk|].
  symmetry. exact F3.
Qed.

(** coefficients on all columns *)
Lemma rss_full : forall rows A m w y, length w = NumFeatures m ->
  rss rows (NumFeatures m) (sub A m) w y = rsum rows (fun i => Rsqr (rsum (length m) (fun j => A i j * nth j (spread m w) 0) - nth i y 0)).
Proof. intros rows A m w y Hw. unfold rss. apply rsum_ext. intros i _. unfold sub. rewrite (spread_sum m w (A i) Hw). reflexivity. Qed.

Lemma rss_beta : forall rows A m beta y, (forall j, (j < length m)%nat -> nth j m false = false -> beta j = 0) ->
  rss rows (NumFeatures m) (sub A m) (gather m beta) y = rsum rows (fun i => Rsqr (rsum (length m) (fun j => A i j * beta j) - nth i y 0)).
Proof.
  intros rows A m beta y H. rewrite rss_full by apply gather_length. apply rsum_ext. intros i _. do 2 f_equal.
  apply rsum_ext. intros j Hj. rewrite spread_gather; auto.
Qed.

Lemma relisted_least : forall rows n x x' p m y r r', relisted n x x' p -> length m = n ->
  least rows (NumFeatures m) (sub x m) y r -> least rows (NumFeatures (same_features p m)) (sub x' (same_features p m)) y r' -> r' = r.
Proof.
  intros rows n x x' p m y r r' (HP & HX) Hm (W1 & M1) (W2 & M2).
  pose proof (sf_length n p m HP) as Ls. set (m' := same_features p m) in *.
  destruct (proj1 (Permutation_nth p (seq 0 n) 0%nat) HP) as (_ & f & F1 & F2 & F3). rewrite (Permutation_length HP), seq_length in *.
  assert (N : NoDup p) by (apply (Permutation_NoDup (Permutation_sym HP)), seq_NoDup).
  assert (Lp : length p = n) by (rewrite (Permutation_length HP), seq_length; reflexivity).
  assert (F4 : forall k, (k < n)%nat -> f (nth k p 0%nat) = k).
  { intros k Hk. pose proof (perm_lt n p k HP Hk) as Hp. specialize (F3 _ Hp). rewrite seq_nth in F3 by exact Hp. cbn [Nat.add] in F3.
    apply (proj1 (NoDup_nth p 0%nat) N); [rewrite Lp; apply F1; exact Hp|lia|symmetry; exact F3]. }
  apply Rle_antisym.
  - destruct W1 as (w & Lw & ->).
    apply Rle_trans with (rss rows (NumFeatures m') (sub x' m') (gather m' (fun k => nth (nth k p 0%nat) (spread m w) 0)) y).
    { apply M2. apply gather_length. }
    rewrite rss_beta, rss_full by (auto; intros k Hk Hf; apply spread_support; rewrite <- (sf_nth n) by (auto; lia); exact Hf).
    apply Req_le. apply rsum_ext. intros i _. do 2 f_equal. rewrite Ls, Hm.
    rewrite (rsum_ext n _ (fun k => (fun j => x i j * nth j (spread m w) 0) (nth k p 0%nat))) by (intros k Hk; rewrite HX by exact Hk; reflexivity).
    apply (rsum_perm n p (fun j => x i j * nth j (spread m w) 0) HP).
  - destruct W2 as (w & Lw & ->).
    apply Rle_trans with (rss rows (NumFeatures m) (sub x m) (gather m (fun j => nth (f j) (spread m' w) 0)) y).
    { apply M1. apply gather_length. }
    rewrite rss_beta, rss_full; auto.
    + apply Req_le. apply rsum_ext. intros i _. do 2 f_equal. rewrite Ls, Hm.
      rewrite <- (rsum_perm n p (fun j => x i j * nth (f j) (spread m' w) 0) HP). apply rsum_ext. intros k Hk. rewrite HX, F4 by exact Hk. reflexivity.
    + intros j Hj Hf. apply spread_support. unfold m'. rewrite (sf_nth n) by (auto; apply F1; lia). rewrite Hm in Hj. specialize (F3 j Hj). rewrite seq_nth in F3 by exact Hj.
      cbn [Nat.add] in F3. rewrite <- F3. exact Hf.
Qed.

Lemma sf_true : forall n p m, Permutation p (seq 0 n) -> length m = n -> In true m -> In true (same_features p m).
Proof. intros n p m H L Ht. apply (Permutation_in _ (Permutation_sym (sf_perm n p m H L))). exact Ht. Qed.

Section Relist.
  Variables (svd : Mat XR -> SVD XR) (X X' : Mat XR) (x x' : nat -> nat -> R) (y : list R) (p : list nat).
  Hypothesis (HX : rmat X x) (HX' : rmat X' x') (Hrows : mrows X' = mrows X) (Hcols : mcols X' = mcols X).
  Hypothesis (Hr : (0 < mrows X)%nat) (Hy : length y = mrows X).
  Hypothesis (Hg : good_svd svd X) (Hg' : good_svd svd X').
  Hypothesis (RL : relisted (mcols X) x x' p).

  Lemma models_relist : forall m, length m = mcols X -> In true m ->
    exists D D' w w' r, GetDesignMatrix m X = Ok D /\ GetDesignMatrix (same_features p m) X' = Ok D' /\
      Fit svd D (fins y) = Ok (fins w) /\ Fit svd D' (fins y) = Ok (fins w') /\
      Rss D (fins w) (fins y) = Ok (fin r) /\ Rss D' (fins w') (fins y) = Ok (fin r) /\ 0 <= r.
  Proof using HX HX' Hcols Hg Hg' Hr Hrows Hy RL.
    intros m Hl Ht.
    assert (Hn : (0 < NumFeatures m)%nat) by (apply nonempty_nf; auto).
    assert (Hn' : (0 < NumFeatures (same_features p m))%nat) by (rewrite (sf_features (mcols X)); auto; apply RL).
    destruct (model_fit svd X x y HX Hr Hy Hg m Hl Hn) as (D & w & r & E1 & E2 & E3 & Lw & Er & Pr & Mr & _).
    destruct (model_fit svd X' x' y HX' ltac:(lia) ltac:(lia) Hg' (same_features p m) ltac:(rewrite (sf_length (mcols X)); [lia|apply RL]) Hn')
      as (D' & w' & r' & F1 & F2 & F3 & Lw' & Er' & Pr' & Mr' & _).
    rewrite Hrows in *.
    assert (E : r' = r) by (apply (relisted_least (mrows X) (mcols X) x x' p m y r r' RL Hl); split; eauto). rewrite E in F3. clear E.
    exists D, D', w, w', r. repeat (split; [assumption|]). assumption.
  Qed.

  Lemma score_relist : forall fit fit' m, scored svd X y fit -> scored svd X' y fit' -> length m = mcols X -> In true m ->
    nisnan (snd (fit m)) = false /\ snd (fit' (same_features p m)) = snd (fit m).
  Proof using HX HX' Hcols Hg Hg' Hr Hrows Hy RL.
    intros fit fit' m Hf Hf' Hl Ht.
    destruct (models_relist m Hl Ht) as (D & D' & w & w' & r & E1 & F1 & E2 & F2 & E3 & F3 & Pr).
    pose proof (Hf m Hl Ht) as E.
    pose proof (Hf' (same_features p m) ltac:(rewrite (sf_length (mcols X)); [lia|apply RL]) (sf_true _ _ _ (proj1 RL) Hl Ht)) as F. unfold fit_score in E, F.
    rewrite E1 in E. rewrite F1 in F. cbn [bind] in E, F. rewrite E2 in E. rewrite F2 in F. cbn [bind] in E, F.
    rewrite E3 in E. rewrite F3 in F. cbn [bind] in E, F. rewrite (sf_features (mcols X)) in F by (auto; apply RL).
    assert (E' : snd (fit m) = nneg (n := XR) (Aicc (Z.of_nat (NumFeatures m)) (Z.of_nat (mrows X)) (fin r)))
      by exact (eq_sym (f_equal (fun z => match z with Ok v => snd v | _ => XNaN end) E)).
    assert (F' : snd (fit' (same_features p m)) = nneg (n := XR) (Aicc (Z.of_nat (NumFeatures m)) (Z.of_nat (mrows X')) (fin r)))
      by exact (eq_sym (f_equal (fun z => match z with Ok v => snd v | _ => XNaN end) F)).
    rewrite E', F', Hrows. split; [|reflexivity].
    rewrite aicc_xr by (auto; lia). unfold nlogr. destruct (Rltb 0 r); [rewrite xadd_fin|]; reflexivity.
  Qed.
End Relist.

(** two lists in descending order with the same entries are the same *)
Lemma desc_unique : forall l l' : list XR, Permutation l l' -> (forall v, In v l -> nisnan v = false) ->
  StronglySorted (fun a b => nltb a b = false) l -> StronglySorted (fun a b => nltb a b = false) l' -> l = l'.
Proof.
  induction l as [|a l IH]; intros l' P N S S'.
  - apply Permutation_nil in P. auto.
  - destruct l' as [|b l']; [apply Permutation_sym, Permutation_nil in P; discriminate P|].
    apply StronglySorted_inv in S. apply StronglySorted_inv in S'. destruct S as (S1 & S2). destruct S' as (S1' & S2').
    rewrite Forall_forall in S2, S2'.
    assert (Nb : nisnan b = false) by (apply N, (Permutation_in _ (Permutation_sym P)); left; reflexivity).
    assert (E : a = b).
    { assert (Ia : In a (b :: l')) by (apply (Permutation_in _ P); left; reflexivity).
      assert (Ib : In b (a :: l)) by (apply (Permutation_in _ (Permutation_sym P)); left; reflexivity).
      destruct Ia as [Ia|Ia]; [auto|]. destruct Ib as [Ib|Ib]; [auto|].
      apply xeq; auto. apply N. left. reflexivity. }
    subst b. f_equal. apply IH; auto; [apply (Permutation_cons_inv P)|]. intros v Hv. apply N. right. exact Hv.
Qed.

(** ** C93 *)

(** Every criterion c (AIC, corrected AIC, BIC or any other function of the
    number of features, the number of rows and the residual) is the same for a
    set of features in both listings. *)
Theorem C93_criteria : forall svd (X X' : Mat XR) x x' y p m c,
  rmat X x -> rmat X' x' -> mrows X' = mrows X -> mcols X' = mcols X -> (0 < mrows X)%nat -> length y = mrows X ->
  good_svd svd X -> good_svd svd X' -> relisted (mcols X) x x' p ->
  length m = mcols X -> In true m ->
  exists v, criterion svd c X (fins y) m = Ok v /\ criterion svd c X' (fins y) (same_features p m) = Ok v.
Proof.
  intros svd X X' x x' y p m c HX HX' Hrows Hcols Hr Hy Hg Hg' RL Hl Ht.
  destruct (models_relist svd X X' x x' y p HX HX' Hrows Hcols Hr Hy Hg Hg' RL m Hl Ht) as (D & D' & w & w' & r & E1 & F1 & E2 & F2 & E3 & F3 & Pr).
  unfold criterion. rewrite E1, F1. cbn [bind]. rewrite E2, F2. cbn [bind]. rewrite E3, F3. cbn [bind].
  rewrite (sf_features (mcols X)) by (auto; apply RL). eauto.
Qed.
Print Assumptions C93_criteria.

(** BruteForceSelect returns the same list of scores for both listings, and the
    same set of features is scored alike. *)
Theorem C93_brute_force : forall svd (X X' : Mat XR) x x' y p fit fit' bnd bnd' maxq maxq' cutoff cutoff' fuel fuel',
  rmat X x -> rmat X' x' -> mrows X' = mrows X -> mcols X' = mcols X -> (0 < mrows X)%nat -> length y = mrows X ->
  good_svd svd X -> good_svd svd X' -> relisted (mcols X) x x' p ->
  scored svd X y fit -> scored svd X' y fit' ->
  (1 <= mcols X)%nat -> (2 ^ S (mcols X) - 1 <= fuel)%nat -> (2 ^ S (mcols X) - 1 <= fuel')%nat ->
  exists h h', BruteForceSelect (mkProblem (mrows X) (mcols X) fit bnd (repeat false (mcols X)) maxq cutoff) fuel = Ok h /\
    BruteForceSelect (mkProblem (mrows X') (mcols X') fit' bnd' (repeat false (mcols X')) maxq' cutoff') fuel' = Ok h' /\
    hsScores h' = hsScores h /\ hsBestScore h' = hsBestScore h /\
    forall m, length m = mcols X -> In true m -> snd (fit' (same_features p m)) = snd (fit m).
Proof.
  intros svd X X' x x' y p fit fit' bnd bnd' maxq maxq' cutoff cutoff' fuel fuel' HX HX' Hrows Hcols Hr Hy Hg Hg' RL Hf Hf' H1 Hfu Hfu'.
  pose proof (fun m => score_relist svd X X' x x' y p HX HX' Hrows Hcols Hr Hy Hg Hg' RL fit fit' m Hf Hf') as SR.
  pose proof (proj1 RL) as HP.
  assert (N1 : forall m, length m = mcols X -> (0 < NumFeatures m)%nat -> nisnan (snd (fit m)) = false).
  { intros m Lm Fm. apply SR; auto. apply nonempty_nf; auto. }
  assert (N3 : forall m, length m = mcols X' -> (0 < NumFeatures m)%nat -> nisnan (snd (fit' m)) = false).
  { intros m' Lm Fm. destruct (sf_onto (mcols X) p m' HP ltac:(lia)) as (m & Lm0 & <-).
    rewrite (sf_features (mcols X)) in Fm by auto. destruct (SR m Lm0) as (Q1 & Q2); [apply nonempty_nf; auto|]. rewrite Q2. exact Q1. }
  destruct (brute_all XR (mkProblem (mrows X) (mcols X) fit bnd (repeat false (mcols X)) maxq cutoff) XR_OrdLaws H1 eq_refl N1 fuel Hfu)
    as (h & E & _ & _ & A3 & A4 & A5 & A6 & _).
  destruct (brute_all XR (mkProblem (mrows X') (mcols X') fit' bnd' (repeat false (mcols X')) maxq' cutoff') XR_OrdLaws ltac:(cbn; lia) eq_refl N3 fuel'
    ltac:(cbn [pCols]; rewrite Hcols; exact Hfu')) as (h' & E' & _ & _ & B3 & B4 & B5 & B6 & _).
  cbn [pCols pFit] in *. rewrite Hcols in *.
  assert (S1 : hsScores h = map (fun m => snd (fit m)) (map ndModel (hsItems h))).
  { unfold hsScores. rewrite map_map. apply map_ext_in. intros n Hn. rewrite <- (A5 n Hn). reflexivity. }
  assert (S2 : hsScores h' = map (fun m => snd (fit' m)) (map ndModel (hsItems h'))).
  { unfold hsScores. rewrite map_map. apply map_ext_in. intros n Hn. rewrite <- (B5 n Hn). reflexivity. }
  assert (PM : Permutation (map ndModel (hsItems h')) (map (same_features p) (map ndModel (hsItems h)))).
  { apply NoDup_Permutation; auto.
    - assert (G : forall l, (forall m, In m l -> length m = mcols X) -> NoDup l -> NoDup (map (same_features p) l)).
      { induction l as [|m l IH]; intros HL HN; [constructor|]. cbn [map]. inversion HN; subst. constructor.
        - intro C. apply in_map_iff in C. destruct C as (m2 & C1 & C2). apply (sf_inj (mcols X)) in C1; auto; [|apply HL; right; exact C2|apply HL; left; reflexivity].
          subst m2. contradiction.
        - apply IH; auto. intros m0 H0. apply HL. right. exact H0. }
      apply G; auto. intros m Hm. apply A4. exact Hm.
    - intro m'. rewrite B4, in_map_iff. split.
      + intros (L & F). destruct (sf_onto (mcols X) p m' HP L) as (m & Lm & <-). exists m. split; [reflexivity|]. apply A4.
        split; [exact Lm|]. rewrite (sf_features (mcols X)) in F by auto. exact F.
      + intros (m & <- & Hm). apply A4 in Hm. destruct Hm as (L & F). split; [apply (sf_length (mcols X)); exact HP|].
        rewrite (sf_features (mcols X)) by auto. exact F. }
  assert (EQ : hsScores h' = hsScores h).
  { apply desc_unique.
    - rewrite S1, S2. eapply Permutation_trans; [apply Permutation_map; exact PM|]. rewrite map_map.
      replace (map (fun m => snd (fit' (same_features p m))) (map ndModel (hsItems h))) with (map (fun m => snd (fit m)) (map ndModel (hsItems h))); [apply Permutation_refl|].
      apply map_ext_in. intros m Hm. apply A4 in Hm. symmetry. apply SR; [apply Hm|]. apply nonempty_nf. apply Hm.
    - intros v Hv. rewrite S2 in Hv. apply in_map_iff in Hv. destruct Hv as (m & <- & Hm). apply B4 in Hm. apply N3; apply Hm.
    - exact (map_desc XR _ B6).
    - exact (map_desc XR _ A6). }
  exists h, h'. split; [exact E|]. split; [exact E'|]. split; [exact EQ|]. split.
  - unfold hsBestScore. unfold hsScores in EQ. destruct (hsItems h) as [|a l], (hsItems h') as [|a' l']; cbn [map] in EQ; try discriminate EQ; auto.
    injection EQ as EQ _. exact EQ.
  - intros m Lm Tm. apply SR; auto.
Qed.
Print Assumptions C93_brute_force.

(** SelectModel, each run under any schedule (conditions of C14, see C86) *)
Theorem C93_search : forall svd (X X' : Mat XR) x x' y p fit fit' st st',
  rmat X x -> rmat X' x' -> mrows X' = mrows X -> mcols X' = mcols X -> length y = mrows X -> (mcols X < mrows X)%nat ->
  good_svd svd X -> good_svd svd X' -> relisted (mcols X) x x' p ->
  lsum (map Rsqr y) <= IZR ((2 ^ 53 - 1) * 2 ^ 971) ->
  scored svd X y fit -> scored svd X' y fit' ->
  complete_search svd X y fit st -> complete_search svd X' y fit' st' ->
  hsBestScore (sHs st') = hsBestScore (sHs st) /\
  forall m, length m = mcols X -> In true m ->
    (snd (fit m) = hsBestScore (sHs st) <-> snd (fit' (same_features p m)) = hsBestScore (sHs st')).
Proof.
  intros svd X X' x x' y p fit fit' st st' HX HX' Hrows Hcols Hy Hd Hg Hg' RL My Hf Hf'
    (bnd & maxq & cutoff & M & P & s0 & ls & k & C1 & C2 & C3 & C4 & C5 & C6 & C7 & C8)
    (bnd' & maxq' & cutoff' & M' & P' & s0' & ls' & k' & D1 & D2 & D3 & D4 & D5 & D6 & D7 & D8).
  assert (H1 : (1 <= mcols X)%nat).
  { destruct (start_inv _ _ _ _ _ _ _ _ _ _ _ C4) as (_ & _ & H & _ & _ & _ & H' & _). lia. }
  destruct (C93_brute_force svd X X' x x' y p fit fit' bnd bnd' maxq maxq' cutoff cutoff' (2 ^ S (mcols X) - 1) (2 ^ S (mcols X) - 1)
    HX HX' Hrows Hcols ltac:(lia) Hy Hg Hg' RL Hf Hf' H1 ltac:(lia) ltac:(lia)) as (h & h' & E & E' & _ & B & Mm).
  rewrite (C14_end_to_end svd X x y fit bnd maxq cutoff M P s0 ls st k _ h HX Hy Hg Hd My Hf C1 C2 C3 C4 C5 C6 C7 E C8).
  rewrite (C14_end_to_end svd X' x' y fit' bnd' maxq' cutoff' M' P' s0' ls' st' k' _ h' HX' ltac:(lia) Hg' ltac:(lia) My Hf' D1 D2 D3 D4 D5 D6 D7 E' D8).
  split; [exact B|]. intros m Lm Tm. rewrite B, (Mm m Lm Tm). reflexivity.
Qed.
Print Assumptions C93_search.

(** ** Example: the features listed in another order *)
Definition pc : list nat := [2; 0; 1]%nat.
Definition xmc (i k : nat) : R := delta i (nth k pc 0%nat).
Definition xec : Mat XR := mkMat 4 3 (fun i k => fin (xmc i k)).

Lemma xec_mat : rmat xec xmc. Proof. intros i j _ _. reflexivity. Qed.
Lemma xec_og : good_svd svd_og xec.
Proof.
  apply (svd_og_good xec xmc xec_mat); [cbn; lia| |]; cbn [xec mrows mcols].
  - intros [|[|[|a]]] [|[|[|b]]] Ha Hb N; try lia; unfold xmc, pc, delta; cbn; ring.
  - intros [|[|[|a]]] Ha; try lia; unfold xmc, pc, delta; cbn; lra.
Qed.
Lemma xec_relisted : relisted 3 delta xmc pc.
Proof.
  split; [|reflexivity]. unfold pc. change (seq 0 3) with [0; 1; 2]%nat.
  apply perm_trans with [0; 2; 1]%nat; [apply perm_swap|]. apply perm_skip, perm_swap.
Qed.

Example C93_example : exists st st',
  complete_search svd_og xe ye (fit_of xe ye) st /\ complete_search svd_og xec ye (fit_of xec ye) st' /\
  hsBestScore (sHs st') = hsBestScore (sHs st) /\
  same_features pc [true; false; false] = [false; true; false].
Proof.
  pose proof (fit_of_scored xe delta ye xe_mat ltac:(cbn; lia) eq_refl xe_og) as Hf.
  pose proof (fit_of_scored xec xmc ye xec_mat ltac:(cbn; lia) eq_refl xec_og) as Hf'.
  assert (Hs : forall m, length m = 3%nat -> In true m -> exists v, snd (fit_of xe ye m) = fin v /\ v <= 400 /\
    (m = [true; true; true] -> v = 370)).
  { intros m Hl Ht. destruct (fite_score_any svd_og xe_og m Hl Ht) as (w & r & E & Hr & H3). unfold fit_of. rewrite E. cbn [snd].
    eexists. split; [reflexivity|].
    assert (-100 <= ln r).
    { rewrite <- (ln_exp (-100)). destruct (Rle_lt_or_eq_dec _ _ Hr) as [H| ->]; [|lra].
      apply Rlt_le, ln_increasing; auto. apply exp_pos. }
    pose proof (pen_nonneg (NumFeatures m)). split; [lra|].
    intro Em. rewrite (H3 Em), ln_exp, Em. cbn [NumFeatures]. unfold pen_aicc. cbn. lra. }
  assert (Hs' : forall m', length m' = 3%nat -> In true m' -> exists m, m' = same_features pc m /\ length m = 3%nat /\ In true m /\
     snd (fit_of xec ye m') = snd (fit_of xe ye m)).
  { intros m' Hl Ht. destruct (sf_onto 3 pc m' (proj1 xec_relisted) Hl) as (m & Lm & <-).
    assert (Tm : In true m) by (apply (Permutation_in _ (sf_perm 3 pc m (proj1 xec_relisted) Lm)); exact Ht).
    exists m. repeat (split; [auto|]).
    apply (score_relist svd_og xe xec delta xmc ye pc xe_mat xec_mat eq_refl eq_refl ltac:(cbn; lia) eq_refl xe_og xec_og xec_relisted
      (fit_of xe ye) (fit_of xec ye) m Hf Hf' Lm Tm). }
  assert (T : In true [true; true; true]) by (left; reflexivity).
  assert (Big : forall v, v <= 400 -> nleb (n := XR) (fin v) (XFin (IZR (10 ^ 100))) = true).
  { intros v Hv. change (XFin (IZR (10 ^ 100))) with (fin (IZR (10 ^ 100))). apply xle_fin.
    apply Rle_trans with (IZR 400); auto. apply IZR_le. apply Z.leb_le. vm_compute. reflexivity. }
  destruct (search_exists svd_og xe delta ye (fit_of xe ye) xe_mat eq_refl xe_og ltac:(cbn; lia) ye_max) as (st & C).
  { intros m Hl Ht. right. destruct (Hs m Hl Ht) as (v & -> & Hv & _). apply Big; auto. }
  { exists [true; true; true]. split; [reflexivity|]. split; auto. destruct (Hs [true; true; true] eq_refl T) as (v & -> & _ & H3).
    rewrite (H3 eq_refl). apply Rltb_true. lra. }
  destruct (search_exists svd_og xec xmc ye (fit_of xec ye) xec_mat eq_refl xec_og ltac:(cbn; lia) ye_max) as (st' & C').
  { intros m Hl Ht. right. destruct (Hs' m Hl Ht) as (m0 & _ & L0 & T0 & ->). destruct (Hs m0 L0 T0) as (v & -> & Hv & _). apply Big; auto. }
  { exists [true; true; true]. split; [reflexivity|]. split; auto.
    pose proof (score_relist svd_og xe xec delta xmc ye pc xe_mat xec_mat eq_refl eq_refl ltac:(cbn; lia) eq_refl xe_og xec_og xec_relisted
      (fit_of xe ye) (fit_of xec ye) [true; true; true] Hf Hf' eq_refl T) as (_ & Q).
    change (same_features pc [true; true; true]) with [true; true; true] in Q. rewrite Q.
    destruct (Hs [true; true; true] eq_refl T) as (v & -> & _ & H3). rewrite (H3 eq_refl). apply Rltb_true. lra. }
  exists st, st'. split; [exact C|]. split; [exact C'|]. split; [|reflexivity].
  exact (proj1 (C93_search svd_og xe xec delta xmc ye pc (fit_of xe ye) (fit_of xec ye) st st' xe_mat xec_mat eq_refl eq_refl eq_refl
    ltac:(cbn; lia) xe_og xec_og xec_relisted ye_max Hf Hf' C C')).
Qed.

(** Coordinate descent: the claim does not hold.  With the last two of three
    features swapped, both runs report convergence, but the feature that is
    dropped in one listing has a coefficient beyond 0.1 in the other. *)
Definition swap2 (k : nat) : nat := nth k [0; 2; 1]%nat k.
Definition exf_X' : Mat (F64 fenv0) := mkMat (N := F64 fenv0) 5 3 (fun i j => mval exf_X i (swap2 j)).
Definition cd_run (X : Mat (F64 fenv0)) : res (list (F64 fenv0) * bool) :=
  do nd <- NewNormalizedData X exf_y;
  do (b, _, _, conv) <- LassoCrdDesc Empirical_Get nd (ndec 1 (-2)) None 1000 (ndec 1 (-6)) PureLasso; Ok (b, conv).

Theorem C93_cd_refuted :
  match cd_run exf_X, cd_run exf_X' with
  | Ok (b, conv), Ok (b', conv') =>
      (conv && conv' && nleb (nabs (nth 1 b n0)) n0 && nltb (ndec 1 (-1)) (nabs (nth (swap2 1) b' n0)))%bool
  | _, _ => false
  end = true.
Proof. vm_compute. reflexivity. Qed.
Print Assumptions C93_cd_refuted.

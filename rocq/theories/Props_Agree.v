(** C97: the two lasso algorithms against each other. *)
From Coq Require Import Reals Lra Lia List Psatz.
From Verif Require Import Base Num Mat RSum Model_Node Model_Util Model_Norm Model_Cov Model_Crd Model_Lars Spec_Fit Spec_Lars.
From Verif Require Import Proof_XR Proof_Norm Proof_Cov Props_Fit Props_Lars Props_Crd Props_CrdExact Props_CrdCmd.
Import ListNotations.
Open Scope R_scope.

(** the fitted values X b *)
Definition fitted (n : nat) (A : nat -> nat -> R) (b : nat -> R) (i : nat) : R := rsum n (fun k => A i k * b k).

(** ** Proofs *)

(** the objective is convex, and strictly so in the direction of a change of
    the fitted values *)
Lemma lasso_convex : forall m n A y l b c t, 0 <= l -> 0 <= t <= 1 ->
  lasso_cost m n A y l (fun k => b k + t * (c k - b k)) <=
  (1 - t) * lasso_cost m n A y l b + t * lasso_cost m n A y l c
  - t * (1 - t) / 2 * rsum m (fun i => Rsqr (fitted n A c i - fitted n A b i)).
Proof.
  intros m n A y l b c t Hl Ht. unfold lasso_cost.
  assert (Q : rsum m (fun i => Rsqr (y i - rsum n (fun k => A i k * (b k + t * (c k - b k))))) =
    (1 - t) * rsum m (fun i => Rsqr (y i - rsum n (fun k => A i k * b k))) + t * rsum m (fun i => Rsqr (y i - rsum n (fun k => A i k * c k)))
    - t * (1 - t) * rsum m (fun i => Rsqr (fitted n A c i - fitted n A b i))).
  { rewrite <- !rsum_scal, <- rsum_plus, <- rsum_minus. apply rsum_ext. intros i _. unfold fitted.
    replace (rsum n (fun k => A i k * (b k + t * (c k - b k)))) with ((1 - t) * rsum n (fun k => A i k * b k) + t * rsum n (fun k => A i k * c k)).
    2:{ rewrite <- !rsum_scal, <- rsum_plus. apply rsum_ext. intros k _. ring. }
    unfold Rsqr. ring. }
  assert (P : rsum n (fun k => Rabs (b k + t * (c k - b k))) <= (1 - t) * rsum n (fun k => Rabs (b k)) + t * rsum n (fun k => Rabs (c k))).
  { rewrite <- !rsum_scal, <- rsum_plus. apply rsum_le. intros k _.
    replace (b k + t * (c k - b k)) with ((1 - t) * b k + t * c k) by ring.
    eapply Rle_trans; [apply Rabs_triang|]. rewrite !Rabs_mult, (Rabs_right (1 - t)), (Rabs_right t) by lra. lra. }
  rewrite Q. assert (l * rsum n (fun k => Rabs (b k + t * (c k - b k))) <= l * ((1 - t) * rsum n (fun k => Rabs (b k)) + t * rsum n (fun k => Rabs (c k))))
    by (apply Rmult_le_compat_l; assumption). lra.
Qed.

(** a model that is almost as good as a best one has almost the same fitted values *)
Lemma lasso_close : forall m n A y l b c eps, 0 <= l ->
  (forall t, 0 <= t <= 1 -> lasso_cost m n A y l b <= lasso_cost m n A y l (fun k => b k + t * (c k - b k))) ->
  lasso_cost m n A y l c <= lasso_cost m n A y l b + eps ->
  rsum m (fun i => Rsqr (fitted n A c i - fitted n A b i)) <= 2 * eps.
Proof.
  intros m n A y l b c eps Hl Hb Hc. set (Q := rsum m (fun i => Rsqr (fitted n A c i - fitted n A b i))).
  assert (HQ : 0 <= Q) by (apply rsum_nonneg; intros i _; apply Rle_0_sqr).
  assert (H : forall t, 0 < t <= 1 -> (1 - t) * Q <= 2 * eps).
  { intros t Ht. pose proof (lasso_convex m n A y l b c t Hl ltac:(lra)) as H. fold Q in H. specialize (Hb t ltac:(lra)).
    assert (H' : t * ((1 - t) * Q) <= t * (2 * eps)) by nra. apply Rmult_le_reg_l in H'; [exact H'|lra]. }
  destruct (Rle_lt_dec Q (2 * eps)) as [G|G]; [exact G|]. exfalso.
  assert (He : 0 <= 2 * eps) by (specialize (H 1 ltac:(lra)); lra).
  assert (Hq : 0 < Q) by lra.
  set (t := (Q - 2 * eps) / (2 * Q)).
  assert (Ht : 0 < t <= 1).
  { unfold t. split; [apply Rdiv_lt_0_compat; lra|]. apply (Rmult_le_reg_r (2 * Q)); [lra|]. unfold Rdiv. rewrite Rmult_assoc, Rinv_l by lra. lra. }
  specialize (H t Ht). unfold t in H.
  replace ((1 - (Q - 2 * eps) / (2 * Q)) * Q) with (Q - (Q - 2 * eps) / 2) in H by (field; lra). lra.
Qed.

Lemma empirical_data : forall (data : NormalizedData XR) A yr, rmat (ndX data) A -> ndy data = fins yr -> length yr = mrows (ndX data) ->
  (0 < mrows (ndX data))%nat -> (0 < mcols (ndX data))%nat ->
  lasso_data Empirical_Get data (mrows (ndX data)) (mcols (ndX data)) A yr
    (fun i j => rsum (mrows (ndX data)) (fun k => A k i * A k j) / INR (mrows (ndX data))).
Proof.
  intros data A yr HA Hy Ly Hr Hc. constructor; auto.
  destruct (empirical_xr (ndX data) A HA Hr Hc) as (cov & Ec & K1 & K2 & K3). exists cov. split; [exact Ec|]. split; [exact K1|]. split; [exact K2|].
  intros i j Hi Hj. apply K3; lia.
Qed.

(** ** C97 *)

(** A node of a LARS path (hypotheses as in C37_lasso_optimal) against the
    minimisers of the objective of LassoCrdDesc on the same normalised data with
    the penalty divided by the number of rows: the fitted values agree up to the
    tolerance of C37. *)
Theorem C97_same_prediction : forall (data : NormalizedData XR) A yr (cd : CDParam XR) P est mn fuel path nd lamb b,
  rmat (ndX data) A -> ndy data = fins yr -> length yr = mrows (ndX data) ->
  exact_cd (ndX data) A yr cd P -> P (cdSetX cd est (ndX data)) -> independent (mrows (ndX data)) (mcols (ndX data)) A ->
  0 <= mn -> LassoLars cd est data (fin mn) fuel = Ok path ->
  no_ties (mrows (ndX data)) (mcols (ndX data)) A (fun i => nth i yr 0) path ->
  (0 < mrows (ndX data))%nat -> (forall i, (i < mrows (ndX data))%nat -> A i 0%nat = 0) ->
  In nd path -> lnLamb nd = fin (INR (mrows (ndX data)) * lamb) -> 0 <= lamb ->
  minimiser_without_bias (mcols (ndX data)) (textbook (mrows (ndX data)) (mcols (ndX data)) A yr lamb) b ->
  exists E v, lnSelection nd = map Z.of_nat E /\ lnCoeff nd = fins v /\ length v = length E /\
    rsum (mrows (ndX data)) (fun i => Rsqr (fitted (mcols (ndX data)) A (spread E v) i - fitted (mcols (ndX data)) A (fun k => nth k b 0) i))
    <= 4 / 1000000 * rsum (mcols (ndX data)) (fun k => Rabs (nth k b 0)).
Proof.
  intros data A yr cd P est mn fuel path nd lamb b HA Hy Ly HE HP HI Hmn EL HT Hr HZ Hnd Hl Hla (Lb & B0 & HB).
  destruct (C37_lasso_optimal data A yr cd P est mn fuel path HA Hy Ly HE HP HI Hmn EL HT nd Hnd) as (E & v & l & N1 & N2 & N3 & N4 & N5).
  exists E, v. split; [exact N1|]. split; [exact N2|]. split; [exact N4|].
  assert (El : l = INR (mrows (ndX data)) * lamb) by (rewrite N3 in Hl; injection Hl; auto). subst l.
  set (m := mrows (ndX data)) in *. set (n := mcols (ndX data)) in *. set (Y := fun i => nth i yr 0) in *.
  assert (Hm : 0 < INR m) by (apply lt_0_INR; lia).
  assert (Hl0 : 0 <= INR m * lamb) by (apply Rmult_le_pos; lra).
  set (c := fun k => match k with O => 0 | S _ => spread E v k end).
  assert (Fc : forall i, (i < m)%nat -> fitted n A c i = fitted n A (spread E v) i).
  { intros i Hi. apply rsum_ext. intros [|k'] Hk; cbn [c]; [rewrite (HZ i Hi); ring|reflexivity]. }
  assert (Cc : lasso_cost m n A Y (INR m * lamb) c <= lasso_cost m n A Y (INR m * lamb) (spread E v)).
  { unfold lasso_cost. apply Rplus_le_compat.
    - apply Req_le. f_equal. apply rsum_ext. intros i Hi. do 2 f_equal. apply (Fc i Hi).
    - apply Rmult_le_compat_l; [exact Hl0|]. apply rsum_le. intros [|k'] _; cbn [c]; [rewrite Rabs_R0; apply Rabs_pos|lra]. }
  rewrite (rsum_ext m _ (fun i => Rsqr (fitted n A c i - fitted n A (fun k => nth k b 0) i))) by (intros i Hi; rewrite Fc by exact Hi; reflexivity).
  replace (4 / 1000000 * rsum n (fun k => Rabs (nth k b 0))) with (2 * (2 / 1000000 * rsum n (fun k => Rabs (nth k b 0)))) by lra.
  apply (lasso_close m n A Y (INR m * lamb)); [exact Hl0| |].
  - intros t Ht. set (bt := map (fun k => nth k b 0 + t * (c k - nth k b 0)) (seq 0 n)).
    assert (Hbt : forall k, (k < n)%nat -> nth k bt 0 = nth k b 0 + t * (c k - nth k b 0)) by (intros k Hk; unfold bt; rewrite nth_map_seq by exact Hk; reflexivity).
    assert (B0t : nth 0 bt 0 = 0).
    { destruct (Nat.eq_dec n 0) as [Zn|Zn]; [unfold bt; rewrite Zn; reflexivity|]. rewrite Hbt by lia. rewrite B0. cbn [c]. ring. }
    specialize (HB bt ltac:(unfold bt; rewrite map_length, seq_length; reflexivity) B0t).
    apply (Rmult_le_compat_l (INR m)) in HB; [|lra]. rewrite !textbook_cost in HB by exact Hr. fold Y in HB.
    rewrite (lasso_cost_ext m n A Y (INR m * lamb) (fun k => nth k bt 0) _ Hbt) in HB. exact HB.
  - eapply Rle_trans; [exact Cc|]. apply (N5 (fun k => nth k b 0)).
Qed.
Print Assumptions C97_same_prediction.

(** Features without correlation: LassoCrdDesc does return the minimiser, so
    the two algorithms agree coefficient by coefficient. *)
Theorem C97_uncorrelated : forall (data : NormalizedData XR) A yr (cd : CDParam XR) P est mn fuel path nd lamb tol x0 k,
  let m := mrows (ndX data) in let n := mcols (ndX data) in
  rmat (ndX data) A -> ndy data = fins yr -> length yr = m ->
  exact_cd (ndX data) A yr cd P -> P (cdSetX cd est (ndX data)) ->
  0 <= mn -> LassoLars cd est data (fin mn) fuel = Ok path -> no_ties m n A (fun i => nth i yr 0) path ->
  (0 < m)%nat -> (0 < n)%nat -> (forall i, (i < m)%nat -> A i 0%nat = 0) ->
  (forall j, (1 <= j < n)%nat -> nonzero_col m A j) ->
  (forall i j, (i < n)%nat -> (j < n)%nat -> i <> j -> rsum m (fun a => A a i * A a j) = 0) ->
  In nd path -> lnLamb nd = fin (INR m * lamb) -> 0 <= lamb -> (1 <= k)%Z ->
  exists E v b, lnSelection nd = map Z.of_nat E /\ lnCoeff nd = fins v /\ length v = length E /\
    coefficients (LassoCrdDesc Empirical_Get data (XFin lamb) x0 k (XFin tol) PureLasso) = Ok (map XFin b) /\ length b = n /\
    rsum n (fun j => rsum m (fun i => Rsqr (A i j)) * Rsqr (spread E v j - nth j b 0)) <= 4 / 1000000 * rsum n (fun j => Rabs (nth j b 0)).
Proof.
  intros data A yr cd P est mn fuel path nd lamb tol x0 k m n HA Hy Ly HE HP Hmn EL HT Hr Hn HZ HN HO Hnd Hl Hla Hk.
  assert (Hm : 0 < INR m) by (apply lt_0_INR; lia).
  assert (Gram : forall c : nat -> R, rsum m (fun i => Rsqr (fitted n A c i)) = rsum n (fun j => rsum m (fun i => Rsqr (A i j)) * Rsqr (c j))).
  { intro c. transitivity (rsum m (fun i => rsum n (fun j => rsum n (fun j' => c j * (A i j * A i j') * c j')))).
    - apply rsum_ext. intros i _. unfold fitted, Rsqr. rewrite <- rsum_scal_r. apply rsum_ext. intros j _. rewrite <- rsum_scal. apply rsum_ext. intros j' _. ring.
    - rewrite rsum_swap. apply rsum_ext. intros j Hj. rewrite rsum_swap. rewrite (rsum_single n _ j); [|exact Hj|].
      + rewrite <- rsum_scal_r. apply rsum_ext. intros i _. unfold Rsqr. ring.
      + intros j' Hj' Hne. transitivity (c j * c j' * rsum m (fun a => A a j * A a j')); [|rewrite (HO j j') by auto; ring].
        rewrite <- rsum_scal. apply rsum_ext. intros a _. ring. }
  assert (Pos : forall j, nonzero_col m A j -> 0 < rsum m (fun i => Rsqr (A i j))).
  { intros j (i & Hi & Hne). apply Rlt_le_trans with (Rsqr (A i j)); [apply Rlt_0_sqr; exact Hne|].
    apply (rsum_term_le m (fun i => Rsqr (A i j))); [intros; apply Rle_0_sqr|exact Hi]. }
  assert (HI : independent m n A).
  { intros w H0 Hw j Hj. destruct (Nat.eq_dec j 0) as [->|Hj0].
    - apply H0; [exact Hj|]. intros (i & Hi & Hne). apply Hne. apply HZ. exact Hi.
    - pose proof (Gram w) as G. rewrite rsum_0' in G by (intros i Hi; unfold fitted; rewrite (Hw i Hi); unfold Rsqr; ring). symmetry in G.
      pose proof (rsum_zero_terms n _ (fun j _ => Rmult_le_pos _ _ (rsum_nonneg m _ (fun i _ => Rle_0_sqr _)) (Rle_0_sqr _)) G j Hj) as T. cbv beta in T.
      apply Rmult_integral in T. destruct T as [T|T]; [pose proof (Pos j (HN j ltac:(lia))); lra|]. apply Rsqr_0_uniq. exact T. }
  pose proof (empirical_data data A yr HA Hy Ly Hr Hn) as D. fold m n in D.
  destruct (C76_uncorrelated Empirical_Get data m n A yr _ lamb tol x0 k D) as (b & B1 & B2 & _); auto.
  { intros i j _ _. f_equal. apply rsum_ext. intros; ring. }
  { intros i j Hi Hj Hne. rewrite HO by lia. unfold Rdiv. ring. }
  { intros j Hj. apply Rdiv_lt_0_compat; [|exact Hm]. exact (Pos j (HN j Hj)). }
  destruct (C97_same_prediction data A yr cd P est mn fuel path nd lamb b HA Hy Ly HE HP HI Hmn EL HT Hr HZ Hnd Hl Hla) as (E & v & N1 & N2 & N3 & N4).
  { destruct B2 as (L1 & L2 & L3). split; [exact L1|]. split; [exact L2|]. intros x Lx X0. specialize (L3 x Lx X0).
    rewrite !C32_objective_is_textbook in L3 by auto. fold m n. lra. }
  exists E, v, b. split; [exact N1|]. split; [exact N2|]. split; [exact N3|]. split; [exact B1|]. split; [exact (proj1 B2)|].
  fold m n in N4. rewrite <- Gram. erewrite rsum_ext; [exact N4|]. intros i _. cbv beta. f_equal. unfold fitted. rewrite <- rsum_minus. apply rsum_ext. intros; ring.
Qed.
Print Assumptions C97_uncorrelated.

(** the path of C37_example: its second node has lambda = 1 and the
    coefficients 0 and -2; coordinate descent with the penalty 1/3 on the three
    rows gives the same *)
Example C97_example : exists b,
  LassoLars orthonormalCD (exb_X, []) exb_nd (fin (/ 1000)) 10 = Ok exb_path /\
  In (mkLN (N := XR) (fins [0; -2]) (fin (INR 3 * / 3)) [1%Z; 2%Z]) exb_path /\
  coefficients (LassoCrdDesc Empirical_Get exb_nd (XFin (/ 3)) None 10 (XFin (/ 1000)) PureLasso) = Ok (map XFin b) /\
  rsum 3 (fun j => rsum 3 (fun i => Rsqr (exb_A i j)) * Rsqr (spread [1; 2]%nat [0; -2] j - nth j b 0)) <= 4 / 1000000 * rsum 3 (fun j => Rabs (nth j b 0)).
Proof.
  assert (E1 : fin (INR 3 * / 3) = fin 1) by (apply (f_equal fin); cbn; lra). rewrite E1.
  assert (HIn : In (mkLN (N := XR) (fins [0; -2]) (fin 1) [1%Z; 2%Z]) exb_path) by (right; left; reflexivity).
  destruct (C97_uncorrelated exb_nd exb_A exb_y orthonormalCD (fun st => fst st = exb_X) (exb_X, []) (/ 1000) 10 exb_path (mkLN (N := XR) (fins [0; -2]) (fin 1) [1%Z; 2%Z]) (/ 3) (/ 1000) None 10
    exb_rmat eq_refl eq_refl exb_exact eq_refl ltac:(lra) exb_runs exb_no_ties)
    as (E & v & b & N1 & N2 & N3 & N4 & N5 & N6); try exact HIn; try exact (eq_sym E1); try (cbn; lia); try lra.
  - intros i Hi. reflexivity.
  - intros j Hj. change (mcols (ndX exb_nd)) with 3%nat in Hj. destruct j as [|[|[|j]]]; try lia; [exists 0%nat|exists 1%nat]; (split; [cbn; lia|cbn; unfold delta; cbn; lra]).
  - intros i j Hi Hj Hne. change (mcols (ndX exb_nd)) with 3%nat in *. change (mrows (ndX exb_nd)) with 3%nat.
    destruct i as [|[|[|i]]]; try lia; destruct j as [|[|[|j]]]; try lia; cbn; unfold delta; cbn; ring.
  - exists b. split; [exact exb_runs|]. split; [exact HIn|]. split; [exact N4|]. cbn [lnSelection lnCoeff] in *.
    assert (HE0 : E = [1; 2]%nat).
    { destruct E as [|x [|x' [|? ?]]]; cbn [map] in N1; try discriminate N1. injection N1 as X1 X2.
      rewrite (Nat2Z.inj x 1) by (symmetry; exact X1). rewrite (Nat2Z.inj x' 2) by (symmetry; exact X2). reflexivity. }
    subst E. assert (Hv : v = [0; -2]).
    { destruct v as [|x [|x' [|? ?]]]; cbn [fins map] in N2; try discriminate N2. injection N2 as X1 X2. subst. reflexivity. }
    subst v. exact N6.
Qed.

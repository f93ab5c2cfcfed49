(** Proofs for C74. *)
From Coq Require Import String Sorted Permutation Reals Lra.
From Verif Require Import Base Num Mat Model_Node Model_Util Model_Norm Model_Fit Model_CSV Model_Lars Model_Path Model_Cmd
  RSum Stats Proof_Util Proof_XR Proof_Norm Proof_Norm2 Spec_Lars Proof_Homotopy Spec_Path Spec_LassoCmd.
Open Scope R_scope.

Lemma lsum_combine : forall (g : Z -> R -> R) a b, length a = length b ->
  lsum (map (fun p => g (fst p) (snd p)) (combine a b)) = rsum (length a) (fun j => g (nth j a 0%Z) (nth j b 0)).
Proof.
  induction a as [|u a IH]; intros [|v b] H; try discriminate H; [reflexivity|].
  cbn [combine map fst snd]. rewrite lsum_cons, IH by (injection H; auto). cbn [length]. rewrite rsum_shift. reflexivity.
Qed.

Section Units.
  Variables (m n' : nat) (x : nat -> nat -> R) (y : list R).
  Let n := S n'.
  Let mu k := mean (column m x k).
  Let sd k := sdev (column m x k).
  Hypotheses (Hm : (0 < m)%nat) (Hy : length y = m) (HsY : 0 < sdev y)
             (Hsd : forall k, (0 < k < n)%nat -> 0 < sd k).
  Let z := standard_x m x.
  Let yz i := nth i (standard_y y) 0.

  Lemma yz_nth : forall i, (i < m)%nat -> yz i = (nth i y 0 - mean y) / sdev y.
  Proof.
    intros i Hi. unfold yz, standard_y. rewrite (nth_indep _ 0 ((0 - mean y) / sdev y)) by (rewrite map_length; lia).
    apply (map_nth (fun v => (v - mean y) / sdev y)).
  Qed.

  Lemma sum_col : forall k, rsum m (fun i => x i k) = INR m * mu k.
  Proof.
    intro k. unfold mu, mean, column. rewrite lsum_map_seq, map_length, seq_length.
    assert (INR m <> 0) by (apply not_0_INR; lia). field. assumption.
  Qed.
  Lemma sum_y : rsum m (fun i => nth i y 0) = INR m * mean y.
  Proof.
    unfold mean. rewrite lsum_rsum, Hy. assert (INR m <> 0) by (apply not_0_INR; lia). field. assumption.
  Qed.

  Lemma z_sum : forall k, rsum m (fun i => z i k) = 0.
  Proof.
    intros [|k]; [apply rsum_0|]. unfold z. cbn [standard_x]. unfold Rdiv. rewrite rsum_scal_r, rsum_minus, sum_col, rsum_const.
    fold (mu (S k)). ring.
  Qed.
  Lemma yz_sum : rsum m yz = 0.
  Proof.
    rewrite (rsum_ext m yz (fun i => (nth i y 0 - mean y) * / sdev y)) by (intros i Hi; rewrite yz_nth by exact Hi; reflexivity).
    rewrite rsum_scal_r, rsum_minus, sum_y, rsum_const. ring.
  Qed.

  (** the coefficients in the units of the normalised data *)
  Definition scaled (c : nat -> R) (k : nat) : R := match k with O => 0 | S _ => c k * sd k / sdev y end.
  Definition offset (c0 : R) (c : nat -> R) : R := (mean y - c0 - rsum n' (fun k => c (S k) * mu (S k))) / sdev y.

  Lemma residual : forall c0 c i, (i < m)%nat ->
    nth i y 0 - prediction n x c0 c i = sdev y * (yz i - rsum n (fun k => z i k * scaled c k) + offset c0 c).
  Proof.
    intros c0 c i Hi. rewrite yz_nth by exact Hi. unfold n at 2. rewrite rsum_shift. change (scaled c 0) with 0. rewrite Rmult_0_r.
    unfold prediction, offset. replace (n - 1)%nat with n' by (unfold n; lia).
    rewrite (rsum_ext n' (fun k => z i (S k) * scaled c (S k)) (fun k => c (S k) * x i (S k) * / sdev y - c (S k) * mu (S k) * / sdev y)).
    - rewrite rsum_minus, !rsum_scal_r. field. lra.
    - intros k Hk. cbn [scaled]. unfold z, standard_x. fold (mu (S k)). fold (sd (S k)). specialize (Hsd (S k) ltac:(unfold n; lia)). field. lra.
  Qed.

  Lemma size_scaled : forall c, size m n x y c = rsum n (fun k => Rabs (scaled c k)).
  Proof.
    intro c. unfold n at 2. rewrite rsum_shift. change (scaled c 0) with 0. rewrite Rabs_R0, Rplus_0_l. unfold size. replace (n - 1)%nat with n' by (unfold n; lia).
    apply rsum_ext. intros k Hk. fold (sd (S k)). specialize (Hsd (S k) ltac:(unfold n; lia)). cbn [scaled]. unfold Rdiv.
    rewrite !Rabs_mult, (Rabs_right (sd (S k))), (Rabs_right (/ sdev y)); [reflexivity| |lra].
    apply Rle_ge. left. apply Rinv_0_lt_compat. exact HsY.
  Qed.

  Lemma objective_scaled : forall l c0 c,
    objective m n x y l c0 c = lasso_cost m n z yz l (scaled c) + INR m / 2 * Rsqr (offset c0 c).
  Proof.
    intros l c0 c. unfold objective, lasso_cost. rewrite size_scaled. set (p := l * _).
    set (d := offset c0 c).
    assert (E : squared_error m n x y c0 c =
      Rsqr (sdev y) * (rsum m (fun i => Rsqr (yz i - rsum n (fun k => z i k * scaled c k))) + INR m * Rsqr d)).
    { unfold squared_error. rewrite <- rsum_const.
      assert (Z : rsum m (fun i => yz i - rsum n (fun k => z i k * scaled c k)) = 0).
      { rewrite rsum_minus, yz_sum, rsum_swap. rewrite (rsum_0' n); [ring|]. intros k Hk. rewrite rsum_scal_r, z_sum. ring. }
      rewrite (rsum_ext m _ (fun i => Rsqr (sdev y) * (Rsqr (yz i - rsum n (fun k => z i k * scaled c k)) + Rsqr d) +
        2 * d * Rsqr (sdev y) * (yz i - rsum n (fun k => z i k * scaled c k)))).
      - rewrite rsum_plus, !rsum_scal, Z, rsum_plus. ring.
      - intros i Hi. rewrite residual by exact Hi. fold d. unfold Rsqr. ring. }
    rewrite E. assert (Rsqr (sdev y) <> 0) by (unfold Rsqr; nra). field. assumption.
  Qed.

  (** a solution of the normalised problem, converted *)
  Section Node.
    Variables (E : list nat) (v : list R).
    Hypotheses (HE : forall f, In f E -> (0 < f < n)%nat) (ND : NoDup E) (HL : length v = length E).
    Let sel := map Z.of_nat E.
    Let w := map (fun p => snd p * sdev y / sdev (rcol m x (Z.to_nat (fst p)))) (combine sel v).
    Let b0 := mean y - sdev y * shift m x sel v.

    Lemma w_length : length w = length E.
    Proof. unfold w, sel. rewrite map_length, combine_length, map_length. lia. Qed.
    Lemma sel_nth : forall j, (j < length E)%nat -> nth j sel 0%Z = Z.of_nat (nth j E 0%nat).
    Proof.
      intros j Hj. unfold sel. rewrite (nth_indep _ 0%Z (Z.of_nat 0)) by (rewrite map_length; exact Hj). apply map_nth.
    Qed.
    Lemma w_nth : forall j, (j < length E)%nat -> nth j w 0 = nth j v 0 * sdev y / sd (nth j E 0%nat).
    Proof.
      intros j Hj. unfold w. rewrite (nth_map_lt _ _ _ _ j (0%Z, 0%R)) by (rewrite combine_length; unfold sel; rewrite map_length; lia).
      rewrite combine_nth by (unfold sel; rewrite map_length; lia). cbn [fst snd]. rewrite sel_nth by exact Hj. rewrite Nat2Z.id. reflexivity.
    Qed.

    Lemma scaled_w : forall k, (k < n)%nat -> scaled (spread E w) k = spread E v k.
    Proof.
      intros k Hk. destruct (in_dec Nat.eq_dec k E) as [C|C].
      - pose proof (HE k C) as Hk'. destruct (In_nth E k 0%nat C) as (j & Hj & Ej). destruct k as [|k]; [lia|].
        cbn [scaled]. rewrite <- Ej, !spread_nth by assumption. rewrite w_nth by exact Hj.
        specialize (Hsd _ Hk'). rewrite Ej. field. split; lra.
      - rewrite (spread_out E v k C). destruct k as [|k]; [reflexivity|]. cbn [scaled]. rewrite spread_out by exact C. unfold Rdiv. ring.
    Qed.

    Lemma sum_others : forall g u, length u = length E ->
      rsum n' (fun k => spread E u (S k) * g (S k)) = rsum (length E) (fun j => g (nth j E 0%nat) * nth j u 0).
    Proof.
      intros g u Hu. rewrite <- (spread_sum n E u g) by (intros f Hf; apply HE in Hf; lia). unfold n. rewrite rsum_shift.
      rewrite (spread_out E u 0) by (intro C; apply HE in C; lia). rewrite Rmult_0_r, Rplus_0_l. apply rsum_ext. intros. ring.
    Qed.

    Lemma offset_w : offset b0 (spread E w) = 0.
    Proof.
      unfold offset. rewrite sum_others by apply w_length. unfold b0, shift. rewrite (lsum_combine (fun a b => b * mean (rcol m x (Z.to_nat a)) / sdev (rcol m x (Z.to_nat a)))) by (unfold sel; rewrite map_length; lia).
      unfold sel at 1. rewrite map_length.
      rewrite (rsum_ext (length E) (fun j => mu (nth j E 0%nat) * nth j w 0) (fun j => sdev y * (nth j v 0 * mean (rcol m x (Z.to_nat (nth j sel 0%Z))) / sdev (rcol m x (Z.to_nat (nth j sel 0%Z)))))).
      - rewrite rsum_scal. field. lra.
      - intros j Hj. rewrite w_nth, sel_nth, Nat2Z.id by exact Hj. change (rcol m x) with (column m x). fold (mu (nth j E 0%nat)). fold (sd (nth j E 0%nat)).
        specialize (Hsd _ (HE _ (nth_In E 0%nat Hj))). field. lra.
    Qed.

    Lemma node_residual : forall i, (i < m)%nat ->
      nth i y 0 - prediction n x b0 (spread E w) i = sdev y * (yz i - rsum n (fun k => z i k * spread E v k)).
    Proof.
      intros i Hi. rewrite residual by exact Hi. rewrite offset_w, Rplus_0_r. f_equal. f_equal. apply rsum_ext. intros k Hk.
      rewrite scaled_w by exact Hk. reflexivity.
    Qed.

    Lemma node_objective : forall l, objective m n x y l b0 (spread E w) = lasso_cost m n z yz l (spread E v).
    Proof.
      intro l. rewrite objective_scaled, offset_w, Rsqr_0, Rmult_0_r, Rplus_0_r. unfold lasso_cost. f_equal.
      - f_equal. apply rsum_ext. intros i Hi. do 2 f_equal. apply rsum_ext. intros k Hk. rewrite scaled_w by exact Hk. reflexivity.
      - f_equal. apply rsum_ext. intros k Hk. rewrite scaled_w by exact Hk. reflexivity.
    Qed.

    Lemma node_optimal : forall l eps,
      (forall b, lasso_cost m n z yz l (spread E v) <= lasso_cost m n z yz l b + eps * rsum n (fun k => Rabs (b k))) ->
      forall c0 c, objective m n x y l b0 (spread E w) <= objective m n x y l c0 c + eps * size m n x y c.
    Proof.
      intros l eps H c0 c. rewrite node_objective, objective_scaled, size_scaled. specialize (H (scaled c)).
      assert (0 <= INR m / 2 * Rsqr (offset c0 c)).
      { apply Rmult_le_pos; [|apply Rle_0_sqr]. pose proof (pos_INR m). lra. }
      lra.
    Qed.

    Lemma node_error_pos : forall f l s, In f E -> s = 1 \/ s = -1 -> 0 < l ->
      corr m n z yz (spread E v) f = l * s -> 0 < squared_error m n x y b0 (spread E w).
    Proof.
      intros f l s Hf Hs Hl Hc.
      assert (P : 0 <= squared_error m n x y b0 (spread E w)) by (apply rsum_nonneg; intros; apply Rle_0_sqr).
      destruct P as [P|P]; [exact P|]. exfalso.
      assert (R0 : forall i, (i < m)%nat -> yz i - rsum n (fun k => z i k * spread E v k) = 0).
      { intros i Hi. unfold squared_error in P. symmetry in P.
        pose proof (rsum_zero_terms _ _ (fun i _ => Rle_0_sqr _) P i Hi) as Q. cbn beta in Q. apply Rsqr_0_uniq in Q.
        rewrite node_residual in Q by exact Hi. apply Rmult_integral in Q. destruct Q as [Q|Q]; [lra|exact Q]. }
      assert (C0 : corr m n z yz (spread E v) f = 0).
      { unfold corr. apply rsum_0'. intros i Hi. rewrite R0 by exact Hi. ring. }
      rewrite C0 in Hc. destruct Hs as [->| ->]; lra.
    Qed.

    Lemma node_rss_error : (forall i, (i < m)%nat -> x i 0%nat = 1) ->
      node_rss m x (0%Z :: sel) (b0 :: w) y = squared_error m n x y b0 (spread E w).
    Proof.
      intro Hb. unfold node_rss, squared_error, prediction. apply rsum_ext. intros i Hi. rewrite <- Rsqr_neg_minus. f_equal. f_equal.
      cbn [length]. rewrite rsum_shift. cbn [nth]. change (Z.to_nat 0) with 0%nat. rewrite Hb, Rmult_1_l by exact Hi. f_equal.
      replace (n - 1)%nat with n' by (unfold n; lia). rewrite (sum_others (fun k => x i k)) by apply w_length. unfold sel at 1. rewrite map_length.
      apply rsum_ext. intros j Hj. rewrite sel_nth, Nat2Z.id by exact Hj. reflexivity.
    Qed.
  End Node.

  (** independence carries over to the normalised features *)
  Lemma standard_independent : (forall i, (i < m)%nat -> x i 0%nat = 1) -> full_rank m n x -> independent m n z.
  Proof.
    intros Hb FR v H0 H k Hk.
    set (u := fun k => match k with O => - rsum n' (fun k => v (S k) * mu (S k) / sd (S k)) | S _ => v k / sd k end).
    assert (U : forall k, (k < n)%nat -> u k = 0).
    { apply FR. intros i Hi. specialize (H i Hi). unfold n in *. rewrite rsum_shift in *. cbn [u]. rewrite Hb, Rmult_1_l by exact Hi.
      unfold z in H. cbn [standard_x] in H. rewrite Rmult_0_l, Rplus_0_l in H.
      rewrite <- H, <- rsum_opp, <- rsum_plus. apply rsum_ext. intros j Hj. fold (mu (S j)). fold (sd (S j)).
      specialize (Hsd (S j) ltac:(lia)). field. lra. }
    destruct k as [|k].
    - apply H0; [exact Hk|]. intros (i & _ & C). apply C. reflexivity.
    - specialize (U (S k) Hk). cbn [u] in U. specialize (Hsd (S k) ltac:(lia)).
      replace (v (S k)) with (v (S k) / sd (S k) * sd (S k)) by (field; lra). rewrite U. ring.
  Qed.
End Units.

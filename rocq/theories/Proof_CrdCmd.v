(** Proofs for C77: leaving out tiny coefficients hardly changes the lasso
    objective, and the sums of squares of normalised data. *)
From Coq Require Import Reals Lra Psatz.
From Verif Require Import Base RSum Stats Spec_Lars Spec_LassoCmd Proof_LassoCmd.
Open Scope R_scope.

Lemma rsum_sqr_le : forall n f, Rsqr (rsum n f) <= INR n * rsum n (fun k => Rsqr (f k)).
Proof.
  induction n as [|n IH]; intro f; [cbn; unfold Rsqr; lra|]. cbn [rsum]. rewrite S_INR.
  assert (C : 2 * rsum n f * f n <= rsum n (fun k => Rsqr (f k)) + INR n * Rsqr (f n)).
  { rewrite <- rsum_const, <- rsum_plus. replace (2 * rsum n f * f n) with (rsum n (fun k => 2 * f k * f n)).
    - apply rsum_le. intros k _. pose proof (Rle_0_sqr (f k - f n)) as Q. unfold Rsqr in *. lra.
    - rewrite (rsum_ext n _ (fun k => 2 * f n * f k)) by (intros; ring). rewrite rsum_scal. ring. }
  specialize (IH f). unfold Rsqr in *. nra.
Qed.

Section Trunc.
  Variables (m n : nat) (z : nat -> nat -> R) (yz : nat -> R) (l M eps : R) (b b' : nat -> R).
  Hypotheses (HM : 0 <= M) (He : 0 <= eps) (Hl : 0 <= l)
    (Hz : forall k, (k < n)%nat -> rsum m (fun i => Rsqr (z i k)) <= M)
    (Hy : rsum m (fun i => Rsqr (yz i)) <= M)
    (Hb : lasso_cost m n z yz l b <= lasso_cost m n z yz l (fun _ => 0))
    (Hb' : forall k, (k < n)%nat -> b' k = b k \/ (b' k = 0 /\ Rabs (b k) <= eps)).
  Let r i := yz i - rsum n (fun k => z i k * b k).

  Lemma res_le : rsum m (fun i => Rsqr (r i)) <= M.
  Proof.
    unfold lasso_cost in Hb. fold r in Hb.
    rewrite (rsum_ext m (fun i => Rsqr (yz i - rsum n (fun k => z i k * 0))) (fun i => Rsqr (yz i))) in Hb.
    2:{ intros i _. f_equal. rewrite (rsum_0' n) by (intros; ring). ring. }
    rewrite (rsum_0' n (fun k => Rabs 0)) in Hb by (intros; apply Rabs_R0).
    assert (0 <= l * rsum n (fun k => Rabs (b k))) by (apply Rmult_le_pos; [exact Hl|]; apply rsum_nonneg; intros; apply Rabs_pos).
    change (fun i => Rsqr (yz i - rsum n (fun k => z i k * b k))) with (fun i => Rsqr (r i)) in Hb. lra.
  Qed.

  Lemma truncated : lasso_cost m n z yz l b' <= lasso_cost m n z yz l b + M * (INR n * eps + Rsqr (INR n * eps) / 2).
  Proof.
    set (u := fun k => b k - b' k).
    assert (Hu : forall k, (k < n)%nat -> Rabs (u k) <= eps).
    { intros k Hk. unfold u. destruct (Hb' k Hk) as [->|(-> & H)].
      - rewrite Rminus_eq_0, Rabs_R0. exact He.
      - rewrite Rminus_0_r. exact H. }
    set (s := fun i => rsum n (fun k => z i k * u k)).
    assert (E : rsum m (fun i => Rsqr (yz i - rsum n (fun k => z i k * b' k))) =
      rsum m (fun i => Rsqr (r i)) + 2 * rsum m (fun i => r i * s i) + rsum m (fun i => Rsqr (s i))).
    { rewrite <- rsum_scal, <- !rsum_plus. apply rsum_ext. intros i Hi.
      replace (yz i - rsum n (fun k => z i k * b' k)) with (r i + s i); [unfold Rsqr; ring|].
      unfold r, s. replace (rsum n (fun k => z i k * b' k)) with (rsum n (fun k => z i k * b k) - rsum n (fun k => z i k * u k)); [ring|].
      rewrite <- rsum_minus. apply rsum_ext. intros k _. unfold u. ring. }
    assert (C1 : rsum m (fun i => r i * s i) <= M * (INR n * eps)).
    { unfold s. rewrite (rsum_ext m _ (fun i => rsum n (fun k => r i * (z i k * u k)))) by (intros; rewrite rsum_scal; reflexivity).
      rewrite rsum_swap. replace (M * (INR n * eps)) with (rsum n (fun _ => M * eps)) by (rewrite rsum_const; ring).
      apply rsum_le. intros k Hk.
      apply Rle_trans with (rsum m (fun i => eps * ((Rsqr (r i) + Rsqr (z i k)) / 2))).
      - apply rsum_le. intros i _. apply Rle_trans with (Rabs (r i * (z i k * u k))); [apply Rle_abs|].
        rewrite !Rabs_mult. rewrite (Rsqr_abs (r i)), (Rsqr_abs (z i k)).
        specialize (Hu k Hk). pose proof (Rabs_pos (r i)). pose proof (Rabs_pos (z i k)). pose proof (Rabs_pos (u k)).
        set (p := Rabs (r i)) in *. set (q := Rabs (z i k)) in *. set (w := Rabs (u k)) in *.
        apply Rle_trans with (p * q * eps).
        + rewrite <- Rmult_assoc. apply Rmult_le_compat_l; [apply Rmult_le_pos; assumption|exact Hu].
        + rewrite (Rmult_comm (p * q)). apply Rmult_le_compat_l; [exact He|]. pose proof (Rle_0_sqr (p - q)) as Q. unfold Rsqr in *. lra.
      - rewrite rsum_scal. rewrite Rmult_comm. apply Rmult_le_compat_r; [exact He|].
        unfold Rdiv. rewrite rsum_scal_r, rsum_plus. pose proof res_le. specialize (Hz k Hk). lra. }
    assert (C2 : rsum m (fun i => Rsqr (s i)) <= M * Rsqr (INR n * eps)).
    { apply Rle_trans with (rsum m (fun i => INR n * rsum n (fun k => Rsqr eps * Rsqr (z i k)))).
      - apply rsum_le. intros i _. apply Rle_trans with (1 := rsum_sqr_le n _). apply Rmult_le_compat_l; [apply pos_INR|].
        apply rsum_le. intros k Hk. rewrite Rsqr_mult, Rmult_comm. apply Rmult_le_compat_r; [apply Rle_0_sqr|].
        apply Rsqr_le_abs_1. rewrite (Rabs_right eps) by lra. apply Hu. exact Hk.
      - rewrite rsum_scal, rsum_swap. rewrite Rsqr_mult.
        replace (M * (Rsqr (INR n) * Rsqr eps)) with (INR n * rsum n (fun _ => Rsqr eps * M)) by (rewrite rsum_const; unfold Rsqr; ring).
        apply Rmult_le_compat_l; [apply pos_INR|]. apply rsum_le. intros k Hk. rewrite rsum_scal.
        apply Rmult_le_compat_l; [apply Rle_0_sqr|]. apply Hz. exact Hk. }
    assert (C3 : rsum n (fun k => Rabs (b' k)) <= rsum n (fun k => Rabs (b k))).
    { apply rsum_le. intros k Hk. destruct (Hb' k Hk) as [->|(-> & _)]; [lra|]. rewrite Rabs_R0. apply Rabs_pos. }
    assert (C4 : l * rsum n (fun k => Rabs (b' k)) <= l * rsum n (fun k => Rabs (b k))) by (apply Rmult_le_compat_l; assumption).
    unfold lasso_cost. rewrite E. change (fun i => Rsqr (yz i - rsum n (fun k => z i k * b k))) with (fun i => Rsqr (r i)). lra.
  Qed.
End Trunc.

(** sums of squares of normalised data *)
Lemma normalized_squares : forall l, 0 < sdev l ->
  lsum (map (fun v => Rsqr ((v - mean l) / sdev l)) l) = INR (length l - 1).
Proof.
  intros l H. unfold sdev in H at 1. destruct (Nat.leb_spec (length l) 1) as [C|C]; [lra|].
  assert (P : 0 < INR (length l - 1)) by (apply lt_0_INR; lia).
  assert (S2 : sdev l * sdev l * INR (length l - 1) = lsum (map (fun x => (x - mean l) * (x - mean l)) l)).
  { unfold sdev. rewrite (proj2 (Nat.leb_gt _ _) C). rewrite sqrt_sqrt; [field; lra|].
    apply Rmult_le_pos; [apply sq_sum_nonneg|]. left. apply Rinv_0_lt_compat. exact P. }
  assert (Hs : 0 < sdev l) by (unfold sdev; rewrite (proj2 (Nat.leb_gt _ _) C); exact H).
  rewrite (map_ext _ (fun v => / (sdev l * sdev l) * ((v - mean l) * (v - mean l)))) by (intro v; unfold Rsqr; field; lra).
  rewrite <- (map_map (fun v => (v - mean l) * (v - mean l)) (fun q => / (sdev l * sdev l) * q)), lsum_map_scal, <- S2. field. lra.
Qed.

Lemma standard_x_squares : forall m x k, 0 < sdev (column m x (S k)) ->
  rsum m (fun i => Rsqr (standard_x m x i (S k))) = INR (m - 1).
Proof.
  intros m x k H. rewrite <- lsum_map_seq.
  replace (map (fun i => Rsqr (standard_x m x i (S k))) (seq 0 m))
    with (map (fun v => Rsqr ((v - mean (column m x (S k))) / sdev (column m x (S k)))) (column m x (S k))).
  - rewrite normalized_squares by exact H. unfold column. rewrite map_length, seq_length. reflexivity.
  - unfold column at 3. rewrite map_map. reflexivity.
Qed.

Lemma standard_y_squares : forall y, 0 < sdev y -> rsum (length y) (fun i => Rsqr (nth i (standard_y y) 0)) = INR (length y - 1).
Proof.
  intros y H. rewrite <- (normalized_squares y H), lsum_rsum, map_length. apply rsum_ext. intros i Hi.
  rewrite (nth_indep (map _ y) 0 (Rsqr ((0 - mean y) / sdev y))) by (rewrite map_length; exact Hi).
  rewrite (map_nth (fun v => Rsqr ((v - mean y) / sdev y))). f_equal. unfold standard_y.
  rewrite (nth_indep (map _ y) 0 ((0 - mean y) / sdev y)) by (rewrite map_length; exact Hi).
  apply (map_nth (fun v => (v - mean y) / sdev y)).
Qed.

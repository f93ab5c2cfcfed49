(** The lasso path over the reals: facts about [segment] that do not refer to
    the model. *)
From Coq Require Import Reals Lra List Arith Lia Psatz.
From Verif Require Import RSum Spec_Lars.
Import ListNotations.
Open Scope R_scope.

Section Homotopy.
  Variable m n : nat.
  Variable A : nat -> nat -> R.
  Variable y : nat -> R.
  Local Notation rho := (corr m n A y).
  Local Notation seg := (segment m n A y).

  (** X^T X v *)
  Definition gv (v : nat -> R) (f : nat) : R := rsum m (fun i => A i f * rsum n (fun k => A i k * v k)).

  Lemma corr_gv : forall b f, rho b f = rsum m (fun i => A i f * y i) - gv b f.
  Proof. intros b f. unfold corr, gv. rewrite <- rsum_minus. apply rsum_ext. intros i Hi. ring. Qed.

  Lemma gv_lin : forall t u v f, gv (fun k => u k - t * v k) f = gv u f - t * gv v f.
  Proof.
    intros t u v f. unfold gv. rewrite <- rsum_scal, <- rsum_minus. apply rsum_ext. intros i Hi.
    replace (rsum n (fun k => A i k * (u k - t * v k))) with (rsum n (fun k => A i k * u k) - t * rsum n (fun k => A i k * v k)).
    - ring.
    - rewrite <- rsum_scal, <- rsum_minus. apply rsum_ext. intros. ring.
  Qed.

  Lemma gv_ext : forall u v f, (forall k, (k < n)%nat -> u k = v k) -> gv u f = gv v f.
  Proof. intros u v f H. unfold gv. apply rsum_ext. intros i Hi. f_equal. apply rsum_ext. intros k Hk. rewrite H by exact Hk. reflexivity. Qed.

  Lemma corr_ext : forall u v f, (forall k, (k < n)%nat -> u k = v k) -> rho u f = rho v f.
  Proof. intros u v f H. rewrite !corr_gv, (gv_ext u v f H). reflexivity. Qed.

  Lemma corr_lin : forall t c d f, rho (fun k => c k - t * d k) f = rho c f + t * gv d f.
  Proof. intros. rewrite !corr_gv, gv_lin. ring. Qed.

  Lemma gv_quad : forall v, rsum n (fun k => v k * gv v k) = rsum m (fun i => Rsqr (rsum n (fun k => A i k * v k))).
  Proof.
    intros v. unfold gv. transitivity (rsum n (fun k => rsum m (fun i => v k * A i k * rsum n (fun k => A i k * v k)))).
    - apply rsum_ext. intros k Hk. rewrite <- rsum_scal. apply rsum_ext. intros. ring.
    - rewrite rsum_swap. apply rsum_ext. intros i Hi. unfold Rsqr. rewrite <- rsum_scal. apply rsum_ext. intros. ring.
  Qed.

  Lemma quad_nonneg : forall v, 0 <= rsum n (fun k => v k * gv v k).
  Proof. intros v. rewrite gv_quad. apply rsum_nonneg. intros. apply Rle_0_sqr. Qed.

  (** moving between two vectors with the same support that differ in the
      correlation of one feature only *)
  Lemma move : forall E b b' j, (j < n)%nat ->
    (forall k, (k < n)%nat -> ~ In k E -> k <> j -> b k = b' k) ->
    (forall f, In f E -> f <> j -> (f < n)%nat -> rho b f = rho b' f) ->
    0 <= (b' j - b j) * (rho b j - rho b' j).
  Proof.
    intros E b b' j Hj H1 H2. pose proof (quad_nonneg (fun k => b' k - b k)) as Q.
    rewrite (rsum_single n _ j Hj) in Q.
    - replace (rho b j - rho b' j) with (gv (fun k => b' k - b k) j); [exact Q|].
      rewrite !corr_gv. rewrite (gv_ext _ (fun k => b' k - 1 * b k)) by (intros; ring). rewrite gv_lin. ring.
    - intros i Hi Hne. destruct (in_dec Nat.eq_dec i E) as [C|C].
      + replace (gv (fun k => b' k - b k) i) with (rho b i - rho b' i); [rewrite (H2 i C Hne Hi); ring|].
        rewrite !corr_gv. rewrite (gv_ext (fun k => b' k - b k) (fun k => b' k - 1 * b k)) by (intros; ring). rewrite gv_lin. ring.
      + rewrite (H1 i Hi C Hne). ring.
  Qed.

  Hypothesis FR : independent m n A.

  Lemma zero_col : forall f, ~ nonzero_col m A f -> forall i, (i < m)%nat -> A i f = 0.
  Proof. intros f H i Hi. destruct (Req_dec (A i f) 0) as [C|C]; [exact C|]. exfalso. apply H. exists i. auto. Qed.
  Lemma zero_corr : forall f b, ~ nonzero_col m A f -> rho b f = 0.
  Proof. intros f b H. unfold corr. apply rsum_0'. intros i Hi. rewrite (zero_col f H i Hi). ring. Qed.
  Lemma zero_gv : forall f b, ~ nonzero_col m A f -> gv b f = 0.
  Proof. intros f b H. unfold gv. apply rsum_0'. intros i Hi. rewrite (zero_col f H i Hi). ring. Qed.
  Lemma nonzero_dec : forall f, nonzero_col m A f \/ ~ nonzero_col m A f.
  Proof.
    clear FR. intros f. unfold nonzero_col. induction m as [|k IH]; [right; intros (i & Hi & _); lia|].
    destruct (Req_dec (A k f) 0) as [C|C]; [|left; exists k; split; [lia|exact C]].
    destruct IH as [(i & Hi & H)|IH]; [left; exists i; split; [lia|exact H]|right].
    intros (i & Hi & H). apply IH. exists i. split; [|exact H]. destruct (Nat.eq_dec i k) as [->|D]; [contradiction|lia].
  Qed.

  Lemma seg_unique : forall E s t b b', seg E s t b -> seg E s t b' -> (forall f, In f E -> (f < n)%nat) ->
    (forall f, In f E -> nonzero_col m A f) -> forall k, (k < n)%nat -> b k = b' k.
  Proof.
    intros E s t b b' (S1 & S2) (T1 & T2) HE HG.
    assert (Z : rsum n (fun k => (b' k - b k) * gv (fun k => b' k - b k) k) = 0).
    { apply rsum_0'. intros i Hi. destruct (in_dec Nat.eq_dec i E) as [C|C].
      - replace (gv (fun k => b' k - b k) i) with (rho b i - rho b' i); [rewrite S2, T2 by exact C; ring|].
        rewrite !corr_gv. rewrite (gv_ext (fun k => b' k - b k) (fun k => b' k - 1 * b k)) by (intros; ring). rewrite gv_lin. ring.
      - rewrite S1, T1 by assumption. ring. }
    rewrite gv_quad in Z.
    assert (V : forall k, (k < n)%nat -> b' k - b k = 0).
    { apply (FR (fun k => b' k - b k)).
      { intros k Hk C. rewrite S1, T1; [ring|exact Hk| |exact Hk|]; intro D; apply C, HG, D. }
      intros i Hi.
      pose proof (rsum_zero_terms m _ (fun i _ => Rle_0_sqr _) Z i Hi) as Q. cbv beta in Q. apply Rsqr_0_uniq in Q. exact Q. }
    intros k Hk. specialize (V k Hk). lra.
  Qed.

  Lemma spread_sum : forall E v g, (forall f, In f E -> (f < n)%nat) ->
    rsum n (fun k => g k * spread E v k) = rsum (length E) (fun i => g (nth i E 0%nat) * nth i v 0).
  Proof.
    intros E v g HE. unfold spread.
    transitivity (rsum n (fun k => rsum (length E) (fun i => g k * (if Nat.eqb k (nth i E 0%nat) then nth i v 0 else 0)))).
    - apply rsum_ext. intros k Hk. symmetry. apply rsum_scal.
    - rewrite rsum_swap. apply rsum_ext. intros i Hi.
      rewrite (rsum_single n _ (nth i E 0%nat)).
      + rewrite Nat.eqb_refl. reflexivity.
      + apply HE. apply nth_In. exact Hi.
      + intros k Hk Hne. destruct (Nat.eqb_spec k (nth i E 0%nat)); [contradiction|ring].
  Qed.

  Lemma spread_nth : forall E v j, NoDup E -> (j < length E)%nat -> spread E v (nth j E 0%nat) = nth j v 0.
  Proof.
    intros E v j ND Hj. unfold spread. rewrite (rsum_single _ _ j Hj).
    - rewrite Nat.eqb_refl. reflexivity.
    - intros i Hi Hne. destruct (Nat.eqb_spec (nth j E 0%nat) (nth i E 0%nat)) as [C|C]; [|reflexivity].
      exfalso. apply Hne. symmetry. apply (proj1 (NoDup_nth E 0%nat) ND j i Hj Hi C).
  Qed.

  Lemma spread_out : forall E v k, ~ In k E -> spread E v k = 0.
  Proof.
    intros E v k H. unfold spread. apply rsum_0'. intros i Hi.
    destruct (Nat.eqb_spec k (nth i E 0%nat)) as [C|C]; [|reflexivity]. exfalso. apply H. rewrite C. apply nth_In. exact Hi.
  Qed.

  (** A vector whose correlations are lambda times the sign on its support and
      at most lambda + e elsewhere is optimal up to e |b'|_1. *)
  Lemma kkt_optimal : forall lambda e b, 0 <= e ->
    (forall f, (f < n)%nat -> Rabs (rho b f) <= lambda + e) ->
    (forall f, (f < n)%nat -> b f * rho b f = lambda * Rabs (b f)) ->
    forall b', lasso_cost m n A y lambda b <= lasso_cost m n A y lambda b' + e * rsum n (fun k => Rabs (b' k)).
  Proof.
    clear FR. intros lambda e b He H1 H2 b'. unfold lasso_cost.
    set (r := fun i => y i - rsum n (fun k => A i k * b k)).
    set (w := fun i => rsum n (fun k => A i k * (b' k - b k))).
    assert (X1 : rsum m (fun i => Rsqr (y i - rsum n (fun k => A i k * b' k))) =
      rsum m (fun i => Rsqr (r i)) - 2 * rsum n (fun k => (b' k - b k) * rho b k) + rsum m (fun i => Rsqr (w i))).
    { assert (X2 : rsum n (fun k => (b' k - b k) * rho b k) = rsum m (fun i => r i * w i)).
      { transitivity (rsum n (fun k => rsum m (fun i => (b' k - b k) * (A i k * r i)))).
        - apply rsum_ext. intros k Hk. unfold corr, r. rewrite <- rsum_scal. reflexivity.
        - rewrite rsum_swap. apply rsum_ext. intros i Hi. unfold w. rewrite <- rsum_scal. apply rsum_ext. intros. ring. }
      rewrite X2, <- rsum_scal, <- rsum_minus, <- rsum_plus. apply rsum_ext. intros i Hi.
      assert (X3 : rsum n (fun k => A i k * b' k) = rsum n (fun k => A i k * b k) + w i).
      { unfold w. rewrite <- rsum_plus. apply rsum_ext. intros. ring. }
      rewrite X3. unfold r, Rsqr. ring. }
    rewrite X1. clear X1.
    assert (X4 : rsum n (fun k => (b' k - b k) * rho b k) + lambda * rsum n (fun k => Rabs (b k)) <=
      lambda * rsum n (fun k => Rabs (b' k)) + e * rsum n (fun k => Rabs (b' k))).
    { rewrite <- !rsum_scal, <- !rsum_plus. apply rsum_le. intros k Hk.
      replace ((b' k - b k) * rho b k) with (b' k * rho b k - lambda * Rabs (b k)) by (rewrite <- H2 by exact Hk; ring).
      assert (X5 : b' k * rho b k <= Rabs (b' k) * (lambda + e)).
      { eapply Rle_trans; [apply Rle_abs|]. rewrite Rabs_mult. apply Rmult_le_compat_l; [apply Rabs_pos|apply H1; exact Hk]. }
      lra. }
    assert (X6 : 0 <= rsum m (fun i => Rsqr (w i))) by (apply rsum_nonneg; intros; apply Rle_0_sqr).
    change (rsum m (fun i => Rsqr (y i - rsum n (fun k => A i k * b k)))) with (rsum m (fun i => Rsqr (r i))).
    lra.
  Qed.
End Homotopy.

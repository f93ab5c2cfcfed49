(** Least squares on rescaled, shifted and reordered data (for C86). *)
From Coq Require Import Reals Lra Lia List Permutation.
From Verif Require Import Base Num Mat RSum Model_Node Model_Util Model_Fit Spec_Fit.
From Verif Require Import Proof_Node Proof_XR Proof_Norm Proof_Fit Proof_Fit2.
Open Scope R_scope.

Lemma ls_perm : forall l l', Permutation l l' -> lsum l = lsum l'.
Proof. induction 1; rewrite ?lsum_cons; lra. Qed.

Lemma nth_perm_seq : forall m (p : list nat), Permutation p (seq 0 m) -> p = map (fun i => nth i p 0%nat) (seq 0 m).
Proof.
  intros m p P. assert (L : length p = m) by (rewrite (Permutation_length P), seq_length; reflexivity).
  apply (nth_ext _ _ 0%nat (nth 0 p 0%nat)).
  - rewrite map_length, seq_length. exact L.
  - intros i Hi. rewrite (map_nth (fun i => nth i p 0%nat) (seq 0 m) 0%nat), seq_nth by lia. reflexivity.
Qed.
Lemma perm_below : forall m p i, Permutation p (seq 0 m) -> (i < m)%nat -> (nth i p 0 < m)%nat.
Proof.
  intros m p i P Hi. assert (L : length p = m) by (rewrite (Permutation_length P), seq_length; reflexivity).
  assert (In (nth i p 0%nat) (seq 0 m)) as H by (apply (Permutation_in _ P), nth_In; lia). apply in_seq in H. lia.
Qed.
Lemma rsum_reorder : forall m p f, Permutation p (seq 0 m) -> rsum m (fun i => f (nth i p 0%nat)) = rsum m f.
Proof.
  intros m p f P. rewrite <- !lsum_map_seq. apply ls_perm. rewrite <- (map_map (fun i => nth i p 0%nat) f), <- (nth_perm_seq m p P).
  apply Permutation_map. exact P.
Qed.

Lemma nth_mapseq : forall (f : nat -> R) K j, (j < K)%nat -> nth j (map f (seq 0 K)) 0 = f j.
Proof.
  intros f K j H. rewrite (nth_indep _ 0 (f 0%nat)) by (rewrite map_length, seq_length; lia).
  rewrite map_nth, seq_nth by lia. reflexivity.
Qed.

Section Affine.
  Variables (m K : nat) (F G : nat -> nat -> R) (y y' : list R) (p : list nat) (al be : nat -> R) (s t : R).
  Hypothesis (P : Permutation p (seq 0 m)) (Hs : s <> 0) (Ha : forall j, (j < K)%nat -> al j <> 0).
  Hypothesis HG : forall i j, (i < m)%nat -> (j < K)%nat -> G i j = al j * F (nth i p 0%nat) j + be j.
  Hypothesis Hy : forall i, (i < m)%nat -> nth i y' 0 = s * nth (nth i p 0%nat) y 0 + t.
  (** nothing is shifted, or the first column is constant *)
  Hypothesis Hb : ((forall j, (j < K)%nat -> be j = 0) /\ t = 0) \/
    ((0 < K)%nat /\ forall i, (i < m)%nat -> F i 0%nat = 1 /\ G i 0%nat = 1).

  Definition first (e : R) (j : nat) : R := if (j =? 0)%nat then e else 0.

  Lemma first_sum : forall (f : nat -> R) e, (e = 0 \/ ((0 < K)%nat /\ f 0%nat = 1)) ->
    rsum K (fun j => f j * first e j) = e.
  Proof using.
    clear. intros f e [-> |(HK & Hf)].
    - apply rsum_0'. intros j _. unfold first. destruct (j =? 0)%nat; ring.
    - rewrite (rsum_ext K _ (fun j => (f j * e) * delta j 0)).
      + rewrite rsum_delta_r by lia. rewrite Hf. ring.
      + intros j _. unfold first, delta. destruct (j =? 0)%nat; ring.
  Qed.

  Lemma there : forall w, length w = K -> exists w', length w' = K /\ forall i, (i < m)%nat ->
    rsum K (fun j => G i j * nth j w' 0) - nth i y' 0 =
    s * (rsum K (fun j => F (nth i p 0%nat) j * nth j w 0) - nth (nth i p 0%nat) y 0).
  Proof using HG Ha Hb Hy.
    intros w Lw. set (e := t - rsum K (fun j => be j * (s * nth j w 0 / al j))).
    exists (map (fun j => s * nth j w 0 / al j + first e j) (seq 0 K)).
    split; [rewrite map_length, seq_length; reflexivity|]. intros i Hi. rewrite (Hy i Hi).
    rewrite (rsum_ext K _ (fun j => (s * (F (nth i p 0%nat) j * nth j w 0) + be j * (s * nth j w 0 / al j)) + G i j * first e j)).
    - rewrite !rsum_plus, rsum_scal, first_sum; [unfold e; ring|].
      destruct Hb as [(B & T)|(HK & B)].
      + left. unfold e. rewrite T, rsum_0'; [ring|]. intros j Hj. rewrite (B j Hj). ring.
      + right. split; [exact HK|]. apply (B i Hi).
    - intros j Hj. rewrite nth_mapseq by lia. rewrite Rmult_plus_distr_l.
      f_equal. rewrite (HG i j Hi Hj). field. apply Ha; lia.
  Qed.

  Lemma back : forall w', length w' = K -> exists w, length w = K /\ forall i, (i < m)%nat ->
    rsum K (fun j => G i j * nth j w' 0) - nth i y' 0 =
    s * (rsum K (fun j => F (nth i p 0%nat) j * nth j w 0) - nth (nth i p 0%nat) y 0).
  Proof using HG Hb Hy Hs P.
    intros w' Lw. set (e := (rsum K (fun j => be j * nth j w' 0) - t) / s).
    exists (map (fun j => al j * nth j w' 0 / s + first e j) (seq 0 K)).
    split; [rewrite map_length, seq_length; reflexivity|]. intros i Hi. rewrite (Hy i Hi).
    rewrite (rsum_ext K (fun j => F _ j * _)
      (fun j => / s * (G i j * nth j w' 0 - be j * nth j w' 0) + F (nth i p 0%nat) j * first e j)).
    - rewrite rsum_plus, rsum_scal, rsum_minus, first_sum; [unfold e; field; exact Hs|].
      destruct Hb as [(B & T)|(HK & B)].
      + left. unfold e. rewrite T, rsum_0'; [field; exact Hs|]. intros j Hj. rewrite (B j Hj). ring.
      + right. split; [exact HK|]. apply B. apply perm_below; auto.
    - intros j Hj. rewrite nth_mapseq by lia. rewrite (HG i j Hi Hj). field. exact Hs.
  Qed.

  Lemma affine_rss : forall w w', (forall i, (i < m)%nat ->
    rsum K (fun j => G i j * nth j w' 0) - nth i y' 0 =
    s * (rsum K (fun j => F (nth i p 0%nat) j * nth j w 0) - nth (nth i p 0%nat) y 0)) ->
    rss m K G w' y' = s * s * rss m K F w y.
  Proof using P.
    intros w w' H. unfold rss. rewrite <- rsum_scal.
    rewrite <- (rsum_reorder m p (fun i => s * s * Rsqr (rsum K (fun j => F i j * nth j w 0) - nth i y 0)) P).
    apply rsum_ext. intros i Hi. rewrite (H i Hi). unfold Rsqr. ring.
  Qed.

  Definition least (m K : nat) (F : nat -> nat -> R) (y : list R) (r : R) : Prop :=
    (exists w, length w = K /\ r = rss m K F w y) /\ (forall w, length w = K -> r <= rss m K F w y).

  Lemma least_affine : forall r r', least m K F y r -> least m K G y' r' -> r' = s * s * r.
  Proof using HG Ha Hb Hy Hs P.
    intros r r' ((w & Lw & Ew) & Hr) ((w' & Lw' & Ew') & Hr').
    assert (S2 : 0 < s * s) by (destruct (Rtotal_order s 0) as [|[|]]; [nra|contradiction|nra]).
    destruct (there w Lw) as (v' & Lv' & E'). apply affine_rss in E'. specialize (Hr' v' Lv').
    destruct (back w' Lw') as (v & Lv & E). apply affine_rss in E. specialize (Hr v Lv). nra.
  Qed.
End Affine.

Lemma nlogr_scale : forall n c r, (1 <= n)%Z -> 0 < c -> 0 <= r ->
  nlogr n (c * r) = nadd (n := XR) (nlogr n r) (fin (IZR n * ln c)).
Proof.
  intros n c r Hn Hc Hr. unfold nlogr. destruct (Rltb 0 r) eqn:E.
  - apply Rltb_true in E. rewrite (proj2 (Rltb_true 0 (c * r))) by nra. rewrite xadd_fin, ln_mult by lra.
    apply (f_equal fin). ring.
  - apply Rltb_false in E. replace r with 0 by lra. rewrite Rmult_0_r, (proj2 (Rltb_false 0 0)) by lra. reflexivity.
Qed.

(** Finite sums of reals and the lemmas about them used by the numerical
    properties; nothing here refers to the model. *)
From Coq Require Import Reals Lra Lia Arith List Bool Psatz.
Import ListNotations.
Local Open Scope R_scope.

(** sum of [f i] for [i < n], added from left to right *)
Fixpoint rsum (n : nat) (f : nat -> R) : R :=
  match n with O => 0 | S n => rsum n f + f n end.

Lemma rsum_ext : forall n f g, (forall i, (i < n)%nat -> f i = g i) -> rsum n f = rsum n g.
Proof.
  induction n as [|n IH]; intros f g H; simpl; auto.
  rewrite (IH f g), (H n); auto.
Qed.

Lemma rsum_0 : forall n, rsum n (fun _ => 0) = 0.
Proof. induction n as [|n IH]; simpl; lra. Qed.

Lemma rsum_0' : forall n f, (forall i, (i < n)%nat -> f i = 0) -> rsum n f = 0.
Proof. intros n f H. rewrite (rsum_ext n f (fun _ => 0)) by auto. apply rsum_0. Qed.

Lemma rsum_const : forall n c, rsum n (fun _ => c) = INR n * c.
Proof. induction n as [|n IH]; intro c; [simpl; ring|]. cbn [rsum]. rewrite IH, S_INR. ring. Qed.

Lemma rsum_plus : forall n f g, rsum n (fun i => f i + g i) = rsum n f + rsum n g.
Proof. induction n as [|n IH]; intros; simpl; [lra|]. rewrite IH; lra. Qed.

Lemma rsum_minus : forall n f g, rsum n (fun i => f i - g i) = rsum n f - rsum n g.
Proof. induction n as [|n IH]; intros; simpl; [lra|]. rewrite IH; lra. Qed.

Lemma rsum_opp : forall n f, rsum n (fun i => - f i) = - rsum n f.
Proof. induction n as [|n IH]; intros; simpl; [lra|]. rewrite IH; lra. Qed.

Lemma rsum_scal : forall n c f, rsum n (fun i => c * f i) = c * rsum n f.
Proof. induction n as [|n IH]; intros; simpl; [lra|]. rewrite IH; lra. Qed.

Lemma rsum_scal_r : forall n c f, rsum n (fun i => f i * c) = rsum n f * c.
Proof. induction n as [|n IH]; intros; simpl; [lra|]. rewrite IH; lra. Qed.

Lemma rsum_swap : forall n m f,
  rsum n (fun i => rsum m (fun j => f i j)) = rsum m (fun j => rsum n (fun i => f i j)).
Proof.
  induction n as [|n IH]; intros m f; simpl.
  - rewrite rsum_0; reflexivity.
  - rewrite IH, <- rsum_plus. reflexivity.
Qed.

Lemma rsum_nonneg : forall n f, (forall i, (i < n)%nat -> 0 <= f i) -> 0 <= rsum n f.
Proof.
  induction n as [|n IH]; intros f H; simpl; [lra|].
  specialize (IH f). assert (0 <= rsum n f) by (apply IH; intros; apply H; lia).
  specialize (H n ltac:(lia)). lra.
Qed.

Lemma rsum_le : forall n f g, (forall i, (i < n)%nat -> f i <= g i) -> rsum n f <= rsum n g.
Proof.
  induction n as [|n IH]; intros f g H; simpl; [lra|].
  pose proof (IH f g ltac:(intros; apply H; lia)). specialize (H n ltac:(lia)). lra.
Qed.

Lemma rsum_term_le : forall n f k, (forall i, (i < n)%nat -> 0 <= f i) -> (k < n)%nat -> f k <= rsum n f.
Proof.
  induction n as [|n IH]; intros f k H Hk; [lia|]. simpl.
  assert (0 <= rsum n f) by (apply rsum_nonneg; intros; apply H; lia).
  destruct (Nat.eq_dec k n) as [->|]; [lra|].
  pose proof (IH f k ltac:(intros; apply H; lia) ltac:(lia)). specialize (H n ltac:(lia)). lra.
Qed.

Lemma rsum_zero_terms : forall n f, (forall i, (i < n)%nat -> 0 <= f i) -> rsum n f = 0 ->
  forall i, (i < n)%nat -> f i = 0.
Proof.
  intros n f H H0 i Hi. pose proof (rsum_term_le n f i H Hi). specialize (H i Hi). lra.
Qed.

Lemma rsum_pos : forall n f, (0 < n)%nat -> (forall i, (i < n)%nat -> 0 < f i) -> 0 < rsum n f.
Proof.
  intros [|n] f Hn H; [lia|]. simpl.
  assert (0 <= rsum n f) by (apply rsum_nonneg; intros i Hi; left; apply H; lia).
  specialize (H n ltac:(lia)). lra.
Qed.

(** a single non-zero term *)
Lemma rsum_single : forall n f k, (k < n)%nat ->
  (forall i, (i < n)%nat -> i <> k -> f i = 0) -> rsum n f = f k.
Proof.
  induction n as [|n IH]; intros f k Hk H; [lia|]. simpl.
  destruct (Nat.eq_dec k n) as [->|Hne].
  - rewrite rsum_0'; [lra|]. intros i Hi. apply H; lia.
  - rewrite (IH f k); [|lia|intros; apply H; lia]. rewrite (H n) by lia. lra.
Qed.

Definition delta (i j : nat) : R := if Nat.eqb i j then 1 else 0.

Lemma delta_sym : forall i j, delta i j = delta j i.
Proof. intros; unfold delta. rewrite Nat.eqb_sym. reflexivity. Qed.

Lemma delta_same : forall i, delta i i = 1.
Proof. intro; unfold delta; rewrite Nat.eqb_refl; reflexivity. Qed.

Lemma delta_ne : forall i j, i <> j -> delta i j = 0.
Proof. intros i j H; unfold delta. apply Nat.eqb_neq in H. rewrite H. reflexivity. Qed.

Lemma rsum_delta_l : forall n k f, (k < n)%nat -> rsum n (fun i => delta k i * f i) = f k.
Proof.
  intros n k f H. rewrite (rsum_single n _ k H).
  - rewrite delta_same; lra.
  - intros i Hi Hne. rewrite delta_ne by auto. lra.
Qed.

Lemma rsum_delta_r : forall n k f, (k < n)%nat -> rsum n (fun i => f i * delta i k) = f k.
Proof.
  intros n k f H. rewrite (rsum_single n _ k H).
  - rewrite delta_same; lra.
  - intros i Hi Hne. rewrite delta_ne by auto. lra.
Qed.

Lemma rsum_shift : forall n f, rsum (S n) f = f O + rsum n (fun i => f (S i)).
Proof.
  induction n as [|n IH]; intro f; [simpl; lra|].
  change (rsum (S (S n)) f) with (rsum (S n) f + f (S n)). rewrite IH. simpl. lra.
Qed.

Lemma rsum_app : forall n m f, rsum (n + m) f = rsum n f + rsum m (fun i => f (n + i)%nat).
Proof.
  induction m as [|m IH]; intro f; [rewrite Nat.add_0_r; simpl; lra|].
  rewrite Nat.add_succ_r. simpl. rewrite IH. lra.
Qed.

(** ** Lists of reals *)
Definition lsum (l : list R) : R := fold_left Rplus l 0.

Lemma lsum_acc : forall l a, fold_left Rplus l a = a + lsum l.
Proof.
  induction l as [|x l IH]; intro a; unfold lsum; simpl; [lra|].
  rewrite IH, (IH (0 + x)). lra.
Qed.

Lemma lsum_cons : forall x l, lsum (x :: l) = x + lsum l.
Proof. intros; unfold lsum at 1; simpl. rewrite lsum_acc. lra. Qed.

Lemma lsum_nil : lsum [] = 0. Proof. reflexivity. Qed.

Lemma lsum_app : forall a b, lsum (a ++ b) = lsum a + lsum b.
Proof.
  induction a as [|x a IH]; intro b; simpl; [rewrite lsum_nil; lra|].
  rewrite !lsum_cons, IH. lra.
Qed.

Lemma lsum_rsum : forall l, lsum l = rsum (length l) (fun i => nth i l 0).
Proof.
  induction l as [|x l IH] using rev_ind; [reflexivity|].
  rewrite lsum_app, app_length. simpl. rewrite Nat.add_1_r. simpl.
  rewrite lsum_cons, lsum_nil. rewrite app_nth2, Nat.sub_diag by lia. simpl.
  rewrite IH. rewrite (rsum_ext _ (fun i => nth i (l ++ [x]) 0) (fun i => nth i l 0)); [lra|].
  intros i Hi. apply app_nth1; auto.
Qed.

Lemma lsum_map_seq : forall f n, lsum (map f (seq 0 n)) = rsum n f.
Proof.
  induction n as [|n IH]; [reflexivity|]. rewrite seq_S, map_app, lsum_app, IH. simpl.
  rewrite lsum_cons, lsum_nil. lra.
Qed.

Lemma lsum_map_scal : forall c l, lsum (map (fun x => c * x) l) = c * lsum l.
Proof.
  induction l as [|x l IH]; simpl; [rewrite lsum_nil; lra|]. rewrite !lsum_cons, IH. lra.
Qed.

Lemma lsum_map_add : forall A (f g : A -> R) l,
  lsum (map (fun x => f x + g x) l) = lsum (map f l) + lsum (map g l).
Proof.
  induction l as [|x l IH]; simpl; [rewrite lsum_nil; lra|]. rewrite !lsum_cons, IH. lra.
Qed.

(** ** Vectors and matrices as functions *)

Definition dot (n : nat) (x y : nat -> R) : R := rsum n (fun i => x i * y i).
Definition mv (m : nat) (A : nat -> nat -> R) (x : nat -> R) : nat -> R :=
  fun i => rsum m (fun j => A i j * x j).
Definition mtv (n : nat) (A : nat -> nat -> R) (x : nat -> R) : nat -> R :=
  fun j => rsum n (fun i => A i j * x i).
Definition mm (k : nat) (A B : nat -> nat -> R) : nat -> nat -> R :=
  fun i j => rsum k (fun l => A i l * B l j).

Lemma dot_sym : forall n x y, dot n x y = dot n y x.
Proof. intros. apply rsum_ext. intros; ring. Qed.

Lemma dot_nonneg : forall n x, 0 <= dot n x x.
Proof. intros. apply rsum_nonneg. intros. nra. Qed.

Lemma dot_ext : forall n x y x' y', (forall i, (i < n)%nat -> x i = x' i) ->
  (forall i, (i < n)%nat -> y i = y' i) -> dot n x y = dot n x' y'.
Proof. intros n x y x' y' H1 H2. apply rsum_ext. intros i Hi. rewrite H1, H2; auto. Qed.

Lemma dot_plus_r : forall n x y z, dot n x (fun i => y i + z i) = dot n x y + dot n x z.
Proof. intros. unfold dot. rewrite <- rsum_plus. apply rsum_ext; intros; ring. Qed.

Lemma dot_minus_r : forall n x y z, dot n x (fun i => y i - z i) = dot n x y - dot n x z.
Proof. intros. unfold dot. rewrite <- rsum_minus. apply rsum_ext; intros; ring. Qed.

Lemma dot_plus_l : forall n x y z, dot n (fun i => x i + y i) z = dot n x z + dot n y z.
Proof. intros. unfold dot. rewrite <- rsum_plus. apply rsum_ext; intros; ring. Qed.

Lemma dot_minus_l : forall n x y z, dot n (fun i => x i - y i) z = dot n x z - dot n y z.
Proof. intros. unfold dot. rewrite <- rsum_minus. apply rsum_ext; intros; ring. Qed.

Lemma dot_scal_r : forall n c x y, dot n x (fun i => c * y i) = c * dot n x y.
Proof. intros. unfold dot. rewrite <- rsum_scal. apply rsum_ext; intros; ring. Qed.

(** x . (A y) = (A^T x) . y *)
Lemma dot_mv : forall n m A x y, dot n x (mv m A y) = dot m (mtv n A x) y.
Proof.
  intros. unfold dot, mv, mtv.
  rewrite (rsum_ext n _ (fun i => rsum m (fun j => A i j * x i * y j))).
  - rewrite rsum_swap. apply rsum_ext. intros j _. rewrite rsum_scal_r. reflexivity.
  - intros i _. rewrite <- rsum_scal. apply rsum_ext; intros; ring.
Qed.

Lemma mv_plus : forall m A x y i, mv m A (fun j => x j + y j) i = mv m A x i + mv m A y i.
Proof. intros; unfold mv. rewrite <- rsum_plus. apply rsum_ext; intros; ring. Qed.

Lemma mv_minus : forall m A x y i, mv m A (fun j => x j - y j) i = mv m A x i - mv m A y i.
Proof. intros; unfold mv. rewrite <- rsum_minus. apply rsum_ext; intros; ring. Qed.

Lemma mv_scal : forall m A c x i, mv m A (fun j => c * x j) i = c * mv m A x i.
Proof. intros; unfold mv. rewrite <- rsum_scal. apply rsum_ext; intros; ring. Qed.

Lemma mv_ext : forall m A B x y i, (forall j, (j < m)%nat -> A i j = B i j) ->
  (forall j, (j < m)%nat -> x j = y j) -> mv m A x i = mv m B y i.
Proof. intros m A B x y i H1 H2. apply rsum_ext. intros j Hj. rewrite H1, H2; auto. Qed.

Lemma mtv_minus : forall n A x y j, mtv n A (fun i => x i - y i) j = mtv n A x j - mtv n A y j.
Proof. intros; unfold mtv. rewrite <- rsum_minus. apply rsum_ext; intros; ring. Qed.

Lemma mtv_ext : forall n A B x y j, (forall i, (i < n)%nat -> A i j = B i j) ->
  (forall i, (i < n)%nat -> x i = y i) -> mtv n A x j = mtv n B y j.
Proof. intros n A B x y j H1 H2. apply rsum_ext. intros i Hi. rewrite H1, H2; auto. Qed.

Lemma mm_assoc : forall k l A B C i j,
  mm l (mm k A B) C i j = mm k A (mm l B C) i j.
Proof.
  intros. unfold mm.
  rewrite (rsum_ext l _ (fun b => rsum k (fun a => A i a * B a b * C b j))).
  - rewrite rsum_swap. apply rsum_ext. intros a _. rewrite <- rsum_scal. apply rsum_ext; intros; ring.
  - intros b _. rewrite rsum_scal_r. reflexivity.
Qed.

Lemma mv_mm : forall k l A B x i, mv l (mm k A B) x i = mv k A (mv l B x) i.
Proof.
  intros. unfold mv, mm.
  rewrite (rsum_ext l _ (fun b => rsum k (fun a => A i a * B a b * x b))).
  - rewrite rsum_swap. apply rsum_ext. intros a _. rewrite <- rsum_scal. apply rsum_ext; intros; ring.
  - intros b _. rewrite rsum_scal_r. reflexivity.
Qed.

Lemma mm_ext : forall k A B A' B' i j, (forall l, (l < k)%nat -> A i l = A' i l) ->
  (forall l, (l < k)%nat -> B l j = B' l j) -> mm k A B i j = mm k A' B' i j.
Proof. intros k A B A' B' i j H1 H2. apply rsum_ext. intros l Hl. rewrite H1, H2; auto. Qed.

Lemma mm_delta_l : forall k B i j, (i < k)%nat -> mm k delta B i j = B i j.
Proof. intros. unfold mm. apply (rsum_delta_l k i (fun l => B l j)); auto. Qed.

Lemma mm_delta_r : forall k A i j, (j < k)%nat -> mm k A delta i j = A i j.
Proof. intros. unfold mm. apply (rsum_delta_r k j (fun l => A i l)); auto. Qed.

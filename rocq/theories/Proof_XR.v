(** Loops over finite numbers in exact arithmetic. *)
From Coq Require Import Reals Lra.
From Verif Require Import Base Num Mat RSum.

(** [XFin r] as an element of the number type. *)
Definition fin (r : R) : XR := XFin r.
Definition fins (l : list R) : list XR := map fin l.

Lemma fins_length : forall l, length (fins l) = length l.
Proof. intro; apply map_length. Qed.

Lemma fins_nth : forall l i d, (i < length l)%nat -> nth_error (fins l) i = Some (fin (nth i l d)).
Proof.
  intros l i d H. unfold fins. rewrite nth_error_map, (nth_error_nth' l d H). reflexivity.
Qed.

Lemma getn_fins : forall l i, (i < length l)%nat -> getn (fins l) i = Ok (fin (nth i l 0%R)).
Proof. intros l i H. apply getn_ok. apply fins_nth; auto. Qed.

Lemma xadd_fin : forall a b, nadd (n := XR) (fin a) (fin b) = fin (a + b). Proof. reflexivity. Qed.
Lemma xsub_fin : forall a b, nsub (n := XR) (fin a) (fin b) = fin (a - b). Proof. reflexivity. Qed.
Lemma xmul_fin : forall a b, nmul (n := XR) (fin a) (fin b) = fin (a * b). Proof. reflexivity. Qed.
Lemma xneg_fin : forall a, nneg (n := XR) (fin a) = fin (- a). Proof. reflexivity. Qed.
Lemma xabs_fin : forall a, nabs (n := XR) (fin a) = fin (Rabs a). Proof. reflexivity. Qed.
Lemma xexp_fin : forall a, nexp (n := XR) (fin a) = fin (exp a). Proof. reflexivity. Qed.

Lemma Reqb_refl : forall x, Reqb x x = true.
Proof. intro x; unfold Reqb. destruct (Req_EM_T x x); auto; contradiction. Qed.
Lemma Reqb_ne : forall x y, x <> y -> Reqb x y = false.
Proof. intros x y H; unfold Reqb. destruct (Req_EM_T x y); auto; contradiction. Qed.

Lemma xdiv_fin : forall a b, (b <> 0)%R -> ndiv (n := XR) (fin a) (fin b) = fin (a / b).
Proof. intros a b H. simpl. unfold xdiv, fin. rewrite Reqb_ne by auto. reflexivity. Qed.

Lemma xlog_fin : forall a, (0 < a)%R -> nlog (n := XR) (fin a) = fin (ln a).
Proof. intros a H. simpl. unfold xlog, fin. rewrite (proj2 (Rltb_true 0 a) H). reflexivity. Qed.

Lemma xsqrt_fin : forall a, (0 <= a)%R -> nsqrt (n := XR) (fin a) = fin (sqrt a).
Proof.
  intros a H. simpl. unfold xsqrt, fin. destruct (Rltb a 0) eqn:E; auto.
  apply Rltb_true in E. lra.
Qed.

Lemma xpow2_fin : forall a, npow (n := XR) (fin a) 2 = fin (a * a).
Proof. intro a. simpl. unfold xpow, fin. simpl. f_equal. ring. Qed.

Lemma nofnat_fin : forall n, nofnat (N := XR) n = fin (INR n).
Proof. intro n. unfold nofnat. simpl. unfold fin. rewrite INR_IZR_INZ. reflexivity. Qed.

Lemma nofZ_fin : forall z, nofZ (n := XR) z = fin (IZR z).
Proof. reflexivity. Qed.

Lemma n0_fin : n0 (N := XR) = fin 0. Proof. reflexivity. Qed.
Lemma n1_fin : n1 (N := XR) = fin 1. Proof. reflexivity. Qed.

(** accumulation loops *)
Lemma sum_loop : forall (body : nat -> XR -> res XR) (f : nat -> R) n k a,
  (forall i x, (k <= i < k + n)%nat -> body i (fin x) = Ok (fin (x + f i))) ->
  for_loop k n body (fin a) = Ok (fin (a + rsum n (fun i => f (k + i)%nat))).
Proof.
  intros body f. induction n as [|n IH]; intros k a H; cbn [for_loop].
  - simpl. rewrite Rplus_0_r. reflexivity.
  - rewrite H by lia. cbn [bind]. rewrite IH by (intros; apply H; lia).
    rewrite rsum_shift, Nat.add_0_r. do 2 f_equal. rewrite Rplus_assoc. do 2 f_equal.
    apply rsum_ext. intros i _. f_equal. lia.
Qed.

Lemma sum_loop0 : forall (body : nat -> XR -> res XR) (f : nat -> R) n,
  (forall i x, (i < n)%nat -> body i (fin x) = Ok (fin (x + f i))) ->
  for_loop 0 n body n0 = Ok (fin (rsum n f)).
Proof.
  intros body f n H. rewrite n0_fin. rewrite (sum_loop body f n 0 0) by (intros; apply H; lia).
  rewrite Rplus_0_l. reflexivity.
Qed.

Lemma nth_map_lt : forall A B (f : A -> B) l i d d', (i < length l)%nat ->
  nth i (map f l) d' = f (nth i l d).
Proof.
  intros A B f l i d d' H. rewrite (nth_indep _ d' (f d)) by (rewrite map_length; auto). apply map_nth.
Qed.

Lemma nth_map_seq : forall A (f : nat -> A) n i d, (i < n)%nat -> nth i (map f (seq 0 n)) d = f i.
Proof.
  intros A f n i d H. rewrite (nth_map_lt _ _ f _ i O) by (rewrite seq_length; auto).
  rewrite seq_nth by auto. reflexivity.
Qed.

Lemma nth_fins : forall l i, (i < length l)%nat -> nth i (fins l) (fin 0) = fin (nth i l 0%R).
Proof. intros l i H. apply nth_map_lt; auto. Qed.

(** vectors given by their entries *)
Lemma vec_fins : forall (a : list XR) (f : nat -> R) n, length a = n ->
  (forall k, (k < n)%nat -> nth k a (fin 0) = fin (f k)) -> a = fins (map f (seq 0 n)).
Proof.
  intros a f n La Ha. apply (nth_ext _ _ (fin 0) (fin 0)).
  - rewrite fins_length, map_length, seq_length. exact La.
  - intros k Hk. rewrite Ha by lia. unfold fins. rewrite map_map, nth_map_seq by lia. reflexivity.
Qed.

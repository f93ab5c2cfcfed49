(** Spec: mean and sample standard deviation of a list of reals, and their
    behaviour under affine maps. *)
From Coq Require Import List Arith Reals Lra Lia.
Import ListNotations.
From Verif Require Import RSum.
Open Scope R_scope.

Definition mean (l : list R) : R := lsum l / INR (length l).
Definition sdev (l : list R) : R :=
  if (length l <=? 1)%nat then 0
  else sqrt (lsum (map (fun x => (x - mean l) * (x - mean l)) l) / INR (length l - 1)).

Lemma lsum_map_const : forall (A : Type) (l : list A) c, lsum (map (fun _ => c) l) = INR (length l) * c.
Proof.
  induction l as [|x l IH]; intro c; cbn [map length]; [rewrite lsum_nil; simpl; ring|].
  rewrite lsum_cons, IH, S_INR. ring.
Qed.

Lemma len_pos : forall A (l : list A), l <> [] -> 0 < INR (length l).
Proof. intros A [|x l] H; [contradiction|]. apply lt_0_INR. simpl; lia. Qed.

Lemma lsum_affine : forall (l : list R) a b, lsum (map (fun x => a * x + b) l) = a * lsum l + INR (length l) * b.
Proof.
  intros l a b. induction l as [|x l IH]; cbn [map length]; [rewrite lsum_nil; simpl; ring|].
  rewrite !lsum_cons, IH, S_INR. ring.
Qed.

Lemma mean_affine : forall l a b, l <> [] -> mean (map (fun x => a * x + b) l) = a * mean l + b.
Proof.
  intros l a b H. unfold mean. rewrite map_length, lsum_affine.
  pose proof (len_pos _ l H). field. lra.
Qed.

Lemma lsum_nonneg : forall l, (forall x, In x l -> 0 <= x) -> 0 <= lsum l.
Proof.
  induction l as [|x l IH]; intro H; [rewrite lsum_nil; lra|]. rewrite lsum_cons.
  pose proof (H x (or_introl eq_refl)). assert (0 <= lsum l) by (apply IH; intros; apply H; right; auto). lra.
Qed.

Lemma lsum_zero_terms : forall l, (forall x, In x l -> 0 <= x) -> lsum l = 0 -> forall x, In x l -> x = 0.
Proof.
  induction l as [|y l IH]; intros H H0 x Hx; [destruct Hx|].
  rewrite lsum_cons in H0. pose proof (H y (or_introl eq_refl)).
  assert (0 <= lsum l) by (apply lsum_nonneg; intros; apply H; right; auto).
  destruct Hx as [->|Hx]; [lra|]. apply IH; auto; [intros; apply H; right; auto|lra].
Qed.

Lemma sq_sum_nonneg : forall l m, 0 <= lsum (map (fun x => (x - m) * (x - m)) l).
Proof.
  intros l m. apply lsum_nonneg. intros y Hy. apply in_map_iff in Hy. destruct Hy as (x & <- & _).
  apply Rle_0_sqr.
Qed.

Lemma sdev_nonneg : forall l, 0 <= sdev l.
Proof. intro l. unfold sdev. destruct (_ <=? _)%nat; [lra|apply sqrt_pos]. Qed.

Lemma sdev_affine : forall l a b, l <> [] -> sdev (map (fun x => a * x + b) l) = Rabs a * sdev l.
Proof.
  intros l a b H. unfold sdev. rewrite map_length. destruct (Nat.leb_spec (length l) 1) as [Hl|Hl]; [ring|].
  rewrite mean_affine by auto. rewrite map_map.
  rewrite (map_ext _ (fun x => (a * a) * ((x - mean l) * (x - mean l)))) by (intro; ring).
  rewrite <- (map_map (fun x => (x - mean l) * (x - mean l)) (fun y => a * a * y)), lsum_map_scal.
  unfold Rdiv. rewrite Rmult_assoc.
  assert (0 < INR (length l - 1)) by (apply lt_0_INR; lia).
  rewrite sqrt_mult.
  - f_equal. apply sqrt_Rsqr_abs.
  - apply Rle_0_sqr.
  - apply Rmult_le_pos; [apply sq_sum_nonneg|left; apply Rinv_0_lt_compat; auto].
Qed.

(** zero exactly for constant lists *)
Lemma sdev_zero : forall l, l <> [] -> (sdev l = 0 <-> forall x, In x l -> x = mean l).
Proof.
  intros l H. unfold sdev. destruct (Nat.leb_spec (length l) 1) as [Hl|Hl].
  - split; [intros _|auto]. destruct l as [|a [|b l]]; [contradiction| |simpl in Hl; lia].
    intros x [<-|[]]. unfold mean. rewrite lsum_cons, lsum_nil. simpl. field.
  - assert (Hp : 0 < INR (length l - 1)) by (apply lt_0_INR; lia).
    pose proof (sq_sum_nonneg l (mean l)) as Hq.
    split.
    + intro E. apply sqrt_eq_0 in E; [|apply Rmult_le_pos; [auto|left; apply Rinv_0_lt_compat; auto]].
      assert (E0 : lsum (map (fun x => (x - mean l) * (x - mean l)) l) = 0).
      { unfold Rdiv in E. apply Rmult_integral in E. destruct E as [E|E]; auto.
        pose proof (Rinv_0_lt_compat _ Hp). lra. }
      intros x Hx. assert (Hz : (x - mean l) * (x - mean l) = 0).
      { apply (lsum_zero_terms (map (fun x => (x - mean l) * (x - mean l)) l)); auto.
        - intros y Hy. apply in_map_iff in Hy. destruct Hy as (z & <- & _). apply Rle_0_sqr.
        - apply in_map_iff. exists x; auto. }
      apply Rmult_integral in Hz. lra.
    + intro E. replace (lsum (map (fun x => (x - mean l) * (x - mean l)) l)) with 0; [unfold Rdiv; rewrite Rmult_0_l; apply sqrt_0|].
      symmetry. rewrite (map_ext_in _ (fun _ => 0)); [rewrite lsum_map_const; ring|].
      intros x Hx. rewrite <- (E x Hx). ring.
Qed.

Lemma map_ext_in_lsum : forall l a, (forall x, In x l -> x = a) -> lsum l = INR (length l) * a.
Proof.
  intros l a H. rewrite <- (map_id l) at 1. rewrite (map_ext_in _ (fun _ => a)); auto. apply lsum_map_const.
Qed.

Lemma sdev_pos_iff : forall l, l <> [] -> (0 < sdev l <-> exists x y, In x l /\ In y l /\ x <> y).
Proof.
  intros l H. pose proof (sdev_nonneg l) as Hn. split.
  - intro Hp. destruct l as [|a l]; [contradiction|].
    destruct (Forall_Exists_dec (fun x => x = a) (fun x => Req_EM_T x a) l) as [F|E].
    + exfalso. assert (Z : sdev (a :: l) = 0); [|lra]. apply sdev_zero; auto.
      rewrite Forall_forall in F.
      assert (Hm : mean (a :: l) = a).
      { unfold mean. rewrite lsum_cons. rewrite (map_ext_in_lsum l a) by auto. cbn [length]. rewrite S_INR.
        pose proof (pos_INR (length l)). field. lra. }
      intros x [<-|Hx]; [auto|]. rewrite (F x Hx). auto.
    + apply Exists_exists in E. destruct E as (x & Hx & Hne). exists x, a. simpl. auto.
  - intros (x & y & Hx & Hy & Hne). destruct (Rle_lt_or_eq_dec 0 (sdev l) Hn) as [|E]; auto.
    symmetry in E. pose proof (proj1 (sdev_zero l H) E) as E2. exfalso. apply Hne. rewrite (E2 x Hx), (E2 y Hy). reflexivity.
Qed.

Lemma normalized_mean : forall l s, l <> [] -> mean (map (fun x => (x - mean l) / s) l) = 0.
Proof.
  intros l s H. rewrite (map_ext _ (fun x => / s * x + - (mean l / s))) by (intro; unfold Rdiv; ring).
  rewrite mean_affine by auto. unfold Rdiv. ring.
Qed.

Lemma normalized_sdev : forall l, sdev l <> 0 -> sdev (map (fun x => (x - mean l) / sdev l) l) = 1.
Proof.
  intros l H. assert (Hl : l <> []) by (intros ->; apply H; reflexivity).
  rewrite (map_ext _ (fun x => / sdev l * x + - (mean l / sdev l))) by (intro; unfold Rdiv; ring).
  rewrite sdev_affine by auto. pose proof (sdev_nonneg l).
  rewrite Rabs_right; [apply Rinv_l; auto|]. apply Rle_ge. left. apply Rinv_0_lt_compat. lra.
Qed.

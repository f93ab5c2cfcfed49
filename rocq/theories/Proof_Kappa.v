(** Cohen's kappa over the extended reals. *)
From Coq Require Import Reals Lra Sorting.Permutation.
From Verif Require Import Base Num Model_Util Proof_Util Proof_XR.

(** number of i < n with [p i] *)
Definition count (n : nat) (p : nat -> bool) : nat := length (filter p (seq 0 n)).

Lemma filter_length_perm : forall A (p : A -> bool) l l', Permutation l l' ->
  length (filter p l) = length (filter p l').
Proof.
  intros A p l l' H. induction H; cbn [filter]; auto.
  - destruct (p x); cbn [length]; auto.
  - destruct (p x), (p y); cbn [length]; auto.
  - congruence.
Qed.

Lemma filter_map_len : forall A B (g : A -> B) (p : B -> bool) l,
  length (filter p (map g l)) = length (filter (fun a => p (g a)) l).
Proof. induction l as [|a l IH]; cbn [map filter]; auto. destruct (p (g a)); cbn [length]; auto. Qed.

Lemma filter_filter_len : forall A (p q : A -> bool) l,
  length (filter p (filter q l)) = length (filter (fun a => q a && p a) l).
Proof.
  induction l as [|a l IH]; cbn [filter]; auto. destruct (q a); cbn [filter andb]; auto.
  destruct (p a); cbn [length]; auto.
Qed.

Lemma count_sel : forall s n (p : Z -> bool), NoDup s -> (forall v, In v s -> 0 <= v < Z.of_nat n)%Z ->
  length (filter p s) = count n (fun i => ExistInt s (Z.of_nat i) && p (Z.of_nat i)).
Proof.
  intros s n p ND Hin.
  assert (P : Permutation s (map Z.of_nat (filter (fun i => ExistInt s (Z.of_nat i)) (seq 0 n)))).
  { apply NoDup_Permutation; auto.
    - apply FinFun.Injective_map_NoDup; [intros a b; lia|]. apply NoDup_filter, seq_NoDup.
    - intro x. rewrite in_map_iff. split.
      + intro Hx. exists (Z.to_nat x). specialize (Hin x Hx). split; [lia|].
        apply filter_In. split; [apply in_seq; lia|]. rewrite Z2Nat.id by lia. apply ExistInt_In; auto.
      + intros (i & <- & Hi). apply filter_In in Hi. destruct Hi as [_ Hi]. apply ExistInt_In; auto. }
  rewrite (filter_length_perm _ p _ _ P), filter_map_len, filter_filter_len. reflexivity.
Qed.

Lemma fold_pair_count : forall (p : Z -> bool) s a b,
  fold_left (fun '(a, b) v => if p v then (a + 1, b)%Z else (a, b + 1)%Z) s (a, b) =
  (a + Z.of_nat (length (filter p s)), b + Z.of_nat (length (filter (fun v => negb (p v)) s)))%Z.
Proof.
  induction s as [|v s IH]; intros a b; cbn [fold_left filter length].
  - f_equal; lia.
  - destruct (p v); cbn [negb]; rewrite IH; cbn [length]; f_equal; lia.
Qed.

Lemma fold_count : forall A (p : A -> bool) s a,
  fold_left (fun a v => if p v then (a + 1)%Z else a) s a = (a + Z.of_nat (length (filter p s)))%Z.
Proof.
  induction s as [|v s IH]; intros a; cbn [fold_left filter length]; [lia|].
  destruct (p v); rewrite IH; cbn [length]; lia.
Qed.

Lemma count_split : forall n (p q : nat -> bool),
  (count n (fun i => p i && q i) + count n (fun i => p i && negb (q i)) = count n p)%nat.
Proof.
  intros n p q. unfold count. induction (seq 0 n) as [|i l IH]; auto. cbn [filter].
  destruct (p i), (q i); cbn [andb negb length]; lia.
Qed.

Lemma count_neg : forall n (p : nat -> bool), (count n p + count n (fun i => negb (p i)) = n)%nat.
Proof.
  intros n p. unfold count. rewrite <- (seq_length n 0) at 3. induction (seq 0 n) as [|i l IH]; auto. cbn [filter].
  destruct (p i); cbn [negb length]; lia.
Qed.

Lemma count_ext : forall n p q, (forall i, (i < n)%nat -> p i = q i) -> count n p = count n q.
Proof.
  intros n p q H. unfold count. f_equal. apply filter_ext_in. intros i Hi. apply in_seq in Hi. apply H; lia.
Qed.

Lemma count_zero : forall n p, count n p = O -> forall i, (i < n)%nat -> p i = false.
Proof.
  intros n p H i Hi. destruct (p i) eqn:E; auto. exfalso. unfold count in H.
  assert (In i (filter p (seq 0 n))) by (apply filter_In; split; [apply in_seq; lia|auto]).
  destruct (filter p (seq 0 n)); [contradiction|discriminate].
Qed.

Definition sel (s : list Z) (i : nat) : bool := ExistInt s (Z.of_nat i).

Section Kappa.
  Variables (s1 s2 : list Z) (n : nat).
  Hypothesis (D1 : NoDup s1) (D2 : NoDup s2)
             (I1 : forall v, In v s1 -> (0 <= v < Z.of_nat n)%Z)
             (I2 : forall v, In v s2 -> (0 <= v < Z.of_nat n)%Z).
  Let c11 := count n (fun i => sel s1 i && sel s2 i).
  Let c10 := count n (fun i => sel s1 i && negb (sel s2 i)).
  Let c01 := count n (fun i => sel s2 i && negb (sel s1 i)).
  Let c00 := count n (fun i => negb (sel s1 i) && negb (sel s2 i)).

  Definition kform : XR :=
    let PrA := (nofZ (Z.of_nat c11 + Z.of_nat c00) / nofZ (Z.of_nat n))%num in
    let PrE := (nofZ ((Z.of_nat c11 + Z.of_nat c10) * (Z.of_nat c11 + Z.of_nat c01)) / nofZ (Z.of_nat n * Z.of_nat n)
              + nofZ ((Z.of_nat c10 + Z.of_nat c00) * (Z.of_nat c01 + Z.of_nat c00)) / nofZ (Z.of_nat n * Z.of_nat n))%num in
    ((PrA - PrE) / (n1 - PrE))%num.

  Lemma kappa_counts : ~ (s1 = [] /\ s2 = []) -> CohenKappa (N := XR) s1 s2 (Z.of_nat n) = kform.
  Proof.
    intro Hne. unfold CohenKappa.
    destruct ((length s1 =? 0)%nat && (length s2 =? 0)%nat) eqn:E.
    { exfalso. apply Hne. apply andb_prop in E. destruct E as [E1 E2].
      apply Nat.eqb_eq, length_zero_iff_nil in E1. apply Nat.eqb_eq, length_zero_iff_nil in E2. auto. }
    rewrite (fold_pair_count (ExistInt s2) s1 0 0).
    rewrite (fold_count _ (fun v => negb (ExistInt s1 v)) s2 0).
    rewrite (fold_count _ (fun i => negb (ExistInt s1 (Z.of_nat i)) && negb (ExistInt s2 (Z.of_nat i)))).
    rewrite Nat2Z.id.
    rewrite (count_sel s1 n (ExistInt s2)) by auto.
    rewrite (count_sel s1 n (fun v => negb (ExistInt s2 v))) by auto.
    rewrite (count_sel s2 n (fun v => negb (ExistInt s1 v))) by auto. reflexivity.
  Qed.

  Lemma counts_total : (c11 + c10 + c01 + c00 = n)%nat.
  Proof.
    pose proof (count_split n (sel s1) (sel s2)) as A.
    pose proof (count_neg n (sel s1)) as B.
    pose proof (count_split n (fun i => negb (sel s1 i)) (sel s2)) as C.
    cbv beta in C. rewrite (count_ext n (fun i => negb (sel s1 i) && sel s2 i) (fun i => sel s2 i && negb (sel s1 i))) in C
      by (intros; apply andb_comm).
    fold c11 c10 in A. fold c01 c00 in C. cbv beta in C. lia.
  Qed.

  Lemma count_1 : (c11 + c10)%nat = count n (sel s1).
  Proof. apply count_split. Qed.
  Lemma count_2 : (c11 + c01)%nat = count n (sel s2).
  Proof.
    rewrite <- (count_split n (sel s2) (sel s1)). f_equal. apply count_ext. intros; apply andb_comm.
  Qed.

  Definition po : R := (INR (c11 + c00) / INR n)%R.
  Definition pe : R := (INR (count n (sel s1)) / INR n * (INR (count n (sel s2)) / INR n) +
     (1 - INR (count n (sel s1)) / INR n) * (1 - INR (count n (sel s2)) / INR n))%R.

  Hypothesis Hn : (0 < n)%nat.
  Lemma Hn' : (0 < INR n)%R. Proof. apply lt_0_INR; auto. Qed.

  Lemma c_tot : (INR c11 + INR c10 + INR c01 + INR c00 = INR n)%R.
  Proof. rewrite <- !plus_INR, counts_total. reflexivity. Qed.

  Lemma kform_fin : kform = ((fin po - fin pe) / (n1 - fin pe))%num.
  Proof.
    pose proof Hn' as P. unfold kform.
    rewrite !nofZ_fin.
    assert (Hnn : (IZR (Z.of_nat n * Z.of_nat n) <> 0)%R).
    { rewrite mult_IZR, <- INR_IZR_INZ. nra. }
    rewrite !xdiv_fin by (auto; rewrite <- INR_IZR_INZ; lra). rewrite xadd_fin.
    assert (E1 : (IZR (Z.of_nat c11 + Z.of_nat c00) / IZR (Z.of_nat n) = po)%R).
    { unfold po. rewrite plus_INR, plus_IZR, <- !INR_IZR_INZ. reflexivity. }
    assert (E2 : (IZR ((Z.of_nat c11 + Z.of_nat c10) * (Z.of_nat c11 + Z.of_nat c01)) / IZR (Z.of_nat n * Z.of_nat n) +
       IZR ((Z.of_nat c10 + Z.of_nat c00) * (Z.of_nat c01 + Z.of_nat c00)) / IZR (Z.of_nat n * Z.of_nat n) = pe)%R).
    { unfold pe. rewrite <- count_1, <- count_2. pose proof c_tot as T.
      rewrite !mult_IZR, !plus_IZR, !plus_INR, <- !INR_IZR_INZ.
      set (a := INR c11) in *. set (b := INR c10) in *. set (c := INR c01) in *. set (d := INR c00) in *.
      assert (Ed : d = (INR n - a - b - c)%R) by lra. rewrite Ed. field. lra. }
    rewrite E1, E2. reflexivity.
  Qed.

  Lemma pe_1 : (1 - pe)%R = (((INR c11 + INR c10) * (INR c10 + INR c00) + (INR c11 + INR c01) * (INR c01 + INR c00)) / (INR n * INR n))%R.
  Proof.
    pose proof Hn' as P. pose proof c_tot as T. unfold pe. rewrite <- count_1, <- count_2, !plus_INR.
    set (a := INR c11) in *. set (b := INR c10) in *. set (c := INR c01) in *. set (d := INR c00) in *.
    rewrite <- T in *. field. lra.
  Qed.
End Kappa.

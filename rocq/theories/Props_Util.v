(** Properties C40-C42, C44, C51-C53: helpers of util.go. *)
From Coq Require Import Sorting.Permutation Sorting.Sorted Floats.SpecFloat Reals Lra.
From Verif Require Import Base Num Mat RSum Model_Node Model_Util.
From Verif Require Import Proof_Node2 Proof_Util Proof_Product Proof_Rearrange Proof_XR Proof_Util2.

(** ** C40 *)
Theorem C40_argmin : forall o (a : list (F64 o)),
  a <> [] -> (forall x, In x a -> nisnan x = false) ->
  exists k b, Argmin a = Ok k /\ nth_error a k = Some b /\
    (forall x, In x a -> nltb x b = false) /\
    (forall j x, (j < k)%nat -> nth_error a j = Some x -> nltb b x = true).
Proof.
  intros o a H1 H2. destruct (Argmin_spec _ (f64_OrdLaws o) a H1 H2) as (k & E & b & A & B & C).
  exists k, b. auto.
Qed.
Print Assumptions C40_argmin.

Theorem C40_argmax : forall o (a : list (F64 o)),
  a <> [] -> (forall x, In x a -> nisnan x = false) ->
  exists k b, Argmax a = Ok k /\ nth_error a k = Some b /\
    (forall x, In x a -> nltb b x = false) /\
    (forall j x, (j < k)%nat -> nth_error a j = Some x -> nltb x b = true).
Proof.
  intros o a H1 H2. destruct (Argmax_spec _ (f64_OrdLaws o) a H1 H2) as (k & E & b & A & B & C).
  exists k, b. auto.
Qed.
Print Assumptions C40_argmax.

(** An empty slice panics; a NaN in front hides everything behind it. *)
Theorem C40_arg_corner_cases : forall o (x : F64 o) (l : list (F64 o)),
  Argmin (N := F64 o) [] = Panic /\ Argmax (N := F64 o) [] = Panic /\
  (nisnan x = true -> Argmin (x :: l) = Ok 0%nat /\ Argmax (x :: l) = Ok 0%nat).
Proof.
  intros o x l. split; [reflexivity|]. split; [reflexivity|]. intro H. split.
  - apply (Argmin_nan _ (f64_OrdLaws o)); auto.
  - apply (Argmax_nan _ (f64_OrdLaws o)); auto.
Qed.
Print Assumptions C40_arg_corner_cases.

(** Abs replaces every entry by its absolute value, in the slice it is given. *)
Theorem C40_abs : forall (N : Num) (x : list N), AbsSlice x = Ok (map nabs x).
Proof.
  intros N x. unfold AbsSlice. rewrite (for_loop_map_upd N (fun _ v => nabs v) (length x) 0 x) by lia.
  cbn [Nat.add firstn skipn app fst snd]. rewrite firstn_all, skipn_all, app_nil_r. f_equal.
  generalize 0%nat. induction x as [|v x IH]; intro k; [reflexivity|]. cbn [length seq combine map snd]. rewrite IH. reflexivity.
Qed.
Print Assumptions C40_abs.

(** Any correct sort.Sort: the indices are a permutation, along which the
    values never descend. *)
Theorem C40_argsort : forall o (srt : list (F64 o * nat) -> list (F64 o * nat)) (a : list (F64 o)),
  sort_spec byValueLess srt ->
  exists r, Argsort srt a = Ok r /\ Permutation r (seq 0 (length a)) /\
    ((forall x, In x a -> nisnan x = false) ->
     forall p q i j x y, (p < q)%nat ->
       nth_error r p = Some i -> nth_error r q = Some j ->
       nth_error a i = Some x -> nth_error a j = Some y -> nltb y x = false).
Proof.
  intros o srt a HS. destruct (Argsort_spec _ (f64_OrdLaws o) srt a HS) as (r & E & P & S1).
  exists r. split; [exact E|]. split; [exact P|]. intros Hn p q i j x y Hpq Hp Hq Hx Hy.
  assert (Hlen : length r = length a) by (rewrite (Permutation_length P), seq_length; reflexivity).
  assert (Hq' : (q < length r)%nat) by (apply nth_error_Some; congruence).
  specialize (S1 Hn (n0 (N := F64 o)) p q ltac:(lia)).
  rewrite (nth_error_nth r p O Hp), (nth_error_nth r q O Hq) in S1.
  rewrite (nth_error_nth a i _ Hx), (nth_error_nth a j _ Hy) in S1. exact S1.
Qed.
Print Assumptions C40_argsort.

Theorem C40_int_extrema : forall a,
  ((exists x, In x a /\ - 2 ^ 31 <= x)%Z -> In (MaxInt a) a /\ forall x, In x a -> (x <= MaxInt a)%Z) /\
  ((exists x, In x a /\ x <= 2 ^ 31 - 1)%Z -> In (MinInt a) a /\ forall x, In x a -> (MinInt a <= x)%Z) /\
  ((forall x, In x a -> x < - 2 ^ 31)%Z -> MaxInt a = (- 2 ^ 31)%Z) /\
  ((forall x, In x a -> 2 ^ 31 - 1 < x)%Z -> MinInt a = (2 ^ 31 - 1)%Z).
Proof.
  intro a. destruct (MaxInt_acc a minInt32) as (A1 & A2 & A3).
  destruct (MinInt_acc a maxInt32) as (B1 & B2 & B3). cbv zeta in *.
  fold (MaxInt a) in *. fold (MinInt a) in *. unfold minInt32, maxInt32 in *.
  repeat split; auto.
  - destruct H as (x & Hx & Hge). destruct A3 as [A3|]; auto.
    specialize (A2 x Hx). replace (MaxInt a) with x by lia. exact Hx.
  - destruct H as (x & Hx & Hge). destruct B3 as [B3|]; auto.
    specialize (B2 x Hx). replace (MinInt a) with x by lia. exact Hx.
  - intro H. destruct A3 as [A3|A3]; auto. specialize (H _ A3). lia.
  - intro H. destruct B3 as [B3|B3]; auto. specialize (H _ B3). lia.
Qed.
Print Assumptions C40_int_extrema.

(** MinFloat also works when NaNs are present: they are skipped. *)
Theorem C40_minfloat : forall o (a : list (F64 o)),
  nisnan (MinFloat a) = false /\
  (forall x, In x a -> nltb x (MinFloat a) = false) /\
  ((exists x, In x a /\ nltb x nmaxf = true) -> In (MinFloat a) a) /\
  ((forall x, In x a -> nltb x nmaxf = false) -> MinFloat a = nmaxf).
Proof.
  intros o a. destruct (MinFloat_acc _ (f64_OrdLaws o) a nmaxf eq_refl) as (A & B & C & D).
  cbv zeta in *. fold (MinFloat a) in *. split; auto. split; auto. split.
  - intros (x & Hx & Hlt). destruct D as [D|D]; auto. specialize (C x Hx). rewrite D in C. congruence.
  - intro H. clear -H. unfold MinFloat. induction a as [|x a IH]; [reflexivity|]. cbn [fold_left].
    rewrite (H x) by (left; auto). apply IH. intros; apply H; right; auto.
Qed.
Print Assumptions C40_minfloat.

(** insertion sort is a possible sort.Sort *)
Fixpoint ins_by {A} (less : A -> A -> bool) (x : A) (l : list A) : list A :=
  match l with [] => [x] | y :: t => if less x y then x :: l else y :: ins_by less x t end.
Definition isort {A} (less : A -> A -> bool) (l : list A) : list A := fold_right (ins_by less) [] l.

Lemma ins_by_perm : forall A less (x : A) l, Permutation (x :: l) (ins_by less x l).
Proof.
  induction l as [|y l IH]; simpl; [apply Permutation_refl|].
  destruct (less x y); [apply Permutation_refl|].
  eapply perm_trans; [apply perm_swap|]. constructor. exact IH.
Qed.

Lemma isort_perm : forall A less (l : list A), Permutation l (isort less l).
Proof.
  induction l as [|x l IH]; simpl; [constructor|].
  eapply perm_trans; [|apply ins_by_perm]. constructor; exact IH.
Qed.

Lemma isort_spec : forall A (less : A -> A -> bool),
  (forall x y, less x y = true -> less y x = false) ->
  sort_spec less (isort less).
Proof.
  intros A less asym. split; [apply isort_perm|].
  intros l HW. induction l as [|x l IH]; simpl; [constructor|].
  assert (HW' : strict_weak less l).
  { destruct HW as [W1 W2]. split; intros; [apply W1; right; auto|].
    apply (W2 x0 y z); auto; right; auto. }
  specialize (IH HW'). destruct HW as [W1 W2].
  assert (G : forall m, (forall y, In y m -> In y l) -> StronglySorted (fun a b => less b a = false) m ->
     StronglySorted (fun a b => less b a = false) (ins_by less x m)).
  { induction m as [|y m IHm]; intros Hin HS; simpl; [constructor; constructor|].
    inversion HS as [|? ? HS' HF]; subst. destruct (less x y) eqn:E.
    - constructor; auto. constructor; [apply asym; auto|].
      rewrite Forall_forall in HF |- *. intros z Hz.
      apply (W2 z y x); [right; apply Hin; right; auto|right; apply Hin; left; auto|left; auto| |].
      + apply HF; auto.
      + apply asym; auto.
    - constructor.
      + apply IHm; auto. intros; apply Hin; right; auto.
      + rewrite Forall_forall in HF |- *. intros z Hz.
        apply (Permutation_in _ (Permutation_sym (ins_by_perm A less x m))) in Hz.
        destruct Hz as [<-|Hz]; auto. }
  apply G; auto. intros y Hy. apply (Permutation_in _ (Permutation_sym (isort_perm A less l))). exact Hy.
Qed.

Example C40_nonvacuous :
  Argmin (N := F64 fenv0) (map f64_ofZ [4; -2; 7; -2]%Z) = Ok 1%nat /\
  Argmax (N := F64 fenv0) (map f64_ofZ [4; -2; 7; 7]%Z) = Ok 2%nat /\
  Argsort (N := F64 fenv0) (isort byValueLess) (map f64_ofZ [4; -2; 7; -3]%Z) = Ok [3; 1; 0; 2]%nat /\
  sort_spec (byValueLess (N := F64 fenv0)) (isort byValueLess) /\
  MaxInt [3; 9; 2]%Z = 9%Z /\ MinInt [] = 2147483647%Z.
Proof.
  repeat split; try (vm_compute; reflexivity).
  - apply isort_perm.
  - apply isort_spec. intros [x i] [y j]. apply (ltb_asym (f64_OrdLaws fenv0)).
Qed.

(** ** C41 *)
Theorem C41_membership : forall a v, ExistInt a v = true <-> In v a.
Proof. exact ExistInt_In. Qed.
Print Assumptions C41_membership.

Theorem C41_union : forall s1 s2, exists extra,
  UnionInt s1 s2 = s1 ++ extra /\ NoDup extra /\
  (forall x, In x extra <-> In x s2 /\ ~ In x s1) /\
  (forall x, In x (UnionInt s1 s2) <-> In x s1 \/ In x s2) /\
  (NoDup s1 -> NoDup (UnionInt s1 s2)).
Proof.
  intros s1 s2. destruct (UnionInt_spec s2 s1) as (ex & E & M & D). exists ex.
  split; [exact E|]. split; [exact D|]. split; [exact M|]. split.
  - intro x. rewrite E, in_app_iff, M. destruct (in_dec Z.eq_dec x s1); tauto.
  - intro D1. rewrite E. clear E.
    assert (G : forall x, In x ex -> ~ In x s1) by (intros x Hx; apply M in Hx; tauto). clear M.
    induction s1 as [|y s1 IH]; simpl; auto. inversion D1; subst. constructor.
    + rewrite in_app_iff. intros [?|Hy]; [contradiction|]. apply (G y Hy). left; auto.
    + apply IH; auto. intros x Hx Hs. apply (G x Hx). right; auto.
Qed.
Print Assumptions C41_union.

Theorem C41_equal_all_sum : forall a b v,
  EqualInt a b = Ok (if list_eq_dec Z.eq_dec a b then true else false) /\
  (All a v = true <-> forall x, In x a -> x = v) /\
  Sum a = fold_right Z.add 0%Z a.
Proof.
  intros a b v. split; [apply EqualInt_spec|]. split; [apply All_spec|apply Sum_spec].
Qed.
Print Assumptions C41_equal_all_sum.

Example C41_nonvacuous :
  UnionInt [3; 1]%Z [2; 3; 2; 5]%Z = [3; 1; 2; 5]%Z /\ EqualInt [1; 2]%Z [1; 3]%Z = Ok false /\
  All [4; 4]%Z 4 = true /\ Sum [1; 2; 3]%Z = 6%Z /\ ExistInt [7; 8]%Z 8 = true.
Proof. vm_compute. auto. Qed.

(** ** C42.  [tuples vs n] lists all n-tuples over vs with the last position
    changing fastest. *)
Theorem C42_tuples_spec : forall vs n,
  length (tuples vs n) = (length vs ^ n)%nat /\
  (forall t, In t (tuples vs n) <-> length t = n /\ Forall (fun x => In x vs) t).
Proof. intros vs n. split; [apply tuples_length|apply tuples_In]. Qed.
Print Assumptions C42_tuples_spec.

(** Cells whose position is neither 0 nor a power of two are shared by all the
    rows grown from one row, and end up holding the last value. *)
Theorem C42_iter_product_with_sharing : forall vs n,
  exists sh : nat -> bool,
    (forall k, sh k = true <-> k <> O /\ forall e, k <> (2 ^ e)%nat) /\
    IterProduct go_grow vs n =
      Ok (map (fun t => map (fun p => if sh (fst p) then last vs 0%Z else snd p)
                            (combine (seq 0 n) t)) (tuples vs n)).
Proof.
  intros vs n. exists (shared_cell go_grow). split; [apply shared_go|].
  rewrite (iter_product go_grow go_grow_gt vs n). f_equal. apply map_ext_in.
  intros t Ht. apply tuples_In in Ht. destruct Ht as [Ht _]. unfold blur. rewrite Ht. reflexivity.
Qed.
Print Assumptions C42_iter_product_with_sharing.

Theorem C42_iter_product_upto_3 : forall vs n, (n <= 3)%nat ->
  IterProduct go_grow vs n = Ok (tuples vs n).
Proof.
  intros vs n Hn. rewrite (iter_product go_grow go_grow_gt vs n). f_equal.
  transitivity (map (fun t : list Z => t) (tuples vs n)); [|apply map_id].
  apply map_ext_in. intros t Ht. apply tuples_In in Ht. destruct Ht as [Ht _].
  destruct t as [|x [|y [|z [|w t]]]]; try reflexivity. simpl in Ht. lia.
Qed.
Print Assumptions C42_iter_product_upto_3.

(** From four positions on the result is wrong for every value list with two
    different values: some tuple is missing. *)
Theorem C42_iter_product_refuted : forall vs a n,
  In a vs -> a <> last vs 0%Z -> (4 <= n)%nat ->
  exists rows, IterProduct go_grow vs n = Ok rows /\ In (repeat a n) (tuples vs n) /\ ~ In (repeat a n) rows.
Proof.
  intros vs a n Ha Hne Hn. rewrite (iter_product go_grow go_grow_gt vs n). eexists. split; [reflexivity|].
  split.
  - apply tuples_In. split; [apply repeat_length|]. apply Forall_forall. intros x Hx.
    apply repeat_spec in Hx. subst; auto.
  - intro H. apply in_map_iff in H. destruct H as (t & Ht & Hin). apply tuples_In in Hin.
    destruct Hin as [Hl _].
    destruct t as [|x [|y [|z [|w t]]]]; simpl in Hl; try lia.
    destruct n as [|[|[|[|n]]]]; try lia. unfold blur in Ht. simpl in Ht.
    injection Ht as _ _ _ H3 _. auto.
Qed.
Print Assumptions C42_iter_product_refuted.

Example C42_nonvacuous :
  IterProduct go_grow [0; 1]%Z 2 = Ok [[0; 0]; [0; 1]; [1; 0]; [1; 1]]%Z /\
  IterProduct go_grow [0; 1]%Z 4 <> Ok (tuples [0; 1]%Z 4).
Proof. split; [vm_compute; reflexivity|vm_compute; discriminate]. Qed.

(** ** C44 *)
Definition column {N : Num} (X : Mat N) (c : nat) : list N := map (fun j => mval X j c) (seq 0 (mrows X)).

(** Distinct in-range columns, then any number of -1: the listed columns come
    first, the others follow in their original order. *)
Theorem C44_rearrange : forall o (X : Mat (F64 o)) cols pad,
  (0 < mrows X)%nat -> (0 < mcols X)%nat ->
  NoDup cols -> (forall c, In c cols -> (c < mcols X)%nat) ->
  exists M, RearrangeDense X (map Z.of_nat cols ++ repeat (-1)%Z pad) = Ok M /\
    mrows M = mrows X /\ mcols M = mcols X /\
    map (column M) (seq 0 (mcols X)) =
    map (column X) (cols ++ filter (fun c => negb (existsb (Nat.eqb c) cols)) (seq 0 (mcols X))).
Proof.
  intros o X cols pad Hr Hc ND Hin.
  set (order := map Z.of_nat cols ++ repeat (-1)%Z pad).
  assert (Hkept : kept order = map Z.of_nat cols).
  { unfold kept, order. rewrite filter_app.
    assert (E1 : filter (fun c => negb (c =? -1)%Z) (map Z.of_nat cols) = map Z.of_nat cols).
    { clear. induction cols as [|x l IH]; cbn [map filter]; auto.
      destruct (Z.eqb_spec (Z.of_nat x) (-1)); [lia|]. cbn [negb]. rewrite IH. reflexivity. }
    assert (E2 : filter (fun c => negb (c =? -1)%Z) (repeat (-1)%Z pad) = []).
    { clear. induction pad; cbn [repeat filter]; auto. }
    rewrite E1, E2. apply app_nil_r. }
  assert (Hlen : (length cols <= mcols X)%nat).
  { rewrite <- (seq_length (mcols X) 0). apply NoDup_incl_length; auto.
    intros c Hcc. apply in_seq. specialize (Hin c Hcc). lia. }
  assert (HV : valid_order (mcols X) order).
  { split.
    - intros k c Hk. unfold order in Hk. destruct (Nat.lt_ge_cases k (length cols)) as [H|H].
      + right. rewrite nth_error_app1 in Hk by (rewrite map_length; lia).
        apply nth_error_In in Hk. apply in_map_iff in Hk. destruct Hk as (x & <- & Hx).
        specialize (Hin x Hx). lia.
      + left. rewrite nth_error_app2 in Hk by (rewrite map_length; lia).
        apply nth_error_In in Hk. apply repeat_spec in Hk. auto.
    - rewrite Hkept. apply NoDup_map_in; auto. intros; lia. }
  destruct (rearr_ok _ X order Hr Hc HV) as (M & E & M1 & M2 & M3).
  exists M. split; [exact E|]. split; auto. split; auto.
  assert (Hrem : remaining (mcols X) order =
     filter (fun c => negb (existsb (Nat.eqb c) cols)) (seq 0 (mcols X))).
  { unfold remaining. apply filter_ext_in. intros q Hq. f_equal.
    apply Bool.eq_iff_eq_true. rewrite ExistInt_In, existsb_exists. unfold order. rewrite in_app_iff, in_map_iff.
    split.
    - intros [(x & Hx & Hx')|H]; [exists x; split; auto; apply Nat.eqb_eq; lia|].
      apply repeat_spec in H. lia.
    - intros (x & Hx & Hx'). apply Nat.eqb_eq in Hx'. left. exists x. subst; auto. }
  assert (Htot : length (cols ++ remaining (mcols X) order) = mcols X).
  { rewrite app_length. pose proof (count_len _ X order Hr Hc (proj1 HV)) as Q.
    rewrite nodup_fixed_point in Q by (apply (kept_inj _ X order Hr Hc (proj1 HV)), (proj2 HV)).
    rewrite Hkept, !map_length in Q. symmetry. exact Q. }
  rewrite <- Hrem.
  assert (Hk : length (kept order) = length cols) by (rewrite Hkept; apply map_length).
  apply (nth_ext _ _ [] []); [rewrite !map_length, seq_length; auto|].
  rewrite map_length, seq_length. intros k Hk'.
  rewrite nth_map_seq by auto. rewrite (nth_map_lt _ _ (column X) _ k O) by lia.
  unfold column. rewrite M1. apply map_ext_in. intros j Hj. apply in_seq in Hj.
  rewrite M3 by lia. rewrite Hk. destruct (Nat.ltb_spec k (length cols)) as [H|H].
  - unfold order. rewrite app_nth1 by (rewrite map_length; lia).
    rewrite (nth_map_lt _ _ Z.of_nat cols k O) by lia. rewrite app_nth1 by lia.
    destruct (Z.eqb_spec (Z.of_nat (nth k cols 0%nat)) (-1)); [lia|]. rewrite Nat2Z.id. reflexivity.
  - rewrite app_nth2 by lia. reflexivity.
Qed.
Print Assumptions C44_rearrange.

(** What happens for every other order: out-of-range or repeated columns (or a
    column listed behind the last position) panic ... *)
Theorem C44_panics : forall o (X : Mat (F64 o)) order,
  (0 < mrows X)%nat -> (0 < mcols X)%nat ->
  (exists c, In c order /\ c <> -1 /\ ~ (0 <= c < Z.of_nat (mcols X)))%Z \/
  (exists p q c, p <> q /\ nth_error order p = Some c /\ nth_error order q = Some c /\ c <> (-1)%Z) ->
  RearrangeDense X order = Panic.
Proof.
  intros o X order Hr Hc Hbad. apply rearr_panic; auto. intros [HV HD].
  destruct Hbad as [(c & Hin & H1 & H2)|(p & q & c & Hpq & Hp & Hq & Hne)].
  - destruct (In_nth_error _ _ Hin) as (k & Hk). destruct (HV k c Hk) as [?|[? ?]]; auto.
  - assert (G : forall l p q, (p < q)%nat -> nth_error l p = Some c -> nth_error l q = Some c ->
        ~ NoDup (kept l)).
    { clear -Hne. induction l as [|x l IH]; intros p q Hpq Hp Hq; [destruct p; discriminate|].
      destruct q as [|q]; [lia|]. cbn [nth_error] in Hq. unfold kept. cbn [filter].
      destruct p as [|p]; cbn [nth_error] in Hp.
      - injection Hp as ->. destruct (Z.eqb_spec c (-1)); [contradiction|]. cbn [negb].
        intro D. inversion D; subst. apply H1. apply filter_In. split; [eapply nth_error_In; eauto|].
        apply negb_true_iff, Z.eqb_neq. auto.
      - intro D. apply (IH p q ltac:(lia) Hp Hq). destruct (negb (x =? -1)%Z); [inversion D; auto|exact D]. }
    destruct (Nat.lt_total p q) as [H|[H|H]]; [|contradiction|]; eapply G in HD; eauto.
Qed.
Print Assumptions C44_panics.

(** ... and a -1 in front of a column leaves a zero column in its place and
    drops a column: with [kept order] the entries other than -1, output column
    [k < length (kept order)] is column [order[k]] or zero, the remaining
    positions hold the columns not listed. *)
Theorem C44_gaps : forall o (X : Mat (F64 o)) order,
  (0 < mrows X)%nat -> (0 < mcols X)%nat -> valid_order (mcols X) order ->
  exists M, RearrangeDense X order = Ok M /\
    (forall p q c, (p < q)%nat -> nth_error order p = Some (-1)%Z -> nth_error order q = Some c ->
       c <> (-1)%Z -> (p < length (kept order))%nat ->
       column M p = repeat n0 (mrows X)) /\
    (forall q c, nth_error order q = Some c -> c <> (-1)%Z -> (length (kept order) <= q < mcols X)%nat ->
       exists c', column M q = column X c' /\ ~ In (Z.of_nat c') order).
Proof.
  intros o X order Hr Hc HV. destruct (rearr_ok _ X order Hr Hc HV) as (M & E & M1 & M2 & M3).
  exists M. split; [exact E|]. split.
  - intros p q c Hpq Hp Hq Hne Hk. unfold column. rewrite M1.
    assert (Hpc : (p < mcols X)%nat).
    { destruct (proj1 HV q c Hq) as [?|[_ ?]]; [contradiction|lia]. }
    assert (G : forall n a, (a + n <= mrows X)%nat -> map (fun j => mval M j p) (seq a n) = repeat n0 n).
    { induction n as [|n IH]; intros a Ha; [reflexivity|]. cbn [seq map repeat].
      rewrite IH by lia. f_equal. rewrite M3 by lia.
      destruct (Nat.ltb_spec p (length (kept order))); [|lia].
      rewrite (nth_error_nth order p (-1)%Z Hp). reflexivity. }
    apply G. lia.
  - intros q c Hq Hne [H1 H2].
    set (c' := nth (q - length (kept order)) (remaining (mcols X) order) O).
    assert (Htot : (length (kept order) + length (remaining (mcols X) order) = mcols X)%nat).
    { pose proof (count_len _ X order Hr Hc (proj1 HV)) as Q.
      rewrite nodup_fixed_point in Q by (apply (kept_inj _ X order Hr Hc (proj1 HV)), (proj2 HV)).
      rewrite map_length in Q. symmetry. exact Q. }
    exists c'. split.
    + unfold column. rewrite M1. apply map_ext_in. intros j Hj. apply in_seq in Hj.
      rewrite M3 by lia. destruct (Nat.ltb_spec q (length (kept order))); [lia|]. reflexivity.
    + assert (Hc' : In c' (remaining (mcols X) order)) by (apply nth_In; lia).
      unfold remaining in Hc'. apply filter_In in Hc'. destruct Hc' as [_ Hc'].
      apply negb_true_iff, ExistInt_false in Hc'. exact Hc'.
Qed.
Print Assumptions C44_gaps.

Definition mat23 : Mat (F64 fenv0) :=
  mkMat (N := F64 fenv0) 2 3 (fun i j => f64_ofZ (Z.of_nat (10 * i + j))).
Definition mat_cols (r : res (Mat (F64 fenv0))) : res (list (list Z)) :=
  match r with
  | Ok M => Ok (map (fun j => map (fun i =>
       match f64_trunc (mval M i j) with Some z => z | None => (-9)%Z end) (seq 0 (mrows M))) (seq 0 (mcols M)))
  | Panic => Panic | Fuel => Fuel end.

Example C44_nonvacuous :
  mat_cols (RearrangeDense mat23 [2; 0]%Z) = Ok [[2; 12]; [0; 10]; [1; 11]]%Z /\
  mat_cols (RearrangeDense mat23 [2; -1; -1]%Z) = Ok [[2; 12]; [0; 10]; [1; 11]]%Z /\
  mat_cols (RearrangeDense mat23 [-1; 2]%Z) = Ok [[0; 0]; [0; 10]; [1; 11]]%Z /\
  RearrangeDense mat23 [1; 1]%Z = Panic /\ valid_order 3 [-1; 2]%Z.
Proof.
  repeat split; try (vm_compute; reflexivity).
  - intros [|[|[|k]]] c; simpl; intro H; try discriminate; injection H as <-; lia.
  - repeat constructor; simpl; tauto.
Qed.

(** ** C51 *)
Theorem C51_logspace : forall mn mx num, (0 < mn <= mx)%R -> (2 <= num)%Z ->
  exists l q, Logspace (N := XR) (XFin mn) (XFin mx) num = Ok (map XFin l) /\
    length l = Z.to_nat num /\ nth 0 l 0%R = mn /\ nth (Z.to_nat num - 1) l 0%R = mx /\
    (1 <= q)%R /\ (mn < mx -> 1 < q)%R /\
    (forall i, (S i < Z.to_nat num)%nat -> nth (S i) l 0%R = (q * nth i l 0)%R) /\
    (forall i j, (i <= j < Z.to_nat num)%nat -> (nth i l 0 <= nth j l 0)%R).
Proof.
  intros mn mx num [H1 H2] Hn.
  assert (Hmx : (0 < mx)%R) by lra.
  set (d := ((ln mx - ln mn) / IZR (num - 1))%R).
  assert (Hd1 : (0 < IZR (num - 1))%R) by (apply IZR_lt; lia).
  assert (Hln : (ln mn <= ln mx)%R) by (destruct H2 as [H2| ->]; [left; apply ln_increasing; lra|lra]).
  assert (Hd : (0 <= d)%R) by (unfold d; apply Rmult_le_pos; [lra|left; apply Rinv_0_lt_compat; lra]).
  exists (map (fun i => exp (ln mn + d * INR i)%R) (seq 0 (Z.to_nat num))), (exp d).
  split; [exact (logspace_xr mn mx num H1 Hmx Hn)|].
  split; [rewrite map_length, seq_length; reflexivity|].
  split; [rewrite nth_map_seq by lia; simpl; rewrite Rmult_0_r, Rplus_0_r; apply exp_ln; auto|].
  split.
  { rewrite nth_map_seq by lia. rewrite minus_INR by lia. rewrite INR_IZR_INZ, Z2Nat.id by lia.
    change (INR 1) with 1%R. unfold d. rewrite minus_IZR.
    replace (ln mn + (ln mx - ln mn) / (IZR num - 1) * (IZR num - 1))%R with (ln mx).
    - apply exp_ln; auto.
    - rewrite minus_IZR in Hd1. field. lra. }
  assert (Hexp : forall x y, (x <= y -> exp x <= exp y)%R).
  { intros x y [H|H]; [left; apply exp_increasing; auto|subst; right; reflexivity]. }
  split; [rewrite <- exp_0; apply Hexp; auto|].
  split.
  { intro H. rewrite <- exp_0. apply exp_increasing. unfold d.
    apply Rmult_lt_0_compat; [|apply Rinv_0_lt_compat; auto].
    apply ln_increasing in H; lra. }
  split.
  - intros i Hi. rewrite !nth_map_seq by lia. rewrite <- exp_plus, S_INR. f_equal. ring.
  - intros i j Hij. rewrite !nth_map_seq by lia. apply Hexp.
    apply Rplus_le_compat_l. apply Rmult_le_compat_l; auto. apply le_INR. lia.
Qed.
Print Assumptions C51_logspace.

Theorem C51_logspace_small : forall o (mn mx : F64 o) num,
  Logspace mn mx 0 = Ok [] /\ Logspace mn mx 1 = Ok [mn] /\
  ((num < 0)%Z -> Logspace mn mx num = Panic).
Proof.
  intros o mn mx num. split; [reflexivity|]. split; [reflexivity|]. intro H.
  unfold Logspace, go_make. destruct (Z.eqb_spec num 0); [lia|]. destruct (Z.eqb_spec num 1); [lia|].
  destruct (Z.ltb_spec num 0); [reflexivity|lia].
Qed.
Print Assumptions C51_logspace_small.

Example C51_nonvacuous : exists q, Logspace (N := XR) (XFin 1) (XFin 9) 3 = Ok [XFin 1; XFin q; XFin 9] /\ q = 3%R.
Proof.
  destruct (C51_logspace 1 9 3 ltac:(lra) ltac:(lia)) as (l & q & E & L & F & La & Q1 & _ & R1 & _).
  destruct l as [|a [|b [|c [|]]]]; simpl in L; try discriminate. simpl in F, La.
  exists b. rewrite E. subst. split; [reflexivity|].
  pose proof (R1 0%nat ltac:(simpl; lia)) as X1. pose proof (R1 1%nat ltac:(simpl; lia)) as X2. simpl in X1, X2.
  assert (q = b) by lra. subst q. nra.
Qed.

(** ** C52.  The argument slice is overwritten with the differences. *)
Theorem C52_weights : forall l, l <> [] -> (forall x, In x l -> x <= maxfR)%R ->
  exists w d, WeightsFromAIC (N := XR) (map XFin l) = Ok (map XFin w, map XFin d) /\
    length w = length l /\ Forall (fun x => 0 < x)%R w /\ lsum w = 1%R /\
    (forall i j, (i < length l)%nat -> (j < length l)%nat ->
       (nth i l 0 < nth j l 0 -> nth j w 0 < nth i w 0)%R /\
       (nth i l 0 = nth j l 0 -> nth j w 0 = nth i w 0)%R) /\
    exists m, In m l /\ (forall x, In x l -> m <= x)%R /\ d = map (fun x => x - m)%R l.
Proof.
  intros l Hne Hmax. destruct (waic_xr l Hne Hmax) as (m & Hm & Hmin & E).
  set (S0 := lsum (map (fun x => exp (- (x - m))) l)) in *.
  assert (Hpos : (0 < S0)%R).
  { unfold S0. rewrite lsum_rsum, map_length. apply rsum_pos.
    - destruct l; [contradiction|simpl; lia].
    - intros i Hi. rewrite (nth_map_lt _ _ _ l i 0%R) by lia. apply exp_pos. }
  exists (map (fun x => exp (- (x - m)) / S0)%R l), (map (fun x => x - m)%R l).
  split; [exact E|]. split; [apply map_length|]. split.
  { apply Forall_forall. intros x Hx. apply in_map_iff in Hx. destruct Hx as (y & <- & _).
    apply Rmult_lt_0_compat; [apply exp_pos|apply Rinv_0_lt_compat; auto]. }
  split.
  { rewrite (map_ext _ (fun x => / S0 * exp (- (x - m)))%R) by (intro; unfold Rdiv; ring).
    rewrite <- (map_map (fun x => exp (- (x - m)))%R (fun y => / S0 * y)%R).
    rewrite lsum_map_scal. fold S0. apply Rinv_l. lra. }
  split.
  { intros i j Hi Hj. rewrite !(nth_map_lt _ _ _ l _ 0%R) by auto. split.
    - intro H. apply Rmult_lt_compat_r; [apply Rinv_0_lt_compat; auto|]. apply exp_increasing. lra.
    - intro H. rewrite H. reflexivity. }
  exists m. auto.
Qed.
Print Assumptions C52_weights.

Theorem C52_shift_invariant : forall l c, l <> [] ->
  (forall x, In x l -> x <= maxfR /\ x + c <= maxfR)%R ->
  exists w d d', WeightsFromAIC (N := XR) (map XFin l) = Ok (w, d) /\
    WeightsFromAIC (N := XR) (map XFin (map (fun x => x + c)%R l)) = Ok (w, d').
Proof.
  intros l c Hne Hmax.
  destruct (waic_xr l Hne) as (m & Hm & Hmin & E); [intros x Hx; apply (Hmax x Hx)|].
  destruct (waic_xr (map (fun x => x + c)%R l)) as (m' & Hm' & Hmin' & E').
  { intro H. apply map_eq_nil in H. auto. }
  { intros x Hx. apply in_map_iff in Hx. destruct Hx as (y & <- & Hy). apply (Hmax y Hy). }
  assert (Emm : m' = (m + c)%R).
  { apply in_map_iff in Hm'. destruct Hm' as (y & <- & Hy).
    pose proof (Hmin y Hy).
    assert (Hmc : In (m + c)%R (map (fun x => x + c)%R l)) by (apply in_map_iff; exists m; auto).
    specialize (Hmin' _ Hmc). lra. }
  subst m'. do 3 eexists. split; [exact E|]. etransitivity; [exact E'|]. do 2 f_equal. unfold fins. f_equal.
  rewrite !map_map.
  assert (Hs : forall x, (exp (- (x + c - (m + c))) = exp (- (x - m)))%R) by (intro; f_equal; ring).
  rewrite (map_ext (fun x => exp (- (x + c - (m + c)))%R) (fun x => exp (- (x - m))%R)) by (intro; apply Hs).
  apply map_ext. intro x. rewrite Hs. reflexivity.
Qed.
Print Assumptions C52_shift_invariant.

Example C52_nonvacuous : exists w d, WeightsFromAIC (N := XR) (map XFin [5; 5]%R) = Ok (map XFin w, map XFin d) /\
  w = [/2; /2]%R.
Proof.
  destruct (C52_weights [5; 5]%R) as (w & d & E & L & _ & S1 & O1 & _); [discriminate| |].
  { intros x H. assert (x = 5)%R by (destruct H as [|[|[]]]; lra). subst x. unfold maxfR. apply IZR_le. lia. }
  exists w, d. split; [exact E|]. destruct w as [|a [|b [|]]]; simpl in L; try discriminate.
  destruct (O1 0%nat 1%nat) as [_ H]; simpl; try lia. specialize (H eq_refl). simpl in H.
  unfold lsum in S1. simpl in S1. f_equal; [lra|f_equal; lra].
Qed.

(** ** C53 *)
Theorem C53_full_coeff : forall o numFeat sel (coeff : list (F64 o)),
  (0 <= numFeat)%Z ->
  (NoDup sel -> (forall v, In v sel -> 0 <= v < numFeat)%Z -> (length sel <= length coeff)%nat ->
   exists r, FullCoeffVector numFeat sel coeff = Ok r /\ length r = Z.to_nat numFeat /\
     (forall j v c, nth_error sel j = Some v -> nth_error coeff j = Some c ->
        nth_error r (Z.to_nat v) = Some c) /\
     (forall k, (k < Z.to_nat numFeat)%nat -> ~ In (Z.of_nat k) sel -> nth_error r k = Some n0)) /\
  ((exists v, In v sel /\ ~ (0 <= v < numFeat)%Z) \/ (length coeff < length sel)%nat ->
   FullCoeffVector numFeat sel coeff = Panic).
Proof.
  intros o numFeat sel coeff Hn. split.
  - intros ND Hs Hl. apply fcv_spec; auto.
  - intro Hbad. unfold FullCoeffVector, go_make. destruct (Z.ltb_spec numFeat 0); [lia|]. cbn [bind].
    apply fcv_panic. destruct Hbad as [(v & Hv & Hb)|Hl].
    + destruct (In_nth_error _ _ Hv) as (j & Hj). exists j, v. rewrite repeat_length, Z2Nat.id by lia. auto.
    + destruct (nth_error sel (length coeff)) as [v|] eqn:E; [|apply nth_error_None in E; lia].
      exists (length coeff), v. split; [exact E|right; lia].
Qed.
Print Assumptions C53_full_coeff.

(** the weighted sum of the expanded vectors *)
Theorem C53_weighted_average : forall numFeat (ws : list R) (cs : list (list R * list Z)),
  (0 <= numFeat)%Z -> length ws = length cs ->
  (forall p, In p cs -> NoDup (snd p) /\ (forall v, In v (snd p) -> 0 <= v < numFeat)%Z /\
     (length (snd p) <= length (fst p))%nat) ->
  exists full : list (list R),
    (forall i p, nth_error cs i = Some p ->
       FullCoeffVector (N := XR) numFeat (snd p) (map XFin (fst p)) = Ok (map XFin (nth i full []))) /\
    WeightedAveragedCoeff (N := XR) numFeat (map XFin ws)
       (map (fun p => mkSparse (N := XR) (map XFin (fst p)) (snd p)) cs) =
    Ok (map XFin (map (fun k => rsum (length ws) (fun i => nth i ws 0 * nth k (nth i full []) 0)%R)
                      (seq 0 (Z.to_nat numFeat)))).
Proof.
  intros numFeat ws cs Hn Hl Hok.
  exists (map (fun p => map (expand (snd p) (fst p)) (seq 0 (Z.to_nat numFeat))) cs). split.
  - intros i p Hp. destruct (Hok p (nth_error_In _ _ Hp)) as (H1 & H2 & H3).
    rewrite (nth_error_nth _ _ [] (map_nth_error _ _ _ Hp)).
    apply (fcv_xr numFeat (snd p) (fst p)); auto.
  - pose proof (wac_xr numFeat ws cs Hn Hl) as Q.
    change (WeightedAveragedCoeff numFeat (fins ws) (map rsparse cs) = 
      Ok (map XFin (map (fun k => rsum (length ws) (fun i => nth i ws 0 * nth k (nth i (map (fun p =>
        map (expand (snd p) (fst p)) (seq 0 (Z.to_nat numFeat))) cs) []) 0)%R) (seq 0 (Z.to_nat numFeat))))).
    rewrite Q.
    + f_equal. unfold fins. f_equal. apply map_ext_in. intros k Hk. apply in_seq in Hk.
      apply rsum_ext. intros i Hi. f_equal.
      rewrite (nth_map_lt _ _ _ cs i ([], [])) by lia. rewrite nth_map_seq by lia. reflexivity.
    + apply Forall_forall. intros p Hp. destruct (Hok p Hp) as (_ & H2 & H3). auto.
Qed.
Print Assumptions C53_weighted_average.

Theorem C53_weighted_average_panics : forall o numFeat (weights : list (F64 o)) (coeffs : list (SparseCoeff (F64 o))),
  (0 <= numFeat)%Z ->
  length weights <> length coeffs \/
  (exists c, In c coeffs /\
     ((exists v, In v (spSelection c) /\ ~ (0 <= v < numFeat)%Z) \/
      (length (spCoeff c) < length (spSelection c))%nat)) ->
  WeightedAveragedCoeff numFeat weights coeffs = Panic.
Proof.
  intros o numFeat weights coeffs Hn Hbad. apply wac_panic; auto.
  destruct Hbad as [H|(c & Hc & Hb)]; [left; auto|]. right. exists c. split; auto.
  intros [H1 H2]. destruct Hb as [(v & Hv & Hb)|Hb]; [auto|lia].
Qed.
Print Assumptions C53_weighted_average_panics.

Example C53_nonvacuous :
  FullCoeffVector (N := F64 fenv0) 4 [2; 0]%Z (map f64_ofZ [7; 5]%Z) = Ok (map f64_ofZ [5; 0; 7; 0]%Z) /\
  WeightedAveragedCoeff (N := F64 fenv0) 3 (map f64_ofZ [2; 10]%Z)
    [mkSparse (N := F64 fenv0) (map f64_ofZ [1; 1]%Z) [0; 2]%Z; mkSparse (N := F64 fenv0) (map f64_ofZ [4]%Z) [2]%Z]
  = Ok (map f64_ofZ [2; 0; 42]%Z).
Proof. split; vm_compute; reflexivity. Qed.

(** C31, C47, C49, C50, C58: soft threshold, threshold operator, row split,
    covariance matrices, lasso corrections. *)
From Coq Require Import Reals Lra Permutation Psatz.
From Verif Require Import Base Num Mat RSum Model_Node Model_Fit Model_Cov.
From Verif Require Import Proof_XR Proof_Util Proof_Node Proof_Norm Proof_Fit Proof_Cov.
Open Scope R_scope.

(** ** C31 *)

(** the function whose proximal map is the soft threshold *)
Definition prox_obj (x t z : R) : R := Rsqr (z - x) / 2 + t * Rabs z.

Lemma soft_xr : forall x t, 0 <= t ->
  SoftThreshold (XFin x : XR) (XFin t : XR) =
  fin (if Rlt_dec x (- t) then x + t else if Rlt_dec t x then x - t else 0).
Proof.
  intros x t Ht. unfold SoftThreshold. cbn [nltb nneg XR xneg xltb]. unfold Rltb.
  destruct (Rlt_dec x (- t)); [reflexivity|]. destruct (Rlt_dec t x); reflexivity.
Qed.

Theorem C31_prox : forall x t, 0 <= t ->
  exists z, SoftThreshold (XFin x : XR) (XFin t : XR) = XFin z /\
    (forall u, prox_obj x t z <= prox_obj x t u) /\
    (forall u, prox_obj x t u = prox_obj x t z -> u = z).
Proof.
  intros x t Ht. eexists. split; [apply soft_xr; auto|].
  (* the objective grows at least quadratically away from z *)
  assert (G : forall u, let z := (if Rlt_dec x (- t) then x + t else if Rlt_dec t x then x - t else 0) in
    prox_obj x t z + Rsqr (u - z) / 2 <= prox_obj x t u).
  { intro u. cbv zeta. unfold prox_obj, Rsqr.
    destruct (Rlt_dec x (- t)) as [H|H]; [|destruct (Rlt_dec t x) as [H'|H']].
    - rewrite (Rabs_left (x + t)) by lra. unfold Rabs. destruct (Rcase_abs u); nra.
    - rewrite (Rabs_right (x - t)) by lra. unfold Rabs. destruct (Rcase_abs u); nra.
    - rewrite Rabs_R0. unfold Rabs. destruct (Rcase_abs u); nra. }
  split.
  - intro u. specialize (G u). cbv zeta in G. pose proof (Rle_0_sqr (u - (if Rlt_dec x (- t) then x + t else if Rlt_dec t x then x - t else 0))). lra.
  - intros u E. specialize (G u). cbv zeta in G. rewrite E in G.
    assert (Z0 : Rsqr (u - (if Rlt_dec x (- t) then x + t else if Rlt_dec t x then x - t else 0)) <= 0) by lra.
    pose proof (Rle_0_sqr (u - (if Rlt_dec x (- t) then x + t else if Rlt_dec t x then x - t else 0))).
    assert (Z1 : Rsqr (u - (if Rlt_dec x (- t) then x + t else if Rlt_dec t x then x - t else 0)) = 0) by lra.
    apply Rsqr_0_uniq in Z1. lra.
Qed.
Print Assumptions C31_prox.

Example C31_prox_example : SoftThreshold (XFin (-3) : XR) (XFin 2 : XR) = XFin (-1).
Proof. rewrite soft_xr by lra. destruct (Rlt_dec (-3) (- (2))); [|lra]. unfold fin. f_equal. lra. Qed.

Theorem C31_zero_odd_nonexpansive : forall x t, 0 <= t ->
  exists z, SoftThreshold (XFin x : XR) (XFin t : XR) = XFin z /\
    (z = 0 <-> Rabs x <= t) /\
    SoftThreshold (XFin (- x) : XR) (XFin t : XR) = XFin (- z) /\
    (forall x' z', SoftThreshold (XFin x' : XR) (XFin t : XR) = XFin z' -> Rabs (z - z') <= Rabs (x - x')) /\
    Rabs z <= Rabs x /\ 0 <= z * x.
Proof.
  intros x t Ht. eexists. split; [apply soft_xr; auto|]. split; [|split; [|split; [|split]]].
  - destruct (Rlt_dec x (- t)); [|destruct (Rlt_dec t x)].
    + split; [lra|]. unfold Rabs. destruct (Rcase_abs x); lra.
    + split; [lra|]. unfold Rabs. destruct (Rcase_abs x); lra.
    + split; auto. intros _. unfold Rabs. destruct (Rcase_abs x); lra.
  - rewrite soft_xr by auto. unfold fin. f_equal.
    destruct (Rlt_dec x (- t)), (Rlt_dec t x), (Rlt_dec (- x) (- t)), (Rlt_dec t (- x)); lra.
  - intros x' z' E. rewrite soft_xr in E by auto. injection E as <-.
    destruct (Rlt_dec x (- t)), (Rlt_dec t x), (Rlt_dec x' (- t)), (Rlt_dec t x'); try lra;
      unfold Rabs; repeat destruct (Rcase_abs _); lra.
  - destruct (Rlt_dec x (- t)), (Rlt_dec t x); unfold Rabs; repeat destruct (Rcase_abs _); lra.
  - destruct (Rlt_dec x (- t)), (Rlt_dec t x); nra.
Qed.
Print Assumptions C31_zero_odd_nonexpansive.

Example C31_zero_example : SoftThreshold (XFin (1 / 2) : XR) (XFin 1 : XR) = XFin 0 /\ Rabs (1 / 2) <= 1.
Proof.
  split; [|rewrite Rabs_right; lra]. rewrite soft_xr by lra.
  destruct (Rlt_dec (1 / 2) (- (1))); [lra|]. destruct (Rlt_dec 1 (1 / 2)); [lra|]. reflexivity.
Qed.

(** IEEE: a NaN argument (or threshold) is silently turned into +0 *)
Theorem C31_nan_becomes_zero : forall o (x t : F64 o), nisnan x = true \/ nisnan t = true ->
  SoftThreshold x t = Floats.SpecFloat.S754_zero false.
Proof. intros o x t [H|H]; destruct x, t; try discriminate; reflexivity. Qed.
Print Assumptions C31_nan_becomes_zero.

(** ** C47 *)

(** a cell is removed when its magnitude is below the threshold (IEEE compare) *)
Definition below {o} (t : F64 o) (X : Mat (F64 o)) (p : nat * nat) : bool :=
  nltb (nabs (mval X (fst p) (snd p))) t.

Theorem C47_apply : forall o (t : F64 o) (X : Mat (F64 o)),
  exists X' n, Apply t X = Ok (X', n) /\ mrows X' = mrows X /\ mcols X' = mcols X /\
    (forall i j, (i < mrows X)%nat -> (j < mcols X)%nat ->
       (nltb (nabs (mval X i j)) t = true -> mval X' i j = Floats.SpecFloat.S754_zero false) /\
       (nltb (nabs (mval X i j)) t = false -> mval X' i j = mval X i j)) /\
    (* numRemoved is the number of such cells *)
    n = Z.of_nat (length (filter (below t X) (list_prod (seq 0 (mrows X)) (seq 0 (mcols X))))) /\
    (* idempotent *)
    (exists X'' n', Apply t X' = Ok (X'', n') /\ meq X'' X') /\
    (* symmetric matrices stay symmetric *)
    (mrows X = mcols X -> (forall i j, (i < mrows X)%nat -> (j < mcols X)%nat -> mval X i j = mval X j i) ->
     forall i j, (i < mrows X)%nat -> (j < mcols X)%nat -> mval X' i j = mval X' j i).
Proof.
  intros o t X. destruct (apply_spec (F64 o) t X) as (X' & E & R & C & V).
  eexists X', _. split; [exact E|]. split; auto. split; auto.
  split; [|split; [reflexivity|split]].
  - intros i j Hi Hj. rewrite V by auto. split; intro H; rewrite H; reflexivity.
  - destruct (apply_spec (F64 o) t X') as (X'' & E' & R' & C' & V'). eexists X'', _. split; [exact E'|].
    split; auto. split; auto. intros i j Hi Hj. rewrite V' by lia. rewrite V by lia.
    destruct (nltb (nabs (mval X i j)) t) eqn:B; [|rewrite B; reflexivity].
    destruct (nltb (nabs n0) t); reflexivity.
  - intros Hsq Hs i j Hi Hj. rewrite !V by lia. rewrite (Hs i j) by lia. reflexivity.
Qed.
Print Assumptions C47_apply.

Definition m2 : Mat (F64 fenv0) := mkMat 2 2 (fun i j => nofZ (if (i =? j)%nat then 5 else -1)).
Example C47_example : match Apply (N := F64 fenv0) (nofZ 2) m2 with
  | Ok (X', n) => (n =? 2)%Z && nleb (mval X' 0 0) (nofZ 5) && nleb (nofZ 5) (mval X' 0 0)
                  && nleb (nabs (mval X' 0 1)) (nofZ 0)
  | _ => false end = true.
Proof. vm_compute. reflexivity. Qed.

(** SparseThresholded: entrywise thresholding does not keep the estimate
    positive semi-definite. *)
Definition xs3 : Mat XR := mkMat 3 3 (fun i j => fin (nth j (nth i [[1; 1; 1]; [1; 1; 0]; [0; 1; 1]] []) 0)).

Lemma approx_refl : forall X A tol, rmat X A -> mat_approx (N := XR) tol X X = true.
Proof.
  intros X A tol H. unfold mat_approx. rewrite !Nat.eqb_refl. cbn [andb].
  apply forallb_forall. intros i Hi. apply forallb_forall. intros j Hj. apply in_seq in Hi. apply in_seq in Hj.
  rewrite (H i j) by lia. unfold float_approx.
  assert (E : nleb (n := XR) (fin (A i j)) (fin (A i j)) = true).
  { cbn. unfold xleb, fin. cbn. rewrite (proj2 (Rltb_false (A i j) (A i j))) by lra. reflexivity. }
  rewrite E. reflexivity.
Qed.

Theorem C47_not_positive_refuted : exists (X : Mat XR) A t C c v,
  rmat X A /\ SparseThresholded_Get (mkSparseThr X t) X = Ok C /\ mrows C = 3%nat /\ mcols C = 3%nat /\
  rmat C c /\ rsum 3 (fun i => rsum 3 (fun j => v i * c i j * v j)) < 0.
Proof.
  set (A := fun i j => nth j (nth i [[1; 1; 1]; [1; 1; 0]; [0; 1; 1]] []) 0).
  assert (HA : rmat xs3 A) by (intros i j _ _; reflexivity).
  destruct (empirical_xr xs3 A HA ltac:(cbn; lia) ltac:(cbn; lia)) as (C & E & R1 & C1 & Q).
  destruct (apply_spec XR (fin (1 / 2)) C) as (C' & E' & R2 & C2 & V).
  exists xs3, A, (fin (1 / 2)), C'.
  exists (fun i j => nth j (nth i [[2 / 3; 2 / 3; 0]; [2 / 3; 1; 2 / 3]; [0; 2 / 3; 2 / 3]] []) 0).
  exists (fun i => nth i [1; -1; 1] 0).
  split; auto. split.
  { unfold SparseThresholded_Get. cbn [spX spThreshold]. rewrite (approx_refl xs3 A _ HA). cbn [negb].
    rewrite E. cbn [bind]. rewrite E'. reflexivity. }
  change (mcols xs3) with 3%nat in *. change (mrows xs3) with 3%nat in *.
  split; [congruence|]. split; [congruence|]. split.
  - intros i j Hi Hj. rewrite V by lia. rewrite (Q i j) by lia. rewrite xabs_fin.
    change (nltb (n := XR) (fin ?a) (fin ?b)) with (Rltb a b).
    rewrite R2, R1 in Hi. rewrite C2, C1 in Hj.
    assert (Hx : forall k l, rsum 3 (fun q => A q k * A q l) / INR 3 = rsum 3 (fun q => A q k * A q l) / 3)
      by (intros; cbn [INR]; f_equal; lra).
    rewrite Hx. clear Hx V Q E E' HA. 
    destruct i as [|[|[|i]]]; try lia; destruct j as [|[|[|j]]]; try lia; unfold A; cbn [rsum nth];
    match goal with |- (if Rltb (Rabs ?r) _ then _ else _) = _ =>
      rewrite (Rabs_right r) by lra;
      first [rewrite (proj2 (Rltb_false r (1 / 2))) by lra | rewrite (proj2 (Rltb_true r (1 / 2))) by lra] end;
    try reflexivity; unfold fin; f_equal; lra.
  - cbn [rsum nth]. lra.
Qed.
Print Assumptions C47_not_positive_refuted.

(** The estimator is tied to the data it was made for: on a matrix that is not
    the same up to 10^-10, absolutely or relative to the larger entry, it panics;
    otherwise it is X'X/n with the entries below the threshold set to 0. *)
Definition same_data (r c : nat) (A B : nat -> nat -> R) : Prop :=
  forall i j, (i < r)%nat -> (j < c)%nat ->
    Rabs (A i j - B i j) <= / 10 ^ 10 * Rmax 1 (Rmax (Rabs (A i j)) (Rabs (B i j))).

Lemma e10_fin : ndec (n := XR) 1 (-10) = fin (/ 10 ^ 10).
Proof. cbn. unfold xdec. cbn. unfold fin. f_equal. lra. Qed.

Lemma tiny_fin : exists u, ndec (n := XR) 22250738585072014 (-324) = fin u /\ 0 < u <= / 10 ^ 10.
Proof.
  exists (22250738585072014 / 10 ^ 324). split.
  - change (ndec (n := XR) 22250738585072014 (-324)) with (xdec 22250738585072014 (-324)). unfold xdec.
    change (0 <=? -324)%Z with false. cbv iota. unfold fin. f_equal. f_equal.
    change (- -324)%Z with (Z.of_nat 324). rewrite <- pow_IZR. reflexivity.
  - assert (P : 0 < 10 ^ 324) by (apply pow_lt; lra). split.
    + apply Rmult_lt_0_compat; [lra|]. apply Rinv_0_lt_compat. exact P.
    + replace 324%nat with (10 + (20 + 294))%nat by reflexivity. rewrite !pow_add.
      assert (P1 : 1 <= 10 ^ 294) by (apply pow_R1_Rle; lra).
      assert (P2 : 22250738585072014 <= 10 ^ 20) by lra.
      assert (P3 : 0 < 10 ^ 10) by (apply pow_lt; lra).
      set (x := 10 ^ 294) in *. set (z := 10 ^ 20) in *. set (w := 10 ^ 10) in *.
      assert (0 < z) by lra. assert (Hzx : z <= z * x) by nra.
      unfold Rdiv. rewrite Rinv_mult. rewrite <- (Rmult_1_r (/ w)) at 2.
      rewrite <- Rmult_assoc, (Rmult_comm _ (/ w)), Rmult_assoc.
      apply Rmult_le_compat_l; [left; apply Rinv_0_lt_compat; exact P3|].
      apply Rmult_le_reg_r with (z * x); [nra|]. rewrite Rmult_assoc, Rinv_l by nra. lra.
Qed.

Lemma xle_fin : forall a b, nleb (n := XR) (fin a) (fin b) = true <-> a <= b.
Proof.
  intros a b. cbn. unfold xleb, fin. cbn. destruct (Rltb b a) eqn:E; cbn.
  - apply Rltb_true in E. split; [discriminate|lra].
  - apply Rltb_false in E. split; auto.
Qed.

Lemma approx_xr : forall a b, float_approx (N := XR) (ndec 1 (-10)) (fin a) (fin b) = true <->
  Rabs (a - b) <= / 10 ^ 10 * Rmax 1 (Rmax (Rabs a) (Rabs b)).
Proof.
  intros a b. destruct tiny_fin as (u & Eu & Hu0 & Hu). unfold float_approx. rewrite Eu, e10_fin, !xsub_fin, !xabs_fin, xlt_fin.
  assert (Ht : 0 < / 10 ^ 10) by (apply Rinv_0_lt_compat, pow_lt; lra). set (t := / 10 ^ 10) in *. clearbody t.
  set (d := Rabs (a - b)). set (M := Rmax (Rabs a) (Rabs b)).
  assert (Hd : 0 <= d) by apply Rabs_pos.
  assert (HM : (if Rltb (Rabs a) (Rabs b) then fin (Rabs b) else fin (Rabs a)) = fin M).
  { unfold M, Rmax. destruct (Rltb (Rabs a) (Rabs b)) eqn:E; [apply Rltb_true in E|apply Rltb_false in E];
      destruct (Rle_dec (Rabs a) (Rabs b)); try reflexivity; try lra. f_equal. lra. }
  rewrite HM. assert (H0 : 0 <= M) by (unfold M; apply Rle_trans with (Rabs a); [apply Rabs_pos|apply Rmax_l]).
  assert (Hdm : d <= 2 * M).
  { unfold d, M. pose proof (Rmax_l (Rabs a) (Rabs b)). pose proof (Rmax_r (Rabs a) (Rabs b)).
    pose proof (Rabs_triang a (- b)). rewrite Rabs_Ropp in *. unfold Rminus. lra. }
  assert (Hmul : (t * Rmax 1 M) = Rmax t (t * M)).
  { unfold Rmax. destruct (Rle_dec 1 M), (Rle_dec t (t * M)); nra. }
  rewrite Hmul, !orb_true_iff, andb_true_iff, !xle_fin.
  assert (Hor : d <= Rmax t (t * M) <-> (d <= t \/ d <= t * M)).
  { unfold Rmax. destruct (Rle_dec t (t * M)); split; intro; try tauto; lra. }
  rewrite Hor. split.
  - intros [[[H1 H2]|H]|H].
    + left. unfold d. replace (a - b) with 0 by lra. rewrite Rabs_R0. lra.
    + left. exact H.
    + destruct (nleb (n := XR) (fin d) (fin u)) eqn:E.
      * apply xle_fin in E. left. lra.
      * assert (Hlt : u < d) by (destruct (Rlt_dec u d); auto; rewrite (proj2 (xle_fin d u)) in E by lra; discriminate).
        right. rewrite xdiv_fin in H by lra. apply xle_fin in H.
        apply (Rmult_le_compat_r M) in H; [|lra]. unfold Rdiv in H. rewrite Rmult_assoc, Rinv_l in H by lra. lra.
  - intros [H|H]; [left; right; exact H|].
    destruct (nleb (n := XR) (fin d) (fin u)) eqn:E.
    + apply xle_fin in E. left. right. lra.
    + assert (Hlt : u < d) by (destruct (Rlt_dec u d); auto; rewrite (proj2 (xle_fin d u)) in E by lra; discriminate).
      right. rewrite xdiv_fin by lra. apply xle_fin. apply Rmult_le_reg_r with M; [lra|].
      unfold Rdiv. rewrite Rmult_assoc, Rinv_l by lra. lra.
Qed.

Theorem C47_estimator : forall X S A B t,
  rmat X A -> rmat S B -> (0 < mrows X)%nat -> (0 < mcols X)%nat ->
  (mrows S = mrows X /\ mcols S = mcols X /\ same_data (mrows X) (mcols X) A B ->
   exists C, SparseThresholded_Get (mkSparseThr S (fin t)) X = Ok C /\ mrows C = mcols X /\ mcols C = mcols X /\
     rmat C (fun i j => let c := rsum (mrows X) (fun k => A k i * A k j) / INR (mrows X) in
       if Rlt_dec (Rabs c) t then 0 else c)) /\
  (~ (mrows S = mrows X /\ mcols S = mcols X /\ same_data (mrows X) (mcols X) A B) ->
   SparseThresholded_Get (mkSparseThr S (fin t)) X = Panic).
Proof.
  intros X S A B t HA HB Hr Hc.
  assert (Hap : mat_approx (N := XR) (ndec 1 (-10)) X S = true <->
    (mrows S = mrows X /\ mcols S = mcols X /\ same_data (mrows X) (mcols X) A B)).
  { unfold mat_approx, same_data. rewrite !andb_true_iff, !Nat.eqb_eq, forallb_forall. split.
    - intros [[E1 E2] H]. split; [auto|]. split; [auto|]. intros i j Hi Hj.
      specialize (H i ltac:(apply in_seq; lia)). rewrite forallb_forall in H. specialize (H j ltac:(apply in_seq; lia)).
      rewrite (HA i j), (HB i j) in H by lia. apply approx_xr in H. exact H.
    - intros (E1 & E2 & H). split; [auto|]. intros i Hi. apply in_seq in Hi. apply forallb_forall. intros j Hj. apply in_seq in Hj.
      rewrite (HA i j), (HB i j) by lia. apply approx_xr. apply H; lia. }
  unfold SparseThresholded_Get. cbn [spX spThreshold].
  destruct (mat_approx (ndec 1 (-10)) X S) eqn:E; cbn [negb]; split; intro H.
  - destruct (empirical_xr X A HA Hr Hc) as (C & EC & R1 & C1 & Q).
    destruct (apply_spec XR (fin t) C) as (C' & E' & R2 & C2 & V).
    exists C'. rewrite EC. cbn [bind]. rewrite E'. split; [reflexivity|]. split; [congruence|]. split; [congruence|].
    intros i j Hi Hj. cbv zeta. rewrite V, (Q i j) by lia. rewrite xabs_fin, xlt_fin. unfold Rltb.
    destruct (Rlt_dec _ t); reflexivity.
  - exfalso. apply H, Hap. reflexivity.
  - apply Hap in H. discriminate.
  - reflexivity.
Qed.
Print Assumptions C47_estimator.

Example C47_estimator_example : same_data 3 3 (fun i j => 1000000 * INR (i + j)) (fun i j => 1000000 * INR (i + j) + / 20000) ->
  False.
Proof.
  intro H. specialize (H 0%nat 0%nat ltac:(lia) ltac:(lia)). cbn [Nat.add INR] in H.
  rewrite Rmult_0_r, Rplus_0_l, Rminus_0_l, Rabs_Ropp, Rabs_R0, (Rabs_right (/ 20000)) in H by lra.
  rewrite (Rmax_right 0), Rmax_left in H by lra. lra.
Qed.
Example C47_estimator_example2 : same_data 2 2 (fun i j => 1000000) (fun i j => 1000000 + / 20000).
Proof.
  intros i j _ _. replace (1000000 - _) with (- / 20000) by ring.
  rewrite Rabs_Ropp, !Rabs_right by lra. rewrite (Rmax_right 1000000), Rmax_right by lra. lra.
Qed.

(** ** C49 *)

(** the rows of a matrix, as a list *)
Definition rows_of {N : Num} (X : Mat N) : list (list N) :=
  map (fun i => map (fun j => mval X i j) (seq 0 (mcols X))) (seq 0 (mrows X)).

Theorem C49_partition : forall o rnd (X : Mat (F64 o)) num,
  (0 < num < Z.of_nat (mrows X))%Z -> (0 < mcols X)%nat ->
  exists M1 M2, RandomRowSplit rnd X num = Ok (M1, M2) /\
    Z.of_nat (mrows M1) = num /\ Z.of_nat (mrows M2) = (Z.of_nat (mrows X) - num)%Z /\
    mcols M1 = mcols X /\ mcols M2 = mcols X /\
    Permutation (rows_of M1 ++ rows_of M2) (rows_of X).
Proof.
  intros o rnd X num Hn Hc.
  destruct (split_spec (F64 o) rnd X num Hn Hc) as (M1 & M2 & ix & E & P & R1 & R2 & C1 & C2 & V1 & V2).
  exists M1, M2. split; auto. split; [lia|]. split; [lia|]. split; auto. split; auto.
  assert (Lix : length ix = mrows X) by (rewrite <- (Permutation_length P), seq_length; auto).
  set (row := fun i => map (fun j => mval X i j) (seq 0 (mcols X))).
  set (n := Z.to_nat num) in *.
  assert (E1 : rows_of M1 = map row (firstn n ix)).
  { unfold rows_of. rewrite C1, R1. replace (firstn n ix) with (map (fun i => nth i ix 0%nat) (seq 0 n)).
    - rewrite map_map. apply map_ext_in. intros i Hi. apply in_seq in Hi. unfold row.
      apply map_ext_in. intros j Hj. apply in_seq in Hj. apply V1; lia.
    - symmetry. apply nth_ext with 0%nat 0%nat.
      + rewrite firstn_length, map_length, seq_length. unfold n. lia.
      + intros i Hi. rewrite firstn_length in Hi. rewrite nth_map_seq by lia.
        rewrite <- (firstn_skipn n ix) at 2. rewrite app_nth1 by (rewrite firstn_length; lia). reflexivity. }
  assert (E2 : rows_of M2 = map row (skipn n ix)).
  { unfold rows_of. rewrite C2, R2. replace (skipn n ix) with (map (fun i => nth (n + i) ix 0%nat) (seq 0 (mrows X - n))).
    - rewrite map_map. apply map_ext_in. intros i Hi. apply in_seq in Hi. unfold row.
      apply map_ext_in. intros j Hj. apply in_seq in Hj. apply V2; lia.
    - symmetry. apply nth_ext with 0%nat 0%nat.
      + rewrite skipn_length, map_length, seq_length. lia.
      + intros i Hi. rewrite skipn_length in Hi. rewrite nth_map_seq by lia.
        rewrite <- (firstn_skipn n ix) at 2. rewrite app_nth2 by (rewrite firstn_length; unfold n in *; lia).
        rewrite firstn_length. f_equal. unfold n in *. lia. }
  rewrite E1, E2, <- map_app, firstn_skipn. unfold rows_of. fold row. apply Permutation_map.
  apply Permutation_sym; auto.
Qed.
Print Assumptions C49_partition.

Theorem C49_panics : forall o rnd (X : Mat (F64 o)) num,
  (num <= 0 \/ Z.of_nat (mrows X) <= num)%Z -> RandomRowSplit rnd X num = Panic.
Proof. intros o rnd X num H. apply split_panics. left. lia. Qed.
Print Assumptions C49_panics.

Definition m31 : Mat (F64 fenv0) := mkMat 3 1 (fun i _ => nofnat i).
Example C49_example : match RandomRowSplit (fun i => 0%nat) m31 2 with
  | Ok (M1, M2) => (mrows M1 =? 2)%nat && (mrows M2 =? 1)%nat && nleb (mval M2 0 0) (nofnat 0)
  | _ => false end = true.
Proof. vm_compute. reflexivity. Qed.

(** ** C50 *)

(** textbook: mean of the products of the deviations from the column means *)
Definition col_mean (n : nat) (A : nat -> nat -> R) (j : nat) : R := rsum n (fun i => A i j) / INR n.
Definition covariance (n : nat) (A : nat -> nat -> R) (i j : nat) : R :=
  rsum n (fun k => (A k i - col_mean n A i) * (A k j - col_mean n A j)) / INR n.
Definition symmetric (n : nat) (C : nat -> nat -> R) : Prop :=
  forall i j, (i < n)%nat -> (j < n)%nat -> C i j = C j i.
Definition positive_semidefinite (n : nat) (C : nat -> nat -> R) : Prop :=
  forall v, 0 <= rsum n (fun i => rsum n (fun j => v i * C i j * v j)).

Lemma gram_psd : forall n m B, (0 < n)%nat ->
  positive_semidefinite m (fun i j => rsum n (fun k => B k i * B k j) / INR n).
Proof.
  intros n m B Hn v.
  rewrite (rsum_ext m _ (fun i => / INR n * rsum m (fun j => v i * rsum n (fun k => B k i * B k j) * v j))).
  - rewrite rsum_scal, quad_form. apply Rmult_le_pos.
    + apply Rlt_le, Rinv_0_lt_compat, lt_0_INR. lia.
    + apply rsum_nonneg. intros. apply Rle_0_sqr.
  - intros i _. rewrite <- rsum_scal. apply rsum_ext. intros j _. unfold Rdiv. ring.
Qed.

Theorem C50_covariance : forall X A, rmat X A -> (0 < mrows X)%nat -> (0 < mcols X)%nat ->
  exists C, CovarianceMatrix X = Ok C /\ mrows C = mcols X /\ mcols C = mcols X /\
    rmat C (covariance (mrows X) A) /\
    symmetric (mcols X) (covariance (mrows X) A) /\
    positive_semidefinite (mcols X) (covariance (mrows X) A).
Proof.
  intros X A HA Hr Hc. destruct (covariance_xr X A HA Hr Hc) as (C & E & R1 & C1 & Q).
  exists C. split; auto. split; auto. split; auto. split; [|split].
  - intros i j Hi Hj. rewrite (Q i j) by auto. f_equal. apply cov_deviations; auto.
  - intros i j _ _. unfold covariance. f_equal. apply rsum_ext. intros; ring.
  - apply (gram_psd (mrows X) (mcols X) (fun k i => A k i - col_mean (mrows X) A i)); auto.
Qed.
Print Assumptions C50_covariance.

Theorem C50_empirical : forall X A, rmat X A -> (0 < mrows X)%nat -> (0 < mcols X)%nat ->
  let c := fun i j => rsum (mrows X) (fun k => A k i * A k j) / INR (mrows X) in
  exists C, Empirical_Get X = Ok C /\ mrows C = mcols X /\ mcols C = mcols X /\ rmat C c /\
    symmetric (mcols X) c /\ positive_semidefinite (mcols X) c /\
    (* it is the covariance exactly when the columns are centred *)
    ((forall j, (j < mcols X)%nat -> col_mean (mrows X) A j = 0) ->
      forall i j, (i < mcols X)%nat -> (j < mcols X)%nat -> c i j = covariance (mrows X) A i j).
Proof.
  intros X A HA Hr Hc c. destruct (empirical_xr X A HA Hr Hc) as (C & E & R1 & C1 & Q).
  exists C. split; auto. split; auto. split; auto. split; [exact Q|]. split; [|split].
  - intros i j _ _. unfold c. f_equal. apply rsum_ext. intros; ring.
  - apply gram_psd; auto.
  - intros H i j Hi Hj. unfold c, covariance. f_equal. apply rsum_ext. intros k _. rewrite !H by auto. ring.
Qed.
Print Assumptions C50_empirical.

Theorem C50_identity : forall (X : Mat XR), (0 < mcols X)%nat ->
  exists C, Identity_Get X = Ok C /\ mrows C = mcols X /\ mcols C = mcols X /\
    rmat C (fun i j => if (i =? j)%nat then 1 else 0).
Proof.
  intros X Hc. unfold Identity_Get. rewrite (for_loop_fill0 _ (fun _ => n1)) by apply repeat_length. cbn [bind].
  destruct (Nat.eqb_spec (mcols X) 0) as [Hz|_]; [lia|]. eexists. split; [reflexivity|].
  cbn [mat_diag mrows mcols]. rewrite map_length, seq_length. split; auto. split; auto.
  intros i j Hi Hj. cbn [mat_diag mrows mcols mval] in *. rewrite map_length, seq_length in *.
  destruct (Nat.eqb i j); [|reflexivity]. rewrite (nth_map_seq _ (fun _ => n1)) by auto. reflexivity.
Qed.
Print Assumptions C50_identity.

Definition x22 : Mat XR := mkMat 2 2 (fun i j => fin (INR (i * 2 + j))).
Example C50_example : exists C, CovarianceMatrix x22 = Ok C /\ mval C 0 1 = fin 1 /\
  covariance 2 (fun i j => INR (i * 2 + j)) 0 1 = 1.
Proof.
  destruct (C50_covariance x22 (fun i j => INR (i * 2 + j))) as (C & E & R1 & C1 & Q & _);
    [intros i j _ _; reflexivity|cbn; lia|cbn; lia|].
  assert (K : covariance 2 (fun i j => INR (i * 2 + j)) 0 1 = 1).
  { unfold covariance, col_mean. cbn [rsum Nat.mul Nat.add INR]. field. }
  exists C. split; auto. split; auto. rewrite (Q 0%nat 1%nat) by (rewrite ?R1, ?C1; cbn; lia).
  f_equal. exact K.
Qed.

(** ** C58 *)

(** the penalties whose gradients the corrections are meant to be *)
Definition ridge (lamb : R) (beta : list R) : R := lamb / 2 * lsum (map Rsqr beta).
Definition inner (u v : list R) : R := rsum (length u) (fun i => nth i u 0 * nth i v 0).
(** half eta times the squared length of the projection of beta on the line
    spanned by [last] *)
Definition group_penalty (eta : R) (last beta : list R) : R :=
  eta / 2 * (Rsqr (inner last beta) / inner last last).

Lemma nth_upd_ne : forall (l : list R) k t i, i <> k -> nth i (upd l k t) 0 = nth i l 0.
Proof. intros l k t i H. rewrite nth_upd. destruct (Nat.eqb_spec i k); [contradiction|]. reflexivity. Qed.
Lemma nth_upd_eq : forall (l : list R) k t, (k < length l)%nat -> nth k (upd l k t) 0 = t.
Proof. intros l k t H. rewrite nth_upd, Nat.eqb_refl. destruct (Nat.ltb_spec k (length l)); [reflexivity|lia]. Qed.

Theorem C58_elastic_net : forall lamb beta k, (k < length beta)%nat ->
  exists d, Deriv (ElasticNet (XFin lamb : XR)) (fins beta) (Z.of_nat k) = Ok (fin d) /\
    derivable_pt_lim (fun t => ridge lamb (upd beta k t)) (nth k beta 0) d.
Proof.
  intros lamb beta k Hk. exists (lamb * nth k beta 0). split.
  - cbn [Deriv]. rewrite getz_nat, getn_fins by auto. reflexivity.
  - set (c := lsum (map Rsqr beta) - Rsqr (nth k beta 0)).
    assert (E : forall t, ridge lamb (upd beta k t) = lamb / 2 * (c + t * t)).
    { intro t. unfold ridge. f_equal. unfold c. rewrite !lsum_rsum, !map_length, upd_length.
      rewrite (rsum_ext (length beta) (fun i => nth i (map Rsqr (upd beta k t)) 0)
        (fun i => nth i (map Rsqr beta) 0 + delta k i * (t * t - Rsqr (nth k beta 0)))).
      - rewrite rsum_plus, (rsum_delta_l _ k (fun _ => t * t - Rsqr (nth k beta 0))) by auto. ring.
      - intros i Hi. rewrite !(nth_map_lt _ _ Rsqr _ i 0 0) by (rewrite ?upd_length; auto).
        destruct (Nat.eq_dec i k) as [->|Hne].
        + rewrite nth_upd_eq, delta_same by auto. unfold Rsqr. ring.
        + rewrite nth_upd_ne, delta_ne by auto. ring. }
    intros eps He.
    assert (D : derivable_pt_lim (fun t => lamb / 2 * (c + t * t)) (nth k beta 0) (lamb * nth k beta 0)).
    { replace (lamb * nth k beta 0) with (lamb / 2 * (0 + (1 * nth k beta 0 + nth k beta 0 * 1))) by field.
      apply (derivable_pt_lim_scal (fun t => c + t * t)).
      apply (derivable_pt_lim_plus (fun _ => c) (fun t => t * t)); [apply derivable_pt_lim_const|].
      apply (derivable_pt_lim_mult id id); apply derivable_pt_lim_id. }
    destruct (D eps He) as (del & Hd). exists del. intros h Hh Hl. rewrite !E. apply Hd; auto.
Qed.
Print Assumptions C58_elastic_net.

Lemma classo_loop : forall cl beta, length beta = length cl ->
  for_loop 0 (length (fins cl)) (fun i (st : XR * XR) =>
        let '(normSq, inn) := st in
        do c <- getn (fins cl) i;
        do b <- getn (fins beta) i;
        Ok ((normSq + c * c)%num, (inn + c * b)%num)) (n0, n0) = Ok (fin (inner cl cl), fin (inner cl beta)).
Proof.
  intros cl beta Hl. rewrite fins_length. unfold inner.
  enough (G : forall n, (n <= length cl)%nat -> for_loop 0 n (fun i (st : XR * XR) =>
        let '(normSq, inn) := st in
        do c <- getn (fins cl) i;
        do b <- getn (fins beta) i;
        Ok ((normSq + c * c)%num, (inn + c * b)%num)) (n0, n0) =
      Ok (fin (rsum n (fun i => nth i cl 0 * nth i cl 0)), fin (rsum n (fun i => nth i cl 0 * nth i beta 0))))
    by (apply G; lia).
  induction n as [|n IH]; intro H; [reflexivity|].
  replace (S n) with (n + 1)%nat at 1 by lia. rewrite for_loop_add, IH by lia. cbn [bind for_loop].
  rewrite Nat.add_0_l, !getn_fins by lia. reflexivity.
Qed.

Theorem C58_classo : forall eta last beta k, length beta = length last -> (k < length beta)%nat ->
  (* the stored coefficients do not vanish *)
  (1 / 10 ^ 10 <= inner last last ->
   exists d, Deriv (CLasso (fins last) (XFin eta : XR)) (fins beta) (Z.of_nat k) = Ok (fin d) /\
     derivable_pt_lim (fun t => group_penalty eta last (upd beta k t)) (nth k beta 0) d) /\
  (* they (almost) vanish *)
  (inner last last < 1 / 10 ^ 10 ->
   Deriv (CLasso (fins last) (XFin eta : XR)) (fins beta) (Z.of_nat k) = Ok (fin 0)).
Proof.
  intros eta last beta k Hl Hk.
  assert (Hnn : 0 <= inner last last) by (apply rsum_nonneg; intros; apply Rle_0_sqr).
  assert (Ht : nltb (n := XR) (nabs (fin (inner last last))) (ndec 1 (-10)) = Rltb (inner last last) (1 / 10 ^ 10)).
  { rewrite tol10_dec, xabs_fin, Rabs_right by lra. change (Rltb (inner last last) tol10 = Rltb (inner last last) (1 / 10 ^ 10)).
    f_equal. unfold tol10. f_equal. cbn. lra. }
  split; intro Hb.
  - assert (Hp : 0 < 1 / 10 ^ 10) by lra.
    exists (eta * nth k last 0 * inner last beta / inner last last). split.
    + cbn [Deriv]. rewrite classo_loop by auto. cbn [bind]. rewrite Ht, (proj2 (Rltb_false _ _)) by lra.
      rewrite getz_nat, getn_fins by lia. cbn [bind]. change (XFin eta : XR) with (fin eta).
      rewrite !xmul_fin, xdiv_fin by lra. reflexivity.
    + set (c := inner last beta - nth k last 0 * nth k beta 0).
      assert (E : forall t, group_penalty eta last (upd beta k t) =
        eta / 2 / inner last last * ((c + nth k last 0 * t) * (c + nth k last 0 * t))).
      { intro t. unfold group_penalty.
        assert (Ei : inner last (upd beta k t) = c + nth k last 0 * t).
        { unfold c, inner. rewrite (rsum_ext (length last) (fun i => nth i last 0 * nth i (upd beta k t) 0)
            (fun i => nth i last 0 * nth i beta 0 + delta k i * (nth k last 0 * (t - nth k beta 0)))).
          - rewrite rsum_plus, (rsum_delta_l _ k (fun _ => nth k last 0 * (t - nth k beta 0))) by lia. ring.
          - intros i Hi. destruct (Nat.eq_dec i k) as [->|Hne].
            + rewrite nth_upd_eq, delta_same by auto. ring.
            + rewrite nth_upd_ne, delta_ne by auto. ring. }
        rewrite Ei. unfold Rsqr, Rdiv. ring. }
      assert (D : derivable_pt_lim (fun t => eta / 2 / inner last last * ((c + nth k last 0 * t) * (c + nth k last 0 * t)))
        (nth k beta 0) (eta * nth k last 0 * inner last beta / inner last last)).
      { replace (eta * nth k last 0 * inner last beta / inner last last) with
          (eta / 2 / inner last last * ((0 + nth k last 0 * 1) * (c + nth k last 0 * nth k beta 0) +
            (c + nth k last 0 * nth k beta 0) * (0 + nth k last 0 * 1))) by (unfold c; field; lra).
        apply (derivable_pt_lim_scal (fun t => (c + nth k last 0 * t) * (c + nth k last 0 * t))).
        assert (D1 : derivable_pt_lim (fun t => c + nth k last 0 * t) (nth k beta 0) (0 + nth k last 0 * 1)).
        { apply (derivable_pt_lim_plus (fun _ => c) (fun t => nth k last 0 * t)); [apply derivable_pt_lim_const|].
          apply (derivable_pt_lim_scal id). apply derivable_pt_lim_id. }
        apply (derivable_pt_lim_mult (fun t => c + nth k last 0 * t) (fun t => c + nth k last 0 * t)); exact D1. }
      intros eps He. destruct (D eps He) as (del & Hd). exists del. intros h Hh Hlt. rewrite !E. apply Hd; auto.
  - cbn [Deriv]. rewrite classo_loop by auto. cbn [bind]. rewrite Ht, (proj2 (Rltb_true _ _)) by lra. reflexivity.
Qed.
Print Assumptions C58_classo.

(** Update replaces the stored coefficients; the derivative at that very vector
    is then eta*beta_k. *)
Theorem C58_update : forall eta old beta k, length old = length beta -> (k < length beta)%nat ->
  1 / 10 ^ 10 <= inner beta beta ->
  Update (CLasso (fins old) (XFin eta : XR)) (fins beta) = CLasso (fins beta) (XFin eta) /\
  Deriv (Update (CLasso (fins old) (XFin eta : XR)) (fins beta)) (fins beta) (Z.of_nat k) =
    Ok (fin (eta * nth k beta 0)).
Proof.
  intros eta old beta k Hl Hk Hb.
  assert (E : Update (CLasso (fins old) (XFin eta : XR)) (fins beta) = CLasso (fins beta) (XFin eta)).
  { cbn [Update]. f_equal. unfold go_copy. rewrite firstn_all2, skipn_all2, app_nil_r; auto; rewrite !fins_length; lia. }
  split; auto. rewrite E. cbn [Deriv]. rewrite classo_loop by auto. cbn [bind].
  assert (Hnn : 0 < 1 / 10 ^ 10) by (apply Rdiv_lt_0_compat; [lra|]; apply pow_lt; lra).
  rewrite tol10_dec, xabs_fin, Rabs_right by lra.
  change (nltb (n := XR) (fin ?a) (fin ?b)) with (Rltb a b).
  rewrite (proj2 (Rltb_false _ _)).
  - rewrite getz_nat, getn_fins by lia. cbn [bind]. change (XFin eta : XR) with (fin eta).
    rewrite !xmul_fin, xdiv_fin by lra. do 2 f_equal. field. lra.
  - unfold tol10. replace (IZR (10 ^ 10)) with (10 ^ 10) by (cbn; lra). exact Hb.
Qed.
Print Assumptions C58_update.

Theorem C58_pure_and_panics : forall o (beta : list (F64 o)) k (lamb : F64 o),
  Deriv PureLasso beta k = Ok (Floats.SpecFloat.S754_zero false) /\
  Update PureLasso beta = PureLasso /\ Update (ElasticNet lamb) beta = ElasticNet lamb /\
  (~ (0 <= k < Z.of_nat (length beta))%Z -> Deriv (ElasticNet lamb) beta k = Panic).
Proof.
  intros o beta k lamb. split; [reflexivity|]. split; [reflexivity|]. split; [reflexivity|].
  intro H. cbn [Deriv]. rewrite getz_out by auto. reflexivity.
Qed.
Print Assumptions C58_pure_and_panics.

Example C58_example : 1 / 10 ^ 10 <= inner [1; 2] [1; 2] /\
  Deriv (CLasso (fins [1; 2]) (XFin 5 : XR)) (fins [3; 4]) 1 = Ok (fin (5 * 2 * 11 / 5)).
Proof.
  assert (E : inner [1; 2] [1; 2] = 5) by (unfold inner; cbn; lra).
  assert (H10 : 1 / 10 ^ 10 <= 5) by (cbn; lra).
  split; [rewrite E; exact H10|]. 
  cbn [Deriv]. rewrite classo_loop by auto. cbn [bind].
  replace (inner [1; 2] [3; 4]) with 11 by (unfold inner; cbn [length rsum nth]; lra).
  rewrite E, tol10_dec, xabs_fin, Rabs_right by lra.
  change (nltb (n := XR) (fin ?a) (fin ?b)) with (Rltb a b).
  rewrite (proj2 (Rltb_false _ _)) by (unfold tol10; replace (IZR (10 ^ 10)) with (10 ^ 10) by (cbn; lra); exact H10).
  change 1%Z with (Z.of_nat 1). rewrite getz_nat, getn_fins by (cbn; lia). cbn [bind nth].
  change (XFin 5 : XR) with (fin 5). rewrite !xmul_fin, xdiv_fin by lra.
  reflexivity.
Qed.

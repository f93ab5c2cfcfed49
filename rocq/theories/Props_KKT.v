(** C88: what the optimality check of coordinate descent reports. *)
From Coq Require Import Reals Lra Psatz Sorted.
From Verif Require Import Base Num Mat RSum Model_Node Model_Util Proof_Util Proof_XR Proof_Norm Model_Fit
  Model_Norm Model_Cov Model_Crd Proof_Lazy Proof_Crd Proof_Crd2 Proof_Crd3 Props_Crd.
Open Scope nat_scope.

(** [i] is reported: not the bias, a coefficient above 1e-16, and a residual
    correlation (as the check computes it) below the penalty *)
Definition flagged {N : Num} (Xy cdb coeff : list N) (lamb : N) (corr : Correction N) (i : nat) : Prop :=
  1 <= i < length cdb /\ exists d, Deriv corr coeff (Z.of_nat i) = Ok d /\
    nltb (nabs (nth i Xy n0 - nth i cdb n0 * nofnat (length Xy) - d)%num) lamb = true /\
    nltb (ndec 1 (-16)) (nabs (nth i coeff n0)) = true.

Lemma Deriv_fun : forall (N : Num) (c : Correction N) b i d d', Deriv c b i = Ok d -> Deriv c b i = Ok d' -> d = d'.
Proof. intros N c b i d d' E E'. rewrite E in E'. injection E' as <-. reflexivity. Qed.

(** C88: one entry per feature in all the arguments; the result lists exactly
    the flagged features, in ascending order, for every number type. *)
Theorem C88_reported : forall (N : Num) (Xy cdb coeff : list N) lamb corr,
  0 < length cdb -> length Xy = length cdb -> length coeff = length cdb ->
  match corr with CLasso b _ => length b = length cdb | _ => True end ->
  exists l, UnsatisfiedKKTConditions Xy cdb coeff lamb corr = Ok (map Z.of_nat l) /\
    StronglySorted lt l /\ forall i, In i l <-> flagged Xy cdb coeff lamb corr i.
Proof.
  intros N Xy cdb coeff lamb corr Hn H1 H2 H3. unfold UnsatisfiedKKTConditions.
  match goal with |- context [for_loop 1 ?k ?b ?s] =>
    destruct (for_loop_inv _ (fun i (uns : list Z) => exists l, uns = map Z.of_nat l /\
      StronglySorted lt l /\ forall j, In j l <-> j < i /\ flagged Xy cdb coeff lamb corr j) b k 1%nat s)
      as (uns & E & l & -> & S & H) end.
  - exists []. split; [reflexivity|]. split; [constructor|]. intros j. split; [intros []|].
    intros (Hj & (Hj' & _)). lia.
  - intros i uns Hi (l & -> & S & H). rewrite (getn_lt _ Xy i n0) by lia. rewrite (getn_lt _ cdb i n0) by lia. cbn [bind].
    destruct (Deriv_ok N (length cdb) corr coeff i H3 H2 ltac:(lia)) as (d & Ed). rewrite Ed. cbn [bind].
    rewrite (getn_lt _ coeff i n0) by lia. cbn [bind]. unfold lassoCrdDescZero.
    destruct (nltb _ lamb && _)%bool eqn:Ea.
    + apply andb_true_iff in Ea. eexists. split; [reflexivity|]. exists (l ++ [i]).
      split; [rewrite map_app; reflexivity|]. split.
      * assert (B : forall j, In j l -> j < i) by (intros j Hj; apply H; exact Hj).
        clear - S B. induction S as [|a l S IH F]; cbn [app]; [repeat constructor|].
        constructor; [apply IH; intros j Hj; apply B; right; exact Hj|].
        apply Forall_app. split; [exact F|]. constructor; [apply B; left; reflexivity|constructor].
      * intros j. rewrite in_app_iff, H. split.
        -- intros [(Hj & F)|[<-|[]]]; [split; [lia|exact F]|]. split; [lia|]. split; [lia|]. exists d. tauto.
        -- intros (Hj & F). destruct (Nat.eq_dec j i) as [->|]; [right; left; reflexivity|left; split; [lia|exact F]].
    + eexists. split; [reflexivity|]. exists l. split; [reflexivity|]. split; [exact S|].
      intros j. rewrite H. split; intros (Hj & F); split; auto; try lia.
      destruct (Nat.eq_dec j i) as [->|]; [exfalso|lia]. destruct F as (_ & d' & E' & F1 & F2).
      rewrite (Deriv_fun _ _ _ _ _ _ E' Ed) in F1. unfold lassoCrdDescZero in Ea. rewrite F1, F2 in Ea. discriminate.
  - exists l. split; [exact E|]. split; [exact S|]. intros j. rewrite H. split; [tauto|].
    intros F. split; [|exact F]. destruct F as (F & _). lia.
Qed.
Print Assumptions C88_reported.

Open Scope R_scope.

(** In exact arithmetic, without correction: with q = X^T y and p = (cov b),
    feature i >= 1 is reported when |q_i - n p_i| < lamb and |b_i| > 1e-16, where
    n is the number of features (the length of q), not of observations. *)
Theorem C88_exact : forall (q p b : list R) lamb, (0 < length p)%nat -> length q = length p -> length b = length p ->
  exists l, UnsatisfiedKKTConditions (N := XR) (fins q) (fins p) (fins b) (fin lamb) PureLasso = Ok (map Z.of_nat l) /\
    StronglySorted lt l /\
    forall i, In i l <-> (1 <= i < length p)%nat /\
      Rabs (nth i q 0 - INR (length q) * nth i p 0) < lamb /\ / 10 ^ 16 < Rabs (nth i b 0).
Proof.
  intros q p b lamb Hp Hq Hb.
  destruct (C88_reported XR (fins q) (fins p) (fins b) (fin lamb) PureLasso) as (l & E & S & H);
    rewrite ?fins_length; auto.
  exists l. split; [exact E|]. split; [exact S|]. intros i. rewrite H. unfold flagged. rewrite !fins_length.
  assert (V : (1 <= i < length p)%nat ->
    nltb (n := XR) (nabs (n := XR) (nsub (n := XR) (nsub (n := XR) (nth i (fins q) n0) (nmul (n := XR) (nth i (fins p) n0) (nofnat (N := XR) (length q)))) n0)) (fin lamb)
      = Rltb (Rabs (nth i q 0 - INR (length q) * nth i p 0)) lamb /\
    nltb (n := XR) (ndec (n := XR) 1 (-16)) (nabs (n := XR) (nth i (fins b) n0)) = Rltb (/ 10 ^ 16) (Rabs (nth i b 0))).
  { intros Hi. change (n0 (N := XR)) with (fin 0). rewrite !nth_fins by lia. rewrite nofnat_fin, xmul_fin, !xsub_fin, !xabs_fin, e16_fin.
    rewrite !xlt_fin. split; [|reflexivity]. f_equal. f_equal. ring. }
  split.
  - intros (Hi & d & Ed & F1 & F2). split; [exact Hi|]. cbn [Deriv] in Ed. injection Ed as <-.
    destruct (V Hi) as (V1 & V2). 
    split.
    + apply Rltb_true. rewrite <- V1. exact F1.
    + apply Rltb_true. rewrite <- V2. exact F2.
  - intros (Hi & F1 & F2). split; [exact Hi|]. exists n0. split; [reflexivity|]. destruct (V Hi) as (V1 & V2).
    split; [etransitivity; [exact V1|]|rewrite V2]; apply Rltb_true; assumption.
Qed.
Print Assumptions C88_exact.

(** A feature whose coefficient is zero is never reported, so nothing is
    reported for the zero vector, whatever the data and the penalty. *)
Theorem C88_left_out : forall (q p b : list R) lamb l i, (0 < length p)%nat -> length q = length p -> length b = length p ->
  UnsatisfiedKKTConditions (N := XR) (fins q) (fins p) (fins b) (fin lamb) PureLasso = Ok (map Z.of_nat l) ->
  nth i b 0 = 0 -> ~ In i l.
Proof.
  intros q p b lamb l i Hp Hq Hb E Z I.
  destruct (C88_exact q p b lamb Hp Hq Hb) as (l' & E' & _ & H). rewrite E in E'.
  assert (EL : l = l').
  { assert (M : map Z.of_nat l = map Z.of_nat l') by congruence. clear - M.
    revert l' M. induction l as [|x l IH]; intros [|x' l'] M; try discriminate M; [reflexivity|].
    cbn [map] in M. injection M as M1 M2. apply Nat2Z.inj in M1. subst. f_equal. auto. }
  subst l'. apply H in I. destruct I as (_ & _ & I). rewrite Z, Rabs_R0 in I.
  assert (0 < / 10 ^ 16) by (apply Rinv_0_lt_compat, pow_lt; lra). lra.
Qed.
Print Assumptions C88_left_out.

(** ** Finding: the check reports neither all nor only the unmet conditions.
    Two observations, a bias column and three copies of one feature. *)
Definition kA (i j : nat) : R := match j with O => 1 | _ => if (i =? 0)%nat then 1 else -1 end.
Definition ky : list R := [1; -1].
Definition kC (i j : nat) : R := rsum 2 (fun k => kA k i * kA k j) / INR 2.

Lemma kC_val : forall i j, kC i j = match i, j with O, O => 1 | S _, S _ => 1 | _, _ => 0 end.
Proof. intros [|i] [|j]; unfold kC, kA; cbn; lra. Qed.

Lemma xy_val : forall j, (1 <= j)%nat -> xy 2 kA ky j = 1.
Proof. intros [|j] H; [lia|]. unfold xy, kA, ky. cbn. lra. Qed.

(** the arguments that LassoCrdDesc passes for the coefficients [b] *)
Definition kkt_q : list R := map (fun j => rsum 2 (fun i => kA i j * nth i ky 0)) (seq 0 4).
Definition kkt_p (b : list R) : list R := map (fun i => rsum 4 (fun j => kC i j * nth j b 0)) (seq 0 4).

Lemma kq : kkt_q = [0; 2; 2; 2].
Proof. unfold kkt_q, kA, ky. cbn. repeat (f_equal; try lra). Qed.
Lemma kp : forall a b c, kkt_p [0; a; b; c] = [0; a + b + c; a + b + c; a + b + c].
Proof. intros a b c. unfold kkt_p. cbn. rewrite !kC_val. repeat (f_equal; try ring). Qed.

(** The coefficients minimise the objective, all conditions are met, and yet
    feature 1 is reported: with 4 features and 2 observations the two terms have
    different scales. *)
Theorem C88_met_but_reported_refuted : exists b lamb,
  minimiser_without_bias 4 (objective 2 4 kA ky kC lamb) b /\
  (forall j, (1 <= j < 4)%nat -> stationary 2 4 kA ky kC lamb 0 b j) /\
  UnsatisfiedKKTConditions (N := XR) (fins kkt_q) (fins (kkt_p b)) (fins b) (fin lamb) PureLasso = Ok [1%Z].
Proof.
  exists [0; 1/2; 0; 0], (1/2).
  assert (ST : forall j, (1 <= j < 4)%nat -> stationary 2 4 kA ky kC (1/2) 0 [0; 1/2; 0; 0] j).
  { intros j Hj. unfold stationary. rewrite xy_val by lia. cbn [rsum]. rewrite !kC_val.
    destruct j as [|j]; [lia|]. cbn [nth].
    replace (1 - (0 + 0 * 0 + 1 * (1 / 2) + 1 * 0 + 1 * 0)) with (1/2) by lra.
    rewrite (Rabs_right (1/2)) by lra. split; [lra|]. 
    split; intros Hb.
    - rewrite Rminus_eq_0, Rabs_R0. lra.
    - exfalso. revert Hb. destruct j as [|[|[|j]]]; [| | |lia]; cbn; lra. }
  split; [|split; [exact ST|]].
  - apply C33_conditions_sufficient; auto; try lra.
    + intros i j _ _. rewrite !kC_val. destruct i, j; reflexivity.
    + intros x. cbn [rsum]. rewrite !kC_val.
      match goal with |- 0 <= ?e => replace e with (x 0%nat * x 0%nat + (x 1%nat + x 2%nat + x 3%nat) * (x 1%nat + x 2%nat + x 3%nat)) by ring end.
      pose proof (Rle_0_sqr (x 0%nat)). pose proof (Rle_0_sqr (x 1%nat + x 2%nat + x 3%nat)). unfold Rsqr in *. lra.
  - rewrite kq, kp.
    destruct (C88_exact [0; 2; 2; 2] [0; 1/2 + 0 + 0; 1/2 + 0 + 0; 1/2 + 0 + 0] [0; 1/2; 0; 0] (1/2)) as (l & E & S & H); try reflexivity; [cbn; lia|].
    rewrite E. do 1 f_equal. cbn [length] in H.
    assert (I1 : In 1%nat l).
    { apply H. split; [lia|]. cbn [nth INR]. split.
      - replace (2 - (1 + 1 + 1 + 1) * (1 / 2 + 0 + 0)) with 0 by lra. rewrite Rabs_R0. lra.
      - rewrite Rabs_right by lra. apply Rlt_le_trans with (/ 10); [|lra]. apply Rinv_lt_contravar; [|lra].
        apply Rmult_lt_0_compat; lra. }
    assert (O : forall i, In i l -> i = 1%nat).
    { intros i Hi. apply H in Hi. destruct Hi as (Hi & _ & Hb).
      assert (0 < / 10 ^ 16) by (apply Rinv_0_lt_compat, pow_lt; lra).
      destruct i as [|[|[|[|i]]]]; try lia; cbn [nth] in Hb; rewrite Rabs_R0 in Hb; lra. }
    destruct l as [|a l]; [destruct I1|]. rewrite (O a) in * by (left; reflexivity).
    destruct l as [|a' l]; [reflexivity|]. rewrite (O a') in S by (right; left; reflexivity).
    inversion S as [|? ? _ F]; subst. inversion F; subst. lia.
Qed.
Print Assumptions C88_met_but_reported_refuted.

(** The other way: no coefficient at all, the condition of feature 1 is
    violated (its correlation is four times the penalty), nothing is reported. *)
Theorem C88_unmet_but_silent_refuted : exists b lamb,
  ~ stationary 2 4 kA ky kC lamb 0 b 1 /\
  ~ minimiser_without_bias 4 (objective 2 4 kA ky kC lamb) b /\
  UnsatisfiedKKTConditions (N := XR) (fins kkt_q) (fins (kkt_p b)) (fins b) (fin lamb) PureLasso = Ok [].
Proof.
  exists [0; 0; 0; 0], (1/4). split; [|split].
  - intros (K & _). rewrite xy_val in K by lia. cbn [rsum nth] in K.
    replace (1 - (0 + kC 1 0 * 0 + kC 1 1 * 0 + kC 1 2 * 0 + kC 1 3 * 0)) with 1 in K by ring.
    rewrite Rabs_R1 in K. lra.
  - intros (_ & _ & M). specialize (M [0; 1/2; 0; 0] eq_refl eq_refl). unfold objective in M. cbn [rsum nth] in M.
    rewrite !kC_val, (xy_val 1), (xy_val 2), (xy_val 3) in M by lia. rewrite !Rabs_R0, (Rabs_right (1/2)) in M by lra. lra.
  - rewrite kq, kp.
    destruct (C88_exact [0; 2; 2; 2] [0; 0 + 0 + 0; 0 + 0 + 0; 0 + 0 + 0] [0; 0; 0; 0] (1/4)) as (l & E & S & H); try reflexivity; [cbn; lia|].
    rewrite E. destruct l as [|i l]; [reflexivity|exfalso].
    refine (C88_left_out _ _ _ _ _ i _ _ _ E _ _); try reflexivity; [cbn; lia| |left; reflexivity].
    destruct i as [|[|[|[|i]]]]; try reflexivity. destruct i; reflexivity.
Qed.
Print Assumptions C88_unmet_but_silent_refuted.

(** ** Example: of three coefficients the first is reported, the second has a
    large residual correlation, the third is zero *)
Example C88_example :
  UnsatisfiedKKTConditions (N := XR) (fins [0; 3; 8; 1]) (fins [0; 1; 1; 0]) (fins [0; 1; -1; 0]) (fin 2) PureLasso = Ok [1%Z].
Proof.
  destruct (C88_exact [0; 3; 8; 1] [0; 1; 1; 0] [0; 1; -1; 0] 2) as (l & E & S & H); try reflexivity; [cbn; lia|].
  rewrite E. f_equal. cbn [length INR] in H.
  assert (I1 : In 1%nat l).
  { apply H. split; [lia|]. cbn [nth]. split.
    - rewrite Rabs_left by lra. lra.
    - rewrite Rabs_R1. apply Rlt_le_trans with (/ 10); [|lra]. apply Rinv_lt_contravar; [|lra]. apply Rmult_lt_0_compat; lra. }
  assert (O : forall i, In i l -> i = 1%nat).
  { intros i Hi. apply H in Hi. destruct Hi as (Hi & H1 & Hb).
    assert (0 < / 10 ^ 16) by (apply Rinv_0_lt_compat, pow_lt; lra).
    destruct i as [|[|[|[|i]]]]; try lia; cbn [nth] in *.
    - rewrite Rabs_right in H1 by lra. lra.
    - rewrite Rabs_R0 in Hb. lra. }
  destruct l as [|a l]; [destruct I1|]. rewrite (O a) in * by (left; reflexivity).
  destruct l as [|a' l]; [reflexivity|]. rewrite (O a') in S by (right; left; reflexivity).
  inversion S as [|? ? _ F]; subst. inversion F; subst. lia.
Qed.

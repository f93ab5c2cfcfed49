(** C84: the temperature schedule of the annealing, and whether it ends.
    [sa_run k st b] (Proof_SA2): st is the state after k passes through the
    loop and b tells whether the loop has been left.  [ssEval] is the list of
    all models evaluated, [ssAcc] of those accepted. *)
From Coq Require Import Reals Lra Psatz.
From Verif Require Import Base Num Mat RSum Model_Node Model_Util Model_Fit Model_SA Spec_Fit
  Proof_Node Proof_Node2 Proof_Models Proof_Util Proof_XR Proof_Norm Proof_Fit Proof_Fit2 Proof_SA Proof_SA2 Proof_Search5
  Proof_Anneal Proof_Anneal2 Proof_Anneal3 Props_Fit Props_SA.

(** The temperature starts at 500.  It doubles after every sweep (as many
    evaluations as features) until more than half of the proposals of the level
    were accepted at the end of a sweep; from then on it is halved after every
    level of nSweeps sweeps.  The loop ends after a level without any
    acceptance, or when the temperature is below 1e-12. *)
Theorem C84_schedule : forall (N : Num) svd (X : Mat N) y nSweeps cost ri rf k st b,
  (1 <= nSweeps)%Z -> sa_run svd X y nSweeps cost ri rf k st b ->
  let sweep := Z.of_nat (mcols X) in
  let level := (sweep * nSweeps)%Z in
  let evaluations := Z.of_nat (length (ssEval st)) in
  exists doublings halvings before : nat,
    evaluations = (Z.of_nat (before + halvings) * level + ssNumSteps st)%Z /\
    (0 <= ssNumAccept st <= ssNumSteps st)%Z /\ (ssNumSteps st <= level)%Z /\
    (b = false -> (ssNumSteps st < level)%Z) /\
    ssTemp st = Nat.iter halvings (fun t : N => (t * ndec 5 (-1))%num)
                  (Nat.iter doublings (fun t : N => (t * nofZ 2)%num) (nofZ 500)) /\
    (ssReached st = false -> halvings = 0%nat /\ Z.of_nat doublings = (evaluations / sweep)%Z) /\
    (ssReached st = true -> (Z.of_nat before * nSweeps <= Z.of_nat doublings < Z.of_nat (S before) * nSweeps)%Z) /\
    (b = false -> (0 < halvings)%nat -> nltb (ssTemp st) (ndec 1 (-12)) = false) /\
    (b = true -> (ssReached st = true /\ ssNumAccept st = 0%Z /\ ssNumSteps st = level) \/
                 (ssNumSteps st = 0%Z /\ nltb (ssTemp st) (ndec 1 (-12)) = true)).
Proof.
  intros N svd X y nSweeps cost ri rf k st b Hs R sweep level evaluations.
  destruct (run_sched N svd X y nSweeps cost ri rf Hs k st b R) as (d & h & pre & I).
  exists d, h, pre. destruct I as [I1 I2 I3 I4 I5 I6 I7 I8 I9 I10 I11].
  split; [exact I2|]. split; [exact I3|]. split; [exact I4|]. split; [exact I5|]. split; [exact I6|].
  split; [exact I7|]. split; [exact I8|]. split; [|exact I11].
  intros Hb Hh. rewrite I6. apply I9; assumption.
Qed.
Print Assumptions C84_schedule.

(** What counts as an acceptance, and when the rate is looked at: an
    evaluation that ends a sweep sets the flag exactly if more than half of the
    evaluations of the level so far were accepted; other passes leave it. *)
Theorem C84_rate : forall (N : Num) svd (X : Mat N) y nSweeps cost ri rf k st st' b,
  (1 <= nSweeps)%Z -> sa_run svd X y nSweeps cost ri rf k st false ->
  sa_step svd X y nSweeps cost ri rf k st = Ok (st', b) ->
  let accepted := (ssNumAccept st + Z.of_nat (length (ssAcc st') - length (ssAcc st)))%Z in
  (length (ssAcc st) <= length (ssAcc st') <= S (length (ssAcc st)))%nat /\
  (length (ssEval st') = length (ssEval st) \/ length (ssEval st') = S (length (ssEval st))) /\
  (length (ssEval st') = length (ssEval st) -> ssReached st' = ssReached st /\ length (ssAcc st') = length (ssAcc st)) /\
  (length (ssEval st') = S (length (ssEval st)) -> ~ (Z.of_nat (mcols X) | ssNumSteps st + 1)%Z -> ssReached st' = ssReached st) /\
  (length (ssEval st') = S (length (ssEval st)) -> (Z.of_nat (mcols X) | ssNumSteps st + 1)%Z ->
     ssReached st' = (ssReached st || nltb (ndec 5 (-1)) (nofZ accepted / nofZ (ssNumSteps st + 1) : N)%num)%bool).
Proof.
  intros N svd X y nSweeps cost ri rf k st st' b Hs R H accepted.
  destruct (run_sched N svd X y nSweeps cost ri rf Hs k st false R) as (d & h & pre & I).
  assert (Hnc := sc_nc _ _ _ _ _ _ _ _ I). assert (Hac := sc_acc _ _ _ _ _ _ _ _ I).
  assert (Hcase : (b = false /\ ssEval st' = ssEval st /\ ssReached st' = ssReached st /\ ssAcc st' = ssAcc st) \/
    exists m n, sa_try svd X y nSweeps cost rf k (ri k mod mcols X)%nat m n st = Ok (st', b)).
  { unfold sa_step in H. destruct (Nat.eqb_spec (mcols X) 0) as [|Hc]; [discriminate|].
    apply bind_ok in H. destruct H as (cu & _ & H).
    destruct (NumFeatures cu =? 0)%nat.
    - apply bind_ok in H. destruct H as (cu2 & _ & H). eauto.
    - destruct (mrows X / 2 <=? NumFeatures cu)%nat; [|eauto].
      apply bind_ok in H. destruct H as (cu2 & _ & H). injection H as <- <-. left. cbn. auto 10. }
  destruct Hcase as [(-> & E1 & E2 & E3)|(m & n & Ht)].
  - rewrite E1, E2, E3. split; [lia|]. split; [left; reflexivity|]. split; [auto|]. split; intro; lia.
  - unfold sa_try in Ht. apply bind_ok in Ht. destruct Ht as ([c s] & _ & Ht).
    apply bind_ok in Ht. destruct Ht as (st1 & H1 & Ht). injection Ht as Ht.
    assert (E : length (ssEval st1) = S (length (ssEval st)) /\ ssNumSteps st1 = (ssNumSteps st + 1)%Z /\
      ssReached st1 = ssReached st /\ (length (ssAcc st) <= length (ssAcc st1) <= S (length (ssAcc st)))%nat /\
      ssNumAccept st1 = (ssNumAccept st + Z.of_nat (length (ssAcc st1) - length (ssAcc st)))%Z).
    { destruct (nltb s (ssScore st) || nltb (rf k) (nexp (nneg (s - ssScore st) / ssTemp st)%num))%bool.
      - apply bind_ok in H1. destruct H1 as (it0 & _ & H1). apply bind_ok in H1. destruct H1 as (sc & _ & H1).
        injection H1 as <-. cbn [ssEval ssNumSteps ssReached ssAcc ssNumAccept length].
        repeat (split; [first [reflexivity|lia]|]). lia.
      - apply bind_ok in H1. destruct H1 as (cu & _ & H1). injection H1 as <-.
        cbn [ssEval ssNumSteps ssReached ssAcc ssNumAccept length]. repeat (split; [first [reflexivity|lia]|]). lia. }
    destruct E as (E1 & E2 & E3 & E4 & E5).
    assert (F : ssEval st' = ssEval st1 /\ ssAcc st' = ssAcc st1 /\
      ssReached st' = (if (Z.rem (ssNumSteps st1) (Z.of_nat (mcols X)) =? 0)%Z then ssReached st1 || nltb (ndec 5 (-1)) (nofZ (ssNumAccept st1) / nofZ (ssNumSteps st1) : N)%num else ssReached st1)).
    { unfold sa_temper in Ht. destruct (Z.rem _ _ =? 0)%Z; (destruct (_ <=? _)%Z; [destruct (_ && _)%bool|]);
        injection Ht as <- <-; cbn; auto. }
    destruct F as (F1 & F2 & F3). rewrite F1, F2, F3, E1, E2, E3. split; [exact E4|]. split; [right; reflexivity|].
    split; [intro; lia|].
    assert (Hd : (Z.rem (ssNumSteps st + 1) (Z.of_nat (mcols X)) = 0 <-> (Z.of_nat (mcols X) | ssNumSteps st + 1))%Z).
    { rewrite Z.rem_mod_nonneg by lia. apply Z.mod_divide. lia. }
    split; intros _ Hv.
    + destruct (Z.eqb_spec (Z.rem (ssNumSteps st + 1) (Z.of_nat (mcols X))) 0) as [Hz|]; [|reflexivity].
      apply Hd in Hz. contradiction.
    + apply Hd in Hv. rewrite Hv. cbn [Z.eqb]. unfold accepted. rewrite F2, E5. reflexivity.
Qed.
Print Assumptions C84_rate.

(** ** Over the reals *)

(** every model that can be proposed is fitted, with a cost of magnitude at most C *)
Definition costs_within (svd : Mat XR -> SVD XR) (X : Mat XR) (y : list XR) (cost : Z -> Z -> XR -> XR) (C : R) : Prop :=
  forall m, proposable X m -> exists c s, fit_cost svd X y cost m c (XFin s) /\ (Rabs s <= C)%R.

(** rand.Float64() never exceeds rho (its largest value is 1 - 2^-53) *)
Definition draws_within (rho : R) (rf : nat -> XR) : Prop := forall k, exists u, rf k = XFin u /\ (u <= rho)%R.

(** math.MaxFloat64, the score before the first evaluation *)
Definition max_float : R := IZR ((2 ^ 53 - 1) * 2 ^ 971).

(** every feature is proposed again and again *)
Definition fair (n : nat) (ri : nat -> nat) : Prop :=
  forall k i, (i < n)%nat -> exists k', (k <= k')%nat /\ (ri k' mod n = i)%nat.

Lemma costs_model : forall svd (X : Mat XR) y cost C, costs_within svd X y cost C -> forall m, length m = mcols X ->
  (NumFeatures m = 1%nat \/ (1 <= NumFeatures m < mrows X / 2)%nat) ->
  exists c s, sa_cost svd X y cost m (Z.of_nat (NumFeatures m)) = Ok (c, fin s) /\ (Rabs s <= C)%R.
Proof.
  intros svd X y cost C H m Hm Hn. destruct (H m) as (c & s & E & B).
  { split; [exact Hm|]. rewrite <- nf_count. exact Hn. }
  exists c, s. split; [apply fit_cost_eq; exact E|exact B].
Qed.

(** The number of fits is bounded by the spread of the costs, the number of
    sweeps and the number of features, whatever is drawn. *)
Theorem C84_bounded : forall svd (X : Mat XR) y nSweeps cost ri rf C rho d0,
  (1 <= nSweeps)%Z -> costs_within svd X y cost C -> (C < max_float)%R ->
  draws_within rho rf -> (0 < rho < 1)%R -> (2 * C < 500 * 2 ^ d0 * (- ln rho))%R ->
  forall k st b, sa_run svd X y nSweeps cost ri rf k st b ->
  (Z.of_nat (length (ssEval st)) <= (2 * Z.of_nat d0 + 2 * nSweeps + 48) * (Z.of_nat (mcols X) * nSweeps))%Z.
Proof.
  intros svd X y nSweeps cost ri rf C rho d0 Hs Hc HC Hrf Hrho Hd0 k st b R.
  apply (run_bound svd X y nSweeps cost ri rf C rho d0 Hs) with (k := k) (b := b); auto.
  - apply costs_model. exact Hc.
  - apply Rltb_true. exact HC.
Qed.
Print Assumptions C84_bounded.

Lemma pow_big : forall a b : R, (0 < b)%R -> exists d : nat, (a < 500 * 2 ^ d * b)%R.
Proof.
  intros a b Hb. destruct (Pow_x_infinity 2 ltac:(rewrite Rabs_pos_eq; lra) (Rabs a / (500 * b) + 1)%R) as (d & Hd).
  exists d. specialize (Hd d (Nat.le_refl d)). rewrite Rabs_pos_eq in Hd by (apply pow_le; lra).
  assert (H : (Rabs a / (500 * b) < 2 ^ d)%R) by lra.
  apply (Rmult_lt_compat_r (500 * b)) in H; [|lra].
  replace (Rabs a / (500 * b) * (500 * b))%R with (Rabs a) in H by (field; lra).
  pose proof (Rle_abs a). lra.
Qed.

(** So the search returns, if no feature is left out for ever. *)
Theorem C84_returns : forall svd (X : Mat XR) y nSweeps cost ri rf C rho,
  (1 <= nSweeps)%Z -> (1 <= mcols X)%nat -> costs_within svd X y cost C -> (C < max_float)%R ->
  draws_within rho rf -> (0 < rho < 1)%R -> fair (mcols X) ri ->
  exists fuel r st, SelectModelSA svd X y nSweeps cost ri rf fuel = Ok (r, st).
Proof.
  intros svd X y nSweeps cost ri rf C rho Hs Hm Hc HC Hrf Hrho Hfair.
  assert (Hl : (ln rho < 0)%R) by (rewrite <- ln_1; apply ln_increasing; lra).
  destruct (pow_big (2 * C) (- ln rho) ltac:(lra)) as (d0 & Hd0).
  assert (HC' : nltb (n := XR) (fin C) nmaxf = true) by (apply Rltb_true; exact HC).
  pose proof (costs_model _ _ _ _ _ Hc) as Hcm.
  assert (Hcost : forall m, length m = mcols X ->
    (NumFeatures m = 1%nat \/ (1 <= NumFeatures m < mrows X / 2)%nat) ->
    exists c s, sa_cost svd X y cost m (Z.of_nat (NumFeatures m)) = Ok (c, s) /\
      finite (N := XR) s = true /\ nltb (n := XR) s nmaxf = true).
  { intros m H1 H2. destruct (Hcm m H1 H2) as (c & s & E & B). exists c, (fin s). split; [exact E|].
    exact (cost_fine svd X y cost C Hcm HC' m c (fin s) H1 H2 E). }
  destruct (select_ends XR XR_OrdLaws svd X y nSweeps cost ri rf tempX) with (B := Z.to_nat (evals_bound X nSweeps d0))
    as (fuel & r & k & st & E & _); auto.
  - exists 500%R. split; [reflexivity|lra].
  - intros t (r & -> & Hr). exists (r * 2)%R. split; [reflexivity|lra].
  - intros t (r & -> & Hr) _. exists (r * / 2)%R. rewrite dec_half. split; [reflexivity|lra].
  - intros t s k' (r & -> & Hr) Hf. destruct s as [| | |s]; try discriminate Hf.
    destruct (Hrf k') as (u & -> & Hu). change (XFin s) with (fin s). rewrite xsub_fin, xneg_fin, xdiv_fin by lra.
    rewrite xexp_fin. apply Rltb_true. replace (- (s - s) / r)%R with 0%R by (field; lra). rewrite exp_0. lra.
  - intros k st b R. pose proof (run_bound svd X y nSweeps cost ri rf C rho d0 Hs Hcm HC' Hrf Hrho Hd0 k st b R). lia.
  - intros k st R. destruct (run_linvX svd X y nSweeps cost ri rf C rho Hcm HC' Hrf Hrho k st false R) as (I & _).
    assert (Hnf := li_nf _ _ _ _ _ _ I). assert (Hlen := li_len _ _ _ _ _ _ I).
    assert (Hsel : exists i, (i < mcols X)%nat /\ nth i (ssCurrent st) false = true).
    { destruct (existsb (fun i => nth i (ssCurrent st) false) (seq 0 (mcols X))) eqn:Ex.
      - apply existsb_exists in Ex. destruct Ex as (i & Hi & E). exists i. split; [apply in_seq in Hi; lia|exact E].
      - exfalso. assert (Hz : forall l, (forall i, (i < length l)%nat -> nth i l false = false) -> NumFeatures l = 0%nat).
        { induction l as [|a l IH]; intro G; [reflexivity|]. rewrite NumFeatures_cons. rewrite (IH (fun i Hi => G (S i) ltac:(cbn; lia))).
          pose proof (G 0%nat ltac:(cbn; lia)) as G0. cbn in G0. rewrite G0. reflexivity. }
        rewrite Hz in Hnf; [lia|]. intros i Hi. destruct (nth i (ssCurrent st) false) eqn:E; [|reflexivity].
        exfalso. assert (T : existsb (fun i => nth i (ssCurrent st) false) (seq 0 (mcols X)) = true).
        { apply existsb_exists. exists i. split; [apply in_seq; lia|exact E]. }
        congruence. }
    destruct Hsel as (i & Hi & E). destruct (Hfair k i Hi) as (k' & Hk & Ek). exists (k' - k)%nat.
    replace (k + (k' - k))%nat with k' by lia. rewrite Ek. exact E.
  - exists fuel, r, st. exact E.
Qed.
Print Assumptions C84_returns.

(** For AICC on finite data all costs are bounded: nothing is assumed of them. *)
Definition aicc_bound (c n : nat) (y : list R) : R :=
  (2 * INR c + 2 * INR c * (INR c + 1) + INR n * (40 + ln (1 + lsum (map Rsqr y))))%R.

Lemma ln_tol : (-40 <= ln (/ IZR (10 ^ 12)))%R.
Proof.
  assert (P : (0 < IZR (10 ^ 12))%R) by (apply IZR_lt; reflexivity).
  rewrite ln_Rinv by exact P. enough (ln (IZR (10 ^ 12)) <= ln (exp 40))%R by (rewrite ln_exp in H; lra).
  apply Rlt_le, ln_increasing; [exact P|].
  assert (E2 : (2 <= exp 1)%R) by (pose proof (exp_ineq1 1 ltac:(lra)); lra).
  assert (E : exp 40 = (exp 1 ^ 40)%R).
  { rewrite <- (Rmult_1_r 40). replace 40%R with (INR 40) at 1 by (cbn; lra).
    generalize 40%nat as n. induction n as [|n IH]; [cbn; rewrite Rmult_0_l; apply exp_0|].
    rewrite S_INR. replace ((INR n + 1) * 1)%R with (1 + INR n * 1)%R by ring. rewrite exp_plus, IH. reflexivity. }
  rewrite E. apply Rlt_le_trans with (2 ^ 40)%R; [|apply pow_incr; lra].
  rewrite (pow_IZR 2 40). apply IZR_lt. reflexivity.
Qed.

Lemma aicc_costs : forall svd (X : Mat XR) A y, rmat X A -> (0 < mrows X)%nat -> length y = mrows X -> good_svd svd X ->
  costs_within svd X (fins y) Aicc (aicc_bound (mcols X) (mrows X) y).
Proof.
  intros svd X A y HA Hr Hy Hg m (Hm & Hn). rewrite <- !nf_count in Hn.
  assert (Hf : (0 < NumFeatures m)%nat) by lia.
  destruct (model_fit svd X A y HA Hr Hy Hg m Hm Hf) as (D & w & r & E1 & E2 & E3 & _ & _ & Hr0 & _ & Hr1).
  set (S := lsum (map Rsqr y)) in *.
  assert (HS : (0 <= S)%R) by lra.
  assert (P : (0 < / IZR (10 ^ 12))%R) by (apply Rinv_0_lt_compat, IZR_lt; reflexivity).
  assert (Q : (/ IZR (10 ^ 12) < 1)%R).
  { apply (Rmult_lt_reg_r (IZR (10 ^ 12))); [apply IZR_lt; reflexivity|]. rewrite Rinv_l by (apply IZR_neq; discriminate).
    rewrite Rmult_1_l. apply IZR_lt. reflexivity. }
  assert (ET : RssTol (N := XR) = fin (/ IZR (10 ^ 12))).
  { change (fin (IZR 1 / IZR (10 ^ 12)) = fin (/ IZR (10 ^ 12))). apply (f_equal fin). lra. }
  assert (EM : exists v, nmax2 (N := XR) (fin r) RssTol = fin v /\ (/ IZR (10 ^ 12) <= v <= 1 + S)%R).
  { rewrite ET. change (exists v, (if Rltb (/ IZR (10 ^ 12)) r then fin r else fin (/ IZR (10 ^ 12))) = fin v /\ (/ IZR (10 ^ 12) <= v <= 1 + S)%R).
    destruct (Rltb (/ IZR (10 ^ 12)) r) eqn:El.
    - apply Rltb_true in El. exists r. split; [reflexivity|lra].
    - exists (/ IZR (10 ^ 12))%R. split; [reflexivity|lra]. }
  destruct EM as (v & EM & V1 & V2).
  set (k := Z.of_nat (NumFeatures m)). set (n := Z.of_nat (mrows X)).
  exists (fins w), (pen_aicc k n + IZR n * ln v)%R. split.
  - exists D, (fin r). split; [exact E1|]. split; [exact E2|]. split; [exact E3|].
    rewrite EM, <- nf_count. unfold fins. rewrite map_length, Hy. fold k n. rewrite aicc_xr by (try lra; unfold n; lia).
    unfold nlogr. rewrite (proj2 (Rltb_true 0 v)) by lra. reflexivity.
  - assert (L1 : (-40 <= ln v)%R).
    { apply Rle_trans with (1 := ln_tol). destruct V1 as [V1|V1]; [|rewrite V1; lra]. apply Rlt_le, ln_increasing; assumption. }
    assert (L2 : (ln v <= ln (1 + S))%R).
    { destruct V2 as [V2|V2]; [|rewrite V2; lra]. apply Rlt_le, ln_increasing; lra. }
    assert (L3 : (0 <= ln (1 + S))%R).
    { rewrite <- ln_1. destruct HS as [HS|HS]; [apply Rlt_le, ln_increasing; lra|rewrite <- HS, Rplus_0_r; lra]. }
    assert (Hk : (1 <= IZR k <= INR (mcols X))%R).
    { unfold k. rewrite <- INR_IZR_INZ. split; [apply (le_INR 1); lia|apply le_INR]. rewrite <- Hm. apply NumFeatures_le_length. }
    assert (Hn1 : (1 <= IZR n)%R) by (apply IZR_le; unfold n; lia).
    assert (EN : IZR n = INR (mrows X)) by (unfold n; rewrite <- INR_IZR_INZ; reflexivity).
    assert (Hp : (0 <= pen_aicc k n <= 2 * INR (mcols X) + 2 * INR (mcols X) * (INR (mcols X) + 1))%R).
    { unfold pen_aicc. set (q := IZR (2 * k * k + 2 * k)). assert (Eq : q = (2 * IZR k * (IZR k + 1))%R).
      { unfold q. rewrite plus_IZR, !mult_IZR. ring. }
      set (dd := if (n - 1 <=? k)%Z then 1%R else IZR (n - k - 1)).
      assert (Hd : (1 <= dd)%R). { unfold dd. destruct (Z.leb_spec (n - 1) k); [lra|]. apply IZR_le. lia. }
      assert (Hq : (0 <= q / dd <= q)%R).
      { assert (0 <= q)%R by (rewrite Eq; nra). split.
        - apply Rmult_le_pos; [assumption|]. apply Rlt_le, Rinv_0_lt_compat; lra.
        - unfold Rdiv. rewrite <- (Rmult_1_r q) at 2. apply Rmult_le_compat_l; [assumption|].
          rewrite <- Rinv_1. apply Rinv_le_contravar; lra. }
      rewrite Eq in Hq at 3. nra. }
    unfold aicc_bound. fold S. rewrite <- EN. apply Rabs_le. split; nra.
Qed.

(** ... so sasearch and bnb always come out of the annealing (in exact
    arithmetic, with a fair and sufficiently bounded source of randomness). *)
Theorem C84_aicc : forall svd (X : Mat XR) A y nSweeps ri rf rho,
  rmat X A -> (0 < mrows X)%nat -> length y = mrows X -> good_svd svd X ->
  (1 <= nSweeps)%Z -> draws_within rho rf -> (0 < rho < 1)%R ->
  let C := aicc_bound (mcols X) (mrows X) y in
  (C < max_float)%R ->
  ((1 <= mcols X)%nat -> fair (mcols X) ri ->
     exists fuel r st, SelectModelSA svd X (fins y) nSweeps Aicc ri rf fuel = Ok (r, st)) /\
  (forall d0, (2 * C < 500 * 2 ^ d0 * (- ln rho))%R ->
     forall fuel r st, SelectModelSA svd X (fins y) nSweeps Aicc ri rf fuel = Ok (r, st) ->
     (Z.of_nat (length (ssEval st)) <= (2 * Z.of_nat d0 + 2 * nSweeps + 48) * (Z.of_nat (mcols X) * nSweeps))%Z).
Proof.
  intros svd X A y nSweeps ri rf rho HA Hr Hy Hg Hs Hrf Hrho C HC.
  pose proof (aicc_costs svd X A y HA Hr Hy Hg) as Hc. split.
  - intros Hm Hfair. eapply C84_returns; eauto.
  - intros d0 Hd0 fuel r st H. unfold SelectModelSA in H.
    apply bind_ok in H. destruct H as (st0 & E0 & H). apply bind_ok in H. destruct H as (st1 & E1 & H).
    apply bind_ok in H. destruct H as (r' & _ & H). injection H as _ ->.
    destruct (sa_loop_run _ _ _ _ _ _ _ _ _ _ _ _ (sa_run_0 _ _ _ _ _ _ _ _ E0) E1) as (k & R).
    eapply C84_bounded; eauto.
Qed.
Print Assumptions C84_aicc.

(** ** At most five rows of data, in binary64 *)

(** The same model is fitted 49 * nSweeps * (number of features) times. *)
Theorem C84_five_rows : forall o svd (X : Mat (F64 o)) y nSweeps cost ri rf,
  exp_zero o -> below_one rf -> finite_costs svd X y cost ->
  (forall m, proposable X m -> exists c s, fit_cost svd X y cost m c s) ->
  (mrows X <= 5)%nat -> (1 <= Z.of_nat (mcols X) <= 2 ^ 53)%Z -> (1 <= nSweeps)%Z ->
  (forall fuel r st, SelectModelSA svd X y nSweeps cost ri rf fuel = Ok (r, st) ->
     Z.of_nat (length (ssEval st)) = (49 * (Z.of_nat (mcols X) * nSweeps))%Z) /\
  ((forall k, exists k', (k <= k')%nat /\ (ri k' mod mcols X = 0)%nat) ->
   exists fuel r st, SelectModelSA svd X y nSweeps cost ri rf fuel = Ok (r, st)) /\
  ((forall k, (ri k mod mcols X <> 0)%nat) ->
   forall fuel, SelectModelSA svd X y nSweeps cost ri rf fuel = Fuel).
Proof.
  intros o svd X y nSweeps cost ri rf He Hrf Hc Hfit Hr5 Hm Hs.
  assert (Hcost : forall m, length m = mcols X ->
    (NumFeatures m = 1%nat \/ (1 <= NumFeatures m < mrows X / 2)%nat) ->
    exists c s, sa_cost svd X y cost m (Z.of_nat (NumFeatures m)) = Ok (c, s) /\
      finite s = true /\ nltb s nmaxf = true).
  { intros m H1 H2. rewrite nf_count in H2. assert (P : proposable X m) by (split; assumption).
    destruct (Hfit m P) as (c & s & F). exists c, s. split; [apply fit_cost_eq; exact F|]. eapply Hc; eauto. }
  assert (Hsame : forall (t s : F64 o) k, temp_ok t -> finite s = true -> nltb (rf k) (nexp (nneg (s - s) / t)%num) = true).
  { intros t s k Ht Hf. apply same_accept_f64; auto. }
  assert (Hcount : forall k st b, sa_run svd X y nSweeps cost ri rf k st b ->
    (Z.of_nat (length (ssEval st)) <= Z.of_nat 49 * (Z.of_nat (mcols X) * nSweeps))%Z /\
    (b = true -> Z.of_nat (length (ssEval st)) = (Z.of_nat 49 * (Z.of_nat (mcols X) * nSweeps))%Z)).
  { intros k st b R.
    apply (small_count (F64 o) (f64_OrdLaws o) svd X y nSweeps cost ri rf temp_ok temp_ok_500 temp_ok_2 temp_ok_half
      Hsame Hcost Hs Hr5 (rate_one_f64 _ Hm) 49 ltac:(lia) (ladder_cold o) (ladder_hot o) k st b R). }
  split; [|split].
  - intros fuel r st H. unfold SelectModelSA in H.
    apply bind_ok in H. destruct H as (st0 & E0 & H). apply bind_ok in H. destruct H as (st1 & E1 & H).
    apply bind_ok in H. destruct H as (r' & _ & H). injection H as _ ->.
    destruct (sa_loop_run _ _ _ _ _ _ _ _ _ _ _ _ (sa_run_0 _ _ _ _ _ _ _ _ E0) E1) as (k & R).
    apply (Hcount _ _ _ R). reflexivity.
  - intro Hfair.
    destruct (select_ends (F64 o) (f64_OrdLaws o) svd X y nSweeps cost ri rf temp_ok temp_ok_500 temp_ok_2 temp_ok_half
      Hsame Hcost (Z.to_nat (49 * (Z.of_nat (mcols X) * nSweeps)))) as (fuel & r & k & st & E & _); [lia| | |exists fuel, r, st; exact E].
    + intros k st b R. pose proof (proj1 (Hcount _ _ _ R)). lia.
    + intros k st R.
      destruct (run_smallR (F64 o) (f64_OrdLaws o) svd X y nSweeps cost ri rf temp_ok temp_ok_500 temp_ok_2 temp_ok_half
        Hsame Hcost Hr5 k st false R) as (Cu & _).
      destruct (Hfair k) as (k' & Hk & Ek). exists (k' - k)%nat. replace (k + (k' - k))%nat with k' by lia.
      rewrite Ek, Cu. destruct (mcols X); [lia|]. reflexivity.
  - intros Hnever fuel. unfold SelectModelSA, sa_init. rewrite setn_lt by (rewrite repeat_length; lia). cbn [bind].
    match goal with |- bind (sa_loop _ _ _ _ _ _ _ _ _ ?s0) _ = _ => set (st0 := s0) end.
    assert (G : forall f k st, ssCurrent st = upd (repeat false (mcols X)) 0 true ->
      sa_loop svd X y nSweeps cost ri rf f k st = Fuel).
    { induction f as [|f IH]; intros k st Cu; [reflexivity|]. cbn [sa_loop].
      specialize (Hnever k). unfold sa_step. destruct (Nat.eqb_spec (mcols X) 0) as [|_]; [lia|].
      set (index := (ri k mod mcols X)%nat) in *.
      assert (Hi : (index < mcols X)%nat) by (apply Nat.mod_upper_bound; lia).
      assert (Hl : length (ssCurrent st) = mcols X) by (rewrite Cu, upd_length, repeat_length; reflexivity).
      assert (H1 : NumFeatures (ssCurrent st) = 1%nat).
      { rewrite Cu. destruct (mcols X) as [|n0]; [lia|]. cbn [repeat upd]. rewrite NumFeatures_cons, NumFeatures_repeat. reflexivity. }
      assert (Hz : nth index (ssCurrent st) false = false).
      { rewrite Cu, nth_upd. destruct (Nat.eqb_spec index 0); [contradiction|]. apply nth_repeat_false. }
      rewrite flip_at_ok by lia. cbn [bind].
      assert (Hf := NumFeatures_flipped (ssCurrent st) index ltac:(lia)). rewrite Hz, H1 in Hf.
      destruct (Nat.eqb_spec (NumFeatures (flipped (ssCurrent st) index)) 0) as [Hz0|Hz0]; [lia|].
      assert (Hr2 : (mrows X / 2 < 3)%nat) by (apply Nat.div_lt_upper_bound; lia).
      destruct (Nat.leb_spec (mrows X / 2) (NumFeatures (flipped (ssCurrent st) index))) as [Hb|Hb]; [|lia].
      rewrite flip_at_ok by (rewrite flipped_length; lia). cbn [bind fst snd].
      apply IH. cbn [ssCurrent]. rewrite flipped_flipped by lia. exact Cu. }
    rewrite G by reflexivity. reflexivity.
Qed.
Print Assumptions C84_five_rows.

(** six rows, two columns: at most 50800 models are fitted (100 sweeps per level) *)
Example C84_aicc_example :
  exists fuel r st, SelectModelSA svd_orth (eye 6 2) (fins [1; 2; 3; 4; 5; 6]) 100 Aicc (fun k => k) (fun _ => XFin (/ 2)) fuel = Ok (r, st) /\
    (Z.of_nat (length (ssEval st)) <= 50800)%Z.
Proof.
  assert (L2 : (/ 2 <= - ln (/ 2))%R).
  { rewrite ln_Rinv, Ropp_involutive by lra. rewrite <- (ln_exp (/ 2)).
    assert (P : (0 < exp (/ 2))%R) by apply exp_pos.
    assert (Q : (exp (/ 2) * exp (/ 2) = exp 1)%R) by (rewrite <- exp_plus; f_equal; lra).
    pose proof exp_le_3 as E3. apply Rlt_le, ln_increasing; [exact P|]. nra. }
  assert (HC : (aicc_bound 2 6 [1; 2; 3; 4; 5; 6] <= 802)%R).
  { unfold aicc_bound. assert (H : (ln (1 + lsum (map Rsqr [1; 2; 3; 4; 5; 6])) <= 91)%R).
    { rewrite <- (ln_exp 91). apply Rlt_le, ln_increasing; [unfold Rsqr; cbn; lra|].
      apply Rle_lt_trans with (1 + 91)%R; [unfold Rsqr; cbn; lra|]. apply exp_ineq1. lra. }
    cbn [INR]. lra. }
  assert (HM : (802 < max_float)%R).
  { unfold max_float. apply IZR_lt. reflexivity. }
  destruct (C84_aicc svd_orth (eye 6 2) delta [1; 2; 3; 4; 5; 6]%R 100 (fun k => k) (fun _ => XFin (/ 2)) (/ 2))
    as (H1 & H2); [intros i j _ _; reflexivity|cbn; lia|reflexivity|apply eye_good; lia|lia| |lra| |].
  { intro k. exists (/ 2)%R. split; [reflexivity|lra]. }
  { apply Rle_lt_trans with (2 := HM). exact HC. }
  destruct H1 as (fuel & r & st & E); [cbn; lia| |].
  { intros k i Hi. cbn [eye mcols] in *. exists (2 * k + i)%nat. split; [lia|].
    rewrite Nat.add_comm, Nat.mul_comm, Nat.mod_add by lia. apply Nat.mod_small. exact Hi. }
  exists fuel, r, st. split; [exact E|].
  apply (H2 3%nat) in E; [exact E|]. cbn [eye mcols mrows pow]. nra.
Qed.

(** five rows, two columns, 100 sweeps: 9800 evaluations of the same model if
    feature 0 is proposed again and again, and no end if it never is *)
Example C84_five_rows_example :
  let X := mkMat 5 2 (mval XE) in let y := firstn 5 yE in let rf := fun _ : nat => f64_dec 5 (-1) : F64 fenvE in
  (exists fuel r st, SelectModelSA svdE X y 100 costE (fun k => k) rf fuel = Ok (r, st) /\
     srSelected r = [0%Z] /\ length (ssEval st) = Z.to_nat 9800) /\
  (forall fuel, SelectModelSA svdE X y 100 costE (fun _ => 1%nat) rf fuel = Fuel).
Proof.
  intros X y rf.
  assert (Hf : finite_costs svdE X y costE) by exact (proj1 C25_nonvacuous).
  assert (Hr : below_one rf) by (intro; vm_compute; reflexivity).
  assert (Hfit : forall m, proposable X m -> exists c s, fit_cost svdE X y costE m c s).
  { intros m (Hm & Hn). destruct m as [|a [|b [|]]]; try discriminate Hm.
    assert (A : match sa_cost svdE X y costE [a; b] (Z.of_nat (NumFeatures [a; b])) with Ok _ => true | _ => (negb a && negb b)%bool end = true).
    { destruct a, b; vm_compute; reflexivity. }
    destruct (sa_cost svdE X y costE [a; b] (Z.of_nat (NumFeatures [a; b]))) as [[c s]| |] eqn:E.
    - exists c, s. apply fit_cost_eq. exact E.
    - destruct a, b; try discriminate A. cbn in Hn. lia.
    - destruct a, b; try discriminate A. cbn in Hn. lia. }
  split.
  - destruct (C84_five_rows fenvE svdE X y 100 costE (fun k => k) rf exp_zero_E Hr Hf Hfit) as (H1 & H2 & _); [cbn; lia|cbn; lia|lia|].
    destruct H2 as (fuel & r & st & E).
    { intro k. exists (2 * k)%nat. split; [lia|]. cbn [X mcols]. rewrite Nat.mul_comm. apply Nat.mod_mul. lia. }
    exists fuel, r, st. split; [exact E|]. split.
    + refine (proj2 (C25_five_rows fenvE svdE X y 100 costE (fun k => k) rf exp_zero_E Hr Hf _) _ _ _ E). cbn. lia.
    + apply H1 in E. change (Z.of_nat (length (ssEval st)) = 9800%Z) in E. rewrite <- E. symmetry. apply Nat2Z.id.
  - intro fuel. apply (C84_five_rows fenvE svdE X y 100 costE (fun _ => 1%nat) rf exp_zero_E Hr Hf Hfit); [cbn; lia|cbn; lia|lia|].
    intros k. cbn. discriminate.
Qed.

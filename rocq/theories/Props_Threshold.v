(** C48, C66: the search for the covariance threshold (L2ConsistentCovTO). *)
From Coq Require Import Permutation Reals Lra.
From Verif Require Import Base Num Mat Model_Node Model_Util Model_Fit Model_Cov Model_Nested Model_Threshold
  Proof_Node Proof_Util Proof_XR RSum Proof_Norm Proof_Cov Proof_Threshold Props_Cov.
Local Close Scope R_scope.

(** ** Nothing panics on matrices of the right size *)

Lemma loop2_length : forall (A : Type) (n m c : nat) (body : nat -> nat -> list A -> res (list A)) (l : list A),
  length l = c ->
  (forall i j l, (i < n)%nat -> (j < m)%nat -> length l = c -> exists l', body i j l = Ok l' /\ length l' = c) ->
  exists l', for_loop 0 n (fun i l => for_loop 0 m (fun j l => body i j l) l) l = Ok l' /\ length l' = c.
Proof.
  intros A n m c body l Hl Hb.
  enough (E : forall k a l, (a + k <= n)%nat -> length l = c ->
    exists l', for_loop a k (fun i l => for_loop 0 m (fun j l => body i j l) l) l = Ok l' /\ length l' = c)
    by (apply E; [lia|exact Hl]).
  clear l Hl. induction k as [|k IH]; intros a l Ha Hl; cbn [for_loop]; [eauto|].
  enough (E : exists l', for_loop 0 m (fun j l => body a j l) l = Ok l' /\ length l' = c).
  { destruct E as (l' & -> & Hl'). cbn [bind]. apply IH; [lia|exact Hl']. }
  enough (E : forall q b l, (b + q <= m)%nat -> length l = c ->
    exists l', for_loop b q (fun j l => body a j l) l = Ok l' /\ length l' = c) by (apply E; [lia|exact Hl]).
  clear l Hl. induction q as [|q IHq]; intros b l Hb' Hl; cbn [for_loop]; [eauto|].
  destruct (Hb a b l) as (l' & -> & Hl'); [lia|lia|exact Hl|]. cbn [bind]. apply IHq; [lia|exact Hl'].
Qed.

Lemma covariance_total : forall (N : Num) (X : Mat N), (0 < mcols X)%nat ->
  exists C, CovarianceMatrix X = Ok C /\ mrows C = mcols X /\ mcols C = mcols X.
Proof.
  intros N X Hc. unfold CovarianceMatrix.
  destruct (loop2_length N (mrows X) (mcols X) (mcols X)
    (fun i j mu => do m <- getn mu j; do v <- mat_at X i j; setn mu j (m + v / nofnat (mrows X))%num) (repeat n0 (mcols X)))
    as (mu & -> & Hmu).
  - apply repeat_length.
  - intros i j l Hi Hj Hl. rewrite (getn_lt _ l j n0) by lia. cbn [bind]. rewrite mat_at_in by lia. cbn [bind].
    rewrite setn_lt by lia. eexists. split; [reflexivity|]. rewrite upd_length. exact Hl.
  - cbn [bind]. unfold new_dense. destruct (Nat.eqb_spec (mcols X) 0); [lia|]. cbn [orb bind].
    unfold mat_mul. cbn [mat_T mcols mrows]. rewrite Nat.eqb_refl. cbn [bind].
    match goal with |- context [mat_scale ?c ?A] => set (C0 := mat_scale c A) end.
    assert (R0 : mrows C0 = mcols X) by reflexivity. assert (R1 : mcols C0 = mcols X) by reflexivity.
    destruct (grid_map N (fun i j c => (c - nth i mu n0 * nth j mu n0)%num)
      (fun i j cov => do c <- mat_at cov i j; do mi <- getn mu i; do mj <- getn mu j; mat_set cov i j (c - mi * mj)%num) C0)
      as (C' & E & R2 & C2 & _).
    + intros i j Y Hi Hj HYr HYc. rewrite mat_at_in by lia. cbn [bind].
      rewrite (getn_lt _ mu i n0), (getn_lt _ mu j n0) by lia. cbn [bind]. rewrite mat_set_in by lia. reflexivity.
    + rewrite R0, R1 in E. exists C'. split; [exact E|]. split; congruence.
Qed.

Lemma normdiff_spec : forall (N : Num) (A B : Mat N) g step, mrows B = mrows A -> mcols B = mcols A ->
  exists D, CalculateFNormDiff A B g step = Ok (frob D) /\ mrows D = mrows A /\ mcols D = mcols A /\
    forall i j, (i < mrows A)%nat -> (j < mcols A)%nat ->
      mval D i j = ((if nltb (nabs (mval A i j)) (getThreshold g step) then n0 else mval A i j) - mval B i j)%num.
Proof.
  intros N A B g step HR HC. unfold CalculateFNormDiff.
  destruct (apply_spec N (getThreshold g step) A) as (A' & -> & R1 & C1 & V1). cbn [bind].
  destruct (grid_map N (fun i j a => (a - mval B i j)%num)
    (fun i j cpy => do a <- mat_at cpy i j; do b <- mat_at B i j; mat_set cpy i j (a - b)%num) A') as (D & E & R2 & C2 & V2).
  - intros i j Y Hi Hj HYr HYc. rewrite !mat_at_in by lia. cbn [bind]. rewrite mat_set_in by lia. reflexivity.
  - assert (E' : for_loop 0 (mrows A') (fun i cpy => for_loop 0 (mcols cpy) (fun j cpy =>
      do a <- mat_at cpy i j; do b <- mat_at B i j; mat_set cpy i j (a - b)%num) cpy) A' = Ok D).
    { rewrite <- E. 
      enough (Q : forall n a Y, (a + n <= mrows A')%nat -> mrows Y = mrows A' -> mcols Y = mcols A' ->
        for_loop a n (fun i cpy => for_loop 0 (mcols cpy) (fun j cpy =>
          do a <- mat_at cpy i j; do b <- mat_at B i j; mat_set cpy i j (a - b)%num) cpy) Y =
        for_loop a n (fun i cpy => for_loop 0 (mcols A') (fun j cpy =>
          do a <- mat_at cpy i j; do b <- mat_at B i j; mat_set cpy i j (a - b)%num) cpy) Y) by (apply Q; auto; lia).
      induction n as [|n IH]; intros a Y Ha HYr HYc; cbn [for_loop]; [reflexivity|]. rewrite HYc.
      enough (Q : exists Y', for_loop 0 (mcols A') (fun j cpy =>
          do a0 <- mat_at cpy a j; do b <- mat_at B a j; mat_set cpy a j (a0 - b)%num) Y = Ok Y' /\ mrows Y' = mrows A' /\ mcols Y' = mcols A').
      { destruct Q as (Y' & -> & HY'r & HY'c). cbn [bind]. apply IH; [lia|assumption..]. }
      enough (Q : forall m b Y, (b + m <= mcols A')%nat -> mrows Y = mrows A' -> mcols Y = mcols A' -> exists Y', for_loop b m (fun j cpy =>
          do a0 <- mat_at cpy a j; do b <- mat_at B a j; mat_set cpy a j (a0 - b)%num) Y = Ok Y' /\ mrows Y' = mrows A' /\ mcols Y' = mcols A')
        by (apply Q; auto; lia).
      clear IH Y HYr HYc. induction m as [|m IHm]; intros b Y Hb HYr HYc; cbn [for_loop]; [eauto|].
      rewrite !mat_at_in by lia. cbn [bind]. rewrite mat_set_in by lia. cbn [bind]. apply IHm; [lia|exact HYr|exact HYc]. }
    rewrite E'. cbn [bind]. exists D. split; [reflexivity|]. split; [congruence|]. split; [congruence|].
    intros i j Hi Hj. rewrite V2, V1 by congruence. reflexivity.
Qed.

(** ** C48 *)

(** [x] is the norm of the (r+1)-th row split at grid point [g] *)
Definition round_value {N : Num} (rnd : nat -> nat -> nat) (X : Mat N) (step : N) (r g : nat) (x : N) : Prop :=
  exists M1 M2 C1 C2, RandomRowSplit (rnd r) X (tNumRows1 X) = Ok (M1, M2) /\
    CovarianceMatrix M1 = Ok C1 /\ CovarianceMatrix M2 = Ok C2 /\
    CalculateFNormDiff C1 C2 (Z.of_nat g) step = Ok x.

Definition not_tick (ch : tchoice) : bool := match ch with VTick => false | _ => true end.

Section Rounds.
  Variable N : Num.
  Variable rnd : nat -> nat -> nat.
  Variable X : Mat N.
  Variable step : N.
  Hypothesis Hn : (0 < tNumRows1 X < Z.of_nat (mrows X))%Z.
  Hypothesis Hc : (0 < mcols X)%nat.

  Lemma split_ok : forall r, exists C1 C2, t_split rnd X r = Ok (C1, C2) /\ mrows C2 = mrows C1 /\ mcols C2 = mcols C1 /\
    exists M1 M2, RandomRowSplit (rnd r) X (tNumRows1 X) = Ok (M1, M2) /\ CovarianceMatrix M1 = Ok C1 /\ CovarianceMatrix M2 = Ok C2.
  Proof.
    intro r. destruct (split_spec N (rnd r) X (tNumRows1 X) Hn Hc) as (M1 & M2 & ix & E & _ & R1 & R2 & K1 & K2 & _).
    destruct (covariance_total N M1) as (C1 & E1 & RC1 & CC1); [lia|].
    destruct (covariance_total N M2) as (C2 & E2 & RC2 & CC2); [lia|].
    exists C1, C2. unfold t_split. rewrite E. cbn [bind]. rewrite E1, E2. cbn [bind]. split; [reflexivity|].
    split; [congruence|]. split; [congruence|]. exists M1, M2. auto.
  Qed.

  Definition spA (r : nat) : Mat N := match t_split rnd X r with Ok (a, _) => a | _ => mkMat 0 0 (fun _ _ => n0) end.
  Definition spB (r : nat) : Mat N := match t_split rnd X r with Ok (_, b) => b | _ => mkMat 0 0 (fun _ _ => n0) end.
  Definition spv (r g : nat) : N := match CalculateFNormDiff (spA r) (spB r) (Z.of_nat g) step with Ok x => x | _ => n0 end.

  Lemma sp_split : forall r, t_split rnd X r = Ok (spA r, spB r).
  Proof. intro r. unfold spA, spB. destruct (split_ok r) as (C1 & C2 & -> & _). reflexivity. Qed.
  Lemma sp_calc : forall r g, CalculateFNormDiff (spA r) (spB r) (Z.of_nat g) step = Ok (spv r g).
  Proof.
    intros r g. unfold spv. destruct (split_ok r) as (C1 & C2 & E & HR & HC & _). unfold spA, spB. rewrite E.
    destruct (normdiff_spec N C1 C2 (Z.of_nat g) step HR HC) as (D & -> & _). reflexivity.
  Qed.
  Lemma sp_value : forall r g, round_value rnd X step r g (spv r g).
  Proof.
    intros r g. destruct (split_ok r) as (C1 & C2 & E & HR & HC & M1 & M2 & E0 & E1 & E2).
    exists M1, M2, C1, C2. split; [exact E0|]. split; [exact E1|]. split; [exact E2|].
    rewrite <- sp_calc. unfold spA, spB. rewrite E. reflexivity.
  Qed.
End Rounds.

(** one grid point: the results of the successive rounds, averaged *)
Definition round_mean {N : Num} (numSamples : Z) (x : nat -> N) : N :=
  fold_left (fun s r => (s + x r / nofZ numSamples)%num) (seq 0 (Z.to_nat numSamples)) n0.

Lemma acc_fold : forall (N : Num) numSamples v r g,
  acc N numSamples v r g = fold_left (fun s r => (s + v r g / nofZ numSamples)%num) (seq 0 r) n0.
Proof.
  intros N ns v r g. induction r as [|r IH]; [reflexivity|]. rewrite seq_S, fold_left_app, <- IH. reflexivity.
Qed.

Theorem C48_every_schedule : forall (N : Num) rnd (X : Mat N) numSamples (step : N),
  (0 < tNumGrid step)%Z -> (0 < tNumRows1 X < Z.of_nat (mrows X))%Z -> (0 < mcols X)%nat ->
  let G := Z.to_nat (tNumGrid step) in
  exists x : nat -> nat -> N, (forall r g, round_value rnd X step r g (x r g)) /\
    forall l c, t_run rnd X numSamples step l (t_init rnd X numSamples step) = Some c ->
      (* apart from the ticker the number of steps is bounded *)
      (length (filter not_tick l) <= 10 + 3 * (Nat.max (Z.to_nat numSamples * G) 10 + 1))%nat /\
      (* no index is out of range *)
      tpMain c <> TPanic /\
      (* no deadlock *)
      ((exists th diff, tpMain c = TDone th diff) \/
       exists ch c', ch <> VTick /\ t_step rnd X numSamples step ch c = Some c') /\
      (* every grid point has got exactly one result of each of the first
         numSamples row splits, in this order *)
      forall th diff, tpMain c = TDone th diff ->
        diff = map (fun g => round_mean numSamples (fun r => x r g)) (seq 0 G) /\
        exists i, Argmin diff = Ok i /\ th = getThreshold (Z.of_nat i) step.
Proof.
  intros N rnd X ns step HG Hn Hc G. exists (spv N rnd X step). split; [apply sp_value; assumption|].
  assert (EG : tNumGrid step = Z.of_nat G) by (unfold G; lia).
  assert (HG' : (0 < G)%nat) by (unfold G; lia).
  pose proof (sp_split N rnd X Hn Hc) as HS. pose proof (sp_calc N rnd X step Hn Hc) as HV.
  pose proof (init_inv N rnd X ns step G HG' EG _ _ (spv N rnd X step) HS) as I0.
  intros l c E.
  pose proof (run_inv N rnd X ns step G HG' EG _ _ _ HS HV l _ c I0 E) as Ic.
  split; [|split; [|split]].
  - pose proof (run_length N rnd X ns step G HG' EG _ _ _ HS HV l _ c I0 E) as Q.
    pose proof (init_meas N rnd X ns step G HG' EG _ _ HS) as Q1.
    assert (Ef : filter (fun ch => negb (is_tick ch)) l = filter not_tick l) by (apply filter_ext; intros []; reflexivity).
    rewrite Ef in Q. unfold Tm, K, Sn in Q1. lia.
  - intro C. destruct Ic as (r & rc & _ & Ic). rewrite C in Ic. exact Ic.
  - exact (progress N rnd X ns step G HG' _ _ _ HV c Ic).
  - intros th diff C. destruct Ic as (r & rc & _ & Ic). rewrite C in Ic. destruct Ic as (_ & -> & i & Ei & Et).
    split; [|eauto]. apply map_ext. intro g. apply acc_fold.
Qed.
Print Assumptions C48_every_schedule.

(** some schedule leads to the end (hence, with the bound and the progress,
    every schedule that does not stop does) *)
Theorem C48_completes : forall (N : Num) rnd (X : Mat N) numSamples (step : N),
  (0 < tNumGrid step)%Z -> (0 < tNumRows1 X < Z.of_nat (mrows X))%Z -> (0 < mcols X)%nat ->
  exists l c th diff, t_run rnd X numSamples step l (t_init rnd X numSamples step) = Some c /\ tpMain c = TDone th diff.
Proof.
  intros N rnd X ns step HG Hn Hc.
  destruct (C48_every_schedule N rnd X ns step HG Hn Hc) as (x & _ & H).
  set (b := (10 + 3 * (Nat.max (Z.to_nat ns * Z.to_nat (tNumGrid step)) 10 + 1))%nat) in H.
  assert (Happ : forall l c ch c', t_run rnd X ns step l c = Some c' ->
    t_run rnd X ns step (l ++ [ch]) c = t_step rnd X ns step ch c').
  { induction l as [|q l IH]; intros c ch c' E; cbn [t_run app] in *.
    - injection E as <-. destruct (t_step rnd X ns step ch c); reflexivity.
    - destruct (t_step rnd X ns step q c); [|discriminate E]. apply IH. exact E. }
  enough (E : forall n l c, t_run rnd X ns step l (t_init rnd X ns step) = Some c ->
    (b - length (filter not_tick l) <= n)%nat -> exists l c th diff, t_run rnd X ns step l (t_init rnd X ns step) = Some c /\ tpMain c = TDone th diff)
    by (exact (E b [] _ eq_refl ltac:(lia))).
  induction n as [|n IH]; intros l c E Hl.
  - destruct (H l c E) as (Hb & _ & [(th & diff & D)|(ch & c' & Hch & S1)] & _); [eauto 6|].
    pose proof (Happ l _ ch c E) as E1. rewrite S1 in E1. destruct (H _ _ E1) as (Hb' & _).
    rewrite filter_app, app_length in Hb'. destruct ch; cbn in Hb'; try lia. contradiction.
  - destruct (H l c E) as (Hb & _ & [(th & diff & D)|(ch & c' & Hch & S1)] & _); [eauto 6|].
    pose proof (Happ l _ ch c E) as E1. rewrite S1 in E1. apply (IH _ _ E1). rewrite filter_app, app_length.
    destruct ch; cbn [filter not_tick length]; try lia. contradiction.
Qed.
Print Assumptions C48_completes.

(** the random numbers alone decide the operator that is returned *)
Theorem C48_schedule_independent : forall (N : Num) rnd (X : Mat N) numSamples (step : N) l l' c c' th th' diff diff',
  (0 < tNumGrid step)%Z -> (0 < tNumRows1 X < Z.of_nat (mrows X))%Z -> (0 < mcols X)%nat ->
  t_run rnd X numSamples step l (t_init rnd X numSamples step) = Some c -> tpMain c = TDone th diff ->
  t_run rnd X numSamples step l' (t_init rnd X numSamples step) = Some c' -> tpMain c' = TDone th' diff' ->
  th = th' /\ diff = diff'.
Proof.
  intros N rnd X ns step l l' c c' th th' diff diff' HG Hn Hc E D E' D'.
  destruct (C48_every_schedule N rnd X ns step HG Hn Hc) as (x & _ & H).
  destruct (H l c E) as (_ & _ & _ & H1). destruct (H l' c' E') as (_ & _ & _ & H2).
  destruct (H1 th diff D) as (E1 & i & I1 & T1). destruct (H2 th' diff' D') as (E2 & i' & I2 & T2).
  assert (Ed : diff = diff') by congruence. rewrite Ed in I1.
  assert (Ei : i = i') by (pose proof (eq_trans (eq_sym I1) I2) as C; injection C; auto). rewrite Ei in T1.
  split; congruence.
Qed.
Print Assumptions C48_schedule_independent.

(** outside these conditions the call panics before any worker is started *)
Theorem C48_panics : forall (N : Num) rnd (X : Mat N) numSamples (step : N),
  (tNumGrid step <= 0)%Z \/ ~ (0 < tNumRows1 X < Z.of_nat (mrows X))%Z \/ mcols X = 0%nat ->
  t_init rnd X numSamples step = mkTPool TPanic [].
Proof.
  intros N rnd X ns step H. unfold t_init. f_equal.
  destruct (t_split rnd X 0) as [[a b]| |] eqn:E; [|reflexivity..].
  destruct H as [H|H].
  - unfold t_spawn, tNumSim. destruct (Z.ltb_spec (tNumGrid step) 10); [|lia].
    destruct (Z.ltb_spec (Z.of_nat 0) (tNumGrid step)); [lia|].
    destruct (Z.ltb_spec (tNumGrid step) 0); [reflexivity|].
    assert (EG : tNumGrid step = 0%Z) by lia. unfold t_loop. rewrite EG. cbn [tsNum]. rewrite Z.mul_0_r.
    destruct (Z.ltb_spec (Z.of_nat 0) 0); [lia|]. reflexivity.
  - exfalso. unfold t_split in E. rewrite split_panics in E; [discriminate E|]. exact H.
Qed.
Print Assumptions C48_panics.

(** without samples nothing is measured: the first threshold of the grid is returned *)
Lemma argmin_zeros : forall (N : Num) n, nltb (n0 : N) n0 = false -> (0 < n)%nat -> Argmin (repeat (n0 : N) n) = Ok 0%nat.
Proof.
  intros N n H Hn. destruct n as [|n]; [lia|]. unfold Argmin. cbn [repeat getn nth_error bind].
  enough (E : forall l k, (forall y, In y l -> y = (n0 : N)) ->
    for_eachi k l (fun i v (st : nat * N) => Ok (if (v <? snd st)%num then (i, v) else st)) (0%nat, n0) = Ok (0%nat, n0)).
  { change (n0 :: repeat n0 n) with (repeat (n0 : N) (S n)). rewrite E; [reflexivity|]. intros y Hy. apply repeat_spec in Hy. exact Hy. }
  induction l as [|y l IH]; intros k Hl; cbn [for_eachi bind snd]; [reflexivity|].
  rewrite (Hl y) by (left; reflexivity). rewrite H. apply IH. intros z Hz. apply Hl. right. exact Hz.
Qed.

Theorem C48_no_samples : forall o rnd (X : Mat (F64 o)) numSamples (step : F64 o) l c th diff,
  (0 < tNumGrid step)%Z -> (0 < tNumRows1 X < Z.of_nat (mrows X))%Z -> (0 < mcols X)%nat -> (numSamples <= 0)%Z ->
  t_run rnd X numSamples step l (t_init rnd X numSamples step) = Some c -> tpMain c = TDone th diff ->
  th = getThreshold 0 step.
Proof.
  intros o rnd X ns step l c th diff HG Hn Hc Hs E D.
  destruct (C48_every_schedule (F64 o) rnd X ns step HG Hn Hc) as (x & _ & H).
  destruct (H l c E) as (_ & _ & _ & H1). destruct (H1 th diff D) as (E1 & i & I1 & T1).
  unfold round_mean in E1. replace (Z.to_nat ns) with 0%nat in E1 by lia. cbn [seq fold_left] in E1.
  assert (E2 : diff = repeat (n0 : F64 o) (Z.to_nat (tNumGrid step))).
  { rewrite E1. rewrite <- (seq_length (Z.to_nat (tNumGrid step)) 0) at 2. generalize (seq 0 (Z.to_nat (tNumGrid step))).
    clear. induction l as [|a l IH]; [reflexivity|]. cbn [map length repeat]. f_equal. exact IH. }
  rewrite E2, (argmin_zeros (F64 o)) in I1; [|reflexivity|lia]. injection I1 as <-. exact T1.
Qed.
Print Assumptions C48_no_samples.

(** ** The measure, in exact arithmetic: the Frobenius norm of the difference
    of the thresholded first matrix and the second one *)
Open Scope R_scope.

Definition thresholded (t x : R) : R := if Rlt_dec (Rabs x) t then 0 else x.
Definition frobenius (n m : nat) (A : nat -> nat -> R) : R := sqrt (rsum n (fun i => rsum m (fun j => Rsqr (A i j)))).

Lemma nsum_fin : forall n (f : nat -> XR) g, (forall i, (i < n)%nat -> f i = XFin (g i)) -> nsum (N := XR) n f = XFin (rsum n g).
Proof.
  induction n as [|n IH]; intros f g H; cbn [nsum rsum]; [reflexivity|].
  rewrite (IH f g) by (intros i Hi; apply H; lia). rewrite (H n) by lia. reflexivity.
Qed.

Theorem C48_value : forall (X Y : Mat XR) A B g s, rmat X A -> rmat Y B -> mrows Y = mrows X -> mcols Y = mcols X ->
  CalculateFNormDiff X Y g (XFin s : XR) =
    Ok (XFin (frobenius (mrows X) (mcols X) (fun i j => thresholded (exp (-10 + IZR g * s)) (A i j) - B i j)) : XR).
Proof.
  intros X Y A B g s HA HB HR HC.
  destruct (normdiff_spec XR X Y g (XFin s) HR HC) as (D & -> & R1 & C1 & V). f_equal. unfold frob.
  rewrite (nsum_fin (mrows D) _ (fun i => rsum (mcols D) (fun j => Rsqr (thresholded (exp (-10 + IZR g * s)) (A i j) - B i j)))).
  - cbn [nsqrt XR]. unfold xsqrt. rewrite R1, C1. unfold frobenius.
    match goal with |- context [Rltb ?r 0] => assert (Q : 0 <= r) end.
    { apply rsum_nonneg. intros i _. apply rsum_nonneg. intros j _. apply Rle_0_sqr. }
    rewrite (proj2 (Rltb_false _ _)); [reflexivity|]. lra.
  - intros i Hi. apply nsum_fin. intros j Hj. rewrite V by congruence. rewrite (HA i j) by congruence. rewrite (HB i j) by congruence.
    cbn [getThreshold nexp nadd nmul nofZ XR xadd xmul xexp nabs xabs nltb xltb].
    unfold thresholded. destruct (Rlt_dec (Rabs (A i j)) (exp (-10 + IZR g * s))) as [H|H].
    + assert (Q : Rltb (Rabs (A i j)) (exp (-10 + IZR g * s)) = true) by (apply Rltb_true; exact H).
      cbn. rewrite Q. reflexivity.
    + assert (Q : Rltb (Rabs (A i j)) (exp (-10 + IZR g * s)) = false) by (apply Rltb_false; lra).
      cbn. rewrite Q. reflexivity.
Qed.
Print Assumptions C48_value.

(** the covariance of the rows of [A] listed in [rows] *)
Definition cov_of_rows (A : nat -> nat -> R) (rows : list nat) : nat -> nat -> R :=
  covariance (length rows) (fun k j => A (nth k rows 0%nat) j).

(** the quantity that is minimised: the mean over the row splits of the
    distance between the thresholded covariance of the first part and the
    covariance of the second part *)
Definition mean_distance (p : nat) (A : nat -> nat -> R) (parts : list (list nat * list nat)) (t : R) : R :=
  fold_right Rplus 0 (map (fun q => frobenius p p (fun i j =>
    thresholded t (cov_of_rows A (fst q) i j) - cov_of_rows A (snd q) i j)) parts) / INR (length parts).

Lemma frobenius_ext : forall n m A B, (forall i j, (i < n)%nat -> (j < m)%nat -> A i j = B i j) -> frobenius n m A = frobenius n m B.
Proof.
  intros n m A B H. unfold frobenius. f_equal. apply rsum_ext. intros i Hi. apply rsum_ext. intros j Hj. rewrite H by assumption. reflexivity.
Qed.

Lemma covariance_ext : forall n p A B i j, (forall k j, (k < n)%nat -> (j < p)%nat -> A k j = B k j) -> (i < p)%nat -> (j < p)%nat ->
  covariance n A i j = covariance n B i j.
Proof.
  intros n p A B i j H Hi Hj. unfold covariance, col_mean.
  assert (E : forall j, (j < p)%nat -> rsum n (fun i => A i j) = rsum n (fun i => B i j)) by (intros q Hq; apply rsum_ext; intros; apply H; assumption).
  rewrite !E by assumption. f_equal. apply rsum_ext. intros k Hk. rewrite !H by assumption. reflexivity.
Qed.

Lemma round_value_xr : forall rnd (X : Mat XR) A s r, rmat X A ->
  (0 < tNumRows1 X < Z.of_nat (mrows X))%Z -> (0 < mcols X)%nat ->
  exists p : list nat * list nat, Permutation (fst p ++ snd p) (seq 0 (mrows X)) /\ Z.of_nat (length (fst p)) = tNumRows1 X /\
    forall g x, round_value rnd X (XFin s : XR) r g x ->
      x = XFin (frobenius (mcols X) (mcols X) (fun i j =>
        thresholded (exp (-10 + INR g * s)) (cov_of_rows A (fst p) i j) - cov_of_rows A (snd p) i j)).
Proof.
  intros rnd X A s r HA Hn Hc.
  destruct (split_spec XR (rnd r) X (tNumRows1 X) Hn Hc) as (M1 & M2 & ix & E & P & R1 & R2 & K1 & K2 & V1 & V2).
  assert (Lix : length ix = mrows X) by (rewrite <- (Permutation_length P), seq_length; auto).
  set (n := Z.to_nat (tNumRows1 X)) in *.
  assert (Hin : forall k, (k < mrows X)%nat -> (nth k ix 0%nat < mrows X)%nat).
  { intros k Hk. assert (Q : In (nth k ix 0%nat) (seq 0 (mrows X))).
    { apply (Permutation_in _ (Permutation_sym P)), nth_In. lia. }
    apply in_seq in Q. lia. }
  exists (firstn n ix, skipn n ix). cbn [fst snd]. split; [rewrite firstn_skipn; symmetry; exact P|].
  split; [rewrite firstn_length; lia|]. intros g x (M1' & M2' & C1 & C2 & E' & E1 & E2 & E3).
  rewrite E in E'. injection E' as <- <-.
  assert (A1 : rmat M1 (fun i j => A (nth i ix 0%nat) j)).
  { intros i j Hi Hj. rewrite V1 by lia. apply HA; [apply Hin; lia|lia]. }
  assert (A2 : rmat M2 (fun i j => A (nth (n + i) ix 0%nat) j)).
  { intros i j Hi Hj. rewrite V2 by lia. apply HA; [apply Hin; lia|lia]. }
  destruct (C50_covariance M1 _ A1) as (C1' & F1 & D1 & D2 & D3 & _); [lia|lia|].
  destruct (C50_covariance M2 _ A2) as (C2' & F2 & D1' & D2' & D3' & _); [lia|lia|].
  pose proof (eq_trans (eq_sym E1) F1) as Q1. injection Q1 as ->.
  pose proof (eq_trans (eq_sym E2) F2) as Q2. injection Q2 as ->.
  rewrite (C48_value _ _ _ _ (Z.of_nat g) s D3 D3') in E3 by congruence. injection E3 as <-.
  rewrite D1, D2, K1. f_equal. rewrite <- INR_IZR_INZ. apply frobenius_ext. intros i j Hi Hj. unfold cov_of_rows.
  rewrite firstn_length, skipn_length. replace (Nat.min n (length ix)) with (mrows M1) by lia.
  replace (length ix - n)%nat with (mrows M2) by lia. f_equal.
  - f_equal. apply (covariance_ext _ (mcols X)); [|assumption..]. intros k q Hk _.
    rewrite <- (firstn_skipn n ix) at 1. rewrite app_nth1; [reflexivity|]. rewrite firstn_length. lia.
  - apply (covariance_ext _ (mcols X)); [|assumption..]. intros k q Hk _.
    rewrite <- (firstn_skipn n ix) at 1. rewrite app_nth2 by (rewrite firstn_length; lia). f_equal. f_equal. rewrite firstn_length. lia.
Qed.

Lemma round_mean_xr : forall ns (x : nat -> XR) f, (0 < ns)%Z -> (forall r, x r = XFin (f r)) ->
  round_mean ns x = XFin (fold_right Rplus 0 (map f (seq 0 (Z.to_nat ns))) / INR (Z.to_nat ns)).
Proof.
  intros ns x f Hns Hx. unfold round_mean.
  assert (Hnz : IZR ns <> 0) by (apply not_0_IZR; lia).
  assert (E : forall n, fold_left (fun s r => (s + x r / nofZ ns)%num) (seq 0 n) n0 = (XFin (fold_right Rplus 0 (map f (seq 0 n)) / IZR ns) : XR)).
  { induction n as [|n IH].
    - cbn [seq fold_left map fold_right]. change (n0 : XR) with (XFin 0). f_equal. field. exact Hnz.
    - rewrite seq_S, fold_left_app, IH. cbn [fold_left]. rewrite Hx. cbn [Nat.add].
      cbn [nadd ndiv nofZ XR xadd xdiv]. rewrite Reqb_ne by exact Hnz. f_equal.
      rewrite map_app, fold_right_app. cbn [map fold_right].
      assert (Q : forall l a, fold_right Rplus a l = fold_right Rplus 0 l + a).
      { clear. induction l as [|y l IH]; intro a; cbn [fold_right]; [lra|]. rewrite (IH a). lra. }
      rewrite (Q _ (f n + 0)). field. exact Hnz. }
  rewrite E. f_equal. rewrite (INR_IZR_INZ (Z.to_nat ns)), Z2Nat.id by lia. reflexivity.
Qed.

(** the operator that is returned holds the threshold of the grid with the
    least mean distance over numSamples random row splits; ties are broken by
    the smallest threshold *)
Theorem C48_search : forall rnd (X : Mat XR) A numSamples s, rmat X A ->
  (0 < tNumGrid (XFin s : XR))%Z -> (0 < tNumRows1 X < Z.of_nat (mrows X))%Z -> (0 < mcols X)%nat -> (0 < numSamples)%Z ->
  exists parts : list (list nat * list nat), Z.of_nat (length parts) = numSamples /\
    Forall (fun p => Permutation (fst p ++ snd p) (seq 0 (mrows X)) /\ Z.of_nat (length (fst p)) = tNumRows1 X) parts /\
    forall l c th diff, t_run rnd X numSamples (XFin s : XR) l (t_init rnd X numSamples (XFin s : XR)) = Some c ->
      tpMain c = TDone th diff ->
      let d g := mean_distance (mcols X) A parts (exp (-10 + INR g * s)) in
      exists i, (Z.of_nat i < tNumGrid (XFin s : XR))%Z /\ th = XFin (exp (-10 + INR i * s)) /\
        (forall g, (Z.of_nat g < tNumGrid (XFin s : XR))%Z -> d i <= d g) /\
        (forall g, (g < i)%nat -> d i < d g).
Proof.
  intros rnd X A ns s HA HG Hn Hc Hns.
  destruct (C48_every_schedule XR rnd X ns (XFin s) HG Hn Hc) as (x & Hx & H).
  assert (HP : forall n, exists parts : list (list nat * list nat), length parts = n /\
    Forall (fun p => Permutation (fst p ++ snd p) (seq 0 (mrows X)) /\ Z.of_nat (length (fst p)) = tNumRows1 X) parts /\
    forall r g, (r < n)%nat -> x r g = XFin (frobenius (mcols X) (mcols X) (fun i j =>
        thresholded (exp (-10 + INR g * s)) (cov_of_rows A (fst (nth r parts ([], []))) i j) - cov_of_rows A (snd (nth r parts ([], []))) i j))).
  { induction n as [|n (parts & HL & HF & HV)]; [exists []; split; [reflexivity|]; split; [constructor|lia]|].
    destruct (round_value_xr rnd X A s n HA Hn Hc) as (p & P1 & P2 & P3).
    exists (parts ++ [p]). split; [rewrite app_length; cbn [length]; lia|]. split; [apply Forall_app; auto|].
    intros r g Hr. destruct (Nat.eq_dec r n) as [->|Hne].
    - rewrite app_nth2 by lia. rewrite HL, Nat.sub_diag. cbn [nth]. apply P3. apply Hx.
    - rewrite app_nth1 by lia. apply HV. lia. }
  destruct (HP (Z.to_nat ns)) as (parts & HL & HF & HV). exists parts. split; [lia|]. split; [exact HF|].
  intros l c th diff E D d. destruct (H l c E) as (_ & _ & _ & H1). destruct (H1 th diff D) as (E1 & i & I1 & T1).
  set (G := Z.to_nat (tNumGrid (XFin s : XR))) in *.
  assert (Ed : diff = map (fun g => XFin (d g) : XR) (seq 0 G)).
  { rewrite E1. apply map_ext. intro g. unfold d, mean_distance.
    set (f := fun q : list nat * list nat => frobenius (mcols X) (mcols X) (fun i j =>
      thresholded (exp (-10 + INR g * s)) (cov_of_rows A (fst q) i j) - cov_of_rows A (snd q) i j)).
    assert (Q : round_mean ns (fun r => x r g) = round_mean ns (fun r => XFin (f (nth r parts ([], []))) : XR)).
    { unfold round_mean. 
      assert (QQ : forall (l : list nat) (a : XR), (forall r, In r l -> (r < Z.to_nat ns)%nat) ->
        fold_left (fun s r => (s + x r g / nofZ ns)%num) l a = fold_left (fun s r => (s + (XFin (f (nth r parts ([], []))) : XR) / nofZ ns)%num) l a).
      { induction l0 as [|r l0 IH]; intros a Ha; cbn [fold_left]; [reflexivity|]. rewrite (HV r g) by (apply Ha; left; reflexivity).
        apply IH. intros q Hq. apply Ha. right. exact Hq. }
      apply QQ. intros r Hr. apply in_seq in Hr. lia. }
    rewrite Q, (round_mean_xr ns _ (fun r => f (nth r parts ([], [])))) by (auto; lia). f_equal. rewrite HL. do 2 f_equal.
    rewrite <- (map_map (fun r => nth r parts ([], [])) f). f_equal. rewrite <- HL. clear.
    induction parts as [|p parts IH]; [reflexivity|]. cbn [length seq map nth]. f_equal.
    rewrite <- seq_shift, map_map. exact IH. }
  assert (HG' : (0 < G)%nat) by (unfold G; lia).
  destruct (Argmin_spec XR XR_OrdLaws diff) as (k & Ek & Bk).
  { rewrite Ed. destruct G; [lia|discriminate]. }
  { intros y Hy. rewrite Ed in Hy. apply in_map_iff in Hy. destruct Hy as (g & <- & _). reflexivity. }
  pose proof (eq_trans (eq_sym I1) Ek) as Q. injection Q as ->.
  exists k. destruct Bk as (y & B1 & B2 & B3).
  assert (HkG : (k < G)%nat).
  { assert (Q : nth_error diff k <> None) by (rewrite B1; discriminate). apply nth_error_Some in Q.
    rewrite Ed, map_length, seq_length in Q. exact Q. }
  assert (Hd : forall g, (g < G)%nat -> nth_error diff g = Some (XFin (d g) : XR)).
  { intros g Hg. rewrite Ed. rewrite (map_nth_error _ g (seq 0 G) (d := g)); [reflexivity|].
    rewrite nth_error_nth' with (d := 0%nat) by (rewrite seq_length; lia). rewrite seq_nth by lia. reflexivity. }
  rewrite (Hd k HkG) in B1. injection B1 as <-.
  split; [unfold G in HkG; lia|]. split.
  { rewrite T1. cbn [getThreshold nexp nadd nmul nofZ XR]. unfold getThreshold. cbn. rewrite <- INR_IZR_INZ. reflexivity. }
  split.
  - intros g Hg. assert (Hg' : (g < G)%nat) by (unfold G; lia). pose proof (B2 _ (nth_error_In _ _ (Hd g Hg'))) as Q. cbn [nltb XR xltb] in Q.
    apply (proj1 (Rltb_false _ _)) in Q. lra.
  - intros g Hg. assert (Hg' : (g < G)%nat) by lia. pose proof (B3 g _ Hg (Hd g Hg')) as Q. cbn [nltb XR xltb] in Q.
    apply (proj1 (Rltb_true _ _)) in Q. lra.
Qed.
Print Assumptions C48_search.

(** an environment with an exponential and a logarithm simple enough to
    compute with: exp(-10+t) = t and log n = n, so that a 4-row matrix is
    split 3:1 *)
Definition fenvT : fenv := mkFenv (fun x => Floats.SpecFloat.SFadd fprec femax x (f64_ofZ 10)) (fun x => x) (fun x => x) (fun x => x) (fun x _ => x).
Definition mT : Mat (F64 fenvT) := mkMat 4 2 (fun i j => nofZ (nth j (nth i [[1; 2]; [4; 0]; [2; 3]; [0; 5]] []) 0)%Z).
(** a grid of three points, two row splits, three workers; the results of a
    round arrive out of order *)
Definition runT (l : list tchoice) := t_run (fun r i => (r + i)%nat) mT 2 (nofZ 3) l (t_init (fun r i => (r + i)%nat) mT 2 (nofZ 3)).
Definition sch1 : list tchoice :=
  [VStart; VGive 0; VStart; VGive 1; VStart; VGive 2; VCompute 1; VCompute 2; VTake 2; VTick; VTake 1; VCompute 0; VTake 0;
   VGive 1; VCompute 1; VTake 1; VGive 2; VCompute 2; VTake 2; VGive 0; VCompute 0; VTake 0; VGive 0].
Example C48_example :
  (tNumGrid (nofZ 3 : F64 fenvT) =? 3)%Z && (tNumRows1 mT =? 3)%Z &&
  match runT sch1 with
  | Some c => match tpMain c with TDone th [d0; d1; d2] => nltb d2 d1 && nltb d1 d0 && nleb th (nofZ 6) && nleb (nofZ 6) th | _ => false end
  | None => false
  end = true.
Proof. vm_compute. reflexivity. Qed.

(** ** C66 *)

Lemma Argmin_bound : forall (N : Num) (l : list N) i, Argmin l = Ok i -> (i < length l)%nat.
Proof.
  intros N [|x l] i E; [discriminate E|]. unfold Argmin in E. cbn [getn nth_error bind] in E.
  assert (Q : forall r k (st : nat * N), (fst st < k + length r)%nat \/ r = [] ->
    exists st', for_eachi k r (fun i v (st : nat * N) => Ok (if (v <? snd st)%num then (i, v) else st)) st = Ok st' /\
      ((fst st' < k + length r)%nat \/ st' = st)).
  { clear. induction r as [|y r IH]; intros k st H; cbn [for_eachi bind]; [eauto|].
    destruct (IH (S k) (if (y <? snd st)%num then (k, y) else st)) as (st' & -> & Q).
    { destruct r; [right; reflexivity|]. left. destruct (y <? snd st)%num; cbn [fst length] in *; [lia|]. destruct H as [H|H]; [lia|discriminate H]. }
    exists st'. split; [reflexivity|]. cbn [length]. destruct Q as [Q| ->]; [left; lia|].
    destruct (y <? snd st)%num; [left; cbn [fst]; lia|right; reflexivity]. }
  destruct (Q (x :: l) 0%nat (0%nat, x)) as (st' & E' & Q'); [left; cbn [fst length]; lia|].
  rewrite E' in E. cbn [bind] in E. injection E as <-. destruct Q' as [Q'| ->]; [exact Q'|cbn [fst length]; lia].
Qed.

Lemma exp_pow' : forall x n, exp (INR n * x) = exp x ^ n.
Proof.
  intros x. induction n as [|n IH]; [cbn [INR pow]; rewrite Rmult_0_l; apply exp_0|].
  rewrite S_INR. replace ((INR n + 1) * x) with (x + INR n * x) by ring. rewrite exp_plus, IH. reflexivity.
Qed.

Lemma ln4_lb : 4 / 3 <= ln 4.
Proof.
  assert (E : exp (/ 20) <= 20 / 19).
  { assert (Q : 19 / 20 <= exp (- / 20)) by (pose proof (exp_ineq1_le (- / 20)); lra).
    assert (P : exp (/ 20) * exp (- / 20) = 1) by (rewrite <- exp_plus, Rplus_opp_r; apply exp_0).
    pose proof (exp_pos (/ 20)). nra. }
  assert (E3 : exp (4 / 3) ^ 3 <= 64).
  { rewrite <- (exp_pow' (4 / 3) 3). replace (INR 3 * (4 / 3)) with (INR 80 * / 20) by (cbn; lra).
    rewrite exp_pow'. apply Rle_trans with ((20 / 19) ^ 80); [apply pow_incr; split; [left; apply exp_pos|exact E]|].
    replace ((20 / 19) ^ 80) with (((20 / 19) ^ 20) ^ 4) by (rewrite <- pow_mult; reflexivity).
    assert (Q : (20 / 19) ^ 20 <= 2.8) by (cbn [pow]; lra).
    apply Rle_trans with (2.8 ^ 4); [apply pow_incr; split; [apply pow_le; lra|exact Q]|cbn [pow]; lra]. }
  assert (E4 : exp (4 / 3) <= 4).
  { destruct (Rle_or_lt (exp (4 / 3)) 4) as [|C]; [assumption|]. exfalso.
    assert (4 ^ 3 < exp (4 / 3) ^ 3); [|cbn [pow] in *; lra].
    cbn [pow]. rewrite !Rmult_1_r. pose proof (exp_pos (4 / 3)).
    apply Rmult_le_0_lt_compat; [lra|lra|exact C|]. apply Rmult_le_0_lt_compat; lra. }
  rewrite <- (ln_exp (4 / 3)). destruct E4 as [E4|E4]; [|rewrite E4; lra]. left. apply ln_increasing; [apply exp_pos|exact E4].
Qed.

Lemma ln3_ub : 1 < ln 3 < 3 / 2.
Proof.
  assert (H1 : exp (3 / 2) = exp (3 / 4) * exp (3 / 4)) by (rewrite <- exp_plus; f_equal; lra).
  split.
  - rewrite <- (ln_exp 1). apply ln_increasing; [apply exp_pos|].
    pose proof exp_le_3 as [Q|Q]; [exact Q|]. exfalso.
    pose proof ln4_lb as L. assert (Q4 : exp (4 / 3) <= 4).
    { destruct L as [L|L].
      - left. apply exp_increasing in L. rewrite exp_ln in L by lra. exact L.
      - rewrite L, exp_ln by lra. lra. }
    replace (4 / 3) with (1 + / 3) in Q4 by lra. rewrite exp_plus, Q in Q4.
    pose proof (exp_ineq1_le (/ 3)). assert (E3 : exp (/ 3) <= 4 / 3) by lra.
    assert (E1 : exp (/ 3) ^ 3 = 3).
    { rewrite <- exp_pow'. replace (INR 3 * / 3) with 1 by (cbn; lra). exact Q. }
    assert (exp (/ 3) ^ 3 <= (4 / 3) ^ 3) by (apply pow_incr; split; [left; apply exp_pos|exact E3]).
    rewrite E1 in *. cbn [pow] in *. lra.
  - rewrite <- (ln_exp (3 / 2)). apply ln_increasing; [lra|]. rewrite H1. pose proof (exp_ineq1_le (3 / 4)). nra.
Qed.

Lemma go_int_fin : forall r, go_int (N := XR) (XFin r) = (if Rltb r 0 then (- (up (- r) - 1))%Z else (up r - 1)%Z).
Proof. reflexivity. Qed.
Lemma go_int_pos : forall r, 0 <= r -> IZR (go_int (N := XR) (XFin r)) <= r < IZR (go_int (N := XR) (XFin r)) + 1.
Proof.
  intros r Hr. rewrite go_int_fin, (proj2 (Rltb_false _ _)) by lra. destruct (archimed r). rewrite minus_IZR. lra.
Qed.
Lemma go_int_neg : forall r, r < 0 -> (go_int (N := XR) (XFin r) <= 0)%Z.
Proof.
  intros r Hr. rewrite go_int_fin, (proj2 (Rltb_true _ _)) by lra. destruct (archimed (- r)) as [H _].
  assert (IZR 0 < IZR (up (- r))) by lra. apply lt_IZR in H0. lia.
Qed.

Lemma arg_fin : forall z q, xmul (XFin z) (xsub (XFin 1) (XFin q)) = XFin (z * (1 - q)).
Proof. reflexivity. Qed.

(** the size of the first part of a split *)
Theorem C66_rows : forall X : Mat XR, (0 < tNumRows1 X < Z.of_nat (mrows X))%Z <-> (4 <= mrows X)%nat.
Proof.
  intro X. unfold tNumRows1, nofnat. cbn [nlog nofZ nsub ndiv nmul XR]. set (n := mrows X).
  change (n1 : XR) with (XFin 1).
  destruct (Nat.le_gt_cases 4 n) as [H4|H4].
  - split; [auto|]. intros _. assert (HR : 4 <= IZR (Z.of_nat n)) by (apply IZR_le; lia). set (z := IZR (Z.of_nat n)) in *.
    cbn [xlog]. rewrite (proj2 (Rltb_true _ _)) by lra.
    assert (HL : 4 / 3 <= ln z).
    { destruct HR as [HR|<-]; [|exact ln4_lb]. pose proof (ln_increasing 4 z ltac:(lra) HR). pose proof ln4_lb. lra. }
    cbn [xdiv]. rewrite Reqb_ne by lra. rewrite arg_fin.
    assert (HI : 0 < / ln z <= 3 / 4).
    { split; [apply Rinv_0_lt_compat; lra|]. replace (3 / 4) with (/ (4 / 3)) by lra. apply Rinv_le_contravar; lra. }
    assert (HP : 1 <= z * (1 - 1 / ln z) < z) by (unfold Rdiv; nra).
    pose proof (go_int_pos (z * (1 - 1 / ln z)) ltac:(lra)) as Q.
    split; [|apply lt_IZR; fold z; lra].
    assert (0 < IZR (go_int (N := XR) (XFin (z * (1 - 1 / ln z))))) by lra. apply lt_IZR. exact H.
  - split; [|lia]. intros [H _]. exfalso.
    assert (C : (n = 0 \/ n = 1 \/ n = 2 \/ n = 3)%nat) by lia. destruct C as [C|[C|[C|C]]]; rewrite C in H; cbn [Z.of_nat Pos.of_succ_nat Pos.succ] in H.
    + cbn [xlog] in H. rewrite (proj2 (Rltb_false 0 0)) in H by lra. cbn [xdiv] in H. rewrite arg_fin in H.
      replace (0 * (1 - 0)) with 0 in H by lra. pose proof (go_int_pos 0 ltac:(lra)) as [Q _].
      assert (IZR (go_int (N := XR) (XFin 0)) <= IZR 0) by lra. apply le_IZR in H0. lia.
    + cbn [xlog] in H. rewrite (proj2 (Rltb_true 0 1)) in H by lra. rewrite ln_1 in H. cbn [xdiv] in H.
      rewrite Reqb_refl in H. unfold xsgn in H. rewrite (proj2 (Rltb_false 1 0)), (proj2 (Rltb_true 0 1)) in H by lra.
      cbn [xinf_of_sgn Z.eqb Z.ltb Z.compare Pos.compare Pos.eqb xsub xneg xadd xmul] in H.
      unfold xinf_of_sgn in H. cbn [Z.compare Pos.compare Pos.compare_cont Z.ltb Z.eqb] in H. cbn in H.
      rewrite ?(proj2 (Rltb_false 1 0)), ?(proj2 (Rltb_true 0 1)) in H by lra. cbn in H. lia.
    + cbn [xlog] in H. rewrite (proj2 (Rltb_true 0 2)) in H by lra. pose proof ln_lt_2. 
      assert (HL : 0 < ln 2 < 1).
      { split; [lra|]. rewrite <- (ln_exp 1). apply ln_increasing; [lra|]. pose proof (exp_ineq1 1 ltac:(lra)). lra. }
      cbn [xdiv] in H. rewrite Reqb_ne in H by lra. rewrite arg_fin in H.
      assert (HI : 1 < / ln 2) by (rewrite <- Rinv_1; apply Rinv_lt_contravar; lra).
      pose proof (go_int_neg (2 * (1 - 1 / ln 2)) ltac:(unfold Rdiv; lra)). lia.
    + cbn [xlog] in H. rewrite (proj2 (Rltb_true 0 3)) in H by lra. pose proof ln3_ub as HL.
      cbn [xdiv] in H. rewrite Reqb_ne in H by lra. rewrite arg_fin in H.
      assert (HI : 2 / 3 < / ln 3 < 1).
      { split; [replace (2 / 3) with (/ (3 / 2)) by lra; apply Rinv_lt_contravar; [nra|lra]|].
        rewrite <- Rinv_1. apply Rinv_lt_contravar; lra. }
      pose proof (go_int_pos (3 * (1 - 1 / ln 3)) ltac:(unfold Rdiv; lra)) as [Q _].
      assert (IZR (go_int (N := XR) (XFin (3 * (1 - 1 / ln 3)))) < IZR 1) by (unfold Rdiv in *; lra). apply lt_IZR in H0. lia.
Qed.
Print Assumptions C66_rows.

(** the size of the grid *)
Theorem C66_grid : forall s, (0 < tNumGrid (XFin s : XR))%Z <-> 0 < s <= 9.
Proof.
  intro s. unfold tNumGrid. cbn [ndiv nofZ XR xdiv]. destruct (Req_dec s 0) as [->|Hs].
  - rewrite Reqb_refl. unfold xsgn. rewrite (proj2 (Rltb_false 9 0)), (proj2 (Rltb_true 0 9)) by lra.
    split; [|lra]. cbn. lia.
  - rewrite Reqb_ne by exact Hs. destruct (Rlt_or_le s 0) as [H|H].
    + split; [|lra]. intro C. assert (Q : 9 / s < 0).
      { unfold Rdiv. pose proof (Rinv_lt_0_compat s H). lra. }
      pose proof (go_int_neg _ Q). lia.
    + assert (Hp : 0 < s) by lra. assert (Hi : 0 < / s) by (apply Rinv_0_lt_compat; exact Hp).
      pose proof (go_int_pos (9 / s) ltac:(unfold Rdiv; lra)) as [Q1 Q2].
      assert (E : 9 / s * s = 9) by (field; exact Hs). split; intro C.
      * split; [exact Hp|]. assert (IZR 1 <= IZR (go_int (N := XR) (XFin (9 / s)))) by (apply IZR_le; lia). nra.
      * destruct C as [_ C]. assert (1 <= 9 / s) by nra. apply lt_IZR. lra.
Qed.
Print Assumptions C66_grid.

(** the call panics (in RandomRowSplit, make or Argmin) exactly for fewer than
    four rows, no column or a step outside of ]0, 9] *)
Theorem C66_when_it_panics : forall rnd (X : Mat XR) numSamples s,
  t_init rnd X numSamples (XFin s : XR) = mkTPool TPanic [] <-> ((mrows X < 4)%nat \/ mcols X = 0%nat \/ ~ 0 < s <= 9).
Proof.
  intros rnd X ns s. split.
  - intro E. destruct (Nat.le_gt_cases 4 (mrows X)) as [H4|H4]; [|left; exact H4]. right.
    destruct (Nat.eq_dec (mcols X) 0) as [H0|H0]; [left; exact H0|]. right. intro Hs.
    destruct (C48_every_schedule XR rnd X ns (XFin s)) as (x & _ & H).
    + apply C66_grid. exact Hs.
    + apply C66_rows. exact H4.
    + lia.
    + destruct (H [] _ eq_refl) as (_ & H1 & _). rewrite E in H1. apply H1. reflexivity.
  - intro H. apply C48_panics. destruct H as [H|[H|H]].
    + right. left. rewrite C66_rows. lia.
    + right. right. exact H.
    + left. rewrite <- C66_grid in H. lia.
Qed.
Print Assumptions C66_when_it_panics.

(** whatever the data and the argument maxThreshold, the threshold lies
    between e^-10 and e^-1 *)
Theorem C66_range : forall rnd (X : Mat XR) numSamples s l c th diff, 0 < s <= 9 -> (4 <= mrows X)%nat -> (0 < mcols X)%nat ->
  t_run rnd X numSamples (XFin s : XR) l (t_init rnd X numSamples (XFin s : XR)) = Some c -> tpMain c = TDone th diff ->
  exists t, th = XFin t /\ exp (-10) <= t < exp (-1).
Proof.
  intros rnd X ns s l c th diff Hs H4 Hc E D.
  assert (HG : (0 < tNumGrid (XFin s : XR))%Z) by (apply C66_grid; exact Hs).
  destruct (C48_every_schedule XR rnd X ns (XFin s) HG (proj2 (C66_rows X) H4) Hc) as (x & _ & H).
  destruct (H l c E) as (_ & _ & _ & H1). destruct (H1 th diff D) as (E1 & i & I1 & T1).
  assert (HL : (i < length diff)%nat).
  { apply Argmin_bound in I1. exact I1. }
  rewrite E1, map_length, seq_length in HL.
  exists (exp (-10 + IZR (Z.of_nat i) * s)). split; [rewrite T1; reflexivity|].
  assert (Hi : 0 <= IZR (Z.of_nat i)) by (apply IZR_le; lia).
  assert (HG2 : IZR (tNumGrid (XFin s : XR)) * s <= 9).
  { unfold tNumGrid. cbn [ndiv nofZ XR xdiv]. rewrite Reqb_ne by lra.
    assert (Q : 0 < 9 / s) by (unfold Rdiv; pose proof (Rinv_0_lt_compat s ltac:(lra)); lra).
    pose proof (go_int_pos (9 / s) ltac:(lra)) as [Q1 _]. assert (Q2 : 9 / s * s = 9) by (field; lra). nra. }
  assert (Hi2 : IZR (Z.of_nat i) + 1 <= IZR (tNumGrid (XFin s : XR))) by (rewrite <- plus_IZR; apply IZR_le; lia).
  assert (Hi3 : IZR (Z.of_nat i) * s < 9) by nra. assert (Hi4 : 0 <= IZR (Z.of_nat i) * s) by nra.
  split; [|apply exp_increasing; lra]. destruct Hi4 as [Hi4|Hi4]; [left; apply exp_increasing; lra|].
  rewrite <- Hi4. right. f_equal. lra.
Qed.
Print Assumptions C66_range.

Definition mT4 : Mat XR := mkMat (N := XR) 4 1 (fun i _ => XFin (INR i)).
Example C66_example : (4 <= mrows mT4)%nat /\ (0 < mcols mT4)%nat /\ 0 < 1 / 10 <= 9.
Proof. cbn. split; [lia|]. split; [lia|lra]. Qed.

(** C88: the pass that converges and whose check reports nothing is the last
    one. *)
From Coq Require Import Reals Lra Psatz Sorted.
From Verif Require Import Base Num Mat RSum Model_Node Model_Util Proof_Util Proof_XR Proof_Norm Model_Fit
  Model_Norm Model_Cov Model_Crd Proof_Lazy Proof_Crd Proof_Crd2 Proof_Crd3 Props_Crd Props_KKT.
Open Scope R_scope.

Lemma fins_inj : forall a b, fins a = fins b -> a = b.
Proof. induction a as [|x a IH]; intros [|z b] H; try discriminate H; [reflexivity|]. injection H as -> H. f_equal. apply IH. exact H. Qed.

(** the break of lassoCrdDesc.go:77-80, seen from the state after the pass *)
Lemma iter_stop : forall (N : Num) nr cov XTy (lamb tol : N) st st1,
  crd_iter nr cov XTy lamb tol st = Ok st1 -> crConv st1 = true ->
  UnsatisfiedKKTConditions XTy (crCdb st1) (crBeta st1) lamb (crCorr st1) = Ok [] -> crStop st1 = true.
Proof.
  intros N nr cov XTy lamb tol st st1 E Hc Hk. unfold crd_iter in E.
  destruct (for_each _ _ _) as [[cdb beta]| |]; try discriminate E. cbn [bind] in E.
  destruct (crd_change _ _ _) as [[mc mx]| |]; try discriminate E. cbn [bind] in E.
  destruct (crd_compact _ _) as [it| |]; try discriminate E. cbn [bind] in E.
  destruct (nltb (mc / mx)%num tol).
  - destruct (UnsatisfiedKKTConditions XTy cdb beta lamb (Update (crCorr st) beta)) as [uns| |] eqn:Eu; try discriminate E.
    cbn [bind] in E. destruct (length uns =? 0)%nat eqn:El.
    + injection E as <-. reflexivity.
    + injection E as <-. cbn [crCdb crBeta crCorr] in Hk. rewrite Eu in Hk. injection Hk as ->. discriminate El.
  - injection E as <-. discriminate Hc.
Qed.

Lemma loop_stop : forall (N : Num) nr cov XTy (lamb tol : N) k st st1,
  crConv st = false -> crd_loop nr cov XTy lamb tol k st = Ok st1 -> crConv st1 = true ->
  UnsatisfiedKKTConditions XTy (crCdb st1) (crBeta st1) lamb (crCorr st1) = Ok [] -> crStop st1 = true.
Proof.
  intros N nr cov XTy lamb tol.
  assert (G : forall k st st1, (crConv st = true -> 
      UnsatisfiedKKTConditions XTy (crCdb st) (crBeta st) lamb (crCorr st) = Ok [] -> crStop st = true) ->
    crd_loop nr cov XTy lamb tol k st = Ok st1 -> crConv st1 = true ->
    UnsatisfiedKKTConditions XTy (crCdb st1) (crBeta st1) lamb (crCorr st1) = Ok [] -> crStop st1 = true).
  { induction k as [|k IH]; intros st st1 H E Hc Hk; cbn [crd_loop] in E.
    - injection E as <-. auto.
    - destruct (crd_iter nr cov XTy lamb tol st) as [st2| |] eqn:E2; try discriminate E. cbn [bind] in E.
      destruct (crStop st2) eqn:Es.
      + injection E as <-. exact Es.
      + apply (IH st2); auto. intros Hc2 Hk2. exact (iter_stop N nr cov XTy lamb tol st st2 E2 Hc2 Hk2). }
  intros k st st1 H0 E. apply (G k st st1); [|exact E]. rewrite H0. discriminate.
Qed.

(** C88: exact arithmetic, no correction.  LassoCrdDesc reports convergence
    after at most k passes, and every coefficient of the result above 1e-16 has
    |x_i . y - n (C b)_i| >= lamb, n the number of features: the check finds
    nothing.  Then a larger limit on the number of passes gives the same
    result. *)
Theorem C88_stops : forall get d nr n A y C lamb tol x0 (k m : Z) b x1 c,
  lasso_data get d nr n A y C -> (forall i j, (i < n)%nat -> (j < n)%nat -> C i j = C j i) ->
  (forall j, (1 <= j < n)%nat -> 0 < C j j) -> 0 <= lamb ->
  LassoCrdDesc get d (XFin lamb) x0 k (XFin tol) PureLasso = Ok (map XFin b, x1, c, true) ->
  (forall i, (1 <= i < n)%nat -> / 10 ^ 16 < Rabs (nth i b 0) ->
    lamb <= Rabs (rsum nr (fun r => A r i * nth r y 0) - INR n * rsum n (fun j => C i j * nth j b 0))) ->
  (k <= m)%Z ->
  LassoCrdDesc get d (XFin lamb) x0 m (XFin tol) PureLasso = Ok (map XFin b, x1, c, true).
Proof.
  intros get d nr n A y C lamb tol x0 k m b x1 c D Hs Hd Hl E K Hkm.
  destruct (lasso_unfold get d nr n A y C D) as (cov & Hcov & R1 & R2 & U).
  pose proof (ld_n _ _ _ _ _ _ _ D) as Hn. pose proof (ld_nr _ _ _ _ _ _ _ D) as Hnr.
  assert (Hr : INR nr <> 0) by (apply not_0_INR; lia).
  rewrite U in E |- *.
  destruct (start_xr n C Hn cov R1 R2 Hcov) as (st0 & E0 & RI0 & Hs0 & Hc0).
  rewrite E0 in E |- *. cbn [bind] in E |- *.
  destruct (crd_loop nr cov _ (XFin lamb) (XFin tol) (Z.to_nat k) st0) as [st1| |] eqn:E1; try discriminate E.
  cbn [bind] in E.
  assert (Eb : crBeta st1 = map XFin b) by congruence.
  assert (Ec : crConv st1 = true) by congruence.
  destruct (conv_run n C (xy nr A y) lamb tol Hn Hs Hd Hl nr cov Hnr R1 R2 Hcov (Z.to_nat k) st1) as (bf & RI & _).
  { rewrite E0. exact E1. }
  assert (Eq : b = map bf (seq 0 n)).
  { pose proof (ri_beta _ _ _ _ RI) as B. rewrite Eb, vec_fins_map in B. exact (fins_inj _ _ B). }
  assert (Hstop : crStop st1 = true).
  { apply (loop_stop XR nr cov _ (XFin lamb) (XFin tol) _ st0 st1 Hc0 E1 Ec).
    rewrite (ri_corr _ _ _ _ RI), (ri_cdb _ _ _ _ RI), (ri_beta _ _ _ _ RI), !vec_fins_map.
    set (q := map (fun j => INR nr * xy nr A y j) (seq 0 n)). set (p := map (mv n C bf) (seq 0 n)). rewrite <- Eq.
    destruct (C88_exact q p b lamb) as (l & El & _ & HI);
      try (subst q p; rewrite ?Eq, ?map_length, ?seq_length; auto; fail).
    refine (eq_trans El _). destruct l as [|i l]; [reflexivity|]. exfalso.
    destruct (proj1 (HI i) (or_introl eq_refl)) as (Hi & Hlt & Hbi).
    assert (Hi' : (1 <= i < n)%nat) by (subst p; rewrite map_length, seq_length in Hi; exact Hi).
    specialize (K i Hi' Hbi). subst q p. rewrite map_length, seq_length in Hlt. rewrite !nth_map_seq in Hlt by lia.
    unfold xy in Hlt.
    replace (INR nr * (rsum nr (fun i0 => A i0 i * nth i0 y 0) / INR nr)) with (rsum nr (fun r => A r i * nth r y 0)) in Hlt by (field; exact Hr).
    assert (Em : mv n C bf i = rsum n (fun j => C i j * nth j b 0)).
    { unfold mv. apply rsum_ext. intros j Hj. rewrite Eq, nth_map_seq by exact Hj. reflexivity. }
    rewrite Em in Hlt. lra. }
  replace (Z.to_nat m) with (Z.to_nat k + (Z.to_nat m - Z.to_nat k))%nat by lia.
  rewrite loop_split, Hs0.
  rewrite E1. cbn [bind]. rewrite Hstop. cbn [bind]. exact E.
Qed.
Print Assumptions C88_stops.

(** The dataset of C33: after two passes the run has converged, the check finds
    nothing although the point is not optimal, and the run stays there. *)
Example C88_stops_example : exists nd b x1 c,
  NewNormalizedData ex_X (map XFin ex_y) = Ok nd /\ lasso_data Empirical_Get nd 5 3 ex_A ex_y ex_C /\
  LassoCrdDesc Empirical_Get nd (XFin (1 / 100)) None 2 (XFin (1 / 10)) PureLasso = Ok (map XFin b, x1, c, true) /\
  (forall i, (1 <= i < 3)%nat -> / 10 ^ 16 < Rabs (nth i b 0) ->
    1 / 100 <= Rabs (rsum 5 (fun r => ex_A r i * nth r ex_y 0) - INR 3 * rsum 3 (fun j => ex_C i j * nth j b 0))) /\
  forall m, (2 <= m)%Z ->
  LassoCrdDesc Empirical_Get nd (XFin (1 / 100)) None m (XFin (1 / 10)) PureLasso = Ok (map XFin b, x1, c, true).
Proof.
  destruct ex_dataset as (nd & End & D).
  destruct (lasso_unfold _ _ _ _ _ _ _ D) as (cov & Hcov & R1 & R2 & U).
  destruct (ex_run cov (1 / 10) R1 R2 Hcov ltac:(lra) 0%nat) as (st0 & st & E0 & E & Eb & Ec).
  assert (E2 : LassoCrdDesc Empirical_Get nd (XFin (1 / 100)) None 2 (XFin (1 / 10)) PureLasso
    = Ok (map XFin (map ex_b (seq 0 3)), None, crCorr st, true)).
  { rewrite U, E0. cbn [bind]. fold (fin (1 / 100)) (fin (1 / 10)). change (Z.to_nat 2) with 2%nat. rewrite E. cbn [bind].
    rewrite Eb, Ec, vec_fins_map. reflexivity. }
  assert (K : forall i, (1 <= i < 3)%nat -> / 10 ^ 16 < Rabs (nth i (map ex_b (seq 0 3)) 0) ->
    1 / 100 <= Rabs (rsum 5 (fun r => ex_A r i * nth r ex_y 0) - INR 3 * rsum 3 (fun j => ex_C i j * nth j (map ex_b (seq 0 3)) 0))).
  { assert (0 < / 10 ^ 16) by (apply Rinv_0_lt_compat, pow_lt; lra).
    destruct ex_values as (V1 & V2 & V3 & V4 & V5 & V6 & V7).
    intros [|[|[|i]]] Hi Hb; try lia; cbn [map seq nth] in Hb; unfold ex_b in Hb; cbn [Nat.eqb] in Hb; [rewrite Rabs_R0 in Hb; lra|].
    assert (X2 : rsum 5 (fun r => ex_A r 2%nat * nth r ex_y 0) = 5 * xy 5 ex_A ex_y 2).
    { unfold xy. cbn [INR]. field. }
    rewrite X2, V7. cbn [rsum map seq nth INR]. rewrite (proj2 (V5 2%nat)). rewrite ?V1, ?V2, ?V3, ?V4. unfold ex_b. cbn [Nat.eqb].
    rewrite Rabs_right by lra. lra. }
  eexists nd, _, None, (crCorr st). split; [exact End|]. split; [exact D|]. split; [exact E2|]. split; [exact K|].
  intros m Hm. refine (C88_stops _ _ _ _ _ _ _ _ _ _ _ m _ _ _ D ex_sym ex_diag _ E2 K Hm). lra.
Qed.

(** SelectModelSA over the reals: how many models are evaluated, and when it
    returns. *)
From Coq Require Import Reals Lra Psatz.
From Verif Require Import Base Num Mat Model_Node Model_Util Model_Fit Model_SA
  Proof_Node Proof_Node2 Proof_Models Proof_Util Proof_SA Proof_SA2 Proof_XR Proof_Norm Proof_Anneal.
Local Open Scope R_scope.

Lemma dec_half : ndec (n := XR) 5 (-1) = fin (/ 2).
Proof. change (fin (IZR 5 / IZR 10) = fin (/ 2)). apply (f_equal fin). lra. Qed.
Lemma dec_m12 : ndec (n := XR) 1 (-12) = fin (1 / IZR (10 ^ 12)).
Proof. reflexivity. Qed.

Lemma ladder_fin : forall d h, ladder XR d h = fin (500 * 2 ^ d * (/ 2) ^ h).
Proof.
  intros d h. unfold ladder.
  assert (E : Nat.iter d (fun t : XR => (t * nofZ 2)%num) (nofZ 500) = fin (500 * 2 ^ d)).
  { induction d as [|d IH]; cbn [Nat.iter pow].
    - rewrite Rmult_1_r. reflexivity.
    - change (Nat.iter (S d) ?f ?x) with (f (Nat.iter d f x)). rewrite IH.
      change (nofZ (n := XR) 2) with (fin 2). rewrite xmul_fin. apply (f_equal fin). ring. }
  rewrite E. clear E. induction h as [|h IH]; cbn [pow].
  - cbn [Nat.iter]. apply (f_equal fin). ring.
  - change (Nat.iter (S h) ?f ?x) with (f (Nat.iter h f x)). cbv beta. rewrite IH, dec_half, xmul_fin. apply (f_equal fin). ring.
Qed.

(** a temperature of at least 1e-12 bounds the number of halvings *)
Lemma ladder_halvings : forall d h, nltb (ladder XR d h) (ndec 1 (-12)) = false -> (h < d + 49)%nat.
Proof.
  intros d h H. rewrite ladder_fin, dec_m12, xlt_fin in H. apply Rltb_false in H.
  destruct (Nat.lt_ge_cases h (d + 49)) as [|Hge]; [assumption|exfalso].
  assert (P : (/ 2) ^ h <= (/ 2) ^ (d + 49)).
  { replace h with ((d + 49) + (h - (d + 49)))%nat by lia. rewrite pow_add.
    assert (A : 0 < (/ 2) ^ (d + 49)) by (apply pow_lt; lra).
    assert (B : (/ 2) ^ (h - (d + 49)) <= 1).
    { rewrite <- (pow1 (h - (d + 49))). apply pow_incr. lra. }
    nra. }
  assert (Q : 500 * 2 ^ d * (/ 2) ^ (d + 49) = 500 / IZR (2 ^ 49)).
  { rewrite pow_add, pow_inv. assert (A : 2 ^ d <> 0) by (apply pow_nonzero; lra).
    assert (B : (/ 2) ^ 49 = / IZR (2 ^ 49)).
    { rewrite pow_inv. f_equal. exact (pow_IZR 2 49). }
    rewrite B. field. split; [apply IZR_neq; discriminate|exact A]. }
  assert (A : 0 < 500 * 2 ^ d) by (assert (0 < 2 ^ d) by (apply pow_lt; lra); lra).
  assert (S : 500 * 2 ^ d * (/ 2) ^ h <= 500 / IZR (2 ^ 49)) by (rewrite <- Q; nra).
  assert (T : 500 / IZR (2 ^ 49) < 1 / IZR (10 ^ 12)).
  { apply (Rmult_lt_reg_r (IZR (2 ^ 49))); [apply IZR_lt; reflexivity|].
    apply (Rmult_lt_reg_r (IZR (10 ^ 12))); [apply IZR_lt; reflexivity|].
    replace (500 / IZR (2 ^ 49) * IZR (2 ^ 49) * IZR (10 ^ 12)) with (IZR (500 * 10 ^ 12)).
    - replace (1 / IZR (10 ^ 12) * IZR (2 ^ 49) * IZR (10 ^ 12)) with (IZR (2 ^ 49)); [apply IZR_lt; reflexivity|].
      field. apply IZR_neq. discriminate.
    - rewrite mult_IZR. field. apply IZR_neq. discriminate. }
  lra.
Qed.

Section Bound.
  Variable svd : Mat XR -> SVD XR.
  Variable X : Mat XR.
  Variable y : list XR.
  Variable nSweeps : Z.
  Variable cost : Z -> Z -> XR -> XR.
  Variable ri : nat -> nat.
  Variable rf : nat -> XR.
  Variables C rho : R.
  Variable d0 : nat.
  Hypothesis Hs : (1 <= nSweeps)%Z.
  Hypothesis Hcost : forall m, length m = mcols X ->
    (NumFeatures m = 1%nat \/ (1 <= NumFeatures m < mrows X / 2)%nat) ->
    exists c s, sa_cost svd X y cost m (Z.of_nat (NumFeatures m)) = Ok (c, fin s) /\ Rabs s <= C.
  Hypothesis HC : nltb (n := XR) (fin C) nmaxf = true.
  Hypothesis Hrf : forall k, exists u, rf k = fin u /\ u <= rho.
  Hypothesis Hrho : 0 < rho < 1.
  Hypothesis Hd0 : 2 * C < 500 * 2 ^ d0 * (- ln rho).

  Let nc := Z.of_nat (mcols X).
  Let W := (nc * nSweeps)%Z.
  Let lv0 := ((Z.of_nat d0 + nSweeps - 1) / nSweeps)%Z.

  Lemma lv0_spec : (Z.of_nat d0 <= lv0 * nSweeps <= Z.of_nat d0 + nSweeps - 1)%Z /\ (0 <= lv0 <= Z.of_nat d0)%Z.
  Proof using Hs X.
    unfold lv0. set (a := (Z.of_nat d0 + nSweeps - 1)%Z).
    pose proof (Z.div_mod a nSweeps ltac:(lia)) as D. pose proof (Z.mod_pos_bound a nSweeps ltac:(lia)) as M.
    assert (P : (0 <= a / nSweeps)%Z) by (apply Z.div_pos; lia). split; [split; lia|]. split; [exact P|].
    destruct (Z.eq_dec (Z.of_nat d0) 0) as [E|E].
    - rewrite Z.div_small by lia. lia.
    - apply Z.div_le_upper_bound; [lia|]. nia.
  Qed.

  Definition tempX (t : XR) : Prop := exists r, t = fin r /\ 0 < r.

  Lemma cost_fine : forall m c s, length m = mcols X ->
    (NumFeatures m = 1%nat \/ (1 <= NumFeatures m < mrows X / 2)%nat) ->
    sa_cost svd X y cost m (Z.of_nat (NumFeatures m)) = Ok (c, s) ->
    finite s = true /\ nltb s nmaxf = true.
  Proof using Hcost HC.
    intros m c s Hm Hn E. destruct (Hcost m Hm Hn) as (c' & s' & E' & B). rewrite E' in E. injection E as <- <-.
    split; [reflexivity|]. change (Rltb s' (IZR ((2 ^ 53 - 1) * 2 ^ 971)) = true).
    change (Rltb C (IZR ((2 ^ 53 - 1) * 2 ^ 971)) = true) in HC. apply Rltb_true in HC. apply Rltb_true.
    apply Rle_lt_trans with C; [|exact HC]. apply Rle_trans with (Rabs s'); [apply Rle_abs|exact B].
  Qed.

  Lemma run_linvX : forall k st b, sa_run svd X y nSweeps cost ri rf k st b ->
    LInv XR svd X y cost st /\ (b = false -> tempX (ssTemp st)) /\ (b = true -> ssAcc st <> []).
  Proof using Hcost HC Hrf Hrho.
    intros k st b R.
    apply (run_inv XR XR_OrdLaws svd X y nSweeps cost ri rf tempX) with (k := k); auto.
    - exists 500. split; [reflexivity|lra].
    - intros t (r & -> & Hr). exists (r * 2). split; [reflexivity|lra].
    - intros t (r & -> & Hr) _. exists (r * / 2). rewrite dec_half. split; [reflexivity|lra].
    - intros t s k' (r & -> & Hr) Hf. destruct s as [| | |s]; try discriminate Hf.
      destruct (Hrf k') as (u & -> & Hu). change (XFin s) with (fin s). rewrite xsub_fin, xneg_fin, xdiv_fin by lra.
      rewrite xexp_fin, xlt_fin. apply Rltb_true. replace (- (s - s) / r) with 0 by (field; lra). rewrite exp_0. lra.
    - exact cost_fine.
  Qed.

  (** at a temperature of 500*2^d0 or more every proposal is accepted *)
  Lemma accept_hot : forall st k t s, LInv XR svd X y cost st -> ssTemp st = fin t -> 500 * 2 ^ d0 <= t -> Rabs s <= C ->
    nltb (n := XR) (fin s) (ssScore st)
    || nltb (rf k) (nexp (nneg (nsub (n := XR) (fin s) (ssScore st)) / ssTemp st)%num) = true.
  Proof using Hcost HC Hrf Hrho Hd0.
    intros st k t s I Ht Hge Bs. assert (Sc := li_score _ _ _ _ _ _ I).
    destruct (ssAcc st) as [|[[m c] s0] rest] eqn:Ea.
    - destruct Sc as (-> & _). apply orb_true_intro. left.
      change (Rltb s (IZR ((2 ^ 53 - 1) * 2 ^ 971)) = true).
      change (Rltb C (IZR ((2 ^ 53 - 1) * 2 ^ 971)) = true) in HC. apply Rltb_true in HC. apply Rltb_true.
      apply Rle_lt_trans with C; [|exact HC]. apply Rle_trans with (Rabs s); [apply Rle_abs|exact Bs].
    - destruct Sc as (_ & -> & _). destruct (li_acc _ _ _ _ _ _ I m c s0) as (Hm & Hn & E & _); [rewrite Ea; left; reflexivity|].
      destruct (Hcost m Hm Hn) as (c' & s' & E' & B'). rewrite E' in E. injection E as _ <-.
      apply orb_true_intro. right. destruct (Hrf k) as (u & -> & Hu).
      assert (P : 0 < 500 * 2 ^ d0) by (assert (0 < 2 ^ d0) by (apply pow_lt; lra); lra).
      rewrite Ht, xsub_fin, xneg_fin, xdiv_fin by lra. rewrite xexp_fin, xlt_fin. apply Rltb_true.
      apply Rle_lt_trans with rho; [exact Hu|]. rewrite <- (exp_ln rho) at 1 by lra. apply exp_increasing.
      assert (Hl : ln rho < 0) by (rewrite <- ln_1; apply ln_increasing; lra).
      apply (Rmult_lt_reg_r t); [lra|]. replace (- (s - s') / t * t) with (s' - s) by (field; lra).
      assert (Hss : - (2 * C) <= s' - s).
      { pose proof (Rle_abs s) as A1. pose proof (Rle_abs (- s')) as A2. rewrite Rabs_Ropp in A2. lra. }
      nra.
  Qed.

  Record Hot (st : SASt XR) (b : bool) (d h pre : nat) : Prop := mkHot {
    ht_sched : SchedInv XR X nSweeps st b d h pre;
    ht_no : ssReached st = false -> (lv0 * W <= Z.of_nat (length (ssEval st)))%Z ->
      ssNumAccept st = ssNumSteps st /\ (ssNumSteps st < nc)%Z /\
      Z.of_nat (length (ssEval st)) = (lv0 * W + ssNumSteps st)%Z;
    ht_yes : ssReached st = true -> (Z.of_nat pre <= lv0)%Z
  }.

  Lemma step_hot : forall k st st' b d h pre, LInv XR svd X y cost st -> tempX (ssTemp st) ->
    Hot st false d h pre -> sa_step svd X y nSweeps cost ri rf k st = Ok (st', b) ->
    exists d' h' pre', Hot st' b d' h' pre'.
  Proof using Hs Hcost HC Hrf Hrho Hd0.
    intros k st st' b d h pre I Htx H0 H.
    assert (Hsd := ht_sched _ _ _ _ _ H0).
    assert (Hnc := sc_nc _ _ _ _ _ _ _ _ Hsd). fold nc in Hnc.
    assert (HW : (nc <= W)%Z) by (unfold W; nia).
    destruct (step_sched XR svd X y nSweeps cost ri rf Hs k st st' b d h pre Hsd H) as (d' & h' & pre' & Hsd' & Hpre).
    exists d', h', pre'. constructor; [exact Hsd'| |].
    - intros Hr Hl.
      assert (Hbnd : Z.of_nat (length (ssEval st')) = (lv0 * W)%Z ->
                ssNumSteps st' = 0%Z /\ ssNumAccept st' = 0%Z).
      { intro El. destruct (sc_no _ _ _ _ _ _ _ _ Hsd' Hr) as (Eh & _). subst h'.
        assert (E1 := sc_eval _ _ _ _ _ _ _ _ Hsd'). fold nc in E1. fold W in E1. rewrite Nat.add_0_r in E1.
        assert (E2 := sc_acc _ _ _ _ _ _ _ _ Hsd').
        assert (E3 : (ssNumSteps st' < W)%Z).
        { destruct b; [|apply (sc_cont _ _ _ _ _ _ _ _ Hsd' eq_refl)].
          destruct (sc_end _ _ _ _ _ _ _ _ Hsd' eq_refl) as [(C1 & _)|(C1 & _)]; [congruence|lia]. }
        assert (E4 : ((lv0 - Z.of_nat pre') * W = ssNumSteps st')%Z) by lia.
        assert (E5 : (lv0 - Z.of_nat pre' = 0)%Z).
        { destruct (Z.lt_trichotomy (lv0 - Z.of_nat pre') 0) as [?|[?|?]]; [nia|assumption|nia]. }
        rewrite E5 in E4. lia. }
      destruct (step_cases _ _ _ _ _ _ _ _ _ _ _ _ H) as [(-> & E1 & E2 & E3 & E4 & E5)|(m & n & Ht)].
      + rewrite E1 in Hl |- *. rewrite E2, E3. apply (ht_no _ _ _ _ _ H0); [congruence|exact Hl].
      + assert (Ht' := Ht). apply try_shape in Ht'. destruct Ht' as (c & s & st1 & Ec & Etm & E1 & E2 & E3 & E4 & E5).
        assert (Eev : length (ssEval st') = S (length (ssEval st))).
        { eapply try_sched in Ht; [|exact Hs|exact Hsd]. apply Ht. }
        assert (Hr0 : ssReached st = false).
        { destruct (ssReached st) eqn:Er; [|reflexivity]. exfalso.
          unfold sa_temper in Etm. rewrite E4 in Etm. cbn [orb] in Etm.
          destruct (Z.rem _ _ =? 0)%Z; (destruct (_ <=? _)%Z; [destruct (_ && _)%bool|]);
            injection Etm as <- <-; cbn [ssReached] in Hr; congruence. }
        destruct (Z.le_gt_cases (lv0 * W) (Z.of_nat (length (ssEval st)))) as [Hle|Hgt].
        * destruct (ht_no _ _ _ _ _ H0 Hr0 Hle) as (F1 & F2 & F3).
          destruct (sc_no _ _ _ _ _ _ _ _ Hsd Hr0) as (Eh & Ed). subst h.
          assert (Hd : (d0 <= d)%nat).
          { apply Nat2Z.inj_le. rewrite Ed. fold nc.
            apply Z.le_trans with (lv0 * W / nc)%Z; [|apply Z.div_le_mono; lia].
            unfold W. replace (lv0 * (nc * nSweeps))%Z with (lv0 * nSweeps * nc)%Z by ring. rewrite Z.div_mul by lia.
            apply lv0_spec. }
          assert (Et := sc_temp _ _ _ _ _ _ _ _ Hsd). rewrite ladder_fin in Et. cbn [pow] in Et. rewrite Rmult_1_r in Et.
          assert (Hs' : exists r, s = fin r /\ Rabs r <= C).
          { destruct (step_keep XR XR_OrdLaws svd X y nSweeps cost ri rf tempX) with (st := st) (k := k) (st' := st') (b := b) as (I' & _); auto.
            - intros t (r & -> & Hr') . exists (r * 2). split; [reflexivity|lra].
            - intros t (r & -> & Hr') _. exists (r * / 2). rewrite dec_half. split; [reflexivity|lra].
            - intros t s' k' (r & -> & Hr') Hf. destruct s' as [| | |s']; try discriminate Hf.
              destruct (Hrf k') as (u & -> & Hu). change (XFin s') with (fin s'). rewrite xsub_fin, xneg_fin, xdiv_fin by lra.
              rewrite xexp_fin, xlt_fin. apply Rltb_true. replace (- (s' - s') / r) with 0 by (field; lra). rewrite exp_0. lra.
            - exact cost_fine.
            - destruct (li_eval _ _ _ _ _ _ I' m n s) as (G1 & G2 & G3 & _).
              { eapply temper_sched in Etm; [|exact Hs|exact Hsd| | | | | |]; try assumption.
                - destruct Etm as (-> & _). rewrite E1. left. reflexivity.
                - rewrite E1. discriminate.
                - rewrite E1. reflexivity.
                - rewrite E5. destruct (_ || _); [right|left]; lia. }
              rewrite G2 in Ec. destruct (Hcost m G1 G3) as (c' & r & E' & B). rewrite E' in Ec. injection Ec as _ <-.
              exists r. auto. }
          destruct Hs' as (r & -> & Br).
          rewrite (accept_hot st k _ r I Et) in E5.
          2:{ apply Rmult_le_compat_l; [lra|]. apply Rle_pow; [lra|exact Hd]. }
          2:{ exact Br. }
          destruct (Z.eq_dec (ssNumSteps st1) nc) as [En|En].
          -- exfalso. assert (Q : ssReached st' = true).
             { apply (temper_sweep XR X nSweeps st1 st' b); auto; [fold nc; lia|].
               rewrite E5, E2, F1.
               change (nofZ (n := XR) (ssNumSteps st + 1)) with (fin (IZR (ssNumSteps st + 1))).
               assert (Hne : IZR (ssNumSteps st + 1) <> 0) by (apply IZR_neq; lia).
               rewrite xdiv_fin by exact Hne. rewrite dec_half, xlt_fin. apply Rltb_true.
               replace (IZR (ssNumSteps st + 1) / IZR (ssNumSteps st + 1)) with 1 by (field; exact Hne). lra. }
             congruence.
          -- assert (Ha := sc_acc _ _ _ _ _ _ _ _ Hsd).
             destruct (temper_early XR X nSweeps Hs st1 st' b) as (G1 & G2 & G3); auto; [fold nc; lia|].
             rewrite G1, G2, E5, E2, Eev, F1. split; [lia|]. split; lia.
        * assert (El : Z.of_nat (length (ssEval st')) = (lv0 * W)%Z) by lia.
          destruct (Hbnd El) as (G1 & G2). rewrite G1, G2. split; [reflexivity|]. split; lia.
    - intro Hr. rewrite (proj1 (Hpre Hr)). destruct (ssReached st) eqn:Er; [apply (ht_yes _ _ _ _ _ H0 Er)|].
      destruct (sc_no _ _ _ _ _ _ _ _ Hsd Er) as (Eh & _). subst h.
      assert (E1 := sc_eval _ _ _ _ _ _ _ _ Hsd). fold nc in E1. fold W in E1. rewrite Nat.add_0_r in E1.
      assert (E2 := sc_acc _ _ _ _ _ _ _ _ Hsd).
      destruct (Z.le_gt_cases (lv0 * W) (Z.of_nat (length (ssEval st)))) as [Hle|Hgt].
      + destruct (ht_no _ _ _ _ _ H0 Er Hle) as (F1 & F2 & F3). nia.
      + nia.
  Qed.

  Lemma run_hot : forall k st b, sa_run svd X y nSweeps cost ri rf k st b ->
    exists d h pre, Hot st b d h pre.
  Proof using Hs Hcost HC Hrf Hrho Hd0.
    intros k st b R. induction R as [st H|k st st' b' R IH H].
    - destruct (init_sched XR X nSweeps Hs st H) as (S0 & Hr & He). exists 0%nat, 0%nat, 0%nat.
      constructor; [exact S0| |rewrite Hr; discriminate].
      intros _ Hl. assert (E := sc_eval _ _ _ _ _ _ _ _ S0). assert (E2 := sc_acc _ _ _ _ _ _ _ _ S0).
      assert (Hnc := sc_nc _ _ _ _ _ _ _ _ S0). fold nc in Hnc. rewrite He in *. cbn in E.
      assert (L := proj2 lv0_spec). cbn [length] in Hl |- *.
      assert (HW : (nc <= W)%Z) by (unfold W; nia).
      assert (E3 : ssNumSteps st = 0%Z) by lia. rewrite E3 in *. split; [lia|]. split; [lia|]. nia.
    - destruct IH as (d & h & pre & I). destruct (run_linvX _ _ _ R) as (L & T & _).
      eapply step_hot; eauto.
  Qed.

  Definition evals_bound : Z := ((2 * Z.of_nat d0 + 2 * nSweeps + 48) * W)%Z.

  Lemma run_bound : forall k st b, sa_run svd X y nSweeps cost ri rf k st b ->
    (Z.of_nat (length (ssEval st)) <= evals_bound)%Z.
  Proof using Hs Hcost HC Hrf Hrho Hd0.
    intros k st b R. destruct (run_hot _ _ _ R) as (d & h & pre & H0).
    assert (Hsd := ht_sched _ _ _ _ _ H0). destruct lv0_spec as (L1 & L2).
    assert (Hnc := sc_nc _ _ _ _ _ _ _ _ Hsd). fold nc in Hnc.
    assert (HW : (nc <= W)%Z) by (unfold W; nia).
    assert (E1 := sc_eval _ _ _ _ _ _ _ _ Hsd). fold nc in E1. fold W in E1.
    assert (E2 := sc_steps _ _ _ _ _ _ _ _ Hsd). fold nc in E2. fold W in E2.
    unfold evals_bound. destruct (ssReached st) eqn:Er.
    - assert (P1 := ht_yes _ _ _ _ _ H0 Er). assert (P2 := sc_yes _ _ _ _ _ _ _ _ Hsd Er).
      assert (P3 : (h <= d + 49)%nat).
      { destruct (Nat.le_gt_cases h 1) as [|Hh]; [lia|].
        pose proof (sc_more1 _ _ _ _ _ _ _ _ Hsd (pred h) ltac:(lia)) as Hm. apply ladder_halvings in Hm. lia. }
      assert (P4 : (Z.of_nat d <= Z.of_nat d0 + 2 * nSweeps - 2)%Z) by nia.
      rewrite E1. nia.
    - destruct (Z.le_gt_cases (lv0 * W) (Z.of_nat (length (ssEval st)))) as [Hle|Hgt].
      + destruct (ht_no _ _ _ _ _ H0 Er Hle) as (F1 & F2 & F3). nia.
      + nia.
  Qed.
End Bound.

(** The temperature schedule of SelectModelSA. *)
From Coq Require Import Reals Lra Psatz.
From Verif Require Import Base Num Mat Model_Node Model_Util Model_Fit Model_SA
  Proof_Node Proof_Node2 Proof_Models Proof_Util Proof_SA Proof_SA2.

Section Sched.
  Variable N : Num.
  Variable svd : Mat N -> SVD N.
  Variable X : Mat N.
  Variable y : list N.
  Variable nSweeps : Z.
  Variable cost : Z -> Z -> N -> N.
  Variable ri : nat -> nat.
  Variable rf : nat -> N.
  Hypothesis Hs : (1 <= nSweeps)%Z.

  Definition ladder (d h : nat) : N :=
    Nat.iter h (fun t : N => (t * ndec 5 (-1))%num) (Nat.iter d (fun t : N => (t * nofZ 2)%num) (nofZ 500)).

  Let nc := Z.of_nat (mcols X).
  Let W := (nc * nSweeps)%Z.

  (** [pre]: levels completed before the acceptance rate was reached *)
  Record SchedInv (st : SASt N) (b : bool) (d h pre : nat) : Prop := mkSched {
    sc_nc : (1 <= nc)%Z;
    sc_eval : Z.of_nat (length (ssEval st)) = (Z.of_nat (pre + h) * W + ssNumSteps st)%Z;
    sc_acc : (0 <= ssNumAccept st <= ssNumSteps st)%Z;
    sc_steps : (ssNumSteps st <= W)%Z;
    sc_cont : b = false -> (ssNumSteps st < W)%Z;
    sc_temp : ssTemp st = ladder d h;
    sc_no : ssReached st = false -> h = 0%nat /\ Z.of_nat d = (Z.of_nat (length (ssEval st)) / nc)%Z;
    sc_yes : ssReached st = true -> (Z.of_nat pre * nSweeps <= Z.of_nat d < Z.of_nat (S pre) * nSweeps)%Z;
    sc_more : b = false -> (0 < h)%nat -> nltb (ladder d h) (ndec 1 (-12)) = false;
    sc_more1 : forall i, (0 < i < h)%nat -> nltb (ladder d i) (ndec 1 (-12)) = false;
    sc_end : b = true -> (ssReached st = true /\ ssNumAccept st = 0%Z /\ ssNumSteps st = W) \/
                         (ssNumSteps st = 0%Z /\ nltb (ssTemp st) (ndec 1 (-12)) = true)
  }.

  (** What the acceptance test does to the counters: a step was made *)
  Lemma temper_sched : forall st st0 st' b d h pre,
    SchedInv st0 false d h pre ->
    ssEval st <> [] -> length (ssEval st) = S (length (ssEval st0)) ->
    ssNumSteps st = (ssNumSteps st0 + 1)%Z ->
    (ssNumAccept st = ssNumAccept st0 \/ ssNumAccept st = (ssNumAccept st0 + 1)%Z) ->
    ssTemp st = ssTemp st0 -> ssReached st = ssReached st0 ->
    sa_temper X nSweeps st = (st', b) ->
    ssEval st' = ssEval st /\ exists d' h' pre', SchedInv st' b d' h' pre' /\ (ssReached st' = true -> pre' = pre /\ d' = d).
  Proof.
    intros st st0 st' b d h pre I Hne El En Ea Et Er H. unfold sa_temper in H. fold nc in H. fold W in H.
    pose proof (sc_nc _ _ _ _ _ I) as Hnc. pose proof (sc_eval _ _ _ _ _ I) as I1. pose proof (sc_acc _ _ _ _ _ I) as I2.
    pose proof (sc_cont _ _ _ _ _ I eq_refl) as I3. pose proof (sc_temp _ _ _ _ _ I) as I4.
    pose proof (sc_no _ _ _ _ _ I) as I5. pose proof (sc_yes _ _ _ _ _ I) as I6. pose proof (sc_more _ _ _ _ _ I eq_refl) as I7.
    pose proof (sc_more1 _ _ _ _ _ I) as I8.
    assert (HW : (0 < W)%Z) by (unfold W; nia).
    assert (El' : Z.of_nat (length (ssEval st)) = (Z.of_nat (pre + h) * W + ssNumSteps st)%Z) by (rewrite El, En; lia).
    (* multiples of nc *)
    assert (Hdiv : (Z.of_nat (length (ssEval st)) / nc)%Z = (Z.of_nat (pre + h) * nSweeps + ssNumSteps st / nc)%Z).
    { rewrite El'. unfold W. replace (Z.of_nat (pre + h) * (nc * nSweeps) + ssNumSteps st)%Z
        with (ssNumSteps st + (Z.of_nat (pre + h) * nSweeps) * nc)%Z by ring. rewrite Z.div_add by lia. lia. }
    assert (Hrem : Z.rem (ssNumSteps st) nc = (ssNumSteps st mod nc)%Z) by (apply Z.rem_mod_nonneg; lia).
    set (rate := (nofZ (ssNumAccept st) / nofZ (ssNumSteps st))%num : N) in *.
    set (P := if (Z.rem (ssNumSteps st) nc =? 0)%Z then
          (ssReached st || nltb (ndec 5 (-1)) rate, if ssReached st || nltb (ndec 5 (-1)) rate then ssTemp st else (ssTemp st * nofZ 2)%num)
        else (ssReached st, ssTemp st)) in H.
    assert (HP : exists d', snd P = ladder d' h /\
       (fst P = false -> ssReached st = false /\ h = 0%nat /\ Z.of_nat d' = (Z.of_nat (length (ssEval st)) / nc)%Z) /\
       (fst P = true -> d' = d /\ (Z.of_nat pre * nSweeps <= Z.of_nat d < Z.of_nat (S pre) * nSweeps)%Z)).
    { unfold P. destruct (Z.eqb_spec (Z.rem (ssNumSteps st) nc) 0) as [Hz|Hz].
      - destruct (ssReached st || nltb (ndec 5 (-1)) rate) eqn:Eo; cbn [fst snd].
        + exists d. split; [congruence|]. split; [discriminate|]. intros _. split; [reflexivity|].
          destruct (ssReached st) eqn:Es; [apply I6; congruence|].
          destruct I5 as [-> Hd]; [congruence|]. rewrite Nat.add_0_r in *.
          rewrite I1, En in *. rewrite Hrem in Hz.
          assert (Q : (ssNumSteps st0 + 1 = nc * ((ssNumSteps st0 + 1) / nc))%Z) by (pose proof (Z.div_mod (ssNumSteps st0 + 1) nc); lia).
          assert (Q2 : (ssNumSteps st0 / nc = (ssNumSteps st0 + 1) / nc - 1)%Z).
          { symmetry. apply Z.div_unique with (r := (nc - 1)%Z); lia. }
          assert (Q3 : ((Z.of_nat pre * W + ssNumSteps st0) / nc = Z.of_nat pre * nSweeps + ssNumSteps st0 / nc)%Z).
          { unfold W. replace (Z.of_nat pre * (nc * nSweeps) + ssNumSteps st0)%Z with (ssNumSteps st0 + (Z.of_nat pre * nSweeps) * nc)%Z by ring.
            rewrite Z.div_add by lia. lia. }
          rewrite Hd, Q3. assert (Q4 : (0 <= ssNumSteps st0 / nc)%Z) by (apply Z.div_pos; lia).
          assert (Q5 : (ssNumSteps st0 / nc < nSweeps)%Z) by (apply Z.div_lt_upper_bound; [lia|unfold W in I3; lia]). lia.
        + exists (S d). apply orb_false_elim in Eo. destruct Eo as [Eo _]. destruct I5 as [-> Hd]; [congruence|].
          split; [rewrite Et, I4; reflexivity|]. split; [|discriminate]. intros _. split; [exact Eo|]. split; [reflexivity|].
          rewrite Nat.add_0_r in *. rewrite Hdiv, En. rewrite I1 in Hd.
          assert (Q : (ssNumSteps st0 + 1 = nc * ((ssNumSteps st0 + 1) / nc))%Z) by (rewrite En in *; rewrite Hrem in Hz; pose proof (Z.div_mod (ssNumSteps st0 + 1) nc); lia).
          assert (Q2 : (ssNumSteps st0 / nc = (ssNumSteps st0 + 1) / nc - 1)%Z) by (symmetry; apply Z.div_unique with (r := (nc - 1)%Z); lia).
          assert (Q3 : ((Z.of_nat pre * W + ssNumSteps st0) / nc = Z.of_nat pre * nSweeps + ssNumSteps st0 / nc)%Z).
          { unfold W. replace (Z.of_nat pre * (nc * nSweeps) + ssNumSteps st0)%Z with (ssNumSteps st0 + (Z.of_nat pre * nSweeps) * nc)%Z by ring.
            rewrite Z.div_add by lia. lia. }
          lia.
      - cbn [fst snd]. exists d. split; [congruence|]. split.
        + intro Es. destruct I5 as [-> Hd]; [congruence|]. split; [exact Es|]. split; [reflexivity|].
          rewrite Nat.add_0_r in *. rewrite Hdiv, En. rewrite I1 in Hd. rewrite Hrem, En in Hz.
          assert (Q3 : ((Z.of_nat pre * W + ssNumSteps st0) / nc = Z.of_nat pre * nSweeps + ssNumSteps st0 / nc)%Z).
          { unfold W. replace (Z.of_nat pre * (nc * nSweeps) + ssNumSteps st0)%Z with (ssNumSteps st0 + (Z.of_nat pre * nSweeps) * nc)%Z by ring.
            rewrite Z.div_add by lia. lia. }
          assert (Q2 : ((ssNumSteps st0 + 1) / nc = ssNumSteps st0 / nc)%Z).
          { pose proof (Z.div_mod (ssNumSteps st0 + 1) nc ltac:(lia)) as D. pose proof (Z.mod_pos_bound (ssNumSteps st0 + 1) nc ltac:(lia)) as M.
            apply Z.div_unique with (r := ((ssNumSteps st0 + 1) mod nc - 1)%Z); lia. }
          lia.
        + intro Es. split; [reflexivity|apply I6; congruence]. }
    destruct HP as (d' & P1 & P2 & P3). destruct P as [reached temp]. cbn [fst snd] in P1, P2, P3.
    destruct (Z.leb_spec W (ssNumSteps st)) as [Hw|Hw].
    - assert (HwE : ssNumSteps st = W) by lia.
      destruct ((ssNumAccept st =? 0)%Z && reached)%bool eqn:Eb.
      + injection H as <- <-. cbn [ssEval]. split; [reflexivity|]. apply andb_prop in Eb. destruct Eb as [Eb1 Eb2].
        apply Z.eqb_eq in Eb1. subst reached. destruct (P3 eq_refl) as [-> P4]. exists d, h, pre. split; [|auto].
        constructor; cbn [ssEval ssNumSteps ssNumAccept ssTemp ssReached]; auto; try discriminate; try lia.
      + injection H as <- <-. cbn [ssEval]. split; [reflexivity|]. destruct reached.
        * destruct (P3 eq_refl) as [-> P4]. exists d, (S h), pre. split; [|auto].
          constructor; cbn [ssEval ssNumSteps ssNumAccept ssTemp ssReached]; auto; try discriminate; try lia.
          -- rewrite P1. reflexivity.
          -- intros Hb _. rewrite P1 in Hb. exact Hb.
          -- intros i Hh. destruct (Nat.eq_dec i h) as [->|]; [apply I7; lia|apply I8; lia].
        * destruct (P2 eq_refl) as (Q1 & -> & Q2). exists d', 0%nat, (S pre). split; [|discriminate].
          constructor; cbn [ssEval ssNumSteps ssNumAccept ssTemp ssReached]; auto; try discriminate; try lia.
    - injection H as <- <-. cbn [ssEval]. split; [reflexivity|]. exists d', h, pre.
      assert (Hdd : (0 < h)%nat -> d' = d).
      { intro Hh. destruct reached; [apply (P3 eq_refl)|]. destruct (P2 eq_refl) as (_ & -> & _). lia. }
      split; [|cbn [ssReached]; intro Hr; destruct (P3 Hr) as (-> & _); auto].
      constructor; cbn [ssEval ssNumSteps ssNumAccept ssTemp ssReached]; auto; try discriminate; try lia.
      + intro Hr. destruct (P2 Hr) as (_ & Q). exact Q.
      + intro Hr. destruct (P3 Hr) as (-> & Q). exact Q.
      + intros _ Hh. rewrite (Hdd Hh). apply I7; assumption.
      + intros i Hh. rewrite (Hdd ltac:(lia)). apply I8; assumption.
  Qed.

  Lemma try_shape : forall k index m n st st' b,
    sa_try svd X y nSweeps cost rf k index m n st = Ok (st', b) ->
    exists c s st1, sa_cost svd X y cost m n = Ok (c, s) /\ sa_temper X nSweeps st1 = (st', b) /\
      ssEval st1 = (m, n, s) :: ssEval st /\ ssNumSteps st1 = (ssNumSteps st + 1)%Z /\
      ssTemp st1 = ssTemp st /\ ssReached st1 = ssReached st /\
      ssNumAccept st1 = (ssNumAccept st +
        if nltb s (ssScore st) || nltb (rf k) (nexp (nneg (s - ssScore st) / ssTemp st)%num) then 1 else 0)%Z.
  Proof using.
    intros k index m n st st' b H. unfold sa_try in H.
    apply bind_ok in H. destruct H as ([c s] & Hc & H).
    apply bind_ok in H. destruct H as (st1 & H1 & H). injection H as H. exists c, s, st1.
    split; [exact Hc|]. split; [exact H|].
    destruct (nltb s (ssScore st) || nltb (rf k) (nexp (nneg (s - ssScore st) / ssTemp st)%num))%bool.
    - apply bind_ok in H1. destruct H1 as (it0 & _ & H1). apply bind_ok in H1. destruct H1 as (sc & _ & H1).
      injection H1 as <-. cbn. auto 10.
    - apply bind_ok in H1. destruct H1 as (cu & _ & H1). injection H1 as <-. cbn. rewrite Z.add_0_r. auto 10.
  Qed.

  (** what a pass does: nothing, or one evaluation *)
  Lemma step_cases : forall k st st' b, sa_step svd X y nSweeps cost ri rf k st = Ok (st', b) ->
    (b = false /\ ssEval st' = ssEval st /\ ssNumSteps st' = ssNumSteps st /\ ssNumAccept st' = ssNumAccept st /\
     ssTemp st' = ssTemp st /\ ssReached st' = ssReached st) \/
    exists m n, sa_try svd X y nSweeps cost rf k (ri k mod mcols X)%nat m n st = Ok (st', b).
  Proof using.
    intros k st st' b H. unfold sa_step in H.
    destruct (Nat.eqb_spec (mcols X) 0) as [|Hc]; [discriminate|].
    apply bind_ok in H. destruct H as (cu & _ & H).
    destruct (NumFeatures cu =? 0)%nat.
    - apply bind_ok in H. destruct H as (cu2 & _ & H). eauto.
    - destruct (mrows X / 2 <=? NumFeatures cu)%nat; [|eauto].
      apply bind_ok in H. destruct H as (cu2 & _ & H). injection H as <- <-. left. cbn. auto 10.
  Qed.

  Lemma try_sched : forall k index m n st st' b d h pre,
    SchedInv st false d h pre ->
    sa_try svd X y nSweeps cost rf k index m n st = Ok (st', b) ->
    length (ssEval st') = S (length (ssEval st)) /\
    exists d' h' pre', SchedInv st' b d' h' pre' /\ (ssReached st' = true -> pre' = pre /\ d' = d).
  Proof using Hs.
    intros k index m n st st' b d h pre I H. apply try_shape in H.
    destruct H as (c & s & st1 & _ & H & E1 & E2 & E4 & E5 & E3).
    destruct (temper_sched st1 st st' b d h pre I) as (F & G); auto.
    { rewrite E1. discriminate. }
    { rewrite E1. reflexivity. }
    { rewrite E3. destruct (_ || _); [right|left]; lia. }
    rewrite F, E1. split; [reflexivity|exact G].
  Qed.

  Lemma step_sched : forall k st st' b d h pre,
    SchedInv st false d h pre ->
    sa_step svd X y nSweeps cost ri rf k st = Ok (st', b) ->
    exists d' h' pre', SchedInv st' b d' h' pre' /\ (ssReached st' = true -> pre' = pre /\ d' = d).
  Proof using Hs.
    intros k st st' b d h pre I H. apply step_cases in H.
    destruct H as [(-> & E1 & E2 & E3 & E4 & E5)|(m & n & H)].
    - exists d, h, pre. split; [|auto].
      destruct I; constructor; try rewrite E1; try rewrite E2; try rewrite E3; try rewrite E4; try rewrite E5; assumption.
    - eapply try_sched in H; [|exact I]. apply H.
  Qed.

  Lemma init_sched : forall st, sa_init X = Ok st -> SchedInv st false 0 0 0 /\ ssReached st = false /\ ssEval st = [].
  Proof using Hs.
    intros st H. unfold sa_init in H. apply bind_ok in H. destruct H as (cur & E & H). injection H as <-.
    unfold setn in E. rewrite repeat_length in E.
    destruct (Nat.ltb_spec 0 (mcols X)) as [Hc|]; [|discriminate]. split; [|split; reflexivity].
    constructor; cbn [ssEval ssNumSteps ssNumAccept ssTemp ssReached length]; auto; try discriminate; unfold W, nc; try lia; try nia.
  Qed.

  Lemma run_sched : forall k st b, sa_run svd X y nSweeps cost ri rf k st b ->
    exists d h pre, SchedInv st b d h pre.
  Proof using Hs.
    intros k st b R. induction R as [st H|k st st' b' R IH H].
    - exists 0%nat, 0%nat, 0%nat. apply init_sched; assumption.
    - destruct IH as (d & h & pre & I). destruct (step_sched _ _ _ _ _ _ _ I H) as (d' & h' & pre' & I' & _). eauto.
  Qed.

  (** before the end of the first sweep of a level nothing is decided *)
  Lemma temper_early : forall st st' b, (0 < ssNumSteps st < nc)%Z -> sa_temper X nSweeps st = (st', b) ->
    ssNumSteps st' = ssNumSteps st /\ ssNumAccept st' = ssNumAccept st /\ ssReached st' = ssReached st.
  Proof using Hs.
    intros st st' b Hn H. unfold sa_temper in H. fold nc in H.
    destruct (Z.eqb_spec (Z.rem (ssNumSteps st) nc) 0) as [Hz|Hz].
    - rewrite Z.rem_small in Hz by lia. lia.
    - destruct (Z.leb_spec (nc * nSweeps) (ssNumSteps st)) as [Hw|Hw]; [nia|]. injection H as <- <-. auto.
  Qed.

  Lemma temper_sweep : forall st st' b, (0 < nc)%Z -> ssNumSteps st = nc ->
    nltb (ndec 5 (-1)) (nofZ (ssNumAccept st) / nofZ (ssNumSteps st) : N)%num = true ->
    sa_temper X nSweeps st = (st', b) -> ssReached st' = true.
  Proof using.
    intros st st' b Hp Hn Hr H. unfold sa_temper in H. fold nc in H. rewrite Hr, orb_true_r in H.
    rewrite Hn, Z.rem_same in H by lia. cbn [Z.eqb] in H.
    destruct (nc * nSweeps <=? nc)%Z; [destruct (_ && _)%bool|]; injection H as <- <-; reflexivity.
  Qed.
End Sched.

(** ** When the loop ends *)

Section Returns.
  Variable N : Num.
  Hypothesis L : OrdLaws N.
  Variable svd : Mat N -> SVD N.
  Variable X : Mat N.
  Variable y : list N.
  Variable nSweeps : Z.
  Variable cost : Z -> Z -> N -> N.
  Variable ri : nat -> nat.
  Variable rf : nat -> N.
  Variable tempOK : N -> Prop.
  Hypothesis temp0 : tempOK (nofZ 500).
  Hypothesis temp2 : forall t, tempOK t -> tempOK (t * nofZ 2)%num.
  Hypothesis temph : forall t, tempOK t ->
    nltb (t * ndec 5 (-1))%num (ndec 1 (-12)) = false -> tempOK (t * ndec 5 (-1))%num.
  Hypothesis same_accept : forall t s k, tempOK t -> finite s = true ->
    nltb (rf k) (nexp (nneg (s - s) / t)%num) = true.
  Hypothesis Hcost : forall m, length m = mcols X ->
    (NumFeatures m = 1%nat \/ (1 <= NumFeatures m < mrows X / 2)%nat) ->
    exists c s, sa_cost svd X y cost m (Z.of_nat (NumFeatures m)) = Ok (c, s) /\
      finite s = true /\ nltb s nmaxf = true.

  Lemma cost_okR : forall m c s, length m = mcols X ->
    (NumFeatures m = 1%nat \/ (1 <= NumFeatures m < mrows X / 2)%nat) ->
    sa_cost svd X y cost m (Z.of_nat (NumFeatures m)) = Ok (c, s) -> finite s = true /\ nltb s nmaxf = true.
  Proof using Hcost.
    intros m c s Hm Hn E. destruct (Hcost m Hm Hn) as (c' & s' & E' & B). rewrite E' in E. injection E as <- <-. exact B.
  Qed.

  Lemma run_invR : forall k st b, sa_run svd X y nSweeps cost ri rf k st b ->
    LInv N svd X y cost st /\ (b = false -> tempOK (ssTemp st)) /\ (b = true -> ssAcc st <> []).
  Proof using L temp0 temp2 temph same_accept Hcost.
    intros k st b R. eapply (run_inv N L svd X y nSweeps cost ri rf tempOK); eauto. exact cost_okR.
  Qed.

  Lemma try_ok : forall st k index m, LInv N svd X y cost st -> length m = mcols X -> (index < mcols X)%nat ->
    (NumFeatures m = 1%nat \/ (1 <= NumFeatures m < mrows X / 2)%nat) ->
    exists st' b, sa_try svd X y nSweeps cost rf k index m (Z.of_nat (NumFeatures m)) st = Ok (st', b).
  Proof using L Hcost.
    intros st k index m I Hm Hi Hn. destruct (Hcost m Hm Hn) as (c & s & Ec & Hf & _).
    assert (Hsn := finite_nan N s Hf).
    assert (Hcl := sa_cost_length _ _ _ _ _ _ _ _ _ Ec).
    unfold sa_try. rewrite Ec. cbn [bind].
    destruct (_ || _)%bool.
    - unfold NewSAItem. rewrite selected_loop_eq. cbn [bind].
      cbn [siSelection siCoeff]. rewrite <- Hcl, go_copy_full.
      change (mkSAItem (sel_from 0 m) c (nneg s)) with (item_of N (m, c, s)).
      destruct (sinv_step N L _ _ (item_of N (m, c, s)) (li_list _ _ _ _ _ _ I)) as (sc & Esc & _).
      { cbn [item_of siScore]. rewrite (ol_nan_neg L). exact Hsn. }
      rewrite Esc. cbn [bind]. destruct (sa_temper _ _ _) as [a b]. eauto.
    - rewrite flip_at_ok by lia. cbn [bind]. destruct (sa_temper _ _ _) as [a b]. eauto.
  Qed.

  (** a pass never fails; it evaluates a model or leaves the current one, and
      when it proposes to remove a feature it evaluates *)
  Lemma step_ok : forall st k, (0 < mcols X)%nat -> LInv N svd X y cost st ->
    exists st' b, sa_step svd X y nSweeps cost ri rf k st = Ok (st', b) /\
      (nth (ri k mod mcols X) (ssCurrent st) false = true -> length (ssEval st') = S (length (ssEval st))) /\
      (length (ssEval st') = S (length (ssEval st)) \/
       (length (ssEval st') = length (ssEval st) /\ ssCurrent st' = ssCurrent st /\ b = false)).
  Proof using L Hcost.
    intros st k Hc I. assert (Hl := li_len _ _ _ _ _ _ I). assert (Hnf := li_nf _ _ _ _ _ _ I).
    assert (Htry : forall m, length m = mcols X -> (NumFeatures m = 1%nat \/ (1 <= NumFeatures m < mrows X / 2)%nat) ->
      exists st' b, sa_try svd X y nSweeps cost rf k (ri k mod mcols X) m (Z.of_nat (NumFeatures m)) st = Ok (st', b) /\
        length (ssEval st') = S (length (ssEval st))).
    { intros m Hm Hn. destruct (try_ok st k (ri k mod mcols X) m I Hm) as (st' & b & E); [apply Nat.mod_upper_bound; lia|exact Hn|].
      exists st', b. split; [exact E|]. apply try_shape in E. destruct E as (c & s & st1 & _ & Et & E1 & _).
      assert (E2 : ssEval st' = ssEval st1).
      { unfold sa_temper in Et.
        destruct (if (Z.rem (ssNumSteps st1) (Z.of_nat (mcols X)) =? 0)%Z then _ else _) as [rr tt].
        destruct (Z.leb _ _); [destruct (_ && _)%bool|]; injection Et as <- <-; reflexivity. }
      rewrite E2, E1. reflexivity. }
    unfold sa_step. destruct (Nat.eqb_spec (mcols X) 0) as [|_]; [lia|].
    set (index := (ri k mod mcols X)%nat) in *.
    assert (Hi : (index < mcols X)%nat) by (apply Nat.mod_upper_bound; lia).
    rewrite flip_at_ok by lia. cbn [bind].
    assert (Hfl := NumFeatures_flipped (ssCurrent st) index ltac:(lia)).
    destruct (Nat.eqb_spec (NumFeatures (flipped (ssCurrent st) index)) 0) as [Hz|Hz].
    - rewrite flip_at_ok by (rewrite flipped_length; lia). cbn [bind].
      rewrite flipped_flipped by lia.
      assert (H1 : NumFeatures (ssCurrent st) = 1%nat) by (apply (flipped_zero _ index); [lia|exact Hz]).
      destruct (Htry (ssCurrent st) Hl (or_introl H1)) as (st' & b & E & El). rewrite H1 in E.
      exists st', b. split; [exact E|]. auto.
    - destruct (Nat.leb_spec (mrows X / 2) (NumFeatures (flipped (ssCurrent st) index))) as [Hb|Hb].
      + rewrite flip_at_ok by (rewrite flipped_length; lia). cbn [bind].
        rewrite flipped_flipped by lia. eexists _, false. split; [reflexivity|]. cbn [ssEval ssCurrent].
        split; [|right; auto]. intro Hn. exfalso. rewrite Hn in Hfl. lia.
      + destruct (Htry (flipped (ssCurrent st) index)) as (st' & b & E & El); [rewrite flipped_length; lia|lia|].
        exists st', b. split; [exact E|]. auto.
  Qed.

  (** ... so a bound on the number of evaluations and a proposal to remove a
      feature every now and then are enough for the loop to end *)
  Lemma loop_ends : forall B : nat, (0 < mcols X)%nat ->
    (forall k st b, sa_run svd X y nSweeps cost ri rf k st b -> (length (ssEval st) <= B)%nat) ->
    (forall k st, sa_run svd X y nSweeps cost ri rf k st false ->
       exists j, nth (ri (k + j) mod mcols X) (ssCurrent st) false = true) ->
    forall k st, sa_run svd X y nSweeps cost ri rf k st false ->
    exists fuel st', sa_loop svd X y nSweeps cost ri rf fuel k st = Ok st'.
  Proof using L temp0 temp2 temph same_accept Hcost.
    intros B Hc HB Hfair.
    assert (G : forall n k st, sa_run svd X y nSweeps cost ri rf k st false -> (S B - length (ssEval st) <= n)%nat ->
      exists fuel st', sa_loop svd X y nSweeps cost ri rf fuel k st = Ok st').
    { induction n as [|n IH]; intros k st R Hn.
      - pose proof (HB _ _ _ R). lia.
      - destruct (Hfair _ _ R) as (j & Hj). revert k st R Hn Hj.
        induction j as [|j IHj]; intros k st R Hn Hj;
          (destruct (run_invR _ _ _ R) as (I & _);
           destruct (step_ok st k Hc I) as (st' & b & E & E1 & E2);
           assert (R' := sa_run_S svd X y nSweeps cost ri rf _ _ _ _ R E);
           destruct b; [exists 1%nat, st'; cbn [sa_loop]; rewrite E; reflexivity|]).
        + rewrite Nat.add_0_r in Hj. destruct (IH (S k) st' R') as (f & st2 & F); [specialize (E1 Hj); lia|].
          exists (S f), st2. cbn [sa_loop]. rewrite E. exact F.
        + destruct E2 as [E2|(E2 & E3 & _)].
          * destruct (IH (S k) st' R') as (f & st2 & F); [lia|].
            exists (S f), st2. cbn [sa_loop]. rewrite E. exact F.
          * destruct (IHj (S k) st' R') as (f & st2 & F); [lia| |].
            { rewrite E3. replace (S k + j)%nat with (k + S j)%nat by lia. exact Hj. }
            exists (S f), st2. cbn [sa_loop]. rewrite E. exact F. }
    intros k st R. eapply G; [exact R|apply Nat.le_refl].
  Qed.

  Lemma select_ends : forall B : nat, (0 < mcols X)%nat ->
    (forall k st b, sa_run svd X y nSweeps cost ri rf k st b -> (length (ssEval st) <= B)%nat) ->
    (forall k st, sa_run svd X y nSweeps cost ri rf k st false ->
       exists j, nth (ri (k + j) mod mcols X) (ssCurrent st) false = true) ->
    exists fuel r k st, SelectModelSA svd X y nSweeps cost ri rf fuel = Ok (r, st) /\
      sa_run svd X y nSweeps cost ri rf k st true.
  Proof using L temp0 temp2 temph same_accept Hcost.
    intros B Hc HB Hfair.
    assert (E0 : exists st0, sa_init X = Ok st0).
    { unfold sa_init. rewrite setn_lt by (rewrite repeat_length; exact Hc). cbn [bind]. eauto. }
    destruct E0 as (st0 & E0).
    assert (R0 := sa_run_0 svd X y nSweeps cost ri rf st0 E0).
    destruct (loop_ends B Hc HB Hfair _ _ R0) as (fuel & st & E).
    destruct (sa_loop_run _ _ _ _ _ _ _ _ _ _ _ _ R0 E) as (k & R).
    destruct (run_invR _ _ _ R) as (I & _).
    assert (Er : exists r, sa_result st = Ok r).
    { unfold sa_result, slice_to. rewrite (li_coeff _ _ _ _ _ _ I).
      assert (Hle := NumFeatures_le_length (ssCurrent st)). rewrite (li_len _ _ _ _ _ _ I) in Hle.
      destruct (_ || _)%bool eqn:Eb.
      - exfalso. apply orb_prop in Eb. destruct Eb as [Eb|Eb]; apply Z.ltb_lt in Eb; lia.
      - cbn [bind]. rewrite selected_loop_eq. cbn [bind]. eauto. }
    destruct Er as (r & Er). exists fuel, r, k, st. split; [|exact R].
    unfold SelectModelSA. rewrite E0. cbn [bind]. rewrite E. cbn [bind]. rewrite Er. reflexivity.
  Qed.

  (** ** At most five rows: the model of the first feature, over and over *)

  Section Small.
    Hypothesis Hs : (1 <= nSweeps)%Z.
    Hypothesis Hsmall : (mrows X <= 5)%nat.
    Hypothesis rate_one : nltb (ndec 5 (-1)) (nofZ (Z.of_nat (mcols X)) / nofZ (Z.of_nat (mcols X)) : N)%num = true.

    Let nc := Z.of_nat (mcols X).
    Let W := (nc * nSweeps)%Z.

    Record Warm (st : SASt N) (b : bool) (h : nat) : Prop := mkWarm {
      wm_sched : SchedInv N X nSweeps st b 0 h 0;
      wm_acc : ssNumAccept st = ssNumSteps st;
      wm_no : ssReached st = false -> (ssNumSteps st < nc)%Z
    }.

    Lemma run_smallR : forall k st b, sa_run svd X y nSweeps cost ri rf k st b ->
      ssCurrent st = upd (repeat false (mcols X)) 0 true /\
      forall m n s, In (m, n, s) (ssEval st) -> m = upd (repeat false (mcols X)) 0 true.
    Proof using L temp0 temp2 temph same_accept Hcost Hsmall.
      intros k st b R. eapply (run_small N L svd X y nSweeps cost ri rf tempOK); eauto. exact cost_okR.
    Qed.

    Lemma small_accept : forall k0 st k index m n st' b, sa_run svd X y nSweeps cost ri rf k0 st false ->
      sa_run svd X y nSweeps cost ri rf (S k0) st' b ->
      sa_try svd X y nSweeps cost rf k index m n st = Ok (st', b) ->
      exists st1, sa_temper X nSweeps st1 = (st', b) /\ length (ssEval st1) = S (length (ssEval st)) /\
        ssEval st' = ssEval st1 /\
        ssNumSteps st1 = (ssNumSteps st + 1)%Z /\ ssNumAccept st1 = (ssNumAccept st + 1)%Z /\
        ssTemp st1 = ssTemp st /\ ssReached st1 = ssReached st.
    Proof using L temp0 temp2 temph same_accept Hcost Hsmall.
      intros k0 st k index m n st' b R R' H. apply try_shape in H.
      destruct H as (c & s & st1 & Ec & Et & E1 & E2 & E3 & E4 & E5).
      assert (Eev : ssEval st' = ssEval st1).
      { unfold sa_temper in Et.
        destruct (if (Z.rem (ssNumSteps st1) (Z.of_nat (mcols X)) =? 0)%Z then _ else _) as [rr tt].
        destruct (Z.leb _ _); [destruct (_ && _)%bool|]; injection Et as <- <-; reflexivity. }
      destruct (run_invR _ _ _ R) as (I & HT & _). specialize (HT eq_refl).
      destruct (run_invR _ _ _ R') as (I' & _).
      destruct (li_eval _ _ _ _ _ _ I' m n s) as (G1 & G2 & G3 & _); [rewrite Eev, E1; left; reflexivity|].
      destruct (run_smallR _ _ _ R') as (_ & Sm). specialize (Sm m n s). rewrite Eev, E1 in Sm. specialize (Sm (or_introl eq_refl)).
      rewrite G2 in Ec. destruct (cost_okR m c s G1 G3 Ec) as (Hf & Hx).
      assert (Ha : nltb s (ssScore st) || nltb (rf k) (nexp (nneg (s - ssScore st) / ssTemp st)%num) = true).
      { assert (Sc := li_score _ _ _ _ _ _ I). destruct (ssAcc st) as [|[[m1 c1] s1] rest] eqn:Ea.
        - destruct Sc as (-> & _). rewrite Hx. reflexivity.
        - destruct Sc as (F1 & F2 & _). destruct (li_acc _ _ _ _ _ _ I m1 c1 s1) as (_ & _ & A3 & _); [rewrite Ea; left; reflexivity|].
          destruct (run_smallR _ _ _ R) as (Cu & _). rewrite F1 in Cu. rewrite Cu, <- Sm, Ec in A3.
          assert (Es : s1 = s) by congruence. rewrite F2, Es. rewrite (same_accept _ _ k HT Hf). apply orb_true_r. }
      rewrite Ha in E5. exists st1. rewrite E1. cbn [length]. rewrite <- E1. auto 10.
    Qed.

    Lemma step_warm : forall k st st' b h, sa_run svd X y nSweeps cost ri rf k st false ->
      Warm st false h -> sa_step svd X y nSweeps cost ri rf k st = Ok (st', b) ->
      exists h', Warm st' b h'.
    Proof using L temp0 temp2 temph same_accept Hcost Hsmall Hs rate_one.
      intros k st st' b h R H0 H. assert (R' := sa_run_S _ _ _ _ _ _ _ _ _ _ _ R H).
      assert (Hsd := wm_sched _ _ _ H0). assert (Wa := wm_acc _ _ _ H0). assert (Wn := wm_no _ _ _ H0).
      assert (Hnc := sc_nc _ _ _ _ _ _ _ _ Hsd). fold nc in Hnc.
      assert (HW : (nc <= W)%Z) by (unfold W; nia).
      destruct (step_sched N svd X y nSweeps cost ri rf Hs k st st' b 0 h 0 Hsd H) as (d' & h' & pre' & Hsd' & Hpre).
      destruct (step_cases _ _ _ _ _ _ _ _ _ _ _ _ H) as [(-> & E1 & E2 & E3 & E4 & E5)|(m & n & Ht)].
      - exists h. constructor.
        + destruct Hsd; constructor; try rewrite E1; try rewrite E2; try rewrite E3; try rewrite E4; try rewrite E5; assumption.
        + congruence.
        + rewrite E5, E2. exact Wn.
      - destruct (small_accept _ _ _ _ _ _ _ _ R R' Ht) as (st1 & Et & E1 & Ev & E2 & E3 & E4 & E5).
        assert (A1 := sc_acc _ _ _ _ _ _ _ _ Hsd). assert (A2 := sc_acc _ _ _ _ _ _ _ _ Hsd').
        assert (A3 := sc_cont _ _ _ _ _ _ _ _ Hsd eq_refl). fold nc in A3. fold W in A3.
        assert (Hacc : ssNumAccept st' = ssNumSteps st').
        { unfold sa_temper in Et. 
          destruct (if (Z.rem (ssNumSteps st1) (Z.of_nat (mcols X)) =? 0)%Z then _ else _) as [rr tt].
          destruct (Z.leb _ _); [|injection Et as <- <-; cbn; lia].
          destruct (Z.eqb_spec (ssNumAccept st1) 0) as [|_]; [lia|]. cbn [andb] in Et. injection Et as <- <-. reflexivity. }
        destruct (ssReached st') eqn:Er.
        + destruct (Hpre eq_refl) as (-> & ->). exists h'. constructor; [exact Hsd'|exact Hacc|congruence].
        + assert (Hn1 : (ssNumSteps st1 < nc)%Z).
          { assert (Hr0 : ssReached st = false).
            { destruct (ssReached st) eqn:Er0; [|reflexivity]. exfalso.
              unfold sa_temper in Et. rewrite E5 in Et. cbn [orb] in Et.
              destruct (Z.rem _ _ =? 0)%Z; (destruct (_ <=? _)%Z; [destruct (_ && _)%bool|]);
                injection Et as <- <-; cbn [ssReached] in Er; congruence. }
            specialize (Wn Hr0). destruct (Z.eq_dec (ssNumSteps st1) nc) as [En|En]; [|lia]. exfalso.
            rewrite (temper_sweep N X nSweeps st1 st' b) in Er; auto; [discriminate|fold nc; lia|].
            rewrite E3, Wa, <- E2, En. exact rate_one. }
          assert (Hr0 : ssReached st = false).
          { destruct (temper_early N X nSweeps Hs st1 st' b) as (_ & _ & G); auto; [fold nc; lia|]. congruence. }
          destruct (sc_no _ _ _ _ _ _ _ _ Hsd Hr0) as (-> & _).
          assert (El := sc_eval _ _ _ _ _ _ _ _ Hsd). cbn [Nat.add] in El.
          destruct (sc_no _ _ _ _ _ _ _ _ Hsd' Er) as (-> & Ed).
          assert (El' := sc_eval _ _ _ _ _ _ _ _ Hsd'). rewrite Nat.add_0_r in El'. fold nc in El', El, Ed. fold W in El', El.
          rewrite Ev, E1 in El', Ed. rewrite Z.div_small in Ed by lia.
          assert (pre' = 0%nat) by nia. assert (d' = 0%nat) by lia. subst pre' d'.
          exists 0%nat. constructor; [exact Hsd'|exact Hacc|intros _; lia].
    Qed.

    Lemma run_warm : forall k st b, sa_run svd X y nSweeps cost ri rf k st b -> exists h, Warm st b h.
    Proof using L temp0 temp2 temph same_accept Hcost Hsmall Hs rate_one.
      intros k st b R. induction R as [st H|k st st' b' R IH H].
      - destruct (init_sched N X nSweeps Hs st H) as (S0 & Hr & He). exists 0%nat.
        assert (E := sc_eval _ _ _ _ _ _ _ _ S0). assert (E2 := sc_acc _ _ _ _ _ _ _ _ S0).
        assert (Hnc := sc_nc _ _ _ _ _ _ _ _ S0). fold nc in Hnc. rewrite He in E. cbn in E.
        constructor; [exact S0|lia|intros _; lia].
      - destruct IH as (h & I). eapply step_warm; eauto.
    Qed.

    Variable hmax : nat.
    Hypothesis Hpos : (0 < hmax)%nat.
    Hypothesis Hcold : nltb (ladder N 0 hmax) (ndec 1 (-12)) = true.
    Hypothesis Hhot : forall h, (h < hmax)%nat -> nltb (ladder N 0 h) (ndec 1 (-12)) = false.

    Lemma small_count : forall k st b, sa_run svd X y nSweeps cost ri rf k st b ->
      (Z.of_nat (length (ssEval st)) <= Z.of_nat hmax * W)%Z /\
      (b = true -> Z.of_nat (length (ssEval st)) = (Z.of_nat hmax * W)%Z).
    Proof using L temp0 temp2 temph same_accept Hcost Hsmall Hs rate_one Hpos Hcold Hhot.
      intros k st b R. destruct (run_warm _ _ _ R) as (h & H0).
      assert (Hsd := wm_sched _ _ _ H0). assert (Wa := wm_acc _ _ _ H0). assert (Wn := wm_no _ _ _ H0).
      assert (Hnc := sc_nc _ _ _ _ _ _ _ _ Hsd). fold nc in Hnc.
      assert (HW : (nc <= W)%Z) by (unfold W; nia).
      assert (El := sc_eval _ _ _ _ _ _ _ _ Hsd). cbn [Nat.add] in El. fold nc in El. fold W in El.
      assert (Es := sc_steps _ _ _ _ _ _ _ _ Hsd). fold nc in Es. fold W in Es.
      assert (E2 : (h <= hmax)%nat).
      { destruct (Nat.le_gt_cases h hmax) as [|Hg]; [assumption|exfalso].
        rewrite (sc_more1 _ _ _ _ _ _ _ _ Hsd hmax) in Hcold by lia. discriminate. }
      destruct b.
      - destruct (sc_end _ _ _ _ _ _ _ _ Hsd eq_refl) as [(_ & A1 & A2)|(A1 & A2)].
        { fold nc in A2. fold W in A2. lia. }
        rewrite (sc_temp _ _ _ _ _ _ _ _ Hsd) in A2.
        assert (h = hmax). { destruct (Nat.eq_dec h hmax) as [|Hne]; [assumption|]. rewrite Hhot in A2 by lia. discriminate. }
        subst h. rewrite A1 in El. split; [lia|intros _; lia].
      - split; [|discriminate].
        assert (E3 : (h < hmax)%nat).
        { destruct (Nat.eq_dec h hmax) as [->|]; [|lia].
          rewrite (sc_more _ _ _ _ _ _ _ _ Hsd eq_refl) in Hcold by lia. discriminate. }
        nia.
    Qed.
  End Small.
End Returns.

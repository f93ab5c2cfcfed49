(** Invariant of the loop of SelectModelSA. *)
From Coq Require Import Floats.SpecFloat.
From Verif Require Import Base Num Mat Model_Node Model_Util Model_Fit Model_SA
  Proof_Node Proof_Node2 Proof_Models Proof_Util Proof_SA.

(** The states SelectModelSA passes through: [sa_run k st b] after k passes,
    [b] true when the last one executed [break]. *)
Inductive sa_run {N : Num} (svd : Mat N -> SVD N) (X : Mat N) (y : list N) (nSweeps : Z)
  (cost : Z -> Z -> N -> N) (ri : nat -> nat) (rf : nat -> N) : nat -> SASt N -> bool -> Prop :=
| sa_run_0 : forall st, sa_init X = Ok st -> sa_run svd X y nSweeps cost ri rf 0 st false
| sa_run_S : forall k st st' b, sa_run svd X y nSweeps cost ri rf k st false ->
    sa_step svd X y nSweeps cost ri rf k st = Ok (st', b) ->
    sa_run svd X y nSweeps cost ri rf (S k) st' b.

Lemma sa_loop_run : forall (N : Num) svd (X : Mat N) y nSweeps cost ri rf fuel k st st',
  sa_run svd X y nSweeps cost ri rf k st false ->
  sa_loop svd X y nSweeps cost ri rf fuel k st = Ok st' ->
  exists k', sa_run svd X y nSweeps cost ri rf k' st' true.
Proof.
  intros N svd X y nSweeps cost ri rf. induction fuel as [|f IH]; intros k st st' R H; [discriminate|].
  cbn [sa_loop] in H. apply bind_ok in H. destruct H as ([st1 b] & E & H). cbn [fst snd] in H.
  destruct b.
  - injection H as <-. exists (S k). eapply sa_run_S; eauto.
  - eapply IH; [|exact H]. eapply sa_run_S; eauto.
Qed.

(** ** flipping one position *)

Lemma upd_upd : forall A (l : list A) i a b, upd (upd l i a) i b = upd l i b.
Proof. induction l as [|x l IH]; intros [|i] a b; cbn; auto. rewrite IH; reflexivity. Qed.

Lemma upd_same : forall A (l : list A) i d, (i < length l)%nat -> upd l i (nth i l d) = l.
Proof.
  induction l as [|x l IH]; intros [|i] d H; cbn in *; try lia; auto. rewrite IH by lia. reflexivity.
Qed.

Definition flipped (m : list bool) (i : nat) : list bool := upd m i (negb (nth i m false)).

Lemma flip_at_ok : forall m i, (i < length m)%nat -> flip_at m i = Ok (flipped m i).
Proof.
  intros m i H. unfold flip_at, flipped. rewrite (getn_lt _ m i false H). cbn [bind].
  apply setn_lt; exact H.
Qed.

Lemma flipped_flipped : forall m i, (i < length m)%nat -> flipped (flipped m i) i = m.
Proof.
  intros m i H. unfold flipped. rewrite upd_upd, nth_upd, Nat.eqb_refl.
  replace (i <? length m)%nat with true by (symmetry; apply Nat.ltb_lt; exact H).
  rewrite negb_involutive. apply upd_same; exact H.
Qed.

Lemma flipped_length : forall m i, length (flipped m i) = length m.
Proof. intros; apply upd_length. Qed.

Lemma NumFeatures_flipped : forall m i, (i < length m)%nat ->
  NumFeatures (flipped m i) = if nth i m false then pred (NumFeatures m) else S (NumFeatures m).
Proof.
  unfold flipped. induction m as [|b m IH]; intros [|i] H; cbn [length] in H; try lia.
  - cbn [nth upd]. rewrite !NumFeatures_cons. destruct b; reflexivity.
  - cbn [nth upd]. rewrite !NumFeatures_cons, IH by lia.
    destruct (nth i m false) eqn:E; destruct b; try lia.
    assert (NumFeatures m <> 0%nat); [|lia].
    intro C. assert (Hin : In true m) by (rewrite <- E; apply nth_In; lia).
    apply in_split in Hin. destruct Hin as (l1 & l2 & ->).
    rewrite NumFeatures_app, NumFeatures_cons in C. lia.
Qed.

Lemma NumFeatures_nth : forall m i, nth i m false = true -> (1 <= NumFeatures m)%nat.
Proof.
  induction m as [|b m IH]; intros [|i] H; cbn in H; try discriminate;
    rewrite NumFeatures_cons; subst; [lia|].
  apply IH in H. destruct b; lia.
Qed.

Lemma flipped_zero : forall m i, (i < length m)%nat -> NumFeatures (flipped m i) = 0%nat ->
  NumFeatures m = 1%nat.
Proof.
  intros m i H E. rewrite (NumFeatures_flipped m i H) in E.
  destruct (nth i m false) eqn:En; [|discriminate].
  apply NumFeatures_nth in En. lia.
Qed.

Lemma sel_from_inj : forall a b, length a = length b -> sel_from 0 a = sel_from 0 b -> a = b.
Proof.
  intros a b Hl E. assert (A := set_true_roundtrip a). assert (B := set_true_roundtrip b).
  rewrite E, Hl in A. congruence.
Qed.

(** ** lengths *)

Lemma for_loop_setn_length : forall A n a (f : nat -> res A) (l l' : list A),
  for_loop a n (fun i x => do v <- f i; setn x i v) l = Ok l' -> length l' = length l.
Proof.
  induction n as [|n IH]; intros a f l l' H; cbn [for_loop] in H; [congruence|].
  apply bind_ok in H. destruct H as (l1 & E & H). apply IH in H. rewrite H.
  apply bind_ok in E. destruct E as (v & _ & E). unfold setn in E.
  destruct (a <? length l)%nat; [|discriminate]. injection E as <-. apply upd_length.
Qed.

Lemma Fit_length : forall (N : Num) svd (X : Mat N) y c, Fit svd X y = Ok c -> length c = mcols X.
Proof.
  intros N svd X y c H. unfold Fit in H.
  destruct (negb (mrows X =? length y)%nat); [discriminate|].
  destruct (length y =? 0)%nat; [discriminate|].
  apply bind_ok in H. destruct H as (m1 & _ & H).
  apply bind_ok in H. destruct H as (m2 & _ & H).
  apply bind_ok in H. destruct H as (m3 & _ & H).
  apply for_loop_setn_length in H. rewrite H. apply repeat_length.
Qed.

Lemma sa_cost_length : forall (N : Num) svd (X : Mat N) y cost m n c s,
  sa_cost svd X y cost m n = Ok (c, s) -> length c = NumFeatures m.
Proof.
  intros N svd X y cost m n c s H. unfold sa_cost in H.
  apply bind_ok in H. destruct H as (D & HD & H).
  apply bind_ok in H. destruct H as (c' & HF & H).
  apply bind_ok in H. destruct H as (rss & HR & H). injection H as <- <-.
  rewrite (Fit_length _ _ _ _ _ HF).
  destruct (Nat.eq_dec (mrows X) 0) as [Hz|Hz].
  - exfalso. unfold GetDesignMatrix, new_dense in HD. rewrite Hz in HD.
    destruct (NumFeatures m =? 0)%nat; cbn in HD; discriminate.
  - apply (design_spec N m X) in HD; [|lia]. tauto.
Qed.

(** ** The invariant *)

Section Loop.
  Variable N : Num.
  Hypothesis L : OrdLaws N.
  Variable svd : Mat N -> SVD N.
  Variable X : Mat N.
  Variable y : list N.
  Variable nSweeps : Z.
  Variable cost : Z -> Z -> N -> N.
  Variable ri : nat -> nat.
  Variable rf : nat -> N.

  (** facts about the arithmetic, proved for binary64 below *)
  Variable tempOK : N -> Prop.
  Hypothesis temp0 : tempOK (nofZ 500).
  Hypothesis temp2 : forall t, tempOK t -> tempOK (t * nofZ 2)%num.
  Hypothesis temph : forall t, tempOK t ->
    nltb (t * ndec 5 (-1))%num (ndec 1 (-12)) = false -> tempOK (t * ndec 5 (-1))%num.
  Hypothesis same_accept : forall t s k, tempOK t -> finite s = true ->
    nltb (rf k) (nexp (nneg (s - s) / t)%num) = true.

  (** the costs of the models that can be proposed are finite and below MaxFloat64 *)
  Hypothesis cost_ok : forall m c s, length m = mcols X ->
    (NumFeatures m = 1%nat \/ (1 <= NumFeatures m < mrows X / 2)%nat) ->
    sa_cost svd X y cost m (Z.of_nat (NumFeatures m)) = Ok (c, s) ->
    finite s = true /\ nltb s nmaxf = true.

  Definition item_of (a : list bool * list N * N) : SAItem N :=
    let '(m, c, s) := a in mkSAItem (sel_from 0 m) c (nneg s).

  Record LInv (st : SASt N) : Prop := mkLInv {
    li_len : length (ssCurrent st) = mcols X;
    li_nf : NumFeatures (ssCurrent st) = 1%nat \/ (1 <= NumFeatures (ssCurrent st) < mrows X / 2)%nat;
    li_coeff : length (ssCoeff st) = mcols X;
    li_score : match ssAcc st with
               | [] => ssScore st = nmaxf /\ ssEval st = [] /\ ssCurrent st = upd (repeat false (mcols X)) 0 true
               | (m, c, s) :: _ => ssCurrent st = m /\ ssScore st = s /\
                   firstn (NumFeatures m) (ssCoeff st) = c
               end;
    li_acc : forall m c s, In (m, c, s) (ssAcc st) -> length m = mcols X /\
      (NumFeatures m = 1%nat \/ (1 <= NumFeatures m < mrows X / 2)%nat) /\
      sa_cost svd X y cost m (Z.of_nat (NumFeatures m)) = Ok (c, s) /\
      In (m, Z.of_nat (NumFeatures m), s) (ssEval st);
    li_eval : forall m n s, In (m, n, s) (ssEval st) -> length m = mcols X /\
      n = Z.of_nat (NumFeatures m) /\
      (NumFeatures m = 1%nat \/ (1 <= NumFeatures m < mrows X / 2)%nat) /\
      (exists c, sa_cost svd X y cost m n = Ok (c, s)) /\
      (exists m' c' s', In (m', c', s') (ssAcc st) /\ le s' s);
    li_cap : saCap (ssScores st) = 10%Z;
    li_list : SInv N (ssScores st) (map item_of (rev (ssAcc st)))
  }.

  Lemma finite_nan : forall s : N, finite s = true -> nisnan s = false.
  Proof.
    intros s H. unfold finite in H. apply andb_prop in H. destruct H as [H _].
    apply andb_prop in H. destruct H as [H _]. apply negb_true_iff in H. exact H.
  Qed.

  Lemma linv_init : forall st, sa_init X = Ok st -> LInv st /\ tempOK (ssTemp st).
  Proof.
    intros st H. unfold sa_init in H. apply bind_ok in H. destruct H as (cur & E & H).
    injection H as <-. unfold setn in E. rewrite repeat_length in E.
    destruct (Nat.ltb_spec 0 (mcols X)) as [Hc|]; [|discriminate]. injection E as <-.
    split; [|exact temp0].
    constructor; cbn [ssCurrent ssScore ssCoeff ssAcc ssEval ssScores]; try (intros; contradiction).
    - rewrite upd_length, repeat_length. reflexivity.
    - left. destruct (mcols X) as [|n]; [lia|]. cbn [repeat upd]. rewrite NumFeatures_cons, NumFeatures_repeat. reflexivity.
    - apply repeat_length.
    - auto.
    - reflexivity.
    - apply sinv_init.
  Qed.

  Lemma temper_keep : forall st st' b, LInv st -> tempOK (ssTemp st) ->
    sa_temper X nSweeps st = (st', b) -> LInv st' /\ (b = false -> tempOK (ssTemp st')) /\
    ssAcc st' = ssAcc st /\ ssCurrent st' = ssCurrent st.
  Proof.
    intros st st' b I HT H. unfold sa_temper in H.
    set (P := if (Z.rem (ssNumSteps st) (Z.of_nat (mcols X)) =? 0)%Z then
          let reached := ssReached st || nltb (ndec 5 (-1)) (nofZ (ssNumAccept st) / nofZ (ssNumSteps st))%num in
          (reached, if reached then ssTemp st else (ssTemp st * nofZ 2)%num)
        else (ssReached st, ssTemp st)) in H.
    assert (HP : tempOK (snd P)).
    { unfold P. destruct (_ =? 0)%Z; [|exact HT]. cbv zeta. cbn [snd].
      destruct (_ || _); [exact HT|apply temp2; exact HT]. }
    destruct P as [reached temp]. cbn [snd] in HP.
    destruct (Z.leb _ _).
    - destruct (_ && _)%bool.
      + injection H as <- <-. split; [destruct I; constructor; assumption|].
        split; [discriminate|]. split; reflexivity.
      + injection H as <- <-. split; [destruct I; constructor; assumption|].
        split; [|split; reflexivity]. cbn [ssTemp]. intro E.
        destruct reached; [apply temph; assumption|exact HP].
    - injection H as <- <-. split; [destruct I; constructor; assumption|].
      split; [intros _; exact HP|split; reflexivity].
  Qed.

  Lemma det_acc : forall st, LInv st -> score_det N (map item_of (rev (ssAcc st))).
  Proof.
    intros st I a b Ha Hb E.
    apply in_map_iff in Ha. destruct Ha as ([[ma ca] sa] & <- & Ha).
    apply in_map_iff in Hb. destruct Hb as ([[mb cb] sb] & <- & Hb).
    rewrite <- in_rev in Ha, Hb. cbn [item_of siSelection siScore] in *.
    destruct (li_acc _ I _ _ _ Ha) as (La & _ & Ca & _).
    destruct (li_acc _ I _ _ _ Hb) as (Lb & _ & Cb & _).
    assert (ma = mb) by (apply sel_from_inj; congruence). subst mb. congruence.
  Qed.

  (** evaluating a model [m] reached from the state *)
  Lemma try_keep : forall st k index m n st' b, LInv st -> tempOK (ssTemp st) ->
    length m = mcols X -> (index < mcols X)%nat -> n = Z.of_nat (NumFeatures m) ->
    (NumFeatures m = 1%nat \/ (1 <= NumFeatures m < mrows X / 2)%nat) ->
    (m = ssCurrent st \/ m = flipped (ssCurrent st) index) ->
    sa_try svd X y nSweeps cost rf k index m n st = Ok (st', b) ->
    LInv st' /\ (b = false -> tempOK (ssTemp st')) /\ ssAcc st' <> [] /\
    (m = ssCurrent st -> ssCurrent st' = m).
  Proof.
    intros st k index m n st' b I HT Hm Hi Hn Hnf Hor H. unfold sa_try in H.
    apply bind_ok in H. destruct H as ([c s] & HC & H).
    assert (HC' := HC). rewrite Hn in HC'. destruct (cost_ok _ _ _ Hm Hnf HC') as [Hfin Hmax]. clear HC'.
    assert (Hsn := finite_nan s Hfin).
    assert (Hcl := sa_cost_length _ _ _ _ _ _ _ _ _ HC).
    set (accept := nltb s (ssScore st) || nltb (rf k) (nexp (nneg (s - ssScore st) / ssTemp st)%num)) in H.
    (* a rejected model is not the current one, and something was accepted before *)
    assert (Hacc : accept = false -> m = flipped (ssCurrent st) index /\ ssAcc st <> [] /\ le (ssScore st) s).
    { unfold accept. intro E. apply orb_false_elim in E. destruct E as [E1 E2].
      assert (Hne : ssAcc st <> []).
      { intro C. assert (S := li_score _ I). rewrite C in S. destruct S as (S & _).
        rewrite S in E1. congruence. }
      destruct Hor as [-> | Hor]; [|split; [exact Hor|split; [exact Hne|exact E1]]].
      exfalso. destruct (ssAcc st) as [|[[m0 c0] s0] t] eqn:Ea; [congruence|].
      assert (S := li_score _ I). rewrite Ea in S. destruct S as (S1 & S2 & _).
      destruct (li_acc _ I m0 c0 s0) as (_ & _ & C0 & _); [rewrite Ea; left; reflexivity|].
      rewrite <- S1, <- Hn, HC in C0. assert (s0 = s) by congruence.
      rewrite S2, H0 in E2. rewrite same_accept in E2 by assumption. discriminate. }
    apply bind_ok in H. destruct H as (st1 & H1 & H). injection H as H.
    enough (LInv st1 /\ tempOK (ssTemp st1) /\ ssAcc st1 <> [] /\ (m = ssCurrent st -> ssCurrent st1 = m))
      as (A & B & C & C').
    { destruct (temper_keep _ _ _ A B H) as (D1 & D2 & D3 & D4). rewrite D3, D4. auto. }
    destruct accept eqn:Ea.
    - (* accepted *)
      apply bind_ok in H1. destruct H1 as (it0 & E0 & H1). unfold NewSAItem in E0.
      rewrite selected_loop_eq in E0. cbn [bind] in E0. injection E0 as <-.
      cbn [siSelection siCoeff] in H1. rewrite <- Hcl, go_copy_full in H1.
      change (mkSAItem (sel_from 0 m) c (nneg s)) with (item_of (m, c, s)) in H1.
      destruct (sinv_step N L _ _ (item_of (m, c, s)) (li_list _ I)) as (sc & Esc & Ecap & Isc).
      { cbn [item_of siScore]. rewrite (ol_nan_neg L). exact Hsn. }
      rewrite Esc in H1. cbn [bind] in H1. injection H1 as <-.
      cbn [ssAcc ssTemp ssCurrent]. split; [|split; [exact HT|split; [discriminate|reflexivity]]].
      constructor; cbn [ssCurrent ssScore ssCoeff ssAcc ssEval ssScores].
      + exact Hm.
      + exact Hnf.
      + unfold go_copy. rewrite app_length, firstn_length, skipn_length.
        assert (Hle := NumFeatures_le_length m). assert (Hc := li_coeff _ I). lia.
      + split; [reflexivity|]. split; [reflexivity|]. unfold go_copy.
        assert (Hle := NumFeatures_le_length m). assert (Hc := li_coeff _ I).
        rewrite firstn_all2 with (n := length (ssCoeff st)) by lia.
        rewrite <- Hcl, firstn_app, Nat.sub_diag, firstn_all. cbn [firstn]. apply app_nil_r.
      + intros m' c' s' [E|Hin].
        * injection E as <- <- <-. split; [exact Hm|]. split; [exact Hnf|].
          rewrite <- Hn. split; [exact HC|]. left; reflexivity.
        * destruct (li_acc _ I _ _ _ Hin) as (A1 & A2 & A3 & A4). repeat split; try assumption.
          right; exact A4.
      + intros m' n' s' [E|Hin].
        * injection E as <- <- <-. split; [exact Hm|]. split; [exact Hn|]. split; [exact Hnf|].
          split; [exists c; exact HC|]. exists m, c, s. split; [left; reflexivity|apply (le_refl L)].
        * destruct (li_eval _ I _ _ _ Hin) as (A1 & A2 & A3 & A4 & (m2 & c2 & s2 & A5 & A6)).
          repeat split; try assumption. exists m2, c2, s2. split; [right; exact A5|exact A6].
      + rewrite Ecap. apply (li_cap _ I).
      + cbn [rev]. rewrite map_app. exact Isc.
    - (* rejected *)
      destruct (Hacc eq_refl) as (Hfl & Hne & Hle).
      rewrite (flip_at_ok m index) in H1 by (rewrite Hm; exact Hi). cbn [bind] in H1.
      rewrite Hfl, flipped_flipped in H1 by (rewrite (li_len _ I); exact Hi).
      injection H1 as <-. cbn [ssAcc ssTemp ssCurrent].
      split; [|split; [exact HT|split; [exact Hne|intros Em; symmetry; exact Em]]].
      constructor; cbn [ssCurrent ssScore ssCoeff ssAcc ssEval ssScores]; try (destruct I; assumption).
      + assert (S := li_score _ I). destruct (ssAcc st) as [|[[m0 c0] s0] t]; [congruence|exact S].
      + intros m' c' s' Hin. destruct (li_acc _ I _ _ _ Hin) as (A1 & A2 & A3 & A4).
        repeat split; try assumption. right; exact A4.
      + intros m' n' s' [E|Hin].
        * injection E as E1 E2 E3. subst m' n' s'.
          split; [rewrite <- Hfl; exact Hm|]. rewrite <- Hfl.
          split; [exact Hn|]. split; [exact Hnf|].
          split; [exists c; exact HC|].
          destruct (ssAcc st) as [|[[m0 c0] s0] t] eqn:Ea'; [congruence|].
          assert (S := li_score _ I). rewrite Ea' in S. destruct S as (_ & S & _).
          exists m0, c0, s0. split; [left; reflexivity|]. rewrite <- S. exact Hle.
        * exact (li_eval _ I _ _ _ Hin).
  Qed.

  Lemma step_keep : forall st k st' b, LInv st -> tempOK (ssTemp st) ->
    sa_step svd X y nSweeps cost ri rf k st = Ok (st', b) ->
    LInv st' /\ (b = false -> tempOK (ssTemp st')) /\ (b = true -> ssAcc st' <> []).
  Proof.
    intros st k st' b I HT H. unfold sa_step in H.
    destruct (Nat.eqb_spec (mcols X) 0) as [|Hc]; [discriminate|].
    set (index := (ri k mod mcols X)%nat) in H.
    assert (Hi : (index < mcols X)%nat) by (apply Nat.mod_upper_bound; exact Hc).
    assert (Hl := li_len _ I).
    rewrite flip_at_ok in H by lia. cbn [bind] in H.
    destruct (Nat.eqb_spec (NumFeatures (flipped (ssCurrent st) index)) 0) as [Hz|Hz].
    - rewrite flip_at_ok in H by (rewrite flipped_length; lia). cbn [bind] in H.
      rewrite flipped_flipped in H by lia.
      assert (H1 : NumFeatures (ssCurrent st) = 1%nat) by (apply (flipped_zero _ index); [lia|exact Hz]).
      destruct (try_keep _ _ _ _ _ _ _ I HT Hl Hi (f_equal Z.of_nat (eq_sym H1)) (or_introl H1) (or_introl eq_refl) H)
        as (A & B & C & _). auto.
    - destruct (Nat.leb_spec (mrows X / 2) (NumFeatures (flipped (ssCurrent st) index))) as [Hb|Hb].
      + rewrite flip_at_ok in H by (rewrite flipped_length; lia). cbn [bind] in H.
        rewrite flipped_flipped in H by lia. injection H as <- <-.
        split; [destruct I; constructor; assumption|]. split; [intros _; exact HT|discriminate].
      + assert (Hfl : length (flipped (ssCurrent st) index) = mcols X) by (rewrite flipped_length; lia).
        assert (Hnf : (1 <= NumFeatures (flipped (ssCurrent st) index) < mrows X / 2)%nat) by lia.
        destruct (try_keep _ _ _ _ _ _ _ I HT Hfl Hi eq_refl (or_intror Hnf) (or_intror eq_refl) H)
          as (A & B & C & _). auto.
  Qed.

  Lemma run_inv : forall k st b, sa_run svd X y nSweeps cost ri rf k st b ->
    LInv st /\ (b = false -> tempOK (ssTemp st)) /\ (b = true -> ssAcc st <> []).
  Proof.
    intros k st b R. induction R as [st H|k st st' b R IH H].
    - apply linv_init in H. destruct H. split; [assumption|]. split; [auto|discriminate].
    - destruct IH as (I & HT & _). eapply step_keep; eauto.
  Qed.

  (** with at most five rows the model never changes *)
  Lemma run_small : (mrows X <= 5)%nat -> forall k st b, sa_run svd X y nSweeps cost ri rf k st b ->
    ssCurrent st = upd (repeat false (mcols X)) 0 true /\
    forall m n s, In (m, n, s) (ssEval st) -> m = upd (repeat false (mcols X)) 0 true.
  Proof.
    intros Hr k st b R. induction R as [st H|k st st' b R IH H].
    - unfold sa_init in H. apply bind_ok in H. destruct H as (cur & E & H).
      injection H as <-. unfold setn in E. destruct (0 <? _)%nat; [|discriminate]. injection E as <-.
      split; [reflexivity|intros m n s []].
    - destruct IH as (Hcur & Hev). destruct (run_inv _ _ _ R) as (I & HT & _). specialize (HT eq_refl).
      unfold sa_step in H.
      destruct (Nat.eqb_spec (mcols X) 0) as [|Hc]; [discriminate|].
      set (index := (ri k mod mcols X)%nat) in H.
      assert (Hi : (index < mcols X)%nat) by (apply Nat.mod_upper_bound; exact Hc).
      assert (Hl := li_len _ I).
      rewrite flip_at_ok in H by lia. cbn [bind] in H.
      assert (Hr2 : (mrows X / 2 < 3)%nat) by (apply Nat.div_lt_upper_bound; lia).
      assert (H1 : NumFeatures (ssCurrent st) = 1%nat) by (destruct (li_nf _ I); lia).
      destruct (Nat.eqb_spec (NumFeatures (flipped (ssCurrent st) index)) 0) as [Hz|Hz].
      + rewrite flip_at_ok in H by (rewrite flipped_length; lia). cbn [bind] in H.
        rewrite flipped_flipped in H by lia.
        destruct (try_keep _ _ _ _ _ _ _ I HT Hl Hi (f_equal Z.of_nat (eq_sym H1)) (or_introl H1) (or_introl eq_refl) H)
          as (_ & _ & _ & C). split; [rewrite (C eq_refl); exact Hcur|].
        intros m n s Hin. unfold sa_try in H.
        apply bind_ok in H. destruct H as ([c s0] & _ & H).
        apply bind_ok in H. destruct H as (st1 & H & Ht). injection Ht as Ht.
        assert (E1 : ssEval st' = ssEval st1).
        { unfold sa_temper in Ht.
          destruct (if (Z.rem (ssNumSteps st1) (Z.of_nat (mcols X)) =? 0)%Z then _ else _) as [rr tt].
          destruct (Z.leb _ _); [destruct (_ && _)%bool|]; injection Ht as <- <-; reflexivity. }
        assert (E2 : ssEval st1 = (ssCurrent st, 1%Z, s0) :: ssEval st).
        { destruct (_ || _).
          - apply bind_ok in H. destruct H as (it & _ & H). apply bind_ok in H. destruct H as (sc & _ & H).
            injection H as <-. reflexivity.
          - apply bind_ok in H. destruct H as (cu & _ & H). injection H as <-. reflexivity. }
        rewrite E1, E2 in Hin. destruct Hin as [E|Hin]; [|eapply Hev; exact Hin].
        injection E as <- _ _. exact Hcur.
      + assert (Hf := NumFeatures_flipped (ssCurrent st) index).
        destruct (Nat.leb_spec (mrows X / 2) (NumFeatures (flipped (ssCurrent st) index))) as [Hb|Hb].
        * rewrite flip_at_ok in H by (rewrite flipped_length; lia). cbn [bind] in H.
          rewrite flipped_flipped in H by lia. injection H as <- <-. auto.
        * exfalso. rewrite Hf in * by lia. rewrite H1 in *. destruct (nth index (ssCurrent st) false); lia.
  Qed.
End Loop.

(** ** The temperatures in binary64: 500 * 2^k, or +Inf *)

Definition temp_m : positive := (500 * 2 ^ 44)%positive.
Definition temp_ok (t : f64) : Prop :=
  t = S754_infinity false \/ exists e, (-92 <= e <= 971)%Z /\ t = S754_finite false temp_m e.

Definition sf_is (m : positive) (e : Z) (x : f64) : bool :=
  match x with S754_finite false m' e' => Pos.eqb m m' && Z.eqb e e' | _ => false end.
Lemma sf_is_true : forall m e x, sf_is m e x = true -> x = S754_finite false m e.
Proof.
  intros m e [s|s| |[] m' e'] H; try discriminate. cbn in H. apply andb_prop in H.
  destruct H as [A B]. apply Pos.eqb_eq in A. apply Z.eqb_eq in B. subst. reflexivity.
Qed.

Definition zrange (a : Z) (n : nat) : list Z := map (fun k => a + Z.of_nat k)%Z (seq 0 n).
Lemma in_zrange : forall a n e, (a <= e < a + Z.of_nat n)%Z -> In e (zrange a n).
Proof.
  intros a n e H. unfold zrange. apply in_map_iff. exists (Z.to_nat (e - a)).
  split; [lia|]. apply in_seq. lia.
Qed.

Lemma temps_double : forallb (fun e => sf_is temp_m (e + 1)
  (SFmul fprec femax (S754_finite false temp_m e) (f64_ofZ 2))) (zrange (-92) 1063) = true.
Proof. vm_compute. reflexivity. Qed.

Lemma temps_half : forallb (fun e => sf_is temp_m (e - 1)
  (SFmul fprec femax (S754_finite false temp_m e) (f64_dec 5 (-1)))) (zrange (-92) 1064) = true.
Proof. vm_compute. reflexivity. Qed.

Lemma temps_stop : SFltb (S754_finite false temp_m (-93)) (f64_dec 1 (-12)) = true.
Proof. vm_compute. reflexivity. Qed.

Lemma temps_top : SFmul fprec femax (S754_finite false temp_m 971) (f64_ofZ 2) = S754_infinity false.
Proof. vm_compute. reflexivity. Qed.

Lemma temp_ok_500 : temp_ok (f64_ofZ 500).
Proof. right. exists (-44)%Z. split; [lia|]. vm_compute. reflexivity. Qed.

Lemma temp_ok_2 : forall t, temp_ok t -> temp_ok (SFmul fprec femax t (f64_ofZ 2)).
Proof.
  intros t [->|(e & He & ->)].
  - left. vm_compute. reflexivity.
  - destruct (Z.eq_dec e 971) as [->|Hne]; [left; exact temps_top|].
    right. exists (e + 1)%Z. split; [lia|]. apply sf_is_true.
    assert (H := temps_double). rewrite forallb_forall in H. apply H. apply in_zrange. lia.
Qed.

Lemma temp_ok_half : forall t, temp_ok t ->
  SFltb (SFmul fprec femax t (f64_dec 5 (-1))) (f64_dec 1 (-12)) = false ->
  temp_ok (SFmul fprec femax t (f64_dec 5 (-1))).
Proof.
  intros t [->|(e & He & ->)] H.
  - left. vm_compute. reflexivity.
  - assert (E : SFmul fprec femax (S754_finite false temp_m e) (f64_dec 5 (-1)) = S754_finite false temp_m (e - 1)).
    { apply sf_is_true. assert (H' := temps_half). rewrite forallb_forall in H'. apply H'.
      apply in_zrange. lia. }
    rewrite E in *. destruct (Z.eq_dec e (-92)) as [->|Hne].
    + exfalso. change (-92 - 1)%Z with (-93)%Z in H. rewrite temps_stop in H. discriminate.
    + right. exists (e - 1)%Z. split; [lia|reflexivity].
Qed.

Lemma same_accept_f64 : forall (o : fenv) (r t s : f64),
  (forall b, o_exp o (S754_zero b) = f64_ofZ 1) -> SFltb r (f64_ofZ 1) = true ->
  temp_ok t -> finite (N := F64 o) s = true ->
  SFltb r (o_exp o (SFdiv fprec femax (SFopp (SFsub fprec femax s s)) t)) = true.
Proof.
  intros o r t s He Hr Ht Hs.
  assert (Z : exists b, SFsub fprec femax s s = S754_zero b).
  { destruct s as [b|b| |b m e].
    - destruct b; eexists; reflexivity.
    - destruct b; vm_compute in Hs; discriminate.
    - vm_compute in Hs. discriminate.
    - unfold SFsub. cbv zeta. rewrite Z.sub_diag. exists false. reflexivity. }
  destruct Z as (b & ->).
  assert (D : exists b', SFdiv fprec femax (SFopp (S754_zero b)) t = S754_zero b').
  { destruct Ht as [->|(e & _ & ->)]; eexists; reflexivity. }
  destruct D as (b' & ->). rewrite He. exact Hr.
Qed.
(** ** NaN costs: nothing is ever accepted and the loop never ends *)
Section NaN.
  Variable o : fenv.
  Notation N := (F64 o).
  Variable svd : Mat N -> SVD N.
  Variable X : Mat N.
  Variable y : list N.
  Variable nSweeps : Z.
  Variable cost : Z -> Z -> N -> N.
  Variable ri : nat -> nat.
  Variable rf : nat -> N.
  Hypothesis exp_nan : o_exp o S754_nan = S754_nan.
  Hypothesis cost_nan : forall m n, length m = mcols X -> NumFeatures m <> 0%nat ->
    exists c s, sa_cost svd X y cost m n = Ok (c, s) /\ nisnan s = true.

  Definition stuck (st : SASt N) : Prop :=
    length (ssCurrent st) = mcols X /\ ssNumAccept st = 0%Z /\ ssReached st = false /\
    (exists e, temp_ok e /\ ssTemp st = e).


  Lemma div_zero_l : forall d : f64, SFltb (f64_dec 5 (-1)) (SFdiv fprec femax (f64_ofZ 0) d) = false.
  Proof. intros [s|s| |s m e]; try (destruct s); vm_compute; reflexivity. Qed.

  Lemma temp_ok_stop : forall t, temp_ok t -> SFltb t (f64_dec 1 (-12)) = false.
  Proof.
    intros t [->|(e & He & ->)]; [vm_compute; reflexivity|].
    assert (H : forallb (fun e => negb (SFltb (S754_finite false temp_m e) (f64_dec 1 (-12)))) (zrange (-92) 1064) = true)
      by (vm_compute; reflexivity).
    rewrite forallb_forall in H. assert (Hin : In e (zrange (-92) 1064)) by (apply in_zrange; lia).
    specialize (H e Hin).
    apply negb_true_iff in H. exact H.
  Qed.

  Lemma stuck_try : forall st k index m n, stuck st -> length m = mcols X -> (index < mcols X)%nat ->
    NumFeatures m <> 0%nat ->
    exists st', sa_try svd X y nSweeps cost rf k index m n st = Ok (st', false) /\ stuck st' /\
      ssAcc st' = ssAcc st.
  Proof.
    intros st k index m n (H1 & H2 & H3 & t & H4 & H5) Hm Hi Hnf.
    destruct (cost_nan m n Hm Hnf) as (c & s & E & Hs). unfold sa_try. rewrite E. cbn [bind].
    assert (Es : s = S754_nan) by (destruct s; try discriminate; reflexivity). subst s.
    assert (EA : nltb (n := N) S754_nan (ssScore st)
      || nltb (rf k) (nexp (nneg (nsub (n := N) S754_nan (ssScore st)) / ssTemp st)%num) = false).
    { apply orb_false_intro; [apply (ol_nan_l (f64_OrdLaws o)); reflexivity|].
      apply (ol_nan_r (f64_OrdLaws o)).
      change (nisnan (n := N) (o_exp o S754_nan) = true). rewrite exp_nan. reflexivity. }
    rewrite EA. rewrite flip_at_ok by lia. cbn [bind].
    unfold sa_temper. cbn [ssNumAccept ssNumSteps ssReached ssTemp ssCurrent ssScore ssCoeff ssScores ssEval ssAcc].
    rewrite H2, H3. cbn [orb].
    assert (ED : nltb (n := N) (ndec 5 (-1)) (nofZ 0 / nofZ (ssNumSteps st + 1))%num = false)
      by apply div_zero_l.
    rewrite ED.
    set (P := if (Z.rem (ssNumSteps st + 1) (Z.of_nat (mcols X)) =? 0)%Z
              then (false, (ssTemp st * nofZ 2)%num) else (false, ssTemp st)).
    assert (EP : P = (false, snd P)) by (unfold P; destruct (_ =? 0)%Z; reflexivity).
    assert (HT : temp_ok (snd P)).
    { unfold P. rewrite H5. destruct (_ =? 0)%Z; [apply temp_ok_2; exact H4|exact H4]. }
    destruct P as [r t'] eqn:EPP. cbn [snd] in *. injection EP as ->.
    cbn [andb]. rewrite andb_false_r.
    destruct (Z.leb _ _).
    - eexists. split; [|split].
      + f_equal. f_equal. apply temp_ok_stop; exact HT.
      + repeat split; cbn; auto. rewrite flipped_length; exact Hm. exists t'; auto.
      + reflexivity.
    - eexists. split; [reflexivity|]. split; [|reflexivity].
      repeat split; cbn; auto. rewrite flipped_length; exact Hm. exists t'; auto.
  Qed.

  Lemma stuck_step : forall st k, (0 < mcols X)%nat -> stuck st ->
    exists st', sa_step svd X y nSweeps cost ri rf k st = Ok (st', false) /\ stuck st' /\ ssAcc st' = ssAcc st.
  Proof.
    intros st k Hc S. assert (Hl := proj1 S). unfold sa_step.
    destruct (Nat.eqb_spec (mcols X) 0) as [|_]; [lia|].
    set (index := (ri k mod mcols X)%nat).
    assert (Hi : (index < mcols X)%nat) by (apply Nat.mod_upper_bound; lia).
    rewrite flip_at_ok by lia. cbn [bind].
    destruct (Nat.eqb_spec (NumFeatures (flipped (ssCurrent st) index)) 0) as [Hz|Hz].
    - rewrite flip_at_ok by (rewrite flipped_length; lia). cbn [bind].
      rewrite flipped_flipped by lia.
      apply stuck_try; auto. rewrite (flipped_zero (ssCurrent st) index) by (auto; lia). lia.
    - destruct (Nat.leb_spec (mrows X / 2) (NumFeatures (flipped (ssCurrent st) index))) as [Hb|Hb].
      + rewrite flip_at_ok by (rewrite flipped_length; lia). cbn [bind].
        rewrite flipped_flipped by lia.
        eexists. split; [reflexivity|]. split; [exact S|reflexivity].
      + apply stuck_try; auto. rewrite flipped_length; exact Hl.
  Qed.

  Lemma stuck_loop : forall fuel st k, (0 < mcols X)%nat -> stuck st ->
    sa_loop svd X y nSweeps cost ri rf fuel k st = Fuel.
  Proof.
    induction fuel as [|f IH]; intros st k Hc S; [reflexivity|]. cbn [sa_loop].
    destruct (stuck_step st k Hc S) as (st' & E & S' & _). rewrite E. cbn [bind fst snd].
    apply IH; assumption.
  Qed.

  Lemma nan_never_returns : forall fuel, (0 < mcols X)%nat ->
    SelectModelSA svd X y nSweeps cost ri rf fuel = Fuel.
  Proof.
    intros fuel Hc. unfold SelectModelSA, sa_init. rewrite setn_lt by (rewrite repeat_length; exact Hc).
    cbn [bind]. rewrite stuck_loop; [reflexivity|exact Hc|].
    repeat split; cbn; auto.
    - rewrite upd_length, repeat_length. reflexivity.
    - eexists. split; [|reflexivity]. exact temp_ok_500.
  Qed.
End NaN.

(** C96: simulated annealing against the exhaustive search. *)
From Coq Require Import Reals Lra Lia List Permutation Sorted.
From Verif Require Import Base Num Mat RSum Model_Node Model_Util Model_Fit Model_SA Model_Search Spec_Fit Spec_Subset.
From Verif Require Import Proof_Node Proof_Node2 Proof_Models Proof_Util Proof_XR Proof_Norm Proof_Fit Proof_Fit2 Proof_SA Proof_SA2.
From Verif Require Import Proof_Search Proof_Search2 Proof_Search3 Proof_Search4 Proof_Search5 Proof_Subset Props_Search Props_Fit Props_EndToEnd Props_Subset.
From Verif Require Import Props_SA Proof_Anneal Proof_Anneal2 Proof_Anneal3 Props_Anneal Props_Strict.
Import ListNotations.

(** ** Proofs *)

(** a property of selection and score that every item ever inserted has *)
Section Heap.
  Variables (N : Num) (P : list Z -> N -> Prop).
  Definition all_items (s : SAScore N) : Prop :=
    (forall e, In e (saHeap s) -> P (siSelection e) (siScore e)) /\ forall p, In p (saItems s) -> (p < length (saHeap s))%nat.

  Lemma getn_In : forall A (l : list A) i a, getn l i = Ok a -> In a l.
  Proof. intros A l i a H. unfold getn in H. destruct (nth_error l i) eqn:E; [|discriminate]. injection H as <-. exact (nth_error_In _ _ E). Qed.

  Lemma insert_items : forall s p s', all_items s -> saInsert s p = Ok s' -> all_items s'.
  Proof.
    intros s p s' H E. unfold saInsert in E. apply bind_ok in E. destruct E as (ex & _ & E). destruct ex; [injection E as <-; exact H|].
    apply bind_ok in E. destruct E as (it & Eit & E). destruct H as (H & HI).
    assert (Lp : (p < length (saHeap s))%nat) by (unfold getn in Eit; apply nth_error_Some; destruct (nth_error (saHeap s) p); congruence).
    apply getn_In in Eit.
    assert (HI' : forall q, In q (saItems s ++ [p]) -> (q < length (saHeap s))%nat)
      by (intros q Hq; apply in_app_or in Hq; destruct Hq as [Hq|[<-|[]]]; auto).
    destruct (_ =? 0)%Z; [injection E as <-; split; assumption|].
    destruct (_ <? saCap s)%Z.
    - apply bind_ok in E. destruct E as (b & _ & E). apply bind_ok in E. destruct E as (w & _ & E). injection E as <-. split; assumption.
    - apply bind_ok in E. destruct E as (w & _ & E). destruct (nltb _ _); [|injection E as <-; split; assumption].
      apply bind_ok in E. destruct E as (heap & Eh & E). apply bind_ok in E. destruct E as (b & _ & E).
      apply bind_ok in E. destruct E as (it' & _ & E). apply bind_ok in E. destruct E as (st & _ & E). injection E as <-.
      unfold all_items. cbn [saHeap saItems]. destruct (saWorst s) as [q|]; [|discriminate Eh]. unfold setn in Eh.
      destruct (q <? length (saHeap s))%nat eqn:L; [|discriminate Eh]. injection Eh as <-. split; [|intros; rewrite upd_length; auto].
      intros e He. apply (In_nth _ _ it) in He. destruct He as (k & Hk & <-). rewrite upd_length in Hk. rewrite nth_upd, L.
      destruct (k =? q)%nat; cbn [siSelection siScore]; [apply (H _ Eit)|apply H, nth_In; exact Hk].
  Qed.

  Lemma insert_new_items : forall s it s', all_items s -> P (siSelection it) (siScore it) -> saInsertNew s it = Ok s' -> all_items s'.
  Proof.
    intros s it s' (H & HI) HP E. unfold saInsertNew in E. eapply insert_items; [|exact E]. split.
    - intros e He. cbn [saHeap] in He. apply in_app_or in He. destruct He as [He|[<-|[]]]; auto.
    - cbn [saHeap saItems]. intros q Hq. rewrite app_length. apply HI in Hq. lia.
  Qed.
End Heap.

(** what an entry of the annealing's list is *)
Definition sa_entry {N : Num} (svd : Mat N -> SVD N) (X : Mat N) (y : list N) (cost : Z -> Z -> N -> N) (sel : list Z) (score : N) : Prop :=
  exists m c s, proposable X m /\ SelectedFeatures m = Ok sel /\ fit_cost svd X y cost m c s /\ score = nneg s.

(** the current model between two passes: it is proposable, or empty (which
    happens after a rejected pass on a model with one feature, see C25) *)
Definition current_inv {N : Num} (X : Mat N) (m : list bool) : Prop :=
  length m = mcols X /\ (NumFeatures m = 0 \/ NumFeatures m = 1 \/ 1 <= NumFeatures m < mrows X / 2)%nat.

Lemma try_items : forall (N : Num) svd (X : Mat N) y nSweeps cost rf k st index m n r,
  all_items N (sa_entry svd X y cost) (ssScores st) ->
  (index < mcols X)%nat -> n = Z.of_nat (NumFeatures m) -> proposable X m ->
  sa_try svd X y nSweeps cost rf k index m n st = Ok r ->
  (ssCurrent (fst r) = m \/ ssCurrent (fst r) = flipped m index) /\ all_items N (sa_entry svd X y cost) (ssScores (fst r)).
Proof.
  intros N svd X y nSweeps cost rf k st index m n r HA Hi Hn Hp Et. unfold sa_try in Et. apply bind_ok in Et. destruct Et as ([c s] & Ec & Et).
  apply bind_ok in Et. destruct Et as (st1 & E1 & Et).
  assert (K : forall s0, ssCurrent (fst (sa_temper X nSweeps s0)) = ssCurrent s0 /\ ssScores (fst (sa_temper X nSweeps s0)) = ssScores s0).
  { intro s0. unfold sa_temper. destruct (_ =? 0)%Z; destruct (_ <=? _)%Z; auto; destruct (_ && _)%bool; auto. }
  assert (Er : r = sa_temper X nSweeps st1) by congruence. subst r. destruct (K st1) as (K1 & K2). rewrite K1, K2.
  destruct (nltb s (ssScore st) || _)%bool.
  - unfold NewSAItem in E1. rewrite selected_loop_eq in E1. cbn [bind siSelection siCoeff] in E1.
    apply bind_ok in E1. destruct E1 as (sc & Es & E1). injection E1 as <-. cbn [ssCurrent ssScores]. split; [left; reflexivity|].
    refine (insert_new_items N _ _ _ _ HA _ Es). cbn [siSelection siScore]. exists m, c, s. split; [exact Hp|].
    split; [unfold SelectedFeatures; rewrite selected_loop_eq; reflexivity|]. split; [|reflexivity]. apply fit_cost_eq. rewrite <- Hn. exact Ec.
  - rewrite flip_at_ok in E1 by (destruct Hp; lia). cbn [bind] in E1. injection E1 as <-. cbn [ssCurrent ssScores]. split; [right; reflexivity|exact HA].
Qed.

Lemma current_ok : forall (N : Num) svd (X : Mat N) y nSweeps cost ri rf k st b,
  sa_run svd X y nSweeps cost ri rf k st b ->
  current_inv X (ssCurrent st) /\ all_items N (sa_entry svd X y cost) (ssScores st).
Proof.
  intros N svd X y nSweeps cost ri rf k st b R. induction R as [st E|k st st' b R ((Lm & Cm) & HA) E].
  - unfold sa_init in E. apply bind_ok in E. destruct E as (cur & Ec & E). injection E as <-. cbn [ssCurrent ssScores].
    unfold setn in Ec. destruct (0 <? length (repeat false (mcols X)))%nat eqn:L; [|discriminate Ec]. injection Ec as <-.
    apply Nat.ltb_lt in L. rewrite repeat_length in L. split; [|split; [intros e []|intros p []]].
    split; [rewrite upd_length, repeat_length; reflexivity|]. right. left. destruct (mcols X) as [|n]; [lia|].
    cbn [repeat upd]. rewrite NumFeatures_cons.
    assert (Z : NumFeatures (repeat false n) = 0%nat) by (clear; induction n as [|n IH]; [reflexivity|]; cbn [repeat]; rewrite NumFeatures_cons; exact IH).
    rewrite Z. reflexivity.
  - unfold sa_step in E. destruct (mcols X =? 0)%nat eqn:Z0; [discriminate E|]. apply Nat.eqb_neq in Z0.
    set (index := (ri k mod mcols X)%nat) in *.
    assert (Hi : (index < mcols X)%nat) by (apply Nat.mod_upper_bound; lia).
    rewrite flip_at_ok in E by lia. cbn [bind] in E. rewrite flip_at_ok in E by (rewrite flipped_length; lia).
    rewrite flipped_flipped in E by lia. cbn [bind] in E.
    destruct (NumFeatures (flipped (ssCurrent st) index) =? 0)%nat eqn:Z1.
    + apply Nat.eqb_eq in Z1. assert (F1 : NumFeatures (ssCurrent st) = 1%nat) by (apply (flipped_zero _ index); [lia|exact Z1]).
      assert (HP : proposable X (ssCurrent st)) by (split; [exact Lm|]; rewrite <- nf_count; left; exact F1).
      destruct (try_items N svd X y nSweeps cost rf k st index _ 1%Z (st', b) HA Hi ltac:(rewrite F1; reflexivity) HP E) as (Q & QA).
      cbn [fst] in *. split; [|exact QA]. destruct Q as [-> | ->].
      * split; [exact Lm|exact Cm].
      * split; [rewrite flipped_length; exact Lm|]. left. exact Z1.
    + apply Nat.eqb_neq in Z1. destruct (mrows X / 2 <=? _)%nat eqn:Z2.
      * injection E as <- <-. cbn [ssCurrent ssScores]. split; [split; assumption|exact HA].
      * apply Nat.leb_gt in Z2.
        assert (HP : proposable X (flipped (ssCurrent st) index)).
        { split; [rewrite flipped_length; exact Lm|]. rewrite <- nf_count. right. lia. }
        destruct (try_items N svd X y nSweeps cost rf k st index _ _ (st', b) HA Hi eq_refl HP E) as (Q & QA).
        cbn [fst] in *. split; [|exact QA]. destruct Q as [-> | ->].
        -- split; [rewrite flipped_length; exact Lm|]. lia.
        -- rewrite flipped_flipped by lia. split; assumption.
Qed.

Lemma insert_nonempty : forall (N : Num) (s : SAScore N) it s', saInsertNew s it = Ok s' -> saItems s' <> [].
Proof.
  intros N s it s' E. unfold saInsertNew, saInsert in E. apply bind_ok in E. destruct E as (ex & Ex & E). unfold saExists in Ex. cbn [saHeap saItems saCap saBest saWorst] in E, Ex.
  apply bind_ok in Ex. destruct Ex as (it0 & _ & Ex).
  assert (HN : ex = true -> saItems s <> []) by (intros Ht Hn; rewrite Hn in Ex; injection Ex as <-; discriminate Ht).
  destruct ex; [injection E as <-; exact (HN eq_refl)|]. apply bind_ok in E. destruct E as (it1 & _ & E).
  destruct (Z.eqb_spec (Z.of_nat (length (saItems s))) 0) as [Z|Z].
  - injection E as <-. cbn [saItems]. intro C. apply app_eq_nil in C. destruct C; discriminate.
  - assert (Hne : saItems s <> []) by (intro C; rewrite C in Z; apply Z; reflexivity).
    destruct (_ <? saCap s)%Z.
    + apply bind_ok in E. destruct E as (b & _ & E). apply bind_ok in E. destruct E as (w & _ & E). injection E as <-.
      cbn [saItems]. intro C. apply app_eq_nil in C. destruct C; discriminate.
    + apply bind_ok in E. destruct E as (w & _ & E). destruct (nltb _ _); [|injection E as <-; exact Hne].
      apply bind_ok in E. destruct E as (h & _ & E). apply bind_ok in E. destruct E as (b & _ & E).
      apply bind_ok in E. destruct E as (i' & _ & E). apply bind_ok in E. destruct E as (st & _ & E). injection E as <-. exact Hne.
Qed.

(** real arithmetic: as long as nothing was accepted the temperature only rises *)
Definition warming (st : SASt XR) : Prop :=
  ssNumAccept st = 0%Z /\ ssReached st = false /\ exists t, ssTemp st = fin t /\ (500 <= t)%R.

Lemma temper_warming : forall (X : Mat XR) nSweeps st, warming st ->
  warming (fst (sa_temper X nSweeps st)) /\ snd (sa_temper X nSweeps st) = false.
Proof.
  intros X nSweeps st (H1 & H2 & t & Et & Ht).
  assert (Rt : nltb (n := XR) (ndec 5 (-1)) (nofZ (ssNumAccept st) / nofZ (ssNumSteps st))%num = false).
  { rewrite H1. change (nofZ (n := XR) 0) with (fin 0). change (nofZ (n := XR) (ssNumSteps st)) with (fin (IZR (ssNumSteps st))).
    destruct (Req_dec (IZR (ssNumSteps st)) 0) as [Z|Z].
    - rewrite Z. cbn. unfold xdiv, fin. rewrite (proj2 (Reqb_true 0 0) eq_refl). cbn. rewrite (proj2 (Rltb_false 0 0)) by lra. reflexivity.
    - rewrite xdiv_fin by exact Z. change (Rltb (IZR 5 / IZR (10 ^ 1)) (0 / IZR (ssNumSteps st)) = false). apply Rltb_false.
      unfold Rdiv. rewrite Rmult_0_l. change (10 ^ 1)%Z with 10%Z. lra. }
  assert (D : nltb (n := XR) (fin t) (ndec 1 (-12)) = false /\ nltb (n := XR) (fin (t * 2)) (ndec 1 (-12)) = false).
  { assert (Q : (IZR 1 / IZR (10 ^ 12) <= 1)%R).
    { assert (P : (1 <= IZR (10 ^ 12))%R) by (apply IZR_le; discriminate).
      apply (Rmult_le_reg_r (IZR (10 ^ 12))); [lra|]. unfold Rdiv. rewrite Rmult_assoc, Rinv_l by lra. lra. }
    split; [change (Rltb t (IZR 1 / IZR (10 ^ 12)) = false)|change (Rltb (t * 2) (IZR 1 / IZR (10 ^ 12)) = false)]; apply Rltb_false; lra. }
  destruct D as (D1 & D2).
  assert (M : nmul (n := XR) (fin t) (nofZ 2) = fin (t * 2)) by reflexivity.
  unfold sa_temper. rewrite H2, Rt, H1, Et, M. cbn [orb andb Z.eqb].
  destruct (Z.rem _ _ =? 0)%Z; destruct (_ <=? ssNumSteps st)%Z; cbn [fst snd]; (split; [split; [reflexivity|]; split; [reflexivity|]; eexists; split; [reflexivity|cbn [ssTemp]; lra]|]); auto.
Qed.

Lemma run_nonempty : forall svd (X : Mat XR) y nSweeps cost ri rf k st b, sa_run svd X y nSweeps cost ri rf k st b ->
  saItems (ssScores st) <> [] \/ (b = false /\ warming st).
Proof.
  intros svd X y nSweeps cost ri rf k st b R. induction R as [st E|k st st' b R IH E].
  - unfold sa_init in E. apply bind_ok in E. destruct E as (cur & Ec & E). injection E as <-. right. split; [reflexivity|].
    split; [reflexivity|]. split; [reflexivity|]. exists 500%R. split; [reflexivity|lra].
  - assert (T : forall index m n, sa_try svd X y nSweeps cost rf k index m n st = Ok (st', b) ->
      saItems (ssScores st') <> [] \/ b = false /\ warming st').
    { clear E. intros index m n Et. unfold sa_try in Et. apply bind_ok in Et. destruct Et as ([c s] & Ec & Et).
      apply bind_ok in Et. destruct Et as (st1 & E1 & Et).
      assert (K : ssScores (fst (sa_temper X nSweeps st1)) = ssScores st1).
      { unfold sa_temper. destruct (_ =? 0)%Z; destruct (_ <=? _)%Z; auto; destruct (_ && _)%bool; auto. }
      assert (Er : (st', b) = sa_temper X nSweeps st1) by congruence.
      assert (Er1 : st' = fst (sa_temper X nSweeps st1)) by (rewrite <- Er; reflexivity).
      assert (Er2 : b = snd (sa_temper X nSweeps st1)) by (rewrite <- Er; reflexivity). rewrite Er1, Er2, K. clear Er Er1 Er2.
      destruct (nltb s (ssScore st) || _)%bool.
      - apply bind_ok in E1. destruct E1 as (i0 & _ & E1). apply bind_ok in E1. destruct E1 as (sc & Es & E1). injection E1 as <-.
        left. exact (insert_nonempty _ _ _ _ Es).
      - apply bind_ok in E1. destruct E1 as (cu & _ & E1). injection E1 as <-. cbn [ssScores].
        destruct IH as [IH|(_ & IH)]; [left; exact IH|right].
        destruct (temper_warming X nSweeps (mkSASt cu (ssScore st) (ssCoeff st) (ssTemp st) (ssNumAccept st) (ssNumSteps st + 1) (ssReached st) (ssScores st) ((m, n, s) :: ssEval st) (ssAcc st))) as (W1 & W2); [exact IH|].
        split; assumption. }
    unfold sa_step in E. destruct (mcols X =? 0)%nat; [discriminate E|]. apply bind_ok in E. destruct E as (c1 & _ & E).
    destruct (_ =? 0)%nat; [apply bind_ok in E; destruct E as (c2 & _ & E); exact (T _ _ _ E)|].
    destruct (_ <=? _)%nat; [|exact (T _ _ _ E)]. apply bind_ok in E. destruct E as (c2 & _ & E). injection E as <- <-.
    destruct IH as [IH|(_ & IH)]; [left; exact IH|right; split; [reflexivity|exact IH]].
Qed.

(** ** C96 *)

(** Every entry of the list SelectModelSA returns, the best one included, is a
    set of one feature or of fewer than half as many features as there are
    rows, with the cost of its least squares fit (both arithmetics, any draws
    and any cost function). *)
Theorem C96_entries : forall (N : Num) svd (X : Mat N) y nSweeps cost ri rf fuel r st e,
  SelectModelSA svd X y nSweeps cost ri rf fuel = Ok (r, st) ->
  In e (saContents (srScores r)) \/ (exists p, saBest (srScores r) = Some p /\ nth_error (saHeap (srScores r)) p = Some e) ->
  exists m c s, proposable X m /\ SelectedFeatures m = Ok (siSelection e) /\ fit_cost svd X y cost m c s /\ siScore e = nneg s.
Proof.
  intros N svd X y nSweeps cost ri rf fuel r st e E He. unfold SelectModelSA in E.
  apply bind_ok in E. destruct E as (st0 & E0 & E). apply bind_ok in E. destruct E as (st1 & E1 & E).
  apply bind_ok in E. destruct E as (r' & Er & E). injection E as -> ->.
  destruct (sa_loop_run N svd X y nSweeps cost ri rf fuel 0 st0 st (sa_run_0 _ _ _ _ _ _ _ _ E0) E1) as (k & R).
  destruct (current_ok N svd X y nSweeps cost ri rf k st true R) as (_ & H & HI).
  unfold sa_result in Er. apply bind_ok in Er. destruct Er as (c1 & _ & Er). apply bind_ok in Er. destruct Er as (s1 & _ & Er).
  injection Er as <-. cbn [srScores] in He. apply H. destruct He as [He|(p & _ & He)]; [|exact (nth_error_In _ _ He)].
  unfold saContents in He. apply in_map_iff in He. destruct He as (p & <- & Hp). apply nth_In. auto.
Qed.
Print Assumptions C96_entries.

(** There is at least one entry (real arithmetic). *)
Theorem C96_nonempty : forall svd (X : Mat XR) y nSweeps cost ri rf fuel r st,
  SelectModelSA svd X y nSweeps cost ri rf fuel = Ok (r, st) -> exists e, In e (saContents (srScores r)).
Proof.
  intros svd X y nSweeps cost ri rf fuel r st E. unfold SelectModelSA in E.
  apply bind_ok in E. destruct E as (st0 & E0 & E). apply bind_ok in E. destruct E as (st1 & E1 & E).
  apply bind_ok in E. destruct E as (r' & Er & E). injection E as -> ->.
  destruct (sa_loop_run XR svd X y nSweeps cost ri rf fuel 0 st0 st (sa_run_0 _ _ _ _ _ _ _ _ E0) E1) as (k & R).
  unfold sa_result in Er. apply bind_ok in Er. destruct Er as (c1 & _ & Er). apply bind_ok in Er. destruct Er as (s1 & _ & Er).
  injection Er as <-. cbn [srScores]. unfold saContents.
  destruct (run_nonempty svd X y nSweeps cost ri rf k st true R) as [H|(H & _)]; [|discriminate H].
  destruct (saItems (ssScores st)) as [|p l]; [contradiction|]. eexists. left. reflexivity.
Qed.
Print Assumptions C96_nonempty.

Open Scope R_scope.
(** With the corrected AIC as cost no entry is better than what
    BruteForceSelect finds ... *)
Theorem C96_never_better : forall svd X A y nSweeps ri rf fuel r st e fit bnd maxq cutoff fuel' h,
  rmat X A -> (0 < mrows X)%nat -> length y = mrows X -> good_svd svd X -> no_exact_fit (mrows X) (mcols X) A y ->
  scored svd X y fit -> (1 <= mcols X)%nat -> (2 ^ S (mcols X) - 1 <= fuel')%nat ->
  BruteForceSelect (mkProblem (mrows X) (mcols X) fit bnd (repeat false (mcols X)) maxq cutoff) fuel' = Ok h ->
  SelectModelSA svd X (fins y) nSweeps Aicc ri rf fuel = Ok (r, st) ->
  In e (saContents (srScores r)) \/ (exists p, saBest (srScores r) = Some p /\ nth_error (saHeap (srScores r)) p = Some e) ->
  nleb (siScore e) (hsBestScore h) = true /\
  (* ... and it misses the best score when every model that has it is too large *)
  ((forall m, length m = mcols X -> In true m -> snd (fit m) = hsBestScore h ->
      (2 <= NumFeatures m)%nat /\ (mrows X / 2 <= NumFeatures m)%nat) ->
   nltb (siScore e) (hsBestScore h) = true).
Proof.
  intros svd X A y nSweeps ri rf fuel r st e fit bnd maxq cutoff fuel' h HA Hr Hy Hg Hne Hf H1 Hfu EB ES He.
  destruct (C96_entries XR svd X (fins y) nSweeps Aicc ri rf fuel r st e ES He) as (m & c & s & (Lm & Pm) & _ & (D & q & E1 & E2 & E3 & ->) & Es).
  rewrite <- nf_count in *. assert (Fm : (0 < NumFeatures m)%nat) by lia.
  assert (Tm : In true m) by (apply nonempty_nf; exact Fm).
  assert (V : forall m, length m = mcols X -> In true m -> exists r, 0 < r /\
    (exists D w, GetDesignMatrix m X = Ok D /\ Fit svd D (fins y) = Ok (fins w) /\ Rss D (fins w) (fins y) = Ok (fin r)) /\
    snd (fit m) = fin (- (pen_aicc (Z.of_nat (NumFeatures m)) (Z.of_nat (mrows X)) + IZR (Z.of_nat (mrows X)) * ln r))).
  { clear - Hf HA Hr Hy Hg Hne. intros m Lm Tm.
    destruct (model_fit svd X A y HA Hr Hy Hg m Lm ltac:(apply nonempty_nf; auto)) as (D & w & r & E1 & E2 & E3 & Lw & Er & _).
    exists r. assert (P : 0 < r) by (rewrite Er; apply (no_exact_rss _ (mcols X)); auto). split; [auto|]. split; [eauto|].
    pose proof (Hf m Lm Tm) as E. unfold fit_score in E. rewrite E1 in E. cbn [bind] in E. rewrite E2 in E. cbn [bind] in E.
    rewrite E3 in E. cbn [bind] in E.
    assert (E' : snd (fit m) = nneg (n := XR) (Aicc (Z.of_nat (NumFeatures m)) (Z.of_nat (mrows X)) (fin r)))
      by exact (eq_sym (f_equal (fun z => match z with Ok v => snd v | _ => XNaN end) E)).
    assert (Z1 : (1 <= Z.of_nat (mrows X))%Z) by lia. rewrite E', (pen_aicc_p _ _ _ Z1 P). apply xneg_fin. }
  destruct (brute_all XR (mkProblem (mrows X) (mcols X) fit bnd (repeat false (mcols X)) maxq cutoff) XR_OrdLaws H1 eq_refl) with (fuel := fuel')
    as (h' & EB' & _ & _ & _ & _ & _ & _ & A7 & (mb & Lb & Fb & Eb)); auto.
  { intros m' Lm' Fm'. destruct (V m' Lm') as (r' & _ & _ & E); [apply nonempty_nf; auto|]. cbn [pFit]. rewrite E. reflexivity. }
  assert (h' = h) by congruence. subst h'. cbn [pCols pFit] in *.
  destruct (V m Lm Tm) as (rm & Pm' & (D' & w' & F1 & F2 & F3) & Sm).
  assert (D' = D) by congruence. subst D'. assert (Ec : c = fins w') by congruence. rewrite Ec in E3. assert (Eq : q = fin rm) by congruence. subst q.
  apply nonempty_nf in Fb. destruct (V mb Lb Fb) as (rb & Pb & _ & Sb).
  assert (EM : exists v, nmax2 (N := XR) (fin rm) RssTol = fin v /\ rm <= v).
  { change (exists v, (if Rltb (IZR 1 / IZR (10 ^ 12)) rm then fin rm else fin (IZR 1 / IZR (10 ^ 12))) = fin v /\ rm <= v).
    destruct (Rltb (IZR 1 / IZR (10 ^ 12)) rm) eqn:El.
    - exists rm. split; [reflexivity|lra].
    - exists (IZR 1 / IZR (10 ^ 12)). split; [reflexivity|]. apply Rltb_false in El. exact El. }
  destruct EM as (v & EM & Hv). assert (Z1 : (1 <= Z.of_nat (mrows X))%Z) by lia. assert (Pv : 0 < v) by lra.
  assert (Sr : exists t, siScore e = fin t /\ t <= - (pen_aicc (Z.of_nat (NumFeatures m)) (Z.of_nat (mrows X)) + IZR (Z.of_nat (mrows X)) * ln rm)).
  { eexists. split.
    - rewrite Es, EM. unfold fins at 1. rewrite map_length, Hy. rewrite (pen_aicc_p _ _ _ Z1 Pv). apply xneg_fin.
    - assert (Ln : ln rm <= ln v) by (destruct Hv as [Hv|Hv]; [apply Rlt_le, ln_increasing; lra|rewrite Hv; lra]).
      assert (IZR (Z.of_nat (mrows X)) * ln rm <= IZR (Z.of_nat (mrows X)) * ln v) by (apply Rmult_le_compat_l; [apply IZR_le; lia|exact Ln]). lra. }
  destruct Sr as (t & Et & Ht). pose proof (A7 m Lm Fm) as B. rewrite Sm in B. rewrite Et. rewrite Eb, Sb in *.
  rewrite xlt_fin in B. apply Rltb_false in B. rewrite xlt_fin.
  split; [apply (proj2 (Proof_Fit2.xle_fin _ _)); lra|].
  intros Hl. apply Rltb_true. destruct B as [B|B]; [lra|]. exfalso.
  destruct (Hl m Lm Tm) as (L1 & L2); [rewrite Sm, B; reflexivity|]. lia.
Qed.
Print Assumptions C96_never_better.

(** six rows, three unit columns, target (100, 100, 100, 1, 1, 1): the residual is 3
    with all features and at least 10000 otherwise, so the exhaustive search
    selects all three features, and the annealing never sees that model *)
Example C96_example :
  let X := eye 6 3 in let y := [100; 100; 100; 1; 1; 1] in
  no_exact_fit 6 3 delta y /\
  exists fit, scored svd_orth X y fit /\ forall bnd maxq cutoff, exists h fuel r st e,
    BruteForceSelect (mkProblem 6 3 fit bnd (repeat false 3) maxq cutoff) 15 = Ok h /\
    (forall m, length m = 3%nat -> In true m -> snd (fit m) = hsBestScore h -> (2 <= NumFeatures m)%nat /\ (6 / 2 <= NumFeatures m)%nat) /\
    SelectModelSA svd_orth X (fins y) 100 Aicc (fun k => k) (fun _ => XFin (/ 2)) fuel = Ok (r, st) /\
    In e (saContents (srScores r)) /\ nltb (siScore e) (hsBestScore h) = true.
Proof.
  intros X y.
  assert (Hne : no_exact_fit 6 3 delta y) by (intro b; exists 5%nat; split; [lia|]; cbn; unfold delta; cbn; lra).
  split; [exact Hne|].
  assert (HG : good_svd svd_orth X) by (apply eye_good; lia).
  assert (HR : rmat X delta) by (intros i j _ _; reflexivity).
  set (fit := fun m => match fit_score svd_orth X (fins y) m with Ok p => p | _ => ([], XNaN) end).
  assert (Hf : scored svd_orth X y fit).
  { intros m Hl Ht. unfold fit.
    destruct (model_fit svd_orth X delta y HR ltac:(cbn; lia) eq_refl HG m Hl ltac:(apply nonempty_nf; auto)) as (D & w & r & E1 & E2 & E3 & _).
    unfold fit_score. rewrite E1. cbn [bind]. rewrite E2. cbn [bind]. rewrite E3. reflexivity. }
  exists fit. split; [exact Hf|]. intros bnd maxq cutoff.
  assert (V : forall m, length m = 3%nat -> In true m -> exists r, 0 < r /\ (m = [true; true; true] -> r <= 3) /\ (m <> [true; true; true] -> 10000 <= r) /\
    snd (fit m) = fin (- (pen_aicc (Z.of_nat (NumFeatures m)) 6 + 6 * ln r))).
  { intros m Lm Tm.
    destruct (model_fit svd_orth X delta y HR ltac:(cbn; lia) eq_refl HG m Lm ltac:(apply nonempty_nf; auto)) as (D & w & r & E1 & E2 & E3 & Lw & Er & Pr & Mr & _).
    exists r. assert (P : 0 < r) by (rewrite Er; apply (no_exact_rss _ 3%nat); auto). split; [exact P|].
    split; [|split].
    - intros ->. eapply Rle_trans; [apply (Mr [100; 100; 100] eq_refl)|]. clear.
      unfold rss; cbn; unfold sub, selcol, delta, Rsqr, y; cbn; change (Pos.to_nat 1) with 1%nat; change (Pos.to_nat 2) with 2%nat; cbn; lra.
    - intros Hm. rewrite Er. clear - Lw Tm Lm Hm. destruct m as [|a [|b [|c [|]]]]; try discriminate Lm.
      destruct a, b, c; cbn in Lw, Tm; try (exfalso; intuition congruence); destruct w as [|w1 [|w2 [|]]]; try discriminate Lw;
        try pose proof (Rle_0_sqr (100 - w1)); try pose proof (Rle_0_sqr (100 - w2)); unfold rss; cbn; unfold sub, selcol, delta, Rsqr, y in *; cbn;
        change (Pos.to_nat 1) with 1%nat; change (Pos.to_nat 2) with 2%nat; cbn; nra.
    - pose proof (Hf m Lm Tm) as E. unfold fit_score in E. rewrite E1 in E. cbn [bind] in E. rewrite E2 in E. cbn [bind] in E.
      rewrite E3 in E. cbn [bind] in E.
      assert (E' : snd (fit m) = nneg (n := XR) (Aicc (Z.of_nat (NumFeatures m)) 6 (fin r)))
        by exact (eq_sym (f_equal (fun z => match z with Ok v => snd v | _ => XNaN end) E)).
      rewrite E', (pen_aicc_p _ 6%Z r ltac:(lia) P). apply xneg_fin. }
  destruct (brute_all XR (mkProblem 6 3 fit bnd (repeat false 3) maxq cutoff) XR_OrdLaws ltac:(cbn; lia) eq_refl) with (fuel := 15%nat)
    as (h & EB & _ & _ & _ & _ & _ & _ & A7 & _).
  { intros m' Lm' Fm'. destruct (V m' Lm') as (r' & _ & _ & _ & E); [apply nonempty_nf; auto|]. cbn [pFit]. rewrite E. reflexivity. }
  { cbn. lia. }
  cbn [pCols pFit] in A7.
  assert (HL : forall m, length m = 3%nat -> In true m -> snd (fit m) = hsBestScore h -> (2 <= NumFeatures m)%nat /\ (6 / 2 <= NumFeatures m)%nat).
  { intros m Lm Tm Em. destruct (list_eq_dec Bool.bool_dec m [true; true; true]) as [->|Hm]; [cbn; lia|]. exfalso.
    destruct (V m Lm Tm) as (rm & Pm & _ & Rm & Sm). specialize (Rm Hm).
    destruct (V [true; true; true] eq_refl ltac:(cbn; auto)) as (r3 & P3 & R3 & _ & S3). specialize (R3 eq_refl).
    pose proof (A7 [true; true; true] eq_refl ltac:(cbn; lia)) as B. rewrite <- Em, Sm, S3, xlt_fin in B. apply Rltb_false in B.
    change (Z.of_nat (NumFeatures [true; true; true])) with 3%Z in B.
    assert (Q3 : pen_aicc 3 6 = 18) by (unfold pen_aicc; cbn; lra).
    assert (Qm : 0 <= pen_aicc (Z.of_nat (NumFeatures m)) 6).
    { destruct m as [|a [|b [|c [|]]]]; try discriminate Lm. destruct a, b, c; cbn; unfold pen_aicc; cbn; lra. }
    assert (L3 : ln r3 <= ln 3) by (apply ln_mono; lra). assert (Lr : ln 10000 <= ln rm) by (apply ln_mono; lra).
    assert (Le : 3 + ln 3 <= ln 81).
    { rewrite <- (ln_exp 3) at 1. rewrite <- ln_mult by (try apply exp_pos; lra). apply ln_mono; [apply Rmult_lt_0_compat; [apply exp_pos|lra]|].
      assert (E3 : exp 3 = exp 1 * exp 1 * exp 1) by (rewrite <- !exp_plus; f_equal; lra).
      pose proof exp_le_3. pose proof (exp_pos 1). assert (exp 1 * exp 1 <= 9) by nra. nra. }
    assert (Lf : ln 81 < ln 10000) by (apply ln_increasing; lra). lra. }
  assert (HM : aicc_bound 3 6 y < max_float).
  { apply Rle_lt_trans with (10 ^ 7).
    - unfold aicc_bound. assert (H : ln (1 + lsum (map Rsqr y)) <= 30003).
      { rewrite <- (ln_exp 30003). apply Rlt_le, ln_increasing; [unfold Rsqr, y; cbn; lra|].
        apply Rle_lt_trans with (1 + 30003); [unfold Rsqr, y; cbn; lra|]. apply exp_ineq1. lra. }
      cbn [INR]. lra.
    - unfold max_float. replace (10 ^ 7) with (IZR (10 ^ 7)) by (cbn; lra). apply IZR_lt. reflexivity. }
  destruct (C84_aicc svd_orth X delta y 100 (fun k => k) (fun _ => XFin (/ 2)) (/ 2))
    as (H1 & _); [exact HR|cbn; lia|reflexivity|exact HG|lia| |lra|exact HM|].
  { intro k. exists (/ 2). split; [reflexivity|lra]. }
  destruct H1 as (fuel & r & st & E); [cbn; lia| |].
  { intros k i Hi. change (mcols X) with 3%nat in *. exists (3 * k + i)%nat. split; [lia|].
    rewrite Nat.add_comm, Nat.mul_comm, Nat.mod_add by lia. apply Nat.mod_small. exact Hi. }
  destruct (C96_nonempty _ _ _ _ _ _ _ _ _ _ E) as (e & He). exists h, fuel, r, st, e.
  split; [exact EB|]. split; [exact HL|]. split; [exact E|]. split; [exact He|].
  exact (proj2 (C96_never_better svd_orth X delta y 100%Z _ _ fuel r st e fit bnd maxq cutoff 15%nat h HR ltac:(cbn; lia) eq_refl HG Hne Hf ltac:(cbn; lia) ltac:(cbn; lia) EB E (or_introl He)) HL).
Qed.

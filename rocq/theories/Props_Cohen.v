(** C46: GetCohensKappa and the worker pool of CalculateCohenSequence. *)
From Coq Require Import Permutation.
From Verif Require Import Base Num Mat Model_Node Model_Util Model_Fit Model_Norm Model_Cov Model_Crd Model_Cohen
  Proof_Node Proof_Util Proof_Cov Proof_CrdPath Proof_Cohen Props_Util.

(** ** Specification *)

(** the index sets of one sample: two complementary halves of the rows 0..n-1 *)
Definition halves (n : nat) (p : list nat * list nat) : Prop :=
  length (fst p) = (n / 2)%nat /\ length (snd p) = (n - n / 2)%nat /\
  NoDup (fst p ++ snd p) /\ forall i, In i (fst p ++ snd p) <-> (i < n)%nat.

(** [calls] are the pairs of index sets, [ks] the agreement of the two
    selections of every pair; the target's state is threaded through the calls *)
Inductive samples {N : Num} {S H : Type} (tgt : Target S H) : S -> list (list nat * list nat) -> list N -> S -> Prop :=
| samples_nil : forall s, samples tgt s [] [] s
| samples_cons : forall s i1 i2 sel1 s1 sel2 s2 calls ks s3,
    tgSelect tgt s i1 = Ok (sel1, s1) -> tgSelect tgt s1 i2 = Ok (sel2, s2) ->
    samples tgt s2 calls ks s3 ->
    samples tgt s ((i1, i2) :: calls) (CohenKappa sel1 sel2 (Z.of_nat (tgCols tgt)) :: ks) s3.

(** [k] is a value GetCohensKappa gives for targets[t] (for some shuffles) *)
Definition evaluates {N : Num} {S H : Type} numSamples (targets : list (Target S H)) (t : nat) (k : N) : Prop :=
  exists tgt rnd calls, nth_error targets t = Some tgt /\ GetCohensKappa rnd numSamples tgt = Ok (k, calls).

(** GetCohensKappa of some target panics (for some shuffles) *)
Definition can_panic (N : Num) {S H : Type} numSamples (targets : list (Target S H)) : Prop :=
  exists t tgt rnd, nth_error targets t = Some tgt /\ forall v, GetCohensKappa (N := N) rnd numSamples tgt <> Ok v.

(** [best]: the hyper-parameters of a target with the largest kappa if that is
    positive, none otherwise.  [evals] are pairs (position of target, kappa). *)
Definition is_best {N : Num} {S H : Type} (targets : list (Target S H)) (evals : list (nat * N)) (best : option H) : Prop :=
  match best with
  | None => forall t k, In (t, k) evals -> nltb n0 k = false
  | Some h => exists t k tgt, In (t, k) evals /\ nth_error targets t = Some tgt /\ h = tgHyper tgt /\
      nltb n0 k = true /\ forall t' k', In (t', k') evals -> nltb k k' = false
  end.

(** ** One evaluation *)

Section Kappa.
  Context {N : Num} {S H : Type}.
  Variable tgt : Target S H.
  Let nr := tgRows tgt.

  Definition kbody (rnd : nat -> nat -> nat) (i : nat) (st : N * list nat * S * list (list nat * list nat)) :=
    let '(kappa, indices, s, calls) := st in
    do indices <- Shuffle (rnd i) indices;
    let n := (nr / 2)%nat in
    do (selection1, s) <- tgSelect tgt s (firstn n indices);
    do (selection2, s) <- tgSelect tgt s (skipn n indices);
    Ok ((kappa + CohenKappa selection1 selection2 (Z.of_nat (tgCols tgt)))%num, indices, s,
        calls ++ [(firstn n indices, skipn n indices)]).

  Lemma kappa_unfold : forall rnd numSamples, GetCohensKappa (N := N) rnd numSamples tgt =
    do (kappa, _, _, calls) <- for_loop 0 (Z.to_nat numSamples) (kbody rnd) (n0, seq 0 nr, tgInit tgt, []);
    Ok ((kappa / nofZ numSamples)%num, calls).
  Proof.
    intros rnd m. unfold GetCohensKappa. fold nr.
    rewrite (for_loop_fill0 _ (fun i => i)) by apply repeat_length. cbn [bind]. rewrite map_id. reflexivity.
  Qed.

  Lemma halves_perm : forall ix, Permutation (seq 0 nr) ix -> halves nr (firstn (nr / 2) ix, skipn (nr / 2) ix).
  Proof.
    intros ix P. assert (Lx : length ix = nr) by (rewrite <- (Permutation_length P), seq_length; reflexivity).
    assert (Hd : (nr / 2 <= nr)%nat) by (apply Nat.div_le_upper_bound; lia).
    unfold halves. cbn [fst snd]. rewrite firstn_length, skipn_length, firstn_skipn, Lx.
    split; [lia|]. split; [reflexivity|]. split; [apply (Permutation_NoDup P), seq_NoDup|].
    intro i. split; intro Hi.
    - apply (Permutation_in _ (Permutation_sym P)), in_seq in Hi. lia.
    - apply (Permutation_in _ P), in_seq. lia.
  Qed.

  Lemma kloop : forall rnd m a k ix s calls k' ix' s' calls', Permutation (seq 0 nr) ix ->
    for_loop a m (kbody rnd) (k, ix, s, calls) = Ok (k', ix', s', calls') ->
    exists cs ks, calls' = calls ++ cs /\ length cs = m /\ Forall (halves nr) cs /\ samples tgt s cs ks s' /\
      k' = fold_left nadd ks k.
  Proof.
    intros rnd. induction m as [|m IH]; intros a k ix s calls k' ix' s' calls' P E; cbn [for_loop] in E.
    - injection E as <- <- <- <-. exists [], []. rewrite app_nil_r. repeat split; constructor.
    - unfold kbody at 1 in E. destruct (Shuffle_perm nat (rnd a) ix) as (ix1 & E1 & P1). rewrite E1 in E. cbn [bind] in E.
      destruct (tgSelect tgt s (firstn (nr / 2) ix1)) as [[sel1 s1]| |] eqn:T1; cbn [bind] in E; try discriminate E.
      destruct (tgSelect tgt s1 (skipn (nr / 2) ix1)) as [[sel2 s2]| |] eqn:T2; cbn [bind] in E; try discriminate E.
      assert (P2 : Permutation (seq 0 nr) ix1) by (rewrite P; exact P1).
      destruct (IH _ _ _ _ _ _ _ _ _ P2 E) as (cs & ks & -> & Lc & Fc & Sc & ->).
      exists ((firstn (nr / 2) ix1, skipn (nr / 2) ix1) :: cs), (CohenKappa sel1 sel2 (Z.of_nat (tgCols tgt)) :: ks).
      rewrite <- app_assoc. split; [reflexivity|]. split; [cbn; lia|]. split; [constructor; [apply halves_perm; exact P2|exact Fc]|].
      split; [econstructor; eassumption|]. reflexivity.
  Qed.

  Lemma kloop_fail : forall rnd m a k ix s calls, Permutation (seq 0 nr) ix ->
    (forall v, for_loop a m (kbody rnd) (k, ix, s, calls) <> Ok v) ->
    exists s' p, halves nr p /\ ((forall v, tgSelect tgt s' (fst p) <> Ok v) \/ (forall v, tgSelect tgt s' (snd p) <> Ok v)).
  Proof.
    intros rnd. induction m as [|m IH]; intros a k ix s calls P E; cbn [for_loop] in E.
    - exfalso. exact (E _ eq_refl).
    - unfold kbody at 1 in E. destruct (Shuffle_perm nat (rnd a) ix) as (ix1 & E1 & P1). rewrite E1 in E. cbn [bind] in E.
      assert (P2 : Permutation (seq 0 nr) ix1) by (rewrite P; exact P1).
      pose proof (halves_perm ix1 P2) as Hh.
      destruct (tgSelect tgt s (firstn (nr / 2) ix1)) as [[sel1 s1]| |] eqn:T1; cbn [bind] in E;
        [|exists s, (firstn (nr / 2) ix1, skipn (nr / 2) ix1); split; [exact Hh|left; cbn [fst]; rewrite T1; discriminate]..].
      destruct (tgSelect tgt s1 (skipn (nr / 2) ix1)) as [[sel2 s2]| |] eqn:T2; cbn [bind] in E;
        [|exists s1, (firstn (nr / 2) ix1, skipn (nr / 2) ix1); split; [exact Hh|right; cbn [snd]; rewrite T2; discriminate]..].
      exact (IH _ _ _ _ _ P2 E).
  Qed.
End Kappa.

(** GetCohensKappa asks for [numSamples] pairs of selections, each for two
    complementary halves of the rows, and returns the mean agreement. *)
Theorem C46_split : forall (N : Num) S H rnd numSamples (tgt : Target S H) (k : N) calls,
  GetCohensKappa rnd numSamples tgt = Ok (k, calls) ->
  length calls = Z.to_nat numSamples /\
  Forall (halves (tgRows tgt)) calls /\
  exists ks s, samples tgt (tgInit tgt) calls ks s /\ k = (fold_left nadd ks n0 / nofZ numSamples)%num.
Proof.
  intros N S H rnd m tgt k calls E. rewrite kappa_unfold in E.
  destruct (for_loop 0 _ _ _) as [[[[k' ix'] s'] calls']| |] eqn:El; cbn [bind] in E; try discriminate E.
  injection E as <- <-. destruct (kloop tgt rnd _ _ _ _ _ _ _ _ _ _ (Permutation_refl _) El) as (cs & ks & -> & Lc & Fc & Sc & ->).
  cbn [app]. split; [exact Lc|]. split; [exact Fc|]. exists ks, s'. split; [exact Sc|reflexivity].
Qed.
Print Assumptions C46_split.

(** It only fails if GetSelection fails, for one of the halves. *)
Theorem C46_no_other_panic : forall (N : Num) S H rnd numSamples (tgt : Target S H),
  (forall v, GetCohensKappa (N := N) rnd numSamples tgt <> Ok v) ->
  exists s p, halves (tgRows tgt) p /\
    ((forall v, tgSelect tgt s (fst p) <> Ok v) \/ (forall v, tgSelect tgt s (snd p) <> Ok v)).
Proof.
  intros N S H rnd m tgt E. rewrite kappa_unfold in E.
  apply (kloop_fail (N := N) tgt rnd (Z.to_nat m) 0 n0 (seq 0 (tgRows tgt)) (tgInit tgt) []); [apply Permutation_refl|].
  intros [[[k' ix'] s'] c'] Ev. rewrite Ev in E. cbn [bind] in E. exact (E _ eq_refl).
Qed.
Print Assumptions C46_no_other_panic.

(** ** The pool *)

(** Any schedule of the 16 workers and the caller: the number of steps is
    bounded, some step is possible until the call returns (no deadlock), a
    panic comes from an evaluation, and when the call returns every target has
    been evaluated exactly once, the result is a best one, the printed summary
    lists all results in ascending order, and the 16 workers are left waiting. *)
Theorem C46_every_schedule : forall o srt S H numSamples (targets : list (Target S H)) schedule (c : CPool (F64 o) H),
  sort_spec byValueLess srt ->
  cohen_run srt numSamples targets schedule (cohen_init srt targets) = Some c ->
  (length schedule <= 17 + 3 * length targets)%nat /\
  match cpMain c with
  | CDone best summary =>
      Permutation (map fst (cpEvals c)) (seq 0 (length targets)) /\
      Forall (fun tk => evaluates numSamples targets (fst tk) (snd tk)) (cpEvals c) /\
      is_best targets (cpEvals c) best /\
      Permutation summary (cpEvals c) /\
      ((forall t k, In (t, k) (cpEvals c) -> nisnan k = false) -> forall p q x y,
         (p < q)%nat -> nth_error summary p = Some x -> nth_error summary q = Some y -> nltb (snd y) (snd x) = false) /\
      cpWorkers c = repeat CIdle 16
  | CPanic => can_panic (F64 o) numSamples targets
  | _ => exists ch c', cohen_step srt numSamples targets ch c = Some c'
  end.
Proof.
  intros o srt S H m targets sch c Hsrt E. set (OL := f64_OrdLaws o).
  pose proof (init_inv (F64 o) OL S H srt Hsrt m targets) as I0.
  pose proof (run_inv (F64 o) OL S H srt Hsrt m targets sch _ c I0 E) as I1.
  split.
  { pose proof (run_length (F64 o) OL S H srt Hsrt m targets sch _ c I0 E).
    pose proof (init_meas (F64 o) S H srt targets). lia. }
  pose proof (progress (F64 o) S H srt m targets c I1) as Pr.
  destruct I1 as (rc & He & Hk & Hm).
  destruct (cpMain c) as [i next|i t next|st|t st|best summary|] eqn:Em;
    try (destruct Pr as [(b & sm & Eb)|[Eb|Pr]]; [discriminate Eb|discriminate Eb|exact Pr]).
  - clear Pr. cbn [inv_main] in Hm. destruct Hm as (Eh & Lw & Hp & (bk & Hb) & Hs & Hso).
    assert (Wi : cpWorkers c = repeat CIdle 16).
    { change 16%nat with cohenWorkers. rewrite <- Lw. generalize (cpWorkers c) Eh. clear.
      induction l as [|w ws IH]; intro Eh; [reflexivity|]. destruct w as [|t|t v]; cbn [cheldl flat_map cheld app] in Eh; try discriminate Eh.
      cbn [length repeat]. f_equal. apply IH. exact Eh. }
    assert (Per : Permutation (cpEvals c) rc).
    { rewrite He, Wi. reflexivity. }
    split; [rewrite Per; exact Hp|]. split; [exact Hk|].
    assert (HIn : forall x, In x (cpEvals c) <-> In x rc).
    { intro x. split; apply Permutation_in; [exact Per|symmetry; exact Per]. }
    split. { destruct best as [h|]; cbn [is_best bk_ok] in *.
      - destruct Hb as (t & tgt & H1 & H2 & H3 & H4 & H5). exists t, bk, tgt. rewrite HIn. repeat (split; [assumption|]).
        intros t' k' Hi. apply HIn in Hi. eauto.
      - destruct Hb as (_ & Hb). intros t k Hi. apply HIn in Hi. eauto. }
    split; [rewrite Per; exact Hs|]. split; [|exact Wi].
    intros Hn. apply Hso. intros t k Hi. apply HIn in Hi. eauto.
  - exact Hm.
Qed.
Print Assumptions C46_every_schedule.

(** Whatever has happened so far, the call can be brought to its end, and a run
    that cannot be continued has ended. *)
Theorem C46_completes : forall o srt S H numSamples (targets : list (Target S H)) schedule (c : CPool (F64 o) H),
  sort_spec byValueLess srt -> ~ can_panic (F64 o) numSamples targets ->
  cohen_run srt numSamples targets schedule (cohen_init srt targets) = Some c ->
  (exists rest c' best summary, cohen_run srt numSamples targets rest c = Some c' /\ cpMain c' = CDone best summary) /\
  ((forall ch, cohen_step srt numSamples targets ch c = None) -> exists best summary, cpMain c = CDone best summary).
Proof.
  intros o srt S H m targets sch c Hsrt Hnp E. set (OL := f64_OrdLaws o).
  pose proof (init_inv (F64 o) OL S H srt Hsrt m targets) as I0.
  pose proof (run_inv (F64 o) OL S H srt Hsrt m targets sch _ c I0 E) as I1. clear E sch I0.
  assert (Np : forall c, inv (F64 o) S H m targets c -> cpMain c <> CPanic).
  { intros c0 (rc & _ & _ & Hm) Ep. rewrite Ep in Hm. exact (Hnp Hm). }
  split.
  - remember (meas (F64 o) S H targets c) as n eqn:En. revert c I1 En.
    induction n as [n IH] using (well_founded_induction lt_wf). intros c I1 En.
    destruct (progress (F64 o) S H srt m targets c I1) as [(b & s & Eb)|[Eb|(ch & c1 & E1)]].
    + exists [], c, b, s. split; [reflexivity|exact Eb].
    + destruct (Np c I1 Eb).
    + pose proof (step_inv (F64 o) OL S H srt Hsrt m targets ch c c1 I1 E1) as I2.
      destruct (IH (meas (F64 o) S H targets c1)) with (c := c1) as (rest & c' & b & s & Er & Eb); [|exact I2|reflexivity|].
      { subst n. exact (step_meas (F64 o) S H srt m targets ch c c1 I1 E1). }
      exists (ch :: rest), c', b, s. cbn [cohen_run]. rewrite E1. auto.
  - intros Hs. destruct (progress (F64 o) S H srt m targets c I1) as [(b & s & Eb)|[Eb|(ch & c1 & E1)]].
    + eauto.
    + destruct (Np c I1 Eb).
    + rewrite Hs in E1. discriminate E1.
Qed.
Print Assumptions C46_completes.

(** Without samples no target is chosen: the mean is 0/0 or a zero. *)
Theorem C46_no_samples : forall o srt S H numSamples (targets : list (Target S H)) schedule (c : CPool (F64 o) H) best summary,
  sort_spec byValueLess srt -> (numSamples <= 0)%Z ->
  cohen_run srt numSamples targets schedule (cohen_init srt targets) = Some c ->
  cpMain c = CDone best summary -> best = None.
Proof.
  intros o srt S H m targets sch c best summary Hsrt Hm E Ed.
  destruct (C46_every_schedule o srt S H m targets sch c Hsrt E) as (_ & HD). rewrite Ed in HD.
  destruct HD as (_ & Hev & Hb & _). destruct best as [h|]; [|reflexivity]. exfalso.
  destruct Hb as (t & k & tgt & Hin & _ & _ & Hpos & _).
  rewrite Forall_forall in Hev. destruct (Hev _ Hin) as (tgt' & rnd & calls & _ & Ek). cbn [snd] in Ek.
  rewrite kappa_unfold in Ek. replace (Z.to_nat m) with 0%nat in Ek by lia. cbn [for_loop bind] in Ek. injection Ek as <- _.
  assert (Hz : forall z : F64 o, nltb n0 (n0 / z)%num = false) by (intros [[]|[]| |[] mm e]; reflexivity).
  exact (Bool.eq_true_false_abs _ Hpos (Hz (nofZ m))).
Qed.
Print Assumptions C46_no_samples.

(** ** Examples *)

(** a target that always selects feature 0 of two, over two rows *)
Definition ex_target (sel2 : list Z) (h : nat) : Target unit nat :=
  mkTarget 2 2 tt (fun s ix => Ok (match ix with [0%nat] => [0]%Z | _ => sel2 end, s)) h.
Definition ex_targets : list (Target unit nat) := [ex_target [0]%Z 10; ex_target [1]%Z 20; ex_target [0]%Z 30].
Definition rnd0 : nat -> nat -> nat := fun _ _ => 0%nat.
Definition ex_sched (a b c : nat) : list cchoice :=
  [KStart; KGive 0; KStart; KGive 1; KStart; KGive 2] ++ repeat KStart 13 ++
  [KCompute 0 rnd0; KCompute 1 rnd0; KCompute 2 rnd0; KTake a; KTake b; KTake c].
Definition ex_result (s : list cchoice) : option (nat * option nat * list nat) :=
  match cohen_run (N := F64 fenv0) (isort byValueLess) 1 ex_targets s (cohen_init (isort byValueLess) ex_targets) with
  | Some c => match cpMain c with CDone b sm => Some (length (cpWorkers c), b, map fst sm) | _ => None end
  | None => None
  end.

(** The kappas are 1, -1 and 1.  Target 1 is never chosen; which of the other
    two is depends on the order of completion. *)
Theorem C46_schedule_dependent : exists s s', Permutation s s' /\
  ex_result s = Some (16, Some 10, [1; 2; 0])%nat /\ ex_result s' = Some (16, Some 30, [1; 0; 2])%nat.
Proof.
  exists (ex_sched 0 1 2), (ex_sched 2 1 0). split.
  - unfold ex_sched. apply Permutation_app_head, Permutation_app_head. do 3 apply perm_skip.
    etransitivity; [apply perm_swap|]. etransitivity; [apply perm_skip, perm_swap|]. apply perm_swap.
  - split; vm_compute; reflexivity.
Qed.
Print Assumptions C46_schedule_dependent.

Example C46_example : sort_spec (byValueLess (N := F64 fenv0)) (isort byValueLess) /\
  ~ can_panic (F64 fenv0) 1 ex_targets /\
  (match GetCohensKappa (N := F64 fenv0) rnd0 1 (ex_target [1]%Z 5) with
   | Ok (k, calls) => nltb k n0 = true /\ calls = [([1], [0])]%nat | _ => False end).
Proof.
  split. { apply isort_spec. intros [x i] [y j]. apply (ltb_asym (f64_OrdLaws fenv0)). }
  split; [|vm_compute; split; reflexivity].
  intros (t & tgt & rnd & Et & Ep).
  destruct (C46_no_other_panic (F64 fenv0) unit nat rnd 1 tgt Ep) as (s & p & _ & Hf).
  assert (Hok : forall ix, exists v, tgSelect tgt s ix = Ok v).
  { intro ix. destruct t as [|[|[|t]]]; cbn in Et; try (injection Et as <-; eexists; reflexivity). destruct t; discriminate Et. }
  destruct Hf as [Hf|Hf]; [destruct (Hok (fst p)) as (v & Ev)|destruct (Hok (snd p)) as (v & Ev)]; exact (Hf v Ev).
Qed.

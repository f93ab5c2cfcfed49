(** C78: the program goselect-cohenlasso. *)
From Coq Require Import String Permutation Reals Lra SpecFloat.
From Verif Require Import Base Num Mat RSum Stats Model_Node Model_Util Model_Fit Model_Norm Model_CSV Model_Cov Model_Crd Model_Cohen
  Proof_XR Proof_Norm Proof_Node Proof_Util Proof_Cov Proof_Crd Proof_Cohen Props_Norm Props_Cov Props_Util Props_Crd Props_CrdPath Props_Cohen Props_CohenLasso
  Proof_Nested Props_LassoArgs Model_Nested Model_Cmd2.
Open Scope list_scope.

(** ** Specification *)

(** [sel] are the features the lasso with penalty [l] selects when it only sees
    the rows [ix] of the data (normalised once more): those with coefficients
    above 1e-16 *)
Definition selects {N : Num} (nd : NormalizedData N) (l tol : N) (ix : list nat) (sel : list Z) : Prop :=
  exists X sub b,
    mrows X = length ix /\ mcols X = mcols (ndX nd) /\
    (forall r c, (r < length ix)%nat -> (c < mcols X)%nat -> mval X r c = mval (ndX nd) (nth r ix 0%nat) c) /\
    NewNormalizedData X (map (fun i => nth i (ndy nd) n0) ix) = Ok sub /\
    coefficients (LassoCrdDesc Empirical_Get sub l None 100000 tol PureLasso) = Ok b /\
    sel = map Z.of_nat (filter (fun j => nltb (ndec 1 (-16)) (nabs (nth j b n0))) (seq 0 (length b))).

(** [k] is the mean, over [numSamples] divisions of the rows into halves, of
    Cohen's kappa for the selections of the two halves *)
Definition mean_agreement {N : Num} (nd : NormalizedData N) (tol : N) (numSamples : Z) (l k : N) : Prop :=
  exists (calls : list (list nat * list nat)) (sel : list nat -> list Z),
    length calls = Z.to_nat numSamples /\ Forall (halves (mrows (ndX nd))) calls /\
    (forall p, In p calls -> selects nd l tol (fst p) (sel (fst p)) /\ selects nd l tol (snd p) (sel (snd p))) /\
    k = (fold_left (fun s p => s + CohenKappa (sel (fst p)) (sel (snd p)) (Z.of_nat (mcols (ndX nd))))%num calls n0
         / nofZ numSamples)%num.

(** ** Proofs *)

Lemma sel_filter : forall (N : Num) (b : list N) corr, sel_of b corr =
  Ok (map Z.of_nat (filter (fun j => nltb (ndec 1 (-16)) (nabs (nth j b n0))) (seq 0 (length b))), mkLC b corr).
Proof.
  intros N b corr. unfold sel_of. set (p := fun c : N => nltb (ndec 1 (-16)) (nabs c)).
  assert (G : forall l k sel,
    for_eachi k l (fun i c l => Ok (if nltb lassoCrdDescZero (nabs c) then l ++ [Z.of_nat i] else l)) sel =
    Ok (sel ++ map Z.of_nat (map (fun j => (k + j)%nat) (filter (fun j => p (nth j l n0)) (seq 0 (length l)))))).
  { induction l as [|c l IH]; intros k sel; cbn [for_eachi length seq filter map].
    - rewrite app_nil_r. reflexivity.
    - change (nth 0 (c :: l) n0) with c. change (nltb lassoCrdDescZero (nabs c)) with (p c). cbn [bind].
      assert (Es : filter (fun j => p (nth j (c :: l) n0)) (seq 1 (length l)) = map S (filter (fun j => p (nth j l n0)) (seq 0 (length l)))).
      { rewrite <- seq_shift. generalize (seq 0 (length l)) as s. intro s. induction s as [|x s IHs]; [reflexivity|].
        cbn [map filter]. change (nth (S x) (c :: l) n0) with (nth x l n0). destruct (p (nth x l n0)); cbn [map]; rewrite IHs; reflexivity. }
      rewrite Es.
      assert (E1 : forall s, map Z.of_nat (map (fun j => (S k + j)%nat) s) = map Z.of_nat (map (fun j => (k + j)%nat) (map S s))).
      { intro s. rewrite !map_map. apply map_ext. intro. f_equal. lia. }
      rewrite IH, E1. destruct (p c); [|reflexivity]. cbn [map]. rewrite <- app_assoc, Nat.add_0_r. reflexivity. }
  rewrite (G b 0%nat []). cbn [bind app]. rewrite map_id. reflexivity.
Qed.

Lemma select_selects : forall (N : Num) (nd : NormalizedData N) l tol x ix sel q,
  length (ndy nd) = mrows (ndX nd) -> (forall i, In i ix -> (i < mrows (ndX nd))%nat) ->
  lasso_select Empirical_Get (ndX nd) (ndy nd) l 100000 tol (mkLC x PureLasso) ix = Ok (sel, q) -> selects nd l tol ix sel.
Proof.
  intros N nd l tol x ix sel q Hy Hin E.
  assert (Hne : ix <> []) by (intros ->; discriminate E).
  assert (Hc : (0 < mcols (ndX nd))%nat).
  { destruct (mcols (ndX nd)) eqn:Ec; [|lia]. unfold lasso_select, new_dense in E. rewrite Ec in E.
    rewrite Bool.orb_true_r in E. discriminate E. }
  destruct (sub_data_ok N (ndX nd) (ndy nd) ix Hne Hc Hin Hy) as (X & Es & R & C & V).
  rewrite select_unfold, Es in E. cbn [bind] in E.
  destruct (NewNormalizedData X _) as [sub| |] eqn:En; try discriminate E. cbn [bind] in E.
  cbn [lcCorr] in E.
  destruct (LassoCrdDesc Empirical_Get sub l (Some _) 100000 tol PureLasso) as [[[[b z] corr] v]| |] eqn:Eb; try discriminate E. cbn [bind] in E.
  rewrite sel_filter in E. injection E as <- <-.
  exists X, sub, b. split; [exact R|]. split; [exact C|]. split; [rewrite C; exact V|]. split; [exact En|]. split; [|reflexivity].
  clear - Eb. unfold LassoCrdDesc, coefficients in *.
  destruct (Empirical_Get (ndX sub)) as [cov| |]; cbn [bind] in *; try discriminate Eb.
  destruct (mat_mulvec _ _) as [XTy| |]; cbn [bind] in *; try discriminate Eb.
  destruct (crd_start cov (mcols (ndX sub)) PureLasso) as [st0| |]; cbn [bind] in *; try discriminate Eb.
  destruct (crd_loop _ cov XTy l tol _ st0) as [st| |]; cbn [bind] in *; try discriminate Eb.
  injection Eb as <- _ _ _. reflexivity.
Qed.

Lemma logspace_length : forall (N : Num) (mn mx : N) num lambs, Logspace mn mx num = Ok lambs -> length lambs = Z.to_nat num /\ (0 <= num)%Z.
Proof.
  intros N mn mx num lambs E. unfold Logspace in E.
  destruct (Z.eqb_spec num 0) as [->|N1]; [injection E as <-; split; [reflexivity|lia]|].
  destruct (Z.eqb_spec num 1) as [->|N2]; [injection E as <-; split; [reflexivity|lia]|].
  unfold go_make in E. destruct (Z.ltb_spec num 0); [discriminate E|]. cbn [bind] in E. split; [|assumption].
  apply (for_loop_keep _ (fun l : list N => length l = Z.to_nat num)) in E; [exact E| |apply repeat_length].
  intros i s s' Hs Eb. rewrite (setn_length _ _ _ _ _ Eb). exact Hs.
Qed.

Definition the_target {N : Num} (nd : NormalizedData N) (tol l : N) :=
  pure_target Empirical_Get (ndX nd) (ndy nd) l 100000 tol (mkLC [] PureLasso).

Lemma targets_are : forall (N : Num) (d : Dataset N) lambMin lambMax num tol nd lambs,
  NewNormalizedData (dsX d) (dsY d) = Ok nd -> Logspace lambMin lambMax num = Ok lambs ->
  cohenlasso_targets (Some d) lambMin lambMax num tol = Ok (map (the_target nd tol) (rev lambs)).
Proof.
  intros N d lambMin lambMax num tol nd lambs En El. unfold cohenlasso_targets. rewrite En. cbn [bind].
  destruct (logspace_length N _ _ _ _ El) as (Ll & Hn). unfold go_make. destruct (Z.ltb_spec num 0); [lia|]. cbn [bind].
  rewrite El. cbn [bind]. rewrite <- Ll. clear - lambs.
  enough (G : forall k i acc, (i + k = length lambs)%nat ->
    for_eachi i (repeat tt k) (fun i _ targets => do lamb <- getz lambs (Z.of_nat (length lambs) - Z.of_nat i - 1);
      Ok (targets ++ [pure_target Empirical_Get (ndX nd) (ndy nd) lamb 100000 tol (mkLC [] PureLasso)])) acc =
    Ok (acc ++ map (the_target nd tol) (rev (firstn k lambs)))).
  { rewrite (G (length lambs) 0%nat []) by lia. rewrite firstn_all. reflexivity. }
  induction k as [|k IH]; intros i acc Hi; cbn [repeat for_eachi].
  - rewrite app_nil_r. reflexivity.
  - replace (Z.of_nat (length lambs) - Z.of_nat i - 1)%Z with (Z.of_nat k) by lia. rewrite getz_nat.
    rewrite (getn_lt _ lambs k n0) by lia. cbn [bind]. rewrite IH by lia. rewrite <- app_assoc. do 2 f_equal.
    assert (Ef : firstn (S k) lambs = firstn k lambs ++ [nth k lambs n0]).
    { clear - Hi. assert (Hk : (k < length lambs)%nat) by lia. clear Hi. revert k Hk. induction lambs as [|a l IH]; intros k Hk; cbn in Hk; [lia|].
      destruct k as [|k]; [reflexivity|]. cbn [firstn nth app]. f_equal. apply IH. lia. }
    rewrite Ef, rev_app_distr. reflexivity.
Qed.

Lemma run_snoc : forall (N : Num) S H srt m (targets : list (Target S H)) sch c0 (c : CPool N H) ch c',
  cohen_run srt m targets sch c0 = Some c -> cohen_step srt m targets ch c = Some c' -> cohen_run srt m targets (sch ++ [ch]) c0 = Some c'.
Proof.
  intros N S H srt m targets sch c0 c ch c' Er Es. revert c0 Er. induction sch as [|s sch IH]; intros c0 Er.
  - cbn in Er. injection Er as <-. cbn [app cohen_run]. rewrite Es. reflexivity.
  - cbn [app cohen_run] in *. destruct (cohen_step _ _ _ s c0); [apply IH; exact Er|discriminate Er].
Qed.

(** ** Theorems *)

(** The program panics without data, if the data cannot be normalised and for a
    negative number of penalties; otherwise it starts. *)
Theorem C78_starts : forall (N : Num) srt (d : Dataset N) lambMin lambMax num numSamples tol,
  (forall sch c, ~ cohenlasso_reaches srt None lambMin lambMax num numSamples tol sch c) /\
  ((exists c, cohenlasso_reaches srt (Some d) lambMin lambMax num numSamples tol [] c) <->
   (0 <= num)%Z /\ exists nd, NewNormalizedData (dsX d) (dsY d) = Ok nd).
Proof.
  intros N srt d lambMin lambMax num numSamples tol. split; [intros sch c (t & E & _); discriminate E|]. split.
  - intros (c & t & E & _). unfold cohenlasso_targets in E.
    destruct (NewNormalizedData _ _) as [nd| |]; try discriminate E. cbn [bind] in E.
    unfold go_make in E. destruct (Z.ltb_spec num 0); [discriminate E|]. split; [assumption|eauto].
  - intros (Hn & nd & En).
    assert (exists lambs, Logspace lambMin lambMax num = Ok lambs) as (lambs & El).
    { unfold Logspace. destruct (num =? 0)%Z; [eauto|]. destruct (num =? 1)%Z; [eauto|]. unfold go_make.
      destruct (Z.ltb_spec num 0); [lia|]. cbn [bind].
      match goal with |- exists l, for_loop ?a ?n ?body ?s = Ok l =>
        destruct (for_loop_inv _ (fun _ (l : list N) => length l = Z.to_nat num) body n a s) as (l & E & _) end; eauto.
      - apply repeat_length.
      - intros i s Hi Hs. rewrite setn_lt by lia. eexists. split; [reflexivity|]. rewrite upd_length. exact Hs. }
    eexists. eexists. split; [exact (targets_are N d _ _ _ tol nd lambs En El)|]. reflexivity.
Qed.
Print Assumptions C78_starts.

(** Whatever the order in which the goroutines run, in binary64: the program
    comes to an end after at most 17 + 3 num steps, is never stuck, and what it
    prints at the end is every penalty of the grid once, each with a mean
    agreement over halves of the normalised data, in ascending order of
    agreement (if none is NaN). *)
Theorem C78_summary : forall o srt (d : Dataset (F64 o)) lambMin lambMax num numSamples tol nd lambs schedule c,
  sort_spec byValueLess srt -> length (dsY d) = mrows (dsX d) ->
  NewNormalizedData (dsX d) (dsY d) = Ok nd -> Logspace lambMin lambMax num = Ok lambs ->
  cohenlasso_reaches srt (Some d) lambMin lambMax num numSamples tol schedule c ->
  (length schedule <= 17 + 3 * Z.to_nat num)%nat /\
  match cpMain c with
  | CDone best summary =>
      exists printed : list (F64 o * F64 o),
        Forall2 (fun s p => nth_error (rev lambs) (fst s) = Some (fst p) /\ snd s = snd p) summary printed /\
        Permutation (map fst printed) lambs /\
        Forall (fun p => mean_agreement nd tol numSamples (fst p) (snd p)) printed /\
        ((forall p, In p printed -> nisnan (snd p) = false) -> forall i j x y, (i < j)%nat ->
           nth_error printed i = Some x -> nth_error printed j = Some y -> nltb (snd y) (snd x) = false)
  | CPanic => True
  | _ => exists ch c', cohenlasso_reaches srt (Some d) lambMin lambMax num numSamples tol (schedule ++ [ch]) c'
  end.
Proof.
  intros o srt d lambMin lambMax num numSamples tol nd lambs sch c Hsrt Hy En El (t & Et & Er).
  rewrite (targets_are _ _ _ _ _ _ _ _ En El) in Et. injection Et as <-.
  destruct (logspace_length _ _ _ _ _ El) as (Ll & _).
  destruct (C46_every_schedule o srt _ _ numSamples _ sch c Hsrt Er) as (B1 & B2).
  rewrite map_length, rev_length in B1. split; [exact (eq_ind _ (fun q => (length sch <= 17 + 3 * q)%nat) B1 _ Ll)|].
  assert (Snoc : (exists ch c', cohen_step srt numSamples (map (the_target nd tol) (rev lambs)) ch c = Some c') ->
    exists ch c', cohenlasso_reaches srt (Some d) lambMin lambMax num numSamples tol (sch ++ [ch]) c').
  { intros (ch & c' & Es). exists ch, c', (map (the_target nd tol) (rev lambs)). split; [exact (targets_are _ _ _ _ _ _ _ _ En El)|].
    exact (run_snoc _ _ _ _ _ _ _ _ _ _ _ Er Es). }
  destruct (cpMain c) as [| | | |best summary|] eqn:Em; auto.
  destruct B2 as (P1 & F1 & _ & P2 & S1 & _). rewrite map_length, rev_length in P1.
  destruct (nnd_dims _ _ _ _ En) as (D1 & D2 & D3).
  assert (Idx : forall s, In s summary -> (fst s < length lambs)%nat /\ evaluates numSamples (map (the_target nd tol) (rev lambs)) (fst s) (snd s)).
  { intros s Hs. apply (Permutation_in _ P2) in Hs. split.
    - assert (In (fst s) (seq 0 (length lambs))) as Hq by (apply (Permutation_in _ P1), in_map; exact Hs). apply in_seq in Hq. lia.
    - rewrite Forall_forall in F1. exact (F1 s Hs). }
  set (f := fun s : nat * F64 o => (nth (fst s) (rev lambs) n0, snd s)).
  exists (map f summary).
  split. { clear - Idx. assert (H : forall s, In s summary -> (fst s < length lambs)%nat) by (intros s Hs; apply Idx; exact Hs). clear Idx.
    induction summary as [|s l IH]; cbn [map]; constructor.
    - split; [|reflexivity]. cbn [f fst]. apply nth_error_nth'. rewrite rev_length. apply H. left. reflexivity.
    - apply IH. intros. apply H. right. assumption. }
  split. { rewrite map_map. cbn [f fst].
    replace (map (fun s : nat * F64 o => nth (fst s) (rev lambs) n0) summary) with (map (fun i => nth i (rev lambs) n0) (map fst summary)) by (rewrite map_map; reflexivity).
    transitivity (map (fun i => nth i (rev lambs) n0) (seq 0 (length lambs))).
    - apply Permutation_map. transitivity (map fst (cpEvals c)); [apply Permutation_map; exact P2|exact P1].
    - rewrite <- rev_length. replace (map (fun i => nth i (rev lambs) n0) (seq 0 (length (rev lambs)))) with (rev lambs).
      + symmetry. apply Permutation_rev.
      + generalize (rev lambs). clear. intro l. induction l as [|a l IH]; [reflexivity|]. cbn [length seq map nth]. f_equal.
        rewrite <- seq_shift, map_map. exact IH. }
  split. { apply Forall_forall. intros p Hp. apply in_map_iff in Hp. destruct Hp as (s & <- & Hs). destruct (Idx s Hs) as (H1 & tgt & rnd & calls & H2 & H3).
    rewrite nth_error_map, (nth_error_nth' _ n0) in H2 by (rewrite rev_length; exact H1). cbn [option_map] in H2. injection H2 as <-.
    cbn [f fst snd]. set (l := nth (fst s) (rev lambs) n0) in *. unfold the_target in H3.
    destruct (C64_kappa o Empirical_Get (ndX nd) (ndy nd) l 100000 tol PureLasso I) as (sel & Hsel).
    destruct (Hsel rnd numSamples [] (snd s) calls H3) as (K1 & K2).
    destruct (C46_split (F64 o) _ _ rnd numSamples _ _ calls H3) as (L1 & L2 & _). cbn [pure_target tgRows] in L2.
    exists calls, sel. split; [exact L1|]. split; [exact L2|]. split; [|exact K1].
    intros p Hp. destruct (K2 p Hp) as (q & q' & Q1 & Q2). rewrite Forall_forall in L2. destruct (L2 p Hp) as (_ & _ & _ & Hi).
    split; eapply select_selects; try eassumption; try congruence; intros i Hii; apply Hi, in_or_app; auto. }
  intros Hnan i j x y Hij Ex Ey. rewrite nth_error_map in Ex, Ey.
  destruct (nth_error summary i) as [a|] eqn:Ea; [|discriminate Ex]. destruct (nth_error summary j) as [b|] eqn:Eb; [|discriminate Ey].
  cbn [option_map] in Ex, Ey. injection Ex as <-. injection Ey as <-. cbn [f snd].
  apply (S1 ltac:(intros t k Hin; apply (Hnan (f (t, k))), in_map; apply (Permutation_in _ (Permutation_sym P2)); exact Hin) i j a b Hij Ea Eb).
Qed.
Print Assumptions C78_summary.

(** Exact arithmetic, and a target that is not constant.  If some feature other
    than the first differs from a common value in a single row, or if there are
    at most three rows, the program never prints its summary: every order of
    the goroutines leads to a panic, as one half of the rows then sees a
    constant feature. *)
Theorem C78_never_finishes : forall srt (d : Dataset XR) x y lambMin lambMax num numSamples tol schedule c,
  let m := mrows (dsX d) in let n := mcols (dsX d) in
  sort_spec byValueLess srt -> rmat (dsX d) x -> dsY d = map XFin y -> length y = m -> (0 < m)%nat -> sdev y <> 0%R ->
  (1 <= num)%Z -> (1 <= numSamples)%Z ->
  (exists k r a, (0 < k < n)%nat /\ forall i, (i < m)%nat -> i <> r -> x i k = a) \/ ((m <= 3)%nat /\ (1 < n)%nat) ->
  cohenlasso_reaches srt (Some d) lambMin lambMax num numSamples tol schedule c ->
  (length schedule <= 17 + 3 * Z.to_nat num)%nat /\
  (forall best summary, cpMain c <> CDone best summary) /\
  (cpMain c = CPanic \/
   exists ch c', cohenlasso_reaches srt (Some d) lambMin lambMax num numSamples tol (schedule ++ [ch]) c').
Proof.
  intros srt d x y lambMin lambMax num numSamples tol sch c m n Hsrt HX HY Hy Hm Hsd Hnum Hns Hcase (t & Et & Er).
  pose proof Et as Et'. unfold cohenlasso_targets in Et'.
  destruct (NewNormalizedData (dsX d) (dsY d)) as [nd| |] eqn:En; try discriminate Et'. cbn [bind] in Et'.
  destruct (go_make tt num) as [slots| |]; try discriminate Et'. cbn [bind] in Et'.
  destruct (Logspace lambMin lambMax num) as [lambs| |] eqn:El; try discriminate Et'. clear Et' slots.
  pose proof (targets_are XR d lambMin lambMax num tol nd lambs En El) as Et2.
  assert (t = map (the_target nd tol) (rev lambs)) as -> by congruence. clear Et2.
  destruct (logspace_length _ _ _ _ _ El) as (Ll & _).
  pose proof (init_inv XR XR_OrdLaws _ _ srt Hsrt numSamples (map (the_target nd tol) (rev lambs))) as I0.
  pose proof (run_inv XR XR_OrdLaws _ _ srt Hsrt numSamples _ sch _ c I0 Er) as I1.
  assert (LT : length (map (the_target nd tol) (rev lambs)) = Z.to_nat num) by (rewrite map_length, rev_length; exact Ll).
  split.
  { pose proof (run_length XR XR_OrdLaws _ _ srt Hsrt numSamples _ sch _ c I0 Er) as A1.
    pose proof (init_meas XR _ _ srt (map (the_target nd tol) (rev lambs))) as A2. rewrite LT in A2. lia. }
  assert (Hyne : y <> []) by (intros ->; cbn in Hy; lia).
  rewrite HY in En. destruct (nnd_inv (dsX d) x y nd HX Hm Hyne En) as (A1 & A2 & A3 & A4).
  rewrite (ydone_y y Hsd) in A4.
  assert (No : forall l rnd v, GetCohensKappa (N := XR) rnd numSamples (the_target nd tol l) <> Ok v).
  { intros l rnd v. unfold the_target. rewrite A4.
    destruct Hcase as [(k & r & a & Hk & Ha)|(Hm3 & Hn1)].
    - eapply (C65_lone_row Empirical_Get (ndX nd) (normed (dsX d) x) _ l 100000 tol _ rnd numSamples k r ((a - mean (rcol m x k)) / scale m x k)%R v A3).
      + rewrite map_length, Hy, A1. reflexivity.
      + rewrite A2. exact Hk.
      + intros i Hi Hr. rewrite A1 in Hi. unfold normed. rewrite (Ha i Hi Hr). reflexivity.
      + lia.
    - eapply (C65_few_rows Empirical_Get (ndX nd) (normed (dsX d) x) _ l 100000 tol _ rnd numSamples v A3).
      + rewrite map_length, Hy, A1. reflexivity.
      + rewrite A2. exact Hn1.
      + rewrite A1. exact Hm3.
      + lia. }
  assert (ND : forall best summary, cpMain c <> CDone best summary).
  { intros best summary Ed. destruct I1 as (rc & He & Hk & Hm'). rewrite Ed in Hm'. destruct Hm' as (_ & _ & Hp & _).
    rewrite LT in Hp. destruct rc as [|[t k] rc].
    - apply Permutation_nil in Hp. destruct (Z.to_nat num) eqn:E0; [lia|discriminate Hp].
    - assert (In (t, k) (cpEvals c)) as Hin by (apply (Permutation_in _ (Permutation_sym He)), in_or_app; right; left; reflexivity).
      rewrite Forall_forall in Hk. destruct (Hk _ Hin) as (tgt & rnd & calls & H1 & H2). cbn [fst snd] in *.
      apply nth_error_In, in_map_iff in H1. destruct H1 as (l & <- & _). exact (No l rnd _ H2). }
  split; [exact ND|].
  destruct (progress XR _ _ srt numSamples _ c I1) as [(b & s & Eb)|[Eb|(ch & c1 & E1)]].
  - destruct (ND b s Eb).
  - left. exact Eb.
  - right. exists ch, c1, (map (the_target nd tol) (rev lambs)). split; [exact Et|]. exact (run_snoc _ _ _ _ _ _ _ _ _ _ _ Er E1).
Qed.
Print Assumptions C78_never_finishes.

(** ** Examples *)

(** four rows, a column of ones and two features; two samples for one penalty
    in binary64: the program ends with a positive kappa for its only penalty *)
Definition ex78 {N : Num} : Dataset N := mkDataset
  (mkMat 4 3 (fun i j => match j with O => n1 | 1%nat => nofnat i | _ => nofZ (nth i [3; -1; 2; 7]%Z 0%Z) end))
  [nofZ 1; nofZ 3; nofZ 4; nofZ 9] ["one"; "a"; "b"; "t"]%string 3.
Definition ex78_sched : list cchoice := [KStart; KGive 0] ++ repeat KStart 15 ++ [KCompute 0 rnd0; KTake 0].

Example C78_example : length (dsY (ex78 (N := F64 fenv0))) = mrows (dsX (ex78 (N := F64 fenv0))) /\
  exists (c : CPool (F64 fenv0) (list (F64 fenv0))) best k, cohenlasso_reaches (isort byValueLess) (Some ex78) (ndec 1 (-1)) n1 1 2 (ndec 1 (-4)) ex78_sched c /\
    cpMain c = CDone best [(0%nat, k)] /\ nltb n0 k = true.
Proof.
  split; [reflexivity|].
  assert (E : match cohenlasso_targets (N := F64 fenv0) (Some ex78) (ndec 1 (-1)) n1 1 (ndec 1 (-4)) with
    | Ok t => match cohen_run (isort byValueLess) 2 t ex78_sched (cohen_init (isort byValueLess) t) with
      | Some c => match cpMain c with CDone best ((i, k) :: []) => (i =? 0)%nat && nltb (n0 : F64 fenv0) k | _ => false end
      | None => false end
    | _ => false end = true) by (vm_compute; reflexivity).
  destruct (cohenlasso_targets (N := F64 fenv0) _ _ _ _ _) as [t| |] eqn:Et; try discriminate E.
  destruct (cohen_run _ _ t _ _) as [c|] eqn:Ec; try discriminate E.
  destruct (cpMain c) as [| | | |best [|[i k] [|]]|] eqn:Em; try discriminate E.
  apply andb_prop in E. destruct E as (E1 & E2). apply Nat.eqb_eq in E1. subst i.
  exists c, best, k. split; [exists t; split; assumption|]. split; [exact Em|exact E2].
Qed.

(** the data of the example of C65: 1 in the last row only *)
Definition ex78b : Dataset XR := mkDataset ex65X (map XFin [1; 2; 3; 4; 5]%R) ["one"; "a"; "t"]%string 2.

Example C78_never_example : (forall i, (i < mrows (dsX ex78b))%nat -> i <> 4%nat -> ex65A i 1 = 0%R) /\ rmat (dsX ex78b) ex65A /\
  sdev [1; 2; 3; 4; 5]%R <> 0%R /\
  exists c, cohenlasso_reaches (isort byValueLess) (Some ex78b) (fin 1) (fin 1) 1 1 (fin 1) [] c.
Proof.
  destruct C65_example as (E1 & E2 & E3). split; [exact E2|]. split; [exact E1|]. split.
  - intro C. unfold sdev, mean, lsum in C. cbn [length map fold_right Nat.leb Nat.sub INR] in C. revert C.
    apply Rgt_not_eq, sqrt_lt_R0. unfold Rsqr. simpl. lra.
  - apply (proj2 (C78_starts XR _ ex78b _ _ _ _ _)). split; [lia|exact E3].
Qed.

(** C35: the worker pool of LassoCrdDescPath. *)
From Coq Require Import Permutation.
From Verif Require Import Base Num Mat Model_Node Model_Util Model_Fit Model_Norm Model_Cov Model_Crd Model_CrdPath
  Proof_Node Proof_Util Proof_Crd Props_Crd Proof_CrdPath.

(** ** Specification *)

(** the node that belongs to the coefficient vector [b] *)
Definition node_of {N : Num} (lamb : N) (b : list N) (nd : LassoLarsNode N) : Prop :=
  lnLamb nd = lamb /\
  lnSelection nd = map Z.of_nat (filter (fun j => nltb (ndec 1 (-16)) (nabs (nth j b n0))) (seq 0 (length b))) /\
  lnCoeff nd = map (fun s => nth (Z.to_nat s) b n0) (lnSelection nd).

(** the node a single call of LassoCrdDesc for [lamb] leads to *)
Definition solution_of {N : Num} get (d : NormalizedData N) maxIter tol corr (lamb : N) (nd : LassoLarsNode N) : Prop :=
  exists b x c v, LassoCrdDesc get d lamb None maxIter tol corr = Ok (b, x, c, v) /\ node_of lamb b nd.

(** [r] is [path] without the empty models at its front, or [path] itself if
    all models are empty *)
Definition without_leading_empty {N : Num} (path r : list (LassoLarsNode N)) : Prop :=
  (exists dropped, path = dropped ++ r /\ Forall (fun nd => lnSelection nd = []) dropped /\
     exists nd t, r = nd :: t /\ lnSelection nd <> []) \/
  (r = path /\ Forall (fun nd => lnSelection nd = []) path).

(** a correction object that does not change during a run *)
Definition stateless {N : Num} (corr : Correction N) : Prop :=
  match corr with CLasso _ _ => False | _ => True end.

Definition idle {N : Num} (w : Worker N) : Prop := w = WIdle.

(** ** Helpers *)

Lemma trim_spec : forall (N : Num) (path : list (LassoLarsNode N)), without_leading_empty path (trim path).
Proof.
  intros N path. unfold trim.
  assert (G : exists dropped, path = dropped ++ drop_empty path /\ Forall (fun nd => lnSelection nd = []) dropped /\
    match drop_empty path with [] => True | nd :: _ => lnSelection nd <> [] end).
  { induction path as [|nd path (dr & E & F & H)]; cbn [drop_empty].
    - exists []. repeat split. constructor.
    - destruct (lnSelection nd) eqn:Es.
      + exists (nd :: dr). cbn [app]. rewrite <- E. split; [reflexivity|]. split; [constructor; assumption|]. exact H.
      + exists []. split; [reflexivity|]. split; [constructor|]. congruence. }
  destruct G as (dr & E & F & H). destruct (drop_empty path) as [|nd t] eqn:Ed.
  - right. split; [reflexivity|]. rewrite app_nil_r in E. subst dr. exact F.
  - left. exists dr. split; [exact E|]. split; [exact F|]. exists nd, t. auto.
Qed.

Lemma crd_node_spec : forall (N : Num) (b : list N) lamb, exists nd, crd_node b lamb = Ok nd /\ node_of lamb b nd.
Proof.
  intros N b lamb. unfold crd_node.
  set (p := fun c : N => nltb lassoCrdDescZero (nabs c)).
  assert (G : forall l k sel co,
    for_eachi k l (fun j c (st : list Z * list N) => let '(selection, selectedCoeff) := st in
      if nltb lassoCrdDescZero (nabs c) then Ok (selection ++ [Z.of_nat j], selectedCoeff ++ [c]) else Ok (selection, selectedCoeff)) (sel, co) =
    Ok (sel ++ map Z.of_nat (map (fun j => (k + j)%nat) (filter (fun j => p (nth j l n0)) (seq 0 (length l)))),
        co ++ map (fun j => nth j l n0) (filter (fun j => p (nth j l n0)) (seq 0 (length l))))).
  { induction l as [|c l IH]; intros k sel co; cbn [for_eachi length seq filter map].
    - rewrite !app_nil_r. reflexivity.
    - change (nth 0 (c :: l) n0) with c. change (nltb lassoCrdDescZero (nabs c)) with (p c).
      assert (Es : filter (fun j => p (nth j (c :: l) n0)) (seq 1 (length l)) = map S (filter (fun j => p (nth j l n0)) (seq 0 (length l)))).
      { rewrite <- seq_shift. generalize (seq 0 (length l)) as s. intro s.
        assert (FM : forall (f : nat -> bool) (g : nat -> nat) l0, filter f (map g l0) = map g (filter (fun x => f (g x)) l0)).
        { intros f g. induction l0 as [|x l0 IH0]; cbn [map filter]; [reflexivity|]. destruct (f (g x)); cbn [map]; rewrite IH0; reflexivity. }
        rewrite FM. reflexivity. }
      rewrite Es.
      assert (E1 : forall s, map Z.of_nat (map (fun j => (S k + j)%nat) s) = map Z.of_nat (map (fun j => (k + j)%nat) (map S s))).
      { intro s. rewrite !map_map. apply map_ext. intro. f_equal. lia. }
      assert (E2 : forall s, map (fun j => nth j l n0) s = map (fun j => nth j (c :: l) n0) (map S s)).
      { intro s. rewrite map_map. reflexivity. }
      destruct (p c); cbn [bind]; rewrite IH, E1, E2; [|reflexivity]. cbn [map].
      change (nth 0 (c :: l) n0) with c. rewrite <- !app_assoc, Nat.add_0_r. reflexivity. }
  rewrite (G b 0%nat [] []). cbn [bind app]. unfold NewLassoLarsNode. rewrite !map_length, Nat.eqb_refl. cbn [negb].
  eexists. split; [reflexivity|]. split; [reflexivity|]. cbn [lnSelection lnCoeff].
  assert (Hc : forall A (a : A) (l : list A) k, k = length l -> go_copy (repeat a k) l = l).
  { intros A a l k ->. unfold go_copy. rewrite repeat_length, firstn_all, skipn_all2 by (rewrite repeat_length; lia). apply app_nil_r. }
  rewrite Hc by (rewrite !map_length; reflexivity). split.
  - rewrite map_ext with (g := fun j => j) by (intro; reflexivity). rewrite map_id. reflexivity.
  - rewrite Hc by (rewrite !map_length; reflexivity). rewrite !map_map. apply map_ext. intro j. rewrite Nat2Z.id. reflexivity.
Qed.

Lemma run_total : forall (N : Num) get (d : NormalizedData N) lamb k tol corr, shaped get d corr -> stateless corr ->
  exists b v, LassoCrdDesc get d lamb None k tol corr = Ok (b, None, corr, v) /\ length b = mcols (ndX d).
Proof.
  intros N get d lamb k tol corr [Hn Hy (cov & Eg & R1 & R2) Hc] Hst.
  set (n := mcols (ndX d)) in *.
  assert (EX : exists XTy, mat_mulvec (mat_T (ndX d)) (ndy d) = Ok XTy /\ length XTy = n).
  { unfold mat_mulvec. cbn [mat_T mcols mrows]. rewrite Hy, Nat.eqb_refl. eexists. split; [reflexivity|].
    rewrite map_length, seq_length. reflexivity. }
  destruct EX as (XTy & EX & LX).
  destruct (start_ok N n cov corr Hn R1 R2 Hc) as (st & E & G & A1 & A2 & A3 & A4 & A5 & A6).
  assert (Hsh : shapes N n cov XTy) by (repeat split; assumption).
  destruct (loop_sweeps N n (mrows (ndX d)) cov XTy lamb tol Hsh (Z.to_nat k) st G A4) as (j1 & st1 & E1 & Hj1 & Hsw1 & Hst1).
  assert (HC : crCorr st1 = corr).
  { clear E1 Hst1 Hj1. induction Hsw1 as [st|j st s1 s2 Hsw IH Hs Ei].
    - exact A3.
    - pose proof (sweeps_inv N n _ _ _ _ _ _ _ _ Hsh G Hsw) as G1.
      destruct (iter_ok N n (mrows (ndX d)) cov XTy lamb tol s1 Hsh G1) as (s' & mc & mx & Ei' & _ & _ & _ & _ & Hco & _).
      rewrite Ei in Ei'. injection Ei' as <-. rewrite Hco, IH by assumption. destruct corr; [reflexivity|destruct Hst|reflexivity]. }
  unfold LassoCrdDesc. rewrite Eg. cbn [bind]. rewrite EX. cbn [bind]. fold n. rewrite E. cbn [bind]. rewrite E1. cbn [bind].
  exists (crBeta st1), (crConv st1). rewrite HC. split; [reflexivity|].
  apply (gi_beta _ _ _ (sweeps_inv N n _ _ _ _ _ _ _ _ Hsh G Hsw1)).
Qed.

Lemma solutions : forall (N : Num) get (d : NormalizedData N) k tol corr lambs, shaped get d corr -> stateless corr ->
  exists sol : nat -> LassoLarsNode N, forall i lam, nth_error lambs i = Some lam ->
    solution_of get d k tol corr lam (sol i) /\
    (forall x0, perform get d k tol corr (mkWork x0 lam i) = Ok (mkRes (sol i) i, corr)) /\
    length (lnCoeff (sol i)) = length (lnSelection (sol i)) /\
    (forall s, In s (lnSelection (sol i)) -> (0 <= s < Z.of_nat (mcols (ndX d)))%Z).
Proof.
  intros N get d k tol corr lambs Hsh Hst.
  exists (fun i => match nth_error lambs i with
    | Some lam => match (do (b, _, _, _) <- LassoCrdDesc get d lam None k tol corr; crd_node b lam) with Ok nd => nd | _ => mkLN [] n0 [] end
    | None => mkLN [] n0 [] end).
  intros i lam Ei. rewrite Ei. destruct (run_total N get d lam k tol corr Hsh Hst) as (b & v & E & Hb).
  rewrite E. cbn [bind]. destruct (crd_node_spec N b lam) as (nd & En & Hnd). rewrite En.
  split; [exists b, None, corr, v; auto|]. split; [|split].
  - intro x0. unfold perform. cbn [wkLamb wkX0 wkIdx].
    destruct (C34_start_vector N get d lam k tol corr b None corr v E) as (_ & S). destruct (S x0) as (z & Ez & _).
    rewrite Ez. cbn [bind]. rewrite En. reflexivity.
  - destruct Hnd as (_ & _ & ->). rewrite map_length. reflexivity.
  - destruct Hnd as (_ & -> & _). intros s Hs. apply in_map_iff in Hs. destruct Hs as (j & <- & Hj).
    apply filter_In in Hj. destruct Hj as (Hj & _). apply in_seq in Hj. lia.
Qed.

Lemma path_sol : forall (N : Num) (P : N -> LassoLarsNode N -> Prop) lambs sol,
  (forall i lam, nth_error lambs i = Some lam -> P lam (sol i)) ->
  Forall2 P (rev lambs) (map sol (avail0 (length lambs))).
Proof.
  intros N P lambs sol H. unfold avail0.
  assert (E : map (fun i => (length lambs - i - 1)%nat) (seq 0 (length lambs)) = rev (seq 0 (length lambs))).
  { clear. generalize (length lambs) as n. induction n as [|n IH]; [reflexivity|]. rewrite seq_S at 2. rewrite rev_app_distr. cbn [rev app seq map Nat.add].
    f_equal; [lia|]. rewrite <- IH, <- seq_shift, map_map. apply map_ext. intro. lia. }
  rewrite E, map_rev.
  assert (F : Forall2 P lambs (map sol (seq 0 (length lambs)))).
  { assert (G : forall l k, (forall i lam, nth_error l i = Some lam -> P lam (sol (k + i)%nat)) -> Forall2 P l (map sol (seq k (length l)))).
    { induction l as [|a l IH]; intros k Hk; cbn [length seq map]; constructor.
      - specialize (Hk 0%nat a eq_refl). rewrite Nat.add_0_r in Hk. exact Hk.
      - apply IH. intros i lam Ei. specialize (Hk (S i) lam Ei). rewrite <- plus_n_Sm in Hk. exact Hk. }
    apply G. exact H. }
  clear H E. induction F as [|a b l m Hab F IH]; cbn [rev]; [constructor|]. apply Forall2_app; [exact IH|]. constructor; [exact Hab|constructor].
Qed.

(** ** C35 *)

(** For every number type, every dataset and every covariance estimate of
    matching shape and every correction without state there is one path, made
    of the solution for each lambda in reverse order, such that in every
    state reached by any interleaving of the workers:
    - nothing has panicked,
    - there were at most 5 L + 1 steps so far (so every execution ends),
    - if no further step is possible the function has returned (no deadlock),
    - if it has returned, the result is the path without its leading empty
      models, and all workers wait for work. *)
Theorem C35_every_schedule : forall (N : Num) get (d : NormalizedData N) (lambs : list N) maxIter (tol : N) corr,
  shaped get d corr -> stateless corr ->
  exists path, Forall2 (solution_of get d maxIter tol corr) (rev lambs) path /\
  forall schedule c, path_run get d lambs maxIter tol schedule (path_init lambs corr) = Some c ->
    plMain c <> PPanic /\
    (length schedule <= 5 * length lambs + 1)%nat /\
    ((forall ch, path_step get d lambs maxIter tol ch c = None) -> exists r, plMain c = PDone r) /\
    (forall r, plMain c = PDone r -> without_leading_empty path r /\ Forall idle (plWorkers c) /\
       length (plWorkers c) = Nat.min 10 (length lambs) /\
       forall ch, path_step get d lambs maxIter tol ch c = None).
Proof.
  intros N get d lambs k tol corr Hsh Hst.
  destruct (solutions N get d k tol corr lambs Hsh Hst) as (sol & Hsol).
  assert (Hperf : forall idx lam x0, nth_error lambs idx = Some lam ->
    perform get d k tol corr (mkWork x0 lam idx) = Ok (mkRes (sol idx) idx, corr)).
  { intros idx lam x0 E. apply (Hsol idx lam E). }
  assert (Hsel : forall idx, (idx < length lambs)%nat ->
    length (lnCoeff (sol idx)) = length (lnSelection (sol idx)) /\
    forall s, In s (lnSelection (sol idx)) -> (0 <= s < Z.of_nat (mcols (ndX d)))%Z).
  { intros idx Hi. destruct (nth_error lambs idx) as [lam|] eqn:E; [|apply nth_error_None in E; lia].
    destruct (Hsol idx lam E) as (_ & _ & H1 & H2). auto. }
  exists (map sol (avail0 (length lambs))). split.
  { apply path_sol. intros i lam E. apply (Hsol i lam E). }
  intros sch c E.
  pose proof (run_inv N get d lambs k tol corr sol Hperf Hsel sch _ c (init_inv N d lambs corr sol) E) as HI.
  pose proof (run_bound N get d lambs k tol corr sol Hperf Hsel sch _ c (init_inv N d lambs corr sol) E) as HB.
  pose proof (init_meas N d lambs corr) as HM.
  split; [|split; [|split]].
  - intro C. destruct HI as (_ & _ & Hm). rewrite C in Hm. exact Hm.
  - lia.
  - intro Hstuck. destruct (progress N get d lambs k tol corr sol Hperf c HI) as [H|(ch & c' & E')]; [exact H|].
    rewrite Hstuck in E'. discriminate E'.
  - intros r Er. pose proof (fun ch => done_final N get d lambs k tol corr sol c r ch HI Er) as HF.
    destruct HI as (_ & _ & Hm). rewrite Er in Hm. cbn [inv_main] in Hm. destruct Hm as (-> & Hh & Hl).
    split; [apply trim_spec|]. split; [|split; [|exact HF]].
    + clear - Hh. revert Hh. induction (plWorkers c) as [|w ws IH]; intro Hh; constructor.
      * destruct w as [|w|r]; [reflexivity|discriminate Hh|discriminate Hh].
      * apply IH. destruct w as [|w|r]; [exact Hh|discriminate Hh|discriminate Hh].
    + rewrite Hl. unfold numWorkers. destruct (Nat.ltb_spec (length lambs) 10); lia.
Qed.
Print Assumptions C35_every_schedule.

(** Some schedule does complete (so the above is not about nothing): every
    execution can be continued until the function returns. *)
Theorem C35_completes : forall (N : Num) get (d : NormalizedData N) (lambs : list N) maxIter (tol : N) corr schedule c,
  shaped get d corr -> stateless corr ->
  path_run get d lambs maxIter tol schedule (path_init lambs corr) = Some c ->
  exists more c' r, path_run get d lambs maxIter tol (schedule ++ more) (path_init lambs corr) = Some c' /\ plMain c' = PDone r.
Proof.
  intros N get d lambs k tol corr sch c Hsh Hst E.
  destruct (solutions N get d k tol corr lambs Hsh Hst) as (sol & Hsol).
  assert (Hperf : forall idx lam x0, nth_error lambs idx = Some lam ->
    perform get d k tol corr (mkWork x0 lam idx) = Ok (mkRes (sol idx) idx, corr)).
  { intros idx lam x0 E0. apply (Hsol idx lam E0). }
  assert (Hsel : forall idx, (idx < length lambs)%nat ->
    length (lnCoeff (sol idx)) = length (lnSelection (sol idx)) /\
    forall s, In s (lnSelection (sol idx)) -> (0 <= s < Z.of_nat (mcols (ndX d)))%Z).
  { intros idx Hi. destruct (nth_error lambs idx) as [lam|] eqn:E0; [|apply nth_error_None in E0; lia].
    destruct (Hsol idx lam E0) as (_ & _ & H1 & H2). auto. }
  assert (App : forall l1 l2 c0, path_run get d lambs k tol (l1 ++ l2) c0 =
    match path_run get d lambs k tol l1 c0 with Some c1 => path_run get d lambs k tol l2 c1 | None => None end).
  { induction l1 as [|ch l1 IH]; intros l2 c0; cbn [app path_run]; [reflexivity|].
    destruct (path_step get d lambs k tol ch c0); [apply IH|reflexivity]. }
  pose proof (run_inv N get d lambs k tol corr sol Hperf Hsel sch _ c (init_inv N d lambs corr sol) E) as HI.
  assert (G : forall m c0, (meas N c0 < m)%nat -> inv N lambs corr sol c0 ->
    exists more c' r, path_run get d lambs k tol more c0 = Some c' /\ plMain c' = PDone r).
  { induction m as [|m IH]; intros c0 Hm H0; [lia|].
    destruct (progress N get d lambs k tol corr sol Hperf c0 H0) as [(r & Er)|(ch & c1 & E1)].
    - exists [], c0, r. split; [reflexivity|exact Er].
    - pose proof (step_inv N get d lambs k tol corr sol Hperf Hsel ch c0 c1 H0 E1) as H1.
      pose proof (step_meas N get d lambs k tol corr sol Hperf ch c0 c1 H0 E1) as H2.
      destruct (IH c1 ltac:(lia) H1) as (more & c' & r & E2 & E3). exists (ch :: more), c', r. split; [|exact E3].
      cbn [path_run]. rewrite E1. exact E2. }
  destruct (G _ c (Nat.lt_succ_diag_r _) HI) as (more & c' & r & E1 & E2). exists more, c', r. split; [|exact E2].
  rewrite App, E. exact E1.
Qed.
Print Assumptions C35_completes.

(** ** A correction with state (CLasso)

    All workers share the correction.  Its content is only ever used after the
    first pass of a run has overwritten it, so runs that do not overlap do not
    disturb each other; runs that overlap do.  Two lambdas, three passes each,
    first one after the other, then alternating: the first solution differs. *)
Definition shared_run (schedule : list bool) : res (list (F64 fenv0) * list (F64 fenv0)) :=
  let d := mkND exf_X exf_y [] [] (n0 (N := F64 fenv0)) n0 true in
  do cov <- Empirical_Get (ndX d);
  do XTy <- mat_mulvec (mat_T (ndX d)) (ndy d);
  do st <- crd_start cov 3 (NewCLasso 3 (ndec 5 (-1)));
  do (s1, s2) <- shared_loop 5 cov XTy (ndec 2 (-1)) (ndec 1 (-2)) (ndec 1 (-6)) schedule (crCorr st) st st;
  Ok (crBeta s1, crBeta s2).

Theorem C35_shared_correction_refuted : exists s s' : list bool,
  count_occ Bool.bool_dec s true = count_occ Bool.bool_dec s' true /\
  count_occ Bool.bool_dec s false = count_occ Bool.bool_dec s' false /\
  match shared_run s, shared_run s',
        LassoCrdDesc Empirical_Get (mkND exf_X exf_y [] [] (n0 (N := F64 fenv0)) n0 true) (ndec 1 (-2)) None 3 (ndec 1 (-6))
          (NewCLasso 3 (ndec 5 (-1))) with
  | Ok (_, b), Ok (_, b'), Ok (b0, _, _, _) => b = b0 /\ nltb (nth 2 b n0) (nth 2 b' n0) = true
  | _, _, _ => False
  end.
Proof.
  exists [true; true; true; false; false; false], [true; false; true; false; true; false].
  split; [reflexivity|]. split; [reflexivity|]. vm_compute. split; reflexivity.
Qed.
Print Assumptions C35_shared_correction_refuted.

(** An instance of [C35_every_schedule]: two lambdas in the other order of
    completion; the worker that was given the first item finishes last. *)
Definition ex_lambs : list (F64 fenv0) := [ndec 1 (-2); ndec 2 (-1)].
Definition ex_nd : NormalizedData (F64 fenv0) := mkND exf_X exf_y [] [] n0 n0 true.

Lemma ex_shaped : shaped Empirical_Get ex_nd PureLasso.
Proof.
  constructor.
  - cbn. lia.
  - reflexivity.
  - eexists. split; [reflexivity|]. split; reflexivity.
  - exact I.
Qed.

Example C35_example :
  match path_run Empirical_Get ex_nd ex_lambs 5 (ndec 1 (-6))
    [Start; Give 0; Start; Compute 0; Give 1; Compute 1; Take 1; Take 0] (path_init ex_lambs PureLasso) with
  | Some c => match plMain c with
              | PDone [nd] => lnSelection nd = [2]%Z /\ lnLamb nd = ndec 1 (-2)
              | _ => False end
  | None => False
  end.
Proof. vm_compute. split; reflexivity. Qed.

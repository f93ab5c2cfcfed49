(** C64, C65: the lasso targets of GetCohensKappa. *)
From Coq Require Import Permutation Reals Lra.
From Verif Require Import Base Num Mat RSum Stats Model_Node Model_Util Model_Fit Model_Norm Model_Cov Model_Crd Model_Cohen
  Proof_XR Proof_Norm Proof_Node Proof_Util Proof_Cov Proof_Crd Props_Norm Props_Cov Props_Util Props_Crd Props_CrdPath Props_Cohen.

(** ** C64: no memory *)

Lemma run_x0 : forall (N : Num) get (d : NormalizedData N) lamb k tol corr x x' (B : Type) (f : list N -> Correction N -> res B),
  (do (b, _, c, _) <- LassoCrdDesc get d lamb (Some x) k tol corr; f b c) =
  (do (b, _, c, _) <- LassoCrdDesc get d lamb (Some x') k tol corr; f b c).
Proof.
  intros. unfold LassoCrdDesc. destruct (get (ndX d)) as [cov| |]; cbn [bind]; try reflexivity.
  destruct (mat_mulvec _ _) as [XTy| |]; cbn [bind]; try reflexivity.
  destruct (crd_start cov (mcols (ndX d)) corr) as [st0| |]; cbn [bind]; try reflexivity.
  destruct (crd_loop _ cov XTy lamb tol (Z.to_nat k) st0) as [st| |]; cbn [bind]; reflexivity.
Qed.

Section Select.
  Context {N : Num}.
  Variable get : Mat N -> res (Mat N).
  Variable dX : Mat N.
  Variable dy : list N.

  (** the data restricted to some rows *)
  Definition sub_data (indices : list nat) : res (Mat N * list N) :=
    do X <- new_dense (length indices) (mcols dX);
    for_eachi 0 indices (fun i idx (st : Mat N * list N) =>
      let '(X, y) := st in
      do X <- for_loop 0 (mcols dX) (fun j X => do v <- mat_at dX idx j; mat_set X i j v) X;
      do v <- getn dy idx;
      do y <- setn y i v;
      Ok (X, y)) (X, repeat n0 (length indices)).

  Definition sel_of (coeff : list N) (corr : Correction N) : res (list Z * LassoCohen N) :=
    do selection <- for_eachi 0 coeff (fun i c l =>
      Ok (if nltb lassoCrdDescZero (nabs c) then l ++ [Z.of_nat i] else l)) [];
    Ok (selection, mkLC coeff corr).

  Lemma select_unfold : forall lamb maxIter tol p indices, lasso_select get dX dy lamb maxIter tol p indices =
    do (X, y) <- sub_data indices;
    do normD <- NewNormalizedData X y;
    do (coeff, _, corr, _) <- LassoCrdDesc get normD lamb
      (Some (if negb (length (lcX0 p) =? mcols dX)%nat then repeat n0 (mcols dX) else lcX0 p)) maxIter tol (lcCorr p);
    sel_of coeff corr.
  Proof.
    intros. unfold lasso_select, sub_data. destruct (new_dense _ _) as [X| |]; cbn [bind]; try reflexivity.
  Qed.

  Lemma select_x0 : forall lamb maxIter tol p p' indices, lcCorr p = lcCorr p' ->
    lasso_select get dX dy lamb maxIter tol p indices = lasso_select get dX dy lamb maxIter tol p' indices.
  Proof.
    intros lamb maxIter tol p p' indices E. rewrite !select_unfold, E.
    destruct (sub_data indices) as [[X y]| |]; cbn [bind]; try reflexivity.
    destruct (NewNormalizedData X y) as [nd| |]; cbn [bind]; try reflexivity. apply run_x0.
  Qed.

  Lemma iter_corr : forall nr cov (XTy : list N) lamb tol st st', crd_iter nr cov XTy lamb tol st = Ok st' ->
    exists beta, crCorr st' = Update (crCorr st) beta.
  Proof.
    intros nr cov XTy lamb tol st st' E. unfold crd_iter in E.
    destruct (for_each _ _ _) as [[cdb beta]| |]; cbn [bind] in E; try discriminate E.
    destruct (crd_change _ _ _) as [[mc mx]| |]; cbn [bind] in E; try discriminate E.
    destruct (crd_compact _ _) as [it| |]; cbn [bind] in E; try discriminate E.
    exists beta. destruct (nltb _ tol).
    - destruct (UnsatisfiedKKTConditions _ _ _ _ _) as [u| |]; cbn [bind] in E; try discriminate E.
      destruct (length u =? 0)%nat; injection E as <-; reflexivity.
    - injection E as <-. reflexivity.
  Qed.

  Lemma loop_corr : forall nr cov (XTy : list N) lamb tol k st st', stateless (crCorr st) ->
    crd_loop nr cov XTy lamb tol k st = Ok st' -> crCorr st' = crCorr st.
  Proof.
    intros nr cov XTy lamb tol. induction k as [|k IH]; intros st st' Hs E; cbn [crd_loop] in E.
    - injection E as <-. reflexivity.
    - destruct (crd_iter nr cov XTy lamb tol st) as [s1| |] eqn:E1; cbn [bind] in E; try discriminate E.
      destruct (iter_corr _ _ _ _ _ _ _ E1) as (beta & Ec).
      assert (Es : crCorr s1 = crCorr st) by (rewrite Ec; destruct (crCorr st); [reflexivity|destruct Hs|reflexivity]).
      destruct (crStop s1); [injection E as <-; exact Es|]. rewrite <- Es. apply IH; [rewrite Es; exact Hs|exact E].
  Qed.

  Lemma select_corr : forall lamb maxIter tol p indices sel q, stateless (lcCorr p) ->
    lasso_select get dX dy lamb maxIter tol p indices = Ok (sel, q) -> lcCorr q = lcCorr p.
  Proof.
    intros lamb maxIter tol p indices sel q Hs E. rewrite select_unfold in E.
    destruct (sub_data indices) as [[X y]| |]; cbn [bind] in E; try discriminate E.
    destruct (NewNormalizedData X y) as [nd| |]; cbn [bind] in E; try discriminate E.
    unfold LassoCrdDesc in E. destruct (get (ndX nd)) as [cov| |]; cbn [bind] in E; try discriminate E.
    destruct (mat_mulvec _ _) as [XTy| |]; cbn [bind] in E; try discriminate E.
    destruct (crd_start cov _ (lcCorr p)) as [st0| |] eqn:E0; cbn [bind] in E; try discriminate E.
    destruct (crd_loop _ cov XTy lamb tol _ st0) as [st| |] eqn:El; cbn [bind] in E; try discriminate E.
    unfold sel_of in E. destruct (for_eachi _ _ _ _) as [s| |]; cbn [bind] in E; try discriminate E.
    injection E as <- <-. cbn [lcCorr].
    assert (Ec : crCorr st0 = lcCorr p).
    { unfold crd_start in E0. rewrite start_iter in E0. cbn [bind] in E0. destruct (MulSlice _ _) as [cdb| |]; cbn [bind] in E0; try discriminate E0.
      injection E0 as <-. reflexivity. }
    rewrite <- Ec. apply (loop_corr _ _ _ _ _ _ _ _ ltac:(rewrite Ec; exact Hs) El).
  Qed.
End Select.

(** The vector x0 that GetSelection keeps from its previous call has no effect. *)
Theorem C64_x0_ignored : forall o get (dX : Mat (F64 o)) dy lamb maxIter tol corr x x' indices,
  lasso_select get dX dy lamb maxIter tol (mkLC x corr) indices =
  lasso_select get dX dy lamb maxIter tol (mkLC x' corr) indices.
Proof. intros. apply select_x0. reflexivity. Qed.
Print Assumptions C64_x0_ignored.

(** For the plain and the elastic-net corrections there is a fixed function
    from index sets to selections: kappa only depends on the splits drawn. *)
Theorem C64_kappa : forall o get (dX : Mat (F64 o)) dy lamb maxIter tol corr, stateless corr ->
  exists sel : list nat -> list Z, forall rnd numSamples x (k : F64 o) calls,
    GetCohensKappa rnd numSamples (pure_target get dX dy lamb maxIter tol (mkLC x corr)) = Ok (k, calls) ->
    k = (fold_left (fun s p => s + CohenKappa (sel (fst p)) (sel (snd p)) (Z.of_nat (mcols dX)))%num calls n0
           / nofZ numSamples)%num /\
    forall p, In p calls -> exists q q',
      lasso_select get dX dy lamb maxIter tol (mkLC x corr) (fst p) = Ok (sel (fst p), q) /\
      lasso_select get dX dy lamb maxIter tol (mkLC x corr) (snd p) = Ok (sel (snd p), q').
Proof.
  intros o get dX dy lamb maxIter tol corr Hs.
  set (run := fun p => lasso_select get dX dy lamb maxIter tol p).
  set (sel := fun ix => match run (mkLC [] corr) ix with Ok (s, _) => s | _ => [] end).
  exists sel. intros rnd m x k calls E.
  destruct (C46_split (F64 o) _ _ rnd m _ k calls E) as (_ & _ & ks & s & Hsm & ->).
  assert (HR : forall p ix s q, lcCorr p = corr -> run p ix = Ok (s, q) -> s = sel ix /\ lcCorr q = corr /\
    run (mkLC x corr) ix = Ok (sel ix, q)).
  { intros p ix s0 q Ep Er. pose proof (select_corr get dX dy lamb maxIter tol p ix s0 q ltac:(rewrite Ep; exact Hs) Er) as Ec.
    assert (Ex : forall p', lcCorr p' = corr -> run p' ix = Ok (s0, q)).
    { intros p' Ep'. rewrite <- Er. apply select_x0. congruence. }
    unfold sel. rewrite (Ex (mkLC [] corr) eq_refl). rewrite Ec. auto. }
  cbn [pure_target tgInit] in Hsm.
  assert (G : forall p0 acc, lcCorr p0 = corr ->
    samples (pure_target get dX dy lamb maxIter tol (mkLC x corr)) p0 calls ks s ->
    fold_left nadd ks acc = fold_left (fun s p => s + CohenKappa (sel (fst p)) (sel (snd p)) (Z.of_nat (mcols dX)))%num calls acc /\
    forall p, In p calls -> exists q q', run (mkLC x corr) (fst p) = Ok (sel (fst p), q) /\ run (mkLC x corr) (snd p) = Ok (sel (snd p), q')).
  { clear Hsm E. revert HR. clearbody sel. intros HR p0 acc Ep Hsm. revert acc Ep.
    induction Hsm as [p0|p0 i1 i2 sel1 p1 sel2 p2 cs ks p3 T1 T2 Hsm IH]; intros acc Ep.
    - split; [reflexivity|intros p []].
    - cbn [pure_target tgSelect tgCols] in T1, T2.
      destruct (HR p0 i1 sel1 p1 Ep T1) as (-> & Ep1 & R1). destruct (HR p1 i2 sel2 p2 Ep1 T2) as (-> & Ep2 & R2).
      cbn [fold_left fst snd]. destruct (IH (acc + CohenKappa (sel i1) (sel i2) (Z.of_nat (mcols dX)))%num Ep2) as (I1 & I2).
      split; [exact I1|]. intros p [<-|Hp]; [cbn [fst snd]; eauto|eauto]. }
  destruct (G (mkLC x corr) n0 eq_refl Hsm) as (G1 & G2). rewrite G1. split; [reflexivity|exact G2].
Qed.
Print Assumptions C64_kappa.

(** ** Rows of the data *)

Lemma row_loop : forall (N : Num) (dX X : Mat N) i idx, (idx < mrows dX)%nat -> (i < mrows X)%nat -> mcols X = mcols dX ->
  exists X', for_loop 0 (mcols dX) (fun j X => do v <- mat_at dX idx j; mat_set X i j v) X = Ok X' /\
    mrows X' = mrows X /\ mcols X' = mcols X /\
    forall a b, mval X' a b = if (a =? i)%nat && (b <? mcols dX)%nat then mval dX idx b else mval X a b.
Proof.
  intros N dX X i idx Hx Hi Hc.
  destruct (for_loop_inv _ (fun k (Y : Mat N) => mrows Y = mrows X /\ mcols Y = mcols X /\
    forall a b, mval Y a b = if (a =? i)%nat && (b <? k)%nat then mval dX idx b else mval X a b)
    (fun j X => do v <- mat_at dX idx j; mat_set X i j v) (mcols dX) 0%nat X) as (X' & E & R & C & V).
  - split; [reflexivity|]. split; [reflexivity|]. intros a b. rewrite Bool.andb_false_r. reflexivity.
  - intros k Y Hk (R & C & V). rewrite mat_at_in by lia. cbn [bind]. rewrite mat_set_in by lia.
    eexists. split; [reflexivity|]. cbn [mat_upd mrows mcols mval]. split; [exact R|]. split; [exact C|].
    intros a b. rewrite V. destruct (Nat.eqb_spec a i); cbn [andb]; [|reflexivity].
    destruct (Nat.eqb_spec b k); [subst; rewrite (proj2 (Nat.ltb_lt k (S k))) by lia; reflexivity|].
    destruct (Nat.ltb_spec b k); destruct (Nat.ltb_spec b (S k)); try lia; reflexivity.
  - exists X'. rewrite Nat.add_0_l in *. auto.
Qed.

Lemma sub_data_ok : forall (N : Num) (dX : Mat N) dy indices, indices <> [] -> (0 < mcols dX)%nat ->
  (forall i, In i indices -> (i < mrows dX)%nat) -> length dy = mrows dX ->
  exists X, sub_data dX dy indices = Ok (X, map (fun i => nth i dy n0) indices) /\
    mrows X = length indices /\ mcols X = mcols dX /\
    forall r c, (r < length indices)%nat -> (c < mcols dX)%nat -> mval X r c = mval dX (nth r indices 0%nat) c.
Proof.
  intros N dX dy indices Hne Hc Hin Hy. unfold sub_data, new_dense.
  rewrite (proj2 (Nat.eqb_neq (length indices) 0)) by (destruct indices; [contradiction|discriminate]).
  rewrite (proj2 (Nat.eqb_neq (mcols dX) 0)) by lia. cbn [orb bind].
  enough (G : forall l pre X, indices = pre ++ l -> mrows X = length indices -> mcols X = mcols dX ->
    (forall r c, (r < length pre)%nat -> (c < mcols dX)%nat -> mval X r c = mval dX (nth r indices 0%nat) c) ->
    exists X', for_eachi (length pre) l (fun i idx (st : Mat N * list N) =>
        let '(X, y) := st in
        do X <- for_loop 0 (mcols dX) (fun j X => do v <- mat_at dX idx j; mat_set X i j v) X;
        do v <- getn dy idx;
        do y <- setn y i v;
        Ok (X, y)) (X, map (fun i => nth i dy n0) pre ++ repeat n0 (length l)) =
      Ok (X', map (fun i => nth i dy n0) indices) /\ mrows X' = length indices /\ mcols X' = mcols dX /\
      forall r c, (r < length indices)%nat -> (c < mcols dX)%nat -> mval X' r c = mval dX (nth r indices 0%nat) c).
  { destruct (G indices [] (mkMat (length indices) (mcols dX) (fun _ _ => n0)) eq_refl eq_refl eq_refl) as (X' & E & H1 & H2 & H3).
    - intros r c Hr. cbn in Hr. lia.
    - cbn [length map app] in E. exists X'. auto. }
  induction l as [|idx l IH]; intros pre X Ei R C V.
  - cbn [for_eachi length repeat]. rewrite app_nil_r in *. subst pre. exists X. auto.
  - cbn [for_eachi length repeat].
    assert (Hidx : (idx < mrows dX)%nat) by (apply Hin; rewrite Ei; apply in_or_app; right; left; reflexivity).
    assert (Lp : (length pre < length indices)%nat) by (rewrite Ei, app_length; cbn; lia).
    destruct (row_loop N dX X (length pre) idx Hidx ltac:(lia) C) as (X1 & E1 & R1 & C1 & V1). rewrite E1. cbn [bind].
    rewrite (getn_lt _ dy idx n0) by lia. cbn [bind].
    pose proof (setn_at_end _ (map (fun i => nth i dy n0) pre) n0 (nth idx dy n0) (repeat n0 (length l))) as Es.
    rewrite map_length in Es. rewrite Es. cbn [bind].
    destruct (IH (pre ++ [idx]) X1) as (X' & E' & H1 & H2 & H3).
    + rewrite <- app_assoc. exact Ei.
    + lia.
    + lia.
    + intros r c Hr Hc0. rewrite app_length in Hr. cbn [length] in Hr. rewrite V1, (proj2 (Nat.ltb_lt c (mcols dX)) Hc0).
      destruct (Nat.eqb_spec r (length pre)) as [->|Hn]; cbn [andb].
      * rewrite Ei, app_nth2, Nat.sub_diag by lia. reflexivity.
      * apply V; lia.
    + exists X'. rewrite app_length, Nat.add_1_r, map_app, <- app_assoc in E'. cbn [map app] in E'. auto.
Qed.

(** ** C64 for the correction with memory *)

Lemma deriv_zero : forall (l : list R) eta j, (j < length l)%nat ->
  Deriv (CLasso (fins l) (XFin eta : XR)) (repeat n0 (length l)) (Z.of_nat j) = Ok (fin 0).
Proof.
  intros l eta j Hj.
  assert (E0 : repeat n0 (length l) = fins (repeat 0%R (length l))).
  { unfold fins. generalize (length l) as m. clear. induction m as [|m IH]; [reflexivity|]. cbn [repeat map]. rewrite IH. reflexivity. }
  rewrite E0. cbn [Deriv]. rewrite classo_loop by (rewrite repeat_length; reflexivity). cbn [bind].
  destruct (nltb _ _) eqn:Et; [reflexivity|].
  rewrite getz_nat, getn_fins by exact Hj. cbn [bind]. change (XFin eta : XR) with (fin eta).
  assert (Ei : inner l (repeat 0%R (length l)) = 0%R).
  { unfold inner. rewrite (rsum_ext _ _ (fun _ => 0%R)); [apply rsum_0'; reflexivity|].
    intros i Hi. rewrite nth_repeat. ring. }
  rewrite Ei, !xmul_fin, xdiv_fin.
  - do 2 f_equal. unfold Rdiv. ring.
  - intro C. rewrite C, xabs_fin, Rabs_R0, tol10_dec in Et. change (Rltb 0 tol10 = false) in Et.
    apply Rltb_false in Et. pose proof tol10_pos. lra.
Qed.

Lemma coord_length : forall (N : Num) nr cov (XTy old : list N) lamb corr j cdb beta cdb' beta',
  crd_coord nr cov XTy old lamb corr j (cdb, beta) = Ok (cdb', beta') -> length beta' = length beta.
Proof.
  intros N nr cov XTy old lamb corr j cdb beta cdb' beta' E. unfold crd_coord in E.
  destruct (mat_at cov j j) as [cd| |]; cbn [bind] in E; try discriminate E.
  destruct (getn old j) as [oc| |]; cbn [bind] in E; try discriminate E.
  destruct (getn cdb j) as [c| |]; cbn [bind] in E; try discriminate E.
  destruct (getn XTy j) as [x| |]; cbn [bind] in E; try discriminate E.
  destruct (Deriv corr old _) as [d| |]; cbn [bind] in E; try discriminate E.
  destruct (UpdateCovDotBeta _ _ _ _ _) as [u| |]; cbn [bind] in E; try discriminate E.
  destruct (setn beta j _) as [b| |] eqn:Eb; cbn [bind] in E; try discriminate E. injection E as <- <-.
  destruct (Nat.lt_ge_cases j (length beta)) as [H|H].
  - rewrite setn_lt in Eb by exact H. injection Eb as <-. apply upd_length.
  - rewrite setn_ge in Eb by exact H. discriminate Eb.
Qed.

Lemma coords_same : forall nr cov (XTy : list XR) lamb c1 c2 n, 
  (forall j, (j < n)%nat -> Deriv c1 (repeat n0 n) (Z.of_nat j) = Deriv c2 (repeat n0 n) (Z.of_nat j)) ->
  forall l, (forall j, In j l -> (j < n)%nat) -> forall st,
  for_each l (crd_coord nr cov XTy (repeat n0 n) lamb c1) st = for_each l (crd_coord nr cov XTy (repeat n0 n) lamb c2) st /\
  forall cdb beta, for_each l (crd_coord nr cov XTy (repeat n0 n) lamb c1) st = Ok (cdb, beta) -> length beta = length (snd st).
Proof.
  intros nr cov XTy lamb c1 c2 n Hd. induction l as [|j l IH]; intros Hl st.
  - split; [reflexivity|]. intros cdb beta E. cbn [for_each] in E. injection E as ->. reflexivity.
  - cbn [for_each]. 
    assert (E1 : crd_coord nr cov XTy (repeat n0 n) lamb c1 j st = crd_coord nr cov XTy (repeat n0 n) lamb c2 j st).
    { destruct st as [cdb beta]. unfold crd_coord. rewrite (Hd j (Hl j (or_introl eq_refl))). reflexivity. }
    rewrite <- E1. destruct (crd_coord nr cov XTy (repeat n0 n) lamb c1 j st) as [st1| |] eqn:Es; cbn [bind];
      [|split; [reflexivity|intros; discriminate]..].
    destruct (IH (fun k Hk => Hl k (or_intror Hk)) st1) as (I1 & I2). split; [exact I1|].
    intros cdb beta E. rewrite (I2 cdb beta E). destruct st as [c0 b0], st1 as [c2' b2]. exact (coord_length _ _ _ _ _ _ _ _ _ _ _ _ Es).
Qed.

(** LassoCrdDesc with a covariance-lasso correction: the coefficients the
    correction object remembers from an earlier run have no effect, because
    every run starts from zero coefficients. *)
Theorem C64_classo : forall get (d : NormalizedData XR) lamb x maxIter tol eta (l l' : list R),
  length l = mcols (ndX d) -> length l' = mcols (ndX d) -> (0 < maxIter)%Z ->
  LassoCrdDesc get d lamb x maxIter tol (CLasso (fins l) (XFin eta)) =
  LassoCrdDesc get d lamb x maxIter tol (CLasso (fins l') (XFin eta)).
Proof.
  intros get d lamb x maxIter tol eta l l' Hl Hl' Hm. unfold LassoCrdDesc.
  set (n := mcols (ndX d)) in *.
  destruct (get (ndX d)) as [cov| |]; cbn [bind]; try reflexivity.
  destruct (mat_mulvec _ _) as [XTy| |]; cbn [bind]; try reflexivity.
  unfold crd_start. rewrite start_iter. cbn [bind]. destruct (MulSlice _ _) as [cdb| |]; cbn [bind]; try reflexivity.
  destruct (Z.to_nat maxIter) as [|k] eqn:Ek; [lia|]. cbn [crd_loop crOld].
  assert (E : crd_iter (mrows (ndX d)) cov XTy lamb tol (mkCrd (repeat n0 n) (repeat n0 n) cdb (seq 1 (n - 1)) false (CLasso (fins l) (XFin eta : XR)) false) =
    crd_iter (mrows (ndX d)) cov XTy lamb tol (mkCrd (repeat n0 n) (repeat n0 n) cdb (seq 1 (n - 1)) false (CLasso (fins l') (XFin eta : XR)) false)).
  { unfold crd_iter. cbn [crIter crOld crCorr crCdb crBeta].
    destruct (coords_same (mrows (ndX d)) cov XTy lamb (CLasso (fins l) (XFin eta)) (CLasso (fins l') (XFin eta)) n) with
      (l := seq 1 (n - 1)) (st := (cdb, repeat (n0 : XR) n)) as (C1 & C2).
    { intros j Hj. rewrite <- Hl at 1. rewrite deriv_zero by lia. rewrite <- Hl'. rewrite deriv_zero by lia. reflexivity. }
    { intros j Hj. apply in_seq in Hj. lia. }
    rewrite <- C1. destruct (for_each (seq 1 (n - 1)) _ _) as [[cdb1 beta]| |] eqn:Ef; cbn [bind]; try reflexivity.
    specialize (C2 _ _ eq_refl). cbn [snd] in C2. rewrite repeat_length in C2.
    assert (EU : Update (CLasso (fins l) (XFin eta : XR)) beta = Update (CLasso (fins l') (XFin eta : XR)) beta).
    { cbn [Update]. f_equal. unfold go_copy. rewrite !fins_length, Hl, Hl', !skipn_all2 by (rewrite fins_length; lia). reflexivity. }
    rewrite EU. reflexivity. }
  rewrite E. reflexivity.
Qed.
Print Assumptions C64_classo.

(** Cases of the theorems, in binary64: kappa of the plain target from two
    different remembered vectors, and the stateful correction from two states
    (C64_classo is about exact arithmetic; here the same holds in binary64) *)
Definition ex64X : Mat (F64 fenv0) :=
  mkMat 4 3 (fun i j => match j with O => n1 | 1%nat => nofnat i | _ => nofZ (nth i [3; -1; 2; 7]%Z 0%Z) end).
Definition ex64y : list (F64 fenv0) := [nofZ 1; nofZ 3; nofZ 4; nofZ 9].
Definition ex64k (x : list (F64 fenv0)) : res (F64 fenv0) :=
  do (k, _) <- GetCohensKappa rnd0 2 (pure_target Empirical_Get ex64X ex64y (ndec 1 (-1)) 1000 (ndec 1 (-4)) (mkLC x PureLasso)); Ok k.
Definition ex64c (l : list (F64 fenv0)) : res (list (F64 fenv0)) :=
  do (b, _, _, _) <- LassoCrdDesc Empirical_Get (mkND exf_X exf_y [] [] (n0 (N := F64 fenv0)) n0 true) (ndec 1 (-2)) None 3 (ndec 1 (-6))
    (CLasso l (ndec 5 (-1))); Ok b.
Example C64_example : stateless (N := F64 fenv0) PureLasso /\
  (match ex64k [], ex64k [nofZ 5; nofZ 6; nofZ 7] with Ok k, Ok k' => k = k' /\ nltb n0 k = true | _, _ => False end) /\
  (match ex64c [nofZ 2; nofZ 3; nofZ 4], ex64c [n0; nofZ 5; nofZ (-1)] with
   | Ok b, Ok b' => b = b' /\ nltb n0 (nth 2 b n0) = true | _, _ => False end).
Proof. split; [exact I|]. split; vm_compute; split; reflexivity. Qed.

(** ** C65: constant columns in a half *)

(** column c is constant on the given rows *)
Definition const_on (A : nat -> nat -> R) (c : nat) (rows : list nat) : Prop :=
  forall i j, In i rows -> In j rows -> A i c = A j c.

(** GetSelection panics if a feature (other than the first column) is constant
    on the rows it is asked to use, or if there are no rows. *)
Theorem C65_constant_on_rows : forall get (dX : Mat XR) A (y : list R) lamb maxIter tol p indices c,
  rmat dX A -> length y = mrows dX -> (forall i, In i indices -> (i < mrows dX)%nat) ->
  (0 < c < mcols dX)%nat -> const_on A c indices ->
  lasso_select get dX (map XFin y) lamb maxIter tol p indices = Panic.
Proof.
  intros get dX A y lamb maxIter tol p indices c HA Hy Hin Hc Hcon.
  destruct indices as [|i0 rest] eqn:Ei; [reflexivity|]. rewrite <- Ei in *.
  assert (Hne : indices <> []) by (rewrite Ei; discriminate).
  assert (Hlen : (0 < length indices)%nat) by (rewrite Ei; cbn; lia).
  change (map XFin y) with (fins y).
  destruct (sub_data_ok XR dX (fins y) indices Hne ltac:(lia) Hin ltac:(rewrite fins_length; exact Hy)) as (X & E & R & C & V).
  rewrite select_unfold, E. cbn [bind].
  set (f := fun r c => A (nth r indices 0%nat) c).
  assert (HM : rmat X f).
  { intros r j Hr Hj. rewrite V by lia. apply HA; [apply Hin, nth_In; lia|lia]. }
  assert (Ey : map (fun i => nth i (fins y) n0) indices = fins (map (fun i => nth i y 0%R) indices)).
  { unfold fins at 2. rewrite map_map. apply map_ext_in. intros i Hi. rewrite nth_fins by (rewrite Hy; apply Hin; exact Hi). reflexivity. }
  rewrite Ey. rewrite (nnd_panic X f HM ltac:(lia)); [reflexivity| |].
  - rewrite Ei. discriminate.
  - exists c. split; [lia|].
    assert (Hz : sdev (rcol (mrows X) f c) = 0%R).
    { apply sdev_zero; [apply rcol_ne; lia|].
      assert (Ha : forall x, In x (rcol (mrows X) f c) -> x = f 0%nat c).
      { intros x Hx. unfold rcol in Hx. apply in_map_iff in Hx. destruct Hx as (r & <- & Hr). apply in_seq in Hr.
        unfold f. apply Hcon; apply nth_In; lia. }
      intros x Hx. rewrite (Ha x Hx). unfold mean. rewrite (map_ext_in_lsum _ (f 0%nat c)) by exact Ha.
      pose proof (len_pos _ _ (rcol_ne (mrows X) f c ltac:(lia))). field. lra. }
    rewrite Hz. apply tol10_pos.
Qed.
Print Assumptions C65_constant_on_rows.

(** Hence a feature that differs from its common value in one row only makes
    every evaluation of kappa fail, whatever the shuffles ... *)
Theorem C65_lone_row : forall get (dX : Mat XR) A (y : list R) lamb maxIter tol p rnd numSamples c r0 a v,
  rmat dX A -> length y = mrows dX -> (0 < c < mcols dX)%nat ->
  (forall i, (i < mrows dX)%nat -> i <> r0 -> A i c = a) -> (0 < numSamples)%Z ->
  GetCohensKappa (N := XR) rnd numSamples (pure_target get dX (map XFin y) lamb maxIter tol p) <> Ok v.
Proof.
  intros get dX A y lamb maxIter tol p rnd m c r0 a [k calls] HA Hy Hc Hcol Hm E.
  destruct (C46_split XR _ _ rnd m _ k calls E) as (Hl & Hh & ks & s & Hs & _).
  destruct Hs as [s0|s0 i1 i2 sel1 s1 sel2 s2 cs ks s3 T1 T2 _]; [cbn [length] in Hl; lia|].
  inversion Hh as [|x l Hx _]; subst. destruct Hx as (_ & _ & Hnd & Hi). cbn [fst snd pure_target tgRows] in *.
  assert (H12 : ~ In r0 i1 \/ ~ In r0 i2).
  { destruct (in_dec Nat.eq_dec r0 i1) as [Hr|Hr]; [right|left; exact Hr]. clear - Hnd Hr.
    induction i1 as [|z i1 IH]; [destruct Hr|]. cbn [app] in Hnd. inversion Hnd; subst.
    destruct Hr as [->|Hr]; [intro C; apply H1, in_or_app; right; exact C|apply IH; assumption]. }
  assert (G : forall s ix, ~ In r0 ix -> (forall i, In i ix -> (i < mrows dX)%nat) ->
    lasso_select get dX (map XFin y) lamb maxIter tol s ix = Panic).
  { intros s' ix Hn Hb. apply (C65_constant_on_rows get dX A y lamb maxIter tol s' ix c HA Hy Hb Hc).
    intros i j H1 H2. rewrite !Hcol; auto; intros ->; contradiction. }
  cbn [tgSelect] in T1, T2. destruct H12 as [Hn|Hn].
  - assert (Hb : forall i, In i i1 -> (i < mrows dX)%nat) by (intros i Hii; apply Hi, in_or_app; left; exact Hii).
    pose proof (eq_trans (eq_sym T1) (G s0 i1 Hn Hb)) as C. discriminate C.
  - assert (Hb : forall i, In i i2 -> (i < mrows dX)%nat) by (intros i Hii; apply Hi, in_or_app; right; exact Hii).
    pose proof (eq_trans (eq_sym T2) (G s1 i2 Hn Hb)) as C. discriminate C.
Qed.
Print Assumptions C65_lone_row.

(** ... and so do data with fewer than four rows. *)
Theorem C65_few_rows : forall get (dX : Mat XR) A (y : list R) lamb maxIter tol p rnd numSamples v,
  rmat dX A -> length y = mrows dX -> (1 < mcols dX)%nat -> (mrows dX <= 3)%nat -> (0 < numSamples)%Z ->
  GetCohensKappa (N := XR) rnd numSamples (pure_target get dX (map XFin y) lamb maxIter tol p) <> Ok v.
Proof.
  intros get dX A y lamb maxIter tol p rnd m [k calls] HA Hy Hc Hr Hm E.
  destruct (C46_split XR _ _ rnd m _ k calls E) as (Hl & Hh & ks & s & Hs & _).
  destruct Hs as [s0|s0 i1 i2 sel1 s1 sel2 s2 cs ks s3 T1 T2 _]; [cbn [length] in Hl; lia|].
  inversion Hh as [|x l Hx _]; subst. destruct Hx as (L1 & _ & Hnd & Hi). cbn [fst snd pure_target tgRows tgSelect] in *.
  assert (L1' : (length i1 <= 1)%nat).
  { rewrite L1. apply Nat.lt_succ_r, Nat.div_lt_upper_bound; lia. }
  assert (Hb : forall i, In i i1 -> (i < mrows dX)%nat) by (intros i Hii; apply Hi, in_or_app; left; exact Hii).
  assert (Hk : const_on A 1 i1).
  { intros i j H1 H2. destruct i1 as [|z [|z' i1]]; [destruct H1| |cbn in L1'; lia].
    destruct H1 as [<-|[]]. destruct H2 as [<-|[]]. reflexivity. }
  pose proof (eq_trans (eq_sym T1) (C65_constant_on_rows get dX A y lamb maxIter tol s0 i1 1 HA Hy Hb ltac:(lia) Hk)) as C. discriminate C.
Qed.
Print Assumptions C65_few_rows.

(** Eta of cLassoCohen has no effect on kappa: only the correction inside PLasso
    counts, which Eta is not connected with. *)
Theorem C64_eta_has_no_effect : forall (N : Num) get (dX : Mat N) dy lamb maxIter tol eta eta' p rnd numSamples,
  GetCohensKappa (N := N) rnd numSamples (classo_target get dX dy lamb maxIter tol eta p) =
  GetCohensKappa rnd numSamples (classo_target get dX dy lamb maxIter tol eta' p) /\
  GetCohensKappa (N := N) rnd numSamples (classo_target get dX dy lamb maxIter tol eta p) =
  GetCohensKappa rnd numSamples (pure_target get dX dy lamb maxIter tol p) /\
  (eta <> eta' -> tgHyper (classo_target get dX dy lamb maxIter tol eta p) <>
                  tgHyper (classo_target get dX dy lamb maxIter tol eta' p)).
Proof. intros. split; [reflexivity|]. split; [reflexivity|]. cbn. intros H E. injection E. auto. Qed.
Print Assumptions C64_eta_has_no_effect.

(** An instance of [C65_lone_row]: five rows, a bias column and a feature that
    is 1 in the last row only; the data as a whole can be normalised. *)
Definition ex65X : Mat XR := mkMat (N := XR) 5 2 (fun i j =>
  XFin (match j, i with 0%nat, _ => 1 | _, 4%nat => 1 | _, _ => 0 end)).
Definition ex65A (i j : nat) : R := match j, i with 0%nat, _ => 1 | _, 4%nat => 1 | _, _ => 0 end%R.
Definition ex65cs (c : nat) : list R := match c with 0%nat => [1; 1; 1; 1; 1] | _ => [0; 0; 0; 0; 1] end%R.
Example C65_example : rmat ex65X ex65A /\ (forall i, (i < mrows ex65X)%nat -> i <> 4%nat -> ex65A i 1 = 0%R) /\
  exists nd, NewNormalizedData ex65X (map XFin [1; 2; 3; 4; 5]%R) = Ok nd.
Proof.
  split; [intros i j _ _; reflexivity|]. split.
  - intros [|[|[|[|[|i]]]]] H Hn; try reflexivity; [contradiction].
  - destruct (C29_normalized_data ex65X ex65cs [1; 2; 3; 4; 5]%R) as (nd & y' & E & _).
    + cbn. lia.
    + cbn. lia.
    + intros [|[|c]] H; [reflexivity|reflexivity|cbn in H; lia].
    + exists 1%R, 2%R. cbn. split; [left; reflexivity|]. split; [right; left; reflexivity|]. lra.
    + intros [|[|c]] H; [lia| |cbn in H; lia]. unfold sdev, mean, lsum. cbn [ex65cs length map fold_right].
      rewrite <- (sqrt_Rsqr (/ 10 ^ 10)) by (left; apply Rinv_0_lt_compat, pow_lt; lra).
      apply sqrt_le_1_alt. unfold Rsqr. simpl. lra.
    + exists nd. exact E.
Qed.

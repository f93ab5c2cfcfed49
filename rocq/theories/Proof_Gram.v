(** The lasso solvers see the data only through the inner products of the
    columns with each other and with the target. *)
From Coq Require Import Permutation Sorted Reals Lra.
From Verif Require Import Base Num Mat Model_Node Model_Util Model_Fit Model_Norm Model_Cov Model_Crd Model_Lars
  Proof_Node Proof_Util RSum Proof_XR Proof_Norm Proof_Fit Proof_Lars Spec_Lars Proof_Homotopy Proof_Lars2 Proof_Lars3.
Open Scope R_scope.

(** ** coordinate descent *)
Definition same_entries {N : Num} (a b : Mat N) : Prop :=
  mrows a = mrows b /\ mcols a = mcols b /\ forall i j, mat_at a i j = mat_at b i j.

Lemma for_each_ext : forall (A B : Type) (b1 b2 : A -> B -> res B) l s, (forall a s, b1 a s = b2 a s) -> for_each l b1 s = for_each l b2 s.
Proof.
  intros A B b1 b2 l. induction l as [|a l IH]; intros s H; cbn [for_each]; [reflexivity|].
  rewrite H. destruct (b2 a s); cbn [bind]; auto.
Qed.

Section Cov.
  Variable N : Num.
  Variables cov cov' : Mat N.
  Hypothesis H : same_entries cov cov'.

  Lemma mulslice_same : forall v, MulSlice cov v = MulSlice cov' v.
  Proof.
    intros v. destruct H as (H1 & H2 & H3). unfold MulSlice. rewrite H1, H2.
    destruct (negb (length v =? mcols cov')%nat); [reflexivity|]. apply for_loop_ext. intros i s _. apply for_loop_ext. intros j s' _.
    rewrite H3. reflexivity.
  Qed.

  Lemma update_same : forall cdb j a b, UpdateCovDotBeta cov cdb j a b = UpdateCovDotBeta cov' cdb j a b.
  Proof.
    intros. unfold UpdateCovDotBeta. apply for_loop_ext. intros i s _. rewrite (proj2 (proj2 H)). reflexivity.
  Qed.

  Lemma crd_iter_same : forall nr XTy lamb tol st, crd_iter nr cov XTy lamb tol st = crd_iter nr cov' XTy lamb tol st.
  Proof.
    intros. unfold crd_iter. rewrite (for_each_ext _ _ (crd_coord nr cov XTy (crOld st) lamb (crCorr st)) (crd_coord nr cov' XTy (crOld st) lamb (crCorr st))); [reflexivity|].
    intros j [cdb beta]. unfold crd_coord. rewrite (proj2 (proj2 H)). destruct (mat_at cov' j j); cbn [bind]; [|reflexivity|reflexivity].
    destruct (getn (crOld st) j); cbn [bind]; [|reflexivity|reflexivity]. destruct (getn cdb j); cbn [bind]; [|reflexivity|reflexivity].
    destruct (getn XTy j); cbn [bind]; [|reflexivity|reflexivity]. destruct (Deriv _ _ _); cbn [bind]; [|reflexivity|reflexivity].
    rewrite update_same. reflexivity.
  Qed.

  Lemma crd_loop_same : forall nr XTy lamb tol k st, crd_loop nr cov XTy lamb tol k st = crd_loop nr cov' XTy lamb tol k st.
  Proof.
    intros nr XTy lamb tol. induction k as [|k IH]; intro st; cbn [crd_loop]; [reflexivity|]. rewrite crd_iter_same.
    destruct (crd_iter nr cov' XTy lamb tol st) as [st'| |]; cbn [bind]; [|reflexivity|reflexivity]. destruct (crStop st'); auto.
  Qed.

  Lemma crd_start_same : forall n corr, crd_start cov n corr = crd_start cov' n corr.
  Proof. intros. unfold crd_start. rewrite mulslice_same. reflexivity. Qed.
End Cov.

Lemma crd_same : forall (N : Num) get get' (d d' : NormalizedData N) cov cov' XTy lamb x0 k tol corr,
  mrows (ndX d) = mrows (ndX d') -> mcols (ndX d) = mcols (ndX d') ->
  get (ndX d) = Ok cov -> get' (ndX d') = Ok cov' -> same_entries cov cov' ->
  mat_mulvec (mat_T (ndX d)) (ndy d) = Ok XTy -> mat_mulvec (mat_T (ndX d')) (ndy d') = Ok XTy ->
  LassoCrdDesc get d lamb x0 k tol corr = LassoCrdDesc get' d' lamb x0 k tol corr.
Proof.
  intros N get get' d d' cov cov' XTy lamb x0 k tol corr R C G G' S X X'. unfold LassoCrdDesc.
  rewrite G, G', X, X'. cbn [bind]. rewrite (crd_start_same N cov cov' S), C.
  destruct (crd_start cov' (mcols (ndX d')) corr) as [st| |]; cbn [bind]; [|reflexivity|reflexivity].
  rewrite R, (crd_loop_same N cov cov' S). reflexivity.
Qed.

(** ** LARS *)
Lemma sorted_unique : forall l l' : list nat, StronglySorted Peano.le l -> StronglySorted Peano.le l' -> Permutation l l' -> l = l'.
Proof.
  induction l as [|a l IH]; intros l' S S' P.
  - apply Permutation_nil in P. congruence.
  - destruct l' as [|b l']; [apply Permutation_sym, Permutation_nil in P; discriminate P|].
    apply StronglySorted_inv in S. apply StronglySorted_inv in S'. destruct S as (S & F). destruct S' as (S' & F').
    rewrite Forall_forall in F, F'.
    assert (E : a = b).
    { assert (Ha : In a (b :: l')) by (apply (Permutation_in a P); left; reflexivity).
      assert (Hb : In b (a :: l)) by (apply (Permutation_in b (Permutation_sym P)); left; reflexivity).
      destruct Ha as [->|Ha]; [reflexivity|]. destruct Hb as [->|Hb]; [reflexivity|]. specialize (F b Hb). specialize (F' a Ha). lia. }
    subst b. f_equal. apply IH; auto. apply Permutation_cons_inv in P. exact P.
Qed.
Lemma sort_ints_eq : forall l l', Permutation l l' -> sort_ints l = sort_ints l'.
Proof.
  intros l l' P. apply sorted_unique; try apply sort_ints_sorted. rewrite (sort_ints_perm l), (sort_ints_perm l'). exact P.
Qed.

Section Sim.
  Variables (X X' : Mat XR) (A A' : nat -> nat -> R) (yr yr' : list R).
  Hypotheses (HX : rmat X A) (HX' : rmat X' A') (Hy : length yr = mrows X) (Hy' : length yr' = mrows X').
  Let m := mrows X.
  Let m' := mrows X'.
  Let n := mcols X.
  Hypothesis Hn : mcols X' = n.
  Hypothesis Gram : forall j k, (j < n)%nat -> (k < n)%nat -> rsum m (fun i => A i j * A i k) = rsum m' (fun i => A' i j * A' i k).
  Hypothesis XTy : forall j, (j < n)%nat -> rsum m (fun i => A i j * nth i yr 0) = rsum m' (fun i => A' i j * nth i yr' 0).
  Let yf := fun i => nth i yr 0.
  Let yf' := fun i => nth i yr' 0.

  Lemma gv_gram : forall B q v f, gv q n B v f = rsum n (fun k => rsum q (fun i => B i f * B i k) * v k).
  Proof.
    intros B q v f. unfold gv.
    transitivity (rsum q (fun i => rsum n (fun k => B i f * B i k * v k))).
    - apply rsum_ext. intros i Hi. rewrite <- rsum_scal. apply rsum_ext. intros; ring.
    - rewrite rsum_swap. apply rsum_ext. intros k Hk. rewrite Rmult_comm, <- rsum_scal. apply rsum_ext. intros; ring.
  Qed.
  Lemma gv_same : forall v f, (f < n)%nat -> gv m n A v f = gv m' n A' v f.
  Proof. intros v f Hf. rewrite !gv_gram. apply rsum_ext. intros k Hk. rewrite Gram by assumption. reflexivity. Qed.
  Lemma corr_same : forall v f, (f < n)%nat -> corr m n A yf v f = corr m' n A' yf' v f.
  Proof. intros v f Hf. rewrite !corr_gv, gv_same by exact Hf. unfold yf, yf'. rewrite XTy by exact Hf. reflexivity. Qed.

  Lemma nonzero_gram : forall B q f, nonzero_col q B f <-> rsum q (fun i => B i f * B i f) <> 0.
  Proof.
    intros B q f. split.
    - intros (i & Hi & Hne) C.
      assert (Z : forall j, (j < q)%nat -> B j f * B j f = 0).
      { apply (rsum_zero_terms q (fun j => B j f * B j f)); [intros; apply Rle_0_sqr|exact C]. }
      specialize (Z i Hi). apply Rmult_integral in Z. tauto.
    - intro C. destruct (nonzero_dec q B f) as [D|D]; [exact D|]. exfalso. apply C. apply rsum_0'. intros i Hi.
      rewrite (zero_col q B f D i Hi). ring.
  Qed.
  Lemma nonzero_same : forall f, (f < n)%nat -> (nonzero_col m A f <-> nonzero_col m' A' f).
  Proof. intros f Hf. rewrite !nonzero_gram, (Gram f f Hf Hf). tauto. Qed.

  Hypothesis FR : independent m n A.

  Lemma normal_unique : forall E v v' rhs, NoDup E -> (forall f, In f E -> (f < n)%nat) -> (forall f, In f E -> nonzero_col m A f) ->
    length v = length E -> length v' = length E ->
    (forall f, In f E -> gv m n A (spread E v) f = rhs f) -> (forall f, In f E -> gv m' n A' (spread E v') f = rhs f) -> v = v'.
  Proof.
    intros E v v' rhs ND HE HG L L' N1 N2.
    assert (U : forall k, (k < n)%nat -> spread E v k = spread E v' k).
    { apply (seg_unique m n A yf FR E (fun f => rsum m (fun i => A i f * yf i) - rhs f) 1); try assumption.
      - split; [intros k _ C; apply spread_out; exact C|]. intros f Hf. rewrite corr_gv, N1 by exact Hf. ring.
      - split; [intros k _ C; apply spread_out; exact C|]. intros f Hf. rewrite corr_gv, gv_same, N2 by auto. ring. }
    apply (nth_ext _ _ 0 0); [congruence|]. intros j Hj. rewrite L in Hj.
    rewrite <- (spread_nth E v j ND Hj), <- (spread_nth E v' j ND Hj). apply U. apply HE, nth_In. exact Hj.
  Qed.

  Variables (cd cd' : CDParam XR) (P : cdState cd -> Prop) (P' : cdState cd' -> Prop).
  Hypotheses (EX : exact_estimator X A yr cd P) (EX' : exact_estimator X' A' yr' cd' P').

  Record sim (st : Lars XR (cdState cd)) (st' : Lars XR (cdState cd')) : Prop := mkSim {
    si_l : laLamb st = laLamb st';
    si_a : Permutation (laActive st) (laActive st');
    si_s : laSigns st = laSigns st';
    si_f : laLastFeat st = laLastFeat st';
    si_c : laLastFeat st <> None -> laLastCoeff st = laLastCoeff st';
    si_r : laRes st = laRes st'
  }.

  Lemma list_ext : forall (B : Type) (l l' : list B), length l = length l' -> (forall i, (i < length l)%nat -> nth_error l i = nth_error l' i) -> l = l'.
  Proof.
    induction l as [|a l IH]; intros [|b l'] L H; try discriminate L; [reflexivity|].
    pose proof (H 0%nat ltac:(cbn; lia)) as H0. injection H0 as ->. f_equal. apply IH; [cbn in L; lia|].
    intros i Hi. apply (H (S i)). cbn. lia.
  Qed.

  Lemma step_sim : forall st st' l s lc l' s' lc' st1 st1', sim st st' ->
    rstate X A cd P st l s lc -> rstate X' A' cd' P' st' l' s' lc' ->
    (forall f, In f (laActive st) -> nonzero_col m A f) ->
    lars_step cd X (fins yr) st = Ok st1 -> lars_step cd' X' (fins yr') st' = Ok st1' ->
    laRes st1 = laRes st1' /\ laStop st1 = laStop st1' /\ (laStop st1 = false -> sim st1 st1').
  Proof.
    intros st st' l s lc l' s' lc' st1 st1' SM HS HS' HG0 E1 E1'.
    destruct (step_cases XR cd X (fins yr) st st1 E1) as (Hne & E & signs & est & c & d & jts & cts & jt & jF & ct & cF & lrs & node &
      Ea & Es & Ee & Ec & Ed & EJ & EC & EmJ & EmC & Eb & En & ER & EEst & Hcase).
    destruct (step_cases XR cd' X' (fins yr') st' st1' E1') as (Hne' & E' & signs' & est' & c' & d' & jts' & cts' & jt' & jF' & ct' & cF' & lrs' & node' &
      Ea' & Es' & Ee' & Ec' & Ed' & EJ' & EC' & EmJ' & EmC' & Eb' & En' & ER' & EEst' & Hcase').
    destruct SM as [Sl Sa Ss Sf Sc Sr].
    assert (EE : E' = E) by (rewrite Ea, Ea'; symmetry; apply sort_ints_eq; exact Sa). clear Ea'. subst E'.
    destruct HS as [Hl Hl0 Hs Hpm Hlc HP Hnd0 Hin0 _]. destruct HS' as [Hl' Hl0' Hs' Hpm' Hlc' HP' Hnd0' Hin0' _].
    rewrite Hn in Hs', Hin0'. fold n in Hs, Hin0.
    assert (Hp : Permutation E (laActive st)) by (rewrite Ea; apply sort_ints_perm).
    assert (Hp' : Permutation E (laActive st')) by (rewrite Hp; exact Sa).
    assert (ND : NoDup E) by (apply (Permutation_NoDup (Permutation_sym Hp)); exact Hnd0).
    assert (HE : forall f, In f E -> (f < n)%nat) by (intros f Hf; apply Hin0; apply (Permutation_in f Hp); exact Hf).
    assert (HG : forall f, In f E -> nonzero_col m A f) by (intros f Hf; apply HG0; apply (Permutation_in f Hp); exact Hf).
    assert (HG' : forall f, In f E -> nonzero_col m' A' f) by (intros f Hf; apply nonzero_same; auto).
    assert (HpmE : forall f, In f E -> s f = 1 \/ s f = -1) by (intros f Hf; apply Hpm; apply (Permutation_in f Hp); exact Hf).
    assert (HpmE' : forall f, In f E -> s' f = 1 \/ s' f = -1) by (intros f Hf; apply Hpm'; apply (Permutation_in f Hp'); exact Hf).
    assert (HneE : E <> []) by (intro C; rewrite C in Hp; apply Permutation_nil in Hp; contradiction).
    assert (HSS : StronglySorted lt E) by (rewrite Ea; apply sort_ints_strict; exact Hnd0).
    destruct (EX (laEst st) E est HP HSS HneE HE HG Ee) as (_ & HC & HD).
    assert (HE' : forall f, In f E -> (f < mcols X')%nat) by (rewrite Hn; exact HE).
    destruct (EX' (laEst st') E est' HP' HSS HneE HE' HG' Ee') as (_ & HC' & HD').
    destruct (HC c Ec) as (cr & -> & Lc & NC). destruct (HC' c' Ec') as (cr' & -> & Lc' & NC').
    rewrite Hs in Es. rewrite Hs' in Es'. rewrite Hs, Hs' in Ss.
    assert (Sv : forall f, (f < n)%nat -> s f = s' f).
    { intros f Hf. assert (Q : nth f (fins (map s (seq 0 n))) (fin 0) = nth f (fins (map s' (seq 0 n))) (fin 0)) by (f_equal; exact Ss).
      rewrite !nth_fins in Q by (rewrite map_length, seq_length; exact Hf). rewrite !nth_map_seq in Q by exact Hf. injection Q. auto. }
    apply (view_xr X) in Es; [|exact HE]. rewrite <- Hn in Es'. apply (view_xr X') in Es'; [|exact HE']. subst signs signs'.
    destruct (HD s d HpmE Ed) as (dr & -> & Ld & NDr). destruct (HD' s' d' HpmE' Ed') as (dr' & -> & Ld' & NDr').
    fold m n in NC, NDr. fold m' in NC', NDr'. rewrite Hn in NC', NDr'.
    assert (EC0 : cr = cr').
    { apply (normal_unique E cr cr' (fun f => rsum m (fun i => A i f * nth i yr 0))); try assumption.
      intros f Hf. rewrite NC' by exact Hf. symmetry. apply XTy. auto. }
    assert (ED0 : dr = dr').
    { apply (normal_unique E dr dr' s); try assumption. intros f Hf. rewrite NDr' by exact Hf. symmetry. apply Sv. auto. }
    subst cr' dr'.
    assert (Ell : laLamb st' = fin l) by congruence. rewrite Ell in *. rewrite Hl in *. clear Hl' Sl.
    rewrite EC in EC'. apply Ok_inj in EC'. subst cts'. rewrite EmC in EmC'. injection EmC' as <- <-.
    rewrite Eb in Eb'. apply Ok_inj in Eb'. subst lrs'. rewrite En in En'. apply Ok_inj in En'. subst node'.
    rewrite <- Sf in *.
    (* the join times *)
    destruct (tJoin_xr X A yr HX Hy E cr dr l (laLastFeat st) (laLastCoeff st) lc jts HE Lc Ld Hlc EJ) as (LJ & HJ).
    assert (Hlc2 : laLastFeat st <> None -> laLastCoeff st' = fin lc) by (intro C; rewrite <- Sc by exact C; auto).
    destruct (tJoin_xr X' A' yr' HX' Hy' E cr dr l (laLastFeat st) (laLastCoeff st') lc jts' HE' Lc Ld Hlc2 EJ') as (LJ' & HJ').
    rewrite Hn in LJ', HJ'. fold n in LJ, HJ. fold m in HJ. fold m' in HJ'.
    assert (EJ0 : jts = jts').
    { apply list_ext; [congruence|]. intros f Hf. rewrite LJ in Hf. destruct (HJ f Hf) as (t & T1 & T2). destruct (HJ' f Hf) as (t' & T1' & T2').
      fold yf in T1. fold yf' in T1'. rewrite corr_same, gv_same in T1 by exact Hf. rewrite T1 in T1'. apply Ok_inj in T1'. congruence. }
    subst jts'. rewrite EmJ in EmJ'. apply Ok_inj in EmJ'. injection EmJ' as <- <-.
    split; [rewrite ER, ER', Sr; reflexivity|].
    destruct Hcase as [(Hjc & sg & Esg & (cv & Ecv & Esign) & EA & ELF & EStop & ELamb)|(Hjc & lf & Elf & HPm & ESg & ELF & ELC & EStop & ELamb)];
    destruct Hcase' as [(Hjc' & sg' & Esg' & (cv' & Ecv' & Esign') & EA' & ELF' & EStop' & ELamb')|(Hjc' & lf' & Elf' & HPm' & ESg' & ELF' & ELC' & EStop' & ELamb')];
      try congruence.
    - split; [congruence|]. intro Hst.
      assert (Hst' : laStop st1' = false) by congruence.
      destruct (join_fresh XR XR_OrdLaws (proj2 (xlt_false 0 (-1)) ltac:(lra)) eq_refl X jts E jt jF cts ct cF EmJ EmC Hjc) as (_ & HjF & _).
      assert (HjFn : (jF < n)%nat) by (rewrite <- LJ; apply nth_error_Some; congruence).
      rewrite Ecv in Ecv'. apply Ok_inj in Ecv'. subst cv'.
      assert (Ejt : exists jr, jt = fin jr).
      { destruct (HJ jF HjFn) as (t & T1 & T2). rewrite HjF in T2. injection T2 as <-.
        destruct (join_time_xr _ _ _ _ _ Hl0 T1) as (r & -> & _). eauto. }
      destruct Ejt as (jr & ->).
      assert (Ldc : length dr = length cr) by congruence.
      rewrite betaLARS_xr in Ecv by exact Ldc. apply Ok_inj in Ecv. subst cv.
      set (w := map (fun k => nth k cr 0 - jr * nth k dr 0) (seq 0 (length cr))) in *.
      assert (Lw : length w = length E) by (unfold w; rewrite map_length, seq_length; exact Lc).
      assert (Hsg : sg = sg').
      { assert (HjFn' : (jF < mcols X')%nat) by (rewrite Hn; exact HjFn).
        pose proof (sign_xr X A yr HX Hy E w jF sg HE Lw HjFn Esign) as Q.
        pose proof (sign_xr X' A' yr' HX' Hy' E w jF sg' HE' Lw HjFn' Esign') as Q'.
        rewrite Hn in Q'. fold n m yf in Q. fold m' yf' in Q'. rewrite corr_same in Q by exact HjFn.
        destruct Q as [(Q1 & ->)|(Q1 & ->)]; destruct Q' as [(Q2 & ->)|(Q2 & ->)]; try reflexivity; lra. }
      subst sg'. constructor.
      + rewrite ELamb, ELamb' by assumption. reflexivity.
      + rewrite EA, EA'. reflexivity.
      + rewrite Hs in Esg. rewrite Hs', <- Ss in Esg'. rewrite Esg in Esg'. apply Ok_inj in Esg'. exact Esg'.
      + congruence.
      + rewrite ELF. intro C. contradiction C. reflexivity.
      + rewrite ER, ER', Sr. reflexivity.
    - split; [congruence|]. intro Hst.
      assert (Hst' : laStop st1' = false) by congruence.
      rewrite Elf in Elf'. apply Ok_inj in Elf'. subst lf'.
      constructor.
      + rewrite ELamb, ELamb' by assumption. reflexivity.
      + apply (Permutation_cons_inv (a := lf)). rewrite <- HPm. exact HPm'.
      + rewrite ESg, ESg', Hs, Hs'. exact Ss.
      + congruence.
      + intros _. rewrite ELC in ELC'. apply Ok_inj in ELC'. exact ELC'.
      + rewrite ER, ER', Sr. reflexivity.
  Qed.

  Lemma loop_sim : forall mn, 0 <= mn -> forall fuel fuel' st st' r r', sim st st' ->
    (exists l s lc, rstate X A cd P st l s lc) -> (exists l s lc, rstate X' A' cd' P' st' l s lc) ->
    lars_loop cd X (fins yr) (fin mn) fuel st = Ok r -> lars_loop cd' X' (fins yr') (fin mn) fuel' st' = Ok r' -> laRes r = laRes r'.
  Proof.
    intros mn Hmn. induction fuel as [|fuel IH]; intros fuel' st st' r r' SM (l & s & lc & HS) (l' & s' & lc' & HS') E E'.
    - cbn [lars_loop] in E. destruct (nltb (fin mn) (laLamb st)) eqn:El; cbn [negb] in E; [discriminate E|]. injection E as <-.
      destruct fuel' as [|fuel']; cbn [lars_loop] in E'; rewrite <- (si_l _ _ SM), El in E'; cbn [negb] in E'; injection E' as <-; apply (si_r _ _ SM).
    - cbn [lars_loop] in E. destruct (nltb (fin mn) (laLamb st)) eqn:El; cbn [negb] in E.
      2: { injection E as <-. destruct fuel' as [|fuel']; cbn [lars_loop] in E'; rewrite <- (si_l _ _ SM), El in E'; cbn [negb] in E'; injection E' as <-; apply (si_r _ _ SM). }
      destruct fuel' as [|fuel']; cbn [lars_loop] in E'; rewrite <- (si_l _ _ SM), El in E'; cbn [negb] in E'; [discriminate E'|].
      destruct (lars_step cd X (fins yr) st) as [st1| |] eqn:E1; cbn [bind] in E; try discriminate E.
      destruct (lars_step cd' X' (fins yr') st') as [st1'| |] eqn:E1'; cbn [bind] in E'; try discriminate E'.
      assert (Hlp : 0 < l).
      { rewrite (rs_l _ _ _ _ _ _ _ _ HS) in El. apply (proj1 (xlt_true mn l)) in El. lra. }
      assert (HG0 : forall f, In f (laActive st) -> nonzero_col m A f) by (apply (rs_G _ _ _ _ _ _ _ _ HS); exact Hlp).
      assert (HG0' : forall f, In f (laActive st') -> nonzero_col m' A' f).
      { intros f Hf. apply nonzero_same; [|apply HG0; apply (Permutation_in f (Permutation_sym (si_a _ _ SM))); exact Hf].
        rewrite <- Hn. apply (rs_in _ _ _ _ _ _ _ _ HS'). exact Hf. }
      destruct (step_sim st st' l s lc l' s' lc' st1 st1' SM HS HS' HG0 E1 E1') as (Rr & Rs & Rm).
      rewrite <- Rs in E'. destruct (laStop st1) eqn:Est; [congruence|].
      apply (IH fuel' st1 st1' r r'); auto.
      + destruct (round_xr X A yr HX Hy cd P EX st st1 l s lc HS HG0 E1) as (E0 & cf & df & T & jt & ct & HR).
        destruct HR as [_ _ _ _ _ _ _ _ _ _ Hnext].
        destruct Hnext as [(_ & _ & jF & sn & _ & _ & _ & _ & _ & _ & _ & HRS)|(_ & _ & lf & _ & _ & _ & _ & HRS)]; eauto.
      + destruct (round_xr X' A' yr' HX' Hy' cd' P' EX' st' st1' l' s' lc' HS' HG0' E1') as (E0 & cf & df & T & jt & ct & HR).
        destruct HR as [_ _ _ _ _ _ _ _ _ _ Hnext].
        destruct Hnext as [(_ & _ & jF & sn & _ & _ & _ & _ & _ & _ & _ & HRS)|(_ & _ & lf & _ & _ & _ & _ & HRS)]; eauto.
  Qed.

  Lemma start_sim : forall est est' st st', lars_start cd est X (fins yr) = Ok st -> lars_start cd' est' X' (fins yr') = Ok st' -> sim st st'.
  Proof.
    intros est est' st st' E E'. unfold lars_start in E, E'. rewrite Hn in E'. fold n in E.
    destruct (_ || _)%bool in E; [discriminate E|]. destruct (_ || _)%bool in E'; [discriminate E'|].
    rewrite (mulvec_T X A HX yr Hy) in E. rewrite (mulvec_T X' A' HX' yr' Hy') in E'. cbn [bind] in E, E'. rewrite Hn in E'. fold n m in E. fold m' in E'.
    assert (Q : map (fun f => rsum m (fun i => A i f * nth i yr 0)) (seq 0 n) = map (fun f => rsum m' (fun i => A' i f * nth i yr' 0)) (seq 0 n)).
    { apply map_ext_in. intros f Hf. apply in_seq in Hf. apply XTy. lia. }
    rewrite Q in E. destruct (fold_left _ _ _) as (mt & feat) in E, E'.
    destruct (getn _ feat) as [v| |] in E, E'; cbn [bind] in E, E'; try discriminate E.
    destruct (setn _ feat _) as [sg| |] in E, E'; cbn [bind] in E, E'; try discriminate E.
    injection E as <-. injection E' as <-. constructor; try reflexivity.
  Qed.
End Sim.

Lemma lars_gram : forall (data data' : NormalizedData XR) A A' yr yr' (cd cd' : CDParam XR) P P' est est' mn fuel fuel' path path',
  rmat (ndX data) A -> ndy data = fins yr -> length yr = mrows (ndX data) ->
  rmat (ndX data') A' -> ndy data' = fins yr' -> length yr' = mrows (ndX data') ->
  mcols (ndX data') = mcols (ndX data) ->
  (forall j k, (j < mcols (ndX data))%nat -> (k < mcols (ndX data))%nat ->
     rsum (mrows (ndX data)) (fun i => A i j * A i k) = rsum (mrows (ndX data')) (fun i => A' i j * A' i k)) ->
  (forall j, (j < mcols (ndX data))%nat ->
     rsum (mrows (ndX data)) (fun i => A i j * nth i yr 0) = rsum (mrows (ndX data')) (fun i => A' i j * nth i yr' 0)) ->
  exact_estimator (ndX data) A yr cd P -> P (cdSetX cd est (ndX data)) ->
  exact_estimator (ndX data') A' yr' cd' P' -> P' (cdSetX cd' est' (ndX data')) ->
  independent (mrows (ndX data)) (mcols (ndX data)) A -> 0 <= mn ->
  LassoLars cd est data (fin mn) fuel = Ok path -> LassoLars cd' est' data' (fin mn) fuel' = Ok path' -> path = path'.
Proof.
  intros data data' A A' yr yr' cd cd' P P' est est' mn fuel fuel' path path' HX Ey Hy HX' Ey' Hy' Hn G XY EX HP EX' HP' FR Hmn E E'.
  unfold LassoLars in E, E'. rewrite Ey in E. rewrite Ey' in E'.
  destruct (lars_start cd est (ndX data) (fins yr)) as [st| |] eqn:Es; cbn [bind] in E; try discriminate E.
  destruct (lars_start cd' est' (ndX data') (fins yr')) as [st'| |] eqn:Es'; cbn [bind] in E'; try discriminate E'.
  destruct (lars_loop cd (ndX data) (fins yr) (fin mn) fuel st) as [r| |] eqn:El; cbn [bind] in E; try discriminate E. injection E as <-.
  destruct (lars_loop cd' (ndX data') (fins yr') (fin mn) fuel' st') as [r'| |] eqn:El'; cbn [bind] in E'; try discriminate E'. injection E' as <-.
  destruct (start_rs (ndX data) A yr HX Hy cd P est st Es HP) as (l & s & feat & HS & _).
  destruct (start_rs (ndX data') A' yr' HX' Hy' cd' P' est' st' Es' HP') as (l' & s' & feat' & HS' & _).
  apply (loop_sim (ndX data) (ndX data') A A' yr yr' HX HX' Hy Hy' Hn G XY FR cd cd' P P' EX EX' mn Hmn fuel fuel' st st' r r'); eauto.
  apply (start_sim (ndX data) (ndX data') A A' yr yr' HX HX' Hy Hy' Hn XY cd cd' est est' st st' Es Es').
Qed.

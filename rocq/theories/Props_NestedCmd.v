(** C79: the program goselect-nestedlasso. *)
From Coq Require Import FunctionalExtensionality String Sorted Permutation Reals Lra.
From Verif Require Import Base Num Mat Model_Node Model_Util Model_Norm Model_Fit Model_CSV Model_Lars Model_Path Model_Nested Model_Cohen Model_Cmd2
  RSum Stats Proof_Util Proof_XR Proof_Norm Proof_Norm2 Proof_CSV Spec_Fit Spec_Lars Spec_Path Spec_Nested Proof_Nested Ex_Nested Props_Nested
  Eval Props_Util Props_CSV Props_Norm Props_Lars Props_Path Spec_LassoCmd Proof_LassoCmd Props_LassoCmd.
Open Scope list_scope.
Open Scope R_scope.

(** every number of the paths is finite *)
Definition paths_finite {N : Num} (paths : list (PathWithCrit N)) : Prop :=
  forall p, In p paths ->
    (forall n x, In n (pwNodes p) -> In x (lnLamb n :: lnCoeff n) -> finite x = true) /\
    (forall x, In x (pwAicc p) \/ In x (pwBic p) -> finite x = true).

Lemma paths_finite_b : forall (N : Num) (paths : list (PathWithCrit N)), paths_finite paths <->
  forallb (fun p => forallb (fun n => forallb finite (lnCoeff n) && finite (lnLamb n)) (pwNodes p)
                    && forallb finite (pwAicc p) && forallb finite (pwBic p)) paths = true.
Proof.
  intros N paths. rewrite forallb_forall. split.
  - intros H p Hp. destruct (H p Hp) as (H1 & H2). rewrite !andb_true_iff, !forallb_forall. split; [split|].
    + intros n Hn. rewrite andb_true_iff, forallb_forall. split; [intros x Hx; apply (H1 n); [exact Hn|right; exact Hx]|apply (H1 n); [exact Hn|left; reflexivity]].
    + intros x Hx. apply H2. left. exact Hx.
    + intros x Hx. apply H2. right. exact Hx.
  - intros H p Hp. specialize (H p Hp). cbv beta in H. rewrite !andb_true_iff, !forallb_forall in H. destruct H as ((H1 & H2) & H3). split.
    + intros n x Hn Hx. specialize (H1 n Hn). rewrite andb_true_iff, forallb_forall in H1. destruct H1 as (A & B).
      destruct Hx as [<-|Hx]; [exact B|exact (A x Hx)].
    + intros x [Hx|Hx]; auto.
Qed.

(** If the file cannot be read the program panics.  Otherwise, with [data'] and
    [paths] the result of NestedLasso: a file that reads back as these if all
    numbers are finite, and no file if one is not. *)
Theorem C79_file : forall (N : Num) (cd : CDParam N) est (data : Dataset N) lambMin keep fuelL fuel data' paths,
  nestedlasso cd est None lambMin keep fuelL fuel = Panic /\
  (NestedLasso cd est data lambMin keep fuelL fuel = Ok (data', paths) ->
   (0 < mrows (dsX data'))%nat -> (0 < mcols (dsX data'))%nat ->
   let data_finite := (forall i j, (i < mrows (dsX data'))%nat -> (j < mcols (dsX data'))%nat -> finite (mval (dsX data') i j) = true) /\
     (forall y, In y (dsY data') -> finite y = true) in
   (data_finite /\ paths_finite paths ->
    exists j d', nestedlasso cd est (Some data) lambMin keep fuelL fuel = Ok (Some j) /\ nestedUnmarshal j = Ok (d', paths) /\
      meq (dsX d') (dsX data') /\ dsY d' = dsY data' /\ dsNames d' = dsNames data' /\ dsTargetCol d' = dsTargetCol data') /\
   (~ (data_finite /\ paths_finite paths) -> nestedlasso cd est (Some data) lambMin keep fuelL fuel = Ok None)).
Proof.
  intros N cd est data lambMin keep fuelL fuel data' paths. split; [reflexivity|]. intros E Hr Hc DF.
  unfold nestedlasso. rewrite E. cbn [bind]. unfold nestedMarshal. split.
  - intros ((F1 & F2) & F3). destruct (C28_json_roundtrip N data' Hr Hc F1 F2) as (j & d' & E1 & E2 & Q).
    exists (mkNestedJ j paths), d'. rewrite E1. cbn [bind]. rewrite (proj1 (paths_finite_b N paths) F3). split; [reflexivity|].
    unfold nestedUnmarshal. cbn [njDset njPaths]. rewrite E2. split; [reflexivity|exact Q].
  - intro H.
    assert (D : DF \/ dsMarshalJSON data' = Ok None).
    { set (cell := fun p : nat * nat => finite (mval (dsX data') (fst p) (snd p))).
      destruct (forallb cell (list_prod (seq 0 (mrows (dsX data'))) (seq 0 (mcols (dsX data')))) && forallb finite (dsY data')) eqn:Eb.
      - left. apply andb_prop in Eb. destruct Eb as (B1 & B2). rewrite forallb_forall in B1, B2. split; [|exact B2].
        intros i j Hi Hj. apply (B1 (i, j)). apply in_prod; apply in_seq; lia.
      - right. apply C28_json_refuses_nonfinite. apply andb_false_iff in Eb.
        assert (FF : forall A (p : A -> bool) l, forallb p l = false -> exists x, In x l /\ p x = false).
        { intros A p l. induction l as [|a l IH]; cbn [forallb]; intro Hf; [discriminate Hf|]. destruct (p a) eqn:Ea.
          - destruct (IH Hf) as (x & Hx & Px). exists x. split; [right; exact Hx|exact Px].
          - exists a. split; [left; reflexivity|exact Ea]. }
        destruct Eb as [Eb|Eb]; apply FF in Eb.
        + left. destruct Eb as ((i & j) & Hin & Hf). apply in_prod_iff in Hin. rewrite !in_seq in Hin. exists i, j.
          split; [lia|]. split; [lia|exact Hf].
        + right. exact Eb. }
    destruct D as [D|D]; [|rewrite D; reflexivity].
    destruct D as (F1 & F2). destruct (C28_json_roundtrip N data' Hr Hc F1 F2) as (j & d' & E1 & _). rewrite E1. cbn [bind].
    destruct (forallb _ paths) eqn:Ef; [|reflexivity]. exfalso. apply H. split; [split; assumption|]. apply paths_finite_b. exact Ef.
Qed.
Print Assumptions C79_file.

(** Exact arithmetic: the data in the file is not the data of the CSV file but
    its standardised version: the target has mean 0 and deviation 1 and so has
    every column (of deviation at least 1e-10), although the coefficients are
    those for the data of the CSV file (C62). *)
Theorem C79_file_data : forall (cd : CDParam XR) est (data : Dataset XR) f y lambMin keep fuelL fuel j,
  consistent data -> NoDup (dsNames data) -> rmat (dsX data) f -> dsY data = map XFin y -> sdev y <> 0 ->
  nestedlasso cd est (Some data) lambMin keep fuelL fuel = Ok (Some j) ->
  exists d' paths, nestedUnmarshal j = Ok (d', paths) /\
    dsNames d' = dsNames data /\ dsTargetCol d' = dsTargetCol data /\
    dsY d' = map XFin (map (fun v => (v - mean y) / sdev y) y) /\
    mrows (dsX d') = mrows (dsX data) /\ mcols (dsX d') = mcols (dsX data) /\
    (forall i k, (i < mrows (dsX data))%nat -> (k < mcols (dsX data))%nat ->
       let col := map (fun r => f r k) (seq 0 (mrows (dsX data))) in
       / 10 ^ 10 <= sdev col -> mval (dsX d') i k = XFin ((f i k - mean col) / sdev col)) /\
    exists data', NestedLasso cd est data lambMin keep fuelL fuel = Ok (data', paths).
Proof.
  intros cd est data f y lambMin keep fuelL fuel j Hc Hn HX HY Hsd E.
  unfold nestedlasso in E.
  destruct (NestedLasso cd est data lambMin keep fuelL fuel) as [[data' paths]| |] eqn:EN; try discriminate E. cbn [bind] in E.
  pose proof EN as EN'. unfold NestedLasso in EN'.
  destruct (NewNormalizedData (dsX data) (dsY data)) as [nd| |] eqn:End; try discriminate EN'. cbn [bind] in EN'.
  destruct (nested_loop _ _ _ _ _ _ _ _ _ _) as [raw| |]; try discriminate EN'. cbn [bind] in EN'.
  destruct (unnormalize_paths nd raw) as [ps| |]; try discriminate EN'. cbn [bind] in EN'. injection EN' as <- <-.
  pose proof (consistent_shaped XR data Hc) as Hsh.
  destruct (initial_inv data _ f y nd Hsh Hn HX HY Hsd End) as (A1 & A2 & A3 & A4 & _).
  destruct Hc as (D1 & D2 & _).
  unfold nestedMarshal in E.
  destruct (C28_json_roundtrip XR (normalized_in_place data nd)) as (jd & d' & E1 & E2 & M1 & M2 & M3 & M4).
  - cbn. lia.
  - cbn. lia.
  - cbn. intros i k Hi Hk. rewrite (A1 i k Hi Hk). reflexivity.
  - cbn. rewrite A4. intros v Hv. unfold fins in Hv. apply in_map_iff in Hv. destruct Hv as (r & <- & _). reflexivity.
  - rewrite E1 in E. cbn [bind] in E. destruct (forallb _ ps); [|discriminate E]. injection E as <-.
    exists d', ps. unfold nestedUnmarshal. cbn [njDset njPaths]. rewrite E2. split; [reflexivity|].
    split; [exact M3|]. split; [exact M4|]. split; [rewrite M2; exact A4|].
    destruct M1 as (Q1 & Q2 & Q3). cbn [normalized_in_place dsX] in Q1, Q2, Q3.
    split; [congruence|]. split; [congruence|]. split; [|eexists; reflexivity].
    intros i k Hi Hk Hcol. set (col := map (fun r => f r k) (seq 0 (mrows (dsX data)))) in *. rewrite Q3 by (rewrite ?Q1, ?Q2; lia). rewrite (A1 i k) by lia. unfold normed. fold col.
    change (rcol (mrows (dsX data)) f k) with col. unfold scale. change (rcol (mrows (dsX data)) f k) with col.
    assert (Et : tol10 = / 10 ^ 10) by (unfold tol10; change (10 ^ 10)%Z with 10000000000%Z; field).
    rewrite (proj2 (Rltb_false _ _)) by (rewrite Et; exact Hcol). reflexivity.
Qed.
Print Assumptions C79_file_data.

(** So unless the target was standardised already, the file does not hold the
    target that was read. *)
Theorem C79_target_lost : forall (cd : CDParam XR) est (data : Dataset XR) f y lambMin keep fuelL fuel j d' paths,
  consistent data -> NoDup (dsNames data) -> rmat (dsX data) f -> dsY data = map XFin y -> sdev y <> 0 ->
  nestedlasso cd est (Some data) lambMin keep fuelL fuel = Ok (Some j) -> nestedUnmarshal j = Ok (d', paths) ->
  (dsY d' = dsY data <-> mean y = 0 /\ sdev y = 1).
Proof.
  intros cd est data f y lambMin keep fuelL fuel j d' paths Hc Hn HX HY Hsd E EU.
  destruct (C79_file_data cd est data f y lambMin keep fuelL fuel j Hc Hn HX HY Hsd E) as (d0 & p0 & EU' & _ & _ & A & _).
  rewrite EU in EU'. injection EU' as <- <-. rewrite A, HY. clear - Hsd.
  assert (Hne : y <> []) by (intros ->; apply Hsd; reflexivity).
  split.
  - intro C. apply (fins_inj (map (fun v => (v - mean y) / sdev y) y) y) in C. split.
    + rewrite <- C. apply normalized_mean. exact Hne.
    + rewrite <- C. apply normalized_sdev; assumption.
  - intros (-> & ->). f_equal. rewrite <- (map_id y) at 2. apply map_ext. intro v. field.
Qed.
Print Assumptions C79_target_lost.

(** ** A run on the table of the example of C74 *)

Definition exc_nd : NormalizedData XR := mkND exc_X (fins exc_yz) (fins [0; 2; 1]) (fins [1; 7; 0]) (fin 3) (fin 10) true.

Lemma exc_norm : NewNormalizedData (dsX exc_d) (dsY exc_d) = Ok exc_nd.
Proof.
  assert (HX : rmat (dsX exc_d) exc_x).
  { intros i k Hi Hk. cbn [exc_d dsX mrows mcols mval] in *. rewrite (proj2 (Nat.ltb_lt i 5) Hi), (proj2 (Nat.ltb_lt k 3) Hk). reflexivity. }
  assert (Hb : forall i, (i < 5)%nat -> exc_x i 0%nat = 1) by reflexivity.
  assert (Hs : forall k, (0 < k < 3)%nat -> / 10 ^ 10 <= sdev (column 5 exc_x k)).
  { assert (B : / 10 ^ 10 <= 1) by (rewrite <- Rinv_1; apply Rinv_le_contravar; [lra|]; apply pow_R1_Rle; lra).
    intros k Hk. destruct k as [|[|[|k]]]; try lia; [rewrite exc_sd1|rewrite exc_sd2]; lra. }
  assert (HsY : 0 < sdev exc_y) by (rewrite exc_sdy; lra).
  assert (End : exists nd, NewNormalizedData (dsX exc_d) (dsY exc_d) = Ok nd).
  { destruct (nnd_ok (dsX exc_d) exc_x HX ltac:(cbn; lia) exc_y ltac:(discriminate)) as (X' & E & _); [|eauto].
    intros c Hc. unfold tol10. replace (1 / IZR (10 ^ 10)) with (/ 10 ^ 10); [apply Hs; exact Hc|].
    change (10 ^ 10)%Z with 10000000000%Z. field. }
  destruct End as (nd & End). rewrite End. f_equal.
  destruct (the_nd exc_d exc_x exc_y nd ltac:(cbn; lia) ltac:(cbn; lia) HX eq_refl eq_refl Hb Hs HsY End) as (X' & En & R1 & C1 & M1).
  assert (EX : X' = exc_X).
  { pose proof (nnd_outside _ _ _ End) as O. rewrite En in O. cbn [ndX] in O.
    destruct X' as [r c V]. cbn [mrows mcols mval] in *. unfold exc_X. f_equal; [exact R1|exact C1|].
    apply functional_extensionality. intro i. apply functional_extensionality. intro k.
    destruct (Nat.lt_ge_cases i 5) as [Hi|Hi]; [destruct (Nat.lt_ge_cases k 3) as [Hk|Hk]|].
    - rewrite <- (exc_standard i k Hi). apply M1; [rewrite R1|rewrite C1]; assumption.
    - rewrite O by (cbn; lia). cbn [exc_d dsX mval]. rewrite (proj2 (Nat.ltb_ge k 3) Hk), Bool.andb_false_r.
      destruct k as [|[|[|k]]]; try lia. reflexivity.
    - rewrite O by (cbn; lia). cbn [exc_d dsX mval]. rewrite (proj2 (Nat.ltb_ge i 5) Hi). cbn [andb].
      destruct k as [|[|[|k]]]; cbn [exc_z]; try reflexivity; rewrite nth_overflow by (cbn; lia); reflexivity. }
  rewrite En, EX, exc_standard_y, exc_sdy, exc_muy. unfold exc_nd. change (mrows (dsX exc_d)) with 5%nat. change (mcols (dsX exc_d)) with 3%nat.
  cbn [seq map]. change (rcol 5 exc_x 1) with (column 5 exc_x 1). change (rcol 5 exc_x 2) with (column 5 exc_x 2).
  rewrite exc_sd1, exc_sd2, exc_mu1, exc_mu2.
  replace (sdev (rcol 5 exc_x 0)) with 0 by (symmetry; apply sdev5; [lra|]; cbn; lra).
  replace (mean (rcol 5 exc_x 0)) with 1 by (unfold rcol; cbn [map seq exc_x]; rewrite mean5; lra). reflexivity.
Qed.

Lemma exc_lars : exists est, LassoLars_est exc_cd (exc_X, None) exc_nd (fin (/ 1000)) 10 = Ok (exc_path, est).
Proof.
  pose proof (exc_runs (exc_X, None) exc_nd eq_refl eq_refl) as E. unfold LassoLars_est. unfold LassoLars in E.
  destruct (lars_start _ _ _ _) as [st| |]; try discriminate E. cbn [bind] in *.
  destruct (lars_loop _ _ _ _ _ _) as [st'| |]; try discriminate E. cbn [bind] in *. injection E as E. exists (laEst st'). exact (f_equal (fun r => Ok (r, laEst st')) E).
Qed.

(** the models of the file, in the units of the table *)
Definition exc_models : list (LassoLarsNode XR) :=
  [mkLN (N := XR) (fins [10; 0]) (fin (8 / 3)) [0; 1]%Z; mkLN (N := XR) (fins [13 / 2; 1 / 2; 0]) (fin (4 / 3)) [0; 1; 2]%Z].

Lemma exc_unnorm : Path2Unnormalized exc_nd exc_path = Ok exc_models.
Proof. unfold exc_nd, exc_path, exc_models. cmp. all: try (apply mkLN_eq; cmp). all: reflexivity. Qed.

Ltac rss := unfold node_rss; cbn -[Z.to_nat]; change (Z.to_nat 2) with 2%nat; change (Z.to_nat 1) with 1%nat; change (Z.to_nat 0) with 0%nat;
  cbn; unfold Rsqr; lra.

Lemma exc_crit : forall crit, exists v0 v1,
  GetCriteria (mkPath (normalized_in_place exc_d exc_nd) exc_path) crit = Ok [v0; v1] /\
  v0 = crit 1%Z 5%Z (fin 4) /\ v1 = crit 2%Z 5%Z (fin (8 / 3)).
Proof.
  intro crit.
  destruct (C61_criteria (mkPath (normalized_in_place exc_d exc_nd) exc_path) exc_z exc_yz crit) as (vals & E & L & V); cbn [lpDset lpNodes].
  - intros i j _ _. reflexivity.
  - cbn. lia.
  - reflexivity.
  - reflexivity.
  - intros n [<-|[<-|[]]]; cbn [lnCoeff lnSelection]; eexists; (split; [reflexivity|]); (split; [reflexivity|]); (split; [discriminate|]); (split; [repeat constructor|]).
    + intros v [<-|[]]. cbn. lia.
    + intros v [<-|[<-|[]]]; cbn; lia.
  - pose proof (V 0%nat _ [0] eq_refl eq_refl) as V0. pose proof (V 1%nat _ [1 / 3; 0] eq_refl eq_refl) as V1.
    destruct vals as [|v0 [|v1 [|]]]; try discriminate L. exists v0, v1. split; [exact E|].
    injection V0 as ->. injection V1 as ->. cbn [lnSelection length lpDset normalized_in_place dsX exc_nd ndX exc_X mrows]. split; (f_equal; f_equal).
    + rss.
    + rss.
Qed.

Lemma models_ok : forall n, In n exc_models -> exists w, lnCoeff n = fins w /\ length w = length (lnSelection n) /\ lnSelection n <> [] /\
  StronglySorted Z.lt (lnSelection n) /\ (forall v, In v (lnSelection n) -> (0 <= v < 3)%Z).
Proof.
  intros n [<-|[<-|[]]]; cbn [lnCoeff lnSelection]; eexists; (split; [reflexivity|]); (split; [reflexivity|]); (split; [discriminate|]); (split; [repeat constructor|]);
    cbn; intros v Hv; intuition lia.
Qed.

Lemma exc_run : exists p,
  NestedLasso exc_cd (exc_X, None) exc_d (fin (/ 1000)) (fin 0) 10 1 = Ok (normalized_in_place exc_d exc_nd, [p]) /\
  pwNodes p = exc_models /\
  pwAicc p = [Aicc 1 5 (fin 4); Aicc 2 5 (fin (8 / 3))] /\ pwBic p = [Bic 1 5 (fin 4); Bic 2 5 (fin (8 / 3))].
Proof.
  destruct exc_lars as (est & EL). destruct (exc_crit Aicc) as (a0 & a1 & EA & -> & ->). destruct (exc_crit Bic) as (b0 & b1 & EB & -> & ->).
  unfold NestedLasso. rewrite exc_norm. cbn [bind nested_loop]. rewrite EL. cbn [bind]. rewrite EA. cbn [bind]. rewrite EB. cbn [bind].
  assert (G : go_int (N := XR) (nmul (n := XR) (fin 0) (nofnat (mcols (dsX (normalized_in_place exc_d exc_nd))))) = 0%Z).
  { unfold nofnat. change (nofZ (n := XR) (Z.of_nat (mcols (dsX (normalized_in_place exc_d exc_nd))))) with (fin 3). rewrite xmul_fin, Rmult_0_l.
    unfold go_int. change ((if Rltb 0 0 then (- (up (- 0) - 1))%Z else (up 0 - 1)%Z) = 0%Z).
    rewrite (proj2 (Rltb_false 0 0)) by lra. rewrite <- (tech_up 0 1) by lra. reflexivity. }
  rewrite G. change (0 <=? 2)%Z with true. cbv iota.
  change (map_selections exc_d (dsNames (normalized_in_place exc_d exc_nd)) exc_path) with (Ok exc_path). cbn [bind app].
  cbn [unnormalize_paths pwNodes pwAicc pwBic]. rewrite exc_unnorm. cbn [bind]. eexists. split; [reflexivity|]. split; [reflexivity|]. split; reflexivity.
Qed.

Lemma aicc_fin : forall k r, 0 < r -> (0 <= k)%Z -> (k < 4)%Z -> Aicc (N := XR) k 5 (fin r) =
  fin (2 * IZR k + 5 * ln r + IZR (2 * k * k + 2 * k) / IZR (5 - k - 1)).
Proof.
  intros k r Hr Hk0 Hk. unfold Aicc, Aic. destruct (Z.leb_spec (5 - 1) k); [lia|].
  assert (nlog (n := XR) (fin r) = fin (ln r)) as -> by (apply xlog_fin; exact Hr).
  change (nofZ (n := XR) 2) with (fin 2). change (nofZ (n := XR) k) with (fin (IZR k)). change (nofZ (n := XR) 5) with (fin 5).
  change (nofZ (n := XR) (5 - k - 1)) with (fin (IZR (5 - k - 1))). change (nofZ (n := XR) (2 * k * k + 2 * k)) with (fin (IZR (2 * k * k + 2 * k))).
  rewrite xdiv_fin by (apply not_0_IZR; lia). rewrite !xmul_fin, !xadd_fin. reflexivity.
Qed.

Lemma bic_finite : forall k r, 0 < r -> finite (Bic (N := XR) k 5 (fin r)) = true.
Proof.
  intros k r Hr. unfold Bic. change (nofZ (n := XR) k) with (fin (IZR k)). change (nofZ (n := XR) 5) with (fin 5).
  rewrite !xlog_fin by lra. rewrite !xmul_fin, xadd_fin. reflexivity.
Qed.

Lemma file_run : exists j d' p,
  nestedlasso exc_cd (exc_X, None) (Some exc_d) (fin (/ 1000)) (fin 0) 10 1 = Ok (Some j) /\ nestedUnmarshal j = Ok (d', [p]) /\
  pwNodes p = exc_models /\ pwAicc p = [Aicc 1 5 (fin 4); Aicc 2 5 (fin (8 / 3))] /\
  rmat (dsX d') exc_z /\ mrows (dsX d') = 5%nat /\ mcols (dsX d') = 3%nat /\ dsY d' = fins exc_yz.
Proof.
  destruct exc_run as (p & E & P1 & P2 & P3).
  destruct (C79_file XR exc_cd (exc_X, None) exc_d (fin (/ 1000)) (fin 0) 10 1 (normalized_in_place exc_d exc_nd) [p]) as (_ & H).
  destruct (H E ltac:(cbn; lia) ltac:(cbn; lia)) as (H1 & _). clear H.
  destruct H1 as (j & d' & F1 & F2 & (Q1 & Q2 & Q3) & Q4 & _).
  - split; [split|].
    + intros i k _ _. reflexivity.
    + cbn. intros v Hv. repeat (destruct Hv as [<-|Hv]; [reflexivity|]). destruct Hv.
    + intros q [<-|[]]. rewrite P1, P2, P3. split.
      * intros n v Hn Hv. destruct Hn as [<-|[<-|[]]]; cbn [lnLamb lnCoeff fins map] in Hv;
          repeat (destruct Hv as [<-|Hv]; [reflexivity|]); destruct Hv.
      * intros v [[<-|[<-|[]]]|[<-|[<-|[]]]]; try (rewrite aicc_fin by (lra || lia); reflexivity); apply bic_finite; lra.
  - exists j, d', p. split; [exact F1|]. split; [exact F2|]. split; [exact P1|]. split; [exact P2|].
    change (mrows d'.(dsX) = 5%nat) in Q1. change (mcols d'.(dsX) = 3%nat) in Q2.
    split; [|split; [exact Q1|split; [exact Q2|exact Q4]]].
    intros i k Hi Hk. rewrite (Q3 i k Hi Hk). reflexivity.
Qed.

(** The hypotheses of the theorems above hold for this table. *)
Example C79_example : exists j d' p, consistent exc_d /\ NoDup (dsNames exc_d) /\ rmat (dsX exc_d) exc_x /\ sdev exc_y <> 0 /\
  nestedlasso exc_cd (exc_X, None) (Some exc_d) (fin (/ 1000)) (fin 0) 10 1 = Ok (Some j) /\ nestedUnmarshal j = Ok (d', [p]) /\
  pwNodes p = exc_models /\ dsY d' = fins exc_yz /\ dsY exc_d = fins exc_y.
Proof.
  destruct file_run as (j & d' & p & F1 & F2 & F3 & _ & _ & _ & _ & F4). exists j, d', p.
  split; [unfold consistent; cbn; repeat split; lia|]. split; [cbn; repeat constructor; cbn; intuition discriminate|].
  split. { intros i k Hi Hk. cbn [exc_d dsX mrows mcols mval] in *. rewrite (proj2 (Nat.ltb_lt i 5) Hi), (proj2 (Nat.ltb_lt k 3) Hk). reflexivity. }
  split; [rewrite exc_sdy; lra|]. split; [exact F1|]. split; [exact F2|]. split; [exact F3|]. split; [exact F4|reflexivity].
Qed.

(** One would expect the scores in the file to be those of its models, on its
    data or on the data that was read.  They are neither. *)
Theorem C79_scores_refuted : exists (cd : CDParam XR) est data lambMin keep fuelL fuel j d' p onFile onData s f d,
  nestedlasso cd est (Some data) lambMin keep fuelL fuel = Ok (Some j) /\ nestedUnmarshal j = Ok (d', [p]) /\
  GetCriteria (mkPath d' (pwNodes p)) Aicc = Ok onFile /\ GetCriteria (mkPath data (pwNodes p)) Aicc = Ok onData /\
  nth_error (pwAicc p) 1 = Some (XFin s) /\ nth_error onFile 1 = Some (XFin f) /\ nth_error onData 1 = Some (XFin d) /\
  s <> f /\ s <> d.
Proof.
  destruct file_run as (j & d' & p & F1 & F2 & F3 & F4 & F5 & F6 & F7 & F8).
  destruct (C61_criteria (mkPath d' exc_models) exc_z exc_yz Aicc) as (onFile & E1 & _ & V1); cbn [lpDset lpNodes].
  { exact F5. } { rewrite F6. lia. } { exact F8. } { rewrite F6. reflexivity. }
  { intros n Hn. destruct (models_ok n Hn) as (w & W). exists w. rewrite F7. exact W. }
  destruct (C61_criteria (mkPath exc_d exc_models) exc_x exc_y Aicc) as (onData & E2 & _ & V2); cbn [lpDset lpNodes].
  { intros i k Hi Hk. cbn [exc_d dsX mrows mcols mval] in *. rewrite (proj2 (Nat.ltb_lt i 5) Hi), (proj2 (Nat.ltb_lt k 3) Hk). reflexivity. }
  { cbn. lia. } { reflexivity. } { reflexivity. }
  { intros n Hn. exact (models_ok n Hn). }
  specialize (V1 1%nat _ [13 / 2; 1 / 2; 0] eq_refl eq_refl). specialize (V2 1%nat _ [13 / 2; 1 / 2; 0] eq_refl eq_refl).
  cbn [lpDset lnSelection length] in V1, V2. rewrite F6 in V1. change (mrows (dsX exc_d)) with 5%nat in V2.
  assert (R1 : node_rss 5 exc_z [0; 1; 2]%Z [13 / 2; 1 / 2; 0] exc_yz = 7 / 3) by rss.
  assert (R2 : node_rss 5 exc_x [0; 1; 2]%Z [13 / 2; 1 / 2; 0] exc_y = 24) by rss.
  rewrite R1 in V1. rewrite R2 in V2. change (Z.of_nat 5) with 5%Z in *. change (Z.of_nat 3) with 3%Z in *.
  assert (E0 : nth_error (pwAicc p) 1 = Some (Aicc (N := XR) 2 5 (fin (8 / 3)))) by (rewrite F4; reflexivity).
  rewrite aicc_fin in E0, V1, V2 by (lra || lia).
  change (2 * 2 * 2 + 2 * 2)%Z with 12%Z in E0. change (5 - 2 - 1)%Z with 2%Z in E0.
  change (2 * 3 * 3 + 2 * 3)%Z with 24%Z in V1, V2. change (5 - 3 - 1)%Z with 1%Z in V1, V2.
  exists exc_cd, (exc_X, None), exc_d, (fin (/ 1000)), (fin 0), 10%nat, 1%nat, j, d', p, onFile, onData. do 3 eexists.
  split; [exact F1|]. split; [exact F2|]. rewrite F3. split; [exact E1|]. split; [exact E2|]. split; [exact E0|]. split; [exact V1|]. split; [exact V2|].
  assert (L1 : ln (8 / 3) < 2).
  { apply exp_lt_inv. rewrite exp_ln by lra. replace 2 with (1 + 1) by lra. rewrite exp_plus. pose proof (exp_ineq1 1 ltac:(lra)). nra. }
  assert (L2 : 0 < ln (7 / 3)) by (rewrite <- ln_1; apply ln_increasing; lra).
  assert (L3 : ln (8 / 3) < ln 24) by (apply ln_increasing; lra).
  split; lra.
Qed.

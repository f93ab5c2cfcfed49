(** C89: LassoLars on the same data with some signs reversed. *)
From Coq Require Import Permutation Sorted Reals Lra.
From Verif Require Import Base Num Mat Model_Node Model_Util Model_Fit Model_Norm Model_Cov Model_Crd Model_Lars
  Proof_Node Proof_Util RSum Proof_XR Proof_Norm Proof_Fit Proof_Lars Spec_Lars Proof_Homotopy Proof_Lars2 Proof_Lars3 Props_Lars Eval
  Spec_Sign Spec_Sign2 Proof_Sign4.
Open Scope R_scope.

Lemma mirror_fin : forall s a b, mirror (N := XR) s (fin a) (fin b) -> b = sgn s * a.
Proof.
  intros s a b [H|((H1 & H2) & (H3 & H4))].
  - destruct s; [rewrite xneg_fin in H|]; injection H as ->; unfold sgn; ring.
  - rewrite n0_fin in *. apply xle_fin in H1. apply xle_fin in H2. apply xle_fin in H3. apply xle_fin in H4.
    replace a with 0 by lra. replace b with 0 by lra. ring.
Qed.

(** C89: with exact arithmetic, exact estimators (see C37) and features that are
    independent, the path for the data with reversed signs has the same
    penalties and features as the path for the data themselves, and the
    coefficient of feature j changes its sign if exactly one of feature j and
    the target did - provided no feature could join with either sign on one and
    the same segment of the path. *)
Theorem C89_lars : forall sf sy (d d' : NormalizedData XR) A A' yr yr' (cd cd' : CDParam XR) P P' est est' mn fuel fuel' path path',
  rmat (ndX d) A -> ndy d = fins yr -> length yr = mrows (ndX d) ->
  rmat (ndX d') A' -> ndy d' = fins yr' -> mirror_nd sf sy d d' ->
  exact_cd (ndX d) A yr cd P -> P (cdSetX cd est (ndX d)) ->
  exact_cd (ndX d') A' yr' cd' P' -> P' (cdSetX cd' est' (ndX d')) ->
  independent (mrows (ndX d)) (mcols (ndX d)) A -> 0 <= mn ->
  LassoLars cd est d (fin mn) fuel = Ok path -> LassoLars cd' est' d' (fin mn) fuel' = Ok path' ->
  clear_joins (mrows (ndX d)) (mcols (ndX d)) A (fun i => nth i yr 0) path ->
  Forall2 (mirror_node (fun z => xorb (sf (Z.to_nat z)) sy)) path path'.
Proof.
  intros sf sy d d' A A' yr yr' cd cd' P P' est est' mn fuel fuel' path path' HX Ey Hy HX' Ey' M HE HP HE' HP' FR Hmn E E' HC.
  destruct M as ((M1 & M2 & M3) & (M4 & M5) & _).
  assert (Hy' : length yr' = mrows (ndX d')) by (rewrite Ey, Ey', !fins_length in M4; lia).
  assert (VA : forall i j, (i < mrows (ndX d))%nat -> (j < mcols (ndX d))%nat -> A' i j = sgn (sf j) * A i j).
  { intros i j Hi Hj. apply mirror_fin. rewrite <- (HX i j Hi Hj), <- (HX' i j) by lia. apply M3; assumption. }
  assert (Vy : forall i, (i < mrows (ndX d))%nat -> nth i yr' 0 = sgn sy * nth i yr 0).
  { intros i Hi. apply mirror_fin. rewrite Ey, Ey' in M5. rewrite fins_length in M5. specialize (M5 i ltac:(lia)).
    change (n0 (N := XR)) with (fin 0) in M5. rewrite !nth_fins in M5 by lia. exact M5. }
  assert (SX : forall j, sgn (xorb (sf j) sy) = sgn (sf j) * sgn sy) by (intro j; destruct (sf j), sy; unfold sgn; cbn; ring).
  apply (lars_mirror d d' A A' yr yr' (fun j => xorb (sf j) sy) cd cd' P P' est est' mn fuel fuel' path path'); try assumption.
  - lia.
  - intros j k Hj Hk. rewrite <- M1, <- rsum_scal. apply rsum_ext. intros i Hi. rewrite !VA, !SX by assumption.
    replace (sgn (sf j) * sgn sy * (sgn (sf k) * sgn sy) * (A i j * A i k)) with (sgn sy * sgn sy * (sgn (sf j) * A i j * (sgn (sf k) * A i k))) by ring.
    rewrite sgn_sq. ring.
  - intros j Hj. rewrite <- M1, <- rsum_scal. apply rsum_ext. intros i Hi. rewrite VA, Vy, SX by assumption. ring.
  - apply exact_cd_est. exact HE.
  - apply exact_cd_est. exact HE'.
Qed.
Print Assumptions C89_lars.

(** *** a concrete pair of paths: the dataset of C37 (see [exb_nd]) and the same
    with the sign of the target reversed *)
Definition sl_nd (y : list R) : NormalizedData XR := mkND exb_X (fins y) [] [] n0 n0 true.

Lemma sl_exact : forall y, length y = 3%nat -> exact_cd exb_X exb_A y orthonormalCD (fun st => fst st = exb_X).
Proof.
  intros y Hy st E est HP SS Hne HE HG Hset. cbn [cdSetActive orthonormalCD] in Hset. injection Hset as <-. rewrite HP.
  cbn [fst snd cdC cdD orthonormalCD]. change (mcols exb_X) with 3%nat in *. change (mrows exb_X) with 3%nat in *.
  pose proof (SSlt_NoDup E SS) as ND.
  assert (HE' : forall f, In f E -> (0 < f < 3)%nat).
  { intros f Hf. specialize (HE f Hf). specialize (HG f Hf). apply exb_nonzero in HG. lia. }
  split; [reflexivity|]. split.
  - intros c Hc. set (M := icv_mat exb_X (map Z.of_nat E)) in *.
    assert (HM : rmat M (fun i j => exb_A i (nth j E 0%nat))) by (apply icv_rmat; [apply exb_rmat|exact HE]).
    rewrite (mat_mulvec_fin (mat_T M) (fun i j => exb_A j (nth i E 0%nat))) in Hc; [|apply (mat_T_fin M _ HM)|symmetry; exact Hy].
    injection Hc as <-. change (mrows (mat_T M)) with (length (map Z.of_nat E)). change (mcols (mat_T M)) with 3%nat. rewrite map_length.
    eexists. split; [reflexivity|]. split; [rewrite map_length, seq_length; reflexivity|].
    intros f Hf. rewrite corr_gv. unfold gv.
    rewrite exb_gv by (apply HE'; exact Hf). destruct (In_nth E f 0%nat Hf) as (j & Hj & Ej).
    match goal with |- context [spread E ?l f] => pose proof (spread_nth E l j ND Hj) as Q end. rewrite Ej in Q. rewrite Q.
    rewrite nth_map_seq by exact Hj. rewrite Ej. cbn. ring.
  - intros s d Hs Hd. injection Hd as <-. exists (map s E). split; [reflexivity|]. split; [apply map_length|].
    intros f Hf. rewrite exb_gv by (apply HE'; exact Hf). destruct (In_nth E f 0%nat Hf) as (j & Hj & Ej).
    pose proof (spread_nth E (map s E) j ND Hj) as Q. rewrite Ej in Q. rewrite Q. rewrite (nth_map_lt _ _ s E j 0%nat 0 Hj), Ej. reflexivity.
Qed.

Definition sl_path' : list (LassoLarsNode XR) :=
  [mkLN (N := XR) (fins [0]) (fin 3) [2%Z]; mkLN (N := XR) (fins [0; 2]) (fin 1) [1%Z; 2%Z]].

Lemma sl_start : lars_start (N := XR) orthonormalCD (exb_X, []) exb_X (fins [-1; 3; -2]) =
  Ok (mkLars (N := XR) (fin 3) [2%nat] (fins [0; 0; 1]) None (fin 0) (exb_X, []) [] false).
Proof. cmp. apply mkLars_eq; cmp. reflexivity. Qed.
Lemma sl_step1 : lars_step (N := XR) orthonormalCD exb_X (fins [-1; 3; -2])
  (mkLars (N := XR) (fin 3) [2%nat] (fins [0; 0; 1]) None (fin 0) (exb_X, []) [] false) =
  Ok (mkLars (N := XR) (fin 1) [2%nat; 1%nat] (fins [0; -1; 1]) None (fin 0) (exb_X, [2%Z])
        [mkLN (N := XR) (fins [0]) (fin 3) [2%Z]] false).
Proof. cmp. apply mkLars_eq; cmp. all: try (apply mkLN_eq; cmp). all: reflexivity. Qed.
Lemma sl_step2 : lars_step (N := XR) orthonormalCD exb_X (fins [-1; 3; -2])
  (mkLars (N := XR) (fin 1) [2%nat; 1%nat] (fins [0; -1; 1]) None (fin 0) (exb_X, [2%Z])
        [mkLN (N := XR) (fins [0]) (fin 3) [2%Z]] false) =
  Ok (mkLars (N := XR) (fin 0) [2%nat] (fins [0; -1; 1]) (Some 1%nat) (fin 0) (exb_X, [1%Z; 2%Z]) sl_path' false).
Proof. cmp. apply mkLars_eq; cmp. all: try (apply mkLN_eq; cmp). all: reflexivity. Qed.

Lemma sl_runs : LassoLars orthonormalCD (exb_X, []) (sl_nd [-1; 3; -2]) (fin (/ 1000)) 10 = Ok sl_path'.
Proof.
  assert (L : forall a, / 1000 < a -> nltb (n := XR) (fin (/ 1000)) (fin a) = true) by (intros a Ha; apply Rltb_true; exact Ha).
  unfold LassoLars, sl_nd. cbn [ndX ndy]. rewrite sl_start. cbn [bind lars_loop].
  cbn [laLamb]. rewrite L by lra. cbn [negb]. rewrite sl_step1. cbn [bind laStop laLamb]. rewrite L by lra. cbn [negb].
  rewrite sl_step2. cbn [bind laStop laLamb].
  replace (nltb (n := XR) (fin (/ 1000)) (fin 0)) with false by (symmetry; apply Rltb_false; lra). reflexivity.
Qed.

Lemma exb_corr0 : forall y b, corr 3 3 exb_A y b 0 = 0.
Proof. intros y b. unfold corr. apply rsum_0'. intros i Hi. cbn [exb_A]. ring. Qed.

Lemma sl_clear : clear_joins 3 3 exb_A (fun i => nth i exb_y 0) exb_path.
Proof.
  intros l1 nd l2 EP E v l H1 H2 H3 f Hf Hout _ s t t' b b' _ B1 B2 (S1 & _) (S2 & _) C1 C2.
  destruct (Nat.eq_dec f 0) as [->|F0]; [rewrite exb_corr0 in C1, C2; lra|].
  rewrite exb_corr in C1, C2 by lia. rewrite (S1 f Hf Hout) in C1. rewrite (S2 f Hf Hout) in C2.
  unfold exb_path in EP. assert (I2 : In 2%nat E).
  { assert (I : In 2%Z (lnSelection nd)).
    { destruct l1 as [|x [|x' l1]]; cbn [app] in EP; [injection EP as <- _|injection EP as _ <- _|injection EP as _ _ EP; destruct l1; discriminate EP]; cbn; auto. }
    rewrite H1 in I. apply in_map_iff in I. destruct I as (q & Eq & I). replace q with 2%nat in I by lia. exact I. }
  assert (F1 : f = 1%nat) by (destruct f as [|[|[|f]]]; try lia; contradiction). subst f. cbn in C1, C2.
  exfalso. lra.
Qed.

Example C89_lars_example :
  LassoLars orthonormalCD (exb_X, []) (sl_nd exb_y) (fin (/ 1000)) 10 = Ok exb_path /\
  LassoLars orthonormalCD (exb_X, []) (sl_nd [-1; 3; -2]) (fin (/ 1000)) 10 = Ok sl_path' /\
  mirror_nd (fun _ => false) true (sl_nd exb_y) (sl_nd [-1; 3; -2]) /\
  Forall2 (mirror_node (fun _ => true)) exb_path sl_path'.
Proof.
  assert (MN : mirror_nd (fun _ => false) true (sl_nd exb_y) (sl_nd [-1; 3; -2])).
  { assert (MY : mirror_list (N := XR) (fun _ => true) (fins exb_y) (fins [-1; 3; -2])).
    { split; [reflexivity|]. intros i Hi. left. destruct i as [|[|[|i]]].
      - change (fin (-1) = nneg (n := XR) (fin 1)). rewrite xneg_fin. apply (f_equal fin). lra.
      - change (fin 3 = nneg (n := XR) (fin (-3))). rewrite xneg_fin. apply (f_equal fin). lra.
      - change (fin (-2) = nneg (n := XR) (fin 2)). rewrite xneg_fin. apply (f_equal fin). lra.
      - cbn in Hi. lia. }
    split; [split; [reflexivity|split; [reflexivity|intros; left; reflexivity]]|]. split; [exact MY|]. split; [reflexivity|].
    split; [split; [reflexivity|intros i Hi; cbn in Hi; lia]|]. split; [reflexivity|]. split; [|reflexivity].
    right. split; split; apply (proj2 (xle_fin 0 0)); lra. }
  split; [exact exb_runs|]. split; [exact sl_runs|]. split; [exact MN|].
  apply (C89_lars (fun _ => false) true (sl_nd exb_y) (sl_nd [-1; 3; -2]) exb_A exb_A exb_y [-1; 3; -2] orthonormalCD orthonormalCD
    (fun st => fst st = exb_X) (fun st => fst st = exb_X) (exb_X, []) (exb_X, []) (/ 1000) 10 10 exb_path sl_path' exb_rmat eq_refl eq_refl exb_rmat eq_refl MN
    (sl_exact exb_y eq_refl) eq_refl (sl_exact [-1; 3; -2] eq_refl) eq_refl exb_independent ltac:(lra) exb_runs sl_runs sl_clear).
Qed.

(** *** without that proviso it fails *)
Definition sr_y : list R := [1; / 2000000; 0].
Definition sr_y' : list R := [-1; - / 2000000; 0].
Definition sr_path : list (LassoLarsNode XR) :=
  [mkLN (N := XR) (fins [0]) (fin 1) [1%Z]; mkLN (N := XR) (fins [1 - / 2000000; 0]) (fin (/ 2000000)) [1%Z; 2%Z]].
Definition sr_path' : list (LassoLarsNode XR) := [mkLN (N := XR) (fins [0]) (fin 1) [1%Z]].

Lemma sr_start : lars_start (N := XR) orthonormalCD (exb_X, []) exb_X (fins sr_y) =
  Ok (mkLars (N := XR) (fin 1) [1%nat] (fins [0; 1; 0]) None (fin 0) (exb_X, []) [] false).
Proof. unfold sr_y. cmp. apply mkLars_eq; cmp. reflexivity. Qed.
Lemma sr_step1 : lars_step (N := XR) orthonormalCD exb_X (fins sr_y)
  (mkLars (N := XR) (fin 1) [1%nat] (fins [0; 1; 0]) None (fin 0) (exb_X, []) [] false) =
  Ok (mkLars (N := XR) (fin (/ 2000000)) [1%nat; 2%nat] (fins [0; 1; 1]) None (fin 0) (exb_X, [1%Z])
        [mkLN (N := XR) (fins [0]) (fin 1) [1%Z]] false).
Proof. unfold sr_y. cmp. apply mkLars_eq; cmp. all: try (apply mkLN_eq; cmp). all: reflexivity. Qed.
Lemma sr_step2 : lars_step (N := XR) orthonormalCD exb_X (fins sr_y)
  (mkLars (N := XR) (fin (/ 2000000)) [1%nat; 2%nat] (fins [0; 1; 1]) None (fin 0) (exb_X, [1%Z])
        [mkLN (N := XR) (fins [0]) (fin 1) [1%Z]] false) =
  Ok (mkLars (N := XR) (fin 0) [2%nat] (fins [0; 1; 1]) (Some 1%nat) (fin (1 - / 2000000)) (exb_X, [1%Z; 2%Z]) sr_path false).
Proof. unfold sr_y. cmp. apply mkLars_eq; cmp. all: try (apply mkLN_eq; cmp). all: reflexivity. Qed.
Lemma sr_start' : lars_start (N := XR) orthonormalCD (exb_X, []) exb_X (fins sr_y') =
  Ok (mkLars (N := XR) (fin 1) [1%nat] (fins [0; -1; 0]) None (fin 0) (exb_X, []) [] false).
Proof. unfold sr_y'. cmp. apply mkLars_eq; cmp. reflexivity. Qed.
Lemma sr_step1' : lars_step (N := XR) orthonormalCD exb_X (fins sr_y')
  (mkLars (N := XR) (fin 1) [1%nat] (fins [0; -1; 0]) None (fin 0) (exb_X, []) [] false) =
  Ok (mkLars (N := XR) (fin 0) [] (fins [0; -1; 0]) (Some 1%nat) (fin 0) (exb_X, [1%Z]) sr_path' false).
Proof. unfold sr_y'. cmp. apply mkLars_eq; cmp. all: try (apply mkLN_eq; cmp). all: reflexivity. Qed.

Lemma sr_runs : LassoLars orthonormalCD (exb_X, []) (sl_nd sr_y) (fin 0) 10 = Ok sr_path.
Proof.
  assert (L : forall a, 0 < a -> nltb (n := XR) (fin 0) (fin a) = true) by (intros a Ha; apply Rltb_true; exact Ha).
  unfold LassoLars, sl_nd. cbn [ndX ndy]. rewrite sr_start. cbn [bind lars_loop].
  cbn [laLamb]. rewrite L by lra. cbn [negb]. rewrite sr_step1. cbn [bind laStop laLamb]. rewrite L by lra. cbn [negb].
  rewrite sr_step2. cbn [bind laStop laLamb].
  replace (nltb (n := XR) (fin 0) (fin 0)) with false by (symmetry; apply Rltb_false; lra). reflexivity.
Qed.
Lemma sr_runs' : LassoLars orthonormalCD (exb_X, []) (sl_nd sr_y') (fin 0) 10 = Ok sr_path'.
Proof.
  assert (L : forall a, 0 < a -> nltb (n := XR) (fin 0) (fin a) = true) by (intros a Ha; apply Rltb_true; exact Ha).
  unfold LassoLars, sl_nd. cbn [ndX ndy]. rewrite sr_start'. cbn [bind lars_loop].
  cbn [laLamb]. rewrite L by lra. cbn [negb]. rewrite sr_step1'. cbn [bind laStop laLamb].
  replace (nltb (n := XR) (fin 0) (fin 0)) with false by (symmetry; apply Rltb_false; lra). reflexivity.
Qed.

(** Reversing the sign of the target alone can change which features are on the
    path.  A feature that joins below 1e-6 is found if its coefficient is
    positive; if it is negative, LassoLars takes the other root of the join
    condition, which is below zero but within its tolerance, and ends the path
    without the feature.  The estimator is exact, the columns are orthonormal,
    nothing is tied and nothing is rounded. *)
Theorem C89_lars_refuted : exists (d d' : NormalizedData XR) (A : nat -> nat -> R) yr yr' (cd : CDParam XR) P est path path',
  rmat (ndX d) A /\ rmat (ndX d') A /\ ndy d = fins yr /\ ndy d' = fins yr' /\ mirror_nd (fun _ => false) true d d' /\
  exact_cd (ndX d) A yr cd P /\ exact_cd (ndX d') A yr' cd P /\ P (cdSetX cd est (ndX d)) /\ P (cdSetX cd est (ndX d')) /\
  independent (mrows (ndX d)) (mcols (ndX d)) A /\
  LassoLars cd est d (fin 0) 10 = Ok path /\ LassoLars cd est d' (fin 0) 10 = Ok path' /\
  (exists nd, In nd path /\ In 2%Z (lnSelection nd)) /\ (forall nd, In nd path' -> ~ In 2%Z (lnSelection nd)) /\
  length path <> length path'.
Proof.
  exists (sl_nd sr_y), (sl_nd sr_y'), exb_A, sr_y, sr_y', orthonormalCD, (fun st => fst st = exb_X), (exb_X, []), sr_path, sr_path'.
  assert (MN : mirror_nd (fun _ => false) true (sl_nd sr_y) (sl_nd sr_y')).
  { assert (MY : mirror_list (N := XR) (fun _ => true) (fins sr_y) (fins sr_y')).
    { split; [reflexivity|]. intros i Hi. left. destruct i as [|[|[|i]]].
      - change (fin (-1) = nneg (n := XR) (fin 1)). rewrite xneg_fin. apply (f_equal fin). lra.
      - change (fin (- / 2000000) = nneg (n := XR) (fin (/ 2000000))). rewrite xneg_fin. reflexivity.
      - change (fin 0 = nneg (n := XR) (fin 0)). rewrite xneg_fin. apply (f_equal fin). lra.
      - cbn in Hi. lia. }
    split; [split; [reflexivity|split; [reflexivity|intros; left; reflexivity]]|]. split; [exact MY|]. split; [reflexivity|].
    split; [split; [reflexivity|intros i Hi; cbn in Hi; lia]|]. split; [reflexivity|]. split; [|reflexivity].
    right. split; split; apply (proj2 (xle_fin 0 0)); lra. }
  split; [exact exb_rmat|]. split; [exact exb_rmat|]. split; [reflexivity|]. split; [reflexivity|]. split; [exact MN|].
  split; [apply sl_exact; reflexivity|]. split; [apply sl_exact; reflexivity|]. split; [reflexivity|]. split; [reflexivity|].
  split; [exact exb_independent|]. split; [exact sr_runs|]. split; [exact sr_runs'|]. split.
  { eexists. split; [right; left; reflexivity|]. right. left. reflexivity. }
  split; [|discriminate]. intros nd [<-|[]] [C|[]]. discriminate C.
Qed.
Print Assumptions C89_lars_refuted.

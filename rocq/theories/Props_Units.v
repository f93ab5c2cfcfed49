(** C81: the lasso does not depend on the units of measurement or on the order
    of the observations. *)
From Coq Require Import FunctionalExtensionality String Sorted Permutation Reals Lra.
From Verif Require Import Base Num Mat Model_Node Model_Util Model_Norm Model_Fit Model_Cov Model_CSV Model_Lars Model_Crd Model_CrdPath Model_Path Model_Cmd
  RSum Stats Proof_Util Proof_XR Proof_Norm Proof_Norm2 Proof_Cov Spec_Fit Spec_Lars Spec_Path Proof_Homotopy Proof_Lars2 Proof_Fit
  Eval Ex_Nested Props_Util Props_Fit Spec_LassoCmd Proof_LassoCmd Proof_Cmd Props_CSV Props_Norm Props_Lars Props_Crd Props_CrdPath Props_Path Props_Cmd Props_LassoCmd Props_CrdCmd
  Proof_Gram Spec_Units.
Open Scope R_scope.

Lemma lsum_perm : forall l l', Permutation l l' -> lsum l = lsum l'.
Proof.
  intros l l' P. induction P as [|a l l' P IH|a b l|l1 l2 l3 P1 IH1 P2 IH2]; rewrite ?lsum_cons; try lra.
Qed.
Lemma mean_perm : forall l l', Permutation l l' -> mean l = mean l'.
Proof. intros l l' P. unfold mean. rewrite (lsum_perm l l' P), (Permutation_length P). reflexivity. Qed.
Lemma sdev_perm : forall l l', Permutation l l' -> sdev l = sdev l'.
Proof.
  intros l l' P. unfold sdev. rewrite (mean_perm l l' P), (Permutation_length P). destruct (_ <=? _)%nat; [reflexivity|]. f_equal. f_equal.
  apply lsum_perm, Permutation_map. exact P.
Qed.
Lemma rsum_lsum : forall m f, rsum m f = lsum (map f (seq 0 m)).
Proof.
  intros m f. rewrite lsum_rsum, map_length, seq_length. apply rsum_ext. intros i Hi. rewrite nth_map_seq by exact Hi. reflexivity.
Qed.
Lemma nth_perm : forall m (p : list nat), Permutation p (seq 0 m) -> p = map (fun i => nth i p 0%nat) (seq 0 m).
Proof.
  intros m p P. assert (L : length p = m) by (rewrite (Permutation_length P), seq_length; reflexivity).
  apply (nth_ext _ _ 0%nat 0%nat); [rewrite map_length, seq_length; exact L|]. intros i Hi.
  rewrite nth_map_seq by lia. reflexivity.
Qed.
Lemma perm_lt : forall m p i, Permutation p (seq 0 m) -> (i < m)%nat -> (nth i p 0 < m)%nat.
Proof.
  intros m p i P Hi. assert (L : length p = m) by (rewrite (Permutation_length P), seq_length; reflexivity).
  assert (In (nth i p 0%nat) (seq 0 m)) as H by (apply (Permutation_in _ P), nth_In; lia). apply in_seq in H. lia.
Qed.
Lemma rsum_perm : forall m p f, Permutation p (seq 0 m) -> rsum m (fun i => f (nth i p 0%nat)) = rsum m f.
Proof.
  intros m p f P. rewrite !rsum_lsum. apply lsum_perm. rewrite <- (map_map (fun i => nth i p 0%nat) f), <- (nth_perm m p P).
  apply Permutation_map. exact P.
Qed.

Section Remeasured.
  Variables (m n : nat) (x x' : nat -> nat -> R) (y y' : list R) (p : list nat) (a b : nat -> R) (s t : R).
  Hypotheses (Hm : (0 < m)%nat) (Hy : length y = m) (RM : remeasured m n x y x' y' p a b s t).

  Lemma column_again : forall k, (0 < k < n)%nat -> Permutation (column m x' k) (map (fun v => a k * v + b k) (column m x k)).
  Proof.
    intros k Hk. unfold column. rewrite map_map.
    rewrite (map_ext_in _ (fun i => a k * x (nth i p 0%nat) k + b k)).
    - rewrite <- (map_map (fun i => nth i p 0%nat) (fun i => a k * x i k + b k)), <- (nth_perm m p (rm_p _ _ _ _ _ _ _ _ _ _ _ RM)).
      apply Permutation_map. apply (rm_p _ _ _ _ _ _ _ _ _ _ _ RM).
    - intros i Hi. apply in_seq in Hi. apply (rm_x _ _ _ _ _ _ _ _ _ _ _ RM); [lia|exact Hk].
  Qed.
  Lemma column_ne : forall k, column m x k <> [].
  Proof. intros k C. apply (f_equal (@length R)) in C. unfold column in C. rewrite map_length, seq_length in C. cbn in C. lia. Qed.
  Lemma mean_again : forall k, (0 < k < n)%nat -> mean (column m x' k) = a k * mean (column m x k) + b k.
  Proof. intros k Hk. rewrite (mean_perm _ _ (column_again k Hk)). apply mean_affine. apply column_ne. Qed.
  Lemma sdev_again : forall k, (0 < k < n)%nat -> sdev (column m x' k) = a k * sdev (column m x k).
  Proof.
    intros k Hk. rewrite (sdev_perm _ _ (column_again k Hk)), sdev_affine by apply column_ne. rewrite Rabs_pos_eq; [reflexivity|].
    left. apply (rm_a _ _ _ _ _ _ _ _ _ _ _ RM). exact Hk.
  Qed.
  Lemma y_again : Permutation y' (map (fun v => s * v + t) y).
  Proof.
    rewrite (rm_y _ _ _ _ _ _ _ _ _ _ _ RM).
    assert (E : map (fun v => s * v + t) y = map (fun i => s * nth i y 0 + t) (seq 0 m)).
    { rewrite <- (map_map (fun i => nth i y 0) (fun v => s * v + t)). f_equal. apply (nth_ext _ _ 0 0); [rewrite map_length, seq_length; exact Hy|].
      intros i Hi. rewrite nth_map_seq by lia. reflexivity. }
    rewrite E. apply Permutation_map. apply (rm_p _ _ _ _ _ _ _ _ _ _ _ RM).
  Qed.
  Lemma y_ne : y <> []. Proof. intros C. rewrite C in Hy. cbn in Hy. lia. Qed.
  Lemma y_length : length y' = m.
  Proof. rewrite (Permutation_length y_again), map_length. exact Hy. Qed.
  Lemma mean_y : mean y' = s * mean y + t.
  Proof. rewrite (mean_perm _ _ y_again). apply mean_affine, y_ne. Qed.
  Lemma sdev_y : sdev y' = s * sdev y.
  Proof.
    rewrite (sdev_perm _ _ y_again), sdev_affine by apply y_ne. rewrite Rabs_pos_eq; [reflexivity|]. left. apply (rm_s _ _ _ _ _ _ _ _ _ _ _ RM).
  Qed.

  Hypotheses (Hs : forall k, (0 < k < n)%nat -> 0 < sdev (column m x k)) (HsY : 0 < sdev y).

  Lemma standard_again : forall i k, (i < m)%nat -> (k < n)%nat -> standard_x m x' i k = standard_x m x (nth i p 0%nat) k.
  Proof.
    intros i [|k] Hi Hk; [reflexivity|]. cbn [standard_x]. rewrite (rm_x _ _ _ _ _ _ _ _ _ _ _ RM) by lia.
    rewrite mean_again, sdev_again by lia. pose proof (Hs (S k) ltac:(lia)). pose proof (rm_a _ _ _ _ _ _ _ _ _ _ _ RM (S k) ltac:(lia)). field. lra.
  Qed.
  Lemma standard_y_again : forall i, (i < m)%nat -> nth i (standard_y y') 0 = nth (nth i p 0%nat) (standard_y y) 0.
  Proof.
    intros i Hi. pose proof (perm_lt m p i (rm_p _ _ _ _ _ _ _ _ _ _ _ RM) Hi). pose proof y_length as L. unfold standard_y.
    rewrite (nth_map_lt _ _ _ y' i 0) by lia. rewrite (nth_map_lt _ _ _ y (nth i p 0%nat) 0) by lia.
    rewrite mean_y, sdev_y. rewrite (rm_y _ _ _ _ _ _ _ _ _ _ _ RM).
    assert (Lp : length p = m) by (rewrite (Permutation_length (rm_p _ _ _ _ _ _ _ _ _ _ _ RM)), seq_length; reflexivity).
    rewrite (nth_map_lt _ _ _ p i 0%nat) by lia. pose proof (rm_s _ _ _ _ _ _ _ _ _ _ _ RM). field. lra.
  Qed.
  Lemma gram_again : forall j k, (j < n)%nat -> (k < n)%nat ->
    rsum m (fun i => standard_x m x i j * standard_x m x i k) = rsum m (fun i => standard_x m x' i j * standard_x m x' i k).
  Proof.
    intros j k Hj Hk. rewrite <- (rsum_perm m p (fun i => standard_x m x i j * standard_x m x i k) (rm_p _ _ _ _ _ _ _ _ _ _ _ RM)).
    apply rsum_ext. intros i Hi. rewrite !standard_again by assumption. reflexivity.
  Qed.
  Lemma xty_again : forall j, (j < n)%nat ->
    rsum m (fun i => standard_x m x i j * nth i (standard_y y) 0) = rsum m (fun i => standard_x m x' i j * nth i (standard_y y') 0).
  Proof.
    intros j Hj. rewrite <- (rsum_perm m p (fun i => standard_x m x i j * nth i (standard_y y) 0) (rm_p _ _ _ _ _ _ _ _ _ _ _ RM)).
    apply rsum_ext. intros i Hi. rewrite standard_again, standard_y_again by assumption. reflexivity.
  Qed.
End Remeasured.

(** Two models in the units of the two datasets: the same features and penalty,
    and for every observation the second predicts what the first does,
    expressed in the new unit of the target. *)
Definition same_model (m : nat) (x x' : nat -> nat -> R) (p : list nat) (s t : R) (nd nd' : LassoLarsNode XR) : Prop :=
  exists sel cs cs', lnSelection nd = sel /\ lnSelection nd' = sel /\ lnLamb nd = lnLamb nd' /\
    lnCoeff nd = fins cs /\ lnCoeff nd' = fins cs' /\ length cs = length sel /\ length cs' = length sel /\
    forall i, (i < m)%nat -> predict x' i sel cs' = s * predict x (nth i p 0%nat) sel cs + t.

(** a dataset of real numbers with a bias column and columns that vary *)
Definition usual (d : Dataset XR) (m n : nat) (x : nat -> nat -> R) (y : list R) : Prop :=
  mrows (dsX d) = m /\ mcols (dsX d) = n /\ (0 < m)%nat /\ (0 < n)%nat /\ rmat (dsX d) x /\ dsY d = fins y /\ length y = m /\
  (forall i, (i < m)%nat -> x i 0%nat = 1) /\
  (forall k, (0 < k < n)%nat -> / 10 ^ 10 <= sdev (column m x k)) /\ 0 < sdev y.

Lemma usual_sd : forall d m n x y, usual d m n x y -> forall k, (0 < k < n)%nat -> 0 < sdev (column m x k).
Proof.
  intros d m n x y (_ & _ & _ & _ & _ & _ & _ & _ & Hs & _) k Hk. specialize (Hs k Hk).
  assert (0 < / 10 ^ 10) by (apply Rinv_0_lt_compat, pow_lt; lra). lra.
Qed.

Lemma usual_nd : forall d m n x y nd, usual d m n x y -> NewNormalizedData (dsX d) (dsY d) = Ok nd ->
  exists X', nd = mkND X' (fins (standard_y y))
        (fins (map (fun c => sdev (rcol m x c)) (seq 0 n))) (fins (map (fun c => mean (rcol m x c)) (seq 0 n)))
        (fin (sdev y)) (fin (mean y)) true /\ mrows X' = m /\ mcols X' = n /\ rmat X' (standard_x m x).
Proof.
  intros d m n x y nd (R & C & Hm & Hn & HX & HY & Hy & Hb & Hs & HsY) E. subst m n.
  exact (the_nd d x y nd Hm Hn HX HY Hy Hb Hs HsY E).
Qed.

(** the conversion to the units of the data *)
Lemma convert_again : forall m n d d' x x' y y' p a b s t nd nd' path,
  usual d m n x y -> usual d' m n x' y' -> remeasured m n x y x' y' p a b s t ->
  NewNormalizedData (dsX d) (dsY d) = Ok nd -> NewNormalizedData (dsX d') (dsY d') = Ok nd' ->
  (forall node, In node path -> exists sel cs, Props_Norm.good_node 1 n node sel cs) ->
  exists q q', Path2Unnormalized nd path = Ok q /\ Path2Unnormalized nd' path = Ok q' /\ Forall2 (same_model m x x' p s t) q q'.
Proof.
  intros m n d d' x x' y y' p a b s t nd nd' path U U' R E E' G.
  pose proof (usual_sd _ _ _ _ _ U) as Hsd. pose proof (usual_nd _ _ _ _ _ _ U E) as (X1 & En & R1 & C1 & M1).
  pose proof (usual_nd _ _ _ _ _ _ U' E') as (X1' & En' & R1' & C1' & M1').
  pose proof U as (R0 & C0 & Hm & Hn & HX & HY & Hy & Hb & Hs & HsY).
  pose proof U' as (R0' & C0' & _ & _ & HX' & HY' & Hy' & Hb' & Hs' & HsY').
  assert (G0 : forall node, In node path -> exists sel cs, Props_Norm.good_node 1 (mcols (dsX d)) node sel cs) by (rewrite C0; exact G).
  assert (G0' : forall node, In node path -> exists sel cs, Props_Norm.good_node 1 (mcols (dsX d')) node sel cs) by (rewrite C0'; exact G).
  destruct (C30_predictions (dsX d) x y path 1 ltac:(lia) ltac:(lia)) as (nd0 & z & q & F1 & F2 & F3 & F4); try assumption.
  { intros C. rewrite C in Hy. cbn in Hy. lia. }
  { rewrite R0. exact Hb. }
  { rewrite C0, R0. exact Hs. }
  destruct (C30_predictions (dsX d') x' y' path 1 ltac:(lia) ltac:(lia)) as (nd0' & z' & q' & F1' & F2' & F3' & F4'); try assumption.
  { intros C. rewrite C in Hy'. cbn in Hy'. lia. }
  { rewrite R0'. exact Hb'. }
  { rewrite C0', R0'. exact Hs'. }
  change (map XFin y) with (fins y) in F1. change (map XFin y') with (fins y') in F1'. rewrite <- HY in F1. rewrite <- HY' in F1'.
  rewrite F1 in E. apply Ok_inj in E. subst nd0. rewrite F1' in E'. apply Ok_inj in E'. subst nd0'.
  exists q, q'. split; [exact F3|]. split; [exact F3'|].
  rewrite R0, C0 in F4, F2. rewrite R0', C0' in F4', F2'.
  assert (HZ : forall i k, (i < m)%nat -> (k < n)%nat -> z i k = standard_x m x i k).
  { intros i k Hi Hk. specialize (F2 i k Hi Hk). rewrite En in F2. cbn [ndX] in F2. rewrite (M1 i k) in F2 by lia. injection F2. auto. }
  assert (HZ' : forall i k, (i < m)%nat -> (k < n)%nat -> z' i k = standard_x m x' i k).
  { intros i k Hi Hk. specialize (F2' i k Hi Hk). rewrite En' in F2'. cbn [ndX] in F2'. rewrite (M1' i k) in F2' by lia. injection F2'. auto. }
  clear F3 F3' G0 G0' R0 C0 R0' C0' R1 C1 R1' C1' En En'. revert q q' F4 F4'. induction path as [|node path IH]; intros q q' F4 F4'.
  - inversion F4. inversion F4'. constructor.
  - destruct q as [|w ws]; [inversion F4|]. destruct q' as [|w' ws']; [inversion F4'|].
    inversion_clear F4 as [|? ? ? ? H1 F4a]. inversion_clear F4' as [|? ? ? ? H2 F4a'].
    constructor; [|apply IH; [intros u Hu; apply G; right; exact Hu|assumption|assumption]].
    destruct (G node (or_introl eq_refl)) as (sel & cs & GN).
    destruct (H1 sel cs GN) as (b0 & ds & S1 & S2 & S3 & S4). destruct (H2 sel cs GN) as (b0' & ds' & S1' & S2' & S3' & S4').
    destruct GN as (_ & _ & Lcs & HV).
    exists (0%Z :: sel), (b0 :: ds), (b0' :: ds'). split; [exact S1|]. split; [exact S1'|]. split; [congruence|]. split; [exact S2|]. split; [exact S2'|].
    destruct S4 as (L1 & S4). destruct S4' as (L1' & S4').
    split; [cbn; congruence|]. split; [cbn; congruence|].
    intros i Hi. pose proof (perm_lt m p i (rm_p _ _ _ _ _ _ _ _ _ _ _ R) Hi) as Hp. rewrite (S4' i Hi), (S4 (nth i p 0%nat) Hp).
    assert (PE : predict z' i sel cs = predict z (nth i p 0%nat) sel cs).
    { unfold predict. f_equal. apply map_ext_in. intros (v & c) Hv. cbn [fst snd]. apply in_combine_l in Hv. specialize (HV v Hv).
      rewrite HZ', HZ by lia. rewrite (standard_again m n x x' y y' p a b s t Hm Hy R Hsd) by lia. reflexivity. }
    rewrite PE, (mean_y m n x x' y y' p a b s t Hm Hy R), (sdev_y m n x x' y y' p a b s t Hm Hy R). ring.
Qed.

(** ** LARS *)

(** With an exact estimator for either dataset (see C37) the two runs give the
    same path on the normalised data: the same features, coefficients and
    penalties.  Converted to the units of the data the models make the same
    predictions. *)
Theorem C81_lars : forall m n d d' x x' y y' p a b s t nd nd' (cd cd' : CDParam XR) P P' est est' mn fuel fuel' path path',
  usual d m n x y -> usual d' m n x' y' -> remeasured m n x y x' y' p a b s t -> full_rank m n x -> 0 <= mn ->
  NewNormalizedData (dsX d) (dsY d) = Ok nd -> NewNormalizedData (dsX d') (dsY d') = Ok nd' ->
  exact_cd (ndX nd) (standard_x m x) (standard_y y) cd P -> P (cdSetX cd est (ndX nd)) ->
  exact_cd (ndX nd') (standard_x m x') (standard_y y') cd' P' -> P' (cdSetX cd' est' (ndX nd')) ->
  LassoLars cd est nd (fin mn) fuel = Ok path -> LassoLars cd' est' nd' (fin mn) fuel' = Ok path' ->
  path = path' /\
  exists q q', Path2Unnormalized nd path = Ok q /\ Path2Unnormalized nd' path' = Ok q' /\ Forall2 (same_model m x x' p s t) q q'.
Proof.
  intros m n d d' x x' y y' p a b s t nd nd' cd cd' P P' est est' mn fuel fuel' path path' U U' R FR Hmn E E' HE HP HE' HP' EL EL'.
  pose proof (usual_sd _ _ _ _ _ U) as Hsd. pose proof (usual_nd _ _ _ _ _ _ U E) as (X1 & En & R1 & C1 & M1).
  pose proof (usual_nd _ _ _ _ _ _ U' E') as (X1' & En' & R1' & C1' & M1').
  pose proof U as (R0 & C0 & Hm & Hn & HX & HY & Hy & Hb & Hs & HsY). pose proof U' as (_ & _ & _ & _ & _ & _ & Hy' & _).
  assert (EX : ndX nd = X1) by (rewrite En; reflexivity). assert (Ey : ndy nd = fins (standard_y y)) by (rewrite En; reflexivity).
  assert (EX' : ndX nd' = X1') by (rewrite En'; reflexivity). assert (Ey' : ndy nd' = fins (standard_y y')) by (rewrite En'; reflexivity).
  clear En En'.
  assert (Ly : length (standard_y y) = mrows (ndX nd)) by (unfold standard_y; rewrite map_length, EX; lia).
  assert (Ly' : length (standard_y y') = mrows (ndX nd')) by (unfold standard_y; rewrite map_length, EX'; lia).
  assert (Hrm : mrows (ndX nd) = m) by (rewrite EX; exact R1). assert (Hrn : mcols (ndX nd) = n) by (rewrite EX; exact C1).
  assert (Hrm' : mrows (ndX nd') = m) by (rewrite EX'; exact R1'). assert (Hrn' : mcols (ndX nd') = n) by (rewrite EX'; exact C1').
  assert (Ind : independent m n (standard_x m x)).
  { replace n with (S (n - 1)) by lia. apply standard_independent with (y := y); try assumption.
    - intros k Hk. apply Hsd. lia.
    - replace (S (n - 1)) with n by lia. exact FR. }
  assert (Q : path = path').
  { apply (lars_gram nd nd' (standard_x m x) (standard_x m x') (standard_y y) (standard_y y') cd cd' P P' est est' mn fuel fuel' path path');
      rewrite ?Hrm, ?Hrn, ?Hrm', ?Hrn', ?EX, ?EX'; auto; rewrite ?Hrm, ?Hrm', ?EX in *; rewrite ?EX' in *; auto; try lia.
    - apply (gram_again m n x x' y y' p a b s t Hm Hy R Hsd).
    - apply (xty_again m n x x' y y' p a b s t Hm Hy R Hsd HsY).
    - apply exact_cd_est. exact HE.
    - apply exact_cd_est. exact HE'. }
  split; [exact Q|]. subst path'.
  apply (convert_again m n d d' x x' y y' p a b s t nd nd' path U U' R E E').
  intros node Hin.
  pose proof (lars_path XR XR_OrdLaws ltac:(cbn; apply Rltb_false; lra) eq_refl cd est nd (fin mn) fuel path EL) as (Good & _ & _).
  rewrite Forall_forall in Good. destruct (Good node Hin) as (_ & _ & G3 & G4 & G5).
  assert (HXn : rmat (ndX nd) (standard_x m x)) by (rewrite EX; exact M1).
  destruct (C37_stationary nd (standard_x m x) (standard_y y) cd P est (fin mn) fuel path HXn Ey Ly HE HP (or_introl (proj2 (xlt_false mn 0) Hmn)) EL node Hin)
    as (E0 & v & l & sg & N1 & N2 & N3 & N4 & N5).
  exists (map Z.of_nat E0), v. split; [exact N1|]. split; [exact N2|]. split; [rewrite map_length; lia|].
  rewrite N1, Hrn in G3. intros u Hu. specialize (G3 u Hu). apply in_map_iff in Hu. destruct Hu as (f & <- & Hf). destruct f as [|f]; [|lia]. exfalso.
  rewrite N3 in G5. apply (proj1 (xlt_true _ _)) in G5.
  destruct (N5 0%nat Hf) as (S1 & S2).
  rewrite Hrm, Hrn in S2. assert (Z0 : corr m n (standard_x m x) (fun i => nth i (standard_y y) 0) (spread E0 v) 0 = 0).
  { unfold corr. apply rsum_0'. intros i Hi. cbn [standard_x]. ring. }
  rewrite Z0 in S2. destruct S1 as [S1|S1]; rewrite S1 in S2; lra.
Qed.
Print Assumptions C81_lars.

Lemma perm_onto : forall m p i, Permutation p (seq 0 m) -> (i < m)%nat -> exists j, (j < m)%nat /\ nth j p 0%nat = i.
Proof.
  intros m p i P Hi. assert (L : length p = m) by (rewrite (Permutation_length P), seq_length; reflexivity).
  assert (H : In i p) by (apply (Permutation_in _ (Permutation_sym P)), in_seq; lia).
  destruct (In_nth p i 0%nat H) as (j & Hj & E). exists j. split; [lia|exact E].
Qed.

Lemma svd_exact_cd : forall d m n x y nd svd, usual d m n x y -> NewNormalizedData (dsX d) (dsY d) = Ok nd ->
  independent m n (standard_x m x) ->
  (forall E, StronglySorted lt E -> E <> [] -> (forall f, In f E -> (0 < f < n)%nat) ->
     exact_svd (icv_mat (ndX nd) (map Z.of_nat E)) (svd (icv_mat (ndX nd) (map Z.of_nat E))) /\
     no_tiny_sq (/ 1000000) (svd (icv_mat (ndX nd) (map Z.of_nat E)))) ->
  exact_cd (ndX nd) (standard_x m x) (standard_y y) (MorsePenroseCD svd) (fun st => fst st = ndX nd).
Proof.
  intros d m n x y nd svd U E Ind HS. pose proof (usual_nd _ _ _ _ _ _ U E) as (X1 & En & R1 & C1 & M1).
  pose proof U as (R0 & C0 & Hm & Hn & HX & HY & Hy & Hb & Hs & HsY).
  assert (EX : ndX nd = X1) by (rewrite En; reflexivity). rewrite EX in *. apply C37_morse_penrose_is_exact; try assumption.
  - rewrite R1. unfold standard_y. rewrite map_length. exact Hy.
  - rewrite R1. exact Hm.
  - rewrite R1, C1. exact Ind.
  - intros E0 SS Hne HE HG. apply HS; [exact SS|exact Hne|]. intros f Hf. specialize (HE f Hf). rewrite C1 in HE.
    destruct f as [|f]; [|lia]. destruct (HG 0%nat Hf) as (i & _ & C). exfalso. apply C. reflexivity.
Qed.

(** The same for the estimator the lasso command uses, with an exact singular
    value decomposition of every set of columns of either dataset. *)
Theorem C81_lars_command : forall m n d d' x x' y y' p a b s t nd nd' svd svd' est est' mn fuel fuel' path path',
  usual d m n x y -> usual d' m n x' y' -> remeasured m n x y x' y' p a b s t -> full_rank m n x -> 0 <= mn ->
  NewNormalizedData (dsX d) (dsY d) = Ok nd -> NewNormalizedData (dsX d') (dsY d') = Ok nd' ->
  (forall E, StronglySorted lt E -> E <> [] -> (forall f, In f E -> (0 < f < n)%nat) ->
     exact_svd (icv_mat (ndX nd) (map Z.of_nat E)) (svd (icv_mat (ndX nd) (map Z.of_nat E))) /\
     no_tiny_sq (/ 1000000) (svd (icv_mat (ndX nd) (map Z.of_nat E)))) ->
  (forall E, StronglySorted lt E -> E <> [] -> (forall f, In f E -> (0 < f < n)%nat) ->
     exact_svd (icv_mat (ndX nd') (map Z.of_nat E)) (svd' (icv_mat (ndX nd') (map Z.of_nat E))) /\
     no_tiny_sq (/ 1000000) (svd' (icv_mat (ndX nd') (map Z.of_nat E)))) ->
  LassoLars (MorsePenroseCD svd) est nd (fin mn) fuel = Ok path -> LassoLars (MorsePenroseCD svd') est' nd' (fin mn) fuel' = Ok path' ->
  path = path' /\
  exists q q', Path2Unnormalized nd path = Ok q /\ Path2Unnormalized nd' path' = Ok q' /\ Forall2 (same_model m x x' p s t) q q'.
Proof.
  intros m n d d' x x' y y' p a b s t nd nd' svd svd' est est' mn fuel fuel' path path' U U' R FR Hmn E E' HS HS' EL EL'.
  pose proof (usual_sd _ _ _ _ _ U) as Hsd. pose proof U as (R0 & C0 & Hm & Hn & HX & HY & Hy & Hb & Hs & HsY).
  assert (Ind : independent m n (standard_x m x)).
  { replace n with (S (n - 1)) by lia. apply standard_independent with (y := y); try assumption.
    - intros k Hk. apply Hsd. lia.
    - replace (S (n - 1)) with n by lia. exact FR. }
  assert (Ind' : independent m n (standard_x m x')).
  { intros v H0 H. apply Ind.
    - intros k Hk Hz. apply H0; [exact Hk|]. intros (i & Hi & C). apply Hz. exists (nth i p 0%nat).
      split; [apply perm_lt; [apply (rm_p _ _ _ _ _ _ _ _ _ _ _ R)|exact Hi]|].
      rewrite <- (standard_again m n x x' y y' p a b s t Hm Hy R Hsd) by assumption. exact C.
    - intros i Hi. destruct (perm_onto m p i (rm_p _ _ _ _ _ _ _ _ _ _ _ R) Hi) as (j & Hj & <-). rewrite <- (H j Hj). apply rsum_ext.
      intros k Hk. rewrite (standard_again m n x x' y y' p a b s t Hm Hy R Hsd) by assumption. reflexivity. }
  apply (C81_lars m n d d' x x' y y' p a b s t nd nd' (MorsePenroseCD svd) (MorsePenroseCD svd') (fun st => fst st = ndX nd) (fun st => fst st = ndX nd')
    est est' mn fuel fuel' path path'); try assumption; try reflexivity.
  - apply (svd_exact_cd d m n x y nd svd U E Ind HS).
  - apply (svd_exact_cd d' m n x' y' nd' svd' U' E' Ind' HS').
Qed.
Print Assumptions C81_lars_command.

(** ** Coordinate descent *)

(** A call on the second dataset does exactly what the call on the first does
    (coefficients, x0 afterwards, correction, warning, or panic), for the
    empirical and the identity covariance and every penalty, start, limit,
    tolerance and correction. *)
Theorem C81_cd : forall m n d d' x x' y y' p a b s t nd nd' get lamb x0 maxIter tol corr,
  usual d m n x y -> usual d' m n x' y' -> remeasured m n x y x' y' p a b s t ->
  NewNormalizedData (dsX d) (dsY d) = Ok nd -> NewNormalizedData (dsX d') (dsY d') = Ok nd' ->
  get = Empirical_Get \/ get = Identity_Get ->
  LassoCrdDesc get nd lamb x0 maxIter tol corr = LassoCrdDesc (N := XR) get nd' lamb x0 maxIter tol corr.
Proof.
  intros m n d d' x x' y y' p a b s t nd nd' get lamb x0 maxIter tol corr U U' R E E' HG.
  pose proof (usual_sd _ _ _ _ _ U) as Hsd. pose proof (usual_nd _ _ _ _ _ _ U E) as (X1 & En & R1 & C1 & M1).
  pose proof (usual_nd _ _ _ _ _ _ U' E') as (X1' & En' & R1' & C1' & M1').
  pose proof U as (R0 & C0 & Hm & Hn & HX & HY & Hy & Hb & Hs & HsY). pose proof U' as (_ & _ & _ & _ & _ & _ & Hy' & _).
  assert (EX : ndX nd = X1) by (rewrite En; reflexivity). assert (Ey : ndy nd = fins (standard_y y)) by (rewrite En; reflexivity).
  assert (EX' : ndX nd' = X1') by (rewrite En'; reflexivity). assert (Ey' : ndy nd' = fins (standard_y y')) by (rewrite En'; reflexivity).
  clear En En'.
  assert (Cov : exists cov cov', get (ndX nd) = Ok cov /\ get (ndX nd') = Ok cov' /\ same_entries cov cov').
  { rewrite EX, EX'. destruct HG as [-> | ->].
    - destruct (empirical_xr X1 _ M1) as (c & G1 & G2 & G3 & G4); [lia|lia|].
      destruct (empirical_xr X1' _ M1') as (c' & G1' & G2' & G3' & G4'); [lia|lia|].
      exists c, c'. split; [exact G1|]. split; [exact G1'|]. split; [lia|]. split; [lia|].
      intros i j. unfold mat_at. rewrite G2, G2', G3, G3', C1, C1'.
      destruct (Nat.ltb_spec i n) as [Hi|Hi]; [|reflexivity]. destruct (Nat.ltb_spec j n) as [Hj|Hj]; [|reflexivity]. cbn [andb].
      rewrite (G4 i j), (G4' i j) by lia. rewrite R1, R1', (gram_again m n x x' y y' p a b s t Hm Hy R Hsd i j Hi Hj). reflexivity.
    - unfold Identity_Get. rewrite C1, C1'. destruct (for_loop 0 n _ _) as [ones| |] eqn:F; cbn [bind].
      + destruct (Nat.eqb_spec n 0) as [C|C]; [lia|]. do 2 eexists. split; [reflexivity|]. split; [reflexivity|]. repeat split.
      + exfalso. rewrite (for_loop_fill0 _ (fun _ => n1)) in F by apply repeat_length. discriminate F.
      + exfalso. rewrite (for_loop_fill0 _ (fun _ => n1)) in F by apply repeat_length. discriminate F. }
  destruct Cov as (cov & cov' & G & G' & S).
  assert (V : mat_mulvec (mat_T (ndX nd)) (ndy nd) = mat_mulvec (mat_T (ndX nd')) (ndy nd')).
  { rewrite EX, EX', Ey, Ey'. rewrite (mulvec_T X1 _ M1), (mulvec_T X1' _ M1') by (unfold standard_y; rewrite map_length; lia).
    rewrite R1, R1', C1, C1'. f_equal. f_equal. apply map_ext_in. intros j Hj. apply in_seq in Hj.
    apply (xty_again m n x x' y y' p a b s t Hm Hy R Hsd HsY). lia. }
  assert (V' : exists w, mat_mulvec (mat_T (ndX nd')) (ndy nd') = Ok w).
  { rewrite EX', Ey'. rewrite (mulvec_T X1' _ M1') by (unfold standard_y; rewrite map_length; lia). eauto. }
  destruct V' as (w & V'). rewrite V' in V.
  apply (crd_same XR get get nd nd' cov cov' w); auto; rewrite EX, EX'; lia.
Qed.
Print Assumptions C81_cd.

Lemma without_unique : forall (path r r' : list (LassoLarsNode XR)), without_leading_empty path r -> without_leading_empty path r' -> r = r'.
Proof.
  assert (L : forall (dr dr' r r' : list (LassoLarsNode XR)), dr ++ r = dr' ++ r' ->
    Forall (fun nd => lnSelection nd = []) dr -> Forall (fun nd => lnSelection nd = []) dr' ->
    (exists nd t, r = nd :: t /\ lnSelection nd <> []) -> (exists nd t, r' = nd :: t /\ lnSelection nd <> []) -> r = r').
  { induction dr as [|u dr IH]; intros [|u' dr'] r r' E F F' (nd & q & -> & Hnd) (nd' & q' & -> & Hnd'); cbn [app] in E.
    - exact E.
    - injection E as -> E. apply Forall_inv in F'. contradiction.
    - injection E as -> E. apply Forall_inv in F. contradiction.
    - injection E as -> E. apply (IH dr'); eauto using Forall_inv_tail. }
  intros path r r' [(dr & E & F & Q)|(E & F)] [(dr' & E' & F' & Q')|(E' & F')].
  - apply (L dr dr'); auto; congruence.
  - destruct Q as (nd & q & -> & Hnd). rewrite Forall_forall in F'. exfalso. apply Hnd. apply F'. rewrite E. apply in_app_iff. right. left. reflexivity.
  - destruct Q' as (nd & q & -> & Hnd). rewrite Forall_forall in F. exfalso. apply Hnd. apply F. rewrite E'. apply in_app_iff. right. left. reflexivity.
  - congruence.
Qed.

(** The whole path of the cd type of the lasso command: any two runs of the
    worker pool that finish return the same models, which make the same
    predictions in the units of the data. *)
Theorem C81_cd_path : forall m n d d' x x' y y' p a b s t nd nd' lambs tol sched sched' c c' r r',
  usual d m n x y -> usual d' m n x' y' -> remeasured m n x y x' y' p a b s t -> (forall l, In l lambs -> 0 <= l) ->
  NewNormalizedData (dsX d) (dsY d) = Ok nd -> NewNormalizedData (dsX d') (dsY d') = Ok nd' ->
  path_run Empirical_Get nd (fins lambs) 100000 (fin tol) sched (path_init (fins lambs) PureLasso) = Some c -> plMain c = PDone r ->
  path_run Empirical_Get nd' (fins lambs) 100000 (fin tol) sched' (path_init (fins lambs) PureLasso) = Some c' -> plMain c' = PDone r' ->
  r = r' /\
  exists q q', Path2Unnormalized nd r = Ok q /\ Path2Unnormalized nd' r' = Ok q' /\ Forall2 (same_model m x x' p s t) q q'.
Proof.
  intros m n d d' x x' y y' p a b s t nd nd' lambs tol sched sched' c c' r r' U U' R Hl E E' Er Ed Er' Ed'.
  pose proof (C81_cd m n d d' x x' y y' p a b s t nd nd' Empirical_Get) as Same.
  assert (Sh : shaped Empirical_Get nd PureLasso).
  { destruct U as (<- & <- & Hm & Hn & HX & HY & Hy & Hb & Hs & HsY). apply (the_shape d x y nd Hm Hn HX HY Hy Hb Hs HsY E). }
  assert (Sh' : shaped Empirical_Get nd' PureLasso).
  { destruct U' as (R0 & C0 & Hm & Hn & HX & HY & Hy & Hb & Hs & HsY). subst m n. apply (the_shape d' x' y' nd' Hm Hn HX HY Hy Hb Hs HsY E'). }
  destruct (C35_every_schedule XR Empirical_Get nd (fins lambs) 100000 (fin tol) PureLasso Sh I) as (path & FP & S).
  destruct (C35_every_schedule XR Empirical_Get nd' (fins lambs) 100000 (fin tol) PureLasso Sh' I) as (path' & FP' & S').
  destruct (S sched c Er) as (_ & _ & _ & W). destruct (W r Ed) as (W1 & _). clear S W.
  destruct (S' sched' c' Er') as (_ & _ & _ & W'). destruct (W' r' Ed') as (W1' & _). clear S' W'.
  assert (Q : path = path').
  { clear W1 W1'. revert FP FP'. generalize (rev (fins lambs)). intro ls. revert path path'. induction ls as [|l ls IH]; intros path path' F F'.
    - inversion F. inversion F'. reflexivity.
    - inversion F as [|u node us path1 H1 F1 Q1 Q2]. subst. inversion F' as [|u' node' us' path1' H1' F1' Q1' Q2']. subst.
      f_equal; [|apply IH; assumption]. destruct H1 as (bb & xs & cc & v & H1 & N1 & N2 & N3). destruct H1' as (bb' & xs' & cc' & v' & H1' & N1' & N2' & N3').
      rewrite (Same l None 100000%Z (fin tol) PureLasso U U' R E E' (or_introl eq_refl)), H1' in H1. injection H1 as -> _ _ _.
      destruct node as [e1 e2 e3], node' as [g1 g2 g3]. cbn [lnLamb lnSelection lnCoeff] in *. subst. reflexivity. }
  subst path'. pose proof (without_unique path r r' W1 W1') as Q. subst r'. split; [reflexivity|].
  apply (convert_again m n d d' x x' y y' p a b s t nd nd' r U U' R E E').
  assert (Sub : forall node, In node r -> In node path).
  { intros node Hin. destruct W1 as [(dr & -> & _)|(-> & _)]; [apply in_app_iff; right; exact Hin|exact Hin]. }
  intros node Hin. apply Sub in Hin.
  assert (Sol : exists l, 0 <= l /\ solution_of Empirical_Get nd 100000 (fin tol) PureLasso (fin l) node).
  { clear - FP Hin Hl. unfold fins in FP. rewrite <- map_rev in FP.
    assert (Hl' : forall l, In l (rev lambs) -> 0 <= l) by (intros l H; apply Hl, in_rev; exact H). clear Hl.
    revert path FP Hin. induction (rev lambs) as [|l ls IH]; intros path FP Hin; inversion FP as [|u nd1 us path1 H1 F1 Q1 Q2]; subst; [destruct Hin|].
    destruct Hin as [<-|Hin]; [exists l; split; [apply Hl'; left; reflexivity|exact H1]|].
    apply (IH (fun l H => Hl' l (or_intror H)) path1 F1 Hin). }
  destruct Sol as (l & Hl0 & Sol).
  destruct U as (R0 & C0 & Hm & Hn & HX & HY & Hy & Hb & Hs & HsY). subst m n.
  destruct (solution_good d x y nd Hm Hn HX HY Hy Hb Hs HsY E tol l node Hl0 Sol) as (bb & _ & L & Z0 & _ & _ & _ & _ & N2 & N3).
  set (E0 := filter (big bb) (seq 0 (mcols (dsX d)))) in *.
  exists (map Z.of_nat E0), (map (fun j => nth j bb 0) E0). split; [exact N2|]. split; [exact N3|]. split; [rewrite !map_length; reflexivity|].
  intros u Hu. apply in_map_iff in Hu. destruct Hu as (f & <- & Hf). unfold E0 in Hf. apply filter_In in Hf. destruct Hf as (Hf & B). apply in_seq in Hf.
  destruct f as [|f]; [|lia]. exfalso. unfold big in B. rewrite Z0, Rabs_R0 in B. apply Rltb_true in B.
  assert (0 < / 10 ^ 16) by (apply Rinv_0_lt_compat, pow_lt; lra). lra.
Qed.
Print Assumptions C81_cd_path.

(** ** Example: the file of C74's example with the rows in another order, the
    first feature as 2 v + 3, the second as 10 v - 1 and the target as
    3 v - 1.  The two models of its path are those of the original file. *)
Definition exd_x (i j : nat) : R :=
  match j with O => 1 | 1%nat => nth i [17; 21; 21; 13; 13] 0 | 2%nat => nth i [-1; -11; 9; 9; -11] 0 | _ => 0 end.
Definition exd_y : list R := [29; 26; 44; 20; 26].
Definition exd_d : Dataset XR :=
  mkDataset (mkMat 5 3 (fun i j => if (i <? 5)%nat && (j <? 3)%nat then fin (exd_x i j) else fin 0)) (fins exd_y)
    ["one"; "a"; "b"; "t"]%string 3%Z.
Definition exd_z (i j : nat) : R :=
  match j with 1%nat => nth i [0; 1; 1; -1; -1] 0 | 2%nat => nth i [0; -1; 1; 1; -1] 0 | _ => 0 end.
Definition exd_X : Mat XR := mkMat 5 3 (fun i j => fin (exd_z i j)).
Definition exd_yz : list R := [0; -1 / 3; 5 / 3; -3 / 3; -1 / 3].
Definition exd_p : list nat := [4; 2; 0; 1; 3]%nat.
Definition exd_a (k : nat) : R := nth k [1; 2; 10] 1.
Definition exd_b (k : nat) : R := nth k [0; 3; -1] 0.

Lemma exd_remeasured : remeasured 5 3 exc_x exc_y exd_x exd_y exd_p exd_a exd_b 3 (-1).
Proof.
  constructor.
  - apply Permutation_sym. apply NoDup_Permutation; [apply seq_NoDup|repeat constructor; cbn; intuition congruence|].
    intro i. rewrite in_seq. cbn. intuition lia.
  - intros k Hk. destruct k as [|[|[|k]]]; try lia; cbn; lra.
  - lra.
  - intros i k Hi Hk. destruct k as [|[|[|k]]]; try lia; destruct i as [|[|[|[|[|i]]]]]; try lia; cbn; lra.
  - unfold exd_y, exd_p. cbn. repeat (f_equal; [lra|]). f_equal; lra.
Qed.
Lemma ten_le : / 10 ^ 10 <= 1.
Proof. rewrite <- Rinv_1; apply Rinv_le_contravar; [lra|]; apply pow_R1_Rle; lra. Qed.
Lemma exc_usual : usual exc_d 5 3 exc_x exc_y.
Proof.
  do 4 (split; [cbn; try reflexivity; lia|]). split; [|split; [reflexivity|split; [reflexivity|split; [reflexivity|split]]]].
  - intros i k Hi Hk. cbn [exc_d dsX mrows mcols mval] in *. rewrite (proj2 (Nat.ltb_lt i 5) Hi), (proj2 (Nat.ltb_lt k 3) Hk). reflexivity.
  - pose proof ten_le. intros k Hk. destruct k as [|[|[|k]]]; try lia; [rewrite exc_sd1|rewrite exc_sd2]; lra.
  - rewrite exc_sdy. lra.
Qed.
Lemma exd_usual : usual exd_d 5 3 exd_x exd_y.
Proof.
  assert (Hs : forall k, (0 < k < 3)%nat -> sdev (column 5 exd_x k) = exd_a k * sdev (column 5 exc_x k)).
  { intros k Hk. apply (sdev_again 5 3 exc_x exd_x exc_y exd_y exd_p exd_a exd_b 3 (-1) ltac:(lia) eq_refl exd_remeasured k Hk). }
  do 4 (split; [cbn; try reflexivity; lia|]). split; [|split; [reflexivity|split; [reflexivity|split; [reflexivity|split]]]].
  - intros i k Hi Hk. cbn [exd_d dsX mrows mcols mval] in *. rewrite (proj2 (Nat.ltb_lt i 5) Hi), (proj2 (Nat.ltb_lt k 3) Hk). reflexivity.
  - pose proof ten_le. intros k Hk. rewrite Hs by exact Hk. destruct k as [|[|[|k]]]; try lia; [rewrite exc_sd1|rewrite exc_sd2]; cbn; lra.
  - rewrite (sdev_y 5 3 exc_x exd_x exc_y exd_y exd_p exd_a exd_b 3 (-1) ltac:(lia) eq_refl exd_remeasured), exc_sdy. lra.
Qed.
Lemma exc_full_rank : full_rank 5 3 exc_x.
Proof.
  intros v H. pose proof (H 0 ltac:(lia))%nat as A0. pose proof (H 1 ltac:(lia))%nat as A1. pose proof (H 2 ltac:(lia))%nat as A2.
  cbn in A0, A1, A2. intros k Hk. destruct k as [|[|[|k]]]; try lia; lra.
Qed.
Lemma exd_standard : forall i k, (i < 5)%nat -> (k < 3)%nat -> standard_x 5 exd_x i k = exd_z i k.
Proof.
  intros i k Hi Hk. pose proof exc_usual as U.
  rewrite (standard_again 5 3 exc_x exd_x exc_y exd_y exd_p exd_a exd_b 3 (-1) ltac:(lia) eq_refl exd_remeasured (usual_sd _ _ _ _ _ U)) by assumption.
  rewrite exc_standard by (apply perm_lt; [apply (rm_p _ _ _ _ _ _ _ _ _ _ _ exd_remeasured)|exact Hi]).
  destruct k as [|[|[|k]]]; try lia; destruct i as [|[|[|[|[|i]]]]]; try lia; cbn; lra.
Qed.
Lemma exd_standard_y : standard_y exd_y = exd_yz.
Proof.
  unfold standard_y. rewrite (sdev_y 5 3 exc_x exd_x exc_y exd_y exd_p exd_a exd_b 3 (-1) ltac:(lia) eq_refl exd_remeasured), exc_sdy.
  rewrite (mean_y 5 3 exc_x exd_x exc_y exd_y exd_p exd_a exd_b 3 (-1) ltac:(lia) eq_refl exd_remeasured), exc_muy.
  unfold exd_y, exd_yz. cbn [map]. repeat (f_equal; [lra|]). f_equal; lra.
Qed.
Lemma exd_start : forall est, lars_start (N := XR) exc_cd est exd_X (fins exd_yz) =
  Ok (mkLars (N := XR) (fin (8 / 3)) [1%nat] (fins [0; 1; 0]) None (fin 0) (exd_X, snd est) [] false).
Proof. intro est. unfold exd_yz. cmp. apply mkLars_eq; cmp. all: reflexivity. Qed.
Lemma exd_c1 : exists inv, mpSetActiveSet (N := XR) exc_svd exd_X [1%Z] = Ok (exc_svd (icv_mat exd_X [1%Z]), inv) /\
  mpD (N := XR) inv (fins [1]) = Ok (fins [1 / 4]).
Proof. eexists. split; [reflexivity|]. cmp. Qed.
Lemma exd_c2 : mpC (N := XR) (exc_svd (icv_mat exd_X [1%Z])) (fins exd_yz) = Ok (fins [2 / 3]).
Proof. unfold exd_yz. cmp. Qed.
Lemma exd_c3 : exists inv, mpSetActiveSet (N := XR) exc_svd exd_X [1%Z; 2%Z] = Ok (exc_svd (icv_mat exd_X [1%Z; 2%Z]), inv) /\
  mpD (N := XR) inv (fins [1; 1]) = Ok (fins [1 / 4; 1 / 4]).
Proof. eexists. split; [reflexivity|]. cmp. Qed.
Lemma exd_c4 : mpC (N := XR) (exc_svd (icv_mat exd_X [1%Z; 2%Z])) (fins exd_yz) = Ok (fins [2 / 3; 1 / 3]).
Proof. unfold exd_yz. cmp. Qed.
Lemma exd_step1 : forall est, exists o, lars_step (N := XR) exc_cd exd_X (fins exd_yz)
  (mkLars (N := XR) (fin (8 / 3)) [1%nat] (fins [0; 1; 0]) None (fin 0) (exd_X, est) [] false) =
  Ok (mkLars (N := XR) (fin (4 / 3)) [1%nat; 2%nat] (fins [0; 1; 1]) None (fin 0) (exd_X, o)
        [mkLN (N := XR) (fins [0]) (fin (8 / 3)) [1%Z]] false).
Proof.
  intro est. destruct exd_c1 as (inv & E1 & E2). exists (Some (exc_svd (icv_mat exd_X [1%Z]), inv)). unfold lars_step. cbn [laActive laSigns laLamb laEst laLastFeat laLastCoeff laRes length Nat.eqb].
  change (sort_ints [1%nat]) with [1%nat]. cbn [map Z.of_nat Pos.of_succ_nat].
  change (vec_view (N := XR) (fins [0; 1; 0]) [1%nat]) with (Ok (fins [1])). cbn [bind].
  change (cdSetActive exc_cd (exd_X, est) [1%Z]) with (do f <- mpSetActiveSet exc_svd exd_X [1%Z]; Ok (exd_X, Some f)).
  rewrite E1. cbn [bind]. 
  change (cdC exc_cd (exd_X, Some (exc_svd (icv_mat exd_X [1%Z]), inv)) (fins exd_yz)) with (mpC (exc_svd (icv_mat exd_X [1%Z])) (fins exd_yz)).
  rewrite exd_c2. cbn [bind].
  change (cdD exc_cd (exd_X, Some (exc_svd (icv_mat exd_X [1%Z]), inv)) (fins [1])) with (mpD inv (fins [1])).
  rewrite E2. cbn [bind]. generalize (Some (exc_svd (icv_mat exd_X [1%Z]), inv)). intro o.
  cmp. apply mkLars_eq; cmp. all: try (apply mkLN_eq; cmp). all: reflexivity.
Qed.
Lemma exd_step2 : forall est, exists o, lars_step (N := XR) exc_cd exd_X (fins exd_yz)
  (mkLars (N := XR) (fin (4 / 3)) [1%nat; 2%nat] (fins [0; 1; 1]) None (fin 0) (exd_X, est)
        [mkLN (N := XR) (fins [0]) (fin (8 / 3)) [1%Z]] false) =
  Ok (mkLars (N := XR) (fin 0) [2%nat] (fins [0; 1; 1]) (Some 1%nat) (fin (1 / 3)) (exd_X, o) exc_path false).
Proof.
  intro est. destruct exd_c3 as (inv & E1 & E2). set (E := [1%Z; 2%Z]) in *. exists (Some (exc_svd (icv_mat exd_X E), inv)).
  unfold lars_step. cbn [laActive laSigns laLamb laEst laLastFeat laLastCoeff laRes length Nat.eqb].
  change (sort_ints [1%nat; 2%nat]) with [1%nat; 2%nat]. change (map Z.of_nat [1%nat; 2%nat]) with E.
  change (vec_view (N := XR) (fins [0; 1; 1]) [1%nat; 2%nat]) with (Ok (fins [1; 1])). cbn [bind].
  change (cdSetActive exc_cd (exd_X, est) E) with (do f <- mpSetActiveSet exc_svd exd_X E; Ok (exd_X, Some f)).
  rewrite E1. cbn [bind].
  change (cdC exc_cd (exd_X, Some (exc_svd (icv_mat exd_X E), inv)) (fins exd_yz)) with (mpC (exc_svd (icv_mat exd_X E)) (fins exd_yz)).
  rewrite (exd_c4 : mpC (N := XR) (exc_svd (icv_mat exd_X E)) (fins exd_yz) = _). cbn [bind].
  change (cdD exc_cd (exd_X, Some (exc_svd (icv_mat exd_X E), inv)) (fins [1; 1])) with (mpD inv (fins [1; 1])).
  rewrite E2. cbn [bind]. generalize (Some (exc_svd (icv_mat exd_X E), inv)). intro o. subst E.
  cmp. apply mkLars_eq; cmp. all: try (apply mkLN_eq; cmp). all: reflexivity.
Qed.

Lemma exd_runs : forall est nd, ndX nd = exd_X -> ndy nd = fins exd_yz -> LassoLars exc_cd est nd (fin (/ 1000)) 10 = Ok exc_path.
Proof.
  intros est nd EX Ey.
  assert (L : forall a, / 1000 < a -> nltb (n := XR) (fin (/ 1000)) (fin a) = true) by (intros a Ha; apply Rltb_true; exact Ha).
  unfold LassoLars. rewrite EX, Ey, exd_start. cbn [bind lars_loop].
  cbn [laLamb]. rewrite L by lra. cbn [negb]. destruct (exd_step1 (snd est)) as (o & E1). rewrite E1. cbn [bind laStop laLamb]. rewrite L by lra. cbn [negb].
  destruct (exd_step2 o) as (o' & E2). rewrite E2. cbn [bind laStop laLamb].
  replace (nltb (n := XR) (fin (/ 1000)) (fin 0)) with false by (symmetry; apply Rltb_false; lra). reflexivity.
Qed.

Lemma exd_svd_exact : forall E, StronglySorted lt E -> (forall f, In f E -> (0 < f < 3)%nat) ->
  exact_svd (icv_mat exd_X (map Z.of_nat E)) (exc_svd (icv_mat exd_X (map Z.of_nat E))) /\
  no_tiny_sq (/ 1000000) (exc_svd (icv_mat exd_X (map Z.of_nat E))).
Proof.
  intros E SS HE. pose proof (SSlt_NoDup E SS) as ND. set (M := icv_mat exd_X (map Z.of_nat E)).
  assert (HM : rmat M (fun i j => exd_z i (nth j E 0%nat))).
  { apply icv_rmat; [intros i j _ _; reflexivity|]. intros f Hf. specialize (HE f Hf). cbn [exd_X mcols]. lia. }
  assert (LM : mcols M = length E) by (unfold M; cbn; apply map_length).
  split.
  - exists (fun i j => exd_z i (nth j E 0%nat)), (fun i j => exd_z i (nth j E 0%nat) / 2), delta, (repeat 2 (mcols M)).
    cbn [exc_svd svS svU svV mrows mcols]. rewrite !repeat_length.
    split; [exact HM|]. do 3 (split; [reflexivity|]).
    split. { intros i j Hi Hj. cbn [mval mrows mcols exc_svd svU] in *. rewrite (HM i j Hi Hj). change (nofZ (n := XR) 2) with (fin 2). apply xdiv_fin. lra. }
    do 2 (split; [reflexivity|]). split; [intros i j Hi Hj; reflexivity|]. change (mrows M) with 5%nat. rewrite LM.
    assert (O : forall f g, (0 < f < 3)%nat -> (0 < g < 3)%nat -> rsum 5 (fun i => exd_z i f / 2 * (exd_z i g / 2)) = delta f g).
    { intros f g Hf Hg. destruct f as [|[|[|f]]]; try lia; destruct g as [|[|[|g]]]; try lia; cbn; unfold delta; cbn; lra. }
    split; [|split; [|split]].
    + intros a b Ha Hb. rewrite O by (apply HE; apply nth_In; assumption). unfold delta.
      destruct (Nat.eqb_spec a b) as [->|N]; [rewrite Nat.eqb_refl; reflexivity|].
      destruct (Nat.eqb_spec (nth a E 0%nat) (nth b E 0%nat)) as [Q|Q]; [|reflexivity].
      exfalso. apply N. apply (proj1 (NoDup_nth E 0%nat) ND a b Ha Hb Q).
    + intros a b Ha Hb. rewrite (rsum_ext _ _ (fun j => delta a j * delta j b)) by (intros; rewrite (delta_sym i a); auto).
      apply (rsum_delta_l (length E) a (fun j => delta j b)); auto.
    + intros v Hv. apply repeat_spec in Hv. lra.
    + intros i j Hi Hj. rewrite (rsum_ext _ _ (fun l => delta j l * exd_z i (nth l E 0%nat))).
      * symmetry. apply (rsum_delta_l (length E) j (fun l => exd_z i (nth l E 0%nat))); auto.
      * intros l Hll. rewrite nth_repeat_lt by exact Hll. field.
  - intros v Hv. cbn [exc_svd svS] in Hv. apply in_map_iff in Hv. destruct Hv as (z & Ez & Hz).
    injection Ez as <-. apply repeat_spec in Hz. right. rewrite Hz. lra.
Qed.


Lemma usual_ok : forall d m n x y, usual d m n x y -> exists nd, NewNormalizedData (dsX d) (dsY d) = Ok nd.
Proof.
  intros d m n x y (R0 & C0 & Hm & Hn & HX & HY & Hy & Hb & Hs & HsY). rewrite HY.
  destruct (nnd_ok (dsX d) x HX ltac:(lia) y) as (X' & E & _); [intros C; rewrite C in Hy; cbn in Hy; lia| |eauto].
  intros c Hc. unfold tol10. replace (1 / IZR (10 ^ 10)) with (/ 10 ^ 10); [rewrite R0; apply Hs; lia|].
  change (10 ^ 10)%Z with 10000000000%Z. field.
Qed.

Example C81_example : exists nd nd' q q',
  NewNormalizedData (dsX exc_d) (dsY exc_d) = Ok nd /\ NewNormalizedData (dsX exd_d) (dsY exd_d) = Ok nd' /\
  LassoLars exc_cd (ndX nd, None) nd (fin (/ 1000)) 10 = Ok exc_path /\
  LassoLars exc_cd (ndX nd', None) nd' (fin (/ 1000)) 10 = Ok exc_path /\
  Path2Unnormalized nd exc_path = Ok q /\ Path2Unnormalized nd' exc_path = Ok q' /\ length q = 2%nat /\
  Forall2 (same_model 5 exc_x exd_x exd_p 3 (-1)) q q'.
Proof.
  pose proof exc_usual as U. pose proof exd_usual as U'.
  destruct (usual_ok _ _ _ _ _ U) as (nd & E). destruct (usual_ok _ _ _ _ _ U') as (nd' & E').
  destruct (usual_nd _ _ _ _ _ _ U E) as (X1 & En & R1 & C1 & M1). destruct (usual_nd _ _ _ _ _ _ U' E') as (X1' & En' & R1' & C1' & M1').
  assert (EX : ndX nd = exc_X).
  { pose proof (nnd_outside _ _ _ E) as O. rewrite En in O |- *. cbn [ndX] in O |- *.
    destruct X1 as [r c V]. cbn [mrows mcols mval] in *. unfold exc_X. f_equal; [exact R1|exact C1|].
    apply functional_extensionality. intro i. apply functional_extensionality. intro k.
    destruct (Nat.lt_ge_cases i 5) as [Hi|Hi]; [destruct (Nat.lt_ge_cases k 3) as [Hk|Hk]|].
    - rewrite <- (exc_standard i k Hi). apply M1; [rewrite R1|rewrite C1]; assumption.
    - rewrite O by (cbn; lia). cbn [exc_d dsX mval]. rewrite (proj2 (Nat.ltb_ge k 3) Hk), Bool.andb_false_r.
      destruct k as [|[|[|k]]]; try lia. reflexivity.
    - rewrite O by (cbn; lia). cbn [exc_d dsX mval]. rewrite (proj2 (Nat.ltb_ge i 5) Hi). cbn [andb].
      destruct k as [|[|[|k]]]; cbn [exc_z]; try reflexivity; rewrite nth_overflow by (cbn; lia); reflexivity. }
  assert (EX' : ndX nd' = exd_X).
  { pose proof (nnd_outside _ _ _ E') as O. rewrite En' in O |- *. cbn [ndX] in O |- *.
    destruct X1' as [r c V]. cbn [mrows mcols mval] in *. unfold exd_X. f_equal; [exact R1'|exact C1'|].
    apply functional_extensionality. intro i. apply functional_extensionality. intro k.
    destruct (Nat.lt_ge_cases i 5) as [Hi|Hi]; [destruct (Nat.lt_ge_cases k 3) as [Hk|Hk]|].
    - rewrite <- (exd_standard i k Hi Hk). apply M1'; [rewrite R1'|rewrite C1']; assumption.
    - rewrite O by (cbn; lia). cbn [exd_d dsX mval]. rewrite (proj2 (Nat.ltb_ge k 3) Hk), Bool.andb_false_r.
      destruct k as [|[|[|k]]]; try lia. reflexivity.
    - rewrite O by (cbn; lia). cbn [exd_d dsX mval]. rewrite (proj2 (Nat.ltb_ge i 5) Hi). cbn [andb].
      destruct k as [|[|[|k]]]; cbn [exd_z]; try reflexivity; rewrite nth_overflow by (cbn; lia); reflexivity. }
  assert (Ey : ndy nd = fins exc_yz) by (rewrite En, <- exc_standard_y; reflexivity).
  assert (Ey' : ndy nd' = fins exd_yz) by (rewrite En', <- exd_standard_y; reflexivity).
  pose proof (exc_runs (exc_X, None) nd EX Ey) as EL. pose proof (exd_runs (exd_X, None) nd' EX' Ey') as EL'.
  clear En En'.
  destruct (C81_lars_command 5 3 exc_d exd_d exc_x exd_x exc_y exd_y exd_p exd_a exd_b 3 (-1) nd nd' exc_svd exc_svd (exc_X, None) (exd_X, None)
    (/ 1000) 10 10 exc_path exc_path U U' exd_remeasured exc_full_rank ltac:(lra) E E') as (_ & q & q' & Q & Q' & F); try assumption.
  - intros E0 SS _ HE. rewrite EX. apply exc_svd_exact; assumption.
  - intros E0 SS _ HE. rewrite EX'. apply exd_svd_exact; assumption.
  - exists nd, nd', q, q'. rewrite EX, EX'. split; [exact E|]. split; [exact E'|]. split; [exact EL|]. split; [exact EL'|]. split; [exact Q|]. split; [exact Q'|].
    split; [|exact F]. clear - Q. cbn [exc_path Path2Unnormalized] in Q. 
    destruct (unnormalize_node nd _) as [u| |] in Q; cbn [bind] in Q; try discriminate Q.
    destruct (unnormalize_node nd _) as [w| |] in Q; cbn [bind] in Q; try discriminate Q. injection Q as <-. reflexivity.
Qed.

(** coordinate descent for the penalties 0.2 and 0.1 on the two files *)
Example C81_cd_example : exists nd nd' sched sched' c c' r q q',
  NewNormalizedData (dsX exc_d) (dsY exc_d) = Ok nd /\ NewNormalizedData (dsX exd_d) (dsY exd_d) = Ok nd' /\
  path_run Empirical_Get nd (fins [1 / 10; 2 / 10]) 100000 (fin (/ 10000)) sched (path_init (fins [1 / 10; 2 / 10]) PureLasso) = Some c /\ plMain c = PDone r /\
  path_run Empirical_Get nd' (fins [1 / 10; 2 / 10]) 100000 (fin (/ 10000)) sched' (path_init (fins [1 / 10; 2 / 10]) PureLasso) = Some c' /\ plMain c' = PDone r /\
  r <> [] /\ Path2Unnormalized nd r = Ok q /\ Path2Unnormalized nd' r = Ok q' /\ Forall2 (same_model 5 exc_x exd_x exd_p 3 (-1)) q q'.
Proof.
  pose proof exc_usual as U. pose proof exd_usual as U'.
  destruct (usual_ok _ _ _ _ _ U) as (nd & E). destruct (usual_ok _ _ _ _ _ U') as (nd' & E').
  assert (Sh : shaped Empirical_Get nd PureLasso).
  { destruct U as (R0 & C0 & Hm & Hn & HX & HY & Hy & Hb & Hs & HsY). apply (the_shape exc_d exc_x exc_y nd Hm Hn HX HY Hy Hb Hs HsY E). }
  assert (Sh' : shaped Empirical_Get nd' PureLasso).
  { destruct U' as (R0 & C0 & Hm & Hn & HX & HY & Hy & Hb & Hs & HsY). apply (the_shape exd_d exd_x exd_y nd' Hm Hn HX HY Hy Hb Hs HsY E'). }
  set (lambs := [1 / 10; 2 / 10]).
  destruct (C35_completes XR Empirical_Get nd (fins lambs) 100000 (fin (/ 10000)) PureLasso [] (path_init (fins lambs) PureLasso) Sh I eq_refl)
    as (sched & c & r & Er & Ed). cbn [app] in Er.
  destruct (C35_completes XR Empirical_Get nd' (fins lambs) 100000 (fin (/ 10000)) PureLasso [] (path_init (fins lambs) PureLasso) Sh' I eq_refl)
    as (sched' & c' & r' & Er' & Ed'). cbn [app] in Er'.
  destruct (C81_cd_path 5 3 exc_d exd_d exc_x exd_x exc_y exd_y exd_p exd_a exd_b 3 (-1) nd nd' lambs (/ 10000) sched sched' c c' r r' U U' exd_remeasured) as (<- & q & q' & Q & Q' & F); try assumption.
  { intros l [<-|[<-|[]]]; lra. }
  exists nd, nd', sched, sched', c, c', r, q, q'. split; [exact E|]. split; [exact E'|]. split; [exact Er|]. split; [exact Ed|]. split; [exact Er'|]. split; [exact Ed'|].
  split; [|split; [exact Q|split; [exact Q'|exact F]]].
  destruct (C35_every_schedule XR Empirical_Get nd (fins lambs) 100000 (fin (/ 10000)) PureLasso Sh I) as (path & FP & S).
  destruct (S sched c Er) as (_ & _ & _ & W). destruct (W r Ed) as (W1 & _).
  destruct W1 as [(dr & _ & _ & u & q0 & -> & _)|(-> & _)]; [discriminate|]. intros ->. unfold lambs in FP. cbn [fins map rev app] in FP. inversion FP.
Qed.

(** C63, the other side: with keep = 1 NestedLasso need not end. *)
From Coq Require Import FunctionalExtensionality String Sorted Permutation Reals Lra.
From Verif Require Import Base Num Mat Model_Node Model_Util Model_Norm Model_Fit Model_CSV Model_Lars Model_Path Model_Nested
  RSum Stats Proof_Util Proof_XR Proof_Norm Proof_Norm2 Spec_Fit Spec_Lars Spec_Path Proof_Homotopy Proof_Lars2 Proof_Fit Proof_Fit3
  Proof_Nested Proof_Nested2 Eval Ex_Nested Props_Util Props_Fit Props_LassoCmd Props_CSV Props_Norm Props_Lars Props_Path.
Open Scope R_scope.

(** three orthogonal columns with mean 0 and deviation 1, a target with mean 0 and deviation 1 *)
Definition exn_x (i j : nat) : R :=
  match j with
  | O => nth i [1; -1; 1; -1; 0] 0 | 1%nat => nth i [1; 1; -1; -1; 0] 0 | 2%nat => nth i [1; -1; -1; 1; 0] 0
  | _ => 0
  end.
Definition exn_X : Mat XR := mkMat 5 3 (fun i j => if (i <? 5)%nat && (j <? 3)%nat then fin (exn_x i j) else n0).
Definition exn_y : list R := [11 / 7; -5 / 7; 1 / 7; -1; 0].
Definition exn_d : Dataset XR := mkDataset exn_X (fins exn_y) ["a"; "b"; "c"; "t"]%string 3%Z.
Definition exn_path : list (LassoLarsNode XR) :=
  [mkLN (N := XR) (fins [0]) (fin (24 / 7)) [0%Z]; mkLN (N := XR) (fins [3 / 7; 0]) (fin (12 / 7)) [0%Z; 1%Z];
   mkLN (N := XR) (fins [4 / 7; 1 / 7; 0]) (fin (8 / 7)) [0%Z; 1%Z; 2%Z]].
Definition exn_nd : NormalizedData XR := mkND exn_X (fins exn_y) (fins [1; 1; 1]) (fins [0; 0; 0]) (fin 1) (fin 0) false.

Lemma exn_rmat : rmat exn_X exn_x.
Proof. intros i k Hi Hk. cbn [exn_X mrows mcols mval] in *. rewrite (proj2 (Nat.ltb_lt i 5) Hi), (proj2 (Nat.ltb_lt k 3) Hk). reflexivity. Qed.

Lemma exn_norm : NewNormalizedData (dsX exn_d) (dsY exn_d) = Ok exn_nd.
Proof.
  apply (nnd_standard exn_X exn_x exn_y exn_rmat); [cbn; lia|cbn; lia| | |].
  - intros c Hc. cbn [exn_X mcols] in Hc. destruct c as [|[|[|c]]]; try lia; cbn; (split; [rewrite mean5; lra|apply sdev5; [lra|]; cbv zeta; lra]).
  - unfold exn_y. rewrite mean5. lra.
  - apply sdev5; [lra|]. cbv zeta. lra.
Qed.

Lemma exn_subset_raw : exists f, GetSubset exn_d [0%Z; 1%Z; 2%Z] = Ok (mkDataset (mkMat (N := XR) 5 3 f) (fins exn_y) ["a"; "b"; "c"; "t"]%string 3%Z) /\
  forall i j, f i j = mval exn_X i j.
Proof.
  eexists. split; [reflexivity|].
  intros i j. destruct i as [|[|[|[|[|i]]]]]; destruct j as [|[|[|j]]]; reflexivity.
Qed.
Lemma exn_subset : GetSubset exn_d [0%Z; 1%Z; 2%Z] = Ok exn_d.
Proof.
  destruct exn_subset_raw as (f & E & H). rewrite E. unfold exn_d.
  replace f with (mval exn_X); [reflexivity|].
  apply functional_extensionality. intro i. apply functional_extensionality. intro j. symmetry. apply H.
Qed.


(** The factorisation of every set of columns: exact, and no small singular value. *)
Definition exn_exact (svd : Mat XR -> SVD XR) : Prop :=
  forall E, StronglySorted lt E -> (forall f, In f E -> (f < 3)%nat) ->
  exact_svd (icv_mat exn_X (map Z.of_nat E)) (svd (icv_mat exn_X (map Z.of_nat E))) /\
  no_tiny_sq (/ 1000000) (svd (icv_mat exn_X (map Z.of_nat E))).

Lemma exn_gram : forall f g, (f < 3)%nat -> (g < 3)%nat -> rsum 5 (fun i => exn_x i f * exn_x i g) = 4 * delta f g.
Proof. intros f g Hf Hg. destruct f as [|[|[|f]]]; try lia; destruct g as [|[|[|g]]]; try lia; cbn; unfold delta; cbn; lra. Qed.
Lemma exn_xy : forall f, (f < 3)%nat -> rsum 5 (fun i => exn_x i f * nth i exn_y 0) = 4 * nth f [6 / 7; 3 / 7; 2 / 7] 0.
Proof. intros f Hf. destruct f as [|[|[|f]]]; try lia; cbn; lra. Qed.

Lemma exn_sys : forall E c r, StronglySorted lt E -> (forall f, In f E -> (f < 3)%nat) -> length c = length E ->
  (forall j, (j < length E)%nat ->
     rsum (length E) (fun j' => rsum 5 (fun i => exn_x i (nth j E 0%nat) * exn_x i (nth j' E 0%nat)) * nth j' c 0) = 4 * r j) ->
  forall j, (j < length E)%nat -> nth j c 0 = r j.
Proof.
  intros E c r SS HE Hc H j Hj. specialize (H j Hj). pose proof (SSlt_NoDup E SS) as ND.
  rewrite (rsum_ext _ _ (fun j' => delta j j' * (4 * nth j' c 0))) in H.
  - rewrite (rsum_delta_l (length E) j (fun j' => 4 * nth j' c 0) Hj) in H. lra.
  - intros j' Hj'. rewrite exn_gram by (apply HE; apply nth_In; assumption). unfold delta.
    destruct (Nat.eqb_spec j j') as [->|N]; [rewrite Nat.eqb_refl; ring|].
    destruct (Nat.eqb_spec (nth j E 0%nat) (nth j' E 0%nat)) as [Q|Q]; [|ring].
    exfalso. apply N. apply (proj1 (NoDup_nth E 0%nat) ND j j' Hj Hj' Q).
Qed.

Lemma exn_nth_eq : forall (a b : list R), length a = length b -> (forall j, (j < length a)%nat -> nth j a 0 = nth j b 0) -> a = b.
Proof. intros a b L H. apply (nth_ext a b 0 0 L H). Qed.

Lemma exn_params : forall svd, exn_exact svd -> forall E, StronglySorted lt E -> (forall f, In f E -> (f < 3)%nat) ->
  exists inv, mpSetActiveSet (N := XR) svd exn_X (map Z.of_nat E) = Ok (svd (icv_mat exn_X (map Z.of_nat E)), inv) /\
    mpC (N := XR) (svd (icv_mat exn_X (map Z.of_nat E))) (fins exn_y) = Ok (fins (map (fun f => nth f [6 / 7; 3 / 7; 2 / 7] 0) E)) /\
    mpD (N := XR) inv (fins (repeat 1 (length E))) = Ok (fins (repeat (1 / 4) (length E))).
Proof.
  intros svd Hsvd E SS HE. destruct (Hsvd E SS HE) as (X1 & X2). set (M := icv_mat exn_X (map Z.of_nat E)) in *.
  assert (HM : rmat M (fun i j => exn_x i (nth j E 0%nat))).
  { apply icv_rmat; [exact exn_rmat|]. intros f Hf. specialize (HE f Hf). cbn [exn_X mcols]. lia. }
  assert (LM : mcols M = length E) by (unfold M; cbn; apply map_length).
  destruct (pseudo_inverse_xtx_mp M _ (svd M) (/ 1000000) HM X1 ltac:(lra) X2) as (inv & _ & EI & _).
  rewrite <- e6_fin in EI. exists inv.
  split.
  { unfold mpSetActiveSet. fold M. rewrite EI. cbn [bind].
    replace (forallb _ _) with true; [reflexivity|]. symmetry. apply forallb_forall. intros z Hz. apply in_map_iff in Hz.
    destruct Hz as (f & <- & Hf). specialize (HE f Hf). cbn [exn_X mcols]. apply andb_true_iff. split; [apply Z.leb_le|apply Z.ltb_lt]; lia. }
  split.
  - destruct (mpc_normal M _ (svd M) exn_y HM X1 X2 eq_refl ltac:(cbn; lia)) as (c & E1 & E2 & E3). rewrite E1. do 2 f_equal.
    rewrite LM in *. change (mrows M) with 5%nat in E3.
    apply exn_nth_eq; [rewrite map_length; exact E2|]. rewrite E2. intros j Hj.
    rewrite (exn_sys E c (fun j => nth (nth j E 0%nat) [6 / 7; 3 / 7; 2 / 7] 0) SS HE E2); [|intros k Hk|exact Hj].
    + symmetry. apply (nth_map_lt _ _ (fun f => nth f [6 / 7; 3 / 7; 2 / 7] 0) E j 0%nat). exact Hj.
    + rewrite (E3 k Hk). apply exn_xy. apply HE. apply nth_In. exact Hk.
  - destruct (mpd_solves M _ (svd M) (repeat 1 (length E)) inv HM X1 X2 EI) as (c & E1 & E2 & E3).
    + rewrite repeat_length, LM. reflexivity.
    + exists (fun i => (exn_x i 0 + exn_x i 1 + exn_x i 2) / 4). rewrite LM. change (mrows M) with 5%nat. intros j Hj.
      rewrite nth_repeat_lt by exact Hj.
      assert (Hf : (nth j E 0 < 3)%nat) by (apply HE; apply nth_In; exact Hj).
      destruct (nth j E 0%nat) as [|[|[|f]]]; try lia; cbn; lra.
    + rewrite E1. do 2 f_equal. rewrite LM in *. change (mrows M) with 5%nat in E3.
      apply exn_nth_eq; [rewrite repeat_length; exact E2|]. rewrite E2. intros j Hj.
      rewrite (exn_sys E c (fun _ => 1 / 4) SS HE E2); [|intros k Hk|exact Hj].
      * symmetry. apply nth_repeat_lt. exact Hj.
      * rewrite (E3 k Hk). rewrite nth_repeat_lt by exact Hk. lra.
Qed.

Lemma exn_svd_exact : exn_exact exc_svd.
Proof.
  intros E SS HE. pose proof (SSlt_NoDup E SS) as ND. set (M := icv_mat exn_X (map Z.of_nat E)).
  assert (HM : rmat M (fun i j => exn_x i (nth j E 0%nat))).
  { apply icv_rmat; [exact exn_rmat|]. intros f Hf. specialize (HE f Hf). cbn [exn_X mcols]. lia. }
  assert (LM : mcols M = length E) by (unfold M; cbn; apply map_length).
  split.
  - exists (fun i j => exn_x i (nth j E 0%nat)), (fun i j => exn_x i (nth j E 0%nat) / 2), delta, (repeat 2 (mcols M)).
    cbn [exc_svd svS svU svV mrows mcols]. rewrite !repeat_length.
    split; [exact HM|]. do 3 (split; [reflexivity|]).
    split. { intros i j Hi Hj. cbn [mval mrows mcols exc_svd svU] in *. rewrite (HM i j Hi Hj). change (nofZ (n := XR) 2) with (fin 2). apply xdiv_fin. lra. }
    do 2 (split; [reflexivity|]). split; [intros i j Hi Hj; reflexivity|]. change (mrows M) with 5%nat. rewrite LM.
    split; [|split; [|split]].
    + intros a b Ha Hb. pose proof (exn_gram (nth a E 0%nat) (nth b E 0%nat) (HE _ (nth_In E 0%nat Ha)) (HE _ (nth_In E 0%nat Hb))) as G.
      rewrite (rsum_ext _ _ (fun i => / 4 * (exn_x i (nth a E 0%nat) * exn_x i (nth b E 0%nat)))) by (intros; field).
      rewrite rsum_scal, G. unfold delta.
      destruct (Nat.eqb_spec a b) as [->|N]; [rewrite Nat.eqb_refl; field|].
      destruct (Nat.eqb_spec (nth a E 0%nat) (nth b E 0%nat)) as [Q|Q]; [|field].
      exfalso. apply N. apply (proj1 (NoDup_nth E 0%nat) ND a b Ha Hb Q).
    + intros a b Ha Hb. rewrite (rsum_ext _ _ (fun j => delta a j * delta j b)) by (intros; rewrite (delta_sym i a); auto).
      apply (rsum_delta_l (length E) a (fun j => delta j b)); auto.
    + intros v Hv. apply repeat_spec in Hv. lra.
    + intros i j Hi Hj. rewrite (rsum_ext _ _ (fun l => delta j l * exn_x i (nth l E 0%nat))).
      * symmetry. apply (rsum_delta_l (length E) j (fun l => exn_x i (nth l E 0%nat))); auto.
      * intros l Hll. rewrite nth_repeat_lt by exact Hll. field.
  - intros v Hv. cbn [exc_svd svS] in Hv. apply in_map_iff in Hv. destruct Hv as (z & Ez & Hz).
    injection Ez as <-. apply repeat_spec in Hz. right. rewrite Hz. lra.
Qed.

Lemma exn_start : forall svd est, lars_start (N := XR) (MorsePenroseCD svd) est exn_X (fins exn_y) =
  Ok (mkLars (N := XR) (fin (24 / 7)) [0%nat] (fins [1; 0; 0]) None (fin 0) (exn_X, snd est) [] false).
Proof. intros svd est. unfold exn_y. cmp. apply mkLars_eq; cmp. all: reflexivity. Qed.

Ltac exn_step svd Hsvd E0 sg one c d :=
  let est := fresh "est" in let inv := fresh "inv" in let E1 := fresh in let E2 := fresh in let E3 := fresh in
  intro est; destruct (exn_params svd Hsvd E0) as (inv & E1 & E2 & E3);
  [repeat constructor|cbn; intros; lia|];
  let E := fresh "E" in set (E := map Z.of_nat E0) in *; exists (Some (svd (icv_mat exn_X E), inv));
  unfold lars_step; cbn [laActive laSigns laLamb laEst laLastFeat laLastCoeff laRes length Nat.eqb];
  change (sort_ints E0) with E0; fold E;
  change (vec_view (N := XR) (fins sg) E0) with (Ok (fins one)); cbn [bind];
  change (cdSetActive (MorsePenroseCD svd) (exn_X, est) E) with (do f <- mpSetActiveSet svd exn_X E; Ok (exn_X, Some f));
  rewrite E1; cbn [bind];
  change (cdC (MorsePenroseCD svd) (exn_X, Some (svd (icv_mat exn_X E), inv)) (fins exn_y)) with (mpC (svd (icv_mat exn_X E)) (fins exn_y));
  rewrite (E2 : mpC (N := XR) (svd (icv_mat exn_X E)) (fins exn_y) = Ok (fins c)); cbn [bind];
  change (cdD (MorsePenroseCD svd) (exn_X, Some (svd (icv_mat exn_X E), inv)) (fins one)) with (mpD inv (fins one));
  rewrite (E3 : mpD (N := XR) inv (fins one) = Ok (fins d)); cbn [bind];
  generalize (Some (svd (icv_mat exn_X E), inv)); clear E1 E2 E3; subst E;
  let o := fresh "o" in intro o;
  cmp; apply mkLars_eq; cmp; try (apply mkLN_eq; cmp); try reflexivity.

Lemma exn_step1 : forall svd, exn_exact svd -> forall est, exists o, lars_step (N := XR) (MorsePenroseCD svd) exn_X (fins exn_y)
  (mkLars (N := XR) (fin (24 / 7)) [0%nat] (fins [1; 0; 0]) None (fin 0) (exn_X, est) [] false) =
  Ok (mkLars (N := XR) (fin (12 / 7)) [0%nat; 1%nat] (fins [1; 1; 0]) None (fin 0) (exn_X, o)
        [mkLN (N := XR) (fins [0]) (fin (24 / 7)) [0%Z]] false).
Proof. intros svd Hsvd. exn_step svd Hsvd [0%nat] [1; 0; 0] [1] [6 / 7] [1 / 4]. Qed.
Lemma exn_step2 : forall svd, exn_exact svd -> forall est, exists o, lars_step (N := XR) (MorsePenroseCD svd) exn_X (fins exn_y)
  (mkLars (N := XR) (fin (12 / 7)) [0%nat; 1%nat] (fins [1; 1; 0]) None (fin 0) (exn_X, est)
        [mkLN (N := XR) (fins [0]) (fin (24 / 7)) [0%Z]] false) =
  Ok (mkLars (N := XR) (fin (8 / 7)) [0%nat; 1%nat; 2%nat] (fins [1; 1; 1]) None (fin 0) (exn_X, o)
        [mkLN (N := XR) (fins [0]) (fin (24 / 7)) [0%Z]; mkLN (N := XR) (fins [3 / 7; 0]) (fin (12 / 7)) [0%Z; 1%Z]] false).
Proof. intros svd Hsvd. exn_step svd Hsvd [0%nat; 1%nat] [1; 1; 0] [1; 1] [6 / 7; 3 / 7] [1 / 4; 1 / 4]. Qed.
Lemma exn_step3 : forall svd, exn_exact svd -> forall est, exists o, lars_step (N := XR) (MorsePenroseCD svd) exn_X (fins exn_y)
  (mkLars (N := XR) (fin (8 / 7)) [0%nat; 1%nat; 2%nat] (fins [1; 1; 1]) None (fin 0) (exn_X, est)
        [mkLN (N := XR) (fins [0]) (fin (24 / 7)) [0%Z]; mkLN (N := XR) (fins [3 / 7; 0]) (fin (12 / 7)) [0%Z; 1%Z]] false) =
  Ok (mkLars (N := XR) (fin 0) [2%nat; 1%nat] (fins [1; 1; 1]) (Some 0%nat) (fin (4 / 7)) (exn_X, o) exn_path false).
Proof. intros svd Hsvd. exn_step svd Hsvd [0%nat; 1%nat; 2%nat] [1; 1; 1] [1; 1; 1] [6 / 7; 3 / 7; 2 / 7] [1 / 4; 1 / 4; 1 / 4]. Qed.

Lemma exn_runs : forall svd, exn_exact svd -> forall est fuelL, (4 <= fuelL)%nat ->
  exists o, LassoLars_est (MorsePenroseCD svd) est exn_nd (fin (/ 1000)) fuelL = Ok (exn_path, o).
Proof.
  intros svd Hsvd est fuelL Hf. destruct fuelL as [|[|[|[|fuelL]]]]; try lia.
  assert (L : forall a, / 1000 < a -> nltb (n := XR) (fin (/ 1000)) (fin a) = true) by (intros a Ha; apply Rltb_true; exact Ha).
  unfold LassoLars_est. change (ndX exn_nd) with exn_X. change (ndy exn_nd) with (fins exn_y). rewrite exn_start. cbn [bind lars_loop].
  cbn [laLamb]. rewrite L by lra. cbn [negb]. destruct (exn_step1 svd Hsvd (snd est)) as (o & E1). rewrite E1. cbn [bind laStop laLamb]. rewrite L by lra. cbn [negb].
  destruct (exn_step2 svd Hsvd o) as (o' & E2). rewrite E2. cbn [bind laStop laLamb]. rewrite L by lra. cbn [negb].
  destruct (exn_step3 svd Hsvd o') as (o3 & E3). rewrite E3. cbn [bind laStop laLamb].
  replace (nltb (n := XR) (fin (/ 1000)) (fin 0)) with false by (symmetry; apply Rltb_false; lra). cbn [negb bind laRes laEst].
  eexists. reflexivity.
Qed.

Lemma exn_crit : forall crit, exists c, GetCriteria (mkPath exn_d exn_path) crit = Ok c.
Proof.
  intro crit. destruct (C61_criteria (mkPath exn_d exn_path) exn_x exn_y crit) as (vals & E & _); cbn [lpDset lpNodes dsX dsY exn_d].
  - exact exn_rmat.
  - cbn. lia.
  - reflexivity.
  - reflexivity.
  - intros n [<-|[<-|[<-|[]]]]; eexists; (split; [reflexivity|]); (split; [reflexivity|]); (split; [discriminate|]);
      (split; [repeat constructor|cbn; intros v Hv; lia]).
  - exists vals. exact E.
Qed.

Lemma exn_num : forall k, 1 <= k -> (3 <= go_int (N := XR) (nmul (n := XR) (fin k) (nofnat 3)))%Z.
Proof.
  intros k Hk. unfold go_int, nofnat. cbn [nmul nofZ ntrunc XR xmul xtrunc fin]. change (IZR (Z.of_nat 3)) with 3.
  rewrite (proj2 (Rltb_false _ _)) by lra. destruct (archimed (k * 3)) as (U1 & U2).
  assert (3 < IZR (up (k * 3))) by lra. apply lt_IZR in H. lia.
Qed.

Lemma exn_loop : forall svd, exn_exact svd -> forall k, 1 <= k -> forall fuelL fuel est paths,
  nested_loop (MorsePenroseCD svd) exn_d (fin (/ 1000)) (fin k) fuelL fuel est exn_d exn_nd paths = Fuel \/ (fuelL < 4)%nat.
Proof.
  intros svd Hsvd k Hk fuelL fuel. destruct (Nat.lt_ge_cases fuelL 4) as [Hf|Hf]; [intros; right; exact Hf|].
  induction fuel as [|fuel IH]; intros est paths; [left; reflexivity|].
  cbn [nested_loop]. destruct (exn_runs svd Hsvd est fuelL Hf) as (o & ->). cbn [bind].
  destruct (exn_crit Aicc) as (c1 & ->). destruct (exn_crit Bic) as (c2 & ->). cbn [bind].
  change (mcols (dsX exn_d)) with 3%nat. pose proof (exn_num k Hk) as H3. set (z := go_int _) in *.
  assert (EP : PickMostRelevantFeatures (mkPath exn_d exn_path) z = [0%Z; 1%Z; 2%Z]).
  { cbn [PickMostRelevantFeatures lpNodes exn_path lnSelection fold_left ExistInt negb app length Z.of_nat]. cbv -[Z.leb z].
    destruct (Z.leb_spec z 1); [lia|]. destruct (Z.leb_spec z 2); [lia|]. destruct (Z.leb_spec z 3); reflexivity. }
  rewrite EP. replace (z <=? 2)%Z with false by (symmetry; apply Z.leb_gt; lia).
  change (map_selections exn_d (dsNames exn_d) exn_path) with (Ok exn_path). cbn [bind].
  rewrite exn_subset. cbn [bind]. rewrite exn_norm. cbn [bind].
  change (normalized_in_place exn_d exn_nd) with exn_d. apply IH.
Qed.

(** C63, refuted for keep of at least 1: there is a plain dataset (three
    orthogonal features, no ties) on which every call of LassoLars ends, and
    NestedLasso does not, however many rounds it is given; for every exact
    singular value decomposition. *)
Theorem C63_keep_one_refuted : exists (data : Dataset XR) (A : nat -> nat -> R) lambMin fuelL,
  consistent data /\ NoDup (dsNames data) /\ rmat (dsX data) A /\ full_rank (mrows (dsX data)) (mcols (dsX data)) A /\ 0 < lambMin /\
  forall svd,
  (forall E, StronglySorted lt E -> (forall f, In f E -> (f < mcols (dsX data))%nat) ->
     exact_svd (icv_mat (dsX data) (map Z.of_nat E)) (svd (icv_mat (dsX data) (map Z.of_nat E))) /\
     no_tiny_sq (/ 1000000) (svd (icv_mat (dsX data) (map Z.of_nat E)))) ->
  forall est keep, 1 <= keep ->
  (exists nd path, NewNormalizedData (dsX data) (dsY data) = Ok nd /\ LassoLars (MorsePenroseCD svd) est nd (fin lambMin) fuelL = Ok path) /\
  forall fuel, NestedLasso (MorsePenroseCD svd) est data (fin lambMin) (fin keep) fuelL fuel = Fuel.
Proof.
  exists exn_d, exn_x, (/ 1000), 4%nat. split; [unfold consistent; cbn; repeat split; lia|].
  split; [cbn; repeat constructor; cbn; intuition discriminate|]. split; [exact exn_rmat|]. split; [|split; [lra|]].
  { intros u H. cbn [exn_d dsX exn_X mrows mcols] in *.
    pose proof (H 0%nat ltac:(lia)) as H0. pose proof (H 1%nat ltac:(lia)) as H1. pose proof (H 2%nat ltac:(lia)) as H2. pose proof (H 3%nat ltac:(lia)) as H3.
    cbn in H0, H1, H2, H3. intros j Hj. destruct j as [|[|[|j]]]; [lra|lra|lra|lia]. }
  intros svd Hsvd est keep Hk. split.
  - exists exn_nd. destruct (exn_runs svd Hsvd est 4 (le_n 4)) as (o & E). exists exn_path. split; [exact exn_norm|].
    unfold LassoLars_est in E. unfold LassoLars. destruct (lars_start _ est _ _) as [st| |]; try discriminate E. cbn [bind] in *.
    destruct (lars_loop _ _ _ _ _ _) as [st'| |]; try discriminate E. cbn [bind] in *. injection E as E _. f_equal. exact E.
  - intro fuel. unfold NestedLasso. rewrite exn_norm. cbn [bind]. change (normalized_in_place exn_d exn_nd) with exn_d.
    destruct (exn_loop svd Hsvd keep Hk 4 fuel est []) as [->|H]; [reflexivity|lia].
Qed.
Print Assumptions C63_keep_one_refuted.

(** an exact decomposition of that dataset *)
Example C63_keep_one_example : exn_exact exc_svd /\ forall fuel,
  NestedLasso (MorsePenroseCD exc_svd) (exn_X, None) exn_d (fin (/ 1000)) (fin 1) 4 fuel = Fuel.
Proof.
  split; [exact exn_svd_exact|]. intro fuel. unfold NestedLasso. rewrite exn_norm. cbn [bind]. change (normalized_in_place exn_d exn_nd) with exn_d.
  destruct (exn_loop exc_svd exn_svd_exact 1 ltac:(lra) 4 fuel (exn_X, None) []) as [->|H]; [reflexivity|lia].
Qed.

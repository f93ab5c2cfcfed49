(** Lemmas behind C51-C53: coefficient expansion, averaging, AIC weights,
    logarithmic spacing. *)
From Coq Require Import Reals Lra.
From Verif Require Import Base Num Mat RSum Model_Node Model_Util Proof_Node2 Proof_Util Proof_XR.

(** ** FullCoeffVector *)

Lemma fcv_loop : forall (N : Num) (coeff : list N) d sel i (r : list N),
  (forall v, In v sel -> 0 <= v < Z.of_nat (length r))%Z ->
  (i + length sel <= length coeff)%nat ->
  exists r', for_eachi i sel (fun i v r => do c <- getn coeff i; setz r v c) r = Ok r' /\
    length r' = length r /\
    (forall k, ~ In (Z.of_nat k) sel -> nth k r' d = nth k r d) /\
    (NoDup sel -> forall j, (j < length sel)%nat ->
       nth (Z.to_nat (nth j sel 0%Z)) r' d = nth (i + j) coeff d).
Proof.
  intros N coeff d sel. induction sel as [|v sel IH]; intros i r Hr Hl; cbn [for_eachi].
  - exists r. repeat split; auto. simpl; intros; lia.
  - cbn [length] in Hl. rewrite (getn_lt _ _ _ d) by lia. cbn [bind].
    assert (Hv : (0 <= v < Z.of_nat (length r))%Z) by (apply Hr; left; auto).
    rewrite setz_in by auto. cbn [bind].
    destruct (IH (S i) (upd r (Z.to_nat v) (nth i coeff d))) as (r' & E & L & A & B).
    { intros w Hw. rewrite upd_length. apply Hr; right; auto. }
    { lia. }
    exists r'. split; [exact E|]. split; [rewrite L, upd_length; auto|]. split.
    + intros k Hk. simpl in Hk. rewrite A by tauto. rewrite nth_upd.
      destruct (Nat.eqb_spec k (Z.to_nat v)); [|reflexivity]. exfalso. apply Hk. left. lia.
    + intros ND j Hj. inversion ND as [|? ? Hn ND']; subst. destruct j as [|j].
      * cbn [nth]. rewrite A by (rewrite Z2Nat.id by lia; exact Hn).
        rewrite nth_upd, Nat.eqb_refl. destruct (Nat.ltb_spec (Z.to_nat v) (length r)); [|lia].
        rewrite Nat.add_0_r. reflexivity.
      * cbn [nth length] in *. rewrite B by (auto; lia). f_equal. lia.
Qed.

Lemma fcv_panic : forall (N : Num) (coeff : list N) sel i (r : list N),
  (exists j v, nth_error sel j = Some v /\
     (~ (0 <= v < Z.of_nat (length r))%Z \/ (length coeff <= i + j)%nat)) ->
  for_eachi i sel (fun i v r => do c <- getn coeff i; setz r v c) r = Panic.
Proof.
  intros N coeff sel. induction sel as [|v sel IH]; intros i r (j & w & Hj & Hbad).
  - destruct j; discriminate Hj.
  - cbn [for_eachi]. destruct (Nat.ltb_spec i (length coeff)) as [Hi|Hi].
    2:{ rewrite getn_ge by lia. reflexivity. }
    destruct (nth_error coeff i) as [c|] eqn:Ec; [|apply nth_error_None in Ec; lia].
    unfold getn at 1. rewrite Ec. cbn [bind].
    destruct (Z_le_dec 0 v) as [H0|H0]; [destruct (Z_lt_dec v (Z.of_nat (length r))) as [H1|H1]|].
    2,3: rewrite setz_out by lia; reflexivity.
    rewrite setz_in by lia. cbn [bind]. apply IH.
    destruct j as [|j]; cbn [nth_error] in Hj.
    + injection Hj as <-. destruct Hbad; [exfalso; lia|]. exfalso; lia.
    + exists j, w. rewrite upd_length. split; auto. destruct Hbad; [left; auto|right; lia].
Qed.

Lemma fcv_spec : forall (N : Num) numFeat sel (coeff : list N),
  (0 <= numFeat)%Z ->
  (forall v, In v sel -> 0 <= v < numFeat)%Z ->
  (length sel <= length coeff)%nat -> NoDup sel ->
  exists r, FullCoeffVector numFeat sel coeff = Ok r /\ length r = Z.to_nat numFeat /\
    (forall j v c, nth_error sel j = Some v -> nth_error coeff j = Some c ->
       nth_error r (Z.to_nat v) = Some c) /\
    (forall k, (k < Z.to_nat numFeat)%nat -> ~ In (Z.of_nat k) sel -> nth_error r k = Some n0).
Proof.
  intros N numFeat sel coeff Hn Hs Hl ND. unfold FullCoeffVector, go_make.
  destruct (Z.ltb_spec numFeat 0); [lia|]. cbn [bind].
  destruct (fcv_loop N coeff n0 sel 0 (repeat n0 (Z.to_nat numFeat))) as (r & E & L & A & B).
  { intros v Hv. rewrite repeat_length. specialize (Hs v Hv). lia. }
  { lia. }
  rewrite repeat_length in L. exists r. split; [exact E|]. split; [exact L|]. split.
  - intros j v c Hj Hc. assert (Hjl : (j < length sel)%nat) by (apply nth_error_Some; congruence).
    specialize (B ND j Hjl). rewrite Nat.add_0_l in B. rewrite (nth_error_nth sel j 0%Z Hj), (nth_error_nth coeff j n0 Hc) in B.
    rewrite <- B. apply nth_error_nth'. rewrite L.
    specialize (Hs v (nth_error_In _ _ Hj)). lia.
  - intros k Hk Hni. rewrite (nth_error_nth' r n0) by lia. rewrite A by auto.
    rewrite nth_repeat. reflexivity.
Qed.

(** ** WeightedAveragedCoeff *)

Definition sparse_ok {N} (numFeat : Z) (c : SparseCoeff N) : Prop :=
  (forall v, In v (spSelection c) -> 0 <= v < numFeat)%Z /\
  (length (spSelection c) <= length (spCoeff c))%nat.

Definition wac_inner {N : Num} (weights : list N) (i : nat) (c : SparseCoeff N) (j : nat) (avg : list N) :=
  do s <- getn (spSelection c) j;
  do w <- getn weights i;
  do x <- getn (spCoeff c) j;
  do a <- getz avg s;
  setz avg s (a + w * x)%num.

Lemma wac_panic : forall (N : Num) numFeat (weights : list N) coeffs,
  (0 <= numFeat)%Z ->
  length weights <> length coeffs \/ (exists c, In c coeffs /\ ~ sparse_ok numFeat c) ->
  WeightedAveragedCoeff numFeat weights coeffs = Panic.
Proof.
  intros N numFeat weights coeffs Hn Hbad. unfold WeightedAveragedCoeff, go_make.
  destruct (Z.ltb_spec numFeat 0); [lia|]. cbn [bind].
  destruct (Nat.eqb_spec (length weights) (length coeffs)) as [Hl|Hl]; cbn [negb]; [|reflexivity].
  destruct Hbad as [Hbad|(c & Hc & Hbad)]; [contradiction|].
  destruct (In_nth_error _ _ Hc) as (p & Hp).
  assert (Hpl : (p < length coeffs)%nat) by (apply nth_error_Some; congruence).
  match goal with |- for_loop 0 ?n ?b ?s = _ =>
    destruct (for_loop_or_panic _ (fun i (avg : list N) => length avg = Z.to_nat numFeat /\
       forall q c, (q < i)%nat -> nth_error coeffs q = Some c -> sparse_ok numFeat c) True b n 0 s)
     as [[E _]|(s' & E & _ & HQ)] end.
  - split; [apply repeat_length|intros; lia].
  - intros i avg Hi (HL & HQ).
    destruct (nth_error coeffs i) as [ci|] eqn:Eci; [|apply nth_error_None in Eci; lia].
    rewrite (proj2 (getn_ok _ _ _ _) Eci). cbn [bind].
    match goal with |- context [for_loop 0 ?n ?b avg] =>
      destruct (for_loop_or_panic _ (fun j (a : list N) => length a = Z.to_nat numFeat /\
        (forall q v, (q < j)%nat -> nth_error (spSelection ci) q = Some v ->
           (0 <= v < numFeat)%Z /\ (q < length (spCoeff ci))%nat)) True b n 0 avg) as [[E _]|(s' & E & L' & HQ')] end.
    + split; auto. intros; lia.
    + intros j a Hj (La & Qa).
      destruct (nth_error (spSelection ci) j) as [s|] eqn:Es; [|apply nth_error_None in Es; lia].
      rewrite (proj2 (getn_ok _ _ _ _) Es). cbn [bind].
      rewrite (getn_lt _ weights i n0) by lia. cbn [bind].
      destruct (nth_error (spCoeff ci) j) as [x|] eqn:Ex.
      2:{ left. unfold getn. rewrite Ex. auto. }
      assert (Hjx : (j < length (spCoeff ci))%nat) by (apply nth_error_Some; congruence).
      rewrite (proj2 (getn_ok _ _ _ _) Ex). cbn [bind].
      destruct (Z_le_dec 0 s) as [H0|H0]; [destruct (Z_lt_dec s numFeat) as [H1|H1]|].
      2,3: left; rewrite getz_out by lia; auto.
      right. rewrite (getz_in _ a s n0) by lia. cbn [bind]. rewrite setz_in by lia.
      eexists; split; [reflexivity|]. rewrite upd_length. split; auto.
      intros q v Hq Hv. destruct (Nat.eq_dec q j) as [->|]; [|apply Qa; auto; lia].
      rewrite Es in Hv. injection Hv as <-. lia.
    + left. auto.
    + right. exists s'. split; [exact E|]. split; auto. simpl in HQ'.
      intros q cq Hq Hcq. destruct (Nat.eq_dec q i) as [->|]; [|apply (HQ q); auto; lia].
      rewrite Eci in Hcq. injection Hcq as <-. split.
      * intros v Hv. destruct (In_nth_error _ _ Hv) as (m & Hm).
        apply (HQ' m v); auto. apply nth_error_Some; congruence.
      * destruct (Nat.le_gt_cases (length (spSelection ci)) (length (spCoeff ci))) as [|Hgt]; auto.
        exfalso. destruct (nth_error (spSelection ci) (length (spCoeff ci))) as [v|] eqn:Ev;
          [|apply nth_error_None in Ev; lia].
        destruct (HQ' (length (spCoeff ci)) v) as [_ Hx]; auto; lia.
  - exact E.
  - exfalso. apply Hbad. apply (HQ p); auto. simpl. lia.
Qed.

(** exact arithmetic: the contribution of one sparse vector at feature [k] *)
Definition expand (sel : list Z) (coeff : list R) (k : nat) : R :=
  rsum (length sel) (fun j => if (nth j sel (-1) =? Z.of_nat k)%Z then nth j coeff 0%R else 0%R).

Definition rsparse (p : list R * list Z) : SparseCoeff XR := mkSparse (N := XR) (fins (fst p)) (snd p).

Lemma wac_xr : forall numFeat (ws : list R) (cs : list (list R * list Z)),
  (0 <= numFeat)%Z -> length ws = length cs ->
  Forall (fun p => (forall v, In v (snd p) -> 0 <= v < numFeat)%Z /\ (length (snd p) <= length (fst p))%nat) cs ->
  WeightedAveragedCoeff numFeat (fins ws) (map rsparse cs) =
  Ok (fins (map (fun k => rsum (length ws) (fun i =>
        (nth i ws 0 * expand (snd (nth i cs ([], []))) (fst (nth i cs ([], []))) k)%R))
      (seq 0 (Z.to_nat numFeat)))).
Proof.
  intros numFeat ws cs Hn Hl Hok. unfold WeightedAveragedCoeff, go_make.
  destruct (Z.ltb_spec numFeat 0); [lia|]. cbn [bind].
  rewrite fins_length, map_length, Hl, Nat.eqb_refl. cbn [negb].
  rewrite Forall_forall in Hok.
  match goal with |- for_loop 0 ?n ?b ?s = _ =>
    destruct (for_loop_inv _ (fun i (avg : list XR) => length avg = Z.to_nat numFeat /\
       forall k, (k < Z.to_nat numFeat)%nat -> nth k avg (fin 0) =
          fin (rsum i (fun i => (nth i ws 0 * expand (snd (nth i cs ([], []))) (fst (nth i cs ([], []))) k)%R)))
       b n 0 s) as (avg & E & L & HV) end.
  - split; [apply repeat_length|]. intros k Hk. rewrite nth_repeat. reflexivity.
  - intros i avg Hi (La & Ha).
    assert (Eci : nth_error (map rsparse cs) i = Some (rsparse (nth i cs ([], [])))).
    { rewrite nth_error_map, (nth_error_nth' cs ([], [])) by lia. reflexivity. }
    rewrite (proj2 (getn_ok _ _ _ _) Eci). cbn [bind].
    set (p := nth i cs ([], [])) in *.
    destruct (Hok p) as [Hs Hc]; [apply nth_In; lia|].
    change (spSelection (rsparse p)) with (snd p). change (spCoeff (rsparse p)) with (fins (fst p)).
    match goal with |- context [for_loop 0 ?n ?b avg] =>
      destruct (for_loop_inv _ (fun j (a : list XR) => length a = Z.to_nat numFeat /\
        (forall k, (k < Z.to_nat numFeat)%nat -> nth k a (fin 0) = nadd (nth k avg (fin 0))
          (fin (nth i ws 0 * rsum j (fun j => if (nth j (snd p) (-1) =? Z.of_nat k)%Z then nth j (fst p) 0 else 0))%R)))
        b n 0 avg) as (a' & E' & L' & HV') end.
    + split; auto. intros k Hk. rewrite Ha by auto. cbn [rsum]. rewrite xadd_fin. f_equal. ring.
    + intros j a Hj (L1 & H1).
      rewrite (getn_lt _ (snd p) j (-1)%Z) by lia. cbn [bind].
      rewrite getn_fins by lia. cbn [bind]. rewrite getn_fins by lia. cbn [bind].
      assert (Hv : (0 <= nth j (snd p) (-1) < numFeat)%Z) by (apply Hs, nth_In; lia).
      set (s := nth j (snd p) (-1)%Z) in *.
      rewrite (getz_in _ a s (fin 0)) by lia. cbn [bind]. rewrite setz_in by lia.
      eexists; split; [reflexivity|]. rewrite upd_length. split; auto.
      intros k Hk. rewrite nth_upd. cbn [rsum]. fold s.
      rewrite Ha by auto.
      destruct (Nat.eqb_spec k (Z.to_nat s)) as [Ek|Ek].
      * destruct (Nat.ltb_spec (Z.to_nat s) (length a)); [|lia].
        destruct (Z.eqb_spec s (Z.of_nat k)); [|lia].
        rewrite H1 by lia. rewrite Ha by lia. rewrite <- Ek in *. rewrite !xadd_fin, xmul_fin, xadd_fin.
        f_equal. ring.
      * destruct (Z.eqb_spec s (Z.of_nat k)); [lia|]. rewrite H1, Ha by lia. rewrite !xadd_fin. f_equal. ring.
    + exists a'. split; [exact E'|]. split; auto. intros k Hk. rewrite HV' by auto. rewrite Ha by auto.
      cbn [rsum]. fold p. rewrite xadd_fin. simpl. unfold expand. reflexivity.
  - rewrite E. f_equal. simpl in HV. apply vec_fins; auto.
Qed.

Lemma expand_nodup : forall sel coeff k, NoDup sel -> (length sel <= length coeff)%nat ->
  (forall j, nth_error sel j = Some (Z.of_nat k) -> expand sel coeff k = nth j coeff 0%R) /\
  (~ In (Z.of_nat k) sel -> expand sel coeff k = 0%R).
Proof.
  intros sel coeff k ND Hl. split.
  - intros j Hj. unfold expand. assert (Hjl : (j < length sel)%nat) by (apply nth_error_Some; congruence).
    rewrite (rsum_single _ _ j Hjl).
    + rewrite (nth_error_nth sel j (-1)%Z Hj), Z.eqb_refl. reflexivity.
    + intros i Hi Hne. destruct (Z.eqb_spec (nth i sel (-1)%Z) (Z.of_nat k)) as [E|]; auto.
      exfalso. apply Hne. rewrite <- (nth_error_nth sel j (-1)%Z Hj) in E.
      eapply NoDup_nth; eauto.
  - intro Hni. apply rsum_0'. intros i Hi.
    destruct (Z.eqb_spec (nth i sel (-1)%Z) (Z.of_nat k)) as [E|]; auto.
    exfalso. apply Hni. rewrite <- E. apply nth_In; auto.
Qed.

Lemma fcv_xr : forall numFeat sel (coeff : list R),
  (0 <= numFeat)%Z -> (forall v, In v sel -> 0 <= v < numFeat)%Z ->
  (length sel <= length coeff)%nat -> NoDup sel ->
  FullCoeffVector numFeat sel (fins coeff) =
    Ok (fins (map (expand sel coeff) (seq 0 (Z.to_nat numFeat)))).
Proof.
  intros numFeat sel coeff Hn Hs Hl ND.
  destruct (fcv_spec XR numFeat sel (fins coeff)) as (r & E & L & A & B); auto.
  { rewrite fins_length; auto. }
  rewrite E. f_equal. apply vec_fins; auto. intros k Hk.
    destruct (expand_nodup sel coeff k ND Hl) as [X1 X2].
    destruct (in_dec Z.eq_dec (Z.of_nat k) sel) as [Hin|Hin].
    + destruct (In_nth_error _ _ Hin) as (j & Hj).
      assert (Hjl : (j < length sel)%nat) by (apply nth_error_Some; congruence).
      rewrite (X1 j Hj). apply nth_error_nth.
      rewrite <- (Nat2Z.id k). apply (A j); auto. apply fins_nth. lia.
    + rewrite X2 by auto. apply nth_error_nth. apply B; auto.
Qed.

(** ** WeightsFromAIC *)

Lemma MinFloat_fins : forall l (m : R),
  exists r, fold_left (fun m v => if nltb (n := XR) v m then v else m) (fins l) (fin m) = fin r /\
    (r <= m)%R /\ (forall x, In x l -> r <= x)%R /\ (r = m \/ In r l).
Proof.
  induction l as [|x l IH]; intro m; cbn [fins map fold_left].
  - exists m. repeat split; auto; [lra|intros ? []].
  - change (nltb (n := XR) (fin x) (fin m)) with (Rltb x m).
    destruct (Rltb x m) eqn:E.
    + apply Rltb_true in E. destruct (IH x) as (r & H1 & H2 & H3 & H4). exists r.
      split; [exact H1|]. split; [lra|]. split; [|simpl; destruct H4; auto].
      intros y [<-|Hy]; [lra|auto].
    + apply Rltb_false in E. destruct (IH m) as (r & H1 & H2 & H3 & H4). exists r.
      split; [exact H1|]. split; [lra|]. split; [|simpl; tauto].
      intros y [<-|Hy]; [lra|auto].
Qed.

Definition maxfR : R := IZR ((2 ^ 53 - 1) * 2 ^ 971).

Lemma fins_map : forall (g : XR -> XR) (f : R -> R) l, (forall x, g (fin x) = fin (f x)) ->
  map g (fins l) = fins (map f l).
Proof. intros g f l H. unfold fins. rewrite !map_map. apply map_ext. auto. Qed.

Lemma waic_xr : forall (l : list R), l <> [] -> (forall x, In x l -> x <= maxfR)%R ->
  exists m, In m l /\ (forall x, In x l -> m <= x)%R /\
  WeightsFromAIC (fins l) =
    Ok (fins (map (fun x => exp (- (x - m)) / lsum (map (fun x => exp (- (x - m))) l))%R l),
        fins (map (fun x => x - m)%R l)).
Proof.
  intros l Hne Hmax.
  destruct (MinFloat_fins l maxfR) as (m & Em & H1 & H2 & H3).
  exists m. assert (Hm : In m l).
  { destruct H3 as [->|]; auto. destruct l as [|x l]; [contradiction|].
    left. specialize (H2 x (or_introl eq_refl)). specialize (Hmax x (or_introl eq_refl)). lra. }
  split; auto. split; auto.
  unfold WeightsFromAIC. cbv zeta.
  assert (EM : MinFloat (fins l) = fin m) by exact Em. rewrite EM.
  rewrite (for_loop_map XR (fun x => nsub x (fin m))). cbn [bind].
  rewrite (fins_map _ (fun x => x - m)%R) by reflexivity.
  set (d := map (fun x => x - m)%R l).
  assert (Ld : length d = length l) by apply map_length.
  rewrite fins_length.
  rewrite (sum_loop0 _ (fun i => exp (- nth i d 0%R))).
  2:{ intros i x Hi. rewrite getn_fins by lia. cbn [bind].
      rewrite xneg_fin, xexp_fin, xadd_fin. reflexivity. }
  cbn [bind].
  assert (Hsum : rsum (length d) (fun i => exp (- nth i d 0%R)) = lsum (map (fun x => exp (- (x - m))) l)).
  { rewrite lsum_rsum. rewrite map_length, <- Ld. apply rsum_ext. intros i Hi.
    unfold d. rewrite Ld in Hi.
    rewrite !(nth_map_lt _ _ _ l i 0%R) by lia. reflexivity. }
  rewrite Hsum.
  set (S0 := lsum (map (fun x => exp (- (x - m))) l)).
  assert (Hpos : (0 < S0)%R).
  { unfold S0. rewrite lsum_rsum, map_length. apply rsum_pos.
    - destruct l; [contradiction|simpl; lia].
    - intros i Hi.
      rewrite (nth_map_lt _ _ _ l i 0%R) by lia. apply exp_pos. }
  rewrite (for_loop_ext _ _ (fun i w => setn w i (fin (exp (- nth i d 0%R) / S0)))).
  2:{ intros i s Hi. rewrite getn_fins by lia. cbn [bind].
      rewrite xneg_fin, xexp_fin, xdiv_fin by lra. reflexivity. }
  rewrite ?fins_length.
  rewrite (for_loop_fill0 XR (fun i => fin (exp (- nth i d 0%R) / S0)))
    by (rewrite repeat_length; auto).
  cbn [bind]. do 2 f_equal. unfold fins. rewrite !map_map.
  apply (nth_ext _ _ (fin 0) (fin 0)); [rewrite !map_length, seq_length; auto|].
  rewrite map_length, seq_length. intros i Hi.
  rewrite nth_map_seq by lia. unfold d. rewrite !(nth_map_lt _ _ _ l i 0%R) by lia. reflexivity.
Qed.

(** ** Logspace *)

Lemma logspace_xr : forall mn mx num, (0 < mn)%R -> (0 < mx)%R -> (2 <= num)%Z ->
  Logspace (fin mn) (fin mx) num =
  Ok (fins (map (fun i => exp (ln mn + (ln mx - ln mn) / IZR (num - 1) * INR i)%R) (seq 0 (Z.to_nat num)))).
Proof.
  intros mn mx num H1 H2 Hn. unfold Logspace, go_make.
  destruct (Z.eqb_spec num 0); [lia|]. destruct (Z.eqb_spec num 1); [lia|].
  destruct (Z.ltb_spec num 0); [lia|]. cbn [bind].
  rewrite !xlog_fin by auto. rewrite xsub_fin, nofZ_fin.
  rewrite xdiv_fin by (apply not_0_IZR; lia).
  rewrite (for_loop_ext _ _ (fun i r => setn r i (fin (exp (ln mn + (ln mx - ln mn) / IZR (num - 1) * INR i)%R)))).
  2:{ intros i s _. rewrite nofnat_fin, xmul_fin, xadd_fin, xexp_fin. reflexivity. }
  rewrite (for_loop_fill0 XR) by apply repeat_length.
  f_equal. unfold fins. rewrite map_map. reflexivity.
Qed.

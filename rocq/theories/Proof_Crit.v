(** Lemmas behind C61: GetCriteria. *)
From Coq Require Import Reals Lra Sorting.Sorted.
From Verif Require Import Base Num Mat Model_Node Proof_Node Model_Util Proof_Util Proof_Models RSum Proof_XR Model_Norm Proof_Norm
  Model_Fit Spec_Fit Proof_Fit Proof_Fit2 Model_CSV Model_Path Spec_Path Proof_Path.
Open Scope R_scope.

Lemma sorted_unique : forall a b, StronglySorted Z.lt a -> StronglySorted Z.lt b ->
  (forall v, In v a <-> In v b) -> a = b.
Proof.
  induction a as [|x a IH]; intros [|y b] Ha Hb H.
  - reflexivity.
  - exfalso. destruct (proj2 (H y) (or_introl eq_refl)).
  - exfalso. destruct (proj1 (H x) (or_introl eq_refl)).
  - inversion Ha as [|? ? Sa Fa]; subst. inversion Hb as [|? ? Sb Fb]; subst.
    rewrite Forall_forall in Fa, Fb.
    assert (x = y).
    { destruct (proj1 (H x) (or_introl eq_refl)) as [E|E]; [congruence|].
      destruct (proj2 (H y) (or_introl eq_refl)) as [E'|E']; [congruence|].
      specialize (Fa y E'). specialize (Fb x E). lia. }
    subst y. f_equal. apply IH; [exact Sa|exact Sb|]. intro v. split; intro Hv.
    + destruct (proj1 (H v) (or_intror Hv)) as [E|E]; [|exact E]. specialize (Fa v Hv). lia.
    + destruct (proj2 (H v) (or_intror Hv)) as [E|E]; [|exact E]. specialize (Fb v Hv). lia.
Qed.

Lemma model_of_sorted : forall sel n, StronglySorted Z.lt sel -> (forall v, In v sel -> (0 <= v < Z.of_nat n)%Z) ->
  exists m, Selected2Model sel (Z.of_nat n) = Ok m /\ length m = n /\ sel_from 0 m = sel.
Proof.
  intros sel n Hs Hr. destruct (proj1 (selected2model_spec sel (Z.of_nat n) ltac:(lia)) Hr) as (m & E & Hl & Hk).
  exists m. split; [exact E|]. split; [lia|]. apply sorted_unique; [apply sel_from_sorted|exact Hs|].
  intro v. rewrite (sel_from_In m 0). split.
  - intros (i & -> & Hi). cbn [Nat.add]. assert (Hlt : (i < length m)%nat) by (apply nth_error_Some; congruence).
    apply (Hk i ltac:(lia)). apply nth_error_nth with (d := false) in Hi. exact Hi.
  - intro Hv. specialize (Hr v Hv). exists (Z.to_nat v). split; [lia|].
    assert (Hb : nth (Z.to_nat v) m false = true) by (apply (Hk (Z.to_nat v) ltac:(lia)); rewrite Z2Nat.id by lia; exact Hv).
    rewrite (nth_error_nth' m false) by lia. f_equal. exact Hb.
Qed.

Lemma node_value : forall X A y sel w, rmat X A -> (0 < mrows X)%nat -> length y = mrows X ->
  StronglySorted Z.lt sel -> sel <> [] -> (forall v, In v sel -> (0 <= v < Z.of_nat (mcols X))%Z) -> length w = length sel ->
  exists model D, Selected2Model sel (Z.of_nat (mcols X)) = Ok model /\ GetDesignMatrix model X = Ok D /\
    NumFeatures model = length sel /\
    Rss D (fins w) (fins y) = Ok (fin (node_rss (mrows X) A sel w y)).
Proof.
  intros X A y sel w HA Hr Hy Hs Hne Hin Hw.
  destruct (model_of_sorted sel (mcols X) Hs Hin) as (m & E & Hl & Em).
  assert (Hn : NumFeatures m = length sel) by (rewrite <- Em; symmetry; apply sel_from_length).
  assert (Hpos : (0 < length sel)%nat) by (destruct sel; [congruence|cbn; lia]).
  destruct (design_xr X A m HA Hr ltac:(lia) ltac:(lia)) as (D & ED & Dr & Dc & HD).
  exists m, D. split; [exact E|]. split; [exact ED|]. split; [exact Hn|].
  rewrite (rss_xr D (sub A m) w y HD) by lia. apply f_equal. apply (f_equal XFin).
  unfold rss, node_rss. rewrite Dr, Dc, Hn. apply rsum_ext. intros i _. unfold sub, selcol. rewrite Em. reflexivity.
Qed.

Definition good_node (nc : nat) (n : LassoLarsNode XR) (w : list R) : Prop :=
  lnCoeff n = fins w /\ length w = length (lnSelection n) /\ lnSelection n <> [] /\
  StronglySorted Z.lt (lnSelection n) /\ (forall v, In v (lnSelection n) -> (0 <= v < Z.of_nat nc)%Z).

Lemma criteria_spec : forall (p : LassoLarsPath XR) A y crit,
  rmat (dsX (lpDset p)) A -> (0 < mrows (dsX (lpDset p)))%nat -> dsY (lpDset p) = fins y -> length y = mrows (dsX (lpDset p)) ->
  (forall n, In n (lpNodes p) -> exists w, good_node (mcols (dsX (lpDset p))) n w) ->
  exists vals, GetCriteria p crit = Ok vals /\ length vals = length (lpNodes p) /\
    forall i n w, nth_error (lpNodes p) i = Some n -> good_node (mcols (dsX (lpDset p))) n w ->
      nth_error vals i = Some (crit (Z.of_nat (length (lnSelection n))) (Z.of_nat (mrows (dsX (lpDset p))))
        (fin (node_rss (mrows (dsX (lpDset p))) A (lnSelection n) w y))).
Proof.
  intros p A y crit HA Hr HY Hy Hn. set (X := dsX (lpDset p)) in *.
  set (F := fun n : LassoLarsNode XR => crit (Z.of_nat (length (lnSelection n))) (Z.of_nat (mrows X))
     (match (do model <- Selected2Model (lnSelection n) (Z.of_nat (mcols X)); do D <- GetDesignMatrix model X; Rss D (lnCoeff n) (fins y)) with Ok v => v | _ => n0 end)).
  exists (map F (lpNodes p)). split; [|split].
  - unfold GetCriteria. apply eachi_fill. intros i n s Hin. destruct (Hn n Hin) as (w & Hc & Hl & Hne & Hs & Hv).
    destruct (node_value X A y (lnSelection n) w HA Hr Hy Hs Hne Hv Hl) as (model & D & E1 & E2 & E3 & E4).
    unfold F. fold X. rewrite E1. cbn [bind]. rewrite E2. cbn [bind]. rewrite HY, Hc, E4. cbn [bind]. rewrite E3. reflexivity.
  - apply map_length.
  - intros i n w Hi (Hc & Hl & Hne & Hs & Hv). rewrite nth_error_map, Hi. cbn [option_map]. f_equal.
    destruct (node_value X A y (lnSelection n) w HA Hr Hy Hs Hne Hv Hl) as (model & D & E1 & E2 & E3 & E4).
    unfold F. rewrite E1. cbn [bind]. rewrite E2. cbn [bind]. rewrite Hc, E4. reflexivity.
Qed.

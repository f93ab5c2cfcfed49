(** C55, C62, C63: nested lasso. *)
From Coq Require Import Reals Lra String Permutation Sorting.Sorted SpecFloat.
From Verif Require Import Base Num Mat Model_Node Model_Util Proof_Util RSum Stats Proof_XR Model_Norm Proof_Norm Model_Fit Model_CSV Proof_CSV Proof_CSV2
  Props_CSV Model_Lars Proof_Lars Props_Lars Model_Path Spec_Path Proof_Path Model_Nested Spec_Nested Props_Path Proof_Nested Proof_Nested2 Ex_Nested Eval.
From Verif Require Flt.
Open Scope list_scope.

(** ** C55 *)

(** Features are found again by name, when the target is the last column of the
    current dataset (as it is in all but the first round).  The target of the
    original dataset may be anywhere. *)
Theorem C55_maps_by_name : forall (N : Num) (orig cur : Dataset N) sel,
  consistent orig -> NoDup (dsNames orig) -> consistent cur -> dsTargetCol cur = Z.of_nat (mcols (dsX cur)) ->
  (forall v, In v sel -> (0 <= v < Z.of_nat (mcols (dsX cur)))%Z) ->
  (forall v name, In v sel -> GetFeatName cur v = Ok name ->
     exists u, (0 <= u < Z.of_nat (mcols (dsX orig)))%Z /\ GetFeatName orig u = Ok name) ->
  exists sel', MapSelectionByName orig (dsNames cur) sel = Ok sel' /\
    Forall2 (fun v v' => (0 <= v' < Z.of_nat (mcols (dsX orig)))%Z /\
      exists name, GetFeatName cur v = Ok name /\ GetFeatName orig v' = Ok name) sel sel'.
Proof.
  intros N orig cur sel Ho Hn Hc Ht Hr Hin.
  assert (G : exists g, forall v, In v sel -> exists name, getz (dsNames cur) v = Ok name /\ FeatNoByName orig name = Ok (g v) /\
    GetFeatName cur v = Ok name /\ (0 <= g v < Z.of_nat (mcols (dsX orig)))%Z /\ GetFeatName orig (g v) = Ok name).
  { exists (fun v => match getz (dsNames cur) v with Ok name => match FeatNoByName orig name with Ok u => u | _ => 0%Z end | _ => 0%Z end).
    intros v Hv. specialize (Hr v Hv). destruct Hc as (_ & _ & _ & Hl & _).
    assert (E : getz (dsNames cur) v = GetFeatName cur v).
    { unfold GetFeatName. rewrite Ht. destruct (Z.ltb_spec v (Z.of_nat (mcols (dsX cur)))); [reflexivity|lia]. }
    destruct (GetFeatName cur v) as [name| |] eqn:En.
    - rewrite E. exists name. split; [reflexivity|]. destruct (Hin v name Hv En) as (u & Hu & Eu).
      pose proof (consistent_shaped N orig Ho) as (_ & _ & _ & Hlo & Hto & Htl).
      destruct (feat_name_no N orig _ (Z.to_nat u) Hn Hto ltac:(lia) ltac:(lia)) as (name' & F1 & F2 & F3).
      rewrite Z2Nat.id in F1, F3 by lia. assert (name' = name) by congruence. subst name'. rewrite F3. auto.
    - exfalso. rewrite <- (Z2Nat.id v), getz_nat in E by lia.
      rewrite (getn_lt _ _ _ EmptyString) in E by lia. discriminate E.
    - exfalso. rewrite <- (Z2Nat.id v), getz_nat in E by lia.
      rewrite (getn_lt _ _ _ EmptyString) in E by lia. discriminate E. }
  destruct G as (g & G). exists (map g sel). split.
  - apply map_selection. intros v Hv. destruct (G v Hv) as (name & A & B & _). exists name. split; assumption.
  - clear Hr Hin. induction sel as [|v sel IH]; constructor.
    + destruct (G v (or_introl eq_refl)) as (name & _ & _ & A & B & C). split; [exact B|]. exists name. split; assumption.
    + apply IH. intros w Hw. apply G. right. exact Hw.
Qed.
Print Assumptions C55_maps_by_name.

(** In the first round the current dataset has the columns of the original one,
    target included: features after the target are mapped to their left
    neighbour. *)
Theorem C55_first_round : forall (N : Num) (orig : Dataset N) sel,
  consistent orig -> NoDup (dsNames orig) -> (forall v, In v sel -> (0 <= v < Z.of_nat (mcols (dsX orig)))%Z) ->
  MapSelectionByName orig (dsNames orig) sel = Ok (map (fun v => if (dsTargetCol orig <? v)%Z then (v - 1)%Z else v) sel).
Proof.
  intros N orig sel Ho Hn Hr. apply map_selection. intros v Hv. specialize (Hr v Hv). destruct Ho as (_ & _ & _ & Hl & _).
  exists (nth (Z.to_nat v) (dsNames orig) EmptyString).
  assert (Hlt : (Z.to_nat v < length (dsNames orig))%nat) by lia.
  split.
  - rewrite <- (Z2Nat.id v) at 1 by lia. rewrite getz_nat. apply getn_lt. exact Hlt.
  - rewrite (feat_no N orig (Z.to_nat v) _ Hn (nth_error_nth' _ _ Hlt)). rewrite Z2Nat.id by lia. reflexivity.
Qed.
Print Assumptions C55_first_round.

(** So a feature after the target gets the number of a feature with another name. *)
Theorem C55_target_not_last_refuted : forall (N : Num) (orig : Dataset N) v,
  consistent orig -> NoDup (dsNames orig) -> (dsTargetCol orig < v < Z.of_nat (mcols (dsX orig)))%Z ->
  exists v' name name', MapSelectionByName orig (dsNames orig) [v] = Ok [v'] /\
    GetFeatName orig v = Ok name /\ GetFeatName orig v' = Ok name' /\ name <> name'.
Proof.
  intros N orig v Ho Hn Hv. pose proof (consistent_shaped N orig Ho) as (_ & _ & _ & Hlo & Hto & Htl).
  pose proof Ho as (_ & _ & _ & _ & Hb).
  exists (v - 1)%Z. rewrite (C55_first_round N orig [v] Ho Hn) by (intros w [<-|[]]; lia). cbn [map].
  destruct (Z.ltb_spec (dsTargetCol orig) v); [|lia].
  destruct (feat_name_no N orig _ (Z.to_nat v) Hn Hto ltac:(lia) ltac:(lia)) as (name & F1 & F2 & F3).
  destruct (feat_name_no N orig _ (Z.to_nat (v - 1)) Hn Hto ltac:(lia) ltac:(lia)) as (name' & G1 & G2 & G3).
  rewrite Z2Nat.id in F1, F3, G1, G3 by lia. exists name, name'. split; [reflexivity|]. split; [exact F1|]. split; [exact G1|].
  intro C. subst name'. rewrite F3 in G3. injection G3. lia.
Qed.
Print Assumptions C55_target_not_last_refuted.

Definition ex55 (N : Num) (t : Z) : Dataset N := mkDataset (mkMat 1 3 (fun _ _ => n0)) [n0] ["a"; "b"; "c"; "d"]%string t.
Lemma ex55_ok : forall N t, (0 <= t < 4)%Z -> consistent (ex55 N t) /\ NoDup (dsNames (ex55 N t)).
Proof.
  intros N t Ht. split; [unfold consistent; cbn; repeat split; try lia|].
  cbn. repeat constructor; cbn; intuition discriminate.
Qed.

(** target first: the features are b, c, d with numbers 0, 1, 2; numbers 1 and 2 come back as b and c *)
Example C55_example : forall N : Num,
  GetFeatName (ex55 N 0) 2 = Ok "d"%string /\
  MapSelectionByName (ex55 N 0) (dsNames (ex55 N 0)) [2]%Z = Ok [1]%Z /\ GetFeatName (ex55 N 0) 1 = Ok "c"%string /\
  (* after a selection (c, b) the target is last and all is well *)
  exists s, GetSubset (ex55 N 0) [1; 0]%Z = Ok s /\ dsNames s = ["c"; "b"; "a"]%string /\
    MapSelectionByName (ex55 N 0) (dsNames s) [0; 1]%Z = Ok [1; 0]%Z.
Proof. intro N. split; [reflexivity|]. split; [reflexivity|]. split; [reflexivity|]. eexists. split; [reflexivity|]. split; reflexivity. Qed.

(** ** C62 *)
Open Scope R_scope.

(** the label the first round gives to feature v *)
Definition first_label (t v : Z) : Z := if (t <? v)%Z then (v - 1)%Z else v.

Lemma initial_inv : forall (data : Dataset XR) t f y nd, shaped XR data t -> NoDup (dsNames data) -> rmat (dsX data) f ->
  dsY data = fins y -> sdev y <> 0 -> NewNormalizedData (dsX data) (dsY data) = Ok nd ->
  rmat (ndX nd) (normed (dsX data) f) /\ mrows (ndX nd) = mrows (dsX data) /\ mcols (ndX nd) = mcols (dsX data) /\
  ndy nd = fins (map (fun v => (v - mean y) / sdev y) y) /\
  cur_inv data t f y (seq 0 (mcols (dsX data))) (first_label (Z.of_nat t)) (normalized_in_place data nd) nd.
Proof.
  intros data t f y nd Hsh Hn HX HY Hsd E. rewrite HY in E. pose proof Hsh as (D1 & D2 & D3 & D4 & D5 & D6).
  destruct (nnd_inv (dsX data) f y nd HX D1 (y_ne data y HY Hsd) E) as (A1 & A2 & A3 & A4).
  rewrite (ydone_y y Hsd) in A4.
  split; [exact A3|]. split; [exact A1|]. split; [exact A2|]. split; [exact A4|].
  assert (Hnth : forall j, (j < mcols (dsX data))%nat -> nth j (seq 0 (mcols (dsX data))) 0%nat = j) by (intros j Hj; rewrite seq_nth by exact Hj; reflexivity).
  exists t. unfold normalized_in_place. cbn [dsX dsY dsNames dsTargetCol]. rewrite seq_length.
  split; [unfold shaped; cbn [dsX dsY dsNames dsTargetCol]; rewrite A1, A2, A4; split; [exact D1|]; split; [exact D2|]|].
  { split; [|auto]. rewrite <- D3, HY. unfold fins. rewrite !map_length. reflexivity. }
  split; [reflexivity|]. split; [exact A4|]. split; [exact A4|]. split; [exact A1|]. split; [exact A2|].
  split; [intros s Hs; apply in_seq in Hs; lia|]. split.
  { intros i j Hi Hj. rewrite (A3 i j Hi Hj). rewrite A2 in Hj. rewrite Hnth by exact Hj. reflexivity. }
  split; [intros j Hj; rewrite Hnth by exact Hj; reflexivity|].
  intros v Hv. exists (nth (Z.to_nat v) (dsNames data) EmptyString). split.
  - rewrite <- (Z2Nat.id v) at 1 by lia. rewrite getz_nat. apply getn_lt. lia.
  - assert (Hlt : (Z.to_nat v < length (dsNames data))%nat) by lia.
    rewrite (feat_no XR data (Z.to_nat v) _ Hn (nth_error_nth' _ _ Hlt)). rewrite D5, Z2Nat.id by lia. reflexivity.
Qed.

Lemma unnorm_forall2 : forall (nd : NormalizedData XR) paths paths', unnormalize_paths nd paths = Ok paths' ->
  Forall2 (fun p p' => Path2Unnormalized nd (pwNodes p) = Ok (pwNodes p') /\ pwAicc p' = pwAicc p /\ pwBic p' = pwBic p) paths paths'.
Proof.
  intros nd. induction paths as [|p paths IH]; intros paths' E; cbn [unnormalize_paths] in E.
  - injection E as <-. constructor.
  - destruct (Path2Unnormalized nd (pwNodes p)) as [nodes| |] eqn:E1; try discriminate E. cbn [bind] in E.
    destruct (unnormalize_paths nd paths) as [rest| |]; try discriminate E. cbn [bind] in E. injection E as <-.
    constructor; [split; [exact E1|split; reflexivity]|apply IH; reflexivity].
Qed.

Lemma criteria_nodes : forall nr z yz cols path p p', pwAicc p' = pwAicc p -> pwBic p' = pwBic p ->
  criteria_on nr z yz cols path p -> criteria_on nr z yz cols path p'.
Proof.
  intros nr z yz cols path p p' Ea Eb (cur & H1 & H2 & H3 & H4 & H5 & H6). exists cur. rewrite Ea, Eb. auto 10.
Qed.

(** NestedLasso on a dataset with distinct names and a target that is not
    constant.  With z, yz the normalised data: the paths are, in order, those
    of the nested fits (each the LARS path on the columns of z that entered the
    previous path first, until at most two would be kept), with the features
    numbered as in the caller's dataset and the coefficients converted with the
    scale of the caller's dataset; criteria are those of the fit.  The labels
    of the first path are off by one after the target.  The caller's dataset
    ends up normalised. *)
Theorem C62_nested : forall (cd : CDParam XR) est (data : Dataset XR) f y lambMin keep fuelL fuel data' paths,
  consistent data -> NoDup (dsNames data) ->
  (forall i j, (i < mrows (dsX data))%nat -> (j < mcols (dsX data))%nat -> mval (dsX data) i j = XFin (f i j)) ->
  dsY data = map XFin y -> sdev y <> 0 ->
  NestedLasso cd est data lambMin keep fuelL fuel = Ok (data', paths) ->
  exists nd z yz st stages p ps,
    NewNormalizedData (dsX data) (dsY data) = Ok nd /\
    (forall i j, (i < mrows (dsX data))%nat -> (j < mcols (dsX data))%nat -> mval (ndX nd) i j = XFin (z i j)) /\
    ndy nd = map XFin yz /\
    data' = mkDataset (ndX nd) (ndy nd) (dsNames data) (dsTargetCol data) /\
    nested_stages cd lambMin keep fuelL data (mrows (dsX data)) z yz (seq 0 (mcols (dsX data))) (st :: stages) /\
    paths = p :: ps /\
    Path2Unnormalized nd (map (relabel (first_label (dsTargetCol data))) (snd st)) = Ok (pwNodes p) /\
    criteria_on (mrows (dsX data)) z yz (fst st) (snd st) p /\
    Forall2 (fun st p => Path2Unnormalized nd (map (relabel (original (fst st))) (snd st)) = Ok (pwNodes p) /\
      criteria_on (mrows (dsX data)) z yz (fst st) (snd st) p) stages ps.
Proof.
  intros cd est data f y lambMin keep fuelL fuel data' paths Hc Hn HX HY Hsd E.
  apply consistent_shaped in Hc. pose proof Hc as (_ & _ & _ & _ & Ht & _).
  unfold NestedLasso in E.
  destruct (NewNormalizedData (dsX data) (dsY data)) as [nd| |] eqn:En; try discriminate E. cbn [bind] in E.
  destruct (initial_inv data _ f y nd Hc Hn HX HY Hsd En) as (A1 & A2 & A3 & A4 & A5).
  destruct (nested_loop _ _ _ _ _ _ _ _ _ _) as [raw| |] eqn:El; try discriminate E. cbn [bind] in E.
  destruct (loop_stages cd data _ f y lambMin keep fuelL Hc Hn HY Hsd _ _ _ _ _ _ _ _ A5 El) as (stages & paths' & Hst & Hres & Hrel).
  cbn [app] in Hres. subst raw.
  destruct (unnormalize_paths nd paths') as [ps| |] eqn:Eu; try discriminate E. cbn [bind] in E. injection E as <- <-.
  apply unnorm_forall2 in Eu.
  destruct stages as [|st stages]; [destruct Hrel|]. destruct paths' as [|p0 paths']; [destruct Hrel|].
  destruct Hrel as ((R1 & R1') & R2).
  inversion Eu as [|? p ? ps' (B1 & B2 & B3) B4]. subst. rewrite R1 in B1. rewrite <- Ht in B1.
  exists nd, (normed (dsX data) f), (map (fun v => (v - mean y) / sdev y) y), st, stages, p, ps'.
  split; [reflexivity|]. split; [intros i j Hi Hj; apply A1; lia|]. split; [exact A4|]. split; [reflexivity|].
  split; [exact Hst|]. split; [reflexivity|]. split; [exact B1|]. split; [exact (criteria_nodes _ _ _ _ _ _ _ B2 B3 R1')|].
  clear - R2 B4. revert ps' B4. induction R2 as [|s q stages paths' Hr R2 IH]; intros ps' B4; inversion B4; subst; constructor.
  - destruct Hr as (R1 & R1'). destruct H1 as (B1 & B2 & B3). rewrite R1 in B1. split; [exact B1|].
    exact (criteria_nodes _ _ _ _ _ _ _ B2 B3 R1').
  - apply IH. assumption.
Qed.
Print Assumptions C62_nested.

(** When the target is the last column the first path is labelled like the others. *)
Lemma seq_original : forall n v, (0 <= v < Z.of_nat n)%Z -> original (seq 0 n) v = v.
Proof. intros n v Hv. unfold original. rewrite seq_nth by lia. lia. Qed.

Theorem C62_target_last : forall (cd : CDParam XR) est (data : Dataset XR) f y lambMin keep fuelL fuel data' paths,
  consistent data -> dsTargetCol data = Z.of_nat (mcols (dsX data)) -> NoDup (dsNames data) ->
  (forall i j, (i < mrows (dsX data))%nat -> (j < mcols (dsX data))%nat -> mval (dsX data) i j = XFin (f i j)) ->
  dsY data = map XFin y -> sdev y <> 0 ->
  NestedLasso cd est data lambMin keep fuelL fuel = Ok (data', paths) ->
  exists nd z yz stages,
    NewNormalizedData (dsX data) (dsY data) = Ok nd /\
    (forall i j, (i < mrows (dsX data))%nat -> (j < mcols (dsX data))%nat -> mval (ndX nd) i j = XFin (z i j)) /\
    ndy nd = map XFin yz /\
    nested_stages cd lambMin keep fuelL data (mrows (dsX data)) z yz (seq 0 (mcols (dsX data))) stages /\
    Forall2 (fun st p => Path2Unnormalized nd (map (relabel (original (fst st))) (snd st)) = Ok (pwNodes p) /\
      criteria_on (mrows (dsX data)) z yz (fst st) (snd st) p) stages paths.
Proof.
  intros cd est data f y lambMin keep fuelL fuel data' paths Hc Ht Hn HX HY Hsd E.
  destruct (C62_nested cd est data f y lambMin keep fuelL fuel data' paths Hc Hn HX HY Hsd E)
    as (nd & z & yz & st & stages & p & ps & A1 & A2 & A3 & A4 & A5 & A6 & A7 & A8 & A9).
  exists nd, z, yz, (st :: stages). split; [exact A1|]. split; [exact A2|]. split; [exact A3|]. split; [exact A5|].
  subst paths. constructor; [|exact A9]. split; [|exact A8]. rewrite <- A7. f_equal.
  assert (Hst : fst st = seq 0 (mcols (dsX data)) /\ lars_on cd lambMin fuelL (mrows (dsX data)) z yz (fst st) (snd st)).
  { inversion A5; subst; split; try reflexivity; assumption. }
  destruct Hst as (Hs1 & est1 & nd1 & _ & M2 & _ & _ & EL). rewrite Hs1 in M2. rewrite seq_length in M2.
  destruct (lars_path XR XR_OrdLaws ltac:(cbn; apply Rltb_false; lra) eq_refl cd est1 nd1 lambMin fuelL _ EL) as (P1 & _ & _).
  apply map_ext_in. intros n Hin. unfold relabel. f_equal. apply map_ext_in. intros v Hv.
  rewrite Forall_forall in P1. destruct (P1 n Hin) as (_ & _ & P2 & _). specialize (P2 v Hv). rewrite M2 in P2.
  rewrite Hs1, seq_original by exact P2. unfold first_label. rewrite Ht.
  destruct (Z.ltb_spec (Z.of_nat (mcols (dsX data))) v); [lia|reflexivity].
Qed.
Print Assumptions C62_target_last.

Lemma go_int_one : forall n, go_int (N := XR) (nmul (n := XR) (fin 1) (nofnat n)) = Z.of_nat n.
Proof.
  intro n. unfold go_int, nofnat. 
  change ((if Rltb (1 * IZR (Z.of_nat n)) 0 then (- (up (- (1 * IZR (Z.of_nat n))) - 1))%Z else (up (1 * IZR (Z.of_nat n)) - 1)%Z) = Z.of_nat n).
  rewrite Rmult_1_l.
  rewrite (proj2 (Rltb_false _ _)) by (apply IZR_le; lia).
  rewrite <- (tech_up (IZR (Z.of_nat n)) (Z.of_nat n + 1)) by (rewrite plus_IZR; lra). lia.
Qed.

Lemma ex62_crit : forall (d : Dataset XR) f v crit, rmat (dsX d) f -> mrows (dsX d) = 3%nat -> dsY d = fins ex62_y ->
  (0 <= v < Z.of_nat (mcols (dsX d)))%Z ->
  exists c, GetCriteria (mkPath d [mkLN (N := XR) (fins [0]) (fin 2) [v]]) crit = Ok c.
Proof.
  intros d f v crit H1 H2 H3 H4.
  destruct (C61_criteria (mkPath d [mkLN (N := XR) (fins [0]) (fin 2) [v]]) f ex62_y crit) as (vals & E & _); cbn [lpDset lpNodes].
  - exact H1.
  - lia.
  - exact H3.
  - rewrite H2. reflexivity.
  - intros n [<-|[]]. exists [0]. cbn [lnSelection lnCoeff]. split; [reflexivity|]. split; [reflexivity|]. split; [discriminate|]. split.
    + repeat constructor.
    + intros w [<-|[]]. exact H4.
  - exists vals. exact E.
Qed.

(** both rounds select b, which is feature 0 of the second round *)
Example C62_example : consistent ex62 /\ NoDup (dsNames ex62) /\ sdev ex62_y <> 0 /\
  exists data' p1 p2, NestedLasso halfCD (ex62_X, []) ex62 (fin 1) (fin 1) 3 2 = Ok (data', [p1; p2]) /\
    map lnSelection (pwNodes p1) = [[1%Z]] /\ map lnSelection (pwNodes p2) = [[1%Z]].
Proof.
  split; [unfold consistent; cbn; repeat split; lia|].
  split; [cbn; repeat constructor; cbn; intuition discriminate|].
  split; [destruct (sdev3 (-3/7) (8/7) (-5/7)) as (_ & Y2); [lra|lra|]; unfold ex62_y; rewrite Y2; lra|].
  pose proof ex62_lars1 as L1. destruct (ex62_lars2 ex62_X) as (est2 & L2).
  set (cur := normalized_in_place ex62 (ex62_nd ex62_X)).
  set (cur2 := normalized_in_place ex62_s (ex62_nd (dsX ex62_s))).
  assert (C1 : forall crit, exists c, GetCriteria (mkPath cur [mkLN (N := XR) (fins [0]) (fin 2) [1%Z]]) crit = Ok c).
  { intro crit. apply (ex62_crit cur ex62_f); [intros i j _ _; reflexivity|reflexivity|reflexivity|cbn; lia]. }
  assert (C2 : forall crit, exists c, GetCriteria (mkPath cur2 [mkLN (N := XR) (fins [0]) (fin 2) [0%Z]]) crit = Ok c).
  { intro crit. apply (ex62_crit cur2 (fun i _ => ex62_f i 1)); [|reflexivity|reflexivity|].
    - intros i j Hi Hj. change (mrows (dsX cur2)) with 3%nat in Hi. change (mcols (dsX cur2)) with 1%nat in Hj.
      assert (j = 0%nat) by lia. subst j. destruct i as [|[|[|i]]]; try lia; reflexivity.
    - change (mcols (dsX cur2)) with 1%nat. lia. }
  destruct (C1 Aicc) as (a1 & E1). destruct (C1 Bic) as (b1 & F1). destruct (C2 Aicc) as (a2 & E2). destruct (C2 Bic) as (b2 & F2).
  assert (RUN : nested_loop halfCD ex62 (fin 1) (fin 1) 3 2 (ex62_X, []) cur (ex62_nd ex62_X) [] =
    Ok [mkPWC [mkLN (N := XR) (fins [0]) (fin 2) [1%Z]] a1 b1; mkPWC [mkLN (N := XR) (fins [0]) (fin 2) [1%Z]] a2 b2]).
  { cbn [nested_loop]. rewrite L1. cbn [bind]. rewrite E1. cbn [bind]. rewrite F1. cbn [bind].
    rewrite go_int_one. change (mcols (dsX cur)) with 3%nat.
    change (map_selections ex62 (dsNames cur) [mkLN (N := XR) (fins [0]) (fin 2) [1%Z]]) with (Ok [mkLN (N := XR) (fins [0]) (fin 2) [1%Z]]).
    cbn [bind]. change (Z.of_nat 3 <=? 2)%Z with false. cbv iota.
    match goal with |- bind (GetSubset cur ?l) _ = _ => change l with [1%Z] end.
    replace (GetSubset cur [1%Z]) with (Ok ex62_s) by (symmetry; exact ex62_subset). cbn [bind]. rewrite ex62_norm2. cbn [bind]. fold cur2.
    rewrite L2. cbn [bind]. rewrite E2. cbn [bind]. rewrite F2. cbn [bind].
    rewrite go_int_one. change (mcols (dsX cur2)) with 1%nat.
    change (map_selections ex62 (dsNames cur2) [mkLN (N := XR) (fins [0]) (fin 2) [0%Z]]) with (Ok [mkLN (N := XR) (fins [0]) (fin 2) [1%Z]]).
    reflexivity. }
  assert (U : Path2Unnormalized (ex62_nd ex62_X) [mkLN (N := XR) (fins [0]) (fin 2) [1%Z]] = Ok [mkLN (N := XR) (fins [0]) (fin 2) [1%Z]]).
  { cmp. apply mkLN_eq; cmp. }
  unfold NestedLasso. rewrite ex62_norm. cbn [bind]. fold cur. rewrite RUN. cbn [bind unnormalize_paths pwNodes pwAicc pwBic].
  rewrite U. cbn [bind]. do 3 eexists. split; [reflexivity|]. split; reflexivity.
Qed.

(** ** C63 *)

(** In binary64: if keep*n, truncated, is below n for every possible number n
    of features, NestedLasso ends after at most one round per feature, unless
    one of its LassoLars calls does not end. *)
Theorem C63_ends : forall o (cd : CDParam (F64 o)) est (data : Dataset (F64 o)) (lambMin keep : F64 o) fuelL fuel,
  (forall n, (3 <= n <= mcols (dsX data))%nat -> (go_int (keep * nofnat n)%num < Z.of_nat n)%Z) ->
  (forall n, (n < 3)%nat -> (go_int (keep * nofnat n)%num <= 2)%Z) ->
  (1 <= fuel)%nat -> (mcols (dsX data) <= fuel)%nat ->
  NestedLasso cd est data lambMin keep fuelL fuel = Fuel ->
  exists est' nd', LassoLars cd est' nd' lambMin fuelL = Fuel.
Proof.
  intros o cd est data lambMin keep fuelL fuel. apply nested_ends; [apply f64_OrdLaws|reflexivity|reflexivity].
Qed.
Print Assumptions C63_ends.

Lemma go_int_lt : forall k n, k < 1 -> (1 <= n)%nat -> (go_int (N := XR) (nmul (n := XR) (XFin k) (nofnat n)) < Z.of_nat n)%Z.
Proof.
  intros k n Hk Hn. assert (HN : 1 <= INR n) by (apply (le_INR 1); exact Hn). rewrite INR_IZR_INZ in HN.
  unfold go_int, nofnat. cbn [nmul nofZ ntrunc XR xmul xtrunc].
  destruct (Rltb (k * IZR (Z.of_nat n)) 0) eqn:El.
  - apply Rltb_true in El. destruct (archimed (- (k * IZR (Z.of_nat n)))) as (U1 & U2).
    assert (0 < IZR (up (- (k * IZR (Z.of_nat n))))) by lra. apply lt_IZR in H. lia.
  - destruct (archimed (k * IZR (Z.of_nat n))) as (U1 & U2).
    apply lt_IZR. rewrite minus_IZR. assert (k * IZR (Z.of_nat n) < IZR (Z.of_nat n)) by nra. lra.
Qed.

(** With exact arithmetic keep < 1 is enough. *)
Theorem C63_keep_below_one : forall (cd : CDParam XR) est (data : Dataset XR) lambMin k fuelL fuel, k < 1 ->
  (1 <= fuel)%nat -> (mcols (dsX data) <= fuel)%nat ->
  NestedLasso cd est data lambMin (XFin k) fuelL fuel = Fuel ->
  exists est' nd', LassoLars cd est' nd' lambMin fuelL = Fuel.
Proof.
  intros cd est data lambMin k fuelL fuel Hk. apply (nested_ends XR).
  - apply XR_OrdLaws. 
  - cbn. apply Rltb_false. lra.
  - reflexivity.
  - intros n Hn. apply go_int_lt; [exact Hk|lia].
  - intros [|n] Hn.
    + unfold go_int, nofnat. cbn [nmul nofZ ntrunc XR xmul xtrunc Z.of_nat]. rewrite Rmult_0_r.
      rewrite (proj2 (Rltb_false 0 0)) by lra. destruct (archimed 0) as (U1 & U2).
      enough (up 0 <= 1)%Z by lia. apply le_IZR. lra.
    + pose proof (go_int_lt k (S n) Hk ltac:(lia)). lia.
Qed.
Print Assumptions C63_keep_below_one.

(** In binary64, too, keep < 1 is enough (rounding keep*n never reaches n). *)
Theorem C63_keep_below_one_binary64 : forall o (cd : CDParam (F64 o)) est (data : Dataset (F64 o)) (lambMin keep : F64 o) fuelL fuel,
  valid_binary 53 1024 keep = true -> nltb keep n1 = true -> (Z.of_nat (mcols (dsX data)) <= 2 ^ 53)%Z ->
  (1 <= fuel)%nat -> (mcols (dsX data) <= fuel)%nat ->
  NestedLasso cd est data lambMin keep fuelL fuel = Fuel ->
  exists est' nd', LassoLars cd est' nd' lambMin fuelL = Fuel.
Proof.
  intros o cd est data lambMin keep fuelL fuel V L Hc H1 Hf.
  assert (G : forall n, (1 <= n)%nat -> (Z.of_nat n <= 2 ^ 53)%Z -> (go_int (keep * nofnat n)%num < Z.of_nat n)%Z).
  { intros n Hn Hn2. pose proof (Flt.f64_mul_below keep (Z.of_nat n) V L ltac:(lia)) as H.
    unfold go_int. change (ntrunc (keep * nofnat n)%num) with (f64_trunc (SFmul 53 1024 keep (f64_ofZ (Z.of_nat n)))).
    destruct (f64_trunc _); [exact H|]. assert (0 <= 2 ^ 63)%Z by (apply Z.pow_nonneg; lia). lia. }
  apply C63_ends; [|intros [|n] Hn|exact H1|exact Hf].
  - intros n Hn. apply G; lia.
  - unfold go_int. destruct keep; cbn; lia.
  - assert (go_int (keep * nofnat (S n))%num < Z.of_nat (S n))%Z by (apply G; [lia|]; apply Z.le_trans with 2%Z; [lia|vm_compute; discriminate]). lia.
Qed.
Print Assumptions C63_keep_below_one_binary64.

(** Not so for keep = 1: from three features on the number asked for never drops. *)
Example C63_keep_one : forall o, map (fun n => go_int (N := F64 o) (nmul (n := F64 o) n1 (nofnat n))) [3; 4; 100]%nat = [3; 4; 100]%Z.
Proof. intro o. vm_compute. reflexivity. Qed.

(** the largest keep below one *)
Example C63_example : let keep := S754_finite false 9007199254740991 (-53) in
  valid_binary 53 1024 keep = true /\ nltb (n := F64 fenv0) keep n1 = true /\
  map (fun n => go_int (N := F64 fenv0) (nmul (n := F64 fenv0) keep (nofnat n))) [1; 3; 4; 5; 100; 1000]%nat = [0; 2; 3; 4; 99; 999]%Z.
Proof. vm_compute. auto. Qed.

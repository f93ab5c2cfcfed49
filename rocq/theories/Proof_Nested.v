(** Lemmas behind C55, C62 and C63: MapSelectionByName and NestedLasso. *)
From Coq Require Import Reals Lra String Permutation Sorting.Sorted.
From Verif Require Import Base Num Mat Model_Node Model_Util Proof_Util RSum Stats Proof_XR Model_Norm Proof_Norm Model_Fit Model_CSV Proof_CSV Proof_CSV2
  Model_Lars Proof_Lars Props_Lars Model_Path Spec_Path Proof_Path Model_Nested Spec_Nested.
Open Scope list_scope.

Section Map.
  Variable N : Num.

  (** the loop works on the entries one by one *)
  Lemma map_selection : forall (orig : Dataset N) names sel (g : Z -> Z),
    (forall v, In v sel -> exists name, getz names v = Ok name /\ FeatNoByName orig name = Ok (g v)) ->
    MapSelectionByName orig names sel = Ok (map g sel).
  Proof.
    intros orig names sel g H. unfold MapSelectionByName.
    assert (G : forall rest done, incl rest sel -> for_loop (length done) (length rest) (fun i sel =>
        do s <- getn sel i; do name <- getz names s; do f <- FeatNoByName orig name; setn sel i f) (done ++ rest)
      = Ok (done ++ map g rest)).
    { induction rest as [|v rest IH]; intros done Hin; cbn [length for_loop map]; [reflexivity|].
      destruct (H v (Hin v (or_introl eq_refl))) as (name & E1 & E2).
      rewrite (proj2 (getn_ok _ _ _ v)) by (rewrite nth_error_app2, Nat.sub_diag by lia; reflexivity).
      cbn [bind]. rewrite E1. cbn [bind]. rewrite E2. cbn [bind].
      rewrite setn_lt by (rewrite app_length; cbn; lia). cbn [bind].
      assert (EU : upd (done ++ v :: rest) (length done) (g v) = (done ++ [g v]) ++ rest).
      { clear. generalize (g v). intro b. induction done as [|x d IH]; cbn; [reflexivity|rewrite IH; reflexivity]. }
      rewrite EU. specialize (IH (done ++ [g v])). rewrite app_length in IH. cbn [length] in IH.
      replace (length done + 1)%nat with (S (length done)) in IH by lia.
      rewrite IH; [rewrite <- app_assoc; reflexivity|]. intros w Hw. apply Hin. right. exact Hw. }
    apply (G sel []). apply incl_refl.
  Qed.

  Lemma map_selections_ok : forall (orig : Dataset N) names g path,
    (forall n v, In n path -> In v (lnSelection n) -> exists name, getz names v = Ok name /\ FeatNoByName orig name = Ok (g v)) ->
    map_selections orig names path = Ok (map (relabel g) path).
  Proof.
    intros orig names g. induction path as [|n path IH]; intro H; [reflexivity|]. cbn [map_selections map].
    rewrite (map_selection orig names (lnSelection n) g) by (intros v Hv; apply (H n v (or_introl eq_refl) Hv)). cbn [bind].
    rewrite IH by (intros n' v Hn Hv; apply (H n' v (or_intror Hn) Hv)). reflexivity.
  Qed.
End Map.

(** ** Normalising a normalised matrix again changes nothing *)
Open Scope R_scope.

Lemma nnd_inv : forall (X : Mat XR) f y nd, rmat X f -> (0 < mrows X)%nat -> y <> [] ->
  NewNormalizedData X (fins y) = Ok nd ->
  mrows (ndX nd) = mrows X /\ mcols (ndX nd) = mcols X /\ rmat (ndX nd) (normed X f) /\ ndy nd = ydone y.
Proof.
  intros X f y nd HX Hr Hy E.
  destruct (nnd_ok X f HX Hr y Hy) as (X' & E' & R1 & C1 & M1).
  - intros c Hc. destruct (Rlt_dec (sdev (rcol (mrows X) f c)) tol10) as [H|H]; [|lra].
    rewrite (nnd_panic X f HX Hr y Hy) in E by (exists c; split; [exact Hc|exact H]). discriminate E.
  - rewrite E' in E. injection E as <-. cbn [ndX ndy]. tauto.
Qed.

Definition std_col (n : nat) (f : nat -> nat -> R) (c : nat) : Prop :=
  mean (rcol n f c) = 0 /\ (sdev (rcol n f c) = 1 \/ sdev (rcol n f c) < tol10).

Lemma normed_std : forall X f c, (0 < mrows X)%nat -> std_col (mrows X) (normed X f) c.
Proof.
  intros X f c Hr. assert (Hne := rcol_ne (mrows X) f c Hr).
  assert (Ec : rcol (mrows X) (normed X f) c = map (fun v => (v - mean (rcol (mrows X) f c)) / scale (mrows X) f c) (rcol (mrows X) f c)).
  { unfold rcol at 1 3. rewrite map_map. reflexivity. }
  split; rewrite Ec; [apply normalized_mean; exact Hne|].
  unfold scale. destruct (Rltb _ _) eqn:El.
  - right. apply Rltb_true in El.
    rewrite (map_ext _ (fun x => 1 * x + (- mean (rcol (mrows X) f c)))) by (intro v; field).
    rewrite sdev_affine by exact Hne. rewrite Rabs_R1. lra.
  - left. apply Rltb_false in El. apply normalized_sdev. pose proof tol10_pos. lra.
Qed.

Lemma renorm : forall (X : Mat XR) z, (forall c, (c < mcols X)%nat -> std_col (mrows X) z c) ->
  forall i j, (j < mcols X)%nat -> normed X z i j = z i j.
Proof.
  intros X z H i j Hj. destruct (H j Hj) as (Hm & Hs). unfold normed. rewrite Hm.
  assert (E : scale (mrows X) z j = 1).
  { unfold scale. destruct Hs as [->|Hs].
    - rewrite (proj2 (Rltb_false 1 tol10)); [reflexivity|]. unfold tol10. change (10 ^ 10)%Z with 10000000000%Z. lra.
    - rewrite (proj2 (Rltb_true _ _)) by exact Hs. reflexivity. }
  rewrite E. field.
Qed.

Lemma pick_in : forall (p : LassoLarsPath XR) k v, In v (PickMostRelevantFeatures p k) ->
  exists n, In n (lpNodes p) /\ In v (lnSelection n).
Proof.
  intros p k v H. destruct (pick_spec XR p k) as (m & _ & _ & E & _). rewrite E in H.
  apply (proj1 (keep_first_In _ _)) in H. unfold sel_of in H. apply in_flat_map in H. destruct H as (n & Hn & Hv).
  exists n. split; [|exact Hv]. rewrite <- (firstn_skipn m (lpNodes p)). apply in_or_app. left. exact Hn.
Qed.

Section Nested.
  Variables (cd : CDParam XR) (data : Dataset XR) (t : nat) (f : nat -> nat -> R) (y : list R) (lambMin keep : XR) (fuelL : nat).
  Hypothesis Hsh : shaped XR data t.
  Hypothesis Hnames : NoDup (dsNames data).
  Hypothesis HX : rmat (dsX data) f.
  Hypothesis HY : dsY data = fins y.
  Hypothesis Hsd : sdev y <> 0.
  Let nr := mrows (dsX data).
  Let nc := mcols (dsX data).
  Let z := normed (dsX data) f.
  Let yz := map (fun v => (v - mean y) / sdev y) y.

  Lemma y_ne : y <> [].
  Proof. intros ->. apply Hsd. reflexivity. Qed.

  Lemma yz_ne : yz <> [].
  Proof. pose proof y_ne. unfold yz. destruct y; [congruence|discriminate]. Qed.

  Lemma ydone_y : ydone y = fins yz.
  Proof. unfold ydone. rewrite Reqb_ne by exact Hsd. reflexivity. Qed.

  Lemma ydone_yz : ydone yz = fins yz.
  Proof.
    assert (Hs : sdev yz = 1) by (apply normalized_sdev; exact Hsd).
    assert (Hm : mean yz = 0) by (apply normalized_mean; exact y_ne).
    unfold ydone. rewrite Reqb_ne by (rewrite Hs; lra). rewrite Hs, Hm. f_equal.
    rewrite <- (map_id yz) at 2. apply map_ext. intro v. field.
  Qed.

  (** the current dataset consists of the columns [cols] of the normalised data *)
  Definition cur_inv (cols : list nat) (g : Z -> Z) (cur : Dataset XR) (nd : NormalizedData XR) : Prop :=
    exists tc, shaped XR cur tc /\ dsX cur = ndX nd /\ dsY cur = fins yz /\ ndy nd = fins yz /\
      mrows (dsX cur) = nr /\ mcols (dsX cur) = length cols /\
      (forall s, In s cols -> (s < nc)%nat) /\
      rmat (dsX cur) (fun i j => z i (nth j cols 0%nat)) /\
      (forall j, (j < length cols)%nat -> nth (skip tc j) (dsNames cur) EmptyString = nth (skip t (nth j cols 0%nat)) (dsNames data) EmptyString) /\
      (forall v, (0 <= v < Z.of_nat (length cols))%Z -> exists name, getz (dsNames cur) v = Ok name /\ FeatNoByName data name = Ok (g v)).

  Definition rel_nodes (g : Z -> Z) (st : list nat * list (LassoLarsNode XR)) (p : PathWithCrit XR) : Prop :=
    pwNodes p = map (relabel g) (snd st) /\ criteria_on nr z yz (fst st) (snd st) p.

  Definition rel_first (g : Z -> Z) (stages : list (list nat * list (LassoLarsNode XR))) (paths : list (PathWithCrit XR)) : Prop :=
    match stages, paths with
    | s :: stages, p :: paths => rel_nodes g s p /\ Forall2 (fun s p => rel_nodes (original (fst s)) s p) stages paths
    | _, _ => False
    end.

  Lemma name_no : forall s, (s < nc)%nat -> FeatNoByName data (nth (skip t s) (dsNames data) EmptyString) = Ok (Z.of_nat s).
  Proof.
    intros s Hs. destruct Hsh as (_ & _ & _ & Hn & Ht & Htl). fold nc in Hn, Htl.
    destruct (feat_name_no XR data t s Hnames Ht ltac:(lia) ltac:(lia)) as (name & _ & E & F).
    apply nth_error_nth with (d := EmptyString) in E. rewrite E. exact F.
  Qed.

  Lemma subset_inv : forall cols g cur nd feats s nd', cur_inv cols g cur nd ->
    feats <> [] -> (forall v, In v feats -> (0 <= v < Z.of_nat (length cols))%Z) ->
    GetSubset cur feats = Ok s -> NewNormalizedData (dsX s) (dsY s) = Ok nd' ->
    cur_inv (map (fun v => nth (Z.to_nat v) cols 0%nat) feats) (original (map (fun v => nth (Z.to_nat v) cols 0%nat) feats))
      (normalized_in_place s nd') nd'.
  Proof.
    intros cols g cur nd feats s nd' (tc & S1 & S2 & S3 & S4 & S5 & S6 & S7 & S8 & S9 & _) Hne Hin E En.
    set (cols' := map (fun v => nth (Z.to_nat v) cols 0%nat) feats).
    assert (Hl : length cols' = length feats) by apply map_length.
    assert (Hnth : forall k, (k < length feats)%nat -> nth k cols' 0%nat = nth (Z.to_nat (nth k feats 0%Z)) cols 0%nat).
    { intros k Hk. unfold cols'. rewrite (nth_indep _ _ (nth (Z.to_nat 0%Z) cols 0%nat)) by (rewrite map_length; exact Hk).
      apply (map_nth (fun v => nth (Z.to_nat v) cols 0%nat)). }
    assert (Hr : forall k, (k < length feats)%nat -> (Z.to_nat (nth k feats 0%Z) < length cols)%nat).
    { intros k Hk. specialize (Hin (nth k feats 0%Z) (nth_In _ _ Hk)). lia. }
    destruct (subset_ok XR cur tc feats S1 Hne) as (s' & E' & A1 & A2 & A3 & A4 & A5 & A6); [rewrite S6; exact Hin|].
    rewrite E' in E. injection E as ->.
    pose proof Hsh as (D1 & _). fold nr in D1.
    assert (Hs : rmat (dsX s) (fun i k => z i (nth k cols' 0%nat))).
    { intros i k Hi Hk. rewrite A2, S5 in Hi. rewrite A3 in Hk. rewrite A6 by (rewrite ?S5; lia).
      rewrite Hnth by exact Hk. apply S8; [lia|]. rewrite S6. apply Hr. exact Hk. }
    rewrite A4, S3 in En.
    assert (Hmr : (0 < mrows (dsX s))%nat) by (rewrite A2, S5; exact D1).
    destruct (nnd_inv (dsX s) _ yz nd' Hs Hmr yz_ne En) as (B1 & B2 & B3 & B4).
    rewrite ydone_yz in B4.
    assert (HB : rmat (ndX nd') (fun i k => z i (nth k cols' 0%nat))).
    { intros i k Hi Hk. rewrite B3 by assumption. apply (f_equal XFin).
      apply (renorm (dsX s) (fun i k => z i (nth k cols' 0%nat))); [|rewrite B2 in Hk; exact Hk].
      intros c _. assert (Ec : rcol (mrows (dsX s)) (fun i k => z i (nth k cols' 0%nat)) c = rcol nr z (nth c cols' 0%nat)).
      { unfold rcol. rewrite A2, S5. reflexivity. }
      unfold std_col. rewrite Ec. apply (normed_std (dsX data) f). exact D1. }
    pose proof A1 as (T1 & T2 & T3 & T4 & T5 & T6).
    exists (length feats). unfold normalized_in_place. cbn [dsX dsY dsNames dsTargetCol].
    split; [|split; [reflexivity|split; [exact B4|split; [exact B4|split; [congruence|split; [congruence|split; [|split; [exact HB|split]]]]]]]].
    - unfold shaped. cbn [dsX dsY dsNames dsTargetCol]. rewrite B1, B2. split; [exact T1|]. split; [exact T2|].
      split; [|split; [exact T4|split; [exact T5|exact T6]]]. rewrite B4, <- T3, A4, S3. reflexivity.
    - intros c Hc. unfold cols' in Hc. apply in_map_iff in Hc. destruct Hc as (v & <- & Hv). apply S7. apply nth_In.
      specialize (Hin v Hv). lia.
    - intros j Hj. rewrite Hl in Hj. unfold skip at 1. destruct (Nat.ltb_spec j (length feats)); [|lia].
      rewrite A5, app_nth1 by (rewrite map_length; exact Hj).
      rewrite (nth_indep _ _ (nth (skip tc (Z.to_nat 0%Z)) (dsNames cur) EmptyString)) by (rewrite map_length; exact Hj).
      rewrite (map_nth (fun f0 => nth (skip tc (Z.to_nat f0)) (dsNames cur) EmptyString)).
      rewrite S9 by (apply Hr; exact Hj). rewrite Hnth by exact Hj. reflexivity.
    - intros v Hv. rewrite Hl in Hv. exists (nth (skip t (nth (Z.to_nat v) cols' 0%nat)) (dsNames data) EmptyString). split.
      + rewrite <- (Z2Nat.id v) by lia. rewrite getz_nat. rewrite Nat2Z.id.
        rewrite (getn_lt _ _ _ EmptyString) by (rewrite T4, A3; lia).
        apply f_equal. rewrite A5, app_nth1 by (rewrite map_length; lia).
        rewrite (nth_indep _ _ (nth (skip tc (Z.to_nat 0%Z)) (dsNames cur) EmptyString)) by (rewrite map_length; lia).
        rewrite (map_nth (fun f0 => nth (skip tc (Z.to_nat f0)) (dsNames cur) EmptyString)).
        rewrite S9 by (apply Hr; lia). rewrite Hnth by lia. reflexivity.
      + unfold original. apply name_no. apply S7. rewrite Hnth by lia. apply nth_In. apply Hr. lia.
  Qed.

  Lemma lars_est_path : forall est nd path est', LassoLars_est cd est nd lambMin fuelL = Ok (path, est') ->
    LassoLars cd est nd lambMin fuelL = Ok path.
  Proof.
    intros est nd path est' E. unfold LassoLars_est in E. unfold LassoLars.
    destruct (lars_start cd est (ndX nd) (ndy nd)); try discriminate E. cbn [bind] in *.
    destruct (lars_loop cd (ndX nd) (ndy nd) lambMin fuelL a); try discriminate E. cbn [bind] in *.
    injection E as <- _. reflexivity.
  Qed.

  Lemma loop_stages : forall fuel est cols g cur nd paths res, cur_inv cols g cur nd ->
    nested_loop cd data lambMin keep fuelL fuel est cur nd paths = Ok res ->
    exists stages paths', nested_stages cd lambMin keep fuelL data nr z yz cols stages /\
      res = paths ++ paths' /\ rel_first g stages paths'.
  Proof.
    induction fuel as [|fuel IH]; intros est cols g cur nd paths res Hinv E; [discriminate E|].
    cbn [nested_loop] in E.
    destruct (LassoLars_est cd est nd lambMin fuelL) as [(path, est')| |] eqn:EL; try discriminate E. cbn [bind] in E.
    apply lars_est_path in EL.
    destruct (GetCriteria (mkPath cur path) Aicc) as [aicc| |] eqn:EA; try discriminate E. cbn [bind] in E.
    destruct (GetCriteria (mkPath cur path) Bic) as [bic| |] eqn:EB; try discriminate E. cbn [bind] in E.
    pose proof Hinv as (tc & S1 & S2 & S3 & S4 & S5 & S6 & S7 & S8 & S9 & S10).
    destruct (lars_path XR XR_OrdLaws ltac:(cbn; apply Rltb_false; lra) eq_refl cd est nd lambMin fuelL path EL) as (P1 & _ & _).
    rewrite <- S2, S6 in P1.
    assert (Hsel : forall n v, In n path -> In v (lnSelection n) -> (0 <= v < Z.of_nat (length cols))%Z).
    { intros n v Hn Hv. rewrite Forall_forall in P1. destruct (P1 n Hn) as (_ & _ & H & _). exact (H v Hv). }
    rewrite (map_selections_ok XR data (dsNames cur) g path) in E by (intros n v Hn Hv; apply S10; exact (Hsel n v Hn Hv)).
    cbn [bind] in E.
    assert (Hlars : lars_on cd lambMin fuelL nr z yz cols path).
    { exists est, nd. rewrite <- S2. split; [exact S5|]. split; [exact S6|]. split; [|split; [exact S4|exact EL]].
      intros i j Hi Hj. apply S8; lia. }
    assert (Hcrit : forall nodes, criteria_on nr z yz cols path (mkPWC nodes aicc bic)).
    { intro nodes. exists cur. split; [exact S5|]. split; [exact S6|]. split; [|split; [exact S3|split; [exact EA|exact EB]]].
      intros i j Hi Hj. apply S8; lia. }
    rewrite S6 in E.
    change (go_int (keep * nofnat (length cols))%num) with (next_num keep cols) in E.
    destruct (Z.leb_spec (next_num keep cols) 2) as [Hle|Hgt].
    - injection E as <-. exists [(cols, path)], [mkPWC (map (relabel g) path) aicc bic].
      split; [apply stages_last; assumption|]. split; [reflexivity|]. split; [split; [reflexivity|apply Hcrit]|constructor].
    - destruct (GetSubset cur _) as [s| |] eqn:ES; try discriminate E. cbn [bind] in E.
      destruct (NewNormalizedData (dsX s) (dsY s)) as [nd'| |] eqn:EN; try discriminate E. cbn [bind] in E.
      set (feats := PickMostRelevantFeatures (mkPath cur path) (next_num keep cols)) in *.
      assert (Hf : forall v, In v feats -> (0 <= v < Z.of_nat (length cols))%Z).
      { intros v Hv. apply pick_in in Hv. destruct Hv as (n & Hn & Hv). exact (Hsel n v Hn Hv). }
      assert (Hne : feats <> []).
      { intro C. rewrite C in ES. unfold GetSubset, new_dense in ES. cbn [length] in ES. rewrite orb_true_r in ES. discriminate ES. }
      pose proof (subset_inv cols g cur nd feats s nd' Hinv Hne Hf ES EN) as Hinv'.
      destruct (IH _ _ _ _ _ _ _ Hinv' E) as (stages & paths' & Hst & Hres & Hrel).
      exists ((cols, path) :: stages), (mkPWC (map (relabel g) path) aicc bic :: paths').
      split; [|split].
      + eapply stages_next; [exact Hlars|exact Hgt|reflexivity|exact Hst].
      + rewrite Hres, <- app_assoc. reflexivity.
      + split; [split; [reflexivity|apply Hcrit]|]. clear - Hrel Hst.
        destruct stages as [|s0 stages]; [destruct Hrel|]. destruct paths' as [|p paths']; [destruct Hrel|].
        destruct Hrel as (Hr1 & Hr2). constructor; [|exact Hr2].
        assert (Ec : fst s0 = map (fun v => nth (Z.to_nat v) cols 0%nat) feats) by (inversion Hst; reflexivity).
        unfold rel_nodes in *. rewrite Ec at 1. exact Hr1.
  Qed.
End Nested.

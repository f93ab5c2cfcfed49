(** Lemmas behind C63: NestedLasso ends. *)
From Coq Require Import Reals Lra String Permutation Sorting.Sorted.
From Verif Require Import Base Num Mat Model_Node Model_Util Proof_Util Model_Norm Model_Fit Model_CSV Proof_CSV Proof_CSV2
  Proof_Lazy Model_Lars Proof_Lars Proof_Lars3 Props_Lars Model_Path Spec_Path Proof_Path Model_Nested.
Open Scope list_scope.

Section Ends.
  Variable N : Num.
  Hypothesis OL : OrdLaws N.
  Hypothesis Hm1 : nltb (n0 (N := N)) (nofZ (-1)) = false.
  Hypothesis H0 : nisnan (n0 (N := N)) = false.

  Lemma keep_first_grow : forall l s f, (forall v, In v s -> v = f \/ In v l) ->
    (length (keep_first (l ++ s)) <= S (length (keep_first l)))%nat.
  Proof.
    intros l s f H. change (S (length (keep_first l))) with (length (f :: keep_first l)).
    apply NoDup_incl_length; [apply keep_first_NoDup|]. intros v Hv.
    apply (proj1 (keep_first_In _ _)) in Hv. apply in_app_or in Hv. destruct Hv as [Hv|Hv].
    - right. apply keep_first_In. exact Hv.
    - destruct (H v Hv) as [->|Hl]; [left; reflexivity|right; apply keep_first_In; exact Hl].
  Qed.

  (** at most one feature enters per node *)
  Lemma pick_length : forall (cd : CDParam N) est nd lambMin fuelL path d k,
    LassoLars cd est nd lambMin fuelL = Ok path ->
    (Z.of_nat (length (PickMostRelevantFeatures (mkPath d path) k)) <= Z.max 1 k)%Z.
  Proof.
    intros cd est nd lambMin fuelL path d k E.
    destruct (lars_path N OL Hm1 H0 cd est nd lambMin fuelL path E) as (_ & A & B).
    destruct (pick_spec N (mkPath d path) k) as (m & M1 & M2 & M3 & M4 & _). rewrite M3. cbn [lpNodes] in *.
    destruct m as [|[|m]].
    - cbn. lia.
    - destruct path as [|a path]; [cbn; lia|]. destruct (B a path eq_refl) as (_ & feat & _ & Es & _).
      unfold sel_of. cbn [firstn flat_map]. rewrite Es. cbn. lia.
    - specialize (M4 (S m) ltac:(lia)).
      destruct (nth_error path m) as [a|] eqn:Ea; [|apply nth_error_None in Ea; lia].
      destruct (nth_error path (S m)) as [b|] eqn:Eb; [|apply nth_error_None in Eb; lia].
      assert (Hsplit : exists l2, path = firstn m path ++ a :: b :: l2).
      { exists (skipn (S (S m)) path). rewrite <- (firstn_skipn m path) at 1. f_equal.
        clear - Ea Eb. revert path Ea Eb. induction m as [|m IH]; intros [|x path] Ea Eb; try discriminate.
        - cbn in *. destruct path; [discriminate|]. injection Ea as ->. injection Eb as ->. reflexivity.
        - cbn [skipn]. apply IH; assumption. }
      destruct Hsplit as (l2 & Hsplit).
      destruct (A _ a b l2 Hsplit) as (_ & f & Hab).
      assert (Hone : forall v, In v (lnSelection b) -> v = f \/ In v (lnSelection a)).
      { intros v Hv. destruct Hab as [(P & _)|(P & _)].
        - apply (Permutation_in _ P) in Hv. destruct Hv as [Hv|Hv]; [left; congruence|right; exact Hv].
        - right. apply (Permutation_in _ (Permutation_sym P)). right. exact Hv. }
      assert (F1 : sel_of N (S (S m)) path = sel_of N (S m) path ++ lnSelection b).
      { unfold sel_of. rewrite (firstn_S_nth_error _ _ _ _ Eb), flat_map_app. cbn [flat_map]. rewrite app_nil_r. reflexivity. }
      assert (F2 : sel_of N (S m) path = sel_of N m path ++ lnSelection a).
      { unfold sel_of. rewrite (firstn_S_nth_error _ _ _ _ Ea), flat_map_app. cbn [flat_map]. rewrite app_nil_r. reflexivity. }
      rewrite F1.
      assert (G := keep_first_grow (sel_of N (S m) path) (lnSelection b) f).
      specialize (G ltac:(intros v Hv; destruct (Hone v Hv) as [->|Hi]; [left; reflexivity|right; rewrite F2; apply in_or_app; right; exact Hi])).
      lia.
  Qed.

  (** ** nothing but LassoLars can run out of fuel *)
  Lemma eachi_nf : forall B C (body : nat -> C -> B -> res B) l i s, (forall i c x, body i c x <> Fuel) -> for_eachi i l body s <> Fuel.
  Proof.
    intros B C body. induction l as [|c l IH]; intros i s H; cbn [for_eachi]; [discriminate|].
    apply bind_nf; [apply H|]. intro x. apply IH. exact H.
  Qed.
  Lemma getz_nf : forall B (l : list B) i, getz l i <> Fuel.
  Proof. intros B l i. unfold getz. destruct (_ <? _)%Z; [discriminate|apply getn_nf]. Qed.
  Lemma setz_nf : forall B (l : list B) i a, setz l i a <> Fuel.
  Proof. intros B l i a. unfold setz. destruct (_ <? _)%Z; [discriminate|apply setn_nf]. Qed.
  Lemma at_nf : forall (M : Mat N) i j, mat_at M i j <> Fuel.
  Proof. intros M i j. unfold mat_at. destruct (_ && _)%bool; discriminate. Qed.
  Lemma atz_nf : forall (M : Mat N) i j, mat_atz M i j <> Fuel.
  Proof. intros M i j. unfold mat_atz. destruct (_ || _)%bool; [discriminate|apply at_nf]. Qed.
  Lemma set_nf : forall (M : Mat N) i j v, mat_set M i j v <> Fuel.
  Proof. intros M i j v. unfold mat_set. destruct (_ && _)%bool; discriminate. Qed.
  Lemma new_nf : forall a b, new_dense (N := N) a b <> Fuel.
  Proof. intros a b. unfold new_dense. destruct (_ || _)%bool; discriminate. Qed.
  Lemma featno_nf : forall (d : Dataset N) name, FeatNoByName d name <> Fuel.
  Proof.
    intros d name. unfold FeatNoByName. generalize 0%Z. induction (dsNames d) as [|x l IH]; intro i; [discriminate|].
    destruct (String.eqb x name); [discriminate|apply IH].
  Qed.
  Lemma mulvec_nf' : forall (M : Mat N) v, mat_mulvec M v <> Fuel.
  Proof. intros M v. unfold mat_mulvec. destruct (_ =? _)%nat; discriminate. Qed.

  Ltac nf2 := repeat first
    [ apply at_nf | apply atz_nf | apply set_nf | apply new_nf | apply getz_nf | apply setz_nf | apply featno_nf
    | apply getn_nf | apply setn_nf | apply mulvec_nf' | discriminate
    | apply bind_nf; [|intro] | apply for_loop_nf; intros | apply for_each_nf; intros | apply eachi_nf; intros
    | match goal with |- (if ?c then _ else _) <> Fuel => destruct c end
    | match goal with |- (let '(_, _) := ?c in _) <> Fuel => destruct c end ].

  Lemma mean_nf : forall l : list N, Mean l <> Fuel.
  Proof. intro l. unfold Mean. nf2. Qed.
  Lemma std_nf : forall l : list N, Std l <> Fuel.
  Proof. intro l. unfold Std. nf2; apply mean_nf. Qed.
  Lemma nnd_nf : forall (X : Mat N) y, NewNormalizedData X y <> Fuel.
  Proof. intros X y. unfold NewNormalizedData. nf2; try apply mean_nf; try apply std_nf. Qed.
  Lemma criteria_nf : forall (p : LassoLarsPath N) c, GetCriteria p c <> Fuel.
  Proof.
    intros p c. unfold GetCriteria. apply eachi_nf. intros i n s.
    apply bind_nf; [unfold Selected2Model, go_make; nf2|]. intro model.
    apply bind_nf; [unfold GetDesignMatrix; nf2|]. intro D.
    apply bind_nf; [unfold Rss, Predict; nf2|]. intro r. apply setn_nf.
  Qed.
  Lemma selections_nf : forall (d : Dataset N) names path, map_selections d names path <> Fuel.
  Proof.
    intros d names. induction path as [|n path IH]; cbn [map_selections]; [discriminate|].
    apply bind_nf; [unfold MapSelectionByName; nf2|]. intro s. apply bind_nf; [exact IH|]. intro r. discriminate.
  Qed.
  Lemma subset_nf : forall (d : Dataset N) feats, GetSubset d feats <> Fuel.
  Proof. intros d feats. unfold GetSubset, GetFeatName. nf2. Qed.

  (** ** shapes *)
  Lemma for_loop_pres : forall S (P : S -> Prop) (body : nat -> S -> res S) n a s s',
    (forall i s s', P s -> body i s = Ok s' -> P s') -> P s -> for_loop a n body s = Ok s' -> P s'.
  Proof.
    intros S P body. induction n as [|n IH]; intros a s s' H Hs E; cbn [for_loop] in E.
    - injection E as <-. exact Hs.
    - destruct (body a s) as [s1| |] eqn:E1; try discriminate E. cbn [bind] in E.
      apply (IH _ _ _ H (H _ _ _ Hs E1) E).
  Qed.
  Lemma for_eachi_pres : forall A S (P : S -> Prop) (body : nat -> A -> S -> res S) l a s s',
    (forall i c s s', P s -> body i c s = Ok s' -> P s') -> P s -> for_eachi a l body s = Ok s' -> P s'.
  Proof.
    intros A S P body. induction l as [|c l IH]; intros a s s' H Hs E; cbn [for_eachi] in E.
    - injection E as <-. exact Hs.
    - destruct (body a c s) as [s1| |] eqn:E1; try discriminate E. cbn [bind] in E.
      apply (IH _ _ _ H (H _ _ _ _ Hs E1) E).
  Qed.
  Lemma set_cols : forall (M M' : Mat N) i j v, mat_set M i j v = Ok M' -> mcols M' = mcols M.
  Proof. intros M M' i j v E. unfold mat_set in E. destruct (_ && _)%bool; [|discriminate E]. injection E as <-. reflexivity. Qed.

  Lemma subset_cols : forall (d s : Dataset N) feats, GetSubset d feats = Ok s -> mcols (dsX s) = length feats.
  Proof.
    intros d s feats E. unfold GetSubset in E.
    destruct (new_dense _ _) as [X| |] eqn:E1; try discriminate E. cbn [bind] in E.
    destruct (for_loop _ _ _ X) as [X'| |] eqn:E2; try discriminate E. cbn [bind] in E.
    destruct (for_eachi _ _ _ _) as [names| |] eqn:E3; try discriminate E. cbn [bind] in E.
    destruct (getz _ _) as [tn| |] eqn:E4; try discriminate E. cbn [bind] in E.
    destruct (setn _ _ _) as [names'| |] eqn:E5; try discriminate E. cbn [bind] in E. injection E as <-. cbn [dsX].
    assert (H1 : mcols X = length feats) by (unfold new_dense in E1; destruct (_ || _)%bool; [discriminate E1|]; injection E1 as <-; reflexivity).
    apply (for_loop_pres _ (fun X => mcols X = length feats) _ _ _ _ _) in E2; [exact E2| |exact H1].
    intros i s s' Hs Eb. apply (for_eachi_pres _ _ (fun X => mcols X = length feats) _ _ _ _ _) in Eb; [exact Eb| |exact Hs].
    intros j c s1 s2 Hs1 Ec. destruct (mat_atz _ _ _) as [x| |]; try discriminate Ec. cbn [bind] in Ec.
    apply set_cols in Ec. congruence.
  Qed.

  Lemma nnd_cols : forall (X : Mat N) y nd, NewNormalizedData X y = Ok nd -> mcols (ndX nd) = mcols X.
  Proof.
    intros X y nd E. unfold NewNormalizedData in E.
    destruct (Std y) as [sy| |]; try discriminate E. cbn [bind] in E.
    destruct (Mean y) as [my| |]; try discriminate E. cbn [bind] in E.
    destruct (for_loop 0 (length y) _ _) as [y'| |]; try discriminate E. cbn [bind] in E.
    destruct (for_loop 0 (mcols X) _ _) as [st| |] eqn:E1; try discriminate E. cbn [bind] in E.
    destruct st as [[[[tmp X'] mu] std] hb]. injection E as <-. cbn [ndX].
    apply (for_loop_pres _ (fun st : list N * Mat N * list N * list N * bool => let '(_, X', _, _, _) := st in mcols X' = mcols X) _ _ _ _ _) in E1; [exact E1| |reflexivity].
    clear. intros i [[[[tmp X1] mu] std] hb] s' HX E.
    destruct (for_loop 0 (mrows X) _ tmp) as [tmp'| |]; try discriminate E. cbn [bind] in E.
    destruct (Std tmp') as [s| |]; try discriminate E. cbn [bind] in E.
    destruct (setn std i s) as [std'| |]; try discriminate E. cbn [bind] in E.
    destruct (Mean tmp') as [m| |]; try discriminate E. cbn [bind] in E.
    destruct (setn mu i m) as [mu'| |]; try discriminate E. cbn [bind] in E.
    destruct (_ && _)%bool; [discriminate E|].
    destruct (if nltb s (ndec 1 (-10)) then (true, n1) else (hb, s)) as (hb', st').
    destruct (for_loop 0 (mrows X) _ X1) as [X2| |] eqn:E2; try discriminate E. cbn [bind] in E. injection E as <-.
    apply (for_loop_pres _ (fun Y => mcols Y = mcols X) _ _ _ _ _) in E2; [exact E2| |exact HX].
    intros r Y Y' HY Eb. destruct (getn tmp' r) as [tv| |]; try discriminate Eb. cbn [bind] in Eb.
    apply set_cols in Eb. congruence.
  Qed.

  Lemma lars_est_fuel : forall (cd : CDParam N) est nd lambMin fuelL,
    LassoLars_est cd est nd lambMin fuelL = Fuel -> LassoLars cd est nd lambMin fuelL = Fuel.
  Proof.
    intros cd est nd lambMin fuelL E. unfold LassoLars_est in E. unfold LassoLars.
    destruct (lars_start cd est (ndX nd) (ndy nd)); try discriminate E; [|reflexivity]. cbn [bind] in *.
    destruct (lars_loop cd (ndX nd) (ndy nd) lambMin fuelL a); try discriminate E; reflexivity.
  Qed.
  Lemma lars_est_ok : forall (cd : CDParam N) est nd lambMin fuelL path est',
    LassoLars_est cd est nd lambMin fuelL = Ok (path, est') -> LassoLars cd est nd lambMin fuelL = Ok path.
  Proof.
    intros cd est nd lambMin fuelL path est' E. unfold LassoLars_est in E. unfold LassoLars.
    destruct (lars_start cd est (ndX nd) (ndy nd)); try discriminate E. cbn [bind] in *.
    destruct (lars_loop cd (ndX nd) (ndy nd) lambMin fuelL a); try discriminate E. cbn [bind] in *.
    injection E as <- _. reflexivity.
  Qed.

  Lemma bind_fuel : forall A B (x : res A) (f : A -> res B), bind x f = Fuel -> x <> Fuel -> exists a, x = Ok a /\ f a = Fuel.
  Proof. intros A B [a| |] f E Hn; cbn [bind] in E; [exists a; tauto|discriminate E|contradiction]. Qed.

  Lemma loop_ends : forall (cd : CDParam N) data lambMin keep fuelL K,
    (forall n, (3 <= n <= K)%nat -> (go_int (keep * nofnat n)%num < Z.of_nat n)%Z) ->
    (forall n, (n < 3)%nat -> (go_int (keep * nofnat n)%num <= 2)%Z) ->
    forall fuel est cur nd paths, (mcols (dsX cur) <= K)%nat -> (1 <= fuel)%nat -> (mcols (dsX cur) <= fuel)%nat ->
    nested_loop cd data lambMin keep fuelL fuel est cur nd paths = Fuel ->
    exists est' nd', LassoLars cd est' nd' lambMin fuelL = Fuel.
  Proof.
    intros cd data lambMin keep fuelL K Hk Hsmall. induction fuel as [|fuel IH]; intros est cur nd paths HK H1 Hf E; [lia|].
    cbn [nested_loop] in E.
    destruct (LassoLars_est cd est nd lambMin fuelL) as [(path, est')| |] eqn:EL; try discriminate E;
      [|apply lars_est_fuel in EL; exists est, nd; exact EL].
    apply lars_est_ok in EL. cbn [bind] in E.
    apply bind_fuel in E; [|apply criteria_nf]. destruct E as (aicc & _ & E).
    apply bind_fuel in E; [|apply criteria_nf]. destruct E as (bic & _ & E).
    apply bind_fuel in E; [|apply selections_nf]. destruct E as (np & _ & E).
    destruct (Z.leb_spec (go_int (keep * nofnat (mcols (dsX cur)))%num) 2) as [|Hgt]; [discriminate E|].
    apply bind_fuel in E; [|apply subset_nf]. destruct E as (s & ES & E).
    apply bind_fuel in E; [|apply nnd_nf]. destruct E as (nd' & EN & E).
    assert (H3 : (3 <= mcols (dsX cur))%nat).
    { destruct (Nat.lt_ge_cases (mcols (dsX cur)) 3) as [C|C]; [|lia]. specialize (Hsmall _ C). lia. }
    specialize (Hk (mcols (dsX cur)) ltac:(lia)).
    apply subset_cols in ES. apply nnd_cols in EN.
    pose proof (pick_length cd est nd lambMin fuelL path cur (go_int (keep * nofnat (mcols (dsX cur)))%num) EL) as HL.
    rewrite <- ES in HL.
    apply (IH _ (normalized_in_place s nd') nd' _) in E; [exact E| | |]; unfold normalized_in_place; cbn [dsX]; lia.
  Qed.

  Lemma unnorm_nf : forall (nd : NormalizedData N) paths, unnormalize_paths nd paths <> Fuel.
  Proof.
    intros nd. induction paths as [|p paths IH]; cbn [unnormalize_paths]; [discriminate|].
    apply bind_nf.
    - generalize (pwNodes p). induction l as [|n l IHl]; cbn [Path2Unnormalized]; [discriminate|].
      apply bind_nf; [|intro; apply bind_nf; [exact IHl|discriminate]].
      unfold unnormalize_node, LinearTransformationBias, LinearNormalizationTransformation. nf2.
    - intro nodes. apply bind_nf; [exact IH|]. intro r. discriminate.
  Qed.

  Lemma nested_ends : forall (cd : CDParam N) est (data : Dataset N) lambMin keep fuelL fuel,
    (forall n, (3 <= n <= mcols (dsX data))%nat -> (go_int (keep * nofnat n)%num < Z.of_nat n)%Z) ->
    (forall n, (n < 3)%nat -> (go_int (keep * nofnat n)%num <= 2)%Z) ->
    (1 <= fuel)%nat -> (mcols (dsX data) <= fuel)%nat ->
    NestedLasso cd est data lambMin keep fuelL fuel = Fuel ->
    exists est' nd', LassoLars cd est' nd' lambMin fuelL = Fuel.
  Proof.
    intros cd est data lambMin keep fuelL fuel Hk Hs H1 Hf E. unfold NestedLasso in E.
    apply bind_fuel in E; [|apply nnd_nf]. destruct E as (nd & EN & E). apply nnd_cols in EN.
    destruct (nested_loop _ _ _ _ _ _ _ _ _ _) as [paths| |] eqn:EL; try discriminate E.
    - exfalso. cbn [bind] in E. apply bind_fuel in E; [|apply nnd_nf]. destruct E as (nd2 & _ & E).
      apply bind_fuel in E; [|apply unnorm_nf]. destruct E as (x & _ & E). discriminate E.
    - apply (loop_ends cd data lambMin keep fuelL (mcols (dsX data)) Hk Hs fuel) in EL; [exact EL| |exact H1|];
        unfold normalized_in_place; cbn [dsX]; lia.
  Qed.
End Ends.

(** Property C86: best subset selection does not depend on the units of the
    features and of the target or on the order of the rows, in exact
    arithmetic.  [rescaled] and [reshifted] are defined in Spec_Subset.v,
    [criterion] and [good_svd] in Spec_Fit.v. *)
From Coq Require Import Reals Lra Lia Psatz List Permutation.
From Verif Require Import Base Num Mat RSum Model_Node Model_Util Model_Fit Model_Search Spec_Fit Spec_Subset.
From Verif Require Import Proof_Node Proof_Node2 Proof_Models Proof_Util Proof_XR Proof_Norm Proof_Fit Proof_Fit2 Proof_Search5.
From Verif Require Import Proof_Search Proof_Search2 Proof_Search3 Proof_Search4 Proof_Search5.
From Verif Require Import Proof_Subset Props_Search Props_Fit Props_EndToEnd.
Import ListNotations.
Open Scope R_scope.

Lemma sel_below : forall m k, (k < NumFeatures m)%nat -> (selcol m k < length m)%nat.
Proof. intros m k Hk. destruct (nth_error_sel m k Hk) as (j & Ej & Hj & _). unfold selcol. rewrite Ej, Nat2Z.id. exact Hj. Qed.

Lemma sel_first : forall m, nth 0 m false = true -> selcol m 0 = 0%nat.
Proof. intros [|[|] m] H; try discriminate H. reflexivity. Qed.

Lemma sel_pos : forall m k, nth 0 m false = true -> (0 < k)%nat -> (k < NumFeatures m)%nat -> (0 < selcol m k)%nat.
Proof.
  intros [|[|] m] k H H0 Hk; try discriminate H. destruct k as [|k]; [lia|]. rewrite NumFeatures_cons in Hk.
  rewrite selcol_true_S by lia. lia.
Qed.

Definition all_criteria : list (Z -> Z -> XR -> XR) := [Aic; Aicc; Bic].

Lemma criteria_scale : forall c k n q r, In c all_criteria -> (1 <= n)%Z -> 0 < q -> 0 <= r ->
  c k n (fin (q * r)) = nadd (n := XR) (c k n (fin r)) (fin (IZR n * ln q)).
Proof.
  intros c k n q r Hc Hn Hq Hr.
  assert (Hqr : 0 <= q * r) by nra.
  assert (G : forall a, nadd (n := XR) (fin a) (nlogr n (q * r)) =
    nadd (n := XR) (nadd (n := XR) (fin a) (nlogr n r)) (fin (IZR n * ln q))).
  { intro a. rewrite nlogr_scale by auto. unfold nlogr. destruct (Rltb 0 r).
    - rewrite !xadd_fin. apply (f_equal fin). ring.
    - reflexivity. }
  destruct Hc as [<-|[<-|[<-|[]]]]; rewrite ?aic_xr, ?aicc_xr, ?bic_xr by auto; apply G.
Qed.

(** the residual sum of squares of every model is multiplied by s^2 *)
Section Core.
  Variables (svd : Mat XR -> SVD XR) (X X' : Mat XR) (x x' : nat -> nat -> R) (y y' : list R).
  Hypothesis (HX : rmat X x) (HX' : rmat X' x') (Hrows : mrows X' = mrows X) (Hcols : mcols X' = mcols X).
  Hypothesis (Hr : (0 < mrows X)%nat) (Hy : length y = mrows X) (Hy' : length y' = mrows X).
  Hypothesis (Hg : good_svd svd X) (Hg' : good_svd svd X').

  Lemma models_scale : forall model s, length model = mcols X -> In true model -> s <> 0 ->
    (forall r r', least (mrows X) (NumFeatures model) (sub x model) y r ->
       least (mrows X) (NumFeatures model) (sub x' model) y' r' -> r' = s * s * r) ->
    exists D D' w w' r, GetDesignMatrix model X = Ok D /\ GetDesignMatrix model X' = Ok D' /\
      Fit svd D (fins y) = Ok (fins w) /\ Fit svd D' (fins y') = Ok (fins w') /\
      Rss D (fins w) (fins y) = Ok (fin r) /\ Rss D' (fins w') (fins y') = Ok (fin (s * s * r)) /\ 0 <= r.
  Proof using HX HX' Hcols Hg Hg' Hr Hrows Hy Hy'.
    intros model s Hl Ht Hs H.
    assert (Hn : (0 < NumFeatures model)%nat) by (apply nonempty_nf; auto).
    destruct (model_fit svd X x y HX Hr Hy Hg model Hl Hn) as (D & w & r & E1 & E2 & E3 & Lw & Er & Pr & Mr & _).
    destruct (model_fit svd X' x' y' HX' ltac:(lia) ltac:(lia) Hg' model ltac:(lia) Hn)
      as (D' & w' & r' & F1 & F2 & F3 & Lw' & Er' & Pr' & Mr' & _).
    rewrite Hrows in *.
    assert (E : r' = s * s * r) by (apply H; split; eauto).
    exists D, D', w, w', r. rewrite <- E. repeat (split; [assumption|]). assumption.
  Qed.

  Lemma criterion_scale : forall model s, length model = mcols X -> In true model -> s <> 0 ->
    (forall r r', least (mrows X) (NumFeatures model) (sub x model) y r ->
       least (mrows X) (NumFeatures model) (sub x' model) y' r' -> r' = s * s * r) ->
    forall c, In c all_criteria -> exists v, criterion svd c X (fins y) model = Ok v /\
      criterion svd c X' (fins y') model = Ok (nadd (n := XR) v (fin (INR (mrows X) * ln (s * s)))).
  Proof using HX HX' Hcols Hg Hg' Hr Hrows Hy Hy'.
    intros model s Hl Ht Hs H c Hc.
    destruct (models_scale model s Hl Ht Hs H) as (D & D' & w & w' & r & E1 & F1 & E2 & F2 & E3 & F3 & Pr).
    unfold criterion. rewrite E1, F1. cbn [bind]. rewrite E2, F2. cbn [bind]. rewrite E3, F3. cbn [bind].
    eexists. split; [reflexivity|]. unfold fins. rewrite !map_length, Hy, Hy'. rewrite INR_IZR_INZ.
    apply f_equal. apply criteria_scale; auto; [lia|].
    destruct (Rtotal_order s 0) as [|[|]]; [nra|contradiction|nra].
  Qed.
End Core.

Lemma rescaled_least : forall m n x y x' y' p a s, rescaled m n x y x' y' p a s -> length y = m ->
  forall model, length model = n ->
  forall r r', least m (NumFeatures model) (sub x model) y r -> least m (NumFeatures model) (sub x' model) y' r' ->
    r' = s * s * r.
Proof.
  intros m n x y x' y' p a s RS Ly model Hl.
  assert (Lp : length p = m) by (rewrite (Permutation_length (rs_p _ _ _ _ _ _ _ _ _ RS)), seq_length; reflexivity).
  apply (least_affine m (NumFeatures model) (sub x model) (sub x' model) y y' p
    (fun j => a (selcol model j)) (fun _ => 0) s 0 (rs_p _ _ _ _ _ _ _ _ _ RS) (rs_s _ _ _ _ _ _ _ _ _ RS)).
  - intros j Hj. apply (rs_a _ _ _ _ _ _ _ _ _ RS). rewrite <- Hl. apply sel_below. exact Hj.
  - intros i j Hi Hj. unfold sub. rewrite (rs_x _ _ _ _ _ _ _ _ _ RS i _ Hi); [ring|]. rewrite <- Hl. apply sel_below. exact Hj.
  - intros i Hi. rewrite (rs_y _ _ _ _ _ _ _ _ _ RS).
    rewrite (nth_indep _ 0 (s * nth 0 y 0)) by (rewrite map_length; lia).
    rewrite (map_nth (fun i => s * nth i y 0) p 0%nat). ring.
  - left. auto.
Qed.

Lemma reshifted_least : forall m n x y x' y' p a b s t, reshifted m n x y x' y' p a b s t -> length y = m ->
  forall model, length model = n -> nth 0 model false = true ->
  forall r r', least m (NumFeatures model) (sub x model) y r -> least m (NumFeatures model) (sub x' model) y' r' ->
    r' = s * s * r.
Proof.
  intros m n x y x' y' p a b s t RS Ly model Hl H0.
  assert (P : Permutation p (seq 0 m)) by apply (rt_p _ _ _ _ _ _ _ _ _ _ _ RS).
  assert (Lp : length p = m) by (rewrite (Permutation_length P), seq_length; reflexivity).
  assert (Z0 : selcol model 0 = 0%nat) by (apply sel_first; exact H0).
  assert (Q : forall j, (0 < j)%nat -> (j < NumFeatures model)%nat -> (0 < selcol model j < n)%nat).
  { intros j Hj Hk. split; [apply sel_pos; auto|]. rewrite <- Hl. apply sel_below. exact Hk. }
  apply (least_affine m (NumFeatures model) (sub x model) (sub x' model) y y' p
    (fun j => if (j =? 0)%nat then 1 else a (selcol model j))
    (fun j => if (j =? 0)%nat then 0 else b (selcol model j)) s t P (rt_s _ _ _ _ _ _ _ _ _ _ _ RS)).
  - intros j Hj. destruct (Nat.eqb_spec j 0); [lra|]. apply (rt_a _ _ _ _ _ _ _ _ _ _ _ RS). apply Q; lia.
  - intros i j Hi Hj. unfold sub. destruct (Nat.eqb_spec j 0) as [->|N].
    + rewrite Z0. destruct (rt_bias _ _ _ _ _ _ _ _ _ _ _ RS i Hi) as (_ & ->).
      destruct (rt_bias _ _ _ _ _ _ _ _ _ _ _ RS (nth i p 0%nat) (perm_below m p i P Hi)) as (-> & _). ring.
    + apply (rt_x _ _ _ _ _ _ _ _ _ _ _ RS i _ Hi). apply Q; lia.
  - intros i Hi. rewrite (rt_y _ _ _ _ _ _ _ _ _ _ _ RS).
    rewrite (nth_indep _ 0 (s * nth 0 y 0 + t)) by (rewrite map_length; lia).
    rewrite (map_nth (fun i => s * nth i y 0 + t) p 0%nat). reflexivity.
  - right. split.
    + destruct model as [|[|] model]; try discriminate H0. rewrite NumFeatures_cons. lia.
    + intros i Hi. unfold sub. rewrite Z0. apply (rt_bias _ _ _ _ _ _ _ _ _ _ _ RS i Hi).
Qed.

(** ** The value of every criterion *)

(** Every model, every criterion: the value changes by n log(s^2), whatever the
    units of the features and the order of the rows. *)
Theorem C86_units : forall svd (X X' : Mat XR) x x' y y' p a s,
  rmat X x -> rmat X' x' -> mrows X' = mrows X -> mcols X' = mcols X -> (0 < mrows X)%nat -> length y = mrows X ->
  good_svd svd X -> good_svd svd X' -> rescaled (mrows X) (mcols X) x y x' y' p a s ->
  forall model, length model = mcols X -> In true model ->
  forall c, In c [Aic; Aicc; Bic] -> exists v, criterion svd c X (fins y) model = Ok v /\
    criterion svd c X' (fins y') model = Ok (nadd (n := XR) v (XFin (INR (mrows X) * ln (s * s)))).
Proof.
  intros svd X X' x x' y y' p a s HX HX' Hrows Hcols Hr Hy Hg Hg' RS model Hl Ht.
  apply (criterion_scale svd X X' x x' y y'); auto.
  - rewrite (rs_y _ _ _ _ _ _ _ _ _ RS), map_length, (Permutation_length (rs_p _ _ _ _ _ _ _ _ _ RS)), seq_length. reflexivity.
  - apply (rs_s _ _ _ _ _ _ _ _ _ RS).
  - apply (rescaled_least _ _ _ _ _ _ _ _ _ RS Hy model Hl).
Qed.
Print Assumptions C86_units.

(** With a bias column the features and the target may also be shifted, for the
    models that contain the bias. *)
Theorem C86_zero_points : forall svd (X X' : Mat XR) x x' y y' p a b s t,
  rmat X x -> rmat X' x' -> mrows X' = mrows X -> mcols X' = mcols X -> (0 < mrows X)%nat -> length y = mrows X ->
  good_svd svd X -> good_svd svd X' -> reshifted (mrows X) (mcols X) x y x' y' p a b s t ->
  forall model, length model = mcols X -> nth 0 model false = true ->
  forall c, In c [Aic; Aicc; Bic] -> exists v, criterion svd c X (fins y) model = Ok v /\
    criterion svd c X' (fins y') model = Ok (nadd (n := XR) v (XFin (INR (mrows X) * ln (s * s)))).
Proof.
  intros svd X X' x x' y y' p a b s t HX HX' Hrows Hcols Hr Hy Hg Hg' RS model Hl H0.
  apply (criterion_scale svd X X' x x' y y'); auto.
  - rewrite (rt_y _ _ _ _ _ _ _ _ _ _ _ RS), map_length, (Permutation_length (rt_p _ _ _ _ _ _ _ _ _ _ _ RS)), seq_length. reflexivity.
  - rewrite <- H0. apply nth_In. destruct model; [discriminate H0|cbn; lia].
  - apply (rt_s _ _ _ _ _ _ _ _ _ _ _ RS).
  - apply (reshifted_least _ _ _ _ _ _ _ _ _ _ _ RS Hy model Hl H0).
Qed.
Print Assumptions C86_zero_points.

(** ** The models selected *)

Lemma xlt_shift : forall (u v : XR) d, nltb (n := XR) (nadd (n := XR) u (fin d)) (nadd (n := XR) v (fin d)) = nltb u v.
Proof.
  intros [| | |u] [| | |v] d; try reflexivity.
  change (Rltb (u + d) (v + d) = Rltb u v). destruct (Rltb u v) eqn:E.
  - apply Rltb_true in E. apply Rltb_true. lra.
  - apply Rltb_false in E. apply Rltb_false. lra.
Qed.

Lemma xadd_inj : forall (u v : XR) d, nadd (n := XR) u (fin d) = nadd (n := XR) v (fin d) <-> u = v.
Proof.
  intros [| | |u] [| | |v] d; split; intro H; try reflexivity; try discriminate H.
  - change (XFin (u + d) = XFin (v + d)) in H. injection H as H. replace v with u by lra. reflexivity.
  - injection H as ->. reflexivity.
Qed.

Lemma xneg_add : forall (u : XR) d, nneg (n := XR) (nadd (n := XR) u (fin d)) = nadd (n := XR) (nneg (n := XR) u) (fin (- d)).
Proof. intros [| | |u] d; try reflexivity. change (XFin (- (u + d)) = XFin (- u + - d)). f_equal. ring. Qed.

(** [fit] gives the coefficients and the score ScoreWorker computes *)
Definition scored (svd : Mat XR -> SVD XR) (X : Mat XR) (y : list R) (fit : list bool -> list XR * XR) : Prop :=
  forall m, length m = mcols X -> In true m -> fit_score svd X (fins y) m = Ok (fit m).

Section Search.
  Variables (svd : Mat XR -> SVD XR) (X X' : Mat XR) (x x' : nat -> nat -> R) (y y' : list R).
  Variables (p : list nat) (a : nat -> R) (s : R) (fit fit' : list bool -> list XR * XR).
  Hypothesis (HX : rmat X x) (HX' : rmat X' x') (Hrows : mrows X' = mrows X) (Hcols : mcols X' = mcols X).
  Hypothesis (Hr : (0 < mrows X)%nat) (Hy : length y = mrows X).
  Hypothesis (Hg : good_svd svd X) (Hg' : good_svd svd X').
  Hypothesis (RS : rescaled (mrows X) (mcols X) x y x' y' p a s).
  Hypothesis (Hfit : scored svd X y fit) (Hfit' : scored svd X' y' fit').

  Lemma score_moves : forall m, length m = mcols X -> In true m ->
    nisnan (snd (fit m)) = false /\
    snd (fit' m) = nadd (n := XR) (snd (fit m)) (fin (- (INR (mrows X) * ln (s * s)))).
  Proof using HX HX' Hcols Hfit Hfit' Hg Hg' Hr Hrows Hy RS.
    intros m Hl Ht.
    assert (Ly' : length y' = mrows X).
    { rewrite (rs_y _ _ _ _ _ _ _ _ _ RS), map_length, (Permutation_length (rs_p _ _ _ _ _ _ _ _ _ RS)), seq_length. reflexivity. }
    destruct (models_scale svd X X' x x' y y' HX HX' Hrows Hcols Hr Hy Ly' Hg Hg' m s Hl Ht (rs_s _ _ _ _ _ _ _ _ _ RS)
      (rescaled_least _ _ _ _ _ _ _ _ _ RS Hy m Hl)) as (D & D' & w & w' & r & E1 & F1 & E2 & F2 & E3 & F3 & Pr).
    pose proof (Hfit m Hl Ht) as E. pose proof (Hfit' m ltac:(lia) Ht) as F. unfold fit_score in E, F.
    rewrite E1 in E. rewrite F1 in F. cbn [bind] in E, F. rewrite E2 in E. rewrite F2 in F. cbn [bind] in E, F.
    rewrite E3 in E. rewrite F3 in F. cbn [bind] in E, F. 
    assert (E' : snd (fit m) = nneg (n := XR) (Aicc (Z.of_nat (NumFeatures m)) (Z.of_nat (mrows X)) (fin r)))
      by exact (eq_sym (f_equal (fun z => match z with Ok v => snd v | _ => XNaN end) E)).
    assert (F' : snd (fit' m) = nneg (n := XR) (Aicc (Z.of_nat (NumFeatures m)) (Z.of_nat (mrows X')) (fin (s * s * r))))
      by exact (eq_sym (f_equal (fun z => match z with Ok v => snd v | _ => XNaN end) F)).
    rewrite E', F', Hrows.
    assert (S2 : 0 < s * s) by (pose proof (rs_s _ _ _ _ _ _ _ _ _ RS); destruct (Rtotal_order s 0) as [|[|]]; [nra|contradiction|nra]).
    split.
    - rewrite aicc_xr by (auto; lia). unfold nlogr. destruct (Rltb 0 r); [rewrite xadd_fin|]; reflexivity.
    - rewrite (criteria_scale Aicc) by (auto; try lia; right; left; reflexivity).
      rewrite xneg_add, INR_IZR_INZ. reflexivity.
  Qed.

  Lemma brute_moves : forall bnd bnd' maxq maxq' cutoff cutoff' fuel fuel',
    (1 <= mcols X)%nat -> (2 ^ S (mcols X) - 1 <= fuel)%nat -> (2 ^ S (mcols X) - 1 <= fuel')%nat ->
    exists h h', BruteForceSelect (mkProblem (mrows X) (mcols X) fit bnd (repeat false (mcols X)) maxq cutoff) fuel = Ok h /\
      BruteForceSelect (mkProblem (mrows X') (mcols X') fit' bnd' (repeat false (mcols X')) maxq' cutoff') fuel' = Ok h' /\
      hsBestScore h' = nadd (n := XR) (hsBestScore h) (fin (- (INR (mrows X) * ln (s * s)))) /\
      forall m, length m = mcols X -> In true m -> (snd (fit m) = hsBestScore h <-> snd (fit' m) = hsBestScore h').
  Proof using HX HX' Hcols Hfit Hfit' Hg Hg' Hr Hrows Hy RS.
    intros bnd bnd' maxq maxq' cutoff cutoff' fuel fuel' H1 Hf Hf'.
    set (d := - (INR (mrows X) * ln (s * s))).
    assert (N1 : forall m, length m = mcols X -> (0 < NumFeatures m)%nat -> nisnan (snd (fit m)) = false).
    { intros m Lm Fm. apply score_moves; auto. apply nonempty_nf; auto. }
    assert (N2 : forall m, length m = mcols X -> (0 < NumFeatures m)%nat ->
      snd (fit' m) = nadd (n := XR) (snd (fit m)) (fin d)).
    { intros m Lm Fm. apply score_moves; auto. apply nonempty_nf; auto. }
    assert (N3 : forall m, length m = mcols X' -> (0 < NumFeatures m)%nat -> nisnan (snd (fit' m)) = false).
    { intros m Lm Fm. rewrite N2 by (auto; lia). specialize (N1 m ltac:(lia) Fm). destruct (snd (fit m)); auto. }
    destruct (brute_all XR (mkProblem (mrows X) (mcols X) fit bnd (repeat false (mcols X)) maxq cutoff) XR_OrdLaws H1 eq_refl N1 fuel Hf)
      as (h & E & _ & _ & _ & _ & _ & _ & A7 & (m1 & L1 & F1 & A8)).
    destruct (brute_all XR (mkProblem (mrows X') (mcols X') fit' bnd' (repeat false (mcols X')) maxq' cutoff') XR_OrdLaws ltac:(cbn; lia) eq_refl N3 fuel'
      ltac:(cbn [pCols]; rewrite Hcols; exact Hf'))
      as (h' & E' & _ & _ & _ & _ & _ & _ & B7 & (m2 & L2 & F2 & B8)).
    cbn [pCols pFit] in *. rewrite Hcols in *.
    assert (Best : hsBestScore h' = nadd (n := XR) (hsBestScore h) (fin d)).
    { rewrite B8, A8, (N2 m2 L2 F2). apply xadd_inj. apply xeq.
      - apply N1; auto.
      - apply N1; auto.
      - specialize (B7 m1 L1 F1). rewrite B8, (N2 m2 L2 F2), (N2 m1 L1 F1), xlt_shift in B7. exact B7.
      - specialize (A7 m2 L2 F2). rewrite A8 in A7. exact A7. }
    exists h, h'. split; [exact E|]. split; [exact E'|]. split; [exact Best|].
    intros m Lm Tm. rewrite Best, (N2 m Lm) by (apply nonempty_nf; exact Tm). symmetry. apply xadd_inj.
  Qed.
End Search.

(** BruteForceSelect: the best score changes by the constant, and the models
    with the best score are the same. *)
Theorem C86_same_selection : forall svd (X X' : Mat XR) x x' y y' p a s fit fit' bnd bnd' maxq maxq' cutoff cutoff' fuel fuel',
  rmat X x -> rmat X' x' -> mrows X' = mrows X -> mcols X' = mcols X -> (0 < mrows X)%nat -> length y = mrows X ->
  good_svd svd X -> good_svd svd X' -> rescaled (mrows X) (mcols X) x y x' y' p a s ->
  scored svd X y fit -> scored svd X' y' fit' ->
  (1 <= mcols X)%nat -> (2 ^ S (mcols X) - 1 <= fuel)%nat -> (2 ^ S (mcols X) - 1 <= fuel')%nat ->
  exists h h', BruteForceSelect (mkProblem (mrows X) (mcols X) fit bnd (repeat false (mcols X)) maxq cutoff) fuel = Ok h /\
    BruteForceSelect (mkProblem (mrows X') (mcols X') fit' bnd' (repeat false (mcols X')) maxq' cutoff') fuel' = Ok h' /\
    hsBestScore h' = nadd (n := XR) (hsBestScore h) (XFin (- (INR (mrows X) * ln (s * s)))) /\
    (forall m, length m = mcols X -> In true m -> (snd (fit m) = hsBestScore h <-> snd (fit' m) = hsBestScore h')) /\
    (* indeed any two models compare alike *)
    (forall m1 m2, length m1 = mcols X -> length m2 = mcols X -> In true m1 -> In true m2 ->
       nltb (snd (fit' m1)) (snd (fit' m2)) = nltb (snd (fit m1)) (snd (fit m2))).
Proof.
  intros svd X X' x x' y y' p a s fit fit' bnd bnd' maxq maxq' cutoff cutoff' fuel fuel' HX HX' Hrows Hcols Hr Hy Hg Hg' RS Hf Hf' H1 H2 H3.
  destruct (brute_moves svd X X' x x' y y' p a s fit fit' HX HX' Hrows Hcols Hr Hy Hg Hg' RS Hf Hf' bnd bnd' maxq maxq' cutoff cutoff'
    fuel fuel' H1 H2 H3) as (h & h' & E & E' & B & M).
  exists h, h'. split; [exact E|]. split; [exact E'|]. split; [exact B|]. split; [exact M|].
  intros m1 m2 L1 L2 T1 T2.
  destruct (score_moves svd X X' x x' y y' p a s fit fit' HX HX' Hrows Hcols Hr Hy Hg Hg' RS Hf Hf' m1 L1 T1) as (_ & ->).
  destruct (score_moves svd X X' x x' y y' p a s fit fit' HX HX' Hrows Hcols Hr Hy Hg Hg' RS Hf Hf' m2 L2 T2) as (_ & ->).
  apply xlt_shift.
Qed.
Print Assumptions C86_same_selection.

(** A run of SelectModel that has come to its end, under the conditions of
    C14_end_to_end: the bounds are those BoundsAICC computes, no score above
    1e100 other than infinity, the queue limit at least half the number of
    models, and no worker read the empty list at the critical moment or some
    score is positive. *)
Definition complete_search (svd : Mat XR -> SVD XR) (X : Mat XR) (y : list R) (fit : list bool -> list XR * XR) (st : st XR) : Prop :=
  exists bnd maxq cutoff M P s0 ls k,
    (forall m l, length m = mcols X -> (0 <= l <= Z.of_nat (mcols X))%Z -> In true m ->
       BoundsAICC svd m l X (fins y) = Ok (bnd m l)) /\
    (forall m, length m = mcols X -> In true m ->
       snd (fit m) = XPInf \/ nleb (snd (fit m)) (XFin (IZR (10 ^ 100)) : XR) = true) /\
    (2 <= M)%Z /\
    SelectModel_start (mrows X) (mcols X) fit bnd None maxq cutoff (NewHighscore M) = Ok (P, s0) /\
    (2 ^ Z.of_nat (mcols X) <= 2 * maxq)%Z /\
    run P s0 ls = Some (Ok st) /\ sMain st = MClose k /\
    (gRaced st = false \/ exists m, length m = mcols X /\ In true m /\ nltb (XFin 0 : XR) (snd (fit m)) = true).

(** SelectModel on both datasets, each under any schedule *)
Theorem C86_search : forall svd (X X' : Mat XR) x x' y y' p a s fit fit' st st',
  rmat X x -> rmat X' x' -> mrows X' = mrows X -> mcols X' = mcols X -> length y = mrows X -> (mcols X < mrows X)%nat ->
  good_svd svd X -> good_svd svd X' -> rescaled (mrows X) (mcols X) x y x' y' p a s ->
  lsum (map Rsqr y) <= IZR ((2 ^ 53 - 1) * 2 ^ 971) -> lsum (map Rsqr y') <= IZR ((2 ^ 53 - 1) * 2 ^ 971) ->
  scored svd X y fit -> scored svd X' y' fit' ->
  complete_search svd X y fit st -> complete_search svd X' y' fit' st' ->
  hsBestScore (sHs st') = nadd (n := XR) (hsBestScore (sHs st)) (XFin (- (INR (mrows X) * ln (s * s)))) /\
  forall m, length m = mcols X -> In true m ->
    (snd (fit m) = hsBestScore (sHs st) <-> snd (fit' m) = hsBestScore (sHs st')).
Proof.
  intros svd X X' x x' y y' p a s fit fit' st st' HX HX' Hrows Hcols Hy Hd Hg Hg' RS My My' Hf Hf'
    (bnd & maxq & cutoff & M & P & s0 & ls & k & C1 & C2 & C3 & C4 & C5 & C6 & C7 & C8)
    (bnd' & maxq' & cutoff' & M' & P' & s0' & ls' & k' & D1 & D2 & D3 & D4 & D5 & D6 & D7 & D8).
  assert (Ly' : length y' = mrows X').
  { rewrite (rs_y _ _ _ _ _ _ _ _ _ RS), map_length, (Permutation_length (rs_p _ _ _ _ _ _ _ _ _ RS)), seq_length, Hrows. reflexivity. }
  assert (H1 : (1 <= mcols X)%nat).
  { destruct (start_inv _ _ _ _ _ _ _ _ _ _ _ C4) as (_ & _ & H & _ & _ & _ & H' & _). lia. }
  destruct (C86_same_selection svd X X' x x' y y' p a s fit fit' bnd bnd' maxq maxq' cutoff cutoff' (2 ^ S (mcols X) - 1) (2 ^ S (mcols X) - 1)
    HX HX' Hrows Hcols ltac:(lia) Hy Hg Hg' RS Hf Hf' H1 ltac:(lia) ltac:(lia)) as (h & h' & E & E' & B & Mm & _).
  rewrite (C14_end_to_end svd X x y fit bnd maxq cutoff M P s0 ls st k _ h HX Hy Hg Hd My Hf C1 C2 C3 C4 C5 C6 C7 E C8).
  rewrite (C14_end_to_end svd X' x' y' fit' bnd' maxq' cutoff' M' P' s0' ls' st' k' _ h' HX' Ly' Hg' ltac:(lia) My' Hf' D1 D2 D3 D4 D5 D6 D7 E' D8).
  split; [exact B|exact Mm].
Qed.
Print Assumptions C86_search.

(** ** Matrices with orthogonal columns, for the examples *)
Definition xval (v : XR) : R := match v with XFin r => r | _ => 0 end.
Definition cnorm (m : nat) (A : nat -> nat -> R) (j : nat) : R := sqrt (rsum m (fun i => A i j * A i j)).

(** singular values: the lengths of the columns *)
Definition svd_og (X : Mat XR) : SVD XR :=
  let A := fun i j => xval (mval X i j) in
  mkSVD (map (fun j => fin (cnorm (mrows X) A j)) (seq 0 (mcols X)))
    (mkMat (mrows X) (mcols X) (fun i j => fin (A i j / cnorm (mrows X) A j)))
    (mkMat (mcols X) (mcols X) (fun i j => fin (delta i j))).

Lemma cnorm_ext : forall X A j, rmat X A -> (j < mcols X)%nat ->
  cnorm (mrows X) (fun i j => xval (mval X i j)) j = cnorm (mrows X) A j.
Proof. intros X A j HA Hj. unfold cnorm. f_equal. apply rsum_ext. intros i Hi. rewrite (HA i j Hi Hj). reflexivity. Qed.

Lemma svd_og_exact : forall X A, rmat X A ->
  (forall a b, (a < mcols X)%nat -> (b < mcols X)%nat -> a <> b -> rsum (mrows X) (fun i => A i a * A i b) = 0) ->
  (forall a, (a < mcols X)%nat -> 0 < rsum (mrows X) (fun i => A i a * A i a)) ->
  exact_svd X (svd_og X).
Proof.
  intros X A HA HO HP.
  set (c := cnorm (mrows X) A).
  assert (Cp : forall j, (j < mcols X)%nat -> 0 < c j) by (intros j Hj; apply sqrt_lt_R0; apply HP; exact Hj).
  assert (Cs : forall j, (j < mcols X)%nat -> c j * c j = rsum (mrows X) (fun i => A i j * A i j)).
  { intros j Hj. apply sqrt_sqrt. left. apply HP. exact Hj. }
  assert (Nc : forall j, (j < mcols X)%nat -> nth j (map c (seq 0 (mcols X))) 0 = c j) by (intros; apply nth_mapseq; auto).
  exists A, (fun i j => A i j / c j), delta, (map c (seq 0 (mcols X))).
  rewrite !map_length, !seq_length. cbn [svd_og svS svU svV mrows mcols].
  split; [exact HA|]. split.
  { unfold fins. rewrite map_map. apply map_ext_in. intros j Hj. apply in_seq in Hj. apply (f_equal fin). apply cnorm_ext; auto. lia. }
  split; [reflexivity|]. split; [reflexivity|]. split.
  { intros i j Hi Hj. cbn [mval mrows mcols] in *. rewrite (HA i j Hi Hj). rewrite (cnorm_ext X A j HA Hj). reflexivity. }
  split; [reflexivity|]. split; [reflexivity|]. split; [intros i j Hi Hj; reflexivity|]. split; [|split; [|split]].
  - intros a b Ha Hb. pose proof (Cp a Ha). pose proof (Cp b Hb).
    rewrite (rsum_ext _ _ (fun i => A i a * A i b * (/ (c a * c b)))) by (intros; field; split; lra).
    rewrite rsum_scal_r. unfold delta. destruct (Nat.eqb_spec a b) as [->|N].
    + rewrite <- (Cs b Hb). field. lra.
    + rewrite HO by auto. ring.
  - intros a b Ha Hb. rewrite (rsum_ext _ _ (fun j => delta a j * delta j b)) by (intros; rewrite (delta_sym i a); auto).
    apply (rsum_delta_l (mcols X) a (fun j => delta j b)); auto.
  - intros v Hv. apply in_map_iff in Hv. destruct Hv as (j & <- & Hj). apply in_seq in Hj. left. apply Cp. lia.
  - intros i j Hi Hj.
    rewrite (rsum_ext _ _ (fun l => delta j l * A i l)).
    + symmetry. apply (rsum_delta_l (mcols X) j (fun l => A i l)); auto.
    + intros l Hl. rewrite Nc by auto. pose proof (Cp l Hl). field. lra.
Qed.

Lemma og_sub : forall X A m D, rmat X A -> (0 < mrows X)%nat -> length m = mcols X ->
  (forall a b, (a < mcols X)%nat -> (b < mcols X)%nat -> a <> b -> rsum (mrows X) (fun i => A i a * A i b) = 0) ->
  (forall a, (a < mcols X)%nat -> 0 < rsum (mrows X) (fun i => A i a * A i a)) ->
  GetDesignMatrix m X = Ok D ->
  rmat D (sub A m) /\ mrows D = mrows X /\ mcols D = NumFeatures m /\ exact_svd D (svd_og D).
Proof.
  intros X A m D HA Hr Hl HO HP ED.
  assert (Hf : (0 < NumFeatures m)%nat).
  { destruct (Nat.eq_dec (NumFeatures m) 0) as [E|E]; [|lia]. unfold GetDesignMatrix in ED. rewrite E in ED. discriminate. }
  destruct (design_xr X A m HA Hr Hf ltac:(lia)) as (D' & ED' & RD & CD & QD).
  rewrite ED in ED'. injection ED' as <-.
  assert (S : forall k, (k < NumFeatures m)%nat -> (selcol m k < mcols X)%nat) by (intros; rewrite <- Hl; apply sel_below; auto).
  split; [exact QD|]. split; [exact RD|]. split; [exact CD|].
  apply (svd_og_exact D (sub A m) QD); rewrite RD, CD.
  - intros a b Ha Hb N. apply HO; auto. intro E. apply N. apply (selcol_inj m); auto.
  - intros a Ha. apply HP; auto.
Qed.

Lemma svd_og_good : forall X A, rmat X A -> (0 < mrows X)%nat ->
  (forall a b, (a < mcols X)%nat -> (b < mcols X)%nat -> a <> b -> rsum (mrows X) (fun i => A i a * A i b) = 0) ->
  (forall a, (a < mcols X)%nat -> 1 <= rsum (mrows X) (fun i => A i a * A i a)) ->
  good_svd svd_og X.
Proof.
  intros X A HA Hr HO HP m D Hl ED.
  destruct (og_sub X A m D HA Hr Hl HO ltac:(intros a Ha; specialize (HP a Ha); lra) ED) as (QD & RD & CD & HE).
  split; [exact HE|]. intros v Hv. right. cbn [svd_og svS] in Hv. apply in_map_iff in Hv.
  destruct Hv as (j & E & Hj). apply in_seq in Hj. injection E as <-. rewrite (cnorm_ext D (sub A m) j QD) by lia.
  unfold cnorm. apply Rlt_le_trans with (sqrt 1); [rewrite sqrt_1; lra|]. apply sqrt_le_1_alt. rewrite RD.
  apply HP. rewrite <- Hl. apply sel_below. lia.
Qed.

(** a run to the end exists *)
Lemma search_exists : forall svd X A y (fit : list bool -> list XR * XR), rmat X A -> length y = mrows X -> good_svd svd X ->
  (3 <= mcols X < mrows X)%nat -> lsum (map Rsqr y) <= IZR ((2 ^ 53 - 1) * 2 ^ 971) ->
  (forall m, length m = mcols X -> In true m ->
     snd (fit m) = XPInf \/ nleb (snd (fit m)) (XFin (IZR (10 ^ 100)) : XR) = true) ->
  (exists m, length m = mcols X /\ In true m /\ nltb (XFin 0 : XR) (snd (fit m)) = true) ->
  exists st, complete_search svd X y fit st.
Proof.
  intros svd X A y fit HA Hy Hg Hd Hmax Hbig Hpos.
  set (bnd := fun m l => match BoundsAICC svd m l X (fins y) with Ok v => v | _ => (XNaN : XR, XNaN : XR) end).
  assert (Hbnd : forall m l, length m = mcols X -> (0 <= l <= Z.of_nat (mcols X))%Z -> In true m ->
    BoundsAICC svd m l X (fins y) = Ok (bnd m l)).
  { intros m l Hl Hr Ht. unfold bnd.
    destruct (gcs_lcs_extremal m l ltac:(lia)) as (g & lc & Eg & El & (Lg & _) & _ & Hext).
    assert (Hgf : (0 < NumFeatures g < mrows X)%nat).
    { destruct (Hext m) as (_ & _ & H). { split; auto. } apply nonempty_nf in Ht.
      pose proof (NumFeatures_le_length g). lia. }
    destruct (C13_bounds_enclose svd X A y m l g HA ltac:(lia) Hy Hg Hl ltac:(lia) Eg Hgf Hmax) as (_ & lo & up & -> & _). reflexivity. }
  set (q := (2 ^ Z.of_nat (mcols X))%Z).
  set (P := mkProblem (N := XR) (mrows X) (mcols X) fit bnd (repeat false (mcols X)) q (XFin 0)).
  assert (Hst : SelectModel_start (mrows X) (mcols X) fit bnd None q (XFin 0 : XR) (NewHighscore 5) =
    Ok (P, init_st (NewHighscore 5))).
  { unfold SelectModel_start. destruct (Nat.ltb_spec (mcols X) 3); [lia|]. reflexivity. }
  assert (I0 : PInv XR P (init_st (NewHighscore 5))) by (apply pinv_init; cbn; lia).
  destruct (can_finish XR P ltac:(cbn; lia) ltac:(cbn; apply repeat_length) _ _ (le_n _) I0) as (st & R & F).
  destruct (reach_run _ _ _ _ R) as (ls & Hrun). destruct F as (Hend & _).
  exists st, bnd, q, (XFin 0), 5%Z, P, (init_st (NewHighscore 5)), ls, 4%nat.
  split; [exact Hbnd|]. split; [exact Hbig|]. split; [lia|]. split; [exact Hst|]. split; [unfold q; lia|].
  split; [exact Hrun|]. split; [exact Hend|]. right. exact Hpos.
Qed.

(** ** Example: three features measured in other units, the rows reordered, the
    target multiplied by -2 *)
Definition pp : list nat := [2; 0; 3; 1]%nat.
Definition aa (k : nat) : R := nth k [2; -1; 3] 1.
Definition xm' (i k : nat) : R := aa k * delta (nth i pp 0%nat) k.
Definition xe' : Mat XR := mkMat 4 3 (fun i k => fin (xm' i k)).
Definition ye' : list R := map (fun i => -2 * nth i ye 0) pp.

Lemma xe_og : good_svd svd_og xe.
Proof.
  apply (svd_og_good xe delta xe_mat); [cbn; lia| |]; cbn [xe eye mrows mcols].
  - intros [|[|[|a]]] [|[|[|b]]] Ha Hb N; try lia; cbn; ring.
  - intros [|[|[|a]]] Ha; try lia; cbn; lra.
Qed.
Lemma xe'_og : good_svd svd_og xe'.
Proof.
  apply (svd_og_good xe' xm'); [intros i j _ _; reflexivity|cbn; lia| |]; cbn [xe' mrows mcols].
  - intros [|[|[|a]]] [|[|[|b]]] Ha Hb N; try lia; unfold xm', pp, aa, delta; cbn; ring.
  - intros [|[|[|a]]] Ha; try lia; unfold xm', pp, aa, delta; cbn; lra.
Qed.
Lemma xe_rescaled : rescaled 4 3 delta ye xm' ye' pp aa (-2).
Proof.
  split.
  - unfold pp. change (seq 0 4) with [0; 1; 2; 3]%nat.
    apply perm_trans with [0; 2; 3; 1]%nat; [apply perm_swap|]. apply perm_skip.
    apply perm_trans with [2; 1; 3]%nat; [apply perm_skip, perm_swap|]. apply perm_swap.
  - intros [|[|[|k]]] H; try lia; unfold aa; cbn; lra.
  - lra.
  - reflexivity.
  - reflexivity.
Qed.

Definition fit_of (X : Mat XR) (y : list R) (m : list bool) : list XR * XR :=
  match fit_score svd_og X (fins y) m with Ok v => v | _ => ([], XNaN) end.

Lemma fit_of_scored : forall X A y, rmat X A -> (0 < mrows X)%nat -> length y = mrows X -> good_svd svd_og X ->
  scored svd_og X y (fit_of X y).
Proof.
  intros X A y HA Hr Hy Hg m Hl Ht. unfold fit_of.
  destruct (model_fit svd_og X A y HA Hr Hy Hg m Hl ltac:(apply nonempty_nf; auto)) as (D & w & r & E1 & E2 & E3 & _).
  unfold fit_score. rewrite E1. cbn [bind]. rewrite E2. cbn [bind]. rewrite E3. reflexivity.
Qed.

Example C86_example : exists st st',
  complete_search svd_og xe ye (fit_of xe ye) st /\ complete_search svd_og xe' ye' (fit_of xe' ye') st' /\
  hsBestScore (sHs st') = nadd (n := XR) (hsBestScore (sHs st)) (XFin (- (INR 4 * ln (-2 * -2)))) /\
  forall m, length m = 3%nat -> In true m ->
    (snd (fit_of xe ye m) = hsBestScore (sHs st) <-> snd (fit_of xe' ye' m) = hsBestScore (sHs st')).
Proof.
  assert (HX' : rmat xe' xm') by (intros i j _ _; reflexivity).
  assert (My' : lsum (map Rsqr ye') <= IZR ((2 ^ 53 - 1) * 2 ^ 971)).
  { apply Rle_trans with 100.
    - unfold ye', ye, pp, lsum, Rsqr. cbn [map fold_left nth]. pose proof exp50. nra.
    - apply IZR_le. apply Z.leb_le. vm_compute. reflexivity. }
  pose proof (fit_of_scored xe delta ye xe_mat ltac:(cbn; lia) eq_refl xe_og) as Hf.
  pose proof (fit_of_scored xe' xm' ye' HX' ltac:(cbn; lia) eq_refl xe'_og) as Hf'.
  assert (Hs : forall m, length m = 3%nat -> In true m -> exists v, snd (fit_of xe ye m) = fin v /\ v <= 400 /\
    (m = [true; true; true] -> v = 370)).
  { intros m Hl Ht. destruct (fite_score_any svd_og xe_og m Hl Ht) as (w & r & E & Hr & H3). unfold fit_of. rewrite E. cbn [snd].
    eexists. split; [reflexivity|].
    assert (-100 <= ln r).
    { rewrite <- (ln_exp (-100)). destruct (Rle_lt_or_eq_dec _ _ Hr) as [H| ->]; [|lra].
      apply Rlt_le, ln_increasing; auto. apply exp_pos. }
    pose proof (pen_nonneg (NumFeatures m)). split; [lra|].
    intro Em. rewrite (H3 Em), ln_exp, Em. cbn [NumFeatures]. unfold pen_aicc. cbn. lra. }
  assert (L4 : 0 <= ln (-2 * -2) <= 3).
  { replace (-2 * -2) with 4 by ring. split.
    - rewrite <- ln_1. apply ln_mono; lra.
    - replace 3 with (ln (exp 3)) by apply ln_exp. apply ln_mono; [lra|].
      pose proof (exp_ineq1_le 3). lra. }
  assert (Hs' : forall m, length m = 3%nat -> In true m -> exists v, snd (fit_of xe' ye' m) = fin v /\ v <= 400 /\
    (m = [true; true; true] -> 350 <= v)).
  { intros m Hl Ht. destruct (Hs m Hl Ht) as (v & E & Hv & H3).
    destruct (score_moves svd_og xe xe' delta xm' ye ye' pp aa (-2) (fit_of xe ye) (fit_of xe' ye') xe_mat HX' eq_refl eq_refl
      ltac:(cbn; lia) eq_refl xe_og xe'_og xe_rescaled Hf Hf' m Hl Ht) as (_ & ->).
    rewrite E, xadd_fin. eexists. split; [reflexivity|]. change (mrows xe) with 4%nat.
    replace (INR 4) with 4 by (cbn; lra). split; [lra|]. intro Em. rewrite (H3 Em). lra. }
  assert (T : In true [true; true; true]) by (left; reflexivity).
  assert (Big : forall v, v <= 400 -> nleb (n := XR) (fin v) (XFin (IZR (10 ^ 100))) = true).
  { intros v Hv. change (XFin (IZR (10 ^ 100))) with (fin (IZR (10 ^ 100))). apply xle_fin.
    apply Rle_trans with (IZR 400); auto. apply IZR_le. apply Z.leb_le. vm_compute. reflexivity. }
  destruct (search_exists svd_og xe delta ye (fit_of xe ye) xe_mat eq_refl xe_og ltac:(cbn; lia) ye_max) as (st & C).
  { intros m Hl Ht. right. destruct (Hs m Hl Ht) as (v & -> & Hv & _). apply Big; auto. }
  { exists [true; true; true]. split; [reflexivity|]. split; auto. destruct (Hs [true; true; true] eq_refl T) as (v & -> & _ & H3).
    rewrite (H3 eq_refl). apply Rltb_true. lra. }
  destruct (search_exists svd_og xe' xm' ye' (fit_of xe' ye') HX' eq_refl xe'_og ltac:(cbn; lia) My') as (st' & C').
  { intros m Hl Ht. right. destruct (Hs' m Hl Ht) as (v & -> & Hv & _). apply Big; auto. }
  { exists [true; true; true]. split; [reflexivity|]. split; auto. destruct (Hs' [true; true; true] eq_refl T) as (v & -> & _ & H3).
    specialize (H3 eq_refl). apply Rltb_true. lra. }
  exists st, st'. split; [exact C|]. split; [exact C'|].
  exact (C86_search svd_og xe xe' delta xm' ye ye' pp aa (-2) (fit_of xe ye) (fit_of xe' ye') st st' xe_mat HX' eq_refl eq_refl eq_refl
    ltac:(cbn; lia) xe_og xe'_og xe_rescaled ye_max My' Hf Hf' C C').
Qed.

(** ** Example with a bias column *)

(** two columns of the same length, not parallel *)
Definition svd_two (X : Mat XR) : SVD XR :=
  let A := fun i j => xval (mval X i j) in
  let n := rsum (mrows X) (fun i => A i 0%nat * A i 0%nat) in
  let c := rsum (mrows X) (fun i => A i 0%nat * A i 1%nat) in
  mkSVD (fins [sqrt (n + c); sqrt (n - c)])
    (mkMat (mrows X) 2 (fun i j => fin (if (j =? 0)%nat then (A i 0%nat + A i 1%nat) / (sqrt 2 * sqrt (n + c))
       else (A i 0%nat - A i 1%nat) / (sqrt 2 * sqrt (n - c)))))
    (mkMat 2 2 (fun i j => fin (if ((i =? 1) && (j =? 1))%nat%bool then - / sqrt 2 else / sqrt 2))).

Lemma svd_two_exact : forall X A, rmat X A -> mcols X = 2%nat ->
  let n := rsum (mrows X) (fun i => A i 0%nat * A i 0%nat) in
  let c := rsum (mrows X) (fun i => A i 0%nat * A i 1%nat) in
  rsum (mrows X) (fun i => A i 1%nat * A i 1%nat) = n -> 1 / 100 < n + c -> 1 / 100 < n - c ->
  exact_svd X (svd_two X) /\ no_tiny (/ 1000000) (svd_two X).
Proof.
  intros X A HA H2 n c En Hp Hm.
  assert (Q2 : sqrt 2 * sqrt 2 = 2) by (apply sqrt_sqrt; lra). assert (P2 : 0 < sqrt 2) by (apply sqrt_lt_R0; lra).
  set (u := sqrt (n + c)). set (v := sqrt (n - c)).
  assert (Qu : u * u = n + c) by (apply sqrt_sqrt; lra). assert (Pu : / 10 < u).
  { replace (/ 10) with (sqrt (Rsqr (/ 10))) by (apply sqrt_Rsqr; lra). apply sqrt_lt_1_alt. unfold Rsqr. lra. }
  assert (Qv : v * v = n - c) by (apply sqrt_sqrt; lra). assert (Pv : / 10 < v).
  { replace (/ 10) with (sqrt (Rsqr (/ 10))) by (apply sqrt_Rsqr; lra). apply sqrt_lt_1_alt. unfold Rsqr. lra. }
  assert (XA : forall i j, (i < mrows X)%nat -> (j < 2)%nat -> xval (mval X i j) = A i j).
  { intros i j Hi Hj. rewrite (HA i j Hi) by lia. reflexivity. }
  assert (Fn : rsum (mrows X) (fun i => xval (mval X i 0) * xval (mval X i 0)) = n).
  { apply rsum_ext. intros i Hi. rewrite XA by lia. reflexivity. }
  assert (Fc : rsum (mrows X) (fun i => xval (mval X i 0) * xval (mval X i 1)) = c).
  { apply rsum_ext. intros i Hi. rewrite !XA by lia. reflexivity. }
  assert (S : svS (svd_two X) = fins [u; v]) by (unfold svd_two; cbn [svS]; rewrite Fn, Fc; reflexivity).
  split.
  - exists A, (fun i j => if (j =? 0)%nat then (A i 0%nat + A i 1%nat) / (sqrt 2 * u) else (A i 0%nat - A i 1%nat) / (sqrt 2 * v)),
      (fun i j => if ((i =? 1) && (j =? 1))%nat%bool then - / sqrt 2 else / sqrt 2), [u; v].
    split; [exact HA|]. split; [exact S|]. split; [reflexivity|]. split; [reflexivity|]. split.
    { intros i j Hi Hj. cbn [svd_two svU mrows mcols mval] in *. rewrite Fn, Fc, !XA by lia. reflexivity. }
    split; [cbn; lia|]. split; [reflexivity|]. split; [intros i j Hi Hj; reflexivity|]. cbn [length]. rewrite H2.
    split; [|split; [|split]].
    + assert (SP : rsum (mrows X) (fun i => (A i 0%nat + A i 1%nat) * (A i 0%nat + A i 1%nat)) = 2 * (n + c)).
      { rewrite (rsum_ext _ _ (fun i => (A i 0%nat * A i 0%nat + A i 1%nat * A i 1%nat) + 2 * (A i 0%nat * A i 1%nat))) by (intros; ring).
        rewrite !rsum_plus, rsum_scal. fold n c. rewrite En. ring. }
      assert (SM : rsum (mrows X) (fun i => (A i 0%nat - A i 1%nat) * (A i 0%nat - A i 1%nat)) = 2 * (n - c)).
      { rewrite (rsum_ext _ _ (fun i => (A i 0%nat * A i 0%nat + A i 1%nat * A i 1%nat) - 2 * (A i 0%nat * A i 1%nat))) by (intros; ring).
        rewrite rsum_minus, !rsum_plus, rsum_scal. fold n c. rewrite En. ring. }
      assert (SX : rsum (mrows X) (fun i => (A i 0%nat + A i 1%nat) * (A i 0%nat - A i 1%nat)) = 0).
      { rewrite (rsum_ext _ _ (fun i => A i 0%nat * A i 0%nat - A i 1%nat * A i 1%nat)) by (intros; ring).
        rewrite rsum_minus. fold n. rewrite En. ring. }
      intros [|[|a]] [|[|b]] Ha Hb; try lia; cbn [Nat.eqb].
      * rewrite (rsum_ext _ _ (fun i => (A i 0%nat + A i 1%nat) * (A i 0%nat + A i 1%nat) * / ((sqrt 2 * sqrt 2) * (u * u)))).
        -- rewrite rsum_scal_r, SP, Q2, Qu. unfold delta; cbn. field. lra.
        -- intros i _. field. split; lra.
      * rewrite (rsum_ext _ _ (fun i => (A i 0%nat + A i 1%nat) * (A i 0%nat - A i 1%nat) * / ((sqrt 2 * sqrt 2) * (u * v)))).
        -- rewrite rsum_scal_r, SX. unfold delta; cbn. ring.
        -- intros i _. field. repeat split; lra.
      * rewrite (rsum_ext _ _ (fun i => (A i 0%nat + A i 1%nat) * (A i 0%nat - A i 1%nat) * / ((sqrt 2 * sqrt 2) * (u * v)))).
        -- rewrite rsum_scal_r, SX. unfold delta; cbn. ring.
        -- intros i _. field. repeat split; lra.
      * rewrite (rsum_ext _ _ (fun i => (A i 0%nat - A i 1%nat) * (A i 0%nat - A i 1%nat) * / ((sqrt 2 * sqrt 2) * (v * v)))).
        -- rewrite rsum_scal_r, SM, Q2, Qv. unfold delta; cbn. field. lra.
        -- intros i _. field. split; lra.
    + assert (I2 : / sqrt 2 * / sqrt 2 = / 2) by (rewrite <- Rinv_mult, Q2; reflexivity).
      intros [|[|a]] [|[|b]] Ha Hb; try lia; cbn; unfold delta; cbn; rewrite ?Ropp_mult_distr_l_reverse, ?Ropp_mult_distr_r_reverse, ?Ropp_involutive; nra.
    + intros z [<-|[<-|[]]]; lra.
    + intros i [|[|j]] Hi Hj; try lia; cbn [rsum nth Nat.eqb andb].
      * replace (0 + (A i 0%nat + A i 1%nat) / (sqrt 2 * u) * u * / sqrt 2 + (A i 0%nat - A i 1%nat) / (sqrt 2 * v) * v * / sqrt 2)
          with (2 * A i 0%nat / (sqrt 2 * sqrt 2)) by (field; repeat split; lra). rewrite Q2. field.
      * replace (0 + (A i 0%nat + A i 1%nat) / (sqrt 2 * u) * u * / sqrt 2 + (A i 0%nat - A i 1%nat) / (sqrt 2 * v) * v * - / sqrt 2)
          with (2 * A i 1%nat / (sqrt 2 * sqrt 2)) by (field; repeat split; lra). rewrite Q2. field.
  - unfold no_tiny. rewrite S. intros z [E|[E|[]]]; injection E as <-; right; lra.
Qed.

Definition svd_mix (X : Mat XR) : SVD XR := if (mcols X =? 2)%nat then svd_two X else svd_og X.

(** a bias column and a feature, two rows *)
Definition xb (f : list R) (i j : nat) : R := if (j =? 0)%nat then 1 else nth i f 0.
Definition xbm (f : list R) : Mat XR := mkMat 2 2 (fun i j => fin (xb f i j)).

Lemma xb_good : forall f0 f1, f0 * f0 + f1 * f1 = 2 -> -19 / 10 < f0 + f1 < 19 / 10 -> good_svd svd_mix (xbm [f0; f1]).
Proof.
  intros f0 f1 E H m D Hl ED.
  assert (HX : rmat (xbm [f0; f1]) (xb [f0; f1])) by (intros i j _ _; reflexivity).
  assert (Hf : (0 < NumFeatures m)%nat).
  { destruct (Nat.eq_dec (NumFeatures m) 0) as [Ez|Ez]; [|lia]. unfold GetDesignMatrix in ED. rewrite Ez in ED. discriminate. }
  destruct (design_xr _ _ m HX ltac:(cbn; lia) Hf ltac:(lia)) as (D' & ED' & RD & CD & QD).
  rewrite ED in ED'. injection ED' as <-. unfold svd_mix. cbn in Hl, RD.
  destruct m as [|b0 [|b1 [|? ?]]]; try discriminate Hl.
  assert (One : NumFeatures [b0; b1] = 1%nat -> rsum 2 (fun i => sub (xb [f0; f1]) [b0; b1] i 0 * sub (xb [f0; f1]) [b0; b1] i 0) = 2 ->
    exact_svd D (if (mcols D =? 2)%nat then svd_two D else svd_og D) /\
    no_tiny (/ 1000000) (if (mcols D =? 2)%nat then svd_two D else svd_og D)).
  { intros N1 Nm. rewrite CD, N1. cbn [Nat.eqb]. split.
    - apply (svd_og_exact D _ QD); rewrite CD, N1.
      + intros a b Ha Hb N. lia.
      + intros a Ha. assert (a = 0)%nat by lia. subst a. rewrite RD, Nm. lra.
    - intros v Hv. right. cbn [svd_og svS] in Hv. rewrite CD, N1 in Hv. destruct Hv as [Ev|[]]. injection Ev as <-.
      rewrite (cnorm_ext D _ 0 QD) by lia. unfold cnorm. rewrite RD, Nm.
      apply Rlt_le_trans with (sqrt 1); [rewrite sqrt_1; lra|]. apply sqrt_le_1_alt. lra. }
  destruct b0, b1.
  - rewrite CD. cbn [NumFeatures Nat.eqb]. 
    apply (svd_two_exact D _ QD); [rewrite CD; reflexivity| | |]; rewrite RD; unfold sub, selcol; cbn;
      change (Pos.to_nat 1) with 1%nat; unfold xb; cbn; lra.
  - apply One; [reflexivity|]. unfold sub, selcol; cbn. unfold xb; cbn; lra.
  - apply One; [reflexivity|]. unfold sub, selcol; cbn. change (Pos.to_nat 1) with 1%nat. unfold xb; cbn; lra.
  - cbn in Hf. lia.
Qed.

(** the feature -1, 1 becomes 3/5 of itself plus 4/5, the target 3, 1 its triple
    minus 7, and the rows change places *)
Example C86_bias_example : exists v, criterion svd_mix Aicc (xbm [-1; 1]) (fins [3; 1]) [true; false] = Ok v /\
  criterion svd_mix Aicc (xbm [7 / 5; 1 / 5]) (fins [-4; 2]) [true; false] =
    Ok (nadd (n := XR) v (XFin (INR 2 * ln (3 * 3)))).
Proof.
  apply (C86_zero_points svd_mix (xbm [-1; 1]) (xbm [7 / 5; 1 / 5]) (xb [-1; 1]) (xb [7 / 5; 1 / 5]) [3; 1] [-4; 2] [1; 0]%nat
    (fun _ => 3 / 5) (fun _ => 4 / 5) 3 (-7)); try reflexivity.
  - intros i j _ _; reflexivity.
  - intros i j _ _; reflexivity.
  - cbn; lia.
  - apply xb_good; lra.
  - apply xb_good; lra.
  - split; cbn [xbm mrows mcols].
    + apply perm_swap.
    + intros k _. lra.
    + lra.
    + intros i _. split; reflexivity.
    + intros [|[|i]] [|[|k]] Hi Hk; try lia; unfold xb; cbn; field.
    + cbn. f_equal; [ring|]. f_equal. ring.
  - right. left. reflexivity.
Qed.

(** ** The units do matter when a column becomes tiny *)

Lemma og_one : forall (X : Mat XR) A y m, rmat X A -> (0 < mrows X)%nat -> length y = mrows X -> length m = mcols X ->
  NumFeatures m = 1%nat ->
  let c := cnorm (mrows X) A (selcol m 0) in
  let w := rsum (mrows X) (fun i => A i (selcol m 0) / c * nth i y 0) * cut (/ 1000000) c in
  let r := rsum (mrows X) (fun i => Rsqr (A i (selcol m 0) * w - nth i y 0)) in
  0 < r -> criterion svd_og Aic X (fins y) m = Ok (fin (2 + INR (mrows X) * ln r)).
Proof.
  intros X A y m HA Hr Hy Hl Hn c w r Pr.
  destruct (design_xr X A m HA Hr ltac:(lia) ltac:(lia)) as (D & ED & RD & CD & QD). rewrite Hn in CD.
  assert (Ec : cnorm (mrows D) (fun i j => xval (mval D i j)) 0 = c).
  { rewrite (cnorm_ext D (sub A m) 0 QD) by lia. rewrite RD. reflexivity. }
  assert (EF : Fit svd_og D (fins y) = Ok (fins [w])).
  { etransitivity; [apply (fit_xr D (svd_og D) (fun i _ => sub A m i 0 / c) (fun _ _ => 1) [c] y); try reflexivity|].
    - cbn [svd_og svS]. rewrite CD. cbn [seq map]. rewrite Ec. reflexivity.
    - cbn [svd_og svU mcols]. exact CD.
    - intros i j Hi Hj. cbn [svd_og svU mrows mcols mval] in *. assert (j = 0)%nat by lia. subst j.
      rewrite Ec, (QD i 0%nat Hi) by lia. reflexivity.
    - cbn [svd_og svV mcols]. exact CD.
    - intros i j Hi Hj. cbn [svd_og svV mrows mcols mval] in *. assert (i = 0)%nat by lia. assert (j = 0)%nat by lia. subst. reflexivity.
    - lia.
    - lia.
    - rewrite CD, RD. cbn [seq map]. unfold what. cbn [length rsum nth]. unfold uty.
      apply (f_equal (fun z => Ok (fins [z]))). unfold w, sub. ring. }
  unfold criterion. rewrite ED. cbn [bind]. rewrite EF. cbn [bind].
  rewrite (rss_xr D (sub A m) [w] y QD) by (try lia; rewrite CD; reflexivity). cbn [bind].
  assert (Er : rss (mrows D) (mcols D) (sub A m) [w] y = r).
  { unfold rss, r. rewrite RD, CD. apply rsum_ext. intros i Hi. cbn [rsum nth]. unfold sub. f_equal. ring. }
  rewrite Er, Hn. unfold fins. rewrite map_length, Hy. rewrite aic_xr by (lia || lra). unfold nlogr.
  rewrite (proj2 (Rltb_true 0 r)) by exact Pr. rewrite xadd_fin. apply (f_equal (fun z => Ok (fin z))).
  unfold pen_aic. rewrite INR_IZR_INZ. cbn [Z.of_nat Pos.of_succ_nat]. lra.
Qed.

Lemma sqrt_one : forall v, v = 1 -> sqrt v = 1. Proof. intros v ->. apply sqrt_1. Qed.

(** Two features; measuring the first in a unit 1e7 times as large makes its
    column so short that the fit ignores it (C12): the order of the two
    one-feature models is reversed. *)
Theorem C86_tiny_units_refuted : exists svd (X X' : Mat XR) x x' y y' p a s m1 m2 v1 v2 v1' v2',
  rmat X x /\ rmat X' x' /\ mrows X' = mrows X /\ mcols X' = mcols X /\ (0 < mrows X)%nat /\ length y = mrows X /\
  rescaled (mrows X) (mcols X) x y x' y' p a s /\ good_svd svd X /\
  (forall m D, length m = mcols X' -> GetDesignMatrix m X' = Ok D -> exact_svd D (svd D)) /\
  criterion svd Aic X (fins y) m1 = Ok v1 /\ criterion svd Aic X (fins y) m2 = Ok v2 /\
  criterion svd Aic X' (fins y') m1 = Ok v1' /\ criterion svd Aic X' (fins y') m2 = Ok v2' /\
  nltb v1 v2 = true /\ nltb v2' v1' = true.
Proof.
  set (bb := fun k : nat => nth k [/ 10000000; 1] 1).
  set (X' := mkMat (N := XR) 2 2 (fun i k => fin (bb k * delta i k))).
  assert (HX : rmat (eye 2 2) delta) by (intros i j _ _; reflexivity).
  assert (HX' : rmat X' (fun i k => bb k * delta i k)) by (intros i j _ _; reflexivity).
  assert (N10 : cnorm 2 delta 0 = 1) by (apply sqrt_one; cbn; ring).
  assert (N01 : cnorm 2 delta 1 = 1) by (apply sqrt_one; cbn; ring).
  assert (M10 : cnorm 2 (fun i k => bb k * delta i k) 0 = / 10000000).
  { unfold cnorm. replace (rsum 2 _) with (Rsqr (/ 10000000)) by (unfold bb, Rsqr; cbn; ring). apply sqrt_Rsqr. lra. }
  assert (M01 : cnorm 2 (fun i k => bb k * delta i k) 1 = 1) by (apply sqrt_one; unfold bb; cbn; ring).
  assert (C1 : cut (/ 1000000) 1 = 1).
  { unfold cut. rewrite (proj2 (Rltb_true _ _)); [field|]. rewrite Rabs_right; lra. }
  assert (C0 : cut (/ 1000000) (/ 10000000) = 0).
  { unfold cut. rewrite (proj2 (Rltb_false _ _)); [reflexivity|]. rewrite Rabs_right; lra. }
  pose proof (og_one (eye 2 2) delta [1; / 2] [true; false] HX ltac:(cbn; lia) eq_refl eq_refl eq_refl) as E1.
  pose proof (og_one (eye 2 2) delta [1; / 2] [false; true] HX ltac:(cbn; lia) eq_refl eq_refl eq_refl) as E2.
  pose proof (og_one X' _ [1; / 2] [true; false] HX' ltac:(cbn; lia) eq_refl eq_refl eq_refl) as E1'.
  pose proof (og_one X' _ [1; / 2] [false; true] HX' ltac:(cbn; lia) eq_refl eq_refl eq_refl) as E2'.
  change (selcol [true; false] 0) with 0%nat in *. change (selcol [false; true] 0) with 1%nat in *.
  cbn zeta in E1, E2, E1', E2'. change (mrows (eye 2 2)) with 2%nat in *. change (mrows X') with 2%nat in *.
  rewrite N10, C1 in E1. rewrite N01, C1 in E2. rewrite M10, C0 in E1'. rewrite M01, C1 in E2'.
  replace (rsum 2 (fun i => Rsqr _)) with (/ 4) in E1 by (unfold Rsqr, delta; cbn; field).
  replace (rsum 2 (fun i => Rsqr _)) with 1 in E2 by (unfold Rsqr, delta; cbn; field).
  replace (rsum 2 (fun i => Rsqr _)) with (5 / 4) in E1' by (unfold Rsqr, delta, bb; cbn; field).
  replace (rsum 2 (fun i => Rsqr _)) with 1 in E2' by (unfold Rsqr, delta, bb; cbn; field).
  specialize (E1 ltac:(lra)). specialize (E2 ltac:(lra)). specialize (E1' ltac:(lra)). specialize (E2' ltac:(lra)).
  exists svd_og, (eye 2 2), X', delta, (fun i k => bb k * delta i k), [1; / 2], [1; / 2], [0; 1]%nat, bb, 1, [true; false], [false; true].
  do 4 eexists.
  split; [exact HX|]. split; [exact HX'|]. split; [reflexivity|]. split; [reflexivity|]. split; [cbn; lia|]. split; [reflexivity|].
  split; [|split; [|split]].
  - split.
    + apply Permutation_refl.
    + intros [|[|k]] H; cbn in H; try lia; unfold bb; cbn; lra.
    + lra.
    + intros [|[|i]] k Hi _; cbn in Hi; try lia; reflexivity.
    + cbn. f_equal; [ring|]. f_equal. ring.
  - apply (svd_og_good (eye 2 2) delta HX); [cbn; lia| |]; cbn [eye mrows mcols].
    + intros [|[|a]] [|[|b]] Ha Hb N; try lia; cbn; ring.
    + intros [|[|a]] Ha; try lia; cbn; lra.
  - intros m D Hl ED. apply (og_sub X' (fun i k => bb k * delta i k) m D); auto.
    + cbn; lia.
    + unfold bb. cbn [X' mrows mcols]. intros [|[|a]] [|[|b]] Ha Hb N; try lia; cbn; ring.
    + unfold bb. cbn [X' mrows mcols]. intros [|[|a]] Ha; try lia; cbn; lra.
  - split; [exact E1|]. split; [exact E2|]. split; [exact E1'|]. split; [exact E2'|].
    replace (INR 2) with 2 by (cbn; lra). rewrite ln_1.
    assert (ln (/ 4) < 0) by (rewrite <- ln_1; apply ln_increasing; lra).
    assert (0 < ln (5 / 4)) by (rewrite <- ln_1; apply ln_increasing; lra).
    split; apply Rltb_true; lra.
Qed.
Print Assumptions C86_tiny_units_refuted.

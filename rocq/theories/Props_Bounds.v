(** C92: the bounds of a subtree contain those of its parts, and meet at a single model. *)
From Coq Require Import Reals Lra Psatz.
From Verif Require Import Base Num Mat RSum Model_Node Model_Util Model_Fit Spec_Fit.
From Verif Require Import Proof_Node Proof_Node2 Proof_Models Proof_Util Proof_XR Proof_Norm.
From Verif Require Import Proof_Fit Proof_Fit2 Proof_Fit3 Props_Fit.
Open Scope R_scope.

Section Values.
Variables (svd : Mat XR -> SVD XR) (X : Mat XR) (A : nat -> nat -> R) (y : list R).
Hypothesis (HA : rmat X A) (Hr : (0 < mrows X)%nat) (Hy : length y = mrows X) (Hsvd : good_svd svd X).
Hypothesis Hmax : lsum (map Rsqr y) <= IZR ((2 ^ 53 - 1) * 2 ^ 971).

(** r is the least residual sum of squares of the model m (the largest float64
    for the empty model) *)
Definition least (m : list bool) (r : R) : Prop :=
  (NumFeatures m = 0%nat /\ r = IZR ((2 ^ 53 - 1) * 2 ^ 971)) \/
  ((0 < NumFeatures m)%nat /\ r <= lsum (map Rsqr y) /\
   (exists w, length w = NumFeatures m /\ r = rss (mrows X) (NumFeatures m) (sub A m) w y) /\
   forall w', length w' = NumFeatures m -> r <= rss (mrows X) (NumFeatures m) (sub A m) w' y).

Lemma least_mono : forall a b ra rb, length a = mcols X -> length b = mcols X -> incl_model a b -> least a ra -> least b rb -> rb <= ra.
Proof.
  intros a b ra rb La Lb Hi [(Na & ->)|(Na & Ya & Wa & _)] [(Nb & ->)|(Nb & Yb & _ & Mb)].
  - lra.
  - lra.
  - pose proof (nf_incl a b ltac:(lia) Hi). lia.
  - exact (nested_le X A y Hr Hy a b ra rb La Lb Hi Wa Mb).
Qed.

Lemma bounds_values : forall c model start, length model = mcols X -> (0 <= start <= Z.of_nat (length model))%Z ->
  exists g l, Gcs model start = Ok g /\ Lcs model start = Ok l /\ length g = mcols X /\ length l = mcols X /\
    (forall m, agree_upto (Z.to_nat start) model m -> incl_model l m /\ incl_model m g) /\
    agree_upto (Z.to_nat start) model g /\ agree_upto (Z.to_nat start) model l /\
    ((0 < NumFeatures g < mrows X)%nat -> exists rg rl, 0 <= rg /\ 0 <= rl /\ least g rg /\ least l rl /\
      bounds svd model start X (fins y) c =
        Ok (c (Z.of_nat (NumFeatures l)) (Z.of_nat (mrows X)) (fin rg), c (Z.of_nat (NumFeatures g)) (Z.of_nat (mrows X)) (fin rl))).
Proof.
  intros c model start Hl Hs.
  destruct (gcs_lcs_extremal model start Hs) as (g & l & Eg & El & Ag & Al & Hext).
  assert (Lg : length g = mcols X) by (destruct Ag; lia). assert (Ll : length l = mcols X) by (destruct Al; lia).
  exists g, l. do 4 (split; [assumption|]). split; [intros m Hm; destruct (Hext m Hm) as (I1 & I2 & _); auto|]. do 2 (split; [assumption|]).
  intros Hgf. destruct (model_fit svd X A y HA Hr Hy Hsvd g Lg ltac:(lia)) as (Dg & wg & rg & EDg & EFg & ERg & Lwg & Erg & Pg & Mg & Yg).
  assert (HL : exists rl, 0 <= rl /\ least l rl /\ (if (0 <? NumFeatures l)%nat then
      (do XLcs <- GetDesignMatrix l X; do coeff <- Fit svd XLcs (fins y); Rss XLcs coeff (fins y)) else Ok nmaxf) = Ok (fin rl)).
  { destruct (Nat.ltb_spec 0 (NumFeatures l)) as [Hlf|Hlf].
    - destruct (model_fit svd X A y HA Hr Hy Hsvd l Ll Hlf) as (Dl & wl & rl & EDl & EFl & ERl & Lwl & Erl & Pl & Ml & Yl).
      exists rl. split; [exact Pl|]. split; [right; split; [exact Hlf|]; split; [exact Yl|]; split; [eauto|exact Ml]|].
      rewrite EDl. cbn [bind]. rewrite EFl. cbn [bind]. exact ERl.
    - exists (IZR ((2 ^ 53 - 1) * 2 ^ 971)). split; [apply (IZR_le 0); discriminate|]. split; [left; split; [lia|reflexivity]|reflexivity]. }
  destruct HL as (rl & P1 & P2 & P3). exists rg, rl. do 2 (split; [assumption|]).
  split; [right; split; [lia|]; split; [exact Yg|]; split; [eauto|exact Mg]|]. split; [exact P2|].
  unfold bounds. rewrite Eg, El. cbn [bind]. cbv zeta. rewrite P3. cbn [bind].
  rewrite (proj2 (Nat.ltb_lt (NumFeatures g) (mrows X))) by lia. rewrite EDg. cbn [bind]. rewrite EFg. cbn [bind]. rewrite ERg. cbn [bind].
  rewrite !fins_length, !Hy. reflexivity.
Qed.

Lemma agree_trans : forall k k' a b c, (k <= k')%nat -> agree_upto k a b -> agree_upto k' b c -> agree_upto k a c.
Proof.
  intros k k' a b c Hk (L1 & H1) (L2 & H2). split; [congruence|]. intros i Hi. rewrite H2 by lia. apply H1. exact Hi.
Qed.

Lemma nested_bounds : forall c model start model' start' g g', mono_crit c ->
  length model = mcols X -> (0 <= start <= start')%Z -> (start' <= Z.of_nat (length model))%Z ->
  agree_upto (Z.to_nat start) model model' -> Gcs model start = Ok g -> Gcs model' start' = Ok g' ->
  (NumFeatures g < mrows X)%nat -> (0 < NumFeatures g')%nat ->
  exists lo up lo' up', bounds svd model start X (fins y) c = Ok (lo, up) /\ bounds svd model' start' X (fins y) c = Ok (lo', up') /\
    xle lo lo' /\ xle up' up.
Proof.
  intros c model start model' start' g g' Hc Hl Hs Hs' Ha Eg Eg' Hg Hg'.
  assert (Hl' : length model' = mcols X) by (destruct Ha; lia).
  destruct (bounds_values c model start Hl ltac:(lia)) as (g0 & l & E1 & E2 & L1 & L2 & I & G1 & G2 & B).
  destruct (bounds_values c model' start' Hl' ltac:(lia)) as (g0' & l' & E1' & E2' & L1' & L2' & I' & G1' & G2' & B').
  rewrite Eg in E1. injection E1 as <-. rewrite Eg' in E1'. injection E1' as <-.
  assert (Kg : agree_upto (Z.to_nat start) model g') by (eapply agree_trans; [|exact Ha|exact G1']; lia).
  assert (Kl : agree_upto (Z.to_nat start) model l') by (eapply agree_trans; [|exact Ha|exact G2']; lia).
  destruct (I g' Kg) as (_ & Ig). destruct (I l' Kl) as (Il & _).
  pose proof (nf_incl g' g ltac:(lia) Ig) as Ng. pose proof (nf_incl l l' ltac:(lia) Il) as Nl.
  destruct (B ltac:(lia)) as (rg & rl & P1 & P2 & Q1 & Q2 & ->). destruct (B' ltac:(lia)) as (rg' & rl' & P1' & P2' & Q1' & Q2' & ->).
  do 4 eexists. split; [reflexivity|]. split; [reflexivity|]. split; apply Hc; try lia; split; auto.
  - apply (least_mono g' g); auto.
  - apply (least_mono l l'); auto.
Qed.

Lemma leaf_bounds : forall c model, length model = mcols X -> (0 < NumFeatures model < mrows X)%nat ->
  exists v, bounds svd model (Z.of_nat (length model)) X (fins y) c = Ok (v, v) /\ criterion svd c X (fins y) model = Ok v.
Proof.
  intros c model Hl Hf. unfold bounds. rewrite Gcs_eq, Lcs_eq by lia. cbn [bind]. cbv zeta.
  rewrite Nat2Z.id, Nat.sub_diag, firstn_all. cbn [repeat]. rewrite !app_nil_r.
  destruct (model_fit svd X A y HA Hr Hy Hsvd model Hl ltac:(lia)) as (D & w & r & ED & EF & ER & _).
  rewrite (proj2 (Nat.ltb_lt 0 (NumFeatures model))), (proj2 (Nat.ltb_lt (NumFeatures model) (mrows X))) by lia.
  unfold criterion. rewrite ED. cbn [bind]. rewrite EF. cbn [bind]. rewrite ER. cbn [bind]. eauto.
Qed.
End Values.

(** C92: the bounds of a smaller subtree lie inside those of a larger one that
    contains it. [agree_upto start model model']: model' has the same first
    [start] bits, so it lies in the subtree of model at that level. *)
Theorem C92_nested : forall svd X A y model start model' start' g g',
  rmat X A -> (0 < mrows X)%nat -> length y = mrows X -> good_svd svd X ->
  lsum (map Rsqr y) <= IZR ((2 ^ 53 - 1) * 2 ^ 971) ->
  length model = mcols X -> (0 <= start <= start')%Z -> (start' <= Z.of_nat (length model))%Z ->
  agree_upto (Z.to_nat start) model model' ->
  Gcs model start = Ok g -> (NumFeatures g < mrows X)%nat ->
  Gcs model' start' = Ok g' -> (0 < NumFeatures g')%nat ->
  (exists lo up lo' up', BoundsAIC svd model start X (fins y) = Ok (lo, up) /\ BoundsAIC svd model' start' X (fins y) = Ok (lo', up') /\
     nleb lo lo' = true /\ nleb up' up = true) /\
  (exists lo up lo' up', BoundsAICC svd model start X (fins y) = Ok (lo, up) /\ BoundsAICC svd model' start' X (fins y) = Ok (lo', up') /\
     nleb lo lo' = true /\ nleb up' up = true).
Proof.
  intros svd X A y model start model' start' g g' HA Hr Hy Hsvd Hmax Hl Hs Hs' Ha Eg Hg Eg' Hg'.
  split; [apply (nested_bounds svd X A y HA Hr Hy Hsvd Hmax Aic _ _ _ _ g g' aic_mono)
         |apply (nested_bounds svd X A y HA Hr Hy Hsvd Hmax Aicc _ _ _ _ g g' aicc_mono)]; auto.
Qed.
Print Assumptions C92_nested.

(** In particular those of the two children of a node lie inside its own. *)
Theorem C92_children : forall svd X A y (n c : Node XR) flip g g',
  rmat X A -> (0 < mrows X)%nat -> length y = mrows X -> good_svd svd X ->
  lsum (map Rsqr y) <= IZR ((2 ^ 53 - 1) * 2 ^ 971) ->
  length (ndModel n) = mcols X -> (0 <= ndLevel n < Z.of_nat (length (ndModel n)))%Z ->
  GetChildNode n flip = Ok c ->
  Gcs (ndModel n) (ndLevel n) = Ok g -> (NumFeatures g < mrows X)%nat ->
  Gcs (ndModel c) (ndLevel c) = Ok g' -> (0 < NumFeatures g')%nat ->
  exists lo up lo' up', BoundsAICC svd (ndModel n) (ndLevel n) X (fins y) = Ok (lo, up) /\
    BoundsAICC svd (ndModel c) (ndLevel c) X (fins y) = Ok (lo', up') /\ nleb lo lo' = true /\ nleb up' up = true.
Proof.
  intros svd X A y n c flip g g' HA Hr Hy Hsvd Hmax Hl Hs Ec Eg Hg Eg' Hg'.
  assert (Q : ndLevel c = (ndLevel n + 1)%Z /\ agree_upto (Z.to_nat (ndLevel n)) (ndModel n) (ndModel c)).
  { destruct flip.
    - rewrite GetChildNode_true in Ec by lia. injection Ec as <-. cbn [ndLevel ndModel]. split; [reflexivity|].
      split; [apply upd_length|]. intros i Hi. rewrite nth_upd by lia. destruct (Nat.eqb_spec i (Z.to_nat (ndLevel n))); [lia|reflexivity].
    - rewrite GetChildNode_false in Ec. injection Ec as <-. split; [reflexivity|]. split; reflexivity. }
  destruct Q as (QL & QA). apply (C92_nested svd X A y _ _ _ _ g g'); auto; lia.
Qed.
Print Assumptions C92_children.

(** At the last level there is one model left, and both bounds are its criterion. *)
Theorem C92_leaf : forall svd X A y model,
  rmat X A -> (0 < mrows X)%nat -> length y = mrows X -> good_svd svd X ->
  length model = mcols X -> (0 < NumFeatures model < mrows X)%nat ->
  (exists v, BoundsAIC svd model (Z.of_nat (length model)) X (fins y) = Ok (v, v) /\ criterion svd Aic X (fins y) model = Ok v) /\
  (exists v, BoundsAICC svd model (Z.of_nat (length model)) X (fins y) = Ok (v, v) /\ criterion svd Aicc X (fins y) model = Ok v).
Proof. intros svd X A y model HA Hr Hy Hsvd Hl Hf. split; apply (leaf_bounds svd X A y); auto. Qed.
Print Assumptions C92_leaf.

(** three rows, two unit columns: from the root down to model 10 *)
Example C92_example : exists l0 u0 l1 u1 v,
  BoundsAICC svd_orth [false; false] 0 (eye 3 2) (fins [1; 2; 4]) = Ok (l0, u0) /\
  BoundsAICC svd_orth [true; false] 1 (eye 3 2) (fins [1; 2; 4]) = Ok (l1, u1) /\
  BoundsAICC svd_orth [true; false] 2 (eye 3 2) (fins [1; 2; 4]) = Ok (v, v) /\
  criterion svd_orth Aicc (eye 3 2) (fins [1; 2; 4]) [true; false] = Ok v /\
  nleb l0 l1 = true /\ nleb l1 v = true /\ nleb v u1 = true /\ nleb u1 u0 = true.
Proof.
  assert (HM : lsum (map Rsqr [1; 2; 4]) <= IZR ((2 ^ 53 - 1) * 2 ^ 971)).
  { apply Rle_trans with (IZR 1000).
    - unfold lsum, Rsqr. cbn [map fold_left]. lra.
    - apply IZR_le. apply Z.leb_le. vm_compute. reflexivity. }
  assert (HR : rmat (eye 3 2) delta) by (intros i j _ _; reflexivity).
  assert (HS : good_svd svd_orth (eye 3 2)) by (apply eye_good; lia).
  destruct (C92_nested svd_orth (eye 3 2) delta [1; 2; 4] [false; false] 0 [true; false] 1 [true; true] [true; true] HR
    ltac:(cbn [eye mrows]; lia) eq_refl HS HM eq_refl ltac:(lia) ltac:(cbn [length]; lia)
    ltac:(split; [reflexivity|intros i Hi; change (Z.to_nat 0) with 0%nat in Hi; lia]) eq_refl ltac:(cbn; lia) eq_refl ltac:(cbn; lia))
    as (_ & l0 & u0 & l1 & u1 & E0 & E1 & H1 & H2).
  destruct (C92_nested svd_orth (eye 3 2) delta [1; 2; 4] [true; false] 1 [true; false] 2 [true; true] [true; false] HR
    ltac:(cbn [eye mrows]; lia) eq_refl HS HM eq_refl ltac:(lia) ltac:(cbn [length]; lia)
    ltac:(split; reflexivity) eq_refl ltac:(cbn; lia) eq_refl ltac:(cbn; lia))
    as (_ & l1' & u1' & l2 & u2 & E1' & E2 & H3 & H4).
  destruct (C92_leaf svd_orth (eye 3 2) delta [1; 2; 4] [true; false] HR
    ltac:(cbn [eye mrows]; lia) eq_refl HS eq_refl ltac:(cbn; lia)) as (_ & v & Ev & Cv).
  change (Z.of_nat (length [true; false])) with 2%Z in Ev.
  assert (P : l1' = l1 /\ u1' = u1 /\ l2 = v /\ u2 = v) by (repeat split; congruence). destruct P as (-> & -> & -> & ->).
  exists l0, u0, l1, u1, v. repeat (split; [assumption|]). assumption.
Qed.

(** "The bounds of a subtree contain those of its parts" fails when the largest
    model has as many features as there are rows: the lower bound then uses a
    fixed residual, which a part that fits exactly goes below. *)
Theorem C92_saturated_refuted : exists svd (X : Mat XR) y model start model' start' lo up lo' up',
  good_svd svd X /\ length y = mrows X /\ length model = mcols X /\ (0 <= start <= start')%Z /\
  agree_upto (Z.to_nat start) model model' /\
  BoundsAIC svd model start X y = Ok (lo, up) /\ BoundsAIC svd model' start' X y = Ok (lo', up') /\ nltb lo' lo = true.
Proof.
  assert (HG : good_svd svd_orth (eye 2 2)) by (apply eye_good; lia).
  assert (HR : rmat (eye 2 2) delta) by (intros i j _ _; reflexivity).
  destruct (model_fit svd_orth (eye 2 2) delta [1; 0] HR ltac:(cbn; lia) eq_refl HG [true; false] eq_refl ltac:(cbn; lia))
    as (D & w & r & ED & EF & ER & Lw & Er & Pr & Mr & Zr).
  assert (H : r = 0).
  { specialize (Mr [1] eq_refl). clear - Mr Pr. apply Rle_antisym; [|exact Pr]. eapply Rle_trans; [exact Mr|].
    unfold rss. cbn. unfold sub, selcol, delta, Rsqr. cbn. lra. }
  clear Er Pr Mr Zr. subst r.
  assert (T : RssTol (N := XR) = fin (/ 1000000000000)).
  { unfold RssTol. cbn. unfold xdec. cbn. unfold fin. f_equal. lra. }
  exists svd_orth, (eye 2 2), (fins [1; 0]), [false; false], 0%Z, [true; false], 2%Z,
    (Aic (N := XR) 0 2 (fin (/ 1000000000000))), (Aic (N := XR) 2 2 nmaxf), (Aic (N := XR) 1 2 (fin 0)), (Aic (N := XR) 1 2 (fin 0)).
  split; auto. split; [reflexivity|]. split; [reflexivity|]. split; [lia|].
  split; [split; [reflexivity|]; intros i Hi; cbn in Hi; lia|].
  split; [rewrite <- T; reflexivity|]. split.
  - unfold BoundsAIC, bounds. change (Gcs [true; false] 2) with (Ok [true; false]). change (Lcs [true; false] 2) with (Ok [true; false]).
    cbn [bind]. cbv zeta. change (0 <? NumFeatures [true; false])%nat with true. change (NumFeatures [true; false] <? mrows (eye 2 2))%nat with true.
    rewrite ED. cbn [bind]. rewrite EF. cbn [bind]. rewrite ER. cbn [bind]. reflexivity.
  - rewrite !aic_xr by (try lia; lra). unfold nlogr. rewrite (proj2 (Rltb_true 0 (/ 1000000000000))) by lra.
    rewrite (proj2 (Rltb_false 0 0)) by lra. reflexivity.
Qed.
Print Assumptions C92_saturated_refuted.

(** Pseudo-inverses, the hat matrix and the minimum-norm property of Fit. *)
From Coq Require Import Reals Lra Psatz.
From Verif Require Import Base Num Mat RSum Proof_XR Proof_Util Proof_Norm Model_Fit Spec_Fit Proof_Fit.
Open Scope R_scope.

(** P diag(d) Q^T *)
Definition tri (k : nat) (P : nat -> nat -> R) (d : nat -> R) (Q : nat -> nat -> R) (i j : nat) : R :=
  rsum k (fun l => P i l * d l * Q j l).

Definition orth (n k : nat) (Q : nat -> nat -> R) : Prop :=
  forall a b, (a < k)%nat -> (b < k)%nat -> rsum n (fun j => Q j a * Q j b) = delta a b.

Lemma tri_comp : forall n k P Q S d e i i', orth n k Q ->
  rsum n (fun j => tri k P d Q i j * tri k Q e S j i') = tri k P (fun l => d l * e l) S i i'.
Proof.
  intros n k P Q S d e i i' HQ. unfold tri.
  rewrite (rsum_ext n _ (fun j => rsum k (fun a => rsum k (fun b =>
     (P i a * d a * (e b * S i' b)) * (Q j a * Q j b))))).
  2:{ intros j Hj. rewrite <- rsum_scal_r. apply rsum_ext. intros a Ha.
      rewrite <- rsum_scal. apply rsum_ext. intros b Hb. ring. }
  rewrite rsum_swap. apply rsum_ext. intros a Ha.
  rewrite rsum_swap.
  rewrite (rsum_ext k _ (fun b => delta a b * (P i a * d a * (e b * S i' b)))).
  2:{ intros b Hb. rewrite rsum_scal, HQ by auto. ring. }
  rewrite (rsum_delta_l k a (fun b => P i a * d a * (e b * S i' b))) by auto. ring.
Qed.

Lemma tri_sym : forall k P d i j, tri k P d P i j = tri k P d P j i.
Proof. intros. apply rsum_ext. intros; ring. Qed.

Lemma tri_T : forall k P d Q i j, tri k P d Q i j = tri k Q d P j i.
Proof. intros. apply rsum_ext. intros; ring. Qed.

Lemma tri_ext : forall k P d e Q i j, (forall l, (l < k)%nat -> d l = e l) -> tri k P d Q i j = tri k P e Q i j.
Proof. intros k P d e Q i j H. apply rsum_ext. intros l Hl. rewrite H; auto. Qed.

(** the product V diag Q^T as the code forms it *)
Lemma triple_xr : forall (V Q : Mat XR) v q (d : list R), rmat V v -> rmat Q q ->
  mcols V = length d -> mcols Q = length d ->
  exists W, (do vd <- mat_mul V (mat_diag (fins d)); mat_mul vd (mat_T Q)) = Ok W /\
    mrows W = mrows V /\ mcols W = mrows Q /\
    rmat W (tri (length d) v (fun l => nth l d 0) q).
Proof.
  intros V Q v q d HV HQ LV LQ.
  destruct (mat_mul_fin V (mat_diag (fins d)) _ _ HV (mat_diag_fin d)) as (W1 & E1 & R1 & C1 & Q1).
  { cbn. rewrite fins_length. auto. }
  rewrite E1. cbn [bind]. cbn in C1. rewrite fins_length in C1.
  destruct (mat_mul_fin W1 (mat_T Q) _ _ Q1 (mat_T_fin _ _ HQ)) as (W & E & RW & CW & QW).
  { cbn. lia. }
  exists W. split; auto. split; [lia|]. split; [exact CW|].
  intros i j Hi Hj. rewrite QW by auto. f_equal. unfold mm, tri. rewrite C1. apply rsum_ext.
  intros l Hl. f_equal. rewrite LV.
  rewrite (rsum_single (length d) _ l Hl).
  - rewrite delta_same. ring.
  - intros a Ha Hne. rewrite delta_ne by auto. ring.
Qed.

Lemma map_cond_fin : forall (g : XR -> XR) (h : R -> R) s, (forall x, In x s -> g (fin x) = fin (h x)) ->
  map g (fins s) = fins (map h s).
Proof.
  intros g h s H. unfold fins. rewrite !map_map. apply map_ext_in. auto.
Qed.

Definition pinv (t x : R) : R := if Rltb t x then / x else 0.
Definition pinv2 (t x : R) : R := if Rltb t (x * x) then / (x * x) else 0.
Definition cinv (x : R) : R := if Rltb (/ 1000000) (x * x) then / x else x.

Lemma mp_tri : forall m n k U V d e A P, orth m k U -> orth n k V ->
  (forall l, (l < k)%nat -> d l * e l * d l = d l) -> (forall l, (l < k)%nat -> e l * d l * e l = e l) ->
  (forall i j, (i < m)%nat -> (j < n)%nat -> A i j = tri k U d V i j) ->
  (forall i j, (i < n)%nat -> (j < m)%nat -> P i j = tri k V e U i j) ->
  moore_penrose m n A P.
Proof.
  intros m n k U V d e A P HU HV H1 H2 HA HP.
  assert (PA : forall i j, (i < n)%nat -> (j < n)%nat ->
     rsum m (fun a => P i a * A a j) = tri k V (fun l => e l * d l) V i j).
  { intros i j Hi Hj. rewrite <- (tri_comp m k V U V e d i j HU). apply rsum_ext. intros a Ha.
    rewrite HA, HP; auto. }
  assert (AP : forall i j, (i < m)%nat -> (j < m)%nat ->
     rsum n (fun a => A i a * P a j) = tri k U (fun l => d l * e l) U i j).
  { intros i j Hi Hj. rewrite <- (tri_comp n k U V U d e i j HV). apply rsum_ext. intros a Ha.
    rewrite HA, HP; auto. }
  split; [|split; [|split]].
  - intros i j Hi Hj.
    rewrite (rsum_ext n _ (fun a => tri k U d V i a * tri k V (fun l => e l * d l) V a j)).
    2:{ intros a Ha. rewrite PA, HA by auto. reflexivity. }
    rewrite tri_comp by auto. rewrite HA by auto. apply tri_ext. intros l Hl. rewrite <- (H1 l Hl) at 3. ring.
  - intros i j Hi Hj.
    rewrite (rsum_ext m _ (fun a => tri k V e U i a * tri k U (fun l => d l * e l) U a j)).
    2:{ intros a Ha. rewrite AP, HP by auto. reflexivity. }
    rewrite tri_comp by auto. rewrite HP by auto. apply tri_ext. intros l Hl. rewrite <- (H2 l Hl) at 3. ring.
  - intros i j Hi Hj. rewrite !AP by auto. apply tri_sym.
  - intros i j Hi Hj. rewrite !PA by auto. apply tri_sym.
Qed.

Lemma in_svs : forall f s x, svS f = fins s -> In x s -> In (fin x) (svS f).
Proof. intros f s x E H. rewrite E. apply in_map; auto. Qed.

Lemma pseudo_inverse_mp : forall X A f t, rmat X A -> exact_svd X f -> 0 <= t -> no_tiny t f ->
  exists P p, PseudoInverse f (fin t) = Ok P /\ mrows P = mcols X /\ mcols P = mrows X /\ rmat P p /\
    moore_penrose (mrows X) (mcols X) A p.
Proof.
  intros X A f t HA (A' & U & V & s & HA' & Hs & HUr & HUc & HU & HVr & HVc & HV & UU & VV & Hp & HX) Ht Hn.
  unfold PseudoInverse. rewrite Hs.
  rewrite (map_cond_fin _ (pinv t) s).
  2:{ intros x Hx. change (nltb (n := XR) (fin t) (fin x)) with (Rltb t x). unfold pinv.
      destruct (Rltb t x) eqn:E; [|reflexivity]. apply Rltb_true in E.
      rewrite n1_fin, xdiv_fin by lra. f_equal. unfold Rdiv. ring. }
  destruct (triple_xr (svV f) (svU f) V U (map (pinv t) s) HV HU) as (W & EW & RW & CW & QW);
    try (rewrite map_length; auto).
  exists W. eexists. split; [exact EW|]. split; [lia|]. split; [lia|]. split; [exact QW|].
  rewrite map_length.
  apply (mp_tri _ _ (length s) U V (fun l => nth l s 0) (fun l => nth l (map (pinv t) s) 0)); auto.
  - intros l Hl. rewrite (nth_map_lt _ _ (pinv t) s l 0) by auto. unfold pinv.
    destruct (Hn (nth l s 0)) as [E|E]; [apply (in_svs f s); auto; apply nth_In; auto| |].
    + rewrite E. ring.
    + rewrite (proj2 (Rltb_true _ _) E). field. lra.
  - intros l Hl. rewrite (nth_map_lt _ _ (pinv t) s l 0) by auto. unfold pinv.
    destruct (Rltb t (nth l s 0)) eqn:E; [|ring]. apply Rltb_true in E. field. lra.
  - intros i j Hi Hj. rewrite (rmat_det X A A' HA HA') by auto. apply HX; auto.
Qed.

Lemma xtx_tri : forall m n k A U V (d : nat -> R), orth m k U ->
  (forall i j, (i < m)%nat -> (j < n)%nat -> A i j = tri k U d V i j) ->
  forall i j, (i < n)%nat -> (j < n)%nat ->
  rsum m (fun a => A a i * A a j) = tri k V (fun l => d l * d l) V i j.
Proof.
  intros m n k A U V d HU HA i j Hi Hj.
  rewrite <- (tri_comp m k V U V d d i j HU). apply rsum_ext. intros a Ha.
  rewrite !HA, (tri_T k U d V a i) by auto. reflexivity.
Qed.

Section Sq.
Variables (X : Mat XR) (V : nat -> nat -> R) (f : SVD XR) (s : list R) (t : R).
Hypothesis (Hs : svS f = fins s)
  (HVr : mrows (svV f) = mcols X) (HVc : mcols (svV f) = length s) (HV : rmat (svV f) V)
  (Ht : 0 <= t).

Lemma inv_xtx_xr : exists W, PseudoInverseXTX f (fin t) = Ok W /\ mrows W = mcols X /\ mcols W = mcols X /\
    rmat W (tri (length s) V (fun l => pinv2 t (nth l s 0)) V).
Proof.
  unfold PseudoInverseXTX. rewrite Hs.
  rewrite (map_cond_fin _ (pinv2 t) s).
  2:{ intros x Hx. rewrite xmul_fin. change (nltb (n := XR) (fin t) (fin (x * x))) with (Rltb t (x * x)).
      unfold pinv2. destruct (Rltb t (x * x)) eqn:E; [|reflexivity]. apply Rltb_true in E.
      rewrite n1_fin, xdiv_fin by lra. f_equal. unfold Rdiv. ring. }
  destruct (triple_xr (svV f) (svV f) V V (map (pinv2 t) s) HV HV) as (W & EW & RW & CW & QW);
    try (rewrite map_length; auto).
  exists W. split; [exact EW|]. split; [lia|]. split; [lia|].
  intros i j Hi Hj. rewrite QW by auto. f_equal. rewrite map_length. apply tri_ext.
  intros l Hl. apply nth_map_lt; auto.
Qed.

Lemma pinv2_12 : no_tiny_sq t f -> forall l, (l < length s)%nat ->
  let d := nth l s 0 in d * d * pinv2 t d * (d * d) = d * d /\ pinv2 t d * (d * d) * pinv2 t d = pinv2 t d /\
  d * pinv2 t d * (d * d) = d.
Proof.
  intros Hn l Hl d. unfold pinv2.
  destruct (Hn d) as [E|E]; [apply (in_svs f s); auto; apply nth_In; auto| |].
  - rewrite E. destruct (Rltb t (0 * 0)) eqn:Q; [apply Rltb_true in Q; lra|]. lra.
  - rewrite (proj2 (Rltb_true _ _) E). assert (d <> 0) by (intro Z; rewrite Z in E; lra).
    split; [|split]; field; auto.
Qed.
End Sq.

Lemma pseudo_inverse_xtx_mp : forall X A f t, rmat X A -> exact_svd X f -> 0 <= t -> no_tiny_sq t f ->
  exists P p, PseudoInverseXTX f (fin t) = Ok P /\ mrows P = mcols X /\ mcols P = mcols X /\ rmat P p /\
    moore_penrose (mcols X) (mcols X) (fun i j => rsum (mrows X) (fun a => A a i * A a j)) p /\
    (* and p X^T is a generalised inverse: X^T X p X^T = X^T *)
    (forall i a, (i < mcols X)%nat -> (a < mrows X)%nat ->
      rsum (mcols X) (fun j => rsum (mrows X) (fun b => A b i * A b j) *
        rsum (mcols X) (fun c => p j c * A a c)) = A a i).
Proof.
  intros X A f t HA (A' & U & V & s & HA' & Hs & HUr & HUc & HU & HVr & HVc & HV & UU & VV & Hp & HX) Ht Hn.
  assert (HXA : forall i j, (i < mrows X)%nat -> (j < mcols X)%nat ->
     A i j = tri (length s) U (fun l => nth l s 0) V i j).
  { intros i j Hi Hj. rewrite (rmat_det X A A' HA HA') by auto. apply HX; auto. }
  destruct (inv_xtx_xr X V f s t Hs HVr HVc HV Ht) as (W & EW & RW & CW & QW).
  exists W. eexists. split; [exact EW|]. split; [lia|]. split; [lia|]. split; [exact QW|].
  pose proof (pinv2_12 f s t Hs Ht Hn) as P12. cbv zeta in P12.
  pose proof (xtx_tri _ _ _ A U V _ UU HXA) as TT.
  split.
  - apply (mp_tri _ _ (length s) V V (fun l => nth l s 0 * nth l s 0) (fun l => pinv2 t (nth l s 0))); auto.
    + intros l Hl. apply (P12 l Hl).
    + intros l Hl. apply (P12 l Hl).
  - intros i a Hi Ha.
    rewrite (rsum_ext (mcols X) _ (fun j => tri (length s) V (fun l => nth l s 0 * nth l s 0) V i j *
       tri (length s) V (fun l => pinv2 t (nth l s 0) * nth l s 0) U j a)).
    2:{ intros j Hj. f_equal; [apply TT; auto|].
        rewrite <- (tri_comp (mcols X) (length s) V V U _ _ j a VV). apply rsum_ext. intros c Hc. f_equal.
        rewrite HXA by auto. apply tri_T. }
    rewrite tri_comp by auto. rewrite HXA by auto. rewrite tri_T. apply tri_ext. intros l Hl.
    rewrite <- (proj2 (proj2 (P12 l Hl))) at 5. ring.
Qed.

(** the C parameter *)
Lemma mpc_normal : forall X A f y, rmat X A -> exact_svd X f -> no_tiny_sq (/ 1000000) f ->
  length y = mrows X -> (0 < mrows X)%nat ->
  exists c, mpC f (fins y) = Ok (fins c) /\ length c = mcols X /\
    forall j, (j < mcols X)%nat ->
      rsum (mcols X) (fun j' => rsum (mrows X) (fun i => A i j * A i j') * nth j' c 0) =
      rsum (mrows X) (fun i => A i j * nth i y 0).
Proof.
  intros X A f y HA (A' & U & V & s & HA' & Hs & HUr & HUc & HU & HVr & HVc & HV & UU & VV & Hp & HX) Hn Hy Hm.
  assert (HXA : forall i j, (i < mrows X)%nat -> (j < mcols X)%nat ->
     A i j = rsum (length s) (fun l => U i l * nth l s 0 * V j l)).
  { intros i j Hi Hj. rewrite (rmat_det X A A' HA HA') by auto. apply HX; auto. }
  unfold mpC. rewrite Hs.
  rewrite (map_cond_fin _ cinv s).
  2:{ intros x Hx. rewrite xmul_fin, e6_fin.
      change (nltb (n := XR) (fin (/ 1000000)) (fin (x * x))) with (Rltb (/ 1000000) (x * x)).
      unfold cinv. destruct (Rltb (/ 1000000) (x * x)) eqn:E; [|reflexivity]. apply Rltb_true in E.
      rewrite n1_fin, xdiv_fin by (intro Z; rewrite Z in E; lra). f_equal. unfold Rdiv. ring. }
  destruct (triple_xr (svV f) (svU f) V U (map cinv s) HV HU) as (W & EW & RW & CW & QW);
    try (rewrite map_length; auto).
  rewrite map_length in QW.
  assert (EE : forall Z (k : Mat XR -> res Z),
     (do vd <- mat_mul (svV f) (mat_diag (fins (map cinv s))); do vdu <- mat_mul vd (mat_T (svU f)); k vdu) =
     k W).
  { intros Z k0. destruct (mat_mul (svV f) (mat_diag (fins (map cinv s)))) as [vd| |]; try discriminate EW.
    cbn [bind] in *. rewrite EW. reflexivity. }
  cbv zeta. rewrite EE.
  destruct (mat_mul_fin W (mat_vec (fins y)) _ _ QW (mat_vec_fin y)) as (C & EC & RC & CC & QC).
  { cbn. rewrite fins_length. lia. }
  rewrite EC. cbn [bind].
  rewrite (fill_from_col C _ (mrows (svV f)) QC); [|lia|cbn in CC; lia].
  eexists. split; [reflexivity|]. split; [rewrite map_length, seq_length; auto|].
  set (c := fun j => mm (mcols W) (tri (length s) V (fun l => nth l (map cinv s) 0) U) (fun i _ => nth i y 0) j 0).
  assert (Hc : forall j, c j = rsum (length s) (fun l => V j l * (cinv (nth l s 0) * uty (mrows X) U y l))).
  { intro j. unfold c, mm, tri. rewrite CW, HUr.
    rewrite (rsum_ext (mrows X) _ (fun i => rsum (length s) (fun l => V j l * cinv (nth l s 0) * (U i l * nth i y 0)))).
    2:{ intros i Hi. rewrite <- rsum_scal_r. apply rsum_ext. intros l Hl.
        rewrite (nth_map_lt _ _ cinv s l 0) by auto. ring. }
    rewrite rsum_swap. apply rsum_ext. intros l Hl. rewrite rsum_scal. unfold uty. ring. }
  assert (Vc : forall l, (l < length s)%nat ->
    rsum (mcols X) (fun j => V j l * c j) = cinv (nth l s 0) * uty (mrows X) U y l).
  { intros l Hl.
    rewrite (rsum_ext (mcols X) _ (fun j => rsum (length s) (fun a => V j l * V j a * (cinv (nth a s 0) * uty (mrows X) U y a)))).
    2:{ intros j Hj. rewrite Hc, <- rsum_scal. apply rsum_ext. intros; ring. }
    rewrite rsum_swap.
    rewrite (rsum_ext (length s) _ (fun a => delta l a * (cinv (nth a s 0) * uty (mrows X) U y a))).
    2:{ intros a Ha. rewrite rsum_scal_r, VV by auto. ring. }
    apply (rsum_delta_l (length s) l (fun a => cinv (nth a s 0) * uty (mrows X) U y a)); auto. }
  assert (NE : forall j, (j < mcols X)%nat -> rsum (mrows X) (fun i => A i j * res_of (mcols X) A y c i) = 0).
  { apply (normal_gen X A U V s y UU HXA). intros l Hl. rewrite Vc by auto. unfold cinv.
    destruct (Hn (nth l s 0)) as [E|E]; [apply (in_svs f s); auto; apply nth_In; auto| |].
    - rewrite E. ring.
    - rewrite (proj2 (Rltb_true _ _) E). field. intro Z. rewrite Z in E. lra. }
  intros j Hj. specialize (NE j Hj). unfold res_of in NE.
  rewrite (rsum_ext (mrows X) _ (fun i => A i j * nth i y 0 - A i j * rsum (mcols X) (fun j' => A i j' * c j'))) in NE
    by (intros; ring).
  rewrite rsum_minus in NE.
  assert (G : rsum (mcols X) (fun j' => rsum (mrows X) (fun i => A i j * A i j') * c j') =
    rsum (mrows X) (fun i => A i j * rsum (mcols X) (fun j' => A i j' * c j'))).
  { rewrite (rsum_ext (mcols X) _ (fun j' => rsum (mrows X) (fun i => A i j * A i j' * c j'))).
    2:{ intros j' Hj'. rewrite <- rsum_scal_r. reflexivity. }
    rewrite rsum_swap. apply rsum_ext. intros i Hi. rewrite <- rsum_scal. apply rsum_ext. intros; ring. }
  rewrite (rsum_ext (mcols X) _ (fun j' => rsum (mrows X) (fun i => A i j * A i j') * c j')).
  - rewrite G. lra.
  - intros j' Hj'. f_equal. rewrite HVr. apply (nth_map_seq _ c). auto.
Qed.

(** the D parameter *)
Lemma mpd_solves : forall X A f sg inv, rmat X A -> exact_svd X f -> no_tiny_sq (/ 1000000) f ->
  PseudoInverseXTX f (ndec 1 (-6)) = Ok inv -> length sg = mcols X ->
  (exists z, forall j, (j < mcols X)%nat -> nth j sg 0 = rsum (mrows X) (fun i => A i j * z i)) ->
  exists d, mpD inv (fins sg) = Ok (fins d) /\ length d = mcols X /\
    forall j, (j < mcols X)%nat ->
      rsum (mcols X) (fun j' => rsum (mrows X) (fun i => A i j * A i j') * nth j' d 0) = nth j sg 0.
Proof.
  intros X A f sg inv HA HS Hn Hi Hl (z & Hz).
  destruct (pseudo_inverse_xtx_mp X A f (/ 1000000) HA HS ltac:(lra) Hn)
    as (P & p & EP & RP & CP & QP & _ & HG).
  rewrite e6_fin in Hi. rewrite EP in Hi. injection Hi as <-.
  unfold mpD. rewrite (mat_mulvec_fin P p sg QP) by lia.
  eexists. split; [reflexivity|]. split; [rewrite map_length, seq_length; auto|].
  intros j Hj. rewrite (Hz j Hj).
  rewrite (rsum_ext (mcols X) _ (fun j' => rsum (mrows X) (fun a => rsum (mrows X) (fun i => A i j * A i j') *
     rsum (mcols X) (fun c => p j' c * A a c) * z a))).
  - rewrite rsum_swap. apply rsum_ext. intros a Ha. rewrite rsum_scal_r, HG by auto. reflexivity.
  - intros j' Hj'. rewrite nth_map_seq by lia. rewrite CP.
    rewrite (rsum_ext (mcols X) _ (fun k => rsum (mrows X) (fun a => p j' k * A a k * z a))).
    2:{ intros k Hk. rewrite Hz by auto. rewrite <- rsum_scal. apply rsum_ext. intros; ring. }
    rewrite rsum_swap. rewrite <- rsum_scal. apply rsum_ext. intros a Ha. rewrite rsum_scal_r. ring.
Qed.

(** the hat matrix *)
Lemma hat_matrix : forall svd X A, rmat X A -> exact_svd X (svd X) -> no_tiny_sq (/ 1000000) (svd X) ->
  exists H h, DenumMatrixGcv svd X = Ok H /\ mrows H = mrows X /\ mcols H = mrows X /\ rmat H h /\
    (forall i j, (i < mrows X)%nat -> (j < mrows X)%nat -> h i j = h j i) /\
    (forall i j, (i < mrows X)%nat -> (j < mrows X)%nat -> rsum (mrows X) (fun a => h i a * h a j) = h i j) /\
    (forall i j, (i < mrows X)%nat -> (j < mcols X)%nat -> rsum (mrows X) (fun a => h i a * A a j) = A i j) /\
    (forall i, (i < mrows X)%nat -> 0 <= h i i <= 1).
Proof.
  intros svd X A HA (A' & U & V & s & HA' & Hs & HUr & HUc & HU & HVr & HVc & HV & UU & VV & Hp & HX) Hn.
  set (k := length s). set (f := svd X) in *.
  assert (HXA : forall i j, (i < mrows X)%nat -> (j < mcols X)%nat ->
     A i j = tri k U (fun l => nth l s 0) V i j).
  { intros i j Hi Hj. rewrite (rmat_det X A A' HA HA') by auto. apply HX; auto. }
  destruct (inv_xtx_xr X V f s (/ 1000000) Hs HVr HVc HV ltac:(lra)) as (W & EW & RW & CW & QW).
  unfold DenumMatrixGcv. fold f. rewrite e6_fin, EW. cbn [bind].
  destruct (mat_mul_fin X W _ _ HA QW ltac:(lia)) as (Y & EY & RY & CY & QY).
  rewrite EY. cbn [bind].
  destruct (mat_mul_fin Y (mat_T X) _ _ QY (mat_T_fin _ _ HA)) as (H & EH & RH & CH & QH); [cbn; lia|].
  set (e := fun l => nth l s 0 * pinv2 (/ 1000000) (nth l s 0) * nth l s 0).
  assert (Eh : forall i j, (i < mrows X)%nat -> (j < mrows X)%nat ->
    mm (mcols Y) (mm (mcols X) A (tri k V (fun l => pinv2 (/ 1000000) (nth l s 0)) V)) (fun i j => A j i) i j =
    tri k U e U i j).
  { intros i j Hi Hj. unfold mm. rewrite CY, CW. unfold e.
    rewrite <- (tri_comp (mcols X) k U V U (fun l => nth l s 0 * pinv2 (/ 1000000) (nth l s 0)) (fun l => nth l s 0) i j VV).
    apply rsum_ext. intros c Hc.
    rewrite <- (tri_comp (mcols X) k U V V (fun l => nth l s 0) (fun l => pinv2 (/ 1000000) (nth l s 0)) i c VV).
    rewrite (HXA j c) by auto. rewrite (tri_T k U _ V j c). f_equal. apply rsum_ext. intros a Ha. rewrite HXA by auto. reflexivity. }
  assert (E01 : forall l, (l < k)%nat -> e l = 0 /\ nth l s 0 = 0 \/ e l = 1).
  { intros l Hl. unfold e, pinv2.
    destruct (Hn (nth l s 0)) as [E|E]; [apply (in_svs f s); auto; apply nth_In; auto| |].
    - left. rewrite E. lra.
    - right. rewrite (proj2 (Rltb_true _ _) E). field. intro Z. rewrite Z in E. lra. }
  exists H, (tri k U e U). split; auto. split; [lia|]. split; [rewrite CH; reflexivity|].
  split.
  { intros i j Hi Hj. rewrite QH by auto. f_equal. apply Eh; [lia|cbn in CH; lia]. }
  split; [intros; apply tri_sym|].
  assert (Idem : forall i j, rsum (mrows X) (fun a => tri k U e U i a * tri k U e U a j) = tri k U e U i j).
  { intros i j. rewrite tri_comp by auto. apply tri_ext. intros l Hl.
    destruct (E01 l Hl) as [(E & _)|E]; rewrite E; ring. }
  split; [intros; apply Idem|]. split.
  - intros i j Hi Hj.
    rewrite (rsum_ext (mrows X) _ (fun a => tri k U e U i a * tri k U (fun l => nth l s 0) V a j)).
    2:{ intros a Ha. rewrite HXA by auto. reflexivity. }
    rewrite tri_comp by auto. rewrite HXA by auto. apply tri_ext. intros l Hl.
    destruct (E01 l Hl) as [(E & E')|E]; rewrite E, ?E'; ring.
  - intros i Hi. pose proof (Idem i i) as I.
    rewrite (rsum_ext (mrows X) _ (fun a => Rsqr (tri k U e U i a))) in I.
    2:{ intros a Ha. rewrite (tri_sym k U e a i). reflexivity. }
    assert (T : Rsqr (tri k U e U i i) <= tri k U e U i i).
    { rewrite <- I at 2. apply (rsum_term_le (mrows X) (fun a => Rsqr (tri k U e U i a))); auto.
      intros; apply Rle_0_sqr. }
    unfold Rsqr in T. set (x := tri k U e U i i) in *. nra.
Qed.

(** minimum norm *)
Lemma fit_min_norm : forall svd X A y, rmat X A -> exact_svd X (svd X) -> no_tiny (/ 1000000) (svd X) ->
  (0 < mrows X)%nat -> length y = mrows X ->
  exists w, Fit svd X (fins y) = Ok (fins w) /\
    forall w', length w' = mcols X ->
      rss (mrows X) (mcols X) A w' y <= rss (mrows X) (mcols X) A w y -> norm2 w <= norm2 w'.
Proof.
  intros svd X A y HA HS Ht Hm Hy.
  destruct (fit_min svd X A y HA HS Ht Hm Hy) as (w & EF & Lw & _ & _ & HM).
  destruct HS as (A' & U & V & s & HA' & Hs & HUr & HUc & HU & HVr & HVc & HV & UU & VV & Hp & HX).
  pose proof (fit_xr X (svd X) U V s y Hs HUr HUc HU HVr HVc HV Hy Hm svd eq_refl) as EF'.
  exists w. split; auto. intros w' Lw' Hle. rewrite (HM w' Lw') in Hle.
  set (d := fun j => nth j w' 0 - nth j w 0).
  assert (Z : forall i, (i < mrows X)%nat -> rsum (mcols X) (fun j => A i j * d j) = 0).
  { intros i Hi. apply Rsqr_0_uniq. apply (rsum_zero_terms (mrows X) (fun i => Rsqr (rsum (mcols X) (fun j => A i j * d j)))); auto.
    - intros; apply Rle_0_sqr.
    - apply Rle_antisym; [unfold d; lra|]. apply rsum_nonneg; intros; apply Rle_0_sqr. }
  assert (HXA : forall i j, (i < mrows X)%nat -> (j < mcols X)%nat ->
     A i j = rsum (length s) (fun l => U i l * nth l s 0 * V j l)).
  { intros i j Hi Hj. rewrite (rmat_det X A A' HA HA') by auto. apply HX; auto. }
  (* s_l * (V^T d)_l = 0 *)
  assert (SV : forall l, (l < length s)%nat -> nth l s 0 * rsum (mcols X) (fun j => V j l * d j) = 0).
  { intros l Hl.
    assert (T := Utr X A U V s y UU HXA d l Hl).
    rewrite (rsum_ext (mrows X) _ (fun i => U i l * nth i y 0)) in T.
    2:{ intros i Hi. rewrite Z by auto. ring. }
    unfold uty in T. lra. }
  assert (Ww : forall j, (j < mcols X)%nat -> nth j w 0 = what (mrows X) U V s y j).
  { intros j Hj. rewrite EF in EF'. injection EF' as E.
    assert (E' : w = map (what (mrows X) U V s y) (seq 0 (mcols X))).
    { clear -E. revert E. generalize (map (what (mrows X) U V s y) (seq 0 (mcols X))). 
      induction w as [|a w IH]; intros [|b l] E; cbn in E; try discriminate; auto.
      injection E as -> E. f_equal. auto. }
    rewrite E'. apply nth_map_seq; auto. }
  assert (O : rsum (mcols X) (fun j => nth j w 0 * d j) = 0).
  { rewrite (rsum_ext (mcols X) _ (fun j => rsum (length s) (fun l =>
       (uty (mrows X) U y l * cut (/ 1000000) (nth l s 0)) * (V j l * d j)))).
    2:{ intros j Hj. rewrite Ww by auto. unfold what. rewrite <- rsum_scal_r. apply rsum_ext. intros; ring. }
    rewrite rsum_swap. apply rsum_0'. intros l Hl. rewrite rsum_scal.
    unfold cut. destruct (Rltb (/ 1000000) (Rabs (nth l s 0))) eqn:E; [|ring].
    apply Rltb_true in E. assert (N : nth l s 0 <> 0) by (intro Q; rewrite Q, Rabs_R0 in E; lra).
    specialize (SV l Hl). apply Rmult_integral in SV. destruct SV as [SV|SV]; [contradiction|].
    rewrite SV. ring. }
  unfold norm2. rewrite !lsum_rsum, !map_length, Lw, Lw'.
  assert (Q : rsum (mcols X) (fun i => nth i (map Rsqr w') 0) =
    rsum (mcols X) (fun i => nth i (map Rsqr w) 0) + 2 * rsum (mcols X) (fun j => nth j w 0 * d j) +
    rsum (mcols X) (fun j => Rsqr (d j))).
  { rewrite <- rsum_scal, <- !rsum_plus. apply rsum_ext. intros i Hi.
    rewrite (nth_map_lt _ _ Rsqr w' i 0), (nth_map_lt _ _ Rsqr w i 0) by lia. unfold d, Rsqr. ring. }
  rewrite Q, O.
  assert (0 <= rsum (mcols X) (fun j => Rsqr (d j))) by (apply rsum_nonneg; intros; apply Rle_0_sqr). lra.
Qed.

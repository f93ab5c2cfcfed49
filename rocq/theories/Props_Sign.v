(** C89: reversing the sign of a feature or of the target. *)
From Coq Require Import Reals Lra Floats.SpecFloat.
From Verif Require Import Base Num Mat Model_Node Model_Util Model_Fit Model_Norm Model_Cov Model_Crd Model_CrdPath
  Proof_CrdPath Props_Crd Props_CrdPath Spec_Sign Proof_Sign Proof_Sign2 Proof_Sign3.

Lemma laws : forall N, arithmetic N -> SignLaws N.
Proof. intros N [o|]; [apply f64_SignLaws|apply XR_SignLaws]. Qed.

Definition usual_estimator {N : Num} (get : Mat N -> res (Mat N)) : Prop := get = Empirical_Get \/ get = Identity_Get.

Lemma estimator : forall (N : Num) (L : SignLaws N) sf (get : Mat N -> res (Mat N)) X X', usual_estimator get ->
  mirror_mat (fun _ j => sf j) X X' -> alike (mirror_cov N sf) (get X) (get X').
Proof. intros N L sf get X X' [-> | ->] H; [apply empirical_rr|apply identity_rr]; assumption. Qed.

(** C89: the features with [sf j] true and (if [sy]) the target are listed with
    the opposite sign.  The normalised data are the same up to these signs; not
    one bit of them differs otherwise. *)
Theorem C89_normalise : forall (N : Num) sf sy (X X' : Mat N) y y', arithmetic N ->
  mirror_mat (fun _ j => sf j) X X' -> mirror_list (fun _ => sy) y y' ->
  alike (mirror_nd sf sy) (NewNormalizedData X y) (NewNormalizedData X' y').
Proof. intros N sf sy X X' y y' A HX Hy. apply normalise_rr; [apply laws; exact A|exact HX|exact Hy]. Qed.
Print Assumptions C89_normalise.

(** C89: for every penalty that is not negative, every correction and every
    limit: the coefficient of feature j changes its sign if exactly one of
    feature j and the target did, and nothing else changes; the run reports
    convergence, or panics, if and only if the other one does. *)
Theorem C89_descent : forall (N : Num) sf sy get (d d' : NormalizedData N) lamb x0 maxIter tol corr corr', arithmetic N ->
  mirror_nd sf sy d d' -> usual_estimator get -> nltb lamb n0 = false ->
  mirror_corr (fun j => xorb (sf j) sy) corr corr' ->
  alike (fun r r' => let '(b, x, c, v) := r in let '(b', x', c', v') := r' in
     mirror_list (fun j => xorb (sf j) sy) b b' /\ x = x' /\ mirror_corr (fun j => xorb (sf j) sy) c c' /\ v = v')
    (LassoCrdDesc get d lamb x0 maxIter tol corr) (LassoCrdDesc get d' lamb x0 maxIter tol corr').
Proof.
  intros N sf sy get d d' lamb x0 maxIter tol corr corr' A (HX & Hy & _) HG Hl Hc. pose proof (laws N A) as L.
  apply descent_rr; auto. apply estimator; assumption.
Qed.
Print Assumptions C89_descent.

(** ** The path *)

Lemma sel_eq : forall (N : Num) (L : SignLaws N) s (b b' : list N), mirror_list s b b' ->
  filter (fun j => nltb (ndec 1 (-16)) (nabs (nth j b n0))) (seq 0 (length b)) =
  filter (fun j => nltb (ndec 1 (-16)) (nabs (nth j b' n0))) (seq 0 (length b')).
Proof.
  intros N L s b b' (Hl & H). rewrite <- Hl. apply filter_ext_in. intros j Hj. apply in_seq in Hj.
  rewrite (sl_abs _ L (s j) (nth j b n0) (nth j b' n0)) by (apply H; lia). reflexivity.
Qed.

Lemma node_mirror : forall (N : Num) (L : SignLaws N) s lamb (b b' : list N) nd nd', mirror_list s b b' ->
  node_of lamb b nd -> node_of lamb b' nd' -> mirror_node (fun z => s (Z.to_nat z)) nd nd'.
Proof.
  intros N L s lamb b b' nd nd' H (A1 & A2 & A3) (B1 & B2 & B3).
  assert (ES : lnSelection nd = lnSelection nd') by (rewrite A2, B2, (sel_eq N L s b b' H); reflexivity).
  split; [exact ES|]. split; [congruence|]. split; [rewrite A3, B3, !map_length, ES; reflexivity|].
  intros k Hk. rewrite A3 in Hk. rewrite map_length in Hk. rewrite A3, B3, <- ES.
  rewrite (nth_indep _ n0 (nth (Z.to_nat 0) b n0)) by (rewrite map_length; exact Hk).
  rewrite (nth_indep (map (fun s0 => nth (Z.to_nat s0) b' n0) _) n0 (nth (Z.to_nat 0) b' n0)) by (rewrite map_length; exact Hk).
  rewrite (map_nth (fun u => nth (Z.to_nat u) b n0)), (map_nth (fun u => nth (Z.to_nat u) b' n0)).
  apply (proj2 H). assert (I : In (nth k (lnSelection nd) 0%Z) (lnSelection nd)) by (apply nth_In; exact Hk).
  rewrite A2 in I at 2. apply in_map_iff in I. destruct I as (j & E & I). apply filter_In in I. destruct I as (I & _).
  apply in_seq in I. rewrite <- E, Nat2Z.id. lia.
Qed.

Lemma trim_only : forall (N : Num) (path r : list (LassoLarsNode N)), without_leading_empty path r -> r = trim path.
Proof.
  intros N path r H. unfold trim. destruct H as [(dr & -> & F & nd & t & -> & Hnd)|(-> & F)].
  - assert (E : drop_empty (dr ++ nd :: t) = nd :: t).
    { induction F as [|u dr Hu F IH]; cbn [app drop_empty]; [|rewrite Hu; exact IH].
      destruct (lnSelection nd); [contradiction|reflexivity]. }
    rewrite E. reflexivity.
  - assert (E : drop_empty path = []) by (induction F as [|u p Hu F IH]; cbn [drop_empty]; [reflexivity|rewrite Hu; exact IH]).
    rewrite E. reflexivity.
Qed.

Lemma trim_mirror : forall (N : Num) s (p p' : list (LassoLarsNode N)), Forall2 (mirror_node s) p p' -> Forall2 (mirror_node s) (trim p) (trim p').
Proof.
  intros N s p p' F. unfold trim.
  assert (D : Forall2 (mirror_node s) (drop_empty p) (drop_empty p')).
  { induction F as [|u u' p p' Hu F IH]; cbn [drop_empty]; [constructor|]. rewrite <- (proj1 Hu).
    destruct (lnSelection u); [exact IH|]. constructor; assumption. }
  inversion D; [exact F|constructor; assumption].
Qed.

(** C89: any two runs of LassoCrdDescPath that finish, one on the data as they
    are and one with reversed signs, return the same penalties and the same
    features, with the coefficients' signs changed accordingly. *)
Theorem C89_path : forall (N : Num) sf sy get (d d' : NormalizedData N) lambs maxIter tol corr sched sched' c c' r r', arithmetic N ->
  mirror_nd sf sy d d' -> usual_estimator get -> stateless corr -> shaped get d corr ->
  (forall l, In l lambs -> nltb l n0 = false) ->
  path_run get d lambs maxIter tol sched (path_init lambs corr) = Some c -> plMain c = PDone r ->
  path_run get d' lambs maxIter tol sched' (path_init lambs corr) = Some c' -> plMain c' = PDone r' ->
  Forall2 (mirror_node (fun z => xorb (sf (Z.to_nat z)) sy)) r r'.
Proof.
  intros N sf sy get d d' lambs maxIter tol corr sched sched' c c' r r' A M HG Hst Hsh Hl E Ed E' Ed'.
  pose proof (laws N A) as L.
  assert (Hsh' : shaped get d' corr).
  { destruct Hsh as [S1 S2 (C & EC & C1 & C2) S4]. pose proof M as ((M1 & M2 & M3) & (M4 & _) & _).
    pose proof (estimator N L sf get _ _ HG (proj1 M)) as K. rewrite EC in K.
    destruct (get (ndX d')) as [C'| |] eqn:EC'; try contradiction. destruct K as ((K1 & K2 & _) & _).
    constructor; [lia|lia|exists C'; split; [exact EC'|lia]|]. destruct corr; try exact I. contradiction. }
  destruct (C35_every_schedule N get d lambs maxIter tol corr Hsh Hst) as (p & FP & S).
  destruct (C35_every_schedule N get d' lambs maxIter tol corr Hsh' Hst) as (p' & FP' & S').
  destruct (S sched c E) as (_ & _ & _ & W). destruct (W r Ed) as (W1 & _). apply trim_only in W1. subst r.
  destruct (S' sched' c' E') as (_ & _ & _ & W'). destruct (W' r' Ed') as (W1' & _). apply trim_only in W1'. subst r'.
  apply trim_mirror. clear - FP FP' Hl A M HG L Hst.
  assert (Hl' : forall l, In l (rev lambs) -> nltb l n0 = false) by (intros l H; apply Hl, in_rev; exact H). clear Hl.
  revert p p' FP FP' Hl'. induction (rev lambs) as [|l ls IH]; intros p p' FP FP' Hl; inversion FP as [|? u ? us Q F]; inversion FP' as [|? u' ? us' Q' F']; subst; constructor.
  - destruct Q as (b & x & co & v & EL & HN). destruct Q' as (b' & x' & co' & v' & EL' & HN').
    assert (MC : mirror_corr (fun j => xorb (sf j) sy) corr corr) by (destruct corr; cbn; auto; contradiction).
    pose proof (C89_descent N sf sy get d d' l None maxIter tol corr corr A M HG (Hl l (or_introl eq_refl)) MC) as K.
    rewrite EL, EL' in K. destruct K as (K & _). 
    apply (node_mirror N L (fun j => xorb (sf j) sy) l b b'); assumption.
  - apply IH; auto. intros k Hk. apply Hl. right. exact Hk.
Qed.
Print Assumptions C89_path.

(** ** Back to the units of the data *)

Lemma eachi_rr : forall A S S' (R : nat -> S -> S' -> Prop) (b : nat -> A -> S -> res S) (b' : nat -> A -> S' -> res S') l i s s',
  R i s s' -> (forall k v s s', nth_error l k = Some v -> R (i + k)%nat s s' -> alike (R (Datatypes.S (i + k))) (b (i + k)%nat v s) (b' (i + k)%nat v s')) ->
  alike (R (i + length l)%nat) (for_eachi i l b s) (for_eachi i l b' s').
Proof.
  induction l as [|v l IH]; intros i s s' H K; cbn [for_eachi length].
  - rewrite Nat.add_0_r. exact H.
  - eapply rr_bind; [|].
    + specialize (K 0%nat v s s' eq_refl). rewrite Nat.add_0_r in K. apply K. exact H.
    + intros t t' Ht. rewrite Nat.add_succ_r. rewrite <- Nat.add_succ_l. apply IH; [exact Ht|].
      intros k w u u' Hk Hu. specialize (K (Datatypes.S k) w u u' Hk). rewrite Nat.add_succ_r in K. apply K. exact Hu.
Qed.

(** C89: Path2Unnormalized keeps the relation; the intercept (feature 0, whose
    column keeps its sign) changes with the target. *)
Theorem C89_original_units : forall (N : Num) sf sy (d d' : NormalizedData N) p p', arithmetic N ->
  mirror_nd sf sy d d' -> sf 0 = false ->
  Forall2 (mirror_node (fun z => xorb (sf (Z.to_nat z)) sy)) p p' ->
  alike (Forall2 (mirror_node (fun z => xorb (sf (Z.to_nat z)) sy))) (Path2Unnormalized d p) (Path2Unnormalized d' p').
Proof.
  intros N sf sy d d' p p' A (HX & Hy & Es & Hmu & EsY & HmuY & Eb) H0 F. pose proof (laws N A) as L.
  induction F as [|n n' p p' Hn F IH]; cbn [Path2Unnormalized]; [constructor|].
  eapply (rr_bind _ _ _ _ (mirror_node (fun z => xorb (sf (Z.to_nat z)) sy))); [|intros u u' Hu; eapply rr_bind; [exact IH|intros q q' Hq; constructor; assumption]].
  clear IH F. destruct Hn as (ES & EL & Hlen & HC). unfold unnormalize_node. rewrite <- ES, <- EL, <- Eb.
  assert (HC' : mirror_list (fun k => xorb (sf (Z.to_nat (nth k (lnSelection n) 0%Z))) sy) (lnCoeff n) (lnCoeff n')) by (split; assumption).
  eapply rr_bind.
  { unfold LinearTransformationBias. eapply rr_bind.
    - apply (eachi_rr _ _ _ (fun _ => mirror sy)); [apply (sl_zero _ L)|]. intros k v a a' Hk Ha.
      rewrite Nat.add_0_l. eapply rr_bind; [apply (getn_rr _ _ _ _ _ HC')|]. intros c c' Hc. cbn beta in Hc.
      rewrite (nth_error_nth _ _ 0%Z Hk) in Hc.
      eapply rr_bind; [apply (getz_rr _ sf); exact Hmu|]. intros m m' Hm. cbn beta in Hm.
      rewrite <- Es. eapply rr_bind; [apply rr_eq|]. intros s ? <-. cbn.
      apply (sl_add _ L); [exact Ha|]. apply (sl_div _ L).
      replace sy with (xorb (xorb (sf (Z.to_nat v)) sy) (sf (Z.to_nat v))) by (destruct (sf (Z.to_nat v)), sy; reflexivity).
      apply (sl_mul _ L); assumption.
    - intros a a' Ha. cbn. apply (sl_sub _ L); [exact HmuY|]. rewrite EsY. apply mul_const; [exact L|exact Ha]. }
  intros bias bias' Hbias. eapply rr_bind.
  { apply (rr_loop _ _ (fun _ => mirror_list (fun k => xorb (sf (Z.to_nat (nth k (lnSelection n) 0%Z))) sy))); [exact HC'|].
    intros i l l' Hi Hl. eapply rr_bind; [apply rr_eq|]. intros z ? <-.
    eapply rr_bind; [apply (getn_rr _ _ _ _ _ Hl)|]. intros c c' Hc.
    unfold LinearNormalizationTransformation. rewrite <- Eb, <- Es, <- EsY.
    eapply (rr_bind _ _ _ _ (mirror (xorb (sf (Z.to_nat (nth i (lnSelection n) 0%Z))) sy))).
    - destruct ((z =? 0)%Z && ndHasBias d)%bool; [exact I|]. eapply rr_bind; [apply rr_eq|]. intros s ? <-. cbn.
      apply (sl_div _ L), mul_const_r; [exact L|exact Hc].
    - intros w w' Hw. apply setn_rr; [exact Hl|exact Hw]. }
  intros q q' Hq. destruct (ndHasBias d); cbn.
  - split; [reflexivity|]. split; [reflexivity|]. cbn [lnCoeff lnSelection length]. split; [rewrite (proj1 Hq); reflexivity|].
    intros [|k] Hk; cbn [nth]; [|apply (proj2 Hq); lia]. cbn. rewrite H0. rewrite Bool.xorb_false_l. exact Hbias.
  - split; [reflexivity|]. split; [reflexivity|]. exact Hq.
Qed.
Print Assumptions C89_original_units.

(** ** Example: four rows, feature 1 and the target reversed; feature 2 keeps
    its sign, so its coefficient changes and that of feature 1 does not *)
Definition sg_z (z : Z) : F64 fenv0 := nofZ z.
Definition sg_x (s : Z) (i j : nat) : F64 fenv0 :=
  match j with O => sg_z 0 | 1 => sg_z (s * nth i [-1; 1; -1; 1] 0)%Z | _ => sg_z (nth i [-1; -1; 1; 1] 0)%Z end.
Definition sg_y (s : Z) : list (F64 fenv0) := map (fun z => sg_z (s * z)) [-3; 1; -1; 3]%Z.
Definition sg_d (s : Z) : NormalizedData (F64 fenv0) := mkND (mkMat 4 3 (sg_x s)) (sg_y s) [] [] (sg_z 1) (sg_z 0) true.

Lemma sg_mirror : mirror_nd (fun j => (j =? 1)%nat) true (sg_d 1) (sg_d (-1)).
Proof.
  split; [|split; [|repeat split; try (cbn; intros; lia); right; split; split; reflexivity]].
  - split; [reflexivity|]. split; [reflexivity|]. cbn. intros i j Hi Hj. apply f64_mirror.
    destruct j as [|[|[|j]]]; try lia; destruct i as [|[|[|[|i]]]]; try lia; cbn; first [left; reflexivity|right; eexists; eexists; split; reflexivity].
  - split; [reflexivity|]. cbn. intros i Hi. apply f64_mirror. destruct i as [|[|[|[|i]]]]; try lia; left; reflexivity.
Qed.

Example C89_example : exists b1 b2 : F64 fenv0,
  match LassoCrdDesc Empirical_Get (sg_d 1) (ndec 5 (-1)) None 2 (ndec 1 (-3)) PureLasso,
        LassoCrdDesc Empirical_Get (sg_d (-1)) (ndec 5 (-1)) None 2 (ndec 1 (-3)) PureLasso with
  | Ok (b, _, _, v), Ok (b', _, _, v') => b = [n0; b1; b2] /\ b' = [n0; b1; nneg b2] /\ v = v' /\ nltb n0 b2 = true /\ nltb b2 b1 = true
  | _, _ => False
  end.
Proof.
  exists (ndec (n := F64 fenv0) 15 (-1)), (ndec (n := F64 fenv0) 5 (-1)). vm_compute. auto 10.
Qed.

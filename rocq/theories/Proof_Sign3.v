(** Reversing signs: coordinate descent. *)
From Verif Require Import Base Num Mat Model_Node Model_Util Model_Fit Model_Norm Model_Cov Model_Crd Spec_Sign Proof_Sign Proof_Sign2.

Section Sign.
  Context (N : Num) (L : SignLaws N).

  Definition mirror_cov (s : nat -> bool) (C C' : Mat N) : Prop :=
    mirror_mat (fun i j => xorb (s i) (s j)) C C' /\ forall i, (i < mrows C)%nat -> (i < mcols C)%nat -> mval C i i = mval C' i i.

  Lemma mul_const : forall s (a a' c : N), mirror s a a' -> mirror s (c * a)%num (c * a')%num.
  Proof using L. intros s a a' c H. rewrite <- (Bool.xorb_false_l s). apply (sl_mul _ L); [apply mf|exact H]. Qed.
  Lemma mul_const_r : forall s (a a' c : N), mirror s a a' -> mirror s (a * c)%num (a' * c)%num.
  Proof using L. intros s a a' c H. rewrite <- (Bool.xorb_false_r s). apply (sl_mul _ L); [exact H|apply mf]. Qed.

  Lemma soft_mirror : forall s (x x' t : N), nltb t n0 = false -> mirror s x x' -> mirror s (SoftThreshold x t) (SoftThreshold x' t).
  Proof using L.
    intros s x x' t Ht H. unfold SoftThreshold. destruct s.
    - rewrite (sl_lt _ L true x x' (nneg t) t H (sl_neg _ L t)).
      assert (H' : mirror true t (nneg t)) by (left; reflexivity).
      rewrite (sl_lt _ L true t (nneg t) x x' H' H).
      destruct (nltb t x') eqn:E1, (nltb x' (nneg t)) eqn:E2.
      + pose proof (sl_pos _ L t (sl_trans _ L _ _ _ E1 E2)) as K. congruence.
      + apply (sl_addsub _ L). exact H.
      + apply (sl_subadd _ L). exact H.
      + apply (sl_zero _ L).
    - rewrite (sl_lt _ L false x x' (nneg t) (nneg t) H (mf N _)), (sl_lt _ L false t t x x' (mf N _) H).
      destruct (nltb x' (nneg t)); [apply (sl_add _ L); [exact H|apply mf]|].
      destruct (nltb t x'); [apply (sl_sub _ L); [exact H|apply mf]|apply mf].
  Qed.

  Lemma abs_gt : forall s (b b' t : N), mirror s b b' -> nltb t (nabs b) = nltb t (nabs b').
  Proof using L. intros s b b' t H. rewrite (sl_abs _ L s b b' H). reflexivity. Qed.

  Lemma Deriv_rr : forall s c c' (b b' : list N) j, mirror_corr s c c' -> mirror_list s b b' ->
    alike (mirror (s j)) (Deriv c b (Z.of_nat j)) (Deriv c' b' (Z.of_nat j)).
  Proof using L.
    intros s [|cl eta|l] [|cl' eta'|l'] b b' j Hc Hb; cbn [mirror_corr] in Hc; try contradiction; cbn [Deriv].
    - apply (sl_zero _ L).
    - destruct Hc as (Hc & <-). rewrite <- (proj1 Hc). eapply rr_bind.
      + apply (rr_loop _ _ (fun _ (st st' : N * N) => fst st = fst st' /\ mirror false (snd st) (snd st'))).
        * split; [reflexivity|apply mf].
        * intros i (n1', i1) (n2, i2) Hi (E & HI). cbn [fst snd] in E, HI. subst n2.
          eapply rr_bind; [apply (getn_rr _ s); exact Hc|]. intros x x' Hx.
          eapply rr_bind; [apply (getn_rr _ s); exact Hb|]. intros z z' Hz. cbn. split.
          -- f_equal. apply (sl_sqr _ L (s i)). exact Hx.
          -- apply (sl_add _ L); [exact HI|]. rewrite <- (Bool.xorb_nilpotent (s i)). apply (sl_mul _ L); assumption.
      + intros (nn, ii) (nn', ii') (E & HI). cbn [fst snd] in E, HI. subst nn'.
        destruct (nltb (nabs nn) (ndec 1 (-10))); [apply (sl_zero _ L)|].
        eapply rr_bind; [rewrite !getz_nat; apply (getn_rr _ s); exact Hc|]. intros x x' Hx. cbn.
        apply (sl_div _ L). rewrite <- (Bool.xorb_false_r (s j)). apply (sl_mul _ L); [|exact HI]. apply mul_const. exact Hx.
    - subst l'. eapply rr_bind; [rewrite !getz_nat; apply (getn_rr _ s); exact Hb|]. intros x x' Hx. cbn. apply mul_const. exact Hx.
  Qed.

  Lemma Update_mirror : forall s c c' (b b' : list N), mirror_corr s c c' -> mirror_list s b b' -> mirror_corr s (Update c b) (Update c' b').
  Proof using.
    intros s [|cl eta|l] [|cl' eta'|l'] b b' Hc Hb; cbn [mirror_corr Update] in *; try contradiction; auto.
    destruct Hc as (Hc & He). split; [|exact He]. apply copy_mirror; assumption.
  Qed.

  Lemma diag_rr : forall s C C' j, mirror_cov s C C' -> alike eq (mat_at C j j) (mat_at C' j j).
  Proof using.
    intros s C C' j ((Hr & Hc & H) & Hd). unfold mat_at. rewrite <- Hr, <- Hc.
    destruct (Nat.ltb_spec j (mrows C)), (Nat.ltb_spec j (mcols C)); cbn; auto.
  Qed.

  Lemma update_rr : forall s C C' (v v' : list N) j o o' w w', mirror_cov s C C' -> mirror_list s v v' -> mirror (s j) o o' -> mirror (s j) w w' ->
    alike (mirror_list s) (UpdateCovDotBeta C v j o w) (UpdateCovDotBeta C' v' j o' w').
  Proof using L.
    intros s C C' v v' j o o' w w' (HC & _) Hv Ho Hw. unfold UpdateCovDotBeta. rewrite <- (proj1 Hv).
    apply (rr_loop _ _ (fun _ => mirror_list s)); [exact Hv|]. intros i l l' Hi Hl.
    eapply rr_bind; [apply (getn_rr _ s); exact Hl|]. intros x x' Hx.
    eapply rr_bind; [apply mat_at_rr; exact HC|]. intros c c' Hc. cbn in Hc.
    apply setn_rr; [exact Hl|]. apply (sl_add _ L); [exact Hx|].
    replace (s i) with (xorb (xorb (s i) (s j)) (s j)) by (destruct (s i), (s j); reflexivity).
    apply (sl_mul _ L); [exact Hc|]. apply (sl_sub _ L); assumption.
  Qed.

  Definition mirror_st (s : nat -> bool) (a a' : Crd N) : Prop :=
    mirror_list s (crBeta a) (crBeta a') /\ mirror_list s (crOld a) (crOld a') /\ mirror_list s (crCdb a) (crCdb a') /\
    crIter a = crIter a' /\ crConv a = crConv a' /\ mirror_corr s (crCorr a) (crCorr a') /\ crStop a = crStop a'.

  Lemma coord_rr : forall s nr C C' (q q' old old' : list N) lamb c c' j st st',
    nltb lamb n0 = false -> mirror_cov s C C' -> mirror_list s q q' -> mirror_list s old old' -> mirror_corr s c c' ->
    mirror_list s (fst st) (fst st') /\ mirror_list s (snd st) (snd st') ->
    alike (fun r r' => mirror_list s (fst r) (fst r') /\ mirror_list s (snd r) (snd r'))
      (crd_coord nr C q old lamb c j st) (crd_coord nr C' q' old' lamb c' j st').
  Proof using L.
    intros s nr C C' q q' old old' lamb c c' j (cdb, beta) (cdb', beta') Hlamb HC Hq Ho Hc (H1 & H2). cbn [fst snd] in *. unfold crd_coord.
    eapply rr_bind; [apply (diag_rr s); exact HC|]. intros cd ? <-.
    eapply rr_bind; [apply (getn_rr _ s); exact Ho|]. intros o o' Hoo.
    eapply rr_bind; [apply (getn_rr _ s); exact H1|]. intros k k' Hk.
    eapply rr_bind; [apply (getn_rr _ s); exact Hq|]. intros x x' Hx.
    eapply rr_bind; [apply (Deriv_rr s); [exact Hc|exact Ho]|]. intros d d' Hd.
    assert (W : mirror (s j) (SoftThreshold (x / nofnat nr - (k - o * cd) - d)%num lamb / cd)%num
                             (SoftThreshold (x' / nofnat nr - (k' - o' * cd) - d')%num lamb / cd)%num).
    { apply (sl_div _ L), soft_mirror; [exact Hlamb|]. apply (sl_sub _ L); [|exact Hd].
      apply (sl_sub _ L); [apply (sl_div _ L); exact Hx|]. apply (sl_sub _ L); [exact Hk|]. apply mul_const_r. exact Hoo. }
    eapply rr_bind; [apply (update_rr s); [exact HC|exact H1|exact Hoo|exact W]|]. clear cdb cdb' H1. intros cdb cdb' H1.
    eapply rr_bind; [apply (setn_rr _ s); [exact H2|exact W]|]. intros b b' Hb. cbn. auto.
  Qed.

  Lemma change_rr : forall s (b b' o o' : list N) it, mirror_list s b b' -> mirror_list s o o' ->
    alike eq (crd_change b o it) (crd_change b' o' it).
  Proof using L.
    intros s b b' o o' it Hb Ho. unfold crd_change. apply rr_each; [reflexivity|].
    intros j (mc, mx) ? _ <-. eapply rr_bind; [apply (getn_rr _ s); exact Hb|]. intros x x' Hx.
    eapply rr_bind; [apply (getn_rr _ s); exact Ho|]. intros z z' Hz. cbn.
    rewrite (sl_abs _ L (s j) x x' Hx), (sl_abs _ L (s j) _ _ (sl_sub _ L _ _ _ _ _ Hx Hz)). reflexivity.
  Qed.

  Lemma compact_rr : forall s (b b' : list N) it, mirror_list s b b' -> alike eq (crd_compact b it) (crd_compact b' it).
  Proof using L.
    intros s b b' it Hb. unfold crd_compact. eapply rr_bind; [|intros (i, n) ? <-; reflexivity].
    apply (rr_loop _ _ (fun _ => eq)); [reflexivity|]. intros i (l, n) ? Hi <-.
    eapply rr_bind; [apply rr_eq|]. intros j ? <-.
    eapply rr_bind; [apply (getn_rr _ s); exact Hb|]. intros x x' Hx. rewrite (abs_gt (s j) x x' _ Hx). apply rr_eq.
  Qed.

  Lemma kkt_rr : forall s (q q' p p' b b' : list N) lamb c c', mirror_list s q q' -> mirror_list s p p' -> mirror_list s b b' -> mirror_corr s c c' ->
    alike eq (UnsatisfiedKKTConditions q p b lamb c) (UnsatisfiedKKTConditions q' p' b' lamb c').
  Proof using L.
    intros s q q' p p' b b' lamb c c' Hq Hp Hb Hc. unfold UnsatisfiedKKTConditions. rewrite <- (proj1 Hp), <- (proj1 Hq).
    apply (rr_loop _ _ (fun _ => eq)); [reflexivity|]. intros i l ? Hi <-.
    eapply rr_bind; [apply (getn_rr _ s); exact Hq|]. intros x x' Hx.
    eapply rr_bind; [apply (getn_rr _ s); exact Hp|]. intros k k' Hk.
    eapply rr_bind; [apply (Deriv_rr s); [exact Hc|exact Hb]|]. intros d d' Hd.
    eapply rr_bind; [apply (getn_rr _ s); exact Hb|]. intros z z' Hz.
    rewrite (abs_gt (s i) z z' _ Hz). 
    rewrite (sl_abs _ L (s i) (x - k * nofnat (length q) - d)%num (x' - k' * nofnat (length q) - d')%num); [apply rr_eq|].
    apply (sl_sub _ L); [|exact Hd]. apply (sl_sub _ L); [exact Hx|]. apply mul_const_r. exact Hk.
  Qed.

  Lemma iter_rr : forall s nr C C' (q q' : list N) lamb tol st st', nltb lamb n0 = false ->
    mirror_cov s C C' -> mirror_list s q q' -> mirror_st s st st' ->
    alike (mirror_st s) (crd_iter nr C q lamb tol st) (crd_iter nr C' q' lamb tol st').
  Proof using L.
    intros s nr C C' q q' lamb tol st st' Hlamb HC Hq (Hb & Ho & Hk & Hi & Hv & Hc & Hs). unfold crd_iter. rewrite <- Hi.
    eapply rr_bind.
    { apply (rr_each _ _ _ (fun r r' => mirror_list s (fst r) (fst r') /\ mirror_list s (snd r) (snd r'))); [split; assumption|].
      intros j r r' _ Hr. apply coord_rr; assumption. }
    intros (cdb, beta) (cdb', beta') (K1 & K2). cbn [fst snd] in K1, K2.
    eapply rr_bind; [apply (change_rr s); [exact K2|exact Ho]|]. intros (mc, mx) ? <-.
    eapply rr_bind; [apply (compact_rr s); exact K2|]. intros it ? <-.
    assert (U := Update_mirror s _ _ _ _ Hc K2). assert (O := copy_mirror N s _ _ _ _ Ho K2).
    destruct (nltb (mc / mx)%num tol).
    - eapply rr_bind; [apply (kkt_rr s); eassumption|]. intros u ? <-. destruct (length u =? 0)%nat; cbn; unfold mirror_st; cbn; auto 10.
    - cbn; unfold mirror_st; cbn; auto 10.
  Qed.

  Lemma loop_rr : forall s nr C C' (q q' : list N) lamb tol k st st', nltb lamb n0 = false ->
    mirror_cov s C C' -> mirror_list s q q' -> mirror_st s st st' ->
    alike (mirror_st s) (crd_loop nr C q lamb tol k st) (crd_loop nr C' q' lamb tol k st').
  Proof using L.
    induction k as [|k IH]; intros st st' Hl HC Hq H; cbn [crd_loop]; [exact H|].
    eapply rr_bind; [apply (iter_rr s); eassumption|]. intros a a' Ha. rewrite <- (proj2 (proj2 (proj2 (proj2 (proj2 (proj2 Ha)))))).
    destruct (crStop a); [exact Ha|apply IH; assumption].
  Qed.

  Lemma mulslice_rr : forall s C C' (v v' : list N), mirror_cov s C C' -> mirror_list s v v' -> alike (mirror_list s) (MulSlice C v) (MulSlice C' v').
  Proof using L.
    intros s C C' v v' (HC & _) Hv. unfold MulSlice. rewrite <- (proj1 Hv). destruct HC as (Hr & Hc & HC). rewrite <- Hr, <- Hc.
    destruct (negb _); [exact I|].
    apply (rr_loop _ _ (fun _ => mirror_list s)); [apply repeat_mirror; exact L|]. intros i l l' Hi Hl.
    apply (rr_loop _ _ (fun _ => mirror_list s)); [exact Hl|]. clear l l' Hl. intros j l l' Hj Hl.
    eapply rr_bind; [apply (getn_rr _ s); exact Hl|]. intros x x' Hx.
    eapply rr_bind; [apply (mat_at_rr _ (fun i j => xorb (s i) (s j))); split; [exact Hr|split; [exact Hc|exact HC]]|]. intros c c' Hcc.
    eapply rr_bind; [apply (getn_rr _ s); exact Hv|]. intros b b' Hb.
    apply setn_rr; [exact Hl|]. apply (sl_add _ L); [exact Hx|].
    replace (s i) with (xorb (xorb (s i) (s j)) (s j)) by (destruct (s i), (s j); reflexivity). apply (sl_mul _ L); assumption.
  Qed.

  Lemma start_rr : forall s C C' n c c', mirror_cov s C C' -> mirror_corr s c c' ->
    alike (fun a a' => mirror_st s a a' /\ crOld a = crOld a') (crd_start C n c) (crd_start C' n c').
  Proof using L.
    intros s C C' n c c' HC Hc. unfold crd_start. eapply rr_bind; [apply rr_eq|]. intros it ? <-.
    eapply rr_bind; [apply (mulslice_rr s); [exact HC|apply repeat_mirror; exact L]|]. intros k k' Hk.
    cbn. unfold mirror_st. cbn. pose proof (repeat_mirror N L s n). auto 10.
  Qed.

  (** ** the covariance estimators *)

  Lemma mul_mirror : forall sf (X X' : Mat N), mirror_mat (fun _ j => sf j) X X' ->
    alike (mirror_cov sf) (mat_mul (mat_T X) X) (mat_mul (mat_T X') X').
  Proof using L.
    intros sf X X' (Hr & Hc & H). unfold mat_mul. cbn [mat_T mcols mrows]. rewrite <- Hr, !Nat.eqb_refl. cbn [alike].
    split; [split; [exact Hc|split; [exact Hc|]]|]; cbn [mrows mcols mval mat_T].
    - intros i j Hi Hj. apply nsum_mirror; [exact L|]. intros k Hk. apply (sl_mul _ L); apply H; assumption.
    - intros i Hi _. apply nsum_ext'. intros k Hk. apply (sl_sqr _ L (sf i)). apply H; assumption.
  Qed.

  Lemma empirical_rr : forall sf (X X' : Mat N), mirror_mat (fun _ j => sf j) X X' ->
    alike (mirror_cov sf) (Empirical_Get X) (Empirical_Get X').
  Proof using L.
    intros sf X X' H. pose proof H as (Hr & Hc & _). unfold Empirical_Get. rewrite <- Hc, <- Hr.
    eapply rr_bind; [apply rr_eq|]. intros ? ? _. eapply rr_bind; [apply mul_mirror; exact H|].
    intros C C' ((H1 & H2 & H3) & H4). cbn. split; [split; [exact H1|split; [exact H2|]]|]; cbn.
    - intros i j Hi Hj. apply mul_const. apply H3; assumption.
    - intros i Hi Hj. rewrite (H4 i Hi Hj). reflexivity.
  Qed.

  Lemma identity_rr : forall sf (X X' : Mat N), mirror_mat (fun _ j => sf j) X X' ->
    alike (mirror_cov sf) (Identity_Get X) (Identity_Get X').
  Proof using L.
    intros sf X X' H. pose proof H as (Hr & Hc & _). unfold Identity_Get. rewrite <- Hc.
    eapply rr_bind; [apply rr_eq|]. intros l ? <-. destruct (_ =? 0)%nat; [exact I|]. cbn [alike].
    split; [split; [reflexivity|split; [reflexivity|]]|reflexivity].
    intros i j Hi Hj. cbn [mat_diag mval]. destruct (Nat.eqb_spec i j) as [->|].
    - rewrite Bool.xorb_nilpotent. apply mf.
    - apply (sl_zero _ L).
  Qed.

  Lemma xty_rr : forall sf sy (X X' : Mat N) y y', mirror_mat (fun _ j => sf j) X X' -> mirror_list (fun _ => sy) y y' ->
    alike (mirror_list (fun j => xorb (sf j) sy)) (mat_mulvec (mat_T X) y) (mat_mulvec (mat_T X') y').
  Proof using L.
    intros sf sy X X' y y' (Hr & Hc & H) Hy. unfold mat_mulvec. cbn [mat_T mcols mrows]. rewrite <- Hr, <- Hc, <- (proj1 Hy).
    destruct (Nat.eqb_spec (mrows X) (length y)) as [E|]; [|exact I]. cbn [alike]. split; [rewrite !map_length; reflexivity|].
    rewrite map_length, seq_length. intros j Hj.
    rewrite (nth_indep _ n0 (nsum (mrows X) (fun k => mval (mat_T X) 0 k * nth k y n0)%num)) by (rewrite map_length, seq_length; exact Hj).
    rewrite (nth_indep (map _ _) n0 (nsum (mrows X) (fun k => mval (mat_T X') 0 k * nth k y' n0)%num)) by (rewrite map_length, seq_length; exact Hj).
    rewrite (map_nth (fun i => nsum (mrows X) (fun k => mval (mat_T X) i k * nth k y n0)%num)).
    rewrite (map_nth (fun i => nsum (mrows X) (fun k => mval (mat_T X') i k * nth k y' n0)%num)).
    rewrite seq_nth by exact Hj. cbn [Nat.add]. apply nsum_mirror; [exact L|]. intros k Hk. cbn [mat_T mval].
    apply (sl_mul _ L); [apply H; assumption|]. apply (proj2 Hy). lia.
  Qed.

  Lemma cov_signs : forall s t C C', (forall i j, xorb (s i) (s j) = xorb (t i) (t j)) -> mirror_cov s C C' -> mirror_cov t C C'.
  Proof using.
    intros s t C C' E ((H1 & H2 & H3) & H4). split; [|exact H4]. split; [exact H1|]. split; [exact H2|].
    intros i j Hi Hj. rewrite <- E. apply H3; assumption.
  Qed.

  Definition out_rel (s : nat -> bool) (r r' : list N * option (list N) * Correction N * bool) : Prop :=
    let '(b, x, c, v) := r in let '(b', x', c', v') := r' in
    mirror_list s b b' /\ x = x' /\ mirror_corr s c c' /\ v = v'.

  Lemma descent_rr : forall sf sy get get' (d d' : NormalizedData N) lamb x0 maxIter tol c c',
    nltb lamb n0 = false ->
    mirror_mat (fun _ j => sf j) (ndX d) (ndX d') -> mirror_list (fun _ => sy) (ndy d) (ndy d') ->
    alike (mirror_cov sf) (get (ndX d)) (get' (ndX d')) -> mirror_corr (fun j => xorb (sf j) sy) c c' ->
    alike (out_rel (fun j => xorb (sf j) sy)) (LassoCrdDesc get d lamb x0 maxIter tol c) (LassoCrdDesc get' d' lamb x0 maxIter tol c').
  Proof using L.
    intros sf sy get get' d d' lamb x0 maxIter tol c c' Hl HX Hy HG Hc. unfold LassoCrdDesc.
    pose proof HX as (Hr & Hcc & _). rewrite <- Hr, <- Hcc.
    eapply rr_bind; [exact HG|]. intros C C' HC.
    apply (cov_signs _ (fun j => xorb (sf j) sy)) in HC; [|intros i j; destruct (sf i), (sf j), sy; reflexivity].
    eapply rr_bind; [apply xty_rr; [exact HX|exact Hy]|]. intros q q' Hq.
    eapply rr_bind; [apply start_rr; [exact HC|exact Hc]|]. intros a a' (Ha & Ho).
    eapply rr_bind; [apply loop_rr; [exact Hl|exact HC|exact Hq|exact Ha]|]. intros b b' (B1 & B2 & B3 & B4 & B5 & B6 & B7).
    cbn. rewrite Ho. auto.
  Qed.
End Sign.

(** Reversing signs: the arithmetic. *)
From Coq Require Import Reals Lra Floats.SpecFloat.
From Verif Require Import Base Num Mat Model_Norm Model_Cov Spec_Sign.

Record SignLaws (N : Num) : Prop := mkSignLaws {
  sl_add : forall s (a a' b b' : N), mirror s a a' -> mirror s b b' -> mirror s (a + b)%num (a' + b')%num;
  sl_sub : forall s (a a' b b' : N), mirror s a a' -> mirror s b b' -> mirror s (a - b)%num (a' - b')%num;
  sl_mul : forall s t (a a' b b' : N), mirror s a a' -> mirror t b b' -> mirror (xorb s t) (a * b)%num (a' * b')%num;
  sl_div : forall s (a a' c : N), mirror s a a' -> mirror s (a / c)%num (a' / c)%num;
  sl_abs : forall s (a a' : N), mirror s a a' -> nabs a = nabs a';
  sl_sqr : forall s (a a' : N), mirror s a a' -> (a * a)%num = (a' * a')%num;
  sl_lt : forall s (a a' b b' : N), mirror s a a' -> mirror s b b' ->
    nltb a b = if s then nltb b' a' else nltb a' b';
  sl_neg : forall a : N, mirror true (nneg a) a;
  sl_addsub : forall (a a' t : N), mirror true a a' -> mirror true (a + t)%num (a' - t)%num;
  sl_subadd : forall (a a' t : N), mirror true a a' -> mirror true (a - t)%num (a' + t)%num;
  sl_zero : forall s, mirror (N := N) s n0 n0;
  sl_pos : forall t : N, nltb t (nneg t) = true -> nltb t n0 = true;
  sl_trans : forall x y z : N, nltb x y = true -> nltb y z = true -> nltb x z = true
}.

(** ** binary64 *)

Lemma f64_zero : forall o (x : F64 o), zero x <-> exists s, x = S754_zero s.
Proof.
  intros o x. split.
  - intros (H1 & H2). destruct x as [s|s| |s m e]; [exists s; reflexivity|destruct s; discriminate|discriminate|].
    destruct s; vm_compute in H1, H2; discriminate.
  - intros (s & ->). destruct s; split; reflexivity.
Qed.

Lemma round_opp : forall p em s m e l, binary_round_aux p em (negb s) m e l = SFopp (binary_round_aux p em s m e l).
Proof.
  intros. unfold binary_round_aux. destruct (shr_fexp p em m e l) as [r e'].
  destruct (shr_fexp p em _ e' loc_Exact) as [r' e'']. destruct (shr_m r') as [|q|q]; try reflexivity.
  destruct (Z.leb _ _); reflexivity.
Qed.

Lemma normalize_opp : forall p em m e, binary_normalize p em (- m) e false = SFopp (binary_normalize p em m e false) \/
  (exists s s', binary_normalize p em (- m) e false = S754_zero s /\ binary_normalize p em m e false = S754_zero s').
Proof.
  intros p em [|m|m] e; cbn [Z.opp binary_normalize].
  - right. exists false, false. auto.
  - left. unfold binary_round. destruct (shl_align m e _). apply (round_opp p em false).
  - left. unfold binary_round. destruct (shl_align m e _). apply (round_opp p em true).
Qed.

Lemma cond_opp : forall s m, cond_Zopp (negb s) m = (- cond_Zopp s m)%Z.
Proof. intros [|] m; cbn; lia. Qed.

Definition same (x y : f64) : Prop := x = y \/ exists s s', x = S754_zero s /\ y = S754_zero s'.

Lemma same_refl : forall x, same x x. Proof. left. reflexivity. Qed.

Lemma same_opp : forall x y, same x y -> same (SFopp x) (SFopp y).
Proof. intros x y [->|(s & s' & -> & ->)]; [left; reflexivity|right; exists (negb s), (negb s'); auto]. Qed.

Lemma add_opp : forall p em a b, same (SFadd p em (SFopp a) (SFopp b)) (SFopp (SFadd p em a b)).
Proof.
  intros p em [sa|sa| |sa ma ea] [sb|sb| |sb mb eb]; cbn [SFopp SFadd]; try (left; reflexivity);
    try (destruct sa, sb; cbn; first [left; reflexivity|right; eexists; eexists; split; reflexivity]).
  rewrite !cond_opp. rewrite <- Z.opp_add_distr.
  destruct (normalize_opp p em (cond_Zopp sa (Z.pos (fst (shl_align ma ea (Z.min ea eb)))) + cond_Zopp sb (Z.pos (fst (shl_align mb eb (Z.min ea eb))))) (Z.min ea eb)) as [E|(s & s' & E & E')].
  - left. exact E.
  - right. rewrite E, E'. exists s, (negb s'). auto.
Qed.

Lemma sub_add : forall p em a b, SFsub p em a b = SFadd p em a (SFopp b).
Proof.
  intros p em [sa|sa| |sa ma ea] [sb|sb| |sb mb eb]; cbn [SFopp SFadd SFsub]; try reflexivity;
    try (destruct sa, sb; reflexivity).
Qed.

Lemma add_same : forall p em a a' b b', same a a' -> same b b' -> same (SFadd p em a b) (SFadd p em a' b').
Proof.
  intros p em a a' b b' [->|(s & s' & -> & ->)] [->|(t & t' & -> & ->)].
  - left. reflexivity.
  - destruct a' as [sa|sa| |sa ma ea]; [|destruct sa; left; reflexivity|left; reflexivity|left; reflexivity].
    right. destruct sa, t, t'; cbn; eexists; eexists; split; reflexivity.
  - destruct b' as [sb|sb| |sb mb eb]; [|destruct sb; left; reflexivity|left; reflexivity|left; reflexivity].
    right. destruct sb, s, s'; cbn; eexists; eexists; split; reflexivity.
  - right. destruct s, s', t, t'; cbn; eexists; eexists; split; reflexivity.
Qed.

Lemma mul_opp_l : forall p em a b, SFmul p em (SFopp a) b = SFopp (SFmul p em a b).
Proof.
  intros p em [sa|sa| |sa ma ea] [sb|sb| |sb mb eb]; cbn [SFopp SFmul]; try reflexivity;
    try (rewrite Bool.negb_xorb_l; reflexivity).
  rewrite <- Bool.negb_xorb_l. apply round_opp.
Qed.

Lemma mul_opp_r : forall p em a b, SFmul p em a (SFopp b) = SFopp (SFmul p em a b).
Proof.
  intros p em [sa|sa| |sa ma ea] [sb|sb| |sb mb eb]; cbn [SFopp SFmul]; try reflexivity;
    try (rewrite Bool.negb_xorb_r; reflexivity).
  rewrite <- Bool.negb_xorb_r. apply round_opp.
Qed.

Lemma mul_same : forall p em a a' b b', same a a' -> same b b' -> same (SFmul p em a b) (SFmul p em a' b').
Proof.
  intros p em a a' b b' [->|(s & s' & -> & ->)] [->|(t & t' & -> & ->)].
  - left. reflexivity.
  - destruct a' as [sa|sa| |sa ma ea]; cbn; first [left; reflexivity|right; eexists; eexists; split; reflexivity].
  - destruct b' as [sb|sb| |sb mb eb]; cbn; first [left; reflexivity|right; eexists; eexists; split; reflexivity].
  - right. cbn. eexists; eexists; split; reflexivity.
Qed.

Lemma div_opp : forall p em a b, SFdiv p em (SFopp a) b = SFopp (SFdiv p em a b).
Proof.
  intros p em [sa|sa| |sa ma ea] [sb|sb| |sb mb eb]; cbn [SFopp SFdiv]; try reflexivity;
    try (rewrite Bool.negb_xorb_l; reflexivity).
  destruct (SFdiv_core_binary p em (Z.pos ma) ea (Z.pos mb) eb) as [[mz ez] lz].
  rewrite <- Bool.negb_xorb_l. apply round_opp.
Qed.

Lemma div_same : forall p em a a' b, same a a' -> same (SFdiv p em a b) (SFdiv p em a' b).
Proof.
  intros p em a a' b [->|(s & s' & -> & ->)]; [left; reflexivity|].
  destruct b as [sb|sb| |sb mb eb]; cbn; first [left; reflexivity|right; eexists; eexists; split; reflexivity].
Qed.

Lemma f64_mirror : forall o s (x x' : F64 o), mirror s x x' <-> same (if s then SFopp x else x) x'.
Proof.
  intros o s x x'. unfold mirror. rewrite !f64_zero. split.
  - intros [->|((t & ->) & (t' & ->))]; [left; reflexivity|]. right. destruct s; cbn; eauto.
  - intros [<-|(t & t' & E & ->)]; [left; reflexivity|]. right. split; [|eauto].
    destruct s; [|eauto]. destruct x; try discriminate E. eauto.
Qed.

Lemma opp_invol : forall x, SFopp (SFopp x) = x.
Proof. intros [s|s| |s m e]; cbn; rewrite ?Bool.negb_involutive; reflexivity. Qed.

Lemma same_sym : forall x y, same x y -> same y x.
Proof. intros x y [->|(s & s' & -> & ->)]; [left; reflexivity|right; eauto]. Qed.
Lemma same_trans : forall x y z, same x y -> same y z -> same x z.
Proof.
  intros x y z [->|(s & s' & -> & ->)] H; [exact H|]. destruct H as [<-|(t & t' & E & ->)]; right; eauto.
Qed.

Lemma lt_same : forall a a' b b', same a a' -> same b b' -> SFltb a b = SFltb a' b'.
Proof.
  intros a a' b b' [->|(s & s' & -> & ->)] [->|(t & t' & -> & ->)]; try reflexivity.
Qed.

Lemma lt_opp : forall a b, SFltb (SFopp a) (SFopp b) = SFltb b a.
Proof.
  intros a b. pose proof (ol_neg_lt (f64_OrdLaws fenv0) a (SFopp b)) as H. cbn in H.
  rewrite opp_invol in H. exact H.
Qed.

Lemma f64_SignLaws : forall o, SignLaws (F64 o).
Proof.
  intro o. constructor.
  - intros s a a' b b' Ha Hb. apply f64_mirror in Ha. apply f64_mirror in Hb. apply f64_mirror. cbn [nadd F64].
    refine (same_trans _ _ _ _ (add_same _ _ _ _ _ _ Ha Hb)). destruct s; [|left; reflexivity].
    apply same_sym, add_opp.
  - intros s a a' b b' Ha Hb. apply f64_mirror in Ha. apply f64_mirror in Hb. apply f64_mirror. cbn [nsub F64].
    rewrite !sub_add. refine (same_trans _ _ _ _ (add_same _ _ _ _ _ _ Ha (same_opp _ _ Hb))). destruct s; [|left; reflexivity].
    apply same_sym, add_opp.
  - intros s t a a' b b' Ha Hb. apply f64_mirror in Ha. apply f64_mirror in Hb. apply f64_mirror. cbn [nmul F64].
    refine (same_trans _ _ _ _ (mul_same _ _ _ _ _ _ Ha Hb)). left.
    destruct s, t; cbn [xorb]; rewrite ?mul_opp_l, ?mul_opp_r, ?opp_invol; reflexivity.
  - intros s a a' c Ha. apply f64_mirror in Ha. apply f64_mirror. cbn [ndiv F64].
    refine (same_trans _ _ _ _ (div_same _ _ _ _ _ Ha)). left. destruct s; [|reflexivity]. symmetry. apply div_opp.
  - intros s a a' Ha. apply f64_mirror in Ha. cbn [nabs F64].
    destruct Ha as [<-|(t & t' & E & ->)]; [destruct s, a; reflexivity|].
    destruct s, a; try discriminate E; reflexivity.
  - intros s a a' Ha. apply f64_mirror in Ha. cbn [nmul F64].
    destruct Ha as [<-|(t & t' & E & ->)].
    + destruct s; [|reflexivity]. rewrite mul_opp_l, mul_opp_r, opp_invol. reflexivity.
    + destruct s, a as [u|u| |u m e]; try discriminate E; cbn; destruct u, t'; reflexivity.
  - intros s a a' b b' Ha Hb. apply f64_mirror in Ha. apply f64_mirror in Hb. cbn [nltb F64].
    destruct s.
    + rewrite <- (lt_opp b a). apply lt_same; assumption.
    + apply lt_same; assumption.
  - intro a. apply f64_mirror. cbn [nneg F64]. rewrite opp_invol. left. reflexivity.
  - intros a a' t Ha. apply f64_mirror in Ha. apply f64_mirror. cbn [nadd nsub F64]. rewrite sub_add.
    refine (same_trans _ _ _ _ (add_same _ _ _ _ _ _ Ha (same_refl _))). apply same_sym, add_opp.
  - intros a a' t Ha. apply f64_mirror in Ha. apply f64_mirror. cbn [nadd nsub F64]. rewrite sub_add.
    refine (same_trans _ _ _ _ (add_same _ _ _ _ _ _ Ha (same_refl _))).
    refine (same_trans _ _ _ (same_sym _ _ (add_opp _ _ _ _)) _). rewrite opp_invol. left. reflexivity.
  - intros s. apply f64_mirror. right. destruct s; cbn; eexists; eexists; split; reflexivity.
  - intros t H. cbn [nltb nneg F64] in *. destruct t as [s|s| |s m e]; try destruct s; try discriminate H; reflexivity.
  - apply (ol_trans (f64_OrdLaws o)).
Qed.

(** ** exact arithmetic *)

Lemma xr_mirror : forall s (x x' : XR), mirror s x x' <-> x' = (if s then xneg x else x).
Proof.
  intros s x x'. split; [|intro H; left; exact H]. intros [H|(H & H')]; [exact H|].
  assert (Z : forall y : XR, zero y -> y = XFin 0).
  { intros y (H1 & H2). destruct y as [| | |r]; try discriminate. f_equal. cbn in H1, H2. unfold xleb in *. cbn in *.
    unfold Rltb in *. destruct (Rlt_dec 0 r), (Rlt_dec r 0); try discriminate. lra. }
  rewrite (Z x H), (Z x' H'). destruct s; [cbn; f_equal; lra|reflexivity].
Qed.

Lemma xsgn_neg : forall x, xsgn (xneg x) = (- xsgn x)%Z.
Proof.
  intros [| | |r]; try reflexivity. cbn. unfold Rltb.
  destruct (Rlt_dec (- r) 0), (Rlt_dec r 0), (Rlt_dec 0 (- r)), (Rlt_dec 0 r); try reflexivity; lra.
Qed.

Lemma xinf_neg : forall z, xinf_of_sgn (- z) = xneg (xinf_of_sgn z).
Proof. intros [|p|p]; reflexivity. Qed.

Lemma xneg_neg : forall x, xneg (xneg x) = x.
Proof. intros [| | |r]; try reflexivity. cbn. f_equal. lra. Qed.

Lemma xadd_neg : forall a b, xadd (xneg a) (xneg b) = xneg (xadd a b).
Proof. intros [| | |a] [| | |b]; try reflexivity. cbn. f_equal. lra. Qed.

Lemma xmul_neg_l : forall a b, xmul (xneg a) b = xneg (xmul a b).
Proof.
  intros [| | |a] [| | |b]; try reflexivity; cbn; try (f_equal; lra);
    unfold Rltb; repeat destruct (Rlt_dec _ _); try reflexivity; lra.
Qed.

Lemma xmul_neg_r : forall a b, xmul a (xneg b) = xneg (xmul a b).
Proof.
  intros [| | |a] [| | |b]; try reflexivity; cbn; try (f_equal; lra);
    unfold Rltb; repeat destruct (Rlt_dec _ _); try reflexivity; lra.
Qed.

Lemma xdiv_neg : forall a b, xdiv (xneg a) b = xneg (xdiv a b).
Proof.
  intros [| | |a] [| | |b]; try reflexivity; cbn; try (f_equal; lra);
    unfold Rltb, Reqb; repeat destruct (Rlt_dec _ _); try destruct (Req_EM_T b 0);
    repeat destruct (Rlt_dec _ _); try reflexivity; try lra; cbn; f_equal; field; assumption.
Qed.

Lemma XR_SignLaws : SignLaws XR.
Proof.
  constructor.
  - intros s a a' b b' Ha Hb. apply xr_mirror in Ha. apply xr_mirror in Hb. subst. apply xr_mirror. cbn.
    destruct s; [apply xadd_neg|reflexivity].
  - intros s a a' b b' Ha Hb. apply xr_mirror in Ha. apply xr_mirror in Hb. subst. apply xr_mirror. cbn. unfold xsub.
    destruct s; [apply xadd_neg|reflexivity].
  - intros s t a a' b b' Ha Hb. apply xr_mirror in Ha. apply xr_mirror in Hb. subst. apply xr_mirror. cbn [nmul XR].
    destruct s, t; cbn [xorb]; rewrite ?xmul_neg_l, ?xmul_neg_r, ?xneg_neg; reflexivity.
  - intros s a a' c Ha. apply xr_mirror in Ha. subst. apply xr_mirror. cbn [ndiv XR]. destruct s; [apply xdiv_neg|reflexivity].
  - intros s a a' Ha. apply xr_mirror in Ha. subst. destruct s; [|reflexivity]. destruct a; try reflexivity.
    cbn. f_equal. symmetry. apply Rabs_Ropp.
  - intros s a a' Ha. apply xr_mirror in Ha. subst. destruct s; [|reflexivity]. cbn [nmul XR].
    rewrite xmul_neg_l, xmul_neg_r, xneg_neg. reflexivity.
  - intros s a a' b b' Ha Hb. apply xr_mirror in Ha. apply xr_mirror in Hb. subst. destruct s; [|reflexivity].
    destruct a as [| | |a], b as [| | |b]; try reflexivity. cbn. unfold Rltb.
    destruct (Rlt_dec a b), (Rlt_dec (- b) (- a)); try reflexivity; lra.
  - intro a. apply xr_mirror. symmetry. apply xneg_neg.
  - intros a a' t Ha. apply xr_mirror in Ha. subst. apply xr_mirror. cbn. unfold xsub. apply xadd_neg.
  - intros a a' t Ha. apply xr_mirror in Ha. subst. apply xr_mirror. cbn. unfold xsub.
    rewrite <- xadd_neg, xneg_neg. reflexivity.
  - intros s. apply xr_mirror. destruct s; [cbn; f_equal; lra|reflexivity].
  - intros [| | |t] H; try discriminate H; try reflexivity. cbn in *. unfold Rltb in *.
    destruct (Rlt_dec t (- t)); [|discriminate]. destruct (Rlt_dec t 0); [reflexivity|lra].
  - apply (ol_trans XR_OrdLaws).
Qed.

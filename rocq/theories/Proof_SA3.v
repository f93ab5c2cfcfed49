(** A NaN among the observations makes every cost NaN (binary64). *)
From Coq Require Import Floats.SpecFloat.
From Verif Require Import Base Num Mat Model_Node Model_Util Model_Fit Model_SA
  Proof_Node Proof_Node2 Proof_Models Proof_SA2.

(** shape of the factors of a thin singular value decomposition *)
Definition thin_shape {N : Num} (A : Mat N) (f : SVD N) : Prop :=
  let k := length (svS f) in
  (1 <= k)%nat /\ mrows (svU f) = mrows A /\ mcols (svU f) = k /\
  mrows (svV f) = mcols A /\ mcols (svV f) = k.

Section NaNProp.
  Variable o : fenv.
  Notation N := (F64 o).
  Notation nan := (S754_nan : N).

  Lemma add_nan_l : forall x : N, (nan + x)%num = nan.
  Proof. intros [s|s| |s m e]; reflexivity. Qed.
  Lemma add_nan_r : forall x : N, (x + nan)%num = nan.
  Proof. intros [s|s| |s m e]; reflexivity. Qed.
  Lemma mul_nan_l : forall x : N, (nan * x)%num = nan.
  Proof. intros [s|s| |s m e]; reflexivity. Qed.
  Lemma mul_nan_r : forall x : N, (x * nan)%num = nan.
  Proof. intros [s|s| |s m e]; reflexivity. Qed.
  Lemma sub_nan_l : forall x : N, (nan - x)%num = nan.
  Proof. intros [s|s| |s m e]; reflexivity. Qed.

  Lemma nsum_nan : forall n (f : nat -> N) j, (j < n)%nat -> f j = nan -> nsum n f = nan.
  Proof.
    induction n as [|n IH]; intros f j Hj Hf; [lia|]. cbn [nsum].
    destruct (Nat.eq_dec j n) as [->|Hne]; [rewrite Hf; apply add_nan_r|].
    rewrite (IH f j) by (auto; lia). apply add_nan_l.
  Qed.

  Variable y : list N.
  Variable j0 : nat.
  Hypothesis Hj0 : (j0 < length y)%nat.
  Hypothesis Hnan : nth j0 y n0 = nan.

  Lemma fit_nan : forall svd (D : Mat N), mrows D = length y -> thin_shape D (svd D) ->
    Fit svd D y = Ok (repeat nan (mcols D)).
  Proof.
    intros svd D Hr (Hk & HU1 & HU2 & HV1 & HV2). unfold Fit.
    rewrite Hr, Nat.eqb_refl. cbn [negb].
    destruct (Nat.eqb_spec (length y) 0) as [|_]; [lia|].
    set (f := svd D) in *.
    unfold mat_mul at 1. cbn [mat_T mcols mrows mat_vec].
    rewrite HU1, Hr, Nat.eqb_refl. cbn [bind].
    set (u0 := mkMat _ _ _).
    assert (U0 : forall i, (i < length (svS f))%nat -> mval u0 i 0 = nan).
    { intros i Hi. cbn [u0 mval]. apply nsum_nan with (j := j0); [exact Hj0|].
      change (mval (mat_vec y) j0 0) with (nth j0 y n0). rewrite Hnan. apply mul_nan_r. }
    assert (Loop : exists u, for_loop 0 (length (svS f)) (fun i m =>
        do s <- getn (svS f) i;
        do a <- mat_at m i 0;
        mat_set m i 0 (a * (if nltb (ndec 1 (-6)) (nabs s) then (n1 / s)%num else n0))%num) u0 = Ok u /\
        (mrows u = length (svS f) /\ mcols u = 1%nat /\
         forall i, (i < length (svS f))%nat -> mval u i 0 = nan)).
    { destruct (for_loop_inv _ (fun _ (u : Mat N) => mrows u = length (svS f) /\ mcols u = 1%nat /\
         forall i, (i < length (svS f))%nat -> mval u i 0 = nan)
         (fun i m =>
        do s <- getn (svS f) i;
        do a <- mat_at m i 0;
        mat_set m i 0 (a * (if nltb (ndec 1 (-6)) (nabs s) then (n1 / s)%num else n0))%num) (length (svS f)) 0%nat u0) as (u & E & H).
      - split; [exact HU2|]. split; [reflexivity|exact U0].
      - intros i u Hi (A & B & C). rewrite (getn_lt _ (svS f) i n0) by lia. cbn [bind].
        rewrite mat_at_in by lia. cbn [bind]. rewrite mat_set_in by lia.
        eexists. split; [reflexivity|]. split; [exact A|]. split; [exact B|].
        intros i' Hi'. rewrite mat_upd_val. destruct (_ && _)%bool; [|apply C; exact Hi'].
        rewrite (C i) by lia. apply mul_nan_l.
      - exists u. split; [exact E|exact H]. }
    destruct Loop as (u & -> & Hu1 & Hu2 & Hu3). cbn [bind].
    unfold mat_mul. rewrite HV2, Hu1, Nat.eqb_refl. cbn [bind].
    set (xm := mkMat _ _ _).
    assert (XM : forall i, (i < mcols D)%nat -> mat_at xm i 0 = Ok nan).
    { intros i Hi. rewrite mat_at_in; [|cbn; lia|cbn; lia]. f_equal. cbn [xm mval].
      apply nsum_nan with (j := 0%nat); [lia|]. rewrite (Hu3 0%nat) by lia. apply mul_nan_r. }
    clearbody xm. clear - XM.
    enough (G : forall n d r, (length d + n = mcols D)%nat -> length r = n ->
      for_loop (length d) n (fun i x => do v <- mat_at xm i 0; setn x i v) (d ++ r)
      = Ok (d ++ repeat nan n)).
    { apply (G (mcols D) [] (repeat n0 (mcols D))); [reflexivity|apply repeat_length]. }
    induction n as [|n IH]; intros d r Hd Hr.
    - destruct r; [|discriminate]. reflexivity.
    - destruct r as [|r0 r]; [discriminate|]. cbn [for_loop].
      rewrite XM by lia. cbn [bind]. rewrite setn_at_end. cbn [bind].
      change (d ++ nan :: r) with (d ++ [nan] ++ r). rewrite app_assoc.
      replace (S (length d)) with (length (d ++ [nan])) by (rewrite app_length; cbn [length]; lia).
      rewrite IH; [|rewrite app_length; cbn [length]; lia|cbn [length] in Hr; lia].
      rewrite <- app_assoc. reflexivity.
  Qed.

  Hypothesis pow_nan : o_pow o S754_nan 2 = S754_nan.

  Lemma rss_nan : forall D : Mat N, mrows D = length y -> (1 <= mcols D)%nat ->
    Rss D (repeat nan (mcols D)) y = Ok nan.
  Proof.
    intros D Hr Hc. unfold Rss, Predict. rewrite Hr.
    destruct (Nat.eqb_spec (length y) 0) as [|_]; [lia|].
    unfold mat_mulvec. rewrite repeat_length, Nat.eqb_refl. cbn [bind].
    set (pred := map _ _).
    assert (Hp : pred = repeat nan (length y)).
    { unfold pred. rewrite Hr. clear - Hc.
      enough (G : forall n a, map (fun i => nsum (mcols D) (fun k => (mval D i k * nth k (repeat nan (mcols D)) n0)%num)) (seq a n) = repeat nan n) by apply G.
      induction n as [|n IH]; intro a; [reflexivity|]. cbn [seq map repeat]. rewrite IH. f_equal.
      apply nsum_nan with (j := 0%nat); [lia|].
      destruct (mcols D); [lia|]. cbn [repeat nth]. apply mul_nan_r. }
    rewrite Hp, repeat_length, Nat.eqb_refl. cbn [negb]. clear pred Hp.
    assert (G : forall n a s, (a + n = length y)%nat -> (n = 0%nat -> s = nan) ->
      for_loop a n (fun i s => do p <- getn (repeat nan (length y)) i; do d <- getn y i;
        Ok (s + npow (p - d) 2)%num) s = Ok nan).
    { induction n as [|n IH]; intros a s Ha Hs; [cbn; rewrite Hs; reflexivity|].
      cbn [for_loop]. rewrite (getn_lt _ _ a nan) by (rewrite repeat_length; lia).
      rewrite (getn_lt _ y a n0) by lia. cbn [bind].
      assert (En : nth a (repeat nan (length y)) nan = nan).
      { clear. revert a. induction (length y) as [|k IH]; intros [|a]; cbn [repeat nth]; auto. }
      rewrite En, sub_nan_l. change (npow (n := N) nan 2) with (o_pow o S754_nan 2). rewrite pow_nan.
      rewrite add_nan_r. apply IH; [lia|reflexivity]. }
    apply G; [reflexivity|lia].
  Qed.

  Hypothesis log_nan : o_log o S754_nan = S754_nan.

  Lemma aicc_nan : forall a b, Aicc (N := N) a b nan = nan.
  Proof.
    intros a b. unfold Aicc, Aic. change (nlog (n := N) nan) with (o_log o S754_nan). rewrite log_nan.
    rewrite mul_nan_r, add_nan_r, add_nan_l. reflexivity.
  Qed.

  Lemma cost_nan_y : forall svd (X : Mat N), mrows X = length y ->
    (forall D, mrows D = length y -> (1 <= mcols D)%nat -> thin_shape D (svd D)) ->
    forall m n, length m = mcols X -> NumFeatures m <> 0%nat ->
    exists c s, sa_cost svd X y (Aicc (N := N)) m n = Ok (c, s) /\ nisnan s = true.
  Proof.
    intros svd X Hr Hsvd m n Hm Hnf. unfold sa_cost.
    destruct (design_gen N m X) as [[E (i & Hi & Hb)]|(D & E & H1 & H2 & _)]; [lia|exact Hnf| |].
    - exfalso. assert (Hl : (i < length m)%nat).
      { destruct (Nat.lt_ge_cases i (length m)) as [H|H]; [exact H|].
        rewrite nth_overflow in Hi by exact H. discriminate. }
      lia.
    - rewrite E. cbn [bind]. rewrite fit_nan; [|congruence|apply Hsvd; [congruence|lia]]. cbn [bind].
      rewrite rss_nan; [|congruence|lia]. cbn [bind].
      eexists _, _. split; [reflexivity|].
      assert (EM : nmax2 (N := N) nan RssTol = nan) by (vm_compute; reflexivity).
      rewrite EM, aicc_nan. reflexivity.
  Qed.
End NaNProp.

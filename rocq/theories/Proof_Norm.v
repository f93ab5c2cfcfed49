(** Normalisation over the extended reals. *)
From Coq Require Import Reals Lra.
From Verif Require Import Base Num Mat RSum Stats Model_Node Model_Util Model_Norm.
From Verif Require Import Proof_Util Proof_Rearrange Proof_XR.

Lemma mean_xr : forall l, l <> [] -> Mean (N := XR) (fins l) = Ok (fin (mean l)).
Proof.
  intros l H. unfold Mean. rewrite fins_length.
  rewrite (sum_loop0 _ (fun i => nth i l 0%R) (length l)).
  - cbn [bind]. rewrite nofnat_fin, xdiv_fin.
    + unfold mean. rewrite lsum_rsum. reflexivity.
    + pose proof (len_pos _ l H). lra.
  - intros i x Hi. rewrite getn_fins by auto. reflexivity.
Qed.

Lemma std_xr : forall l, l <> [] -> Std (N := XR) (fins l) = Ok (fin (sdev l)).
Proof.
  intros l H. unfold Std, sdev. rewrite fins_length. destruct (Nat.leb_spec (length l) 1) as [Hl|Hl]; [reflexivity|].
  rewrite mean_xr by auto. cbn [bind].
  rewrite (sum_loop0 _ (fun i => ((nth i l 0 - mean l) * (nth i l 0 - mean l))%R) (length l)).
  - cbn [bind]. assert (Hp : (0 < INR (length l - 1))%R) by (apply lt_0_INR; lia).
    rewrite nofnat_fin, xdiv_fin by lra.
    assert (E : lsum (map (fun x => (x - mean l) * (x - mean l))%R l) =
                rsum (length l) (fun i => ((nth i l 0 - mean l) * (nth i l 0 - mean l))%R)).
    { rewrite lsum_rsum, map_length. apply rsum_ext. intros i Hi.
      rewrite (nth_map_lt _ _ _ l i 0%R) by auto. reflexivity. }
    rewrite <- E. rewrite xsqrt_fin; [reflexivity|].
    apply Rmult_le_pos; [apply sq_sum_nonneg|left; apply Rinv_0_lt_compat; auto].
  - intros i x Hi. rewrite getn_fins by auto. reflexivity.
Qed.

Lemma normalize_array_xr : forall l, sdev l <> 0%R ->
  NormalizeArray (N := XR) (fins l) = Ok (fins (map (fun x => (x - mean l) / sdev l)%R l)).
Proof.
  intros l H. assert (Hl : l <> []) by (intros ->; apply H; reflexivity).
  unfold NormalizeArray. rewrite mean_xr, std_xr by auto. cbn [bind].
  rewrite (for_loop_map XR (fun x => ((x - fin (mean l)) / fin (sdev l))%num) (fins l)).
  f_equal. unfold fins. rewrite !map_map. apply map_ext. intro x.
  rewrite xsub_fin, xdiv_fin by auto. reflexivity.
Qed.

(** a constant array becomes NaN *)
Lemma normalize_array_const : forall l, l <> [] -> sdev l = 0%R ->
  NormalizeArray (N := XR) (fins l) = Ok (repeat XNaN (length l)).
Proof.
  intros l Hl H. unfold NormalizeArray. rewrite mean_xr, std_xr by auto. cbn [bind].
  rewrite (for_loop_map XR (fun x => ((x - fin (mean l)) / fin (sdev l))%num) (fins l)).
  f_equal. pose proof (proj1 (sdev_zero l Hl) H) as E. rewrite H.
  unfold fins. rewrite map_map.
  rewrite (map_ext_in _ (fun _ => XNaN)).
  - clear. induction l; cbn; f_equal; auto.
  - intros x Hx. rewrite xsub_fin, (E x Hx) at 1.
    replace (mean l - mean l)%R with 0%R by ring. simpl. unfold xdiv.
    rewrite Reqb_refl, !(proj2 (Rltb_false 0 0)) by lra. reflexivity.
Qed.

(** matrices of finite entries *)
Definition rmat (X : Mat XR) (f : nat -> nat -> R) : Prop :=
  forall i j, (i < mrows X)%nat -> (j < mcols X)%nat -> mval X i j = fin (f i j).
Definition rcol (n : nat) (f : nat -> nat -> R) (c : nat) : list R := map (fun r => f r c) (seq 0 n).

Lemma rcol_ne : forall n f c, (0 < n)%nat -> rcol n f c <> [].
Proof. intros [|n] f c H; [lia|]. discriminate. Qed.
Lemma rcol_length : forall n f c, length (rcol n f c) = n.
Proof. intros. unfold rcol. rewrite map_length, seq_length. reflexivity. Qed.
Lemma rcol_nth : forall n f c r, (r < n)%nat -> nth r (rcol n f c) 0%R = f r c.
Proof. intros. unfold rcol. apply (nth_map_seq _ (fun r => f r c)). auto. Qed.

Lemma read_col : forall (N : Num) (X : Mat N) c tmp, (c < mcols X)%nat -> length tmp = mrows X ->
  for_loop 0 (mrows X) (fun r tmp => do v <- mat_at X r c; setn tmp r v) tmp =
  Ok (map (fun r => mval X r c) (seq 0 (mrows X))).
Proof.
  intros N X c tmp Hc Ht. rewrite <- (for_loop_fill0 _ (fun r => mval X r c) (mrows X) tmp Ht).
  apply for_loop_ext. intros i s Hi. rewrite mat_at_in by lia. reflexivity.
Qed.

Lemma read_col_xr : forall X f c tmp g, rmat X f -> (c < mcols X)%nat -> length tmp = mrows X ->
  (forall r, (r < mrows X)%nat -> f r c = g r c) ->
  for_loop 0 (mrows X) (fun r tmp => do v <- mat_at X r c; setn tmp r v) tmp =
  Ok (fins (rcol (mrows X) g c)).
Proof.
  intros X f c tmp g HX Hc Ht Hg. rewrite read_col by auto. f_equal. unfold fins, rcol. rewrite map_map.
  apply map_ext_in. intros r Hr. apply in_seq in Hr. rewrite HX by lia. rewrite Hg by lia. reflexivity.
Qed.

Lemma write_col : forall (N : Num) (X : Mat N) c (g : N -> N) (tmp : list N) d, (c < mcols X)%nat ->
  length tmp = mrows X ->
  exists X', for_loop 0 (mrows X) (fun r X => do t <- getn tmp r; mat_set X r c (g t)) X = Ok X' /\
    mrows X' = mrows X /\ mcols X' = mcols X /\
    forall a b, (a < mrows X)%nat -> mval X' a b = if (b =? c)%nat then g (nth a tmp d) else mval X a b.
Proof.
  intros N X c g tmp d Hc Ht.
  destruct (col_fill _ (fun r => g (nth r tmp d)) (mrows X) X c eq_refl Hc) as (X' & E & H1 & H2 & H3).
  exists X'. split; auto. rewrite <- E. apply for_loop_ext. intros i s Hi.
  rewrite (getn_lt _ tmp i d) by lia. reflexivity.
Qed.

Definition tol10 : R := (1 / IZR (10 ^ 10))%R.
Lemma tol10_dec : ndec (n := XR) 1 (-10) = fin tol10. Proof. reflexivity. Qed.
Lemma tol10_pos : (0 < tol10)%R.
Proof. unfold tol10. apply Rdiv_lt_0_compat; [lra|]. apply IZR_lt. reflexivity. Qed.

Lemma xlt_fin : forall a b, nltb (n := XR) (fin a) (fin b) = Rltb a b. Proof. reflexivity. Qed.

Definition scale (n : nat) (f : nat -> nat -> R) (c : nat) : R :=
  if Rltb (sdev (rcol n f c)) tol10 then 1%R else sdev (rcol n f c).

Lemma scale_ne : forall n f c, scale n f c <> 0%R.
Proof.
  intros n f c. unfold scale. destruct (Rltb _ _) eqn:E; [lra|]. apply Rltb_false in E.
  pose proof tol10_pos. lra.
Qed.

(** the columns of NewNormalizedData *)
Section Cols.
  Variables (X0 : Mat XR) (f : nat -> nat -> R).
  Hypothesis (HX : rmat X0 f) (Hr : (0 < mrows X0)%nat).
  Let nr := mrows X0.
  Let nc := mcols X0.

  Definition body (c : nat) (st : list XR * Mat XR * list XR * list XR * bool)
    : res (list XR * Mat XR * list XR * list XR * bool) :=
      let '(tmp, X, mu, std, hasBias) := st in
      do tmp <- for_loop 0 nr (fun r tmp => do v <- mat_at X r c; setn tmp r v) tmp;
      do s <- Std tmp;
      do std <- setn std c s;
      do m <- Mean tmp;
      do mu <- setn mu c m;
      if nltb s (ndec 1 (-10)) && negb (c =? 0)%nat then Panic else
      let '(hasBias, stdtmp) := if nltb s (ndec 1 (-10)) then (true, n1) else (hasBias, s) in
      do X <- for_loop 0 nr (fun r X => do t <- getn tmp r; mat_set X r c ((t - m) / stdtmp)%num) X;
      Ok (tmp, X, mu, std, hasBias).

  Definition normed (i j : nat) : R := ((f i j - mean (rcol nr f j)) / scale nr f j)%R.

  Definition cinv (c : nat) (st : list XR * Mat XR * list XR * list XR * bool) : Prop :=
    let '(tmp, X, mu, std, hb) := st in
    length tmp = nr /\ mrows X = nr /\ mcols X = nc /\ length mu = nc /\ length std = nc /\
    rmat X (fun i j => if (j <? c)%nat then normed i j else f i j) /\
    (forall j, (j < c)%nat -> nth j mu (fin 0) = fin (mean (rcol nr f j)) /\
                              nth j std (fin 0) = fin (sdev (rcol nr f j))) /\
    hb = ((0 <? c)%nat && Rltb (sdev (rcol nr f 0)) tol10).

  Lemma body_step : forall c st, (c < nc)%nat -> cinv c st ->
    (body c st = Panic /\ c <> O /\ (sdev (rcol nr f c) < tol10)%R) \/
    (exists st', body c st = Ok st' /\ cinv (S c) st' /\ (c = O \/ (tol10 <= sdev (rcol nr f c))%R)).
  Proof.
    intros c [[[[tmp X] mu] std] hb] Hc (L1 & R1 & C1 & L2 & L3 & HM & HS & Hb).
    unfold body. rewrite <- R1.
    assert (Hne : rcol nr f c <> []) by (apply rcol_ne; auto).
    rewrite (read_col_xr X _ c tmp f HM);
      [|lia|lia|intros r _; destruct (Nat.ltb_spec c c); [lia|reflexivity]].
    rewrite R1. cbn [bind]. rewrite std_xr, mean_xr by auto. cbn [bind].
    rewrite setn_lt by lia. cbn [bind]. rewrite setn_lt by lia. cbn [bind].
    rewrite tol10_dec, xlt_fin.
    destruct (Rltb (sdev (rcol nr f c)) tol10 && negb (c =? 0)%nat) eqn:Ep.
    { apply andb_prop in Ep. destruct Ep as [E1 E2]. left. split; [reflexivity|].
      apply Rltb_true in E1. split; [|exact E1]. intros ->. discriminate. }
    right.
    set (mn := fin (mean (rcol nr f c))).
    assert (G : exists hb', (let '(hasBias, stdtmp) :=
        if Rltb (sdev (rcol nr f c)) tol10 then (true, n1 (N := XR)) else (hb, fin (sdev (rcol nr f c))) in
      do X2 <- for_loop 0 nr (fun r X2 => do t <- getn (fins (rcol nr f c)) r; mat_set X2 r c ((t - mn) / stdtmp)%num) X;
      Ok (fins (rcol nr f c), X2, upd mu c mn, upd std c (fin (sdev (rcol nr f c))), hasBias)) =
      (do X2 <- for_loop 0 nr (fun r X2 => do t <- getn (fins (rcol nr f c)) r;
           mat_set X2 r c ((t - mn) / fin (scale nr f c))%num) X;
      Ok (fins (rcol nr f c), X2, upd mu c mn, upd std c (fin (sdev (rcol nr f c))), hb')) /\
      hb' = Rltb (sdev (rcol nr f 0)) tol10 ).
    { unfold scale. destruct (Rltb (sdev (rcol nr f c)) tol10) eqn:E.
      - exists true. split; [reflexivity|]. rewrite andb_true_l in Ep. apply negb_false_iff, Nat.eqb_eq in Ep.
        subst c. auto.
      - exists hb. split; [reflexivity|]. destruct c as [|c]; [rewrite Hb, E; reflexivity|].
        rewrite Hb. reflexivity. }
    destruct G as (hb' & -> & Hb').
    destruct (write_col _ X c (fun t => ((t - mn) / fin (scale nr f c))%num) (fins (rcol nr f c)) (fin 0))
      as (X' & E & H1 & H2 & H3); [lia|rewrite fins_length, rcol_length; lia|].
    rewrite R1 in E. rewrite E. cbn [bind]. eexists. split; [reflexivity|]. split.
    - cbv [cinv]. rewrite fins_length, rcol_length, !upd_length. repeat split; try lia.
      + intros i j Hi Hj. rewrite H3 by lia. destruct (Nat.eqb_spec j c) as [->|Hjc].
        * destruct (Nat.ltb_spec c (S c)); [|lia]. rewrite nth_fins by (rewrite rcol_length; lia).
          rewrite rcol_nth by lia. unfold mn. rewrite xsub_fin, xdiv_fin by apply scale_ne. reflexivity.
        * rewrite HM by lia. destruct (Nat.ltb_spec j c); destruct (Nat.ltb_spec j (S c)); auto; lia.
      + rewrite nth_upd. destruct (Nat.eqb_spec j c) as [->|]; [|apply HS; lia].
        rewrite L2. destruct (Nat.ltb_spec c nc); [reflexivity|lia].
      + rewrite nth_upd. destruct (Nat.eqb_spec j c) as [->|]; [|apply HS; lia].
        rewrite L3. destruct (Nat.ltb_spec c nc); [reflexivity|lia].
      + rewrite Hb'. reflexivity.
    - destruct c as [|c]; [left; auto|]. right. rewrite andb_false_iff in Ep.
      destruct Ep as [Ep|Ep]; [apply Rltb_false in Ep; auto|discriminate].
  Qed.

  Lemma cols_run : forall n c st, (c + n <= nc)%nat -> cinv c st ->
    (for_loop c n body st = Panic /\ exists j, (c <= j < c + n)%nat /\ j <> O /\ (sdev (rcol nr f j) < tol10)%R) \/
    (exists st', for_loop c n body st = Ok st' /\ cinv (c + n) st' /\
       forall j, (c <= j < c + n)%nat -> j = O \/ (tol10 <= sdev (rcol nr f j))%R).
  Proof.
    induction n as [|n IH]; intros c st Hc HI; cbn [for_loop].
    - right. exists st. rewrite Nat.add_0_r. split; [reflexivity|]. split; [exact HI|]. intros; lia.
    - destruct (body_step c st ltac:(lia) HI) as [(E & H0 & Hs)|(st' & E & HI' & Hs)]; rewrite E; cbn [bind].
      + left. split; auto. exists c. split; [lia|auto].
      + destruct (IH (S c) st' ltac:(lia) HI') as [(E2 & j & Hj & H)|(st2 & E2 & HI2 & H)].
        * left. split; auto. exists j. split; [lia|auto].
        * right. exists st2. split; auto. replace (c + S n)%nat with (S c + n)%nat by lia. split; auto.
          intros j Hj. destruct (Nat.eq_dec j c) as [->|]; auto. apply H. lia.
  Qed.

  Lemma cinv0 : cinv 0 (repeat n0 nr, X0, repeat n0 nc, repeat n0 nc, false).
  Proof.
    cbv [cinv]. rewrite !repeat_length. repeat split; auto; try lia.
  Qed.

  Definition ydone (y : list R) : list XR := 
    if Reqb (sdev y) 0 then repeat XNaN (length y) else fins (map (fun v => (v - mean y) / sdev y)%R y).

  Lemma ystep : forall y, y <> [] ->
    for_loop 0 (length (fins y)) (fun i l => do v <- getn l i; setn l i ((v - fin (mean y)) / fin (sdev y))%num) (fins y)
    = Ok (ydone y).
  Proof.
    intros y Hy. unfold ydone. destruct (Reqb (sdev y) 0) eqn:E.
    - apply Reqb_true in E. etransitivity; [|exact (normalize_array_const y Hy E)]. unfold NormalizeArray.
      rewrite mean_xr, std_xr by auto. reflexivity.
    - apply Reqb_false in E. etransitivity; [|exact (normalize_array_xr y E)]. unfold NormalizeArray.
      rewrite mean_xr, std_xr by auto. reflexivity.
  Qed.

  Lemma nnd_ok : forall y, y <> [] ->
    (forall c, (0 < c < nc)%nat -> (tol10 <= sdev (rcol nr f c))%R) ->
    exists X', NewNormalizedData X0 (fins y) = Ok (mkND X' (ydone y)
        (fins (map (fun c => sdev (rcol nr f c)) (seq 0 nc)))
        (fins (map (fun c => mean (rcol nr f c)) (seq 0 nc)))
        (fin (sdev y)) (fin (mean y)) ((0 <? nc)%nat && Rltb (sdev (rcol nr f 0)) tol10)) /\
      mrows X' = nr /\ mcols X' = nc /\ rmat X' normed.
  Proof.
    intros y Hy Hs. unfold NewNormalizedData. rewrite std_xr, mean_xr by auto. cbn [bind].
    rewrite ystep by auto. cbn [bind].
    destruct (cols_run nc 0 _ ltac:(lia) cinv0) as [(E & j & Hj & H0 & H1)|(st' & E & HI & _)].
    { exfalso. specialize (Hs j ltac:(lia)). lra. }
    unfold body in E. fold nr nc. rewrite E. destruct st' as [[[[tmp X] mu] std] hb].
    destruct HI as (L1 & R1 & C1 & L2 & L3 & HM & HS & Hb). cbn [bind]. exists X.
    split; [|split; [auto|split; [auto|]]].
    - do 2 f_equal; [apply vec_fins; auto; intros k Hk; apply HS; auto|
        apply vec_fins; auto; intros k Hk; apply HS; auto|exact Hb].
    - intros i j Hi Hj. rewrite HM by auto. destruct (Nat.ltb_spec j (0 + nc)); [reflexivity|lia].
  Qed.

  Lemma nnd_panic : forall y, y <> [] ->
    (exists c, (0 < c < nc)%nat /\ (sdev (rcol nr f c) < tol10)%R) ->
    NewNormalizedData X0 (fins y) = Panic.
  Proof.
    intros y Hy (c & Hc & Hs). unfold NewNormalizedData. rewrite std_xr, mean_xr by auto. cbn [bind].
    rewrite ystep by auto. cbn [bind].
    destruct (cols_run nc 0 _ ltac:(lia) cinv0) as [(E & _)|(st' & _ & _ & H)].
    - unfold body in E. fold nr nc. rewrite E. reflexivity.
    - destruct (H c ltac:(lia)); [lia|lra].
  Qed.
End Cols.

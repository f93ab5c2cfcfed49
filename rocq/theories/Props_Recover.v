(** C98: orthogonal matching pursuit recovers sparse models. *)
From Coq Require Import Reals Lra Psatz Permutation.
From Verif Require Import Base Num Mat RSum Model_Node Proof_Node Proof_Node2 Model_Util Proof_Util
  Proof_XR Proof_Norm Model_Fit Spec_Fit Proof_Fit Proof_Fit2 Model_Omp Spec_Omp Proof_Omp Proof_Lazy
  Proof_Omp2 Props_Fit Props_Omp Props_EndToEnd Spec_Subset Proof_Subset Props_Subset Props_Pursuit.
Open Scope R_scope.

(** no two of the n columns have a cosine above [mu] (in size) *)
Definition coherence_at_most (m n : nat) (A : nat -> nat -> R) (mu : R) : Prop :=
  forall i j, (i < n)%nat -> (j < n)%nat -> i <> j ->
    Rabs (rsum m (fun a => A a i * A a j)) <= mu * (col_norm m A i * col_norm m A j).

(** the features with a coefficient that is not zero are those in [S] *)
Definition support (b : list R) (S : list nat) : Prop := NoDup S /\ forall j, In j S <-> nth j b 0 <> 0.

(** root mean square of what is left *)
Definition rms (m n : nat) (A : nat -> nat -> R) (y w : list R) : R := sqrt (rss m n A w y / INR m).

(** ** Proofs *)
Lemma rsum_abs : forall n f, Rabs (rsum n f) <= rsum n (fun k => Rabs (f k)).
Proof.
  induction n as [|n IH]; intro f; [cbn; rewrite Rabs_R0; lra|]. rewrite !rsum_shift.
  eapply Rle_trans; [apply Rabs_triang|]. apply Rplus_le_compat_l. apply IH.
Qed.

Lemma rsum_bounded : forall n Q (f : nat -> R) c, NoDup Q -> (forall j, In j Q -> (j < n)%nat) ->
  (forall k, (k < n)%nat -> In k Q -> Rabs (f k) <= c) -> (forall k, (k < n)%nat -> ~ In k Q -> f k = 0) ->
  Rabs (rsum n f) <= INR (length Q) * c.
Proof.
  intros n Q f c ND HQ H1 H2. eapply Rle_trans; [apply rsum_abs|].
  apply Rle_trans with (rsum n (fun k => if in_dec Nat.eq_dec k Q then c else 0)).
  - apply rsum_le. intros k Hk. destruct (in_dec Nat.eq_dec k Q) as [I|I]; [auto|]. rewrite (H2 k Hk I), Rabs_R0. lra.
  - rewrite (rsum_indicator (fun _ => c) n Q ND HQ). clear. induction Q as [|q Q IH]; [cbn; lra|].
    cbn [map]. rewrite lsum_cons. change (length (q :: Q)) with (S (length Q)). rewrite S_INR. lra.
Qed.

Lemma largest : forall (S : list nat) (g : nat -> R), S <> [] -> exists s, In s S /\ forall k, In k S -> g k <= g s.
Proof.
  induction S as [|a S IH]; intros g H; [contradiction|]. destruct S as [|b S].
  - exists a. split; [left; reflexivity|]. intros k [<-|[]]. lra.
  - destruct (IH g ltac:(discriminate)) as (s & Hs & Hm). destruct (Rle_lt_dec (g a) (g s)) as [L|L].
    + exists s. split; [right; exact Hs|]. intros k [<-|Hk]; auto.
    + exists a. split; [left; reflexivity|]. intros k [<-|Hk]; [lra|]. specialize (Hm k Hk). lra.
Qed.

Lemma NoDup_remove_one : forall s (S : list nat), NoDup S -> NoDup (remove Nat.eq_dec s S).
Proof.
  intros s S H. induction H as [|a S N H IH]; [constructor|]. cbn [remove]. destruct (Nat.eq_dec s a); [exact IH|].
  constructor; [|exact IH]. intro C. apply in_remove in C. apply N, C.
Qed.

Lemma remove_one_length : forall s (S : list nat), NoDup S -> In s S -> length (remove Nat.eq_dec s S) = (length S - 1)%nat.
Proof.
  intros s S H. induction H as [|a S N H IH]; intro Hs; [destruct Hs|]. cbn [remove length]. destruct (Nat.eq_dec s a) as [->|Ne].
  - rewrite notin_remove by exact N. lia.
  - destruct Hs as [->|Hs]; [contradiction|]. cbn [length]. rewrite IH by exact Hs. destruct S; [destruct Hs|cbn; lia].
Qed.

Lemma score_mul : forall m A e j, 0 < col_norm m A j -> score m A e j * col_norm m A j = Rabs (rsum m (fun i => A i j * e i)).
Proof. intros m A e j H. unfold score. field. lra. Qed.

Section Pick.
  Variables (m n : nat) (A : nat -> nat -> R) (mu : R) (S : list nat).
  Hypothesis (Hmu : 0 <= mu) (HC : coherence_at_most m n A mu).
  Hypothesis (HN : forall j, (j < n)%nat -> exists i, (i < m)%nat /\ A i j <> 0).
  Hypothesis (HS : NoDup S) (HR : forall j, In j S -> (j < n)%nat).
  Hypothesis (HK : (2 * INR (length S) - 1) * mu < 1).

  Lemma norm_pos : forall j, (j < n)%nat -> 0 < col_norm m A j.
  Proof.
    intros j Hj. destruct (HN j Hj) as (i & Hi & Hne). apply sqrt_lt_R0. apply Rlt_le_trans with (A i j * A i j).
    - pose proof (Rlt_0_sqr _ Hne) as H. exact H.
    - apply (rsum_term_le m (fun i => A i j * A i j)); [intros; apply Rle_0_sqr|exact Hi].
  Qed.

  Lemma norm_sqr : forall j, rsum m (fun i => A i j * A i j) = col_norm m A j * col_norm m A j.
  Proof. intro j. symmetry. apply sqrt_sqrt. apply rsum_nonneg. intros; apply Rle_0_sqr. Qed.

  (** of a combination of the columns in S one of them has the largest score *)
  Lemma pick : forall (a : nat -> R) (e : nat -> R),
    (forall k, (k < n)%nat -> ~ In k S -> a k = 0) -> (exists k, (k < n)%nat /\ a k <> 0) ->
    (forall i, (i < m)%nat -> e i = rsum n (fun k => A i k * a k)) ->
    exists s, In s S /\ 0 < score m A e s /\ forall j, (j < n)%nat -> ~ In j S -> score m A e j < score m A e s.
  Proof.
    intros a e Ha (k0 & Hk0 & Hne) He.
    assert (I0 : In k0 S) by (destruct (in_dec Nat.eq_dec k0 S) as [I|I]; [exact I|exfalso; apply Hne, Ha; assumption]).
    destruct (largest S (fun k => Rabs (a k) * col_norm m A k)) as (s & Hs & Hmax); [intro E; rewrite E in I0; exact I0|].
    exists s. split; [exact Hs|]. set (al := Rabs (a s) * col_norm m A s) in *.
    assert (Hal : 0 < al).
    { specialize (Hmax k0 I0). cbv beta in Hmax. apply Rlt_le_trans with (2 := Hmax). apply Rmult_lt_0_compat; [apply Rabs_pos_lt; exact Hne|apply norm_pos; exact Hk0]. }
    assert (IP : forall j, rsum m (fun i => A i j * e i) = rsum n (fun k => a k * rsum m (fun i => A i j * A i k))).
    { intro j. transitivity (rsum m (fun i => rsum n (fun k => a k * (A i j * A i k)))).
      - apply rsum_ext. intros i Hi. rewrite (He i Hi), <- rsum_scal. apply rsum_ext. intros; ring.
      - rewrite rsum_swap. apply rsum_ext. intros k _. apply rsum_scal. }
    assert (TB : forall j k, (j < n)%nat -> In k S -> k <> j -> Rabs (a k * rsum m (fun i => A i j * A i k)) <= mu * al * col_norm m A j).
    { intros j k Hj Hk Hjk. rewrite Rabs_mult. pose proof (HC j k Hj (HR k Hk) ltac:(auto)) as H. specialize (Hmax k Hk). cbv beta in Hmax.
      pose proof (norm_pos j Hj) as Pj. pose proof (Rabs_pos (a k)) as Pa.
      apply Rle_trans with (Rabs (a k) * (mu * (col_norm m A j * col_norm m A k))); [apply Rmult_le_compat_l; assumption|].
      replace (Rabs (a k) * (mu * (col_norm m A j * col_norm m A k))) with ((mu * col_norm m A j) * (Rabs (a k) * col_norm m A k)) by ring.
      replace (mu * al * col_norm m A j) with ((mu * col_norm m A j) * al) by ring. apply Rmult_le_compat_l; [apply Rmult_le_pos; lra|exact Hmax]. }
    assert (Hsn := HR s Hs). pose proof (norm_pos s Hsn) as Ps.
    assert (LS : (1 <= length S)%nat) by (destruct S; [destruct Hs|cbn; lia]).
    assert (Q1 : al * (1 - (INR (length S) - 1) * mu) <= score m A e s).
    { apply (Rmult_le_reg_r (col_norm m A s)); [exact Ps|]. rewrite score_mul by exact Ps.
      rewrite IP. set (f := fun k => a k * rsum m (fun i => A i s * A i k)).
      assert (Sp : rsum n f = a s * (col_norm m A s * col_norm m A s) + rsum n (fun k => if Nat.eqb k s then 0 else f k)).
      { rewrite <- norm_sqr. change (a s * rsum m (fun i => A i s * A i s)) with (f s). rewrite <- (rsum_delta_l n s f Hsn) at 1. rewrite <- rsum_plus.
        apply rsum_ext. intros k _. unfold delta. rewrite (Nat.eqb_sym s k). destruct (k =? s)%nat; ring. }
      assert (B : Rabs (rsum n (fun k => if Nat.eqb k s then 0 else f k)) <= INR (length (remove Nat.eq_dec s S)) * (mu * al * col_norm m A s)).
      { apply rsum_bounded.
        - apply NoDup_remove_one. exact HS.
        - intros j Hj. apply in_remove in Hj. apply HR, Hj.
        - intros k Hk Hin. apply in_remove in Hin. destruct (Nat.eqb_spec k s) as [->|N]; [destruct Hin; contradiction|]. apply TB; [exact Hsn|apply Hin|exact N].
        - intros k Hk Hin. destruct (Nat.eqb_spec k s) as [->|N]; [reflexivity|]. unfold f. rewrite Ha; [ring|exact Hk|].
          intro C. apply Hin. apply in_in_remove; assumption. }
      rewrite Sp.
      assert (LR : length (remove Nat.eq_dec s S) = (length S - 1)%nat) by (apply remove_one_length; assumption).
      rewrite LR, minus_INR in B by exact LS. change (INR 1) with 1 in B.
      assert (T : Rabs (a s * (col_norm m A s * col_norm m A s)) = al * col_norm m A s).
      { rewrite Rabs_mult, (Rabs_right (col_norm m A s * col_norm m A s)) by (apply Rle_ge, Rmult_le_pos; lra). unfold al. ring. }
      pose proof (Rabs_triang_inv (a s * (col_norm m A s * col_norm m A s)) (- rsum n (fun k => if Nat.eqb k s then 0 else f k))) as TI.
      rewrite Rabs_Ropp in TI. unfold Rminus in TI at 2. rewrite Ropp_involutive in TI. rewrite T in TI. lra. }
    assert (Hgap : INR (length S) * mu * al < al * (1 - (INR (length S) - 1) * mu)) by nra.
    assert (L0 : 0 <= INR (length S) * mu * al) by (apply Rmult_le_pos; [apply Rmult_le_pos; [apply pos_INR|exact Hmu]|lra]).
    split; [lra|]. intros j Hj Hjs. apply Rle_lt_trans with (INR (length S) * mu * al); [|lra].
    pose proof (norm_pos j Hj) as Pj. apply (Rmult_le_reg_r (col_norm m A j)); [exact Pj|]. rewrite score_mul by exact Pj.
    rewrite IP. replace (INR (length S) * mu * al * col_norm m A j) with (INR (length S) * (mu * al * col_norm m A j)) by ring.
    apply rsum_bounded; [exact HS|exact HR| |].
    - intros k Hk Hin. apply TB; [exact Hj|exact Hin|]. intros ->. contradiction.
    - intros k Hk Hin. rewrite Ha by assumption. ring.
  Qed.
End Pick.

Lemma firstn_In' : forall (l : list nat) k j, In j (firstn k l) -> In j l.
Proof. intros l k j H. rewrite <- (firstn_skipn k l). apply in_or_app. left. exact H. Qed.

Lemma rss_err : forall m n A y w, rss m n A w y = rsum m (fun i => Rsqr (err n A y w i)).
Proof. intros. unfold rss. apply rsum_ext. intros i _. unfold err, Rsqr. ring. Qed.

(** ** C98 *)

(** The target is an exact combination of the features in S, and the features
    are so little correlated that (2 |S| - 1) mu < 1.  Then Omp takes features
    from S only and stops with an error below the tolerance; and if no model
    that lacks one of the features of S has an error below the tolerance, it
    returns exactly the combination the target was made of. *)
Theorem C98_recovers : forall svd X A y tol beta S mu,
  rmat X A -> (0 < mrows X)%nat -> length y = mrows X -> good_svd svd X ->
  (forall j, (j < mcols X)%nat -> exists i, (i < mrows X)%nat /\ A i j <> 0) ->
  0 <= mu -> coherence_at_most (mrows X) (mcols X) A mu ->
  length beta = mcols X -> support beta S -> S <> [] -> (2 * INR (length S) - 1) * mu < 1 ->
  (forall i, (i < mrows X)%nat -> nth i y 0 = rsum (mcols X) (fun k => A i k * nth k beta 0)) -> 0 < tol ->
  exists P w, Omp svd X (fins y) (fin tol) = Ok (mkOmp (fins w) (map Z.of_nat P)) /\
    NoDup P /\ (forall j, In j P -> In j S) /\ rms (mrows X) (mcols X) A y w < tol /\
    ((forall w' s, length w' = mcols X -> In s S -> nth s w' 0 = 0 -> (forall j, ~ In j S -> nth j w' 0 = 0) ->
        tol <= rms (mrows X) (mcols X) A y w') ->
     w = beta /\ forall j, In j P <-> In j S).
Proof.
  intros svd X A y tol beta S mu HA Hr Hy Hg HN Hmu HC Lb (HS & Hsup) Sne HK Hyb Ht.
  assert (HR : forall j, In j S -> (j < mcols X)%nat).
  { intros j Hj. apply Hsup in Hj. destruct (Nat.lt_ge_cases j (mcols X)) as [L|L]; [exact L|]. exfalso. apply Hj. apply nth_overflow. lia. }
  assert (Hc : (0 < mcols X)%nat) by (destruct S as [|s S']; [contradiction|]; specialize (HR s ltac:(left; auto)); lia).
  destruct (C39_least_squares svd X A y (fin tol) HA Hr Hc Hy Hg) as (P & w & E & Pne & ND & HP & HL).
  exists P, w. split; [exact E|]. split; [exact ND|].
  set (m := mrows X) in *. set (n := mcols X) in *.
  assert (Hm : 0 < INR m) by (apply lt_0_INR; lia).
  (* what is left is a combination of the columns in S as long as the model is within S *)
  assert (He : forall w0 i, (i < m)%nat -> err n A y w0 i = rsum n (fun k => A i k * (nth k beta 0 - nth k w0 0))).
  { intros w0 i Hi. unfold err. rewrite (Hyb i Hi), <- rsum_minus. apply rsum_ext. intros; ring. }
  assert (PK : forall w0, (forall j, ~ In j S -> nth j w0 0 = 0) -> (exists k, (k < n)%nat /\ nth k beta 0 - nth k w0 0 <> 0) ->
    exists s, In s S /\ 0 < score m A (err n A y w0) s /\ forall j, (j < n)%nat -> ~ In j S -> score m A (err n A y w0) j < score m A (err n A y w0) s).
  { intros w0 Hw0 Hd. apply (pick m n A mu S Hmu HC HN HS HR HK (fun k => nth k beta 0 - nth k w0 0)); [|exact Hd|apply He].
    intros k Hk Hks. rewrite (Hw0 k Hks). destruct (Req_dec (nth k beta 0) 0) as [Z|Z]; [rewrite Z; ring|]. exfalso. apply Hks, Hsup, Z. }
  assert (NZ : forall w0, 0 < rss m n A w0 y -> exists k, (k < n)%nat /\ nth k beta 0 - nth k w0 0 <> 0).
  { intros w0 H. rewrite rss_err in H. destruct (rsum_pos_term _ _ H) as (i & Hi & Hne).
    destruct (Forall_Exists_dec (fun k => nth k beta 0 - nth k w0 0 = 0) (fun k => Req_EM_T _ _) (seq 0 n)) as [F|F].
    - exfalso. apply Hne. rewrite He by exact Hi. rewrite rsum_0'; [unfold Rsqr; ring|]. intros k Hk.
      rewrite Forall_forall in F. rewrite (F k) by (apply in_seq; lia). ring.
    - apply Exists_exists in F. destruct F as (k & Hk & Hkn). apply in_seq in Hk. exists k. split; [lia|exact Hkn]. }
  (* every prefix of the order is within S *)
  assert (Q : forall k, (k <= length P)%nat -> forall j, In j (firstn k P) -> In j S).
  { induction k as [|k IH]; intros Hk j Hj; [destruct Hj|].
    destruct (nth_error P k) as [p|] eqn:Ep; [|apply nth_error_None in Ep; lia].
    rewrite (firstn_S _ _ _ _ Ep) in Hj. apply in_app_or in Hj. destruct Hj as [Hj|[<-|[]]]; [apply IH; [lia|exact Hj]|].
    assert (W : exists w0, lsq_on m n A y (firstn k P) w0 /\ 0 < rss m n A w0 y).
    { destruct k as [|k'].
      - exists (repeat 0 n). cbn [firstn]. split.
        + split; [apply repeat_length|]. split; [intros; apply nth_repeat|]. intros w' Lw' Hw'. apply Req_le. unfold rss. apply rsum_ext. intros i _.
          do 2 f_equal. apply rsum_ext. intros q _. rewrite Hw' by (intros []). rewrite nth_repeat. reflexivity.
        + destruct S as [|s0 S']; [contradiction|]. assert (Hs0 : In s0 (s0 :: S')) by (left; reflexivity).
          destruct (PK (repeat 0 n)) as (s & Hs & Sp & _).
          { intros; apply nth_repeat. }
          { exists s0. split; [exact (HR s0 Hs0)|]. rewrite nth_repeat, Rminus_0_r. apply Hsup. exact Hs0. }
          destruct (Rle_lt_or_eq_dec 0 (rss m n A (repeat 0 n) y)) as [G|G]; [apply rsum_nonneg; intros; apply Rle_0_sqr|exact G|].
          exfalso. rewrite rss_err in G. symmetry in G. pose proof (rsum_zero_terms m _ (fun i _ => Rle_0_sqr _) G) as Z. cbv beta in Z.
          unfold score in Sp. rewrite rsum_0' in Sp; [rewrite Rabs_R0 in Sp; unfold Rdiv in Sp; lra|].
          intros i Hi. specialize (Z i Hi). apply Rsqr_0_uniq in Z. rewrite Z. ring.
      - assert (Fne : firstn (Datatypes.S k') P <> []) by (destruct P; [contradiction|discriminate]).
        assert (FF : Forall (fun i => (i < n)%nat) (firstn (Datatypes.S k') P)) by (apply Forall_forall; intros i Hi; apply HP; apply (firstn_In' _ _ _ Hi)).
        destruct (fit_on_xr svd X A y HA Hr Hy Hg (firstn (Datatypes.S k') P) Fne FF) as (c & pred & w0 & _ & _ & L0 & _).
        exists w0. split; [exact L0|].
        pose proof (C39_no_sooner svd X A y (fin tol) P w HA Hr Hc Hy Hg E (Datatypes.S k') w0 ltac:(lia) L0) as B. fold m n in B.
        rewrite xlt_fin in B. apply Rltb_false in B.
        destruct (Rle_lt_or_eq_dec 0 (rss m n A w0 y)) as [G|G]; [apply rsum_nonneg; intros; apply Rle_0_sqr|exact G|].
        exfalso. rewrite <- G in B. unfold Rdiv in B. rewrite Rmult_0_l, sqrt_0 in B. lra. }
    destruct W as (w0 & L0 & P0).
    destruct (C39_greedy svd X A y (fin tol) P w HA Hr Hc Hy Hg HN E k p w0 Ep L0 P0) as (G & _). fold m n in G.
    destruct (PK w0) as (s & Hs & _ & Hlt); [|exact (NZ w0 P0)|].
    { intros j Hj. destruct L0 as (_ & L0 & _). apply L0. intro C. apply Hj. apply IH; [lia|exact C]. }
    destruct (in_dec Nat.eq_dec p S) as [I|I]; [exact I|]. exfalso.
    assert (Hpn : (p < n)%nat) by (apply HP; apply (nth_error_In _ _ Ep)).
    specialize (Hlt p Hpn I). specialize (G s (HR s Hs)). lra. }
  assert (QP : forall j, In j P -> In j S) by (intros j Hj; apply (Q (length P) (le_n _)); rewrite firstn_all; exact Hj).
  split; [exact QP|].
  assert (Zb : rss m n A beta y = 0).
  { rewrite rss_err. apply rsum_0'. intros i Hi. rewrite He by exact Hi. rewrite rsum_0'; [unfold Rsqr; ring|]. intros; ring. }
  assert (HT : rms m n A y w < tol).
  { unfold rms. destruct (C39_stops svd X A y (fin tol) P w HA Hr Hc Hy Hg HN E) as [T|T].
    - rewrite xlt_fin in T. apply Rltb_true in T. exact T.
    - specialize (T beta Lb). fold m n in T. rewrite Zb in T.
      assert (Z : rss m n A w y = 0) by (apply Rle_antisym; [exact T|apply rsum_nonneg; intros; apply Rle_0_sqr]).
      rewrite Z. unfold Rdiv. rewrite Rmult_0_l, sqrt_0. exact Ht. }
  split; [exact HT|]. intros Hall. destruct HL as (Lw & Lz & Lm).
  assert (SP : forall s, In s S -> In s P).
  { intros s Hs. destruct (in_dec Nat.eq_dec s P) as [I|I]; [exact I|]. exfalso.
    specialize (Hall w s Lw Hs (Lz s I) ltac:(intros j Hj; apply Lz; intro C; apply Hj, QP, C)). lra. }
  split; [|intro j; split; auto].
  assert (Zw : rss m n A w y = 0).
  { apply Rle_antisym; [|apply rsum_nonneg; intros; apply Rle_0_sqr]. rewrite <- Zb. apply Lm; [exact Lb|].
    intros j Hj. destruct (Req_dec (nth j beta 0) 0) as [Z|Z]; [exact Z|]. exfalso. apply Hj, SP, Hsup, Z. }
  apply (nth_ext _ _ 0 0); [congruence|]. intros k Hk.
  destruct (Req_dec (nth k beta 0 - nth k w 0) 0) as [Z|Z]; [lra|]. exfalso.
  destruct (PK w) as (s & Hs & Sp & _).
  { intros j Hj. apply Lz. intro C. apply Hj, QP, C. }
  { exists k. split; [lia|exact Z]. }
  rewrite rss_err in Zw. pose proof (rsum_zero_terms m _ (fun i _ => Rle_0_sqr _) Zw) as Zi. cbv beta in Zi.
  unfold score in Sp. rewrite rsum_0' in Sp; [rewrite Rabs_R0 in Sp; unfold Rdiv in Sp; lra|].
  intros i Hi. specialize (Zi i Hi). apply Rsqr_0_uniq in Zi. rewrite Zi. ring.
Qed.
Print Assumptions C98_recovers.

(** two columns with a cosine of about -0.58, made from the singular values 2
    and 1 and a rotation *)
Definition rcA (i j : nat) : R :=
  match i, j with O, O => 8 / 5 | O, _ => - 6 / 5 | _, O => 3 / 5 | _, _ => 4 / 5 end.
Definition rcX : Mat XR := mkMat (N := XR) 2 2 (fun i j => fin (rcA i j)).
Definition rcV (i j : nat) : R := match i, j with O, O => 4 / 5 | O, _ => 3 / 5 | _, O => - 3 / 5 | _, _ => 4 / 5 end.
Definition rcSvd (D : Mat XR) : SVD XR :=
  if (mcols D =? 2)%nat then mkSVD (fins [2; 1]) (mkMat (N := XR) 2 2 (fun i j => fin (delta i j))) (mkMat (N := XR) 2 2 (fun i j => fin (rcV i j)))
  else svd_og D.

Lemma rc_good : good_svd rcSvd rcX.
Proof.
  assert (HA : rmat rcX rcA) by (intros i j _ _; reflexivity).
  intros m D Lm ED. change (mcols rcX) with 2%nat in Lm.
  assert (Hf : (0 < NumFeatures m)%nat).
  { destruct (Nat.eq_dec (NumFeatures m) 0) as [E|E]; [|lia]. unfold GetDesignMatrix in ED. rewrite E in ED. discriminate. }
  destruct (design_xr rcX rcA m HA ltac:(cbn; lia) Hf ltac:(cbn; lia)) as (D' & ED' & RD & CD & QD).
  rewrite ED in ED'. injection ED' as <-. change (mrows rcX) with 2%nat in *.
  destruct m as [|a [|b [|]]]; try discriminate Lm.
  assert (One : NumFeatures [a; b] = 1%nat -> exact_svd D (rcSvd D) /\ no_tiny (/ 1000000) (rcSvd D)).
  { intro N1. rewrite N1 in CD. unfold rcSvd. rewrite CD. change (1 =? 2)%nat with false. cbv iota.
    assert (NN : 1 <= rsum 2 (fun i => sub rcA [a; b] i 0%nat * sub rcA [a; b] i 0%nat)).
    { clear - N1. destruct a, b; try discriminate N1; unfold sub, selcol; cbn; try change (Pos.to_nat 1) with 1%nat; cbn; lra. }
    split.
    - apply (svd_og_exact D _ QD); rewrite CD, RD.
      + intros x z Hx Hz Hne. lia.
      + intros x Hx. replace x with 0%nat by lia. lra.
    - intros v Hv. right. cbn [svd_og svS] in Hv. apply in_map_iff in Hv. destruct Hv as (j & Ej & Hj). apply in_seq in Hj. injection Ej as <-.
      rewrite (cnorm_ext D _ j QD) by lia. unfold cnorm. rewrite RD. replace j with 0%nat by lia.
      apply Rlt_le_trans with (sqrt 1); [rewrite sqrt_1; lra|]. apply sqrt_le_1_alt. exact NN. }
  destruct a, b; try (apply One; reflexivity); [|exfalso; cbn in Hf; lia]. clear One.
  unfold rcSvd. rewrite CD. change (NumFeatures [true; true] =? 2)%nat with true. cbv iota. split.
  - exists (sub rcA [true; true]), delta, rcV, [2; 1]. split; [exact QD|]. cbn [svS svU svV mrows mcols length]. rewrite RD, CD.
    split; [reflexivity|]. split; [reflexivity|]. split; [reflexivity|]. split; [intros i j _ _; reflexivity|].
    split; [reflexivity|]. split; [reflexivity|]. split; [intros i j _ _; reflexivity|].
    split; [intros x z Hx Hz; destruct x as [|[|]]; try lia; destruct z as [|[|]]; try lia; cbn; unfold delta; cbn; lra|].
    split; [intros x z Hx Hz; destruct x as [|[|]]; try lia; destruct z as [|[|]]; try lia; cbn; unfold delta; cbn; lra|].
    split; [intros x [<-|[<-|[]]]; lra|].
    intros i j Hi Hj. change (NumFeatures [true; true]) with 2%nat in Hj.
    destruct i as [|[|]]; try lia; destruct j as [|[|]]; try lia; unfold sub, selcol; cbn; unfold delta; cbn; try change (Pos.to_nat 1) with 1%nat; cbn; lra.
  - intros x Hx. right. cbn [svS fins map] in Hx. destruct Hx as [E|[E|[]]]; injection E as <-; lra.
Qed.

(** the target is three times the second column *)
Example C98_example : Omp rcSvd rcX (fins [-18 / 5; 12 / 5]) (fin 1) = Ok (mkOmp (fins [0; 3]) [1%Z]).
Proof.
  assert (N0 : rsum 2 (fun i => rcA i 0%nat * rcA i 0%nat) = 73 / 25) by (cbn; lra).
  assert (N1 : rsum 2 (fun i => rcA i 1%nat * rcA i 1%nat) = 52 / 25) by (cbn; lra).
  destruct (C98_recovers rcSvd rcX rcA [-18 / 5; 12 / 5] 1 [0; 3] [1%nat] (3 / 5)) as (P & w & E & ND & HP & _ & HX).
  - intros i j _ _. reflexivity.
  - cbn; lia.
  - reflexivity.
  - exact rc_good.
  - intros j Hj. exists 0%nat. split; [cbn; lia|]. destruct j as [|j]; cbn; lra.
  - lra.
  - cbn [rcX mrows mcols].
    assert (B : 36 / 25 <= 3 / 5 * (col_norm 2 rcA 0 * col_norm 2 rcA 1)).
    { unfold col_norm. rewrite N0, N1, <- sqrt_mult by lra. assert (12 / 5 <= sqrt (73 / 25 * (52 / 25))); [|lra].
      rewrite <- (sqrt_square (12 / 5)) by lra. apply sqrt_le_1_alt. lra. }
    intros i j Hi Hj Hne. destruct i as [|[|]]; try lia; destruct j as [|[|]]; try lia.
    + replace (rsum 2 (fun a => rcA a 0%nat * rcA a 1%nat)) with (- (36 / 25)) by (cbn; lra). rewrite Rabs_Ropp, Rabs_right by lra. exact B.
    + replace (rsum 2 (fun a => rcA a 1%nat * rcA a 0%nat)) with (- (36 / 25)) by (cbn; lra). rewrite Rabs_Ropp, Rabs_right by lra. lra.
  - reflexivity.
  - split; [constructor; [intros []|constructor]|]. intros j. destruct j as [|[|j]]; cbn; split; intro H; try (destruct H as [H|[]]; lia); try lra; try (left; reflexivity).
    + destruct j; exfalso; apply H; reflexivity.
  - discriminate.
  - cbn. lra.
  - intros i Hi. destruct i as [|[|]]; cbn in *; try lia; lra.
  - lra.
  - destruct HX as (-> & HX).
    { intros w' s Lw Hs Zs Hz. destruct Hs as [<-|[]]. destruct w' as [|w0 [|w1 [|]]]; try discriminate Lw.
      specialize (Hz 0%nat ltac:(intros [C|[]]; discriminate C)). cbn in Zs, Hz. subst w0 w1. unfold rms. rewrite <- sqrt_1 at 1. apply sqrt_le_1_alt.
      unfold rss, Rsqr. cbn. lra. }
    rewrite E. do 2 f_equal. assert (H1 : In 1%nat P) by (apply HX; left; reflexivity).
    destruct P as [|p P]; [destruct H1|]. assert (p = 1%nat) by (specialize (HP p ltac:(left; reflexivity)); destruct HP as [<-|[]]; reflexivity). subst p.
    destruct P as [|q P]; [reflexivity|]. exfalso. assert (q = 1%nat) by (specialize (HP q ltac:(right; left; reflexivity)); destruct HP as [<-|[]]; reflexivity). subst q.
    inversion ND as [|? ? C _]. apply C. left. reflexivity.
Qed.

(** ** The bound on the coherence is needed *)

(** two orthogonal columns and a third one with a cosine of 2/3 to both *)
Definition cohA (i j : nat) : R :=
  match j with
  | O => match i with O => 3 | _ => 0 end
  | S O => match i with S O => 3 | _ => 0 end
  | _ => match i with O => 2 | S O => 2 | _ => 1 end
  end.
Definition cohX : Mat XR := mkMat (N := XR) 3 3 (fun i j => fin (cohA i j)).
(** rotations that make the columns of every sub-model orthogonal *)
Definition cohV (n i j : nat) : R :=
  let r := sqrt 2 / 2 in
  match n, i, j with
  | 2, 1, 1 => (- r)%R
  | 2, _, _ => r
  | 3, 2, 0 => r
  | 3, 2, 1 => (- r)%R
  | 3, 2, _ => 0%R
  | 3, 0, 2 => r
  | 3, 1, 2 => (- r)%R
  | 3, _, _ => (/ 2)%R
  | _, _, _ => 1%R
  end%nat.
Definition cohSvd (D : Mat XR) : SVD XR :=
  let V := cohV (mcols D) in
  let f := svd_og (mkMat (N := XR) (mrows D) (mcols D)
             (fun i j => fin (rsum (mcols D) (fun k => xval (mval D i k) * V k j)))) in
  mkSVD (svS f) (svU f) (mkMat (N := XR) (mcols D) (mcols D) (fun i j => fin (V i j))).

Lemma coh_rot : forall n, (0 < n <= 3)%nat ->
  (forall a b, (a < n)%nat -> (b < n)%nat -> rsum n (fun j => cohV n j a * cohV n j b) = delta a b) /\
  (forall a b, (a < n)%nat -> (b < n)%nat -> rsum n (fun j => cohV n a j * cohV n b j) = delta a b).
Proof.
  intros n Hn. assert (Q : sqrt 2 * sqrt 2 = 2) by (apply sqrt_sqrt; lra).
  destruct n as [|[|[|[|]]]]; try lia; split; intros a b Ha Hb; destruct a as [|[|[|]]]; try lia; destruct b as [|[|[|]]]; try lia; cbn; unfold delta; cbn; lra.
Qed.

Lemma coh_og : forall m, length m = 3%nat -> (0 < NumFeatures m)%nat ->
  let n := NumFeatures m in
  let B := fun i j => rsum n (fun k => sub cohA m i k * cohV n k j) in
  (forall a b, (a < n)%nat -> (b < n)%nat -> a <> b -> rsum 3 (fun i => B i a * B i b) = 0) /\
  (forall a, (a < n)%nat -> / 4 <= rsum 3 (fun i => B i a * B i a)).
Proof.
  intros m Lm Hf. assert (Q : sqrt 2 * sqrt 2 = 2) by (apply sqrt_sqrt; lra).
  assert (Q1 : 1 < sqrt 2 < 1.4145).
  { split; [rewrite <- sqrt_1 at 1|rewrite <- (sqrt_square 1.4145) by lra]; apply sqrt_lt_1_alt; lra. }
  destruct m as [|x0 [|x1 [|x2 [|]]]]; try discriminate Lm.
  destruct x0, x1, x2; try (cbn in Hf; lia); cbv zeta; cbn [NumFeatures] in *;
    (split; [intros a b Ha Hb Hne|intros a Ha]; unfold sub, selcol; cbn in *;
     destruct a as [|[|[|]]]; try lia; try (destruct b as [|[|[|]]]; try lia); cbn;
     try change (Pos.to_nat 1) with 1%nat; try change (Pos.to_nat 2) with 2%nat; cbn; lra).
Qed.

Lemma coh_good : good_svd cohSvd cohX.
Proof.
  assert (HA : rmat cohX cohA) by (intros i j _ _; reflexivity).
  intros m D Lm ED. change (mcols cohX) with 3%nat in Lm.
  assert (Hf : (0 < NumFeatures m)%nat).
  { destruct (Nat.eq_dec (NumFeatures m) 0) as [E|E]; [|lia]. unfold GetDesignMatrix in ED. rewrite E in ED. discriminate. }
  destruct (design_xr cohX cohA m HA ltac:(cbn; lia) Hf ltac:(cbn; lia)) as (D' & ED' & RD & CD & QD).
  rewrite ED in ED'. injection ED' as <-. change (mrows cohX) with 3%nat in *.
  destruct (coh_og m Lm Hf) as (O1 & O2). cbv zeta in O1, O2.
  assert (Hn : (NumFeatures m <= 3)%nat).
  { destruct m as [|x0 [|x1 [|x2 [|]]]]; try discriminate Lm. destruct x0, x1, x2; cbn; lia. }
  destruct (coh_rot (NumFeatures m) ltac:(lia)) as (V1 & V2).
  rewrite <- CD in *. rewrite <- RD in O1, O2. clear Hn Hf.
  set (B := fun i j => rsum (mcols D) (fun k => sub cohA m i k * cohV (mcols D) k j)) in *.
  set (E := mkMat (N := XR) (mrows D) (mcols D) (fun i j => fin (rsum (mcols D) (fun k => xval (mval D i k) * cohV (mcols D) k j)))).
  assert (QE : rmat E B).
  { intros i j Hi Hj. cbn [E mval mrows mcols] in *. apply (f_equal fin). apply rsum_ext. intros k Hk. rewrite (QD i k Hi Hk). reflexivity. }
  assert (P : forall a, (a < mcols D)%nat -> 0 < rsum (mrows D) (fun i => B i a * B i a)) by (intros a Ha; apply Rlt_le_trans with (/ 4); [lra|exact (O2 a Ha)]).
  destruct (svd_og_exact E B QE O1 P) as (A' & U & V & s & QA & Es & RU & CU & QU & RV & CV & QV & UO & VO & NN & DEC).
  cbn [E mrows mcols] in *.
  assert (Ls : length s = mcols D) by (rewrite <- CU; reflexivity).
  split.
  - exists (sub cohA m), U, (cohV (mcols D)), s. change (svS (cohSvd D)) with (svS (svd_og E)). change (svU (cohSvd D)) with (svU (svd_og E)).
    split; [exact QD|]. split; [exact Es|]. split; [exact RU|]. split; [exact CU|]. split; [exact QU|].
    split; [reflexivity|]. split; [symmetry; exact Ls|]. split; [intros i j _ _; reflexivity|]. split; [exact UO|].
    rewrite Ls in *. split; [exact V1|]. split; [exact NN|]. intros i j Hi Hj.
    assert (US : forall l, (l < mcols D)%nat -> U i l * nth l s 0 = B i l).
    { intros l Hl. pose proof (DEC i l Hi Hl) as Q. pose proof (QA i l Hi Hl) as Q1. rewrite (QE i l Hi Hl) in Q1. injection Q1 as Q1. rewrite <- Q1 in Q. rewrite Q.
      rewrite (rsum_ext _ _ (fun k => delta l k * (U i k * nth k s 0))).
      - symmetry. apply (rsum_delta_l (mcols D) l (fun k => U i k * nth k s 0)). exact Hl.
      - intros k Hk. pose proof (QV l k Hl Hk) as Q2. injection Q2 as Q2. rewrite <- Q2. ring. }
    rewrite (rsum_ext _ _ (fun l => rsum (mcols D) (fun k => sub cohA m i k * cohV (mcols D) k l * cohV (mcols D) j l))).
    2:{ intros l Hl. rewrite (US l Hl). unfold B. rewrite <- rsum_scal_r. reflexivity. }
    rewrite rsum_swap. rewrite (rsum_ext _ _ (fun k => delta j k * sub cohA m i k)).
    + symmetry. apply (rsum_delta_l (mcols D) j (fun k => sub cohA m i k)). exact Hj.
    + intros k Hk. rewrite delta_sym, <- (V2 k j Hk Hj). rewrite <- rsum_scal_r. apply rsum_ext. intros; ring.
  - intros v Hv. right. change (svS (cohSvd D)) with (svS (svd_og E)) in Hv. cbn [svd_og svS] in Hv. apply in_map_iff in Hv. destruct Hv as (j & Ej & Hj). apply in_seq in Hj. injection Ej as <-.
    cbn [E mcols] in Hj. change (/ 1000000 < cnorm (mrows E) (fun i j => xval (mval E i j)) j). rewrite (cnorm_ext E B j QE) by (cbn; lia). unfold cnorm. cbn [E mrows].
    apply Rlt_le_trans with (sqrt (/ 4)); [|apply sqrt_le_1_alt; apply O2; lia].
    replace (/ 4) with (/ 2 * / 2) by lra. rewrite sqrt_square; lra.
Qed.

(** Without the bound on the coherence the claim is false: the target is the sum
    of the first two columns, neither of which can be left out, and a third
    column that leans towards both is the only one selected, whichever exact
    decomposition is used; [coh_good] shows one. *)
Theorem C98_coherent_refuted : exists (X : Mat XR) A y tol beta S,
  rmat X A /\ (0 < mrows X)%nat /\ length y = mrows X /\
  (forall j, (j < mcols X)%nat -> exists i, (i < mrows X)%nat /\ A i j <> 0) /\
  length beta = mcols X /\ support beta S /\
  (forall i, (i < mrows X)%nat -> nth i y 0 = rsum (mcols X) (fun k => A i k * nth k beta 0)) /\ 0 < tol /\
  (forall w' s, length w' = mcols X -> In s S -> nth s w' 0 = 0 -> (forall j, ~ In j S -> nth j w' 0 = 0) ->
     tol <= rms (mrows X) (mcols X) A y w') /\
  (exists svd, good_svd svd X) /\
  forall svd, good_svd svd X -> exists w, Omp svd X (fins y) (fin tol) = Ok (mkOmp (fins w) [2%Z]) /\ ~ In 2%nat S.
Proof.
  set (X := cohX).
  assert (HA : rmat X cohA) by (intros i j _ _; reflexivity).
  assert (I3 : INR (mrows X) = 3) by (cbn; lra).
  assert (HN : forall j, (j < mcols X)%nat -> exists i, (i < mrows X)%nat /\ cohA i j <> 0).
  { intros j Hj. destruct j as [|[|j]]; [exists 0%nat|exists 1%nat|exists 0%nat]; (split; [cbn; lia|]); cbn; lra. }
  exists X, cohA, [3; 3; 0], (3 / 2), [1; 1; 0], [0%nat; 1%nat].
  split; [exact HA|]. split; [cbn; lia|]. split; [reflexivity|]. split; [exact HN|]. split; [reflexivity|]. split.
  { split; [repeat constructor; cbn; intuition lia|]. intro j. destruct j as [|[|[|j]]]; cbn; split; intro H; try lra; try tauto; try (destruct H as [H|[H|[]]]; lia); exfalso; try lra; destruct j; lra. }
  split; [intros i Hi; destruct i as [|[|[|]]]; cbn in *; try lia; lra|]. split; [lra|]. split.
  { intros w' s Lw Hs Zs Hz. destruct w' as [|w0 [|w1 [|w2 [|]]]]; try discriminate Lw.
    specialize (Hz 2%nat ltac:(intros [C|[C|[]]]; discriminate C)). cbn in Hz. subst w2.
    unfold rms. rewrite <- (sqrt_square (3 / 2)) by lra. apply sqrt_le_1_alt.
    apply (Rmult_le_reg_r (INR (mrows X))); [rewrite I3; lra|]. unfold Rdiv. rewrite (Rmult_assoc (rss _ _ _ _ _)), Rinv_l by (rewrite I3; lra). rewrite I3, Rmult_1_r.
    unfold rss, Rsqr. cbn. destruct Hs as [<-|[<-|[]]]; cbn in Zs; subst;
      [pose proof (Rle_0_sqr (w1 - 1)) as Q|pose proof (Rle_0_sqr (w0 - 1)) as Q]; unfold Rsqr in Q; lra. }
  split; [exists cohSvd; exact coh_good|].
  intros svd Hg.
  destruct (C39_least_squares svd X cohA [3; 3; 0] (fin (3 / 2)) HA ltac:(cbn; lia) ltac:(cbn; lia) eq_refl Hg) as (P & w & E & Pne & ND & HP & HL).
  exists w. split; [|intros [C|[C|[]]]; discriminate C]. rewrite E.
  destruct P as [|p P]; [contradiction|].
  assert (L0 : lsq_on (mrows X) (mcols X) cohA [3; 3; 0] [] [0; 0; 0]).
  { split; [reflexivity|]. split; [intros j _; destruct j as [|[|[|[|]]]]; reflexivity|]. intros w' Lw Hw.
    destruct w' as [|w0 [|w1 [|w2 [|]]]]; try discriminate Lw.
    pose proof (Hw 0%nat (fun x => x)) as Q0. pose proof (Hw 1%nat (fun x => x)) as Q1. pose proof (Hw 2%nat (fun x => x)) as Q2. cbn in Q0, Q1, Q2. subst. apply Rle_refl. }
  assert (R0 : 0 < rss (mrows X) (mcols X) cohA [0; 0; 0] [3; 3; 0]) by (unfold rss, Rsqr; cbn; lra).
  destruct (C39_greedy svd X cohA [3; 3; 0] (fin (3 / 2)) (p :: P) w HA ltac:(cbn; lia) ltac:(cbn; lia) eq_refl Hg HN E 0%nat p [0; 0; 0] eq_refl L0 R0) as (G & _).
  assert (Hp : (p < 3)%nat) by (apply (HP p); left; reflexivity).
  assert (p = 2)%nat as ->.
  { specialize (G 2%nat ltac:(cbn; lia)). 
    assert (N9 : sqrt 9 = 3) by (replace 9 with (3 * 3) by lra; apply sqrt_square; lra).
    assert (S2 : score (mrows X) cohA (err (mcols X) cohA [3; 3; 0] [0; 0; 0]) 2 = 4).
    { unfold score, col_norm. replace (rsum (mrows X) (fun i => cohA i 2 * cohA i 2)) with 9 by (cbn; lra). rewrite N9.
      replace (rsum _ _) with 12 by (unfold err; cbn; lra). rewrite Rabs_right; lra. }
    rewrite S2 in G. revert G. destruct p as [|[|[|p]]]; [| |reflexivity|lia]; intro G; exfalso; revert G; apply Rlt_not_le.
    - unfold score, col_norm. replace (rsum (mrows X) (fun i => cohA i 0 * cohA i 0)) with 9 by (cbn; lra). rewrite N9.
      replace (rsum _ _) with 9 by (unfold err; cbn; lra). rewrite Rabs_right; lra.
    - unfold score, col_norm. replace (rsum (mrows X) (fun i => cohA i 1 * cohA i 1)) with 9 by (cbn; lra). rewrite N9.
      replace (rsum _ _) with 9 by (unfold err; cbn; lra). rewrite Rabs_right; lra. }
  destruct P as [|q P]; [reflexivity|]. exfalso.
  assert (L1 : lsq_on (mrows X) (mcols X) cohA [3; 3; 0] (firstn 1 (2%nat :: q :: P)) [0; 0; 4 / 3]).
  { cbn [firstn]. split; [reflexivity|]. split; [intros j Hj; destruct j as [|[|[|j]]]; try reflexivity; [exfalso; apply Hj; left; reflexivity|destruct j; reflexivity]|]. intros w' Lw Hw.
    destruct w' as [|w0 [|w1 [|w2 [|]]]]; try discriminate Lw.
    pose proof (Hw 0%nat ltac:(intros [C|[]]; discriminate C)) as Q0. pose proof (Hw 1%nat ltac:(intros [C|[]]; discriminate C)) as Q1. cbn in Q0, Q1. subst.
    pose proof (Rle_0_sqr (w2 - 4 / 3)) as Q2. unfold Rsqr in Q2. unfold rss, Rsqr. cbn. lra. }
  pose proof (C39_no_sooner svd X cohA [3; 3; 0] (fin (3 / 2)) _ w HA ltac:(cbn; lia) ltac:(cbn; lia) eq_refl Hg E 1%nat _ ltac:(cbn; lia) L1) as B.
  rewrite xlt_fin in B. apply Rltb_false in B. revert B. apply Rlt_not_le. rewrite <- (sqrt_square (3 / 2)) by lra. apply sqrt_lt_1_alt. rewrite I3. unfold rss, Rsqr. cbn. lra.
Qed.
Print Assumptions C98_coherent_refuted.

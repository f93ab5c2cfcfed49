(** LARS with exact arithmetic: what one round computes. *)
From Coq Require Import Permutation Sorted Reals Lra Psatz.
From Verif Require Import Base Num Mat Model_Node Model_Util Model_Fit Model_Norm Model_Lars
  Proof_Node Proof_Util RSum Proof_XR Proof_Norm Proof_Fit Proof_Lars Spec_Lars Proof_Homotopy.
Open Scope R_scope.

Definition tol : R := / 1000000.
Lemma tol_pos : 0 < tol. Proof. unfold tol. lra. Qed.
Lemma lassoTol_fin : lassoTol (N := XR) = fin tol. Proof. exact e6_fin. Qed.
Global Opaque tol.

Lemma xle_fin : forall a b, nleb (n := XR) (fin a) (fin b) = true <-> a <= b.
Proof.
  intros a b. change (nleb (n := XR) (fin a) (fin b)) with (true && true && negb (Rltb b a))%bool. cbn [andb].
  destruct (Rltb b a) eqn:E; cbn [negb].
  - apply Rltb_true in E. split; [intro C; discriminate C|lra].
  - apply Rltb_false in E. split; auto.
Qed.
Lemma xlt_true : forall a b, nltb (n := XR) (fin a) (fin b) = true <-> a < b.
Proof. intros a b. change (nltb (n := XR) (fin a) (fin b)) with (Rltb a b). apply Rltb_true. Qed.
Lemma xlt_false : forall a b, nltb (n := XR) (fin a) (fin b) = false <-> b <= a.
Proof. intros a b. change (nltb (n := XR) (fin a) (fin b)) with (Rltb a b). apply Rltb_false. Qed.

(** a comparison that keeps infinite and undefined quotients out *)
Lemma between_fin : forall lo hi x, nleb (n := XR) (fin lo) x && nleb (n := XR) x (fin hi) = true ->
  exists r, x = fin r /\ lo <= r <= hi.
Proof.
  intros lo hi x H. apply andb_prop in H. destruct H as (H1 & H2). destruct x as [| | |r]; try discriminate.
  exists r. split; [reflexivity|]. split; [apply (proj1 (xle_fin lo r)); exact H1|apply (proj1 (xle_fin r hi)); exact H2].
Qed.

Lemma div_inv : forall a b r, ndiv (n := XR) (fin a) (fin b) = fin r -> b <> 0 /\ r * b = a.
Proof.
  intros a b r H. destruct (Req_dec b 0) as [->|Hb].
  - exfalso. change (ndiv (n := XR) (fin a) (fin 0)) with (if Reqb 0 0 then xinf_of_sgn (xsgn (fin a)) else XFin (a / 0)) in H.
    rewrite Reqb_refl in H. unfold xinf_of_sgn in H. destruct (xsgn (fin a)); unfold fin in H; discriminate H.
  - split; [exact Hb|]. rewrite xdiv_fin in H by exact Hb. injection H as <-. field. exact Hb.
Qed.

(** ** the join time of one feature *)
Definition plus_ok (lst : option R) : Prop := match lst with Some c => c <= 0 | None => True end.
Definition minus_ok (lst : option R) : Prop := match lst with Some c => 0 <= c | None => True end.
Definition plus_root (a b r : R) : Prop := 1 - b <> 0 /\ r * (1 - b) = a.
Definition minus_root (a b r : R) : Prop := - 1 - b <> 0 /\ r * (- 1 - b) = a.

Lemma join_time_xr : forall a b l lst t, 0 <= l ->
  join_time (fin a) (fin b) (fin l) (option_map fin lst) = Ok t ->
  exists r, t = fin r /\ - tol <= r <= l + tol /\
    ((plus_ok lst /\ plus_root a b r) \/
     (minus_ok lst /\ minus_root a b r /\
      (plus_ok lst -> forall r', plus_root a b r' -> ~ (- tol <= r' <= l + tol)))).
Proof.
  intros a b l lst t Hl E. unfold join_time in E. rewrite lassoTol_fin, n1_fin, n0_fin, !nofZ_fin in E.
  rewrite !xsub_fin, xadd_fin, xneg_fin in E.
  set (tp := ndiv (n := XR) (fin a) (fin (1 - b))) in *.
  set (tm := ndiv (n := XR) (fin a) (fin (-1 - b))) in *.
  assert (Hp : forall r, tp = fin r -> plus_root a b r) by (intros r Hr; apply div_inv; exact Hr).
  assert (Hm : forall r, tm = fin r -> minus_root a b r).
  { intros r Hr. apply div_inv in Hr. unfold minus_root. split; [replace (-1 - b) with (IZR (-1) - b) by reflexivity; apply Hr|].
    rewrite <- (proj2 Hr). f_equal. }
  assert (Hp2 : forall r, plus_root a b r -> tp = fin r).
  { intros r (R1 & R2). unfold tp. rewrite xdiv_fin by exact R1. f_equal. rewrite <- R2. field. exact R1. }
  pose proof tol_pos as Ht.
  assert (Hbad : nleb (n := XR) (fin (- tol)) (fin (IZR (-10))) && nleb (n := XR) (fin (IZR (-10))) (fin (l + tol)) = false).
  { apply andb_false_iff. left. destruct (nleb (n := XR) (fin (- tol)) (fin (IZR (-10)))) eqn:C; [|reflexivity].
    apply xle_fin in C. exfalso. Transparent tol. unfold tol in C. Opaque tol. lra. }
  assert (Hnf : nleb (n := XR) (fin (- tol)) tp && nleb (n := XR) tp (fin (l + tol)) = false ->
    forall r', plus_root a b r' -> ~ (- tol <= r' <= l + tol)).
  { intros Hn r' Hr' (C1 & C2). rewrite (Hp2 r' Hr') in Hn. apply andb_false_iff in Hn.
    destruct Hn as [Hn|Hn]; [rewrite (proj2 (xle_fin _ _) C1) in Hn|rewrite (proj2 (xle_fin _ _) C2) in Hn]; discriminate Hn. }
  destruct lst as [c|]; cbn [option_map] in E.
  - change (nltb (n := XR) (fin 0) (fin c)) with (Rltb 0 c) in E. change (nltb (n := XR) (fin c) (fin 0)) with (Rltb c 0) in E.
    destruct (Rltb 0 c) eqn:C1.
    + apply Rltb_true in C1. rewrite Hbad in E.
      destruct (nleb (n := XR) (fin (- tol)) tm && nleb (n := XR) tm (fin (l + tol))) eqn:F; [|discriminate E].
      destruct (between_fin _ _ _ F) as (r & Er & Hr). injection E as <-. exists r. split; [exact Er|]. split; [exact Hr|]. right.
      cbn [minus_ok plus_ok]. split; [lra|]. split; [apply Hm; exact Er|]. intro C. lra.
    + apply Rltb_false in C1. destruct (Rltb c 0) eqn:C2.
      * apply Rltb_true in C2. destruct (nleb (n := XR) (fin (- tol)) tp && nleb (n := XR) tp (fin (l + tol))) eqn:F.
        { destruct (between_fin _ _ _ F) as (r & Er & Hr). injection E as <-. exists r. split; [exact Er|]. split; [exact Hr|]. left.
          cbn [plus_ok]. split; [lra|]. apply Hp; exact Er. }
        rewrite Hbad in E. discriminate E.
      * apply Rltb_false in C2. destruct (nleb (n := XR) (fin (- tol)) tp && nleb (n := XR) tp (fin (l + tol))) eqn:F.
        { destruct (between_fin _ _ _ F) as (r & Er & Hr). injection E as <-. exists r. split; [exact Er|]. split; [exact Hr|]. left.
          cbn [plus_ok]. split; [lra|]. apply Hp; exact Er. }
        destruct (nleb (n := XR) (fin (- tol)) tm && nleb (n := XR) tm (fin (l + tol))) eqn:F2; [|discriminate E].
        destruct (between_fin _ _ _ F2) as (r & Er & Hr). injection E as <-. exists r. split; [exact Er|]. split; [exact Hr|]. right.
        cbn [minus_ok plus_ok]. split; [lra|]. split; [apply Hm; exact Er|]. intros _. exact (Hnf eq_refl).
  - destruct (nleb (n := XR) (fin (- tol)) tp && nleb (n := XR) tp (fin (l + tol))) eqn:F.
    { destruct (between_fin _ _ _ F) as (r & Er & Hr). injection E as <-. exists r. split; [exact Er|]. split; [exact Hr|]. left.
      cbn [plus_ok]. split; [exact I|]. apply Hp; exact Er. }
    destruct (nleb (n := XR) (fin (- tol)) tm && nleb (n := XR) tm (fin (l + tol))) eqn:F2; [|discriminate E].
    destruct (between_fin _ _ _ F2) as (r & Er & Hr). injection E as <-. exists r. split; [exact Er|]. split; [exact Hr|]. right.
    cbn [minus_ok plus_ok]. split; [exact I|]. split; [apply Hm; exact Er|]. intros _. exact (Hnf eq_refl).
Qed.

(** a loop that fills a list *)
Lemma fill_loop : forall (B : Type) (body : nat -> list B -> res (list B)) (F : nat -> res B) n (l0 v : list B),
  (forall i s, (i < n)%nat -> body i s = (do t <- F i; setn s i t)) -> length l0 = n -> for_loop 0 n body l0 = Ok v ->
  length v = n /\ forall i, (i < n)%nat -> exists t, F i = Ok t /\ nth_error v i = Some t.
Proof.
  intros B body F n l0 v Hb Hl E.
  assert (G : forall k a s v, (a + k <= n)%nat -> length s = n -> for_loop a k body s = Ok v ->
    length v = n /\ (forall i, (i < a)%nat -> nth_error v i = nth_error s i) /\
    forall i, (a <= i < a + k)%nat -> exists t, F i = Ok t /\ nth_error v i = Some t).
  { induction k as [|k IH]; intros a s v' Hk Hs E'; cbn [for_loop] in E'.
    - injection E' as <-. split; [exact Hs|]. split; [auto|]. intros i Hi. lia.
    - rewrite Hb in E' by lia. destruct (F a) as [t| |] eqn:Ea; cbn [bind] in E'; try discriminate E'.
      rewrite setn_lt in E' by lia. cbn [bind] in E'.
      destruct (IH (S a) _ _ ltac:(lia) ltac:(rewrite upd_length; exact Hs) E') as (I1 & I2 & I3).
      split; [exact I1|]. split.
      + intros i Hi. rewrite I2 by lia. rewrite nth_error_upd. destruct (Nat.eqb_spec i a); [lia|reflexivity].
      + intros i Hi. destruct (Nat.eq_dec i a) as [->|Hne]; [|apply I3; lia].
        exists t. split; [exact Ea|]. rewrite I2 by lia. rewrite nth_error_upd, Nat.eqb_refl.
        destruct (Nat.ltb_spec a (length s)); [reflexivity|lia]. }
  destruct (G n 0%nat l0 v ltac:(lia) Hl E) as (G1 & _ & G3). split; [exact G1|]. intros i Hi. apply G3. lia.
Qed.

Lemma fill_loop_ok : forall (B : Type) (body : nat -> list B -> res (list B)) (F : nat -> B) n (l0 : list B),
  (forall i s, (i < n)%nat -> body i s = setn s i (F i)) -> length l0 = n -> exists v, for_loop 0 n body l0 = Ok v.
Proof.
  intros B body F n l0 Hb Hl.
  assert (G : forall k a s, (a + k <= n)%nat -> length s = n -> exists v, for_loop a k body s = Ok v).
  { induction k as [|k IH]; intros a s Hk Hs; cbn [for_loop]; [eauto|].
    rewrite Hb by lia. rewrite setn_lt by lia. cbn [bind]. apply IH; [lia|]. rewrite upd_length. exact Hs. }
  apply G; [lia|exact Hl].
Qed.

Lemma fins_of : forall (v : list XR) n, length v = n -> (forall i, (i < n)%nat -> exists r, nth_error v i = Some (fin r)) ->
  exists w, v = fins w /\ length w = n.
Proof.
  induction v as [|x v IH]; intros n Hn H.
  - exists []. split; [reflexivity|exact Hn].
  - destruct n as [|n]; [discriminate Hn|]. destruct (IH n) as (w & -> & Hw).
    + injection Hn as Hn. exact Hn.
    + intros i Hi. apply (H (S i)). lia.
    + destruct (H 0%nat ltac:(lia)) as (r & Hr). cbn in Hr. injection Hr as ->. exists (r :: w). split; [reflexivity|]. cbn. lia.
Qed.

Lemma nth_error_fins : forall w i x, nth_error (fins w) i = Some x -> (i < length w)%nat /\ x = fin (nth i w 0).
Proof.
  intros w i x H. assert (Hi : (i < length w)%nat) by (rewrite <- fins_length; apply nth_error_Some; congruence).
  rewrite (fins_nth w i 0 Hi) in H. injection H as <-. auto.
Qed.

Lemma betaLARS_xr : forall cr dr l, length dr = length cr ->
  betaLARS (N := XR) (fins cr) (fins dr) (fin l) = Ok (fins (map (fun k => nth k cr 0 - l * nth k dr 0) (seq 0 (length cr)))).
Proof.
  intros cr dr l Hd. unfold betaLARS. rewrite fins_length.
  match goal with |- for_loop 0 ?k ?body ?l0 = _ =>
    destruct (fill_loop_ok _ body (fun i => fin (nth i cr 0 - l * nth i dr 0)) k l0) as (v & Ev) end.
  { intros i s Hi. cbv beta. rewrite !getn_fins by lia. reflexivity. }
  { apply repeat_length. }
  rewrite Ev. f_equal.
  match type of Ev with for_loop 0 ?k ?body ?l0 = _ =>
    destruct (fill_loop _ body (fun i => Ok (fin (nth i cr 0 - l * nth i dr 0))) k l0 v) as (F1 & F2) end.
  { intros i s Hi. rewrite !getn_fins by lia. reflexivity. }
  { apply repeat_length. }
  { exact Ev. }
  apply vec_fins; [exact F1|]. intros k Hk. destruct (F2 k Hk) as (t & Ht & Hv). injection Ht as <-.
  apply nth_error_nth. exact Hv.
Qed.

Lemma Ok_inj : forall (B : Type) (a b : B), Ok a = Ok b -> a = b.
Proof. intros B a b H. injection H. auto. Qed.

(** ** crossing times *)
Lemma tCross_xr : forall cr dr l cts, length dr = length cr -> tCross (N := XR) (fins cr) (fins dr) (fin l) = Ok cts ->
  length cts = length cr /\
  (forall i x, nth_error cts i = Some x -> nltb (n := XR) (fin 0) x = true ->
     exists r, x = fin r /\ nth i dr 0 <> 0 /\ r * nth i dr 0 = nth i cr 0 /\ r + tol <= l) /\
  (forall i r, (i < length cr)%nat -> nth i dr 0 <> 0 -> r * nth i dr 0 = nth i cr 0 -> r + tol <= l -> nth_error cts i = Some (fin r)).
Proof.
  intros cr dr l cts Hd E. unfold tCross in E. rewrite fins_length in E.
  match type of E with for_loop 0 ?k ?body ?l0 = _ =>
    destruct (fill_loop _ body (fun i => let ratio := ndiv (n := XR) (fin (nth i cr 0)) (fin (nth i dr 0)) in
      Ok (if nltb (fin l) (ratio + lassoTol)%num then n0 else ratio)) k l0 cts) as (F1 & F2) end.
  { intros i s Hi. rewrite !getn_fins by lia. reflexivity. }
  { apply repeat_length. }
  { exact E. }
  split; [exact F1|]. split.
  - intros i x Hx Hpos. assert (Hi : (i < length cr)%nat) by (rewrite <- F1; apply nth_error_Some; congruence).
    destruct (F2 i Hi) as (t & Ht & Hv). rewrite Hx in Hv. injection Hv as <-. cbv zeta in Ht. apply Ok_inj in Ht.
    rewrite lassoTol_fin in Ht.
    destruct (nltb (fin l) _) eqn:Ec in Ht.
    + rewrite <- Ht in Hpos. change (Rltb 0 0 = true) in Hpos. apply Rltb_true in Hpos. lra.
    + destruct (ndiv (n := XR) (fin (nth i cr 0)) (fin (nth i dr 0))) as [| | |r] eqn:Er.
      * rewrite <- Ht in Hpos. discriminate Hpos.
      * discriminate Ec.
      * rewrite <- Ht in Hpos. discriminate Hpos.
      * exists r. split; [symmetry; exact Ht|]. destruct (div_inv _ _ _ Er) as (D1 & D2). split; [exact D1|]. split; [exact D2|].
        apply (proj1 (xlt_false l (r + tol))). exact Ec.
  - intros i r Hi H1 H2 H3. destruct (F2 i Hi) as (t & Ht & Hv). rewrite Hv. cbv zeta in Ht.
    rewrite xdiv_fin, lassoTol_fin in Ht by exact H1.
    replace (nth i cr 0 / nth i dr 0) with r in Ht by (rewrite <- H2; field; exact H1).
    rewrite xadd_fin, (proj2 (xlt_false l (r + tol)) H3) in Ht. injection Ht as <-. reflexivity.
Qed.

(** ** one round *)
Section Round.
  Variable X : Mat XR.
  Variable A : nat -> nat -> R.
  Variable yr : list R.
  Hypothesis HX : rmat X A.
  Hypothesis Hy : length yr = mrows X.
  Let m := mrows X.
  Let n := mcols X.
  Let yf := fun i => nth i yr 0.
  Local Notation rho := (corr m n A yf).
  Local Notation gvf := (gv m n A).

  Definition lastof (lf : option nat) (lc : R) (f : nat) : option R :=
    match lf with Some g => if (g =? f)%nat then Some lc else None | None => None end.

  Lemma icv_rmat : forall E, (forall f, In f E -> (f < n)%nat) ->
    rmat (icv_mat X (map Z.of_nat E)) (fun i j => A i (nth j E 0%nat)).
  Proof.
    intros E HE i j Hi Hj. cbn [icv_mat mrows mcols mval] in *. rewrite map_length in Hj.
    change 0%Z with (Z.of_nat 0). rewrite map_nth, Nat2Z.id. apply HX; [exact Hi|]. apply HE. apply nth_In. exact Hj.
  Qed.

  Lemma mulvec_icv : forall E w, (forall f, In f E -> (f < n)%nat) -> length w = length E ->
    mat_mulvec (icv_mat X (map Z.of_nat E)) (fins w) = Ok (fins (map (fun i => rsum n (fun k => A i k * spread E w k)) (seq 0 m))).
  Proof.
    intros E w HE Hw. rewrite (mat_mulvec_fin _ _ w (icv_rmat E HE)) by (cbn [icv_mat mcols]; rewrite map_length; auto).
    cbn [icv_mat mrows mcols]. fold m. f_equal. f_equal. apply map_ext_in. intros i Hi. rewrite map_length. symmetry.
    apply (spread_sum n E w (fun k => A i k) HE).
  Qed.

  Lemma mulvec_T : forall w, length w = m ->
    mat_mulvec (mat_T X) (fins w) = Ok (fins (map (fun f => rsum m (fun i => A i f * nth i w 0)) (seq 0 n))).
  Proof. intros w Hw. rewrite (mat_mulvec_fin _ _ w (mat_T_fin _ _ HX)) by (cbn [mat_T mcols]; auto). reflexivity. Qed.

  Lemma mulvec_T_gv : forall b, mat_mulvec (mat_T X) (fins (map (fun i => rsum n (fun k => A i k * b k)) (seq 0 m))) =
    Ok (fins (map (gvf b) (seq 0 n))).
  Proof.
    intros b. rewrite mulvec_T by (rewrite map_length, seq_length; reflexivity). f_equal. f_equal. apply map_ext. intro f.
    unfold gv. apply rsum_ext. intros i Hi. rewrite nth_map_seq by exact Hi. reflexivity.
  Qed.

  Lemma tJoin_xr : forall E cr dr l lf lcx lc jts, (forall f, In f E -> (f < n)%nat) ->
    length cr = length E -> length dr = length E -> (lf <> None -> lcx = fin lc) ->
    tJoin X (icv_mat X (map Z.of_nat E)) (fins yr) (fins cr) (fins dr) (fin l) E lf lcx = Ok jts ->
    length jts = n /\ forall f, (f < n)%nat -> exists t,
      join_time (fin (rho (spread E cr) f)) (fin (gvf (spread E dr) f)) (fin l) (option_map fin (lastof lf lc f)) = Ok t /\
      nth_error jts f = Some t.
  Proof.
    intros E cr dr l lf lcx lc jts HE Hc Hd Hlc H. unfold tJoin in H. fold n in H.
    rewrite (mulvec_T yr Hy) in H. cbn [bind] in H.
    rewrite (mulvec_icv E cr HE Hc) in H. cbn [bind] in H. rewrite mulvec_T_gv in H. cbn [bind] in H.
    rewrite (mulvec_icv E dr HE Hd) in H. cbn [bind] in H. rewrite mulvec_T_gv in H. cbn [bind] in H.
    destruct (for_each E _ _) as [q| |]; cbn [bind] in H; try discriminate H.
    match type of H with for_loop 0 ?k ?body ?l0 = _ =>
      destruct (fill_loop _ body (fun f => join_time (fin (rho (spread E cr) f)) (fin (gvf (spread E dr) f)) (fin l)
        (option_map fin (lastof lf lc f))) k l0 jts) as (F1 & F2) end.
    { intros f s Hf. rewrite !getn_fins by (rewrite map_length, seq_length; exact Hf). cbn [bind].
      rewrite !nth_map_seq by exact Hf. rewrite xsub_fin.
      replace (rsum m (fun i => A i f * nth i yr 0) - gvf (spread E cr) f) with (rho (spread E cr) f) by apply corr_gv.
      replace (match lf with Some g => if (g =? f)%nat then Some lcx else None | None => None end)
        with (option_map fin (lastof lf lc f)); [reflexivity|].
      destruct lf as [g|]; cbn [lastof]; [|reflexivity]. rewrite Hlc by discriminate. destruct (g =? f)%nat; reflexivity. }
    { apply repeat_length. }
    { exact H. }
    split; [exact F1|exact F2].
  Qed.

  Lemma sign_xr : forall E b jF s, (forall f, In f E -> (f < n)%nat) -> length b = length E -> (jF < n)%nat ->
    joinFeatSign jF X (icv_mat X (map Z.of_nat E)) (fins yr) (fins b) = Ok s ->
    (0 < rho (spread E b) jF /\ s = fin 1) \/ (rho (spread E b) jF <= 0 /\ s = fin (-1)).
  Proof.
    intros E b jF s HE Hb HjF H. unfold joinFeatSign in H. rewrite (mulvec_icv E b HE Hb) in H. cbn [bind] in H.
    rewrite fins_length, Hy in H. fold m in H.
    rewrite (sum_loop0 _ (fun i => A i jF * (nth i yr 0 - rsum n (fun k => A i k * spread E b k)))) in H.
    - cbn [bind] in H. rewrite n0_fin in H.
      change (rsum m (fun i => A i jF * (nth i yr 0 - rsum n (fun k => A i k * spread E b k)))) with (rho (spread E b) jF) in H.
      destruct (nltb (n := XR) (fin 0) (fin (rho (spread E b) jF))) eqn:C; apply Ok_inj in H; subst s.
      + left. apply xlt_true in C. split; [exact C|reflexivity].
      + right. apply xlt_false in C. split; [exact C|reflexivity].
    - intros i x Hi. rewrite (getn_fins yr i) by (unfold m in Hi; lia).
      rewrite (getn_fins (map _ _) i) by (rewrite map_length, seq_length; exact Hi). rewrite nth_map_seq by exact Hi.
      unfold mat_at. destruct (Nat.ltb_spec i (mrows X)) as [H1|H1]; [|unfold m in Hi; lia].
      destruct (Nat.ltb_spec jF (mcols X)) as [H2|H2]; [|unfold n in HjF; lia]. cbn [andb bind].
      rewrite (HX i jF) by assumption. rewrite xsub_fin, xmul_fin, xadd_fin. reflexivity.
  Qed.

  (** The estimator is exact: on finite data it returns finite vectors that
      solve the normal equations.  [P] holds for the states in which it has
      been given [X]. *)
  Variable cd : CDParam XR.
  Variable P : cdState cd -> Prop.
  Definition normal_eq (E : list nat) (v : list R) (rhs : nat -> R) : Prop :=
    length v = length E /\ forall f, In f E -> gvf (spread E v) f = rhs f.
  Definition exact_estimator : Prop :=
    forall st E est, P st -> StronglySorted lt E -> E <> [] -> (forall f, In f E -> (f < n)%nat) -> (forall f, In f E -> nonzero_col m A f) ->
      cdSetActive cd st (map Z.of_nat E) = Ok est -> P est /\
      (forall c, cdC cd est (fins yr) = Ok c -> exists cr, c = fins cr /\ normal_eq E cr (fun f => rsum m (fun i => A i f * yf i))) /\
      (forall (s : nat -> R) d, (forall f, In f E -> s f = 1 \/ s f = -1) -> cdD cd est (fins (map s E)) = Ok d ->
         exists dr, d = fins dr /\ normal_eq E dr s).
  Hypothesis EX : exact_estimator.

  Record rstate (st : Lars XR (cdState cd)) (l : R) (s : nat -> R) (lc : R) : Prop := mkRS {
    rs_l : laLamb st = fin l;
    rs_l0 : 0 <= l;
    rs_s : laSigns st = fins (map s (seq 0 n));
    rs_pm : forall f, In f (laActive st) -> s f = 1 \/ s f = -1;
    rs_lc : laLastFeat st <> None -> laLastCoeff st = fin lc;
    rs_P : P (laEst st);
    rs_nd : NoDup (laActive st);
    rs_in : forall f, In f (laActive st) -> (f < n)%nat;
    rs_G : 0 < l -> forall f, In f (laActive st) -> nonzero_col m A f
  }.

  (** the line of solutions of a round *)
  Definition line (cf df : nat -> R) (t : R) (k : nat) : R := cf k - t * df k.

  Record round (st st' : Lars XR (cdState cd)) (l : R) (s : nat -> R) (lc : R) (E : list nat) (cf df : nat -> R)
    (T : nat -> R) (jt ct : R) : Prop := mkRound {
    ro_E : E = sort_ints (laActive st);
    ro_ne : E <> [];
    ro_nd : NoDup E;
    ro_in : forall f, In f E -> (f < n)%nat;
    ro_seg : forall t, segment m n A yf E s t (line cf df t);
    ro_res : exists nd, laRes st' = laRes st ++ [nd] /\ lnLamb nd = fin l /\ lnSelection nd = map Z.of_nat E /\
      lnCoeff nd = fins (map (line cf df l) E);
    ro_T : forall f, (f < n)%nat -> ~ In f E -> - tol <= T f <= l + tol /\ T f <= jt /\
      ((plus_ok (lastof (laLastFeat st) lc f) /\ plus_root (rho cf f) (gvf df f) (T f)) \/
       (minus_ok (lastof (laLastFeat st) lc f) /\ minus_root (rho cf f) (gvf df f) (T f) /\
        (plus_ok (lastof (laLastFeat st) lc f) -> forall r, plus_root (rho cf f) (gvf df f) r -> ~ (- tol <= r <= l + tol))));
    ro_jt : 0 <= jt;
    ro_ct : 0 <= ct;
    ro_cross : forall f, In f E -> df f <> 0 -> forall r, r * df f = cf f -> r + tol <= l -> r <= ct;
    ro_next :
      (ct < jt /\ (laStop st' = true <-> l < jt) /\
        exists jF s', ~ In jF E /\ (jF < n)%nat /\ T jF = jt /\ laActive st' = E ++ [jF] /\ laLastFeat st' = None /\
        (forall f, f <> jF -> s' f = s f) /\
        ((0 < rho (line cf df jt) jF /\ s' jF = 1) \/ (rho (line cf df jt) jF <= 0 /\ s' jF = -1)) /\
        (laStop st' = false -> rstate st' jt s' 0)) \/
      (jt <= ct /\ (laStop st' = true <-> l < ct) /\
        exists lf, In lf E /\ Permutation E (lf :: laActive st') /\ laLastFeat st' = Some lf /\
        (ct = 0 \/ (df lf <> 0 /\ ct * df lf = cf lf /\ ct + tol <= l)) /\
        (laStop st' = false -> rstate st' ct s (line cf df l lf)))
  }.

  Lemma view_xr : forall (s : nat -> R) E signs, (forall f, In f E -> (f < n)%nat) ->
    vec_view (fins (map s (seq 0 n))) E = Ok signs -> signs = fins (map s E).
  Proof.
    intros s E signs HE H. unfold vec_view in H.
    assert (G : forall E0 acc, (forall f, In f E0 -> (f < n)%nat) ->
      for_each E0 (fun r l => do x <- getn (fins (map s (seq 0 n))) r; Ok (l ++ [x])) acc = Ok (acc ++ fins (map s E0))).
    { induction E0 as [|f E0 IH]; intros acc HE0; cbn [for_each map fins].
      - rewrite app_nil_r. reflexivity.
      - rewrite getn_fins by (rewrite map_length, seq_length; apply HE0; left; reflexivity). cbn [bind].
        rewrite nth_map_seq by (apply HE0; left; reflexivity). rewrite IH by (intros g Hg; apply HE0; right; exact Hg).
        rewrite <- app_assoc. reflexivity. }
    rewrite (G E [] HE) in H. apply Ok_inj in H. symmetry. exact H.
  Qed.

  Lemma spread_map : forall E g k, NoDup E -> spread E (map g E) k = if in_dec Nat.eq_dec k E then g k else 0.
  Proof.
    intros E g k ND. destruct (in_dec Nat.eq_dec k E) as [C|C]; [|apply spread_out; exact C].
    destruct (In_nth E k 0%nat C) as (j & Hj & Ej). rewrite <- Ej. rewrite spread_nth by assumption.
    apply (nth_map_lt _ _ g E j 0%nat 0 Hj).
  Qed.

  Lemma line_map : forall E cr dr l, NoDup E -> length cr = length E ->
    map (fun k => nth k cr 0 - l * nth k dr 0) (seq 0 (length cr)) = map (line (spread E cr) (spread E dr) l) E.
  Proof.
    intros E cr dr l ND Hc. apply (nth_ext _ _ 0 0); rewrite !map_length, seq_length; [exact Hc|].
    intros j Hj. rewrite nth_map_seq by exact Hj.
    rewrite (nth_map_lt _ _ (line (spread E cr) (spread E dr) l) E j 0%nat 0) by lia.
    unfold line. rewrite !spread_nth by (try exact ND; lia). reflexivity.
  Qed.

  Lemma round_xr : forall st st' l s lc, rstate st l s lc -> (forall f, In f (laActive st) -> nonzero_col m A f) -> lars_step cd X (fins yr) st = Ok st' ->
    exists E cf df T jt ct, round st st' l s lc E cf df T jt ct.
  Proof.
    intros st st' l s lc HS HG0 H.
    destruct (step_cases XR cd X (fins yr) st st' H) as (Hne & E & signs & est & c & d & jts & cts & jt & jF & ct & cF & lrs & node &
      Ea & Es & Ee & Ec & Ed & EJ & EC & EmJ & EmC & Eb & En & ER & EEst & Hcase).
    destruct HS as [Hl Hl0 Hs Hpm Hlc HP Hnd0 Hin0 _].
    assert (Hp : Permutation E (laActive st)) by (rewrite Ea; apply sort_ints_perm).
    assert (ND : NoDup E) by (apply (Permutation_NoDup (Permutation_sym Hp)); exact Hnd0).
    assert (HE : forall f, In f E -> (f < n)%nat) by (intros f Hf; apply Hin0; apply (Permutation_in f Hp); exact Hf).
    assert (HG : forall f, In f E -> nonzero_col m A f) by (intros f Hf; apply HG0; apply (Permutation_in f Hp); exact Hf).
    assert (HpmE : forall f, In f E -> s f = 1 \/ s f = -1) by (intros f Hf; apply Hpm; apply (Permutation_in f Hp); exact Hf).
    assert (HneE : E <> []) by (intro C; rewrite C in Hp; apply Permutation_nil in Hp; contradiction).
    assert (HSS : StronglySorted lt E) by (rewrite Ea; apply sort_ints_strict; exact Hnd0).
    destruct (EX (laEst st) E est HP HSS HneE HE HG Ee) as (HP' & HC & HD).
    destruct (HC c Ec) as (cr & -> & Lc & NC).
    rewrite Hs in Es. apply view_xr in Es; [|exact HE]. subst signs.
    destruct (HD s d HpmE Ed) as (dr & -> & Ld & NDr).
    set (cf := spread E cr) in *. set (df := spread E dr) in *.
    rewrite Hl in EJ, EC, Eb, En, Hcase.
    destruct (tJoin_xr E cr dr l (laLastFeat st) (laLastCoeff st) lc jts HE Lc Ld Hlc EJ) as (LJ & HJ).
    fold cf df in HJ.
    assert (Ldc : length dr = length cr) by congruence.
    destruct (tCross_xr cr dr l cts Ldc EC) as (LX & HX1 & HX2).
    rewrite betaLARS_xr in Eb by exact Ldc. apply Ok_inj in Eb. rewrite (line_map E cr dr l ND Lc) in Eb. fold cf df in Eb.
    set (T := fun f => match nth_error jts f with Some (XFin r) => r | _ => 0 end).
    assert (HT : forall f, (f < n)%nat -> nth_error jts f = Some (fin (T f)) /\ - tol <= T f <= l + tol /\
      ((plus_ok (lastof (laLastFeat st) lc f) /\ plus_root (rho cf f) (gvf df f) (T f)) \/
       (minus_ok (lastof (laLastFeat st) lc f) /\ minus_root (rho cf f) (gvf df f) (T f) /\
        (plus_ok (lastof (laLastFeat st) lc f) -> forall r, plus_root (rho cf f) (gvf df f) r -> ~ (- tol <= r <= l + tol))))).
    { intros f Hf. destruct (HJ f Hf) as (t & Ht & Hn). destruct (join_time_xr _ _ _ _ _ Hl0 Ht) as (r & -> & R1 & R2).
      assert (ET : T f = r) by (unfold T; rewrite Hn; reflexivity). rewrite ET. split; [exact Hn|]. split; [exact R1|exact R2]. }
    (* the largest join time *)
    assert (EmJ' := EmJ). unfold maxJoinTime in EmJ'.
    destruct (for_each E _ jts) as [v| |] eqn:Ev; cbn [bind] in EmJ'; try discriminate EmJ'. apply Ok_inj in EmJ'.
    destruct (fold_max XR XR_OrdLaws (fun x => x) v 0 n0 0 jt jF eq_refl EmJ') as (J1 & J2 & J3 & J4).
    destruct (mark_active XR X E jts v Ev) as (Lv & Hv). rewrite LJ in Lv.
    assert (Hjt : exists jr, jt = fin jr).
    { destruct J4 as [J4|(_ & _ & x & J5 & J6)]; [injection J4 as -> _; exists 0; reflexivity|].
      rewrite Nat.sub_0_r in J5. subst x. assert (HjF : (jF < n)%nat) by (rewrite <- Lv; apply nth_error_Some; congruence).
      destruct (Hv jF jt J5) as (V1 & V2). destruct (in_dec Nat.eq_dec jF E) as [C|C]; [rewrite (V1 C); exists (-1); reflexivity|].
      specialize (V2 C). destruct (HT jF HjF) as (T1 & _). rewrite T1 in V2. injection V2 as <-. eauto. }
    destruct Hjt as (jr & ->).
    (* the largest crossing time *)
    assert (EmC' := EmC). unfold maxCrossTime in EmC'.
    destruct (fold_max XR XR_OrdLaws (fun x => x) cts 0 n0 0 ct cF eq_refl EmC') as (C1 & C2 & C3 & C4).
    assert (Hct : exists cr0, ct = fin cr0 /\ 0 <= cr0 /\
      (cr0 = 0 \/ (nth cF dr 0 <> 0 /\ cr0 * nth cF dr 0 = nth cF cr 0 /\ cr0 + tol <= l /\ (cF < length cr)%nat))).
    { destruct C4 as [C4|(_ & _ & x & C5 & C6)]; [injection C4 as -> _; exists 0; split; [reflexivity|split; [lra|left; reflexivity]]|].
      rewrite Nat.sub_0_r in C5. subst x.
      destruct (nltb (n := XR) (fin 0) ct) eqn:Cp.
      - destruct (HX1 cF ct C5 Cp) as (r & -> & X1 & X2 & X3). exists r. split; [reflexivity|].
        apply xlt_true in Cp. split; [lra|]. right. rewrite <- LX. repeat split; auto. apply nth_error_Some. congruence.
      - destruct ct as [| | |r]; [discriminate C1|discriminate Cp|discriminate C2|].
        exists r. split; [reflexivity|]. apply (proj1 (xlt_false 0 r)) in Cp. apply (proj1 (xlt_false r 0)) in C2.
        split; [exact C2|]. left. lra. }
    destruct Hct as (cr0 & -> & Hc0 & Hcr).
    apply (proj1 (xlt_false jr 0)) in J2.
    assert (Hseg : forall t, segment m n A yf E s t (line cf df t)).
    { intros t. split.
      - intros k Hk Ck. unfold line, cf, df. rewrite !spread_out by exact Ck. ring.
      - intros f Hf. unfold line. rewrite corr_lin. rewrite corr_gv.
        rewrite (NC f Hf), (NDr f Hf). ring. }
    destruct (new_node XR X _ _ _ _ En) as (_ & N2 & N3 & N4).
    exists E, cf, df, T, jr, cr0. constructor; try assumption.
    - exists node. split; [exact ER|]. split; [exact N3|]. split; [exact N4|]. rewrite N2. symmetry. exact Eb.
    - intros f Hf Cf. destruct (HT f Hf) as (T1 & T2 & T3). split; [exact T2|]. split; [|exact T3].
      destruct (nth_error v f) as [x|] eqn:Ex; [|apply nth_error_None in Ex; lia].
      destruct (Hv f x Ex) as (_ & V2). specialize (V2 Cf). rewrite T1 in V2. injection V2 as <-.
      specialize (J3 f (fin (T f)) Ex). apply (proj1 (xlt_false jr (T f))). exact J3.
    - intros f Hf Hd r Hr Hrt. destruct (In_nth E f 0%nat Hf) as (j & Hj & Ej). subst f.
      unfold cf, df in Hd, Hr. rewrite spread_nth in Hd, Hr by assumption. rewrite spread_nth in Hr by assumption.
      assert (Hx : nth_error cts j = Some (fin r)) by (apply HX2; auto; lia).
      specialize (C3 j (fin r) Hx). apply (proj1 (xlt_false cr0 r)). exact C3.
    - destruct Hcase as [(Hjc & sg & Esg & (cv & Ecv & Esign) & EA & ELF & EStop & ELamb)|(Hjc & lf & Elf & HPm & ESg & ELF & ELC & EStop & ELamb)].
      + left. assert (Hjc' := Hjc). apply xlt_true in Hjc'. split; [exact Hjc'|]. split.
        { rewrite EStop. apply xlt_true. }
        destruct (join_fresh XR XR_OrdLaws (proj2 (xlt_false 0 (-1)) ltac:(lra)) eq_refl X jts E (fin jr) jF cts (fin cr0) cF EmJ EmC Hjc) as (Hfr & HjF & Hpos).
        assert (HjFn : (jF < n)%nat) by (rewrite <- LJ; apply nth_error_Some; congruence).
        rewrite betaLARS_xr in Ecv by exact Ldc. apply Ok_inj in Ecv. rewrite (line_map E cr dr jr ND Lc) in Ecv. fold cf df in Ecv. subst cv.
        assert (Hrho : rho (spread E (map (line cf df jr) E)) jF = rho (line cf df jr) jF).
        { apply corr_ext. intros k Hk. rewrite spread_map by exact ND. destruct (in_dec Nat.eq_dec k E) as [C|C]; [reflexivity|].
          unfold line, cf, df. rewrite !spread_out by exact C. ring. }
        destruct (HT jF HjFn) as (T1 & _ & _). rewrite HjF in T1. injection T1 as T1.
        assert (Hsg : exists sr, sg = fin sr /\ ((0 < rho (line cf df jr) jF /\ sr = 1) \/ (rho (line cf df jr) jF <= 0 /\ sr = -1))).
        { destruct (sign_xr E _ jF sg HE (map_length _ _) HjFn Esign) as [(S1 & S2)|(S1 & S2)]; rewrite Hrho in S1; eauto. }
        destruct Hsg as (sr & -> & Hsr).
        exists jF, (fun f => if (f =? jF)%nat then sr else s f).
        split; [exact Hfr|]. split; [exact HjFn|]. split; [symmetry; exact T1|]. split; [exact EA|]. split; [exact ELF|].
        split. { intros f Hf. destruct (Nat.eqb_spec f jF); [contradiction|reflexivity]. }
        split. { rewrite Nat.eqb_refl. exact Hsr. }
        intro Hst. constructor.
        * apply ELamb. exact Hst.
        * exact J2.
        * rewrite Hs in Esg. rewrite setn_lt in Esg by (rewrite fins_length, map_length, seq_length; exact HjFn).
          apply Ok_inj in Esg. rewrite <- Esg. apply (nth_ext _ _ (fin 0) (fin 0)).
          { rewrite upd_length, !fins_length, !map_length. reflexivity. }
          intros k Hk. rewrite upd_length, fins_length, map_length, seq_length in Hk. rewrite nth_upd.
          rewrite fins_length, map_length, seq_length. rewrite !nth_fins by (rewrite map_length, seq_length; exact Hk).
          rewrite !nth_map_seq by exact Hk. destruct (Nat.eqb_spec k jF) as [->|C]; [|reflexivity].
          destruct (Nat.ltb_spec jF n); [reflexivity|lia].
        * rewrite EA. intros f Hf. destruct (Nat.eqb_spec f jF) as [->|C].
          { destruct Hsr as [(_ & ->)|(_ & ->)]; auto. }
          apply in_app_or in Hf. destruct Hf as [Hf|[Hf|[]]]; [apply HpmE; exact Hf|congruence].
        * rewrite ELF. intro C. contradiction C. reflexivity.
        * rewrite EEst. exact HP'.
        * rewrite EA. apply (Permutation_NoDup (Permutation_cons_append E jF)). constructor; assumption.
        * rewrite EA. intros f Hf. apply in_app_or in Hf. destruct Hf as [Hf|[<-|[]]]; auto.
        * rewrite EA. intros Hj0 f Hf. apply in_app_or in Hf. destruct Hf as [Hf|[<-|[]]]; [auto|].
          destruct (nonzero_dec m A jF) as [C|C]; [exact C|exfalso].
          destruct (HT jF HjFn) as (_ & _ & T3). rewrite <- T1 in T3.
          rewrite (zero_corr m n A yf jF cf C), (zero_gv m n A jF df C) in T3.
          destruct T3 as [(_ & _ & R)|(_ & (_ & R) & _)]; lra.
      + right. apply xlt_false in Hjc. split; [exact Hjc|]. split.
        { rewrite EStop. apply xlt_true. }
        apply getn_ok in Elf. assert (HcF : (cF < length E)%nat) by (apply nth_error_Some; congruence).
        assert (Hlf : nth cF E 0%nat = lf) by (apply nth_error_nth; exact Elf).
        exists lf. split; [apply (nth_error_In E cF); exact Elf|]. split; [exact HPm|]. split; [exact ELF|]. split.
        { destruct Hcr as [Hcr|(Q1 & Q2 & Q3 & Q4)]; [left; exact Hcr|right].
          unfold cf, df. rewrite <- Hlf, !spread_nth by assumption. auto. }
        assert (ND' : NoDup (lf :: laActive st')) by (apply (Permutation_NoDup HPm); exact ND).
        intro Hst. constructor.
        * apply ELamb. exact Hst.
        * exact Hc0.
        * rewrite ESg. exact Hs.
        * intros f Hf. apply HpmE. apply (Permutation_in f (Permutation_sym HPm)). right. exact Hf.
        * intros _. rewrite <- Eb in ELC. rewrite getn_fins in ELC by (rewrite map_length; exact HcF).
          rewrite (nth_map_lt _ _ (line cf df l) E cF 0%nat 0 HcF), Hlf in ELC. apply Ok_inj in ELC. symmetry. exact ELC.
        * rewrite EEst. exact HP'.
        * inversion ND'; assumption.
        * intros f Hf. apply HE. apply (Permutation_in f (Permutation_sym HPm)). right. exact Hf.
        * intros _ f Hf. apply HG. apply (Permutation_in f (Permutation_sym HPm)). right. exact Hf.
  Qed.
End Round.

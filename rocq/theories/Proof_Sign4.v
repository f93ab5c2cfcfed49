(** LassoLars on the same data with some signs reversed. *)
From Coq Require Import Permutation Sorted Reals Lra.
From Verif Require Import Base Num Mat Model_Node Model_Util Model_Fit Model_Norm Model_Cov Model_Crd Model_Lars
  Proof_Node Proof_Util RSum Proof_XR Proof_Norm Proof_Fit Proof_Lars Spec_Lars Proof_Homotopy Proof_Lars2 Proof_Lars3 Proof_Gram Spec_Sign Spec_Sign2.
Open Scope R_scope.

Definition sgn (s : bool) : R := if s then -1 else 1.
Lemma sgn_sq : forall s, sgn s * sgn s = 1.
Proof. intros []; unfold sgn; lra. Qed.
Lemma sgn_cases : forall s, sgn s = 1 \/ sgn s = -1.
Proof. intros []; unfold sgn; auto. Qed.
Lemma sgn_nz : forall s, sgn s <> 0.
Proof. intros []; unfold sgn; lra. Qed.

(** ** the largest crossing time *)
Lemma fold_pos : forall (v v' : list XR) i (acc : XR * nat), length v = length v' ->
  (fst acc = fin 0 \/ nltb (n := XR) (fin 0) (fst acc) = true) ->
  (forall k x x', nth_error v k = Some x -> nth_error v' k = Some x' ->
     nltb (n := XR) (fin 0) x = true \/ nltb (n := XR) (fin 0) x' = true -> x = x') ->
  fold_left (fun (m : XR * nat) (p : nat * XR) => if nltb (n := XR) (fst m) (snd p) then (snd p, fst p) else m) (combine (seq i (length v)) v) acc =
  fold_left (fun (m : XR * nat) (p : nat * XR) => if nltb (n := XR) (fst m) (snd p) then (snd p, fst p) else m) (combine (seq i (length v')) v') acc.
Proof.
  induction v as [|x v IH]; intros [|x' v'] i acc L H0 H; try discriminate L; [reflexivity|].
  cbn [length seq combine fold_left fst snd].
  assert (T : forall z, nltb (n := XR) (fst acc) z = true -> nltb (n := XR) (fin 0) z = true).
  { intros z Hz. destruct H0 as [H0|H0]; [rewrite <- H0; exact Hz|].
    destruct (fst acc) as [| | |a]; cbn in *; try discriminate; destruct z as [| | |r]; cbn in *; try discriminate; auto.
    apply Rltb_true. apply Rltb_true in H0. apply Rltb_true in Hz. lra. }
  assert (K : (if nltb (n := XR) (fst acc) x then (x, i) else acc) = (if nltb (n := XR) (fst acc) x' then (x', i) else acc)).
  { destruct (nltb (n := XR) (fst acc) x) eqn:E1.
    - rewrite <- (H 0%nat x x' eq_refl eq_refl (or_introl (T x E1))), E1. reflexivity.
    - destruct (nltb (n := XR) (fst acc) x') eqn:E2; [|reflexivity].
      rewrite (H 0%nat x x' eq_refl eq_refl (or_intror (T x' E2))) in E1. congruence. }
  rewrite K. apply IH; [exact (eq_add_S _ _ L)| |].
  - destruct (nltb (n := XR) (fst acc) x') eqn:E2; [right; apply T; exact E2|exact H0].
  - intros k z z' Hz Hz'. apply (H (S k)); assumption.
Qed.

(** ** the join time of a feature *)
Lemma root_plus_unique : forall a b r r', plus_root a b r -> plus_root a b r' -> r = r'.
Proof. intros a b r r' (H1 & H2) (_ & H3). apply (Rmult_eq_reg_r (1 - b)); lra. Qed.
Lemma root_minus_unique : forall a b r r', minus_root a b r -> minus_root a b r' -> r = r'.
Proof. intros a b r r' (H1 & H2) (_ & H3). apply (Rmult_eq_reg_r (-1 - b)); lra. Qed.

Lemma join_mirror : forall g a b l lst t t', 0 <= l ->
  join_time (fin a) (fin b) (fin l) (option_map fin lst) = Ok t ->
  join_time (fin (sgn g * a)) (fin (sgn g * b)) (fin l) (option_map fin (option_map (Rmult (sgn g)) lst)) = Ok t' ->
  (forall r r', plus_ok lst -> minus_ok lst -> plus_root a b r -> minus_root a b r' ->
     - tol <= r <= l + tol -> - tol <= r' <= l + tol -> r = r') -> t = t'.
Proof.
  intros g a b l lst t t' Hl E E' H. destruct g; unfold sgn in E'.
  2: { replace (1 * a) with a in E' by ring. replace (1 * b) with b in E' by ring.
       replace (option_map (Rmult 1) lst) with lst in E' by (destruct lst; cbn; [f_equal; ring|reflexivity]). congruence. }
  destruct (join_time_xr _ _ _ _ _ Hl E) as (r & -> & R1 & R2).
  destruct (join_time_xr _ _ _ _ _ Hl E') as (r' & -> & R1' & R2').
  assert (PM : forall q, plus_root (-1 * a) (-1 * b) q <-> minus_root a b q).
  { intro q. unfold plus_root, minus_root. split; intros (Q1 & Q2); split; try lra; intro C; apply Q1; lra. }
  assert (MP : forall q, minus_root (-1 * a) (-1 * b) q <-> plus_root a b q).
  { intro q. unfold plus_root, minus_root. split; intros (Q1 & Q2); split; try lra; intro C; apply Q1; lra. }
  assert (PO : plus_ok (option_map (Rmult (-1)) lst) <-> minus_ok lst) by (destruct lst; cbn; [lra|tauto]).
  assert (MO : minus_ok (option_map (Rmult (-1)) lst) <-> plus_ok lst) by (destruct lst; cbn; [lra|tauto]).
  apply (f_equal fin).
  destruct R2 as [(O & Rt)|(O & Rt & No)]; destruct R2' as [(O' & Rt')|(O' & Rt' & No')].
  - apply PO in O'. apply PM in Rt'. exact (H r r' O O' Rt Rt' R1 R1').
  - apply MP in Rt'. apply (root_plus_unique a b); assumption.
  - apply PM in Rt'. apply (root_minus_unique a b); assumption.
  - apply MO in O'. apply MP in Rt'. symmetry. exact (H r' r O' O Rt' Rt R1' R1).
Qed.

Lemma lists_eq : forall (B : Type) (l l' : list B), length l = length l' -> (forall i, (i < length l)%nat -> nth_error l i = nth_error l' i) -> l = l'.
Proof.
  induction l as [|a l IH]; intros [|b l'] L H; try discriminate L; [reflexivity|].
  pose proof (H 0%nat ltac:(cbn; lia)) as H0. injection H0 as ->. f_equal. apply IH; [cbn in L; lia|].
  intros i Hi. apply (H (S i)). cbn. lia.
Qed.

(** ** one round *)
Section Sim.
  Variables (X X' : Mat XR) (A A' : nat -> nat -> R) (yr yr' : list R) (g : nat -> bool).
  Hypotheses (HX : rmat X A) (HX' : rmat X' A') (Hy : length yr = mrows X) (Hy' : length yr' = mrows X').
  Let m := mrows X.
  Let m' := mrows X'.
  Let n := mcols X.
  Let sg (j : nat) := sgn (g j).
  Hypothesis Hn : mcols X' = n.
  Hypothesis Gram : forall j k, (j < n)%nat -> (k < n)%nat ->
    rsum m' (fun i => A' i j * A' i k) = sgn (g j) * sgn (g k) * rsum m (fun i => A i j * A i k).
  Hypothesis XTy : forall j, (j < n)%nat -> rsum m' (fun i => A' i j * nth i yr' 0) = sgn (g j) * rsum m (fun i => A i j * nth i yr 0).
  Let yf := fun i => nth i yr 0.
  Let yf' := fun i => nth i yr' 0.

  (** coefficients of the features [E] with the signs reversed *)
  Definition flip (E : list nat) (v : list R) : list R := map (fun k => sg (nth k E 0%nat) * nth k v 0) (seq 0 (length E)).
  Lemma flip_length : forall E v, length (flip E v) = length E.
  Proof. intros. unfold flip. rewrite map_length, seq_length. reflexivity. Qed.
  Lemma flip_nth : forall E v k, (k < length E)%nat -> nth k (flip E v) 0 = sg (nth k E 0%nat) * nth k v 0.
  Proof. intros E v k Hk. unfold flip. apply nth_map_seq. exact Hk. Qed.
  Lemma flip_spread : forall E v k, spread E (flip E v) k = sg k * spread E v k.
  Proof.
    intros E v k. unfold spread. rewrite <- rsum_scal. apply rsum_ext. intros i Hi.
    destruct (Nat.eqb_spec k (nth i E 0%nat)) as [->|_]; [rewrite flip_nth by exact Hi; reflexivity|ring].
  Qed.
  Lemma flip_flip : forall E v, length v = length E -> flip E (flip E v) = v.
  Proof.
    intros E v L. apply (nth_ext _ _ 0 0); [rewrite flip_length; congruence|]. intros k Hk. rewrite flip_length in Hk.
    rewrite !flip_nth by exact Hk. rewrite <- Rmult_assoc. unfold sg. rewrite sgn_sq. ring.
  Qed.

  Lemma gv_flip : forall v f, (f < n)%nat -> gv m' n A' (fun k => sg k * v k) f = sg f * gv m n A v f.
  Proof.
    intros v f Hf. change n with (mcols X). rewrite (gv_gram X A' m'), (gv_gram X A m), <- rsum_scal. apply rsum_ext. intros k Hk. rewrite Gram by assumption.
    fold (sg f) (sg k). replace (sg f * sg k * rsum m (fun i => A i f * A i k) * (sg k * v k))
      with (sg k * sg k * (sg f * (rsum m (fun i => A i f * A i k) * v k))) by ring.
    unfold sg at 1 2. rewrite sgn_sq. ring.
  Qed.
  Lemma gv_ext : forall q B v w f, (forall k, (k < n)%nat -> v k = w k) -> gv q n B v f = gv q n B w f.
  Proof. intros q B v w f H. unfold gv. apply rsum_ext. intros i Hi. f_equal. apply rsum_ext. intros k Hk. rewrite H by exact Hk. reflexivity. Qed.
  Lemma gv_spread : forall E v f, (f < n)%nat -> gv m' n A' (spread E (flip E v)) f = sg f * gv m n A (spread E v) f.
  Proof. intros E v f Hf. rewrite <- gv_flip by exact Hf. apply gv_ext. intros k _. apply flip_spread. Qed.
  Lemma corr_spread : forall E v f, (f < n)%nat -> corr m' n A' yf' (spread E (flip E v)) f = sg f * corr m n A yf (spread E v) f.
  Proof. intros E v f Hf. rewrite !corr_gv, gv_spread by exact Hf. unfold yf, yf'. rewrite XTy by exact Hf. fold (sg f). ring. Qed.

  Lemma nonzero_flip : forall f, (f < n)%nat -> (nonzero_col m A f <-> nonzero_col m' A' f).
  Proof. intros f Hf. rewrite (nonzero_gram X yr yr' A m f), (nonzero_gram X yr yr' A' m' f), (Gram f f Hf Hf), sgn_sq, Rmult_1_l. tauto. Qed.

  Hypothesis FR : independent m n A.

  Lemma normal_flip : forall E v v' rhs rhs', NoDup E -> (forall f, In f E -> (f < n)%nat) -> (forall f, In f E -> nonzero_col m A f) ->
    length v = length E -> length v' = length E ->
    (forall f, In f E -> gv m n A (spread E v) f = rhs f) -> (forall f, In f E -> gv m' n A' (spread E v') f = rhs' f) ->
    (forall f, In f E -> rhs' f = sg f * rhs f) -> v' = flip E v.
  Proof.
    intros E v v' rhs rhs' ND HE HG L L' N1 N2 HR.
    assert (Q : v = flip E v').
    { apply (normal_unique X X A A yr (fun _ _ _ _ => eq_refl) FR E v (flip E v') rhs); try assumption.
      - apply flip_length.
      - intros f Hf. fold m n. assert (Hfn := HE f Hf).
        assert (K : sg f * gv m n A (spread E (flip E v')) f = sg f * rhs f).
        { rewrite <- gv_spread, flip_flip by assumption. rewrite N2, HR by exact Hf. reflexivity. }
        apply Rmult_eq_reg_l in K; [exact K|apply sgn_nz]. }
    rewrite Q, flip_flip by exact L'. reflexivity.
  Qed.

  Variables (cd cd' : CDParam XR) (P : cdState cd -> Prop) (P' : cdState cd' -> Prop).
  Hypotheses (EX : exact_estimator X A yr cd P) (EX' : exact_estimator X' A' yr' cd' P').

  Definition mnode : LassoLarsNode XR -> LassoLarsNode XR -> Prop := mirror_node (fun z => g (Z.to_nat z)).

  Record msim (st : Lars XR (cdState cd)) (st' : Lars XR (cdState cd')) (l : R) (s s' : nat -> R) (lc lc' : R) : Prop := mkMsim {
    ms_l : laLamb st' = laLamb st;
    ms_a : Permutation (laActive st) (laActive st');
    ms_s : 0 < l -> forall f, (f < n)%nat -> s' f = sg f * s f;
    ms_f : laLastFeat st' = laLastFeat st;
    ms_c : forall f, laLastFeat st = Some f -> lc' = sg f * lc /\ (0 < l -> lc <> 0);
    ms_p : forall l0 p, laRes st = l0 ++ [p] -> forall f, In (Z.of_nat f) (lnSelection p) -> In f (laActive st) \/ laLastFeat st = Some f;
    ms_r : Forall2 mnode (laRes st) (laRes st')
  }.

  Definition beta_at (cr dr : list R) (l : R) : list R := map (fun k => nth k cr 0 - l * nth k dr 0) (seq 0 (length cr)).
  Lemma beta_flip : forall E cr dr l, length cr = length E -> length dr = length E ->
    beta_at (flip E cr) (flip E dr) l = flip E (beta_at cr dr l).
  Proof.
    intros E cr dr l Lc Ld. unfold beta_at. apply (nth_ext _ _ 0 0); [rewrite map_length, seq_length, !flip_length; reflexivity|].
    intros k Hk. rewrite map_length, seq_length, flip_length in Hk. rewrite flip_length, nth_map_seq by exact Hk.
    rewrite !flip_nth by exact Hk. rewrite nth_map_seq by (rewrite Lc; exact Hk). ring.
  Qed.
  Lemma beta_length : forall cr dr l, length (beta_at cr dr l) = length cr.
  Proof. intros. unfold beta_at. rewrite map_length, seq_length. reflexivity. Qed.

  Lemma mnode_flip : forall nd nd' E w l, (forall f, In f E -> (f < n)%nat) -> length w = length E ->
    lnLamb nd = fin l -> lnSelection nd = map Z.of_nat E -> lnCoeff nd = fins w ->
    lnLamb nd' = fin l -> lnSelection nd' = map Z.of_nat E -> lnCoeff nd' = fins (flip E w) -> mnode nd nd'.
  Proof.
    intros nd nd' E w l HE Lw A1 A2 A3 B1 B2 B3. split; [congruence|]. split; [congruence|]. rewrite A2, A3, B3.
    split; [rewrite !fins_length, flip_length; exact Lw|]. intros k Hk. rewrite fins_length, Lw in Hk.
    left. change 0%Z with (Z.of_nat 0). rewrite map_nth, Nat2Z.id. change (n0 (N := XR)) with (fin 0).
    rewrite !nth_fins by (rewrite ?flip_length; lia). rewrite flip_nth by exact Hk. unfold sg, sgn.
    destruct (g (nth k E 0%nat)); [rewrite xneg_fin|]; apply (f_equal fin); ring.
  Qed.

  Lemma join_same : forall E (v v' : list XR), length v = length v' -> (forall f, ~ In f E -> nth_error v f = nth_error v' f) ->
    forall r r', maxJoinTime v E = Ok r -> maxJoinTime v' E = Ok r' -> r = r'.
  Proof.
    intros E v v' L H r r' Er Er'. unfold maxJoinTime in Er, Er'.
    destruct (for_each E _ v) as [u| |] eqn:Eu in Er; cbn [bind] in Er; try discriminate Er.
    destruct (for_each E _ v') as [u'| |] eqn:Eu' in Er'; cbn [bind] in Er'; try discriminate Er'.
    destruct (mark_active XR X E v u Eu) as (L1 & H1). destruct (mark_active XR X E v' u' Eu') as (L2 & H2).
    assert (Q : u = u').
    { apply lists_eq; [congruence|]. intros i Hi.
      destruct (nth_error u i) as [x|] eqn:Ex; [|apply nth_error_None in Ex; lia].
      destruct (nth_error u' i) as [x'|] eqn:Ex'; [|apply nth_error_None in Ex'; lia].
      destruct (H1 i x Ex) as (P1 & P2). destruct (H2 i x' Ex') as (P1' & P2').
      destruct (in_dec Nat.eq_dec i E) as [C|C]; [rewrite P1, P1' by exact C; reflexivity|].
      rewrite <- (P2 C), <- (P2' C). apply H. exact C. }
    subst u'. congruence.
  Qed.

  Lemma cross_same : forall E cr dr l cts cts', length cr = length E -> length dr = length E ->
    tCross (N := XR) (fins cr) (fins dr) (fin l) = Ok cts -> tCross (N := XR) (fins (flip E cr)) (fins (flip E dr)) (fin l) = Ok cts' ->
    maxCrossTime cts = maxCrossTime cts'.
  Proof.
    intros E cr dr l cts cts' Lc Ld E1 E2.
    destruct (tCross_xr cr dr l cts ltac:(congruence) E1) as (L1 & P1 & Q1).
    destruct (tCross_xr (flip E cr) (flip E dr) l cts' ltac:(rewrite !flip_length; reflexivity) E2) as (L2 & P2 & Q2).
    rewrite flip_length in L2, Q2.
    apply fold_pos; [congruence|left; reflexivity|]. intros k x x' Hx Hx' [C|C].
    - assert (Hk : (k < length E)%nat) by (rewrite <- Lc, <- L1; apply nth_error_Some; congruence).
      destruct (P1 k x Hx C) as (r & -> & R1 & R2 & R3).
      rewrite (Q2 k r) in Hx'; [congruence|exact Hk| | |exact R3]; rewrite !flip_nth by exact Hk.
      + apply Rmult_integral_contrapositive. split; [apply sgn_nz|exact R1].
      + rewrite <- R2. ring.
    - assert (Hk : (k < length E)%nat) by (rewrite <- L2; apply nth_error_Some; congruence).
      destruct (P2 k x' Hx' C) as (r & -> & R1 & R2 & R3). rewrite (flip_nth E dr k Hk) in R1. rewrite (flip_nth E dr k Hk), (flip_nth E cr k Hk) in R2.
      rewrite (Q1 k r) in Hx; [congruence|rewrite Lc; exact Hk| | |exact R3].
      + intro Z. apply R1. rewrite Z. ring.
      + apply (Rmult_eq_reg_l (sg (nth k E 0%nat))); [|apply sgn_nz]. rewrite <- R2. ring.
  Qed.

  Lemma step_msim : forall st st' l s s' lc lc' st1 st1' rest, msim st st' l s s' lc lc' ->
    rstate X A cd P st l s lc -> rstate X' A' cd' P' st' l s' lc' -> 0 < l ->
    clear_joins m n A yf (laRes st1 ++ rest) ->
    lars_step cd X (fins yr) st = Ok st1 -> lars_step cd' X' (fins yr') st' = Ok st1' ->
    Forall2 mnode (laRes st1) (laRes st1') /\ laStop st1 = laStop st1' /\
    (laStop st1 = false -> exists l2 s2 s2' lc2 lc2', rstate X A cd P st1 l2 s2 lc2 /\ rstate X' A' cd' P' st1' l2 s2' lc2' /\
       msim st1 st1' l2 s2 s2' lc2 lc2').
  Proof.
    intros st st' l s s' lc lc' st1 st1' rest SM HS HS' Hlp HCl E1 E1'.
    assert (HG0 : forall f, In f (laActive st) -> nonzero_col m A f) by (apply (rs_G _ _ _ _ _ _ _ _ HS); exact Hlp).
    assert (HG0' : forall f, In f (laActive st') -> nonzero_col m' A' f) by (apply (rs_G _ _ _ _ _ _ _ _ HS'); exact Hlp).
    destruct (round_xr X A yr HX Hy cd P EX st st1 l s lc HS HG0 E1) as (ER0 & cf0 & df0 & T0 & jt0 & ct0 & HR).
    destruct (round_xr X' A' yr' HX' Hy' cd' P' EX' st' st1' l s' lc' HS' HG0' E1') as (ER0' & cf0' & df0' & T0' & jt0' & ct0' & HR').
    assert (NX : laStop st1 = false -> exists l2 s2 lc2, rstate X A cd P st1 l2 s2 lc2).
    { destruct HR as [_ _ _ _ _ _ _ _ _ _ Hnext]. intro Hst.
      destruct Hnext as [(_ & _ & jF & sn & _ & _ & _ & _ & _ & _ & _ & HRS)|(_ & _ & lf & _ & _ & _ & _ & HRS)]; eauto. }
    assert (NX' : laStop st1' = false -> exists l2 s2 lc2, rstate X' A' cd' P' st1' l2 s2 lc2).
    { destruct HR' as [_ _ _ _ _ _ _ _ _ _ Hnext]. intro Hst.
      destruct Hnext as [(_ & _ & jF & sn & _ & _ & _ & _ & _ & _ & _ & HRS)|(_ & _ & lf & _ & _ & _ & _ & HRS)]; eauto. }
    clear HR HR' ER0 cf0 df0 T0 jt0 ct0 ER0' cf0' df0' T0' jt0' ct0'.
    destruct (step_cases XR cd X (fins yr) st st1 E1) as (Hne & E & signs & est & c & d & jts & cts & jt & jF & ct & cF & lrs & node &
      Ea & Es & Ee & Ec & Ed & EJ & EC & EmJ & EmC & Eb & En & ER & EEst & Hcase).
    destruct (step_cases XR cd' X' (fins yr') st' st1' E1') as (Hne' & E' & signs' & est' & c' & d' & jts' & cts' & jt' & jF' & ct' & cF' & lrs' & node' &
      Ea' & Es' & Ee' & Ec' & Ed' & EJ' & EC' & EmJ' & EmC' & Eb' & En' & ER' & EEst' & Hcase').
    destruct SM as [Sl Sa Ss Sf Sc Sp Sr]. specialize (Ss Hlp).
    assert (EE : E' = E) by (rewrite Ea, Ea'; symmetry; apply sort_ints_eq; exact Sa). clear Ea'. subst E'.
    destruct HS as [Hl Hl0 Hs Hpm Hlc HP Hnd0 Hin0 _]. destruct HS' as [Hl' Hl0' Hs' Hpm' Hlc' HP' Hnd0' Hin0' _].
    rewrite Hn in Hs', Hin0'. fold n in Hs, Hin0.
    assert (Hp : Permutation E (laActive st)) by (rewrite Ea; apply sort_ints_perm).
    assert (Hp' : Permutation E (laActive st')) by (rewrite Hp; exact Sa).
    assert (ND : NoDup E) by (apply (Permutation_NoDup (Permutation_sym Hp)); exact Hnd0).
    assert (HE : forall f, In f E -> (f < n)%nat) by (intros f Hf; apply Hin0; apply (Permutation_in f Hp); exact Hf).
    assert (HG : forall f, In f E -> nonzero_col m A f) by (intros f Hf; apply HG0; apply (Permutation_in f Hp); exact Hf).
    assert (HG' : forall f, In f E -> nonzero_col m' A' f) by (intros f Hf; apply nonzero_flip; auto).
    assert (HpmE : forall f, In f E -> s f = 1 \/ s f = -1) by (intros f Hf; apply Hpm; apply (Permutation_in f Hp); exact Hf).
    assert (HpmE' : forall f, In f E -> s' f = 1 \/ s' f = -1) by (intros f Hf; apply Hpm'; apply (Permutation_in f Hp'); exact Hf).
    assert (HneE : E <> []) by (intro C; rewrite C in Hp; apply Permutation_nil in Hp; contradiction).
    assert (HSS : StronglySorted lt E) by (rewrite Ea; apply sort_ints_strict; exact Hnd0).
    destruct (EX (laEst st) E est HP HSS HneE HE HG Ee) as (_ & HC & HD).
    assert (HE' : forall f, In f E -> (f < mcols X')%nat) by (rewrite Hn; exact HE).
    destruct (EX' (laEst st') E est' HP' HSS HneE HE' HG' Ee') as (_ & HC' & HD').
    destruct (HC c Ec) as (cr & -> & Lc & NC). destruct (HC' c' Ec') as (cr' & -> & Lc' & NC').
    rewrite Hs in Es. rewrite Hs' in Es'.
    apply (view_xr X) in Es; [|exact HE]. rewrite <- Hn in Es'. apply (view_xr X') in Es'; [|exact HE']. subst signs signs'.
    destruct (HD s d HpmE Ed) as (dr & -> & Ld & NDr). destruct (HD' s' d' HpmE' Ed') as (dr' & -> & Ld' & NDr').
    fold m n in NC, NDr. fold m' in NC', NDr'. rewrite Hn in NC', NDr'.
    assert (EC0 : cr' = flip E cr).
    { apply (normal_flip E cr cr' _ _ ND HE HG Lc Lc' NC NC'). intros f Hf. apply XTy. auto. }
    assert (ED0 : dr' = flip E dr).
    { apply (normal_flip E dr dr' _ _ ND HE HG Ld Ld' NDr NDr'). intros f Hf. apply Ss. auto. }
    subst cr' dr'. rewrite Hl' in *. rewrite Hl in *. clear Sl.
    assert (EmX : (ct', cF') = (ct, cF)) by (rewrite <- EmC, <- EmC'; symmetry; apply (cross_same E cr dr l); assumption).
    injection EmX as -> ->.
    assert (Ldc : length dr = length cr) by congruence.
    assert (Ldc' : length (flip E dr) = length (flip E cr)) by (rewrite !flip_length; reflexivity).
    rewrite betaLARS_xr in Eb by exact Ldc. rewrite betaLARS_xr in Eb' by exact Ldc'.
    apply Ok_inj in Eb. apply Ok_inj in Eb'. fold (beta_at cr dr l) in Eb. fold (beta_at (flip E cr) (flip E dr) l) in Eb'.
    rewrite beta_flip in Eb' by assumption. set (w := beta_at cr dr l) in *.
    assert (Lw : length w = length E) by (unfold w; rewrite beta_length; exact Lc).
    destruct (new_node XR X _ _ _ _ En) as (_ & N2 & N3 & N4). destruct (new_node XR X' _ _ _ _ En') as (_ & N2' & N3' & N4').
    rewrite <- Eb in N2. rewrite <- Eb' in N2'.
    assert (MN : mnode node node') by (apply (mnode_flip node node' E w l); assumption).
    assert (FR1 : Forall2 mnode (laRes st1) (laRes st1')) by (rewrite ER, ER'; apply Forall2_app; [exact Sr|constructor; [exact MN|constructor]]).
    split; [exact FR1|].
    rewrite Sf in *.
    (* the join times *)
    destruct (tJoin_xr X A yr HX Hy E cr dr l (laLastFeat st) (laLastCoeff st) lc jts HE Lc Ld Hlc EJ) as (LJ & HJ).
    destruct (tJoin_xr X' A' yr' HX' Hy' E (flip E cr) (flip E dr) l (laLastFeat st) (laLastCoeff st') lc' jts' HE' Lc' Ld' Hlc' EJ') as (LJ' & HJ').
    rewrite Hn in LJ', HJ'. fold n in LJ, HJ. fold m in HJ. fold m' in HJ'. fold yf in HJ. fold yf' in HJ'.
    assert (Hseg : forall t, segment m n A yf E s t (fun k => spread E cr k - t * spread E dr k)).
    { intros t. split.
      - intros k Hk Ck. rewrite !spread_out by exact Ck. ring.
      - intros f Hf. rewrite corr_lin, corr_gv. rewrite (NC f Hf), (NDr f Hf). unfold yf. ring. }
    assert (Hsegw : segment m n A yf E s l (spread E w)).
    { split; [intros k Hk Ck; apply spread_out; exact Ck|]. intros f Hf. rewrite <- (proj2 (Hseg l) f Hf).
      apply corr_ext. intros k Hk. unfold w, beta_at. rewrite (line_map X yr Hy E cr dr l ND Lc).
      rewrite spread_map by exact ND. destruct (in_dec Nat.eq_dec k E) as [C|C]; [reflexivity|]. rewrite !spread_out by exact C. ring. }
    assert (EJ0 : forall f, ~ In f E -> nth_error jts f = nth_error jts' f).
    { intros f Hf. destruct (Nat.lt_ge_cases f n) as [Hfn|Hfn].
      2: { rewrite (proj2 (nth_error_None jts f)), (proj2 (nth_error_None jts' f)) by lia. reflexivity. }
      destruct (HJ f Hfn) as (t & T1 & T2). destruct (HJ' f Hfn) as (t' & T1' & T2').
      rewrite corr_spread, gv_spread in T1' by exact Hfn.
      assert (LO : lastof (laLastFeat st) lc' f = option_map (Rmult (sg f)) (lastof (laLastFeat st) lc f)).
      { destruct (laLastFeat st) as [h|] eqn:Eh; cbn [lastof]; [|reflexivity].
        destruct (Nat.eqb_spec h f) as [->|_]; [|reflexivity]. cbn [option_map]. f_equal. apply Sc. reflexivity. }
      rewrite LO in T1'. rewrite T2, T2'. f_equal.
      apply (join_mirror (g f) _ _ l _ t t' Hl0 T1 T1').
      intros r r' O1 O2 R1 R2 B1 B2.
      assert (NL : laLastFeat st <> Some f).
      { intro C. destruct (Sc f C) as (_ & Q). specialize (Q Hlp). rewrite C in O1, O2. cbn [lastof] in O1, O2.
        rewrite Nat.eqb_refl in O1, O2. cbn in O1, O2. lra. }
      apply (HCl (laRes st) node rest) with (E := E) (v := w) (l := l) (f := f) (s := s)
        (b := fun k => spread E cr k - r * spread E dr k) (b' := fun k => spread E cr k - r' * spread E dr k); auto.
      - rewrite ER, <- app_assoc. reflexivity.
      - intros l0 p Hl0p C. destruct (Sp l0 p Hl0p f C) as [Q|Q]; [|exact (NL Q)]. apply Hf.
        apply (Permutation_in f (Permutation_sym Hp)). exact Q.
      - rewrite corr_lin. destruct R1 as (_ & R1). lra.
      - rewrite corr_lin. destruct R2 as (_ & R2). lra. }
    assert (Q : (jt, jF) = (jt', jF')) by (apply (join_same E jts jts'); auto; congruence).
    injection Q as <- <-.
    destruct Hcase as [(Hjc & sx & Esg & (cv & Ecv & Esign) & EA & ELF & EStop & ELamb)|(Hjc & lf & Elf & HPm & ESg & ELF & ELC & EStop & ELamb)];
    destruct Hcase' as [(Hjc' & sx' & Esg' & (cv' & Ecv' & Esign') & EA' & ELF' & EStop' & ELamb')|(Hjc' & lf' & Elf' & HPm' & ESg' & ELF' & ELC' & EStop' & ELamb')];
      try congruence.
    - split; [congruence|]. intro Hst.
      assert (Hst' : laStop st1' = false) by congruence.
      destruct (NX Hst) as (l2 & s2 & lc2 & RS2). destruct (NX' Hst') as (l2' & s2' & lc2' & RS2').
      assert (El2 : l2' = l2).
      { pose proof (rs_l _ _ _ _ _ _ _ _ RS2) as Q1. pose proof (rs_l _ _ _ _ _ _ _ _ RS2') as Q2. rewrite ELamb in Q1 by exact Hst.
        rewrite ELamb' in Q2 by exact Hst'. rewrite Q1 in Q2. injection Q2. auto. }
      subst l2'. exists l2, s2, s2', lc2, lc2'. split; [exact RS2|]. split; [exact RS2'|].
      destruct (join_fresh XR XR_OrdLaws (proj2 (xlt_false 0 (-1)) ltac:(lra)) eq_refl X jts E jt jF cts ct cF EmJ EmC Hjc) as (HjE & HjF & Hjp).
      assert (HjFn : (jF < n)%nat) by (rewrite <- LJ; apply nth_error_Some; congruence).
      destruct (HJ jF HjFn) as (t & T1 & T2). rewrite HjF in T2. injection T2 as <-.
      destruct (join_time_xr _ _ _ _ _ Hl0 T1) as (jr & -> & JR1 & JR2).
      apply (proj1 (xlt_true 0 jr)) in Hjp.
      assert (HSx : sx' = nmul (n := XR) (fin (sg jF)) sx).
      { rewrite betaLARS_xr in Ecv by exact Ldc. rewrite betaLARS_xr in Ecv' by exact Ldc'.
        apply Ok_inj in Ecv. apply Ok_inj in Ecv'. fold (beta_at cr dr jr) in Ecv. fold (beta_at (flip E cr) (flip E dr) jr) in Ecv'.
        rewrite beta_flip in Ecv' by assumption. subst cv cv'.
        assert (Lb : length (beta_at cr dr jr) = length E) by (rewrite beta_length; exact Lc).
        assert (HjFn' : (jF < mcols X')%nat) by (rewrite Hn; exact HjFn).
        pose proof (sign_xr X A yr HX Hy E _ jF sx HE Lb HjFn Esign) as Q.
        pose proof (sign_xr X' A' yr' HX' Hy' E _ jF sx' HE' (flip_length _ _) HjFn' Esign') as Q'.
        rewrite Hn in Q'. fold n m yf in Q. fold m' yf' in Q'. rewrite corr_spread in Q' by exact HjFn.
        assert (NZ : corr m n A yf (spread E (beta_at cr dr jr)) jF <> 0).
        { assert (K : corr m n A yf (spread E (beta_at cr dr jr)) jF = corr m n A yf (spread E cr) jF + jr * gv m n A (spread E dr) jF).
          { rewrite <- corr_lin. apply corr_ext. intros k Hk. unfold beta_at. rewrite (line_map X yr Hy E cr dr jr ND Lc).
            rewrite spread_map by exact ND. destruct (in_dec Nat.eq_dec k E) as [C|C]; [reflexivity|]. rewrite !spread_out by exact C. ring. }
          rewrite K. destruct JR2 as [(_ & _ & R)|(_ & (_ & R) & _)]; lra. }
        unfold sg in Q' |- *. destruct (g jF); unfold sgn in Q' |- *;
        destruct Q as [(Q1 & ->)|(Q1 & ->)]; destruct Q' as [(Q2 & ->)|(Q2 & ->)]; rewrite ?xmul_fin; try (apply (f_equal fin); ring); lra. }
      constructor.
      + rewrite ELamb, ELamb' by assumption. reflexivity.
      + rewrite EA, EA'. reflexivity.
      + intros _ f Hf.
        assert (V : fin (s2 f) = if (f =? jF)%nat then sx else fin (s f)).
        { rewrite Hs in Esg. rewrite setn_lt in Esg by (rewrite fins_length, map_length, seq_length; exact HjFn).
          apply Ok_inj in Esg. rewrite (rs_s _ _ _ _ _ _ _ _ RS2) in Esg. fold n in Esg.
          apply (f_equal (fun q => nth f q (fin 0))) in Esg. rewrite nth_fins in Esg by (rewrite map_length, seq_length; exact Hf).
          rewrite nth_map_seq in Esg by exact Hf. rewrite <- Esg.
          destruct (Nat.eqb_spec f jF) as [->|Cf].
          - rewrite nth_upd, Nat.eqb_refl, fins_length, map_length, seq_length. destruct (Nat.ltb_spec jF n); [reflexivity|lia].
          - rewrite nth_upd. destruct (Nat.eqb_spec f jF); [contradiction|]. rewrite nth_fins by (rewrite map_length, seq_length; exact Hf). rewrite nth_map_seq by exact Hf. reflexivity. }
        assert (V' : fin (s2' f) = if (f =? jF)%nat then sx' else fin (s' f)).
        { rewrite Hs' in Esg'. rewrite setn_lt in Esg' by (rewrite fins_length, map_length, seq_length; exact HjFn).
          apply Ok_inj in Esg'. rewrite (rs_s _ _ _ _ _ _ _ _ RS2'), Hn in Esg'.
          apply (f_equal (fun q => nth f q (fin 0))) in Esg'. rewrite nth_fins in Esg' by (rewrite map_length, seq_length; exact Hf).
          rewrite nth_map_seq in Esg' by exact Hf. rewrite <- Esg'.
          destruct (Nat.eqb_spec f jF) as [->|Cf].
          - rewrite nth_upd, Nat.eqb_refl, fins_length, map_length, seq_length. destruct (Nat.ltb_spec jF n); [reflexivity|lia].
          - rewrite nth_upd. destruct (Nat.eqb_spec f jF); [contradiction|]. rewrite nth_fins by (rewrite map_length, seq_length; exact Hf). rewrite nth_map_seq by exact Hf. reflexivity. }
        destruct (Nat.eqb_spec f jF) as [->|Cf].
        * rewrite HSx, <- V, xmul_fin in V'. injection V'. auto.
        * injection V as ->. injection V' as ->. apply Ss. exact Hf.
      + congruence.
      + rewrite ELF. intros f C. discriminate C.
      + intros l0 p Hl0p f Hf. rewrite ER in Hl0p. apply app_inj_tail in Hl0p. destruct Hl0p as (_ & <-). left.
        rewrite N4 in Hf. apply in_map_iff in Hf. destruct Hf as (f' & Ef & Hf). apply Nat2Z.inj in Ef. subst f'.
        rewrite EA. apply in_or_app. left. exact Hf.
      + exact FR1.
    - split; [congruence|]. intro Hst.
      assert (Hst' : laStop st1' = false) by congruence.
      rewrite Elf in Elf'. apply Ok_inj in Elf'. subst lf'.
      destruct (NX Hst) as (l2 & s2 & lc2 & RS2). destruct (NX' Hst') as (l2' & s2' & lc2' & RS2').
      assert (El2 : l2' = l2).
      { pose proof (rs_l _ _ _ _ _ _ _ _ RS2) as Q1. pose proof (rs_l _ _ _ _ _ _ _ _ RS2') as Q2. rewrite ELamb in Q1 by exact Hst.
        rewrite ELamb' in Q2 by exact Hst'. rewrite Q1 in Q2. injection Q2. auto. }
      subst l2'. exists l2, s2, s2', lc2, lc2'. split; [exact RS2|]. split; [exact RS2'|].
      assert (HcF : (cF < length E)%nat /\ lf = nth cF E 0%nat).
      { unfold getn in Elf. destruct (nth_error E cF) as [q|] eqn:Eq; [|discriminate Elf]. apply Ok_inj in Elf. subst q.
        split; [apply nth_error_Some; congruence|]. symmetry. apply nth_error_nth. exact Eq. }
      destruct HcF as (HcF & Elf2).
      assert (Elc : lc2 = nth cF w 0).
      { pose proof (rs_lc _ _ _ _ _ _ _ _ RS2) as Q1. rewrite ELF in Q1. specialize (Q1 ltac:(discriminate)). rewrite Q1, <- Eb in ELC.
        rewrite getn_fins in ELC by (rewrite Lw; exact HcF). apply Ok_inj in ELC. injection ELC. auto. }
      assert (Elc' : lc2' = sg lf * nth cF w 0).
      { pose proof (rs_lc _ _ _ _ _ _ _ _ RS2') as Q1. rewrite ELF' in Q1. specialize (Q1 ltac:(discriminate)). rewrite Q1, <- Eb' in ELC'.
        rewrite getn_fins in ELC' by (rewrite flip_length; exact HcF). apply Ok_inj in ELC'. injection ELC' as ELC'.
        rewrite <- ELC', flip_nth by exact HcF. rewrite Elf2. reflexivity. }
      constructor.
      + rewrite ELamb, ELamb' by assumption. reflexivity.
      + apply (Permutation_cons_inv (a := lf)). rewrite <- HPm. exact HPm'.
      + intros _ f Hf.
        pose proof (rs_s _ _ _ _ _ _ _ _ RS2) as V. pose proof (rs_s _ _ _ _ _ _ _ _ RS2') as V'. rewrite ESg, Hs in V. rewrite ESg', Hs', Hn in V'. fold n in V.
        apply (f_equal (fun q => nth f q (fin 0))) in V. apply (f_equal (fun q => nth f q (fin 0))) in V'.
        rewrite !nth_fins in V, V' by (rewrite map_length, seq_length; exact Hf). rewrite !nth_map_seq in V, V' by exact Hf.
        injection V as <-. injection V' as <-. apply Ss. exact Hf.
      + congruence.
      + intros f Hf. rewrite ELF in Hf. injection Hf as <-. split; [rewrite Elc; exact Elc'|]. intro Hl2.
        pose proof (rs_l _ _ _ _ _ _ _ _ RS2) as Q1. rewrite ELamb in Q1 by exact Hst.
        destruct (tCross_xr cr dr l cts Ldc EC) as (LX & HX1 & _).
        destruct (fold_max XR XR_OrdLaws (fun x => x) cts 0 n0 0 ct cF eq_refl EmC) as (_ & _ & _ & [C4|(_ & _ & x & C5 & C6)]).
        { injection C4 as C4 _. rewrite C4 in Q1. injection Q1 as Q1. lra. }
        rewrite Nat.sub_0_r in C5. subst x. rewrite Q1 in C5.
        destruct (HX1 cF (fin l2) C5 (proj2 (xlt_true 0 l2) Hl2)) as (r & Er & R1 & R2 & R3). injection Er as <-.
        rewrite Elc. unfold w, beta_at. rewrite nth_map_seq by (rewrite Lc; exact HcF). rewrite <- R2. pose proof tol_pos as TP.
        intro C. assert (K : (l2 - l) * nth cF dr 0 = 0) by lra. apply Rmult_integral in K. destruct K as [K|K]; [lra|contradiction].
      + intros l0 p Hl0p f Hf. rewrite ER in Hl0p. apply app_inj_tail in Hl0p. destruct Hl0p as (_ & <-).
        rewrite N4 in Hf. apply in_map_iff in Hf. destruct Hf as (f' & Ef & Hf). apply Nat2Z.inj in Ef. subst f'.
        apply (Permutation_in f HPm) in Hf. destruct Hf as [<-|Hf]; [right; exact ELF|left; exact Hf].
      + exact FR1.
  Qed.

  Lemma loop_msim : forall mn, 0 <= mn -> forall fuel fuel' st st' l s s' lc lc' r r', msim st st' l s s' lc lc' ->
    rstate X A cd P st l s lc -> rstate X' A' cd' P' st' l s' lc' ->
    lars_loop cd X (fins yr) (fin mn) fuel st = Ok r -> lars_loop cd' X' (fins yr') (fin mn) fuel' st' = Ok r' ->
    clear_joins m n A yf (laRes r) -> Forall2 mnode (laRes r) (laRes r').
  Proof.
    intros mn Hmn. induction fuel as [|fuel IH]; intros fuel' st st' l s s' lc lc' r r' SM HS HS' E E' HC.
    - cbn [lars_loop] in E. destruct (nltb (fin mn) (laLamb st)) eqn:El; cbn [negb] in E; [discriminate E|]. injection E as <-.
      destruct fuel' as [|fuel']; cbn [lars_loop] in E'; rewrite (ms_l _ _ _ _ _ _ _ SM), El in E'; cbn [negb] in E'; injection E' as <-; apply (ms_r _ _ _ _ _ _ _ SM).
    - cbn [lars_loop] in E. destruct (nltb (fin mn) (laLamb st)) eqn:El; cbn [negb] in E.
      2: { injection E as <-. destruct fuel' as [|fuel']; cbn [lars_loop] in E'; rewrite (ms_l _ _ _ _ _ _ _ SM), El in E'; cbn [negb] in E'; injection E' as <-; apply (ms_r _ _ _ _ _ _ _ SM). }
      destruct fuel' as [|fuel']; cbn [lars_loop] in E'; rewrite (ms_l _ _ _ _ _ _ _ SM), El in E'; cbn [negb] in E'; [discriminate E'|].
      destruct (lars_step cd X (fins yr) st) as [st1| |] eqn:E1; cbn [bind] in E; try discriminate E.
      destruct (lars_step cd' X' (fins yr') st') as [st1'| |] eqn:E1'; cbn [bind] in E'; try discriminate E'.
      assert (Hlp : 0 < l).
      { rewrite (rs_l _ _ _ _ _ _ _ _ HS) in El. apply (proj1 (xlt_true mn l)) in El. lra. }
      assert (PF : exists rest, laRes r = laRes st1 ++ rest).
      { destruct (laStop st1); [injection E as <-; exists []; symmetry; apply app_nil_r|]. apply (loop_prefix X yr cd) in E. exact E. }
      destruct PF as (rest & PF). assert (HC1 := HC). rewrite PF in HC1.
      destruct (step_msim st st' l s s' lc lc' st1 st1' rest SM HS HS' Hlp HC1 E1 E1') as (Rr & Rs & Rm).
      rewrite <- Rs in E'. destruct (laStop st1) eqn:Est.
      + injection E as <-. injection E' as <-. exact Rr.
      + destruct (Rm eq_refl) as (l2 & s2 & s2' & lc2 & lc2' & RS2 & RS2' & SM2).
        apply (IH fuel' st1 st1' l2 s2 s2' lc2 lc2' r r'); assumption.
  Qed.

  Lemma fold_abs : forall (v v' : list XR) i (acc : XR * nat), length v = length v' ->
    (forall k x x', nth_error v k = Some x -> nth_error v' k = Some x' -> nabs (n := XR) x = nabs (n := XR) x') ->
    fold_left (fun (m : XR * nat) (p : nat * XR) => if nltb (n := XR) (fst m) (nabs (n := XR) (snd p)) then (nabs (n := XR) (snd p), fst p) else m) (combine (seq i (length v)) v) acc =
    fold_left (fun (m : XR * nat) (p : nat * XR) => if nltb (n := XR) (fst m) (nabs (n := XR) (snd p)) then (nabs (n := XR) (snd p), fst p) else m) (combine (seq i (length v')) v') acc.
  Proof.
    induction v as [|x v IH]; intros [|x' v'] i acc L H; try discriminate L; [reflexivity|].
    cbn [length seq combine fold_left fst snd]. rewrite (H 0%nat x x' eq_refl eq_refl). apply IH; [exact (eq_add_S _ _ L)|].
    intros k z z' Hz Hz'. apply (H (S k)); assumption.
  Qed.

  Lemma start_msim : forall est est' st st' l s lc l' s' lc', lars_start cd est X (fins yr) = Ok st -> lars_start cd' est' X' (fins yr') = Ok st' ->
    rstate X A cd P st l s lc -> rstate X' A' cd' P' st' l' s' lc' -> msim st st' l s s' lc lc' /\ l' = l.
  Proof.
    intros est est' st st' l s lc l' s' lc' E E' HS HS'. unfold lars_start in E, E'. rewrite Hn in E'. fold n in E.
    destruct (_ || _)%bool in E; [discriminate E|]. destruct (_ || _)%bool in E'; [discriminate E'|].
    rewrite (mulvec_T X A HX yr Hy) in E. rewrite (mulvec_T X' A' HX' yr' Hy') in E'. cbn [bind] in E, E'. rewrite Hn in E'. fold n m in E. fold m' in E'.
    set (u := map (fun f => rsum m (fun i => A i f * nth i yr 0)) (seq 0 n)) in *.
    set (u' := map (fun f => rsum m' (fun i => A' i f * nth i yr' 0)) (seq 0 n)) in *.
    assert (Lu : length u = n) by (unfold u; rewrite map_length, seq_length; reflexivity).
    assert (Lu' : length u' = n) by (unfold u'; rewrite map_length, seq_length; reflexivity).
    assert (Q : forall f, (f < n)%nat -> nth f u' 0 = sg f * nth f u 0).
    { intros f Hf. unfold u, u'. rewrite !nth_map_seq by exact Hf. apply XTy. exact Hf. }
    match type of E with context [fold_left ?f _ ?z] => assert (FE : fold_left f (combine (seq 0 (length (fins u))) (fins u)) z = fold_left f (combine (seq 0 (length (fins u'))) (fins u')) z) end.
    { apply fold_abs; [rewrite !fins_length; congruence|]. intros k x x' Hx Hx'. apply nth_error_fins in Hx. apply nth_error_fins in Hx'.
      destruct Hx as (Hk & ->). destruct Hx' as (_ & ->). rewrite Lu in Hk. rewrite (Q k Hk), !xabs_fin. apply (f_equal fin).
      rewrite Rabs_mult. unfold sg. destruct (sgn_cases (g k)) as [-> | ->]; [rewrite Rabs_R1|rewrite (Rabs_left (-1)) by lra]; ring. }
    rewrite <- FE in E'. clear FE.
    destruct (fold_left _ _ _) as (mt & feat) eqn:EF in E, E'.
    assert (EF0 : (mt = fin 0 \/ exists x, nth_error (fins u) feat = Some x /\ mt = nabs (n := XR) x)).
    { destruct (fold_max XR XR_OrdLaws (nabs (n := XR)) (fins u) 0 n0 0 mt feat eq_refl EF) as (_ & _ & _ & [C|(_ & _ & x & C1 & C2)]).
      - left. injection C as -> _. reflexivity.
      - right. rewrite Nat.sub_0_r in C1. eauto. }
    destruct (Nat.lt_ge_cases feat n) as [Hf|Hf].
    2: { unfold getn in E. rewrite (proj2 (nth_error_None (fins u) feat)) in E by (rewrite fins_length; lia). discriminate E. }
    rewrite getn_fins in E by lia. rewrite getn_fins in E' by lia. cbn [bind] in E, E'. rewrite (Q feat Hf) in E'.
    rewrite setn_lt in E by (rewrite repeat_length; exact Hf). rewrite setn_lt in E' by (rewrite repeat_length; exact Hf).
    cbn [bind] in E, E'. injection E as <-. injection E' as <-.
    pose proof (rs_l _ _ _ _ _ _ _ _ HS) as L1. pose proof (rs_l _ _ _ _ _ _ _ _ HS') as L2. cbn [laLamb] in L1, L2.
    split; [|rewrite L1 in L2; injection L2; auto].
    constructor; cbn [laLamb laActive laLastFeat laRes]; try reflexivity; try constructor; try discriminate.
    - intros Hl f Hfn.
      assert (NZ : nth feat u 0 <> 0).
      { destruct EF0 as [-> |(x & X1 & ->)]; [injection L1 as <-; lra|]. apply nth_error_fins in X1. destruct X1 as (_ & ->).
        rewrite xabs_fin in L1. injection L1 as <-. intro C. rewrite C, Rabs_R0 in Hl. lra. }
      pose proof (rs_s _ _ _ _ _ _ _ _ HS) as V. pose proof (rs_s _ _ _ _ _ _ _ _ HS') as V'. cbn [laSigns] in V, V'. rewrite Hn in V'. fold n in V.
      apply (f_equal (fun q => nth f q (fin 0))) in V. apply (f_equal (fun q => nth f q (fin 0))) in V'.
      rewrite nth_fins in V, V' by (rewrite map_length, seq_length; exact Hfn). rewrite nth_map_seq in V, V' by exact Hfn.
      rewrite nth_upd in V, V'. rewrite repeat_length in V, V'. destruct (Nat.ltb_spec feat n); [|lia].
      destruct (Nat.eqb_spec f feat) as [->|C].
      + unfold sg in V', Q |- *.
        destruct (Rltb (nth feat u 0) 0) eqn:B in V; destruct (Rltb (sgn (g feat) * nth feat u 0) 0) eqn:B' in V';
          injection V as <-; injection V' as <-;
          rewrite ?Rltb_true, ?Rltb_false in B; rewrite ?Rltb_true, ?Rltb_false in B'; destruct (g feat); unfold sgn in *; lra.
      + change (n0 (N := XR)) with (fin 0) in V, V'. rewrite nth_repeat in V, V'. injection V as <-. injection V' as <-. ring.
    - exfalso. match goal with H : [] = _ ++ [_] |- _ => symmetry in H; apply app_eq_nil in H; destruct H; discriminate end.
  Qed.
End Sim.

Lemma lars_mirror : forall (data data' : NormalizedData XR) A A' yr yr' g (cd cd' : CDParam XR) P P' est est' mn fuel fuel' path path',
  rmat (ndX data) A -> ndy data = fins yr -> length yr = mrows (ndX data) ->
  rmat (ndX data') A' -> ndy data' = fins yr' -> length yr' = mrows (ndX data') ->
  mcols (ndX data') = mcols (ndX data) ->
  (forall j k, (j < mcols (ndX data))%nat -> (k < mcols (ndX data))%nat ->
     rsum (mrows (ndX data')) (fun i => A' i j * A' i k) = sgn (g j) * sgn (g k) * rsum (mrows (ndX data)) (fun i => A i j * A i k)) ->
  (forall j, (j < mcols (ndX data))%nat ->
     rsum (mrows (ndX data')) (fun i => A' i j * nth i yr' 0) = sgn (g j) * rsum (mrows (ndX data)) (fun i => A i j * nth i yr 0)) ->
  exact_estimator (ndX data) A yr cd P -> P (cdSetX cd est (ndX data)) ->
  exact_estimator (ndX data') A' yr' cd' P' -> P' (cdSetX cd' est' (ndX data')) ->
  independent (mrows (ndX data)) (mcols (ndX data)) A -> 0 <= mn ->
  LassoLars cd est data (fin mn) fuel = Ok path -> LassoLars cd' est' data' (fin mn) fuel' = Ok path' ->
  clear_joins (mrows (ndX data)) (mcols (ndX data)) A (fun i => nth i yr 0) path ->
  Forall2 (mirror_node (fun z => g (Z.to_nat z))) path path'.
Proof.
  intros data data' A A' yr yr' g cd cd' P P' est est' mn fuel fuel' path path' HX Ey Hy HX' Ey' Hy' Hn G XY EX HP EX' HP' FR Hmn E E' HC.
  unfold LassoLars in E, E'. rewrite Ey in E. rewrite Ey' in E'.
  destruct (lars_start cd est (ndX data) (fins yr)) as [st| |] eqn:Es; cbn [bind] in E; try discriminate E.
  destruct (lars_start cd' est' (ndX data') (fins yr')) as [st'| |] eqn:Es'; cbn [bind] in E'; try discriminate E'.
  destruct (lars_loop cd (ndX data) (fins yr) (fin mn) fuel st) as [r| |] eqn:El; cbn [bind] in E; try discriminate E. injection E as <-.
  destruct (lars_loop cd' (ndX data') (fins yr') (fin mn) fuel' st') as [r'| |] eqn:El'; cbn [bind] in E'; try discriminate E'. injection E' as <-.
  destruct (start_rs (ndX data) A yr HX Hy cd P est st Es HP) as (l & s & feat & HS & _).
  destruct (start_rs (ndX data') A' yr' HX' Hy' cd' P' est' st' Es' HP') as (l' & s' & feat' & HS' & _).
  destruct (start_msim (ndX data) (ndX data') A A' yr yr' g HX HX' Hy Hy' Hn XY cd cd' P P' est est' st st' l s 0 l' s' 0 Es Es' HS HS') as (SM & ->).
  apply (loop_msim (ndX data) (ndX data') A A' yr yr' g HX HX' Hy Hy' Hn G XY FR cd cd' P P' EX EX' mn Hmn fuel fuel' st st' l s s' 0 0 r r'); assumption.
Qed.

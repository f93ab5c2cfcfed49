(** C77: what the lasso command writes with coordinate descent. *)
From Coq Require Import FunctionalExtensionality String Sorted Permutation Reals Lra Psatz.
From Verif Require Import Base Num Mat Model_Node Model_Util Model_Norm Model_Fit Model_CSV Model_Cov Model_Crd Model_CrdPath Model_Lars Model_Path Model_Cmd
  RSum Stats Proof_Util Proof_XR Proof_Norm Proof_Norm2 Proof_Cov Proof_Crd Proof_Crd2 Proof_Crd3 Props_Crd Props_CrdPath Props_CrdExact
  Spec_Fit Spec_Lars Spec_Path Proof_Homotopy Proof_Lars2 Proof_Fit
  Eval Props_Util Props_Fit Spec_LassoCmd Proof_LassoCmd Proof_Cmd Props_CSV Props_Norm Props_Lars Props_Path Props_Cmd Props_LassoCmd Proof_CrdCmd.
Open Scope R_scope.

(** ** Specification *)

(** the node holds the model with intercept [b0] and coefficients [w] for the
    features [E] *)
Definition model_of (node : LassoLarsNode XR) (E : list nat) (b0 : R) (w : list R) : Prop :=
  lnSelection node = 0%Z :: map Z.of_nat E /\ lnCoeff node = fins (b0 :: w) /\ length w = length E /\ StronglySorted lt E.

(** the features other than the bias column are uncorrelated *)
Definition uncorrelated (m n : nat) (x : nat -> nat -> R) : Prop :=
  forall j k, (0 < j < n)%nat -> (0 < k < n)%nat -> j <> k ->
    rsum m (fun i => (x i j - mean (column m x j)) * (x i k - mean (column m x k))) = 0.

(** what leaving out coefficients of at most 1e-16 can cost *)
Definition slack (m n : nat) : R := INR (m - 1) * (INR n / 10 ^ 16 + Rsqr (INR n / 10 ^ 16) / 2).

(** What is written for the penalty [l].  Coordinate descent minimises the mean
    of the squared errors rather than their sum, so the penalty of the
    objective is m l.  The model has its own scores, is no worse than the best
    constant, and no worse than any other model if the features are
    uncorrelated. *)
Definition written_cd (m n : nat) (x : nat -> nat -> R) (y : list R) (l : R) (node : LassoLarsNode XR) (aicc bic : XR) : Prop :=
  exists E b0 w, model_of node E b0 w /\ lnLamb node = fin l /\ (forall f, In f E -> (0 < f < n)%nat) /\
    aicc = Aicc (Z.of_nat (S (length E))) (Z.of_nat m) (fin (squared_error m n x y b0 (spread E w))) /\
    bic = Bic (Z.of_nat (S (length E))) (Z.of_nat m) (fin (squared_error m n x y b0 (spread E w))) /\
    objective m n x y (INR m * l) b0 (spread E w) <= objective m n x y (INR m * l) (mean y) (fun _ => 0) + slack m n /\
    (uncorrelated m n x -> forall c0 c, objective m n x y (INR m * l) b0 (spread E w) <= objective m n x y (INR m * l) c0 c + slack m n).

(** ** Proofs *)

Lemma filter_sorted : forall (p : nat -> bool) k s, StronglySorted lt (filter p (seq s k)).
Proof.
  intros p k. induction k as [|k IH]; intro s; cbn [seq filter]; [constructor|].
  destruct (p s); [|apply IH]. constructor; [apply IH|]. apply Forall_forall. intros v Hv. apply filter_In in Hv. destruct Hv as (Hv & _).
  apply in_seq in Hv. lia.
Qed.

Lemma textbook_cost : forall m n z y l b, (0 < m)%nat ->
  INR m * textbook m n z y l b = lasso_cost m n z (fun i => nth i y 0) (INR m * l) (fun k => nth k b 0).
Proof.
  intros m n z y l b Hm. unfold textbook, lasso_cost. assert (INR m <> 0) by (apply not_0_INR; lia). field. assumption.
Qed.

Lemma lasso_cost_ext : forall m n z y l b b', (forall k, (k < n)%nat -> b k = b' k) -> lasso_cost m n z y l b = lasso_cost m n z y l b'.
Proof.
  intros m n z y l b b' H. unfold lasso_cost. f_equal.
  - f_equal. apply rsum_ext. intros i _. do 2 f_equal. apply rsum_ext. intros k Hk. rewrite H by exact Hk. reflexivity.
  - f_equal. apply rsum_ext. intros k Hk. rewrite H by exact Hk. reflexivity.
Qed.

Lemma spread_filter : forall n (b : nat -> R) (p : nat -> bool) k, (k < n)%nat ->
  spread (filter p (seq 0 n)) (map b (filter p (seq 0 n))) k = if p k then b k else 0.
Proof.
  intros n b p k Hk. set (E := filter p (seq 0 n)). pose proof (SSlt_NoDup E (filter_sorted p n 0)) as ND.
  destruct (p k) eqn:Ep.
  - assert (HIn : In k E) by (apply filter_In; split; [apply in_seq; lia|exact Ep]).
    destruct (In_nth E k 0%nat HIn) as (j & Hj & Ej). rewrite <- Ej at 1. rewrite spread_nth by assumption.
    rewrite (nth_indep _ 0 (b 0%nat)) by (rewrite map_length; exact Hj). rewrite map_nth, Ej. reflexivity.
  - apply spread_out. intro C. apply filter_In in C. destruct C as (_ & C). congruence.
Qed.

Section Command.
  Variables (srt : list (XR * nat) -> list (XR * nat)) (d : Dataset XR) (x : nat -> nat -> R) (y : list R) (nd : NormalizedData XR).
  Let m := mrows (dsX d).
  Let n := mcols (dsX d).
  Hypotheses (Hsrt : sort_spec byValueLess srt) (Hm : (0 < m)%nat) (Hn : (0 < n)%nat)
    (HX : rmat (dsX d) x) (HY : dsY d = fins y) (Hy : length y = m)
    (Hb : forall i, (i < m)%nat -> x i 0%nat = 1)
    (Hs : forall k, (0 < k < n)%nat -> / 10 ^ 10 <= sdev (column m x k)) (HsY : 0 < sdev y)
    (End : NewNormalizedData (dsX d) (dsY d) = Ok nd).

  Let z := standard_x m x.
  Let ys := standard_y y.
  Let Cz := fun i j => rsum m (fun k => z k i * z k j) / INR m.

  Lemma Hsd : forall k, (0 < k < n)%nat -> 0 < sdev (column m x k).
  Proof. intros k Hk. specialize (Hs k Hk). assert (0 < / 10 ^ 10) by (apply Rinv_0_lt_compat, pow_lt; lra). lra. Qed.

  Lemma Hmm : 1 < INR m.
  Proof.
    assert (H : 0 < sdev y) by exact HsY. unfold sdev in H. destruct (Nat.leb_spec (length y) 1) as [C|C]; [lra|].
    rewrite Hy in C. change 1 with (INR 1). apply lt_INR. exact C.
  Qed.

  Lemma the_data : lasso_data Empirical_Get nd m n z ys Cz.
  Proof.
    destruct (the_nd d x y nd Hm Hn HX HY Hy Hb Hs HsY End) as (X' & En & R1 & C1 & M1). fold m in R1, M1. fold n in C1.
    assert (EX : ndX nd = X') by (rewrite En; reflexivity).
    constructor; rewrite ?EX; auto.
    - intros i j Hi Hj. apply M1; lia.
    - rewrite En. reflexivity.
    - unfold ys, standard_y. rewrite map_length. exact Hy.
    - destruct (empirical_xr X' z M1) as (cov & E & S1 & S2 & Q); [lia|lia|]. exists cov. split; [exact E|]. split; [lia|]. split; [lia|].
      intros i j Hi Hj. rewrite (Q i j) by lia. rewrite R1. reflexivity.
  Qed.

  Lemma Cz_sym : forall i j, (i < n)%nat -> (j < n)%nat -> Cz i j = Cz j i.
  Proof. intros i j _ _. unfold Cz. f_equal. apply rsum_ext. intros. ring. Qed.
  Lemma Cz_pos : forall j, (1 <= j < n)%nat -> 0 < Cz j j.
  Proof.
    intros [|j] Hj; [lia|]. unfold Cz, z. pose proof Hmm.
    replace (rsum m (fun k => standard_x m x k (S j) * standard_x m x k (S j))) with (INR (m - 1)).
    - apply Rdiv_lt_0_compat; [|lra]. apply lt_0_INR. assert (1 < m)%nat by (apply INR_lt; cbn; lra). lia.
    - rewrite <- (standard_x_squares m x j (Hsd (S j) ltac:(lia))). reflexivity.
  Qed.

  (** what one call of LassoCrdDesc returns *)
  Lemma solution : forall l tol k, 0 <= l -> (1 <= k)%Z ->
    exists b, coefficients (LassoCrdDesc Empirical_Get nd (XFin l) None k (XFin tol) PureLasso) = Ok (map XFin b) /\
      length b = n /\ nth 0 b 0 = 0 /\
      textbook m n z ys l b <= textbook m n z ys l (repeat 0 n) /\
      (uncorrelated m n x -> forall b', length b' = n -> nth 0 b' 0 = 0 -> textbook m n z ys l b <= textbook m n z ys l b').
  Proof.
    intros l tol k Hl Hk.
    pose proof the_data as D.
    destruct (C32_descent Empirical_Get nd m n z ys Cz l tol D Cz_sym Cz_pos Hl) as (beta & B0 & B1 & B2).
    destruct (B1 (Z.to_nat k)) as (L & Z0 & E). specialize (E None). rewrite Z2Nat.id in E by lia.
    exists (beta (Z.to_nat k)). split; [exact E|]. split; [exact L|]. split; [exact Z0|].
    assert (T : forall b b', Props_Crd.objective m n z ys Cz l b <= Props_Crd.objective m n z ys Cz l b' -> textbook m n z ys l b <= textbook m n z ys l b').
    { intros b b' H. unfold Cz in H. rewrite !C32_objective_is_textbook in H by (auto; unfold ys, standard_y; rewrite map_length; exact Hy). lra. }
    split.
    - apply T. rewrite <- B0. generalize (Z.to_nat k). intro q. induction q as [|q IH]; [lra|]. apply Rle_trans with (2 := IH).
      specialize (B2 q). assert (0 <= rsum n (fun j => Cz j j * Rsqr (nth j (beta (S q)) 0 - nth j (beta q) 0)) / 2); [|lra].
      apply Rmult_le_pos; [|lra]. apply rsum_nonneg. intros j Hj. apply Rmult_le_pos; [|apply Rle_0_sqr].
      destruct j as [|j]; [|left; apply Cz_pos; lia]. unfold Cz. apply Rmult_le_pos; [|left; apply Rinv_0_lt_compat; pose proof Hmm; lra].
      apply rsum_nonneg. intros i _. apply (Rle_0_sqr (z i 0%nat)).
    - intros U b' L' Z'. apply T.
      destruct (C76_uncorrelated Empirical_Get nd m n z ys Cz l tol None k D Cz_sym) as (b & Eb & (_ & _ & Opt) & _); auto.
      + intros i j Hi Hj Hne. destruct i as [|i]; [lia|]. destruct j as [|j]; [lia|]. unfold Cz, z. cbn [standard_x].
        rewrite (rsum_ext m _ (fun q => ((x q (S i) - mean (column m x (S i))) * (x q (S j) - mean (column m x (S j)))) *
          (/ sdev (column m x (S i)) * / sdev (column m x (S j))))) by (intros; unfold Rdiv; ring).
        rewrite rsum_scal_r, U by lia. unfold Rdiv. ring.
      + apply Cz_pos.
      + pose proof (eq_trans (eq_sym E) Eb) as Q. injection Q as Q. apply fins_inj in Q. rewrite Q. apply Opt; assumption.
  Qed.

  Lemma the_shape : shaped Empirical_Get nd PureLasso.
  Proof.
    pose proof the_data as D. destruct (ld_C _ _ _ _ _ _ _ D) as (cov & E & S1 & S2 & _). constructor.
    - rewrite (ld_cols _ _ _ _ _ _ _ D). exact Hn.
    - rewrite (ld_y _ _ _ _ _ _ _ D), map_length, (ld_ylen _ _ _ _ _ _ _ D), (ld_rows _ _ _ _ _ _ _ D). reflexivity.
    - exists cov. rewrite (ld_cols _ _ _ _ _ _ _ D). auto.
    - exact I.
  Qed.

  (** the node of the normalised path for the penalty [l] *)
  Definition big (b : list R) (j : nat) : bool := Rltb (/ 10 ^ 16) (Rabs (nth j b 0)).
  Definition good_node (tol : XR) (l : R) (node : LassoLarsNode XR) : Prop :=
    exists b, coefficients (LassoCrdDesc Empirical_Get nd (XFin l) None 100000 tol PureLasso) = Ok (map XFin b) /\
      length b = n /\ nth 0 b 0 = 0 /\ 0 <= l /\
      textbook m n z ys l b <= textbook m n z ys l (repeat 0 n) /\
      (uncorrelated m n x -> forall b', length b' = n -> nth 0 b' 0 = 0 -> textbook m n z ys l b <= textbook m n z ys l b') /\
      let E := filter (big b) (seq 0 n) in
      lnLamb node = fin l /\ lnSelection node = map Z.of_nat E /\ lnCoeff node = fins (map (fun j => nth j b 0) E).

  Lemma solution_good : forall tol l node, 0 <= l ->
    solution_of Empirical_Get nd 100000 (XFin tol) PureLasso (XFin l) node -> good_node (XFin tol) l node.
  Proof.
    intros tol l node Hl (bx & xs & c & v & E & N1 & N2 & N3).
    destruct (solution l tol 100000 Hl ltac:(lia)) as (b & Eb & L & Z0 & O1 & O2).
    assert (Ex : bx = map XFin b) by (rewrite E in Eb; cbn [coefficients bind] in Eb; injection Eb; auto). subst bx.
    exists b. repeat (split; [assumption|]). cbv zeta.
    assert (F : filter (fun j => nltb (n := XR) (ndec 1 (-16)) (nabs (nth j (map XFin b : list XR) n0))) (seq 0 (length (map XFin b))) = filter (big b) (seq 0 n)).
    { rewrite map_length, L. apply filter_ext_in. intros j Hj. apply in_seq in Hj. unfold big.
      rewrite e16_fin. change (n0 (N := XR)) with (XFin 0). rewrite (map_nth XFin). change (XFin (nth j b 0)) with (fin (nth j b 0)). rewrite xabs_fin. apply xlt_fin. }
    pose proof (eq_trans N2 (f_equal (map Z.of_nat) F)) as N4. split; [exact N4|]. refine (eq_trans N3 _). rewrite N4, map_map. unfold fins. rewrite map_map. apply map_ext. intro j.
    rewrite Nat2Z.id. change (n0 (N := XR)) with (XFin 0). apply map_nth.
  Qed.

  (** the same node in the units of the data *)
  Definition good_written (tol : XR) (l : R) (node' : LassoLarsNode XR) : Prop :=
    exists node E v, good_node tol l node /\ lnSelection node = map Z.of_nat E /\ lnCoeff node = fins v /\ length v = length E /\
      StronglySorted lt E /\ (forall f, In f E -> (0 < f < n)%nat) /\
      node' = mkLN (N := XR) (fins ((mean y - sdev y * shift m x (map Z.of_nat E) v) ::
        map (fun p => snd p * sdev y / sdev (rcol m x (Z.to_nat (fst p)))) (combine (map Z.of_nat E) v))) (fin l) (0%Z :: map Z.of_nat E) /\
      objective m n x y (INR m * l) (mean y - sdev y * shift m x (map Z.of_nat E) v)
        (spread E (map (fun p => snd p * sdev y / sdev (rcol m x (Z.to_nat (fst p)))) (combine (map Z.of_nat E) v)))
        <= objective m n x y (INR m * l) (mean y) (fun _ => 0) + slack m n /\
      (uncorrelated m n x -> forall c0 c, objective m n x y (INR m * l) (mean y - sdev y * shift m x (map Z.of_nat E) v)
        (spread E (map (fun p => snd p * sdev y / sdev (rcol m x (Z.to_nat (fst p)))) (combine (map Z.of_nat E) v)))
        <= objective m n x y (INR m * l) c0 c + slack m n).

  Lemma convert : forall tol l node, good_node tol l node ->
    exists node', unnormalize_node nd node = Ok node' /\ good_written tol l node'.
  Proof.
    intros tol l node G. pose proof G as (b & Eb & L & Z0 & Hl & O1 & O2 & N1 & N2 & N3).
    set (E := filter (big b) (seq 0 n)) in *. set (v := map (fun j => nth j b 0) E) in *.
    destruct (the_nd d x y nd Hm Hn HX HY Hy Hb Hs HsY End) as (X' & En & R1 & C1 & M1).
    assert (Hv : length v = length E) by (unfold v; apply map_length).
    assert (SS : StronglySorted lt E) by apply filter_sorted.
    assert (HE : forall f, In f E -> (0 < f < n)%nat).
    { intros f Hf. apply filter_In in Hf. destruct Hf as (Hf & B). apply in_seq in Hf. destruct f as [|f]; [|lia]. exfalso.
      unfold big in B. rewrite Z0, Rabs_R0 in B. apply Rltb_true in B. assert (0 < / 10 ^ 16) by (apply Rinv_0_lt_compat, pow_lt; lra). lra. }
    pose proof Hsd as Hsd0. assert (En' : n = S (n - 1)) by lia.
    destruct (unnormalize_xr m n x nd y ltac:(rewrite En; reflexivity) ltac:(rewrite En; reflexivity) ltac:(rewrite En; reflexivity)
        ltac:(rewrite En; reflexivity) (fin l) (map Z.of_nat E) v) as (cs' & Hcs' & EU).
    { rewrite map_length. symmetry. exact Hv. }
    { intros u Hu. apply in_map_iff in Hu. destruct Hu as (f & <- & Hf). specialize (HE f Hf). rewrite Nat2Z.id. split; [lia|]. split.
      - specialize (Hsd0 f HE). change (rcol m x f) with (column m x f). lra.
      - lia. }
    replace (mkLN (N := XR) (fins v) (fin l) (map Z.of_nat E)) with node in EU by (destruct node; cbn in *; subst; reflexivity).
    eexists. split; [exact EU|]. rewrite En. cbn [ndHasBias]. exists node, E, v.
    split; [exact G|]. split; [exact N2|]. split; [exact N3|]. split; [exact Hv|]. split; [exact SS|]. split; [exact HE|].
    split; [rewrite Hcs'; reflexivity|].
    assert (HE' : forall f, In f E -> (0 < f < S (n - 1))%nat) by (intros f Hf; specialize (HE f Hf); lia).
    assert (Hsd' : forall k, (0 < k < S (n - 1))%nat -> 0 < sdev (column m x k)) by (intros k Hk; apply Hsd0; lia).
    pose proof (node_objective m (n - 1) x y Hm Hy HsY Hsd' E v HE' (SSlt_NoDup E SS) Hv (INR m * l)) as NO. rewrite <- En' in NO. rewrite NO.
    change (fun i => nth i (standard_y y) 0) with (fun i => nth i ys 0). change (standard_x m x) with z.
    assert (HM : 0 <= INR (m - 1)) by apply pos_INR. assert (He : 0 <= / 10 ^ 16) by (left; apply Rinv_0_lt_compat, pow_lt; lra).
    assert (Hml : 0 <= INR m * l) by (apply Rmult_le_pos; [apply pos_INR|exact Hl]).
    assert (Cost0 : lasso_cost m n z (fun i => nth i ys 0) (INR m * l) (fun k => nth k b 0) <= lasso_cost m n z (fun i => nth i ys 0) (INR m * l) (fun _ => 0)).
    { rewrite <- textbook_cost by exact Hm.
      rewrite (lasso_cost_ext m n z _ _ (fun _ => 0) (fun k => nth k (repeat 0 n) 0)) by (intros k Hk; rewrite nth_repeat_lt by exact Hk; reflexivity).
      rewrite <- textbook_cost by exact Hm. apply Rmult_le_compat_l; [apply pos_INR|exact O1]. }
    assert (TR : lasso_cost m n z (fun i => nth i ys 0) (INR m * l) (spread E v) <=
      lasso_cost m n z (fun i => nth i ys 0) (INR m * l) (fun k => nth k b 0) + slack m n).
    { apply (truncated m n z (fun i => nth i ys 0) (INR m * l) (INR (m - 1)) (/ 10 ^ 16) (fun k => nth k b 0) (spread E v) He Hml).
      - intros [|k] Hk.
        + rewrite (rsum_0' m); [exact HM|]. intros i _. unfold z. cbn [standard_x]. apply Rsqr_0.
        + unfold z. rewrite standard_x_squares by (apply Hsd0; lia). lra.
      - rewrite <- Hy. unfold ys. rewrite standard_y_squares by exact HsY. lra.
      - exact Cost0.
      - intros k Hk. unfold v, E. rewrite (spread_filter n (fun j => nth j b 0) (big b) k Hk). destruct (big b k) eqn:B; [left; reflexivity|].
        right. split; [reflexivity|]. apply Rltb_false in B. exact B. }
    assert (C0 : objective m n x y (INR m * l) (mean y) (fun _ => 0) = lasso_cost m n z (fun i => nth i ys 0) (INR m * l) (fun _ => 0)).
    { rewrite En'. rewrite (objective_scaled m (n - 1) x y Hm Hy HsY Hsd'). unfold offset.
      rewrite (rsum_0' (n - 1)) by (intros; ring). replace ((mean y - mean y - 0) / sdev y) with 0 by (unfold Rdiv; ring).
      rewrite Rsqr_0, Rmult_0_r, Rplus_0_r. apply lasso_cost_ext. intros [|k] _; cbn [scaled]; [reflexivity|]. unfold Rdiv. ring. }
    split; [rewrite C0; lra|].
    intros U c0 c. rewrite En' at 2. rewrite (objective_scaled m (n - 1) x y Hm Hy HsY Hsd'). rewrite <- En'.
    assert (P : 0 <= INR m / 2 * Rsqr (offset m (n - 1) x y c0 c)).
    { apply Rmult_le_pos; [|apply Rle_0_sqr]. pose proof (pos_INR m). lra. }
    set (c' := map (scaled m x y c) (seq 0 n)).
    assert (Q : lasso_cost m n z (fun i => nth i ys 0) (INR m * l) (fun k => nth k b 0) <= lasso_cost m n z (fun i => nth i ys 0) (INR m * l) (scaled m x y c)).
    { rewrite (lasso_cost_ext m n z _ _ (scaled m x y c) (fun k => nth k c' 0)) by (intros k Hk; unfold c'; rewrite nth_map_seq by exact Hk; reflexivity).
      rewrite <- !textbook_cost by exact Hm. apply Rmult_le_compat_l; [apply pos_INR|]. apply O2; [exact U| |].
      - unfold c'. rewrite map_length, seq_length. reflexivity.
      - unfold c'. rewrite nth_map_seq by exact Hn. reflexivity. }
    change (fun i => nth i (standard_y y) 0) with (fun i => nth i ys 0). change (standard_x m x) with z. lra.
  Qed.

  Lemma convert_path : forall tol ls r, Forall2 (good_node tol) ls r ->
    exists nodes, Path2Unnormalized nd r = Ok nodes /\ Forall2 (good_written tol) ls nodes.
  Proof.
    intros tol ls r F.
    destruct (Path2_Forall2 XR nd (fun a b => exists l, good_node tol l a /\ good_written tol l b) r) as (nodes & E & F').
    { clear - F Hm Hn HX HY Hy Hb Hs HsY End. induction F as [|l a ls r Ha F IH]; intros node Hin; [contradiction|]. destruct Hin as [<-|Hin]; [|auto].
      destruct (convert tol l a Ha) as (a' & Ea & Ga). exists a'. split; [exact Ea|]. exists l. auto. }
    exists nodes. split; [exact E|]. clear E. revert nodes F'. induction F as [|l a ls r Ha F IH]; intros nodes F'; inversion F' as [|a0 b r0 nodes' (l' & G1 & G2) F'']; subst; constructor.
    - destruct Ha as (b1 & _ & _ & _ & _ & _ & _ & L1 & _). pose proof G1 as (b2 & _ & _ & _ & _ & _ & _ & L2 & _).
      rewrite L1 in L2. injection L2 as ->. exact G2.
    - apply IH. exact F''.
  Qed.

  Lemma scores : forall tol ls nodes, Forall2 (good_written tol) ls nodes ->
    exists aicc bic, GetCriteria (mkPath d nodes) Aicc = Ok aicc /\ GetCriteria (mkPath d nodes) Bic = Ok bic /\
      length aicc = length nodes /\ length bic = length nodes /\
      forall i l node a b, nth_error ls i = Some l -> nth_error nodes i = Some node -> nth_error aicc i = Some a -> nth_error bic i = Some b ->
        written_cd m n x y l node a b.
  Proof.
    intros tol ls nodes F.
    assert (CN : forall node', In node' nodes -> exists l, good_written tol l node').
    { clear - F. induction F as [|a b la lb H _ IH]; intros node' Hin; [contradiction|]. destruct Hin as [<-|Hin]; eauto. }
    assert (Crit : forall node', In node' nodes -> exists w, lnCoeff node' = fins w /\ length w = length (lnSelection node') /\ lnSelection node' <> [] /\
      StronglySorted Z.lt (lnSelection node') /\ (forall v, In v (lnSelection node') -> (0 <= v < Z.of_nat n)%Z)).
    { intros node' Hin. destruct (CN node' Hin) as (l & node & E & v & _ & N1 & N2 & N5 & N7 & N8 & -> & _).
      cbn [lnCoeff lnSelection]. eexists. split; [reflexivity|]. split; [cbn [length]; rewrite map_length, combine_length, map_length; lia|].
      split; [discriminate|]. split.
      - constructor.
        + clear - N7. induction N7 as [|a l _ IH H]; [constructor|]. cbn [map]. constructor; [exact IH|].
          apply Forall_forall. intros u Hu. apply in_map_iff in Hu. destruct Hu as (f & <- & Hf). rewrite Forall_forall in H. specialize (H f Hf). lia.
        + apply Forall_forall. intros u Hu. apply in_map_iff in Hu. destruct Hu as (f & <- & Hf). specialize (N8 f Hf). lia.
      - intros u [<-|Hu]; [lia|]. apply in_map_iff in Hu. destruct Hu as (f & <- & Hf). specialize (N8 f Hf). lia. }
    destruct (C61_criteria (mkPath d nodes) x y Aicc HX Hm HY Hy Crit) as (aicc & EA & LA & VA).
    destruct (C61_criteria (mkPath d nodes) x y Bic HX Hm HY Hy Crit) as (bic & EB & LB & VB).
    cbn [lpNodes lpDset] in *. fold m in VA, VB.
    exists aicc, bic. split; [exact EA|]. split; [exact EB|]. split; [exact LA|]. split; [exact LB|].
    intros i l node' a b Hl Hi Ha Hbi.
    assert (G : good_written tol l node').
    { clear - F Hl Hi. revert i Hl Hi. induction F as [|l0 n0 ls nodes H _ IH]; intros [|i] Hl Hi; cbn in *; try discriminate; [|eauto].
      injection Hl as ->. injection Hi as ->. exact H. }
    destruct G as (node & E & v & _ & N1 & N2 & N5 & N7 & N8 & En0 & O1 & O2).
    pose proof (SSlt_NoDup E N7) as ND. pose proof Hsd as Hsd0. assert (En' : n = S (n - 1)) by lia.
    specialize (VA i node' _ Hi ltac:(rewrite En0; reflexivity)). specialize (VB i node' _ Hi ltac:(rewrite En0; reflexivity)).
    rewrite En0 in VA, VB. cbn [lnSelection] in VA, VB.
    rewrite (node_rss_error m (n - 1) x y Hm Hy) in VA, VB; try assumption; try (intros k Hk; apply Hsd0; lia); try (intros f Hf; specialize (N8 f Hf); lia).
    rewrite <- En' in VA, VB. rewrite Ha in VA. rewrite Hbi in VB. injection VA as ->. injection VB as ->.
    rewrite En0. set (b0 := mean y - sdev y * _) in *. set (w := map (fun p : Z * R => _) (combine _ _)) in *.
    exists E, b0, w. unfold model_of. cbn [lnSelection lnCoeff lnLamb].
    split. { split; [reflexivity|]. split; [reflexivity|]. split; [|exact N7]. unfold w. rewrite map_length, combine_length, map_length. lia. }
    split; [reflexivity|]. split; [exact N8|]. cbn [length]. rewrite map_length. split; [reflexivity|]. split; [reflexivity|]. split; [exact O1|exact O2].
  Qed.

  Lemma model_unique : forall node E b0 w E' b0' w', model_of node E b0 w -> model_of node E' b0' w' -> E = E' /\ b0 = b0' /\ w = w'.
  Proof.
    intros node E b0 w E' b0' w' (A1 & A2 & _) (B1 & B2 & _). rewrite A1 in B1. injection B1 as B1. apply of_nat_inj in B1.
    rewrite A2 in B2. apply fins_inj in B2. injection B2 as B2 B3. auto.
  Qed.

  Lemma finish : forall tol ls r, Forall2 (good_node tol) ls r ->
    exists rows nodes aicc bic file,
      lasso_finish srt d nd r = Ok (mkLassoOut (Some rows) file) /\
      PrintHighscore srt nodes aicc bic 20 = Ok rows /\
      length nodes = length ls /\ length aicc = length ls /\ length bic = length ls /\
      Forall2 (good_written tol) ls nodes /\
      (forall i l node a b, nth_error ls i = Some l -> nth_error nodes i = Some node -> nth_error aicc i = Some a -> nth_error bic i = Some b ->
         written_cd m n x y l node a b) /\
      ((forall node E b0 w, In node nodes -> model_of node E b0 w -> squared_error m n x y b0 (spread E w) <> 0) ->
         exists j d', file = Some j /\ LassoLarsPathFromBytes j = Ok (mkPath d' nodes, aicc, bic) /\
           meq (dsX d') (dsX d) /\ dsY d' = dsY d /\ dsNames d' = dsNames d /\ dsTargetCol d' = dsTargetCol d) /\
      ((exists node E b0 w, In node nodes /\ model_of node E b0 w /\ squared_error m n x y b0 (spread E w) = 0) -> file = None).
  Proof.
    intros tol ls r F. destruct (convert_path tol ls r F) as (nodes & EP & FW).
    destruct (scores tol ls nodes FW) as (aicc & bic & EA & EB & LA & LB & W).
    assert (LF : length ls = length nodes) by (clear - FW; induction FW; cbn; congruence).
    destruct (table_ok srt nodes aicc bic 20 Hsrt LA LB) as (rows & ER).
    assert (FX : forall i k, (i < mrows (dsX d))%nat -> (k < mcols (dsX d))%nat -> finite (N := XR) (mval (dsX d) i k) = true).
    { intros i k Hi Hk. rewrite (HX i k Hi Hk). reflexivity. }
    assert (FY : forall u, In u (dsY d) -> finite (N := XR) u = true).
    { intros u Hu. rewrite HY in Hu. apply in_map_iff in Hu. destruct Hu as (q & <- & _). reflexivity. }
    assert (At : forall i u, nth_error aicc i = Some u \/ nth_error bic i = Some u -> exists l node a b,
      nth_error ls i = Some l /\ nth_error nodes i = Some node /\ nth_error aicc i = Some a /\ nth_error bic i = Some b).
    { intros i u Hu. assert (Li : (i < length nodes)%nat).
      { destruct Hu as [Hu|Hu]; assert (nth_error _ i <> None) as Q by (rewrite Hu; discriminate); apply nth_error_Some in Q; lia. }
      destruct (nth_error ls i) as [l|] eqn:E0; [|apply nth_error_None in E0; lia].
      destruct (nth_error nodes i) as [node|] eqn:E1; [|apply nth_error_None in E1; lia].
      destruct (nth_error aicc i) as [a|] eqn:E2; [|apply nth_error_None in E2; lia].
      destruct (nth_error bic i) as [b|] eqn:E3; [|apply nth_error_None in E3; lia]. exists l, node, a, b. auto. }
    assert (EM : exists file, pathMarshal d nodes aicc bic = Ok file /\
      ((forall node E b0 w, In node nodes -> model_of node E b0 w -> squared_error m n x y b0 (spread E w) <> 0) ->
         exists j d', file = Some j /\ LassoLarsPathFromBytes j = Ok (mkPath d' nodes, aicc, bic) /\
           meq (dsX d') (dsX d) /\ dsY d' = dsY d /\ dsNames d' = dsNames d /\ dsTargetCol d' = dsTargetCol d) /\
      ((exists node E b0 w, In node nodes /\ model_of node E b0 w /\ squared_error m n x y b0 (spread E w) = 0) -> file = None)).
    { destruct (C28_json_roundtrip XR d Hm Hn FX FY) as (jd & _ & Ej & _).
      assert (Ef : exists file, pathMarshal d nodes aicc bic = Ok file) by (unfold pathMarshal; rewrite Ej; cbn [bind]; eauto).
      destruct Ef as (file & Ef). exists file. split; [exact Ef|]. split.
      - intro Hpos. destruct (C68_lasso_file_roundtrip XR d nodes aicc bic Hm Hn FX FY) as (j & d' & EJ & EF & D).
        + intros node' u Hin Hu. assert (exists l, good_written tol l node') as (l & node & E & v & _ & _ & _ & _ & _ & _ & -> & _).
          { clear - FW Hin. induction FW as [|a b la lb H _ IH]; [contradiction|]. destruct Hin as [<-|Hin]; eauto. }
          cbn [lnCoeff lnLamb] in Hu. destruct Hu as [<-|Hu]; [reflexivity|]. apply in_map_iff in Hu. destruct Hu as (q & <- & _). reflexivity.
        + intros u Hu. assert (Hu' : exists i, nth_error aicc i = Some u \/ nth_error bic i = Some u).
          { destruct Hu as [Hu|Hu]; apply In_nth_error in Hu; destruct Hu as (i & Hi); eauto. }
          destruct Hu' as (i & Hi). destruct (At i u Hi) as (l & node & a & b & E0 & E1 & E2 & E3).
          destruct (W i l node a b E0 E1 E2 E3) as (E & b0 & w & MO & _ & _ & Ea & Eb & _).
          assert (P : 0 < squared_error m n x y b0 (spread E w)).
          { specialize (Hpos node E b0 w (nth_error_In _ _ E1) MO).
            assert (0 <= squared_error m n x y b0 (spread E w)) by (apply rsum_nonneg; intros; apply Rle_0_sqr). lra. }
          destruct (aicc_fin (Z.of_nat (S (length E))) (Z.of_nat m) _ P) as (pa & Qa).
          destruct (bic_fin (Z.of_nat (S (length E))) (Z.of_nat m) _ ltac:(lia) P) as (pb & Qb).
          destruct Hi as [Hi|Hi].
          * rewrite E2 in Hi. injection Hi as <-. rewrite Ea, Qa. reflexivity.
          * rewrite E3 in Hi. injection Hi as <-. rewrite Eb, Qb. reflexivity.
        + exists j, d'. rewrite Ef in EJ. injection EJ as ->. split; [reflexivity|]. split; [exact EF|exact D].
      - intros (node & E & b0 & w & Hin & MO & Z0).
        assert (Hf : pathMarshal d nodes aicc bic = Ok None).
        { apply C68_nonfinite_refused. right. right. split; [eauto|]. right.
          apply In_nth_error in Hin. destruct Hin as (i & Hi).
          assert (Li : (i < length nodes)%nat) by (apply nth_error_Some; congruence).
          destruct (nth_error aicc i) as [a|] eqn:E2; [|apply nth_error_None in E2; lia].
          destruct (At i a (or_introl E2)) as (l & node' & a' & b & E0 & E1 & E2' & E3).
          rewrite Hi in E1. injection E1 as <-. rewrite E2 in E2'. injection E2' as <-.
          destruct (W i l node a b E0 Hi E2 E3) as (E' & b0' & w' & MO' & _ & _ & Ea & _).
          destruct (model_unique _ _ _ _ _ _ _ MO MO') as (<- & <- & <-).
          exists a. split; [left; apply nth_error_In with i; exact E2|]. rewrite Ea, Z0. unfold Aicc, Aic.
          assert (Ln : nlog (n := XR) (fin 0) = XNInf).
          { cbn. unfold xlog. rewrite (proj2 (Rltb_false 0 0)) by lra. reflexivity. }
          rewrite Ln. assert (Mi : (nofZ (n := XR) (Z.of_nat m) * XNInf)%num = XNInf).
          { assert (Pm : 0 < IZR (Z.of_nat m)) by (apply IZR_lt; lia). cbn. unfold xmul, xsgn. rewrite ?(proj2 (Rltb_true 0 (IZR (Z.of_nat m)))), ?(proj2 (Rltb_false (IZR (Z.of_nat m)) 0)) by lra. reflexivity. }
          rewrite Mi.
          assert (Mn : (nofZ (n := XR) 2 * nofZ (Z.of_nat (S (length E))) + XNInf)%num = XNInf) by reflexivity.
          rewrite Mn. destruct (Z.of_nat m - 1 <=? Z.of_nat (S (length E)))%Z eqn:El.
          - change (n1 (N := XR)) with (fin 1). change (nofZ (n := XR)) with (fun q => fin (IZR q)). cbn beta. rewrite xdiv_fin by lra. reflexivity.
          - apply Z.leb_gt in El. change (nofZ (n := XR)) with (fun q => fin (IZR q)). cbn beta. rewrite xdiv_fin by (apply not_0_IZR; lia). reflexivity. }
        rewrite Ef in Hf. injection Hf. auto. }
    destruct EM as (file & EM & EM1 & EM2).
    exists rows, nodes, aicc, bic, file. split.
    { unfold lasso_finish. rewrite EP. cbn [bind]. rewrite EA. cbn [bind]. rewrite EB. cbn [bind]. rewrite ER. cbn [bind]. rewrite EM. reflexivity. }
    split; [exact ER|]. split; [lia|]. split; [lia|]. split; [lia|]. split; [exact FW|]. split; [exact W|]. split; [exact EM1|exact EM2].
  Qed.
End Command.

(** ** C77 *)

(** The lasso command with coordinate descent and the empirical covariance, in
    exact arithmetic, on a file with a bias column of ones and no column or
    target that is (nearly) constant; [r] is what LassoCrdDescPath returns for
    any interleaving of its workers.  The penalties are those of the grid, from
    the largest to the smallest, except the largest ones if these give models
    without features.  What is printed and written belongs to models as in
    [written_cd]; the file is written unless a model reproduces the target
    exactly. *)
Theorem C77_cd_command : forall srt larsF crdF thr (d : Dataset XR) x y lambMin lambMax num tol nd lambs schedule c r,
  let m := mrows (dsX d) in let n := mcols (dsX d) in
  sort_spec byValueLess srt -> (0 < m)%nat -> (0 < n)%nat ->
  rmat (dsX d) x -> dsY d = fins y -> length y = m ->
  (forall i, (i < m)%nat -> x i 0%nat = 1) ->
  (forall k, (0 < k < n)%nat -> / 10 ^ 10 <= sdev (column m x k)) -> 0 < sdev y ->
  0 < lambMin <= lambMax -> (2 <= num)%Z ->
  NewNormalizedData (dsX d) (dsY d) = Ok nd ->
  Logspace (N := XR) (fin lambMin) (fin lambMax) num = Ok (fins lambs) ->
  path_run Empirical_Get nd (fins lambs) 100000 (fin tol) schedule (path_init (fins lambs) PureLasso) = Some c ->
  plMain c = PDone r ->
  crdF Empirical_Get nd (fins lambs) (fin tol) = Ok r ->
  exists rows nodes aicc bic file kept dropped,
    lassoFit srt larsF crdF thr (Some d) (fin lambMin) (fin lambMax) num "cd" "empirical" (fin tol) =
      Ok (mkLassoOut (Some rows) file) /\
    PrintHighscore srt nodes aicc bic 20 = Ok rows /\
    length nodes = length kept /\ length aicc = length kept /\ length bic = length kept /\
    lambs = rev kept ++ dropped /\
    (dropped <> [] -> exists node t, nodes = node :: t /\ lnSelection node <> [0%Z]) /\
    (forall l, In l dropped -> exists b, coefficients (LassoCrdDesc Empirical_Get nd (fin l) None 100000 (fin tol) PureLasso) = Ok (fins b) /\
       forall j, Rabs (nth j b 0) <= / 10 ^ 16) /\
    (forall i l node a b, nth_error kept i = Some l -> nth_error nodes i = Some node -> nth_error aicc i = Some a -> nth_error bic i = Some b ->
       written_cd m n x y l node a b) /\
    ((forall node E b0 w, In node nodes -> model_of node E b0 w -> squared_error m n x y b0 (spread E w) <> 0) ->
       exists j d', file = Some j /\ LassoLarsPathFromBytes j = Ok (mkPath d' nodes, aicc, bic) /\
         meq (dsX d') (dsX d) /\ dsY d' = dsY d /\ dsNames d' = dsNames d /\ dsTargetCol d' = dsTargetCol d) /\
    ((exists node E b0 w, In node nodes /\ model_of node E b0 w /\ squared_error m n x y b0 (spread E w) = 0) -> file = None).
Proof.
  intros srt larsF crdF thr d x y lambMin lambMax num tol nd lambs schedule c r m n Hsrt Hm Hn HX HY Hy Hb Hs HsY Hl Hnum End EL ER ED EC.
  destruct (C35_every_schedule XR Empirical_Get nd (fins lambs) 100000 (fin tol) PureLasso
    (the_shape d x y nd Hm Hn HX HY Hy Hb Hs HsY End) I) as (path & FP & Sched).
  destruct (Sched schedule c ER) as (_ & _ & _ & Res). destruct (Res r ED) as (WE & _). clear Sched Res.
  assert (Pos : forall l, In l lambs -> 0 <= l).
  { destruct (C51_logspace lambMin lambMax num Hl Hnum) as (l0 & q & E0 & L0 & F0 & _ & _ & _ & _ & Mono).
    pose proof (eq_trans (eq_sym E0) EL) as Q. injection Q as Q. apply fins_inj in Q. subst l0.
    intros l Hin. destruct (In_nth lambs l 0 Hin) as (i & Hi & <-). specialize (Mono 0%nat i ltac:(lia)). lra. }
  assert (FG : Forall2 (good_node d x y nd (fin tol)) (rev lambs) path).
  { unfold fins in FP. rewrite <- map_rev in FP.
    assert (Pos' : forall l, In l (rev lambs) -> 0 <= l) by (intros l Hin; apply Pos; apply in_rev; exact Hin).
    revert path FP Pos' WE. generalize (rev lambs). clear - Hm Hn HX HY Hy Hb Hs HsY End.
    intros ls path FP Pos' _. revert path FP. induction ls as [|l ls IH]; intros path FP; inversion FP as [|a b la lb Hab FP' Ea Eb]; subst; constructor.
    - apply (solution_good d x y nd Hm Hn HX HY Hy Hb Hs HsY End); [apply Pos'; left; reflexivity|exact Hab].
    - apply IH; [intros l' Hin; apply Pos'; right; exact Hin|exact FP']. }
  assert (Split : exists kept dropped, lambs = rev kept ++ dropped /\ Forall2 (good_node d x y nd (fin tol)) kept r /\
    (dropped <> [] -> exists node t, r = node :: t /\ lnSelection node <> []) /\
    (forall l, In l dropped -> exists node, good_node d x y nd (fin tol) l node /\ lnSelection node = [])).
  { destruct WE as [(dr & Ep & Fd & node & t & Er & Hne)|(-> & _)].
    - rewrite Ep in FG. apply Forall2_app_inv_r in FG. destruct FG as (l1 & l2 & F1 & F2 & E12).
      exists l2, (rev l1). split; [rewrite <- rev_app_distr, <- E12, rev_involutive; reflexivity|]. split; [exact F2|]. split; [intros _; eauto|].
      intros l Hin. apply in_rev in Hin. clear - F1 Fd Hin. induction F1 as [|a b la lb Hab _ IH]; [contradiction|].
      inversion Fd; subst. destruct Hin as [<-|Hin]; [eauto|auto].
    - exists (rev lambs), []. split; [rewrite rev_involutive, app_nil_r; reflexivity|]. split; [exact FG|]. split; [congruence|]. intros l []. }
  destruct Split as (kept & dropped & El & Fk & Hd & Hdr).
  destruct (finish srt d x y nd Hsrt Hm Hn HX HY Hy Hb Hs HsY End (fin tol) kept r Fk)
    as (rows & nodes & aicc & bic & file & Ef & Er & L1 & L2 & L3 & FW & W & F1 & F2).
  exists rows, nodes, aicc, bic, file, kept, dropped. split.
  { unfold lassoFit. rewrite End. cbn [bind]. unfold lasso_path. cbn [String.eqb Ascii.eqb Bool.eqb bind].
    rewrite EL. cbn [bind]. rewrite EC. cbn [bind]. exact Ef. }
  split; [exact Er|]. split; [exact L1|]. split; [exact L2|]. split; [exact L3|]. split; [exact El|]. split; [|split; [|split; [exact W|split; [exact F1|exact F2]]]].
  - intro H. destruct (Hd H) as (node & t & E1 & E2). subst r.
    inversion Fk as [|l a ls rs Ga Fk' Q1 Q2]; subst. inversion FW as [|l' a' ls' rs' Ga' FW' Q3 Q4]; subst.
    exists a', rs'. split; [reflexivity|]. destruct Ga' as (node2 & E & v & G2 & N2 & _ & _ & _ & _ & -> & _). cbn [lnSelection].
    destruct Ga as (b1 & Eb1 & _ & _ & _ & _ & _ & _ & S1 & _). destruct G2 as (b2 & Eb2 & _ & _ & _ & _ & _ & _ & S2 & _).
    pose proof (eq_trans (eq_sym Eb1) Eb2) as Q. injection Q as Q. apply fins_inj in Q. subst b2.
    rewrite <- S1, N2 in S2. intro C. injection C as C. rewrite C in S2. congruence.
  - intros l Hin. destruct (Hdr l Hin) as (node & (b & Eb & Lb & _ & _ & _ & _ & _ & N2 & _) & N0). exists b. split; [exact Eb|].
    intro j. destruct (Rle_or_lt (Rabs (nth j b 0)) (/ 10 ^ 16)) as [C|C]; [exact C|]. exfalso.
    destruct (Nat.lt_ge_cases j (mcols (dsX d))) as [Hj|Hj].
    + rewrite N0 in N2. symmetry in N2. apply map_eq_nil in N2.
      assert (In j []) as []. rewrite <- N2. apply filter_In. split; [apply in_seq; lia|]. unfold big. apply Rltb_true. exact C.
    + rewrite nth_overflow in C by lia. rewrite Rabs_R0 in C. assert (0 < / 10 ^ 16) by (apply Rinv_0_lt_compat, pow_lt; lra). lra.
Qed.
Print Assumptions C77_cd_command.

(** the hypotheses hold for the file of C74's example and the penalties 0.1
    and 0.2, for some run of the workers *)
Lemma exc_uncorrelated : uncorrelated 5 3 exc_x.
Proof.
  intros j k Hj Hk Hne. destruct j as [|[|[|j]]]; try lia; destruct k as [|[|[|k]]]; try lia; cbn [rsum]; rewrite exc_mu1, exc_mu2; cbn; lra.
Qed.

Example C77_example : exists nd lambs schedule c r rows nodes aicc bic file kept,
  NewNormalizedData (dsX exc_d) (dsY exc_d) = Ok nd /\
  Logspace (N := XR) (fin (1 / 10)) (fin (2 / 10)) 2 = Ok (fins lambs) /\
  path_run Empirical_Get nd (fins lambs) 100000 (fin (/ 10000)) schedule (path_init (fins lambs) PureLasso) = Some c /\ plMain c = PDone r /\
  lassoFit (isort byValueLess) (fun _ _ => Panic) (fun _ _ _ _ => Ok r) (fun _ => Panic) (Some exc_d)
    (fin (1 / 10)) (fin (2 / 10)) 2 "cd" "empirical" (fin (/ 10000)) = Ok (mkLassoOut (Some rows) file) /\
  nodes <> [] /\ length nodes = length kept /\ uncorrelated 5 3 exc_x /\
  (forall i l node a b, nth_error kept i = Some l -> nth_error nodes i = Some node -> nth_error aicc i = Some a -> nth_error bic i = Some b ->
     written_cd 5 3 exc_x exc_y l node a b).
Proof.
  assert (HX : rmat (dsX exc_d) exc_x).
  { intros i k Hi Hk. cbn [exc_d dsX mrows mcols mval] in *. rewrite (proj2 (Nat.ltb_lt i 5) Hi), (proj2 (Nat.ltb_lt k 3) Hk). reflexivity. }
  assert (Hb : forall i, (i < 5)%nat -> exc_x i 0%nat = 1) by reflexivity.
  assert (Hs : forall k, (0 < k < 3)%nat -> / 10 ^ 10 <= sdev (column 5 exc_x k)).
  { assert (B : / 10 ^ 10 <= 1) by (rewrite <- Rinv_1; apply Rinv_le_contravar; [lra|]; apply pow_R1_Rle; lra).
    intros k Hk. destruct k as [|[|[|k]]]; try lia; [rewrite exc_sd1|rewrite exc_sd2]; lra. }
  assert (HsY : 0 < sdev exc_y) by (rewrite exc_sdy; lra).
  assert (End : exists nd, NewNormalizedData (dsX exc_d) (dsY exc_d) = Ok nd).
  { destruct (nnd_ok (dsX exc_d) exc_x HX ltac:(cbn; lia) exc_y ltac:(discriminate)) as (X' & E & _); [|eauto].
    intros c Hc. unfold tol10. replace (1 / IZR (10 ^ 10)) with (/ 10 ^ 10); [apply Hs; exact Hc|].
    change (10 ^ 10)%Z with 10000000000%Z. field. }
  destruct End as (nd & End).
  destruct (C51_logspace (1 / 10) (2 / 10) 2 ltac:(lra) ltac:(lia)) as (lambs & q & EL & LL & _).
  pose proof (the_shape exc_d exc_x exc_y nd ltac:(cbn; lia) ltac:(cbn; lia) HX eq_refl eq_refl Hb Hs HsY End) as Sh.
  destruct (C35_completes XR Empirical_Get nd (fins lambs) 100000 (fin (/ 10000)) PureLasso [] (path_init (fins lambs) PureLasso) Sh I eq_refl)
    as (schedule & c & r & Er & Ed). cbn [app] in Er.
  assert (So : sort_spec (byValueLess (N := XR)) (isort byValueLess)).
  { apply isort_spec. intros [u i] [v j]. apply (ltb_asym XR_OrdLaws). }
  destruct (C77_cd_command (isort byValueLess) (fun _ _ => Panic) (fun _ _ _ _ => Ok r) (fun _ => Panic) exc_d exc_x exc_y (1 / 10) (2 / 10) 2 (/ 10000)
    nd lambs schedule c r So ltac:(cbn; lia) ltac:(cbn; lia) HX eq_refl eq_refl Hb Hs HsY ltac:(lra) ltac:(lia) End EL Er Ed eq_refl)
    as (rows & nodes & aicc & bic & file & kept & dropped & F1 & _ & L1 & _ & _ & El & Hd & _ & W & _).
  exists nd, lambs, schedule, c, r, rows, nodes, aicc, bic, file, kept.
  split; [exact End|]. split; [exact EL|]. split; [exact Er|]. split; [exact Ed|]. split; [exact F1|]. split; [|split; [exact L1|split; [exact exc_uncorrelated|exact W]]].
  intro C. destruct dropped as [|l dropped].
  - rewrite app_nil_r in El. assert (length lambs = 0%nat) by (rewrite El, rev_length, <- L1, C; reflexivity). rewrite LL in H. discriminate H.
  - destruct (Hd ltac:(discriminate)) as (node & t & E & _). congruence.
Qed.

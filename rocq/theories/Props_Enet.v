(** C82: coordinate descent with the elastic net correction. *)
From Coq Require Import Reals Lra Psatz.
From Verif Require Import Base Num Mat Model_Node Model_Util Model_Fit Model_Norm Model_Cov Model_Crd
  Proof_Node Proof_Util Stats RSum Proof_XR Proof_Norm Proof_Fit Proof_Cov Proof_Crd Proof_Crd2 Proof_Crd3 Props_Crd Props_CrdExact Proof_Enet.
Local Open Scope R_scope.

(** ** Specification *)

(** the lasso objective plus L/2 |b|^2 *)
Definition enet_objective (nr n : nat) (A : nat -> nat -> R) (y : list R) (C : nat -> nat -> R) (lamb L : R) (b : list R) : R :=
  objective nr n A y C lamb b + L * rsum n (fun j => Rsqr (nth j b 0)) / 2.

(** the optimality condition of feature j, up to e *)
Definition enet_stationary (nr n : nat) (A : nat -> nat -> R) (y : list R) (C : nat -> nat -> R) (lamb L e : R) (b : list R) (j : nat) : Prop :=
  let g := xy nr A y j - rsum n (fun i => C j i * nth i b 0) - L * nth j b 0 in
  Rabs g <= lamb + e /\
  (0 < nth j b 0 -> Rabs (g - lamb) <= e) /\
  (nth j b 0 < 0 -> Rabs (g + lamb) <= e).

(** no correlation between two different features *)
Definition uncorrelated (n : nat) (C : nat -> nat -> R) : Prop :=
  forall i j, (1 <= i < n)%nat -> (1 <= j < n)%nat -> i <> j -> C i j = 0.

(** [x] moved towards zero by [t], not beyond *)
Definition shrunk (x t : R) : R := if Rle_dec (Rabs x) t then 0 else if Rlt_dec 0 x then x - t else x + t.

(** ** Proofs *)

Lemma shrunk_soft : forall x t, 0 <= t -> shrunk x t = soft x t.
Proof.
  intros x t Ht. unfold shrunk. destruct (Rle_dec (Rabs x) t) as [H|H]; [rewrite soft_zero by exact H; reflexivity|].
  unfold soft, Rabs in *. destruct (Rcase_abs x); destruct (Rlt_dec 0 x); destruct (Rlt_dec x (- t)); destruct (Rlt_dec t x); lra.
Qed.

Lemma enet_obj : forall nr n A y C lamb L b,
  enet_objective nr n A y C lamb L b = obj n (ridge C L) (xy nr A y) lamb (fl b).
Proof. intros. rewrite obj_ridge. reflexivity. Qed.

(** The conditions are the right ones. *)
Theorem C82_conditions_sufficient : forall nr n A y C lamb L b,
  (forall i j, (i < n)%nat -> (j < n)%nat -> C i j = C j i) ->
  (forall x : nat -> R, 0 <= rsum n (fun i => x i * rsum n (fun j => C i j * x j))) -> 0 <= lamb -> 0 <= L ->
  length b = n -> nth 0 b 0 = 0 ->
  (forall j, (1 <= j < n)%nat -> enet_stationary nr n A y C lamb L 0 b j) ->
  minimiser_without_bias n (enet_objective nr n A y C lamb L) b.
Proof.
  intros nr n A y C lamb L b Hs Hp Hl HL Hb H0 H.
  destruct (C33_conditions_sufficient nr n A y (ridge C L) lamb b) as (_ & _ & M); auto.
  - intros i j Hi Hj. unfold ridge. rewrite (Hs i j Hi Hj), (Nat.eqb_sym i j). reflexivity.
  - intro x. apply Rle_trans with (1 := Hp x). apply rsum_le. intros i Hi.
    change (rsum n (fun j => ridge C L i j * x j)) with (mv n (ridge C L) x i). rewrite mv_ridge by exact Hi. unfold mv.
    assert (0 <= L * Rsqr (x i)) by (apply Rmult_le_pos; [exact HL|apply Rle_0_sqr]). unfold Rsqr in *. nra.
  - intros j Hj. specialize (H j Hj). unfold enet_stationary in H. unfold stationary.
    change (rsum n (fun i => ridge C L j i * nth i b 0)) with (mv n (ridge C L) (fl b) j). rewrite mv_ridge by lia.
    change (mv n C (fl b) j) with (rsum n (fun i => C j i * nth i b 0)). unfold fl.
    replace (xy nr A y j - (rsum n (fun i => C j i * nth i b 0) + L * nth j b 0)) with
      (xy nr A y j - rsum n (fun i => C j i * nth i b 0) - L * nth j b 0) by ring. exact H.
  - split; [exact Hb|]. split; [exact H0|]. intros x Lx X0. specialize (M x Lx X0).
    rewrite !enet_obj. rewrite !objective_obj in M. exact M.
Qed.
Print Assumptions C82_conditions_sufficient.

(** As long as the strength is at most the diagonal, no pass increases the
    elastic net objective. *)
Theorem C82_descent : forall get d nr n A y C lamb L tol,
  lasso_data get d nr n A y C -> (forall i j, (i < n)%nat -> (j < n)%nat -> C i j = C j i) ->
  (forall j, (1 <= j < n)%nat -> 0 < C j j) -> 0 <= lamb ->
  exists beta : nat -> list R,
    beta 0%nat = repeat 0 n /\
    (forall k, length (beta k) = n /\ nth 0 (beta k) 0 = 0 /\ forall x0,
      coefficients (LassoCrdDesc get d (XFin lamb) x0 (Z.of_nat k) (XFin tol) (ElasticNet (N := XR) (XFin L))) = Ok (map XFin (beta k))) /\
    (forall k, enet_objective nr n A y C lamb L (beta (S k))
               + rsum n (fun j => (C j j - L) * Rsqr (nth j (beta (S k)) 0 - nth j (beta k) 0)) / 2
               <= enet_objective nr n A y C lamb L (beta k)).
Proof.
  intros get d nr n A y C lamb L tol D Hs Hd Hl.
  destruct (lasso_unfold get d nr n A y C D) as (cov & Hcov & R1 & R2 & U).
  pose proof (run_enet n C (xy nr A y) lamb tol L (ld_n _ _ _ _ _ _ _ D) Hs Hd Hl nr cov (ld_nr _ _ _ _ _ _ _ D) R1 R2 Hcov) as Run.
  exists (fun k => match coefficients (LassoCrdDesc get d (XFin lamb) None (Z.of_nat k) (XFin tol) (ElasticNet (N := XR) (XFin L))) with
                   | Ok l => map toR l | _ => [] end).
  assert (G : forall k, exists b, (forall j, (n <= j)%nat -> b j = 0) /\ b 0%nat = 0 /\
    (forall x0, coefficients (LassoCrdDesc get d (XFin lamb) x0 (Z.of_nat k) (XFin tol) (ElasticNet (N := XR) (XFin L))) = Ok (map XFin (map b (seq 0 n))))).
  { intro k. destruct (Run k) as (st0 & st & b & _ & E0 & E & RI & _). exists b.
    split; [apply (ei_out _ _ _ _ _ RI)|]. split; [apply (ei_zero _ _ _ _ _ RI)|].
    intro x0. rewrite U, Nat2Z.id. fold (fin lamb) (fin tol) (fin L). rewrite E0 in *. cbn [bind] in *. rewrite E. cbn [bind coefficients].
    rewrite (ei_beta _ _ _ _ _ RI), vec_fins_map. reflexivity. }
  assert (Mt : forall l : list R, map toR (map XFin l) = l).
  { intro l. rewrite map_map. rewrite <- (map_id l) at 2. apply map_ext. reflexivity. }
  split; [|split].
  - rewrite U. cbn [Z.of_nat Z.to_nat crd_loop].
    destruct (start_enet n C L (ld_n _ _ _ _ _ _ _ D) cov R1 R2 Hcov) as (st & E & RI & _). fold (fin L).
    rewrite E. cbn [bind coefficients]. rewrite (ei_beta _ _ _ _ _ RI), vec_fins_map, Mt.
    clear. induction n as [|m IH]; [reflexivity|]. rewrite seq_S, map_app, IH. cbn [map]. rewrite <- repeat_cons. reflexivity.
  - intro k. destruct (G k) as (b & H1 & H2 & H3). rewrite H3, Mt. split; [rewrite map_length, seq_length; reflexivity|].
    split; [rewrite nth_map_seq by apply (ld_n _ _ _ _ _ _ _ D); exact H2|]. exact H3.
  - intro k. destruct (Run k) as (st0 & st & b & b' & E0 & E & RI & st' & E' & RI' & Hst).
    rewrite !U, !Nat2Z.id. fold (fin lamb) (fin tol) (fin L). rewrite E0 in *. cbn [bind] in *. rewrite E, E'. cbn [bind coefficients].
    rewrite (ei_beta _ _ _ _ _ RI), (ei_beta _ _ _ _ _ RI'), !vec_fins_map, !Mt.
    rewrite !enet_obj.
    rewrite (obj_ext n _ _ lamb (fl (map b (seq 0 n))) b) by (intros; apply fl_map; assumption).
    rewrite (obj_ext n _ _ lamb (fl (map b' (seq 0 n))) b') by (intros; apply fl_map; assumption).
    unfold estep in Hst. rewrite (rsum_ext n _ (fun j => (C j j - L) * Rsqr (b' j - b j))); [exact Hst|].
    intros j Hj. rewrite !nth_map_seq by exact Hj. reflexivity.
Qed.
Print Assumptions C82_descent.

(** What a run that reports convergence guarantees. *)
Theorem C82_active_features : forall get d nr n A y C lamb L tol x0 k b x' c,
  lasso_data get d nr n A y C -> (forall i j, (i < n)%nat -> (j < n)%nat -> C i j = C j i) ->
  (forall j, (1 <= j < n)%nat -> 0 < C j j) -> 0 <= lamb ->
  LassoCrdDesc get d (XFin lamb) x0 k (XFin tol) (ElasticNet (N := XR) (XFin L)) = Ok (map XFin b, x', c, true) ->
  exists i, (1 <= i < n)%nat /\ nth i b 0 <> 0 /\
  forall j, (1 <= j < n)%nat -> / 10 ^ 16 < Rabs (nth j b 0) ->
    enet_stationary nr n A y C lamb L (tol * Rabs (nth i b 0) * (Rabs L + rsum n (fun i => Rabs (C j i)))) b j.
Proof.
  intros get d nr n A y C lamb L tol x0 k b x' c D Hs Hd Hl E.
  destruct (lasso_unfold get d nr n A y C D) as (cov & Hcov & R1 & R2 & U).
  rewrite U in E. clear U.
  pose proof (conv_enet n C (xy nr A y) lamb tol L (ld_n _ _ _ _ _ _ _ D) Hs Hd Hl nr cov (ld_nr _ _ _ _ _ _ _ D) R1 R2 Hcov (Z.to_nat k)) as CR.
  fold (fin lamb) (fin tol) (fin L) in E.
  destruct (crd_start cov n (ElasticNet (N := XR) (fin L))) as [st0| |]; cbn [bind] in *; [|discriminate E|discriminate E].
  destruct (crd_loop nr cov _ (fin lamb) (fin tol) (Z.to_nat k) st0) as [st| |]; cbn [bind] in *; [|discriminate E|discriminate E].
  destruct (CR st eq_refl) as (bf & RI & K). injection E as Eb _ _ Ec. destruct (K Ec) as (i & Hi & Hbi & Hk).
  assert (Hb : b = map bf (seq 0 n)).
  { rewrite (ei_beta _ _ _ _ _ RI), vec_fins_map in Eb. symmetry. apply fins_inj. exact Eb. }
  assert (Efl : forall j, (j < n)%nat -> nth j b 0 = bf j) by (intros j Hj; rewrite Hb; apply nth_map_seq; exact Hj).
  exists i. split; [exact Hi|]. rewrite Efl by lia. split; [exact Hbi|].
  intros j Hj Ha. destruct (Hk j Hj) as [K1 K2].
  { unfold active, lassoCrdDescZero. rewrite e16_fin, vec_nth by lia. rewrite xabs_fin.
    apply Rltb_true. rewrite <- Efl by lia. exact Ha. }
  set (e := tol * Rabs (bf i) * (Rabs L + rsum n (fun i => Rabs (C j i)))) in *.
  assert (Eg : rsum n (fun i => C j i * nth i b 0) = mv n C bf j).
  { unfold mv. apply rsum_ext. intros l Hl'. rewrite Efl by exact Hl'. reflexivity. }
  unfold enet_stationary. rewrite Eg, Efl by lia. cbv zeta in *. rewrite mv_ridge in K1, K2 by lia.
  replace (xy nr A y j - mv n C bf j - L * bf j) with (xy nr A y j - (mv n C bf j + L * bf j)) by ring.
  set (g := xy nr A y j - (mv n C bf j + L * bf j)) in *.
  split; [exact K1|]. split; intro Hsg.
  - rewrite (Rabs_right (bf j)) in K2 by lra. assert (lamb - g <= e) by nra.
    apply Rabs_le. apply Rabs_def2' in K1. lra.
  - rewrite (Rabs_left (bf j)) in K2 by lra. assert (lamb + g <= e) by nra.
    apply Rabs_le. apply Rabs_def2' in K1. lra.
Qed.
Print Assumptions C82_active_features.

(** *** without correlations *)

Lemma enet_uncorrelated_min : forall nr n A y C lamb L, (0 < n)%nat ->
  (forall i j, (i < n)%nat -> (j < n)%nat -> C i j = C j i) -> uncorrelated n C ->
  (forall j, (1 <= j < n)%nat -> 0 < C j j + L) -> 0 <= lamb ->
  minimiser_without_bias n (enet_objective nr n A y C lamb L)
    (map (fun j => if (j =? 0)%nat then 0 else shrunk (xy nr A y j) lamb / (C j j + L)) (seq 0 n)).
Proof.
  intros nr n A y C lamb L Hn Hs Ho Hd Hl.
  set (f := fun j => if (j =? 0)%nat then 0 else shrunk (xy nr A y j) lamb / (C j j + L)).
  split; [rewrite map_length, seq_length; reflexivity|]. split; [rewrite nth_map_seq by exact Hn; reflexivity|].
  intros x Lx X0. rewrite !enet_obj. rewrite (obj_ext n _ _ lamb (fl (map f (seq 0 n))) f) by (intros; apply fl_map; assumption).
  assert (Hmv : forall b j, b 0%nat = 0 -> (1 <= j < n)%nat -> mv n (ridge C L) b j = b j * (C j j + L)).
  { intros b j B0 Hj. rewrite mv_ridge by lia. unfold mv. rewrite (rsum_single n _ j); [ring|lia|]. intros i Hi Hne.
    destruct i as [|i]; [rewrite B0; ring|]. rewrite (Ho j (S i)) by lia. ring. }
  apply kkt_min.
  - intros i j Hi Hj. unfold ridge. rewrite (Hs i j Hi Hj), (Nat.eqb_sym i j). reflexivity.
  - apply rsum_nonneg. intros i Hi. destruct i as [|i]; [unfold fl, f; rewrite X0; cbn; lra|].
    rewrite Hmv; [|unfold fl, f; rewrite X0; cbn; ring|lia]. specialize (Hd (S i) ltac:(lia)).
    set (u := fl x (S i) - f (S i)). pose proof (Rle_0_sqr u). unfold Rsqr in *. nra.
  - reflexivity.
  - exact X0.
  - intros j Hj. unfold kkt. rewrite Hmv by (auto; reflexivity). cbv zeta. unfold f. destruct (Nat.eqb_spec j 0); [lia|].
    specialize (Hd j Hj). rewrite shrunk_soft by exact Hl. set (a := xy nr A y j). set (c := C j j + L) in *.
    replace (soft a lamb / c * c) with (soft a lamb) by (field; lra).
    assert (I0 : 0 < / c) by (apply Rinv_0_lt_compat; exact Hd).
    unfold soft. destruct (Rlt_dec a (- lamb)) as [H|H]; [|destruct (Rlt_dec lamb a) as [H'|H']].
    + assert (U : (a + lamb) / c < 0) by (unfold Rdiv; nra). rewrite (Rabs_left _ U).
      replace (a - (a + lamb)) with (- lamb) by ring. rewrite Rabs_Ropp, Rabs_right by lra. split; lra.
    + assert (U : 0 < (a - lamb) / c) by (unfold Rdiv; nra). rewrite (Rabs_right ((a - lamb) / c)) by lra.
      replace (a - (a - lamb)) with lamb by ring. rewrite Rabs_right by lra. split; lra.
    + unfold Rdiv. rewrite Rmult_0_l, Rabs_R0, Rminus_0_r. split; [|lra]. apply Rabs_le. lra.
Qed.

Lemma solo_zero : forall C q lamb L j m, 0 <= lamb -> Rabs (q j) <= lamb -> solo C q lamb L j m = 0.
Proof.
  intros C q lamb L j m Hl H. assert (Z : soloc C q lamb L j 0 = 0).
  { unfold soloc. rewrite Rmult_0_r, Rminus_0_r, soft_zero by exact H. unfold Rdiv. ring. }
  induction m as [|m IH]; [reflexivity|]. destruct m as [|m]; [exact Z|].
  change (solo C q lamb L j (S (S m))) with
    (if Rlt_dec (/ 10 ^ 16) (Rabs (solo C q lamb L j (S m))) then soloc C q lamb L j (solo C q lamb L j (S m)) else solo C q lamb L j (S m)).
  rewrite IH. destruct (Rlt_dec _ _); [exact Z|reflexivity].
Qed.

Lemma pow_neg_even : forall q m, (- q) ^ m = q ^ m \/ (- q) ^ m = - q ^ m.
Proof. intros q m. induction m as [|m [IH|IH]]; cbn [pow]; [left; reflexivity| |]; rewrite IH; [right|left]; ring. Qed.

(** between 0 and 1, from the first power on *)
Lemma pow_neg_bound : forall q m, 0 <= q < 1 -> - q <= (- q) ^ S m <= q * q.
Proof.
  intros q m Hq. induction m as [|m IH]; [cbn [pow]; split; nra|].
  change ((- q) ^ S (S m)) with (- q * (- q) ^ S m). nra.
Qed.

(** the closed form while the coefficient keeps its sign *)
Lemma solo_formula : forall C q lamb L j, 0 <= lamb -> 0 < C j j -> 0 <= L -> L < C j j ->
  (Rabs (q j) <= lamb \/ / 10 ^ 16 < (Rabs (q j) - lamb) * (1 - L / C j j) / C j j) ->
  forall m, solo C q lamb L j m = soft (q j) lamb / (C j j + L) * (1 - (- (L / C j j)) ^ m).
Proof.
  intros C q lamb L j Hl Hc HL0 HL [H|H] m.
  - rewrite solo_zero by assumption. rewrite soft_zero by exact H. unfold Rdiv. ring.
  - set (c := C j j) in *. set (r := L / c) in *. set (a := q j) in *.
    assert (Hr : 0 <= r < 1).
    { unfold r. split; [apply Rmult_le_pos; [exact HL0|left; apply Rinv_0_lt_compat; exact Hc]|].
      apply Rmult_lt_reg_r with c; [exact Hc|]. unfold Rdiv. rewrite Rmult_assoc, Rinv_l by lra. lra. }
    assert (EL : L = r * c) by (unfold r; field; lra).
    assert (e16 : 0 < / 10 ^ 16) by (apply Rinv_0_lt_compat, pow_lt; lra).
    assert (Hs : / 10 ^ 16 < (Rabs a - lamb) * (1 - r) / c) by exact H.
    set (s := soft a lamb).
    assert (Es : Rabs s = Rabs a - lamb /\ (0 < s /\ s = a - lamb \/ s < 0 /\ s = a + lamb)).
    { assert (P : 0 < Rabs a - lamb).
      { assert (P1 : 0 < (Rabs a - lamb) * ((1 - r) / c)) by (unfold Rdiv in *; rewrite <- Rmult_assoc; lra).
        assert (P2 : 0 < (1 - r) / c) by (apply Rmult_lt_0_compat; [lra|apply Rinv_0_lt_compat; exact Hc]). nra. }
      unfold s, soft. unfold Rabs in *. destruct (Rcase_abs a); destruct (Rlt_dec a (- lamb)); destruct (Rlt_dec lamb a); try lra;
      destruct (Rcase_abs _); lra. }
    assert (Ecl : c + L = c * (1 + r)) by (rewrite EL; ring).
    (* the sizes *)
    assert (Big : forall p, - r <= p <= r * r -> / 10 ^ 16 < Rabs (s / (c + L) * (1 - p))).
    { intros p Hp. rewrite Ecl. rewrite Rabs_mult, (Rabs_right (1 - p)) by nra. unfold Rdiv. rewrite Rabs_mult.
      rewrite (Rabs_right (/ (c * (1 + r)))) by (apply Rle_ge; left; apply Rinv_0_lt_compat; nra).
      apply Rlt_le_trans with (1 := Hs). rewrite (proj1 Es).
      replace ((Rabs a - lamb) * (1 - r) / c) with ((Rabs a - lamb) * / (c * (1 + r)) * (1 - r * r)) by (field; lra).
      apply Rmult_le_compat_l; [|lra]. apply Rmult_le_pos; [rewrite <- (proj1 Es); apply Rabs_pos|left; apply Rinv_0_lt_compat; nra]. }
    assert (Step : forall p, - r <= p <= 1 -> soloc C q lamb L j (s / (c + L) * (1 - p)) = s / (c + L) * (1 - - r * p)).
    { intros p Hp. unfold soloc. fold a c.
      assert (E1 : L * (s / (c + L) * (1 - p)) = s * (r * (1 - p) / (1 + r))) by (rewrite Ecl, EL; field; lra).
      rewrite E1. set (t := r * (1 - p) / (1 + r)).
      assert (Ht : 0 <= t < 1).
      { assert (I1 : 0 < / (1 + r)) by (apply Rinv_0_lt_compat; lra). unfold t. split.
        - unfold Rdiv. apply Rmult_le_pos; [nra|lra].
        - apply Rmult_lt_reg_r with (1 + r); [lra|]. unfold Rdiv. rewrite Rmult_assoc, Rinv_l by lra. nra. }
      assert (E2 : soft (a - s * t) lamb = s * (1 - t)).
      { destruct Es as (_ & [[S1 S2]|[S1 S2]]); unfold soft.
        - destruct (Rlt_dec (a - s * t) (- lamb)); [nra|]. destruct (Rlt_dec lamb (a - s * t)); nra.
        - destruct (Rlt_dec (a - s * t) (- lamb)); [nra|]. destruct (Rlt_dec lamb (a - s * t)); nra. }
      rewrite E2. unfold t. rewrite Ecl. field. lra. }
    induction m as [|m IH].
    + cbn [solo pow]. ring.
    + assert (B : - r <= (- r) ^ m <= 1).
      { destruct m as [|m]; [cbn [pow]; lra|]. pose proof (pow_neg_bound r m Hr). nra. }
      rewrite solo_S.
      * rewrite IH, Step by exact B. cbn [pow]. reflexivity.
      * destruct m as [|m]; [left; reflexivity|]. right. rewrite IH. apply Big. apply pow_neg_bound. exact Hr.
Qed.

(** For a strength below the diagonal the passes approach the minimiser
    geometrically, and reported convergence means it. *)
Theorem C82_uncorrelated : forall get d nr n A y C lamb L tol x0 k,
  lasso_data get d nr n A y C -> (forall i j, (i < n)%nat -> (j < n)%nat -> C i j = C j i) -> uncorrelated n C ->
  0 <= lamb -> 0 <= L -> (forall j, (1 <= j < n)%nat -> L < C j j) ->
  (forall j, (1 <= j < n)%nat -> Rabs (xy nr A y j) <= lamb \/
     / 10 ^ 16 < (Rabs (xy nr A y j) - lamb) * (1 - L / C j j) / C j j) ->
  exists best b conv passes,
    minimiser_without_bias n (enet_objective nr n A y C lamb L) best /\
    (forall j, (1 <= j < n)%nat -> nth j best 0 = shrunk (xy nr A y j) lamb / (C j j + L)) /\
    coefficients (LassoCrdDesc get d (XFin lamb) x0 (Z.of_nat k) (XFin tol) (ElasticNet (N := XR) (XFin L))) = Ok (map XFin b) /\
    converged (LassoCrdDesc get d (XFin lamb) x0 (Z.of_nat k) (XFin tol) (ElasticNet (N := XR) (XFin L))) = Ok conv /\
    length b = n /\ nth 0 b 0 = 0 /\
    (passes <= k)%nat /\ (passes = k \/ conv = true) /\
    (forall j, (1 <= j < n)%nat -> Rabs (nth j b 0 - nth j best 0) = Rabs (nth j best 0) * (L / C j j) ^ passes) /\
    (conv = true -> exists i, (1 <= i < n)%nat /\ forall j, (1 <= j < n)%nat ->
       Rabs (nth j b 0 - nth j best 0) < tol * Rabs (nth i b 0)).
Proof.
  intros get d nr n A y C lamb L tol x0 k D Hs Ho Hl HL HLC Hbig.
  pose proof (ld_n _ _ _ _ _ _ _ D) as Hn.
  assert (Hd : forall j, (1 <= j < n)%nat -> 0 < C j j) by (intros j Hj; specialize (HLC j Hj); lra).
  destruct (lasso_unfold get d nr n A y C D) as (cov & Hcov & R1 & R2 & U).
  destruct (run_solo n C (xy nr A y) lamb tol L Hn Hs Hd Hl nr cov (ld_nr _ _ _ _ _ _ _ D) R1 R2 Hcov k Ho)
    as (m & st & b & E & [EI Hb _ Hc _] & Hm & Hmk).
  rewrite !U, Nat2Z.id. fold (fin lamb) (fin tol) (fin L).
  destruct (crd_start cov n (ElasticNet (N := XR) (fin L))) as [st0| |]; cbn [bind] in *; [|discriminate E|discriminate E].
  rewrite E. cbn [bind coefficients converged].
  set (f := fun j => if (j =? 0)%nat then 0 else shrunk (xy nr A y j) lamb / (C j j + L)).
  exists (map f (seq 0 n)), (map b (seq 0 n)), (crConv st), m.
  assert (Ef : forall j, (1 <= j < n)%nat -> nth j (map f (seq 0 n)) 0 = shrunk (xy nr A y j) lamb / (C j j + L)).
  { intros j Hj. rewrite nth_map_seq by lia. unfold f. destruct (Nat.eqb_spec j 0); [lia|reflexivity]. }
  assert (Eb : forall j, (1 <= j < n)%nat -> nth j (map b (seq 0 n)) 0 =
    shrunk (xy nr A y j) lamb / (C j j + L) * (1 - (- (L / C j j)) ^ m)).
  { intros j Hj. rewrite nth_map_seq, Hb, (solo_formula C _ lamb L j) by (auto; lia). rewrite shrunk_soft by exact Hl. reflexivity. }
  assert (Hq : forall j, (1 <= j < n)%nat -> 0 <= L / C j j).
  { intros j Hj. apply Rmult_le_pos; [exact HL|left; apply Rinv_0_lt_compat; auto]. }
  assert (Ed : forall j m, (1 <= j < n)%nat -> Rabs (shrunk (xy nr A y j) lamb / (C j j + L) * (1 - (- (L / C j j)) ^ m) - shrunk (xy nr A y j) lamb / (C j j + L))
    = Rabs (shrunk (xy nr A y j) lamb / (C j j + L)) * (L / C j j) ^ m).
  { intros j p Hj. set (x := shrunk _ _ / _). replace (x * (1 - (- (L / C j j)) ^ p) - x) with (- (x * (- (L / C j j)) ^ p)) by ring.
    rewrite Rabs_Ropp, Rabs_mult, <- RPow_abs, Rabs_Ropp, (Rabs_right (L / C j j)) by (apply Rle_ge; auto). reflexivity. }
  split; [apply enet_uncorrelated_min; auto; intros j Hj; specialize (Hd j Hj); lra|].
  split; [exact Ef|].
  split; [rewrite (ei_beta _ _ _ _ _ EI), vec_fins_map; reflexivity|]. split; [reflexivity|].
  split; [rewrite map_length, seq_length; reflexivity|]. split; [rewrite nth_map_seq by exact Hn; apply (ei_zero _ _ _ _ _ EI)|].
  split; [exact Hm|]. split; [exact Hmk|]. split.
  - intros j Hj. rewrite Ef, Eb by exact Hj. apply Ed. exact Hj.
  - intro Hcv. destruct (Hc Hcv) as (Hm1 & i & Hi & _ & Hch). exists i. split; [exact Hi|]. intros j Hj.
    rewrite Ef, (Eb j) by exact Hj. rewrite nth_map_seq, Hb by lia. eapply Rle_lt_trans; [|apply (Hch j Hj)].
    rewrite !(solo_formula C _ lamb L j) by auto. rewrite <- shrunk_soft by exact Hl. destruct m as [|m]; [lia|]. cbn [Nat.sub]. rewrite Nat.sub_0_r.
    rewrite Ed by exact Hj. set (x := shrunk _ _ / _). set (r := L / C j j) in *.
    replace (x * (1 - (- r) ^ S m) - x * (1 - (- r) ^ m)) with (x * ((1 + r) * (- r) ^ m)) by (cbn [pow]; ring).
    rewrite !Rabs_mult. apply Rmult_le_compat_l; [apply Rabs_pos|]. specialize (Hq j Hj). fold r in Hq.
    rewrite <- RPow_abs, Rabs_Ropp, (Rabs_right r), (Rabs_right (1 + r)) by lra. cbn [pow].
    assert (0 <= r ^ m) by (apply pow_le; exact Hq). nra.
Qed.
Print Assumptions C82_uncorrelated.

(** A strength at or above the diagonal can make the method lose a feature
    for good: the second pass overshoots to zero, and a zero is never
    revisited. *)
Theorem C82_lost_feature : forall get d nr n A y C lamb L tol x0 k j,
  lasso_data get d nr n A y C -> (forall i j, (i < n)%nat -> (j < n)%nat -> C i j = C j i) -> uncorrelated n C ->
  (forall j, (1 <= j < n)%nat -> 0 < C j j) -> 0 <= lamb -> tol <= 1 -> (2 <= k)%nat ->
  (1 <= j < n)%nat -> C j j <= L -> L * (Rabs (xy nr A y j) - lamb) <= C j j * (Rabs (xy nr A y j) + lamb) ->
  / 10 ^ 16 < (Rabs (xy nr A y j) - lamb) / C j j ->
  exists b, coefficients (LassoCrdDesc get d (XFin lamb) x0 (Z.of_nat k) (XFin tol) (ElasticNet (N := XR) (XFin L))) = Ok (map XFin b) /\
    nth j b 0 = 0 /\
    exists best, minimiser_without_bias n (enet_objective nr n A y C lamb L) best /\
      Rabs (nth j best 0) = (Rabs (xy nr A y j) - lamb) / (C j j + L).
Proof.
  intros get d nr n A y C lamb L tol x0 k j D Hs Ho Hd Hl Ht Hk Hj HLC Hover Hbig.
  pose proof (ld_n _ _ _ _ _ _ _ D) as Hn. pose proof (Hd j Hj) as Hc0.
  assert (e16 : 0 < / 10 ^ 16) by (apply Rinv_0_lt_compat, pow_lt; lra).
  destruct (lasso_unfold get d nr n A y C D) as (cov & Hcov & R1 & R2 & U).
  destruct (run_solo n C (xy nr A y) lamb tol L Hn Hs Hd Hl nr cov (ld_nr _ _ _ _ _ _ _ D) R1 R2 Hcov k Ho)
    as (m & st & b & E & [EI Hb _ Hc _] & Hm & Hmk).
  rewrite !U, Nat2Z.id. fold (fin lamb) (fin tol) (fin L).
  destruct (crd_start cov n (ElasticNet (N := XR) (fin L))) as [st0| |]; cbn [bind] in *; [|discriminate E|discriminate E].
  rewrite E. cbn [bind coefficients]. exists (map b (seq 0 n)).
  split; [rewrite (ei_beta _ _ _ _ _ EI), vec_fins_map; reflexivity|].
  assert (Hm2 : (2 <= m)%nat).
  { destruct Hmk as [->|Hcv]; [exact Hk|]. destruct (Hc Hcv) as (Hm1 & i & Hi & Hne & Hch).
    destruct m as [|[|m]]; [lia| |lia]. exfalso. specialize (Hch i Hi). cbn [Nat.sub solo] in Hch. rewrite Rminus_0_r in Hch.
    pose proof (Rabs_pos_lt _ Hne) as P. cbn [solo] in P. nra. }
  set (a := xy nr A y j) in *. set (c := C j j) in *.
  assert (P : lamb < Rabs a).
  { assert (P1 : 0 < (Rabs a - lamb) / c) by lra. assert (0 < / c) by (apply Rinv_0_lt_compat; exact Hc0). unfold Rdiv in P1. nra. }
  split.
  - rewrite nth_map_seq, Hb by lia.
    assert (E1 : solo C (xy nr A y) lamb L j 1 = soft a lamb / c).
    { cbn [solo]. unfold soloc. rewrite Rmult_0_r, Rminus_0_r. reflexivity. }
    assert (As : Rabs (soft a lamb) = Rabs a - lamb).
    { unfold soft, Rabs in *. destruct (Rcase_abs a); destruct (Rlt_dec a (- lamb)); destruct (Rlt_dec lamb a); try lra;
      destruct (Rcase_abs _); lra. }
    assert (E2 : solo C (xy nr A y) lamb L j 2 = 0).
    { rewrite solo_S.
      - rewrite E1. unfold soloc. fold a c. rewrite soft_zero; [unfold Rdiv; ring|].
        replace (L * (soft a lamb / c)) with (soft a lamb * (L / c)) by (unfold Rdiv; ring). set (r := L / c).
        assert (Er : L = r * c) by (unfold r; field; lra). rewrite Er in Hover, HLC.
        assert (Hr1 : 1 <= r) by nra. assert (Hr2 : r * (Rabs a - lamb) <= Rabs a + lamb) by nra.
        apply Rabs_le. unfold soft. destruct (Rlt_dec a (- lamb)) as [N1|N1].
        { rewrite (Rabs_left a) in Hr2, P by lra. nra. }
        destruct (Rlt_dec lamb a) as [N2|N2]; [rewrite (Rabs_right a) in Hr2, P by lra; nra|].
        exfalso. unfold Rabs in P. destruct (Rcase_abs a); lra.
      - right. rewrite E1. unfold Rdiv. rewrite Rabs_mult, As, (Rabs_right (/ c)) by (apply Rle_ge; left; apply Rinv_0_lt_compat; exact Hc0).
        exact Hbig. }
    assert (G : forall p, solo C (xy nr A y) lamb L j (2 + p) = 0).
    { induction p as [|p IH]; [exact E2|]. rewrite Nat.add_succ_r. rewrite solo_dead; [exact IH|].
      intros [H|H]; [discriminate|]. rewrite IH, Rabs_R0 in H. lra. }
    replace m with (2 + (m - 2))%nat by lia. apply G.
  - exists (map (fun j => if (j =? 0)%nat then 0 else shrunk (xy nr A y j) lamb / (C j j + L)) (seq 0 n)). split.
    + apply enet_uncorrelated_min; auto. intros i Hi. specialize (Hd i Hi). lra.
    + rewrite nth_map_seq by lia. destruct (Nat.eqb_spec j 0); [lia|]. fold a c.
      unfold Rdiv. rewrite Rabs_mult, (Rabs_right (/ (c + L))) by (apply Rle_ge; left; apply Rinv_0_lt_compat; lra).
      f_equal. unfold shrunk. destruct (Rle_dec (Rabs a) lamb); [lra|]. unfold Rabs in *.
      destruct (Rcase_abs a); destruct (Rlt_dec 0 a); destruct (Rcase_abs _); lra.
Qed.
Print Assumptions C82_lost_feature.

(** Without the L1 part a strength above the diagonal makes the coefficients
    alternate and grow without bound; no number of passes ends it. *)
Theorem C82_diverges : forall get d nr n A y C L tol x0,
  lasso_data get d nr n A y C -> (forall i j, (i < n)%nat -> (j < n)%nat -> C i j = C j i) -> uncorrelated n C ->
  (forall j, (1 <= j < n)%nat -> 0 < C j j < L) -> tol <= 1 ->
  (forall j, (1 <= j < n)%nat -> xy nr A y j = 0 \/
     / 10 ^ 16 < Rabs (xy nr A y j) / C j j /\ / 10 ^ 16 < Rabs (xy nr A y j) / C j j * (L / C j j - 1)) ->
  exists beta : nat -> list R, forall k,
    coefficients (LassoCrdDesc get d (XFin 0) x0 (Z.of_nat k) (XFin tol) (ElasticNet (N := XR) (XFin L))) = Ok (map XFin (beta k)) /\
    converged (LassoCrdDesc get d (XFin 0) x0 (Z.of_nat k) (XFin tol) (ElasticNet (N := XR) (XFin L))) = Ok false /\
    length (beta k) = n /\ nth 0 (beta k) 0 = 0 /\
    forall j, (1 <= j < n)%nat -> nth j (beta k) 0 = xy nr A y j / (C j j + L) * (1 - (- (L / C j j)) ^ k).
Proof.
  intros get d nr n A y C L tol x0 D Hs Ho Hd Ht Hbig.
  pose proof (ld_n _ _ _ _ _ _ _ D) as Hn.
  assert (Hd' : forall j, (1 <= j < n)%nat -> 0 < C j j) by (intros j Hj; apply Hd; exact Hj).
  destruct (lasso_unfold get d nr n A y C D) as (cov & Hcov & R1 & R2 & U).
  assert (S0 : forall x, soft x 0 = x).
  { intro x. unfold soft. destruct (Rlt_dec x (- 0)); [ring|]. destruct (Rlt_dec 0 x); lra. }
  assert (Form : forall j, (1 <= j < n)%nat -> forall m, solo C (xy nr A y) 0 L j m = xy nr A y j / (C j j + L) * (1 - (- (L / C j j)) ^ m)).
  { intros j Hj. destruct (Hbig j Hj) as [Z|(H1 & H2)].
    - intro m. rewrite solo_zero; [rewrite Z; unfold Rdiv; ring|lra|rewrite Z, Rabs_R0; lra].
    - destruct (Hd j Hj) as (Hc & HL). set (c := C j j) in *. set (a := xy nr A y j) in *. set (r := L / c) in *.
      assert (EL : L = r * c) by (unfold r; field; lra). assert (Hr : 1 < r) by nra.
      assert (Ecl : c + L = c * (1 + r)) by (rewrite EL; ring).
      assert (Hpow : forall m, 1 <= r ^ m) by (intro m; apply pow_R1_Rle; lra).
      induction m as [|m IH]; [cbn [solo pow]; ring|]. rewrite solo_S.
      + rewrite IH. unfold soloc. fold a c. rewrite S0. cbn [pow]. rewrite Ecl. fold r. rewrite EL. field. lra.
      + destruct m as [|m]; [left; reflexivity|]. right. rewrite IH, Ecl, Rabs_mult.
        unfold Rdiv. rewrite Rabs_mult, (Rabs_right (/ (c * (1 + r)))) by (apply Rle_ge; left; apply Rinv_0_lt_compat; nra).
        assert (I1 : 0 < / (c * (1 + r))) by (apply Rinv_0_lt_compat; nra).
        assert (B : (1 + r) * Rmin 1 (r - 1) <= Rabs (1 - (- r) ^ S m)).
        { destruct m as [|m].
          - cbn [pow]. rewrite Rmult_1_r. replace (1 - - r) with (1 + r) by ring. rewrite Rabs_right by lra. pose proof (Rmin_l 1 (r - 1)). nra.
          - pose proof (Rmin_r 1 (r - 1)) as Q. apply Rle_trans with ((1 + r) * (r - 1)); [nra|].
            assert (P2 : r * r <= r ^ S (S m)) by (cbn [pow]; specialize (Hpow m); nra).
            destruct (pow_neg_even r (S (S m))) as [->| ->]; [rewrite Rabs_left1 by nra; nra|rewrite Rabs_right by nra; nra]. }
        assert (Q : / 10 ^ 16 < Rabs a / c * Rmin 1 (r - 1)) by (unfold Rmin; destruct (Rle_dec 1 (r - 1)); [rewrite Rmult_1_r; exact H1|exact H2]).
        apply Rlt_le_trans with (1 := Q).
        replace (Rabs a / c * Rmin 1 (r - 1)) with (Rabs a * / (c * (1 + r)) * ((1 + r) * Rmin 1 (r - 1))) by (field; lra).
        apply Rmult_le_compat_l; [|exact B]. apply Rmult_le_pos; [apply Rabs_pos|lra]. }
  exists (fun k => map (fun j => if (j =? 0)%nat then 0 else xy nr A y j / (C j j + L) * (1 - (- (L / C j j)) ^ k)) (seq 0 n)). intro k.
  destruct (run_solo n C (xy nr A y) 0 tol L Hn Hs Hd' (Rle_refl 0) nr cov (ld_nr _ _ _ _ _ _ _ D) R1 R2 Hcov k Ho)
    as (m & st & b & E & [EI Hb _ Hc _] & Hm & Hmk).
  rewrite !U, Nat2Z.id. change (XFin 0) with (fin 0). fold (fin tol) (fin L).
  destruct (crd_start cov n (ElasticNet (N := XR) (fin L))) as [st0| |]; cbn [bind] in *; [|discriminate E|discriminate E].
  rewrite E. cbn [bind coefficients converged].
  assert (NC : crConv st = false).
  { destruct (crConv st); [exfalso|reflexivity]. destruct (Hc eq_refl) as (Hm1 & i & Hi & Hne & Hch). specialize (Hch i Hi).
    destruct m as [|m]; [lia|]. cbn [Nat.sub] in Hch. rewrite Nat.sub_0_r in Hch. rewrite !Form in Hch by exact Hi. rewrite Form in Hne by exact Hi.
    destruct (Hd i Hi) as (Hci & HLi). set (r := L / C i i) in *. set (x := xy nr A y i / (C i i + L)) in *.
    assert (Hr : 1 < r) by (unfold r; apply Rmult_lt_reg_r with (C i i); [exact Hci|]; unfold Rdiv; rewrite Rmult_assoc, Rinv_l by lra; lra).
    replace (x * (1 - (- r) ^ S m) - x * (1 - (- r) ^ m)) with (x * ((1 + r) * (- r) ^ m)) in Hch by (cbn [pow]; ring).
    rewrite !(Rabs_mult x) in Hch. rewrite Rabs_mult, <- RPow_abs, Rabs_Ropp, (Rabs_right r), (Rabs_right (1 + r)) in Hch by lra.
    assert (Px : 0 < Rabs x) by (apply Rabs_pos_lt; intro Z; rewrite Z in Hne; apply Hne; ring).
    assert (Pr : 1 <= r ^ m) by (apply pow_R1_Rle; lra).
    assert (B : Rabs (1 - (- r) ^ S m) <= 1 + r * r ^ m).
    { apply Rle_trans with (Rabs 1 + Rabs (- (- r) ^ S m)); [apply Rabs_triang|]. rewrite Rabs_R1, Rabs_Ropp, <- RPow_abs, Rabs_Ropp, (Rabs_right r) by lra.
      cbn [pow]. lra. }
    set (v := Rabs (1 - (- r) ^ S m)) in *. assert (0 <= v) by apply Rabs_pos. clearbody v.
    assert (H3 : Rabs x * ((1 + r) * r ^ m) < Rabs x * v).
    { eapply Rlt_le_trans; [exact Hch|]. assert (0 <= Rabs x * v) by nra. nra. }
    apply Rmult_lt_reg_l in H3; [|exact Px]. nra. }
  rewrite NC in Hmk. destruct Hmk as [->|C0]; [|discriminate].
  split; [|split; [f_equal; exact NC|split; [rewrite map_length, seq_length; reflexivity|split]]].
  - f_equal. rewrite (ei_beta _ _ _ _ _ EI), vec_fins_map. f_equal. apply map_ext_in. intros j Hj. apply in_seq in Hj.
    destruct (Nat.eqb_spec j 0) as [->|]; [apply (ei_zero _ _ _ _ _ EI)|]. rewrite Hb, Form by lia. reflexivity.
  - rewrite nth_map_seq by exact Hn. reflexivity.
  - intros j Hj. rewrite nth_map_seq by lia. destruct (Nat.eqb_spec j 0); [lia|reflexivity].
Qed.
Print Assumptions C82_diverges.

(** *** examples: the two orthogonal columns of C76, all diagonal entries 4/5 *)
Lemma eo_unc : uncorrelated 3 eo_C.
Proof.
  destruct eo_values as (E1 & E2 & E3 & E4 & E5 & E6).
  intros i j Hi Hj Hne. destruct i as [|[|[|i]]]; try lia; destruct j as [|[|[|j]]]; try lia; assumption.
Qed.
Lemma e16_small : / 10 ^ 16 < 1 / 1000.
Proof. unfold Rdiv. rewrite Rmult_1_l. apply Rinv_lt_contravar; lra. Qed.

(** strength 2/5: half the distance is left after every pass *)
Example C82_example : forall k, exists best b passes conv,
  minimiser_without_bias 3 (enet_objective 5 3 eo_A eo_y eo_C (1 / 10) (2 / 5)) best /\
  nth 1 best 0 = 13 / 36 /\ nth 2 best 0 = 5 / 36 /\
  coefficients (LassoCrdDesc Empirical_Get eo_nd (XFin (1 / 10)) None (Z.of_nat k) (XFin (1 / 1000)) (ElasticNet (N := XR) (XFin (2 / 5)))) = Ok (map XFin b) /\
  (passes = k \/ conv = true) /\
  Rabs (nth 1 b 0 - 13 / 36) = 13 / 36 * (1 / 2) ^ passes /\
  Rabs (nth 2 b 0 - 5 / 36) = 5 / 36 * (1 / 2) ^ passes.
Proof.
  intro k. destruct eo_values as (E1 & E2 & E3 & E4 & E5 & E6). pose proof e16_small as Es.
  destruct (C82_uncorrelated Empirical_Get eo_nd 5 3 eo_A eo_y eo_C (1 / 10) (2 / 5) (1 / 1000) None k eo_data eo_sym eo_unc)
    as (best & b & conv & p & B1 & B2 & B3 & _ & _ & _ & _ & B4 & B5 & _); try lra.
  { intros j Hj. destruct j as [|[|[|j]]]; [lia| | |lia]; [rewrite E1|rewrite E2]; lra. }
  { intros j Hj. right. destruct j as [|[|[|j]]]; [lia| | |lia]; [rewrite E1, E5|rewrite E2, E6]; rewrite Rabs_right by lra; lra. }
  assert (N1 : nth 1 best 0 = 13 / 36).
  { rewrite B2 by lia. rewrite E1, E5. unfold shrunk. rewrite Rabs_right by lra. destruct (Rle_dec _ _); [lra|]. destruct (Rlt_dec _ _); lra. }
  assert (N2 : nth 2 best 0 = 5 / 36).
  { rewrite B2 by lia. rewrite E2, E6. unfold shrunk. rewrite Rabs_right by lra. destruct (Rle_dec _ _); [lra|]. destruct (Rlt_dec _ _); lra. }
  exists best, b, p, conv. split; [exact B1|]. split; [exact N1|]. split; [exact N2|]. split; [exact B3|]. split; [exact B4|].
  replace (1 / 2) with (2 / 5 / (4 / 5)) by field.
  split; [rewrite <- N1, B5, E1, N1 by lia|rewrite <- N2, B5, E2, N2 by lia]; rewrite Rabs_right by lra; reflexivity.
Qed.

(** "The elastic net correction leads to the minimiser of the elastic net
    objective" fails for a strength of 1: the coefficient of feature 1 is zero
    for every iteration limit from 2 on, but 1/9 in the minimiser. *)
Theorem C82_minimiser_refuted : exists d nr n A y C lamb L,
  lasso_data Empirical_Get d nr n A y C /\ uncorrelated n C /\ 0 < lamb /\ 0 < L /\
  exists best, minimiser_without_bias n (enet_objective nr n A y C lamb L) best /\ Rabs (nth 1 best 0) = 1 / 9 /\
  forall k tol, (2 <= k)%nat -> tol <= 1 -> exists b,
    coefficients (LassoCrdDesc Empirical_Get d (XFin lamb) None (Z.of_nat k) (XFin tol) (ElasticNet (N := XR) (XFin L))) = Ok (map XFin b) /\
    nth 1 b 0 = 0.
Proof.
  destruct eo_values as (E1 & E2 & E3 & E4 & E5 & E6). pose proof e16_small as Es.
  assert (Hd : forall j, (1 <= j < 3)%nat -> 0 < eo_C j j) by (intros j Hj; destruct j as [|[|[|j]]]; [lia| | |lia]; lra).
  assert (Hb : forall k tol, (2 <= k)%nat -> tol <= 1 -> exists b,
    coefficients (LassoCrdDesc Empirical_Get eo_nd (XFin (1 / 3)) None (Z.of_nat k) (XFin tol) (ElasticNet (N := XR) (XFin 1))) = Ok (map XFin b) /\
    nth 1 b 0 = 0 /\ exists best, minimiser_without_bias 3 (enet_objective 5 3 eo_A eo_y eo_C (1 / 3) 1) best /\
    Rabs (nth 1 best 0) = (Rabs (xy 5 eo_A eo_y 1) - 1 / 3) / (eo_C 1 1 + 1)).
  { intros k tol Hk Ht. apply (C82_lost_feature Empirical_Get eo_nd 5 3 eo_A eo_y eo_C (1 / 3) 1 tol None k 1 eo_data eo_sym eo_unc Hd); try lra; try lia;
      rewrite ?E1, ?E5, Rabs_right by lra; lra. }
  exists eo_nd, 5%nat, 3%nat, eo_A, eo_y, eo_C, (1 / 3), 1. split; [exact eo_data|]. split; [exact eo_unc|]. split; [lra|]. split; [lra|].
  destruct (Hb 2%nat 1 ltac:(lia) ltac:(lra)) as (_ & _ & _ & best & M & B). exists best. split; [exact M|].
  split; [rewrite B, E1, E5, Rabs_right by lra; lra|].
  intros k tol Hk Ht. destruct (Hb k tol Hk Ht) as (b & B1 & B2 & _). exists b. auto.
Qed.
Print Assumptions C82_minimiser_refuted.

(** "The coefficients stay bounded" fails for a strength of 1 without the L1
    part. *)
Theorem C82_bounded_refuted : exists d nr n A y C L,
  lasso_data Empirical_Get d nr n A y C /\ uncorrelated n C /\ 0 < L /\
  forall bound tol, tol <= 1 -> exists k b,
    coefficients (LassoCrdDesc Empirical_Get d (XFin 0) None (Z.of_nat k) (XFin tol) (ElasticNet (N := XR) (XFin L))) = Ok (map XFin b) /\
    bound < Rabs (nth 1 b 0).
Proof.
  destruct eo_values as (E1 & E2 & E3 & E4 & E5 & E6). pose proof e16_small as Es.
  exists eo_nd, 5%nat, 3%nat, eo_A, eo_y, eo_C, 1. split; [exact eo_data|]. split; [exact eo_unc|]. split; [lra|].
  intros bound tol Ht.
  destruct (C82_diverges Empirical_Get eo_nd 5 3 eo_A eo_y eo_C 1 tol None eo_data eo_sym eo_unc) as (beta & B).
  { intros j Hj. destruct j as [|[|[|j]]]; [lia| | |lia]; lra. }
  { exact Ht. }
  { intros j Hj. right. destruct j as [|[|[|j]]]; [lia| | |lia]; rewrite ?E1, ?E2, ?E5, ?E6, Rabs_right by lra; lra. }
  destruct (Pow_x_infinity (- (5 / 4)) ltac:(rewrite Rabs_Ropp, Rabs_right; lra) (1 + (Rabs bound + 1) * 4)) as (k & Hk).
  specialize (Hk k (Nat.le_refl k)). destruct (B k) as (C1 & _ & _ & _ & C2). exists k, (beta k). split; [exact C1|].
  rewrite C2, E1, E5 by lia. replace (1 / (4 / 5)) with (5 / 4) by field. rewrite Rabs_mult, (Rabs_right (8 / 15 / (4 / 5 + 1))) by lra.
  set (p := (- (5 / 4)) ^ k) in *. pose proof (Rle_abs bound). pose proof (Rabs_pos bound).
  assert (Rabs p - 1 <= Rabs (1 - p)).
  { pose proof (Rabs_triang 1 (- (1 - p))) as T. rewrite Rabs_Ropp, Rabs_R1 in T. replace (1 + - (1 - p)) with p in T by ring. lra. }
  lra.
Qed.
Print Assumptions C82_bounded_refuted.

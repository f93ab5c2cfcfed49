(** Coordinate descent in exact arithmetic: every coordinate step minimises
    the lasso objective in that coordinate. *)
From Coq Require Import Reals Lra Psatz.
From Verif Require Import Base Num Mat Model_Node Model_Util Model_Fit Model_Norm Model_Cov Model_Crd
  Proof_Node Proof_Util RSum Proof_XR Proof_Norm Proof_Fit Proof_Crd.
Local Open Scope R_scope.

Definition vec (n : nat) (g : nat -> R) : list XR := map (fun i => fin (g i)) (seq 0 n).

Lemma vec_length : forall n g, length (vec n g) = n.
Proof. intros. unfold vec. rewrite map_length, seq_length. reflexivity. Qed.

Lemma vec_nth : forall n g i, (i < n)%nat -> nth i (vec n g) n0 = fin (g i).
Proof. intros. unfold vec. apply nth_map_seq. assumption. Qed.

Lemma vec_eq : forall n g l, length l = n -> (forall i, (i < n)%nat -> nth i l n0 = fin (g i)) -> l = vec n g.
Proof.
  intros n g l Hl H. apply nth_ext with (d := n0) (d' := n0); [rewrite vec_length; exact Hl|].
  intros i Hi. rewrite vec_nth by lia. apply H. lia.
Qed.

Lemma vec_ext : forall n g h, (forall i, (i < n)%nat -> g i = h i) -> vec n g = vec n h.
Proof. intros n g h H. apply vec_eq; [apply vec_length|]. intros i Hi. rewrite vec_nth by exact Hi. rewrite H by exact Hi. reflexivity. Qed.

Definition setf (b : nat -> R) (j : nat) (u : R) : nat -> R := fun i => if (i =? j)%nat then u else b i.

Lemma upd_vec : forall n b j u, (j < n)%nat -> upd (vec n b) j (fin u) = vec n (setf b j u).
Proof.
  intros n b j u Hj. apply vec_eq; [rewrite upd_length; apply vec_length|].
  intros i Hi. rewrite nth_upd. unfold setf. destruct (Nat.eqb_spec i j) as [->|Hne].
  - rewrite vec_length. replace (j <? n)%nat with true by (symmetry; apply Nat.ltb_lt; lia). reflexivity.
  - apply vec_nth. exact Hi.
Qed.

Definition soft (x t : R) : R := if Rlt_dec x (- t) then x + t else if Rlt_dec t x then x - t else 0.

Lemma soft_fin : forall x t, 0 <= t -> SoftThreshold (fin x : XR) (fin t : XR) = fin (soft x t).
Proof.
  intros x t Ht. unfold SoftThreshold, soft. cbn [nltb nneg XR xneg xltb fin]. unfold Rltb.
  destruct (Rlt_dec x (- t)); [reflexivity|]. destruct (Rlt_dec t x); reflexivity.
Qed.

Lemma mv_setf : forall n C b j u i, (j < n)%nat -> mv n C (setf b j u) i = mv n C b i + C i j * (u - b j).
Proof.
  intros n C b j u i Hj. unfold mv.
  replace (C i j * (u - b j)) with (rsum n (fun k => (C i k * (u - b k)) * delta k j)).
  - rewrite <- rsum_plus. apply rsum_ext. intros k Hk. unfold setf, delta. destruct (Nat.eqb_spec k j); ring.
  - rewrite rsum_delta_r by exact Hj. reflexivity.
Qed.

Lemma rsum_setf : forall n (f : nat -> R -> R) b j u, (j < n)%nat ->
  rsum n (fun i => f i (setf b j u i)) = rsum n (fun i => f i (b i)) + (f j u - f j (b j)).
Proof.
  intros n f b j u Hj.
  replace (f j u - f j (b j)) with (rsum n (fun k => (f k u - f k (b k)) * delta k j)).
  - rewrite <- rsum_plus. apply rsum_ext. intros k Hk. unfold setf, delta. destruct (Nat.eqb_spec k j); ring.
  - rewrite rsum_delta_r by exact Hj. reflexivity.
Qed.

(** the lasso objective for a covariance estimate C and q = X^T y / nr *)
Definition obj (n : nat) (C : nat -> nat -> R) (q : nat -> R) (lamb : R) (b : nat -> R) : R :=
  dot n b (mv n C b) / 2 - dot n b q + lamb * rsum n (fun j => Rabs (b j)).

Section Step.
  Variable n : nat.
  Variable C : nat -> nat -> R.
  Variable q : nat -> R.
  Variable lamb : R.
  Hypothesis Hsym : forall i j, (i < n)%nat -> (j < n)%nat -> C i j = C j i.
  Hypothesis Hl : 0 <= lamb.

  Lemma obj_setf : forall b j u, (j < n)%nat ->
    obj n C q lamb (setf b j u) = obj n C q lamb b + (u - b j) * (mv n C b j - q j)
      + C j j * Rsqr (u - b j) / 2 + lamb * (Rabs u - Rabs (b j)).
  Proof.
    intros b j u Hj. unfold obj.
    assert (E1 : dot n (setf b j u) (mv n C (setf b j u)) =
      dot n b (mv n C b) + 2 * (u - b j) * mv n C b j + C j j * Rsqr (u - b j)).
    { unfold dot.
      rewrite (rsum_ext n _ (fun i => setf b j u i * mv n C b i + (u - b j) * (setf b j u i * C i j))).
      2:{ intros i Hi. rewrite mv_setf by exact Hj. ring. }
      rewrite rsum_plus, rsum_scal.
      rewrite (rsum_setf n (fun i x => x * mv n C b i)) by exact Hj.
      rewrite (rsum_setf n (fun i x => x * C i j)) by exact Hj.
      replace (rsum n (fun i => b i * C i j)) with (mv n C b j).
      2:{ unfold mv. apply rsum_ext. intros i Hi. rewrite (Hsym i j Hi Hj). ring. }
      unfold Rsqr. ring. }
    rewrite E1. unfold dot.
    rewrite (rsum_setf n (fun i x => x * q i)) by exact Hj.
    rewrite (rsum_setf n (fun i x => Rabs x)) by exact Hj. unfold Rsqr. field.
  Qed.

  (** exact minimisation along one coordinate; [z] is what is thresholded *)
  Lemma coord_min : forall c z b, 0 < c -> let u := soft z lamb / c in
    - z * u + c * Rsqr u / 2 + lamb * Rabs u + c * Rsqr (u - b) / 2
    <= - z * b + c * Rsqr b / 2 + lamb * Rabs b.
  Proof.
    intros c z b Hc u.
    assert (Eu : c * u = soft z lamb) by (unfold u; field; lra).
    assert (K : Rabs (z - c * u) <= lamb /\ (z - c * u) * u = lamb * Rabs u).
    { unfold soft in Eu. destruct (Rlt_dec z (- lamb)) as [H|H]; [|destruct (Rlt_dec lamb z) as [H'|H']].
      - assert (Hu : u < 0) by nra. rewrite Eu. rewrite (Rabs_left u) by lra. rewrite Rabs_left1 by lra. split; [lra|ring].
      - assert (Hu : 0 < u) by nra. rewrite Eu. rewrite (Rabs_right u) by lra. rewrite Rabs_right by lra. split; [lra|ring].
      - assert (Hu : u = 0) by nra. rewrite Hu, Rabs_R0. split; [|ring].
        rewrite Rmult_0_r, Rminus_0_r. apply Rabs_le. lra. }
    destruct K as [K1 K2].
    assert (K3 : (z - c * u) * b <= lamb * Rabs b).
    { apply Rle_trans with (Rabs ((z - c * u) * b)); [apply Rle_abs|]. rewrite Rabs_mult.
      apply Rmult_le_compat_r; [apply Rabs_pos|exact K1]. }
    unfold Rsqr. nra.
  Qed.

  (** the optimality condition for coordinate [j] with slack [e] *)
  Definition kkt (e : R) (b : nat -> R) (j : nat) : Prop :=
    let g := q j - mv n C b j in
    Rabs g <= lamb + e /\ lamb * Rabs (b j) - g * b j <= e * Rabs (b j).

  Lemma coord_kkt : forall b j, (j < n)%nat -> 0 < C j j ->
    kkt 0 (setf b j (soft (q j - (mv n C b j - b j * C j j)) lamb / C j j)) j.
  Proof.
    intros b j Hj Hc. unfold kkt. rewrite mv_setf by exact Hj. unfold setf. rewrite Nat.eqb_refl.
    set (z := q j - (mv n C b j - b j * C j j)). set (u := soft z lamb / C j j).
    assert (Eu : C j j * u = soft z lamb) by (unfold u; field; lra).
    replace (q j - (mv n C b j + C j j * (u - b j))) with (z - C j j * u) by (unfold z; ring).
    unfold soft in Eu. destruct (Rlt_dec z (- lamb)) as [H|H]; [|destruct (Rlt_dec lamb z) as [H'|H']].
    - assert (Hu : u < 0) by nra. rewrite Eu. rewrite (Rabs_left u) by lra. rewrite Rabs_left1 by lra. split; lra.
    - assert (Hu : 0 < u) by nra. rewrite Eu. rewrite (Rabs_right u) by lra. rewrite Rabs_right by lra. split; lra.
    - assert (Hu : u = 0) by nra. rewrite Hu, Rabs_R0. split; [|lra].
      rewrite Rmult_0_r, Rminus_0_r. apply Rabs_le. lra.
  Qed.

  Lemma coord_decrease : forall b j, (j < n)%nat -> 0 < C j j ->
    let u := soft (q j - (mv n C b j - b j * C j j)) lamb / C j j in
    obj n C q lamb (setf b j u) + C j j * Rsqr (u - b j) / 2 <= obj n C q lamb b.
  Proof.
    intros b j Hj Hc u. rewrite obj_setf by exact Hj.
    pose proof (coord_min (C j j) (q j - (mv n C b j - b j * C j j)) (b j) Hc) as H. cbv zeta in H. fold u in H.
    unfold Rsqr in *. nra.
  Qed.

  (** moving by at most [d] in every coordinate perturbs the condition by at most d * row sum *)
  Lemma kkt_perturb : forall b b' j d, (j < n)%nat -> b' j = b j -> (forall i, (i < n)%nat -> Rabs (b' i - b i) <= d) ->
    kkt 0 b j -> kkt (d * rsum n (fun i => Rabs (C j i))) b' j.
  Proof.
    intros b b' j d Hj E Hd [K1 K2]. unfold kkt. cbv zeta in *. rewrite E.
    set (g := q j - mv n C b j) in *. set (g' := q j - mv n C b' j).
    assert (Hg : Rabs (g' - g) <= d * rsum n (fun i => Rabs (C j i))).
    { replace (g' - g) with (- (mv n C b' j - mv n C b j)) by (unfold g, g'; ring). rewrite Rabs_Ropp.
      rewrite <- mv_minus. unfold mv. clear - Hd.
      assert (T : forall m, (m <= n)%nat -> Rabs (rsum m (fun k => C j k * (b' k - b k))) <= d * rsum m (fun i => Rabs (C j i))).
      { induction m as [|m IH]; intro Hm; cbn [rsum].
        - rewrite Rabs_R0. lra.
        - apply Rle_trans with (Rabs (rsum m (fun k => C j k * (b' k - b k))) + Rabs (C j m * (b' m - b m))); [apply Rabs_triang|].
          rewrite Rabs_mult. specialize (IH ltac:(lia)).
          assert (Rabs (C j m) * Rabs (b' m - b m) <= Rabs (C j m) * d).
          { apply Rmult_le_compat_l; [apply Rabs_pos|]. apply Hd. lia. }
          lra. }
      apply T. lia. }
    set (s := d * rsum n (fun i => Rabs (C j i))) in *. split.
    - apply Rle_trans with (Rabs g + Rabs (g' - g)).
      + replace g' with (g + (g' - g)) at 1 by ring. apply Rabs_triang.
      + lra.
    - assert (- ((g' - g) * b j) <= s * Rabs (b j)).
      { apply Rle_trans with (Rabs ((g' - g) * b j)); [rewrite <- Rabs_Ropp; apply Rle_abs|].
        rewrite Rabs_mult. apply Rmult_le_compat_r; [apply Rabs_pos|exact Hg]. }
      nra.
  Qed.

  Variable nr : nat.
  Variable cov : Mat XR.
  Hypothesis Hnr : (0 < nr)%nat.
  Hypothesis Hrows : mrows cov = n.
  Hypothesis Hcols : mcols cov = n.
  Hypothesis Hcov : rmat cov C.

  Let XTy : list XR := vec n (fun j => INR nr * q j).

  Lemma INRnr : INR nr <> 0.
  Proof. apply not_0_INR. lia. Qed.

  Lemma coord_xr : forall b betaOld j, (j < n)%nat -> C j j <> 0 -> length betaOld = n -> nth j betaOld n0 = fin (b j) ->
    crd_coord nr cov XTy betaOld (fin lamb : XR) PureLasso j (vec n (mv n C b), vec n b) =
    (let u := soft (q j - (mv n C b j - b j * C j j)) lamb / C j j in
     Ok (vec n (mv n C (setf b j u)), vec n (setf b j u))).
  Proof.
    intros b betaOld j Hj Hc Ho Eo. cbv zeta.
    destruct (coord_ok XR n nr cov XTy betaOld (fin lamb) PureLasso j (vec n (mv n C b)) (vec n b))
      as (d & cdb' & Ed & E & A & B); auto; try (apply vec_length); try exact I.
    assert (d = n0) by (cbn [Deriv] in Ed; congruence). subst d.
    assert (En : new_coeff XR nr cov XTy betaOld (vec n (mv n C b)) (fin lamb) n0 j
                 = fin (soft (q j - (mv n C b j - b j * C j j)) lamb / C j j)).
    { unfold new_coeff, XTy. rewrite !vec_nth by exact Hj. rewrite Eo.
      rewrite (Hcov j j) by lia. rewrite nofnat_fin, xdiv_fin by apply INRnr.
      rewrite n0_fin, xmul_fin, !xsub_fin. rewrite soft_fin by exact Hl. rewrite xdiv_fin by exact Hc.
      f_equal. f_equal. f_equal. field. apply INRnr. }
    rewrite En in E, B. rewrite E. rewrite upd_vec by exact Hj. f_equal. f_equal.
    apply vec_eq; [exact A|]. intros i Hi. rewrite B by exact Hi. rewrite vec_nth by exact Hi.
    rewrite (Hcov i j) by lia. rewrite Eo, xsub_fin, xmul_fin, xadd_fin. rewrite mv_setf by exact Hj. reflexivity.
  Qed.

  Definition moved (iter : list nat) (b b' : nat -> R) : R :=
    lsum (map (fun j => C j j * Rsqr (b' j - b j) / 2) iter).

  Lemma sweep_xr : forall iter b betaOld, NoDup iter -> (forall j, In j iter -> (j < n)%nat /\ 0 < C j j) ->
    length betaOld = n -> (forall j, In j iter -> nth j betaOld n0 = fin (b j)) ->
    exists b', for_each iter (crd_coord nr cov XTy betaOld (fin lamb : XR) PureLasso) (vec n (mv n C b), vec n b)
      = Ok (vec n (mv n C b'), vec n b') /\
      (forall j, ~ In j iter -> b' j = b j) /\
      obj n C q lamb b' + moved iter b b' <= obj n C q lamb b /\
      (forall d, 0 <= d -> (forall i, In i iter -> Rabs (b' i - b i) <= d) ->
         forall j, In j iter -> kkt (d * rsum n (fun i => Rabs (C j i))) b' j).
  Proof.
    induction iter as [|j iter IH]; intros b betaOld Hnd Hin Hlen Hold.
    - exists b. cbn [for_each]. split; [reflexivity|]. split; [reflexivity|]. split.
      + unfold moved. cbn [map]. rewrite lsum_nil. lra.
      + intros d _ _ j [].
    - destruct (Hin j (or_introl eq_refl)) as [Hj Hc]. inversion Hnd as [|? ? Hni Hnd']; subst.
      cbn [for_each]. rewrite (coord_xr b betaOld j Hj) by (auto; try lra; apply Hold; left; reflexivity).
      cbv zeta. cbn [bind].
      set (u := soft (q j - (mv n C b j - b j * C j j)) lamb / C j j).
      destruct (IH (setf b j u) betaOld Hnd') as (b' & E & F & D & K).
      + intros k Hk. apply Hin. right. exact Hk.
      + exact Hlen.
      + intros k Hk. rewrite Hold by (right; exact Hk). unfold setf.
        destruct (Nat.eqb_spec k j); [subst; contradiction|reflexivity].
      + assert (Ej : b' j = u) by (rewrite F by exact Hni; unfold setf; rewrite Nat.eqb_refl; reflexivity).
        assert (Eo : forall k, k <> j -> setf b j u k = b k).
        { intros k Hk. unfold setf. destruct (Nat.eqb_spec k j); [contradiction|reflexivity]. }
        exists b'. split; [exact E|]. split; [|split].
        * intros k Hk. rewrite F by (intro; apply Hk; right; assumption). apply Eo.
          intro; subst; apply Hk; left; reflexivity.
        * pose proof (coord_decrease b j Hj Hc) as Hd. cbv zeta in Hd. fold u in Hd.
          unfold moved in *. cbn [map]. rewrite lsum_cons, Ej.
          rewrite (map_ext_in _ (fun j0 => C j0 j0 * Rsqr (b' j0 - setf b j u j0) / 2)).
          -- lra.
          -- intros k Hk. rewrite Eo; [reflexivity|]. intro; subst; contradiction.
        * intros d Hd0 Hd k [<-|Hk].
          -- apply kkt_perturb with (b := setf b j u); [exact Hj| |intros i Hi|apply coord_kkt; assumption].
             ++ rewrite Ej. unfold setf. rewrite Nat.eqb_refl. reflexivity.
             ++ destruct (in_dec Nat.eq_dec i iter) as [Hii|Hii].
                ** rewrite Eo by (intro; subst; contradiction). apply Hd. right. exact Hii.
                ** rewrite F by exact Hii. rewrite Rminus_eq_0, Rabs_R0. exact Hd0.
          -- apply K; [exact Hd0| |exact Hk]. intros i Hi. rewrite Eo by (intro; subst; contradiction).
             apply Hd. right. exact Hi.
  Qed.

  (** the change test *)
  Lemma change_xr : forall iter b b', (forall j, In j iter -> (j < n)%nat) ->
    exists m M, crd_change (vec n b') (vec n b) iter = Ok (fin m : XR, fin M : XR) /\ 0 <= m /\ 0 <= M /\
      (forall j, In j iter -> Rabs (b' j - b j) <= m) /\ (forall j, In j iter -> Rabs (b' j) <= M) /\
      (M = 0 \/ exists j, In j iter /\ M = Rabs (b' j)).
  Proof.
    intros iter b b' Hin. unfold crd_change.
    assert (G : forall l m0 M0, (forall j, In j l -> (j < n)%nat) -> 0 <= m0 -> 0 <= M0 ->
      exists m M, for_each l (fun j (st : XR * XR) => let '(mc, mx) := st in
        do x <- getn (vec n b') j; do o <- getn (vec n b) j;
        Ok (if nltb mc (nabs (x - o)%num) then nabs (x - o)%num else mc,
            if nltb mx (nabs x) then nabs x else mx)) (fin m0 : XR, fin M0 : XR) = Ok (fin m : XR, fin M : XR) /\
        m0 <= m /\ M0 <= M /\
        (forall j, In j l -> Rabs (b' j - b j) <= m) /\ (forall j, In j l -> Rabs (b' j) <= M) /\
        (M = M0 \/ exists j, In j l /\ M = Rabs (b' j))).
    { induction l as [|j l IH]; intros m0 M0 Hl' H1 H2.
      - exists m0, M0. cbn [for_each]. split; [reflexivity|]. split; [lra|]. split; [lra|].
        split; [intros j []|]. split; [intros j []|]. left; reflexivity.
      - cbn [for_each]. assert (Hj : (j < n)%nat) by (apply Hl'; left; reflexivity).
        rewrite (getn_lt _ (vec n b') j n0) by (rewrite vec_length; exact Hj).
        rewrite (getn_lt _ (vec n b) j n0) by (rewrite vec_length; exact Hj).
        rewrite !vec_nth by exact Hj. cbn [bind]. rewrite xsub_fin, !xabs_fin.
        replace (if nltb (n := XR) (fin m0) (fin (Rabs (b' j - b j))) then fin (Rabs (b' j - b j)) else fin m0)
          with (fin (Rmax m0 (Rabs (b' j - b j)))).
        2:{ cbn [nltb XR xltb fin]. unfold Rltb, Rmax. destruct (Rlt_dec m0 _), (Rle_dec m0 _); try reflexivity; f_equal; lra. }
        replace (if nltb (n := XR) (fin M0) (fin (Rabs (b' j))) then fin (Rabs (b' j)) else fin M0)
          with (fin (Rmax M0 (Rabs (b' j)))).
        2:{ cbn [nltb XR xltb fin]. unfold Rltb, Rmax. destruct (Rlt_dec M0 _), (Rle_dec M0 _); try reflexivity; f_equal; lra. }
        pose proof (Rmax_l m0 (Rabs (b' j - b j))). pose proof (Rmax_r m0 (Rabs (b' j - b j))).
        pose proof (Rmax_l M0 (Rabs (b' j))). pose proof (Rmax_r M0 (Rabs (b' j))).
        destruct (IH (Rmax m0 (Rabs (b' j - b j))) (Rmax M0 (Rabs (b' j)))) as (m & M & E & A1 & A2 & A3 & A4 & A5).
        + intros k Hk. apply Hl'. right. exact Hk.
        + lra.
        + lra.
        + exists m, M. split; [exact E|]. split; [lra|]. split; [lra|]. split; [|split].
          * intros k [<-|Hk]; [lra|apply A3; exact Hk].
          * intros k [<-|Hk]; [lra|apply A4; exact Hk].
          * destruct A5 as [A5|(k & Hk & A5)]; [|right; exists k; split; [right; exact Hk|exact A5]].
            unfold Rmax in A5. destruct (Rle_dec M0 (Rabs (b' j))); [|left; exact A5].
            right. exists j. split; [left; reflexivity|exact A5]. }
    destruct (G iter 0 0 Hin ltac:(lra) ltac:(lra)) as (m & M & E & A1 & A2 & A3 & A4 & A5).
    exists m, M. repeat (split; [assumption|]). exact A5.
  Qed.

  Lemma conv_xr : forall m M (tol : R), 0 <= m -> 0 <= M ->
    nltb (n := XR) (fin m / fin M)%num (fin tol) = true -> 0 < M /\ m < tol * M.
  Proof.
    intros m M tol Hm HM H. destruct (Req_dec M 0) as [->|Hne].
    - exfalso. unfold ndiv, XR, xdiv, fin in H. rewrite Reqb_refl in H. cbn [xsgn] in H.
      destruct (Rltb m 0) eqn:E2; [apply Rltb_true in E2; lra|].
      destruct (Rltb 0 m); discriminate H.
    - rewrite xdiv_fin in H by exact Hne. cbn [nltb XR xltb fin] in H. apply Rltb_true in H.
      split; [lra|]. apply Rmult_lt_compat_r with (r := M) in H; [|lra].
      replace (m / M * M) with m in H by (field; exact Hne). exact H.
  Qed.
End Step.

(** Information criteria, design matrices of nested models and the bounds. *)
From Coq Require Import Reals Lra Psatz.
From Verif Require Import Base Num Mat Model_Node Proof_Node Proof_Node2 Proof_Models RSum Proof_XR
  Proof_Util Proof_Norm Model_Fit Spec_Fit Proof_Fit.
Open Scope R_scope.

(** ** the criteria *)
Definition xle (a b : XR) : Prop := nleb a b = true.

Lemma xle_fin : forall a b, xle (fin a) (fin b) <-> a <= b.
Proof.
  intros a b. unfold xle. cbn. unfold xleb. cbn. rewrite Bool.negb_true_iff, Rltb_false. lra.
Qed.

Lemma xle_ninf : forall x : XR, nisnan x = false -> xle (XNInf : XR) x.
Proof. intros [| | |r] H; try discriminate H; reflexivity. Qed.

Lemma xle_refl : forall x : XR, nisnan x = false -> xle x x.
Proof.
  intros [| | |r] H; try discriminate H; try reflexivity.
  change (xle (fin r) (fin r)). apply xle_fin. lra.
Qed.

Lemma xle_trans : forall a b c, xle a b -> xle b c -> xle a c.
Proof.
  intros [| | |a] [| | |b] [| | |c]; unfold xle; cbn; unfold xleb; cbn; auto; try discriminate.
  rewrite !Bool.negb_true_iff, !Rltb_false. lra.
Qed.

(** n log(rss) *)
Definition nlogr (n : Z) (r : R) : XR := if Rltb 0 r then fin (IZR n * ln r) else XNInf.

Lemma nlogr_eq : forall n r, (1 <= n)%Z -> 0 <= r ->
  nmul (n := XR) (nofZ n) (nlog (fin r)) = nlogr n r.
Proof.
  intros n r Hn Hr. unfold nlogr. apply IZR_le in Hn. destruct (Rltb 0 r) eqn:E.
  - apply Rltb_true in E. rewrite xlog_fin by auto. reflexivity.
  - apply Rltb_false in E. assert (r = 0) by lra. subst r. cbn. unfold xlog.
    rewrite (proj2 (Rltb_false 0 0)) by lra. unfold xmul. cbn.
    rewrite (proj2 (Rltb_false (IZR n) 0)) by lra.
    rewrite (proj2 (Rltb_true 0 (IZR n))) by lra. reflexivity.
Qed.

Lemma ln_mono : forall a b, 0 < a -> a <= b -> ln a <= ln b.
Proof. intros a b Ha [H| ->]; [left; apply ln_increasing; auto|lra]. Qed.

(** a + n log r is monotone in both *)
Lemma pen_mono : forall a b n r r', a <= b -> (1 <= n)%Z -> 0 <= r -> r <= r' ->
  xle (nadd (n := XR) (fin a) (nlogr n r)) (nadd (n := XR) (fin b) (nlogr n r')).
Proof.
  intros a b n r r' Hab Hn Hr Hrr. apply IZR_le in Hn. unfold nlogr.
  destruct (Rltb 0 r) eqn:E.
  - apply Rltb_true in E. rewrite (proj2 (Rltb_true 0 r')) by lra. rewrite !xadd_fin. apply xle_fin.
    pose proof (ln_mono r r' E Hrr). nra.
  - change (nadd (n := XR) (fin a) XNInf) with (XNInf : XR). apply xle_ninf.
    destruct (Rltb 0 r'); reflexivity.
Qed.

(** the penalty terms *)
Definition pen_aic (k : Z) : R := 2 * IZR k.
Definition pen_aicc (k n : Z) : R :=
  2 * IZR k + IZR (2 * k * k + 2 * k) / (if (n - 1 <=? k)%Z then 1 else IZR (n - k - 1)).
Definition pen_bic (k n : Z) : R := IZR k * ln (IZR n).

Lemma aic_xr : forall k n r, (1 <= n)%Z -> 0 <= r ->
  Aic k n (fin r) = nadd (n := XR) (fin (pen_aic k)) (nlogr n r).
Proof. intros k n r Hn Hr. unfold Aic. rewrite nlogr_eq by auto. reflexivity. Qed.

Lemma xadd_assoc3 : forall a b n r,
  nadd (n := XR) (nadd (n := XR) (fin a) (nlogr n r)) (fin b) = nadd (n := XR) (fin (a + b)) (nlogr n r).
Proof.
  intros. unfold nlogr. destruct (Rltb 0 r); [|reflexivity]. rewrite !xadd_fin. f_equal. ring.
Qed.

Lemma aicc_xr : forall k n r, (1 <= n)%Z -> 0 <= r ->
  Aicc k n (fin r) = nadd (n := XR) (fin (pen_aicc k n)) (nlogr n r).
Proof.
  intros k n r Hn Hr. unfold Aicc. rewrite aic_xr by auto.
  assert (E : ndiv (n := XR) (nofZ (2 * k * k + 2 * k))
      (if (n - 1 <=? k)%Z then n1 else nofZ (n - k - 1)) =
      fin (IZR (2 * k * k + 2 * k) / (if (n - 1 <=? k)%Z then 1 else IZR (n - k - 1)))).
  { destruct (Z.leb_spec (n - 1) k).
    - rewrite nofZ_fin, n1_fin. apply xdiv_fin. lra.
    - rewrite !nofZ_fin. apply xdiv_fin. assert (0 < n - k - 1)%Z by lia. apply IZR_lt in H0. lra. }
  cbv zeta. rewrite E. apply xadd_assoc3.
Qed.

Lemma bic_xr : forall k n r, (1 <= n)%Z -> 0 <= r ->
  Bic k n (fin r) = nadd (n := XR) (fin (pen_bic k n)) (nlogr n r).
Proof.
  intros k n r Hn Hr. unfold Bic. rewrite nlogr_eq by auto. f_equal.
  rewrite !nofZ_fin, xlog_fin by (apply IZR_le in Hn; lra). reflexivity.
Qed.

Lemma pen_aicc_mono : forall k k' n, (0 <= k <= k')%Z -> pen_aicc k n <= pen_aicc k' n.
Proof.
  intros k k' n H. unfold pen_aicc.
  assert (Hk : IZR k <= IZR k') by (apply IZR_le; lia).
  assert (H0 : 0 <= IZR k) by (apply (IZR_le 0); lia).
  assert (Hp : 0 <= IZR (2 * k * k + 2 * k) <= IZR (2 * k' * k' + 2 * k')).
  { split; [apply (IZR_le 0)|apply IZR_le]; nia. }
  set (p := IZR (2 * k * k + 2 * k)) in *. set (q := IZR (2 * k' * k' + 2 * k')) in *.
  assert (D : forall a b, 1 <= b -> b <= a -> p / a <= q / b).
  { intros a b Hb Hab. apply Rle_trans with (p / b).
    - unfold Rdiv. apply Rmult_le_compat_l; [lra|]. apply Rinv_le_contravar; lra.
    - unfold Rdiv. apply Rmult_le_compat_r; [|lra]. left. apply Rinv_0_lt_compat. lra. }
  destruct (Z.leb_spec (n - 1) k) as [A|A]; destruct (Z.leb_spec (n - 1) k') as [B|B]; try lia.
  - specialize (D 1 1). lra.
  - assert (1 <= IZR (n - k - 1)) by (apply (IZR_le 1); lia). specialize (D (IZR (n - k - 1)) 1). lra.
  - assert (1 <= IZR (n - k' - 1)) by (apply (IZR_le 1); lia).
    assert (IZR (n - k' - 1) <= IZR (n - k - 1)) by (apply IZR_le; lia).
    specialize (D (IZR (n - k - 1)) (IZR (n - k' - 1))). lra.
Qed.

Lemma pen_aicc_ge : forall k n, (0 <= k)%Z -> pen_aic k <= pen_aicc k n.
Proof.
  intros k n H. unfold pen_aic, pen_aicc.
  assert (0 <= IZR (2 * k * k + 2 * k)) by (apply (IZR_le 0); nia).
  assert (0 <= IZR (2 * k * k + 2 * k) / (if (n - 1 <=? k)%Z then 1 else IZR (n - k - 1))); [|lra].
  apply Rle_mult_inv_pos; auto. destruct (Z.leb_spec (n - 1) k); [lra|].
  apply (IZR_lt 0). lia.
Qed.

(** what the bounds need of a criterion *)
Definition mono_crit (c : Z -> Z -> XR -> XR) : Prop :=
  forall k k' n r r', (0 <= k <= k')%Z -> (1 <= n)%Z -> 0 <= r <= r' ->
    xle (c k n (fin r)) (c k' n (fin r')).

Lemma aic_mono : mono_crit Aic.
Proof.
  intros k k' n r r' Hk Hn Hr. rewrite !aic_xr by (auto; lra). apply pen_mono; auto; try lra.
  unfold pen_aic. assert (IZR k <= IZR k') by (apply IZR_le; lia). lra.
Qed.
Lemma aicc_mono : mono_crit Aicc.
Proof.
  intros k k' n r r' Hk Hn Hr. rewrite !aicc_xr by (auto; lra). apply pen_mono; auto; try lra.
  apply pen_aicc_mono; auto.
Qed.
Lemma bic_mono : mono_crit Bic.
Proof.
  intros k k' n r r' Hk Hn Hr. rewrite !bic_xr by (auto; lra). apply pen_mono; auto; try lra.
  unfold pen_bic. assert (IZR k <= IZR k') by (apply IZR_le; lia).
  apply Rmult_le_compat_r; auto. rewrite <- ln_1. apply ln_mono; [lra|]. apply (IZR_le 1); auto.
Qed.

(** ** coefficient vectors of nested models *)
Fixpoint spread (m : list bool) (w : list R) : list R :=
  match m with
  | [] => []
  | true :: m => hd 0 w :: spread m (tl w)
  | false :: m => 0 :: spread m w
  end.

Definition selcol (m : list bool) (k : nat) : nat := Z.to_nat (nth k (sel_from 0 m) 0%Z).

Lemma sel_from_shift : forall m i k, (k < NumFeatures m)%nat ->
  nth k (sel_from i m) 0%Z = (Z.of_nat i + nth k (sel_from 0 m) 0)%Z.
Proof.
  induction m as [|b m IH]; intros i k Hk; [cbn in Hk; lia|].
  rewrite NumFeatures_cons in Hk. destruct b; cbn [sel_from].
  - destruct k as [|k]; cbn [nth]; [lia|]. rewrite (IH (S i)), (IH 1%nat) by lia. lia.
  - rewrite (IH (S i)), (IH 1%nat) by lia. lia.
Qed.

Lemma selcol_nonneg : forall m k, (k < NumFeatures m)%nat -> (0 <= nth k (sel_from 0 m) 0)%Z.
Proof.
  intros m k H. destruct (nth_error_sel m k H) as (i & E & _). rewrite E. lia.
Qed.

Lemma selcol_true_0 : forall m, selcol (true :: m) 0 = O.
Proof. reflexivity. Qed.
Lemma selcol_true_S : forall m k, (k < NumFeatures m)%nat -> selcol (true :: m) (S k) = S (selcol m k).
Proof.
  intros m k H. unfold selcol. cbn [sel_from nth]. rewrite sel_from_shift by auto.
  pose proof (selcol_nonneg m k H). lia.
Qed.
Lemma selcol_false : forall m k, (k < NumFeatures m)%nat -> selcol (false :: m) k = S (selcol m k).
Proof.
  intros m k H. unfold selcol. cbn [sel_from]. rewrite sel_from_shift by auto.
  pose proof (selcol_nonneg m k H). lia.
Qed.

Lemma spread_sum : forall m w (g : nat -> R), length w = NumFeatures m ->
  rsum (NumFeatures m) (fun k => g (selcol m k) * nth k w 0) =
  rsum (length m) (fun j => g j * nth j (spread m w) 0).
Proof.
  induction m as [|b m IH]; intros w g Hw; [reflexivity|].
  rewrite NumFeatures_cons in *. cbn [length]. rewrite rsum_shift. destruct b.
  - destruct w as [|a w]; [cbn in Hw; lia|]. cbn [length Nat.add] in Hw. cbn [Nat.add].
    rewrite rsum_shift. cbn [spread nth hd tl]. f_equal.
    rewrite <- (IH w (fun j => g (S j))) by lia. apply rsum_ext. intros k Hk.
    rewrite selcol_true_S by auto. reflexivity.
  - cbn [Nat.add] in *. cbn [spread nth]. rewrite Rmult_0_r, Rplus_0_l.
    rewrite <- (IH w (fun j => g (S j))) by lia. apply rsum_ext. intros k Hk.
    rewrite selcol_false by auto. reflexivity.
Qed.

Lemma spread_support : forall m w j, nth j m false = false -> nth j (spread m w) 0 = 0.
Proof.
  induction m as [|b m IH]; intros w [|j] H; cbn in *; auto.
  - subst b. reflexivity.
  - destruct b; cbn; apply IH; auto.
Qed.

Definition gather (m : list bool) (beta : nat -> R) : list R :=
  map (fun k => beta (selcol m k)) (seq 0 (NumFeatures m)).

Lemma gather_length : forall m b, length (gather m b) = NumFeatures m.
Proof. intros. unfold gather. rewrite map_length, seq_length. reflexivity. Qed.

Lemma spread_gather : forall m b j, (j < length m)%nat -> (nth j m false = false -> b j = 0) ->
  nth j (spread m (gather m b)) 0 = b j.
Proof.
  induction m as [|x m IH]; intros b j Hj Hb; [cbn in Hj; lia|].
  destruct x.
  - assert (E : gather (true :: m) b = b O :: gather m (fun i => b (S i))).
    { unfold gather. rewrite NumFeatures_cons. cbn [Nat.add seq map]. f_equal.
      rewrite <- seq_shift, map_map. apply map_ext_in. intros k Hk. apply in_seq in Hk.
      rewrite selcol_true_S by lia. reflexivity. }
    rewrite E. cbn [spread hd tl]. destruct j as [|j]; [reflexivity|]. cbn [nth].
    rewrite (IH (fun i => b (S i)) j); auto. cbn in Hj; lia.
  - assert (E : gather (false :: m) b = gather m (fun i => b (S i))).
    { unfold gather. rewrite NumFeatures_cons. cbn [Nat.add].
      apply map_ext_in. intros k Hk. apply in_seq in Hk. rewrite selcol_false by lia. reflexivity. }
    rewrite E. cbn [spread]. destruct j as [|j]; [cbn [nth]; symmetry; apply Hb; reflexivity|]. cbn [nth].
    rewrite (IH (fun i => b (S i)) j); auto. cbn in Hj; lia.
Qed.

(** the columns a model selects *)
Definition sub (A : nat -> nat -> R) (m : list bool) : nat -> nat -> R := fun i k => A i (selcol m k).

Lemma design_xr : forall X A m, rmat X A -> (0 < mrows X)%nat -> (0 < NumFeatures m)%nat ->
  (length m <= mcols X)%nat ->
  exists D, GetDesignMatrix m X = Ok D /\ mrows D = mrows X /\ mcols D = NumFeatures m /\
    rmat D (sub A m).
Proof.
  intros X A m HA Hr Hf Hl.
  destruct (design_gen XR m X Hr ltac:(lia)) as [(_ & i & Hi & Hc)|(D & E & H1 & H2 & H3 & H4)].
  - assert (i < length m)%nat; [|lia]. destruct (Nat.ltb_spec i (length m)); auto.
    rewrite nth_overflow in Hi by auto. discriminate.
  - exists D. split; auto. split; auto. split; auto. intros i k Hi Hk. rewrite H4 by lia.
    apply HA; [lia|].
    destruct (nth_error_sel m k ltac:(lia)) as (j & Ej & Hj & Hb). rewrite Ej, Nat2Z.id. lia.
Qed.

Lemma nested_rss : forall A a b rows y w, length a = length b -> incl_model a b ->
  length w = NumFeatures a ->
  exists w', length w' = NumFeatures b /\
    rss rows (NumFeatures b) (sub A b) w' y = rss rows (NumFeatures a) (sub A a) w y.
Proof.
  intros A a b rows y w Hl Hi Hw.
  set (beta := fun j => nth j (spread a w) 0). exists (gather b beta). split; [apply gather_length|].
  apply rsum_ext. intros i _. f_equal. f_equal. unfold sub.
  rewrite (spread_sum a w (A i) Hw), (spread_sum b (gather b beta) (A i) (gather_length _ _)).
  rewrite Hl. apply rsum_ext. intros j Hj. f_equal. apply spread_gather; [lia|].
  intro Hb. apply spread_support. destruct (nth j a false) eqn:E; auto.
  apply Hi in E. congruence.
Qed.

Lemma zero_rss : forall A m rows y, length y = rows ->
  rss rows (NumFeatures m) (sub A m) (repeat 0 (NumFeatures m)) y = lsum (map Rsqr y).
Proof.
  intros A m rows y Hy. rewrite lsum_rsum, map_length, Hy. apply rsum_ext. intros i Hi.
  rewrite rsum_0'.
  - rewrite (nth_map_lt _ _ Rsqr y i 0) by lia. unfold Rsqr. ring.
  - intros j Hj. rewrite nth_repeat. ring.
Qed.

Section Nested.
Variables (svd : Mat XR -> SVD XR) (X : Mat XR) (A : nat -> nat -> R) (y : list R).
Hypothesis (HA : rmat X A) (Hr : (0 < mrows X)%nat) (Hy : length y = mrows X) (Hsvd : good_svd svd X).

Lemma model_fit : forall m, length m = mcols X -> (0 < NumFeatures m)%nat ->
  exists D w r, GetDesignMatrix m X = Ok D /\ Fit svd D (fins y) = Ok (fins w) /\
    Rss D (fins w) (fins y) = Ok (fin r) /\ length w = NumFeatures m /\
    r = rss (mrows X) (NumFeatures m) (sub A m) w y /\ 0 <= r /\
    (forall w', length w' = NumFeatures m -> r <= rss (mrows X) (NumFeatures m) (sub A m) w' y) /\
    r <= lsum (map Rsqr y).
Proof.
  intros m Hl Hf.
  destruct (design_xr X A m HA Hr Hf ltac:(lia)) as (D & ED & RD & CD & QD).
  destruct (Hsvd m D Hl ED) as (HS & HT).
  destruct (fit_min svd D (sub A m) y QD HS HT ltac:(lia) ltac:(lia)) as (w & EF & Lw & ER & _ & HM).
  rewrite RD, CD in *.
  set (r := rss (mrows X) (NumFeatures m) (sub A m) w y) in *.
  assert (HMin : forall w', length w' = NumFeatures m -> r <= rss (mrows X) (NumFeatures m) (sub A m) w' y).
  { intros w' Hw'. rewrite (HM w' Hw').
    assert (0 <= rsum (mrows X) (fun i => Rsqr (rsum (NumFeatures m) (fun j => sub A m i j * (nth j w' 0 - nth j w 0))))).
    { apply rsum_nonneg. intros; apply Rle_0_sqr. } lra. }
  exists D, w, r. repeat (split; auto).
  - apply rss_nonneg.
  - rewrite <- (zero_rss A m (mrows X) y Hy). apply HMin. apply repeat_length.
Qed.

(** more features, smaller residual *)
Lemma nested_le : forall a b ra rb, length a = mcols X -> length b = mcols X -> incl_model a b ->
  (exists w, length w = NumFeatures a /\ ra = rss (mrows X) (NumFeatures a) (sub A a) w y) ->
  (forall w', length w' = NumFeatures b -> rb <= rss (mrows X) (NumFeatures b) (sub A b) w' y) ->
  rb <= ra.
Proof.
  intros a b ra rb La Lb Hi (w & Lw & ->) Hb.
  destruct (nested_rss A a b (mrows X) y w ltac:(lia) Hi Lw) as (w' & Lw' & E). rewrite <- E. auto.
Qed.

Lemma bounds_valid : forall c model start g,
  mono_crit c ->
  length model = mcols X -> (0 <= start <= Z.of_nat (length model))%Z ->
  Gcs model start = Ok g -> (0 < NumFeatures g)%nat ->
  lsum (map Rsqr y) <= IZR ((2 ^ 53 - 1) * 2 ^ 971) ->
  exists lower upper, bounds svd model start X (fins y) c = Ok (lower, upper) /\
    forall m, agree_upto (Z.to_nat start) model m -> (0 < NumFeatures m)%nat ->
      exists v, criterion svd c X (fins y) m = Ok v /\ xle v upper /\
        ((NumFeatures g < mrows X)%nat -> xle lower v) /\
        ((forall D w r, GetDesignMatrix m X = Ok D -> Fit svd D (fins y) = Ok w ->
            Rss D w (fins y) = Ok r -> xle RssTol r) -> xle lower v).
Proof.
  intros c model start g Hc Hl Hs Hg Hgf Hmax.
  destruct (gcs_lcs_extremal model start Hs) as (g' & l & Eg & El & (Lg & _) & (Ll & _) & Hext).
  rewrite Hg in Eg. injection Eg as <-.
  destruct (model_fit g ltac:(lia) Hgf) as (Dg & wg & rg & EDg & EFg & ERg & Lwg & Erg & Pg & Mg & _).
  set (rl := if (0 <? NumFeatures l)%nat then
      match (do D <- GetDesignMatrix l X; do w <- Fit svd D (fins y); Rss D w (fins y)) with
      | Ok (XFin r) => r | _ => 0 end else IZR ((2 ^ 53 - 1) * 2 ^ 971)).
  assert (HL : (if (0 <? NumFeatures l)%nat then
      (do XLcs <- GetDesignMatrix l X; do coeff <- Fit svd XLcs (fins y); Rss XLcs coeff (fins y))
      else Ok nmaxf) = Ok (fin rl) /\ 0 <= rl /\
      forall m, agree_upto (Z.to_nat start) model m -> (0 < NumFeatures m)%nat ->
      forall rm, rm <= lsum (map Rsqr y) ->
        (forall w', length w' = NumFeatures m -> rm <= rss (mrows X) (NumFeatures m) (sub A m) w' y) ->
        rm <= rl).
  { unfold rl. destruct (Nat.ltb_spec 0 (NumFeatures l)) as [Hlf|Hlf].
    - destruct (model_fit l ltac:(lia) Hlf) as (Dl & wl & rr & EDl & EFl & ERl & Lwl & Erl & Pl & Ml & _).
      rewrite EDl. cbn [bind]. rewrite EFl. cbn [bind]. rewrite ERl. cbn [fin]. split; auto. split; auto.
      intros m Hm Hmf rm _ Hrm. destruct (Hext m Hm) as (I1 & I2 & _). destruct Hm as (Lm & _).
      apply (nested_le l m rr rm ltac:(lia) ltac:(lia) I1); auto. exists wl; auto.
    - split; [reflexivity|]. split; [apply (IZR_le 0); discriminate|].
      intros m Hm Hmf rm H _. lra. }
  destruct HL as (HL1 & HL2 & HL3).
  set (rG := if (NumFeatures g <? mrows X)%nat then rg else / 1000000000000).
  assert (HG : (if (NumFeatures g <? mrows X)%nat then
      (do XGcs <- GetDesignMatrix g X; do coeff <- Fit svd XGcs (fins y); Rss XGcs coeff (fins y))
      else Ok RssTol) = Ok (fin rG) /\ 0 <= rG).
  { unfold rG. destruct (Nat.ltb_spec (NumFeatures g) (mrows X)) as [H|H].
    - rewrite EDg. cbn [bind]. rewrite EFg. cbn [bind]. rewrite ERg. auto.
    - split; [|lra]. unfold RssTol. cbn. unfold xdec. cbn. unfold fin. do 2 f_equal. lra. }
  destruct HG as (HG1 & HG2).
  unfold bounds. rewrite Hg, El. cbn [bind]. cbv zeta. rewrite HL1. cbn [bind]. rewrite HG1. cbn [bind].
  eexists; eexists; split; [reflexivity|]. rewrite !fins_length.
  intros m Hm Hmf. destruct (Hext m Hm) as (I1 & I2 & I3).
  assert (Lm : length m = mcols X) by (destruct Hm; lia).
  destruct (model_fit m Lm Hmf) as (D & w & r & ED & EF & ER & Lw & Er & Pr & Mr & Zr).
  exists (c (Z.of_nat (NumFeatures m)) (Z.of_nat (length y)) (fin r)).
  split; [|split; [|split]].
  - unfold criterion. rewrite ED. cbn [bind]. rewrite EF. cbn [bind]. rewrite ER. cbn [bind].
    rewrite fins_length. reflexivity.
  - apply Hc; [lia|lia|]. split; auto. apply (HL3 m); auto.
  - intro Hlt. apply Hc; [lia|lia|]. split; auto. unfold rG.
    rewrite (proj2 (Nat.ltb_lt _ _) Hlt). apply (nested_le m g r rg); auto; [lia|]. exists w; auto.
  - intro Htol. specialize (Htol D (fins w) (fin r) ED EF ER).
    apply Hc; [lia|lia|]. split; auto. unfold rG.
    destruct (Nat.ltb_spec (NumFeatures g) (mrows X)).
    + apply (nested_le m g r rg); auto; [lia|]. exists w; auto.
    + replace (RssTol (N := XR)) with (fin (/ 1000000000000)) in Htol.
      * apply xle_fin in Htol. auto.
      * unfold RssTol. cbn. unfold xdec. cbn. unfold fin. f_equal. lra.
Qed.
End Nested.

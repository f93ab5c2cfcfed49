(** Binary64 multiplication and conversion, in terms of real numbers (through Flocq). *)
From Coq Require Import Reals Lra SpecFloat ZArith Lia Psatz.
From Flocq Require Import Core BinarySingleNaN.
From Verif Require Import Base Num.
Local Open Scope R_scope.

#[global] Instance prec53 : Prec_gt_0 53 := eq_refl.
#[global] Instance prec1024 : Prec_lt_emax 53 1024 := eq_refl.
Notation rnd64 := (round radix2 (fexp 53 1024) (round_mode mode_NE)).
Notation fmt64 := (generic_format radix2 (fexp 53 1024)).

(** the rounding function of SpecFloat is the one of Flocq for nearest, ties to even *)
Lemma rne_eq : forall sx m l, choice_mode mode_NE sx m l = round_nearest_even m l.
Proof. intros sx m [|[ | | ]]; cbn; try reflexivity. destruct (Z.even m); reflexivity. Qed.

Lemma bra_eq : forall sx mx ex lx,
  SpecFloat.binary_round_aux 53 1024 sx mx ex lx = BinarySingleNaN.binary_round_aux 53 1024 mode_NE sx mx ex lx.
Proof.
  intros sx mx ex lx. unfold SpecFloat.binary_round_aux, BinarySingleNaN.binary_round_aux.
  destruct (shr_fexp 53 1024 mx ex lx) as (mrs & e). rewrite rne_eq.
  destruct (shr_fexp 53 1024 (round_nearest_even (shr_m mrs) (loc_of_shr_record mrs)) e loc_Exact) as (mrs' & e').
  destruct (shr_m mrs'); reflexivity.
Qed.

Lemma mul_spec : forall sx mx ex sy my ey, bounded 53 1024 mx ex = true -> bounded 53 1024 my ey = true ->
  Rabs (rnd64 (SF2R radix2 (S754_finite sx mx ex) * SF2R radix2 (S754_finite sy my ey))) < bpow radix2 1024 ->
  let z := SFmul 53 1024 (S754_finite sx mx ex) (S754_finite sy my ey) in
  valid_binary 53 1024 z = true /\ is_finite_SF z = true /\
  SF2R radix2 z = rnd64 (SF2R radix2 (S754_finite sx mx ex) * SF2R radix2 (S754_finite sy my ey)).
Proof.
  intros sx mx ex sy my ey Hx Hy Hb. cbn [SFmul]. rewrite bra_eq.
  pose proof (Bmult_correct_aux 53 1024 _ _ mode_NE sx mx ex Hx sy my ey Hy) as H. cbv zeta in *. destruct H as (V & H).
  cbn [SF2R] in Hb. rewrite Rlt_bool_true in H by exact Hb. destruct H as (A & B & _).
  split; [exact V|]. split; [exact B|]. exact A.
Qed.

Lemma round_spec : forall p, (Z.pos p <= 2 ^ 53)%Z ->
  let z := SpecFloat.binary_round 53 1024 false p 0 in
  valid_binary 53 1024 z = true /\ is_finite_SF z = true /\ SF2R radix2 z = IZR (Z.pos p).
Proof.
  intros p Hp. pose proof (binary_round_correct 53 1024 _ _ mode_NE false p 0) as H. cbv zeta in *.
  assert (E : SpecFloat.binary_round 53 1024 false p 0 = BinarySingleNaN.binary_round 53 1024 mode_NE false p 0).
  { unfold SpecFloat.binary_round, BinarySingleNaN.binary_round. unfold BinarySingleNaN.shl_align_fexp.
    destruct (SpecFloat.shl_align p 0 _). apply bra_eq. }
  rewrite E. destruct H as (V & H).
  assert (EF : F2R (beta := radix2) {| Fnum := cond_Zopp false (Z.pos p); Fexp := 0 |} = IZR (Z.pos p)).
  { unfold F2R. cbn [Fnum Fexp cond_Zopp bpow]. ring. }
  rewrite EF in H.
  assert (G : fmt64 (IZR (Z.pos p))).
  { destruct (Z.eq_dec (Z.pos p) (2 ^ 53)) as [->|Hne].
    - change (IZR (2 ^ 53)) with (bpow radix2 53). apply generic_format_bpow. cbv. discriminate.
    - rewrite <- EF. apply generic_format_F2R. intros _. unfold cexp. cbn [cond_Zopp].
      unfold fexp, SpecFloat.fexp, emin. 
      assert (M : (mag radix2 (F2R (beta := radix2) {| Fnum := Z.pos p; Fexp := 0 |}) <= 53)%Z).
      { apply mag_le_bpow; [apply Rgt_not_eq; apply F2R_gt_0; reflexivity|]. change (Z.pos p) with (cond_Zopp false (Z.pos p)) at 1. rewrite EF. rewrite Rabs_pos_eq by (apply IZR_le; lia).
        change (bpow radix2 53) with (IZR (2 ^ 53)). apply IZR_lt. lia. }
      lia. }
  rewrite (round_generic _ _ _ _ G) in H.
  rewrite Rlt_bool_true in H.
  - destruct H as (A & B & _). auto.
  - rewrite Rabs_pos_eq by (apply IZR_le; lia). apply Rle_lt_trans with (bpow radix2 53).
    + change (bpow radix2 53) with (IZR (2 ^ 53)). apply IZR_le. exact Hp.
    + apply bpow_lt. lia.
Qed.

(** multiplying a positive integer by a number below one gives, even rounded,
    less than the integer *)
Lemma pred_one : pred radix2 (fexp 53 1024) 1 = 1 - bpow radix2 (-53).
Proof.
  change 1 with (bpow radix2 0) at 1. rewrite pred_bpow by typeclasses eauto. reflexivity.
Qed.

Lemma round_below : forall k n, fmt64 k -> 0 <= k < 1 -> (1 <= n <= 2 ^ 53)%Z -> fmt64 (IZR n) -> rnd64 (k * IZR n) < IZR n.
Proof.
  intros k n Fk Hk Hn Fn.
  assert (F1 : fmt64 1) by (change 1 with (bpow radix2 0); apply generic_format_bpow; cbv; discriminate).
  assert (Hk1 : k <= 1 - bpow radix2 (-53)).
  { rewrite <- pred_one. apply pred_ge_gt; try assumption; [typeclasses eauto|lra]. }
  assert (HN : 1 <= IZR n) by (apply IZR_le; lia).
  assert (Hpos : 0 < bpow radix2 (-53)) by apply bpow_gt_0.
  assert (Fp : fmt64 (pred radix2 (fexp 53 1024) (IZR n))) by (apply generic_format_pred; [typeclasses eauto|exact Fn]).
  assert (Hlt : pred radix2 (fexp 53 1024) (IZR n) < IZR n) by (apply pred_lt_id; lra).
  apply Rle_lt_trans with (pred radix2 (fexp 53 1024) (IZR n)); [|exact Hlt].
  apply round_N_le_midp; [typeclasses eauto|exact Fp|].
  rewrite succ_pred by (try exact Fn; typeclasses eauto).
  assert (G : IZR n - pred radix2 (fexp 53 1024) (IZR n) < 2 * (IZR n * bpow radix2 (-53))).
  { rewrite pred_eq_pos by lra. unfold pred_pos.
    set (e := mag radix2 (IZR n)). pose proof (bpow_mag_le radix2 (IZR n) ltac:(lra)) as M1. fold e in M1. rewrite Rabs_pos_eq in M1 by lra.
    assert (He : (1 <= e <= 54)%Z).
    { split; [apply mag_ge_bpow|apply mag_le_bpow; [lra|]]; rewrite Rabs_pos_eq by lra.
      - change (bpow radix2 (1 - 1)) with 1. exact HN.
      - apply Rle_lt_trans with (bpow radix2 53); [|apply bpow_lt; lia]. change (bpow radix2 53) with (IZR (2 ^ 53)). apply IZR_le. lia. }
    assert (B2 : forall x, bpow radix2 (x - 53) = bpow radix2 x * bpow radix2 (-53)) by (intro x; rewrite <- bpow_plus; reflexivity).
    destruct (Req_bool_spec (IZR n) (bpow radix2 (e - 1))) as [Heq|Hne].
    - replace (fexp 53 1024 (e - 1)) with (e - 1 - 53)%Z by (unfold fexp, emin; lia). rewrite B2, <- Heq. nra.
    - rewrite ulp_neq_0 by lra. unfold cexp. fold e. replace (fexp 53 1024 e) with (e - 1 - 53 + 1)%Z by (unfold fexp, emin; lia).
      rewrite bpow_plus, B2. change (bpow radix2 1) with 2. nra. }
  nra.
Qed.

Lemma ofZ_spec : forall n, (1 <= n <= 2 ^ 53)%Z -> exists m e, f64_ofZ n = S754_finite false m e /\
  bounded 53 1024 m e = true /\ SF2R radix2 (S754_finite false m e) = IZR n.
Proof.
  intros n Hn. destruct n as [|p|p]; try lia. change (f64_ofZ (Z.pos p)) with (SpecFloat.binary_round 53 1024 false p 0).
  destruct (round_spec p ltac:(lia)) as (V & F & E). destruct (SpecFloat.binary_round 53 1024 false p 0) as [s|s| |s m e]; try discriminate F.
  - exfalso. cbn [SF2R] in E. assert (0 < IZR (Z.pos p)) by (apply IZR_lt; lia). lra.
  - destruct s.
    + exfalso. assert (H : 0 < IZR (Z.pos p)) by (apply IZR_lt; lia). rewrite <- E in H. cbn [SF2R] in H.
      pose proof (F2R_lt_0 radix2 {| Fnum := cond_Zopp true (Z.pos m); Fexp := e |} eq_refl). lra.
    + exists m, e. split; [reflexivity|]. split; [exact V|exact E].
Qed.

Lemma ltb_spec : forall x y, valid_binary 53 1024 x = true -> valid_binary 53 1024 y = true ->
  is_finite_SF x = true -> is_finite_SF y = true -> SFltb x y = true -> SF2R radix2 x < SF2R radix2 y.
Proof.
  intros x y Vx Vy Fx Fy H.
  pose proof (Bcompare_correct 53 1024 (SF2B x Vx) (SF2B y Vy)) as C.
  rewrite !is_finite_SF2B in C. specialize (C Fx Fy). unfold Bcompare in C. rewrite !B2SF_SF2B in C. rewrite !B2R_SF2B in C.
  unfold SFltb in H. rewrite C in H. destruct (Rcompare_spec (SF2R radix2 x) (SF2R radix2 y)); try discriminate H. assumption.
Qed.

Lemma trunc_le : forall x n, SF2R radix2 x < IZR n -> (1 <= n)%Z -> is_finite_SF x = true ->
  match f64_trunc x with Some z => (z < n)%Z | None => True end.
Proof.
  intros [s|s| |s m e] n H Hn F; try discriminate F; cbn [f64_trunc]; [lia|].
  set (a := if (0 <=? e)%Z then (Z.pos m * 2 ^ e)%Z else (Z.pos m / 2 ^ (- e))%Z).
  assert (Ha : (0 <= a)%Z).
  { unfold a. destruct (Z.leb_spec 0 e); [apply Z.mul_nonneg_nonneg; [lia|apply Z.pow_nonneg; lia]|].
    apply Z.div_pos; [lia|apply Z.pow_pos_nonneg; lia]. }
  destruct (_ && _)%bool; [|exact I]. destruct s; [lia|].
  apply lt_IZR. apply Rle_lt_trans with (2 := H). cbn [SF2R cond_Zopp]. unfold F2R. cbn [Fnum Fexp].
  unfold a. destruct (Z.leb_spec 0 e) as [He|He].
  - rewrite mult_IZR. change 2%Z with (radix_val radix2). rewrite IZR_Zpower by exact He. apply Rle_refl.
  - apply Rmult_le_reg_r with (bpow radix2 (- e)); [apply bpow_gt_0|].
    rewrite Rmult_assoc, <- bpow_plus. replace (e + - e)%Z with 0%Z by lia. change (bpow radix2 0) with 1. rewrite Rmult_1_r.
    rewrite <- IZR_Zpower by lia. rewrite <- mult_IZR. apply IZR_le. change (Zpower radix2 (- e)) with (2 ^ (- e))%Z.
    rewrite Z.mul_comm. apply Z.mul_div_le. apply Z.pow_pos_nonneg; lia.
Qed.

Theorem f64_mul_below : forall keep n, valid_binary 53 1024 keep = true -> SFltb keep (f64_ofZ 1) = true -> (1 <= n <= 2 ^ 53)%Z ->
  match f64_trunc (SFmul 53 1024 keep (f64_ofZ n)) with Some z => (z < n)%Z | None => True end.
Proof.
  intros keep n V L Hn. destruct (ofZ_spec n Hn) as (my & ey & En & Bn & Rn). rewrite En.
  destruct keep as [s|s| |s m e].
  - cbn. lia.
  - exact I.
  - exact I.
  - destruct s.
    + (* negative *)
      cbn [SFmul xorb]. unfold SpecFloat.binary_round_aux.
      destruct (shr_fexp _ _ _ _ _) as (r1 & e1). destruct (shr_fexp _ _ _ _ _) as (r2 & e2).
      destruct (shr_m r2); cbn [f64_trunc]; try exact I; try lia.
      destruct (e2 <=? 1024 - 53)%Z; cbn [f64_trunc]; [|exact I].
      assert (Ha : (0 <= if (0 <=? e2)%Z then (Z.pos p * 2 ^ e2)%Z else (Z.pos p / 2 ^ (- e2))%Z)%Z).
      { destruct (Z.leb_spec 0 e2); [apply Z.mul_nonneg_nonneg; [lia|apply Z.pow_nonneg; lia]|].
        apply Z.div_pos; [lia|apply Z.pow_pos_nonneg; lia]. }
      destruct (_ && _)%bool; [lia|exact I].
    + destruct (ofZ_spec 1 ltac:(lia)) as (m1 & e1 & E1 & B1 & R1). rewrite E1 in L.
      apply ltb_spec in L; [|exact V|exact B1|reflexivity|reflexivity]. rewrite R1 in L.
      assert (Fk : fmt64 (SF2R radix2 (S754_finite false m e))).
      { rewrite <- (B2R_SF2B 53 1024 _ V). apply generic_format_B2R. }
      assert (Fn : fmt64 (IZR n)).
      { rewrite <- Rn. rewrite <- (B2R_SF2B 53 1024 (S754_finite false my ey) Bn). apply generic_format_B2R. }
      assert (K0 : 0 <= SF2R radix2 (S754_finite false m e)) by (cbn [SF2R]; apply F2R_ge_0; cbn; lia).
      assert (RB := round_below _ n Fk (conj K0 L) Hn Fn).
      assert (HN : 1 <= IZR n) by (apply IZR_le; lia).
      assert (R0 : 0 <= rnd64 (SF2R radix2 (S754_finite false m e) * IZR n)).
      { apply round_ge_generic; [typeclasses eauto|typeclasses eauto|apply generic_format_0|]. apply Rmult_le_pos; lra. }
      destruct (mul_spec false m e false my ey V Bn) as (_ & F & R).
      { rewrite Rn. rewrite Rabs_pos_eq by exact R0. apply Rlt_le_trans with (1 := RB). apply Rle_trans with (bpow radix2 53).
        - change (bpow radix2 53) with (IZR (2 ^ 53)). apply IZR_le. lia.
        - apply bpow_le. lia. }
      apply trunc_le; [|lia|exact F]. rewrite R, Rn. exact RB.
Qed.
Print Assumptions f64_mul_below.

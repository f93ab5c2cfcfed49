(** Binary64: the temperatures below 500, and the acceptance rate 1. *)
From Coq Require Import SpecFloat.
From Verif Require Import Base Num Mat Model_Node Model_SA Proof_SA Proof_SA2 Proof_Anneal Flt.

Lemma div_self : forall m e, SFdiv fprec femax (S754_finite false m e) (S754_finite false m e) = f64_ofZ 1.
Proof.
  intros m e. unfold SFdiv. cbn [xorb]. unfold SFdiv_core_binary.
  replace (Zdigits2 (Z.pos m) + e - (Zdigits2 (Z.pos m) + e))%Z with 0%Z by lia.
  replace (e - e)%Z with 0%Z by lia. cbv zeta.
  change (Z.min (fexp fprec femax 0) 0) with (-53)%Z.
  change (0 - -53)%Z with 53%Z. cbv iota beta.
  assert (E : Z.div_eucl (Z.shiftl (Z.pos m) 53) (Z.pos m) = (2 ^ 53, 0)%Z).
  { rewrite Z.shiftl_mul_pow2 by lia.
    assert (A : (Z.pos m * 2 ^ 53 / Z.pos m = 2 ^ 53)%Z) by (rewrite Z.mul_comm; apply Z.div_mul; lia).
    assert (B : (Z.pos m * 2 ^ 53 mod Z.pos m = 0)%Z) by (rewrite Z.mul_comm; apply Z.mod_mul; lia).
    unfold Z.div in A. unfold Z.modulo in B. destruct (Z.div_eucl _ _) as [q r]. congruence. }
  rewrite E.
  assert (F : new_location (Z.pos m) 0 = loc_Exact).
  { unfold new_location. destruct (Z.even (Z.pos m)); unfold new_location_even, new_location_odd; reflexivity. }
  rewrite F. vm_compute. reflexivity.
Qed.

Lemma rate_one_f64 : forall n, (1 <= n <= 2 ^ 53)%Z ->
  SFltb (f64_dec 5 (-1)) (SFdiv fprec femax (f64_ofZ n) (f64_ofZ n)) = true.
Proof.
  intros n Hn. destruct (ofZ_spec n Hn) as (m & e & -> & _). rewrite div_self. vm_compute. reflexivity.
Qed.

Lemma ladder_hot : forall o h, (h < 49)%nat -> nltb (ladder (F64 o) 0 h) (ndec 1 (-12)) = false.
Proof.
  intros o h Hh.
  assert (E : forallb (fun h => negb (SFltb (Nat.iter h (fun t => SFmul fprec femax t (f64_dec 5 (-1))) (f64_ofZ 500)) (f64_dec 1 (-12)))) (seq 0 49) = true)
    by (vm_compute; reflexivity).
  rewrite forallb_forall in E. apply negb_true_iff. apply (E h). apply in_seq. lia.
Qed.

Lemma ladder_cold : forall o, nltb (ladder (F64 o) 0 49) (ndec 1 (-12)) = true.
Proof. intro o. change (SFltb (Nat.iter 49 (fun t => SFmul fprec femax t (f64_dec 5 (-1))) (f64_ofZ 500)) (f64_dec 1 (-12)) = true). vm_compute. reflexivity. Qed.

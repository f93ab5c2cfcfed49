(** Proofs about Model_Bits.v *)
From Verif Require Import Base Model_Bits.

(** What an array of booleans would do. *)
Definition bit_spec_step (i : Z) (b : bool) (op : bit_op) : bool :=
  match op with
  | SetBit j => if (i =? j)%Z then true else b
  | FlipBit j => if (i =? j)%Z then negb b else b
  end.
Definition bit_spec (ops : list bit_op) (i : Z) : bool :=
  fold_left (bit_spec_step i) ops false.

Definition op_index (op : bit_op) : Z := match op with SetBit i | FlipBit i => i end.

Lemma shl8_in : forall r, (0 <= r < 8)%Z -> shl8 r = (2 ^ r)%Z.
Proof.
  intros r H; unfold shl8. destruct (Z.leb_spec 0 r); destruct (Z.ltb_spec r 8); simpl; auto; lia.
Qed.

Lemma land_pow2 : forall b r, (0 <= r)%Z ->
  (Z.land b (2 ^ r) =? 2 ^ r)%Z = Z.testbit b r.
Proof.
  intros b r Hr.
  assert (E : Z.land b (2 ^ r) = if Z.testbit b r then (2 ^ r)%Z else 0%Z).
  { apply Z.bits_inj'. intros k Hk. rewrite Z.land_spec, Z.pow2_bits_eqb by auto.
    destruct (Z.eqb_spec r k) as [->|Hne].
    - rewrite andb_true_r. destruct (Z.testbit b k) eqn:E.
      + rewrite Z.pow2_bits_eqb, Z.eqb_refl by auto. auto.
      + rewrite Z.bits_0; auto.
    - rewrite andb_false_r. destruct (Z.testbit b r).
      + rewrite Z.pow2_bits_eqb by auto. destruct (Z.eqb_spec r k); congruence.
      + rewrite Z.bits_0; auto. }
  rewrite E. destruct (Z.testbit b r).
  - apply Z.eqb_refl.
  - apply Z.eqb_neq. assert (0 < 2 ^ r)%Z by (apply Z.pow_pos_nonneg; lia). lia.
Qed.

Definition inb (m : BitModel) (i : Z) : Prop :=
  (0 <= i < 8 * Z.of_nat (length (bmBits m)))%Z.

Definition bitof (m : BitModel) (i : Z) : bool :=
  Z.testbit (nth (Z.to_nat (i / 8)) (bmBits m) 0%Z) (i mod 8).

Lemma quot_div8 : forall i, (0 <= i)%Z -> Z.quot i 8 = (i / 8)%Z.
Proof. intros; apply Z.quot_div_nonneg; lia. Qed.

Lemma bmGet_in : forall m i, inb m i -> bmGet m i = Ok (bitof m i).
Proof.
  intros m i H. unfold inb in H. unfold bmGet. rewrite quot_div8 by lia.
  assert (0 <= i / 8 < Z.of_nat (length (bmBits m)))%Z.
  { split; [apply Z.div_pos; lia|apply Z.div_lt_upper_bound; lia]. }
  rewrite (getz_in _ _ _ 0%Z) by auto. cbn [bind].
  replace (i - 8 * (i / 8))%Z with (i mod 8)%Z by (rewrite Z.mod_eq; lia).
  assert (0 <= i mod 8 < 8)%Z by (apply Z.mod_pos_bound; lia).
  rewrite shl8_in by auto. rewrite land_pow2 by lia. reflexivity.
Qed.

Lemma bm_apply_in : forall m op, inb m (op_index op) ->
  exists m', bm_apply op m = Ok m' /\ length (bmBits m') = length (bmBits m) /\
    bmSize m' = bmSize m /\
    forall i, inb m i -> bitof m' i = bit_spec_step i (bitof m i) op.
Proof.
  intros m op H.
  assert (G : forall f g, (forall b k r, (0 <= k)%Z -> (0 <= r)%Z -> Z.testbit (f b (2 ^ r)%Z) k = if (r =? k)%Z then g (Z.testbit b k) else Z.testbit b k) ->
    let j := op_index op in
    exists bits, (do b <- getz (bmBits m) (Z.quot j 8);
         setz (bmBits m) (Z.quot j 8) (f b (shl8 (j - 8 * Z.quot j 8)%Z))) = Ok bits /\
      length bits = length (bmBits m) /\
      forall i, inb m i -> Z.testbit (nth (Z.to_nat (i / 8)) bits 0%Z) (i mod 8) =
          if (i =? j)%Z then g (bitof m i) else bitof m i).
  { intros f g Hf j. fold j in H. unfold inb in H. rewrite quot_div8 by lia.
    assert (Hj : (0 <= j / 8 < Z.of_nat (length (bmBits m)))%Z).
    { split; [apply Z.div_pos; lia|apply Z.div_lt_upper_bound; lia]. }
    rewrite (getz_in _ _ _ 0%Z) by auto. cbn [bind].
    replace (j - 8 * (j / 8))%Z with (j mod 8)%Z by (rewrite Z.mod_eq; lia).
    assert (Hm : (0 <= j mod 8 < 8)%Z) by (apply Z.mod_pos_bound; lia).
    rewrite shl8_in by auto. rewrite setz_in by auto.
    eexists; split; [reflexivity|]. rewrite upd_length. split; auto.
    intros i Hi. unfold inb in Hi.
    assert (Hi8 : (0 <= i / 8)%Z) by (apply Z.div_pos; lia).
    assert (Him : (0 <= i mod 8 < 8)%Z) by (apply Z.mod_pos_bound; lia).
    rewrite nth_upd.
    destruct (Nat.eqb_spec (Z.to_nat (i / 8)) (Z.to_nat (j / 8))) as [E|E].
    - destruct (Nat.ltb_spec (Z.to_nat (j / 8)) (length (bmBits m))); [|lia].
      rewrite Hf by lia. unfold bitof. rewrite E.
      assert (Eij : (i =? j)%Z = (j mod 8 =? i mod 8)%Z).
      { assert (i / 8 = j / 8)%Z by lia. apply eq_true_iff_eq. rewrite !Z.eqb_eq.
        pose proof (Z.div_mod i 8). pose proof (Z.div_mod j 8). split; intro; [congruence|lia]. }
      rewrite Eij. reflexivity.
    - destruct (Z.eqb_spec i j); [exfalso; apply E; congruence|]. reflexivity. }
  destruct op as [j|j]; simpl in *.
  - destruct (G Z.lor (fun _ => true)) as (bits & E1 & E2 & E3).
    { intros b k r Hk Hr. rewrite Z.lor_spec, Z.pow2_bits_eqb by auto.
      destruct (Z.eqb_spec r k); [apply orb_true_r|apply orb_false_r]. }
    unfold bmSet. destruct (getz (bmBits m) (Z.quot j 8)); simpl in *; try discriminate.
    rewrite E1; simpl. eexists; split; [reflexivity|]. simpl. repeat split; auto.
  - destruct (G Z.lxor negb) as (bits & E1 & E2 & E3).
    { intros b k r Hk Hr. rewrite Z.lxor_spec, Z.pow2_bits_eqb by auto.
      destruct (Z.eqb_spec r k); [apply xorb_true_r|apply xorb_false_r]. }
    unfold bmFlip. destruct (getz (bmBits m) (Z.quot j 8)); simpl in *; try discriminate.
    rewrite E1; simpl. eexists; split; [reflexivity|]. simpl. repeat split; auto.
Qed.

Lemma bm_run_in : forall ops m, (forall op, In op ops -> inb m (op_index op)) ->
  exists m', bm_run ops m = Ok m' /\ length (bmBits m') = length (bmBits m) /\
    bmSize m' = bmSize m /\
    forall i, inb m i -> bitof m' i = fold_left (bit_spec_step i) ops (bitof m i).
Proof.
  unfold bm_run. induction ops as [|op ops IH]; intros m H; cbn [for_each fold_left].
  - exists m; auto.
  - destruct (bm_apply_in m op) as (m1 & E1 & L1 & S1 & B1); [apply H; left; auto|].
    rewrite E1; cbn [bind].
    destruct (IH m1) as (m2 & E2 & L2 & S2 & B2).
    { intros op' Hin. unfold inb. rewrite L1. apply H; right; auto. }
    exists m2. split; auto. split; [congruence|]. split; [congruence|].
    intros i Hi. rewrite <- B1 by auto. apply B2. unfold inb in *; rewrite L1; auto.
Qed.

Lemma NewModel_ok : forall size, (0 <= size)%Z ->
  NewModel size = Ok (mkBM (repeat 0%Z (Z.to_nat (size / 8 + 1))) size).
Proof.
  intros size H. unfold NewModel. rewrite quot_div8 by auto.
  assert (0 <= size / 8)%Z by (apply Z.div_pos; lia).
  destruct (Z.ltb_spec (size / 8 + 1) 0); [lia|]. reflexivity.
Qed.

Lemma bit_new : forall n size i, bitof (mkBM (repeat 0%Z n) size) i = false.
Proof.
  intros. unfold bitof; simpl. rewrite nth_repeat. apply Z.testbit_0_l.
Qed.

Lemma size_in_bits : forall size i, (0 <= i < size)%Z ->
  (0 <= i < 8 * Z.of_nat (Z.to_nat (size / 8 + 1)))%Z.
Proof.
  intros size i H. pose proof (Z.div_mod size 8 ltac:(lia)). pose proof (Z.mod_pos_bound size 8 ltac:(lia)).
  assert (0 <= size / 8)%Z by (apply Z.div_pos; lia). lia.
Qed.

(** All operations in the allocated bytes: the array-of-booleans behaviour. *)
Lemma bits_refine : forall size ops,
  (0 <= size)%Z ->
  (forall op, In op ops -> 0 <= op_index op < 8 * (size / 8 + 1))%Z ->
  exists m0 m, NewModel size = Ok m0 /\ bm_run ops m0 = Ok m /\
    (forall i, (0 <= i < 8 * (size / 8 + 1))%Z -> bmGet m i = Ok (bit_spec ops i)) /\
    bmToBools m = Ok (map (fun i => bit_spec ops (Z.of_nat i)) (seq 0 (Z.to_nat size))).
Proof.
  intros size ops Hs Hops.
  assert (H8 : (0 <= size / 8)%Z) by (apply Z.div_pos; lia).
  rewrite NewModel_ok by auto. set (m0 := mkBM (repeat 0%Z (Z.to_nat (size / 8 + 1))) size).
  assert (Hin : forall i, (0 <= i < 8 * (size / 8 + 1))%Z -> inb m0 i).
  { intros i Hi. unfold inb, m0; cbn [bmBits]. rewrite repeat_length. lia. }
  destruct (bm_run_in ops m0) as (m & E & Lm & Sm & Bm).
  { intros op Hop. apply Hin, Hops; auto. }
  exists m0, m. split; auto. split; auto.
  assert (HG : forall i, (0 <= i < 8 * (size / 8 + 1))%Z -> bmGet m i = Ok (bit_spec ops i)).
  { intros i Hi. rewrite bmGet_in.
    - f_equal. rewrite Bm by auto. unfold m0 at 1. rewrite bit_new. reflexivity.
    - unfold inb. rewrite Lm. apply Hin; auto. }
  split; auto.
  unfold bmToBools. rewrite Sm. simpl.
  destruct (Z.ltb_spec size 0); [lia|].
  destruct (for_loop_inv _ (fun i (r : list bool) => length r = Z.to_nat size /\
      forall k, (k < i)%nat -> nth k r false = bit_spec ops (Z.of_nat k))
    (fun i r => do b <- bmGet m (Z.of_nat i); setn r i b) (Z.to_nat size) 0
    (repeat false (Z.to_nat size))) as (r & Er & Hr & Hk).
  - split; [apply repeat_length|intros; lia].
  - intros i s Hi (Hl & Hk). rewrite HG.
    + simpl. rewrite setn_lt by lia. eexists; split; [reflexivity|].
      rewrite upd_length; split; auto.
      intros k Hk'. rewrite nth_upd. destruct (Nat.eqb_spec k i) as [->|].
      * destruct (Nat.ltb_spec i (length s)); [auto|lia].
      * apply Hk; lia.
    + pose proof (Z.div_mod size 8 ltac:(lia)). pose proof (Z.mod_pos_bound size 8 ltac:(lia)). lia.
  - rewrite Er. f_equal. apply (nth_ext _ _ false false).
    + rewrite map_length, seq_length; auto.
    + intros k Hk'. rewrite Hk by lia.
      rewrite (nth_indep _ false (bit_spec ops (Z.of_nat 0)))
        by (rewrite map_length, seq_length; lia).
      rewrite map_nth with (f := fun i => bit_spec ops (Z.of_nat i)).
      rewrite seq_nth by lia. reflexivity.
Qed.

Lemma quot_small_neg : forall i, (-8 < i < 0)%Z -> Z.quot i 8 = 0%Z.
Proof.
  intros i H. rewrite <- (Z.opp_involutive i). rewrite Z.quot_opp_l by lia.
  rewrite Z.quot_small by lia. reflexivity.
Qed.

Lemma upd_same : forall A (l : list A) i x, nth_error l i = Some x -> upd l i x = l.
Proof.
  induction l as [|y l IH]; intros [|i] x H; simpl in *; try discriminate; auto.
  - congruence.
  - rewrite IH; auto.
Qed.

Lemma bits_negative : forall m i, (-8 < i < 0)%Z -> bmBits m <> [] ->
  bmGet m i = Ok true /\ bmSet m i = Ok m /\ bmFlip m i = Ok m.
Proof.
  intros m i H Hne. unfold bmGet, bmSet, bmFlip. rewrite quot_small_neg by auto.
  replace (i - 8 * 0)%Z with i by lia.
  assert (E : shl8 i = 0%Z).
  { unfold shl8. destruct (Z.leb_spec 0 i); [lia|reflexivity]. }
  rewrite E. destruct m as [[|b bits] sz]; simpl in *; [congruence|].
  rewrite Z.land_0_r, Z.lor_0_r, Z.lxor_0_r. auto.
Qed.

Lemma bits_out : forall m i, (i <= -8 \/ 8 * Z.of_nat (length (bmBits m)) <= i)%Z ->
  bmGet m i = Panic /\ bmSet m i = Panic /\ bmFlip m i = Panic.
Proof.
  intros m i H.
  assert (E : getz (bmBits m) (Z.quot i 8) = Panic).
  { apply getz_out. destruct H as [H|H].
    - assert (Z.quot i 8 <= -1)%Z; [|lia].
      rewrite <- (Z.opp_involutive i), Z.quot_opp_l, quot_div8 by lia.
      assert (1 <= (- i) / 8)%Z by (apply Z.div_le_lower_bound; lia). lia.
    - rewrite quot_div8 by lia. assert (Z.of_nat (length (bmBits m)) <= i / 8)%Z; [|lia].
      apply Z.div_le_lower_bound; lia. }
  unfold bmGet, bmSet, bmFlip. rewrite E. auto.
Qed.

(** Reading back the %f rendering of a number. *)
From Coq Require Import String Ascii Reals Lra SpecFloat NArith Nnat ZArith.
From Verif Require Import Base Num Model_CSV Proof_XR.
Open Scope string_scope.
Open Scope N_scope.

Lemma digit_val : forall d v s, d < 10 ->
  digits_val v (String (digit_char d) s) = digits_val (v * 10 + d) s.
Proof.
  intros d v s H. cbn [digits_val]. unfold digit_char. rewrite N_ascii_embedding by lia.
  replace ((48 <=? 48 + d) && (48 + d <=? 57))%bool with true.
  - replace (48 + d - 48) with d by lia. reflexivity.
  - symmetry. apply andb_true_iff. split; apply N.leb_le; lia.
Qed.

Lemma digit_dot : forall d, d < 10 -> Ascii.eqb (digit_char d) "." = false.
Proof.
  intros d H. apply Ascii.eqb_neq. intro E. apply (f_equal N_of_ascii) in E.
  unfold digit_char in E. rewrite N_ascii_embedding in E by lia. change (N_of_ascii ".") with 46 in E. lia.
Qed.

Lemma digit_char_neq : forall d c, d < 10 -> N_of_ascii c < 48 \/ 57 < N_of_ascii c -> digit_char d <> c.
Proof.
  intros d c H Hc E. apply (f_equal N_of_ascii) in E.
  unfold digit_char in E. rewrite N_ascii_embedding in E by lia. lia.
Qed.

Lemma mod10 : forall q, q mod 10 < 10.
Proof. intro q. apply N.mod_lt. lia. Qed.

Lemma digits_n_val : forall n r v acc,
  digits_val v (digits_n n r acc) = digits_val (v * 10 ^ N.of_nat n + r mod 10 ^ N.of_nat n) acc.
Proof.
  induction n as [|n IH]; intros r v acc.
  - cbn [digits_n]. change (N.of_nat 0) with 0. rewrite N.pow_0_r, N.mod_1_r, N.mul_1_r, N.add_0_r. reflexivity.
  - cbn [digits_n]. rewrite IH, digit_val by apply mod10. f_equal.
    rewrite Nat2N.inj_succ, N.pow_succ_r', N.mod_mul_r by (try lia; apply N.pow_nonzero; lia). lia.
Qed.

Lemma digits_n_length : forall n r acc, String.length (digits_n n r acc) = (n + String.length acc)%nat.
Proof.
  induction n as [|n IH]; intros r acc; [reflexivity|]. cbn [digits_n]. rewrite IH. cbn [String.length]. lia.
Qed.

Lemma digits_val_digits : forall f q acc, (0 < f)%nat -> q < 10 ^ N.of_nat f ->
  digits_val 0 (digits f q acc) = digits_val q acc.
Proof.
  induction f as [|f IH]; intros q acc Hf Hq; [lia|]. cbn [digits].
  pose proof (N.div_mod' q 10) as Hd. pose proof (mod10 q) as Hm.
  destruct (N.eqb_spec (q / 10) 0) as [E|E].
  - rewrite digit_val by exact Hm. f_equal. lia.
  - rewrite Nat2N.inj_succ, N.pow_succ_r' in Hq.
    assert (Hlt : q / 10 < 10 ^ N.of_nat f) by (apply N.div_lt_upper_bound; lia).
    destruct f as [|f]; [cbn in Hlt; lia|].
    rewrite IH by (try exact Hlt; lia). rewrite digit_val by exact Hm. f_equal. lia.
Qed.

Lemma digits_head : forall f q acc, (0 < f)%nat ->
  exists d s, d < 10 /\ digits f q acc = String (digit_char d) s.
Proof.
  induction f as [|f IH]; intros q acc Hf; [lia|]. cbn [digits].
  destruct (q / 10 =? 0); [eexists; eexists; split; [apply mod10|reflexivity]|].
  destruct f as [|f]; [cbn [digits]; eexists; eexists; split; [apply mod10|reflexivity]|].
  apply IH. lia.
Qed.

Lemma split_digits : forall f q acc a b, split_dot acc = Some (a, b) ->
  split_dot (digits f q acc) = Some (digits f q a, b).
Proof.
  induction f as [|f IH]; intros q acc a b H; cbn [digits]; [exact H|].
  assert (H' : split_dot (String (digit_char (q mod 10)) acc) = Some (String (digit_char (q mod 10)) a, b)).
  { cbn [split_dot]. rewrite digit_dot by apply mod10. rewrite H. reflexivity. }
  destruct (q / 10 =? 0); [exact H'|]. apply IH. exact H'.
Qed.

(** reading back k millionths *)
Lemma parse_fmt6 : forall (N : Num) neg k,
  parse_f (N := N) (fmt6 neg k) =
  Some (if neg then nneg (ndec (Z.of_N k) (-6)) else ndec (Z.of_N k) (-6)).
Proof.
  intros N neg k. unfold fmt6. cbv zeta.
  set (q := k / 1000000). set (fr := digits_n 6 (k mod 1000000) "").
  set (f := S (N.to_nat (N.size q))).
  assert (Hf : (0 < f)%nat) by (unfold f; lia).
  assert (Hq : q < 10 ^ N.of_nat f).
  { unfold f. rewrite Nat2N.inj_succ, N2Nat.id.
    apply N.lt_le_trans with (2 ^ N.size q); [apply N.size_gt|].
    apply N.le_trans with (10 ^ N.size q); [apply N.pow_le_mono_l; lia|apply N.pow_le_mono_r; lia]. }
  set (body := digits f q ("." ++ fr)).
  assert (Hsplit : split_dot body = Some (digits f q "", fr)).
  { unfold body. apply split_digits. reflexivity. }
  assert (Hlen : String.length fr = 6%nat) by (unfold fr; rewrite digits_n_length; reflexivity).
  destruct (digits_head f q ("." ++ fr) Hf) as (d & s & Hd & Ed). fold body in Ed.
  assert (Hbody : forall (b : bool), match split_dot body with
    | None => None
    | Some (a, b') =>
        match digits_val 0 a, digits_val 0 b' with
        | Some q, Some r =>
            if (String.length a + String.length b' =? 0)%nat then None else
            let k := (Z.of_N q * 10 ^ Z.of_nat (String.length b') + Z.of_N r)%Z in
            let v := ndec k (- Z.of_nat (String.length b')) in
            Some (if b then nneg v else v)
        | _, _ => None
        end
    end = Some (if b then nneg (ndec (n := N) (Z.of_N k) (-6)) else ndec (Z.of_N k) (-6))).
  { intro b. rewrite Hsplit, (digits_val_digits f q "" Hf Hq). cbn [digits_val].
    unfold fr at 1. rewrite digits_n_val. cbn [digits_val]. rewrite N.mul_0_l, N.add_0_l.
    change (10 ^ N.of_nat 6) with 1000000. rewrite N.mod_mod by lia.
    rewrite Hlen. replace (String.length (digits f q "") + 6 =? 0)%nat with false by (symmetry; apply Nat.eqb_neq; lia).
    cbv zeta. change (- Z.of_nat 6)%Z with (-6)%Z. change (10 ^ Z.of_nat 6)%Z with 1000000%Z.
    replace (Z.of_N q * 1000000 + Z.of_N (k mod 1000000))%Z with (Z.of_N k); [reflexivity|].
    unfold q. pose proof (N.div_mod' k 1000000). lia. }
  destruct neg.
  - cbn [append]. unfold parse_f.
    replace (String.eqb (String "-" body) "NaN") with false by reflexivity.
    replace (String.eqb (String "-" body) "+Inf") with false by reflexivity.
    assert (E3 : String.eqb (String "-" body) "-Inf" = false).
    { apply String.eqb_neq. rewrite Ed. intro C. injection C as C _.
      revert C. apply digit_char_neq; [exact Hd|]. first [left; reflexivity|right; reflexivity]. }
    rewrite E3. exact (Hbody true).
  - cbn [append]. unfold parse_f. specialize (Hbody false). revert Hbody. rewrite Ed. intro Hbody.
    assert (E1 : String.eqb (String (digit_char d) s) "NaN" = false).
    { apply String.eqb_neq. intro C. injection C as C _. revert C. apply digit_char_neq; [exact Hd|]. first [left; reflexivity|right; reflexivity]. }
    assert (E2 : String.eqb (String (digit_char d) s) "+Inf" = false).
    { apply String.eqb_neq. intro C. injection C as C _. revert C. apply digit_char_neq; [exact Hd|]. first [left; reflexivity|right; reflexivity]. }
    assert (E3 : String.eqb (String (digit_char d) s) "-Inf" = false).
    { apply String.eqb_neq. intro C. injection C as C _. revert C. apply digit_char_neq; [exact Hd|]. first [left; reflexivity|right; reflexivity]. }
    rewrite E1, E2, E3.
    assert (E4 : Ascii.eqb (digit_char d) "-" = false).
    { apply Ascii.eqb_neq. apply digit_char_neq; [exact Hd|]. first [left; reflexivity|right; reflexivity]. }
    rewrite E4. exact Hbody.
Qed.

Open Scope R_scope.

Lemma Rabs_le_inv : forall x a, Rabs x <= a -> - a <= x <= a.
Proof.
  intros x a H. pose proof (Rle_abs x) as H1. pose proof (Rle_abs (- x)) as H2. rewrite Rabs_Ropp in H2. lra.
Qed.

Lemma round_even_spec : forall y, Rabs (IZR (R_round_even y) - y) <= / 2.
Proof.
  intro y. unfold R_round_even. destruct (base_Int_part y) as [H1 H2].
  assert (Hs : IZR (Int_part y + 1) = IZR (Int_part y) + 1) by apply plus_IZR.
  destruct (Rltb (y - IZR (Int_part y)) (/ 2)) eqn:E1.
  - apply Rltb_true in E1. apply Rabs_le. lra.
  - apply Rltb_false in E1. destruct (Rltb (/ 2) (y - IZR (Int_part y))) eqn:E2.
    + apply Rabs_le. lra.
    + apply Rltb_false in E2. destruct (Z.even _); apply Rabs_le; lra.
Qed.

Lemma round_even_int : forall z, R_round_even (IZR z) = z.
Proof.
  intro z. unfold R_round_even. 
  assert (E : Int_part (IZR z) = z).
  { destruct (base_Int_part (IZR z)) as [H1 H2]. apply le_IZR in H1.
    rewrite <- minus_IZR in H2. apply Rgt_lt, lt_IZR in H2. lia. }
  rewrite E. replace (IZR z - IZR z) with 0 by lra.
  destruct (Rltb 0 (/ 2)) eqn:E1; [reflexivity|]. apply Rltb_false in E1. lra.
Qed.

Lemma round_even_nonneg : forall y, 0 <= y -> (0 <= R_round_even y)%Z.
Proof.
  intros y H. pose proof (round_even_spec y) as Hs. apply Rabs_le_inv in Hs.
  apply le_IZR. destruct (Z_lt_le_dec (R_round_even y) 0) as [C|C]; [|apply IZR_le; exact C].
  assert (IZR (R_round_even y) <= -1) by (apply IZR_le; lia). lra.
Qed.

(** the value read back for a real number *)
Definition six (r : R) : R :=
  (if Rltb r 0 then - IZR (R_round_even (Rabs r * 1000000)) else IZR (R_round_even (Rabs r * 1000000))) / 1000000.

Lemma parse_sprintf_XR : forall r, parse_f (N := XR) (sprintf_XR (XFin r)) = Some (XFin (six r)).
Proof.
  intro r. unfold sprintf_XR. rewrite parse_fmt6.
  rewrite Z2N.id by (apply round_even_nonneg; apply Rmult_le_pos; [apply Rabs_pos|lra]).
  unfold six. cbn [ndec nneg XR]. unfold xdec. cbn [Z.leb Z.compare Z.opp].
  change (10 ^ 6)%Z with 1000000%Z.
  destruct (Rltb r 0); cbn [xneg]; f_equal; f_equal; lra.
Qed.

Lemma six_close : forall r, Rabs (six r - r) <= 5 / 10000000.
Proof.
  intro r. unfold six. pose proof (round_even_spec (Rabs r * 1000000)) as H. apply Rabs_le_inv in H.
  apply Rabs_le. destruct (Rltb r 0) eqn:E.
  - apply Rltb_true in E. rewrite Rabs_left in H |- * by exact E. lra.
  - apply Rltb_false in E. rewrite Rabs_right in H |- * by lra. lra.
Qed.

Lemma six_small : forall r, Rabs r < 5 / 10000000 -> six r = 0.
Proof.
  intros r Hr. unfold six. assert (E : R_round_even (Rabs r * 1000000) = 0%Z).
  { pose proof (round_even_spec (Rabs r * 1000000)) as H. apply Rabs_le_inv in H.
    pose proof (Rabs_pos r).
    assert (H1 : (R_round_even (Rabs r * 1000000) < 1)%Z) by (apply lt_IZR; lra).
    pose proof (round_even_nonneg (Rabs r * 1000000) ltac:(lra)). lia. }
  rewrite E. destruct (Rltb r 0); lra.
Qed.

(** exactly the multiples of a millionth survive *)
Lemma six_fixed : forall r, six r = r <-> exists z, r = IZR z / 1000000.
Proof.
  intro r. split.
  - intro H. unfold six in H. destruct (Rltb r 0).
    + exists (- R_round_even (Rabs r * 1000000))%Z. rewrite opp_IZR. lra.
    + exists (R_round_even (Rabs r * 1000000)). lra.
  - intros (z & Hz). unfold six.
    destruct (Rltb r 0) eqn:E.
    + apply Rltb_true in E. rewrite (Rabs_left r E).
      replace (- r * 1000000) with (IZR (- z)) by (rewrite opp_IZR; lra).
      rewrite round_even_int, opp_IZR. lra.
    + apply Rltb_false in E. rewrite (Rabs_right r) by lra.
      replace (r * 1000000) with (IZR z) by lra. rewrite round_even_int. lra.
Qed.

Lemma six_inj_bound : forall r s, six r = six s -> Rabs (r - s) <= / 1000000.
Proof.
  intros r s H. pose proof (six_close r) as Hr. pose proof (six_close s) as Hs.
  apply Rabs_le_inv in Hr. apply Rabs_le_inv in Hs. apply Rabs_le. lra.
Qed.

(** binary64: anything below half a millionth is read back as zero *)
Lemma millionths_small : forall m e, (2 * (Zpos m * 1000000) < 2 ^ (- e))%Z -> sf_millionths m e = 0%Z.
Proof.
  intros m e H. unfold sf_millionths. destruct e as [|p|p].
  - cbn in H. lia.
  - change (- Zpos p)%Z with (Zneg p) in H. cbn in H. lia.
  - change (- Zneg p)%Z with (Zpos p) in H.
    rewrite (Z.div_small (Zpos m * 1000000)), (Z.mod_small (Zpos m * 1000000)) by lia.
    cbv zeta. destruct (Z.ltb_spec (2 * (Zpos m * 1000000)) (2 ^ Zpos p)); [reflexivity|lia].
Qed.

Lemma parse_sprintf_F64_small : forall o s m e, (2 * (Zpos m * 1000000) < 2 ^ (- e))%Z ->
  parse_f (N := F64 o) (sprintf_F64 (S754_finite s m e)) = Some (S754_zero s).
Proof.
  intros o s m e H. unfold sprintf_F64. rewrite (millionths_small m e H), parse_fmt6.
  destruct s; reflexivity.
Qed.

(** the binary64 text is the text of the exact value *)
Lemma Int_part_spec : forall r z, r - 1 < IZR z <= r -> z = Int_part r.
Proof.
  intros r z [H1 H2]. destruct (base_Int_part r) as [B1 B2].
  assert (A : (z < Int_part r + 1)%Z) by (apply lt_IZR; rewrite plus_IZR; lra).
  assert (B : (Int_part r < z + 1)%Z) by (apply lt_IZR; rewrite plus_IZR; lra). lia.
Qed.

Lemma Int_part_div : forall a b, (0 < b)%Z -> Int_part (IZR a / IZR b) = (a / b)%Z.
Proof.
  intros a b Hb. symmetry. apply Int_part_spec. assert (Hb' : 0 < IZR b) by (apply IZR_lt; exact Hb).
  pose proof (Z.div_mod a b ltac:(lia)) as E. pose proof (Z.mod_pos_bound a b Hb) as Hm.
  assert (Ea : IZR a / IZR b = IZR (a / b) + IZR (a mod b) / IZR b).
  { rewrite E at 1. rewrite plus_IZR, mult_IZR. field. lra. }
  rewrite Ea. split.
  - assert (IZR (a mod b) / IZR b < 1); [|lra]. apply Rmult_lt_reg_r with (IZR b); [exact Hb'|].
    unfold Rdiv. rewrite Rmult_assoc, Rinv_l, Rmult_1_r, Rmult_1_l by lra. apply IZR_lt. lia.
  - assert (0 <= IZR (a mod b) / IZR b); [|lra]. apply Rmult_le_pos; [apply IZR_le; lia|]. left. apply Rinv_0_lt_compat. exact Hb'.
Qed.

Lemma round_even_div : forall a b, (0 < b)%Z ->
  R_round_even (IZR a / IZR b) =
  (if (2 * (a mod b) <? b)%Z then a / b else if (b <? 2 * (a mod b))%Z then a / b + 1
   else if Z.even (a / b) then a / b else a / b + 1)%Z.
Proof.
  intros a b Hb. unfold R_round_even. rewrite (Int_part_div a b Hb). cbv zeta.
  assert (Hb' : 0 < IZR b) by (apply IZR_lt; exact Hb).
  pose proof (Z.div_mod a b ltac:(lia)) as E.
  assert (Er : IZR a / IZR b - IZR (a / b) = IZR (a mod b) / IZR b).
  { rewrite E at 1. rewrite plus_IZR, mult_IZR. field. lra. }
  rewrite Er. set (r := (a mod b)%Z).
  assert (K : IZR r / IZR b * (2 * IZR b) = IZR (2 * r)) by (rewrite mult_IZR; field; lra).
  assert (L1 : IZR r / IZR b < / 2 <-> (2 * r < b)%Z).
  { split; intro H.
    - apply lt_IZR. rewrite <- K. apply (Rmult_lt_compat_r (2 * IZR b)) in H; lra.
    - apply IZR_lt in H. rewrite <- K in H. apply Rmult_lt_reg_r with (2 * IZR b); lra. }
  assert (L2 : / 2 < IZR r / IZR b <-> (b < 2 * r)%Z).
  { split; intro H.
    - apply lt_IZR. rewrite <- K. apply (Rmult_lt_compat_r (2 * IZR b)) in H; lra.
    - apply IZR_lt in H. rewrite <- K in H. apply Rmult_lt_reg_r with (2 * IZR b); lra. }
  destruct (Z.ltb_spec (2 * r) b) as [H|H].
  - rewrite (proj2 (Rltb_true _ _)); [reflexivity|]. apply L1. exact H.
  - rewrite (proj2 (Rltb_false _ _)) by (apply Rnot_lt_le; intro H0; apply L1 in H0; lia).
    destruct (Z.ltb_spec b (2 * r)) as [H'|H'].
    + rewrite (proj2 (Rltb_true _ _)); [reflexivity|]. apply L2. exact H'.
    + rewrite (proj2 (Rltb_false _ _)) by (apply Rnot_lt_le; intro H0; apply L2 in H0; lia). reflexivity.
Qed.

Lemma millionths_exact : forall m e, sf_millionths m e = R_round_even (IZR (Zpos m) * powerRZ 2 e * 1000000).
Proof.
  intros m e. unfold sf_millionths. destruct e as [|p|p].
  - cbn [powerRZ]. replace (IZR (Z.pos m) * 1 * 1000000) with (IZR (Zpos m * 1000000)) by (rewrite mult_IZR; ring).
    rewrite round_even_int. cbn. lia.
  - replace (IZR (Z.pos m) * powerRZ 2 (Z.pos p) * 1000000) with (IZR (Zpos m * 1000000 * 2 ^ Zpos p)); [symmetry; apply round_even_int|].
    rewrite !mult_IZR. rewrite <- (Zpower_pos_powerRZ 2 p). change (2 ^ Z.pos p)%Z with (Z.pow_pos 2 p).
    change (Z.pow_pos 2 p) with (Zpower_pos 2 p). ring.
  - assert (Hb : (0 < 2 ^ Zpos p)%Z) by (apply Z.pow_pos_nonneg; lia).
    replace (IZR (Z.pos m) * powerRZ 2 (Z.neg p) * 1000000) with (IZR (Zpos m * 1000000) / IZR (2 ^ Zpos p)).
    2:{ change (Z.neg p) with (- Z.pos p)%Z. rewrite powerRZ_neg' by lra. rewrite mult_IZR.
        pose proof (Zpower_pos_powerRZ 2 p) as Q. change (2 ^ Z.pos p)%Z with (Zpower_pos 2 p).
        replace (/ powerRZ 2 (Z.pos p)) with (/ IZR (Zpower_pos 2 p)) by (rewrite Q; reflexivity).
        field. assert (0 < IZR (Zpower_pos 2 p)) by (apply IZR_lt; exact Hb). lra. }
    rewrite round_even_div by exact Hb. reflexivity.
Qed.

Lemma sprintf_F64_exact : forall (s : bool) m e,
  sprintf_F64 (S754_finite s m e) = sprintf_XR (XFin ((if s then -1 else 1) * (IZR (Zpos m) * powerRZ 2 e))).
Proof.
  intros s m e. unfold sprintf_F64, sprintf_XR. rewrite millionths_exact.
  assert (Hp : 0 < IZR (Zpos m) * powerRZ 2 e) by (apply Rmult_lt_0_compat; [apply IZR_lt; lia|apply powerRZ_lt; lra]).
  set (v := IZR (Z.pos m) * powerRZ 2 e) in *. destruct s.
  - rewrite (proj2 (Rltb_true _ _)) by lra. rewrite Rabs_left by lra. do 3 f_equal. ring.
  - rewrite (proj2 (Rltb_false _ _)) by lra. rewrite Rabs_right by lra. do 3 f_equal. ring.
Qed.

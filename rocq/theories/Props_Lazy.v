(** C43: the lazy power matrix. *)
From Coq Require Import Permutation Reals Lra.
From Verif Require Import Base Num Mat Model_Util Proof_Util Proof_Product Props_Util Proof_XR RSum Proof_Norm Model_Lazy Proof_Lazy.

(** [exponents n p]: the exponents of the first n columns in the power map p
    (0 for a column that is not in the map) *)
Definition exponents (n : nat) (p : gomap) : list Z :=
  map (fun k => match find (fun kv => (fst kv =? Z.of_nat k)%Z) p with Some kv => snd kv | None => 0%Z end) (seq 0 n).

(** exponents of a monomial of total degree 2 ... d in n variables *)
Definition monomial_exponents (n : nat) (d : Z) (e : list Z) : Prop :=
  length e = n /\ Forall (fun x => 0 <= x)%Z e /\ (2 <= fold_right Z.add 0 e <= d)%Z.

Lemma exponents_mget : forall n p, exponents n p = map (mget p) (map Z.of_nat (seq 0 n)).
Proof. intros n p. unfold exponents. rewrite map_map. reflexivity. Qed.

Lemma nodup_cols : forall n, NoDup (map Z.of_nat (seq 0 n)).
Proof. intro n. apply FinFun.Injective_map_NoDup; [|apply seq_NoDup]. intros a b H. apply Nat2Z.inj. exact H. Qed.

Lemma in_range : forall d x, In x (map Z.of_nat (seq 0 (Z.to_nat (d + 1)))) <-> (0 <= x <= d)%Z.
Proof.
  intros d x. rewrite in_map_iff. split.
  - intros (k & <- & H). apply in_seq in H. lia.
  - intro H. exists (Z.to_nat x). split; [lia|]. apply in_seq. lia.
Qed.

Lemma in_degree_spec : forall d t, in_degree d t = true <-> (2 <= fold_right Z.add 0 t <= d)%Z.
Proof.
  intros d t. unfold in_degree. rewrite Sum_spec. rewrite negb_true_iff, orb_false_iff, Z.leb_gt, Z.ltb_ge. lia.
Qed.

Lemma NoDup_app_intro : forall A (l l' : list A), NoDup l -> NoDup l' -> (forall x, In x l -> ~ In x l') -> NoDup (l ++ l').
Proof.
  induction l as [|x l IH]; intros l' H1 H2 H; [exact H2|]. inversion H1 as [|? ? N1 N2]; subst. cbn [app]. constructor.
  - rewrite in_app_iff. intros [C|C]; [contradiction|]. apply (H x); simpl; auto.
  - apply IH; auto. intros y Hy. apply H. simpl; auto.
Qed.

Lemma NoDup_tuples : forall vs n, NoDup vs -> NoDup (tuples vs n).
Proof.
  intros vs n ND. induction n as [|n IH]; cbn [tuples]; [repeat constructor; simpl; auto|].
  assert (G : forall l, NoDup l -> NoDup (flat_map (fun v => map (cons v) (tuples vs n)) l)).
  { induction l as [|v l IHl]; intro Hl; cbn [flat_map]; [constructor|]. inversion Hl as [|? ? H1 H2]; subst.
    apply NoDup_app_intro.
    - apply FinFun.Injective_map_NoDup; [intros a b Q; injection Q; auto|exact IH].
    - apply IHl. exact H2.
    - intros t Ht C. apply in_map_iff in Ht. destruct Ht as (t' & <- & _). apply in_flat_map in C.
      destruct C as (w & Hw & C). apply in_map_iff in C. destruct C as (t'' & Q & _). injection Q as -> _. contradiction. }
  apply G. exact ND.
Qed.

(** the power maps stored by NewLazyMatrix, for at most three columns *)
Lemma new_lazy : forall (N : Num) (X : Mat N) d, (mcols X <= 3)%nat -> (-1 <= d)%Z ->
  NewLazyMatrix go_grow X d = Ok (mkLazy X (map (pos_part (map Z.of_nat (seq 0 (mcols X))))
     (filter (in_degree d) (tuples (map Z.of_nat (seq 0 (Z.to_nat (d + 1)))) (mcols X))))).
Proof.
  intros N X d Hc Hd. unfold NewLazyMatrix.
  assert (L : length (map Z.of_nat (seq 0 (mcols X))) = mcols X) by (rewrite map_length, seq_length; reflexivity).
  rewrite (add_sequence N go_grow (mkLazy X []) _ d (tuples (map Z.of_nat (seq 0 (Z.to_nat (d + 1)))) (mcols X)) (nodup_cols _) Hd).
  - reflexivity.
  - rewrite L. apply C42_iter_product_upto_3. exact Hc.
  - intros t Ht. apply tuples_In in Ht. rewrite L. apply Ht.
Qed.

(** With at most three columns exactly one column per monomial of total degree
    2 ... maxPower is added. *)
Theorem C43_monomials_upto_3 : forall (N : Num) (X : Mat N) d, (mcols X <= 3)%nat -> (-1 <= d)%Z ->
  exists lz, NewLazyMatrix go_grow X d = Ok lz /\ lzX lz = X /\
    NoDup (map (exponents (mcols X)) (lzPowers lz)) /\
    forall e, In e (map (exponents (mcols X)) (lzPowers lz)) <-> monomial_exponents (mcols X) d e.
Proof.
  intros N X d Hc Hd. eexists. split; [apply new_lazy; assumption|]. cbn [lzX lzPowers]. split; [reflexivity|].
  set (n := mcols X). set (vs := map Z.of_nat (seq 0 (Z.to_nat (d + 1)))).
  assert (Q : map (exponents n) (map (pos_part (map Z.of_nat (seq 0 n))) (filter (in_degree d) (tuples vs n))) =
              filter (in_degree d) (tuples vs n)).
  { rewrite map_map. transitivity (map (fun t : list Z => t) (filter (in_degree d) (tuples vs n))); [|apply map_id].
    apply map_ext_in. intros t Ht. apply filter_In in Ht. destruct Ht as (Ht & _). apply tuples_In in Ht. destruct Ht as (T1 & T2).
    rewrite exponents_mget. apply mget_pos_part; [apply nodup_cols|rewrite map_length, seq_length; exact T1|].
    eapply Forall_impl; [|exact T2]. intros x Hx. apply in_range in Hx. lia. }
  rewrite Q. split.
  - apply NoDup_filter. apply NoDup_tuples. apply nodup_cols.
  - intro e. rewrite filter_In, in_degree_spec, tuples_In. unfold monomial_exponents. split.
    + intros ((E1 & E2) & E3). split; [exact E1|]. split; [|exact E3]. eapply Forall_impl; [|exact E2].
      intros x Hx. apply in_range in Hx. lia.
    + intros (E1 & E2 & E3). split; [|exact E3]. split; [exact E1|]. apply Forall_forall. intros x Hx. apply in_range.
      rewrite Forall_forall in E2. split; [apply E2; exact Hx|].
      assert (G : forall l x, Forall (fun x => 0 <= x)%Z l -> In x l -> (x <= fold_right Z.add 0 l)%Z).
      { clear. induction l as [|a l IH]; intros x F H; [destruct H|]. inversion F as [|? ? F1 F2]; subst. cbn [fold_right].
        assert (0 <= fold_right Z.add 0 l)%Z by (clear - F2; induction F2; cbn [fold_right]; lia).
        destruct H as [->|H]; [lia|]. specialize (IH x F2 H). lia. }
      assert (F : Forall (fun x => 0 <= x)%Z e) by (apply Forall_forall; exact E2). specialize (G e x F Hx). lia.
Qed.
Print Assumptions C43_monomials_upto_3.

(** value of the monomial with exponents e in row i *)
Definition monomial (A : nat -> nat -> R) (i : nat) (e : list Z) : R :=
  fold_right Rmult 1%R (map (fun c => A i c ^ Z.to_nat (nth c e 0%Z))%R (seq 0 (length e))).

Lemma combine_seq_nth : forall (e : list Z) (f : Z -> Z -> R) a,
  prod_list (map (fun kv => f (fst kv) (snd kv)) (combine (map Z.of_nat (seq a (length e))) e)) =
  fold_right Rmult 1%R (map (fun c => f (Z.of_nat c) (nth (c - a) e 0%Z)) (seq a (length e))).
Proof.
  induction e as [|x e IH]; intros f a; cbn [length seq map combine prod_list fold_right fst snd]; [reflexivity|].
  rewrite Nat.sub_diag. cbn [nth]. f_equal. rewrite (IH f (S a)). f_equal. apply map_ext_in. intros c Hc. apply in_seq in Hc.
  replace (c - a)%nat with (S (c - S a)) by lia. reflexivity.
Qed.

(** FullMatrix: the original columns first, then the value of each monomial,
    whatever the order in which Go walks through the maps. *)
Theorem C43_full_matrix : forall (X : Mat XR) A d lz ord, (mcols X <= 3)%nat -> (0 < mcols X)%nat -> (0 < mrows X)%nat -> (-1 <= d)%Z ->
  rmat X A -> (forall c r p, Permutation (ord c r p) p) -> NewLazyMatrix go_grow X d = Ok lz ->
  exists F, lzFullMatrix ord lz = Ok F /\ mrows F = mrows X /\ mcols F = (mcols X + length (lzPowers lz))%nat /\
    (forall i j, (i < mrows X)%nat -> (j < mcols X)%nat -> mval F i j = mval X i j) /\
    (forall i k p, (i < mrows X)%nat -> nth_error (lzPowers lz) k = Some p ->
       mval F i (mcols X + k) = fin (monomial A i (exponents (mcols X) p))).
Proof.
  intros X A d lz ord Hc Hc0 Hr Hd HA Ho E. rewrite new_lazy in E by assumption. injection E as <-.
  match goal with |- exists F, lzFullMatrix ord ?l = _ /\ _ => set (lz := l) end.
  set (n := mcols X) in *. set (cols := map Z.of_nat (seq 0 n)) in *.
  assert (HP : forall k p, nth_error (lzPowers lz) k = Some p -> exists t, p = pos_part cols t /\ length t = n /\ Forall (fun x => 0 <= x)%Z t).
  { intros k p Hk. apply nth_error_In in Hk. apply in_map_iff in Hk. destruct Hk as (t & <- & Ht). apply filter_In in Ht.
    destruct Ht as (Ht & _). apply tuples_In in Ht. destruct Ht as (T1 & T2). exists t. split; [reflexivity|]. split; [exact T1|].
    eapply Forall_impl; [|exact T2]. intros x Hx. apply in_range in Hx. lia. }
  assert (HW : exists pw : nat -> gomap, forall k p, nth_error (lzPowers lz) k = Some p -> pw k = p).
  { exists (fun k => nth k (lzPowers lz) []). intros k p Hk. apply nth_error_nth. exact Hk. }
  destruct HW as (pw & HW).
  set (col := fun c => if (c <? n)%nat then map (fun i => mval X i c) (seq 0 (mrows X))
                       else map (fun i => fin (prod_list (map (fun kv => A i (Z.to_nat (fst kv)) ^ Z.to_nat (snd kv))%R
                              (pw (c - n)%nat)))) (seq 0 (mrows X))).
  destruct (full_matrix XR ord lz col Hr ltac:(unfold lzNumCols; change (mcols (lzX lz)) with n; lia)) as (F & E & F1 & F2 & F3).
  { intros c Hcc. unfold lzNumCols in Hcc. change (mcols (lzX lz)) with n in Hcc. unfold col.
    destruct (Nat.ltb_spec c n) as [Q|Q].
    - split; [apply (getcol_orig XR (ord c) lz c Q)|rewrite map_length, seq_length; reflexivity].
    - split; [|rewrite map_length, seq_length; reflexivity].
      destruct (nth_error (lzPowers lz) (c - n)) as [p|] eqn:Ep; [|apply nth_error_None in Ep; lia].
      rewrite (HW _ _ Ep). replace c with (mcols (lzX lz) + (c - n))%nat at 2 by (change (mcols (lzX lz)) with n; lia).
      apply (getcol_power (ord c) lz A (c - n) p HA Ep); [intro r; apply Ho|].
      intros kv Hkv. destruct (HP _ _ Ep) as (t & -> & T1 & T2). unfold pos_part in Hkv. apply filter_In in Hkv. destruct Hkv as (K1 & K2).
      apply Z.ltb_lt in K2. split; [|exact K2]. destruct kv as (a, b). apply in_combine_l in K1. apply in_map_iff in K1.
      destruct K1 as (q & <- & K1). apply in_seq in K1. change (mcols (lzX lz)) with n. cbn [fst]. lia. }
  exists F. split; [exact E|]. split; [exact F1|]. split; [exact F2|]. split.
  - intros i j Hi Hj. rewrite F3 by (auto; unfold lzNumCols; change (mcols (lzX lz)) with n; lia). unfold col.
    replace (j <? n)%nat with true by (symmetry; apply Nat.ltb_lt; exact Hj).
    rewrite (nth_indep _ n0 (mval X 0 j)) by (rewrite map_length, seq_length; exact Hi).
    rewrite (map_nth (fun i => mval X i j) (seq 0 (mrows X)) 0%nat i). rewrite seq_nth by exact Hi. reflexivity.
  - intros i k p Hi Hk. assert (Hkl : (k < length (lzPowers lz))%nat) by (apply nth_error_Some; rewrite Hk; discriminate).
    rewrite F3 by (auto; unfold lzNumCols; change (mcols (lzX lz)) with n; lia). unfold col.
    replace (n + k <? n)%nat with false by (symmetry; apply Nat.ltb_ge; lia). replace (n + k - n)%nat with k by lia.
    rewrite (HW _ _ Hk).
    match goal with |- nth i (map ?g _) _ = _ => rewrite (nth_indep _ n0 (g 0%nat)) by (rewrite map_length, seq_length; exact Hi);
      rewrite (map_nth g (seq 0 (mrows X)) 0%nat i) end.
    rewrite seq_nth by exact Hi. cbn [Nat.add]. f_equal.
    destruct (HP _ _ Hk) as (t & -> & T1 & T2). rewrite exponents_mget.
    assert (Lc : length cols = n) by (unfold cols; rewrite map_length, seq_length; reflexivity).
    fold cols. rewrite (mget_pos_part cols t (nodup_cols n) ltac:(congruence) T2).
    rewrite (prod_pos_part (fun k => A i (Z.to_nat k)) cols t ltac:(congruence) T2). unfold monomial, cols. rewrite <- T1.
    rewrite (combine_seq_nth t (fun k v => A i (Z.to_nat k) ^ Z.to_nat v)%R 0). f_equal. apply map_ext. intro c.
    rewrite Nat2Z.id, Nat.sub_0_r. reflexivity.
Qed.
Print Assumptions C43_full_matrix.

(** From four columns on it is wrong: every column added is a copy of the
    maxPower-th power of the fourth column, with six columns or more none is. *)
Theorem C43_four_columns_refuted : forall (N : Num) (X : Mat N) d, (4 <= mcols X)%nat -> (2 <= d)%Z ->
  exists lz, NewLazyMatrix go_grow X d = Ok lz /\
    (forall e, In e (map (exponents (mcols X)) (lzPowers lz)) -> nth 3 e 0%Z = d /\ forall k, k <> 3%nat -> nth k e 0%Z = 0%Z) /\
    ((6 <= mcols X)%nat -> lzPowers lz = []) /\
    (exists e, monomial_exponents (mcols X) d e /\ ~ In e (map (exponents (mcols X)) (lzPowers lz))).
Proof.
  intros N X d Hc Hd. set (n := mcols X) in *. set (vs := map Z.of_nat (seq 0 (Z.to_nat (d + 1)))).
  assert (L : length (map Z.of_nat (seq 0 n)) = n) by (rewrite map_length, seq_length; reflexivity).
  assert (Lb : forall sh t, length (blur sh vs t) = length t).
  { intros sh t. unfold blur. rewrite map_length, combine_length, seq_length. lia. }
  assert (Hlast : last vs 0%Z = d).
  { unfold vs. replace (Z.to_nat (d + 1)) with (S (Z.to_nat d)) by lia. rewrite seq_S, map_app. cbn [map]. rewrite last_last. lia. }
  pose proof (iter_product go_grow go_grow_gt vs n) as EI.
  set (rows := map (blur (shared_cell go_grow) vs) (tuples vs n)) in *.
  assert (Hrow : forall t, In t rows -> length t = n /\ Forall (fun x => 0 <= x)%Z t /\
     (forall k, (k < n)%nat -> shared_cell go_grow k = true -> nth k t 0%Z = d)).
  { intros t Ht. apply in_map_iff in Ht. destruct Ht as (u & <- & Hu). apply tuples_In in Hu. destruct Hu as (U1 & U2).
    split; [rewrite Lb; exact U1|].
    assert (Hn : forall k, (k < n)%nat -> nth k (blur (shared_cell go_grow) vs u) 0%Z = if shared_cell go_grow k then last vs 0%Z else nth k u 0%Z).
    { intros k Hk. unfold blur. set (g := fun p : nat * Z => if shared_cell go_grow (fst p) then last vs 0%Z else snd p).
      rewrite (nth_indep _ 0%Z (g (0%nat, 0%Z))) by (rewrite map_length, combine_length, seq_length; lia).
      rewrite (map_nth g), combine_nth by (rewrite seq_length; reflexivity). unfold g. cbn [fst snd]. rewrite seq_nth by lia. reflexivity. }
    split.
    - apply Forall_forall. intros x Hx. destruct (In_nth _ _ 0%Z Hx) as (k & Hk & <-). rewrite Lb in Hk. rewrite Hn by lia.
      destruct (shared_cell go_grow k); [rewrite Hlast; lia|].
      rewrite Forall_forall in U2. specialize (U2 (nth k u 0%Z) ltac:(apply nth_In; lia)). apply in_range in U2. lia.
    - intros k Hk Hs. rewrite Hn by exact Hk. rewrite Hs. exact Hlast. }
  assert (E : NewLazyMatrix go_grow X d = Ok (mkLazy X (map (pos_part (map Z.of_nat (seq 0 n))) (filter (in_degree d) rows)))).
  { unfold NewLazyMatrix. rewrite (add_sequence N go_grow (mkLazy X []) _ d rows (nodup_cols _)); [reflexivity|lia| |].
    - change (mcols X) with n. rewrite L. exact EI.
    - intros t Ht. change (mcols X) with n. rewrite L. apply Hrow. exact Ht. }
  assert (S3 : shared_cell go_grow 3 = true).
  { apply shared_go. split; [lia|]. intros [|[|[|e]]]; cbn; lia. }
  assert (S5 : shared_cell go_grow 5 = true).
  { apply shared_go. split; [lia|]. intros [|[|[|[|e]]]]; cbn; lia. }
  assert (Q : map (exponents n) (map (pos_part (map Z.of_nat (seq 0 n))) (filter (in_degree d) rows)) = filter (in_degree d) rows).
  { rewrite map_map. transitivity (map (fun t : list Z => t) (filter (in_degree d) rows)); [|apply map_id].
    apply map_ext_in. intros t Ht. apply filter_In in Ht. destruct Ht as (Ht & _). destruct (Hrow t Ht) as (T1 & T2 & _).
    rewrite exponents_mget. apply mget_pos_part; [apply nodup_cols|rewrite L; exact T1|exact T2]. }
  assert (Gsum : forall l, Forall (fun x => 0 <= x)%Z l -> (0 <= fold_right Z.add 0 l)%Z).
  { induction 1; cbn [fold_right]; lia. }
  assert (Gone : forall k l, Forall (fun x => 0 <= x)%Z l -> (nth k l 0 <= fold_right Z.add 0 l)%Z).
  { induction k as [|k IH]; intros [|a l] F; cbn [nth fold_right]; try lia; pose proof (Forall_inv F) as F1; pose proof (Forall_inv_tail F) as F2; cbv beta in F1;
      [specialize (Gsum l F2)|specialize (IH l F2)]; lia. }
  assert (Gtwo : forall k j l, (k < j)%nat -> Forall (fun x => 0 <= x)%Z l -> (nth k l 0 + nth j l 0 <= fold_right Z.add 0 l)%Z).
  { induction k as [|k IH]; intros [|j] [|a l] Hkj F; try lia; cbn [nth fold_right]; try lia; pose proof (Forall_inv F) as F1; pose proof (Forall_inv_tail F) as F2; cbv beta in F1.
    - specialize (Gone j l F2). lia.
    - specialize (IH j l ltac:(lia) F2). lia. }
  assert (Hkeep : forall e, In e (filter (in_degree d) rows) -> nth 3 e 0%Z = d /\ forall k, k <> 3%nat -> nth k e 0%Z = 0%Z).
  { intros e He. apply filter_In in He. destruct He as (He & Hd'). apply in_degree_spec in Hd'. destruct (Hrow e He) as (T1 & T2 & T3).
    specialize (T3 3%nat ltac:(lia) S3). split; [exact T3|]. intros k Hk.
    assert (0 <= nth k e 0)%Z.
    { destruct (Nat.lt_ge_cases k (length e)); [|rewrite nth_overflow by lia; lia]. rewrite Forall_forall in T2. apply T2. apply nth_In. assumption. }
    destruct (Nat.lt_ge_cases k 3) as [K|K]; [specialize (Gtwo k 3%nat e K T2)|specialize (Gtwo 3%nat k e ltac:(lia) T2)]; lia. }
  eexists. split; [exact E|]. cbn [lzPowers]. rewrite Q. split; [exact Hkeep|]. split.
  - intro H6. destruct (filter (in_degree d) rows) as [|e l] eqn:Ef; [reflexivity|]. exfalso.
    destruct (Hkeep e ltac:(simpl; auto)) as (_ & K). specialize (K 5%nat ltac:(lia)).
    assert (He : In e (filter (in_degree d) rows)) by (rewrite Ef; simpl; auto). apply filter_In in He.
    destruct (Hrow e (proj1 He)) as (_ & _ & T3). specialize (T3 5%nat ltac:(lia) S5). lia.
  - exists (2%Z :: repeat 0%Z (n - 1)). split.
    + split; [cbn [length]; rewrite repeat_length; lia|]. split.
      * constructor; [lia|]. apply Forall_forall. intros x Hx. apply repeat_spec in Hx. lia.
      * cbn [fold_right]. assert (forall k, fold_right Z.add 0%Z (repeat 0%Z k) = 0%Z) as -> by (induction k; cbn [repeat fold_right]; lia). lia.
    + intro C. destruct (Hkeep _ C) as (_ & K). specialize (K 0%nat ltac:(lia)). cbn in K. lia.
Qed.
Print Assumptions C43_four_columns_refuted.

(** *** the case of the unit test: columns (1,2) and (1,3), maxPower = 2 *)
Definition exz_X : Mat XR := mkMat 2 2 (fun i j => fin (nth j (nth i [[1; 1]; [2; 3]]%R []) 0%R)).
Example C43_example : exists lz, NewLazyMatrix go_grow exz_X 2 = Ok lz /\
  map (exponents 2) (lzPowers lz) = [[0; 2]; [1; 1]; [2; 0]]%Z /\
  exists F, lzFullMatrix (fun _ _ p => p) lz = Ok F /\ mcols F = 5%nat /\ mval F 1 3 = fin 6.
Proof.
  assert (E : NewLazyMatrix go_grow exz_X 2 = Ok (mkLazy exz_X [[(1, 2)]; [(0, 1); (1, 1)]; [(0, 2)]]%Z)) by reflexivity.
  eexists. split; [exact E|]. split; [reflexivity|].
  destruct (C43_full_matrix exz_X (fun i j => nth j (nth i [[1; 1]; [2; 3]]%R []) 0%R) 2 _ (fun _ _ p => p)
    ltac:(cbn; lia) ltac:(cbn; lia) ltac:(cbn; lia) ltac:(lia) ltac:(intros i j Hi Hj; reflexivity) ltac:(intros; apply Permutation_refl) E)
    as (F & E1 & _ & E2 & _ & E3).
  exists F. split; [exact E1|]. split; [exact E2|]. specialize (E3 1%nat 1%nat _ ltac:(cbn; lia) eq_refl).
  change (mcols exz_X + 1)%nat with 3%nat in E3. rewrite E3. f_equal. unfold monomial.
  cbn [exponents map seq length fold_right nth find fst snd]. cbn. change (Pos.to_nat 1) with 1%nat. lra.
Qed.

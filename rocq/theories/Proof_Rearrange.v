(** Lemmas behind C44: RearrangeDense. *)
From Coq Require Import Sorting.Permutation.
From Verif Require Import Base Num Mat Model_Node Model_Util Proof_Node Proof_Node2 Proof_Util.

(** entries that name a column *)
Definition kept (order : list Z) : list Z := filter (fun c => negb (c =? -1)%Z) order.
(** columns of the matrix not named, in original order *)
Definition remaining (nc : nat) (order : list Z) : list nat :=
  filter (fun q => negb (ExistInt order (Z.of_nat q))) (seq 0 nc).
(** what RearrangeDense accepts *)
Definition valid_order (nc : nat) (order : list Z) : Prop :=
  (forall k c, nth_error order k = Some c ->
     c = (-1)%Z \/ ((0 <= c < Z.of_nat nc)%Z /\ (k < nc)%nat)) /\
  NoDup (kept order).

Lemma mat_atz_in : forall (N : Num) (m : Mat N) i c,
  (i < mrows m)%nat -> (0 <= c < Z.of_nat (mcols m))%Z ->
  mat_atz m (Z.of_nat i) c = Ok (mval m i (Z.to_nat c)).
Proof.
  intros N m i c Hi Hc. unfold mat_atz.
  destruct (Z.ltb_spec (Z.of_nat i) 0); [lia|]. destruct (Z.ltb_spec c 0); [lia|]. cbn [orb].
  rewrite Nat2Z.id. apply mat_at_in; lia.
Qed.

Lemma mat_atz_out : forall (N : Num) (m : Mat N) i c,
  ~ (0 <= c < Z.of_nat (mcols m))%Z -> mat_atz m (Z.of_nat i) c = Panic.
Proof.
  intros N m i c Hc. unfold mat_atz.
  destruct (Z.ltb_spec c 0); [rewrite orb_true_r; reflexivity|].
  destruct (Z.ltb_spec (Z.of_nat i) 0); [lia|]. cbn [orb]. apply mat_at_out. lia.
Qed.

(** writing one whole column *)
Lemma col_fill : forall (N : Num) (f : nat -> N) n (m : Mat N) c,
  mrows m = n -> (c < mcols m)%nat ->
  exists m', for_loop 0 n (fun j m => mat_set m j c (f j)) m = Ok m' /\
    mrows m' = mrows m /\ mcols m' = mcols m /\
    forall a b, (a < n)%nat -> mval m' a b = if (b =? c)%nat then f a else mval m a b.
Proof.
  intros N f n m c Hn Hc.
  destruct (for_loop_inv _ (fun j (d : Mat N) => mrows d = mrows m /\ mcols d = mcols m /\
      forall a b, mval d a b = if (b =? c)%nat && (a <? j)%nat then f a else mval m a b)
      (fun j m => mat_set m j c (f j)) n 0 m) as (m' & E & H1 & H2 & H3).
  - repeat split; auto. intros a b. rewrite andb_false_r. reflexivity.
  - intros j d Hj (G1 & G2 & G3). rewrite mat_set_in by lia. eexists; split; [reflexivity|].
    simpl. split; auto. split; auto. intros a b.
    destruct (Nat.eqb_spec b c); [|rewrite andb_false_r, G3, (proj2 (Nat.eqb_neq b c)) by auto; reflexivity].
    subst b. rewrite andb_true_r. destruct (Nat.eqb_spec a j).
    + subst. destruct (Nat.ltb_spec j (S j)); [reflexivity|lia].
    + rewrite G3, Nat.eqb_refl. cbn [andb].
      destruct (Nat.ltb_spec a j), (Nat.ltb_spec a (S j)); auto; lia.
  - exists m'. split; [exact E|]. split; auto. split; auto. intros a b Ha. rewrite H3. simpl.
    apply Nat.ltb_lt in Ha. rewrite Ha, andb_true_r. reflexivity.
Qed.

Lemma kept_snoc : forall order i, (i < length order)%nat ->
  kept (firstn (S i) order) = kept (firstn i order) ++
    (if negb (nth i order (-1) =? -1)%Z then [nth i order (-1)%Z] else []).
Proof.
  intros order i Hi. rewrite (firstn_succ Z order i (-1)%Z Hi). unfold kept. rewrite filter_app.
  simpl. destruct (negb (nth i order (-1) =? -1)%Z); reflexivity.
Qed.

Lemma ExistInt_snoc : forall l x q, ExistInt (l ++ [x]) q = ExistInt l q || (x =? q)%Z.
Proof.
  intros l x q. apply Bool.eq_iff_eq_true. rewrite orb_true_iff, !ExistInt_In, in_app_iff, Z.eqb_eq.
  simpl. intuition.
Qed.

Lemma NoDup_map_in : forall A B (f : A -> B) l,
  (forall x y, In x l -> In y l -> f x = f y -> x = y) -> NoDup l -> NoDup (map f l).
Proof.
  induction l as [|x l IH]; intros Hf H; simpl; [constructor|].
  inversion H; subst. constructor.
  - rewrite in_map_iff. intros (y & Hy & Hin). apply H2.
    rewrite (Hf x y); simpl; auto.
  - apply IH; auto. intros; apply Hf; simpl; auto.
Qed.

Lemma filter_length_le : forall A (f : A -> bool) l, (length (filter f l) <= length l)%nat.
Proof. induction l as [|x l IH]; simpl; auto. destruct (f x); simpl; lia. Qed.

Section Rearr.
  Variable N : Num.
  Variable X : Mat N.
  Variable order : list Z.
  Hypothesis Hr : (0 < mrows X)%nat.
  Hypothesis Hcols : (0 < mcols X)%nat.

  Definition entries_ok : Prop := forall k c, nth_error order k = Some c ->
     c = (-1)%Z \/ ((0 <= c < Z.of_nat (mcols X))%Z /\ (k < mcols X)%nat).

  (** state after [i] rounds of the first loop *)
  Definition ph1 (i : nat) (st : Mat N * list bool * nat) : Prop :=
    let '(m, ins, num) := st in
    mrows m = mrows X /\ mcols m = mcols X /\ length ins = mcols X /\
    num = length (kept (firstn i order)) /\
    (forall q, (q < mcols X)%nat -> nth q ins false = ExistInt (firstn i order) (Z.of_nat q)) /\
    (forall k c, (k < i)%nat -> nth_error order k = Some c ->
       c = (-1)%Z \/ ((0 <= c < Z.of_nat (mcols X))%Z /\ (k < mcols X)%nat)) /\
    (forall a b, (a < mrows X)%nat -> mval m a b =
       if (b <? i)%nat && negb (nth b order (-1) =? -1)%Z
       then mval X a (Z.to_nat (nth b order (-1)%Z)) else n0).

  Definition body1 (i : nat) (st : Mat N * list bool * nat) :=
      let '(m, ins, num) := st in
      do c <- getn order i;
      if negb (c =? -1)%Z then
        do m <- for_loop 0 (mrows X) (fun j m => do v <- mat_atz X (Z.of_nat j) c; mat_set m j i v) m;
        do ins <- setz ins c true;
        Ok (m, ins, S num)
      else Ok st.

  Lemma phase1 : 
    (for_loop 0 (length order) body1 (mkMat (mrows X) (mcols X) (fun _ _ => n0), repeat false (mcols X), O) = Panic
       /\ ~ entries_ok) \/
    exists st, for_loop 0 (length order) body1
       (mkMat (mrows X) (mcols X) (fun _ _ => n0), repeat false (mcols X), O) = Ok st /\
       ph1 (length order) st /\ entries_ok.
  Proof.
    destruct (for_loop_or_panic _ ph1 (~ entries_ok) body1 (length order) 0
      (mkMat (mrows X) (mcols X) (fun _ _ => n0), repeat false (mcols X), O)) as [[E HQ]|(st & E & HP)].
    - unfold ph1. simpl. rewrite repeat_length. repeat split; auto.
      + intros q _. apply nth_repeat_false.
      + intros; lia.
    - intros i [[m ins] num] Hi (H1 & H2 & H3 & H4 & H5 & H6 & H7). unfold body1.
      rewrite (getn_lt _ _ _ (-1)%Z) by lia. cbn [bind].
      assert (Hnth : nth_error order i = Some (nth i order (-1)%Z)) by (apply nth_error_nth'; lia).
      set (c := nth i order (-1)%Z) in *.
      destruct (Z.eqb_spec c (-1)) as [Ec|Ec]; cbn [negb].
      + right. eexists; split; [reflexivity|]. unfold ph1.
        split; auto. split; auto. split; auto. split.
        { rewrite kept_snoc by lia. fold c. rewrite Ec. rewrite app_nil_r. exact H4. }
        split.
        { intros q Hq. rewrite H5 by auto. rewrite (firstn_succ Z order i (-1)%Z) by lia. fold c.
          rewrite ExistInt_snoc, Ec. destruct (Z.eqb_spec (-1) (Z.of_nat q)); [lia|]. rewrite orb_false_r. reflexivity. }
        split.
        { intros k c' Hk Hc'. destruct (Nat.eq_dec k i) as [->|]; [|apply (H6 k); auto; lia].
          left. congruence. }
        intros a b Ha. rewrite H7 by auto.
        destruct (Nat.eq_dec b i) as [->|Hb].
        { fold c. rewrite Ec. rewrite !andb_false_r. reflexivity. }
        { destruct (Nat.ltb_spec b i), (Nat.ltb_spec b (S i)); auto; lia. }
      + destruct (Z_lt_dec c 0) as [Hneg|Hneg].
        { left. split.
          - destruct (mrows X) as [|r] eqn:Er; [lia|]. cbn [for_loop].
            rewrite mat_atz_out by lia. reflexivity.
          - intro HV. destruct (HV i c Hnth); lia. }
        destruct (Z_lt_dec c (Z.of_nat (mcols X))) as [Hlt|Hlt].
        2:{ left. split.
          - destruct (mrows X) as [|r] eqn:Er; [lia|]. cbn [for_loop].
            rewrite mat_atz_out by lia. reflexivity.
          - intro HV. destruct (HV i c Hnth); lia. }
        destruct (Nat.ltb_spec i (mcols X)) as [Hic|Hic].
        2:{ left. split.
          - destruct (mrows X) as [|r] eqn:Er; [lia|]. cbn [for_loop].
            rewrite (mat_atz_in N X 0 c) by lia. cbn [bind]. rewrite mat_set_out by lia. reflexivity.
          - intro HV. destruct (HV i c Hnth); lia. }
        right.
        rewrite (for_loop_ext _ _ (fun j m => mat_set m j i (mval X j (Z.to_nat c)))).
        2:{ intros j s Hj. rewrite mat_atz_in by lia. reflexivity. }
        destruct (col_fill N (fun j => mval X j (Z.to_nat c)) (mrows X) m i H1 ltac:(lia)) as (m' & Em & G1 & G2 & G3).
        rewrite Em. cbn [bind]. rewrite setz_in by lia. cbn [bind].
        eexists; split; [reflexivity|]. unfold ph1. split; [congruence|]. split; [congruence|].
        split; [rewrite upd_length; auto|]. split.
        { rewrite kept_snoc by lia. fold c. destruct (Z.eqb_spec c (-1)); [contradiction|]. cbn [negb].
          rewrite app_length. simpl. lia. }
        split.
        { intros q Hq. rewrite (firstn_succ Z order i (-1)%Z) by lia. fold c.
          rewrite ExistInt_snoc, nth_upd, <- H5 by auto.
          destruct (Nat.eqb_spec q (Z.to_nat c)) as [Eq|Eq].
          - destruct (Nat.ltb_spec (Z.to_nat c) (length ins)); [|lia].
            destruct (Z.eqb_spec c (Z.of_nat q)); [rewrite orb_true_r; reflexivity|lia].
          - destruct (Z.eqb_spec c (Z.of_nat q)); [lia|rewrite orb_false_r; reflexivity]. }
        split.
        { intros k c' Hk Hc'. destruct (Nat.eq_dec k i) as [->|]; [|apply (H6 k); auto; lia].
          right. rewrite Hnth in Hc'. injection Hc' as <-. lia. }
        intros a b Ha. rewrite G3 by auto. destruct (Nat.eqb_spec b i) as [->|Hb].
        { fold c. destruct (Nat.ltb_spec i (S i)); [|lia]. destruct (Z.eqb_spec c (-1)); [contradiction|].
          reflexivity. }
        { rewrite H7 by auto. destruct (Nat.ltb_spec b i), (Nat.ltb_spec b (S i)); auto; lia. }
    - left. auto.
    - right. exists st. split; [exact E|]. split; [exact HP|]. destruct st as [[m ins] num].
      destruct HP as (_ & _ & _ & _ & _ & H6 & _). intros k c Hk. apply (H6 k); auto.
      assert (k < length order)%nat by (apply nth_error_Some; congruence). lia.
  Qed.

  Section Phase2.
    Variable m0 : Mat N.
    Variable ins : list bool.
    Variable num0 : nat.
    Hypothesis P1 : ph1 (length order) (m0, ins, num0).

    Definition rem (i : nat) : list nat := filter (fun q => negb (ExistInt order (Z.of_nat q))) (seq 0 i).

    Lemma rem_S : forall i, rem (S i) = rem i ++ (if negb (ExistInt order (Z.of_nat i)) then [i] else []).
    Proof.
      intro i. unfold rem. rewrite seq_S, filter_app. simpl.
      destruct (negb (ExistInt order (Z.of_nat i))); reflexivity.
    Qed.

    Definition body2 (i : nat) (st : Mat N * nat) :=
      let '(m, num) := st in
      do b <- getn ins i;
      if negb b then
        do m <- for_loop 0 (mrows X) (fun j m => do v <- mat_at X j i; mat_set m j num v) m;
        Ok (m, S num)
      else Ok st.

    Definition ph2 (i : nat) (st : Mat N * nat) : Prop :=
      let '(m, num) := st in
      mrows m = mrows X /\ mcols m = mcols X /\ num = (num0 + length (rem i))%nat /\
      (length (rem i) = O \/ (num <= mcols X)%nat) /\
      (forall a b, (a < mrows X)%nat -> mval m a b =
         if (num0 <=? b)%nat && (b <? num)%nat then mval X a (nth (b - num0) (rem i) O) else mval m0 a b).

    Lemma rem_mono : forall i k, (i <= k)%nat -> (length (rem i) <= length (rem k))%nat.
    Proof.
      intros i k H. induction H as [|k H IH]; [lia|]. rewrite rem_S, app_length. lia.
    Qed.

    Lemma phase2 :
      (for_loop 0 (length ins) body2 (m0, num0) = Panic /\ (mcols X < num0 + length (rem (mcols X)))%nat) \/
      exists st, for_loop 0 (length ins) body2 (m0, num0) = Ok st /\ ph2 (mcols X) st.
    Proof.
      destruct P1 as (H1 & H2 & H3 & H4 & H5 & H6 & H7). rewrite H3.
      destruct (for_loop_or_panic _ ph2 (mcols X < num0 + length (rem (mcols X)))%nat body2 (mcols X) 0 (m0, num0))
        as [[E HQ]|(st & E & HP)].
      - unfold ph2. split; auto. split; auto. split; [simpl; lia|]. split; [left; reflexivity|].
        intros a b Ha. simpl.
        destruct (Nat.leb_spec num0 b), (Nat.ltb_spec b num0); auto; lia.
      - intros i [m num] Hi (G1 & G2 & G3 & G4 & G5). unfold body2.
        rewrite (getn_lt _ _ _ false) by lia. cbn [bind].
        rewrite H5 by lia. rewrite firstn_all.
        destruct (ExistInt order (Z.of_nat i)) eqn:Ex; cbn [negb].
        + right. eexists; split; [reflexivity|]. unfold ph2. rewrite rem_S, Ex. cbn [negb].
          rewrite app_nil_r. auto.
        + assert (Hrem : rem (S i) = rem i ++ [i]) by (rewrite rem_S, Ex; reflexivity).
          destruct (Nat.ltb_spec num (mcols X)) as [Hn|Hn].
          * right.
            rewrite (for_loop_ext _ _ (fun j m => mat_set m j num (mval X j i))).
            2:{ intros j s Hj. rewrite mat_at_in by lia. reflexivity. }
            destruct (col_fill N (fun j => mval X j i) (mrows X) m num G1 ltac:(lia)) as (m' & Em & K1 & K2 & K3).
            rewrite Em. cbn [bind]. eexists; split; [reflexivity|]. unfold ph2.
            rewrite Hrem, app_length. cbn [length].
            split; [congruence|]. split; [congruence|]. split; [lia|]. split; [right; lia|].
            intros a b Ha. rewrite K3 by auto. destruct (Nat.eqb_spec b num) as [->|Hb].
            -- destruct (Nat.leb_spec num0 num); [|lia]. destruct (Nat.ltb_spec num (S num)); [|lia]. cbn [andb].
               rewrite app_nth2 by lia. replace (num - num0 - length (rem i))%nat with O by lia. reflexivity.
            -- rewrite G5 by auto.
               destruct (Nat.leb_spec num0 b); [|reflexivity]. cbn [andb].
               destruct (Nat.ltb_spec b num), (Nat.ltb_spec b (S num)); try lia; auto.
               rewrite app_nth1 by lia. reflexivity.
          * left. split.
            -- destruct (mrows X) as [|r] eqn:Er; [lia|]. cbn [for_loop].
               rewrite mat_at_in by lia. cbn [bind]. rewrite mat_set_out by lia. reflexivity.
            -- assert (length (rem (S i)) <= length (rem (mcols X)))%nat by (apply rem_mono; lia).
               rewrite Hrem, app_length in H. simpl in H. lia.
      - left. auto.
      - right. exists st. auto.
    Qed.
  End Phase2.

  Lemma rearr_unfold : RearrangeDense X order =
    do (m, ins, num) <- for_loop 0 (length order) body1
       (mkMat (mrows X) (mcols X) (fun _ _ => n0), repeat false (mcols X), O);
    do (m, _) <- for_loop 0 (length ins) (body2 ins) (m, num);
    Ok m.
  Proof.
    unfold RearrangeDense, new_dense.
    destruct (Nat.eqb_spec (mrows X) 0); [lia|]. destruct (Nat.eqb_spec (mcols X) 0); [lia|].
    reflexivity.
  Qed.

  Lemma kept_In : forall c, In c (kept order) <-> In c order /\ c <> (-1)%Z.
  Proof.
    intro c. unfold kept. rewrite filter_In, negb_true_iff, Z.eqb_neq. tauto.
  Qed.

  Lemma count_perm : entries_ok ->
    Permutation (seq 0 (mcols X)) (nodup Nat.eq_dec (map Z.to_nat (kept order)) ++ rem (mcols X)).
  Proof.
    intro HV. apply NoDup_Permutation.
    - apply seq_NoDup.
    - assert (D : forall l1 l2 : list nat, NoDup l1 -> NoDup l2 -> (forall x, In x l1 -> ~ In x l2) -> NoDup (l1 ++ l2)).
      { clear. induction l1 as [|x l1 IH]; intros l2 A B C; simpl; auto.
        inversion A; subst. constructor.
        - rewrite in_app_iff. intros [?|?]; [auto|]. apply (C x); [left; auto|auto].
        - apply IH; auto. intros y Hy. apply C; right; auto. }
      apply D.
      + apply NoDup_nodup.
      + apply NoDup_filter, seq_NoDup.
      + intros x Hx Hx2. apply nodup_In in Hx. apply in_map_iff in Hx. destruct Hx as (c & Hc & Hin).
        unfold rem in Hx2. apply filter_In in Hx2. destruct Hx2 as [_ Hx2].
        apply negb_true_iff, ExistInt_false in Hx2. apply kept_In in Hin. destruct Hin as [Hin Hne].
        apply Hx2. destruct (In_nth_error _ _ Hin) as (k & Hk). destruct (HV k c Hk) as [?|[? ?]]; [contradiction|].
        subst x. rewrite Z2Nat.id by lia. exact Hin.
    - intro x. rewrite in_app_iff, nodup_In, in_map_iff, in_seq. unfold rem. rewrite filter_In, in_seq.
      split.
      + intro Hx. destruct (ExistInt order (Z.of_nat x)) eqn:Ex.
        * left. exists (Z.of_nat x). split; [apply Nat2Z.id|]. apply kept_In. split; [|lia].
          apply ExistInt_In, Ex.
        * right. auto.
      + intros [(c & Hc & Hin)|[Hx _]]; [|exact Hx].
        apply kept_In in Hin. destruct Hin as [Hin Hne].
        destruct (In_nth_error _ _ Hin) as (k & Hk). destruct (HV k c Hk) as [?|[? ?]]; [contradiction|]. lia.
  Qed.

  Lemma count_len : entries_ok ->
    mcols X = (length (nodup Nat.eq_dec (map Z.to_nat (kept order))) + length (rem (mcols X)))%nat.
  Proof.
    intro HV. pose proof (Permutation_length (count_perm HV)) as H.
    rewrite seq_length, app_length in H. exact H.
  Qed.

  Lemma kept_inj : entries_ok -> (NoDup (kept order) <-> NoDup (map Z.to_nat (kept order))).
  Proof.
    intro HV. split; [|apply NoDup_map_inv].
    intro H. apply NoDup_map_in; auto.
    intros x y Hx Hy Hxy. apply kept_In in Hx. apply kept_In in Hy.
    destruct (In_nth_error _ _ (proj1 Hx)) as (k & Hk). destruct (In_nth_error _ _ (proj1 Hy)) as (k' & Hk').
    destruct (HV _ _ Hk) as [?|[? ?]]; [tauto|]. destruct (HV _ _ Hk') as [?|[? ?]]; [tauto|]. lia.
  Qed.

  Lemma nodup_short : forall l : list nat, ~ NoDup l -> (length (nodup Nat.eq_dec l) < length l)%nat.
  Proof.
    induction l as [|x l IH]; intro H; [exfalso; apply H; constructor|].
    simpl. destruct (in_dec Nat.eq_dec x l) as [Hx|Hx].
    - assert (length (nodup Nat.eq_dec l) <= length l)%nat.
      { clear. induction l as [|y l IH]; simpl; auto. destruct (in_dec Nat.eq_dec y l); simpl; lia. }
      lia.
    - simpl. apply -> Nat.succ_lt_mono. apply IH. intro Hl. apply H. constructor; auto.
  Qed.

  Lemma rearr_ok : valid_order (mcols X) order ->
    exists M, RearrangeDense X order = Ok M /\ mrows M = mrows X /\ mcols M = mcols X /\
      forall j k, (j < mrows X)%nat -> (k < mcols X)%nat ->
        mval M j k =
        if (k <? length (kept order))%nat
        then (if (nth k order (-1) =? -1)%Z then n0 else mval X j (Z.to_nat (nth k order (-1)%Z)))
        else mval X j (nth (k - length (kept order)) (remaining (mcols X) order) O).
  Proof.
    intros [HV HD]. rewrite rearr_unfold.
    destruct phase1 as [[_ Hn]|([[m ins] num] & E1 & P1 & _)]; [contradiction|].
    rewrite E1. cbn [bind].
    assert (Hlen : mcols X = (length (kept order) + length (rem (mcols X)))%nat).
    { rewrite (count_len HV) at 1. f_equal.
      rewrite nodup_fixed_point by (apply kept_inj; auto). apply map_length. }
    assert (Hnum : num = length (kept order)).
    { destruct P1 as (_ & _ & _ & H4 & _). rewrite firstn_all in H4. exact H4. }
    destruct (phase2 m ins num P1) as [[_ Hbad]|([m' num'] & E2 & P2)]; [lia|].
    rewrite E2. cbn [bind]. exists m'. split; [reflexivity|].
    destruct P2 as (G1 & G2 & G3 & G4 & G5). split; auto. split; auto.
    intros j k Hj Hk. rewrite G5 by auto. rewrite Hnum in *.
    change (remaining (mcols X) order) with (rem (mcols X)).
    destruct (Nat.ltb_spec k (length (kept order))) as [H|H].
    - destruct (Nat.leb_spec (length (kept order)) k); [lia|]. cbn [andb].
      destruct P1 as (_ & _ & _ & _ & _ & _ & H7). rewrite H7 by auto.
      destruct (Nat.ltb_spec k (length order)) as [Hl|Hl]; cbn [andb].
      + destruct (nth k order (-1) =? -1)%Z; reflexivity.
      + rewrite nth_overflow by lia. reflexivity.
    - destruct (Nat.leb_spec (length (kept order)) k); [|lia].
      destruct (Nat.ltb_spec k num'); [|lia]. reflexivity.
  Qed.

  Lemma rearr_panic : ~ valid_order (mcols X) order -> RearrangeDense X order = Panic.
  Proof.
    intro HNV. rewrite rearr_unfold.
    destruct phase1 as [[E1 _]|([[m ins] num] & E1 & P1 & HV)]; [rewrite E1; reflexivity|].
    rewrite E1. cbn [bind].
    assert (Hdup : ~ NoDup (map Z.to_nat (kept order))).
    { intro H. apply HNV. split; [exact HV|]. apply kept_inj; auto. }
    apply nodup_short in Hdup. rewrite map_length in Hdup.
    pose proof (count_len HV) as Hlen.
    assert (Hnum : num = length (kept order)).
    { destruct P1 as (_ & _ & _ & H4 & _). rewrite firstn_all in H4. exact H4. }
    destruct (phase2 m ins num P1) as [[E2 _]|([m' num'] & E2 & P2)]; [rewrite E2; reflexivity|].
    exfalso. destruct P2 as (G1 & G2 & G3 & [G4|G4] & G5); [|lia].
    (* no column left over: every column is named, so the list is too long *)
    rewrite G4 in Hlen.
    assert (Hk : (length (kept order) <= mcols X)%nat).
    { destruct (Nat.le_gt_cases (length order) (mcols X)) as [H|H].
      - unfold kept. pose proof (filter_length_le Z (fun c => negb (c =? -1)%Z) order). lia.
      - assert (Hs : kept (skipn (mcols X) order) = []).
        { destruct (kept (skipn (mcols X) order)) as [|c t] eqn:Ek; auto. exfalso.
          assert (Hc : In c (kept (skipn (mcols X) order))) by (rewrite Ek; left; auto).
          unfold kept in Hc. apply filter_In in Hc. destruct Hc as [Hc Hne].
          apply negb_true_iff, Z.eqb_neq in Hne. destruct (In_nth_error _ _ Hc) as (k & Hk).
          assert (Hk' : nth_error order (mcols X + k) = Some c).
          { rewrite <- Hk. rewrite <- (firstn_skipn (mcols X) order) at 1.
            rewrite nth_error_app2; rewrite firstn_length; [|lia]. f_equal. lia. }
          destruct (HV _ _ Hk') as [?|[_ ?]]; [contradiction|lia]. }
        assert (kept order = kept (firstn (mcols X) order)).
        { rewrite <- (firstn_skipn (mcols X) order) at 1. unfold kept in *. rewrite filter_app, Hs, app_nil_r. reflexivity. }
        rewrite H0. unfold kept. pose proof (filter_length_le Z (fun c => negb (c =? -1)%Z) (firstn (mcols X) order)).
        rewrite firstn_length in H1. lia. }
    lia.
  Qed.
End Rearr.

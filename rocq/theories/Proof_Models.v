(** Lemmas behind C07-C10 *)
From Coq Require Import Sorting.Sorted.
From Verif Require Import Base Num Mat Model_Node Proof_Node Proof_Node2.

(** [m'] belongs to the subtree of [m] at level [k]: same length and the first
    [k] bits agree (the bits "not altered"). *)
Definition agree_upto (k : nat) (m m' : list bool) : Prop :=
  length m' = length m /\ forall i, (i < k)%nat -> nth i m' false = nth i m false.

Definition incl_model (a b : list bool) : Prop :=
  forall i, nth i a false = true -> nth i b false = true.

Lemma nf_incl : forall a b, length a = length b -> incl_model a b ->
  (NumFeatures a <= NumFeatures b)%nat.
Proof.
  induction a as [|x a IH]; intros [|y b] Hl H; simpl in *; try discriminate; auto.
  rewrite !NumFeatures_cons.
  assert (NumFeatures a <= NumFeatures b)%nat.
  { apply IH; [lia|]. intros i Hi. exact (H (S i) Hi). }
  specialize (H 0%nat). simpl in H. destruct x; [rewrite H by auto|destruct y]; lia.
Qed.

Lemma nf_count : forall m, NumFeatures m = count_occ bool_dec m true.
Proof.
  induction m as [|b m IH]; [reflexivity|]. rewrite NumFeatures_cons, IH. simpl.
  destruct b; simpl; reflexivity.
Qed.

Lemma nth_pre_rep : forall (m : list bool) k v i, (k <= length m)%nat ->
  nth i (firstn k m ++ repeat v (length m - k)) false =
  if (i <? k)%nat then nth i m false else if (i <? length m)%nat then v else false.
Proof.
  intros m k v i Hk. destruct (Nat.ltb_spec i k) as [H|H].
  - rewrite app_nth1 by (rewrite firstn_length; lia).
    rewrite <- (firstn_skipn k m) at 2. rewrite app_nth1; auto. rewrite firstn_length; lia.
  - rewrite app_nth2 by (rewrite firstn_length; lia). rewrite firstn_length.
    replace (i - Nat.min k (length m))%nat with (i - k)%nat by lia.
    destruct (Nat.ltb_spec i (length m)) as [H2|H2].
    + rewrite (nth_indep _ false v) by (rewrite repeat_length; lia). apply nth_repeat.
    + apply nth_overflow. rewrite repeat_length; lia.
Qed.

Lemma len_pre_rep : forall (m : list bool) k v, (k <= length m)%nat ->
  length (firstn k m ++ repeat v (length m - k)) = length m.
Proof. intros. rewrite app_length, firstn_length, repeat_length. lia. Qed.

Lemma gcs_lcs_extremal : forall model start,
  (0 <= start <= Z.of_nat (length model))%Z ->
  exists g l, Gcs model start = Ok g /\ Lcs model start = Ok l /\
    agree_upto (Z.to_nat start) model g /\ agree_upto (Z.to_nat start) model l /\
    forall m, agree_upto (Z.to_nat start) model m ->
      incl_model l m /\ incl_model m g /\
      (NumFeatures l <= NumFeatures m <= NumFeatures g)%nat.
Proof.
  intros model start H. set (k := Z.to_nat start). assert (Hk : (k <= length model)%nat) by lia.
  exists (firstn k model ++ repeat true (length model - k)),
         (firstn k model ++ repeat false (length model - k)).
  split; [apply Gcs_eq; auto|]. split; [apply Lcs_eq; auto|].
  split; [|split].
  - split; [apply len_pre_rep; auto|]. intros i Hi. rewrite nth_pre_rep by auto.
    destruct (Nat.ltb_spec i k); [reflexivity|lia].
  - split; [apply len_pre_rep; auto|]. intros i Hi. rewrite nth_pre_rep by auto.
    destruct (Nat.ltb_spec i k); [reflexivity|lia].
  - intros m (Hl & Ha).
    assert (I1 : incl_model (firstn k model ++ repeat false (length model - k)) m).
    { intros i Hi. rewrite nth_pre_rep in Hi by auto.
      destruct (Nat.ltb_spec i k).
      - rewrite Ha; auto.
      - destruct (i <? length model)%nat; discriminate. }
    assert (I2 : incl_model m (firstn k model ++ repeat true (length model - k))).
    { intros i Hi. rewrite nth_pre_rep by auto.
      destruct (Nat.ltb_spec i k).
      - rewrite <- Ha; auto.
      - destruct (Nat.ltb_spec i (length model)); auto.
        rewrite nth_overflow in Hi by lia. discriminate. }
    split; auto. split; auto.
    split; apply nf_incl; auto; rewrite len_pre_rep; auto.
Qed.

Lemma selected2model_spec : forall sel n,
  (0 <= n)%Z ->
  ((forall v, In v sel -> 0 <= v < n)%Z ->
    exists m, Selected2Model sel n = Ok m /\ Z.of_nat (length m) = n /\
      forall k, (Z.of_nat k < n)%Z -> (nth k m false = true <-> In (Z.of_nat k) sel)) /\
  ((exists v, In v sel /\ ~ (0 <= v < n)%Z) -> Selected2Model sel n = Panic).
Proof.
  intros sel n Hn. unfold Selected2Model, go_make.
  destruct (Z.ltb_spec n 0); [lia|]. cbn [bind]. split.
  - intro H0. destruct (set_true_loop sel (repeat false (Z.to_nat n))) as (m & E & Hl & Hk).
    { intros v Hv. rewrite repeat_length. specialize (H0 v Hv). lia. }
    exists m. split; auto. rewrite repeat_length in *. split; [lia|].
    intros k Hkn. rewrite Hk, nth_repeat_false. cbn [orb].
    destruct (Nat.ltb_spec k (Z.to_nat n)); [|lia]. cbn [andb]. apply zmem_In.
  - intros (v & Hv & Hbad). apply set_true_loop_panic. exists v. rewrite repeat_length. split; auto. lia.
Qed.

Lemma select_roundtrip : forall model,
  Selected2Model (sel_from 0 model) (Z.of_nat (length model)) = Ok model.
Proof.
  intro model. unfold Selected2Model, go_make.
  destruct (Z.ltb_spec (Z.of_nat (length model)) 0); [lia|]. cbn [bind].
  rewrite Nat2Z.id. apply set_true_roundtrip.
Qed.

Lemma branch_partition : forall N (n : Node N),
  (0 <= ndLevel n < Z.of_nat (length (ndModel n)))%Z ->
  exists c0 c1, GetChildNode n false = Ok c0 /\ GetChildNode n true = Ok c1 /\
    ndLevel c0 = (ndLevel n + 1)%Z /\ ndLevel c1 = (ndLevel n + 1)%Z /\
    ndWasFlipped c0 = false /\ ndWasFlipped c1 = true /\
    ndModel c0 = ndModel n /\
    (length (ndModel c1) = length (ndModel n) /\
     forall i, (i < length (ndModel n))%nat ->
       (nth i (ndModel c1) false = nth i (ndModel n) false <-> i <> Z.to_nat (ndLevel n))) /\
    forall m,
      (agree_upto (Z.to_nat (ndLevel n)) (ndModel n) m <->
        (agree_upto (Z.to_nat (ndLevel c0)) (ndModel c0) m \/
         agree_upto (Z.to_nat (ndLevel c1)) (ndModel c1) m)) /\
      ~ (agree_upto (Z.to_nat (ndLevel c0)) (ndModel c0) m /\
         agree_upto (Z.to_nat (ndLevel c1)) (ndModel c1) m).
Proof.
  intros N n H. set (k := Z.to_nat (ndLevel n)). assert (Hk : (k < length (ndModel n))%nat) by lia.
  exists (mkNode (ndModel n) [] (ndLevel n + 1) n0 n0 n0 false).
  exists (mkNode (upd (ndModel n) k (negb (nth k (ndModel n) false))) [] (ndLevel n + 1) n0 n0 n0 true).
  split; [apply GetChildNode_false|]. split; [apply GetChildNode_true; auto|].
  cbn [ndLevel ndModel ndWasFlipped].
  repeat (split; [reflexivity|]).
  assert (E1 : Z.to_nat (ndLevel n + 1) = S k) by lia. rewrite E1.
  split; [split; [apply upd_length|]|].
  - intros i Hi. rewrite nth_upd. destruct (Nat.eqb_spec i k) as [->|Hne].
    + destruct (Nat.ltb_spec k (length (ndModel n))); [|lia].
      split; intro E; [destruct (nth k (ndModel n) false); discriminate|contradiction].
    + split; auto.
  - intro m. split; [split|].
    + intros (Hl & Ha). destruct (Bool.bool_dec (nth k m false) (nth k (ndModel n) false)) as [E|E].
      * left. split; auto. intros i Hi. destruct (Nat.eq_dec i k) as [->|]; auto. apply Ha; lia.
      * right. split; [rewrite upd_length; auto|]. intros i Hi. rewrite nth_upd.
        destruct (Nat.eqb_spec i k) as [->|]; [|apply Ha; lia].
        destruct (Nat.ltb_spec k (length (ndModel n))); [|lia].
        destruct (nth k m false), (nth k (ndModel n) false); auto; contradiction.
    + intros [(Hl & Ha)|(Hl & Ha)].
      * split; auto.
      * rewrite upd_length in Hl. split; auto. intros i Hi. rewrite Ha by lia.
        rewrite nth_upd. destruct (Nat.eqb_spec i k); [lia|reflexivity].
    + intros [(_ & Ha) (_ & Hb)]. specialize (Ha k ltac:(lia)). specialize (Hb k ltac:(lia)).
      rewrite nth_upd, Nat.eqb_refl in Hb. destruct (Nat.ltb_spec k (length (ndModel n))); [|lia].
      rewrite Ha in Hb. destruct (nth k (ndModel n) false); discriminate.
Qed.

Lemma nth_error_sel : forall model k, (k < NumFeatures model)%nat ->
  exists i, nth k (sel_from 0 model) 0%Z = Z.of_nat i /\ (i < length model)%nat /\
    nth i model false = true.
Proof.
  intros model k Hk. assert (Hin : In (nth k (sel_from 0 model) 0%Z) (sel_from 0 model)).
  { apply nth_In. rewrite sel_from_length; auto. }
  apply sel_from_In in Hin. destruct Hin as (i & E & Hi). exists i. split; auto.
  split; [apply nth_error_Some; congruence|]. apply nth_error_nth_bool; auto.
Qed.

Lemma design_spec : forall (N : Num) (model : list bool) (X : Mat N),
  (0 < mrows X)%nat ->
  (GetDesignMatrix model X = Panic <->
     (forall i, nth i model false = false) \/
     exists i, nth i model false = true /\ (mcols X <= i)%nat) /\
  forall D, GetDesignMatrix model X = Ok D ->
    mrows D = mrows X /\ mcols D = NumFeatures model /\
    exists sel, SelectedFeatures model = Ok sel /\
      forall j k, (j < mrows X)%nat -> (k < NumFeatures model)%nat ->
        exists i, nth_error sel k = Some (Z.of_nat i) /\ (i < mcols X)%nat /\
          mval D j k = mval X j i /\
          icvAt (NewIndexedColView X sel) (Z.of_nat j) (Z.of_nat k) = Ok (mval D j k).
Proof.
  intros N model X Hr.
  destruct (Nat.eq_dec (NumFeatures model) 0) as [Hz|Hz].
  - assert (E : GetDesignMatrix model X = Panic).
    { unfold GetDesignMatrix. rewrite Hz. reflexivity. }
    rewrite E. split; [|discriminate]. split; [|reflexivity]. intros _. left. intro i.
    destruct (nth i model false) eqn:Eb; auto.
    assert (In (Z.of_nat i) (sel_from 0 model)).
    { apply sel_from_In. exists i; split; auto. apply nth_error_nth_bool; auto. }
    rewrite <- (sel_from_length model 0) in Hz. destruct (sel_from 0 model); [destruct H|discriminate].
  - assert (Hnz : exists i, nth i model false = true).
    { destruct (nth_error_sel model 0) as (i & _ & _ & Hi); [lia|]. exists i; auto. }
    destruct (design_gen N model X Hr Hz) as [[E HQ]|(D & E & H1 & H2 & H3 & H4)]; rewrite E.
    + split; [|discriminate]. split; auto.
    + split.
      * split; [discriminate|]. intros [Ha|(i & Hi & Hb)].
        -- destruct Hnz as (i & Hi). rewrite Ha in Hi; discriminate.
        -- apply H3 in Hi. lia.
      * intros D' HD. injection HD as <-. split; auto. split; auto.
        exists (sel_from 0 model). split; [apply selected_loop_eq|].
        intros j k Hj Hk. destruct (nth_error_sel model k Hk) as (i & Ei & Hil & Hib).
        assert (Hne : nth_error (sel_from 0 model) k = Some (Z.of_nat i)).
        { rewrite <- Ei. apply nth_error_nth'. rewrite sel_from_length; auto. }
        exists i. split; auto. split; [auto|].
        assert (Ev : mval D j k = mval X j i).
        { rewrite H4 by auto. rewrite Ei, Nat2Z.id. reflexivity. }
        split; auto.
        unfold icvAt, NewIndexedColView; cbn [icvCols icvMatrix].
        rewrite getz_nat. unfold getn. rewrite Hne. cbn [bind]. unfold mat_atz.
        destruct (Z.ltb_spec (Z.of_nat j) 0); [lia|]. destruct (Z.ltb_spec (Z.of_nat i) 0); [lia|].
        cbn [orb]. rewrite !Nat2Z.id, mat_at_in by auto. rewrite Ev; reflexivity.
Qed.

(** Proofs about Model_Node.v: JSON round trips, branching, design matrix *)
From Coq Require Import Sorting.Permutation Sorting.Sorted Floats.SpecFloat.
From Verif Require Import Base Num Mat Model_Node Proof_Node.

(** ** Node JSON *)
Section JSON.
  Variable N : Num.

  Definition node_finite (n : Node N) : bool :=
    finite (ndLower n) && finite (ndUpper n) && finite (ndScore n) && forallb finite (ndCoeff n).

  Definition nodeJ_of (n : Node N) : nodeJsonified N :=
    mkNodeJ (sel_from 0 (ndModel n)) (Z.of_nat (length (ndModel n))) (ndLower n) (ndUpper n)
            (ndScore n) (ndLevel n) (ndCoeff n).

  Definition with_flip (f : bool) (n : Node N) : Node N :=
    mkNode (ndModel n) (ndCoeff n) (ndLevel n) (ndLower n) (ndUpper n) (ndScore n) f.

  Lemma node_marshal : forall n,
    NodeMarshalJSON n = Ok (if node_finite n then Some (nodeJ_of n) else None).
  Proof.
    intro n. unfold NodeMarshalJSON. rewrite selected_loop_eq. reflexivity.
  Qed.

  Lemma node_unmarshal : forall n z,
    NodeUnmarshalJSON z (nodeJ_of n) = Ok (with_flip (ndWasFlipped z) n).
  Proof.
    intros n z. unfold NodeUnmarshalJSON, nodeJ_of; simpl.
    unfold go_make. destruct (Z.ltb_spec (Z.of_nat (length (ndModel n))) 0); [lia|].
    simpl. rewrite Nat2Z.id, set_true_roundtrip. reflexivity.
  Qed.

  Lemma marshal_nodes_ok : forall l, forallb node_finite l = true ->
    marshal_nodes l = Ok (Some (map nodeJ_of l)).
  Proof.
    induction l as [|n l IH]; intro H; simpl in *; auto.
    apply andb_true_iff in H. destruct H as [H1 H2].
    rewrite node_marshal, H1. simpl. rewrite IH by auto. reflexivity.
  Qed.

  Lemma marshal_nodes_err : forall l, forallb node_finite l = false ->
    marshal_nodes l = Ok None.
  Proof.
    induction l as [|n l IH]; intro H; simpl in *; [discriminate|].
    rewrite node_marshal. simpl.
    destruct (node_finite n) eqn:E; simpl in H.
    - rewrite IH by auto. reflexivity.
    - destruct (forallb node_finite l) eqn:E2.
      + rewrite marshal_nodes_ok by auto. reflexivity.
      + rewrite IH by auto. reflexivity.
  Qed.

  Lemma unmarshal_nodes : forall l acc,
    for_each (map nodeJ_of l)
      (fun jn acc => do n <- NodeUnmarshalJSON zero_node jn; Ok (acc ++ [n])) acc
    = Ok (acc ++ map (with_flip false) l).
  Proof.
    induction l as [|n l IH]; intro acc; cbn [map for_each].
    - rewrite app_nil_r; reflexivity.
    - rewrite node_unmarshal. cbn [bind]. rewrite IH. rewrite <- app_assoc. reflexivity.
  Qed.

  Lemma desc_flip : forall l, desc l -> desc (map (with_flip false) l).
  Proof.
    unfold desc. induction l as [|n l IH]; intro H; simpl; [constructor|].
    apply StronglySorted_inv in H. destruct H as [H1 H2]. constructor; auto.
    apply Forall_forall. intros x Hx. apply in_map_iff in Hx. destruct Hx as (y & <- & Hy).
    simpl. rewrite Forall_forall in H2. apply H2; auto.
  Qed.

  Lemma hs_roundtrip : forall h M0, desc (hsItems h) ->
    (hsLen h < hsMaxItems h)%Z -> forallb node_finite (hsItems h) = true ->
    exists j, hsMarshalJSON h = Ok (Some j) /\
      hsUnmarshalJSON (NewHighscore M0) j
      = Ok (mkHS (map (with_flip false) (hsItems h)) (hsMaxItems h)).
  Proof.
    intros h M0 Hd Hl Hf. unfold hsMarshalJSON. rewrite marshal_nodes_ok by auto. simpl.
    eexists; split; [reflexivity|]. unfold hsUnmarshalJSON; simpl.
    rewrite unmarshal_nodes. simpl. apply (reinsert N).
    - simpl. apply desc_flip; auto.
    - simpl. rewrite map_length. exact Hl.
  Qed.
End JSON.
Arguments node_finite {N} _. Arguments nodeJ_of {N} _. Arguments with_flip {N} _ _.

(** NodesEqual is reflexive on IEEE doubles without NaN coefficients *)
Lemma f64_sub_self : forall x, SFabs (SFsub 53 1024 x x) = S754_zero false \/ SFabs (SFsub 53 1024 x x) = S754_nan.
Proof.
  intros [s|s| |s m e]; try (destruct s; simpl; auto; fail).
  - right; reflexivity.
  - left. unfold SFsub. cbv zeta. rewrite Z.sub_diag. reflexivity.
Qed.

Lemma tol_lt : forall o x, nltb (n := F64 o) (ndec 1 (-10)) (nabs (nsub x x)) = false.
Proof.
  intros o x. cbn [nltb nabs nsub ndec F64].
  destruct (f64_sub_self x) as [E|E]; rewrite E; vm_compute; reflexivity.
Qed.

Lemma go_eq_refl : forall (N : Num) (L : OrdLaws N) (x : N), nisnan x = false -> go_eq x x = true.
Proof.
  intros N L x H. unfold go_eq. rewrite (ol_leb L), H, (ol_irrefl L). reflexivity.
Qed.

Lemma EqualApprox_refl : forall (N:Num) (L : OrdLaws N) (l : list N) tol,
  forallb (fun x => negb (nisnan x)) l = true -> EqualApprox l l tol = true.
Proof.
  intros N L l tol H. unfold EqualApprox. rewrite Nat.eqb_refl. simpl.
  induction l as [|x l IH]; simpl in *; auto.
  apply andb_true_iff in H. destruct H as [H1 H2]. apply negb_true_iff in H1.
  rewrite IH by auto. unfold EqualWithinAbsOrRel. rewrite (go_eq_refl N L) by auto. reflexivity.
Qed.

Lemma eqb_combine_refl : forall l, forallb (fun p => Bool.eqb (fst p) (snd p)) (combine l l) = true.
Proof. induction l as [|b l IH]; simpl; auto. rewrite eqb_reflx; auto. Qed.

Lemma NodesEqual_same : forall o (a b : Node (F64 o)),
  ndModel a = ndModel b -> ndLevel a = ndLevel b -> ndLower a = ndLower b ->
  ndUpper a = ndUpper b -> ndScore a = ndScore b -> ndCoeff a = ndCoeff b ->
  forallb (fun x => negb (f64_isnan x)) (ndCoeff a) = true ->
  NodesEqual a b = true.
Proof.
  intros o a b E1 E2 E3 E4 E5 E6 H. unfold NodesEqual.
  rewrite E1, E2, E3, E4, E5, Nat.eqb_refl, Z.eqb_refl, eqb_combine_refl. cbn [negb].
  rewrite !tol_lt. cbn [orb]. rewrite <- E6.
  rewrite (EqualApprox_refl _ (f64_OrdLaws o)); auto.
Qed.

Lemma finite_nonan : forall (N : Num) (l : list N),
  forallb finite l = true -> forallb (fun x => negb (nisnan x)) l = true.
Proof.
  induction l as [|x l IH]; simpl; auto. intro H. apply andb_true_iff in H. destruct H as [H1 H2].
  unfold finite in H1. rewrite !andb_true_iff in H1. destruct H1 as [[H1 _] _]. rewrite H1. simpl; auto.
Qed.

Lemma NodesEqual_model : forall N (a b : Node N), NodesEqual a b = true ->
  ndModel a = ndModel b /\ ndLevel a = ndLevel b /\ length (ndCoeff a) = length (ndCoeff b).
Proof.
  intros N a b H. unfold NodesEqual in H.
  destruct (Nat.eqb_spec (length (ndModel a)) (length (ndModel b))) as [El|]; [|discriminate].
  destruct (Z.eqb_spec (ndLevel a) (ndLevel b)); [|discriminate]. cbn [negb] in H.
  destruct (forallb _ (combine (ndModel a) (ndModel b))) eqn:Ef; [|discriminate]. cbn [negb] in H.
  destruct (_ || _)%bool; [discriminate|].
  destruct (EqualApprox (ndCoeff a) (ndCoeff b) (ndec 1 (-10))) eqn:Ea; [|discriminate].
  unfold EqualApprox in Ea. apply andb_true_iff in Ea. destruct Ea as [Ea _].
  apply Nat.eqb_eq in Ea. repeat split; auto.
  revert El Ef. generalize (ndModel a) (ndModel b).
  induction l as [|x l IH]; intros [|y l0] El Ef; simpl in *; try discriminate; auto.
  apply andb_true_iff in Ef. destruct Ef as [E1 E2]. apply eqb_prop in E1. subst. f_equal. apply IH; auto.
Qed.

(** ** Branching *)
Lemma GetChildNode_false : forall N (n : Node N),
  GetChildNode n false = Ok (mkNode (ndModel n) [] (ndLevel n + 1) n0 n0 n0 false).
Proof. intros N n. unfold GetChildNode. rewrite go_copy_full. reflexivity. Qed.

Lemma GetChildNode_true : forall N (n : Node N),
  (0 <= ndLevel n < Z.of_nat (length (ndModel n)))%Z ->
  GetChildNode n true
  = Ok (mkNode (upd (ndModel n) (Z.to_nat (ndLevel n)) (negb (nth (Z.to_nat (ndLevel n)) (ndModel n) false)))
               [] (ndLevel n + 1) n0 n0 n0 true).
Proof.
  intros N n H. unfold GetChildNode. rewrite go_copy_full.
  rewrite (getz_in _ _ _ false) by auto. cbn [bind]. rewrite setz_in by auto. reflexivity.
Qed.

Lemma GetChildNode_panic : forall N (n : Node N),
  ~ (0 <= ndLevel n < Z.of_nat (length (ndModel n)))%Z -> GetChildNode n true = Panic.
Proof.
  intros N n H. unfold GetChildNode. rewrite go_copy_full. rewrite getz_out by auto. reflexivity.
Qed.

(** ** Design matrix *)
Lemma for_loop_or_panic : forall S (P : nat -> S -> Prop) (Q : Prop) (body : nat -> S -> res S) n a s,
  P a s ->
  (forall i s, (a <= i < a + n)%nat -> P i s ->
     (body i s = Panic /\ Q) \/ exists s', body i s = Ok s' /\ P (Datatypes.S i) s') ->
  (for_loop a n body s = Panic /\ Q) \/
  exists s', for_loop a n body s = Ok s' /\ P (a + n)%nat s'.
Proof.
  induction n as [|n IH]; intros a s H0 Hstep; simpl.
  - right; exists s; split; auto. rewrite Nat.add_0_r; auto.
  - destruct (Hstep a s) as [[E HQ]|(s1 & H1 & P1)]; [lia|auto| |].
    + left. rewrite E. auto.
    + rewrite H1; simpl.
      destruct (IH (Datatypes.S a) s1 P1) as [[E HQ]|(s2 & H2 & P2)].
      * intros i s' Hi Pi; apply Hstep; [lia|auto].
      * left; auto.
      * right; exists s2; split; auto.
        replace (a + Datatypes.S n)%nat with (Datatypes.S a + n)%nat by lia; auto.
Qed.

Lemma sel_from_split : forall l i k, (i <= length l)%nat ->
  sel_from k l = sel_from k (firstn i l) ++ sel_from (k + i) (skipn i l).
Proof.
  induction l as [|b l IH]; intros [|i] k H; simpl in *; try lia; rewrite ?Nat.add_0_r; auto.
  rewrite (IH i (S k)) by lia. replace (S k + i)%nat with (k + S i)%nat by lia.
  destruct b; reflexivity.
Qed.

Lemma nth_firstn_nf : forall l i, (i < length l)%nat -> nth i l false = true ->
  nth (NumFeatures (firstn i l)) (sel_from 0 l) 0%Z = Z.of_nat i.
Proof.
  intros l i Hi Hb. rewrite (sel_from_split l i 0) by lia.
  rewrite app_nth2; rewrite sel_from_length; [|lia].
  rewrite Nat.sub_diag.
  destruct (skipn i l) as [|b r] eqn:E.
  - apply (f_equal (@length _)) in E. rewrite skipn_length in E. simpl in E. lia.
  - assert (b = true).
    { rewrite <- Hb. rewrite <- (firstn_skipn i l) at 1. rewrite app_nth2; rewrite firstn_length; [|lia].
      rewrite E. replace (i - Nat.min i (length l))%nat with 0%nat by lia. reflexivity. }
    subst b. reflexivity.
Qed.

Lemma firstn_succ : forall A (l : list A) i d, (i < length l)%nat ->
  firstn (S i) l = firstn i l ++ [nth i l d].
Proof.
  induction l as [|x l IH]; intros [|i] d H; simpl in *; try lia; auto.
  f_equal. apply IH; lia.
Qed.

Lemma design_gen : forall (N : Num) (model : list bool) (X : Mat N),
  (0 < mrows X)%nat ->
  NumFeatures model <> 0%nat ->
  (GetDesignMatrix model X = Panic /\
     exists i, nth i model false = true /\ (mcols X <= i)%nat) \/
  exists D, GetDesignMatrix model X = Ok D /\ mrows D = mrows X /\ mcols D = NumFeatures model /\
    (forall i, nth i model false = true -> (i < mcols X)%nat) /\
    forall j k, (j < mrows X)%nat -> (k < NumFeatures model)%nat ->
      mval D j k = mval X j (Z.to_nat (nth k (sel_from 0 model) 0%Z)).
Proof.
  intros N model X Hr Hf. unfold GetDesignMatrix.
  destruct (Nat.eqb_spec (NumFeatures model) 0); [lia|].
  unfold new_dense. destruct (Nat.eqb_spec (mrows X) 0); [lia|].
  destruct (Nat.eqb_spec (NumFeatures model) 0); [lia|]. cbn [orb bind].
  set (P := fun (i : nat) (st : Mat N * nat) =>
    let '(D, col) := st in
    mrows D = mrows X /\ mcols D = NumFeatures model /\ col = NumFeatures (firstn i model) /\
    (forall i', (i' < i)%nat -> nth i' model false = true -> (i' < mcols X)%nat) /\
    forall j k, (j < mrows X)%nat -> (k < col)%nat ->
      mval D j k = mval X j (Z.to_nat (nth k (sel_from 0 model) 0%Z))).
  match goal with |- context [for_loop 0 (length model) ?b ?s] =>
    destruct (for_loop_or_panic _ P (exists i, nth i model false = true /\ (mcols X <= i)%nat)
                b (length model) 0 s) as [[E HQ]|([D col] & E & HP)] end.
  - simpl. repeat split; auto; intros; lia.
  - intros i [D col] Hi (H1 & H2 & H3 & H4 & H5). simpl.
    rewrite (getn_lt _ _ _ false) by lia. cbn [bind].
    assert (Hfs := firstn_succ bool model i false ltac:(lia)).
    destruct (nth i model false) eqn:Eb.
    + assert (Hcol : (col < NumFeatures model)%nat).
      { rewrite <- (firstn_skipn (S i) model), NumFeatures_app, Hfs, NumFeatures_app, ?Eb.
        rewrite NumFeatures_cons. lia. }
      destruct (Nat.ltb_spec i (mcols X)) as [Hic|Hic].
      * right.
        destruct (for_loop_inv _ (fun j (d : Mat N) =>
            mrows d = mrows X /\ mcols d = NumFeatures model /\
            (forall a b, (a < j)%nat -> b = col -> mval d a b = mval X a i) /\
            (forall a b, b <> col -> mval d a b = mval D a b))
          (fun j d => do v <- mat_at X j i; mat_set d j col v) (mrows X) 0 D)
          as (D' & E' & G1 & G2 & G3 & G4).
        { repeat split; auto; intros; lia. }
        { intros j d Hj (G1 & G2 & G3 & G4).
          rewrite mat_at_in by lia. cbn [bind]. rewrite mat_set_in by lia.
          eexists; split; [reflexivity|]. simpl. repeat split; auto.
          - intros a b Ha ->. rewrite Nat.eqb_refl, andb_true_r.
            destruct (Nat.eqb_spec a j); [subst; auto|]. apply G3; auto; lia.
          - intros a b Hb. destruct (Nat.eqb_spec b col); [contradiction|].
            rewrite andb_false_r. apply G4; auto. }
        simpl in E'. rewrite E'. cbn [bind]. eexists; split; [reflexivity|]. unfold P; cbv beta iota.
        split; [exact G1|]. split; [exact G2|]. split.
        { rewrite Hfs, NumFeatures_app, ?Eb, NumFeatures_cons, NumFeatures_nil. lia. }
        split.
        { intros i' Hi' Hb. destruct (Nat.eq_dec i' i) as [->|]; auto. apply H4; auto; lia. }
        intros j k Hj Hk. destruct (Nat.eq_dec k col) as [->|Hne].
        { rewrite G3 by (auto; lia). rewrite H3, nth_firstn_nf by (auto; lia).
          rewrite Nat2Z.id. reflexivity. }
        { rewrite G4 by auto. apply H5; auto; lia. }
      * left. split; [|exists i; auto].
        destruct (mrows X) as [|r] eqn:Er; [lia|]. cbn [for_loop].
        rewrite mat_at_out by lia. reflexivity.
    + right. eexists; split; [reflexivity|]. unfold P; cbv beta iota.
      split; [exact H1|]. split; [exact H2|]. split.
      { rewrite Hfs, NumFeatures_app, ?Eb, NumFeatures_cons, NumFeatures_nil. lia. }
      split.
      { intros i' Hi' Hb. destruct (Nat.eq_dec i' i) as [->|]; [congruence|]. apply H4; auto; lia. }
      auto.
  - left. rewrite E. auto.
  - right. rewrite E. cbn [bind fst]. exists D. destruct HP as (H1 & H2 & H3 & H4 & H5).
    rewrite Nat.add_0_l in *. rewrite firstn_all in H3.
    split; [reflexivity|]. split; [exact H1|]. split; [exact H2|]. split.
    + intros i Hb. apply H4; auto.
      destruct (Nat.ltb_spec i (length model)); auto.
      rewrite nth_overflow in Hb by auto. discriminate.
    + subst col. exact H5.
Qed.

(** ** Statements about insertion histories *)
Section HSProps.
  Variable N : Num.
  Hypothesis L : OrdLaws N.

  Lemma map_desc : forall l : list (Node N), desc l ->
    StronglySorted (fun a b => nltb a b = false) (map ndScore l).
  Proof.
    unfold desc. induction l as [|n l IH]; intro H; simpl; [constructor|].
    apply StronglySorted_inv in H. destruct H as [H1 H2]. constructor; auto.
    apply Forall_forall. intros x Hx. apply in_map_iff in Hx. destruct Hx as (y & <- & Hy).
    rewrite Forall_forall in H2. apply H2; auto.
  Qed.

  Lemma hs_reach : forall M nodes, (2 <= M)%Z -> Forall nonan nodes ->
    exists h, hsInsertAll (N:=N) (NewHighscore M) nodes = Ok h /\ HInv N M h nodes.
  Proof.
    intros M nodes HM Hn.
    destruct (hinv_all N L nodes M (NewHighscore M) [] HM (hinv_init N M HM) Hn) as (h & E & I).
    exists h; auto.
  Qed.

  Lemma hs_sorted_any : forall M nodes, M <> 1%Z -> Forall nonan nodes ->
    exists h, hsInsertAll (N:=N) (NewHighscore M) nodes = Ok h /\ desc (hsItems h).
  Proof.
    intros M nodes HM Hn. destruct (Z_le_gt_dec M 0) as [H|H].
    - rewrite hs_nonpos_empty by auto. eexists; split; [reflexivity|constructor].
    - destruct (hs_reach M nodes) as (h & E & I); [lia|auto|]. exists h; split; auto. apply I.
  Qed.

  Lemma hinv_best : forall M h nodes, (2 <= M)%Z -> HInv N M h nodes -> nodes <> [] ->
    (exists n, In n nodes /\ hsBestScore h = ndScore n) /\
    forall n, In n nodes -> nltb (hsBestScore h) (ndScore n) = false.
  Proof.
    intros M h nodes HM [Hm Hs Hnn (dr & Hp & Hd & Hdl) Hc Ht] Hne.
    unfold hsBestScore. destruct (hsItems h) as [|x items] eqn:E.
    - exfalso. destruct dr as [|d dr].
      + simpl in Hp. apply Permutation_nil in Hp. contradiction.
      + assert (M - 1 <= hsLen h)%Z by (apply Hdl; discriminate).
        unfold hsLen in *; rewrite E in *; simpl in *; lia.
    - split.
      + exists x. split; auto. eapply Permutation_in; [exact Hp|]. left; auto.
      + intros n Hin. apply (Permutation_in _ (Permutation_sym Hp)) in Hin.
        apply in_app_or in Hin. destruct Hin as [Hin|Hin].
        * destruct Hin as [<-|Hin]; [apply (ol_irrefl L)|].
          apply (desc_cons N) in Hs. apply Hs; auto.
        * apply Hd; auto. left; auto.
  Qed.

  Lemma tie_not_distinct : forall l : list (Node N), tie l ->
    ~ ForallOrdPairs (fun a b => nltb a b = true \/ nltb b a = true) (map ndScore l).
  Proof.
    intros l (l1 & x & l2 & y & l3 & -> & H1 & H2) HF.
    rewrite map_app in HF. induction (map ndScore l1) as [|s l1' IH].
    - simpl in HF. inversion HF; subst. rewrite Forall_forall in H3.
      specialize (H3 (ndScore y)). rewrite map_app in H3. destruct H3 as [H|H].
      + apply in_or_app; right; left; auto.
      + congruence.
      + congruence.
    - apply IH. inversion HF; auto.
  Qed.

  Lemma hinv_capacity : forall M h nodes, HInv N M h nodes ->
    (hsLen h <= M)%Z /\
    (Z.of_nat (length nodes) < M -> Permutation (hsItems h) nodes)%Z /\
    (Z.min (Z.of_nat (length nodes)) (M - 1) <= hsLen h)%Z /\
    (ForallOrdPairs (fun a b => nltb a b = true \/ nltb b a = true) (map ndScore nodes) ->
     hsLen h <= M - 1)%Z.
  Proof.
    intros M h nodes [Hm Hs Hnn (dr & Hp & Hd & Hdl) Hc Ht].
    assert (Hlen : (length (hsItems h) + length dr)%nat = length nodes).
    { rewrite <- app_length. apply Permutation_length; auto. }
    split; [auto|]. split; [|split].
    - intro Hl. destruct dr as [|d dr]; [rewrite app_nil_r in Hp; auto|].
      assert (M - 1 <= hsLen h)%Z by (apply Hdl; discriminate).
      unfold hsLen in *; simpl in *; lia.
    - destruct dr as [|d dr]; [unfold hsLen; simpl in *; lia|].
      assert (M - 1 <= hsLen h)%Z by (apply Hdl; discriminate). lia.
    - intro HF. destruct (Z.eq_dec (hsLen h) M) as [E|E]; [|lia].
      exfalso. exact (tie_not_distinct nodes (Ht E) HF).
  Qed.

  (** decoding a completely filled list *)
  Lemma hs_roundtrip_full : forall l x y M, (2 <= M)%Z ->
    desc (l ++ [x; y]) -> Z.of_nat (length (l ++ [x; y])) = M ->
    hsInsertAll (N:=N) (NewHighscore M) (l ++ [x; y])
    = Ok (mkHS (if nltb (ndScore y) (ndScore x) then l ++ [x] else l ++ [x; y]) M).
  Proof.
    intros l x y M HM Hd Hl.
    replace (l ++ [x; y]) with ((l ++ [x]) ++ [y]) in * by (rewrite <- app_assoc; reflexivity).
    unfold hsInsertAll. rewrite for_each_app.
    assert (E := reinsert N (l ++ [x]) [] M). unfold hsInsertAll in E. simpl app in E.
    change (NewHighscore M) with (mkHS (@nil (Node N)) M).
    rewrite E.
    - cbn [bind for_each]. unfold hsInsert, hsLen; cbn [hsItems hsMaxItems].
      rewrite (app_length (l ++ [x]) [y]) in Hl. simpl length in Hl at 2.
      destruct (Z.eqb_spec (Z.of_nat (length (l ++ [x]))) (M - 1)); [|lia].
      rewrite rev_app_distr. simpl rev at 1. cbn [app].
      destruct (nltb (ndScore y) (ndScore x)); [reflexivity|].
      rewrite insert_before_none_iff.
      + destruct (Z.ltb_spec (Z.of_nat (length (l ++ [x]))) M); [|lia]. reflexivity.
      + intros z Hz. apply desc_app in Hd. destruct Hd as (_ & _ & Hd). apply Hd; auto. left; auto.
    - apply desc_app in Hd. apply Hd.
    - rewrite (app_length (l ++ [x]) [y]) in Hl. simpl length in Hl at 2. lia.
  Qed.
End HSProps.

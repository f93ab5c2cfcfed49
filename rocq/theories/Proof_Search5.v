(** Brute force, queue trimming, pruned-model counter, CreateChild. *)
From Coq Require Import Reals Lra Sorting.Permutation.
From Verif Require Import Base Num Mat Model_Node Model_Search Proof_Node Proof_Node2 Proof_Models Proof_Search Proof_Search2.

(** ** CleanQueue *)
Lemma clean_filter : forall (N : Num) (q : list (Node N)) t,
  CleanQueue q t = filter (fun n => negb (nltb t (ndLower n))) q.
Proof.
  induction q as [|x q IH]; intro t; simpl; auto. rewrite IH.
  destruct (nltb t (ndLower x)); reflexivity.
Qed.

(** ** All boolean vectors *)
Fixpoint all_models (n : nat) : list (list bool) :=
  match n with
  | O => [[]]
  | S n => map (cons false) (all_models n) ++ map (cons true) (all_models n)
  end.

Lemma all_models_len : forall n, length (all_models n) = (2 ^ n)%nat.
Proof. induction n; simpl; auto. rewrite app_length, !map_length, IHn. lia. Qed.

Lemma all_models_in : forall n m, In m (all_models n) <-> length m = n.
Proof.
  induction n; simpl; intro m.
  - split; [intros [<-|[]]; auto|destruct m; simpl; auto; discriminate].
  - rewrite in_app_iff, !in_map_iff. split.
    + intros [(x & <- & H)|(x & <- & H)]; apply IHn in H; simpl; auto.
    + destruct m as [|[] m]; simpl; intro H; try discriminate; injection H as H; apply IHn in H;
        [right|left]; exists m; auto.
Qed.

Lemma all_models_nodup : forall n, NoDup (all_models n).
Proof.
  induction n; simpl; [repeat constructor; simpl; auto|].
  assert (H : forall b, NoDup (map (cons b) (all_models n))).
  { intro b. clear -IHn. induction IHn as [|x l Hx Hl IH]; simpl; constructor; auto.
    rewrite in_map_iff. intros (y & Ey & Hy). injection Ey as ->. contradiction. }
  assert (D : forall x, In x (map (cons false) (all_models n)) -> ~ In x (map (cons true) (all_models n))).
  { intros x H1 H2. apply in_map_iff in H1, H2. destruct H1 as (a & <- & _), H2 as (b & E & _). discriminate. }
  pose proof (H false) as Hf. pose proof (H true) as Ht. clear H IHn.
  induction Hf as [|x l Hx Hl IH]; simpl; auto. constructor.
  - rewrite in_app_iff. intros [H|H]; auto. apply (D x); simpl; auto.
  - apply IH. intros y Hy. apply D. simpl; auto.
Qed.

Lemma NoDup_app_l : forall (A : Type) (l1 l2 : list A), NoDup (l1 ++ l2) -> NoDup l1.
Proof.
  induction l1 as [|x l1 IH]; intros l2 H; [constructor|]. inversion H as [|? ? Hx Hl]; subst.
  constructor; [|eapply IH; eauto]. intro Hi. apply Hx. apply in_or_app; auto.
Qed.

Lemma nf_zero : forall m, NumFeatures m = 0%nat -> m = repeat false (length m).
Proof.
  intros m H. rewrite nf_count in H. induction m as [|[] m IH]; simpl in *; auto; [lia|].
  f_equal. apply IH. exact H.
Qed.

Lemma nf_repeat : forall n, NumFeatures (repeat false n) = 0%nat.
Proof. intro n. rewrite nf_count. induction n; simpl; auto. Qed.

Section Brute.
  Variable N : Num.
  Variable P : problem N.
  Notation node := (Node N).
  Notation cols := (pCols P).
  Notation wf0 := (wf0 N P). Notation inner := (inner N P).
  Notation scoreOf := (scoreOf N P).
  Variable L : OrdLaws N.
  Hypothesis Hcols : (1 <= cols)%nat.
  Hypothesis Hroot : pRoot P = repeat false cols.
  Hypothesis Hnan : forall m, length m = cols -> (0 < NumFeatures m)%nat -> nisnan (snd (pFit P m)) = false.

  Lemma root_len : length (pRoot P) = cols.
  Proof. rewrite Hroot. apply repeat_length. Qed.

  Definition bl (n : node) : nat := Z.to_nat (Z.of_nat cols - ndLevel n).
  Definition bw (n : node) : nat := 2 ^ (S (bl n)) - 1.

  Record BInv (queue ins : list node) (h : Highscore N) : Prop := {
    b_q : Forall wf0 queue;
    b_h : HInv N (2 ^ Z.of_nat cols) h ins;
    b_ins : forall n, In n ins -> length (ndModel n) = cols /\ (0 < NumFeatures (ndModel n))%nat /\
                                  (ndCoeff n, ndScore n) = pFit P (ndModel n);
    b_cov : forall m, length m = cols -> (0 < NumFeatures m)%nat ->
              (sumn (cu N m) queue + sumn (is_m N m) ins = 1)%nat
  }.

  Lemma M_ge2 : (2 <= 2 ^ Z.of_nat cols)%Z.
  Proof.
    replace 2%Z with (2 ^ 1)%Z at 1 by reflexivity. apply Z.pow_le_mono_r; lia.
  Qed.

  Lemma wf0_children : forall p, wf0 p -> inner p ->
    exists c0 c1, GetChildNode p false = Ok c0 /\ GetChildNode p true = Ok c1 /\
      wf0 c0 /\ wf0 c1 /\
      ndModel c0 = child_model N p false /\ ndModel c1 = child_model N p true /\
      ndLevel c0 = (ndLevel p + 1)%Z /\ ndLevel c1 = (ndLevel p + 1)%Z /\
      ndWasFlipped c0 = false /\ ndWasFlipped c1 = true.
  Proof.
    intros p W Hi. pose proof (w_len _ _ _ W). pose proof (w_lev _ _ _ W). unfold Proof_Search.inner in Hi.
    rewrite GetChildNode_false, GetChildNode_true by lia.
    eexists. eexists. split; [reflexivity|]. split; [reflexivity|].
    cbn [ndModel ndLevel ndWasFlipped].
    split; [|split; [|repeat split]].
    - constructor; cbn [ndModel ndLevel ndWasFlipped]; auto; try lia; try discriminate.
      intros i Hi'. apply (w_tail _ _ _ W). lia.
    - constructor; cbn [ndModel ndLevel ndWasFlipped]; try lia.
      + rewrite upd_length; auto.
      + intros i Hi'. rewrite nth_upd. destruct (Nat.eqb_spec i (Z.to_nat (ndLevel p))); [lia|].
        apply (w_tail _ _ _ W). lia.
      + intros _. split; [lia|]. replace (ndLevel p + 1 - 1)%Z with (ndLevel p) by lia.
        rewrite nth_upd, Nat.eqb_refl. destruct (Nat.ltb_spec (Z.to_nat (ndLevel p)) (length (ndModel p))); [|lia].
        rewrite <- (w_tail _ _ _ W (Z.to_nat (ndLevel p))) by lia. apply Bool.no_fixpoint_negb.
  Qed.

  Lemma wf0_new_flipped : forall n, wf0 n -> (0 < NumFeatures (ndModel n))%nat -> isNewNode n = ndWasFlipped n.
  Proof.
    intros n W Hn. unfold isNewNode. destruct (Z.eqb_spec (ndLevel n) 0) as [E|E]; auto.
    exfalso. assert (ndModel n = repeat false cols).
    { rewrite <- Hroot. apply list_nth_ext; [rewrite root_len; apply W|].
      intros i _. apply (w_tail _ _ _ W). rewrite E. simpl. lia. }
    rewrite H, nf_repeat in Hn. lia.
  Qed.

  Lemma bw_split : forall p c0 c1, inner p -> ndLevel c0 = (ndLevel p + 1)%Z -> ndLevel c1 = (ndLevel p + 1)%Z ->
    (bw p = 1 + bw c0 + bw c1)%nat.
  Proof.
    intros p c0 c1 Hi E0 E1. unfold bw, bl, Proof_Search.inner in *. rewrite E0, E1.
    replace (Z.to_nat (Z.of_nat cols - ndLevel p)) with (S (Z.to_nat (Z.of_nat cols - (ndLevel p + 1)))) by lia.
    remember (Z.to_nat (Z.of_nat cols - (ndLevel p + 1))) as d.
    rewrite (Nat.pow_succ_r' 2 (S d)). assert (1 <= 2 ^ S d)%nat; [|lia].
    clear. induction d; [simpl; lia|]. rewrite Nat.pow_succ_r'. lia.
  Qed.

  Lemma bw_pos : forall n, (1 <= bw n)%nat.
  Proof.
    intro n. unfold bw. rewrite Nat.pow_succ_r'. assert (1 <= 2 ^ bl n)%nat; [|lia].
    induction (bl n) as [|d IH]; [simpl; lia|]. rewrite Nat.pow_succ_r'. lia.
  Qed.

  Lemma cs_same : forall m n n', ndModel n' = ndModel n -> ndLevel n' = ndLevel n -> cs N m n' = cs N m n.
  Proof. intros m n n' E1 E2. unfold cs, lv. rewrite E1, E2. reflexivity. Qed.

  Lemma brute_inv : forall fuel queue ins h, BInv queue ins h -> (sumn bw queue <= fuel)%nat ->
    exists h' ins', brute_loop P fuel queue h = Ok h' /\ BInv [] ins' h'.
  Proof.
    induction fuel as [|fuel IH]; intros queue ins h B Hf.
    - destruct queue as [|x q]; [exists h, ins; auto|].
      simpl in Hf. pose proof (bw_pos x). lia.
    - destruct queue as [|cur rest]; [exists h, ins; auto|].
      cbn [brute_loop]. pose proof (b_q _ _ _ B) as Hq. inversion Hq as [|? ? Wc Wr]; subst.
      cbn [sumn] in Hf.
      (* the node after scoring, the new list and the new ghost *)
      assert (Hstep : exists cur' h' ins',
        (do ch <- (if ((0 <? NumFeatures (ndModel cur))%nat && isNewNode cur)%bool then
                        do h' <- hsInsert h (score_node P cur); Ok (score_node P cur, h')
                      else Ok (cur, h)); Ok ch) = Ok (cur', h') /\
        ndModel cur' = ndModel cur /\ ndLevel cur' = ndLevel cur /\ wf0 cur' /\
        HInv N (2 ^ Z.of_nat cols) h' ins' /\
        (forall n, In n ins' -> length (ndModel n) = cols /\ (0 < NumFeatures (ndModel n))%nat /\
                                  (ndCoeff n, ndScore n) = pFit P (ndModel n)) /\
        (forall m, length m = cols -> (0 < NumFeatures m)%nat ->
           (sumn (is_m N m) ins' + cs N m cur' = sumn (is_m N m) ins + cu N m cur)%nat)).
      { destruct (Nat.ltb_spec 0 (NumFeatures (ndModel cur))) as [Hn|Hn].
        - rewrite (wf0_new_flipped cur Wc Hn). cbn [andb].
          destruct (ndWasFlipped cur) eqn:Ef.
          + destruct (score_node_fields N P cur) as (E1 & E2 & E3 & E4).
            assert (Esc : (ndCoeff (score_node P cur), ndScore (score_node P cur)) = pFit P (ndModel cur)).
            { unfold score_node. assert ((0 <? NumFeatures (ndModel cur))%nat = true) as -> by (apply Nat.ltb_lt; auto).
              rewrite (wf0_new_flipped cur Wc Hn), Ef. cbn [andb].
              destruct (pFit P (ndModel cur)) as (c, s). reflexivity. }
            destruct (hinv_step N L (2 ^ Z.of_nat cols) h ins (score_node P cur) M_ge2 (b_h _ _ _ B)) as (h' & Eh & Hh).
            { unfold nonan. replace (ndScore (score_node P cur)) with (snd (pFit P (ndModel cur))).
              - apply Hnan; auto. apply Wc.
              - rewrite <- Esc. reflexivity. }
            exists (score_node P cur), h', (ins ++ [score_node P cur]).
            cbn zeta. rewrite Eh. cbn [bind]. split; [reflexivity|]. split; auto. split; auto.
            split.
            { destruct Wc as [A1 A2 A3 A4]. constructor; rewrite ?E1, ?E2, ?E4; auto. }
            split; auto. split.
            * intros n Hin. apply in_app_or in Hin. destruct Hin as [Hin|[<-|[]]]; [apply (b_ins _ _ _ B); auto|].
              rewrite E1. split; [apply Wc|]. split; auto.
            * intros m Hm Hnm. rewrite sumn_app. cbn [sumn].
              rewrite (cs_same m cur _ E1 E2).
              rewrite (cu_cs N P Hcols root_len m Hm cur), Ef. unfold is_m. rewrite E1. cbn [andb]. lia.
          + exists cur, h, ins. cbn [bind]. repeat (split; [auto; fail|]).
            split; [apply (b_h _ _ _ B)|]. split; [apply (b_ins _ _ _ B)|].
            intros m Hm Hnm. rewrite (cu_cs N P Hcols root_len m Hm cur), Ef. cbn [andb b2n]. lia.
        - exists cur, h, ins. cbn [andb bind]. repeat (split; [auto; fail|]).
          split; [apply (b_h _ _ _ B)|]. split; [apply (b_ins _ _ _ B)|].
          intros m Hm Hnm. rewrite (cu_cs N P Hcols root_len m Hm cur).
          destruct (eqm m (ndModel cur)) eqn:E; [|rewrite andb_false_r; cbn [b2n]; lia].
          apply eqm_true in E. rewrite E in Hnm. lia. }
      destruct Hstep as (cur' & h' & ins' & E & Em & El & Wc' & Hh & Hins & Hcov).
      match type of E with (do ch <- ?a; Ok ch) = _ => assert (E' : a = Ok (cur', h')) end.
      { match type of E with (do ch <- ?a; Ok ch) = _ => destruct a; cbn [bind] in E; congruence end. }
      rewrite E'. cbn [bind].
      destruct (Z.ltb_spec (ndLevel cur') (Z.of_nat cols)) as [Hi|Hi].
      + destruct (wf0_children cur' Wc' Hi) as (c0 & c1 & G0 & G1 & W0 & W1 & M0 & M1 & L0 & L1 & F0 & F1).
        rewrite G0, G1. cbn [bind].
        apply (IH _ ins').
        * constructor; auto.
          -- apply Forall_app. split; auto.
          -- intros m Hm Hnm. rewrite sumn_app. cbn [sumn].
             pose proof (b_cov _ _ _ B m Hm Hnm) as Hb. cbn [sumn] in Hb. specialize (Hcov m Hm Hnm).
             rewrite (cs_split N P Hcols root_len m Hm cur' Wc' Hi) in Hcov.
             rewrite (cu_child N P Hcols root_len m Hm c0 cur' false); auto; [|apply Wc'].
             rewrite (cu_child N P Hcols root_len m Hm c1 cur' true); auto; [|apply Wc']. lia.
        * rewrite sumn_app. cbn [sumn]. pose proof (bw_split cur' c0 c1 Hi L0 L1).
          assert (bw cur' = bw cur) by (unfold bw, bl; rewrite El; reflexivity). lia.
      + apply (IH _ ins').
        * constructor; auto. intros m Hm Hnm.
          pose proof (b_cov _ _ _ B m Hm Hnm) as Hb. cbn [sumn] in Hb. specialize (Hcov m Hm Hnm).
          rewrite (cs_leaf N P Hcols root_len m Hm cur' Wc') in Hcov; [lia|].
          unfold Proof_Search.inner. lia.
        * pose proof (bw_pos cur). lia.
  Qed.

  Lemma brute_start : BInv [NewNode 0 (repeat false cols)] [] (NewHighscore (2 ^ Z.of_nat cols)).
  Proof.
    rewrite <- Hroot. change (NewNode 0 (pRoot P)) with (root_node P).
    destruct (wf0_root N P Hcols root_len) as (W0 & W1).
    constructor.
    - constructor; auto.
    - apply hinv_init. pose proof M_ge2; lia.
    - intros n [].
    - intros m Hm Hn. cbn [sumn]. unfold cu, root_node, NewNode, lv, agr; cbn [ndModel ndLevel ndWasFlipped Z.to_nat firstn].
      rewrite eqm_refl, go_copy_full. destruct (eqm m (pRoot P)) eqn:E; [|reflexivity].
      apply eqm_true in E. rewrite E, Hroot, nf_repeat in Hn. lia.
  Qed.

  Lemma brute_final : forall ins h, BInv [] ins h ->
    Permutation (hsItems h) ins /\ NoDup (map ndModel ins) /\
    (forall m, In m (map ndModel ins) <-> length m = cols /\ (0 < NumFeatures m)%nat) /\
    length ins = (2 ^ cols - 1)%nat.
  Proof.
    intros ins h B.
    assert (Hcnt : forall m, count_occ (list_eq_dec bool_dec) (map ndModel ins) m = sumn (is_m N m) ins).
    { intro m. rewrite count_sumn. clear. induction ins as [|x l IH]; [reflexivity|].
      cbn [map sumn]. rewrite IH. reflexivity. }
    assert (Hin : forall m, In m (map ndModel ins) <-> length m = cols /\ (0 < NumFeatures m)%nat).
    { intro m. split.
      - intro H. apply in_map_iff in H. destruct H as (n & <- & H). destruct (b_ins _ _ _ B n H); tauto.
      - intros (H1 & H2). apply (count_occ_In (list_eq_dec bool_dec)).
        rewrite Hcnt. pose proof (b_cov _ _ _ B m H1 H2) as Hb. cbn [sumn] in Hb. lia. }
    assert (Hnd : NoDup (map ndModel ins)).
    { apply (NoDup_count_occ (list_eq_dec bool_dec)). intro m.
      destruct (in_dec (list_eq_dec bool_dec) m (map ndModel ins)) as [H|H].
      - apply Hin in H. destruct H as (H1 & H2). rewrite Hcnt.
        pose proof (b_cov _ _ _ B m H1 H2) as Hb. cbn [sumn] in Hb. lia.
      - apply (count_occ_not_In (list_eq_dec bool_dec)) in H. lia. }
    assert (Hlen : length ins = (2 ^ cols - 1)%nat).
    { assert (Hp : Permutation (repeat false cols :: map ndModel ins) (all_models cols)).
      { apply NoDup_Permutation.
        - constructor; auto. rewrite Hin, nf_repeat. lia.
        - apply all_models_nodup.
        - intro m. rewrite all_models_in. split.
          + intros [<-|H]; [apply repeat_length|apply Hin in H; tauto].
          + intro H. destruct (Nat.eq_dec (NumFeatures m) 0) as [E|E].
            * left. rewrite <- H. symmetry. apply nf_zero; auto.
            * right. apply Hin. split; auto. lia. }
      apply Permutation_length in Hp. rewrite all_models_len in Hp. cbn [length] in Hp.
      rewrite map_length in Hp. lia. }
    split; [|split; [|split]]; auto.
    destruct (hi_drop _ _ _ _ (b_h _ _ _ B)) as (d & Hp & _ & Hd).
    destruct d as [|x d]; [rewrite app_nil_r in Hp; auto|].
    exfalso. assert (Hne : x :: d <> []) by discriminate. specialize (Hd Hne).
    apply Permutation_length in Hp. rewrite app_length, Hlen in Hp. cbn [length] in Hp.
    unfold hsLen in Hd.
    assert (Hpow : (2 ^ Z.of_nat cols = Z.of_nat (2 ^ cols))%Z) by (rewrite Nat2Z.inj_pow; reflexivity).
    rewrite Hpow in Hd. assert (1 <= 2 ^ cols)%nat; [|lia]. pose proof M_ge2. lia.
  Qed.

  Lemma brute_all : forall fuel, (2 ^ (S cols) - 1 <= fuel)%nat ->
    exists h, BruteForceSelect P fuel = Ok h /\ hsMaxItems h = (2 ^ Z.of_nat cols)%Z /\
      hsLen h = (2 ^ Z.of_nat cols - 1)%Z /\
      NoDup (map ndModel (hsItems h)) /\
      (forall m, In m (map ndModel (hsItems h)) <-> length m = cols /\ (0 < NumFeatures m)%nat) /\
      (forall n, In n (hsItems h) -> (ndCoeff n, ndScore n) = pFit P (ndModel n)) /\
      desc (hsItems h) /\
      (forall m, length m = cols -> (0 < NumFeatures m)%nat ->
         nltb (hsBestScore h) (snd (pFit P m)) = false) /\
      (exists m, length m = cols /\ (0 < NumFeatures m)%nat /\ hsBestScore h = snd (pFit P m)).
  Proof.
    intros fuel Hf.
    destruct (brute_inv fuel _ [] _ brute_start) as (h & ins & E & B).
    { cbn [sumn]. unfold bw, bl, NewNode. cbn [ndLevel].
      replace (Z.to_nat (Z.of_nat cols - 0)) with cols by lia. lia. }
    destruct (brute_final ins h B) as (Hp & Hnd & Hin & Hlen).
    pose proof (b_h _ _ _ B) as HI.
    exists h. split; [exact E|].
    pose proof (Permutation_map ndModel Hp) as Hpm.
    assert (Hpow : (2 ^ Z.of_nat cols = Z.of_nat (2 ^ cols))%Z) by (rewrite Nat2Z.inj_pow; reflexivity).
    pose proof M_ge2 as H2.
    assert (Hne : ins <> []).
    { intro Hn. rewrite Hn in Hlen. simpl in Hlen. lia. }
    destruct (hinv_best N L _ _ _ H2 HI Hne) as ((n & Hn1 & Hn2) & Hb).
    split; [apply (hi_max _ _ _ _ HI)|]. split.
    { unfold hsLen. rewrite (Permutation_length Hp), Hlen, Hpow. lia. }
    split; [eapply Permutation_NoDup; [apply Permutation_sym; exact Hpm|auto]|].
    split.
    { intro m. rewrite <- Hin. split; intro H; [eapply Permutation_in; eauto|].
      eapply Permutation_in; [apply Permutation_sym|]; eauto. }
    split.
    { intros x Hx. apply (b_ins _ _ _ B). eapply Permutation_in; eauto. }
    split; [apply (hi_sorted _ _ _ _ HI)|].
    split.
    - intros m H1 H3. assert (Hm : In m (map ndModel ins)) by (apply Hin; auto).
      apply in_map_iff in Hm. destruct Hm as (x & Ex & Hx). specialize (Hb x Hx).
      destruct (b_ins _ _ _ B x Hx) as (_ & _ & Es). rewrite Ex in Es.
      rewrite <- Es. exact Hb.
    - destruct (b_ins _ _ _ B n Hn1) as (A1 & A2 & A3). exists (ndModel n). split; auto. split; auto.
      rewrite Hn2, <- A3. reflexivity.
  Qed.
End Brute.

Lemma brute_root_irrelevant : forall (N : Num) rows cols fit bounds r1 r2 q1 q2 c1 c2 fuel,
  BruteForceSelect (N := N) (mkProblem rows cols fit bounds r1 q1 c1) fuel =
  BruteForceSelect (mkProblem rows cols fit bounds r2 q2 c2) fuel.
Proof.
  intros. unfold BruteForceSelect. cbn [pCols].
  generalize [NewNode (N := N) 0 (repeat false cols)], (NewHighscore (N := N) (2 ^ Z.of_nat cols)).
  induction fuel as [|fuel IH]; intros q h; destruct q as [|x q]; try reflexivity.
  cbn [brute_loop]. unfold score_node; cbn [pFit pCols].
  destruct ((0 <? NumFeatures (ndModel x))%nat && isNewNode x)%bool.
  - destruct (fit (ndModel x)) as (c, sc). cbn [ndModel ndLevel].
    destruct (hsInsert h _); cbn [bind ndLevel]; auto.
    destruct (ndLevel x <? Z.of_nat cols)%Z; auto.
    destruct (GetChildNode _ false); cbn [bind]; auto.
    destruct (GetChildNode _ true); cbn [bind]; auto.
  - cbn [bind]. destruct (ndLevel x <? Z.of_nat cols)%Z; auto.
    destruct (GetChildNode _ false); cbn [bind]; auto.
    destruct (GetChildNode _ true); cbn [bind]; auto.
Qed.

(** ** RemoveLeastPromising in exact arithmetic *)
Lemma fold_sum_fin : forall (q : list (Node XR)) (f : Node XR -> R) a,
  (forall n, In n q -> ndLower n = XFin (f n)) ->
  fold_left (fun avg item => nadd (n := XR) avg (ndLower item)) q (XFin a)
  = XFin (fold_left (fun s n => (s + f n)%R) q a).
Proof.
  induction q as [|x q IH]; intros f a H; simpl; auto.
  rewrite (H x) by (simpl; auto). cbn [xadd]. apply IH. intros; apply H; simpl; auto.
Qed.

Lemma fold_sum_lt : forall (A : Type) (f : A -> R) t q a, (forall n, In n q -> t < f n)%R ->
  (a + INR (length q) * t <= fold_left (fun s n => (s + f n)%R) q a)%R /\
  (q <> [] -> a + INR (length q) * t < fold_left (fun s n => (s + f n)%R) q a)%R.
Proof.
  intros A f t. induction q as [|x q IH]; intros a H.
  - cbn [length fold_left INR]. split; [lra|]. intro Hn; congruence.
  - cbn [fold_left]. rewrite (S_INR (length q)) || idtac.
    change (length (x :: q)) with (S (length q)). rewrite S_INR.
    destruct (IH (a + f x)%R) as (H1 & _); [intros; apply H; simpl; auto|].
    pose proof (H x (or_introl eq_refl)). split; [lra|]. intros _. lra.
Qed.

Lemma fold_sum_const : forall (A : Type) r (q : list A) a,
  fold_left (fun s _ => (s + r)%R) q a = (a + INR (length q) * r)%R.
Proof.
  intros A r. induction q as [|x q IH]; intro a; cbn [fold_left].
  - cbn [length INR]. ring.
  - rewrite IH. change (length (x :: q)) with (S (length q)). rewrite S_INR. ring.
Qed.

Definition rmean (q : list (Node XR)) : xr :=
  ndiv (n := XR) (fold_left (fun avg item => nadd (n := XR) avg (ndLower item)) q n0) (nofnat (length q)).

Lemma lens_ne : forall A (q : list A), q <> [] -> (0 < INR (length q))%R.
Proof. intros A [|x q] H; [congruence|]. apply lt_0_INR. simpl. lia. Qed.

Lemma xdiv_len : forall a n, (0 < INR n)%R -> xdiv (XFin a) (XFin (IZR (Z.of_nat n))) = XFin (a / INR n).
Proof.
  intros a n Hn. unfold xdiv. rewrite <- INR_IZR_INZ.
  destruct (Reqb (INR n) 0) eqn:E; [apply Reqb_true in E; lra|reflexivity].
Qed.

Lemma rlp_all_equal : forall (q : list (Node XR)) r, (forall n, In n q -> ndLower n = XFin r) ->
  RemoveLeastPromising q = q.
Proof.
  intros q r H. destruct q as [|x0 q0] eqn:Eq; [reflexivity|]. rewrite <- Eq in *.
  assert (Hne : q <> []) by (rewrite Eq; discriminate). clear x0 q0 Eq.
  unfold RemoveLeastPromising. rewrite clean_filter.
  change (n0 (N := XR)) with (XFin (IZR 0)).
  rewrite (fold_sum_fin q (fun _ => r)) by auto. rewrite fold_sum_const.
  cbn [ndiv XR nofnat nofZ].
  change (@ndiv XR) with xdiv. unfold nofnat. change (@nofZ XR) with (fun z => XFin (IZR z)). cbv beta.
  rewrite xdiv_len by (apply lens_ne; auto).
  replace ((IZR 0 + INR (length q) * r) / INR (length q))%R with r.
  2:{ pose proof (lens_ne _ q Hne). change (IZR 0) with 0%R. field. lra. }
  clear Hne. induction q as [|x q IH]; simpl; auto.
  rewrite (H x) by (simpl; auto). cbn [xltb]. assert (Rltb r r = false) as -> by (apply Rltb_false; lra).
  simpl. f_equal. apply IH. intros; apply H; simpl; auto.
Qed.

Lemma fold_nan : forall (q : list (Node XR)), fold_left (fun avg item => nadd (n := XR) avg (ndLower item)) q XNaN = XNaN.
Proof. induction q; simpl; auto. Qed.

(** the sum is [-Inf] only if some bound is *)
Lemma fold_ninf : forall (q : list (Node XR)) a,
  fold_left (fun avg item => nadd (n := XR) avg (ndLower item)) q a = XNInf ->
  a = XNInf \/ exists n, In n q /\ ndLower n = XNInf.
Proof.
  induction q as [|x q IH]; intros a H; simpl in *; auto.
  destruct (IH _ H) as [E|(n & H1 & H2)]; [|right; exists n; auto].
  destruct a, (ndLower x) eqn:Ex; simpl in E; try discriminate; auto; right; exists x; auto.
Qed.

Lemma fold_fin : forall (q : list (Node XR)) a r,
  fold_left (fun avg item => nadd (n := XR) avg (ndLower item)) q a = XFin r ->
  forall n, In n q -> exists b, ndLower n = XFin b.
Proof.
  induction q as [|x q IH]; intros a r H n Hn; [destruct Hn|]. simpl in H.
  destruct Hn as [<-|Hn]; [|eapply IH; eauto].
  assert (Hx : forall b : xr, b <> XNaN -> (forall z, b <> XFin z) ->
    fold_left (fun avg item => nadd (n := XR) avg (ndLower item)) q b <> XFin r).
  { clear. induction q as [|y q IH]; intros b H1 H2; simpl; [auto|].
    destruct b as [| | |z]; [congruence| | |exfalso; apply (H2 z); reflexivity];
      destruct (ndLower y); simpl; try (rewrite fold_nan; discriminate); apply IH; try discriminate; congruence. }
  destruct (ndLower x) eqn:Ex; [| | |eauto]; exfalso; destruct a; cbn [nadd XR xadd] in H;
    try (rewrite fold_nan in H; discriminate); try (apply (Hx XPInf) in H; auto; discriminate);
    try (apply (Hx XNInf) in H; auto; discriminate).
Qed.

Lemma rlp_nonempty : forall (q : list (Node XR)), q <> [] -> RemoveLeastPromising q <> [].
Proof.
  intros q Hne H. unfold RemoveLeastPromising in H. rewrite clean_filter in H.
  remember (ndiv (n := XR) (fold_left (fun avg item => nadd (n := XR) avg (ndLower item)) q n0) (nofnat (length q))) as t.
  assert (Hall : forall n, In n q -> nltb (n := XR) t (ndLower n) = true).
  { intros n Hn. destruct (nltb (n := XR) t (ndLower n)) eqn:E; auto.
    assert (In n (filter (fun n => negb (nltb (n := XR) t (ndLower n))) q)) by (apply filter_In; rewrite E; auto).
    rewrite H in H0. destruct H0. }
  assert (Hx : exists x, In x q) by (destruct q as [|x q]; [congruence|exists x; simpl; auto]).
  destruct Hx as (x & Hx).
  remember (fold_left (fun avg item => nadd (n := XR) avg (ndLower item)) q n0) as s.
  pose proof (lens_ne _ q Hne) as Hlen.
  assert (Et : t = xdiv s (XFin (INR (length q)))).
  { rewrite Heqt. unfold nofnat. change (@nofZ XR) with (fun z => XFin (IZR z)). cbv beta. rewrite <- INR_IZR_INZ. reflexivity. }
  assert (Hlb : Rltb (INR (length q)) 0 = false) by (apply Rltb_false; lra).
  destruct s as [| | |r].
  - simpl in Et. rewrite Et in Hall. specialize (Hall x Hx). discriminate.
  - unfold xdiv in Et. rewrite Hlb in Et. simpl in Et. rewrite Et in Hall. specialize (Hall x Hx).
    destruct (ndLower x); discriminate.
  - unfold xdiv in Et. rewrite Hlb in Et. simpl in Et.
    symmetry in Heqs. destruct (fold_ninf _ _ Heqs) as [E|(n & H1 & H2)]; [discriminate|].
    specialize (Hall n H1). rewrite Et, H2 in Hall. discriminate.
  - symmetry in Heqs. pose proof (fold_fin _ _ _ Heqs) as Hf.
    unfold xdiv in Et. destruct (Reqb (INR (length q)) 0) eqn:E; [apply Reqb_true in E; lra|].
    pose (f := fun n : Node XR => match ndLower n with XFin b => b | _ => 0%R end).
    assert (Hf' : forall n, In n q -> ndLower n = XFin (f n)).
    { intros n Hn. unfold f. destruct (Hf n Hn) as (b & ->). reflexivity. }
    change (n0 (N := XR)) with (XFin (IZR 0)) in Heqs.
    rewrite (fold_sum_fin q f) in Heqs by auto. injection Heqs as Heqs.
    destruct (fold_sum_lt _ f (r / INR (length q)) q (IZR 0)) as (_ & Hlt).
    + intros n Hn. specialize (Hall n Hn). rewrite Et, (Hf' n Hn) in Hall. simpl in Hall.
      apply Rltb_true in Hall. exact Hall.
    + specialize (Hlt Hne). rewrite Heqs in Hlt.
      replace (IZR 0 + INR (length q) * (r / INR (length q)))%R with r in Hlt; [lra|].
      change (IZR 0) with 0%R. field. lra.
Qed.

(** ** The pruned-model counter *)
Definition log2R (x : R) : R := (ln x / ln 2)%R.
Definition exp2R (x : R) : R := exp (x * ln 2).

Lemma ln2_pos : (0 < ln 2)%R.
Proof. rewrite <- ln_1. apply ln_increasing; lra. Qed.

Lemma log2_exp2 : forall x, log2R (exp2R x) = x.
Proof. intro x. unfold log2R, exp2R. rewrite ln_exp. pose proof ln2_pos. field. lra. Qed.

Lemma exp2_pow : forall n, exp2R (IZR (Z.of_nat n)) = (2 ^ n)%R.
Proof.
  intro n. unfold exp2R. rewrite <- INR_IZR_INZ. induction n as [|n IH].
  - simpl. rewrite Rmult_0_l. apply exp_0.
  - rewrite S_INR, Rmult_plus_distr_r, exp_plus, IH, Rmult_1_l, exp_ln by lra. simpl. ring.
Qed.

Lemma newlog2_spec : forall c n,
  NewLog2Pruned (N := XR) (XFin c) n = XFin (log2R (exp2R c + exp2R (IZR n))).
Proof.
  intros c n. unfold NewLog2Pruned.
  cbn [nsub nadd nlog2 nexp2 nofZ XR n1 xsub xneg xadd xexp2 xlog2].
  unfold n1. cbn [nofZ XR xadd].
  set (d := (IZR n + - c)%R).
  assert (Hp : (0 < exp (d * ln 2))%R) by apply exp_pos.
  assert (Rltb 0 (1 + exp (d * ln 2)) = true) as -> by (apply Rltb_true; lra).
  cbn [xadd]. f_equal. unfold log2R, exp2R.
  assert (Hd : (exp (c * ln 2) + exp (IZR n * ln 2) = exp (c * ln 2) * (1 + exp (d * ln 2)))%R).
  { unfold d. rewrite Rmult_plus_distr_l, Rmult_1_r, <- exp_plus. f_equal. f_equal. ring. }
  rewrite Hd. rewrite ln_mult; [|apply exp_pos|lra]. rewrite ln_exp.
  pose proof ln2_pos. field. lra.
Qed.

Section Counter.
  Variable P : problem XR.

  Definition pruned_weight (ls : list Z) : R :=
    fold_right (fun l acc => (exp2R (IZR (Z.of_nat (pCols P) - l)) + acc)%R) 0%R ls.

  Lemma pruned_weight_app : forall l1 l2, pruned_weight (l1 ++ l2) = (pruned_weight l1 + pruned_weight l2)%R.
  Proof. induction l1; intro l2; simpl; [lra|]. rewrite IHl1. lra. Qed.

  Lemma pruned_weight_nonneg : forall ls, (0 <= pruned_weight ls)%R.
  Proof.
    induction ls; simpl; [lra|]. pose proof (exp_pos (IZR (Z.of_nat (pCols P) - a) * ln 2)). unfold exp2R. lra.
  Qed.

  Lemma exp2_log2 : forall x, (0 < x)%R -> exp2R (log2R x) = x.
  Proof.
    intros x Hx. unfold exp2R, log2R. pose proof ln2_pos.
    replace (ln x / ln 2 * ln 2)%R with (ln x) by (field; lra). apply exp_ln; auto.
  Qed.

  Lemma counter_step : forall s l s', stp XR P s l s' ->
    sLog2 s = XFin (log2R (1 + pruned_weight (gPruned s))) ->
    sLog2 s' = XFin (log2R (1 + pruned_weight (gPruned s'))).
  Proof.
    intros s l s' H E0. destruct H as
      [i M E|j n h M E En Eh|j n M E En|i p flip M E|i M E|i n M E|i j c p flip Ec E Ew|j n E
      |i p flip c E Em|i p flip E Em|i c p flip E El|i c p flip E El|i c p flip e E El|i c p flip e E El
      |k M Hk|j E Ec|i E Ec]; try exact E0.
    - unfold main_prune. cbn [sLog2 gPruned set_cw]. rewrite E0, newlog2_spec.
      rewrite pruned_weight_app. cbn [pruned_weight fold_right]. f_equal. f_equal.
      rewrite exp2_log2; [|pose proof (pruned_weight_nonneg (gPruned s)); lra].
      unfold pruned_weight. cbn [fold_right]. ring.
    - unfold main_ready. destruct (sQueue (set_cw s i CWIdle)); exact E0.
  Qed.

  Lemma counter : forall h s, reach XR P (init_st h) s ->
    sLog2 s = XFin (log2R (1 + pruned_weight (gPruned s))).
  Proof.
    intros h s R. induction R as [|s l s' R IH Hs].
    - cbn [init_st sLog2 gPruned pruned_weight fold_right]. change (n0 (N := XR)) with (XFin (IZR 0)).
      f_equal. unfold log2R. replace (1 + 0)%R with 1%R by ring. rewrite ln_1. unfold Rdiv. ring.
    - eapply counter_step; eauto.
  Qed.
End Counter.

(** ** CreateChild: the micro steps of a child worker nobody interferes with *)
Lemma create_child_steps : forall (N : Num) (P : problem N) (s : st N) i p flip cutoff,
  nth_error (sCW s) i = Some (CWCreate p flip) -> length (sCW s) > i ->
  match CreateChild P p flip cutoff (sHs s) with
  | Ok (Some c) => exists k s', run P s (repeat (LChild i) k) = Some (Ok s') /\
                     sCW s' = upd (sCW s) i (CWSendNode c p flip)
  | Ok None => exists k s', run P s (repeat (LChild i) k) = Some (Ok s') /\
                     sCW s' = upd (sCW s) i (CWPrune p flip)
  | Panic => run P s [LChild i] = Some Panic
  | Fuel => False
  end.
Proof.
  intros N P s i p flip cutoff E Hi. unfold CreateChild.
  assert (Hm : make_child P p flip <> Fuel).
  { unfold make_child. destruct (GetChildNode p flip) eqn:G; cbn [bind].
    - destruct (NumFeatures (ndModel a) <? pRows P)%nat; [destruct (0 <? NumFeatures (ndModel a))%nat|]; discriminate.
    - discriminate.
    - unfold GetChildNode, setz, getz, setn, getn in G. rewrite go_copy_full in G. destruct flip; cbn [bind] in G; [|discriminate].
      destruct (ndLevel p <? 0)%Z; [discriminate|].
      destruct (nth_error (ndModel p) (Z.to_nat (ndLevel p))); cbn [bind] in G; [|discriminate].
      destruct (Z.to_nat (ndLevel p) <? length (ndModel p))%nat; discriminate. }
  destruct (make_child P p flip) as [[c|]| |] eqn:Mk; cbn [bind]; [| | |congruence].
  - assert (U : forall x y, nth_error (upd (upd (sCW s) i x) i y) i = Some y).
    { intros x y. rewrite nth_error_upd, Nat.eqb_refl, upd_length. destruct (Nat.ltb_spec i (length (sCW s))); [auto|lia]. }
    assert (U1 : forall x, nth_error (upd (sCW s) i x) i = Some x).
    { intros x. rewrite nth_error_upd, Nat.eqb_refl. destruct (Nat.ltb_spec i (length (sCW s))); [auto|lia]. }
    assert (UU : forall x y (l : list (cwst N)) j, upd (upd l j x) j y = upd l j y).
    { clear. induction l as [|a l IH]; intros [|j]; simpl; auto. f_equal; auto. }
    destruct (nltb (nneg (hsBestScore (sHs s))) (ndLower c)) eqn:El.
    + destruct (Z.ltb_spec 0 (hsLen (sHs s))) as [Hl|Hl]; cbn [andb].
      * exists 3%nat. cbn [repeat run exec]. rewrite E. cbn [cw_local]. rewrite Mk. cbn [bind set_cw sCW]. rewrite U1.
        cbn [cw_local sHs set_cw]. rewrite El. cbn [set_cw sCW]. rewrite U. cbn [cw_local sHs set_cw].
        assert ((0 <? hsLen (sHs s))%Z = true) as -> by (apply Z.ltb_lt; auto).
        eexists. split; [reflexivity|]. cbn [set_raced set_cw sCW]. rewrite !UU. reflexivity.
      * exists 3%nat. cbn [repeat run exec]. rewrite E. cbn [cw_local]. rewrite Mk. cbn [bind set_cw sCW]. rewrite U1.
        cbn [cw_local sHs set_cw]. rewrite El. cbn [set_cw sCW]. rewrite U. cbn [cw_local sHs set_cw].
        assert ((0 <? hsLen (sHs s))%Z = false) as -> by (apply Z.ltb_ge; auto).
        eexists. split; [reflexivity|]. cbn [set_cw sCW]. rewrite !UU. reflexivity.
    + cbn [andb]. exists 2%nat. cbn [repeat run exec]. rewrite E. cbn [cw_local]. rewrite Mk. cbn [bind set_cw sCW]. rewrite U1.
      cbn [cw_local sHs set_cw]. rewrite El. eexists. split; [reflexivity|]. cbn [set_cw sCW]. rewrite !UU. reflexivity.
  - exists 1%nat. cbn [repeat run exec]. rewrite E. cbn [cw_local]. rewrite Mk. cbn [bind].
    eexists. split; [reflexivity|]. reflexivity.
  - cbn [run exec]. rewrite E. cbn [cw_local]. rewrite Mk. reflexivity.
Qed.

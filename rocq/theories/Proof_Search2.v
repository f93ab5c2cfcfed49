(** Coverage, termination and progress of the search (Model_Search.v). *)
From Coq Require Import Sorting.Permutation.
From Verif Require Import Base Num Mat Model_Node Model_Search Proof_Node Proof_Node2 Proof_Models Proof_Search.

Lemma sumn_clean_le : forall (N : Num) (f : Node N -> nat) q t,
  (sumn f (CleanQueue q t) <= sumn f q)%nat.
Proof.
  induction q as [|x q IH]; intro t; simpl; [lia|].
  specialize (IH t). destruct (nltb t (ndLower x)); simpl; lia.
Qed.

Lemma sumn_clean_lt : forall (N : Num) (f : Node N -> nat) q t,
  (sumn f (CleanQueue q t) < sumn f q)%nat ->
  exists n, In n q /\ (0 < f n)%nat /\ nltb t (ndLower n) = true.
Proof.
  induction q as [|x q IH]; intros t H; simpl in H; [lia|].
  destruct (nltb t (ndLower x)) eqn:E.
  - destruct (Nat.eq_dec (f x) 0) as [Ez|Ez].
    + destruct (IH t) as (n & H1 & H2 & H3); [lia|]. exists n; simpl; auto.
    + exists x; simpl; split; auto. split; auto. lia.
  - simpl in H. destruct (IH t) as (n & H1 & H2 & H3); [lia|]. exists n; simpl; auto.
Qed.

Definition eqm (a b : list bool) : bool := if list_eq_dec bool_dec a b then true else false.
Lemma eqm_true : forall a b, eqm a b = true <-> a = b.
Proof. intros; unfold eqm; destruct (list_eq_dec bool_dec a b); split; intro; auto; discriminate. Qed.
Lemma eqm_refl : forall a, eqm a a = true.
Proof. intro; apply eqm_true; auto. Qed.
Lemma eqm_false : forall a b, eqm a b = false <-> a <> b.
Proof. intros; unfold eqm; destruct (list_eq_dec bool_dec a b); split; intro; auto; try discriminate; contradiction. Qed.

Lemma firstn_nth_ext : forall (a b : list bool) k, length a = length b -> (k <= length a)%nat ->
  (firstn k a = firstn k b <-> forall i, (i < k)%nat -> nth i a false = nth i b false).
Proof.
  induction a as [|x a IH]; intros [|y b] k Hl Hk; simpl in *; try discriminate.
  - assert (k = 0)%nat by lia. subst; simpl. split; auto.
  - destruct k as [|k]; simpl.
    + split; intros; [lia|reflexivity].
    + split.
      * intros H [|i] Hi; injection H; intros; auto; apply (IH b k); auto; lia.
      * intro H. f_equal; [apply (H 0%nat); lia|]. apply IH; try lia. intros i Hi. apply (H (S i)); lia.
Qed.

Lemma nth_skipn : forall A (l : list A) k i d, nth (k + i) l d = nth i (skipn k l) d.
Proof.
  induction l as [|x l IH]; intros [|k] i d; simpl; auto. destruct i; auto.
Qed.

Section S.
  Variable N : Num.
  Variable P : problem N.
  Notation node := (Node N).
  Notation cols := (pCols P).
  Notation wf0 := (wf0 N P). Notation wf := (wf N P). Notation inner := (inner N P).
  Notation stp := (stp N P). Notation PInv := (PInv N P). Notation reach := (reach N P).
  Notation child_model := (child_model N).
  Notation scoreOf := (scoreOf N P). Notation lowerOf := (lowerOf N P).
  Hypothesis Hcols : (1 <= cols)%nat.
  Hypothesis Hroot : length (pRoot P) = cols.

  (** ** Coverage of one model *)
  Section Cov.
  Variable m : list bool.
  Hypothesis Hm : length m = cols.

  Definition agr (x : list bool) (k : nat) : bool := eqm (firstn k m) (firstn k x).
  Definition lv (n : node) : nat := Z.to_nat (ndLevel n).
  Definition cu (n : node) : nat :=
    b2n (agr (ndModel n) (lv n) && (negb (eqm m (ndModel n)) || ndWasFlipped n)).
  Definition cs (n : node) : nat := b2n (agr (ndModel n) (lv n) && negb (eqm m (ndModel n))).
  Definition cch (p : node) (f : bool) : nat :=
    b2n (agr (child_model p f) (S (lv p)) && (negb (eqm m (child_model p f)) || f)).

  Lemma agr_iff : forall x k, length x = cols -> (k <= cols)%nat ->
    agr x k = true <-> forall i, (i < k)%nat -> nth i m false = nth i x false.
  Proof.
    intros x k Hx Hk. unfold agr. rewrite eqm_true. apply firstn_nth_ext; lia.
  Qed.

  Lemma cm_len : forall p f, wf0 p -> length (child_model p f) = cols.
  Proof.
    intros p f W. unfold Proof_Search.child_model. destruct f; [rewrite upd_length|]; apply W.
  Qed.

  Lemma cs_split : forall p, wf0 p -> inner p -> (cs p = cch p false + cch p true)%nat.
  Proof.
    intros p W Hi. pose proof (w_len _ _ _ W) as Wl. pose proof (w_lev _ _ _ W) as Wv.
    unfold Proof_Search.inner in Hi.
    assert (Hk : (lv p < cols)%nat) by (unfold lv; lia).
    unfold cs, cch. rewrite orb_false_r, orb_true_r, andb_true_r.
    assert (A0 : agr (child_model p false) (S (lv p)) = true <->
                 agr (ndModel p) (lv p) = true /\ nth (lv p) m false = nth (lv p) (ndModel p) false).
    { rewrite !agr_iff; auto; try lia.
      - unfold Proof_Search.child_model. split.
        + intro H; split; [intros i Hi'; apply H; lia|apply H; lia].
        + intros (H1 & H2) i Hi'. destruct (Nat.eq_dec i (lv p)) as [->|]; auto. apply H1; lia. }
    assert (A1 : agr (child_model p true) (S (lv p)) = true <->
                 agr (ndModel p) (lv p) = true /\ nth (lv p) m false <> nth (lv p) (ndModel p) false).
    { rewrite !agr_iff; auto; try lia.
      2:{ apply cm_len; auto. }
      unfold Proof_Search.child_model; fold (lv p). split.
      + intro H; split.
        * intros i Hi'. rewrite H by lia. rewrite nth_upd. destruct (Nat.eqb_spec i (lv p)); [lia|auto].
        * rewrite H by lia. rewrite nth_upd, Nat.eqb_refl.
          destruct (Nat.ltb_spec (lv p) (length (ndModel p))); [|lia]. apply Bool.no_fixpoint_negb.
      + intros (H1 & H2) i Hi'. rewrite nth_upd. destruct (Nat.eqb_spec i (lv p)) as [->|].
        * destruct (Nat.ltb_spec (lv p) (length (ndModel p))); [|lia].
          destruct (nth (lv p) m false), (nth (lv p) (ndModel p) false); auto; congruence.
        * apply H1; lia. }
    destruct (agr (ndModel p) (lv p)) eqn:Ea.
    - destruct (bool_dec (nth (lv p) m false) (nth (lv p) (ndModel p) false)) as [E|E].
      + rewrite (proj2 A0) by auto.
        destruct (agr (child_model p true) (S (lv p))) eqn:E1; [exfalso; destruct (proj1 A1 eq_refl); tauto|].
        simpl. unfold Proof_Search.child_model. simpl. destruct (eqm m (ndModel p)); reflexivity.
      + rewrite (proj2 A1) by auto.
        destruct (agr (child_model p false) (S (lv p))) eqn:E0; [exfalso; destruct (proj1 A0 eq_refl); tauto|].
        simpl. destruct (eqm m (ndModel p)) eqn:Em; auto. apply eqm_true in Em. congruence.
    - destruct (agr (child_model p true) (S (lv p))) eqn:E1; [exfalso; destruct (proj1 A1 eq_refl); discriminate|].
      destruct (agr (child_model p false) (S (lv p))) eqn:E0; [exfalso; destruct (proj1 A0 eq_refl); discriminate|].
      reflexivity.
  Qed.

  Lemma cu_child : forall c p f, (0 <= ndLevel p)%Z -> ndModel c = child_model p f ->
    ndLevel c = (ndLevel p + 1)%Z -> ndWasFlipped c = f -> cu c = cch p f.
  Proof.
    intros c p f H E1 E2 E3. unfold cu, cch, lv. rewrite E1, E2, E3.
    replace (Z.to_nat (ndLevel p + 1)) with (S (Z.to_nat (ndLevel p))) by lia. reflexivity.
  Qed.

  Lemma cu_cs : forall n, cu n = (cs n + b2n (ndWasFlipped n && eqm m (ndModel n)))%nat.
  Proof.
    intro n. unfold cu, cs. destruct (eqm m (ndModel n)) eqn:E.
    - apply eqm_true in E. unfold agr. rewrite E, eqm_refl. destruct (ndWasFlipped n); reflexivity.
    - rewrite andb_false_r. simpl. rewrite !andb_true_r. simpl. lia.
  Qed.

  Lemma cs_leaf : forall n, wf0 n -> ~ inner n -> cs n = 0%nat.
  Proof.
    intros n W Hi. unfold Proof_Search.inner in Hi. pose proof (w_len _ _ _ W). pose proof (w_lev _ _ _ W).
    unfold cs. destruct (agr (ndModel n) (lv n)) eqn:E; auto. simpl.
    unfold agr, lv in E. rewrite eqm_true in E. rewrite !firstn_all2 in E by lia.
    rewrite E, eqm_refl. reflexivity.
  Qed.

  Lemma agr_model : forall x k, length x = cols -> (k <= cols)%nat ->
    (forall i, (k <= i)%nat -> nth i x false = nth i (pRoot P) false) ->
    agr x k = true -> x = firstn k m ++ skipn k (pRoot P).
  Proof.
    intros x k Hx Hk Ht E. unfold agr in E. apply eqm_true in E.
    rewrite <- (firstn_skipn k x) at 1. rewrite <- E. f_equal.
    apply list_nth_ext; [rewrite !skipn_length; lia|].
    intros i Hi. rewrite <- !nth_skipn. apply Ht. lia.
  Qed.

  Definition wadd (f : bool) (p : node) : nat := if f then 0 else cch p true.
  Definition cw_cov (c : cwst N) : nat :=
    match c with
    | CWCreate p f => cch p f + wadd f p
    | CWReadBest c p f | CWReadLen c p f _ | CWSendNode c p f => cu c + wadd f p
    | CWPrune p f => wadd f p
    | _ => 0
    end.
  Definition sw_cov (w : swst N) : nat := match w with SWBusy n | SWSend n => cu n | _ => 0 end.
  Definition sw_cov2 (w : swst N) : nat := match w with SWBusy n => cu n | SWSend n => cs n | _ => 0 end.
  Definition main_cov (x : mst N) : nat :=
    match x with MRoot => cs (root_node P) | MWant (Some n) => cs n | _ => 0 end.
  Definition is_m (n : node) : nat := b2n (eqm m (ndModel n)).
  Definition tot (s : st N) : nat :=
    main_cov (sMain s) + sumn cs (sQueue s) + sumn cw_cov (sCW s) + sumn sw_cov (sSW s)
    + sumn is_m (gInserted s).
  Definition tot2 (s : st N) : nat :=
    main_cov (sMain s) + sumn cs (sQueue s) + sumn cw_cov (sCW s) + sumn sw_cov2 (sSW s)
    + sumn (fun x => b2n (eqm m x)) (gScored s).

  Lemma cov_next : forall p f, wf0 p -> inner p -> cw_cov (cw_next p f) = wadd f p.
  Proof. intros p [] W Hi; simpl; auto. Qed.

  Lemma cov_start : forall p, wf0 p -> inner p -> cw_cov (CWCreate p false) = cs p.
  Proof. intros p W Hi. simpl. rewrite cs_split; auto. Qed.

  (** why a step may lose a model *)
  Inductive lost (s s' : st N) : Prop :=
  | lost_trim : gTrimmed s' = true -> lost s s'
  | lost_rows p f : wf0 p -> inner p -> cch p f = 1%nat ->
      (pRows P <= NumFeatures (child_model p f))%nat -> lost s s'
  | lost_prune i c p f e : nth_error (sCW s) i = Some (CWReadLen c p f e) -> cu c = 1%nat ->
      gRaced s' = (gRaced s || e)%bool -> lost s s'
  | lost_clean n h j x : In n (sQueue s) -> cs n = 1%nat ->
      nth_error (sSW s) j = Some (SWSend x) -> isNewNode x = true -> hsInsert (sHs s) x = Ok h ->
      sHs s' = h -> gInserted s' = gInserted s ++ [x] ->
      nltb (nneg (hsBestScore h)) (ndLower n) = true -> lost s s'.

  Lemma b2n_le : forall b, (b2n b <= 1)%nat.
  Proof. destruct b; simpl; lia. Qed.
  Lemma cs_le : forall n, (cs n <= 1)%nat.
  Proof. intro; apply b2n_le. Qed.
  Lemma cu_le : forall n, (cu n <= 1)%nat.
  Proof. intro; apply b2n_le. Qed.
  Lemma cch_le : forall n f, (cch n f <= 1)%nat.
  Proof. intros; apply b2n_le. Qed.

  Lemma tot_step : forall s l s', PInv s -> stp s l s' ->
    tot s' = tot s \/ ((tot s' <= tot s)%nat /\ lost s s').
  Proof.
    intros s l s' I H. destruct H as
      [i M E|j n h M E En Eh|j n M E En|i p flip M E|i M E|i n M E|i j c p flip Ec E Ew|j n E
      |i p flip c E Em|i p flip E Em|i c p flip E El|i c p flip E El|i c p flip e E El|i c p flip e E El
      |k M Hk|j E Ec|i E Ec];
      try (pose proof (Forall_nth _ _ _ _ _ (i_cws _ _ s I) E) as W);
      try (pose proof (Forall_nth _ _ _ _ _ (i_sws _ _ s I) E) as W); try (simpl in W).
    - left. unfold tot; cbn. rewrite M.
      pose proof (sumn_upd _ cw_cov _ _ _ (CWCreate (root_node P) false) E) as S1.
      destruct (wf0_root N P Hcols Hroot) as (W0 & W1). rewrite cov_start in S1 by auto.
      cbn in S1 |- *. lia.
    - (* score, new *)
      destruct W as (Wn & Wsc).
      pose proof (sumn_upd _ sw_cov _ _ _ SWIdle E) as S1. simpl sw_cov in S1.
      rewrite (wf_isNew N P n Wn) in En.
      assert (Hcu : cu n = (cs n + is_m n)%nat) by (rewrite cu_cs, En; reflexivity).
      unfold tot, finish.
      cbn [sMain sQueue sInProg sCurBest sHs sChecked sLog2 sSW sCW gInserted gTrimmed set_sw].
      rewrite M. cbn [main_cov]. rewrite sumn_app. cbn [sumn].
      set (q1 := if nltb (sCurBest s) (hsBestScore h) then CleanQueue (sQueue s) (nneg (hsBestScore h)) else sQueue s).
      set (q2 := if (ndLevel n <? Z.of_nat cols)%Z then q1 ++ [n] else q1).
      assert (Hq1 : (sumn cs q1 <= sumn cs (sQueue s))%nat).
      { unfold q1. destruct (nltb (sCurBest s) (hsBestScore h)); [apply sumn_clean_le|lia]. }
      assert (Hq2 : sumn cs q2 = (sumn cs q1 + cs n)%nat).
      { unfold q2. destruct (Z.ltb_spec (ndLevel n) (Z.of_nat cols)).
        - rewrite sumn_app. simpl. lia.
        - rewrite (cs_leaf n); [lia|apply Wn|unfold Proof_Search.inner; lia]. }
      match goal with |- context [main_cov (if ?b then _ else _)] =>
        assert (Hmc : main_cov (if b then MClose 0 else MSelect) = 0%nat) by (destruct b; reflexivity) end.
      rewrite Hmc. clear Hmc.
      destruct (pMaxQ P <? Z.of_nat (length q2))%Z eqn:Eo.
      + right. split.
        * pose proof (sumn_clean_le N cs q2 (ndiv (fold_left (fun avg item => nadd avg (ndLower item)) q2 n0) (nofnat (length q2)))) as Hr.
          unfold RemoveLeastPromising. lia.
        * apply lost_trim. cbn [gTrimmed]. apply orb_true_r.
      + destruct (Nat.eq_dec (sumn cs q1) (sumn cs (sQueue s))) as [Eq|Eq]; [left; lia|].
        right. split; [lia|].
        unfold q1 in Eq, Hq1. destruct (nltb (sCurBest s) (hsBestScore h)); [|congruence].
        destruct (sumn_clean_lt N cs (sQueue s) (nneg (hsBestScore h))) as (x & Hx1 & Hx2 & Hx3); [lia|].
        pose proof (cs_le x). eapply (lost_clean _ _ x h j n); eauto; try lia; try reflexivity.
        rewrite (wf_isNew N P n Wn); auto.
    - (* score, old *)
      destruct W as (Wn & Wsc).
      pose proof (sumn_upd _ sw_cov _ _ _ SWIdle E) as S1. simpl sw_cov in S1.
      rewrite (wf_isNew N P n Wn) in En.
      assert (Hcu : cu n = cs n) by (rewrite cu_cs, En; simpl; lia).
      unfold tot, finish.
      cbn [sMain sQueue sInProg sCurBest sHs sChecked sLog2 sSW sCW gInserted gTrimmed set_sw].
      rewrite M. cbn [main_cov].
      set (q2 := if (ndLevel n <? Z.of_nat cols)%Z then sQueue s ++ [n] else sQueue s).
      assert (Hq2 : sumn cs q2 = (sumn cs (sQueue s) + cs n)%nat).
      { unfold q2. destruct (Z.ltb_spec (ndLevel n) (Z.of_nat cols)).
        - rewrite sumn_app. simpl. lia.
        - rewrite (cs_leaf n); [lia|apply Wn|unfold Proof_Search.inner; lia]. }
      match goal with |- context [main_cov (if ?b then _ else _)] =>
        assert (Hmc : main_cov (if b then MClose 0 else MSelect) = 0%nat) by (destruct b; reflexivity) end.
      rewrite Hmc. clear Hmc.
      destruct (pMaxQ P <? Z.of_nat (length q2))%Z eqn:Eo.
      + right. split.
        * pose proof (sumn_clean_le N cs q2 (ndiv (fold_left (fun avg item => nadd avg (ndLower item)) q2 n0) (nofnat (length q2)))) as Hr.
          unfold RemoveLeastPromising. lia.
        * apply lost_trim. cbn [gTrimmed]. apply orb_true_r.
      + left; lia.
    - left. destruct W as (W0 & W1). unfold tot, main_prune. cbn. rewrite M.
      pose proof (sumn_upd _ cw_cov _ _ _ (cw_next p flip) E) as S1. rewrite cov_next in S1 by auto.
      match goal with |- context [main_cov (if ?b then _ else _)] =>
        assert (Hmc : main_cov (if b then MClose 0 else MSelect) = 0%nat) by (destruct b; reflexivity) end.
      rewrite Hmc. simpl cw_cov in S1. simpl main_cov. lia.
    - left. unfold tot, main_ready. pose proof (sumn_upd _ cw_cov _ _ _ CWIdle E) as S1. simpl in S1.
      cbn [set_cw sQueue]. destruct (sQueue s) as [|x q] eqn:Q; cbn; rewrite M; rewrite ?Q; simpl; lia.
    - left. unfold tot; cbn. rewrite M. pose proof (sumn_upd _ cw_cov _ _ _ (cw_start n) E) as S1.
      destruct n as [n|]; cbn [cw_start] in *.
      + pose proof (i_main _ _ s I) as Hmn. unfold main_ok in Hmn. rewrite M in Hmn. destruct Hmn.
        rewrite cov_start in S1 by auto. simpl in *. lia.
      + simpl in *. lia.
    - left. destruct W as ((W0 & W1) & _). unfold tot; cbn.
      pose proof (sumn_upd _ cw_cov _ _ _ (cw_next p flip) E) as S1. rewrite cov_next in S1 by auto.
      pose proof (sumn_upd _ sw_cov _ _ _ (SWBusy c) Ew) as S2. simpl in S1, S2. lia.
    - left. unfold tot; cbn. pose proof (sumn_upd _ sw_cov _ _ _ (SWSend (score_node P n)) E) as S2.
      destruct (score_node_fields N P n) as (E1 & E2 & E3 & E4).
      assert (cu (score_node P n) = cu n) by (unfold cu, lv; rewrite E1, E2, E4; reflexivity).
      simpl in S2. lia.
    - left. destruct W as (W0 & W1). unfold tot; cbn.
      pose proof (sumn_upd _ cw_cov _ _ _ (CWReadBest c p flip) E) as S1.
      destruct (make_child_spec N P p flip W0 W1) as [(c' & E' & Wc & A & B & C)|(E' & _)]; [|congruence].
      rewrite E' in Em. injection Em as <-.
      simpl in S1.
      rewrite (cu_child c' p flip) in S1; auto; [|apply W0]. lia.
    - destruct W as (W0 & W1). unfold tot; cbn.
      pose proof (sumn_upd _ cw_cov _ _ _ (CWPrune p flip) E) as S1. simpl in S1.
      pose proof (cch_le p flip).
      destruct (Nat.eq_dec (cch p flip) 0) as [Ez|Ez]; [left; lia|]. right. split; [lia|].
      destruct (make_child_spec N P p flip W0 W1) as [(c' & E' & _)|(E' & Hr)]; [congruence|].
      eapply lost_rows; eauto. lia.
    - left. unfold tot; cbn. pose proof (sumn_upd _ cw_cov _ _ _ (CWReadLen c p flip (hsLen (sHs s) =? 0)%Z) E) as S1.
      simpl in S1. lia.
    - left. unfold tot; cbn. pose proof (sumn_upd _ cw_cov _ _ _ (CWSendNode c p flip) E) as S1.
      simpl in S1. lia.
    - unfold tot; cbn. pose proof (sumn_upd _ cw_cov _ _ _ (CWPrune p flip) E) as S1. simpl in S1.
      pose proof (cu_le c). destruct (Nat.eq_dec (cu c) 0) as [Ez|Ez]; [left; lia|]. right. split; [lia|].
      eapply lost_prune; eauto. lia.
    - left. unfold tot; cbn. pose proof (sumn_upd _ cw_cov _ _ _ (CWSendNode c p flip) E) as S1.
      simpl in S1. lia.
    - left. unfold tot; cbn. rewrite M. simpl. lia.
    - left. unfold tot; cbn. pose proof (sumn_upd _ sw_cov _ _ _ SWDone E) as S1. simpl in S1. lia.
    - left. unfold tot; cbn. pose proof (sumn_upd _ cw_cov _ _ _ CWDone E) as S1. simpl in S1. lia.
  Qed.

  Lemma tot2_step : forall s l s', PInv s -> stp s l s' -> (tot2 s' <= tot2 s)%nat.
  Proof.
    intros s l s' I H. destruct H as
      [i M E|j n h M E En Eh|j n M E En|i p flip M E|i M E|i n M E|i j c p flip Ec E Ew|j n E
      |i p flip c E Em|i p flip E Em|i c p flip E El|i c p flip E El|i c p flip e E El|i c p flip e E El
      |k M Hk|j E Ec|i E Ec];
      try (pose proof (Forall_nth _ _ _ _ _ (i_cws _ _ s I) E) as W);
      try (pose proof (Forall_nth _ _ _ _ _ (i_sws _ _ s I) E) as W); try (simpl in W).
    - unfold tot2; cbn. rewrite M.
      pose proof (sumn_upd _ cw_cov _ _ _ (CWCreate (root_node P) false) E) as S1.
      destruct (wf0_root N P Hcols Hroot) as (W0 & W1). rewrite cov_start in S1 by auto.
      cbn in S1 |- *. lia.
    - destruct W as (Wn & Wsc).
      pose proof (sumn_upd _ sw_cov2 _ _ _ SWIdle E) as S1. simpl sw_cov2 in S1.
      unfold tot2, finish.
      cbn [sMain sQueue sInProg sCurBest sHs sChecked sLog2 sSW sCW gScored gInserted gTrimmed set_sw].
      rewrite M. cbn [main_cov].
      set (q1 := if nltb (sCurBest s) (hsBestScore h) then CleanQueue (sQueue s) (nneg (hsBestScore h)) else sQueue s).
      set (q2 := if (ndLevel n <? Z.of_nat cols)%Z then q1 ++ [n] else q1).
      assert (Hq1 : (sumn cs q1 <= sumn cs (sQueue s))%nat).
      { unfold q1. destruct (nltb (sCurBest s) (hsBestScore h)); [apply sumn_clean_le|lia]. }
      assert (Hq2 : (sumn cs q2 <= sumn cs q1 + cs n)%nat).
      { unfold q2. destruct (Z.ltb_spec (ndLevel n) (Z.of_nat cols)); [rewrite sumn_app; simpl; lia|lia]. }
      match goal with |- context [main_cov (if ?b then _ else _)] =>
        assert (Hmc : main_cov (if b then MClose 0 else MSelect) = 0%nat) by (destruct b; reflexivity) end.
      rewrite Hmc. clear Hmc.
      destruct (pMaxQ P <? Z.of_nat (length q2))%Z.
      + pose proof (sumn_clean_le N cs q2 (ndiv (fold_left (fun avg item => nadd avg (ndLower item)) q2 n0) (nofnat (length q2)))) as Hr.
        unfold RemoveLeastPromising. lia.
      + lia.
    - destruct W as (Wn & Wsc).
      pose proof (sumn_upd _ sw_cov2 _ _ _ SWIdle E) as S1. simpl sw_cov2 in S1.
      unfold tot2, finish.
      cbn [sMain sQueue sInProg sCurBest sHs sChecked sLog2 sSW sCW gScored gInserted gTrimmed set_sw].
      rewrite M. cbn [main_cov].
      set (q2 := if (ndLevel n <? Z.of_nat cols)%Z then sQueue s ++ [n] else sQueue s).
      assert (Hq2 : (sumn cs q2 <= sumn cs (sQueue s) + cs n)%nat).
      { unfold q2. destruct (Z.ltb_spec (ndLevel n) (Z.of_nat cols)); [rewrite sumn_app; simpl; lia|lia]. }
      match goal with |- context [main_cov (if ?b then _ else _)] =>
        assert (Hmc : main_cov (if b then MClose 0 else MSelect) = 0%nat) by (destruct b; reflexivity) end.
      rewrite Hmc. clear Hmc.
      destruct (pMaxQ P <? Z.of_nat (length q2))%Z.
      + pose proof (sumn_clean_le N cs q2 (ndiv (fold_left (fun avg item => nadd avg (ndLower item)) q2 n0) (nofnat (length q2)))) as Hr.
        unfold RemoveLeastPromising. lia.
      + lia.
    - destruct W as (W0 & W1). unfold tot2, main_prune. cbn. rewrite M.
      pose proof (sumn_upd _ cw_cov _ _ _ (cw_next p flip) E) as S1. rewrite cov_next in S1 by auto.
      match goal with |- context [main_cov (if ?b then _ else _)] =>
        assert (Hmc : main_cov (if b then MClose 0 else MSelect) = 0%nat) by (destruct b; reflexivity) end.
      rewrite Hmc. simpl cw_cov in S1. simpl main_cov. lia.
    - unfold tot2, main_ready. pose proof (sumn_upd _ cw_cov _ _ _ CWIdle E) as S1. simpl in S1.
      cbn [set_cw sQueue]. destruct (sQueue s) as [|x q] eqn:Q; cbn; rewrite M; rewrite ?Q; simpl; lia.
    - unfold tot2; cbn. rewrite M. pose proof (sumn_upd _ cw_cov _ _ _ (cw_start n) E) as S1.
      destruct n as [n|]; cbn [cw_start] in *.
      + pose proof (i_main _ _ s I) as Hmn. unfold main_ok in Hmn. rewrite M in Hmn. destruct Hmn.
        rewrite cov_start in S1 by auto. simpl in *. lia.
      + simpl in *. lia.
    - destruct W as ((W0 & W1) & _). unfold tot2; cbn.
      pose proof (sumn_upd _ cw_cov _ _ _ (cw_next p flip) E) as S1. rewrite cov_next in S1 by auto.
      pose proof (sumn_upd _ sw_cov2 _ _ _ (SWBusy c) Ew) as S2. simpl in S1, S2. lia.
    - unfold tot2; cbn [add_scored set_sw sMain sQueue sCW sSW gScored]. pose proof (sumn_upd _ sw_cov2 _ _ _ (SWSend (score_node P n)) E) as S2.
      destruct (score_node_fields N P n) as (E1 & E2 & E3 & E4).
      assert (Ec : cs (score_node P n) = cs n) by (unfold cs, lv; rewrite E1, E2; reflexivity).
      rewrite sumn_app. cbn [sw_cov2] in S2. rewrite Ec in S2. pose proof (cu_cs n) as Hcu.
      rewrite (wf_isNew N P n W).
      destruct (0 <? NumFeatures (ndModel n))%nat; cbn [andb sumn]; [|lia].
      destruct (ndWasFlipped n); cbn [andb sumn] in *; lia.
    - destruct W as (W0 & W1). unfold tot2; cbn.
      pose proof (sumn_upd _ cw_cov _ _ _ (CWReadBest c p flip) E) as S1.
      destruct (make_child_spec N P p flip W0 W1) as [(c' & E' & Wc & A & B & C)|(E' & _)]; [|congruence].
      rewrite E' in Em. injection Em as <-. simpl in S1.
      rewrite (cu_child c' p flip) in S1; auto; [|apply W0]. lia.
    - unfold tot2; cbn. pose proof (sumn_upd _ cw_cov _ _ _ (CWPrune p flip) E) as S1. simpl in S1. lia.
    - unfold tot2; cbn. pose proof (sumn_upd _ cw_cov _ _ _ (CWReadLen c p flip (hsLen (sHs s) =? 0)%Z) E) as S1.
      simpl in S1. lia.
    - unfold tot2; cbn. pose proof (sumn_upd _ cw_cov _ _ _ (CWSendNode c p flip) E) as S1.
      simpl in S1. lia.
    - unfold tot2; cbn. pose proof (sumn_upd _ cw_cov _ _ _ (CWPrune p flip) E) as S1. simpl in S1. lia.
    - unfold tot2; cbn. pose proof (sumn_upd _ cw_cov _ _ _ (CWSendNode c p flip) E) as S1.
      simpl in S1. lia.
    - unfold tot2; cbn. rewrite M. simpl. lia.
    - unfold tot2; cbn. pose proof (sumn_upd _ sw_cov2 _ _ _ SWDone E) as S1. simpl in S1. lia.
    - unfold tot2; cbn. pose proof (sumn_upd _ cw_cov _ _ _ CWDone E) as S1. simpl in S1. lia.
  Qed.

  Lemma tot_init : forall h, m <> pRoot P -> tot (init_st h) = 1%nat /\ tot2 (init_st h) = 1%nat.
  Proof.
    intros h Hr. unfold tot, tot2. cbn [init_st sMain sQueue sSW sCW gInserted gScored main_cov sumn].
    rewrite !sumn_repeat. cbn [cw_cov sw_cov sw_cov2].
    assert (cs (root_node P) = 1%nat).
    { unfold cs, root_node, NewNode, lv, agr; cbn. rewrite go_copy_full.
      destruct (eqm m (pRoot P)) eqn:E; [apply eqm_true in E; contradiction|reflexivity]. }
    lia.
  Qed.

  (** after the loop nothing is pending *)
  Lemma tot_closed : forall s k, PInv s -> sMain s = MClose k -> tot s = sumn is_m (gInserted s).
  Proof.
    intros s k I M. pose proof (i_main _ _ s I) as Hmn. unfold main_ok in Hmn. rewrite M in Hmn.
    destruct Hmn as (_ & Hp & Hq). pose proof (i_prog _ _ s I) as Hpr.
    unfold tot. rewrite M, Hq. cbn [main_cov sumn].
    rewrite (sumn_zero _ cw_cov), (sumn_zero _ sw_cov); [lia|..].
    - intros w Hw. apply In_nth_error in Hw. destruct Hw as (i & Hw).
      pose proof (sumn_ge _ (sw_busy N) _ _ _ Hw). destruct w; simpl in *; try reflexivity; lia.
    - intros w Hw. apply In_nth_error in Hw. destruct Hw as (i & Hw).
      pose proof (sumn_ge _ (cw_rem N) _ _ _ Hw) as Hg.
      destruct w; simpl in *; try reflexivity; destruct flip; simpl in *; lia.
  Qed.
  End Cov.

  (** ** Inserted and scored models are never the root and never repeated *)
  Lemma flipped_not_root : forall n, wf n -> ndWasFlipped n = true -> ndModel n <> pRoot P.
  Proof.
    intros n W Hf E. destruct (w_flip _ _ _ (w_0 _ _ _ W) Hf) as (_ & H). rewrite E in H. contradiction.
  Qed.

  Lemma scored_inv : forall s0 s, PInv s0 -> reach s0 s ->
    (forall x, In x (gScored s0) -> x <> pRoot P /\ length x = cols /\ (0 < NumFeatures x)%nat) ->
    forall x, In x (gScored s) -> x <> pRoot P /\ length x = cols /\ (0 < NumFeatures x)%nat.
  Proof.
    intros s0 s I R H0. induction R as [|s l s' R IH Hs]; auto.
    pose proof (reach_inv N P Hcols Hroot _ _ I R) as Is.
    destruct Hs as
      [i M E|j n h M E En Eh|j n M E En|i p flip M E|i M E|i n M E|i j c p flip Ec E Ew|j n E
      |i p flip c E Em|i p flip E Em|i c p flip E El|i c p flip E El|i c p flip e E El|i c p flip e E El
      |k M Hk|j E Ec|i E Ec]; auto.
    - intros x Hx. unfold main_ready in Hx. destruct (sQueue (set_cw s i CWIdle)); auto.
    - intros x Hx. cbn [add_scored gScored] in Hx. apply in_app_or in Hx. destruct Hx as [Hx|Hx]; auto.
      pose proof (Forall_nth _ _ _ _ _ (i_sws _ _ s Is) E) as W. simpl in W.
      rewrite (wf_isNew N P n W) in Hx.
      destruct (0 <? NumFeatures (ndModel n))%nat eqn:Enf; cbn [andb] in Hx; [|destruct Hx].
      apply Nat.ltb_lt in Enf. destruct (ndWasFlipped n) eqn:Ef; [|destruct Hx].
      destruct Hx as [<-|[]]. split; [apply flipped_not_root; auto|]. split; auto. apply W.
  Qed.

  Lemma count_sumn : forall m l, count_occ (list_eq_dec bool_dec) l m = sumn (fun x => b2n (eqm m x)) l.
  Proof.
    induction l as [|x l IH]; simpl; auto. rewrite IH. unfold eqm.
    destruct (list_eq_dec bool_dec x m) as [->|Hn]; destruct (list_eq_dec bool_dec m _); simpl; try congruence; lia.
  Qed.

  Lemma reach_tot2 : forall h s m, hsMaxItems h <> 1%Z -> reach (init_st h) s ->
    length m = cols -> m <> pRoot P -> (tot2 m s <= 1)%nat /\ (tot m s <= 1)%nat.
  Proof.
    intros h s m Hh R Hl Hr. destruct (tot_init m Hl h Hr) as (T1 & T2).
    pose proof (pinv_init N P h Hh) as I0.
    induction R as [|s l s' R IH Hs]; [lia|].
    pose proof (reach_inv N P Hcols Hroot _ _ I0 R) as Is.
    pose proof (tot2_step m Hl s l s' Is Hs). pose proof (tot_step m Hl s l s' Is Hs). lia.
  Qed.

  Lemma scored_nodup : forall h s, hsMaxItems h <> 1%Z -> reach (init_st h) s ->
    NoDup (gScored s) /\ ~ In (pRoot P) (gScored s).
  Proof.
    intros h s Hh R. pose proof (pinv_init N P h Hh) as I0.
    assert (S := scored_inv _ _ I0 R). specialize (S ltac:(simpl; tauto)).
    split.
    - apply (NoDup_count_occ (list_eq_dec bool_dec)). intro m.
      destruct (in_dec (list_eq_dec bool_dec) m (gScored s)) as [Hin|Hin].
      + destruct (S m Hin) as (H1 & H2 & _).
        destruct (reach_tot2 h s m Hh R H2 H1) as (H & _). rewrite count_sumn. unfold tot2 in H. lia.
      + apply (count_occ_not_In (list_eq_dec bool_dec)) in Hin. lia.
    - intro Hin. destruct (S _ Hin) as (H & _). contradiction.
  Qed.

  Lemma inserted_nodup : forall h s, hsMaxItems h <> 1%Z -> reach (init_st h) s ->
    NoDup (map ndModel (gInserted s)) /\ ~ In (pRoot P) (map ndModel (gInserted s)).
  Proof.
    intros h s Hh R. pose proof (pinv_init N P h Hh) as I0.
    pose proof (reach_inv N P Hcols Hroot _ _ I0 R) as Is.
    assert (S : forall m, In m (map ndModel (gInserted s)) -> m <> pRoot P /\ length m = cols).
    { intros m Hin. apply in_map_iff in Hin. destruct Hin as (n & <- & Hn).
      pose proof (i_ins _ _ s Is) as Hi. rewrite Forall_forall in Hi. destruct (Hi n Hn) as (W & Hf & _).
      split; [apply flipped_not_root; auto|apply W]. }
    split.
    - apply (NoDup_count_occ (list_eq_dec bool_dec)). intro m.
      destruct (in_dec (list_eq_dec bool_dec) m (map ndModel (gInserted s))) as [Hin|Hin].
      + destruct (S m Hin) as (H1 & H2). destruct (reach_tot2 h s m Hh R H2 H1) as (_ & H).
        rewrite count_sumn. unfold tot in H.
        assert (E : sumn (fun x => b2n (eqm m x)) (map ndModel (gInserted s)) = sumn (is_m m) (gInserted s)).
        { generalize (gInserted s). induction l as [|x l IH]; simpl; auto. }
        lia.
      + apply (count_occ_not_In (list_eq_dec bool_dec)) in Hin. lia.
    - intro Hin. destruct (S _ Hin) as (H & _). contradiction.
  Qed.
End S.

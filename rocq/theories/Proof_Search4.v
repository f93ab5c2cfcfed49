(** Queue bound, termination, progress and fairness of the search. *)
From Verif Require Import Base Num Mat Model_Node Model_Search Proof_Node Proof_Node2 Proof_Models Proof_Search Proof_Search2.

(** steps in which an idle worker is handed "no node" because the queue is empty *)
Definition spin {N : Num} (s : st N) (l : label) : bool :=
  match l with
  | LReady _ => match sQueue s with [] => true | _ => false end
  | LWant _ => match sMain s with MWant None => true | _ => false end
  | _ => false
  end.

Fixpoint W (d : nat) : nat := match d with O => 0 | S d => 14 + 2 * W d end.

Section S.
  Variable N : Num.
  Variable P : problem N.
  Notation node := (Node N).
  Notation cols := (pCols P).
  Notation wf0 := (wf0 N P). Notation wf := (wf N P). Notation inner := (inner N P).
  Notation stp := (stp N P). Notation PInv := (PInv N P). Notation reach := (reach N P).
  Notation finish := (finish N P).
  Hypothesis Hcols : (1 <= cols)%nat.
  Hypothesis Hroot : length (pRoot P) = cols.

  Definition dl (n : node) : nat := Z.to_nat (Z.of_nat cols - ndLevel n).

  Lemma finish_queue : forall (f : node -> nat) s n h ck cur q1 ins,
    (sumn f (sQueue (finish s n h ck cur q1 ins)) <=
     sumn f q1 + (if (ndLevel n <? Z.of_nat cols)%Z then f n else 0))%nat.
  Proof.
    intros. unfold Proof_Search.finish. cbn [sQueue].
    set (q2 := if (ndLevel n <? Z.of_nat cols)%Z then q1 ++ [n] else q1).
    assert (H2 : sumn f q2 = (sumn f q1 + (if (ndLevel n <? Z.of_nat cols)%Z then f n else 0))%nat).
    { unfold q2. destruct (ndLevel n <? Z.of_nat cols)%Z; [rewrite sumn_app; simpl; lia|lia]. }
    rewrite <- H2. destruct (pMaxQ P <? Z.of_nat (length q2))%Z; [|lia].
    apply sumn_clean_le.
  Qed.

  Lemma clean_if : forall (f : node -> nat) (b : bool) q t,
    (sumn f (if b then CleanQueue q t else q) <= sumn f q)%nat.
  Proof. intros f [] q t; [apply sumn_clean_le|lia]. Qed.

  (** ** Size of the unexplored part *)
  Definition pw (n : node) : nat := 2 ^ dl n.
  Definition pc (p : node) : nat := 2 ^ (dl p - 1).
  Definition cw_pot (c : cwst N) : nat :=
    match c with
    | CWCreate p f | CWReadBest _ p f | CWReadLen _ p f _ | CWSendNode _ p f => two f * pc p
    | CWPrune p f => if f then 0 else pc p
    | _ => 0
    end.
  Definition sw_pot (w : swst N) : nat := match w with SWBusy n | SWSend n => pw n | _ => 0 end.
  Definition main_pot (x : mst N) : nat :=
    match x with MRoot => 2 ^ cols | MWant (Some n) => pw n | _ => 0 end.
  Definition pot (s : st N) : nat :=
    main_pot (sMain s) + sumn pw (sQueue s) + sumn cw_pot (sCW s) + sumn sw_pot (sSW s).

  Lemma pc_two : forall p, inner p -> (2 * pc p = pw p)%nat.
  Proof.
    intros p Hi. unfold pc, pw, dl, Proof_Search.inner in *.
    remember (Z.to_nat (Z.of_nat cols - ndLevel p)) as d. destruct d as [|d]; [lia|].
    simpl. rewrite Nat.sub_0_r. lia.
  Qed.

  Lemma pc_child : forall c p, ndLevel c = (ndLevel p + 1)%Z -> pw c = pc p.
  Proof. intros c p H. unfold pw, pc, dl. rewrite H. f_equal. lia. Qed.

  Lemma pow2_pos : forall n, (1 <= 2 ^ n)%nat.
  Proof. intro n. induction n; simpl; lia. Qed.

  Lemma pot_step : forall s l s', PInv s -> stp s l s' -> (pot s' <= pot s)%nat.
  Proof.
    intros s l s' I H. destruct H as
      [i M E|j n h M E En Eh|j n M E En|i p flip M E|i M E|i n M E|i j c p flip Ec E Ew|j n E
      |i p flip c E Em|i p flip E Em|i c p flip E El|i c p flip E El|i c p flip e E El|i c p flip e E El
      |k M Hk|j E Ec|i E Ec];
      try (pose proof (Forall_nth _ _ _ _ _ (i_cws _ _ s I) E) as W);
      try (pose proof (Forall_nth _ _ _ _ _ (i_sws _ _ s I) E) as W); try (simpl in W);
      unfold pot.
    - cbn [set_main set_cw sMain sQueue sCW sSW]. rewrite M. cbn [main_pot].
      pose proof (sumn_upd _ cw_pot _ _ _ (CWCreate (root_node P) false) E) as S1.
      destruct (wf0_root N P Hcols Hroot) as (W0 & W1).
      cbn [cw_pot two] in S1. rewrite pc_two in S1 by auto.
      assert (pw (root_node P) = 2 ^ cols)%nat by (unfold pw, dl, root_node, NewNode; cbn [ndLevel]; f_equal; lia).
      lia.
    - pose proof (sumn_upd _ sw_pot _ _ _ SWIdle E) as S1. cbn [sw_pot] in S1.
      pose proof (finish_queue pw (set_sw s j SWIdle) n h (sChecked s + 1)
           (if nltb (sCurBest s) (hsBestScore h) then hsBestScore h else sCurBest s)
           (if nltb (sCurBest s) (hsBestScore h) then CleanQueue (sQueue s) (nneg (hsBestScore h))
            else sQueue s) (gInserted s ++ [n])) as F.
      pose proof (clean_if pw (nltb (sCurBest s) (hsBestScore h)) (sQueue s) (nneg (hsBestScore h))) as C.
      match type of F with (sumn pw (sQueue ?x) <= _)%nat => set (z := x) in * end.
      assert (Hmc : main_pot (sMain z) = 0%nat).
      { unfold z, Proof_Search.finish; cbn [sMain]. match goal with |- main_pot (if ?b then _ else _) = _ => destruct b end; reflexivity. }
      rewrite Hmc, M. change (sCW z) with (sCW s). change (sSW z) with (upd (sSW s) j SWIdle).
      cbn [main_pot]. destruct (ndLevel n <? Z.of_nat cols)%Z; lia.
    - pose proof (sumn_upd _ sw_pot _ _ _ SWIdle E) as S1. cbn [sw_pot] in S1.
      pose proof (finish_queue pw (set_sw s j SWIdle) n (sHs s) (sChecked s) (sCurBest s) (sQueue s) (gInserted s)) as F.
      match type of F with (sumn pw (sQueue ?x) <= _)%nat => set (z := x) in * end.
      assert (Hmc : main_pot (sMain z) = 0%nat).
      { unfold z, Proof_Search.finish; cbn [sMain]. match goal with |- main_pot (if ?b then _ else _) = _ => destruct b end; reflexivity. }
      rewrite Hmc, M. change (sCW z) with (sCW s). change (sSW z) with (upd (sSW s) j SWIdle).
      cbn [main_pot]. destruct (ndLevel n <? Z.of_nat cols)%Z; lia.
    - unfold main_prune; cbn [set_cw sMain sQueue sCW sSW]. rewrite M.
      match goal with |- context [main_pot (if ?b then _ else _)] =>
        assert (Hmc : main_pot (if b then MClose 0 else MSelect) = 0%nat) by (destruct b; reflexivity) end.
      rewrite Hmc. pose proof (sumn_upd _ cw_pot _ _ _ (cw_next p flip) E) as S1.
      destruct flip; cbn [cw_next cw_pot two main_pot] in *; lia.
    - unfold main_ready. pose proof (sumn_upd _ cw_pot _ _ _ CWIdle E) as S1. cbn [cw_pot] in S1.
      cbn [set_cw sQueue]. rewrite M. destruct (sQueue s) as [|x q] eqn:Q;
        cbn [set_main set_cw sMain sQueue sCW sSW main_pot sumn]; rewrite ?Q; cbn [sumn]; lia.
    - cbn [set_main set_cw sMain sQueue sCW sSW]. rewrite M.
      pose proof (sumn_upd _ cw_pot _ _ _ (cw_start n) E) as S1.
      destruct n as [n|]; cbn [cw_start cw_pot main_pot two] in *; [|lia].
      pose proof (i_main _ _ s I) as Hmn. unfold main_ok in Hmn. rewrite M in Hmn. destruct Hmn as (W0 & W1).
      rewrite pc_two in S1 by auto. lia.
    - destruct W as ((W0 & W1) & _ & _ & Wl & _).
      cbn [set_main set_cw set_sw sMain sQueue sCW sSW].
      pose proof (sumn_upd _ cw_pot _ _ _ (cw_next p flip) E) as S1.
      pose proof (sumn_upd _ sw_pot _ _ _ (SWBusy c) Ew) as S2. cbn [sw_pot] in S2.
      rewrite (pc_child c p Wl) in S2. destruct flip; cbn [cw_next cw_pot two] in *; lia.
    - cbn [add_scored set_sw sMain sQueue sCW sSW].
      pose proof (sumn_upd _ sw_pot _ _ _ (SWSend (score_node P n)) E) as S2. cbn [sw_pot] in S2.
      destruct (score_node_fields N P n) as (E1 & E2 & E3 & E4).
      unfold pw, dl in *. rewrite E2 in S2. lia.
    - cbn [set_cw sMain sQueue sCW sSW]. pose proof (sumn_upd _ cw_pot _ _ _ (CWReadBest c p flip) E) as S1.
      cbn [cw_pot] in S1. lia.
    - cbn [set_cw sMain sQueue sCW sSW]. pose proof (sumn_upd _ cw_pot _ _ _ (CWPrune p flip) E) as S1.
      destruct flip; cbn [cw_pot two] in S1; lia.
    - cbn [set_cw sMain sQueue sCW sSW].
      pose proof (sumn_upd _ cw_pot _ _ _ (CWReadLen c p flip (hsLen (sHs s) =? 0)%Z) E) as S1. cbn [cw_pot] in S1. lia.
    - cbn [set_cw sMain sQueue sCW sSW]. pose proof (sumn_upd _ cw_pot _ _ _ (CWSendNode c p flip) E) as S1.
      cbn [cw_pot] in S1. lia.
    - cbn [set_raced set_cw sMain sQueue sCW sSW]. pose proof (sumn_upd _ cw_pot _ _ _ (CWPrune p flip) E) as S1.
      destruct flip; cbn [cw_pot two] in S1; lia.
    - cbn [set_cw sMain sQueue sCW sSW]. pose proof (sumn_upd _ cw_pot _ _ _ (CWSendNode c p flip) E) as S1.
      cbn [cw_pot] in S1. lia.
    - cbn [set_main sMain sQueue sCW sSW]. rewrite M. cbn [main_pot]. lia.
    - cbn [set_sw sMain sQueue sCW sSW]. pose proof (sumn_upd _ sw_pot _ _ _ SWDone E) as S1. cbn [sw_pot] in S1. lia.
    - cbn [set_cw sMain sQueue sCW sSW]. pose proof (sumn_upd _ cw_pot _ _ _ CWDone E) as S1. cbn [cw_pot] in S1. lia.
  Qed.

  Lemma pot_init : forall h, pot (init_st h) = (2 ^ cols)%nat.
  Proof.
    intro h. unfold pot. cbn [init_st sMain sQueue sCW sSW main_pot sumn].
    rewrite !sumn_repeat. cbn [cw_pot sw_pot]. lia.
  Qed.

  Lemma reach_pot : forall h s, hsMaxItems h <> 1%Z -> reach (init_st h) s -> (pot s <= 2 ^ cols)%nat.
  Proof.
    intros h s Hh R. induction R as [|s l s' R IH Hs]; [rewrite pot_init; lia|].
    pose proof (pot_step s l s' (reach_inv N P Hcols Hroot _ _ (pinv_init N P h Hh) R) Hs). lia.
  Qed.

  Lemma queue_pw : forall q : list node, Forall (fun n => wf n /\ inner n) q -> (2 * length q <= sumn pw q)%nat.
  Proof.
    intros q F. induction F as [|x q (_ & Hi) F IH]; simpl; [lia|].
    assert (2 <= pw x)%nat; [|lia]. rewrite <- pc_two by auto. pose proof (pow2_pos (dl x - 1)). unfold pc. lia.
  Qed.

  Lemma queue_bound : forall h s, hsMaxItems h <> 1%Z -> reach (init_st h) s ->
    (2 * length (sQueue s) <= 2 ^ cols)%nat.
  Proof.
    intros h s Hh R. pose proof (reach_pot h s Hh R). pose proof (reach_inv N P Hcols Hroot _ _ (pinv_init N P h Hh) R) as I.
    pose proof (queue_pw _ (i_q _ _ s I)). unfold pot in *. lia.
  Qed.

  Lemma trimmed_false : forall h s, hsMaxItems h <> 1%Z -> (2 ^ Z.of_nat cols <= 2 * pMaxQ P)%Z ->
    reach (init_st h) s -> gTrimmed s = false.
  Proof.
    intros h s Hh Hq R. induction R as [|s l s' R IH Hs]; auto.
    pose proof (reach_inv N P Hcols Hroot _ _ (pinv_init N P h Hh) R) as I.
    pose proof (reach_pot h s Hh R) as Hp.
    assert (Hpow : (2 ^ Z.of_nat cols = Z.of_nat (2 ^ cols))%Z) by (rewrite Nat2Z.inj_pow; reflexivity).
    assert (Hover : forall j n q1, nth_error (sSW s) j = Some (SWSend n) ->
      (forall x, In x q1 -> In x (sQueue s)) -> (sumn pw q1 <= sumn pw (sQueue s))%nat ->
      (pMaxQ P <? Z.of_nat (length (if (ndLevel n <? Z.of_nat cols)%Z then q1 ++ [n] else q1)))%Z = false).
    { intros j n q1 E Hin Hle. pose proof (sumn_ge _ sw_pot _ _ _ E) as Hge. cbn [sw_pot] in Hge.
      pose proof (Forall_nth _ _ _ _ _ (i_sws _ _ s I) E) as (Wn & _).
      apply Z.ltb_ge.
      assert (F1 : Forall (fun n => wf n /\ inner n) q1).
      { pose proof (i_q _ _ s I) as F. rewrite Forall_forall in *. auto. }
      unfold pot in Hp.
      destruct (Z.ltb_spec (ndLevel n) (Z.of_nat cols)) as [Hi|Hi].
      - assert (F2 : Forall (fun n => wf n /\ inner n) (q1 ++ [n])).
        { apply Forall_app; split; auto. }
        pose proof (queue_pw _ F2) as Hb. rewrite sumn_app in Hb. cbn [sumn] in Hb. lia.
      - pose proof (queue_pw _ F1) as Hb. lia. }
    destruct Hs as
      [i M E|j n h' M E En Eh|j n M E En|i p flip M E|i M E|i n M E|i j c p flip Ec E Ew|j n E
      |i p flip c E Em|i p flip E Em|i c p flip E El|i c p flip E El|i c p flip e E El|i c p flip e E El
      |k M Hk|j E Ec|i E Ec]; auto.
    - unfold Proof_Search.finish. cbn [gTrimmed set_sw]. rewrite IH. cbn [orb].
      eapply Hover; eauto.
      + intros x. destruct (nltb (sCurBest s) (hsBestScore h')); auto. apply clean_incl.
      + apply clean_if.
    - unfold Proof_Search.finish. cbn [gTrimmed set_sw]. rewrite IH. cbn [orb].
      eapply Hover; eauto.
    - unfold main_ready. destruct (sQueue (set_cw s i CWIdle)); auto.
  Qed.

  (** ** Measure of the remaining work *)
  Definition qw (n : node) : nat := W (dl n).
  Definition cwt (p : node) : nat := 6 + W (dl p - 1).
  Definition rest (p : node) (f : bool) : nat := if f then 0 else cwt p.
  Definition cw_psi (c : cwst N) : nat :=
    match c with
    | CWIdle | CWReady => 1
    | CWDone => 0
    | CWCreate p f => 1 + cwt p + rest p f
    | CWReadBest _ p f => cwt p + rest p f
    | CWReadLen _ p f _ => cwt p - 1 + rest p f
    | CWSendNode _ p f => cwt p - 2 + rest p f
    | CWPrune p f => 2 + rest p f
    end.
  Definition sw_psi (w : swst N) : nat :=
    match w with SWIdle => 1 | SWDone => 0 | SWBusy n => 3 + qw n | SWSend n => 2 + qw n end.
  Definition main_psi (x : mst N) : nat :=
    match x with
    | MRoot => 6 + 2 * cwt (root_node P)
    | MWant (Some n) => 6 + 2 * cwt n
    | MWant None | MSelect => 5
    | MClose k => 4 - k
    end.
  Definition psi (s : st N) : nat :=
    main_psi (sMain s) + sumn qw (sQueue s) + sumn cw_psi (sCW s) + sumn sw_psi (sSW s).

  Lemma qw_inner : forall p, inner p -> qw p = (2 + 2 * cwt p)%nat.
  Proof.
    intros p Hi. unfold qw, cwt, dl, Proof_Search.inner in *.
    remember (Z.to_nat (Z.of_nat cols - ndLevel p)) as d. destruct d as [|d]; [lia|].
    cbn [W]. replace (S d - 1)%nat with d by lia. lia.
  Qed.
  Lemma cwt_child : forall c p, ndLevel c = (ndLevel p + 1)%Z -> (cwt p = 6 + qw c)%nat.
  Proof.
    intros c p H. unfold cwt, qw, dl. rewrite H.
    replace (Z.to_nat (Z.of_nat cols - (ndLevel p + 1))) with (Z.to_nat (Z.of_nat cols - ndLevel p) - 1)%nat by lia.
    reflexivity.
  Qed.
  Lemma main_psi_stop : forall b : bool, (main_psi (if b then MClose 0 else MSelect) <= 5)%nat.
  Proof. intros []; simpl; lia. Qed.

  Lemma psi_step : forall s l s', PInv s -> stp s l s' ->
    if spin s l then psi s' = psi s else (psi s' < psi s)%nat.
  Proof.
    intros s l s' I H. destruct H as
      [i M E|j n h M E En Eh|j n M E En|i p flip M E|i M E|i n M E|i j c p flip Ec E Ew|j n E
      |i p flip c E Em|i p flip E Em|i c p flip E El|i c p flip E El|i c p flip e E El|i c p flip e E El
      |k M Hk|j E Ec|i E Ec];
      try (pose proof (Forall_nth _ _ _ _ _ (i_cws _ _ s I) E) as Wk);
      try (pose proof (Forall_nth _ _ _ _ _ (i_sws _ _ s I) E) as Wk); try (simpl in Wk);
      cbn [spin]; unfold psi.
    - cbn [set_main set_cw sMain sQueue sCW sSW]. rewrite M. cbn [main_psi].
      pose proof (sumn_upd _ cw_psi _ _ _ (CWCreate (root_node P) false) E) as S1.
      cbn [cw_psi rest] in S1. lia.
    - pose proof (sumn_upd _ sw_psi _ _ _ SWIdle E) as S1. cbn [sw_psi] in S1.
      pose proof (finish_queue qw (set_sw s j SWIdle) n h (sChecked s + 1)
           (if nltb (sCurBest s) (hsBestScore h) then hsBestScore h else sCurBest s)
           (if nltb (sCurBest s) (hsBestScore h) then CleanQueue (sQueue s) (nneg (hsBestScore h))
            else sQueue s) (gInserted s ++ [n])) as F.
      pose proof (clean_if qw (nltb (sCurBest s) (hsBestScore h)) (sQueue s) (nneg (hsBestScore h))) as C.
      match type of F with (sumn qw (sQueue ?x) <= _)%nat => set (z := x) in * end.
      assert (Hmc : (main_psi (sMain z) <= 5)%nat).
      { unfold z, Proof_Search.finish; cbn [sMain]. apply main_psi_stop. }
      rewrite M. change (sCW z) with (sCW s). change (sSW z) with (upd (sSW s) j SWIdle).
      cbn [main_psi]. destruct (ndLevel n <? Z.of_nat cols)%Z; lia.
    - pose proof (sumn_upd _ sw_psi _ _ _ SWIdle E) as S1. cbn [sw_psi] in S1.
      pose proof (finish_queue qw (set_sw s j SWIdle) n (sHs s) (sChecked s) (sCurBest s) (sQueue s) (gInserted s)) as F.
      match type of F with (sumn qw (sQueue ?x) <= _)%nat => set (z := x) in * end.
      assert (Hmc : (main_psi (sMain z) <= 5)%nat).
      { unfold z, Proof_Search.finish; cbn [sMain]. apply main_psi_stop. }
      rewrite M. change (sCW z) with (sCW s). change (sSW z) with (upd (sSW s) j SWIdle).
      cbn [main_psi]. destruct (ndLevel n <? Z.of_nat cols)%Z; lia.
    - unfold main_prune; cbn [set_cw sMain sQueue sCW sSW]. rewrite M.
      match goal with |- context [main_psi (if ?b then _ else _)] => pose proof (main_psi_stop b) as Hmc end.
      pose proof (sumn_upd _ cw_psi _ _ _ (cw_next p flip) E) as S1.
      destruct flip; cbn [cw_next cw_psi rest main_psi] in *; lia.
    - unfold main_ready. pose proof (sumn_upd _ cw_psi _ _ _ CWIdle E) as S1. cbn [cw_psi] in S1.
      cbn [set_cw sQueue]. rewrite M. destruct (sQueue s) as [|x q] eqn:Q;
        cbn [set_main set_cw sMain sQueue sCW sSW main_psi sumn]; rewrite ?Q; cbn [sumn]; [lia|].
      pose proof (i_q _ _ s I) as F. rewrite Q in F. inversion F as [|? ? (_ & Hi) ?]; subst.
      rewrite (qw_inner x Hi). lia.
    - cbn [set_main set_cw sMain sQueue sCW sSW]. rewrite M.
      pose proof (sumn_upd _ cw_psi _ _ _ (cw_start n) E) as S1.
      destruct n as [n|]; cbn [cw_start cw_psi main_psi rest] in *; lia.
    - destruct Wk as ((W0 & W1) & _ & _ & Wl & _).
      cbn [set_main set_cw set_sw sMain sQueue sCW sSW].
      pose proof (sumn_upd _ cw_psi _ _ _ (cw_next p flip) E) as S1.
      pose proof (sumn_upd _ sw_psi _ _ _ (SWBusy c) Ew) as S2. cbn [sw_psi] in S2.
      pose proof (cwt_child c p Wl) as Hc. destruct flip; cbn [cw_next cw_psi rest] in *; lia.
    - cbn [add_scored set_sw sMain sQueue sCW sSW].
      pose proof (sumn_upd _ sw_psi _ _ _ (SWSend (score_node P n)) E) as S2. cbn [sw_psi] in S2.
      destruct (score_node_fields N P n) as (E1 & E2 & E3 & E4).
      unfold qw, dl in *. rewrite E2 in S2. lia.
    - cbn [set_cw sMain sQueue sCW sSW]. pose proof (sumn_upd _ cw_psi _ _ _ (CWReadBest c p flip) E) as S1.
      cbn [cw_psi] in S1. lia.
    - cbn [set_cw sMain sQueue sCW sSW]. pose proof (sumn_upd _ cw_psi _ _ _ (CWPrune p flip) E) as S1.
      unfold cwt in S1. cbn [cw_psi] in S1. unfold cwt in S1. lia.
    - cbn [set_cw sMain sQueue sCW sSW].
      pose proof (sumn_upd _ cw_psi _ _ _ (CWReadLen c p flip (hsLen (sHs s) =? 0)%Z) E) as S1.
      cbn [cw_psi] in S1. unfold cwt in S1. lia.
    - cbn [set_cw sMain sQueue sCW sSW]. pose proof (sumn_upd _ cw_psi _ _ _ (CWSendNode c p flip) E) as S1.
      cbn [cw_psi] in S1. unfold cwt in S1. lia.
    - cbn [set_raced set_cw sMain sQueue sCW sSW]. pose proof (sumn_upd _ cw_psi _ _ _ (CWPrune p flip) E) as S1.
      cbn [cw_psi] in S1. unfold cwt in S1. lia.
    - cbn [set_cw sMain sQueue sCW sSW]. pose proof (sumn_upd _ cw_psi _ _ _ (CWSendNode c p flip) E) as S1.
      cbn [cw_psi] in S1. unfold cwt in S1. lia.
    - cbn [set_main sMain sQueue sCW sSW]. rewrite M. cbn [main_psi]. lia.
    - cbn [set_sw sMain sQueue sCW sSW]. pose proof (sumn_upd _ sw_psi _ _ _ SWDone E) as S1. cbn [sw_psi] in S1. lia.
    - cbn [set_cw sMain sQueue sCW sSW]. pose proof (sumn_upd _ cw_psi _ _ _ CWDone E) as S1. cbn [cw_psi] in S1. lia.
  Qed.

  Lemma W_val : forall d, (W d + 14 = 14 * 2 ^ d)%nat.
  Proof. induction d; cbn [W]; [reflexivity|]. rewrite Nat.pow_succ_r'. lia. Qed.

  Lemma psi_init : forall h, (psi (init_st h) = 14 * 2 ^ cols + 6)%nat.
  Proof.
    intro h. unfold psi. cbn [init_st sMain sQueue sCW sSW main_psi sumn].
    rewrite !sumn_repeat. cbn [cw_psi sw_psi]. unfold cwt.
    destruct (wf0_root N P Hcols Hroot) as (W0 & W1).
    replace (dl (root_node P)) with cols by (unfold dl, root_node, NewNode; cbn [ndLevel]; lia).
    pose proof (W_val (cols - 1)). assert (2 ^ cols = 2 * 2 ^ (cols - 1))%nat.
    { rewrite <- Nat.pow_succ_r'. f_equal. lia. }
    unfold numChildWorkers, numScoreWorkers. lia.
  Qed.

  (** ** Progress *)
  (** SelectModel has returned and no goroutine can move any more; one child
      worker is left waiting to say that it is ready. *)
  Definition final (s : st N) : Prop :=
    sMain s = MClose 4 /\ (forall w, In w (sSW s) -> w = SWDone) /\
    (exists i, nth_error (sCW s) i = Some CWReady /\
       forall i' c, nth_error (sCW s) i' = Some c -> i' <> i -> c = CWDone).

  Lemma unique_busy : forall (cw : list (cwst N)), sumn (cw_busy N) cw = 1%nat ->
    exists i c, nth_error cw i = Some c /\ cw_busy N c = 1%nat /\
      forall i' c', nth_error cw i' = Some c' -> i' <> i -> cw_busy N c' = 0%nat.
  Proof.
    induction cw as [|x cw IH]; simpl; intro H; [lia|].
    destruct (cw_busy N x) as [|k] eqn:E.
    - destruct (IH H) as (i & c & H1 & H2 & H3). exists (S i), c. split; auto. split; auto.
      intros [|i'] c' H4 H5; simpl in H4; [injection H4 as <-; auto|]. apply (H3 i'); auto.
    - assert (Hk : k = 0%nat) by (destruct x; simpl in E; lia). subst.
      exists 0%nat, x. split; auto. split; auto.
      intros [|i'] c' H4 H5; [congruence|]. simpl in H4.
      pose proof (sumn_ge _ (cw_busy N) _ _ _ H4). lia.
  Qed.

  Lemma some_idle : forall s, PInv s -> token N (sMain s) = 0%nat -> exists i, nth_error (sCW s) i = Some CWIdle.
  Proof.
    intros s I Ht. pose proof (i_tok _ _ s I) as Hb. rewrite Ht in Hb.
    pose proof (i_cw _ _ s I) as Hl. destruct (nth_error (sCW s) 0) as [c|] eqn:E.
    2:{ apply nth_error_None in E. unfold numChildWorkers in Hl. lia. }
    pose proof (sumn_ge _ (cw_busy N) _ _ _ E).
    exists 0%nat. rewrite E. destruct c; cbn [cw_busy] in *; try lia; auto.
    exfalso. pose proof (i_cwd _ _ s I (nth_error_In _ _ E)) as Hc. unfold closed in Hc.
    destruct (sMain s); try discriminate.
  Qed.

  Lemma sw_cases : forall s, PInv s ->
    (exists j n, nth_error (sSW s) j = Some (SWBusy n)) \/
    (exists j n, nth_error (sSW s) j = Some (SWSend n)) \/
    (sumn (sw_busy N) (sSW s) = 0%nat).
  Proof.
    intros s I. destruct (sumn (sw_busy N) (sSW s)) as [|k] eqn:E; auto.
    destruct (sumn_pos _ (sw_busy N) (sSW s)) as (j & w & H1 & H2); [lia|].
    destruct w; simpl in H2; try lia; eauto.
  Qed.

  Lemma progress : forall s, PInv s -> final s \/
    (exists l s', stp s l s' /\ spin s l = false) \/
    (exists l s1 l' s2, stp s l s1 /\ stp s1 l' s2 /\ spin s l = true /\ spin s1 l' = false).
  Proof.
    intros s I. pose proof (i_main _ _ s I) as Hm. unfold main_ok in Hm.
    pose proof (i_prog _ _ s I) as Hp. pose proof (i_tok _ _ s I) as Ht.
    destruct (sMain s) as [| |[n|]|k] eqn:M.
    - destruct (some_idle s I) as (i & E); [rewrite M; auto|].
      right; left. exists (LRoot i). eexists. split; [apply sv_root; eauto|reflexivity].
    - destruct (sw_cases s I) as [(j & n & E)|[(j & n & E)|Hz]].
      + right; left. eexists. eexists. split; [eapply sv_compute; eauto|reflexivity].
      + right; left. destruct (isNewNode n) eqn:En.
        * destruct (hsInsert_ok N (sHs s) n (i_max _ _ s I)) as (h' & Eh & _).
          eexists. eexists. split; [eapply sv_score_new; eauto|reflexivity].
        * eexists. eexists. split; [eapply sv_score_old; eauto|reflexivity].
      + destruct (unique_busy (sCW s) Ht) as (i & c & E & Eb & Hothers).
        pose proof (Forall_nth _ _ _ _ _ (i_cws _ _ s I) E) as Wc.
        assert (Hcl : closed s 0 = false) by (unfold closed; rewrite M; auto).
        destruct c as [|p f|c p f|c p f e|c p f|p f| |]; simpl in Eb; try lia; simpl in Wc; right; left.
        * destruct Wc as (W0 & W1). destruct (make_child_spec N P p f W0 W1) as [(c & Ec & _)|(Ec & _)].
          -- eexists. eexists. split; [eapply sv_create; eauto|reflexivity].
          -- eexists. eexists. split; [eapply sv_create_none; eauto|reflexivity].
        * destruct (nltb (nneg (hsBestScore (sHs s))) (ndLower c)) eqn:El.
          -- eexists. eexists. split; [eapply sv_best_gt; eauto|reflexivity].
          -- eexists. eexists. split; [eapply sv_best_le; eauto|reflexivity].
        * destruct (Z.ltb_spec 0 (hsLen (sHs s))).
          -- eexists. eexists. split; [eapply sv_len_pos; eauto|reflexivity].
          -- eexists. eexists. split; [eapply sv_len_zero; eauto|reflexivity].
        * destruct (nth_error (sSW s) 0) as [w|] eqn:Ew.
          2:{ apply nth_error_None in Ew. rewrite (i_sw _ _ s I) in Ew. unfold numScoreWorkers in Ew. lia. }
          pose proof (sumn_ge _ (sw_busy N) _ _ _ Ew).
          destruct w; cbn [sw_busy] in *; try lia.
          -- eexists. eexists. split; [eapply sv_node; eauto|reflexivity].
          -- exfalso. pose proof (i_swd _ _ s I (nth_error_In _ _ Ew)). congruence.
        * eexists. eexists. split; [eapply sv_prune; eauto|reflexivity].
        * eexists. eexists. split; [eapply sv_ready; eauto|].
          cbn [spin]. destruct (sQueue s) eqn:Q; auto. exfalso.
          destruct Hm as [Hm|Hm]; [|congruence].
          assert (Hr : sumn (cw_rem N) (sCW s) = 0%nat).
          { apply sumn_zero. intros x Hx. apply In_nth_error in Hx. destruct Hx as (i' & Hx).
            destruct (Nat.eq_dec i' i) as [->|Hne]; [rewrite E in Hx; injection Hx as <-; reflexivity|].
            specialize (Hothers i' x Hx Hne). destruct x; simpl in *; auto; discriminate. }
          rewrite Hr, Hz in Hp. simpl in Hp. lia.
    - destruct (some_idle s I) as (i & E); [rewrite M; auto|].
      right; left. exists (LWant i). eexists. split; [eapply sv_want; eauto|]. cbn [spin]. rewrite M. reflexivity.
    - destruct Hm as (Hp0 & Hq). destruct (some_idle s I) as (i & E); [rewrite M; auto|].
      destruct (sw_cases s I) as [(j & n & Ew)|[(j & n & Ew)|Hz]].
      + right; left. eexists. eexists. split; [eapply sv_compute; eauto|reflexivity].
      + right; right. exists (LWant i). eexists.
        destruct (isNewNode n) eqn:En.
        * destruct (hsInsert_ok N (sHs s) n (i_max _ _ s I)) as (h' & Eh & _).
          exists (LScore j). eexists. split; [eapply sv_want; eauto|].
          split; [eapply sv_score_new; eauto; reflexivity|]. split; [cbn [spin]; rewrite M; reflexivity|reflexivity].
        * exists (LScore j). eexists. split; [eapply sv_want; eauto|].
          split; [eapply sv_score_old; eauto; reflexivity|]. split; [cbn [spin]; rewrite M; reflexivity|reflexivity].
      + exfalso. assert (Hr : sumn (cw_rem N) (sCW s) = 0%nat).
        { apply sumn_zero. intros x Hx. apply In_nth_error in Hx. destruct Hx as (i' & Hx).
          pose proof (sumn_ge _ (cw_busy N) _ _ _ Hx) as Hg. simpl in Ht.
          destruct x; simpl in *; auto; lia. }
        rewrite Hr, Hz in Hp. simpl in Hp. lia.
    - destruct Hm as (Hk & Hp0 & Hq).
      destruct (Nat.eq_dec k 4) as [->|Hk4].
      2:{ right; left. eexists. eexists. split; [eapply sv_close; eauto; lia|reflexivity]. }
      assert (Hc0 : closed s 0 = true) by (unfold closed; rewrite M; auto).
      assert (Hc1 : closed s 1 = true) by (unfold closed; rewrite M; auto).
      assert (Hz : sumn (sw_busy N) (sSW s) = 0%nat) by lia.
      assert (Hr : sumn (cw_rem N) (sCW s) = 0%nat) by lia.
      assert (Hsw : (exists j, nth_error (sSW s) j = Some SWIdle) \/ forall w, In w (sSW s) -> w = SWDone).
      { clear - Hz. induction (sSW s) as [|w l IH]; [right; intros ? []|]. simpl in Hz.
        destruct w; simpl in Hz; try lia.
        - left; exists 0%nat; auto.
        - destruct IH as [(j & Hj)|IH]; [lia|left; exists (S j); auto|].
          right. intros w [<-|Hw]; auto. }
      destruct Hsw as [(j & Ej)|Hsw].
      { right; left. eexists. eexists. split; [eapply sv_exit_sw; eauto|reflexivity]. }
      destruct (unique_busy (sCW s) Ht) as (i & c & E & Eb & Hothers).
      assert (Hcw : (exists j, nth_error (sCW s) j = Some CWIdle) \/ forall i' x, nth_error (sCW s) i' = Some x -> x <> CWIdle).
      { clear. induction (sCW s) as [|w l IH]; [right; intros [|?]; discriminate|].
        destruct IH as [(j & Hj)|IH]; [left; exists (S j); auto|].
        destruct w; try (right; intros [|i'] x Hx; [injection Hx as <-; discriminate|simpl in Hx; eauto]).
        left; exists 0%nat; auto. }
      destruct Hcw as [(j & Ej)|Hcw].
      { right; left. eexists. eexists. split; [eapply sv_exit_cw; eauto|reflexivity]. }
      left. split; auto. split; auto. exists i. split.
      + rewrite E. pose proof (sumn_ge _ (cw_rem N) _ _ _ E) as Hg.
        destruct c; simpl in *; try lia; auto; destruct flip; simpl in *; lia.
      + intros i' x Hx Hne. specialize (Hothers i' x Hx Hne). specialize (Hcw i' x Hx).
        destruct x; simpl in *; auto; try discriminate. congruence.
  Qed.

  Lemma reach_step : forall s l s', stp s l s' -> reach s s'.
  Proof. intros s l s' H. econstructor; [constructor|exact H]. Qed.

  Lemma can_finish : forall v s, (psi s <= v)%nat -> PInv s -> exists s', reach s s' /\ final s'.
  Proof.
    induction v as [v IH] using lt_wf_ind. intros s Hv I.
    destruct (progress s I) as [F|[(l & s' & H & Hs)|(l & s1 & l' & s2 & H1 & H2 & Hs1 & Hs2)]].
    - exists s; split; auto. constructor.
    - pose proof (psi_step s l s' I H) as Hps. rewrite Hs in Hps.
      pose proof (stp_inv N P Hcols Hroot s l s' I H) as I'.
      destruct (IH (psi s') ltac:(lia) s' (le_n _) I') as (s'' & R & F). exists s''. split; auto.
      eapply reach_trans; [eapply reach_step; eauto|]; auto.
    - pose proof (psi_step s l s1 I H1) as Hps. rewrite Hs1 in Hps.
      pose proof (stp_inv N P Hcols Hroot s l s1 I H1) as I1.
      pose proof (psi_step s1 l' s2 I1 H2) as Hps2. rewrite Hs2 in Hps2.
      pose proof (stp_inv N P Hcols Hroot s1 l' s2 I1 H2) as I2.
      destruct (IH (psi s2) ltac:(lia) s2 (le_n _) I2) as (s'' & R & F). exists s''. split; auto.
      eapply reach_trans; [eapply reach_step; eauto|].
      eapply reach_trans; [eapply reach_step; eauto|]; auto.
  Qed.

  Lemma final_stuck : forall s, final s -> forall l s', ~ stp s l s'.
  Proof.
    intros s (M & Hsw & i & Ei & Hothers) l s' H.
    assert (Hcw : forall i' c, nth_error (sCW s) i' = Some c -> c = CWReady \/ c = CWDone).
    { intros i' c Hc. destruct (Nat.eq_dec i' i) as [->|Hn]; [left; congruence|right; eauto]. }
    destruct H as
      [i' M' E|j n h M' E En Eh|j n M' E En|i' p flip M' E|i' M' E|i' n M' E|i' j c p flip Ec E Ew|j n E
      |i' p flip c E Em|i' p flip E Em|i' c p flip E El|i' c p flip E El|i' c p flip e E El|i' c p flip e E El
      |k M' Hk|j E Ec|i' E Ec]; try congruence;
      try (destruct (Hcw _ _ E); discriminate);
      try (specialize (Hsw _ (nth_error_In _ _ E)); discriminate).
    rewrite M in M'. injection M' as <-. lia.
  Qed.

  (** ** No infinite fair run *)
  (** every computation of a score worker ends, every worker waiting to send a
      score is eventually received *)
  Definition fair (rho : nat -> st N) (lam : nat -> label) : Prop :=
    (forall i j n, nth_error (sSW (rho i)) j = Some (SWBusy n) -> exists k, (i <= k)%nat /\ lam k = LCompute j) /\
    (forall i j n, nth_error (sSW (rho i)) j = Some (SWSend n) -> exists k, (i <= k)%nat /\ lam k = LScore j).

  Lemma no_infinite : forall rho lam, PInv (rho 0%nat) -> (forall i, stp (rho i) (lam i) (rho (S i))) ->
    fair rho lam -> False.
  Proof.
    intros rho lam I0 Hst (F1 & F2).
    assert (I : forall i, PInv (rho i)).
    { induction i; auto. eapply stp_inv; eauto. }
    assert (Hmono : forall i k, (i <= k)%nat -> (psi (rho k) <= psi (rho i))%nat).
    { intros i k Hk. induction Hk as [|k Hk IH]; auto.
      pose proof (psi_step _ _ _ (I k) (Hst k)) as Hp. destruct (spin (rho k) (lam k)); lia. }
    assert (Hprod : forall i, exists k, (i <= k)%nat /\ spin (rho k) (lam k) = false).
    { intro i. destruct (spin (rho i) (lam i)) eqn:Es; [|exists i; auto].
      (* some score worker is busy *)
      assert (Hb : (exists j n, nth_error (sSW (rho i)) j = Some (SWBusy n)) \/
                   (exists j n, nth_error (sSW (rho i)) j = Some (SWSend n))).
      { destruct (sw_cases _ (I i)) as [H|[H|Hz]]; auto. exfalso.
        pose proof (i_prog _ _ _ (I i)) as Hp. pose proof (i_main _ _ _ (I i)) as Hm.
        pose proof (i_tok _ _ _ (I i)) as Ht. unfold main_ok in Hm.
        pose proof (Hst i) as H. destruct (lam i) eqn:El; cbn [spin] in Es; try discriminate.
        - destruct (sQueue (rho i)) eqn:Q; [|discriminate].
          inversion H as [| | | |i' M E| | | | | | | | | | | |]; subst.
          rewrite M in *. destruct Hm as [Hm|Hm]; [|congruence].
          assert (Hr : sumn (cw_rem N) (sCW (rho i)) = 0%nat).
          { apply sumn_zero. intros x Hx. apply In_nth_error in Hx. destruct Hx as (i' & Hx).
            destruct (Nat.eq_dec i' i0) as [->|Hne]; [rewrite E in Hx; injection Hx as <-; reflexivity|].
            destruct (unique_busy _ Ht) as (i1 & c & E1 & Eb & Hothers).
            assert (i1 = i0).
            { destruct (Nat.eq_dec i1 i0); auto. specialize (Hothers i0 _ E ltac:(auto)). discriminate. }
            subst. specialize (Hothers i' x Hx Hne). destruct x; simpl in *; auto; discriminate. }
          rewrite Hr, Hz in Hp. simpl in Hp. lia.
        - destruct (sMain (rho i)) as [| |[n|]|] eqn:M; try discriminate.
          destruct Hm as (Hp0 & Hq).
          assert (Hr : sumn (cw_rem N) (sCW (rho i)) = 0%nat).
          { apply sumn_zero. intros x Hx. apply In_nth_error in Hx. destruct Hx as (i' & Hx).
            pose proof (sumn_ge _ (cw_busy N) _ _ _ Hx) as Hg. simpl in Ht.
            destruct x; simpl in *; auto; lia. }
          rewrite Hr, Hz in Hp. simpl in Hp. lia. }
      destruct Hb as [(j & n & Hb)|(j & n & Hb)].
      - destruct (F1 i j n Hb) as (k & Hk & El). exists k. split; auto. rewrite El; reflexivity.
      - destruct (F2 i j n Hb) as (k & Hk & El). exists k. split; auto. rewrite El; reflexivity. }
    assert (Hd : forall v i, (psi (rho i) <= v)%nat -> False).
    { induction v as [v IH] using lt_wf_ind. intros i Hv.
      destruct (Hprod i) as (k & Hk & Hs). pose proof (psi_step _ _ _ (I k) (Hst k)) as Hp. rewrite Hs in Hp.
      specialize (Hmono i k Hk). apply (IH (psi (rho (S k))) ltac:(lia) (S k)). lia. }
    exact (Hd _ 0%nat (le_n _)).
  Qed.

  (** ** The number of productive steps of a schedule *)
  Fixpoint productive (s : st N) (ls : list label) : nat :=
    match ls with
    | [] => 0
    | l :: t =>
        (if spin s l then 0 else 1) +
        match exec P s l with Some (Ok s') => productive s' t | _ => 0 end
    end.

  Lemma productive_bound : forall ls s s', PInv s -> run P s ls = Some (Ok s') ->
    (productive s ls + psi s' <= psi s)%nat.
  Proof.
    induction ls as [|l ls IH]; intros s s' I H; simpl in *.
    - injection H as <-. lia.
    - destruct (exec P s l) as [[s1| |]|] eqn:E; try discriminate.
      destruct (exec_view N P s l (Ok s1) E) as [(s1' & Eq & Hs)|Hb].
      + injection Eq as <-. pose proof (psi_step s l s1 I Hs) as Hp.
        pose proof (stp_inv N P Hcols Hroot s l s1 I Hs) as I1.
        specialize (IH s1 s' I1 H). destruct (spin s l); lia.
      + exfalso. eapply not_bad; eauto.
  Qed.
End S.

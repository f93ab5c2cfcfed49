(** Optimality, queue bound, termination and progress of the search. *)
From Coq Require Import Sorting.Permutation.
From Verif Require Import Base Num Mat Model_Node Model_Search Proof_Node Proof_Node2 Proof_Models Proof_Search Proof_Search2.

Section S.
  Variable N : Num.
  Variable P : problem N.
  Notation node := (Node N).
  Notation cols := (pCols P).
  Notation wf0 := (wf0 N P). Notation wf := (wf N P). Notation inner := (inner N P).
  Notation stp := (stp N P). Notation PInv := (PInv N P). Notation reach := (reach N P).
  Notation child_model := (child_model N).
  Notation scoreOf := (scoreOf N P). Notation lowerOf := (lowerOf N P).
  Hypothesis Hcols : (1 <= cols)%nat.
  Hypothesis Hroot : length (pRoot P) = cols.

  (** ** The highscore list holds what was inserted *)
  Section Opt.
  Variable L : OrdLaws N.
  Variable M : Z.
  Variable pre : list node.
  Variable h0 : Highscore N.
  Hypothesis HM : (2 <= M)%Z.
  Hypothesis H0 : HInv N M h0 pre.
  Hypothesis Hpre : Forall nonan pre.
  Hypothesis Hnan : forall x, length x = cols -> nisnan (scoreOf x) = false.

  Definition all_ins (s : st N) : list node := pre ++ gInserted s.

  Lemma max_h0 : hsMaxItems h0 <> 1%Z.
  Proof. rewrite (hi_max _ _ _ _ H0). lia. Qed.

  Lemma reach_pinv : forall s, reach (init_st h0) s -> PInv s.
  Proof. intros s R. eapply reach_inv; eauto. apply pinv_init. apply max_h0. Qed.

  Lemma stp_hs : forall s l s', PInv s -> stp s l s' ->
    HInv N M (sHs s) (all_ins s) -> HInv N M (sHs s') (all_ins s').
  Proof.
    intros s l s' I H HI. destruct H as
      [i Mm E|j n h Mm E En Eh|j n Mm E En|i p flip Mm E|i Mm E|i n Mm E|i j c p flip Ec E Ew|j n E
      |i p flip c E Em|i p flip E Em|i c p flip E El|i c p flip E El|i c p flip e E El|i c p flip e E El
      |k Mm Hk|j E Ec|i E Ec]; try exact HI.
    - pose proof (Forall_nth _ _ _ _ _ (i_sws _ _ s I) E) as (Wn & Wsc).
      unfold all_ins; cbn. rewrite app_assoc.
      destruct (hinv_step N L M (sHs s) (all_ins s) n HM HI) as (h' & E1 & E2).
      + unfold nonan. rewrite (proj1 (Wsc En)). apply Hnan. apply Wn.
      + rewrite Eh in E1. injection E1 as <-. exact E2.
    - unfold main_ready. destruct (sQueue (set_cw s i CWIdle)); exact HI.
  Qed.

  Lemma reach_hs : forall s, reach (init_st h0) s -> HInv N M (sHs s) (all_ins s).
  Proof.
    intros s R. induction R as [|s l s' R IH Hs].
    - unfold all_ins; cbn. rewrite app_nil_r. exact H0.
    - eapply stp_hs; eauto. apply reach_pinv; auto.
  Qed.

  Lemma hinv_empty : forall h ins, HInv N M h ins -> (hsLen h = 0)%Z -> hsItems h = [] /\ ins = [].
  Proof.
    intros h ins HI Hl. assert (Hi : hsItems h = []) by (unfold hsLen in Hl; destruct (hsItems h); auto; simpl in Hl; lia).
    split; auto. destruct (hi_drop _ _ _ _ HI) as (d & Hp & _ & Hd). rewrite Hi in Hp. simpl in Hp.
    destruct d as [|x d]; [apply Permutation_nil in Hp; auto|].
    assert (x :: d <> []) by discriminate. specialize (Hd H). lia.
  Qed.

  Lemma hinv_ne : forall h ins, HInv N M h ins -> ins <> [] -> (0 < hsLen h)%Z.
  Proof.
    intros h ins HI Hne. destruct (Z.eq_dec (hsLen h) 0) as [E|E].
    - destruct (hinv_empty h ins HI E). contradiction.
    - unfold hsLen in *. lia.
  Qed.

  (** children read as prunable were so at the time of reading *)
  Definition RI (s : st N) : Prop :=
    forall i c p f e, nth_error (sCW s) i = Some (CWReadLen c p f e) ->
      if e : bool then nltb (nneg n0) (ndLower c) = true /\ pre = []
      else exists n', In n' (all_ins s) /\ nltb (nneg (ndScore n')) (ndLower c) = true.

  Lemma RI_mono : forall (s s' : st N), RI s -> (forall n, In n (all_ins s) -> In n (all_ins s')) ->
    (forall i c p f e, nth_error (sCW s') i = Some (CWReadLen c p f e) ->
       nth_error (sCW s) i = Some (CWReadLen c p f e)) -> RI s'.
  Proof.
    intros s s' R Hin Hcw i c p f e E. apply Hcw in E. specialize (R i c p f e E).
    destruct e; auto. destruct R as (n' & H1 & H2). eauto.
  Qed.

  Lemma nth_upd_other : forall (l : list (cwst N)) i x j y, nth_error (upd l i x) j = Some y ->
    y = x \/ nth_error l j = Some y.
  Proof.
    intros l i x j y H. rewrite nth_error_upd in H. destruct (Nat.eqb_spec j i); auto.
    destruct (i <? length l)%nat; [|discriminate]. injection H as <-; auto.
  Qed.

  Lemma stp_RI : forall s l s', PInv s -> HInv N M (sHs s) (all_ins s) -> stp s l s' -> RI s -> RI s'.
  Proof.
    intros s l s' I HI H R. destruct H as
      [i Mm E|j n h Mm E En Eh|j n Mm E En|i p flip Mm E|i Mm E|i n Mm E|i j c p flip Ec E Ew|j n E
      |i p flip c E Em|i p flip E Em|i c p flip E El|i c p flip E El|i c p flip e E El|i c p flip e E El
      |k Mm Hk|j E Ec|i E Ec]; try exact R;
      try (apply (RI_mono s); auto; cbn; intros i' c' p' f' e' E';
           apply nth_upd_other in E'; destruct E' as [E'|E']; auto; discriminate).
    - apply (RI_mono s); auto. cbn. unfold all_ins; cbn. intros x Hx. rewrite app_assoc. apply in_or_app; auto.
    - apply (RI_mono s); auto. cbn. intros i' c' p' f' e' E'.
      apply nth_upd_other in E'; destruct E' as [E'|E']; auto. destruct flip; discriminate.
    - unfold main_ready. cbn [set_cw sQueue]. destruct (sQueue s).
      + apply (RI_mono s); auto. cbn. intros i' c' p' f' e' E'.
        apply nth_upd_other in E'; destruct E' as [E'|E']; auto. discriminate.
      + apply (RI_mono s); auto. cbn. intros i' c' p' f' e' E'.
        apply nth_upd_other in E'; destruct E' as [E'|E']; auto. discriminate.
    - apply (RI_mono s); auto. cbn. intros i' c' p' f' e' E'.
      apply nth_upd_other in E'; destruct E' as [E'|E']; auto. destruct n; discriminate.
    - apply (RI_mono s); auto. cbn. intros i' c' p' f' e' E'.
      apply nth_upd_other in E'; destruct E' as [E'|E']; auto. destruct flip; discriminate.
    - (* reads BestScore *)
      intros i' c' p' f' e' E'. cbn in E'. apply nth_upd_other in E'. destruct E' as [E'|E'].
      + injection E' as -> -> -> ->. destruct (Z.eqb_spec (hsLen (sHs s)) 0) as [Ez|Ez].
        * destruct (hinv_empty _ _ HI Ez) as (Hi & Hi2). unfold hsBestScore in El. rewrite Hi in El.
          split; [exact El|]. apply app_eq_nil in Hi2. tauto.
        * assert (Hne : all_ins s <> []).
          { intro Hn. destruct (hi_drop _ _ _ _ HI) as (d & Hp & _). rewrite Hn in Hp.
            apply Permutation_sym, Permutation_nil, app_eq_nil in Hp. destruct Hp as (Hp & _).
            unfold hsLen in Ez. rewrite Hp in Ez. apply Ez. reflexivity. }
          destruct (hinv_best N L M _ _ HM HI Hne) as ((n' & H1 & H2) & _).
          exists n'. split; auto. rewrite <- H2. exact El.
      + specialize (R i' c' p' f' e' E'). exact R.
  Qed.

  Lemma reach_RI : forall s, reach (init_st h0) s -> RI s.
  Proof.
    intros s R. induction R as [|s l s' R IH Hs].
    - intros i c p f e E. cbn [init_st sCW] in E. apply nth_error_In, repeat_spec in E. discriminate.
    - eapply stp_RI; eauto; [apply reach_pinv|apply reach_hs]; auto.
  Qed.

  Lemma raced_false : pre <> [] -> forall s, reach (init_st h0) s -> gRaced s = false.
  Proof.
    intros Hp s R. induction R as [|s l s' R IH Hs]; auto.
    pose proof (reach_RI s R) as HR.
    destruct Hs as
      [i Mm E|j n h Mm E En Eh|j n Mm E En|i p flip Mm E|i Mm E|i n Mm E|i j c p flip Ec E Ew|j n E
      |i p flip c E Em|i p flip E Em|i c p flip E El|i c p flip E El|i c p flip e E El|i c p flip e E El
      |k Mm Hk|j E Ec|i E Ec]; auto.
    - unfold main_ready. destruct (sQueue (set_cw s i CWIdle)); auto.
    - cbn. rewrite IH. specialize (HR i c p flip e E). destruct e; auto. destruct HR; contradiction.
  Qed.

  Lemma raced_false_bounds : (forall x l, nltb (nneg n0) (lowerOf x l) = false) ->
    forall s, reach (init_st h0) s -> gRaced s = false.
  Proof.
    intros Hb s R. induction R as [|s l s' R IH Hs]; auto.
    pose proof (reach_RI s R) as HR. pose proof (reach_pinv s R) as I.
    destruct Hs as
      [i Mm E|j n h Mm E En Eh|j n Mm E En|i p flip Mm E|i Mm E|i n Mm E|i j c p flip Ec E Ew|j n E
      |i p flip c E Em|i p flip E Em|i c p flip E El|i c p flip E El|i c p flip e E El|i c p flip e E El
      |k Mm Hk|j E Ec|i E Ec]; auto.
    - unfold main_ready. destruct (sQueue (set_cw s i CWIdle)); auto.
    - cbn. rewrite IH. specialize (HR i c p flip e E). destruct e; auto. destruct HR as (HR & _).
      pose proof (Forall_nth _ _ _ _ _ (i_cws _ _ s I) E) as (_ & W & _).
      rewrite (w_low _ _ _ W), Hb in HR. discriminate.
  Qed.

  (** ** Nothing better than the best is ever dropped *)
  Variable m : list bool.
  Hypothesis Hm : length m = cols.
  Hypothesis Hmr : m <> pRoot P.
  Hypothesis Hfeas : forall l, (l <= cols)%nat ->
    (NumFeatures (firstn l m ++ skipn l (pRoot P)) < pRows P)%nat.
  (** a bound that says "worse than [n]" is right about [m] *)
  Hypothesis Hval : forall l, (1 <= l <= cols)%nat ->
    let x := firstn l m ++ skipn l (pRoot P) in
    (forall s, (In s (map ndScore pre) \/ (exists a, length a = cols /\ s = scoreOf a)) ->
       nltb (nneg s) (lowerOf x (Z.of_nat l)) = true -> nltb s (scoreOf m) = false) /\
    (nltb (nneg n0) (lowerOf x (Z.of_nat l)) = true -> nltb n0 (scoreOf m) = false).

  Definition Dom (s : st N) : Prop :=
    (exists n', In n' (all_ins s) /\ nltb (ndScore n') (scoreOf m) = false) \/
    (gRaced s = true /\ pre = [] /\ nltb n0 (scoreOf m) = false) \/
    gTrimmed s = true.

  Lemma stp_mono : forall s l s', stp s l s' ->
    (forall n, In n (all_ins s) -> In n (all_ins s')) /\
    (gRaced s = true -> gRaced s' = true) /\ (gTrimmed s = true -> gTrimmed s' = true).
  Proof.
    intros s l s' H. destruct H as
      [i Mm E|j n h Mm E En Eh|j n Mm E En|i p flip Mm E|i Mm E|i n Mm E|i j c p flip Ec E Ew|j n E
      |i p flip c E Em|i p flip E Em|i c p flip E El|i c p flip E El|i c p flip e E El|i c p flip e E El
      |k Mm Hk|j E Ec|i E Ec]; try (repeat split; auto; fail).
    - split; [|split].
      + unfold all_ins; cbn. intros x Hx. rewrite app_assoc. apply in_or_app; auto.
      + auto.
      + intro Ht. unfold finish. cbn [gTrimmed set_sw]. rewrite Ht. reflexivity.
    - split; [|split]; auto. intro Ht. unfold finish. cbn [gTrimmed set_sw]. rewrite Ht. reflexivity.
    - unfold main_ready. destruct (sQueue (set_cw s i CWIdle)); auto.
    - split; [|split]; auto. cbn. intros ->. reflexivity.
  Qed.

  Lemma Dom_mono : forall s l s', stp s l s' -> Dom s -> Dom s'.
  Proof.
    intros s l s' H D. destruct (stp_mono s l s' H) as (A & B & C).
    destruct D as [(n' & D1 & D2)|[(D1 & D2)|D]]; [left; eauto|right; left; auto|right; right; auto].
  Qed.

  Lemma ins_score : forall s, PInv s -> forall n, In n (all_ins s) ->
    In (ndScore n) (map ndScore pre) \/ (exists a, length a = cols /\ ndScore n = scoreOf a).
  Proof.
    intros s I n Hn. apply in_app_or in Hn. destruct Hn as [Hn|Hn].
    - left. apply in_map; auto.
    - right. pose proof (i_ins _ _ s I) as Hi. rewrite Forall_forall in Hi.
      destruct (Hi n Hn) as (W & _ & Hs & _). exists (ndModel n). split; auto. apply W.
  Qed.

  Lemma wf_agr : forall n, wf n -> agr m (ndModel n) (lv N n) = true ->
    (1 <= lv N n <= cols)%nat /\
    ndLower n = lowerOf (firstn (lv N n) m ++ skipn (lv N n) (pRoot P)) (Z.of_nat (lv N n)).
  Proof.
    intros n W Ha. pose proof (w_lev _ _ _ (w_0 _ _ _ W)). pose proof (w_pos _ _ _ W).
    assert (Hl : (1 <= lv N n <= cols)%nat) by (unfold lv; lia). split; auto.
    rewrite <- (agr_model N P Hcols Hroot m Hm (ndModel n) (lv N n)); auto.
    - rewrite (w_low _ _ _ W). f_equal. unfold lv; lia.
    - apply W.
    - lia.
    - apply W.
  Qed.

  Lemma b2n_1 : forall a b, b2n (a && b) = 1%nat -> a = true /\ b = true.
  Proof. intros [] []; simpl; intros; auto; discriminate. Qed.

  Lemma lost_dom : forall s l s', reach (init_st h0) s -> stp s l s' -> lost N P m s s' -> Dom s'.
  Proof.
    intros s l s' R Hs Hl. pose proof (reach_pinv s R) as I. pose proof (reach_RI s R) as HR.
    assert (R' : reach (init_st h0) s') by (eapply reach_trans; [exact R|]; econstructor; [constructor|exact Hs]).
    pose proof (reach_pinv s' R') as I'. pose proof (reach_hs s' R') as HI'.
    destruct Hl as [Ht|p f W0 Wi Hc Hr|i c p f e E Hc Hg|n h j x Hin Hc E En Eh Eh' Ei Hlt].
    - right; right; auto.
    - exfalso. apply b2n_1 in Hc. destruct Hc as (Ha & _).
      pose proof (w_lev _ _ _ W0). unfold Proof_Search.inner in Wi.
      assert (Hk : (S (lv N p) <= cols)%nat) by (unfold lv; lia).
      assert (Ec : child_model p f = firstn (S (lv N p)) m ++ skipn (S (lv N p)) (pRoot P)).
      { apply (agr_model N P Hcols Hroot m Hm); auto.
        - apply cm_len with (P := P); auto.
        - intros k Hk'. unfold Proof_Search.child_model. destruct f.
          + rewrite nth_upd. fold (lv N p). destruct (Nat.eqb_spec k (lv N p)); [lia|].
            apply (w_tail _ _ _ W0). unfold lv in *; lia.
          + apply (w_tail _ _ _ W0). unfold lv in *; lia. }
      rewrite Ec in Hr. specialize (Hfeas _ Hk). lia.
    - apply b2n_1 in Hc. destruct Hc as (Ha & _).
      pose proof (Forall_nth _ _ _ _ _ (i_cws _ _ s I) E) as (_ & W & _).
      destruct (wf_agr c W Ha) as (Hl & Elow).
      destruct (Hval _ Hl) as (V1 & V2). specialize (HR i c p f e E).
      rewrite Elow in HR. destruct e.
      + right; left. destruct HR as (HR1 & HR2). split; [rewrite Hg; apply orb_true_r|]. split; auto.
      + left. destruct HR as (n' & Hn1 & Hn2). exists n'.
        split; [apply (stp_mono s l s' Hs); auto|]. apply V1; auto. apply (ins_score s I n' Hn1).
    - apply b2n_1 in Hc. destruct Hc as (Ha & _).
      pose proof (i_q _ _ s I) as Hq. rewrite Forall_forall in Hq. destruct (Hq n Hin) as (W & _).
      destruct (wf_agr n W Ha) as (Hl & Elow).
      destruct (Hval _ Hl) as (V1 & V2). rewrite Elow in Hlt.
      assert (Hne : all_ins s' <> []).
      { unfold all_ins. rewrite Ei. intro Hn. apply app_eq_nil in Hn. destruct Hn as (_ & Hn).
        apply app_eq_nil in Hn. destruct Hn; discriminate. }
      destruct (hinv_best N L M _ _ HM HI' Hne) as ((n' & H1 & H2) & _).
      left. exists n'. split; auto. apply V1; [apply (ins_score s' I' n' H1)|].
      rewrite <- H2, Eh'. exact Hlt.
  Qed.

  Lemma reach_cov : forall s, reach (init_st h0) s -> tot N P m s = 1%nat \/ Dom s.
  Proof.
    intros s R. induction R as [|s l s' R IH Hs].
    - left. apply (tot_init N P Hcols Hroot m Hm h0 Hmr).
    - destruct IH as [IH|IH]; [|right; eapply Dom_mono; eauto].
      destruct (tot_step N P Hcols Hroot m Hm s l s' (reach_pinv s R) Hs) as [E|(E & Hl)]; [left; lia|].
      right. eapply lost_dom; eauto.
  Qed.

  Lemma optimal : forall s k, reach (init_st h0) s -> sMain s = MClose k ->
    nltb (hsBestScore (sHs s)) (scoreOf m) = false \/
    (gRaced s = true /\ pre = [] /\ nltb n0 (scoreOf m) = false) \/
    gTrimmed s = true.
  Proof.
    intros s k R Mm. pose proof (reach_pinv s R) as I. pose proof (reach_hs s R) as HI.
    assert (Hb : forall n', In n' (all_ins s) -> nltb (ndScore n') (scoreOf m) = false ->
                 nltb (hsBestScore (sHs s)) (scoreOf m) = false).
    { intros n' Hn Hlt.
      assert (Hne : all_ins s <> []) by (intro E; rewrite E in Hn; destruct Hn).
      destruct (hinv_best N L M _ _ HM HI Hne) as (_ & Hbest). specialize (Hbest n' Hn).
      eapply (ol_negtrans L); [|exact Hbest|exact Hlt].
      destruct (ins_score s I n' Hn) as [Hs|(a & Ha & Es)].
      - apply in_map_iff in Hs. destruct Hs as (n1 & Es & Hn1). rewrite <- Es.
        rewrite Forall_forall in Hpre. apply Hpre; auto.
      - rewrite Es. apply Hnan; auto. }
    destruct (reach_cov s R) as [Ht|D].
    - rewrite (tot_closed N P Hcols Hroot m Hm s k I Mm) in Ht.
      destruct (sumn_pos _ (is_m N m) (gInserted s)) as (i & n & Hn & Hp); [lia|].
      left. apply (Hb n); [apply in_or_app; right; eapply nth_error_In; eauto|].
      unfold is_m in Hp. destruct (eqm m (ndModel n)) eqn:E; [|simpl in Hp; lia].
      apply eqm_true in E. pose proof (Forall_nth _ _ _ _ _ (i_ins _ _ s I) Hn) as (_ & _ & Hs & _).
      rewrite Hs, <- E. apply (ol_irrefl L).
    - destruct D as [(n' & D1 & D2)|[D|D]]; [left; eapply Hb; eauto|auto|auto].
  Qed.
  End Opt.
End S.

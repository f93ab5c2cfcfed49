(** The worker protocol of L2ConsistentCovTO: invariant, progress, termination. *)
From Coq Require Import Permutation.
From Verif Require Import Base Num Mat Model_Node Model_Util Model_Fit Model_Cov Model_Nested Model_Threshold
  Proof_Node Proof_Util Proof_Cov Proof_CrdPath Proof_Lazy.

Section ThresholdProof.
  Variable N : Num.
  Variable rnd : nat -> nat -> nat.
  Variable X : Mat N.
  Variable numSamples : Z.
  Variable step : N.
  Variable G : nat.
  Hypothesis HG : (0 < G)%nat.
  Hypothesis EG : tNumGrid step = Z.of_nat G.
  Variables A B : nat -> Mat N.
  Variable v : nat -> nat -> N.
  Hypothesis Hsplit : forall r, t_split rnd X r = Ok (A r, B r).
  Hypothesis Hcalc : forall r g, CalculateFNormDiff (A r) (B r) (Z.of_nat g) step = Ok (v r g).

  Definition K := Z.to_nat numSamples.
  Definition Sn := Nat.min G 10.
  Definition wn (r : nat) : nat := match r with O => Sn | _ => 1%nat end.

  Fixpoint acc (r g : nat) : N :=
    match r with O => n0 | S r => (acc r g + v r g / nofZ numSamples)%num end.
  Definition dmap (r : nat) (rc : list nat) : list N :=
    map (fun g => if in_dec Nat.eq_dec g rc then acc (S r) g else acc r g) (seq 0 G).

  Definition thld (w : TWorker N) : list nat :=
    match w with TIdle => [] | TBusy w => [twGr w] | TBlocked _ g => [g] end.
  Definition thlds (ws : list (TWorker N)) := flat_map thld ws.
  Definition okw (r : nat) (w : TWorker N) : Prop :=
    match w with
    | TIdle => True
    | TBusy w => twMat1 w = A r /\ twMat2 w = B r
    | TBlocked x g => x = v r g
    end.

  Record st_ok (r : nat) (rc : list nat) (st : TState N) : Prop := {
    so_grid : tsGridPt st = (wn r + length rc)%nat;
    so_num : tsNum st = (r * G + length rc)%nat;
    so_diff : tsDiff st = dmap r rc;
    so_a : tsMat1 st = A r; so_b : tsMat2 st = B r;
    so_s : tsSplits st = (1 + r)%nat;
    so_rc : (length rc < G)%nat }.

  Definition inv_main (r : nat) (rc : list nat) (m : TMain N) (ws : list (TWorker N)) : Prop :=
    match m with
    | TSpawn i gp a b => r = 0%nat /\ rc = [] /\ a = A 0 /\ b = B 0 /\ (i < Sn)%nat /\ gp = i /\ length ws = i /\
        Permutation (thlds ws) (seq 0 i)
    | TSend0 i w gp a b => r = 0%nat /\ rc = [] /\ a = A 0 /\ b = B 0 /\ w = mkTWork (A 0) (B 0) i /\ (i < Sn)%nat /\
        gp = (1 + i)%nat /\ length ws = (1 + i)%nat /\ Permutation (thlds ws) (seq 0 i)
    | TRecv st => st_ok r rc st /\ (r < K)%nat /\ length ws = Sn /\
        Permutation (thlds ws ++ rc) (seq 0 (Nat.min G (wn r + length rc)))
    | TSend w st => st_ok r rc st /\ (r <= K)%nat /\ length ws = Sn /\ (r = K -> rc = []) /\ (0 < K)%nat /\
        exists g, w = mkTWork (A r) (B r) g /\ (1 + g = wn r + length rc)%nat /\ (g < G)%nat /\
          Permutation (thlds ws ++ rc) (seq 0 g)
    | TDone th diff => length ws = Sn /\ diff = map (acc K) (seq 0 G) /\
        exists i, Argmin diff = Ok i /\ th = getThreshold (Z.of_nat i) step
    | TPanic => False
    end.

  Definition inv (c : TPool N) : Prop :=
    exists r rc, Forall (okw r) (tpWorkers c) /\ inv_main r rc (tpMain c) (tpWorkers c).

  Lemma Sn_pos : (0 < Sn)%nat. Proof. unfold Sn. lia. Qed.
  Lemma Sn_sim : tNumSim step = Z.of_nat Sn.
  Proof. unfold tNumSim, Sn. rewrite EG. destruct (Z.ltb_spec (Z.of_nat G) 10); lia. Qed.
  Lemma wn_pos : forall r, (0 < wn r <= Sn)%nat.
  Proof. intros [|r]; cbn [wn]; pose proof Sn_pos; lia. Qed.
  Lemma Sn_G : (Sn <= G)%nat. Proof. unfold Sn. lia. Qed.

  Lemma dmap_nil : forall r, dmap r [] = map (acc r) (seq 0 G).
  Proof. intro r. unfold dmap. apply map_ext. intro g. destruct (in_dec Nat.eq_dec g []) as [[]|]; reflexivity. Qed.
  Lemma dmap_full : forall r rc, (forall g, (g < G)%nat -> In g rc) -> dmap r rc = dmap (S r) [].
  Proof.
    intros r rc H. rewrite dmap_nil. unfold dmap. apply map_ext_in. intros g Hg. apply in_seq in Hg.
    destruct (in_dec Nat.eq_dec g rc) as [_|C]; [reflexivity|]. destruct C. apply H. lia.
  Qed.
  Lemma dmap_nth : forall r rc g, (g < G)%nat -> nth g (dmap r rc) n0 = if in_dec Nat.eq_dec g rc then acc (S r) g else acc r g.
  Proof.
    intros r rc g Hg. unfold dmap.
    set (f := fun g => if in_dec Nat.eq_dec g rc then acc (S r) g else acc r g).
    rewrite (nth_indep _ _ (f 0%nat)) by (rewrite map_length, seq_length; exact Hg).
    rewrite map_nth, seq_nth by exact Hg. reflexivity.
  Qed.
  Lemma dmap_length : forall r rc, length (dmap r rc) = G.
  Proof. intros. unfold dmap. rewrite map_length, seq_length. reflexivity. Qed.

  Lemma dmap_set : forall r rc g, (g < G)%nat -> ~ In g rc ->
    upd (dmap r rc) g (acc r g + v r g / nofZ numSamples)%num = dmap r (g :: rc).
  Proof.
    intros r rc g Hg Hn. apply nth_ext with (d := n0) (d' := n0); [rewrite upd_length, !dmap_length; reflexivity|].
    intros k Hk. rewrite upd_length, dmap_length in Hk. rewrite nth_upd, dmap_length, !dmap_nth by exact Hk.
    destruct (Nat.eqb_spec k g) as [->|Hne].
    - cbn [andb]. destruct (Nat.ltb_spec g G); [|lia]. cbn [andb].
      destruct (in_dec Nat.eq_dec g (g :: rc)) as [_|C]; [reflexivity|]. destruct C. left. reflexivity.
    - cbn [andb]. destruct (in_dec Nat.eq_dec k rc) as [H1|H1]; destruct (in_dec Nat.eq_dec k (g :: rc)) as [H2|H2]; try reflexivity.
      + destruct H2. right. exact H1.
      + destruct H2 as [->|H2]; contradiction.
  Qed.

  Lemma argmin_some : forall l : list N, l <> [] -> exists i, Argmin l = Ok i.
  Proof.
    intros [|x l] H; [contradiction|]. unfold Argmin. cbn [getn nth_error bind].
    enough (E : forall l k st, exists st', for_eachi k l (fun i v (st : nat * N) => Ok (if (v <? snd st)%num then (i, v) else st)) st = Ok st').
    { destruct (E (x :: l) 0%nat (0%nat, x)) as (st' & ->). cbn [bind]. eauto. }
    clear. induction l as [|y l IH]; intros k st; cbn [for_eachi bind]; [eauto|]. apply IH.
  Qed.

  Lemma lt_total : forall n, (Z.of_nat n <? numSamples * tNumGrid step)%Z = (n <? K * G)%nat.
  Proof.
    intro n. rewrite EG. destruct (Z.ltb_spec (Z.of_nat n) (numSamples * Z.of_nat G)); destruct (Nat.ltb_spec n (K * G)); try reflexivity; exfalso; unfold K in *.
    - assert (H1 : (0 <= numSamples)%Z).
      { destruct (Z.le_gt_cases 0 numSamples) as [|C]; [assumption|]. nia. }
      apply Nat2Z.inj_le in H0. rewrite Nat2Z.inj_mul, Z2Nat.id in H0 by exact H1. lia.
    - destruct (Z.le_gt_cases 0 numSamples) as [C|C].
      + apply Nat2Z.inj_lt in H0. rewrite Nat2Z.inj_mul, Z2Nat.id in H0 by exact C. lia.
      + replace (Z.to_nat numSamples) with 0%nat in H0 by lia. lia.
  Qed.

  Lemma loop_inv : forall r rc st ws, st_ok r rc st -> (r <= K)%nat -> (r = K -> rc = []) -> length ws = Sn ->
    Permutation (thlds ws ++ rc) (seq 0 (Nat.min G (wn r + length rc))) ->
    inv_main r rc (t_loop numSamples step st) ws.
  Proof.
    intros r rc st ws Hst Hr Hk Hw Hp. unfold t_loop. rewrite lt_total. pose proof Hst as [S1 S2 S3 S4 S5 S6 S7]. rewrite S2.
    destruct (Nat.ltb_spec (r * G + length rc) (K * G)) as [Hl|Hl].
    - cbn [inv_main]. split; [exact Hst|]. split; [|auto]. nia.
    - assert (Er : r = K) by nia. specialize (Hk Er). subst r rc. rewrite S3, dmap_nil.
      destruct (argmin_some (map (acc K) (seq 0 G))) as (i & Ei).
      { destruct G; [lia|discriminate]. }
      rewrite Ei. cbn [inv_main]. eauto 6.
  Qed.

  Lemma spawn_inv : forall i ws, (i <= Sn)%nat -> length ws = i -> Permutation (thlds ws) (seq 0 i) ->
    inv_main 0 [] (t_spawn numSamples step i i (A 0) (B 0)) ws.
  Proof.
    intros i ws Hi Hw Hp. unfold t_spawn. rewrite Sn_sim, EG. destruct (Z.ltb_spec (Z.of_nat i) (Z.of_nat Sn)) as [Hl|Hl].
    - cbn [inv_main]. repeat split; auto. lia.
    - destruct (Z.ltb_spec (Z.of_nat G) 0); [lia|]. rewrite Nat2Z.id.
      assert (Ei : i = Sn) by lia. apply loop_inv; [|lia|auto|lia|].
      + constructor; cbn [tsGridPt tsNum tsDiff tsMat1 tsMat2 tsSplits length wn]; auto; try lia.
        rewrite dmap_nil. cbn [acc]. rewrite <- (seq_length G 0) at 1. generalize (seq 0 G). clear.
        induction l as [|x l IH]; [reflexivity|]. cbn [length repeat map]. f_equal. exact IH.
      + cbn [length wn]. rewrite app_nil_r, Hp. replace (Nat.min G (Sn + 0)) with i; [reflexivity|]. pose proof Sn_G. lia.
  Qed.

  Lemma held_give : forall ws k w, nth_error ws k = Some TIdle -> Permutation (thlds (upd ws k (TBusy w))) (twGr w :: thlds ws).
  Proof. intros ws k w E. symmetry. exact (flat_map_upd _ _ thld ws k TIdle (TBusy w) E). Qed.
  Lemma held_compute : forall ws k w x, nth_error ws k = Some (TBusy w) -> Permutation (thlds (upd ws k (TBlocked x (twGr w)))) (thlds ws).
  Proof.
    intros ws k w x E. pose proof (flat_map_upd _ _ thld ws k (TBusy w) (TBlocked x (twGr w)) E) as P. cbn [thld app] in P.
    apply Permutation_cons_inv in P. symmetry. exact P.
  Qed.
  Lemma held_take : forall ws k x g, nth_error ws k = Some (TBlocked x g) -> Permutation (g :: thlds (upd ws k TIdle)) (thlds ws).
  Proof. intros ws k x g E. symmetry. exact (flat_map_upd _ _ thld ws k (TBlocked x g) TIdle E). Qed.

  Lemma no_held : forall r ws, thlds ws = [] -> Forall (okw r) ws.
  Proof.
    intros r. induction ws as [|w ws IH]; intro E; constructor.
    - destruct w; [exact I|discriminate E|discriminate E].
    - apply IH. destruct w; [exact E|discriminate E|discriminate E].
  Qed.

  Lemma mod_round : forall r k, (k < G)%nat -> ((Z.of_nat (1 + (r * G + k)) mod tNumGrid step =? 0)%Z = (S k =? G)%nat).
  Proof.
    intros r k Hk. rewrite EG. replace (Z.of_nat (1 + (r * G + k))) with (Z.of_nat (S k) + Z.of_nat r * Z.of_nat G)%Z by lia.
    rewrite Z.mod_add by lia. destruct (Nat.eqb_spec (S k) G) as [E|E].
    - rewrite E, Z.mod_same by lia. reflexivity.
    - rewrite Z.mod_small by lia. apply Z.eqb_neq. lia.
  Qed.

  Lemma take_inv : forall r rc st ws k x g, Forall (okw r) ws -> inv_main r rc (TRecv st) ws -> nth_error ws k = Some (TBlocked x g) ->
    exists r' rc', Forall (okw r') (upd ws k TIdle) /\ inv_main r' rc' (t_recv rnd X numSamples step x g st) (upd ws k TIdle).
  Proof.
    intros r rc st ws k x g Hok (Hst & HrK & Hw & Hp) Ek. pose proof Hst as [S1 S2 S3 S4 S5 S6 S7].
    pose proof (Forall_nth_error _ _ _ _ _ Hok Ek) as Hx. cbn [okw] in Hx. subst x.
    pose proof (held_take ws k _ g Ek) as Ht. pose proof (wn_pos r) as Hwn.
    assert (Hok' : Forall (okw r) (upd ws k TIdle)) by (apply Forall_upd; [exact Hok|exact I]).
    assert (Hin : In g (thlds ws)) by (apply (Permutation_in _ Ht); left; reflexivity).
    assert (Hg : (g < G)%nat).
    { assert (Hs : In g (seq 0 (Nat.min G (wn r + length rc)))) by (apply (Permutation_in _ Hp), in_or_app; left; exact Hin).
      apply in_seq in Hs. lia. }
    assert (HP' : Permutation (thlds (upd ws k TIdle) ++ g :: rc) (seq 0 (Nat.min G (wn r + length rc)))).
    { rewrite <- Hp, <- Ht. cbn [app]. rewrite <- Permutation_middle. reflexivity. }
    assert (Hng : ~ In g rc).
    { pose proof (seq_NoDup (Nat.min G (wn r + length rc)) 0) as ND. apply (Permutation_NoDup (Permutation_sym HP')) in ND.
      apply NoDup_remove_2 in ND. intro C. apply ND, in_or_app. right. exact C. }
    unfold t_recv. rewrite S3. rewrite (getn_lt _ (dmap r rc) g n0) by (rewrite dmap_length; exact Hg). cbn [bind].
    rewrite dmap_nth by exact Hg. destruct (in_dec Nat.eq_dec g rc) as [C|_]; [contradiction|].
    rewrite setn_lt by (rewrite dmap_length; exact Hg). cbn [bind]. rewrite dmap_set by assumption.
    rewrite S2, mod_round by exact S7.
    destruct (Nat.eqb_spec (S (length rc)) G) as [HE|HE].
    - rewrite S6, Hsplit. cbn [bind]. cbn [tsGridPt]. rewrite EG. destruct (Z.leb_spec (Z.of_nat 1) (Z.of_nat G)); [|lia].
      assert (Hnil : thlds (upd ws k TIdle) = []).
      { pose proof (Permutation_length HP') as PL. rewrite app_length, seq_length in PL. cbn [length] in PL.
        destruct (thlds (upd ws k TIdle)); [reflexivity|]. cbn [length] in PL. lia. }
      assert (Hfull : forall h, (h < G)%nat -> In h (g :: rc)).
      { intros h Hh. rewrite Hnil in HP'. cbn [app] in HP'. apply (Permutation_in _ (Permutation_sym HP')), in_seq. lia. }
      exists (S r), []. split; [apply no_held; exact Hnil|]. cbn [inv_main]. split.
      { constructor; cbn [tsGridPt tsNum tsDiff tsMat1 tsMat2 tsSplits length wn]; auto; try lia.
        apply dmap_full. exact Hfull. }
      split; [lia|]. split; [rewrite upd_length; exact Hw|]. split; [auto|]. split; [lia|].
      exists 0%nat. split; [reflexivity|]. cbn [wn length]. split; [lia|]. split; [lia|]. rewrite Hnil. constructor.
    - cbn [bind tsGridPt]. rewrite S1, EG.
      assert (Hst' : st_ok r (g :: rc) (mkTState (1 + (wn r + length rc)) (1 + (r * G + length rc)) (dmap r (g :: rc)) (tsMat1 st) (tsMat2 st) (tsSplits st))).
      { constructor; cbn [tsGridPt tsNum tsDiff tsMat1 tsMat2 tsSplits length]; auto; lia. }
      exists r, (g :: rc). split; [exact Hok'|].
      destruct (Z.leb_spec (Z.of_nat (1 + (wn r + length rc))) (Z.of_nat G)) as [Hl|Hl].
      + cbn [inv_main]. split; [exact Hst'|]. split; [lia|]. split; [rewrite upd_length; exact Hw|]. split; [lia|]. split; [lia|].
        exists (wn r + length rc)%nat. split; [rewrite S4, S5; reflexivity|]. cbn [length]. split; [lia|]. split; [lia|].
        rewrite HP'. replace (Nat.min G (wn r + length rc)) with (wn r + length rc)%nat by lia. reflexivity.
      + apply loop_inv; [exact Hst'|lia|lia|rewrite upd_length; exact Hw|]. rewrite HP'. cbn [length].
        replace (Nat.min G (wn r + S (length rc))) with (Nat.min G (wn r + length rc)) by lia. reflexivity.
  Qed.

  Notation tstep := (t_step rnd X numSamples step).

  Lemma seq_snoc : forall n, Permutation (n :: seq 0 n) (seq 0 (1 + n)).
  Proof. intros n. cbn [Nat.add]. rewrite seq_S. cbn [Nat.add]. apply Permutation_cons_append. Qed.

  Lemma step_inv : forall ch c c', inv c -> tstep ch c = Some c' -> inv c'.
  Proof.
    intros ch [m ws] c' (r & rc & Hok & Hm) E. cbn [tpMain tpWorkers] in *.
    destruct ch as [|k|k|k|]; cbn [t_step tpMain tpWorkers] in E.
    - destruct m as [i gp a b| | | | |]; try discriminate E. injection E as <-.
      destruct Hm as (-> & -> & -> & -> & Hi & -> & Hw & Hp). exists 0%nat, []. cbn [tpMain tpWorkers inv_main].
      split; [apply Forall_app; split; [exact Hok|constructor; [exact I|constructor]]|].
      split; [reflexivity|]. split; [reflexivity|]. split; [reflexivity|]. split; [reflexivity|]. split; [reflexivity|].
      split; [exact Hi|]. split; [reflexivity|]. split; [rewrite app_length; cbn [length]; lia|].
      unfold thlds. rewrite flat_map_app. cbn [flat_map thld app]. rewrite app_nil_r. exact Hp.
    - destruct (nth_error ws k) as [[|w0|x0 g0]|] eqn:Ek; try discriminate E.
      destruct m as [i gp a b|i w gp a b|st|w st|th df|]; try discriminate E; injection E as <-.
      + destruct Hm as (-> & -> & -> & -> & -> & Hi & -> & Hw & Hp). exists 0%nat, []. cbn [tpMain tpWorkers].
        split; [apply Forall_upd; [exact Hok|split; reflexivity]|].
        apply spawn_inv; [lia|rewrite upd_length; exact Hw|]. rewrite held_give by exact Ek. cbn [twGr]. rewrite Hp. apply seq_snoc.
      + destruct Hm as (Hst & Hr & Hw & Hk & HK0 & g & -> & Hg & HgG & Hp). exists r, rc. cbn [tpMain tpWorkers].
        split; [apply Forall_upd; [exact Hok|split; reflexivity]|].
        apply loop_inv; [exact Hst|exact Hr|exact Hk|rewrite upd_length; exact Hw|].
        rewrite held_give by exact Ek. cbn [twGr app]. rewrite Hp, <- Hg. replace (Nat.min G (1 + g)) with (1 + g)%nat by lia. apply seq_snoc.
    - assert (Ec : exists w, nth_error ws k = Some (TBusy w) /\
        match CalculateFNormDiff (twMat1 w) (twMat2 w) (Z.of_nat (twGr w)) step with
        | Ok value => c' = mkTPool m (upd ws k (TBlocked value (twGr w)))
        | _ => c' = mkTPool TPanic ws
        end).
      { destruct m as [i gp a b|i w gp a b|st|w st|th df|]; try discriminate E; destruct (nth_error ws k) as [[|w0|x0 g0]|]; try discriminate E; exists w0; (split; [reflexivity|]);
          destruct (CalculateFNormDiff _ _ _ step) as [x| |]; injection E as <-; reflexivity. }
      destruct Ec as (w & Ek & Ec). pose proof (Forall_nth_error _ _ _ _ _ Hok Ek) as (H1 & H2).
      rewrite H1, H2, Hcalc in Ec. subst c'. exists r, rc. cbn [tpMain tpWorkers].
      split; [apply Forall_upd; [exact Hok|reflexivity]|].
      pose proof (held_compute ws k w (v r (twGr w)) Ek) as P.
      destruct m as [i gp a b|i w1 gp a b|st|w1 st|th df|]; cbn [inv_main] in *; rewrite ?upd_length, ?P; auto.
      destruct Hm as (T1 & T2 & T3 & T4 & T5 & g & T6 & T7 & T8 & T9). repeat (split; [assumption|]). exists g.
      repeat (split; [assumption|]). rewrite P. exact T9.
    - destruct m as [i gp a b|i w gp a b|st|w st|th df|]; try discriminate E.
      destruct (nth_error ws k) as [[|w0|x g]|] eqn:Ek; try discriminate E. injection E as <-.
      exact (take_inv r rc st ws k x g Hok Hm Ek).
    - destruct m as [i gp a b|i w gp a b|st|w st|th df|]; try discriminate E. injection E as <-. exists r, rc. auto.
  Qed.

  Lemma init_inv : inv (t_init rnd X numSamples step).
  Proof.
    unfold t_init. rewrite Hsplit. exists 0%nat, []. cbn [tpMain tpWorkers]. split; [constructor|].
    apply (spawn_inv 0 []); [lia|reflexivity|constructor].
  Qed.

  Lemma run_inv : forall l c c', inv c -> t_run rnd X numSamples step l c = Some c' -> inv c'.
  Proof.
    induction l as [|ch l IH]; intros c c' Hc E; cbn [t_run] in E.
    - injection E as <-. exact Hc.
    - destruct (tstep ch c) as [c1|] eqn:E1; [|discriminate E]. apply IH with c1; [|exact E]. apply step_inv with ch c; assumption.
  Qed.

  Lemma idle_or_held : forall ws : list (TWorker N), thlds ws = [] \/
    exists k, (exists w, nth_error ws k = Some (TBusy w)) \/ exists x g, nth_error ws k = Some (TBlocked x g).
  Proof.
    induction ws as [|w ws IH]; [left; reflexivity|]. destruct w as [|w|x g].
    - destruct IH as [IH|(k & IH)]; [left; exact IH|right; exists (1 + k)%nat; exact IH].
    - right. exists 0%nat. left. exists w. reflexivity.
    - right. exists 0%nat. right. exists x, g. reflexivity.
  Qed.

  Lemma some_idle : forall ws : list (TWorker N), (length (thlds ws) < length ws)%nat -> exists k, nth_error ws k = Some TIdle.
  Proof.
    induction ws as [|w ws IH]; cbn [length thlds flat_map]; intro Hl; [lia|]. destruct w as [|w|x g].
    - exists 0%nat. reflexivity.
    - cbn [thld app length] in Hl. destruct IH as (k & E); [unfold thlds; lia|]. exists (1 + k)%nat. exact E.
    - cbn [thld app length] in Hl. destruct IH as (k & E); [unfold thlds; lia|]. exists (1 + k)%nat. exact E.
  Qed.

  Lemma progress : forall c, inv c -> (exists th df, tpMain c = TDone th df) \/ exists ch c', ch <> VTick /\ tstep ch c = Some c'.
  Proof.
    intros [m ws] (r & rc & Hok & Hm). cbn [tpMain tpWorkers] in *.
    destruct m as [i gp a b|i w gp a b|st|w st|th df|]; cbn [inv_main] in Hm.
    - right. exists VStart. eexists. split; [discriminate|reflexivity].
    - right. destruct Hm as (-> & -> & -> & -> & -> & Hi & -> & Hw & Hp).
      destruct (some_idle ws) as (k & Ek). { rewrite (Permutation_length Hp), seq_length. lia. }
      exists (VGive k). eexists. split; [discriminate|]. cbn [t_step tpMain tpWorkers]. rewrite Ek. reflexivity.
    - right. destruct Hm as (Hst & Hr & Hw & Hp). pose proof (so_rc _ _ _ Hst) as Hl. pose proof (wn_pos r).
      destruct (idle_or_held ws) as [He|(k & [(w & Ek)|(x & g & Ek)])].
      + exfalso. pose proof (Permutation_length Hp) as Hlp. rewrite He, seq_length in Hlp. cbn [app] in Hlp. lia.
      + exists (VCompute k). eexists. split; [discriminate|]. cbn [t_step tpMain tpWorkers]. rewrite Ek.
        pose proof (Forall_nth_error _ _ _ _ _ Hok Ek) as (H1 & H2). rewrite H1, H2, Hcalc. reflexivity.
      + exists (VTake k). eexists. split; [discriminate|]. cbn [t_step tpMain tpWorkers]. rewrite Ek. reflexivity.
    - right. destruct Hm as (Hst & Hr & Hw & Hk & HK0 & g & -> & Hg & HgG & Hp). pose proof (wn_pos r).
      destruct (some_idle ws) as (k & Ek).
      { pose proof (Permutation_length Hp) as Hlp. rewrite app_length, seq_length in Hlp. lia. }
      exists (VGive k). eexists. split; [discriminate|]. cbn [t_step tpMain tpWorkers]. rewrite Ek. reflexivity.
    - left. eauto.
    - destruct Hm.
  Qed.

  (** ** Termination *)
  Definition Tm : nat := (Nat.max (K * G) Sn + 1)%nat.
  Definition sent (st : TState N) : nat := (tsNum st / G * G + Nat.min G (tsGridPt st))%nat.
  Definition mmeas (m : TMain N) : nat :=
    match m with
    | TSpawn i _ _ _ => ((Sn - i) + 3 * (Tm - i))%nat
    | TSend0 i _ _ _ _ => ((Sn - (1 + i)) + 3 * (Tm - i))%nat
    | TRecv st => (3 * (Tm - sent st))%nat
    | TSend _ st => (3 * (Tm - (sent st - 1)))%nat
    | _ => 0%nat
    end.
  Definition wmeas (w : TWorker N) : nat := match w with TIdle => 0 | TBusy _ => 2 | TBlocked _ _ => 1 end%nat.
  Definition meas (c : TPool N) : nat := (mmeas (tpMain c) + list_sum (map wmeas (tpWorkers c)))%nat.

  Lemma sent_ok : forall r rc st, st_ok r rc st -> sent st = (r * G + Nat.min G (wn r + length rc))%nat.
  Proof.
    intros r rc st [S1 S2 S3 S4 S5 S6 S7]. unfold sent. rewrite S1, S2. do 2 f_equal.
    rewrite Nat.div_add_l, Nat.div_small by lia. lia.
  Qed.
  Lemma loop_meas : forall st, (mmeas (t_loop numSamples step st) <= 3 * (Tm - sent st))%nat.
  Proof.
    intros st. unfold t_loop. destruct (_ <? _)%Z; cbn [mmeas]; [lia|]. destruct (Argmin _); cbn [mmeas]; lia.
  Qed.

  Lemma step_meas : forall ch c c', inv c -> ch <> VTick -> tstep ch c = Some c' -> (meas c' < meas c)%nat.
  Proof.
    intros ch [m ws] c' (r & rc & Hok & Hm) Hch E. cbn [tpMain tpWorkers] in *. unfold meas.
    destruct ch as [|k|k|k|]; cbn [t_step tpMain tpWorkers] in E; [| | | |contradiction].
    - destruct m as [i gp a b| | | | |]; try discriminate E. injection E as <-. cbn [tpMain tpWorkers mmeas].
      rewrite map_app, list_sum_app. cbn [map wmeas list_sum fold_right]. destruct Hm as (_ & _ & _ & _ & Hi & _). lia.
    - destruct (nth_error ws k) as [[|w0|x0 g0]|] eqn:Ek; try discriminate E.
      destruct m as [i gp a b|i w gp a b|st|w st|th df|]; try discriminate E; injection E as <-; cbn [tpMain tpWorkers];
        pose proof (sum_upd _ wmeas ws k TIdle (TBusy w) Ek) as SU; cbn [wmeas] in SU.
      + destruct Hm as (-> & -> & -> & -> & -> & Hi & -> & Hw & Hp).
        assert (HT : (Sn < Tm)%nat) by (unfold Tm; lia).
        assert (Q : (mmeas (t_spawn numSamples step (1 + i) (1 + i) (A 0) (B 0)) <= (Sn - (1 + i)) + 3 * (Tm - (1 + i)))%nat).
        { unfold t_spawn. rewrite Sn_sim, EG. destruct (Z.ltb_spec (Z.of_nat (1 + i)) (Z.of_nat Sn)) as [Hl|Hl]; [cbn [mmeas]; lia|].
          destruct (Z.of_nat G <? 0)%Z; [cbn [mmeas]; lia|].
          match goal with |- context [t_loop numSamples step ?s] => pose proof (loop_meas s) as Q end.
          unfold sent in Q at 1. cbn [tsNum tsGridPt] in Q. rewrite Nat.div_small in Q by lia.
          pose proof Sn_G. lia. }
        cbn [mmeas]. cbn [Nat.add] in *. lia.
      + destruct Hm as (Hst & Hr & Hw & Hk & HK0 & g & -> & Hg & HgG & Hp). pose proof (loop_meas st) as Q. cbn [mmeas].
        assert (Hs : (1 <= sent st <= Tm)%nat).
        { rewrite (sent_ok _ _ _ Hst). pose proof (wn_pos r). split; [lia|]. unfold Tm.
          destruct (Nat.eq_dec r K) as [->|Hne].
          - rewrite (Hk eq_refl). cbn [length]. destruct K as [|K']; [lia|]. cbn [wn]. lia.
          - assert ((r + 1) * G <= K * G)%nat by (apply Nat.mul_le_mono_r; lia). lia. }
        lia.
    - assert (Ec : exists w x, nth_error ws k = Some (TBusy w) /\ c' = mkTPool m (upd ws k (TBlocked x (twGr w)))).
      { destruct m as [i gp a b|i w gp a b|st|w st|th df|]; try discriminate E; destruct (nth_error ws k) as [[|w0|x0 g0]|] eqn:Ek; try discriminate E;
          pose proof (Forall_nth_error _ _ _ _ _ Hok Ek) as (H1 & H2); rewrite H1, H2, Hcalc in E; injection E as <-; eauto. }
      destruct Ec as (w & x & Ek & ->). cbn [tpMain tpWorkers].
      pose proof (sum_upd _ wmeas ws k (TBusy w) (TBlocked x (twGr w)) Ek) as SU. cbn [wmeas] in SU. lia.
    - destruct m as [i gp a b|i w gp a b|st|w st|th df|]; try discriminate E.
      destruct (nth_error ws k) as [[|w0|x g]|] eqn:Ek; try discriminate E. injection E as <-. cbn [tpMain tpWorkers].
      pose proof (sum_upd _ wmeas ws k (TBlocked x g) TIdle Ek) as SU. cbn [wmeas] in SU.
      enough (Q : (mmeas (t_recv rnd X numSamples step x g st) <= mmeas (TRecv st))%nat) by lia.
      destruct Hm as (Hst & Hr & Hw & Hp). pose proof Hst as [S1 S2 S3 S4 S5 S6 S7]. pose proof (wn_pos r) as Hwn.
      cbn [mmeas]. rewrite (sent_ok _ _ _ Hst). unfold t_recv. rewrite S3.
      destruct (getn (dmap r rc) g) as [d| |]; cbn [bind]; [|cbn [mmeas]; lia..].
      destruct (setn (dmap r rc) g _) as [df| |]; cbn [bind]; [|cbn [mmeas]; lia..].
      rewrite S2, mod_round by exact S7. destruct (Nat.eqb_spec (S (length rc)) G) as [HE|HE].
      + rewrite Hsplit. cbn [bind tsGridPt]. rewrite EG. destruct (Z.leb_spec (Z.of_nat 1) (Z.of_nat G)); [|lia].
        cbn [mmeas]. unfold sent. cbn [tsNum tsGridPt].
        replace (1 + (r * G + length rc))%nat with ((1 + r) * G)%nat by lia. rewrite Nat.div_mul by lia. lia.
      + cbn [bind tsGridPt]. rewrite S1, EG.
        assert (Es : forall df a b s, sent (mkTState (1 + (wn r + length rc)) (1 + (r * G + length rc)) df a b s) =
          (r * G + Nat.min G (1 + (wn r + length rc)))%nat).
        { intros. unfold sent. cbn [tsNum tsGridPt]. replace (1 + (r * G + length rc))%nat with (r * G + (1 + length rc))%nat by lia.
          rewrite Nat.div_add_l, Nat.div_small by lia. lia. }
        destruct (Z.leb_spec (Z.of_nat (1 + (wn r + length rc))) (Z.of_nat G)) as [Hl|Hl].
        * cbn [mmeas]. rewrite Es. lia.
        * match goal with |- context [t_loop numSamples step ?s] => pose proof (loop_meas s) as Q; assert (Q2 := Es df (tsMat1 st) (tsMat2 st) (tsSplits st)) end.
          rewrite Q2 in Q. lia.
  Qed.

  Definition is_tick (ch : tchoice) : bool := match ch with VTick => true | _ => false end.
  Lemma run_length : forall l c c', inv c -> t_run rnd X numSamples step l c = Some c' ->
    (length (filter (fun ch => negb (is_tick ch)) l) + meas c' <= meas c)%nat.
  Proof.
    induction l as [|ch l IH]; intros c c' Hc E; cbn [t_run] in E.
    - injection E as <-. cbn [length filter]. lia.
    - destruct (tstep ch c) as [c1|] eqn:E1; [|discriminate E].
      pose proof (IH c1 c' (step_inv ch c c1 Hc E1) E) as Q. cbn [filter].
      destruct ch as [|k|k|k|];
        try (match type of E1 with tstep ?x c = _ => pose proof (step_meas x c c1 Hc ltac:(discriminate) E1) as Q1 end; cbn [is_tick negb length]; lia).
      cbn [is_tick negb]. cbn [t_step] in E1. destruct (tpMain c); try discriminate E1. injection E1 as <-. exact Q.
  Qed.

  Lemma init_meas : (meas (t_init rnd X numSamples step) <= Sn + 3 * Tm)%nat.
  Proof.
    unfold meas, t_init. cbn [tpMain tpWorkers map list_sum fold_right]. rewrite Hsplit.
    unfold t_spawn. rewrite Sn_sim. pose proof Sn_pos. destruct (Z.ltb_spec (Z.of_nat 0) (Z.of_nat Sn)); [|lia]. cbn [mmeas]. lia.
  Qed.
End ThresholdProof.

(** The worker pool of CalculateCohenSequence. *)
From Coq Require Import Permutation.
From Verif Require Import Base Num Mat Model_Node Model_Util Model_Fit Model_Norm Model_Cov Model_Crd
  Proof_Node Proof_Util Proof_Cov Model_Cohen Proof_CrdPath Proof_Lazy.

Section CohenProof.
  Variable N : Num.
  Variable OL : OrdLaws N.
  Variables S H : Type.
  Variable srt : list (N * nat) -> list (N * nat).
  Hypothesis Hsrt : sort_spec byValueLess srt.
  Variable numSamples : Z.
  Variable targets : list (Target S H).
  Let L := length targets.
  Let W := cohenWorkers.

  Notation step := (cohen_step srt numSamples targets).

  (** a value GetCohensKappa may give for target t *)
  Definition kappa_of (t : nat) (k : N) : Prop :=
    exists tgt rnd calls, nth_error targets t = Some tgt /\ GetCohensKappa rnd numSamples tgt = Ok (k, calls).
  Definition panics : Prop :=
    exists t tgt rnd, nth_error targets t = Some tgt /\ forall v, GetCohensKappa (N := N) rnd numSamples tgt <> Ok v.

  Definition best_of (ev : list (nat * N)) (best : option H) : Prop :=
    match best with
    | None => forall t k, In (t, k) ev -> nltb n0 k = false
    | Some h => exists t k tgt, In (t, k) ev /\ nth_error targets t = Some tgt /\ h = tgHyper tgt /\
        nltb n0 k = true /\ forall t' k', In (t', k') ev -> nltb k k' = false
    end.

  Definition bk_ok (rc : list (nat * N)) (bk : N) (best : option H) : Prop :=
    match best with
    | None => bk = n0 /\ forall t k, In (t, k) rc -> nltb n0 k = false
    | Some h => exists t tgt, In (t, bk) rc /\ nth_error targets t = Some tgt /\ h = tgHyper tgt /\
        nltb n0 bk = true /\ forall t' k', In (t', k') rc -> nltb bk k' = false
    end.

  Definition cheld (w : CWorker N) : list nat :=
    match w with CIdle => [] | CBusy t => [t] | CBlocked t _ => [t] end.
  Definition cblk (w : CWorker N) : list (nat * N) :=
    match w with CBlocked t k => [(t, k)] | _ => [] end.
  Definition cheldl (ws : list (CWorker N)) := flat_map cheld ws.

  Record st_ok (rc : list (nat * N)) (st : CState N H) : Prop := {
    so_num : csNum st = length rc;
    so_le : (length rc <= L)%nat;
    so_k : csKappas st = map snd rc ++ repeat n0 (L - length rc);
    so_r : csReps st = map fst rc ++ repeat 0%nat (L - length rc);
    so_b : bk_ok rc (csBestKappa st) (csBest st) }.

  Definition inv_main (rc : list (nat * N)) (m : CMain N H) (ws : list (CWorker N)) : Prop :=
    match m with
    | CSpawn i next => rc = [] /\ (i < W)%nat /\ length ws = i /\ next = Nat.min i L /\ Permutation (cheldl ws) (seq 0 next)
    | CSend0 i t next => rc = [] /\ (i < W)%nat /\ length ws = (1 + i)%nat /\ t = i /\ (t < L)%nat /\ next = (1 + t)%nat /\
        Permutation (cheldl ws) (seq 0 t)
    | CRecv st => st_ok rc st /\ (length rc < L)%nat /\ csNext st = Nat.min L (W + length rc) /\ length ws = W /\
        Permutation (cheldl ws ++ map fst rc) (seq 0 (csNext st))
    | CSend t st => st_ok rc st /\ (1 + t = W + length rc)%nat /\ (t < L)%nat /\ csNext st = (1 + t)%nat /\ length ws = W /\
        Permutation (cheldl ws ++ map fst rc) (seq 0 t)
    | CDone best summary => cheldl ws = [] /\ length ws = W /\ Permutation (map fst rc) (seq 0 L) /\
        (exists bk, bk_ok rc bk best) /\ Permutation summary rc /\
        ((forall t k, In (t, k) rc -> nisnan k = false) -> forall p q x y,
           (p < q)%nat -> nth_error summary p = Some x -> nth_error summary q = Some y -> nltb (snd y) (snd x) = false)
    | CPanic => panics
    end.

  Definition inv (c : CPool N H) : Prop :=
    exists rc, Permutation (cpEvals c) (flat_map cblk (cpWorkers c) ++ rc) /\
      Forall (fun tk => kappa_of (fst tk) (snd tk)) (cpEvals c) /\ inv_main rc (cpMain c) (cpWorkers c).

  Lemma seq_snoc : forall n, Permutation (n :: seq 0 n) (seq 0 (1 + n)).
  Proof. intros n. cbn [Nat.add]. rewrite seq_S. cbn [Nat.add]. apply Permutation_cons_append. Qed.

  Lemma finish_summary : forall (st : CState N H) rc, csKappas st = map snd rc -> csReps st = map fst rc ->
    exists summary, cohen_finish srt st = CDone (csBest st) summary /\ Permutation summary rc /\
      ((forall t k, In (t, k) rc -> nisnan k = false) -> forall p q x y,
           (p < q)%nat -> nth_error summary p = Some x -> nth_error summary q = Some y -> nltb (snd y) (snd x) = false).
  Proof.
    intros st rc Ek Er. unfold cohen_finish. rewrite Ek, Er.
    destruct (Argsort_spec N OL srt (map snd rc) Hsrt) as (r & E & P & Hs). rewrite E. cbn [bind].
    rewrite map_length in *.
    assert (Lr : length r = length rc) by (rewrite (Permutation_length P), seq_length; reflexivity).
    set (d := (0%nat, n0 : N)).
    assert (G : forall k a out, (a + k = length rc)%nat ->
      for_loop a k (fun i out => do k <- getn r i; do r0 <- getn (map fst rc) k; do v <- getn (map snd rc) k; Ok (out ++ [(r0, v)])) out
      = Ok (out ++ map (fun k => nth k rc d) (skipn a r))).
    { induction k as [|k IH]; intros a out Ha; cbn [for_loop].
      - rewrite skipn_all2 by lia. rewrite app_nil_r. reflexivity.
      - destruct (nth_error r a) as [x|] eqn:Ex; [|apply nth_error_None in Ex; lia].
        assert (Hx : (x < length rc)%nat).
        { apply nth_error_In in Ex. apply (Permutation_in _ P), in_seq in Ex. lia. }
        unfold getn at 1. rewrite Ex. cbn [bind].
        rewrite (getn_lt _ (map fst rc) x (fst d)) by (rewrite map_length; exact Hx).
        rewrite (getn_lt _ (map snd rc) x (snd d)) by (rewrite map_length; exact Hx). cbn [bind].
        rewrite !map_nth. rewrite IH by lia.
        assert (Esk : skipn a r = x :: skipn (1 + a) r).
        { clear - Ex. revert a Ex. induction r as [|y r IH]; intros [|a] Ex; try discriminate Ex.
          - injection Ex as ->. reflexivity.
          - exact (IH a Ex). }
        rewrite Esk. cbn [map]. rewrite <- app_assoc. cbn [app]. rewrite <- surjective_pairing. reflexivity. }
    rewrite (G (length rc) 0%nat []) by lia. cbn [skipn app].
    assert (Ps : Permutation (map (fun k => nth k rc d) r) rc).
    { rewrite P. replace (map (fun k => nth k rc d) (seq 0 (length rc))) with rc; [reflexivity|].
      clear. induction rc as [|x rc IH]; [reflexivity|]. cbn [length seq map nth]. f_equal.
      rewrite <- seq_shift, map_map. exact IH. }
    eexists. split; [reflexivity|]. split; [exact Ps|].
    intros Hn p q x y Hpq Ex Ey. 
    assert (Hnn : forall x, In x (map snd rc) -> nisnan x = false).
    { intros z Hz. apply in_map_iff in Hz. destruct Hz as ([t k] & <- & Hz). cbn. eapply Hn; eauto. }
    rewrite nth_error_map in Ex, Ey.
    destruct (nth_error r p) as [a|] eqn:Ea; [|discriminate Ex]. destruct (nth_error r q) as [b|] eqn:Eb; [|discriminate Ey].
    cbn [option_map] in Ex, Ey. injection Ex as <-. injection Ey as <-.
    assert (Hq : (q < length rc)%nat) by (rewrite <- Lr; apply nth_error_Some; congruence).
    specialize (Hs Hnn (snd d) p q (conj Hpq Hq)).
    rewrite (nth_error_nth _ _ 0%nat Ea), (nth_error_nth _ _ 0%nat Eb), !map_nth in Hs. exact Hs.
  Qed.

  Lemma loop_inv : forall rc st ws, st_ok rc st -> csNext st = Nat.min L (W + length rc) -> length ws = W ->
    Permutation (cheldl ws ++ map fst rc) (seq 0 (csNext st)) ->
    inv_main rc (cohen_loop srt targets st) ws.
  Proof.
    intros rc st ws Hst Hn Hw Hp. unfold cohen_loop. fold L. destruct (Nat.ltb_spec (csNum st) L) as [Hl|Hl].
    - cbn [inv_main]. rewrite (so_num _ _ Hst) in Hl. auto.
    - pose proof Hst as [S1 S2 S3 S4 S5]. rewrite S1 in Hl.
      assert (EL : length rc = L) by lia.
      replace (L - length rc)%nat with 0%nat in * by lia. cbn [repeat] in *. rewrite app_nil_r in *.
      destruct (finish_summary st rc S3 S4) as (sm & E & P & Q). rewrite E. cbn [inv_main].
      pose proof (Permutation_length Hp) as PL. rewrite app_length, map_length, seq_length in PL.
      assert (Eh : cheldl ws = []) by (destruct (cheldl ws); [reflexivity|cbn [length] in PL; lia]).
      rewrite Eh in Hp. cbn [app] in Hp. rewrite Hn in Hp. replace (Nat.min L (W + length rc)) with L in Hp by lia.
      split; [exact Eh|]. split; [exact Hw|]. split; [exact Hp|]. split; [eexists; exact S5|]. split; [exact P|exact Q].
  Qed.

  Lemma spawn_inv : forall i ws, (i <= W)%nat -> length ws = i -> Permutation (cheldl ws) (seq 0 (Nat.min i L)) ->
    inv_main [] (cohen_spawn srt targets i (Nat.min i L)) ws.
  Proof.
    intros i ws Hi Hw Hp. unfold cohen_spawn. fold W. destruct (Nat.ltb_spec i W) as [Hl|Hl].
    - cbn [inv_main]. repeat split; auto.
    - assert (Ei : i = W) by lia. rewrite Ei in *. clear Ei Hl Hi i. apply loop_inv; auto.
      + constructor; cbn [csNum csKappas csReps csBestKappa csBest map app length]; fold L; rewrite ?Nat.sub_0_r; auto; try lia.
        split; [reflexivity|]. intros t k [].
      + cbn [csNext length]. lia.
      + cbn [csNext map]. rewrite app_nil_r. exact Hp.
  Qed.

  Lemma held_give : forall ws k t, nth_error ws k = Some CIdle ->
    Permutation (cheldl (upd ws k (CBusy t))) (t :: cheldl ws) /\
    Permutation (flat_map cblk (upd ws k (CBusy t))) (flat_map cblk ws).
  Proof.
    intros ws k t E. split.
    - symmetry. exact (flat_map_upd _ _ cheld ws k CIdle (CBusy t) E).
    - symmetry. exact (flat_map_upd _ _ cblk ws k CIdle (CBusy t) E).
  Qed.

  Lemma held_compute : forall ws k t v, nth_error ws k = Some (CBusy t) ->
    Permutation (cheldl (upd ws k (CBlocked t v))) (cheldl ws) /\
    Permutation (flat_map cblk (upd ws k (CBlocked t v))) ((t, v) :: flat_map cblk ws).
  Proof.
    intros ws k t v E. split.
    - pose proof (flat_map_upd _ _ cheld ws k (CBusy t) (CBlocked t v) E) as P. cbn [cheld app] in P.
      apply Permutation_cons_inv in P. symmetry. exact P.
    - symmetry. exact (flat_map_upd _ _ cblk ws k (CBusy t) (CBlocked t v) E).
  Qed.

  Lemma held_take : forall ws k t v, nth_error ws k = Some (CBlocked t v) ->
    Permutation (t :: cheldl (upd ws k CIdle)) (cheldl ws) /\
    Permutation ((t, v) :: flat_map cblk (upd ws k CIdle)) (flat_map cblk ws).
  Proof.
    intros ws k t v E. split.
    - symmetry. exact (flat_map_upd _ _ cheld ws k (CBlocked t v) CIdle E).
    - symmetry. exact (flat_map_upd _ _ cblk ws k (CBlocked t v) CIdle E).
  Qed.

  Lemma bk_step : forall rc bk best t k tgt, bk_ok rc bk best -> nth_error targets t = Some tgt ->
    bk_ok (rc ++ [(t, k)]) (fst (if nltb bk k then (k, Some (tgHyper tgt)) else (bk, best)))
      (snd (if nltb bk k then (k, Some (tgHyper tgt)) else (bk, best))).
  Proof.
    intros rc bk best t k tgt Hb Et. destruct (nltb bk k) eqn:E; cbn [fst snd].
    - exists t, tgt. split; [apply in_or_app; right; left; reflexivity|]. split; [exact Et|]. split; [reflexivity|].
      split.
      + destruct best as [h|]; [|destruct Hb as [-> _]; exact E].
        destruct Hb as (t0 & g0 & _ & _ & _ & Hp & _). exact (ol_trans OL _ _ _ Hp E).
      + intros t' k' Hi. apply in_app_or in Hi. destruct Hi as [Hi|[Hi|[]]].
        * apply not_true_is_false. intros C. pose proof (ol_trans OL _ _ _ E C) as C2.
          destruct best as [h|]; [destruct Hb as (_ & _ & _ & _ & _ & _ & Hm)|destruct Hb as [-> Hm]];
            rewrite (Hm _ _ Hi) in C2; discriminate C2.
        * injection Hi as <- <-. apply (ol_irrefl OL).
    - destruct best as [h|].
      + destruct Hb as (t0 & g0 & H1 & H2 & H3 & H4 & H5). exists t0, g0.
        split; [apply in_or_app; left; exact H1|]. repeat (split; [assumption|]).
        intros t' k' Hi. apply in_app_or in Hi. destruct Hi as [Hi|[Hi|[]]]; [eauto|]. injection Hi as <- <-. exact E.
      + destruct Hb as [-> Hb]. split; [reflexivity|].
        intros t' k' Hi. apply in_app_or in Hi. destruct Hi as [Hi|[Hi|[]]]; [eauto|]. injection Hi as <- <-. exact E.
  Qed.

  Lemma set_next : forall (A : Type) (l : list A) d x n, (length l < n)%nat ->
    setn (l ++ repeat d (n - length l)) (length l) x = Ok ((l ++ [x]) ++ repeat d (n - length (l ++ [x]))).
  Proof.
    intros A l d x n Hl. replace (n - length l)%nat with (1 + (n - length (l ++ [x])))%nat by (rewrite app_length; cbn; lia).
    cbn [Nat.add repeat]. rewrite setn_at_end, <- app_assoc. reflexivity.
  Qed.

  Lemma take_inv : forall rc st ws t k i, inv_main rc (CRecv st) ws -> nth_error ws i = Some (CBlocked t k) ->
    inv_main (rc ++ [(t, k)]) (cohen_recv srt targets t k st) (upd ws i CIdle).
  Proof.
    intros rc st ws t k i (Hst & Hr & Hn & Hw & Hp) Ei. pose proof Hst as [S1 S2 S3 S4 S5].
    destruct (held_take ws i t k Ei) as (P1 & _).
    assert (Ht : (t < L)%nat).
    { assert (In t (seq 0 (csNext st))).
      { apply (Permutation_in _ Hp), in_or_app. left. apply (Permutation_in _ P1). left. reflexivity. }
      apply in_seq in H0. lia. }
    destruct (nth_error targets t) as [tgt|] eqn:Et; [|apply nth_error_None in Et; unfold L in Ht; lia].
    unfold cohen_recv. fold L. unfold getn at 1. rewrite Et. cbn [bind].
    rewrite S3, S4, S1.
    pose proof (set_next N (map snd rc) n0 k L) as K1. rewrite map_length in K1. rewrite K1 by exact Hr. cbn [bind].
    pose proof (set_next nat (map fst rc) 0%nat t L) as K2. rewrite map_length in K2. rewrite K2 by exact Hr. cbn [bind].
    pose proof (bk_step rc _ _ t k tgt S5 Et) as Hb.
    destruct (if nltb (csBestKappa st) k then (k, Some (tgHyper tgt)) else (csBestKappa st, csBest st)) as [bk' best'].
    cbn [fst snd] in Hb.
    assert (LR : length (rc ++ [(t, k)]) = (1 + length rc)%nat) by (rewrite app_length; cbn; lia).
    assert (Hst' : forall nx, st_ok (rc ++ [(t, k)]) (mkCState nx (1 + length rc) bk' best'
       ((map snd rc ++ [k]) ++ repeat n0 (L - length (map snd rc ++ [k])))
       ((map fst rc ++ [t]) ++ repeat 0%nat (L - length (map fst rc ++ [t]))))).
    { intros nx. constructor; cbn [csNum csKappas csReps csBestKappa csBest]; rewrite ?LR, ?map_app, ?app_length, ?map_length; cbn [map length fst snd]; auto;
        try lia; do 2 f_equal; lia. }
    assert (Hp' : Permutation (cheldl (upd ws i CIdle) ++ map fst (rc ++ [(t, k)])) (seq 0 (csNext st))).
    { rewrite <- Hp, map_app. cbn [map fst]. rewrite app_assoc. rewrite <- Permutation_cons_append, <- P1. reflexivity. }
    destruct (Nat.ltb_spec (csNext st) L) as [Hl|Hl].
    - cbn [inv_main csNext]. split; [apply Hst'|]. rewrite LR. split; [lia|]. split; [exact Hl|]. split; [reflexivity|].
      rewrite upd_length. auto.
    - apply loop_inv; [apply Hst'| |rewrite upd_length; exact Hw|exact Hp']. cbn [csNext]. rewrite LR. lia.
  Qed.

  Lemma step_inv : forall ch c c', inv c -> step ch c = Some c' -> inv c'.
  Proof.
    intros ch [m ws ev] c' (rc & He & Hk & Hm) E. cbn [cpMain cpWorkers cpEvals] in *.
    destruct ch as [|k|k rnd|k]; cbn [cohen_step cpMain cpWorkers cpEvals] in E.
    - destruct m as [i next| | | | |]; try discriminate E. injection E as <-. exists rc. cbn [cpMain cpWorkers cpEvals].
      rewrite flat_map_app. cbn [flat_map cblk app]. rewrite app_nil_r. split; [exact He|]. split; [exact Hk|].
      destruct Hm as (-> & Hi & Hw & -> & Hp). 
      assert (Hp' : Permutation (cheldl (ws ++ [CIdle])) (seq 0 (Nat.min i L))).
      { unfold cheldl. rewrite flat_map_app. cbn [flat_map cheld app]. rewrite app_nil_r. exact Hp. }
      unfold cohen_work0. fold L. destruct (Nat.ltb_spec (Nat.min i L) L) as [Hl|Hl].
      + replace (Nat.min i L) with i in * by lia. cbn [inv_main]. split; [reflexivity|].
        split; [lia|]. split; [rewrite app_length; cbn; lia|]. split; [reflexivity|]. split; [exact Hl|]. split; [reflexivity|exact Hp'].
      + replace (Nat.min i L) with (Nat.min (1 + i) L) in * by lia. apply spawn_inv; [lia|rewrite app_length; cbn; lia|exact Hp'].
    - destruct (nth_error ws k) as [[|w0|r0]|] eqn:Ek; try discriminate E.
      destruct m as [i next|i t next|st|t st|b sm|]; try discriminate E; injection E as <-; exists rc; cbn [cpMain cpWorkers cpEvals];
        destruct (held_give ws k t Ek) as (P1 & P2); (split; [rewrite P2; exact He|split; [exact Hk|]]).
      + destruct Hm as (-> & Hi & Hw & -> & Ht & -> & Hp).
        pose proof (spawn_inv (1 + i) (upd ws k (CBusy i))) as G. replace (Nat.min (1 + i) L) with (1 + i)%nat in G by lia. apply G; [lia|rewrite upd_length; exact Hw|].
        rewrite P1, Hp. apply seq_snoc.
      + destruct Hm as (Hst & Ht & HtL & Hn & Hw & Hp). apply loop_inv; [exact Hst|lia|rewrite upd_length; exact Hw|].
        rewrite P1, Hn. cbn [app]. rewrite Hp. apply seq_snoc.
    - assert (Ec : exists t, nth_error ws k = Some (CBusy t) /\
        match (do tgt <- getn targets t; GetCohensKappa rnd numSamples tgt) with
        | Ok (kappa, _) => c' = mkCPool m (upd ws k (CBlocked t kappa)) (ev ++ [(t, kappa)])
        | _ => c' = mkCPool CPanic ws ev
        end).
      { destruct m as [i0 n0'|i0 t0 n0'|s0|t0 s0|b0 m0|]; try discriminate E; destruct (nth_error ws k) as [[|t|r']|]; try discriminate E; exists t; (split; [reflexivity|]);
          destruct (do tgt <- getn targets t; GetCohensKappa rnd numSamples tgt) as [[v cl]| |]; injection E as <-; reflexivity. }
      destruct Ec as (t & Ek & Ec).
      assert (Ht : m <> CPanic -> (t < L)%nat).
      { intros Hmp. assert (Hin : In t (cheldl ws)) by (apply in_flat_map; exists (CBusy t); split; [apply nth_error_In with k; exact Ek|left; reflexivity]).
        destruct m as [i next|i t' next|st|t' st|b sm|]; cbn [inv_main] in Hm.
        - destruct Hm as (_ & _ & _ & -> & Hp). apply (Permutation_in _ Hp), in_seq in Hin. lia.
        - destruct Hm as (_ & _ & _ & _ & Ht & _ & Hp). apply (Permutation_in _ Hp), in_seq in Hin. lia.
        - destruct Hm as (_ & _ & Hn & _ & Hp). assert (In t (seq 0 (csNext st))) by (apply (Permutation_in _ Hp), in_or_app; auto). apply in_seq in H0. lia.
        - destruct Hm as (_ & _ & Hn & _ & _ & Hp). assert (In t (seq 0 t')) by (apply (Permutation_in _ Hp), in_or_app; auto). apply in_seq in H0. lia.
        - destruct Hm as (Hn & _). rewrite Hn in Hin. destruct Hin.
        - contradiction. }
      assert (Hmp : m <> CPanic). { intros ->. discriminate E. }
      specialize (Ht Hmp).
      destruct (nth_error targets t) as [tgt|] eqn:Et; [|apply nth_error_None in Et; unfold L in Ht; lia].
      unfold getn in Ec. rewrite Et in Ec. cbn [bind] in Ec.
      destruct (GetCohensKappa rnd numSamples tgt) as [[v cl]| |] eqn:Eg; subst c'.
      + destruct (held_compute ws k t v Ek) as (P1 & P2). exists rc. cbn [cpMain cpWorkers cpEvals]. split.
        { rewrite P2. cbn [app]. rewrite <- Permutation_cons_append, He. reflexivity. }
        split. { apply Forall_app. split; [exact Hk|]. constructor; [|constructor]. exists tgt, rnd, cl. auto. }
        destruct m as [i next|i t' next|st|t' st|b sm|]; cbn [inv_main] in *; rewrite ?upd_length, ?P1; auto.
        destruct Hm as (H1 & H2). split; [|exact H2]. rewrite H1 in P1. apply Permutation_nil. symmetry. exact P1.
      + exists rc. cbn [cpMain cpWorkers cpEvals]. split; [exact He|]. split; [exact Hk|]. exists t, tgt, rnd. split; [exact Et|]. rewrite Eg. discriminate.
      + exists rc. cbn [cpMain cpWorkers cpEvals]. split; [exact He|]. split; [exact Hk|]. exists t, tgt, rnd. split; [exact Et|]. rewrite Eg. discriminate.
    - destruct m as [i next|i t' next|st|t' st|b sm|]; try discriminate E.
      destruct (nth_error ws k) as [[|w0|t v]|] eqn:Ek; try discriminate E. injection E as <-.
      exists (rc ++ [(t, v)]). cbn [cpMain cpWorkers cpEvals]. destruct (held_take ws k t v Ek) as (_ & P2).
      split; [rewrite He, <- P2, app_assoc, <- Permutation_cons_append; reflexivity|]. split; [exact Hk|]. apply take_inv; assumption.
  Qed.

  Lemma init_inv : inv (cohen_init srt targets).
  Proof.
    exists []. cbn [cohen_init cpMain cpWorkers cpEvals flat_map app]. split; [constructor|]. split; [constructor|].
    apply (spawn_inv 0 []); [lia|reflexivity|constructor].
  Qed.

  Lemma run_inv : forall l c c', inv c -> cohen_run srt numSamples targets l c = Some c' -> inv c'.
  Proof.
    induction l as [|ch l IH]; intros c c' Hc E; cbn [cohen_run] in E.
    - injection E as <-. exact Hc.
    - destruct (step ch c) as [c1|] eqn:E1; [|discriminate E]. apply IH with c1; [|exact E]. apply step_inv with ch c; assumption.
  Qed.

  Lemma idle_or_held : forall ws : list (CWorker N), cheldl ws = [] \/
    exists k t, nth_error ws k = Some (CBusy t) \/ exists v, nth_error ws k = Some (CBlocked t v).
  Proof.
    induction ws as [|w ws IH]; [left; reflexivity|]. destruct w as [|t|t v].
    - destruct IH as [IH|(k & IH)]; [left; exact IH|right; exists (1 + k)%nat; exact IH].
    - right. exists 0%nat, t. left. reflexivity.
    - right. exists 0%nat, t. right. exists v. reflexivity.
  Qed.

  Lemma some_idle : forall ws : list (CWorker N), (length (cheldl ws) < length ws)%nat -> exists k, nth_error ws k = Some CIdle.
  Proof.
    induction ws as [|w ws IH]; cbn [length cheldl flat_map]; intro Hl; [lia|]. destruct w as [|t|t v].
    - exists 0%nat. reflexivity.
    - cbn [cheld app length] in Hl. destruct IH as (k & E); [unfold cheldl; lia|]. exists (1 + k)%nat. exact E.
    - cbn [cheld app length] in Hl. destruct IH as (k & E); [unfold cheldl; lia|]. exists (1 + k)%nat. exact E.
  Qed.

  Lemma progress : forall c, inv c -> (exists b s, cpMain c = CDone b s) \/ cpMain c = CPanic \/ exists ch c', step ch c = Some c'.
  Proof.
    intros [m ws ev] (rc & _ & _ & Hm). cbn [cpMain cpWorkers] in *.
    destruct m as [i next|i t next|st|t st|b sm|]; cbn [inv_main] in Hm.
    - right; right. exists KStart. eexists. reflexivity.
    - right; right. destruct Hm as (_ & _ & Hw & -> & Ht & _ & Hp).
      destruct (some_idle ws) as (k & Ek). { rewrite (Permutation_length Hp), seq_length. lia. }
      exists (KGive k). eexists. cbn [cohen_step cpMain cpWorkers]. rewrite Ek. reflexivity.
    - right; right. destruct Hm as (_ & Hr & Hn & Hw & Hp).
      destruct (idle_or_held ws) as [He|(k & t & [Ek|(v & Ek)])].
      + exfalso. pose proof (Permutation_length Hp) as Hlp. rewrite He, seq_length in Hlp. cbn [app length] in Hlp.
        rewrite map_length in Hlp. unfold W, cohenWorkers in *. lia.
      + exists (KCompute k (fun _ _ => 0%nat)). cbn [cohen_step cpMain cpWorkers]. rewrite Ek.
        destruct (do tgt <- getn targets t; GetCohensKappa _ numSamples tgt) as [[v cl]| |]; eexists; reflexivity.
      + exists (KTake k). eexists. cbn [cohen_step cpMain cpWorkers]. rewrite Ek. reflexivity.
    - right; right. destruct Hm as (_ & Ht & _ & _ & Hw & Hp).
      destruct (some_idle ws) as (k & Ek).
      { pose proof (Permutation_length Hp) as Hlp. rewrite app_length, map_length, seq_length in Hlp. lia. }
      exists (KGive k). eexists. cbn [cohen_step cpMain cpWorkers]. rewrite Ek. reflexivity.
    - left. eauto.
    - right; left. reflexivity.
  Qed.

  Definition mmeas (m : CMain N H) : nat :=
    match m with
    | CSpawn i next => (1 + (W - i) + 3 * (L - next))%nat
    | CSend0 i t next => (1 + (W - (1 + i)) + 3 * (L - next) + 3)%nat
    | CRecv st => (1 + 3 * (L - csNext st))%nat
    | CSend t st => (1 + 3 * (L - csNext st) + 3)%nat
    | _ => 0%nat
    end.
  Definition wmeas (w : CWorker N) : nat := match w with CIdle => 0 | CBusy _ => 2 | CBlocked _ _ => 1 end%nat.
  Definition meas (c : CPool N H) : nat := (mmeas (cpMain c) + list_sum (map wmeas (cpWorkers c)))%nat.

  Lemma loop_meas : forall st, (mmeas (cohen_loop srt targets st) <= 1 + 3 * (L - csNext st))%nat.
  Proof.
    intros st. unfold cohen_loop. destruct (csNum st <? length targets)%nat; cbn [mmeas]; [lia|]. unfold cohen_finish.
    destruct (do srt <- Argsort srt (csKappas st); _) as [s| |]; cbn [mmeas]; lia.
  Qed.
  Lemma spawn_meas : forall i next, (mmeas (cohen_spawn srt targets i next) <= 1 + (W - i) + 3 * (L - next))%nat.
  Proof.
    intros i next. unfold cohen_spawn. destruct (i <? cohenWorkers)%nat; cbn [mmeas]; [lia|].
    match goal with |- context [cohen_loop srt targets ?s] => pose proof (loop_meas s) as Q end. cbn [csNext] in Q. lia.
  Qed.
  Lemma recv_meas : forall t k st, (mmeas (cohen_recv srt targets t k st) <= 1 + 3 * (L - csNext st))%nat.
  Proof.
    intros t k st. unfold cohen_recv. destruct (getn targets t) as [tgt| |]; cbn [bind]; try (cbn [mmeas]; lia).
    destruct (setn (csKappas st) _ _) as [ks| |]; cbn [bind]; try (cbn [mmeas]; lia).
    destruct (setn (csReps st) _ _) as [rs| |]; cbn [bind]; try (cbn [mmeas]; lia).
    destruct (if nltb (csBestKappa st) k then _ else _) as [bk b].
    fold L. destruct (Nat.ltb_spec (csNext st) L).
    - cbn [mmeas csNext]. lia.
    - match goal with |- context [cohen_loop srt targets ?s] => pose proof (loop_meas s) as Q end. cbn [csNext] in Q. exact Q.
  Qed.

  Lemma step_meas : forall ch c c', inv c -> step ch c = Some c' -> (meas c' < meas c)%nat.
  Proof.
    intros ch [m ws ev] c' (rc & _ & _ & Hm) E. unfold meas. cbn [cpMain cpWorkers] in Hm.
    destruct ch as [|k|k rnd|k]; cbn [cohen_step cpMain cpWorkers cpEvals] in E.
    - destruct m as [i next| | | | |]; try discriminate E. injection E as <-. cbn [cpMain cpWorkers].
      rewrite map_app, list_sum_app. cbn [map wmeas list_sum fold_right]. unfold cohen_work0. fold L.
      cbn [inv_main] in Hm. destruct Hm as (_ & Hi & _). destruct (Nat.ltb_spec next L).
      + cbn [mmeas]. lia.
      + pose proof (spawn_meas (1 + i) next). cbn [mmeas]. lia.
    - destruct (nth_error ws k) as [[|w0|r0]|] eqn:Ek; try discriminate E.
      destruct m as [i next|i t next|st|t st|b sm|]; try discriminate E; injection E as <-; cbn [cpMain cpWorkers];
        pose proof (sum_upd _ wmeas ws k CIdle (CBusy t) Ek) as SU; cbn [wmeas] in SU.
      + pose proof (spawn_meas (1 + i) next). cbn [mmeas]. cbn [Nat.add] in *. lia.
      + pose proof (loop_meas st). cbn [mmeas]. lia.
    - assert (Ec : exists t, nth_error ws k = Some (CBusy t) /\
        ((exists v, cpMain c' = m /\ cpWorkers c' = upd ws k (CBlocked t v)) \/ (cpMain c' = CPanic /\ cpWorkers c' = ws))).
      { destruct m as [i0 n0'|i0 t0 n0'|s0|t0 s0|b0 m0|]; try discriminate E; destruct (nth_error ws k) as [[|t|r']|]; try discriminate E; exists t; (split; [reflexivity|]);
          destruct (do tgt <- getn targets t; GetCohensKappa rnd numSamples tgt) as [[v cl]| |]; injection E as <-; cbn [cpMain cpWorkers]; eauto. }
      destruct Ec as (t & Ek & [(v & E1 & E2)|(E1 & E2)]); rewrite E1, E2; cbn [cpMain cpWorkers].
      + pose proof (sum_upd _ wmeas ws k (CBusy t) (CBlocked t v) Ek) as SU. cbn [wmeas] in SU. lia.
      + destruct m as [i next|i t0 next|st|t0 st|b sm|]; cbn [mmeas inv_main] in *; try lia; [|discriminate E].
        exfalso. destruct Hm as (He & _). assert (Hin : In t (cheldl ws)) by (apply in_flat_map; exists (CBusy t); split; [apply nth_error_In with k; exact Ek|left; reflexivity]).
        rewrite He in Hin. destruct Hin.
    - destruct m as [i next|i t' next|st|t' st|b sm|]; try discriminate E.
      destruct (nth_error ws k) as [[|w0|t v]|] eqn:Ek; try discriminate E. injection E as <-. cbn [cpMain cpWorkers].
      pose proof (sum_upd _ wmeas ws k (CBlocked t v) CIdle Ek) as SU. cbn [wmeas] in SU.
      pose proof (recv_meas t v st). cbn [mmeas]. lia.
  Qed.

  Lemma run_length : forall l c c', inv c -> cohen_run srt numSamples targets l c = Some c' -> (length l + meas c' <= meas c)%nat.
  Proof.
    induction l as [|ch l IH]; intros c c' Hc E; cbn [cohen_run] in E.
    - injection E as <-. cbn [length]. lia.
    - destruct (step ch c) as [c1|] eqn:E1; [|discriminate E].
      pose proof (step_meas ch c c1 Hc E1). pose proof (IH c1 c' (step_inv ch c c1 Hc E1) E). cbn [length]. lia.
  Qed.

  Lemma init_meas : (meas (cohen_init srt targets) <= 1 + 16 + 3 * L)%nat.
  Proof.
    unfold meas. cbn [cohen_init cpMain cpWorkers map list_sum fold_right]. pose proof (spawn_meas 0 0). unfold W, cohenWorkers in *. lia.
  Qed.
End CohenProof.

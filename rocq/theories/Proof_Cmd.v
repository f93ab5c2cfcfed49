(** The command line programs. *)
From Coq Require Import Permutation.
From Verif Require Import Base Num Mat Model_Node Model_Util Model_Norm Model_Lars Model_SA Model_Save Model_Cmd
  Proof_Node2 Proof_Util Proof_Save Spec_Cmd.

Lemma loop_nf : forall S (body : nat -> S -> res S) n a s, (forall i s, body i s <> Fuel) -> for_loop a n body s <> Fuel.
Proof.
  induction n as [|n IH]; intros a s H; cbn [for_loop]; [discriminate|].
  destruct (body a s) as [s'| |] eqn:E; cbn [bind]; [apply IH; exact H|discriminate|exact (fun _ => H _ _ E)].
Qed.

Section Table.
  Variable N : Num.

  Definition row_at (nodes : list (LassoLarsNode N)) (aicc bic : list N) (s : list nat) (k : nat)
      (rows : list (ScoreRow N)) : Prop :=
    length rows = k /\
    forall r, (r < k)%nat -> exists node a b, nth_error nodes (nth r s O) = Some node /\
      nth_error aicc (nth r s O) = Some a /\ nth_error bic (nth r s O) = Some b /\
      nth_error rows r = Some (mkRow (S r) (lnLamb node) (length (lnSelection node)) a b).

  Lemma table_loop : forall (nodes : list (LassoLarsNode N)) aicc bic s k,
    (k <= length s)%nat ->
    (forall i, In i s -> (i < length nodes)%nat /\ (i < length aicc)%nat /\ (i < length bic)%nat) ->
    exists rows, for_loop 0 k (fun i rows =>
      do v <- getn s i;
      do node <- getn nodes v;
      do a <- getn aicc v;
      do b <- getn bic v;
      Ok (rows ++ [mkRow (S i) (lnLamb node) (length (lnSelection node)) a b])) [] = Ok rows /\
      row_at nodes aicc bic s k rows.
  Proof.
    intros nodes aicc bic s k Hk Hs.
    match goal with |- context [for_loop 0 k ?b []] =>
      destruct (for_loop_inv _ (row_at nodes aicc bic s) b k 0 []) as (rows & E & P) end.
    - split; [reflexivity|]. intros r Hr. lia.
    - intros i rows Hi (L & R). cbn [plus] in Hi.
      assert (Hin : In (nth i s O) s) by (apply nth_In; lia).
      destruct (Hs _ Hin) as (H1 & H2 & H3).
      rewrite (getn_lt _ s i O) by lia. cbn [bind].
      destruct (nth_error nodes (nth i s O)) as [node|] eqn:En; [|apply nth_error_None in En; lia].
      destruct (nth_error aicc (nth i s O)) as [a|] eqn:Ea; [|apply nth_error_None in Ea; lia].
      destruct (nth_error bic (nth i s O)) as [b|] eqn:Eb; [|apply nth_error_None in Eb; lia].
      rewrite (proj2 (getn_ok _ _ _ _) En). cbn [bind]. rewrite (proj2 (getn_ok _ _ _ _) Ea). cbn [bind].
      rewrite (proj2 (getn_ok _ _ _ _) Eb). cbn [bind]. eexists. split; [reflexivity|]. split.
      + rewrite app_length. cbn [length]. lia.
      + intros r Hr. destruct (Nat.eq_dec r i) as [->|Hne].
        * exists node, a, b. split; [exact En|]. split; [exact Ea|]. split; [exact Eb|].
          rewrite nth_error_app2 by lia. rewrite L, Nat.sub_diag. reflexivity.
        * destruct (R r ltac:(lia)) as (node' & a' & b' & R1 & R2 & R3 & R4). exists node', a', b'.
          split; [exact R1|]. split; [exact R2|]. split; [exact R3|]. rewrite nth_error_app1 by lia. exact R4.
    - exists rows. split; [exact E|exact P].
  Qed.
End Table.

(** ** goselect bnb *)
Section Bnb.
  Variable N : Num.
  Implicit Types (h : Live N) (st : bnb N).

  Definition tame h := NoDup (ids N h) /\ fresh N h.

  Lemma before_ids : forall id n l l', live_before (N := N) id n l = Some l' ->
    exists a b, map fst l = a ++ b /\ map fst l' = a ++ id :: b.
  Proof.
    intros id n l l' E. destruct (live_before_split _ _ _ _ _ E) as (a & b & -> & ->).
    exists (map fst a), (map fst b). rewrite !map_app. split; reflexivity.
  Qed.

  Lemma removelast_incl : forall A (l : list A) x, In x (removelast l) -> In x l.
  Proof.
    induction l as [|a l IH]; intros x H; [exact H|]. cbn [removelast] in H. destruct l as [|b l]; [destruct H|].
    destruct H as [->|H]; [left; reflexivity|right; apply IH; exact H].
  Qed.
  Lemma removelast_nodup : forall A (l : list A), NoDup l -> NoDup (removelast l).
  Proof.
    induction l as [|a l IH]; intros H; [exact H|]. cbn [removelast]. destruct l as [|b l]; [constructor|].
    inversion H as [|? ? H1 H2]; subst. constructor; [|apply IH; exact H2].
    intro C. apply H1. apply removelast_incl in C. exact C.
  Qed.

  Lemma insert_tame : forall h n h', tame h -> live_insert h n = Ok h' -> tame h'.
  Proof.
    intros [l mx nx] n h' (ND & FR) E. unfold tame, fresh, ids in *. cbn [lvItems lvNext lvMax] in *.
    assert (C : forall h', match live_before nx n l with
      | Some l => Ok (mkLive (if (mx <=? Z.of_nat (length l))%Z then removelast l else l) mx (S nx))
      | None => if (Z.of_nat (length l) <? mx)%Z then Ok (mkLive (l ++ [(nx, n)]) mx (S nx)) else Ok (mkLive l mx nx)
      end = Ok h' -> NoDup (map fst (lvItems h')) /\ Forall (fun i => i < lvNext h') (map fst (lvItems h'))).
    { clear E h'. intros h' E. rewrite Forall_forall in FR.
      destruct (live_before nx n l) as [l'|] eqn:B.
      - injection E as <-. cbn [lvItems lvNext]. destruct (before_ids _ _ _ _ B) as (a & b & E1 & E2).
        assert (ND' : NoDup (map fst l')).
        { rewrite E2. apply NoDup_Add with (a := nx) (l := a ++ b); [apply Add_app|]. rewrite <- E1. split; [exact ND|].
          intro C. specialize (FR nx C). lia. }
        assert (F' : Forall (fun i => i < S nx) (map fst l')).
        { rewrite E2. apply Forall_forall. intros i Hi. apply in_app_or in Hi. destruct Hi as [Hi|[<-|Hi]]; [| lia |].
          - specialize (FR i). rewrite E1 in FR. specialize (FR ltac:(apply in_or_app; auto)). lia.
          - specialize (FR i). rewrite E1 in FR. specialize (FR ltac:(apply in_or_app; auto)). lia. }
        destruct (_ <=? _)%Z; [|auto]. rewrite removelast_map. split; [apply removelast_nodup; exact ND'|].
        apply Forall_forall. intros i Hi. apply removelast_incl in Hi. rewrite Forall_forall in F'. apply F'. exact Hi.
      - destruct (_ <? _)%Z; injection E as <-; cbn [lvItems lvNext].
        + rewrite map_app. cbn [map fst]. split.
          * apply NoDup_Add with (a := nx) (l := map fst l); [|split; [exact ND|]].
            -- rewrite <- (app_nil_r (map fst l)) at 1. apply Add_app.
            -- intro C. specialize (FR nx C). lia.
          * apply Forall_forall. intros i Hi. apply in_app_or in Hi. destruct Hi as [Hi|[<-|[]]]; [|lia].
            specialize (FR i Hi). lia.
        + split; [exact ND|]. apply Forall_forall. exact FR. }
    unfold live_insert in E. cbn [lvItems lvNext lvMax] in E.
    destruct (Z.of_nat (length l) =? mx - 1)%Z; [|apply C; exact E].
    destruct (rev l) as [|last r]; [discriminate E|].
    destruct (nltb (ndScore n) (ndScore (snd last))); [|apply C; exact E].
    injection E as <-. cbn [lvItems lvNext]. split; [exact ND|exact FR].
  Qed.

  Lemma insert_max : forall h n h', live_insert h n = Ok h' -> lvMax h' = lvMax h.
  Proof.
    intros h n h' E. unfold live_insert in E. destruct (_ =? _)%Z; [destruct (rev _) as [|e r]; [discriminate E|]; destruct (nltb _ _)|].
    - injection E as <-. reflexivity.
    - destruct (live_before _ _ _) as [l'|]; [injection E as <-; reflexivity|]. destruct (_ <? _)%Z; injection E as <-; reflexivity.
    - destruct (live_before _ _ _) as [l'|]; [injection E as <-; reflexivity|]. destruct (_ <? _)%Z; injection E as <-; reflexivity.
  Qed.

  (** MarshalJSON with nobody inserting walks the whole list *)
  Lemma walk_alone : forall h, NoDup (ids N h) ->
    both (repeat LSave (2 + 2 * length (lvItems h))) (h, SBegin)
    = Ok (h, SWalked (map Some (map snd (lvItems h)))).
  Proof.
    intros h ND. change (2 + 2 * length (lvItems h)) with (S (S (2 * length (lvItems h)))).
    rewrite both_save. cbn [save_step bind]. rewrite both_save. cbn [save_step bind].
    destruct (lvItems h) as [|e rest] eqn:E.
    - reflexivity.
    - cbn [hd_error loop_head length]. rewrite (walk_ok N rest [] e); [|exact E|exact ND|rewrite repeat_length; cbn; lia].
      do 3 f_equal. rewrite Nat.add_0_l, skipn_all2 by (rewrite repeat_length; cbn; lia).
      rewrite app_nil_r. cbn [firstn app map]. rewrite map_map. reflexivity.
  Qed.

  Lemma walked_stays : forall k h d, both (repeat LSave k) (h, SWalked d) = Ok (h, SWalked d).
  Proof. induction k as [|k IH]; intros h d; [reflexivity|]. rewrite both_save. cbn [save_step bind]. apply IH. Qed.

  Lemma both_save_app : forall j k h s s', both (repeat LSave j) (h, s) = Ok (h, s') ->
    both (repeat LSave (j + k)) (h, s) = both (repeat LSave k) (h, s').
  Proof. intros j k h s s' E. rewrite repeat_app. apply both_app. exact E. Qed.

  (** where an undisturbed walk can be *)
  Definition walking h (s : saver N) := exists k, both (repeat LSave k) (h, SBegin) = Ok (h, s).

  Lemma walking_begin : forall h, walking h SBegin.
  Proof. intro h. exists 0. reflexivity. Qed.

  Lemma walking_step : forall h s, tame h -> walking h s -> exists s', save_step h s = Ok s' /\ walking h s'.
  Proof.
    intros h s (ND & _) (k & E). pose proof (walk_alone h ND) as W. set (K := 2 + 2 * length (lvItems h)) in *.
    destruct (save_step h s) as [s'| |] eqn:Es.
    - exists s'. split; [reflexivity|]. exists (k + 1). rewrite (both_save_app k 1 h SBegin s E).
      rewrite (both_save N h s 0), Es. reflexivity.
    - exfalso. assert (P : forall j, both (repeat LSave (k + S j)) (h, SBegin) = Panic).
      { intro j. rewrite (both_save_app k (S j) h SBegin s E). rewrite both_save, Es. reflexivity. }
      destruct (Nat.le_gt_cases K k) as [Hle|Hlt].
      + replace k with (K + (k - K)) in E by lia. rewrite (both_save_app K (k - K) h SBegin _ W), walked_stays in E.
        injection E as E. subst s. discriminate Es.
      + specialize (P (K - k - 1)). replace (k + S (K - k - 1)) with K in P by lia. rewrite W in P. discriminate P.
    - exfalso. destruct s; cbn [save_step] in Es; try discriminate Es. unfold setn in Es. destruct (_ <? _)%nat; discriminate Es.
  Qed.

  Lemma walking_done : forall h d, tame h -> walking h (SWalked d) -> d = map Some (map snd (lvItems h)).
  Proof.
    intros h d (ND & _) (k & E). pose proof (walk_alone h ND) as W. set (K := 2 + 2 * length (lvItems h)) in *.
    destruct (Nat.le_gt_cases K k) as [Hle|Hlt].
    - replace k with (K + (k - K)) in E by lia. rewrite (both_save_app K (k - K) h SBegin _ W), walked_stays in E.
      injection E as E. congruence.
    - replace K with (k + (K - k)) in W by lia. rewrite (both_save_app k (K - k) h SBegin _ E), walked_stays in W.
      injection W as W. exact W.
  Qed.

  Definition file_of (h : Highscore N) : content N :=
    if forallb node_finite (hsItems h)
    then CJson (hsMaxItems h) (map (fun n => Some (nodeJ_of n)) (hsItems h)) else CEmpty.

  Lemma encode_none_some : forall l : list (Node N),
    encode_items (map Some l) = Ok (if forallb node_finite l then Some (map (fun n => Some (nodeJ_of n)) l) else None).
  Proof.
    induction l as [|n l IH]; [reflexivity|]. cbn [map encode_items forallb]. rewrite node_marshal. cbn [bind]. rewrite IH. cbn [bind].
    destruct (node_finite n); cbn [andb]; [|reflexivity]. destruct (forallb node_finite l); reflexivity.
  Qed.

  Lemma write_alone : forall h, write_file (lvMax h) (map Some (map snd (lvItems h))) = Ok (file_of (forget h)).
  Proof.
    intro h. unfold write_file. rewrite encode_none_some. cbn [bind]. unfold file_of, forget. cbn [hsItems hsMaxItems].
    destruct (forallb _ _); reflexivity.
  Qed.

  (** what holds at every moment of the command *)
  Definition phase st : Prop :=
    match bbMain st with
    | BLoop => bbSearch st = GRun \/ bbSearch st = GSend
    | BTick _ => bbSearch st = GRun \/ bbSearch st = GSend
    | BFinal s => (bbSearch st = GDone \/ bbSearch st = GEnd) /\ walking (bbList st) s
    | BWait => (bbSearch st = GDone \/ bbSearch st = GEnd) /\ bbFile st = Some (file_of (forget (bbList st)))
    | BEnd => bbSearch st = GEnd /\ bbFile st = Some (file_of (forget (bbList st)))
    end.
  Definition binv (done : list (Node N)) st : Prop :=
    tame (bbList st) /\ hsInsertAll (NewHighscore 10) done = Ok (forget (bbList st)) /\ phase st.

  Lemma insertall_snoc : forall l n (h h' : Highscore N), hsInsertAll (N := N) (NewHighscore 10) l = Ok h -> hsInsert h n = Ok h' ->
    hsInsertAll (NewHighscore 10) (l ++ [n]) = Ok h'.
  Proof.
    intros l n h h' E1 E2. unfold hsInsertAll in *. rewrite for_each_app, E1. cbn [bind for_each]. rewrite E2. reflexivity.
  Qed.

  Lemma binv_init : binv [] bnb_init.
  Proof.
    unfold binv, bnb_init. cbn [bbList bbMain bbSearch phase]. split; [split; constructor|]. split; [reflexivity|]. left. reflexivity.
  Qed.

  Lemma bnb_step_inv : forall done l st st', binv done st -> bnb_step l st = Some (Ok st') ->
    binv (done ++ inserted [l]) st'.
  Proof.
    intros done l st st' (T & I & P) E. destruct st as [mn sr h f].
    destruct l; cbn [bnb_step bbMain bbSearch bbList bbFile inserted] in *; rewrite ?app_nil_r.
    - (* insert *)
      assert (Hsr : sr = GRun) by (destruct mn, sr; congruence || discriminate E).
      subst sr. assert (E' : (do h0 <- live_insert h n; Ok (mkBnb mn GRun h0 f)) = Ok st') by (destruct mn; injection E as E; exact E).
      clear E. destruct (live_insert h n) as [h'| |] eqn:El; cbn [bind] in E'; try discriminate E'. injection E' as <-.
      unfold binv. cbn [bbList]. split; [exact (insert_tame _ _ _ T El)|]. split.
      + pose proof (live_insert_forget N h n) as F. rewrite El in F. exact (insertall_snoc _ _ _ _ I F).
      + unfold phase in *. cbn [bbMain bbSearch bbList bbFile] in *. destruct mn; auto.
        * destruct P as ([P|P] & _); discriminate P.
        * destruct P as ([P|P] & _); discriminate P.
        * destruct P as (P & _); discriminate P.
    - assert (Hsr : sr = GRun) by (destruct mn, sr; congruence || discriminate E). subst sr.
      assert (E' : st' = mkBnb mn GSend h f) by (destruct mn; injection E as <-; reflexivity). clear E. subst st'.
      unfold binv. cbn [bbList]. split; [exact T|]. split; [exact I|].
      unfold phase in *. cbn [bbMain bbSearch bbList bbFile] in *. destruct mn; auto.
      * destruct P as ([P|P] & _); discriminate P.
      * destruct P as ([P|P] & _); discriminate P.
      * destruct P as (P & _); discriminate P.
    - destruct mn; try discriminate E. assert (E' : st' = mkBnb (BTick SBegin) sr h f) by (destruct sr; injection E as <-; reflexivity).
      subst st'. split; [exact T|]. split; [exact I|]. exact P.
    - destruct mn as [|s|s| |]; try discriminate E.
      + assert (E' : bnb_save (mkBnb (BTick s) sr h f) BTick BLoop s = Ok st') by (destruct sr; injection E as E; exact E). clear E.
        unfold bnb_save in E'. cbn [bbList bbSearch bbFile] in E'. cbn [bbMain bbSearch bbList] in P.
        destruct s as [|d|d c e|d c e|d]; cycle 4.
        * apply bind_ok in E'. destruct E' as (c & _ & E'). injection E' as <-. split; [exact T|]. split; [exact I|]. exact P.
        * apply bind_ok in E'. destruct E' as (s' & _ & E'). injection E' as <-. split; [exact T|]. split; [exact I|]. exact P.
        * apply bind_ok in E'. destruct E' as (s' & _ & E'). injection E' as <-. split; [exact T|]. split; [exact I|]. exact P.
        * apply bind_ok in E'. destruct E' as (s' & _ & E'). injection E' as <-. split; [exact T|]. split; [exact I|]. exact P.
        * apply bind_ok in E'. destruct E' as (s' & _ & E'). injection E' as <-. split; [exact T|]. split; [exact I|]. exact P.
      + assert (E' : bnb_save (mkBnb (BFinal s) sr h f) BFinal BWait s = Ok st') by (destruct sr; injection E as E; exact E). clear E.
        unfold phase in P. cbn [bbMain bbSearch bbList] in P. destruct P as (P1 & P2).
        assert (Hs : (exists d, s = SWalked d) \/ exists s', save_step h s = Ok s' /\ walking h s' /\ st' = mkBnb (BFinal s') sr h f).
        { destruct (walking_step h s T P2) as (s' & Es & Ws). unfold bnb_save in E'. cbn [bbList bbSearch bbFile] in E'.
          destruct s as [|d|d c e|d c e|d]; [right|right|right|right|left; eauto];
            rewrite Es in E'; cbn [bind] in E'; injection E' as <-; exists s'; auto. }
        destruct Hs as [(d & ->)|(s' & _ & Ws & ->)].
        * pose proof (walking_done h d T P2) as ->. unfold bnb_save in E'. cbn [bbList bbSearch bbFile] in E'.
          rewrite write_alone in E'. cbn [bind] in E'. injection E' as <-. split; [exact T|]. split; [exact I|].
          unfold phase. cbn [bbMain bbSearch bbFile bbList]. auto.
        * split; [exact T|]. split; [exact I|]. unfold phase. cbn [bbMain bbSearch bbFile bbList]. auto.
    - destruct mn; try discriminate E. destruct sr; try discriminate E. injection E as <-. split; [exact T|]. split; [exact I|].
      unfold phase. cbn [bbMain bbSearch bbList]. split; [auto|apply walking_begin].
    - assert (Hsr : sr = GDone) by (destruct mn, sr; congruence || discriminate E). subst sr.
      assert (E' : st' = mkBnb mn GEnd h f) by (destruct mn; injection E as <-; reflexivity). clear E. subst st'.
      split; [exact T|]. split; [exact I|]. unfold phase in *. cbn [bbMain bbSearch bbList bbFile] in *. destruct mn.
      + destruct P; discriminate.
      + destruct P; discriminate.
      + tauto.
      + tauto.
      + destruct P; discriminate.
    - destruct mn; try discriminate E. destruct sr; try discriminate E. injection E as <-.
      split; [exact T|]. split; [exact I|]. unfold phase in *. cbn [bbMain bbSearch bbList bbFile] in *. tauto.
  Qed.

  Lemma inserted_app : forall a b : list (bnb_label N), inserted (a ++ b) = inserted a ++ inserted b.
  Proof. induction a as [|l a IH]; intro b; [reflexivity|]. destruct l; cbn [app inserted]; rewrite IH; reflexivity. Qed.

  Lemma bnb_run_inv : forall ls done st st', binv done st -> bnb_run ls st = Some (Ok st') -> binv (done ++ inserted ls) st'.
  Proof.
    induction ls as [|l ls IH]; intros done st st' I E; cbn [bnb_run] in E.
    - injection E as <-. rewrite app_nil_r. exact I.
    - destruct (bnb_step l st) as [[st1| |]|] eqn:Es; try discriminate E.
      pose proof (bnb_step_inv _ _ _ _ I Es) as I1. specialize (IH _ _ _ I1 E).
      rewrite <- app_assoc, <- inserted_app in IH. exact IH.
  Qed.

  Lemma bnb_run_app : forall a b st st', bnb_run (N := N) a st = Some (Ok st') -> bnb_run (a ++ b) st = bnb_run b st'.
  Proof.
    induction a as [|l a IH]; intros b st st' E; cbn [bnb_run app] in *.
    - injection E as ->. reflexivity.
    - destruct (bnb_step l st) as [[st1| |]|]; try discriminate E. apply IH. exact E.
  Qed.

  (** ** it can always go on *)
  (** a save, even one that was overtaken, ends or panics *)
  Lemma save_ends : forall h s, exists k, match both (repeat LSave k) (h, s) with
    | Ok (_, SWalked _) => True | Panic => True | _ => False end.
  Proof.
    intros h s.
    assert (St : forall j d c e, length d - c <= j -> exists k, match both (repeat LSave k) (h, SStore d c e) with
      | Ok (_, SWalked _) => True | Panic => True | _ => False end).
    { induction j as [|j IH]; intros d c e Hj.
      - exists 1. rewrite (both_save N h _ 0). cbn [save_step]. rewrite setn_ge by lia. exact I.
      - destruct (Nat.ltb_spec c (length d)) as [Hc|Hc].
        + destruct (next_of (fst e) (lvItems h)) as [e'|] eqn:En.
          * destruct (IH (upd d c (Some (snd e))) (S c) e' ltac:(rewrite upd_length; lia)) as (k & Hk).
            exists (S (S k)). rewrite both_save. cbn [save_step]. rewrite setn_lt by exact Hc. cbn [bind].
            rewrite both_save. cbn [save_step]. rewrite En. cbn [bind loop_head]. exact Hk.
          * exists 2. rewrite (both_save N h _ 1). cbn [save_step]. rewrite setn_lt by exact Hc. cbn [bind].
            rewrite (both_save N h _ 0). cbn [save_step]. rewrite En. cbn [bind loop_head]. exact I.
        + exists 1. rewrite (both_save N h _ 0). cbn [save_step]. rewrite setn_ge by lia. exact I. }
    assert (Hd : forall d c e, exists k, match both (repeat LSave k) (h, loop_head d c e) with
      | Ok (_, SWalked _) => True | Panic => True | _ => False end).
    { intros d c [e|]; cbn [loop_head]; [apply (St (length d) d c e); lia|]. exists 0. exact I. }
    assert (Fr : forall d, exists k, match both (repeat LSave k) (h, SFront d) with
      | Ok (_, SWalked _) => True | Panic => True | _ => False end).
    { intro d. destruct (Hd d 0 (hd_error (lvItems h))) as (k & Hk). exists (S k). rewrite both_save. exact Hk. }
    destruct s as [|d|d c e|d c e|d].
    - destruct (Fr (repeat None (length (lvItems h)))) as (k & Hk). exists (S k). rewrite both_save. exact Hk.
    - apply Fr.
    - apply (St (length d) d c e). lia.
    - destruct (Hd d c (next_of (fst e) (lvItems h))) as (k & Hk). exists (S k). rewrite both_save. exact Hk.
    - exists 0. exact I.
  Qed.

  (** the same for the goroutine that saves *)
  Definition saving (wrap : saver N -> bnb_main N) (next : bnb_main N) : Prop :=
    (wrap = BTick /\ next = BLoop) \/ (wrap = BFinal /\ next = BWait).

  Lemma step_saving : forall wrap next s sr h f, saving wrap next ->
    bnb_step BSave (mkBnb (wrap s) sr h f) = Some (bnb_save (mkBnb (wrap s) sr h f) wrap next s).
  Proof. intros wrap next s sr h f [(-> & ->)|(-> & ->)]; destruct sr; reflexivity. Qed.

  Lemma write_ok : forall m (d : list (option (Node N))), exists c, write_file m d = Ok c.
  Proof.
    intros m d. unfold write_file. assert (E : exists r, encode_items d = Ok r).
    { induction d as [|[n|] d (r & IH)]; cbn [encode_items]; [eauto| |].
      - rewrite node_marshal. cbn [bind]. rewrite IH. cbn [bind]. eauto.
      - rewrite IH. cbn [bind]. eauto. }
    destruct E as (r & ->). cbn [bind]. eauto.
  Qed.

  Lemma save_run : forall k wrap next s sr h f, saving wrap next ->
    match both (repeat LSave k) (h, s) with
    | Ok (_, SWalked _) => exists j f', bnb_run (repeat BSave j) (mkBnb (wrap s) sr h f) = Some (Ok (mkBnb next sr h (Some f')))
    | Panic => exists j, bnb_run (repeat BSave j) (mkBnb (wrap s) sr h f) = Some Panic
    | _ => True
    end.
  Proof.
    assert (W : forall wrap next d sr h f, saving wrap next ->
      exists f', bnb_run (repeat BSave 1) (mkBnb (wrap (SWalked d)) sr h f) = Some (Ok (mkBnb next sr h (Some f')))).
    { intros wrap next d sr h f Hw. cbn [repeat bnb_run]. rewrite (step_saving wrap next) by exact Hw.
      unfold bnb_save. cbn [bbList bbSearch]. destruct (write_ok (lvMax h) d) as (c & ->). cbn [bind]. eauto. }
    induction k as [|k IH]; intros wrap next s sr h f Hw.
    - cbn [repeat]. change (both [] (h, s)) with (Ok (h, s)). destruct s; try exact I.
      destruct (W wrap next data sr h f Hw) as (f' & E). exists 1, f'. exact E.
    - rewrite both_save. destruct s as [|d|d c e|d c e|d].
      + cbn [save_step bind]. specialize (IH wrap next (SFront (repeat None (length (lvItems h)))) sr h f Hw).
        destruct (both (repeat LSave k) _) as [[h' [| | | |]]| |]; auto.
        * destruct IH as (j & f' & E). exists (S j), f'. cbn [repeat bnb_run]. rewrite (step_saving wrap next) by exact Hw. exact E.
        * destruct IH as (j & E). exists (S j). cbn [repeat bnb_run]. rewrite (step_saving wrap next) by exact Hw. exact E.
      + cbn [save_step bind]. specialize (IH wrap next (loop_head d 0 (hd_error (lvItems h))) sr h f Hw).
        destruct (both (repeat LSave k) _) as [[h' [| | | |]]| |]; auto.
        * destruct IH as (j & f' & E). exists (S j), f'. cbn [repeat bnb_run]. rewrite (step_saving wrap next) by exact Hw. exact E.
        * destruct IH as (j & E). exists (S j). cbn [repeat bnb_run]. rewrite (step_saving wrap next) by exact Hw. exact E.
      + cbn [save_step]. destruct (setn d c (Some (snd e))) as [d'| |] eqn:Ed; cbn [bind].
        * specialize (IH wrap next (SNext d' (S c) e) sr h f Hw).
          destruct (both (repeat LSave k) _) as [[h' [| | | |]]| |]; auto.
          -- destruct IH as (j & f' & E). exists (S j), f'. cbn [repeat bnb_run]. rewrite (step_saving wrap next) by exact Hw.
             unfold bnb_save. cbn [save_step bbList bbSearch bbFile]. rewrite Ed. exact E.
          -- destruct IH as (j & E). exists (S j). cbn [repeat bnb_run]. rewrite (step_saving wrap next) by exact Hw.
             unfold bnb_save. cbn [save_step bbList bbSearch bbFile]. rewrite Ed. exact E.
        * exists 1. cbn [repeat bnb_run]. rewrite (step_saving wrap next) by exact Hw.
          unfold bnb_save. cbn [save_step bbList]. rewrite Ed. reflexivity.
        * exact I.
      + cbn [save_step bind]. specialize (IH wrap next (loop_head d c (next_of (fst e) (lvItems h))) sr h f Hw).
        destruct (both (repeat LSave k) _) as [[h' [| | | |]]| |]; auto.
        * destruct IH as (j & f' & E). exists (S j), f'. cbn [repeat bnb_run]. rewrite (step_saving wrap next) by exact Hw. exact E.
        * destruct IH as (j & E). exists (S j). cbn [repeat bnb_run]. rewrite (step_saving wrap next) by exact Hw. exact E.
      + cbn [save_step bind]. rewrite walked_stays. destruct (W wrap next d sr h f Hw) as (f' & E). exists 1, f'. exact E.
  Qed.

  (** a save that is not disturbed succeeds *)
  Lemma final_save : forall s sr h f, tame h -> walking h s ->
    exists j f', bnb_run (repeat BSave j) (mkBnb (BFinal s) sr h f) = Some (Ok (mkBnb BWait sr h (Some f'))).
  Proof.
    intros s sr h f T (k & W). pose proof (walk_alone h (proj1 T)) as A. set (K := 2 + 2 * length (lvItems h)) in *.
    assert (R : exists d, both (repeat LSave K) (h, s) = Ok (h, SWalked d)).
    { assert (B : both (repeat LSave (k + K)) (h, SBegin) = Ok (h, SWalked (map Some (map snd (lvItems h))))).
      { rewrite Nat.add_comm, (both_save_app K k h SBegin _ A). apply walked_stays. }
      rewrite (both_save_app k K h SBegin s W) in B. eauto. }
    destruct R as (d & R). pose proof (save_run K BFinal BWait s sr h f (or_intror (conj eq_refl eq_refl))) as H.
    rewrite R in H. exact H.
  Qed.

  Lemma from_final : forall s sr h f, tame h -> walking h s -> sr = GDone \/ sr = GEnd ->
    exists ls st', forallb quiet ls = true /\ bnb_run ls (mkBnb (BFinal s) sr h f) = Some (Ok st') /\ bbMain st' = BEnd.
  Proof.
    intros s sr h f T W Hsr. destruct (final_save s sr h f T W) as (j & f' & E).
    assert (Q : forallb (quiet (N := N)) (repeat BSave j) = true) by (clear; induction j as [|j IH]; [reflexivity|exact IH]).
    destruct Hsr as [->| ->].
    - exists (repeat BSave j ++ [BDone; BExit]), (mkBnb BEnd GEnd h (Some f')).
      split; [rewrite forallb_app, Q; reflexivity|]. split; [|reflexivity]. rewrite (bnb_run_app _ _ _ _ E). reflexivity.
    - exists (repeat BSave j ++ [BExit]), (mkBnb BEnd GEnd h (Some f')).
      split; [rewrite forallb_app, Q; reflexivity|]. split; [|reflexivity]. rewrite (bnb_run_app _ _ _ _ E). reflexivity.
  Qed.

  Lemma from_loop : forall sr h f, tame h -> sr = GRun \/ sr = GSend ->
    exists ls st', forallb quiet ls = true /\ bnb_run ls (mkBnb BLoop sr h f) = Some (Ok st') /\ bbMain st' = BEnd.
  Proof.
    intros sr h f T Hsr. destruct (from_final SBegin GDone h f T (walking_begin h) (or_introl eq_refl)) as (ls & st' & Q & E & M).
    destruct Hsr as [->| ->].
    - exists (BReturn :: BMeet :: ls), st'. split; [exact Q|]. split; [exact E|exact M].
    - exists (BMeet :: ls), st'. split; [exact Q|]. split; [exact E|exact M].
  Qed.

  Lemma goes_on : forall done st, binv done st ->
    exists ls, forallb quiet ls = true /\
      ((exists st', bnb_run ls st = Some (Ok st') /\ bbMain st' = BEnd) \/
       (bnb_run ls st = Some Panic /\ exists s, bbMain st = BTick s)).
  Proof.
    intros done [mn sr h f] (T & _ & P). unfold phase in P. cbn [bbMain bbSearch bbList bbFile] in P, T. destruct mn as [|s|s| |].
    - destruct (from_loop sr h f T P) as (ls & st' & Q & E). exists ls. split; [exact Q|]. left. exists st'. exact E.
    - destruct (save_ends h s) as (k & Hk). pose proof (save_run k BTick BLoop s sr h f (or_introl (conj eq_refl eq_refl))) as H.
      destruct (both (repeat LSave k) (h, s)) as [[h' [| | | |d]]| |]; try contradiction.
      + destruct H as (j & f' & E). destruct (from_loop sr h (Some f') T P) as (ls & st' & Q & E2 & M).
        exists (repeat BSave j ++ ls). split.
        { rewrite forallb_app, Q. assert (Q' : forallb (quiet (N := N)) (repeat BSave j) = true) by (clear; induction j as [|j IH]; [reflexivity|exact IH]). rewrite Q'. reflexivity. }
        left. exists st'. split; [|exact M]. rewrite (bnb_run_app _ _ _ _ E). exact E2.
      + destruct H as (j & E). exists (repeat BSave j). split; [clear; induction j as [|j IH]; [reflexivity|exact IH]|]. right. split; [exact E|]. exists s. reflexivity.
    - destruct (from_final s sr h f T (proj2 P) (proj1 P)) as (ls & st' & Q & E). exists ls. split; [exact Q|]. left. exists st'. exact E.
    - destruct P as ([->| ->] & _).
      + exists [BDone; BExit]. split; [reflexivity|]. left. eexists. split; reflexivity.
      + exists [BExit]. split; [reflexivity|]. left. eexists. split; reflexivity.
    - exists []. split; [reflexivity|]. left. eexists. split; reflexivity.
  Qed.
End Bnb.

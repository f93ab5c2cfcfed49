(** The RWMutex protocol of SearchProgress: invariant and its preservation. *)
From Verif Require Import Base Model_Progress Spec_Progress.

Definition count {A} (f : A -> bool) (l : list A) : nat := length (filter f l).

Lemma count_upd : forall A (f : A -> bool) (l : list A) t a b,
  nth_error l t = Some a ->
  count f (upd l t b) + (if f a then 1 else 0) = count f l + (if f b then 1 else 0).
Proof.
  unfold count.
  induction l as [|x l IH]; intros [|t] a b H; simpl in *; try discriminate.
  - injection H as ->. destruct (f a), (f b); simpl; lia.
  - specialize (IH t a b H). destruct (f x); simpl; lia.
Qed.

Lemma count_zero : forall A (f : A -> bool) (l : list A) t a,
  count f l = 0 -> nth_error l t = Some a -> f a = false.
Proof.
  intros A f l t a H E. pose proof (count_upd A f l t a a E) as P.
  destruct (f a) eqn:Ef; auto. exfalso.
  assert (In a (filter f l)) by (apply filter_In; split; auto; eapply nth_error_In; eauto).
  unfold count in H. destruct (filter f l); simpl in *; [contradiction|discriminate].
Qed.

Lemma count_unique : forall A (f : A -> bool) (l : list A) t a s b c,
  count f l = 1 -> nth_error l t = Some a -> f a = true -> f c = false ->
  s <> t -> nth_error l s = Some b -> f b = false.
Proof.
  intros A f l t a s b c H Et Fa Fc Hne Es.
  pose proof (count_upd A f l t a c Et) as P. rewrite Fa, Fc in P.
  apply (count_zero A f (upd l t c) s); [lia|].
  rewrite nth_error_upd. destruct (Nat.eqb_spec s t) as [->|]; [congruence|].
  exact Es.
Qed.

Section P.
  Context {N : Type}.
  Implicit Types (V f : Fields N) (pc : PC N).

  Definition inW pc : bool :=
    match pc with PSet0 _ | PSet1 _ | PSet2 _ | PSet3 _ => true | _ => false end.
  Definition inR pc : bool :=
    match pc with PGet0 | PGet1 _ | PGet2 _ _ | PGet3 _ _ _ => true | _ => false end.

  Definition pc_ok V f pc : Prop :=
    match pc with
    | PSet0 _ => f = V
    | PSet1 v => f = mkFields (fBest v) (fExplored V) (fPruned V)
    | PSet2 v => f = mkFields (fBest v) (fExplored v) (fPruned V)
    | PSet3 v => f = v
    | PGet1 b => b = fBest V
    | PGet2 b e => b = fBest V /\ e = fExplored V
    | PGet3 b e p => mkFields b e p = V
    | _ => True
    end.

  Definition phase_of V pc : phase N :=
    match pc with
    | PIdle => PhOut
    | PSetWait v | PSet0 v | PSet1 v | PSet2 v | PSet3 v => PhCalled (OSet v)
    | PSetDone v => PhEffect (OSet v) RUnit
    | PGetWait => PhCalled OGet
    | PGet0 | PGet1 _ | PGet2 _ _ | PGet3 _ _ _ => PhEffect OGet (RVals V)
    | PGetDone v => PhEffect OGet (RVals v)
    end.

  Record Inv (z V : Fields N) (st : State N) (a : list (aevent N)) : Prop := {
    i_w : count inW (stThreads st) = if stWriter st then 1 else 0;
    i_r : count inR (stThreads st) = stReaders st;
    i_wr : stWriter st = true -> stReaders st = 0;
    i_seq : sequential z (effects a) V;
    i_f : stWriter st = false -> stFields st = V;
    i_th : forall t pc, nth_error (stThreads st) t = Some pc ->
      pc_ok V (stFields st) pc /\ phases t PhOut a (phase_of V pc);
    i_out : forall t, nth_error (stThreads st) t = None -> phases t PhOut a PhOut }.

  Lemma phases_app : forall t (p : phase N) l q, phases t p l q ->
    forall l' q', phases t q l' q' -> phases t p (l ++ l') q'.
  Proof.
    intros t p l q H. induction H; intros l' q' H'; simpl; auto;
      constructor; auto.
  Qed.

  Lemma sequential_app : forall c l m, @sequential N c l m ->
    forall l' f', sequential m l' f' -> sequential c (l ++ l') f'.
  Proof.
    intros c l m H. induction H; intros l' f' H'; simpl; auto; constructor; auto.
  Qed.

  Lemma effects_app : forall (a b : list (aevent N)), effects (a ++ b) = effects a ++ effects b.
  Proof.
    induction a as [|[e|t o r] a IH]; intros b; simpl; auto. rewrite IH; auto.
  Qed.

  Lemma erase_app : forall (a b : list (aevent N)), erase (a ++ b) = erase a ++ erase b.
  Proof.
    induction a as [|[e|t o r] a IH]; intros b; simpl; auto. rewrite IH; auto.
  Qed.

  Definition about (t : nat) (e : aevent N) : Prop :=
    match e with AObs (EInv s _) | AObs (ERet s _ _) | AEff s _ _ => s = t end.

  Lemma phases_others : forall t s ae (p : phase N),
    s <> t -> Forall (about t) ae -> phases s p ae p.
  Proof.
    intros t s ae p Hne H. induction H as [|e l He Hl IH]; [constructor|].
    apply ph_other; auto. destruct e as [[u o|u o r]|u o r]; simpl in *; subst; auto.
  Qed.

  (** thread [t] moves from [pc] to [pc'] *)
  Lemma move : forall z V f w r ths a t pc V' f' w' r' pc' ae,
    Inv z V (mkState f w r ths) a ->
    nth_error ths t = Some pc ->
    Forall (about t) ae ->
    sequential V (effects ae) V' ->
    phases t (phase_of V pc) ae (phase_of V' pc') ->
    pc_ok V' f' pc' ->
    (w' = false -> f' = V') ->
    (w' = true -> r' = 0) ->
    (if w then 1 else 0) + (if inW pc' then 1 else 0)
      = (if w' then 1 else 0) + (if inW pc then 1 else 0) ->
    r + (if inR pc' then 1 else 0) = r' + (if inR pc then 1 else 0) ->
    (forall s p, s <> t -> nth_error ths s = Some p -> pc_ok V f p ->
       pc_ok V' f' p /\ phase_of V' p = phase_of V p) ->
    Inv z V' (mkState f' w' r' (upd ths t pc')) (a ++ ae).
  Proof.
    intros z V f w r ths a t pc V' f' w' r' pc' ae [Iw Ir Iwr Is If It Io]
      Ht Hab Hs Hp Hok Hf Hwr Hcw Hcr Hoth; simpl in *.
    pose proof (count_upd _ inW ths t pc pc' Ht) as Cw.
    pose proof (count_upd _ inR ths t pc pc' Ht) as Cr.
    assert (Lt : t < length ths) by (apply nth_error_Some; congruence).
    constructor; simpl; auto.
    - lia.
    - lia.
    - rewrite effects_app. eapply sequential_app; eauto.
    - intros s p E. rewrite nth_error_upd in E.
      destruct (Nat.eqb_spec s t) as [->|Hne].
      + assert (p = pc') by (revert E; destruct (t <? length ths) eqn:X;
          [intros; congruence | apply Nat.ltb_ge in X; lia]). subst p.
        split; auto. eapply phases_app; [apply (It t pc Ht)|exact Hp].
      + destruct (It s p E) as [O1 P1]. destruct (Hoth s p Hne E O1) as [O2 P2].
        split; auto. rewrite P2. eapply phases_app; eauto. eapply phases_others; eauto.
    - intros s E. assert (s <> t).
      { intros ->. apply nth_error_None in E. rewrite upd_length in E. lia. }
      assert (nth_error ths s = None).
      { apply nth_error_None. apply nth_error_None in E. rewrite upd_length in E. lia. }
      eapply phases_app; [apply Io; auto|]. eapply phases_others; eauto.
  Qed.

  Lemma pc_ok_free : forall V V' f' p, inW p = false -> inR p = false ->
    pc_ok V' f' p /\ phase_of V' p = phase_of V p.
  Proof. intros V V' f' []; simpl; intros; try discriminate; auto. Qed.

  Lemma pc_ok_f : forall V f f' p, inW p = false -> pc_ok V f p -> pc_ok V f' p.
  Proof. intros V f f' []; simpl; intros; try discriminate; auto. Qed.

  Lemma step_inv : forall z V st a c st' e,
    Inv z V st a -> step st c = Some (st', e) ->
    exists V' ae, erase ae = e /\ Inv z V' st' (a ++ ae).
  Proof.
    intros z V [f w r ths] a c st' e I E. destruct c as [t o|t]; simpl in E.
    - destruct (nth_error ths t) as [[]|] eqn:Ht; try discriminate.
      injection E as <- <-. exists V, [AObs (EInv t o)]. split; auto.
      pose proof I as [Iw Ir Iwr Is If It Io]; simpl in *.
      eapply move; eauto.
      + constructor; simpl; auto.
      + simpl. constructor.
      + simpl. destruct o; simpl; repeat constructor.
      + destruct o; exact Logic.I.
      + destruct o; simpl; lia.
      + destruct o; simpl; lia.
    - destruct (nth_error ths t) as [pc|] eqn:Ht; [|discriminate].
      pose proof I as [Iw Ir Iwr Is If It Io]; simpl in *.
      destruct (It t pc Ht) as [Hok Hph].
      assert (W : inW pc = true -> w = true /\ r = 0 /\
                  forall s p, s <> t -> nth_error ths s = Some p -> inW p = false /\ inR p = false).
      { intros Hw. destruct w.
        - rewrite (Iwr eq_refl) in *. split; auto. split; auto. intros s p Hne Es. split.
          + apply (count_unique _ inW ths t pc s p PIdle); auto.
          + apply (count_zero _ inR ths s p); auto.
        - rewrite (count_zero _ inW ths t pc Iw Ht) in Hw. discriminate. }
      assert (R : inR pc = true -> w = false).
      { intros Hr. destruct w; auto. rewrite (Iwr eq_refl) in Ir.
        rewrite (count_zero _ inR ths t pc Ir Ht) in Hr. discriminate. }
      destruct pc as [|v|v|v|v|v|v| | |b|b n|b n p|v]; simpl in *; try discriminate.
      + destruct w; [discriminate|]. destruct (Nat.eqb_spec r 0) as [->|]; [|discriminate].
        injection E as <- <-. exists V, []. split; auto.
        eapply move; eauto; simpl; auto; try constructor; intros; discriminate.
      + destruct (W eq_refl) as (-> & -> & Wo).
        injection E as <- <-. exists V, []. split; auto.
        eapply move; eauto; simpl; auto; try constructor; try (intros; discriminate).
        * subst f. reflexivity.
        * eapply pc_ok_f; [apply (Wo s p)|]; eauto.
        * reflexivity.
      + destruct (W eq_refl) as (-> & -> & Wo).
        injection E as <- <-. exists V, []. split; auto.
        eapply move; eauto; simpl; auto; try constructor; try (intros; discriminate).
        * subst f. reflexivity.
        * eapply pc_ok_f; [apply (Wo s p)|]; eauto.
        * reflexivity.
      + destruct (W eq_refl) as (-> & -> & Wo).
        injection E as <- <-. exists V, []. split; auto.
        eapply move; eauto; simpl; auto; try constructor; try (intros; discriminate).
        * subst f. destruct v; reflexivity.
        * eapply pc_ok_f; [apply (Wo s p)|]; eauto.
        * reflexivity.
      + destruct (W eq_refl) as (-> & -> & Wo).
        injection E as <- <-. exists v, [AEff t (OSet v) RUnit]. split; auto.
        eapply move; eauto; simpl; auto.
        * constructor; simpl; auto.
        * repeat constructor.
        * repeat constructor.
        * intros s p Hne Es _. destruct (Wo s p Hne Es). apply pc_ok_free; auto.
      + injection E as <- <-. exists V, [AObs (ERet t (OSet v) RUnit)]. split; auto.
        eapply move; eauto; simpl; auto; repeat constructor.
        all: simpl; auto.
      + destruct w; [discriminate|]. injection E as <- <-.
        exists V, [AEff t OGet (RVals V)]. split; auto.
        eapply move; eauto; simpl; auto; try (intros; discriminate); try lia.
        * constructor; simpl; auto.
        * repeat constructor.
        * repeat constructor.
      + rewrite (R eq_refl) in *. injection E as <- <-. exists V, []. split; auto.
        eapply move; eauto; simpl; auto; try constructor. rewrite If; auto.
      + rewrite (R eq_refl) in *. injection E as <- <-. exists V, []. split; auto.
        eapply move; eauto; simpl; auto; try constructor; auto. rewrite If; auto.
      + rewrite (R eq_refl) in *. injection E as <- <-. exists V, []. split; auto.
        eapply move; eauto; simpl; auto; try constructor; auto. rewrite If by auto.
        destruct Hok as [-> ->]. destruct V; reflexivity.
      + rewrite (R eq_refl) in *. injection E as <- <-. exists V, []. split; auto.
        pose proof (count_upd _ inR ths t (PGet3 b n p) PIdle Ht) as C. simpl in C.
        eapply move; eauto; simpl; auto; try constructor; try lia.
        subst V. constructor.
      + injection E as <- <-. exists V, [AObs (ERet t OGet (RVals v))]. split; auto.
        eapply move; eauto; simpl; auto; repeat constructor.
        all: simpl; auto.
  Qed.

  Lemma exec_inv : forall cs z V st a st' h,
    Inv z V st a -> exec st cs = Some (st', h) ->
    exists V' ae, erase ae = h /\ Inv z V' st' (a ++ ae).
  Proof.
    induction cs as [|c cs IH]; intros z V st a st' h I E; simpl in E.
    - injection E as <- <-. exists V, []. rewrite app_nil_r. auto.
    - destruct (step st c) as [[st1 e1]|] eqn:E1; [|discriminate].
      destruct (exec st1 cs) as [[st2 e2]|] eqn:E2; [|discriminate].
      injection E as <- <-.
      destruct (step_inv _ _ _ _ _ _ _ I E1) as (V1 & a1 & X1 & I1).
      destruct (IH _ _ _ _ _ _ I1 E2) as (V2 & a2 & X2 & I2).
      exists V2, (a1 ++ a2). rewrite erase_app, X1, X2, app_assoc. auto.
  Qed.

  Lemma count_repeat : forall (g : PC N -> bool) n, g PIdle = false -> count g (repeat PIdle n) = 0.
  Proof.
    intros g n H. unfold count. induction n as [|n IH]; simpl; auto. rewrite H. auto.
  Qed.

  Lemma initial_inv : forall z n, Inv z z (initial z n) [].
  Proof.
    intros z n. constructor; simpl; auto; try discriminate.
    - apply count_repeat; auto.
    - apply count_repeat; auto.
    - constructor.
    - intros t pc E. apply nth_error_In in E. apply repeat_spec in E. subst pc.
      split; [exact Logic.I|constructor].
    - intros. constructor.
  Qed.

  Lemma count_pos : forall A (g : A -> bool) l, 0 < count g l ->
    exists t a, nth_error l t = Some a /\ g a = true.
  Proof.
    intros A g l H. unfold count in H. destruct (filter g l) as [|x m] eqn:E; simpl in H; [lia|].
    assert (I : In x (filter g l)) by (rewrite E; simpl; auto).
    apply filter_In in I. destruct I as [I G]. apply In_nth_error in I.
    destruct I as [t T]. eauto.
  Qed.

  (** some goroutine can always go on *)
  Lemma progress_inv : forall z V st a t pc, Inv z V st a ->
    nth_error (stThreads st) t = Some pc -> pc <> PIdle ->
    exists s, step st (CRun s) <> None.
  Proof.
    intros z V [f w r ths] a t pc [Iw Ir Iwr Is If It Io] Ht Hne; simpl in *.
    destruct w.
    - destruct (count_pos _ inW ths ltac:(lia)) as (s & p & Es & Ep).
      exists s. rewrite Es. destruct p; simpl in *; discriminate.
    - destruct r as [|r].
      + exists t. rewrite Ht. destruct pc; simpl in *; congruence.
      + destruct (count_pos _ inR ths ltac:(lia)) as (s & p & Es & Ep).
        exists s. rewrite Es. destruct p; simpl in *; discriminate.
  Qed.
End P.

(** C56: SearchProgress never shows a torn state. *)
From Verif Require Import Base Model_Progress Spec_Progress Proof_Progress.

(** Every interleaving of any number of Set and Get calls by any number of
    goroutines is linearizable: each call takes effect at one instant between
    its call and its return, a Set changes all three values at once and a Get
    returns the three values of the last Set before it. *)
Theorem C56_linearizable : forall (N : Type) (z : Fields N) n cs st h,
  exec (initial z n) cs = Some (st, h) -> linearizable z h.
Proof.
  intros N z n cs st h E.
  destruct (exec_inv cs z z _ [] st h (initial_inv z n) E) as (V & a & X & I).
  exists a. split; [exact X|]. destruct I as [Iw Ir Iwr Is If It Io]. simpl in *.
  split; [|eauto]. intros t. destruct (nth_error (stThreads st) t) as [pc|] eqn:T.
  - exists (phase_of V pc). apply (It t pc T).
  - exists PhOut. auto.
Qed.
Print Assumptions C56_linearizable.

(** ** What linearizability means for the values a Get shows *)

Lemma erase_split : forall N (a : list (aevent N)) h1 e h2, erase a = h1 ++ e :: h2 ->
  exists a1 a2, a = a1 ++ AObs e :: a2 /\ erase a1 = h1.
Proof.
  induction a as [|[x|t o r] a IH]; intros h1 e h2 H; simpl in H.
  - destruct h1; discriminate.
  - destruct h1 as [|y h1]; simpl in H; injection H as -> H.
    + exists [], a. auto.
    + destruct (IH _ _ _ H) as (a1 & a2 & -> & <-). exists (AObs y :: a1), a2. auto.
  - destruct (IH _ _ _ H) as (a1 & a2 & -> & <-). exists (AEff t o r :: a1), a2. auto.
Qed.

Lemma phases_split : forall N t (a1 : list (aevent N)) p a2 q, phases t p (a1 ++ a2) q ->
  exists m, phases t p a1 m /\ phases t m a2 q.
Proof.
  intros N t a1. induction a1 as [|e a1 IH]; intros p a2 q H; simpl in H.
  - exists p. split; [constructor|auto].
  - inversion H; subst; destruct (IH _ _ _ ltac:(eassumption)) as (m & A & B);
      exists m; (split; [constructor|]); auto.
Qed.

(** [In]-style facts about one goroutine's phases *)
Lemma effect_marked : forall N t (a : list (aevent N)) p o r,
  phases t p a (PhEffect o r) -> p = PhEffect o r \/ In (AEff t o r) a.
Proof.
  intros N t a p o r H. remember (PhEffect o r) as q eqn:Q.
  induction H; subst; simpl; auto.
  - destruct (IHphases eq_refl) as [X|X]; [discriminate|auto].
  - destruct (IHphases eq_refl) as [X|X]; [injection X as -> ->; auto|auto].
  - destruct (IHphases eq_refl) as [X|X]; [discriminate|auto].
  - destruct (IHphases eq_refl) as [X|X]; auto.
Qed.

Lemma call_marked : forall N t (a : list (aevent N)) p q, phases t p a q ->
  forall o r, In (AEff t o r) a -> p = PhCalled o \/ In (AObs (EInv t o)) a.
Proof.
  intros N t a p q H. induction H; intros o' r' I; simpl in I |- *.
  - contradiction.
  - destruct I as [I|I]; [discriminate|].
    destruct (IHphases _ _ I) as [X|X]; [injection X as ->; auto|auto].
  - destruct I as [I|I]; [injection I as -> ->; auto|].
    destruct (IHphases _ _ I) as [X|X]; [discriminate|auto].
  - destruct I as [I|I]; [discriminate|].
    destruct (IHphases _ _ I) as [X|X]; [discriminate|auto].
  - destruct I as [I|I]; [subst e; congruence|].
    destruct (IHphases _ _ I) as [X|X]; auto.
Qed.

Lemma effects_in : forall N (a : list (aevent N)) o r, In (o, r) (effects a) ->
  exists t, In (AEff t o r) a.
Proof.
  induction a as [|[e|t o' r'] a IH]; intros o r H; simpl in *.
  - contradiction.
  - destruct (IH _ _ H) as [t T]. eauto.
  - destruct H as [H|H]; [injection H as -> ->; eauto|].
    destruct (IH _ _ H) as [s T]. eauto.
Qed.
Lemma in_effects : forall N (a : list (aevent N)) t o r, In (AEff t o r) a ->
  In (o, r) (effects a).
Proof.
  induction a as [|[e|t' o' r'] a IH]; intros t o r H; simpl in *.
  - contradiction.
  - destruct H as [H|H]; [discriminate|eauto].
  - destruct H as [H|H]; [injection H as -> -> ->; auto|eauto].
Qed.
Lemma erase_in : forall N (a : list (aevent N)) e, In (AObs e) a -> In e (erase a).
Proof.
  induction a as [|[e'|t' o' r'] a IH]; intros e H; simpl in *.
  - contradiction.
  - destruct H as [H|H]; [injection H as ->; auto|auto].
  - destruct H as [H|H]; [discriminate|auto].
Qed.
Lemma sequential_split : forall N l c l' (m : Fields N), sequential c (l ++ l') m ->
  exists k, sequential c l k /\ sequential k l' m.
Proof.
  intros N l. induction l as [|x l IH]; intros c l' m H; simpl in H.
  - exists c. split; [constructor|auto].
  - inversion H; subst; destruct (IH _ _ _ ltac:(eassumption)) as (k & A & B);
      exists k; (split; [constructor|]); auto.
Qed.
Lemma sequential_get : forall N c l (m : Fields N), sequential c l m ->
  forall v, In (OGet, RVals v) l -> v = c \/ In (OSet v, RUnit) l.
Proof.
  intros N c l m H. induction H; intros v' I; simpl in I |- *.
  - contradiction.
  - destruct I as [I|I]; [discriminate|]. destruct (IHsequential _ I) as [->|X]; auto.
  - destruct I as [I|I]; [injection I as ->; auto|].
    destruct (IHsequential _ I) as [->|X]; auto.
Qed.

Lemma linearizable_values : forall N (z : Fields N) h, linearizable z h ->
  forall h1 t v h2, h = h1 ++ ERet t OGet (RVals v) :: h2 ->
  v = z \/ exists s, In (EInv s (OSet v)) h1.
Proof.
  intros N z h (a & X & P & fin & S) h1 t v h2 ->.
  destruct (erase_split _ _ _ _ _ X) as (a1 & a2 & -> & <-).
  destruct (P t) as [q Pt]. apply phases_split in Pt. destruct Pt as (m & P1 & P2).
  assert (m = PhEffect OGet (RVals v)) by (inversion P2; subst; auto; simpl in *; congruence).
  subst m. apply effect_marked in P1. destruct P1 as [P1|P1]; [discriminate|].
  apply in_effects in P1. rewrite effects_app in S.
  apply sequential_split in S. destruct S as (k & S & _).
  destruct (sequential_get _ _ _ _ S v P1) as [->|Q]; auto. right.
  apply effects_in in Q. destruct Q as [s Q]. exists s.
  destruct (P s) as [q' Ps]. apply phases_split in Ps. destruct Ps as (m & Ps & _).
  destruct (call_marked _ _ _ _ _ Ps _ _ Q) as [Y|Y]; [discriminate|].
  apply erase_in; auto.
Qed.

(** The three values a Get returns are the initial ones or the three arguments
    of one single Set call, issued before the Get returned. *)
Theorem C56_never_torn : forall (N : Type) (z : Fields N) n cs st h,
  exec (initial z n) cs = Some (st, h) ->
  forall h1 t v h2, h = h1 ++ ERet t OGet (RVals v) :: h2 ->
  v = z \/ exists s, In (EInv s (OSet v)) h1.
Proof.
  intros N z n cs st h E. apply linearizable_values. eapply C56_linearizable; eauto.
Qed.
Print Assumptions C56_never_torn.

(** The lock never wedges: as long as a call is in progress, some goroutine can
    execute its next statement. *)
Theorem C56_no_deadlock : forall (N : Type) (z : Fields N) n cs st h t pc,
  exec (initial z n) cs = Some (st, h) ->
  nth_error (stThreads st) t = Some pc -> pc <> PIdle ->
  exists s, step st (CRun s) <> None.
Proof.
  intros N z n cs st h t pc E.
  destruct (exec_inv cs z z _ [] st h (initial_inv z n) E) as (V & a & X & I).
  exact (progress_inv z V st _ t pc I).
Qed.
Print Assumptions C56_no_deadlock.

(** A run: two searchers and one reader; the reader asks for the read lock while
    goroutine 0 is between two of its assignments and must wait. *)
Definition C56_v (k : Z) : Fields Z := mkFields k k k.
Definition C56_schedule : list (choice Z) :=
  [ CCall 0 (OSet (C56_v 5)); CRun 0; CRun 0; CCall 2 OGet; CCall 1 (OSet (C56_v 7));
    CRun 0; CRun 0; CRun 0; CRun 2; CRun 2; CRun 2; CRun 2; CRun 2; CRun 1; CRun 0; CRun 2;
    CRun 1; CRun 1; CRun 1; CRun 1; CRun 1; CCall 2 OGet; CRun 2; CRun 2; CRun 2; CRun 2;
    CRun 2; CRun 2 ].
Example C56_example :
  option_map snd (exec (initial (C56_v 0) 3) C56_schedule)
  = Some [ EInv 0 (OSet (C56_v 5)); EInv 2 OGet; EInv 1 (OSet (C56_v 7));
           ERet 0 (OSet (C56_v 5)) RUnit; ERet 2 OGet (RVals (C56_v 5));
           ERet 1 (OSet (C56_v 7)) RUnit; EInv 2 OGet; ERet 2 OGet (RVals (C56_v 7)) ]
  (* the reader is blocked while goroutine 0 is writing *)
  /\ exec (initial (C56_v 0) 3) (firstn 4 C56_schedule ++ [CRun 2]) = None.
Proof. split; reflexivity. Qed.

(** The specification rejects a torn read. *)
Example C56_torn_rejected :
  ~ linearizable (C56_v 0)
      [ EInv 0 (OSet (C56_v 5)); EInv 1 OGet; ERet 1 OGet (RVals (mkFields 5%Z 0%Z 0%Z));
        ERet 0 (OSet (C56_v 5)) RUnit ].
Proof.
  intros H.
  destruct (linearizable_values _ _ _ H [EInv 0 (OSet (C56_v 5)); EInv 1 OGet] 1
    (mkFields 5%Z 0%Z 0%Z) [ERet 0 (OSet (C56_v 5)) RUnit] eq_refl) as [X|[s X]].
  - discriminate.
  - simpl in X. unfold C56_v in X. destruct X as [X|[X|X]]; try discriminate; auto.
Qed.

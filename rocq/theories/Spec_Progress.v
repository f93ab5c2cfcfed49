(** Linearizability of a register holding three values, stated on call/return
    histories only.  Nothing here mentions locks or the model's states. *)
From Verif Require Import Base Model_Progress.

Section Spec.
  Context {N : Type}.

  (** A history in which the instant at which each call takes effect is marked
      ([AEff]). *)
  Inductive aevent :=
  | AObs (e : event N)
  | AEff (t : nat) (o : op N) (r : ret N).

  (** forgetting the marks *)
  Fixpoint erase (l : list aevent) : list (event N) :=
    match l with
    | [] => []
    | AObs e :: l' => e :: erase l'
    | AEff _ _ _ :: l' => erase l'
    end.

  (** The marks alone, in order: the calls as if executed one at a time. *)
  Fixpoint effects (l : list aevent) : list (op N * ret N) :=
    match l with
    | [] => []
    | AObs _ :: l' => effects l'
    | AEff _ o r :: l' => (o, r) :: effects l'
    end.

  (** One-at-a-time behaviour: Set replaces all three values, Get returns the
      three current ones. *)
  Inductive sequential : Fields N -> list (op N * ret N) -> Fields N -> Prop :=
  | seq_nil : forall cur, sequential cur [] cur
  | seq_set : forall cur v l fin, sequential v l fin ->
      sequential cur ((OSet v, RUnit) :: l) fin
  | seq_get : forall cur l fin, sequential cur l fin ->
      sequential cur ((OGet, RVals cur) :: l) fin.

  (** What one goroutine does: call, take effect, return with the result the
      effect had, call again ... *)
  Inductive phase := PhOut | PhCalled (o : op N) | PhEffect (o : op N) (r : ret N).

  Inductive phases (t : nat) : phase -> list aevent -> phase -> Prop :=
  | ph_nil : forall p, phases t p [] p
  | ph_call : forall o l q, phases t (PhCalled o) l q ->
      phases t PhOut (AObs (EInv t o) :: l) q
  | ph_eff : forall o r l q, phases t (PhEffect o r) l q ->
      phases t (PhCalled o) (AEff t o r :: l) q
  | ph_ret : forall o r l q, phases t PhOut l q ->
      phases t (PhEffect o r) (AObs (ERet t o r) :: l) q
  | ph_other : forall e p l q,
      (match e with AObs (EInv s _) | AObs (ERet s _ _) | AEff s _ _ => s <> t end) ->
      phases t p l q -> phases t p (e :: l) q.

  (** The history [h] is explained by an instant of effect inside every call
      (pending calls may or may not have taken effect), such that the calls
      behave as if executed one at a time in that order, from [z]. *)
  Definition linearizable (z : Fields N) (h : list (event N)) : Prop :=
    exists a, erase a = h
      /\ (forall t, exists q, phases t PhOut a q)
      /\ exists fin, sequential z (effects a) fin.
End Spec.
Arguments aevent : clear implicits.
Arguments phase : clear implicits.

(** Basic vocabulary of the model: outcomes of Go code, slices, loops. *)
From Coq Require Export List Arith ZArith Bool Lia.
Export ListNotations.

(** Outcome of a Go call: a value, a run-time panic, or "the fuel given to
    the model's unbounded loop was not enough" (never a Go outcome). *)
Inductive res (A : Type) : Type :=
| Ok (a : A)
| Panic
| Fuel.
Arguments Ok {A} a.
Arguments Panic {A}.
Arguments Fuel {A}.

Definition bind {A B} (x : res A) (f : A -> res B) : res B :=
  match x with Ok a => f a | Panic => Panic | Fuel => Fuel end.

Declare Scope go_scope.
Delimit Scope go_scope with go.
Notation "'do' x <- e ; f" := (bind e (fun x => f))
  (at level 200, x pattern, e at level 100, f at level 200, right associativity) : go_scope.
Open Scope go_scope.

(** Slice read [l[i]] for a loop index. *)
Definition getn {A} (l : list A) (i : nat) : res A :=
  match nth_error l i with Some a => Ok a | None => Panic end.

(** Slice read [l[i]] for an arbitrary Go int: negative indices panic. *)
Definition getz {A} (l : list A) (i : Z) : res A :=
  if (i <? 0)%Z then Panic else getn l (Z.to_nat i).

(** List with position [i] replaced (unchanged when out of range). *)
Fixpoint upd {A} (l : list A) (i : nat) (a : A) : list A :=
  match l, i with
  | [], _ => []
  | _ :: t, O => a :: t
  | x :: t, S i' => x :: upd t i' a
  end.

(** Slice write [l[i] = a]: panics when out of range. *)
Definition setn {A} (l : list A) (i : nat) (a : A) : res (list A) :=
  if (i <? length l)%nat then Ok (upd l i a) else Panic.

Definition setz {A} (l : list A) (i : Z) (a : A) : res (list A) :=
  if (i <? 0)%Z then Panic else setn l (Z.to_nat i) a.

(** [for i := a; i < a+n; i++ { s = body i s }] *)
Fixpoint for_loop {S : Type} (a n : nat) (body : nat -> S -> res S) (s : S) : res S :=
  match n with
  | O => Ok s
  | Datatypes.S n' => do s' <- body a s; for_loop (Datatypes.S a) n' body s'
  end.

(** [for _, v := range l { s = body v s }] *)
Fixpoint for_each {A S : Type} (l : list A) (body : A -> S -> res S) (s : S) : res S :=
  match l with
  | [] => Ok s
  | v :: t => do s' <- body v s; for_each t body s'
  end.

(** [for i, v := range l { s = body i v s }], indices starting at [i]. *)
Fixpoint for_eachi {A S : Type} (i : nat) (l : list A) (body : nat -> A -> S -> res S) (s : S)
  : res S :=
  match l with
  | [] => Ok s
  | v :: t => do s' <- body i v s; for_eachi (Datatypes.S i) t body s'
  end.

(** ** Facts *)

Lemma bind_ok : forall A B (x : res A) (f : A -> res B) b,
  bind x f = Ok b -> exists a, x = Ok a /\ f a = Ok b.
Proof. intros A B [a| |] f b H; simpl in H; try discriminate. exists a; auto. Qed.

Lemma upd_length : forall A (l : list A) i a, length (upd l i a) = length l.
Proof.
  induction l as [|x l IH]; intros [|i] a; simpl; auto.
Qed.

Lemma nth_error_upd : forall A (l : list A) i a k,
  nth_error (upd l i a) k =
  if (k =? i)%nat then (if (i <? length l)%nat then Some a else None) else nth_error l k.
Proof.
  induction l as [|x l IH]; intros [|i] a [|k]; simpl; auto.
  - destruct (_ =? _)%nat; reflexivity.
  - rewrite IH. destruct (k =? i)%nat; auto.
Qed.

Lemma nth_upd : forall A (l : list A) i a k d,
  nth k (upd l i a) d =
  if (k =? i)%nat then (if (i <? length l)%nat then a else d) else nth k l d.
Proof.
  induction l as [|x l IH]; intros [|i] a [|k] d; simpl; auto.
  - destruct (_ =? _)%nat; reflexivity.
  - rewrite IH. destruct (k =? i)%nat; auto.
Qed.

Lemma getn_ok : forall A (l : list A) i a, getn l i = Ok a <-> nth_error l i = Some a.
Proof.
  intros A l i a; unfold getn; destruct (nth_error l i); split; intro H; congruence.
Qed.

Lemma getn_lt : forall A (l : list A) i d, (i < length l)%nat -> getn l i = Ok (nth i l d).
Proof.
  intros A l i d H; unfold getn.
  rewrite (nth_error_nth' l d H). reflexivity.
Qed.

Lemma getn_ge : forall A (l : list A) i, (length l <= i)%nat -> getn l i = Panic.
Proof.
  intros A l i H; unfold getn. apply nth_error_None in H. rewrite H; reflexivity.
Qed.

Lemma setn_lt : forall A (l : list A) i a, (i < length l)%nat -> setn l i a = Ok (upd l i a).
Proof. intros A l i a H; unfold setn. apply Nat.ltb_lt in H; rewrite H; reflexivity. Qed.

Lemma setn_ge : forall A (l : list A) i a, (length l <= i)%nat -> setn l i a = Panic.
Proof. intros A l i a H; unfold setn. apply Nat.ltb_ge in H; rewrite H; reflexivity. Qed.

Lemma getz_nat : forall A (l : list A) i, getz l (Z.of_nat i) = getn l i.
Proof.
  intros A l i; unfold getz.
  destruct (Z.ltb_spec (Z.of_nat i) 0); [lia|]. rewrite Nat2Z.id; reflexivity.
Qed.

Lemma setz_nat : forall A (l : list A) i a, setz l (Z.of_nat i) a = setn l i a.
Proof.
  intros A l i a; unfold setz.
  destruct (Z.ltb_spec (Z.of_nat i) 0); [lia|]. rewrite Nat2Z.id; reflexivity.
Qed.

Lemma getz_in : forall A (l : list A) i d, (0 <= i < Z.of_nat (length l))%Z ->
  getz l i = Ok (nth (Z.to_nat i) l d).
Proof.
  intros A l i d H; unfold getz.
  destruct (Z.ltb_spec i 0); [lia|]. apply getn_lt; lia.
Qed.

Lemma getz_out : forall A (l : list A) i, ~ (0 <= i < Z.of_nat (length l))%Z ->
  getz l i = Panic.
Proof.
  intros A l i H; unfold getz.
  destruct (Z.ltb_spec i 0); [reflexivity|]. apply getn_ge; lia.
Qed.

Lemma setz_in : forall A (l : list A) i a, (0 <= i < Z.of_nat (length l))%Z ->
  setz l i a = Ok (upd l (Z.to_nat i) a).
Proof.
  intros A l i a H; unfold setz.
  destruct (Z.ltb_spec i 0); [lia|]. apply setn_lt; lia.
Qed.

Lemma setz_out : forall A (l : list A) i a, ~ (0 <= i < Z.of_nat (length l))%Z ->
  setz l i a = Panic.
Proof.
  intros A l i a H; unfold setz.
  destruct (Z.ltb_spec i 0); [reflexivity|]. apply setn_ge; lia.
Qed.

(** Invariant rule for [for_loop]: the body never panics and keeps [P]. *)
Lemma for_loop_inv : forall S (P : nat -> S -> Prop) (body : nat -> S -> res S) n a s,
  P a s ->
  (forall i s, (a <= i < a + n)%nat -> P i s -> exists s', body i s = Ok s' /\ P (Datatypes.S i) s') ->
  exists s', for_loop a n body s = Ok s' /\ P (a + n)%nat s'.
Proof.
  induction n as [|n IH]; intros a s H0 Hstep; simpl.
  - exists s; split; auto. rewrite Nat.add_0_r; auto.
  - destruct (Hstep a s) as (s1 & H1 & P1); [lia|auto|].
    rewrite H1; simpl.
    destruct (IH (Datatypes.S a) s1 P1) as (s2 & H2 & P2).
    + intros i s' Hi Pi; apply Hstep; [lia|auto].
    + exists s2; split; auto. replace (a + Datatypes.S n)%nat with (Datatypes.S a + n)%nat by lia; auto.
Qed.

Lemma for_loop_add : forall S (body : nat -> S -> res S) n m a s,
  for_loop a (n + m) body s = bind (for_loop a n body s) (for_loop (a + n) m body).
Proof.
  induction n as [|n IH]; intros m a s; simpl.
  - rewrite Nat.add_0_r; reflexivity.
  - destruct (body a s); simpl; auto. rewrite IH.
    replace (Datatypes.S a + n)%nat with (a + Datatypes.S n)%nat by lia; reflexivity.
Qed.

Lemma for_loop_ext : forall S (b1 b2 : nat -> S -> res S) n a s,
  (forall i s, (a <= i < a + n)%nat -> b1 i s = b2 i s) ->
  for_loop a n b1 s = for_loop a n b2 s.
Proof.
  induction n as [|n IH]; intros a s H; simpl; auto.
  rewrite H by lia. destruct (b2 a s); simpl; auto. apply IH; intros; apply H; lia.
Qed.

Lemma for_each_inv : forall A S (P : list A -> S -> Prop) (body : A -> S -> res S) l s,
  P l s ->
  (forall v t s, P (v :: t) s -> exists s', body v s = Ok s' /\ P t s') ->
  exists s', for_each l body s = Ok s' /\ P [] s'.
Proof.
  induction l as [|v t IH]; intros s H0 Hstep; simpl.
  - exists s; auto.
  - destruct (Hstep v t s H0) as (s1 & H1 & P1). rewrite H1; simpl.
    apply IH; auto.
Qed.

Lemma for_each_app : forall A S (body : A -> S -> res S) l1 l2 s,
  for_each (l1 ++ l2) body s = bind (for_each l1 body s) (for_each l2 body).
Proof.
  induction l1 as [|v t IH]; intros l2 s; simpl; auto.
  destruct (body v s); simpl; auto.
Qed.

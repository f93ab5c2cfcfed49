(** Matrices and vectors as the gonum [mat] package presents them to
    /repo/featselect: dimensions plus bounds-checked element access. *)
From Verif Require Import Base Num.

Record Mat (N : Num) := mkMat {
  mrows : nat;
  mcols : nat;
  mval : nat -> nat -> N
}.
Arguments mkMat {N} _ _ _.
Arguments mrows {N} _. Arguments mcols {N} _. Arguments mval {N} _ _ _.

(** gonum mat.NewDense(r, c, nil) (v0.6): zero matrix; zero or negative
    dimensions panic. *)
Definition new_dense {N : Num} (r c : nat) : res (Mat N) :=
  if (r =? 0)%nat || (c =? 0)%nat then Panic else Ok (mkMat r c (fun _ _ => n0)).

Definition new_densez {N : Num} (r c : Z) : res (Mat N) :=
  if ((r <=? 0) || (c <=? 0))%Z then Panic
  else Ok (mkMat (Z.to_nat r) (Z.to_nat c) (fun _ _ => n0)).

(** gonum At(i,j): panics outside the dimensions. *)
Definition mat_at {N : Num} (m : Mat N) (i j : nat) : res N :=
  if (i <? mrows m)%nat && (j <? mcols m)%nat then Ok (mval m i j) else Panic.

Definition mat_atz {N : Num} (m : Mat N) (i j : Z) : res N :=
  if ((i <? 0) || (j <? 0))%Z then Panic else mat_at m (Z.to_nat i) (Z.to_nat j).

(** gonum Set(i,j,v): panics outside the dimensions. *)
Definition mat_upd {N : Num} (m : Mat N) (i j : nat) (v : N) : Mat N :=
  mkMat (mrows m) (mcols m)
    (fun a b => if (a =? i)%nat && (b =? j)%nat then v else mval m a b).

Definition mat_set {N : Num} (m : Mat N) (i j : nat) (v : N) : res (Mat N) :=
  if (i <? mrows m)%nat && (j <? mcols m)%nat then Ok (mat_upd m i j v) else Panic.

(** Two matrices have the same dimensions and elements. *)
Definition meq {N : Num} (a b : Mat N) : Prop :=
  mrows a = mrows b /\ mcols a = mcols b /\
  forall i j, (i < mrows a)%nat -> (j < mcols a)%nat -> mval a i j = mval b i j.

Lemma mat_at_in : forall (N : Num) (m : Mat N) i j,
  (i < mrows m)%nat -> (j < mcols m)%nat -> mat_at m i j = Ok (mval m i j).
Proof.
  intros N m i j Hi Hj. unfold mat_at.
  apply Nat.ltb_lt in Hi; apply Nat.ltb_lt in Hj. rewrite Hi, Hj. reflexivity.
Qed.

Lemma mat_at_out : forall (N : Num) (m : Mat N) i j,
  ~ ((i < mrows m)%nat /\ (j < mcols m)%nat) -> mat_at m i j = Panic.
Proof.
  intros N m i j H. unfold mat_at.
  destruct (Nat.ltb_spec i (mrows m)); destruct (Nat.ltb_spec j (mcols m)); simpl; auto.
  exfalso; apply H; auto.
Qed.

Lemma mat_set_in : forall (N : Num) (m : Mat N) i j v,
  (i < mrows m)%nat -> (j < mcols m)%nat -> mat_set m i j v = Ok (mat_upd m i j v).
Proof.
  intros N m i j v Hi Hj. unfold mat_set.
  apply Nat.ltb_lt in Hi; apply Nat.ltb_lt in Hj. rewrite Hi, Hj. reflexivity.
Qed.

Lemma mat_set_out : forall (N : Num) (m : Mat N) i j v,
  ~ ((i < mrows m)%nat /\ (j < mcols m)%nat) -> mat_set m i j v = Panic.
Proof.
  intros N m i j v H. unfold mat_set.
  destruct (Nat.ltb_spec i (mrows m)); destruct (Nat.ltb_spec j (mcols m)); simpl; auto.
  exfalso; apply H; auto.
Qed.

Lemma mat_upd_val : forall (N : Num) (m : Mat N) i j v a b,
  mval (mat_upd m i j v) a b = if (a =? i)%nat && (b =? j)%nat then v else mval m a b.
Proof. reflexivity. Qed.

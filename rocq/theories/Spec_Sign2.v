(** Vocabulary of C89 for LassoLars: no segment of the path is ambiguous. *)
From Coq Require Import Reals.
From Verif Require Import Base Num Model_Norm RSum Proof_XR Spec_Lars.
Open Scope R_scope.

(** On no segment can a feature that is not in the model, and was not in the
    model before, reach the penalty with both signs: if its correlation with the
    residual is t at penalty t and -t' at penalty t', both within 1e-6 of
    the range from 0 to the current penalty, then t = t'. *)
Definition clear_joins (m n : nat) (A : nat -> nat -> R) (y : nat -> R) (path : list (LassoLarsNode XR)) : Prop :=
  forall l1 nd l2, path = l1 ++ nd :: l2 ->
  forall E v l, lnSelection nd = map Z.of_nat E -> lnCoeff nd = fins v -> lnLamb nd = fin l ->
  forall f, (f < n)%nat -> ~ In f E -> (forall l0 p, l1 = l0 ++ [p] -> ~ In (Z.of_nat f) (lnSelection p)) ->
  forall s t t' b b', segment m n A y E s l (spread E v) ->
  - / 1000000 <= t <= l + / 1000000 -> - / 1000000 <= t' <= l + / 1000000 ->
  segment m n A y E s t b -> segment m n A y E s t' b' ->
  corr m n A y b f = t -> corr m n A y b' f = - t' -> t = t'.

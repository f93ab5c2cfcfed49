(** The data sets and targets exported by /repo/featselect/testfeatselect.

    math.Sin is a parameter (the only place where it is used); StringRep
    (mock_cohen_target.go:43-45), a text for printing, is left out. *)
From Coq Require Import String.
From Verif Require Import Base Num Mat Model_Cohen.
Open Scope list_scope.

Section Demo.
  Variable N : Num.
  (** math.Sin *)
  Variable nsin : N -> N.

  (** demoDataset.go:14-27 *)
  Definition GetExampleXY : res (Mat N * list N) :=
    do X <- new_dense 100 5;
    for_loop 0 100 (fun i s =>
      let '(X, y) := s in
      let x := (ndec 1 (-1) * nofnat i)%num in
      do X <- for_loop 0 5 (fun j X => mat_set X i j (npow x (Z.of_nat j))) X;
      do y <- setn y i (nofZ (-3) + ndec 2 (-1) * x * x + nofZ 3 * x)%num;
      Ok (X, y)) (X, repeat n0 100).

  (** demoDataset.go:31-45 *)
  Definition GetExampleAllModelsWrong : res (Mat N * list N) :=
    let n := 30%nat in
    do X <- new_dense n 7;
    for_loop 0 n (fun i s =>
      let '(X, y) := s in
      let x := (ndec 1 (-1) * nofnat i)%num in
      do X <- for_loop 0 7 (fun j X => mat_set X i j (npow x (Z.of_nat j))) X;
      do y <- setn y i (nofZ (-3) + ndec 2 (-1) * nsin x)%num;
      Ok (X, y)) (X, repeat n0 n).

  (** testomp.go:11-17 (OmpTest) *)
  Record OmpTest := mkOmpTest {
    otName : string; otTarget : list N; otX : Mat N; otOrder : list Z; otCoeff : list N }.

  (** testomp.go:21-41 *)
  Definition LinearCubic (x : list N) : res OmpTest :=
    do target <- for_loop 0 (length x) (fun i t => do v <- getn x i; setn t i (nofZ 1 + nofZ 10 * v)%num) (repeat n0 (length x));
    do X <- new_dense (length x) 4;
    do X <- for_loop 0 4 (fun col X =>
      for_loop 0 (length x) (fun i X => do v <- getn x i; mat_set X i col (npow v (Z.of_nat col))) X) X;
    Ok (mkOmpTest "LinearCubic" target X [1; 0]%Z [nofZ 1; nofZ 10]).

  (** testomp.go:44-63 *)
  Definition Exponentials (x : list N) : res OmpTest :=
    do target <- for_loop 0 (length x) (fun i t => do v <- getn x i;
        setn t i (nofZ (-3) * nexp (nneg v) + nofZ 1 * nexp (nofZ (-5) * v))%num) (repeat n0 (length x));
    do X <- new_dense (length x) 6;
    do X <- for_loop 0 6 (fun col X =>
      for_loop 0 (length x) (fun i X => do v <- getn x i; mat_set X i col (nexp (nneg (nofnat col) * v)%num)) X) X;
    Ok (mkOmpTest "Exponentials" target X [1; 5]%Z [nofZ 0; nofZ (-3); nofZ 0; nofZ 0; nofZ 0; nofZ 1]).

  (** mock_cohen_target.go:22-33 (GetSelection).  [intn k] is the result of the
      k-th call of rand.Intn(10); the state is the number of calls made. *)
  Definition mock_selection (intn : nat -> Z) (mode : Z) (k : nat) (indices : list nat) : res (list Z * nat) :=
    if (mode =? 0)%Z then Ok ([0; 4; 8]%Z, k) else
    let numSelect := Z.to_nat (intn k) in
    do selection <- for_loop 0 numSelect (fun i s => setn s i (intn (k + 1 + i)%nat)) (repeat 0%Z numSelect);
    Ok (selection, (k + 1 + numSelect)%nat).

  (** mock_cohen_target.go:11-19, 36-40: GetX returns a 10 by 10 matrix *)
  Definition MockCohenTarget (intn : nat -> Z) (mode : Z) : Target nat (list (string * N)) :=
    mkTarget 10 10 0%nat (mock_selection intn mode) [("mode"%string, nofZ mode)].
End Demo.
Arguments otName {N} _. Arguments otTarget {N} _. Arguments otX {N} _. Arguments otOrder {N} _. Arguments otCoeff {N} _.
Arguments mkOmpTest {N} _ _ _ _ _. Arguments GetExampleXY {N}. Arguments GetExampleAllModelsWrong {N} _.
Arguments LinearCubic {N} _. Arguments Exponentials {N} _. Arguments MockCohenTarget {N} _ _.

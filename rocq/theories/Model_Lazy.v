(** Model of featselect/lazyPowerMat.go. *)
From Verif Require Import Base Num Mat Model_Util.

(** map[int]int: keys with values, in the order of first insertion *)
Definition gomap := list (Z * Z).
Fixpoint map_set (m : gomap) (k v : Z) : gomap :=
  match m with
  | [] => [(k, v)]
  | (k', v') :: t => if (k' =? k)%Z then (k, v) :: t else (k', v') :: map_set t k v
  end.

(** lazyPowerMat.go:11-14 *)
Record LazyPowerMatrix (N : Num) := mkLazy { lzX : Mat N; lzPowers : list gomap }.
Arguments mkLazy {N} _ _. Arguments lzX {N} _. Arguments lzPowers {N} _.

(** lazyPowerMat.go:16-19, 22-25 (numOrigCols, NumCols) *)
Definition lzNumCols {N : Num} (m : LazyPowerMatrix N) : nat := mcols (lzX m) + length (lzPowers m).

(** lazyPowerMat.go:27-30, 33-49 (numRows, GetCol).  [ord row] is the order in which the range statement
    of that row visits the map (unspecified in Go, and different each time).
    math.Pow with an integral exponent is [npow]. *)
Definition lzGetCol {N : Num} (ord : nat -> gomap -> gomap) (m : LazyPowerMatrix N) (col : nat) : res (list N) :=
  let res := repeat n0 (mrows (lzX m)) in
  if (col <? mcols (lzX m))%nat then
    for_loop 0 (mrows (lzX m)) (fun i r => do v <- mat_at (lzX m) i col; setn r i v) res
  else
    for_loop 0 (mrows (lzX m)) (fun row r =>
      do r <- setn r row n1;
      do pw <- getn (lzPowers m) (col - mcols (lzX m));
      for_each (ord row pw) (fun kp r =>
        do x <- mat_atz (lzX m) (Z.of_nat row) (fst kp);
        do cur <- getn r row;
        setn r row (cur * npow x (snd kp))%num) r) res.

(** lazyPowerMat.go:52-54 *)
Definition lzAddPower {N : Num} (m : LazyPowerMatrix N) (p : gomap) : LazyPowerMatrix N :=
  mkLazy (lzX m) (lzPowers m ++ [p]).

(** lazyPowerMat.go:72-90; [grow] is the growth policy of append, on which the
    result of IterProduct depends *)
Definition lzAddPowerSequence {N : Num} (grow : nat -> nat) (m : LazyPowerMatrix N) (cols : list Z) (maxPower : Z)
  : res (LazyPowerMatrix N) :=
  if (maxPower + 1 <? 0)%Z then Panic else
  let powers := map Z.of_nat (seq 0 (Z.to_nat (maxPower + 1))) in
  do prod <- IterProduct grow powers (length cols);
  for_each prod (fun pow m =>
    if (Sum pow <=? 1)%Z || (maxPower <? Sum pow)%Z then Ok m else
    do p <- for_loop 0 (length cols) (fun i p =>
      do v <- getn pow i;
      if (0 <? v)%Z then do c <- getn cols i; Ok (map_set p c v) else Ok p) [];
    Ok (lzAddPower m p)) m.

(** lazyPowerMat.go:58-68 *)
Definition NewLazyMatrix {N : Num} (grow : nat -> nat) (X : Mat N) (maxPower : Z) : res (LazyPowerMatrix N) :=
  lzAddPowerSequence grow (mkLazy X []) (map Z.of_nat (seq 0 (mcols X))) maxPower.

(** gonum SetCol: panics for a column out of range or a slice of another length *)
Definition mat_setcol {N : Num} (m : Mat N) (j : nat) (l : list N) : res (Mat N) :=
  if (j <? mcols m)%nat && (length l =? mrows m)%nat
  then Ok (mkMat (mrows m) (mcols m) (fun a b => if (b =? j)%nat then nth a l n0 else mval m a b))
  else Panic.

(** lazyPowerMat.go:93-99; [ord c row] is the visiting order in GetCol(c) *)
Definition lzFullMatrix {N : Num} (ord : nat -> nat -> gomap -> gomap) (m : LazyPowerMatrix N) : res (Mat N) :=
  do X <- new_dense (mrows (lzX m)) (lzNumCols m);
  for_loop 0 (lzNumCols m) (fun c X => do l <- lzGetCol (ord c) m c; mat_setcol X c l) X.

(** Model of the helpers of featselect/util.go (and Argmax, Abs of
    orthogonalMatchingPursuit.go) that are not in [Model_Node]. *)
From Coq Require Import Sorting.Permutation Sorting.Sorted.
From Verif Require Import Base Num Mat Model_Node.

(** util.go:34-41 *)
Definition All (a : list Z) (value : Z) : bool :=
  (fix go (l : list Z) : bool :=
     match l with [] => true | x :: t => if negb (x =? value)%Z then false else go t end) a.

(** util.go:62-68.  Go ints wrap at 64 bits; the model uses unbounded integers. *)
Definition Sum (a : list Z) : Z := fold_left (fun s v => s + v)%Z a 0%Z.

(** util.go:181-188 *)
Definition ExistInt (a : list Z) (value : Z) : bool :=
  (fix go (l : list Z) : bool :=
     match l with [] => false | v :: t => if (v =? value)%Z then true else go t end) a.

(** math.MinInt32, math.MaxInt32 *)
Definition minInt32 : Z := (- 2 ^ 31)%Z.
Definition maxInt32 : Z := (2 ^ 31 - 1)%Z.

(** util.go:191-200 *)
Definition MaxInt (a : list Z) : Z :=
  fold_left (fun m v => if (m <? v)%Z then v else m) a minInt32.

(** util.go:203-212 *)
Definition MinInt (a : list Z) : Z :=
  fold_left (fun m v => if (v <? m)%Z then v else m) a maxInt32.

(** util.go:215-224 *)
Definition MinFloat {N : Num} (a : list N) : N :=
  fold_left (fun m v => if (v <? m)%num then v else m) a nmaxf.

(** util.go:227-238 *)
Definition EqualInt (a b : list Z) : res bool :=
  if negb (length a =? length b)%nat then Ok false else
  (fix go (i : nat) (l : list Z) : res bool :=
     match l with
     | [] => Ok true
     | x :: t => do y <- getn b i; if negb (x =? y)%Z then Ok false else go (S i) t
     end) O a.

(** util.go:425-432.  (The in-place effect on spare capacity of s1 is not
    modelled: the result value is.) *)
Definition UnionInt (s1 s2 : list Z) : list Z :=
  fold_left (fun s v => if negb (ExistInt s v) then s ++ [v] else s) s2 s1.

(** util.go:326-337 *)
Definition Argmin {N : Num} (a : list N) : res nat :=
  do v0 <- getn a 0;
  do st <- for_eachi 0 a
    (fun i v (st : nat * N) => Ok (if (v <? snd st)%num then (i, v) else st)) (O, v0);
  Ok (fst st).

(** orthogonalMatchingPursuit.go:105-115 *)
Definition Argmax {N : Num} (v : list N) : res nat :=
  do v0 <- getn v 0;
  do st <- for_loop 0 (length v)
    (fun i (st : nat * N) => do x <- getn v i; Ok (if (x >? snd st)%num then (i, x) else st)) (O, v0);
  Ok (fst st).

(** orthogonalMatchingPursuit.go:96-102 Abs (in place) *)
Definition AbsSlice {N : Num} (x : list N) : res (list N) :=
  for_loop 0 (length x) (fun i x => do v <- getn x i; setn x i (nabs v)) x.

(** sort.Sort of the Go library, as an oracle: some permutation of its input,
    ascending whenever Less is a strict weak order on the given elements. *)
Definition strict_weak {A} (less : A -> A -> bool) (l : list A) : Prop :=
  (forall x, In x l -> less x x = false) /\
  (forall x y z, In x l -> In y l -> In z l ->
     less x y = false -> less y z = false -> less x z = false).

Record sort_spec {A} (less : A -> A -> bool) (srt : list A -> list A) : Prop := mkSortSpec {
  ss_perm : forall l, Permutation l (srt l);
  ss_sorted : forall l, strict_weak less l ->
    StronglySorted (fun a b => less b a = false) (srt l)
}.

(** util.go:301-305 ByValue.Less *)
Definition byValueLess {N : Num} (a b : N * nat) : bool := (fst a <? fst b)%num.

(** util.go:308-323.  [srt] stands for sort.Sort. *)
Definition Argsort {N : Num} (srt : list (N * nat) -> list (N * nat)) (a : list N) : res (list nat) :=
  do sortables <- for_eachi 0 a (fun i v s => setn s i (v, i)) (repeat (n0, O) (length a));
  let sorted := srt sortables in
  for_eachi 0 sorted (fun i v r => setn r i (snd v)) (repeat O (length a)).

(** ** Slices with backing arrays, for IterProduct *)

(** A Go slice header: backing array, length, capacity. *)
Record slice := mkSlice { slArr : nat; slLen : nat; slCap : nat }.

(** The heap: array contents by address (fresh address = length). *)
Definition heap := list (list Z).

(** make([][]int, 1) gives nil slices: no backing array, capacity 0. *)
Definition nil_slice : slice := mkSlice O O O.

(** append(s, v): writes in place when there is capacity left, otherwise
    allocates [grow cap] cells and copies.  [grow] is the growth policy of the
    Go runtime. *)
Definition go_append (grow : nat -> nat) (h : heap) (s : slice) (v : Z) : res (heap * slice) :=
  if (slLen s <? slCap s)%nat then
    do a <- getn h (slArr s);
    do a' <- setn a (slLen s) v;
    do h' <- setn h (slArr s) a';
    Ok (h', mkSlice (slArr s) (S (slLen s)) (slCap s))
  else
    let old := match nth_error h (slArr s) with Some a => firstn (slLen s) a | None => [] end in
    let c := grow (slCap s) in
    Ok (h ++ [old ++ v :: repeat 0%Z (c - S (slLen s))],
        mkSlice (length h) (S (slLen s)) c).

(** Contents of a slice. *)
Definition sl_read (h : heap) (s : slice) : list Z :=
  match nth_error h (slArr s) with Some a => firstn (slLen s) a | None => [] end.

(** util.go:44-59, with the heap. *)
Definition IterProduct_mem (grow : nat -> nat) (values : list Z) (repeat : nat)
  : res (heap * list slice) :=
  for_loop 0 repeat (fun _ (st : heap * list slice) =>
    let '(h, rows) := st in
    for_each rows (fun row (st2 : heap * list slice) =>
      for_each values (fun v (st3 : heap * list slice) =>
        do (h', newRow) <- go_append grow (fst st3) row v;
        Ok (h', snd st3 ++ [newRow])) st2) (h, []))
    ([], [nil_slice]).

(** What the caller of IterProduct sees. *)
Definition IterProduct (grow : nat -> nat) (values : list Z) (repeat : nat) : res (list (list Z)) :=
  do (h, rows) <- IterProduct_mem grow values repeat;
  Ok (map (sl_read h) rows).

(** Capacity growth of []int in the Go runtime (runtime/slice.go growslice and
    the size classes): exact for capacities below 256 elements in every Go
    release (doubling); larger capacities are simplified to doubling too. *)
Definition go_grow (c : nat) : nat := if (c =? 0)%nat then 1%nat else (2 * c)%nat.

(** ** Matrices *)

(** util.go:82-109 *)
Definition RearrangeDense {N : Num} (X : Mat N) (colOrder : list Z) : res (Mat N) :=
  let nr := mrows X in
  let nc := mcols X in
  do newMat <- new_dense nr nc;
  do (newMat, inserted, numInserted) <-
    for_loop 0 (length colOrder) (fun i (st : Mat N * list bool * nat) =>
      let '(m, ins, num) := st in
      do c <- getn colOrder i;
      if negb (c =? -1)%Z then
        do m <- for_loop 0 nr (fun j m => do v <- mat_atz X (Z.of_nat j) c; mat_set m j i v) m;
        do ins <- setz ins c true;
        Ok (m, ins, S num)
      else Ok st) (newMat, repeat false nc, O);
  do (newMat, _) <-
    for_loop 0 (length inserted) (fun i (st : Mat N * nat) =>
      let '(m, num) := st in
      do b <- getn inserted i;
      if negb b then
        do m <- for_loop 0 nr (fun j m => do v <- mat_at X j i; mat_set m j num v) m;
        Ok (m, S num)
      else Ok st) (newMat, numInserted);
  Ok newMat.

(** util.go:123-129 *)
Definition Mean {N : Num} (v : list N) : res N :=
  do mu <- for_loop 0 (length v) (fun i mu => do x <- getn v i; Ok (mu + x)%num) n0;
  Ok (mu / nofnat (length v))%num.

(** util.go:132-144 *)
Definition Std {N : Num} (v : list N) : res N :=
  if (length v <=? 1)%nat then Ok n0 else
  do mu <- Mean v;
  do s <- for_loop 0 (length v)
    (fun i s => do x <- getn v i; Ok (s + (x - mu) * (x - mu))%num) n0;
  Ok (nsqrt (s / nofnat (length v - 1)))%num.

(** util.go:147-154 (in place: the result is the new contents of v) *)
Definition NormalizeArray {N : Num} (v : list N) : res (list N) :=
  do mu <- Mean v;
  do std <- Std v;
  for_loop 0 (length v) (fun i v => do x <- getn v i; setn v i ((x - mu) / std)%num) v.

(** util.go:157-162 (in place).  The raw row view is read and written back. *)
Definition NormalizeRows {N : Num} (X : Mat N) : res (Mat N) :=
  for_loop 0 (mrows X) (fun i X =>
    do r <- NormalizeArray (map (mval X i) (seq 0 (mcols X)));
    for_loop 0 (mcols X) (fun j X => do v <- getn r j; mat_set X i j v) X) X.

(** util.go:165-178 (in place) *)
Definition NormalizeCols {N : Num} (X : Mat N) : res (Mat N) :=
  let nrows := mrows X in
  do (_, X) <- for_loop 0 (mcols X) (fun col (st : list N * Mat N) =>
    let '(tmp, X) := st in
    do tmp <- for_loop 0 nrows (fun row tmp => do v <- mat_at X row col; setn tmp row v) tmp;
    do tmp <- NormalizeArray tmp;
    do X <- for_loop 0 nrows (fun row X => do v <- getn tmp row; mat_set X row col v) X;
    Ok (tmp, X)) (repeat n0 nrows, X);
  Ok X.

(** util.go:242-248 *)
Definition FullCoeffVector {N : Num} (numFeat : Z) (selection : list Z) (coeff : list N)
  : res (list N) :=
  do r <- go_make n0 numFeat;
  for_eachi 0 selection (fun i v r => do c <- getn coeff i; setz r v c) r.

(** util.go:259-272 ([SparseCoeff], util.go:253-256, is in [Model_Node]) *)
Definition WeightedAveragedCoeff {N : Num} (numFeat : Z) (weights : list N)
  (coeffs : list (SparseCoeff N)) : res (list N) :=
  do avg <- go_make n0 numFeat;
  if negb (length weights =? length coeffs)%nat then Panic else
  for_loop 0 (length weights) (fun i avg =>
    do c <- getn coeffs i;
    for_loop 0 (length (spSelection c)) (fun j avg =>
      do s <- getn (spSelection c) j;
      do w <- getn weights i;
      do x <- getn (spCoeff c) j;
      do a <- getz avg s;
      setz avg s (a + w * x)%num) avg) avg.

(** util.go:275-292: the weights and the new contents of the argument *)
Definition WeightsFromAIC {N : Num} (aic : list N) : res (list N * list N) :=
  let w := repeat n0 (length aic) in
  let min := MinFloat aic in
  do aic <- for_loop 0 (length aic) (fun i a => do x <- getn a i; setn a i (x - min)%num) aic;
  do sumW <- for_loop 0 (length aic) (fun i s => do x <- getn aic i; Ok (s + nexp (- x))%num) n0;
  do w <- for_loop 0 (length aic)
    (fun i w => do x <- getn aic i; setn w i (nexp (- x) / sumW)%num) w;
  Ok (w, aic).

(** util.go:402-421 *)
Definition Logspace {N : Num} (min max : N) (num : Z) : res (list N) :=
  if (num =? 0)%Z then Ok []
  else if (num =? 1)%Z then Ok [min]
  else
    do r <- go_make n0 num;
    let logMax := nlog max in
    let logMin := nlog min in
    let step := ((logMax - logMin) / nofZ (num - 1))%num in
    for_loop 0 (Z.to_nat num)
      (fun i r => setn r i (nexp (logMin + step * nofnat i))%num) r.

(** util.go:435-468.  Integer products do not wrap in the model. *)
Definition CohenKappa {N : Num} (s1 s2 : list Z) (totNum : Z) : N :=
  if (length s1 =? 0)%nat && (length s2 =? 0)%nat then n1 else
  let '(n11, n12) := fold_left (fun '(a, b) v =>
      if ExistInt s2 v then (a + 1, b)%Z else (a, b + 1)%Z) s1 (0, 0)%Z in
  let n21 := fold_left (fun a v => if negb (ExistInt s1 v) then (a + 1)%Z else a) s2 0%Z in
  let n22 := fold_left (fun a i =>
      if negb (ExistInt s1 (Z.of_nat i)) && negb (ExistInt s2 (Z.of_nat i)) then (a + 1)%Z else a)
      (seq 0 (Z.to_nat totNum)) 0%Z in
  let PrA := (nofZ (n11 + n22) / nofZ totNum)%num in
  let PrE := (nofZ ((n11 + n12) * (n11 + n21)) / nofZ (totNum * totNum)
              + nofZ ((n12 + n22) * (n21 + n22)) / nofZ (totNum * totNum))%num in
  ((PrA - PrE) / (n1 - PrE))%num.

(** Model of featselect/model.go: a bit array packed in bytes.  Bytes are
    integers; only the eight low bits are ever used. *)
From Verif Require Import Base.

(** model.go:4-7 *)
Record BitModel := mkBM { bmBits : list Z; bmSize : Z }.

(** model.go:10-15.  [size/8] is Go's truncating division; make panics on a
    negative length. *)
Definition NewModel (size : Z) : res BitModel :=
  let n := (Z.quot size 8 + 1)%Z in
  if (n <? 0)%Z then Panic else Ok (mkBM (repeat 0%Z (Z.to_nat n)) size).

(** uint8(0x01 << uint(r)): a negative [r] converts to a huge shift count and
    every shift by 8 or more gives 0. *)
Definition shl8 (r : Z) : Z := if ((0 <=? r) && (r <? 8))%Z then (2 ^ r)%Z else 0%Z.

(** model.go:18-22 *)
Definition bmGet (m : BitModel) (index : Z) : res bool :=
  let arrayIndex := Z.quot index 8 in
  let reminder := (index - 8 * arrayIndex)%Z in
  do b <- getz (bmBits m) arrayIndex;
  Ok (Z.land b (shl8 reminder) =? shl8 reminder)%Z.

(** model.go:25-29 *)
Definition bmSet (m : BitModel) (index : Z) : res BitModel :=
  let arrayIndex := Z.quot index 8 in
  let reminder := (index - 8 * arrayIndex)%Z in
  do b <- getz (bmBits m) arrayIndex;
  do bits <- setz (bmBits m) arrayIndex (Z.lor b (shl8 reminder));
  Ok (mkBM bits (bmSize m)).

(** model.go:32-36 *)
Definition bmFlip (m : BitModel) (index : Z) : res BitModel :=
  let arrayIndex := Z.quot index 8 in
  let reminder := (index - 8 * arrayIndex)%Z in
  do b <- getz (bmBits m) arrayIndex;
  do bits <- setz (bmBits m) arrayIndex (Z.lxor b (shl8 reminder));
  Ok (mkBM bits (bmSize m)).

(** model.go:39-45 *)
Definition bmToBools (m : BitModel) : res (list bool) :=
  if (bmSize m <? 0)%Z then Panic else
  for_loop 0 (Z.to_nat (bmSize m))
    (fun i r => do b <- bmGet m (Z.of_nat i); setn r i b)
    (repeat false (Z.to_nat (bmSize m))).

(** A caller's sequence of operations *)
Inductive bit_op := SetBit (i : Z) | FlipBit (i : Z).
Definition bm_apply (op : bit_op) (m : BitModel) : res BitModel :=
  match op with SetBit i => bmSet m i | FlipBit i => bmFlip m i end.
Definition bm_run (ops : list bit_op) (m : BitModel) : res BitModel := for_each ops bm_apply m.

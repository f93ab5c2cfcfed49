(** Model of /repo/featselect/csvIO.go.

    Text level: encoding/csv is external.  Its reader is represented by the
    sequence of records it returns (a record whose number of fields differs
    from that of the first one is the error ErrFieldCount), its writer by the
    records given to Write.  strconv.ParseFloat and fmt.Sprintf("%f") are
    parameters. *)
From Coq Require Import String Ascii Reals SpecFloat.
From Verif Require Import Base Num Mat Model_Node.
Open Scope list_scope.

Section CSV.
  Variable N : Num.

  (** csvIO.go:18-23 *)
  Record Dataset := mkDataset {
    dsX : Mat N;
    dsY : list N;
    dsNames : list string;
    dsTargetCol : Z
  }.

  (** csvIO.go:26-31 *)
  Definition GetFeatName (d : Dataset) (i : Z) : res string :=
    if (i <? dsTargetCol d)%Z then getz (dsNames d) i else getz (dsNames d) (i + 1)%Z.

  (** csvIO.go:35-45 *)
  Definition FeatNoByName (d : Dataset) (name : string) : res Z :=
    (fix go (i : Z) (l : list string) : res Z :=
       match l with
       | [] => Panic
       | n :: t => if String.eqb n name
                   then Ok (if (dsTargetCol d <? i)%Z then (i - 1)%Z else i)
                   else go (i + 1)%Z t
       end) 0%Z (dsNames d).

  (** csvIO.go:49-71 *)
  Definition GetSubset (d : Dataset) (features : list Z) : res Dataset :=
    let nr := mrows (dsX d) in
    do X <- new_dense nr (length features);
    do X <- for_loop 0 nr (fun r X =>
      for_eachi 0 features (fun col v X =>
        do x <- mat_atz (dsX d) (Z.of_nat r) v; mat_set X r col x) X) X;
    let Y := go_copy (repeat n0 nr) (dsY d) in
    do names <- for_eachi 0 features (fun i v names =>
      do nm <- GetFeatName d v; setn names i nm) (repeat EmptyString (length features + 1));
    do tname <- getz (dsNames d) (dsTargetCol d);
    do names <- setn names (length features) tname;
    Ok (mkDataset X Y names (Z.of_nat (length features))).

  (** gonum mat.EqualApprox (v0.6, external library, transcribed) *)
  Definition mat_equal_approx (a b : Mat N) (tol : N) : bool :=
    (mrows a =? mrows b)%nat && (mcols a =? mcols b)%nat &&
    forallb (fun i => forallb (fun j => EqualWithinAbsOrRel (mval a i j) (mval b i j) tol)
                        (seq 0 (mcols a))) (seq 0 (mrows a)).

  (** csvIO.go:74-91 *)
  Definition IsEqual (d o : Dataset) : bool :=
    if (negb (mrows (dsX d) =? mrows (dsX o))%nat || negb (mcols (dsX d) =? mcols (dsX o))%nat
        || negb (length (dsY d) =? length (dsY o))%nat
        || negb (length (dsNames d) =? length (dsNames o))%nat
        || negb (dsTargetCol d =? dsTargetCol o)%Z)%bool then false
    else let tol := ndec 1 (-10) in
    if negb (EqualApprox (dsY d) (dsY o) tol) then false
    else if negb (mat_equal_approx (dsX d) (dsX o) tol) then false
    else true.

  (** csvIO.go:119-167, [records] being what reader.Read() returns one after
      the other (lines 126-131), [parse] strconv.ParseFloat(v, 64) ([None] for
      an error) *)
  Definition ParseCSV (parse : string -> option N) (records : list (list string)) (targetCol : Z)
    : res Dataset :=
    do st <- for_each records (fun line (st : (list string * list (list N)) * nat) =>
      let '(names, data, lineNo) := st in
      if (lineNo =? 0)%nat then Ok (line, data, S lineNo)
      else if negb (length line =? length names)%nat then Panic
      else
        do row <- for_eachi 0 line (fun i v row =>
          match parse v with Some fl => setn row i fl | None => Ok row end)
          (repeat n0 (length line));
        Ok (names, data ++ [row], S lineNo)) ([], [], 0%nat);
    let '(names, data, _) := st in
    let targetCol := if (targetCol <? 0)%Z then (targetCol + Z.of_nat (length names))%Z else targetCol in
    do d0 <- getn data 0;
    do X <- new_densez (Z.of_nat (length data)) (Z.of_nat (length d0) - 1);
    do st <- for_loop 0 (length data) (fun row (st : Mat N * list N) =>
      do r <- getn data row;
      do st' <- for_loop 0 (length r) (fun col (st : (Mat N * list N) * nat) =>
        let '(X, Y, xcol) := st in
        do v <- getn r col;
        if (Z.of_nat col =? targetCol)%Z then do Y <- setn Y row v; Ok (X, Y, xcol)
        else do X <- mat_set X row xcol v; Ok (X, Y, S xcol)) (fst st, snd st, 0%nat);
      Ok (fst (fst st'), snd (fst st'))) (X, repeat n0 (length data));
    Ok (mkDataset (fst st) (snd st) names targetCol).

  (** csvIO.go:180-200, called by Save (csvIO.go:170-177, which writes nothing
      when the file cannot be created): the records written, [sprintf] being
      fmt.Sprintf("%f", x) *)
  Definition SaveHandle (sprintf : N -> string) (d : Dataset) : res (list (list string)) :=
    let nrows := mrows (dsX d) in
    let ncols := mcols (dsX d) in
    do st <- for_loop 0 nrows (fun i (st : list (list string) * list string) =>
      let '(out, values) := st in
      do vs <- for_loop 0 (ncols + 1) (fun j (vs : list string * Z) =>
        let '(values, shift) := vs in
        if (Z.of_nat j =? dsTargetCol d)%Z then
          do y <- getn (dsY d) i; do values <- setn values j (sprintf y); Ok (values, 1%Z)
        else
          do x <- mat_atz (dsX d) (Z.of_nat i) (Z.of_nat j - shift);
          do values <- setn values j (sprintf x); Ok (values, shift)) (values, 0%Z);
      Ok (out ++ [fst vs], fst vs)) ([dsNames d], repeat EmptyString (ncols + 1));
    Ok (fst st).

  (** csvIO.go:203-209.  As for nodes, encoding/json is represented by the
      structure it transports; it rejects NaN and infinities. *)
  Record JSONDataset := mkJSONDataset {
    jdX : list N; jdY : list N; jdTargetCol : Z; jdNames : list string; jdNr : Z; jdNc : Z }.

  (** csvIO.go:212-228 *)
  Definition dsMarshalJSON (d : Dataset) : res (option JSONDataset) :=
    let nr := mrows (dsX d) in
    let nc := mcols (dsX d) in
    do X <- for_loop 0 nr (fun i X => for_loop 0 nc (fun j X =>
      do v <- mat_at (dsX d) i j; setn X (i * nc + j) v) X) (repeat n0 (nr * nc));
    Ok (if (forallb finite X && forallb finite (dsY d))%bool
        then Some (mkJSONDataset X (dsY d) (dsTargetCol d) (dsNames d) (Z.of_nat nr) (Z.of_nat nc))
        else None).

  (** gonum mat.NewDense(r, c, data) (v0.6): panics for zero or negative
      dimensions and for data of another length *)
  Definition new_dense_from (r c : Z) (data : list N) : res (Mat N) :=
    if ((r <=? 0) || (c <=? 0))%Z then Panic
    else if negb (Z.of_nat (length data) =? r * c)%Z then Panic
    else Ok (mkMat (Z.to_nat r) (Z.to_nat c) (fun i j => nth (i * Z.to_nat c + j) data n0)).

  (** csvIO.go:231-243 (the receiver's previous content is overwritten) *)
  Definition dsUnmarshalJSON (j : JSONDataset) : res Dataset :=
    do X <- new_dense_from (jdNr j) (jdNc j) (jdX j);
    Ok (mkDataset X (jdY j) (jdNames j) (jdTargetCol j)).

  (** ** Copy: memory *)

  (** Backing arrays of float64 slices (matrices included) and of string
      slices; a reference is a position. *)
  Record Mem := mkMem { memF : list (list N); memS : list (list string) }.

  (** A Dataset in memory: X is a row-major array with dimensions *)
  Record DatasetRef := mkDsRef { rfX : nat; rfNr : nat; rfNc : nat; rfY : nat; rfNames : nat; rfTarget : Z }.

  (** csvIO.go:94-103: mat.DenseCopyOf and make allocate fresh arrays *)
  Definition dsCopy (m : Mem) (d : DatasetRef) : res (Mem * DatasetRef) :=
    do x <- getn (memF m) (rfX d);
    do y <- getn (memF m) (rfY d);
    do s <- getn (memS m) (rfNames d);
    let n := length (memF m) in
    Ok (mkMem (memF m ++ [x; go_copy (repeat n0 (length y)) y])
              (memS m ++ [go_copy (repeat EmptyString (length s)) s]),
        mkDsRef n (rfNr d) (rfNc d) (S n) (length (memS m)) (rfTarget d)).

  (** the dataset a reference denotes *)
  Definition dsLoad (m : Mem) (d : DatasetRef) : res Dataset :=
    do x <- getn (memF m) (rfX d);
    do y <- getn (memF m) (rfY d);
    do s <- getn (memS m) (rfNames d);
    Ok (mkDataset (mkMat (rfNr d) (rfNc d) (fun i j => nth (i * rfNc d + j) x n0)) y s (rfTarget d)).
End CSV.

Arguments mkDataset {N} _ _ _ _. Arguments dsX {N} _. Arguments dsY {N} _.
Arguments dsNames {N} _. Arguments dsTargetCol {N} _.
Arguments GetFeatName {N} _ _. Arguments FeatNoByName {N} _ _. Arguments GetSubset {N} _ _.
Arguments mat_equal_approx {N} _ _ _. Arguments IsEqual {N} _ _. Arguments ParseCSV {N} _ _ _.
Arguments SaveHandle {N} _ _. Arguments mkJSONDataset {N} _ _ _ _ _ _.
Arguments jdX {N} _. Arguments jdY {N} _. Arguments jdTargetCol {N} _. Arguments jdNames {N} _.
Arguments jdNr {N} _. Arguments jdNc {N} _.
Arguments dsMarshalJSON {N} _. Arguments new_dense_from {N} _ _ _. Arguments dsUnmarshalJSON {N} _.
Arguments mkMem {N} _ _. Arguments memF {N} _. Arguments memS {N} _.
Arguments dsCopy {N} _ _. Arguments dsLoad {N} _ _.


(** What encoding/csv's reader returns for the records its writer was given
    (external): the same records, except that an empty record is written as
    an empty line, which the reader skips.  Simplified: single empty fields
    and carriage returns inside quoted fields are treated in Model_CSVBytes.v,
    where reader and writer work on bytes (C99_records). *)
Definition csv_transport (recs : list (list string)) : list (list string) :=
  filter (fun r => match r with [] => false | _ => true end) recs.

(** ** fmt.Sprintf("%f", x) and strconv.ParseFloat *)

(** a decimal digit *)
Definition digit_char (d : BinNums.N) : ascii := ascii_of_N (48 + d).

(** the decimal digits of [q], without leading zeros, in front of [acc] *)
Fixpoint digits (fuel : nat) (q : BinNums.N) (acc : string) : string :=
  match fuel with
  | O => acc
  | S f => let acc := String (digit_char (q mod 10)) acc in
           if (q / 10 =? 0)%N then acc else digits f (q / 10) acc
  end.

(** the last [n] decimal digits of [r] in front of [acc] *)
Fixpoint digits_n (n : nat) (r : BinNums.N) (acc : string) : string :=
  match n with
  | O => acc
  | S n => digits_n n (r / 10) (String (digit_char (r mod 10)) acc)
  end.

(** [k] millionths in the format %f: digits, a dot, six digits (csvIO.go:191, 194) *)
Definition fmt6 (neg : bool) (k : BinNums.N) : string :=
  let q := (k / 1000000)%N in
  ((if neg then "-" else "") ++
   digits (S (N.to_nat (N.size q))) q ("." ++ digits_n 6 (k mod 1000000) ""))%string.

(** value of a digit sequence read after a prefix of value [v] *)
Fixpoint digits_val (v : BinNums.N) (s : string) : option BinNums.N :=
  match s with
  | EmptyString => Some v
  | String c s => let n := N_of_ascii c in
                  if ((48 <=? n) && (n <=? 57))%N%bool then digits_val (v * 10 + (n - 48)) s else None
  end.

(** the characters before and after the first dot *)
Fixpoint split_dot (s : string) : option (string * string) :=
  match s with
  | EmptyString => None
  | String c s' => if Ascii.eqb c "."%char then Some (EmptyString, s')
                   else match split_dot s' with Some (a, b) => Some (String c a, b) | None => None end
  end.

(** The part of strconv.ParseFloat's syntax that %f produces (csvIO.go:139):
    [-]digits.digits, NaN, +Inf and -Inf.  Other accepted spellings
    (exponents, hexadecimal, underscores, no dot) are not modelled: the
    theorems about arbitrary files take the parser as a parameter. *)
Definition parse_f {N : Num} (s : string) : option N :=
  if String.eqb s "NaN" then Some nnan
  else if String.eqb s "+Inf" then Some ninf
  else if String.eqb s "-Inf" then Some (nneg ninf)
  else
    let '(neg, s) := match s with
                     | String c s' => if Ascii.eqb c "-"%char then (true, s') else (false, s)
                     | EmptyString => (false, s)
                     end in
    match split_dot s with
    | None => None
    | Some (a, b) =>
        match digits_val 0 a, digits_val 0 b with
        | Some q, Some r =>
            if (String.length a + String.length b =? 0)%nat then None else
            let k := (Z.of_N q * 10 ^ Z.of_nat (String.length b) + Z.of_N r)%Z in
            let v := ndec k (- Z.of_nat (String.length b)) in
            Some (if neg then nneg v else v)
        | _, _ => None
        end
    end.

(** nearest integer, ties to even, of a non-negative real *)
Definition R_round_even (y : R) : Z :=
  let f := Int_part y in
  let r := (y - IZR f)%R in
  if Rltb r (/ 2) then f else if Rltb (/ 2) r then (f + 1)%Z
  else if Z.even f then f else (f + 1)%Z.

(** fmt.Sprintf("%f", x), exact arithmetic (csvIO.go:191, 194) *)
Definition sprintf_XR (x : xr) : string :=
  match x with
  | XNaN => "NaN"%string
  | XPInf => "+Inf"%string
  | XNInf => "-Inf"%string
  | XFin r => fmt6 (Rltb r 0) (Z.to_N (R_round_even (Rabs r * 1000000)))
  end.

(** m * 2^e * 10^6 to the nearest integer, ties to even *)
Definition sf_millionths (m : positive) (e : Z) : Z :=
  let a := (Zpos m * 1000000)%Z in
  match e with
  | Zneg p =>
      let b := (2 ^ Zpos p)%Z in
      let f := (a / b)%Z in
      let r := (a mod b)%Z in
      if (2 * r <? b)%Z then f else if (b <? 2 * r)%Z then (f + 1)%Z
      else if Z.even f then f else (f + 1)%Z
  | _ => (a * 2 ^ e)%Z
  end.

(** fmt.Sprintf("%f", x), binary64 (csvIO.go:191, 194) *)
Definition sprintf_F64 (x : spec_float) : string :=
  match x with
  | S754_nan => "NaN"%string
  | S754_infinity false => "+Inf"%string
  | S754_infinity true => "-Inf"%string
  | S754_zero s => fmt6 s 0
  | S754_finite s m e => fmt6 s (Z.to_N (sf_millionths m e))
  end.

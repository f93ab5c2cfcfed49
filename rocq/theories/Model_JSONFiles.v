(** The files written and read through encoding/json: a lasso path
    (cmd/lasso.go:111-121, featselect/lassoPlot.go:26-42) and a highscore list
    (cmd/bnb.go:66-72, featselect/highscore.go:78-110), as bytes.

    Reflection is replaced by one writer and one reader for each structure, with
    the fields in the order of their declaration.  A nil slice is written as
    null; lists do not tell it from an empty one, and [] is written here (both
    are read back with no elements).  What Unmarshal does with a well-formed
    text of another shape (it keeps the fields that fit) is not modelled. *)
From Coq Require Import String Ascii NArith DecimalString.
From Verif Require Import Base Num Mat Model_Node Model_Norm Model_CSV Model_CSVBytes Model_Path Model_Cmd Model_JSON.
Open Scope list_scope.

(** strconv.AppendInt(b, i, 10) *)
Definition itoa (z : Z) : bytes := text (NilZero.string_of_int (Z.to_int z)).

Definition int64 (z : Z) : bool := ((- 2 ^ 63 <=? z) && (z <? 2 ^ 63))%Z.

(** strconv.ParseInt(s, 10, 64) *)
Definition atoi (t : bytes) : option Z :=
  match NilZero.int_of_string (string_of_list_ascii t) with
  | Some d => let z := Z.of_int d in if int64 z then Some z else None
  | None => None
  end.

(** ASCII part of the comparison of field names without regard to case
    (encoding/json fold.go; its two other letters that fold to k and s are left out) *)
Definition lower (c : ascii) : ascii :=
  let x := code c in if ((65 <=? x) && (x <=? 90))%N then ascii_of_N (x + 32) else c.
Definition same_key (a b : bytes) : bool :=
  if list_eq_dec ascii_dec (map lower a) (map lower b) then true else false.

(** the value of a field: the last member with its name *)
Fixpoint field (name : string) (l : list (bytes * json)) : option json :=
  match l with
  | [] => None
  | (k, v) :: t => match field name t with Some w => Some w | None => if same_key k (text name) then Some v else None end
  end.

Definition object (l : list (string * json)) : json := JObj (map (fun m => (text (fst m), snd m)) l).

(** the elements one by one, [None] if one of them does not fit *)
Fixpoint all_of {A} (f : json -> option A) (l : list json) : option (list A) :=
  match l with
  | [] => Some []
  | v :: t => match f v, all_of f t with Some a, Some r => Some (a :: r) | _, _ => None end
  end.

Section Files.
  Variable N : Num.
  (** strconv.AppendFloat as in encode.go floatEncoder; strconv.ParseFloat(s, 64) *)
  Variable fmt : N -> bytes.
  Variable parse : bytes -> option N.

  (** *** writing *)

  Definition jint (z : Z) : json := JNum (itoa z).
  Definition jnum (x : N) : json := JNum (fmt x).
  Definition jnums (l : list N) : json := JArr (map jnum l).
  Definition jints (l : list Z) : json := JArr (map jint l).
  Definition jname (s : string) : json := JStr (text s).

  (** csvIO.go:203-209 *)
  Definition dataset_json (j : JSONDataset N) : json :=
    object [("X", jnums (jdX j)); ("Y", jnums (jdY j)); ("TargetCol", jint (jdTargetCol j));
            ("Names", JArr (map jname (jdNames j))); ("Nr", jint (jdNr j)); ("Nc", jint (jdNc j))]%string.

  (** lasso_lars.go:14-18 *)
  Definition lnode_json (n : LassoLarsNode N) : json :=
    object [("Coeff", jnums (lnCoeff n)); ("Lamb", jnum (lnLamb n)); ("Selection", jints (lnSelection n))]%string.

  (** lassoPlot.go:18-23 *)
  Definition path_json (j : PathJSON N) : json :=
    object [("Dset", dataset_json (pjDset j)); ("LassoLarsNodes", JArr (map lnode_json (pjNodes j)));
            ("Aicc", jnums (pjAicc j)); ("Bic", jnums (pjBic j))]%string.

  (** node.go:78-86 *)
  Definition node_json (j : nodeJsonified N) : json :=
    object [("selected", jints (njSelected j)); ("totNumFeatures", jint (njTotNumFeatures j)); ("lower", jnum (njLower j));
            ("upper", jnum (njUpper j)); ("score", jnum (njScore j)); ("level", jint (njLevel j)); ("coeff", jnums (njCoeff j))]%string.

  (** highscore.go:85-91 *)
  Definition hs_json (j : hsJSON N) : json :=
    object [("maxItems", jint (hjMaxItems j)); ("items", JArr (map node_json (hjItems j)))]%string.

  (** the bytes of cmd/lasso.go:111 and of cmd/bnb.go:70 *)
  Definition path_bytes (j : PathJSON N) : bytes := write (path_json j).
  Definition hs_bytes (j : hsJSON N) : bytes := write (hs_json j).

  (** *** reading: [None] for a value that does not fit (decode.go literalStore,
      array, object); null leaves the zero value *)

  Definition dec_num (v : json) : option N :=
    match v with JNum t => parse t | JNull => Some n0 | _ => None end.
  Definition dec_int (v : json) : option Z :=
    match v with JNum t => atoi t | JNull => Some 0%Z | _ => None end.
  Definition dec_name (v : json) : option string :=
    match v with JStr s => Some (string_of_list_ascii s) | JNull => Some EmptyString | _ => None end.
  Definition dec_list {A} (f : json -> option A) (v : json) : option (list A) :=
    match v with JArr l => all_of f l | JNull => Some [] | _ => None end.

  (** a field that is missing keeps its zero value *)
  Definition dec_field {A} (f : json -> option A) (zero : A) (name : string) (l : list (bytes * json)) : option A :=
    match field name l with Some v => f v | None => Some zero end.

  (** csvIO.go:232-235 *)
  Definition dec_dataset (v : json) : option (JSONDataset N) :=
    match v with
    | JObj l =>
        match dec_field (dec_list dec_num) [] "X" l, dec_field (dec_list dec_num) [] "Y" l, dec_field dec_int 0%Z "TargetCol" l,
              dec_field (dec_list dec_name) [] "Names" l, dec_field dec_int 0%Z "Nr" l, dec_field dec_int 0%Z "Nc" l with
        | Some x, Some y, Some t, Some names, Some nr, Some nc => Some (mkJSONDataset x y t names nr nc)
        | _, _, _, _, _, _ => None
        end
    | _ => None
    end.

  Definition lnode_of (v : json) : option (LassoLarsNode N) :=
    match v with
    | JObj l =>
        match dec_field (dec_list dec_num) [] "Coeff" l, dec_field dec_num n0 "Lamb" l, dec_field (dec_list dec_int) [] "Selection" l with
        | Some c, Some x, Some s => Some (mkLN c x s)
        | _, _, _ => None
        end
    | _ => None
    end.

  (** lassoPlot.go:39-40; a missing Dset stays nil and is left out *)
  Definition path_of (v : json) : option (PathJSON N) :=
    match v with
    | JObj l =>
        match field "Dset" l with
        | None => None
        | Some d =>
            match dec_dataset d, dec_field (dec_list lnode_of) [] "LassoLarsNodes" l, dec_field (dec_list dec_num) [] "Aicc" l,
                  dec_field (dec_list dec_num) [] "Bic" l with
            | Some d, Some nodes, Some a, Some b => Some (mkPathJ d nodes a b)
            | _, _, _, _ => None
            end
        end
    | _ => None
    end.

  (** node.go:111-114 *)
  Definition node_of (v : json) : option (nodeJsonified N) :=
    match v with
    | JObj l =>
        match dec_field (dec_list dec_int) [] "selected" l, dec_field dec_int 0%Z "totNumFeatures" l, dec_field dec_num n0 "lower" l,
              dec_field dec_num n0 "upper" l, dec_field dec_num n0 "score" l, dec_field dec_int 0%Z "level" l,
              dec_field (dec_list dec_num) [] "coeff" l with
        | Some s, Some t, Some lo, Some up, Some sc, Some le, Some c => Some (mkNodeJ s t lo up sc le c)
        | _, _, _, _, _, _, _ => None
        end
    | _ => None
    end.

  (** highscore.go:96-103 *)
  Definition hs_of (v : json) : option (hsJSON N) :=
    match v with
    | JObj l =>
        match dec_field dec_int 0%Z "maxItems" l, dec_field (dec_list node_of) [] "items" l with
        | Some m, Some items => Some (mkHSJ m items)
        | _, _ => None
        end
    | _ => None
    end.

  (** a file: not JSON (Unmarshal returns the error before it stores
      anything), JSON of another shape (not modelled), or what was read *)
  Inductive reading (A : Type) := NotJson | OtherShape | Read (a : A).
  Arguments NotJson {A}. Arguments OtherShape {A}. Arguments Read {A} _.

  Definition unmarshal {A} (f : json -> option A) (b : bytes) : reading A :=
    match parse_json b with
    | Ok v => match f v with Some a => Read a | None => OtherShape end
    | _ => NotJson
    end.

  (** lassoPlot.go:38-42: the error of Unmarshal is dropped, so that text that
      is not JSON gives the zero LassoLarsPath ([Ok NotJson]) *)
  Definition path_from_file (b : bytes) : res (reading (LassoLarsPath N * list N * list N)) :=
    match unmarshal path_of b with
    | Read j => do p <- LassoLarsPathFromBytes j; Ok (Read p)
    | NotJson => Ok NotJson
    | OtherShape => Ok OtherShape
    end.

  (** highscore.go:95-110 *)
  Definition hs_from_file (h : Highscore N) (b : bytes) : res (reading (Highscore N)) :=
    match unmarshal hs_of b with
    | Read j => do h <- hsUnmarshalJSON h j; Ok (Read h)
    | NotJson => Ok NotJson
    | OtherShape => Ok OtherShape
    end.
End Files.
Arguments NotJson {A}. Arguments OtherShape {A}. Arguments Read {A} _.
Arguments path_bytes {N} _ _. Arguments hs_bytes {N} _ _. Arguments path_from_file {N} _ _. Arguments hs_from_file {N} _ _ _.
Arguments path_json {N} _ _. Arguments hs_json {N} _ _. Arguments node_json {N} _ _. Arguments dataset_json {N} _ _. Arguments lnode_json {N} _ _.
Arguments path_of {N} _ _. Arguments hs_of {N} _ _. Arguments node_of {N} _ _. Arguments dec_dataset {N} _ _. Arguments lnode_of {N} _ _.
Arguments unmarshal {A} _ _. Arguments jnum {N} _ _. Arguments jnums {N} _ _. Arguments dec_num {N} _ _.

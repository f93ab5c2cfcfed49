(** The bytes of the JSON files (cmd/lasso.go:111-121, cmd/bnb.go:66-72,
    featselect/lassoPlot.go:26-42, highscore.go:78-110, node.go:89-126,
    csvIO.go:203-243).

    encoding/json is part of the Go standard library, not of the repository.
    Marshal and Unmarshal are transcribed here as the code uses them: Marshal
    writes without white space and with the HTML escapes, Unmarshal first checks
    the syntax of the whole text.  Texts of errors, the limit of the nesting
    depth and the scanner's buffers are left out.  The output of a MarshalJSON
    method is inserted as it is, since its compaction changes nothing. *)
From Coq Require Import String Ascii NArith.
From Verif Require Import Base Num Model_CSVBytes.
Open Scope list_scope.
Open Scope N_scope.

Notation code := N_of_ascii.
Definition text (s : string) : bytes := list_ascii_of_string s.

(** ** unicode/utf8 (used by encoding/json) *)

(** the next byte is between lo and hi: the rest *)
Definition next (lo hi : BinNums.N) (s : bytes) : option bytes :=
  match s with
  | c :: t => if (lo <=? code c) && (code c <=? hi) then Some t else None
  | [] => None
  end.

(** utf8.DecodeRune: the number of bytes of the first rune, 0 if they are not a
    valid encoding (then DecodeRune returns RuneError and size 1) *)
Definition rune_len (s : bytes) : nat :=
  match s with
  | [] => 0%nat
  | c :: t =>
      let x := code c in
      if x <? 128 then 1%nat
      else if x <? 194 then 0%nat
      else if x <? 224 then match next 128 191 t with Some _ => 2%nat | None => 0%nat end
      else if x <? 240 then
        match next (if x =? 224 then 160 else 128) (if x =? 237 then 159 else 191) t with
        | Some t => match next 128 191 t with Some _ => 3%nat | None => 0%nat end
        | None => 0%nat
        end
      else if x <? 245 then
        match next (if x =? 240 then 144 else 128) (if x =? 244 then 143 else 191) t with
        | Some t =>
            match next 128 191 t with
            | Some t => match next 128 191 t with Some _ => 4%nat | None => 0%nat end
            | None => 0%nat
            end
        | None => 0%nat
        end
      else 0%nat
  end.

(** the runes of a string, [None] for each byte that is not part of one *)
Fixpoint runes (fuel : nat) (s : bytes) : list (option bytes) :=
  match fuel, s with
  | S f, _ :: t =>
      match rune_len s with
      | O => None :: runes f t
      | n => Some (firstn n s) :: runes f (skipn n s)
      end
  | _, _ => []
  end.

(** utf8.EncodeRune *)
Definition encode_rune (r : BinNums.N) : bytes :=
  let b := ascii_of_N in
  if r <? 128 then [b r]
  else if r <? 2048 then [b (192 + r / 64); b (128 + r mod 64)]
  else if r <? 65536 then [b (224 + r / 4096); b (128 + r / 64 mod 64); b (128 + r mod 64)]
  else [b (240 + r / 262144); b (128 + r / 4096 mod 64); b (128 + r / 64 mod 64); b (128 + r mod 64)].

(** U+FFFD *)
Definition replacement : bytes := encode_rune 65533.

(** ** Marshal: strings (encoding/json encode.go, encodeState.string with escapeHTML) *)

Definition cBack : ascii := "\"%char.

(** the digits "0123456789abcdef" *)
Definition hex_digit (n : BinNums.N) : ascii := ascii_of_N (if n <? 10 then 48 + n else 87 + n).

Definition esc_ascii (c : ascii) : bytes :=
  let x := code c in
  if Ascii.eqb c cQuote || Ascii.eqb c cBack then [cBack; c]
  else if x =? 10 then text "\n"
  else if x =? 13 then text "\r"
  else if x =? 9 then text "\t"
  else if (x <? 32) || Ascii.eqb c "<" || Ascii.eqb c ">" || Ascii.eqb c "&"
  then text "\u00" ++ [hex_digit (x / 16); hex_digit (x mod 16)]
  else [c].

Definition esc_rune (r : option bytes) : bytes :=
  match r with
  | None => text "\ufffd"
  | Some [c] => esc_ascii c
  | Some b =>
      if list_eq_dec ascii_dec b (encode_rune 8232) then text "\u2028"
      else if list_eq_dec ascii_dec b (encode_rune 8233) then text "\u2029"
      else b
  end.

Definition quote (s : bytes) : bytes := cQuote :: flat_map esc_rune (runes (length s) s) ++ [cQuote].

(** ** Marshal: values *)

Inductive json :=
| JNull
| JBool (b : bool)
| JNum (t : bytes)
| JStr (s : bytes)
| JArr (l : list json)
| JObj (l : list (bytes * json)).

(** with a comma between the parts *)
Fixpoint commas (l : list bytes) : bytes :=
  match l with
  | [] => []
  | [a] => a
  | a :: t => a ++ cComma :: commas t
  end.

Fixpoint write (v : json) : bytes :=
  match v with
  | JNull => text "null"
  | JBool true => text "true"
  | JBool false => text "false"
  | JNum t => t
  | JStr s => quote s
  | JArr l => "["%char :: commas (map write l) ++ ["]"%char]
  | JObj l => "{"%char :: commas (map (fun m => quote (fst m) ++ ":"%char :: write (snd m)) l) ++ ["}"%char]
  end.

(** ** Unmarshal: strings (encoding/json decode.go, unquoteBytes and getu4) *)

Definition hex_val (c : ascii) : option BinNums.N :=
  let x := code c in
  if (48 <=? x) && (x <=? 57) then Some (x - 48)
  else if (97 <=? x) && (x <=? 102) then Some (x - 87)
  else if (65 <=? x) && (x <=? 70) then Some (x - 55)
  else None.

(** the four digits after \u, and what follows *)
Definition getu4 (s : bytes) : option (BinNums.N * bytes) :=
  match s with
  | a :: b :: c :: d :: t =>
      match hex_val a, hex_val b, hex_val c, hex_val d with
      | Some a, Some b, Some c, Some d => Some (((a * 16 + b) * 16 + c) * 16 + d, t)
      | _, _, _, _ => None
      end
  | _ => None
  end.

(** the character of an escape other than \u *)
Definition unescape (c : ascii) : option ascii :=
  if Ascii.eqb c cQuote || Ascii.eqb c cBack || Ascii.eqb c "/" then Some c
  else if Ascii.eqb c "b" then Some (ascii_of_N 8)
  else if Ascii.eqb c "f" then Some (ascii_of_N 12)
  else if Ascii.eqb c "n" then Some (ascii_of_N 10)
  else if Ascii.eqb c "r" then Some (ascii_of_N 13)
  else if Ascii.eqb c "t" then Some (ascii_of_N 9)
  else None.

(** utf16.DecodeRune for the escape that follows a surrogate r1 *)
Definition second_half (r1 : BinNums.N) (s : bytes) : option (BinNums.N * bytes) :=
  match s with
  | a :: b :: t =>
      if Ascii.eqb a cBack && Ascii.eqb b "u" then
        match getu4 t with
        | Some (r2, t') =>
            if (r1 <? 56320) && (56320 <=? r2) && (r2 <? 57344)
            then Some ((r1 - 55296) * 1024 + (r2 - 56320) + 65536, t') else None
        | None => None
        end
      else None
  | _ => None
  end.

Definition prepend (b : bytes) (r : res (bytes * bytes)) : res (bytes * bytes) :=
  do (s, rest) <- r; Ok (b ++ s, rest).

(** what stands between the quotes, from behind the first one, and what follows
    the second; [Panic] stands for the error of Unmarshal *)
Fixpoint read_str (fuel : nat) (s : bytes) : res (bytes * bytes) :=
  match fuel with
  | O => Fuel
  | S f =>
      match s with
      | [] => Panic
      | c :: t =>
          if Ascii.eqb c cQuote then Ok ([], t)
          else if Ascii.eqb c cBack then
            match t with
            | [] => Panic
            | e :: t' =>
                if Ascii.eqb e "u" then
                  match getu4 t' with
                  | None => Panic
                  | Some (r, t2) =>
                      if (55296 <=? r) && (r <? 57344) then
                        match second_half r t2 with
                        | Some (q, t3) => prepend (encode_rune q) (read_str f t3)
                        | None => prepend replacement (read_str f t2)
                        end
                      else prepend (encode_rune r) (read_str f t2)
                  end
                else match unescape e with
                     | Some x => prepend [x] (read_str f t')
                     | None => Panic
                     end
            end
          else if code c <? 32 then Panic
          else match rune_len s with
               | O => prepend replacement (read_str f t)
               | n => prepend (firstn n s) (read_str f (skipn n s))
               end
      end
  end.

(** ** Unmarshal: numbers (encoding/json scanner.go, state1 to stateE0) *)

Definition is_digit (c : ascii) : bool := (48 <=? code c) && (code c <=? 57).

Fixpoint span_digits (s : bytes) : bytes * bytes :=
  match s with
  | c :: t => if is_digit c then let (d, r) := span_digits t in (c :: d, r) else ([], s)
  | [] => ([], [])
  end.

(** one or more digits *)
Definition digits1 (s : bytes) : option (bytes * bytes) :=
  match span_digits s with ([], _) => None | (d, r) => Some (d, r) end.

Definition read_sign (s : bytes) : bytes * bytes :=
  match s with
  | c :: t => if Ascii.eqb c "-" then ([c], t) else ([], s)
  | [] => ([], [])
  end.

Definition read_int (s : bytes) : option (bytes * bytes) :=
  match s with
  | c :: t => if Ascii.eqb c "0" then Some ([c], t) else digits1 s
  | [] => None
  end.

Definition read_frac (s : bytes) : option (bytes * bytes) :=
  match s with
  | c :: t => if Ascii.eqb c "." then option_map (fun p => (c :: fst p, snd p)) (digits1 t) else Some ([], s)
  | [] => Some ([], [])
  end.

Definition read_exp (s : bytes) : option (bytes * bytes) :=
  match s with
  | c :: t =>
      if Ascii.eqb c "e" || Ascii.eqb c "E" then
        match t with
        | d :: t' =>
            if Ascii.eqb d "+" || Ascii.eqb d "-"
            then option_map (fun p => (c :: d :: fst p, snd p)) (digits1 t')
            else option_map (fun p => (c :: fst p, snd p)) (digits1 t)
        | [] => None
        end
      else Some ([], s)
  | [] => Some ([], [])
  end.

Definition read_num (s : bytes) : option (bytes * bytes) :=
  let (a, s) := read_sign s in
  match read_int s with
  | None => None
  | Some (b, s) =>
      match read_frac s with
      | None => None
      | Some (c, s) =>
          match read_exp s with
          | None => None
          | Some (d, s) => Some (a ++ b ++ c ++ d, s)
          end
      end
  end.

(** ** Unmarshal: values (encoding/json scanner.go) *)

Definition is_space (c : ascii) : bool := let x := code c in (x =? 32) || (x =? 9) || (x =? 13) || (x =? 10).
Fixpoint skip_space (s : bytes) : bytes :=
  match s with
  | c :: t => if is_space c then skip_space t else s
  | [] => []
  end.

(** the word, then the rest *)
Fixpoint expect (w s : bytes) : option bytes :=
  match w, s with
  | [], _ => Some s
  | a :: w, b :: s => if Ascii.eqb a b then expect w s else None
  | _ :: _, [] => None
  end.

Definition read_word (w : string) (v : json) (s : bytes) : res (json * bytes) :=
  match expect (text w) s with Some r => Ok (v, r) | None => Panic end.

(** a value, with white space in front; the parts of an array up to and
    including its bracket; those of an object *)
Fixpoint read_value (fuel : nat) (s : bytes) : res (json * bytes) :=
  match fuel with
  | O => Fuel
  | S f =>
      match skip_space s with
      | [] => Panic
      | c :: t =>
          if Ascii.eqb c "{" then
            match skip_space t with
            | d :: t' => if Ascii.eqb d "}" then Ok (JObj [], t') else
                         do (l, r) <- read_members f (d :: t'); Ok (JObj l, r)
            | [] => Panic
            end
          else if Ascii.eqb c "[" then
            match skip_space t with
            | d :: t' => if Ascii.eqb d "]" then Ok (JArr [], t') else
                         do (l, r) <- read_elements f (d :: t'); Ok (JArr l, r)
            | [] => Panic
            end
          else if Ascii.eqb c cQuote then do (b, r) <- read_str (S (length t)) t; Ok (JStr b, r)
          else if Ascii.eqb c "n" then read_word "null" JNull (c :: t)
          else if Ascii.eqb c "t" then read_word "true" (JBool true) (c :: t)
          else if Ascii.eqb c "f" then read_word "false" (JBool false) (c :: t)
          else match read_num (c :: t) with Some (b, r) => Ok (JNum b, r) | None => Panic end
      end
  end
with read_elements (fuel : nat) (s : bytes) : res (list json * bytes) :=
  match fuel with
  | O => Fuel
  | S f =>
      do (v, r) <- read_value f s;
      match skip_space r with
      | c :: t => if Ascii.eqb c "]" then Ok ([v], t)
                  else if Ascii.eqb c cComma then do (l, r) <- read_elements f t; Ok (v :: l, r)
                  else Panic
      | [] => Panic
      end
  end
with read_members (fuel : nat) (s : bytes) : res (list (bytes * json) * bytes) :=
  match fuel with
  | O => Fuel
  | S f =>
      match skip_space s with
      | c :: t =>
          if Ascii.eqb c cQuote then
            do (k, r) <- read_str (S (length t)) t;
            match skip_space r with
            | c :: t =>
                if Ascii.eqb c ":" then
                  do (v, r) <- read_value f t;
                  match skip_space r with
                  | c :: t => if Ascii.eqb c "}" then Ok ([(k, v)], t)
                              else if Ascii.eqb c cComma then do (l, r) <- read_members f t; Ok ((k, v) :: l, r)
                              else Panic
                  | [] => Panic
                  end
                else Panic
            | [] => Panic
            end
          else Panic
      | [] => Panic
      end
  end.

(** checkValid and the tree of the text *)
Definition parse_json (s : bytes) : res json :=
  do (v, r) <- read_value (2 * S (length s)) s;
  match skip_space r with [] => Ok v | _ => Panic end.

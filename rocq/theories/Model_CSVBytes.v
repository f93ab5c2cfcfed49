(** The bytes of the CSV files (csvIO.go:119-167 and 170-200).

    encoding/csv is part of the Go standard library, not of the repository.
    Its Writer and Reader are transcribed here as csvIO.go uses them: comma
    separated, UseCRLF, LazyQuotes and TrimLeadingSpace off, no comment
    character, FieldsPerRecord 0.  Line numbers of error messages, buffer sizes
    and the reuse of slices are left out; every error of the Reader is [Panic],
    because csvIO.go:129-131 panics with it.  Fields and files are byte
    sequences. *)
From Coq Require Import String Ascii.
From Verif Require Import Base Num Mat Model_CSV.
Open Scope list_scope.

Definition bytes := list ascii.

Definition cComma : ascii := ","%char.
Definition cQuote : ascii := """"%char.
Definition cCR : ascii := ascii_of_nat 13.
Definition cLF : ascii := ascii_of_nat 10.

(** ** encoding/csv Writer (csvIO.go:181) *)

(** strings.ContainsAny of comma, quote, CR, LF (Writer.fieldNeedsQuotes) *)
Definition special (c : ascii) : bool :=
  Ascii.eqb c cComma || Ascii.eqb c cQuote || Ascii.eqb c cCR || Ascii.eqb c cLF.

(** Writer.fieldNeedsQuotes.  [space f]: the first rune of f is white space
    (unicode.IsSpace; a parameter, so that no table of the white space runes is
    needed). *)
Definition needs_quotes (space : bytes -> bool) (f : bytes) : bool :=
  match f with
  | [] => false
  | _ => (if list_eq_dec ascii_dec f ["\"%char; "."%char] then true else false) ||
         existsb special f || space f
  end.

(** body of a quoted field (Writer.Write): quotes are doubled, CR and LF are
    copied because UseCRLF is off *)
Fixpoint double_quotes (f : bytes) : bytes :=
  match f with
  | [] => []
  | c :: t => if Ascii.eqb c cQuote then cQuote :: cQuote :: double_quotes t else c :: double_quotes t
  end.

Definition write_field (space : bytes -> bool) (f : bytes) : bytes :=
  if needs_quotes space f then cQuote :: double_quotes f ++ [cQuote] else f.

(** Writer.Write, fields separated by commas, without the final newline *)
Fixpoint write_fields (space : bytes -> bool) (record : list bytes) : bytes :=
  match record with
  | [] => []
  | [f] => write_field space f
  | f :: r => write_field space f ++ cComma :: write_fields space r
  end.

(** the whole file: one Write per record (csvIO.go:185, 197), then Flush
    (csvIO.go:199).  csv.NewWriter of a bufio.Writer uses that bufio.Writer, so
    that Flush reaches the handle. *)
Definition csv_write (space : bytes -> bool) (records : list (list bytes)) : bytes :=
  flat_map (fun r => write_fields space r ++ [cLF]) records.

(** ** encoding/csv Reader (csvIO.go:120, 126) *)

(** bufio.Reader.ReadSlice('\n'): the bytes up to and including the first
    newline, the bytes after it, and whether there was one *)
Fixpoint read_slice (s : bytes) : bytes * bytes * bool :=
  match s with
  | [] => ([], [], false)
  | c :: t => if Ascii.eqb c cLF then ([c], t, true)
              else let '(l, rest, b) := read_slice t in (c :: l, rest, b)
  end.

(** "\r\n" at the end of a line becomes "\n" (Reader.readLine) *)
Fixpoint end_crlf (l : bytes) : bytes :=
  match l with
  | [] => []
  | [c] => [c]
  | c :: ((d :: t) as l') =>
      match t with
      | [] => if Ascii.eqb c cCR && Ascii.eqb d cLF then [cLF] else [c; d]
      | _ => c :: end_crlf l'
      end
  end.

(** a "\r" at the end of a line is dropped (Reader.readLine at the end of the file) *)
Fixpoint end_cr (l : bytes) : bytes :=
  match l with
  | [] => []
  | [c] => if Ascii.eqb c cCR then [] else [c]
  | c :: l' => c :: end_cr l'
  end.

(** Reader.readLine: the line and the rest of the file; [None] is io.EOF *)
Definition read_line (s : bytes) : option (bytes * bytes) :=
  let '(line, rest, nl) := read_slice s in
  match line with
  | [] => None
  | _ => let line := if nl : bool then line else end_cr line in Some (end_crlf line, rest)
  end.

(** bytes before and after the first [c] (bytes.IndexByte) *)
Fixpoint cut (c : ascii) (l : bytes) : option (bytes * bytes) :=
  match l with
  | [] => None
  | d :: t => if Ascii.eqb d c then Some ([], t)
              else match cut c t with Some (a, b) => Some (d :: a, b) | None => None end
  end.

(** lengthNL(line) == len(line) *)
Definition only_nl (l : bytes) : bool :=
  match l with [] => true | [c] => Ascii.eqb c cLF | _ => false end.

(** line[:len(line)-lengthNL(line)] *)
Fixpoint chomp (l : bytes) : bytes :=
  match l with
  | [] => []
  | [c] => if Ascii.eqb c cLF then [] else [c]
  | c :: l' => c :: chomp l'
  end.

(** Reader.readRecord, the fields of one record.  [q]: [Some cur] inside a
    quoted field of which cur has been read; [line] the rest of the current
    line, [rest] the rest of the file.  [fuel]: the loops end because every
    round consumes bytes, see C99_reader_ends. *)
Fixpoint read_fields (fuel : nat) (q : option bytes) (line rest : bytes) (fields : list bytes)
  : res (list bytes * bytes) :=
  match fuel with
  | O => Fuel
  | S fuel =>
      match q with
      | None =>
          match line with
          | c :: t => if Ascii.eqb c cQuote then read_fields fuel (Some []) t rest fields
                      else
                        match cut cComma line with
                        | Some (field, line') =>
                            if existsb (Ascii.eqb cQuote) field then Panic          (* ErrBareQuote *)
                            else read_fields fuel None line' rest (fields ++ [field])
                        | None =>
                            if existsb (Ascii.eqb cQuote) (chomp line) then Panic   (* ErrBareQuote *)
                            else Ok (fields ++ [chomp line], rest)
                        end
          | [] => Ok (fields ++ [[]], rest)
          end
      | Some cur =>
          match cut cQuote line with
          | Some (a, line') =>
              match line' with
              | [] => Ok (fields ++ [cur ++ a], rest)
              | c :: t =>
                  if Ascii.eqb c cQuote then read_fields fuel (Some (cur ++ a ++ [cQuote])) t rest fields
                  else if Ascii.eqb c cComma then read_fields fuel None t rest (fields ++ [cur ++ a])
                  else if only_nl line' then Ok (fields ++ [cur ++ a], rest)
                  else Panic                                                        (* ErrQuote *)
              end
          | None =>
              match line with
              | [] => Panic                                                         (* ErrQuote *)
              | _ => match read_line rest with
                     | Some (line', rest') => read_fields fuel (Some (cur ++ line)) line' rest' fields
                     | None => read_fields fuel (Some (cur ++ line)) [] rest fields
                     end
              end
          end
      end
  end.

(** Reader.Read until io.EOF (csvIO.go:125-147): empty lines are skipped.  A
    number of fields that differs from that of the first record is the error
    ErrFieldCount, which [ParseCSV] turns into its panic. *)
Fixpoint read_records (fuel : nat) (s : bytes) : res (list (list bytes)) :=
  match fuel with
  | O => Fuel
  | S fuel =>
      match read_line s with
      | None => Ok []
      | Some (line, rest) =>
          if only_nl line then read_records fuel rest
          else do (record, rest) <- read_fields (S (length line + length rest)) None line rest [];
               do records <- read_records fuel rest;
               Ok (record :: records)
      end
  end.

Definition csv_read (s : bytes) : res (list (list bytes)) := read_records (S (length s)) s.

(** ** csvIO.go on files *)

(** csvIO.go:119-167 ParseCSV of the bytes of a file *)
Definition ParseCSVBytes {N : Num} (parse : string -> option N) (file : bytes) (targetCol : Z) : res (Dataset N) :=
  do records <- csv_read file;
  ParseCSV parse (map (map string_of_list_ascii) records) targetCol.

(** csvIO.go:180-200 SaveHandle: the bytes that reach the handle *)
Definition SaveBytes {N : Num} (space : bytes -> bool) (sprintf : N -> string) (d : Dataset N) : res bytes :=
  do records <- SaveHandle sprintf d;
  Ok (csv_write space (map (map list_ascii_of_string) records)).

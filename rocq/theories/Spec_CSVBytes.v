(** Vocabulary for the properties of CSV files at the level of bytes. *)
From Coq Require Import String Ascii.
From Verif Require Import Base Num Mat Model_CSV Model_CSVBytes.
Open Scope list_scope.

(** the text with every carriage return in front of a newline removed *)
Fixpoint crlf (s : bytes) : bytes :=
  match s with
  | [] => []
  | c :: t => match t with
              | d :: _ => if Ascii.eqb c cCR && Ascii.eqb d cLF then crlf t else c :: crlf t
              | [] => [c]
              end
  end.

(** records that are written as an empty line: no field at all, or a single empty field *)
Definition blank (r : list bytes) : bool := match r with [] => true | [[]] => true | _ => false end.

(** a Windows file: every newline preceded by a carriage return *)
Definition dos (s : bytes) : bytes := flat_map (fun c => if Ascii.eqb c cLF then [cCR; cLF] else [c]) s.

(** Vocabulary for C103: UTF-8 as in the Unicode standard (table 3-7) and the
    numbers of RFC 8259. *)
From Coq Require Import String Ascii NArith List.
From Verif Require Import Model_JSON.
Import ListNotations.
Open Scope N_scope.
Open Scope list_scope.

Definition between (lo hi : N) (c : ascii) : Prop := lo <= N_of_ascii c <= hi.
Definition tail_byte : ascii -> Prop := between 128 191.

(** the well-formed encodings of one character *)
Inductive utf8_char : list ascii -> Prop :=
| U1 : forall a, between 0 127 a -> utf8_char [a]
| U2 : forall a b, between 194 223 a -> tail_byte b -> utf8_char [a; b]
| U3a : forall a b c, between 224 224 a -> between 160 191 b -> tail_byte c -> utf8_char [a; b; c]
| U3b : forall a b c, between 225 236 a \/ between 238 239 a -> tail_byte b -> tail_byte c -> utf8_char [a; b; c]
| U3c : forall a b c, between 237 237 a -> between 128 159 b -> tail_byte c -> utf8_char [a; b; c]
| U4a : forall a b c d, between 240 240 a -> between 144 191 b -> tail_byte c -> tail_byte d -> utf8_char [a; b; c; d]
| U4b : forall a b c d, between 241 243 a -> tail_byte b -> tail_byte c -> tail_byte d -> utf8_char [a; b; c; d]
| U4c : forall a b c d, between 244 244 a -> between 128 143 b -> tail_byte c -> tail_byte d -> utf8_char [a; b; c; d].

(** text in UTF-8 *)
Definition utf8 (s : list ascii) : Prop := exists l, Forall utf8_char l /\ s = concat l.

Definition digit : ascii -> Prop := between 48 57.
Definition some_digits (d : list ascii) : Prop := d <> [] /\ Forall digit d.

(** -? (0 | [1-9][0-9]* ) (. [0-9]+)? ([eE] [+-]? [0-9]+)? *)
Definition json_number (t : list ascii) : Prop :=
  exists sign int frac exp, t = sign ++ int ++ frac ++ exp /\
    (sign = [] \/ sign = ["-"%char]) /\
    (int = ["0"%char] \/ (some_digits int /\ hd "0"%char int <> "0"%char)) /\
    (frac = [] \/ exists d, frac = "."%char :: d /\ some_digits d) /\
    (exp = [] \/ exists e s d, exp = e :: s ++ d /\ (e = "e"%char \/ e = "E"%char) /\
       (s = [] \/ s = ["+"%char] \/ s = ["-"%char]) /\ some_digits d).

(** U+FFFD *)
Definition question_mark : list ascii := map ascii_of_N [239; 191; 189].

(** [t] is [s] with every byte that is not part of a character replaced *)
Inductive repaired : list ascii -> list ascii -> Prop :=
| R_nil : repaired [] []
| R_char : forall c s t, utf8_char c -> repaired s t -> repaired (c ++ s) (c ++ t)
| R_bad : forall b s t, (forall c u, utf8_char c -> b :: s <> c ++ u) -> repaired s t -> repaired (b :: s) (question_mark ++ t).

(** all numbers of a document are written as RFC 8259 has it *)
Fixpoint numbers_ok (v : json) : Prop :=
  match v with
  | JNum t => json_number t
  | JArr l => fold_right and True (map numbers_ok l)
  | JObj l => fold_right and True (map (fun m => numbers_ok (snd m)) l)
  | _ => True
  end.

(** all strings of a document are in UTF-8 *)
Fixpoint texts_ok (v : json) : Prop :=
  match v with
  | JStr s => utf8 s
  | JArr l => fold_right and True (map texts_ok l)
  | JObj l => fold_right and True (map (fun m => utf8 (fst m) /\ texts_ok (snd m)) l)
  | _ => True
  end.

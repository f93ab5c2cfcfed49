(** Vocabulary for C106: which files are JSON (the grammar of RFC 8259 on
    bytes), and documents without the replacement character. *)
From Coq Require Import String Ascii NArith List.
From Verif Require Import Model_JSON Spec_JSON Spec_JSONText.
Import ListNotations.
Open Scope N_scope.
Open Scope list_scope.

(** the inside of a string: bytes other than control characters, quotation mark
    and backslash; escapes *)
Inductive string_syntax : list ascii -> Prop :=
| S_end : string_syntax []
| S_byte : forall c s, 32 <= N_of_ascii c -> c <> """"%char -> c <> "\"%char -> string_syntax s -> string_syntax (c :: s)
| S_short : forall c n s, short c n -> string_syntax s -> string_syntax ("\"%char :: c :: s)
| S_hex : forall t n s, escape t n -> string_syntax s -> string_syntax (t ++ s).

Inductive value_syntax : list ascii -> Prop :=
| S_word : forall w, In w ["null"; "true"; "false"]%string -> value_syntax (list_ascii_of_string w)
| S_number : forall t, json_number t -> value_syntax t
| S_string : forall t, string_syntax t -> value_syntax (""""%char :: t ++ [""""%char])
| S_empty : forall w, white w -> value_syntax ("["%char :: w ++ ["]"%char])
| S_array : forall t, elements_syntax t -> value_syntax ("["%char :: t ++ ["]"%char])
| S_nothing : forall w, white w -> value_syntax ("{"%char :: w ++ ["}"%char])
| S_object : forall t, members_syntax t -> value_syntax ("{"%char :: t ++ ["}"%char])
with elements_syntax : list ascii -> Prop :=
| S_last : forall a t b, white a -> value_syntax t -> white b -> elements_syntax (a ++ t ++ b)
| S_more : forall a t b u, white a -> value_syntax t -> white b -> elements_syntax u -> elements_syntax (a ++ t ++ b ++ ","%char :: u)
with members_syntax : list ascii -> Prop :=
| S_last_member : forall a k b c t d, white a -> string_syntax k -> white b -> white c -> value_syntax t -> white d ->
    members_syntax (a ++ """"%char :: k ++ """"%char :: b ++ ":"%char :: c ++ t ++ d)
| S_more_members : forall a k b c t d u, white a -> string_syntax k -> white b -> white c -> value_syntax t -> white d -> members_syntax u ->
    members_syntax (a ++ """"%char :: k ++ """"%char :: b ++ ":"%char :: c ++ t ++ d ++ ","%char :: u).

(** a whole file *)
Definition document_syntax (s : list ascii) : Prop := exists a t b, s = a ++ t ++ b /\ white a /\ value_syntax t /\ white b.

(** no U+FFFD in a string, in a document *)
Definition clean_string (s : list ascii) : Prop := forall p q, s <> p ++ question_mark ++ q.
Fixpoint clean (v : json) : Prop :=
  match v with
  | JStr s => clean_string s
  | JArr l => fold_right and True (map clean l)
  | JObj l => fold_right and True (map (fun m => clean_string (fst m) /\ clean (snd m)) l)
  | _ => True
  end.

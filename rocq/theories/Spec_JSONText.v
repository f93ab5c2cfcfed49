(** Vocabulary for C104: the texts of a JSON document (RFC 8259, sections 2-7). *)
From Coq Require Import String Ascii NArith List Permutation.
From Verif Require Import Model_JSON Spec_JSON.
Import ListNotations.
Open Scope N_scope.
Open Scope list_scope.

(** white space: space, tab, line feed, carriage return *)
Definition white (w : list ascii) : Prop := Forall (fun c => In (N_of_ascii c) [32; 9; 10; 13]) w.

(** the number of the character with the given encoding (Unicode table 3-6) *)
Definition scalar (b : list ascii) : N :=
  match map N_of_ascii b with
  | [a] => a
  | [a; b] => (a - 192) * 64 + (b - 128)
  | [a; b; c] => ((a - 224) * 64 + (b - 128)) * 64 + (c - 128)
  | [a; b; c; d] => (((a - 240) * 64 + (b - 128)) * 64 + (c - 128)) * 64 + (d - 128)
  | _ => 0
  end.

(** a hexadecimal digit in either case, and its value *)
Definition hexadecimal (c : ascii) (v : N) : Prop :=
  (between 48 57 c /\ v = N_of_ascii c - 48) \/ (between 65 70 c /\ v = N_of_ascii c - 65 + 10) \/ (between 97 102 c /\ v = N_of_ascii c - 97 + 10).

(** \uXXXX and its value *)
Inductive escape : list ascii -> N -> Prop :=
| Hex4 : forall a b c d v w x y, hexadecimal a v -> hexadecimal b w -> hexadecimal c x -> hexadecimal d y ->
    escape ["\"; "u"; a; b; c; d]%char (((v * 16 + w) * 16 + x) * 16 + y).

(** \X and the character it stands for *)
Definition short (c : ascii) (n : N) : Prop :=
  In (c, n) [("""", 34); ("\", 92); ("/", 47); ("b", 8); ("f", 12); ("n", 10); ("r", 13); ("t", 9)]%char.

(** one character inside a string: how it may be written, and its UTF-8 bytes *)
Inductive char_text : list ascii -> list ascii -> Prop :=
| T_plain : forall b, utf8_char b -> 32 <= scalar b -> scalar b <> 34 -> scalar b <> 92 -> char_text b b
| T_short : forall c x, short c (N_of_ascii x) -> char_text ["\"%char; c] [x]
| T_hex : forall t b, utf8_char b -> escape t (scalar b) -> char_text t b
| T_pair : forall t u hi lo b, utf8_char b -> escape t hi -> escape u lo -> 55296 <= hi <= 56319 -> 56320 <= lo <= 57343 ->
    scalar b = 65536 + (hi - 55296) * 1024 + (lo - 56320) -> char_text (t ++ u) b.

Inductive string_text : list ascii -> list ascii -> Prop :=
| T_end : string_text [] []
| T_char : forall t b s bs, char_text t b -> string_text s bs -> string_text (t ++ s) (b ++ bs).

(** the texts of a value, of the inside of an array, and of an object *)
Inductive value_text : list ascii -> json -> Prop :=
| T_null : value_text (list_ascii_of_string "null") JNull
| T_true : value_text (list_ascii_of_string "true") (JBool true)
| T_false : value_text (list_ascii_of_string "false") (JBool false)
| T_number : forall t, json_number t -> value_text t (JNum t)
| T_string : forall t s, string_text t s -> value_text (""""%char :: t ++ [""""%char]) (JStr s)
| T_empty : forall w, white w -> value_text ("["%char :: w ++ ["]"%char]) (JArr [])
| T_array : forall t l, elements_text t l -> value_text ("["%char :: t ++ ["]"%char]) (JArr l)
| T_nothing : forall w, white w -> value_text ("{"%char :: w ++ ["}"%char]) (JObj [])
| T_object : forall t l, members_text t l -> value_text ("{"%char :: t ++ ["}"%char]) (JObj l)
with elements_text : list ascii -> list json -> Prop :=
| T_last : forall a t b v, white a -> value_text t v -> white b -> elements_text (a ++ t ++ b) [v]
| T_more : forall a t b v u l, white a -> value_text t v -> white b -> elements_text u l -> elements_text (a ++ t ++ b ++ ","%char :: u) (v :: l)
with members_text : list ascii -> list (list ascii * json) -> Prop :=
| T_last_member : forall a k key b c t d v, white a -> string_text k key -> white b -> white c -> value_text t v -> white d ->
    members_text (a ++ """"%char :: k ++ """"%char :: b ++ ":"%char :: c ++ t ++ d) [(key, v)]
| T_more_members : forall a k key b c t d v u l, white a -> string_text k key -> white b -> white c -> value_text t v -> white d -> members_text u l ->
    members_text (a ++ """"%char :: k ++ """"%char :: b ++ ":"%char :: c ++ t ++ d ++ ","%char :: u) ((key, v) :: l).

(** a whole file *)
Definition document_text (s : list ascii) (v : json) : Prop :=
  exists a t b, s = a ++ t ++ b /\ white a /\ value_text t v /\ white b.

(** the same document with the members of its objects in another order *)
Inductive reordered : json -> json -> Prop :=
| Same : forall v, reordered v v
| In_array : forall l l', Forall2 reordered l l' -> reordered (JArr l) (JArr l')
| In_object : forall l l' l'', Permutation l l' -> Forall2 (fun m m' => fst m = fst m' /\ reordered (snd m) (snd m')) l' l'' ->
    reordered (JObj l) (JObj l'').

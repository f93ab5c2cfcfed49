(** C106: exactly the files that are JSON are accepted. *)
From Coq Require Import String Ascii NArith List Lia.
From Verif Require Import Base Num Mat Model_Node Model_Norm Model_CSV Model_CSVBytes Model_Path Model_Cmd Model_JSON Model_JSONFiles.
From Verif Require Import Spec_JSON Spec_JSONText Spec_JSONSyntax Proof_JSON Proof_JSON2 Proof_JSONText Proof_JSONSyntax Props_JSON Props_JSONText.
Import ListNotations.
Open Scope list_scope.

(** A text is accepted if and only if it is in the grammar of RFC 8259. *)
Theorem C106_accepted : forall s, (exists v, parse_json s = Ok v) <-> document_syntax s.
Proof. intro s. split; [intros (v & E); apply (parse_sound s v E)|apply parse_complete]. Qed.
Print Assumptions C106_accepted.

(** Everything else is refused. *)
Theorem C106_refused : forall s, parse_json s = Panic <-> ~ document_syntax s.
Proof.
  intro s. rewrite <- C106_accepted. split; [intros E (v & E'); congruence|]. intro H.
  destruct (parse_json s) as [v| |] eqn:E; [destruct H; eauto|reflexivity|destruct (C103_reader_ends s E)].
Qed.
Print Assumptions C106_refused.

(** What was read means what RFC 8259 says, where no replacement character was
    put in. *)
Theorem C106_meaning : forall s v, clean v -> (parse_json s = Ok v <-> document_text s v).
Proof. intros s v C. split; [intro E; apply (parse_sound s v E); exact C|apply parse_text]. Qed.
Print Assumptions C106_meaning.

(** The files: no result is taken from a file outside the grammar, and no file
    inside it counts as not being JSON. *)
Theorem C106_files : forall (N : Num) (parse : bytes -> option N) b h,
  (path_from_file parse b = Ok NotJson <-> ~ document_syntax b) /\
  (hs_from_file parse h b = Ok NotJson <-> ~ document_syntax b).
Proof.
  intros N parse b h. rewrite <- C106_refused. unfold path_from_file, hs_from_file, unmarshal. split.
  - destruct (parse_json b) as [v| |] eqn:E; [|tauto|destruct (C103_reader_ends b E)]. split; [|discriminate].
    destruct (path_of parse v) as [j|]; [|discriminate]. destruct (LassoLarsPathFromBytes j); discriminate.
  - destruct (parse_json b) as [v| |] eqn:E; [|tauto|destruct (C103_reader_ends b E)]. split; [|discriminate].
    destruct (hs_of parse v) as [j|]; [|discriminate]. destruct (hsUnmarshalJSON h j); discriminate.
Qed.
Print Assumptions C106_files.

(** ** Examples *)

(** extensions of other programs are refused: a comma too many, comments,
    single quotes, bare words, NaN, other ways to write numbers, line feeds in
    strings; a lone surrogate and bytes that are not UTF-8 are in the grammar *)
Example C106_example :
  (forall s, In s ["[1,]"; "{""a"":1,}"; "[1] // one"; "['a']"; "{a:1}"; "[NaN]"; "[Infinity]"; "[01]"; "[+1]"; "[.5]"; "[1.]"; "[0x1]"; "[1e]"; "";
     String.append "[""a" (String (ascii_of_N 10) "b""]"); "[""a\x41""]"; "[1 2]"; "[1"; "]"; "nul"]%string -> ~ document_syntax (text s)) /\
  (forall s, In s ["[""\uD800""]"; "[""\udc00\ud800x""]"; String.append "{""" (String (ascii_of_N 233) """:[ ]}"); " -0.5E+10 "; """"""]%string -> document_syntax (text s)) /\
  parse_json (text "[""a"", ""b""]") = Ok (JArr [JStr (text "a"); JStr (text "b")]) /\ clean (JArr [JStr (text "a"); JStr (text "b")]).
Proof.
  split; [|split; [|split]].
  - intros s H. apply C106_refused. cbn [In] in H. repeat (destruct H as [<-|H]; [reflexivity|]). destruct H.
  - intros s H. apply C106_accepted. cbn [In] in H. repeat (destruct H as [<-|H]; [eexists; reflexivity|]). destruct H.
  - reflexivity.
  - cbn [clean map fold_right]. repeat split; intros p q E; apply (f_equal (@length _)) in E; rewrite !app_length in E; cbn in E; lia.
Qed.

(** Vocabulary for the theorems about the command line programs. *)
From Coq Require Import String Ascii List.
From Verif Require Import Base Num Model_Node Model_SA Model_Save Model_Cmd.
Import ListNotations.

(** the nodes the search has inserted in a schedule of the bnb command, in order *)
Fixpoint inserted {N : Num} (ls : list (bnb_label N)) : list (Node N) :=
  match ls with
  | [] => []
  | BInsert n :: t => n :: inserted t
  | _ :: t => inserted t
  end.

(** a step that is neither an insertion nor a tick of the timer *)
Definition quiet {N : Num} (l : bnb_label N) : bool :=
  match l with BInsert _ | BTicker => false | _ => true end.

(** the cell starts with a blank *)
Definition padded (s : string) : Prop := exists t, s = String " "%char t.

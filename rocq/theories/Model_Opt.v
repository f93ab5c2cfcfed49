(** The optional parameters of SelectModel, as the caller sees them. *)
From Verif Require Import Base Num Mat Model_Node Model_Search Model_Util Model_Cmd.
Open Scope nat_scope.

(** optimize.go:71-93.  [params] is None for nil; the struct behind the pointer
    is written to in line 83 when it has no root model, so its content
    afterwards is part of the result (None for nil: the struct made in line 77
    is not visible to the caller).  The search itself is the transition system
    of Model_Search.v started in the returned state. *)
Definition SelectModel_call {N : Num} (rows cols : nat) (fit : list bool -> list N * N)
    (bnd : list bool -> Z -> N * N) (params : option (OptParams N)) (h : Highscore N)
  : res (problem N * st N * option (OptParams N)) :=
  let p := match params with None => NewSelectModelOptParams | Some p => p end in
  do (P, s) <- SelectModel_start rows cols fit bnd (opRoot p) (opMaxQueue p) (opCutoff p) h;
  Ok (P, s, match params with
            | None => None
            | Some p => Some (mkOpt (opCutoff p) (Some (match opRoot p with None => repeat false cols | Some r => r end)) (opMaxQueue p))
            end).

(** Model of featselect/highscore.go at the level of pointers: [Items] is a
    *list.List that may be nil (the zero Highscore), its elements are *Node that
    may be nil.  Model_Node.v models the lists NewHighscore makes, with nodes
    that exist; C95_same shows that the two agree on those. *)
From Verif Require Import Base Num Model_Node Model_Save.

Section HSPtr.
  Variable N : Num.

  (** highscore.go:9-12; [None] is a nil pointer *)
  Record HSPtr := mkHSPtr { hpItems : option (list (option (Node N))); hpMaxItems : Z }.

  (** [var h Highscore], [Highscore{}], [new(Highscore)] *)
  Definition hpZero : HSPtr := mkHSPtr None 0.

  (** highscore.go:15-20 *)
  Definition hpNew (maxItems : Z) : HSPtr := mkHSPtr (Some []) maxItems.

  (** container/list: Len, Front and Back read a field of the list, which
      panics through a nil pointer *)
  Definition list_of (h : HSPtr) : res (list (option (Node N))) :=
    match hpItems h with None => Panic | Some l => Ok l end.

  (** highscore.go:52-54 *)
  Definition hpLen (h : HSPtr) : res Z := do l <- list_of h; Ok (Z.of_nat (length l)).

  (** highscore.go:23-49: Len comes first *)
  Definition hpInsert (h : HSPtr) (node : option (Node N)) : res HSPtr :=
    do l <- list_of h;
    do l <- ptr_insert (hpMaxItems h) l node;
    Ok (mkHSPtr (Some l) (hpMaxItems h)).

  (** highscore.go:57-64 *)
  Definition hpBestScore (h : HSPtr) : res N :=
    do l <- list_of h;
    match l with [] => Ok n0 | n :: _ => score_ptr n end.

  (** highscore.go:67-75 *)
  Fixpoint scores_ptr (l : list (option (Node N))) : res (list N) :=
    match l with
    | [] => Ok []
    | n :: t => do s <- score_ptr n; do r <- scores_ptr t; Ok (s :: r)
    end.
  Definition hpScores (h : HSPtr) : res (list N) := do l <- list_of h; scores_ptr l.

  (** highscore.go:78-92; the result of json.Marshal is [CEmpty] for the error *)
  Definition hpMarshalJSON (h : HSPtr) : res (content N) :=
    do l <- list_of h; write_file (hpMaxItems h) l.

  (** highscore.go:95-110: the error of json.Unmarshal ([CEmpty]: no bytes)
      leaves the receiver as it was; otherwise Insert for every entry.  The
      boolean is [err == nil]. *)
  Definition hpUnmarshalJSON (h : HSPtr) (c : content N) : res (HSPtr * bool) :=
    match c with
    | CEmpty => Ok (h, false)
    | CJson m items =>
        do nodes <- for_each items
          (fun j acc =>
             match j with
             | None => Ok (acc ++ [None])
             | Some j => do n <- NodeUnmarshalJSON zero_node j; Ok (acc ++ [Some n])
             end) [];
        do h <- for_each nodes (fun n h => hpInsert h n) (mkHSPtr (hpItems h) m);
        Ok (h, true)
    end.

  (** highscore.go:117-122: NodesEqual reads both nodes *)
  Fixpoint pairs_equal (l1 l2 : list (option (Node N))) : res bool :=
    match l1, l2 with
    | [], _ => Ok true
    | Some a :: t1, Some b :: t2 => if NodesEqual a b then pairs_equal t1 t2 else Ok false
    | _ :: _, _ => Panic
    end.
  (** highscore.go:112-123; [||] does not evaluate the lengths when the
      capacities differ *)
  Definition hpEqual (h h2 : HSPtr) : res bool :=
    if negb (hpMaxItems h =? hpMaxItems h2)%Z then Ok false else
    do n <- hpLen h; do n2 <- hpLen h2;
    if negb (n =? n2)%Z then Ok false else
    do l <- list_of h; do l2 <- list_of h2; pairs_equal l l2.
End HSPtr.
Arguments mkHSPtr {N} _ _. Arguments hpItems {N} _. Arguments hpMaxItems {N} _. Arguments hpZero {N}. Arguments hpNew {N} _.
Arguments list_of {N} _. Arguments hpLen {N} _. Arguments hpInsert {N} _ _. Arguments hpBestScore {N} _.
Arguments scores_ptr {N} _. Arguments hpScores {N} _. Arguments hpMarshalJSON {N} _. Arguments hpUnmarshalJSON {N} _ _.
Arguments pairs_equal {N} _ _. Arguments hpEqual {N} _ _.
